(** * PropertiesPar: the velocities of very long trajectories do not depend on the threads (C139) *)
From Coq Require Import List NArith Lia Bool Relations ZifyBool ZifyN.
From Verif Require Import Base BaseFacts Num ConvModel ParModel.
Import ListNotations.

Section Par.
  Context {A B : Type} (f : A -> res B) (l : list A).
  Notation pstate := (pstate B).

  Definition pinv (s : pstate) : Prop :=
    vlen (ps_out s) = vlen l /\
    Forall (fun r => snd r <= vlen l)%N (ps_work s) /\
    (forall i y, vget (ps_out s) i = Val (Some y) -> exists a, vget l i = Val a /\ f a = Val y) /\
    (ps_panicked s = true -> exists a, In a l /\ f a = Panic) /\
    (ps_panicked s = false -> forall i, vget (ps_out s) i = Val None -> exists r, In r (ps_work s) /\ (fst r <= i < snd r)%N).
  Lemma pinv_start : pinv (par_start l).
  Proof.
    unfold par_start. split; [unfold vlen; cbn; now rewrite map_length|]. split; [repeat constructor; cbn; lia|].
    split; [intros i y H; apply vget_val in H; cbn in H; rewrite nth_error_map in H; destruct (nth_error l _); discriminate|].
    split; [discriminate|]. intros _ i H. exists (0%N, vlen l). split; [now left|]. apply vget_lt_inv in H. cbn in *. unfold vlen in *. rewrite map_length in H. lia.
  Qed.
  Lemma pinv_step s s' : par_step f l s s' -> pinv s -> pinv s'.
  Proof.
    intros St [I1 [I2 [I3 [I4 I5]]]]. destruct St as [w lo mid hi w' out b M | w lo hi w' out b a y out' M G E S | w lo hi w' out b a M G E | w lo hi w' out];
      cbn [ps_work ps_out ps_panicked] in *.
    - split; [exact I1|]. rewrite Forall_app in I2. destruct I2 as [J1 J2]. pose proof (Forall_inv J2) as J3. apply Forall_inv_tail in J2.
      cbn in J3. split; [cbn [ps_work]; apply Forall_app; split; [exact J1|]; repeat constructor; cbn; try lia; exact J2|].
      split; [exact I3|]. split; [exact I4|]. intros Hb i Hi. destruct (I5 Hb i Hi) as [r [Hr Hir]]. apply in_app_or in Hr.
      destruct Hr as [Hr|[<-|Hr]]; [exists r; split; [apply in_or_app; now left | exact Hir] | | exists r; split; [apply in_or_app; right; right; now right | exact Hir]].
      cbn [fst snd] in Hir. destruct (N.ltb_spec i mid); [exists (lo, mid) | exists (mid, hi)]; (split; [apply in_or_app; cbn [In ps_work]; auto | cbn; lia]).
    - destruct (vset_val _ _ _ _ S) as [V1 [V2 V3]]. split; [cbn; congruence|].
      rewrite Forall_app in I2. destruct I2 as [J1 J2]. pose proof (Forall_inv J2) as J3. apply Forall_inv_tail in J2. cbn in J3.
      split; [cbn [ps_work]; apply Forall_app; split; [exact J1|]; constructor; [cbn; lia | exact J2]|].
      split; [|split; [exact I4|]].
      + intros i z Hi. cbn [ps_out] in Hi. rewrite V3 in Hi. destruct (N.eqb_spec lo i) as [Hli|]; [rewrite <- Hli; injection Hi as <-; eauto | now apply I3].
      + intros Hb i Hi. cbn [ps_out ps_panicked] in *. rewrite V3 in Hi. destruct (N.eqb_spec lo i) as [_|Hne]; [discriminate|].
        destruct (I5 Hb i Hi) as [r [Hr Hir]]. apply in_app_or in Hr.
        destruct Hr as [Hr|[<-|Hr]]; [exists r; split; [apply in_or_app; now left | exact Hir] | | exists r; split; [apply in_or_app; right; now right | exact Hir]].
        exists ((lo + 1)%N, hi). split; [apply in_or_app; right; now left | cbn in *; lia].
    - split; [exact I1|]. rewrite Forall_app in I2. destruct I2 as [J1 J2]. apply Forall_inv_tail in J2.
      split; [now apply Forall_app|]. split; [exact I3|]. split; [|discriminate]. intros _. exists a. split; [|exact E].
      apply vget_val in G. now apply nth_error_In in G.
    - split; [exact I1|]. rewrite Forall_app in I2. destruct I2 as [J1 J2]. apply Forall_inv_tail in J2.
      split; [now apply Forall_app|]. split; [exact I3|]. split; [exact I4 | discriminate].
  Qed.
  Lemma pinv_runs s : par_runs f l s -> pinv s.
  Proof.
    intros H. unfold par_runs in H. apply clos_rt_rtn1 in H. induction H as [|s s' H _ IH]; [apply pinv_start | eapply pinv_step; eauto].
  Qed.
  Lemma mmap_panic a : In a l -> f a = Panic -> mmap f l = Panic.
  Proof.
    induction l as [|b l' IH]; intros H E; [destruct H|]. cbn. destruct H as [<-|H]; [now rewrite E|].
    destruct (f b); [|reflexivity]. cbn. now rewrite IH.
  Qed.
  (** Every schedule that comes to its end gives the result of running the items one after the other. *)
  Theorem c139_any_schedule s : par_runs f l s -> par_done s -> par_result s = mmap f l.
  Proof.
    intros R D. destruct (pinv_runs s R) as [I1 [_ [I3 [I4 I5]]]]. unfold par_result. destruct (ps_panicked s).
    - destruct (I4 eq_refl) as [a [Ha E]]. symmetry. now apply (mmap_panic a).
    - assert (All : forall i, (i < vlen l)%N -> exists y a, vget (ps_out s) i = Val (Some y) /\ vget l i = Val a /\ f a = Val y).
      { intros i Hi. rewrite <- I1 in Hi. destruct (vget_lt _ _ Hi) as [[y|] Hy]; [destruct (I3 i y Hy) as [a [Ha E]]; eauto 6|].
        destruct (I5 eq_refl i Hy) as [r [Hr Hir]]. unfold par_done in D. rewrite Forall_forall in D. specialize (D r Hr). lia. }
      clear I3 I4 I5 R D. revert I1 All. generalize (ps_out s). clear s. induction l as [|a l' IH]; intros out I1 All.
      { destruct out; [reflexivity|]. unfold vlen in I1. cbn in I1. lia. }
      destruct out as [|o out]; [unfold vlen in I1; cbn in I1; lia|].
      destruct (All 0%N) as [y [b [H1 [H2 H3]]]]; [unfold vlen; cbn; lia|]. injection H1 as ->. injection H2 as <-.
      cbn. rewrite H3. cbn. rewrite (IH out); [reflexivity | unfold vlen in *; cbn in *; lia|].
      intros i Hi. destruct (All (i + 1)%N) as [z [c [K1 [K2 K3]]]]; [unfold vlen in *; cbn; lia|].
      exists z, c. apply vget_val in K1. apply vget_val in K2. replace (N.to_nat (i + 1)) with (S (N.to_nat i)) in K1, K2 by lia. cbn in K1, K2. split; [now apply vget_val|]. split; [now apply vget_val | exact K3].
  Qed.
  (** No schedule gets stuck or runs for ever: as long as there is work something can be done, and every step leaves less of it. *)
  Theorem c139_progress s : par_runs f l s -> ~ par_done s -> exists s', par_step f l s s'.
  Proof.
    intros R D. destruct (pinv_runs s R) as [I1 [I2 _]]. destruct s as [w out b]. unfold par_done in D. cbn [ps_work ps_out] in *.
    assert (E : exists r, In r w /\ (fst r < snd r)%N).
    { clear R I1. induction w as [|r w IH]; [destruct D; constructor|]. destruct (N.ltb_spec (fst r) (snd r)) as [H|H]; [exists r; split; [now left | exact H]|].
      destruct IH as [r' [H1 H2]]; [intros D'; apply D; now constructor | now apply Forall_inv_tail in I2|]. exists r'. split; [now right | exact H2]. }
    destruct E as [[lo hi] [Hin Hlt]]. cbn [fst snd] in Hlt. rewrite Forall_forall in I2. specialize (I2 _ Hin). cbn in I2.
    apply in_split in Hin. destruct Hin as [w1 [w2 ->]]. destruct (vget_lt l lo) as [a Ha]; [lia|].
    destruct (f a) as [y|] eqn:Ey; [|eexists; eapply P_panic; eauto].
    destruct (vset_ok out lo (Some y)) as [out' Ho]; [lia|]. eexists. eapply P_item; eauto.
  Qed.
  Definition work_left (s : pstate) : nat := fold_right (fun r n => Nat.max 1 (3 * N.to_nat (snd r - fst r) - 1) + n)%nat 0%nat (ps_work s).
  Lemma work_app w w' out b : work_left (mkPs (w ++ w') out b) = (work_left (mkPs w out b) + work_left (mkPs w' out b))%nat.
  Proof. unfold work_left. cbn [ps_work]. induction w as [|r w IH]; [reflexivity|]. cbn [app fold_right]. rewrite IH. lia. Qed.
  Theorem c139_terminates s s' : par_step f l s s' -> (work_left s' < work_left s)%nat.
  Proof.
    intros St. destruct St; rewrite !work_app; unfold work_left; cbn [ps_work fold_right fst snd]; lia.
  Qed.
  Corollary c139_no_endless_run (s : pstate) : Acc (fun s' s => par_step f l s s') s.
  Proof.
    remember (work_left s) as n eqn:E. assert (H : (work_left s <= n)%nat) by lia. clear E. revert s H.
    induction n as [|n IH]; intros s H; constructor; intros s' St; pose proof (c139_terminates s s' St); [lia|]. apply IH. lia.
  Qed.
End Par.

(** The velocities of a trajectory of 200000 rows or more: whatever the threads do, the table is the one of the sequential model, about which C109 speaks. *)
Theorem c139_velocities {F} {NF : Num F} (fit : list F -> list F -> N -> option (list F)) (powf : F -> F -> F) (data : table F) (s degree : N) st :
  par_runs (par_row fit powf s degree) (par_windows data) st -> par_done st ->
  velocity_parallel fit powf data s degree =
    if N.even s then Panic else let! rows := par_result st in if (vlen rows =? 0)%N then Panic else Val rows.
Proof.
  intros R D. rewrite (c139_any_schedule _ _ _ R D). reflexivity.
Qed.

(** Two threads on three items: the last item is done first. *)
Example c139_case : let f := fun n : N => if (n <? 9)%N then Val (n * n)%N else Panic in
  exists s, par_runs f [3; 4; 5]%N s /\ par_done s /\ par_result s = Val [9; 16; 25]%N.
Proof.
  cbv zeta. exists (mkPs [(2, 2); (3, 3)]%N [Some 9; Some 16; Some 25]%N false). split; [|split; [repeat constructor; cbn; lia | reflexivity]].
  unfold par_runs, par_start. apply clos_rt1n_rt.
  eapply Relation_Operators.rt1n_trans; [apply (P_split _ _ [] 0 2 3 [])%N; lia|].
  eapply Relation_Operators.rt1n_trans; [eapply (P_item _ _ [(0, 2)%N] 2 3 [])%N; [lia | reflexivity..]|].
  eapply Relation_Operators.rt1n_trans; [eapply (P_item _ _ [] 0 2 [(3, 3)%N])%N; [lia | reflexivity..]|].
  eapply Relation_Operators.rt1n_trans; [eapply (P_item _ _ [] 1 2 [(3, 3)%N])%N; [lia | reflexivity..]|]. apply rt1n_refl.
Qed.
