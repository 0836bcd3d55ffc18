(** * Property C51: resampling onto a regular time base. *)
From Coq Require Import Reals List NArith ZArith Bool Lia Lra Sorted ZifyBool ZifyN ZifyNat.
From Flocq Require Import Core.Core IEEE754.BinarySingleNaN.
From Verif Require Import Base BaseFacts Num F64Facts RFacts NDArray DataModel DataSpec DataLoad ConvModel.
Local Open Scope list_scope.
Local Open Scope bool_scope.

Section Shape.
  Context {F : Type} {NF : Num F}.

  (** Specification.  Sample [i] of a table: its time and position. *)
  Definition sample_at (data : table F) (i : N) (t x y z : F) : Prop :=
    exists r, at_ data i r /\ at_ r 0 t /\ at_ r 1 x /\ at_ r 2 y /\ at_ r 3 z.
  (** The straight line through [(t0, x0)] and [(t1, x1)], at [t]. *)
  Definition line (t0 x0 t1 x1 t : F) : F := (x0 + ((x1 - x0) / (t1 - t0)) * (t - t0))%num.
  (** A row taken off the chord from sample [j - 1] to sample [j + 1]. *)
  Definition on_chord (data : table F) (j : N) (t : F) (row : list F) : Prop :=
    (0 < j)%N /\ exists t0 x0 y0 z0 t1 x1 y1 z1,
      sample_at data (j - 1) t0 x0 y0 z0 /\ sample_at data (j + 1) t1 x1 y1 z1 /\ (t0 =? t1)%num = false /\
      row = [t; line t0 x0 t1 x1 t; line t0 y0 t1 y1 t; line t0 z0 t1 z1 t].
  Definition blank_row (t : F) : list F := [t; nnan; nnan; nnan].

  Lemma row4_sample data i r : row4 data i = Val r <-> exists t x y z, sample_at data i t x y z /\ r = [t; x; y; z].
  Proof.
    unfold row4, cell, sample_at, at_. split.
    - intros E. apply bind_val in E as [t [E1 E]]. apply bind_val in E as [x [E2 E]].
      apply bind_val in E as [y [E3 E]]. apply bind_val in E as [z [E4 E]]. injection E as <-.
      apply bind_val in E1 as [r0 [R0 E1]]. rewrite R0 in E2, E3, E4. cbn [bind] in E2, E3, E4.
      exists t, x, y, z. split; [|reflexivity]. exists r0. repeat split; now apply vget_val.
    - intros [t [x [y [z [[r0 [R0 [E1 [E2 [E3 E4]]]]] ->]]]]]. apply (proj2 (vget_val _ _ _)) in R0, E1, E2, E3, E4.
      rewrite R0. cbn [bind]. rewrite E1. cbn [bind]. rewrite E2. cbn [bind]. rewrite E3. cbn [bind]. rewrite E4. reflexivity.
  Qed.
  Lemma cell_val (data : table F) i c x : cell data i c = Val x <-> exists r, at_ data i r /\ at_ r c x.
  Proof.
    unfold cell, at_. split.
    - intros E. apply bind_val in E as [r [E1 E2]]. exists r. split; now apply vget_val.
    - intros [r [E1 E2]]. apply vget_val in E1, E2. now rewrite E1.
  Qed.
  Lemma sample_cells data i t x y z : sample_at data i t x y z <->
    cell data i 0 = Val t /\ cell data i 1 = Val x /\ cell data i 2 = Val y /\ cell data i 3 = Val z.
  Proof.
    rewrite !cell_val. split; [intros [r H]; repeat split; exists r; tauto|].
    intros [[r [R H0]] [[r1 [R1 H1]] [[r2 [R2 H2]] [r3 [R3 H3]]]]]. unfold at_ in *.
    assert (r1 = r) by congruence. assert (r2 = r) by congruence. assert (r3 = r) by congruence. subst. exists r. auto.
  Qed.

  Lemma interp_row_spec data t j r : (0 < j)%N -> interp_row data t j = Val r ->
    (r = blank_row t /\ ((vlen data <= j + 1)%N \/
       exists t0 t1, cell data (j - 1) 0 = Val t0 /\ cell data (j + 1) 0 = Val t1 /\ (t0 =? t1)%num = true)) \/
    on_chord data j t r.
  Proof.
    intros Hj. unfold interp_row, blank_row. destruct (N.leb_spec (vlen data - 1) j) as [H|H].
    - intros E. left. split; [congruence|]. left. lia.
    - intros E. apply bind_val in E as [t0 [E0 E]]. apply bind_val in E as [t1 [E1 E]].
      destruct (t0 =? t1)%num eqn:Eq.
      + left. split; [congruence|]. right. exists t0, t1. auto.
      + right. split; [exact Hj|].
        apply bind_val in E as [x0 [X0 E]]. apply bind_val in E as [x1 [X1 E]]. apply bind_val in E as [y0 [Y0 E]].
        apply bind_val in E as [y1 [Y1 E]]. apply bind_val in E as [z0 [Z0 E]]. apply bind_val in E as [z1 [Z1 E]].
        exists t0, x0, y0, z0, t1, x1, y1, z1. split; [now apply sample_cells|]. split; [now apply sample_cells|].
        split; [exact Eq|]. unfold line. unfold interpolate_step in E. congruence.
  Qed.

  (** The anchor sample used for output row [k]. *)
  Fixpoint anchor (time : list F) (dt : F) (k : nat) : N :=
    match k with
    | O => 1%N
    | S k' => match next_step time (nofN (N.of_nat k) * dt)%num (anchor time dt k') with
              | Val r => r | Panic => anchor time dt k' end
    end.
  Lemma next_step_range time t rs r : next_step time t rs = Val r ->
    (rs <= r <= rs + 2)%N /\ (r = rs \/ r < vlen time)%N.
  Proof.
    unfold next_step. destruct (N.ltb_spec rs (vlen time - 1)); cbn [negb]; [|intros [= <-]; lia].
    intros E. apply bind_val in E as [o [_ E]]. apply bind_val in E as [n [_ E]].
    destruct (n <? o)%num; [injection E as <-; lia|]. destruct (nabs (t - o) <? nabs (t - n))%num; [injection E as <-; lia|].
    destruct (N.ltb_spec (rs + 1) (vlen time - 1)); cbn [negb] in E; [|injection E as <-; lia].
    apply bind_val in E as [o' [_ E]]. apply bind_val in E as [n' [_ E]].
    destruct (nabs (t - o') <? nabs (t - n'))%num; injection E as <-; lia.
  Qed.
  Lemma next_step_total time t rs : exists r, next_step time t rs = Val r.
  Proof.
    unfold next_step. destruct (N.ltb_spec rs (vlen time - 1)); cbn [negb]; [|eauto].
    destruct (vget_lt time rs) as [o ->]; [lia|]. destruct (vget_lt time (rs + 1)) as [n ->]; [lia|]. cbn [bind].
    destruct (n <? o)%num; [eauto|]. destruct (nabs (t - o) <? nabs (t - n))%num; [eauto|].
    destruct (N.ltb_spec (rs + 1) (vlen time - 1)); cbn [negb]; [|eauto].
    destruct (vget_lt time (rs + 2)) as [n' ->]; [lia|]. cbn [bind].
    destruct (nabs (t - n) <? nabs (t - n'))%num; eauto.
  Qed.
  Lemma anchor_step time dt k : next_step time (nofN (N.of_nat (S k)) * dt)%num (anchor time dt k) = Val (anchor time dt (S k)).
  Proof. cbn [anchor]. destruct (next_step_total time (nofN (N.of_nat (S k)) * dt)%num (anchor time dt k)) as [r E]. now rewrite E. Qed.
  Lemma anchor_pos time dt k : (1 <= anchor time dt k)%N.
  Proof. induction k as [|k IH]; [reflexivity|]. assert (H := next_step_range _ _ _ _ (anchor_step time dt k)). lia. Qed.

  Lemma interp_row_total data t j : Forall (fun r => (3 < vlen r)%N) data -> (0 < j)%N -> exists r, interp_row data t j = Val r.
  Proof.
    intros W Hj. unfold interp_row. destruct (N.leb_spec (vlen data - 1) j) as [H|H]; [eauto|].
    assert (C : forall i c, (i < vlen data)%N -> (c <= 3)%N -> exists x, cell data i c = Val x).
    { intros i c Hi Hc. destruct (lt_at data i Hi) as [r Hr]. rewrite Forall_forall in W.
      assert (3 < vlen r)%N by (apply W; eapply nth_error_In; exact Hr).
      destruct (lt_at r c) as [x Hx]; [lia|]. exists x. apply cell_val. eauto. }
    destruct (C (j - 1) 0)%N as [t0 ->]; [lia..|]. destruct (C (j + 1) 0)%N as [t1 ->]; [lia..|]. cbn [bind].
    destruct (t0 =? t1)%num; [eauto|].
    destruct (C (j - 1) 1)%N as [x0 ->]; [lia..|]. destruct (C (j + 1) 1)%N as [x1 ->]; [lia..|].
    destruct (C (j - 1) 2)%N as [y0 ->]; [lia..|]. destruct (C (j + 1) 2)%N as [y1 ->]; [lia..|].
    destruct (C (j - 1) 3)%N as [z0 ->]; [lia..|]. destruct (C (j + 1) 3)%N as [z1 ->]; [lia..|]. cbn [bind]. eauto.
  Qed.
  Lemma row4_total (data : table F) i : Forall (fun r => (3 < vlen r)%N) data -> (i < vlen data)%N -> exists r, row4 data i = Val r.
  Proof.
    intros W Hi. destruct (lt_at data i Hi) as [r Hr]. rewrite Forall_forall in W.
    assert (3 < vlen r)%N by (apply W; eapply nth_error_In; exact Hr).
    destruct (lt_at r 0) as [t Ht]; [lia|]. destruct (lt_at r 1) as [x Hx]; [lia|].
    destruct (lt_at r 2) as [y Hy]; [lia|]. destruct (lt_at r 3) as [z Hz]; [lia|].
    exists [t; x; y; z]. apply row4_sample. exists t, x, y, z. split; [|reflexivity]. exists r. auto.
  Qed.

  (** The whole loop. *)
  Lemma interp_loop data time dt steps a0 : Forall (fun r => (3 < vlen r)%N) data -> vlen a0 = steps ->
    forall k, (1 <= k)%N -> (k <= steps)%N -> exists a,
      mfold (fun st step =>
        let '(a, rs) := st in
        let time_new := (nofN step * dt)%num in
        let! rs := next_step time time_new rs in
        let! row := interp_row data time_new rs in
        let! a := vset a step row in
        Val (a, rs)) (range 1 k) (a0, 1%N) = Val (a, anchor time dt (N.to_nat (k - 1))) /\ vlen a = steps /\
      (forall i, (1 <= i < k)%N -> exists r, at_ a i r /\ interp_row data (nofN i * dt)%num (anchor time dt (N.to_nat i)) = Val r) /\
      (forall i, (i = 0 \/ k <= i)%N -> vget a i = vget a0 i).
  Proof.
    intros W L0 k. induction k as [|k IH] using N.peano_ind; intros H1 Hs; [lia|].
    destruct (N.eq_dec k 0) as [->|Hk].
    { exists a0. rewrite range_empty by lia. split; [reflexivity|]. split; [exact L0|]. split; [intros; lia | reflexivity]. }
    destruct IH as [a [E [La [Hr Hu]]]]; [lia..|].
    rewrite <- N.add_1_r, range_snoc, mfold_app, E by lia. cbn [bind mfold].
    replace (N.to_nat (k + 1 - 1)) with (S (N.to_nat (k - 1))) by lia.
    assert (Ek : N.of_nat (S (N.to_nat (k - 1))) = k) by lia.
    assert (S1 := anchor_step time dt (N.to_nat (k - 1))). rewrite Ek in S1. rewrite S1. cbn [bind].
    destruct (interp_row_total data (nofN k * dt)%num (anchor time dt (S (N.to_nat (k - 1)))) W) as [r Er].
    { assert (P := anchor_pos time dt (S (N.to_nat (k - 1)))). lia. }
    rewrite Er. cbn [bind]. destruct (vset_ok a k r) as [a' Ea]; [lia|]. rewrite Ea. cbn [bind].
    destruct (vset_val _ _ _ _ Ea) as [_ [La' G]]. exists a'. split; [reflexivity|]. split; [lia|]. split.
    - intros i Hi. destruct (N.eq_dec i k) as [->|D].
      + exists r. split; [apply vget_val; rewrite G, N.eqb_refl; reflexivity|]. replace (N.to_nat k) with (S (N.to_nat (k - 1))) by lia. exact Er.
      + destruct (Hr i) as [r' [A B]]; [lia|]. exists r'. split; [|exact B]. apply vget_val. rewrite G, (proj2 (N.eqb_neq k i)) by lia. now apply vget_val.
    - intros i Hi. rewrite G, (proj2 (N.eqb_neq k i)) by lia. apply Hu. lia.
  Qed.

  Lemma interp_spec data max_time steps time : column data 0 = Val time -> is_sorted time = true ->
    (0 < vlen data)%N -> Forall (fun r => (3 < vlen r)%N) data -> (0 < steps)%N ->
    exists out first last, interpolate data max_time steps = Val out /\ vlen out = steps /\
      row4 data 0 = Val first /\ row4 data (vlen data - 1) = Val last /\
      at_ out (steps - 1) last /\ ((2 <= steps)%N -> at_ out 0 first) /\
      forall k, (1 <= k < steps - 1)%N -> exists r, at_ out k r /\
        interp_row data (nofN k * (max_time / nofN steps))%num (anchor time (max_time / nofN steps)%num (N.to_nat k)) = Val r.
  Proof.
    intros Ec Es Hn W Hs. unfold interpolate. rewrite Ec. cbn [bind]. rewrite Es. cbn [negb].
    rewrite (proj2 (N.eqb_neq steps 0)) by lia.
    destruct (row4_total data 0 W Hn) as [first Ef]. destruct (row4_total data (vlen data - 1) W) as [last El]; [lia|].
    rewrite Ef, El. cbn [bind]. set (zero := repeat (repeat n0 4) (N.to_nat steps)).
    assert (Lz : vlen zero = steps) by (unfold zero, vlen; rewrite repeat_length; lia).
    destruct (vset_ok zero 0 first) as [a1 E1]; [lia|]. rewrite E1. cbn [bind]. destruct (vset_val _ _ _ _ E1) as [_ [L1 G1]].
    destruct (vset_ok a1 (steps - 1) last) as [a2 E2]; [lia|]. rewrite E2. cbn [bind]. destruct (vset_val _ _ _ _ E2) as [_ [L2 G2]].
    set (dt := (max_time / nofN steps)%num).
    destruct (N.eq_dec steps 1) as [E|D].
    { rewrite range_empty by lia. cbn [mfold bind fst]. exists a2, first, last. repeat split; try assumption; try lia.
      apply vget_val. rewrite G2, N.eqb_refl. reflexivity. }
    destruct (interp_loop data time dt steps a2 W ltac:(lia) (steps - 1)) as [a [E [La [Hr Hu]]]]; [lia..|].
    cbv zeta in E. cbv zeta. rewrite E. cbn [bind fst]. exists a, first, last. repeat split; try assumption.
    - apply vget_val. rewrite Hu by lia. rewrite G2, N.eqb_refl. reflexivity.
    - intros _. apply vget_val. rewrite Hu by lia. rewrite G2, (proj2 (N.eqb_neq (steps - 1) 0)) by lia. rewrite G1. reflexivity.
  Qed.

  (** C51, any arithmetic: as many rows as asked for, first and last sample kept, interior row [k] at
      time [k * (max_time / steps)], blank or on a chord between two samples. *)
  Theorem c51_rows data max_time steps time : column data 0 = Val time -> is_sorted time = true ->
    (0 < vlen data)%N -> Forall (fun r => (3 < vlen r)%N) data -> (0 < steps)%N ->
    exists out, interpolate data max_time steps = Val out /\ vlen out = steps /\
      (exists t x y z, sample_at data (vlen data - 1) t x y z /\ at_ out (steps - 1) [t; x; y; z]) /\
      ((2 <= steps)%N -> exists t x y z, sample_at data 0 t x y z /\ at_ out 0 [t; x; y; z]) /\
      forall k, (1 <= k < steps - 1)%N -> exists row, at_ out k row /\
        let t := (nofN k * (max_time / nofN steps))%num in
        (row = blank_row t \/ exists j, on_chord data j t row).
  Proof.
    intros Ec Es Hn W Hs. destruct (interp_spec data max_time steps time Ec Es Hn W Hs) as [out [first [last [E [L [Ef [El [Al [Af H]]]]]]]]].
    exists out. split; [exact E|]. split; [exact L|]. apply row4_sample in Ef, El.
    destruct Ef as [t [x [y [z [Sf ->]]]]], El as [t' [x' [y' [z' [Sl ->]]]]].
    split; [exists t', x', y', z'; auto|]. split; [intros H2; exists t, x, y, z; auto|].
    intros k Hk. destruct (H k Hk) as [r [Hr Er]]. exists r. split; [exact Hr|]. cbv zeta.
    assert (P : (0 < anchor time (max_time / nofN steps)%num (N.to_nat k))%N).
    { assert (P := anchor_pos time (max_time / nofN steps)%num (N.to_nat k)). lia. }
    destruct (interp_row_spec _ _ _ _ P Er) as [[-> _]|C].
    - now left.
    - right. eauto.
  Qed.
  (** Unsorted input is refused. *)
  Theorem c51_unsorted (data : table F) max_time steps time : column data 0 = Val time -> is_sorted time = false ->
    interpolate data max_time steps = Panic.
  Proof. intros Ec Es. unfold interpolate. rewrite Ec. cbn [bind]. now rewrite Es. Qed.
  Theorem c51_empty (data : table F) max_time steps : (vlen data = 0 \/ steps = 0)%N -> interpolate data max_time steps = Panic.
  Proof.
    intros H. unfold interpolate. destruct (column data 0); [cbn [bind]|reflexivity]. destruct (is_sorted a); cbn [negb]; [|reflexivity].
    destruct (N.eqb_spec steps 0); [reflexivity|]. destruct H as [H|H]; [|contradiction].
    destruct data; [reflexivity | unfold vlen in H; cbn in H; lia].
  Qed.
End Shape.

(** ** Ideal arithmetic *)
Section Ideal.
  (** Times strictly increasing, every position coordinate affine in time: [x = a + b * t]. *)
  Definition increasing (data : table R) : Prop :=
    forall i j t u, (i < j)%N -> cell data i 0 = Val t -> cell data j 0 = Val u -> (t < u)%R.
  Definition affine (data : table R) (ax bx ay by_ az bz : R) : Prop :=
    forall i t x y z, sample_at data i t x y z -> (x = ax + bx * t /\ y = ay + by_ * t /\ z = az + bz * t)%R.

  Lemma column_cell (data : table R) c l i x : column data c = Val l -> (vget l i = Val x <-> cell data i c = Val x).
  Proof.
    intros E. apply mmap_inv in E. rewrite vget_val, cell_val. split.
    - intros H. destruct (Forall2_at _ _ _ E _ _ H) as [r [Hr Hx]]. exists r. split; [exact Hr | now apply vget_val].
    - intros [r [Hr Hx]]. destruct (Forall2_at_l _ _ _ E _ _ Hr) as [y [Hy Ey]]. apply vget_val in Ey. unfold at_ in *. congruence.
  Qed.
  Lemma increasing_sorted (data : table R) l : column data 0 = Val l -> increasing data -> is_sorted l = true.
  Proof.
    intros E I.
    enough (G : forall k l', l' = skipn k l -> is_sorted l' = true) by (exact (G 0%nat l eq_refl)).
    assert (Q : forall m k l', length l' = m -> l' = skipn k l -> is_sorted l' = true).
    { induction m as [|m IH]; intros k l' Lm El; [now destruct l'|].
      destruct l' as [|a l']; [discriminate|]. destruct l' as [|b l']; [reflexivity|].
      assert (Ek : b :: l' = skipn (S k) l).
      { clear -El. revert k El. induction l as [|c l IH]; intros k El; [destruct k; discriminate|].
        destruct k; cbn in *; [congruence|]. rewrite (IH k El). destruct l; reflexivity. }
      change ((a <=? b)%num && is_sorted (b :: l') = true). apply andb_true_iff. split.
      - cbn. destruct (Rle_dec a b) as [|Nab]; [reflexivity|]. exfalso. apply Nab, Rlt_le.
        apply (I (N.of_nat k) (N.of_nat (S k))); [lia| |]; apply (column_cell data 0 l); try exact E; apply vget_val; rewrite Nat2N.id.
        + rewrite <- (Nat.add_0_r k), <- nth_error_skipn', <- El. reflexivity.
        + rewrite <- (Nat.add_0_r (S k)), <- nth_error_skipn', <- Ek. reflexivity.
      - apply (IH (S k)); [cbn in *; lia | exact Ek]. }
    intros k l' El. apply (Q (length l') k l' eq_refl El).
  Qed.

  (** Before the midpoint of the last gap the anchor is an interior sample. *)
  Lemma anchor_interior (data : table R) time dt t1 t2 k : column data 0 = Val time -> increasing data ->
    (3 <= vlen data)%N -> (0 <= dt)%R ->
    cell data (vlen data - 2) 0 = Val t1 -> cell data (vlen data - 1) 0 = Val t2 ->
    (2 * (INR k * dt) < t1 + t2)%R -> (anchor time dt k <= vlen data - 2)%N.
  Proof.
    intros Ec I Hn Hdt C1 C2.
    assert (L : vlen time = vlen data). { unfold column in Ec. apply mmap_inv in Ec. unfold vlen. now rewrite (Forall2_length _ _ _ Ec). }
    assert (V1 := proj2 (column_cell _ _ _ _ _ Ec) C1). assert (V2 := proj2 (column_cell _ _ _ _ _ Ec) C2).
    assert (T12 : (t1 < t2)%R). { apply (I (vlen data - 2) (vlen data - 1))%N; [lia | exact C1 | exact C2]. }
    induction k as [|k IH]; intros H; [cbn; lia|].
    assert (H' : (2 * (INR k * dt) < t1 + t2)%R).
    { rewrite S_INR in H. nra. }
    specialize (IH H'). assert (St := anchor_step time dt k). assert (Rg := next_step_range _ _ _ _ St).
    set (m := anchor time dt k) in *. set (m' := anchor time dt (S k)) in *.
    assert (Tn : nofN (N.of_nat (S k)) = INR (S k)). { unfold nofN. cbn [nof num_R]. rewrite nat_N_Z. symmetry. apply INR_IZR_INZ. }
    destruct (N.le_gt_cases m' (vlen data - 2)) as [G|G]; [exact G|exfalso].
    assert (Far : forall u, (u = INR (S k) * dt)%R -> (nabs (u - t1) <? nabs (u - t2))%num = true).
    { intros u ->. cbn [nltb nabs nsub num_R]. set (u := (INR (S k) * dt)%R) in *.
      assert (Rabs (u - t1) < Rabs (u - t2))%R; [|destruct (Rlt_dec _ _); [reflexivity | contradiction]].
      unfold Rabs at 2. destruct (Rcase_abs (u - t2)); unfold Rabs; destruct (Rcase_abs (u - t1)); lra. }
    unfold next_step in St. rewrite L in St. rewrite (proj2 (N.ltb_lt m (vlen data - 1))) in St by lia. cbn [negb] in St.
    destruct (N.eq_dec m (vlen data - 2)) as [Em|Dm].
    - rewrite Em in St. replace (vlen data - 2 + 1)%N with (vlen data - 1)%N in St by lia. rewrite V1, V2 in St. cbn [bind] in St.
      assert (X : (t2 <? t1)%num = false). { cbn [nltb num_R]. destruct (Rlt_dec t2 t1); [lra | reflexivity]. }
      rewrite X in St. rewrite Tn in St. rewrite Far in St by reflexivity. injection St as St. lia.
    - destruct (N.eq_dec (m + 1) (vlen data - 2)) as [Em|Dm'].
      + apply bind_val in St as [o [Eo St]]. rewrite Em in St. rewrite V1 in St. cbn [bind] in St.
        destruct (t1 <? o)%num; [injection St as St; lia|].
        destruct (nabs (nofN (N.of_nat (S k)) * dt - o) <? nabs (nofN (N.of_nat (S k)) * dt - t1))%num; [injection St as St; lia|].
        rewrite (proj2 (N.ltb_lt (vlen data - 2) (vlen data - 1))) in St by lia. cbn [negb bind] in St.
        replace (m + 2)%N with (vlen data - 1)%N in St by lia. rewrite V2 in St. cbn [bind] in St.
        rewrite Tn in St. rewrite Far in St by reflexivity. injection St as St. lia.
      + lia.
  Qed.

  (** C51, ideal arithmetic: straight-line motion is reproduced exactly at every output time before
      the midpoint between the last two samples. *)
  Theorem c51_affine (data : table R) max_time steps time ax bx ay by_ az bz t1 t2 :
    column data 0 = Val time -> increasing data -> affine data ax bx ay by_ az bz ->
    (3 <= vlen data)%N -> Forall (fun r => (3 < vlen r)%N) data -> (0 < steps)%N -> (0 <= max_time)%R ->
    cell data (vlen data - 2) 0 = Val t1 -> cell data (vlen data - 1) 0 = Val t2 ->
    exists out, interpolate data max_time steps = Val out /\ vlen out = steps /\
      forall k, (1 <= k < steps - 1)%N -> let t := (IZR (Z.of_N k) * (max_time / IZR (Z.of_N steps)))%R in
        (2 * t < t1 + t2)%R -> at_ out k [t; ax + bx * t; ay + by_ * t; az + bz * t]%R.
  Proof.
    intros Ec I Af Hn W Hs Hm C1 C2. assert (Es := increasing_sorted data time Ec I).
    destruct (interp_spec data max_time steps time Ec Es ltac:(lia) W Hs) as [out [first [last [E [L [_ [_ [_ [_ H]]]]]]]]].
    exists out. split; [exact E|]. split; [exact L|]. intros k Hk t Ht. destruct (H k Hk) as [r [Hr Er]].
    change (nofN k * (max_time / nofN steps))%num with t in Er.
    set (dt := (max_time / nofN steps)%num) in *.
    assert (Hdt : (0 <= dt)%R).
    { unfold dt, nofN. cbn [ndiv nof num_R]. apply Rmult_le_pos; [exact Hm|]. apply Rlt_le, Rinv_0_lt_compat. apply IZR_lt. lia. }
    assert (An : (anchor time dt (N.to_nat k) <= vlen data - 2)%N).
    { apply (anchor_interior data time dt t1 t2); try assumption.
      rewrite INR_IZR_INZ, N_nat_Z. exact Ht. }
    assert (Ap := anchor_pos time dt (N.to_nat k)). set (j := anchor time dt (N.to_nat k)) in *.
    destruct (interp_row_spec data t j r ltac:(lia) Er) as [[_ [Q|[u0 [u1 [A [B Q]]]]]]|[_ [u0 [x0 [y0 [z0 [u1 [x1 [y1 [z1 [S0 [S1 [Q ->]]]]]]]]]]]]].
    - lia.
    - exfalso. cbn [neqb num_R] in Q. destruct (Req_EM_T u0 u1) as [Eq|]; [|discriminate].
      assert (u0 < u1)%R by (apply (I (j - 1) (j + 1))%N; [lia | exact A | exact B]). lra.
    - destruct (Af _ _ _ _ _ S0) as [-> [-> ->]], (Af _ _ _ _ _ S1) as [-> [-> ->]].
      assert (U : (u0 < u1)%R).
      { apply (I (j - 1) (j + 1))%N; [lia | apply sample_cells in S0; tauto | apply sample_cells in S1; tauto]. }
      assert (G : forall a b, line u0 (a + b * u0)%R u1 (a + b * u1)%R t = (a + b * t)%R).
      { intros a b. unfold line. cbn [nadd nsub nmul ndiv num_R]. field. lra. }
      rewrite !G in Hr. exact Hr.
  Qed.

  (** The output times are not equally spaced: the last gap is twice the others (for data from
      time 0 to [max_time], as the CSV converter asks for). *)
  Theorem c51_spacing_refuted (data : table R) steps time max_time : column data 0 = Val time -> increasing data ->
    Forall (fun r => (3 < vlen r)%N) data -> (0 < vlen data)%N -> (3 <= steps)%N -> (0 < max_time)%R ->
    cell data 0 0 = Val 0%R -> cell data (vlen data - 1) 0 = Val max_time ->
    exists out u v w, interpolate data max_time steps = Val out /\
      cell out (steps - 3) 0 = Val u /\ cell out (steps - 2) 0 = Val v /\ cell out (steps - 1) 0 = Val w /\
      (w - v = 2 * (v - u))%R /\ (v - u = max_time / IZR (Z.of_N steps))%R /\ (v - u <> w - v)%R.
  Proof.
    intros Ec I W Hn Hs Hm C0 Cn. assert (Es := increasing_sorted data time Ec I).
    destruct (c51_rows data max_time steps time Ec Es Hn W ltac:(lia)) as [out [E [L [[t [x [y [z [Sl Al]]]]] [Af H]]]]].
    set (dt := (max_time / IZR (Z.of_N steps))%R).
    assert (Hd : (0 < dt)%R). { apply Rmult_lt_0_compat; [exact Hm|]. apply Rinv_0_lt_compat, IZR_lt. lia. }
    assert (T : forall k, (k < steps - 1)%N -> cell out k 0 = Val (IZR (Z.of_N k) * dt)%R).
    { intros k Hk. destruct (N.eq_dec k 0) as [->|D].
      - destruct (Af ltac:(lia)) as [t' [x' [y' [z' [Sf A0]]]]]. apply sample_cells in Sf as [Q _]. rewrite C0 in Q.
        assert (t' = 0%R) by congruence. subst t'. apply cell_val. eexists. split; [exact A0|].
        unfold at_. cbn [nth_error N.to_nat]. f_equal. cbn. lra.
      - destruct (H k ltac:(lia)) as [row [Hr [->|[j [_ [u0 [x0 [y0 [z0 [u1 [x1 [y1 [z1 [_ [_ [_ ->]]]]]]]]]]]]]]]];
        apply cell_val; eexists; (split; [exact Hr | reflexivity]). }
    exists out, (IZR (Z.of_N (steps - 3)) * dt)%R, (IZR (Z.of_N (steps - 2)) * dt)%R, max_time.
    split; [exact E|]. split; [apply T; lia|]. split; [apply T; lia|]. split.
    { apply sample_cells in Sl as [Q _]. rewrite Cn in Q. assert (t = max_time) by congruence. subst t.
      apply cell_val. eexists. split; [exact Al | reflexivity]. }
    assert (M : max_time = (IZR (Z.of_N steps) * dt)%R).
    { unfold dt. field. apply not_0_IZR. lia. }
    assert (A : IZR (Z.of_N (steps - 3)) = (IZR (Z.of_N steps) - 3)%R) by (rewrite N2Z.inj_sub, minus_IZR by lia; reflexivity).
    assert (B : IZR (Z.of_N (steps - 2)) = (IZR (Z.of_N steps) - 2)%R) by (rewrite N2Z.inj_sub, minus_IZR by lia; reflexivity).
    rewrite A, B. repeat split; [rewrite M at 1; ring | ring | rewrite M at 1; nra].
  Qed.
End Ideal.

(** ** What fails in the program (binary64) *)
Definition f (z : Z) : f64 := f64_of_Z z.
Definition samples1 (l : list (Z * Z)) : table f64 := map (fun tx => [f (fst tx); f (snd tx); f 0; f 0]) l.
Definition get (o : res (table f64)) (i j : N) : f64 :=
  match o with Val t => match cell t i j with Val x => x | Panic => B754_nan end | Panic => B754_nan end.

(** The anchor moves at most two samples per output row, so after a gap the row is extrapolated: between
    the samples at time 8 and 100 (both 0) the row at time 10 gets a value above every sample. *)
Definition ex_gap := samples1 [(0, 0); (1, 0); (2, 0); (3, 1); (4, 2); (5, 0); (6, 0); (7, 0); (8, 0); (100, 0)]%Z.
Theorem c51_extrapolates_refuted : let out := interpolate ex_gap (f 100) 10 in
  Beqb (get out 1 0) (f 10) = true /\ Bltb (f 7) (get out 1 1) = true.
Proof. split; vm_compute; reflexivity. Qed.
(** A row asked for at the very time of a sample does not show that sample, but the chord of its neighbours. *)
Definition ex_peak := samples1 [(0, 0); (1, 1); (2, 0); (4, 0)]%Z.
Theorem c51_at_sample_refuted : let out := interpolate ex_peak (f 4) 4 in
  Beqb (get out 1 0) (f 1) = true /\ Beqb (get out 1 1) (f 0) = true /\ Beqb (get (Val ex_peak) 1 0) (f 1) = true /\
  Beqb (get (Val ex_peak) 1 1) (f 1) = true.
Proof. repeat split; vm_compute; reflexivity. Qed.
(** A row at a time inside the measured interval may be blank. *)
Definition ex_tail := samples1 [(0, 0); (1, 0); (2, 0); (3, 0); (4, 0); (100, 0)]%Z.
Theorem c51_blank_refuted : let out := interpolate ex_tail (f 100) 6 in
  Bltb (get out 4 0) (f 67) = true /\ is_nan (get out 4 1) = true /\ is_nan (get out 4 0) = false.
Proof. repeat split; vm_compute; reflexivity. Qed.

(** ** The hypotheses are met *)
Definition ex_line : table R := map (fun k => [IZR k; 2 * IZR k; 1; 5 - IZR k]%R) [0; 1; 2; 3; 4]%Z.
Example c51_used : exists time out, column ex_line 0 = Val time /\ increasing ex_line /\
  affine ex_line 0%R 2%R 1%R 0%R 5%R (-1)%R /\ interpolate ex_line 4%R 5 = Val out /\
  at_ out 2 [8 / 5; 16 / 5; 1; 17 / 5]%R.
Proof.
  assert (Ec : column ex_line 0 = Val [0; 1; 2; 3; 4]%R) by reflexivity.
  assert (I : increasing ex_line).
  { intros i j t u Hij Ht Hu. apply (proj2 (column_cell _ _ _ _ _ Ec)) in Ht, Hu. apply vget_val in Ht, Hu.
    assert (Hj : (N.to_nat j < 5)%nat). { apply (proj1 (nth_error_Some [0; 1; 2; 3; 4]%R (N.to_nat j))). congruence. }
    assert (Hi : (N.to_nat i < N.to_nat j)%nat) by lia.
    destruct (N.to_nat i) as [|[|[|[|[|a]]]]]; try lia; destruct (N.to_nat j) as [|[|[|[|[|b]]]]]; try lia; cbn in Ht, Hu; injection Ht as <-; injection Hu as <-; lra. }
  assert (A : affine ex_line 0%R 2%R 1%R 0%R 5%R (-1)%R).
  { intros i t x y z [r [Hr [H0 [H1 [H2 H3]]]]]. unfold at_, ex_line in Hr. rewrite nth_error_map in Hr.
    destruct (nth_error [0; 1; 2; 3; 4]%Z (N.to_nat i)) as [k|]; [|discriminate]. cbn [option_map] in Hr. injection Hr as <-.
    unfold at_ in *. cbn in H0, H1, H2, H3. injection H0 as <-. injection H1 as <-. injection H2 as <-. injection H3 as <-. repeat split; ring. }
  destruct (c51_affine ex_line 4%R 5%N _ 0%R 2%R 1%R 0%R 5%R (-1)%R 3%R 4%R Ec I A) as [out [E [_ H]]]; try reflexivity.
  - cbn. lia.
  - repeat constructor.
  - lra.
  - exists [0; 1; 2; 3; 4]%R, out. split; [exact Ec|]. split; [exact I|]. split; [exact A|]. split; [exact E|].
    specialize (H 2%N ltac:(lia)). cbv zeta in H. cbn [Z.of_N] in H.
    replace (8 / 5)%R with (2 * (4 / 5))%R by field.
    replace (16 / 5)%R with (0 + 2 * (2 * (4 / 5)))%R by field.
    replace (17 / 5)%R with (5 + -1 * (2 * (4 / 5)))%R by field.
    replace 1%R with (1 + 0 * (2 * (4 / 5)))%R at 1 by ring. apply H. lra.
Qed.
