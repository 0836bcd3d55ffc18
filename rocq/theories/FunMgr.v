(** * FunMgr: the two data managers read their files. *)
From Coq Require Import NArith List Bool Lia ZifyBool ZifyN ZifyNat.
From Verif Require Import Base BaseFacts Num NDArray SelModel DataModel DataSpec DataProofs DataLoad PropertiesGrid PropertiesData GridModel FunModel FunSpec FunProofs.

Section P.
  Context (bld : build) (f : pfile f64) (st : stats f64).
  Hypothesis OK : pf_ok f.
  Hypothesis Nt : st_timesteps st = pf_timesteps f.
  Let nt := pf_timesteps f.

  Lemma p_list : exists L, vlen L = nt /\ (forall t x, at_ L t x -> p_shows f t x) /\
    (forall t x, p_shows f t x -> (t < nt)%N -> at_ L t x).
  Proof.
    destruct (p_ld f OK 0 nt ltac:(lia)) as [L [_ [V H]]]. exists L.
    assert (V' : vlen L = nt) by (rewrite V; lia). split; [exact V'|]. split; [intros t x Hx; exact (H t x Hx)|].
    intros t x Sx Ht. destruct (lt_at L t ltac:(lia)) as [y Hy].
    rewrite (p_shows_unique f t x y Sx (H t y Hy)). exact Hy.
  Qed.
  Lemma p_rect t x : p_shows f t x -> rect x.
  Proof.
    intros [_ [A [B [C [D [E [G [H _]]]]]]]]. unfold rect, vlen in *. repeat split; lia.
  Qed.
  Lemma p_reads_inv d : dinv nt (p_shows f) d -> exists L, vlen L = nt /\ (forall t x, at_ L t x -> p_shows f t x) /\
    Forall rect L /\ reads_as (p_mgr bld f st) d L.
  Proof.
    intros I. destruct p_list as [L [V [H1 H2]]]. exists L. split; [exact V|]. split; [exact H1|]. split.
    - apply Forall_forall. intros x Hx. apply In_nth_error in Hx. destruct Hx as [k Hk].
      apply (p_rect (N.of_nat k)). apply H1. unfold at_. now rewrite Nnat.Nat2N.id.
    - split; [cbn [p_mgr m_stats]; rewrite V; exact Nt|]. exists (dinv nt (p_shows f)). split; [exact I|].
      intros e t x Ie Hx. assert (Ht : (t < nt)%N) by (rewrite <- V; now apply at_lt in Hx).
      destruct (get_ok bld (p_load f) nt (p_shows f) (p_nt f OK) (p_ld f OK) e t Ie Ht) as [e' [y [G [Sy [I' _]]]]].
      exists e'. cbn [p_mgr m_get]. split; [|exact I'].
      rewrite (p_shows_unique f t x y (H1 t x Hx) Sy). exact G.
  Qed.
  (** After any history of reads the manager reads the file. *)
  Theorem p_reads ops d outs : Forall (op_in_range nt) ops -> p_hist bld f ops = Val (d, outs) ->
    exists L, vlen L = nt /\ (forall t x, at_ L t x -> p_shows f t x) /\ Forall rect L /\ reads_as (p_mgr bld f st) d L.
  Proof.
    intros Ho E. apply p_reads_inv. unfold p_hist, dhist in E.
    destruct (new_ok bld (p_load f) nt (p_shows f) (p_nt f OK) (p_ld f OK)) as [d0 [E0 [I _]]].
    fold nt in E. rewrite E0 in E. cbn [bind] in E.
    exact (run_inv bld (p_load f) nt (p_shows f) _ (p_nt f OK) (p_ld f OK) (p_ax bld f OK) ops d0 d outs I Ho E).
  Qed.

  (** A just opened file that fits one buffer: auxiliary reads are right as well. *)
  Theorem p_aux_reads d : (nt <= BUFFERSIZE)%N -> dm_new bld (p_load f) nt = Val d ->
    exists L, vlen L = nt /\ (forall t x, at_ L t x -> p_shows f t x) /\ Forall rect L /\
      aux_reads (fun _ _ => True) (p_mgr bld f st) d L.
  Proof.
    intros Hb E. destruct (new_ok bld (p_load f) nt (p_shows f) (p_nt f OK) (p_ld f OK)) as [d0 [E0 [I [X [Lo Hi]]]]].
    rewrite E in E0. injection E0 as <-.
    destruct (p_reads_inv d I) as [L [V [H1 [R _]]]]. exists L. split; [exact V|]. split; [exact H1|]. split; [exact R|].
    split; [cbn [p_mgr m_stats]; rewrite V; exact Nt|].
    assert (Aux : forall e t x, dinv nt (p_shows f) e -> still nt e -> (0 < vlen (d_extra e))%N -> at_ L t x ->
      p_get_buffer bld (p_load f) nt e t 0 = Val (e, x)).
    { intros e t x Ie Se Ve Hx. assert (Ht : (t < nt)%N) by (rewrite <- V; now apply at_lt in Hx).
      destruct (p_aux_still bld (p_load f) nt (p_shows f) (p_nt f OK) (p_ld f OK) e t 0 Ie Se Ht Ve) as [y [G Sy]].
      now rewrite (p_shows_unique f t x y (H1 t x Hx) Sy). }
    exists (fun e => dinv nt (p_shows f) e /\ still nt e), (fun _ e => dinv nt (p_shows f) e /\ still nt e /\ (0 < vlen (d_extra e))%N).
    cbn [p_mgr m_setup m_get m_getb].
    split. { split; [exact I|]. split; [split; [exact Lo | rewrite Hi; lia] | rewrite X; constructor]. }
    split.
    { intros e [Ie [Sm Se]].
      destruct (setup_ok bld (p_load f) nt (p_shows f) (p_nt f OK) (p_ld f OK) e 0 Ie) as [e' [k [b [G [I' [X1 [Vk [_ [_ [_ [_ [_ X2]]]]]]]]]]]].
      exists e'. split; [exact G|]. split; [exact I'|]. split; [split; [now rewrite X1 | now apply X2]|].
      apply vget_lt_inv in Vk. lia. }
    split.
    { intros _ e t x [Ie [[Sm Se] Ve]] Hx. assert (Ht : (t < nt)%N) by (rewrite <- V; now apply at_lt in Hx).
      destruct (get_ok bld (p_load f) nt (p_shows f) (p_nt f OK) (p_ld f OK) e t Ie Ht) as [e' [y [G [Sy [I' [X1 [X2 [X3 X4]]]]]]]].
      exists e'. split; [rewrite (p_shows_unique f t x y (H1 t x Hx) Sy); exact G|].
      split; [exact I'|]. split; [split; [now rewrite (X4 Hb Sm) | now rewrite X1] | now rewrite X1]. }
    split; [intros lo e t x [Ie [Se Ve]] Hx _; exists e; split; [now apply Aux | auto]|].
    split; [|tauto].
    intros lo e t x e' y [Ie [Se Ve]] Hx G. fold nt in G. rewrite (Aux e t x Ie Se Ve Hx) in G.
    apply Val_pair in G. destruct G as [<- <-]. auto.
  Qed.
End P.

(** Time-ordered files whose datasets have one row per particle. *)
Definition tf_rect (f : tfile f64) : Prop :=
  forall t x, (t < tf_timesteps f)%N -> t_shows f t x -> rect x.

Section T.
  Context (bld : build) (f : tfile f64) (st : stats f64).
  Hypothesis OK : tf_ok f.
  Hypothesis Rc : tf_rect f.
  Hypothesis Nt : st_timesteps st = tf_timesteps f.
  Let nt := tf_timesteps f.

  Lemma t_list : exists L, vlen L = nt /\ (forall t x, at_ L t x -> t_shows f t x).
  Proof.
    destruct (t_ld f OK 0 nt ltac:(lia)) as [L [_ [V H]]]. exists L.
    split; [rewrite V; lia|]. intros t x Hx; exact (H t x Hx).
  Qed.
  Lemma t_reads_inv d : dinv nt (t_shows f) d -> exists L, vlen L = nt /\ (forall t x, at_ L t x -> t_shows f t x) /\
    Forall rect L /\ reads_as (t_mgr bld f st) d L.
  Proof.
    intros I. destruct t_list as [L [V H1]]. exists L. split; [exact V|]. split; [exact H1|]. split.
    - apply Forall_forall. intros x Hx. apply In_nth_error in Hx. destruct Hx as [k Hk].
      assert (A : at_ L (N.of_nat k) x) by (unfold at_; now rewrite Nnat.Nat2N.id).
      apply (Rc (N.of_nat k)); [fold nt; rewrite <- V; now apply at_lt in A | now apply H1].
    - split; [cbn [t_mgr m_stats]; rewrite V; exact Nt|]. exists (dinv nt (t_shows f)). split; [exact I|].
      intros e t x Ie Hx. assert (Ht : (t < nt)%N) by (rewrite <- V; now apply at_lt in Hx).
      destruct (get_ok bld (t_load f) nt (t_shows f) (t_nt f OK) (t_ld f OK) e t Ie Ht) as [e' [y [G [Sy [I' _]]]]].
      exists e'. cbn [t_mgr m_get]. split; [|exact I'].
      rewrite (t_shows_unique f t x y (H1 t x Hx) Sy). exact G.
  Qed.
  Theorem t_reads ops d outs : Forall (op_in_range nt) ops -> t_hist bld f ops = Val (d, outs) ->
    exists L, vlen L = nt /\ (forall t x, at_ L t x -> t_shows f t x) /\ Forall rect L /\ reads_as (t_mgr bld f st) d L.
  Proof.
    intros Ho E. apply t_reads_inv. unfold t_hist, dhist in E.
    destruct (new_ok bld (t_load f) nt (t_shows f) (t_nt f OK) (t_ld f OK)) as [d0 [E0 [I _]]].
    fold nt in E. rewrite E0 in E. cbn [bind] in E.
    exact (run_inv bld (t_load f) nt (t_shows f) _ (t_nt f OK) (t_ld f OK) (t_ax bld f OK) ops d0 d outs I Ho E).
  Qed.

  Lemma t_getb_shape d t id d' x : dinv nt (t_shows f) d -> (t < nt)%N ->
    t_get_buffer bld (t_load f) nt d t id = Val (d', x) ->
    d_names d' = d_names d /\ exists b, vget (d_extra d') id = Val b /\ (b_lo b <= t)%N.
  Proof.
    intros I Ht E.
    destruct (t_aux_sound bld (t_load f) nt (t_shows f) (t_nt f OK) (t_ld f OK) d t id d' x I Ht E) as [_ [I' _]].
    unfold t_get_buffer in E.
    apply bind_val in E. destruct E as [e [Ge E]]. apply bind_val in E. destruct E as [la [_ E]].
    apply bind_val in E. destruct E as [e1 [_ E]]. apply bind_val in E. destruct E as [e2 [_ E]].
    apply bind_val in E. destruct E as [ex [X E]]. apply bind_val in E. destruct E as [k [K E]].
    apply bind_val in E. destruct E as [y [Y E]]. apply Val_pair in E. destruct E as [<- _].
    cbn [d_names d_extra] in *. split; [reflexivity|]. exists e2.
    destruct (vset_nth _ _ _ _ X) as [_ [Eq _]]. assert (G2 : vget ex id = Val e2) by (now apply vget_val).
    split; [exact G2|].
    assert (B := extra_inv nt (t_shows f) _ id e2 I' G2). destruct B as [B1 [B2 _]].
    destruct (N.le_gt_cases (b_lo e2) t) as [|Lt]; [assumption|]. exfalso.
    assert (W := wrapped t (b_lo e2) Lt ltac:(destruct (t_nt f OK); unfold nt in *; lia) bld k K).
    apply vget_lt_inv in Y. unfold BUFFERSIZE in B1. lia.
  Qed.

  (** A just opened file: auxiliary reads are right, and succeed going forward. *)
  Theorem t_aux_reads d : dm_new bld (t_load f) nt = Val d ->
    exists L, vlen L = nt /\ (forall t x, at_ L t x -> t_shows f t x) /\ Forall rect L /\
      aux_reads N.le (t_mgr bld f st) d L.
  Proof.
    intros E. destruct (new_ok bld (t_load f) nt (t_shows f) (t_nt f OK) (t_ld f OK)) as [d0 [E0 [I [X [Lo Hi]]]]].
    rewrite E in E0. injection E0 as <-.
    destruct (t_reads_inv d I) as [L [V [H1 [R _]]]]. exists L. split; [exact V|]. split; [exact H1|]. split; [exact R|].
    split; [cbn [t_mgr m_stats]; rewrite V; exact Nt|].
    assert (Nm : d_names d = []).
    { destruct I as [_ [_ I]]. rewrite X in I. now destruct (d_names d). }
    exists (fun e => dinv nt (t_shows f) e /\ (d_names e = [] \/ d_names e = [0%N])),
      (fun lo e => dinv nt (t_shows f) e /\ d_names e = [0%N] /\ exists b, vget (d_extra e) 0 = Val b /\ (b_lo b <= lo)%N).
    cbn [t_mgr m_setup m_get m_getb].
    split; [auto|].
    split.
    { intros e [Ie Ne].
      destruct (setup_ok bld (t_load f) nt (t_shows f) (t_nt f OK) (t_ld f OK) e 0 Ie) as [e' [k [b [G [I' [X1 [Vk [B1 [B2 [Ix _]]]]]]]]]].
      exists e'. split; [exact G|]. split; [exact I'|].
      assert (Ne' : d_names e' = [0%N]).
      { unfold dm_setup in G. destruct Ne as [Ne|Ne]; rewrite Ne in G; cbn [index_of N.eqb Pos.eqb] in G.
        - apply bind_val in G. destruct G as [b' [_ G]]. injection G as <-. reflexivity.
        - apply bind_val in G. destruct G as [b0 [_ G]]. apply bind_val in G. destruct G as [b' [_ G]].
          apply bind_val in G. destruct G as [ex [_ G]]. injection G as <-. reflexivity. }
      split; [exact Ne'|]. rewrite Ne' in Ix. cbn in Ix. injection Ix as <-. exists b. split; [exact Vk | lia]. }
    split.
    { intros lo e t x [Ie [Ne [b [Vb Lb]]]] Hx. assert (Ht : (t < nt)%N) by (rewrite <- V; now apply at_lt in Hx).
      destruct (get_ok bld (t_load f) nt (t_shows f) (t_nt f OK) (t_ld f OK) e t Ie Ht) as [e' [y [G [Sy [I' [X1 [X2 _]]]]]]].
      exists e'. split; [rewrite (t_shows_unique f t x y (H1 t x Hx) Sy); exact G|].
      split; [exact I'|]. split; [congruence|]. exists b. rewrite X1. auto. }
    assert (Snd : forall lo e t x e' y,
      (dinv nt (t_shows f) e /\ d_names e = [0%N] /\ exists b, vget (d_extra e) 0 = Val b /\ (b_lo b <= lo)%N) ->
      at_ L t x -> t_get_buffer bld (t_load f) nt e t 0 = Val (e', y) ->
      y = x /\ dinv nt (t_shows f) e' /\ d_names e' = [0%N] /\ exists b, vget (d_extra e') 0 = Val b /\ (b_lo b <= t)%N).
    { intros lo e t x e' y [Ie [Ne _]] Hx G. assert (Ht : (t < nt)%N) by (rewrite <- V; now apply at_lt in Hx).
      destruct (t_aux_sound bld (t_load f) nt (t_shows f) (t_nt f OK) (t_ld f OK) e t 0 e' y Ie Ht G) as [Sy [I' _]].
      destruct (t_getb_shape e t 0 e' y Ie Ht G) as [N' Bx].
      split; [exact (t_shows_unique f t y x Sy (H1 t x Hx))|]. split; [exact I'|]. split; [congruence | exact Bx]. }
    split.
    { intros lo e t x Ie Hx Le. pose proof Ie as [Ie1 [Ne [b [Vb Lb]]]].
      assert (Ht : (t < nt)%N) by (rewrite <- V; now apply at_lt in Hx).
      destruct (t_aux_forward bld (t_load f) nt (t_shows f) (t_nt f OK) (t_ld f OK) e t 0 b Ie1 Ht Vb ltac:(lia)) as [e' [y [b' [G _]]]].
      destruct (Snd lo e t x e' y Ie Hx G) as [-> I']. exists e'. split; [exact G | exact I']. }
    split; [exact Snd|]. intros lo e [Ie [Ne _]]. auto.
  Qed.
End T.
