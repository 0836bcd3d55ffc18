(** * Properties C28-C33: reading data sets. *)
From Coq Require Import Reals List NArith ZArith Lia Lra Bool ZifyBool ZifyN ZifyNat Sorted.
From Flocq Require Import Core.Core IEEE754.BinarySingleNaN.
From Verif Require Import Base BaseFacts Num F64Facts F64Floor RFacts NDArray DataModel DataSpec DataProofs DataLoad PropertiesGrid.

(** ** C28 *)
Section P.
  Context (bld : build) (f : pfile f64).
  Hypothesis OK : pf_ok f.
  Let nt := pf_timesteps f.
  Lemma p_nt : (1 <= nt <= 2 ^ 53)%N. Proof. apply OK. Qed.
  Lemma p_ld lo hi : (lo <= hi <= nt)%N -> exists l, p_load f lo hi = Val l /\
    vlen l = (hi - lo)%N /\ forall k x, at_ l k x -> p_shows f (lo + k)%N x.
  Proof. now apply p_load_good. Qed.
  Lemma p_ax d t id d' x : dinv nt (p_shows f) d -> (t < nt)%N ->
    p_get_buffer bld (p_load f) nt d t id = Val (d', x) -> dinv nt (p_shows f) d'.
  Proof. apply p_aux_inv; [apply p_nt | apply p_ld]. Qed.

  (** Any sequence of in-range reads succeeds and each returns the data of its timestep. *)
  Theorem c28_reads (h : list N) : Forall (fun t => t < pf_timesteps f)%N h ->
    exists d outs, p_hist bld f (map ORead h) = Val (d, outs) /\ map fst outs = h /\
      Forall (fun o => p_shows f (fst o) (snd o)) outs.
  Proof.
    intros Hh. unfold p_hist, dhist.
    destruct (new_ok bld (p_load f) nt (p_shows f) p_nt p_ld) as [d0 [E [I _]]].
    change (pf_timesteps f) with nt. rewrite E. cbn [bind].
    exact (reads_ok bld (p_load f) nt (p_shows f) _ p_nt p_ld h d0 I Hh).
  Qed.
  (** The same after any history that also uses auxiliary buffers. *)
  Theorem c28_after_any_history (ops : list dop) d outs t :
    Forall (op_in_range (pf_timesteps f)) ops -> p_hist bld f ops = Val (d, outs) -> (t < pf_timesteps f)%N ->
    exists d' x, dm_get bld (p_load f) (pf_timesteps f) d t = Val (d', x) /\ p_shows f t x.
  Proof.
    intros Ho E Ht. unfold p_hist, dhist in E.
    destruct (new_ok bld (p_load f) nt (p_shows f) p_nt p_ld) as [d0 [E0 [I _]]].
    change (pf_timesteps f) with nt in Ho, E, Ht |- *. rewrite E0 in E. cbn [bind] in E.
    assert (I' := run_inv bld (p_load f) nt (p_shows f) _ p_nt p_ld p_ax ops d0 d outs I Ho E).
    destruct (get_ok bld (p_load f) nt (p_shows f) p_nt p_ld d t I' Ht) as [d' [x [G [S _]]]]. eauto.
  Qed.

  (** ** C30, PData: right as long as the file fits in one buffer. *)
  Theorem c30_p_one_window (ops : list dop) d outs t id : (pf_timesteps f <= BUFFERSIZE)%N ->
    Forall (op_in_range (pf_timesteps f)) ops -> p_hist bld f ops = Val (d, outs) ->
    Forall (fun o => p_shows f (fst o) (snd o)) outs /\
    ((t < pf_timesteps f)%N -> (id < vlen (d_extra d))%N ->
      exists d' x, p_get_buffer bld (p_load f) (pf_timesteps f) d t id = Val (d', x) /\ p_shows f t x).
  Proof.
    intros Hb Ho E. unfold p_hist, dhist in E.
    destruct (new_ok bld (p_load f) nt (p_shows f) p_nt p_ld) as [d0 [E0 [I [Ex [L0 H0]]]]].
    change (pf_timesteps f) with nt in Hb, Ho, E |- *. rewrite E0 in E. cbn [bind] in E.
    assert (S0 : still nt d0) by (split; [lia | rewrite Ex; constructor]).
    clear E0 Ex L0 H0. revert d0 outs I S0 E.
    induction ops as [|o ops IH]; intros d0 outs I S0 E; cbn [drun] in E.
    - injection E as <- <-. split; [constructor|]. intros Ht Hid.
      destruct (p_aux_still bld (p_load f) nt (p_shows f) p_nt p_ld d0 t id I S0 Ht Hid) as [x [G Sx]]. eauto.
    - destruct (dstep bld (p_load f) nt (p_get_buffer bld (p_load f) nt) d0 o) as [[d1 o1]|] eqn:St; [|discriminate].
      cbn [bind fst snd] in E.
      destruct (drun bld (p_load f) nt (p_get_buffer bld (p_load f) nt) ops d1) as [[d2 o2]|] eqn:R; [|discriminate].
      cbn [bind fst snd] in E. injection E as <- <-. inversion Ho; subst.
      assert (I1 := step_inv bld (p_load f) nt (p_shows f) _ p_nt p_ld p_ax d0 o d1 o1 I H1 St).
      assert (Q : still nt d1 /\ Forall (fun o => p_shows f (fst o) (snd o)) o1).
      { destruct o as [u|name|u j]; cbn [dstep op_in_range] in *.
        - destruct (get_ok bld (p_load f) nt (p_shows f) p_nt p_ld d0 u I H1) as [e [x [G [Gx [_ [X1 [X2 [X3 X4]]]]]]]].
          rewrite G in St. cbn in St. injection St as <- <-. split; [|constructor; [exact Gx | constructor]].
          destruct S0 as [Sm Se]. split; [now rewrite (X4 Hb Sm) | now rewrite X1].
        - destruct (setup_ok bld (p_load f) nt (p_shows f) p_nt p_ld d0 name I)
            as [e [k [b [G [_ [X1 [_ [_ [_ [_ [_ [_ X2]]]]]]]]]]]].
          rewrite G in St. cbn in St. injection St as <- <-. split; [|constructor].
          destruct S0 as [Sm Se]. split; [now rewrite X1 | now apply X2].
        - destruct (p_get_buffer bld (p_load f) nt d0 u j) as [[e x]|] eqn:G; [|discriminate].
          cbn in St. injection St as <- <-.
          assert (Hj : (j < vlen (d_extra d0))%N).
          { unfold p_get_buffer in G. destruct (vget (d_extra d0) j) as [b|] eqn:B; [|discriminate]. now apply vget_lt_inv in B. }
          destruct (p_aux_still bld (p_load f) nt (p_shows f) p_nt p_ld d0 u j I S0 H1 Hj) as [y [G' Sy]].
          rewrite G' in G. apply Val_pair in G. destruct G as [<- <-]. split; [exact S0 | constructor; [exact Sy | constructor]]. }
      destruct Q as [S1 Q1]. destruct (IH H2 d1 o2 I1 S1 R) as [Y1 Y2]. split; [now apply Forall_app | exact Y2].
  Qed.
End P.

(** A file with two particles and three timesteps; no radius for particle 1. *)
Definition times (n : N) : list f64 := map nofN (range 0 n).
Definition v000 : v3 f64 := (d 0, d 0, d 0).
Definition ex_pfile (np n : N) : pfile f64 :=
  mkPf (fun i => if (i <? np)%N
     then Some (mkPg (Some (map (fun t => (nofN t, nofN i, d 0)) (range 0 n))) (Some (repeat v000 (N.to_nat n)))
                     (if (i =? 0)%N then Some (times n) else None) None None (Some (times n)) (Some (times n)))
     else None) np n.
Lemma vlen_map {A B} (g : A -> B) l : vlen (map g l) = vlen l. Proof. unfold vlen. now rewrite map_length. Qed.
Lemma vlen_range a b : vlen (range a b) = (b - a)%N. Proof. unfold vlen. rewrite range_length. lia. Qed.
Lemma ex_pfile_ok np n : (1 <= np)%N -> (1 <= n <= 2 ^ 53)%N -> pf_ok (ex_pfile np n).
Proof.
  intros Hp Hn. unfold pf_ok. cbn [pf_nparticles pf_timesteps ex_pfile pf_group].
  split; [exact Hp|]. split; [exact Hn|].
  assert (L : (n <= vlen (times n))%N) by (unfold times; rewrite vlen_map, vlen_range; lia). split.
  - destruct (N.ltb_spec 0 np); [|lia]. eexists. split; [reflexivity|]. cbn [pg_time]. eexists. split; [reflexivity|exact L].
  - intros i Hi. destruct (N.ltb_spec i np); [|lia]. eexists. split; [reflexivity|].
    cbn [pg_position pg_velocity pg_radius pg_density pg_ptype long_if_there].
    split; [eexists; split; [reflexivity|]; rewrite vlen_map, vlen_range; lia|].
    split; [eexists; split; [reflexivity|]; unfold vlen; rewrite repeat_length; lia|].
    split; [destruct (i =? 0)%N; cbn; [exact L | exact I]|]. split; exact I.
Qed.
Example c28_case : pf_ok (ex_pfile 2 3) /\
  after (p_hist Debug (ex_pfile 2 3) (map ORead [2; 0; 1]%N)) (fun r =>
    map (fun o => (fst o, B2SF (ts_time (snd o)))) (snd r) = [(2, B2SF (d 2)); (0, B2SF (d 0)); (1, B2SF (d 1))]%N).
Proof. split; [apply ex_pfile_ok; lia | vm_compute; reflexivity]. Qed.

(** PData, more than BUFFERSIZE timesteps: timestep 20000 through an auxiliary buffer is
    timestep 0, for every file. *)
Theorem c30_p_refuted (bld : build) (f : pfile f64) : pf_ok f -> (BUFFERSIZE < pf_timesteps f)%N ->
  exists d x, p_hist bld f [OSetup 0; OAux BUFFERSIZE 0]%N = Val (d, [(BUFFERSIZE, x)]) /\ p_shows f 0 x.
Proof.
  intros OK Hb. assert (Hnt := p_nt f OK). assert (Hld := p_ld f OK). set (nt := pf_timesteps f) in *.
  unfold p_hist, dhist. fold nt.
  destruct (new_ok bld (p_load f) nt (p_shows f) Hnt Hld) as [d0 [E0 [I0 [X0 [L0 H0]]]]]. rewrite E0. cbn [bind drun dstep].
  destruct (setup_ok bld (p_load f) nt (p_shows f) Hnt Hld d0 0 I0) as [d1 [k [e [E1 [I1 [M1 [G1 [L1 [H1 [Ix [_ [V1 _]]]]]]]]]]]].
  assert (K0 : k = 0%N /\ vlen (d_extra d1) = 1%N).
  { unfold dm_setup in E1. assert (Nn : d_names d0 = []) by (destruct I0 as [_ [_ I0]]; rewrite X0 in I0; now destruct (d_names d0)).
    rewrite Nn in E1. cbn [index_of] in E1. apply bind_val in E1. destruct E1 as [b' [_ E1]]. injection E1 as <-.
    cbn [d_names d_extra] in *. cbn in Ix. injection Ix as <-. rewrite X0. auto. }
  destruct K0 as [-> V0]. rewrite E1. cbn [bind fst snd].
  unfold p_get_buffer. rewrite G1. cbn [bind]. rewrite usub_ge by (unfold BUFFERSIZE in *; lia). cbn [bind].
  destruct (N.ltb_spec (b_hi e - 1) BUFFERSIZE); [|unfold BUFFERSIZE in *; lia].
  assert (Ie := extra_inv nt (p_shows f) d1 0 e I1 G1).
  pose proof I1 as [Im _]. pose proof Im as [S1 [S2 [S3 [S4 S5]]]].
  rewrite reach_ok by (unfold BUFFERSIZE in *; lia). cbn [bind].
  destruct (update_ok bld (p_load f) nt (p_shows f) Hnt Hld e BUFFERSIZE (BUFFERSIZE + b_size (d_main d1))) as [e2 [U [I2 [L2 H2]]]];
    [apply Ie | lia | lia |]. rewrite U. cbn [bind]. rewrite L2. rewrite N.ltb_irrefl. cbn [bind].
  destruct (vset_ok (d_extra d1) 0 e2) as [ex X]; [lia|]. rewrite X. cbn [bind]. rewrite L2, usub_ge by lia. cbn [bind].
  rewrite N.sub_diag. destruct (S5 0%N) as [x [Hx Sx]]; [lia|]. rewrite (at_vget _ _ _ Hx). cbn [bind fst snd app].
  eexists _, x. split; [reflexivity|]. rewrite M1, L0 in Sx. exact Sx.
Qed.
Example c30_p_case : pf_ok (ex_pfile 2 30000) /\ (BUFFERSIZE < pf_timesteps (ex_pfile 2 30000))%N.
Proof. split; [apply ex_pfile_ok; lia | reflexivity]. Qed.
(** Buffers are set up by name but read by number. *)
Theorem c30_name_refuted : forall bld,
  p_hist bld (ex_pfile 1 3) [OSetup 1; OAux 0 1]%N = Panic.
Proof. intros []; vm_compute; reflexivity. Qed.

(** ** C29 *)
Section T.
  Context (bld : build) (f : tfile f64).
  Hypothesis OK : tf_ok f.
  Let nt := tf_timesteps f.
  Lemma t_nt : (1 <= nt <= 2 ^ 53)%N. Proof. apply OK. Qed.
  Lemma t_ld lo hi : (lo <= hi <= nt)%N -> exists l, t_load f lo hi = Val l /\
    vlen l = (hi - lo)%N /\ forall k x, at_ l k x -> t_shows f (lo + k)%N x.
  Proof. now apply t_load_good. Qed.
  Lemma t_ax d t id d' x : dinv nt (t_shows f) d -> (t < nt)%N ->
    t_get_buffer bld (t_load f) nt d t id = Val (d', x) -> dinv nt (t_shows f) d'.
  Proof. intros I Ht E. now apply (t_aux_sound bld (t_load f) nt (t_shows f) t_nt t_ld d t id d' x I Ht) in E. Qed.

  Theorem c29_reads (h : list N) : Forall (fun t => t < tf_timesteps f)%N h ->
    exists d outs, t_hist bld f (map ORead h) = Val (d, outs) /\ map fst outs = h /\
      Forall (fun o => t_shows f (fst o) (snd o)) outs.
  Proof.
    intros Hh. unfold t_hist, dhist.
    destruct (new_ok bld (t_load f) nt (t_shows f) t_nt t_ld) as [d0 [E [I _]]].
    change (tf_timesteps f) with nt. rewrite E. cbn [bind].
    exact (reads_ok bld (t_load f) nt (t_shows f) _ t_nt t_ld h d0 I Hh).
  Qed.
  Theorem c29_after_any_history (ops : list dop) d outs t :
    Forall (op_in_range (tf_timesteps f)) ops -> t_hist bld f ops = Val (d, outs) -> (t < tf_timesteps f)%N ->
    exists d' x, dm_get bld (t_load f) (tf_timesteps f) d t = Val (d', x) /\ t_shows f t x.
  Proof.
    intros Ho E Ht. unfold t_hist, dhist in E.
    destruct (new_ok bld (t_load f) nt (t_shows f) t_nt t_ld) as [d0 [E0 [I _]]].
    change (tf_timesteps f) with nt in Ho, E, Ht |- *. rewrite E0 in E. cbn [bind] in E.
    assert (I' := run_inv bld (t_load f) nt (t_shows f) _ t_nt t_ld t_ax ops d0 d outs I Ho E).
    destruct (get_ok bld (t_load f) nt (t_shows f) t_nt t_ld d t I' Ht) as [d' [x [G [S _]]]]. eauto.
  Qed.

  (** ** C30, TData: whatever is answered, through any buffer and in any order, is right. *)
  Theorem c30_t_sound (ops : list dop) d outs :
    Forall (op_in_range (tf_timesteps f)) ops -> t_hist bld f ops = Val (d, outs) ->
    Forall (fun o => t_shows f (fst o) (snd o)) outs.
  Proof.
    intros Ho E. unfold t_hist, dhist in E.
    destruct (new_ok bld (t_load f) nt (t_shows f) t_nt t_ld) as [d0 [E0 [I _]]].
    change (tf_timesteps f) with nt in Ho, E |- *. rewrite E0 in E. cbn [bind] in E.
    assert (Hg : forall d t id d' x, dinv nt (t_shows f) d -> (t < nt)%N ->
      t_get_buffer bld (t_load f) nt d t id = Val (d', x) -> t_shows f t x).
    { intros e t id e' x Ie Ht G. exact (proj1 (t_aux_sound bld (t_load f) nt (t_shows f) t_nt t_ld e t id e' x Ie Ht G)). }
    exact (run_good bld (t_load f) nt (t_shows f) _ t_nt t_ld t_ax Hg ops d0 d outs I Ho E).
  Qed.
  (** Auxiliary reads of one buffer that do not go back before [lo], mixed with main reads. *)
  Fixpoint forward (id lo : N) (ops : list dop) : Prop :=
    match ops with
    | [] => True
    | ORead t :: r => (t < tf_timesteps f)%N /\ forward id lo r
    | OSetup _ :: _ => False
    | OAux t j :: r => j = id /\ (lo <= t < tf_timesteps f)%N /\ forward id t r
    end.
  Lemma forward_run k ops' : forall d lo b, forward k lo ops' -> dinv nt (t_shows f) d ->
    vget (d_extra d) k = Val b -> (b_lo b <= lo)%N ->
    exists d2 outs2, drun bld (t_load f) nt (t_get_buffer bld (t_load f) nt) ops' d = Val (d2, outs2) /\
      Forall (fun o => t_shows f (fst o) (snd o)) outs2.
  Proof.
    induction ops' as [|o ops' IH]; intros d lo b Fw I1 B1 Lo; cbn [drun].
    - exists d, []. split; [reflexivity | constructor].
    - destruct o as [t|n|t j]; cbn [forward dstep] in *; [|contradiction|].
      + destruct Fw as [Ht Fw].
        destruct (get_ok bld (t_load f) nt (t_shows f) t_nt t_ld d t I1 Ht) as [d2 [x [G [Sx [I2 [X1 _]]]]]].
        rewrite G. cbn [bind fst snd].
        destruct (IH d2 lo b Fw I2) as [d3 [o3 [R3 F3]]]; [now rewrite X1 | exact Lo|].
        rewrite R3. cbn [bind fst snd]. eexists _, _. split; [reflexivity|]. cbn [app]. now constructor.
      + destruct Fw as [-> [Ht Fw]].
        destruct (t_aux_forward bld (t_load f) nt (t_shows f) t_nt t_ld d t k b I1 ltac:(lia) B1 ltac:(lia)) as [d2 [x [e' [G [Ge Le]]]]].
        destruct (t_aux_sound bld (t_load f) nt (t_shows f) t_nt t_ld d t k d2 x I1 ltac:(lia) G) as [Sx [I2 _]].
        rewrite G. cbn [bind fst snd].
        destruct (IH d2 t e' Fw I2 Ge Le) as [d3 [o3 [R3 F3]]].
        rewrite R3. cbn [bind fst snd]. eexists _, _. split; [reflexivity|]. cbn [app]. now constructor.
  Qed.
  (** After any history and a set-up, forward auxiliary reads always answer (rightly). *)
  Theorem c30_t_forward (ops ops' : list dop) d outs d1 name k :
    Forall (op_in_range (tf_timesteps f)) ops -> t_hist bld f ops = Val (d, outs) ->
    dm_setup bld (t_load f) (tf_timesteps f) d name = Val d1 -> index_of name (d_names d1) = Some k ->
    forward k 0 ops' ->
    exists d2 outs2, drun bld (t_load f) (tf_timesteps f) (t_get_buffer bld (t_load f) (tf_timesteps f)) ops' d1 = Val (d2, outs2) /\
      Forall (fun o => t_shows f (fst o) (snd o)) outs2.
  Proof.
    intros Ho E Su Ix Fw. unfold t_hist, dhist in E.
    destruct (new_ok bld (t_load f) nt (t_shows f) t_nt t_ld) as [d0 [E0 [I _]]].
    change (tf_timesteps f) with nt in Ho, E, Su |- *. rewrite E0 in E. cbn [bind] in E.
    assert (I' := run_inv bld (t_load f) nt (t_shows f) _ t_nt t_ld t_ax ops d0 d outs I Ho E).
    destruct (setup_ok bld (t_load f) nt (t_shows f) t_nt t_ld d name I') as [e1 [k1 [b [G [I1 [_ [B1 [B2 [_ [B4 _]]]]]]]]]].
    rewrite G in Su. injection Su as ->. rewrite B4 in Ix. injection Ix as ->.
    apply (forward_run k ops' d1 0 b Fw I1 B1). lia.
  Qed.

  (** ** C31, TData: the unbuffered read is the buffered one. *)
  Theorem c31_t (ops : list dop) d outs t :
    Forall (op_in_range (tf_timesteps f)) ops -> t_hist bld f ops = Val (d, outs) -> (t < tf_timesteps f)%N ->
    exists d' x, dm_get bld (t_load f) (tf_timesteps f) d t = Val (d', x) /\ t_read_single f t = Val x.
  Proof.
    intros Ho E Ht. destruct (c29_after_any_history ops d outs t Ho E Ht) as [d' [x [G Sx]]].
    destruct (t_single_ok f t OK Ht) as [y [R Sy]]. exists d', x. split; [exact G|].
    now rewrite (t_shows_unique f t x y Sx Sy).
  Qed.
End T.

Definition ex_tfile (n : N) : tfile f64 :=
  mkTf (fun t => if (t <? n)%N then Some (mkTg (Some [v000]) (Some [v000]) (Some [d 1]) None (Some [d 1])
                                              (Some (nofN t)) (Some [d 0]) (Some [d 0])) else None) 1 n.
Lemma ex_tfile_ok n : (1 <= n <= 2 ^ 53)%N -> tf_ok (ex_tfile n).
Proof.
  intros H. split; [exact H|]. intros t Ht. cbn [tf_group ex_tfile tf_timesteps] in *.
  destruct (N.ltb_spec t n); [|lia]. eexists. split; [reflexivity|]. cbn. repeat split; discriminate.
Qed.
Example c29_case : tf_ok (ex_tfile 4) /\
  after (t_hist Debug (ex_tfile 4) [ORead 3; OSetup 0; OAux 2 0; ORead 0]%N) (fun r =>
    map (fun o => (fst o, B2SF (ts_time (snd o)))) (snd r) = [(3, B2SF (d 3)); (2, B2SF (d 2)); (0, B2SF (d 0))]%N) /\
  forward (ex_tfile 4) 0 0 [OAux 1 0; ORead 0; OAux 3 0]%N.
Proof. split; [apply ex_tfile_ok; lia|]. split; [vm_compute; reflexivity|]. cbn. repeat split; lia. Qed.
(** Going back through an auxiliary buffer panics, for every long enough file. *)
Theorem c30_t_backward_refuted (bld : build) (f : tfile f64) : tf_ok f -> (2 * BUFFERSIZE < tf_timesteps f)%N ->
  t_hist bld f [OSetup 0; OAux BUFFERSIZE 0; OAux 0 0]%N = Panic.
Proof.
  intros OK Hb. assert (Hnt := t_nt f OK). assert (Hld := t_ld f OK). set (nt := tf_timesteps f) in *.
  unfold t_hist, dhist. fold nt.
  destruct (new_ok bld (t_load f) nt (t_shows f) Hnt Hld) as [d0 [E0 [I0 [X0 [L0 H0]]]]]. rewrite E0. cbn [bind drun dstep].
  destruct (setup_ok bld (t_load f) nt (t_shows f) Hnt Hld d0 0 I0) as [d1 [k [e [E1 [I1 [M1 [G1 [L1 [H1 [Ix [_ [V1 _]]]]]]]]]]]].
  assert (K0 : k = 0%N /\ vlen (d_extra d1) = 1%N).
  { unfold dm_setup in E1. assert (Nn : d_names d0 = []) by (destruct I0 as [_ [_ I0]]; rewrite X0 in I0; now destruct (d_names d0)).
    rewrite Nn in E1. cbn [index_of] in E1. apply bind_val in E1. destruct E1 as [b' [_ E1]]. injection E1 as <-.
    cbn [d_names d_extra] in *. cbn in Ix. injection Ix as <-. rewrite X0. auto. }
  destruct K0 as [-> V0]. rewrite E1. cbn [bind fst snd].
  unfold t_get_buffer at 1. rewrite G1. cbn [bind]. rewrite usub_ge by (unfold BUFFERSIZE in *; lia). cbn [bind].
  destruct (N.ltb_spec (b_hi e - 1) BUFFERSIZE); [|unfold BUFFERSIZE in *; lia].
  assert (Ie := extra_inv nt (t_shows f) d1 0 e I1 G1). pose proof Ie as [J1 [J2 [J3 [J4 J5]]]].
  rewrite reach_ok by (unfold BUFFERSIZE in *; lia). cbn [bind].
  destruct (update_ok bld (t_load f) nt (t_shows f) Hnt Hld e BUFFERSIZE (BUFFERSIZE + b_size e)) as [e2 [U [I2 [L2 H2]]]];
    [exact J1 | lia | lia |]. rewrite U. cbn [bind]. rewrite M1, L0.
  destruct (N.ltb_spec BUFFERSIZE 0); [lia|]. cbn [bind].
  destruct (vset_ok (d_extra d1) 0 e2) as [ex X]; [lia|]. rewrite X. cbn [bind]. rewrite L2, usub_ge by lia. cbn [bind].
  rewrite N.sub_diag. pose proof I2 as [P1 [P2 [P3 [P4 P5]]]]. destruct (P5 0%N) as [x [Hx Sx]]; [lia|].
  rewrite (at_vget _ _ _ Hx). cbn [bind fst snd app].
  unfold t_get_buffer. cbn [d_extra d_main]. destruct (vset_nth _ _ _ _ X) as [_ [Eq _]].
  assert (Gx : vget ex 0 = Val e2) by (now apply vget_val). rewrite Gx. cbn [bind]. rewrite usub_ge by lia. cbn [bind].
  destruct (N.ltb_spec (b_hi e2 - 1) 0); [lia|].
  destruct (N.eqb_spec (b_hi e2) nt); [lia|]. cbn [andb bind]. rewrite L0.
  destruct (N.ltb_spec 0 0); [lia|]. cbn [bind].
  destruct (vset ex 0 e2) as [ex2|]; [|reflexivity]. cbn [bind].
  destruct (usub bld 0 (b_lo e2)) as [k|] eqn:K; [|reflexivity]. cbn [bind].
  destruct (vget (b_slots e2) k) as [y|] eqn:Y; [|reflexivity].
  exfalso. assert (W := wrapped 0 (b_lo e2) ltac:(rewrite L2; reflexivity) ltac:(lia) bld k K).
  apply vget_lt_inv in Y. unfold BUFFERSIZE in P1. lia.
Qed.
Example c30_t_case : tf_ok (ex_tfile 50000) /\ (2 * BUFFERSIZE < tf_timesteps (ex_tfile 50000))%N.
Proof. split; [apply ex_tfile_ok; lia | reflexivity]. Qed.

(** ** C31, PData *)
(** One particle with every dataset, whose recorded id is 0. *)
Theorem c31_p_single (bld : build) (f : pfile f64) ops d outs t g : pf_ok f -> pf_nparticles f = 1%N ->
  pf_group f 0 = Some g ->
  pg_radius g <> None -> pg_ptype g <> None -> pg_density g <> None -> row (pg_id g) t (nofN 0) ->
  Forall (op_in_range (pf_timesteps f)) ops -> p_hist bld f ops = Val (d, outs) -> (t < pf_timesteps f)%N ->
  exists d' x, dm_get bld (p_load f) (pf_timesteps f) d t = Val (d', x) /\ p_read_single f t = Val x.
Proof.
  intros OK Np G Hr Hty Hde [lid [Lid Hid]] Ho E Ht.
  destruct (c28_after_any_history bld f OK ops d outs t Ho E Ht) as [d' [x [Gx Sx]]].
  exists d', x. split; [exact Gx|].
  destruct OK as [_ [_ [_ _]]].
  destruct Sx as [[g0 [G0 [ltm [Ltm Htm]]]] [L1 [L2 [L3 [L4 [L5 [L6 [L7 S]]]]]]]].
  destruct (S 0%N ltac:(lia)) as [h [p [v [r [de [ty [A1 [A2 [[lp [Lp Hp]] [A4 [[lv [Lv Hv]] [A6 [A7 [A8 [A9 [A10 [A11 [A12 A13]]]]]]]]]]]]]]]]]].
  rewrite G in G0, A1. injection G0 as <-. injection A1 as <-.
  unfold p_read_single. rewrite Np. change (range 0 1) with [0%N]. cbn [mmap]. unfold p_single_part.
  rewrite G. cbn [unwrap bind]. rewrite Lp. cbn [unwrap bind]. rewrite (at_vget _ _ _ Hp). cbn [bind].
  rewrite Np. change (negb (1 =? 1)%N) with false. cbn [bind].
  rewrite Lv. cbn [unwrap bind]. rewrite (at_vget _ _ _ Hv). cbn [bind].
  destruct (pg_radius g) as [lr|]; [|contradiction]. cbn [unwrap bind row_or_zero] in *. rewrite (at_vget _ _ _ A7). cbn [bind].
  destruct (pg_ptype g) as [ly|]; [|contradiction]. cbn [unwrap bind row_or_zero] in *. rewrite (at_vget _ _ _ A11). cbn [bind].
  rewrite Lid. cbn [unwrap bind]. rewrite (at_vget _ _ _ Hid). cbn [bind].
  destruct (pg_density g) as [ld|]; [|contradiction]. cbn [unwrap bind row_or_zero] in *. rewrite (at_vget _ _ _ A9). cbn [bind].
  rewrite Ltm. cbn [unwrap bind]. rewrite (at_vget _ _ _ Htm). cbn [bind map].
  change (vget [(p, v, r, ty, nofN 0, de, ts_time x)] 0) with (Val (p, v, r, ty, nofN 0 : f64, de, ts_time x)).
  cbn [bind snd]. f_equal.
  destruct x as [x1 x2 x3 x4 x5 x6 x7 x8]. cbn [ts_time ts_pos ts_vel ts_radius ts_id ts_clouds ts_density ts_type] in *.
  assert (One : forall {A} (l : list A) (a : A), vlen l = pf_nparticles f -> at_ l 0 a -> l = [a]).
  { intros A l a L Ha. destruct l as [|b [|c l]]; unfold vlen in L; cbn [length] in L; try lia.
    unfold at_ in Ha. cbn in Ha. congruence. }
  f_equal; symmetry; apply One; assumption.
Qed.
(** Without a density dataset the two reads differ: the buffered one gives zero, the unbuffered one the radius. *)
Theorem c79_density_refuted (bld : build) (f : pfile f64) ops d outs t g : pf_ok f -> pf_nparticles f = 1%N ->
  pf_group f 0 = Some g ->
  pg_radius g <> None -> pg_ptype g <> None -> pg_density g = None -> row (pg_id g) t (nofN 0) ->
  Forall (op_in_range (pf_timesteps f)) ops -> p_hist bld f ops = Val (d, outs) -> (t < pf_timesteps f)%N ->
  exists d' x, dm_get bld (p_load f) (pf_timesteps f) d t = Val (d', x) /\ ts_density x = [f64_of_Z 0] /\
    p_read_single f t = Val (mkTs (ts_time x) (ts_pos x) (ts_vel x) (ts_radius x) (ts_id x) (ts_clouds x) (ts_radius x) (ts_type x)).
Proof.
  intros OK Np G Hr Hty Hde [lid [Lid Hid]] Ho E Ht.
  destruct (c28_after_any_history bld f OK ops d outs t Ho E Ht) as [d' [x [Gx Sx]]].
  exists d', x. split; [exact Gx|].
  assert (One : forall {A} (l : list A) (a : A), vlen l = pf_nparticles f -> at_ l 0 a -> l = [a]).
  { intros A l a L Ha. destruct l as [|b [|c l]]; unfold vlen in L; cbn [length] in L; try lia.
    unfold at_ in Ha. cbn in Ha. congruence. }
  destruct OK as [_ [_ [_ _]]].
  destruct Sx as [[g0 [G0 [ltm [Ltm Htm]]]] [L1 [L2 [L3 [L4 [L5 [L6 [L7 S]]]]]]]].
  destruct (S 0%N ltac:(lia)) as [h [p [v [r [de [ty [A1 [A2 [[lp [Lp Hp]] [A4 [[lv [Lv Hv]] [A6 [A7 [A8 [A9 [A10 [A11 [A12 A13]]]]]]]]]]]]]]]]]].
  rewrite G in G0, A1. injection G0 as <-. injection A1 as <-. rewrite Hde in A9. cbn [row_or_zero] in A9.
  unfold p_read_single. rewrite Np. change (range 0 1) with [0%N]. cbn [mmap]. unfold p_single_part.
  rewrite G. cbn [unwrap bind]. rewrite Lp. cbn [unwrap bind]. rewrite (at_vget _ _ _ Hp). cbn [bind].
  rewrite Np. change (negb (1 =? 1)%N) with false. cbn [bind].
  rewrite Lv. cbn [unwrap bind]. rewrite (at_vget _ _ _ Hv). cbn [bind].
  destruct (pg_radius g) as [lr|]; [|contradiction]. cbn [unwrap bind row_or_zero] in *. rewrite (at_vget _ _ _ A7). cbn [bind].
  destruct (pg_ptype g) as [ly|]; [|contradiction]. cbn [unwrap bind row_or_zero] in *. rewrite (at_vget _ _ _ A11). cbn [bind].
  rewrite Lid. cbn [unwrap bind]. rewrite (at_vget _ _ _ Hid). cbn [bind].
  rewrite Hde. cbn [bind]. split; [subst de; now apply One|].
  rewrite Ltm. cbn [unwrap bind]. rewrite (at_vget _ _ _ Htm). cbn [bind map].
  change (vget [(p, v, r, ty, nofN 0, r, ts_time x)] 0) with (Val (p, v, r, ty, nofN 0 : f64, r, ts_time x)).
  cbn [bind snd]. f_equal.
  destruct x as [x1 x2 x3 x4 x5 x6 x7 x8]. cbn [ts_time ts_pos ts_vel ts_radius ts_id ts_clouds ts_density ts_type] in *.
  f_equal; symmetry; apply One; assumption.
Qed.
(** Setting an angle: the axes are numbered 0, 1, 2 (an argument is truncated, a negative one or NaN is axis 0); the
    other two angles and the anchor stay, and the settings count as a rotation unless all three angles are zero. *)
Theorem c33_angle_set (r r' : @rotation f64) (angle axis : f64) : set_rotation_angle r angle axis = Val r' <->
  exists k a b c, nusize axis = k /\ r_angle r = (a, b, c) /\ (k <= 2)%N /\ r_center r' = r_center r /\
    r_angle r' = (if (k =? 0)%N then angle else a, if (k =? 1)%N then angle else b, if (k =? 2)%N then angle else c) /\
    (r_set r' = false <-> (Forall (fun x : f64 => Beqb x (f64_of_Z 0) = true) [(if (k =? 0)%N then angle else a); (if (k =? 1)%N then angle else b); (if (k =? 2)%N then angle else c)])).
Proof.
  unfold set_rotation_angle. destruct (r_angle r) as [[a b] c] eqn:Ea. set (k := nusize axis).
  assert (F3 : forall x y z : f64, negb ((x =? n0)%num && (y =? n0)%num && (z =? n0)%num) = false <-> Forall (fun x : f64 => Beqb x (f64_of_Z 0) = true) [x; y; z]).
  { intros x y z. rewrite negb_false_iff, !andb_true_iff. split; [intros [[A B] C]; repeat constructor; assumption|]. intros H. inversion H as [|? ? A H1]; subst. inversion H1 as [|? ? B H2]; subst. inversion H2 as [|? ? C _]; subst. auto. }
  split.
  - intros E. exists k, a, b, c. split; [reflexivity|]. split; [reflexivity|].
    destruct (k =? 0)%N eqn:E0; [|destruct (k =? 1)%N eqn:E1; [|destruct (k =? 2)%N eqn:E2; [|discriminate]]]; cbn [bind] in E; injection E as <-; cbn [r_center r_angle r_set].
    + replace (k =? 1)%N with false by lia. replace (k =? 2)%N with false by lia. split; [lia|]. split; [reflexivity|]. split; [reflexivity | apply F3].
    + replace (k =? 2)%N with false by lia. split; [lia|]. split; [reflexivity|]. split; [reflexivity | apply F3].
    + split; [lia|]. split; [reflexivity|]. split; [reflexivity | apply F3].
  - intros [k' [a' [b' [c' [<- [Ea' [Hk [Hc [Hv Hs]]]]]]]]]. injection Ea' as <- <- <-. destruct r' as [st vv cc]. cbn [r_center r_angle r_set] in *. subst vv cc.
    rewrite <- F3 in Hs.
    assert (B : forall x y : bool, (y = false <-> x = false) -> x = y) by (intros [] [] [H1 H2]; auto; first [discriminate (H1 eq_refl) | discriminate (H2 eq_refl)]).
    destruct (k =? 0)%N eqn:E0; [|destruct (k =? 1)%N eqn:E1; [|destruct (k =? 2)%N eqn:E2; [|lia]]]; cbn [bind].
    + replace (k =? 1)%N with false in * by lia. replace (k =? 2)%N with false in * by lia. apply B in Hs. now rewrite Hs.
    + replace (k =? 2)%N with false in * by lia. apply B in Hs. now rewrite Hs.
    + apply B in Hs. now rewrite Hs.
Qed.
(** Two particles: the unbuffered read panics. *)
Theorem c31_p_refuted : pf_ok (ex_pfile 2 3) /\ p_read_single (ex_pfile 2 3) 1 = Panic /\
  forall bld, after (p_hist bld (ex_pfile 2 3) [ORead 1%N]) (fun _ => True).
Proof. split; [apply ex_pfile_ok; lia|]. split; [reflexivity|]. intros []; vm_compute; exact I. Qed.

(** ** C32 *)
Section Near.
  Context (bld : build) (ta : list f64) (s : f64).
  Hypothesis Fin : Forall (fun x => is_finite x = true) ta.
  Hypothesis Fs : is_finite s = true.
  Notation tm i := (vget ta i).

  Lemma fin_at i x : tm i = Val x -> is_finite x = true.
  Proof. intros E. apply vget_val, nth_error_In in E. rewrite Forall_forall in Fin. now apply Fin. Qed.

  Lemma near_refl x : is_finite x = true -> B2R x = B2R s -> nltb (nabs (nsub x s)) (nlit 1 100 : f64) = true.
  Proof.
    intros Fx E. cbn [nltb nabs nsub num_f64].
    generalize (Bminus_correct 53 1024 _ _ mode_NE x s Fx Fs).
    replace (B2R x - B2R s)%R with 0%R by lra. rewrite round_0 by typeclasses eauto.
    rewrite Rabs_R0, Rlt_bool_true by (apply bpow_gt_0).
    intros [A [B _]]. change (Bltb (Babs (Bminus mode_NE x s)) (nlit 1 100) = true).
    apply Bltb_R; [now rewrite is_finite_Babs | vm_compute; reflexivity|].
    rewrite B2R_Babs. setoid_rewrite A. rewrite Rabs_R0.
    assert (P : Bltb (d 0) (nlit 1 100 : f64) = true) by (vm_compute; reflexivity).
    apply Bltb_R in P; [|vm_compute; reflexivity|vm_compute; reflexivity].
    replace (B2R (d 0)) with 0%R in P; [exact P|]. symmetry. apply (of_Z_correct 0). lia.
  Qed.

  (** The answer: within a hundredth, or one of the two records around the request. *)
  Definition answer (m : N) : Prop :=
    (exists x, tm m = Val x /\ nltb (nabs (nsub x s)) (nlit 1 100) = true) \/
    (exists x y, tm m = Val x /\ tm (m + 1) = Val y /\ nltb x s = true /\ nltb s y = true) \/
    (exists x y, (1 <= m)%N /\ tm (m - 1) = Val x /\ tm m = Val y /\ nltb x s = true /\ nltb s y = true).

  Lemma search_ok fuel : forall low high mid : N,
    (exists x, tm (vlen ta - 1) = Val x /\ nltb x s = false) ->
    (exists x, tm 0 = Val x /\ nltb s x = false) ->
    (low <= high + 1)%N -> (high < vlen ta)%N -> (N.to_nat (high + 1 - low) <= fuel)%nat ->
    (low = 0%N \/ exists x, tm (low - 1) = Val x /\ nltb x s = true) ->
    (high = vlen ta - 1 \/ exists y, tm (high + 1) = Val y /\ nltb s y = true)%N ->
    ((high < low)%N -> mid = low \/ mid + 1 = low)%N ->
    exists m, search bld fuel ta s low high mid = Some (Val m) /\ answer m.
  Proof.
    induction fuel as [|fuel IH]; intros low high mid Hl H0 Hlh Hh Hf A B C;
      cbn [search]; destruct (N.leb_spec low high) as [L|L]; cbn [negb]; try lia;
      try (exists mid; split; [reflexivity|];
           destruct A as [->|[x [Ex Lx]]]; [lia|];
           destruct B as [->|[y [Ey Ly]]];
           [ exfalso; destruct Hl as [z [Ez Lz]]; replace (low - 1)%N with (vlen ta - 1)%N in Ex by lia; congruence |];
           replace (high + 1)%N with low in Ey by lia;
           destruct (C L) as [-> | Em];
           [ right; right; exists x, y; repeat split; try assumption; lia
           | right; left; exists x, y; replace mid with (low - 1)%N by lia; replace (low - 1 + 1)%N with low by lia; repeat split; assumption ]).
    assert (Hm : (low <= (low + high) / 2 <= high)%N).
    { split; [apply N.div_le_lower_bound; lia | apply N.div_le_upper_bound; lia]. }
    set (m := ((low + high) / 2)%N) in *. clearbody m.
    destruct (vget_lt ta m ltac:(lia)) as [x Ex]. rewrite Ex.
    destruct (nltb (nabs (nsub x s)) (nlit 1 100)) eqn:Near.
    { exists m. split; [reflexivity|]. left. exists x. auto. }
    destruct (nltb x s) eqn:Lt.
    - apply IH; try assumption; try lia.
      + right. exists x. replace (m + 1 - 1)%N with m by lia. auto.
    - assert (Fx := fin_at m x Ex).
      assert (Gt : nltb s x = true).
      { change (Bltb x s = false) in Lt. apply Bltb_R; [exact Fs | exact Fx|].
        assert (Ge : ~ (B2R x < B2R s)%R) by (intros Q; apply (Bltb_R x s Fx Fs) in Q; congruence).
        destruct (Req_dec (B2R x) (B2R s)) as [Eq|Ne]; [|lra].
        assert (Nr := near_refl x Fx Eq). discriminate (eq_trans (eq_sym Nr) Near). }
      assert (M1 : (1 <= m)%N).
      { destruct (N.eq_dec m 0) as [->|]; [|lia]. exfalso. destruct H0 as [z [Ez Lz]]. congruence. }
      rewrite usub_ge by exact M1.
      apply IH; try assumption; try lia.
      right. exists x. replace (m - 1 + 1)%N with m by lia. auto.
  Qed.

  (** Terminates (any fuel at least the number of records), never panics, is an error exactly
      outside the recorded span, and otherwise gives an [answer]. *)
  Theorem c32_search (fuel : nat) first last : tm 0 = Val first -> tm (vlen ta - 1) = Val last ->
    (length ta <= fuel)%nat ->
    (nltb last s = true \/ nltb s first = true) /\ closest bld fuel ta s = Some (Val None) \/
    (nltb last s = false /\ nltb s first = false) /\
      exists m, closest bld fuel ta s = Some (Val (Some m)) /\ answer m.
  Proof.
    intros E0 El Hf. assert (L0 := vget_lt_inv _ _ _ E0). unfold closest.
    rewrite usub_ge by lia. rewrite El, E0.
    destruct (nltb last s) eqn:A; [left; auto|]. destruct (nltb s first) eqn:B; [left; auto|].
    right. split; [auto|].
    destruct (search_ok fuel 0 (vlen ta - 1) ((vlen ta - 1) / 2)) as [m [S An]]; try lia; try (eexists; split; eassumption); auto.
    { unfold vlen in *. lia. }
    rewrite S. exists m. auto.
  Qed.
End Near.
Example c32_case : Forall (fun x : f64 => is_finite x = true) [d 0; d 10; d 20] /\
  closest Release 3 [d 0; d 10; d 20] (d 12) = Some (Val (Some 2%N)).
Proof. split; [repeat constructor | vm_compute; reflexivity]. Qed.
(** Not the nearest: between 0 s and 10 s the request 1 s gives the second record. *)
Theorem c32_nearest_refuted : closest Debug 2 [d 0; d 10] (d 1) = Some (Val (Some 1%N)).
Proof. vm_compute. reflexivity. Qed.
(** The early exit at 0.01 can also miss an exact hit. *)
Theorem c32_early_exit_refuted : closest Debug 3 [d 0; nlit 1 1000; nlit 2 1000] (d 0) = Some (Val (Some 1%N)).
Proof. vm_compute. reflexivity. Qed.

(** The answer does not depend on where between two records the request lies: if no record is
    between two requests and none within a hundredth of either, they get the same answer ... *)
Lemma search_blind bld ta (s s' : f64) : (forall x, In x ta -> nltb x s = nltb x s') ->
  (forall x, In x ta -> nltb (nabs (nsub x s)) (nlit 1 100) = false /\ nltb (nabs (nsub x s')) (nlit 1 100) = false) ->
  forall fuel low high mid, search bld fuel ta s low high mid = search bld fuel ta s' low high mid.
Proof.
  intros Hl Hn. induction fuel as [|fuel IH]; intros low high mid; cbn [search]; [reflexivity|].
  destruct (negb (low <=? high)%N); [reflexivity|].
  destruct (vget ta ((low + high) / 2)) as [x|] eqn:Ex; [|reflexivity].
  assert (I : In x ta) by (apply vget_val, nth_error_In in Ex; exact Ex).
  destruct (Hn x I) as [N1 N2]. rewrite N1, N2, (Hl x I).
  destruct (nltb x s'); [apply IH|]. destruct (usub bld _ 1); [apply IH | reflexivity].
Qed.
Lemma sorted_at ta : StronglySorted Rlt (map (@B2R 53 1024) ta) -> forall i j x y,
  vget ta i = Val x -> vget ta j = Val y -> (i < j)%N -> (B2R x < B2R y)%R.
Proof.
  intros S i j x y Ei Ej L. apply vget_val in Ei. apply vget_val in Ej.
  assert (K : (N.to_nat i < N.to_nat j)%nat) by lia. clear L. generalize dependent (N.to_nat j). generalize dependent (N.to_nat i). clear i j.
  induction ta as [|t ta IH]; intros i Ei j Ej K; [destruct i; discriminate|].
  cbn [map] in S. inversion S as [|? ? S' A]; subst. destruct j as [|j]; [lia|]. cbn [nth_error] in Ej. destruct i as [|i].
  - cbn in Ei. injection Ei as ->. rewrite Forall_forall in A. apply A. apply in_map. now apply nth_error_In in Ej.
  - cbn [nth_error] in Ei. apply (IH S' i Ei j Ej). lia.
Qed.
(** ... so in every gap that is wider than two hundredths, on one side of its middle or on the other
    the answer is not the nearest record: of two requests [s] and [s'] of the gap, one nearer to its
    left end and one nearer to its right end, one is answered wrongly. *)
Theorem c80_gap_refuted (bld : build) (ta : list f64) k a b (s s' : f64) : Forall (fun x => is_finite x = true) ta ->
  StronglySorted Rlt (map (@B2R 53 1024) ta) -> vget ta k = Val a -> vget ta (k + 1) = Val b ->
  is_finite s = true -> is_finite s' = true ->
  (B2R a < B2R s < B2R b)%R -> (B2R a < B2R s' < B2R b)%R ->
  (B2R s - B2R a < B2R b - B2R s)%R -> (B2R b - B2R s' < B2R s' - B2R a)%R ->
  (forall x, In x ta -> nltb (nabs (nsub x s)) (nlit 1 100) = false /\ nltb (nabs (nsub x s')) (nlit 1 100) = false) ->
  exists q m x y, (q = s \/ q = s') /\ closest bld (length ta) ta q = Some (Val (Some m)) /\ vget ta m = Val x /\
    In y ta /\ (Rabs (B2R y - B2R q) < Rabs (B2R x - B2R q))%R.
Proof.
  intros Fin S Ea Eb Fs Fs' [A1 A2] [B1 B2] C1 C2 Near.
  assert (F : forall x, In x ta -> is_finite x = true) by (rewrite Forall_forall in Fin; exact Fin).
  assert (In' : forall i x, vget ta i = Val x -> In x ta) by (intros i x E; apply vget_val, nth_error_In in E; exact E).
  assert (Side : forall i x, vget ta i = Val x -> (B2R x <= B2R a \/ B2R b <= B2R x)%R).
  { intros i x E. destruct (N.lt_trichotomy i k) as [L|[L|L]].
    - left. left. apply (sorted_at ta S i k); assumption.
    - subst. rewrite Ea in E. injection E as <-. left. right. reflexivity.
    - right. destruct (N.eq_dec i (k + 1)) as [->|Ne]; [rewrite Eb in E; injection E as <-; right; reflexivity|].
      left. apply (sorted_at ta S (k + 1) i); try assumption. lia. }
  assert (Same : forall x, In x ta -> nltb x s = nltb x s').
  { intros x I. destruct (In_nth_error _ _ I) as [n En]. assert (E : vget ta (N.of_nat n) = Val x).
    { unfold vget. rewrite Nnat.Nat2N.id, En. reflexivity. }
    change (Bltb x s = Bltb x s').
    destruct (Bltb x s) eqn:P, (Bltb x s') eqn:Q; try reflexivity; exfalso.
    - apply (Bltb_R x s (F x I) Fs) in P. assert (N : ~ (B2R x < B2R s')%R) by (intros R; apply (Bltb_R x s' (F x I) Fs') in R; congruence).
      destruct (Side _ _ E); lra.
    - apply (Bltb_R x s' (F x I) Fs') in Q. assert (N : ~ (B2R x < B2R s)%R) by (intros R; apply (Bltb_R x s (F x I) Fs) in R; congruence).
      destruct (Side _ _ E); lra. }
  assert (L : (k + 1 < vlen ta)%N) by (apply (vget_lt_inv _ _ _ Eb)).
  destruct (vget_lt ta 0 ltac:(lia)) as [first E0]. destruct (vget_lt ta (vlen ta - 1) ltac:(lia)) as [last El].
  assert (G0 : (B2R first <= B2R a)%R).
  { destruct (N.eq_dec k 0) as [->|]; [rewrite Ea in E0; injection E0 as <-; right; reflexivity|]. left. apply (sorted_at ta S 0 k); try assumption. lia. }
  assert (Gl : (B2R b <= B2R last)%R).
  { destruct (N.eq_dec (k + 1) (vlen ta - 1)) as [E|]; [rewrite <- E, Eb in El; injection El as <-; right; reflexivity|]. left. apply (sorted_at ta S (k + 1) (vlen ta - 1)); try assumption. lia. }
  assert (Ans : forall q, is_finite q = true -> (B2R a < B2R q < B2R b)%R -> (forall x, In x ta -> nltb (nabs (nsub x q)) (nlit 1 100) = false) ->
    exists m x, closest bld (length ta) ta q = Some (Val (Some m)) /\ vget ta m = Val x).
  { intros q Fq [Q1 Q2] Nq.
    destruct (c32_search bld ta q Fin Fq (length ta) first last E0 El (Nat.le_refl _)) as [[[H|H] _]|[_ [m [E An]]]].
    - exfalso. apply (Bltb_R last q (F _ (In' _ _ El)) Fq) in H. lra.
    - exfalso. apply (Bltb_R q first Fq (F _ (In' _ _ E0))) in H. lra.
    - destruct An as [[x [Ex _]]|[[x [y [Ex _]]]|[x [y [_ [_ [Ey _]]]]]]]; eauto. }
  destruct (Ans s Fs (conj A1 A2) (fun x I => proj1 (Near x I))) as [m [x [E Ex]]].
  assert (E' : closest bld (length ta) ta s' = Some (Val (Some m))).
  { destruct (Ans s' Fs' (conj B1 B2) (fun x I => proj2 (Near x I))) as [m' [x' [E' _]]].
    rewrite <- E. clear E. unfold closest in *. destruct (usub bld (vlen ta) 1) as [h|]; [|reflexivity].
    destruct (vget ta h) as [u|] eqn:Eu; [|reflexivity]. destruct (vget ta 0) as [w|] eqn:Ew; [|reflexivity].
    rewrite (Same u (In' _ _ Eu)). destruct (nltb u s'); [reflexivity|].
    assert (W : nltb s w = nltb s' w).
    { assert (Hw : (B2R w <= B2R a)%R) by (injection E0 as <-; exact G0).
      change (Bltb s w = Bltb s' w). destruct (Bltb s w) eqn:P.
      - apply (Bltb_R s w Fs (F _ (In' _ _ Ew))) in P. lra.
      - destruct (Bltb s' w) eqn:Q; [|reflexivity]. apply (Bltb_R s' w Fs' (F _ (In' _ _ Ew))) in Q. lra. }
    rewrite W. destruct (nltb s' w); [reflexivity|].
    rewrite (search_blind bld ta s s' Same Near). reflexivity. }
  destruct (Side _ _ Ex) as [H|H].
  - exists s', m, x, b. split; [now right|]. split; [exact E'|]. split; [exact Ex|]. split; [exact (In' _ _ Eb)|].
    rewrite Rabs_pos_eq, (Rabs_left1 (B2R x - B2R s')%R) by lra. lra.
  - exists s, m, x, a. split; [now left|]. split; [exact E|]. split; [exact Ex|]. split; [exact (In' _ _ Ea)|].
    rewrite (Rabs_left1 (B2R a - B2R s)%R), Rabs_pos_eq by lra. lra.
Qed.
(** Between the last two records of 0, 10, 20: the requests 11 and 19 get the same answer. *)
Example c80_case : closest Debug 3 [d 0; d 10; d 20] (d 11) = Some (Val (Some 2%N)) /\ closest Debug 3 [d 0; d 10; d 20] (d 19) = Some (Val (Some 2%N)) /\
  forall x, In x [d 0; d 10; d 20] -> nltb (nabs (nsub x (d 11))) (nlit 1 100) = false /\ nltb (nabs (nsub x (d 19))) (nlit 1 100) = false.
Proof. split; [vm_compute; reflexivity|]. split; [vm_compute; reflexivity|]. intros x [<-|[<-|[<-|[]]]]; split; vm_compute; reflexivity. Qed.

(** ** C33 (ideal arithmetic) *)
Section Rot.
  Local Open Scope R_scope.
  Definition sc (a : R) : R * R := (sin a, cos a).
  Definition dist2 (a b : v3 R) : R :=
    let '(a0, a1, a2) := a in let '(b0, b1, b2) := b in
    (a0 - b0) * (a0 - b0) + (a1 - b1) * (a1 - b1) + (a2 - b2) * (a2 - b2).
  Definition sub3 (a b : v3 R) : v3 R :=
    let '(a0, a1, a2) := a in let '(b0, b1, b2) := b in (a0 - b0, a1 - b1, a2 - b2).

  Lemma rot_axis_dist i a p q : dist2 (rot_axis i (sc a) p) (rot_axis i (sc a) q) = dist2 p q.
  Proof.
    destruct p as [[x y] z], q as [[u v] w]. unfold rot_axis, sc, dist2. cbn [nadd nsub nmul nneg num_R].
    assert (T := sin2_cos2 a). unfold Rsqr in T.
    destruct (i =? 0)%N; [|destruct (i =? 1)%N].
    - transitivity ((x - u) * (x - u) + (sin a * sin a + cos a * cos a) * ((y - v) * (y - v) + (z - w) * (z - w))); [ring | rewrite T; ring].
    - transitivity ((y - v) * (y - v) + (sin a * sin a + cos a * cos a) * ((x - u) * (x - u) + (z - w) * (z - w))); [ring | rewrite T; ring].
    - transitivity ((z - w) * (z - w) + (sin a * sin a + cos a * cos a) * ((x - u) * (x - u) + (y - v) * (y - v))); [ring | rewrite T; ring].
  Qed.
  Lemma rot_axis_0 i v : rot_axis i (sc 0) v = v.
  Proof.
    destruct v as [[x y] z]. unfold rot_axis, sc. cbn [nadd nsub nmul nneg num_R]. rewrite sin_0, cos_0.
    destruct (i =? 0)%N; [|destruct (i =? 1)%N]; f_equal; try (f_equal; ring); ring.
  Qed.
  Lemma rot_axis_zero i a : rot_axis i (sc a) (0, 0, 0) = (0, 0, 0).
  Proof.
    unfold rot_axis, sc. cbn [nadd nsub nmul nneg num_R].
    destruct (i =? 0)%N; [|destruct (i =? 1)%N]; f_equal; try (f_equal; ring); ring.
  Qed.
  Theorem c33_velocity_speed v w a : dist2 (rotate_velocity sc v a) (rotate_velocity sc w a) = dist2 v w /\
    dist2 (rotate_velocity sc v a) (0, 0, 0) = dist2 v (0, 0, 0).
  Proof.
    destruct a as [[a b] c]. unfold rotate_velocity. split; [now rewrite !rot_axis_dist|].
    transitivity (dist2 (rot_axis 2 (sc c) (rot_axis 1 (sc b) (rot_axis 0 (sc a) v)))
                        (rot_axis 2 (sc c) (rot_axis 1 (sc b) (rot_axis 0 (sc a) (0, 0, 0)))));
      [now rewrite !rot_axis_zero | now rewrite !rot_axis_dist].
  Qed.
  Theorem c33_position_distance p q a anchor :
    dist2 (rotate_position sc p a anchor) (rotate_position sc q a anchor) = dist2 p q.
  Proof.
    destruct p as [[p0 p1] p2], q as [[q0 q1] q2], anchor as [[c0 c1] c2]. unfold rotate_position.
    cbn [nadd nsub nmul nneg num_R].
    destruct (c33_velocity_speed (p0 - c0, p1 - c1, p2 - c2) (q0 - c0, q1 - c1, q2 - c2) a) as [E _].
    destruct (rotate_velocity sc (p0 - c0, p1 - c1, p2 - c2) a) as [[x y] z].
    destruct (rotate_velocity sc (q0 - c0, q1 - c1, q2 - c2) a) as [[u v] w].
    unfold dist2 in *. transitivity ((x - u) * (x - u) + (y - v) * (y - v) + (z - w) * (z - w)); [ring|].
    rewrite E. ring.
  Qed.
  Theorem c33_anchor_fixed a anchor : rotate_position sc anchor a anchor = anchor.
  Proof.
    destruct anchor as [[c0 c1] c2], a as [[a b] c]. unfold rotate_position, rotate_velocity.
    cbn [nadd nsub nmul nneg num_R].
    replace (c0 - c0, c1 - c1, c2 - c2) with (0, 0, 0) by (f_equal; [f_equal|]; ring).
    rewrite !rot_axis_zero. f_equal; [f_equal|]; ring.
  Qed.
  Theorem c33_distance_to_anchor p a anchor : dist2 (rotate_position sc p a anchor) anchor = dist2 p anchor.
  Proof. rewrite <- (c33_anchor_fixed a anchor) at 2. apply c33_position_distance. Qed.
  Theorem c33_zero_angles p v anchor :
    rotate_position sc p (0, 0, 0) anchor = p /\ rotate_velocity sc v (0, 0, 0) = v.
  Proof.
    unfold rotate_position, rotate_velocity. rewrite !rot_axis_0. split; [|reflexivity].
    destruct p as [[p0 p1] p2], anchor as [[c0 c1] c2]. cbn [nadd nsub nmul nneg num_R].
    rewrite !rot_axis_0. f_equal; [f_equal|]; ring.
  Qed.
  (** The rotation preserves orientation as well: a quarter turn about z takes x to y. *)
  Theorem c33_quarter_turn : rotate_velocity sc (1, 0, 0) (0, 0, PI / 2) = (0, 1, 0).
  Proof.
    unfold rotate_velocity. rewrite !rot_axis_0. unfold rot_axis, sc. cbn [nadd nsub nmul nneg num_R N.eqb].
    rewrite sin_PI2, cos_PI2. apply f_equal2; [apply f_equal2|]; ring.
  Qed.
End Rot.

(** ** C65: reading past the end *)
Section End_.
  Context (load : N -> N -> res (list (timestep f64))) (nt : N) (good : N -> timestep f64 -> Prop).
  Hypothesis Hnt : (1 <= nt <= 2 ^ 53)%N.
  Hypothesis Hload : forall lo hi, (lo <= hi <= nt)%N -> exists l, load lo hi = Val l /\
    vlen l = (hi - lo)%N /\ forall k x, at_ l k x -> good (lo + k)%N x.
  Lemma past_end bld d : dinv nt good d -> exists d' x, dm_get bld load nt d nt = Val (d', x) /\
    good (b_lo (d_main d)) x.
  Proof.
    intros [Im _]. pose proof Im as [M1 [M2 [M3 [M4 M5]]]]. unfold dm_get. rewrite usub_ge by lia. cbn [bind].
    destruct (N.ltb_spec (b_hi (d_main d) - 1) nt); [|lia]. rewrite reach_ok by lia. cbn [bind]. unfold buf_update.
    destruct (N.leb_spec nt (nt + b_size (d_main d))); [|lia]. rewrite usub_ge by lia. cbn [bind].
    destruct (Hload nt nt ltac:(lia)) as [l [E [L _]]]. rewrite E. cbn [bind].
    assert (l = []) by (destruct l; [reflexivity | unfold vlen in L; cbn in L; lia]). subst l.
    unfold overwrite. cbn [length Nat.leb app skipn bind b_lo b_slots].
    rewrite usub_ge by lia. cbn [bind]. rewrite N.sub_diag.
    destruct (M5 0%N) as [x [X G]]; [lia|]. rewrite (at_vget _ _ _ X). cbn [bind].
    eexists _, x. split; [reflexivity|]. now rewrite N.add_0_r in G.
  Qed.
  Lemma far_past_end d t : dinv nt good d -> (nt < t)%N -> dm_get Debug load nt d t = Panic.
  Proof.
    intros [Im _] Ht. pose proof Im as [M1 [M2 [M3 [M4 M5]]]]. unfold dm_get. rewrite usub_ge by lia. cbn [bind].
    destruct (N.ltb_spec (b_hi (d_main d) - 1) t); [|lia]. unfold uadd.
    destruct (t + b_size (d_main d) <? usize_modulus)%N; [|reflexivity]. cbn [bind]. unfold buf_update.
    destruct (N.leb_spec nt (t + b_size (d_main d))); [|lia].
    unfold usub. destruct (N.leb_spec t nt); [lia | reflexivity].
  Qed.
  (** The end of the range asked for, which may wrap around, and the one read for. *)
  Lemma ends_before d t : dinv nt good d -> (nt < t < usize_modulus)%N -> exists hi, uadd Release t (b_size (d_main d)) = Val hi /\
    ((if (nt <=? hi)%N then nt else hi) < t)%N.
  Proof.
    intros [Im _] Ht. pose proof Im as [M1 [M2 [M3 [M4 M5]]]]. unfold uadd.
    destruct (N.ltb_spec (t + b_size (d_main d)) usize_modulus) as [C|C]; eexists; (split; [reflexivity|]).
    - destruct (N.leb_spec nt (t + b_size (d_main d))); lia.
    - destruct (N.leb_spec nt (t + b_size (d_main d) - usize_modulus)); unfold usize_modulus, BUFFERSIZE in *; lia.
  Qed.
  Lemma far_past_end_load bld d t : dinv nt good d -> (nt < t < usize_modulus)%N ->
    (forall hi, (hi < t)%N -> load t hi = Panic) -> dm_get bld load nt d t = Panic.
  Proof.
    intros I Ht Hl. destruct bld; [apply far_past_end; [exact I | lia]|].
    destruct (ends_before d t I Ht) as [hi [U Hh]].
    destruct I as [Im _]. pose proof Im as [M1 [M2 [M3 [M4 M5]]]]. unfold dm_get. rewrite usub_ge by lia. cbn [bind].
    destruct (N.ltb_spec (b_hi (d_main d) - 1) t); [|lia]. rewrite U. cbn [bind]. unfold buf_update.
    destruct (usub Release _ t); [|reflexivity]. cbn [bind]. now rewrite (Hl _ Hh).
  Qed.
  Lemma far_past_end_stale d t : dinv nt good d -> (nt < t < usize_modulus)%N ->
    (forall hi, (hi < t)%N -> load t hi = Val []) ->
    exists d' x, dm_get Release load nt d t = Val (d', x) /\ good (b_lo (d_main d)) x.
  Proof.
    intros I Ht Hl. destruct (ends_before d t I Ht) as [hi [U Hh]].
    destruct I as [Im _]. pose proof Im as [M1 [M2 [M3 [M4 M5]]]]. unfold dm_get. rewrite usub_ge by lia. cbn [bind].
    destruct (N.ltb_spec (b_hi (d_main d) - 1) t); [|lia]. rewrite U. cbn [bind]. unfold buf_update.
    rewrite (Hl _ Hh). unfold usub at 1. destruct (N.leb_spec t (if (nt <=? hi)%N then nt else hi)); [lia|]. cbn [bind].
    unfold overwrite. cbn [length Nat.leb app skipn bind b_lo b_slots].
    rewrite usub_ge by lia. cbn [bind]. rewrite N.sub_diag.
    destruct (M5 0%N) as [x [X G]]; [lia|]. rewrite (at_vget _ _ _ X). cbn [bind].
    eexists _, x. split; [reflexivity|]. now rewrite N.add_0_r in G.
  Qed.
End End_.
(** False of the code: one past the end, after any history of reads in range, both managers answer with an
    old timestep (which one depends on the history). *)
Theorem c65_p_refuted bld (f : pfile f64) ops d outs : pf_ok f ->
  Forall (op_in_range (pf_timesteps f)) ops -> p_hist bld f ops = Val (d, outs) ->
  exists d' x k, dm_get bld (p_load f) (pf_timesteps f) d (pf_timesteps f) = Val (d', x) /\
    (k < pf_timesteps f)%N /\ p_shows f k x.
Proof.
  intros OK Ho E. unfold p_hist, dhist in E.
  destruct (new_ok bld _ _ _ (p_nt f OK) (p_ld f OK)) as [d0 [E0 [I _]]]. rewrite E0 in E. cbn [bind] in E.
  pose proof (run_inv bld _ _ (p_shows f) _ (p_nt f OK) (p_ld f OK) (p_ax bld f OK) ops d0 d outs I Ho E) as J.
  destruct (past_end _ _ _ (p_nt f OK) (p_ld f OK) bld d J) as [d1 [x [G Gx]]].
  exists d1, x, (b_lo (d_main d)). split; [exact G|]. split; [|exact Gx]. destruct J as [[_ [Hl _]] _]. lia.
Qed.
Theorem c65_t_refuted bld (f : tfile f64) ops d outs : tf_ok f ->
  Forall (op_in_range (tf_timesteps f)) ops -> t_hist bld f ops = Val (d, outs) ->
  exists d' x k, dm_get bld (t_load f) (tf_timesteps f) d (tf_timesteps f) = Val (d', x) /\
    (k < tf_timesteps f)%N /\ t_shows f k x.
Proof.
  intros OK Ho E. unfold t_hist, dhist in E.
  destruct (new_ok bld _ _ _ (t_nt f OK) (t_ld f OK)) as [d0 [E0 [I _]]]. rewrite E0 in E. cbn [bind] in E.
  pose proof (run_inv bld _ _ (t_shows f) _ (t_nt f OK) (t_ld f OK) (t_ax bld f OK) ops d0 d outs I Ho E) as J.
  destruct (past_end _ _ _ (t_nt f OK) (t_ld f OK) bld d J) as [d1 [x [G Gx]]].
  exists d1, x, (b_lo (d_main d)). split; [exact G|]. split; [|exact Gx]. destruct J as [[_ [Hl _]] _]. lia.
Qed.
(** Directly after opening it is timestep 0. *)
Theorem c65_opened_refuted bld (fp : pfile f64) (ft : tfile f64) :
  (pf_ok fp -> exists d x, p_hist bld fp [ORead (pf_timesteps fp)] = Val (d, [(pf_timesteps fp, x)]) /\ p_shows fp 0 x) /\
  (tf_ok ft -> exists d x, t_hist bld ft [ORead (tf_timesteps ft)] = Val (d, [(tf_timesteps ft, x)]) /\ t_shows ft 0 x).
Proof.
  split; intros OK; [unfold p_hist, dhist | unfold t_hist, dhist].
  - destruct (new_ok bld _ _ _ (p_nt fp OK) (p_ld fp OK)) as [d0 [E [I [_ [L _]]]]].
    rewrite E. cbn [bind drun dstep].
    destruct (past_end _ _ _ (p_nt fp OK) (p_ld fp OK) bld d0 I) as [d1 [x [G Gx]]]. rewrite G. cbn [bind fst snd app].
    rewrite L in Gx. eauto.
  - destruct (new_ok bld _ _ _ (t_nt ft OK) (t_ld ft OK)) as [d0 [E [I [_ [L _]]]]].
    rewrite E. cbn [bind drun dstep].
    destruct (past_end _ _ _ (t_nt ft OK) (t_ld ft OK) bld d0 I) as [d1 [x [G Gx]]]. rewrite G. cbn [bind fst snd app].
    rewrite L in Gx. eauto.
Qed.
(** Without overflow checks a time-ordered file answers every index further past the end with an old timestep
    as well. *)
Theorem c65_release_refuted (f : tfile f64) ops d outs t : tf_ok f ->
  Forall (op_in_range (tf_timesteps f)) ops -> t_hist Release f ops = Val (d, outs) ->
  (tf_timesteps f < t < 2 ^ 64)%N -> exists d' x k, dm_get Release (t_load f) (tf_timesteps f) d t = Val (d', x) /\
    (k < tf_timesteps f)%N /\ t_shows f k x.
Proof.
  intros OK Ho E Ht. unfold t_hist, dhist in E.
  destruct (new_ok Release _ _ _ (t_nt f OK) (t_ld f OK)) as [d0 [E0 [I _]]]. rewrite E0 in E. cbn [bind] in E.
  pose proof (run_inv Release _ _ (t_shows f) _ (t_nt f OK) (t_ld f OK) (t_ax Release f OK) ops d0 d outs I Ho E) as J.
  assert (El : forall hi, (hi < t)%N -> t_load f t hi = Val []).
  { intros hi Hh. unfold t_load, range. replace (N.to_nat (hi - t)) with 0%nat by lia. reflexivity. }
  destruct (far_past_end_stale _ _ _ (t_nt f OK) (t_ld f OK) d t J Ht El) as [d1 [x [G Gx]]].
  exists d1, x, (b_lo (d_main d)). split; [exact G|]. split; [|exact Gx]. destruct J as [[_ [Hl _]] _]. lia.
Qed.
(** Further past the end a particle-ordered file is refused in every build, a time-ordered one in a build with
    overflow checks, after any history. *)
Theorem c65_partial bld (fp : pfile f64) (ft : tfile f64) ops d outs t :
  (pf_ok fp -> Forall (op_in_range (pf_timesteps fp)) ops -> p_hist bld fp ops = Val (d, outs) ->
    (pf_timesteps fp < t < 2 ^ 64)%N -> dm_get bld (p_load fp) (pf_timesteps fp) d t = Panic) /\
  (tf_ok ft -> Forall (op_in_range (tf_timesteps ft)) ops -> t_hist Debug ft ops = Val (d, outs) ->
    (tf_timesteps ft < t)%N -> dm_get Debug (t_load ft) (tf_timesteps ft) d t = Panic).
Proof.
  split; intros OK Ho E Ht; [unfold p_hist, dhist in E | unfold t_hist, dhist in E].
  - destruct (new_ok bld _ _ _ (p_nt fp OK) (p_ld fp OK)) as [d0 [E0 [I _]]]. rewrite E0 in E. cbn [bind] in E.
    apply (far_past_end_load _ _ (p_shows fp) (p_nt fp OK) (p_ld fp OK) bld d t); [|exact Ht|].
    + exact (run_inv bld _ _ (p_shows fp) _ (p_nt fp OK) (p_ld fp OK) (p_ax bld fp OK) ops d0 d outs I Ho E).
    + intros hi Hh. unfold p_load. destruct (N.ltb_spec hi t); [reflexivity | lia].
  - destruct (new_ok Debug _ _ _ (t_nt ft OK) (t_ld ft OK)) as [d0 [E0 [I _]]]. rewrite E0 in E. cbn [bind] in E.
    apply (far_past_end _ _ (t_shows ft) (t_nt ft OK) (t_ld ft OK) d t); [|exact Ht].
    exact (run_inv Debug _ _ (t_shows ft) _ (t_nt ft OK) (t_ld ft OK) (t_ax Debug ft OK) ops d0 d outs I Ho E).
Qed.
Print Assumptions c28_reads.
Print Assumptions c30_t_sound.
Print Assumptions c32_search.
Print Assumptions c33_position_distance.
