(** * Property C47: circulation times. *)
From Coq Require Import Reals List NArith ZArith Bool Lia Lra Permutation Sorted ZifyBool ZifyN ZifyNat.
From Flocq Require Import Core.Core IEEE754.BinarySingleNaN.
From Verif Require Import Base BaseFacts Num F64Facts NDArray GridModel SelModel DataModel DataSpec DataLoad
  PropertiesGrid FunModel FunSpec FunProofs PropertiesFun CondModel FunTrack.
Local Open Scope list_scope.

(** ** Specification *)
Section Spec.
  Context {F : Type} {NF : Num F}.
  (** The test of the code for a move from [m] to [m'] across the boundary at [b]. *)
  Definition crossing (axis : N) (b : F) (mm : sample F * sample F) : bool :=
    match v3get (sm_pos (snd mm)) axis, v3get (sm_pos (fst mm)) axis with
    | Val p, Val q => nltb (nmul (nsub p b) (nsub q b)) n0
    | _, _ => false
    end.
  (** The crossings of particle [i], in time order, and their times. *)
  Definition crossings s axis b L i := filter (crossing axis b) (moves s L i).
  Definition cross_time (mm : sample F * sample F) : F := sm_time (snd mm).
  (** From each first crossing of three to the third one. *)
  Fixpoint thirds {A} (l : list A) : list (A * A) :=
    match l with a :: _ :: c :: r => (a, c) :: thirds r | _ => [] end.
  Definition duration (ac : (sample F * sample F) * (sample F * sample F)) : F :=
    nsub (cross_time (snd ac)) (cross_time (fst ac)).
End Spec.

Lemma thirds_ind {A} (P : list A -> Prop) : P [] -> (forall a, P [a]) -> (forall a b, P [a; b]) ->
  (forall a b c r, P r -> P (a :: b :: c :: r)) -> forall l, P l.
Proof.
  intros H0 H1 H2 H3. assert (G : forall n l, (length l <= n)%nat -> P l).
  { induction n as [|n IH]; intros [|a [|b [|c r]]] Hl; cbn in Hl; auto; try lia. apply H3, IH. lia. }
  intros l. apply (G (length l)). lia.
Qed.
(** Reading [thirds] back: the group starts at a multiple of three. *)
Lemma thirds_in {A} (l : list A) a c : In (a, c) (thirds l) <->
  exists pre b post k, l = pre ++ a :: b :: c :: post /\ length pre = (3 * k)%nat.
Proof.
  induction l as [|x|x y|x y z r IH] using thirds_ind; cbn [thirds In].
  - split; [tauto|]. intros [pre [b [post [k [E _]]]]]. destruct pre; discriminate.
  - split; [tauto|]. intros [pre [b [post [k [E _]]]]]. destruct pre as [|? [|? ?]]; discriminate.
  - split; [tauto|]. intros [pre [b [post [k [E _]]]]]. destruct pre as [|? [|? [|? ?]]]; discriminate.
  - split.
    + intros [[= -> ->]|H]; [exists [], y, r, 0%nat; split; reflexivity|].
      apply IH in H. destruct H as [pre [b [post [k [-> Hk]]]]].
      exists (x :: y :: z :: pre), b, post, (S k). split; [reflexivity|]. cbn [length]. lia.
    + intros [pre [b [post [k [E Hk]]]]]. destruct k as [|k].
      * destruct pre; [|discriminate]. cbn in E. injection E as -> _ -> _. now left.
      * right. apply IH. destruct pre as [|p1 [|p2 [|p3 pre]]]; cbn [length] in Hk; try lia.
        cbn in E. injection E as _ _ _ ->. exists pre, b, post, k. split; [reflexivity | lia].
Qed.

Section C47.
  Context {F : Type} {NF : Num F}.

  Definition cview (st : circ (F := F)) (i : N) : option (N * F) :=
    match vget (ci_flag st) i, vget (ci_time st) i with Val f, Val t => Some (f, t) | _, _ => None end.
  Definition cstep (ft : N * F) (now : F) : (N * F) * list F :=
    if (fst ft =? 0)%N then ((1%N, now), []) else if (fst ft =? 1)%N then ((2%N, snd ft), []) else ((0%N, snd ft), [nsub now (snd ft)]).
  Definition cev (axis : N) (b : F) (mm : sample F * sample F) : list F := if crossing axis b mm then [cross_time mm] else [].

  Lemma crun_thirds (l : list (sample F * sample F)) : forall t,
    snd (mrun cstep (0%N, t) (map cross_time l)) = map duration (thirds l).
  Proof.
    induction l as [|x|x y|x y z r IH] using thirds_ind; intros t; cbn [map mrun cstep thirds fst snd N.eqb Pos.eqb app]; [reflexivity..|].
    f_equal. exact (IH _).
  Qed.
  Lemma flat_cev axis b l : flat_map (cev axis b) l = map cross_time (filter (crossing axis b) l).
  Proof. induction l as [|x l IH]; [reflexivity|]. cbn [flat_map filter]. unfold cev at 1. destruct (crossing axis b x); cbn [map app]; now rewrite IH. Qed.

  Lemma v3get_ok {A} (v : v3 A) i : (i < 3)%N -> exists x, v3get v i = Val x.
  Proof. destruct v as [[x y] z]. intros H. unfold v3get. destruct (i =? 0)%N eqn:E0; [eauto|]. destruct (i =? 1)%N eqn:E1; [eauto|]. destruct (i =? 2)%N eqn:E2; [eauto|]. lia. Qed.
  Lemma v3get_panic {A} (v : v3 A) i : (3 <= i)%N -> v3get v i = Panic.
  Proof. destruct v as [[x y] z]. intros H. unfold v3get. now rewrite !(proj2 (N.eqb_neq _ _)) by lia. Qed.

  Definition cgood (st : circ (F := F)) : Prop := vlen (ci_time st) = vlen (ci_flag st).
  Lemma circ_body axis b (x y : timestep F) acc acc' i m m' : rect x -> rect y -> at_ (samples x) i m -> at_ (samples y) i m' ->
    cgood acc -> circ_step axis b (ts_time y) acc i (sm_pos m') (sm_pos m) = Val acc' ->
    cgood acc' /\ (cev axis b (m, m') = [] -> acc' = acc) /\ (cev axis b (m, m') <> [] -> cview acc i <> None) /\
    (forall t, cview acc i = Some t -> cview acc' i = Some (fst (mrun cstep t (cev axis b (m, m')))) /\
      ci_out acc' = ci_out acc ++ snd (mrun cstep t (cev axis b (m, m'))) /\ forall j, j <> i -> cview acc' j = cview acc j).
  Proof.
    intros Rx Ry Hx Hy Gd E. destruct (samples_at y i m' Ry Hy) as [Tm _].
    unfold circ_step in E. unfold cev, crossing. cbn [fst snd].
    destruct (v3get (sm_pos m') axis) as [pa|]; [|discriminate]. destruct (v3get (sm_pos m) axis) as [qa|]; [|discriminate].
    cbn [bind] in E. destruct (nltb _ n0).
    2:{ injection E as <-. split; [exact Gd|]. split; [auto|]. split; [intros C; now contradiction C|]. intros t Hv. cbn [mrun fst snd]. rewrite app_nil_r. auto. }
    cbn [mrun fst snd].
    apply bind_val in E. destruct E as [f [Ef E]].
    assert (Df := vget_lt_inv _ _ _ Ef). unfold cgood in *.
    destruct (vget_lt (ci_time acc) i ltac:(lia)) as [tt Et].
    assert (V : cview acc i = Some (f, tt)) by (unfold cview; now rewrite Ef, Et). rewrite V.
    unfold cross_time. cbn [snd]. rewrite Tm. unfold cstep. cbn [fst snd].
    destruct (f =? 0)%N eqn:F0; [|destruct (f =? 1)%N eqn:F1].
    - apply bind_val in E. destruct E as [fl [Efl E]]. apply bind_val in E. destruct E as [tm [Etm E]]. injection E as <-.
      destruct (vset_val _ _ _ _ Efl) as [_ [L1 Gf]]. destruct (vset_val _ _ _ _ Etm) as [Lt [L2 Gt]]. cbn [ci_time ci_flag ci_out].
      split; [lia|]. split; [discriminate|]. split; [discriminate|].
      intros ft [= <-]. cbn [fst snd]. rewrite F0. cbn [fst snd app]. rewrite app_nil_r.
      split; [unfold cview; cbn [ci_flag ci_time]; rewrite Gf, Gt, N.eqb_refl; reflexivity|]. split; [reflexivity|].
      intros j Dj. unfold cview. cbn [ci_flag ci_time]. rewrite Gf, Gt. rewrite (proj2 (N.eqb_neq i j)) by lia. reflexivity.
    - apply bind_val in E. destruct E as [fl [Efl E]]. injection E as <-. destruct (vset_val _ _ _ _ Efl) as [_ [L1 Gf]]. cbn [ci_time ci_flag ci_out].
      split; [lia|]. split; [discriminate|]. split; [discriminate|].
      intros ft [= <-]. cbn [fst snd]. rewrite F0, F1. cbn [fst snd app]. rewrite app_nil_r.
      split; [unfold cview; cbn [ci_flag ci_time]; rewrite Gf, Et, N.eqb_refl; reflexivity|]. split; [reflexivity|].
      intros j Dj. unfold cview. cbn [ci_flag ci_time]. rewrite Gf. rewrite (proj2 (N.eqb_neq i j)) by lia. reflexivity.
    - rewrite Et in E. cbn [bind] in E. apply bind_val in E. destruct E as [fl [Efl E]].
      assert (E' : mkCirc fl (ci_time acc) (ci_out acc ++ [nsub (ts_time y) tt]) = acc') by congruence. subst acc'.
      destruct (vset_val _ _ _ _ Efl) as [_ [L1 Gf]]. cbn [ci_time ci_flag ci_out].
      split; [lia|]. split; [discriminate|]. split; [discriminate|].
      intros ft [= <-]. cbn [fst snd]. rewrite F0, F1. cbn [fst snd app].
      split; [unfold cview; cbn [ci_flag ci_time]; rewrite Gf, Et, N.eqb_refl; reflexivity|]. split; [reflexivity|].
      intros j Dj. unfold cview. cbn [ci_flag ci_time]. rewrite Gf. rewrite (proj2 (N.eqb_neq i j)) by lia. reflexivity.
  Qed.
  Lemma circ_total axis b (x y : timestep F) acc i m m' t : (axis < 3)%N -> rect x -> rect y -> at_ (samples x) i m -> at_ (samples y) i m' ->
    cgood acc -> cview acc i = Some t -> exists acc', circ_step axis b (ts_time y) acc i (sm_pos m') (sm_pos m) = Val acc'.
  Proof.
    intros Ax _ _ _ _ Gd V. unfold circ_step.
    destruct (v3get_ok (sm_pos m') axis Ax) as [pa ->]. destruct (v3get_ok (sm_pos m) axis Ax) as [qa ->]. cbn [bind].
    destruct (nltb _ n0); [|eauto]. unfold cview in V. destruct (vget (ci_flag acc) i) as [f|] eqn:Ef; [|discriminate].
    destruct (vget (ci_time acc) i) as [tt|] eqn:Et; [|discriminate]. cbn [bind].
    apply vget_lt_inv in Ef. apply vget_lt_inv in Et.
    destruct (f =? 0)%N; [|destruct (f =? 1)%N].
    - destruct (vset_ok (ci_flag acc) i 1%N Ef) as [fl ->]. cbn [bind]. destruct (vset_ok (ci_time acc) i (ts_time y) Et) as [tm ->]. cbn [bind]. eauto.
    - destruct (vset_ok (ci_flag acc) i 2%N Ef) as [fl ->]. cbn [bind]. eauto.
    - destruct (vset_ok (ci_flag acc) i 0%N Ef) as [fl ->]. cbn [bind]. eauto.
  Qed.
  Lemma vget_repeat {A} (a : A) n i : vget (repeat a (N.to_nat n)) i = if (i <? n)%N then Val a else Panic.
  Proof.
    unfold vget. destruct (N.ltb_spec i n).
    - rewrite nth_error_repeat by lia. reflexivity.
    - rewrite (proj2 (nth_error_None _ _)); [reflexivity|]. rewrite repeat_length. lia.
  Qed.
  Lemma circ_init np : tracks cview ci_out cstep (0%N, n0) cgood np (fun _ => []) (mkCirc (repeat 0%N (N.to_nat np)) (repeat n0 (N.to_nat np)) []).
  Proof.
    split; [unfold cgood, vlen; cbn [ci_time ci_flag]; now rewrite !repeat_length|]. split; [|split].
    - intros i Hi. split; [|reflexivity]. unfold cview. cbn [ci_time ci_flag]. rewrite vget_repeat. now rewrite (proj2 (N.ltb_ge _ _)) by lia.
    - intros i Hi. unfold cview. cbn [ci_time ci_flag]. rewrite !vget_repeat. now rewrite (proj2 (N.ltb_lt _ _)) by lia.
    - cbn [ci_out mrun snd]. induction (range 0 np) as [|a l IH]; [reflexivity | exact IH].
  Qed.

  (** What is reported: for every particle, the time from the first to the third crossing of each
      group of three consecutive crossings. *)
  Theorem c47_times bld (M : mgr F) d s axis b L d' out :
    recorded M d L -> sel_ok s -> circulation_time bld M d s axis b = Val (d', out) ->
    recorded M d' L /\
    Permutation out (flat_map (fun i => map duration (thirds (crossings s axis b L i))) (range 0 (st_nparticles (m_stats M) + 1))).
  Proof.
    intros Rc Sk E. unfold circulation_time in E. apply bind_val in E. destruct E as [ok [_ E]]. destruct ok; cbn [negb] in E; [|discriminate].
    apply bind_val in E. destruct E as [[d1 st] [E1 E]]. apply Val_pair in E. destruct E as [<- <-]. cbn [fst snd].
    set (np := (st_nparticles (m_stats M) + 1)%N) in *.
    assert (Q := pair_loop_spec bld M s (fun old y => pair_particles s old y (circ_step axis b (ts_time y))) d L
      (mkCirc (repeat 0%N (N.to_nat np)) (repeat n0 (N.to_nat np)) []) Rc).
    destruct (mfold _ (compared s L) _) as [r|] eqn:Em; [|rewrite Q in E1; discriminate].
    destruct Q as [d2 [Q R2]]. rewrite Q in E1. apply Val_pair in E1. destruct E1 as [<- <-]. split; [exact R2|].
    assert (T := tracks_all cview ci_out cstep (0%N, n0) cgood np s (fun _ y => circ_step axis b (ts_time y)) (cev axis b)
      (circ_body axis b) (compared s L) _ _ r (compared_Forall rect s L (proj2 (proj2 Rc))) Sk (circ_init np) Em).
    destruct T as [_ [_ [_ T]]]. rewrite T. cbn [app]. rewrite !flat_map_concat_map.
    erewrite map_ext; [reflexivity|]. intros i. cbn beta. change (flat_map (move1 s i) (compared s L)) with (moves s L i).
    rewrite flat_cev. apply crun_thirds.
  Qed.

  (** The boundary lies in the recorded dimensions. *)
  Definition within_range (M : mgr F) (axis : N) (b : F) : Prop :=
    exists lo hi, v3get (fst (st_dims (m_stats M))) axis = Val lo /\ v3get (snd (st_dims (m_stats M))) axis = Val hi /\
      nltb b lo = false /\ nltb hi b = false.
  Lemma in_dims_range (M : mgr F) axis b : in_dims M axis b = Val true <-> within_range M axis b.
  Proof.
    unfold in_dims, within_range. split.
    - intros H. apply bind_val in H. destruct H as [hi [Eh H]]. apply bind_val in H. destruct H as [lo [El H]]. injection H as H.
      apply negb_true_iff, orb_false_iff in H. exists lo, hi. tauto.
    - intros [lo [hi [El [Eh [H1 H2]]]]]. rewrite Eh, El. cbn [bind]. now rewrite H1, H2.
  Qed.
  (** It returns if the boundary lies in the recorded dimensions and every timestep has the same
      particles, at most the number in the header and one more. *)
  Theorem c47_returns bld (M : mgr F) d s axis b L n :
    recorded M d L -> sel_ok s -> within_range M axis b ->
    Forall (fun x => vlen (ts_pos x) = n) L -> (n <= st_nparticles (m_stats M) + 1)%N ->
    exists d' out, circulation_time bld M d s axis b = Val (d', out).
  Proof.
    intros Rc Sk Dm Hn Hnp. apply in_dims_range in Dm. unfold circulation_time. rewrite Dm. cbn [bind negb].
    assert (Ax : (axis < 3)%N). { destruct (N.ltb_spec axis 3) as [A|A]; [exact A|]. unfold in_dims in Dm. rewrite v3get_panic in Dm by exact A. discriminate. }
    set (np := (st_nparticles (m_stats M) + 1)%N) in *.
    assert (Q := pair_loop_spec bld M s (fun old y => pair_particles s old y (circ_step axis b (ts_time y))) d L
      (mkCirc (repeat 0%N (N.to_nat np)) (repeat n0 (N.to_nat np)) []) Rc).
    assert (P : Forall (fun x => rect x /\ vlen (ts_pos x) = n) L).
    { apply Forall_forall. intros x Hx. split; [|rewrite Forall_forall in Hn; now apply Hn]. destruct Rc as [_ [_ R]]. rewrite Forall_forall in R. now apply R. }
    assert (P2 := compared_Forall _ s L P).
    destruct (total_all cview ci_out cstep (0%N, n0) cgood np s (fun _ y => circ_step axis b (ts_time y)) (cev axis b)
      (circ_body axis b) (fun x y acc i m m' t => circ_total axis b x y acc i m m' t Ax) (compared s L) n) with (evs := fun _ : N => @nil F) (acc := mkCirc (repeat 0%N (N.to_nat np)) (repeat n0 (N.to_nat np)) (@nil F)) as [r Er].
    - eapply Forall_impl; [|exact P2]. intros [x y] [[A1 A2] [B1 B2]]. auto.
    - exact Hnp.
    - exact Sk.
    - apply circ_init.
    - cbv beta in Q. rewrite Er in Q. destruct Q as [d' [Q _]]. rewrite Q. cbn [bind]. eauto.
  Qed.
  (** A boundary outside the recorded dimensions, or an axis that does not exist, is refused. *)
  Theorem c47_refused bld (M : mgr F) d s axis b : ~ within_range M axis b -> circulation_time bld M d s axis b = Panic.
  Proof. intros H. rewrite <- in_dims_range in H. unfold circulation_time. destruct (in_dims M axis b) as [[]|]; [now contradiction H | reflexivity..]. Qed.

  (** Reading one reported value. *)
  Theorem c47_each bld (M : mgr F) d s axis b L d' out v :
    recorded M d L -> sel_ok s -> circulation_time bld M d s axis b = Val (d', out) -> In v out ->
    exists i pre c1 c2 c3 post k, crossings s axis b L i = pre ++ c1 :: c2 :: c3 :: post /\ length pre = (3 * k)%nat /\
      v = nsub (cross_time c3) (cross_time c1).
  Proof.
    intros Rc Sk E Hv. destruct (c47_times bld M d s axis b L d' out Rc Sk E) as [_ P].
    apply (Permutation_in _ P) in Hv. apply in_flat_map in Hv. destruct Hv as [i [_ Hv]]. apply in_map_iff in Hv.
    destruct Hv as [[a c] [<- H]]. apply thirds_in in H. destruct H as [pre [b2 [post [k [Eq Hk]]]]].
    exists i, pre, a, b2, c, post, k. auto.
  Qed.

  (** If every index keeps its particle, all crossings of a track are by one particle. *)
  Definition same_ids (L : list (timestep F)) : Prop := forall x y i m m', In x L -> In y L ->
    at_ (samples x) i m -> at_ (samples y) i m' -> sm_id m = sm_id m'.
  Lemma compared_in s (L : list (timestep F)) x y : In (x, y) (compared s L) -> In x L /\ In y L.
  Proof.
    intros H. assert (P : Forall (fun x => In x L) L) by (apply Forall_forall; auto).
    assert (Q := compared_Forall (fun x => In x L) s L P). rewrite Forall_forall in Q. exact (Q (x, y) H).
  Qed.
  Lemma moves_in s (L : list (timestep F)) i m m' : In (m, m') (moves s L i) ->
    exists x y, In (x, y) (compared s L) /\ at_ (samples x) i m /\ at_ (samples y) i m' /\ accepts s m' = true /\ neqb (sm_id m') (sm_id m) = true.
  Proof.
    intros H. apply in_flat_map in H. destruct H as [[x y] [Hc H]]. exists x, y. split; [exact Hc|]. unfold move1 in H. cbn [fst snd] in H.
    unfold at_. destruct (nth_error (samples x) (N.to_nat i)) as [a|]; [|contradiction]. destruct (nth_error (samples y) (N.to_nat i)) as [a'|]; [|contradiction].
    destruct (accepts s a') eqn:A; cbn [andb] in H; [|contradiction]. destruct (neqb (sm_id a') (sm_id a)) eqn:Q; [|contradiction].
    destruct H as [[= <- <-]|[]]. auto.
  Qed.
  Theorem c47_one_particle s axis b (L : list (timestep F)) i c1 c2 : same_ids L ->
    In c1 (crossings s axis b L i) -> In c2 (crossings s axis b L i) ->
    sm_id (snd c1) = sm_id (snd c2) /\ sm_id (fst c1) = sm_id (snd c1).
  Proof.
    intros Si H1 H2. apply filter_In in H1, H2. destruct H1 as [H1 _], H2 as [H2 _]. destruct c1 as [m1 n1], c2 as [m2 n2].
    apply moves_in in H1, H2. destruct H1 as [x1 [y1 [C1 [X1 [Y1 _]]]]], H2 as [x2 [y2 [C2 [X2 [Y2 _]]]]].
    apply compared_in in C1, C2. cbn [fst snd]. split; [apply (Si y1 y2 i) | apply (Si x1 y1 i)]; tauto.
  Qed.
End C47.

(** ** The crossing test *)
Lemma mul_neg_signs (a b : f64) : Bltb (Bmult mode_NE a b) (f64_of_Z 0) = true ->
  (Bltb a (f64_of_Z 0) = true /\ Bltb (f64_of_Z 0) b = true) \/ (Bltb (f64_of_Z 0) a = true /\ Bltb b (f64_of_Z 0) = true).
Proof.
  change (f64_of_Z 0) with (B754_zero false : f64).
  assert (Neg : forall x : f64, Bltb x (B754_zero false) = true -> Bsign x = true /\ is_nan x = false).
  { intros [s|s| |s m e H]; cbn; try discriminate; destruct s; try discriminate; auto. }
  intros H. destruct (Neg _ H) as [Sg Nn].
  assert (Sx : is_finite a = true -> is_finite b = true -> xorb (Bsign a) (Bsign b) = true).
  { intros Fa Fb. generalize (Bmult_correct 53 1024 _ _ mode_NE a b). case Rlt_bool_spec; intros _.
    - intros [_ [_ S]]. rewrite <- S by exact Nn. exact Sg.
    - intros S. unfold binary_overflow in S. cbn in S. destruct (Bmult mode_NE a b) as [s|s| |s m e Hb]; cbn in S; try discriminate.
      injection S as ->. exact Sg. }
  destruct a as [sa|sa| |sa ma ea Ha], b as [sb|sb| |sb mb eb Hb]; try (cbn in H; discriminate);
    try (specialize (Sx eq_refl eq_refl); cbn in Sx); try (cbn in Sg); destruct sa, sb; try discriminate; cbn; auto.
Qed.
Lemma sub_neg_lt (x b : f64) : (Bltb (Bminus mode_NE x b) (f64_of_Z 0) = true -> Bltb x b = true) /\
  (Bltb (f64_of_Z 0) (Bminus mode_NE x b) = true -> Bltb b x = true).
Proof.
  change (f64_of_Z 0) with (B754_zero false : f64).
  destruct (is_finite x) eqn:Fx; [destruct (is_finite b) eqn:Fb|].
  - generalize (Bminus_correct 53 1024 _ _ mode_NE x b Fx Fb).
    change (round radix2 fexp64 (round_mode mode_NE) (B2R x - B2R b)) with (rnd (B2R x - B2R b)).
    rewrite (Bltb_R x b Fx Fb), (Bltb_R b x Fb Fx). case Rlt_bool_spec; intros Ov.
    + intros [E [Fm _]]. rewrite (Bltb_R _ (B754_zero false) Fm eq_refl), (Bltb_R (B754_zero false) _ eq_refl Fm). cbn [B2R]. rewrite E. split; intros H.
      * destruct (Rlt_or_le (B2R x) (B2R b)) as [Lt|Le]; [exact Lt|]. assert (Q := rnd_nonneg (B2R x - B2R b) ltac:(lra)). lra.
      * destruct (Rlt_or_le (B2R b) (B2R x)) as [Lt|Le]; [exact Lt|].
        assert (Q := rnd_mono (B2R x - B2R b) 0 ltac:(lra)). rewrite rnd_0 in Q. lra.
    + intros [E Sg]. unfold binary_overflow in E. cbn in E.
      assert (N0 : B2R x <> B2R b). { intros C. rewrite C, Rminus_diag_eq, rnd_0, Rabs_R0 in Ov by reflexivity. generalize (bpow_gt_0 radix2 1024). lra. }
      destruct (Bminus mode_NE x b) as [s|s| |s m e Hb]; cbn in E; try discriminate. injection E as ->.
      assert (X : if Bsign x then (B2R x <= 0)%R else (0 <= B2R x)%R).
      { destruct x as [s|s| |s m e Hb]; cbn in *; try discriminate; destruct s; try lra; [apply F2R_le_0 | apply F2R_ge_0]; cbn; lia. }
      assert (Y : if Bsign b then (B2R b <= 0)%R else (0 <= B2R b)%R).
      { destruct b as [s|s| |s m e Hb]; cbn in *; try discriminate; destruct s; try lra; [apply F2R_le_0 | apply F2R_ge_0]; cbn; lia. }
      rewrite Sg in *. destruct (Bsign b); cbn in *; split; intros H; try discriminate; lra.
  - destruct x as [s|s| |s m e H], b as [sb|sb| |sb mb eb Hb]; try discriminate; cbn; try destruct s; try destruct sb; cbn; auto.
  - destruct x as [s|s| |s m e H], b as [sb|sb| |sb mb eb Hb]; try discriminate; cbn; try destruct s; try destruct sb; cbn; auto.
Qed.
(** In doubles a move that counts as a crossing goes from one side strictly to the other. *)
Theorem c47_crossing_sound (axis : N) (b : f64) (mm : sample f64 * sample f64) : crossing axis b mm = true ->
  exists p q, v3get (sm_pos (snd mm)) axis = Val p /\ v3get (sm_pos (fst mm)) axis = Val q /\
    ((Bltb p b = true /\ Bltb b q = true) \/ (Bltb b p = true /\ Bltb q b = true)).
Proof.
  unfold crossing. destruct (v3get (sm_pos (snd mm)) axis) as [p|]; [|discriminate]. destruct (v3get (sm_pos (fst mm)) axis) as [q|]; [|discriminate].
  intros H. exists p, q. split; [reflexivity|]. split; [reflexivity|]. destruct (mul_neg_signs _ _ H) as [[A B]|[A B]].
  - left. split; [exact (proj1 (sub_neg_lt p b) A) | exact (proj2 (sub_neg_lt q b) B)].
  - right. split; [exact (proj2 (sub_neg_lt p b) A) | exact (proj1 (sub_neg_lt q b) B)].
Qed.
(** In ideal arithmetic every such move counts. *)
Theorem c47_crossing_exact (axis : N) (b : R) (mm : sample R * sample R) p q :
  v3get (sm_pos (snd mm)) axis = Val p -> v3get (sm_pos (fst mm)) axis = Val q ->
  (crossing axis b mm = true <-> (p < b < q \/ q < b < p)%R).
Proof.
  intros Hp Hq. unfold crossing. rewrite Hp, Hq. cbn [nltb num_R nmul nsub n0 nof]. unfold n0. cbn [nof num_R].
  destruct (Rlt_dec _ _) as [H|H]; [split; [intros _ | reflexivity] | split; [discriminate | intros C; contradiction H]].
  - destruct (Rtotal_order p b) as [A|[A|A]], (Rtotal_order q b) as [B|[B|B]]; subst; try lra; exfalso; try nra.
  - nra.
Qed.

(** ** Signs of the reported values *)
Section Sorted_times.
  Context {F : Type} {NF : Num F} (le : F -> F -> Prop).
  Lemma pairs_snd {A} (x : A) l : map snd (pairs x l) = l.
  Proof. revert x; induction l as [|y l IH]; intros x; cbn; [reflexivity | now rewrite IH]. Qed.
  Lemma sorted_filter {A} (R : A -> A -> Prop) f l : StronglySorted R l -> StronglySorted R (filter f l).
  Proof.
    induction 1 as [|a l S IH Hf]; cbn [filter]; [constructor|]. destruct (f a); [constructor; [exact IH|] | exact IH].
    rewrite Forall_forall in *. intros b Hb. apply filter_In in Hb. now apply Hf.
  Qed.
  Lemma sorted_removelast {A} (R : A -> A -> Prop) l : StronglySorted R l -> StronglySorted R (removelast l).
  Proof.
    induction 1 as [|a l S IH Hf]; [constructor|]. destruct l as [|b l]; [constructor|]. change (removelast (a :: b :: l)) with (a :: removelast (b :: l)).
    constructor; [exact IH|]. rewrite Forall_forall in *. intros c Hc. apply Hf. apply In_nth_error in Hc. destruct Hc as [k Hk].
    apply (nth_error_In (b :: l) (N.to_nat (N.of_nat k))). apply removelast_at. unfold at_. now rewrite Nnat.Nat2N.id.
  Qed.
  Lemma compared_sorted s (L : list (timestep F)) : StronglySorted (fun x y => le (ts_time x) (ts_time y)) L ->
    StronglySorted (fun x y => le (ts_time (snd x)) (ts_time (snd y))) (compared s L).
  Proof.
    intros S. destruct L as [|x0 L]; [constructor|]. apply StronglySorted_inv in S. destruct S as [S _]. cbn [compared].
    apply sorted_removelast in S. apply (sorted_filter _ (fun y => timestep_valid s (ts_time y))) in S. revert S.
    generalize (filter (fun y => timestep_valid s (ts_time y)) (removelast L)) as l. intros l. revert x0.
    induction l as [|y l IH]; intros x0 S; cbn [pairs]; [constructor|]. apply StronglySorted_inv in S. destruct S as [S H].
    constructor; [now apply IH|]. rewrite Forall_forall in *. intros [u v] Huv. cbn [snd]. apply H.
    rewrite <- (pairs_snd y l). apply in_map_iff. exists (u, v). auto.
  Qed.
  Lemma moves_sorted s (L : list (timestep F)) i : Forall rect L -> StronglySorted (fun x y => le (ts_time x) (ts_time y)) L ->
    StronglySorted (fun a c => le (cross_time a) (cross_time c)) (moves s L i).
  Proof.
    intros Rc S. apply (compared_sorted s) in S. unfold moves.
    assert (Q := compared_Forall rect s L Rc).
    assert (T1 : forall x y m, rect x -> rect y -> In m (move1 s i (x, y)) -> cross_time m = ts_time y).
    { intros x y [m m'] Rx Ry H. unfold move1 in H. cbn [fst snd] in H.
      destruct (nth_error (samples x) (N.to_nat i)) as [a|] eqn:Ex; [|contradiction]. destruct (nth_error (samples y) (N.to_nat i)) as [a'|] eqn:Ey; [|contradiction].
      destruct (accepts s a' && neqb (sm_id a') (sm_id a)); [|contradiction]. destruct H as [[= <- <-]|[]].
      unfold cross_time. cbn [snd]. apply (samples_at y i a' Ry Ey). }
    induction (compared s L) as [|[x y] l IH]; [constructor|]. apply StronglySorted_inv in S. destruct S as [S H].
    inversion Q as [|? ? [Rx Ry] Ql]; subst. cbn [flat_map]. specialize (IH S Ql).
    assert (One : move1 s i (x, y) = [] \/ exists m, move1 s i (x, y) = [m]).
    { unfold move1. destruct (nth_error (samples (fst (x, y))) (N.to_nat i)) as [a|]; [|now left]. destruct (nth_error (samples (snd (x, y))) (N.to_nat i)) as [a'|]; [|now left].
      destruct (accepts s a' && neqb (sm_id a') (sm_id a)); [right; eexists; reflexivity | now left]. }
    destruct One as [->|[m Em]]; [exact IH|]. rewrite Em. cbn [app]. constructor; [exact IH|].
    rewrite (T1 x y m Rx Ry) by (rewrite Em; now left). apply Forall_forall. intros c Hc. apply in_flat_map in Hc.
    destruct Hc as [[u v] [Huv Hc]]. rewrite Forall_forall in Ql, H. destruct (Ql _ Huv) as [Ru Rv].
    rewrite (T1 u v c Ru Rv Hc). exact (H _ Huv).
  Qed.
End Sorted_times.

Lemma sub_nonneg (x y : f64) : is_finite x = true -> is_finite y = true -> Bleb y x = true -> Bleb (f64_of_Z 0) (Bminus mode_NE x y) = true.
Proof.
  intros Fx Fy H. apply Bleb_R in H; [|assumption..]. destruct (minus_cases x y Fx Fy H) as [[_ [Fm E]]|[_ E]].
  - apply Bleb_R; [reflexivity | exact Fm|]. rewrite E. cbn. apply rnd_nonneg. lra.
  - rewrite E. reflexivity.
Qed.
(** With finite non-decreasing times no circulation time is negative (in doubles). *)
Theorem c47_nonnegative bld (M : mgr f64) d s axis b L d' out v :
  recorded M d L -> sel_ok s -> Forall (fun x => is_finite (ts_time x) = true) L ->
  StronglySorted (fun x y => Bleb (ts_time x) (ts_time y) = true) L ->
  circulation_time bld M d s axis b = Val (d', out) -> In v out -> Bleb (f64_of_Z 0) v = true.
Proof.
  intros Rc Sk Fin So E Hv. destruct (c47_each bld M d s axis b L d' out v Rc Sk E Hv) as [i [pre [c1 [c2 [c3 [post [k [Ec [_ ->]]]]]]]]].
  assert (Rl : Forall rect L) by apply Rc.
  assert (S := moves_sorted (fun x y => Bleb x y = true) s L i Rl So). apply (sorted_filter _ (crossing axis b)) in S.
  change (filter (crossing axis b) (moves s L i)) with (crossings s axis b L i) in S. rewrite Ec in S.
  assert (S3 : forall (A : Type) (R : A -> A -> Prop) p (l : list A), StronglySorted R (p ++ l) -> StronglySorted R l).
  { clear. intros A R p l. induction p as [|a p IH]; cbn; [auto|]. intros H. apply StronglySorted_inv in H. now apply IH. }
  apply S3 in S. apply StronglySorted_inv in S. destruct S as [_ H]. rewrite Forall_forall in H.
  assert (Ht : forall c, In c (crossings s axis b L i) -> is_finite (cross_time c) = true).
  { intros [m m'] Hc. apply filter_In in Hc. destruct Hc as [Hc _]. apply moves_in in Hc. destruct Hc as [x [y [Cxy [_ [Hy _]]]]].
    apply compared_in in Cxy. destruct Cxy as [_ Iy]. rewrite Forall_forall in Rl, Fin. unfold cross_time. cbn [snd].
    destruct (samples_at y i m' (Rl y Iy) Hy) as [-> _]. now apply Fin. }
  rewrite Ec in Ht. cbn [nsub num_f64]. apply sub_nonneg.
  - apply Ht. apply in_or_app. right. cbn. auto.
  - apply Ht. apply in_or_app. right. cbn. auto.
  - apply H. cbn. auto.
Qed.

(** ** Refutations and a case *)
Definition two_at (t : Z) (i1 i2 : Z) (x1 x2 : Z) : timestep f64 :=
  mkTs (d t) [(d x1, d 0, d 0); (d x2, d 0, d 0)] [(d 0, d 0, d 0); (d 0, d 0, d 0)] [d 1; d 1] [d i1; d i2] [d 0; d 0] [d 1; d 1] [d 1; d 1].
Definition circ_stats (n : N) : stats f64 := mkStats n 2 (d 0, d 1, d 2) [] ((d (-9), d (-9), d (-9)), (d 9, d 9, d 9)).
(** Particle 1 crosses x = 0 at times 1 to 4; it is reported once. *)
Definition circ_ex : list (timestep f64) :=
  [two_at 0 1 2 1 5; two_at 1 1 2 (-1) 5; two_at 2 1 2 1 5; two_at 3 1 2 (-1) 5; two_at 4 1 2 1 5; two_at 5 1 2 1 5].
Definition circ_of (L : list (timestep f64)) : res (list (bool * Z)) :=
  let! r := circulation_time Debug (list_mgr L (circ_stats (vlen L))) tt sel_default 0 (d 0) in
  Val (map (fun v => (is_finite v, Btrunc v)) (snd r)).
Example c47_case : recorded (list_mgr circ_ex (circ_stats 6)) tt circ_ex /\ sel_ok (sel_default (F := f64)) /\
  within_range (list_mgr circ_ex (circ_stats 6)) 0 (d 0) /\ Forall (fun x => vlen (ts_pos x) = 2%N) circ_ex /\
  Forall (fun x => is_finite (ts_time x) = true) circ_ex /\ StronglySorted (fun x y => Bleb (ts_time x) (ts_time y) = true) circ_ex /\
  same_ids circ_ex /\ circ_of circ_ex = Val [(true, 2%Z)].
Proof.
  split; [apply list_recorded; [discriminate | repeat constructor | reflexivity]|].
  split; [repeat split; discriminate|]. split; [apply in_dims_range; vm_compute; reflexivity|]. split; [repeat constructor|]. split; [repeat constructor|].
  split; [repeat constructor; vm_compute; reflexivity|]. split; [|vm_compute; reflexivity].
  assert (Q : forall x, In x circ_ex -> map (fun m => sm_id m) (samples x) = [d 1; d 2]).
  { intros x Hx. cbn in Hx. decompose [or] Hx; subst; try reflexivity; contradiction. }
  intros x y i m m' Hx Hy Hm Hm'. apply Q in Hx, Hy. unfold at_ in *.
  apply (map_nth_error (fun m => sm_id m)) in Hm, Hm'. rewrite Hx in Hm. rewrite Hy in Hm'. congruence.
Qed.
(** A particle that stops exactly on the boundary before it goes on is never seen to cross. *)
Theorem c47_landing_refuted :
  circ_of [two_at 0 1 2 1 5; two_at 1 1 2 0 5; two_at 2 1 2 (-1) 5; two_at 3 1 2 0 5; two_at 4 1 2 1 5; two_at 5 1 2 0 5; two_at 6 1 2 (-1) 5; two_at 7 1 2 (-1) 5] = Val [].
Proof. vm_compute. reflexivity. Qed.
(** A file whose rows change order: crossings of two particles are taken for those of one (particle 2
    never crosses three times, nor does particle 1). *)
Theorem c47_mixed_refuted :
  circ_of [two_at 0 1 2 1 5; two_at 1 1 2 (-1) 5; two_at 2 2 1 5 (-1); two_at 3 2 1 (-5) (-1); two_at 4 2 1 5 (-1); two_at 5 2 1 5 (-1)] = Val [(true, 3%Z)].
Proof. vm_compute. reflexivity. Qed.
