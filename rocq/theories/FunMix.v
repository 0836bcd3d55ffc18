(** * Properties C43-C45: mixing (Lacey index, concentration, mean squared displacement). *)
From Coq Require Import Reals List NArith ZArith Bool Lia Lra String ZifyBool ZifyN ZifyNat.
From Flocq Require Import Core.Core IEEE754.BinarySingleNaN.
From Verif Require Import Base BaseFacts Num F64Facts RFacts NDArray GridModel GridSpec GridFacts CartProofs CartR GridOps
  SelModel DataModel DataSpec DataProofs DataLoad PropertiesGrid PropertiesData FunModel FunSpec FunProofs FunMgr FunField PropertiesFun FunOcc FunMom FunTemp
  FunDisp MixModel.
Local Open Scope list_scope.

(** ** Specification *)
Section Spec.
  Context {F : Type} {NF : Num F} {TF : Trig F}.
  Definition of_type (t : N) (m : sample F) : bool := (nusize (sm_type m) =? t)%N.
  Definition number_of (t : N) (l : list (sample F)) : N := vlen (filter (of_type t) l).
End Spec.

Section Gen.
  Context {F : Type} {NF : Num F} {TF : Trig F}.

  Lemma at_removelast {A} (l : list A) i x : at_ (removelast l) i x -> at_ l i x.
  Proof.
    intros H. destruct l as [|a l]; [unfold at_ in H; cbn [removelast] in H; destruct (N.to_nat i); discriminate H|].
    rewrite (app_removelast_last a (l := a :: l)) by discriminate. now apply at_app1.
  Qed.
  Lemma vlen_removelast {A} (l : list A) : vlen (removelast l) = (vlen l - 1)%N.
  Proof.
    destruct l as [|a l]; [reflexivity|].
    assert (Q := f_equal (@List.length A) (app_removelast_last (l := a :: l) a ltac:(discriminate))). rewrite app_length in Q.
    cbn [List.length] in Q. unfold vlen. cbn [List.length]. lia.
  Qed.
  Lemma Forall_removelast {A} (P : A -> Prop) l : Forall P l -> Forall P (removelast l).
  Proof.
    rewrite !Forall_forall. intros H x Hx. apply H. destruct l as [|a l]; [contradiction|].
    rewrite (app_removelast_last a (l := a :: l)) by discriminate. apply in_or_app. now left.
  Qed.
  Lemma steps_but_1 bld (M : mgr F) (L : list (timestep F)) : st_timesteps (m_stats M) = vlen L -> L <> [] ->
    steps_but bld M 1 = Val (range 0 (vlen (removelast L))).
  Proof.
    intros E H. unfold steps_but. rewrite E. rewrite usub_ge by (destruct L; [contradiction | unfold vlen; cbn; lia]). cbn [bind].
    now rewrite vlen_removelast.
  Qed.

  (** The loop over all timesteps but the last. *)
  Lemma loop_but_last {S} bld (M : mgr F) (s : selector F) (body : timestep F -> S -> N -> v3 F -> res S)
    (f : S -> sample F -> res S) L d st :
    reads_as M d L -> L <> [] -> Forall rect L -> sel_ok s ->
    (forall x st i m, In x L -> at_ (samples x) i m -> body x st i (sm_pos m) = f st m) ->
    match mfold f (observed s (removelast L)) st with
    | Val r => exists d', (let! l := steps_but bld M 1 in
                 loop_pure M s (fun st x => loop_particles s x (body x) st) l (d, st)) = Val (d', r) /\ reads_as M d' L
    | Panic => (let! l := steps_but bld M 1 in
                 loop_pure M s (fun st x => loop_particles s x (body x) st) l (d, st)) = Panic
    end.
  Proof.
    intros [Nt [Inv [I Get]]] Ne R Sk H. rewrite (steps_but_1 bld M L Nt Ne). cbn [bind]. set (L1 := removelast L).
    assert (Q := loop_pure_run M s (fun st x => loop_particles s x (body x) st) Inv L Get L1 0 d st
      ltac:(intros i x Hi; rewrite N.add_0_l; now apply at_removelast) I).
    change (0 + vlen L1)%N with (vlen L1) in Q. assert (R1 : Forall rect L1) by now apply Forall_removelast.
    rewrite <- (observed_fold s f L1 st R1).
    replace (mfold (fun st x => if timestep_valid s (ts_time x) then mfold f (filter (accepts s) (samples x)) st else Val st) L1 st)
      with (mfold (fun st x => if timestep_valid s (ts_time x) then loop_particles s x (body x) st else Val st) L1 st).
    - destruct (mfold _ L1 st) as [r|]; [|exact Q]. destruct Q as [d' [Q I']]. exists d'. split; [exact Q|].
      split; [exact Nt|]. exists Inv. auto.
    - apply mfold_ext. intros st' x Hx. destruct (timestep_valid s (ts_time x)); [|reflexivity].
      assert (HL : In x L). { apply In_nth_error in Hx. destruct Hx as [k Hk]. apply (nth_error_In L (N.to_nat (N.of_nat k))).
        apply (at_removelast L (N.of_nat k)). unfold at_. now rewrite Nnat.Nat2N.id. }
      rewrite Forall_forall in R. apply loop_particles_spec; auto.
  Qed.

  (** The two grids are filled independently. *)
  Definition one_type (k : sample F -> bool) bld (g : grid F) (h : grid F) (m : sample F) : res (grid F) :=
    if (pos_keep m && k m) && is_inside g (sm_pos m) then add_value bld h (sm_pos m) n1 else Val h.
  Definition both_types ta tb bld (g : grid F) (ab : grid F * grid F) (m : sample F) : res (grid F * grid F) :=
    if pos_keep m && is_inside g (sm_pos m) then add_typed bld ta tb ab (sm_pos m) (nusize (sm_type m)) else Val ab.
  Definition second (ta tb : N) (m : sample F) : bool := negb (of_type ta m) && of_type tb m.
  Lemma types_split ta tb bld g l : forall a b a' b',
    mfold (both_types ta tb bld g) l (a, b) = Val (a', b') <->
    mfold (one_type (of_type ta) bld g) l a = Val a' /\ mfold (one_type (second ta tb) bld g) l b = Val b'.
  Proof.
    induction l as [|m l IH]; intros a b a' b'; cbn [mfold].
    - split; [intros [= <- <-]; auto | intros [[= <-] [= <-]]; reflexivity].
    - unfold both_types at 1, one_type at 1 3, add_typed, second, of_type. cbn [fst snd].
      destruct (pos_keep m); cbn [andb bind]; [|apply IH].
      destruct (is_inside g (sm_pos m)) eqn:In; [|rewrite !andb_false_r; cbn [bind]; apply IH]. rewrite !andb_true_r.
      destruct (nusize (sm_type m) =? ta)%N; cbn [negb andb bind].
      + destruct (add_value bld a (sm_pos m) n1) as [a1|]; cbn [bind]; [apply IH|]. split; [discriminate | intros [H _]; discriminate H].
      + destruct (nusize (sm_type m) =? tb)%N; cbn [bind]; [|apply IH].
        destruct (add_value bld b (sm_pos m) n1) as [b1|]; cbn [bind]; [apply IH|]. split; [discriminate | intros [_ H]; discriminate H].
  Qed.
  Lemma types_sound ta tb bld g l a0 b0 a b : wf_grid a0 -> geo a0 = geo g -> wf_grid b0 -> geo b0 = geo g ->
    mfold (both_types ta tb bld g) l (a0, b0) = Val (a, b) ->
    acc_ok bld (geo g) (fun m => pos_keep m && of_type ta m) (fun _ => n1) l a0 a /\
    acc_ok bld (geo g) (fun m => pos_keep m && second ta tb m) (fun _ => n1) l b0 b.
  Proof.
    intros W1 G1 W2 G2 E. apply types_split in E. destruct E as [E1 E2].
    split; [apply (accumulate_sound bld g (fun m => pos_keep m && of_type ta m)) | apply (accumulate_sound bld g (fun m => pos_keep m && second ta tb m))]; assumption.
  Qed.
  Lemma types_total ta tb bld g l a0 b0 : inside_ok bld (geo g) -> wf_grid a0 -> geo a0 = geo g -> wf_grid b0 -> geo b0 = geo g ->
    exists a b, mfold (both_types ta tb bld g) l (a0, b0) = Val (a, b).
  Proof.
    intros Ok W1 G1 W2 G2.
    destruct (accumulate_total bld g (fun m => pos_keep m && of_type ta m) (fun _ => n1) l a0 Ok W1 G1) as [a Ea].
    destruct (accumulate_total bld g (fun m => pos_keep m && second ta tb m) (fun _ => n1) l b0 Ok W2 G2) as [b Eb].
    exists a, b. apply types_split. auto.
  Qed.

  Definition count (l : list (sample F)) : F := fold_left (fun w _ => nadd w n1) l n0.
  Definition in_first bld (g : grid F) c ta l := filter (fun m => pos_keep m && of_type ta m) (samples_in bld (geo g) c l).
  Definition in_second bld (g : grid F) c ta tb l := filter (fun m => pos_keep m && second ta tb m) (samples_in bld (geo g) c l).

  Lemma conc_fold bld (M : mgr F) g s ta tb L d st : recorded M d L -> sel_ok s ->
    let prog := (let! l := steps_but bld M 1 in
      loop_pure M s (fun ab x => loop_particles s x (fun ab i p =>
        if nan3 p then Val ab else
        if negb (is_inside g p) then Val ab else
        let! y := vget (ts_type x) i in
        add_typed bld ta tb ab p (nusize y)) ab) l (d, st)) in
    match mfold (both_types ta tb bld g) (observed s (removelast L)) st with
    | Val r => exists d', prog = Val (d', r) /\ recorded M d' L
    | Panic => prog = Panic
    end.
  Proof.
    intros [Rd [Ne Rc]] Sk prog.
    assert (Q := loop_but_last bld M s (fun x ab i p => if nan3 p then Val ab else
        if negb (is_inside g p) then Val ab else
        let! y := vget (ts_type x) i in
        add_typed bld ta tb ab p (nusize y)) (both_types ta tb bld g) L d st Rd Ne Rc Sk).
    rewrite Forall_forall in Rc.
    match type of Q with ?P -> _ => assert (H : P) end.
    { intros x st' i m Hx Hm. destruct (samples_at x i m (Rc x Hx) Hm) as [_ [_ [_ [_ [_ [_ [_ Ht]]]]]]].
      unfold both_types, pos_keep. destruct (nan3 (sm_pos m)); [reflexivity|]. cbn [negb andb].
      destruct (is_inside g (sm_pos m)); [|reflexivity]. cbn [negb]. now rewrite (proj2 (vget_val _ _ _) Ht). }
    specialize (Q H). destruct (mfold _ (observed s (removelast L)) st) as [r|]; [|exact Q].
    destruct Q as [d' [Q R]]. exists d'. split; [exact Q|]. split; [exact R|]. split; [exact Ne|]. now rewrite Forall_forall.
  Qed.

  Lemma conc_finish (M : mgr F) (d' : ms M) (g a b : grid F) : wf_grid g -> wf_grid a -> geo a = geo g -> wf_grid b -> geo b = geo g ->
    exists h, (let! ab := zip3 nadd (data a) (data b) in
      let! q := zip3 ndiv (data a) ab in
      let! h := set_data (new_zeros g) q in
      let! w := zip3 nadd (weight a) (weight b) in
      let! h := set_weights h w in
      Val (d', h)) = Val (d', h) /\ wf_grid h /\ geo h = geo g /\
      forall c, inb3 (geom_cells (geo g)) c = true ->
        at3 (data h) c = ndiv (at3 (data a) c) (nadd (at3 (data a) c) (at3 (data b) c)) /\
        at3 (weight h) c = nadd (at3 (weight a) c) (at3 (weight b) c).
  Proof.
    intros W [A1 A2] Ga [B1 B2] Gb. rewrite Ga in A1, A2. rewrite Gb in B1, B2. destruct (new_zeros_wf g W) as [[Z1 Z2] Zg]. rewrite Zg in Z1, Z2.
    destruct (zip3_ok nadd (data a) (data b)) as [ab Eab]; [congruence|]. destruct (zip3_at nadd (data a) (data b) ab ltac:(congruence) Eab) as [S1 H1].
    destruct (zip3_ok ndiv (data a) ab) as [q Eq]; [congruence|]. destruct (zip3_at ndiv (data a) ab q ltac:(congruence) Eq) as [S2 H2].
    destruct (zip3_ok nadd (weight a) (weight b)) as [w Ew]; [congruence|]. destruct (zip3_at nadd (weight a) (weight b) w ltac:(congruence) Ew) as [S3 H3].
    rewrite Eab. cbn [bind]. rewrite Eq. cbn [bind]. unfold set_data at 1, sh_eqb. rewrite Z1, S2, A1, id3_eqb_refl. cbn [bind]. rewrite Ew. cbn [bind].
    unfold set_weights, sh_eqb, with_data. cbn [weight new_zeros]. replace (sh3 w) with (geom_cells (geo g)) by congruence.
    change (sh3 (weight (new_zeros g))) with (sh3 (weight g)). destruct W as [Wd Ww]. rewrite Ww, id3_eqb_refl. cbn [bind]. eexists. split; [reflexivity|].
    unfold with_weight, wf_grid. cbn [data weight geo]. split; [split; congruence|]. split; [reflexivity|].
    intros c Hc. rewrite (H2 c), (H1 c), (H3 c) by congruence. auto.
  Qed.
  Lemma conc_cells bld (M : mgr F) d (L : list (timestep F)) g s ta tb d' h : recorded M d L -> sel_ok s -> wf_grid g ->
    concentration_field bld M d g s ta tb = Val (d', h) ->
    recorded M d' L /\ wf_grid h /\ geo h = geo g /\
    forall c, inb3 (geom_cells (geo g)) c = true ->
      let la := in_first bld g c ta (observed s (removelast L)) in
      let lb := in_second bld g c ta tb (observed s (removelast L)) in
      at3 (data h) c = ndiv (count la) (nadd (count la) (count lb)) /\
      at3 (weight h) c = nadd (fold_left (fun w _ => nadd w n1) la (at3 (weight g) c)) (fold_left (fun w _ => nadd w n1) lb (at3 (weight g) c)).
  Proof.
    intros Rec Sk W E. destruct (new_zeros_wf g W) as [W0 G0].
    assert (Q := conc_fold bld M g s ta tb L d (new_zeros g, new_zeros g) Rec Sk). cbv zeta in Q.
    unfold concentration_field in E. apply bind_val in E. destruct E as [l [El E]]. rewrite El in Q. cbn [bind] in Q.
    destruct (mfold (both_types ta tb bld g) (observed s (removelast L)) (new_zeros g, new_zeros g)) as [[a b]|] eqn:Fo.
    - destruct Q as [d2 [Q R]]. rewrite Q in E. cbn [bind] in E.
      destruct (types_sound ta tb bld g _ _ _ a b W0 G0 W0 G0 Fo) as [[Wa [Ga Ha]] [Wb [Gb Hb]]].
      destruct (conc_finish M d2 g a b W Wa Ga Wb Gb) as [h1 [Eh [Wh [Gh H]]]]. rewrite Eh in E. apply Val_pair in E. destruct E as [<- <-].
      split; [exact R|]. split; [exact Wh|]. split; [exact Gh|]. intros c Hc. destruct (H c Hc) as [Hd Hw], (Ha c Hc) as [A1 A2], (Hb c Hc) as [B1 B2].
      rewrite fold_ones in A1, B1. intros la lb. rewrite Hd, Hw, A1, A2, B1, B2. split; reflexivity.
    - rewrite Q in E. discriminate.
  Qed.
  Lemma conc_total bld (M : mgr F) d (L : list (timestep F)) g s ta tb : recorded M d L -> sel_ok s -> wf_grid g -> inside_ok bld (geo g) ->
    exists d' h, concentration_field bld M d g s ta tb = Val (d', h).
  Proof.
    intros Rec Sk W Ok. destruct (new_zeros_wf g W) as [W0 G0].
    assert (Q := conc_fold bld M g s ta tb L d (new_zeros g, new_zeros g) Rec Sk). cbv zeta in Q.
    destruct (types_total ta tb bld g (observed s (removelast L)) _ _ Ok W0 G0 W0 G0) as [a [b Fo]]. rewrite Fo in Q. destruct Q as [d' [Q R]].
    destruct (types_sound ta tb bld g _ _ _ a b W0 G0 W0 G0 Fo) as [[Wa [Ga _]] [Wb [Gb _]]].
    destruct (conc_finish M d' g a b W Wa Ga Wb Gb) as [h [Eh _]]. unfold concentration_field.
    apply bind_val in Q. destruct Q as [l [El Q]]. rewrite El. cbn [bind]. rewrite Q. cbn [bind]. exists d', h. exact Eh.
  Qed.
End Gen.

(** ** C44 *)
Lemma add_exact (x y : f64) (a b : N) : is_finite x = true -> B2R x = NR a -> is_finite y = true -> B2R y = NR b -> (a + b <= 2 ^ 53)%N ->
  is_finite (nadd x y) = true /\ B2R (nadd x y) = NR (a + b).
Proof.
  intros Fx Ex Fy Ey Small. cbn [nadd num_f64]. generalize (Bplus_correct 53 1024 _ _ mode_NE x y Fx Fy).
  rewrite Ex, Ey. unfold NR. rewrite <- plus_IZR. replace (Z.of_N a + Z.of_N b)%Z with (Z.of_N (a + b)) by lia.
  assert (Fm : generic_format radix2 fexp64 (IZR (Z.of_N (a + b)))) by (apply fmt_int; lia).
  change (round radix2 (SpecFloat.fexp 53 1024) (round_mode mode_NE) (IZR (Z.of_N (a + b)))) with (rnd (IZR (Z.of_N (a + b)))).
  rewrite (rnd_fmt _ Fm). rewrite Rlt_bool_true.
  - intros [A [B _]]. split; [exact B | exact A].
  - rewrite Rabs_pos_eq by (apply IZR_le; lia). apply Rle_lt_trans with (IZR (2 ^ 53)); [apply IZR_le; lia | apply M64_big].
Qed.
Lemma zero_of (x : f64) : is_finite x = true -> B2R x = 0%R -> exists s, x = B754_zero s.
Proof.
  destruct x as [s|s| |s m e H]; intros Fx E; try discriminate; [eauto|]. exfalso. cbn in E. unfold F2R in E. cbn [Fnum Fexp] in E.
  apply Rmult_integral in E. destruct E as [E|E].
  - apply eq_IZR in E. destruct s; discriminate E.
  - generalize (bpow_gt_0 radix2 e). lra.
Qed.
Lemma count_f64 (l : list (sample f64)) : (vlen l <= 2 ^ 53)%N -> is_finite (count l) = true /\ B2R (count l) = NR (vlen l).
Proof.
  intros H. destruct (of_Z_correct 0 ltac:(lia)) as [O1 F1]. exact (count_exact l (f64_of_Z 0) 0 F1 O1 ltac:(lia)).
Qed.
Lemma cart_in_not_nan {TF : Trig f64} bld (cg : cart_geom f64) c p : in_cell bld (Cart cg) c p = true -> nan3 p = false.
Proof.
  intros H. apply andb_true_iff in H. destruct H as [H _]. cbn [geom_inside] in H. apply cart_inside_f64 in H. unfold in_box, within in H.
  destruct (cc_lim cg) as [[l0 l1] l2], p as [[p0 p1] p2]. cbn [nleb num_f64] in H. destruct H as [[_ H0] [[_ H1] [_ H2]]].
  unfold nan3. cbn [nisnan num_f64]. now rewrite (Bleb_not_nan_l _ _ H0), (Bleb_not_nan_l _ _ H1), (Bleb_not_nan_l _ _ H2).
Qed.
Lemma first_number {TF : Trig f64} bld (g : grid f64) cg c ta l : geo g = Cart cg ->
  in_first bld g c ta l = filter (of_type ta) (samples_in bld (geo g) c l).
Proof.
  intros G. unfold in_first. apply filter_ext_in. intros m Hm. apply filter_In in Hm. destruct Hm as [_ Hm]. rewrite G in Hm.
  unfold pos_keep. now rewrite (cart_in_not_nan _ _ _ _ Hm).
Qed.
Lemma second_number {TF : Trig f64} bld (g : grid f64) cg c ta tb l : geo g = Cart cg -> ta <> tb ->
  in_second bld g c ta tb l = filter (of_type tb) (samples_in bld (geo g) c l).
Proof.
  intros G Ne. unfold in_second. apply filter_ext_in. intros m Hm. apply filter_In in Hm. destruct Hm as [_ Hm]. rewrite G in Hm.
  unfold pos_keep. rewrite (cart_in_not_nan _ _ _ _ Hm). cbn [negb andb]. unfold second, of_type.
  destruct (N.eqb_spec (nusize (sm_type m)) ta) as [E|E], (N.eqb_spec (nusize (sm_type m)) tb) as [E'|E']; try reflexivity. congruence.
Qed.
(** Doubles, Cartesian grids, two different types, all timesteps but the last: the call returns;
    each cell holds the correctly rounded share of the first type, a number in [0,1], NaN exactly where
    neither type is; on a grid without data the weights are the numbers of samples.  Missing: the
    last timestep. *)
Theorem c44_share {TF : Trig f64} (bld : build) (M : mgr f64) d L (g : grid f64) (cg : cart_geom f64) s ta tb :
  recorded M d L -> sel_ok s -> wf_grid g -> geo g = Cart cg -> sized (cc_cells cg) -> ta <> tb ->
  exists d' h, concentration_field bld M d g s ta tb = Val (d', h) /\ recorded M d' L /\ geo h = geo g /\
  forall c, inb3 (cc_cells cg) c = true ->
    let l := samples_in bld (geo g) c (observed s (removelast L)) in
    let a := number_of ta l in let b := number_of tb l in
    (a + b <= 2 ^ 53)%N ->
    ((a + b = 0)%N -> is_nan (at3 (data h) c) = true) /\
    ((0 < a + b)%N -> is_finite (at3 (data h) c) = true /\ B2R (at3 (data h) c) = rnd (NR a / NR (a + b)) /\ (0 <= B2R (at3 (data h) c) <= 1)%R) /\
    (fresh g -> is_finite (at3 (weight h) c) = true /\ B2R (at3 (weight h) c) = NR (a + b)).
Proof.
  intros Rec Sk W G Sz Ne. destruct (conc_total bld M d L g s ta tb Rec Sk W) as [d' [h E]]; [rewrite G; now apply cart_inside_ok|].
  exists d', h. split; [exact E|]. destruct (conc_cells bld M d L g s ta tb d' h Rec Sk W E) as [R [_ [Gh H]]]. split; [exact R|]. split; [exact Gh|].
  intros c Hc l a b Small. destruct (H c ltac:(now rewrite G)) as [Hd Hw].
  rewrite (first_number bld g cg) in Hd, Hw by exact G. rewrite (second_number bld g cg) in Hd, Hw by assumption. fold l in Hd, Hw.
  assert (Sa : (vlen (filter (of_type ta) l) <= 2 ^ 53)%N) by (fold (number_of ta l); fold a; lia).
  assert (Sb : (vlen (filter (of_type tb) l) <= 2 ^ 53)%N) by (fold (number_of tb l); fold b; lia).
  destruct (count_f64 _ Sa) as [Fa Ea], (count_f64 _ Sb) as [Fb Eb]. fold (number_of ta l) in Ea. fold a in Ea. fold (number_of tb l) in Eb. fold b in Eb.
  destruct (add_exact _ _ a b Fa Ea Fb Eb Small) as [Fs Es].
  split; [|split].
  - intros Z. assert (Za : a = 0%N) by lia. assert (Zb : b = 0%N) by lia. rewrite Za in Ea. rewrite Zb in Eb. rewrite Hd.
    destruct (zero_of _ Fa) as [sa ->]; [exact Ea|]. destruct (zero_of _ Fb) as [sb ->]; [exact Eb|].
    destruct sa, sb; reflexivity.
  - intros P. rewrite Hd. cbn [ndiv num_f64].
    assert (Pab : (0 < NR (a + b))%R) by (unfold NR; apply (IZR_lt 0); lia).
    destruct (div_unit (count (filter (of_type ta) l)) (nadd (count (filter (of_type ta) l)) (count (filter (of_type tb) l))) Fa) as [D1 [D2 D3]].
    + rewrite Ea, Es. unfold NR. split; apply IZR_le; lia.
    + now rewrite Es.
    + rewrite D2. rewrite Ea, Es in *. auto.
  - intros [_ Fr]. rewrite Hw, (proj2 (Fr c)). exact (conj Fs Es).
Qed.
(** Ideal arithmetic: swapping the types gives the complement. *)
Theorem c44_complement {TF : Trig R} (bld : build) (M : mgr R) d L (g : grid R) s ta tb d1 h1 d2 h2 :
  recorded M d L -> sel_ok s -> wf_grid g -> ta <> tb ->
  concentration_field bld M d g s ta tb = Val (d1, h1) -> concentration_field bld M d g s tb ta = Val (d2, h2) ->
  forall c, inb3 (geom_cells (geo g)) c = true ->
    let l := samples_in bld (geo g) c (observed s (removelast L)) in
    (0 < number_of ta l + number_of tb l)%N ->
    at3 (data h1) c = (NR (number_of ta l) / NR (number_of ta l + number_of tb l))%R /\
    (at3 (data h1) c + at3 (data h2) c = 1)%R.
Proof.
  intros Rec Sk W Ne E1 E2 c Hc l P.
  destruct (conc_cells bld M d L g s ta tb d1 h1 Rec Sk W E1) as [_ [_ [_ H1]]], (conc_cells bld M d L g s tb ta d2 h2 Rec Sk W E2) as [_ [_ [_ H2]]].
  destruct (H1 c Hc) as [D1 _], (H2 c Hc) as [D2 _].
  assert (Fi : forall t, in_first bld g c t (observed s (removelast L)) = filter (of_type t) l).
  { intros t. unfold in_first. apply filter_ext. intros [? [[? ?] ?] ? ? ? ? ? ?]. reflexivity. }
  assert (Se : forall t t', t <> t' -> in_second bld g c t t' (observed s (removelast L)) = filter (of_type t') l).
  { intros t t' Nt. unfold in_second. apply filter_ext. intros m. unfold pos_keep, second, of_type. destruct (sm_pos m) as [[? ?] ?].
    cbn [nan3 nisnan num_R orb negb andb]. destruct (N.eqb_spec (nusize (sm_type m)) t) as [E|E], (N.eqb_spec (nusize (sm_type m)) t') as [E'|E']; try reflexivity. congruence. }
  assert (Co : forall t, count (filter (of_type t) l) = NR (number_of t l)).
  { intros t. unfold count. rewrite count_R. change (@n0 R num_R) with 0%R. unfold number_of. lra. }
  rewrite Fi, Se, !Co in D1 by congruence. rewrite Fi, Se, !Co in D2 by congruence. rewrite D1, D2. cbn [ndiv nadd num_R].
  assert (Q : (0 < NR (number_of ta l) + NR (number_of tb l))%R) by (rewrite <- NR_add; unfold NR; apply (IZR_lt 0); lia).
  rewrite NR_add. split; [reflexivity|]. field. lra.
Qed.
(** False of the code: the last timestep is never read. *)
Definition mix_data : list (timestep f64) :=
  [mkTs (d 0) [(d 0, d 0, d 0)] [(d 0, d 0, d 0)] [d 1] [d 1] [d 0] [d 1] [d 1];
   mkTs (d 1) [(d 0, d 0, d 0)] [(d 0, d 0, d 0)] [d 1] [d 1] [d 0] [d 1] [d 2]].
Theorem c44_last_timestep_refuted {TF : Trig f64} :
  recorded (list_mgr mix_data (ex_stats 2)) tt mix_data /\
  after (cart_new (1, 1, 1)%N (ThreeD box64)) (fun g =>
  let l := samples_in Debug (geo g) (0, 0, 0)%N (observed sel_default mix_data) in
  number_of 1 l = 1%N /\ number_of 2 l = 1%N /\
  after (concentration_field Debug (list_mgr mix_data (ex_stats 2)) tt g sel_default 1 2) (fun r =>
    same (at3 (data (snd r)) (0, 0, 0)%N) (d 1) /\ same (at3 (weight (snd r)) (0, 0, 0)%N) (d 1))).
Proof. split; [apply list_recorded; [discriminate | repeat constructor | reflexivity]|]. vm_compute. repeat split; reflexivity. Qed.
Example c44_case {TF : Trig f64} :
  after (cart_new (1, 1, 1)%N (ThreeD box64)) (fun g => fresh g /\
  after (concentration_field Debug (list_mgr ex_data4 (ex_stats 4)) tt g sel_default 1 2) (fun r =>
    same (at3 (data (snd r)) (0, 0, 0)%N) (nlit 1 2) /\ same (at3 (weight (snd r)) (0, 0, 0)%N) (d 6))).
Proof.
  destruct (cart_new (1, 1, 1)%N (ThreeD box64)) as [g|] eqn:E; [|discriminate]. cbn [after].
  split; [exact (new_fresh _ _ true g (or_introl E))|]. injection E as <-. vm_compute. repeat split; reflexivity.
Qed.
