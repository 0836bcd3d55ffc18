(** * PropertiesWrap: vector fields as seen from Python (C134), printed summaries (C135, C136),
      whole-field comparisons (C137), the cell of a point (C138) *)
From Coq Require Import Reals List NArith ZArith Lia Lra Bool ZifyBool ZifyN.
From Flocq Require Import Core.Core IEEE754.BinarySingleNaN.
From Verif Require Import Base BaseFacts Num RFacts NDArray GridModel GridSpec GridFacts CartProofs F64Facts CartR GridOps GridR PropertiesGrid VecProofs SelModel PropertiesSel
  DataModel DataSpec DataLoad FunModel FunSpec ConvModel PropertiesCsv FunProofs FunMgr FunField PropertiesFun FunMom FunTemp FunDisp PyModel PyItem PyStat PlotModel PlotProofs PropertiesPlot PropertiesMap PropertiesParity PropertiesPlotCheck
  PyGridModel VGridModel FloatErr PropertiesFloat.
Import ListNotations.

(** Array [k] of three. *)
Definition nth3 {A} (k : N) (t : A * A * A) : A := let '(a, b, c) := t in if (k =? 0)%N then a else if (k =? 1)%N then b else c.

Section Slices.
  Context {F : Type} {NF : Num F} {TF : Trig F} {WF : Wave F}.
  Lemma numpy_comp (v : vgrid F) k : nth3 k (vg_numpy v) = data (comp k v).
  Proof. unfold nth3, vg_numpy, comp. destruct (k =? 0)%N; [reflexivity|]. destruct (k =? 1)%N; reflexivity. Qed.
  Lemma each_ok (v : vgrid F) f (P : N -> arr2 F -> Prop) : (forall k, (k <= 2)%N -> exists a, f (comp k v) = Val a /\ P k a) ->
    exists t, vg_each v f = Val t /\ forall k, (k <= 2)%N -> f (comp k v) = Val (nth3 k t) /\ P k (nth3 k t).
  Proof.
    intros H. destruct (H 0%N ltac:(lia)) as [a [Ea Pa]], (H 1%N ltac:(lia)) as [b [Eb Pb]], (H 2%N ltac:(lia)) as [c [Ec Pc]].
    cbn [comp N.eqb Pos.eqb] in Ea, Eb, Ec. exists (a, b, c). unfold vg_each. rewrite Ea, Eb, Ec. split; [reflexivity|].
    intros k Hk. destruct (axis_cases k Hk) as [-> | [-> | ->]]; cbn [nth3 comp N.eqb Pos.eqb]; auto.
  Qed.
  (** A slice by number: the plane of each component; numbers past the end are refused. *)
  Theorem c134_slice (v : vgrid F) axis k n : wf_vector v -> (axis <= 2)%N -> v3get (vg_shape v) axis = Val n ->
    ((k < n)%N -> exists t, vg_slice v axis k = Val t /\
       forall m c, (m <= 2)%N -> coord axis c = k -> at2 (nth3 m t) (drop axis c) = at3 (nth3 m (vg_numpy v)) c) /\
    ((n <= k)%N -> (k + n < 2 ^ 64)%N -> vg_slice v axis k = Panic) /\
    ((n <= 2 ^ 63)%N -> (k < n)%N -> vg_slice v axis (2 ^ 64 - n + k) = vg_slice v axis k).
  Proof.
    intros [_ W] Ha En. unfold vg_shape in En.
    assert (V : forall m, (m <= 2)%N -> exists n', v3get (sh3 (data (comp m v))) axis = Val n' /\ n' = n).
    { intros m Hm. destruct (W m Hm) as [[W1 _] G]. change (component v m) with (comp m v) in *. exists n. split; [|reflexivity]. now rewrite W1, G. }
    split; [|split].
    - intros Hk. destruct (each_ok v (fun g => slice_idx g axis k) (fun m a => forall c, coord axis c = k -> at2 a (drop axis c) = at3 (data (comp m v)) c)) as [t [Et Ht]].
      + intros m Hm. destruct (V m Hm) as [n' [E1 ->]]. destruct (slice_idx_val (comp m v) axis k Ha) as [n2 [E2 [H _]]]. rewrite E1 in E2. injection E2 as <-.
        destruct (H Hk) as [a [Ea [_ Pa]]]. exists a. split; [exact Ea|]. intros [[x y] z] Hc.
        destruct (axis_cases axis Ha) as [-> | [-> | ->]]; cbn [coord drop N.eqb Pos.eqb] in *; subst; rewrite Pa; cbn [lane N.eqb Pos.eqb]; reflexivity.
      + exists t. split; [exact Et|]. intros m c Hm Hc. rewrite numpy_comp. exact (proj2 (Ht m Hm) c Hc).
    - intros Hk Hw. unfold vg_slice, vg_each. destruct (V 0%N ltac:(lia)) as [n' [E1 ->]].
      destruct (slice_idx_val (comp 0 v) axis k Ha) as [n2 [E2 [_ [H _]]]]. rewrite E1 in E2. injection E2 as <-.
      change (comp 0 v) with (vg0 v) in H. rewrite (H Hk Hw). reflexivity.
    - intros Hn Hk. unfold vg_slice, vg_each.
      assert (E : forall m, (m <= 2)%N -> slice_idx (comp m v) axis (2 ^ 64 - n + k) = slice_idx (comp m v) axis k).
      { intros m Hm. destruct (V m Hm) as [n' [E1 ->]]. destruct (slice_idx_val (comp m v) axis k Ha) as [n2 [E2 [_ [_ H]]]]. rewrite E1 in E2. injection E2 as <-. exact (H Hn Hk). }
      assert (E0 := E 0%N ltac:(lia)). assert (E1 := E 1%N ltac:(lia)). assert (E2 := E 2%N ltac:(lia)). cbn [comp N.eqb Pos.eqb] in E0, E1, E2. now rewrite E0, E1, E2.
  Qed.
  (** A slice by position is the slice of one number for all three components. *)
  Lemma slice_pos_idx (v : vgrid F) axis p lh n : wf_vector v -> (axis <= 2)%N ->
    v3get (geom_lim (geo (vg0 v))) axis = Val lh -> v3get (vg_shape v) axis = Val n ->
    vg_slice_pos v axis p = vg_slice v axis (slice_cell n lh p).
  Proof.
    intros [_ W] Ha El En. unfold vg_slice_pos, vg_slice, vg_each.
    assert (G1 : geo (vg1 v) = geo (vg0 v)) by exact (proj2 (W 1%N ltac:(lia))).
    assert (G2 : geo (vg2 v) = geo (vg0 v)) by exact (proj2 (W 2%N ltac:(lia))).
    assert (S : forall g, geo g = geo (vg0 v) -> slice g axis p = slice_idx g axis (slice_cell n lh p)).
    { intros g G. unfold vg_shape in En. unfold slice. rewrite G, El, En. reflexivity. }
    rewrite !S by auto. reflexivity.
  Qed.
End Slices.

(** A slice by position, in doubles: the plane of the cell holding the position up to [tol], the same plane for the three
    components; or a panic within [tol] of the upper limit. *)
Theorem c134_slice_pos {TF : Trig f64} {WF : Wave f64} (v : vgrid f64) axis (p lo hi : f64) n : wf_vector v -> (axis <= 2)%N ->
  v3get (geom_lim (geo (vg0 v))) axis = Val (lo, hi) -> v3get (vg_shape v) axis = Val n ->
  axis64 lo hi -> (1 <= n <= 2 ^ 53)%N -> within (lo, hi) p ->
  (exists k t, (k < n)%N /\
     (B2R lo + NR k * (len lo hi / NR n) - tol lo hi <= B2R p < B2R lo + (NR k + 1) * (len lo hi / NR n) + tol lo hi)%R /\
     vg_slice_pos v axis p = Val t /\
     forall m c, (m <= 2)%N -> coord axis c = k -> at2 (nth3 m t) (drop axis c) = at3 (nth3 m (vg_numpy v)) c) \/
  (vg_slice_pos v axis p = Panic /\ (B2R hi - tol lo hi <= B2R p)%R).
Proof.
  intros W Ha El En Ax Hn Hp.
  assert (Es : vg_slice_pos v axis p = vg_slice v axis (f64_to_usize (frac lo hi p (Z.of_N n)))) by exact (slice_pos_idx v axis p (lo, hi) n W Ha El En).
  destruct (index_near lo hi p n Ax Hp Hn) as [Hi Hc]. set (i := f64_to_usize _) in *. unfold width in Hc.
  destruct (c134_slice v axis i n W Ha En) as [H1 [H2 _]].
  destruct (N.lt_ge_cases i n) as [Lt|Ge].
  - left. destruct (H1 Lt) as [t [Et Ht]]. exists i, t. split; [exact Lt|]. split; [exact Hc|]. split; [congruence | exact Ht].
  - right. split; [rewrite Es; apply H2; lia|]. assert (i = n) by lia. rewrite H in Hc.
    assert (Pn := CartR.NR_pos n ltac:(lia)). assert (E : (NR n * (len lo hi / NR n) = len lo hi)%R) by (field; lra). unfold len in *. lra.
Qed.
(** In ideal arithmetic: exactly the cell holding the position; the upper limit itself is refused. *)
Theorem c134_slice_pos_ideal {TF : Trig R} {WF : Wave R} (v : vgrid R) axis (p lo hi : R) n : wf_vector v -> (axis <= 2)%N ->
  v3get (geom_lim (geo (vg0 v))) axis = Val (lo, hi) -> v3get (vg_shape v) axis = Val n ->
  (1 <= n <= 2 ^ 53 + 1)%N -> (lo < hi)%R -> (lo <= p <= hi)%R ->
  ((p < hi)%R -> exists k t, (k < n)%N /\ (lo + NR k * ((hi - lo) / NR n) <= p < lo + (NR k + 1) * ((hi - lo) / NR n))%R /\
     vg_slice_pos v axis p = Val t /\
     forall m c, (m <= 2)%N -> coord axis c = k -> at2 (nth3 m t) (drop axis c) = at3 (nth3 m (vg_numpy v)) c) /\
  (p = hi -> vg_slice_pos v axis p = Panic).
Proof.
  intros W Ha El En Hn Hl Hp.
  assert (Es : vg_slice_pos v axis p = vg_slice v axis (slice_cell n (lo, hi) p)) by exact (slice_pos_idx v axis p (lo, hi) n W Ha El En).
  destruct (slice_cell_range n lo hi p Hn Hl Hp) as [R1 R2]. destruct (c134_slice v axis (slice_cell n (lo, hi) p) n W Ha En) as [H1 [H2 _]].
  split; intros H.
  - assert (K : (slice_cell n (lo, hi) p < n)%N) by (assert (slice_cell n (lo, hi) p <> n) by (rewrite R2; lra); lia).
    destruct (H1 K) as [t [Et Ht]]. exists (slice_cell n (lo, hi) p), t. split; [exact K|]. split; [apply slice_cell_R; auto|]. split; [congruence | exact Ht].
  - rewrite Es. apply R2 in H. apply H2; lia.
Qed.

(** Doubles: the field of mean velocities, read through [to_numpy]. *)
Theorem c134_vectorfield {TF : Trig f64} {WF : Wave f64} (bld : build) (M : mgr f64) d L (g : grid f64) (cg : cart_geom f64) s :
  recorded M d L -> sel_ok s -> fresh g -> placed g -> geo g = Cart cg -> sized (cc_cells cg) ->
  exists d' v, vectorfield bld M d g s = Val (d', v) /\ wf_vector v /\ vg_shape v = cc_cells cg /\
    vg_positions v = (get_xpositions g, get_ypositions g, get_zpositions g) /\
  forall k c, (k <= 2)%N -> inb3 (cc_cells cg) c = true ->
    let l := vectors bld g s L c in let a := nth3 k (vg_numpy v) in
    sh3 a = cc_cells cg /\
    (l = [] -> is_nan (at3 a c) = true) /\
    ((vlen l <= 2 ^ 53)%N -> exists n : f64, is_finite n = true /\ B2R n = NR (vlen l) /\
       at3 a c = ndiv (fold_left nadd (map (fun m => v3i k (sm_vel m)) l) (f64_of_Z 0)) n).
Proof.
  intros Rec Sk Fr Pl G Sz. destruct (c36_vector_mean bld M d L g cg s Rec Sk Fr G Sz) as [d' [v [E [_ H]]]].
  destruct (vector_cells bld M d L g s d' v Rec Sk (proj1 Fr) E) as [_ W].
  exists d', v. split; [exact E|]. assert (G0 : geo (vg0 v) = geo g) by exact (proj1 (proj2 (W 0%N ltac:(lia)))).
  split.
  { split; [now apply (placed_geo g)|]. intros a Ha. destruct (W a Ha) as [W1 [W2 _]]. change (component v a) with (comp a v). split; [exact W1 | now rewrite W2, G0]. }
  split; [unfold vg_shape; rewrite G0, G; reflexivity|].
  split; [unfold vg_positions, get_xpositions, get_ypositions, get_zpositions; now rewrite G0|].
  intros k c Hk Hc l a. unfold a. rewrite numpy_comp. split.
  - destruct (W k Hk) as [[W1 _] [W2 _]]. rewrite W1, W2, G. reflexivity.
  - destruct (H k c Hk Hc) as [H1 H2]. split; [exact H1|]. intros Hl. destruct (H2 Hl) as [n [X1 [X2 [_ X3]]]]. exists n. auto.
Qed.

(** Ideal arithmetic: [collapse] of a vector field is the mean velocity of all samples along the line of cells. *)
Section Depth.
  Local Open Scope R_scope.
  Theorem c134_depth_average {TF : Trig R} {WF : Wave R} (bld : build) (M : mgr R) d L (g : grid R) s d' v axis :
    recorded M d L -> sel_ok s -> fresh g -> vectorfield bld M d g s = Val (d', v) -> (axis <= 2)%N ->
    exists t, vg_collapse v axis = Val t /\
      forall k ij, (k <= 2)%N -> inb2 (sh2 (nth3 k t)) ij = true ->
        let l := flat_map (vectors bld g s L) (GridSpec.line (geom_cells (geo g)) axis ij) in
        l <> [] -> at2 (nth3 k t) ij = Rmean (map (fun m => v3i k (grid_velocity g m)) l).
  Proof.
    intros Rec Sk Fr E Ha. destruct (vector_cells bld M d L g s d' v Rec Sk (proj1 Fr) E) as [_ W].
    assert (H := c36_vector_mean_ideal bld M d L g s d' v Rec Sk Fr E).
    destruct (each_ok v (fun g => collapse g axis) (fun k a => forall ij, inb2 (sh2 a) ij = true ->
      let l := flat_map (vectors bld g s L) (GridSpec.line (geom_cells (geo g)) axis ij) in
      l <> [] -> at2 a ij = Rmean (map (fun m => v3i k (grid_velocity g m)) l))) as [t [Et Ht]].
    - intros k Hk. destruct (W k Hk) as [Wk [Gk _]]. destruct (c14_collapse (comp k v) axis Wk Ha) as [a [w [Ea [_ [_ [Sw [_ Va]]]]]]].
      exists a. split; [exact Ea|]. intros ij Hij l Ne. destruct (Va ij Hij) as [V1 [V2 _]]. rewrite V2, V1, Gk. unfold Rmean.
      assert (I : forall c, In c (GridSpec.line (geom_cells (geo g)) axis ij) -> inb3 (geom_cells (geo g)) c = true).
      { intros c Hc. unfold GridSpec.line in Hc. apply filter_In in Hc. apply in_ids3, Hc. }
      assert (A1 : Rsum (map (at3 (weight (comp k v))) (GridSpec.line (geom_cells (geo g)) axis ij)) = INR (List.length l)).
      { rewrite <- (Rmult_1_r (INR (List.length l))), <- (Rsum_const 1 l). unfold l. rewrite Rsum_flat_map. apply Rsum_ext. intros c Hc.
        rewrite (proj1 (H k c Hk (I c Hc))), Rsum_const. lra. }
      assert (A2 : Rsum (map (fun c => at3 (data (comp k v)) c * at3 (weight (comp k v)) c) (GridSpec.line (geom_cells (geo g)) axis ij)) = Rsum (map (fun m => v3i k (grid_velocity g m)) l)).
      { unfold l. rewrite Rsum_flat_map. apply Rsum_ext. intros c Hc. destruct (H k c Hk (I c Hc)) as [B1 B2]. rewrite B1.
        destruct (vectors bld g s L c) as [|m l0] eqn:Ev; [cbn [List.length INR map]; rewrite Rsum_nil; lra|].
        rewrite B2 by discriminate. field. apply not_0_INR. discriminate. }
      rewrite A1, A2, map_length. reflexivity.
    - exists t. split; [exact Et|]. intros k ij Hk Hij. exact (proj2 (Ht k Hk) ij Hij).
  Qed.
End Depth.

(** ** C135: printing a grid shows its numbers' statistics; unvisited cells (NaN) do not count. *)
Theorem c135_summary {WF : Wave f64} (g : grid f64) : wf_grid g ->
  let y := grid_str g in let l := numbers (flat3 (data g)) in
  y_cells y = geom_cells (geo g) /\ y_lim y = geom_lim (geo g) /\
  (forall x, In x l <-> values_of g x) /\
  y_mean y = ndiv (fold_left nadd l (f64_of_Z 0)) (f64_of_Z (Z.of_N (vlen l))) /\
  y_std y = nsqrt (ndiv (fold_left (fun s x => nadd s (nmul (nsub x (y_mean y)) (nsub x (y_mean y)))) l (f64_of_Z 0)) (f64_of_Z (Z.of_N (vlen l)))) /\
  (l <> [] -> lowest (y_min y) l /\ highest (y_max y) l).
Proof.
  intros W. cbv zeta. unfold grid_str. cbn [y_cells y_lim y_mean y_std y_min y_max]. split; [reflexivity|]. split; [reflexivity|].
  split; [intros x; now apply numbers_values|]. split; [apply c63_mean|]. split; [apply c63_std|]. apply skipnan_range.
Qed.

(** ** C136: printing a vector field *)
(** NaN spoils a sum. *)
Lemma add_nan_l (x y : f64) : is_nan x = true -> is_nan (nadd x y) = true.
Proof. destruct x; try discriminate. intros _. now destruct y. Qed.
Lemma add_nan_r (x y : f64) : is_nan y = true -> is_nan (nadd x y) = true.
Proof. destruct y; try discriminate. intros _. now destruct x as [[]|[]| |[]]. Qed.
Lemma fold_nan_l (l : list f64) : forall s : f64, is_nan s = true -> is_nan (fold_left nadd l s) = true.
Proof. induction l as [|x l IH]; intros s H; [exact H|]. cbn [fold_left]. apply IH. now apply add_nan_l. Qed.
Lemma fold_nan (l : list f64) : forall s x : f64, In x l -> is_nan x = true -> is_nan (fold_left nadd l s) = true.
Proof.
  induction l as [|y l IH]; intros s x Hx Nx; [destruct Hx|]. cbn [fold_left]. destruct Hx as [<-|Hx]; [apply fold_nan_l; now apply add_nan_r | eapply IH; eauto].
Qed.
Lemma unrolled_nan n : forall (l : list f64), (List.length l <= n)%nat -> forall (p0 p1 p2 p3 p4 p5 p6 p7 : f64),
  (exists x, In x (p0 :: p1 :: p2 :: p3 :: p4 :: p5 :: p6 :: p7 :: l) /\ is_nan x = true) -> is_nan (unrolled l p0 p1 p2 p3 p4 p5 p6 p7) = true.
Proof.
  induction n as [|n IH]; intros l Hl p0 p1 p2 p3 p4 p5 p6 p7 [x [Hx Nx]].
  - destruct l; [|cbn in Hl; lia]. cbn [unrolled fold_left]. cbn [In] in Hx.
    repeat (destruct Hx as [<-|Hx]; [auto 10 using add_nan_l, add_nan_r|]). destruct Hx.
  - destruct l as [|x0 [|x1 [|x2 [|x3 [|x4 [|x5 [|x6 [|x7 l]]]]]]]].
    9:{ cbn [unrolled]. apply IH; [cbn [List.length] in Hl; lia|]. cbn [In] in Hx.
        do 16 (destruct Hx as [<-|Hx]; [first [exists (nadd p0 x0); split; [cbn [In]; tauto | solve [apply add_nan_l; exact Nx | apply add_nan_r; exact Nx]] | exists (nadd p1 x1); split; [cbn [In]; tauto | solve [apply add_nan_l; exact Nx | apply add_nan_r; exact Nx]] | exists (nadd p2 x2); split; [cbn [In]; tauto | solve [apply add_nan_l; exact Nx | apply add_nan_r; exact Nx]] | exists (nadd p3 x3); split; [cbn [In]; tauto | solve [apply add_nan_l; exact Nx | apply add_nan_r; exact Nx]] | exists (nadd p4 x4); split; [cbn [In]; tauto | solve [apply add_nan_l; exact Nx | apply add_nan_r; exact Nx]] | exists (nadd p5 x5); split; [cbn [In]; tauto | solve [apply add_nan_l; exact Nx | apply add_nan_r; exact Nx]] | exists (nadd p6 x6); split; [cbn [In]; tauto | solve [apply add_nan_l; exact Nx | apply add_nan_r; exact Nx]] | exists (nadd p7 x7); split; [cbn [In]; tauto | solve [apply add_nan_l; exact Nx | apply add_nan_r; exact Nx]]]|]).
        exists x. split; [cbn [In]; tauto | exact Nx]. }
    all: cbn [unrolled]; do 8 (destruct Hx as [<-|Hx]; [apply fold_nan_l; auto 10 using add_nan_l, add_nan_r|]); eapply fold_nan; eauto.
Qed.
(** ... and Welford's recurrence. *)
Lemma welford_nan (l : list f64) : forall i (mean sq : f64), (is_nan mean = true /\ is_nan sq = true) \/ (exists x : f64, In x l /\ is_nan x = true) ->
  exists k m q, fold_left welford l (i, mean, sq) = (k, m, q) /\ (is_nan q = true).
Proof.
  assert (Sub : forall a b : f64, is_nan a = true \/ is_nan b = true -> is_nan (nsub a b) = true).
  { intros a b [H | H]; [destruct a; try discriminate; now destruct b | destruct b; try discriminate; now destruct a as [[]|[]| |[]]]. }
  assert (Dv : forall a b : f64, is_nan a = true -> is_nan (ndiv a b) = true) by (intros a b H; destruct a; try discriminate; now destruct b).
  assert (Fm : forall a b c : f64, is_nan a = true -> is_nan (nfma a b c) = true) by (intros a b c H; destruct a; try discriminate; now destruct b).
  induction l as [|x l IH]; intros i mean sq H.
  - destruct H as [[_ H] | [x [[] _]]]. cbn [fold_left]. now exists i, mean, sq.
  - cbn [fold_left]. unfold welford at 2. apply IH. destruct H as [[Hm Hq] | [y [[<- | Hy] Ny]]].
    + left. assert (D : is_nan (nsub x mean) = true) by (apply Sub; now right). assert (M' : is_nan (nadd mean (ndiv (nsub x mean) (nofN (i + 1)))) = true) by now apply add_nan_l.
      split; [exact M' | apply Fm, Sub; now right].
    + left. assert (D : is_nan (nsub x mean) = true) by (apply Sub; now left). assert (M' : is_nan (nadd mean (ndiv (nsub x mean) (nofN (i + 1)))) = true) by now apply add_nan_r, Dv.
      split; [exact M' | apply Fm, Sub; now right].
    + right. now exists y.
Qed.
Lemma minus_R (x y : f64) : is_finite x = true -> is_finite y = true -> (Rabs (rnd (B2R x - B2R y)) < M64)%R ->
  is_finite (Bminus mode_NE x y) = true /\ B2R (Bminus mode_NE x y) = rnd (B2R x - B2R y).
Proof.
  intros Fx Fy H. generalize (Bminus_correct 53 1024 _ _ mode_NE x y Fx Fy).
  change (round radix2 fexp64 (round_mode mode_NE) (B2R x - B2R y)) with (rnd (B2R x - B2R y)).
  rewrite Rlt_bool_true by exact H. intros [A [B _]]. auto.
Qed.
(** One is at most the number of cells. *)
Lemma enough (n : N) : (1 <= n <= 2 ^ 53)%N -> nltb (nofN n : f64) (n1 : f64) = false.
Proof.
  intros H. destruct (of_Z_correct (Z.of_N n) ltac:(lia)) as [B1 F1]. destruct (of_Z_correct 1 ltac:(lia)) as [B2 F2].
  change (Bltb (f64_of_Z (Z.of_N n)) (f64_of_Z 1) = false). destruct (Bltb (f64_of_Z (Z.of_N n)) (f64_of_Z 1)) eqn:E; [|reflexivity].
  apply Bltb_R in E; [|assumption..]. rewrite B1, B2 in E. apply lt_IZR in E. lia.
Qed.
(** A field with a cell nothing was seen in shows NaN as its mean and as its deviation. *)
Theorem c136_mean_refuted {TF : Trig f64} {WF : Wave f64} (v : vgrid f64) c : wf_vector v -> (vlen (flat3 (data (vg0 v))) <= 2 ^ 53)%N ->
  inb3 (vg_shape v) c = true -> is_nan (at3 (data (vg0 v)) c) = true ->
  exists cells lim m e lo hi, vgrid_str v = Val (cells, lim, m, e, lo, hi) /\ is_nan m = true /\ is_nan e = true.
Proof.
  intros [_ W] Big Hc Nc. destruct (W 0%N ltac:(lia)) as [[W1 _] _]. change (component v 0) with (vg0 v) in W1.
  assert (I : In (at3 (data (vg0 v)) c) (flat3 (data (vg0 v)))).
  { unfold flat3. apply in_map. apply in_ids3. now rewrite W1. }
  unfold vgrid_str, nd_mean, nd_std. destruct (welford_nan (flat3 (data (vg0 v))) 0 n0 n0 (or_intror (ex_intro _ _ (conj I Nc)))) as [k [m' [q [Ef Nq]]]].
  rewrite Ef. rewrite enough by (split; [destruct (flat3 (data (vg0 v))); [destruct I | unfold vlen; cbn [List.length]; lia] | exact Big]).
  destruct (flat3 (data (vg0 v))) as [|y l] eqn:El; [destruct I|]. cbn [bind]. do 6 eexists. split; [reflexivity|].
  assert (Ns : is_nan (nd_sum (y :: l)) = true).
  { apply (unrolled_nan (List.length (y :: l))); [lia|]. eexists. split; [|exact Nc]. now do 8 right. }
  split; [destruct (nd_sum (y :: l)); try discriminate Ns; reflexivity|].
  destruct q; try discriminate Nq. reflexivity.
Qed.
(** The other two components are not shown at all. *)
Theorem c136_components_refuted {TF : Trig f64} {WF : Wave f64} (v w : vgrid f64) : vg0 v = vg0 w -> vgrid_str v = vgrid_str w.
Proof. unfold vgrid_str. now intros ->. Qed.
(** Welford's recurrence, in exact arithmetic: mean and sum of squared deviations. *)
Lemma welford_R (l : list R) : exists m q, fold_left welford l (0%N, 0%R, 0%R) = (vlen l, m, q) /\
  (INR (List.length l) * m = Rsum l)%R /\ (INR (List.length l) * q = INR (List.length l) * Rsum (map (fun x => x * x) l) - Rsum l * Rsum l)%R /\ (l = [] -> q = 0%R).
Proof.
  induction l as [|x l IH] using rev_ind.
  - exists 0%R, 0%R. cbn. rewrite Rsum_nil. repeat split; ring.
  - destruct IH as [m [q [E [Hm [Hq Hz]]]]]. rewrite fold_left_app, E. cbn [fold_left]. unfold welford at 1. rewrite app_length. cbn [List.length].
    rewrite nofN_INR. replace (N.to_nat (vlen l + 1)) with (S (List.length l)) by (unfold vlen; lia).
    rewrite map_app, !Rsum_app. cbn [map]. rewrite !Rsum_cons, !Rsum_nil. replace (List.length l + 1)%nat with (S (List.length l)) by lia.
    cbn [nsub nadd ndiv num_R]. unfold nfma, fma_R.
    assert (P := pos_INR (List.length l)). rewrite S_INR. set (n := INR (List.length l)) in *.
    do 2 eexists. split; [f_equal; f_equal; unfold vlen; rewrite app_length; cbn [List.length]; lia|].
    split; [rewrite <- Hm; field; lra|]. split; [|intros H; now destruct l].
    destruct (Req_dec n 0) as [Z | Nz].
    + assert (El : l = []) by (destruct l; [reflexivity|]; exfalso; unfold n in Z; cbn [List.length] in Z; rewrite S_INR in Z; assert (Q := pos_INR (List.length l)); lra).
      rewrite (Hz El). subst l. cbn [map]. rewrite Rsum_nil, Z. field.
    + assert (Q : q = (Rsum (map (fun x => x * x) l) - Rsum l * Rsum l / n)%R) by (apply Rmult_eq_reg_l with n; [rewrite Hq; field; exact Nz | exact Nz]).
      rewrite Q, <- Hm. field. split; lra.
Qed.
(** What is right: in exact arithmetic, without NaN, the mean of the first component and, from two cells
    on, the square root of its squared deviations over one less than the number of cells. *)
Theorem c136_first_component {TF : Trig R} {WF : Wave R} (v : vgrid R) : let l := flat3 (data (vg0 v)) in l <> [] ->
  exists e lo hi, vgrid_str v = Val (vg_shape v, geom_lim (geo (vg0 v)), Rmean l, e, lo, hi) /\
    ((2 <= vlen l)%N -> e = sqrt (Rsum (map (fun x => (x - Rmean l) * (x - Rmean l))%R l) / (INR (List.length l) - 1)))%R.
Proof.
  intros l Ne. unfold vgrid_str, nd_mean, nd_std. fold l. clearbody l. destruct (welford_R l) as [m [q [E [_ [Hq _]]]]].
  change (@n0 R num_R) with 0%R in *. rewrite E.
  assert (P := len_pos l Ne). assert (P1 : (1 <= INR (List.length l))%R) by (destruct l; [contradiction|]; cbn [List.length]; rewrite S_INR; assert (Q := pos_INR (List.length l)); lra).
  assert (En : nofN (vlen l) = INR (List.length l)) by (rewrite nofN_INR; f_equal; unfold vlen; lia). rewrite En.
  rewrite (proj2 (Rltb_false _ _)) by exact P1.
  destruct l as [|y l]; [now destruct Ne|]. cbn [bind]. do 3 eexists. split; [f_equal; f_equal; f_equal; f_equal|].
  - f_equal. unfold Rmean, nd_sum. rewrite (unrolled_R _ _ (le_n _)). change (@n0 R num_R) with 0%R. cbn [ndiv num_R]. f_equal. lra.
  - intros H. cbn [nsqrt ndiv nsub num_R]. f_equal. f_equal.
    assert (V := Rvar_moments (y :: l) ltac:(discriminate)). unfold Rvar in V.
    apply Rmult_eq_reg_l with (INR (List.length (y :: l))); [|lra]. rewrite Hq.
    assert (V' : (Rsum (map (fun x => (x - Rmean (y :: l)) * (x - Rmean (y :: l)))%R (y :: l)) = Rsum (map (fun x => x * x)%R (y :: l)) - Rsum (y :: l) * Rsum (y :: l) / INR (List.length (y :: l)))%R).
    { apply Rmult_eq_reg_r with (/ INR (List.length (y :: l)))%R; [exact V | apply Rinv_neq_0_compat; lra]. }
    rewrite V'. field. lra.
Qed.

(** A field without cells cannot be printed; the deviation of a field of one cell is NaN. *)
Theorem c136_empty {F} {NF : Num F} {TF : Trig F} {WF : Wave F} {FF : Fma F} (v : vgrid F) : flat3 (data (vg0 v)) = [] -> vgrid_str v = Panic.
Proof. unfold vgrid_str, nd_mean. now intros ->. Qed.
Theorem c136_one_cell {TF : Trig f64} {WF : Wave f64} (v : vgrid f64) x cells lim m e lo hi : flat3 (data (vg0 v)) = [x] ->
  vgrid_str v = Val (cells, lim, m, e, lo, hi) -> is_nan e = true.
Proof.
  intros E. unfold vgrid_str. rewrite E. unfold nd_mean, nd_std. cbn [bind]. change (vlen [x]) with 1%N.
  rewrite enough by lia. cbn [bind fold_left welford]. intros H.
  assert (H' : forall A (a b : A), Val a = Val b -> a = b) by (intros; congruence). apply H' in H. apply pair_equal_spec in H. destruct H as [H _]. apply pair_equal_spec in H. destruct H as [H _]. apply pair_equal_spec in H. destruct H as [_ <-].
  set (z := n0 : f64). set (one := nofN (0 + 1) : f64).
  assert (Q : is_nan (nfma (nsub x (nadd z (ndiv (nsub x z) one))) (nsub x z) z) = true \/ exists b, nfma (nsub x (nadd z (ndiv (nsub x z) one))) (nsub x z) z = B754_zero b).
  { destruct (is_finite x) eqn:Fx.
    2:{ left. destruct x as [b|[]| |]; try discriminate Fx; vm_compute; reflexivity. }
    assert (D1 : forall a : R, (a / 1 = a)%R) by (intros; field).
    right. assert (Mx : (Rabs (B2R x) < M64)%R) by (apply (abs_B2R_lt_emax 53 1024)).
    assert (Gx : rnd (B2R x) = B2R x) by (apply rnd_fmt, generic_format_B2R).
    destruct (of_Z_correct 0 ltac:(lia)) as [Z1 Z2]. destruct (of_Z_correct 1 ltac:(lia)) as [O1 O2]. change (B2R z = 0%R) in Z1. change (is_finite z = true) in Z2. change (B2R one = 1%R) in O1. change (is_finite one = true) in O2.
    destruct (minus_R x z Fx Z2) as [F1 B1]; [rewrite Z1, Rminus_0_r, Gx; exact Mx|]. rewrite Z1, Rminus_0_r, Gx in B1. change (Bminus mode_NE x z) with (nsub x z) in *.
    destruct (div_R (nsub x z) one F1) as [F2 B2]; [rewrite O1; lra | rewrite B1, O1, D1, Gx; exact Mx|]. rewrite B1, O1, D1, Gx in B2. change (Bdiv mode_NE (nsub x z) one) with (ndiv (nsub x z) one) in *.
    destruct (add_R z (ndiv (nsub x z) one) Z2 F2) as [F3 B3]; [rewrite Z1, B2, Rplus_0_l, Gx; exact Mx|]. rewrite Z1, B2, Rplus_0_l, Gx in B3. change (Bplus mode_NE z (ndiv (nsub x z) one)) with (nadd z (ndiv (nsub x z) one)) in *.
    set (mu := nadd z (ndiv (nsub x z) one)) in *. clearbody mu.
    assert (R0 : rnd 0 = 0%R) by (apply round_0; typeclasses eauto).
    destruct (minus_R x mu Fx F3) as [F4 B4]; [rewrite B3, Rminus_diag_eq, R0, Rabs_R0 by reflexivity; apply bpow_gt_0|]. rewrite B3, Rminus_diag_eq, R0 in B4 by reflexivity. change (Bminus mode_NE x mu) with (nsub x mu) in *.
    unfold nfma, fma_f64. generalize (Bfma_correct 53 1024 _ _ mode_NE (nsub x mu) (nsub x z) z F4 F1 Z2). cbv zeta. rewrite B4, Z1, Rmult_0_l, Rplus_0_r.
    change (round radix2 (SpecFloat.fexp 53 1024) (round_mode mode_NE) 0) with (rnd 0). rewrite R0, Rabs_R0, Rlt_bool_true by apply bpow_gt_0.
    intros [A [B _]]. destruct (Bfma mode_NE (nsub x mu) (nsub x z) z) as [b| | |[] mm ee bb]; try discriminate B; [now exists b| |]; exfalso; cbn [B2R SpecFloat.cond_Zopp] in A.
    - assert (L := F2R_lt_0 radix2 (Float radix2 (Z.neg mm) ee) eq_refl). change (F2R (Float radix2 (Z.neg mm) ee) = 0%R) in A. lra.
    - assert (L := F2R_gt_0 radix2 (Float radix2 (Z.pos mm) ee) eq_refl). change (F2R (Float radix2 (Z.pos mm) ee) = 0%R) in A. lra. }
  destruct Q as [Q | [b Q]]; [|rewrite Q; destruct b; vm_compute; reflexivity].
  destruct (nfma _ _ _); try discriminate Q. reflexivity.
Qed.
(** The extremes printed are those of the cells of the first component that hold a number. *)
Theorem c136_extremes {TF : Trig f64} {WF : Wave f64} (v : vgrid f64) cells lim m e lo hi : vgrid_str v = Val (cells, lim, m, e, lo, hi) ->
  numbers (flat3 (data (vg0 v))) <> [] -> lowest lo (numbers (flat3 (data (vg0 v)))) /\ highest hi (numbers (flat3 (data (vg0 v)))).
Proof.
  unfold vgrid_str. destruct (nd_mean (flat3 (data (vg0 v)))) as [x|] eqn:E; [|discriminate]. cbn [bind]. destruct (nd_std (flat3 (data (vg0 v)))) as [y|]; [|discriminate]. cbn [bind]. intros H Ne.
  assert (H' : forall A (a b : A), Val a = Val b -> a = b) by (intros; congruence). apply H' in H. apply pair_equal_spec in H. destruct H as [H <-]. apply pair_equal_spec in H. destruct H as [H <-]. now apply skipnan_range.
Qed.

(** ** C137: whole fields compared point by point, and the three kinds of difference (Rust API) *)
Section Compare.
  Context {F : Type} {NF : Num F} {TF : Trig F} {WF : Wave F}.
  Theorem c137_pairs (v w : vgrid F) : wf_vector v -> wf_vector w -> vg_shape w = vg_shape v ->
    let s := create_parity_scatter (pplot_vall v w) in let n := vlen (ids3 (vg_shape v)) in
    vlen (pairs s) = (3 * n)%N /\
    forall k c i, (k <= 2)%N -> at_ (ids3 (vg_shape v)) i c ->
      at_ (pairs s) (k * n + i) (at3 (data (comp k v)) c, at3 (data (comp k w)) c).
  Proof.
    intros [_ Wv] [_ Ww] Sh s n.
    assert (Lv : forall k, (k <= 2)%N -> flat3 (data (comp k v)) = map (at3 (data (comp k v))) (ids3 (vg_shape v))).
    { intros k Hk. destruct (Wv k Hk) as [[W1 _] G]. change (component v k) with (comp k v) in *. unfold flat3, vg_shape. now rewrite W1, G. }
    assert (Lw : forall k, (k <= 2)%N -> flat3 (data (comp k w)) = map (at3 (data (comp k w))) (ids3 (vg_shape v))).
    { intros k Hk. destruct (Ww k Hk) as [[W1 _] G]. change (component w k) with (comp k w) in *. rewrite <- Sh. unfold flat3, vg_shape. now rewrite W1, G. }
    unfold s, pairs, create_parity_scatter, pplot_vall, pp_of. cbn [snd pp_ref pp_comp].
    change (vg0 v) with (comp 0 v). change (vg1 v) with (comp 1 v). change (vg2 v) with (comp 2 v).
    change (vg0 w) with (comp 0 w). change (vg1 w) with (comp 1 w). change (vg2 w) with (comp 2 w).
    rewrite !Lv, !Lw by lia. change (vg_shape v) with (vg_shape v) in *. set (ids := ids3 (vg_shape v)) in *.
    assert (Ln : forall f : id3 -> F, vlen (map f ids) = n) by (intros f; unfold vlen; now rewrite map_length).
    split; [rewrite vlen_combine, !vlen_app, !Ln; lia|].
    intros k c i Hk Hi. assert (M : forall f : id3 -> F, at_ (map f ids) i (f c)) by (intros f; unfold at_ in *; rewrite nth_error_map, Hi; reflexivity).
    apply at_combine.
    - destruct (axis_cases k Hk) as [-> | [-> | ->]].
      + rewrite N.mul_0_l, N.add_0_l. apply at_app1', M.
      + rewrite N.mul_1_l, <- (Ln (at3 (data (comp 0 v)))). apply at_app2, at_app1', M.
      + replace (2 * n + i)%N with (n + (n + i))%N by lia. rewrite <- (Ln (at3 (data (comp 0 v)))) at 1. apply at_app2. rewrite <- (Ln (at3 (data (comp 1 v)))). apply at_app2, M.
    - destruct (axis_cases k Hk) as [-> | [-> | ->]].
      + rewrite N.mul_0_l, N.add_0_l. apply at_app1', M.
      + rewrite N.mul_1_l, <- (Ln (at3 (data (comp 0 w)))). apply at_app2, at_app1', M.
      + replace (2 * n + i)%N with (n + (n + i))%N by lia. rewrite <- (Ln (at3 (data (comp 0 w)))) at 1. apply at_app2. rewrite <- (Ln (at3 (data (comp 1 w)))). apply at_app2, M.
  Qed.
  (** The three kinds of difference, cell by cell. *)
  Theorem c137_deltas (r : parity) : sh2 (r_ref r) = sh2 (r_comp r) ->
    (exists p, delta_as_difference r = Val p /\ sh2 (r_delta p) = sh2 (r_ref r) /\ forall ij, inb2 (sh2 (r_ref r)) ij = true -> at2 (r_delta p) ij = nsub (at2 (r_ref r) ij) (at2 (r_comp r) ij)) /\
    (exists p, delta_as_percent r = Val p /\ sh2 (r_delta p) = sh2 (r_ref r) /\ forall ij, inb2 (sh2 (r_ref r)) ij = true ->
       at2 (r_delta p) ij = nmul (ndiv (nsub (at2 (r_ref r) ij) (at2 (r_comp r) ij)) (at2 (r_ref r) ij)) (nof 100)) /\
    (exists p, delta_as_absolute_difference r = Val p /\ sh2 (r_delta p) = sh2 (r_ref r) /\ forall ij, inb2 (sh2 (r_ref r)) ij = true -> at2 (r_delta p) ij = nabs (nsub (at2 (r_ref r) ij) (at2 (r_comp r) ij))).
  Proof.
    intros S. destruct (bop2_ok nsub (r_ref r) (r_comp r) S) as [x [E [Sx Vx]]].
    unfold delta_as_difference, delta_as_percent, delta_as_absolute_difference. rewrite E. cbn [bind].
    split; [|split].
    - eexists. split; [reflexivity|]. split; [exact Sx|]. intros ij Hij. cbn [with_delta r_delta]. now rewrite Vx.
    - destruct (bop2_ok ndiv x (r_ref r) Sx) as [q [Eq [Sq Vq]]]. rewrite Eq. cbn [bind]. eexists. split; [reflexivity|].
      split; [cbn [with_delta r_delta map2 sh2]; congruence|]. intros ij Hij. cbn [with_delta r_delta map2 at2]. rewrite Vq by now rewrite Sx. now rewrite Vx.
    - rewrite Sx, N.eqb_refl. eexists. split; [reflexivity|]. split; [reflexivity|]. intros ij Hij. cbn [with_delta r_delta at2]. now rewrite Vx.
  Qed.
End Compare.

(** ** C138: the cell of a point, from Python *)
Lemma cart_new_geo {TF : Trig f64} cells (l : lims f64) g : cart_new cells (ThreeD l) = Val g ->
  exists cg, geo g = Cart cg /\ cc_lim cg = l /\ cc_cells cg = cells.
Proof.
  intros E. unfold cart_new in E. destruct l as [[[x0 x1] [y0 y1]] [z0 z1]], cells as [[nx ny] nz]. injection E as <-. eexists. split; [reflexivity|]. now split.
Qed.
Theorem c138_point {TF : Trig f64} (bld : build) (cells : id3) (l : lims f64) (g : grid f64) (x y z : f64) rest :
  sized cells -> cart_new cells (ThreeD l) = Val g ->
  exists b, py_inside g (x :: y :: z :: rest) = Val b /\ (b = true <-> in_box l (x, y, z)) /\
    (b = true -> exists c, py_cell_id bld g x y z = Val c /\ inb3 cells c = true) /\
    (b = false -> py_cell_id bld g x y z = Panic).
Proof.
  intros S E. exists (is_inside g (x, y, z)). split; [reflexivity|].
  destruct (cart_new_geo cells l g E) as [cg [G [C1 C2]]]. rewrite <- C2 in S |- *. rewrite <- C1.
  destruct (c01_lookup_in_bounds bld g cg (x, y, z) G S) as [H1 H2]. unfold py_cell_id.
  destruct (is_inside g (x, y, z)) eqn:B.
  - assert (I : in_box (cc_lim cg) (x, y, z)).
    { unfold is_inside, geom_inside in B. rewrite G in B. now apply cart_inside_f64. }
    destruct (H1 I) as [_ [c [Ec Hc]]]. split; [tauto|]. split; [|discriminate]. intros _. exists c. rewrite Ec. now split.
  - assert (I : ~ in_box (cc_lim cg) (x, y, z)) by (intros I; destruct (H1 I); congruence).
    destruct (H2 I) as [_ Ec]. split; [split; [discriminate | tauto]|]. split; [discriminate|]. intros _. now rewrite Ec.
Qed.
(** A list with fewer than three numbers is refused. *)
Theorem c138_short {TF : Trig f64} (g : grid f64) (p : list f64) : (vlen p < 3)%N -> py_inside g p = Panic.
Proof. destruct p as [|x [|y [|z p]]]; try reflexivity. unfold vlen. cbn [List.length]. lia. Qed.

(** The hypotheses are met. *)
Example c134_case {TF : Trig f64} : exists g cg, cart_new (2, 2, 2)%N (ThreeD box64) = Val g /\ fresh g /\ placed g /\ geo g = Cart cg /\ sized (cc_cells cg) /\
  wf_vector (mkV g g g None) /\ v3get (vg_shape (mkV g g g None)) 1 = Val 2%N /\ recorded (list_mgr ex_data (PropertiesFun.ex_stats 2)) tt ex_data /\ sel_ok (sel_default (F := f64)).
Proof.
  destruct (cart_new (2, 2, 2)%N (ThreeD box64)) as [g|] eqn:E; [|discriminate].
  destruct (cart_new_geo _ _ _ E) as [cg [G [C1 C2]]]. exists g, cg. split; [reflexivity|].
  assert (Fr := new_fresh _ _ true g (or_introl E)). destruct (new_placed (2, 2, 2)%N (ThreeD box64) g (or_introl E)) as [P C].
  split; [exact Fr|]. split; [exact P|]. split; [exact G|]. split; [rewrite C2; cbn; lia|].
  split; [split; [exact P|]; intros a Ha; destruct (axis_cases a Ha) as [-> | [-> | ->]]; (split; [exact (proj1 Fr) | reflexivity])|].
  split; [unfold vg_shape; cbn [vg0]; now rewrite C|]. exact ex_data_recorded.
Qed.
(** A field nothing was recorded in but one cell. *)
Example c136_case {TF : Trig f64} {WF : Wave f64} : exists v c, wf_vector v /\ inb3 (vg_shape v) c = true /\ is_nan (at3 (data (vg0 v)) c) = true.
Proof.
  destruct (cart_new (2, 2, 2)%N (ThreeD box64)) as [g|] eqn:E; [|discriminate].
  destruct (new_placed (2, 2, 2)%N (ThreeD box64) g (or_introl E)) as [P C]. destruct (new_fresh _ _ true g (or_introl E)) as [[W1 W2] _].
  set (h := mkGrid (geo g) (mkA3 (sh3 (data g)) (fun c => if (fst (fst c) =? 0)%N then f64_of_Z 1 else B754_nan)) (weight g)).
  exists (mkV h h h None), (1, 0, 0)%N.
  split; [split; [exact P|]; intros a Ha; destruct (axis_cases a Ha) as [-> | [-> | ->]]; (split; [split; [exact W1 | exact W2] | reflexivity])|].
  split; [unfold vg_shape; change (inb3 (geom_cells (geo g)) (1, 0, 0)%N = true); rewrite C; reflexivity | reflexivity].
Qed.
Example c137_case : wf_vector (ex_field (F := R)) /\ exists r, parity_of (ex_moving (F := R)) 2 (mkA2 (3, 2)%N (fun _ => 1%R)) (mkA2 (3, 2)%N (fun _ => 0%R)) = Val r /\ sh2 (r_ref r) = sh2 (r_comp r).
Proof. split; [apply ex_wf|]. eexists. split; reflexivity. Qed.
Example c138_case {TF : Trig f64} : exists g, cart_new (2, 2, 2)%N (ThreeD box64) = Val g /\ sized (2, 2, 2)%N.
Proof. eexists. split; [reflexivity|]. cbn. lia. Qed.
