(** * Properties C19-C23: cylindrical grids and vector grids. *)
From Coq Require Import Reals List NArith ZArith Lia Lra Psatz Bool ZifyBool ZifyN Permutation.
From Flocq Require Import Core.Core IEEE754.BinarySingleNaN.
From Verif Require Import Base BaseFacts Num F64Facts RFacts NDArray GridModel GridSpec GridFacts
  CartProofs CartR GridOps GridR CylProofs VecProofs PropertiesGrid.

Section Ideal.
  Context {TF : Trig R}.
  Local Open Scope R_scope.

  (** Distance of a position from the grid's axis. *)
  Definition axis_distance (y : cyl_geom R) (p : pos3 R) : R :=
    let '(p0, p1, _) := p in let '(c0, c1, _) := yc_center y in
    sqrt ((p0 - c0) * (p0 - c0) + (p1 - c1) * (p1 - c1)).

  (** ** C19 *)
  Theorem c19_rings (nr no nz : N) x0 x1 y0 y1 z0 z1 (g : grid R) :
    (1 <= nr)%N -> x0 < x1 -> y0 < y1 ->
    cyl_new (nr, no, nz) (ThreeD ((x0, x1), (y0, y1), (z0, z1))) true = Val g ->
    exists y, geo g = Cyl y /\
      yc_radius y = Rmax ((x1 - x0) / 2) ((y1 - y0) / 2) /\
      length (yc_r y) = N.to_nat nr /\
      (forall i, (i < N.to_nat nr)%nat -> exists a b, nth_error (yc_r y) i = Some (a, b) /\
         0 <= a < b /\ b <= yc_radius y /\
         b * b - a * a = yc_radius y * yc_radius y / NR nr /\
         (i = 0%nat -> a = 0) /\ (i = (N.to_nat nr - 1)%nat -> b = yc_radius y) /\
         (forall q, nth_error (yc_r y) (S i) = Some q -> fst q = b) /\
         nth_error (yc_rmean y) i = Some ((a + b) / 2)).
  Proof.
    intros Hn Hx Hy E. destruct (cyl_new_val _ _ _ _ _ _ _ _ E) as [y [G [Cc [Ra [Rr [Rm _]]]]]].
    cbn [fst snd] in Rr. exists y. split; [exact G|].
    rewrite !half_extent_R in Ra by assumption. split; [exact Ra|].
    rewrite Rm, Rr, cyl_rings_length. split; [reflexivity|].
    assert (HR : 0 < yc_radius y) by (rewrite Ra; assert (A := Rmax_l ((x1 - x0) / 2) ((y1 - y0) / 2)); lra).
    set (R := yc_radius y) in *. assert (NI : NR nr = INR (N.to_nat nr)).
    { unfold NR. rewrite INR_IZR_INZ, N_nat_Z. reflexivity. }
    rewrite NI. set (n := N.to_nat nr) in *. assert (Pn : 0 < INR n) by (apply lt_0_INR; lia).
    set (vol := R * R / INR n). assert (Pv : 0 < vol) by (apply Rdiv_lt_0_compat; nra).
    assert (Ev : INR n * vol = R * R) by (unfold vol; field; lra).
    intros i Hi. exists (sqrt (INR i * vol)), (sqrt (INR (i + 1) * vol)).
    assert (Pi := pos_INR i). assert (Pi1 : INR (i + 1) = INR i + 1) by (rewrite plus_INR; reflexivity).
    split; [now apply cyl_rings_0; [lra|]|].
    split; [split; [apply sqrt_pos | apply sqrt_lt_1; nra]|].
    split. { rewrite <- (sqrt_square R) by lra. apply sqrt_le_1; [nra | nra |]. rewrite <- Ev.
      apply Rmult_le_compat_r; [lra|]. apply le_INR. lia. }
    split. { rewrite !sqrt_sqrt by nra. rewrite Pi1. lra. }
    split. { intros ->. cbn [INR]. rewrite Rmult_0_l, sqrt_0. reflexivity. }
    split. { intros ->. replace (n - 1 + 1)%nat with n by lia. rewrite Ev, sqrt_square by lra. reflexivity. }
    split. { intros q Hq. assert (Hi' : (S i < n)%nat).
      { rewrite <- (cyl_rings_length n vol 0). apply nth_error_Some. congruence. }
      replace (S i) with (i + 1)%nat in * by lia.
      rewrite (cyl_rings_0 vol n (i + 1)) in Hq by (lra || exact Hi'). injection Hq as <-. reflexivity. }
    rewrite nth_error_map, (cyl_rings_0 vol n i) by (lra || exact Hi). reflexivity.
  Qed.

  (** ** C20 and C21: lookup inside a cylindrical grid *)
  (** The cell found: ring containing the radius; for angle and height the index is in range
      and is given by the half-cell shift described in [c21_before_or_at]. *)
  Definition shifted (n : nat) (lo h z : R) (i : nat) : Prop :=
    forall t, (t < n)%nat -> lo + INR t * h <= z < lo + (INR t + 1) * h ->
      i = if Nat.eqb t 0 then 0%nat else if Rle_dec (z - (lo + INR t * h)) (h / 2) then (t - 1)%nat else t.

  Theorem c20_cell_found (bld : build) (nr no nz : N) x0 x1 y0 y1 z0 z1 (g : grid R) (p : pos3 R) :
    0 < npi -> (1 <= nr)%N -> (1 <= no)%N -> (1 <= nz)%N -> x0 < x1 -> y0 < y1 -> z0 < z1 ->
    cyl_new (nr, no, nz) (ThreeD ((x0, x1), (y0, y1), (z0, z1))) true = Val g ->
    exists y, geo g = Cyl y /\
    (axis_distance y p <= yc_radius y ->
     exists i j k a b, cell_id bld g p = Val (Some (N.of_nat i, N.of_nat j, N.of_nat k)) /\
      (i < N.to_nat nr)%nat /\ (j < N.to_nat no)%nat /\ (k < N.to_nat nz)%nat /\
      nth_error (yc_r y) i = Some (a, b) /\ a <= axis_distance y p <= b /\
      shifted (N.to_nat no) (- npi) (2 * npi / NR no) (snd (fst (to_cylindrical y p))) j /\
      shifted (N.to_nat nz) z0 ((z1 - z0) / NR nz) (snd p) k).
  Proof.
    intros Hpi Hr Ho Hz Hx Hy Hzz E.
    destruct (cyl_new_val _ _ _ _ _ _ _ _ E) as [y [G [Cc [Ra [Rr [Rm [Eo [Ez [Ce [El _]]]]]]]]]].
    cbn [fst snd] in *. rewrite !half_extent_R in Ra by assumption.
    exists y. split; [exact G|]. intros Hd.
    assert (HR : 0 < yc_radius y) by (rewrite Ra; assert (A := Rmax_l ((x1 - x0) / 2) ((y1 - y0) / 2)); lra).
    unfold cell_id. rewrite G. cbn [geom_cell_id]. unfold cyl_cell_id.
    destruct p as [[p0 p1] p2]. unfold to_cylindrical, axis_distance in *. rewrite Ce in *.
    cbn [nsqrt nadd nsub nmul num_R fst snd] in *.
    set (r := sqrt _) in *. set (o := natan2 _ _).
    assert (NI : forall n, NR n = INR (N.to_nat n)) by (intros n; unfold NR; now rewrite INR_IZR_INZ, N_nat_Z).
    assert (Hr0 : 0 <= r) by apply sqrt_pos.
    destruct (ring_lookup (N.to_nat nr) (yc_radius y) r ltac:(lia) HR ltac:(lra)) as [i [Ei [Hi [Hb _]]]].
    assert (Po : 0 < NR no) by (assert (P := NR_pos no Ho); lra).
    assert (Pz : 0 < NR nz) by (assert (P := NR_pos nz Hz); lra).
    destruct (nearest_edge (N.to_nat no) (yc_o y) (- npi) ((npi - - npi) / NR no) o ltac:(lia)) as [j [Ej [Hj Sj]]].
    { apply Rdiv_lt_0_compat; lra. }
    { rewrite Eo. apply oedges_length. }
    { intros k Hk. rewrite Eo. now apply oedges_nth. }
    destruct (nearest_edge (N.to_nat nz) (yc_z y) z0 ((z1 - z0) / NR nz) p2 ltac:(lia)) as [k [Ek [Hk Sk]]].
    { apply Rdiv_lt_0_compat; lra. }
    { rewrite Ez. apply zedges_length. }
    { intros m Hm. rewrite Ez. now apply zedges_nth. }
    replace (npi - - npi) with (2 * npi) in Sj by lra.
    rewrite <- NI in Ei, Hb. rewrite <- Rr in Ei.
    exists i, j, k. exists (sqrt (INR i * (yc_radius y * yc_radius y / NR nr))), (sqrt (INR (i + 1) * (yc_radius y * yc_radius y / NR nr))).
    split.
    { rewrite Ei. cbn [unwrap bind].
      cbn [nabs nsub num_R] in Ej, Ek |- *. rewrite Ej. cbn [unwrap bind]. rewrite Ek. reflexivity. }
    split; [exact Hi|]. split; [exact Hj|]. split; [exact Hk|].
    split. { rewrite Rr. apply cyl_rings_0; [|exact Hi].
      apply Rlt_le, Rdiv_lt_0_compat; [nra|]. assert (P := NR_pos nr Hr). lra. }
    split; [exact Hb|]. split; [exact Sj | exact Sk].
  Qed.

  (** Inside the grid in particular, and then exactly that cell is changed. *)
  Theorem c20_inside_and_add (bld : build) (nr no nz : N) x0 x1 y0 y1 z0 z1 (g g1 : grid R) (p : pos3 R) (v : R) :
    0 < npi -> (1 <= nr)%N -> (1 <= no)%N -> (1 <= nz)%N -> x0 < x1 -> y0 < y1 -> z0 < z1 ->
    cyl_new (nr, no, nz) (ThreeD ((x0, x1), (y0, y1), (z0, z1))) true = Val g ->
    geo g1 = geo g -> wf_grid g1 -> is_inside g1 p = true ->
    exists c g2, cell_id bld g1 p = Val (Some c) /\ inb3 (nr, no, nz) c = true /\
      add_value bld g1 p v = Val g2 /\
      only_cell g1 g2 c (at3 (data g1) c + v) (at3 (weight g1) c + 1).
  Proof.
    intros Hpi Hr Ho Hz Hx Hy Hzz E G1 W Hin.
    destruct (c20_cell_found bld nr no nz x0 x1 y0 y1 z0 z1 g p Hpi Hr Ho Hz Hx Hy Hzz E) as [y [G H]].
    assert (Hd : axis_distance y p <= yc_radius y).
    { unfold is_inside in Hin. rewrite G1, G in Hin. cbn [geom_inside] in Hin. unfold cyl_inside, to_cylindrical in Hin.
      unfold axis_distance. destruct p as [[p0 p1] p2], (yc_center y) as [[c0 c1] c2], (yc_lim y) as [[l0 l1] l2].
      apply andb_true_iff in Hin. destruct Hin as [Hin _]. apply andb_true_iff in Hin. destruct Hin as [Hin _].
      apply Rleb_true in Hin. exact Hin. }
    destruct (H Hd) as [i [j [k [a [b [Ec [Hi [Hj [Hk _]]]]]]]]].
    exists (N.of_nat i, N.of_nat j, N.of_nat k).
    assert (Ec1 : cell_id bld g1 p = Val (Some (N.of_nat i, N.of_nat j, N.of_nat k))) by (unfold cell_id in *; now rewrite G1).
    assert (Cg : geom_cells (geo g1) = (nr, no, nz)).
    { rewrite G1. destruct (cyl_new_val _ _ _ _ _ _ _ _ E) as [y' [G' [Cc' _]]]. rewrite G'. exact Cc'. }
    assert (I : inb3 (nr, no, nz) (N.of_nat i, N.of_nat j, N.of_nat k) = true) by (rewrite inb3_lt; lia).
    destruct (add_value_in bld g1 p v _ W Ec1) as [g2 [E2 O2]]; [now rewrite Cg|].
    exists g2. split; [exact Ec1|]. split; [exact I|]. split; [exact E2 | exact O2].
  Qed.

  (** C02 on cylindrical grids, second failure: a position within the radius but above or below
      the grid is added to some cell. *)
  Theorem c02_cylindrical_height_refuted (bld : build) (v : R) :
    0 < npi -> exists g g2 c p,
      cyl_new (2, 2, 2)%N (ThreeD ((-1, 1), (-1, 1), (0, 1))) true = Val g /\
      is_inside g p = false /\ add_value bld g p v = Val g2 /\
      only_cell g g2 c (at3 (data g) c + v) (at3 (weight g) c + 1).
  Proof.
    intros Hpi. destruct (cyl_new (2, 2, 2)%N (ThreeD ((-1, 1), (-1, 1), (0, 1))) true) as [g|] eqn:E; [|discriminate].
    destruct (c20_cell_found bld 2 2 2 (-1) 1 (-1) 1 0 1 g (0, 0, 5) Hpi ltac:(lia) ltac:(lia) ltac:(lia) ltac:(lra) ltac:(lra) ltac:(lra) E) as [y [G H]].
    destruct (cyl_new_val _ _ _ _ _ _ _ _ E) as [y' [G' [Cc [Ra [Rr [Rm [Eo [Ez [Ce [El _]]]]]]]]]].
    rewrite G in G'. injection G' as <-.
    destruct H as [i [j [k [a [b [Ec [Hi [Hj [Hk _]]]]]]]]].
    { unfold axis_distance. rewrite Ce, Ra, !half_extent_R by lra.
      replace (_ + _) with 0 by lra. rewrite sqrt_0, Rmax_left by lra. lra. }
    destruct (add_value_in bld g (0, 0, 5) v (N.of_nat i, N.of_nat j, N.of_nat k)) as [g2 [E2 O2]].
    { eapply cyl_new_wf; eauto. } { exact Ec. }
    { rewrite G. cbn [geom_cells]. rewrite Cc. rewrite inb3_lt. lia. }
    exists g, g2, (N.of_nat i, N.of_nat j, N.of_nat k), (0, 0, 5).
    split; [reflexivity|]. split; [|split; [exact E2 | exact O2]].
    unfold is_inside. rewrite G. cbn [geom_inside]. unfold cyl_inside, to_cylindrical. rewrite Ce, El.
    apply andb_false_iff. right. unfold in_interval. apply andb_false_iff. right. apply Rleb_false. cbn. lra.
  Qed.

  (** ** C21: false of the code: a height in the lower half of the second cell is put in the first. *)
  Theorem c21_height_refuted (bld : build) : 0 < npi -> exists g i j,
    cyl_new (1, 1, 2)%N (ThreeD ((-1, 1), (-1, 1), (0, 1))) true = Val g /\
    get_zpositions g = [1/2; 1] /\
    cell_id bld g (0, 0, 6/10) = Val (Some (i, j, 0)%N).
  Proof.
    intros Hpi. destruct (cyl_new (1, 1, 2)%N (ThreeD ((-1, 1), (-1, 1), (0, 1))) true) as [g|] eqn:E; [|discriminate].
    destruct (c20_cell_found bld 1 1 2 (-1) 1 (-1) 1 0 1 g (0, 0, 6/10) Hpi ltac:(lia) ltac:(lia) ltac:(lia) ltac:(lra) ltac:(lra) ltac:(lra) E) as [y [G H]].
    destruct (cyl_new_val _ _ _ _ _ _ _ _ E) as [y' [G' [Cc [Ra [Rr [Rm [Eo [Ez [Ce [El _]]]]]]]]]].
    rewrite G in G'. injection G' as <-.
    destruct H as [i [j [k [a [b [Ec [Hi [Hj [Hk [_ [_ [_ Sk]]]]]]]]]]]].
    { unfold axis_distance. rewrite Ce, Ra, !half_extent_R by lra.
      replace (_ + _) with 0 by lra. rewrite sqrt_0, Rmax_left by lra. lra. }
    exists g, (N.of_nat i), (N.of_nat j). split; [reflexivity|]. split.
    { unfold get_zpositions. rewrite G, Ez. unfold cyl_zedges.
      change (range 0 (snd (1, 1, 2)%N)) with [0; 1]%N. unfold nofN. cbn. f_equal; [lra|]. f_equal. lra. }
    rewrite Ec. unfold shifted in Sk. specialize (Sk 1%nat ltac:(cbn; lia)). unfold NR in Sk. cbn [INR snd Z.of_N Nat.eqb] in Sk.
    rewrite Sk; [destruct Rle_dec as [_|N]; [reflexivity | exfalso; apply N; lra] | lra].
  Qed.

  (** What is true: the index is in range and is the true cell or the one before it, by the
      half-cell rule [shifted] (that is part of [c20_cell_found]); restated for the height. *)
  Theorem c21_before_or_at (n : nat) (lo h z : R) (i t : nat) :
    shifted n lo h z i -> (t < n)%nat -> lo + INR t * h <= z < lo + (INR t + 1) * h ->
    i = t \/ (i = t - 1)%nat.
  Proof.
    intros S Ht Hz. rewrite (S t Ht Hz). destruct (Nat.eqb_spec t 0) as [->|_]; [auto|].
    destruct Rle_dec; auto.
  Qed.

  (** ** C23 *)
  (** Cartesian grids: the velocity is unchanged. *)
  Theorem c23_cartesian (g : grid R) (c : cart_geom R) p u : geo g = Cart c ->
    velocity_calculation (vnew g) p u = u.
  Proof. intros G. unfold velocity_calculation, vnew. cbn [vg0 vcyl]. now rewrite G. Qed.
  (** Axis through the origin: radial component and angular velocity, and the speed is preserved. *)
  Theorem c23_cylindrical (g : grid R) (y : cyl_geom R) (r theta z ux uy uz cz : R) :
    geo g = Cyl y -> yc_center y = (0, 0, cz) -> 0 < r ->
    exists vr w, velocity_calculation (vnew g) (r * cos theta, r * sin theta, z) (ux, uy, uz) = (vr, w, uz) /\
      vr = ux * cos theta + uy * sin theta /\
      r * w = - ux * sin theta + uy * cos theta /\
      vr * vr + (r * w) * (r * w) = ux * ux + uy * uy.
  Proof.
    intros G C Hr. unfold velocity_calculation, vnew. cbn [vg0 vcyl]. rewrite G. cbn [is_cylindrical].
    unfold to_cylindrical. rewrite C.
    do 2 eexists. split; [reflexivity|]. cbn [nsqrt nadd nsub nmul ndiv num_R].
    assert (P := sin2_cos2 theta). unfold Rsqr in P.
    set (c := cos theta) in *. set (s := sin theta) in *.
    replace ((r * c - 0) * (r * c - 0) + (r * s - 0) * (r * s - 0)) with (r * r) by nra.
    rewrite sqrt_square by lra.
    assert (Q : r * c * (r * c) + r * s * (r * s) = r * r) by nra. rewrite Q.
    assert (A : (r * c * ux + r * s * uy) / r = ux * c + uy * s) by (field; lra).
    assert (B : r * ((r * c * uy - r * s * ux) / (r * r)) = - ux * s + uy * c) by (field; lra).
    rewrite A, B. split; [reflexivity|]. split; [reflexivity|]. nra.
  Qed.
  (** False of the code when the axis is not at the origin: a purely tangential velocity gets a
      radial component (the position is not shifted to the axis). *)
  Theorem c23_off_centre_refuted : exists g,
    cyl_new (1, 1, 1)%N (ThreeD ((0, 2), (0, 2), (0, 1))) true = Val g /\
    exists vr w, velocity_calculation (vnew g) (2, 1, 0) (0, 1, 0) = (vr, w, 0) /\ vr = 1.
  Proof.
    eexists. split; [reflexivity|]. unfold velocity_calculation, vnew. cbn [vg0 vcyl geo is_cylindrical].
    unfold to_cylindrical. cbn [yc_center].
    do 2 eexists. split; [reflexivity|]. cbn [nsqrt nadd nsub nmul ndiv num_R]. change (@n2 R num_R) with 2.
    replace ((2 - (0 + 2) / 2) * (2 - (0 + 2) / 2) + (1 - (0 + 2) / 2) * (1 - (0 + 2) / 2)) with (1 * 1) by lra.
    rewrite sqrt_square by lra. lra.
  Qed.
End Ideal.

Section F64.
  Context {TF : Trig f64}.

  (** ** C20 in doubles: with 6 rings of outer radius 1 the last ring ends below 1, so the
      position (1,0,0), which is inside, panics (whatever atan2 returns within [-pi, pi]). *)
  Theorem c20_rounding_refuted :
    (forall y x : f64, is_finite y = true -> is_finite x = true -> in_interval (nneg npi, npi) (natan2 y x) = true) ->
    forall bld v, exists g,
    cyl_new (6, 1, 1)%N (ThreeD ((d (-1), d 1), (d (-1), d 1), (d 0, d 1))) true = Val g /\
    is_inside g (d 1, d 0, d 0) = true /\ cell_id bld g (d 1, d 0, d 0) = Panic /\
    add_value bld g (d 1, d 0, d 0) v = Panic.
  Proof.
    intros Ha bld v. eexists. split; [reflexivity|].
    split; [|split; vm_compute; reflexivity].
    unfold is_inside. cbn [geo geom_inside]. unfold cyl_inside, to_cylindrical. cbn [yc_center yc_lim].
    apply andb_true_iff. split; [|vm_compute; reflexivity]. apply andb_true_iff. split; [vm_compute; reflexivity|].
    apply Ha; vm_compute; reflexivity.
  Qed.

  (** ** C22 *)
  Theorem c22_components (bld : build) (g : grid f64) (ops : list (vop f64)) (v : vgrid f64) (k : N) :
    Forall vop_plain ops -> mfold (vstep bld) ops (vnew g) = Val v ->
    shared v /\ mfold (gstep bld) (map (vproj k) ops) g = Val (comp k v).
  Proof.
    intros Hp H. assert (S : shared (vnew g)) by (unfold shared; cbn; auto).
    destruct (vhist bld ops (vnew g) v k Hp S H) as [A B]. split; [exact A|].
    replace (comp k (vnew g)) with g in B; [exact B|].
    unfold comp, vnew. cbn. destruct (k =? 0)%N, (k =? 1)%N; reflexivity.
  Qed.
  (** Outlier removal by neighbours (mode 2) breaks the shared weights: it rewrites the weights
      of a component where that component has an outlier. *)
  Theorem c22_outlier_refuted :
    after (cart_new (1, 1, 2)%N (ThreeD box64)) (fun g =>
    after (mfold (vstep Release) [VAdd3 (d 0, d 0, d 0) (d 9, d 0, d 0); VAll (OpOutlier (d 1) 2)] (vnew g)) (fun v =>
    same (at3 (weight (comp 0 v)) (0, 0, 0)%N) (d 0) /\ same (at3 (weight (comp 1 v)) (0, 0, 0)%N) (d 1))).
  Proof. vm_compute. split; reflexivity. Qed.
  Example c22_ex :
    after (cart_new (2, 2, 2)%N (ThreeD box64)) (fun g =>
    after (mfold (vstep Release) [VAdd3 (d 0, d 0, d 0) (d 9, d 4, d 2); VAll (OpDivScalar (d 2)); VAll OpDivWeight] (vnew g)) (fun v =>
    same (at3 (data (comp 1 v)) (0, 0, 0)%N) (d 2) /\ same (at3 (data (comp 2 v)) (0, 0, 0)%N) (d 1))).
  Proof. vm_compute. split; reflexivity. Qed.
  (** What it does to the weights, for every vector grid: in a cell in which component [j] has an outlier and
      component [k] has none, the weight of [k] stays and that of [j] becomes the mean of the weights of the neighbours. *)
  Theorem c76_weights_part (v v' : vgrid f64) (thr : f64) (j k : N) (i : id3) :
    (forall m, wf_grid (comp m v)) -> shared v -> fits (geom_cells (geo (vg0 v))) -> v_outlier_removal Release v thr 2 = Val v' ->
    inb3 (geom_cells (geo (vg0 v))) i = true -> nltb thr (at3 (data (comp j v)) i) = true -> nltb thr (at3 (data (comp k v)) i) = false ->
    at3 (weight (comp k v')) i = at3 (weight (vg0 v)) i /\
    exists use,
      Permutation use (filter (fun c => is_cylindrical (geo (vg0 v)) || negb (nltb thr (at3 (data (comp j v)) c)))
                         (filter (adjacent i) (ids3 (geom_cells (geo (vg0 v)))))) /\
      at3 (weight (comp j v')) i = ndiv (fold_left nadd (map (at3 (weight (vg0 v))) use) n0) (fold_left (fun n _ => nadd n n1) use n0).
  Proof.
    intros W S Hf E Hi Hj Hk.
    assert (G : forall m, geo (comp m v) = geo (vg0 v) /\ weight (comp m v) = weight (vg0 v)).
    { destruct S as [G1 [G2 [W1 W2]]]. intros m. unfold comp. destruct (m =? 0)%N, (m =? 1)%N; auto. }
    assert (R : forall m, exists g', outlier_removal Release (comp m v) thr 2 = Val g' /\ g' = comp m v').
    { intros m. eexists. split; [|reflexivity]. exact (vmapM_comp (fun g => outlier_removal Release g thr 2) v v' m E). }
    split.
    - destruct (c17_mode2_release (comp k v) thr (W k)) as [g' [E' [_ [_ H]]]]; [now rewrite (proj1 (G k))|].
      destruct (R k) as [g2 [E2 ->]]. rewrite E2 in E'. injection E' as <-. rewrite (proj1 (G k)) in H.
      destruct (H i Hi) as [H1 _]. rewrite (proj2 (H1 Hk)). now rewrite (proj2 (G k)).
    - destruct (c17_mode2_release (comp j v) thr (W j)) as [g' [E' [_ [_ H]]]]; [now rewrite (proj1 (G j))|].
      destruct (R j) as [g2 [E2 ->]]. rewrite E2 in E'. injection E' as <-. rewrite (proj1 (G j)) in H.
      destruct (H i Hi) as [_ H1]. destruct (H1 Hj) as [use [P [_ Q]]]. exists use. rewrite (proj2 (G j)) in Q. split; assumption.
  Qed.
  (** ** Which arrays [divide_by_array] accepts, and which of them keep the shape of the grid *)
  Definition one_axis (P : N -> N -> Prop) (n m : id3) : Prop :=
    let '(n0, n1, n2) := n in let '(m0, m1, m2) := m in P n0 m0 \/ P n1 m1 \/ P n2 m2.
  Definition each_axis (P : N -> N -> Prop) (n m : id3) : Prop :=
    let '(n0, n1, n2) := n in let '(m0, m1, m2) := m in P n0 m0 /\ P n1 m1 /\ P n2 m2.
  (** Index of the divisor: 0 along axes of length 1. *)
  Definition divisor_index (m c : id3) : id3 :=
    let '(m0, m1, m2) := m in let '(c0, c1, c2) := c in
    (if (m0 =? 1)%N then 0 else c0, if (m1 =? 1)%N then 0 else c1, if (m2 =? 1)%N then 0 else c2)%N.
  Theorem c76_divide_exact (g : grid f64) (a : arr3 f64) : wf_grid g ->
    let n := geom_cells (geo g) in let m := sh3 a in
    (divide_by_array g a = Panic <-> one_axis (fun n m => n <> m /\ n <> 1 /\ m <> 1)%N n m) /\
    forall g', divide_by_array g a = Val g' ->
      (wf_grid g' <-> each_axis (fun n m => m = n \/ m = 1)%N n m) /\
      (wf_grid g' -> geo g' = geo g /\ weight g' = weight g /\
         forall c, inb3 n c = true -> at3 (data g') c = ndiv (at3 (data g) c) (at3 a (divisor_index m c))).
  Proof.
    intros [W1 W2] n m. subst n m. unfold divide_by_array, zip3. rewrite W1.
    destruct (geom_cells (geo g)) as [[p0 p1] p2] eqn:EG, (sh3 a) as [[q0 q1] q2] eqn:ES. cbn [one_axis each_axis].
    assert (B : forall x y, (bdim x y = Panic <-> (x <> y /\ x <> 1 /\ y <> 1)%N) /\
      forall z, bdim x y = Val z -> (z = x <-> y = x \/ y = 1)%N).
    { intros x y. unfold bdim. destruct (N.eqb_spec x y), (N.eqb_spec x 1), (N.eqb_spec y 1);
        (split; [split; [try discriminate; intros; repeat split; congruence | intros; try reflexivity; lia] | intros z Hz; try discriminate; injection Hz as <-; lia]). }
    destruct (B p0 q0) as [P0 Z0], (B p1 q1) as [P1 Z1], (B p2 q2) as [P2 Z2].
    destruct (bdim p0 q0) as [s0|] eqn:E0; cbn [bind]; [|split; [split; [intros _; left; now apply P0 | reflexivity] | discriminate]].
    destruct (bdim p1 q1) as [s1|] eqn:E1; cbn [bind]; [|split; [split; [intros _; right; left; now apply P1 | reflexivity] | discriminate]].
    destruct (bdim p2 q2) as [s2|] eqn:E2; cbn [bind]; [|split; [split; [intros _; right; right; now apply P2 | reflexivity] | discriminate]].
    split.
    { split; [discriminate|]. intros [H|[H|H]]; [apply P0 in H | apply P1 in H | apply P2 in H]; discriminate. }
    intros g' E. injection E as <-. unfold wf_grid, with_data. cbn [data weight geo sh3]. rewrite EG, W2.
    specialize (Z0 _ eq_refl). specialize (Z1 _ eq_refl). specialize (Z2 _ eq_refl).
    assert (Iff : (s0, s1, s2) = (p0, p1, p2) <-> (q0 = p0 \/ q0 = 1)%N /\ (q1 = p1 \/ q1 = 1)%N /\ (q2 = p2 \/ q2 = 1)%N).
    { rewrite <- Z0, <- Z1, <- Z2. split; [intros H; injection H; auto | intros [-> [-> ->]]; reflexivity]. }
    split; [rewrite <- Iff; tauto|]. intros _. split; [reflexivity|]. split; [reflexivity|].
    intros [[c0 c1] c2] Hc. cbn [at3]. cbn [inb3] in Hc. cbn [bidx3 divisor_index]. unfold bidx.
    replace (if (p0 =? 1)%N then 0%N else c0) with c0 by (destruct (N.eqb_spec p0 1); [lia | reflexivity]).
    replace (if (p1 =? 1)%N then 0%N else c1) with c1 by (destruct (N.eqb_spec p1 1); [lia | reflexivity]).
    replace (if (p2 =? 1)%N then 0%N else c2) with c2 by (destruct (N.eqb_spec p2 1); [lia | reflexivity]). reflexivity.
  Qed.
  (** The hypotheses are met ([shared] by c22_components). *)
  Example c76_case :
    after (cart_new (1, 1, 2)%N (ThreeD box64)) (fun g =>
    after (mfold (vstep Release) [VAdd3 (d 0, d 0, d 0) (d 9, d 0, d 0)] (vnew g)) (fun v =>
    nltb (d 1) (at3 (data (comp 0 v)) (0, 0, 0)%N) = true /\ nltb (d 1) (at3 (data (comp 1 v)) (0, 0, 0)%N) = false /\
    after (v_outlier_removal Release v (d 1) 2) (fun _ => True) /\
    after (divide_by_array (vg0 v) (const3 (2, 2, 2)%N (d 1))) (fun _ => True) /\ divide_by_array (vg0 v) (const3 (1, 1, 3)%N (d 1)) = Panic)).
  Proof. vm_compute. repeat split. Qed.
End F64.

Print Assumptions c20_cell_found.
Print Assumptions c22_components.
