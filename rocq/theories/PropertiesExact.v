(** * What the code does where a documented property fails (C74, C75, C77, C78, C79, C82, C83, C84)

    The refutations of these properties elsewhere are single cases.  The theorems here say for all inputs
    what happens instead, so that the failing inputs are known exactly. *)
From Coq Require Import Reals List NArith ZArith Lia Lra Bool ZifyBool ZifyN String.
From Flocq Require Import Core.Core IEEE754.BinarySingleNaN.
From Verif Require Import Base BaseFacts Num F64Facts RFacts NDArray GridModel GridSpec GridFacts CartProofs CartR GridOps GridR PropertiesGrid
  CylProofs PropertiesCyl SelModel PropertiesSel F64Floor DataModel DataSpec DataProofs DataLoad PropertiesData FunModel FunSpec FunProofs FunMgr FunField
  PropertiesFun FunHist FunMom FunTemp.
Local Open Scope list_scope.

(** ** C74: cylindrical grids and positions outside *)
Section C74.
  Context {TF : Trig R}.
  Local Open Scope R_scope.

  (** Beyond the radius every operation that looks up the cell panics ... *)
  Theorem c74_beyond_panics (bld : build) (nr no nz : N) x0 x1 y0 y1 z0 z1 (g g1 : grid R) (y : cyl_geom R) (p : pos3 R) (v : R) :
    (1 <= nr)%N -> x0 < x1 -> y0 < y1 ->
    cyl_new (nr, no, nz) (ThreeD ((x0, x1), (y0, y1), (z0, z1))) true = Val g -> geo g = Cyl y ->
    geo g1 = geo g -> yc_radius y < axis_distance y p ->
    is_inside g1 p = false /\ cell_id bld g1 p = Panic /\ add_value bld g1 p v = Panic /\ insert bld g1 p v = Panic /\ get_value bld g1 p = Panic.
  Proof.
    intros Hr Hx Hy E G G1 Hd.
    destruct (cyl_new_val _ _ _ _ _ _ _ _ E) as [y' [G' [Cc [Ra [Rr [Rm [Eo [Ez [Ce [El _]]]]]]]]]].
    rewrite G in G'. injection G' as <-. cbn [fst snd] in *. rewrite !half_extent_R in Ra by assumption.
    assert (HR : 0 < yc_radius y) by (rewrite Ra; assert (A := Rmax_l ((x1 - x0) / 2) ((y1 - y0) / 2)); lra).
    assert (Pc : cell_id bld g1 p = Panic).
    { unfold cell_id. rewrite G1, G. cbn [geom_cell_id]. unfold cyl_cell_id.
      destruct p as [[p0 p1] p2]. unfold to_cylindrical, axis_distance in *. rewrite Ce in *.
      cbn [nsqrt nadd nsub nmul num_R fst snd] in *. set (r := sqrt _) in *.
      assert (Rn : ring_of (yc_r y) 0 r None = None).
      { destruct (ring_of (yc_r y) 0 r None) as [j|] eqn:Er; [|reflexivity]. exfalso.
        destruct (ring_of_spec (yc_r y) 0 r None) as [H1 _]. destruct (H1 j Er) as [X|[i [q [_ [Hq [_ Hu]]]]]]; [discriminate|].
        set (vol := yc_radius y * yc_radius y / NR nr) in *. assert (Pn : 0 < NR nr) by (assert (P := NR_pos nr Hr); lra).
        assert (Pv : 0 < vol) by (apply Rdiv_lt_0_compat; nra).
        assert (Li : (i < N.to_nat nr)%nat).
        { assert (X : nth_error (yc_r y) i <> None) by congruence. apply nth_error_Some in X. rewrite Rr in X.
          assert (Lr : forall n a b, List.length (cyl_rings (F := R) n a b) = n).
          { induction n as [|n IH]; intros a b; cbn [cyl_rings List.length]; [reflexivity | now rewrite IH]. }
          now rewrite Lr in X. }
        rewrite Rr, cyl_rings_0 in Hq by (try lra; lia). injection Hq as <-. cbn [snd] in Hu.
        assert (sqrt (INR (i + 1) * vol) <= yc_radius y); [|lra].
        rewrite <- (sqrt_square (yc_radius y)) by lra. apply sqrt_le_1_alt.
        assert (Ev : NR nr * vol = yc_radius y * yc_radius y) by (unfold vol; field; lra). rewrite <- Ev.
        apply Rmult_le_compat_r; [lra|]. unfold NR. rewrite <- N_nat_Z, <- INR_IZR_INZ. apply le_INR. lia. }
      rewrite Rn. reflexivity. }
    split; [|split; [exact Pc|]].
    - unfold is_inside. rewrite G1, G. cbn [geom_inside]. unfold cyl_inside, to_cylindrical. destruct p as [[p0 p1] p2].
      unfold axis_distance in Hd. destruct (yc_center y) as [[c0 c1] c2], (yc_lim y) as [[l0 l1] l2].
      apply andb_false_iff. left. apply andb_false_iff. left. apply Rleb_false. exact Hd.
    - unfold add_value, insert, get_value. rewrite Pc. auto.
  Qed.
  (** ... and within it every height is accepted: above or below the grid the value goes to some cell. *)
  Theorem c74_any_height_added (bld : build) (nr no nz : N) x0 x1 y0 y1 z0 z1 (g g1 : grid R) (y : cyl_geom R) (p : pos3 R) (v : R) :
    0 < npi -> (1 <= nr)%N -> (1 <= no)%N -> (1 <= nz)%N -> x0 < x1 -> y0 < y1 -> z0 < z1 ->
    cyl_new (nr, no, nz) (ThreeD ((x0, x1), (y0, y1), (z0, z1))) true = Val g -> geo g = Cyl y ->
    geo g1 = geo g -> wf_grid g1 -> axis_distance y p <= yc_radius y ->
    exists c g2, inb3 (nr, no, nz) c = true /\ add_value bld g1 p v = Val g2 /\
      only_cell g1 g2 c (at3 (data g1) c + v) (at3 (weight g1) c + 1) /\
      (~ z0 <= snd p <= z1 -> is_inside g1 p = false).
  Proof.
    intros Hpi Hr Ho Hz Hx Hy Hzz E G G1 W Hd.
    destruct (c20_cell_found bld nr no nz x0 x1 y0 y1 z0 z1 g p Hpi Hr Ho Hz Hx Hy Hzz E) as [y' [G' H]].
    rewrite G in G'. injection G' as <-.
    destruct (H Hd) as [i [j [k [a [b [Ec [Hi [Hj [Hk _]]]]]]]]].
    destruct (cyl_new_val _ _ _ _ _ _ _ _ E) as [y' [G' [Cc [Ra [Rr [Rm [Eo [Ez [Ce [El _]]]]]]]]]].
    rewrite G in G'. injection G' as <-.
    assert (Ec1 : cell_id bld g1 p = Val (Some (N.of_nat i, N.of_nat j, N.of_nat k))) by (unfold cell_id in *; now rewrite G1).
    assert (I : inb3 (nr, no, nz) (N.of_nat i, N.of_nat j, N.of_nat k) = true) by (rewrite inb3_lt; lia).
    assert (Cg : geom_cells (geo g1) = (nr, no, nz)) by (rewrite G1, G; exact Cc).
    destruct (add_value_in bld g1 p v _ W Ec1) as [g2 [E2 O2]]; [now rewrite Cg|].
    exists (N.of_nat i, N.of_nat j, N.of_nat k), g2. split; [exact I|]. split; [exact E2|]. split; [exact O2|].
    intros Nz. unfold is_inside. rewrite G1, G. cbn [geom_inside]. unfold cyl_inside, to_cylindrical. destruct p as [[p0 p1] p2].
    rewrite Ce, El. cbn [snd] in Nz. apply andb_false_iff. right. unfold in_interval. cbn [fst snd nleb num_R].
    apply andb_false_iff. destruct (Rle_lt_dec z0 p2) as [A|A]; [right; apply Rleb_false; destruct (Rle_lt_dec p2 z1); [tauto | assumption] | left; now apply Rleb_false].
  Qed.
End C74.
(** Doubles: a slice at the upper limit, which counts as inside, panics on every grid. *)
Theorem c74_upper_limit_panics {TF : Trig f64} (g : grid f64) (axis n : N) (lo hi : f64) :
  wf_grid g -> (axis <= 2)%N -> v3get (geom_lim (geo g)) axis = Val (lo, hi) -> v3get (geom_cells (geo g)) axis = Val n ->
  (n <= 2 ^ 53)%N -> is_finite lo = true -> is_finite hi = true -> Bltb lo hi = true -> is_finite (Bminus mode_NE hi lo) = true ->
  slice g axis hi = Panic.
Proof.
  intros [W1 W2] Ha El En Hn Fl Fh Hlt Fd. unfold slice. rewrite El, En. cbn [bind].
  destruct (slice_idx_val g axis (slice_cell n (lo, hi) hi) Ha) as [m [Em [_ [H _]]]].
  rewrite W1, En in Em. injection Em as <-.
  assert (A := axis_index_hi lo hi (Z.of_N n) ltac:(lia) Fl Fh Hlt Fd). unfold axis_index in A.
  revert H. unfold slice_cell. cbn [fst snd]. unfold nofN, nof, num_f64, nusize, nmul, ndiv, nsub. intros H. apply H; lia.
Qed.
(** ** C75: grids that were used before *)
(** Ideal arithmetic, any grid: the old weight [w] of a cell stays in the divisor of its mean ... *)
Theorem c75_velocity_used {TF : Trig R} (bld : build) (M : mgr R) d L (g : grid R) s mode calc vmin vmax d' h :
  recorded M d L -> sel_ok s -> wf_grid g -> velocity_mode mode = Val calc ->
  velocityfield bld M d g s mode vmin vmax = Val (d', h) ->
  forall c, inb3 (geom_cells (geo g)) c = true ->
    let l := averaged bld g s calc vmin vmax L c in
    at3 (weight h) c = (at3 (weight g) c + NR (vlen l))%R /\
    at3 (data h) c = (Rsum (map (fun m => calc (sm_vel m)) l) / (at3 (weight g) c + NR (vlen l)))%R.
Proof.
  intros Rec Sk W Em E c Hc l. destruct (velocity_cells bld M d L g s mode calc vmin vmax d' h Rec Sk W Em E) as [_ [_ [_ H]]].
  destruct (H c Hc) as [A B]. fold l in A, B. rewrite count_R in A. split; [exact A|]. rewrite B, A.
  change (@nadd R num_R) with Rplus. rewrite fold_left_Rplus. change (@n0 R num_R) with 0%R. cbn [ndiv num_R]. now rewrite Rplus_0_l.
Qed.
(** ... so the mean is right in exactly those cells that had no weight, or whose samples add up to 0. *)
Corollary c75_velocity_right_iff {TF : Trig R} (bld : build) (M : mgr R) d L (g : grid R) s mode calc vmin vmax d' h :
  recorded M d L -> sel_ok s -> wf_grid g -> velocity_mode mode = Val calc ->
  velocityfield bld M d g s mode vmin vmax = Val (d', h) ->
  forall c, inb3 (geom_cells (geo g)) c = true -> (0 <= at3 (weight g) c)%R ->
    let l := averaged bld g s calc vmin vmax L c in l <> [] ->
    (at3 (data h) c = Rmean (map (fun m => calc (sm_vel m)) l) <->
     at3 (weight g) c = 0%R \/ Rsum (map (fun m => calc (sm_vel m)) l) = 0%R).
Proof.
  intros Rec Sk W Em E c Hc Hw l Hl. destruct (c75_velocity_used bld M d L g s mode calc vmin vmax d' h Rec Sk W Em E c Hc) as [_ B].
  fold l in B. rewrite B. unfold Rmean. rewrite map_length.
  assert (P := len_pos l Hl). assert (En : NR (vlen l) = INR (List.length l)) by (unfold NR, vlen; now rewrite nat_N_Z, <- INR_IZR_INZ).
  rewrite En. set (S := Rsum _). set (w := at3 (weight g) c) in *. set (n := INR (List.length l)) in *. split.
  - intros Q. assert (X : (S * n = S * (w + n))%R).
    { apply (f_equal (fun x => x * (w + n) * n)%R) in Q. field_simplify in Q; lra. }
    destruct (Req_dec S 0); [now right | left]. apply Rmult_eq_reg_l in X; lra.
  - intros [-> | ->]; [f_equal; lra | unfold Rdiv; lra].
Qed.

(** The granular temperature starts its three sums and its counter from the old contents [a] of the cell. *)
Theorem c75_temperature_used {TF : Trig R} (bld : build) (M : mgr R) d L (g : grid R) s k mode d' h :
  recorded M d L -> sel_ok s -> wf_grid g -> at_ ["x"; "y"; "z"]%string k mode ->
  granular_temperature_field bld M d g s mode = Val (d', h) ->
  forall c, inb3 (geom_cells (geo g)) c = true ->
    let v := map (fun m => v3i k (sm_vel m)) (samples_in bld (geo g) c (observed s L)) in
    let a := at3 (data g) c in
    let n := (a + NR (vlen v))%R in
    at3 (weight h) c = n /\
    at3 (data h) c = sqrt (((a + Rsum (map (fun x => x * x) v)) - (a + Rsum v) * (a + Rsum v) / n) / n)%R.
Proof.
  intros Rec Sk W Hk E c Hc v a n.
  assert (Hm : In mode temp_modes /\ (k <= 2)%N /\ forall m : moments R, temp_at m mode c = nsqrt (ndiv (fluct_at m k c) (at3 (m_n m) c))).
  { unfold at_ in Hk. destruct (N.to_nat k) as [|[|[|j]]] eqn:Ek; cbn in Hk; [| | |now destruct j]; injection Hk as <-.
    - assert (k = 0%N) by lia. subst k. split; [cbn; tauto|]. split; [lia|]. reflexivity.
    - assert (k = 1%N) by lia. subst k. split; [cbn; tauto|]. split; [lia|]. reflexivity.
    - assert (k = 2%N) by lia. subst k. split; [cbn; tauto|]. split; [lia|]. reflexivity. }
  destruct Hm as [Hm [K T]]. assert (Q := temp_cells bld M d L g s mode Rec Sk W Hm).
  destruct (mfold _ (observed s L) (moments_of g)) as [m|]; [|congruence].
  destruct Q as [d2 [h2 [E2 [_ [_ [_ [[_ Ok] H]]]]]]]. rewrite E2 in E. apply Val_pair in E. destruct E as [_ ->].
  destruct (H c Hc) as [Hw Hd]. destruct (Ok c) as [Ok1 Ok2]. destruct (Ok1 k K) as [A B].
  destruct (moments_of_at g k c) as [X [Y Z]]. rewrite X in A. rewrite Y in B. rewrite Z, count_R in Ok2.
  assert (N1 : at3 (m_n m) c = n) by (rewrite Ok2; unfold n, v; now rewrite vlen_map).
  split; [congruence|]. rewrite Hd, T. unfold fluct_at. rewrite A, B, N1. change (@nadd R num_R) with Rplus. rewrite !fold_left_Rplus.
  cbn [nsqrt nsub nmul ndiv num_R]. unfold v. rewrite map_map. reflexivity.
Qed.

(** ** C77: radial components *)
(** Whatever the grid: the radial component reported is the true one for all positions and velocities exactly
    if the axis of the grid goes through the origin. *)
Theorem c77_radial_iff {TF : Trig R} (g : grid R) (y : cyl_geom R) c0 c1 c2 : geo g = Cyl y -> yc_center y = (c0, c1, c2) ->
  ((forall r theta z ux uy uz, (0 < r)%R ->
     fst (fst (velocity_calculation (vnew g) (c0 + r * cos theta, c1 + r * sin theta, z)%R (ux, uy, uz))) =
     (ux * cos theta + uy * sin theta)%R) <-> c0 = 0%R /\ c1 = 0%R).
Proof.
  intros G Hc.
  assert (F : forall r theta z ux uy uz, (0 < r)%R ->
    fst (fst (velocity_calculation (vnew g) (c0 + r * cos theta, c1 + r * sin theta, z)%R (ux, uy, uz))) =
    (((c0 + r * cos theta) * ux + (c1 + r * sin theta) * uy) / r)%R).
  { intros r theta z ux uy uz Hr. unfold velocity_calculation, vnew. cbn [vg0 vcyl]. rewrite G. cbn [is_cylindrical].
    unfold to_cylindrical. rewrite Hc. cbn [fst nsqrt nadd nsub nmul ndiv num_R]. f_equal.
    replace (c0 + r * cos theta - c0)%R with (r * cos theta)%R by ring. replace (c1 + r * sin theta - c1)%R with (r * sin theta)%R by ring.
    replace (r * cos theta * (r * cos theta) + r * sin theta * (r * sin theta))%R with (r * r)%R.
    - apply sqrt_square. lra.
    - assert (A := sin2_cos2 theta). unfold Rsqr in A. transitivity (r * r * 1)%R; [ring|]. rewrite <- A. ring. }
  split.
  - intros H. assert (A := H 1%R 0%R 0%R 1%R 0%R 0%R ltac:(lra)). assert (B := H 1%R 0%R 0%R 0%R 1%R 0%R ltac:(lra)).
    rewrite F in A, B by lra. rewrite cos_0, sin_0 in A, B. lra.
  - intros [-> ->] r theta z ux uy uz Hr. rewrite F by exact Hr. field. lra.
Qed.

(** ** C78: cloud and density filters, exactly *)
Theorem c78_cloud_exact (s : selector f64) (x : f64) f r : s_clouds s = f :: r ->
  exists b, is_cloud_valid s x = Val b /\
    (b = true <-> neqb f (nneg n1) = true \/
      match r with
      | [] => neqb x f = true
      | u :: _ => if (vlen (s_radius s) =? 2)%N then nleb f x = true /\ nleb x u = true
                  else exists y, In y (s_clouds s) /\ neqb y x = true
      end).
Proof.
  intros H. unfold is_cloud_valid. rewrite H, vget_cons0. cbn [bind]. destruct (neqb f (nneg n1)) eqn:E; [eexists; split; [reflexivity|]; tauto|].
  destruct r as [|u r].
  - eexists. split; [reflexivity|]. intuition discriminate.
  - assert (L1 : (vlen (f :: u :: r) =? 1)%N = false) by (apply N.eqb_neq; unfold vlen; cbn [List.length]; lia). rewrite L1, vget_cons1. cbn [bind].
    destruct (vlen (s_radius s) =? 2)%N; (eexists; split; [reflexivity|]).
    + rewrite andb_true_iff. intuition discriminate.
    + rewrite fcontains_spec. intuition discriminate.
Qed.
Theorem c78_density_exact (s : selector f64) (x : f64) f r : s_density s = f :: r ->
  exists b, is_density_valid s x = Val b /\
    (b = true <-> neqb f (nneg n1) = true \/
      match r, s_radius s with
      | [], _ => neqb x f = true
      | _, [_; u] => nleb f x = true /\ nleb x u = true
      | _, _ => exists y, In y (s_density s) /\ neqb y x = true
      end).
Proof.
  intros H. unfold is_density_valid. rewrite H, vget_cons0. cbn [bind]. destruct (neqb f (nneg n1)) eqn:E; [eexists; split; [reflexivity|]; tauto|].
  destruct r as [|u r].
  - eexists. split; [reflexivity|]. intuition discriminate.
  - assert (L1 : (vlen (f :: u :: r) =? 1)%N = false) by (apply N.eqb_neq; unfold vlen; cbn [List.length]; lia). rewrite L1.
    destruct (s_radius s) as [|a [|b [|c q]]]; try (destruct (vlen3 a b c q) as [_ ->]); cbn [vlen List.length N.of_nat N.eqb Pos.eqb Pos.of_succ_nat Pos.succ];
      try rewrite vget_cons1; cbn [bind]; (eexists; split; [reflexivity|]); rewrite ?fcontains_spec, ?andb_true_iff; intuition discriminate.
Qed.
(** The mean speed depends on nothing in the selector but its time window. *)
Theorem c78_mean_speed_ignores {F} {NF : Num F} {TF : Trig F} (bld : build) (M : mgr F) d (s s' : selector F) :
  s_time s = s_time s' -> mean_velocity_showcase bld M d s = mean_velocity_showcase bld M d s'.
Proof.
  intros H. unfold mean_velocity_showcase, loop_pure, loop_ts, timestep_valid. now rewrite H.
Qed.

(** ** C79: unbuffered reads of particle-ordered files *)
Theorem c79_unbuffered_panics (f : pfile f64) t : pf_ok f -> (2 <= pf_nparticles f)%N -> p_read_single f t = Panic.
Proof.
  intros OK Hn. unfold p_read_single. rewrite range_cons by lia. cbn [mmap].
  assert (P : p_single_part f t 0 = Panic).
  { unfold p_single_part. destruct (unwrap (pf_group f 0)) as [g|]; [|reflexivity]. cbn [bind].
    destruct (unwrap (pg_position g)) as [l|]; [|reflexivity]. cbn [bind]. destruct (vget l t); [|reflexivity]. cbn [bind].
    destruct (N.eqb_spec (pf_nparticles f) 1); [lia | reflexivity]. }
  rewrite P. reflexivity.
Qed.

(** ** C82: histogram *)
(** A sample without a speed goes to the first bin, whatever the range ... *)
Theorem c82_nan_first {TF : Trig f64} (edges : list f64) (m : sample f64) : is_nan (speed (sm_vel m)) = true -> in_bin edges 0 m = true.
Proof.
  intros H. unfold in_bin, bin_of. destruct (speed (sm_vel m)); try discriminate H. reflexivity.
Qed.
(** ... and so does every sample below it. *)
Lemma sign_minus (x y : f64) : is_finite x = true -> is_finite y = true -> Bltb x y = true ->
  Bsign (Bminus mode_NE x y) = true /\ is_nan (Bminus mode_NE x y) = false.
Proof.
  intros Fx Fy H. rewrite Bltb_R in H by assumption.
  assert (X := H).
  generalize (Bminus_correct 53 1024 _ _ mode_NE x y Fx Fy). case Rlt_bool_spec; intros Hlt.
  - intros [_ [A B]]. rewrite B, Rcompare_Lt by lra. split; [reflexivity|]. destruct (Bminus mode_NE x y); [reflexivity | reflexivity | cbn in A; congruence | reflexivity].
  - intros [A B].
    assert (Sx : Bsign x = true).
    { destruct (Bsign x) eqn:E; [reflexivity|]. exfalso. assert (Sy : Bsign y = true) by (destruct (Bsign y); [reflexivity | discriminate B]).
      assert (0 <= B2R x)%R by (destruct x as [s|s| |[] m e Hb]; cbn; try lra; try discriminate E; apply F2R_ge_0; cbn; lia).
      assert (B2R y <= 0)%R by (destruct y as [s|s| |[] m e Hb]; cbn; try lra; try discriminate Sy; apply F2R_le_0; cbn; lia). lra. }
    rewrite Sx in A. cbn in A. destruct (Bminus mode_NE x y); cbn in A; try congruence. assert (s = true) by congruence. subst s. split; reflexivity.
Qed.

Lemma sign_div (x y : f64) : Bsign x = true -> Bsign y = false -> is_nan (Bdiv mode_NE x y) = false -> Bsign (Bdiv mode_NE x y) = true.
Proof.
  intros Sx Sy Hn. destruct x as [s|s| |s m e Hb], y as [t|t| |t m' e' Hb']; cbn [Bsign] in Sx, Sy; subst; try reflexivity; try (cbn in Hn; congruence).
  set (x := B754_finite true m e Hb) in *. set (y := B754_finite false m' e' Hb') in *.
  assert (Hy : (B2R y <> 0)%R) by (apply Rgt_not_eq; apply F2R_gt_0; reflexivity).
  generalize (Bdiv_correct 53 1024 _ _ mode_NE x y Hy). case Rlt_bool_spec; intros Hlt.
  - intros [_ [_ C]]. rewrite C by exact Hn. reflexivity.
  - intros A. destruct (Bdiv mode_NE x y) as [s|s| |s m2 e2 Hb2]; cbn in A; try congruence. cbn. congruence.
Qed.
Lemma negative_to_0 (q : f64) : Bsign q = true \/ is_nan q = true -> f64_to_usize (f64_floor q) = 0%N.
Proof.
  intros [H|H]; [|destruct q; try (cbn in H; congruence); reflexivity].
  destruct q as [s|s| |s m e Hb]; cbn [Bsign] in H; subst; try reflexivity; try (cbn in H; congruence).
  set (q := B754_finite true m e Hb). destruct (floor_correct q eq_refl) as [A B].
  rewrite to_usize_finite by exact A. rewrite B. rewrite Ztrunc_IZR.
  assert (X : (B2R q <= 0)%R) by (apply F2R_le_0; cbn; lia). apply Zfloor_le in X. rewrite Zfloor_IZR in X. lia.
Qed.
Theorem c82_below_first {TF : Trig f64} (e0 e1 : f64) (r : list f64) (m : sample f64) :
  is_finite e0 = true -> is_finite e1 = true -> Bltb e0 e1 = true ->
  is_finite (speed (sm_vel m)) = true -> Bltb (speed (sm_vel m)) e0 = true -> in_bin (e0 :: e1 :: r) 0 m = true.
Proof.
  intros F0 F1 H01 Fs Hs. unfold in_bin, bin_of. cbn [nth]. apply N.eqb_eq. apply (negative_to_0 (Bdiv mode_NE (Bminus mode_NE (speed (sm_vel m)) e0) (Bminus mode_NE e1 e0))).
  destruct (sign_minus _ _ Fs F0 Hs) as [A _].
  assert (B : Bsign (Bminus mode_NE e1 e0) = false).
  { assert (X := H01). rewrite Bltb_R in X by assumption. destruct (minus_cases e1 e0 F1 F0 ltac:(lra)) as [[_ [Fm Em]] | [_ ->]]; [|reflexivity].
    generalize (Bminus_correct 53 1024 _ _ mode_NE e1 e0 F1 F0). case Rlt_bool_spec; intros Hlt.
    - intros [_ [_ C]]. rewrite C, Rcompare_Gt by lra. reflexivity.
    - intros [C _]. destruct (Bminus mode_NE e1 e0) as [s|s| |s m2 e2 Hb2]; [cbn in C; destruct (Bsign e1); discriminate C | cbn in Fm; discriminate Fm | cbn in Fm; discriminate Fm | cbn in C; destruct (Bsign e1); discriminate C]. }
  destruct (is_nan (Bdiv mode_NE (Bminus mode_NE (speed (sm_vel m)) e0) (Bminus mode_NE e1 e0))) eqn:En; [now right | left].
  now apply sign_div.
Qed.

Example c82_case : is_finite (d 1) = true /\ is_finite (d 2) = true /\ Bltb (d 1) (d 2) = true /\
  is_finite (speed (F := f64) (d 0, d 0, d 0)) = true /\ Bltb (speed (d 0, d 0, d 0)) (d 1) = true.
Proof. vm_compute. repeat split. Qed.

(** Ideal arithmetic, samples between the limits: exactly those slower than the upper limit are counted, so with the default limit the
    fastest sample never is. *)
Theorem c82_counted_below_max {TF : Trig R} (lo hi : R) (bins : N) (m : sample R) : (1 <= bins <= 2 ^ 53)%N -> (lo < hi)%R ->
  (lo <= speed (sm_vel m) <= hi)%R ->
  ((exists b, (b < bins)%N /\ in_bin (bin_edges lo hi bins) b m = true) <-> (speed (sm_vel m) < hi)%R).
Proof.
  intros [B B'] Hl [Hv Hs]. split.
  - intros [b [Hb I]]. apply c38_enclosed in I; [|lia|exact Hl|exact Hv| |exact Hb].
    + destruct I as [_ I]. apply Rlt_le_trans with (1 := I).
      rewrite (nth_error_nth _ _ 0%R (edges_at lo hi bins (N.to_nat b + 1) B ltac:(lia))).
      assert (P := NR_pos bins B). assert (X : (INR (N.to_nat b + 1) <= NR bins)%R) by (rewrite NR_nat; apply le_INR; lia).
      assert (Y : ((hi - lo) / NR bins * NR bins = hi - lo)%R) by (field; lra).
      assert (W : (0 < (hi - lo) / NR bins)%R) by (apply Rdiv_lt_0_compat; lra). nra.
    + assert (1 <= IZR (2 ^ 9))%R by (apply (IZR_le 1); lia). nra.
  - intros H. assert (P := NR_pos bins B). set (w := ((hi - lo) / NR bins)%R). assert (W : (0 < w)%R) by (apply Rdiv_lt_0_compat; lra).
    set (v := speed (sm_vel m)) in *. set (x := ((v - lo) / w)%R). assert (Y : (w * NR bins = hi - lo)%R) by (unfold w; field; lra).
    assert (Vx : (v = lo + x * w)%R) by (unfold x; field; lra).
    assert (X0 : (0 <= x)%R) by (apply Rmult_le_pos; [lra | left; now apply Rinv_0_lt_compat]).
    assert (X1 : (x < NR bins)%R) by (apply Rmult_lt_reg_r with w; lra).
    assert (Fl : (0 <= Zfloor x)%Z) by (apply Zfloor_lub; exact X0).
    assert (Fu : (Zfloor x < Z.of_N bins)%Z) by (apply lt_IZR; eapply Rle_lt_trans; [apply Zfloor_lb | exact X1]).
    exists (Z.to_N (Zfloor x)). split; [lia|]. apply c38_enclosed; [lia|exact Hl|exact Hv| |lia|].
    + assert (1 <= IZR (2 ^ 9))%R by (apply (IZR_le 1); lia). fold v. nra.
    + rewrite (nth_error_nth _ _ 0%R (edges_at lo hi bins (N.to_nat (Z.to_N (Zfloor x)) + 1) B ltac:(lia))).
      rewrite (nth_error_nth _ _ 0%R (edges_at lo hi bins (N.to_nat (Z.to_N (Zfloor x))) B ltac:(lia))).
      rewrite plus_INR. assert (Q : INR (N.to_nat (Z.to_N (Zfloor x))) = IZR (Zfloor x)) by (rewrite INR_IZR_INZ; f_equal; lia).
      rewrite Q. cbn [INR]. fold v w. assert (A := Zfloor_lb x). assert (A' := Zfloor_ub x). split; nra.
Qed.

(** ** C83: empty layers, absent types *)
From Verif Require Import MixModel FunMix FunLacey.
(** The index divides by the number of all layers, in the mean as in the sum of squares, although only those with a number are added. *)
Lemma fold_skip {A B} (p : A -> bool) (f : B -> A -> B) l : forall b,
  fold_left (fun acc x => if p x then acc else f acc x) l b = fold_left f (filter (fun x => negb (p x)) l) b.
Proof. induction l as [|x l IH]; intros b; cbn [fold_left filter]; [reflexivity|]. destruct (p x); cbn [negb fold_left]; apply IH. Qed.
Theorem c83_empty_layers {F} {NF : Num F} (l : list F) :
  let numbers := filter (fun x => negb (nisnan x)) l in
  let all := nofN (vlen l) in
  let mean := ndiv (fold_left nadd numbers n0) all in
  index_of_field l = nsqrt (ndiv (fold_left (fun acc x => nadd acc (nmul (nsub x mean) (nsub x mean))) numbers n0) all).
Proof. cbv zeta. unfold index_of_field. cbv zeta. rewrite !fold_skip. reflexivity. Qed.

Section Absent.
  Context {F : Type} {NF : Num F} {TF : Trig F}.
  Lemma counter_length (l : list (sample F)) : forall tc tc', mfold count_sample l tc = Val tc' ->
    forall t, (vlen tc <= t)%N -> (forall m, In m l -> (nusize (sm_type m) + 2 <= t)%N) -> (vlen tc' <= t)%N.
  Proof.
    induction l as [|m l IH]; intros tc tc' E t Ht Hl; cbn [mfold] in E; [injection E as <-; exact Ht|].
    apply bind_val in E. destruct E as [t1 [E1 E]]. apply (IH t1 tc' E); [|intros k Hk; apply Hl; now right].
    specialize (Hl m (or_introl eq_refl)). unfold count_sample, count_type in E1. destruct (usize_modulus <=? nusize (sm_type m) + 2)%N; [discriminate|].
    apply bind_val in E1. destruct E1 as [n [_ E1]]. destruct (vset_val _ _ _ _ E1) as [_ [-> _]].
    destruct (N.leb_spec (vlen tc) (nusize (sm_type m))); [|exact Ht]. unfold vlen in *. rewrite app_length, repeat_length. lia.
  Qed.
  (** A timestep in which every accepted particle has a type at least 2 below one of the asked types makes the whole call panic. *)
  Theorem c83_absent_type (bld : build) (M : mgr F) d L (g : grid F) s ta tb t thr x :
    recorded M d L -> sel_ok s -> In x (removelast L) -> timestep_valid s (ts_time x) = true -> t = ta \/ t = tb ->
    (forall m, In m (observed s [x]) -> (nusize (sm_type m) + 2 <= t)%N) -> lacey_mixing bld M d g s ta tb thr = Panic.
  Proof.
    intros [[Nt [Inv [I Get]]] [Nem Rc]] Sk Hx V Ht Hl.
    destruct (lacey_mixing bld M d g s ta tb thr) as [[d' [tm mx]]|] eqn:E; [exfalso|reflexivity].
    unfold lacey_mixing in E. rewrite Nt in E. rewrite usub_ge in E by (destruct L; [contradiction | unfold vlen; cbn; lia]). cbn [bind] in E.
    rewrite <- vlen_removelast in E. set (zs := repeat n0 (N.to_nat (vlen (removelast L)))) in E.
    assert (Q := series_sound M s (lacey_step bld g s ta tb thr) Inv L Get (removelast L) 0 d zs zs d' tm mx).
    rewrite N.add_0_l in Q. destruct Q as [_ [_ [_ [_ H]]]].
    - intros i y Hi. rewrite N.add_0_l. now apply at_removelast.
    - exact I.
    - exact E.
    - apply In_nth_error in Hx. destruct Hx as [n Hn]. specialize (H (N.of_nat n) x). unfold at_ in H. rewrite Nnat.Nat2N.id in H. specialize (H Hn). rewrite V in H.
      destruct H as [_ [v [Ev _]]].
      assert (R : rect x). { assert (Q := Forall_removelast _ _ Rc). rewrite Forall_forall in Q. apply Q. eapply nth_error_In, Hn. }
      unfold lacey_step in Ev. apply bind_val in Ev. destruct Ev as [[tc [a b]] [E1 E2]].
      apply lacey_counts_spec in E1; [|exact R|exact Sk]. rewrite (accepted_observed s x R V) in E1. destruct E1 as [C1 _].
      assert (Q := counter_length _ _ _ C1 t ltac:(unfold vlen; cbn; lia) Hl).
      apply bind_val in E2. destruct E2 as [ca [Ea E2]]. apply bind_val in E2. destruct E2 as [cb [Eb _]].
      apply vget_lt_inv in Ea, Eb. destruct Ht as [->| ->]; lia.
  Qed.
End Absent.

(** Types 1 and 2 are recorded; 4 is asked for. *)
Example c83_absent_case {TF : Trig f64} : recorded (list_mgr lacey_data (ex_stats 2)) tt lacey_data /\
  exists x, In x (removelast lacey_data) /\ timestep_valid (sel_default (F := f64)) (ts_time x) = true /\
    observed sel_default [x] <> [] /\ forall m, In m (observed sel_default [x]) -> (nusize (sm_type m) + 2 <= 4)%N.
Proof.
  split; [apply list_recorded; [discriminate | repeat constructor | reflexivity]|].
  eexists. split; [left; reflexivity|]. split; [vm_compute; reflexivity|]. split; [intros E; apply (f_equal (@List.length _)) in E; vm_compute in E; discriminate E|].
  intros m Hm. assert (Q : forallb (fun m => nusize (sm_type m) + 2 <=? 4)%N (observed sel_default [nth 0 lacey_data (ts_default (F := f64))]) = true) by (vm_compute; reflexivity).
  rewrite forallb_forall in Q. apply N.leb_le. now apply Q.
Qed.

(** ** C84: landing on the boundary *)
From Verif Require Import FunCirc.
(** Doubles: a move that starts or ends on the boundary is never a crossing. *)
Theorem c84_landing_missed (axis : N) (b : f64) (mm : sample f64 * sample f64) p q :
  v3get (sm_pos (snd mm)) axis = Val p -> v3get (sm_pos (fst mm)) axis = Val q -> p = b \/ q = b -> crossing axis b mm = false.
Proof.
  intros Hp Hq H. destruct (crossing axis b mm) eqn:E; [|reflexivity]. exfalso.
  assert (I : forall x : f64, Bltb x x = true -> False).
  { intros x Hx. destruct x as [s|s| |s m e Hb]; try (cbn in Hx; congruence); [destruct s; cbn in Hx; congruence|].
    rewrite Bltb_R in Hx by reflexivity. lra. }
  destruct (c47_crossing_sound axis b mm E) as [p' [q' [Ep [Eq H']]]]. rewrite Hp in Ep. rewrite Hq in Eq.
  assert (p' = p) by congruence. assert (q' = q) by congruence. subst p' q'.
  destruct H as [->| ->], H' as [[A B]|[A B]]; eauto.
Qed.

(** ** C98: the diagonal of a vector parity plot *)
From Verif Require Import PyModel PlotModel PlotProofs PropertiesPlot PropertiesMap PropertiesParity.
(** It spans the numbers of the two first components, whatever the others hold. *)
Theorem c98_first_component {TF : Trig f64} {WF : Wave f64} (v w : vgrid f64) a s : wf_grid (vg0 v) -> wf_grid (vg0 w) ->
  (exists x, values_of (vg0 v) x) -> (exists x, values_of (vg0 w) x) ->
  parity_plot (FVector v) (FVector w) a = Val (Some s) ->
  exists lo hi, diagonal s lo hi /\ (values_of (vg0 v) lo \/ values_of (vg0 w) lo) /\ (values_of (vg0 v) hi \/ values_of (vg0 w) hi) /\
    forall x, values_of (vg0 v) x \/ values_of (vg0 w) x -> Bleb lo x = true /\ Bleb x hi = true.
Proof.
  set (g := vg0 v). set (h := vg0 w). intros Wg Wh [x Hx] [y Hy] H.
  assert (E : exists l m, s = create_parity_scatter (pp_of (data g) (data h) l m)).
  { unfold parity_plot in H. destruct (negb _); [discriminate|]. destruct (usize_arg (a_index a)) as [idx|]; [|discriminate]. cbv zeta in H.
    apply bind_val in H. destruct H as [p [H E]]. injection E as <-. destruct (String.eqb _ _).
    - apply bind_val in H. destruct H as [u [_ H]]. apply bind_val in H. destruct H as [t [_ H]]. injection H as <-. eauto.
    - apply bind_val in H. destruct H as [k [_ H]]. apply bind_val in H. destruct H as [u [_ H]]. apply bind_val in H. destruct H as [t [_ H]].
      injection H as <-. eauto. }
  destruct E as [l [m ->]].
  destruct (pp_range (data g) (data h) l m) as [E1 [E2 [[L1 L2] [H1 H2]]]];
    [intros E; apply (numbers_values g x Wg) in Hx; now rewrite E in Hx | intros E; apply (numbers_values h y Wh) in Hy; now rewrite E in Hy|].
  revert E1 E2 L1 L2 H1 H2. generalize (pp_of (data g) (data h) l m). intros p E1 E2 L1 L2 H1 H2.
  exists (pp_xmin p), (pp_xmax p). unfold diagonal, create_parity_scatter. cbn [fst]. rewrite <- E1, <- E2. split; [reflexivity|].
  apply in_app_or in L1, H1. rewrite !numbers_values in L1, H1 by assumption. split; [exact L1|]. split; [exact H1|].
  intros z Hz. rewrite <- !numbers_values in Hz by assumption. apply in_or_app in Hz. auto.
Qed.
