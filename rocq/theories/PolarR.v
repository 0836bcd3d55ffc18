(** * Cylindrical lookup in true polar coordinates (C20, C21)
    The oracle [Trig] of the model is instantiated by the real PI and the real two-argument
    arctangent, so the statements below speak about cos, sin and PI of Coq's real numbers only. *)
From Coq Require Import Reals List NArith ZArith Lia Lra Psatz Bool.
From Verif Require Import Base BaseFacts Num RFacts NDArray GridModel GridSpec GridFacts
  CartProofs CartR GridOps GridR CylProofs PropertiesGrid PropertiesCyl.
Local Open Scope R_scope.

(** f64::atan2 in exact arithmetic: the angle of the point (x, y), in (-PI, PI]. *)
Definition Ratan2 (y x : R) : R :=
  if Rlt_dec 0 x then atan (y / x)
  else if Rlt_dec x 0 then (if Rle_dec 0 y then atan (y / x) + PI else atan (y / x) - PI)
  else if Rlt_dec 0 y then PI / 2 else if Rlt_dec y 0 then - (PI / 2) else 0.
#[local] Instance trig_R : Trig R := {| natan2 := Ratan2; npi := PI |}.

Lemma atan_polar (x y : R) : 0 < x -> let r := sqrt (x * x + y * y) in
  r * cos (atan (y / x)) = x /\ r * sin (atan (y / x)) = y.
Proof.
  intros Hx r. assert (Hr : 0 < x * x + y * y) by nra.
  assert (E : sqrt (1 + (y / x)²) = r / x).
  { replace (1 + (y / x)²) with ((x * x + y * y) / (x * x)) by (unfold Rsqr; field; lra).
    rewrite sqrt_div_alt by nra. rewrite (sqrt_square x) by lra. reflexivity. }
  assert (Pr : 0 < r) by (apply sqrt_lt_R0; exact Hr).
  rewrite cos_atan, sin_atan, E. split; field; lra.
Qed.
Lemma Ratan2_range y x : - PI < Ratan2 y x <= PI.
Proof.
  assert (P := PI_RGT_0). unfold Ratan2.
  destruct (Rlt_dec 0 x); [assert (A := atan_bound (y / x)); lra|].
  destruct (Rlt_dec x 0) as [Lx|].
  - destruct (Rle_dec 0 y) as [Ly|Ly]; assert (A := atan_bound (y / x)).
    + assert (Q : y / x <= 0) by (unfold Rdiv; apply Rinv_lt_0_compat in Lx; nra).
      assert (atan (y / x) <= 0); [|lra]. rewrite <- atan_0. destruct Q as [Q|Q]; [left; now apply atan_increasing | rewrite Q; lra].
    + assert (Q : 0 < y / x) by (unfold Rdiv; apply Rinv_lt_0_compat in Lx; nra).
      assert (0 < atan (y / x)); [|lra]. rewrite <- atan_0. now apply atan_increasing.
  - destruct (Rlt_dec 0 y); [lra|]. destruct (Rlt_dec y 0); lra.
Qed.
Lemma Ratan2_polar y x : let r := sqrt (x * x + y * y) in r * cos (Ratan2 y x) = x /\ r * sin (Ratan2 y x) = y.
Proof.
  intros r. unfold Ratan2. destruct (Rlt_dec 0 x) as [Lx|Nx]; [now apply atan_polar|].
  destruct (Rlt_dec x 0) as [Lx|Nx'].
  - assert (Q : y / x = (- y) / (- x)) by (field; lra).
    destruct (atan_polar (- x) (- y)) as [A B]; [lra|]. rewrite <- Q in A, B.
    replace (- x * - x + - y * - y) with (x * x + y * y) in A, B by ring. fold r in A, B.
    destruct (Rle_dec 0 y); [rewrite neg_cos, neg_sin; lra|].
    rewrite cos_minus, sin_minus, cos_PI, sin_PI. lra.
  - assert (x = 0) by lra. subst x. destruct (Rlt_dec 0 y).
    + assert (Er : r = y) by (unfold r; replace (0 * 0 + y * y) with (y * y) by ring; now apply sqrt_square; lra).
      rewrite cos_PI2, sin_PI2, Er. lra.
    + destruct (Rlt_dec y 0).
      * assert (Er : r = - y) by (unfold r; replace (0 * 0 + y * y) with (- y * - y) by ring; now apply sqrt_square; lra).
        rewrite cos_neg, sin_neg, cos_PI2, sin_PI2, Er. lra.
      * assert (y = 0) by lra. subst y. assert (Er : r = 0) by (unfold r; replace (0 * 0 + 0 * 0) with 0 by ring; apply sqrt_0).
        rewrite Er. lra.
Qed.
Lemma angle_unique (a b : R) : - PI < a <= PI -> - PI < b <= PI -> cos a = cos b -> sin a = sin b -> a = b.
Proof.
  intros Ha Hb C S. assert (P := PI_RGT_0).
  assert (H : forall a b, - PI < a <= PI -> - PI < b <= PI -> a <= b -> cos a = cos b -> sin a = sin b -> a = b).
  { clear. intros a b Ha Hb L C S. assert (P := PI_RGT_0).
    assert (E1 : cos (b - a) = 1) by (rewrite cos_minus, C, S; assert (T := sin2_cos2 b); unfold Rsqr in T; lra).
    destruct (Rle_lt_dec (b - a) PI) as [Le|Gt].
    - destruct (Req_dec (b - a) 0) as [Z|Nz]; [lra|].
      assert (cos (b - a) < cos 0); [|rewrite cos_0 in *; lra]. apply cos_decreasing_1; lra.
    - assert (E2 : cos (b - a) = cos (2 * PI - (b - a))).
      { replace (2 * PI - (b - a)) with (- (b - a) + 2 * INR 1 * PI) by (cbn [INR]; ring). rewrite cos_period. now rewrite cos_neg. }
      assert (cos (2 * PI - (b - a)) < cos 0); [|rewrite cos_0 in *; lra]. apply cos_decreasing_1; lra. }
  destruct (Rle_lt_dec a b); [now apply H | symmetry; apply H; auto; lra].
Qed.

(** A position at distance [r] from the axis of the cylinder inscribed around the limits, in the
    direction [theta] seen from the axis, at height [z]. *)
Definition around_axis (x0 x1 y0 y1 r theta z : R) : pos3 R :=
  ((x0 + x1) / 2 + r * cos theta, (y0 + y1) / 2 + r * sin theta, z).
(** The rule for angles and heights: cell [t] is the one whose interval holds the value; the code
    names it, or the one before it if the value is in the lower half of the interval. *)
Definition half_shifted (n : N) (lo h v : R) (i : N) : Prop :=
  forall t, (t < n)%N -> lo + NR t * h <= v < lo + (NR t + 1) * h ->
    (t = 0%N -> i = 0%N) /\
    ((0 < t)%N -> v <= lo + NR t * h + h / 2 -> i = (t - 1)%N) /\
    ((0 < t)%N -> lo + NR t * h + h / 2 < v -> i = t).

Lemma NR_INR n : NR n = INR (N.to_nat n).
Proof. unfold NR. now rewrite INR_IZR_INZ, N_nat_Z. Qed.

Lemma shifted_half n lo h v i : shifted (N.to_nat n) lo h v i -> half_shifted n lo h v (N.of_nat i).
Proof.
  intros S t Ht Hv. specialize (S (N.to_nat t) ltac:(lia)). rewrite <- NR_INR in S. specialize (S Hv).
  destruct (Nat.eqb_spec (N.to_nat t) 0) as [Z|Nz].
  - repeat split; intros; lia.
  - split; [lia|]. destruct (Rle_dec (v - (lo + NR t * h)) (h / 2)); split; intros; try lra; lia.
Qed.

(** C20 and C21. *)
Theorem c21_lookup (bld : build) (nr no nz : N) x0 x1 y0 y1 z0 z1 (g : grid R) (r theta z : R) :
  (1 <= nr)%N -> (1 <= no)%N -> (1 <= nz)%N -> x0 < x1 -> y0 < y1 -> z0 < z1 ->
  cyl_new (nr, no, nz) (ThreeD ((x0, x1), (y0, y1), (z0, z1))) true = Val g ->
  let radius := Rmax ((x1 - x0) / 2) ((y1 - y0) / 2) in
  let p := around_axis x0 x1 y0 y1 r theta z in
  0 < r -> - PI < theta <= PI ->
  (is_inside g p = true <-> r <= radius /\ z0 <= z <= z1) /\
  (r <= radius ->
   exists i j k, cell_id bld g p = Val (Some (i, j, k)) /\ (i < nr /\ j < no /\ k < nz)%N /\
     radius * sqrt (NR i / NR nr) <= r <= radius * sqrt ((NR i + 1) / NR nr) /\
     half_shifted no (- PI) (2 * PI / NR no) theta j /\
     half_shifted nz z0 ((z1 - z0) / NR nz) z k).
Proof.
  intros Hr Ho Hz Hx Hy Hzz E radius p Pr Th. assert (Ppi := PI_RGT_0).
  destruct (cyl_new_val _ _ _ _ _ _ _ _ E) as [y [G [Cc [Ra [Rr [Rm [Eo [Ez [Ce [El _]]]]]]]]]].
  rewrite !half_extent_R in Ra by assumption. fold radius in Ra.
  destruct (c20_cell_found (TF := trig_R) bld nr no nz x0 x1 y0 y1 z0 z1 g p Ppi Hr Ho Hz Hx Hy Hzz E) as [y' [G' H]].
  rewrite G in G'. injection G' as <-.
  assert (D : axis_distance y p = r).
  { unfold axis_distance, p, around_axis. rewrite Ce.
    replace ((x0 + x1) / 2 + r * cos theta - (x0 + x1) / 2) with (r * cos theta) by ring.
    replace ((y0 + y1) / 2 + r * sin theta - (y0 + y1) / 2) with (r * sin theta) by ring.
    assert (T := sin2_cos2 theta). unfold Rsqr in T.
    replace (r * cos theta * (r * cos theta) + r * sin theta * (r * sin theta)) with (r * r) by nra. now apply sqrt_square; lra. }
  assert (A : to_cylindrical y p = (r, theta, z)).
  { unfold to_cylindrical, p, around_axis. rewrite Ce. unfold axis_distance, p, around_axis in D. rewrite Ce in D.
    cbn [nsqrt nadd nsub nmul num_R natan2 trig_R]. change (@ndiv R num_R) with Rdiv in *. rewrite D.
    replace ((x0 + x1) / 2 + r * cos theta - (x0 + x1) / 2) with (r * cos theta) in * by ring.
    replace ((y0 + y1) / 2 + r * sin theta - (y0 + y1) / 2) with (r * sin theta) in * by ring.
    f_equal. f_equal. destruct (Ratan2_polar (r * sin theta) (r * cos theta)) as [C S]. rewrite D in C, S.
    apply angle_unique; [apply Ratan2_range | exact Th | | ]; eapply Rmult_eq_reg_l; try eassumption; lra. }
  split.
  - unfold is_inside. rewrite G. cbn [geom_inside]. unfold cyl_inside. rewrite A, El, Ra. unfold in_interval. cbn [fst snd].
    rewrite !andb_true_iff, !Rleb_true. cbn [npi trig_R]. split; [tauto|]. intros [B C].
    repeat split; try tauto; try lra.
  - intros Le. destruct H as [i [j [k [a [b [Ec [Hi [Hj [Hk [Hn [Hab [Sj Sk]]]]]]]]]]]]; [rewrite D, Ra; exact Le|].
    rewrite D in Hab. rewrite A in Sj. cbn [fst snd] in Sj.
    exists (N.of_nat i), (N.of_nat j), (N.of_nat k). split; [exact Ec|]. split; [lia|]. split; [|split; [now apply shifted_half | now apply shifted_half]].
    assert (Pn : 0 < NR nr) by (assert (Q := NR_pos nr Hr); lra).
    assert (PR : 0 < radius) by (unfold radius; assert (Q := Rmax_l ((x1 - x0) / 2) ((y1 - y0) / 2)); lra).
    rewrite Rr in Hn. cbn [fst snd] in Hn. rewrite (cyl_rings_0 (yc_radius y * yc_radius y / NR nr) (N.to_nat nr) i) in Hn; [|apply Rlt_le, Rdiv_lt_0_compat; [rewrite Ra; nra | exact Pn]|exact Hi].
    injection Hn as <- <-. rewrite Ra in Hab. rewrite plus_INR in Hab. cbn [INR] in Hab.
    rewrite NR_INR, Nnat.Nat2N.id.
    assert (Sq : forall q, 0 <= q -> sqrt (q * (radius * radius / NR nr)) = radius * sqrt (q / NR nr)).
    { intros q Hq. replace (q * (radius * radius / NR nr)) with (radius * radius * (q / NR nr)) by (field; lra).
      rewrite sqrt_mult_alt by nra. rewrite sqrt_square by lra. reflexivity. }
    rewrite !Sq in Hab by (assert (Q := pos_INR i); lra). exact Hab.
Qed.
Example c21_case : after (cyl_new (2, 4, 2)%N (ThreeD ((-1, 1), (-1, 1), (0, 1))) true) (fun g =>
  is_inside g (1 / 2, 0, 1 / 4) = true /\ around_axis (-1) 1 (-1) 1 (1 / 2) 0 (1 / 4) = (1 / 2, 0, 1 / 4)).
Proof.
  destruct (cyl_new (2, 4, 2)%N (ThreeD ((-1, 1), (-1, 1), (0, 1))) true) as [g|] eqn:E; [|discriminate]. cbn [after].
  assert (A : around_axis (-1) 1 (-1) 1 (1 / 2) 0 (1 / 4) = (1 / 2, 0, 1 / 4)).
  { unfold around_axis. rewrite cos_0, sin_0. replace ((-1 + 1) / 2 + 1 / 2 * 1) with (1 / 2) by lra. replace ((-1 + 1) / 2 + 1 / 2 * 0) with 0 by lra. reflexivity. }
  assert (P := PI_RGT_0).
  destruct (c21_lookup Release 2 4 2 (-1) 1 (-1) 1 0 1 g (1 / 2) 0 (1 / 4)) as [H _]; try lia; try lra; [exact E|].
  rewrite A in H. split; [|exact A]. apply H. rewrite Rmax_left by lra. lra.
Qed.
