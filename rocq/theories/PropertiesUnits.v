(** * PropertiesUnits: exact changes of unit and origin in doubles (C160)

    Numbers changed to [2^j * x + b], each new number being exactly a double: cells, counts are the same. *)
From Coq Require Import Reals List NArith ZArith Lia Lra Psatz Bool String ZifyBool ZifyN ZifyNat.
From Flocq Require Import Core.Core Plus_error IEEE754.BinarySingleNaN.
From Verif Require Import Base BaseFacts Num RFacts F64Facts NDArray GridModel GridSpec GridFacts CartProofs CartR GridOps
  SelModel DataModel DataSpec DataProofs DataLoad PropertiesGrid PropertiesData FunModel FunSpec FunProofs FunMgr FunField PropertiesFun PropertiesParts.
Import ListNotations.
Local Open Scope R_scope.

(** [y] is the double [2^j * x + b]. *)
Definition changed (j : Z) (b : R) (x y : f64) : Prop :=
  is_finite x = true /\ is_finite y = true /\ B2R y = bpow radix2 j * B2R x + b.

Lemma fix_B2R (x : f64) : exists m, B2R x = IZR m * bpow radix2 (-1074).
Proof.
  assert (H : FIX_format radix2 (-1074) (B2R x)).
  { apply FIX_format_generic. apply (generic_format_FIX_FLT radix2 (-1074) 53). exact (fmt_B2R x). }
  destruct H as [[m e] E Ee]. cbn in Ee. exists m. rewrite E. unfold F2R. cbn [Fnum Fexp]. now rewrite Ee.
Qed.
Lemma fix_sub (x y : f64) : exists m, B2R x - B2R y = IZR m * bpow radix2 (-1074).
Proof.
  destruct (fix_B2R x) as [a ->]. destruct (fix_B2R y) as [b ->]. exists (a - b)%Z. rewrite minus_IZR. ring.
Qed.
(** A small multiple of the smallest double is a double. *)
Lemma fmt_tiny (m : Z) j : (0 <= j)%Z -> (Z.abs m <= 2 ^ 53)%Z -> rnd (IZR m * bpow radix2 (j - 1074)) = IZR m * bpow radix2 (j - 1074).
Proof.
  intros Hj Hm. apply rnd_fmt. destruct (Z_lt_le_dec (Z.abs m) (2 ^ 53)) as [L|L].
  - apply (generic_format_FLT radix2 (-1074) 53). exists (Float radix2 m (j - 1074)); [reflexivity | exact L | cbn; lia].
  - assert (E : m = (2 ^ 53)%Z \/ m = (- 2 ^ 53)%Z) by lia.
    apply (generic_format_FLT radix2 (-1074) 53). destruct E as [-> | ->].
    + exists (Float radix2 (2 ^ 52) (j - 1073)); [|reflexivity | cbn; lia].
      unfold F2R. cbn [Fnum Fexp]. replace (j - 1073)%Z with (1 + (j - 1074))%Z by ring. rewrite bpow_plus. change (bpow radix2 1) with 2.
      rewrite <- Rmult_assoc. f_equal. rewrite <- mult_IZR. reflexivity.
    + exists (Float radix2 (- 2 ^ 52) (j - 1073)); [|reflexivity | cbn; lia].
      unfold F2R. cbn [Fnum Fexp]. replace (j - 1073)%Z with (1 + (j - 1074))%Z by ring. rewrite bpow_plus. change (bpow radix2 1) with 2.
      rewrite <- Rmult_assoc. f_equal. rewrite <- mult_IZR. reflexivity.
Qed.
(** Rounding commutes with powers of two, for numbers that are multiples of the smallest double. *)
Lemma rnd_scale_up (m j : Z) : (0 <= j)%Z ->
  rnd (bpow radix2 j * (IZR m * bpow radix2 (-1074))) = bpow radix2 j * rnd (IZR m * bpow radix2 (-1074)).
Proof.
  intros Hj. destruct (Z_le_gt_dec (Z.abs m) (2 ^ 53)) as [L|L].
  - assert (E0 := fmt_tiny m 0 ltac:(lia) L). replace (0 - 1074)%Z with (-1074)%Z in E0 by ring. rewrite E0.
    replace (bpow radix2 j * (IZR m * bpow radix2 (-1074))) with (IZR m * bpow radix2 (j - 1074)) by (replace (j - 1074)%Z with (j + -1074)%Z by ring; rewrite bpow_plus; ring).
    rewrite (fmt_tiny m j Hj L). replace (j - 1074)%Z with (j + -1074)%Z by ring. rewrite bpow_plus. ring.
  - set (t := IZR m * bpow radix2 (-1074)).
    assert (Big : bpow radix2 (-1021) <= Rabs t).
    { unfold t. rewrite Rabs_mult, (Rabs_pos_eq (bpow _ _)) by apply bpow_ge_0. replace (-1021)%Z with (53 + -1074)%Z by ring. rewrite bpow_plus.
      apply Rmult_le_compat_r; [apply bpow_ge_0|]. rewrite <- abs_IZR. change (bpow radix2 53) with (IZR (2 ^ 53)). apply IZR_le. lia. }
    assert (Nz : t <> 0) by (intros Z; rewrite Z, Rabs_R0 in Big; generalize (bpow_gt_0 radix2 (-1021)); lra).
    assert (Mg : (-1021 < mag radix2 t)%Z) by (apply mag_gt_bpow; exact Big).
    assert (Ce : cexp radix2 fexp64 (bpow radix2 j * t) = (cexp radix2 fexp64 t + j)%Z).
    { unfold cexp. rewrite Rmult_comm, mag_mult_bpow by exact Nz. unfold SpecFloat.fexp, SpecFloat.emin. lia. }
    unfold rnd, round, F2R, scaled_mantissa. cbn [Fnum Fexp]. rewrite Ce.
    replace (bpow radix2 j * t * bpow radix2 (- (cexp radix2 fexp64 t + j))) with (t * bpow radix2 (- cexp radix2 fexp64 t)).
    + rewrite bpow_plus. ring.
    + rewrite Z.opp_add_distr, bpow_plus. transitivity (t * bpow radix2 (- cexp radix2 fexp64 t) * (bpow radix2 j * bpow radix2 (- j))); [|ring].
      rewrite <- bpow_plus, Z.add_opp_diag_r. cbn [bpow]. ring.
Qed.
(** Differences are rounded alike before and after the change. *)
Lemma rnd_diff j b (x x' y y' : f64) : changed j b x x' -> changed j b y y' ->
  rnd (B2R x' - B2R y') = bpow radix2 j * rnd (B2R x - B2R y).
Proof.
  intros [_ [_ Ex]] [_ [_ Ey]].
  assert (E : B2R x' - B2R y' = bpow radix2 j * (B2R x - B2R y)) by (rewrite Ex, Ey; ring).
  destruct (Z_le_gt_dec 0 j) as [Hj|Hj].
  - rewrite E. destruct (fix_sub x y) as [m ->]. now apply rnd_scale_up.
  - assert (E' : B2R x - B2R y = bpow radix2 (- j) * (B2R x' - B2R y')).
    { rewrite E, <- Rmult_assoc, <- bpow_plus. replace (- j + j)%Z with 0%Z by ring. cbn [bpow]. ring. }
    rewrite E'. destruct (fix_sub x' y') as [m ->]. rewrite (rnd_scale_up m (- j)) by lia.
    rewrite <- Rmult_assoc, <- bpow_plus. replace (j + - j)%Z with 0%Z by ring. cbn [bpow]. ring.
Qed.
Lemma rnd_pos (x y : f64) : B2R y < B2R x -> 0 < rnd (B2R x - B2R y).
Proof.
  intros H. destruct (fix_sub x y) as [m E]. assert (Hm : (1 <= m)%Z).
  { assert (0 < IZR m) by (generalize (bpow_gt_0 radix2 (-1074)); nra). apply (lt_IZR 0) in H0. lia. }
  apply Rlt_le_trans with (bpow radix2 (-1074)); [apply bpow_gt_0|].
  rewrite <- (rnd_fmt (bpow radix2 (-1074))).
  - apply rnd_mono. rewrite E. apply IZR_le in Hm. generalize (bpow_gt_0 radix2 (-1074)). nra.
  - apply (generic_format_FLT radix2 (-1074) 53). exists (Float radix2 1 (-1074)); [unfold F2R; cbn [Fnum Fexp]; ring | reflexivity | reflexivity].
Qed.

(** The cell number of one axis, when the width of the grid is a finite double. *)
Lemma axis_index_val (lo hi p : f64) (n : Z) : (0 <= n <= 2 ^ 53)%Z ->
  is_finite lo = true -> is_finite hi = true -> is_finite p = true -> B2R lo <= B2R p <= B2R hi -> B2R lo < B2R hi ->
  is_finite (Bminus mode_NE hi lo) = true ->
  axis_index lo hi p n = Z.to_N (Z.min usize_max (Ztrunc (axis_real (B2R lo) (B2R hi) (B2R p) n))).
Proof.
  intros Hn Fl Fh Fp Hp Hl Fin. destruct (of_Z_correct n ltac:(lia)) as [On Fn].
  destruct (minus_cases hi lo Fh Fl ltac:(lra)) as [[_ [FB EB]] | [_ X]]; [|rewrite X in Fin; discriminate].
  assert (Mo : 0 <= rnd (B2R p - B2R lo) <= rnd (B2R hi - B2R lo)) by (split; [apply rnd_nonneg; lra | apply rnd_mono; lra]).
  assert (Ps := rnd_pos hi lo Hl).
  destruct (minus_cases p lo Fp Fl ltac:(lra)) as [[_ [FA EA]] | [Ov _]].
  2:{ exfalso. destruct (minus_cases hi lo Fh Fl ltac:(lra)) as [[O _] | [_ X]]; [lra | rewrite X in Fin; discriminate]. }
  destruct (div_unit (Bminus mode_NE p lo) (Bminus mode_NE hi lo) FA) as [FD [ED QD]]; [rewrite EA, EB; exact Mo | rewrite EB; exact Ps|].
  rewrite <- ED in QD.
  destruct (mul_unit _ (f64_of_Z n) n FD Fn QD On Hn) as [FM [EM _]].
  unfold axis_index. rewrite (to_usize_finite _ FM), EM, ED, EA, EB. reflexivity.
Qed.
Lemma axis_changed j b (lo lo' hi hi' p p' : f64) n : (0 <= n <= 2 ^ 53)%Z ->
  changed j b lo lo' -> changed j b hi hi' -> changed j b p p' -> B2R lo <= B2R p <= B2R hi -> B2R lo < B2R hi ->
  is_finite (Bminus mode_NE hi lo) = true -> is_finite (Bminus mode_NE hi' lo') = true ->
  axis_index lo' hi' p' n = axis_index lo hi p n.
Proof.
  intros Hn Cl Ch Cp Hp Hl F1 F2. assert (Dp := rnd_diff j b p p' lo lo' Cp Cl). assert (Dh := rnd_diff j b hi hi' lo lo' Ch Cl).
  destruct Cl as [Fl [Fl' El]], Ch as [Fh [Fh' Eh]], Cp as [Fp [Fp' Ep]].
  assert (Bj := bpow_gt_0 radix2 j).
  rewrite (axis_index_val lo hi p n) by assumption.
  rewrite (axis_index_val lo' hi' p' n); try assumption; [| rewrite El, Ep, Eh; nra | rewrite El, Eh; nra].
  assert (E : axis_real (B2R lo') (B2R hi') (B2R p') n = axis_real (B2R lo) (B2R hi) (B2R p) n).
  { unfold axis_real. rewrite Dp, Dh. assert (Ps := rnd_pos hi lo Hl).
    replace (bpow radix2 j * rnd (B2R p - B2R lo) / (bpow radix2 j * rnd (B2R hi - B2R lo))) with (rnd (B2R p - B2R lo) / rnd (B2R hi - B2R lo)); [reflexivity|].
    field. split; lra. }
  now rewrite E.
Qed.
Lemma changed_le j b (x x' y y' : f64) : changed j b x x' -> changed j b y y' -> Bleb x' y' = Bleb x y.
Proof.
  intros [Fx [Fx' Ex]] [Fy [Fy' Ey]]. assert (Bj := bpow_gt_0 radix2 j). apply eq_true_iff_eq.
  rewrite (Bleb_R x' y' Fx' Fy'), (Bleb_R x y Fx Fy), Ex, Ey. nra.
Qed.

(** Positions, limits and recordings changed axis by axis: [u] gives the [j] and the [b] of each axis. *)
Definition unit3 : Type := ((Z * R) * (Z * R) * (Z * R))%type.
Definition changed3 (u : unit3) (p q : v3 f64) : Prop :=
  let '(u0, u1, u2) := u in let '(p0, p1, p2) := p in let '(q0, q1, q2) := q in
  changed (fst u0) (snd u0) p0 q0 /\ changed (fst u1) (snd u1) p1 q1 /\ changed (fst u2) (snd u2) p2 q2.
(** A position is changed, or has a NaN before and after. *)
Definition pos_changed (u : unit3) (p q : v3 f64) : Prop := changed3 u p q \/ (nan3 p = true /\ nan3 q = true).
Definition low (l : lims f64) : v3 f64 := let '(l0, l1, l2) := l in (fst l0, fst l1, fst l2).
Definition high (l : lims f64) : v3 f64 := let '(l0, l1, l2) := l in (snd l0, snd l1, snd l2).
(** The limits are in order and the widths of the grid are finite doubles. *)
Definition broad (l : lims f64) : Prop :=
  let '(l0, l1, l2) := l in
  (B2R (fst l0) < B2R (snd l0) /\ B2R (fst l1) < B2R (snd l1) /\ B2R (fst l2) < B2R (snd l2)) /\
  is_finite (Bminus mode_NE (snd l0) (fst l0)) = true /\ is_finite (Bminus mode_NE (snd l1) (fst l1)) = true /\ is_finite (Bminus mode_NE (snd l2) (fst l2)) = true.
(** The same recording with its positions changed. *)
Definition ts_changed (u : unit3) (x y : timestep f64) : Prop :=
  Forall2 (pos_changed u) (ts_pos x) (ts_pos y) /\ ts_time y = ts_time x /\ ts_vel y = ts_vel x /\ ts_radius y = ts_radius x /\
  ts_id y = ts_id x /\ ts_clouds y = ts_clouds x /\ ts_density y = ts_density x /\ ts_type y = ts_type x.

Lemma inside_changed (u : unit3) cells xs ys zs xs' ys' zs' (l l' : lims f64) p q : changed3 u (low l) (low l') -> changed3 u (high l) (high l') ->
  pos_changed u p q -> cart_inside (mkCart cells xs' ys' zs' l') q = cart_inside (mkCart cells xs ys zs l) p.
Proof.
  intros Lo Hi [C | [N1 N2]].
  - destruct u as [[u0 u1] u2], l as [[l0 l1] l2], l' as [[k0 k1] k2], p as [[p0 p1] p2], q as [[q0 q1] q2].
    destruct Lo as [A0 [A1 A2]], Hi as [B0 [B1 B2]], C as [C0 [C1 C2]].
    unfold cart_inside. cbn [cc_lim]. cbn [nisnan num_f64].
    assert (Nn : forall x : f64, is_finite x = true -> is_nan x = false) by (intros [| | |]; auto; discriminate).
    rewrite (Nn p0 (proj1 C0)), (Nn p1 (proj1 C1)), (Nn p2 (proj1 C2)), (Nn q0 (proj1 (proj2 C0))), (Nn q1 (proj1 (proj2 C1))), (Nn q2 (proj1 (proj2 C2))).
    cbn [orb]. unfold in_interval. cbn [nleb num_f64].
    rewrite (changed_le _ _ _ _ _ _ A0 C0), (changed_le _ _ _ _ _ _ A1 C1), (changed_le _ _ _ _ _ _ A2 C2).
    now rewrite (changed_le _ _ _ _ _ _ C0 B0), (changed_le _ _ _ _ _ _ C1 B1), (changed_le _ _ _ _ _ _ C2 B2).
  - unfold cart_inside. destruct l as [[l0 l1] l2], l' as [[k0 k1] k2], p as [[p0 p1] p2], q as [[q0 q1] q2]. cbn [cc_lim].
    cbn [nan3] in N1, N2. now rewrite N1, N2.
Qed.
Theorem c160_same_cell (bld : build) (u : unit3) cells xs ys zs xs' ys' zs' (l l' : lims f64) p q :
  sized cells -> changed3 u (low l) (low l') -> changed3 u (high l) (high l') -> broad l -> broad l' -> pos_changed u p q ->
  cart_cell_id bld (mkCart cells xs' ys' zs' l') q = cart_cell_id bld (mkCart cells xs ys zs l) p.
Proof.
  intros Sz Lo Hi Br Br' C. assert (In := inside_changed u cells xs ys zs xs' ys' zs' l l' p q Lo Hi C).
  unfold cart_cell_id. rewrite In. destruct (cart_inside (mkCart cells xs ys zs l) p) eqn:E; [|reflexivity]. clear In.
  destruct u as [[u0 u1] u2], l as [[[a0 b0] [a1 b1]] [a2 b2]], l' as [[[a0' b0'] [a1' b1']] [a2' b2']], p as [[p0 p1] p2], q as [[q0 q1] q2], cells as [[n0 n1] n2].
  cbn [cc_lim cc_cells]. destruct C as [C | [N1 _]].
  2:{ exfalso. unfold cart_inside in E. cbn [cc_lim] in E. cbn [nan3] in N1. now rewrite N1 in E. }
  destruct Lo as [A0 [A1 A2]], Hi as [B0 [B1 B2]], C as [C0 [C1 C2]]. destruct Sz as [S0 [S1 S2]].
  destruct Br as [[L0 [L1 L2]] [F0 [F1 F2]]], Br' as [_ [F0' [F1' F2']]]. cbn [fst snd] in *.
  assert (Bd : forall a b p : f64, is_finite a = true -> is_finite b = true -> is_finite p = true -> in_interval (a, b) p = true -> B2R a <= B2R p <= B2R b).
  { intros a b p Fa Fb Fp H. unfold in_interval in H. cbn [fst snd] in H. apply andb_prop in H as [H1 H2].
    split; [apply (Bleb_R a p Fa Fp); exact H1 | apply (Bleb_R p b Fp Fb); exact H2]. }
  unfold cart_inside in E. cbn [cc_lim] in E. destruct (_ || _ || _); [discriminate|].
  apply andb_prop in E as [E E2]. apply andb_prop in E as [E0 E1].
  assert (D0 := Bd a0 b0 p0 (proj1 A0) (proj1 B0) (proj1 C0) E0). assert (D1 := Bd a1 b1 p1 (proj1 A1) (proj1 B1) (proj1 C1) E1).
  assert (D2 := Bd a2 b2 p2 (proj1 A2) (proj1 B2) (proj1 C2) E2).
  rewrite !cart_axis_id_f64 by (clear - S0 S1 S2; lia).
  rewrite (axis_changed _ _ a0 a0' b0 b0' p0 q0 (Z.of_N (n0 - 1)) ltac:(clear - S0; lia) A0 B0 C0 D0 L0 F0 F0').
  rewrite (axis_changed _ _ a1 a1' b1 b1' p1 q1 (Z.of_N (n1 - 1)) ltac:(clear - S1; lia) A1 B1 C1 D1 L1 F1 F1').
  rewrite (axis_changed _ _ a2 a2' b2 b2' p2 q2 (Z.of_N (n2 - 1)) ltac:(clear - S2; lia) A2 B2 C2 D2 L2 F2 F2'). reflexivity.
Qed.

(** ** Fields *)
Definition sm_changed (u : unit3) (m n : sample f64) : Prop :=
  pos_changed u (sm_pos m) (sm_pos n) /\ sm_time n = sm_time m /\ sm_vel n = sm_vel m /\ sm_radius n = sm_radius m /\
  sm_cloud n = sm_cloud m /\ sm_density n = sm_density m /\ sm_id n = sm_id m /\ sm_type n = sm_type m.
Lemma samples_changed u x y : ts_changed u x y -> Forall2 (sm_changed u) (samples x) (samples y).
Proof.
  intros [P [E1 [E2 [E3 [E4 [E5 [E6 E7]]]]]]]. unfold samples. rewrite E1, E2, E3, E4, E5, E6, E7. clear E1 E2 E3 E4 E5 E6 E7.
  generalize (ts_vel x) as vs, (ts_radius x) as rs, (ts_clouds x) as cs, (ts_density x) as ds, (ts_id x) as is, (ts_type x) as ys.
  induction P as [|p q ps qs Hp P IH]; intros; [constructor|]. cbn [rows].
  destruct vs, rs, cs, ds, is, ys; constructor; [|apply IH]. now repeat split.
Qed.
Lemma all_changed u L L' : Forall2 (ts_changed u) L L' -> Forall2 (sm_changed u) (flat_map samples L) (flat_map samples L').
Proof. induction 1 as [|x y L L' H _ IH]; [constructor|]. cbn [flat_map]. apply Forall2_app; [now apply samples_changed | exact IH]. Qed.
Lemma filter_rel {A B} (P : A -> B -> Prop) (f : A -> bool) (g : B -> bool) l l' :
  (forall a b, P a b -> g b = f a) -> Forall2 P l l' -> Forall2 P (filter f l) (filter g l').
Proof.
  intros H. induction 1 as [|a b l l' Hab _ IH]; [constructor|]. cbn [filter]. rewrite (H a b Hab).
  destruct (f a); [now constructor | exact IH].
Qed.
Lemma chosen_changed u s m n : sm_changed u m n -> chosen s n = chosen s m.
Proof. intros [_ [E1 [_ [E3 [E4 [E5 [E6 _]]]]]]]. unfold chosen, accepts. now rewrite E1, E3, E4, E5, E6. Qed.
Lemma new_geo_f64 cells (l : lims f64) (g : grid f64) : cart_new cells (ThreeD l) = Val g ->
  exists xs ys zs, geo g = Cart (mkCart cells xs ys zs l).
Proof. destruct l as [[[x0 x1] [y0 y1]] [z0 z1]], cells as [[a b] c]. intros [= <-]. cbn [geo]. eauto. Qed.

Section Fields.
  Context {TF : Trig f64}.
  Variables (bld : build) (u : unit3) (cells : id3) (l l' : lims f64) (g g' : grid f64).
  Hypothesis (Sz : sized cells) (Lo : changed3 u (low l) (low l')) (Hi : changed3 u (high l) (high l')) (Br : broad l) (Br' : broad l')
    (Eg : cart_new cells (ThreeD l) = Val g) (Eg' : cart_new cells (ThreeD l') = Val g').

  Lemma samples_in_changed s L L' c : Forall2 (ts_changed u) L L' ->
    Forall2 (sm_changed u) (samples_in bld (geo g) c (observed s L)) (samples_in bld (geo g') c (observed s L')).
  Proof.
    intros H. destruct (new_geo_f64 _ _ _ Eg) as [xs [ys [zs ->]]]. destruct (new_geo_f64 _ _ _ Eg') as [xs' [ys' [zs' ->]]].
    unfold samples_in, observed. apply filter_rel.
    - intros m n [P _]. unfold in_cell. cbn [geom_inside geom_cell_id].
      rewrite (inside_changed u cells xs ys zs xs' ys' zs' l l' _ _ Lo Hi P).
      rewrite (c160_same_cell bld u cells xs ys zs xs' ys' zs' l l' _ _ Sz Lo Hi Br Br' P). reflexivity.
    - apply filter_rel; [intros m n; apply chosen_changed | now apply all_changed].
  Qed.
  (** The number field: the same doubles. *)
  Theorem c160_number (M M' : mgr f64) d e L L' s : recorded M d L -> recorded M' e L' -> Forall2 (ts_changed u) L L' -> sel_ok s ->
    exists d' h e' h', numberfield bld M d g s = Val (d', h) /\ numberfield bld M' e g' s = Val (e', h') /\
    forall c, inb3 cells c = true -> at3 (data h') c = at3 (data h) c.
  Proof.
    intros Rec Rec' T Sk. destruct (new_geo_f64 _ _ _ Eg) as [xs [ys [zs G]]]. destruct (new_geo_f64 _ _ _ Eg') as [xs' [ys' [zs' G']]].
    assert (W := cart_new_wf _ _ _ Eg). assert (W' := cart_new_wf _ _ _ Eg').
    destruct (number_total bld M d L g s Rec Sk W) as [d' [h Eh]]; [rewrite G; now apply cart_inside_ok|].
    destruct (number_total bld M' e L' g' s Rec' Sk W') as [e' [h' Eh']]; [rewrite G'; now apply cart_inside_ok|].
    exists d', h, e', h'. split; [exact Eh|]. split; [exact Eh'|]. intros c Hc.
    destruct (number_cells bld M d L g s d' h Rec Sk W Eh) as [_ [_ [_ H]]].
    destruct (number_cells bld M' e L' g' s e' h' Rec' Sk W' Eh') as [_ [_ [_ H']]].
    destruct (H c ltac:(now rewrite G)) as [-> _]. destruct (H' c ltac:(now rewrite G')) as [-> _].
    assert (Q := samples_in_changed s L L' c T). revert Q. clear.
    generalize (samples_in bld (geo g) c (observed s L)) as a, (samples_in bld (geo g') c (observed s L')) as b, (@n0 f64 num_f64) as w.
    intros a b w Q. revert w. induction Q as [|m n a b _ _ IH]; intros w; [reflexivity|]. cbn [fold_left]. apply IH.
  Qed.
  (** The velocity field: the same doubles. *)
  Theorem c160_velocity (M M' : mgr f64) d e L L' s mode (calc : v3 f64 -> f64) vmin vmax : recorded M d L -> recorded M' e L' -> Forall2 (ts_changed u) L L' ->
    sel_ok s -> velocity_mode mode = Val calc ->
    exists d' h e' h', velocityfield bld M d g s mode vmin vmax = Val (d', h) /\ velocityfield bld M' e g' s mode vmin vmax = Val (e', h') /\
    forall c, inb3 cells c = true -> at3 (data h') c = at3 (data h) c /\ at3 (weight h') c = at3 (weight h) c.
  Proof.
    intros Rec Rec' T Sk Em. destruct (new_geo_f64 _ _ _ Eg) as [xs [ys [zs G]]]. destruct (new_geo_f64 _ _ _ Eg') as [xs' [ys' [zs' G']]].
    assert (Fr := new_fresh cells (ThreeD l) true g (or_introl Eg)). assert (Fr' := new_fresh cells (ThreeD l') true g' (or_introl Eg')).
    assert (W := proj1 Fr). assert (W' := proj1 Fr').
    destruct (velocity_total bld M d L g s mode calc vmin vmax Rec Sk W) as [d' [h Eh]]; [rewrite G; now apply cart_inside_ok | exact Em|].
    destruct (velocity_total bld M' e L' g' s mode calc vmin vmax Rec' Sk W') as [e' [h' Eh']]; [rewrite G'; now apply cart_inside_ok | exact Em|].
    exists d', h, e', h'. split; [exact Eh|]. split; [exact Eh'|]. intros c Hc.
    destruct (velocity_cells bld M d L g s mode calc vmin vmax d' h Rec Sk W Em Eh) as [_ [_ [_ H]]].
    destruct (velocity_cells bld M' e L' g' s mode calc vmin vmax e' h' Rec' Sk W' Em Eh') as [_ [_ [_ H']]].
    destruct (H c ltac:(now rewrite G)) as [B A]. destruct (H' c ltac:(now rewrite G')) as [B' A'].
    rewrite (proj2 (proj2 Fr c)) in B. rewrite (proj2 (proj2 Fr' c)) in B'.
    assert (Q : Forall2 (sm_changed u) (averaged bld g s calc vmin vmax L c) (averaged bld g' s calc vmin vmax L' c)).
    { unfold averaged. apply filter_rel; [|now apply samples_in_changed]. intros m n [P [_ [V _]]]. unfold vel_keep. rewrite V. do 2 f_equal. 
      destruct P as [P | [N1 N2]]; [|now rewrite N1, N2]. revert P. clear. destruct u as [[u0 u1] u2]. destruct (sm_pos m) as [[p0 p1] p2], (sm_pos n) as [[q0 q1] q2].
      intros [C0 [C1 C2]]. cbn [nan3]. cbn [nisnan num_f64].
      assert (Nn : forall x : f64, is_finite x = true -> is_nan x = false) by (intros [| | |]; auto; discriminate).
      now rewrite (Nn p0 (proj1 C0)), (Nn p1 (proj1 C1)), (Nn p2 (proj1 C2)), (Nn q0 (proj1 (proj2 C0))), (Nn q1 (proj1 (proj2 C1))), (Nn q2 (proj1 (proj2 C2))). }
    revert Q A A' B B'. generalize (averaged bld g s calc vmin vmax L c) as a, (averaged bld g' s calc vmin vmax L' c) as b. clear.
    intros a b Q A A' B B'.
    assert (Wt : at3 (weight h') c = at3 (weight h) c).
    { rewrite B, B'. clear - Q. generalize (@n0 f64 num_f64) as w. induction Q as [|m n a b _ _ IH]; intros w; [reflexivity|]. cbn [fold_left]. apply IH. }
    split; [|exact Wt]. rewrite A, A', Wt. do 2 f_equal. clear - Q.
    induction Q as [|m n a b H _ IH]; [reflexivity|]. cbn [map]. rewrite IH. destruct H as [_ [_ [-> _]]]. reflexivity.
  Qed.
End Fields.

(** A factor of ten rounds: cm to mm moves a position to the next cell. *)
Theorem c160_decimal_refuted {TF : Trig f64} (bld : build) : let p : f64 := nlit 5 11 in
  after (cart_new (12, 12, 12)%N (ThreeD box64)) (fun g => after (cart_new (12, 12, 12)%N (ThreeD ((d 0, d 10), (d 0, d 10), (d 0, d 10)))) (fun g' =>
    after (geom_cell_id bld (geo g) (p, d 0, d 0)) (fun c => c = Some (5, 0, 0)%N) /\
    after (geom_cell_id bld (geo g') (nmul p (d 10), d 0, d 0)) (fun c => c = Some (4, 0, 0)%N))).
Proof. destruct bld; vm_compute; split; reflexivity. Qed.

(** A concrete change: twice the numbers plus one on the first axis. *)
Lemma ints_changed (x y b : Z) j : (0 <= j <= 52)%Z -> (Z.abs x <= 2 ^ 53)%Z -> (Z.abs y <= 2 ^ 53)%Z -> y = (2 ^ j * x + b)%Z ->
  changed j (IZR b) (d x) (d y).
Proof.
  intros Hj Hx Hy E. destruct (of_Z_correct x Hx) as [E1 F1]. destruct (of_Z_correct y Hy) as [E2 F2].
  split; [exact F1|]. split; [exact F2|]. rewrite E1, E2, E, plus_IZR, mult_IZR. f_equal. f_equal. now rewrite <- (IZR_Zpower radix2) by lia.
Qed.
Example c160_case : let u := ((1%Z, 1), (0%Z, 0), (0%Z, 0)) in let l' : lims f64 := ((d 1, d 5), (d 0, d 2), (d 0, d 2)) in
  let l : lims f64 := ((d 0, d 2), (d 0, d 2), (d 0, d 2)) in
  changed3 u (low l) (low l') /\ changed3 u (high l) (high l') /\ broad l /\ broad l' /\
  Forall2 (ts_changed u) [ts_ex 0 (d 1, d 1, d 1) (d 2, d 0, d 1) (d 1, d 0, d 0) (d 0, d 2, d 0)] [ts_ex 0 (d 3, d 1, d 1) (d 5, d 0, d 1) (d 1, d 0, d 0) (d 0, d 2, d 0)].
Proof.
  cbv zeta. assert (Id : forall x, (Z.abs x <= 2 ^ 53)%Z -> changed 0 0 (d x) (d x)) by (intros x Hx; apply (ints_changed x x 0 0); lia).
  assert (Tw : forall x y, (Z.abs x <= 2 ^ 10)%Z -> y = (2 * x + 1)%Z -> changed 1 1 (d x) (d y)) by (intros x y Hx E; apply (ints_changed x y 1 1); lia).
  assert (V : forall x, (Z.abs x <= 2 ^ 53)%Z -> B2R (d x) = IZR x) by (intros x Hx; apply (of_Z_correct x Hx)).
  cbn [low high changed3 fst snd broad]. rewrite !V by lia.
  split; [|split; [|split; [|split]]].
  - split; [apply Tw; lia|]. split; apply Id; lia.
  - split; [apply Tw; lia|]. split; apply Id; lia.
  - split; [lra|]. repeat split; reflexivity.
  - split; [lra|]. repeat split; reflexivity.
  - constructor; [|constructor]. split; [|repeat split; reflexivity]. cbn [ts_ex ts_pos].
    constructor; [|constructor; [|constructor]]; left; cbn [changed3 fst snd]; (split; [apply Tw; lia|]); split; apply Id; lia.
Qed.
