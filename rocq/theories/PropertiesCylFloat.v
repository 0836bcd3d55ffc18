(** * PropertiesCylFloat: cylindrical grids in doubles (C140) *)
From Coq Require Import Reals List NArith ZArith Lia Lra Psatz Bool ZifyBool ZifyN.
From Flocq Require Import Core.Core IEEE754.BinarySingleNaN.
From Verif Require Import Base BaseFacts Num RFacts NDArray GridModel GridSpec GridFacts F64Facts CartProofs CylProofs FloatErr FloatSum CylFloat PropertiesGrid PropertiesFloat.
Import ListNotations.
Local Open Scope R_scope.

(** Limits of an axis: finite, at most 2^470 in size, at least 2^-470 apart. *)
Definition moderate (lo hi : f64) : Prop :=
  is_finite lo = true /\ is_finite hi = true /\ Rabs (B2R lo) <= bpow radix2 470 /\ Rabs (B2R hi) <= bpow radix2 470 /\
  bpow radix2 (-470) <= B2R hi - B2R lo.
(** The upper edge of cell [k] of [n] between [lo] and [hi]. *)
Definition upper_edge (lo hi : R) (n k : N) : R := lo + (NR k + 1) * ((hi - lo) / NR n).
(** Up to [tol], no upper edge is nearer to [v] than that of cell [k]. *)
Definition nearest_up_to (tol lo hi : R) (n : N) (v : R) (k : N) : Prop :=
  (k < n)%N /\ forall j, (j < n)%N -> Rabs (upper_edge lo hi n k - v) <= Rabs (upper_edge lo hi n j - v) + tol.
(** What the grid publishes: its outer radius and the axis. *)
Definition axis_distance64 (y : cyl_geom f64) (p : pos3 f64) : R :=
  let '(p0, p1, _) := p in let '(c0, c1, _) := yc_center y in
  sqrt ((B2R p0 - B2R c0) * (B2R p0 - B2R c0) + (B2R p1 - B2R c1) * (B2R p1 - B2R c1)).
(** The outer boundary of the last ring. *)
Definition rim (y : cyl_geom f64) : f64 := snd (last (yc_r y) (n0, n0)).

(** [lia] without the hypotheses about doubles, which slow it down. *)
Ltac nlia := repeat match goal with H : ?p |- _ => lazymatch p with
   | @eq N _ _ => fail | @eq nat _ _ => fail | @eq Z _ _ => fail | (_ <= _)%N => fail | (_ < _)%N => fail | (_ <= _ < _)%N => fail | (_ <= _ <= _)%N => fail
   | (_ <= _)%nat => fail | (_ < _)%nat => fail | _ => let s := type of p in lazymatch s with Prop => clear H end end end; lia.

Section Doubles.
  Context {TF : Trig f64}.
  Lemma cyl_new_val64 nr no nz x0 x1 y0 y1 z0 z1 (g : grid f64) :
    cyl_new (nr, no, nz) (ThreeD ((x0, x1), (y0, y1), (z0, z1))) true = Val g ->
    exists y, geo g = Cyl y /\ yc_cells y = (nr, no, nz) /\
      yc_radius y = outer_radius (half_extent x0 x1 (ndiv (nadd x0 x1) n2)) (half_extent y0 y1 (ndiv (nadd y0 y1) n2)) /\
      yc_r y = cyl_rings (N.to_nat nr) (ndiv (nmul (yc_radius y) (yc_radius y)) (nofN nr)) n0 /\
      yc_o y = cyl_oedges no /\ yc_z y = cyl_zedges nz z0 z1 /\
      yc_center y = (ndiv (nadd x0 x1) n2, ndiv (nadd y0 y1) n2, ndiv (nadd z0 z1) n2) /\
      yc_lim y = ((n0, yc_radius y), (nneg npi, npi), (z0, z1)).
  Proof.
    unfold cyl_new. cbn [negb]. intros E. assert (E' := f_equal (fun r => match r with Val x => geo x | Panic => geo g end) E). cbn [geo] in E'. clear E.
    eexists. split; [symmetry; exact E'|]. cbn [yc_cells yc_radius yc_r yc_o yc_z yc_center yc_lim]. repeat split.
  Qed.

  (** ** The axis and the radius *)
  Lemma abs_diff (x c : f64) m : (1 <= m <= 900)%Z -> is_finite x = true -> is_finite c = true -> Rabs (B2R x) <= bpow radix2 m -> Rabs (B2R c) <= bpow radix2 m ->
    is_finite (nsub x c) = true /\ B2R (nsub x c) = rnd (B2R x - B2R c) /\ is_finite (nabs (nsub x c)) = true /\ B2R (nabs (nsub x c)) = Rabs (rnd (B2R x - B2R c)).
  Proof.
    intros Hm Fx Fc Bx Bc. cbn [nabs nsub num_f64]. rewrite is_finite_Babs, B2R_Babs.
    assert (C := Bminus_correct 53 1024 _ _ mode_NE x c Fx Fc).
    change (round radix2 (SpecFloat.fexp 53 1024) (round_mode mode_NE) (B2R x - B2R c)) with (rnd (B2R x - B2R c)) in C.
    rewrite Rlt_bool_true in C; [destruct C as [C1 [C2 _]]; rewrite C1; auto|].
    apply (within_rnd _ (m + 1)); [lia|]. unfold Rminus. apply Rle_trans with (1 := Rabs_triang _ _). rewrite Rabs_Ropp, bpow_plus. change (bpow radix2 1) with 2. lra.
  Qed.
  Lemma mid_err (lo hi : f64) : moderate lo hi ->
    let c := ndiv (nadd lo hi) n2 in
    is_finite c = true /\ Rabs (B2R c) <= bpow radix2 470 /\ Rabs (B2R c - (B2R lo + B2R hi) / 2) <= 2 * eps * reach lo hi.
  Proof.
    intros [Fl [Fh [Bl [Bh Hb]]]] c. assert (P := eps_pos). assert (Le := eps_le). assert (P4 := bpow_gt_0 radix2 (-470)).
    assert (B471 : bpow radix2 471 = 2 * bpow radix2 470) by (replace 471%Z with (1 + 470)%Z by lia; rewrite bpow_plus; reflexivity).
    assert (S : Rabs (B2R lo + B2R hi) <= reach lo hi) by apply Rabs_triang.
    assert (Rc : reach lo hi <= bpow radix2 471) by (unfold reach; lra).
    assert (Rl : bpow radix2 (-470) <= reach lo hi) by (apply Rle_trans with (1 := Hb); apply len_reach).
    destruct (within_rnd (B2R lo + B2R hi) 471 ltac:(lia)) as [W1 W1']; [lra|].
    destruct (add_R lo hi Fl Fh W1') as [Fa Ea].
    destruct (rnd_sum (B2R lo) (B2R hi) (fmt_B2R lo) (fmt_B2R hi)) as [e1 [He1 E1]]. assert (G1 := factor _ He1).
    destruct (of_Z_correct 2 ltac:(lia)) as [E2 F2].
    destruct (within_rnd (rnd (B2R lo + B2R hi) / 2) 470 ltac:(lia)) as [W2 W2'].
    { unfold Rdiv. rewrite Rabs_mult, (Rabs_pos_eq (/ 2)) by lra. lra. }
    destruct (div_R (Bplus mode_NE lo hi) (f64_of_Z 2) Fa) as [Fc Ec]; [rewrite E2; lra | rewrite E2, Ea; exact W2'|].
    change c with (Bdiv mode_NE (Bplus mode_NE lo hi) (f64_of_Z 2)). rewrite E2, Ea in Ec. split; [exact Fc|]. rewrite Ec. split; [exact W2|].
    destruct (rnd_ex (rnd (B2R lo + B2R hi) / 2)) as [e3 [d3 [He3 [Hd3 E3]]]]. rewrite E3, E1. assert (G3 := factor _ He3).
    set (t := B2R lo + B2R hi) in *. replace (t * (1 + e1) / 2 * (1 + e3) + d3 - t / 2) with (t / 2 * ((1 + e1) * (1 + e3) - 1) + d3) by field.
    apply Rle_trans with (1 := Rabs_triang _ _). rewrite Rabs_mult.
    assert (A : Rabs ((1 + e1) * (1 + e3) - 1) <= 5 / 2 * eps).
    { assert (X : (1 - eps) * (1 - eps) <= (1 + e1) * (1 + e3) <= (1 + eps) * (1 + eps)) by (split; apply Rmult_le_compat; lra). apply Rabs_le. nra. }
    assert (B : Rabs (t / 2) <= reach lo hi / 2) by (unfold Rdiv; rewrite Rabs_mult, (Rabs_pos_eq (/ 2)) by lra; lra).
    assert (C : Rabs (t / 2) * Rabs ((1 + e1) * (1 + e3) - 1) <= reach lo hi / 2 * (5 / 2 * eps)) by (apply Rmult_le_compat; try apply Rabs_pos; lra).
    assert (D : eta <= / 4 * (eps * reach lo hi)).
    { apply Rle_trans with (/ 4 * (eps * bpow radix2 (-470))); [|apply Rmult_le_compat_l; [lra|]; apply Rmult_le_compat_l; lra]. unfold eta, eps. change (/ 4) with (bpow radix2 (-2)).
      rewrite <- !bpow_plus. apply bpow_le. lia. }
    assert (0 <= eps * reach lo hi) by (apply Rmult_le_pos; lra). lra.
  Qed.
  Definition ordinary_half (h : f64) : Prop := is_finite h = true /\ bpow radix2 (-480) <= B2R h <= bpow radix2 480.
  Lemma half_err (lo hi : f64) : moderate lo hi -> let h := half_extent lo hi (ndiv (nadd lo hi) n2) in
    ordinary_half h /\ Rabs (B2R h - len lo hi / 2) <= 4 * eps * reach lo hi.
  Proof.
    intros M h. destruct (mid_err lo hi M) as [Fc [Bc Ec]]. destruct M as [Fl [Fh [Bl [Bh Hb]]]]. assert (P := eps_pos). assert (Le := eps_le). assert (P4 := bpow_gt_0 radix2 (-470)).
    set (c := ndiv (nadd lo hi) n2) in *.
    destruct (abs_diff lo c 470 ltac:(lia) Fl Fc Bl Bc) as [_ [_ [F0 E0]]]. destruct (abs_diff hi c 470 ltac:(lia) Fh Fc Bh Bc) as [_ [_ [F1 E1]]].
    destruct (rnd_diff lo c) as [e0 [He0 D0]]. destruct (rnd_diff hi c) as [e1 [He1 D1]]. assert (G0 := factor _ He0). assert (G1 := factor _ He1).
    assert (Rl : bpow radix2 (-470) <= reach lo hi) by (apply Rle_trans with (1 := Hb); apply len_reach).
    assert (Lr := len_reach lo hi). unfold len in *. set (rc := reach lo hi) in *.
    set (u0 := B2R lo - B2R c) in *. set (u1 := B2R hi - B2R c) in *. set (b := B2R hi - B2R lo) in *.
    set (a0 := nabs (nsub lo c)) in *. set (a1 := nabs (nsub hi c)) in *.
    assert (Hd : h = a1 /\ B2R a0 < B2R a1 \/ h = a0 /\ B2R a1 <= B2R a0).
    { change h with (if nltb a0 a1 then a1 else a0). cbn [nltb num_f64]. destruct (Bltb a0 a1) eqn:Lt; [left | right]; (split; [reflexivity|]).
      - now apply Bltb_R in Lt.
      - apply not_true_iff_false in Lt. rewrite Bltb_R in Lt by assumption. lra. }
    assert (B471 : bpow radix2 471 = 2 * bpow radix2 470) by (replace 471%Z with (1 + 470)%Z by lia; rewrite bpow_plus; reflexivity).
    assert (U0 : Rabs u0 <= bpow radix2 471) by (unfold u0, Rminus; apply Rle_trans with (1 := Rabs_triang _ _); rewrite Rabs_Ropp; lra).
    assert (U1 : Rabs u1 <= bpow radix2 471) by (unfold u1, Rminus; apply Rle_trans with (1 := Rabs_triang _ _); rewrite Rabs_Ropp; lra).
    destruct (within_rnd u0 471 ltac:(lia) U0) as [W0 _]. destruct (within_rnd u1 471 ltac:(lia) U1) as [W1 _].
    apply Rabs_le_inv in Ec.
    assert (C0 : - (b / 2) - 2 * eps * rc <= u0 <= - (b / 2) + 2 * eps * rc) by (unfold u0, b; lra).
    assert (C1 : b / 2 - 2 * eps * rc <= u1 <= b / 2 + 2 * eps * rc) by (unfold u1, b; lra).
    assert (er : 0 <= eps * rc) by (apply Rmult_le_pos; lra). assert (er2 : eps * (eps * rc) <= / 10 * (eps * rc)) by (apply Rmult_le_compat_r; lra).
    assert (eb : eps * b <= eps * rc) by (apply Rmult_le_compat_l; lra). assert (eb0 : 0 <= eps * b) by (apply Rmult_le_pos; lra).
    assert (K0 : Rabs (B2R a0 - b / 2) <= 4 * eps * rc).
    { rewrite E0, D0, Rabs_mult, (Rabs_pos_eq (1 + e0)) by lra. apply Rabs_le. assert (X0 := Rabs_pos u0).
      assert (X1 : b / 2 - 2 * eps * rc <= Rabs u0 <= b / 2 + 2 * eps * rc).
      { split; [assert (Y := Rle_abs (- u0)); rewrite Rabs_Ropp in Y; lra|]. apply Rabs_le. lra. }
      assert (X2 : Rabs u0 * (1 - eps) <= Rabs u0 * (1 + e0) <= Rabs u0 * (1 + eps)) by (split; apply Rmult_le_compat_l; lra).
      assert (X3 : Rabs u0 * eps <= (b / 2 + 2 * eps * rc) * eps) by (apply Rmult_le_compat_r; lra). lra. }
    assert (K1 : Rabs (B2R a1 - b / 2) <= 4 * eps * rc).
    { rewrite E1, D1, Rabs_mult, (Rabs_pos_eq (1 + e1)) by lra. apply Rabs_le. assert (X0 := Rabs_pos u1).
      assert (X1 : b / 2 - 2 * eps * rc <= Rabs u1 <= b / 2 + 2 * eps * rc).
      { split; [assert (Y := Rle_abs u1); lra|]. apply Rabs_le. lra. }
      assert (X2 : Rabs u1 * (1 - eps) <= Rabs u1 * (1 + e1) <= Rabs u1 * (1 + eps)) by (split; apply Rmult_le_compat_l; lra).
      assert (X3 : Rabs u1 * eps <= (b / 2 + 2 * eps * rc) * eps) by (apply Rmult_le_compat_r; lra). lra. }
    assert (Big : b / 4 <= B2R a0 \/ b / 4 <= B2R a1).
    { rewrite E0, E1, D0, D1, !Rabs_mult, (Rabs_pos_eq (1 + e0)), (Rabs_pos_eq (1 + e1)) by lra.
      assert (Y0 := Rle_abs (- u0)). rewrite Rabs_Ropp in Y0. assert (Y1 := Rle_abs u1). assert (Z0 := Rabs_pos u0). assert (Z1 := Rabs_pos u1).
      assert (Y : b / 2 <= Rabs u0 \/ b / 2 <= Rabs u1) by (unfold u0, u1, b in *; lra).
      destruct Y as [Y|Y]; [left | right]; (apply Rle_trans with (b / 2 * / 2); [lra|]; apply Rmult_le_compat; lra). }
    assert (L480 : bpow radix2 (-480) <= b / 4).
    { apply Rle_trans with (bpow radix2 (-470) * bpow radix2 (-2)); [rewrite <- bpow_plus; apply bpow_le; lia|]. change (bpow radix2 (-2)) with (/ 4). lra. }
    assert (U480 : bpow radix2 471 <= bpow radix2 480) by (apply bpow_le; lia).
    unfold ordinary_half. destruct Hd as [[-> Hlt]|[-> Hle]]; (split; [|assumption]); (split; [assumption|]); rewrite E0, E1 in *; split; lra.
  Qed.

  (** ** The rings *)
  Notation ordinary_radius := ordinary_half.
  (** The outer radius is half the larger of the two extents, up to rounding. *)
  Theorem c140_radius (nr no nz : N) x0 x1 y0 y1 z0 z1 (g : grid f64) (y : cyl_geom f64) :
    cyl_new (nr, no, nz) (ThreeD ((x0, x1), (y0, y1), (z0, z1))) true = Val g -> geo g = Cyl y -> moderate x0 x1 -> moderate y0 y1 ->
    is_finite (yc_radius y) = true /\ bpow radix2 (-480) <= B2R (yc_radius y) <= bpow radix2 480 /\
    Rabs (B2R (yc_radius y) - Rmax (len x0 x1 / 2) (len y0 y1 / 2)) <= 4 * eps * Rmax (reach x0 x1) (reach y0 y1).
  Proof.
    intros E G Mx My. destruct (cyl_new_val64 _ _ _ _ _ _ _ _ _ _ E) as [y' [G' [_ [Ra _]]]]. rewrite G in G'. injection G' as <-.
    destruct (half_err x0 x1 Mx) as [[Fa Ha] Ea]. destruct (half_err y0 y1 My) as [[Fb Hb] Eb]. rewrite Ra. unfold outer_radius.
    set (a := half_extent x0 x1 _) in *. set (b := half_extent y0 y1 _) in *. assert (P := eps_pos).
    apply Rabs_le_inv in Ea, Eb. set (la := len x0 x1 / 2) in *. set (lb := len y0 y1 / 2) in *. set (ra := reach x0 x1) in *. set (rb := reach y0 y1) in *.
    assert (M1 := Rmax_l ra rb). assert (M2 := Rmax_r ra rb). assert (L1 := Rmax_l la lb). assert (L2 := Rmax_r la lb).
    assert (N1 : 4 * eps * ra <= 4 * eps * Rmax ra rb) by (apply Rmult_le_compat_l; lra). assert (N2 : 4 * eps * rb <= 4 * eps * Rmax ra rb) by (apply Rmult_le_compat_l; lra).
    set (M := Rmax ra rb) in *. clearbody M.
    cbn [nltb num_f64]. destruct (Bltb b a) eqn:Lt.
    - apply Bltb_R in Lt; [|assumption..]. split; [exact Fa|]. split; [exact Ha|]. apply Rabs_le. destruct (Rle_dec la lb); [rewrite (Rmax_right la lb) in * by lra | rewrite (Rmax_left la lb) in * by lra]; lra.
    - apply not_true_iff_false in Lt. rewrite Bltb_R in Lt by assumption. split; [exact Fb|]. split; [exact Hb|]. apply Rabs_le. destruct (Rle_dec la lb); [rewrite (Rmax_right la lb) in * by lra | rewrite (Rmax_left la lb) in * by lra]; lra.
  Qed.
  Lemma vol_err (r : f64) (nr : N) : ordinary_radius r -> (1 <= nr <= 2 ^ 40)%N ->
    let V := B2R r * B2R r / NR nr in let vol := ndiv (nmul r r) (nofN nr) in
    is_finite vol = true /\ V * (1 - eps) ^ 2 <= B2R vol <= V * (1 + eps) ^ 2 /\
    bpow radix2 (-1000) <= V /\ INR (N.to_nat nr) * V <= bpow radix2 960 /\ INR (N.to_nat nr) <= bpow radix2 40.
  Proof.
    intros [Fr Hr] Hn V vol. assert (P := eps_pos). assert (Le := eps_le). assert (P4 := bpow_gt_0 radix2 (-480)).
    assert (NI : NR nr = INR (N.to_nat nr)) by (unfold NR; now rewrite INR_IZR_INZ, N_nat_Z).
    assert (N40 := b40 (Z.of_N nr) ltac:(lia)). fold (NR nr) in N40.
    assert (Q1 : bpow radix2 (-960) <= B2R r * B2R r) by (replace (-960)%Z with (-480 + -480)%Z by lia; rewrite bpow_plus; apply Rmult_le_compat; lra).
    assert (Q2 : B2R r * B2R r <= bpow radix2 960) by (replace 960%Z with (480 + 480)%Z by lia; rewrite bpow_plus; apply Rmult_le_compat; lra).
    assert (P9 := bpow_gt_0 radix2 (-960)).
    set (q := B2R r * B2R r) in *. assert (EV : V * NR nr = q) by (unfold V; field; lra).
    assert (V1 : bpow radix2 (-1000) <= V).
    { apply Rmult_le_reg_r with (bpow radix2 40); [apply bpow_gt_0|]. rewrite <- bpow_plus. apply Rle_trans with (1 := Q1). rewrite <- EV.
      apply Rmult_le_compat_l; [|lra]. unfold V. apply Rlt_le, Rdiv_lt_0_compat; lra. }
    assert (P10 := bpow_gt_0 radix2 (-1000)).
    destruct (within_rnd q 960 ltac:(lia)) as [_ W1]; [rewrite Rabs_pos_eq by lra; lra|].
    destruct (mul_R r r Fr Fr W1) as [Fm Em]. fold q in Em.
    destruct (rnd_rel q) as [e1 [He1 E1]]; [rewrite Rabs_pos_eq by lra; apply Rle_trans with (2 := Q1); apply bpow_le; lia|]. assert (G1 := factor _ He1). rewrite E1 in Em.
    destruct (of_Z_correct (Z.of_N nr) ltac:(lia)) as [En Fn].
    assert (Q : B2R (Bmult mode_NE r r) / IZR (Z.of_N nr) = V * (1 + e1)) by (rewrite Em; unfold V, NR in *; field; lra).
    assert (Vq : V <= q) by (rewrite <- EV; nra).
    destruct (rnd_rel (V * (1 + e1))) as [e2 [He2 E2]].
    { rewrite Rabs_pos_eq by nra. apply Rle_trans with (bpow radix2 (-1000) * bpow radix2 (-1)); [rewrite <- bpow_plus; apply bpow_le; lia|]. change (bpow radix2 (-1)) with (/ 2). apply Rmult_le_compat; lra. }
    assert (G2 := factor _ He2).
    destruct (within_rnd (V * (1 + e1)) 961 ltac:(lia)) as [_ W2].
    { rewrite Rabs_pos_eq by nra. replace 961%Z with (960 + 1)%Z by lia. rewrite bpow_plus. change (bpow radix2 1) with 2. apply Rmult_le_compat; lra. }
    destruct (div_R (Bmult mode_NE r r) (f64_of_Z (Z.of_N nr)) Fm) as [Fd Ed]; [rewrite En; unfold NR in *; lra | rewrite En, Q; exact W2|].
    rewrite En, Q, E2 in Ed. change vol with (Bdiv mode_NE (Bmult mode_NE r r) (f64_of_Z (Z.of_N nr))). split; [exact Fd|]. rewrite Ed.
    split. { rewrite Rmult_assoc. cbn [pow]. rewrite !Rmult_1_r. split; (apply Rmult_le_compat_l; [lra|]; apply Rmult_le_compat; lra). }
    split; [exact V1|]. rewrite <- NI. split; [rewrite Rmult_comm, EV; exact Q2 | lra].
  Qed.
  (** Boundary [i] of the rings, [i] from 0 to the number of rings: published once as the outer end of ring [i - 1] and once as the inner end of ring [i]; its square is [i / nr] of the square of the outer radius up to a relative error. *)
  Theorem c140_rings (nr no nz : N) x0 x1 y0 y1 z0 z1 (g : grid f64) (y : cyl_geom f64) :
    cyl_new (nr, no, nz) (ThreeD ((x0, x1), (y0, y1), (z0, z1))) true = Val g -> geo g = Cyl y ->
    moderate x0 x1 -> moderate y0 y1 -> (1 <= nr <= 2 ^ 40)%N ->
    exists b : N -> f64, B2R (b 0%N) = 0 /\ b nr = rim y /\ length (yc_r y) = N.to_nat nr /\
      (forall i, (i < nr)%N -> nth_error (yc_r y) (N.to_nat i) = Some (b i, b (i + 1)%N)) /\
      forall i, (i <= nr)%N -> is_finite (b i) = true /\ 0 <= B2R (b i) /\
        let v := NR i / NR nr * (B2R (yc_radius y) * B2R (yc_radius y)) in
        v * (1 - (4 * NR i + 1) * eps) <= B2R (b i) * B2R (b i) <= v * (1 + (8 * NR i + 2) * eps).
  Proof.
    intros E G Mx My Hn. assert (Or : ordinary_radius (yc_radius y)) by (destruct (c140_radius _ _ _ _ _ _ _ _ _ _ _ E G Mx My) as [A [B _]]; split; assumption). destruct (cyl_new_val64 _ _ _ _ _ _ _ _ _ _ E) as [y' [G' [_ [_ [Er _]]]]]. rewrite G in G'. injection G' as <-.
    destruct (vol_err _ nr Or Hn) as [Fv [Ev [V1 [V2 N40]]]]. set (V := B2R (yc_radius y) * B2R (yc_radius y) / NR nr) in *. set (vol := ndiv _ _) in *.
    exists (fun i => bnd vol (N.to_nat i)). assert (P := eps_pos). assert (Le := eps_le).
    split. { change (bnd vol (N.to_nat 0)) with (f64_of_Z 0). apply of_Z_correct. lia. }
    assert (Len : length (yc_r y) = N.to_nat nr) by (rewrite Er; apply cyl_rings_length).
    assert (Nth : forall i, (i < nr)%N -> nth_error (yc_r y) (N.to_nat i) = Some (bnd vol (N.to_nat i), bnd vol (N.to_nat (i + 1)))).
    { intros i Hi. rewrite Er. change (n0 (F := f64)) with (bnd vol 0). rewrite rings_nth by lia. cbn [Nat.add]. do 3 f_equal. lia. }
    split. { unfold rim. assert (L : nth_error (yc_r y) (N.to_nat nr - 1) = Some (last (yc_r y) (n0, n0))).
      { rewrite <- Len. assert (X : yc_r y <> []) by (intros X; rewrite X in Len; cbn in Len; lia). destruct (exists_last X) as [l' [q ->]].
        rewrite last_last, app_length. cbn [length]. rewrite nth_error_app2 by lia. replace (length l' + 1 - 1 - length l')%nat with 0%nat by lia. reflexivity. }
      replace (N.to_nat nr - 1)%nat with (N.to_nat (nr - 1)) in L by lia. rewrite Nth in L by lia. assert (L' : last (yc_r y) (n0, n0) = (bnd vol (N.to_nat (nr - 1)), bnd vol (N.to_nat (nr - 1 + 1)))) by congruence.
      rewrite L'. cbn [snd]. f_equal. lia. }
    split; [exact Len|]. split; [exact Nth|]. intros i Hi.
    destruct (ring_err V vol (N.to_nat nr) N40 V1 V2 Fv Ev (N.to_nat i) ltac:(lia)) as [A [B [C D]]]. split; [exact A|]. split; [exact B|]. cbv zeta.
    assert (NI : forall n, NR n = INR (N.to_nat n)) by (intros n; unfold NR; now rewrite INR_IZR_INZ, N_nat_Z).
    assert (N1 := b40 (Z.of_N nr) ltac:(lia)). fold (NR nr) in N1.
    assert (K : INR (4 * N.to_nat i + 1) = 4 * NR i + 1) by (rewrite plus_INR, mult_INR, <- NI; cbn; lra).
    assert (E4 := eps40 (N.to_nat nr) (N.to_nat i) N40 ltac:(lia)). rewrite K in E4.
    assert (Lw := pow_low eps (4 * N.to_nat i + 1) ltac:(lra)). assert (Up := pow_up eps (4 * N.to_nat i + 1) ltac:(lra) ltac:(rewrite K; lra)). rewrite K in Lw, Up.
    rewrite <- NI in C, D. replace (NR i / NR nr * (B2R (yc_radius y) * B2R (yc_radius y))) with (NR i * V) by (unfold V; field; lra).
    assert (P10 := bpow_gt_0 radix2 (-1000)). assert (I0 : 0 <= NR i) by (rewrite NI; apply pos_INR). assert (IV : 0 <= NR i * V) by (apply Rmult_le_pos; lra).
    split.
    - apply Rle_trans with (2 := C). apply Rmult_le_compat_l; [exact IV | lra].
    - apply Rle_trans with (1 := D). apply Rmult_le_compat_l; [exact IV | lra].
  Qed.
  (** Up to 2^20 rings the boundaries strictly increase. *)
  Theorem c140_rings_increase (nr no nz : N) x0 x1 y0 y1 z0 z1 (g : grid f64) (y : cyl_geom f64) (i : N) a b :
    cyl_new (nr, no, nz) (ThreeD ((x0, x1), (y0, y1), (z0, z1))) true = Val g -> geo g = Cyl y ->
    moderate x0 x1 -> moderate y0 y1 -> (1 <= nr <= 2 ^ 20)%N -> (i < nr)%N ->
    nth_error (yc_r y) (N.to_nat i) = Some (a, b) -> B2R a < B2R b.
  Proof.
    intros E G Mx My Hn Hi Hab. assert (Or : ordinary_radius (yc_radius y)) by (destruct (c140_radius _ _ _ _ _ _ _ _ _ _ _ E G Mx My) as [A [B _]]; split; assumption). destruct (c140_rings _ _ _ _ _ _ _ _ _ _ _ E G Mx My ltac:(lia)) as [bb [_ [_ [_ [Nth Sq]]]]].
    rewrite Nth in Hab by exact Hi. assert (Ha : a = bb i) by congruence. assert (Hb : b = bb (i + 1)%N) by congruence. subst a b. clear Hab.
    destruct (Sq i ltac:(lia)) as [_ [A0 [_ A2]]]. destruct (Sq (i + 1)%N ltac:(lia)) as [_ [B0 [B1 _]]].
    destruct Or as [_ [R1 _]]. assert (P4 := bpow_gt_0 radix2 (-480)). set (q := B2R (yc_radius y) * B2R (yc_radius y)) in *.
    assert (Q0 : 0 < q) by (unfold q; apply Rmult_lt_0_compat; lra).
    assert (N1 : 1 <= NR nr) by (unfold NR; apply IZR_le; lia). assert (I0 : 0 <= NR i) by (unfold NR; apply IZR_le; lia).
    assert (I1 : NR (i + 1) = NR i + 1) by (unfold NR; rewrite N2Z.inj_add, plus_IZR; reflexivity).
    assert (I2 : NR i + 1 <= 1048576) by (rewrite <- I1; unfold NR; apply IZR_le; lia).
    rewrite I1 in B1. set (u := q / NR nr). assert (U0 : 0 < u) by (unfold u; apply Rdiv_lt_0_compat; lra).
    replace (NR i / NR nr * q) with (NR i * u) in A2 by (unfold u; field; lra). replace ((NR i + 1) / NR nr * q) with ((NR i + 1) * u) in B1 by (unfold u; field; lra).
    destruct (Rlt_le_dec (B2R (bb i)) (B2R (bb (i + 1)%N))) as [L|L]; [exact L|]. exfalso.
    assert (S : B2R (bb (i + 1)%N) * B2R (bb (i + 1)%N) <= B2R (bb i) * B2R (bb i)) by (apply Rmult_le_compat; lra).
    set (k := NR i) in *. clearbody k. clear - A2 B1 S U0 I0 I2. rewrite eps_val in *. set (e := / 9007199254740992) in *.
    assert (X : u * ((k + 1) * (1 - (4 * (k + 1) + 1) * e) - k * (1 + (8 * k + 2) * e)) <= 0).
    { replace (u * ((k + 1) * (1 - (4 * (k + 1) + 1) * e) - k * (1 + (8 * k + 2) * e))) with ((k + 1) * u * (1 - (4 * (k + 1) + 1) * e) - k * u * (1 + (8 * k + 2) * e)) by ring. lra. }
    assert (Y : 0 < (k + 1) * (1 - (4 * (k + 1) + 1) * e) - k * (1 + (8 * k + 2) * e)).
    { replace ((k + 1) * (1 - (4 * (k + 1) + 1) * e) - k * (1 + (8 * k + 2) * e)) with (1 - ((k + 1) * (4 * (k + 1) + 1) + k * (8 * k + 2)) * e) by ring.
      assert (Z : (k + 1) * (4 * (k + 1) + 1) + k * (8 * k + 2) <= 1048576 * 5242880 + 1048576 * 9437184) by (apply Rplus_le_compat; apply Rmult_le_compat; lra).
      assert (W : ((k + 1) * (4 * (k + 1) + 1) + k * (8 * k + 2)) * e <= (1048576 * 5242880 + 1048576 * 9437184) * e) by (apply Rmult_le_compat_r; [unfold e; lra | exact Z]).
      unfold e in *. lra. }
    assert (0 < u * ((k + 1) * (1 - (4 * (k + 1) + 1) * e) - k * (1 + (8 * k + 2) * e))) by now apply Rmult_lt_0_compat. lra.
  Qed.

  (** ** The cell of a position *)
  Lemma sqrt_shape (x : f64) (b : f64) : is_finite b = true -> Bleb (Bsqrt mode_NE x) b = true ->
    is_finite (Bsqrt mode_NE x) = true /\ 0 <= B2R (Bsqrt mode_NE x).
  Proof.
    intros Fb H. destruct (Bsqrt_correct 53 1024 _ _ mode_NE x) as [A [B _]]. split; [|rewrite A; apply rnd_nonneg, sqrt_pos].
    rewrite B. destruct x as [s|[|]| |[|] m e Hx]; try reflexivity; cbn in H; destruct b as [s|[|]| |s m' e' H']; cbn in *; try discriminate.
  Qed.
  Lemma between_finite (a b x : f64) : is_finite a = true -> is_finite b = true -> Bleb a x = true -> Bleb x b = true -> is_finite x = true /\ B2R a <= B2R x <= B2R b.
  Proof.
    intros Fa Fb A B. assert (Fx : is_finite x = true).
    { destruct x as [s|[|]| |s m e H]; try reflexivity; destruct a as [s1|[|]| |s1 m1 e1 H1], b as [s2|[|]| |s2 m2 e2 H2]; cbn in *; try discriminate;
        repeat match goal with s : bool |- _ => destruct s end; cbn in *; discriminate. }
    split; [exact Fx|]. apply Bleb_R in A, B; auto.
  Qed.
  Lemma zedges_64 n (lo hi : f64) k e : nth_error (cyl_zedges n lo hi) k = Some e -> (k < N.to_nat n)%nat /\ e = zedge lo hi (Z.of_N n) (Z.of_nat k).
  Proof.
    intros H. assert (Hk : (k < N.to_nat n)%nat) by (rewrite <- (zedges_length n lo hi); apply nth_error_Some; congruence).
    split; [exact Hk|]. unfold cyl_zedges in H. cbv zeta in H. rewrite nth_error_map, range_nth_error in H by lia. cbn [option_map] in H.
    rewrite N.add_0_l in H. unfold nofN in H. rewrite nat_N_Z in H. unfold zedge. cbn [nadd nmul ndiv nsub nof num_f64] in H. congruence.
  Qed.
  Lemma oedges_64 n k e : nth_error (cyl_oedges (F := f64) n) k = Some e -> (k < N.to_nat n)%nat /\ e = oedge npi (Z.of_N n) (Z.of_nat k).
  Proof.
    intros H. assert (Hl : length (cyl_oedges (F := f64) n) = N.to_nat n) by (unfold cyl_oedges; rewrite map_length, range_length; lia).
    assert (Hk : (k < N.to_nat n)%nat) by (rewrite <- Hl; apply nth_error_Some; congruence).
    split; [exact Hk|]. unfold cyl_oedges in H. cbv zeta in H. rewrite nth_error_map, range_nth_error in H by lia. cbn [option_map] in H.
    rewrite N.add_0_l in H. unfold nofN in H. rewrite nat_N_Z in H. unfold oedge. unfold n2 in H. cbn [nadd nmul ndiv nsub nof nneg num_f64] in H. congruence.
  Qed.
  (** What is assumed of the constant PI: a double between 3 and 4. *)
  Definition pi_sane : Prop := is_finite (npi (F := f64)) = true /\ 3 <= B2R npi <= 4.
  Lemma edge_between lo hi n k : lo <= hi -> (k < n)%N -> lo <= upper_edge lo hi n k <= hi.
  Proof.
    intros H Hk. unfold upper_edge. assert (N1 : 0 < NR n) by (apply IZR_lt; lia). assert (K0 : 0 <= NR k) by (apply IZR_le; lia).
    assert (Kn : NR k + 1 <= NR n) by (unfold NR; rewrite <- plus_IZR; apply IZR_le; lia).
    assert (X : 0 <= (NR k + 1) * ((hi - lo) / NR n) <= hi - lo); [|lra].
    replace ((NR k + 1) * ((hi - lo) / NR n)) with ((hi - lo) * ((NR k + 1) / NR n)) by (field; lra).
    assert (Y : 0 <= (NR k + 1) / NR n <= 1).
    { split; [apply Rlt_le, Rdiv_lt_0_compat; lra|]. apply Rmult_le_reg_r with (NR n); [exact N1|]. unfold Rdiv. rewrite Rmult_assoc, Rinv_l by lra. lra. }
    nra.
  Qed.
  Lemma near_w e t v a b w d : Rabs (e - t) <= d -> a <= t <= b -> a <= v <= b -> b - a + d <= w -> Rabs (e - v) <= w.
  Proof. intros H1 H2 H3 H4. apply Rabs_le_inv in H1. apply Rabs_le. lra. Qed.
  Theorem c140_lookup (bld : build) (nr no nz : N) x0 x1 y0 y1 z0 z1 (g g1 : grid f64) (y : cyl_geom f64) (p : pos3 f64) (v : f64) :
    pi_sane -> (1 <= nr <= 2 ^ 40)%N -> (1 <= no <= 2 ^ 40)%N -> (1 <= nz <= 2 ^ 40)%N ->
    moderate x0 x1 -> moderate y0 y1 -> moderate z0 z1 ->
    cyl_new (nr, no, nz) (ThreeD ((x0, x1), (y0, y1), (z0, z1))) true = Val g -> geo g = Cyl y ->
    geo g1 = geo g -> wf_grid g1 -> is_inside g1 p = true ->
    forall r o z, to_cylindrical y p = (r, o, z) -> nleb r (rim y) = true ->
    exists i j k a b g2, cell_id bld g1 p = Val (Some (i, j, k)) /\
      (i < nr)%N /\ nth_error (yc_r y) (N.to_nat i) = Some (a, b) /\ B2R a <= B2R r <= B2R b /\
      nearest_up_to (bpow radix2 (-45)) (- B2R npi) (B2R npi) no (B2R o) j /\
      nearest_up_to (reach z0 z1 / bpow radix2 48) (B2R z0) (B2R z1) nz (B2R z) k /\
      add_value bld g1 p v = Val g2 /\
      only_cell g1 g2 (i, j, k) (nadd (at3 (data g1) (i, j, k)) v) (nadd (at3 (weight g1) (i, j, k)) n1).
  Proof.
    intros [Fpi Hpi] Hr Ho Hz Mx My Mz E G G1 W Hin r o z Cy Hrim. assert (P := eps_pos). assert (Le := eps_le).
    destruct (cyl_new_val64 _ _ _ _ _ _ _ _ _ _ E) as [y' [G' [Cc [_ [Er [Eo [Ez [Ce El]]]]]]]]. rewrite G in G'. injection G' as <-.
    destruct (c140_radius _ _ _ _ _ _ _ _ _ _ _ E G Mx My) as [Fra [Hra _]].
    destruct (c140_rings _ _ _ _ _ _ _ _ _ _ _ E G Mx My Hr) as [bb [B0 [Brim [Len [Nth Sq]]]]].
    unfold is_inside in Hin. rewrite G1, G in Hin. cbn [geom_inside] in Hin. unfold cyl_inside in Hin. rewrite Cy, El in Hin.
    apply andb_true_iff in Hin. destruct Hin as [Hin Hzi]. apply andb_true_iff in Hin. destruct Hin as [_ Hoi].
    apply andb_true_iff in Hzi. destruct Hzi as [Hz1 Hz2]. apply andb_true_iff in Hoi. destruct Hoi as [Ho1 Ho2]. cbn [fst snd nleb num_f64] in Hz1, Hz2, Ho1, Ho2, Hrim.
    assert (Mz' := Mz). destruct Mz' as [Fz0 [Fz1 [Bz0 [Bz1 Lz]]]].
    destruct (between_finite z0 z1 z Fz0 Fz1 Hz1 Hz2) as [Fz Iz]. destruct (between_finite (nneg npi) npi o) as [Fo Io]; [cbn [nneg num_f64]; now rewrite is_finite_Bopp | exact Fpi | exact Ho1 | exact Ho2|].
    cbn [nneg num_f64] in Io. rewrite B2R_Bopp in Io.
    (* the ring *)
    assert (Fr : is_finite r = true /\ 0 <= B2R r).
    { assert (Frim : is_finite (rim y) = true) by (rewrite <- Brim; apply Sq, N.le_refl).
      unfold to_cylindrical in Cy. destruct p as [[p0 p1] p2], (yc_center y) as [[c0 c1] c2]. cbv zeta in Cy. cbn [nsqrt num_f64] in Cy.
      assert (Hx := f_equal (fun t => fst (fst t)) Cy). cbn [fst] in Hx. rewrite <- Hx in Hrim |- *. now apply (sqrt_shape _ (rim y)). }
    destruct Fr as [Fr R0].
    assert (Frim : is_finite (rim y) = true) by (rewrite <- Brim; apply Sq, N.le_refl). apply Bleb_R in Hrim; [|assumption..].
    destruct (ring_of (yc_r y) 0 r None) as [i|] eqn:Ei.
    2:{ exfalso. rewrite ring_of_none in Ei. clear - Ei Nth Sq Brim R0 Fr Hrim Hr B0.
      assert (Gm : forall m : nat, (N.of_nat m <= nr)%N -> B2R (bb (N.of_nat m)) <= B2R r /\ ((0 < m)%nat -> B2R (bb (N.of_nat m)) < B2R r)).
      { induction m as [|m IH]; intros Hm. { split; [cbn [N.of_nat]; lra | nlia]. }
        destruct (IH ltac:(nlia)) as [A _]. assert (Q := Nth (N.of_nat m) ltac:(nlia)). apply nth_error_In in Q. apply Ei in Q.
        replace (N.of_nat m + 1)%N with (N.of_nat (S m)) in Q by nlia. apply not_true_iff_false in Q. rewrite holds_R in Q; [|cbn [fst snd]; apply Sq; nlia..|exact Fr]. cbn [fst snd] in Q.
        split; [|intros _]; destruct (Rle_dec (B2R r) (B2R (bb (N.of_nat (S m))))) as [L|L]; try lra; exfalso; apply Q; lra. }
      destruct (Gm (N.to_nat nr) ltac:(nlia)) as [_ A]. rewrite N2Nat.id, Brim in A. specialize (A ltac:(nlia)). lra. }
    destruct (ring_of_in _ _ _ _ _ Ei) as [A|[i' [q [Hi' [Hq Hh]]]]]; [discriminate A|].
    assert (Li : (i' < N.to_nat nr)%nat) by (rewrite <- Len; apply nth_error_Some; congruence).
    assert (Hi : (i < nr)%N) by nlia. replace i' with (N.to_nat i) in Hq by nlia. assert (Nq := Nth i Hi). rewrite Nq in Hq. assert (Hqq : q = (bb i, bb (i + 1)%N)) by congruence. subst q.
    apply holds_R in Hh; [|cbn [fst snd]; apply Sq; nlia..|exact Fr]. cbn [fst snd] in Hh.
    (* the sector *)
    assert (Hon : (1 <= no)%N) by apply Ho. assert (Hzn : (1 <= nz)%N) by apply Hz.
    destruct (nearest_64 (yc_o y) o (fun k => upper_edge (- B2R npi) (B2R npi) no (N.of_nat k)) (64 * eps) 9) as [j [Ej [Lj Nj]]].
    { rewrite Eo. intros X. assert (L0 := f_equal (@length f64) X). unfold cyl_oedges in L0. rewrite map_length, range_length in L0. cbn in L0. nlia. }
    { exact Fo. }
    { split; [lra|]. apply Rle_trans with (bpow radix2 4); [cbn; lra | apply bpow_le; nlia]. }
    { rewrite Eo. intros k e Hk. destruct (oedges_64 no k e Hk) as [Kn ->].
      assert (Hpp : - B2R npi <= B2R npi) by lra. assert (Kn' : (N.of_nat k < no)%N) by nlia.
      destruct (oedge_err npi (Z.of_N no) (Z.of_nat k) Fpi Hpi ltac:(nlia) ltac:(nlia)) as [A B].
      split; [exact A|]. assert (Te : upper_edge (- B2R npi) (B2R npi) no (N.of_nat k) = - B2R npi + (IZR (Z.of_nat k) + 1) * (2 * B2R npi / IZR (Z.of_N no))).
      { unfold upper_edge, NR. rewrite nat_N_Z. do 3 f_equal. unfold Rdiv. ring. }
      assert (B' : Rabs (B2R (oedge npi (Z.of_N no) (Z.of_nat k)) - upper_edge (- B2R npi) (B2R npi) no (N.of_nat k)) <= 64 * eps) by (rewrite Te; exact B). clear B.
      split; [exact B'|]. assert (B := B'). clear Te B'. assert (Be := edge_between (- B2R npi) (B2R npi) no (N.of_nat k) Hpp Kn').
      apply (near_w _ _ _ _ _ _ _ B Be Io). assert (Hp4 := proj2 Hpi). lra. }
    assert (Lo : length (yc_o y) = N.to_nat no) by (rewrite Eo; unfold cyl_oedges; rewrite map_length, range_length; nlia). rewrite Lo in Lj, Nj.
    (* the layer *)
    assert (Rc0 : 0 <= reach z0 z1) by (unfold reach; assert (Y1 := Rabs_pos (B2R z0)); assert (Y2 := Rabs_pos (B2R z1)); lra).
    assert (Pz := bpow_gt_0 radix2 (-470)). assert (Lr := len_reach z0 z1). unfold len in Lr.
    assert (U480 : bpow radix2 470 <= bpow radix2 480) by (apply bpow_le; nlia).
    assert (D480 : bpow radix2 (-480) <= bpow radix2 (-470)) by (apply bpow_le; nlia).
    destruct (nearest_64 (yc_z y) z (fun k => upper_edge (B2R z0) (B2R z1) nz (N.of_nat k)) (8 * eps * reach z0 z1) (2 * reach z0 z1)) as [k [Ek [Lk Nk]]].
    { rewrite Ez. intros X. assert (L0 := f_equal (@length f64) X). rewrite zedges_length in L0. cbn in L0. nlia. }
    { exact Fz. }
    { split; [lra|]. unfold reach. apply Rle_trans with (4 * bpow radix2 470); [lra|]. change 4 with (bpow radix2 2). rewrite <- bpow_plus. apply bpow_le. nlia. }
    { rewrite Ez. intros k e Hk. destruct (zedges_64 nz z0 z1 k e Hk) as [Kn ->]. assert (Hpp : B2R z0 <= B2R z1) by lra. assert (Kn' : (N.of_nat k < nz)%N) by nlia.
      destruct (zedge_err z0 z1 (Z.of_N nz) (Z.of_nat k) Fz0 Fz1 ltac:(lra) ltac:(lra) ltac:(lra) ltac:(nlia) ltac:(nlia)) as [A B].
      split; [exact A|]. assert (Te : upper_edge (B2R z0) (B2R z1) nz (N.of_nat k) = B2R z0 + (IZR (Z.of_nat k) + 1) * ((B2R z1 - B2R z0) / IZR (Z.of_N nz))).
      { unfold upper_edge, NR. rewrite nat_N_Z. reflexivity. }
      assert (B' : Rabs (B2R (zedge z0 z1 (Z.of_N nz) (Z.of_nat k)) - upper_edge (B2R z0) (B2R z1) nz (N.of_nat k)) <= 8 * eps * reach z0 z1) by (rewrite Te; exact B). clear B.
      split; [exact B'|]. assert (B := B'). clear Te B'. assert (Be := edge_between (B2R z0) (B2R z1) nz (N.of_nat k) Hpp Kn').
      assert (8 * eps * reach z0 z1 <= / 2 * reach z0 z1) by (apply Rmult_le_compat_r; lra).
      apply (near_w _ _ _ _ _ _ _ B Be Iz). lra. }
    assert (Lz' : length (yc_z y) = N.to_nat nz) by (rewrite Ez; apply zedges_length). rewrite Lz' in Lk, Nk.
    assert (Ec : cell_id bld g1 p = Val (Some (i, N.of_nat j, N.of_nat k))).
    { unfold cell_id. rewrite G1, G. cbn [geom_cell_id]. unfold cyl_cell_id. rewrite Cy, Ei. cbn [unwrap bind]. rewrite Ej. cbn [unwrap bind]. rewrite Ek. reflexivity. }
    destruct (add_value_in bld g1 p v _ W Ec) as [g2 [E2 O2]].
    { rewrite G1, G. cbn [geom_cells]. rewrite Cc. apply inb3_lt. nlia. }
    exists i, (N.of_nat j), (N.of_nat k), (bb i), (bb (i + 1)%N), g2. split; [exact Ec|]. split; [exact Hi|]. split; [exact Nq|]. split; [exact Hh|].
    split. { split; [nlia|]. intros j' Hj'. specialize (Nj (N.to_nat j') ltac:(nlia)). rewrite N2Nat.id in Nj. apply Rle_trans with (1 := Nj).
      assert (X : 2 * (64 * eps) + 2 * eps * 9 <= bpow radix2 (-45)) by (replace (-45)%Z with (8 + -53)%Z by nlia; rewrite bpow_plus; fold eps; change (bpow radix2 8) with 256; lra). lra. }
    split. { split; [nlia|]. intros j' Hj'. specialize (Nk (N.to_nat j') ltac:(nlia)). rewrite N2Nat.id in Nk. apply Rle_trans with (1 := Nk).
      assert (X : 32 * (eps * reach z0 z1) = reach z0 z1 / bpow radix2 48).
      { unfold eps, Rdiv. rewrite <- bpow_opp. change 32 with (bpow radix2 5). replace (- (48))%Z with (5 + -53)%Z by nlia. rewrite bpow_plus. ring. }
      rewrite <- X. assert (0 <= eps * reach z0 z1) by (apply Rmult_le_pos; lra). lra. }
    split; [exact E2 | exact O2].
  Qed.
  (** ** The distance from the axis *)
  Theorem c140_distance (nr no nz : N) x0 x1 y0 y1 z0 z1 (g : grid f64) (y : cyl_geom f64) (p0 p1 p2 r o z : f64) :
    cyl_new (nr, no, nz) (ThreeD ((x0, x1), (y0, y1), (z0, z1))) true = Val g -> geo g = Cyl y -> moderate x0 x1 -> moderate y0 y1 ->
    is_finite p0 = true -> is_finite p1 = true -> Rabs (B2R p0) <= bpow radix2 470 -> Rabs (B2R p1) <= bpow radix2 470 ->
    to_cylindrical y (p0, p1, p2) = (r, o, z) ->
    is_finite r = true /\ 0 <= B2R r /\
    Rabs (B2R r - axis_distance64 y (p0, p1, p2)) <= 10 * eps * axis_distance64 y (p0, p1, p2) + 2 * tiny.
  Proof.
    intros E G Mx My F0 F1 B0 B1 Cy. assert (P := eps_pos). assert (Le := eps_le). assert (T := tiny_sq). assert (H0 := eta_pos). assert (T0 := tiny_pos). assert (Te := eta_tiny).
    destruct (cyl_new_val64 _ _ _ _ _ _ _ _ _ _ E) as [y' [G' [_ [_ [_ [_ [_ [Ce _]]]]]]]]. rewrite G in G'. injection G' as <-.
    destruct (mid_err x0 x1 Mx) as [Fx [Bx _]]. destruct (mid_err y0 y1 My) as [Fy [By _]].
    unfold to_cylindrical in Cy. unfold axis_distance64. rewrite Ce in *. cbv zeta in Cy.
    set (cx := ndiv (nadd x0 x1) n2) in *. set (cy := ndiv (nadd y0 y1) n2) in *.
    destruct (abs_diff p0 cx 470 ltac:(lia) F0 Fx B0 Bx) as [Fdx [Edx _]]. destruct (abs_diff p1 cy 470 ltac:(lia) F1 Fy B1 By) as [Fdy [Edy _]].
    assert (B471 : bpow radix2 471 = 2 * bpow radix2 470) by (replace 471%Z with (1 + 470)%Z by lia; rewrite bpow_plus; reflexivity).
    assert (L471 : bpow radix2 471 <= bpow radix2 500) by (apply bpow_le; lia).
    assert (U0 : Rabs (B2R p0 - B2R cx) <= bpow radix2 471) by (unfold Rminus; apply Rle_trans with (1 := Rabs_triang _ _); rewrite Rabs_Ropp; lra).
    assert (U1 : Rabs (B2R p1 - B2R cy) <= bpow radix2 471) by (unfold Rminus; apply Rle_trans with (1 := Rabs_triang _ _); rewrite Rabs_Ropp; lra).
    destruct (within_rnd _ 471 ltac:(lia) U0) as [W0 _]. destruct (within_rnd _ 471 ltac:(lia) U1) as [W1 _].
    destruct (rnd_diff p0 cx) as [e0 [He0 D0]]. destruct (rnd_diff p1 cy) as [e1 [He1 D1]]. assert (G0 := factor _ He0). assert (G1 := factor _ He1).
    set (dx := nsub p0 cx) in *. set (dy := nsub p1 cy) in *.
    assert (Hx := f_equal (fun t => fst (fst t)) Cy). cbn [fst] in Hx. cbn [nsqrt nadd nmul num_f64] in Hx. subst r. clear Cy.
    destruct (square_err dx Fdx) as [F2 [B2 E2]]; [rewrite Edx; lra|]. destruct (square_err dy Fdy) as [F3 [B3 E3]]; [rewrite Edy; lra|].
    rewrite Edx, D0 in E2. rewrite Edy, D1 in E3.
    set (a := Bmult mode_NE dx dx) in *. set (b := Bmult mode_NE dy dy) in *.
    destruct (plus_err a b 1000 ltac:(lia) F2 F3 B2 B3) as [F4 [B4 E4]]. set (S := Bplus mode_NE a b) in *.
    destruct (sqrt_R S F4 (proj1 B4)) as [F5 E5]. split; [exact F5|]. rewrite E5. split; [apply rnd_nonneg, sqrt_pos|].
    set (u := B2R p0 - B2R cx) in *. set (v := B2R p1 - B2R cy) in *.
    assert (X0 : 0 <= u * u) by apply Rle_0_sqr. assert (Y0 : 0 <= v * v) by apply Rle_0_sqr. set (s := u * u + v * v) in *.
    assert (Bnd : (1 - 4 * (2 * eps)) * s - tiny * tiny <= B2R S <= (1 + 4 * (2 * eps)) * s + tiny * tiny).
    { apply Rabs_le_inv in E2, E3, E4.
      assert (K : forall e q : R, 0 <= q * q -> 1 - eps <= 1 + e <= 1 + eps -> (1 - 3 * eps) * (q * q) <= q * (1 + e) * (q * (1 + e)) <= (1 + 3 * eps) * (q * q)).
      { intros e q Q He. replace (q * (1 + e) * (q * (1 + e))) with ((1 + e) * (1 + e) * (q * q)) by ring. assert ((1 - eps) * (1 - eps) <= (1 + e) * (1 + e) <= (1 + eps) * (1 + eps)) by (split; apply Rmult_le_compat; lra).
        assert (0 <= eps * eps) by (apply Rmult_le_pos; lra). assert (eps * eps <= / 10 * eps) by (apply Rmult_le_compat_r; lra).
        split; apply Rmult_le_compat_r; lra. }
      assert (K0 := K e0 u X0 G0). assert (K1 := K e1 v Y0 G1). set (u2 := u * (1 + e0) * (u * (1 + e0))) in *. set (v2 := v * (1 + e1) * (v * (1 + e1))) in *.
      assert (S0 : 0 <= s) by (unfold s; lra). assert (es : 0 <= eps * s) by (apply Rmult_le_pos; lra).
      assert (UV : (1 - 3 * eps) * s <= u2 + v2 <= (1 + 3 * eps) * s) by (unfold s; lra).
      assert (AB : (1 - eps) * (u2 + v2) - 2 * eta <= B2R a + B2R b <= (1 + eps) * (u2 + v2) + 2 * eta) by lra.
      assert (C1 : (1 - eps) * ((1 - 3 * eps) * s) <= (1 - eps) * (u2 + v2)) by (apply Rmult_le_compat_l; lra).
      assert (C2 : (1 + eps) * (u2 + v2) <= (1 + eps) * ((1 + 3 * eps) * s)) by (apply Rmult_le_compat_l; lra).
      assert (ees : eps * (eps * s) <= / 10 * (eps * s)) by (apply Rmult_le_compat_r; lra). assert (ees0 : 0 <= eps * (eps * s)) by (apply Rmult_le_pos; lra).
      assert (AB' : (1 - 4 * eps) * s - 2 * eta <= B2R a + B2R b <= (1 + 5 * eps) * s + 2 * eta) by lra.
      assert (C3 : eps * (B2R a + B2R b) <= eps * ((1 + 5 * eps) * s + 2 * eta)) by (apply Rmult_le_compat_l; lra).
      assert (C4 : eps * eta <= / 10 * eta) by (apply Rmult_le_compat_r; lra).
      lra. }
    assert (S0 : 0 <= s) by (unfold s; lra).
    assert (Rt := root_err (2 * eps) s (B2R S) ltac:(split; [lra | rewrite eps_val; lra]) S0 (proj1 B4) Bnd).
    destruct (rnd_ex (sqrt (B2R S))) as [e [dd [He [Hd Ee]]]]. rewrite Ee. assert (R1 := sqrt_pos s). set (D := sqrt s) in *. assert (Ge := factor _ He).
    replace (sqrt (B2R S) * (1 + e) + dd - D) with ((sqrt (B2R S) - D) * (1 + e) + e * D + dd) by ring.
    apply Rabs_le_inv in Rt, He, Hd. apply Rabs_le. set (w := sqrt (B2R S) - D) in *.
    assert (eD : 0 <= eps * D) by (apply Rmult_le_pos; lra). assert (eeD : eps * (eps * D) <= / 10 * (eps * D)) by (apply Rmult_le_compat_r; lra).
    assert (J1 : - (eps * D) <= e * D <= eps * D) by (split; [replace (- (eps * D)) with (- eps * D) by ring|]; apply Rmult_le_compat_r; lra).
    set (M := 4 * (2 * eps) * D + tiny) in *. assert (M0 : 0 <= M) by (unfold M; lra).
    assert (J2 : - (M * (1 + eps)) <= w * (1 + e) <= M * (1 + eps)).
    { assert (J : Rabs (w * (1 + e)) <= M * (1 + eps)); [|apply Rabs_le_inv in J; lra]. rewrite Rabs_mult. apply Rmult_le_compat; try apply Rabs_pos; [apply Rabs_le; lra | rewrite Rabs_pos_eq; lra]. }
    assert (Et : eps * tiny <= / 10 * tiny) by (apply Rmult_le_compat_r; lra). unfold M in J2. lra.
  Qed.
  (** A position whose distance from the axis stays below the outer radius by a few units of rounding per ring is not beyond the rim. *)
  Theorem c140_rim (nr no nz : N) x0 x1 y0 y1 z0 z1 (g : grid f64) (y : cyl_geom f64) (p0 p1 p2 r o z : f64) :
    cyl_new (nr, no, nz) (ThreeD ((x0, x1), (y0, y1), (z0, z1))) true = Val g -> geo g = Cyl y -> moderate x0 x1 -> moderate y0 y1 -> (1 <= nr <= 2 ^ 40)%N ->
    is_finite p0 = true -> is_finite p1 = true -> Rabs (B2R p0) <= bpow radix2 470 -> Rabs (B2R p1) <= bpow radix2 470 ->
    to_cylindrical y (p0, p1, p2) = (r, o, z) ->
    axis_distance64 y (p0, p1, p2) <= B2R (yc_radius y) * (1 - (4 * NR nr + 16) * eps) ->
    nleb r (rim y) = true /\ nleb r (yc_radius y) = true.
  Proof.
    intros E G Mx My Hn F0 F1 B0 B1 Cy Hd. assert (P := eps_pos). assert (Le := eps_le).
    destruct (c140_distance _ _ _ _ _ _ _ _ _ _ _ _ _ _ _ _ _ E G Mx My F0 F1 B0 B1 Cy) as [Fr [R0 Dr]].
    destruct (c140_radius _ _ _ _ _ _ _ _ _ _ _ E G Mx My) as [Fra [[Ra1 Ra2] _]].
    destruct (c140_rings _ _ _ _ _ _ _ _ _ _ _ E G Mx My Hn) as [bb [_ [Brim [_ [_ Sq]]]]]. destruct (Sq nr (N.le_refl _)) as [Frim [M0 [M1 _]]]. rewrite Brim in Frim, M0, M1. clear Sq.
    assert (D0 : 0 <= axis_distance64 y (p0, p1, p2)) by (unfold axis_distance64; destruct (yc_center y) as [[c0 c1] c2]; apply sqrt_pos).
    set (D := axis_distance64 y (p0, p1, p2)) in *. set (Q := B2R (yc_radius y)) in *.
    assert (N1 := b40 (Z.of_N nr) ltac:(nlia)). fold (NR nr) in N1. replace (NR nr / NR nr) with 1 in M1 by (field; lra). rewrite Rmult_1_l in M1.
    assert (Q0 : 0 < Q) by (assert (X := bpow_gt_0 radix2 (-480)); lra).
    set (k := NR nr) in *. assert (K13 : (4 * k + 16) * eps <= / 2).
    { apply Rle_trans with (bpow radix2 43 * eps); [apply Rmult_le_compat_r; [lra|]|unfold eps; rewrite <- bpow_plus; apply Rle_trans with (bpow radix2 (-1)); [apply bpow_le; lia | apply Rle_refl]].
      replace 43%Z with (3 + 40)%Z by lia. rewrite bpow_plus. change (bpow radix2 3) with 8. assert (X : bpow radix2 3 <= bpow radix2 40) by (apply bpow_le; lia). change (bpow radix2 3) with 8 in X. lra. }
    assert (T : 2 * tiny <= eps * Q).
    { apply Rle_trans with (eps * bpow radix2 (-480)); [|apply Rmult_le_compat_l; lra]. unfold tiny, eps. change 2 with (bpow radix2 1). rewrite <- !bpow_plus. apply bpow_le. lia. }
    apply Rabs_le_inv in Dr.
    assert (ke : 0 <= k * eps) by (apply Rmult_le_pos; lra). assert (DQ : D <= Q) by (apply Rle_trans with (1 := Hd); rewrite <- (Rmult_1_r Q) at 2; apply Rmult_le_compat_l; lra).
    assert (eD : eps * D <= eps * Q) by (apply Rmult_le_compat_l; lra).
    assert (Z1 : B2R r <= Q * (1 - (4 * k + 1) * eps)) by lra.
    assert (Z2 : Q * (1 - (4 * k + 1) * eps) <= B2R (rim y)).
    { apply sq_le; [exact M0|]. apply Rle_trans with (2 := M1). set (h := (4 * k + 1) * eps) in *. assert (0 <= h <= 1) by (unfold h; lra).
      replace (Q * (1 - h) * (Q * (1 - h))) with (Q * Q * ((1 - h) * (1 - h))) by ring. apply Rmult_le_compat_l; [apply Rle_0_sqr|]. nra. }
    split; cbn [nleb num_f64]; apply Bleb_R; try assumption; [lra|]. fold Q. apply Rle_trans with (1 := Z1). rewrite <- (Rmult_1_r Q) at 2. apply Rmult_le_compat_l; lra.
  Qed.
  (** So it lands in a cell and changes only that cell. *)
  Theorem c140_found (bld : build) (nr no nz : N) x0 x1 y0 y1 z0 z1 (g g1 : grid f64) (y : cyl_geom f64) (p0 p1 p2 r o z v : f64) :
    pi_sane -> (1 <= nr <= 2 ^ 40)%N -> (1 <= no <= 2 ^ 40)%N -> (1 <= nz <= 2 ^ 40)%N ->
    moderate x0 x1 -> moderate y0 y1 -> moderate z0 z1 ->
    cyl_new (nr, no, nz) (ThreeD ((x0, x1), (y0, y1), (z0, z1))) true = Val g -> geo g = Cyl y ->
    geo g1 = geo g -> wf_grid g1 ->
    is_finite p0 = true -> is_finite p1 = true -> Rabs (B2R p0) <= bpow radix2 470 -> Rabs (B2R p1) <= bpow radix2 470 ->
    to_cylindrical y (p0, p1, p2) = (r, o, z) ->
    axis_distance64 y (p0, p1, p2) <= B2R (yc_radius y) * (1 - (4 * NR nr + 16) * eps) ->
    in_interval (nneg npi, npi) o = true -> in_interval (z0, z1) p2 = true ->
    is_inside g1 (p0, p1, p2) = true /\
    exists i j k g2, cell_id bld g1 (p0, p1, p2) = Val (Some (i, j, k)) /\ (i < nr)%N /\ (j < no)%N /\ (k < nz)%N /\
      add_value bld g1 (p0, p1, p2) v = Val g2 /\
      only_cell g1 g2 (i, j, k) (nadd (at3 (data g1) (i, j, k)) v) (nadd (at3 (weight g1) (i, j, k)) n1).
  Proof.
    intros Hpi Hr Ho Hz Mx My Mz E G G1 W F0 F1 B0 B1 Cy Hd Io Iz.
    destruct (c140_rim _ _ _ _ _ _ _ _ _ _ _ _ _ _ _ _ _ E G Mx My Hr F0 F1 B0 B1 Cy Hd) as [Hrim Hrad].
    assert (Zp : z = p2).
    { unfold to_cylindrical in Cy. destruct (yc_center y) as [[c0 c1] c2]. cbv zeta in Cy. assert (Q := f_equal snd Cy). cbn [snd] in Q. now symmetry. }
    assert (Hin : is_inside g1 (p0, p1, p2) = true).
    { destruct (cyl_new_val64 _ _ _ _ _ _ _ _ _ _ E) as [y' [G' [_ [_ [_ [_ [_ [_ El]]]]]]]]. rewrite G in G'. injection G' as <-.
      unfold is_inside. rewrite G1, G. cbn [geom_inside]. unfold cyl_inside. rewrite Cy, El, Zp. cbv zeta. apply andb_true_iff. split; [|exact Iz]. apply andb_true_iff. split; [exact Hrad | exact Io]. }
    split; [exact Hin|]. destruct (c140_lookup bld _ _ _ _ _ _ _ _ _ _ _ _ _ v Hpi Hr Ho Hz Mx My Mz E G G1 W Hin r o z Cy Hrim) as [i [j [k [a [b [g2 [Q1 [Q2 [_ [_ [Q3 [Q4 [Q5 Q6]]]]]]]]]]]]].
    exists i, j, k, g2. split; [exact Q1|]. split; [exact Q2|]. split; [apply Q3|]. split; [apply Q4|]. split; [exact Q5 | exact Q6].
  Qed.
End Doubles.

(** ** Cases the theorems apply to *)
Lemma moderate_ints (a b : Z) : (- 2 ^ 50 <= a)%Z -> (a < b)%Z -> (b <= 2 ^ 50)%Z -> moderate (d a) (d b).
Proof.
  intros Ha Hab Hb. destruct (d_val a ltac:(lia)) as [Ea Fa]. destruct (d_val b ltac:(lia)) as [Eb Fb]. unfold moderate. rewrite Ea, Eb.
  assert (X : IZR (2 ^ 50) <= bpow radix2 470) by (change (2 ^ 50)%Z with (Zpower radix2 50); rewrite IZR_Zpower by lia; apply bpow_le; lia).
  assert (Y : forall c, (- 2 ^ 50 <= c <= 2 ^ 50)%Z -> Rabs (IZR c) <= bpow radix2 470).
  { intros c Hc. apply Rle_trans with (2 := X). rewrite <- abs_IZR. apply IZR_le. lia. }
  split; [exact Fa|]. split; [exact Fb|]. split; [apply Y; lia|]. split; [apply Y; lia|]. rewrite <- minus_IZR.
  apply Rle_trans with (bpow radix2 0); [apply bpow_le; lia|]. change (bpow radix2 0) with 1. apply IZR_le. lia.
Qed.
(** A cylinder of six rings around the origin and the position (1, 2, 3): the hypotheses of [c140_lookup], [c140_rim] and [c140_found]. *)
Example c140_case {TF : Trig f64} :
  moderate (d (-4)) (d 4) /\ moderate (d 0) (d 10) /\
  exists (g : grid f64) (y : cyl_geom f64),
    cyl_new (6, 8, 5)%N (ThreeD ((d (-4), d 4), (d (-4), d 4), (d 0, d 10))) true = Val g /\ geo g = Cyl y /\ wf_grid g /\
    axis_distance64 y (d 1, d 2, d 3) <= B2R (yc_radius y) * (1 - (4 * NR 6 + 16) * eps) /\
    in_interval (d 0, d 10) (d 3) = true.
Proof.
  assert (Mx : moderate (d (-4)) (d 4)) by (apply moderate_ints; lia). split; [exact Mx|]. split; [apply moderate_ints; lia|].
  destruct (cyl_new (6, 8, 5)%N (ThreeD ((d (-4), d 4), (d (-4), d 4), (d 0, d 10))) true) as [g|] eqn:E; [|discriminate E].
  destruct (cyl_new_val64 _ _ _ _ _ _ _ _ _ _ E) as [y [G [_ [_ [_ [_ [_ [Ce _]]]]]]]]. exists g, y. split; [reflexivity|]. split; [exact G|].
  split; [apply (cyl_new_wf _ _ _ _ E)|].
  split; [|unfold in_interval; cbn [fst snd]; apply andb_true_iff; split; vm_compute; reflexivity].
  destruct (c140_radius _ _ _ _ _ _ _ _ _ _ _ E G Mx Mx) as [_ [_ Er]]. apply Rabs_le_inv in Er. destruct Er as [Er _].
  destruct (mid_err _ _ Mx) as [_ [_ Ec]]. apply Rabs_le_inv in Ec. unfold len, reach in Er, Ec.
  rewrite (proj1 (d_val (-4) ltac:(lia))), (proj1 (d_val 4 ltac:(lia))) in Er, Ec.
  rewrite Rmax_left in Er by lra. rewrite Rmax_left in Er by lra. rewrite (Rabs_left (-4)), (Rabs_pos_eq 4) in Er, Ec by lra.
  unfold axis_distance64. rewrite Ce, (proj1 (d_val 1 ltac:(lia))), (proj1 (d_val 2 ltac:(lia))).
  set (c := B2R (ndiv (nadd (d (-4)) (d 4)) n2)) in *. change (NR 6) with 6. rewrite eps_val in *. set (q := B2R (yc_radius y)) in *. clearbody c q.
  apply Rle_trans with 3; [|nra].
  rewrite <- (sqrt_square 3) by lra. apply sqrt_le_1_alt. nra.
Qed.
