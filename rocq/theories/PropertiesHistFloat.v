(** * PropertiesHistFloat: the histogram in doubles (C143) *)
From Coq Require Import Reals List NArith ZArith Lia Lra Psatz Bool String.
From Flocq Require Import Core.Core IEEE754.BinarySingleNaN.
From Verif Require Import Base BaseFacts Num RFacts F64Facts F64Floor NDArray GridModel GridSpec SelModel DataModel DataSpec
  FunModel FunSpec FunHist FloatErr FloatSum.
Local Open Scope R_scope.

(** ** Specification *)
(** Limits from which a histogram can be made in doubles: non-negative, finite, and far enough apart for the number of bins. *)
Definition limits64 (lo hi : f64) (bins : N) : Prop :=
  is_finite lo = true /\ is_finite hi = true /\ 0 <= B2R lo /\ bpow radix2 (-900) <= B2R hi - B2R lo /\
  (1 <= bins)%N /\ NR bins * B2R hi <= IZR (2 ^ 40) * (B2R hi - B2R lo).
(** The exact edge number [k]. *)
Definition edge (lo hi : f64) (bins : N) (k : R) : R := B2R lo + k * ((B2R hi - B2R lo) / NR bins).
(** The allowance for a bin. *)
Definition slack (hi : f64) (bins : N) : R := NR bins * B2R hi / IZR (2 ^ 49).
(** A sample is in bin [b], up to an allowance that may be positive or negative. *)
Definition in_exact_bin (t : R) (lo hi : f64) (bins : N) (b : N) (v : f64) : Prop :=
  edge lo hi bins (NR b) - t <= B2R v < edge lo hi bins (NR b + 1) + t.

Section Limits.
  Context (lo hi : f64) (bins : N) (L : limits64 lo hi bins).
  Let n := NR bins.
  Let len := B2R hi - B2R lo.
  Let W := len / n.

  Lemma base : is_finite lo = true /\ is_finite hi = true /\ 0 <= B2R lo /\ 0 < len /\ bpow radix2 (-900) <= len /\ 1 <= n <= IZR (2 ^ 40) /\
    len <= B2R hi /\ W * n = len /\ 0 < W <= len /\ bpow radix2 (-940) <= W /\ B2R hi <= IZR (2 ^ 40) * W.
  Proof using L.
    destruct L as [Fl [Fh [L0 [L9 [B1 S]]]]]. fold n len in S, L9. assert (P9 := bpow_gt_0 radix2 (-900)).
    assert (N1 : 1 <= n) by (unfold n, NR; apply IZR_le; lia). assert (Lh : len <= B2R hi) by (unfold len; lra).
    assert (N40 : n <= IZR (2 ^ 40)).
    { apply Rmult_le_reg_r with (B2R hi); [lra|]. apply Rle_trans with (1 := S). apply Rmult_le_compat_l; [apply IZR_le; lia | exact Lh]. }
    assert (Wn : W * n = len) by (unfold W; field; lra).
    assert (W0 : 0 < W) by (apply Rdiv_lt_0_compat; lra).
    assert (W1 : W * 1 <= W * n) by (apply Rmult_le_compat_l; lra).
    repeat (split; [first [assumption | lra]|]). split.
    - apply Rmult_le_reg_r with n; [lra|]. rewrite Wn. apply Rle_trans with (bpow radix2 (-940) * bpow radix2 40).
      + apply Rmult_le_compat_l; [apply bpow_ge_0|]. rewrite <- IZR_Zpower by lia. exact N40.
      + rewrite <- bpow_plus. exact L9.
    - apply Rmult_le_reg_r with n; [lra|]. rewrite Rmult_assoc, Wn. lra.
  Qed.

  Let h : f64 := Bdiv mode_NE (Bminus mode_NE hi lo) (f64_of_Z (Z.of_N bins)).
  Lemma bins_Z : (1 <= Z.of_N bins <= 2 ^ 40)%Z.
  Proof using L.
    destruct base as [_ [_ [_ [_ [_ [[N1 N2] _]]]]]]. unfold n, NR in N1, N2. split; apply le_IZR; assumption.
  Qed.
  Lemma width_err : is_finite h = true /\ exists t, Rabs t <= 3 * eps /\ B2R h = W * (1 + t) /\ 0 < B2R h /\ bpow radix2 (-941) <= B2R h.
  Proof using L.
    destruct base as [Fl [Fh [L0 [Lp [L9 [[N1 N2] [Lh [Wn [[W0 W1] [W9 Wh]]]]]]]]]]. assert (Bz := bins_Z).
    assert (P := eps_pos). assert (Le := eps_le).
    destruct (minus_cases hi lo Fh Fl ltac:(unfold len in Lp; lra)) as [[_ [Fb Eb]]|[Big _]].
    2:{ exfalso. assert (Q := B2R_lt hi). apply Rabs_def2 in Q. assert (rnd (B2R hi - B2R lo) <= B2R hi).
        { rewrite <- (rnd_fmt (B2R hi)) at 2 by apply fmt_B2R. apply rnd_mono. lra. } lra. }
    destruct (rnd_diff hi lo) as [e1 [He1 E1]]. assert (G1 := factor _ He1). fold len in E1. unfold h. set (B := Bminus mode_NE hi lo) in *.
    fold len in Eb. rewrite E1 in Eb.
    destruct (of_Z_correct (Z.of_N bins) ltac:(lia)) as [En Fn]. fold (NR bins) in En. fold n in En.
    assert (B0 : 0 < B2R B) by (rewrite Eb; apply Rmult_lt_0_compat; lra).
    assert (X : B2R B / n = W * (1 + e1)) by (rewrite Eb; unfold W; field; lra).
    assert (X9 : bpow radix2 (-1022) <= Rabs (B2R B / n)).
    { rewrite X, Rabs_pos_eq by (apply Rmult_le_pos; lra). apply Rle_trans with (bpow radix2 (-940) * / 2).
      - replace (/ 2) with (bpow radix2 (-1)) by reflexivity. rewrite <- bpow_plus. apply bpow_le. lia.
      - apply Rmult_le_compat; [apply bpow_ge_0 | lra | exact W9 | lra]. }
    destruct (div_R B (f64_of_Z (Z.of_N bins)) Fb ltac:(rewrite En; lra)) as [Fq Eq].
    { rewrite En. apply (below_lt B). split; [apply Rmult_le_pos; [lra | left; apply Rinv_0_lt_compat; lra]|].
      apply Rmult_le_reg_r with n; [lra|]. unfold Rdiv. rewrite Rmult_assoc, Rinv_l by lra. apply Rmult_le_compat_l; lra. }
    rewrite En in Eq. destruct (rnd_rel _ X9) as [e2 [He2 E2]]. assert (G2 := factor _ He2). rewrite E2, X in Eq.
    split; [exact Fq|]. exists ((1 + e1) * (1 + e2) - 1).
    assert (H1 : 0 < (1 + e1) * (1 + e2)) by (apply Rmult_lt_0_compat; lra).
    assert (Q1 : Rabs (e1 * e2) <= eps * 1) by (rewrite Rabs_mult; apply Rmult_le_compat; try apply Rabs_pos; lra).
    split; [|split; [rewrite Eq; ring|]].
    - replace ((1 + e1) * (1 + e2) - 1) with (e1 + e2 + e1 * e2) by ring. apply Rle_trans with (1 := Rabs_triang _ _).
      apply Rle_trans with (Rabs e1 + Rabs e2 + Rabs (e1 * e2)); [apply Rplus_le_compat_r, Rabs_triang | lra].
    - rewrite Eq. assert (Hh : / 2 <= (1 + e1) * (1 + e2)).
      { apply Rle_trans with ((1 - eps) * (1 - eps)); [nra | apply Rmult_le_compat; lra]. }
      rewrite Rmult_assoc. split; [apply Rmult_lt_0_compat; lra|]. apply Rle_trans with (bpow radix2 (-940) * / 2).
      + replace (/ 2) with (bpow radix2 (-1)) by reflexivity. rewrite <- bpow_plus. apply bpow_le. lia.
      + apply Rmult_le_compat; [apply bpow_ge_0 | lra | exact W9 | exact Hh].
  Qed.

  (** Edge [k], as computed. *)
  Let e64 (k : Z) : f64 := Bplus mode_NE lo (Bmult mode_NE (f64_of_Z k) h).
  Lemma edge_err k : (0 <= k < Z.of_N bins)%Z ->
    is_finite (e64 k) = true /\ Rabs (B2R (e64 k) - (B2R lo + IZR k * W)) <= 6 * eps * B2R hi /\ (k = 0%Z -> B2R (e64 k) = B2R lo).
  Proof using L.
    intros Hk. destruct base as [Fl [Fh [L0 [Lp [L9 [[N1 N2] [Lh [Wn [[W0 W1] [W9 Wh]]]]]]]]]]. assert (Bz := bins_Z).
    assert (P := eps_pos). assert (Le := eps_le). destruct width_err as [Fw [t [Ht [Et [H0 H9]]]]].
    destruct (of_Z_correct k ltac:(lia)) as [Ek Fk].
    assert (K0 : 0 <= IZR k) by (apply IZR_le; lia). assert (Kn : IZR k + 1 <= n) by (unfold n, NR; rewrite <- plus_IZR; apply IZR_le; lia).
    assert (KW : 0 <= IZR k * W) by (apply Rmult_le_pos; lra).
    assert (KWl : IZR k * W + W <= len) by (rewrite <- Wn; replace (IZR k * W + W) with (W * (IZR k + 1)) by ring; apply Rmult_le_compat_l; lra).
    assert (T := proj2 (Rabs_le_inv _ _ Ht)). assert (T' := proj1 (Rabs_le_inv _ _ Ht)).
    (* the rounded product *)
    assert (R3 : exists e3, Rabs e3 <= eps /\ rnd (IZR k * B2R h) = IZR k * B2R h * (1 + e3)).
    { destruct (Z.eq_dec k 0) as [->|Nk].
      - exists 0. rewrite Rabs_R0. split; [lra|]. rewrite !Rmult_0_l. apply rnd_0.
      - apply rnd_rel. assert (1 <= IZR k) by (apply IZR_le; lia). rewrite Rabs_pos_eq by (apply Rmult_le_pos; lra).
        apply Rle_trans with (bpow radix2 (-941)); [apply bpow_le; lia|]. assert (1 * B2R h <= IZR k * B2R h) by (apply Rmult_le_compat_r; lra). lra. }
    destruct R3 as [e3 [He3 E3]]. assert (G3 := factor _ He3).
    assert (Pd : IZR k * B2R h = IZR k * W * (1 + t)) by (rewrite Et; ring).
    assert (F3 : 0 <= (1 + t) * (1 + e3) <= 1 + 5 * eps) by nra.
    assert (F3' : 1 - 5 * eps <= (1 + t) * (1 + e3)) by nra.
    assert (Small : 5 * eps * (IZR k * W) <= W).
    { assert (5 * eps * IZR k <= 1).
      { apply Rle_trans with (5 * eps * IZR (2 ^ 40)); [apply Rmult_le_compat_l; lra|]. rewrite eps_val. change (IZR (2 ^ 40)) with 1099511627776. lra. }
      replace (5 * eps * (IZR k * W)) with (5 * eps * IZR k * W) by ring. replace W with (1 * W) at 2 by ring. apply Rmult_le_compat_r; lra. }
    assert (Kp : IZR k * W * ((1 + t) * (1 + e3)) <= IZR k * W * (1 + 5 * eps)) by (apply Rmult_le_compat_l; lra).
    assert (Kq : IZR k * W * (1 - 5 * eps) <= IZR k * W * ((1 + t) * (1 + e3))) by (apply Rmult_le_compat_l; lra).
    assert (Kz : 0 <= IZR k * W * ((1 + t) * (1 + e3))) by (apply Rmult_le_pos; lra).
    assert (Rl : rnd (IZR k * B2R h) <= len) by (rewrite E3, Pd; replace (IZR k * W * (1 + t) * (1 + e3)) with (IZR k * W * ((1 + t) * (1 + e3))) by ring; lra).
    assert (R0 : 0 <= rnd (IZR k * B2R h)) by (apply rnd_nonneg, Rmult_le_pos; lra).
    assert (Bh := B2R_lt hi). apply Rabs_def2 in Bh.
    destruct (mul_R (f64_of_Z k) h Fk Fw) as [Fm Em]; [rewrite Ek, Rabs_pos_eq by exact R0; unfold len in *; lra|]. rewrite Ek in Em.
    assert (SumB : B2R lo <= B2R lo + B2R (Bmult mode_NE (f64_of_Z k) h) <= B2R hi) by (rewrite Em; unfold len in Rl; lra).
    destruct (add_R lo _ Fl Fm) as [Fa Ea]; [apply (between_lt lo hi), rnd_between, SumB|].
    change (is_finite (e64 k) = true) in Fa. split; [exact Fa|].
    destruct (rnd_sum _ _ (fmt_B2R lo) (fmt_B2R (Bmult mode_NE (f64_of_Z k) h))) as [e4 [He4 E4]].
    unfold e64. split.
    - rewrite Ea, E4, Em, E3, Pd. replace (IZR k * W * (1 + t) * (1 + e3)) with (IZR k * W * ((1 + t) * (1 + e3))) by ring.
      set (Y := IZR k * W * ((1 + t) * (1 + e3))) in *.
      replace ((B2R lo + Y) * (1 + e4) - (B2R lo + IZR k * W)) with ((Y - IZR k * W) + (B2R lo + Y) * e4) by ring.
      apply Rle_trans with (1 := Rabs_triang _ _). rewrite Rabs_mult, (Rabs_pos_eq (B2R lo + Y)) by lra.
      assert (A1 : Rabs (Y - IZR k * W) <= 5 * eps * (IZR k * W)) by (apply Rabs_le; lra).
      assert (A2 : (B2R lo + Y) * Rabs e4 <= B2R hi * eps).
      { apply Rmult_le_compat; [lra | apply Rabs_pos | | exact He4]. unfold Y, len in *. lra. }
      assert (A3 : 5 * eps * (IZR k * W) <= 5 * eps * B2R hi) by (apply Rmult_le_compat_l; lra). lra.
    - intros ->. rewrite Ea, Em, Rmult_0_l, rnd_0, Rplus_0_r. apply rnd_fmt, fmt_B2R.
  Qed.

  Lemma nth_e64 k : (k < N.to_nat bins)%nat -> nth_error (bin_edges lo hi bins) k = Some (e64 (Z.of_nat k)).
  Proof using.
    intros H. unfold bin_edges. rewrite nth_error_app1 by (rewrite map_length, range_length; lia).
    rewrite (map_nth_error _ k _ (range_nth_error 0 bins k ltac:(lia))). rewrite N.add_0_l. unfold e64, h.
    cbn [nadd nmul nsub ndiv num_f64 nofN nof]. unfold nofN. cbn [nof num_f64]. now rewrite nat_N_Z.
  Qed.
  Lemma nth_hi : nth_error (bin_edges lo hi bins) (N.to_nat bins) = Some hi.
  Proof using.
    unfold bin_edges. rewrite nth_error_app2 by (rewrite map_length, range_length; lia). rewrite map_length, range_length.
    replace (N.to_nat bins - N.to_nat (bins - 0))%nat with 0%nat by lia. reflexivity.
  Qed.
  Lemma edges64 k : (k <= N.to_nat bins)%nat -> exists e : f64, nth_error (bin_edges lo hi bins) k = Some e /\ is_finite e = true /\
    Rabs (B2R e - (B2R lo + INR k * W)) <= 6 * eps * B2R hi /\ (k = 0%nat -> B2R e = B2R lo).
  Proof using L.
    intros Hk. destruct (Nat.eq_dec k (N.to_nat bins)) as [->|Nk].
    - exists hi. split; [apply nth_hi|]. destruct base as [Fl [Fh [L0 [Lp [L9 [[N1 N2] [Lh [Wn [[W0 W1] [W9 Wh]]]]]]]]]]. split; [exact Fh|].
      assert (P := eps_pos). assert (Bz := bins_Z). split; [|lia].
      rewrite <- NR_nat. fold n. replace (B2R lo + n * W) with (B2R hi) by (rewrite Rmult_comm, Wn; unfold len; ring).
      replace (B2R hi - B2R hi) with 0 by ring. rewrite Rabs_R0. apply Rmult_le_pos; lra.
    - exists (e64 (Z.of_nat k)). split; [apply nth_e64; lia|]. destruct (edge_err (Z.of_nat k) ltac:(lia)) as [F1 [E1 Z1]].
      split; [exact F1|]. rewrite <- INR_IZR_INZ in E1. split; [exact E1|]. intros ->. now apply Z1.
  Qed.
End Limits.

Definition wide (lo hi : f64) (bins : N) : R := (B2R hi - B2R lo) / NR bins.

(** The quotient whose integer part is the bin. *)
Lemma quotient (lo hi : f64) (bins : N) (e0 e1 v : f64) : limits64 lo hi bins ->
  is_finite e0 = true -> B2R e0 = B2R lo -> is_finite e1 = true -> Rabs (B2R e1 - (B2R lo + wide lo hi bins)) <= 6 * eps * B2R hi ->
  is_finite v = true -> B2R lo <= B2R v ->
  exists g, Rabs (g - 1) * wide lo hi bins <= 10 * eps * B2R hi /\ / 2 <= g <= 2 /\
    let z := (B2R v - B2R lo) / wide lo hi bins in
    (Rabs (rnd (z * g)) < M64 ->
     f64_to_usize (f64_floor (Bdiv mode_NE (Bminus mode_NE v e0) (Bminus mode_NE e1 e0))) = Z.to_N (Z.min usize_max (Zfloor (rnd (z * g))))) /\
    (M64 <= rnd (z * g) ->
     f64_to_usize (f64_floor (Bdiv mode_NE (Bminus mode_NE v e0) (Bminus mode_NE e1 e0))) = Z.to_N usize_max).
Proof.
  intros L F0 E0 F1 E1 Fv Hv. destruct (base lo hi bins L) as [Fl [Fh [L0 [Lp [L9 [[N1 N2] [Lh [Wn [[W0 W1] [W9 Wh]]]]]]]]]].
  fold (wide lo hi bins) in *. set (W := wide lo hi bins) in *. assert (P := eps_pos). assert (Le := eps_le).
  assert (Bv := B2R_lt v). apply Rabs_def2 in Bv. assert (B1 := B2R_lt e1). apply Rabs_def2 in B1.
  assert (E40 : eps * B2R hi <= W / 8192).
  { apply Rle_trans with (eps * (IZR (2 ^ 40) * W)); [apply Rmult_le_compat_l; lra|]. rewrite eps_val. change (IZR (2 ^ 40)) with 1099511627776. lra. }
  apply Rabs_le_inv in E1.
  (* v - e0 *)
  destruct (minus_cases v e0 Fv F0 ltac:(lra)) as [[_ [Fd Ed]]|[Big _]].
  2:{ exfalso. assert (rnd (B2R v - B2R e0) <= B2R v); [|lra]. rewrite <- (rnd_fmt (B2R v)) at 2 by apply fmt_B2R. apply rnd_mono. lra. }
  destruct (rnd_diff v e0) as [a [Ha Ea]]. assert (Ga := factor _ Ha). rewrite Ea, E0 in Ed.
  (* e1 - e0 *)
  destruct (minus_cases e1 e0 F1 F0 ltac:(lra)) as [[_ [Fw Ew]]|[Big _]].
  2:{ exfalso. assert (rnd (B2R e1 - B2R e0) <= B2R e1); [|lra]. rewrite <- (rnd_fmt (B2R e1)) at 2 by apply fmt_B2R. apply rnd_mono. lra. }
  destruct (rnd_diff e1 e0) as [c [Hc Ec]]. assert (Gc := factor _ Hc). rewrite Ec, E0 in Ew.
  set (D := Bminus mode_NE v e0) in *. set (w := Bminus mode_NE e1 e0) in *.
  set (x := B2R e1 - B2R lo) in *.
  assert (X : Rabs (x - W) <= 6 * eps * B2R hi) by (apply Rabs_le; unfold x; lra).
  assert (X2 : 0 <= x <= 2 * W) by (unfold x; lra).
  assert (Wd : Rabs (B2R w - W) <= 8 * eps * B2R hi).
  { rewrite Ew. replace (x * (1 + c) - W) with ((x - W) + x * c) by ring. apply Rle_trans with (1 := Rabs_triang _ _). rewrite Rabs_mult, (Rabs_pos_eq x) by lra.
    assert (x * Rabs c <= 2 * W * eps) by (apply Rmult_le_compat; [lra | apply Rabs_pos | lra | lra]).
    assert (W * eps <= B2R hi * eps) by (apply Rmult_le_compat_r; lra). lra. }
  assert (W8 := Rabs_le_inv _ _ Wd).
  assert (Wp : W * (1023 / 1024) <= B2R w <= W * (1025 / 1024)) by lra.
  set (g := (1 + a) * W / B2R w).
  assert (Gw : g * B2R w = (1 + a) * W) by (unfold g; field; lra).
  assert (Gb : / 2 <= g <= 2).
  { split; apply Rmult_le_reg_r with (B2R w); try lra; rewrite Gw; nra. }
  exists g. split; [|split; [exact Gb|]].
  - assert (Q : Rabs (g - 1) * B2R w <= eps * W + 8 * eps * B2R hi).
    { rewrite <- (Rabs_pos_eq (B2R w)) at 1 by lra. rewrite <- Rabs_mult. replace ((g - 1) * B2R w) with (a * W + - (B2R w - W)) by (rewrite Rmult_minus_distr_r, Gw; ring).
      apply Rle_trans with (1 := Rabs_triang _ _). rewrite Rabs_Ropp, Rabs_mult, (Rabs_pos_eq W) by lra.
      assert (Rabs a * W <= eps * W) by (apply Rmult_le_compat_r; lra). lra. }
    assert (Q2 : Rabs (g - 1) * (W * (1023 / 1024)) <= Rabs (g - 1) * B2R w) by (apply Rmult_le_compat_l; [apply Rabs_pos | lra]).
    assert (Q3 : eps * W <= eps * B2R hi) by (apply Rmult_le_compat_l; lra).
    assert (G0 := Rabs_pos (g - 1)).
    assert (Q4 : Rabs (g - 1) * (W * (1023 / 1024)) <= 9 * eps * B2R hi) by lra.
    assert (0 <= eps * B2R hi) by (apply Rmult_le_pos; lra). assert (0 <= Rabs (g - 1) * W) by (apply Rmult_le_pos; lra). lra.
  - intros z. assert (Z : B2R D / B2R w = z * g) by (rewrite Ed; unfold z, g; field; split; lra).
    assert (Z0 : 0 <= z * g).
    { apply Rmult_le_pos; [|lra]. apply Rmult_le_pos; [lra | left; now apply Rinv_0_lt_compat]. }
    split.
    + intros Lt. destruct (div_R D w Fd ltac:(lra)) as [Fq Eq]; [rewrite Z; exact Lt|]. rewrite Z in Eq.
      destruct (floor_correct _ Fq) as [Ff Ef]. rewrite (to_usize_finite _ Ff), Ef, Ztrunc_IZR, Eq. reflexivity.
    + intros Big. assert (M := Bdiv_correct 53 1024 _ _ mode_NE D w ltac:(lra)).
      change (round radix2 (SpecFloat.fexp 53 1024) (round_mode mode_NE) (B2R D / B2R w)) with (rnd (B2R D / B2R w)) in M. rewrite Z in M.
      rewrite Rlt_bool_false in M by (rewrite Rabs_pos_eq by (now apply rnd_nonneg); exact Big).
      assert (Sg : xorb (Bsign D) (Bsign w) = false).
      { assert (Ps : forall u : f64, is_finite u = true -> 0 < B2R u -> Bsign u = false).
        { intros u Fu Pu. destruct u as [s|s| |s m e Hb]; cbn in *; try lra; try discriminate. destruct s; [|reflexivity].
          exfalso. apply Rlt_not_le in Pu. apply Pu. apply F2R_le_0. cbn. lia. }
        rewrite (Ps w Fw) by lra. rewrite (Ps D Fd); [reflexivity|].
        assert (D0 : 0 <= B2R D) by (rewrite Ed; apply Rmult_le_pos; lra). destruct (Req_dec (B2R D) 0) as [D00|]; [|lra].
        exfalso. rewrite <- Z, D00 in Big. unfold Rdiv in Big. rewrite Rmult_0_l, rnd_0 in Big. generalize (bpow_gt_0 radix2 1024). lra. }
      rewrite Sg in M. unfold binary_overflow in M. cbn in M.
      destruct (Bdiv mode_NE D w) as [s|s| |s m e Hb]; cbn in M; try discriminate. injection M as ->. reflexivity.
Qed.

(** ** C143 *)
(** One more edge than bins; each is within [hi / 2^50] of the exact edge; they increase strictly. *)
Theorem c143_edges (lo hi : f64) (bins : N) : limits64 lo hi bins ->
  vlen (bin_edges lo hi bins) = (bins + 1)%N /\
  (forall k, (k <= N.to_nat bins)%nat -> exists e : f64, nth_error (bin_edges lo hi bins) k = Some e /\ is_finite e = true /\
     Rabs (B2R e - edge lo hi bins (INR k)) <= B2R hi / IZR (2 ^ 50)) /\
  (forall i j (a b : f64), (i < j)%nat -> nth_error (bin_edges lo hi bins) i = Some a -> nth_error (bin_edges lo hi bins) j = Some b -> B2R a < B2R b).
Proof.
  intros L. destruct (base lo hi bins L) as [Fl [Fh [L0 [Lp [L9 [[N1 N2] [Lh [Wn [[W0 W1] [W9 Wh]]]]]]]]]].
  assert (V : vlen (bin_edges lo hi bins) = (bins + 1)%N).
  { unfold vlen, bin_edges. rewrite app_length, map_length, range_length. cbn [List.length]. clear; lia. }
  assert (P := eps_pos). split; [exact V|]. split.
  - intros k Hk. destruct (edges64 lo hi bins L k Hk) as [e [En [Fe [Ee _]]]]. exists e. split; [exact En|]. split; [exact Fe|].
    unfold edge. apply Rle_trans with (1 := Ee). rewrite eps_val. change (IZR (2 ^ 50)) with 1125899906842624. lra.
  - intros i j a b Hij Ha Hb.
    assert (Lj : (j < List.length (bin_edges lo hi bins))%nat) by (apply nth_error_Some; congruence).
    unfold vlen in V. assert (Lj' : (j <= N.to_nat bins)%nat) by (clear - V Lj; lia).
    destruct (edges64 lo hi bins L i ltac:(clear - Hij Lj'; lia)) as [a' [An [_ [Ae _]]]].
    destruct (edges64 lo hi bins L j Lj') as [b' [Bn [_ [Be _]]]]. rewrite Ha in An. rewrite Hb in Bn. injection An as <-. injection Bn as <-.
    set (W := (B2R hi - B2R lo) / NR bins) in *. apply Rabs_le_inv in Ae, Be.
    assert (IJ : INR i + 1 <= INR j) by (rewrite <- S_INR; apply le_INR; exact Hij).
    assert ((INR i + 1) * W <= INR j * W) by (apply Rmult_le_compat_r; lra).
    assert (12 * eps * B2R hi < W); [|lra].
    apply Rle_lt_trans with (12 * eps * (IZR (2 ^ 40) * W)); [apply Rmult_le_compat_l; lra|]. rewrite eps_val. change (IZR (2 ^ 40)) with 1099511627776. lra.
Qed.

(** A sample not slower than the lower limit: counted in bin [b] only if its speed is between the exact edges, up to the allowance; and whenever it is between them by more than the allowance. *)
Theorem c143_bin {TF : Trig f64} (lo hi : f64) (bins b : N) (m : sample f64) : limits64 lo hi bins -> (b < bins)%N ->
  is_finite (speed (sm_vel m)) = true -> B2R lo <= B2R (speed (sm_vel m)) ->
  (in_bin (bin_edges lo hi bins) b m = true -> in_exact_bin (slack hi bins) lo hi bins b (speed (sm_vel m))) /\
  (in_exact_bin (- slack hi bins) lo hi bins b (speed (sm_vel m)) -> in_bin (bin_edges lo hi bins) b m = true).
Proof.
  intros L Hb Fv Hv. set (v := speed (sm_vel m)) in *.
  destruct (base lo hi bins L) as [Fl [Fh [L0 [Lp [L9 [[N1 N2] [Lh [Wn [[W0 W1] [W9 Wh]]]]]]]]]]. assert (Bz := bins_Z lo hi bins L).
  destruct (edges64 lo hi bins L 0 ltac:(clear; lia)) as [e0 [En0 [F0 [_ E0]]]]. specialize (E0 eq_refl).
  destruct (edges64 lo hi bins L 1 ltac:(clear - Bz; lia)) as [e1 [En1 [F1 [E1 _]]]]. cbn [INR] in E1. rewrite Rmult_1_l in E1.
  destruct (quotient lo hi bins e0 e1 v L F0 E0 F1 E1 Fv Hv) as [g [G [Gb [Qf Qi]]]].
  assert (IB : in_bin (bin_edges lo hi bins) b m = (f64_to_usize (f64_floor (Bdiv mode_NE (Bminus mode_NE v e0) (Bminus mode_NE e1 e0))) =? b)%N).
  { unfold in_bin, bin_of. rewrite (nth_error_nth _ _ _ En0), (nth_error_nth _ _ _ En1). reflexivity. }
  rewrite IB. clear IB En0 En1 E1 E0 F0 F1. set (bin := f64_to_usize _) in *.
  unfold in_exact_bin, edge, slack. change ((B2R hi - B2R lo) / NR bins) with (wide lo hi bins). set (W := wide lo hi bins) in *.
  change ((B2R hi - B2R lo) / NR bins) with W in *.
  set (z := (B2R v - B2R lo) / W) in *. set (n := NR bins) in *. set (H := B2R hi) in *.
  assert (Zv : B2R v - B2R lo = z * W) by (unfold z; field; lra).
  assert (Z0 : 0 <= z) by (apply Rmult_le_pos; [lra | left; now apply Rinv_0_lt_compat]).
  assert (P := eps_pos). assert (Le := eps_le). assert (Q := eta_pos).
  assert (B0 : 0 <= NR b) by (unfold NR; apply IZR_le; clear; lia).
  assert (Bn : NR b + 1 <= n) by (unfold n, NR; rewrite <- plus_IZR; apply IZR_le; clear - Hb; lia).
  assert (S : n * H / IZR (2 ^ 49) = 16 * eps * (n * H)) by (rewrite eps_val; change (IZR (2 ^ 49)) with 562949953421312; field).
  rewrite S. assert (EH : 0 <= eps * H) by (apply Rmult_le_pos; lra).
  assert (EHn : eps * H * 1 <= eps * H * n) by (apply Rmult_le_compat_l; lra).
  assert (nH : 16 * eps * (n * H) = 16 * (eps * H * n)) by ring. rewrite nH.
  assert (WH : W <= H) by lra.
  assert (EW : eps * W <= eps * H) by (apply Rmult_le_compat_l; lra).
  assert (G' : Rabs (z * W * (g - 1)) <= 10 * (z * (eps * H))).
  { rewrite !Rabs_mult, (Rabs_pos_eq z), (Rabs_pos_eq W) by lra.
    replace (z * W * Rabs (g - 1)) with (z * (Rabs (g - 1) * W)) by ring. apply Rle_trans with (z * (10 * eps * H)); [apply Rmult_le_compat_l; lra|]. right; ring. }
  apply Rabs_le_inv in G'.
  assert (M40 : IZR (2 ^ 40) < M64) by (apply Rlt_trans with (IZR (2 ^ 53)); [apply IZR_lt; lia | apply M64_big]).
  assert (Gt : g <= 1 + / 100 /\ 1 - / 100 <= g).
  { assert (Rabs (g - 1) <= / 100); [|apply Rabs_le_inv in H0; lra]. apply Rmult_le_reg_r with W; [lra|]. apply Rle_trans with (1 := G).
    apply Rle_trans with (10 * eps * (IZR (2 ^ 40) * W)); [apply Rmult_le_compat_l; lra|]. rewrite eps_val. change (IZR (2 ^ 40)) with 1099511627776. lra. }
  assert (ZG : 0 <= z * g) by (apply Rmult_le_pos; lra). assert (RG := rnd_nonneg _ ZG).
  (* rounding, as a factor and a small error *)
  destruct (rnd_ex (z * g)) as [e [dl [He [Hd Er]]]]. assert (Ge := factor _ He).
  assert (Rb : Rabs (z * g * e) <= 2 * (eps * z)).
  { rewrite !Rabs_mult, (Rabs_pos_eq z), (Rabs_pos_eq g) by lra. apply Rle_trans with (z * 2 * eps); [|right; ring].
    apply Rmult_le_compat; [apply Rmult_le_pos; lra | apply Rabs_pos | apply Rmult_le_compat_l; lra | lra]. }
  apply Rabs_le_inv in Rb. apply Rabs_le_inv in Hd.
  assert (DW : eta * W <= eps * H).
  { apply Rmult_le_compat; try lra. unfold eta, eps. apply bpow_le. lia. }
  split.
  - intros Eb. apply N.eqb_eq in Eb.
    assert (Bi : NR b <= rnd (z * g) < NR b + 1).
    { destruct (Rlt_le_dec (rnd (z * g)) M64) as [Lt|Ge'].
      - rewrite (Qf ltac:(rewrite Rabs_pos_eq by exact RG; exact Lt)) in Eb.
        assert (Fl0 : (0 <= Zfloor (rnd (z * g)))%Z) by (apply Zfloor_lub; exact RG).
        assert (Fb : Zfloor (rnd (z * g)) = Z.of_N b).
        { assert (BU : (b < 2 ^ 41)%N) by (clear - Hb Bz; lia). unfold usize_max in Eb. clear - Eb Fl0 BU. lia. }
        unfold NR. rewrite <- Fb. split; [apply Zfloor_lb | apply Zfloor_ub].
      - exfalso. rewrite (Qi Ge') in Eb. assert (BU : (b < 2 ^ 41)%N) by (clear - Hb Bz; lia). unfold usize_max in Eb. clear - Eb BU. lia. }
    assert (Up : z * g < NR b + 1).
    { apply Rnot_le_lt. intros C. apply rnd_mono in C. rewrite (rnd_fmt (NR b + 1)) in C; [lra|].
      unfold NR. rewrite <- plus_IZR. apply fmt_int. clear - Hb Bz. lia. }
    assert (Zn : z <= n * (102 / 100)).
    { apply Rmult_le_reg_r with (99 / 100); [lra|]. apply Rle_trans with (z * g); [apply Rmult_le_compat_l; lra | lra]. }
    assert (Zh : z * (eps * H) <= 102 / 100 * (eps * H * n)).
    { replace (102 / 100 * (eps * H * n)) with (n * (102 / 100) * (eps * H)) by ring. apply Rmult_le_compat_r; lra. }
    assert (Zw : eps * z * W <= z * (eps * H)) by (replace (eps * z * W) with (z * (eps * W)) by ring; apply Rmult_le_compat_l; lra).
    split.
    + assert (A : NR b * W <= rnd (z * g) * W) by (apply Rmult_le_compat_r; lra). rewrite Er in A.
      assert (A2 : z * g * e * W <= 2 * (eps * z) * W) by (apply Rmult_le_compat_r; lra).
      assert (A3 : dl * W <= eta * W) by (apply Rmult_le_compat_r; lra).
      replace ((z * g * (1 + e) + dl) * W) with (z * W + z * W * (g - 1) + z * g * e * W + dl * W) in A by ring. lra.
    + assert (A : z * g * W < (NR b + 1) * W) by (apply Rmult_lt_compat_r; lra).
      replace (z * g * W) with (z * W + z * W * (g - 1)) in A by ring. lra.
  - intros [C1 C2]. rewrite <- nH in *. 
    assert (Zn : z <= n).
    { apply Rmult_le_reg_r with W; [lra|]. apply Rle_trans with ((NR b + 1) * W); [|apply Rmult_le_compat_r; lra]. lra. }
    assert (Zh : z * (eps * H) <= eps * H * n) by (rewrite (Rmult_comm _ n); apply Rmult_le_compat_r; lra).
    assert (Zw : eps * z * W <= z * (eps * H)) by (replace (eps * z * W) with (z * (eps * W)) by ring; apply Rmult_le_compat_l; lra).
    assert (EHp : 0 < eps * H * n) by (apply Rmult_lt_0_compat; [apply Rmult_lt_0_compat|]; lra).
    assert (Bi : NR b <= rnd (z * g) < NR b + 1).
    { split.
      - rewrite <- (rnd_fmt (NR b)); [|unfold NR; apply fmt_int; clear - Hb Bz; lia]. apply rnd_mono.
        apply Rmult_le_reg_r with W; [lra|]. replace (z * g * W) with (z * W + z * W * (g - 1)) by ring. lra.
      - apply Rmult_lt_reg_r with W; [lra|]. rewrite Er.
        assert (A2 : z * g * e * W <= 2 * (eps * z) * W) by (apply Rmult_le_compat_r; lra).
        assert (A3 : dl * W <= eta * W) by (apply Rmult_le_compat_r; lra).
        replace ((z * g * (1 + e) + dl) * W) with (z * W + z * W * (g - 1) + z * g * e * W + dl * W) by ring. lra. }
    apply N.eqb_eq. rewrite (Qf ltac:(rewrite Rabs_pos_eq by exact RG; lra)).
    assert (Fb : Zfloor (rnd (z * g)) = Z.of_N b) by (apply Zfloor_imp; rewrite plus_IZR; exact Bi).
    rewrite Fb. assert (BU : (b < 2 ^ 41)%N) by (clear - Hb Bz; lia). unfold usize_max. clear - BU. lia.
Qed.
(** A sample in no bin is at the upper limit, up to the allowance, or above. *)
Theorem c143_none {TF : Trig f64} (lo hi : f64) (bins : N) (m : sample f64) : limits64 lo hi bins ->
  is_finite (speed (sm_vel m)) = true -> B2R lo <= B2R (speed (sm_vel m)) ->
  (forall b, (b < bins)%N -> in_bin (bin_edges lo hi bins) b m = false) -> B2R hi - slack hi bins <= B2R (speed (sm_vel m)).
Proof.
  intros L Fv Hv None. set (v := speed (sm_vel m)) in *.
  destruct (base lo hi bins L) as [Fl [Fh [L0 [Lp [L9 [[N1 N2] [Lh [Wn [[W0 W1] [W9 Wh]]]]]]]]]]. assert (Bz := bins_Z lo hi bins L).
  destruct (edges64 lo hi bins L 0 ltac:(clear; lia)) as [e0 [En0 [F0 [_ E0]]]]. specialize (E0 eq_refl).
  destruct (edges64 lo hi bins L 1 ltac:(clear - Bz; lia)) as [e1 [En1 [F1 [E1 _]]]]. cbn [INR] in E1. rewrite Rmult_1_l in E1.
  destruct (quotient lo hi bins e0 e1 v L F0 E0 F1 E1 Fv Hv) as [g [G [Gb [Qf Qi]]]].
  assert (IB : forall b, in_bin (bin_edges lo hi bins) b m = (f64_to_usize (f64_floor (Bdiv mode_NE (Bminus mode_NE v e0) (Bminus mode_NE e1 e0))) =? b)%N).
  { intros b. unfold in_bin, bin_of. rewrite (nth_error_nth _ _ _ En0), (nth_error_nth _ _ _ En1). reflexivity. }
  set (bin := f64_to_usize _) in *.
  assert (Bb : (bins <= bin)%N).
  { destruct (N.lt_ge_cases bin bins) as [C|C]; [|exact C]. specialize (None bin C). rewrite IB, N.eqb_refl in None. discriminate. }
  clear IB None En0 En1 E1 E0 F0 F1. unfold slack. change ((B2R hi - B2R lo) / NR bins) with (wide lo hi bins) in *. set (W := wide lo hi bins) in *.
  set (z := (B2R v - B2R lo) / W) in *. set (n := NR bins) in *. set (H := B2R hi) in *.
  assert (Zv : B2R v - B2R lo = z * W) by (unfold z; field; lra).
  assert (Z0 : 0 <= z) by (apply Rmult_le_pos; [lra | left; now apply Rinv_0_lt_compat]).
  assert (P := eps_pos). assert (Le := eps_le). assert (Q := eta_pos).
  assert (S : n * H / IZR (2 ^ 49) = 16 * (eps * H * n)) by (rewrite eps_val; change (IZR (2 ^ 49)) with 562949953421312; field).
  rewrite S. assert (EH : 0 <= eps * H) by (apply Rmult_le_pos; lra).
  assert (EHn : eps * H * 1 <= eps * H * n) by (apply Rmult_le_compat_l; lra).
  destruct (Rle_lt_dec n z) as [Big|Zn].
  { assert (n * W <= z * W) by (apply Rmult_le_compat_r; lra). lra. }
  assert (EW : eps * W <= eps * H) by (apply Rmult_le_compat_l; lra).
  assert (G' : Rabs (z * W * (g - 1)) <= 10 * (z * (eps * H))).
  { rewrite !Rabs_mult, (Rabs_pos_eq z), (Rabs_pos_eq W) by lra.
    replace (z * W * Rabs (g - 1)) with (z * (Rabs (g - 1) * W)) by ring. apply Rle_trans with (z * (10 * eps * H)); [apply Rmult_le_compat_l; lra|]. right; ring. }
  apply Rabs_le_inv in G'.
  assert (ZG : 0 <= z * g) by (apply Rmult_le_pos; lra). assert (RG := rnd_nonneg _ ZG).
  assert (Bi : n <= rnd (z * g)).
  { assert (M40 : IZR (2 ^ 40) < M64) by (apply Rlt_trans with (IZR (2 ^ 53)); [apply IZR_lt; lia | apply M64_big]).
    destruct (Rlt_le_dec (rnd (z * g)) M64) as [Lt|Ge']; [|lra].
    rewrite (Qf ltac:(rewrite Rabs_pos_eq by exact RG; exact Lt)) in Bb. apply Rle_trans with (2 := Zfloor_lb _). unfold n, NR. apply IZR_le.
    assert (Fl0 : (0 <= Zfloor (rnd (z * g)))%Z) by (apply Zfloor_lub; exact RG). clear - Bb Fl0. lia. }
  destruct (rnd_ex (z * g)) as [e [dl [He [Hd Er]]]].
  assert (Rb : Rabs (z * g * e) <= 2 * (eps * z)).
  { rewrite !Rabs_mult, (Rabs_pos_eq z), (Rabs_pos_eq g) by lra. apply Rle_trans with (z * 2 * eps); [|right; ring].
    apply Rmult_le_compat; [apply Rmult_le_pos; lra | apply Rabs_pos | apply Rmult_le_compat_l; lra | lra]. }
  apply Rabs_le_inv in Rb. apply Rabs_le_inv in Hd.
  assert (DW : eta * W <= eps * H).
  { apply Rmult_le_compat; try lra. unfold eta, eps. apply bpow_le. lia. }
  assert (Zh : z * (eps * H) <= eps * H * n) by (rewrite (Rmult_comm _ n); apply Rmult_le_compat_r; lra).
  assert (Zw : eps * z * W <= z * (eps * H)) by (replace (eps * z * W) with (z * (eps * W)) by ring; apply Rmult_le_compat_l; lra).
  assert (A : n * W <= rnd (z * g) * W) by (apply Rmult_le_compat_r; lra). rewrite Er in A.
  assert (A2 : z * g * e * W <= 2 * (eps * z) * W) by (apply Rmult_le_compat_r; lra).
  assert (A3 : dl * W <= eta * W) by (apply Rmult_le_compat_r; lra).
  replace ((z * g * (1 + e) + dl) * W) with (z * W + z * W * (g - 1) + z * g * e * W + dl * W) in A by ring. lra.
Qed.

(** The call: every bin holds the exact number of samples of a set that contains all samples surely in the bin and only samples that may be in it;
    no sample is in two of the sets, and one in none of them is at least as fast as the upper limit, up to the allowance. *)
Theorem c143_histogram {TF : Trig f64} (bld : build) (M : mgr f64) d L (g : grid f64) s (limit : f64) bins :
  let lo := hist_lo (m_stats M) in let hi := hist_hi (m_stats M) limit in
  recorded M d L -> sel_ok s -> limits64 lo hi bins -> (vlen (sampled g s L) <= 2 ^ 53)%N ->
  (forall m, In m (sampled g s L) -> is_finite (speed (sm_vel m)) = true /\ B2R lo <= B2R (speed (sm_vel m))) ->
  exists d' h (member : N -> sample f64 -> bool), histogram bld M d g s "velocity" limit bins = Val (d', (h, bin_edges lo hi bins)) /\ vlen h = bins /\
    (forall b, (b < bins)%N -> exists n : f64, at_ h b n /\ is_finite n = true /\ B2R n = NR (vlen (filter (member b) (sampled g s L)))) /\
    forall m, In m (sampled g s L) ->
      (forall b, (b < bins)%N -> member b m = true -> in_exact_bin (slack hi bins) lo hi bins b (speed (sm_vel m))) /\
      (forall b, (b < bins)%N -> in_exact_bin (- slack hi bins) lo hi bins b (speed (sm_vel m)) -> member b m = true) /\
      (forall b c, member b m = true -> member c m = true -> b = c) /\
      ((forall b, (b < bins)%N -> member b m = false) -> B2R hi - slack hi bins <= B2R (speed (sm_vel m))).
Proof.
  intros lo hi Rec Sk Lm Small Sp.
  destruct (c38_counts bld M d L g s limit bins Rec Sk ltac:(destruct Lm as [_ [_ [_ [_ [B _]]]]]; exact B) Small) as [d' [h [E [V H]]]].
  exists d', h, (in_bin (bin_edges lo hi bins)). split; [exact E|]. split; [exact V|]. split; [exact H|].
  intros m Im. destruct (Sp m Im) as [Fv Hv]. split; [|split; [|split]].
  - intros b Hb. exact (proj1 (c143_bin lo hi bins b m Lm Hb Fv Hv)).
  - intros b Hb. exact (proj2 (c143_bin lo hi bins b m Lm Hb Fv Hv)).
  - intros b c Hb Hc. unfold in_bin in Hb, Hc. apply N.eqb_eq in Hb, Hc. congruence.
  - exact (c143_none lo hi bins m Lm Fv Hv).
Qed.

Example c143_limits_case : limits64 (f64_of_Z 1) (f64_of_Z 5) 1000.
Proof.
  destruct (of_Z_correct 1 ltac:(lia)) as [E1 F1]. destruct (of_Z_correct 5 ltac:(lia)) as [E5 F5].
  unfold limits64. rewrite E1, E5. split; [exact F1|]. split; [exact F5|]. split; [lra|]. split.
  - apply Rle_trans with (bpow radix2 0); [apply bpow_le; lia | cbn; lra].
  - split; [lia|]. unfold NR. cbn [Z.of_N]. change (IZR (2 ^ 40)) with 1099511627776. lra.
Qed.
(** A speed surely in a bin: 3, in the second of three between 1 and 5. *)
Example c143_bin_case : limits64 (f64_of_Z 1) (f64_of_Z 5) 3 /\ in_exact_bin (- slack (f64_of_Z 5) 3) (f64_of_Z 1) (f64_of_Z 5) 3 1 (f64_of_Z 3).
Proof.
  destruct (of_Z_correct 1 ltac:(lia)) as [E1 F1]. destruct (of_Z_correct 3 ltac:(lia)) as [E3 F3]. destruct (of_Z_correct 5 ltac:(lia)) as [E5 F5].
  split.
  - unfold limits64. rewrite E1, E5. split; [exact F1|]. split; [exact F5|]. split; [lra|]. split.
    + apply Rle_trans with (bpow radix2 0); [apply bpow_le; lia | cbn; lra].
    + split; [lia|]. unfold NR. cbn [Z.of_N]. change (IZR (2 ^ 40)) with 1099511627776. lra.
  - unfold in_exact_bin, edge, slack. rewrite E1, E3, E5. unfold NR. cbn [Z.of_N]. change (IZR (2 ^ 49)) with 562949953421312. lra.
Qed.
