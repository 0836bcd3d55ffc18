(** * PropertiesMsdFloat: the mean squared displacement in doubles (C145) *)
From Coq Require Import Reals List NArith ZArith Lia Lra Psatz Bool String.
From Flocq Require Import Core.Core IEEE754.BinarySingleNaN.
From Verif Require Import Base BaseFacts Num F64Facts RFacts NDArray GridModel GridSpec GridFacts CartProofs CartR GridOps
  SelModel DataModel DataSpec DataProofs DataLoad PropertiesGrid PropertiesData FunModel FunSpec FunProofs FunMgr FunField PropertiesFun FunOcc FunMom FunTemp
  FunDisp MixModel FunMix FunMsd FloatErr FloatSum PropertiesMean FloatCalc FloatVar FloatNd PropertiesVar.
Import ListNotations.
Local Open Scope R_scope.

(** ** One distance *)
(** Coordinates of at most 2^400. *)
Definition moderate (x : f64) : Prop := is_finite x = true /\ Rabs (B2R x) <= bpow radix2 400.
Definition moderate3 (p : v3 f64) : Prop := let '(x, y, z) := p in moderate x /\ moderate y /\ moderate z.
(** The exact distance between two points given in doubles. *)
Definition gap (p q : v3 f64) : R :=
  let '(p0, p1, p2) := p in let '(q0, q1, q2) := q in norm3 (B2R p0 - B2R q0) (B2R p1 - B2R q1) (B2R p2 - B2R q2).

Lemma diff_err (x y : f64) : moderate x -> moderate y -> let u := Bminus mode_NE x y in let U := B2R x - B2R y in
  is_finite u = true /\ (1 - eps) * (1 - eps) * (U * U) <= B2R u * B2R u <= (1 + eps) * (1 + eps) * (U * U) /\ Rabs (B2R u) <= bpow radix2 402 /\ Rabs U <= bpow radix2 401.
Proof.
  intros [Fx Hx] [Fy Hy] u U. assert (P := eps_pos). assert (Le := eps_le).
  assert (HU : Rabs U <= bpow radix2 401).
  { unfold U. apply Rle_trans with (Rabs (B2R x) + Rabs (B2R y)); [unfold Rminus; rewrite <- (Rabs_Ropp (B2R y)); apply Rabs_triang|].
    replace 401%Z with (1 + 400)%Z by lia. rewrite bpow_plus. change (bpow radix2 1) with 2. lra. }
  assert (M := Bminus_correct 53 1024 _ _ mode_NE x y Fx Fy).
  change (round radix2 (SpecFloat.fexp 53 1024) (round_mode mode_NE) (B2R x - B2R y)) with (rnd U) in M.
  rewrite Rlt_bool_true in M by (apply big_fits; apply Rle_trans with (1 := HU); apply bpow_le; lia). destruct M as [Es [Fs _]].
  split; [exact Fs|]. fold u in Es. rewrite Es. destruct (rnd_diff x y) as [e [He Ee]]. fold U in Ee. rewrite Ee. assert (G := factor _ He).
  assert (U0 : 0 <= U * U) by apply Rle_0_sqr.
  split; [|split; [|exact HU]].
  - replace (U * (1 + e) * (U * (1 + e))) with ((1 + e) * (1 + e) * (U * U)) by ring.
    split; apply Rmult_le_compat_r; try exact U0; apply Rmult_le_compat; lra.
  - rewrite Rabs_mult, (Rabs_pos_eq (1 + e)) by lra. replace 402%Z with (401 + 1)%Z by lia. rewrite bpow_plus. change (bpow radix2 1) with 2.
    apply Rmult_le_compat; [apply Rabs_pos | lra | exact HU | lra].
Qed.
Lemma norm3_sq x y z : norm3 x y z * norm3 x y z = x * x + y * y + z * z.
Proof. unfold norm3. apply sqrt_sqrt. assert (0 <= x * x) by apply Rle_0_sqr. assert (0 <= y * y) by apply Rle_0_sqr. assert (0 <= z * z) by apply Rle_0_sqr. lra. Qed.
Lemma norm3_pos x y z : 0 <= norm3 x y z. Proof. apply sqrt_pos. Qed.
Lemma gap_err (p q : v3 f64) : moderate3 p -> moderate3 q ->
  is_finite (distance p q) = true /\ 0 <= gap p q <= bpow radix2 402 /\ Rabs (B2R (distance p q) - gap p q) <= 8 * eps * gap p q + 2 * tiny.
Proof.
  destruct p as [[p0 p1] p2], q as [[q0 q1] q2]. intros [P0 [P1 P2]] [Q0 [Q1 Q2]].
  change (distance (p0, p1, p2) (q0, q1, q2)) with (speed3 (Bminus mode_NE p0 q0) (Bminus mode_NE p1 q1) (Bminus mode_NE p2 q2)). unfold gap.
  destruct (diff_err p0 q0 P0 Q0) as [F0 [E0 [B0 G0]]]. destruct (diff_err p1 q1 P1 Q1) as [F1 [E1 [B1 G1]]]. destruct (diff_err p2 q2 P2 Q2) as [F2 [E2 [B2 G2]]].
  set (u0 := Bminus mode_NE p0 q0) in *. set (u1 := Bminus mode_NE p1 q1) in *. set (u2 := Bminus mode_NE p2 q2) in *.
  set (U0 := B2R p0 - B2R q0) in *. set (U1 := B2R p1 - B2R q1) in *. set (U2 := B2R p2 - B2R q2) in *.
  assert (P := eps_pos). assert (Le := eps_le).
  assert (Big : forall v, Rabs v <= bpow radix2 402 -> Rabs v <= bpow radix2 500) by (intros v Hv; apply Rle_trans with (1 := Hv); apply bpow_le; lia).
  destruct (speed_err u0 u1 u2 F0 F1 F2 (Big _ B0) (Big _ B1) (Big _ B2)) as [Fs [_ Es]]. split; [exact Fs|].
  set (D := norm3 U0 U1 U2). set (D' := norm3 (B2R u0) (B2R u1) (B2R u2)) in *.
  assert (D0 : 0 <= D) by apply norm3_pos. assert (D'0 : 0 <= D') by apply norm3_pos.
  assert (S := norm3_sq U0 U1 U2). assert (S' := norm3_sq (B2R u0) (B2R u1) (B2R u2)). fold D in S. fold D' in S'.
  assert (Up : D' <= (1 + eps) * D).
  { apply sq_le; [apply Rmult_le_pos; lra|]. replace ((1 + eps) * D * ((1 + eps) * D)) with ((1 + eps) * (1 + eps) * (D * D)) by ring. rewrite S, S'. lra. }
  assert (Lo : (1 - eps) * D <= D').
  { apply sq_le; [exact D'0|]. replace ((1 - eps) * D * ((1 - eps) * D)) with ((1 - eps) * (1 - eps) * (D * D)) by ring. rewrite S, S'. lra. }
  split.
  - split; [exact D0|]. apply sq_le; [apply bpow_ge_0|]. rewrite S.
    assert (Sq : forall v, Rabs v <= bpow radix2 401 -> v * v <= bpow radix2 401 * bpow radix2 401).
    { intros v Hv. rewrite <- (Rabs_pos_eq (v * v)) by apply Rle_0_sqr. rewrite Rabs_mult. apply Rmult_le_compat; auto using Rabs_pos. }
    apply Sq in G0, G1, G2. replace 402%Z with (1 + 401)%Z by lia. rewrite bpow_plus. change (bpow radix2 1) with 2.
    assert (0 <= bpow radix2 401 * bpow radix2 401) by (apply Rmult_le_pos; apply bpow_ge_0). lra.
  - replace (B2R (speed3 u0 u1 u2) - D) with ((B2R (speed3 u0 u1 u2) - D') + (D' - D)) by ring. apply Rle_trans with (1 := Rabs_triang _ _).
    assert (A : Rabs (D' - D) <= eps * D) by (apply Rabs_le; lra).
    assert (0 <= eps * D) by (apply Rmult_le_pos; lra).
    assert (W : 6 * eps * D' <= 6 * eps * ((1 + eps) * D)) by (apply Rmult_le_compat_l; lra).
    assert (eps * (eps * D) <= / 10 * (eps * D)) by (apply Rmult_le_compat_r; lra). lra.
Qed.

(** ** Sums of numbers with relative and absolute errors *)
Lemma sum_near {T} (f : T -> f64) (X j : T -> R) (l : list T) k :
  (forall a, In a l -> is_finite (f a) = true /\ 0 <= X a <= bpow radix2 900 /\ 0 <= j a <= 1 /\ Rabs (B2R (f a) - X a) <= k * eps * X a + j a) ->
  0 <= k -> k * eps <= / 4 -> (length l <= 2 ^ 46)%nat ->
  let r := fold_left (Bplus mode_NE) (map f l) (f64_of_Z 0) in
  is_finite r = true /\ Rabs (B2R r - Rsum (map X l)) <= (3 * INR (length l) + k) * eps * Rsum (map X l) + 2 * Rsum (map j l).
Proof.
  intros H K0 Ke Hn r. assert (P := eps_pos). assert (N0 := pos_INR (length l)). assert (N1 := b46 _ Hn). assert (Z := z52 _ Hn).
  assert (Sz : Rsum (map (fun a => Rabs (B2R (f a))) l) <= 5 / 4 * Rsum (map X l) + Rsum (map j l)).
  { clear Hn N0 N1 Z r. induction l as [|a l IH]; [cbn [map]; rewrite !Rsum_nil; lra|]. cbn [map]. rewrite !Rsum_cons.
    assert (I := IH (fun y Hy => H y (or_intror Hy))). destruct (H a (or_introl eq_refl)) as [_ [[X0 _] [_ E]]].
    assert (Rabs (B2R (f a)) <= 5 / 4 * X a + j a); [|lra]. replace (B2R (f a)) with (B2R (f a) - X a + X a) by ring. apply Rle_trans with (1 := Rabs_triang _ _).
    rewrite (Rabs_pos_eq (X a)) by exact X0. assert (k * eps * X a <= / 4 * X a) by (apply Rmult_le_compat_r; lra). lra. }
  assert (Sm : Rabs (Rsum (map (fun a => B2R (f a)) l) - Rsum (map X l)) <= k * eps * Rsum (map X l) + Rsum (map j l)).
  { clear Hn N0 N1 Z r Sz. induction l as [|a l IH]; [cbn [map]; rewrite !Rsum_nil, Rminus_0_r, Rabs_R0; lra|]. cbn [map]. rewrite !Rsum_cons.
    assert (I := IH (fun y Hy => H y (or_intror Hy))). destruct (H a (or_introl eq_refl)) as [_ [_ [_ E]]].
    match goal with |- Rabs (?a + ?b - (?c + ?e)) <= _ => replace (a + b - (c + e)) with ((a - c) + (b - e)) by ring end. apply Rle_trans with (1 := Rabs_triang _ _). lra. }
  assert (X0 : 0 <= Rsum (map X l)). { apply Rsum_nonneg. intros x Hx. destruct (H x Hx) as [_ [Q _]]. lra. }
  assert (J0 : 0 <= Rsum (map j l)). { apply Rsum_nonneg. intros x Hx. destruct (H x Hx) as [_ [_ [Q _]]]. lra. }
  assert (XB : Rsum (map X l) <= bpow radix2 (900 + 46)) by (apply pow_sum; [exact Hn|]; intros x Hx; apply (H x Hx)).
  assert (JB : Rsum (map j l) <= bpow radix2 (0 + 46)) by (apply pow_sum; [exact Hn|]; intros x Hx; change (bpow radix2 0) with 1; apply (H x Hx)).
  destruct (sum_err (map f l)) as [F E].
  - apply Forall_forall. intros x Hx. apply in_map_iff in Hx. destruct Hx as [a [<- Ha]]. apply (H a Ha).
  - rewrite map_length. exact Z.
  - rewrite map_map. apply Rle_trans with (1 := Sz). apply Rle_trans with (2 * bpow radix2 946 + bpow radix2 946).
    + change (900 + 46)%Z with 946%Z in XB. assert (bpow radix2 (0 + 46) <= bpow radix2 946) by (apply bpow_le; lia). assert (0 <= bpow radix2 946) by apply bpow_ge_0. lra.
    + apply Rle_trans with (bpow radix2 2 * bpow radix2 946); [change (bpow radix2 2) with 4; assert (0 <= bpow radix2 946) by apply bpow_ge_0; lra|]. rewrite <- bpow_plus. apply bpow_le. lia.
  - rewrite !map_map, map_length, <- INR_IZR_INZ in E. fold r in F, E. split; [exact F|].
    replace (B2R r - Rsum (map X l)) with ((B2R r - Rsum (map (fun a => B2R (f a)) l)) + (Rsum (map (fun a => B2R (f a)) l) - Rsum (map X l))) by ring.
    apply Rle_trans with (1 := Rabs_triang _ _). set (n := INR (length l)) in *. set (SX := Rsum (map X l)) in *. set (J := Rsum (map j l)) in *.
    assert (A : 2 * n * eps * Rsum (map (fun a => Rabs (B2R (f a))) l) <= 2 * n * eps * (5 / 4 * SX + J)) by (apply Rmult_le_compat_l; [apply Rmult_le_pos; lra | exact Sz]).
    assert (NE : n * eps <= / 64) by (rewrite eps_val; lra). assert (0 <= n * eps) by (apply Rmult_le_pos; lra).
    assert (n * eps * J <= / 64 * J) by (apply Rmult_le_compat_r; lra). assert (0 <= n * eps * SX) by (apply Rmult_le_pos; lra). lra.
Qed.

(** ** The value of one cell *)
Definition speck : R := bpow radix2 (-530).
Lemma speck_tiny : speck = 64 * tiny.
Proof. unfold speck, tiny. change 64 with (bpow radix2 6). rewrite <- bpow_plus. reflexivity. Qed.
(** A quotient by a count. *)
Lemma over_count (v X E : R) (x n : f64) : is_finite x = true -> B2R x = v -> 1 <= B2R n -> Rabs (v - X) <= E -> 0 <= X <= bpow radix2 990 -> E <= bpow radix2 990 ->
  let q := Bdiv mode_NE x n in is_finite q = true /\ Rabs (B2R q - X / B2R n) <= (1 + eps) * (E / B2R n) + eps * (X / B2R n) + eta.
Proof.
  intros Fx Ex Hn HE HX EB q. set (m := B2R n) in *. assert (P := eps_pos). assert (Le := eps_le).
  assert (I : 0 < / m <= 1) by (split; [apply Rinv_0_lt_compat; lra | rewrite <- Rinv_1; apply Rinv_le_contravar; lra]).
  assert (E0 : 0 <= E) by (apply Rle_trans with (2 := HE); apply Rabs_pos).
  assert (Dv : Rabs (v / m - X / m) <= E / m).
  { replace (v / m - X / m) with ((v - X) * / m) by (field; lra). rewrite Rabs_mult, (Rabs_pos_eq (/ m)) by lra. apply Rmult_le_compat_r; lra. }
  assert (Xm : 0 <= X / m <= X). { split; [apply Rmult_le_pos; lra|]. unfold Rdiv. rewrite <- (Rmult_1_r X) at 2. apply Rmult_le_compat_l; lra. }
  assert (Em : 0 <= E / m <= E). { split; [apply Rmult_le_pos; lra|]. unfold Rdiv. rewrite <- (Rmult_1_r E) at 2. apply Rmult_le_compat_l; lra. }
  destruct (div_R x n Fx) as [Fq Eq]; [fold m; lra | |].
  { rewrite Ex. fold m. apply big_fits. replace (v / m) with ((v / m - X / m) + X / m) by ring. apply Rle_trans with (1 := Rabs_triang _ _). rewrite (Rabs_pos_eq (X / m)) by lra.
    apply Rle_trans with (2 * bpow radix2 990); [lra|]. change 2 with (bpow radix2 1) at 1. rewrite <- bpow_plus. apply bpow_le. lia. }
  fold q in Fq, Eq. split; [exact Fq|]. rewrite Eq, Ex. fold m. destruct (rnd_ex (v / m)) as [e [dd [He [Hd ->]]]].
  replace (v / m * (1 + e) + dd - X / m) with ((v / m - X / m) * (1 + e) + X / m * e + dd) by ring. assert (G := factor _ He).
  apply Rle_trans with (1 := Rabs_triang _ _). apply Rplus_le_compat; [|exact Hd]. apply Rle_trans with (1 := Rabs_triang _ _). rewrite !Rabs_mult, (Rabs_pos_eq (1 + e)), (Rabs_pos_eq (X / m)) by lra.
  apply Rplus_le_compat; [rewrite Rmult_comm; apply Rmult_le_compat; [lra | apply Rabs_pos | lra | exact Dv] | rewrite Rmult_comm; apply Rmult_le_compat_r; lra].
Qed.
Lemma cell_err (S n : f64) (T : R) : is_finite S = true -> 1 <= B2R n <= 70368744177664 -> 0 <= T <= bpow radix2 448 ->
  Rabs (B2R S - T) <= (3 * B2R n + 8) * eps * T + 4 * B2R n * tiny ->
  let v := Bdiv mode_NE (Bmult mode_NE S S) n in
  is_finite v = true /\ Rabs (B2R v - T * T / B2R n) <= 8 * (B2R n + 3) * eps * (T * T / B2R n) + (T + 1) * speck.
Proof.
  intros FS Hn HT HS v. set (m := B2R n) in *. assert (P := eps_pos). assert (Le := eps_le). assert (Tp := tiny_pos). assert (H0 := eta_pos).
  set (a := (3 * m + 8) * eps) in *. set (b := 4 * m * tiny) in *. assert (A0 : 0 <= a <= / 32) by (unfold a; rewrite eps_val; lra).
  assert (B0 : 0 <= b) by (unfold b; apply Rmult_le_pos; lra).
  assert (MT : m * tiny <= / 64).
  { apply Rle_trans with (bpow radix2 46 * tiny); [apply Rmult_le_compat_r; [lra | change (bpow radix2 46) with 70368744177664; lra]|].
    unfold tiny. rewrite <- bpow_plus. apply Rle_trans with (bpow radix2 (-6)); [apply bpow_le; lia | cbn; lra]. }
  assert (B1 : b <= 1) by (unfold b; lra).
  set (D := B2R S - T) in *. assert (T2 : 0 <= T * T) by (apply Rmult_le_pos; lra).
  set (E := 205 / 100 * a * (T * T) + 22 / 10 * b * T + 11 / 10 * (b * b)).
  assert (aT : 0 <= a * T) by (apply Rmult_le_pos; lra). assert (bT : 0 <= b * T) by (apply Rmult_le_pos; lra). assert (bb : 0 <= b * b) by (apply Rmult_le_pos; lra).
  assert (aTT : 0 <= a * (T * T)) by (apply Rmult_le_pos; lra).
  assert (Sq : Rabs (B2R S * B2R S - T * T) <= 204 / 100 * a * (T * T) + 21 / 10 * (b * T) + b * b).
  { replace (B2R S * B2R S - T * T) with (D * (D + 2 * T)) by (unfold D; ring). rewrite Rabs_mult.
    apply Rle_trans with ((a * T + b) * (a * T + b + 2 * T)).
    - apply Rmult_le_compat; [apply Rabs_pos | apply Rabs_pos | exact HS|]. apply Rle_trans with (1 := Rabs_triang _ _). rewrite (Rabs_pos_eq (2 * T)) by lra. lra.
    - replace ((a * T + b) * (a * T + b + 2 * T)) with (a * (a * (T * T)) + 2 * (a * (T * T)) + 2 * (a * (b * T)) + 2 * (b * T) + b * b) by ring.
      assert (a * (a * (T * T)) <= / 32 * (a * (T * T))) by (apply Rmult_le_compat_r; lra). assert (a * (b * T) <= / 32 * (b * T)) by (apply Rmult_le_compat_r; lra). lra. }
  assert (TB : T * T <= bpow radix2 896). { replace 896%Z with (448 + 448)%Z by lia. rewrite bpow_plus. apply Rmult_le_compat; lra. }
  assert (TB1 : bpow radix2 448 <= bpow radix2 896) by (apply bpow_le; lia). assert (P8 : 1 <= bpow radix2 448) by (apply (bpow_le radix2 0); lia).
  assert (P9 : 64 * bpow radix2 896 <= bpow radix2 990) by (change 64 with (bpow radix2 6); rewrite <- bpow_plus; apply bpow_le; lia).
  assert (U1 : a * (T * T) <= / 32 * (T * T)) by (apply Rmult_le_compat_r; lra). assert (U2 : b * T <= 1 * T) by (apply Rmult_le_compat_r; lra). assert (U3 : b * b <= 1 * 1) by (apply Rmult_le_compat; lra).
  destruct (mul_R S S FS FS) as [Fq Eq].
  { apply big_fits. replace (B2R S * B2R S) with ((B2R S * B2R S - T * T) + T * T) by ring. apply Rle_trans with (1 := Rabs_triang _ _). rewrite (Rabs_pos_eq (T * T)) by lra.
    apply Rle_trans with (bpow radix2 990); [|apply bpow_le; lia]. lra. }
  assert (SS : Rabs (rnd (B2R S * B2R S) - T * T) <= E + eps * (T * T) + eta).
  { destruct (rnd_ex (B2R S * B2R S)) as [e [dd [He [Hd ->]]]]. assert (G := factor _ He).
    replace (B2R S * B2R S * (1 + e) + dd - T * T) with ((B2R S * B2R S - T * T) * (1 + e) + T * T * e + dd) by ring.
    apply Rle_trans with (1 := Rabs_triang _ _). apply Rplus_le_compat; [|exact Hd]. apply Rle_trans with (1 := Rabs_triang _ _). rewrite (Rabs_mult _ (1 + e)), (Rabs_mult (T * T) e), (Rabs_pos_eq (1 + e)), (Rabs_pos_eq (T * T)) by lra.
    apply Rplus_le_compat; [|rewrite Rmult_comm; apply Rmult_le_compat_r; lra].
    apply Rle_trans with ((204 / 100 * a * (T * T) + 21 / 10 * (b * T) + b * b) * (1 + / 1000)); [|unfold E; lra].
    apply Rmult_le_compat; [apply Rabs_pos | lra | exact Sq | lra]. }
  assert (Et1 : eta <= 1) by (unfold eta; apply Rle_trans with (bpow radix2 0); [apply bpow_le; lia | cbn; lra]).
  assert (ET : eps * (T * T) <= / 1000 * (T * T)) by (apply Rmult_le_compat_r; lra). assert (ET0 : 0 <= eps * (T * T)) by (apply Rmult_le_pos; lra).
  assert (TT : T <= bpow radix2 896) by lra. assert (P7 : 1 <= bpow radix2 896) by lra.
  destruct (over_count (rnd (B2R S * B2R S)) (T * T) (E + eps * (T * T) + eta) (Bmult mode_NE S S) n Fq Eq ltac:(fold m; lra) SS) as [Fv Ev].
  - split; [exact T2|]. lra.
  - unfold E. lra.
  - fold v m in Fv, Ev. split; [exact Fv|]. apply Rle_trans with (1 := Ev).
    assert (I : 0 < / m <= 1) by (split; [apply Rinv_0_lt_compat; lra | rewrite <- Rinv_1; apply Rinv_le_contravar; lra]).
    set (Q := T * T / m). assert (Q0 : 0 <= Q) by (apply Rmult_le_pos; lra). assert (EQ0 : 0 <= eps * Q) by (apply Rmult_le_pos; lra).
    assert (aQ : 0 <= a * Q) by (apply Rmult_le_pos; lra).
    assert (X : (E + eps * (T * T) + eta) / m <= 205 / 100 * (a * Q) + 88 / 10 * (tiny * T) + 176 / 10 * (b / 4 * tiny) + eps * Q + eta).
    { replace ((E + eps * (T * T) + eta) / m) with (205 / 100 * (a * Q) + 88 / 10 * (tiny * T) + 176 / 10 * (b / 4 * tiny) + eps * Q + eta * / m) by (unfold E, Q, b; field; lra).
      assert (eta * / m <= eta * 1) by (apply Rmult_le_compat_l; lra). lra. }
    assert (bt : b / 4 * tiny <= / 4 * tiny) by (apply Rmult_le_compat_r; lra). assert (bt0 : 0 <= b / 4 * tiny) by (apply Rmult_le_pos; lra).
    assert (tT : 0 <= tiny * T) by (apply Rmult_le_pos; lra). assert (K3 := eta_tiny). assert (K4 : eps * tiny <= / 4 * tiny) by (apply Rmult_le_compat_r; lra).
    set (Y := 205 / 100 * (a * Q) + 88 / 10 * (tiny * T) + 176 / 10 * (b / 4 * tiny) + eps * Q + eta) in *. assert (Y0 : 0 <= Y) by (unfold Y; lra).
    assert (Z : (1 + eps) * ((E + eps * (T * T) + eta) / m) <= (1 + / 1000) * Y) by (apply Rle_trans with ((1 + eps) * Y); [apply Rmult_le_compat_l; lra | apply Rmult_le_compat_r; lra]).
    apply Rle_trans with ((1 + / 1000) * Y + eps * Q + eta); [lra|]. rewrite speck_tiny.
    replace ((T + 1) * (64 * tiny)) with (64 * (tiny * T) + 64 * tiny) by ring.
    assert (EA : a * Q = 3 * (m * (eps * Q)) + 8 * (eps * Q)) by (unfold a; ring). assert (0 <= m * (eps * Q)) by (apply Rmult_le_pos; lra).
    replace (8 * (m + 3) * eps * Q) with (8 * (m * (eps * Q)) + 24 * (eps * Q)) by ring. unfold Y. rewrite EA. lra.
Qed.

(** ** C145: specification *)
(** The moves that start in a cell, and how far they go in total (exactly). *)
Definition moves_of_cell {TF : Trig f64} (bld : build) (M : mgr f64) (g : grid f64) (s : selector f64) (L : list (timestep f64)) (dt : f64) (c : id3) : list (sample f64 * v3 f64) :=
  moves_in bld g c (moves_before_last bld (st_time (m_stats M)) dt s L).
Definition far (l : list (sample f64 * v3 f64)) : R := Rsum (map (fun mq => gap (start mq) (snd mq)) l).

Lemma removelast_in {A} (l : list A) x : In x (removelast l) -> In x l.
Proof. intros H. destruct l as [|a l]; [contradiction|]. rewrite (app_removelast_last a (l := a :: l)) by discriminate. apply in_or_app. now left. Qed.
Lemma before_last_from bld ta dt s (L : list (timestep f64)) mq : Forall rect L -> In mq (moves_before_last bld ta dt s L) ->
  (exists x, In x L /\ In (start mq) (ts_pos x)) /\ exists y, In y L /\ In (snd mq) (ts_pos y).
Proof.
  intros Rc. unfold moves_before_last. intros H. apply in_flat_map in H. destruct H as [x [Hx H]]. apply removelast_in in Hx. unfold delayed in H.
  destruct (closest _ _ _ _) as [[[t|]|]|]; try contradiction. destruct (nth_error L (N.to_nat t)) as [y|] eqn:E; [|contradiction].
  apply filter_In in H. destruct H as [H _]. destruct mq as [m q]. split.
  - exists x. split; [exact Hx|]. apply in_combine_l in H. apply In_nth_error in H. destruct H as [i Hi]. rewrite Forall_forall in Rc.
    destruct (samples_at x (N.of_nat i) m (Rc x Hx)) as [_ [Hp _]]; [unfold at_; now rewrite Nnat.Nat2N.id|]. exact (nth_error_In _ _ Hp).
  - exists y. split; [exact (nth_error_In _ _ E)|]. exact (in_combine_r _ _ _ _ H).
Qed.
Lemma before_last_few bld ta dt s (L : list (timestep f64)) : (List.length (moves_before_last bld ta dt s L) <= List.length (all_samples L))%nat.
Proof.
  apply Nat.le_trans with (1 := moves_few bld ta dt s L (removelast L)). destruct L as [|a L]; [apply Nat.le_refl|].
  rewrite (app_removelast_last a (l := a :: L)) at 2 by discriminate. unfold all_samples. rewrite flat_map_app, app_length. apply Nat.le_add_r.
Qed.
Lemma in_cell_one {TF : Trig f64} bld ge c c' p : in_cell bld ge c p = true -> in_cell bld ge c' p = true -> c = c'.
Proof.
  unfold in_cell. destruct (geom_inside ge p); [|discriminate]. cbn [andb]. destruct (geom_cell_id bld ge p) as [[k|]|]; try discriminate. intros A B.
  apply id3_eqb_eq in A, B. congruence.
Qed.
Lemma cells_few {TF : Trig f64} bld (g : grid f64) (l : list (sample f64 * v3 f64)) (cs : list id3) : NoDup cs ->
  (fold_right Nat.add 0 (map (fun c => List.length (moves_in bld g c l)) cs) <= List.length l)%nat.
Proof.
  intros Nd. induction l as [|mq l IH].
  - cbn [List.length]. clear. induction cs as [|c cs IH]; cbn [map fold_right]; [apply Nat.le_refl|]. exact IH.
  - assert (X : fold_right Nat.add 0%nat (map (fun c => List.length (moves_in bld g c (mq :: l))) cs) =
      (List.length (filter (fun c => in_cell bld (geo g) c (start mq)) cs) + fold_right Nat.add 0 (map (fun c => List.length (moves_in bld g c l)) cs))%nat).
    { clear. induction cs as [|c cs IH]; [reflexivity|]. cbn [map fold_right filter]. rewrite IH. unfold moves_in at 1. cbn [filter].
      destruct (in_cell bld (geo g) c (start mq)); cbn [List.length]; fold (moves_in bld g c l); lia. }
    rewrite X. cbn [List.length]. assert (Y : (List.length (filter (fun c => in_cell bld (geo g) c (start mq)) cs) <= 1)%nat); [|lia].
    assert (Nf := NoDup_filter (fun c => in_cell bld (geo g) c (start mq)) Nd). destruct (filter _ cs) as [|a [|b r]] eqn:E; cbn [List.length]; [lia | lia|]. exfalso.
    assert (Ha : In a (filter (fun c => in_cell bld (geo g) c (start mq)) cs)) by (rewrite E; now left).
    assert (Hb : In b (filter (fun c => in_cell bld (geo g) c (start mq)) cs)) by (rewrite E; right; now left).
    apply filter_In in Ha, Hb. rewrite (in_cell_one _ _ _ _ _ (proj2 Ha) (proj2 Hb)) in Nf. inversion Nf as [|? ? Q _]. apply Q. now left.
Qed.
Lemma fold_whole {T} (f : T -> f64) (n : T -> nat) (l : list T) : (forall c, In c l -> whole (f c) (Z.of_nat (n c))) ->
  forall (a : f64) (k : nat), whole a (Z.of_nat k) -> (Z.of_nat (k + fold_right Nat.add 0%nat (map n l)) <= 2 ^ 53)%Z ->
  whole (fold_left (fun acc c => Bplus mode_NE acc (f c)) l a) (Z.of_nat (k + fold_right Nat.add 0%nat (map n l))).
Proof.
  induction l as [|c l IH]; intros H a k Ha B; cbn [fold_left map fold_right] in *; [rewrite Nat.add_0_r; exact Ha|].
  rewrite Nat.add_assoc in *. apply IH; [intros; apply H; now right | | exact B].
  rewrite Nat2Z.inj_add. apply whole_plus; [exact Ha | apply H; now left|]. lia.
Qed.
Lemma nat46 k : (N.of_nat k <= 2 ^ 46)%N -> (k <= 2 ^ 46)%nat.
Proof. intros H. assert (X : N.of_nat (2 ^ 46) = (2 ^ 46)%N) by (rewrite Nat2N.inj_pow; reflexivity). assert (Y : (N.of_nat k <= N.of_nat (2 ^ 46))%N) by (rewrite X; exact H). clear - Y. lia. Qed.

Section Field.
  Context {TF : Trig f64}.
  Variables (can : N -> N -> Prop) (bld : build) (M : mgr f64) (L : list (timestep f64)) (g : grid f64) (s : selector f64) (dt : f64).
  Hypothesis Ne : L <> [].
  Hypothesis Ta : vlen (st_time (m_stats M)) = vlen L.
  Hypothesis Rc : Forall rect L.
  Hypothesis Sk : sel_ok s.
  Hypothesis Fr : fresh g.
  Hypothesis Hs : forall x p, In x L -> In p (ts_pos x) -> moderate3 p.
  Hypothesis Hn : (vlen (all_samples L) <= 2 ^ 46)%N.

  Lemma cell_moves c : let l := moves_of_cell bld M g s L dt c in (List.length l <= 2 ^ 46)%nat /\
    (forall mq, In mq l -> is_finite (travelled mq) = true /\ 0 <= gap (start mq) (snd mq) <= bpow radix2 402 /\ Rabs (B2R (travelled mq) - gap (start mq) (snd mq)) <= 8 * eps * gap (start mq) (snd mq) + 2 * tiny) /\
    0 <= far l <= bpow radix2 448.
  Proof using Rc Hs Hn.
    intros l. assert (L46 : (List.length l <= 2 ^ 46)%nat).
    { apply Nat.le_trans with (1 := filter_len _ _). apply Nat.le_trans with (1 := before_last_few _ _ _ _ _). apply nat46. exact Hn. }
    assert (Each : forall mq, In mq l -> is_finite (travelled mq) = true /\ 0 <= gap (start mq) (snd mq) <= bpow radix2 402 /\ Rabs (B2R (travelled mq) - gap (start mq) (snd mq)) <= 8 * eps * gap (start mq) (snd mq) + 2 * tiny).
    { intros mq Hm. unfold l, moves_of_cell, moves_in in Hm. apply filter_In in Hm as [Hm _]. destruct (before_last_from _ _ _ _ _ _ Rc Hm) as [[x [Hx Px]] [y [Hy Py]]].
      exact (gap_err (start mq) (snd mq) (Hs x _ Hx Px) (Hs y _ Hy Py)). }
    split; [exact L46|]. split; [exact Each|]. split; [apply Rsum_nonneg; intros mq Hm; apply (Each mq Hm)|].
    apply (pow_sum _ l 402 L46). intros mq Hm. apply (Each mq Hm).
  Qed.
  Lemma field_cell d d' h c : aux_reads can M d L -> msd_field bld M d g s dt = Val (d', h) -> inb3 (geom_cells (geo g)) c = true ->
    let l := moves_of_cell bld M g s L dt c in let n := INR (List.length l) in let T := far l in let v := at3 (data h) c in
    whole (at3 (weight h) c) (Z.of_nat (List.length l)) /\ is_finite v = true /\ (l = [] -> B2R v = 0) /\
    (l <> [] -> Rabs (B2R v - T * T / n) <= 8 * (n + 3) * eps * (T * T / n) + (T + 1) * speck).
  Proof using Ne Ta Rc Sk Fr Hs Hn.
    intros Aux E Hc l n T v. destruct Fr as [W F0]. destruct (msd_run can bld M d L g s dt d' h Aux Ne Ta Rc Sk W E) as [_ [_ [_ H]]].
    destruct (H c Hc) as [Hd Hw]. cbv zeta in Hd, Hw. fold (moves_of_cell bld M g s L dt c) in Hd, Hw. fold l in Hd, Hw. fold v in Hd.
    destruct (cell_moves c) as [L46 [Each TB]]. fold l in L46, Each, TB. fold T in TB.
    rewrite (proj2 (F0 c)) in Hd, Hw. destruct (of_Z_correct 0 ltac:(clear; lia)) as [Z0 Fz0]. destruct (of_Z_correct 1 ltac:(clear; lia)) as [Z1 Fz1].
    assert (Cn : whole (fold_left (fun w _ => nadd w n1) l (@n0 f64 num_f64)) (Z.of_nat (List.length l))).
    { assert (Z := z52 _ L46). destruct (count_exact l (f64_of_Z 0) 0 Fz0 Z0) as [A B]; [unfold vlen; clear - Z; lia|]. split; [exact A|]. split; [|apply Zle_0_nat].
      refine (eq_trans B _). f_equal. unfold vlen. clear; lia. }
    set (w := fold_left (fun w _ => nadd w n1) l (@n0 f64 num_f64)) in *. assert (Ew : B2R w = n) by (rewrite (proj1 (proj2 Cn)), <- INR_IZR_INZ; reflexivity).
    split; [rewrite Hw; exact Cn|].
    assert (Cmp : forall b, Bltb (f64_of_Z 0) w = b -> nltb n0 w = b) by (intros b Hb; exact Hb).
    assert (Dl : l = [] \/ l <> []) by (destruct l; [now left | right; discriminate]). destruct Dl as [El|Nl].
    - assert (Lt : nltb n0 w = false). { apply Cmp. destruct (Bltb (f64_of_Z 0) w) eqn:B; [|reflexivity]. apply (Bltb_R _ _ Fz0 (proj1 Cn)) in B. rewrite Z0, Ew in B. unfold n in B. rewrite El in B. cbn in B. lra. }
      rewrite Lt in Hd. rewrite Hd. split; [exact Fz0|]. split; [intros _; exact Z0|]. intros; contradiction.
    - assert (N1 : 1 <= n) by (unfold n; apply (le_INR 1); destruct l; [contradiction | cbn [List.length]; clear; lia]).
      assert (Lt : nltb n0 w = true). { apply Cmp. apply (Bltb_R _ _ Fz0 (proj1 Cn)). rewrite Z0, Ew. lra. }
      rewrite Lt in Hd.
      assert (P := eps_pos). assert (Le := eps_le). assert (Tp := tiny_pos).
      assert (T1 : 2 * tiny <= 1) by (unfold tiny; change 2 with (bpow radix2 1); rewrite <- bpow_plus; apply Rle_trans with (bpow radix2 0); [apply bpow_le; clear; lia | cbn; lra]).
      assert (B402 : bpow radix2 402 <= bpow radix2 900) by (apply bpow_le; clear; lia).
      destruct (sum_near travelled (fun mq => gap (start mq) (snd mq)) (fun _ => 2 * tiny) l 8) as [Fs Es]; [|lra|lra|exact L46|].
      { intros a Ha. destruct (Each a Ha) as [A [B C]]. split; [exact A|]. split; [lra|]. split; [lra | exact C]. }
      rewrite Rsum_const in Es. fold n in Es. fold (far l) in Es. fold T in Es.
      destruct (cell_err (fold_left (Bplus mode_NE) (map travelled l) (f64_of_Z 0)) w T Fs) as [Fv Ev]; [rewrite Ew; split; [exact N1 | apply b46; exact L46] | exact TB | rewrite Ew; lra|].
      rewrite Ew in Ev. cbv zeta in Fv, Ev. rewrite Hd. split; [exact Fv|]. split; [intros; contradiction|]. intros _. exact Ev.
  Qed.
End Field.

(** ** C145 *)
Lemma eps50 k x : 8 * k * eps * x = k / IZR (2 ^ 50) * x.
Proof. rewrite eps_val. change (IZR (2 ^ 50)) with 1125899906842624. lra. Qed.
(** One delay: the weight of a cell is the number of moves starting in it; its value is the square of their summed lengths over that number, up to rounding. *)
Theorem c145_field {TF : Trig f64} can (bld : build) (M : mgr f64) d (L : list (timestep f64)) (g : grid f64) s dt d' h :
  aux_reads can M d L -> L <> [] -> vlen (st_time (m_stats M)) = vlen L -> Forall rect L -> sel_ok s -> fresh g ->
  (forall x p, In x L -> In p (ts_pos x) -> moderate3 p) -> (vlen (all_samples L) <= 2 ^ 46)%N ->
  msd_field bld M d g s dt = Val (d', h) ->
  forall c, inb3 (geom_cells (geo g)) c = true ->
  let l := moves_of_cell bld M g s L dt c in let n := INR (List.length l) in let T := far l in
  is_finite (at3 (weight h) c) = true /\ B2R (at3 (weight h) c) = n /\
  is_finite (at3 (data h) c) = true /\ (l = [] -> B2R (at3 (data h) c) = 0) /\
  (l <> [] -> Rabs (B2R (at3 (data h) c) - T * T / n) <= (n + 3) / IZR (2 ^ 50) * (T * T / n) + (T + 1) * bpow radix2 (-530)).
Proof.
  intros Aux Ne Ta Rc Sk Fr Hs Hn E c Hc l n T.
  destruct (field_cell can bld M L g s dt Ne Ta Rc Sk Fr Hs Hn d d' h c Aux E Hc) as [[Fw [Ew _]] [Fv [V0 V1]]]. fold l in Fw, Ew, Fv, V0, V1. fold n T in V1.
  split; [exact Fw|]. split; [rewrite Ew, <- INR_IZR_INZ; reflexivity|]. split; [exact Fv|]. split; [exact V0|]. intros Nl. rewrite <- eps50. exact (V1 Nl).
Qed.

Lemma INR_sum {T} (f : T -> nat) (l : list T) : Rsum (map (fun c => INR (f c)) l) = INR (fold_right Nat.add 0%nat (map f l)).
Proof. induction l as [|a l IH]; [cbn [map fold_right]; rewrite Rsum_nil; reflexivity|]. cbn [map fold_right]. rewrite Rsum_cons, IH, plus_INR. reflexivity. Qed.
Lemma sum_one {T} (f : T -> R) (l : list T) x : In x l -> (forall y, In y l -> 0 <= f y) -> f x <= Rsum (map f l).
Proof.
  induction l as [|a l IH]; intros Hx H; [contradiction|]. cbn [map]. rewrite Rsum_cons. assert (A0 := H a (or_introl eq_refl)).
  assert (B0 : 0 <= Rsum (map f l)) by (apply Rsum_nonneg; intros; apply H; now right). destruct Hx as [-> | Hx]; [lra|]. assert (Q := IH Hx (fun y Hy => H y (or_intror Hy))). lra.
Qed.

Section Mean.
  Context {TF : Trig f64}.
  Variables (can : N -> N -> Prop) (bld : build) (M : mgr f64) (L : list (timestep f64)) (g : grid f64) (s : selector f64) (dt : f64).
  Hypothesis Ne : L <> [].
  Hypothesis Ta : vlen (st_time (m_stats M)) = vlen L.
  Hypothesis Rc : Forall rect L.
  Hypothesis Sk : sel_ok s.
  Hypothesis Fr : fresh g.
  Hypothesis Hs : forall x p, In x L -> In p (ts_pos x) -> moderate3 p.
  Hypothesis Hn : (vlen (all_samples L) <= 2 ^ 46)%N.
  Hypothesis Hm : (vlen (ids3 (geom_cells (geo g))) <= 2 ^ 46)%N.
  Let cells := ids3 (geom_cells (geo g)).
  Let ls c := moves_of_cell bld M g s L dt c.
  Let n c := INR (List.length (ls c)).
  Let N' := Rsum (map n cells).
  Let U := Rsum (map (fun c => far (ls c) * far (ls c)) cells).
  Let T := Rsum (map (fun c => far (ls c)) cells).
  Lemma mean_err_cell d d' h c : aux_reads can M d L -> msd_field bld M d g s dt = Val (d', h) -> In c cells ->
    let p := Bmult mode_NE (at3 (data h) c) (at3 (weight h) c) in let X := far (ls c) * far (ls c) in
    is_finite p = true /\ 0 <= X <= bpow radix2 900 /\ 0 <= 2 * n c * (far (ls c) + 1) * speck <= 1 /\
    Rabs (B2R p - X) <= (8 * N' + 26) * eps * X + 2 * n c * (far (ls c) + 1) * speck.
  Proof using Ne Ta Rc Sk Fr Hs Hn.
    intros Aux E Hc p X. assert (Hi := proj1 (in_ids3 _ _) Hc).
    destruct (field_cell can bld M L g s dt Ne Ta Rc Sk Fr Hs Hn d d' h c Aux E Hi) as [[Fw [Ew _]] [Fv [V0 V1]]]. rewrite <- INR_IZR_INZ in Ew.
    destruct (cell_moves bld M L g s dt Rc Hs Hn c) as [L46 [_ TB]]. fold (ls c) in *. fold (n c) in *. set (t := far (ls c)) in *.
    assert (P := eps_pos). assert (Le := eps_le). assert (Tp := tiny_pos). assert (H0 := eta_pos). assert (K3 := eta_tiny). assert (Sp := speck_tiny).
    assert (NB : n c <= 70368744177664) by (apply b46; exact L46). assert (N0 : 0 <= n c) by apply pos_INR.
    assert (Nle : n c <= N') by (apply (sum_one n cells c Hc); intros; apply pos_INR).
    assert (X0 : 0 <= X) by (apply Rmult_le_pos; lra).
    assert (XB : X <= bpow radix2 896). { unfold X. replace 896%Z with (448 + 448)%Z by (clear; lia). rewrite bpow_plus. apply Rmult_le_compat; lra. }
    assert (P8 : 1 <= bpow radix2 448) by (apply (bpow_le radix2 0); clear; lia).
    assert (nt : 0 <= n c * (t + 1)) by (apply Rmult_le_pos; lra).
    assert (NT : n c * (t + 1) <= bpow radix2 46 * (2 * bpow radix2 448)) by (change (bpow radix2 46) with 70368744177664; apply Rmult_le_compat; lra).
    assert (J0 : 0 <= n c * (t + 1) * speck) by (apply Rmult_le_pos; lra).
    assert (J1 : n c * (t + 1) * speck <= / 8).
    { apply Rle_trans with (bpow radix2 46 * (2 * bpow radix2 448) * speck); [apply Rmult_le_compat_r; lra|]. unfold speck. replace (bpow radix2 46 * (2 * bpow radix2 448) * bpow radix2 (-530)) with (bpow radix2 46 * bpow radix2 1 * bpow radix2 448 * bpow radix2 (-530)) by (change (bpow radix2 1) with 2; ring).
      rewrite <- !bpow_plus. apply Rle_trans with (bpow radix2 (-3)); [apply bpow_le; clear; lia | cbn; lra]. }
    assert (B9 : bpow radix2 896 <= bpow radix2 900) by (apply bpow_le; clear; lia).
    assert (Dl : ls c = [] \/ ls c <> []) by (destruct (ls c); [now left | right; discriminate]). destruct Dl as [El|Nl].
    - assert (Z : n c = 0) by (unfold n; rewrite El; reflexivity). assert (Zt : t = 0) by (unfold t; rewrite El; reflexivity).
      destruct (mul_R (at3 (data h) c) (at3 (weight h) c) Fv Fw) as [Fp Ep]; [rewrite (V0 El), Rmult_0_l; unfold rnd; rewrite round_0 by auto with typeclass_instances; rewrite Rabs_R0; apply bpow_gt_0|].
      fold p in Fp, Ep. split; [exact Fp|]. split; [lra|]. split; [lra|]. rewrite Ep, (V0 El), Rmult_0_l. unfold rnd. rewrite round_0 by auto with typeclass_instances.
      unfold X. rewrite Zt, Z, Rmult_0_r, Rminus_0_r, Rabs_R0. lra.
    - specialize (V1 Nl). assert (N1 : 1 <= n c) by (unfold n; apply (le_INR 1); destruct (ls c); [contradiction | cbn [List.length]; clear; lia]).
      set (v := at3 (data h) c) in *. set (w := at3 (weight h) c) in *. set (q := t * t / n c) in *.
      assert (Q0 : q * n c = X) by (unfold q, X; field; lra).
      set (a := 8 * (n c + 3) * eps) in *. assert (A0 : 0 <= a <= / 10) by (unfold a; rewrite eps_val; lra).
      assert (D : Rabs (B2R v * n c - X) <= a * X + n c * (t + 1) * speck).
      { replace (B2R v * n c - X) with ((B2R v - q) * n c) by (rewrite <- Q0; ring). rewrite Rabs_mult, (Rabs_pos_eq (n c)) by lra.
        apply Rle_trans with ((a * q + (t + 1) * speck) * n c); [apply Rmult_le_compat_r; lra|]. rewrite <- Q0. lra. }
      assert (AX : a * X <= / 10 * X) by (apply Rmult_le_compat_r; lra). assert (AX0 : 0 <= a * X) by (apply Rmult_le_pos; lra).
      destruct (mul_R v w Fv Fw) as [Fp Ep].
      { rewrite Ew. apply big_fits. replace (B2R v * n c) with ((B2R v * n c - X) + X) by ring. apply Rle_trans with (1 := Rabs_triang _ _). rewrite (Rabs_pos_eq X) by lra.
        assert (bpow radix2 448 <= bpow radix2 896) by (apply bpow_le; clear; lia).
        apply Rle_trans with (8 * bpow radix2 896); [lra|]. change 8 with (bpow radix2 3). rewrite <- bpow_plus. apply bpow_le. clear; lia. }
      fold p in Fp, Ep. split; [exact Fp|]. split; [lra|]. split; [lra|]. rewrite Ep, Ew. destruct (rnd_ex (B2R v * n c)) as [e [dd [He [Hd ->]]]]. assert (G := factor _ He).
      replace (B2R v * n c * (1 + e) + dd - X) with ((B2R v * n c - X) * (1 + e) + X * e + dd) by ring.
      assert (K1 : Rabs ((B2R v * n c - X) * (1 + e)) <= (a * X + n c * (t + 1) * speck) * (1 + eps)).
      { rewrite Rabs_mult, (Rabs_pos_eq (1 + e)) by lra. apply Rmult_le_compat; [apply Rabs_pos | lra | exact D | lra]. }
      assert (K2 : Rabs (X * e) <= X * eps) by (rewrite Rabs_mult, (Rabs_pos_eq X) by lra; apply Rmult_le_compat_l; lra).
      apply Rle_trans with ((a * X + n c * (t + 1) * speck) * (1 + eps) + X * eps + eta).
      { apply Rle_trans with (1 := Rabs_triang _ _). apply Rplus_le_compat; [|exact Hd]. apply Rle_trans with (1 := Rabs_triang _ _). lra. }
      assert (EX : 0 <= eps * X) by (apply Rmult_le_pos; lra).
      assert (Y1 : a * (eps * X) <= / 10 * (eps * X)) by (apply Rmult_le_compat_r; lra).
      assert (Y2 : n c * (t + 1) * speck * eps <= n c * (t + 1) * speck * / 1000) by (apply Rmult_le_compat_l; lra).
      assert (Y3 : eta <= / 10 * (n c * (t + 1) * speck)).
      { assert (1 * (0 + 1) <= n c * (t + 1)) by (apply Rmult_le_compat; lra). assert (1 * speck <= n c * (t + 1) * speck) by (apply Rmult_le_compat_r; lra).
        assert (eps * tiny <= / 4 * tiny) by (apply Rmult_le_compat_r; lra). lra. }
      assert (Y4 : n c * (eps * X) <= N' * (eps * X)) by (apply Rmult_le_compat_r; lra).
      replace ((8 * N' + 26) * eps * X) with (8 * (N' * (eps * X)) + 26 * (eps * X)) by ring.
      assert (Y5 : a * X = 8 * (n c * (eps * X)) + 24 * (eps * X)) by (unfold a; ring).
      replace ((a * X + n c * (t + 1) * speck) * (1 + eps)) with (a * X + a * (eps * X) + n c * (t + 1) * speck + n c * (t + 1) * speck * eps) by ring. lra.
  Qed.
  Lemma mean_err_all d d' h : aux_reads can M d L -> msd_field bld M d g s dt = Val (d', h) -> geo h = geo g -> 1 <= N' ->
    is_finite (weighted_mean h) = true /\ Rabs (B2R (weighted_mean h) - U / N') <= (N' + INR (List.length cells) + 4) / IZR (2 ^ 50) * (U / N') + (T + 1) * bpow radix2 (-527).
  Proof using Ne Ta Rc Sk Fr Hs Hn Hm.
    intros Aux E G N1. assert (P := eps_pos). assert (Le := eps_le). assert (Tp := tiny_pos). assert (H0 := eta_pos). assert (K3 := eta_tiny). assert (Sp := speck_tiny).
    assert (C46 : (List.length cells <= 2 ^ 46)%nat) by (apply nat46; exact Hm). assert (M46 := b46 _ C46). assert (M0 := pos_INR (List.length cells)).
    set (m := INR (List.length cells)) in *.
    assert (Few : (fold_right Nat.add 0 (map (fun c => List.length (ls c)) cells) <= 2 ^ 46)%nat).
    { apply Nat.le_trans with (1 := cells_few bld g _ cells (ids3_NoDup _)). apply Nat.le_trans with (1 := before_last_few _ _ _ _ _). apply nat46. exact Hn. }
    assert (EN : N' = INR (fold_right Nat.add 0%nat (map (fun c => List.length (ls c)) cells))) by (unfold N', n; apply INR_sum).
    assert (NB : N' <= 70368744177664) by (rewrite EN; apply b46; exact Few).
    (* the weights *)
    destruct (of_Z_correct 0 ltac:(clear; lia)) as [Z0 Fz0].
    assert (Wt : whole (fold_left (fun acc c => Bplus mode_NE acc (at3 (weight h) c)) cells (f64_of_Z 0)) (Z.of_nat (0 + fold_right Nat.add 0%nat (map (fun c => List.length (ls c)) cells)))).
    { apply (fold_whole (fun c => at3 (weight h) c) (fun c => List.length (ls c)) cells).
      - intros c Hc. apply in_ids3 in Hc. exact (proj1 (field_cell can bld M L g s dt Ne Ta Rc Sk Fr Hs Hn d d' h c Aux E Hc)).
      - split; [exact Fz0|]. split; [exact Z0 | apply Zle_0_nat].
      - assert (Z := z52 _ Few). rewrite Nat.add_0_l. clear - Z. lia. }
    rewrite Nat.add_0_l in Wt. destruct Wt as [FW [EW _]]. rewrite <- INR_IZR_INZ, <- EN in EW. set (W := fold_left _ cells _) in FW, EW.
    (* the numerator *)
    destruct (sum_near (fun c => Bmult mode_NE (at3 (data h) c) (at3 (weight h) c)) (fun c => far (ls c) * far (ls c)) (fun c => 2 * n c * (far (ls c) + 1) * speck) cells (8 * N' + 26)) as [Fs Es].
    { intros c Hc. exact (mean_err_cell d d' h c Aux E Hc). }
    { lra. } { rewrite eps_val. lra. } { exact C46. }
    fold m U in Es. set (S := fold_left (Bplus mode_NE) _ _) in Fs, Es. set (J := Rsum (map (fun c => 2 * n c * (far (ls c) + 1) * speck) cells)) in *.
    assert (Far0 : forall c, 0 <= far (ls c) <= bpow radix2 448) by (intros c; apply (cell_moves bld M L g s dt Rc Hs Hn c)).
    assert (T0 : 0 <= T) by (apply Rsum_nonneg; intros; apply Far0).
    assert (TB : T <= bpow radix2 494) by (apply (pow_sum _ cells 448 C46); intros; apply Far0).
    assert (J0 : 0 <= J). { apply Rsum_nonneg. intros c Hc. apply (mean_err_cell d d' h c Aux E Hc). }
    assert (JB : J <= 2 * (N' * ((T + 1) * speck))).
    { unfold J. apply Rle_trans with (Rsum (map (fun c => 2 * (T + 1) * speck * n c) cells)).
      - apply Rsum_le. intros c Hc. assert (far (ls c) <= T) by (apply (sum_one (fun c => far (ls c)) cells c Hc); intros; apply Far0).
        assert (N0 : 0 <= n c * speck) by (apply Rmult_le_pos; [apply pos_INR | lra]). assert (n c * speck * (far (ls c) + 1) <= n c * speck * (T + 1)) by (apply Rmult_le_compat_l; lra). lra.
      - rewrite Rsum_map_scal. fold N'. lra. }
    assert (U0 : 0 <= U) by (apply Rsum_nonneg; intros c _; apply Rmult_le_pos; apply Far0).
    assert (UB : U <= bpow radix2 942).
    { apply (pow_sum _ cells 896 C46). intros c _. replace 896%Z with (448 + 448)%Z by (clear; lia). rewrite bpow_plus. apply Rmult_le_compat; apply Far0. }
    assert (Ke : (3 * m + (8 * N' + 26)) * eps <= / 8) by (rewrite eps_val; lra).
    assert (K0 : 0 <= (3 * m + (8 * N' + 26)) * eps) by (apply Rmult_le_pos; lra).
    assert (KU : (3 * m + (8 * N' + 26)) * eps * U <= / 8 * U) by (apply Rmult_le_compat_r; lra).
    assert (KU0 : 0 <= (3 * m + (8 * N' + 26)) * eps * U) by (apply Rmult_le_pos; lra).
    assert (Jb : J <= bpow radix2 942).
    { apply Rle_trans with (1 := JB). assert (S1 : speck <= 1) by (unfold speck; apply (bpow_le radix2 _ 0); clear; lia).
      apply Rle_trans with (2 * (bpow radix2 46 * (2 * bpow radix2 494 * 1))).
      - apply Rmult_le_compat_l; [lra|]. change (bpow radix2 46) with 70368744177664. apply Rmult_le_compat; [lra | apply Rmult_le_pos; lra | exact NB|].
        apply Rmult_le_compat; [lra | lra | | exact S1]. assert (1 <= bpow radix2 494) by (apply (bpow_le radix2 0); clear; lia). lra.
      - replace (2 * (bpow radix2 46 * (2 * bpow radix2 494 * 1))) with (bpow radix2 1 * bpow radix2 46 * bpow radix2 1 * bpow radix2 494) by (change (bpow radix2 1) with 2; ring). rewrite <- !bpow_plus. apply bpow_le. clear; lia. }
    assert (B990 : 4 * bpow radix2 942 <= bpow radix2 990) by (change 4 with (bpow radix2 2); rewrite <- bpow_plus; apply bpow_le; clear; lia).
    assert (B0 := bpow_ge_0 radix2 942).
    destruct (over_count (B2R S) U _ S W Fs eq_refl ltac:(rewrite EW; exact N1) Es) as [Fq Eq]; [lra | lra|]. rewrite EW in Eq.
    assert (Ev : weighted_mean h = Bdiv mode_NE S W).
    { unfold weighted_mean, S, W. rewrite G. fold cells. symmetry. exact (f_equal (fun z => Bdiv mode_NE z _) (fold_left_map (Bplus mode_NE) (fun c => Bmult mode_NE (at3 (data h) c) (at3 (weight h) c)) cells (f64_of_Z 0))). }
    rewrite Ev. split; [exact Fq|]. apply Rle_trans with (1 := Eq). set (k := (3 * m + (8 * N' + 26)) * eps) in *. set (q := U / N').
    assert (q0 : 0 <= q) by (apply Rmult_le_pos; [exact U0 | left; apply Rinv_0_lt_compat; lra]).
    assert (Y1 : (k * U + 2 * J) / N' <= k * q + 4 * ((T + 1) * speck)).
    { apply Rmult_le_reg_r with N'; [lra|]. replace ((k * U + 2 * J) / N' * N') with (k * U + 2 * J) by (field; lra).
      replace ((k * q + 4 * ((T + 1) * speck)) * N') with (k * U + 4 * (N' * ((T + 1) * speck))) by (unfold q; field; lra). lra. }
    assert (Ts : speck <= (T + 1) * speck) by (rewrite <- (Rmult_1_l speck) at 1; apply Rmult_le_compat_r; lra).
    assert (Y2 : (1 + eps) * ((k * U + 2 * J) / N') <= (1 + eps) * (k * q + 4 * ((T + 1) * speck))) by (apply Rmult_le_compat_l; lra).
    assert (kq : 0 <= k * q) by (apply Rmult_le_pos; lra). assert (eq0 : 0 <= eps * q) by (apply Rmult_le_pos; lra).
    assert (Y3 : k * (eps * q) <= / 8 * (eps * q)) by (apply Rmult_le_compat_r; lra).
    assert (Y4 : eps * ((T + 1) * speck) <= / 1000 * ((T + 1) * speck)) by (apply Rmult_le_compat_r; lra).
    assert (Y5 : eta <= / 10 * speck) by (assert (eps * tiny <= / 4 * tiny) by (apply Rmult_le_compat_r; lra); lra).
    replace ((1 + eps) * (k * q + 4 * ((T + 1) * speck))) with (k * q + k * (eps * q) + 4 * ((T + 1) * speck) + 4 * (eps * ((T + 1) * speck))) in Y2 by ring.
    assert (S8 : bpow radix2 (-527) = 8 * speck) by (unfold speck; change 8 with (bpow radix2 3); rewrite <- bpow_plus; reflexivity).
    rewrite S8, <- eps50. replace (8 * (N' + m + 4) * eps * q) with (8 * (N' * (eps * q)) + 8 * (m * (eps * q)) + 32 * (eps * q)) by ring.
    assert (Y6 : k * q = 3 * (m * (eps * q)) + 8 * (N' * (eps * q)) + 26 * (eps * q)) by (unfold k; ring).
    assert (0 <= m * (eps * q)) by (apply Rmult_le_pos; lra). lra.
  Qed.
End Mean.

(** The delays of [linspace]. *)
Lemma delay_close (a b : f64) (n i : N) : moderate a -> moderate b -> (2 <= n <= 2 ^ 46)%N -> (i < n)%N ->
  let t := nadd a (nmul (if (1 <? n)%N then ndiv (nsub b a) (nofN (n - 1)) else n0) (nofN i)) in
  is_finite t = true /\ Rabs (B2R t - (B2R a + NR i * ((B2R b - B2R a) / (NR n - 1)))) <= (Rabs (B2R a) + Rabs (B2R b)) / IZR (2 ^ 48) + bpow radix2 (-1000).
Proof.
  intros [Fa Ha] [Fb Hb] Hn Hi t. assert (Lt : (1 <? n)%N = true) by (apply N.ltb_lt; lia). unfold t. rewrite Lt. clear Lt t.
  destruct (of_Z_correct (Z.of_N (n - 1)) ltac:(lia)) as [En Fn]. destruct (of_Z_correct (Z.of_N i) ltac:(lia)) as [Ei Fi].
  change (@nofN f64 num_f64 (n - 1)) with (f64_of_Z (Z.of_N (n - 1))). change (@nofN f64 num_f64 i) with (f64_of_Z (Z.of_N i)).
  set (m := f64_of_Z (Z.of_N (n - 1))) in *. set (k := f64_of_Z (Z.of_N i)) in *.
  assert (Em : B2R m = NR n - 1) by (rewrite En; unfold NR; rewrite N2Z.inj_sub by lia; rewrite minus_IZR; reflexivity).
  assert (M1 : 1 <= NR n - 1 <= 70368744177664) by (rewrite <- Em, En; split; apply IZR_le; lia).
  change (IZR (Z.of_N i)) with (NR i) in Ei. assert (I0 : 0 <= NR i <= NR n - 1) by (rewrite <- Em, En; unfold NR; split; apply IZR_le; lia).
  change (nadd a (nmul (ndiv (nsub b a) m) k)) with (Bplus mode_NE a (Bmult mode_NE (Bdiv mode_NE (Bminus mode_NE b a) m) k)).
  set (A := Rabs (B2R a)) in *. set (B := Rabs (B2R b)) in *. assert (A0 : 0 <= A) by apply Rabs_pos. assert (B0 : 0 <= B) by apply Rabs_pos.
  assert (Big : 8 * bpow radix2 400 <= bpow radix2 1000) by (change 8 with (bpow radix2 3); rewrite <- bpow_plus; apply bpow_le; lia).
  assert (P400 := bpow_ge_0 radix2 400). assert (P := eps_pos). assert (Q := eta_pos).
  assert (Fit : forall k j X, 0 <= k <= 1000000000 -> 0 <= j <= 10000000000000000 -> X <= 8 * bpow radix2 400 -> fits k j X).
  { intros k0 j0 X Hk0 Hj0 HX. split; [kfits|]. split; [split; [lra | apply j200; lra]|]. lra. }
  assert (Ca := close_exact a Fa). assert (Cb := close_exact b Fb). fold A in Ca. fold B in Cb.
  assert (C1 := close_minus 0 0 0 _ _ _ _ _ _ Cb Ca (Fit 0 0 B ltac:(lra) ltac:(lra) ltac:(lra)) (Fit 0 0 A ltac:(lra) ltac:(lra) ltac:(lra)) ltac:(lra)).
  assert (C2 := close_div _ _ _ _ _ m C1 (Fit (0 + 2) (2 * (0 + 0)) (B + A) ltac:(lra) ltac:(lra) ltac:(lra)) ltac:(rewrite Em; lra)). rewrite Em in C2.
  assert (Im : 0 < / (NR n - 1) <= 1) by (split; [apply Rinv_0_lt_compat; lra | rewrite <- Rinv_1; apply Rinv_le_contravar; lra]).
  assert (Sm : 0 <= (B + A) / (NR n - 1) <= B + A). { split; [apply Rmult_le_pos; lra|]. unfold Rdiv. rewrite <- (Rmult_1_r (B + A)) at 2. apply Rmult_le_compat_l; lra. }
  set (D := Bdiv mode_NE (Bminus mode_NE b a) m) in *. set (st := (B2R b - B2R a) / (NR n - 1)) in *.
  assert (C3 : close 8 (8 * NR i + 2) (Bmult mode_NE D k) (NR i * st) (B + A)).
  { destruct (N.eq_dec i 0) as [Zi|Pi].
    - assert (Z : NR i = 0) by (rewrite Zi; reflexivity). rewrite Z in *. destruct (mul_R D k (proj1 C2) Fi) as [Fp Ep].
      { rewrite Ei, Rmult_0_r. unfold rnd. rewrite round_0 by auto with typeclass_instances. rewrite Rabs_R0. apply bpow_gt_0. }
      split; [exact Fp|]. rewrite Ep, Ei, Rmult_0_r. unfold rnd. rewrite round_0 by auto with typeclass_instances. rewrite Rmult_0_l, Rminus_0_r, Rabs_R0. split; [|lra].
      assert (0 <= eps * (B + A)) by (apply Rmult_le_pos; lra). lra.
    - assert (I1 : 1 <= NR i) by (unfold NR; apply (IZR_le 1); lia).
      assert (Nb : NR i * ((B + A) / (NR n - 1)) <= B + A).
      { replace (NR i * ((B + A) / (NR n - 1))) with ((B + A) * (NR i * / (NR n - 1))) by (unfold Rdiv; ring). rewrite <- (Rmult_1_r (B + A)) at 2. apply Rmult_le_compat_l; [lra|].
        apply Rmult_le_reg_r with (NR n - 1); [lra|]. rewrite Rmult_assoc, Rinv_l by lra. lra. }
      assert (C := close_times _ _ _ _ _ k C2 (Fit (0 + 2 + 2) (2 * (2 * (0 + 0)) + 2) ((B + A) / (NR n - 1)) ltac:(lra) ltac:(lra) ltac:(lra)) Fi ltac:(rewrite Ei; exact I1) ltac:(rewrite Ei; lra) ltac:(rewrite Ei; apply j200; lra)).
      rewrite Ei in C. rewrite (Rmult_comm st) in C. apply close_weaken with (1 := C); lra. }
  assert (Ca' := close_weaken 0 0 _ _ _ 8 0 A Ca ltac:(lra) ltac:(lra) ltac:(lra) ltac:(lra)).
  assert (C4 := close_plus _ _ _ _ _ _ _ _ _ Ca' C3 (Fit 8 0 A ltac:(lra) ltac:(lra) ltac:(lra)) (Fit 8 (8 * NR i + 2) (B + A) ltac:(lra) ltac:(lra) ltac:(lra)) ltac:(lra)).
  destruct C4 as [F4 [E4 _]]. split; [exact F4|]. apply Rle_trans with (1 := E4). apply Rplus_le_compat.
  - rewrite eps_val. change (IZR (2 ^ 48)) with 281474976710656. lra.
  - apply Rle_trans with (bpow radix2 60 * eta); [apply Rmult_le_compat_r; [lra|]; change (bpow radix2 60) with 1152921504606846976; lra|]. unfold eta. rewrite <- bpow_plus. apply bpow_le. lia.
Qed.

(** The series: [steps] delays evenly spaced between the limits; for each at which some move starts in the grid, the summed squares of the cells' total lengths over
    the number of moves, up to rounding. *)
Theorem c145_msd {TF : Trig f64} can (bld : build) (M : mgr f64) d (L : list (timestep f64)) (g : grid f64) s (tmin tmax : f64) steps d' ms time :
  aux_reads can M d L -> L <> [] -> vlen (st_time (m_stats M)) = vlen L -> Forall rect L -> sel_ok s -> fresh g ->
  (forall x p, In x L -> In p (ts_pos x) -> moderate3 p) -> (vlen (all_samples L) <= 2 ^ 46)%N -> (vlen (ids3 (geom_cells (geo g))) <= 2 ^ 46)%N ->
  moderate tmin -> moderate tmax -> (2 <= steps <= 2 ^ 46)%N ->
  msd bld M d g s tmin tmax steps = Val (d', (ms, time)) ->
  forall i, (i < steps)%N -> exists t v : f64, at_ time i t /\ at_ ms i v /\
    is_finite t = true /\ Rabs (B2R t - (B2R tmin + NR i * ((B2R tmax - B2R tmin) / (NR steps - 1)))) <= (Rabs (B2R tmin) + Rabs (B2R tmax)) / IZR (2 ^ 48) + bpow radix2 (-1000) /\
    let cells := ids3 (geom_cells (geo g)) in
    let l c := moves_of_cell bld M g s L t c in
    let n := Rsum (map (fun c => INR (List.length (l c))) cells) in
    let U := Rsum (map (fun c => far (l c) * far (l c)) cells) in
    1 <= n -> is_finite v = true /\
    Rabs (B2R v - U / n) <= (n + INR (List.length cells) + 4) / IZR (2 ^ 50) * (U / n) + (Rsum (map (fun c => far (l c)) cells) + 1) * bpow radix2 (-527).
Proof.
  intros Aux Ne Ta Rc Sk Fr Hs Hn Hm Mn Mx Hst E i Hi. unfold msd in E. apply bind_val in E. destruct E as [[d1 vs] [E1 E]].
  cbn [fst snd] in E. apply Val_pair in E. destruct E as [_ E]. apply pair_equal_spec in E. destruct E as [<- <-].
  set (good := fun (t v : f64) => exists d0 d2 h, aux_reads can M d0 L /\ msd_field bld M d0 g s t = Val (d2, h) /\ geo h = geo g /\ v = weighted_mean h).
  assert (Fo : forall ts d0 acc r, aux_reads can M d0 L ->
    mfold (fun st t => let! r := msd_field bld M (fst st) g s t in Val (fst r, (snd st ++ [weighted_mean (snd r)])%list)) ts (d0, acc) = Val r ->
    exists ws, snd r = (acc ++ ws)%list /\ Forall2 good ts ws).
  { induction ts as [|t ts IH]; intros d0 acc r A0 Q; cbn [mfold] in *; [injection Q as <-; exists []; split; [now rewrite app_nil_r | constructor]|].
    apply bind_val in Q. destruct Q as [st [Q1 Q]]. cbn [fst snd] in Q1. apply bind_val in Q1. destruct Q1 as [[d2 h] [Q1 Q2]]. cbn [fst snd] in Q2.
    destruct (msd_run can bld M d0 L g s t d2 h A0 Ne Ta Rc Sk (proj1 Fr) Q1) as [A2 [_ [G2 _]]].
    assert (St : st = (d2, (acc ++ [weighted_mean h])%list)) by congruence. subst st.
    destruct (IH _ _ _ A2 Q) as [ws [R2 F2]]. exists (weighted_mean h :: ws). split; [rewrite R2, <- app_assoc; reflexivity|]. constructor; [|exact F2].
    exists d0, d2, h. auto. }
  destruct (Fo _ _ _ _ Aux E1) as [ws [Ew F2]]. cbn [snd app] in Ew. subst ws. clear Fo.
  set (f := fun i => nadd tmin (nmul (if (1 <? steps)%N then ndiv (nsub tmax tmin) (nofN (steps - 1)) else n0) (nofN i))).
  assert (At : at_ (linspace tmin tmax steps) i (f i)).
  { unfold linspace, at_, range. rewrite nth_error_map, nth_error_map.
    rewrite (nth_error_nth' (seq 0 (N.to_nat (steps - 0))) 0%nat) by (rewrite seq_length; clear - Hi; lia). rewrite seq_nth by (clear - Hi; lia). cbn [option_map].
    replace (0 + N.of_nat (0 + N.to_nat i))%N with i by (clear; lia). reflexivity. }
  destruct (Forall2_at_l _ _ _ F2 _ _ At) as [v [Hv [d0 [d2 [h [A0 [Eh [G Ev]]]]]]]]. exists (f i), v. split; [exact At|]. split; [exact Hv|].
  destruct (delay_close tmin tmax steps i Mn Mx Hst Hi) as [Ft Et]. fold (f i) in Ft, Et. split; [exact Ft|]. split; [exact Et|]. intros cells l n U N1.
  rewrite Ev. exact (mean_err_all can bld M L g s (f i) Ne Ta Rc Sk Fr Hs Hn Hm d0 d2 h A0 Eh G N1).
Qed.
(** The data of C45: two moves start in the cell. *)
Example c145_case {TF : Trig f64} :
  aux_reads (fun _ _ => True) (list_mgr msd_data msd_stats) tt msd_data /\ vlen (st_time msd_stats) = vlen msd_data /\ Forall rect msd_data /\
  (forall x p, In x msd_data -> In p (ts_pos x) -> moderate3 p) /\ (vlen (all_samples msd_data) <= 2 ^ 46)%N /\
  after (cart_new (1, 1, 1)%N (ThreeD ((d 0, d 2), (d 0, d 2), (d 0, d 2)))) (fun g => fresh g /\ (vlen (ids3 (geom_cells (geo g))) <= 2 ^ 46)%N /\
  List.length (moves_of_cell Debug (list_mgr msd_data msd_stats) g sel_default msd_data (d 1) (0, 0, 0)%N) = 2%nat).
Proof.
  destruct c45_case as [A [B [_ [C _]]]]. split; [exact A|]. split; [exact B|]. split; [exact C|].
  assert (O : forall a, (Z.abs a <= 2 ^ 52)%Z -> moderate (d a)).
  { intros a Ha. destruct (of_Z_correct a ltac:(lia)) as [X Y]. split; [exact Y|]. change (d a) with (f64_of_Z a). rewrite X, <- abs_IZR.
    apply Rle_trans with (IZR (2 ^ 52)); [now apply IZR_le|]. change (IZR (2 ^ 52)) with (bpow radix2 52). apply bpow_le. lia. }
  split.
  { intros x p Hx Hp. repeat (destruct Hx as [<- | Hx]; [cbn [ts_pos] in Hp; repeat (destruct Hp as [<- | Hp]; [repeat split; apply O; lia|]); destruct Hp|]). destruct Hx. }
  split; [vm_compute; discriminate|].
  destruct (cart_new (1, 1, 1)%N (ThreeD ((d 0, d 2), (d 0, d 2), (d 0, d 2)))) as [g|] eqn:E; [|discriminate]. cbn [after].
  split; [exact (new_fresh _ _ true g (or_introl E))|]. injection E as <-. split; vm_compute; [discriminate | reflexivity].
Qed.
