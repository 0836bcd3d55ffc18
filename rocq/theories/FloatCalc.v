(** * FloatCalc: a calculus of rounding errors
    [close k j x X A]: the double [x] stands for the real [X], whose size is at most [A], up to [k] units of rounding of [A] and [j] times the smallest error. *)
From Coq Require Import Reals List NArith ZArith Lia Lra Psatz Bool.
From Flocq Require Import Core.Core IEEE754.BinarySingleNaN.
From Verif Require Import Base BaseFacts Num RFacts F64Facts FloatErr FloatSum CylFloat.
Import ListNotations.
Local Open Scope R_scope.

Definition close (k j : R) (x : f64) (X A : R) : Prop :=
  is_finite x = true /\ Rabs (B2R x - X) <= k * eps * A + j * eta /\ Rabs X <= A.
(** Where the calculus applies. *)
Definition fits (k j A : R) : Prop := 0 <= k <= IZR (2 ^ 50) /\ 0 <= j <= bpow radix2 200 /\ A <= bpow radix2 1000.

Lemma k_small k : 0 <= k <= IZR (2 ^ 50) -> 0 <= k * eps <= / 8.
Proof.
  intros [H0 H]. assert (P := eps_pos). split; [apply Rmult_le_pos; lra|]. apply Rle_trans with (IZR (2 ^ 50) * eps); [apply Rmult_le_compat_r; lra|].
  rewrite eps_val. change (IZR (2 ^ 50)) with 1125899906842624. lra.
Qed.
Lemma j_eta j : 0 <= j <= bpow radix2 200 -> 0 <= j * eta <= 1.
Proof.
  intros [H0 H]. assert (P := eta_pos). split; [apply Rmult_le_pos; lra|]. apply Rle_trans with (bpow radix2 200 * eta); [apply Rmult_le_compat_r; lra|].
  unfold eta. rewrite <- bpow_plus. apply Rle_trans with (bpow radix2 0); [apply bpow_le; lia | cbn; lra].
Qed.
Lemma A_pos k j x X A : close k j x X A -> 0 <= A.
Proof. intros [_ [_ H]]. assert (Q := Rabs_pos X). lra. Qed.
Lemma close_size k j x X A : close k j x X A -> fits k j A -> Rabs (B2R x) <= 9 / 8 * A + j * eta.
Proof.
  intros C [Hk [Hj HA]]. assert (A0 := A_pos _ _ _ _ _ C). destruct C as [_ [E B]]. assert (K := k_small k Hk).
  replace (B2R x) with ((B2R x - X) + X) by ring. apply Rle_trans with (1 := Rabs_triang _ _).
  assert (k * eps * A <= / 8 * A) by (apply Rmult_le_compat_r; lra). lra.
Qed.
Lemma close_weaken k j x X A k' j' A' : close k j x X A -> k <= k' -> j <= j' -> A <= A' -> 0 <= k -> close k' j' x X A'.
Proof.
  intros C Hk Hj HA K0. assert (A0 := A_pos _ _ _ _ _ C). destruct C as [F [E B]]. assert (P := eps_pos). assert (Q := eta_pos). split; [exact F|]. split; [|lra].
  apply Rle_trans with (1 := E). apply Rplus_le_compat; [|apply Rmult_le_compat_r; lra].
  apply Rmult_le_compat; [apply Rmult_le_pos; lra | exact A0 | apply Rmult_le_compat_r; lra | exact HA].
Qed.
Lemma close_exact (x : f64) : is_finite x = true -> close 0 0 x (B2R x) (Rabs (B2R x)).
Proof. intros F. split; [exact F|]. split; [|lra]. replace (B2R x - B2R x) with 0 by ring. rewrite Rabs_R0. lra. Qed.
Lemma big_fits x : Rabs x <= bpow radix2 1003 -> Rabs (rnd x) < M64.
Proof.
  intros H. apply Rle_lt_trans with (bpow radix2 1023); [apply rnd_big; apply Rle_trans with (1 := H); apply bpow_le; lia | apply bpow_lt; lia].
Qed.
Lemma p1000 : 100 <= bpow radix2 1000 /\ bpow radix2 1003 = 8 * bpow radix2 1000.
Proof.
  split; [apply Rle_trans with (bpow radix2 7); [cbn; lra | apply bpow_le; lia]|]. replace 1003%Z with (3 + 1000)%Z by lia. rewrite bpow_plus. reflexivity.
Qed.
(** The common part: the rounding of a value [v] close to [X]. *)
Lemma round_close v X A e1 j1 : Rabs (v - X) <= e1 * A + j1 * eta -> Rabs X <= A -> 0 <= e1 <= / 4 -> 0 <= j1 -> 0 <= A ->
  Rabs (rnd v - X) <= (e1 + 5 / 4 * eps) * A + (2 * j1 + 2) * eta /\ (forall e, Rabs e <= eps -> Rabs (v * (1 + e) - X) <= (e1 + 5 / 4 * eps) * A + (2 * j1) * eta).
Proof.
  intros E B He Hj A0. assert (P := eps_pos). assert (Q := eta_pos).
  assert (V : Rabs v <= 5 / 4 * A + j1 * eta).
  { replace v with ((v - X) + X) by ring. apply Rle_trans with (1 := Rabs_triang _ _). assert (e1 * A <= / 4 * A) by (apply Rmult_le_compat_r; lra). lra. }
  assert (V2 : eps * Rabs v <= 5 / 4 * eps * A + j1 * eta).
  { apply Rle_trans with (eps * (5 / 4 * A + j1 * eta)); [apply Rmult_le_compat_l; lra|].
    assert (Le := eps_le). assert (J : 0 <= j1 * eta) by (apply Rmult_le_pos; lra).
    assert (eps * (j1 * eta) <= 1 * (j1 * eta)) by (apply Rmult_le_compat_r; lra). lra. }
  assert (G : forall e, Rabs e <= eps -> Rabs (v * (1 + e) - X) <= (e1 + 5 / 4 * eps) * A + (2 * j1) * eta).
  { intros e Hh. replace (v * (1 + e) - X) with ((v - X) + e * v) by ring. apply Rle_trans with (1 := Rabs_triang _ _). rewrite Rabs_mult.
    assert (Rabs e * Rabs v <= eps * Rabs v) by (apply Rmult_le_compat_r; [apply Rabs_pos | lra]). lra. }
  split; [|exact G]. destruct (rnd_ex v) as [e [dd [Hh [Hd Eq]]]]. rewrite Eq. specialize (G e Hh).
  replace (v * (1 + e) + dd - X) with ((v * (1 + e) - X) + dd) by ring. apply Rle_trans with (1 := Rabs_triang _ _). lra.
Qed.
Lemma close_plus k j i x X A y Y B : close k j x X A -> close k i y Y B -> fits k j A -> fits k i B -> A + B <= bpow radix2 1000 ->
  close (k + 2) (2 * (j + i)) (Bplus mode_NE x y) (X + Y) (A + B).
Proof.
  intros C D Fc Fd HS. assert (SX := close_size _ _ _ _ _ C Fc). assert (SY := close_size _ _ _ _ _ D Fd). assert (A0 := A_pos _ _ _ _ _ C). assert (B0 := A_pos _ _ _ _ _ D).
  destruct Fc as [Hk [Hj HA]]. destruct Fd as [_ [Hi HB]]. destruct C as [Fx [Ex Bx]]. destruct D as [Fy [Ey By]]. assert (K := k_small k Hk). assert (P := eps_pos). assert (Q := eta_pos).
  destruct p1000 as [P1 P2]. assert (Z1 := j_eta j Hj). assert (Z2 := j_eta i Hi).
  destruct (add_R x y Fx Fy) as [Fs Es].
  { apply big_fits. apply Rle_trans with (1 := Rabs_triang _ _). rewrite P2. lra. }
  split; [exact Fs|]. split; [|apply Rle_trans with (1 := Rabs_triang _ _); lra]. rewrite Es.
  destruct (rnd_sum (B2R x) (B2R y) (fmt_B2R x) (fmt_B2R y)) as [e [He Ee]]. rewrite Ee.
  destruct (round_close (B2R x + B2R y) (X + Y) (A + B) (k * eps) (j + i)) as [_ G].
  - replace (B2R x + B2R y - (X + Y)) with ((B2R x - X) + (B2R y - Y)) by ring. apply Rle_trans with (1 := Rabs_triang _ _). lra.
  - apply Rle_trans with (1 := Rabs_triang _ _). lra.
  - lra.
  - lra.
  - lra.
  - apply Rle_trans with (1 := G e He). assert (eps * (A + B) >= 0) by (apply Rle_ge, Rmult_le_pos; lra). lra.
Qed.
Lemma close_opp k j x X A : close k j x X A -> close k j (Bopp x) (- X) A.
Proof.
  intros [F [E B]]. split; [now rewrite is_finite_Bopp|]. rewrite B2R_Bopp. split; [|now rewrite Rabs_Ropp].
  replace (- B2R x - - X) with (- (B2R x - X)) by ring. now rewrite Rabs_Ropp.
Qed.
Lemma close_minus k j i x X A y Y B : close k j x X A -> close k i y Y B -> fits k j A -> fits k i B -> A + B <= bpow radix2 1000 ->
  close (k + 2) (2 * (j + i)) (Bminus mode_NE x y) (X - Y) (A + B).
Proof.
  intros C D Fc Fd HS. assert (SX := close_size _ _ _ _ _ C Fc). assert (SY := close_size _ _ _ _ _ D Fd). assert (A0 := A_pos _ _ _ _ _ C). assert (B0 := A_pos _ _ _ _ _ D).
  destruct Fc as [Hk [Hj HA]]. destruct Fd as [_ [Hi HB]]. destruct C as [Fx [Ex Bx]]. destruct D as [Fy [Ey By]]. assert (K := k_small k Hk). assert (P := eps_pos). assert (Q := eta_pos).
  destruct p1000 as [P1 P2]. assert (Z1 := j_eta j Hj). assert (Z2 := j_eta i Hi).
  assert (T : forall a b, Rabs (a - b) <= Rabs a + Rabs b) by (intros a b; unfold Rminus; rewrite <- (Rabs_Ropp b); apply Rabs_triang).
  assert (M := Bminus_correct 53 1024 _ _ mode_NE x y Fx Fy).
  change (round radix2 (SpecFloat.fexp 53 1024) (round_mode mode_NE) (B2R x - B2R y)) with (rnd (B2R x - B2R y)) in M.
  rewrite Rlt_bool_true in M by (apply big_fits; apply Rle_trans with (1 := T _ _); rewrite P2; lra).
  destruct M as [Es [Fs _]]. split; [exact Fs|]. split; [|apply Rle_trans with (1 := T _ _); lra]. rewrite Es.
  destruct (rnd_diff x y) as [e [He Ee]]. rewrite Ee.
  destruct (round_close (B2R x - B2R y) (X - Y) (A + B) (k * eps) (j + i)) as [_ G].
  - replace (B2R x - B2R y - (X - Y)) with ((B2R x - X) - (B2R y - Y)) by ring. apply Rle_trans with (1 := T _ _). lra.
  - apply Rle_trans with (1 := T _ _). lra.
  - lra.
  - lra.
  - lra.
  - apply Rle_trans with (1 := G e He). assert (eps * (A + B) >= 0) by (apply Rle_ge, Rmult_le_pos; lra). lra.
Qed.
(** Products of values without absolute error. *)
Lemma close_mult k l x X A y Y B : close k 0 x X A -> close l 0 y Y B -> 0 <= k <= IZR (2 ^ 49) -> 0 <= l <= IZR (2 ^ 49) -> A * B <= bpow radix2 1000 ->
  close (5 / 4 * (k + l) + 2) 2 (Bmult mode_NE x y) (X * Y) (A * B).
Proof.
  intros C D Hk Hl HS. assert (A0 := A_pos _ _ _ _ _ C). assert (B0 := A_pos _ _ _ _ _ D).
  destruct C as [Fx [Ex Bx]]. destruct D as [Fy [Ey By]]. change (IZR (2 ^ 49)) with 562949953421312 in *.
  assert (K : 0 <= k * eps <= / 16) by (rewrite eps_val; lra). assert (Q1 : 0 <= l * eps <= / 16) by (rewrite eps_val; lra). assert (P := eps_pos). assert (Q := eta_pos).
  rewrite Rmult_0_l, Rplus_0_r in Ex, Ey. assert (AB : 0 <= A * B) by now apply Rmult_le_pos.
  assert (E : Rabs (B2R x * B2R y - X * Y) <= 17 / 16 * (k * eps + l * eps) * (A * B) + 0 * eta).
  { replace (B2R x * B2R y - X * Y) with ((B2R x - X) * Y + X * (B2R y - Y) + (B2R x - X) * (B2R y - Y)) by ring.
    apply Rle_trans with (1 := Rabs_triang _ _). apply Rle_trans with (Rabs ((B2R x - X) * Y) + Rabs (X * (B2R y - Y)) + Rabs ((B2R x - X) * (B2R y - Y))); [apply Rplus_le_compat_r, Rabs_triang|]. rewrite !Rabs_mult.
    assert (H1 : Rabs (B2R x - X) * Rabs Y <= k * eps * A * B) by (apply Rmult_le_compat; try apply Rabs_pos; lra).
    assert (H2 : Rabs X * Rabs (B2R y - Y) <= A * (l * eps * B)) by (apply Rmult_le_compat; try apply Rabs_pos; lra).
    assert (H3 : Rabs (B2R x - X) * Rabs (B2R y - Y) <= k * eps * A * (l * eps * B)) by (apply Rmult_le_compat; try apply Rabs_pos; lra).
    assert (H4 : k * eps * A * (l * eps * B) <= / 16 * (k * eps * (A * B))).
    { replace (k * eps * A * (l * eps * B)) with (l * eps * (k * eps * (A * B))) by ring. apply Rmult_le_compat_r; [apply Rmult_le_pos; lra | lra]. }
    assert (0 <= l * eps * (A * B)) by (apply Rmult_le_pos; lra). assert (0 <= k * eps * (A * B)) by (apply Rmult_le_pos; lra). lra. }
  assert (Bd : Rabs (X * Y) <= A * B) by (rewrite Rabs_mult; apply Rmult_le_compat; auto using Rabs_pos).
  destruct (round_close (B2R x * B2R y) (X * Y) (A * B) (17 / 16 * (k * eps + l * eps)) 0 E Bd) as [G _]; [lra | lra | exact AB|].
  destruct (mul_R x y Fx Fy) as [Fs Es].
  { apply big_fits. replace (B2R x * B2R y) with ((B2R x * B2R y - X * Y) + X * Y) by ring. apply Rle_trans with (1 := Rabs_triang _ _). destruct p1000 as [P1 P2]. rewrite P2.
    assert (17 / 16 * (k * eps + l * eps) * (A * B) <= 1 * (A * B)) by (apply Rmult_le_compat_r; lra). lra. }
  split; [exact Fs|]. split; [|exact Bd]. rewrite Es. apply Rle_trans with (1 := G).
  assert (0 <= eps * (A * B)) by (apply Rmult_le_pos; lra). assert (0 <= k * (eps * (A * B))) by (apply Rmult_le_pos; lra). assert (0 <= l * (eps * (A * B))) by (apply Rmult_le_pos; lra). lra.
Qed.
(** Division by an exact number of at least one, multiplication by one of either size. *)
Lemma close_div k j x X A (n : f64) : close k j x X A -> fits k j A -> 1 <= B2R n ->
  close (k + 2) (2 * j + 2) (Bdiv mode_NE x n) (X / B2R n) (A / B2R n).
Proof.
  intros C Fc Hn. assert (SX := close_size _ _ _ _ _ C Fc). assert (A0 := A_pos _ _ _ _ _ C).
  destruct Fc as [Hk [Hj HA]]. destruct C as [Fx [Ex Bx]]. assert (K := k_small k Hk). assert (P := eps_pos). assert (Q := eta_pos). assert (J := j_eta j Hj).
  set (m := B2R n) in *. assert (I : 0 < / m <= 1) by (split; [apply Rinv_0_lt_compat; lra | rewrite <- Rinv_1; apply Rinv_le_contravar; lra]).
  assert (D : forall a, Rabs (a / m) = Rabs a * / m) by (intros a; unfold Rdiv; rewrite Rabs_mult, (Rabs_pos_eq (/ m)) by lra; reflexivity).
  assert (E : Rabs (B2R x / m - X / m) <= k * eps * (A / m) + j * eta).
  { replace (B2R x / m - X / m) with ((B2R x - X) / m) by (field; lra). rewrite D. apply Rle_trans with ((k * eps * A + j * eta) * / m); [apply Rmult_le_compat_r; lra|].
    unfold Rdiv. assert (j * eta * / m <= j * eta * 1) by (apply Rmult_le_compat_l; lra). lra. }
  assert (Bd : Rabs (X / m) <= A / m) by (rewrite D; unfold Rdiv; apply Rmult_le_compat_r; lra).
  assert (Am : 0 <= A / m) by (unfold Rdiv; apply Rmult_le_pos; lra).
  destruct (round_close (B2R x / m) (X / m) (A / m) (k * eps) j E Bd) as [G _]; [lra | lra | exact Am|].
  destruct (div_R x n Fx) as [Fs Es]; [fold m; lra | |].
  { apply big_fits. fold m. rewrite D. destruct p1000 as [P1 P2]. rewrite P2. assert (Rabs (B2R x) * / m <= Rabs (B2R x) * 1) by (apply Rmult_le_compat_l; [apply Rabs_pos | lra]). lra. }
  split; [exact Fs|]. split; [|exact Bd]. rewrite Es. fold m. apply Rle_trans with (1 := G). assert (0 <= eps * (A / m)) by (apply Rmult_le_pos; lra). lra.
Qed.
Lemma close_times k j x X A (n : f64) : close k j x X A -> fits k j A -> is_finite n = true -> 1 <= B2R n -> A * B2R n <= bpow radix2 1000 -> j * B2R n <= bpow radix2 200 ->
  close (k + 2) (2 * (j * B2R n) + 2) (Bmult mode_NE x n) (X * B2R n) (A * B2R n).
Proof.
  intros C Fc Fn Hn HS HJ. assert (SX := close_size _ _ _ _ _ C Fc). assert (A0 := A_pos _ _ _ _ _ C).
  destruct Fc as [Hk [Hj HA]]. destruct C as [Fx [Ex Bx]]. assert (K := k_small k Hk). assert (P := eps_pos). assert (Q := eta_pos).
  set (m := B2R n) in *. assert (D : forall a, Rabs (a * m) = Rabs a * m) by (intros a; rewrite Rabs_mult, (Rabs_pos_eq m) by lra; reflexivity).
  assert (J := j_eta (j * m) ltac:(split; [apply Rmult_le_pos; lra | exact HJ])).
  assert (E : Rabs (B2R x * m - X * m) <= k * eps * (A * m) + j * m * eta).
  { replace (B2R x * m - X * m) with ((B2R x - X) * m) by ring. rewrite D. apply Rle_trans with ((k * eps * A + j * eta) * m); [apply Rmult_le_compat_r; lra | lra]. }
  assert (Bd : Rabs (X * m) <= A * m) by (rewrite D; apply Rmult_le_compat_r; lra).
  assert (Am : 0 <= A * m) by (apply Rmult_le_pos; lra).
  destruct (round_close (B2R x * m) (X * m) (A * m) (k * eps) (j * m) E Bd) as [G _]; [lra | apply Rmult_le_pos; lra | exact Am|].
  destruct (mul_R x n Fx Fn) as [Fs Es].
  { apply big_fits. fold m. replace (B2R x * m) with ((B2R x * m - X * m) + X * m) by ring. apply Rle_trans with (1 := Rabs_triang _ _). destruct p1000 as [P1 P2]. rewrite P2.
    assert (k * eps * (A * m) <= / 8 * (A * m)) by (apply Rmult_le_compat_r; lra). lra. }
  split; [exact Fs|]. split; [|exact Bd]. rewrite Es. fold m. apply Rle_trans with (1 := G). assert (0 <= eps * (A * m)) by (apply Rmult_le_pos; lra). lra.
Qed.
(** Roots: a number whose square is close, unless rounding made the radicand negative. *)
Lemma close_sqrt k j x X A : close k j x X A -> fits k j A -> let T := Bsqrt mode_NE x in
  ((k * eps * A + j * eta < X -> is_finite T = true) /\
  (is_finite T = true -> 0 <= B2R T /\ Rabs (B2R T * B2R T - X) <= (k + 4) * eps * A + 2 * j * eta)).
Proof.
  intros C Fc T. assert (SX := close_size _ _ _ _ _ C Fc). assert (A0 := A_pos _ _ _ _ _ C). destruct Fc as [Hk [Hj HA]]. destruct C as [Fx [Ex Bx]]. assert (K := k_small k Hk). assert (P := eps_pos). assert (Le := eps_le). assert (Q := eta_pos). assert (J := j_eta j Hj).
  split. { intros H. apply Rabs_le_inv in Ex. apply sqrt_R; [exact Fx | lra]. }
  intros FT. assert (X0 : 0 <= B2R x).
  { destruct (Bsqrt_correct 53 1024 _ _ mode_NE x) as [_ [B _]]. change (Bsqrt mode_NE x) with T in B. rewrite FT in B.
    destruct x as [s|s| |[|] m e H]; try discriminate Fx; try discriminate B; cbn [B2R]; try lra. apply F2R_ge_0. cbn. lia. }
  destruct (sqrt_R x Fx X0) as [_ ET]. change (Bsqrt mode_NE x) with T in ET. rewrite ET. split; [apply rnd_nonneg, sqrt_pos|].
  destruct (Req_dec (B2R x) 0) as [Z|Z].
  - rewrite Z, sqrt_0, rnd_fmt by apply generic_format_0. replace (0 * 0 - X) with (B2R x - X) by (rewrite Z; ring). apply Rle_trans with (1 := Ex). assert (0 <= eps * A) by (apply Rmult_le_pos; lra). lra.
  - assert (S : bpow radix2 (-1074) <= B2R x).
    { assert (G := abs_B2R_ge_emin 53 1024 x). destruct x as [s|s| |s m e H]; try discriminate Fx; [cbn in Z; lra|]. specialize (G eq_refl). rewrite Rabs_pos_eq in G by exact X0. exact G. }
    destruct (rnd_rel (sqrt (B2R x))) as [e [He Ee]].
    { rewrite Rabs_pos_eq by apply sqrt_pos. apply Rle_trans with (bpow radix2 (-537)); [apply bpow_le; lia|]. rewrite <- (sqrt_square (bpow radix2 (-537))) by apply bpow_ge_0. apply sqrt_le_1_alt. rewrite <- bpow_plus. exact S. }
    rewrite Ee. assert (SQ := sqrt_sqrt (B2R x) X0). set (r := sqrt (B2R x)) in *. assert (F := factor _ He). apply Rabs_le_inv in He.
    replace (r * (1 + e) * (r * (1 + e)) - X) with ((B2R x - X) + B2R x * (2 * e + e * e)) by (rewrite <- SQ; ring).
    apply Rle_trans with (1 := Rabs_triang _ _). rewrite Rabs_mult.
    assert (E2 : Rabs (2 * e + e * e) <= 5 / 2 * eps).
    { assert (0 <= e * e <= eps * eps) by nra. assert (eps * eps <= / 10 * eps) by (apply Rmult_le_compat_r; lra). apply Rabs_le. lra. }
    assert (M : Rabs (B2R x) * Rabs (2 * e + e * e) <= (9 / 8 * A + j * eta) * (5 / 2 * eps)) by (apply Rmult_le_compat; auto using Rabs_pos).
    assert (eps * (j * eta) <= / 10 * (j * eta)) by (apply Rmult_le_compat_r; lra). assert (0 <= eps * A) by (apply Rmult_le_pos; lra). lra.
Qed.
