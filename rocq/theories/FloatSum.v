(** * Rounding errors of sums, means and speeds in doubles (proofs only). *)
From Coq Require Import Reals List ZArith NArith Lia Lra Psatz.
From Flocq Require Import Core.Core Relative Plus_error IEEE754.BinarySingleNaN.
From Verif Require Import Base Num RFacts GridSpec F64Facts CartR FloatErr.
Import ListNotations.
Local Open Scope R_scope.

Lemma Rabs_Rsum l : Rabs (Rsum l) <= Rsum (map Rabs l).
Proof.
  induction l as [|x l IH]; cbn [map]; rewrite ?Rsum_nil, ?Rsum_cons; [rewrite Rabs_R0; lra|].
  apply Rle_trans with (1 := Rabs_triang _ _). lra.
Qed.
Lemma big_lt x : Rabs x <= bpow radix2 1023 -> Rabs x < M64.
Proof. intros H. apply Rle_lt_trans with (1 := H). apply bpow_lt. lia. Qed.

Lemma rnd_big x : Rabs x <= bpow radix2 1023 -> Rabs (rnd x) <= bpow radix2 1023.
Proof.
  intros H. apply Rabs_le_inv in H. assert (G : generic_format radix2 fexp64 (bpow radix2 1023)) by (apply generic_format_bpow; vm_compute; discriminate).
  assert (A : rnd (- bpow radix2 1023) <= rnd x) by (apply rnd_mono; lra).
  assert (B : rnd x <= rnd (bpow radix2 1023)) by (apply rnd_mono; lra).
  rewrite (rnd_fmt (- bpow radix2 1023)) in A by now apply generic_format_opp. rewrite (rnd_fmt (bpow radix2 1023)) in B by exact G. apply Rabs_le. lra.
Qed.
(** Adding from the left. *)
Lemma sum_err_gen (l : list f64) : forall (s : f64) (S A : R) (k : Z),
  Forall (fun x : f64 => is_finite x = true) l -> is_finite s = true ->
  (0 <= k)%Z -> (k + Z.of_nat (length l) <= 2 ^ 52)%Z ->
  Rabs S <= A -> A + Rsum (map (fun x : f64 => Rabs (B2R x)) l) <= bpow radix2 1022 ->
  Rabs (B2R s - S) <= 2 * IZR k * eps * A ->
  let r := fold_left (Bplus mode_NE) l s in
  is_finite r = true /\
  Rabs (B2R r - (S + Rsum (map B2R l))) <= 2 * IZR (k + Z.of_nat (length l)) * eps * (A + Rsum (map (fun x : f64 => Rabs (B2R x)) l)).
Proof.
  induction l as [|x l IH]; intros s S A k Fl Fs Hk Hn HS HA Hs r.
  - cbn [fold_left] in r. subst r. cbn [map length]. rewrite !Rsum_nil, Z.add_0_r, !Rplus_0_r. now split.
  - inversion_clear Fl as [|? ? Fx Fl']. cbn [map] in *. rewrite Rsum_cons in *.
    assert (P := eps_pos). assert (Lp := eps_le). assert (Ax := Rabs_pos (B2R x)). assert (A0 : 0 <= A) by (apply Rle_trans with (2 := HS); apply Rabs_pos).
    assert (Rl : 0 <= Rsum (map (fun x : f64 => Rabs (B2R x)) l)) by (apply Rsum_nonneg; intros; apply Rabs_pos).
    cbn [length] in Hn. rewrite Nat2Z.inj_succ in Hn.
    assert (Ke : 0 <= IZR k * eps <= / 2).
    { split; [apply Rmult_le_pos; [apply IZR_le; lia | lra]|]. apply Rle_trans with (IZR (2 ^ 52) * eps); [apply Rmult_le_compat_r; [lra | apply IZR_le; lia]|].
      rewrite eps_val. cbn [Z.pow Z.pow_pos Pos.iter Z.mul Pos.mul]. lra. }
    destruct (rnd_sum (B2R s) (B2R x) (fmt_B2R s) (fmt_B2R x)) as [e [He E]].
    assert (Eb : Rabs (rnd (B2R s + B2R x) - (S + B2R x)) <= 2 * IZR (k + 1) * eps * (A + Rabs (B2R x))).
    { rewrite E. replace ((B2R s + B2R x) * (1 + e) - (S + B2R x)) with ((B2R s - S) * (1 + e) + e * (S + B2R x)) by ring.
      apply Rle_trans with (1 := Rabs_triang _ _). rewrite !Rabs_mult. rewrite plus_IZR.
      assert (G := factor _ He). rewrite (Rabs_pos_eq (1 + e)) by (assert (L := eps_le); lra).
      assert (T : Rabs (S + B2R x) <= A + Rabs (B2R x)) by (apply Rle_trans with (1 := Rabs_triang _ _); lra).
      apply Rle_trans with (2 * IZR k * eps * A * (1 + eps) + eps * (A + Rabs (B2R x))).
      - apply Rplus_le_compat; apply Rmult_le_compat; first [apply Rabs_pos | lra].
      - assert (X : IZR k * eps * (A * eps) <= / 2 * (A * eps)) by (apply Rmult_le_compat_r; [apply Rmult_le_pos; lra | lra]).
        assert (Y : 0 <= IZR k * eps * Rabs (B2R x)) by (apply Rmult_le_pos; lra).
        assert (Z : 0 <= eps * Rabs (B2R x)) by (apply Rmult_le_pos; lra).
        nra. }
    assert (K1 : 2 * IZR (k + 1) * eps <= 1).
    { apply Rle_trans with (2 * IZR (2 ^ 52) * eps).
      - apply Rmult_le_compat_r; [lra|]. apply Rmult_le_compat_l; [lra|]. apply IZR_le. lia.
      - rewrite eps_val. cbn [Z.pow Z.pow_pos Pos.iter Z.mul Pos.mul]. lra. }
    assert (T : Rabs (S + B2R x) <= A + Rabs (B2R x)) by (apply Rle_trans with (1 := Rabs_triang _ _); lra).
    destruct (add_R s x Fs Fx) as [Fa Ea].
    { apply big_lt. replace (rnd (B2R s + B2R x)) with ((rnd (B2R s + B2R x) - (S + B2R x)) + (S + B2R x)) by ring.
      apply Rle_trans with (1 := Rabs_triang _ _). replace 1023%Z with (1 + 1022)%Z by lia. rewrite (bpow_plus _ 1). change (bpow radix2 1) with 2.
      assert (2 * IZR (k + 1) * eps * (A + Rabs (B2R x)) <= 1 * (A + Rabs (B2R x))) by (apply Rmult_le_compat_r; lra). lra. }
    rewrite <- Ea in Eb.
    destruct (IH (Bplus mode_NE s x) (S + B2R x) (A + Rabs (B2R x)) (k + 1)%Z Fl' Fa ltac:(lia) ltac:(lia) T ltac:(lra) Eb) as [F1 E1].
    cbn [fold_left] in r. fold r in F1, E1. split; [exact F1|].
    cbn [length]. rewrite Nat2Z.inj_succ.
    replace (k + Z.succ (Z.of_nat (length l)))%Z with (k + 1 + Z.of_nat (length l))%Z by lia.
    rewrite !Rsum_cons, <- !Rplus_assoc. exact E1.
Qed.
Lemma sum_err (l : list f64) :
  Forall (fun x : f64 => is_finite x = true) l -> (Z.of_nat (length l) <= 2 ^ 52)%Z ->
  Rsum (map (fun x : f64 => Rabs (B2R x)) l) <= bpow radix2 1022 ->
  let r := fold_left (Bplus mode_NE) l (f64_of_Z 0) in
  is_finite r = true /\
  Rabs (B2R r - Rsum (map B2R l)) <= 2 * IZR (Z.of_nat (length l)) * eps * Rsum (map (fun x : f64 => Rabs (B2R x)) l).
Proof.
  intros Fl Hn HA. destruct (of_Z_correct 0 ltac:(lia)) as [E0 F0].
  destruct (sum_err_gen l (f64_of_Z 0) 0 0 0 Fl F0 ltac:(lia) ltac:(lia) ltac:(rewrite Rabs_R0; lra) ltac:(lra)) as [F1 E1].
  - rewrite E0, Rminus_0_r, Rabs_R0. lra.
  - split; [exact F1|]. rewrite Z.add_0_l, !Rplus_0_l in E1. exact E1.
Qed.
(** A sum over a count. *)
Lemma mean_err (l : list f64) (n : f64) :
  Forall (fun x : f64 => is_finite x = true) l -> l <> [] -> (Z.of_nat (length l) + 1 <= 2 ^ 52)%Z ->
  Rsum (map (fun x : f64 => Rabs (B2R x)) l) <= bpow radix2 1022 ->
  B2R n = IZR (Z.of_nat (length l)) ->
  let r := Bdiv mode_NE (fold_left (Bplus mode_NE) l (f64_of_Z 0)) n in
  is_finite r = true /\
  Rabs (B2R r - Rsum (map B2R l) / INR (length l)) <=
    2 * INR (length l + 1) * eps * (Rsum (map (fun x : f64 => Rabs (B2R x)) l) / INR (length l)) + eta.
Proof.
  intros Fl Ne Hn HA En r. destruct (sum_err l Fl ltac:(lia) HA) as [Fs Es]. unfold r.
  set (s := fold_left (Bplus mode_NE) l (f64_of_Z 0)) in *. rewrite <- INR_IZR_INZ in *.
  set (A := Rsum (map (fun x : f64 => Rabs (B2R x)) l)) in *.
  assert (TA : Rabs (Rsum (map B2R l)) <= A).
  { unfold A. apply Rle_trans with (1 := Rabs_Rsum _). rewrite map_map. apply Rle_refl. }
  set (S := Rsum (map B2R l)) in *.
  assert (N1 : 1 <= INR (length l)) by (change 1 with (INR 1); apply le_INR; destruct l; [now destruct Ne | cbn; lia]).
  assert (P := eps_pos). assert (A0 : 0 <= A) by (apply Rle_trans with (2 := TA); apply Rabs_pos).
  assert (Ke : INR (length l) * eps <= / 2).
  { apply Rle_trans with (IZR (2 ^ 52) * eps); [apply Rmult_le_compat_r; [lra | rewrite INR_IZR_INZ; apply IZR_le; lia]|].
    rewrite eps_val. cbn [Z.pow Z.pow_pos Pos.iter Z.mul Pos.mul]. lra. }
  set (n' := INR (length l)) in *. assert (In' : 0 < / n') by (apply Rinv_0_lt_compat; lra).
  assert (Sa : Rabs (B2R s) <= 2 * A).
  { replace (B2R s) with ((B2R s - S) + S) by ring. apply Rle_trans with (1 := Rabs_triang _ _).
    assert (2 * n' * eps * A <= 1 * A) by (apply Rmult_le_compat_r; lra). lra. }
  assert (In1 : / n' <= 1) by (rewrite <- Rinv_1; apply Rinv_le; lra).
  assert (Sm : Rabs (B2R s / n') <= bpow radix2 1023).
  { unfold Rdiv. rewrite Rabs_mult, (Rabs_pos_eq (/ n')) by lra.
    replace 1023%Z with (1 + 1022)%Z by lia. rewrite (bpow_plus _ 1). change (bpow radix2 1) with 2.
    apply Rle_trans with (Rabs (B2R s) * 1); [apply Rmult_le_compat_l; [apply Rabs_pos | exact In1] | lra]. }
  destruct (div_R s n Fs) as [Fd Ed]; [rewrite En; lra | |].
  { rewrite En. apply big_lt, rnd_big, Sm. }
  rewrite En in Ed. split; [exact Fd|]. rewrite Ed. destruct (rnd_ex (B2R s / n')) as [e [dd [He [Hd E]]]]. rewrite E.
  replace (B2R s / n' * (1 + e) + dd - S / n') with ((B2R s - S) / n' * (1 + e) + e * (S / n') + dd) by (field; lra).
  apply Rle_trans with (1 := Rabs_triang _ _). apply Rplus_le_compat; [|exact Hd].
  apply Rle_trans with (1 := Rabs_triang _ _). unfold Rdiv. rewrite !Rabs_mult, (Rabs_pos_eq (/ n')) by lra.
  assert (G := factor _ He). rewrite (Rabs_pos_eq (1 + e)) by (assert (L := eps_le); lra).
  apply Rle_trans with (2 * n' * eps * A * / n' * (1 + eps) + eps * (A * / n')).
  - apply Rplus_le_compat.
    + apply Rmult_le_compat; [apply Rmult_le_pos; [apply Rabs_pos | lra] | assert (L := eps_le); lra | apply Rmult_le_compat_r; lra | lra].
    + apply Rmult_le_compat; [apply Rabs_pos | apply Rmult_le_pos; [apply Rabs_pos | lra] | exact He | apply Rmult_le_compat_r; lra].
  - rewrite plus_INR. fold n'. cbn [INR]. set (m := A * / n'). assert (M0 : 0 <= m) by (apply Rmult_le_pos; lra).
    replace (2 * n' * eps * A * / n' * (1 + eps) + eps * m) with (2 * n' * eps * m + (2 * (n' * eps) * (eps * m) + eps * m)) by (unfold m; ring).
    assert (n' * eps * (eps * m) <= / 2 * (eps * m)) by (apply Rmult_le_compat_r; [apply Rmult_le_pos; lra | lra]).
    assert (0 <= eps * m) by (apply Rmult_le_pos; lra). nra.
Qed.

(** A speed in doubles. *)
Lemma sq_le x y : 0 <= y -> x * x <= y * y -> x <= y.
Proof. intros Hy H. destruct (Rle_lt_dec x y) as [L|L]; [exact L|]. nra. Qed.
Definition tiny : R := bpow radix2 (-536).
Lemma tiny_pos : 0 < tiny. Proof. apply bpow_gt_0. Qed.
Lemma tiny_sq : 4 * eta <= tiny * tiny.
Proof. unfold tiny, eta. rewrite <- bpow_plus. change 4 with (bpow radix2 2). rewrite <- bpow_plus. apply bpow_le. lia. Qed.
Lemma eta_tiny : eta <= eps * tiny.
Proof. unfold tiny, eta, eps. rewrite <- bpow_plus. apply bpow_le. lia. Qed.
(** Sums of three squares up to rounding, and their root. *)
Lemma root_err e s S : 0 < e <= / 1000000000000 -> 0 <= s -> 0 <= S -> (1 - 4 * e) * s - tiny * tiny <= S <= (1 + 4 * e) * s + tiny * tiny ->
  Rabs (sqrt S - sqrt s) <= 4 * e * sqrt s + tiny.
Proof.
  intros He Hs HS [L U]. assert (R1 := sqrt_pos s). assert (R2 := sqrt_sqrt s Hs). assert (R3 := sqrt_pos S). assert (R4 := sqrt_sqrt S HS).
  assert (T := tiny_pos). set (r := sqrt s) in *. set (q := sqrt S) in *. set (t := tiny) in *. clearbody r q t.
  assert (P1 : 0 <= r * t) by (apply Rmult_le_pos; lra). assert (P2 : 0 <= r * r) by (apply Rmult_le_pos; lra).
  assert (P3 : 0 <= e * (r * r)) by (apply Rmult_le_pos; lra). assert (P4 : 0 <= e * (r * t)) by (apply Rmult_le_pos; lra).
  assert (P5 : 0 <= e * e * (r * r)) by (apply Rmult_le_pos; nra).
  apply Rabs_le. split.
  - assert (X : (1 - 4 * e) * r - t <= q); [|lra]. destruct (Rle_lt_dec ((1 - 4 * e) * r) t) as [A|A]; [lra|].
    apply sq_le; [exact R3|]. rewrite R4. apply Rle_trans with (2 := L).
    assert (Y : t * t <= (1 - 4 * e) * r * t) by (apply Rmult_le_compat_r; lra). subst s.
    assert (Z : (1 - 4 * e) * r * ((1 - 4 * e) * r) <= (1 - 4 * e) * (r * r)).
    { replace ((1 - 4 * e) * r * ((1 - 4 * e) * r)) with ((1 - 4 * e) * (1 - 4 * e) * (r * r)) by ring. apply Rmult_le_compat_r; [exact P2|]. nra. }
    lra.
  - assert (X : q <= (1 + 4 * e) * r + t); [|lra]. apply sq_le; [nra|]. rewrite R4. apply Rle_trans with (1 := U). subst s. nra.
Qed.
Lemma sqrt_R (x : f64) : is_finite x = true -> 0 <= B2R x -> is_finite (Bsqrt mode_NE x) = true /\ B2R (Bsqrt mode_NE x) = rnd (sqrt (B2R x)).
Proof.
  intros Fx Hx. destruct (Bsqrt_correct 53 1024 _ _ mode_NE x) as [A [B _]]. split; [|exact A].
  rewrite B. destruct x as [s|s| |[|] m e H]; try discriminate Fx; try reflexivity.
  exfalso. cbn [B2R] in Hx. assert (X : F2R (Float radix2 (cond_Zopp true (Zpos m)) e) < 0) by (apply F2R_lt_0; cbn; lia). lra.
Qed.
Definition norm3 (x y z : R) : R := sqrt (x * x + y * y + z * z).
Definition speed3 (x y z : f64) : f64 := Bsqrt mode_NE (Bplus mode_NE (Bplus mode_NE (Bmult mode_NE x x) (Bmult mode_NE y y)) (Bmult mode_NE z z)).
Lemma square_err (x : f64) : is_finite x = true -> Rabs (B2R x) <= bpow radix2 500 ->
  let q := Bmult mode_NE x x in
  is_finite q = true /\ 0 <= B2R q <= bpow radix2 1000 /\ Rabs (B2R q - B2R x * B2R x) <= eps * (B2R x * B2R x) + eta.
Proof.
  intros Fx Hx q. assert (X0 : 0 <= B2R x * B2R x) by apply Rle_0_sqr.
  assert (X1 : B2R x * B2R x <= bpow radix2 1000).
  { rewrite <- (Rabs_pos_eq _ X0), Rabs_mult. replace 1000%Z with (500 + 500)%Z by lia. rewrite bpow_plus. apply Rmult_le_compat; auto using Rabs_pos. }
  assert (N := rnd_nonneg _ X0). assert (U : rnd (B2R x * B2R x) <= bpow radix2 1000).
  { rewrite <- (rnd_fmt (bpow radix2 1000)) by (apply generic_format_bpow; vm_compute; discriminate). now apply rnd_mono. }
  destruct (mul_R x x Fx Fx) as [Fq Eq].
  { rewrite Rabs_pos_eq by exact N. apply Rle_lt_trans with (1 := U). apply bpow_lt. lia. }
  fold q in Fq, Eq. split; [exact Fq|]. rewrite Eq. split; [lra|]. destruct (rnd_ex (B2R x * B2R x)) as [e [dd [He [Hd E]]]]. rewrite E.
  replace (B2R x * B2R x * (1 + e) + dd - B2R x * B2R x) with (e * (B2R x * B2R x) + dd) by ring.
  apply Rle_trans with (1 := Rabs_triang _ _). apply Rplus_le_compat; [|exact Hd]. rewrite Rabs_mult, (Rabs_pos_eq _ X0). now apply Rmult_le_compat_r.
Qed.
Lemma plus_err (x y : f64) m : (1 <= m <= 1010)%Z -> is_finite x = true -> is_finite y = true -> 0 <= B2R x <= bpow radix2 m -> 0 <= B2R y <= bpow radix2 m ->
  let q := Bplus mode_NE x y in
  is_finite q = true /\ 0 <= B2R q <= bpow radix2 (m + 1) /\ Rabs (B2R q - (B2R x + B2R y)) <= eps * (B2R x + B2R y).
Proof.
  intros Hm Fx Fy Hx Hy q. assert (X0 : 0 <= B2R x + B2R y) by lra.
  assert (X1 : B2R x + B2R y <= bpow radix2 (m + 1)) by (rewrite bpow_plus; change (bpow radix2 1) with 2; lra).
  assert (N := rnd_nonneg _ X0). assert (U : rnd (B2R x + B2R y) <= bpow radix2 (m + 1)).
  { rewrite <- (rnd_fmt (bpow radix2 (m + 1))); [now apply rnd_mono|]. apply generic_format_bpow. unfold fexp64, SpecFloat.fexp, SpecFloat.emin. lia. }
  destruct (add_R x y Fx Fy) as [Fq Eq].
  { rewrite Rabs_pos_eq by exact N. apply Rle_lt_trans with (1 := U). apply bpow_lt. lia. }
  fold q in Fq, Eq. split; [exact Fq|]. rewrite Eq. split; [lra|].
  destruct (rnd_sum (B2R x) (B2R y) (fmt_B2R x) (fmt_B2R y)) as [e [He E]]. rewrite E.
  replace ((B2R x + B2R y) * (1 + e) - (B2R x + B2R y)) with (e * (B2R x + B2R y)) by ring.
  rewrite Rabs_mult, (Rabs_pos_eq _ X0). now apply Rmult_le_compat_r.
Qed.
Lemma speed_err (x y z : f64) : is_finite x = true -> is_finite y = true -> is_finite z = true ->
  Rabs (B2R x) <= bpow radix2 500 -> Rabs (B2R y) <= bpow radix2 500 -> Rabs (B2R z) <= bpow radix2 500 ->
  is_finite (speed3 x y z) = true /\ 0 <= B2R (speed3 x y z) /\
  Rabs (B2R (speed3 x y z) - norm3 (B2R x) (B2R y) (B2R z)) <= 6 * eps * norm3 (B2R x) (B2R y) (B2R z) + 2 * tiny.
Proof.
  intros Fx Fy Fz Hx Hy Hz. assert (P := eps_pos). assert (Le := eps_le).
  destruct (square_err x Fx Hx) as [F1 [B1 E1]]. destruct (square_err y Fy Hy) as [F2 [B2 E2]]. destruct (square_err z Fz Hz) as [F3 [B3 E3]].
  unfold speed3. set (a := Bmult mode_NE x x) in *. set (b := Bmult mode_NE y y) in *. set (c := Bmult mode_NE z z) in *.
  destruct (plus_err a b 1000 ltac:(lia) F1 F2 B1 B2) as [F4 [B4 E4]]. set (ab := Bplus mode_NE a b) in *.
  destruct (plus_err ab c 1001 ltac:(lia) F4 F3 B4) as [F5 [B5 E5]].
  { split; [lra|]. apply Rle_trans with (1 := proj2 B3). apply bpow_le. lia. }
  set (S := Bplus mode_NE ab c) in *. destruct (sqrt_R S F5 ltac:(lra)) as [F6 E6]. split; [exact F6|].
  rewrite E6. split; [apply rnd_nonneg, sqrt_pos|]. unfold norm3.
  assert (X0 : 0 <= B2R x * B2R x) by apply Rle_0_sqr. assert (Y0 : 0 <= B2R y * B2R y) by apply Rle_0_sqr. assert (Z0 : 0 <= B2R z * B2R z) by apply Rle_0_sqr.
  set (s := B2R x * B2R x + B2R y * B2R y + B2R z * B2R z) in *. assert (S0 : 0 <= s) by (unfold s; lra).
  assert (T := tiny_sq). assert (H0 := eta_pos).
  assert (Bnd : (1 - 4 * eps) * s - tiny * tiny <= B2R S <= (1 + 4 * eps) * s + tiny * tiny).
  { apply Rabs_le_inv in E1, E2, E3, E4, E5.
    assert (Sum : (1 - eps) * s - 3 * eta <= B2R a + B2R b + B2R c <= (1 + eps) * s + 3 * eta) by (unfold s; lra).
    assert (G1 : (1 - eps) * (B2R a + B2R b + B2R c) <= B2R ab + B2R c <= (1 + eps) * (B2R a + B2R b + B2R c)) by nra.
    assert (G2 : (1 - eps) * ((1 - eps) * (B2R a + B2R b + B2R c)) <= B2R S <= (1 + eps) * ((1 + eps) * (B2R a + B2R b + B2R c))).
    { split.
      - apply Rle_trans with ((1 - eps) * (B2R ab + B2R c)); [apply Rmult_le_compat_l; lra | lra].
      - apply Rle_trans with ((1 + eps) * (B2R ab + B2R c)); [lra | apply Rmult_le_compat_l; lra]. }
    set (u := B2R a + B2R b + B2R c) in *. set (e := eps) in *. clearbody e u.
    assert (C1 : (1 - e) * (1 - e) * (1 - e) >= 1 - 4 * e) by nra. assert (C2 : (1 + e) * (1 + e) * (1 + e) <= 1 + 4 * e) by nra.
    assert (C3 : 0 <= (1 - e) * (1 - e) <= 1) by nra. assert (C4 : 1 <= (1 + e) * (1 + e) <= 4 / 3) by nra.
    split.
    - apply Rle_trans with (2 := proj1 G2). apply Rle_trans with ((1 - e) * (1 - e) * ((1 - e) * s - 3 * eta)).
      + assert ((1 - 4 * e) * s <= (1 - e) * (1 - e) * (1 - e) * s) by (apply Rmult_le_compat_r; lra).
        assert ((1 - e) * (1 - e) * (3 * eta) <= 1 * (3 * eta)) by (apply Rmult_le_compat_r; lra). lra.
      + rewrite <- Rmult_assoc. apply Rmult_le_compat_l; lra.
    - apply Rle_trans with (1 := proj2 G2). apply Rle_trans with ((1 + e) * (1 + e) * ((1 + e) * s + 3 * eta)).
      + rewrite <- Rmult_assoc. apply Rmult_le_compat_l; lra.
      + assert ((1 + e) * (1 + e) * (1 + e) * s <= (1 + 4 * e) * s) by (apply Rmult_le_compat_r; lra).
        assert ((1 + e) * (1 + e) * (3 * eta) <= 4 / 3 * (3 * eta)) by (apply Rmult_le_compat_r; lra). lra. }
  assert (Rt := root_err eps s (B2R S) ltac:(lra) S0 (proj1 B5) Bnd).
  destruct (rnd_ex (sqrt (B2R S))) as [e [dd [He [Hd E]]]]. rewrite E.
  replace (sqrt (B2R S) * (1 + e) + dd - sqrt s) with ((sqrt (B2R S) - sqrt s) * (1 + e) + e * sqrt s + dd) by ring.
  apply Rle_trans with (1 := Rabs_triang _ _). apply Rle_trans with (Rabs ((sqrt (B2R S) - sqrt s) * (1 + e)) + Rabs (e * sqrt s) + Rabs dd); [apply Rplus_le_compat_r, Rabs_triang|].
  rewrite !Rabs_mult. assert (R1 := sqrt_pos s). rewrite (Rabs_pos_eq (sqrt s)) by exact R1. assert (G := factor _ He). rewrite (Rabs_pos_eq (1 + e)) by lra.
  assert (K1 : Rabs (sqrt (B2R S) - sqrt s) * (1 + e) <= (4 * eps * sqrt s + tiny) * (1 + eps)) by (apply Rmult_le_compat; [apply Rabs_pos | lra | exact Rt | lra]).
  assert (K2 : Rabs e * sqrt s <= eps * sqrt s) by now apply Rmult_le_compat_r.
  assert (K3 := eta_tiny). assert (Tp := tiny_pos). assert (K4 : eps * tiny <= / 4 * tiny) by (apply Rmult_le_compat_r; lra).
  assert (K5 : 0 <= eps * sqrt s) by (apply Rmult_le_pos; lra). assert (K6 : eps * (eps * sqrt s) <= / 4 * (eps * sqrt s)) by (apply Rmult_le_compat_r; lra).
  replace ((4 * eps * sqrt s + tiny) * (1 + eps)) with (4 * (eps * sqrt s) + 4 * (eps * (eps * sqrt s)) + tiny + eps * tiny) in K1 by ring. lra.
Qed.
