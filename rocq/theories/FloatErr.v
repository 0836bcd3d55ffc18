(** * Rounding errors of doubles (proofs only). *)
From Coq Require Import Reals List ZArith NArith Lia Lra Psatz.
From Flocq Require Import Core.Core Relative Plus_error IEEE754.BinarySingleNaN.
From Verif Require Import Base Num F64Facts.
Local Open Scope R_scope.

(** Unit roundoff and half the smallest positive double. *)
Definition eps : R := bpow radix2 (-53).
Definition eta : R := bpow radix2 (-1075).

Lemma eps_val : eps = / 9007199254740992. Proof. unfold eps. cbn. reflexivity. Qed.
Lemma eps_pos : 0 < eps. Proof. apply bpow_gt_0. Qed.
Lemma eps_le : eps <= / 1000000000000. Proof. rewrite eps_val. lra. Qed.
Lemma eta_pos : 0 < eta. Proof. apply bpow_gt_0. Qed.

Lemma rnd_ex x : exists e d, Rabs e <= eps /\ Rabs d <= eta /\ rnd x = x * (1 + e) + d.
Proof.
  destruct (error_N_FLT radix2 (-1074) 53 ltac:(lia) (fun x => negb (Z.even x)) x) as [e [d [He [Hd [_ E]]]]].
  exists e, d. change (round radix2 (FLT_exp (-1074) 53) (Znearest (fun x => negb (Z.even x))) x) with (rnd x) in E.
  split; [|split; [|exact E]].
  - apply Rle_trans with (1 := He). unfold eps. replace (-53)%Z with (-1 + (- 53 + 1))%Z by lia. rewrite (bpow_plus _ (-1)). cbn. lra.
  - apply Rle_trans with (1 := Hd). unfold eta. replace (-1075)%Z with (-1 + -1074)%Z by lia. rewrite (bpow_plus _ (-1)). change (bpow radix2 (-1)) with (/ 2). lra.
Qed.
Lemma rnd_sum x y : generic_format radix2 fexp64 x -> generic_format radix2 fexp64 y ->
  exists e, Rabs e <= eps /\ rnd (x + y) = (x + y) * (1 + e).
Proof.
  intros Fx Fy.
  destruct (FLT_plus_error_N_ex radix2 (-1074) 53 (fun x => negb (Z.even x)) x y Fx Fy) as [e [He E]].
  exists e. split; [|exact E]. apply Rle_trans with (1 := He).
  assert (U : u_ro radix2 53 = eps).
  { unfold u_ro, eps. replace (-53)%Z with (-1 + (- 53 + 1))%Z by lia. rewrite (bpow_plus _ (-1)). cbn. lra. }
  rewrite U. assert (P := eps_pos). apply Rmult_le_reg_r with (1 + eps); [lra|].
  unfold Rdiv. rewrite Rmult_assoc, Rinv_l by lra. nra.
Qed.
Lemma rnd_diff (x y : f64) : exists e, Rabs e <= eps /\ rnd (B2R x - B2R y) = (B2R x - B2R y) * (1 + e).
Proof. apply rnd_sum; [apply fmt_B2R | apply generic_format_opp, fmt_B2R]. Qed.

Lemma factor e : Rabs e <= eps -> 1 - eps <= 1 + e <= 1 + eps.
Proof. intros H. apply Rabs_le_inv in H. lra. Qed.

(** Three factors over one. *)
Lemma factors4 f1 f2 f3 f4 : 1 - eps <= f1 <= 1 + eps -> 1 - eps <= f2 <= 1 + eps -> 1 - eps <= f3 <= 1 + eps -> 1 - eps <= f4 <= 1 + eps ->
  Rabs (f1 * f3 * f4 / f2 - 1) <= 5 * eps.
Proof.
  intros H1 H2 H3 H4. assert (P := eps_pos). assert (L := eps_le). set (e := eps) in *. clearbody e.
  assert (A : (1 - e) * (1 - e) <= f1 * f3 <= (1 + e) * (1 + e)) by (split; apply Rmult_le_compat; lra).
  assert (B : (1 - e) * (1 - e) * (1 - e) <= f1 * f3 * f4 <= (1 + e) * (1 + e) * (1 + e)) by (split; apply Rmult_le_compat; nra).
  assert (U : f1 * f3 * f4 / f2 <= 1 + 5 * e).
  { apply Rmult_le_reg_r with f2; [lra|]. unfold Rdiv. rewrite Rmult_assoc, Rinv_l by lra. nra. }
  assert (D : 1 - 5 * e <= f1 * f3 * f4 / f2).
  { apply Rmult_le_reg_r with f2; [lra|]. unfold Rdiv. rewrite Rmult_assoc, Rinv_l by lra. nra. }
  apply Rabs_le. lra.
Qed.

(** [(p - lo) / (hi - lo) * m] in doubles. *)
Definition frac (lo hi p : f64) (m : Z) : f64 :=
  Bmult mode_NE (Bdiv mode_NE (Bminus mode_NE p lo) (Bminus mode_NE hi lo)) (f64_of_Z m).
Lemma frac_err (lo hi p : f64) (m : Z) :
  is_finite lo = true -> is_finite hi = true -> is_finite p = true -> is_finite (Bminus mode_NE hi lo) = true ->
  B2R lo < B2R hi -> B2R lo <= B2R p <= B2R hi -> (0 <= m <= 2 ^ 53)%Z ->
  let Q := (B2R p - B2R lo) / (B2R hi - B2R lo) * IZR m in
  is_finite (frac lo hi p m) = true /\ 0 <= B2R (frac lo hi p m) <= IZR m /\
  Rabs (B2R (frac lo hi p m) - Q) <= 5 * eps * Q + bpow radix2 (-1020).
Proof.
  intros Fl Fh Fp Fb Hl Hp Hm Q.
  destruct (minus_cases hi lo Fh Fl ltac:(lra)) as [[_ [_ Eb]]|[_ Eb]]; [|rewrite Eb in Fb; discriminate].
  assert (Mono : rnd (B2R p - B2R lo) <= rnd (B2R hi - B2R lo)) by (apply rnd_mono; lra).
  destruct (minus_cases p lo Fp Fl ltac:(lra)) as [[_ [Fa Ea]]|[Big Ea]].
  2:{ exfalso. destruct (minus_cases hi lo Fh Fl ltac:(lra)) as [[S _]|[_ Eb']]; [lra | rewrite Eb' in Fb; discriminate]. }
  destruct (rnd_diff p lo) as [e1 [He1 E1]]. destruct (rnd_diff hi lo) as [e2 [He2 E2]].
  assert (G1 := factor _ He1). assert (G2 := factor _ He2).
  assert (P := eps_pos). assert (Le := eps_le).
  set (a := B2R p - B2R lo) in *. set (b := B2R hi - B2R lo) in *.
  assert (Ha : 0 <= a <= b) by (unfold a, b; lra). assert (Hb : 0 < b) by (unfold b; lra).
  set (A := Bminus mode_NE p lo) in *. set (B := Bminus mode_NE hi lo) in *.
  assert (HB : 0 < B2R B) by (rewrite Eb, E2; nra).
  assert (HA : 0 <= B2R A <= B2R B) by (rewrite Ea, Eb; split; [rewrite E1; nra | exact Mono]).
  destruct (div_unit A B Fa HA HB) as [Fd [Ed Hd]].
  destruct (of_Z_correct m ltac:(lia)) as [Em Fm].
  destruct (mul_unit (Bdiv mode_NE A B) (f64_of_Z m) m Fd Fm ltac:(rewrite Ed; exact Hd) Em Hm) as [Fq [Eq Hq]].
  unfold frac. fold A B. split; [exact Fq|]. rewrite Eq. split; [exact Hq|].
  destruct (rnd_ex (B2R A / B2R B)) as [e3 [d3 [He3 [Hd3 E3]]]].
  destruct (rnd_ex (B2R (Bdiv mode_NE A B) * IZR m)) as [e4 [d4 [He4 [Hd4 E4]]]].
  assert (G3 := factor _ He3). assert (G4 := factor _ He4).
  rewrite E4, Ed, E3, Ea, Eb, E1, E2.
  replace ((a * (1 + e1) / (b * (1 + e2)) * (1 + e3) + d3) * IZR m * (1 + e4) + d4 - Q)
    with (Q * ((1 + e1) * (1 + e3) * (1 + e4) / (1 + e2) - 1) + (d3 * IZR m * (1 + e4) + d4)).
  2:{ unfold Q. fold a b. field. split; lra. }
  assert (HQ : 0 <= Q).
  { unfold Q. fold a b. apply Rmult_le_pos; [|apply IZR_le; lia]. apply Rmult_le_pos; [lra|]. apply Rlt_le, Rinv_0_lt_compat. lra. }
  apply Rle_trans with (1 := Rabs_triang _ _). apply Rplus_le_compat.
  - rewrite Rabs_mult, (Rabs_pos_eq Q) by exact HQ. rewrite Rmult_comm. apply Rmult_le_compat_r; [exact HQ|].
    now apply factors4.
  - assert (M53 : 0 <= IZR m <= bpow radix2 53).
    { split; [apply IZR_le; lia|]. rewrite <- IZR_Zpower by lia. apply IZR_le. change (Zpower radix2 53) with (2 ^ 53)%Z. lia. }
    apply Rle_trans with (1 := Rabs_triang _ _).
    rewrite !Rabs_mult, (Rabs_pos_eq (IZR m)) by lra. rewrite (Rabs_pos_eq (1 + e4)) by lra.
    assert (T0 := eta_pos).
    assert (T : Rabs d3 * IZR m * (1 + e4) <= eta * bpow radix2 53 * 2).
    { apply Rmult_le_compat; [apply Rmult_le_pos; [apply Rabs_pos | lra] | lra | | lra].
      apply Rmult_le_compat; [apply Rabs_pos | lra | exact Hd3 | lra]. }
    assert (K : eta * bpow radix2 53 * 2 + eta <= bpow radix2 (-1020)).
    { unfold eta. rewrite <- bpow_plus. change 2 with (bpow radix2 1). rewrite <- bpow_plus.
      apply Rle_trans with (bpow radix2 (-1021) + bpow radix2 (-1021)).
      - apply Rplus_le_compat; apply bpow_le; lia.
      - replace (-1020)%Z with (1 + -1021)%Z by lia. rewrite (bpow_plus _ 1). change (bpow radix2 1) with 2. lra. }
    lra.
Qed.

(** Away from zero the error is relative. *)
Lemma rnd_rel x : bpow radix2 (-1022) <= Rabs x -> exists e, Rabs e <= eps /\ rnd x = x * (1 + e).
Proof.
  intros H. destruct (relative_error_N_FLT_ex radix2 (-1074) 53 ltac:(lia) (fun x => negb (Z.even x)) x H) as [e [He E]].
  exists e. split; [|exact E]. apply Rle_trans with (1 := He). unfold eps. replace (-53)%Z with (-1 + (- 53 + 1))%Z by lia. rewrite (bpow_plus _ (-1)). cbn. lra.
Qed.
(** Operations that do not overflow. *)
Lemma mul_R (x y : f64) : is_finite x = true -> is_finite y = true -> Rabs (rnd (B2R x * B2R y)) < M64 ->
  is_finite (Bmult mode_NE x y) = true /\ B2R (Bmult mode_NE x y) = rnd (B2R x * B2R y).
Proof.
  intros Fx Fy H. generalize (Bmult_correct 53 1024 _ _ mode_NE x y).
  change (round radix2 fexp64 (round_mode mode_NE) (B2R x * B2R y)) with (rnd (B2R x * B2R y)).
  rewrite Rlt_bool_true by exact H. rewrite Fx, Fy. intros [A [B _]]. now split.
Qed.
Lemma div_R (x y : f64) : is_finite x = true -> B2R y <> 0 -> Rabs (rnd (B2R x / B2R y)) < M64 ->
  is_finite (Bdiv mode_NE x y) = true /\ B2R (Bdiv mode_NE x y) = rnd (B2R x / B2R y).
Proof.
  intros Fx Fy H. generalize (Bdiv_correct 53 1024 _ _ mode_NE x y Fy).
  change (round radix2 fexp64 (round_mode mode_NE) (B2R x / B2R y)) with (rnd (B2R x / B2R y)).
  rewrite Rlt_bool_true by exact H. rewrite Fx. intros [A [B _]]. now split.
Qed.
Lemma add_R (x y : f64) : is_finite x = true -> is_finite y = true -> Rabs (rnd (B2R x + B2R y)) < M64 ->
  is_finite (Bplus mode_NE x y) = true /\ B2R (Bplus mode_NE x y) = rnd (B2R x + B2R y).
Proof.
  intros Fx Fy H. generalize (Bplus_correct 53 1024 _ _ mode_NE x y Fx Fy).
  change (round radix2 fexp64 (round_mode mode_NE) (B2R x + B2R y)) with (rnd (B2R x + B2R y)).
  rewrite Rlt_bool_true by exact H. intros [A [B _]]. now split.
Qed.
Lemma B2R_lt (x : f64) : Rabs (B2R x) < M64. Proof. apply abs_B2R_lt_emax. Qed.
(** Rounding stays between doubles. *)
Lemma rnd_between (x y : f64) v : B2R x <= v <= B2R y -> B2R x <= rnd v <= B2R y.
Proof. intros [A B]. rewrite <- (rnd_fmt (B2R x)), <- (rnd_fmt (B2R y)) by apply fmt_B2R. split; now apply rnd_mono. Qed.
Lemma between_lt (x y : f64) v : B2R x <= v <= B2R y -> Rabs v < M64.
Proof.
  intros [A B]. assert (X := B2R_lt x). assert (Y := B2R_lt y). apply Rabs_def2 in X, Y. apply Rabs_def1; lra.
Qed.

(** ** Centres *)
Lemma below_lt (y : f64) v : 0 <= v <= B2R y -> Rabs (rnd v) < M64.
Proof.
  intros H. assert (A : 0 <= rnd v) by (apply rnd_nonneg; lra). rewrite Rabs_pos_eq by exact A.
  apply Rle_lt_trans with (B2R y); [rewrite <- (rnd_fmt (B2R y)) by apply fmt_B2R; apply rnd_mono; lra|].
  assert (Y := B2R_lt y). apply Rabs_def2 in Y. lra.
Qed.
(** Four factors. *)
Lemma factors_s e f1 f2 f5 f3 f4 k : 0 < e <= / 1000000000000 -> 0 <= k ->
  1 - e <= f1 <= 1 + e -> 1 - e <= f2 <= 1 + e -> 1 - e <= f3 <= 1 + e -> 1 - e <= f4 <= 1 + e -> 1 - e <= f5 <= 1 + e ->
  (1 - 5 * e) * (k + / 2) <= f1 * f2 * f5 * (k * f3 + f4 / 2) <= (1 + 5 * e) * (k + / 2).
Proof.
  intros He Hk H1 H2 H3 H4 H5.
  assert (A : (1 - e) * (1 - e) <= f1 * f2 <= (1 + e) * (1 + e)) by (split; apply Rmult_le_compat; lra).
  assert (B : (1 - e) * (1 - e) * (1 - e) <= f1 * f2 * f5 <= (1 + e) * (1 + e) * (1 + e)) by (split; apply Rmult_le_compat; nra).
  assert (C : (1 - e) * (k + / 2) <= k * f3 + f4 / 2 <= (1 + e) * (k + / 2)) by nra.
  assert (P1 : 1 - 5 * e <= (1 - e) * (1 - e) * (1 - e) * (1 - e)) by nra.
  assert (P2 : (1 + e) * (1 + e) * (1 + e) * (1 + e) <= 1 + 5 * e) by nra.
  assert (0 <= (1 - e) * (1 - e) * (1 - e)) by nra.
  split.
  - apply Rle_trans with ((1 - e) * (1 - e) * (1 - e) * ((1 - e) * (k + / 2))).
    + rewrite <- Rmult_assoc. apply Rmult_le_compat_r; lra.
    + apply Rmult_le_compat; try lra. apply Rmult_le_pos; lra.
  - apply Rle_trans with ((1 + e) * (1 + e) * (1 + e) * ((1 + e) * (k + / 2))).
    + apply Rmult_le_compat; try lra. apply Rle_trans with (2 := proj1 C). apply Rmult_le_pos; lra.
    + rewrite <- Rmult_assoc. apply Rmult_le_compat_r; lra.
Qed.
(** [k * ((hi - lo) / n) + (hi - lo) / n / 2 + lo] in doubles. *)
Definition centre (lo hi : f64) (n k : Z) : f64 :=
  let size := Bdiv mode_NE (Bminus mode_NE hi lo) (f64_of_Z n) in
  Bplus mode_NE (Bplus mode_NE (Bmult mode_NE (f64_of_Z k) size) (Bdiv mode_NE size (f64_of_Z 2))) lo.
Lemma centre_err (lo hi : f64) (n k : Z) :
  is_finite lo = true -> is_finite hi = true -> is_finite (Bminus mode_NE hi lo) = true ->
  bpow radix2 (-900) <= B2R hi - B2R lo -> (1 <= n <= 2 ^ 49)%Z -> (0 <= k < n)%Z ->
  is_finite (centre lo hi n k) = true /\ B2R lo <= B2R (centre lo hi n k) <= B2R hi /\
  Rabs (B2R (centre lo hi n k) - (B2R lo + (IZR k + / 2) * ((B2R hi - B2R lo) / IZR n))) <=
    5 * eps * (B2R hi - B2R lo) + eps * (Rabs (B2R lo) + Rabs (B2R hi)).
Proof.
  intros Fl Fh Fb Hb0 Hn Hk. assert (P := eps_pos). assert (Le := eps_le). assert (P9 := bpow_gt_0 radix2 (-900)).
  destruct (minus_cases hi lo Fh Fl ltac:(lra)) as [[_ [_ Eb]]|[_ Eb]]; [|rewrite Eb in Fb; discriminate].
  destruct (rnd_diff hi lo) as [e1 [He1 E1]]. assert (G1 := factor _ He1).
  unfold centre. set (B := Bminus mode_NE hi lo) in *. set (b := B2R hi - B2R lo) in *.
  assert (B9 : bpow radix2 (-900) <= B2R B).
  { rewrite Eb, <- (rnd_fmt (bpow radix2 (-900))); [now apply rnd_mono|]. apply generic_format_bpow. vm_compute. discriminate. }
  destruct (of_Z_correct n ltac:(lia)) as [En Fn]. destruct (of_Z_correct k ltac:(lia)) as [Ek Fk]. destruct (of_Z_correct 2 ltac:(lia)) as [E2 F2].
  assert (N1 : 1 <= IZR n) by (apply IZR_le; lia). assert (N49 : IZR n <= IZR (2 ^ 49)) by (apply IZR_le; lia).
  assert (K0 : 0 <= IZR k) by (apply IZR_le; lia). assert (Kn : IZR k <= IZR n - 1) by (rewrite <- minus_IZR; apply IZR_le; lia).
  assert (Nb : IZR n <= bpow radix2 49) by (rewrite <- IZR_Zpower by lia; exact N49).
  assert (Ne : eps * IZR n <= / 16).
  { apply Rle_trans with (eps * bpow radix2 49); [apply Rmult_le_compat_l; lra|]. unfold eps. rewrite <- bpow_plus. cbn. lra. }
  (* size *)
  assert (Qn : B2R B / IZR n <= B2R B).
  { apply Rmult_le_reg_r with (IZR n); [lra|]. unfold Rdiv. rewrite Rmult_assoc, Rinv_l by lra. nra. }
  assert (Q9 : bpow radix2 (-949) <= B2R B / IZR n).
  { apply Rmult_le_reg_r with (IZR n); [lra|]. unfold Rdiv. rewrite Rmult_assoc, Rinv_l by lra.
    apply Rle_trans with (bpow radix2 (-949) * bpow radix2 49); [apply Rmult_le_compat_l; [apply bpow_ge_0 | exact Nb]|].
    rewrite <- bpow_plus. change (-949 + 49)%Z with (-900)%Z. lra. }
  assert (P949 := bpow_gt_0 radix2 (-949)).
  destruct (div_R B (f64_of_Z n) Fb ltac:(rewrite En; lra)) as [Fh' Eh]; [rewrite En; apply (below_lt B); lra|].
  rewrite En in Eh. destruct (rnd_rel (B2R B / IZR n)) as [e2 [He2 E2']].
  { rewrite Rabs_pos_eq by lra. apply Rle_trans with (2 := Q9). apply bpow_le. lia. }
  assert (G2 := factor _ He2). set (h := Bdiv mode_NE B (f64_of_Z n)) in *. rewrite E2' in Eh.
  assert (H951 : bpow radix2 (-951) <= B2R h).
  { rewrite Eh. apply Rle_trans with (bpow radix2 (-949) * / 4).
    - replace (-951)%Z with (-949 + -2)%Z by lia. rewrite bpow_plus. change (bpow radix2 (-2)) with (/ 4). lra.
    - apply Rmult_le_compat; lra. }
  assert (P951 := bpow_gt_0 radix2 (-951)).
  assert (EB : B2R B / IZR n * IZR n = B2R B) by (field; lra).
  set (X := B2R B / IZR n) in *.
  (* k * size *)
  assert (KhB : IZR k * B2R h <= B2R B).
  { rewrite Eh. assert (IZR k * (1 + e2) <= IZR n) by nra. nra. }
  assert (Kh0 : 0 <= IZR k * B2R h) by (apply Rmult_le_pos; lra).
  destruct (mul_R (f64_of_Z k) h Fk Fh') as [Fkh Ekh]; [rewrite Ek; apply (below_lt B); lra|]. rewrite Ek in Ekh.
  assert (R3 : exists e3, Rabs e3 <= eps /\ rnd (IZR k * B2R h) = IZR k * B2R h * (1 + e3)).
  { destruct (Z.eq_dec k 0) as [->|Nk].
    - exists 0. rewrite Rabs_R0. split; [lra|]. rewrite !Rmult_0_l. apply rnd_0.
    - apply rnd_rel. assert (1 <= IZR k) by (apply IZR_le; lia). rewrite Rabs_pos_eq by lra.
      apply Rle_trans with (bpow radix2 (-951)); [apply bpow_le; lia|]. nra. }
  destruct R3 as [e3 [He3 E3]]. assert (G3 := factor _ He3). rewrite E3 in Ekh.
  (* size / 2 *)
  assert (HB : B2R h <= B2R B) by (rewrite Eh, <- E2', <- (rnd_fmt (B2R B)) at 1 by apply fmt_B2R; apply rnd_mono; lra).
  destruct (div_R h (f64_of_Z 2) Fh' ltac:(rewrite E2; lra)) as [Fh2 Eh2]; [rewrite E2; apply (below_lt B); lra|]. rewrite E2 in Eh2.
  destruct (rnd_rel (B2R h / 2)) as [e4 [He4 E4]].
  { rewrite Rabs_pos_eq by lra. apply Rle_trans with (bpow radix2 (-951) / 2); [|lra].
    apply Rle_trans with (bpow radix2 (-952)); [apply bpow_le; lia|]. replace (-952)%Z with (-951 + -1)%Z by lia. rewrite bpow_plus. change (bpow radix2 (-1)) with (/ 2). lra. }
  assert (G4 := factor _ He4). rewrite E4 in Eh2.
  set (kh := Bmult mode_NE (f64_of_Z k) h) in *. set (h2 := Bdiv mode_NE h (f64_of_Z 2)) in *.
  (* their sum *)
  assert (S1 : B2R kh + B2R h2 = X * ((1 + e2) * (IZR k * (1 + e3) + (1 + e4) / 2))) by (rewrite Ekh, Eh2, Eh; field).
  assert (S2 : 0 <= (1 + e2) * (IZR k * (1 + e3) + (1 + e4) / 2) <= IZR n).
  { split; [apply Rmult_le_pos; nra|].
    assert (C1 : IZR k * (1 + e3) + (1 + e4) / 2 <= (1 + eps) * (IZR n - / 2)) by nra.
    apply Rle_trans with ((1 + eps) * ((1 + eps) * (IZR n - / 2))); [apply Rmult_le_compat; nra|]. nra. }
  assert (S3 : 0 <= B2R kh + B2R h2 <= B2R B) by (rewrite S1; nra).
  destruct (add_R kh h2 Fkh Fh2) as [Fs Es]; [now apply (below_lt B)|].
  destruct (rnd_sum (B2R kh) (B2R h2) (fmt_B2R _) (fmt_B2R _)) as [e5 [He5 E5]]. assert (G5 := factor _ He5). rewrite E5, S1 in Es.
  set (s := Bplus mode_NE kh h2) in *.
  assert (Fa := factors_s eps (1 + e1) (1 + e2) (1 + e5) (1 + e3) (1 + e4) (IZR k) ltac:(lra) K0 G1 G2 G3 G4 G5).
  set (S := (IZR k + / 2) * (b / IZR n)).
  assert (Hb : 0 < b) by lra. assert (Hbn : 0 < b / IZR n) by (apply Rdiv_lt_0_compat; lra).
  assert (Es' : B2R s = b / IZR n * ((1 + e1) * (1 + e2) * (1 + e5) * (IZR k * (1 + e3) + (1 + e4) / 2))).
  { rewrite Es. unfold X. rewrite Eb, E1. fold b. field. lra. }
  assert (SS : (1 - 5 * eps) * S <= B2R s <= (1 + 5 * eps) * S) by (rewrite Es'; unfold S; nra).
  assert (Sb : S <= (IZR n - / 2) * (b / IZR n)) by (unfold S; nra).
  assert (Enb : IZR n * (b / IZR n) = b) by (field; lra).
  assert (S0 : 0 <= S) by (unfold S; apply Rmult_le_pos; lra).
  assert (Sle : B2R s <= b).
  { apply Rle_trans with (1 := proj2 SS). apply Rle_trans with ((1 + 5 * eps) * ((IZR n - / 2) * (b / IZR n))); [apply Rmult_le_compat_l; lra|].
    apply Rle_trans with (IZR n * (b / IZR n)); [|lra].
    rewrite <- Rmult_assoc. apply Rmult_le_compat_r; [lra|]. nra. }
  assert (Sge : 0 <= B2R s) by (apply Rle_trans with (2 := proj1 SS); apply Rmult_le_pos; lra).
  assert (Rg : B2R lo <= B2R s + B2R lo <= B2R hi) by (unfold b in *; lra).
  assert (Rr := rnd_between lo hi _ Rg).
  destruct (add_R s lo Fs Fl) as [Fc Ec]; [exact (between_lt lo hi _ Rr)|].
  split; [exact Fc|]. rewrite Ec. split; [exact Rr|].
  destruct (rnd_sum (B2R s) (B2R lo) (fmt_B2R _) (fmt_B2R _)) as [e6 [He6 E6]]. rewrite E6.
  replace ((B2R s + B2R lo) * (1 + e6) - (B2R lo + S)) with ((B2R s - S) + e6 * (B2R s + B2R lo)) by ring.
  apply Rle_trans with (1 := Rabs_triang _ _). apply Rplus_le_compat.
  - assert (S <= b) by (rewrite <- Enb; apply Rle_trans with (1 := Sb); apply Rmult_le_compat_r; lra).
    assert (eps * S <= eps * b) by (apply Rmult_le_compat_l; lra). apply Rabs_le. lra.
  - rewrite Rabs_mult. apply Rmult_le_compat; [apply Rabs_pos | apply Rabs_pos | exact He6|].
    assert (A1 := Rle_abs (B2R hi)). assert (A2 := Rle_abs (- B2R lo)). rewrite Rabs_Ropp in A2. assert (A3 := Rabs_pos (B2R lo)). assert (A4 := Rabs_pos (B2R hi)).
    apply Rabs_le. lra.
Qed.
