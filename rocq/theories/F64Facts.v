(** * Facts about IEEE doubles (proofs only). *)
From Coq Require Import Reals ZArith NArith Lia Lra Psatz.
From Flocq Require Import Core.Core Plus_error IEEE754.BinarySingleNaN.
From Verif Require Import Base Num.

Local Open Scope R_scope.

Notation fexp64 := (SpecFloat.fexp 53 1024).
Definition rnd (x : R) : R := round radix2 fexp64 ZnearestE x.
Notation M64 := (bpow radix2 1024).

Lemma rnd_mono x y : x <= y -> rnd x <= rnd y.
Proof. intros H. apply round_le; [apply (fexp_correct 53 1024), f64_prec | typeclasses eauto | exact H]. Qed.

Lemma rnd_0 : rnd 0 = 0.
Proof. apply round_0. typeclasses eauto. Qed.

Lemma rnd_nonneg x : 0 <= x -> 0 <= rnd x.
Proof. intros H. rewrite <- rnd_0. now apply rnd_mono. Qed.

Lemma fmt_B2R (x : f64) : generic_format radix2 fexp64 (B2R x).
Proof. apply generic_format_B2R. Qed.

Lemma rnd_fmt x : generic_format radix2 fexp64 x -> rnd x = x.
Proof. intros H. apply round_generic; [typeclasses eauto | exact H]. Qed.

Lemma fmt_int (z : Z) : (Z.abs z <= 2 ^ 53)%Z -> generic_format radix2 fexp64 (IZR z).
Proof.
  intros H.
  assert (D : (Z.abs z < 2 ^ 53 \/ z = 2 ^ 53 \/ z = - 2 ^ 53)%Z) by lia.
  assert (P : generic_format radix2 fexp64 (bpow radix2 53)).
  { apply generic_format_bpow. vm_compute. discriminate. }
  destruct D as [D|[-> | ->]].
  - replace (IZR z) with (F2R (Float radix2 z 0)) by (unfold F2R; cbn; lra).
    change fexp64 with (FLT_exp (-1074) 53).
    apply generic_format_FLT. exists (Float radix2 z 0); [reflexivity| exact D | easy].
  - change (IZR (2 ^ 53)) with (IZR (Zpower radix2 53)). rewrite IZR_Zpower by lia. exact P.
  - rewrite opp_IZR. change (IZR (2 ^ 53)) with (IZR (Zpower radix2 53)).
    rewrite IZR_Zpower by lia. now apply generic_format_opp.
Qed.

Lemma M64_big : IZR (2 ^ 53) < M64.
Proof.
  change (IZR (2 ^ 53)) with (IZR (Zpower radix2 53)). rewrite IZR_Zpower by lia.
  apply bpow_lt. lia.
Qed.

Lemma of_Z_correct (z : Z) : (Z.abs z <= 2 ^ 53)%Z ->
  B2R (f64_of_Z z) = IZR z /\ is_finite (f64_of_Z z) = true.
Proof.
  intros H. unfold f64_of_Z.
  generalize (binary_normalize_correct 53 1024 _ _ mode_NE z 0 false). cbv zeta.
  replace (F2R (Float radix2 z 0)) with (IZR z) by (unfold F2R; cbn; lra).
  rewrite round_generic; [|typeclasses eauto | now apply fmt_int].
  rewrite Rlt_bool_true; [tauto|].
  apply Rle_lt_trans with (IZR (2 ^ 53)); [|apply M64_big].
  rewrite <- abs_IZR. now apply IZR_le.
Qed.

Lemma Ztrunc_of_Btrunc (x : f64) : Btrunc x = Ztrunc (B2R x).
Proof.
  apply eq_IZR. rewrite Btrunc_correct by reflexivity.
  unfold round, scaled_mantissa, cexp, FIX_exp, F2R. cbn.
  now rewrite !Rmult_1_r.
Qed.

Lemma to_usize_finite (x : f64) : is_finite x = true ->
  f64_to_usize x = Z.to_N (Z.min usize_max (Ztrunc (B2R x))).
Proof. destruct x as [s|s| |s m e H]; try discriminate; intros _; unfold f64_to_usize; now rewrite Ztrunc_of_Btrunc. Qed.

(** Comparison of finite floats is comparison of reals. *)
Lemma Bleb_R (x y : f64) : is_finite x = true -> is_finite y = true ->
  (Bleb x y = true <-> B2R x <= B2R y).
Proof. intros Hx Hy. rewrite Bleb_correct by assumption. case Rle_bool_spec; intuition (try discriminate; lra). Qed.
Lemma Bltb_R (x y : f64) : is_finite x = true -> is_finite y = true ->
  (Bltb x y = true <-> B2R x < B2R y).
Proof. intros Hx Hy. rewrite Bltb_correct by assumption. case Rlt_bool_spec; intuition (try discriminate; lra). Qed.
Lemma Beqb_R (x y : f64) : is_finite x = true -> is_finite y = true ->
  (Beqb x y = true <-> B2R x = B2R y).
Proof. intros Hx Hy. rewrite Beqb_correct by assumption. case Req_bool_spec; intuition (try discriminate; lra). Qed.

Lemma minus_cases (x y : f64) : is_finite x = true -> is_finite y = true -> B2R y <= B2R x ->
  (rnd (B2R x - B2R y) < M64 /\ is_finite (Bminus mode_NE x y) = true /\
     B2R (Bminus mode_NE x y) = rnd (B2R x - B2R y)) \/
  (M64 <= rnd (B2R x - B2R y) /\ Bminus mode_NE x y = B754_infinity false).
Proof.
  intros Fx Fy Hle.
  assert (H0 : 0 <= rnd (B2R x - B2R y)) by (apply rnd_nonneg; lra).
  generalize (Bminus_correct 53 1024 _ _ mode_NE x y Fx Fy).
  change (round radix2 fexp64 (round_mode mode_NE) (B2R x - B2R y)) with (rnd (B2R x - B2R y)).
  rewrite (Rabs_pos_eq _ H0).
  case Rlt_bool_spec; intros Hlt.
  - intros [H1 [H2 _]]. left. auto.
  - intros [H1 H2]. right. split; [exact Hlt|].
    (* sign: x - y >= M64 > 0 so x is positive *)
    assert (Hs : Bsign x = false).
    { destruct (Bsign x) eqn:Sx; [|reflexivity]. exfalso.
      assert (Sy : Bsign y = false) by (destruct (Bsign y); cbn in H2; congruence).
      assert (X : B2R x <= 0).
      { destruct x as [s|s| |s m e Hb]; cbn in *; try lra; try discriminate.
        subst s. apply F2R_le_0. cbn. lia. }
      assert (Y : 0 <= B2R y).
      { destruct y as [s|s| |s m e Hb]; cbn in *; try lra; try discriminate.
        subst s. apply F2R_ge_0. cbn. lia. }
      assert (Z : B2R x - B2R y = 0) by lra.
      rewrite Z, rnd_0 in Hlt. generalize (bpow_gt_0 radix2 1024). lra. }
    rewrite Hs in H1. unfold binary_overflow in H1. cbn in H1.
    destruct (Bminus mode_NE x y) as [s|s| |s m e Hb]; cbn in H1; try discriminate.
    now injection H1 as ->.
Qed.

Lemma rnd_1 : rnd 1 = 1.
Proof. apply rnd_fmt. apply (fmt_int 1). lia. Qed.

Lemma M64_gt1 : 1 < M64.
Proof. apply Rle_lt_trans with (IZR (2 ^ 53)); [apply IZR_le; lia | apply M64_big]. Qed.

Lemma div_unit (x y : f64) : is_finite x = true -> 0 <= B2R x <= B2R y -> 0 < B2R y ->
  is_finite (Bdiv mode_NE x y) = true /\ B2R (Bdiv mode_NE x y) = rnd (B2R x / B2R y) /\
  0 <= rnd (B2R x / B2R y) <= 1.
Proof.
  intros Fx Hx Hy.
  assert (Q : 0 <= B2R x / B2R y <= 1).
  { split; [apply Rmult_le_pos; [lra | apply Rlt_le, Rinv_0_lt_compat; lra]|].
    apply Rmult_le_reg_r with (B2R y); [lra|]. unfold Rdiv. rewrite Rmult_assoc, Rinv_l by lra. lra. }
  assert (Q' : 0 <= rnd (B2R x / B2R y) <= 1).
  { split; [now apply rnd_nonneg|]. rewrite <- rnd_1. now apply rnd_mono. }
  generalize (Bdiv_correct 53 1024 _ _ mode_NE x y ltac:(lra)).
  change (round radix2 fexp64 (round_mode mode_NE) (B2R x / B2R y)) with (rnd (B2R x / B2R y)).
  rewrite Rabs_pos_eq by lra.
  rewrite Rlt_bool_true by (generalize M64_gt1; lra).
  intros [H1 [H2 _]]. now rewrite H2.
Qed.

Lemma mul_unit (x y : f64) (n : Z) : is_finite x = true -> is_finite y = true ->
  0 <= B2R x <= 1 -> B2R y = IZR n -> (0 <= n <= 2 ^ 53)%Z ->
  is_finite (Bmult mode_NE x y) = true /\ B2R (Bmult mode_NE x y) = rnd (B2R x * IZR n) /\
  0 <= rnd (B2R x * IZR n) <= IZR n.
Proof.
  intros Fx Fy Hx Hy Hn.
  assert (N0 : 0 <= IZR n) by (apply IZR_le; lia).
  assert (Q : 0 <= B2R x * IZR n <= IZR n) by nra.
  assert (Q' : 0 <= rnd (B2R x * IZR n) <= IZR n).
  { split; [now apply rnd_nonneg|].
    apply Rle_trans with (rnd (IZR n)); [now apply rnd_mono|].
    rewrite rnd_fmt; [lra | apply fmt_int; lia]. }
  generalize (Bmult_correct 53 1024 _ _ mode_NE x y). rewrite Hy.
  change (round radix2 fexp64 (round_mode mode_NE) (B2R x * IZR n)) with (rnd (B2R x * IZR n)).
  rewrite Rabs_pos_eq by lra.
  rewrite Rlt_bool_true.
  - intros [H1 [H2 _]]. rewrite H2, Fx, Fy. auto.
  - apply Rle_lt_trans with (IZR (2 ^ 53)); [|apply M64_big].
    apply Rle_trans with (IZR n); [lra | apply IZR_le; lia].
Qed.

(** ** The normalised coordinate [(p - lo) / (hi - lo) * n'] as a cell number. *)
Definition axis_index (lo hi p : f64) (n : Z) : N :=
  f64_to_usize (Bmult mode_NE (Bdiv mode_NE (Bminus mode_NE p lo) (Bminus mode_NE hi lo)) (f64_of_Z n)).

(** The real-number formula it computes when nothing overflows. *)
Definition axis_real (lo hi p : R) (n : Z) : R :=
  rnd (rnd (rnd (p - lo) / rnd (hi - lo)) * IZR n).

Lemma Bleb_not_nan_l (x y : f64) : Bleb x y = true -> is_nan x = false.
Proof. now destruct x. Qed.
Lemma Bleb_not_nan_r (x y : f64) : Bleb x y = true -> is_nan y = false.
Proof. destruct x as [|[|]| |], y as [|[|]| |]; easy. Qed.

Lemma usize_zero_or_nan (x : f64) :
  (x = B754_nan \/ exists s, x = B754_zero s) -> f64_to_usize x = 0%N.
Proof. intros [-> | [s ->]]; reflexivity. Qed.

Lemma mul_zero_nan (x y : f64) : is_finite y = true ->
  (x = B754_nan \/ exists s, x = B754_zero s) ->
  (Bmult mode_NE x y = B754_nan \/ exists s, Bmult mode_NE x y = B754_zero s).
Proof.
  intros Fy [-> | [s ->]]; [left; reflexivity|].
  destruct y as [s'|s'| |s' m e H]; try discriminate; right; cbn; eauto.
Qed.

Lemma div_inf_inf (x : f64) (s : bool) : is_finite x = true \/ is_nan x = true \/ (exists b, x = B754_infinity b) ->
  (Bdiv mode_NE x (B754_infinity s) = B754_nan \/ exists s', Bdiv mode_NE x (B754_infinity s) = B754_zero s').
Proof. intros _. destruct x as [s'|s'| |s' m e H]; cbn; eauto. Qed.

Lemma axis_index_deg_inf lo hi p n s : (0 <= n <= 2 ^ 53)%Z ->
  Bminus mode_NE hi lo = B754_infinity s -> axis_index lo hi p n = 0%N.
Proof.
  intros Hn E. unfold axis_index. rewrite E. apply usize_zero_or_nan, mul_zero_nan.
  - apply of_Z_correct. lia.
  - destruct (Bminus mode_NE p lo) as [s'|s'| |s' m e H]; cbn; eauto.
Qed.
Lemma axis_index_deg_nan lo hi p n :
  Bminus mode_NE hi lo = B754_nan -> axis_index lo hi p n = 0%N.
Proof.
  intros E. unfold axis_index. rewrite E.
  replace (Bdiv mode_NE (Bminus mode_NE p lo) B754_nan) with (B754_nan : f64)
    by (destruct (Bminus mode_NE p lo); reflexivity).
  reflexivity.
Qed.

Lemma axis_index_cases (lo hi : f64) (n : Z) : (0 <= n <= 2 ^ 53)%Z -> Bleb lo hi = true ->
  (forall p, Bleb lo p = true -> Bleb p hi = true -> axis_index lo hi p n = 0%N) \/
  (is_finite lo = true /\ is_finite hi = true /\ 0 < rnd (B2R hi - B2R lo) /\
   forall p, Bleb lo p = true -> Bleb p hi = true ->
     is_finite p = true /\ B2R lo <= B2R p <= B2R hi /\
     0 <= axis_real (B2R lo) (B2R hi) (B2R p) n <= IZR n /\
     axis_index lo hi p n = Z.to_N (Ztrunc (axis_real (B2R lo) (B2R hi) (B2R p) n))).
Proof.
  intros Hn Hlh.
  destruct (of_Z_correct n ltac:(lia)) as [On Fn].
  destruct (is_finite lo) eqn:Flo.
  2:{ left. intros p H1 H2. destruct lo as [s|s| |s m e Hb]; try discriminate.
      assert (hi = B754_nan -> False) by (intros ->; discriminate).
      destruct s.
      - (* lo = -inf *) destruct hi as [s'|[|]| |s' m' e' Hb']; try (elim H; reflexivity);
          try (eapply axis_index_deg_inf; [lia | reflexivity]).
        apply axis_index_deg_nan. reflexivity.
      - destruct hi as [s'|[|]| |s' m' e' Hb']; try discriminate.
        apply axis_index_deg_nan. reflexivity. }
  destruct (is_finite hi) eqn:Fhi.
  2:{ left. intros p H1 H2.
      destruct hi as [s|[|]| |s m e Hb]; try discriminate.
      - destruct lo as [s'|[|]| |s' m' e' Hb']; discriminate.
      - eapply axis_index_deg_inf; [lia |].
        destruct lo as [s'|[|]| |s' m' e' Hb']; try discriminate; reflexivity.
      - destruct lo as [s'|[|]| |s' m' e' Hb']; discriminate. }
  assert (Rlh : B2R lo <= B2R hi) by (now apply Bleb_R).
  destruct (minus_cases hi lo Fhi Flo Rlh) as [[Hov [FB EB]] | [Hov E]].
  2:{ left. intros p _ _. eapply axis_index_deg_inf; [lia | exact E]. }
  assert (B0 : 0 <= rnd (B2R hi - B2R lo)) by (apply rnd_nonneg; lra).
  assert (FP : forall p, Bleb lo p = true -> Bleb p hi = true ->
            is_finite p = true /\ B2R lo <= B2R p <= B2R hi).
  { intros p H1 H2.
    assert (Fp : is_finite p = true).
    { destruct p as [s|[|]| |s m e Hb]; try reflexivity;
      destruct lo as [s'|[|]| |s' m' e' Hb']; try discriminate;
      destruct hi as [s''|[|]| |s'' m'' e'' Hb'']; try discriminate. }
    split; [exact Fp|]. split; [now apply Bleb_R | now apply Bleb_R]. }
  assert (A : forall p, Bleb lo p = true -> Bleb p hi = true ->
     is_finite (Bminus mode_NE p lo) = true /\ B2R (Bminus mode_NE p lo) = rnd (B2R p - B2R lo) /\
     0 <= rnd (B2R p - B2R lo) <= rnd (B2R hi - B2R lo)).
  { intros p H1 H2. destruct (FP p H1 H2) as [Fp Rp].
    assert (L : 0 <= rnd (B2R p - B2R lo) <= rnd (B2R hi - B2R lo)).
    { split; [apply rnd_nonneg; lra | apply rnd_mono; lra]. }
    destruct (minus_cases p lo Fp Flo ltac:(lra)) as [[_ [X Y]] | [X _]]; [auto | lra]. }
  destruct (Rle_lt_or_eq_dec _ _ B0) as [Bpos | Bz].
  - right. repeat split; try assumption; try lra.
    + now apply FP.
    + now apply FP.
    + now apply FP.
    + destruct (FP p H H0) as [Fp Rp]. destruct (A p H H0) as [FA [EA RA]].
      apply rnd_nonneg. apply Rmult_le_pos; [|apply IZR_le; lia].
      apply rnd_nonneg. apply Rmult_le_pos; [lra|]. now apply Rlt_le, Rinv_0_lt_compat.
    + destruct (FP p H H0) as [Fp Rp]. destruct (A p H H0) as [FA [EA RA]].
      destruct (div_unit (Bminus mode_NE p lo) (Bminus mode_NE hi lo) FA) as [FD [ED RD]];
        [rewrite EA, EB; lra | rewrite EB; lra|].
      rewrite EA, EB in ED, RD.
      destruct (mul_unit _ _ n FD Fn) as [FM [EM RM]]; [rewrite ED; lra | exact On | lia|].
      rewrite ED in RM. exact (proj2 RM).
    + destruct (FP p H H0) as [Fp Rp]. destruct (A p H H0) as [FA [EA RA]].
      destruct (div_unit (Bminus mode_NE p lo) (Bminus mode_NE hi lo) FA) as [FD [ED RD]];
        [rewrite EA, EB; lra | rewrite EB; lra|].
      rewrite EA, EB in ED, RD.
      destruct (mul_unit _ _ n FD Fn) as [FM [EM RM]]; [rewrite ED; lra | exact On | lia|].
      unfold axis_index. rewrite to_usize_finite by exact FM. rewrite EM, ED.
      fold (axis_real (B2R lo) (B2R hi) (B2R p) n).
      rewrite Z.min_r; [reflexivity|].
      apply Z.le_trans with n; [|unfold usize_max; lia].
      rewrite ED in RM. fold (axis_real (B2R lo) (B2R hi) (B2R p) n) in RM.
      rewrite Ztrunc_floor by lra.
      apply le_IZR. apply Rle_trans with (2 := proj2 RM). apply Zfloor_lb.
  - left. intros p H1 H2. destruct (A p H1 H2) as [FA [EA RA]].
    unfold axis_index. apply usize_zero_or_nan, mul_zero_nan; [exact Fn|].
    assert (ZA : B2R (Bminus mode_NE p lo) = 0) by lra.
    assert (ZB : B2R (Bminus mode_NE hi lo) = 0) by lra.
    destruct (Bminus mode_NE p lo) as [s|s| |s m e Hb]; try discriminate.
    2:{ exfalso. revert ZA. apply (F2R_neq_0 radix2 (Float radix2 (cond_Zopp s (Zpos m)) e)). cbn. now destruct s. }
    destruct (Bminus mode_NE hi lo) as [s'|s'| |s' m' e' Hb']; try discriminate.
    2:{ exfalso. revert ZB. apply (F2R_neq_0 radix2 (Float radix2 (cond_Zopp s' (Zpos m')) e')). cbn. now destruct s'. }
    left. reflexivity.
Qed.

Lemma axis_index_bound lo hi p n : (0 <= n <= 2 ^ 53)%Z ->
  Bleb lo p = true -> Bleb p hi = true -> Bleb lo hi = true ->
  (Z.of_N (axis_index lo hi p n) <= n)%Z.
Proof.
  intros Hn H1 H2 H3.
  destruct (axis_index_cases lo hi n Hn H3) as [D | [_ [_ [_ D]]]].
  - rewrite D by assumption. cbn. lia.
  - destruct (D p H1 H2) as [_ [_ [L ->]]].
    rewrite Ztrunc_floor by lra.
    assert (0 <= Zfloor (axis_real (B2R lo) (B2R hi) (B2R p) n))%Z.
    { apply Zfloor_lub. cbn. lra. }
    rewrite Z2N.id by assumption.
    apply le_IZR. apply Rle_trans with (2 := proj2 L). apply Zfloor_lb.
Qed.

Lemma Bleb_trans (x y z : f64) : Bleb x y = true -> Bleb y z = true -> Bleb x z = true.
Proof.
  intros H1 H2.
  destruct (is_finite x) eqn:Fx, (is_finite y) eqn:Fy, (is_finite z) eqn:Fz.
  1: { apply Bleb_R in H1; try assumption. apply Bleb_R in H2; try assumption.
    apply Bleb_R; try assumption. lra. }
  all: destruct z as [s|[|]| |s m e Hb]; try discriminate Fz;
    destruct y as [s'|[|]| |s' m' e' Hb']; try discriminate;
    destruct x as [s''|[|]| |s'' m'' e'' Hb'']; try discriminate; reflexivity.
Qed.

Lemma axis_index_mono lo hi p q n : (0 <= n <= 2 ^ 53)%Z ->
  Bleb lo p = true -> Bleb p q = true -> Bleb q hi = true ->
  (axis_index lo hi p n <= axis_index lo hi q n)%N.
Proof.
  intros Hn H1 H2 H3.
  assert (H12 : Bleb lo q = true) by (eapply Bleb_trans; eauto).
  assert (H23 : Bleb p hi = true) by (eapply Bleb_trans; eauto).
  assert (H4 : Bleb lo hi = true) by (eapply Bleb_trans; eauto).
  destruct (axis_index_cases lo hi n Hn H4) as [D | [Fl [Fh [Bp D]]]].
  - rewrite !D by assumption. lia.
  - destruct (D p H1 H23) as [Fp [Rp [Lp ->]]]. destruct (D q H12 H3) as [Fq [Rq [Lq ->]]].
    assert (Hpq : B2R p <= B2R q) by (now apply Bleb_R).
    apply N2Z.inj_le.
    assert (M : axis_real (B2R lo) (B2R hi) (B2R p) n <= axis_real (B2R lo) (B2R hi) (B2R q) n).
    { unfold axis_real. apply rnd_mono. apply Rmult_le_compat_r; [apply IZR_le; lia|].
      apply rnd_mono. apply Rmult_le_compat_r; [now apply Rlt_le, Rinv_0_lt_compat|].
      apply rnd_mono. lra. }
    apply Ztrunc_le in M.
    rewrite !Z2N.id; [exact M | |]; rewrite Ztrunc_floor by lra; apply Zfloor_lub; cbn; lra.
Qed.

(** The upper limit falls into the last cell, the lower limit into the first. *)
Lemma axis_index_hi lo hi n : (0 <= n <= 2 ^ 53)%Z ->
  is_finite lo = true -> is_finite hi = true -> Bltb lo hi = true ->
  is_finite (Bminus mode_NE hi lo) = true -> 
  Z.of_N (axis_index lo hi hi n) = n.
Proof.
  intros Hn Fl Fh Hlt FB.
  assert (Rlh : B2R lo < B2R hi) by (now apply Bltb_R).
  assert (H1 : Bleb lo hi = true) by (apply Bleb_R; try assumption; lra).
  assert (H2 : Bleb hi hi = true) by (apply Bleb_R; try assumption; lra).
  destruct (minus_cases hi lo Fh Fl ltac:(lra)) as [[Hov [_ EB]] | [_ E]]; [|rewrite E in FB; discriminate].
  assert (Bpos : 0 < rnd (B2R hi - B2R lo)).
  { assert (B0 : 0 <= rnd (B2R hi - B2R lo)) by (apply rnd_nonneg; lra).
    destruct (Rle_lt_or_eq_dec _ _ B0) as [X|X]; [exact X|].
    exfalso. symmetry in X. unfold rnd in X. revert X.
    change (round radix2 fexp64 ZnearestE (B2R hi + - B2R lo) <> 0).
    assert (V : Valid_exp fexp64) by (apply (fexp_correct 53 1024), f64_prec).
    assert (Mo : Monotone_exp fexp64) by (apply (fexp_monotone 53 1024)).
    intros X. apply (round_plus_eq_0 radix2 fexp64 ZnearestE) in X.
    - lra.
    - apply fmt_B2R.
    - apply generic_format_opp, fmt_B2R. }
  destruct (of_Z_correct n ltac:(lia)) as [On Fn].
  destruct (div_unit (Bminus mode_NE hi lo) (Bminus mode_NE hi lo) FB) as [FD [ED RD]];
    [rewrite EB; lra | rewrite EB; lra|].
  rewrite EB in ED, RD. unfold Rdiv in ED, RD. rewrite Rinv_r in ED, RD by lra.
  rewrite rnd_1 in ED, RD.
  destruct (mul_unit _ _ n FD Fn) as [FM [EM RM]]; [rewrite ED; lra | exact On | lia|].
  unfold axis_index. rewrite to_usize_finite by exact FM. rewrite EM, ED, Rmult_1_l.
  rewrite rnd_fmt by (apply fmt_int; lia). rewrite Ztrunc_IZR.
  rewrite Z.min_r by (unfold usize_max; lia). rewrite Z2N.id; lia.
Qed.
