(** * Integer division through doubles (proofs only). *)
From Coq Require Import Reals ZArith NArith Lia Lra Psatz.
From Flocq Require Import Core.Core Relative IEEE754.BinarySingleNaN.
From Verif Require Import Base Num F64Facts.
Local Open Scope R_scope.

Lemma floor_correct (x : f64) : is_finite x = true ->
  is_finite (f64_floor x) = true /\ B2R (f64_floor x) = IZR (Zfloor (B2R x)).
Proof.
  intros H. unfold f64_floor. destruct (Bnearbyint_correct 53 1024 _ mode_DN x) as [A [B _]].
  rewrite B, A. split; [exact H|]. unfold round, scaled_mantissa, cexp, FIX_exp, F2R. cbn.
  now rewrite !Rmult_1_r.
Qed.

Lemma rnd_quot_floor (a b : Z) : (0 <= a < 2 ^ 53)%Z -> (1 <= b < 2 ^ 53)%Z ->
  Zfloor (rnd (IZR a / IZR b)) = (a / b)%Z /\ 0 <= rnd (IZR a / IZR b) <= IZR a.
Proof.
  intros Ha Hb.
  assert (Pb : 0 < IZR b) by (apply IZR_lt; lia).
  assert (Pb1 : 1 <= IZR b) by (apply IZR_le; lia).
  assert (Pa : 0 <= IZR a) by (apply IZR_le; lia).
  set (q := (a / b)%Z). set (r := (a mod b)%Z).
  assert (D : a = (q * b + r)%Z) by (unfold q, r; rewrite Z.mul_comm; apply Z.div_mod; lia).
  assert (Hr : (0 <= r < b)%Z) by (apply Z.mod_pos_bound; lia).
  assert (Hq : (0 <= q <= a)%Z).
  { split; [apply Z.div_pos; lia | apply Z.div_le_upper_bound; nia]. }
  assert (X : IZR a / IZR b = IZR q + IZR r / IZR b).
  { rewrite D, plus_IZR, mult_IZR. field. lra. }
  assert (R0 : 0 <= IZR r / IZR b).
  { apply Rmult_le_pos; [apply IZR_le; lia | apply Rlt_le, Rinv_0_lt_compat; lra]. }
  assert (LE : IZR a / IZR b <= IZR a).
  { apply Rmult_le_reg_r with (IZR b); [lra|]. unfold Rdiv. rewrite Rmult_assoc, Rinv_l by lra. nra. }
  assert (B1 : 0 <= rnd (IZR a / IZR b) <= IZR a).
  { split; [apply rnd_nonneg; rewrite X; assert (0 <= IZR q) by (apply IZR_le; lia); lra|].
    rewrite <- (rnd_fmt (IZR a)) at 2 by (apply fmt_int; lia). now apply rnd_mono. }
  split; [|exact B1].
  apply Zfloor_imp. split.
  - rewrite <- (rnd_fmt (IZR q)) by (apply fmt_int; lia). apply rnd_mono. lra.
  - destruct (Z.eq_dec a 0) as [->|Na].
    + assert (Q0 : q = 0%Z) by (unfold q; apply Z.div_0_l; lia). rewrite Q0.
      unfold Rdiv. rewrite Rmult_0_l, rnd_0. cbn. lra.
    + assert (Pa1 : 1 <= IZR a) by (apply IZR_le; lia).
      assert (Q : / IZR b <= IZR a / IZR b).
      { unfold Rdiv. rewrite <- (Rmult_1_l (/ IZR b)) at 1. apply Rmult_le_compat_r; [apply Rlt_le, Rinv_0_lt_compat; lra|lra]. }
      assert (Sm : bpow radix2 (-1074 + 53 - 1) <= Rabs (IZR a / IZR b)).
      { rewrite Rabs_pos_eq by (rewrite X; assert (0 <= IZR q) by (apply IZR_le; lia); lra).
        apply Rle_trans with (2 := Q).
        apply Rle_trans with (bpow radix2 (-53)); [apply bpow_le; lia|].
        change (-53)%Z with (- (53))%Z. rewrite bpow_opp. apply Rinv_le; [lra|].
        rewrite <- IZR_Zpower by lia. apply IZR_le. change (Zpower radix2 53) with (2 ^ 53)%Z. lia. }
      assert (E := relative_error_N_FLT radix2 (-1074) 53 ltac:(lia) (fun x => negb (Z.even x)) _ Sm).
      change (round radix2 (FLT_exp (-1074) 53) (Znearest (fun x => negb (Z.even x))) (IZR a / IZR b))
        with (rnd (IZR a / IZR b)) in E.
      rewrite (Rabs_pos_eq (IZR a / IZR b)) in E by (rewrite X; assert (0 <= IZR q) by (apply IZR_le; lia); lra).
      assert (E2 : rnd (IZR a / IZR b) - IZR a / IZR b <= / 2 * bpow radix2 (- (53) + 1) * (IZR a / IZR b))
        by (apply Rle_trans with (2 := E); apply Rle_abs).
      assert (P53 : / 2 * bpow radix2 (- (53) + 1) = / IZR (2 ^ 53)).
      { change (IZR (2 ^ 53)) with (IZR (Zpower radix2 53)). rewrite IZR_Zpower by lia.
        rewrite bpow_plus, bpow_opp. cbn [bpow]. change (IZR (Z.pow_pos radix2 1)) with 2. field.
        apply IZR_neq. discriminate. }
      rewrite P53 in E2.
      assert (S : / IZR (2 ^ 53) * (IZR a / IZR b) < / IZR b).
      { assert (A53 : IZR a < IZR (2 ^ 53)) by (apply IZR_lt; lia).
        assert (I : 0 < / IZR b) by (apply Rinv_0_lt_compat; lra).
        assert (T : / IZR (2 ^ 53) * IZR a < 1).
        { apply Rmult_lt_reg_l with (IZR (2 ^ 53)); [apply IZR_lt; reflexivity|].
          rewrite <- Rmult_assoc, Rinv_r by (apply IZR_neq; discriminate). lra. }
        unfold Rdiv. rewrite <- Rmult_assoc. rewrite <- (Rmult_1_l (/ IZR b)) at 2.
        now apply Rmult_lt_compat_r. }
      assert (T : IZR r / IZR b <= 1 - / IZR b).
      { apply Rmult_le_reg_r with (IZR b); [lra|]. unfold Rdiv.
        rewrite Rmult_assoc, Rmult_minus_distr_r, !Rinv_l by lra.
        rewrite Rmult_1_r, Rmult_1_l, <- (minus_IZR b 1). apply IZR_le. lia. }
      rewrite plus_IZR. lra.
Qed.

(** [(a as f64 / b as f64).floor() as usize] is integer division below 2^53. *)
Lemma div_floor_usize (a b : Z) : (0 <= a < 2 ^ 53)%Z -> (1 <= b < 2 ^ 53)%Z ->
  f64_to_usize (f64_floor (Bdiv mode_NE (f64_of_Z a) (f64_of_Z b))) = Z.to_N (a / b).
Proof.
  intros Ha Hb.
  destruct (of_Z_correct a ltac:(lia)) as [Ra Fa]. destruct (of_Z_correct b ltac:(lia)) as [Rb Fb].
  destruct (rnd_quot_floor a b Ha Hb) as [Q [B0 B1]].
  assert (Nb : B2R (f64_of_Z b) <> 0) by (rewrite Rb; apply IZR_neq; lia).
  generalize (Bdiv_correct 53 1024 _ _ mode_NE (f64_of_Z a) (f64_of_Z b) Nb).
  rewrite Ra, Rb.
  change (round radix2 fexp64 (round_mode mode_NE) (IZR a / IZR b)) with (rnd (IZR a / IZR b)).
  rewrite Rabs_pos_eq by lra.
  rewrite Rlt_bool_true.
  2:{ apply Rle_lt_trans with (IZR (2 ^ 53)); [|apply M64_big]. apply Rle_trans with (IZR a); [lra | apply IZR_le; lia]. }
  intros [D [Fd _]]. rewrite Fa in Fd.
  destruct (floor_correct _ Fd) as [Ff Rf]. rewrite D, Q in Rf.
  rewrite to_usize_finite by exact Ff. rewrite Rf, Ztrunc_IZR.
  rewrite Z.min_r; [reflexivity|]. unfold usize_max.
  assert ((a / b <= a)%Z) by (apply Z.div_le_upper_bound; nia). lia.
Qed.
