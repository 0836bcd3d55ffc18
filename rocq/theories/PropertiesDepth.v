(** * PropertiesDepth: depth averages in doubles (C153)

    [collapse] and [collapse_two] of a grid of means, as the stored doubles: how far the result is from the exact
    weighted mean, and, for a field averaged over recorded samples, from the exact mean of all the samples in the
    cells that are averaged over. *)
From Coq Require Import String.
From Coq Require Import Reals List NArith ZArith Lia Lra Bool ZifyBool ZifyN Permutation.
From Flocq Require Import Core.Core IEEE754.BinarySingleNaN.
From Verif Require Import Base BaseFacts Num RFacts NDArray GridModel GridSpec GridFacts CartProofs F64Facts CartR GridOps GridR PropertiesGrid VecProofs SelModel PropertiesSel
  DataModel DataSpec DataLoad FunModel FunSpec FunProofs FunMgr FunField PropertiesFun FunMom FunTemp FloatErr FloatSum PropertiesMean FloatNd PlotModel VGridModel PropertiesWrap.
Import ListNotations.
Local Open Scope R_scope.

(** [v] stands for the mean X / n up to [k] units of rounding of B / n and [q] smallest errors. *)
Definition approx (k q : R) (v : f64) (X B : R) (n : Z) : Prop :=
  is_finite v = true /\ Rabs (B2R v - X / IZR n) <= k * eps * (B / IZR n) + q * eta.

Lemma map_fold {A} (f : A -> f64) l : forall a, fold_left (fun s x => Bplus mode_NE s (f x)) l a = fold_left (Bplus mode_NE) (map f l) a.
Proof. induction l as [|x l IH]; intros a; cbn; [reflexivity | apply IH]. Qed.

(** A sum of inexact terms over a count. *)
Lemma terms_err {A} (l : list A) (t : A -> f64) (X B q : A -> R) (ka : R) (n : f64) (nu : R) :
  (forall c, In c l -> is_finite (t c) = true /\ Rabs (B2R (t c) - X c) <= ka * B c + q c * eta /\ Rabs (X c) <= B c /\ 0 <= q c) ->
  0 <= ka <= / 4 -> (Z.of_nat (length l) <= 2 ^ 48)%Z -> Rsum (map B l) <= bpow radix2 990 -> Rsum (map q l) * eta <= 1 -> B2R n = nu -> / 2 <= nu ->
  let r := Bdiv mode_NE (fold_left (Bplus mode_NE) (map t l) (f64_of_Z 0)) n in
  is_finite r = true /\
  Rabs (B2R r - Rsum (map X l) / nu) <=
    (ka + (3 * INR (length l) + 2) * eps) * (Rsum (map B l) / nu) + (2 * Rsum (map q l) / nu + 1) * eta.
Proof.
  intros H Hk Hl HB HQ En HN r.
  set (SX := Rsum (map X l)). set (SB := Rsum (map B l)) in *. set (Q := Rsum (map q l)) in *.
  assert (P := eps_pos). assert (Pe := eta_pos). assert (Le := eps_le).
  assert (B0 : forall c, In c l -> 0 <= B c) by (intros c Hc; destruct (H c Hc) as [_ [_ [Hx _]]]; assert (Y := Rabs_pos (X c)); lra).
  assert (SB0 : 0 <= SB) by (apply Rsum_nonneg; exact B0).
  assert (Q0 : 0 <= Q) by (apply Rsum_nonneg; intros c Hc; apply (H c Hc)).
  assert (XB : Rabs SX <= SB) by (apply Rabs_Rsum_le; intros c Hc; apply (H c Hc)).
  set (T := Rsum (map (fun c => B2R (t c)) l)). set (TA := Rsum (map (fun c => Rabs (B2R (t c))) l)).
  assert (E1 : Rabs (T - SX) <= ka * SB + Q * eta).
  { replace (T - SX) with (Rsum (map (fun c => B2R (t c) - X c) l)).
    - replace (ka * SB + Q * eta) with (Rsum (map (fun c => ka * B c + q c * eta) l)).
      + apply Rabs_Rsum_le. intros c Hc. apply (H c Hc).
      + rewrite (Rsum_map_plus (fun c => ka * B c) (fun c => q c * eta)), Rsum_map_scal. f_equal. unfold Q. rewrite Rmult_comm, <- Rsum_map_scal. apply Rsum_ext. intros; ring.
    - unfold T, SX. replace (Rsum (map X l)) with (- Rsum (map (fun c => -1 * X c) l)) by (rewrite Rsum_map_scal; ring).
      unfold Rminus. rewrite Ropp_involutive, <- Rsum_map_plus. apply Rsum_ext. intros; ring. }
  assert (E2 : TA <= 5 / 4 * SB + Q * eta).
  { replace (5 / 4 * SB + Q * eta) with (Rsum (map (fun c => 5 / 4 * B c + q c * eta) l)).
    - apply Rsum_le. intros c Hc. destruct (H c Hc) as [_ [U [V _]]]. specialize (B0 c Hc).
      replace (B2R (t c)) with ((B2R (t c) - X c) + X c) by ring. apply Rle_trans with (1 := Rabs_triang _ _).
      assert (ka * B c <= / 4 * B c) by (apply Rmult_le_compat_r; lra). lra.
    - rewrite (Rsum_map_plus (fun c => 5 / 4 * B c) (fun c => q c * eta)), Rsum_map_scal. f_equal. unfold Q. rewrite Rmult_comm, <- Rsum_map_scal. apply Rsum_ext. intros; ring. }
  assert (Big : 5 / 4 * SB + Q * eta <= bpow radix2 1000).
  { assert (1 <= bpow radix2 990) by (change 1 with (bpow radix2 0); apply bpow_le; lia).
    replace 1000%Z with (10 + 990)%Z by lia. rewrite bpow_plus. change (bpow radix2 10) with 1024. lra. }
  destruct (sum_err (map t l)) as [Fs Es].
  { apply Forall_forall. intros y Hy. apply in_map_iff in Hy as [c [<- Hc]]. apply (H c Hc). }
  { rewrite map_length. lia. }
  { rewrite map_map. apply Rle_trans with (1 := E2). apply Rle_trans with (1 := Big). apply bpow_le. lia. }
  rewrite !map_map, map_length in Es. fold T TA in Es. unfold r. set (s := fold_left (Bplus mode_NE) (map t l) (f64_of_Z 0)) in *.
  rewrite <- INR_IZR_INZ in Es. set (m := INR (length l)) in *.
  assert (m0 : 0 <= m) by apply pos_INR.
  assert (me : m * eps <= / 32).
  { apply Rle_trans with (IZR (2 ^ 48) * eps); [apply Rmult_le_compat_r; [lra | unfold m; rewrite INR_IZR_INZ; apply IZR_le; exact Hl]|].
    rewrite eps_val. change (IZR (2 ^ 48)) with 281474976710656. lra. }
  assert (E3 : Rabs (B2R s - SX) <= (ka + 5 / 2 * m * eps) * SB + 9 / 8 * (Q * eta)).
  { replace (B2R s - SX) with ((B2R s - T) + (T - SX)) by ring. apply Rle_trans with (1 := Rabs_triang _ _).
    assert (2 * m * eps * TA <= 2 * m * eps * (5 / 4 * SB + Q * eta)) by (apply Rmult_le_compat_l; [|exact E2]; assert (0 <= m * eps) by (apply Rmult_le_pos; lra); lra).
    assert (m * eps * (Q * eta) <= / 32 * (Q * eta)) by (apply Rmult_le_compat_r; [apply Rmult_le_pos; lra | exact me]).
    replace (2 * m * eps * (5 / 4 * SB + Q * eta)) with (5 / 2 * m * eps * SB + 2 * (m * eps * (Q * eta))) in H0 by field.
    assert (0 <= Q * eta) by (apply Rmult_le_pos; lra). lra. }
  rename HN into N1. set (n' := nu) in *. assert (In' : 0 < / n') by (apply Rinv_0_lt_compat; lra).
  assert (In1 : / n' <= 2) by (rewrite <- (Rinv_inv 2); apply Rinv_le; lra).
  assert (G0 : (ka + 5 / 2 * m * eps) * SB <= / 2 * SB) by (apply Rmult_le_compat_r; lra).
  assert (Sm : Rabs (B2R s / n') <= bpow radix2 1023).
  { unfold Rdiv. rewrite Rabs_mult, (Rabs_pos_eq (/ n')) by lra.
    assert (Rabs (B2R s) <= 3 / 2 * SB + 9 / 8 * (Q * eta)).
    { replace (B2R s) with ((B2R s - SX) + SX) by ring. apply Rle_trans with (1 := Rabs_triang _ _). lra. }
    apply Rle_trans with (Rabs (B2R s) * 2); [apply Rmult_le_compat_l; [apply Rabs_pos | exact In1]|].
    assert (0 <= Q * eta) by (apply Rmult_le_pos; lra).
    apply Rle_trans with (bpow radix2 (2 + 1000)); [rewrite bpow_plus; change (bpow radix2 2) with 4; lra | apply bpow_le; lia]. }
  destruct (div_R s n Fs) as [Fd Ed]; [rewrite En; lra | rewrite En; apply big_lt, rnd_big, Sm|].
  rewrite En in Ed. split; [exact Fd|]. rewrite Ed. destruct (rnd_ex (B2R s / n')) as [e [dd [He [Hd E]]]]. rewrite E.
  replace (B2R s / n' * (1 + e) + dd - SX / n') with ((B2R s - SX) / n' * (1 + e) + e * (SX / n') + dd) by (field; lra).
  apply Rle_trans with (1 := Rabs_triang _ _). apply Rle_trans with (Rabs ((B2R s - SX) / n' * (1 + e) + e * (SX / n')) + eta); [lra|].
  assert (G := factor _ He).
  assert (F1 : Rabs ((B2R s - SX) / n' * (1 + e) + e * (SX / n')) <= ((ka + 5 / 2 * m * eps) * SB + 9 / 8 * (Q * eta)) * / n' * (1 + eps) + eps * (SB * / n')).
  { apply Rle_trans with (1 := Rabs_triang _ _). unfold Rdiv. rewrite !Rabs_mult, (Rabs_pos_eq (/ n')) by lra. rewrite (Rabs_pos_eq (1 + e)) by lra.
    apply Rplus_le_compat.
    - apply Rmult_le_compat; [apply Rmult_le_pos; [apply Rabs_pos | lra] | lra | apply Rmult_le_compat_r; lra | lra].
    - apply Rmult_le_compat; [apply Rabs_pos | apply Rmult_le_pos; [apply Rabs_pos | lra] | exact He | apply Rmult_le_compat_r; lra]. }
  set (b := SB * / n') in *. set (u := Q * / n' * eta).
  assert (b0 : 0 <= b) by (apply Rmult_le_pos; lra). assert (u0 : 0 <= u) by (apply Rmult_le_pos; [apply Rmult_le_pos; lra | lra]).
  replace (((ka + 5 / 2 * m * eps) * SB + 9 / 8 * (Q * eta)) * / n' * (1 + eps)) with ((ka + 5 / 2 * m * eps) * b * (1 + eps) + 9 / 8 * u * (1 + eps)) in F1 by (unfold b, u; ring).
  replace (SB / n') with b by reflexivity. replace ((2 * Q / n' + 1) * eta) with (2 * u + eta) by (unfold u; field; lra).
  assert (A1 : ka * b * eps <= / 4 * (eps * b)) by (replace (ka * b * eps) with (ka * (eps * b)) by ring; apply Rmult_le_compat_r; [apply Rmult_le_pos; lra | lra]).
  assert (A2 : m * eps * b * eps <= / 32 * (eps * b)) by (replace (m * eps * b * eps) with (m * eps * (eps * b)) by ring; apply Rmult_le_compat_r; [apply Rmult_le_pos; lra | lra]).
  assert (A3 : u * eps <= / 4 * u) by (rewrite Rmult_comm; apply Rmult_le_compat_r; lra).
  assert (A4 : 0 <= m * eps * b) by (apply Rmult_le_pos; [apply Rmult_le_pos; lra | lra]).
  assert (A5 : 0 <= eps * b) by (apply Rmult_le_pos; lra).
  replace ((ka + 5 / 2 * m * eps) * b * (1 + eps)) with (ka * b + 5 / 2 * (m * eps * b) + ka * b * eps + 5 / 2 * (m * eps * b * eps)) in F1 by ring.
  replace ((ka + (3 * m + 2) * eps) * b) with (ka * b + 3 * (m * eps * b) + 2 * (eps * b)) by ring. lra.
Qed.

(** Weights that are multiples of 1 / [i]: whole numbers or halves. *)
Definition units (i : R) (w : f64) (n : Z) : Prop := is_finite w = true /\ B2R w = IZR n / i /\ (0 <= n)%Z.
Definition unit_ok (i : R) : Prop := i = 1 \/ i = 2.
Lemma whole_units w n : whole w n -> units 1 w n.
Proof. intros [F [E P]]. split; [exact F|]. split; [rewrite E; field | exact P]. Qed.
Lemma whole_halves w n : whole w n -> units 2 w (2 * n).
Proof. intros [F [E P]]. split; [exact F|]. split; [rewrite E, mult_IZR; field | lia]. Qed.
Lemma units_fmt i z : unit_ok i -> (Z.abs z <= 2 ^ 53)%Z -> rnd (IZR z / i) = IZR z / i.
Proof.
  intros [->| ->] H; apply rnd_fmt; [replace (IZR z / 1) with (IZR z) by field; now apply fmt_int|].
  destruct (Z.eq_dec (Z.abs z) (2 ^ 53)) as [E|E].
  - assert (G : generic_format radix2 fexp64 (bpow radix2 52)) by (apply generic_format_bpow; vm_compute; discriminate).
    assert (D : z = (2 ^ 53)%Z \/ z = (- 2 ^ 53)%Z) by lia. destruct D as [->| ->].
    + replace (IZR (2 ^ 53) / 2) with (bpow radix2 52) by (change (bpow radix2 52) with 4503599627370496; change (IZR (2 ^ 53)) with 9007199254740992; lra). exact G.
    + replace (IZR (- 2 ^ 53) / 2) with (- bpow radix2 52) by (change (bpow radix2 52) with 4503599627370496; change (IZR (- 2 ^ 53)) with (-9007199254740992); lra). now apply generic_format_opp.
  - apply generic_format_FLT. exists (@Float radix2 z (-1)); [unfold F2R; reflexivity | cbn [Fnum]; change (Zpower radix2 53) with (2 ^ 53)%Z; lia | cbn [Fexp]; vm_compute; discriminate].
Qed.
Lemma units_plus i x y a b : unit_ok i -> units i x a -> units i y b -> (a + b <= 2 ^ 53)%Z -> units i (Bplus mode_NE x y) (a + b).
Proof.
  intros Hi [Fx [Ex Ax]] [Fy [Ey Ay]] H.
  assert (Fm : rnd (B2R x + B2R y) = IZR (a + b) / i) by (rewrite Ex, Ey; replace (IZR a / i + IZR b / i) with (IZR (a + b) / i) by (rewrite plus_IZR; destruct Hi; subst i; field); apply units_fmt; [exact Hi | lia]).
  destruct (add_R x y Fx Fy) as [A B].
  - rewrite Fm. apply Rle_lt_trans with (IZR (2 ^ 53)); [|apply M64_big]. assert (0 <= IZR (a + b) <= IZR (2 ^ 53)) by (split; [apply (IZR_le 0) | apply IZR_le]; lia).
    rewrite Rabs_pos_eq; destruct Hi; subst i; lra.
  - rewrite Fm in B. split; [exact A|]. split; [exact B | lia].
Qed.
Lemma fold_units i l ns : unit_ok i -> Forall2 (units i) l ns -> forall x a, units i x a -> (a + zsum ns <= 2 ^ 53)%Z -> units i (fold_left (Bplus mode_NE) l x) (a + zsum ns).
Proof.
  intros Hi. induction 1 as [|y b l ns Hy H IH]; intros x a Hx S; cbn [fold_left zsum fold_right] in *; [now rewrite Z.add_0_r|]. fold (zsum ns) in *.
  assert (P : (0 <= zsum ns)%Z) by (apply zsum_pos; clear - H; induction H as [|x a l ns [_ [_ Ha]] H IH]; constructor; assumption).
  rewrite Z.add_assoc in *. apply IH; [|exact S]. apply units_plus; [exact Hi | exact Hx | exact Hy | lia].
Qed.
Lemma units_zero i : unit_ok i -> units i (f64_of_Z 0) 0.
Proof. intros Hi. destruct (of_Z_correct 0 ltac:(lia)) as [Z0 F0]. split; [exact F0|]. split; [rewrite Z0; destruct Hi; subst i; field | lia]. Qed.

(** What a cell holds: [n] samples with sum [X] and sum of sizes [B]; the stored value is their mean up to errors. *)
Definition holds (i k q : R) (v w : f64) (X B : R) (n : Z) : Prop :=
  units i w n /\ Rabs X <= B /\
  ((n = 0%Z /\ B = 0 /\ (is_nan v = true \/ is_finite v = true)) \/ ((1 <= n)%Z /\ approx k q v X B n)).

Lemma nan0_fin (v : f64) : is_nan v = true \/ is_finite v = true -> is_finite (nan0 v) = true.
Proof. intros [H|H]; destruct v; try discriminate H; reflexivity. Qed.
Lemma nan0_id (v : f64) : is_finite v = true -> nan0 v = v.
Proof. intros H. destruct v; try discriminate H; reflexivity. Qed.

(** One product of a stored mean and its weight. *)
Lemma term_err i k q (v w : f64) X B n : unit_ok i -> holds i k q v w X B n -> 0 <= k <= IZR (2 ^ 49) -> 0 <= q -> B <= bpow radix2 990 -> q * IZR n * eta <= 1 ->
  let t := Bmult mode_NE (nan0 v) w in
  is_finite t = true /\ Rabs (B2R t - X / i) <= (k + 2) * eps * (B / i) + (2 * q * (IZR n / i) + 1) * eta /\ Rabs (X / i) <= B / i /\ 0 <= 2 * q * (IZR n / i) + 1.
Proof.
  intros Hi [[Fw [Ew Wn]] [HX C]] Hk Hq HB Small t. assert (P := eps_pos). assert (Pe := eta_pos). assert (Le := eps_le).
  assert (B0 : 0 <= B) by (assert (Y := Rabs_pos X); lra).
  assert (I1 : 1 <= i <= 2) by (destruct Hi; subst i; lra). assert (J : 0 < / i) by (apply Rinv_0_lt_compat; lra).
  assert (J1 : / i <= 1) by (rewrite <- Rinv_1; apply Rinv_le; lra).
  assert (N0 : 0 <= IZR n) by (apply (IZR_le 0); exact Wn).
  assert (Q0 : 0 <= q * IZR n) by (apply Rmult_le_pos; lra).
  assert (XI : Rabs (X / i) <= B / i) by (unfold Rdiv; rewrite Rabs_mult, (Rabs_pos_eq (/ i)) by lra; apply Rmult_le_compat_r; lra).
  assert (Bi : 0 <= B / i <= B) by (unfold Rdiv; split; [apply Rmult_le_pos; lra | rewrite <- (Rmult_1_r B) at 2; apply Rmult_le_compat_l; lra]).
  assert (Ni : 0 <= IZR n / i <= IZR n) by (unfold Rdiv; split; [apply Rmult_le_pos; lra | rewrite <- (Rmult_1_r (IZR n)) at 2; apply Rmult_le_compat_l; lra]).
  assert (Qi : 0 <= q * (IZR n / i)) by (apply Rmult_le_pos; lra).
  assert (Qs : q * (IZR n / i) * eta <= 1) by (apply Rle_trans with (2 := Small); apply Rmult_le_compat_r; [lra | apply Rmult_le_compat_l; lra]).
  destruct C as [[-> [-> Hv]]|[N1 [Fv Ev]]].
  - assert (Fv := nan0_fin v Hv). assert (Z : B2R (nan0 v) * B2R w = 0) by (rewrite Ew; unfold Rdiv; ring).
    destruct (mul_R (nan0 v) w Fv Fw) as [Ft Et]; [rewrite Z; unfold rnd; rewrite round_0 by auto with typeclass_instances; rewrite Rabs_R0; apply bpow_gt_0|].
    split; [exact Ft|]. split; [|lra]. unfold t. rewrite Et, Z. unfold rnd. rewrite round_0 by auto with typeclass_instances.
    assert (X = 0) by (apply Rabs_le_inv in HX; lra). subst X. replace (0 - 0 / i) with 0 by (unfold Rdiv; ring). rewrite Rabs_R0.
    replace ((k + 2) * eps * (0 / i)) with 0 by (unfold Rdiv; ring). replace (IZR 0 / i) with 0 by (unfold Rdiv; ring). lra.
  - assert (Nn : 1 <= IZR n) by (apply IZR_le; exact N1).
    assert (ke : 0 <= k * eps <= / 16).
    { split; [apply Rmult_le_pos; lra|]. apply Rle_trans with (IZR (2 ^ 49) * eps); [apply Rmult_le_compat_r; lra|]. rewrite eps_val. change (IZR (2 ^ 49)) with 562949953421312. lra. }
    set (n' := IZR n / i) in *. set (X' := X / i) in *. set (B' := B / i) in *. assert (n0' : 0 < n') by (apply Rmult_lt_0_compat; lra).
    assert (D : Rabs (B2R v * n' - X') <= k * eps * B' + q * n' * eta).
    { replace (B2R v * n' - X') with ((B2R v - X / IZR n) * n') by (unfold n', X'; field; lra). rewrite Rabs_mult, (Rabs_pos_eq n') by lra.
      replace (k * eps * B' + q * n' * eta) with ((k * eps * (B / IZR n) + q * eta) * n') by (unfold n', B'; field; lra). apply Rmult_le_compat_r; [lra | exact Ev]. }
    assert (kB : k * eps * B' <= / 16 * B') by (apply Rmult_le_compat_r; lra).
    assert (Sz : Rabs (B2R v * n') <= 17 / 16 * B' + q * n' * eta).
    { replace (B2R v * n') with ((B2R v * n' - X') + X') by ring. apply Rle_trans with (1 := Rabs_triang _ _). lra. }
    assert (Big : Rabs (B2R v * B2R w) <= bpow radix2 1023).
    { rewrite Ew. apply Rle_trans with (1 := Sz). assert (1 <= bpow radix2 990) by (change 1 with (bpow radix2 0); apply bpow_le; lia).
      apply Rle_trans with (bpow radix2 (2 + 990)); [rewrite bpow_plus; change (bpow radix2 2) with 4; lra | apply bpow_le; lia]. }
    destruct (mul_R v w Fv Fw) as [Ft Et]; [apply big_lt, rnd_big, Big|].
    split; [unfold t; rewrite (nan0_id v Fv); exact Ft|]. split; [|lra]. unfold t. rewrite (nan0_id v Fv), Et, Ew.
    destruct (rnd_ex (B2R v * n')) as [e [dd [He [Hd E]]]]. rewrite E. set (z := B2R v * n') in *.
    replace (z * (1 + e) + dd - X') with ((z - X') + e * z + dd) by ring. apply Rle_trans with (1 := Rabs_triang _ _).
    apply Rle_trans with (Rabs (z - X' + e * z) + eta); [lra|].
    assert (Rabs (z - X' + e * z) <= k * eps * B' + q * n' * eta + eps * (17 / 16 * B' + q * n' * eta)).
    { apply Rle_trans with (1 := Rabs_triang _ _). apply Rplus_le_compat; [exact D|]. rewrite Rabs_mult. apply Rmult_le_compat; [apply Rabs_pos | apply Rabs_pos | exact He | exact Sz]. }
    assert (0 <= q * n' * eta) by (apply Rmult_le_pos; lra). assert (eps * (q * n' * eta) <= 1 * (q * n' * eta)) by (apply Rmult_le_compat_r; lra).
    assert (0 <= eps * B') by (apply Rmult_le_pos; lra).
    replace ((k + 2) * eps * B') with (k * eps * B' + 2 * (eps * B')) by ring. replace ((2 * q * n' + 1) * eta) with (2 * (q * n' * eta) + eta) by ring. lra.
Qed.

Lemma zsum_map_IZR {A} (f : A -> Z) l : IZR (zsum (map f l)) = Rsum (map (fun c => IZR (f c)) l).
Proof. induction l as [|c l IH]; cbn [map zsum fold_right]; rewrite ?Rsum_nil, ?Rsum_cons; [reflexivity|]. fold (zsum (map f l)). now rewrite plus_IZR, IH. Qed.

(** The weighted mean of stored means. *)
Lemma stage {A} (l : list A) (v w : A -> f64) (X B : A -> R) (n : A -> Z) i k q :
  unit_ok i -> (forall c, In c l -> holds i k q (v c) (w c) (X c) (B c) (n c)) ->
  0 <= k <= IZR (2 ^ 49) -> 0 <= q <= bpow radix2 200 -> (Z.of_nat (length l) <= 2 ^ 48)%Z -> (1 <= zsum (map n l) <= 2 ^ 53)%Z -> Rsum (map B l) <= bpow radix2 990 ->
  let N := zsum (map n l) in
  let W := fold_left (fun s c => Bplus mode_NE s (w c)) l (f64_of_Z 0) in
  let T := fold_left (fun s c => Bplus mode_NE s (Bmult mode_NE (nan0 (v c)) (w c))) l (f64_of_Z 0) in
  holds i (k + 3 * INR (length l) + 4) (4 * q + 2 * i * INR (length l) + 1) (Bdiv mode_NE T W) W (Rsum (map X l)) (Rsum (map B l)) N.
Proof.
  intros Hi H Hk Hq Hl HN HB N W T.
  assert (HW : units i W N).
  { unfold W, N. rewrite map_fold. rewrite <- (Z.add_0_l (zsum (map n l))). apply fold_units; [exact Hi|..].
    - clear - H. induction l as [|c l IH]; cbn [map]; constructor; [apply (H c (or_introl eq_refl)) | apply IH; intros; apply H; now right].
    - now apply units_zero.
    - lia. }
  assert (B0 : forall c, In c l -> 0 <= B c) by (intros c Hc; destruct (H c Hc) as [_ [HX _]]; assert (Y := Rabs_pos (X c)); lra).
  assert (n0' : forall c, In c l -> 0 <= IZR (n c)) by (intros c Hc; destruct (H c Hc) as [[_ [_ W0]] _]; apply (IZR_le 0); exact W0).
  assert (Pe := eta_pos). assert (P := eps_pos).
  assert (NR' : IZR N = Rsum (map (fun c => IZR (n c)) l)) by apply zsum_map_IZR.
  assert (qN : bpow radix2 200 * IZR (2 ^ 53) * eta <= / 1000).
  { change (IZR (2 ^ 53)) with (bpow radix2 53). unfold eta. rewrite <- !bpow_plus. apply Rle_trans with (bpow radix2 (-10)); [apply bpow_le; lia | change (bpow radix2 (-10)) with (/ 1024); lra]. }
  assert (one : forall f c, (forall c, In c l -> 0 <= f c) -> In c l -> f c <= Rsum (map f l)).
  { clear. intros f c. induction l as [|d l IH]; intros H Hc; [destruct Hc|]. cbn [map]. rewrite Rsum_cons. destruct Hc as [<- | Hc].
    - assert (0 <= Rsum (map f l)) by (apply Rsum_nonneg; intros; apply H; now right). lra.
    - specialize (IH (fun c h => H c (or_intror h)) Hc). specialize (H d (or_introl eq_refl)). lra. }
  assert (NI : IZR N <= IZR (2 ^ 53)) by (apply IZR_le; lia).
  assert (qn : forall r, 0 <= r <= IZR N -> 0 <= q * r * eta <= / 1000).
  { intros r Hr. split; [apply Rmult_le_pos; [apply Rmult_le_pos|]; lra|]. apply Rle_trans with (2 := qN). apply Rmult_le_compat_r; [lra|].
    apply Rmult_le_compat; lra. }
  split; [exact HW|]. split; [apply Rabs_Rsum_le; intros c Hc; apply (H c Hc)|]. right. split; [apply HN|].
  assert (Tm : forall c, In c l -> is_finite (Bmult mode_NE (nan0 (v c)) (w c)) = true /\
    Rabs (B2R (Bmult mode_NE (nan0 (v c)) (w c)) - X c / i) <= ((k + 2) * eps) * (B c / i) + (2 * q * (IZR (n c) / i) + 1) * eta /\ Rabs (X c / i) <= B c / i /\ 0 <= 2 * q * (IZR (n c) / i) + 1).
  { intros c Hc. apply (term_err i k q (v c) (w c) (X c) (B c) (n c) Hi (H c Hc) Hk (proj1 Hq)).
    - apply Rle_trans with (2 := HB). now apply one.
    - assert (IZR (n c) <= IZR N) by (rewrite NR'; apply (one (fun c => IZR (n c))); assumption). assert (Y := qn (IZR (n c)) (conj (n0' c Hc) H0)). lra. }
  assert (L0 : 0 <= INR (length l)) by apply pos_INR.
  assert (L1 : INR (length l) <= IZR (2 ^ 48)) by (rewrite INR_IZR_INZ; apply IZR_le; exact Hl).
  assert (I1 : 1 <= i <= 2) by (destruct Hi; subst i; lra). assert (J : 0 < / i) by (apply Rinv_0_lt_compat; lra).
  assert (J1 : / i <= 1) by (rewrite <- Rinv_1; apply Rinv_le; lra).
  assert (Qs : Rsum (map (fun c => 2 * q * (IZR (n c) / i) + 1) l) = 2 * q * (IZR N / i) + INR (length l)).
  { rewrite (Rsum_map_plus (fun c => 2 * q * (IZR (n c) / i)) (fun _ => 1)), Rsum_map_scal, Rsum_const. unfold Rdiv. rewrite Rsum_map_scal_r, <- NR'. ring. }
  assert (XS : Rsum (map (fun c => X c / i) l) = Rsum (map X l) / i) by apply Rsum_map_scal_r.
  assert (BS : Rsum (map (fun c => B c / i) l) = Rsum (map B l) / i) by apply Rsum_map_scal_r.
  assert (Ls : INR (length l) * eta <= / 1000).
  { apply Rle_trans with (2 := qN). apply Rmult_le_compat_r; [lra|]. apply Rle_trans with (1 := L1). apply Rle_trans with (1 * IZR (2 ^ 53)); [rewrite Rmult_1_l; apply IZR_le; lia|].
    apply Rmult_le_compat_r; [apply (IZR_le 0); lia | change 1 with (bpow radix2 0); apply bpow_le; lia]. }
  assert (ke : (k + 2) * eps <= / 4).
  { apply Rle_trans with (IZR (2 ^ 50) * eps); [apply Rmult_le_compat_r; [lra|] | rewrite eps_val; change (IZR (2 ^ 50)) with 1125899906842624; lra].
    change (IZR (2 ^ 50)) with 1125899906842624. change (IZR (2 ^ 49)) with 562949953421312 in Hk. lra. }
  assert (ke0 : 0 <= (k + 2) * eps) by (apply Rmult_le_pos; lra).
  assert (Y := qn (IZR N) (conj (IZR_le 0 N ltac:(unfold N; lia)) (Rle_refl _))).
  assert (N1 : 1 <= IZR N) by (apply IZR_le; apply HN). assert (In1 : / IZR N <= 1) by (rewrite <- Rinv_1; apply Rinv_le; lra). assert (InP : 0 < / IZR N) by (apply Rinv_0_lt_compat; lra).
  assert (SB0 : 0 <= Rsum (map B l)) by now apply Rsum_nonneg.
  assert (Nu : / 2 <= IZR N / i) by (destruct Hi; subst i; lra).
  destruct (terms_err l (fun c => Bmult mode_NE (nan0 (v c)) (w c)) (fun c => X c / i) (fun c => B c / i) (fun c => 2 * q * (IZR (n c) / i) + 1) ((k + 2) * eps) W (IZR N / i) Tm (conj ke0 ke) Hl) as [Fr Er].
  - rewrite BS. apply Rle_trans with (2 := HB). unfold Rdiv. rewrite <- (Rmult_1_r (Rsum (map B l))) at 2. apply Rmult_le_compat_l; lra.
  - rewrite Qs. assert (Y2 := qn (IZR N / i)). replace ((2 * q * (IZR N / i) + INR (length l)) * eta) with (2 * (q * (IZR N / i) * eta) + INR (length l) * eta) by ring.
    assert (q * (IZR N / i) * eta <= / 1000); [|lra]. apply Y2. split; [lra|]. unfold Rdiv. rewrite <- (Rmult_1_r (IZR N)) at 2. apply Rmult_le_compat_l; lra.
  - apply HW.
  - exact Nu.
  - unfold T. rewrite map_fold. split; [exact Fr|]. rewrite XS, BS, Qs in Er.
    replace (Rsum (map X l) / i / (IZR N / i)) with (Rsum (map X l) / IZR N) in Er by (field; lra).
    replace (Rsum (map B l) / i / (IZR N / i)) with (Rsum (map B l) / IZR N) in Er by (field; lra).
    apply Rle_trans with (1 := Er).
    apply Rplus_le_compat.
    + right. ring.
    + apply Rmult_le_compat_r; [lra|].
      replace (2 * (2 * q * (IZR N / i) + INR (length l)) / (IZR N / i) + 1) with (4 * q + 2 * i * (INR (length l) * / IZR N) + 1) by (field; lra).
      assert (INR (length l) * / IZR N <= INR (length l) * 1) by (apply Rmult_le_compat_l; lra).
      assert (i * (INR (length l) * / IZR N) <= i * (INR (length l) * 1)) by (apply Rmult_le_compat_l; lra). lra.
Qed.

(** Nothing to average over. *)
Lemma fold_zero (l : list f64) : Forall (fun x : f64 => is_finite x = true /\ B2R x = 0) l -> forall a : f64, is_finite a = true -> B2R a = 0 ->
  is_finite (fold_left (Bplus mode_NE) l a) = true /\ B2R (fold_left (Bplus mode_NE) l a) = 0.
Proof.
  induction 1 as [|x l [Fx Ex] H IH]; intros a Fa Ea; [auto|]. cbn [fold_left].
  assert (Z : rnd (B2R a + B2R x) = 0) by (rewrite Ea, Ex, Rplus_0_l; unfold rnd; apply round_0; auto with typeclass_instances).
  destruct (add_R a x Fa Fx) as [A1 A2]; [rewrite Z, Rabs_R0; apply bpow_gt_0|]. apply IH; [exact A1 | congruence].
Qed.
Lemma zero_over (T W : f64) : is_finite T = true -> B2R T = 0 -> is_finite W = true -> B2R W = 0 -> is_nan (Bdiv mode_NE T W) = true.
Proof.
  assert (Z : forall x : f64, is_finite x = true -> B2R x = 0 -> exists s, x = B754_zero s).
  { intros x Fx Ex. destruct x as [s|s| |s m e Hb]; try discriminate Fx; [now exists s|]. exfalso. apply eq_0_F2R in Ex. destruct s; discriminate Ex. }
  intros F1 E1 F2 E2. destruct (Z T F1 E1) as [s ->], (Z W F2 E2) as [u ->]. reflexivity.
Qed.
Lemma stage0 {A} (l : list A) (v w : A -> f64) (X B : A -> R) (n : A -> Z) i k q :
  unit_ok i -> (forall c, In c l -> holds i k q (v c) (w c) (X c) (B c) (n c)) ->
  0 <= k <= IZR (2 ^ 49) -> 0 <= q <= bpow radix2 200 -> (Z.of_nat (length l) <= 2 ^ 48)%Z -> (zsum (map n l) <= 2 ^ 53)%Z -> Rsum (map B l) <= bpow radix2 990 ->
  let N := zsum (map n l) in
  let W := fold_left (fun s c => Bplus mode_NE s (w c)) l (f64_of_Z 0) in
  let T := fold_left (fun s c => Bplus mode_NE s (Bmult mode_NE (nan0 (v c)) (w c))) l (f64_of_Z 0) in
  holds i (k + 3 * INR (length l) + 4) (4 * q + 2 * i * INR (length l) + 1) (Bdiv mode_NE T W) W (Rsum (map X l)) (Rsum (map B l)) N /\
  (N = 0%Z -> is_nan (Bdiv mode_NE T W) = true).
Proof.
  intros Hi H Hk Hq Hl HN HB N W T.
  assert (n0' : forall c, In c l -> (0 <= n c)%Z) by (intros c Hc; destruct (H c Hc) as [[_ [_ W0]] _]; exact W0).
  assert (N0 : (0 <= N)%Z).
  { unfold N. clear - n0'. induction l as [|c l IH]; cbn [map zsum fold_right]; [lia|]. fold (zsum (map n l)). assert (X1 := n0' c (or_introl eq_refl)). specialize (IH (fun c h => n0' c (or_intror h))). lia. }
  destruct (Z_lt_le_dec 0 N) as [Lt|Ge]; [split; [apply stage; auto; unfold N in *; lia | lia]|].
  assert (E : N = 0%Z) by lia.
  assert (Zc : forall c, In c l -> n c = 0%Z).
  { unfold N in E. clear - n0' E. induction l as [|c l IH]; intros x Hx; [destruct Hx|]. cbn [map zsum fold_right] in E. fold (zsum (map n l)) in E.
    assert (X1 := n0' c (or_introl eq_refl)). assert (X2 : (0 <= zsum (map n l))%Z).
    { apply zsum_pos. apply Forall_forall. intros y Hy. apply in_map_iff in Hy as [d [<- Hd]]. apply n0'. now right. }
    destruct Hx as [<- | Hx]; [lia|]. apply IH; [intros d Hd; apply n0'; now right | lia | exact Hx]. }
  destruct (of_Z_correct 0 ltac:(lia)) as [Z0 F0].
  assert (HW : units i W N).
  { unfold W, N. rewrite map_fold. rewrite <- (Z.add_0_l (zsum (map n l))). apply fold_units; [exact Hi|..].
    - clear - H. induction l as [|c l IH]; cbn [map]; constructor; [apply (H c (or_introl eq_refl)) | apply IH; intros; apply H; now right].
    - now apply units_zero.
    - unfold N in *. lia. }
  assert (HT : is_finite T = true /\ B2R T = 0).
  { unfold T. rewrite map_fold. apply fold_zero; [|exact F0 | exact Z0]. apply Forall_forall. intros y Hy. apply in_map_iff in Hy as [c [<- Hc]].
    destruct (H c Hc) as [[Fw [Ew _]] [_ [[_ [_ Hv]]|[N1 _]]]]; [|rewrite (Zc c Hc) in N1; lia]. rewrite (Zc c Hc) in Ew.
    assert (Fv := nan0_fin _ Hv). assert (Z : rnd (B2R (nan0 (v c)) * B2R (w c)) = 0) by (rewrite Ew; unfold Rdiv; rewrite Rmult_0_l, Rmult_0_r; unfold rnd; apply round_0; auto with typeclass_instances).
    destruct (mul_R (nan0 (v c)) (w c) Fv Fw) as [A1 A2]; [rewrite Z, Rabs_R0; apply bpow_gt_0|]. split; [exact A1 | congruence]. }
  assert (Nan : is_nan (Bdiv mode_NE T W) = true).
  { destruct HW as [Fw [Ew _]]. apply zero_over; try apply HT; [exact Fw | rewrite Ew, E; unfold Rdiv; apply Rmult_0_l]. }
  assert (Bz : forall c, In c l -> B c = 0).
  { intros c Hc. destruct (H c Hc) as [_ [_ [[_ [Hb _]]|[N1 _]]]]; [exact Hb|]. rewrite (Zc c Hc) in N1. lia. }
  split; [|intros _; exact Nan]. split; [exact HW|]. split; [apply Rabs_Rsum_le; intros c Hc; apply (H c Hc)|].
  left. split; [exact E|]. split; [apply Rsum_zero; exact Bz | left; exact Nan].
Qed.

Lemma zsum_perm (a b : list Z) : Permutation a b -> zsum a = zsum b.
Proof. induction 1; cbn [zsum fold_right] in *; unfold zsum in *; cbn [fold_right]; lia. Qed.
Lemma fold_lane (f : N -> f64) m : fold_left (fun s k => nadd s (f k)) (range 0 m) n0 = fold_left (fun s k => Bplus mode_NE s (f k)) (range 0 m) (f64_of_Z 0).
Proof. reflexivity. Qed.
Lemma whole_nan0 i w n : units i w n -> nan0 w = w.
Proof. intros [Fw _]. now apply nan0_id. Qed.
Lemma fold_ext_in {A} (f g : f64 -> A -> f64) l : (forall s c, In c l -> f s c = g s c) -> forall s, fold_left f l s = fold_left g l s.
Proof. induction l as [|c l IH]; intros H s; cbn [fold_left]; [reflexivity|]. rewrite (H s c (or_introl eq_refl)). apply IH. intros; apply H; now right. Qed.

(** One axis of a grid. *)
Lemma collapse_holds {TF : Trig f64} (g : grid f64) axis m i k q (X B : id3 -> R) (n : id3 -> Z) : unit_ok i -> wf_grid g -> (axis <= 2)%N -> v3get (geom_cells (geo g)) axis = Val m -> (m <= 2 ^ 48)%N ->
  0 <= k <= IZR (2 ^ 49) -> 0 <= q <= bpow radix2 200 ->
  exists a w, collapse g axis = Val a /\ collapse_weight g axis = Val w /\ remove_axis axis (geom_cells (geo g)) = Val (sh2 a) /\ sh2 w = sh2 a /\
  forall ij, inb2 (sh2 a) ij = true -> let l := GridSpec.line (geom_cells (geo g)) axis ij in
    (forall c, In c l -> holds i k q (at3 (data g) c) (at3 (weight g) c) (X c) (B c) (n c)) -> (zsum (map n l) <= 2 ^ 53)%Z -> Rsum (map B l) <= bpow radix2 990 ->
    holds i (k + 3 * NR m + 4) (4 * q + 2 * i * NR m + 1) (at2 a ij) (at2 w ij) (Rsum (map X l)) (Rsum (map B l)) (zsum (map n l)) /\
    (zsum (map n l) = 0%Z -> is_nan (at2 a ij) = true).
Proof.
  intros Hi W Ha Em Hm Hk Hq. destruct (collapse_val g axis W Ha) as [a [m1 [Ea [Em1 [Sa Va]]]]]. destruct (collapse_weight_val g axis W Ha) as [w [m2 [Ew [Em2 [Sw Vw]]]]].
  destruct W as [W1 W2]. rewrite W1 in Em1, Sa. rewrite W2 in Em2, Sw. assert (m1 = m) by congruence. assert (m2 = m) by congruence. subst m1 m2.
  exists a, w. split; [exact Ea|]. split; [exact Ew|]. split; [exact Sa|]. split; [congruence|].
  intros ij Hij l H HN HB. assert (Pm := line_perm _ axis _ m ij Ha Sa Em Hij). fold l in Pm.
  assert (Hl : forall c, In c (map (lane axis ij) (range 0 m)) -> In c l) by (intros c; apply Permutation_in; exact Pm).
  assert (Len : length (range 0 m) = N.to_nat m) by (rewrite range_length; f_equal; lia).
  assert (Hk' : forall j, In j (range 0 m) -> holds i k q (at3 (data g) (lane axis ij j)) (at3 (weight g) (lane axis ij j)) (X (lane axis ij j)) (B (lane axis ij j)) (n (lane axis ij j))).
  { intros j Hj. apply H, Hl, in_map. exact Hj. }
  assert (Xs : Rsum (map X l) = Rsum (map (fun i => X (lane axis ij i)) (range 0 m))) by (rewrite <- (map_map (lane axis ij) X); apply Rsum_perm, Permutation_map; symmetry; exact Pm).
  assert (Bs : Rsum (map B l) = Rsum (map (fun i => B (lane axis ij i)) (range 0 m))) by (rewrite <- (map_map (lane axis ij) B); apply Rsum_perm, Permutation_map; symmetry; exact Pm).
  assert (Ns : zsum (map n l) = zsum (map (fun i => n (lane axis ij i)) (range 0 m))) by (rewrite <- (map_map (lane axis ij) n); apply zsum_perm, Permutation_map; symmetry; exact Pm).
  rewrite Xs, Bs, Ns in *.
  assert (S := stage0 (range 0 m) (fun i => at3 (data g) (lane axis ij i)) (fun i => at3 (weight g) (lane axis ij i)) _ _ _ i k q Hi Hk' Hk Hq ltac:(rewrite Len; lia) HN HB).
  cbv zeta in S. rewrite Len in S. replace (INR (N.to_nat m)) with (NR m) in S by (unfold NR; rewrite INR_IZR_INZ; f_equal; lia).
  assert (Eq : at2 a ij = Bdiv mode_NE (fold_left (fun s i => Bplus mode_NE s (Bmult mode_NE (nan0 (at3 (data g) (lane axis ij i))) (at3 (weight g) (lane axis ij i)))) (range 0 m) (f64_of_Z 0))
     (fold_left (fun s i => Bplus mode_NE s (at3 (weight g) (lane axis ij i))) (range 0 m) (f64_of_Z 0))).
  { rewrite Va. change (@ndiv f64 _) with (Bdiv (prec := 53) (emax := 1024) mode_NE).
    assert (Fix : forall i, In i (range 0 m) -> wfix g (at3 (weight g) (lane axis ij i)) = at3 (weight g) (lane axis ij i)).
    { intros j Hj. destruct (Hk' j Hj) as [Hw _]. unfold wfix. destruct (is_cylindrical (geo g)); [exact (whole_nan0 _ _ _ Hw) | reflexivity]. }
    f_equal; apply fold_ext_in; intros s j Hj; now rewrite (Fix j Hj). }
  rewrite Eq, Vw. exact S.
Qed.

Lemma Rsum_one {A} (f : A -> R) l c : (forall c, In c l -> 0 <= f c) -> In c l -> f c <= Rsum (map f l).
Proof.
  induction l as [|d l IH]; intros H Hc; [destruct Hc|]. cbn [map]. rewrite Rsum_cons. destruct Hc as [<- | Hc].
  - assert (0 <= Rsum (map f l)) by (apply Rsum_nonneg; intros; apply H; now right). lra.
  - specialize (IH (fun c h => H c (or_intror h)) Hc). specialize (H d (or_introl eq_refl)). lra.
Qed.
Lemma holds_pos i k q v w X B n : holds i k q v w X B n -> 0 <= B /\ (0 <= n)%Z.
Proof. intros [[_ [_ Hn]] [HX _]]. split; [assert (Y := Rabs_pos X); lra | exact Hn]. Qed.

(** Two axes of a grid. *)
Lemma collapse_two_holds {TF : Trig f64} (g : grid f64) a1 a2 m i0 k q (X B : id3 -> R) (n : id3 -> Z) : unit_ok i0 -> wf_grid g -> (a1 <= 2)%N -> (a2 <= 2)%N -> a1 <> a2 ->
  (forall a d, v3get (geom_cells (geo g)) a = Val d -> (d <= m)%N) -> (m <= 2 ^ 46)%N -> 0 <= k <= IZR (2 ^ 48) -> 0 <= q <= bpow radix2 100 ->
  exists l d, collapse_two g a1 a2 = Val l /\ v3get (geom_cells (geo g)) (other_axis a1 a2) = Val d /\ vlen l = d /\
  forall i x, vget l i = Val x -> let p := plane_cells (geom_cells (geo g)) (other_axis a1 a2) i in
    (forall c, In c p -> holds i0 k q (at3 (data g) c) (at3 (weight g) c) (X c) (B c) (n c)) -> (zsum (map n p) <= 2 ^ 53)%Z -> Rsum (map B p) <= bpow radix2 990 ->
    exists w, holds i0 (k + 6 * NR m + 8) (16 * q + 10 * i0 * NR m + 5) x w (Rsum (map X p)) (Rsum (map B p)) (zsum (map n p)) /\
      (zsum (map n p) = 0%Z -> is_nan x = true).
Proof.
  intros Hi0 W H1 H2 H3 Dm Hm Hk Hq. destruct (order_axes_val a1 a2 H1 H2 H3) as [a [b [Eo [Ha [Hb [Hab [Oax Hd]]]]]]].
  destruct (remove_axis_ok a (geom_cells (geo g)) ltac:(lia)) as [s [na [E1 [E2 E3]]]].
  assert (B48 : IZR (2 ^ 48) = 281474976710656) by reflexivity. assert (B49 : IZR (2 ^ 49) = 562949953421312) by reflexivity.
  assert (Nm : 0 <= NR m <= 70368744177664).
  { split; [apply (IZR_le 0); lia|]. replace 70368744177664 with (IZR (2 ^ 46)) by reflexivity. apply IZR_le. clear - Hm. lia. }
  assert (I1 : 1 <= i0 <= 2) by (destruct Hi0; subst i0; lra).
  assert (Im : 0 <= i0 * NR m <= 2 * NR m) by (split; [apply Rmult_le_pos; lra | apply Rmult_le_compat_r; lra]).
  assert (Q2 : bpow radix2 100 * 8 <= bpow radix2 200) by (change 8 with (bpow radix2 3); rewrite <- bpow_plus; apply bpow_le; lia).
  assert (Q3 : 1125899906842624 <= bpow radix2 100) by (apply Rle_trans with (bpow radix2 50); [change (bpow radix2 50) with 1125899906842624; lra | apply bpow_le; lia]).
  destruct (collapse_holds g a na i0 k q X B n Hi0 W ltac:(lia) E2 ltac:(assert (Y := Dm a na E2); clear - Y Hm; lia) ltac:(lra) ltac:(lra)) as [c [cw [Ec [Ew [Sc [Sw Hc]]]]]].
  assert (Ess : s = sh2 c) by congruence. subst s. rename E1 into E1'. assert (E1 := E1'). clear E1'.
  assert (Eall : collapse_two g a1 a2 = Val (map (fun i => ndiv (fold_left (fun s j => Bplus mode_NE s (Bmult mode_NE (nan0 (at2 c (lane2 b i j))) (at2 cw (lane2 b i j)))) (range 0 (len2 b (sh2 c))) (f64_of_Z 0))
      (fold_left (fun s j => Bplus mode_NE s (at2 cw (lane2 b i j))) (range 0 (len2 b (sh2 c))) (f64_of_Z 0))) (range 0 (len2 (1 - b) (sh2 c))))).
  { unfold collapse_two. rewrite Eo. cbn [bind]. rewrite Ec. cbn [bind]. rewrite Ew. cbn [bind].
    assert (L1 : (1 <? b)%N = false) by (apply N.ltb_ge; lia). rewrite L1. f_equal. apply map_ext. intros i. rewrite Sw, N.min_id.
    assert (F2 : forall (f h : N -> f64) ks r0 w0,
      fold_left (fun acc k => (nadd (fst acc) (f k), nadd (snd acc) (h k))) ks (r0, w0) =
      (fold_left (fun s k => nadd s (f k)) ks r0, fold_left (fun s k => nadd s (h k)) ks w0)).
    { intros f h ks; induction ks as [|j ks IH]; intros r0 w0; cbn [fold_left fst snd]; [reflexivity | apply IH]. }
    rewrite F2. reflexivity. }
  eexists. exists (len2 (1 - b) (sh2 c)). split; [exact Eall|]. split; [exact (Hd _ _ E1)|]. split; [unfold vlen; rewrite map_length, range_length; clear; lia|].
  intros i x Hx p H HN HB.
  assert (Hi : (i < len2 (1 - b) (sh2 c))%N).
  { apply vget_lt_inv in Hx. unfold vlen in Hx. rewrite map_length, range_length in Hx. clear - Hx. lia. }
  apply vget_val in Hx. rewrite nth_error_map in Hx. destruct (nth_error (range 0 (len2 (1 - b) (sh2 c))) (N.to_nat i)) as [i'|] eqn:Ei; [|discriminate]. injection Hx as <-.
  assert (i' = i) by (clear - Ei Hi; rewrite range_nth_error in Ei by lia; injection Ei as <-; lia). subst i'.
  set (mb := len2 b (sh2 c)) in *.
  assert (IB : forall j, (j < mb)%N -> inb2 (sh2 c) (lane2 b i j) = true).
  { intros j Hj. unfold mb in Hj. clear - Hi Hj Hb. unfold inb2, lane2, len2 in *.
    destruct (N.eqb_spec b 0) as [->|Hb0]; cbn [fst snd N.eqb Pos.eqb N.sub] in *.
    - change (1 - 0)%N with 1%N in Hi. cbn [N.eqb Pos.eqb] in Hi. lia.
    - assert (b = 1)%N by lia. subst. cbn in Hi. lia. }
  assert (PX := Rsum_plane _ a b _ na i X Ha Hb Hab E1 E2 Hi). assert (PB := Rsum_plane _ a b _ na i B Ha Hb Hab E1 E2 Hi).
  assert (PN := Rsum_plane _ a b _ na i (fun c => IZR (n c)) Ha Hb Hab E1 E2 Hi). rewrite Oax in PX, PB, PN. fold p mb in PX, PB, PN.
  assert (PZ : zsum (map (fun j => zsum (map n (GridSpec.line (geom_cells (geo g)) a (lane2 b i j)))) (range 0 mb)) = zsum (map n p)).
  { apply eq_IZR. rewrite !zsum_map_IZR, <- PN. apply Rsum_ext. intros j _. apply zsum_map_IZR. }
  assert (Sub : forall j u, In j (range 0 mb) -> In u (GridSpec.line (geom_cells (geo g)) a (lane2 b i j)) -> In u p).
  { intros j u Hj Hu. unfold p. rewrite <- Oax. apply (Permutation_in u (plane_perm _ a b _ na i Ha Hb Hab E1 E2 Hi)). apply in_flat_map. exists j. split; [exact Hj|].
    apply in_range in Hj. apply (Permutation_in u (Permutation_sym (line_perm _ a _ na (lane2 b i j) ltac:(lia) E1 E2 (IB j ltac:(lia))))). exact Hu. }
  assert (Hline : forall j, In j (range 0 mb) -> holds i0 (k + 3 * NR m + 4) (4 * q + 2 * i0 * NR m + 1) (at2 c (lane2 b i j)) (at2 cw (lane2 b i j))
     (Rsum (map X (GridSpec.line (geom_cells (geo g)) a (lane2 b i j)))) (Rsum (map B (GridSpec.line (geom_cells (geo g)) a (lane2 b i j)))) (zsum (map n (GridSpec.line (geom_cells (geo g)) a (lane2 b i j))))).
  { intros j Hj. assert (Hj' := Hj). apply in_range in Hj'.
    assert (Pos : forall u, In u (GridSpec.line (geom_cells (geo g)) a (lane2 b i j)) -> 0 <= B u /\ (0 <= n u)%Z) by (intros u Hu; exact (holds_pos _ _ _ _ _ _ _ _ (H u (Sub j u Hj Hu)))).
    destruct (Hc (lane2 b i j) (IB j ltac:(lia)) (fun u Hu => H u (Sub j u Hj Hu))) as [Q1 _].
    - apply le_IZR. apply Rle_trans with (IZR (zsum (map n p))); [|apply IZR_le; exact HN]. rewrite !zsum_map_IZR, <- PN.
      apply (Rsum_one (fun j => Rsum (map (fun c => IZR (n c)) (GridSpec.line (geom_cells (geo g)) a (lane2 b i j))))); [|exact Hj].
      intros j2 Hj2. apply Rsum_nonneg. intros u Hu. apply (IZR_le 0). apply (holds_pos _ _ _ _ _ _ _ _ (H u (Sub j2 u Hj2 Hu))).
    - apply Rle_trans with (2 := HB). rewrite <- PB. apply (Rsum_one (fun j => Rsum (map B (GridSpec.line (geom_cells (geo g)) a (lane2 b i j))))); [|exact Hj].
      intros j2 Hj2. apply Rsum_nonneg. intros u Hu. apply (holds_pos _ _ _ _ _ _ _ _ (H u (Sub j2 u Hj2 Hu))).
    - destruct Q1 as [Q1 [Q4 Q5]]. split; [exact Q1|]. split; [exact Q4|]. destruct Q5 as [Q5|[Q5 [Q6 Q7]]]; [left; exact Q5|]. right. split; [exact Q5|]. split; [exact Q6|].
      apply Rle_trans with (1 := Q7).
      assert (Nn : 0 < IZR (zsum (map n (GridSpec.line (geom_cells (geo g)) a (lane2 b i j))))) by (apply (IZR_lt 0); clear - Q5; lia).
      assert (Na : NR na <= NR m) by (apply IZR_le; assert (Y := Dm a na E2); clear - Y; lia). assert (Ia : i0 * NR na <= i0 * NR m) by (apply Rmult_le_compat_l; lra).
      assert (P := eps_pos). assert (Pe := eta_pos).
      apply Rplus_le_compat; [|apply Rmult_le_compat_r; lra]. apply Rmult_le_compat_r; [|apply Rmult_le_compat_r; lra].
      apply Rmult_le_pos; [apply Rsum_nonneg; intros u Hu; apply (Pos u Hu) | left; apply Rinv_0_lt_compat; exact Nn]. }
  assert (Lmb : (mb <= m)%N).
  { destruct (remove_axis_ok a (geom_cells (geo g)) ltac:(lia)) as [s' [na' [R1 [R2 _]]]]. unfold mb, len2. clear - Dm E1 Ha Hb Hab.
    destruct (geom_cells (geo g)) as [[x y] z]. assert (D0 := Dm 0%N x eq_refl). assert (D1 := Dm 1%N y eq_refl). assert (D2 := Dm 2%N z eq_refl).
    assert (Da : a = 0%N \/ a = 1%N) by lia. assert (Db : b = 0%N \/ b = 1%N) by lia.
    destruct Da as [-> | ->], Db as [-> | ->]; cbn [remove_axis N.eqb Pos.eqb] in *; injection E1 as <-; cbn [fst snd]; assumption. }
  assert (Len : length (range 0 mb) = N.to_nat mb) by (rewrite range_length; f_equal; clear; lia).
  exists (fold_left (fun s j => Bplus mode_NE s (at2 cw (lane2 b i j))) (range 0 mb) (f64_of_Z 0)).
  destruct (stage0 (range 0 mb) (fun j => at2 c (lane2 b i j)) (fun j => at2 cw (lane2 b i j)) _ _ _ i0 _ _ Hi0 Hline ltac:(lra) ltac:(lra) ltac:(rewrite Len; clear - Lmb Hm; lia) ltac:(rewrite PZ; exact HN) ltac:(rewrite PB; exact HB)) as [Q1 Q2'].
  cbv zeta in Q1, Q2'. rewrite PX, PB, PZ, Len in Q1. rewrite PZ in Q2'.
  replace (INR (N.to_nat mb)) with (NR mb) in Q1 by (unfold NR; rewrite INR_IZR_INZ; f_equal; lia).
  split; [|exact Q2']. destruct Q1 as [Q1 [Q4 Q5]]. split; [exact Q1|]. split; [exact Q4|]. destruct Q5 as [Q5|[Q5 [Q6 Q7]]]; [left; exact Q5|]. right. split; [exact Q5|]. split; [exact Q6|].
  apply Rle_trans with (1 := Q7).
  assert (Nn : 0 < IZR (zsum (map n p))) by (apply (IZR_lt 0); clear - Q5; lia). assert (Nb : NR mb <= NR m) by (apply IZR_le; clear - Lmb; lia). assert (Ib : i0 * NR mb <= i0 * NR m) by (apply Rmult_le_compat_l; lra).
  assert (P := eps_pos). assert (Pe := eta_pos).
  apply Rplus_le_compat; [|apply Rmult_le_compat_r; lra]. apply Rmult_le_compat_r; [|apply Rmult_le_compat_r; lra].
  apply Rmult_le_pos; [apply Rsum_nonneg; intros u Hu; apply (holds_pos _ _ _ _ _ _ _ _ (H u Hu)) | left; apply Rinv_0_lt_compat; exact Nn].
Qed.

(** ** The depth average of any grid whose weights are whole numbers or halves *)
(** A stored cell: a weight that is a whole number or a half, and a number of at most 2^900; where nothing was added the value may be NaN. *)
Definition cell_ok (v w : f64) : Prop :=
  (exists z, units 2 w z) /\ ((B2R w = 0 /\ (is_nan v = true \/ is_finite v = true)) \/ (is_finite v = true /\ Rabs (B2R v) <= bpow radix2 900)).

Lemma Zfloor_whole w z : units 2 w z -> Zfloor (2 * B2R w) = z.
Proof. intros [_ [E _]]. rewrite E. replace (2 * (IZR z / 2)) with (IZR z) by field. apply Zfloor_IZR. Qed.
Lemma cell_holds v w : cell_ok v w -> holds 2 0 0 v w (2 * (B2R v * B2R w)) (2 * (Rabs (B2R v) * B2R w)) (Zfloor (2 * B2R w)).
Proof.
  intros [[z Hz] H]. rewrite (Zfloor_whole w z Hz). assert (Hw := Hz). destruct Hw as [Fw [Ew Wz]].
  assert (W0 : 0 <= B2R w) by (rewrite Ew; assert (0 <= IZR z) by (apply (IZR_le 0); exact Wz); lra).
  split; [exact Hz|]. split; [rewrite !Rabs_mult, (Rabs_pos_eq (B2R w)), (Rabs_pos_eq 2) by lra; apply Rle_refl|].
  destruct (Z.eq_dec z 0) as [->|Nz].
  - left. split; [reflexivity|]. rewrite Ew. split; [unfold Rdiv; ring|]. destruct H as [[_ H]|[H _]]; [exact H | right; exact H].
  - right. split; [lia|]. assert (P : 0 < IZR z) by (apply (IZR_lt 0); lia). destruct H as [[H _]|[Fv Hv]]; [rewrite Ew in H; lra|].
    split; [exact Fv|]. rewrite Ew. replace (B2R v - 2 * (B2R v * (IZR z / 2)) / IZR z) with 0 by (field; lra). rewrite Rabs_R0. lra.
Qed.
(** The sums over some cells. *)
Lemma cells_sums (g : grid f64) (l : list id3) : (forall c, In c l -> cell_ok (at3 (data g) c) (at3 (weight g) c)) ->
  Rsum (map (fun c => B2R (at3 (weight g) c)) l) <= IZR (2 ^ 52) ->
  IZR (zsum (map (fun c => Zfloor (2 * B2R (at3 (weight g) c))) l)) = 2 * Rsum (map (fun c => B2R (at3 (weight g) c)) l) /\
  Rsum (map (fun c => 2 * (Rabs (B2R (at3 (data g) c)) * B2R (at3 (weight g) c))) l) <= bpow radix2 990.
Proof.
  intros H HW. split.
  - rewrite zsum_map_IZR, <- Rsum_map_scal. apply Rsum_ext. intros c Hc. destruct (H c Hc) as [[z Hz] _]. rewrite (Zfloor_whole _ z Hz). destruct Hz as [_ [-> _]]. field.
  - apply Rle_trans with (Rsum (map (fun c => bpow radix2 901 * B2R (at3 (weight g) c)) l)).
    + apply Rsum_le. intros c Hc. destruct (H c Hc) as [[z [_ [Ez Wz]]] [[Z _]|[_ Hv]]]; [rewrite Z; lra|].
      replace (bpow radix2 901) with (2 * bpow radix2 900) by (replace 901%Z with (1 + 900)%Z by lia; rewrite bpow_plus; reflexivity).
      rewrite <- Rmult_assoc. apply Rmult_le_compat_r; [rewrite Ez; assert (0 <= IZR z) by (apply (IZR_le 0); exact Wz); lra | lra].
    + rewrite Rsum_map_scal. apply Rle_trans with (bpow radix2 901 * bpow radix2 52).
      * apply Rmult_le_compat_l; [apply bpow_ge_0|]. apply Rle_trans with (1 := HW). apply Req_le. reflexivity.
      * rewrite <- bpow_plus. apply bpow_le. lia.
Qed.

(** [x] is the weighted mean of the values in [l], up to [k] / 2^53 of the weighted mean of their sizes and [q] 2^-1075. *)
Definition weighted_close (k q : R) (x : f64) (g : grid f64) (l : list id3) : Prop :=
  is_finite x = true /\
  let W := Rsum (map (fun c => B2R (at3 (weight g) c)) l) in
  Rabs (B2R x - Rsum (map (fun c => B2R (at3 (data g) c) * B2R (at3 (weight g) c)) l) / W) <=
    k / IZR (2 ^ 53) * (Rsum (map (fun c => Rabs (B2R (at3 (data g) c)) * B2R (at3 (weight g) c)) l) / W) + q * bpow radix2 (-1075).

Lemma eps_over k : k * eps = k / IZR (2 ^ 53).
Proof. rewrite eps_val. change (IZR (2 ^ 53)) with 9007199254740992. lra. Qed.

Lemma holds_weighted k q x w (g : grid f64) l : (forall c, In c l -> cell_ok (at3 (data g) c) (at3 (weight g) c)) ->
  Rsum (map (fun c => B2R (at3 (weight g) c)) l) <= IZR (2 ^ 52) ->
  holds 2 k q x w (Rsum (map (fun c => 2 * (B2R (at3 (data g) c) * B2R (at3 (weight g) c))) l)) (Rsum (map (fun c => 2 * (Rabs (B2R (at3 (data g) c)) * B2R (at3 (weight g) c))) l))
    (zsum (map (fun c => Zfloor (2 * B2R (at3 (weight g) c))) l)) ->
  0 < Rsum (map (fun c => B2R (at3 (weight g) c)) l) -> weighted_close k q x g l.
Proof.
  intros H HW [_ [_ C]] P. destruct (cells_sums g l H HW) as [Ez _]. destruct C as [[Z _]|[_ [Fx Ex]]]; [rewrite Z in Ez; lra|].
  split; [exact Fx|]. cbv zeta. rewrite <- eps_over. rewrite Ez, !Rsum_map_scal in Ex.
  assert (D : forall a b, b <> 0 -> 2 * a / (2 * b) = a / b) by (intros; field; assumption). rewrite !D in Ex by lra. exact Ex.
Qed.

(** Over one axis: each element of the result is the weighted mean of its line of cells; NaN where nothing was added. *)
Theorem c153_collapse {TF : Trig f64} (g : grid f64) axis m : wf_grid g -> (axis <= 2)%N -> v3get (geom_cells (geo g)) axis = Val m -> (m <= 2 ^ 48)%N ->
  exists a, collapse g axis = Val a /\ remove_axis axis (geom_cells (geo g)) = Val (sh2 a) /\
  forall ij, inb2 (sh2 a) ij = true -> let l := GridSpec.line (geom_cells (geo g)) axis ij in
    (forall c, In c l -> cell_ok (at3 (data g) c) (at3 (weight g) c)) ->
    Rsum (map (fun c => B2R (at3 (weight g) c)) l) <= IZR (2 ^ 52) ->
    (Rsum (map (fun c => B2R (at3 (weight g) c)) l) = 0 -> is_nan (at2 a ij) = true) /\
    (0 < Rsum (map (fun c => B2R (at3 (weight g) c)) l) -> weighted_close (3 * NR m + 4) (4 * NR m + 1) (at2 a ij) g l).
Proof.
  intros W Ha Em Hm.
  destruct (collapse_holds g axis m 2 0 0 (fun c => 2 * (B2R (at3 (data g) c) * B2R (at3 (weight g) c))) (fun c => 2 * (Rabs (B2R (at3 (data g) c)) * B2R (at3 (weight g) c)))
    (fun c => Zfloor (2 * B2R (at3 (weight g) c))) (or_intror eq_refl) W Ha Em Hm) as [a [w [Ea [_ [Sa [_ H]]]]]].
  { split; [lra | apply (IZR_le 0); lia]. }
  { split; [lra | apply bpow_ge_0]. }
  exists a. split; [exact Ea|]. split; [exact Sa|]. intros ij Hij l Hc HW. destruct (cells_sums g l Hc HW) as [Ez HB].
  destruct (H ij Hij (fun c Hi => cell_holds _ _ (Hc c Hi))) as [Q1 Q2]; [apply le_IZR; fold l; rewrite Ez; change (IZR (2 ^ 53)) with (2 * IZR (2 ^ 52)); lra | exact HB|]. fold l in Q1, Q2. split.
  - intros Z. apply Q2. apply eq_IZR. rewrite Ez, Z. ring.
  - intros P. apply holds_weighted with (w := at2 w ij); auto.
    replace (3 * NR m + 4) with (0 + 3 * NR m + 4) by ring. replace (4 * NR m + 1) with (4 * 0 + 2 * 2 * NR m + 1) by ring. exact Q1.
Qed.

(** Over two axes: each element is the weighted mean of its plane of cells. *)
Theorem c153_collapse_two {TF : Trig f64} (g : grid f64) a1 a2 m : wf_grid g -> (a1 <= 2)%N -> (a2 <= 2)%N -> a1 <> a2 ->
  (forall a d, v3get (geom_cells (geo g)) a = Val d -> (d <= m)%N) -> (m <= 2 ^ 46)%N ->
  exists r d, collapse_two g a1 a2 = Val r /\ v3get (geom_cells (geo g)) (other_axis a1 a2) = Val d /\ vlen r = d /\
  forall i x, vget r i = Val x -> let p := plane_cells (geom_cells (geo g)) (other_axis a1 a2) i in
    (forall c, In c p -> cell_ok (at3 (data g) c) (at3 (weight g) c)) ->
    Rsum (map (fun c => B2R (at3 (weight g) c)) p) <= IZR (2 ^ 52) ->
    (Rsum (map (fun c => B2R (at3 (weight g) c)) p) = 0 -> is_nan x = true) /\
    (0 < Rsum (map (fun c => B2R (at3 (weight g) c)) p) -> weighted_close (6 * NR m + 8) (20 * NR m + 5) x g p).
Proof.
  intros W H1 H2 H3 Dm Hm.
  destruct (collapse_two_holds g a1 a2 m 2 0 0 (fun c => 2 * (B2R (at3 (data g) c) * B2R (at3 (weight g) c))) (fun c => 2 * (Rabs (B2R (at3 (data g) c)) * B2R (at3 (weight g) c)))
    (fun c => Zfloor (2 * B2R (at3 (weight g) c))) (or_intror eq_refl) W H1 H2 H3 Dm Hm) as [r [d [Er [Ed [Lr H]]]]].
  { split; [lra | apply (IZR_le 0); lia]. }
  { split; [lra | apply bpow_ge_0]. }
  exists r, d. split; [exact Er|]. split; [exact Ed|]. split; [exact Lr|]. intros i x Hx p Hc HW. destruct (cells_sums g p Hc HW) as [Ez HB].
  destruct (H i x Hx (fun c Hi => cell_holds _ _ (Hc c Hi))) as [w [Q1 Q2]]; [apply le_IZR; fold p; rewrite Ez; change (IZR (2 ^ 53)) with (2 * IZR (2 ^ 52)); lra | exact HB|]. fold p in Q1, Q2. split.
  - intros Z. apply Q2. apply eq_IZR. rewrite Ez, Z. ring.
  - intros P. apply holds_weighted with (w := w); auto.
    replace (6 * NR m + 8) with (0 + 6 * NR m + 8) by ring. replace (20 * NR m + 5) with (16 * 0 + 10 * 2 * NR m + 5) by ring. exact Q1.
Qed.

(** ** The depth average of a field *)
(** [x] is the mean of the numbers [l], up to [k] / 2^53 of the mean of their sizes and [q] 2^-1075. *)
Definition mean_within (k q : R) (x : f64) (l : list f64) : Prop :=
  is_finite x = true /\
  Rabs (B2R x - Rmean (map (fun x : f64 => B2R x) l)) <= k / IZR (2 ^ 53) * Rmean (map (fun x : f64 => Rabs (B2R x)) l) + q * bpow radix2 (-1075).

(** A grid of means: each cell holds the mean of its samples [S c] and counts them. *)
Definition field (h : grid f64) (S : id3 -> list f64) : Prop :=
  forall c, inb3 (geom_cells (geo h)) c = true ->
    (S c = [] -> is_nan (at3 (data h) c) = true) /\
    ((vlen (S c) <= 2 ^ 46)%N -> whole (at3 (weight h) c) (Z.of_N (vlen (S c))) /\ (S c <> [] -> mean_close (at3 (data h) c) (S c))) /\
    Forall (fun v => is_finite v = true /\ Rabs (B2R v) <= bpow radix2 900) (S c).

Lemma field_holds h S c K : field h S -> inb3 (geom_cells (geo h)) c = true -> (vlen (S c) <= K)%N -> (K <= 2 ^ 46)%N ->
  holds 1 (2 * (NR K + 1)) 1 (at3 (data h) c) (at3 (weight h) c) (Rsum (map (fun v : f64 => B2R v) (S c))) (Rsum (map (fun v : f64 => Rabs (B2R v)) (S c))) (Z.of_N (vlen (S c))).
Proof.
  intros F Hc HK Hs. destruct (F c Hc) as [F1 [F2 _]]. destruct (F2 ltac:(lia)) as [Wh Mc]. split; [exact (whole_units _ _ Wh)|].
  split; [apply Rabs_Rsum_le; intros; apply Rle_refl|].
  destruct (S c) as [|y ys] eqn:E.
  - left. split; [reflexivity|]. split; [reflexivity | left; apply F1; reflexivity].
  - rewrite <- E in *. assert (Lp : (1 <= vlen (S c))%N) by (rewrite E; unfold vlen; cbn [length]; lia). right. split; [lia|].
    destruct Mc as [Fm Em]; [congruence|]. split; [exact Fm|]. unfold Rmean in Em. rewrite !map_length, <- vlen_INR in Em. unfold NR in Em at 1 3. fold eta in Em.
    apply Rle_trans with (1 := Em). rewrite Rmult_1_l. apply Rplus_le_compat_r. apply Rmult_le_compat_r.
    + apply Rmult_le_pos; [apply Rsum_nonneg; intros; apply Rabs_pos | left; apply Rinv_0_lt_compat, (IZR_lt 0); lia].
    + rewrite eps_over, NR_add. change (NR 1) with 1. assert (NR (vlen (S c)) <= NR K) by (apply IZR_le; lia).
      change (IZR (2 ^ 52)) with 4503599627370496. change (IZR (2 ^ 53)) with 9007199254740992. lra.
Qed.

Lemma flat_len (S : id3 -> list f64) l : Z.of_N (vlen (flat_map S l)) = zsum (map (fun c => Z.of_N (vlen (S c))) l).
Proof. induction l as [|c l IH]; [reflexivity|]. cbn [flat_map map zsum fold_right]. fold (zsum (map (fun c => Z.of_N (vlen (S c))) l)). rewrite <- IH. unfold vlen. rewrite app_length. lia. Qed.
Lemma flat_part (S : id3 -> list f64) l c : In c l -> (vlen (S c) <= vlen (flat_map S l))%N.
Proof.
  induction l as [|d l IH]; intros H; [destruct H|]. cbn [flat_map]. unfold vlen in *. rewrite app_length. destruct H as [<- | H]; [lia|]. specialize (IH H). lia.
Qed.

Lemma field_result k q x w h S l : field h S -> (forall c, In c l -> inb3 (geom_cells (geo h)) c = true) -> flat_map S l <> [] ->
  holds 1 k q x w (Rsum (map (fun c => Rsum (map (fun v : f64 => B2R v) (S c))) l)) (Rsum (map (fun c => Rsum (map (fun v : f64 => Rabs (B2R v)) (S c))) l)) (zsum (map (fun c => Z.of_N (vlen (S c))) l)) ->
  mean_within k q x (flat_map S l).
Proof.
  intros F Hl Ne [_ [_ C]]. rewrite <- flat_len in C. destruct C as [[Z _]|[_ [Fx Ex]]].
  - exfalso. destruct (flat_map S l); [now apply Ne | discriminate Z].
  - split; [exact Fx|]. unfold Rmean. rewrite !map_length, !Rsum_flat_map, <- vlen_INR. rewrite <- eps_over. exact Ex.
Qed.
Lemma field_size h S l : field h S -> (forall c, In c l -> inb3 (geom_cells (geo h)) c = true) -> (vlen (flat_map S l) <= 2 ^ 46)%N ->
  Rsum (map (fun c => Rsum (map (fun v : f64 => Rabs (B2R v)) (S c))) l) <= bpow radix2 990.
Proof.
  intros F Hl Hn. rewrite <- Rsum_flat_map. apply Rle_trans with (Rsum (map (fun _ : f64 => bpow radix2 900) (flat_map S l))).
  - apply Rsum_le. intros v Hv. apply in_flat_map in Hv as [c [Hc Hv]]. destruct (F c (Hl c Hc)) as [_ [_ Fa]]. exact (proj2 (proj1 (Forall_forall _ _) Fa v Hv)).
  - rewrite Rsum_const, <- vlen_INR. apply Rle_trans with (bpow radix2 46 * bpow radix2 900).
    + apply Rmult_le_compat_r; [apply bpow_ge_0|]. unfold NR. rewrite <- IZR_Zpower by lia. apply IZR_le. change (Zpower radix2 46) with (2 ^ 46)%Z. clear - Hn. lia.
    + rewrite <- bpow_plus. apply bpow_le. lia.
Qed.

Lemma in_line_inb cells axis ij c : In c (GridSpec.line cells axis ij) -> inb3 cells c = true.
Proof. unfold GridSpec.line. intros H. apply filter_In in H. apply in_ids3, H. Qed.
Lemma in_plane_inb cells axis i c : In c (plane_cells cells axis i) -> inb3 cells c = true.
Proof. unfold plane_cells. intros H. apply filter_In in H. apply in_ids3, H. Qed.

Lemma field_line {TF : Trig f64} (h : grid f64) S axis m : wf_grid h -> field h S -> (axis <= 2)%N -> v3get (geom_cells (geo h)) axis = Val m -> (m <= 2 ^ 48)%N ->
  exists a, collapse h axis = Val a /\ remove_axis axis (geom_cells (geo h)) = Val (sh2 a) /\
  forall ij, inb2 (sh2 a) ij = true -> let l := flat_map S (GridSpec.line (geom_cells (geo h)) axis ij) in
    (l = [] -> is_nan (at2 a ij) = true) /\
    (l <> [] -> (vlen l <= 2 ^ 46)%N -> mean_within (2 * NR (vlen l) + 3 * NR m + 6) (2 * NR m + 5) (at2 a ij) l).
Proof.
  intros W F Ha Em Hm.
  assert (Key : forall K, (K <= 2 ^ 46)%N -> exists a, collapse h axis = Val a /\ remove_axis axis (geom_cells (geo h)) = Val (sh2 a) /\
    forall ij, inb2 (sh2 a) ij = true -> let l := flat_map S (GridSpec.line (geom_cells (geo h)) axis ij) in (vlen l <= K)%N ->
      (l = [] -> is_nan (at2 a ij) = true) /\ (l <> [] -> mean_within (2 * (NR K + 1) + 3 * NR m + 4) (4 * 1 + 2 * 1 * NR m + 1) (at2 a ij) l)).
  { intros K HK.
    destruct (collapse_holds h axis m 1 (2 * (NR K + 1)) 1 (fun c => Rsum (map (fun v : f64 => B2R v) (S c))) (fun c => Rsum (map (fun v : f64 => Rabs (B2R v)) (S c)))
      (fun c => Z.of_N (vlen (S c))) (or_introl eq_refl) W Ha Em Hm) as [a [w [Ea [_ [Sa [_ H]]]]]].
    { assert (0 <= NR K) by (apply (IZR_le 0); lia). assert (NR K <= IZR (2 ^ 46)) by (apply IZR_le; clear - HK; lia).
      change (IZR (2 ^ 46)) with 70368744177664 in H0. change (IZR (2 ^ 49)) with 562949953421312. lra. }
    { split; [lra|]. change 1 with (bpow radix2 0). apply bpow_le. lia. }
    exists a. split; [exact Ea|]. split; [exact Sa|]. intros ij Hij l Hl.
    assert (Inb : forall c, In c (GridSpec.line (geom_cells (geo h)) axis ij) -> inb3 (geom_cells (geo h)) c = true) by (intros c; apply in_line_inb).
    destruct (H ij Hij) as [Q1 Q2].
    - intros c Hc. apply field_holds; auto. assert (X := flat_part S _ c Hc). fold l in X. clear - X Hl. lia.
    - rewrite <- flat_len. fold l. clear - Hl HK. lia.
    - apply (field_size h S _ F Inb). fold l. clear - Hl HK. lia.
    - split; [intros El; apply Q2; rewrite <- flat_len; fold l; rewrite El; reflexivity|]. intros Ne. apply (field_result _ _ _ (at2 w ij) h S); auto. }
  destruct (Key 0%N ltac:(lia)) as [a [Ea [Sa H0]]]. exists a. split; [exact Ea|]. split; [exact Sa|]. intros ij Hij l. split.
  - intros El. apply (H0 ij Hij); [fold l; rewrite El; clear; unfold vlen; cbn [length]; lia | exact El].
  - intros Ne Hn. destruct (Key (vlen l) Hn) as [a' [Ea' [Sa' H]]]. rewrite Ea in Ea'. injection Ea' as <-. destruct (H ij Hij (N.le_refl _)) as [_ M]. specialize (M Ne). fold l in M.
    replace (2 * NR (vlen l) + 3 * NR m + 6) with (2 * (NR (vlen l) + 1) + 3 * NR m + 4) by ring. replace (2 * NR m + 5) with (4 * 1 + 2 * 1 * NR m + 1) by ring. exact M.
Qed.

Lemma field_plane {TF : Trig f64} (h : grid f64) S a1 a2 m : wf_grid h -> field h S -> (a1 <= 2)%N -> (a2 <= 2)%N -> a1 <> a2 ->
  (forall a d, v3get (geom_cells (geo h)) a = Val d -> (d <= m)%N) -> (m <= 2 ^ 46)%N ->
  exists r d, collapse_two h a1 a2 = Val r /\ v3get (geom_cells (geo h)) (other_axis a1 a2) = Val d /\ vlen r = d /\
  forall i x, vget r i = Val x -> let l := flat_map S (plane_cells (geom_cells (geo h)) (other_axis a1 a2) i) in
    (l = [] -> is_nan x = true) /\
    (l <> [] -> (vlen l <= 2 ^ 46)%N -> mean_within (2 * NR (vlen l) + 6 * NR m + 10) (10 * NR m + 21) x l).
Proof.
  intros W F H1 H2 H3 Dm Hm.
  assert (Key : forall K, (K <= 2 ^ 46)%N -> exists r d, collapse_two h a1 a2 = Val r /\ v3get (geom_cells (geo h)) (other_axis a1 a2) = Val d /\ vlen r = d /\
    forall i x, vget r i = Val x -> let l := flat_map S (plane_cells (geom_cells (geo h)) (other_axis a1 a2) i) in (vlen l <= K)%N ->
      (l = [] -> is_nan x = true) /\ (l <> [] -> mean_within (2 * (NR K + 1) + 6 * NR m + 8) (16 * 1 + 10 * 1 * NR m + 5) x l)).
  { intros K HK.
    destruct (collapse_two_holds h a1 a2 m 1 (2 * (NR K + 1)) 1 (fun c => Rsum (map (fun v : f64 => B2R v) (S c))) (fun c => Rsum (map (fun v : f64 => Rabs (B2R v)) (S c)))
      (fun c => Z.of_N (vlen (S c))) (or_introl eq_refl) W H1 H2 H3 Dm Hm) as [r [d [Er [Ed [Lr H]]]]].
    { assert (0 <= NR K) by (apply (IZR_le 0); lia). assert (NR K <= IZR (2 ^ 46)) by (apply IZR_le; clear - HK; lia).
      change (IZR (2 ^ 46)) with 70368744177664 in H0. change (IZR (2 ^ 48)) with 281474976710656. lra. }
    { split; [lra|]. change 1 with (bpow radix2 0). apply bpow_le. lia. }
    exists r, d. split; [exact Er|]. split; [exact Ed|]. split; [exact Lr|]. intros i x Hx l Hl.
    assert (Inb : forall c, In c (plane_cells (geom_cells (geo h)) (other_axis a1 a2) i) -> inb3 (geom_cells (geo h)) c = true) by (intros c; apply in_plane_inb).
    destruct (H i x Hx) as [w [Q1 Q2]].
    - intros c Hc. apply field_holds; auto. assert (X := flat_part S _ c Hc). fold l in X. clear - X Hl. lia.
    - rewrite <- flat_len. fold l. clear - Hl HK. lia.
    - apply (field_size h S _ F Inb). fold l. clear - Hl HK. lia.
    - split; [intros El; apply Q2; rewrite <- flat_len; fold l; rewrite El; reflexivity|]. intros Ne. apply (field_result _ _ _ w h S); auto. }
  destruct (Key 0%N ltac:(lia)) as [r [d [Er [Ed [Lr H0]]]]]. exists r, d. split; [exact Er|]. split; [exact Ed|]. split; [exact Lr|]. intros i x Hx l. split.
  - intros El. apply (H0 i x Hx); [fold l; rewrite El; clear; unfold vlen; cbn [length]; lia | exact El].
  - intros Ne Hn. destruct (Key (vlen l) Hn) as [r' [d' [Er' [_ [_ H]]]]]. rewrite Er in Er'. injection Er' as <-. destruct (H i x Hx (N.le_refl _)) as [_ M]. specialize (M Ne). fold l in M.
    replace (2 * NR (vlen l) + 6 * NR m + 10) with (2 * (NR (vlen l) + 1) + 6 * NR m + 8) by ring. replace (10 * NR m + 21) with (16 * 1 + 10 * 1 * NR m + 5) by ring. exact M.
Qed.

Lemma count_whole {A} (l : list A) : (vlen l <= 2 ^ 46)%N -> whole (fold_left (fun w (_ : A) => nadd w n1) l (f64_of_Z 0)) (Z.of_N (vlen l)).
Proof.
  intros Small. destruct (of_Z_correct 0 ltac:(lia)) as [O1 F1]. destruct (count_exact l (f64_of_Z 0) 0 F1 O1 ltac:(clear - Small; lia)) as [C1 C2].
  split; [exact C1|]. split; [rewrite C2; reflexivity | clear; lia].
Qed.
(** Cells that hold the quotient of a running sum and a running count. *)
Lemma quotient_field (h : grid f64) (S : id3 -> list f64) :
  (forall c, inb3 (geom_cells (geo h)) c = true -> at3 (weight h) c = fold_left (fun w (_ : f64) => nadd w n1) (S c) (f64_of_Z 0) /\
     at3 (data h) c = ndiv (fold_left nadd (S c) (f64_of_Z 0)) (at3 (weight h) c)) ->
  (forall c v, In v (S c) -> is_finite v = true /\ Rabs (B2R v) <= bpow radix2 900) -> field h S.
Proof.
  intros H B c Hc. destruct (H c Hc) as [Ew Ed]. split; [intros E; rewrite Ed, Ew, E; reflexivity|]. split; [|apply Forall_forall; apply B].
  intros Small. assert (Wh := count_whole (S c) Small). rewrite Ed, Ew. split; [exact Wh|]. intros Ne. apply mean_of; auto.
  - apply Forall_forall. intros v Hv. destruct (B c v Hv) as [Fv Bv]. split; [exact Fv|]. apply Rle_trans with (1 := Bv). apply bpow_le. lia.
  - clear - Small. lia.
  - exact (proj1 (proj2 Wh)).
Qed.
Lemma fold_count {A B} (f : A -> B) l : forall w : f64, fold_left (fun w (_ : B) => nadd w n1) (map f l) w = fold_left (fun w (_ : A) => nadd w n1) l w.
Proof. induction l as [|x l IH]; intros w; cbn [map fold_left]; [reflexivity | apply IH]. Qed.
Lemma flat_map_map {A B C} (f : B -> C) (S : A -> list B) l : flat_map (fun c => map f (S c)) l = map f (flat_map S l).
Proof. induction l as [|c l IH]; [reflexivity|]. cbn [flat_map]. now rewrite IH, map_app. Qed.

(** The depth average of the vector field: each component of each element is the mean of the velocities of the whole
    line of cells; NaN where no cell of the line was visited. Any grid. *)
Theorem c153_vector {TF : Trig f64} (bld : build) (M : mgr f64) d L (g : grid f64) s d' v axis m :
  recorded M d L -> sel_ok s -> fresh g -> vectorfield bld M d g s = Val (d', v) ->
  (forall k x, (k <= 2)%N -> In x (all_samples L) -> is_finite (v3i k (grid_velocity g x)) = true /\ Rabs (B2R (v3i k (grid_velocity g x))) <= bpow radix2 900) ->
  (axis <= 2)%N -> v3get (geom_cells (geo g)) axis = Val m -> (m <= 2 ^ 48)%N ->
  exists t, vg_collapse v axis = Val t /\
  forall k, (k <= 2)%N -> remove_axis axis (geom_cells (geo g)) = Val (sh2 (nth3 k t)) /\
    forall ij, inb2 (sh2 (nth3 k t)) ij = true ->
      let l := flat_map (vectors bld g s L) (GridSpec.line (geom_cells (geo g)) axis ij) in
      (l = [] -> is_nan (at2 (nth3 k t) ij) = true) /\
      (l <> [] -> (vlen l <= 2 ^ 46)%N ->
         mean_within (2 * NR (vlen l) + 3 * NR m + 6) (2 * NR m + 5) (at2 (nth3 k t) ij) (map (fun x => v3i k (grid_velocity g x)) l)).
Proof.
  intros Rec Sk [W0 Fr] E B Ha Em Hm. destruct (vector_cells bld M d L g s d' v Rec Sk W0 E) as [_ W].
  destruct (each_ok v (fun g => collapse g axis) (fun k a => remove_axis axis (geom_cells (geo g)) = Val (sh2 a) /\ forall ij, inb2 (sh2 a) ij = true ->
      let l := flat_map (vectors bld g s L) (GridSpec.line (geom_cells (geo g)) axis ij) in
      (l = [] -> is_nan (at2 a ij) = true) /\
      (l <> [] -> (vlen l <= 2 ^ 46)%N ->
         mean_within (2 * NR (vlen l) + 3 * NR m + 6) (2 * NR m + 5) (at2 a ij) (map (fun x => v3i k (grid_velocity g x)) l)))) as [t [Et Ht]].
  - intros k Hk. destruct (W k Hk) as [Wk [Gk Ck]].
    assert (Fd : field (comp k v) (fun c => map (fun x => v3i k (grid_velocity g x)) (vectors bld g s L c))).
    { apply quotient_field.
      - intros c Hc. rewrite Gk in Hc. destruct (Ck c Hc) as [A1 A2]. rewrite (proj2 (Fr c)) in A1. rewrite (proj1 (Fr c)) in A2. rewrite fold_count. split; [exact A1 | exact A2].
      - intros c y Hy. apply in_map_iff in Hy as [x [<- Hx]]. apply (B k x Hk). exact (vectors_in bld g s L c x Hx). }
    rewrite <- Gk in Em. destruct (field_line (comp k v) _ axis m Wk Fd Ha Em Hm) as [a [Ea [Sa Va]]]. exists a. split; [exact Ea|]. rewrite Gk in Sa. split; [exact Sa|].
    intros ij Hij l. specialize (Va ij Hij). cbv zeta in Va. rewrite Gk, flat_map_map in Va. fold l in Va. destruct Va as [V1 V2]. split.
    + intros El. apply V1. now rewrite El.
    + intros Ne Hn. assert (El : vlen (map (fun x => v3i k (grid_velocity g x)) l) = vlen l) by (unfold vlen; now rewrite map_length). rewrite El in V2. apply V2; [|exact Hn].
      destruct l; [now destruct Ne | discriminate].
  - exists t. split; [exact Et|]. intros k Hk. apply (Ht k Hk).
Qed.

Lemma velocity_is_field {TF : Trig f64} (bld : build) (M : mgr f64) d L (g : grid f64) s mode calc vmin vmax d' h :
  recorded M d L -> sel_ok s -> fresh g -> velocity_mode mode = Val calc -> velocityfield bld M d g s mode vmin vmax = Val (d', h) ->
  is_finite vmin = true -> is_finite vmax = true -> Rabs (B2R vmin) <= bpow radix2 900 -> Rabs (B2R vmax) <= bpow radix2 900 ->
  wf_grid h /\ geo h = geo g /\ field h (fun c => map (fun m => calc (sm_vel m)) (averaged bld g s calc vmin vmax L c)).
Proof.
  intros Rec Sk [W0 Fr] Em E F1 F2 B1 B2. destruct (velocity_cells bld M d L g s mode calc vmin vmax d' h Rec Sk W0 Em E) as [_ [Wh [Gh H]]].
  split; [exact Wh|]. split; [exact Gh|]. apply quotient_field.
  - intros c Hc. rewrite Gh in Hc. destruct (H c Hc) as [A1 A2]. rewrite (proj2 (Fr c)) in A1. rewrite fold_count. split; [exact A1 | exact A2].
  - intros c y Hy. apply in_map_iff in Hy as [x [<- Hx]]. apply averaged_in in Hx as [_ K]. destruct (kept_between calc vmin vmax x F1 F2 K) as [Fx Bx]. split; [exact Fx|].
    apply Rabs_le_inv in B1, B2. apply Rabs_le. lra.
Qed.
(** The depth average of the velocity field: the mean of the velocities kept in the whole line of cells. With limits of
    ordinary size nothing is asked of the recorded velocities. *)
Theorem c153_velocity {TF : Trig f64} (bld : build) (M : mgr f64) d L (g : grid f64) s mode calc vmin vmax d' h axis m :
  recorded M d L -> sel_ok s -> fresh g -> velocity_mode mode = Val calc -> velocityfield bld M d g s mode vmin vmax = Val (d', h) ->
  is_finite vmin = true -> is_finite vmax = true -> Rabs (B2R vmin) <= bpow radix2 900 -> Rabs (B2R vmax) <= bpow radix2 900 ->
  (axis <= 2)%N -> v3get (geom_cells (geo g)) axis = Val m -> (m <= 2 ^ 48)%N ->
  exists a, collapse h axis = Val a /\ remove_axis axis (geom_cells (geo g)) = Val (sh2 a) /\
  forall ij, inb2 (sh2 a) ij = true ->
    let l := flat_map (averaged bld g s calc vmin vmax L) (GridSpec.line (geom_cells (geo g)) axis ij) in
    (l = [] -> is_nan (at2 a ij) = true) /\
    (l <> [] -> (vlen l <= 2 ^ 46)%N ->
       mean_within (2 * NR (vlen l) + 3 * NR m + 6) (2 * NR m + 5) (at2 a ij) (map (fun x => calc (sm_vel x)) l)).
Proof.
  intros Rec Sk Fr Ec E F1 F2 B1 B2 Ha Em Hm. destruct (velocity_is_field bld M d L g s mode calc vmin vmax d' h Rec Sk Fr Ec E F1 F2 B1 B2) as [Wh [Gh Fd]].
  rewrite <- Gh in Em. destruct (field_line h _ axis m Wh Fd Ha Em Hm) as [a [Ea [Sa Va]]]. exists a. split; [exact Ea|]. rewrite Gh in Sa. split; [exact Sa|].
  intros ij Hij l. specialize (Va ij Hij). cbv zeta in Va. rewrite Gh, flat_map_map in Va. fold l in Va. destruct Va as [V1 V2]. split.
  - intros El. apply V1. now rewrite El.
  - intros Ne Hn. assert (El : vlen (map (fun x => calc (sm_vel x)) l) = vlen l) by (unfold vlen; now rewrite map_length). rewrite El in V2. apply V2; [|exact Hn].
    destruct l; [now destruct Ne | discriminate].
Qed.
Theorem c153_velocity_two {TF : Trig f64} (bld : build) (M : mgr f64) d L (g : grid f64) s mode calc vmin vmax d' h a1 a2 m :
  recorded M d L -> sel_ok s -> fresh g -> velocity_mode mode = Val calc -> velocityfield bld M d g s mode vmin vmax = Val (d', h) ->
  is_finite vmin = true -> is_finite vmax = true -> Rabs (B2R vmin) <= bpow radix2 900 -> Rabs (B2R vmax) <= bpow radix2 900 ->
  (a1 <= 2)%N -> (a2 <= 2)%N -> a1 <> a2 -> (forall a n, v3get (geom_cells (geo g)) a = Val n -> (n <= m)%N) -> (m <= 2 ^ 46)%N ->
  exists r n, collapse_two h a1 a2 = Val r /\ v3get (geom_cells (geo g)) (other_axis a1 a2) = Val n /\ vlen r = n /\
  forall i x, vget r i = Val x ->
    let l := flat_map (averaged bld g s calc vmin vmax L) (plane_cells (geom_cells (geo g)) (other_axis a1 a2) i) in
    (l = [] -> is_nan x = true) /\
    (l <> [] -> (vlen l <= 2 ^ 46)%N ->
       mean_within (2 * NR (vlen l) + 6 * NR m + 10) (10 * NR m + 21) x (map (fun x => calc (sm_vel x)) l)).
Proof.
  intros Rec Sk Fr Ec E F1 F2 B1 B2 H1 H2 H3 Dm Hm. destruct (velocity_is_field bld M d L g s mode calc vmin vmax d' h Rec Sk Fr Ec E F1 F2 B1 B2) as [Wh [Gh Fd]].
  rewrite <- Gh in Dm. destruct (field_plane h _ a1 a2 m Wh Fd H1 H2 H3 Dm Hm) as [r [n [Er [En [Lr Va]]]]]. exists r, n. split; [exact Er|]. rewrite Gh in En. split; [exact En|]. split; [exact Lr|].
  intros i x Hx l. specialize (Va i x Hx). cbv zeta in Va. rewrite Gh, flat_map_map in Va. fold l in Va. destruct Va as [V1 V2]. split.
  - intros El. apply V1. now rewrite El.
  - intros Ne Hn. assert (El : vlen (map (fun x => calc (sm_vel x)) l) = vlen l) by (unfold vlen; now rewrite map_length). rewrite El in V2. apply V2; [|exact Hn].
    destruct l; [now destruct Ne | discriminate].
Qed.

(** A velocity field and a vector field of recorded data meet the hypotheses, and a line of cells with three samples. *)
Example c153_case {TF : Trig f64} : exists g d' h d2 v, cart_new (2, 2, 2)%N (ThreeD box64) = Val g /\ fresh g /\
  recorded (list_mgr ex_data (PropertiesFun.ex_stats 2)) tt ex_data /\ sel_ok (sel_default (F := f64)) /\
  velocityfield Debug (list_mgr ex_data (PropertiesFun.ex_stats 2)) tt g sel_default "absolute"%string (f64_of_Z 0) (f64_of_Z 9) = Val (d', h) /\
  vectorfield Debug (list_mgr ex_data (PropertiesFun.ex_stats 2)) tt g sel_default = Val (d2, v) /\
  v3get (geom_cells (geo g)) 1 = Val 2%N /\
  vlen (flat_map (vectors Debug g sel_default ex_data) (GridSpec.line (geom_cells (geo g)) 1 (0, 0)%N)) = 2%N /\
  vlen (flat_map (vectors Debug g sel_default ex_data) (plane_cells (geom_cells (geo g)) 1 1%N)) = 1%N /\
  (forall k x, (k <= 2)%N -> In x (all_samples ex_data) -> is_finite (v3i k (grid_velocity g x)) = true /\ Rabs (B2R (v3i k (grid_velocity g x))) <= bpow radix2 900).
Proof.
  destruct (cart_new (2, 2, 2)%N (ThreeD box64)) as [g|] eqn:E; [|discriminate].
  assert (Fr := new_fresh _ _ true g (or_introl E)). destruct (cart_new_geo _ _ _ E) as [cg [G [C1 C2]]].
  assert (Sz : sized (cc_cells cg)) by (rewrite C2; cbn; lia).
  destruct (c36_vector_mean Debug (list_mgr ex_data (PropertiesFun.ex_stats 2)) tt ex_data g cg sel_default (proj1 ex_data_recorded) (proj2 ex_data_recorded) Fr G Sz) as [d2 [v [Ev _]]].
  destruct (c35_mean Debug (list_mgr ex_data (PropertiesFun.ex_stats 2)) tt ex_data g cg sel_default "absolute"%string _ (f64_of_Z 0) (f64_of_Z 9) (proj1 ex_data_recorded) (proj2 ex_data_recorded) Fr G Sz eq_refl) as [d' [h [Eh _]]].
  exists g, d', h, d2, v. split; [reflexivity|]. split; [exact Fr|]. split; [apply ex_data_recorded|]. split; [apply ex_data_recorded|].
  split; [exact Eh|]. split; [exact Ev|].
  assert (P9 : bpow radix2 500 <= bpow radix2 900) by (apply bpow_le; lia).
  assert (Hv : forall k x, (k <= 2)%N -> In x (all_samples ex_data) -> is_finite (v3i k (grid_velocity g x)) = true /\ Rabs (B2R (v3i k (grid_velocity g x))) <= bpow radix2 900).
  { intros k x Hk Hx.
    replace (grid_velocity g x) with (sm_vel x) by (unfold grid_velocity, velocity_calculation, vnew; cbn [vg0 vcyl]; now rewrite G).
    assert (I : In (sm_vel x) (map sm_vel (all_samples ex_data))) by now apply in_map.
    change (map sm_vel (all_samples ex_data)) with
      [(f64_of_Z 1, f64_of_Z 0, f64_of_Z 0); (f64_of_Z 0, f64_of_Z 2, f64_of_Z 0);
       (f64_of_Z 3, f64_of_Z 0, f64_of_Z 0); (f64_of_Z 0, f64_of_Z 2, f64_of_Z 0)] in I.
    assert (O : forall a, (Z.abs a <= 2 ^ 52)%Z -> is_finite (f64_of_Z a) = true /\ Rabs (B2R (f64_of_Z a)) <= bpow radix2 900).
    { intros a Ha'. destruct (ordinary_int a Ha') as [[A1 _] A2]. split; [exact A1|]. apply Rle_trans with (1 := A2). exact P9. }
    assert (O0 := O 0%Z ltac:(lia)). assert (O1 := O 1%Z ltac:(lia)). assert (O2 := O 2%Z ltac:(lia)). assert (O3 := O 3%Z ltac:(lia)).
    cbn [In] in I. destruct (axis_cases k Hk) as [-> | [-> | ->]]; destruct I as [<- | [<- | [<- | [<- | []]]]]; assumption. }
  assert (El : v3get (geom_cells (geo g)) 1 = Val 2%N) by (rewrite G; cbn [geom_cells]; now rewrite C2).
  split; [exact El|]. clear - E Hv. split; [|split; [|exact Hv]]; injection E as <-; vm_compute; reflexivity.
Qed.
