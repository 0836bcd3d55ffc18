(** * PropertiesStat: mean and standard deviation of an array in doubles (C156)

    The two-pass deviation: first the mean, then the mean square of the distances to it. *)
From Coq Require Import Reals List NArith ZArith Lia Lra Bool ZifyBool ZifyN.
From Flocq Require Import Core.Core IEEE754.BinarySingleNaN.
From Verif Require Import Base BaseFacts Num RFacts NDArray GridModel GridSpec GridFacts F64Facts CartR PropertiesGrid
  DataModel FunModel FunSpec FunMom PyModel PyStat PlotModel VGridModel FloatErr FloatSum PropertiesMean FloatCalc FloatVar PropertiesVar PropertiesWrap PropertiesOccFloat PropertiesHomog.
Import ListNotations.
Local Open Scope R_scope.

(** Numbers a statistic is taken of: finite, at most 2^400. *)
Definition usual (x : f64) : Prop := is_finite x = true /\ Rabs (B2R x) <= bpow radix2 400.
(** How far the mean may be off: (n + 1) / 2^52 of the mean absolute value, and a tiny absolute term. *)
Definition mean_tol (l : list R) : R := INR (length l + 1) / IZR (2 ^ 52) * Rmean (map Rabs l) + bpow radix2 (-1074).

Lemma fold_terms (m : f64) (l : list f64) : forall s : f64,
  fold_left (fun (s : f64) (x : f64) => Bplus mode_NE s (Bmult mode_NE (Bminus mode_NE x m) (Bminus mode_NE x m))) l s =
  fold_left (Bplus mode_NE) (map (fun x : f64 => Bmult mode_NE x x) (map (fun x : f64 => Bminus mode_NE x m) l)) s.
Proof. induction l as [|x l IH]; intros s; [reflexivity|]. cbn [map fold_left]. apply IH. Qed.

(** The mean square distance to any number: the variance and the squared distance of that number to the mean. *)
Lemma spread (l : list R) (m : R) : l <> [] ->
  Rsum (map (fun x => (x - m) * (x - m)) l) / INR (length l) = Rvar l + (m - Rmean l) * (m - Rmean l).
Proof.
  intros Ne. assert (P := len_pos l Ne). unfold Rvar, Rmean. set (n := INR (length l)) in *. set (mu := Rsum l / n).
  assert (G : forall c, Rsum (map (fun x => (x - c) * (x - c)) l) = Rsum (map (fun x => x * x) l) - 2 * c * Rsum l + n * (c * c)).
  { intros c. unfold n. clear. induction l as [|x l IH]; [cbn [map length]; rewrite !Rsum_nil; cbn; ring|]. cbn [map]. rewrite !Rsum_cons, IH. cbn [length]. rewrite S_INR. ring. }
  rewrite !G. unfold mu. field. lra.
Qed.

Section TwoPass.
  Variable l : list f64.
  Hypothesis Ul : Forall usual l.
  Hypothesis Nl : l <> [].
  Hypothesis Hl : (length l <= 2 ^ 46)%nat.
  Variable n : f64.
  Hypothesis En : B2R n = INR (length l).
  Let k := INR (length l).
  Let m := Bdiv mode_NE (fold_left (Bplus mode_NE) l (f64_of_Z 0)) n.
  Let ys := map (fun x : f64 => Bminus mode_NE x m) l.
  Let mu := Rmean (map val l).
  Let dl := 2 * (k + 1) * eps * Rmean (map (fun x => Rabs (val x)) l) + 2 * eta.

  Lemma usual_small : Forall small l.
  Proof using Ul.
    apply Forall_forall. intros x Hx. rewrite Forall_forall in Ul. destruct (Ul x Hx) as [F B]. split; [exact F|]. apply Rle_trans with (1 := B), bpow_le. clear; lia.
  Qed.
  Lemma sz_bound : sz l / k <= bpow radix2 400.
  Proof using Ul Nl Hl En.
    assert (P : 0 < k) by (apply lt_0_INR; destruct l; [contradiction | cbn; clear; lia]). apply Rmult_le_reg_r with k; [exact P|]. unfold Rdiv. rewrite Rmult_assoc, Rinv_l, Rmult_1_r by lra.
    unfold sz. apply Rle_trans with (Rsum (map (fun _ : f64 => bpow radix2 400) l)); [|rewrite Rsum_const; fold k; lra].
    apply Rsum_le. intros x Hx. rewrite Forall_forall in Ul. apply (Ul x Hx).
  Qed.
  Lemma mean_part : is_finite m = true /\ Rabs (B2R m - mu) <= dl /\ Rabs (B2R m) <= bpow radix2 402.
  Proof using Ul Nl Hl En.
    destruct (sum_close l usual_small Hl) as [C1 B1]. assert (Nb := INR_bnd l Hl Nl). fold k in Nb, C1.
    assert (P496 : bpow radix2 496 <= bpow radix2 1000) by (apply bpow_le; lia). assert (S := sz_bound).
    assert (C2 := close_div _ _ _ _ _ n C1 ltac:(split; [kfits|]; split; [split; [lra | apply bpow_ge_0] | lra]) ltac:(rewrite En; fold k; lra)). fold m in C2. rewrite En in C2. fold k in C2.
    assert (Z := close_size _ _ _ _ _ C2 ltac:(split; [kfits|]; split; [split; [lra | apply j200; lra] | apply Rle_trans with (1 := S), bpow_le; lia])).
    destruct C2 as [F [E _]]. split; [exact F|].
    split.
    - unfold mu, Rmean. rewrite map_length. fold k. change (Rsum (map val l)) with (sm l). apply Rle_trans with (1 := E). unfold dl, Rmean. rewrite map_length. fold k. change (Rsum (map (fun x => Rabs (val x)) l)) with (sz l). lra.
    - apply Rle_trans with (1 := Z). assert (J := j_eta (2 * 0 + 2) ltac:(split; [lra | apply j200; lra])).
      replace 402%Z with (2 + 400)%Z by lia. rewrite bpow_plus. change (bpow radix2 2) with 4. assert (1 <= bpow radix2 400) by (apply (bpow_le radix2 0); lia). lra.
  Qed.
  Lemma dist_part x : In x l -> small (Bminus mode_NE x m) /\ exists e, Rabs e <= eps /\ val (Bminus mode_NE x m) = (val x - val m) * (1 + e).
  Proof using Ul Nl Hl En.
    intros Hx. destruct mean_part as [Fm [_ Bm]]. rewrite Forall_forall in Ul. destruct (Ul x Hx) as [Fx Bx]. destruct (rnd_diff x m) as [e [He Ee]].
    assert (P400 : bpow radix2 402 = 4 * bpow radix2 400) by (replace 402%Z with (2 + 400)%Z by lia; rewrite bpow_plus; reflexivity).
    assert (S : Rabs (B2R x - B2R m) <= 5 * bpow radix2 400).
    { replace (B2R x - B2R m) with (B2R x + - B2R m) by ring. apply Rle_trans with (1 := Rabs_triang _ _). rewrite Rabs_Ropp. lra. }
    assert (B : Rabs (rnd (B2R x - B2R m)) <= bpow radix2 450).
    { rewrite Ee, Rabs_mult. assert (F := factor _ He). assert (L := eps_le). assert (P0 := bpow_ge_0 radix2 400). rewrite (Rabs_pos_eq (1 + e)) by lra.
      apply Rle_trans with (5 * bpow radix2 400 * 2); [apply Rmult_le_compat; auto using Rabs_pos; lra|]. apply Rle_trans with (bpow radix2 4 * bpow radix2 400); [change (bpow radix2 4) with 16; lra|].
      rewrite <- bpow_plus. apply bpow_le. lia. }
    destruct (sub_R x m Fx Fm) as [F E]. { apply Rle_lt_trans with (1 := B), bpow_lt. lia. }
    split; [split; [exact F | rewrite E; exact B]|]. exists e. split; [exact He|]. unfold val. rewrite E. exact Ee.
  Qed.
  Let Q := Rvar (map val l) + (val m - mu) * (val m - mu).
  Lemma square_part : Rabs (sq ys / k - Q) <= 3 * eps * Q.
  Proof using Ul Nl Hl En.
    assert (P := eps_pos). assert (L := eps_le). assert (Nb := INR_bnd l Hl Nl). fold k in Nb.
    assert (N' : map val l <> []) by (destruct l; [contradiction | discriminate]). assert (Sp := spread (map val l) (val m) N'). fold mu Q in Sp. rewrite map_length in Sp. fold k in Sp. rewrite <- Sp. rewrite map_map.
    assert (D : Rabs (sq ys - Rsum (map (fun x => (val x - val m) * (val x - val m)) l)) <= 3 * eps * Rsum (map (fun x => (val x - val m) * (val x - val m)) l)).
    { unfold sq, ys. rewrite map_map. assert (A := dist_part). clearbody m. clear - A P L.
      induction l as [|x r IH]; [cbn [map]; rewrite !Rsum_nil, Rminus_0_r, Rabs_R0; lra|]. cbn [map]. rewrite !Rsum_cons.
      assert (I := IH (fun y Hy => A y (or_intror Hy))). destruct (A x (or_introl eq_refl)) as [_ [e [He Ee]]]. rewrite Ee. set (t := val x - val m) in *.
      match goal with |- Rabs (?a + ?b - (?c + ?d)) <= _ => replace (a + b - (c + d)) with ((a - c) + (b - d)) by ring end. apply Rle_trans with (1 := Rabs_triang _ _).
      rewrite (Rmult_plus_distr_l (3 * eps)). apply Rplus_le_compat; [|exact I].
      replace (t * (1 + e) * (t * (1 + e)) - t * t) with (t * t * (2 * e + e * e)) by ring. rewrite Rabs_mult, (Rabs_pos_eq (t * t)) by apply (Rle_0_sqr t). rewrite Rmult_comm. apply Rmult_le_compat_r; [apply (Rle_0_sqr t)|].
      apply Rabs_le_inv in He. assert (0 <= e * e <= eps * eps) by nra. assert (eps * eps <= / 10 * eps) by (apply Rmult_le_compat_r; lra). apply Rabs_le. lra. }
    unfold Rdiv. rewrite <- Rmult_minus_distr_r, Rabs_mult, (Rabs_pos_eq (/ k)) by (apply Rlt_le, Rinv_0_lt_compat; lra). rewrite <- Rmult_assoc. apply Rmult_le_compat_r; [apply Rlt_le, Rinv_0_lt_compat; lra | exact D].
  Qed.
  Lemma two_pass : let T := Bsqrt mode_NE (Bdiv mode_NE (fold_left (Bplus mode_NE) (map (fun x : f64 => Bmult mode_NE x x) ys) (f64_of_Z 0)) n) in
    is_finite T = true /\ 0 <= B2R T /\ Rabs (B2R T * B2R T - Rvar (map val l)) <= (2 * k + 12) * eps * Rvar (map val l) + 2 * (dl * dl) + (8 * k + 4) * eta.
  Proof using Ul Nl Hl En.
    intros T. assert (P := eps_pos). assert (L := eps_le). assert (Pe := eta_pos). assert (Nb := INR_bnd l Hl Nl). fold k in Nb.
    assert (Sy : Forall small ys) by (apply Forall_forall; intros y Hy; apply in_map_iff in Hy; destruct Hy as [x [<- Hx]]; apply (dist_part x Hx)).
    assert (Ly : @length f64 ys = @length f64 l) by apply map_length.
    destruct (sq_close ys Sy (eq_ind_r (fun a => (a <= 2 ^ 46)%nat) Hl Ly)) as [C1 B1]. rewrite Ly in C1. fold k in C1.
    set (S := fold_left (Bplus mode_NE) _ _) in C1, T. assert (P946 : bpow radix2 946 <= bpow radix2 1000) by (apply bpow_le; lia).
    assert (S0 : 0 <= B2R S).
    { apply fold_nonneg; [destruct (of_Z_correct 0 ltac:(lia)) as [-> _]; lra | | apply C1].
      apply Forall_forall. intros z Hz. apply in_map_iff in Hz. destruct Hz as [y [<- Hy]]. rewrite Forall_forall in Sy. destruct (Sy y Hy) as [Fy By].
      destruct (square_err y Fy) as [_ [B _]]; [apply Rle_trans with (1 := By), bpow_le; lia | apply B]. }
    assert (C2 := close_div _ _ _ _ _ n C1 ltac:(split; [kfits|]; split; [split; [lra | apply j200; lra] | lra]) ltac:(rewrite En; fold k; lra)). rewrite En in C2. fold k in C2.
    set (V := Bdiv mode_NE S n) in C2, T. set (W := sq ys / k) in *. assert (Q0 := sq_nonneg ys).
    assert (W0 : 0 <= W <= sq ys).
    { assert (I : 0 < / k <= 1) by (split; [apply Rinv_0_lt_compat; lra | rewrite <- Rinv_1; apply Rinv_le_contravar; lra]). unfold W, Rdiv. split; [apply Rmult_le_pos; lra|]. rewrite <- (Rmult_1_r (sq ys)) at 2. apply Rmult_le_compat_l; lra. }
    assert (V0 : 0 <= B2R V).
    { destruct (div_R S n) as [_ E]; [apply C1 | rewrite En; fold k; lra | | unfold V; rewrite E; apply rnd_nonneg; apply Rmult_le_pos; [exact S0 | rewrite En; fold k; apply Rlt_le, Rinv_0_lt_compat; lra]].
      apply big_fits. rewrite En. fold k. unfold Rdiv. rewrite Rabs_mult, (Rabs_pos_eq (/ k)) by (apply Rlt_le, Rinv_0_lt_compat; lra).
      assert (I : 0 < / k <= 1) by (split; [apply Rinv_0_lt_compat; lra | rewrite <- Rinv_1; apply Rinv_le_contravar; lra]).
      assert (Z := close_size _ _ _ _ _ C1 ltac:(split; [kfits|]; split; [split; [lra | apply j200; lra] | lra])). assert (J := j_eta (2 * k) ltac:(split; [lra | apply j200; lra])).
      apply Rle_trans with (Rabs (B2R S) * 1); [apply Rmult_le_compat_l; [apply Rabs_pos | lra]|]. destruct p1000 as [P1 P2]. lra. }
    destruct (sqrt_R V (proj1 C2) V0) as [FT _]. change (Bsqrt mode_NE V) with T in FT. split; [exact FT|].
    destruct (close_sqrt _ _ _ _ _ C2 ltac:(split; [kfits|]; split; [split; [lra | apply j200; lra] | lra])) as [_ R]. destruct (R FT) as [T0 ET]. split; [exact T0|]. change (Bsqrt mode_NE V) with T in ET.
    assert (SP := square_part). fold W in SP. destruct mean_part as [_ [Em _]]. unfold Q in SP. set (v := Rvar (map val l)) in *. set (dm := val m - mu) in *.
    assert (v0 : 0 <= v) by (apply Rvar_nonneg; destruct l; [contradiction | discriminate]).
    assert (D2 : 0 <= dm * dm <= dl * dl).
    { split; [apply (Rle_0_sqr dm)|]. rewrite <- (Rabs_pos_eq (dm * dm)) by apply (Rle_0_sqr dm). rewrite Rabs_mult. apply Rmult_le_compat; try apply Rabs_pos; exact Em. }
    assert (ke : 0 <= k * eps <= / 100) by (split; [apply Rmult_le_pos; lra | rewrite eps_val; lra]).
    clearbody k dl T W v dm. clear - P L Pe Nb ET SP v0 D2 ke W0. set (q := v + dm * dm) in *. assert (q0 : 0 <= q) by (unfold q; lra).
    replace (B2R T * B2R T - v) with ((B2R T * B2R T - W) + ((W - q) + dm * dm)) by (unfold q; ring).
    apply Rle_trans with (1 := Rabs_triang _ _). assert (U := Rabs_triang (W - q) (dm * dm)). rewrite (Rabs_pos_eq (dm * dm)) in U by lra.
    assert (Wq : W <= q + 3 * eps * q) by (apply Rabs_le_inv in SP; lra).
    assert (e8 : 0 <= (2 * k + 2 + 2 + 4) * eps <= / 40) by lra.
    assert (X : (2 * k + 2 + 2 + 4) * eps * W <= (2 * k + 2 + 2 + 4) * eps * (q + 3 * eps * q)) by (apply Rmult_le_compat_l; lra).
    assert (Y : (2 * k + 2 + 2 + 4) * eps * (3 * eps * q) <= / 40 * (3 * eps * q)) by (apply Rmult_le_compat_r; [apply Rmult_le_pos; lra | lra]).
    assert (Z : (2 * k + 12) * eps * (dm * dm) <= 1 * (dm * dm)) by (apply Rmult_le_compat_r; lra).
    assert (0 <= eps * q) by (apply Rmult_le_pos; lra). unfold q in *. lra.
  Qed.
End TwoPass.

(** ** C156: the mean and the standard deviation, up to rounding *)
Lemma tol_eq (l : list f64) : 2 * (INR (length l) + 1) * eps * Rmean (map (fun x => Rabs (val x)) l) + 2 * eta = mean_tol (map (fun x : f64 => B2R x) l).
Proof.
  unfold mean_tol. rewrite map_length, map_map, plus_INR, eps_val. change (INR 1) with 1. replace (bpow radix2 (-1074)) with (2 * eta) by (unfold eta; replace (-1074)%Z with (1 + -1075)%Z by lia; rewrite bpow_plus; reflexivity).
  change (IZR (2 ^ 52)) with 4503599627370496. change (fun x : f64 => Rabs (val x)) with (fun x : f64 => Rabs (B2R x)). lra.
Qed.
Section Stats.
  Variable l : list f64.
  Hypothesis Ul : Forall usual (numbers l).
  Hypothesis Nl : numbers l <> [].
  Hypothesis Hl : (vlen (numbers l) <= 2 ^ 46)%N.
  Let xs := map (fun x : f64 => B2R x) (numbers l).

  Lemma len46 : (length (numbers l) <= 2 ^ 46)%nat.
  Proof using Hl. unfold vlen in Hl. assert (E : (2 ^ 46)%nat = N.to_nat (2 ^ 46)) by (rewrite N2Nat.inj_pow; reflexivity). rewrite E. clear - Hl. lia. Qed.
  Lemma divisor : B2R (f64_of_Z (Z.of_N (vlen (numbers l)))) = INR (length (numbers l)).
  Proof using Hl. destruct (of_Z_correct (Z.of_N (vlen (numbers l)))) as [-> _]; [|apply vlen_INR]. assert (2 ^ 46 <= 2 ^ 53)%N by (apply N.pow_le_mono_r; lia). change (2 ^ 53)%Z with (Z.of_N (2 ^ 53)). lia. Qed.

  Theorem c156_mean : is_finite (nan_mean l) = true /\ Rabs (B2R (nan_mean l) - Rmean xs) <= mean_tol xs.
  Proof using Ul Nl Hl.
    rewrite c63_mean. destruct (mean_part (numbers l) Ul Nl len46 _ divisor) as [F [E _]]. split; [exact F|]. rewrite tol_eq in E. exact E.
  Qed.
  Theorem c156_std : is_finite (nan_std l) = true /\ 0 <= B2R (nan_std l) /\
    Rabs (B2R (nan_std l) * B2R (nan_std l) - Rvar xs) <= (2 * INR (length xs) + 12) / IZR (2 ^ 53) * Rvar xs + 2 * (mean_tol xs * mean_tol xs) + bpow radix2 (-1000).
  Proof using Ul Nl Hl.
    rewrite c63_std. cbv zeta. rewrite fold_terms, c63_mean. destruct (two_pass (numbers l) Ul Nl len46 _ divisor) as [F [T0 E]]. split; [exact F|]. split; [exact T0|].
    apply Rle_trans with (1 := E). rewrite tol_eq. fold xs. change (map val (numbers l)) with xs. unfold xs at 4. rewrite map_length, eps_val.
    assert (B := b46 _ len46). set (k := INR (length (numbers l))) in *. assert (k0 : 0 <= k) by apply pos_INR. assert (Q := eta_pos).
    assert (X : (8 * k + 4) * eta <= bpow radix2 (-1000)).
    { apply Rle_trans with (bpow radix2 75 * eta); [apply Rmult_le_compat_r; [lra|]; apply Rle_trans with (bpow radix2 60); [change (bpow radix2 60) with 1152921504606846976; lra | apply bpow_le; lia]|].
      unfold eta. rewrite <- bpow_plus. apply bpow_le. lia. }
    change (IZR (2 ^ 53)) with 9007199254740992. lra.
  Qed.
End Stats.
(** Equal numbers: the deviation is no more than one and a half times the error of the mean. *)
Theorem c156_equal (l : list f64) (c : R) : Forall usual (numbers l) -> numbers l <> [] -> (vlen (numbers l) <= 2 ^ 46)%N ->
  (forall x, In x (numbers l) -> B2R x = c) ->
  let tol := (INR (length (numbers l)) + 1) / IZR (2 ^ 52) * Rabs c + bpow radix2 (-1074) in
  B2R (nan_std l) * B2R (nan_std l) <= 2 * (tol * tol) + bpow radix2 (-1000).
Proof.
  intros U N H E tol. destruct (c156_std l U N H) as [_ [_ B]]. set (xs := map (fun x : f64 => B2R x) (numbers l)) in *.
  assert (P := len_pos _ N).
  assert (X : forall g : R -> R, Rmean (map g xs) = g c).
  { intros g. unfold Rmean, xs. rewrite map_map, map_length. rewrite (Rsum_ext _ (fun _ => g c)) by (intros x Hx; now rewrite (E x Hx)). rewrite Rsum_const. field. lra. }
  assert (M : Rmean xs = c) by (rewrite <- (map_id xs); apply X).
  assert (V : Rvar xs = 0).
  { unfold Rvar. rewrite M. assert (Z := X (fun x => (x - c) * (x - c))). unfold Rmean in Z. rewrite map_length in Z. rewrite Z. ring. }
  assert (T : mean_tol xs = tol).
  { unfold mean_tol, tol. rewrite X. unfold xs. rewrite map_length, plus_INR. reflexivity. }
  rewrite V, T in B. rewrite Rminus_0_r, Rmult_0_r in B. apply Rabs_le_inv in B. lra.
Qed.
(** What is printed of a grid. *)
Theorem c156_printed {TF : Trig f64} {WF : Wave f64} (g : grid f64) : wf_grid g ->
  let xs := map (fun x : f64 => B2R x) (numbers (flat3 (data g))) in
  Forall usual (numbers (flat3 (data g))) -> numbers (flat3 (data g)) <> [] -> (cells_of (data g) <= 2 ^ 46)%N ->
  let y := grid_str g in
  Rabs (B2R (y_mean y) - Rmean xs) <= mean_tol xs /\ 0 <= B2R (y_std y) /\
  Rabs (B2R (y_std y) * B2R (y_std y) - Rvar xs) <= (2 * INR (length xs) + 12) / IZR (2 ^ 53) * Rvar xs + 2 * (mean_tol xs * mean_tol xs) + bpow radix2 (-1000).
Proof.
  intros W xs U N H y. assert (H' : (vlen (numbers (flat3 (data g))) <= 2 ^ 46)%N).
  { apply N.le_trans with (2 := H). unfold cells_of, flat3, numbers, vlen. rewrite <- (map_length (at3 (data g))). generalize (map (at3 (data g)) (ids3 (sh3 (data g)))).
    induction l as [|x l IH]; cbn [filter length]; [lia|]. destruct (negb _); cbn [length]; lia. }
  unfold y, grid_str. cbn [y_mean y_std]. split; [now apply c156_mean|]. destruct (c156_std _ U N H') as [_ [A B]]. auto.
Qed.
Lemma usual_int z : (Z.abs z <= 2 ^ 53)%Z -> usual (f64_of_Z z).
Proof.
  intros H. destruct (of_Z_correct z H) as [E F]. split; [exact F|]. rewrite E, <- abs_IZR. apply Rle_trans with (IZR (2 ^ 53)); [now apply IZR_le|].
  change (IZR (2 ^ 53)) with (bpow radix2 53). apply bpow_le. lia.
Qed.
Example c156_case : let l := [f64_of_Z 1; nnan; f64_of_Z 3] in
  Forall usual (numbers l) /\ numbers l <> [] /\ (vlen (numbers l) <= 2 ^ 46)%N /\ B2SF (nan_std l) = B2SF (f64_of_Z 1).
Proof.
  cbv zeta. assert (E : numbers [f64_of_Z 1; nnan; f64_of_Z 3] = [f64_of_Z 1; f64_of_Z 3]) by reflexivity. rewrite E. split; [constructor; [apply usual_int; lia|]; constructor; [apply usual_int; lia | constructor]|].
  split; [discriminate|]. split; [cbn; lia|]. vm_compute. reflexivity.
Qed.
