(** * FloatVar: rounding errors of one-pass variances *)
From Coq Require Import Reals List NArith ZArith Lia Lra Psatz Bool.
From Flocq Require Import Core.Core IEEE754.BinarySingleNaN.
From Verif Require Import Base BaseFacts Num RFacts F64Facts FloatErr FloatSum CylFloat FloatCalc FunMom.
Import ListNotations.
Local Open Scope R_scope.

Definition val (x : f64) : R := B2R x.
Definition small (x : f64) : Prop := is_finite x = true /\ Rabs (B2R x) <= bpow radix2 450.
(** Sum of squares, of sizes. *)
Definition sq (l : list f64) : R := Rsum (map (fun x => val x * val x) l).
Definition sz (l : list f64) : R := Rsum (map (fun x => Rabs (val x)) l).
Definition sm (l : list f64) : R := Rsum (map val l).

Lemma b46 n : (n <= 2 ^ 46)%nat -> INR n <= 70368744177664.
Proof. intros H. rewrite INR_IZR_INZ. apply IZR_le. assert (X : Z.of_nat (2 ^ 46) = 70368744177664%Z) by (rewrite Nat2Z.inj_pow; reflexivity). lia. Qed.
Lemma z52 n : (n <= 2 ^ 46)%nat -> (Z.of_nat n <= 2 ^ 52)%Z.
Proof. intros H. assert (Z.of_nat (2 ^ 46) = 70368744177664%Z) by (rewrite Nat2Z.inj_pow; reflexivity). lia. Qed.
Lemma sq_nonneg l : 0 <= sq l.
Proof. apply Rsum_nonneg. intros x _. apply (Rle_0_sqr (val x)). Qed.
Lemma cauchy l : l <> [] -> sz l * sz l <= INR (length l) * sq l.
Proof.
  intros H. assert (P : 0 < INR (length l)) by (apply lt_0_INR; destruct l; [contradiction | cbn; lia]).
  assert (N : map (fun x => Rabs (val x)) l <> []) by (destruct l; [contradiction | discriminate]).
  assert (V := Rvar_nonneg _ N). rewrite Rvar_moments, map_map, map_length in V by exact N. fold (sz l) in V.
  assert (E : map (fun x : f64 => Rabs (val x) * Rabs (val x)) l = map (fun x => val x * val x) l).
  { apply map_ext. intros x. rewrite <- Rabs_mult. apply Rabs_pos_eq, Rle_0_sqr. }
  rewrite E in V. fold (sq l) in V.
  apply Rmult_le_compat_r with (r := INR (length l) * INR (length l)) in V; [|apply Rmult_le_pos; lra].
  replace ((sq l - sz l * sz l / INR (length l)) / INR (length l) * (INR (length l) * INR (length l))) with (INR (length l) * sq l - sz l * sz l) in V by (field; lra). lra.
Qed.
Lemma pow_sum {A} (f : A -> R) (l : list A) m : (length l <= 2 ^ 46)%nat -> (forall x, In x l -> f x <= bpow radix2 m) -> Rsum (map f l) <= bpow radix2 (m + 46).
Proof.
  intros Hn H. apply Rle_trans with (INR (length l) * bpow radix2 m).
  - clear Hn. induction l as [|x l IH]; [cbn [map length]; rewrite Rsum_nil; cbn; lra|]. cbn [map]. rewrite Rsum_cons. cbn [length]. rewrite S_INR.
    assert (I := IH (fun y Hy => H y (or_intror Hy))). assert (J := H x (or_introl eq_refl)). lra.
  - rewrite bpow_plus, Rmult_comm. apply Rmult_le_compat_l; [apply bpow_ge_0|]. change (bpow radix2 46) with (IZR 70368744177664). now apply b46.
Qed.
Lemma small_sq x : small x -> 0 <= val x * val x <= bpow radix2 900.
Proof.
  intros [_ H]. fold (val x) in H. split; [apply (Rle_0_sqr (val x))|]. rewrite <- (Rabs_pos_eq (val x * val x)) by apply (Rle_0_sqr (val x)). rewrite Rabs_mult.
  replace 900%Z with (450 + 450)%Z by lia. rewrite bpow_plus. apply Rmult_le_compat; auto using Rabs_pos.
Qed.
Lemma sum_close (l : list f64) : Forall small l -> (length l <= 2 ^ 46)%nat ->
  close (2 * INR (length l)) 0 (fold_left (Bplus mode_NE) l (f64_of_Z 0)) (sm l) (sz l) /\ sz l <= bpow radix2 496.
Proof.
  intros H Hn. rewrite Forall_forall in H.
  assert (Z : sz l <= bpow radix2 496) by (apply (pow_sum _ l 450 Hn); intros x Hx; apply (H x Hx)).
  destruct (sum_err l) as [F E].
  - apply Forall_forall. intros x Hx. apply (H x Hx).
  - assert (Z.of_nat (2 ^ 46) = 70368744177664%Z) by (rewrite Nat2Z.inj_pow; reflexivity). lia.
  - apply Rle_trans with (1 := Z). apply bpow_le. lia.
  - split; [|exact Z]. split; [exact F|]. rewrite <- INR_IZR_INZ in E. split; [fold (val (fold_left (Bplus mode_NE) l (f64_of_Z 0))); unfold sm, sz, val; rewrite Rmult_0_l, Rplus_0_r; exact E|].
    unfold sm, sz. apply Rle_trans with (1 := Rabs_Rsum _). rewrite map_map. lra.
Qed.
Lemma sq_close (l : list f64) : Forall small l -> (length l <= 2 ^ 46)%nat ->
  close (2 * INR (length l) + 2) (2 * INR (length l)) (fold_left (Bplus mode_NE) (map (fun x => Bmult mode_NE x x) l) (f64_of_Z 0)) (sq l) (sq l) /\ sq l <= bpow radix2 946.
Proof.
  intros H Hn. rewrite Forall_forall in H. assert (P := eps_pos). assert (Q := eta_pos). assert (N0 := pos_INR (length l)). assert (N1 := b46 _ Hn).
  assert (Z : sq l <= bpow radix2 946) by (apply (pow_sum _ l 900 Hn); intros x Hx; apply (small_sq x), (H x Hx)).
  assert (Each : forall x, In x l -> is_finite (Bmult mode_NE x x) = true /\ Rabs (val (Bmult mode_NE x x)) <= val x * val x * (1 + eps) + eta /\ Rabs (val (Bmult mode_NE x x) - val x * val x) <= eps * (val x * val x) + eta).
  { intros x Hx. destruct (H x Hx) as [Fx Bx]. destruct (square_err x Fx) as [F [B E]]; [apply Rle_trans with (1 := Bx); apply bpow_le; lia|].
    split; [exact F|]. split; [|exact E]. unfold val. rewrite Rabs_pos_eq by apply B. apply Rabs_le_inv in E. lra. }
  assert (S1 : Rsum (map (fun x => val x * val x * (1 + eps) + eta) l) = (1 + eps) * sq l + INR (length l) * eta).
  { unfold sq. clear. induction l as [|x l IH]; [cbn [map length]; rewrite !Rsum_nil; cbn; lra|]. cbn [map]. rewrite !Rsum_cons, IH. cbn [length]. rewrite S_INR. lra. }
  assert (S2 : Rsum (map (fun x => eps * (val x * val x) + eta) l) = eps * sq l + INR (length l) * eta).
  { unfold sq. clear. induction l as [|x l IH]; [cbn [map length]; rewrite !Rsum_nil; cbn; lra|]. cbn [map]. rewrite !Rsum_cons, IH. cbn [length]. rewrite S_INR. lra. }
  assert (T1 : Rsum (map (fun x : f64 => Rabs (B2R x)) (map (fun x => Bmult mode_NE x x) l)) <= (1 + eps) * sq l + INR (length l) * eta).
  { rewrite <- S1, map_map. apply Rsum_le. intros x Hx. apply (Each x Hx). }
  assert (T2 : Rabs (Rsum (map (fun x : f64 => B2R x) (map (fun x => Bmult mode_NE x x) l)) - sq l) <= eps * sq l + INR (length l) * eta).
  { rewrite <- S2, map_map. unfold sq. clear - Each. induction l as [|x l IH]; [cbn [map]; rewrite !Rsum_nil, Rminus_0_r, Rabs_R0; lra|]. cbn [map]. rewrite !Rsum_cons.
    assert (I := IH (fun y Hy => Each y (or_intror Hy))). destruct (Each x (or_introl eq_refl)) as [_ [_ J]].
    match goal with |- Rabs (?a + ?b - (?c + ?e)) <= _ => replace (a + b - (c + e)) with ((a - c) + (b - e)) by ring end. apply Rle_trans with (1 := Rabs_triang _ _). unfold val in J. apply Rplus_le_compat; [exact J | exact I]. }
  assert (Q0 := sq_nonneg l).
  assert (NE : INR (length l) * eta <= 1) by (apply (j_eta (INR (length l))); split; [lra|]; apply Rle_trans with (bpow radix2 46); [change (bpow radix2 46) with (IZR 70368744177664); lra | apply bpow_le; lia]).
  assert (NS : INR (length l) * eps <= / 100) by (rewrite eps_val; lra). assert (Le := eps_le).
  destruct (sum_err (map (fun x => Bmult mode_NE x x) l)) as [F E].
  - apply Forall_forall. intros y Hy. apply in_map_iff in Hy. destruct Hy as [x [<- Hx]]. apply (Each x Hx).
  - rewrite map_length. exact (z52 _ Hn).
  - apply Rle_trans with (1 := T1). apply Rle_trans with (4 * bpow radix2 946); [|change 4 with (bpow radix2 2); rewrite <- bpow_plus; apply bpow_le; lia].
    assert (eps * sq l <= 1 * sq l) by (apply Rmult_le_compat_r; lra). assert (1 <= bpow radix2 946) by (apply Rle_trans with (bpow radix2 0); [cbn; lra | apply bpow_le; lia]). lra.
  - split; [|exact Z]. split; [exact F|]. split; [|rewrite Rabs_pos_eq; lra]. rewrite map_length, <- INR_IZR_INZ in E. set (r := fold_left _ _ _) in *.
    replace (B2R r - sq l) with ((B2R r - Rsum (map (fun x : f64 => B2R x) (map (fun x => Bmult mode_NE x x) l))) + (Rsum (map (fun x : f64 => B2R x) (map (fun x => Bmult mode_NE x x) l)) - sq l)) by ring.
    apply Rle_trans with (1 := Rabs_triang _ _). apply Rle_trans with (2 * INR (length l) * eps * ((1 + eps) * sq l + INR (length l) * eta) + (eps * sq l + INR (length l) * eta)).
    + apply Rplus_le_compat; [|exact T2]. apply Rle_trans with (1 := E). apply Rmult_le_compat_l; [apply Rmult_le_pos; lra | exact T1].
    + set (n := INR (length l)) in *. set (q := sq l) in *. clearbody n q. clear - P Q N0 Q0 NE NS Le.
      assert (X1 : n * eps * (eps * q) <= / 100 * (eps * q)) by (apply Rmult_le_compat_r; [apply Rmult_le_pos; lra | lra]).
      assert (X2 : n * eps * (n * eta) <= / 100 * (n * eta)) by (apply Rmult_le_compat_r; [apply Rmult_le_pos; lra | lra]).
      assert (0 <= eps * q) by (apply Rmult_le_pos; lra). assert (0 <= n * eta) by (apply Rmult_le_pos; lra). lra.
Qed.
(** The sum of squared deviations in one pass: [S2 - S1 * S1 / n]. *)
Definition dev (l : list f64) : R := sq l - sm l * sm l / INR (length l).
Lemma dev_var l : l <> [] -> dev l = INR (length l) * Rvar (map val l).
Proof.
  intros H. assert (P : 0 < INR (length l)) by (apply lt_0_INR; destruct l; [contradiction | cbn; lia]).
  rewrite Rvar_moments by (destruct l; [contradiction | discriminate]). rewrite map_map, map_length. unfold dev, sq, sm. field. lra.
Qed.
Lemma INR_bnd l : (@length f64 l <= 2 ^ 46)%nat -> l <> [] -> 1 <= INR (length l) <= 70368744177664.
Proof. intros H Ne. split; [|now apply b46]. apply (le_INR 1). destruct l; [contradiction | cbn; lia]. Qed.
Ltac kfits := change (IZR (2 ^ 50)) with 1125899906842624; change (IZR (2 ^ 49)) with 562949953421312; lra.
Lemma j200 j : j <= 10000000000000000 -> j <= bpow radix2 200.
Proof. intros H. apply Rle_trans with (1 := H). apply Rle_trans with (bpow radix2 60); [change (bpow radix2 60) with 1152921504606846976; lra | apply bpow_le; lia]. Qed.
Lemma mean_sq_le l : l <> [] -> sz l * sz l / INR (length l) <= sq l.
Proof.
  intros H. assert (P : 0 < INR (length l)) by (apply lt_0_INR; destruct l; [contradiction | cbn; lia]).
  apply Rmult_le_reg_r with (INR (length l)); [exact P|]. unfold Rdiv. rewrite Rmult_assoc, Rinv_l by lra. assert (C := cauchy l H). lra.
Qed.
Lemma dev_close (l : list f64) (n : f64) : Forall small l -> l <> [] -> (length l <= 2 ^ 46)%nat -> B2R n = INR (length l) ->
  let S1 := fold_left (Bplus mode_NE) l (f64_of_Z 0) in
  let S2 := fold_left (Bplus mode_NE) (map (fun x => Bmult mode_NE x x) l) (f64_of_Z 0) in
  close (5 * INR (length l) + 6) (4 * INR (length l) + 12) (Bminus mode_NE S2 (Bdiv mode_NE (Bmult mode_NE S1 S1) n)) (dev l) (2 * sq l) /\ 2 * sq l <= bpow radix2 947.
Proof.
  intros H Ne Hn En S1 S2. destruct (sum_close l H Hn) as [C1 B1]. destruct (sq_close l H Hn) as [C2 B2]. assert (Nb := INR_bnd l Hn Ne).
  fold S1 in C1. fold S2 in C2. set (k := INR (length l)) in *.
  assert (B947 : bpow radix2 947 = 2 * bpow radix2 946) by (replace 947%Z with (1 + 946)%Z by lia; rewrite bpow_plus; reflexivity).
  assert (L947 : bpow radix2 947 <= bpow radix2 1000) by (apply bpow_le; lia). assert (P946 := bpow_ge_0 radix2 946).
  assert (Z0 : 0 <= sz l) by (apply A_pos in C1; exact C1).
  assert (ZZ : sz l * sz l <= bpow radix2 992).
  { replace 992%Z with (496 + 496)%Z by lia. rewrite bpow_plus. apply Rmult_le_compat; lra. }
  assert (L992 : bpow radix2 992 <= bpow radix2 1000) by (apply bpow_le; lia).
  assert (C3 := close_mult _ _ _ _ _ _ _ _ C1 C1 ltac:(kfits) ltac:(kfits) ltac:(lra)).
  assert (C4 := close_div _ _ _ _ _ n C3 ltac:(split; [kfits|]; split; [split; [lra | apply j200; lra] | lra]) ltac:(rewrite En; lra)).
  rewrite En in C4. assert (M := mean_sq_le l Ne). fold k in M.
  assert (C5 := close_weaken _ _ _ _ _ (5 * k + 4) 6 (sq l) C4 ltac:(lra) ltac:(lra) M ltac:(lra)).
  assert (C6 := close_weaken _ _ _ _ _ (5 * k + 4) (2 * k) (sq l) C2 ltac:(lra) ltac:(lra) ltac:(lra) ltac:(lra)).
  assert (C7 := close_minus _ _ _ _ _ _ _ _ _ C6 C5 ltac:(split; [kfits|]; split; [split; [lra | apply j200; lra] | lra]) ltac:(split; [kfits|]; split; [split; [lra | apply j200; lra] | lra]) ltac:(lra)).
  split; [|lra]. replace (2 * sq l) with (sq l + sq l) by ring. unfold dev. fold k. apply (close_weaken _ _ _ _ _ _ _ _ C7); lra.
Qed.
(** The same over a count already: [S2 / n - S1 * S1 / n / n]. *)
Lemma var_close (l : list f64) (n : f64) : Forall small l -> l <> [] -> (length l <= 2 ^ 46)%nat -> B2R n = INR (length l) ->
  let S1 := fold_left (Bplus mode_NE) l (f64_of_Z 0) in
  let S2 := fold_left (Bplus mode_NE) (map (fun x => Bmult mode_NE x x) l) (f64_of_Z 0) in
  close (5 * INR (length l) + 8) (8 * INR (length l) + 40) (Bminus mode_NE (Bdiv mode_NE S2 n) (Bdiv mode_NE (Bdiv mode_NE (Bmult mode_NE S1 S1) n) n)) (Rvar (map val l)) (2 * (sq l / INR (length l))) /\ 2 * (sq l / INR (length l)) <= bpow radix2 947.
Proof.
  intros H Ne Hn En S1 S2. destruct (sum_close l H Hn) as [C1 B1]. destruct (sq_close l H Hn) as [C2 B2]. assert (Nb := INR_bnd l Hn Ne).
  fold S1 in C1. fold S2 in C2. assert (Dv := dev_var l Ne). unfold dev in Dv. set (k := INR (length l)) in *.
  assert (B947 : bpow radix2 947 = 2 * bpow radix2 946) by (replace 947%Z with (1 + 946)%Z by lia; rewrite bpow_plus; reflexivity).
  assert (L947 : bpow radix2 947 <= bpow radix2 1000) by (apply bpow_le; lia). assert (P946 := bpow_ge_0 radix2 946).
  assert (Z0 : 0 <= sz l) by (apply A_pos in C1; exact C1).
  assert (ZZ : sz l * sz l <= bpow radix2 992).
  { replace 992%Z with (496 + 496)%Z by lia. rewrite bpow_plus. apply Rmult_le_compat; lra. }
  assert (L992 : bpow radix2 992 <= bpow radix2 1000) by (apply bpow_le; lia).
  assert (C3 := close_mult _ _ _ _ _ _ _ _ C1 C1 ltac:(kfits) ltac:(kfits) ltac:(lra)).
  assert (C4 := close_div _ _ _ _ _ n C3 ltac:(split; [kfits|]; split; [split; [lra | apply j200; lra] | lra]) ltac:(rewrite En; lra)).
  rewrite En in C4. assert (M := mean_sq_le l Ne). fold k in M.
  assert (C5 := close_weaken _ _ _ _ _ (5 * k + 4) 6 (sq l) C4 ltac:(lra) ltac:(lra) M ltac:(lra)).
  assert (C8 := close_div _ _ _ _ _ n C5 ltac:(split; [kfits|]; split; [split; [lra | apply j200; lra] | lra]) ltac:(rewrite En; lra)).
  assert (C9 := close_div _ _ _ _ _ n C2 ltac:(split; [kfits|]; split; [split; [lra | apply j200; lra] | lra]) ltac:(rewrite En; lra)).
  rewrite En in C8, C9. assert (A0 : 0 <= sq l / k <= sq l).
  { assert (Q0 := sq_nonneg l). assert (I : 0 < / k <= 1) by (split; [apply Rinv_0_lt_compat; lra | rewrite <- Rinv_1; apply Rinv_le_contravar; lra]).
    unfold Rdiv. split; [apply Rmult_le_pos; lra|]. rewrite <- (Rmult_1_r (sq l)) at 2. apply Rmult_le_compat_l; lra. }
  assert (C9' := close_weaken _ _ _ _ _ (5 * k + 4 + 2) _ _ C9 ltac:(lra) (Rle_refl _) (Rle_refl _) ltac:(lra)).
  assert (C7 := close_minus _ _ _ _ _ _ _ _ _ C9' C8 ltac:(split; [kfits|]; split; [split; [lra | apply j200; lra] | lra]) ltac:(split; [kfits|]; split; [split; [lra | apply j200; lra] | lra]) ltac:(lra)).
  split; [|lra]. replace (2 * (sq l / k)) with (sq l / k + sq l / k) by ring.
  replace (Rvar (map val l)) with (sq l / k - sm l * sm l / k / k); [apply (close_weaken _ _ _ _ _ _ _ _ C7); lra|].
  apply Rmult_eq_reg_l with k; [|lra]. rewrite <- Dv. field. lra.
Qed.
