(** * PropertiesMixFloat: the Lacey index in doubles (C144) *)
From Coq Require Import Reals List NArith ZArith Lia Lra Psatz Bool String.
From Flocq Require Import Core.Core IEEE754.BinarySingleNaN.
From Verif Require Import Base BaseFacts Num F64Facts RFacts NDArray GridModel GridSpec GridFacts CartProofs CartR GridOps
  SelModel DataModel DataSpec DataProofs DataLoad PropertiesGrid PropertiesData FunModel FunSpec FunProofs FunMgr FunField PropertiesFun FunOcc FunMom FunTemp
  FunDisp MixModel FunMix FunLacey FloatErr FloatSum CylFloat FloatCalc FloatVar.
Import ListNotations.
Local Open Scope R_scope.

(** ** More of the calculus: numbers of moderate size *)
Lemma absorb k j x X A : close k j x X A -> 1 <= A -> 0 <= j <= 1000000000000 -> close (k + 1) 0 x X A.
Proof.
  intros [F [E B]] HA Hj. split; [exact F|]. split; [|exact B]. apply Rle_trans with (1 := E). assert (P := eps_pos).
  assert (J : j * eta <= eps).
  { apply Rle_trans with (bpow radix2 60 * eta).
    - apply Rmult_le_compat_r; [left; apply eta_pos|]. change (bpow radix2 60) with 1152921504606846976. lra.
    - unfold eta, eps. rewrite <- bpow_plus. apply bpow_le. lia. }
  assert (eps * 1 <= eps * A) by (apply Rmult_le_compat_l; lra). lra.
Qed.
Lemma mild k j A : 0 <= k <= 1000000000000000 -> 0 <= j <= 1000000000000 -> A <= 1000000 -> fits k j A.
Proof.
  intros Hk Hj HA. split; [change (IZR (2 ^ 50)) with 1125899906842624; lra|]. split; [split; [lra | apply j200; lra]|].
  apply Rle_trans with (1 := HA). apply Rle_trans with (bpow radix2 20); [change (bpow radix2 20) with 1048576; lra | apply bpow_le; lia].
Qed.
Lemma p1000' A : A <= 1000000 -> A <= bpow radix2 1000.
Proof. intros HA. apply Rle_trans with (1 := HA). apply Rle_trans with (bpow radix2 20); [change (bpow radix2 20) with 1048576; lra | apply bpow_le; lia]. Qed.
(** The square of the computed root. *)
Lemma square_of_root k x X : close k 0 x X 2 -> 0 <= k <= 1000000 -> 0 <= B2R x -> close (k + 7) 0 (Bmult mode_NE (Bsqrt mode_NE x) (Bsqrt mode_NE x)) X 2.
Proof.
  intros C Hk X0. assert (Fx : is_finite x = true) by apply C. destruct (sqrt_R x Fx X0) as [FT _].
  destruct (close_sqrt k 0 x X 2 C (mild k 0 2 ltac:(lra) ltac:(lra) ltac:(lra))) as [_ H]. destruct (H FT) as [T0 E]. set (T := Bsqrt mode_NE x) in *.
  assert (BX : Rabs X <= 2) by apply C. assert (P := eps_pos). assert (Le := eps_le). assert (Q := eta_pos).
  assert (KE : (k + 4) * eps <= / 100) by (apply Rle_trans with (2000000 * / 1000000000000); [apply Rmult_le_compat; lra | lra]).
  assert (K0 : 0 <= (k + 4) * eps) by (apply Rmult_le_pos; lra).
  destruct (round_close (B2R T * B2R T) X 2 ((k + 4) * eps) 0) as [G _]; [lra | exact BX | lra | lra | lra|].
  destruct (mul_R T T FT FT) as [Fs Es].
  { apply big_fits. apply Rle_trans with 3; [|apply Rle_trans with (bpow radix2 2); [cbn; lra | apply bpow_le; lia]].
    replace (B2R T * B2R T) with ((B2R T * B2R T - X) + X) by ring. apply Rle_trans with (1 := Rabs_triang _ _). lra. }
  replace (k + 7) with (k + 6 + 1) by ring. apply absorb with (j := 2); [|lra|lra]. split; [exact Fs|]. split; [|exact BX]. rewrite Es. apply Rle_trans with (1 := G). lra.
Qed.
(** A sum of numbers, each close to a given one. *)
Lemma sum_of {T} (f : T -> f64) (X : T -> R) (l : list T) k B : (forall a, In a l -> close k 0 (f a) (X a) B) -> 0 <= k <= 1000000000000 -> 0 <= B <= 1000000 -> (length l <= 2 ^ 46)%nat ->
  close (3 * INR (length l) + k) 0 (fold_left (Bplus mode_NE) (map f l) (f64_of_Z 0)) (Rsum (map X l)) (INR (length l) * B).
Proof.
  intros H Hk HB Hn. assert (P := eps_pos). assert (N0 := pos_INR (length l)). assert (N1 := b46 _ Hn).
  assert (S : forall a, In a l -> is_finite (f a) = true /\ Rabs (B2R (f a)) <= 9 / 8 * B /\ Rabs (B2R (f a) - X a) <= k * eps * B /\ Rabs (X a) <= B).
  { intros a Ha. assert (C := H a Ha). assert (Z := close_size _ _ _ _ _ C (mild k 0 B ltac:(lra) ltac:(lra) ltac:(lra))).
    rewrite Rmult_0_l, Rplus_0_r in Z. destruct C as [F [E Bd]]. rewrite Rmult_0_l, Rplus_0_r in E. auto. }
  destruct (sum_close (map f l)) as [C _].
  - apply Forall_forall. intros x Hx. apply in_map_iff in Hx. destruct Hx as [a [<- Ha]]. destruct (S a Ha) as [F [E _]]. split; [exact F|].
    apply Rle_trans with (1 := E). apply Rle_trans with (bpow radix2 21); [change (bpow radix2 21) with 2097152; lra | apply bpow_le; lia].
  - rewrite map_length. exact Hn.
  - rewrite map_length in C. destruct C as [F [E _]]. rewrite Rmult_0_l, Rplus_0_r in E. set (r := fold_left _ _ _) in *.
    assert (Sz : sz (map f l) <= INR (length l) * (9 / 8 * B)).
    { unfold sz. rewrite map_map. clear - S. induction l as [|a l IH]; [cbn [map length]; rewrite Rsum_nil; cbn; lra|]. cbn [map]. rewrite Rsum_cons. cbn [length]. rewrite S_INR.
      assert (I := IH (fun y Hy => S y (or_intror Hy))). destruct (S a (or_introl eq_refl)) as [_ [J _]]. unfold val at 1. lra. }
    assert (Sm : Rabs (sm (map f l) - Rsum (map X l)) <= INR (length l) * (k * eps * B)).
    { unfold sm. rewrite map_map. clear - S. induction l as [|a l IH]; [cbn [map length]; rewrite !Rsum_nil, Rminus_0_r, Rabs_R0; cbn; lra|]. cbn [map]. rewrite !Rsum_cons. cbn [length]. rewrite S_INR.
      assert (I := IH (fun y Hy => S y (or_intror Hy))). destruct (S a (or_introl eq_refl)) as [_ [_ [J _]]].
      match goal with |- Rabs (?a + ?b - (?c + ?e)) <= _ => replace (a + b - (c + e)) with ((a - c) + (b - e)) by ring end. apply Rle_trans with (1 := Rabs_triang _ _). unfold val at 1. lra. }
    split; [exact F|]. split.
    + replace (B2R r - Rsum (map X l)) with ((B2R r - sm (map f l)) + (sm (map f l) - Rsum (map X l))) by ring. apply Rle_trans with (1 := Rabs_triang _ _).
      set (n := INR (length l)) in *.
      assert (2 * n * eps * sz (map f l) <= 2 * n * eps * (n * (9 / 8 * B))) by (apply Rmult_le_compat_l; [apply Rmult_le_pos; lra | exact Sz]).
      assert (0 <= n * eps * (n * B)) by (apply Rmult_le_pos; apply Rmult_le_pos; lra). lra.
    + clear - S HB. induction l as [|a l IH]; [cbn [map length]; rewrite Rsum_nil, Rabs_R0; cbn; lra|]. cbn [map]. rewrite Rsum_cons. cbn [length]. rewrite S_INR.
      assert (I := IH (fun y Hy => S y (or_intror Hy))). destruct (S a (or_introl eq_refl)) as [_ [_ [_ J]]]. apply Rle_trans with (1 := Rabs_triang _ _). lra.
Qed.

(** ** The index from the shares *)
(** The correctly rounded share. *)
Definition is_share (x : f64) (X : R) : Prop := is_finite x = true /\ B2R x = rnd X /\ 0 <= X <= 1 /\ 0 <= B2R x <= 1.
Lemma share_close x X : is_share x X -> close 2 0 x X 1.
Proof.
  intros [F [E [B _]]]. replace 2 with (1 + 1) by ring. apply absorb with (j := 1); [|lra|lra]. split; [exact F|]. split; [|rewrite Rabs_pos_eq; lra].
  rewrite E. destruct (rnd_ex X) as [e [dl [He [Hd ->]]]]. replace (X * (1 + e) + dl - X) with (X * e + dl) by ring. apply Rle_trans with (1 := Rabs_triang _ _). rewrite Rabs_mult, (Rabs_pos_eq X) by lra.
  assert (X * Rabs e <= 1 * eps) by (apply Rmult_le_compat; [lra | apply Rabs_pos | lra | lra]). lra.
Qed.
Lemma one_close : close 2 0 (f64_of_Z 1) 1 1.
Proof.
  destruct (of_Z_correct 1 ltac:(lia)) as [E F]. assert (C := close_exact _ F). rewrite E, Rabs_R1 in C. apply close_weaken with (1 := C); lra.
Qed.

Section Index.
  Context {T : Type} (mean : f64) (c : R) (conc : T -> f64) (C : T -> R) (kept : list T) (n : N).
  Hypothesis Hm : is_share mean c.
  Hypothesis Hc : forall a, In a kept -> is_share (conc a) (C a).
  Hypothesis Hk : (length kept <= N.to_nat n)%nat.
  Hypothesis Hn : (2 <= n <= 2 ^ 46)%N.
  Hypothesis Hs : bpow radix2 (-40) <= c * (1 - c).
  Let S := c * (1 - c).
  Let N' := f64_of_Z (Z.of_N n).
  Let p := Bmult mode_NE mean (Bminus mode_NE (f64_of_Z 1) mean).
  Let sq64 (x : f64) := Bmult mode_NE x x.
  Let dev := fold_left (Bplus mode_NE) (map (fun a => sq64 (Bminus mode_NE (conc a) mean)) kept) (f64_of_Z 0).
  Let var := Bdiv mode_NE dev (Bminus mode_NE N' (f64_of_Z 1)).
  Let V := Rsum (map (fun a => (C a - c) * (C a - c)) kept) / (NR n - 1).

  Lemma n_facts : is_finite N' = true /\ B2R N' = NR n /\ 2 <= NR n <= 70368744177664 /\ is_finite (Bminus mode_NE N' (f64_of_Z 1)) = true /\ B2R (Bminus mode_NE N' (f64_of_Z 1)) = NR n - 1.
  Proof using Hn.
    assert (B : (2 <= Z.of_N n <= 70368744177664)%Z) by (clear - Hn; lia).
    destruct (of_Z_correct (Z.of_N n) ltac:(clear - B; lia)) as [E F]. destruct (of_Z_correct 1 ltac:(clear; lia)) as [E1 F1]. fold N' in E, F.
    split; [exact F|]. split; [exact E|]. split; [split; unfold NR; apply IZR_le; clear - B; lia|].
    assert (Le : B2R (f64_of_Z 1) <= B2R N') by (rewrite E, E1; apply IZR_le; clear - B; lia).
    assert (R1 : rnd (B2R N' - B2R (f64_of_Z 1)) = NR n - 1).
    { rewrite E, E1, <- minus_IZR, rnd_fmt; [unfold NR; now rewrite minus_IZR|]. apply fmt_int. clear - B. lia. }
    destruct (minus_cases N' (f64_of_Z 1) F F1 Le) as [[_ [Fm Em]]|[Big _]]; [now rewrite Em, R1|].
    exfalso. rewrite R1 in Big. assert (Q := M64_big). assert (NR n - 1 < IZR (2 ^ 53)); [|lra]. unfold NR. rewrite <- minus_IZR. apply IZR_lt. clear - B. lia.
  Qed.
  Lemma S_facts : 0 < S <= 1 /\ 0 <= c <= 1.
  Proof using Hs Hm. assert (Q := bpow_gt_0 radix2 (-40)). destruct Hm as [_ [_ [B _]]]. unfold S. split; [split; [lra|] | exact B]. apply Rle_trans with (1 * 1); [apply Rmult_le_compat; lra | lra]. Qed.
  Lemma p_close : close 11 0 p S 2 /\ 0 <= B2R p.
  Proof using Hm.
    assert (Cm := share_close _ _ Hm). destruct Hm as [Fm [Em [Bc Bm]]].
    assert (Co := close_minus 2 0 0 _ _ 1 _ _ 1 one_close Cm (mild 2 0 1 ltac:(lra) ltac:(lra) ltac:(lra)) (mild 2 0 1 ltac:(lra) ltac:(lra) ltac:(lra)) (p1000' (1 + 1) ltac:(lra))).
    replace (2 * (0 + 0)) with 0 in Co by ring.
    assert (Cp := close_mult 2 (2 + 2) mean c 1 _ _ (1 + 1) Cm Co ltac:(kfits) ltac:(kfits) (p1000' (1 * (1 + 1)) ltac:(lra))). fold p in Cp. split.
    - apply absorb in Cp; [|lra|lra]. apply close_weaken with (1 := Cp); try lra.
    - set (o := Bminus mode_NE (f64_of_Z 1) mean) in *.
      assert (O0 : 0 <= B2R o).
      { destruct (of_Z_correct 1 ltac:(clear; lia)) as [E1 F1]. destruct (minus_cases (f64_of_Z 1) mean F1 Fm ltac:(rewrite E1; lra)) as [[_ [_ E]]|[_ E]]; fold o in E; rewrite E; [apply rnd_nonneg; rewrite E1; lra | cbn; lra]. }
      destruct (mul_R mean o Fm (proj1 Co)) as [_ E].
      { apply (below_lt o). split; [apply Rmult_le_pos; lra|]. apply Rle_trans with (1 * B2R o); [apply Rmult_le_compat_r; lra | lra]. }
      unfold p. fold o. rewrite E. apply rnd_nonneg, Rmult_le_pos; lra.
  Qed.
  Lemma smax_close : close 18 0 (sq64 (Bsqrt mode_NE p)) S 2.
  Proof using Hm. destruct p_close as [Cp P0]. assert (Q := square_of_root 11 p S Cp ltac:(lra) P0). replace (11 + 7) with 18 in Q by ring. exact Q. Qed.
  Lemma smin_close : close 21 0 (sq64 (Bsqrt mode_NE (Bdiv mode_NE p N'))) (S / NR n) 2.
  Proof using Hm Hn.
    destruct p_close as [Cp P0]. destruct n_facts as [FN [EN [[N2 _] _]]].
    assert (Cd := close_div 11 0 p S 2 N' Cp (mild 11 0 2 ltac:(lra) ltac:(lra) ltac:(lra)) ltac:(rewrite EN; lra)). rewrite EN in Cd.
    assert (A2 : 2 / NR n <= 2).
    { apply Rmult_le_reg_r with (NR n); [lra|]. unfold Rdiv. rewrite Rmult_assoc, Rinv_l by lra. lra. }
    apply close_weaken with (k' := 13) (j' := 2) (A' := 2) in Cd; [|lra|lra|exact A2|lra]. apply absorb in Cd; [|lra|lra].
    assert (D0 : 0 <= B2R (Bdiv mode_NE p N')).
    { destruct (div_R p N') as [_ E]; [apply p_close | rewrite EN; lra | |].
      - rewrite EN. apply (below_lt p). split; [apply Rmult_le_pos; [exact P0 | left; apply Rinv_0_lt_compat; lra]|].
        apply Rmult_le_reg_r with (NR n); [lra|]. unfold Rdiv. rewrite Rmult_assoc, Rinv_l by lra. apply Rmult_le_compat_l; lra.
      - rewrite E. apply rnd_nonneg. rewrite EN. apply Rmult_le_pos; [exact P0 | left; apply Rinv_0_lt_compat; lra]. }
    assert (Q := square_of_root (13 + 1) _ _ Cd ltac:(lra) D0). apply close_weaken with (1 := Q); lra.
  Qed.
  Lemma dev_close' a : In a kept -> close 14 0 (sq64 (Bminus mode_NE (conc a) mean)) ((C a - c) * (C a - c)) 4.
  Proof using Hm Hc.
    intros Ha. assert (Ca := share_close _ _ (Hc a Ha)). assert (Cm := share_close _ _ Hm).
    assert (Co := close_minus 2 0 0 _ _ 1 _ _ 1 Ca Cm (mild 2 0 1 ltac:(lra) ltac:(lra) ltac:(lra)) (mild 2 0 1 ltac:(lra) ltac:(lra) ltac:(lra)) (p1000' (1 + 1) ltac:(lra))).
    replace (2 * (0 + 0)) with 0 in Co by ring.
    assert (Cp := close_mult (2 + 2) (2 + 2) _ _ (1 + 1) _ _ (1 + 1) Co Co ltac:(kfits) ltac:(kfits) (p1000' ((1 + 1) * (1 + 1)) ltac:(lra))).
    apply absorb in Cp; [|lra|lra]. apply close_weaken with (1 := Cp); lra.
  Qed.
  Lemma var_close' : close (3 * NR n + 17) 0 var V 8.
  Proof using Hm Hc Hk Hn.
    destruct n_facts as [FN [EN [[N2 N3] [Fm Em]]]].
    assert (Lk : INR (length kept) <= NR n) by (unfold NR; rewrite INR_IZR_INZ; apply IZR_le; clear - Hk; lia).
    assert (L46 : (length kept <= 2 ^ 46)%nat).
    { apply Nat.le_trans with (1 := Hk). apply Nat2Z.inj_le. rewrite Nat2Z.inj_pow. clear - Hn. change (Z.of_nat 2 ^ Z.of_nat 46)%Z with 70368744177664%Z. lia. }
    assert (Sm := sum_of _ _ kept 14 4 dev_close' ltac:(lra) ltac:(lra) L46). fold dev in Sm. set (m := INR (length kept)) in *. assert (M0 : 0 <= m) by apply pos_INR.
    apply close_weaken with (k' := 3 * NR n + 14) (j' := 0) (A' := NR n * 4) in Sm; [|lra|lra|lra|lra].
    assert (FD : fits (3 * NR n + 14) 0 (NR n * 4)).
    { split; [kfits|]. split; [split; [lra | apply j200; lra]|]. apply Rle_trans with (bpow radix2 60); [change (bpow radix2 60) with 1152921504606846976; lra | apply bpow_le; clear; lia]. }
    assert (Cd := close_div _ _ _ _ _ (Bminus mode_NE N' (f64_of_Z 1)) Sm FD ltac:(rewrite Em; lra)). fold var in Cd. rewrite Em in Cd. fold V in Cd.
    assert (A8 : NR n * 4 / (NR n - 1) <= 8).
    { apply Rmult_le_reg_r with (NR n - 1); [lra|]. unfold Rdiv. rewrite Rmult_assoc, Rinv_l by lra. lra. }
    apply close_weaken with (k' := 3 * NR n + 16) (j' := 2) (A' := 8) in Cd; [|lra|lra|exact A8|lra]. apply absorb in Cd; [|lra|lra]. apply close_weaken with (1 := Cd); lra.
  Qed.

  Let I := (S - V) / (S - S / NR n).
  Lemma index_close : let q := Bdiv mode_NE (Bminus mode_NE (sq64 (Bsqrt mode_NE p)) var) (Bminus mode_NE (sq64 (Bsqrt mode_NE p)) (sq64 (Bsqrt mode_NE (Bdiv mode_NE p N')))) in
    is_finite q = true /\ Rabs (B2R q - I) <= (NR n + 16) / IZR (2 ^ 46) * (1 + Rabs I) / S.
  Proof using Hm Hc Hk Hn Hs.
    destruct n_facts as [FN [EN [[N2 N3] _]]]. destruct S_facts as [[S0 S1] _].
    assert (C1 : close (3 * NR n + 17) 0 (sq64 (Bsqrt mode_NE p)) S 2) by (apply close_weaken with (1 := smax_close); lra).
    assert (C2 : close 21 0 (sq64 (Bsqrt mode_NE p)) S 2) by (apply close_weaken with (1 := smax_close); lra).
    assert (Fk : forall A, A <= 1000000 -> fits (3 * NR n + 17) 0 A) by (intros A HA; apply mild; lra).
    assert (Cn := close_minus _ 0 0 _ _ _ _ _ _ C1 var_close' (Fk 2 ltac:(lra)) (Fk 8 ltac:(lra)) (p1000' (2 + 8) ltac:(lra))).
    assert (Cd := close_minus _ 0 0 _ _ _ _ _ _ C2 smin_close (mild 21 0 2 ltac:(lra) ltac:(lra) ltac:(lra)) (mild 21 0 2 ltac:(lra) ltac:(lra) ltac:(lra)) (p1000' (2 + 2) ltac:(lra))).
    intros q. unfold q. clear q. set (nu := Bminus mode_NE (sq64 (Bsqrt mode_NE p)) var) in *. set (de := Bminus mode_NE _ (sq64 (Bsqrt mode_NE (Bdiv mode_NE p N')))) in *.
    destruct Cn as [Fnu [Enu Bnu]]. destruct Cd as [Fde [Ede Bde]]. replace (2 * (0 + 0)) with 0 in Enu, Ede by ring. rewrite Rmult_0_l, Rplus_0_r in Enu, Ede.
    assert (P := eps_pos). assert (Le := eps_le). assert (Q := eta_pos).
    set (Nu := S - V) in *. set (De := S - S / NR n) in *. set (n' := NR n) in *.
    assert (De2 : S / 2 <= De).
    { unfold De. assert (S / n' <= S / 2); [|lra]. apply Rmult_le_compat_l; [lra|]. apply Rinv_le_contravar; lra. }
    assert (E40 : 100 * eps <= S / 60).
    { apply Rle_trans with (bpow radix2 (-40) / 60); [|unfold S; lra]. rewrite eps_val. change (bpow radix2 (-40)) with (/ 1099511627776). lra. }
    apply Rabs_le_inv in Ede. assert (De3 : S * (29 / 60) <= B2R de) by lra.
    assert (In : Nu = I * De) by (unfold I; fold Nu De; field; lra).
    set (al := (3 * n' + 17 + 2) * eps * (2 + 8)) in *. assert (A0 : 0 <= al) by (unfold al; apply Rmult_le_pos; [apply Rmult_le_pos|]; lra).
    assert (Qd : Rabs (B2R nu / B2R de - I) <= (al + 100 * eps * Rabs I) * (60 / 29 / S)).
    { replace (B2R nu / B2R de - I) with (((B2R nu - Nu) - I * (B2R de - De)) / B2R de) by (rewrite In; field; lra).
      unfold Rdiv at 1. rewrite Rabs_mult. apply Rmult_le_compat; try apply Rabs_pos.
      - unfold Rminus at 1. apply Rle_trans with (1 := Rabs_triang _ _). rewrite Rabs_Ropp, Rabs_mult.
        assert (Rabs I * Rabs (B2R de - De) <= Rabs I * (100 * eps)) by (apply Rmult_le_compat_l; [apply Rabs_pos | apply Rabs_le; lra]). lra.
      - rewrite Rabs_pos_eq by (left; apply Rinv_0_lt_compat; lra). replace (60 / 29 / S) with (/ (S * (29 / 60))) by (field; lra). apply Rinv_le_contravar; lra. }
    assert (I0 := Rabs_pos I).
    set (W := (al + 100 * eps * Rabs I) * (60 / 29 / S)) in *.
    assert (SI : 1 <= / S) by (rewrite <- Rinv_1; apply Rinv_le_contravar; lra).
    (* the size of everything *)
    assert (Bal : al <= / 4).
    { unfold al. rewrite eps_val. lra. }
    assert (SI40 : / S <= IZR (2 ^ 40)).
    { replace (IZR (2 ^ 40)) with (/ bpow radix2 (-40)) by (change (bpow radix2 (-40)) with (/ 1099511627776); change (IZR (2 ^ 40)) with 1099511627776; field). apply Rinv_le_contravar; [apply bpow_gt_0 | exact Hs]. }
    change (IZR (2 ^ 40)) with 1099511627776 in SI40.
    assert (IB : Rabs I <= 100000000000000).
    { assert (D : Rabs I * De <= 10). { rewrite <- (Rabs_pos_eq De) by lra. rewrite <- Rabs_mult, <- In. lra. }
      apply Rmult_le_reg_r with De; [lra|]. apply Rle_trans with (1 := D). apply Rle_trans with (100000000000000 * (S / 2)); [|apply Rmult_le_compat_l; lra].
      assert (/ 1099511627776 <= S) by (change (/ 1099511627776) with (bpow radix2 (-40)); exact Hs). lra. }
    assert (WB : W <= 100000000000000000).
    { unfold W. apply Rle_trans with ((/ 4 + 100 * / 1000000000000 * 100000000000000) * (60 / 29 * 1099511627776)); [|lra].
      apply Rmult_le_compat; [assert (0 <= eps * Rabs I) by (apply Rmult_le_pos; lra); lra | unfold Rdiv; apply Rmult_le_pos; lra | |unfold Rdiv; lra].
      apply Rplus_le_compat; [exact Bal|]. apply Rmult_le_compat; lra. }
    assert (W0 : 0 <= W) by (apply Rle_trans with (2 := Qd); apply Rabs_pos).
    destruct (div_R nu de Fnu ltac:(lra)) as [Fq Eq].
    { apply big_fits. apply Rle_trans with (bpow radix2 60); [|apply bpow_le; clear; lia]. change (bpow radix2 60) with 1152921504606846976.
      replace (B2R nu / B2R de) with ((B2R nu / B2R de - I) + I) by ring. apply Rle_trans with (1 := Rabs_triang _ _). lra. }
    split; [exact Fq|]. rewrite Eq. destruct (rnd_ex (B2R nu / B2R de)) as [e [dl [He [Hd Er]]]]. rewrite Er. set (y := B2R nu / B2R de) in *.
    replace (y * (1 + e) + dl - I) with ((y - I) + (y - I) * e + I * e + dl) by ring.
    assert (Y1 : Rabs ((y - I) * e) <= W * eps) by (rewrite Rabs_mult; apply Rmult_le_compat; auto using Rabs_pos).
    assert (Y2 : Rabs (I * e) <= Rabs I * eps) by (rewrite Rabs_mult; apply Rmult_le_compat_l; lra).
    assert (Ee : eta <= eps) by (unfold eta, eps; apply bpow_le; clear; lia).
    apply Rle_trans with (W + W * eps + Rabs I * eps + eps).
    { apply Rle_trans with (1 := Rabs_triang _ _). apply Rplus_le_compat; [|lra]. apply Rle_trans with (1 := Rabs_triang _ _). apply Rplus_le_compat; [|exact Y2].
      apply Rle_trans with (1 := Rabs_triang _ _). apply Rplus_le_compat; [exact Qd | exact Y1]. }
    assert (WE : W * eps <= W * / 1000) by (apply Rmult_le_compat_l; lra).
    assert (R1 : eps * (1 + Rabs I) * 1 <= eps * (1 + Rabs I) * / S) by (apply Rmult_le_compat_l; [apply Rmult_le_pos; lra | exact SI]).
    assert (WU : W <= (n' + 10) * 64 * eps * (1 + Rabs I) * / S).
    { unfold W. replace (60 / 29 / S) with (60 / 29 * / S) by (field; lra).
      rewrite <- Rmult_assoc. apply Rmult_le_compat_r; [lra|]. unfold al.
      assert (0 <= n' * eps) by (apply Rmult_le_pos; lra). assert (0 <= n' * eps * Rabs I) by (apply Rmult_le_pos; lra). assert (0 <= eps * Rabs I) by (apply Rmult_le_pos; lra). lra. }
    assert (Fin : (n' + 16) / IZR (2 ^ 46) * (1 + Rabs I) / S = (n' + 16) * 128 * eps * (1 + Rabs I) * / S).
    { rewrite eps_val. change (IZR (2 ^ 46)) with 70368744177664. field. lra. }
    rewrite Fin. set (u := eps * (1 + Rabs I) * / S) in *.
    replace ((n' + 10) * 64 * eps * (1 + Rabs I) * / S) with ((n' + 10) * 64 * u) in WU by (unfold u; ring).
    replace ((n' + 16) * 128 * eps * (1 + Rabs I) * / S) with ((n' + 16) * 128 * u) by (unfold u; ring).
    assert (U0 : 0 <= u) by (unfold u; apply Rmult_le_pos; [apply Rmult_le_pos|]; lra).
    assert (NU : 0 <= n' * u) by (apply Rmult_le_pos; lra). lra.
  Qed.
End Index.

(** ** C144: specification *)
(** The exact share of type [ta] among both types, and the cells with at least [thr] samples of the two types. *)
Definition share64 (ta tb : N) (l : list (sample f64)) : R := NR (number_of ta l) / NR (number_of ta l + number_of tb l).
Definition full64 {TF : Trig f64} (bld : build) (g : grid f64) (ta tb thr : N) (l : list (sample f64)) : list id3 :=
  filter (fun c => thr <=? number_of ta (samples_in bld (geo g) c l) + number_of tb (samples_in bld (geo g) c l))%N (ids3 (geom_cells (geo g))).
(** The exact index of the recorded particles of one timestep. *)
Definition exact_lacey {TF : Trig f64} (bld : build) (g : grid f64) (ta tb thr : N) (l : list (sample f64)) : R :=
  lacey_index (vlen (ids3 (geom_cells (geo g)))) (share64 ta tb l) (map (fun c => share64 ta tb (samples_in bld (geo g) c l)) (full64 bld g ta tb thr l)).

Lemma number_le (t : N) (l : list (sample f64)) : (number_of t l <= vlen l)%N.
Proof. unfold number_of, vlen. induction l as [|m l IH]; cbn [filter List.length]; [lia|]. destruct (of_type t m); cbn [List.length]; lia. Qed.
Lemma two_types ta tb (l : list (sample f64)) : ta <> tb -> (number_of ta l + number_of tb l <= vlen l)%N.
Proof.
  intros Ne. unfold number_of, vlen. induction l as [|m l IH]; cbn [filter List.length]; [lia|].
  destruct (of_type ta m) eqn:A, (of_type tb m) eqn:B; cbn [List.length]; try (clear A B; lia).
  unfold of_type in A, B. apply N.eqb_eq in A, B. congruence.
Qed.
Lemma samples_le {TF : Trig f64} bld ge c (l : list (sample f64)) : (vlen (samples_in bld ge c l) <= vlen l)%N.
Proof. unfold samples_in, vlen. induction l as [|m l IH]; cbn [filter List.length]; [lia|]. destruct (in_cell bld ge c (sm_pos m)); cbn [List.length]; lia. Qed.
Lemma of_N_close (n : N) : (n <= 2 ^ 53)%N -> is_finite (@nofN f64 num_f64 n) = true /\ B2R (@nofN f64 num_f64 n) = NR n.
Proof. intros H. unfold nofN. cbn [nof num_f64]. destruct (of_Z_correct (Z.of_N n) ltac:(lia)) as [E F]. auto. Qed.
Lemma share_of (x y : f64) (a b : N) : is_finite x = true -> B2R x = NR a -> is_finite y = true -> B2R y = NR (a + b) -> (0 < a + b)%N ->
  is_share (Bdiv mode_NE x y) (NR a / NR (a + b)).
Proof.
  intros Fx Ex Fy Ey P. assert (Pab : 0 < NR (a + b)) by (unfold NR; apply (IZR_lt 0); lia). assert (Le : 0 <= NR a <= NR (a + b)) by (unfold NR; split; apply IZR_le; lia).
  destruct (div_unit x y Fx) as [D1 [D2 D3]]; [rewrite Ex, Ey; exact Le | rewrite Ey; exact Pab|]. rewrite Ex, Ey in D2, D3. split; [exact D1|]. split; [exact D2|].
  split; [|rewrite D2; exact D3]. split; [apply Rmult_le_pos; [lra | left; now apply Rinv_0_lt_compat]|].
  apply Rmult_le_reg_r with (NR (a + b)); [exact Pab|]. unfold Rdiv. rewrite Rmult_assoc, Rinv_l by lra. lra.
Qed.
Lemma fold_filter_map {T} (f : T -> f64) (keep : T -> bool) l : forall a0 : f64,
  fold_left (fun acc c => if keep c then Bplus mode_NE acc (f c) else acc) l a0 = fold_left (Bplus mode_NE) (map f (filter keep l)) a0.
Proof. induction l as [|c l IH]; intros a0; [reflexivity|]. cbn [fold_left filter]. destruct (keep c); cbn [map fold_left]; apply IH. Qed.
Lemma fold_ext_in {A B} (f g : A -> B -> A) (l : list B) : (forall a b, In b l -> f a b = g a b) -> forall a, fold_left f l a = fold_left g l a.
Proof. induction l as [|b l IH]; intros H a; [reflexivity|]. cbn [fold_left]. rewrite H by now left. apply IH. intros; apply H; now right. Qed.

Section Step.
  Context {TF : Trig f64}.
  Lemma lacey_step_64 bld ta tb thr (g : grid f64) (cg : cart_geom f64) s x v : rect x -> sel_ok s -> fresh g -> geo g = Cart cg -> timestep_valid s (ts_time x) = true ->
    ta <> tb -> (1 <= thr <= 2 ^ 53)%N -> (2 <= vlen (ids3 (geom_cells (geo g))) <= 2 ^ 46)%N -> (vlen (observed s [x]) <= 2 ^ 53)%N ->
    let c := share64 ta tb (observed s [x]) in
    bpow radix2 (-40) <= c * (1 - c) ->
    lacey_step bld g s ta tb thr x = Val v ->
    let I := exact_lacey bld g ta tb thr (observed s [x]) in
    is_finite v = true /\ Rabs (B2R v - I) <= (NR (vlen (ids3 (geom_cells (geo g)))) + 16) / IZR (2 ^ 46) * (1 + Rabs I) / (c * (1 - c)).
  Proof.
    intros Rx Sk [W Fr] G V Ne Thr Hn Small c Hs E I. destruct (lacey_step_inv bld ta tb thr g s x v Rx Sk W V E) as [a [b [[Wa [Ga Ha]] [[Wb [Gb Hb]] Ev]]]].
    set (l := observed s [x]) in *. rewrite (lacey_value_ok a b (geo g) _ _ _ Wa Ga Wb Gb) in Ev.
    match type of Ev with Val ?t = Val v => assert (Ev' : v = t) by congruence end. clear Ev.
    set (cells := ids3 (geom_cells (geo g))) in *. assert (T2 := two_types ta tb l Ne).
    set (mean := ndiv (nofN (number_of ta l)) (nofN (number_of ta l + number_of tb l))) in *.
    assert (Pos : (0 < number_of ta l + number_of tb l)%N).
    { destruct (N.eq_dec (number_of ta l + number_of tb l) 0) as [Z|]; [|lia]. exfalso. unfold c, share64 in Hs. rewrite Z in Hs.
      assert (Za : number_of ta l = 0%N) by lia. rewrite Za in Hs. unfold NR in Hs. cbn [Z.of_N] in Hs. unfold Rdiv in Hs. rewrite !Rmult_0_l in Hs. generalize (bpow_gt_0 radix2 (-40)). lra. }
    assert (Hm : is_share mean c).
    { destruct (of_N_close (number_of ta l) ltac:(clear - T2 Small; lia)) as [F1 E1]. destruct (of_N_close (number_of ta l + number_of tb l) ltac:(clear - T2 Small; lia)) as [F2 E2].
      unfold mean, c, share64. apply share_of; assumption. }
    (* what the grids hold *)
    assert (D : forall cell, inb3 (geom_cells (geo g)) cell = true -> let na := number_of ta (samples_in bld (geo g) cell l) in let nb := number_of tb (samples_in bld (geo g) cell l) in
      (na + nb <= 2 ^ 53)%N /\ (is_finite (at3 (data a) cell) = true /\ B2R (at3 (data a) cell) = NR na) /\ (is_finite (at3 (weight a) cell) = true /\ B2R (at3 (weight a) cell) = NR na) /\
      (is_finite (at3 (data b) cell) = true /\ B2R (at3 (data b) cell) = NR nb) /\ (is_finite (at3 (weight b) cell) = true /\ B2R (at3 (weight b) cell) = NR nb)).
    { intros cell Hc na nb. assert (T3 : (na + nb <= 2 ^ 53)%N).
      { assert (Q1 := two_types ta tb (samples_in bld (geo g) cell l) Ne). assert (Q2 := samples_le bld (geo g) cell l). unfold na, nb. clear - Q1 Q2 Small. lia. }
      split; [exact T3|]. destruct (Ha cell Hc) as [A1 A2], (Hb cell Hc) as [B1 B2]. rewrite fold_ones in A1, B1.
      change (at3 (weight (new_zeros g)) cell) with (at3 (weight g) cell) in A2, B2. rewrite (proj2 (Fr cell)) in A2, B2.
      change (at3 (data (new_zeros g)) cell) with (@n0 f64 num_f64) in A1, B1.
      assert (Fi := first_number bld g cg cell ta l G). assert (Se := second_number bld g cg cell ta tb l G Ne). unfold in_first, in_second in Fi, Se.
      rewrite Fi in A1, A2. rewrite Se in B1, B2.
      assert (Ca := count_f64 (filter (of_type ta) (samples_in bld (geo g) cell l)) (N.le_trans na (na + nb) _ (N.le_add_r _ _) T3)).
      assert (Cb := count_f64 (filter (of_type tb) (samples_in bld (geo g) cell l)) (N.le_trans nb (na + nb) _ (N.le_add_l _ _) T3)).
      unfold count in Ca, Cb. rewrite A1, A2, B1, B2. auto. }
    set (conc := fun cell => Bdiv mode_NE (at3 (data a) cell) (Bplus mode_NE (at3 (data b) cell) (at3 (data a) cell))).
    set (full := fun cell => (thr <=? number_of ta (samples_in bld (geo g) cell l) + number_of tb (samples_in bld (geo g) cell l))%N).
    assert (Hc : forall cell, In cell (filter full cells) -> is_share (conc cell) (share64 ta tb (samples_in bld (geo g) cell l))).
    { intros cell Hin. apply filter_In in Hin. destruct Hin as [Hin Hf]. apply in_ids3 in Hin. destruct (D cell Hin) as [T3 [[F1 E1] [_ [[F2 E2] _]]]].
      destruct (add_exact _ _ _ _ F2 E2 F1 E1) as [Fs Es]; [clear - T3; lia|]. unfold conc, share64. apply share_of; [exact F1 | exact E1 | exact Fs | |unfold full in Hf; apply N.leb_le in Hf; clear - Hf Thr; lia].
      cbn [nadd num_f64] in Es. rewrite Es. f_equal. clear; lia. }
    assert (Dv : fold_left (fun acc c0 => if nltb (nadd (at3 (weight a) c0) (at3 (weight b) c0)) (nofN thr) then acc
        else if nisnan (ndiv (at3 (data a) c0) (nadd (at3 (data b) c0) (at3 (data a) c0))) then acc
        else nadd acc (FunModel.sq (nsub (ndiv (at3 (data a) c0) (nadd (at3 (data b) c0) (at3 (data a) c0))) mean))) cells n0
      = fold_left (Bplus mode_NE) (map (fun cell => Bmult mode_NE (Bminus mode_NE (conc cell) mean) (Bminus mode_NE (conc cell) mean)) (filter full cells)) (f64_of_Z 0)).
    { rewrite <- fold_filter_map. apply fold_ext_in. intros acc cell Hin. apply in_ids3 in Hin. destruct (D cell Hin) as [T3 [[F1 E1] [[Fw Ew] [[F2 E2] [Fw2 Ew2]]]]].
      destruct (add_exact _ _ _ _ Fw Ew Fw2 Ew2 T3) as [Fs Es]. destruct (of_N_close thr ltac:(apply Thr)) as [Ft Et].
      assert (Lt : nltb (nadd (at3 (weight a) cell) (at3 (weight b) cell)) (nofN thr) = negb (full cell)).
      { cbn [nltb num_f64]. unfold full. destruct (N.leb_spec thr (number_of ta (samples_in bld (geo g) cell l) + number_of tb (samples_in bld (geo g) cell l))) as [Le|Gt]; cbn [negb].
        - destruct (Bltb _ _) eqn:B; [|reflexivity]. apply Bltb_R in B; [|exact Fs | exact Ft]. rewrite Es, Et in B. apply lt_IZR in B. clear - B Le. lia.
        - apply Bltb_R; [exact Fs | exact Ft|]. rewrite Es, Et. apply IZR_lt. clear - Gt. lia. }
      rewrite Lt. destruct (full cell) eqn:Fc; cbn [negb]; [|reflexivity].
      assert (Sh := Hc cell ltac:(apply filter_In; split; [now apply in_ids3 | exact Fc])).
      change (ndiv (at3 (data a) cell) (nadd (at3 (data b) cell) (at3 (data a) cell))) with (conc cell).
      destruct Sh as [Fcc _]. cbn [nisnan num_f64]. destruct (conc cell) as [?|?| |? ? ? ?]; try discriminate Fcc; reflexivity. }
    cbv zeta in Ev'.
    match type of Ev' with _ = ndiv (nsub ?A (ndiv _ ?B)) ?C => assert (Ev2 := eq_trans Ev' (f_equal (fun z => ndiv (nsub A (ndiv z B)) C) Dv)) end.
    clear Dv Ev'. rename Ev2 into Ev'.
    assert (Hk : (List.length (filter full cells) <= N.to_nat (vlen cells))%nat).
    { unfold vlen. rewrite Nnat.Nat2N.id. clear. induction cells as [|c0 r IH]; cbn [filter List.length]; [lia|]. destruct (full c0); cbn [List.length]; lia. }
    destruct (index_close mean c conc (fun cell => share64 ta tb (samples_in bld (geo g) cell l)) (filter full cells) (vlen cells) Hm Hc Hk Hn Hs) as [Fq Eq].
    rewrite Ev'. split; [exact Fq|].
    assert (EI : I = (c * (1 - c) - Rsum (map (fun a0 => (share64 ta tb (samples_in bld (geo g) a0 l) - c) * (share64 ta tb (samples_in bld (geo g) a0 l) - c)) (filter full cells)) / (NR (vlen cells) - 1)) /
      (c * (1 - c) - c * (1 - c) / NR (vlen cells))).
    { unfold I, exact_lacey, lacey_index, full64. fold l cells c full. now rewrite map_map. }
    rewrite EI. exact Eq.
  Qed.
End Step.

(** ** C144 *)
Theorem c144_lacey {TF : Trig f64} (bld : build) (M : mgr f64) d L (g : grid f64) (cg : cart_geom f64) s ta tb thr d' time mix :
  recorded M d L -> sel_ok s -> fresh g -> geo g = Cart cg -> ta <> tb -> (1 <= thr <= 2 ^ 53)%N ->
  let n := vlen (ids3 (cc_cells cg)) in (2 <= n <= 2 ^ 46)%N ->
  lacey_mixing bld M d g s ta tb thr = Val (d', (time, mix)) ->
  forall t x, at_ (removelast L) t x -> timestep_valid s (ts_time x) = true -> (vlen (observed s [x]) <= 2 ^ 53)%N ->
    let c := share64 ta tb (observed s [x]) in let I := exact_lacey bld g ta tb thr (observed s [x]) in
    bpow radix2 (-40) <= c * (1 - c) ->
    at_ time t (ts_time x) /\ exists v : f64, at_ mix t v /\ is_finite v = true /\
      Rabs (B2R v - I) <= (NR n + 16) / IZR (2 ^ 46) * (1 + Rabs I) / (c * (1 - c)).
Proof.
  intros [[Nt [Inv [In0 Get]]] [Nem Rc]] Sk Fr G Ne Thr n Hn E t x Hx V Small c I Hs. unfold lacey_mixing in E. rewrite Nt in E.
  rewrite usub_ge in E by (destruct L; [contradiction | unfold vlen; cbn [List.length]; clear; lia]). cbn [bind] in E.
  rewrite <- vlen_removelast in E. set (zs := repeat n0 (N.to_nat (vlen (removelast L)))) in E.
  destruct (series_sound M s (lacey_step bld g s ta tb thr) Inv L Get (removelast L) 0 d zs zs d' time mix) as [_ [Lt [Lm [_ H]]]].
  - intros i y Hi. rewrite N.add_0_l. now apply at_removelast.
  - exact In0.
  - exact E.
  - specialize (H t x Hx). rewrite N.add_0_l, V in H. destruct H as [H1 [v [Ev H2]]]. split; [now apply vget_val|]. exists v. split; [now apply vget_val|].
    assert (Rx : rect x). { assert (Q := Forall_removelast _ _ Rc). rewrite Forall_forall in Q. apply Q. eapply nth_error_In. exact Hx. }
    assert (Gc : geom_cells (geo g) = cc_cells cg) by now rewrite G.
    assert (Q := lacey_step_64 bld ta tb thr g cg s x v Rx Sk Fr G V Ne Thr). rewrite Gc in Q. exact (Q Hn Small Hs Ev).
Qed.
(** Two particles of each type among four: a share of one half. *)
Example c144_case : forall x, at_ (removelast lacey_data) 0 x ->
  share64 1 2 (observed sel_default [x]) = / 2 /\ bpow radix2 (-40) <= share64 1 2 (observed sel_default [x]) * (1 - share64 1 2 (observed sel_default [x])).
Proof.
  intros x Hx. assert (A : number_of 1 (observed sel_default [x]) = 2%N /\ number_of 2 (observed sel_default [x]) = 2%N).
  { unfold at_ in Hx. cbn [removelast lacey_data nth_error N.to_nat] in Hx. injection Hx as <-. split; vm_compute; reflexivity. }
  destruct A as [A B]. unfold share64. rewrite A, B. unfold NR. cbn [Z.of_N N.add Pos.add]. split; [lra|].
  apply Rle_trans with (bpow radix2 (-2)); [apply bpow_le; lia | cbn; lra].
Qed.
