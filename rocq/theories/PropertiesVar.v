(** * PropertiesVar: granular temperature and dispersion in doubles (C141, C142) *)
From Coq Require Import Reals List NArith ZArith Lia Lra Psatz Bool String ZifyBool ZifyN.
From Flocq Require Import Core.Core IEEE754.BinarySingleNaN.
From Verif Require Import Base BaseFacts Num RFacts NDArray GridModel GridSpec GridFacts CartProofs F64Facts CartR GridOps GridR PropertiesGrid VecProofs SelModel PropertiesSel
  DataModel FunModel FunSpec FunProofs FunMgr FunField PropertiesFun FunOcc FunMom FunTemp FunDisp FloatErr FloatSum PropertiesFloat PropertiesMean FloatCalc FloatVar FloatNd.
Import ListNotations.
Local Open Scope R_scope.

(** ** The specification: exact variances and mean squares of recorded doubles *)
Definition variance64 (l : list f64) : R := Rvar (map (fun x : f64 => B2R x) l).
Definition mean_square64 (l : list f64) : R := Rmean (map (fun x : f64 => B2R x * B2R x) l).
(** One axis, or the mean over the three. *)
Definition by_mode (mode : string) (f : N -> R) : R :=
  if String.eqb mode "x" then f 0%N else if String.eqb mode "y" then f 1%N else if String.eqb mode "z" then f 2%N else (f 0%N + f 1%N + f 2%N) / 3.
Definition along (k : N) (l : list (sample f64)) : list f64 := map (fun m => v3i k (sm_vel m)) l.
(** Finite, at most 2^450 in size. *)
Definition modest (v : v3 f64) : Prop := let '(x, y, z) := v in small x /\ small y /\ small z.

Lemma modest_v3i v k : modest v -> small (v3i k v).
Proof. destruct v as [[x y] z]. intros [A [B C]]. unfold v3i. destruct k as [|[| |]]; auto; destruct p; auto. Qed.
Lemma along_small k l : (forall m, In m l -> modest (sm_vel m)) -> Forall small (along k l).
Proof. intros H. apply Forall_forall. intros x Hx. apply in_map_iff in Hx. destruct Hx as [m [<- Hm]]. now apply modest_v3i, H. Qed.
Lemma mean_square_sq l : mean_square64 l = sq l / INR (List.length l).
Proof. unfold mean_square64, Rmean, sq, val. now rewrite map_length. Qed.

Definition pow_j : R := bpow radix2 200.
Lemma q200 j : j <= 1000000 * (10000000000000000 * 10000000000000000) -> j <= bpow radix2 200.
Proof.
  intros H. apply Rle_trans with (1 := H). apply Rle_trans with (bpow radix2 60 * (bpow radix2 60 * bpow radix2 60)); [change (bpow radix2 60) with 1152921504606846976; lra | rewrite <- !bpow_plus; apply bpow_le; lia].
Qed.
Ltac jfits := split; [kfits|]; split; [split; [lra | apply q200; lra] | lra].
Lemma root_tol k n A X (r : f64) : close k (200 * n + 600) r X A -> 0 <= k <= 5 * n + 16 -> 1 <= n <= 70368744177664 -> A <= bpow radix2 950 ->
  forall ms, A = 2 * ms -> let T := Bsqrt mode_NE r in let tol := (n + 4) / IZR (2 ^ 49) * ms + bpow radix2 (-1000) in
  (tol < X -> is_finite T = true) /\ (is_finite T = true -> 0 <= B2R T /\ Rabs (B2R T * B2R T - X) <= tol).
Proof.
  intros C Hk Hn HA ms Hm T tol. assert (A0 := A_pos _ _ _ _ _ C). assert (P := eps_pos).
  assert (L : bpow radix2 950 <= bpow radix2 1000) by (apply bpow_le; lia).
  destruct (close_sqrt _ _ _ _ _ C) as [S1 S2]; [jfits|].
  assert (M0 : 0 <= ms) by lra. assert (Te : (k + 4) * eps * A + 2 * (200 * n + 600) * eta <= tol).
  { unfold tol. apply Rplus_le_compat.
    - rewrite Hm, eps_val. change (IZR (2 ^ 49)) with 562949953421312. assert (X0 : 0 <= n * ms) by (apply Rmult_le_pos; lra). assert (X1 : k * ms <= (5 * n + 16) * ms) by (apply Rmult_le_compat_r; lra). lra.
    - apply Rle_trans with (bpow radix2 60 * eta); [apply Rmult_le_compat_r; [left; apply eta_pos|]; change (bpow radix2 60) with 1152921504606846976; lra|]. unfold eta. rewrite <- bpow_plus. apply bpow_le. lia. }
  assert (E1 : k * eps * A <= (k + 4) * eps * A) by (apply Rmult_le_compat_r; [lra|]; apply Rmult_le_compat_r; lra).
  assert (E2 : (200 * n + 600) * eta <= 2 * (200 * n + 600) * eta) by (apply Rmult_le_compat_r; [left; apply eta_pos | lra]).
  split.
  - intros H. apply S1. lra.
  - intros H. destruct (S2 H) as [B1 B2]. split; [exact B1 | apply Rle_trans with (1 := B2); exact Te].
Qed.
Lemma three_f64 : B2R (f64_of_Z 3) = 3 /\ is_finite (f64_of_Z 3) = true.
Proof. apply of_Z_correct. lia. Qed.
Lemma fluct_close {TF : Trig f64} (l : list (sample f64)) (n : f64) : l <> [] -> (forall m, In m l -> modest (sm_vel m)) -> (List.length l <= 2 ^ 46)%nat -> B2R n = INR (List.length l) ->
  forall k mode (f0 f1 f2 : f64),
  (forall k (f : f64), (f = match k with 0%N => f0 | 1%N => f1 | _ => f2 end) -> (k <= 2)%N ->
     f = Bminus mode_NE (fold_left (Bplus mode_NE) (map (fun x => Bmult mode_NE x x) (along k l)) (f64_of_Z 0))
         (Bdiv mode_NE (Bmult mode_NE (fold_left (Bplus mode_NE) (along k l) (f64_of_Z 0)) (fold_left (Bplus mode_NE) (along k l) (f64_of_Z 0))) n)) ->
  let v := if String.eqb mode "x" then f0 else if String.eqb mode "y" then f1 else if String.eqb mode "z" then f2
           else Bdiv mode_NE (Bplus mode_NE (Bplus mode_NE f0 f1) f2) (f64_of_Z 3) in
  k = INR (List.length l) ->
  exists kk, 0 <= kk <= 5 * k + 16 /\ close kk (200 * k + 600) (Bdiv mode_NE v n) (by_mode mode (fun i => variance64 (along i l))) (2 * by_mode mode (fun i => mean_square64 (along i l))) /\
    2 * by_mode mode (fun i => mean_square64 (along i l)) <= bpow radix2 950.
Proof.
  intros Ne Hs Hl En k mode f0 f1 f2 Hf v ->.
  assert (Nb : 1 <= INR (List.length l) <= 70368744177664).
  { split; [apply (le_INR 1); destruct l; [contradiction | cbn; lia] | now apply b46]. }
  assert (Ln : forall i, List.length (along i l) = List.length l) by (intros i; apply map_length).
  assert (Nn : forall i, along i l <> []) by (intros i; destruct l; [contradiction | discriminate]).
  set (k := INR (List.length l)) in *.
  assert (C : forall i f, (f = match i with 0%N => f0 | 1%N => f1 | _ => f2 end) -> (i <= 2)%N ->
    close (5 * k + 6) (4 * k + 12) f (k * variance64 (along i l)) (2 * (k * mean_square64 (along i l))) /\ 2 * (k * mean_square64 (along i l)) <= bpow radix2 947 /\ 0 <= mean_square64 (along i l)).
  { intros i f Ef Hi. rewrite (Hf i f Ef Hi). destruct (dev_close (along i l) n (along_small i l Hs) (Nn i) ltac:(rewrite Ln; exact Hl) ltac:(rewrite Ln; exact En)) as [C B].
    rewrite dev_var in C by apply Nn. rewrite Ln in C. fold k in C. change (Rvar (map val (along i l))) with (variance64 (along i l)) in C.
    assert (M : k * mean_square64 (along i l) = sq (along i l)) by (rewrite mean_square_sq, Ln; fold k; field; lra). rewrite M. split; [exact C|]. split; [exact B|].
    rewrite mean_square_sq, Ln. fold k. apply Rmult_le_pos; [apply sq_nonneg | left; apply Rinv_0_lt_compat; lra]. }
  destruct (C 0%N f0 eq_refl ltac:(lia)) as [C0 [B0 P0]]. destruct (C 1%N f1 eq_refl ltac:(lia)) as [C1 [B1 P1]]. destruct (C 2%N f2 eq_refl ltac:(lia)) as [C2 [B2 P2]]. clear C Hf.
  assert (L947 : 8 * bpow radix2 947 = bpow radix2 950) by (replace 950%Z with (3 + 947)%Z by lia; rewrite bpow_plus; reflexivity).
  assert (L1000 : bpow radix2 950 <= bpow radix2 1000) by (apply bpow_le; lia). assert (P947 := bpow_ge_0 radix2 947).
  set (v0 := variance64 (along 0 l)) in *. set (v1 := variance64 (along 1 l)) in *. set (v2 := variance64 (along 2 l)) in *.
  set (m0 := mean_square64 (along 0 l)) in *. set (m1 := mean_square64 (along 1 l)) in *. set (m2 := mean_square64 (along 2 l)) in *.
  assert (K : forall a, 0 <= a -> a <= k * a) by (intros a Ha; rewrite <- (Rmult_1_l a) at 1; apply Rmult_le_compat_r; lra).
  assert (K0 := K m0 P0). assert (K1 := K m1 P1). assert (K2 := K m2 P2).
  assert (One : forall f X Y, close (5 * k + 6) (4 * k + 12) f (k * X) (2 * (k * Y)) -> 2 * (k * Y) <= bpow radix2 947 -> 0 <= Y -> Y <= k * Y ->
    exists kk, 0 <= kk <= 5 * k + 16 /\ close kk (200 * k + 600) (Bdiv mode_NE f n) X (2 * Y) /\ 2 * Y <= bpow radix2 950).
  { intros f X Y C HB HY HK. exists (5 * k + 6 + 2). split; [lra|]. split; [|lra].
    assert (D := close_div _ _ _ _ _ n C ltac:(jfits) ltac:(rewrite En; lra)). rewrite En in D.
    replace (k * X / k) with X in D by (field; lra). replace (2 * (k * Y) / k) with (2 * Y) in D by (field; lra). apply (close_weaken _ _ _ _ _ _ _ _ D); lra. }
  unfold v, by_mode. destruct (String.eqb mode "x"); [apply (One f0 v0 m0 C0 B0 P0 K0)|]. destruct (String.eqb mode "y"); [apply (One f1 v1 m1 C1 B1 P1 K1)|]. destruct (String.eqb mode "z"); [apply (One f2 v2 m2 C2 B2 P2 K2)|].
  clear One. assert (D1 := close_plus _ _ _ _ _ _ _ _ _ C0 C1 ltac:(jfits) ltac:(jfits) ltac:(lra)).
  assert (C2' := close_weaken _ _ _ _ _ (5 * k + 6 + 2) _ _ C2 ltac:(lra) (Rle_refl _) (Rle_refl _) ltac:(lra)).
  assert (D2 := close_plus _ _ _ _ _ _ _ _ _ D1 C2' ltac:(jfits) ltac:(jfits) ltac:(lra)).
  destruct three_f64 as [E3 F3].
  assert (D3 := close_div _ _ _ _ _ (f64_of_Z 3) D2 ltac:(jfits) ltac:(rewrite E3; lra)). rewrite E3 in D3.
  assert (D4 := close_div _ _ _ _ _ n D3 ltac:(jfits) ltac:(rewrite En; lra)). rewrite En in D4.
  exists (5 * k + 6 + 2 + 2 + 2 + 2). split; [lra|].
  replace ((k * v0 + k * v1 + k * v2) / 3 / k) with ((v0 + v1 + v2) / 3) in D4 by (field; lra).
  replace ((2 * (k * m0) + 2 * (k * m1) + 2 * (k * m2)) / 3 / k) with (2 * ((m0 + m1 + m2) / 3)) in D4 by (field; lra).
  cbv beta. fold v0 v1 v2 m0 m1 m2. split; [|lra]. apply (close_weaken _ _ _ _ _ _ _ _ D4). all: lra.
Qed.

(** ** C141: granular temperature *)
Lemma count_val (l : list (sample f64)) (n : f64) : B2R n = NR (vlen l) -> B2R n = INR (List.length l).
Proof. intros ->. apply vlen_INR. Qed.
(** On any grid, given that the call returns. *)
Theorem c141_any_grid {TF : Trig f64} (bld : build) (M : mgr f64) d L (g : grid f64) s mode d' h :
  recorded M d L -> sel_ok s -> fresh g -> In mode temp_modes ->
  (forall m, In m (all_samples L) -> modest (sm_vel m)) -> (vlen (all_samples L) <= 2 ^ 46)%N ->
  granular_temperature_field bld M d g s mode = Val (d', h) ->
  forall c, inb3 (geom_cells (geo g)) c = true -> let l := samples_in bld (geo g) c (observed s L) in l <> [] ->
    let T := at3 (data h) c in
    let V := by_mode mode (fun k => variance64 (along k l)) in
    let tol := NR (vlen l + 4) / IZR (2 ^ 49) * by_mode mode (fun k => mean_square64 (along k l)) + bpow radix2 (-1000) in
    (tol < V -> is_finite T = true) /\ (is_finite T = true -> 0 <= B2R T /\ Rabs (B2R T * B2R T - V) <= tol).
Proof.
  intros Rec Sk [W Fr] Hm Hs Hn E c Hc l Ne T V tol. assert (Q := temp_cells bld M d L g s mode Rec Sk W Hm).
  destruct (mfold (mom_body bld g sm_pos sm_vel) (observed s L) (moments_of g)) as [m|] eqn:Fo; [|exfalso; congruence].
  destruct Q as [d2 [h2 [E' [R [_ [G' [[_ Ok] H]]]]]]]. rewrite E in E'. apply Val_pair in E' as [<- <-].
  destruct (H c Hc) as [Hw Hd]. destruct (Ok c) as [Ok1 Ok2]. destruct (moments_of_at g 0 c) as [_ [_ E0]].
  rewrite E0, (proj1 (Fr c)) in Ok2. change (here bld g sm_pos c (observed s L)) with l in Ok1, Ok2.
  assert (Sub : forall x, In x l -> In x (all_samples L)).
  { intros x Hx. unfold l, samples_in, observed in Hx. apply filter_In in Hx as [Hx _]. apply filter_In in Hx as [Hx _]. exact Hx. }
  assert (Len : (vlen l <= vlen (all_samples L))%N).
  { unfold l, samples_in, observed, vlen. assert (A := filter_len (fun m => in_cell bld (geo g) c (sm_pos m)) (filter (chosen s) (flat_map samples L))). assert (B := filter_len (chosen s) (flat_map samples L)). unfold all_samples. lia. }
  assert (Len46 : (List.length l <= 2 ^ 46)%nat).
  { assert (X : N.of_nat (2 ^ 46) = (2 ^ 46)%N) by (rewrite Nat2N.inj_pow; reflexivity). unfold vlen in Len, Hn. assert (Y : (N.of_nat (List.length l) <= N.of_nat (2 ^ 46))%N) by (rewrite X; lia). clear - Y. lia. }
  assert (Cn : is_finite (at3 (m_n m) c) = true /\ B2R (at3 (m_n m) c) = NR (vlen l)).
  { rewrite Ok2. destruct (of_Z_correct 0 ltac:(lia)) as [O1 F1]. exact (count_exact l (f64_of_Z 0) 0 F1 O1 ltac:(lia)). }
  destruct Cn as [_ Cn]. assert (Cn' := count_val l _ Cn).
  set (n := at3 (m_n m) c) in *.
  assert (Nb : 1 <= INR (List.length l) <= 70368744177664).
  { split; [apply (le_INR 1); destruct l; [contradiction | cbn; lia] | now apply b46]. }
  destruct (fluct_close l n Ne (fun x Hx => Hs x (Sub x Hx)) Len46 Cn' (INR (List.length l)) mode (fluct_at m 0 c) (fluct_at m 1 c) (fluct_at m 2 c)) as [kk [Hk [C HA]]]; [|reflexivity|].
  { intros i f Ef Hi. assert (Ef' : f = fluct_at m i c) by (destruct i as [|[| |]]; [exact Ef | lia | destruct p; [lia|lia|exact Ef] | exact Ef]). rewrite Ef'.
    destruct (Ok1 i Hi) as [A B]. destruct (moments_of_at g i c) as [X [Y _]]. rewrite X, (proj1 (Fr c)) in A. rewrite Y, (proj1 (Fr c)) in B.
    unfold fluct_at. rewrite A, B. fold n. unfold along. rewrite map_map. reflexivity. }
  assert (Rt := root_tol kk (INR (List.length l)) _ _ _ C Hk Nb HA _ eq_refl). cbv zeta in Rt.
  assert (Tl : NR (vlen l + 4) = INR (List.length l) + 4) by (rewrite NR_add, vlen_INR; reflexivity).
  unfold tol, V, T. rewrite Tl, Hd. exact Rt.
Qed.
Theorem c141_granular_temperature {TF : Trig f64} (bld : build) (M : mgr f64) d L (g : grid f64) cg s mode :
  recorded M d L -> sel_ok s -> fresh g -> geo g = Cart cg -> sized (cc_cells cg) -> In mode temp_modes ->
  (forall m, In m (all_samples L) -> modest (sm_vel m)) -> (vlen (all_samples L) <= 2 ^ 46)%N ->
  exists d' h, granular_temperature_field bld M d g s mode = Val (d', h) /\
  forall c, inb3 (cc_cells cg) c = true -> let l := samples_in bld (geo g) c (observed s L) in l <> [] ->
    let T := at3 (data h) c in
    let V := by_mode mode (fun k => variance64 (along k l)) in
    let tol := NR (vlen l + 4) / IZR (2 ^ 49) * by_mode mode (fun k => mean_square64 (along k l)) + bpow radix2 (-1000) in
    (tol < V -> is_finite T = true) /\ (is_finite T = true -> 0 <= B2R T /\ Rabs (B2R T * B2R T - V) <= tol).
Proof.
  intros Rec Sk Fr G Sz Hm Hs Hn. destruct (c39_returns bld M d L g cg s mode Rec Sk Fr G Sz Hm) as [d' [h [E _]]].
  exists d', h. split; [exact E|]. intros c Hc. apply (c141_any_grid bld M d L g s mode d' h); try assumption. now rewrite G.
Qed.
Example c141_case {TF : Trig f64} :
  recorded (list_mgr ex_data (PropertiesFun.ex_stats 2)) tt ex_data /\ sel_ok (sel_default (F := f64)) /\
  (forall m, In m (all_samples ex_data) -> modest (sm_vel m)) /\ (vlen (all_samples ex_data) <= 2 ^ 46)%N /\
  after (cart_new (2, 2, 2)%N (ThreeD box64)) (fun g => fresh g /\
    vlen (samples_in Debug (geo g) (0, 0, 0)%N (observed sel_default ex_data)) = 2%N).
Proof.
  destruct ex_data_recorded as [A B]. split; [exact A|]. split; [exact B|].
  assert (O : forall a, (Z.abs a <= 2 ^ 52)%Z -> small (d a)).
  { intros a Ha. destruct (of_Z_correct a ltac:(lia)) as [X Y]. split; [exact Y|]. change (d a) with (f64_of_Z a). rewrite X, <- abs_IZR.
    apply Rle_trans with (IZR (2 ^ 52)); [now apply IZR_le|]. change (IZR (2 ^ 52)) with (bpow radix2 52). apply bpow_le. lia. }
  split.
  { intros m Hm. repeat (destruct Hm as [<- | Hm]; [cbn [sm_vel]; repeat split; apply O; lia|]). destruct Hm. }
  split; [vm_compute; discriminate|].
  destruct (cart_new (2, 2, 2)%N (ThreeD box64)) as [g|] eqn:E; [|discriminate]. cbn [after].
  split; [exact (new_fresh _ _ true g (or_introl E))|]. injection E as <-. vm_compute. reflexivity.
Qed.

(** ** C142: dispersion *)
(** The real position of a point. *)
Definition exact3 (p : v3 f64) : v3 R := let '(x, y, z) := p in (B2R x, B2R y, B2R z).
Definition square_dist64 (l : list (v3 f64)) : R := mean_square64 (map (v3i 0) l) + mean_square64 (map (v3i 1) l) + mean_square64 (map (v3i 2) l).
Lemma less_one (n : f64) (k : nat) : is_finite n = true -> B2R n = INR k -> (1 <= k <= 2 ^ 46)%nat ->
  B2R (Bminus mode_NE n (f64_of_Z 1)) = INR k - 1.
Proof.
  intros Fn En Hk. destruct (of_Z_correct 1 ltac:(lia)) as [E1 F1].
  destruct Hk as [Hk1 Hk2]. assert (K := z52 _ Hk2). clear Hk2.
  generalize (Bminus_correct 53 1024 _ _ mode_NE n (f64_of_Z 1) Fn F1). change (round radix2 (SpecFloat.fexp 53 1024) (round_mode mode_NE)) with rnd.
  rewrite En, E1, INR_IZR_INZ, <- minus_IZR. rewrite rnd_fmt by (apply fmt_int; lia). rewrite Rlt_bool_true; [tauto|].
  rewrite <- abs_IZR. apply Rle_lt_trans with (IZR (2 ^ 53)); [apply IZR_le; lia | apply M64_big].
Qed.
Lemma zero_plus (x : f64) : is_finite x = true -> is_finite (Bplus mode_NE (f64_of_Z 0) x) = true /\ B2R (Bplus mode_NE (f64_of_Z 0) x) = B2R x.
Proof.
  intros Fx. destruct (of_Z_correct 0 ltac:(lia)) as [E0 F0]. assert (Fm : rnd (0 + B2R x) = B2R x) by (rewrite Rplus_0_l; apply rnd_fmt, fmt_B2R).
  destruct (add_R (f64_of_Z 0) x F0 Fx) as [A B]; rewrite E0 in *; [rewrite Fm; apply abs_B2R_lt_emax | split; [exact A | now rewrite B]].
Qed.
Definition sums (k : N) (l : list (v3 f64)) : f64 := fold_left (Bplus mode_NE) (map (v3i k) l) (f64_of_Z 0).
Definition squares (k : N) (l : list (v3 f64)) : f64 := fold_left (Bplus mode_NE) (map (fun x => Bmult mode_NE x x) (map (v3i k) l)) (f64_of_Z 0).
Definition axis_var (n : f64) (k : N) (l : list (v3 f64)) : f64 :=
  Bminus mode_NE (Bdiv mode_NE (squares k l) n) (Bdiv mode_NE (Bdiv mode_NE (Bmult mode_NE (sums k l) (sums k l)) n) n).
Lemma disp_close (l : list (v3 f64)) (n : f64) : (2 <= List.length l)%nat -> (List.length l <= 2 ^ 46)%nat -> (forall p, In p l -> modest p) ->
  is_finite n = true -> B2R n = INR (List.length l) ->
  let v := Bdiv mode_NE (Bmult mode_NE (Bplus mode_NE (Bplus mode_NE (axis_var n 0 l) (axis_var n 1 l)) (axis_var n 2 l)) n) (Bminus mode_NE n (f64_of_Z 1)) in
  is_finite v = true /\ Rabs (B2R v - spread (map exact3 l)) <= (INR (List.length l) + 4) / IZR (2 ^ 48) * square_dist64 l + bpow radix2 (-900) /\ Rabs (B2R v) <= bpow radix2 953.
Proof.
  intros Hl Hu Hs Fn En v. assert (P := eps_pos).
  assert (Nb : 2 <= INR (List.length l) <= 70368744177664) by (split; [apply (le_INR 2); exact Hl | apply b46; exact Hu]).
  assert (Ne : forall k, map (v3i k) l <> []) by (intros k; destruct l; [inversion Hl | discriminate]).
  assert (Ln : forall k, List.length (map (v3i k) l) = List.length l) by (intros; apply map_length).
  assert (C : forall k, (k <= 2)%N -> close (5 * INR (List.length l) + 8) (8 * INR (List.length l) + 40) (axis_var n k l) (Rvar (map (v3i k) (map exact3 l))) (2 * mean_square64 (map (v3i k) l)) /\ 2 * mean_square64 (map (v3i k) l) <= bpow radix2 947).
  { intros k Hk. assert (Sm : Forall small (map (v3i k) l)).
    { apply Forall_forall. intros x Hx. apply in_map_iff in Hx. destruct Hx as [p [<- Hp]]. now apply modest_v3i, Hs. }
    destruct (var_close (map (v3i k) l) n Sm (Ne k) ltac:(rewrite Ln; exact Hu) ltac:(rewrite Ln; exact En)) as [C B]. rewrite Ln in C, B. rewrite mean_square_sq, Ln.
    assert (E : map (v3i k) (map exact3 l) = map val (map (v3i k) l)).
    { rewrite !map_map. apply map_ext. intros [[x y] z]. unfold v3i, exact3, val. destruct k as [|[| |]]; try reflexivity; destruct p; reflexivity. }
    rewrite E. split; [exact C | exact B]. }
  destruct (C 0%N ltac:(lia)) as [C0 B0]. destruct (C 1%N ltac:(lia)) as [C1 B1]. destruct (C 2%N ltac:(lia)) as [C2 B2]. clear C.
  assert (Sp : spread (map exact3 l) = (Rvar (map (v3i 0) (map exact3 l)) + Rvar (map (v3i 1) (map exact3 l)) + Rvar (map (v3i 2) (map exact3 l))) * INR (List.length l) / (INR (List.length l) - 1)).
  { unfold spread. assert (V : forall k, Rsvar (map (v3i k) (map exact3 l)) = Rvar (map (v3i k) (map exact3 l)) * INR (List.length l) / (INR (List.length l) - 1)).
    { intros k. destruct (Rsvar_var (map (v3i k) (map exact3 l))) as [A _]; [rewrite !map_length; exact Hl|]. rewrite !map_length in A. exact A. }
    rewrite !V. field. lra. }
  rewrite Sp. unfold square_dist64. assert (M1 := less_one n (List.length l) Fn En (conj (Nat.le_trans 1 2 _ (le_S _ _ (le_n 1)) Hl) Hu)). clear Hu.
  set (k := INR (List.length l)) in *.
  set (v0 := Rvar (map (v3i 0) (map exact3 l))) in *. set (v1 := Rvar (map (v3i 1) (map exact3 l))) in *. set (v2 := Rvar (map (v3i 2) (map exact3 l))) in *.
  set (m0 := mean_square64 (map (v3i 0) l)) in *. set (m1 := mean_square64 (map (v3i 1) l)) in *. set (m2 := mean_square64 (map (v3i 2) l)) in *.
  assert (P0 := A_pos _ _ _ _ _ C0). assert (P1 := A_pos _ _ _ _ _ C1). assert (P2 := A_pos _ _ _ _ _ C2).
  assert (L947 : 8 * bpow radix2 947 = bpow radix2 950) by (replace 950%Z with (3 + 947)%Z by lia; rewrite bpow_plus; reflexivity).
  assert (L1000 : bpow radix2 950 <= bpow radix2 1000) by (apply bpow_le; lia). assert (P947 := bpow_ge_0 radix2 947).
  assert (D1 := close_plus _ _ _ _ _ _ _ _ _ C0 C1 ltac:(jfits) ltac:(jfits) ltac:(lra)).
  assert (C2' := close_weaken _ _ _ _ _ (5 * k + 8 + 2) _ _ C2 ltac:(lra) (Rle_refl _) (Rle_refl _) ltac:(lra)).
  assert (D2 := close_plus _ _ _ _ _ _ _ _ _ D1 C2' ltac:(jfits) ltac:(jfits) ltac:(lra)).
  set (S := 2 * m0 + 2 * m1 + 2 * m2) in *. assert (S0 : 0 <= S <= bpow radix2 950) by (unfold S; lra).
  assert (Sk : S * k <= bpow radix2 997).
  { replace 997%Z with (950 + 47)%Z by lia. rewrite bpow_plus. change (bpow radix2 47) with 140737488355328. apply Rmult_le_compat; lra. }
  assert (L997 : bpow radix2 997 <= bpow radix2 1000) by (apply bpow_le; lia).
  set (J := 2 * (2 * (8 * k + 40 + (8 * k + 40)) + (8 * k + 40))) in *.
  assert (HJ : 0 <= J * k <= 1000000 * (10000000000000000 * 1000000000000000)).
  { split; [apply Rmult_le_pos; unfold J; lra|]. apply Rle_trans with ((100 * 70368744177664) * 70368744177664); [|lra]. apply Rmult_le_compat; unfold J; lra. }
  assert (J0 : 0 <= J <= 10000000000000000) by (unfold J; lra).
  assert (D3 := close_times _ _ _ _ _ n D2 ltac:(jfits) Fn ltac:(rewrite En; lra) ltac:(rewrite En; lra) ltac:(rewrite En; apply q200; lra)). rewrite En in D3.
  assert (D4 := close_div _ _ _ _ _ (Bminus mode_NE n (f64_of_Z 1)) D3 ltac:(jfits) ltac:(rewrite M1; lra)). rewrite M1 in D4. fold v in D4.
  assert (Q : S * k / (k - 1) <= 2 * S).
  { apply Rmult_le_reg_r with (k - 1); [lra|]. unfold Rdiv. rewrite Rmult_assoc, Rinv_l by lra. assert (X : 0 <= S * (k - 2)) by (apply Rmult_le_pos; lra). lra. }
  assert (Bz : Rabs (B2R v) <= bpow radix2 953).
  { assert (L950 : 8 * bpow radix2 950 = bpow radix2 953) by (replace 953%Z with (3 + 950)%Z by lia; rewrite bpow_plus; reflexivity).
    assert (One950 : 1 <= bpow radix2 950) by (apply Rle_trans with (bpow radix2 0); [cbn; lra | apply bpow_le; lia]).
    assert (L953 : bpow radix2 953 <= bpow radix2 1000) by (apply bpow_le; lia).
    assert (Z := close_size _ _ _ _ _ D4 ltac:(jfits)). assert (Je := j_eta (2 * (2 * (J * k) + 2) + 2) ltac:(split; [lra | apply q200; lra])). apply Rle_trans with (1 := Z). lra. }
  destruct D4 as [F4 [E4 _]]. split; [exact F4|]. split; [|exact Bz]. apply Rle_trans with (1 := E4).
  apply Rplus_le_compat.
  - apply Rle_trans with ((5 * k + 8 + 2 + 2 + 2 + 2) * eps * (2 * S)); [apply Rmult_le_compat_l; [apply Rmult_le_pos; lra | exact Q]|].
    rewrite eps_val. change (IZR (2 ^ 48)) with 281474976710656. assert (X : 0 <= k * S) by (apply Rmult_le_pos; lra). unfold S in *. lra.
  - apply Rle_trans with (bpow radix2 173 * eta); [apply Rmult_le_compat_r; [left; apply eta_pos|]|].
    + apply Rle_trans with (1000000 * (10000000000000000 * 10000000000000000)); [lra|]. replace 173%Z with (60 + (60 + 53))%Z by lia. rewrite !bpow_plus.
      change (bpow radix2 60) with 1152921504606846976. change (bpow radix2 53) with 9007199254740992. lra.
    + unfold eta. rewrite <- bpow_plus. apply bpow_le. lia.
Qed.
Lemma moves_from bld ta dt s (L : list (timestep f64)) mq : In mq (moves bld ta dt s L) -> exists y, In y L /\ In (snd mq) (ts_pos y).
Proof.
  unfold moves. intros H. apply in_flat_map in H. destruct H as [x [_ H]]. unfold delayed in H.
  destruct (closest _ _ _ _) as [[[t|]|]|]; try contradiction. destruct (nth_error L (N.to_nat t)) as [y|] eqn:E; [|contradiction].
  apply filter_In in H. destruct H as [H _]. exists y. split; [exact (nth_error_In _ _ E)|]. destruct mq as [m q]. exact (in_combine_r _ _ _ _ H).
Qed.
Lemma moves_few bld ta dt s (L0 L : list (timestep f64)) :
  (List.length (flat_map (fun x => match delayed bld ta dt L0 x with
                       | Some y => filter (fun mq => chosen s (fst mq)) (combine (samples x) (ts_pos y)) | None => [] end) L) <= List.length (all_samples L))%nat.
Proof.
  induction L as [|x L IH]; [apply Nat.le_refl|]. unfold all_samples. cbn [flat_map]. rewrite !app_length. apply Nat.add_le_mono; [|exact IH].
  destruct (delayed bld ta dt L0 x) as [y|]; [|apply Nat.le_0_l]. apply Nat.le_trans with (1 := filter_len _ _). rewrite combine_length. apply Nat.le_min_l.
Qed.
Lemma disp_cell {TF : Trig f64} can (bld : build) (M : mgr f64) d (L : list (timestep f64)) (g : grid f64) s dt d' h mean :
  aux_reads can M d L -> L <> [] -> vlen (st_time (m_stats M)) = vlen L -> Forall rect L -> sel_ok s -> fresh g ->
  (forall x p, In x L -> In p (ts_pos x) -> modest p) -> (vlen (all_samples L) <= 2 ^ 46)%N ->
  dispersion bld M d g s dt = Val (d', (h, mean)) ->
  forall c, inb3 (geom_cells (geo g)) c = true ->
  let l := map snd (moves_in bld g c (moves bld (st_time (m_stats M)) dt s L)) in
  let D := at3 (data h) c in
  ((2 <= vlen l)%N -> is_finite D = true /\
     Rabs (B2R D - spread (map exact3 l)) <= NR (vlen l + 4) / IZR (2 ^ 48) * square_dist64 l + bpow radix2 (-900) /\ whole (at3 (weight h) c) 1 /\ Rabs (B2R D) <= bpow radix2 953) /\
  ((vlen l < 2)%N -> B2R D = 0 /\ is_finite D = true /\ whole (at3 (weight h) c) 0).
Proof.
  intros Aux Ne Ta Rc Sk [W Fr] Hs Hn E c Hc l D.
  destruct (disp_run can bld M d L g s dt d' h mean Aux Ne Ta Rc Sk W E) as [_ [G [m [[_ Mo] [H _]]]]].
  destruct (H c Hc) as [Hd Hw]. destruct (Mo c) as [Mk Mn].
  set (lm := moves_in bld g c (moves bld (st_time (m_stats M)) dt s L)) in *. change (here bld g start c (moves bld (st_time (m_stats M)) dt s L)) with lm in Mk, Mn.
  destruct (moments_of_at g 0 c) as [_ [_ E0]]. rewrite E0, (proj1 (Fr c)) in Mn. rewrite (proj2 (Fr c)) in Hw.
  assert (Len : (vlen l <= 2 ^ 46)%N).
  { apply N.le_trans with (2 := Hn). unfold vlen, l. rewrite map_length. unfold lm, moves_in.
    assert (A := filter_len (fun mq => in_cell bld (geo g) c (start mq)) (moves bld (st_time (m_stats M)) dt s L)). assert (B := moves_few bld (st_time (m_stats M)) dt s L L).
    fold (moves bld (st_time (m_stats M)) dt s L) in B. clear - A B. lia. }
  assert (Len46 : (List.length l <= 2 ^ 46)%nat).
  { assert (X : N.of_nat (2 ^ 46) = (2 ^ 46)%N) by (rewrite Nat2N.inj_pow; reflexivity). unfold vlen in Len. assert (Y : (N.of_nat (List.length l) <= N.of_nat (2 ^ 46))%N) by (rewrite X; lia). clear - Y. lia. }
  assert (Ll : vlen lm = vlen l) by (unfold vlen, l; now rewrite map_length).
  assert (Cn : is_finite (at3 (m_n m) c) = true /\ B2R (at3 (m_n m) c) = NR (vlen l)).
  { rewrite Mn, <- Ll. destruct (of_Z_correct 0 ltac:(lia)) as [O1 F1]. rewrite <- Ll in Len. clear - O1 F1 Len. exact (count_exact lm (f64_of_Z 0) 0 F1 O1 ltac:(lia)). }
  destruct Cn as [Fn En]. assert (En' : B2R (at3 (m_n m) c) = INR (List.length l)) by (rewrite En; apply vlen_INR).
  set (n := at3 (m_n m) c) in *.
  assert (Pt : forall p, In p l -> modest p).
  { intros p Hp. unfold l in Hp. apply in_map_iff in Hp. destruct Hp as [mq [<- Hp]]. unfold lm, moves_in in Hp. apply filter_In in Hp as [Hp _].
    destruct (moves_from _ _ _ _ _ _ Hp) as [y [Hy Hq]]. exact (Hs y _ Hy Hq). }
  destruct (of_Z_correct 1 ltac:(lia)) as [E1 F1]. destruct (of_Z_correct 0 ltac:(lia)) as [E0' F0].
  assert (Cmp : forall b, Bltb (f64_of_Z 1) n = b -> nltb n1 n = b) by (intros b Hb; exact Hb).
  split; intros Hl.
  - assert (Hl' : (2 <= List.length l)%nat) by (unfold vlen in Hl; clear - Hl; lia).
    assert (K2 : 2 <= INR (List.length l)) by (apply (le_INR 2); exact Hl').
    assert (Lt : nltb n1 n = true). { apply Cmp. apply (Bltb_R _ _ F1 Fn). rewrite E1, En'. lra. }
    rewrite Lt in Hd, Hw.
    assert (Dv : cell_dispersion m c = Bdiv mode_NE (Bmult mode_NE (Bplus mode_NE (Bplus mode_NE (axis_var n 0 l) (axis_var n 1 l)) (axis_var n 2 l)) n) (Bminus mode_NE n (f64_of_Z 1))).
    { assert (Ax : forall k, (k <= 2)%N -> at3 (v3i k (m_sum m)) c = sums k l /\ at3 (v3i k (m_sq m)) c = squares k l).
      { intros k Hk. destruct (Mk k Hk) as [A B]. destruct (moments_of_at g k c) as [X [Y _]]. rewrite A, B, X, Y, (proj1 (Fr c)). unfold sums, squares, l. rewrite !map_map. split; reflexivity. }
      destruct (Ax 0%N ltac:(lia)) as [A0 Q0]. destruct (Ax 1%N ltac:(lia)) as [A1 Q1]. destruct (Ax 2%N ltac:(lia)) as [A2 Q2].
      unfold cell_dispersion. destruct (m_sq m) as [[q0 q1] q2], (m_sum m) as [[s0 s1] s2].
      change (v3i 0 (q0, q1, q2)) with q0 in Q0. change (v3i 1 (q0, q1, q2)) with q1 in Q1. change (v3i 2 (q0, q1, q2)) with q2 in Q2.
      change (v3i 0 (s0, s1, s2)) with s0 in A0. change (v3i 1 (s0, s1, s2)) with s1 in A1. change (v3i 2 (s0, s1, s2)) with s2 in A2.
      rewrite A0, A1, A2, Q0, Q1, Q2. reflexivity. }
    rewrite Dv in Hd. destruct (disp_close l n Hl' Len46 Pt Fn En') as [Fv [Ev Bv]]. cbv zeta in Fv, Ev, Bv. set (v := Bdiv mode_NE _ _) in *.
    destruct (zero_plus v Fv) as [Fz Ez]. change (nadd n0 v) with (Bplus mode_NE (f64_of_Z 0) v) in Hd. unfold D. rewrite Hd.
    split; [exact Fz|]. split.
    + rewrite Ez, NR_add, vlen_INR. exact Ev.
    + split; [|rewrite Ez; exact Bv]. rewrite Hw. change (nadd n0 n1) with (Bplus mode_NE (f64_of_Z 0) (f64_of_Z 1)). destruct (zero_plus (f64_of_Z 1) F1) as [Y X]. split; [exact Y|]. rewrite X. split; [exact E1 | lia].
  - assert (K1 : INR (List.length l) <= 1) by (apply (le_INR _ 1); unfold vlen in Hl; clear - Hl; lia).
    assert (Lt : nltb n1 n = false).
    { apply Cmp. destruct (Bltb (f64_of_Z 1) n) eqn:B; [|reflexivity]. apply (Bltb_R _ _ F1 Fn) in B. rewrite E1, En' in B. lra. }
    rewrite Lt in Hd, Hw. unfold D. rewrite Hd, Hw. split; [exact E0'|]. split; [exact F0|]. split; [exact F0|]. split; [exact E0' | lia].
Qed.
(** Any grid without data: a cell with at least two moves gets the unbiased variance of their end points, within
    (n + 4) 2^-48 of the mean square of the end points (their distance from the origin of coordinates); others 0. *)
Theorem c142_dispersion {TF : Trig f64} can (bld : build) (M : mgr f64) d (L : list (timestep f64)) (g : grid f64) s dt d' h mean :
  aux_reads can M d L -> L <> [] -> vlen (st_time (m_stats M)) = vlen L -> Forall rect L -> sel_ok s -> fresh g ->
  (forall x p, In x L -> In p (ts_pos x) -> modest p) -> (vlen (all_samples L) <= 2 ^ 46)%N ->
  dispersion bld M d g s dt = Val (d', (h, mean)) ->
  forall c, inb3 (geom_cells (geo g)) c = true ->
  let l := map snd (moves_in bld g c (moves bld (st_time (m_stats M)) dt s L)) in
  let D := at3 (data h) c in
  ((2 <= vlen l)%N -> is_finite D = true /\
     Rabs (B2R D - spread (map exact3 l)) <= NR (vlen l + 4) / IZR (2 ^ 48) * square_dist64 l + bpow radix2 (-900) /\ B2R (at3 (weight h) c) = 1) /\
  ((vlen l < 2)%N -> B2R D = 0 /\ is_finite D = true /\ B2R (at3 (weight h) c) = 0).
Proof.
  intros Aux Ne Ta Rc Sk Fr Hs Hn E c Hc l D. destruct (disp_cell can bld M d L g s dt d' h mean Aux Ne Ta Rc Sk Fr Hs Hn E c Hc) as [A B]. fold l D in A, B. split; intros Hl.
  - destruct (A Hl) as [F [V [[_ [Wt _]] _]]]. split; [exact F|]. split; [exact V | exact Wt].
  - destruct (B Hl) as [Z [F [_ [Wt _]]]]. split; [exact Z|]. split; [exact F | exact Wt].
Qed.
(** The second result: the average of the cells with at least two moves. *)
Definition mean_cells (f : id3 -> R) (cs : list id3) : R := Rsum (map f cs) / INR (List.length cs).
Lemma times_one (w x : f64) : whole w 1 -> is_finite x = true -> is_finite (Bmult mode_NE w x) = true /\ B2R (Bmult mode_NE w x) = B2R x.
Proof.
  intros [Fw [Ew _]] Fx. generalize (Bmult_correct 53 1024 _ _ mode_NE w x). change (round radix2 (SpecFloat.fexp 53 1024) (round_mode mode_NE)) with rnd.
  rewrite Ew, Rmult_1_l. rewrite rnd_fmt by apply fmt_B2R. rewrite Rlt_bool_true by apply abs_B2R_lt_emax. intros [A [B _]]. rewrite A, B, Fw, Fx. split; reflexivity.
Qed.
Lemma times_zero (w x : f64) : whole w 0 -> is_finite x = true -> is_finite (Bmult mode_NE w x) = true /\ B2R (Bmult mode_NE w x) = 0.
Proof.
  intros [Fw [Ew _]] Fx. generalize (Bmult_correct 53 1024 _ _ mode_NE w x). change (round radix2 (SpecFloat.fexp 53 1024) (round_mode mode_NE)) with rnd.
  rewrite Ew, Rmult_0_l. rewrite (rnd_fmt 0) by apply generic_format_0. rewrite Rabs_R0. rewrite Rlt_bool_true by apply bpow_gt_0. intros [A [B _]]. rewrite A, B, Fw, Fx. split; reflexivity.
Qed.
Lemma sum_used {A} (f : A -> f64) (v : A -> f64) (u : A -> bool) (G : R -> R) (l : list A) : G 0 = 0 ->
  (forall c, In c l -> val (f c) = if u c then B2R (v c) else 0) -> Rsum (map (fun x => G (val x)) (map f l)) = Rsum (map (fun c => G (B2R (v c))) (filter u l)).
Proof.
  intros G0. induction l as [|c l IH]; intros H; [reflexivity|]. cbn [map filter]. rewrite Rsum_cons, (H c (or_introl eq_refl)), (IH (fun x Hx => H x (or_intror Hx))).
  destruct (u c); cbn [map]; [now rewrite Rsum_cons | rewrite G0; lra].
Qed.
Theorem c142_mean {TF : Trig f64} can (bld : build) (M : mgr f64) d (L : list (timestep f64)) (g : grid f64) s dt d' h mean :
  aux_reads can M d L -> L <> [] -> vlen (st_time (m_stats M)) = vlen L -> Forall rect L -> sel_ok s -> fresh g ->
  (forall x p, In x L -> In p (ts_pos x) -> modest p) -> (vlen (all_samples L) <= 2 ^ 46)%N -> (vlen (ids3 (geom_cells (geo g))) <= 2 ^ 46)%N ->
  dispersion bld M d g s dt = Val (d', (h, mean)) ->
  let used := filter (fun c => (2 <=? vlen (moves_in bld g c (moves bld (st_time (m_stats M)) dt s L)))%N) (ids3 (geom_cells (geo g))) in
  used <> [] -> is_finite mean = true /\
  Rabs (B2R mean - mean_cells (fun c => B2R (at3 (data h) c)) used)
    <= NR (vlen (ids3 (geom_cells (geo g))) + 6) / IZR (2 ^ 52) * mean_cells (fun c => Rabs (B2R (at3 (data h) c))) used + bpow radix2 (-1000).
Proof.
  intros Aux Ne Ta Rc Sk Fr Hs Hn Hcells E used Nu. assert (P := eps_pos).
  assert (Cell := disp_cell can bld M d L g s dt d' h mean Aux Ne Ta Rc Sk Fr Hs Hn E). cbv zeta in Cell.
  destruct (disp_run can bld M d L g s dt d' h mean Aux Ne Ta Rc Sk (proj1 Fr) E) as [_ [_ [_ [_ [_ Hm]]]]].
  set (u := fun c => (2 <=? vlen (moves_in bld g c (moves bld (st_time (m_stats M)) dt s L)))%N) in *. set (cs := ids3 (geom_cells (geo g))) in *.
  assert (Len46 : (List.length cs <= 2 ^ 46)%nat).
  { assert (X : N.of_nat (2 ^ 46) = (2 ^ 46)%N) by (rewrite Nat2N.inj_pow; reflexivity). unfold vlen in Hcells. assert (Y : (N.of_nat (List.length cs) <= N.of_nat (2 ^ 46))%N) by (rewrite X; lia). clear - Y. lia. }
  assert (Each : forall c, In c cs -> is_finite (at3 (data h) c) = true /\ Rabs (B2R (at3 (data h) c)) <= bpow radix2 953 /\ (u c = true -> whole (at3 (weight h) c) 1) /\ (u c = false -> whole (at3 (weight h) c) 0)).
  { intros c Hc. apply in_ids3 in Hc. destruct (Cell c Hc) as [A B]. unfold u. assert (Lm : vlen (map snd (moves_in bld g c (moves bld (st_time (m_stats M)) dt s L))) = vlen (moves_in bld g c (moves bld (st_time (m_stats M)) dt s L))) by (unfold vlen; now rewrite map_length).
    rewrite Lm in A, B. clear Cell. destruct (N.leb_spec 2 (vlen (moves_in bld g c (moves bld (st_time (m_stats M)) dt s L)))) as [Le|Lt].
    - destruct (A Le) as [F [_ [Wt Bd]]]. split; [exact F|]. split; [exact Bd|]. split; [intros _; exact Wt | discriminate].
    - destruct (B Lt) as [Z [F Wt]]. split; [exact F|]. split; [|split; [discriminate | intros _; exact Wt]]. fold f64 in *. rewrite Z, Rabs_R0. apply bpow_ge_0. }
  set (wd := fun c => nmul (at3 (weight h) c) (at3 (data h) c)) in *.
  assert (Wd : forall c, In c cs -> is_finite (wd c) = true /\ val (wd c) = if u c then B2R (at3 (data h) c) else 0).
  { intros c Hc. destruct (Each c Hc) as [F [_ [W1 W0]]]. destruct (u c); [exact (times_one _ _ (W1 eq_refl) F) | exact (times_zero _ _ (W0 eq_refl) F)]. }
  assert (S1 : sm (map wd cs) = Rsum (map (fun c => B2R (at3 (data h) c)) used)) by (apply (sum_used wd (at3 (data h)) u (fun x => x) cs eq_refl); intros c Hc; apply (Wd c Hc)).
  assert (S2 : sz (map wd cs) = Rsum (map (fun c => Rabs (B2R (at3 (data h) c))) used)) by (apply (sum_used wd (at3 (data h)) u Rabs cs Rabs_R0); intros c Hc; apply (Wd c Hc)).
  assert (Fw : Forall (fun x : f64 => is_finite x = true) (map wd cs)) by (apply Forall_forall; intros x Hx; apply in_map_iff in Hx; destruct Hx as [c [<- Hc]]; apply (Wd c Hc)).
  assert (Bw : sz (map wd cs) <= bpow radix2 999).
  { unfold sz. rewrite map_map. apply (pow_sum _ cs 953 Len46). intros c Hc. rewrite (proj2 (Wd c Hc)). destruct (u c); [apply (Each c Hc) | rewrite Rabs_R0; apply bpow_ge_0]. }
  assert (L999 : bpow radix2 999 <= bpow radix2 1000) by (apply bpow_le; lia).
  assert (C := nd_sum_close (map wd cs) Fw ltac:(rewrite map_length; exact Len46) ltac:(lra)). rewrite map_length, S1, S2 in C. rewrite S2 in Bw.
  assert (Wt : whole (nd_sum (map (at3 (weight h)) cs)) (Z.of_nat (List.length used))).
  { assert (Z : zsum (map (fun c => if u c then 1 else 0)%Z cs) = Z.of_nat (List.length used)).
    { unfold used. clear. induction cs as [|c cs IH]; [reflexivity|]. cbn [map filter zsum fold_right]. fold (zsum (map (fun c => if u c then 1 else 0)%Z cs)). rewrite IH. destruct (u c); cbn [List.length]; lia. }
    rewrite <- Z. apply nd_sum_whole.
    - clear - Each. induction cs as [|c cs IH]; [constructor|]. cbn [map]. constructor; [|apply IH; intros x Hx; apply Each; now right].
      destruct (Each c (or_introl eq_refl)) as [_ [_ [W1 W0]]]. destruct (u c); [now apply W1 | now apply W0].
    - rewrite Z. assert (Lu := filter_len u cs). fold used in Lu. assert (X := z52 _ Len46). clear - X Lu. lia. }
  destruct Wt as [Fz [Ez _]]. rewrite <- INR_IZR_INZ in Ez.
  assert (U1 : 1 <= INR (List.length used)) by (apply (le_INR 1); destruct used; [contradiction | cbn [List.length]; clear; lia]).
  assert (Nb := b46 _ Len46). assert (N0 := pos_INR (List.length cs)).
  assert (D := close_div _ _ _ _ _ (nd_sum (map (at3 (weight h)) cs)) C ltac:(jfits) ltac:(rewrite Ez; exact U1)). rewrite Ez in D.
  rewrite Hm. fold (mean_cells (fun c => B2R (at3 (data h) c)) used) in D. fold (mean_cells (fun c => Rabs (B2R (at3 (data h) c))) used) in D.
  assert (A0 := A_pos _ _ _ _ _ D). destruct D as [Fm [Em _]]. split; [exact Fm|].
  match type of Em with _ <= ?b => apply Rle_trans with b; [exact Em|] end. apply Rplus_le_compat.
  - rewrite NR_add, vlen_INR. change (NR 6) with 6. apply Rmult_le_compat_r; [exact A0|]. rewrite eps_val. change (IZR (2 ^ 52)) with 4503599627370496. lra.
  - apply Rle_trans with (bpow radix2 2 * eta); [apply Rmult_le_compat_r; [left; apply eta_pos | cbn; lra]|]. unfold eta. rewrite <- bpow_plus. apply bpow_le. lia.
Qed.
Example c142_case {TF : Trig f64} :
  aux_reads (fun _ _ => True) (list_mgr ex_data4 disp_stats) tt ex_data4 /\ vlen (st_time disp_stats) = vlen ex_data4 /\ Forall rect ex_data4 /\
  (forall x p, In x ex_data4 -> In p (ts_pos x) -> modest p) /\ (vlen (all_samples ex_data4) <= 2 ^ 46)%N /\
  after (cart_new (1, 1, 1)%N (ThreeD box64)) (fun g => fresh g /\
  vlen (moves_in Debug g (0, 0, 0)%N (moves Debug (st_time disp_stats) (d 1) sel_default ex_data4)) = 6%N).
Proof.
  destruct c40_case as [A [B _]]. split; [exact A|]. split; [exact B|]. split; [repeat constructor|].
  assert (O : forall a, (Z.abs a <= 2 ^ 52)%Z -> small (d a)).
  { intros a Ha. destruct (of_Z_correct a ltac:(lia)) as [X Y]. split; [exact Y|]. change (d a) with (f64_of_Z a). rewrite X, <- abs_IZR.
    apply Rle_trans with (IZR (2 ^ 52)); [now apply IZR_le|]. change (IZR (2 ^ 52)) with (bpow radix2 52). apply bpow_le. lia. }
  split.
  { intros x p Hx Hp. repeat (destruct Hx as [<- | Hx]; [cbn [ts_pos] in Hp; repeat (destruct Hp as [<- | Hp]; [repeat split; apply O; lia|]); destruct Hp|]). destruct Hx. }
  split; [vm_compute; discriminate|].
  destruct (cart_new (1, 1, 1)%N (ThreeD box64)) as [g|] eqn:E; [|discriminate]. cbn [after].
  split; [exact (new_fresh _ _ true g (or_introl E))|]. injection E as <-. vm_compute. reflexivity.
Qed.
