(** * PropertiesMean: how far averages in doubles are from the exact averages (C133) *)
From Coq Require Import Reals List NArith ZArith Lia Lra Psatz Bool ZifyBool ZifyN.
From Flocq Require Import Core.Core IEEE754.BinarySingleNaN.
From Verif Require Import Base BaseFacts Num RFacts NDArray GridModel GridSpec GridFacts CartProofs F64Facts CartR GridOps GridR PropertiesGrid VecProofs SelModel PropertiesSel
  DataModel FunModel FunSpec FunProofs FunMgr FunField PropertiesFun FunMom FunTemp FloatErr FloatSum.
Import ListNotations.
Local Open Scope R_scope.

(** A finite number of at most 2^960 in absolute value. *)
Definition ordinary (x : f64) : Prop := is_finite x = true /\ Rabs (B2R x) <= bpow radix2 960.
(** [m] is a number within (n + 1) / 2^52 of the mean of the absolute values (and 2^-1075) of the exact mean. *)
Definition mean_close (m : f64) (l : list f64) : Prop :=
  is_finite m = true /\
  Rabs (B2R m - Rmean (map (fun x : f64 => B2R x) l)) <=
    NR (vlen l + 1) / IZR (2 ^ 52) * Rmean (map (fun x : f64 => Rabs (B2R x)) l) + bpow radix2 (-1075).

Lemma vlen_INR {A} (l : list A) : NR (vlen l) = INR (length l).
Proof. unfold NR, vlen. now rewrite nat_N_Z, <- INR_IZR_INZ. Qed.
Lemma ordinary_sum (l : list f64) : Forall ordinary l -> (vlen l <= 2 ^ 52)%N ->
  Forall (fun x : f64 => is_finite x = true) l /\ Rsum (map (fun x : f64 => Rabs (B2R x)) l) <= bpow radix2 1022.
Proof.
  intros H Hn. split.
  - apply Forall_impl with (2 := H). intros x [A _]. exact A.
  - apply Rle_trans with (Rsum (map (fun _ : f64 => bpow radix2 960) l)).
    + apply Rsum_le. intros x Hx. apply (proj1 (Forall_forall _ _) H). exact Hx.
    + rewrite Rsum_const, <- vlen_INR. apply Rle_trans with (bpow radix2 52 * bpow radix2 960).
      * apply Rmult_le_compat_r; [apply bpow_ge_0|]. unfold NR. rewrite <- IZR_Zpower by lia. apply IZR_le. change (Zpower radix2 52) with (2 ^ 52)%Z. lia.
      * rewrite <- bpow_plus. apply bpow_le. lia.
Qed.
Lemma mean_of (l : list f64) (n : f64) : Forall ordinary l -> l <> [] -> (vlen l < 2 ^ 52)%N -> B2R n = NR (vlen l) ->
  mean_close (ndiv (fold_left nadd l (f64_of_Z 0)) n) l.
Proof.
  intros H Ne Hn En. destruct (ordinary_sum l H ltac:(lia)) as [Fl Hs]. unfold vlen in Hn.
  rewrite vlen_INR in En. destruct (mean_err l n Fl Ne ltac:(lia) Hs) as [F1 E1]; [rewrite En; apply INR_IZR_INZ|].
  split; [exact F1|]. unfold Rmean. rewrite !map_length. apply Rle_trans with (1 := E1). fold eta. apply Rplus_le_compat_r.
  apply Req_le. replace (2 * INR (length l + 1) * eps) with (NR (vlen l + 1) / IZR (2 ^ 52)); [reflexivity|].
  rewrite NR_add, vlen_INR, plus_INR. change (NR 1) with 1. cbn [INR]. rewrite eps_val. cbn [Z.pow Z.pow_pos Pos.iter Z.mul Pos.mul]. lra.
Qed.

Lemma filter_len {A} (f : A -> bool) l : (length (filter f l) <= length l)%nat.
Proof. induction l as [|x l IH]; cbn; [lia|]. destruct (f x); cbn; lia. Qed.
(** A grid filled by any history of additions and then divided by its weights. *)
Theorem c133_grid {TF : Trig f64} (bld : build) (cells : id3) (l : lims f64) (h : list (pos3 f64 * f64)) (g : grid f64) :
  sized cells -> cart_new cells (ThreeD l) = Val g -> (forall p v, In (p, v) h -> ordinary v) -> (vlen h < 2 ^ 52)%N ->
  exists g' m, add_all bld h g = Val g' /\ divide_by_weight g' = Val m /\
    forall i, inb3 cells i = true -> let vs := hit_values bld (geo g) i h in vs <> [] -> mean_close (at3 (data m) i) vs.
Proof.
  intros S E Ho Hn. destruct (c12_unvisited_is_nan bld cells l h g S E) as [g' [m [E1 [E2 [_ [_ [H1 _]]]]]]].
  destruct (c04_history bld cells l h g S E) as [g2 [E1' [_ [_ H2]]]]. rewrite E1 in E1'. injection E1' as <-.
  exists g', m. split; [exact E1|]. split; [exact E2|]. intros i Hi vs Ne. rewrite (H1 i Hi). fold vs.
  assert (Sub : forall v, In v vs -> exists p, In (p, v) h).
  { intros v Hv. unfold vs, hit_values in Hv. apply in_map_iff in Hv as [[p w] [<- Hw]]. apply filter_In in Hw as [Hw _]. now exists p. }
  assert (Len : (vlen vs <= vlen h)%N).
  { unfold vlen, vs, hit_values. rewrite map_length.
    match goal with |- (N.of_nat ?a <= N.of_nat ?b)%N => assert (a <= b)%nat; [apply filter_len | lia] end. }
  apply mean_of; auto; [| lia |].
  - apply Forall_forall. intros v Hv. destruct (Sub v Hv) as [p Hp]. exact (Ho p v Hp).
  - exact (proj2 (proj2 (H2 i) ltac:(fold vs; lia))).
Qed.

(** The samples of a cell are all chosen from the recorded ones. *)
Definition all_samples (L : list (timestep f64)) : list (sample f64) := flat_map samples L.
Lemma averaged_in {TF : Trig f64} bld g s calc vmin vmax L c m : In m (averaged bld g s calc vmin vmax L c) ->
  In m (all_samples L) /\ vel_keep calc vmin vmax m = true.
Proof.
  unfold averaged, samples_in, observed. intros H. apply filter_In in H as [H K]. apply filter_In in H as [H _]. apply filter_In in H as [H _]. now split.
Qed.
Lemma vectors_in {TF : Trig f64} bld g s L c m : In m (vectors bld g s L c) -> In m (all_samples L).
Proof.
  unfold vectors, samples_in, observed. intros H. apply filter_In in H as [H K]. apply filter_In in H as [H _]. apply filter_In in H as [H _]. exact H.
Qed.
Lemma kept_between {TF : Trig f64} calc (vmin vmax : f64) (m : sample f64) : is_finite vmin = true -> is_finite vmax = true -> vel_keep calc vmin vmax m = true ->
  is_finite (calc (sm_vel m)) = true /\ B2R vmin <= B2R (calc (sm_vel m)) <= B2R vmax.
Proof.
  intros F1 F2 K. unfold vel_keep in K. apply andb_prop in K as [K1 K2]. apply andb_prop in K1 as [_ K1].
  set (v := calc (sm_vel m)) in *. clearbody v. cbn [nisnan nltb num_f64] in K1, K2.
  apply negb_true_iff, orb_false_elim in K2 as [A B].
  assert (Fv : is_finite v = true).
  { destruct v as [s0|s0| |s0 m0 e0 H0]; try reflexivity; try discriminate K1.
    exfalso. destruct s0.
    - destruct vmin as [s1|s1| |s1 m1 e1 H1]; try discriminate F1; destruct s1; discriminate A.
    - destruct vmax as [s1|s1| |s1 m1 e1 H1]; try discriminate F2; destruct s1; discriminate B. }
  split; [exact Fv|]. split.
  - destruct (Rle_lt_dec (B2R vmin) (B2R v)) as [L|L]; [exact L|]. apply Bltb_R in L; auto. congruence.
  - destruct (Rle_lt_dec (B2R v) (B2R vmax)) as [L|L]; [exact L|]. apply Bltb_R in L; auto. congruence.
Qed.

(** The velocity field: with finite limits nothing is asked of the recorded velocities. *)
Theorem c133_velocity_field {TF : Trig f64} (bld : build) (M : mgr f64) d L (g : grid f64) (cg : cart_geom f64) s mode calc vmin vmax :
  recorded M d L -> sel_ok s -> fresh g -> geo g = Cart cg -> sized (cc_cells cg) -> velocity_mode mode = Val calc ->
  ordinary vmin -> ordinary vmax -> (vlen (all_samples L) < 2 ^ 52)%N ->
  exists d' h, velocityfield bld M d g s mode vmin vmax = Val (d', h) /\
  forall c, inb3 (cc_cells cg) c = true -> let l := averaged bld g s calc vmin vmax L c in l <> [] ->
    mean_close (at3 (data h) c) (map (fun m => calc (sm_vel m)) l).
Proof.
  intros Rec Sk Fr G Sz Em O1 O2 Small. destruct (c35_mean bld M d L g cg s mode calc vmin vmax Rec Sk Fr G Sz Em) as [d' [h [E [_ [_ H]]]]].
  exists d', h. split; [exact E|]. intros c Hc l Ne. destruct (H c Hc) as [_ Hm]. fold l in Hm.
  assert (Len : (vlen l <= vlen (all_samples L))%N).
  { unfold l, averaged, samples_in, observed. unfold vlen. assert (X1 := filter_len (chosen s) (all_samples L)).
    match goal with |- context [filter ?f (filter ?g0 ?x)] => assert (X2 := filter_len f (filter g0 x)); assert (X3 := filter_len g0 x) end.
    unfold all_samples in *. lia. }
  destruct (Hm ltac:(lia)) as [n [_ [En [_ ->]]]]. apply mean_of.
  - apply Forall_forall. intros v Hv. apply in_map_iff in Hv as [m [<- Hi]]. apply averaged_in in Hi as [_ K].
    destruct (kept_between calc vmin vmax m (proj1 O1) (proj1 O2) K) as [F1 B]. split; [exact F1|].
    destruct O1 as [_ O1], O2 as [_ O2]. apply Rabs_le_inv in O1, O2. apply Rabs_le. lra.
  - destruct l; [now destruct Ne | discriminate].
  - unfold vlen in *. rewrite map_length. lia.
  - rewrite En. unfold vlen. now rewrite map_length.
Qed.
(** The vector field: all recorded velocities ordinary. *)
Theorem c133_vector_field {TF : Trig f64} (bld : build) (M : mgr f64) d L (g : grid f64) (cg : cart_geom f64) s :
  recorded M d L -> sel_ok s -> fresh g -> geo g = Cart cg -> sized (cc_cells cg) ->
  (forall m, In m (all_samples L) -> let '(x, y, z) := sm_vel m in ordinary x /\ ordinary y /\ ordinary z) -> (vlen (all_samples L) < 2 ^ 52)%N ->
  exists d' v, vectorfield bld M d g s = Val (d', v) /\
  forall k c, (k <= 2)%N -> inb3 (cc_cells cg) c = true -> let l := vectors bld g s L c in l <> [] ->
    mean_close (at3 (data (comp k v)) c) (map (fun m => v3i k (sm_vel m)) l).
Proof.
  intros Rec Sk Fr G Sz O Small. destruct (c36_vector_mean bld M d L g cg s Rec Sk Fr G Sz) as [d' [v [E [_ H]]]].
  exists d', v. split; [exact E|]. intros k c Hk Hc l Ne. destruct (H k c Hk Hc) as [_ Hm]. fold l in Hm.
  assert (Len : (vlen l <= vlen (all_samples L))%N).
  { unfold l, vectors, samples_in, observed. unfold vlen. assert (X1 := filter_len (chosen s) (all_samples L)).
    match goal with |- context [filter ?f (filter ?g0 ?x)] => assert (X2 := filter_len f (filter g0 x)); assert (X3 := filter_len g0 x) end.
    unfold all_samples in *. lia. }
  destruct (Hm ltac:(lia)) as [n [_ [En [_ ->]]]]. apply mean_of.
  - apply Forall_forall. intros w Hw. apply in_map_iff in Hw as [m [<- Hi]]. apply vectors_in in Hi. specialize (O m Hi).
    destruct (sm_vel m) as [[x y] z]. destruct (axis_cases k Hk) as [-> | [-> | ->]]; apply O.
  - destruct l; [now destruct Ne | discriminate].
  - unfold vlen in *. rewrite map_length. lia.
  - rewrite En. unfold vlen. now rewrite map_length.
Qed.

(** The mean speed: against the exact mean of the exact speeds. *)
Definition slow (v : v3 f64) : Prop :=
  let '(x, y, z) := v in (is_finite x = true /\ is_finite y = true /\ is_finite z = true) /\
  Rabs (B2R x) <= bpow radix2 500 /\ Rabs (B2R y) <= bpow radix2 500 /\ Rabs (B2R z) <= bpow radix2 500.
Definition exact_speed (v : v3 f64) : R := let '(x, y, z) := v in sqrt (B2R x * B2R x + B2R y * B2R y + B2R z * B2R z).
(** Each speed is within 1 / 2^50 of itself (and 2^-535). *)
Theorem c133_speed {TF : Trig f64} (v : v3 f64) : slow v ->
  is_finite (speed v) = true /\ 0 <= B2R (speed v) /\
  Rabs (B2R (speed v) - exact_speed v) <= exact_speed v / IZR (2 ^ 50) + bpow radix2 (-535).
Proof.
  destruct v as [[x y] z]. intros [[Fx [Fy Fz]] [Hx [Hy Hz]]]. destruct (speed_err x y z Fx Fy Fz Hx Hy Hz) as [F1 [P1 E1]].
  split; [exact F1|]. split; [exact P1|]. apply Rle_trans with (1 := E1). unfold norm3. cbn [exact_speed].
  assert (R1 := sqrt_pos (B2R x * B2R x + B2R y * B2R y + B2R z * B2R z)). set (r := sqrt _) in *. rewrite eps_val.
  replace (bpow radix2 (-535)) with (2 * tiny) by (unfold tiny; change 2 with (bpow radix2 1); rewrite <- bpow_plus; reflexivity).
  cbn [Z.pow Z.pow_pos Pos.iter Z.mul Pos.mul]. lra.
Qed.
Lemma speed_moves {TF : Trig f64} (l : list (v3 f64)) : (forall v, In v l -> slow v) -> moving l = l.
Proof.
  induction l as [|v l IH]; intros H; [reflexivity|]. unfold moving. cbn [filter]. fold (moving l). rewrite IH by (intros; apply H; now right).
  destruct (c133_speed v (H v (or_introl eq_refl))) as [F1 _]. cbn [nisnan num_f64]. destruct (speed v); try discriminate F1; reflexivity.
Qed.
Lemma exact_pos v : 0 <= exact_speed v. Proof. destruct v as [[x y] z]. apply sqrt_pos. Qed.
Lemma Rabs_Rsum_le {A} (f g : A -> R) l : (forall x, In x l -> Rabs (f x) <= g x) -> Rabs (Rsum (map f l)) <= Rsum (map g l).
Proof.
  induction l as [|x l IH]; intros H; cbn [map]; rewrite ?Rsum_nil, ?Rsum_cons; [rewrite Rabs_R0; lra|].
  apply Rle_trans with (1 := Rabs_triang _ _). apply Rplus_le_compat; [apply H; now left | apply IH; intros; apply H; now right].
Qed.
Lemma exact_bound v : slow v -> exact_speed v <= bpow radix2 501.
Proof.
  destruct v as [[x y] z]. intros [_ [Hx [Hy Hz]]]. cbn [exact_speed].
  assert (Q : forall a, Rabs a <= bpow radix2 500 -> a * a <= bpow radix2 500 * bpow radix2 500).
  { intros a Ha. rewrite <- (Rabs_pos_eq (a * a)) by apply Rle_0_sqr. rewrite Rabs_mult. apply Rmult_le_compat; auto using Rabs_pos. }
  assert (Q1 := Q _ Hx). assert (Q2 := Q _ Hy). assert (Q3 := Q _ Hz).
  rewrite <- (sqrt_square (bpow radix2 501)) by apply bpow_ge_0. apply sqrt_le_1_alt.
  replace 501%Z with (1 + 500)%Z by lia. rewrite bpow_plus. change (bpow radix2 1) with 2. assert (B := bpow_ge_0 radix2 500). nra.
Qed.
Theorem c133_mean_speed {TF : Trig f64} (bld : build) (M : mgr f64) d L s : recorded M d L ->
  let l := in_window s L in
  l <> [] -> (vlen l < 2 ^ 52)%N -> (forall v, In v l -> slow v) ->
  exists d' m, mean_velocity_showcase bld M d s = Val (d', m) /\ is_finite m = true /\
    let V := Rmean (map exact_speed l) in
    Rabs (B2R m - V) <= NR (vlen l + 9) / IZR (2 ^ 52) * V + bpow radix2 (-530).
Proof.
  intros Rec l Ne Hn Hs. destruct (c41_mean_speed bld M d L s Rec) as [d' [m [E [_ Hm]]]]. fold l in Hm. rewrite (speed_moves l Hs) in Hm.
  destruct (Hm ltac:(lia)) as [n [_ [En Ev]]]. exists d', m. split; [exact E|].
  assert (C : mean_close m (map speed l)).
  { rewrite Ev. apply mean_of.
    - apply Forall_forall. intros w Hw. apply in_map_iff in Hw as [v [<- Hi]]. destruct (c133_speed v (Hs v Hi)) as [F1 [P1 E1]]. split; [exact F1|].
      rewrite Rabs_pos_eq by exact P1. apply Rabs_le_inv in E1. assert (B := exact_bound v (Hs v Hi)). assert (P0 := exact_pos v).
      assert (B1 : bpow radix2 501 <= bpow radix2 958) by (apply bpow_le; lia). assert (B2 : bpow radix2 (-535) <= bpow radix2 958) by (apply bpow_le; lia).
      replace 960%Z with (2 + 958)%Z by lia. rewrite bpow_plus. change (bpow radix2 2) with 4.
      assert (exact_speed v / IZR (2 ^ 50) <= exact_speed v) by (cbn [Z.pow Z.pow_pos Pos.iter Z.mul Pos.mul]; lra). lra.
    - destruct l; [now destruct Ne | discriminate].
    - unfold vlen in *. rewrite map_length. lia.
    - rewrite En. unfold vlen. now rewrite map_length. }
  destruct C as [F1 C]. split; [exact F1|]. intros V. unfold Rmean in C. rewrite !map_map in C. rewrite !map_length in C.
  unfold vlen in C at 1. rewrite map_length in C. fold (vlen l) in C.
  assert (L1 : 1 <= INR (length l)) by (change 1 with (INR 1); apply le_INR; destruct l; [now destruct Ne | cbn; lia]).
  assert (Il : 0 < / INR (length l)) by (apply Rinv_0_lt_compat; lra).
  set (t := bpow radix2 (-535)).
  assert (T0 : 0 < t) by apply bpow_gt_0.
  set (k := / IZR (2 ^ 50)). assert (Hk : 0 < k <= / 1000000) by (unfold k; cbn [Z.pow Z.pow_pos Pos.iter Z.mul Pos.mul]; lra).
  assert (D : Rabs (Rsum (map (fun v : v3 f64 => B2R (speed v)) l) / INR (length l) - V) <= k * V + t).
  { unfold V, Rmean. rewrite map_length.
    replace (Rsum (map (fun v : v3 f64 => B2R (speed v)) l) / INR (length l) - Rsum (map exact_speed l) / INR (length l))
      with (Rsum (map (fun v : v3 f64 => B2R (speed v) - exact_speed v) l) / INR (length l)).
    2:{ unfold Rdiv. rewrite <- Rmult_minus_distr_r. f_equal. rewrite <- (Rmult_1_l (Rsum (map exact_speed l))).
        replace (1 * Rsum (map exact_speed l)) with (- (-1 * Rsum (map exact_speed l))) by ring. rewrite <- Rsum_map_scal. unfold Rminus. rewrite Ropp_involutive, <- Rsum_map_plus.
        apply Rsum_ext. intros. ring. }
    unfold Rdiv. rewrite Rabs_mult, (Rabs_pos_eq (/ INR (length l))) by lra.
    apply Rle_trans with (Rsum (map (fun v => k * exact_speed v + t) l) * / INR (length l)).
    - apply Rmult_le_compat_r; [lra|]. apply Rabs_Rsum_le. intros v Hv. apply Rle_trans with (1 := proj2 (proj2 (c133_speed v (Hs v Hv)))).
      apply Req_le. fold t. unfold k, Rdiv. ring.
    - rewrite Rsum_map_plus, Rsum_map_scal, Rsum_const. apply Req_le. field. lra. }
  assert (Pos : Rsum (map (fun v : v3 f64 => Rabs (B2R (speed v))) l) = Rsum (map (fun v : v3 f64 => B2R (speed v)) l)).
  { apply Rsum_ext. intros v Hv. apply Rabs_pos_eq. apply (c133_speed v (Hs v Hv)). }
  rewrite Pos in C. set (W := Rsum (map (fun v : v3 f64 => B2R (speed v)) l) / INR (length l)) in *.
  assert (V0 : 0 <= V). { unfold V, Rmean. rewrite map_length. apply Rmult_le_pos; [|lra]. apply Rsum_nonneg. intros; apply exact_pos. }
  assert (Hq : 0 <= NR (vlen l + 1) / IZR (2 ^ 52) <= 1).
  { assert (N0 := NR_nonneg (vlen l + 1)). assert (N1 : NR (vlen l + 1) <= IZR (2 ^ 52)) by (unfold NR; apply IZR_le; lia).
    cbn [Z.pow Z.pow_pos Pos.iter Z.mul Pos.mul] in *. lra. }
  replace (NR (vlen l + 9) / IZR (2 ^ 52)) with (NR (vlen l + 1) / IZR (2 ^ 52) + 2 * k).
  2:{ unfold k. rewrite !NR_add. change (NR 9) with 9. change (NR 1) with 1. cbn [Z.pow Z.pow_pos Pos.iter Z.mul Pos.mul]. lra. }
  set (q := NR (vlen l + 1) / IZR (2 ^ 52)) in *. clearbody q k.
  assert (B30 : 4 * t + bpow radix2 (-1075) <= bpow radix2 (-530)).
  { unfold t. change 4 with (bpow radix2 2). rewrite <- bpow_plus. apply Rle_trans with (bpow radix2 (-531) + bpow radix2 (-531)).
    - apply Rplus_le_compat; apply bpow_le; lia.
    - replace (-530)%Z with (1 + -531)%Z by lia. rewrite (bpow_plus _ 1). change (bpow radix2 1) with 2. lra. }
  apply Rabs_le_inv in C, D. apply Rabs_le.
  assert (Q1 : q * W <= q * (V + (k * V + t))) by (apply Rmult_le_compat_l; lra).
  assert (Q2 : q * (k * V) <= 1 * (k * V)) by (apply Rmult_le_compat_r; [apply Rmult_le_pos; lra | lra]).
  assert (Q3 : q * t <= 1 * t) by (apply Rmult_le_compat_r; lra).
  assert (Q4 : 0 <= k * V) by (apply Rmult_le_pos; lra).
  lra.
Qed.

(** Cases the theorems apply to. *)
Lemma ordinary_int a : (Z.abs a <= 2 ^ 52)%Z -> ordinary (d a) /\ Rabs (B2R (d a)) <= bpow radix2 500.
Proof.
  intros H. destruct (of_Z_correct a ltac:(lia)) as [E F]. change (f64_of_Z a) with (d a) in E, F.
  assert (B : Rabs (B2R (d a)) <= bpow radix2 500).
  { rewrite E, <- abs_IZR. apply Rle_trans with (bpow radix2 52); [|apply bpow_le; lia]. rewrite <- IZR_Zpower by lia. apply IZR_le. change (Zpower radix2 52) with (2 ^ 52)%Z. lia. }
  split; [|exact B]. split; [exact F|]. apply Rle_trans with (1 := B). apply bpow_le. lia.
Qed.
Example c133_case {TF : Trig f64} :
  recorded (list_mgr ex_data (ex_stats 2)) tt ex_data /\ ordinary (d 0) /\ ordinary (d 9) /\
  (vlen (all_samples ex_data) < 2 ^ 52)%N /\ vlen (in_window sel_default ex_data) = 4%N /\ (forall v, In v (in_window sel_default ex_data) -> slow v) /\
  (forall m, In m (all_samples ex_data) -> let '(x, y, z) := sm_vel m in ordinary x /\ ordinary y /\ ordinary z).
Proof.
  split; [apply ex_data_recorded|]. split; [apply ordinary_int; lia|]. split; [apply ordinary_int; lia|]. split; [vm_compute; reflexivity|].
  split; [vm_compute; reflexivity|].
  assert (O : forall a, (Z.abs a <= 2 ^ 52)%Z -> ordinary (d a) /\ Rabs (B2R (d a)) <= bpow radix2 500) by exact ordinary_int.
  assert (O0 := O 0%Z ltac:(lia)). assert (O1 := O 1%Z ltac:(lia)). assert (O2 := O 2%Z ltac:(lia)). assert (O3 := O 3%Z ltac:(lia)).
  split.
  - change (in_window sel_default ex_data) with [(d 1, d 0, d 0); (d 0, d 2, d 0); (d 3, d 0, d 0); (d 0, d 2, d 0)].
    intros v Hv. cbn [In] in Hv. unfold ordinary in *. destruct Hv as [<- | [<- | [<- | [<- | []]]]]; unfold slow; tauto.
  - intros m Hm. unfold ordinary in *.
    assert (Hv : In (sm_vel m) (map sm_vel (all_samples ex_data))) by now apply in_map.
    change (map sm_vel (all_samples ex_data)) with [(d 1, d 0, d 0); (d 0, d 2, d 0); (d 3, d 0, d 0); (d 0, d 2, d 0)] in Hv.
    cbn [In] in Hv. destruct Hv as [<- | [<- | [<- | [<- | []]]]]; tauto.
Qed.
