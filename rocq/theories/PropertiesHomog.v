(** * PropertiesHomog: the homogeneity index in doubles (C155)

    The occupancy field, its averages over the layers of the grid and their spread, as stored doubles, compared with the
    exact numbers. *)
From Coq Require Import Reals List NArith ZArith Lia Lra Bool ZifyBool ZifyN.
From Flocq Require Import Core.Core IEEE754.BinarySingleNaN.
From Verif Require Import Base BaseFacts Num RFacts NDArray GridModel GridSpec GridFacts CartProofs F64Facts CartR GridOps GridR PropertiesGrid VecProofs SelModel PropertiesSel
  DataModel DataSpec DataLoad FunModel FunSpec FunProofs FunMgr FunField PropertiesFun FunOcc FunTemp FloatErr FloatSum PropertiesMean FloatNd PropertiesWrap PropertiesExact PropertiesDepth PropertiesOccFloat.
Import ListNotations.
Local Open Scope R_scope.

(** ** The weights of an occupancy field *)
Section Weights.
  Context {TF : Trig f64}.
  (** Half visits of the stay [y] to the cell [c]: on Cartesian grids one for either end if both are in the grid, on
      cylindrical grids two for the start. *)
  Definition visits (bld : build) (ge : geom f64) (c : id3) (y : stay f64) : Z :=
    let here i k := if id3_eqb i c then k else 0%Z in
    match ge with
    | Cart _ => match geom_cell_id bld ge (sm_pos (y_from y)), geom_cell_id bld ge (y_to y) with
                | Val (Some a), Val (Some b) => here a 1%Z + here b 1%Z
                | _, _ => 0
                end
    | Cyl _ => match geom_cell_id bld ge (sm_pos (y_from y)) with Val (Some a) => here a 2%Z | _ => 0 end
    end%Z.
  Lemma visits_pos bld ge c y : (0 <= visits bld ge c y <= 2)%Z.
  Proof.
    unfold visits. destruct ge; destruct (geom_cell_id bld _ (sm_pos (y_from y))) as [[a|]|]; try lia.
    - destruct (geom_cell_id bld _ (y_to y)) as [[b|]|]; try lia. destruct (id3_eqb a c), (id3_eqb b c); lia.
    - destruct (id3_eqb a c); lia.
  Qed.
  Definition all_visits bld ge c (l : list (stay f64)) : Z := zsum (map (visits bld ge c) l).
  Lemma all_visits_pos bld ge c l : (0 <= all_visits bld ge c l <= 2 * Z.of_nat (length l))%Z.
  Proof.
    unfold all_visits. induction l as [|y l IH]; [cbn; lia|]. cbn [map zsum fold_right length]. fold (zsum (map (visits bld ge c) l)). assert (V := visits_pos bld ge c y). lia.
  Qed.

  Lemma one_val : units 2 (n1 (F := f64)) 2.
  Proof. destruct (of_Z_correct 1 ltac:(lia)) as [E F]. split; [exact F|]. split; [change (n1 (F := f64)) with (f64_of_Z 1); rewrite E; field | lia]. Qed.
  Lemma half_units : units 2 (nlit (F := f64) 1 2) 1.
  Proof. destruct half_val as [F E]. split; [exact F|]. split; [rewrite E; field | lia]. Qed.
  (** One deposit adds its weight to its cell only. *)
  Lemma bump_weight (g : grid f64) a v w g' c n k : bump g a v w = Val g' -> units 2 w k -> units 2 (at3 (weight g) c) n -> (n + k <= 2 ^ 53)%Z ->
    units 2 (at3 (weight g') c) (n + (if id3_eqb a c then k else 0)).
  Proof.
    intros B Hk Hn Sm. destruct (bump_inv _ _ _ _ _ B) as [_ [_ [_ [_ [_ [_ [O5 O6]]]]]]]. destruct (id3_eqb a c) eqn:E.
    - apply id3_eqb_eq in E. subst a. rewrite O5. apply units_plus; auto. now right.
    - rewrite Z.add_0_r. destruct (O6 c) as [_ ->]; [|exact Hn]. intros ->. now rewrite id3_eqb_refl in E.
  Qed.
  Lemma traj_weight bld (g : grid f64) y g' c n : add_trajectory_value bld g (sm_pos (y_from y)) (y_to y) (y_spent y) = Val g' -> units 2 (at3 (weight g) c) n -> (n + 2 <= 2 ^ 53)%Z ->
    units 2 (at3 (weight g') c) (n + visits bld (geo g) c y).
  Proof.
    intros E Hn Sm. unfold add_trajectory_value in E. unfold visits. destruct (geo g) as [cg|yg] eqn:G; cbn [geom_cell_id].
    - unfold cell_ids_in_trajectory in E. apply bind_val in E. destruct E as [o [C E]].
      apply bind_val in C. destruct C as [a [Ca C]]. rewrite Ca. destruct a as [ca|]; [|injection C as <-; injection E as <-; now rewrite Z.add_0_r].
      apply bind_val in C. destruct C as [b [Cb C]]. rewrite Cb. destruct b as [cb|]; [|injection C as <-; injection E as <-; now rewrite Z.add_0_r].
      injection C as <-. cbn [combine mfold fst snd] in E.
      apply bind_val in E. destruct E as [g1 [B1 E]]. apply bind_val in E. destruct E as [g2 [B2 E]]. injection E as <-.
      assert (H1 := bump_weight _ _ _ _ _ c n 1 B1 half_units Hn ltac:(lia)).
      assert (H2 := bump_weight _ _ _ _ _ c _ 1 B2 half_units H1 ltac:(destruct (id3_eqb ca c); lia)).
      now rewrite Z.add_assoc.
    - unfold add_value, cell_id in E. rewrite G in E. cbn [geom_cell_id] in E. apply bind_val in E. destruct E as [o [C E]]. rewrite C.
      destruct o as [a|]; [|injection E as <-; now rewrite Z.add_0_r]. exact (bump_weight _ _ _ _ _ c n 2 E one_val Hn ltac:(lia)).
  Qed.
  Lemma traj_geo bld (g : grid f64) p q v g' : wf_grid g -> add_trajectory_value bld g p q v = Val g' -> wf_grid g' /\ geo g' = geo g.
  Proof. intros W E. destruct (traj_dep bld g p q v g' W E) as [A [B _]]. auto. Qed.
  Lemma run_weight bld c l : forall (g : grid f64) (t : f64) h t' n, wf_grid g -> mfold (occ_body bld) l (g, t) = Val (h, t') -> units 2 (at3 (weight g) c) n -> (n + 2 * Z.of_nat (length l) <= 2 ^ 53)%Z ->
    units 2 (at3 (weight h) c) (n + all_visits bld (geo g) c l).
  Proof.
    induction l as [|y l IH]; intros g t h t' n W E Hn Sm.
    - cbn in E. apply Val_pair in E. destruct E as [<- _]. unfold all_visits. cbn. now rewrite Z.add_0_r.
    - cbn [mfold] in E. unfold occ_body at 1 in E. cbn [fst snd] in E. destruct (add_trajectory_value bld g _ _ _) as [g1|] eqn:T; [|discriminate]. cbn [bind] in E.
      cbn [length] in Sm. destruct (traj_geo _ _ _ _ _ _ W T) as [W1 G1]. assert (H1 := traj_weight bld g y g1 c n T Hn ltac:(lia)). assert (V := visits_pos bld (geo g) c y).
      assert (H2 := IH g1 _ h t' _ W1 E H1 ltac:(lia)). rewrite G1 in H2. unfold all_visits in *. cbn [map zsum fold_right]. fold (zsum (map (visits bld (geo g) c) l)). now rewrite Z.add_assoc.
  Qed.
End Weights.

(** Every cell of an occupancy field counts the visits to it, exactly, in halves. *)
Theorem c155_weights {TF : Trig f64} can (bld : build) (M : mgr f64) d (L : list (timestep f64)) (g : grid f64) s min_vel d' h :
  aux_reads can M d L -> (forall t, can t (t + 1)%N) -> (3 <= vlen L)%N -> Forall rect L -> sel_ok s -> fresh g ->
  occupancyfield bld M d g s min_vel = Val (d', h) -> (vlen (counted g s min_vel L) <= 2 ^ 46)%N ->
  wf_grid h /\ geo h = geo g /\ forall c, is_finite (at3 (weight h) c) = true /\ B2R (at3 (weight h) c) = IZR (all_visits bld (geo g) c (counted g s min_vel L)) / 2.
Proof.
  intros Aux Can Len Rc Sk [W Fr] E Sm. assert (Q := occ_run can bld M d L g s min_vel Aux Can Len Rc Sk).
  destruct (mfold _ _ _) as [[h1 t1]|] eqn:Fo; [|congruence]. destruct Q as [d2 Q]. rewrite Q in E.
  apply Val_pair in E. destruct E as [_ <-]. destruct (new_zeros_wf g W) as [W0 G0].
  destruct (occ_sound bld _ _ _ _ _ W0 Fo) as [[[W1 W2] [G1 _]] _]. cbn [fst snd divide_by_scalar with_data data map3 sh3 weight geo].
  split; [split; cbn [data map3 sh3 weight geo]; assumption|]. split; [congruence|]. intros c.
  assert (H := run_weight bld c (counted g s min_vel L) (new_zeros g) n0 h1 t1 0 W0 Fo).
  destruct H as [A1 [A2 _]].
  - change (weight (new_zeros g)) with (weight g). rewrite (proj2 (Fr c)). apply units_zero. now right.
  - unfold vlen in Sm. clear - Sm. lia.
  - rewrite G0, Z.add_0_l in A2. auto.
Qed.

(** ** The spread of some numbers, of which some are missing *)
Definition present (l : list (option R)) : list R := flat_map (fun o => match o with Some x => [x] | None => [] end) l.
(** The number the library calls the index: missing numbers are left out of the sums but counted in the divisor. *)
Definition mean_over (l : list (option R)) : R := Rsum (present l) / INR (length l).
Definition variance_over (l : list (option R)) : R := Rsum (map (fun x => (x - mean_over l) * (x - mean_over l)) (present l)) / INR (length l).

(** A stored number and the exact one it stands for. *)
Definition stored (dl : R) (x : f64) (o : option R) : Prop :=
  match o with None => is_nan x = true | Some s => is_finite x = true /\ Rabs (B2R x - s) <= dl /\ 0 <= s <= 1 end.

Lemma sub_R (x y : f64) : is_finite x = true -> is_finite y = true -> Rabs (rnd (B2R x - B2R y)) < M64 ->
  is_finite (Bminus mode_NE x y) = true /\ B2R (Bminus mode_NE x y) = rnd (B2R x - B2R y).
Proof.
  intros Fx Fy H. generalize (Bminus_correct 53 1024 _ _ mode_NE x y Fx Fy).
  change (round radix2 fexp64 (round_mode mode_NE) (B2R x - B2R y)) with (rnd (B2R x - B2R y)).
  rewrite Rlt_bool_true by exact H. intros [A [B _]]. auto.
Qed.

Lemma stored_list dl xs os : Forall2 (stored dl) xs os -> exists l : list (f64 * R), map fst l = filter (fun x : f64 => negb (is_nan x)) xs /\ map snd l = present os /\
  (length l <= length os)%nat /\ forall e, In e l -> is_finite (fst e) = true /\ Rabs (B2R (fst e) - snd e) <= dl /\ 0 <= snd e <= 1.
Proof.
  induction 1 as [|x o xs os H F IH]; [exists []; cbn; repeat split; auto; contradiction|]. destruct IH as [l [A [B [C D]]]]. cbn [filter present flat_map]. destruct o as [s|]; cbn [stored] in H.
  - destruct H as [Fx H]. exists ((x, s) :: l). assert (Nx : is_nan x = false) by (destruct x; try discriminate Fx; reflexivity). rewrite Nx. cbn [negb map fst snd app length].
    rewrite A, B. split; [reflexivity|]. split; [reflexivity|]. split; [lia|]. intros e [<- | He]; [split; [exact Fx | exact H] | now apply D].
  - exists l. rewrite H. cbn [negb app length]. split; [exact A|]. split; [exact B|]. split; [lia | exact D].
Qed.

Lemma index_close (xs : list f64) os dl : Forall2 (stored dl) xs os -> (1 <= vlen os <= 2 ^ 44)%N -> 0 <= dl <= / 64 ->
  let v := index_of_field xs in
  is_finite v = true /\ 0 <= B2R v /\ Rabs (B2R v * B2R v - variance_over os) <= 17 / 4 * dl + (10 * INR (length os) + 18) * eps.
Proof.
  intros H HK Hd v. assert (P := eps_pos). assert (Pe := eta_pos). assert (Le := eps_le). assert (Ev := eps_val).
  assert (EE : eta <= / 1000 * eps) by (unfold eta, eps; rewrite <- (Rmult_1_l (bpow radix2 _)); apply Rle_trans with (bpow radix2 (-10) * bpow radix2 (-53)); [rewrite <- bpow_plus, Rmult_1_l; apply bpow_le; lia | apply Rmult_le_compat_r; [apply bpow_ge_0 | change (bpow radix2 (-10)) with (/ 1024); lra]]).
  destruct (stored_list dl xs os H) as [l [L1 [L2 [L3 L4]]]].
  assert (Lx : vlen xs = vlen os) by (unfold vlen; f_equal; clear - H; induction H; cbn [length]; congruence).
  set (K := INR (length os)). assert (KN : NR (vlen os) = K) by apply vlen_INR.
  assert (K1 : 1 <= K) by (rewrite <- KN; apply (IZR_le 1); clear - HK; lia).
  assert (Ke : K * eps <= / 512).
  { apply Rle_trans with (IZR (2 ^ 44) * eps); [apply Rmult_le_compat_r; [lra|]; rewrite <- KN; apply IZR_le; clear - HK; lia|]. rewrite Ev. change (IZR (2 ^ 44)) with 17592186044416. lra. }
  set (p := INR (length l)). assert (pK : 0 <= p <= K) by (split; [apply pos_INR | apply le_INR; exact L3]).
  assert (IK : 0 < / K) by (apply Rinv_0_lt_compat; lra). assert (IK1 : / K <= 1) by (rewrite <- Rinv_1; apply Rinv_le; lra).
  assert (pK1 : 0 <= p / K <= 1).
  { split; [apply Rmult_le_pos; lra|]. apply Rmult_le_reg_r with K; [lra|]. unfold Rdiv. rewrite Rmult_assoc, Rinv_l by lra. lra. }
  assert (HlZ : (Z.of_nat (length l) <= 2 ^ 48)%Z) by (unfold vlen in HK; clear - HK L3; lia).
  set (all := nofN (F := f64) (vlen xs)).
  assert (EA : B2R all = K) by (unfold all, nofN; cbn [nof num_f64]; rewrite Lx; destruct (of_Z_correct (Z.of_N (vlen os)) ltac:(clear - HK; lia)) as [-> _]; exact KN).
  assert (V := c83_empty_layers xs). cbv zeta in V. fold v all in V. change (filter (fun x => negb (nisnan x)) xs) with (filter (fun x : f64 => negb (is_nan x)) xs) in V. rewrite <- L1 in V.
  change (@n0 f64 num_f64) with (f64_of_Z 0) in V. set (mu := ndiv (fold_left nadd (map fst l) (f64_of_Z 0)) all) in V.
  (* the mean *)
  set (M := mean_over os). assert (ME : M = Rsum (map snd l) / K) by (unfold M, mean_over; rewrite <- L2; reflexivity).
  destruct (terms_err l fst snd (fun _ => 1) (fun _ => 0) dl all K) as [Fm Em].
  { intros e He. destruct (L4 e He) as [A [B C]]. split; [exact A|]. split; [lra|]. split; [rewrite Rabs_pos_eq; lra | lra]. }
  { lra. } { exact HlZ. }
  { rewrite Rsum_const. fold p. apply Rle_trans with (bpow radix2 53); [|apply bpow_le; lia]. rewrite Rmult_1_r. assert (p * eps <= / 512) by (apply Rle_trans with (K * eps); [apply Rmult_le_compat_r; lra | exact Ke]).
    assert (Z1 : bpow radix2 53 * eps = 1) by (unfold eps; rewrite <- bpow_plus; reflexivity).
    apply Rmult_le_reg_r with eps; [lra|]. rewrite Z1. lra. }
  { rewrite Rsum_const. lra. } { exact EA. } { lra. }
  change (Bdiv mode_NE (fold_left (Bplus mode_NE) (map fst l) (f64_of_Z 0)) all) with mu in Fm, Em.
  rewrite <- ME, !Rsum_const in Em. fold p in Em. rewrite Rmult_1_r in Em.
  set (dm := dl + (3 * K + 2) * eps).
  assert (pe : p * eps <= K * eps) by (apply Rmult_le_compat_r; lra). assert (pe0 : 0 <= p * eps) by (apply Rmult_le_pos; lra).
  assert (Em' : Rabs (B2R mu - M) <= dm + eta).
  { apply Rle_trans with (1 := Em). unfold dm. replace ((2 * (p * 0) / K + 1) * eta) with eta by (field; lra).
    assert ((dl + (3 * p + 2) * eps) * (p / K) <= (dl + (3 * p + 2) * eps) * 1) by (apply Rmult_le_compat_l; lra). lra. }
  assert (dmB : 0 <= dm <= / 32) by (unfold dm; lra).
  assert (M01 : 0 <= M <= 1).
  { rewrite ME. split; [apply Rmult_le_pos; [|lra]; apply Rsum_nonneg; intros e He; apply (L4 e He)|].
    apply Rle_trans with (2 := proj2 pK1). apply Rmult_le_compat_r; [lra|]. apply Rle_trans with (Rsum (map (fun _ : f64 * R => 1) l)); [apply Rsum_le; intros e He; apply (L4 e He)|].
    rewrite Rsum_const. fold p. lra. }
  set (e1 := dl + dm + 2 * eps).
  assert (e1B : 0 <= e1 <= / 16) by (unfold e1; lra).
  (* one square *)
  assert (Sq : forall e, In e l -> let y := Bminus mode_NE (fst e) mu in
    is_finite (Bmult mode_NE y y) = true /\ Rabs (B2R (Bmult mode_NE y y) - (snd e - M) * (snd e - M)) <= (17 / 8 * e1 + 2 * eps) * 1 + 0 * eta /\ Rabs ((snd e - M) * (snd e - M)) <= 1 /\ 0 <= 0).
  { intros e He y. destruct (L4 e He) as [Fe [De Re]]. set (D := snd e - M). assert (D1 : -1 <= D <= 1) by (unfold D; lra).
    assert (Df : Rabs ((B2R (fst e) - B2R mu) - D) <= dl + dm + eta).
    { replace ((B2R (fst e) - B2R mu) - D) with ((B2R (fst e) - snd e) - (B2R mu - M)) by (unfold D; ring). apply Rle_trans with (1 := Rabs_triang _ _). rewrite Rabs_Ropp. lra. }
    assert (Sz : Rabs (B2R (fst e) - B2R mu) <= 2) by (apply Rabs_le_inv in Df; apply Rabs_le; lra).
    assert (Big : forall r, Rabs r <= 8 -> Rabs (rnd r) < M64) by (intros r Hr; apply big_lt, rnd_big; apply Rle_trans with (bpow radix2 3); [exact Hr | apply bpow_le; lia]).
    destruct (sub_R (fst e) mu Fe Fm (Big (B2R (fst e) - B2R mu) ltac:(lra))) as [Fy Ey]. fold y in Fy, Ey. destruct (rnd_diff (fst e) mu) as [f [Hf Ef]]. rewrite Ef in Ey.
    assert (Ye : Rabs (B2R y - D) <= e1).
    { rewrite Ey. replace ((B2R (fst e) - B2R mu) * (1 + f) - D) with (((B2R (fst e) - B2R mu) - D) + f * (B2R (fst e) - B2R mu)) by ring. apply Rle_trans with (1 := Rabs_triang _ _).
      assert (Rabs (f * (B2R (fst e) - B2R mu)) <= eps * (1 + / 4)).
      { rewrite Rabs_mult. apply Rmult_le_compat; [apply Rabs_pos | apply Rabs_pos | exact Hf|]. apply Rabs_le_inv in Df. apply Rabs_le; lra. }
      unfold e1. lra. }
    assert (Yb : Rabs (B2R y) <= 17 / 16) by (apply Rabs_le_inv in Ye; apply Rabs_le; lra).
    assert (Yq : Rabs (B2R y * B2R y) <= 5 / 4).
    { rewrite Rabs_mult. apply Rle_trans with (17 / 16 * (17 / 16)); [apply Rmult_le_compat; try apply Rabs_pos; exact Yb | lra]. }
    destruct (mul_R y y Fy Fy (Big (B2R y * B2R y) ltac:(lra))) as [Ft Et]. split; [exact Ft|]. split; [|split; [|lra]].
    - rewrite Et. destruct (rnd_ex (B2R y * B2R y)) as [f' [dd [Hf' [Hdd ->]]]].
      replace (B2R y * B2R y * (1 + f') + dd - D * D) with ((B2R y - D) * (B2R y + D) + (f' * (B2R y * B2R y) + dd)) by ring.
      apply Rle_trans with (1 := Rabs_triang _ _). rewrite Rabs_mult.
      assert (A1 : Rabs (B2R y - D) * Rabs (B2R y + D) <= e1 * (17 / 8)).
      { apply Rmult_le_compat; [apply Rabs_pos | apply Rabs_pos | exact Ye|]. apply Rabs_le_inv in Yb. apply Rabs_le. lra. }
      assert (A2 : Rabs (f' * (B2R y * B2R y) + dd) <= 5 / 4 * eps + eta).
      { apply Rle_trans with (1 := Rabs_triang _ _). apply Rplus_le_compat; [|exact Hdd]. rewrite Rabs_mult. rewrite (Rmult_comm (5 / 4)). apply Rmult_le_compat; [apply Rabs_pos | apply Rabs_pos | exact Hf' | exact Yq]. }
      lra.
    - rewrite Rabs_mult. rewrite <- (Rmult_1_r 1). apply Rmult_le_compat; try apply Rabs_pos; apply Rabs_le; lra. }
  (* their sum *)
  destruct (terms_err l (fun e => let y := Bminus mode_NE (fst e) mu in Bmult mode_NE y y) (fun e => (snd e - M) * (snd e - M)) (fun _ => 1) (fun _ => 0) (17 / 8 * e1 + 2 * eps) all K) as [Fr Er].
  { exact Sq. } { lra. } { exact HlZ. }
  { rewrite Rsum_const. fold p. apply Rle_trans with (bpow radix2 53); [|apply bpow_le; lia]. rewrite Rmult_1_r. assert (p * eps <= / 512) by lra.
    assert (Z1 : bpow radix2 53 * eps = 1) by (unfold eps; rewrite <- bpow_plus; reflexivity).
    apply Rmult_le_reg_r with eps; [lra|]. rewrite Z1. lra. }
  { rewrite Rsum_const. lra. } { exact EA. } { lra. }
  set (r := Bdiv mode_NE (fold_left (Bplus mode_NE) (map (fun e => let y := Bminus mode_NE (fst e) mu in Bmult mode_NE y y) l) (f64_of_Z 0)) all) in *.
  assert (Vr : v = Bsqrt mode_NE r).
  { rewrite V. unfold r. cbn [nsqrt num_f64]. f_equal. cbn [ndiv num_f64]. f_equal. rewrite <- map_fold. generalize mu. clear. intros mu. generalize (f64_of_Z 0). induction l as [|e l IH]; intros a; cbn [fold_left map]; [reflexivity | apply IH]. }
  assert (VE : variance_over os = Rsum (map (fun e => (snd e - M) * (snd e - M)) l) / K).
  { unfold variance_over. fold M K. rewrite <- L2, map_map. reflexivity. }
  rewrite <- VE, !Rsum_const in Er. fold p in Er. rewrite Rmult_1_r in Er.
  set (H2 := variance_over os) in *.
  assert (Er' : Rabs (B2R r - H2) <= 17 / 8 * e1 + (3 * K + 5) * eps).
  { apply Rle_trans with (1 := Er). replace ((2 * (p * 0) / K + 1) * eta) with eta by (field; lra).
    assert ((17 / 8 * e1 + 2 * eps + (3 * p + 2) * eps) * (p / K) <= (17 / 8 * e1 + 2 * eps + (3 * p + 2) * eps) * 1) by (apply Rmult_le_compat_l; lra). lra. }
  assert (H2b : 0 <= H2 <= 1).
  { rewrite VE. split; [apply Rmult_le_pos; [|lra]; apply Rsum_nonneg; intros e _; apply Rle_0_sqr|].
    apply Rle_trans with (2 := proj2 pK1). apply Rmult_le_compat_r; [lra|]. apply Rle_trans with (Rsum (map (fun _ : f64 * R => 1) l)); [|rewrite Rsum_const; fold p; lra].
    apply Rsum_le. intros e He. destruct (Sq e He) as [_ [_ [B _]]]. apply Rabs_le_inv in B. lra. }
  assert (Rp : 0 <= B2R r).
  { unfold r. set (sm := fold_left (Bplus mode_NE) (map (fun e => let y := Bminus mode_NE (fst e) mu in Bmult mode_NE y y) l) (f64_of_Z 0)) in *.
    assert (Fsm : is_finite sm = true).
    { destruct (sum_err (map (fun e => let y := Bminus mode_NE (fst e) mu in Bmult mode_NE y y) l)) as [F _]; [| | |exact F].
      - apply Forall_forall. intros z Hz. apply in_map_iff in Hz as [e [<- He]]. apply (Sq e He).
      - rewrite map_length. apply Z.le_trans with (1 := HlZ). clear; lia.
      - rewrite map_map. apply Rle_trans with (Rsum (map (fun _ : f64 * R => 2) l)).
        + apply Rsum_le. intros e He. destruct (Sq e He) as [_ [B1 [B2 _]]]. cbv zeta in B1. assert (G : forall z q b : R, Rabs (z - q) <= b -> Rabs q <= 1 -> b <= 1 -> Rabs z <= 2) by (clear; intros z q b A1 A2 A3; apply Rabs_le_inv in A1, A2; apply Rabs_le; lra). apply (G _ _ _ B1 B2). lra.
        + rewrite Rsum_const. fold p. apply Rle_trans with (bpow radix2 54); [|apply bpow_le; lia]. assert (p * eps <= / 512) by lra.
          assert (Z1 : bpow radix2 54 * eps = 2) by (unfold eps; rewrite <- bpow_plus; reflexivity). apply Rmult_le_reg_r with eps; [lra|]. rewrite Z1. lra. }
    assert (Psm : 0 <= B2R sm).
    { apply fold_nonneg; [destruct (of_Z_correct 0 ltac:(lia)) as [-> _]; apply Rle_refl | | exact Fsm]. apply Forall_forall. intros z Hz. apply in_map_iff in Hz as [e [<- He]].
      destruct (Sq e He) as [Fz [Bz [Cz _]]]. cbv zeta in *. set (y := Bminus mode_NE (fst e) mu) in *.
      generalize (Bmult_correct 53 1024 _ _ mode_NE y y). change (round radix2 fexp64 (round_mode mode_NE) (B2R y * B2R y)) with (rnd (B2R y * B2R y)).
      destruct (Rlt_bool _ _).
      - intros [-> _]. apply rnd_nonneg, Rle_0_sqr.
      - intros E. apply (f_equal is_finite_SF) in E. rewrite is_finite_SF_B2SF in E. exfalso. change (is_finite (Bmult mode_NE y y) = true) in Fz. rewrite Fz in E. destruct (Bsign y); discriminate E. }
    assert (Fall : is_finite all = true) by (unfold all, nofN; cbn [nof num_f64]; apply of_Z_correct; rewrite Lx; clear - HK; lia).
    generalize (Bdiv_correct 53 1024 _ _ mode_NE sm all ltac:(rewrite EA; lra)). change (round radix2 fexp64 (round_mode mode_NE) (B2R sm / B2R all)) with (rnd (B2R sm / B2R all)).
    destruct (Rlt_bool _ _).
    - intros [-> _]. apply rnd_nonneg. rewrite EA. apply Rmult_le_pos; lra.
    - intros E. apply (f_equal is_finite_SF) in E. rewrite is_finite_SF_B2SF in E. exfalso. assert (Fr' : is_finite (Bdiv mode_NE sm all) = true) by exact Fr. rewrite Fr' in E. destruct (Bsign sm), (Bsign all); discriminate E. }
  destruct (sqrt_R r Fr Rp) as [Fv Ew]. rewrite Vr. split; [exact Fv|]. rewrite Ew. split; [apply rnd_nonneg, sqrt_pos|].
  set (a := B2R r) in *. assert (ab : 0 <= a <= 5 / 4) by (apply Rabs_le_inv in Er'; lra).
  assert (S2 : sqrt a * sqrt a = a) by (apply sqrt_sqrt; lra).
  destruct (rnd_ex (sqrt a)) as [f [dd [Hf [Hdd ->]]]].
  assert (S0 : 0 <= sqrt a) by apply sqrt_pos. assert (S1 : sqrt a <= 5 / 4) by (rewrite <- (sqrt_Rsqr (5 / 4)) by lra; apply sqrt_le_1_alt; unfold Rsqr; lra).
  set (q := sqrt a) in *. apply Rabs_le_inv in Hf, Hdd.
  assert (W : Rabs ((q * (1 + f) + dd) * (q * (1 + f) + dd) - a) <= 4 * eps).
  { assert (U : Rabs (q * f + dd) <= 5 / 4 * eps + eta).
    { apply Rle_trans with (1 := Rabs_triang _ _). apply Rplus_le_compat; [|apply Rabs_le; lra]. rewrite Rabs_mult, (Rabs_pos_eq q) by lra. apply Rmult_le_compat; [lra | apply Rabs_pos | lra | apply Rabs_le; lra]. }
    rewrite <- S2. replace ((q * (1 + f) + dd) * (q * (1 + f) + dd) - q * q) with ((q * f + dd) * (2 * q + (q * f + dd))) by ring. rewrite Rabs_mult.
    assert (Rabs (2 * q + (q * f + dd)) <= 251 / 100).
    { apply Rabs_le_inv in U. apply Rabs_le. lra. }
    apply Rle_trans with ((5 / 4 * eps + eta) * (251 / 100)); [apply Rmult_le_compat; try apply Rabs_pos; lra|]. lra. }
  replace ((q * (1 + f) + dd) * (q * (1 + f) + dd) - H2) with (((q * (1 + f) + dd) * (q * (1 + f) + dd) - a) + (a - H2)) by ring.
  apply Rle_trans with (1 := Rabs_triang _ _). unfold e1, dm in Er'. lra.
Qed.

(** ** The index of a recording *)
Section Index.
  Context {TF : Trig f64}.
  Variables (bld : build) (ge : geom f64) (S : list (stay f64)).
  (** The share of the time spent in a cell, and the mean share over the visits to a layer of the grid. *)
  Definition share (c : id3) : R := Rsum (map (time_in bld ge c) S) / Rsum (map spent S).
  Definition layer_visits (k : N) : Z := zsum (map (fun c => all_visits bld ge c S) (plane_cells (geom_cells ge) 2 k)).
  Definition layer (k : N) : option R :=
    if (layer_visits k =? 0)%Z then None
    else Some (Rsum (map (fun c => share c * IZR (all_visits bld ge c S)) (plane_cells (geom_cells ge) 2 k)) / IZR (layer_visits k)).
  Definition layers : list (option R) := map layer (range 0 (snd (geom_cells ge))).

  Lemma once a k cs : (0 <= k)%Z -> NoDup cs -> (0 <= zsum (map (fun c => if id3_eqb a c then k else 0%Z) cs) <= k)%Z.
  Proof using.
    intros Hk. induction 1 as [|c cs Nc ND IH]; cbn [map zsum fold_right]; [lia|]. fold (zsum (map (fun c => if id3_eqb a c then k else 0%Z) cs)).
    destruct (id3_eqb a c) eqn:E; [|lia]. apply id3_eqb_eq in E. subst c.
    assert (Z : zsum (map (fun c => if id3_eqb a c then k else 0%Z) cs) = 0%Z); [|lia].
    clear - Nc. induction cs as [|c cs IH]; [reflexivity|]. cbn [map zsum fold_right]. fold (zsum (map (fun c => if id3_eqb a c then k else 0%Z) cs)).
    rewrite IH by (intros H; apply Nc; now right). destruct (id3_eqb a c) eqn:E; [|lia]. apply id3_eqb_eq in E. exfalso. apply Nc. left. congruence.
  Qed.
  Lemma zsum_plus {A} (f h : A -> Z) l : zsum (map (fun c => f c + h c)%Z l) = (zsum (map f l) + zsum (map h l))%Z.
  Proof using. induction l as [|c l IH]; [reflexivity|]. cbn [map zsum fold_right]. fold (zsum (map (fun c => f c + h c)%Z l)) (zsum (map f l)) (zsum (map h l)). lia. Qed.
  Lemma zsum_zero {A} (l : list A) : zsum (map (fun _ => 0%Z) l) = 0%Z.
  Proof using. induction l as [|c l IH]; [reflexivity|]. cbn [map zsum fold_right]. fold (zsum (map (fun _ : A => 0%Z) l)). lia. Qed.
  Lemma visits_total y cs : NoDup cs -> (zsum (map (fun c => visits bld ge c y) cs) <= 2)%Z.
  Proof using.
    intros ND. unfold visits. destruct ge as [cg|yg].
    - destruct (geom_cell_id bld _ (sm_pos (y_from y))) as [[a|]|]; try (rewrite zsum_zero; lia). destruct (geom_cell_id bld _ (y_to y)) as [[b|]|]; try (rewrite zsum_zero; lia).
      rewrite zsum_plus. assert (A := once a 1 cs ltac:(lia) ND). assert (B := once b 1 cs ltac:(lia) ND). lia.
    - destruct (geom_cell_id bld _ (sm_pos (y_from y))) as [[a|]|]; try (rewrite zsum_zero; lia). apply (once a 2 cs ltac:(lia) ND).
  Qed.
  Lemma layer_visits_le k : (0 <= layer_visits k <= 2 * Z.of_nat (length S))%Z.
  Proof using.
    unfold layer_visits. set (p := plane_cells (geom_cells ge) 2 k). assert (ND : NoDup p) by (apply NoDup_filter, ids3_NoDup). split.
    - apply zsum_pos. apply Forall_forall. intros z Hz. apply in_map_iff in Hz as [c [<- _]]. apply all_visits_pos.
    - unfold all_visits. induction S as [|y l IH].
      + cbn [map]. change (zsum []) with 0%Z. rewrite zsum_zero. cbn. lia.
      + cbn [map length]. assert (E : zsum (map (fun c => zsum (visits bld ge c y :: map (visits bld ge c) l)) p) = (zsum (map (fun c => visits bld ge c y) p) + zsum (map (fun c => zsum (map (visits bld ge c) l)) p))%Z) by (rewrite <- zsum_plus; reflexivity).
        rewrite E. assert (V := visits_total y p ND). lia.
  Qed.
  Lemma share_bounds c : (forall y, In y S -> 0 <= spent y) -> 0 < Rsum (map spent S) -> 0 <= share c <= 1.
  Proof using.
    intros Sp Tp. unfold share. split.
    - apply Rmult_le_pos; [|left; now apply Rinv_0_lt_compat]. apply Rsum_nonneg. intros y Hy. apply time_in_pos, (Sp y Hy).
    - apply Rmult_le_reg_r with (Rsum (map spent S)); [exact Tp|]. unfold Rdiv. rewrite Rmult_assoc, Rinv_l, Rmult_1_r, Rmult_1_l by lra.
      apply Rsum_le. intros y Hy. apply Rle_trans with (Rsum (map (fun c => time_in bld ge c y) [c])); [cbn [map]; rewrite Rsum_cons, Rsum_nil; lra|].
      apply time_in_total; [repeat constructor; intros [] | exact (Sp y Hy)].
  Qed.
End Index.

Lemma pointwise {A B} (P : A -> B -> Prop) l : forall m, vlen l = vlen m -> (forall i x y, at_ l i x -> at_ m i y -> P x y) -> Forall2 P l m.
Proof.
  induction l as [|x l IH]; intros [|y m] E H; [constructor | discriminate E | discriminate E|]. constructor; [exact (H 0%N x y eq_refl eq_refl)|].
  apply IH; [unfold vlen in *; cbn [length] in E; lia|]. intros i a b Ha Hb. apply (H (i + 1)%N a b); unfold at_ in *; replace (N.to_nat (i + 1)) with (Datatypes.S (N.to_nat i)) by lia; assumption.
Qed.
(** The index of a recording: the square is the variance of the layers, up to rounding. *)
Theorem c155_index {TF : Trig f64} can (bld : build) (M : mgr f64) d (L : list (timestep f64)) (g : grid f64) s min_vel d' v m :
  aux_reads can M d L -> (forall t, can t (t + 1)%N) -> (3 <= vlen L)%N -> Forall rect L -> sel_ok s -> fresh g ->
  homogenity_index bld M d g s min_vel = Val (d', v) ->
  let S := counted g s min_vel L in let n := NR (vlen S) in let T := Rsum (map spent S) in
  (forall y, In y S -> is_finite (y_spent y) = true) -> (vlen S <= 2 ^ 42)%N -> bpow radix2 (-900) <= T <= bpow radix2 1000 ->
  (forall a k, v3get (geom_cells (geo g)) a = Val k -> (k <= m)%N) -> (m <= 2 ^ 42)%N -> (1 <= snd (geom_cells (geo g)))%N ->
  is_finite v = true /\ 0 <= B2R v /\
  Rabs (B2R v * B2R v - variance_over (layers bld (geo g) S)) <= (34 * n + 36 * NR m + 78) / IZR (2 ^ 53).
Proof.
  intros Aux Can Len Rc Sk Fr E S n T Fy Hn HT Dm Hm Hz. assert (W := proj1 Fr).
  destruct (c42_from_occupancy bld M d g s min_vel d' v E) as [h [ls [Eh [El ->]]]].
  assert (Hn46 : (vlen S <= 2 ^ 46)%N) by (clear - Hn; lia).
  destruct (c155_weights can bld M d L g s min_vel d' h Aux Can Len Rc Sk Fr Eh Hn46) as [Wh [Gh Hw]]. fold S in Hw.
  destruct (c154_shares can bld M d L g s min_vel d' h Aux Can Len Rc Sk W Eh Fy) as [_ Hs]. specialize (Hs Hn46 HT). cbv zeta in Hs. fold S in Hs. fold T n in Hs.
  assert (Hl : forall y, In y S -> lasting y) by (intros y Hy; apply (counted_lasting g s min_vel L y Hy), (Fy y Hy)).
  assert (Tp : 0 < T) by (apply Rlt_le_trans with (2 := proj1 HT); apply bpow_gt_0).
  assert (Sb : forall c, 0 <= share bld (geo g) S c <= 1) by (intros c; apply share_bounds; [intros y Hy; apply (Hl y Hy) | exact Tp]).
  assert (P := eps_pos). assert (Pe := eta_pos). assert (Ev := eps_val).
  assert (n0' : 0 <= n <= IZR (2 ^ 42)) by (split; [apply (IZR_le 0) | apply IZR_le]; clear - Hn; lia).
  assert (m0' : 0 <= NR m <= IZR (2 ^ 42)) by (split; [apply (IZR_le 0) | apply IZR_le]; clear - Hm; lia).
  change (IZR (2 ^ 42)) with 4398046511104 in n0', m0'.
  assert (Tiny : (4 * n + 1) * bpow radix2 (-175) <= eps).
  { apply Rle_trans with (bpow radix2 60 * bpow radix2 (-175)); [apply Rmult_le_compat_r; [apply bpow_ge_0|]; change (bpow radix2 60) with 1152921504606846976; lra|].
    rewrite <- bpow_plus. unfold eps. apply bpow_le. lia. }
  set (ends := fun c => all_visits bld (geo g) c S).
  assert (Holds : forall c, holds 2 (8 * n + 4) 0 (at3 (data h) c) (at3 (weight h) c) (share bld (geo g) S c * IZR (ends c)) (IZR (ends c)) (ends c)).
  { intros c. destruct (Hw c) as [W1 W2]. assert (V0 := proj1 (all_visits_pos bld (geo g) c S)). fold (ends c) in V0. assert (V1 : 0 <= IZR (ends c)) by (apply (IZR_le 0); exact V0).
    specialize (Sb c). split; [split; [exact W1|]; split; [exact W2 | exact V0]|]. split.
    { rewrite Rabs_mult, (Rabs_pos_eq (IZR (ends c))), Rabs_pos_eq by lra. rewrite <- (Rmult_1_l (IZR (ends c))) at 2. apply Rmult_le_compat_r; lra. }
    destruct (Hs c) as [F1 [_ F2]]. destruct (Z.eq_dec (ends c) 0) as [Z|Nz].
    - left. split; [exact Z|]. split; [rewrite Z; reflexivity | right; exact F1].
    - right. split; [clear - V0 Nz; lia|]. assert (V2 : 0 < IZR (ends c)) by (apply (IZR_lt 0); clear - V0 Nz; lia). split; [exact F1|].
      fold (share bld (geo g) S c) in F2. set (sh := share bld (geo g) S c) in *. replace (sh * IZR (ends c) / IZR (ends c)) with sh by (field; lra). replace (IZR (ends c) / IZR (ends c)) with 1 by (field; lra).
      change (Rsum (map (time_in bld (geo g) c) S) / T) with sh in F2.
      apply Rle_trans with (1 := F2). rewrite <- eps_over. assert ((8 * n + 3) * eps * sh <= (8 * n + 3) * eps * 1) by (apply Rmult_le_compat_l; [apply Rmult_le_pos; lra | lra]). lra. }
  destruct (collapse_two_holds h 0 1 m 2 (8 * n + 4) 0 (fun c => share bld (geo g) S c * IZR (ends c)) (fun c => IZR (ends c)) ends (or_intror eq_refl) Wh ltac:(clear; lia) ltac:(clear; lia) ltac:(clear; lia)) as [r [z [Er [Ez [Lr Hr]]]]].
  { rewrite Gh. exact Dm. } { clear - Hm. lia. }
  { change (IZR (2 ^ 48)) with 281474976710656. lra. }
  { split; [lra | apply bpow_ge_0]. }
  rewrite El in Er. injection Er as <-. rewrite Gh in Ez, Hr. change (other_axis 0 1) with 2%N in Ez, Hr.
  assert (Zc : z = snd (geom_cells (geo g))) by (destruct (geom_cells (geo g)) as [[x y] w]; cbn in Ez; injection Ez as <-; reflexivity). rewrite Zc in Lr, Ez. clear Zc z.
  set (dl := (8 * n + 6 * NR m + 13) * eps).
  assert (St : Forall2 (stored dl) ls (layers bld (geo g) S)).
  { apply pointwise.
    - unfold layers. unfold vlen in Lr |- *. rewrite map_length, range_length. clear - Lr. lia.
    - intros i x o Hx Ho. assert (Hi := at_lt _ _ _ Hx). rewrite Lr in Hi. apply at_vget in Hx.
      assert (Eo : o = layer bld (geo g) S i).
      { unfold layers, at_ in Ho. rewrite nth_error_map, range_nth_error in Ho by (clear - Hi; lia). cbn in Ho. injection Ho as <-. f_equal. clear; lia. }
      subst o. assert (LV := layer_visits_le bld (geo g) S i). fold (layer_visits bld (geo g) S i) in Hr.
      destruct (Hr i x Hx (fun c _ => Holds c)) as [w [[_ [_ H1]] H2]].
      + change (zsum (map ends (plane_cells (geom_cells (geo g)) 2 i))) with (layer_visits bld (geo g) S i). unfold vlen in Hn. clear - LV Hn. lia.
      + rewrite <- zsum_map_IZR. change (zsum (map ends (plane_cells (geom_cells (geo g)) 2 i))) with (layer_visits bld (geo g) S i).
        apply Rle_trans with (IZR (2 ^ 53)); [apply IZR_le; unfold vlen in Hn; clear - LV Hn; lia | change (IZR (2 ^ 53)) with (bpow radix2 53); apply bpow_le; lia].
      + rewrite <- zsum_map_IZR in H1. change (zsum (map ends (plane_cells (geom_cells (geo g)) 2 i))) with (layer_visits bld (geo g) S i) in *.
        unfold layer. destruct (Z.eqb_spec (layer_visits bld (geo g) S i) 0) as [Z|Nz]; cbn [stored]; [exact (H2 Z)|].
        destruct H1 as [[Z _]|[_ [Fx Ex]]]; [contradiction|]. split; [exact Fx|]. fold (ends) in Ex.
        assert (N0 : 0 < IZR (layer_visits bld (geo g) S i)) by (apply (IZR_lt 0); clear - LV Nz; lia).
        set (N := IZR (layer_visits bld (geo g) S i)) in *. split.
        * apply Rle_trans with (1 := Ex). replace (N / N) with 1 by (field; lra). unfold dl.
          assert ((16 * 0 + 10 * 2 * NR m + 5) * eta <= eps).
          { apply Rle_trans with (bpow radix2 60 * eta); [apply Rmult_le_compat_r; [lra|]; change (bpow radix2 60) with 1152921504606846976; lra|]. unfold eta, eps. rewrite <- bpow_plus. apply bpow_le. lia. }
          lra.
        * split.
          { apply Rmult_le_pos; [|left; apply Rinv_0_lt_compat; exact N0]. apply Rsum_nonneg. intros c _. apply Rmult_le_pos; [apply Sb | apply (IZR_le 0), all_visits_pos]. }
          { apply Rmult_le_reg_r with N; [exact N0|]. unfold Rdiv. rewrite Rmult_assoc, Rinv_l, Rmult_1_r, Rmult_1_l by lra. unfold N, layer_visits. rewrite zsum_map_IZR.
            apply Rsum_le. intros c _. rewrite <- (Rmult_1_l (IZR (all_visits bld (geo g) c S))) at 2. apply Rmult_le_compat_r; [apply (IZR_le 0), all_visits_pos | apply Sb]. } }
  assert (LL : vlen (layers bld (geo g) S) = snd (geom_cells (geo g))) by (unfold layers, vlen; rewrite map_length, range_length; clear; lia).
  assert (Zm : (snd (geom_cells (geo g)) <= m)%N) by (apply (Dm 2%N); exact Ez).
  destruct (index_close ls (layers bld (geo g) S) dl St) as [A [B C]].
  { rewrite LL. clear - Hz Zm Hm. lia. }
  { unfold dl. split; [apply Rmult_le_pos; lra|]. rewrite Ev. lra. }
  split; [exact A|]. split; [exact B|]. apply Rle_trans with (1 := C). rewrite <- eps_over. rewrite <- vlen_INR, LL.
  assert (Kz : NR (snd (geom_cells (geo g))) <= NR m) by (apply IZR_le; clear - Zm; lia). unfold dl.
  assert (NR (snd (geom_cells (geo g))) * eps <= NR m * eps) by (apply Rmult_le_compat_r; lra).
  assert (0 <= n * eps) by (apply Rmult_le_pos; lra). assert (0 <= NR m * eps) by (apply Rmult_le_pos; lra). lra.
Qed.

(** The recording and grid of C154: the hypotheses are met, with two counted stays in grids of two layers. *)
Example c155_case {TF : Trig f64} : exists g d' v, cart_new (2, 2, 2)%N (ThreeD box64) = Val g /\ fresh g /\
  aux_reads (fun _ _ => True) (list_mgr ex_data4 (PropertiesFun.ex_stats 4)) tt ex_data4 /\ Forall rect ex_data4 /\ sel_ok (sel_default (F := f64)) /\
  homogenity_index Debug (list_mgr ex_data4 (PropertiesFun.ex_stats 4)) tt g sel_default (f64_of_Z 0) = Val (d', v) /\
  vlen (counted g sel_default (f64_of_Z 0) ex_data4) = 2%N /\ Rsum (map spent (counted g sel_default (f64_of_Z 0) ex_data4)) = 2 /\
  (forall y, In y (counted g sel_default (f64_of_Z 0) ex_data4) -> is_finite (y_spent y) = true) /\
  (forall a k, v3get (geom_cells (geo g)) a = Val k -> (k <= 2)%N) /\ snd (geom_cells (geo g)) = 2%N.
Proof.
  destruct c154_case as [g [d1 [h [E [Wg [Ok [Aux [Rc [Sk [_ [V [T Fy]]]]]]]]]]]].
  assert (Fr := new_fresh _ _ true g (or_introl E)). destruct (cart_new_geo _ _ _ E) as [cg [G [C1 C2]]].
  assert (Sz : sized (cc_cells cg)) by (rewrite C2; cbn; lia).
  destruct (c42_returns _ Debug (list_mgr ex_data4 (PropertiesFun.ex_stats 4)) tt ex_data4 g cg sel_default (f64_of_Z 0) Aux (fun _ => I) ltac:(vm_compute; discriminate) Rc Sk Wg G Sz) as [d' [v Ev]].
  exists g, d', v. split; [exact E|]. split; [exact Fr|]. split; [exact Aux|]. split; [exact Rc|]. split; [exact Sk|]. split; [exact Ev|]. split; [exact V|]. split; [exact T|].
  split; [intros y Hy; apply (Fy y Hy)|]. assert (Gc : geom_cells (geo g) = (2, 2, 2)%N) by (rewrite G; exact C2). rewrite Gc. split; [|reflexivity].
  intros a k H. clear - H. unfold v3get in H. destruct a as [|[p|[p|p|]|]]; try discriminate H; injection H as <-; lia.
Qed.
