(** * PropertiesFrames: mean velocities and granular temperatures in other frames (C162)

    Ideal arithmetic: order of the samples, units, a moving frame, rest. *)
From Coq Require Import Reals List NArith ZArith Lia Lra Psatz Bool String Permutation ZifyBool ZifyN ZifyNat.
From Verif Require Import Base BaseFacts Num RFacts NDArray GridModel GridSpec GridFacts CartProofs CartR GridOps VecProofs
  SelModel DataModel DataSpec DataProofs DataLoad PropertiesGrid PropertiesData FunModel FunSpec FunProofs FunMgr FunField PropertiesFun FunMom FunTemp
  PropertiesParts PropertiesScale.
Import ListNotations.
Local Open Scope string_scope.
Local Open Scope list_scope.
Local Open Scope R_scope.

Lemma Rmean_perm (l l' : list R) : Permutation l l' -> Rmean l = Rmean l'.
Proof. intros P. unfold Rmean. now rewrite (Rsum_perm l l' P), (Permutation_length P). Qed.
Lemma Rvar_perm (l l' : list R) : Permutation l l' -> Rvar l = Rvar l'.
Proof.
  intros P. unfold Rvar. rewrite (Permutation_length P), (Rmean_perm l l' P). f_equal. apply Rsum_perm, Permutation_map, P.
Qed.
(** A linear change of the numbers. *)
Lemma Rmean_affine k b (l : list R) : l <> [] -> Rmean (map (fun x => k * x + b) l) = k * Rmean l + b.
Proof.
  intros Ne. assert (P := len_pos l Ne). unfold Rmean. rewrite map_length, (Rsum_map_plus (fun x => k * x) (fun _ => b)), Rsum_const, Rsum_map_scal, map_id. field. lra.
Qed.
Lemma Rvar_affine k b (l : list R) : l <> [] -> Rvar (map (fun x => k * x + b) l) = k * k * Rvar l.
Proof.
  intros Ne. unfold Rvar. rewrite map_length, map_map, Rmean_affine by exact Ne.
  rewrite (map_ext _ (fun x => k * k * ((x - Rmean l) * (x - Rmean l)))) by (intros; ring). rewrite Rsum_map_scal. unfold Rdiv. ring.
Qed.
Lemma v3i_times j k v : v3i j (times k v) = k * v3i j v.
Proof. destruct v as [[x y] z]. unfold v3i. now destruct (j =? 0)%N, (j =? 1)%N. Qed.

(** The same recording seen from a frame that moves with velocity [- w]. *)
Definition plus3 (w v : v3 R) : v3 R := let '(a, b, c) := w in let '(x, y, z) := v in (x + a, y + b, z + c).
Definition boosted (w : v3 R) (x : timestep R) : timestep R :=
  mkTs (ts_time x) (ts_pos x) (map (plus3 w) (ts_vel x)) (ts_radius x) (ts_id x) (ts_clouds x) (ts_density x) (ts_type x).
Definition boosted_sm (w : v3 R) (m : sample R) : sample R :=
  mkSample (sm_time m) (sm_pos m) (plus3 w (sm_vel m)) (sm_radius m) (sm_cloud m) (sm_density m) (sm_id m) (sm_type m).
Lemma v3i_plus j w v : v3i j (plus3 w v) = v3i j v + v3i j w.
Proof. destruct v as [[x y] z], w as [[a b] c]. unfold v3i. now destruct (j =? 0)%N, (j =? 1)%N. Qed.
Lemma samples_boosted w (x : timestep R) : samples (boosted w x) = map (boosted_sm w) (samples x).
Proof.
  unfold samples, boosted. cbn [ts_time ts_pos ts_vel ts_radius ts_id ts_clouds ts_density ts_type].
  generalize (ts_time x) as t, (ts_pos x) as ps, (ts_vel x) as vs, (ts_radius x) as rs, (ts_clouds x) as cs, (ts_density x) as ds, (ts_id x) as is, (ts_type x) as ys.
  clear. intros t ps. induction ps as [|p ps IH]; intros; [reflexivity|].
  destruct vs, rs, cs, ds, is, ys; cbn [map rows]; try reflexivity. now rewrite IH.
Qed.
Lemma all_boosted w (L : list (timestep R)) : flat_map samples (map (boosted w) L) = map (boosted_sm w) (flat_map samples L).
Proof. induction L as [|x L IH]; [reflexivity|]. cbn [map flat_map]. now rewrite map_app, samples_boosted, IH. Qed.

Section Frames.
  Context {TF : Trig R}.
  (** Temperatures through the variances of the components. *)
  Lemma mode_var_scaled mode q (l l' : list (sample R)) : (forall j, (j <= 2)%N -> component_var j l' = q * component_var j l) -> mode_var mode l' = q * mode_var mode l.
  Proof.
    intros H. assert (H0 := H 0%N ltac:(clear; lia)). assert (H1 := H 1%N ltac:(clear; lia)). assert (H2 := H 2%N ltac:(clear; lia)).
    unfold mode_var. destruct (String.eqb mode "x"); [exact H0|]. destruct (String.eqb mode "y"); [exact H1|]. destruct (String.eqb mode "z"); [exact H2|].
    rewrite H0, H1, H2. field.
  Qed.
  Lemma nan3_R (p : v3 R) : nan3 p = false.
  Proof. now destruct p as [[a b] c]. Qed.
  Lemma vectors_R bld (g : grid R) s L c : vectors bld g s L c = samples_in bld (geo g) c (observed s L).
  Proof. unfold vectors. rewrite <- (filter_true (samples_in bld (geo g) c (observed s L))) at 2. apply filter_ext. intros m. unfold pos_keep. now rewrite nan3_R. Qed.

  (** ** Order *)
  Lemma samples_in_perm bld (ge : geom R) c s (L L' : list (timestep R)) : Permutation (flat_map samples L) (flat_map samples L') ->
    Permutation (samples_in bld ge c (observed s L)) (samples_in bld ge c (observed s L')).
  Proof. intros P. unfold samples_in, observed. now apply filter_perm, filter_perm. Qed.
  Theorem c162_order_vector bld (M M' : mgr R) d e L L' (g : grid R) s d' e' v v' :
    recorded M d L -> recorded M' e L' -> Permutation (flat_map samples L) (flat_map samples L') ->
    sel_ok s -> fresh g -> vectorfield bld M d g s = Val (d', v) -> vectorfield bld M' e g s = Val (e', v') ->
    forall k c, (k <= 2)%N -> inb3 (geom_cells (geo g)) c = true ->
      let l := samples_in bld (geo g) c (observed s L) in
      at3 (weight (comp k v)) c = at3 (weight (comp k v')) c /\ (l <> [] -> at3 (data (comp k v)) c = at3 (data (comp k v')) c).
  Proof.
    intros Rec Rec' P Sk Fr E E' k c Hk Hc. cbv zeta.
    destruct (c36_vector_mean_ideal bld M d L g s d' v Rec Sk Fr E k c Hk Hc) as [W A].
    destruct (c36_vector_mean_ideal bld M' e L' g s e' v' Rec' Sk Fr E' k c Hk Hc) as [W' A'].
    rewrite vectors_R in W, A, W', A'. assert (Pa := samples_in_perm bld (geo g) c s L L' P).
    rewrite W, W', (Permutation_length Pa). split; [reflexivity|]. intros Ne. rewrite A by exact Ne. rewrite A'.
    - rewrite (Permutation_length Pa). f_equal. apply Rsum_perm, Permutation_map, Pa.
    - intros Z. apply Ne. rewrite Z in Pa. now apply Permutation_nil, Permutation_sym.
  Qed.
  Theorem c162_order_temperature bld (M M' : mgr R) d e L L' (g : grid R) s mode d' e' h h' :
    recorded M d L -> recorded M' e L' -> Permutation (flat_map samples L) (flat_map samples L') ->
    sel_ok s -> fresh g -> In mode temp_modes ->
    granular_temperature_field bld M d g s mode = Val (d', h) -> granular_temperature_field bld M' e g s mode = Val (e', h') ->
    forall c, inb3 (geom_cells (geo g)) c = true ->
      let l := samples_in bld (geo g) c (observed s L) in
      at3 (weight h) c = at3 (weight h') c /\ (l <> [] -> at3 (data h) c = at3 (data h') c).
  Proof.
    intros Rec Rec' P Sk Fr Hm E E' c Hc. cbv zeta.
    destruct (c39_standard_deviation bld M d L g s mode d' h Rec Sk Fr Hm E c Hc) as [W A].
    destruct (c39_standard_deviation bld M' e L' g s mode e' h' Rec' Sk Fr Hm E' c Hc) as [W' A'].
    assert (Pa := samples_in_perm bld (geo g) c s L L' P). rewrite W, W', (Permutation_length Pa). split; [reflexivity|]. intros Ne.
    destruct (A Ne) as [_ ->]. destruct A' as [_ ->].
    - intros Z. apply Ne. rewrite Z in Pa. now apply Permutation_nil, Permutation_sym.
    - f_equal. rewrite <- (Rmult_1_l (mode_var mode (samples_in bld (geo g) c (observed s L')))). apply mode_var_scaled. intros j _. rewrite Rmult_1_l.
      unfold component_var. apply Rvar_perm, Permutation_map, Pa.
  Qed.

  (** ** Units *)
  Section Units.
    Variables (bld : build) (u : units3) (ut : R * R) (k : R).
    Hypothesis (Hu : positive u) (Ht : 0 < fst ut) (Hk : 0 < k).
    Theorem c162_units_vector cells l (g g' : grid R) (M M' : mgr R) d e L s d' e' v v' :
      recorded M d L -> recorded M' e (map (restated u ut k) L) -> sel_ok s -> proper l ->
      cart_new cells (ThreeD l) = Val g -> cart_new cells (ThreeD (move_lims u l)) = Val g' ->
      vectorfield bld M d g s = Val (d', v) -> vectorfield bld M' e g' (restated_sel ut s) = Val (e', v') ->
      forall j c, (j <= 2)%N -> inb3 cells c = true ->
        at3 (weight (comp j v')) c = at3 (weight (comp j v)) c /\
        (samples_in bld (geo g) c (observed s L) <> [] -> at3 (data (comp j v')) c = k * at3 (data (comp j v)) c).
    Proof.
      intros Rec Rec' Sk Pl E E' Ev Ev' j c Hj Hc. destruct (new_geo _ _ _ E) as [xs [ys [zs G]]]. destruct (new_geo _ _ _ E') as [xs' [ys' [zs' G']]].
      assert (Fr := new_fresh cells (ThreeD l) true g (or_introl E)). assert (Fr' := new_fresh cells (ThreeD (move_lims u l)) true g' (or_introl E')).
      assert (Sk' : sel_ok (restated_sel ut s)) by exact Sk.
      destruct (c36_vector_mean_ideal bld M d L g s d' v Rec Sk Fr Ev j c Hj ltac:(now rewrite G)) as [W A].
      destruct (c36_vector_mean_ideal bld M' e _ g' _ e' v' Rec' Sk' Fr' Ev' j c Hj ltac:(now rewrite G')) as [W' A'].
      rewrite vectors_R in W, A, W', A'. rewrite (samples_in_moved bld u ut k Hu Ht cells l g g' s L c Pl E E') in W', A'. rewrite map_length in W', A'.
      split; [now rewrite W, W'|]. intros Ne. rewrite A by exact Ne. rewrite A' by (intros Z; apply Ne; now apply map_eq_nil in Z).
      rewrite map_map, (map_ext _ (fun m => k * v3i j (grid_velocity g m))).
      - rewrite Rsum_map_scal. unfold Rdiv. ring.
      - intros m. unfold grid_velocity, velocity_calculation, vnew. cbn [vg0 vcyl]. rewrite G, G'. cbn [restated_sm sm_vel]. apply v3i_times.
    Qed.
    Theorem c162_units_temperature cells l (g g' : grid R) (M M' : mgr R) d e L s mode d' e' h h' :
      recorded M d L -> recorded M' e (map (restated u ut k) L) -> sel_ok s -> proper l -> In mode temp_modes ->
      cart_new cells (ThreeD l) = Val g -> cart_new cells (ThreeD (move_lims u l)) = Val g' ->
      granular_temperature_field bld M d g s mode = Val (d', h) -> granular_temperature_field bld M' e g' (restated_sel ut s) mode = Val (e', h') ->
      forall c, inb3 cells c = true ->
        at3 (weight h') c = at3 (weight h) c /\
        (samples_in bld (geo g) c (observed s L) <> [] -> at3 (data h') c = k * at3 (data h) c).
    Proof.
      intros Rec Rec' Sk Pl Hm E E' Ev Ev' c Hc. destruct (new_geo _ _ _ E) as [xs [ys [zs G]]]. destruct (new_geo _ _ _ E') as [xs' [ys' [zs' G']]].
      assert (Fr := new_fresh cells (ThreeD l) true g (or_introl E)). assert (Fr' := new_fresh cells (ThreeD (move_lims u l)) true g' (or_introl E')).
      assert (Sk' : sel_ok (restated_sel ut s)) by exact Sk.
      destruct (c39_standard_deviation bld M d L g s mode d' h Rec Sk Fr Hm Ev c ltac:(now rewrite G)) as [W A].
      destruct (c39_standard_deviation bld M' e _ g' _ mode e' h' Rec' Sk' Fr' Hm Ev' c ltac:(now rewrite G')) as [W' A'].
      rewrite (samples_in_moved bld u ut k Hu Ht cells l g g' s L c Pl E E') in W', A'. rewrite map_length in W'.
      split; [now rewrite W, W'|]. intros Ne. destruct (A Ne) as [P ->]. destruct A' as [_ ->]; [intros Z; apply Ne; now apply map_eq_nil in Z|].
      rewrite (mode_var_scaled mode (k * k) (samples_in bld (geo g) c (observed s L))); [now apply sqrt_times|].
      intros j _. unfold component_var. rewrite <- (Rvar_affine k 0) by (intros Z; apply Ne; now apply map_eq_nil in Z). rewrite !map_map.
      f_equal. apply map_ext. intros m. cbn [restated_sm sm_vel]. rewrite v3i_times. ring.
    Qed.
  End Units.

  (** ** A moving frame *)
  Lemma samples_in_boosted bld w (ge : geom R) s (L : list (timestep R)) c :
    samples_in bld ge c (observed s (map (boosted w) L)) = map (boosted_sm w) (samples_in bld ge c (observed s L)).
  Proof. unfold samples_in, observed. now rewrite all_boosted, !filter_map. Qed.
  Theorem c162_moving_frame bld w (M M' : mgr R) d e L (g : grid R) (cg : cart_geom R) s d' e' v v' :
    recorded M d L -> recorded M' e (map (boosted w) L) -> sel_ok s -> fresh g -> geo g = Cart cg ->
    vectorfield bld M d g s = Val (d', v) -> vectorfield bld M' e g s = Val (e', v') ->
    forall j c, (j <= 2)%N -> inb3 (cc_cells cg) c = true ->
      at3 (weight (comp j v')) c = at3 (weight (comp j v)) c /\
      (samples_in bld (geo g) c (observed s L) <> [] -> at3 (data (comp j v')) c = at3 (data (comp j v)) c + v3i j w).
  Proof.
    intros Rec Rec' Sk Fr G Ev Ev' j c Hj Hc.
    destruct (c36_vector_mean_ideal bld M d L g s d' v Rec Sk Fr Ev j c Hj ltac:(now rewrite G)) as [W A].
    destruct (c36_vector_mean_ideal bld M' e _ g s e' v' Rec' Sk Fr Ev' j c Hj ltac:(now rewrite G)) as [W' A'].
    rewrite vectors_R in W, A, W', A'. rewrite samples_in_boosted in W', A'. rewrite map_length in W', A'.
    split; [now rewrite W, W'|]. intros Ne. assert (P := len_pos _ Ne). rewrite A by exact Ne. rewrite A' by (intros Z; apply Ne; now apply map_eq_nil in Z).
    rewrite map_map, (map_ext _ (fun m => v3i j (grid_velocity g m) + v3i j w)).
    - rewrite (Rsum_map_plus (fun m => v3i j (grid_velocity g m)) (fun _ => v3i j w)), Rsum_const. field. lra.
    - intros m. unfold grid_velocity, velocity_calculation, vnew. cbn [vg0 vcyl]. rewrite G. cbn [boosted_sm sm_vel]. apply v3i_plus.
  Qed.
  Theorem c162_temperature_frame bld w (M M' : mgr R) d e L (g : grid R) s mode d' e' h h' :
    recorded M d L -> recorded M' e (map (boosted w) L) -> sel_ok s -> fresh g -> In mode temp_modes ->
    granular_temperature_field bld M d g s mode = Val (d', h) -> granular_temperature_field bld M' e g s mode = Val (e', h') ->
    forall c, inb3 (geom_cells (geo g)) c = true ->
      at3 (weight h') c = at3 (weight h) c /\
      (samples_in bld (geo g) c (observed s L) <> [] -> at3 (data h') c = at3 (data h) c).
  Proof.
    intros Rec Rec' Sk Fr Hm Ev Ev' c Hc.
    destruct (c39_standard_deviation bld M d L g s mode d' h Rec Sk Fr Hm Ev c Hc) as [W A].
    destruct (c39_standard_deviation bld M' e _ g s mode e' h' Rec' Sk Fr Hm Ev' c Hc) as [W' A'].
    rewrite samples_in_boosted in W', A'. rewrite map_length in W'. split; [now rewrite W, W'|]. intros Ne.
    destruct (A Ne) as [_ ->]. destruct A' as [_ ->]; [intros Z; apply Ne; now apply map_eq_nil in Z|]. f_equal.
    rewrite (mode_var_scaled mode 1 (samples_in bld (geo g) c (observed s L))); [ring|].
    intros j _. unfold component_var. rewrite <- (Rmult_1_l 1) at 1. rewrite <- (Rvar_affine 1 (v3i j w)) by (intros Z; apply Ne; now apply map_eq_nil in Z). rewrite !map_map.
    f_equal. apply map_ext. intros m. cbn [boosted_sm sm_vel]. rewrite v3i_plus. ring.
  Qed.

  (** ** Rest: the temperature of a cell is 0 exactly if all its samples have the same velocity. *)
  Lemma Rvar_zero (l : list R) : l <> [] -> Rvar l = 0 -> forall x, In x l -> x = Rmean l.
  Proof.
    intros Ne H x Hx. assert (P := len_pos l Ne). unfold Rvar in H.
    assert (S : Rsum (map (fun y => (y - Rmean l) * (y - Rmean l)) l) = 0).
    { apply Rmult_eq_reg_r with (/ INR (List.length l)); [rewrite Rmult_0_l; exact H | apply Rinv_neq_0_compat; lra]. }
    revert S. generalize (Rmean l) as a. intros a. clear - Hx. assert (Q : forall t : R, 0 <= (t - a) * (t - a)) by (intros t; exact (Rle_0_sqr (t - a))).
    induction l as [|y l IH]; [destruct Hx|]. cbn [map]. rewrite Rsum_cons. intros S.
    assert (N := Rsum_nonneg (fun y => (y - a) * (y - a)) l ltac:(intros; apply Q)). assert (Qy := Q y).
    destruct Hx as [<- | Hx]; [|apply IH; [exact Hx | lra]].
    assert (Z : (y - a) * (y - a) = 0) by lra. apply Rmult_integral in Z. lra.
  Qed.
  Theorem c162_rest bld (M : mgr R) d L (g : grid R) s d' h :
    recorded M d L -> sel_ok s -> fresh g -> granular_temperature_field bld M d g s "xyz" = Val (d', h) ->
    forall c, inb3 (geom_cells (geo g)) c = true ->
      let l := samples_in bld (geo g) c (observed s L) in l <> [] ->
      (at3 (data h) c = 0 <-> forall m m', In m l -> In m' l -> sm_vel m = sm_vel m').
  Proof.
    intros Rec Sk Fr E c Hc l Ne.
    destruct (c39_standard_deviation bld M d L g s "xyz" d' h Rec Sk Fr ltac:(cbn; tauto) E c Hc) as [_ A]. destruct (A Ne) as [P ->]. fold l in P |- *.
    unfold mode_var in *. cbn [String.eqb Ascii.eqb Bool.eqb] in *. clearbody l. clear - Ne P.
    assert (Nl : forall j, map (fun m => v3i j (sm_vel m)) l <> []) by (intros j; destruct l; [contradiction | discriminate]).
    assert (V : forall j, 0 <= component_var j l) by (intros j; apply Rvar_nonneg, Nl).
    split.
    - intros Z m m' Hm Hm'. apply sqrt_eq_0 in Z; [|exact P]. assert (V0 := V 0%N). assert (V1 := V 1%N). assert (V2 := V 2%N).
      assert (Eq : forall j, component_var j l = 0 -> v3i j (sm_vel m) = v3i j (sm_vel m')).
      { intros j H. rewrite (Rvar_zero _ (Nl j) H (v3i j (sm_vel m))) by (now apply (in_map (fun m => v3i j (sm_vel m)))).
        symmetry. apply (Rvar_zero _ (Nl j) H). now apply (in_map (fun m => v3i j (sm_vel m))). }
      assert (E0 := Eq 0%N ltac:(lra)). assert (E1 := Eq 1%N ltac:(lra)). assert (E2 := Eq 2%N ltac:(lra)).
      destruct (sm_vel m) as [[x y] z], (sm_vel m') as [[x' y'] z']. cbn in E0, E1, E2. congruence.
    - intros Same. destruct l as [|m0 l0]; [contradiction|].
      assert (Z : forall j, component_var j (m0 :: l0) = 0).
      { intros j. apply (Rvar_const _ (v3i j (sm_vel m0))); [apply Nl|]. intros x Hx. apply in_map_iff in Hx as [m [<- Hm]]. now rewrite (Same m m0 Hm (or_introl eq_refl)). }
      rewrite !Z. replace ((0 + 0 + 0) / 3) with 0 by field. apply sqrt_0.
  Qed.

  (** ** Parts: the temperature of a mixture of two groups. *)
  Lemma filter_parts {A} (p p1 p2 : A -> bool) (l : list A) :
    (forall m, In m l -> p m = orb (p1 m) (p2 m) /\ andb (p1 m) (p2 m) = false) ->
    Permutation (filter p l) (filter p1 l ++ filter p2 l).
  Proof.
    induction l as [|m l IH]; intros H; [constructor|]. cbn [filter]. destruct (H m (or_introl eq_refl)) as [E D]. rewrite E.
    assert (IH' := IH (fun x Hx => H x (or_intror Hx))). destruct (p1 m), (p2 m); cbn [orb andb] in *; try discriminate.
    - cbn [app]. now constructor.
    - eapply perm_trans; [constructor; exact IH'|]. apply Permutation_middle.
    - exact IH'.
  Qed.
  Lemma var_sum (l : list R) : INR (List.length l) * Rvar l = Rsum (map (fun x => x * x) l) - INR (List.length l) * (Rmean l * Rmean l).
  Proof.
    destruct l as [|x l]; [cbn [map List.length INR]; rewrite Rsum_nil; ring|]. assert (P := len_pos (x :: l) ltac:(discriminate)).
    rewrite Rvar_moments by discriminate. unfold Rmean. field. lra.
  Qed.
  Lemma mean_sum (l : list R) : INR (List.length l) * Rmean l = Rsum l.
  Proof. destruct l as [|x l]; [cbn [List.length INR]; rewrite Rsum_nil; ring|]. assert (P := len_pos (x :: l) ltac:(discriminate)). unfold Rmean. field. lra. Qed.
  Lemma var_merged (l l1 l2 : list R) : Permutation l (l1 ++ l2) -> l <> [] ->
    INR (List.length l) * Rvar l = INR (List.length l1) * Rvar l1 + INR (List.length l2) * Rvar l2 +
      INR (List.length l1) * INR (List.length l2) / INR (List.length l) * ((Rmean l1 - Rmean l2) * (Rmean l1 - Rmean l2)).
  Proof.
    intros Pm Ne. assert (P := len_pos l Ne). rewrite !var_sum.
    assert (E1 : INR (List.length l) = INR (List.length l1) + INR (List.length l2)) by (now rewrite (Permutation_length Pm), app_length, plus_INR).
    assert (E2 : Rsum (map (fun x => x * x) l) = Rsum (map (fun x => x * x) l1) + Rsum (map (fun x => x * x) l2)).
    { rewrite <- Rsum_app, <- map_app. apply Rsum_perm, Permutation_map, Pm. }
    assert (E3 : Rmean l = (INR (List.length l1) * Rmean l1 + INR (List.length l2) * Rmean l2) / INR (List.length l)).
    { rewrite !mean_sum, <- Rsum_app, <- (Rsum_perm _ _ Pm). reflexivity. }
    rewrite E2, E3. rewrite E1 in *. field. lra.
  Qed.
  Theorem c162_mixture bld (M M1 M2 N1 N2 : mgr R) a b b1 e e1 L (g : grid R) (cg : cart_geom R) (s s1 s2 : selector R) a' b' b1' e' e1' h h1 h2 v1 v2 :
    recorded M a L -> recorded M1 b L -> recorded M2 b1 L -> recorded N1 e L -> recorded N2 e1 L ->
    sel_ok s -> sel_ok s1 -> sel_ok s2 -> fresh g -> geo g = Cart cg -> parts s s1 s2 (flat_map samples L) ->
    granular_temperature_field bld M a g s "xyz" = Val (a', h) ->
    granular_temperature_field bld M1 b g s1 "xyz" = Val (b', h1) -> granular_temperature_field bld M2 b1 g s2 "xyz" = Val (b1', h2) ->
    vectorfield bld N1 e g s1 = Val (e', v1) -> vectorfield bld N2 e1 g s2 = Val (e1', v2) ->
    forall c, inb3 (cc_cells cg) c = true -> samples_in bld (geo g) c (observed s L) <> [] ->
      let w := at3 (weight h) c in let w1 := at3 (weight h1) c in let w2 := at3 (weight h2) c in
      let T := at3 (data h) c in let T1 := at3 (data h1) c in let T2 := at3 (data h2) c in
      let gap j := at3 (data (comp j v1)) c - at3 (data (comp j v2)) c in
      w = w1 + w2 /\ 0 < w /\
      w * (T * T) = w1 * (T1 * T1) + w2 * (T2 * T2) +
        w1 * w2 / w * ((gap 0%N * gap 0%N + gap 1%N * gap 1%N + gap 2%N * gap 2%N) / 3).
  Proof.
    intros R0 R1 R2 R3 R4 Sk Sk1 Sk2 Fr G Pa E E1 E2 Ev1 Ev2 c Hc Ne. assert (Hc' : inb3 (geom_cells (geo g)) c = true) by now rewrite G.
    destruct (c39_standard_deviation bld M a L g s "xyz" a' h R0 Sk Fr ltac:(cbn; tauto) E c Hc') as [W A].
    destruct (c39_standard_deviation bld M1 b L g s1 "xyz" b' h1 R1 Sk1 Fr ltac:(cbn; tauto) E1 c Hc') as [W1 A1].
    destruct (c39_standard_deviation bld M2 b1 L g s2 "xyz" b1' h2 R2 Sk2 Fr ltac:(cbn; tauto) E2 c Hc') as [W2 A2].
    assert (V1 := fun j Hj => c36_vector_mean_ideal bld N1 e L g s1 e' v1 R3 Sk1 Fr Ev1 j c Hj Hc').
    assert (V2 := fun j Hj => c36_vector_mean_ideal bld N2 e1 L g s2 e1' v2 R4 Sk2 Fr Ev2 j c Hj Hc').
    cbv zeta in *. rewrite vectors_R in V1, V2. destruct (A Ne) as [P EA]. clear A.
    assert (Pm : Permutation (samples_in bld (geo g) c (observed s L)) (samples_in bld (geo g) c (observed s1 L) ++ samples_in bld (geo g) c (observed s2 L))).
    { unfold samples_in, observed. rewrite <- filter_app. apply filter_perm. now apply filter_parts. }
    set (l := samples_in bld (geo g) c (observed s L)) in *. set (l1 := samples_in bld (geo g) c (observed s1 L)) in *. set (l2 := samples_in bld (geo g) c (observed s2 L)) in *.
    clearbody l l1 l2. assert (Pl := len_pos l Ne).
    assert (Ew : INR (List.length l) = INR (List.length l1) + INR (List.length l2)) by (now rewrite (Permutation_length Pm), app_length, plus_INR).
    assert (T0 : at3 (data h) c * at3 (data h) c = mode_var "xyz" l) by (rewrite EA; now apply sqrt_sqrt).
    assert (Part : forall (k : list (sample R)) (x : R), (k <> [] -> 0 <= mode_var "xyz" k /\ x = sqrt (mode_var "xyz" k)) ->
      INR (List.length k) * (x * x) = INR (List.length k) * mode_var "xyz" k).
    { intros k x H. destruct k as [|m k]; [cbn [List.length INR]; ring|]. destruct (H ltac:(discriminate)) as [Q ->]. now rewrite sqrt_sqrt. }
    rewrite W, W1, W2. split; [exact Ew|]. split; [exact Pl|]. rewrite T0, (Part l1 _ A1), (Part l2 _ A2).
    assert (Gap : forall j, (j <= 2)%N -> INR (List.length l1) * INR (List.length l2) / INR (List.length l) *
        ((at3 (data (comp j v1)) c - at3 (data (comp j v2)) c) * (at3 (data (comp j v1)) c - at3 (data (comp j v2)) c)) =
        INR (List.length l) * component_var j l - INR (List.length l1) * component_var j l1 - INR (List.length l2) * component_var j l2).
    { intros j Hj. unfold component_var.
      assert (Q := var_merged (map (fun m => v3i j (sm_vel m)) l) (map (fun m => v3i j (sm_vel m)) l1) (map (fun m => v3i j (sm_vel m)) l2)).
      rewrite <- map_app in Q. specialize (Q (Permutation_map _ Pm) ltac:(destruct l; [contradiction | discriminate])). rewrite !map_length in Q. rewrite Q.
      destruct l1 as [|m1 l1']; [cbn [List.length INR]; unfold Rdiv; ring|]. destruct l2 as [|m2 l2']; [cbn [List.length INR]; unfold Rdiv; ring|].
      destruct (V1 j Hj) as [_ D1]. destruct (V2 j Hj) as [_ D2]. rewrite (D1 ltac:(discriminate)), (D2 ltac:(discriminate)). unfold Rmean. rewrite !map_length.
      assert (Gv : forall k, map (fun m => v3i j (grid_velocity g m)) k = map (fun m => v3i j (sm_vel m)) k).
      { intros k. apply map_ext. intros m. f_equal. unfold grid_velocity, velocity_calculation, vnew. cbn [vg0 vcyl]. now rewrite G. }
      rewrite !Gv. ring. }
    assert (G0 := Gap 0%N ltac:(clear; lia)). assert (G1 := Gap 1%N ltac:(clear; lia)). assert (G2 := Gap 2%N ltac:(clear; lia)).
    unfold mode_var. cbn [String.eqb Ascii.eqb Bool.eqb].
    set (w := INR (List.length l)) in *. set (w1 := INR (List.length l1)) in *. set (w2 := INR (List.length l2)) in *. lra.
  Qed.
End Frames.

(** A concrete case: two particles at (1, 1, 1) with the velocities 3 e_x and 4 e_y, seen from a frame moving with - e_x; particle 1
    and particle 2 are two parts. *)
Definition frame_data : list (timestep R) :=
  [mkTs 0 [(1, 1, 1); (1, 1, 1)] [(3, 0, 0); (0, 4, 0)] [1; 1] [1; 2] [0; 1] [0; 0] [1; 2]].
Example c162_case {TF : Trig R} :
  (forall st, st_timesteps st = 1%N -> recorded (list_mgr frame_data st) tt frame_data /\
     recorded (list_mgr (map (boosted (1, 0, 0)) frame_data) st) tt (map (boosted (1, 0, 0)) frame_data)) /\
  map ts_vel (map (boosted (1, 0, 0)) frame_data) = [[(3 + 1, 0 + 0, 0 + 0); (0 + 1, 4 + 0, 0 + 0)]] /\
  parts (with_ids (sel_default (F := R)) [1%N; 2%N]) (with_ids sel_default [1%N; 1%N]) (with_ids sel_default [2%N; 2%N]) (flat_map samples frame_data) /\
  Rvar [3; 0] = 9 / 4 /\ Rvar [3 + 1; 0 + 1] = 9 / 4.
Proof.
  split; [intros st E; split; (apply list_recorded; [discriminate | repeat constructor | now rewrite E])|].
  split; [reflexivity|]. split; [exact (parts_id_ranges (F := R) sel_default 1 1 2 _ ltac:(lia) ltac:(lia) ltac:(lia))|].
  split; unfold Rvar, Rmean; cbn [map List.length INR]; rewrite !Rsum_cons, !Rsum_nil; field.
Qed.
