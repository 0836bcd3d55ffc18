(** * PropertiesCylUnits: cylindrical grids, units, origins and turns (C165-C167)

    Ideal arithmetic with the exact angle of a point.  Units: one factor for the two directions across the
    axis, another one along it, any new origin. *)
From Coq Require Import Reals List NArith ZArith Lia Lra Psatz Bool String ZifyBool ZifyN ZifyNat.
From Verif Require Import Base BaseFacts Num RFacts NDArray GridModel GridSpec GridFacts CartProofs CartR CylProofs PolarR GridOps
  SelModel DataModel DataSpec DataProofs DataLoad PropertiesGrid PropertiesCyl VecProofs PropertiesData FunModel FunSpec FunProofs FunMgr FunField PropertiesFun PropertiesParts PropertiesScale.
Import ListNotations.
Local Open Scope list_scope.
Local Open Scope R_scope.
Local Existing Instance trig_R.

(** ** The angle does not see a common factor *)
Lemma angle_factor a y x : 0 < a -> Ratan2 (a * y) (a * x) = Ratan2 y x.
Proof.
  intros Ha. unfold Ratan2.
  assert (P : forall t, 0 < a * t <-> 0 < t) by (intros t; split; nra).
  assert (N : forall t, a * t < 0 <-> t < 0) by (intros t; split; nra).
  assert (Q : forall x, x <> 0 -> a * y / (a * x) = y / x) by (intros; field; lra).
  destruct (Rlt_dec 0 (a * x)) as [A|A], (Rlt_dec 0 x) as [B|B]; try (apply (proj1 (P _)) in A; contradiction); try (apply (proj2 (P _)) in B; contradiction);
    [rewrite Q by lra; reflexivity|].
  destruct (Rlt_dec (a * x) 0) as [A'|A'], (Rlt_dec x 0) as [B'|B']; try (apply (proj1 (N _)) in A'; contradiction); try (apply (proj2 (N _)) in B'; contradiction).
  - rewrite Q by lra. destruct (Rle_dec 0 (a * y)) as [C|C], (Rle_dec 0 y) as [D|D]; try reflexivity; exfalso; [apply D | apply C]; nra.
  - destruct (Rlt_dec 0 (a * y)) as [C|C], (Rlt_dec 0 y) as [D|D]; try (apply (proj1 (P _)) in C; contradiction); try (apply (proj2 (P _)) in D; contradiction); [reflexivity|].
    destruct (Rlt_dec (a * y) 0) as [C'|C'], (Rlt_dec y 0) as [D'|D']; try (apply (proj1 (N _)) in C'; contradiction); try (apply (proj2 (N _)) in D'; contradiction); reflexivity.
Qed.
Lemma sqrt_factor a t : 0 < a -> sqrt (a * a * t) = a * sqrt t.
Proof. intros H. rewrite sqrt_mult_alt by nra. now rewrite sqrt_square by lra. Qed.
Lemma le_factor a x y : 0 < a -> nleb (a * x) (a * y) = nleb x y.
Proof. intros H. destruct (nleb x y) eqn:E; [apply Rleb_true in E; apply Rleb_true | apply Rleb_false in E; apply Rleb_false]; nra. Qed.
Lemma lt_factor a x y : 0 < a -> nltb (a * x) (a * y) = nltb x y.
Proof. intros H. destruct (nltb x y) eqn:E; [apply Rltb_true in E; apply Rltb_true | apply Rltb_false in E; apply Rltb_false]; nra. Qed.
Lemma argmin_from_factor a (l : list R) : 0 < a -> forall k best cur, argmin_from (map (Rmult a) l) k best (a * cur) = argmin_from l k best cur.
Proof.
  intros H. induction l as [|x l IH]; intros; [reflexivity|]. cbn [map argmin_from nisnan num_R orb]. rewrite lt_factor by exact H.
  destruct (nltb x cur); apply IH.
Qed.
Lemma argmin_factor a (l : list R) : 0 < a -> argmin (map (Rmult a) l) = argmin l.
Proof. intros H. destruct l as [|x l]; [reflexivity|]. exact (argmin_from_factor a (x :: l) H 0%N 0%N x). Qed.

(** ** The changed grid *)
(** The two directions across the axis have the same unit. *)
Definition round_units (u : units3) : Prop := let '(u0, u1, _) := u in fst u1 = fst u0.
Definition factor (u : units3) : R := let '(u0, _, _) := u in fst u0.
Definition along (u : units3) : R * R := snd u.

(** The geometry in the new units. *)
Record changed_geometry (u : units3) (y y' : cyl_geom R) : Prop := {
  cg_cells : yc_cells y' = yc_cells y;
  cg_rings : yc_r y' = map (fun q => (factor u * fst q, factor u * snd q)) (yc_r y);
  cg_rmean : yc_rmean y' = map (Rmult (factor u)) (yc_rmean y);
  cg_angles : yc_o y' = yc_o y;
  cg_heights : yc_z y' = map (ax (along u)) (yc_z y);
  cg_centre : yc_center y' = move u (yc_center y);
  cg_radius : yc_radius y' = factor u * yc_radius y;
  cg_lim : yc_lim y' = let '((l0, l1), l2, l3) := yc_lim y in ((factor u * l0, factor u * l1), l2, (ax (along u) (fst l3), ax (along u) (snd l3))) }.

Lemma half_moved u lo hi : 0 < fst u -> half_extent (ax u lo) (ax u hi) ((ax u lo + ax u hi) / 2) = fst u * half_extent lo hi ((lo + hi) / 2).
Proof.
  intros H. unfold half_extent. change nabs with Rabs. cbn [nsub num_R].
  replace (ax u lo - (ax u lo + ax u hi) / 2) with (fst u * (lo - (lo + hi) / 2)) by (unfold ax; field).
  replace (ax u hi - (ax u lo + ax u hi) / 2) with (fst u * (hi - (lo + hi) / 2)) by (unfold ax; field).
  rewrite !Rabs_mult, !(Rabs_pos_eq (fst u)) by lra. rewrite lt_factor by exact H. now destruct (nltb _ _).
Qed.
Lemma rings_moved a n : 0 < a -> forall vol inner, cyl_rings n (a * a * vol) (a * inner) = map (fun q => (a * fst q, a * snd q)) (cyl_rings n vol inner).
Proof.
  intros H. induction n as [|n IH]; intros; [reflexivity|]. cbn [cyl_rings map fst snd nsqrt nadd nmul num_R].
  replace (a * a * vol + a * inner * (a * inner)) with (a * a * (vol + inner * inner)) by ring. rewrite sqrt_factor by exact H. now rewrite IH.
Qed.

Theorem c165_grid cells (l : lims R) (u : units3) (g g' : grid R) : positive u -> round_units u ->
  cyl_new cells (ThreeD l) true = Val g -> cyl_new cells (ThreeD (move_lims u l)) true = Val g' ->
  exists y y', geo g = Cyl y /\ geo g' = Cyl y' /\ changed_geometry u y y'.
Proof.
  destruct l as [[[x0 x1] [y0 y1]] [z0 z1]], u as [[u0 u1] u2]. intros [H0 [H1 H2]] Ru E E'. cbn [round_units] in Ru. cbn [move_lims fst snd] in E'.
  destruct (cyl_new_val _ _ _ _ _ _ _ _ E) as [y [G [Cc [Ra [Rr [Rm [Eo [Ez [Ce [El _]]]]]]]]]].
  destruct (cyl_new_val _ _ _ _ _ _ _ _ E') as [y' [G' [Cc' [Ra' [Rr' [Rm' [Eo' [Ez' [Ce' [El' _]]]]]]]]]].
  exists y, y'. split; [exact G|]. split; [exact G'|].
  rewrite !half_moved in Ra' by assumption. rewrite Ru, RmaxRmult in Ra' by lra. rewrite <- Ra in Ra'.
  assert (Rg : yc_r y' = map (fun q => (fst u0 * fst q, fst u0 * snd q)) (yc_r y)).
  { rewrite Rr', Rr, Ra', <- rings_moved by exact H0. replace (fst u0 * 0) with 0 by ring.
    replace (fst u0 * fst u0 * (yc_radius y * yc_radius y / NR (fst (fst cells)))) with (fst u0 * yc_radius y * (fst u0 * yc_radius y) / NR (fst (fst cells))) by (unfold Rdiv; ring).
    reflexivity. }
  split; cbn [factor along snd].
  - now rewrite Cc', Cc.
  - exact Rg.
  - rewrite Rm', Rm, Rg, !map_map. apply map_ext. intros q. cbn [fst snd]. unfold Rdiv. ring.
  - now rewrite Eo', Eo.
  - rewrite Ez', Ez. unfold cyl_zedges. rewrite map_map. apply map_ext. intros k. cbn [ndiv nadd nsub nmul num_R]. unfold ax, Rdiv. ring.
  - rewrite Ce', Ce. cbn [move]. unfold ax. f_equal; [f_equal|]; field.
  - exact Ra'.
  - rewrite El', El, Ra'. cbn [fst snd]. now rewrite Rmult_0_r.
Qed.

Section Lookup.
  Variables (u : units3) (y y' : cyl_geom R).
  Hypothesis (Hu : positive u) (Ru : round_units u) (C : changed_geometry u y y').
  Lemma cylindrical_moved p : to_cylindrical y' (move u p) = let '(r, o, z) := to_cylindrical y p in (factor u * r, o, ax (along u) z).
  Proof.
    unfold to_cylindrical. rewrite (cg_centre _ _ _ C). destruct u as [[u0 u1] u2], p as [[p0 p1] p2], (yc_center y) as [[c0 c1] c2].
    destruct Hu as [H0 [H1 H2]]. cbn [move factor along snd nsub nadd nmul num_R nsqrt natan2 trig_R round_units] in *. unfold ax at 1 2 3 4 5 6 7 8 9 10 11 12. rewrite Ru.
    replace (fst u0 * p0 + snd u0 - (fst u0 * c0 + snd u0)) with (fst u0 * (p0 - c0)) by ring.
    replace (fst u0 * p1 + snd u1 - (fst u0 * c1 + snd u1)) with (fst u0 * (p1 - c1)) by ring.
    rewrite angle_factor by exact H0. f_equal. f_equal.
    rewrite <- sqrt_factor by exact H0. f_equal. ring.
  Qed.
  Lemma factor_pos : 0 < factor u /\ 0 < fst (along u).
  Proof. destruct u as [[u0 u1] u2], Hu as [H0 [H1 H2]]. now split. Qed.
  Lemma ring_moved : forall (l : list (R * R)) k r acc,
    ring_of (map (fun q => (factor u * fst q, factor u * snd q)) l) k (factor u * r) acc = ring_of l k r acc.
  Proof.
    destruct factor_pos as [H _]. induction l as [|q l IH]; intros; [reflexivity|]. cbn [map ring_of fst snd]. rewrite !le_factor by exact H. apply IH.
  Qed.
  Theorem c165_inside p : cyl_inside y' (move u p) = cyl_inside y p.
  Proof.
    destruct factor_pos as [H H']. unfold cyl_inside. rewrite cylindrical_moved, (cg_lim _ _ _ C), (cg_radius _ _ _ C).
    destruct (to_cylindrical y p) as [[r o] z], (yc_lim y) as [[[l0 l1] l2] l3]. unfold in_interval. cbn [fst snd].
    now rewrite le_factor, !ax_le by assumption.
  Qed.
  Theorem c165_cell p : cyl_cell_id y' (move u p) = cyl_cell_id y p.
  Proof.
    destruct factor_pos as [H H']. unfold cyl_cell_id. rewrite cylindrical_moved, (cg_rings _ _ _ C), (cg_angles _ _ _ C), (cg_heights _ _ _ C).
    destruct (to_cylindrical y p) as [[r o] z]. rewrite ring_moved.
    replace (map (fun e => nabs (e - ax (along u) z)) (map (ax (along u)) (yc_z y))) with (map (Rmult (fst (along u))) (map (fun e => nabs (e - z)) (yc_z y))).
    - now rewrite argmin_factor.
    - rewrite !map_map. apply map_ext. intros e. cbn [nabs num_R]. unfold ax.
      replace (fst (along u) * e + snd (along u) - (fst (along u) * z + snd (along u))) with (fst (along u) * (e - z)) by ring.
      now rewrite Rabs_mult, (Rabs_pos_eq (fst (along u))) by lra.
  Qed.
End Lookup.

(** ** Fields *)
Section Fields.
  Variables (bld : build) (u : units3) (ut : R * R) (k : R).
  Hypothesis (Hu : positive u) (Ru : round_units u) (Ht : 0 < fst ut) (Hk : 0 < k).
  Variables (cells : id3) (l : lims R) (g g' : grid R).
  Hypothesis (E : cyl_new cells (ThreeD l) true = Val g) (E' : cyl_new cells (ThreeD (move_lims u l)) true = Val g').
  Hypothesis (Pl : proper l) (Hc : (1 <= fst (fst cells))%N /\ (1 <= snd (fst cells))%N /\ (1 <= snd cells)%N).

  Lemma cyl_in_cell c p : in_cell bld (geo g') c (move u p) = in_cell bld (geo g) c p.
  Proof.
    destruct (c165_grid cells l u g g' Hu Ru E E') as [y [y' [G [G' C]]]]. rewrite G, G'. unfold in_cell. cbn [geom_inside geom_cell_id].
    now rewrite (c165_inside u y y' Hu Ru C), (c165_cell u y y' Hu Ru C).
  Qed.
  Lemma cyl_samples_moved s (L : list (timestep R)) c :
    samples_in bld (geo g') c (observed (restated_sel ut s) (map (restated u ut k) L)) = map (restated_sm u ut k) (samples_in bld (geo g) c (observed s L)).
  Proof.
    unfold samples_in, observed. rewrite all_restated, filter_map. rewrite filter_map. f_equal.
    rewrite (filter_ext _ (fun m => in_cell bld (geo g) c (sm_pos m))).
    - f_equal. apply filter_ext. intros m. apply chosen_restated. exact Ht.
    - intros m. cbn [restated_sm sm_pos]. apply cyl_in_cell.
  Qed.
  Lemma both_ok : inside_ok bld (geo g) /\ inside_ok bld (geo g') /\ geom_cells (geo g) = cells /\ geom_cells (geo g') = cells.
  Proof.
    clear Ru. assert (Pl' := proper_moved u Hu l Pl). destruct l as [[[x0 x1] [y0 y1]] [z0 z1]], u as [[u0 u1] u2], cells as [[nr no] nz].
    cbn [fst snd move_lims] in *. destruct Pl as [X [Y Z]], Pl' as [X' [Y' Z']], Hc as [C0 [C1 C2]]. assert (P := PI_RGT_0).
    split; [exact (cyl_inside_ok_R bld nr no nz x0 x1 y0 y1 z0 z1 g P C0 C1 C2 X Y Z E)|].
    split; [exact (cyl_inside_ok_R bld nr no nz _ _ _ _ _ _ g' P C0 C1 C2 X' Y' Z' E')|].
    destruct (cyl_new_val _ _ _ _ _ _ _ _ E) as [y [G [Cc _]]]. destruct (cyl_new_val _ _ _ _ _ _ _ _ E') as [y' [G' [Cc' _]]].
    rewrite G, G'. now split.
  Qed.

  Theorem c165_number (M M' : mgr R) d e L s : recorded M d L -> recorded M' e (map (restated u ut k) L) -> sel_ok s ->
    exists d' h e' h', numberfield bld M d g s = Val (d', h) /\ numberfield bld M' e g' (restated_sel ut s) = Val (e', h') /\
    forall c, inb3 cells c = true -> at3 (data h') c = at3 (data h) c.
  Proof.
    intros Rec Rec' Sk. destruct both_ok as [Ok [Ok' [Gc Gc']]].
    assert (W := cyl_new_wf _ _ _ _ E). assert (W' := cyl_new_wf _ _ _ _ E').
    assert (Sk' : sel_ok (restated_sel ut s)) by exact Sk.
    destruct (number_total bld M d L g s Rec Sk W Ok) as [d' [h Eh]]. destruct (number_total bld M' e _ g' _ Rec' Sk' W' Ok') as [e' [h' Eh']].
    exists d', h, e', h'. split; [exact Eh|]. split; [exact Eh'|]. intros c Hin.
    destruct (number_cells bld M d L g s d' h Rec Sk W Eh) as [_ [_ [_ H]]].
    destruct (number_cells bld M' e _ g' _ e' h' Rec' Sk' W' Eh') as [_ [_ [_ H']]].
    destruct (H c ltac:(now rewrite Gc)) as [-> _]. destruct (H' c ltac:(now rewrite Gc')) as [-> _].
    rewrite cyl_samples_moved, !count_R. unfold vlen. now rewrite map_length.
  Qed.

  Lemma cyl_averaged s mode calc vmin vmax (L : list (timestep R)) c : velocity_mode mode = Val calc ->
    averaged bld g' (restated_sel ut s) calc (k * vmin) (k * vmax) (map (restated u ut k) L) c = map (restated_sm u ut k) (averaged bld g s calc vmin vmax L c).
  Proof.
    intros Em. unfold averaged. rewrite cyl_samples_moved, filter_map. f_equal. apply filter_ext.
    intros m. unfold vel_keep. cbn [restated_sm sm_pos sm_vel]. rewrite (mode_times k Hk mode calc _ Em). cbn [nisnan num_R].
    assert (N3 : forall p : v3 R, nan3 p = false) by (intros [[a b] c0]; reflexivity). rewrite !N3. cbn [negb andb]. f_equal.
    now rewrite !lt_factor by exact Hk.
  Qed.
  Theorem c165_velocity (M M' : mgr R) d e L s mode calc vmin vmax :
    recorded M d L -> recorded M' e (map (restated u ut k) L) -> sel_ok s -> velocity_mode mode = Val calc ->
    exists d' h e' h', velocityfield bld M d g s mode vmin vmax = Val (d', h) /\
      velocityfield bld M' e g' (restated_sel ut s) mode (k * vmin) (k * vmax) = Val (e', h') /\
    forall c, inb3 cells c = true -> at3 (data h') c = k * at3 (data h) c /\ at3 (weight h') c = at3 (weight h) c.
  Proof.
    intros Rec Rec' Sk Em. destruct both_ok as [Ok [Ok' [Gc Gc']]].
    assert (Fr := new_fresh cells (ThreeD l) true g (or_intror E)). assert (Fr' := new_fresh cells (ThreeD (move_lims u l)) true g' (or_intror E')).
    assert (W := proj1 Fr). assert (W' := proj1 Fr'). assert (Sk' : sel_ok (restated_sel ut s)) by exact Sk.
    destruct (velocity_total bld M d L g s mode calc vmin vmax Rec Sk W Ok Em) as [d' [h Eh]].
    destruct (velocity_total bld M' e _ g' _ mode calc (k * vmin) (k * vmax) Rec' Sk' W' Ok' Em) as [e' [h' Eh']].
    exists d', h, e', h'. split; [exact Eh|]. split; [exact Eh'|]. intros c Hin.
    destruct (velocity_cells bld M d L g s mode calc vmin vmax d' h Rec Sk W Em Eh) as [_ [_ [_ H]]].
    destruct (velocity_cells bld M' e _ g' _ mode calc _ _ e' h' Rec' Sk' W' Em Eh') as [_ [_ [_ H']]].
    destruct (H c ltac:(now rewrite Gc)) as [B A]. destruct (H' c ltac:(now rewrite Gc')) as [B' A'].
    rewrite (cyl_averaged s mode calc vmin vmax L c Em) in A', B'.
    rewrite (proj2 (proj2 Fr c)) in B. rewrite (proj2 (proj2 Fr' c)) in B'.
    assert (Wt : at3 (weight h') c = at3 (weight h) c) by (rewrite B, B', !count_R; unfold vlen; now rewrite map_length).
    split; [|exact Wt]. rewrite A', A, Wt. change (@nadd R num_R) with Rplus. rewrite !fold_left_Rplus, map_map.
    rewrite (map_ext _ (fun m => k * calc (sm_vel m))) by (intros m; exact (mode_times k Hk mode calc (sm_vel m) Em)).
    replace (Rsum (map (fun m : sample R => k * calc (sm_vel m)) (averaged bld g s calc vmin vmax L c))) with (k * Rsum (map (fun m : sample R => calc (sm_vel m)) (averaged bld g s calc vmin vmax L c)))
      by (symmetry; apply Rsum_map_scal). change (@n0 R num_R) with 0. cbn [ndiv num_R]. unfold Rdiv. ring.
  Qed.

  (** Same origin across the axis: the radial and vertical velocities are multiplied by [k], the angular one by
      [k] over the factor of the lengths. *)
  Definition component_factor (j : N) : R := if (j =? 1)%N then k / factor u else k.
  Lemma cyl_velocity m j : (j <= 2)%N -> snd (fst (fst u)) = 0 -> snd (snd (fst u)) = 0 ->
    v3i j (grid_velocity g' (restated_sm u ut k m)) = component_factor j * v3i j (grid_velocity g m).
  Proof.
    intros Hj O0 O1. destruct (c165_grid cells l u g g' Hu Ru E E') as [y [y' [G [G' C]]]].
    assert (T := cylindrical_moved u y y' Hu Ru C (sm_pos m)).
    unfold grid_velocity, velocity_calculation, vnew. cbn [vg0 vcyl]. rewrite G, G'. cbn [is_cylindrical]. cbn [restated_sm sm_pos sm_vel].
    rewrite T. unfold component_factor. destruct u as [[[a b0] [a1 b1]] u2], (sm_pos m) as [[p0 p1] p2], (sm_vel m) as [[w0 w1] w2], (to_cylindrical y (p0, p1, p2)) as [[r o] z].
    destruct Hu as [H0 [H1 H2]]. cbn [fst snd round_units factor along move times] in *. subst b0 b1 a1. unfold ax. cbn [fst snd ndiv nadd nmul nsub num_R].
    assert (J : (j = 0 \/ j = 1 \/ j = 2)%N) by lia. destruct J as [-> |[-> | ->]]; unfold v3i; cbn [N.eqb Pos.eqb fst snd]; [| |reflexivity].
    - replace (a * r) with (r * a) by ring. unfold Rdiv. rewrite (Rinv_mult r a).
      transitivity (k * ((p0 * w0 + p1 * w1) * / r) * (a * / a)); [ring|]. rewrite Rinv_r by lra. ring.
    - replace ((a * p0 + 0) * (a * p0 + 0) + (a * p1 + 0) * (a * p1 + 0)) with (a * a * (p0 * p0 + p1 * p1)) by ring. unfold Rdiv. rewrite (Rinv_mult (a * a)), (Rinv_mult a a).
      transitivity (k * / a * ((p0 * w1 - p1 * w0) * / (p0 * p0 + p1 * p1)) * (a * / a)); [ring|]. rewrite Rinv_r by lra. ring.
  Qed.
  Theorem c165_vector (M M' : mgr R) d e L s d' e' v v' : snd (fst (fst u)) = 0 -> snd (snd (fst u)) = 0 ->
    recorded M d L -> recorded M' e (map (restated u ut k) L) -> sel_ok s ->
    vectorfield bld M d g s = Val (d', v) -> vectorfield bld M' e g' (restated_sel ut s) = Val (e', v') ->
    forall j c, (j <= 2)%N -> inb3 cells c = true ->
      at3 (data (comp j v')) c = component_factor j * at3 (data (comp j v)) c /\ at3 (weight (comp j v')) c = at3 (weight (comp j v)) c.
  Proof.
    intros O0 O1 Rec Rec' Sk V V' j c Hj Hin. destruct both_ok as [_ [_ [Gc Gc']]].
    assert (Fr := new_fresh cells (ThreeD l) true g (or_intror E)). assert (Fr' := new_fresh cells (ThreeD (move_lims u l)) true g' (or_intror E')).
    assert (W := proj1 Fr). assert (W' := proj1 Fr'). assert (Sk' : sel_ok (restated_sel ut s)) by exact Sk.
    destruct (vector_cells bld M d L g s d' v Rec Sk W V) as [_ H]. destruct (vector_cells bld M' e _ g' _ e' v' Rec' Sk' W' V') as [_ H'].
    destruct (H j Hj) as [_ [_ Q]]. destruct (H' j Hj) as [_ [_ Q']].
    destruct (Q c ltac:(now rewrite Gc)) as [B A]. destruct (Q' c ltac:(now rewrite Gc')) as [B' A'].
    assert (Vs : vectors bld g' (restated_sel ut s) (map (restated u ut k) L) c = map (restated_sm u ut k) (vectors bld g s L c)).
    { unfold vectors. rewrite cyl_samples_moved, filter_map. f_equal. apply filter_ext. intros m. unfold pos_keep. cbn [restated_sm sm_pos].
      assert (N3 : forall p : v3 R, nan3 p = false) by (intros [[x y] z]; reflexivity). now rewrite !N3. }
    rewrite Vs in B', A'. rewrite (proj2 (proj2 Fr c)) in B. rewrite (proj2 (proj2 Fr' c)) in B'. rewrite (proj1 (proj2 Fr c)) in A. rewrite (proj1 (proj2 Fr' c)) in A'.
    assert (Wt : at3 (weight (comp j v')) c = at3 (weight (comp j v)) c) by (rewrite B, B', !count_R; unfold vlen; now rewrite map_length).
    split; [|exact Wt]. rewrite A', A, Wt. change (@nadd R num_R) with Rplus. rewrite !fold_left_Rplus, map_map.
    rewrite (map_ext _ (fun m => component_factor j * v3i j (grid_velocity g m))) by (intros m; exact (cyl_velocity m j Hj O0 O1)).
    replace (Rsum (map (fun m : sample R => component_factor j * v3i j (grid_velocity g m)) (vectors bld g s L c)))
      with (component_factor j * Rsum (map (fun m : sample R => v3i j (grid_velocity g m)) (vectors bld g s L c))) by (symmetry; apply Rsum_map_scal).
    change (@n0 R num_R) with 0. cbn [ndiv num_R]. unfold Rdiv. ring.
  Qed.
End Fields.

(** ** Turning everything about the axis (C166) *)
(** The point turned by the angle [t] about the vertical line through [c]. *)
Definition turn (c : R * R) (t : R) (p : v3 R) : v3 R := let '(p0, p1, p2) := p in
  (fst c + cos t * (p0 - fst c) - sin t * (p1 - snd c), snd c + sin t * (p0 - fst c) + cos t * (p1 - snd c), p2).
Definition turned (c : R * R) (t : R) (x : timestep R) : timestep R :=
  mkTs (ts_time x) (map (turn c t) (ts_pos x)) (map (turn (0, 0) t) (ts_vel x))
    (ts_radius x) (ts_id x) (ts_clouds x) (ts_density x) (ts_type x).
Definition turned_sm (c : R * R) (t : R) (m : sample R) : sample R :=
  mkSample (sm_time m) (turn c t (sm_pos m)) (turn (0, 0) t (sm_vel m)) (sm_radius m) (sm_cloud m) (sm_density m) (sm_id m) (sm_type m).
Lemma all_turned c t (L : list (timestep R)) : flat_map samples (map (turned c t) L) = map (turned_sm c t) (flat_map samples L).
Proof.
  induction L as [|x L IH]; [reflexivity|]. cbn [map flat_map]. rewrite map_app, <- IH. f_equal. clear IH L.
  unfold samples, turned. cbn [ts_time ts_pos ts_vel ts_radius ts_id ts_clouds ts_density ts_type].
  generalize (ts_time x) as tt, (ts_pos x) as ps, (ts_vel x) as vs, (ts_radius x) as rs, (ts_clouds x) as cs, (ts_density x) as ds, (ts_id x) as is, (ts_type x) as ys.
  clear. intros tt ps. induction ps as [|p ps IH]; intros; [reflexivity|].
  destruct vs, rs, cs, ds, is, ys; cbn [map rows]; try reflexivity. now rewrite IH.
Qed.
Lemma one_turn t : sin t * sin t + cos t * cos t = 1.
Proof. exact (sin2_cos2 t). Qed.
Lemma turn_across t a b : (cos t * a - sin t * b) * (cos t * a - sin t * b) + (sin t * a + cos t * b) * (sin t * a + cos t * b) = a * a + b * b.
Proof. assert (T := one_turn t). transitivity ((sin t * sin t + cos t * cos t) * (a * a + b * b)); [ring|]. rewrite T. ring. Qed.
Lemma radius_turned (y : cyl_geom R) t p : let c := (fst (fst (yc_center y)), snd (fst (yc_center y))) in
  fst (fst (to_cylindrical y (turn c t p))) = fst (fst (to_cylindrical y p)) /\ snd (to_cylindrical y (turn c t p)) = snd (to_cylindrical y p).
Proof.
  cbv zeta. destruct p as [[p0 p1] p2]. unfold to_cylindrical. destruct (yc_center y) as [[c0 c1] c2]. cbn [turn fst snd nsqrt nadd nsub nmul num_R]. split; [|reflexivity].
  f_equal. replace (c0 + cos t * (p0 - c0) - sin t * (p1 - c1) - c0) with (cos t * (p0 - c0) - sin t * (p1 - c1)) by ring.
  replace (c1 + sin t * (p0 - c0) + cos t * (p1 - c1) - c1) with (sin t * (p0 - c0) + cos t * (p1 - c1)) by ring. apply turn_across.
Qed.

Lemma npi_pos : 0 < @npi R trig_R.
Proof. exact PI_RGT_0. Qed.

Section Turn.
  Variables (bld : build) (nr no nz : N) (x0 x1 y0 y1 z0 z1 t : R) (g : grid R).
  Hypothesis (Hr : (1 <= nr)%N) (Ho : (1 <= no)%N) (Hz : (1 <= nz)%N) (Lx : x0 < x1) (Ly : y0 < y1) (Lz : z0 < z1).
  Hypothesis E : cyl_new (nr, no, nz) (ThreeD ((x0, x1), (y0, y1), (z0, z1))) true = Val g.
  (** The axis of the grid: the vertical line through the centre of its limits. *)
  Let c : R * R := ((x0 + x1) / 2, (y0 + y1) / 2).

  (** A turned position is still inside, in the same ring and in the same layer. *)
  Theorem c166_inside p : is_inside g (turn c t p) = is_inside g p.
  Proof using E.
    destruct (cyl_new_val _ _ _ _ _ _ _ _ E) as [y [G [_ [_ [_ [_ [_ [_ [Ce [El _]]]]]]]]]].
    assert (T := radius_turned y t p). rewrite Ce in T. cbn [fst snd] in T. fold c in T. destruct T as [T1 T2].
    unfold is_inside. rewrite G. cbn [geom_inside]. unfold cyl_inside.
    assert (An : forall q, - PI < snd (fst (to_cylindrical y q)) <= PI).
    { intros [[q0 q1] q2]. unfold to_cylindrical. destruct (yc_center y) as [[e0 e1] e2]. cbn [fst snd]. apply Ratan2_range. }
    assert (A := An (turn c t p)). assert (A' := An p).
    destruct (to_cylindrical y (turn c t p)) as [[r o] z], (to_cylindrical y p) as [[r' o'] z']. cbn [fst snd] in *. subst r z. rewrite El. unfold in_interval. cbn [fst snd].
    assert (I : forall a, - PI < a <= PI -> (@nleb R num_R (- @npi R trig_R) a && @nleb R num_R a (@npi R trig_R))%bool = true).
    { intros a [B B']. apply andb_true_iff. split; apply Rleb_true; cbn [npi trig_R]; lra. }
    rewrite (I o A), (I o' A'). reflexivity.
  Qed.
  Theorem c166_ring_layer p i j k : is_inside g p = true -> cell_id bld g p = Val (Some (i, j, k)) ->
    exists j', cell_id bld g (turn c t p) = Val (Some (i, j', k)) /\ (j' < no)%N.
  Proof using All.
    intros Hi Ec. assert (Hi' : is_inside g (turn c t p) = true) by (now rewrite c166_inside).
    destruct (cyl_inside_ok_R bld nr no nz x0 x1 y0 y1 z0 z1 g npi_pos Hr Ho Hz Lx Ly Lz E _ Hi') as [[[i' j'] k'] [C' I']].
    exists j'. destruct (cyl_new_val _ _ _ _ _ _ _ _ E) as [y [G [Cc [_ [_ [_ [_ [_ [Ce _]]]]]]]]].
    assert (T := radius_turned y t p). rewrite Ce in T. cbn [fst snd] in T. fold c in T. destruct T as [T1 T2].
    unfold cell_id in *. rewrite G in *. cbn [geom_cell_id geom_cells] in *. rewrite Cc in I'. apply inb3_lt in I'. rewrite C'.
    unfold cyl_cell_id in Ec, C'. destruct (to_cylindrical y (turn c t p)) as [[r o] z], (to_cylindrical y p) as [[r' o'] z']. cbn [fst snd] in *. subst r z.
    destruct (ring_of (yc_r y) 0 r' None) as [i0|]; [|discriminate]. cbn [unwrap bind] in Ec, C'.
    destruct (argmin (map (fun e : R => nabs (e - o)%num) (yc_o y))); [|discriminate].
    destruct (argmin (map (fun e : R => nabs (e - o')%num) (yc_o y))); [|discriminate]. cbn [unwrap bind] in Ec, C'.
    destruct (argmin (map (fun e : R => nabs (e - z')%num) (yc_z y))); [|discriminate]. cbn [unwrap bind] in Ec, C'.
    injection Ec as -> _ ->. injection C' as -> -> ->. split; [reflexivity | lia].
  Qed.

  (** Inside, in ring [i] and layer [k]. *)
  Definition in_ring_layer (i k : N) (p : v3 R) : bool :=
    is_inside g p && match cell_id bld g p with Val (Some (a, _, b)) => (a =? i)%N && (b =? k)%N | _ => false end.
  Lemma ring_layer_turned i k p : in_ring_layer i k (turn c t p) = in_ring_layer i k p.
  Proof using All.
    unfold in_ring_layer. rewrite c166_inside. destruct (is_inside g p) eqn:I; [|reflexivity]. cbn [andb].
    destruct (cyl_inside_ok_R bld nr no nz x0 x1 y0 y1 z0 z1 g npi_pos Hr Ho Hz Lx Ly Lz E p I) as [[[a b] d] [C _]].
    assert (C' : cell_id bld g p = Val (Some (a, b, d))) by exact C.
    destruct (c166_ring_layer p a b d I C') as [b' [C'' _]]. now rewrite C', C''.
  Qed.
  (** The angular cells of a ring and a layer share out its samples. *)
  Lemma shared_out (f : sample R -> R) (i k : N) (l : list (sample R)) :
    Rsum (map (fun j => Rsum (map f (samples_in bld (geo g) (i, j, k) l))) (range 0 no)) = Rsum (map f (filter (fun m => in_ring_layer i k (sm_pos m)) l)).
  Proof using All.
    induction l as [|m l IH].
    - cbn [filter map]. rewrite Rsum_nil. apply Rsum_zero. intros j _. reflexivity.
    - assert (St : forall j, Rsum (map f (samples_in bld (geo g) (i, j, k) (m :: l))) =
        (if in_cell bld (geo g) (i, j, k) (sm_pos m) then f m else 0) + Rsum (map f (samples_in bld (geo g) (i, j, k) l))).
      { intros j. unfold samples_in. cbn [filter]. destruct (in_cell bld (geo g) (i, j, k) (sm_pos m)); [cbn [map]; rewrite Rsum_cons; ring | ring]. }
      rewrite (Rsum_ext _ _ _ (fun j _ => St j)). rewrite Rsum_map_plus, IH. clear IH St. cbn [filter].
      assert (One : Rsum (map (fun j => if in_cell bld (geo g) (i, j, k) (sm_pos m) then f m else 0) (range 0 no)) = if in_ring_layer i k (sm_pos m) then f m else 0).
      { unfold in_ring_layer, in_cell. change (geom_inside (geo g) (sm_pos m)) with (is_inside g (sm_pos m)). destruct (is_inside g (sm_pos m)) eqn:I; cbn [andb]; [|now apply Rsum_zero].
        destruct (cyl_inside_ok_R bld nr no nz x0 x1 y0 y1 z0 z1 g npi_pos Hr Ho Hz Lx Ly Lz E _ I) as [[[a b] d] [C B]].
        unfold cell_id. rewrite C. destruct (cyl_new_val _ _ _ _ _ _ _ _ E) as [y [G [Cc _]]]. rewrite G in B. cbn [geom_cells] in B. rewrite Cc in B. apply inb3_lt in B.
        destruct ((a =? i)%N && (d =? k)%N)%bool eqn:Q.
        - apply andb_true_iff in Q. destruct Q as [Q1 Q2]. apply N.eqb_eq in Q1, Q2. subst a d.
          assert (In0 : In b (range 0 no)) by (apply in_range; lia). assert (ND := range_NoDup 0 no). revert In0 ND. generalize (range 0 no) as js.
          induction js as [|j js IH]; [contradiction|]. intros [->|In0] ND; inversion ND as [|? ? Nin ND']; subst; cbn [map]; rewrite Rsum_cons.
          + rewrite id3_eqb_refl, Rsum_zero; [ring|]. intros j' Hj'. destruct (id3_eqb _ _) eqn:Eq; [|reflexivity]. apply id3_eqb_eq in Eq. injection Eq as ->. contradiction.
          + rewrite IH by assumption. destruct (id3_eqb _ _) eqn:Eq; [|ring]. apply id3_eqb_eq in Eq. injection Eq as ->. contradiction.
        - apply Rsum_zero. intros j _. destruct (id3_eqb _ _) eqn:Eq; [|reflexivity]. apply id3_eqb_eq in Eq. injection Eq as -> _ ->.
          rewrite !N.eqb_refl in Q. discriminate. }
      rewrite One. destruct (in_ring_layer i k (sm_pos m)); cbn [map]; [rewrite Rsum_cons; ring | ring].
  Qed.
  Lemma turned_row i k s (L : list (timestep R)) :
    filter (fun m => in_ring_layer i k (sm_pos m)) (observed s (map (turned c t) L)) = map (turned_sm c t) (filter (fun m => in_ring_layer i k (sm_pos m)) (observed s L)).
  Proof using All.
    unfold observed. rewrite all_turned, filter_map. rewrite filter_map. f_equal. apply filter_ext.
    intros m. cbn [turned_sm sm_pos]. apply ring_layer_turned.
  Qed.

  (** The number of particles found in a ring and a layer does not depend on the angle of the vessel. *)
  Theorem c166_number (M M' : mgr R) d e L s d' h e' h' : recorded M d L -> recorded M' e (map (turned c t) L) -> sel_ok s ->
    numberfield bld M d g s = Val (d', h) -> numberfield bld M' e g s = Val (e', h') ->
    forall i k, (i < nr)%N -> (k < nz)%N ->
      Rsum (map (fun j => at3 (data h') (i, j, k)) (range 0 no)) = Rsum (map (fun j => at3 (data h) (i, j, k)) (range 0 no)).
  Proof using All.
    intros Rec Rec' Sk N N' i k Hi Hk. assert (W := cyl_new_wf _ _ _ _ E).
    destruct (number_cells bld M d L g s d' h Rec Sk W N) as [_ [_ [_ H]]]. destruct (number_cells bld M' e _ g s e' h' Rec' Sk W N') as [_ [_ [_ H']]].
    destruct (cyl_new_val _ _ _ _ _ _ _ _ E) as [y [G [Cc _]]].
    assert (In0 : forall j, In j (range 0 no) -> inb3 (geom_cells (geo g)) (i, j, k) = true).
    { intros j Hj. apply in_range in Hj. rewrite G. cbn [geom_cells]. rewrite Cc. apply inb3_lt. lia. }
    assert (Cnt : forall (h0 : grid R) l, (forall j, In j (range 0 no) -> at3 (data h0) (i, j, k) = fold_left (fun w _ => nadd w n1) (samples_in bld (geo g) (i, j, k) l) n0) ->
      Rsum (map (fun j => at3 (data h0) (i, j, k)) (range 0 no)) = Rsum (map (fun _ : sample R => 1) (filter (fun m => in_ring_layer i k (sm_pos m)) l))).
    { intros h0 l Hh. rewrite <- shared_out. apply Rsum_ext. intros j Hj. rewrite (Hh j Hj), count_R, Rsum_const, NR_INR. unfold vlen. rewrite Nat2N.id. change (@n0 R num_R) with 0. ring. }
    rewrite (Cnt h' (observed s (map (turned c t) L))) by (intros j Hj; exact (proj1 (H' _ (In0 j Hj)))).
    rewrite (Cnt h (observed s L)) by (intros j Hj; exact (proj1 (H _ (In0 j Hj)))).
    now rewrite turned_row, map_map.
  Qed.

  Lemma calc_turned mode calc v : In mode ["absolute"; "xy"; "z"]%string -> velocity_mode (F := R) mode = Val calc -> calc (turn (0, 0) t v) = calc v.
  Proof.
    clear. intros Hm. destruct v as [[a b] d].
    assert (X : forall q, sqrt ((cos t * a - sin t * b) * (cos t * a - sin t * b) + (sin t * a + cos t * b) * (sin t * a + cos t * b) + q) = sqrt (a * a + b * b + q)) by (intros q; now rewrite turn_across).
    assert (A : 0 + cos t * (a - 0) - sin t * (b - 0) = cos t * a - sin t * b) by ring. assert (B : 0 + sin t * (a - 0) + cos t * (b - 0) = sin t * a + cos t * b) by ring.
    destruct Hm as [<-|[<-|[<-|[]]]]; intros [= <-]; cbn [turn speed fst snd nsqrt nadd nmul num_R]; rewrite ?A, ?B; [apply X| |reflexivity].
    specialize (X 0). now rewrite !Rplus_0_r in X.
  Qed.
  (** Sum of the velocities and number of samples behind the mean velocities of a ring and a layer: unchanged for the speed, the speed
      across the axis and the velocity along it. *)
  Theorem c166_velocity (M M' : mgr R) d e L s mode calc vmin vmax d' h e' h' : recorded M d L -> recorded M' e (map (turned c t) L) -> sel_ok s ->
    In mode ["absolute"; "xy"; "z"]%string -> velocity_mode mode = Val calc ->
    velocityfield bld M d g s mode vmin vmax = Val (d', h) -> velocityfield bld M' e g s mode vmin vmax = Val (e', h') ->
    forall i k, (i < nr)%N -> (k < nz)%N ->
      Rsum (map (fun j => at3 (weight h') (i, j, k)) (range 0 no)) = Rsum (map (fun j => at3 (weight h) (i, j, k)) (range 0 no)) /\
      Rsum (map (fun j => at3 (weight h') (i, j, k) * at3 (data h') (i, j, k)) (range 0 no)) = Rsum (map (fun j => at3 (weight h) (i, j, k) * at3 (data h) (i, j, k)) (range 0 no)).
  Proof using All.
    intros Rec Rec' Sk Hm Em N N' i k Hi Hk. assert (Fr := new_fresh _ _ true g (or_intror E)). assert (W := proj1 Fr).
    destruct (velocity_cells bld M d L g s mode calc vmin vmax d' h Rec Sk W Em N) as [_ [_ [_ H]]]. destruct (velocity_cells bld M' e _ g s mode calc vmin vmax e' h' Rec' Sk W Em N') as [_ [_ [_ H']]].
    destruct (cyl_new_val _ _ _ _ _ _ _ _ E) as [y [G [Cc _]]].
    assert (In0 : forall j, In j (range 0 no) -> inb3 (geom_cells (geo g)) (i, j, k) = true).
    { intros j Hj. apply in_range in Hj. rewrite G. cbn [geom_cells]. rewrite Cc. apply inb3_lt. lia. }
    set (keep := fun m : sample R => vel_keep calc vmin vmax m).
    assert (Swap : forall l j, filter keep (samples_in bld (geo g) (i, j, k) l) = samples_in bld (geo g) (i, j, k) (filter keep l)).
    { intros l j. unfold samples_in. induction l as [|m l IH]; [reflexivity|]. cbn [filter].
      destruct (keep m) eqn:K, (in_cell bld (geo g) (i, j, k) (sm_pos m)) eqn:I; cbn [filter]; rewrite ?K, ?I, ?IH; reflexivity. }
    assert (Row : forall (h0 : grid R) L0, (forall j, In j (range 0 no) -> let l := averaged bld g s calc vmin vmax L0 (i, j, k) in
        at3 (weight h0) (i, j, k) = fold_left (fun w _ => nadd w n1) l (at3 (weight g) (i, j, k)) /\
        at3 (data h0) (i, j, k) = ndiv (fold_left nadd (map (fun m => calc (sm_vel m)) l) n0) (at3 (weight h0) (i, j, k))) ->
      let row := filter (fun m => in_ring_layer i k (sm_pos m)) (filter keep (observed s L0)) in
      Rsum (map (fun j => at3 (weight h0) (i, j, k)) (range 0 no)) = Rsum (map (fun _ : sample R => 1) row) /\
      Rsum (map (fun j => at3 (weight h0) (i, j, k) * at3 (data h0) (i, j, k)) (range 0 no)) = Rsum (map (fun m => calc (sm_vel m)) row)).
    { intros h0 L0 Hh row. unfold row. rewrite <- !shared_out. split; apply Rsum_ext; intros j Hj; destruct (Hh j Hj) as [B A]; unfold averaged in A, B; fold keep in A, B;
        rewrite Swap in A, B; rewrite (proj2 (proj2 Fr (i, j, k))), count_R in B.
      - rewrite B, Rsum_const, NR_INR. unfold vlen. rewrite Nat2N.id. change (@n0 R num_R) with 0. ring.
      - rewrite A, B. change (@nadd R num_R) with Rplus. rewrite fold_left_Rplus. change (@n0 R num_R) with 0. cbn [ndiv num_R].
        destruct (samples_in bld (geo g) (i, j, k) (filter keep (observed s L0))) as [|m ms]; [cbn [map]; rewrite Rsum_nil; unfold Rdiv; ring|].
        field. rewrite NR_INR. unfold vlen. rewrite Nat2N.id. apply not_0_INR. discriminate. }
    destruct (Row h L (fun j Hj => H _ (In0 j Hj))) as [R1 R2]. destruct (Row h' _ (fun j Hj => H' _ (In0 j Hj))) as [R1' R2'].
    assert (Same : filter (fun m => in_ring_layer i k (sm_pos m)) (filter keep (observed s (map (turned c t) L))) =
      map (turned_sm c t) (filter (fun m => in_ring_layer i k (sm_pos m)) (filter keep (observed s L)))).
    { assert (K : filter keep (observed s (map (turned c t) L)) = map (turned_sm c t) (filter keep (observed s L))).
      { unfold observed. rewrite all_turned, filter_map. rewrite filter_map. f_equal.
        rewrite (filter_ext _ keep); [reflexivity|]. intros m. unfold keep, vel_keep. cbn [turned_sm sm_pos sm_vel nisnan num_R].
        rewrite (calc_turned mode calc _ Hm Em). assert (N3 : forall p : v3 R, nan3 p = false) by (intros [[a b] c0]; reflexivity). now rewrite !N3. }
      rewrite K, filter_map. f_equal. apply filter_ext. intros m. cbn [turned_sm sm_pos]. apply ring_layer_turned. }
    rewrite R1, R2, R1', R2', Same, !map_map. split; [reflexivity|].
    apply Rsum_ext. intros m _. cbn [turned_sm sm_vel]. exact (calc_turned mode calc _ Hm Em).
  Qed.
  (** With the axis through the origin: the radial, angular and vertical velocities of a sample are unchanged ... *)
  Lemma velocity_turned m j : c = (0, 0) -> (j <= 2)%N -> v3i j (grid_velocity g (turned_sm c t m)) = v3i j (grid_velocity g m).
  Proof using E.
    intros O Hj. destruct (cyl_new_val _ _ _ _ _ _ _ _ E) as [y [G [_ [_ [_ [_ [_ [_ [Ce _]]]]]]]]].
    assert (T := radius_turned y t (sm_pos m)). rewrite Ce in T. cbn [fst snd] in T. fold c in T. destruct T as [T1 T2].
    unfold grid_velocity, velocity_calculation, vnew. cbn [vg0 vcyl]. rewrite G. cbn [is_cylindrical]. cbn [turned_sm sm_pos sm_vel]. rewrite O in T1, T2 |- *.
    destruct (sm_pos m) as [[p0 p1] p2], (sm_vel m) as [[w0 w1] w2].
    destruct (to_cylindrical y (turn (0, 0) t (p0, p1, p2))) as [[r o] z], (to_cylindrical y (p0, p1, p2)) as [[r' o'] z']. cbn [fst snd] in T1, T2. subst r z.
    unfold turn. cbn [fst snd ndiv nadd nmul nsub num_R]. rewrite !Rminus_0_r, !Rplus_0_l.
    assert (S := one_turn t).
    assert (J : (j = 0 \/ j = 1 \/ j = 2)%N) by (clear - Hj; lia). destruct J as [-> |[-> | ->]]; unfold v3i; cbn [N.eqb Pos.eqb fst snd]; [| |reflexivity].
    - f_equal. transitivity ((sin t * sin t + cos t * cos t) * (p0 * w0 + p1 * w1)); [ring|]. rewrite S. ring.
    - f_equal; [|apply turn_across]. transitivity ((sin t * sin t + cos t * cos t) * (p0 * w1 - p1 * w0)); [ring|]. rewrite S. ring.
  Qed.
  (** ... and so are their sums and the numbers of samples behind the means of a ring and a layer. *)
  Theorem c166_vector (M M' : mgr R) d e L s d' v e' v' : c = (0, 0) -> recorded M d L -> recorded M' e (map (turned c t) L) -> sel_ok s ->
    vectorfield bld M d g s = Val (d', v) -> vectorfield bld M' e g s = Val (e', v') ->
    forall q i k, (q <= 2)%N -> (i < nr)%N -> (k < nz)%N ->
      Rsum (map (fun j => at3 (weight (comp q v')) (i, j, k)) (range 0 no)) = Rsum (map (fun j => at3 (weight (comp q v)) (i, j, k)) (range 0 no)) /\
      Rsum (map (fun j => at3 (weight (comp q v')) (i, j, k) * at3 (data (comp q v')) (i, j, k)) (range 0 no)) =
      Rsum (map (fun j => at3 (weight (comp q v)) (i, j, k) * at3 (data (comp q v)) (i, j, k)) (range 0 no)).
  Proof using All.
    intros O Rec Rec' Sk N N' q i k Hq Hi Hk. assert (Fr := new_fresh _ _ true g (or_intror E)). assert (W := proj1 Fr).
    destruct (vector_cells bld M d L g s d' v Rec Sk W N) as [_ H]. destruct (vector_cells bld M' e _ g s e' v' Rec' Sk W N') as [_ H'].
    destruct (H q Hq) as [_ [_ Hv]]. destruct (H' q Hq) as [_ [_ Hv']]. clear H H'.
    destruct (cyl_new_val _ _ _ _ _ _ _ _ E) as [y [G [Cc _]]].
    assert (In0 : forall j, In j (range 0 no) -> inb3 (geom_cells (geo g)) (i, j, k) = true).
    { intros j Hj. apply in_range in Hj. rewrite G. cbn [geom_cells]. rewrite Cc. apply inb3_lt. lia. }
    assert (Vs : forall L0 c0, vectors bld g s L0 c0 = samples_in bld (geo g) c0 (observed s L0)).
    { intros L0 c0. unfold vectors. assert (N3 : forall p : v3 R, nan3 p = false) by (intros [[a b] e0]; reflexivity).
      induction (samples_in bld (geo g) c0 (observed s L0)) as [|m r IH]; [reflexivity|]. cbn [filter]. unfold pos_keep at 1. rewrite N3. cbn [negb]. now rewrite IH. }
    assert (Row : forall (w : vgrid R) L0, (forall j, In j (range 0 no) ->
        at3 (weight (comp q w)) (i, j, k) = fold_left (fun w _ => nadd w n1) (vectors bld g s L0 (i, j, k)) (at3 (weight g) (i, j, k)) /\
        at3 (data (comp q w)) (i, j, k) = ndiv (fold_left nadd (map (fun m => v3i q (grid_velocity g m)) (vectors bld g s L0 (i, j, k))) (at3 (data g) (i, j, k))) (at3 (weight (comp q w)) (i, j, k))) ->
      let row := filter (fun m => in_ring_layer i k (sm_pos m)) (observed s L0) in
      Rsum (map (fun j => at3 (weight (comp q w)) (i, j, k)) (range 0 no)) = Rsum (map (fun _ : sample R => 1) row) /\
      Rsum (map (fun j => at3 (weight (comp q w)) (i, j, k) * at3 (data (comp q w)) (i, j, k)) (range 0 no)) = Rsum (map (fun m => v3i q (grid_velocity g m)) row)).
    { intros w L0 Hh row. unfold row. rewrite <- !shared_out. split; apply Rsum_ext; intros j Hj; destruct (Hh j Hj) as [B A];
        rewrite Vs in A, B; rewrite (proj2 (proj2 Fr (i, j, k))), count_R in B.
      - rewrite B, Rsum_const, NR_INR. unfold vlen. rewrite Nat2N.id. change (@n0 R num_R) with 0. ring.
      - rewrite A, B, (proj1 (proj2 Fr (i, j, k))). change (@nadd R num_R) with Rplus. rewrite fold_left_Rplus. change (@n0 R num_R) with 0. cbn [ndiv num_R].
        destruct (samples_in bld (geo g) (i, j, k) (observed s L0)) as [|m ms]; [cbn [map]; rewrite Rsum_nil; unfold Rdiv; ring|].
        field. rewrite NR_INR. unfold vlen. rewrite Nat2N.id. apply not_0_INR. discriminate. }
    destruct (Row v L (fun j Hj => Hv _ (In0 j Hj))) as [R1 R2]. destruct (Row v' _ (fun j Hj => Hv' _ (In0 j Hj))) as [R1' R2'].
    rewrite R1, R2, R1', R2', turned_row, !map_map. split; [reflexivity|].
    apply Rsum_ext. intros m _. exact (velocity_turned m q O Hq).
  Qed.
End Turn.

Lemma turn_around x0 x1 y0 y1 r theta z t :
  turn ((x0 + x1) / 2, (y0 + y1) / 2) t (around_axis x0 x1 y0 y1 r theta z) = around_axis x0 x1 y0 y1 r (theta + t) z.
Proof. unfold around_axis, turn. cbn [fst snd]. rewrite cos_plus, sin_plus. f_equal. f_equal; ring. Qed.
Lemma which_interval (n : N) lo h v : 0 < h -> lo <= v < lo + NR n * h -> exists t, (t < n)%N /\ lo + NR t * h <= v < lo + (NR t + 1) * h.
Proof.
  intros Hh. assert (G : forall m : nat, lo <= v < lo + INR m * h -> exists t : nat, (t < m)%nat /\ lo + INR t * h <= v < lo + (INR t + 1) * h).
  { induction m as [|m IH]; intros [A B]; [cbn [INR] in B; lra|]. destruct (Rlt_le_dec v (lo + INR m * h)) as [L|L].
    - destruct (IH (conj A L)) as [t [Ht Hv]]. exists t. split; [lia | exact Hv].
    - exists m. rewrite S_INR in B. split; [lia | lra]. }
  rewrite NR_INR. intros H. destruct (G _ H) as [t [Ht Hv]]. exists (N.of_nat t). rewrite NR_INR, Nat2N.id. split; [lia | exact Hv].
Qed.

Section Sectors.
  Variables (bld : build) (nr no nz : N) (x0 x1 y0 y1 z0 z1 : R) (g : grid R).
  Hypothesis (Hr : (1 <= nr)%N) (Ho : (1 <= no)%N) (Hz : (1 <= nz)%N) (Lx : x0 < x1) (Ly : y0 < y1) (Lz : z0 < z1).
  Hypothesis E : cyl_new (nr, no, nz) (ThreeD ((x0, x1), (y0, y1), (z0, z1))) true = Val g.
  Let c : R * R := ((x0 + x1) / 2, (y0 + y1) / 2).
  Let radius := Rmax ((x1 - x0) / 2) ((y1 - y0) / 2).
  Let sector := 2 * PI / NR no.

  (** A turn by one sector moves a particle on by one sector, if it starts beyond the first sector's angles and ends before a half turn. *)
  Theorem c167_sector_partial r theta z i j k : 0 < r <= radius -> z0 <= z <= z1 -> - PI + sector <= theta -> theta + sector < PI ->
    cell_id bld g (around_axis x0 x1 y0 y1 r theta z) = Val (Some (i, j, k)) ->
    cell_id bld g (turn c sector (around_axis x0 x1 y0 y1 r theta z)) = Val (Some (i, (j + 1)%N, k)).
  Proof using All.
    intros [Pr Le] Zz T1 T2 Ec. assert (Ppi := PI_RGT_0). assert (Pn : 0 < NR no) by (assert (Q := NR_pos no Ho); lra).
    assert (Ps : 0 < sector) by (unfold sector; apply Rdiv_lt_0_compat; lra).
    destruct (c21_lookup bld nr no nz x0 x1 y0 y1 z0 z1 g r theta z Hr Ho Hz Lx Ly Lz E Pr ltac:(lra)) as [In0 L]. fold radius in In0, L.
    assert (Hin : is_inside g (around_axis x0 x1 y0 y1 r theta z) = true) by (apply In0; now split).
    destruct (c166_ring_layer bld nr no nz x0 x1 y0 y1 z0 z1 sector g Hr Ho Hz Lx Ly Lz E _ i j k Hin Ec) as [j' [Ej _]].
    fold c in Ej. rewrite Ej. do 3 f_equal. f_equal.
    destruct (L Le) as [i1 [j1 [k1 [C1 [B1 [_ [S1 _]]]]]]]. rewrite Ec in C1. injection C1 as <- <- <-.
    unfold c in Ej. rewrite turn_around in Ej.
    destruct (c21_lookup bld nr no nz x0 x1 y0 y1 z0 z1 g r (theta + sector) z Hr Ho Hz Lx Ly Lz E Pr ltac:(lra)) as [_ L']. fold radius in L'.
    destruct (L' Le) as [i2 [j2 [k2 [C2 [B2 [_ [S2 _]]]]]]]. rewrite Ej in C2. injection C2 as <- <- <-. fold sector in S1, S2.
    assert (Full : NR no * sector = 2 * PI) by (unfold sector; field; lra).
    destruct (which_interval no (- PI) sector (theta + sector) Ps ltac:(lra)) as [t' [Ht' Hv']].
    assert (T : (2 <= t')%N).
    { destruct (N.le_gt_cases 2 t') as [Q|Q]; [exact Q|]. exfalso. assert (Q' : NR t' + 1 <= 2) by (assert (C : (t' = 0 \/ t' = 1)%N) by lia; destruct C as [-> | ->]; unfold NR; cbn; lra). nra. }
    assert (Nt : NR t' = NR (t' - 1) + 1) by (rewrite !NR_INR; replace (N.to_nat t') with (S (N.to_nat (t' - 1))) by lia; now rewrite S_INR).
    destruct (S2 t' Ht' Hv') as [_ [Lo' Up']].
    destruct (S1 (t' - 1)%N ltac:(lia)) as [_ [Lo Up]]; [split; nra|].
    destruct (Rle_lt_dec theta (- PI + NR (t' - 1) * sector + sector / 2)) as [Q|Q].
    - rewrite (Lo ltac:(lia) Q), (Lo' ltac:(lia) ltac:(nra)). lia.
    - rewrite (Up ltac:(lia) Q), (Up' ltac:(lia) ltac:(nra)). lia.
  Qed.

  (** But not in general: on every grid with at least two sectors, particles that start in the lower half of the first sector's angles
      stay in the same cell after a turn by one sector. *)
  Theorem c167_sector_refuted r theta z : (2 <= no)%N -> 0 < r <= radius -> z0 <= z <= z1 -> - PI < theta <= - PI + sector / 2 ->
    exists i k, cell_id bld g (around_axis x0 x1 y0 y1 r theta z) = Val (Some (i, 0%N, k)) /\
      cell_id bld g (turn c sector (around_axis x0 x1 y0 y1 r theta z)) = Val (Some (i, 0%N, k)).
  Proof using All.
    intros H2 [Pr Le] Zz T1. assert (Ppi := PI_RGT_0). assert (P2 : 2 <= NR no) by (unfold NR; apply IZR_le; lia).
    assert (Ps : 0 < sector) by (unfold sector; apply Rdiv_lt_0_compat; lra).
    assert (Full : NR no * sector = 2 * PI) by (unfold sector; field; lra). assert (Sp : sector <= PI) by nra.
    destruct (c21_lookup bld nr no nz x0 x1 y0 y1 z0 z1 g r theta z Hr Ho Hz Lx Ly Lz E Pr ltac:(lra)) as [In0 L]. fold radius in In0, L.
    assert (Hin : is_inside g (around_axis x0 x1 y0 y1 r theta z) = true) by (apply In0; now split).
    destruct (L Le) as [i [j [k [C1 [_ [_ [S1 _]]]]]]]. fold sector in S1.
    assert (J : j = 0%N) by (destruct (S1 0%N ltac:(lia) ltac:(unfold NR; cbn; lra)) as [J _]; now apply J). subst j.
    exists i, k. split; [exact C1|].
    destruct (c166_ring_layer bld nr no nz x0 x1 y0 y1 z0 z1 sector g Hr Ho Hz Lx Ly Lz E _ i 0%N k Hin C1) as [j' [Ej _]]. fold c in Ej. rewrite Ej. do 3 f_equal. f_equal.
    unfold c in Ej. rewrite turn_around in Ej.
    destruct (c21_lookup bld nr no nz x0 x1 y0 y1 z0 z1 g r (theta + sector) z Hr Ho Hz Lx Ly Lz E Pr ltac:(lra)) as [_ L']. fold radius in L'.
    destruct (L' Le) as [i2 [j2 [k2 [C2 [_ [_ [S2 _]]]]]]]. rewrite Ej in C2. injection C2 as <- <- <-. fold sector in S2.
    destruct (S2 1%N ltac:(lia) ltac:(unfold NR; cbn; lra)) as [_ [Lo _]]. rewrite (Lo ltac:(lia) ltac:(unfold NR; cbn; lra)). reflexivity.
  Qed.
End Sectors.

(** A concrete change of units of a cylindrical grid: metres to millimetres, with a new origin. *)
Example c165_case : let u := ((1000, 50), (1000, 20), (1000, -20)) in let l := ((0, 2), (0, 1), (0, 1)) in
  positive u /\ round_units u /\ proper l /\
  (exists g, cyl_new (4, 3, 2)%N (ThreeD l) true = Val g) /\ (exists g', cyl_new (4, 3, 2)%N (ThreeD (move_lims u l)) true = Val g').
Proof. cbv zeta. split; [cbn; lra|]. split; [reflexivity|]. split; [cbn; lra|]. split; eexists; reflexivity. Qed.
(** Two particles turned by a quarter about the axis x = 1, y = 1/2. *)
Example c166_case : let c := ((0 + 2) / 2, (0 + 1) / 2) in
  let L := [mkTs 2 [(3 / 2, 1 / 2, 0); (1, 1, 1)] [(1, 0, 0); (0, 2, 0)] [1; 1] [1; 2] [0; 0] [1; 1] [0; 0]] in
  map (turned c (PI / 2)) L = [mkTs 2 [(1, 1, 0); (1 / 2, 1 / 2, 1)] [(0, 1, 0); (-2, 0, 0)] [1; 1] [1; 2] [0; 0] [1; 1] [0; 0]] /\
  forall st, st_timesteps st = 1%N -> recorded (list_mgr L st) tt L /\ recorded (list_mgr (map (turned c (PI / 2)) L) st) tt (map (turned c (PI / 2)) L).
Proof.
  cbv zeta. split.
  - cbn [map]. unfold turned. cbn [ts_time ts_pos ts_vel ts_radius ts_id ts_clouds ts_density ts_type map turn fst snd]. rewrite cos_PI2, sin_PI2.
    do 2 f_equal; repeat (f_equal; try field).
  - intros st Es. split; (apply list_recorded; [discriminate | repeat constructor | now rewrite Es]).
Qed.
(** A particle in the second sector of four moves on to the third. *)
Example c167_case : - PI + 2 * PI / NR 4 <= - PI / 4 /\ - PI / 4 + 2 * PI / NR 4 < PI.
Proof. assert (P := PI_RGT_0). unfold NR. cbn. lra. Qed.
