(** * PropertiesScale: units and origins do not matter (C159)

    Ideal arithmetic, Cartesian grids: positions and limits changed per axis to [a * x + b] with
    [a > 0], times and time windows likewise, velocities and their limits multiplied by [k > 0]. *)
From Coq Require Import Reals List NArith ZArith Lia Lra Psatz Bool String ZifyBool ZifyN ZifyNat.
From Verif Require Import Base BaseFacts Num RFacts NDArray GridModel GridSpec GridFacts CartProofs CartR GridOps
  SelModel DataModel DataSpec DataProofs DataLoad PropertiesGrid PropertiesData FunModel FunSpec FunProofs FunMgr FunField PropertiesFun PropertiesParts.
Import ListNotations.
Local Open Scope string_scope.
Local Open Scope list_scope.
Local Open Scope R_scope.

(** [a * x + b] on one axis, on a position, on the limits of a grid. *)
Definition ax (u : R * R) (x : R) : R := fst u * x + snd u.
Definition units3 : Type := ((R * R) * (R * R) * (R * R))%type.
Definition positive (u : units3) : Prop := let '(u0, u1, u2) := u in 0 < fst u0 /\ 0 < fst u1 /\ 0 < fst u2.
Definition move (u : units3) (p : v3 R) : v3 R :=
  let '(u0, u1, u2) := u in let '(p0, p1, p2) := p in (ax u0 p0, ax u1 p1, ax u2 p2).
Definition move_lims (u : units3) (l : lims R) : lims R :=
  let '(u0, u1, u2) := u in let '(l0, l1, l2) := l in
  ((ax u0 (fst l0), ax u0 (snd l0)), (ax u1 (fst l1), ax u1 (snd l1)), (ax u2 (fst l2), ax u2 (snd l2))).
Definition times (k : R) (v : v3 R) : v3 R := let '(x, y, z) := v in (k * x, k * y, k * z).
(** The same timestep in other units. *)
Definition restated (u : units3) (ut : R * R) (k : R) (x : timestep R) : timestep R :=
  mkTs (ax ut (ts_time x)) (map (move u) (ts_pos x)) (map (times k) (ts_vel x))
    (ts_radius x) (ts_id x) (ts_clouds x) (ts_density x) (ts_type x).
Definition restated_sel (ut : R * R) (s : selector R) : selector R :=
  set_time s (ax ut (fst (s_time s))) (ax ut (snd (s_time s))).
Definition restated_sm (u : units3) (ut : R * R) (k : R) (m : sample R) : sample R :=
  mkSample (ax ut (sm_time m)) (move u (sm_pos m)) (times k (sm_vel m)) (sm_radius m) (sm_cloud m) (sm_density m) (sm_id m) (sm_type m).

Lemma samples_restated u ut k (x : timestep R) : samples (restated u ut k x) = map (restated_sm u ut k) (samples x).
Proof.
  unfold samples, restated. cbn [ts_time ts_pos ts_vel ts_radius ts_id ts_clouds ts_density ts_type].
  generalize (ts_time x) as t, (ts_pos x) as ps, (ts_vel x) as vs, (ts_radius x) as rs, (ts_clouds x) as cs, (ts_density x) as ds, (ts_id x) as is, (ts_type x) as ys.
  clear. intros t ps. induction ps as [|p ps IH]; intros; [reflexivity|].
  destruct vs, rs, cs, ds, is, ys; cbn [map rows]; try reflexivity. now rewrite IH.
Qed.
Lemma all_restated u ut k (L : list (timestep R)) :
  flat_map samples (map (restated u ut k) L) = map (restated_sm u ut k) (flat_map samples L).
Proof. induction L as [|x L IH]; [reflexivity|]. cbn [map flat_map]. now rewrite map_app, samples_restated, IH. Qed.

Lemma ax_le u x y : 0 < fst u -> nleb (ax u x) (ax u y) = nleb x y.
Proof.
  intros H. unfold ax. destruct (nleb x y) eqn:E.
  - apply Rleb_true in E. apply Rleb_true. nra.
  - apply Rleb_false in E. apply Rleb_false. nra.
Qed.
Lemma chosen_restated u ut k s m : 0 < fst ut -> chosen (restated_sel ut s) (restated_sm u ut k m) = chosen s m.
Proof.
  intros H. unfold chosen. change (accepts (restated_sel ut s) (restated_sm u ut k m)) with (accepts s m). f_equal.
  unfold timestep_valid, restated_sel, restated_sm. cbn [set_time s_time fst snd sm_time]. now rewrite !ax_le.
Qed.

Lemma inside_moved (u : units3) cells xs ys zs xs' ys' zs' (l : lims R) p : positive u ->
  cart_inside (mkCart cells xs' ys' zs' (move_lims u l)) (move u p) = cart_inside (mkCart cells xs ys zs l) p.
Proof.
  destruct u as [[u0 u1] u2], l as [[l0 l1] l2], p as [[p0 p1] p2]. intros [H0 [H1 H2]].
  unfold cart_inside. cbn [cc_lim move move_lims nisnan num_R orb]. unfold in_interval. cbn [fst snd]. now rewrite !ax_le.
Qed.
Lemma axis_moved bld n u (l : R * R) p : 0 < fst u -> fst l < snd l ->
  cart_axis_id bld n (ax u (fst l), ax u (snd l)) (ax u p) = cart_axis_id bld n l p.
Proof.
  intros H Hl. unfold cart_axis_id. destruct (usub bld n 1) as [n'|]; [|reflexivity]. cbn [bind fst snd]. do 2 f_equal.
  cbn [ndiv nsub nmul num_R]. f_equal. unfold ax. field. split; nra.
Qed.
Lemma cell_moved bld (u : units3) cells xs ys zs xs' ys' zs' (l : lims R) p : positive u -> proper l ->
  cart_cell_id bld (mkCart cells xs' ys' zs' (move_lims u l)) (move u p) = cart_cell_id bld (mkCart cells xs ys zs l) p.
Proof.
  intros Hu Hl. unfold cart_cell_id. rewrite (inside_moved u cells xs ys zs xs' ys' zs' l p Hu).
  destruct (cart_inside _ p); [|reflexivity].
  destruct u as [[u0 u1] u2], l as [[l0 l1] l2], p as [[p0 p1] p2], cells as [[a b] c]. destruct Hu as [H0 [H1 H2]]. destruct Hl as [K0 [K1 K2]].
  cbn [move move_lims cc_cells cc_lim]. now rewrite !axis_moved.
Qed.
Lemma in_cell_moved {TF : Trig R} bld (u : units3) cells xs ys zs xs' ys' zs' (l : lims R) c p : positive u -> proper l ->
  in_cell bld (Cart (mkCart cells xs' ys' zs' (move_lims u l))) c (move u p) = in_cell bld (Cart (mkCart cells xs ys zs l)) c p.
Proof.
  intros Hu Hl. unfold in_cell. cbn [geom_inside geom_cell_id].
  rewrite (inside_moved u cells xs ys zs xs' ys' zs' l p Hu), (cell_moved bld u cells xs ys zs xs' ys' zs' l p Hu Hl). reflexivity.
Qed.

(** The centres of the cells of an axis move along. *)
Theorem c159_centres u n lo hi : cart_centres n (ax u lo) (ax u hi) = map (ax u) (cart_centres n lo hi).
Proof.
  unfold cart_centres. rewrite map_map. apply map_ext. intros k. cbn [ndiv nadd nsub nmul num_R]. unfold ax, Rdiv. ring.
Qed.

Lemma filter_map {A B} (f : A -> B) (p : B -> bool) (l : list A) : filter p (map f l) = map f (filter (fun x => p (f x)) l).
Proof. induction l as [|x l IH]; [reflexivity|]. cbn [map filter]. destruct (p (f x)); cbn [map]; now rewrite IH. Qed.

Section Fields.
  Context {TF : Trig R}.
  Variables (bld : build) (u : units3) (ut : R * R) (k : R).
  Hypothesis (Hu : positive u) (Ht : 0 < fst ut) (Hk : 0 < k).

  Lemma new_geo cells (l : lims R) (g : grid R) : cart_new cells (ThreeD l) = Val g ->
    exists xs ys zs, geo g = Cart (mkCart cells xs ys zs l).
  Proof. destruct l as [[[x0 x1] [y0 y1]] [z0 z1]], cells as [[a b] c]. intros [= <-]. cbn [geo]. eauto. Qed.

  Lemma samples_in_moved cells l (g g' : grid R) s (L : list (timestep R)) c : proper l ->
    cart_new cells (ThreeD l) = Val g -> cart_new cells (ThreeD (move_lims u l)) = Val g' ->
    samples_in bld (geo g') c (observed (restated_sel ut s) (map (restated u ut k) L)) =
    map (restated_sm u ut k) (samples_in bld (geo g) c (observed s L)).
  Proof.
    intros Pl E E'. destruct (new_geo _ _ _ E) as [xs [ys [zs ->]]]. destruct (new_geo _ _ _ E') as [xs' [ys' [zs' ->]]].
    unfold samples_in, observed. rewrite all_restated, filter_map. rewrite filter_map. f_equal.
    rewrite (filter_ext _ (fun m => in_cell bld (Cart (mkCart cells xs ys zs l)) c (sm_pos m))).
    - f_equal. apply filter_ext. intros m. apply chosen_restated. exact Ht.
    - intros m. cbn [restated_sm sm_pos]. now apply in_cell_moved.
  Qed.

  Lemma proper_moved l : proper l -> proper (move_lims u l).
  Proof.
    clear - Hu. destruct u as [[u0 u1] u2], l as [[l0 l1] l2]. destruct Hu as [H0 [H1 H2]]. intros [K0 [K1 K2]].
    cbn. unfold ax. repeat split; nra.
  Qed.
  Lemma rect_moved (L : list (timestep R)) : Forall rect L -> Forall rect (map (restated u ut k) L).
  Proof.
    clear. intros H. apply Forall_map. revert H. apply Forall_impl. intros x. unfold rect, restated.
    cbn [ts_time ts_pos ts_vel ts_radius ts_id ts_clouds ts_density ts_type]. now rewrite !map_length.
  Qed.

  (** The number field is the same in every system of units. *)
  Theorem c159_number cells l (g g' : grid R) (M M' : mgr R) d e L s :
    recorded M d L -> recorded M' e (map (restated u ut k) L) -> sel_ok s -> sized cells -> proper l ->
    cart_new cells (ThreeD l) = Val g -> cart_new cells (ThreeD (move_lims u l)) = Val g' ->
    exists d' h e' h', numberfield bld M d g s = Val (d', h) /\ numberfield bld M' e g' (restated_sel ut s) = Val (e', h') /\
    forall c, inb3 cells c = true -> at3 (data h') c = at3 (data h) c.
  Proof.
    intros Rec Rec' Sk Sz Pl E E'. destruct (new_geo _ _ _ E) as [xs [ys [zs G]]]. destruct (new_geo _ _ _ E') as [xs' [ys' [zs' G']]].
    assert (W := cart_new_wf _ _ _ E). assert (W' := cart_new_wf _ _ _ E').
    assert (Sk' : sel_ok (restated_sel ut s)) by exact Sk.
    destruct (number_total bld M d L g s Rec Sk W) as [d' [h Eh]]; [rewrite G; now apply cart_inside_ok_R|].
    destruct (number_total bld M' e _ g' _ Rec' Sk' W') as [e' [h' Eh']]; [rewrite G'; apply cart_inside_ok_R; [exact Sz | now apply proper_moved]|].
    exists d', h, e', h'. split; [exact Eh|]. split; [exact Eh'|]. intros c Hc.
    destruct (number_cells bld M d L g s d' h Rec Sk W Eh) as [_ [_ [_ H]]].
    destruct (number_cells bld M' e _ g' _ e' h' Rec' Sk' W' Eh') as [_ [_ [_ H']]].
    destruct (H c ltac:(now rewrite G)) as [-> _]. destruct (H' c ltac:(now rewrite G')) as [-> _].
    rewrite (samples_in_moved cells l g g' s L c Pl E E'), !count_R. unfold vlen. now rewrite map_length.
  Qed.

  Lemma sqrt_times x : 0 <= x -> sqrt (k * k * x) = k * sqrt x.
  Proof. clear - Hk. intros H. rewrite sqrt_mult, sqrt_square; nra. Qed.
  Lemma mode_times mode calc v : velocity_mode (F := R) mode = Val calc -> calc (times k v) = k * calc v.
  Proof.
    clear - Hk. unfold velocity_mode. destruct v as [[x y] z].
    repeat match goal with |- context [if ?b then _ else _] => destruct b end; intros [= <-]; cbn [times speed nsqrt nadd nmul num_R]; try reflexivity;
      rewrite <- sqrt_times by nra; f_equal; ring.
  Qed.
  Lemma averaged_moved cells l (g g' : grid R) s mode calc vmin vmax (L : list (timestep R)) c : velocity_mode mode = Val calc -> proper l ->
    cart_new cells (ThreeD l) = Val g -> cart_new cells (ThreeD (move_lims u l)) = Val g' ->
    averaged bld g' (restated_sel ut s) calc (k * vmin) (k * vmax) (map (restated u ut k) L) c =
    map (restated_sm u ut k) (averaged bld g s calc vmin vmax L c).
  Proof.
    intros Em Pl E E'. unfold averaged. rewrite (samples_in_moved cells l g g' s L c Pl E E'), filter_map. f_equal. apply filter_ext.
    intros m. unfold vel_keep. cbn [restated_sm sm_pos sm_vel]. rewrite (mode_times mode calc _ Em). cbn [nisnan num_R].
    assert (N3 : forall p : v3 R, nan3 p = false) by (intros [[a b] c0]; reflexivity). rewrite !N3. cbn [negb andb].
    clear - Hk. set (x := calc (sm_vel m)). f_equal.
    assert (Lt : forall a b, nltb (k * a) (k * b) = nltb a b).
    { intros a b. destruct (nltb a b) eqn:Q; [apply Rltb_true in Q; apply Rltb_true | apply Rltb_false in Q; apply Rltb_false]; nra. }
    now rewrite !Lt.
  Qed.
  (** The mean velocity is multiplied by [k], the number of samples behind it is the same. *)
  Theorem c159_velocity cells l (g g' : grid R) (M M' : mgr R) d e L s mode calc vmin vmax :
    recorded M d L -> recorded M' e (map (restated u ut k) L) -> sel_ok s -> sized cells -> proper l -> velocity_mode mode = Val calc ->
    cart_new cells (ThreeD l) = Val g -> cart_new cells (ThreeD (move_lims u l)) = Val g' ->
    exists d' h e' h', velocityfield bld M d g s mode vmin vmax = Val (d', h) /\
      velocityfield bld M' e g' (restated_sel ut s) mode (k * vmin) (k * vmax) = Val (e', h') /\
    forall c, inb3 cells c = true -> at3 (data h') c = k * at3 (data h) c /\ at3 (weight h') c = at3 (weight h) c.
  Proof.
    intros Rec Rec' Sk Sz Pl Em E E'. destruct (new_geo _ _ _ E) as [xs [ys [zs G]]]. destruct (new_geo _ _ _ E') as [xs' [ys' [zs' G']]].
    assert (Fr := new_fresh cells (ThreeD l) true g (or_introl E)). assert (Fr' := new_fresh cells (ThreeD (move_lims u l)) true g' (or_introl E')).
    assert (W := proj1 Fr). assert (W' := proj1 Fr').
    assert (Sk' : sel_ok (restated_sel ut s)) by exact Sk.
    destruct (velocity_total bld M d L g s mode calc vmin vmax Rec Sk W) as [d' [h Eh]]; [rewrite G; now apply cart_inside_ok_R | exact Em|].
    destruct (velocity_total bld M' e _ g' _ mode calc (k * vmin) (k * vmax) Rec' Sk' W') as [e' [h' Eh']]; [rewrite G'; apply cart_inside_ok_R; [exact Sz | now apply proper_moved] | exact Em|].
    exists d', h, e', h'. split; [exact Eh|]. split; [exact Eh'|]. intros c Hc.
    destruct (velocity_cells bld M d L g s mode calc vmin vmax d' h Rec Sk W Em Eh) as [_ [_ [_ H]]].
    destruct (velocity_cells bld M' e _ g' _ mode calc _ _ e' h' Rec' Sk' W' Em Eh') as [_ [_ [_ H']]].
    destruct (H c ltac:(now rewrite G)) as [B A]. destruct (H' c ltac:(now rewrite G')) as [B' A'].
    rewrite (averaged_moved cells l g g' s mode calc vmin vmax L c Em Pl E E') in A', B'.
    rewrite (proj2 (proj2 Fr c)) in B. rewrite (proj2 (proj2 Fr' c)) in B'.
    assert (Wt : at3 (weight h') c = at3 (weight h) c) by (rewrite B, B', !count_R; unfold vlen; now rewrite map_length).
    split; [|exact Wt]. rewrite A', A, Wt. change (@nadd R num_R) with Rplus. rewrite !fold_left_Rplus, map_map.
    rewrite (map_ext _ (fun m => k * calc (sm_vel m))) by (intros m; exact (mode_times mode calc (sm_vel m) Em)).
    assert (Sc : forall ms, Rsum (map (fun m : sample R => k * calc (sm_vel m)) ms) = k * Rsum (map (fun m => calc (sm_vel m)) ms)).
    { clear. induction ms as [|m ms IH]; [cbn [map]; rewrite !Rsum_nil; ring|]. cbn [map]. rewrite !Rsum_cons, IH. ring. }
    rewrite Sc. change (@n0 R num_R) with 0. cbn [ndiv num_R]. unfold Rdiv. ring.
  Qed.
End Fields.

(** A concrete change of units: metres to millimetres with a new origin, seconds to milliseconds. *)
Example c159_case {TF : Trig R} : let u := ((1000, 50), (1000, 0), (1000, -20)) in
  let L := [mkTs 2 [(0, 0, 0); (1, 1, 1)] [(1, 0, 0); (0, 2, 0)] [1; 1] [1; 2] [0; 0] [1; 1] [0; 0]] in
  positive u /\ proper ((0, 1), (0, 1), (0, 1)) /\
  map (restated u (1000, 0) 1000) L =
    [mkTs (1000 * 2 + 0) [(1000 * 0 + 50, 1000 * 0 + 0, 1000 * 0 + -20); (1000 * 1 + 50, 1000 * 1 + 0, 1000 * 1 + -20)]
       [(1000 * 1, 1000 * 0, 1000 * 0); (1000 * 0, 1000 * 2, 1000 * 0)] [1; 1] [1; 2] [0; 0] [1; 1] [0; 0]] /\
  forall st, st_timesteps st = 1%N ->
    recorded (list_mgr L st) tt L /\ recorded (list_mgr (map (restated u (1000, 0) 1000) L) st) tt (map (restated u (1000, 0) 1000) L).
Proof.
  cbv zeta. split; [cbn; lra|]. split; [cbn; lra|]. split; [reflexivity|]. intros st E.
  split; (apply list_recorded; [discriminate | repeat constructor | now rewrite E]).
Qed.
