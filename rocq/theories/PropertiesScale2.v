(** * PropertiesScale2: units and origins do not matter to the other analyses (C163)

    Ideal arithmetic. Units as in C159: positions [a * x + b] per axis, times likewise, velocities times [k]. *)
From Coq Require Import Reals List NArith ZArith Lia Lra Psatz Bool String Permutation ZifyBool ZifyN ZifyNat.
From Verif Require Import Base BaseFacts Num RFacts NDArray GridModel GridSpec GridFacts CartProofs CartR GridOps VecProofs
  SelModel DataModel DataSpec DataProofs DataLoad PropertiesGrid PropertiesData FunModel FunSpec FunProofs FunMgr FunField PropertiesFun
  FunOcc FunHist FunMom FunTemp MixModel FunMix FunLacey CondModel FunTrack FunCirc PropertiesParts PropertiesScale PropertiesFrames PropertiesAgree.
Import ListNotations.
Local Open Scope string_scope.
Local Open Scope list_scope.
Local Open Scope R_scope.

Section Others.
  Context {TF : Trig R}.
  Variables (bld : build) (u : units3) (ut : R * R) (k : R).
  Hypothesis (Hu : positive u) (Ht : 0 < fst ut) (Hk : 0 < k).

  Lemma removelast_map {A B} (f : A -> B) (l : list A) : removelast (map f l) = map f (removelast l).
  Proof. clear. induction l as [|x l IH]; [reflexivity|]. destruct l as [|y l]; [reflexivity|]. cbn [map removelast] in *. now rewrite <- IH. Qed.
  Lemma number_restated t l : number_of t (map (restated_sm u ut k) l) = number_of t l.
  Proof. clear. unfold number_of. rewrite filter_map. unfold vlen. rewrite map_length. reflexivity. Qed.
  Lemma observed_moved s (L : list (timestep R)) :
    observed (restated_sel ut s) (map (restated u ut k) L) = map (restated_sm u ut k) (observed s L).
  Proof. unfold observed. rewrite all_restated, filter_map. f_equal. apply filter_ext. intros m. now apply chosen_restated. Qed.

  (** ** Concentration *)
  Theorem c163_concentration cells l (g g' : grid R) (M M' : mgr R) d e L s ta tb d1 h e1 h' :
    recorded M d L -> recorded M' e (map (restated u ut k) L) -> sel_ok s -> sized cells -> proper l -> ta <> tb ->
    cart_new cells (ThreeD l) = Val g -> cart_new cells (ThreeD (move_lims u l)) = Val g' ->
    concentration_field bld M d g s ta tb = Val (d1, h) -> concentration_field bld M' e g' (restated_sel ut s) ta tb = Val (e1, h') ->
    forall c, inb3 cells c = true ->
      let l := samples_in bld (geo g) c (observed s (removelast L)) in
      (0 < number_of ta l + number_of tb l)%N -> at3 (data h') c = at3 (data h) c.
  Proof.
    intros Rec Rec' Sk Sz Pl Ne E E' E1 E1' c Hc. cbv zeta. intros P.
    destruct (new_geo _ _ _ E) as [xs [ys [zs G]]]. destruct (new_geo _ _ _ E') as [xs' [ys' [zs' G']]].
    assert (W := cart_new_wf _ _ _ E). assert (W' := cart_new_wf _ _ _ E').
    assert (Sk' : sel_ok (restated_sel ut s)) by exact Sk.
    destruct (conc_total bld M d L g s tb ta Rec Sk W) as [d2 [h2 E2]]; [rewrite G; now apply cart_inside_ok_R|].
    destruct (conc_total bld M' e _ g' _ tb ta Rec' Sk' W') as [e2 [h2' E2']]; [rewrite G'; apply cart_inside_ok_R; [exact Sz | now apply proper_moved]|].
    destruct (c44_complement bld M d L g s ta tb d1 h d2 h2 Rec Sk W Ne E1 E2 c ltac:(now rewrite G) P) as [-> _].
    assert (Q := samples_in_moved bld u ut k Hu Ht cells l g g' s (removelast L) c Pl E E'). rewrite <- removelast_map in Q.
    destruct (c44_complement bld M' e _ g' _ ta tb e1 h' e2 h2' Rec' Sk' W' Ne E1' E2' c ltac:(now rewrite G')) as [-> _]; rewrite Q, !number_restated; [exact P | reflexivity].
  Qed.

  (** ** The Lacey index *)
  Lemma at_map_inv {A B} (f : A -> B) (l : list A) i y : at_ (map f l) i y -> exists x, at_ l i x /\ y = f x.
  Proof. clear. unfold at_. rewrite nth_error_map. destruct (nth_error l (N.to_nat i)); [|discriminate]. intros [= <-]. eauto. Qed.
  Lemma at_map {A B} (f : A -> B) (l : list A) i x : at_ l i x -> at_ (map f l) i (f x).
  Proof. clear. unfold at_. rewrite nth_error_map. now intros ->. Qed.
  Lemma valid_moved s t : timestep_valid (restated_sel ut s) (ax ut t) = timestep_valid s t.
  Proof. unfold timestep_valid, restated_sel. cbn [set_time s_time fst snd]. now rewrite !ax_le. Qed.
  (** The index of every timestep is the same, its time is restated. Timesteps outside the time window hold 0 in both. *)
  Theorem c163_lacey cells l (g g' : grid R) (M M' : mgr R) d e L s ta tb thr d1 e1 tm tm' mix mix' :
    recorded M d L -> recorded M' e (map (restated u ut k) L) -> sel_ok s -> proper l -> ta <> tb -> (1 <= thr)%N ->
    cart_new cells (ThreeD l) = Val g -> cart_new cells (ThreeD (move_lims u l)) = Val g' ->
    lacey_mixing bld M d g s ta tb thr = Val (d1, (tm, mix)) ->
    lacey_mixing bld M' e g' (restated_sel ut s) ta tb thr = Val (e1, (tm', mix')) ->
    mix' = mix /\ vlen tm' = vlen tm /\
    forall t x, at_ (removelast L) t x ->
      (timestep_valid s (ts_time x) = true -> at_ tm t (ts_time x) /\ at_ tm' t (ax ut (ts_time x))) /\
      (timestep_valid s (ts_time x) = false -> at_ tm t 0 /\ at_ tm' t 0).
  Proof.
    intros Rec Rec' Sk Pl Ne Th E E' R1 R2. destruct (new_geo _ _ _ E) as [xs [ys [zs G]]]. destruct (new_geo _ _ _ E') as [xs' [ys' [zs' G']]].
    assert (Fr := new_fresh cells (ThreeD l) true g (or_introl E)). assert (Fr' := new_fresh cells (ThreeD (move_lims u l)) true g' (or_introl E')).
    assert (Sk' : sel_ok (restated_sel ut s)) by exact Sk.
    destruct (c43_index bld M d L g s ta tb thr d1 tm mix Rec Sk Fr Ne Th R1) as [V1 [V2 H]].
    destruct (c43_index bld M' e _ g' _ ta tb thr e1 tm' mix' Rec' Sk' Fr' Ne Th R2) as [V1' [V2' H']].
    assert (Vl : vlen (map (restated u ut k) L) = vlen L) by (unfold vlen; now rewrite map_length). rewrite Vl in V1', V2'.
    assert (Same : forall x, timestep_valid s (ts_time x) = true ->
      lacey_index (vlen (ids3 (geom_cells (geo g')))) (share ta tb (observed (restated_sel ut s) [restated u ut k x]))
        (map (fun c => share ta tb (samples_in bld (geo g') c (observed (restated_sel ut s) [restated u ut k x]))) (full_cells bld g' ta tb thr (observed (restated_sel ut s) [restated u ut k x]))) =
      lacey_index (vlen (ids3 (geom_cells (geo g)))) (share ta tb (observed s [x]))
        (map (fun c => share ta tb (samples_in bld (geo g) c (observed s [x]))) (full_cells bld g ta tb thr (observed s [x])))).
    { intros x _. assert (Cl : geom_cells (geo g') = geom_cells (geo g)) by now rewrite G, G'.
      assert (Q : forall c, samples_in bld (geo g') c (observed (restated_sel ut s) [restated u ut k x]) = map (restated_sm u ut k) (samples_in bld (geo g) c (observed s [x]))).
      { intros c. exact (samples_in_moved bld u ut k Hu Ht cells l g g' s [x] c Pl E E'). }
      assert (Qo : observed (restated_sel ut s) [restated u ut k x] = map (restated_sm u ut k) (observed s [x])) by exact (observed_moved s [x]).
      assert (Fc : full_cells bld g' ta tb thr (observed (restated_sel ut s) [restated u ut k x]) = full_cells bld g ta tb thr (observed s [x])).
      { unfold full_cells. rewrite Cl. apply filter_ext. intros c. now rewrite Q, !number_restated. }
      rewrite Fc, Cl. f_equal.
      - unfold share. now rewrite Qo, !number_restated.
      - apply map_ext. intros c. unfold share. now rewrite Q, !number_restated. }
    assert (Both : forall t x, at_ (removelast L) t x ->
      (exists v, at_ mix t v /\ at_ mix' t v) /\
      (timestep_valid s (ts_time x) = true -> at_ tm t (ts_time x) /\ at_ tm' t (ax ut (ts_time x))) /\
      (timestep_valid s (ts_time x) = false -> at_ tm t 0 /\ at_ tm' t 0)).
    { intros t x Hx. specialize (H t x Hx). specialize (H' t (restated u ut k x)). rewrite removelast_map in H'. specialize (H' (at_map _ _ _ _ Hx)).
      change (ts_time (restated u ut k x)) with (ax ut (ts_time x)) in H'. rewrite valid_moved in H'.
      destruct (timestep_valid s (ts_time x)) eqn:Tv.
      - destruct H as [A1 A2], H' as [B1 B2]. cbv zeta in A2, B2. rewrite (Same x Tv) in B2. split; [eauto|]. split; [auto | discriminate].
      - destruct H as [A1 A2], H' as [B1 B2]. split; [eauto|]. split; [discriminate | auto]. }
    split; [|split; [congruence | intros t x Hx; exact (proj2 (Both t x Hx))]].
    apply (at_ext _ _ (vlen L - 1)); [congruence | congruence|]. intros i Hi. rewrite <- vlen_removelast in Hi.
    destruct (lt_at (removelast L) i Hi) as [x Hx]. destruct (Both i x Hx) as [[w [W1 W2]] _]. eauto.
  Qed.

  (** ** The mean speed of the recording *)
  Theorem c163_mean_speed (M M' : mgr R) d e L s : recorded M d L -> recorded M' e (map (restated u ut k) L) -> in_window s L <> [] ->
    exists d' v e' v', mean_velocity_showcase bld M d s = Val (d', v) /\
      mean_velocity_showcase bld M' e (restated_sel ut s) = Val (e', v') /\ v' = k * v.
  Proof.
    intros Rec Rec' Ne.
    assert (Rc := proj2 (proj2 Rec)). assert (Rc' := proj2 (proj2 Rec')).
    assert (Ew : in_window (restated_sel ut s) (map (restated u ut k) L) = map (times k) (in_window s L)).
    { rewrite (in_window_map _ _ Rc'), (in_window_map _ _ Rc), all_restated, filter_map, !map_map. f_equal.
      apply filter_ext. intros m. cbn [restated_sm sm_time]. apply valid_moved. }
    destruct (c41_mean_ideal bld M d L s Rec) as [d' [v [Ev H]]]. destruct (c41_mean_ideal bld M' e _ (restated_sel ut s) Rec') as [e' [v' [Ev' H']]].
    exists d', v, e', v'. split; [exact Ev|]. split; [exact Ev'|]. rewrite Ew in H'.
    destruct (H Ne) as [-> _]. destruct H' as [-> _]; [intros Z; apply map_eq_nil in Z; contradiction|].
    rewrite map_map. unfold Rmean. rewrite !map_length. unfold Rdiv. rewrite <- Rmult_assoc, <- Rsum_map_scal. f_equal. f_equal.
    apply map_ext. intros w. destruct w as [[x y] z]. unfold speed, times. cbn [nsqrt nadd nmul num_R]. rewrite <- (sqrt_times k Hk) by nra. f_equal. ring.
  Qed.

  (** ** Occupancy *)
  Definition restated_stay (y : stay R) : stay R := mkStay (restated_sm u ut k (y_from y)) (move u (y_to y)) (fst ut * y_spent y).
  Lemma stays_moved (x y : timestep R) : stays (restated u ut k x) (restated u ut k y) = map restated_stay (stays x y).
  Proof.
    clear. unfold stays. rewrite samples_restated, map_map. cbn [restated ts_pos ts_time].
    generalize (samples x) as a, (ts_pos y) as b. intros a. induction a as [|m a IH]; intros [|q b]; try reflexivity.
    cbn [map combine]. rewrite IH. f_equal. unfold restated_stay. cbn [y_from y_to y_spent fst snd nsub num_R]. f_equal. unfold ax. ring.
  Qed.
  Lemma all_stays_moved (L : list (timestep R)) : all_stays (map (restated u ut k) L) = map restated_stay (all_stays L).
  Proof.
    clear. unfold all_stays. rewrite map_length. generalize (List.length L - 3)%nat as n. intros n.
    assert (T : tl (map (restated u ut k) L) = map (restated u ut k) (tl L)) by now destruct L. rewrite T.
    generalize (tl L) as L2. revert n. induction L as [|x L IH]; intros n [|y L2]; cbn [map combine]; try (destruct n; reflexivity).
    destruct n as [|n]; [reflexivity|]. cbn [firstn flat_map fst snd]. rewrite map_app, stays_moved. f_equal. exact (IH eq_refl n L2) || exact (IH ltac:(now destruct L) n L2).
  Qed.
  Theorem c163_occupancy cells l can can' (g g' : grid R) (M M' : mgr R) d e L s min_vel d1 h e1 h' :
    aux_reads can M d L -> aux_reads can' M' e (map (restated u ut k) L) -> (forall t, can t (t + 1)%N) -> (forall t, can' t (t + 1)%N) ->
    (3 <= vlen L)%N -> Forall rect L -> sel_ok s -> proper l ->
    cart_new cells (ThreeD l) = Val g -> cart_new cells (ThreeD (move_lims u l)) = Val g' ->
    occupancyfield bld M d g s min_vel = Val (d1, h) -> occupancyfield bld M' e g' (restated_sel ut s) (k * min_vel) = Val (e1, h') ->
    0 < Rsum (map y_spent (counted g s min_vel L)) ->
    forall c, at3 (data h') c = at3 (data h) c.
  Proof.
    intros A A' C C' Len Rc Sk Pl E E' R1 R2 Pos c. destruct (new_geo _ _ _ E) as [xs [ys [zs G]]]. destruct (new_geo _ _ _ E') as [xs' [ys' [zs' G']]].
    assert (W := cart_new_wf _ _ _ E). assert (W' := cart_new_wf _ _ _ E').
    assert (Sk' : sel_ok (restated_sel ut s)) by exact Sk.
    assert (Ec : counted g' (restated_sel ut s) (k * min_vel) (map (restated u ut k) L) = map restated_stay (counted g s min_vel L)).
    { unfold counted. rewrite all_stays_moved, filter_map. f_equal. apply filter_ext. intros y. unfold counts.
      cbn [restated_stay y_from y_spent]. rewrite (chosen_restated u ut k s _ Ht). f_equal; [f_equal; [f_equal|]|].
      - unfold is_inside. rewrite G, G'. cbn [geom_inside restated_sm sm_pos]. now apply inside_moved.
      - f_equal. cbn [restated_sm sm_vel]. destruct (sm_vel (y_from y)) as [[a b] c0]. unfold speed0, times. cbn [nsqrt nadd nmul num_R].
        change (@n0 R num_R) with 0.
        replace (sqrt (0 + k * a * (k * a) + k * b * (k * b) + k * c0 * (k * c0))) with (k * sqrt (0 + a * a + b * b + c0 * c0)).
        + set (q := sqrt (0 + a * a + b * b + c0 * c0)). destruct (nltb q min_vel) eqn:Q; [apply Rltb_true in Q; apply Rltb_true | apply Rltb_false in Q; apply Rltb_false]; clear - Q Hk; nra.
        + rewrite <- (sqrt_times k Hk) by nra. f_equal. ring.
      - f_equal. change (@n0 R num_R) with 0. destruct (nltb (y_spent y) 0) eqn:Q; [apply Rltb_true in Q; apply Rltb_true | apply Rltb_false in Q; apply Rltb_false]; clear - Q Ht; nra. }
    destruct (c37_fraction can bld M d L g s min_vel d1 h A C Len Rc Sk W R1 Pos) as [H _].
    assert (Es : Rsum (map y_spent (map restated_stay (counted g s min_vel L))) = fst ut * Rsum (map y_spent (counted g s min_vel L))).
    { rewrite map_map, <- (map_map y_spent (fun x => fst ut * x)), Rsum_map_scal, map_id. reflexivity. }
    destruct (c37_fraction can' bld M' e _ g' _ (k * min_vel) e1 h' A' C' ltac:(unfold vlen; now rewrite map_length) (rect_moved u ut k L Rc) Sk' W' R2) as [H' _];
      [rewrite Ec, Es; now apply Rmult_lt_0_compat|].
    rewrite H, H', Ec, Es.
    assert (Ed : deposited c (flat_map (stay_deposits bld (geo g')) (map restated_stay (counted g s min_vel L))) =
                 map (fun x => fst ut * x) (deposited c (flat_map (stay_deposits bld (geo g)) (counted g s min_vel L)))).
    { generalize (counted g s min_vel L) as ys0. induction ys0 as [|y r IH]; [reflexivity|]. cbn [map flat_map].
      unfold deposited in *. rewrite !filter_app, !map_app, IH. f_equal.
      unfold stay_deposits, deposits. rewrite G, G'. cbn [geom_cell_id restated_stay y_from y_to y_spent restated_sm sm_pos].
      rewrite !(cell_moved bld u cells xs ys zs xs' ys' zs' l _ Hu Pl).
      destruct (cart_cell_id bld _ (sm_pos (y_from y))) as [[ca|]|]; try reflexivity. destruct (cart_cell_id bld _ (y_to y)) as [[cb|]|]; try reflexivity.
      cbn [filter fst]. destruct (id3_eqb ca c), (id3_eqb cb c); cbn [map snd nmul num_R]; try reflexivity; repeat (f_equal; [ring|]); f_equal; ring. }
    rewrite Ed, Rsum_map_scal, map_id. field. split; lra.
  Qed.

  (** ** Circulation times *)
  Lemma crossing_moved axis b mm : crossing axis (ax (nth (N.to_nat axis) [fst (fst u); snd (fst u); snd u] (1, 0)) b) (restated_sm u ut k (fst mm), restated_sm u ut k (snd mm)) = crossing axis b mm.
  Proof.
    clear Ht Hk. destruct u as [[u0 u1] u2]. destruct Hu as [H0 [H1 H2]]. destruct mm as [m m']. unfold crossing. cbn [fst snd restated_sm sm_pos].
    destruct (sm_pos m) as [[q0 q1] q2], (sm_pos m') as [[p0 p1] p2]. unfold move, v3get.
    assert (Sg : forall (w : R * R) p q, 0 < fst w -> nltb (nmul (nsub (ax w p) (ax w b)) (nsub (ax w q) (ax w b))) n0 = nltb (nmul (nsub p b) (nsub q b)) n0).
    { clear. intros w p q Hw. cbn [nmul nsub num_R]. change (@n0 R num_R) with 0.
      replace ((ax w p - ax w b) * (ax w q - ax w b)) with (fst w * fst w * ((p - b) * (q - b))) by (unfold ax; ring).
      assert (0 < fst w * fst w) by nra. set (x := (p - b) * (q - b)).
      destruct (nltb x 0) eqn:Q; [apply Rltb_true in Q; apply Rltb_true | apply Rltb_false in Q; apply Rltb_false]; nra. }
    destruct (N.eqb_spec axis 0) as [->|]; [now apply Sg|]. destruct (N.eqb_spec axis 1) as [->|]; [now apply Sg|]. destruct (N.eqb_spec axis 2) as [->|]; [now apply Sg | reflexivity].
  Qed.
  Definition both_moved (mm : sample R * sample R) := (restated_sm u ut k (fst mm), restated_sm u ut k (snd mm)).
  Lemma moves_moved s (L : list (timestep R)) i : moves (restated_sel ut s) (map (restated u ut k) L) i = map both_moved (moves s L i).
  Proof.
    unfold moves.
    assert (Cm : compared (restated_sel ut s) (map (restated u ut k) L) = map (fun xy => (restated u ut k (fst xy), restated u ut k (snd xy))) (compared s L)).
    { destruct L as [|x0 r]; [reflexivity|]. cbn [map compared]. rewrite removelast_map, filter_map.
      rewrite (filter_ext _ (fun y => timestep_valid s (ts_time y))) by (intros y; apply valid_moved).
      generalize (filter (fun y : timestep R => timestep_valid s (ts_time y)) (removelast r)). intros q. revert x0. clear. induction q as [|y q IH]; intros x0; [reflexivity|]. cbn [map pairs fst snd]. now rewrite IH. }
    rewrite Cm. clear Cm. induction (compared s L) as [|[x y] r IH]; [reflexivity|]. cbn [map flat_map fst snd]. rewrite map_app, <- IH. f_equal.
    unfold move1. cbn [fst snd]. rewrite !samples_restated, !nth_error_map.
    destruct (nth_error (samples x) (N.to_nat i)) as [m|]; [|reflexivity]. destruct (nth_error (samples y) (N.to_nat i)) as [m'|]; [|reflexivity]. cbn [option_map].
    change (accepts (restated_sel ut s) (restated_sm u ut k m')) with (accepts s m'). cbn [restated_sm sm_id].
    destruct (accepts s m' && neqb (sm_id m') (sm_id m)); reflexivity.
  Qed.
  Lemma thirds_map {A B} (f : A -> B) (l : list A) : thirds (map f l) = map (fun ac => (f (fst ac), f (snd ac))) (thirds l).
  Proof. clear. induction l as [|x|x y|x y z r IH] using thirds_ind; try reflexivity. cbn [map thirds fst snd]. f_equal. exact IH. Qed.
  Theorem c163_circulation (M M' : mgr R) d e L s axis b d1 out e1 out' :
    recorded M d L -> recorded M' e (map (restated u ut k) L) -> sel_ok s -> (axis < 3)%N -> st_nparticles (m_stats M') = st_nparticles (m_stats M) ->
    circulation_time bld M d s axis b = Val (d1, out) ->
    circulation_time bld M' e (restated_sel ut s) axis (ax (nth (N.to_nat axis) [fst (fst u); snd (fst u); snd u] (1, 0)) b) = Val (e1, out') ->
    Permutation out' (map (fun t => fst ut * t) out).
  Proof.
    intros Rec Rec' Sk _ Np R1 R2. assert (Sk' : sel_ok (restated_sel ut s)) by exact Sk.
    destruct (c47_times bld M d s axis b L d1 out Rec Sk R1) as [_ P]. destruct (c47_times bld M' e _ axis _ _ e1 out' Rec' Sk' R2) as [_ P'].
    rewrite Np in P'. rewrite P', P. clear P P'. generalize (range 0 (st_nparticles (m_stats M) + 1)) as is. intros is.
    replace (flat_map _ is) with (map (fun t => fst ut * t) (flat_map (fun i => map duration (thirds (crossings s axis b L i))) is)); [apply Permutation_refl|].
    induction is as [|i is IH]; [reflexivity|]. cbn [flat_map]. rewrite map_app, IH. f_equal. clear IH.
    unfold crossings. rewrite moves_moved, filter_map, (filter_ext (fun x => crossing axis _ (both_moved x)) (crossing axis b)) by (intros mm; apply crossing_moved).
    rewrite thirds_map, !map_map. apply map_ext. intros [[m m'] [n n']]. unfold duration, cross_time. cbn [fst snd both_moved restated_sm sm_time nsub num_R]. unfold ax. ring.
  Qed.

  (** ** The velocity histogram: given limits *)
  Lemma edges_scaled lo hi bins : bin_edges (k * lo) (k * hi) bins = map (fun x => k * x) (bin_edges lo hi bins).
  Proof.
    clear. unfold bin_edges. rewrite map_app, map_map. cbn [map]. f_equal. apply map_ext. intros i. cbn [nadd nmul nsub ndiv num_R]. unfold Rdiv. ring.
  Qed.
  Lemma speed_times v : speed (F := R) (times k v) = k * speed v.
  Proof. destruct v as [[x y] z]. unfold speed, times. cbn [nsqrt nadd nmul num_R]. rewrite <- (sqrt_times k Hk) by nra. f_equal. ring. Qed.
  Theorem c163_histogram cells l (g g' : grid R) (M M' : mgr R) d e L s limit bins :
    recorded M d L -> recorded M' e (map (restated u ut k) L) -> sel_ok s -> (1 <= bins)%N -> proper l ->
    cart_new cells (ThreeD l) = Val g -> cart_new cells (ThreeD (move_lims u l)) = Val g' ->
    hist_lo (m_stats M') = k * hist_lo (m_stats M) -> hist_hi (m_stats M') (k * limit) = k * hist_hi (m_stats M) limit ->
    hist_lo (m_stats M) < hist_hi (m_stats M) limit ->
    exists d1 e1 w edges, histogram bld M d g s "velocity" limit bins = Val (d1, (w, edges)) /\
      histogram bld M' e g' (restated_sel ut s) "velocity" (k * limit) bins = Val (e1, (w, map (fun x => k * x) edges)).
  Proof.
    intros Rec Rec' Sk Hb Pl E E' Lo Hi Lt. destruct (new_geo _ _ _ E) as [xs [ys [zs G]]]. destruct (new_geo _ _ _ E') as [xs' [ys' [zs' G']]].
    assert (Sk' : sel_ok (restated_sel ut s)) by exact Sk.
    destruct (histogram_run bld M d L g s limit bins Rec Sk Hb) as [d1 [w [R1 [_ [V H]]]]].
    destruct (histogram_run bld M' e _ g' _ (k * limit) bins Rec' Sk' Hb) as [e1 [w' [R2 [_ [V' H']]]]].
    rewrite Lo, Hi, edges_scaled in R2, H'. cbv zeta in R1, R2, H, H'. set (ed := bin_edges (hist_lo (m_stats M)) (hist_hi (m_stats M) limit) bins) in *.
    exists d1, e1, w, ed. split; [exact R1|]. rewrite R2. do 3 f_equal. apply (at_ext _ _ bins); [congruence | congruence|]. intros b Lb. specialize (H b Lb). specialize (H' b Lb).
    replace (fold_left (fun (w : R) (_ : sample R) => nadd w n1) (filter (in_bin (map (fun x : R => k * x) ed) b) (sampled g' (restated_sel ut s) (map (restated u ut k) L))) n0)
      with (fold_left (fun (w : R) (_ : sample R) => nadd w n1) (filter (in_bin ed b) (sampled g s L)) n0) in H'; [eauto|].
    assert (Es : sampled g' (restated_sel ut s) (map (restated u ut k) L) = map (restated_sm u ut k) (sampled g s L)).
    { unfold sampled. rewrite observed_moved, filter_map. f_equal. apply filter_ext. intros m. unfold is_inside. rewrite G, G'. cbn [geom_inside restated_sm sm_pos]. now apply inside_moved. }
    rewrite Es, !count_R, filter_map. f_equal. f_equal. unfold vlen. rewrite map_length. f_equal. f_equal. apply filter_ext. intros m.
    unfold in_bin. f_equal. unfold bin_of. f_equal. f_equal. cbn [restated_sm sm_vel]. rewrite speed_times.
    assert (N0 : nth_error ed 0 = Some (hist_lo (m_stats M) + INR 0 * ((hist_hi (m_stats M) limit - hist_lo (m_stats M)) / NR bins))) by (apply edges_at; lia).
    assert (N1 : nth_error ed 1 = Some (hist_lo (m_stats M) + INR 1 * ((hist_hi (m_stats M) limit - hist_lo (m_stats M)) / NR bins))) by (apply edges_at; lia).
    change (@n0 R num_R) with 0.
    rewrite (nth_error_nth ed 0 0 N0), (nth_error_nth ed 1 0 N1).
    rewrite (nth_error_nth (map (fun x => k * x) ed) 0 0 (map_nth_error _ _ _ N0)), (nth_error_nth (map (fun x => k * x) ed) 1 0 (map_nth_error _ _ _ N1)).
    assert (P : 0 < NR bins) by (unfold NR; apply (IZR_lt 0); lia). cbn [ndiv nsub num_R INR].
    set (lo := hist_lo (m_stats M)) in *. set (hi := hist_hi (m_stats M) limit) in *. set (v := speed (sm_vel m)). clearbody lo hi v.
    assert (D1 : 0 < (hi - lo) / NR bins) by (apply Rdiv_lt_0_compat; lra).
    set (q := (hi - lo) / NR bins) in *. clearbody q. field. split; nra.
  Qed.
End Others.

From Verif Require Import FunDisp FunMsd.

(** ** Displacements: other units of length (one factor for all axes), any origin *)
Section Lengths.
  Context {TF : Trig R}.
  Variables (bld : build) (a b0 b1 b2 k : R).
  Hypothesis (Ha : 0 < a).
  Let u : units3 := ((a, b0), (a, b1), (a, b2)).
  Let ut : R * R := (1, 0).
  Lemma lengths_positive : positive u. Proof. clear - Ha. cbn. auto. Qed.
  Lemma time_same x : ts_time (restated u ut k x) = ts_time x.
  Proof. clear. cbn [restated ts_time]. unfold ax, ut. cbn [fst snd]. ring. Qed.
  Definition end_moved (mq : sample R * v3 R) : sample R * v3 R := (restated_sm u ut k (fst mq), move u (snd mq)).
  Lemma delayed_moved ta dt (L : list (timestep R)) x : delayed bld ta dt (map (restated u ut k) L) (restated u ut k x) = option_map (restated u ut k) (delayed bld ta dt L x).
  Proof.
    clear. unfold delayed. rewrite time_same. destruct (closest _ _ _ _) as [[[t|]|]|]; try reflexivity. apply nth_error_map.
  Qed.
  Lemma step_moved s (x y : timestep R) :
    filter (fun mq => chosen (restated_sel ut s) (fst mq)) (combine (samples (restated u ut k x)) (ts_pos (restated u ut k y))) =
    map end_moved (filter (fun mq => chosen s (fst mq)) (combine (samples x) (ts_pos y))).
  Proof.
    clear. rewrite samples_restated. cbn [restated ts_pos].
    assert (Cb : forall (l : list (sample R)) (m : list (v3 R)), combine (map (restated_sm u ut k) l) (map (move u) m) = map end_moved (combine l m)).
    { induction l as [|p l IH]; intros [|q m]; try reflexivity. cbn [map combine]. now rewrite IH. }
    rewrite Cb, filter_map. f_equal. apply filter_ext. intros mq. cbn [end_moved fst]. apply chosen_restated. cbn. lra.
  Qed.
  Lemma msd_moves_moved ta dt s (L : list (timestep R)) :
    moves_before_last bld ta dt (restated_sel ut s) (map (restated u ut k) L) = map end_moved (moves_before_last bld ta dt s L).
  Proof.
    unfold moves_before_last. rewrite removelast_map. induction (removelast L) as [|x r IH]; [reflexivity|]. cbn [map flat_map]. rewrite map_app, <- IH. f_equal.
    rewrite delayed_moved. destruct (delayed bld ta dt L x) as [y|]; cbn [option_map]; [apply step_moved | reflexivity].
  Qed.
  Lemma disp_moves_moved ta dt s (L : list (timestep R)) :
    FunDisp.moves bld ta dt (restated_sel ut s) (map (restated u ut k) L) = map end_moved (FunDisp.moves bld ta dt s L).
  Proof.
    unfold FunDisp.moves.
    assert (G : forall r, flat_map (fun x => match delayed bld ta dt (map (restated u ut k) L) x with
                       | Some y => filter (fun mq => chosen (restated_sel ut s) (fst mq)) (combine (samples x) (ts_pos y)) | None => [] end) (map (restated u ut k) r) =
      map end_moved (flat_map (fun x => match delayed bld ta dt L x with
                       | Some y => filter (fun mq => chosen s (fst mq)) (combine (samples x) (ts_pos y)) | None => [] end) r)); [|apply G].
    induction r as [|x r IH]; [reflexivity|]. cbn [map flat_map]. rewrite map_app, <- IH. f_equal.
    rewrite delayed_moved. destruct (delayed bld ta dt L x) as [y|]; cbn [option_map]; [apply step_moved | reflexivity].
  Qed.
  Lemma moves_in_moved cells l (g g' : grid R) c ms : proper l ->
    cart_new cells (ThreeD l) = Val g -> cart_new cells (ThreeD (move_lims u l)) = Val g' ->
    moves_in bld g' c (map end_moved ms) = map end_moved (moves_in bld g c ms).
  Proof.
    intros Pl E E'. destruct (new_geo _ _ _ E) as [xs [ys [zs G]]]. destruct (new_geo _ _ _ E') as [xs' [ys' [zs' G']]].
    unfold moves_in. rewrite filter_map. f_equal. apply filter_ext. intros mq. rewrite G, G'. cbn [end_moved start fst restated_sm sm_pos].
    apply in_cell_moved; [apply lengths_positive | exact Pl].
  Qed.
  Lemma travelled_moved mq : travelled (end_moved mq) = a * travelled mq.
  Proof.
    destruct mq as [m [[q0 q1] q2]]. unfold travelled, start. cbn [end_moved fst snd restated_sm sm_pos]. destruct (sm_pos m) as [[p0 p1] p2].
    unfold u, move, ax. cbn [fst snd nsqrt nadd nmul nsub num_R].
    assert (P : forall t : R, 0 <= t * t) by (intros t; exact (Rle_0_sqr t)). assert (P0 := P (p0 - q0)). assert (P1 := P (p1 - q1)). assert (P2 := P (p2 - q2)).
    rewrite <- (sqrt_times a Ha) by lra. f_equal. ring.
  Qed.
  (** The mean squared displacement is multiplied by [a * a]. *)
  Theorem c163_msd cells l can can' (g g' : grid R) (M M' : mgr R) d e L s dt d1 h e1 h' :
    aux_reads can M d L -> aux_reads can' M' e (map (restated u ut k) L) -> L <> [] -> st_time (m_stats M') = st_time (m_stats M) ->
    vlen (st_time (m_stats M)) = vlen L -> Forall rect L -> sel_ok s -> proper l ->
    cart_new cells (ThreeD l) = Val g -> cart_new cells (ThreeD (move_lims u l)) = Val g' ->
    msd_field bld M d g s dt = Val (d1, h) -> msd_field bld M' e g' (restated_sel ut s) dt = Val (e1, h') ->
    forall c, inb3 cells c = true -> at3 (data h') c = a * a * at3 (data h) c /\ at3 (weight h') c = at3 (weight h) c.
  Proof.
    intros A A' Ne St Vt Rc Sk Pl E E' R1 R2 c Hc. destruct (new_geo _ _ _ E) as [xs [ys [zs G]]]. destruct (new_geo _ _ _ E') as [xs' [ys' [zs' G']]].
    assert (Fr := new_fresh cells (ThreeD l) true g (or_introl E)). assert (Fr' := new_fresh cells (ThreeD (move_lims u l)) true g' (or_introl E')).
    assert (Sk' : sel_ok (restated_sel ut s)) by exact Sk.
    destruct (c45_field can bld M d L g s dt d1 h A Ne Vt Rc Sk Fr R1) as [_ [_ H]].
    destruct (c45_field can' bld M' e _ g' _ dt e1 h' A' ltac:(intros Z; apply map_eq_nil in Z; contradiction)
      ltac:(rewrite St; unfold vlen in *; now rewrite map_length) (rect_moved u ut k L Rc) Sk' Fr' R2) as [_ [_ H']].
    specialize (H c ltac:(now rewrite G)). specialize (H' c ltac:(now rewrite G')). cbv zeta in H, H'.
    rewrite St, msd_moves_moved, (moves_in_moved cells l g g' c _ Pl E E') in H'.
    set (ms := moves_in bld g c (moves_before_last bld (st_time (m_stats M)) dt s L)) in *. clearbody ms.
    destruct H as [W [Z N]], H' as [W' [Z' N']]. unfold vlen in *. rewrite map_length in W', N'. split; [|now rewrite W, W'].
    destruct ms as [|x ms]; [rewrite (Z eq_refl), (Z' eq_refl); ring|]. rewrite (N ltac:(discriminate)), (N' ltac:(discriminate)).
    rewrite map_map, (map_ext _ (fun mq => a * travelled mq)) by (intros mq; apply travelled_moved).
    rewrite Rsum_map_scal. set (t := Rsum (map travelled (x :: ms))). unfold Rdiv. ring.
  Qed.
  Lemma Rsvar_affine q b (l : list R) : l <> [] -> Rsvar (map (fun x => q * x + b) l) = q * q * Rsvar l.
  Proof.
    clear. intros Ne. unfold Rsvar. rewrite map_length, map_map, Rmean_affine by exact Ne.
    rewrite (map_ext _ (fun x => q * q * ((x - Rmean l) * (x - Rmean l)))) by (intros; ring). rewrite Rsum_map_scal. unfold Rdiv. ring.
  Qed.
  Lemma spread_moved ps : ps <> [] -> spread (map (move u) ps) = a * a * spread ps.
  Proof.
    clear. intros Ne. unfold spread. rewrite !map_map.
    assert (C : forall j b, (forall p, v3i j (move u p) = a * v3i j p + b) -> Rsvar (map (fun p => v3i j (move u p)) ps) = a * a * Rsvar (map (v3i j) ps)).
    { intros j b Hj. rewrite <- (Rsvar_affine a b) by (intros Z; apply map_eq_nil in Z; contradiction). rewrite map_map. f_equal. apply map_ext. exact Hj. }
    rewrite (C 0%N b0), (C 1%N b1), (C 2%N b2); [ring | ..]; intros [[x y] z]; reflexivity.
  Qed.
  (** The dispersion of every cell and its mean are multiplied by [a * a]. *)
  Theorem c163_dispersion cells l can can' (g g' : grid R) (M M' : mgr R) d e L s dt d1 h mean e1 h' mean' :
    aux_reads can M d L -> aux_reads can' M' e (map (restated u ut k) L) -> L <> [] -> st_time (m_stats M') = st_time (m_stats M) ->
    vlen (st_time (m_stats M)) = vlen L -> Forall rect L -> sel_ok s -> proper l ->
    cart_new cells (ThreeD l) = Val g -> cart_new cells (ThreeD (move_lims u l)) = Val g' ->
    dispersion bld M d g s dt = Val (d1, (h, mean)) -> dispersion bld M' e g' (restated_sel ut s) dt = Val (e1, (h', mean')) ->
    (forall c, inb3 cells c = true -> at3 (data h') c = a * a * at3 (data h) c /\ at3 (weight h') c = at3 (weight h) c) /\
    mean' = a * a * mean.
  Proof.
    intros A A' Ne St Vt Rc Sk Pl E E' R1 R2. destruct (new_geo _ _ _ E) as [xs [ys [zs G]]]. destruct (new_geo _ _ _ E') as [xs' [ys' [zs' G']]].
    assert (Fr := new_fresh cells (ThreeD l) true g (or_introl E)). assert (Fr' := new_fresh cells (ThreeD (move_lims u l)) true g' (or_introl E')).
    assert (Sk' : sel_ok (restated_sel ut s)) by exact Sk.
    destruct (c40_sample_variance can bld M d L g s dt d1 h mean A Ne Vt Rc Sk Fr R1) as [_ [H Hm]].
    destruct (c40_sample_variance can' bld M' e _ g' _ dt e1 h' mean' A' ltac:(intros Z; apply map_eq_nil in Z; contradiction)
      ltac:(rewrite St; unfold vlen in *; now rewrite map_length) (rect_moved u ut k L Rc) Sk' Fr' R2) as [_ [H' Hm']].
    assert (Cl : geom_cells (geo g) = cells) by now rewrite G. assert (Cl' : geom_cells (geo g') = cells) by now rewrite G'. rewrite Cl in H, Hm. rewrite Cl' in H', Hm'.
    assert (Cell : forall c, inb3 cells c = true -> at3 (data h') c = a * a * at3 (data h) c /\ at3 (weight h') c = at3 (weight h) c).
    { intros c Hc. specialize (H c Hc). specialize (H' c Hc). cbv zeta in H, H'.
      rewrite St, disp_moves_moved, (moves_in_moved cells l g g' c _ Pl E E') in H'. rewrite map_length in H'.
      set (ms := moves_in bld g c _) in *. clearbody ms. destruct H as [B S], H' as [B' S'].
      destruct (Nat.lt_ge_cases (List.length ms) 2) as [Lt|Ge].
      - destruct (S Lt) as [-> ->]. destruct (S' Lt) as [-> ->]. split; [ring | reflexivity].
      - destruct (B Ge) as [-> [-> _]]. destruct (B' Ge) as [-> [-> _]]. split; [|reflexivity].
        rewrite map_map. change (fun x => snd (end_moved x)) with (fun x : sample R * v3 R => move u (snd x)). rewrite <- (map_map snd (move u)).
        apply spread_moved. intros Z. apply map_eq_nil in Z. subst ms. cbn in Ge. lia. }
    split; [exact Cell|]. rewrite Hm, Hm'.
    rewrite (map_ext_in (at3 (weight h')) (at3 (weight h)) (ids3 cells)) by (intros c Hc; apply in_ids3 in Hc; now apply Cell).
    rewrite (map_ext_in (fun c => at3 (weight h') c * at3 (data h') c) (fun c => a * a * (at3 (weight h) c * at3 (data h) c)) (ids3 cells)).
    - rewrite Rsum_map_scal. unfold Rdiv. ring.
    - intros c Hc. apply in_ids3 in Hc. destruct (Cell c Hc) as [-> ->]. ring.
  Qed.
End Lengths.

(** ** Units of time matter to displacements: the delayed timestep is searched with the absolute tolerance 0.01 (C32).
    One particle at x = 0, 1/4 and 1 at the times 0, 4 and 8 ms, displacements after 8 ms: recorded in seconds the particle
    moves 1/4, in milliseconds 1. *)
Definition quick : list (timestep R) :=
  [mkTs 0 [(0, 0, 0)] [(1, 0, 0)] [1] [1] [0] [0] [1]; mkTs (4 / 1000) [(1 / 4, 0, 0)] [(1, 0, 0)] [1] [1] [0] [0] [1];
   mkTs (8 / 1000) [(1, 0, 0)] [(1, 0, 0)] [1] [1] [0] [0] [1]].
Definition no_change : units3 := ((1, 0), (1, 0), (1, 0)).
Definition everything : selector R := set_time sel_default 0 1.
Section TimeUnits.
  Context {TF : Trig R}.
  Lemma closest_three bld (x1 x2 s : R) : 0 < x1 -> x1 < x2 ->
    (s = x2 -> x2 - x1 < 1 / 100 -> closest bld 3 [0; x1; x2] s = Some (Val (Some 1%N))) /\
    (s = x2 -> 1 / 100 <= x2 - x1 -> closest bld 3 [0; x1; x2] s = Some (Val (Some 2%N))) /\
    (x2 < s -> closest bld 3 [0; x1; x2] s = Some (Val None)).
  Proof.
    intros H1 H2.
    assert (A : forall t, nltb t t = false) by (intros t; apply Rltb_false; lra).
    assert (L2 : @nlit R num_R 1 100 = 1 / 100) by reflexivity.
    split; [|split].
    - intros -> D. unfold closest. cbn [vlen List.length usub N.of_nat Pos.of_succ_nat Pos.succ N.leb N.compare Pos.compare Pos.compare_cont N.sub Pos.sub_mask vget nth_error N.to_nat Pos.to_nat Pos.iter_op Init.Nat.add].
      change (vget [0; x1; x2] 2) with (Val x2). change (vget [0; x1; x2] 0) with (Val 0). cbv iota beta.
      rewrite A, (proj2 (Rltb_false x2 0)) by lra. cbn [search]. change (negb (0 <=? 2)%N) with false. cbv iota. change ((0 + 2) / 2)%N with 1%N. change (vget [0; x1; x2] 1) with (Val x1). cbv iota.
      replace (nltb (nabs (nsub x1 x2)) (nlit 1 100)) with true; [reflexivity|]. symmetry. apply Rltb_true. rewrite L2. cbn [nabs nsub num_R]. rewrite Rabs_left by lra. lra.
    - intros -> D. unfold closest. change (usub bld (vlen [0; x1; x2]) 1) with (Val 2%N). cbv iota.
      change (vget [0; x1; x2] 2) with (Val x2). change (vget [0; x1; x2] 0) with (Val 0). cbv iota beta.
      rewrite A, (proj2 (Rltb_false x2 0)) by lra. cbn [search]. change (negb (0 <=? 2)%N) with false. cbv iota. change ((0 + 2) / 2)%N with 1%N. change (vget [0; x1; x2] 1) with (Val x1). cbv iota.
      replace (nltb (nabs (nsub x1 x2)) (nlit 1 100)) with false by (symmetry; apply Rltb_false; rewrite L2; cbn [nabs nsub num_R]; rewrite Rabs_left by lra; lra).
      replace (nltb x1 x2) with true by (symmetry; apply Rltb_true; lra). change (1 + 1)%N with 2%N. change (negb (2 <=? 2)%N) with false. cbv iota. change ((2 + 2) / 2)%N with 2%N. change (vget [0; x1; x2] 2) with (Val x2). cbv iota.
      replace (nltb (nabs (nsub x2 x2)) (nlit 1 100)) with true; [reflexivity|]. symmetry. apply Rltb_true. rewrite L2. cbn [nabs nsub num_R]. unfold Rminus. rewrite Rplus_opp_r, Rabs_R0. lra.
    - intros D. unfold closest. change (usub bld (vlen [0; x1; x2]) 1) with (Val 2%N). cbv iota.
      change (vget [0; x1; x2] 2) with (Val x2). change (vget [0; x1; x2] 0) with (Val 0). cbv iota beta.
      now rewrite (proj2 (Rltb_true x2 s)) by lra.
  Qed.
  Lemma everything_ok : sel_ok everything.
  Proof. repeat split; discriminate. Qed.
  Lemma everything_accepts m : accepts everything m = true.
  Proof.
    unfold accepts, is_valid, is_radius_valid, is_cloud_valid, is_density_valid, is_particleid_valid, everything, sel_default, set_time. cbn [s_radius s_clouds s_density s_ids].
    change (vget [nneg n1] 0) with (Val (nneg (n1 : R))). change (vget [0%N] 0) with (Val 0%N). cbn [bind].
    now rewrite (proj2 (Reqb_true (nneg n1) (nneg n1)) eq_refl).
  Qed.
  Lemma quick_moves bld st dt (w : R * R) : 0 < fst w -> fst w * (8 / 1000) = dt -> snd w = 0 ->
    forall q, (q = 1%N /\ fst w * (4 / 1000) < 1 / 100 \/ q = 2%N /\ 1 / 100 <= fst w * (4 / 1000)) ->
    st = map (fun x => ts_time x) (map (restated no_change w 1) quick) ->
    exists m, start (m, nth (N.to_nat q) [(0, 0, 0); (1 / 4, 0, 0); (1, 0, 0)] (0, 0, 0)) = (0, 0, 0) /\
      moves_before_last bld st dt (restated_sel w everything) (map (restated no_change w 1) quick) =
      [(m, move no_change (nth (N.to_nat q) [(0, 0, 0); (1 / 4, 0, 0); (1, 0, 0)] (0, 0, 0)))].
  Proof.
    intros Hw Ed Ew q Hq Es.
    assert (E0 : ax w 0 = 0) by (unfold ax; rewrite Ew; ring).
    assert (E1 : ax w (4 / 1000) = fst w * (4 / 1000)) by (unfold ax; rewrite Ew; ring).
    assert (E2 : ax w (8 / 1000) = dt) by (unfold ax; rewrite Ew, Ed; ring).
    set (x1 := fst w * (4 / 1000)) in *.
    assert (St : st = [0; x1; dt]) by (rewrite Es; unfold quick; cbn [map restated ts_time]; now rewrite E0, E1, E2).
    assert (P1 : 0 < x1) by (unfold x1; nra). assert (P2 : x1 < dt) by (unfold x1; rewrite <- Ed; nra).
    assert (D : dt - x1 = x1) by (rewrite <- Ed; unfold x1; field).
    destruct (closest_three bld x1 dt (0 + dt) P1 P2) as [A [B _]]. destruct (closest_three bld x1 dt (x1 + dt) P1 P2) as [_ [_ C]].
    assert (Q : closest bld 3 [0; x1; dt] (0 + dt) = Some (Val (Some q))).
    { destruct Hq as [[-> Hq] | [-> Hq]]; [apply A | apply B]; lra. }
    assert (Ch : forall m, In m (flat_map samples (map (restated no_change w 1) quick)) -> chosen (restated_sel w everything) m = true).
    { intros m Hm. rewrite all_restated in Hm. apply in_map_iff in Hm. destruct Hm as [m0 [<- Hm]]. rewrite (chosen_restated no_change w 1 everything m0 Hw).
      unfold chosen. rewrite everything_accepts, andb_true_r. unfold timestep_valid, everything. cbn [set_time s_time fst snd].
      cbn in Hm. destruct Hm as [<- | [<- | [<- | []]]]; cbn [sm_time]; apply andb_true_iff; split; apply Rleb_true; lra. }
    unfold moves_before_last. rewrite removelast_map. unfold quick at 2. cbn [removelast map flat_map].
    unfold delayed at 1 2. cbn [restated ts_time]. rewrite St, E0, E1. change (List.length [0; x1; dt]) with 3%nat. change (@nadd R num_R) with Rplus.
    rewrite Q, C by lra. rewrite !app_nil_r.
    set (m := restated_sm no_change w 1 (mkSample 0 (0, 0, 0) (1, 0, 0) 1 0 0 1 1)).
    assert (Cm : chosen (restated_sel w everything) m = true) by (apply Ch; left; reflexivity).
    exists m. split; [unfold start, m; cbn [fst restated_sm sm_pos]; unfold no_change, move, ax; cbn [fst snd]; repeat f_equal; ring|].
    destruct Hq as [[-> Hq] | [-> Hq]]; [change (N.to_nat 1) with 1%nat | change (N.to_nat 2) with 2%nat]; cbn [nth_error map quick nth].
    all: match goal with |- context [combine ?l _] => change l with [m] end; cbn [combine map restated ts_pos filter fst]; rewrite Cm; reflexivity.
  Qed.
  Lemma move_same p : move no_change p = p.
  Proof. destruct p as [[a b] c]. unfold no_change, move, ax. cbn [fst snd]. repeat f_equal; ring. Qed.
  Lemma restated_same (L : list (timestep R)) : map (restated no_change (1, 0) 1) L = L.
  Proof.
    rewrite <- (map_id L) at 2. apply map_ext. intros x. unfold restated.
    rewrite (map_ext _ (fun p => p) move_same), map_id, (map_ext (times 1) (fun v => v)), map_id.
    - destruct x as [t p v r i0 cl de ty]. cbn [ts_time ts_pos ts_vel ts_radius ts_id ts_clouds ts_density ts_type]. f_equal. unfold ax. cbn [fst snd]. ring.
    - intros [[a b] c]. unfold times. repeat f_equal; ring.
  Qed.
  Lemma everything_same : restated_sel (1, 0) everything = everything.
  Proof. unfold restated_sel, everything, set_time. cbn [s_time fst snd]. f_equal. unfold ax. cbn [fst snd]. f_equal; ring. Qed.
  Lemma one_move bld can (g : grid R) (M : mgr R) d w dt d1 h c x q : 0 < fst w -> fst w * (8 / 1000) = dt -> snd w = 0 ->
    (q = 1%N /\ fst w * (4 / 1000) < 1 / 100 \/ q = 2%N /\ 1 / 100 <= fst w * (4 / 1000)) -> 0 <= x ->
    nth (N.to_nat q) [(0, 0, 0); (1 / 4, 0, 0); (1, 0, 0)] (0, 0, 0) = (x, 0, 0) ->
    fresh g -> inb3 (geom_cells (geo g)) c = true -> in_cell bld (geo g) c (0, 0, 0) = true ->
    aux_reads can M d (map (restated no_change w 1) quick) -> st_time (m_stats M) = map (fun x => ts_time x) (map (restated no_change w 1) quick) ->
    msd_field bld M d g (restated_sel w everything) dt = Val (d1, h) -> at3 (data h) c = x * x.
  Proof.
    intros Hw Ed Ew Hq Px Hx Fr Hc Hin A St R1.
    destruct (quick_moves bld (st_time (m_stats M)) dt w Hw Ed Ew q Hq St) as [m [Hm Em]]. rewrite Hx, move_same in Em. rewrite Hx in Hm.
    assert (Rc : Forall rect quick) by (repeat constructor).
    destruct (c45_field can bld M d _ g (restated_sel w everything) dt d1 h A ltac:(discriminate) ltac:(rewrite St; unfold vlen; now rewrite map_length)
      (rect_moved no_change w 1 quick Rc) everything_ok Fr R1) as [_ [_ H]]. specialize (H c Hc). cbv zeta in H.
    set (mq := (m, (x, 0, 0)) : sample R * v3 R). change (start mq = (0, 0, 0)) in Hm. change (moves_before_last bld (st_time (m_stats M)) dt (restated_sel w everything) (map (restated no_change w 1) quick) = [mq]) in Em. rewrite Em in H. assert (Em2 : moves_in bld g c [mq] = [mq]).
    { unfold moves_in. cbn [filter]. rewrite Hm, Hin. reflexivity. }
    rewrite Em2 in H. destruct H as [_ [_ H]]. rewrite H by discriminate. cbn [map]. rewrite Rsum_cons, Rsum_nil.
    unfold travelled. rewrite Hm. cbn [mq snd nsqrt nadd nmul nsub num_R]. change (NR (vlen [mq])) with 1.
    replace ((0 - x) * (0 - x) + (0 - 0) * (0 - 0) + (0 - 0) * (0 - 0)) with (x * x) by ring. rewrite sqrt_square by exact Px. field.
  Qed.
  Theorem c163_time_units_refuted bld can can' (g : grid R) (M M' : mgr R) d e d1 h e1 h' c :
    let ms := (1000, 0) in let slow := map (restated no_change ms 1) quick in
    fresh g -> inb3 (geom_cells (geo g)) c = true -> in_cell bld (geo g) c (0, 0, 0) = true ->
    aux_reads can M d quick -> aux_reads can' M' e slow ->
    st_time (m_stats M) = map ts_time quick -> st_time (m_stats M') = map ts_time slow ->
    msd_field bld M d g everything (8 / 1000) = Val (d1, h) ->
    msd_field bld M' e g (restated_sel ms everything) (1000 * (8 / 1000)) = Val (e1, h') ->
    at3 (data h) c = 1 / 16 /\ at3 (data h') c = 1.
  Proof.
    intros ms slow Fr Hc Hin A A' St St' R1 R2. split.
    - rewrite <- (restated_same quick) in A, St. rewrite <- everything_same in R1.
      rewrite (one_move bld can g M d (1, 0) (8 / 1000) d1 h c (1 / 4) 1%N); try assumption; cbn [fst snd]; try lra; try reflexivity. left. split; [reflexivity | lra].
    - rewrite (one_move bld can' g M' e ms (1000 * (8 / 1000)) e1 h' c 1 2%N); try assumption; unfold ms; cbn [fst snd]; try lra; try reflexivity. right. split; [reflexivity | lra].
  Qed.
End TimeUnits.

(** Concrete cases: the units of C159 meet the hypotheses; the recording [quick] and a grid of 2 x 2 x 2 cells those of the last theorem. *)
Example c163_case {TF : Trig R} st st' : st_timesteps st = 3%N -> st_timesteps st' = 3%N ->
  let slow := map (restated no_change (1000, 0) 1) quick in
  aux_reads (fun _ _ => True) (list_mgr quick st) tt quick /\ aux_reads (fun _ _ => True) (list_mgr slow st') tt slow /\
  recorded (list_mgr quick st) tt quick /\ recorded (list_mgr slow st') tt slow /\
  Forall rect quick /\ positive no_change /\ proper ((-1, 1), (-1, 1), (-1, 1)) /\ sized (2, 2, 2)%N /\
  exists g, cart_new (2, 2, 2)%N (ThreeD ((-1, 1), (-1, 1), (-1, 1))) = Val g /\
    exists c, inb3 (geom_cells (geo g)) c = true /\ in_cell Debug (geo g) c (0, 0, 0) = true.
Proof.
  intros E E' slow.
  split; [now apply list_aux|]. split; [now apply list_aux|]. split; [apply list_recorded; [discriminate | repeat constructor | now rewrite E]|].
  split; [apply list_recorded; [discriminate | repeat constructor | now rewrite E']|].
  split; [repeat constructor|]. split; [cbn; lra|]. split; [cbn; lra|]. split; [cbn; lia|].
  destruct (cart_new (2, 2, 2)%N (ThreeD ((-1, 1), (-1, 1), (-1, 1)))) as [g|] eqn:Eg; [|discriminate].
  exists g. split; [reflexivity|]. destruct (new_geo _ _ _ Eg) as [xs [ys [zs G]]].
  assert (Ok := cart_inside_ok_R Debug (mkCart (2, 2, 2)%N xs ys zs ((-1, 1), (-1, 1), (-1, 1))) ltac:(cbn; lia) ltac:(cbn; lra)).
  rewrite <- G in Ok. assert (In_ : geom_inside (geo g) (0, 0, 0) = true).
  { rewrite G. cbn [geom_inside]. unfold cart_inside, in_interval. cbn [cc_lim fst snd nan3 nisnan num_R orb negb]. rewrite !(proj2 (Rleb_true _ _)) by lra. reflexivity. }
  destruct (Ok (0, 0, 0) In_) as [c [Ec Ic]]. exists c. split; [exact Ic|]. unfold in_cell. rewrite In_, Ec. cbn [andb]. apply id3_eqb_refl.
Qed.
