(** * PropertiesParts: parts of a recording add up, and the order of the samples does not matter (C157, C158)

    [parts s s1 s2 l]: of the samples in [l], [s] chooses those that [s1] or [s2] chooses, and
    none is chosen by both.  [field_of M d g s d' h]: the call that returns the number field. *)
From Coq Require Import Reals List NArith ZArith Lia Lra Bool String Permutation ZifyBool ZifyN ZifyNat.
From Flocq Require Import Core.Core IEEE754.BinarySingleNaN.
From Verif Require Import Base BaseFacts Num F64Facts RFacts NDArray GridModel GridSpec GridFacts CartProofs CartR GridOps
  VecProofs SelModel DataModel DataSpec DataProofs DataLoad PropertiesGrid PropertiesData FunModel FunSpec FunProofs FunMgr FunField PropertiesFun FunMom FloatErr FloatSum PropertiesMean.
From Verif Require ConvSort.
Import ListNotations.
Local Open Scope list_scope.
Local Open Scope N_scope.

Section Parts.
  Context {F : Type} {NF : Num F} {TF : Trig F}.

  Definition parts (s s1 s2 : selector F) (l : list (sample F)) : Prop :=
    forall m, In m l -> chosen s m = orb (chosen s1 m) (chosen s2 m) /\ andb (chosen s1 m) (chosen s2 m) = false.

  Lemma vlen_filter_parts {A} (p p1 p2 : A -> bool) (l : list A) :
    (forall m, In m l -> p m = orb (p1 m) (p2 m) /\ andb (p1 m) (p2 m) = false) ->
    vlen (filter p l) = vlen (filter p1 l) + vlen (filter p2 l).
  Proof.
    unfold vlen. induction l as [|m l IH]; intros H; [reflexivity|].
    assert (IH' := IH (fun x Hx => H x (or_intror Hx))). destruct (H m (or_introl eq_refl)) as [E1 E2]. cbn [filter].
    rewrite E1. destruct (p1 m), (p2 m); cbn [orb andb] in *; try discriminate; cbn [List.length]; clear - IH'; lia.
  Qed.
  Lemma filter_filter {A} (p q : A -> bool) (l : list A) : filter p (filter q l) = filter (fun m => p m && q m) l.
  Proof. induction l as [|m l IH]; [reflexivity|]. cbn [filter]. destruct (q m) eqn:E; cbn [filter]; rewrite ?E; destruct (p m); cbn; now rewrite IH. Qed.

  (** The samples of the whole in a cell are those of the parts. *)
  Lemma samples_parts bld (ge : geom F) c s s1 s2 (L : list (timestep F)) : parts s s1 s2 (flat_map samples L) ->
    vlen (samples_in bld ge c (observed s L)) = vlen (samples_in bld ge c (observed s1 L)) + vlen (samples_in bld ge c (observed s2 L)).
  Proof.
    intros H. unfold samples_in, observed. rewrite !filter_filter. apply vlen_filter_parts. intros m Hm. destruct (H m Hm) as [E1 E2].
    rewrite E1. destruct (in_cell bld ge c (sm_pos m)), (chosen s1 m), (chosen s2 m); cbn in *; auto; discriminate.
  Qed.

  (** ** Which selections are parts *)
  Definition with_ids (s : selector F) (l : list N) : selector F := mkSel (s_time s) (s_radius s) (s_clouds s) (s_density s) l.

  Definition yes (r : res bool) : bool := match r with Val b => b | Panic => false end.
  Lemma chosen_ids (s : selector F) m : exists q, forall l',
    chosen (with_ids s l') m = q && yes (is_particleid_valid (with_ids s l') (nusize (sm_id m))).
  Proof.
    exists (timestep_valid s (sm_time m) && yes (is_radius_valid s (sm_radius m)) && yes (is_cloud_valid s (sm_cloud m))
               && yes (is_density_valid s (sm_density m))).
    intros l'. unfold chosen, accepts, is_valid.
    change (timestep_valid (with_ids s l') (sm_time m)) with (timestep_valid s (sm_time m)).
    change (is_radius_valid (with_ids s l') (sm_radius m)) with (is_radius_valid s (sm_radius m)).
    change (is_cloud_valid (with_ids s l') (sm_cloud m)) with (is_cloud_valid s (sm_cloud m)).
    change (is_density_valid (with_ids s l') (sm_density m)) with (is_density_valid s (sm_density m)).
    destruct (is_radius_valid s (sm_radius m)) as [[]|]; cbn [bind negb yes]; rewrite ?andb_true_r, ?andb_false_r; try reflexivity.
    destruct (is_cloud_valid s (sm_cloud m)) as [[]|]; cbn [bind negb yes]; rewrite ?andb_true_r, ?andb_false_r; try reflexivity.
    destruct (is_density_valid s (sm_density m)) as [[]|]; cbn [bind negb yes]; rewrite ?andb_true_r, ?andb_false_r; reflexivity.
  Qed.

  Lemma range_valid (s : selector F) a b i : 1 <= a -> is_particleid_valid (with_ids s [a; b]) i = Val ((a <=? i) && (i <=? b)).
  Proof. intros H. unfold is_particleid_valid. cbn [with_ids s_ids]. unfold vget, vlen. cbn. replace (a =? 0) with false by lia. reflexivity. Qed.
  (** Two neighbouring ranges of particle numbers are parts of the range they cover. *)
  Lemma parts_id_ranges (s : selector F) a b c (l : list (sample F)) : 1 <= a -> a <= b + 1 -> b <= c ->
    parts (with_ids s [a; c]) (with_ids s [a; b]) (with_ids s [b + 1; c]) l.
  Proof.
    intros Ha Hab Hbc m _. destruct (chosen_ids s m) as [q H].
    rewrite !H, !range_valid by lia. cbn [yes]. clear H.
    set (i := nusize (sm_id m)). clearbody i. clear - Ha Hab Hbc. destruct q; cbn [andb]; [|split; reflexivity]. split; lia.
  Qed.
  (** So are two lists with no number in common, of one or at least three numbers (two numbers are a range). *)
  Lemma parts_id_lists (s : selector F) (l1 l2 : list N) (l : list (sample F)) :
    vlen l1 <> 0 -> vlen l1 <> 2 -> vlen l2 <> 0 -> vlen l2 <> 2 -> 3 <= vlen (l1 ++ l2) -> ~ In 0 l1 -> ~ In 0 l2 ->
    (forall i, In i l1 -> In i l2 -> False) ->
    parts (with_ids s (l1 ++ l2)) (with_ids s l1) (with_ids s l2) l.
  Proof.
    intros N0 N2 M0 M2 Three Z1 Z2 Dj m _.
    assert (Pv : forall k, vlen k <> 0 -> vlen k <> 2 -> ~ In 0 k -> forall i,
      is_particleid_valid (with_ids s k) i = Val (existsb (fun y => (y =? i)) k)).
    { intros k K0 K2 Z i. destruct k as [|x [|y [|z k]]]; [now elim K0 | | now elim K2 |].
      - assert (B : (x =? 0) = false) by (apply N.eqb_neq; intros ->; apply Z; now left).
        change (is_particleid_valid (with_ids s [x]) i) with (if x =? 0 then Val true else Val (i =? x)).
        rewrite B. cbn [existsb]. rewrite orb_false_r. f_equal. apply N.eqb_sym.
      - assert (B : (x =? 0) = false) by (apply N.eqb_neq; intros ->; apply Z; now left).
        unfold is_particleid_valid. cbn [with_ids s_ids]. unfold vget. cbn [N.to_nat nth_error unwrap bind].
        rewrite B. unfold vlen.
        replace (N.of_nat (List.length (x :: y :: z :: k)) =? 1) with false by (cbn [List.length]; clear; lia).
        replace (N.of_nat (List.length (x :: y :: z :: k)) =? 2) with false by (cbn [List.length]; clear; lia). reflexivity. }
    destruct (chosen_ids s m) as [q H]. rewrite !H. clear H.
    rewrite !Pv; try assumption; try lia; [|intros I; apply in_app_or in I; tauto].
    rewrite existsb_app. set (i := nusize (sm_id m)).
    assert (X : existsb (fun y => y =? i) l1 && existsb (fun y => y =? i) l2 = false).
    { destruct (existsb _ l1) eqn:X1; [|reflexivity]. destruct (existsb _ l2) eqn:X2; [|reflexivity]. exfalso.
      apply existsb_exists in X1. apply existsb_exists in X2. destruct X1 as [u [U1 U2]]. destruct X2 as [v [V1 V2]].
      apply N.eqb_eq in U2. apply N.eqb_eq in V2. subst u v. exact (Dj i U1 V1). }
    destruct q; cbn [andb]; [|split; reflexivity]. split; [reflexivity | exact X].
  Qed.
End Parts.

(** ** C157, doubles: the number field of the whole is the sum of those of the parts *)
Theorem c157_counts {TF : Trig f64} (bld : build) (M : mgr f64) d L (g : grid f64) (s s1 s2 : selector f64) d1 d2 d3 h h1 h2 :
  recorded M d L -> sel_ok s -> sel_ok s1 -> sel_ok s2 -> wf_grid g -> parts s s1 s2 (flat_map samples L) ->
  numberfield bld M d g s = Val (d1, h) -> numberfield bld M d1 g s1 = Val (d2, h1) -> numberfield bld M d2 g s2 = Val (d3, h2) ->
  forall c, inb3 (geom_cells (geo g)) c = true ->
    vlen (samples_in bld (geo g) c (observed s L)) <= 2 ^ 53 ->
    is_finite (at3 (data h) c) = true /\ is_finite (at3 (data h1) c) = true /\ is_finite (at3 (data h2) c) = true /\
    B2R (at3 (data h) c) = (B2R (at3 (data h1) c) + B2R (at3 (data h2) c))%R.
Proof.
  intros Rec Sk Sk1 Sk2 W P E E1 E2 c Hc Small.
  destruct (number_cells bld M d L g s d1 h Rec Sk W E) as [Rec1 _].
  destruct (number_cells bld M d1 L g s1 d2 h1 Rec1 Sk1 W E1) as [Rec2 _].
  assert (Q := samples_parts bld (geo g) c s s1 s2 L P).
  destruct (c34_cylindrical bld M d L g s d1 h Rec Sk W E c Hc Small) as [A1 A2].
  destruct (c34_cylindrical bld M d1 L g s1 d2 h1 Rec1 Sk1 W E1 c Hc ltac:(lia)) as [B1 B2].
  destruct (c34_cylindrical bld M d2 L g s2 d3 h2 Rec2 Sk2 W E2 c Hc ltac:(lia)) as [C1 C2].
  split; [exact A1|]. split; [exact B1|]. split; [exact C1|]. rewrite A2, B2, C2, Q. apply NR_add.
Qed.
(** Two neighbouring time windows [a, b] and [b, c]: a sample exactly at [b] is in both.  The two
    number fields add up to that of [a, c] plus that of [b, b]. *)
Lemma filter_length_le {A} (p : A -> bool) (l : list A) : (List.length (filter p l) <= List.length l)%nat.
Proof. induction l as [|x l IH]; [constructor|]. cbn [filter]. destruct (p x); cbn [List.length]; clear - IH; lia. Qed.
Definition ind (b : bool) : N := if b then 1 else 0.
Lemma vlen_filter_ind {A} (p p1 p2 q : A -> bool) (l : list A) :
  (forall m, In m l -> ind (p1 m) + ind (p2 m) = ind (p m) + ind (q m)) ->
  vlen (filter p1 l) + vlen (filter p2 l) = vlen (filter p l) + vlen (filter q l).
Proof.
  unfold vlen. induction l as [|m l IH]; intros H; [reflexivity|].
  assert (IH' := IH (fun x Hx => H x (or_intror Hx))). assert (E := H m (or_introl eq_refl)). unfold ind in E. cbn [filter].
  destruct (p m), (q m), (p1 m), (p2 m); cbn [List.length]; clear - IH' E; lia.
Qed.
Lemma windows_ind (s : selector f64) (a b c : f64) m : Bleb a b = true -> Bleb b c = true ->
  ind (chosen (set_time s a b) m) + ind (chosen (set_time s b c) m) = ind (chosen (set_time s a c) m) + ind (chosen (set_time s b b) m).
Proof.
  intros Ab Bc. unfold chosen, timestep_valid.
  change (accepts (set_time s a b) m) with (accepts s m). change (accepts (set_time s b c) m) with (accepts s m).
  change (accepts (set_time s a c) m) with (accepts s m). change (accepts (set_time s b b) m) with (accepts s m).
  cbn [set_time s_time fst snd]. cbn [nleb num_f64].
  set (t := sm_time m). destruct (accepts s m); [|rewrite !andb_false_r; reflexivity]. rewrite !andb_true_r.
  destruct (Bleb t b) eqn:Tb, (Bleb b t) eqn:Bt.
  - rewrite (Bleb_trans a b t Ab Bt), (Bleb_trans t b c Tb Bc). reflexivity.
  - rewrite (Bleb_trans t b c Tb Bc). destruct (Bleb a t); reflexivity.
  - rewrite (Bleb_trans a b t Ab Bt). destruct (Bleb t c); reflexivity.
  - assert (X : Bleb a t = false \/ Bleb t c = false).
    { destruct (is_nan t) eqn:Nt.
      - left. destruct (Bleb a t) eqn:E; [|reflexivity]. apply Bleb_not_nan_r in E. congruence.
- exfalso. assert (Nb := Bleb_not_nan_r _ _ Ab). rewrite (ConvSort.Bleb_total t b Nt Nb Tb) in Bt. discriminate. }
    cbn [andb ind]. destruct X as [-> | ->]; rewrite ?andb_false_r; reflexivity.
Qed.
Theorem c157_windows {TF : Trig f64} (bld : build) (M : mgr f64) d L (g : grid f64) (s : selector f64) (a b c : f64) d1 d2 d3 d4 h h1 h2 hb :
  recorded M d L -> sel_ok s -> wf_grid g -> Bleb a b = true -> Bleb b c = true ->
  numberfield bld M d g (set_time s a c) = Val (d1, h) -> numberfield bld M d1 g (set_time s a b) = Val (d2, h1) ->
  numberfield bld M d2 g (set_time s b c) = Val (d3, h2) -> numberfield bld M d3 g (set_time s b b) = Val (d4, hb) ->
  forall i, inb3 (geom_cells (geo g)) i = true -> vlen (flat_map samples L) <= 2 ^ 53 ->
    (B2R (at3 (data h1) i) + B2R (at3 (data h2) i) = B2R (at3 (data h) i) + B2R (at3 (data hb) i))%R.
Proof.
  intros Rec Sk W Ab Bc E E1 E2 Eb i Hi Small.
  assert (S' : forall x y, sel_ok (set_time s x y)) by (intros; exact Sk).
  destruct (number_cells bld M d L g _ d1 h Rec (S' _ _) W E) as [Rec1 _].
  destruct (number_cells bld M d1 L g _ d2 h1 Rec1 (S' _ _) W E1) as [Rec2 _].
  destruct (number_cells bld M d2 L g _ d3 h2 Rec2 (S' _ _) W E2) as [Rec3 _].
  assert (Le : forall sel, vlen (samples_in bld (geo g) i (observed sel L)) <= 2 ^ 53).
  { intros sel. unfold samples_in, observed. rewrite filter_filter. refine (N.le_trans _ _ _ _ Small). unfold vlen.
    assert (X := filter_length_le (fun m => in_cell bld (geo g) i (sm_pos m) && chosen sel m) (flat_map samples L)). clear - X. lia. }
  rewrite (proj2 (c34_cylindrical bld M d L g _ d1 h Rec (S' _ _) W E i Hi (Le _))).
  rewrite (proj2 (c34_cylindrical bld M d1 L g _ d2 h1 Rec1 (S' _ _) W E1 i Hi (Le _))).
  rewrite (proj2 (c34_cylindrical bld M d2 L g _ d3 h2 Rec2 (S' _ _) W E2 i Hi (Le _))).
  rewrite (proj2 (c34_cylindrical bld M d3 L g _ d4 hb Rec3 (S' _ _) W Eb i Hi (Le _))).
  rewrite <- !NR_add. f_equal. unfold samples_in, observed. rewrite !filter_filter. apply vlen_filter_ind. intros m _.
  assert (Q := windows_ind s a b c m Ab Bc). destruct (in_cell bld (geo g) i (sm_pos m)); cbn [andb]; [exact Q | reflexivity].
Qed.
(** Two recordings one after the other. *)
Theorem c157_joined {TF : Trig f64} (bld : build) (M M1 M2 : mgr f64) d e1 e2 L1 L2 (g : grid f64) (s : selector f64) d' e1' e2' h h1 h2 :
  recorded M d (L1 ++ L2) -> recorded M1 e1 L1 -> recorded M2 e2 L2 -> sel_ok s -> wf_grid g ->
  numberfield bld M d g s = Val (d', h) -> numberfield bld M1 e1 g s = Val (e1', h1) -> numberfield bld M2 e2 g s = Val (e2', h2) ->
  forall c, inb3 (geom_cells (geo g)) c = true -> vlen (samples_in bld (geo g) c (observed s (L1 ++ L2))) <= 2 ^ 53 ->
    B2R (at3 (data h) c) = (B2R (at3 (data h1) c) + B2R (at3 (data h2) c))%R.
Proof.
  intros Rec Rec1 Rec2 Sk W E E1 E2 c Hc Small.
  assert (Q : vlen (samples_in bld (geo g) c (observed s (L1 ++ L2))) =
              vlen (samples_in bld (geo g) c (observed s L1)) + vlen (samples_in bld (geo g) c (observed s L2))).
  { unfold samples_in, observed. rewrite flat_map_app, !filter_app. unfold vlen. rewrite app_length. clear. lia. }
  rewrite (proj2 (c34_cylindrical bld M d _ g s d' h Rec Sk W E c Hc Small)).
  rewrite (proj2 (c34_cylindrical bld M1 e1 _ g s e1' h1 Rec1 Sk W E1 c Hc ltac:(lia))).
  rewrite (proj2 (c34_cylindrical bld M2 e2 _ g s e2' h2 Rec2 Sk W E2 c Hc ltac:(lia))).
  rewrite Q. apply NR_add.
Qed.

(** ** C157, ideal arithmetic: the mean velocity of the whole is that of the parts, each with the weight of its samples *)
Section Ideal.
  Context {TF : Trig R}.
  Lemma velocity_sums (bld : build) (M : mgr R) d L (g : grid R) s mode calc vmin vmax d' h :
    recorded M d L -> sel_ok s -> fresh g -> velocity_mode mode = Val calc ->
    velocityfield bld M d g s mode vmin vmax = Val (d', h) ->
    recorded M d' L /\ forall c, inb3 (geom_cells (geo g)) c = true ->
      let l := averaged bld g s calc vmin vmax L c in
      at3 (weight h) c = INR (List.length l) /\ (at3 (data h) c * at3 (weight h) c = Rsum (map (fun m => calc (sm_vel m)) l))%R.
  Proof.
    intros Rec Sk [W Fr] Em E. destruct (velocity_cells bld M d L g s mode calc vmin vmax d' h Rec Sk W Em E) as [Rc [_ [_ H]]].
    split; [exact Rc|]. intros c Hc l. destruct (H c Hc) as [B A]. rewrite (proj2 (Fr c)), count_R in B.
    assert (B' : at3 (weight h) c = INR (List.length l)).
    { rewrite B. fold l. unfold NR, vlen. rewrite nat_N_Z, <- INR_IZR_INZ. change (@n0 R num_R) with 0%R. lra. }
    split; [exact B'|]. rewrite A. fold l. rewrite B'.
    change (@nadd R num_R) with Rplus. rewrite fold_left_Rplus. change (@n0 R num_R) with 0%R. cbn [ndiv num_R].
    clear. destruct l as [|x l]; [cbn [map List.length INR]; rewrite Rsum_nil; lra|].
    field. apply not_0_INR. discriminate.
  Qed.
  Lemma Rsum_parts {A} (f : A -> R) (p p1 p2 : A -> bool) (l : list A) :
    (forall m, In m l -> p m = orb (p1 m) (p2 m) /\ andb (p1 m) (p2 m) = false) ->
    Rsum (map f (filter p l)) = (Rsum (map f (filter p1 l)) + Rsum (map f (filter p2 l)))%R.
  Proof.
    induction l as [|m l IH]; intros H; [cbn; rewrite Rsum_nil; lra|].
    assert (IH' := IH (fun x Hx => H x (or_intror Hx))). destruct (H m (or_introl eq_refl)) as [E1 E2]. cbn [filter].
    rewrite E1. destruct (p1 m), (p2 m); cbn [orb andb map] in *; try discriminate; rewrite ?Rsum_cons, IH'; lra.
  Qed.
  Lemma averaged_filter bld g s calc vmin vmax (L : list (timestep R)) c :
    averaged bld g s calc vmin vmax L c =
    filter (fun m => (vel_keep calc vmin vmax m && in_cell bld (geo g) c (sm_pos m)) && chosen s m) (flat_map samples L).
  Proof. unfold averaged, samples_in, observed. now rewrite !filter_filter. Qed.

  Theorem c157_velocity (bld : build) (M : mgr R) d L (g : grid R) (s s1 s2 : selector R) mode calc vmin vmax d1 d2 d3 h h1 h2 :
    recorded M d L -> sel_ok s -> sel_ok s1 -> sel_ok s2 -> fresh g -> velocity_mode mode = Val calc -> parts s s1 s2 (flat_map samples L) ->
    velocityfield bld M d g s mode vmin vmax = Val (d1, h) -> velocityfield bld M d1 g s1 mode vmin vmax = Val (d2, h1) ->
    velocityfield bld M d2 g s2 mode vmin vmax = Val (d3, h2) ->
    forall c, inb3 (geom_cells (geo g)) c = true ->
      (at3 (weight h) c = at3 (weight h1) c + at3 (weight h2) c)%R /\
      (at3 (data h) c * at3 (weight h) c = at3 (data h1) c * at3 (weight h1) c + at3 (data h2) c * at3 (weight h2) c)%R.
  Proof.
    intros Rec Sk Sk1 Sk2 Fr Em P E E1 E2 c Hc.
    destruct (velocity_sums bld M d L g s mode calc vmin vmax d1 h Rec Sk Fr Em E) as [Rec1 H].
    destruct (velocity_sums bld M d1 L g s1 mode calc vmin vmax d2 h1 Rec1 Sk1 Fr Em E1) as [Rec2 H1].
    destruct (velocity_sums bld M d2 L g s2 mode calc vmin vmax d3 h2 Rec2 Sk2 Fr Em E2) as [_ H2].
    destruct (H c Hc) as [W S]. destruct (H1 c Hc) as [W1 S1]. destruct (H2 c Hc) as [W2 S2]. cbv zeta in *.
    rewrite S, S1, S2, W, W1, W2, !averaged_filter.
    assert (Q : forall m, In m (flat_map samples L) ->
      (vel_keep calc vmin vmax m && in_cell bld (geo g) c (sm_pos m)) && chosen s m =
      orb ((vel_keep calc vmin vmax m && in_cell bld (geo g) c (sm_pos m)) && chosen s1 m) ((vel_keep calc vmin vmax m && in_cell bld (geo g) c (sm_pos m)) && chosen s2 m) /\
      andb ((vel_keep calc vmin vmax m && in_cell bld (geo g) c (sm_pos m)) && chosen s1 m) ((vel_keep calc vmin vmax m && in_cell bld (geo g) c (sm_pos m)) && chosen s2 m) = false).
    { intros m Hm. destruct (P m Hm) as [X Y]. rewrite X. destruct (_ && in_cell _ _ _ _), (chosen s1 m), (chosen s2 m); cbn in *; auto. }
    split; [|now apply Rsum_parts].
    assert (V := vlen_filter_parts _ _ _ _ Q). unfold vlen in V. rewrite <- plus_INR. f_equal. clear - V. lia.
  Qed.

  (** ** C158: the order of the samples *)
  Lemma Rsum_perm (l l' : list R) : Permutation l l' -> Rsum l = Rsum l'.
  Proof. induction 1; rewrite ?Rsum_cons; try lra. Qed.
  Lemma filter_perm {A} (p : A -> bool) (l l' : list A) : Permutation l l' -> Permutation (filter p l) (filter p l').
  Proof.
    induction 1 as [|x l l' _ IH|x y l|l l' l'' _ IH1 _ IH2]; cbn [filter]; try solve [constructor].
    - destruct (p x); [now constructor | exact IH].
    - destruct (p x), (p y); try constructor; reflexivity.
    - exact (perm_trans IH1 IH2).
  Qed.
  Theorem c158_velocity (bld : build) (M M' : mgr R) d e L L' (g : grid R) s mode calc vmin vmax d' e' h h' :
    recorded M d L -> recorded M' e L' -> Permutation (flat_map samples L) (flat_map samples L') ->
    sel_ok s -> fresh g -> velocity_mode mode = Val calc ->
    velocityfield bld M d g s mode vmin vmax = Val (d', h) -> velocityfield bld M' e g s mode vmin vmax = Val (e', h') ->
    forall c, inb3 (geom_cells (geo g)) c = true -> at3 (data h) c = at3 (data h') c /\ at3 (weight h) c = at3 (weight h') c.
  Proof.
    intros Rec Rec' P Sk [W Fr] Em E E' c Hc.
    destruct (velocity_cells bld M d L g s mode calc vmin vmax d' h Rec Sk W Em E) as [_ [_ [_ H]]].
    destruct (velocity_cells bld M' e L' g s mode calc vmin vmax e' h' Rec' Sk W Em E') as [_ [_ [_ H']]].
    destruct (H c Hc) as [B A]. destruct (H' c Hc) as [B' A'].
    assert (Pa : Permutation (averaged bld g s calc vmin vmax L c) (averaged bld g s calc vmin vmax L' c)).
    { rewrite !averaged_filter. now apply filter_perm. }
    assert (Wt : at3 (weight h) c = at3 (weight h') c).
    { rewrite B, B', !count_R. unfold vlen. now rewrite (Permutation_length Pa). }
    split; [|exact Wt]. rewrite A, A', Wt. f_equal. change (@nadd R num_R) with Rplus. rewrite !fold_left_Rplus. f_equal.
    apply Rsum_perm. now apply Permutation_map.
  Qed.
End Ideal.
Theorem c158_counts {TF : Trig f64} (bld : build) (M M' : mgr f64) d e L L' (g : grid f64) s d' e' h h' :
  recorded M d L -> recorded M' e L' -> Permutation (flat_map samples L) (flat_map samples L') ->
  sel_ok s -> wf_grid g -> numberfield bld M d g s = Val (d', h) -> numberfield bld M' e g s = Val (e', h') ->
  forall c, inb3 (geom_cells (geo g)) c = true -> at3 (data h) c = at3 (data h') c.
Proof.
  intros Rec Rec' P Sk W E E' c Hc.
  destruct (number_cells bld M d L g s d' h Rec Sk W E) as [_ [_ [_ H]]].
  destruct (number_cells bld M' e L' g s e' h' Rec' Sk W E') as [_ [_ [_ H']]].
  destruct (H c Hc) as [A _]. destruct (H' c Hc) as [A' _]. rewrite A, A'.
  assert (Pa : Permutation (samples_in bld (geo g) c (observed s L)) (samples_in bld (geo g) c (observed s L'))) by (now do 2 apply filter_perm).
  revert Pa. generalize (samples_in bld (geo g) c (observed s L)) as l, (samples_in bld (geo g) c (observed s L')) as l', (@n0 f64 num_f64) as w.
  clear. intros l l' w P. apply Permutation_length in P. revert l' w P.
  induction l as [|x l IH]; intros [|y l'] w P; try discriminate P; [reflexivity|]. cbn [fold_left]. apply IH. now injection P.
Qed.

(** In doubles the mean may depend on the order of the samples, but by no more than twice the
    rounding error allowed to a mean (C133). *)
Theorem c158_velocity_doubles {TF : Trig f64} (bld : build) (M M' : mgr f64) d e L L' (g : grid f64) (cg : cart_geom f64) s mode calc vmin vmax :
  recorded M d L -> recorded M' e L' -> Permutation (flat_map samples L) (flat_map samples L') ->
  sel_ok s -> fresh g -> geo g = Cart cg -> sized (cc_cells cg) -> velocity_mode mode = Val calc ->
  ordinary vmin -> ordinary vmax -> vlen (flat_map samples L) < 2 ^ 52 ->
  exists d' h e' h', velocityfield bld M d g s mode vmin vmax = Val (d', h) /\ velocityfield bld M' e g s mode vmin vmax = Val (e', h') /\
  forall c, inb3 (cc_cells cg) c = true -> let l := averaged bld g s calc vmin vmax L c in l <> [] ->
    is_finite (at3 (data h) c) = true /\ is_finite (at3 (data h') c) = true /\
    (Rabs (B2R (at3 (data h) c) - B2R (at3 (data h') c)) <=
       2 * (NR (vlen l + 1) / IZR (2 ^ 52) * Rmean (map (fun m => Rabs (B2R (calc (sm_vel m)))) l) + bpow radix2 (-1075)))%R.
Proof.
  intros Rec Rec' P Sk Fr G Sz Em O1 O2 Small.
  destruct (c133_velocity_field bld M d L g cg s mode calc vmin vmax Rec Sk Fr G Sz Em O1 O2 Small) as [d' [h [E H]]].
  assert (Small' : vlen (all_samples L') < 2 ^ 52) by (unfold all_samples, vlen in *; rewrite <- (Permutation_length P); exact Small).
  destruct (c133_velocity_field bld M' e L' g cg s mode calc vmin vmax Rec' Sk Fr G Sz Em O1 O2 Small') as [e' [h' [E' H']]].
  exists d', h, e', h'. split; [exact E|]. split; [exact E'|]. intros c Hc l Ne.
  assert (Pa : Permutation l (averaged bld g s calc vmin vmax L' c)).
  { unfold l, averaged, samples_in, observed. now do 3 apply filter_perm. }
  assert (Ne' : averaged bld g s calc vmin vmax L' c <> []) by (intros X; apply Ne; rewrite X in Pa; apply Permutation_sym, Permutation_nil in Pa; exact Pa).
  destruct (H c Hc Ne) as [F1 B1]. destruct (H' c Hc Ne') as [F2 B2]. fold l in B1. clear H H' E E'.
  set (l' := averaged bld g s calc vmin vmax L' c) in *. clearbody l l'.
  split; [exact F1|]. split; [exact F2|].
  assert (Pm : forall f : sample f64 -> R, Rmean (map f l') = Rmean (map f l)).
  { intros f. unfold Rmean. rewrite !map_length, (Permutation_length Pa). f_equal. apply Rsum_perm, Permutation_map, Permutation_sym, Pa. }
  rewrite !map_map, !Pm in B2. rewrite !map_map in B1.
  replace (vlen (map (fun m => calc (sm_vel m)) l)) with (vlen l) in B1 by (unfold vlen; now rewrite map_length).
  replace (vlen (map (fun m => calc (sm_vel m)) l')) with (vlen l) in B2 by (unfold vlen; now rewrite map_length, (Permutation_length Pa)).
  set (mu := Rmean (map (fun x : sample f64 => B2R (calc (sm_vel x))) l)) in *.
  replace (B2R (at3 (data h) c) - B2R (at3 (data h') c))%R with ((B2R (at3 (data h) c) - mu) - (B2R (at3 (data h') c) - mu))%R by ring.
  eapply Rle_trans; [apply Rabs_triang|]. rewrite Rabs_Ropp. clear - B1 B2. lra.
Qed.
(** It does depend on it: 1, 1 and 2^53 in two orders. *)
Definition one_each (vs : list f64) : list (timestep f64) :=
  map (fun v => mkTs (d 0) [(d 0, d 0, d 0)] [(v, d 0, d 0)] [d 1] [d 0] [d 0] [d 1] [d 1]) vs.
Theorem c158_bits_refuted {TF : Trig f64} : let big := f64_of_Z (2 ^ 53) in
  Permutation (flat_map samples (one_each [d 1; d 1; big])) (flat_map samples (one_each [big; d 1; d 1])) /\
  after (cart_new (2, 2, 2) (ThreeD box64)) (fun g =>
  after (velocityfield Debug (list_mgr (one_each [d 1; d 1; big]) (ex_stats 3)) tt g sel_default "x" (d 0) big) (fun r1 =>
  after (velocityfield Debug (list_mgr (one_each [big; d 1; d 1]) (ex_stats 3)) tt g sel_default "x" (d 0) big) (fun r2 =>
    ~ same (at3 (data (snd r1)) (0, 0, 0)) (at3 (data (snd r2)) (0, 0, 0))))).
Proof.
  split.
  - cbn [one_each map flat_map samples rows app ts_time ts_pos ts_vel ts_radius ts_clouds ts_density ts_id ts_type].
    eapply perm_trans; [apply perm_skip, perm_swap|]. apply perm_swap.
  - vm_compute. discriminate.
Qed.

(** A concrete case of C157 and C158: particle 1 and particle 2 of a recording. *)
Definition two_data : list (timestep f64) :=
  map (fun '(t, q) => mkTs (d t) [(d 0, d 0, d 0); q] [(d 1, d 0, d 0); (d 0, d 2, d 0)] [d 1; d 1] [d 1; d 2] [d 0; d 1] [d 0; d 0] [d 1; d 2])
    [(0%Z, (d 1, d 1, d 1)); (1%Z, (d 5, d 1, d 1))].
Example c157_case {TF : Trig f64} :
  parts (with_ids (sel_default (F := f64)) [1; 2]) (with_ids sel_default [1; 1]) (with_ids sel_default [2; 2]) (flat_map samples two_data) /\
  after (cart_new (2, 2, 2) (ThreeD box64)) (fun g =>
  after (numberfield Debug (list_mgr two_data (ex_stats 2)) tt g (with_ids sel_default [1; 2])) (fun r =>
  after (numberfield Debug (list_mgr two_data (ex_stats 2)) tt g (with_ids sel_default [1; 1])) (fun r1 =>
  after (numberfield Debug (list_mgr two_data (ex_stats 2)) tt g (with_ids sel_default [2; 2])) (fun r2 =>
    same (at3 (data (snd r)) (0, 0, 0)) (d 2) /\ same (at3 (data (snd r1)) (0, 0, 0)) (d 2) /\ same (at3 (data (snd r2)) (0, 0, 0)) (d 0) /\
    same (at3 (data (snd r)) (1, 1, 1)) (d 1) /\ same (at3 (data (snd r2)) (1, 1, 1)) (d 1))))).
Proof.
  split; [exact (parts_id_ranges (F := f64) sel_default 1 1 2 _ ltac:(lia) ltac:(lia) ltac:(lia))|].
  vm_compute. repeat split; reflexivity.
Qed.
