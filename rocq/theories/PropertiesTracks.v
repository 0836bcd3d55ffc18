(** * PropertiesTracks: from the original file to trajectories and mean velocities (C169)

    What extract, mean_velocity_showcase and vectorfield answer about a converted and opened file, in
    terms of the lines of the original file, at every point of a session. *)
From Coq Require Import Reals List NArith ZArith Bool Lia Lra String Permutation Sorted ZifyBool ZifyN ZifyNat.
From Flocq Require Import Core.Core IEEE754.BinarySingleNaN.
From Verif Require Import Base BaseFacts Num F64Facts RFacts NDArray GridModel GridSpec GridFacts CartProofs VecProofs SelModel PropertiesSel DataModel DataSpec DataProofs DataLoad PropertiesGrid PropertiesData FunModel FunSpec FunProofs FunMgr FunField PropertiesFun FunMom FunTemp MixModel CondModel FunExtract PyModel PyGridModel PropertiesPyGrid FunRefine SessionModel SessionSpec SessionProofs PropertiesSession
  ConvModel ConvSort ConvCsv PropertiesCsv ConvVtk ConvIds ConvMulti FunTrack FunCirc FunCirc2 ConvIdChain PropertiesMulti PropertiesPipeline PropertiesMean PropertiesWrap.
Local Open Scope string_scope.
Local Open Scope list_scope.

Section Tracks.
  Context {TF : Trig f64} (bld : build).

  (** The recording of one particle: times, positions, velocities. *)
  Definition track (L : list (timestep f64)) (T : list f64) (P V : list (v3 f64)) : Prop :=
    vlen L = vlen T /\ vlen P = vlen T /\ vlen V = vlen T /\
    forall k x, at_ L k x -> exists t p v, at_ T k t /\ at_ P k p /\ at_ V k v /\ ts_time x = t /\ ts_pos x = [p] /\ ts_vel x = [v].
  Lemma track_rows L T P V : Forall rect L -> track L T P V ->
    map (fun x => map (fun m => (sm_time m, sm_pos m, sm_vel m)) (samples x)) L = map (fun q => [q]) (combine (combine T P) V).
  Proof.
    intros Rc [V1 [V2 [V3 H]]]. apply (at_ext _ _ (vlen T)).
    - unfold vlen in *. rewrite map_length. lia.
    - unfold vlen in *. rewrite map_length, !combine_length. lia.
    - intros k Hk. destruct (lt_at L k ltac:(lia)) as [x Hx]. destruct (H k x Hx) as [t [p [v [Ht [Hp [Hv [Et [Ep Ev]]]]]]]].
      exists [(t, p, v)]. split.
      + apply at_map. exists x. split; [exact Hx|]. assert (Rx : rect x) by (rewrite Forall_forall in Rc; apply Rc; exact (nth_error_In _ _ Hx)).
        assert (Ln := samples_length x Rx). rewrite Ep in Ln.
        destruct (samples x) as [|m [|m2 r]] eqn:Es; cbn in Ln; try (unfold vlen in Ln; cbn in Ln; lia).
        assert (A : at_ (samples x) 0 m) by (rewrite Es; reflexivity). destruct (samples_at x 0 m Rx A) as [B1 [B2 [B3 _]]].
        rewrite Ep in B2. rewrite Ev in B3. unfold at_ in B2, B3. cbn in B2, B3. injection B2 as B2. injection B3 as B3. cbn [map]. now rewrite B1, <- B2, <- B3, Et.
      + apply at_map. exists (t, p, v). split; [|reflexivity]. unfold at_ in *. revert Ht Hp Hv. generalize (N.to_nat k) as n. clear. revert P V.
        induction T as [|a T IH]; intros P V n; [destruct n; discriminate|]. destruct P as [|b P]; [destruct n; discriminate|]. destruct V as [|c V]; [destruct n; discriminate|].
        destruct n as [|n]; cbn [combine nth_error]; [congruence|]. apply IH.
  Qed.

  (** ** Single-particle csv files *)
  (** What is recorded is what was written, wherever a session has got to. *)
  Theorem c169_csv_recorded fit powf raw columns vel interp radius ss pf h T P V :
    csv_converter fit powf bld raw columns vel interp radius ss = Val (pf, h) -> holds pf T P V -> T <> [] -> (vlen T <= 2 ^ 53)%N ->
    exists d0, dm_new bld (p_load pf) (pf_timesteps pf) = Val d0 /\
      forall d, reached (p_mgr bld pf (open_stats h)) (p_touch bld (p_load pf) (pf_timesteps pf)) (pf_timesteps pf) d0 d ->
      exists L, recorded (p_mgr bld pf (open_stats h)) d L /\ track L T P V.
  Proof.
    intros E H Ne Ln. assert (OK := c55_file _ _ _ _ _ _ _ _ _ _ _ E _ _ _ H Ne Ln). destruct (c54_header _ _ _ _ _ _ _ _ _ _ _ E _ _ _ H) as [_ [Ht _]].
    destruct H as [Np [Lt [Lp [Lv [g [Gr [Gt [Gp Gv]]]]]]]].
    destruct (new_ok bld (p_load pf) (pf_timesteps pf) (p_shows pf) (p_nt pf OK) (p_ld pf OK)) as [d0 [E0 _]]. exists d0. split; [exact E0|]. intros d Rd.
    assert (Nt : st_timesteps (open_stats h) = pf_timesteps pf) by (cbn [open_stats st_timesteps]; congruence).
    destruct (c118_p_recorded bld pf (open_stats h) d0 d OK Nt E0 Rd) as [L [VL [HL Rec]]]. exists L. split; [exact Rec|].
    split; [unfold vlen in *; congruence|]. split; [unfold vlen in *; congruence|]. split; [unfold vlen in *; congruence|]. intros k x Hx.
    destruct (proj1 (HL k x) Hx) as [Lk [[g' [Gr' [l [Hl Hxt]]]] [Vp [Vv [_ [_ [_ [_ [_ S]]]]]]]]].
    assert (g' = g) by congruence. subst g'. assert (l = T) by congruence. subst l.
    destruct (S 0%N ltac:(lia)) as [g' [p [v [r [de [ty [G' [A1 [[lp [Hlp A2]] [B1 [[lv [Hlv B2]] _]]]]]]]]]]].
    assert (g' = g) by congruence. subst g'. assert (lp = P) by congruence. assert (lv = V) by congruence. subst lp lv.
    exists (ts_time x), p, v. split; [exact Hxt|]. split; [exact A2|]. split; [exact B2|]. split; [reflexivity|].
    assert (One : forall (A : Type) (q : list A) a, vlen q = pf_nparticles pf -> at_ q 0 a -> q = [a]).
    { intros A q a Vq Hq. rewrite Np in Vq. destruct q as [|b [|c q]]; [discriminate | unfold at_ in Hq; cbn in Hq; congruence | rewrite !vlen_cons in Vq; lia]. }
    split; now apply One.
  Qed.
  (** The trajectory extracted for the particle: the lines written, from [a] up to but without [b]. *)
  Theorem c169_csv_trajectory fit powf raw columns vel interp radius ss pf h T P V a b :
    csv_converter fit powf bld raw columns vel interp radius ss = Val (pf, h) -> holds pf T P V -> T <> [] -> (vlen T <= 2 ^ 53)%N ->
    (a <= b)%N -> (b < vlen T)%N ->
    exists d0, dm_new bld (p_load pf) (pf_timesteps pf) = Val d0 /\
      forall d, reached (p_mgr bld pf (open_stats h)) (p_touch bld (p_load pf) (pf_timesteps pf)) (pf_timesteps pf) d0 d ->
      exists d' rows, extract bld (p_mgr bld pf (open_stats h)) d 0 a b = Val (d', rows) /\ vlen rows = (b - a)%N /\
        forall i t x y z u v w, (i < b - a)%N -> at_ T (a + i) t -> at_ P (a + i) (x, y, z) -> at_ V (a + i) (u, v, w) ->
          at_ rows i [t; x; y; z; u; v; w].
  Proof.
    intros E H Ne Ln Hab Hb. destruct (c169_csv_recorded _ _ _ _ _ _ _ _ _ _ _ _ _ E H Ne Ln) as [d0 [E0 Q]]. exists d0. split; [exact E0|]. intros d Rd.
    destruct (Q d Rd) as [L [Rec [V1 [V2 [V3 Tr]]]]].
    destruct (c46_rows bld _ d L 0 a b Rec Hab ltac:(lia) ltac:(lia)) as [d' [rows [Er [_ [Vr Hr]]]]].
    { intros t x _ Hx. destruct (Tr t x Hx) as [? [? [? [_ [_ [_ [_ [-> _]]]]]]]]. reflexivity. }
    exists d', rows. split; [exact Er|]. split; [exact Vr|]. intros i t x y z u v w Hi Ht Hp Hv.
    destruct (lt_at L (a + i) ltac:(lia)) as [X HX]. destruct (Tr _ _ HX) as [t' [p' [v' [Ht' [Hp' [Hv' [Et [Ep Ev]]]]]]]].
    assert (Q1 : t' = t) by (unfold at_ in *; congruence). assert (Q2 : p' = (x, y, z)) by (unfold at_ in *; congruence). assert (Q3 : v' = (u, v, w)) by (unfold at_ in *; congruence).
    assert (Et1 : ts_time X = t) by congruence. rewrite Q3 in Ev. rewrite Q2 in Ep. clear Et. rename Et1 into Et.
    assert (Rx : rect X) by (apply (proj1 (Forall_forall rect L) (proj2 (proj2 Rec))); exact (nth_error_In _ _ HX)).
    destruct (lt_at (samples X) 0) as [m Hm]; [rewrite samples_length, Ep by exact Rx; reflexivity|].
    destruct (samples_at X 0 m Rx Hm) as [B1 [B2 [B3 _]]]. rewrite Ep in B2. rewrite Ev in B3. unfold at_ in B2, B3. cbn in B2, B3. injection B2 as B2. injection B3 as B3.
    assert (Row : row_of m = [t; x; y; z; u; v; w]) by (unfold row_of; now rewrite B1, <- B2, <- B3, Et).
    rewrite <- Row. exact (Hr i X m Hi HX Hm).
  Qed.
  (** The mean speed: that of the velocities written. *)
  Theorem c169_csv_mean_speed fit powf raw columns vel interp radius ss pf h T P V :
    csv_converter fit powf bld raw columns vel interp radius ss = Val (pf, h) -> holds pf T P V -> T <> [] -> (vlen T < 2 ^ 52)%N ->
    Forall (fun t => is_finite t = true) T -> (forall v, In v V -> slow v) ->
    exists d0, dm_new bld (p_load pf) (pf_timesteps pf) = Val d0 /\
      forall d, reached (p_mgr bld pf (open_stats h)) (p_touch bld (p_load pf) (pf_timesteps pf)) (pf_timesteps pf) d0 d ->
      exists d' m, mean_velocity_showcase bld (p_mgr bld pf (open_stats h)) d sel_default = Val (d', m) /\ is_finite m = true /\
        let mean := Rmean (map exact_speed V) in
        (Rabs (B2R m - mean) <= NR (vlen V + 9) / IZR (2 ^ 52) * mean + bpow radix2 (-530))%R.
  Proof.
    intros E H Ne Ln Fin Sl. destruct (c169_csv_recorded _ _ _ _ _ _ _ _ _ _ _ _ _ E H Ne ltac:(lia)) as [d0 [E0 Q]]. exists d0. split; [exact E0|]. intros d Rd.
    destruct (Q d Rd) as [L [Rec [V1 [V2 [V3 Tr]]]]].
    assert (W : in_window sel_default L = V).
    { assert (X : map (fun x => if timestep_valid sel_default (ts_time x) then ts_vel x else []) L = map (fun v => [v]) V).
      { apply (at_ext _ _ (vlen T)); [unfold vlen in *; now rewrite map_length | unfold vlen in *; now rewrite map_length|].
        intros k Hk. destruct (lt_at L k ltac:(lia)) as [x Hx]. destruct (Tr k x Hx) as [t [p [v [Ht [_ [Hv [Et [_ Ev]]]]]]]]. exists [v]. split.
        - apply at_map. exists x. split; [exact Hx|]. rewrite Et, Ev. rewrite Forall_forall in Fin.
          now rewrite c27_default_accepts_every_finite_time by (apply Fin; exact (nth_error_In _ _ Ht)).
        - apply at_map. exists v. now split. }
      unfold in_window. rewrite flat_map_concat_map, X. clear. induction V as [|v V IH]; [reflexivity|]. cbn [map concat app]. now rewrite IH. }
    assert (R := c133_mean_speed bld _ d L sel_default Rec). cbv zeta in R. rewrite W in R.
    destruct R as [d' [m [Er [Fm Hm]]]]; [intros ->; destruct T; [contradiction | discriminate V3] | lia | exact Sl|]. exists d', m. auto.
  Qed.
  (** The mean velocity in a cell: that of the velocities written with positions in it. *)
  Theorem c169_csv_vectors fit powf raw columns vel interp radius ss pf h T P V cells lm g :
    csv_converter fit powf bld raw columns vel interp radius ss = Val (pf, h) -> holds pf T P V -> T <> [] -> (vlen T < 2 ^ 52)%N ->
    Forall (fun t => is_finite t = true) T -> (forall x y z, In (x, y, z) V -> ordinary x /\ ordinary y /\ ordinary z) ->
    sized cells -> cart_new cells (ThreeD lm) = Val g ->
    exists d0, dm_new bld (p_load pf) (pf_timesteps pf) = Val d0 /\
      forall d, reached (p_mgr bld pf (open_stats h)) (p_touch bld (p_load pf) (pf_timesteps pf)) (pf_timesteps pf) d0 d ->
      exists d' v, vectorfield bld (p_mgr bld pf (open_stats h)) d g sel_default = Val (d', v) /\
      forall k c, (k <= 2)%N -> inb3 cells c = true ->
        let l := filter (fun pv => in_cell bld (geo g) c (fst pv)) (combine P V) in l <> [] ->
        mean_close (at3 (data (comp k v)) c) (map (fun pv => v3i k (snd pv)) l).
  Proof.
    intros E H Ne Ln Fin Od Sz Eg. destruct (c169_csv_recorded _ _ _ _ _ _ _ _ _ _ _ _ _ E H Ne ltac:(lia)) as [d0 [E0 Q]]. exists d0. split; [exact E0|]. intros d Rd.
    destruct (Q d Rd) as [L [Rec Tr]]. assert (Rows := track_rows L T P V (proj2 (proj2 Rec)) Tr). destruct Tr as [V1 [V2 [V3 Tr]]].
    destruct (cart_new_geo _ _ _ Eg) as [cg [G [_ Cc]]].
    assert (All : map (fun m => (sm_pos m, sm_vel m)) (flat_map samples L) = combine P V).
    { assert (X : map (fun m => (sm_time m, sm_pos m, sm_vel m)) (flat_map samples L) = combine (combine T P) V).
      { rewrite flat_map_concat_map, concat_map, map_map, Rows. clear. induction (combine (combine T P) V) as [|q l IH]; [reflexivity|]. cbn [map concat app]. now rewrite IH. }
      transitivity (map (fun q : f64 * v3 f64 * v3 f64 => (snd (fst q), snd q)) (combine (combine T P) V)); [rewrite <- X, map_map; reflexivity|].
      clear - V2 V3. unfold vlen in *. assert (L1 : length T = length P) by lia. assert (L2 : length P = length V) by lia. clear V2 V3. revert P V L1 L2.
      induction T as [|t T IH]; intros [|p P] [|v V] L1 L2; try discriminate; [reflexivity|]. cbn [combine map fst snd]. f_equal. apply IH; [now injection L1 | now injection L2]. }
    assert (FinL : Forall (fun x => is_finite (ts_time x) = true) L).
    { apply Forall_forall. intros x Hx. apply In_nth_error in Hx. destruct Hx as [k Hk]. destruct (Tr (N.of_nat k) x) as [t [p [v [Ht [_ [_ [Et _]]]]]]]; [unfold at_; now rewrite Nat2N.id|].
      rewrite Forall_forall in Fin. cbv beta. change (is_finite (ts_time x : f64) = true). assert (X := Fin t (nth_error_In _ _ Ht)). change (ts_time x = t :> f64) in Et. now rewrite Et. }
    assert (Obs := all_observed L FinL).
    assert (Vec : forall c, map (fun m => (sm_pos m, sm_vel m)) (vectors bld g sel_default L c) = filter (fun pv => in_cell bld (geo g) c (fst pv)) (combine P V)).
    { intros c. unfold vectors, samples_in. rewrite Obs, <- All. generalize (flat_map samples L) as l. induction l as [|m l IH]; [reflexivity|]. cbn [map filter fst].
      destruct (in_cell bld (geo g) c (sm_pos m)) eqn:I; [|exact IH]. cbn [filter].
      assert (K : pos_keep m = true).
      { unfold pos_keep. unfold in_cell in I. rewrite G in I. apply andb_true_iff in I. destruct I as [I _]. cbn [geom_inside] in I. unfold cart_inside in I.
        destruct (sm_pos m) as [[a b] e]. destruct (cc_lim cg) as [[? ?] ?]. unfold nan3. destruct (nisnan a || nisnan b || nisnan e); [discriminate | reflexivity]. }
      rewrite K. cbn [map]. now rewrite IH. }
    destruct (c133_vector_field bld _ d L g cg sel_default Rec ltac:(repeat split; discriminate) (new_fresh cells (ThreeD lm) true g (or_introl Eg)) G ltac:(now rewrite Cc)) as [d' [v [Er Hv]]].
    - intros m Hm. assert (I : In (sm_pos m, sm_vel m) (combine P V)) by (rewrite <- All; apply (in_map (fun m => (sm_pos m, sm_vel m))); exact Hm).
      apply in_combine_r in I. destruct (sm_vel m) as [[x y] z]. now apply Od.
    - unfold all_samples. assert (X := f_equal (@List.length _) All). rewrite map_length, combine_length in X. unfold vlen in *. lia.
    - exists d', v. split; [exact Er|]. intros k c Hk Hc l Nl. specialize (Hv k c Hk ltac:(now rewrite Cc)). cbv zeta in Hv.
      assert (Em : map (fun m => v3i k (sm_vel m)) (vectors bld g sel_default L c) = map (fun pv => v3i k (snd pv)) l) by (unfold l; rewrite <- Vec, map_map; reflexivity).
      rewrite Em in Hv. apply Hv. intros Z. apply Nl. unfold l. rewrite <- Vec, Z. reflexivity.
  Qed.

  (** The circulation times: from every first crossing of three to the third, where a crossing lies between two lines that follow
      each other (the last line left out) and its time is that of the second. *)
  Definition across (axis : N) (b : f64) (p q : v3 f64) : bool :=
    match v3get p axis, v3get q axis with Val x, Val y => nltb (nmul (nsub y b) (nsub x b)) n0 | _, _ => false end.
  Fixpoint cross_times (axis : N) (b : f64) (p : v3 f64) (l : list (f64 * v3 f64)) : list f64 :=
    match l with (t, q) :: r => (if across axis b p q then [t] else []) ++ cross_times axis b q r | [] => [] end.
  Definition all_cross_times axis b (l : list (f64 * v3 f64)) : list f64 :=
    match removelast l with (_, p) :: r => cross_times axis b p r | [] => [] end.
  Definition one_sample (x : timestep f64) (tp : f64 * v3 f64) : Prop :=
    exists m, samples x = [m] /\ sm_time m = fst tp /\ sm_pos m = snd tp /\ sm_id m = nofN 0 /\ ts_time x = fst tp.
  Lemma thirds_map {A B} (g : A -> B) l : thirds (map g l) = map (fun ac => (g (fst ac), g (snd ac))) (thirds l).
  Proof. induction l as [|a|a c|a c e r IH] using thirds_ind; try reflexivity. cbn [map thirds]. now rewrite IH. Qed.
  Lemma moves_cross axis b r : forall x tp rl, one_sample x tp -> Forall2 one_sample r rl ->
    map cross_time (filter (crossing axis b) (flat_map (move1 sel_default 0) (pairs x r))) = cross_times axis b (snd tp) rl.
  Proof.
    induction r as [|y r IH]; intros x tp rl Hx Hr; inversion Hr as [|? [t q] ? rl' Hy Hr']; subst; [reflexivity|].
    cbn [pairs flat_map cross_times]. rewrite filter_app, map_app, (IH y (t, q) rl' Hy Hr'). f_equal.
    destruct Hx as [m [Sx [_ [Px [Ix _]]]]], Hy as [m' [Sy [Ty [Py [Iy _]]]]]. cbn [fst snd] in *. unfold move1. cbn [fst snd]. change (N.to_nat 0) with 0%nat. rewrite Sx, Sy. cbn [nth_error].
    assert (Ac : accepts sel_default m' = true) by (unfold accepts; now rewrite c27_default_accepts_all).
    assert (Eq : neqb (sm_id m') (sm_id m) = true) by (rewrite Ix, Iy; vm_compute; reflexivity). rewrite Ac, Eq. cbn [andb filter].
    unfold crossing, across. cbn [fst snd]. rewrite Px, Py.
    destruct (v3get q axis) as [qa|]; [|destruct (v3get (snd tp) axis); reflexivity]. destruct (v3get (snd tp) axis) as [pa|]; [|reflexivity].
    destruct (nltb _ _); [|reflexivity]. cbn [map]. unfold cross_time. cbn [snd]. now rewrite Ty.
  Qed.
  Theorem c169_csv_circulation fit powf raw columns vel interp radius ss pf h T P V axis b :
    csv_converter fit powf bld raw columns vel interp radius ss = Val (pf, h) -> holds pf T P V -> T <> [] -> (vlen T <= 2 ^ 53)%N ->
    Forall (fun t => is_finite t = true) T -> within_range (p_mgr bld pf (open_stats h)) axis b ->
    exists d0, dm_new bld (p_load pf) (pf_timesteps pf) = Val d0 /\
      forall d, reached (p_mgr bld pf (open_stats h)) (p_touch bld (p_load pf) (pf_timesteps pf)) (pf_timesteps pf) d0 d ->
      exists d' out, circulation_time bld (p_mgr bld pf (open_stats h)) d sel_default axis b = Val (d', out) /\
        Permutation out (map (fun ac : f64 * f64 => nsub (snd ac) (fst ac)) (thirds (all_cross_times axis b (combine T P)))).
  Proof.
    intros E H Ne Ln Fin Wr. assert (OK := c55_file _ _ _ _ _ _ _ _ _ _ _ E _ _ _ H Ne Ln). destruct (c54_header _ _ _ _ _ _ _ _ _ _ _ E _ _ _ H) as [Hnp [Ht _]].
    destruct H as [Np [Lt [Lp [Lv [g [Gr [Gt [Gp Gv]]]]]]]].
    destruct (new_ok bld (p_load pf) (pf_timesteps pf) (p_shows pf) (p_nt pf OK) (p_ld pf OK)) as [d0 [E0 _]]. exists d0. split; [exact E0|]. intros d Rd.
    assert (Nt : st_timesteps (open_stats h) = pf_timesteps pf) by (cbn [open_stats st_timesteps]; congruence).
    destruct (c118_p_recorded bld pf (open_stats h) d0 d OK Nt E0 Rd) as [L [VL [HL Rec]]].
    assert (Rc : Forall rect L) by exact (proj2 (proj2 Rec)). rewrite Forall_forall in Rc.
    assert (One : forall k x, at_ L k x -> vlen (ts_pos x) = 1%N /\ exists tp, at_ (combine T P) k tp /\ one_sample x tp).
    { intros k x Hx. destruct (proj1 (HL k x) Hx) as [Lk [[g' [Gr' [l [Hl Hxt]]]] [Vp [Vv [_ [_ [_ [_ [_ S]]]]]]]]].
      assert (g' = g) by congruence. subst g'. assert (l = T) by congruence. subst l. split; [congruence|].
      destruct (S 0%N ltac:(lia)) as [g' [p [v [r [de [ty [G' [A1 [[lp [Hlp A2]] [_ [_ [_ [_ [_ [_ [_ [_ [A3 _]]]]]]]]]]]]]]]]]].
      assert (g' = g) by congruence. assert (lp = P) by congruence. subst g' lp. exists (ts_time x, p). split.
      { unfold at_ in *. revert Hxt A2. generalize (N.to_nat k) as n. generalize (ts_time x) as t. clear. revert P. induction T as [|a T IH]; intros P t n; [destruct n; discriminate|].
        destruct P as [|b P]; [destruct n; discriminate|]. destruct n as [|n]; cbn [combine nth_error]; [congruence|]. apply IH. }
      assert (Rx : rect x) by (apply Rc; exact (nth_error_In _ _ Hx)). assert (Sl := samples_length x Rx). rewrite Vp, Np in Sl.
      destruct (samples x) as [|m [|m2 q]] eqn:Es; [discriminate | | rewrite !vlen_cons in Sl; lia]. assert (Hm : at_ (samples x) 0 m) by (rewrite Es; reflexivity).
      destruct (samples_at x 0 m Rx Hm) as [B1 [B2 [_ B4]]]. exists m. split; [exact Es|]. cbn [fst snd].
      assert (Y : forall (A : Type) (o : option A) e g, o = Some e -> o = Some g -> e = g) by (intros; congruence).
      split; [exact B1|]. split; [exact (Y _ _ _ _ B2 A1)|]. split; [|reflexivity]. decompose [and] B4. match goal with Q : at_ (ts_id x) 0 _ |- _ => exact (Y _ _ _ _ Q A3) end. }
    assert (F2 : Forall2 one_sample L (combine T P)).
    { assert (Lc : length L = length (combine T P)) by (rewrite combine_length; unfold vlen in *; lia).
      assert (Q : forall n x, nth_error L n = Some x -> exists tp, nth_error (combine T P) n = Some tp /\ one_sample x tp).
      { intros n x Hn. destruct (One (N.of_nat n) x) as [_ [tp [Q1 Q2]]]; [unfold at_; now rewrite Nat2N.id|]. exists tp. unfold at_ in Q1. rewrite Nat2N.id in Q1. auto. }
      clear - Lc Q. revert Lc Q. generalize (combine T P). induction L as [|x L IH]; intros [|c l] Lc Q; try discriminate; [constructor|]. constructor.
      - destruct (Q 0%nat x eq_refl) as [tp [Q1 Q2]]. cbn in Q1. injection Q1 as ->. exact Q2.
      - apply IH; [now injection Lc|]. intros n y Hy. exact (Q (S n) y Hy). }
    destruct (c47_returns bld _ d sel_default axis b L 1 Rec ltac:(repeat split; discriminate) Wr) as [d' [out Er]].
    { apply Forall_forall. intros x Hx. apply In_nth_error in Hx. destruct Hx as [n Hn]. apply (One (N.of_nat n)). unfold at_. now rewrite Nat2N.id. }
    { cbn [p_mgr m_stats open_stats st_nparticles]. lia. }
    exists d', out. split; [exact Er|]. destruct (c47_times bld _ d sel_default axis b L d' out Rec ltac:(repeat split; discriminate) Er) as [_ Pm].
    assert (Enp : st_nparticles (m_stats (p_mgr bld pf (open_stats h))) = 1%N) by (cbn [p_mgr m_stats open_stats st_nparticles]; congruence). rewrite Enp in Pm.
    change (range 0 (1 + 1)) with [0%N; 1%N] in Pm. cbn [flat_map] in Pm. rewrite app_nil_r in Pm.
    assert (Z : crossings sel_default axis b L 1 = []).
    { unfold crossings, moves. assert (Q : forall l, Forall (fun xy => exists tp, one_sample (snd xy) tp) l -> flat_map (move1 sel_default 1) l = []).
      { induction 1 as [|[x y] l [tp [m [Hs _]]] _ IH]; [reflexivity|]. cbn [flat_map]. rewrite IH, app_nil_r. unfold move1. cbn [fst snd] in *. rewrite Hs. change (N.to_nat 1) with 1%nat. destruct (nth_error (samples x) 1); reflexivity. }
      rewrite Q; [reflexivity|]. apply Forall_forall. intros [x y] Hxy. apply compared_in in Hxy. cbn [snd]. destruct Hxy as [_ Hy].
      assert (Iy : In y L) by tauto. apply In_nth_error in Iy. destruct Iy as [n Hn]. destruct (One (N.of_nat n) y) as [_ [tp [_ Q2]]]; [unfold at_; now rewrite Nat2N.id|]. now exists tp. }
    rewrite Z in Pm. cbn [map thirds] in Pm. rewrite app_nil_r in Pm.
    assert (C : map cross_time (crossings sel_default axis b L 0) = all_cross_times axis b (combine T P)).
    { assert (Fc : Forall (fun tp => is_finite (fst tp) = true) (combine T P)).
      { apply Forall_forall. intros [t p] I. cbn [fst]. apply in_combine_l in I. rewrite Forall_forall in Fin. now apply Fin. }
      unfold crossings, moves, all_cross_times, compared. revert F2 Fc. generalize (combine T P). clear. intros l F2 Fc.
      destruct F2 as [|x [t p] r rl Hx Hr]; [reflexivity|]. inversion Fc as [|? ? _ Fr]; subst.
      assert (Hr' : Forall2 one_sample (removelast r) (removelast rl)).
      { clear - Hr. induction Hr as [|a c r rl Ha Hr IH]; [constructor|]. destruct Hr as [|a' c' r rl Ha' Hr]; [constructor|].
        change (removelast (a :: a' :: r)) with (a :: removelast (a' :: r)). change (removelast (c :: c' :: rl)) with (c :: removelast (c' :: rl)). now constructor. }
      assert (Fl : filter (fun y => timestep_valid sel_default (ts_time y)) (removelast r) = removelast r).
      { assert (Fr' : Forall (fun tp => is_finite (fst tp) = true) (removelast rl)).
        { apply Forall_forall. intros tp I. rewrite Forall_forall in Fr. apply Fr. clear - I. induction rl as [|a l IH]; [destruct I|]. destruct l as [|a' l]; [destruct I|].
          change (removelast (a :: a' :: l)) with (a :: removelast (a' :: l)) in I. destruct I as [->|I]; [now left | right; now apply IH]. }
        clear - Hr' Fr'. induction Hr' as [|y tp l l' Hy _ IH]; [reflexivity|]. inversion Fr' as [|? ? F1 F2]; subst. cbn [filter]. destruct Hy as [m [_ [_ [_ [_ Et]]]]].
        assert (Tv : timestep_valid sel_default (ts_time y) = true) by (apply c27_default_accepts_every_finite_time; rewrite Et; exact F1). rewrite Tv. f_equal. now apply IH. }
      rewrite Fl, (moves_cross axis b _ x (t, p) _ Hx Hr'). cbn [snd]. destruct Hr as [|a c r rl Ha Hr]; [reflexivity|].
      change (removelast ((t, p) :: c :: rl)) with ((t, p) :: removelast (c :: rl)). reflexivity. }
    rewrite <- C, thirds_map, map_map. exact Pm.
  Qed.

  (** The circulation times between two boundaries: the round trips of the passages that the lines make, in line order, a passage
      having the time of the second of its two lines; the last line is left out. *)
  Fixpoint line_passages (axis : N) (b0 b1 : f64) (p : v3 f64) (l : list (f64 * v3 f64)) : list (passage * f64) :=
    match l with
    | (t, q) :: r => match v3get q axis, v3get p axis with Val x, Val y => map (fun e => (e, t)) (passages b0 b1 x y) | _, _ => [] end ++ line_passages axis b0 b1 q r
    | [] => []
    end.
  Definition all_passages axis b0 b1 (l : list (f64 * v3 f64)) : list (passage * f64) :=
    match removelast l with (_, p) :: r => line_passages axis b0 b1 p r | [] => [] end.
  Lemma moves_passages axis b0 b1 r : forall x tp rl, one_sample x tp -> Forall2 one_sample r rl ->
    flat_map (move_events axis b0 b1) (flat_map (move1 sel_default 0) (pairs x r)) = line_passages axis b0 b1 (snd tp) rl.
  Proof.
    induction r as [|y r IH]; intros x tp rl Hx Hr; inversion Hr as [|? [t q] ? rl' Hy Hr']; subst; [reflexivity|].
    cbn [pairs flat_map line_passages]. rewrite flat_map_app, (IH y (t, q) rl' Hy Hr'). f_equal.
    destruct Hx as [m [Sx [_ [Px [Ix _]]]]], Hy as [m' [Sy [Ty [Py [Iy _]]]]]. cbn [fst snd] in *. unfold move1. cbn [fst snd]. change (N.to_nat 0) with 0%nat. rewrite Sx, Sy. cbn [nth_error].
    assert (Ac : accepts sel_default m' = true) by (unfold accepts; now rewrite c27_default_accepts_all).
    assert (Eq : neqb (sm_id m') (sm_id m) = true) by (rewrite Ix, Iy; vm_compute; reflexivity). rewrite Ac, Eq. cbn [andb flat_map]. rewrite app_nil_r.
    unfold move_events, cross_time. cbn [fst snd]. now rewrite Px, Py, Ty.
  Qed.
  (** The samples of a converted csv file are its lines. *)
  Lemma csv_lines_recorded fit powf raw columns vel interp radius ss pf h T P V :
    csv_converter fit powf bld raw columns vel interp radius ss = Val (pf, h) -> holds pf T P V -> T <> [] -> (vlen T <= 2 ^ 53)%N ->
    exists d0, dm_new bld (p_load pf) (pf_timesteps pf) = Val d0 /\
      forall d, reached (p_mgr bld pf (open_stats h)) (p_touch bld (p_load pf) (pf_timesteps pf)) (pf_timesteps pf) d0 d ->
      exists L, recorded (p_mgr bld pf (open_stats h)) d L /\ Forall2 one_sample L (combine T P) /\ Forall (fun x => vlen (ts_pos x) = 1%N) L /\
        st_nparticles (m_stats (p_mgr bld pf (open_stats h))) = 1%N.
  Proof.
    intros E H Ne Ln. assert (OK := c55_file _ _ _ _ _ _ _ _ _ _ _ E _ _ _ H Ne Ln). destruct (c54_header _ _ _ _ _ _ _ _ _ _ _ E _ _ _ H) as [Hnp [Ht _]].
    destruct H as [Np [Lt [Lp [Lv [g [Gr [Gt [Gp Gv]]]]]]]].
    destruct (new_ok bld (p_load pf) (pf_timesteps pf) (p_shows pf) (p_nt pf OK) (p_ld pf OK)) as [d0 [E0 _]]. exists d0. split; [exact E0|]. intros d Rd.
    assert (Nt : st_timesteps (open_stats h) = pf_timesteps pf) by (cbn [open_stats st_timesteps]; congruence).
    destruct (c118_p_recorded bld pf (open_stats h) d0 d OK Nt E0 Rd) as [L [VL [HL Rec]]].
    assert (Rc : Forall rect L) by exact (proj2 (proj2 Rec)). rewrite Forall_forall in Rc.
    assert (One : forall k x, at_ L k x -> vlen (ts_pos x) = 1%N /\ exists tp, at_ (combine T P) k tp /\ one_sample x tp).
    { intros k x Hx. destruct (proj1 (HL k x) Hx) as [Lk [[g' [Gr' [l [Hl Hxt]]]] [Vp [Vv [_ [_ [_ [_ [_ S]]]]]]]]].
      assert (g' = g) by congruence. subst g'. assert (l = T) by congruence. subst l. split; [congruence|].
      destruct (S 0%N ltac:(lia)) as [g' [p [v [r [de [ty [G' [A1 [[lp [Hlp A2]] [_ [_ [_ [_ [_ [_ [_ [_ [A3 _]]]]]]]]]]]]]]]]]].
      assert (g' = g) by congruence. assert (lp = P) by congruence. subst g' lp. exists (ts_time x, p). split.
      { unfold at_ in *. revert Hxt A2. generalize (N.to_nat k) as n. generalize (ts_time x) as t. clear. revert P. induction T as [|a T IH]; intros P t n; [destruct n; discriminate|].
        destruct P as [|b P]; [destruct n; discriminate|]. destruct n as [|n]; cbn [combine nth_error]; [congruence|]. apply IH. }
      assert (Rx : rect x) by (apply Rc; exact (nth_error_In _ _ Hx)). assert (Sl := samples_length x Rx). rewrite Vp, Np in Sl.
      destruct (samples x) as [|m [|m2 q]] eqn:Es; [discriminate | | rewrite !vlen_cons in Sl; lia]. assert (Hm : at_ (samples x) 0 m) by (rewrite Es; reflexivity).
      destruct (samples_at x 0 m Rx Hm) as [B1 [B2 [_ B4]]]. exists m. split; [exact Es|]. cbn [fst snd].
      assert (Y : forall (A : Type) (o : option A) e g, o = Some e -> o = Some g -> e = g) by (intros; congruence).
      split; [exact B1|]. split; [exact (Y _ _ _ _ B2 A1)|]. split; [|reflexivity]. decompose [and] B4. match goal with Q : at_ (ts_id x) 0 _ |- _ => exact (Y _ _ _ _ Q A3) end. }
    assert (F2 : Forall2 one_sample L (combine T P)).
    { assert (Lc : length L = length (combine T P)) by (rewrite combine_length; unfold vlen in *; lia).
      assert (Q : forall n x, nth_error L n = Some x -> exists tp, nth_error (combine T P) n = Some tp /\ one_sample x tp).
      { intros n x Hn. destruct (One (N.of_nat n) x) as [_ [tp [Q1 Q2]]]; [unfold at_; now rewrite Nat2N.id|]. exists tp. unfold at_ in Q1. rewrite Nat2N.id in Q1. auto. }
      clear - Lc Q. revert Lc Q. generalize (combine T P). induction L as [|x L IH]; intros [|c l] Lc Q; try discriminate; [constructor|]. constructor.
      - destruct (Q 0%nat x eq_refl) as [tp [Q1 Q2]]. cbn in Q1. injection Q1 as ->. exact Q2.
      - apply IH; [now injection Lc|]. intros n y Hy. exact (Q (S n) y Hy). }
    exists L. split; [exact Rec|]. split; [exact F2|]. split; [|cbn [p_mgr m_stats open_stats st_nparticles]; congruence].
    apply Forall_forall. intros x Hx. apply In_nth_error in Hx. destruct Hx as [n Hn]. apply (One (N.of_nat n)). unfold at_. now rewrite Nat2N.id.
  Qed.
  Lemma no_second l L : Forall2 one_sample L l -> moves sel_default L 1 = [].
  Proof.
    intros F2. assert (Q : forall l, Forall (fun xy => exists tp, one_sample (snd xy) tp) l -> flat_map (move1 sel_default 1) l = []).
    { induction 1 as [|[x y] l' [tp [m [Hs _]]] _ IH]; [reflexivity|]. cbn [flat_map]. rewrite IH, app_nil_r. unfold move1. cbn [fst snd] in *. rewrite Hs. change (N.to_nat 1) with 1%nat. destruct (nth_error (samples x) 1); reflexivity. }
    unfold moves. apply Q. apply Forall_forall. intros [x y] Hxy. apply compared_in in Hxy. cbn [snd]. destruct Hxy as [_ Hy].
    assert (Iy : In y L) by tauto. apply In_nth_error in Iy. destruct Iy as [n Hn].
    assert (Hn' : at_ L (N.of_nat n) y) by (unfold at_; now rewrite Nat2N.id). destruct (Forall2_at_l _ _ _ F2 _ _ Hn) as [tp [_ Q2]]. now exists tp.
  Qed.
  Theorem c169_csv_circulation_two fit powf raw columns vel interp radius ss pf h T P V axis b0 b1 :
    csv_converter fit powf bld raw columns vel interp radius ss = Val (pf, h) -> holds pf T P V -> T <> [] -> (vlen T <= 2 ^ 53)%N ->
    Forall (fun t => is_finite t = true) T -> within_range (p_mgr bld pf (open_stats h)) axis b0 -> within_range (p_mgr bld pf (open_stats h)) axis b1 ->
    exists d0, dm_new bld (p_load pf) (pf_timesteps pf) = Val d0 /\
      forall d, reached (p_mgr bld pf (open_stats h)) (p_touch bld (p_load pf) (pf_timesteps pf)) (pf_timesteps pf) d0 d ->
      exists d' out, circulation_time_two_boundary bld (p_mgr bld pf (open_stats h)) d sel_default axis b0 b1 = Val (d', out) /\
        Permutation out (FunCirc2.trips (all_passages axis b0 b1 (combine T P))).
  Proof.
    intros E H Ne Ln Fin W0 W1. destruct (csv_lines_recorded _ _ _ _ _ _ _ _ _ _ _ _ _ E H Ne Ln) as [d0 [E0 Q]]. exists d0. split; [exact E0|]. intros d Rd.
    destruct (Q d Rd) as [L [Rec [F2 [V1 Enp]]]].
    destruct (c48_returns bld _ d sel_default axis b0 b1 L 1 Rec ltac:(repeat split; discriminate) W0 W1 V1 ltac:(rewrite Enp; discriminate)) as [d' [out Er]].
    exists d', out. split; [exact Er|]. destruct (c48_intervals bld _ d sel_default axis b0 b1 L d' out Rec ltac:(repeat split; discriminate) Er) as [_ Pm].
    rewrite Enp in Pm. change (range 0 (1 + 1)) with [0%N; 1%N] in Pm. cbn [flat_map] in Pm. rewrite app_nil_r in Pm.
    assert (Z : passings sel_default axis b0 b1 L 1 = []) by (unfold passings; now rewrite (no_second _ _ F2)).
    rewrite Z in Pm. cbn [FunCirc2.trips] in Pm. rewrite app_nil_r in Pm.
    assert (C : passings sel_default axis b0 b1 L 0 = all_passages axis b0 b1 (combine T P)).
    { assert (Fc : Forall (fun tp => is_finite (fst tp) = true) (combine T P)).
      { apply Forall_forall. intros [t p] I. cbn [fst]. apply in_combine_l in I. rewrite Forall_forall in Fin. now apply Fin. }
      unfold passings, moves, all_passages, compared. revert F2 Fc. generalize (combine T P). clear. intros l F2 Fc.
      destruct F2 as [|x [t p] r rl Hx Hr]; [reflexivity|]. inversion Fc as [|? ? _ Fr]; subst.
      assert (Hr' : Forall2 one_sample (removelast r) (removelast rl)).
      { clear - Hr. induction Hr as [|a c r rl Ha Hr IH]; [constructor|]. destruct Hr as [|a' c' r rl Ha' Hr]; [constructor|].
        change (removelast (a :: a' :: r)) with (a :: removelast (a' :: r)). change (removelast (c :: c' :: rl)) with (c :: removelast (c' :: rl)). now constructor. }
      assert (Fl : filter (fun y => timestep_valid sel_default (ts_time y)) (removelast r) = removelast r).
      { assert (Fr' : Forall (fun tp => is_finite (fst tp) = true) (removelast rl)).
        { apply Forall_forall. intros tp I. rewrite Forall_forall in Fr. apply Fr. clear - I. induction rl as [|a l IH]; [destruct I|]. destruct l as [|a' l]; [destruct I|].
          change (removelast (a :: a' :: l)) with (a :: removelast (a' :: l)) in I. destruct I as [->|I]; [now left | right; now apply IH]. }
        clear - Hr' Fr'. induction Hr' as [|y tp l l' Hy _ IH]; [reflexivity|]. inversion Fr' as [|? ? F1 F2]; subst. cbn [filter]. destruct Hy as [m [_ [_ [_ [_ Et]]]]].
        assert (Tv : timestep_valid sel_default (ts_time y) = true) by (apply c27_default_accepts_every_finite_time; rewrite Et; exact F1). rewrite Tv. f_equal. now apply IH. }
      rewrite Fl, (moves_passages axis b0 b1 _ x (t, p) _ Hx Hr'). cbn [snd]. destruct Hr as [|a c r rl Ha Hr]; [reflexivity|].
      change (removelast ((t, p) :: c :: rl)) with ((t, p) :: removelast (c :: rl)). reflexivity. }
    rewrite <- C. exact Pm.
  Qed.

  (** ** VTK folders *)
  Lemma sorted_unique (l m : list N) : StronglySorted N.le l -> StronglySorted N.lt m -> Permutation l m -> l = m.
  Proof.
    revert m. induction l as [|a l IH]; intros m Sl Sm Pm; [apply Permutation_nil in Pm; now subst|].
    destruct m as [|b m]; [apply Permutation_sym, Permutation_nil in Pm; discriminate|].
    inversion Sl as [|? ? Sl' Fl]; subst. inversion Sm as [|? ? Sm' Fm]; subst. rewrite Forall_forall in Fl, Fm.
    assert (Q : a = b).
    { assert (I1 : In a (b :: m)) by (apply (Permutation_in _ Pm); now left). assert (I2 : In b (a :: l)) by (apply (Permutation_in _ (Permutation_sym Pm)); now left).
      destruct I1 as [->|I1]; [reflexivity|]. destruct I2 as [->|I2]; [reflexivity|]. specialize (Fl b I2). specialize (Fm a I1). lia. }
    subst b. f_equal. apply IH; [exact Sl' | exact Sm' | now apply Permutation_cons_inv in Pm].
  Qed.
  Lemma by_id_ids (c c' : particles f64) : by_id c c' -> Permutation (p_ids c') (p_ids c).
  Proof.
    intros [_ [L [_ [sl [P [_ H]]]]]]. unfold p_len in *.
    assert (Ls : vlen sl = vlen (p_ids c)) by (unfold vlen; rewrite (Permutation_length P), range_length; unfold vlen; lia).
    assert (E : p_ids c' = map (fun i => nth (N.to_nat i) (p_ids c) 0%N) sl).
    { apply (at_ext _ _ (vlen (p_ids c))); [lia | unfold vlen in *; rewrite map_length; lia|].
      intros k Hk. destruct (lt_at sl k) as [i Hi]; [lia|].
      destruct (H k i Hi) as [[[[[id r] ty] p] v] [Ha Hb]]. cbn in Ha, Hb. destruct Ha as [Ha _], Hb as [Hb _].
      exists id. split; [exact Hb|]. apply at_map. exists i. split; [exact Hi|]. symmetry. now apply nth_error_nth. }
    rewrite E. etransitivity; [apply Permutation_map; exact P|].
    assert (Q : map (fun i => nth (N.to_nat i) (p_ids c) 0%N) (range 0 (vlen (p_ids c))) = p_ids c); [|now rewrite Q].
    apply (at_ext _ _ (vlen (p_ids c))); [unfold vlen; rewrite map_length, range_length; unfold vlen; lia | reflexivity|].
    intros k Hk. destruct (lt_at (p_ids c) k Hk) as [p Hp]. exists p. split; [|exact Hp]. apply at_map. exists k. split; [|symmetry; now apply nth_error_nth].
    unfold at_. rewrite range_nth_error by lia. f_equal. lia.
  Qed.
  (** What is recorded: per file, its time and its particles in the order of their labels. *)
  Theorem c169_vtk_recorded cfg dt (fs : list (vtkfile f64)) (cs : list (particles f64)) (tf : tfile f64) (h : header f64) :
    Forall2 (content cfg) fs cs -> vtk_converter cfg fs dt = Val (tf, h) -> (vlen fs <= 2 ^ 53)%N ->
    exists d0, dm_new bld (t_load tf) (tf_timesteps tf) = Val d0 /\
      forall d, reached (t_mgr bld tf (open_stats h)) (t_touch bld (t_load tf) (tf_timesteps tf)) (tf_timesteps tf) d0 d ->
      exists L, recorded (t_mgr bld tf (open_stats h)) d L /\ vlen L = vlen fs /\
        forall k x, at_ L k x -> exists f c c', at_ fs k f /\ at_ cs k c /\ by_id c c' /\ x = shown (f_time dt f) c'.
  Proof.
    intros Fc E Ln. assert (Ne : fs <> []) by (intros ->; discriminate).
    assert (Hd := c57_header _ _ _ _ _ _ Fc E). destruct Hd as [_ [_ [Hn _]]].
    assert (Io : in_order n0 (map (f_time dt) fs)).
    { assert (Dec : forall ts (old : f64), in_order old ts \/ ~ in_order old ts).
      { induction ts as [|t ts IH]; intros old; [left; exact I|]. cbn [in_order]. destruct (IH t) as [?|?]; [|right; tauto]. destruct (t <? old)%num; [right; intros [? _]; discriminate | left; auto]. }
      destruct (Dec (map (f_time dt) fs) n0) as [H|H]; [exact H|]. rewrite (c56_refused cfg dt fs cs Fc H) in E. discriminate. }
    destruct (c56_converted cfg dt fs cs Fc Ne Io) as [tf' [h' [E' [Nt Hg]]]]. rewrite E in E'. apply val_pair in E' as [<- <-].
    assert (Nt' : tf_timesteps (F := f64) tf = vlen fs) by exact Nt. clear Nt. rename Nt' into Nt.
    assert (All : forall k, (k < vlen fs)%N -> exists f c g c', at_ fs k f /\ at_ cs k c /\ tf_group tf k = Some g /\ p_wf c /\ by_id c c' /\ stored g (f_time dt f) c').
    { intros k Lk. destruct (lt_at fs k Lk) as [f Hf]. destruct (Forall2_at_l _ _ _ Fc _ _ Hf) as [c [Hc [Wc _]]]. destruct (Hg k f c Hf Hc) as [g [c' [Gk [B S]]]]. exists f, c, g, c'. auto 10. }
    assert (Sh : forall k x, (k < vlen fs)%N -> t_shows tf k x -> exists f c c', at_ fs k f /\ at_ cs k c /\ p_wf c /\ by_id c c' /\ x = shown (f_time dt f) c').
    { intros k x Lk [g' [Gk' [T1 [T2 [T3 [T4 [T5 [T6 [T7 T8]]]]]]]]]. destruct (All k Lk) as [f [c [g [c' [Hf [Hc [Gk [W [B S]]]]]]]]]. exists f, c, c'. repeat (split; [assumption|]).
      assert (g' = g) by congruence. subst g'. destruct S as [S1 [S2 [S3 [S4 [S5 [S6 [S7 S8]]]]]]].
      rewrite S8 in T8. destruct x as [xt xp xv xr xi xc xd xty]. cbn [ts_time ts_pos ts_vel ts_radius ts_id ts_clouds ts_density ts_type] in *.
      unfold shown. assert (Y : forall (A : Type) (o : option A) a b, o = Some a -> o = Some b -> b = a) by (intros; congruence).
      rewrite (Y _ _ _ _ S1 T1), (Y _ _ _ _ S2 T2), (Y _ _ _ _ S3 T3), (Y _ _ _ _ S5 T5), (Y _ _ _ _ S6 T7), (Y _ _ _ _ S7 T6).
      assert (Er := Y _ _ _ _ S4 T4). subst xr.
      assert (Rp : forall l : list f64, repeat (n1 : f64) (List.length l) = map (fun _ => n1) l) by (induction l as [|r l IHl]; [reflexivity|]; cbn [Datatypes.length repeat map]; now rewrite IHl).
      rewrite T8, Rp. reflexivity. }
    assert (OK : tf_ok tf).
    { split; [rewrite Nt; split; [destruct fs; [congruence | rewrite vlen_cons; lia] | exact Ln]|]. intros t Lt. rewrite Nt in Lt.
      destruct (All t Lt) as [f [c [g [c' [_ [_ [Gk [_ [_ S]]]]]]]]]. exists g. split; [exact Gk|]. destruct S as [-> [-> [-> [-> [-> [-> [-> _]]]]]]]. repeat split; discriminate. }
    assert (Rc : tf_rect tf).
    { intros k x Lk Hx. rewrite Nt in Lk. destruct (Sh k x Lk Hx) as [f [c [c' [_ [_ [_ [[[_ [W1 [W2 [W3 W4]]]] _] ->]]]]]]].
      unfold rect, shown, vlen, p_len in *. cbn [ts_time ts_pos ts_vel ts_radius ts_id ts_clouds ts_density ts_type]. rewrite !map_length. unfold vlen in *. repeat split; lia. }
    destruct (new_ok bld (t_load tf) (tf_timesteps tf) (t_shows tf) (t_nt tf OK) (t_ld tf OK)) as [d0 [E0 _]]. exists d0. split; [exact E0|]. intros d Rd.
    destruct (c118_t_recorded bld tf (open_stats h) d0 d OK Rc ltac:(cbn [open_stats st_timesteps]; congruence) E0 Rd) as [L [VL [HL Rec]]]. exists L. split; [exact Rec|].
    split; [congruence|]. intros k x Hx. destruct (proj1 (HL k x) Hx) as [Lk S]. rewrite Nt in Lk. destruct (Sh k x Lk S) as [f [c [c' [A1 [A2 [_ [A3 A4]]]]]]]. exists f, c, c'. auto.
  Qed.
  (** When all files hold the same labels, extract number [i] follows the particle with the [i]-th label
      through the files, wherever in them its entries are. *)
  Theorem c169_vtk_trajectory cfg dt (fs : list (vtkfile f64)) (cs : list (particles f64)) (tf : tfile f64) (h : header f64) (ids : list N) i id a b :
    Forall2 (content cfg) fs cs -> vtk_converter cfg fs dt = Val (tf, h) -> (vlen fs <= 2 ^ 53)%N ->
    StronglySorted N.lt ids -> Forall (fun c => Permutation (p_ids c) ids) cs -> at_ ids i id -> (a <= b)%N -> (b < vlen fs)%N ->
    exists d0, dm_new bld (t_load tf) (tf_timesteps tf) = Val d0 /\
      forall d, reached (t_mgr bld tf (open_stats h)) (t_touch bld (t_load tf) (tf_timesteps tf)) (tf_timesteps tf) d0 d ->
      exists d' rows, extract bld (t_mgr bld tf (open_stats h)) d i a b = Val (d', rows) /\ vlen rows = (b - a)%N /\
        forall j f c q r ty x y z u v w, (j < b - a)%N -> at_ fs (a + j) f -> at_ cs (a + j) c -> p_at c q (id, r, ty, (x, y, z), (u, v, w)) ->
          at_ rows j [f_time dt f; x; y; z; u; v; w].
  Proof.
    intros Fc E Ln Si Same Hi Hab Hb. destruct (c169_vtk_recorded _ _ _ _ _ _ Fc E Ln) as [d0 [E0 Q]]. exists d0. split; [exact E0|]. intros d Rd.
    destruct (Q d Rd) as [L [Rec [VL Tr]]]. rewrite Forall_forall in Same.
    assert (Ids : forall k c c', at_ cs k c -> by_id c c' -> p_ids c' = ids).
    { intros k c c' Hc B. apply sorted_unique; [apply B | exact Si|]. etransitivity; [exact (by_id_ids _ _ B) | apply Same; exact (nth_error_In _ _ Hc)]. }
    destruct (c46_rows bld _ d L i a b Rec Hab ltac:(lia) ltac:(lia)) as [d' [rows [Er [_ [Vr Hr]]]]].
    { intros t x _ Hx. destruct (Tr t x Hx) as [f [c [c' [_ [Hc [B ->]]]]]]. cbn [shown ts_pos]. assert (W := proj1 B). destruct W as [_ [_ [_ [W _]]]]. unfold p_len in W.
      rewrite W, (Ids _ _ _ Hc B). now apply at_lt in Hi. }
    exists d', rows. split; [exact Er|]. split; [exact Vr|]. intros j f c q r ty x y z u v w Hj Hf Hc Hq.
    destruct (lt_at L (a + j) ltac:(lia)) as [X HX]. destruct (Tr _ _ HX) as [f1 [c1 [c' [Hf1 [Hc1 [B EX]]]]]].
    assert (f1 = f) by (unfold at_ in *; congruence). assert (c1 = c) by (unfold at_ in *; congruence). subst f1 c1.
    assert (Eid := Ids _ _ _ Hc B). assert (B0 := B). destruct B0 as [W [Lc [_ [sl [P [_ Hs]]]]]].
    assert (Iq : In q sl). { apply (Permutation_in _ (Permutation_sym P)). apply in_range. destruct Hq as [Hq _]. apply at_lt in Hq. unfold p_len. lia. }
    apply In_nth_error in Iq. destruct Iq as [n Hn]. destruct (Hs (N.of_nat n) q ltac:(unfold at_; now rewrite Nat2N.id)) as [y' [Y1 Y2]].
    assert (Ey : y' = (id, r, ty, (x, y, z), (u, v, w))).
    { destruct y' as [[[[id2 r2] ty2] p2] v2]. cbn [p_at] in Y1, Hq. unfold at_ in *. destruct Y1 as [A1 [A2 [A3 [A4 A5]]]], Hq as [B1 [B2 [B3 [B4 B5]]]].
      assert (Y : forall (A : Type) (o : option A) e g, o = Some e -> o = Some g -> e = g) by (intros; congruence).
      now rewrite (Y _ _ _ _ A1 B1), (Y _ _ _ _ A2 B2), (Y _ _ _ _ A3 B3), (Y _ _ _ _ A4 B4), (Y _ _ _ _ A5 B5). }
    subst y'. destruct Y2 as [D1 [_ [_ [D4 D5]]]]. rewrite Eid in D1.
    assert (En : N.of_nat n = i).
    { assert (Nd : NoDup ids). { clear - Si. induction Si as [|a l S IH F]; constructor; [|exact IH]. intros I. rewrite Forall_forall in F. specialize (F a I). lia. }
      unfold at_ in D1, Hi. rewrite Nat2N.id in D1. rewrite NoDup_nth_error in Nd. specialize (Nd n (N.to_nat i)).
      assert (n = N.to_nat i); [|lia]. apply Nd; [apply nth_error_Some; congruence | congruence]. }
    rewrite En in *.
    assert (Rx : rect X) by (apply (proj1 (Forall_forall rect L) (proj2 (proj2 Rec))); exact (nth_error_In _ _ HX)).
    destruct (lt_at (samples X) i) as [m Hm]; [rewrite samples_length by exact Rx; rewrite EX; cbn [shown ts_pos]; now apply at_lt in D4|].
    destruct (samples_at X i m Rx Hm) as [B1 [B2 [B3 _]]]. rewrite EX in B1, B2, B3. cbn [shown ts_pos ts_vel ts_time] in B1, B2, B3.
    assert (M2 : sm_pos m = (x, y, z)) by (unfold at_ in *; congruence). assert (M3 : sm_vel m = (u, v, w)) by (unfold at_ in *; congruence).
    assert (Row : row_of m = [f_time dt f; x; y; z; u; v; w]) by (unfold row_of; now rewrite M2, M3, B1).
    rewrite <- Row. exact (Hr j X m Hj HX Hm).
  Qed.

  (** ** One csv file per timestep *)
  (** Extract number [i] follows line [i] of the files, with the times given. *)
  Theorem c169_step_trajectory columns files ls times i a b : vlen columns = 7%N -> Forall2 (Forall2 (reads columns)) files ls -> ~ In [] files ->
    (vlen files <= vlen times)%N -> files <> [] -> (vlen files <= 2 ^ 53)%N -> (a <= b)%N -> (b < vlen files)%N ->
    (forall k l, (a <= k < b)%N -> at_ ls k l -> (i < vlen l)%N) ->
    exists tf h d0, csv_multi_file_time_step files columns times = Val (tf, h) /\ dm_new bld (t_load tf) (tf_timesteps tf) = Val d0 /\
      forall d, reached (t_mgr bld tf (open_stats h)) (t_touch bld (t_load tf) (tf_timesteps tf)) (tf_timesteps tf) d0 d ->
      exists d' rows, extract bld (t_mgr bld tf (open_stats h)) d i a b = Val (d', rows) /\ vlen rows = (b - a)%N /\
        forall j t l s x y z u v w, (j < b - a)%N -> at_ times (a + j) t -> at_ ls (a + j) l -> at_ l i s -> s_pos s = (x, y, z) -> s_vel s = (u, v, w) ->
          at_ rows j [t; x; y; z; u; v; w].
  Proof.
    intros L7 R Nf Hl Ne Ln Hab Hb Hi. destruct (c70_converted columns files ls times L7 R Nf Hl) as [tf [h [E [Nt [Hn [Hg _]]]]]]. exists tf, h.
    assert (All : forall k, (k < vlen files)%N -> exists t l g, at_ times k t /\ at_ ls k l /\ tf_group tf k = Some g /\ step_stored g t l).
    { intros k Lk. destruct (lt_at times k) as [t Ht]; [lia|]. destruct (lt_at files k Lk) as [d Hd]. destruct (Forall2_at_l _ _ _ R _ _ Hd) as [l [Hl' _]]. destruct (Hg k t l Ht Hl') as [g [G S]]. exists t, l, g. auto. }
    assert (Sh : forall k x, (k < vlen files)%N -> t_shows tf k x -> exists t l, at_ times k t /\ at_ ls k l /\ x = step_shown t l).
    { intros k x Lk [g' [Gk' [T1 [T2 [T3 [T4 [T5 [T6 [T7 T8]]]]]]]]]. destruct (All k Lk) as [t [l [g [Ht [Hl' [Gk S]]]]]]. exists t, l. split; [exact Ht|]. split; [exact Hl'|].
      assert (g' = g) by congruence. subst g'. destruct S as [S1 [S2 [S3 [S4 [S5 [S6 [S7 S8]]]]]]].
      rewrite S8 in T8. destruct x as [xt xp xv xr xi xc xd xty]. cbn [ts_time ts_pos ts_vel ts_radius ts_id ts_clouds ts_density ts_type] in *.
      unfold step_shown. assert (Y : forall (A : Type) (o : option A) a b, o = Some a -> o = Some b -> b = a) by (intros; congruence).
      rewrite (Y _ _ _ _ S1 T1), (Y _ _ _ _ S2 T2), (Y _ _ _ _ S3 T3), (Y _ _ _ _ S4 T5), (Y _ _ _ _ S6 T6), (Y _ _ _ _ S7 T7).
      assert (Er := Y _ _ _ _ S5 T4). subst xr. rewrite T8, repeat_length. reflexivity. }
    assert (OK : tf_ok tf).
    { split; [rewrite Nt; split; [destruct files; [congruence | rewrite vlen_cons; lia] | exact Ln]|]. intros k Lk. rewrite Nt in Lk.
      destruct (All k Lk) as [t [l [g [_ [_ [Gk S]]]]]]. exists g. split; [exact Gk|]. destruct S as [-> [-> [-> [-> [-> [-> [-> _]]]]]]]. repeat split; discriminate. }
    assert (Rc : tf_rect tf).
    { intros k x Lk Hx. rewrite Nt in Lk. destruct (Sh k x Lk Hx) as [t [l [_ [_ ->]]]]. unfold rect, step_shown.
      cbn [ts_time ts_pos ts_vel ts_radius ts_id ts_clouds ts_density ts_type]. rewrite !map_length, !repeat_length. repeat split. }
    destruct (new_ok bld (t_load tf) (tf_timesteps tf) (t_shows tf) (t_nt tf OK) (t_ld tf OK)) as [d0 [E0 _]]. exists d0. split; [exact E|]. split; [exact E0|]. intros d Rd.
    destruct (c118_t_recorded bld tf (open_stats h) d0 d OK Rc ltac:(cbn [open_stats st_timesteps]; congruence) E0 Rd) as [L [VL [HL Rec]]].
    assert (Tr : forall k x, at_ L k x -> exists t l, at_ times k t /\ at_ ls k l /\ x = step_shown t l).
    { intros k x Hx. destruct (proj1 (HL k x) Hx) as [Lk S]. rewrite Nt in Lk. exact (Sh k x Lk S). }
    destruct (c46_rows bld _ d L i a b Rec Hab ltac:(lia) ltac:(lia)) as [d' [rows [Er [_ [Vr Hr]]]]].
    { intros t x Ht Hx. destruct (Tr t x Hx) as [t' [l [_ [Hl' ->]]]]. cbn [step_shown ts_pos]. unfold vlen in *. rewrite map_length. now apply (Hi t l). }
    exists d', rows. split; [exact Er|]. split; [exact Vr|]. intros j t l s x y z u v w Hj Ht Hl' Hs Ps Vs.
    destruct (lt_at L (a + j) ltac:(lia)) as [X HX]. destruct (Tr _ _ HX) as [t1 [l1 [Ht1 [Hl1 EX]]]].
    assert (t1 = t) by (unfold at_ in *; congruence). assert (l1 = l) by (unfold at_ in *; congruence). subst t1 l1.
    assert (Rx : rect X) by (apply (proj1 (Forall_forall rect L) (proj2 (proj2 Rec))); exact (nth_error_In _ _ HX)).
    assert (Hp : at_ (map s_pos l) i (x, y, z)) by (apply at_map; exists s; split; [exact Hs | now symmetry]).
    assert (Hv : at_ (map s_vel l) i (u, v, w)) by (apply at_map; exists s; split; [exact Hs | now symmetry]).
    destruct (lt_at (samples X) i) as [m Hm]; [rewrite samples_length by exact Rx; rewrite EX; cbn [step_shown ts_pos]; now apply at_lt in Hp|].
    destruct (samples_at X i m Rx Hm) as [B1 [B2 [B3 _]]]. rewrite EX in B1, B2, B3. cbn [step_shown ts_pos ts_vel ts_time] in B1, B2, B3.
    assert (Y : forall (A : Type) (o : option A) e g, o = Some e -> o = Some g -> e = g) by (intros; congruence).
    assert (M2 : sm_pos m = (x, y, z)) by (symmetry; exact (Y _ _ _ _ Hp B2)). assert (M3 : sm_vel m = (u, v, w)) by (symmetry; exact (Y _ _ _ _ Hv B3)).
    assert (Row : row_of m = [t; x; y; z; u; v; w]) by (unfold row_of; now rewrite M2, M3, B1).
    rewrite <- Row. exact (Hr j X m Hj HX Hm).
  Qed.
End Tracks.

(** ** Concrete cases *)
Local Notation f := f64_of_Z.
Lemma ex_line_values r s : In r ex_raw -> reads ex_cols r s ->
  is_finite (s_time s) = true /\ In (s_vel s) [(f 1, f 1, f 1); (f 1, f 1, f 4)].
Proof.
  intros Hr Hs. destruct ex_reads as [l [F [C _]]]. apply In_nth_error in Hr. destruct Hr as [n Hn].
  destruct (Forall2_at_l _ _ _ F _ _ Hn) as [s2 [Hs2 Rs2]].
  assert (Q : s2 = s) by (eapply reads_unique; eassumption). subst s2.
  (* the readings are determined by the lines *)
  set (l0 := map (fun z => let '(t, x, y, w, c) := z in (f t, (f x, f y, f w), (f 1, f 1, f c)))
    [(2, 10, 20, 30, 1); (0, 11, 21, 31, 1); (1, 12, 22, 32, 4); (1, 13, 23, 33, 1); (3, 9, 24, 34, 1)]%Z).
  assert (F0 : Forall2 (reads ex_cols) ex_raw l0).
  { unfold ex_raw, ex_cols, l0. cbn [map]. repeat (constructor; [unfold reads; cbn [smp_row]; repeat (constructor; [now apply col_entry_pick|]); constructor|]). constructor. }
  destruct (Forall2_at_l _ _ _ F0 _ _ Hn) as [s3 [Hs3 Rs3]].
  assert (Q : s3 = s) by (eapply reads_unique; eassumption). subst s3.
  apply nth_error_In in Hs3. unfold l0 in Hs3. apply in_map_iff in Hs3. destruct Hs3 as [[[[[t x] y] w] c] [<- I]].
  cbn [s_time s_vel fst snd]. cbn [In] in I. repeat (destruct I as [I|I]; [injection I as <- <- <- <- <-; split; [reflexivity | cbn [In]; auto]|]). destruct I.
Qed.
Example c169_csv_case : exists pf h T P V, csv_converter no_fit (fun x _ => x) Debug ex_raw ex_cols false false (f 1) 9 = Val (pf, h) /\ holds pf T P V /\
  (2 < vlen T < 2 ^ 52)%N /\ Forall (fun t => is_finite t = true) T /\ (forall v, In v V -> slow v) /\
  (forall x y z, In (x, y, z) V -> ordinary x /\ ordinary y /\ ordinary z) /\
  (exists g, cart_new (2, 2, 2)%N (ThreeD ((f 0, f 20), (f 0, f 40), (f 0, f 40))) = Val g /\ sized (2, 2, 2)%N).
Proof.
  destruct c53_used as [Tk [pf [h [T0 [P0 [V0 [E [H0 _]]]]]]]]. destruct (c53_written no_fit (fun x _ => x) Debug _ _ _ _ _ _ Tk E) as [T [P [V [H [Srt [Hin Hat]]]]]].
  exists pf, h, T, P, V. split; [exact E|]. split; [exact H|].
  assert (FinT : Forall (fun t => is_finite t = true) T).
  { apply Forall_forall. intros t Ht. apply Hin in Ht. destruct Ht as [_ [i [r [s [Hr [Hs <-]]]]]]. apply (ex_line_values r s (nth_error_In _ _ Hr) Hs). }
  assert (Vs : forall v, In v V -> In v [(f 1, f 1, f 1); (f 1, f 1, f 4)]).
  { intros v Hv. apply In_nth_error in Hv. destruct Hv as [n Hn]. destruct H as [_ [L1 [L2 [L3 _]]]].
    assert (Hn' : at_ V (N.of_nat n) v) by (unfold at_; now rewrite Nat2N.id). assert (Ln := at_lt _ _ _ Hn').
    destruct (lt_at T (N.of_nat n)) as [t Ht]; [unfold vlen in *; lia|]. destruct (lt_at P (N.of_nat n)) as [p Hp]; [unfold vlen in *; lia|].
    destruct (Hat _ _ _ _ Ht Hp Hn') as [i [r [Hr [Hs _]]]]. exact (proj2 (ex_line_values r (t, p, v) (nth_error_In _ _ Hr) Hs)). }
  assert (O : forall a, (Z.abs a <= 2 ^ 52)%Z -> ordinary (f a) /\ (Rabs (B2R (f a)) <= bpow radix2 500)%R) by exact ordinary_int.
  assert (O1 := O 1%Z ltac:(lia)). assert (O4 := O 4%Z ltac:(lia)). unfold ordinary in *.
  split; [|split; [exact FinT|split; [|split]]].
  - split.
    + assert (I : forall z, In z [1; 2; 3]%Z -> In (f z) T).
      { intros z Hz. apply Hin. destruct Hz as [<-|[<-|[<-|[]]]]; (split; [reflexivity|]).
        - exists 2%N, (nth 2 ex_raw []), (f 1, (f 12, f 22, f 32), (f 1, f 1, f 4)). split; [reflexivity|]. split; [|reflexivity]. unfold reads, ex_cols. cbn [smp_row]. repeat (constructor; [now apply col_entry_pick|]). constructor.
        - exists 0%N, (nth 0 ex_raw []), (f 2, (f 10, f 20, f 30), (f 1, f 1, f 1)). split; [reflexivity|]. split; [|reflexivity]. unfold reads, ex_cols. cbn [smp_row]. repeat (constructor; [now apply col_entry_pick|]). constructor.
        - exists 4%N, (nth 4 ex_raw []), (f 3, (f 9, f 24, f 34), (f 1, f 1, f 1)). split; [reflexivity|]. split; [|reflexivity]. unfold reads, ex_cols. cbn [smp_row]. repeat (constructor; [now apply col_entry_pick|]). constructor. }
      assert (Nd : NoDup [f 1; f 2; f 3]).
      { assert (D : forall a b : f64, B2SF a <> B2SF b -> a <> b) by (intros a b Hab ->; now apply Hab).
        repeat constructor; cbn [In]; intros K; repeat (destruct K as [K|K]; [revert K; apply D; vm_compute; discriminate|]); exact K. }
      assert (Q := NoDup_incl_length Nd (l' := T)). assert (incl [f 1; f 2; f 3] T) as Hi; [|specialize (Q Hi); unfold vlen; cbn [Datatypes.length] in Q; lia].
      intros t [<-|[<-|[<-|[]]]]; apply I; cbn [In]; auto.
    + assert (Nt : (vlen T = pf_timesteps pf)%N) by exact (proj1 (proj2 H)).
      destruct (csv_holds no_fit (fun x _ => x) Debug _ _ _ _ _ _ _ _ E T P V H) as [l2 [Eo [-> _]]].
      destruct (csv_open no_fit (fun x _ => x) Debug _ _ _ _ _ Tk E) as [l0 [l' [_ [F0 [_ [_ [Or Eo']]]]]]].
      rewrite Nt. apply csv_out_inv in Eo'. cbn zeta in Eo'. destruct Eo' as [_ [-> _]].
      assert (Q := keep_len l' n0). apply order_perm, Permutation_length in Or. apply Forall2_length in F0. unfold vlen in *. change (length ex_raw) with 5%nat in F0. lia.
  - intros v Hv. apply Vs in Hv. destruct Hv as [<-|[<-|[]]]; unfold slow; tauto.
  - intros x y z Hv. apply Vs in Hv. destruct Hv as [K|[K|[]]]; injection K as <- <- <-; tauto.
  - eexists. split; [reflexivity | repeat split; discriminate].
Qed.
Example c169_vtk_case : Forall2 (content ex_cfg) ex_files ex_parts /\ (exists tf h, vtk_converter ex_cfg ex_files (f 1) = Val (tf, h)) /\
  (vlen ex_files <= 2 ^ 53)%N /\ StronglySorted N.lt [3; 7]%N /\ Forall (fun c => Permutation (p_ids c) [3; 7]%N) ex_parts /\ at_ [3; 7]%N 1 7%N /\ (1 < vlen ex_files)%N /\
  exists f0 c0 q r ty x y z u v w, at_ ex_files 0 f0 /\ at_ ex_parts 0 c0 /\ q = 0%N /\ p_at c0 q (7%N, r, ty, (x, y, z), (u, v, w)).
Proof.
  destruct c119_vtk_case as [A [B [C _]]]. split; [exact A|]. split; [exact B|]. split; [exact C|]. split; [repeat constructor; lia|].
  split; [repeat constructor|]. split; [reflexivity|]. split; [reflexivity|].
  do 11 eexists. split; [reflexivity|]. split; [reflexivity|]. split; [reflexivity|]. cbn [p_at]. repeat split; reflexivity.
Qed.
Example c169_step_case : vlen ex_seven = 7%N /\ Forall2 (Forall2 (reads ex_seven)) ex_step_files ex_step_ls /\ ~ In [] ex_step_files /\
  (vlen ex_step_files <= vlen [f 1; f 2])%N /\ ex_step_files <> [] /\ (vlen ex_step_files <= 2 ^ 53)%N /\ (1 < vlen ex_step_files)%N /\
  (forall k l, (0 <= k < 1)%N -> at_ ex_step_ls k l -> (1 < vlen l)%N).
Proof.
  destruct ex_step_ok as [A [B [C [D D']]]]. repeat (split; [assumption|]). split; [vm_compute; discriminate|]. split; [reflexivity|].
  intros k l Hk Hl. assert (k = 0%N) by lia. subst k. cbn in Hl. injection Hl as <-. reflexivity.
Qed.
Example c169_circulation_case : exists pf h, csv_converter no_fit (fun x _ => x) Debug ex_raw ex_cols false false (f 1) 9 = Val (pf, h) /\
  within_range (p_mgr Debug pf (open_stats h)) 2 (f 31) /\ within_range (p_mgr Debug pf (open_stats h)) 2 (f 33).
Proof.
  assert (Q : match csv_converter no_fit (fun x _ => x) Debug ex_raw ex_cols false false (f 1) 9 with
    | Val (_, h) => forallb (fun b => negb (nltb b (snd (fst (h_dims h)))) && negb (nltb (snd (snd (h_dims h))) b)) [f 31; f 33] | Panic => false end = true) by (vm_compute; reflexivity).
  destruct (csv_converter no_fit (fun x _ => x) Debug ex_raw ex_cols false false (f 1) 9) as [[pf h]|]; [|discriminate]. exists pf, h. split; [reflexivity|].
  rewrite forallb_forall in Q. assert (W : forall b, In b [f 31; f 33] -> within_range (p_mgr Debug pf (open_stats h)) 2 b); [|split; apply W; cbn; auto].
  intros b Hb. specialize (Q b Hb). apply andb_true_iff in Q. destruct Q as [Q1 Q2]. apply negb_true_iff in Q1, Q2.
  exists (snd (fst (h_dims h))), (snd (snd (h_dims h))). cbn [p_mgr m_stats open_stats st_dims]. destruct (h_dims h) as [[[a b'] c] [[a' b''] c']]. cbn [fst snd] in *. auto.
Qed.
(** A track that crosses 1 in every step: one circulation, from time 2 to time 4. *)
Example c169_cross_case : map (fun ac : f64 * f64 => B2SF (nsub (snd ac) (fst ac) : f64)) (thirds (all_cross_times 0 (f 1)
  [(f 1, (f 0, f 0, f 0)); (f 2, (f 2, f 0, f 0)); (f 3, (f 0, f 0, f 0)); (f 4, (f 2, f 0, f 0)); (f 5, (f 0, f 0, f 0))])) = [B2SF (f 2)].
Proof. vm_compute. reflexivity. Qed.
(** Between 1 and 3 along the first axis: left below at 2, above 3 at 3, back below at 4, left again at 5. *)
Example c169_passage_case : map (fun ab : f64 * f64 => (B2SF (fst ab : f64), B2SF (snd ab : f64))) (FunCirc2.trips (all_passages 0 (f 1) (f 3)
  [(f 1, (f 0, f 0, f 0)); (f 2, (f 2, f 0, f 0)); (f 3, (f 4, f 0, f 0)); (f 4, (f 0, f 0, f 0)); (f 5, (f 2, f 0, f 0)); (f 6, (f 0, f 0, f 0))])) = [(B2SF (f 2), B2SF (f 5))].
Proof. vm_compute. reflexivity. Qed.
