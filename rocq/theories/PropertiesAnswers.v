(** * PropertiesAnswers: what the methods of an object of the class [Data] answer

    C125: at every point of a session, every method answers from the recorded timesteps, its own
    arguments and the last [set_time], as its documentation says. *)
From Coq Require Import Reals List NArith ZArith Bool Lia Lra String Permutation ZifyBool ZifyN ZifyNat.
From Flocq Require Import Core.Core IEEE754.BinarySingleNaN.
From Verif Require Import Base BaseFacts Num F64Facts RFacts NDArray GridModel GridSpec GridFacts CartProofs SelModel PropertiesSel DataModel DataSpec DataProofs DataLoad PropertiesGrid PropertiesData FunModel FunSpec FunProofs FunMgr FunField PropertiesFun FunOcc FunHist FunMom FunTemp FunDisp MixModel FunMix FunLacey FunMsd CondModel FunExtract FunTrack FunCirc FunCirc2 PyModel PyItem FunRefine SessionModel SessionSpec SessionProofs PropertiesSession PropertiesPipeline.
Import ListNotations.
Local Open Scope string_scope.
Local Open Scope list_scope.

(** ** The state of a session *)
Section Session.
  Context {TF : Trig f64} (bld : build) (st : stats f64) (mt : f64).
  (** The selector of a session is the window of the last [set_time]; the manager reads the file. *)
  Lemma window_ok (l : list (call f64)) : sel_ok (window_of l).
  Proof. unfold window_of. destruct (fold_left _ l None) as [[a b]|]; repeat split; discriminate. Qed.
  Theorem c125_p_session (f : pfile f64) d0 l d s : pf_ok f -> stats_ok st (pf_timesteps f) ->
    dm_new bld (p_load f) (pf_timesteps f) = Val d0 ->
    Forall (call_ok (pf_timesteps f)) l -> py_calls bld (p_mgr bld f st) mt l (d0, sel_default) = Val (d, s) ->
    exists L, vlen L = pf_timesteps f /\ (forall t x, at_ L t x <-> (t < pf_timesteps f)%N /\ p_shows f t x) /\
      recorded (p_mgr bld f st) d L /\ s = window_of l /\ sel_ok s.
  Proof.
    intros OK [Nt Ta] E Hl R.
    destruct (calls_sane bld (p_load f) (pf_timesteps f) (p_shows f) (p_nt f OK) (p_ld f OK) (p_shows_unique f) d0 E st _ _
      (fun d t => p_getb_touch bld (p_load f) (pf_timesteps f) d t 0)
      (p_touch_sane bld (p_load f) _ (p_shows f) d0 (p_nt f OK) (p_ld f OK) (p_shows_unique f)) Nt Ta l mt d0 sel_default d s
      (new_sane bld (p_load f) _ (p_shows f) (p_nt f OK) (p_ld f OK) (p_shows_unique f) d0 E) Hl R) as [S W].
    rewrite window_fold in W.
    destruct (p_list f st OK Nt) as [L [V [H1 H2]]]. exists L. split; [exact V|].
    split. { intros t x. split; [intros Hx; split; [rewrite <- V; now apply at_lt in Hx | now apply H1] | intros [Ht Hs]; now apply H2]. }
    split; [|split; [exact W | rewrite W; apply window_ok]].
    split; [|split].
    - split; [cbn [p_mgr m_stats]; congruence|]. exists (sane (pf_timesteps f) (p_shows f) d0). split; [exact S|].
      intros e t x Se Hx. assert (Ht : (t < pf_timesteps f)%N) by (rewrite <- V; now apply at_lt in Hx).
      destruct (get_sane bld (p_load f) _ _ (p_nt f OK) (p_ld f OK) (p_shows_unique f) d0 E e t Se Ht) as [e' [y [G [Gy [S' _]]]]].
      exists e'. split; [|exact S']. cbn [p_mgr m_get]. rewrite G. now rewrite (p_shows_unique f t x y (H1 t x Hx) Gy).
    - intros ->. destruct (p_nt f OK). cbn in V. lia.
    - apply Forall_forall. intros x Hx. apply In_nth_error in Hx. destruct Hx as [k Hk].
      apply (p_rect f st Nt (N.of_nat k)). apply H1. unfold at_. now rewrite Nnat.Nat2N.id.
  Qed.
  Theorem c125_t_session (f : tfile f64) d0 l d s : tf_ok f -> tf_rect f -> stats_ok st (tf_timesteps f) ->
    dm_new bld (t_load f) (tf_timesteps f) = Val d0 ->
    Forall (call_ok (tf_timesteps f)) l -> py_calls bld (t_mgr bld f st) mt l (d0, sel_default) = Val (d, s) ->
    exists L, vlen L = tf_timesteps f /\ (forall t x, at_ L t x <-> (t < tf_timesteps f)%N /\ t_shows f t x) /\
      recorded (t_mgr bld f st) d L /\ s = window_of l /\ sel_ok s.
  Proof.
    intros OK Rc [Nt Ta] E Hl R.
    destruct (calls_sane bld (t_load f) (tf_timesteps f) (t_shows f) (t_nt f OK) (t_ld f OK) (t_shows_unique f) d0 E st _ _
      (fun d t => t_getb_touch bld (t_load f) (tf_timesteps f) d t 0)
      (t_touch_sane bld (t_load f) _ (t_shows f) d0 (t_nt f OK) (t_ld f OK) (t_shows_unique f)) Nt Ta l mt d0 sel_default d s
      (new_sane bld (t_load f) _ (t_shows f) (t_nt f OK) (t_ld f OK) (t_shows_unique f) d0 E) Hl R) as [S W].
    rewrite window_fold in W.
    destruct (t_list f st OK Nt) as [L [V H1]]. exists L. split; [exact V|].
    assert (H2 : forall t x, (t < tf_timesteps f)%N -> t_shows f t x -> at_ L t x).
    { intros t x Ht Sx. destruct (lt_at L t ltac:(lia)) as [y Hy]. rewrite (t_shows_unique f t x y Sx (H1 t y Hy)). exact Hy. }
    split. { intros t x. split; [intros Hx; split; [rewrite <- V; now apply at_lt in Hx | now apply H1] | intros [Ht Hs]; now apply H2]. }
    split; [|split; [exact W | rewrite W; apply window_ok]].
    split; [|split].
    - split; [cbn [t_mgr m_stats]; congruence|]. exists (sane (tf_timesteps f) (t_shows f) d0). split; [exact S|].
      intros e t x Se Hx. assert (Ht : (t < tf_timesteps f)%N) by (rewrite <- V; now apply at_lt in Hx).
      destruct (get_sane bld (t_load f) _ _ (t_nt f OK) (t_ld f OK) (t_shows_unique f) d0 E e t Se Ht) as [e' [y [G [Gy [S' _]]]]].
      exists e'. split; [|exact S']. cbn [t_mgr m_get]. rewrite G. now rewrite (t_shows_unique f t x y (H1 t x Hx) Gy).
    - intros ->. destruct (t_nt f OK). cbn in V. lia.
    - apply Forall_forall. intros x Hx. apply In_nth_error in Hx. destruct Hx as [k Hk].
      assert (A : at_ L (N.of_nat k) x) by (unfold at_; now rewrite Nnat.Nat2N.id).
      apply (Rc (N.of_nat k)); [rewrite <- V; now apply at_lt in A | now apply H1].
  Qed.
End Session.

(** ** The answers, in doubles *)
Section Answers.
  Context {TF : Trig f64} (bld : build) (M : mgr f64) (mt : f64) (d : ms M) (s : selector f64) (L : list (timestep f64)).
  Hypothesis Rec : recorded M d L.
  Hypothesis Sel : sel_ok s.

  (** number_field(grid): the samples of the time window in each cell. *)
  Theorem c125_number (g : grid f64) cg : wf_grid g -> geo g = Cart cg -> sized (cc_cells cg) ->
    exists d' h, py_call bld M mt (d, s) (CNumberfield g) = Val ((d', s), AGrid h) /\ recorded M d' L /\ geo h = geo g /\
    forall c, inb3 (cc_cells cg) c = true ->
      let l := samples_in bld (geo g) c (observed s L) in
      (vlen l <= 2 ^ 53)%N -> is_finite (at3 (data h) c) = true /\ B2R (at3 (data h) c) = NR (vlen l).
  Proof.
    intros W G Sz. destruct (c34_number_of_samples bld M d L g cg s Rec Sel W G Sz) as [d' [h [E [R' [Gh H]]]]].
    exists d', h. cbn [py_call]. unfold ask. rewrite E. split; [reflexivity|]. split; [exact R'|]. split; [exact Gh | exact H].
  Qed.
  (** velocity_field(grid, mode, min_velocity, max_velocity): the mean of the chosen component over the
      samples in each cell whose component is not outside the limits. *)
  Theorem c125_velocity (g : grid f64) cg mode calc vmin vmax : fresh g -> geo g = Cart cg -> sized (cc_cells cg) -> velocity_mode mode = Val calc ->
    exists d' h, py_call bld M mt (d, s) (CVelocityfield g mode vmin vmax) = Val ((d', s), AGrid h) /\ recorded M d' L /\ geo h = geo g /\
    forall c, inb3 (cc_cells cg) c = true ->
      let l := filter (vel_keep calc vmin vmax) (samples_in bld (geo g) c (observed s L)) in
      (l = [] -> is_nan (at3 (data h) c) = true) /\
      ((vlen l <= 2 ^ 53)%N -> exists n : f64, is_finite n = true /\ B2R n = NR (vlen l) /\ at3 (weight h) c = n /\
        at3 (data h) c = ndiv (fold_left nadd (map (fun m => calc (sm_vel m)) l) (f64_of_Z 0)) n).
  Proof.
    intros W G Sz Md. destruct (c35_mean bld M d L g cg s mode calc vmin vmax Rec Sel W G Sz Md) as [d' [h [E [R' [Gh H]]]]].
    exists d', h. cbn [py_call]. unfold ask. rewrite E. split; [reflexivity|]. split; [exact R'|]. split; [exact Gh | exact H].
  Qed.
  (** vector_field(grid). *)
  Theorem c125_vector (g : grid f64) cg : fresh g -> geo g = Cart cg -> sized (cc_cells cg) ->
    exists d' v, py_call bld M mt (d, s) (CVectorfield g) = Val ((d', s), AVec v) /\ recorded M d' L /\
    forall k c, (k <= 2)%N -> inb3 (cc_cells cg) c = true ->
      let l := vectors bld g s L c in
      (l = [] -> is_nan (at3 (data (VecProofs.comp k v)) c) = true) /\
      ((vlen l <= 2 ^ 53)%N -> exists n : f64, is_finite n = true /\ B2R n = NR (vlen l) /\ at3 (weight (VecProofs.comp k v)) c = n /\
         at3 (data (VecProofs.comp k v)) c = ndiv (fold_left nadd (map (fun m => v3i k (sm_vel m)) l) (f64_of_Z 0)) n).
  Proof.
    intros W G Sz. destruct (c36_vector_mean bld M d L g cg s Rec Sel W G Sz) as [d' [v [E [R' H]]]].
    exists d', v. cbn [py_call]. unfold ask. rewrite E. split; [reflexivity|]. split; [exact R' | exact H].
  Qed.
  (** histogram(grid, property, bins, limit). *)
  Theorem c125_histogram (g : grid f64) bins limit : (1 <= bins)%N -> (vlen (sampled g s L) <= 2 ^ 53)%N ->
    let edges := bin_edges (hist_lo (m_stats M)) (hist_hi (m_stats M) limit) bins in
    exists d' h, py_call bld M mt (d, s) (CHistogram g "velocity" bins limit) = Val ((d', s), ALists h edges) /\ vlen h = bins /\
      forall b, (b < bins)%N -> exists n : f64, at_ h b n /\ is_finite n = true /\ B2R n = NR (vlen (filter (in_bin edges b) (sampled g s L))).
  Proof.
    intros Hb Small. destruct (c38_counts bld M d L g s limit bins Rec Sel Hb Small) as [d' [h [E [V H]]]]. intros edges.
    exists d', h. cbn [py_call]. unfold ask. rewrite E. cbn [bind fst snd]. split; [reflexivity|]. split; [exact V | exact H].
  Qed.
  Theorem c125_histogram_other (g : grid f64) p bins limit : p <> "velocity" -> py_call bld M mt (d, s) (CHistogram g p bins limit) = Panic.
  Proof. intros H. cbn [py_call]. rewrite (c38_other_property_refused bld M d g s p limit bins H). reflexivity. Qed.
  (** concentration_field(grid, type_a, type_b). *)
  Theorem c125_concentration (g : grid f64) cg ta tb : wf_grid g -> geo g = Cart cg -> sized (cc_cells cg) -> ta <> tb ->
    exists d' h, py_call bld M mt (d, s) (CConcentration g ta tb) = Val ((d', s), AGrid h) /\ recorded M d' L /\ geo h = geo g /\
    forall c, inb3 (cc_cells cg) c = true ->
      let l := samples_in bld (geo g) c (observed s (removelast L)) in
      let a := number_of ta l in let b := number_of tb l in
      (a + b <= 2 ^ 53)%N ->
      ((a + b = 0)%N -> is_nan (at3 (data h) c) = true) /\
      ((0 < a + b)%N -> B2R (at3 (data h) c) = rnd (NR a / NR (a + b))).
  Proof.
    intros W G Sz Ne. destruct (c44_share bld M d L g cg s ta tb Rec Sel W G Sz Ne) as [d' [h [E [R' [Gh H]]]]].
    exists d', h. cbn [py_call]. unfold ask. rewrite E. split; [reflexivity|]. split; [exact R'|]. split; [exact Gh|].
    intros c Hc Small. destruct (H c Hc Small) as [H1 [H2 _]]. split; [exact H1|]. intros Pos. now destruct (H2 Pos) as [_ [Q _]].
  Qed.
  (** extract(particle, start, end). *)
  Theorem c125_extract pid a b : (a <= b)%N -> (b < vlen L)%N -> (b * 7 < 2 ^ 63)%N ->
    (forall t x, (a <= t < b)%N -> at_ L t x -> (pid < vlen (ts_pos x))%N) ->
    exists d' rows, py_call bld M mt (d, s) (CExtract pid a b) = Val ((d', s), ATable rows) /\ recorded M d' L /\ vlen rows = (b - a)%N /\
      forall i x m, (i < b - a)%N -> at_ L (a + i) x -> at_ (samples x) pid m -> at_ rows i (row_of m).
  Proof.
    intros H1 H2 H3 H4. destruct (c46_rows bld M d L pid a b Rec H1 H2 H3 H4) as [d' [rows [E [R' [V H]]]]].
    exists d', rows. cbn [py_call]. unfold ask. rewrite E. split; [reflexivity|]. split; [exact R'|]. split; [exact V | exact H].
  Qed.
End Answers.

Section Any.
  Context {F : Type} {NF : Num F} {TF : Trig F}.
  Lemma ask_val (M : mgr F) {A} s (r : res (ms M * A)) (k : A -> answer F) d' s' a : ask M s r k = Val ((d', s'), a) ->
    exists x, r = Val (d', x) /\ s' = s /\ a = k x.
  Proof.
    unfold ask. intros E. apply bind_val in E. destruct E as [[e x] [E Q]]. cbn [fst snd] in Q. apply Val_pair in Q. destruct Q as [Q <-].
    assert (Q' : Val (e, s) = Val (d', s')) by (now f_equal). apply Val_pair in Q'. destruct Q' as [-> <-]. exists x. auto.
  Qed.

  Context (bld : build) (M : mgr F) (mt : F) (d : ms M) (s : selector F).
  (** The attributes. *)
  Theorem c125_attributes :
    let st := m_stats M in
    py_call bld M mt (d, s) CLen = Val ((d, s), ACount (st_timesteps st)) /\
    py_call bld M mt (d, s) CNparticles = Val ((d, s), ACount (st_nparticles st)) /\
    py_call bld M mt (d, s) CTime = Val ((d, s), AList (st_time st)) /\
    py_call bld M mt (d, s) CDimensions = Val ((d, s), ADims (fst (st_dims st), snd (st_dims st))) /\
    py_call bld M mt (d, s) CMinPosition = Val ((d, s), APos (fst (st_dims st))) /\
    py_call bld M mt (d, s) CMaxPosition = Val ((d, s), APos (snd (st_dims st))) /\
    py_call bld M mt (d, s) CMeanVelocity = Val ((d, s), ANum (snd (fst (st_velmag st)))).
  Proof.
    cbn [py_call]. unfold mean_velocity. destruct (st_dims (m_stats M)) as [lo hi], (st_velmag (m_stats M)) as [[a b] c]. repeat split.
  Qed.
  (** set_time(min, max): refused beyond the end of the data set, otherwise the window is the one given. *)
  Theorem c125_set_time a b :
    (nltb mt a = true -> py_call bld M mt (d, s) (CSetTime a b) = Panic) /\
    (nltb mt a = false -> exists s', py_call bld M mt (d, s) (CSetTime a b) = Val ((d, s'), ANone) /\
       s_time s' = (a, b) /\ s_radius s' = s_radius s /\ s_density s' = s_density s /\ s_clouds s' = s_clouds s /\ s_ids s' = s_ids s).
  Proof.
    cbn [py_call]. unfold py_set_time. split; intros ->; [reflexivity|]. cbn [bind]. eexists. split; [reflexivity|]. repeat split.
  Qed.

  Section Rec.
    Variable L : list (timestep F).
    Hypothesis Rec : recorded M d L.
    Hypothesis Sel : sel_ok s.
    (** circulation_time(position, axis) and circulation_time_boundaries(position0, position1, axis). *)
    Theorem c125_circulation pos axis d' s' a : py_call bld M mt (d, s) (CCirculation pos axis) = Val ((d', s'), a) ->
      s' = s /\ recorded M d' L /\ within_range M axis pos /\ exists out, a = AList out /\
      Permutation out (flat_map (fun i => map duration (thirds (crossings s axis pos L i))) (range 0 (st_nparticles (m_stats M) + 1))).
    Proof.
      cbn [py_call]. intros E. apply ask_val in E. destruct E as [out [E [-> ->]]].
      destruct (c47_times bld M d s axis pos L d' out Rec Sel E) as [R' P]. split; [reflexivity|]. split; [exact R'|]. split.
      - apply in_dims_range. unfold circulation_time in E. apply bind_val in E. destruct E as [ok [E1 E]]. destruct ok; [exact E1 | discriminate].
      - exists out. split; [reflexivity | exact P].
    Qed.
    Theorem c125_circulation_two p0 p1 axis d' s' a : py_call bld M mt (d, s) (CCirculation2 p0 p1 axis) = Val ((d', s'), a) ->
      s' = s /\ recorded M d' L /\ within_range M axis p0 /\ within_range M axis p1 /\ exists out, a = APairs out /\
      Permutation out (flat_map (fun i => trips (passings s axis p0 p1 L i)) (range 0 (st_nparticles (m_stats M) + 1))).
    Proof.
      cbn [py_call]. intros E. apply ask_val in E. destruct E as [out [E [-> ->]]].
      destruct (c48_intervals bld M d s axis p0 p1 L d' out Rec Sel E) as [R' P]. split; [reflexivity|]. split; [exact R'|].
      unfold circulation_time_two_boundary in E. apply bind_val in E. destruct E as [ok [E1 E]]. destruct ok; [|discriminate].
      cbn [negb] in E. apply bind_val in E. destruct E as [ok [E2 E]]. destruct ok; [|discriminate].
      split; [now apply in_dims_range|]. split; [now apply in_dims_range|].
      exists out. split; [reflexivity | exact P].
    Qed.
    (** data[i], data[[i, ...]] and data[a:b:c]. *)
    Hypothesis Small : (vlen L < 2 ^ 63)%N.
    Notation np := (st_nparticles (m_stats M)).
    Theorem c125_item i t : picks (vlen L) i t ->
      exists d' x tbl, at_ L t x /\ py_call bld M mt (d, s) (CItem i) = Val ((d', s), ATable tbl) /\ shown_as x tbl /\ recorded M d' L.
    Proof.
      intros P. destruct (c60_int M d L Rec Small i t P) as [d' [x [tbl [A [E [S R]]]]]]. exists d', x, tbl. split; [exact A|].
      cbn [py_call]. unfold ask. rewrite E. split; [reflexivity|]. split; [exact S | exact R].
    Qed.
    Theorem c125_items (l : list Z) (ts : list N) : (vlen l < 2 ^ 63)%N ->
      Forall (fun x => vlen (ts_pos x) <= np)%N L -> Forall2 (picks (vlen L)) l ts ->
      exists d' out, py_call bld M mt (d, s) (CItems l) = Val ((d', s), ABlocks out) /\ recorded M d' L /\ vlen out = vlen l /\
        forall k t x, at_ ts k t -> at_ L t x -> exists b, at_ out k b /\ padded np x b.
    Proof.
      intros Hl Hn P. destruct (c60_list M d L Rec Small l ts Hl Hn P) as [d' [out [E [R [V H]]]]]. exists d', out.
      cbn [py_call]. unfold ask. rewrite E. split; [reflexivity|]. split; [exact R|]. split; [exact V | exact H].
    Qed.
    Theorem c125_slice (start stop step : option Z) :
      let n := Z.of_N (vlen L) in
      let a := clamp n start 0 in let b := clamp n stop n in
      let k := match step with Some k => k | None => 1%Z end in
      Forall (fun x => vlen (ts_pos x) <= np)%N L ->
      (0 < k < 2 ^ 63)%Z -> (a <= b)%Z -> (k | b - a)%Z ->
      exists d' out, py_call bld M mt (d, s) (CSlice start stop step) = Val ((d', s), ABlocks out) /\ recorded M d' L /\
        Z.of_N (vlen out) = ((b - a) / k)%Z /\
        forall j, (j < vlen out)%N -> exists t x blk, (Z.of_N t = a + Z.of_N j * k)%Z /\ (Z.of_N t < b)%Z /\
          at_ L t x /\ at_ out j blk /\ padded np x blk.
    Proof.
      intros n a b k Hn Hk Hab Dv. destruct (c60_slice M d L Rec Small start stop step Hn Hk Hab Dv) as [d' [out [E [R [V H]]]]]. exists d', out.
      cbn [py_call]. unfold ask. rewrite E. split; [reflexivity|]. split; [exact R|]. split; [exact V | exact H].
    Qed.
  End Rec.

  (** occupancy_field(grid, min_velocity): the time spent in each cell as a share of the total. *)
  Theorem c125_occupancy can (L : list (timestep F)) g min_vel d' s' a :
    aux_reads can M d L -> (forall t, can t (t + 1)%N) -> (3 <= vlen L)%N -> Forall rect L -> sel_ok s -> wf_grid g ->
    py_call bld M mt (d, s) (COccupancy g min_vel) = Val ((d', s'), a) ->
    s' = s /\ exists h, a = AGrid h /\ geo h = geo g /\ forall c,
      at3 (data h) c = ndiv (fold_left nadd (deposited c (flat_map (stay_deposits bld (geo g)) (counted g s min_vel L))) n0)
                            (fold_left nadd (map y_spent (counted g s min_vel L)) n0).
  Proof.
    intros A C N3 Rc Sk W E. cbn [py_call] in E. apply ask_val in E. destruct E as [h [E [-> ->]]]. split; [reflexivity|].
    exists h. split; [reflexivity|]. exact (c37_shares can bld M d L g s min_vel d' h A C N3 Rc Sk W E).
  Qed.
End Any.

(** ** The answers in exact arithmetic *)
Section Ideal.
  Local Open Scope R_scope.
  Context {TF : Trig R} (bld : build) (M : mgr R) (mt : R) (d : ms M) (s : selector R) (L : list (timestep R)).
  Hypothesis Sel : sel_ok s.
  (** granular_temperature(grid, mode). *)
  Theorem c125_temperature (g : grid R) mode d' s' a : recorded M d L -> fresh g -> In mode temp_modes ->
    py_call bld M mt (d, s) (CTemperature g mode) = Val ((d', s'), a) ->
    s' = s /\ exists h, a = AGrid h /\ forall c, inb3 (geom_cells (geo g)) c = true ->
      let l := samples_in bld (geo g) c (observed s L) in
      at3 (weight h) c = INR (List.length l) /\
      (l <> [] -> 0 <= mode_var mode l /\ at3 (data h) c = sqrt (mode_var mode l)).
  Proof.
    intros Rec W Md E. cbn [py_call] in E. apply ask_val in E. destruct E as [h [E [-> ->]]]. split; [reflexivity|].
    exists h. split; [reflexivity|]. exact (c39_standard_deviation bld M d L g s mode d' h Rec Sel W Md E).
  Qed.
  (** lacey_mixing_index(grid, type_a, type_b, threshold). *)
  Theorem c125_lacey (g : grid R) ta tb thr d' s' a : recorded M d L -> fresh g -> ta <> tb -> (1 <= thr)%N ->
    py_call bld M mt (d, s) (CLacey g ta tb thr) = Val ((d', s'), a) ->
    s' = s /\ exists time mix, a = ALists time mix /\ vlen time = (vlen L - 1)%N /\ vlen mix = (vlen L - 1)%N /\
    forall t x, at_ (removelast L) t x ->
      if timestep_valid s (ts_time x)
      then at_ time t (ts_time x) /\
           let l := observed s [x] in
           at_ mix t (lacey_index (vlen (ids3 (geom_cells (geo g)))) (share ta tb l)
                        (map (fun c => share ta tb (samples_in bld (geo g) c l)) (full_cells bld g ta tb thr l)))
      else at_ time t 0 /\ at_ mix t 0.
  Proof.
    intros Rec W Ne Th E. cbn [py_call] in E. apply ask_val in E. destruct E as [[time mix] [E [-> ->]]]. split; [reflexivity|].
    exists time, mix. split; [reflexivity|]. exact (c43_index bld M d L g s ta tb thr d' time mix Rec Sel W Ne Th E).
  Qed.
  Section Aux.
    Variable can : N -> N -> Prop.
    Hypothesis A : aux_reads can M d L.
    Hypothesis Ne : L <> [].
    Hypothesis Ti : vlen (st_time (m_stats M)) = vlen L.
    Hypothesis Rc : Forall rect L.
    (** dispersion(grid, time). *)
    Theorem c125_dispersion (g : grid R) dt d' s' a : fresh g -> py_call bld M mt (d, s) (CDispersion g dt) = Val ((d', s'), a) ->
      s' = s /\ exists h mean, a = AGridNum h mean /\ geo h = geo g /\
      (forall c, inb3 (geom_cells (geo g)) c = true ->
        let l := FunDisp.moves_in bld g c (FunDisp.moves bld (st_time (m_stats M)) dt s L) in
        ((2 <= List.length l)%nat -> at3 (data h) c = spread (map snd l) /\ at3 (weight h) c = 1) /\
        ((List.length l < 2)%nat -> at3 (data h) c = 0 /\ at3 (weight h) c = 0)) /\
      mean = Rsum (map (fun c => at3 (weight h) c * at3 (data h) c) (ids3 (geom_cells (geo g)))) /
             Rsum (map (at3 (weight h)) (ids3 (geom_cells (geo g)))).
    Proof.
      intros W E. cbn [py_call] in E. apply ask_val in E. destruct E as [[h mean] [E [-> ->]]]. split; [reflexivity|].
      destruct (c40_sample_variance can bld M d L g s dt d' h mean A Ne Ti Rc Sel W E) as [G [H Q]].
      exists h, mean. split; [reflexivity|]. split; [exact G|]. split; [|exact Q]. intros c Hc. destruct (H c Hc) as [H1 H2]. split; [|exact H2].
      intros Two. destruct (H1 Two) as [P1 [P2 _]]. auto.
    Qed.
    (** mean_squared_displacement_field(grid, time) and mean_squared_displacement(grid, min, max, steps). *)
    Theorem c125_msd_field (g : grid R) dt d' s' a : fresh g -> py_call bld M mt (d, s) (CMsdField g dt) = Val ((d', s'), a) ->
      s' = s /\ exists h, a = AGrid h /\ geo h = geo g /\ forall c, inb3 (geom_cells (geo g)) c = true ->
        let l := FunDisp.moves_in bld g c (moves_before_last bld (st_time (m_stats M)) dt s L) in
        let total := Rsum (map travelled l) in
        at3 (weight h) c = NR (vlen l) /\ (l = [] -> at3 (data h) c = 0) /\ (l <> [] -> at3 (data h) c = total * total / NR (vlen l)).
    Proof.
      intros W E. cbn [py_call] in E. apply ask_val in E. destruct E as [h [E [-> ->]]]. split; [reflexivity|].
      destruct (c45_field can bld M d L g s dt d' h A Ne Ti Rc Sel W E) as [_ [G H]]. exists h. auto.
    Qed.
    Theorem c125_msd (g : grid R) tmin tmax steps d' s' a : fresh g -> py_call bld M mt (d, s) (CMsd g tmin tmax steps) = Val ((d', s'), a) ->
      s' = s /\ exists ms time, a = ALists ms time /\ vlen ms = steps /\ vlen time = steps /\
      forall i, (i < steps)%N -> exists t v, at_ time i t /\ at_ ms i v /\
        ((1 < steps)%N -> t = tmin + NR i * ((tmax - tmin) / (NR steps - 1))) /\
        let cells := ids3 (geom_cells (geo g)) in
        let far c := Rsum (map travelled (FunDisp.moves_in bld g c (moves_before_last bld (st_time (m_stats M)) t s L))) in
        let n c := NR (vlen (FunDisp.moves_in bld g c (moves_before_last bld (st_time (m_stats M)) t s L))) in
        v = Rsum (map (fun c => far c * far c) cells) / Rsum (map n cells).
    Proof.
      intros W E. cbn [py_call] in E. apply ask_val in E. destruct E as [[ms time] [E [-> ->]]]. split; [reflexivity|].
      exists ms, time. split; [reflexivity|]. exact (c45_msd can bld M d L g s tmin tmax steps d' ms time A Ne Ti Rc Sel W E).
    Qed.
    (** homogenity_index(grid, min_velocity): the standard deviation of the occupancy over the layers. *)
    Theorem c125_homogenity (g : grid R) min_vel d' s' a :
      (forall t, can t (t + 1)%N) -> (3 <= vlen L)%N -> wf_grid g ->
      py_call bld M mt (d, s) (CHomogenity g min_vel) = Val ((d', s'), a) ->
      s' = s /\ exists h layers, py_call bld M mt (d, s) (COccupancy g min_vel) = Val ((d', s), AGrid h) /\ collapse_two h 0 1 = Val layers /\
        (layers <> [] -> a = ANum (sqrt (Rvar layers))).
    Proof.
      intros C N3 W E. cbn [py_call] in E. apply ask_val in E. destruct E as [v [E [-> ->]]]. split; [reflexivity|].
      unfold homogenity_index in E. apply bind_val in E. destruct E as [[e h] [E1 E]]. apply bind_val in E. destruct E as [layers [E2 E]].
      cbn [fst snd] in *. apply Val_pair in E. destruct E as [-> Ev]. exists h, layers. cbn [py_call]. unfold ask. rewrite E1. split; [reflexivity|]. split; [exact E2|].
      intros Ne'. rewrite <- Ev. now rewrite (proj1 (c42_standard_deviation layers Ne')).
    Qed.
  End Aux.
End Ideal.

(** A session: a time window from 1 to 2, an item, then the number field of a grid over the file. *)
Example c125_case {TF : Trig f64} bld : pf_ok (ex_pfile 1 3) /\ stats_ok ex_st3 3 /\
  Forall (call_ok (F := f64) 3) [CSetTime (d 1) (d 2); CItem (-1)]%Z /\
  after (dm_new bld (p_load (ex_pfile 1 3)) 3) (fun d0 =>
  after (cart_new (2, 2, 2)%N (ThreeD ((d 0, d 4), (d 0, d 4), (d 0, d 4)))) (fun g =>
  after (py_calls bld (p_mgr bld (ex_pfile 1 3) ex_st3) (d 2) [CSetTime (d 1) (d 2); CItem (-1)]%Z (d0, sel_default)) (fun st =>
    after (py_call bld (p_mgr bld (ex_pfile 1 3) ex_st3) (d 2) st (CNumberfield g)) (fun r =>
      match snd r with AGrid h => same (at3 (data h) (0, 0, 0)%N) (d 2) | _ => False end) /\
    py_call bld (p_mgr bld (ex_pfile 1 3) ex_st3) (d 2) st (CSetTime (d 3) (d 4)) = Panic))).
Proof.
  split; [apply ex_pfile_ok; lia|]. split; [split; reflexivity|]. split; [repeat constructor; cbn; lia|].
  destruct bld; vm_compute; split; reflexivity.
Qed.
