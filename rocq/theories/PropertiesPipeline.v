(** * PropertiesPipeline: from the original files to the result of an analysis

    C118: what a session reads.  C119: particle counts, end to end.  C120: opening converted files. *)
From Coq Require Import Reals List NArith ZArith Bool Lia Lra String Permutation ZifyBool ZifyN ZifyNat.
From Flocq Require Import Core.Core IEEE754.BinarySingleNaN.
From Verif Require Import Base BaseFacts Num F64Facts RFacts NDArray GridModel GridSpec GridFacts CartProofs SelModel PropertiesSel DataModel DataSpec DataProofs DataLoad PropertiesGrid PropertiesData FunModel FunSpec FunProofs FunMgr FunField PropertiesFun MixModel CondModel PyModel PyGridModel PropertiesPyGrid FunRefine SessionModel SessionSpec SessionProofs PropertiesSession
  ConvModel ConvSort ConvCsv PropertiesCsv ConvVtk ConvIds ConvMulti ConvIdChain PropertiesMulti.
Local Open Scope string_scope.
Local Open Scope list_scope.

(** pdata.rs 925-1043, tdata.rs 903-1022: the statistics of an opened file are the attributes its
    converter wrote. *)
Definition open_stats {F} {NF : Num F} (h : header F) : stats F :=
  mkStats (h_timesteps h) (h_nparticles h) (h_mag h) (h_times h) (h_dims h).

(** ** C118: in every state of a session the manager reads the file *)
Theorem c118_p_recorded (bld : build) (f : pfile f64) (st : stats f64) d0 d : pf_ok f -> st_timesteps st = pf_timesteps f ->
  dm_new bld (p_load f) (pf_timesteps f) = Val d0 ->
  reached (p_mgr bld f st) (p_touch bld (p_load f) (pf_timesteps f)) (pf_timesteps f) d0 d ->
  exists L, vlen L = pf_timesteps f /\ (forall t x, at_ L t x <-> (t < pf_timesteps f)%N /\ p_shows f t x) /\ recorded (p_mgr bld f st) d L.
Proof.
  intros OK Nt E R. destruct (p_list f st OK Nt) as [L [V [H1 H2]]]. exists L. split; [exact V|].
  split. { intros t x. split; [intros Hx; split; [rewrite <- V; now apply at_lt in Hx | now apply H1] | intros [Ht Hs]; now apply H2]. }
  split; [|split].
  - split; [cbn [p_mgr m_stats]; congruence|]. exists (sane (pf_timesteps f) (p_shows f) d0). split.
    + exact (reached_sane bld (p_load f) _ (p_shows f) (p_nt f OK) (p_ld f OK) (p_shows_unique f) d0 E st _ _
        (fun d t => p_getb_touch bld (p_load f) _ d t 0)
        (p_touch_sane bld (p_load f) _ (p_shows f) d0 (p_nt f OK) (p_ld f OK) (p_shows_unique f)) d R).
    + intros e t x Se Hx. assert (Ht : (t < pf_timesteps f)%N) by (rewrite <- V; now apply at_lt in Hx).
      destruct (get_sane bld (p_load f) _ _ (p_nt f OK) (p_ld f OK) (p_shows_unique f) d0 E e t Se Ht) as [e' [y [G [Gy [S' _]]]]].
      exists e'. split; [|exact S']. cbn [p_mgr m_get]. rewrite G. now rewrite (p_shows_unique f t x y (H1 t x Hx) Gy).
  - intros ->. destruct (p_nt f OK). cbn in V. lia.
  - apply Forall_forall. intros x Hx. apply In_nth_error in Hx. destruct Hx as [k Hk].
    apply (p_rect f st Nt (N.of_nat k)). apply H1. unfold at_. now rewrite Nnat.Nat2N.id.
Qed.
Theorem c118_t_recorded (bld : build) (f : tfile f64) (st : stats f64) d0 d : tf_ok f -> tf_rect f -> st_timesteps st = tf_timesteps f ->
  dm_new bld (t_load f) (tf_timesteps f) = Val d0 ->
  reached (t_mgr bld f st) (t_touch bld (t_load f) (tf_timesteps f)) (tf_timesteps f) d0 d ->
  exists L, vlen L = tf_timesteps f /\ (forall t x, at_ L t x <-> (t < tf_timesteps f)%N /\ t_shows f t x) /\ recorded (t_mgr bld f st) d L.
Proof.
  intros OK Rc Nt E R. destruct (t_list f st OK Nt) as [L [V H1]]. exists L. split; [exact V|].
  assert (H2 : forall t x, (t < tf_timesteps f)%N -> t_shows f t x -> at_ L t x).
  { intros t x Ht Sx. destruct (lt_at L t ltac:(lia)) as [y Hy]. rewrite (t_shows_unique f t x y Sx (H1 t y Hy)). exact Hy. }
  split. { intros t x. split; [intros Hx; split; [rewrite <- V; now apply at_lt in Hx | now apply H1] | intros [Ht Hs]; now apply H2]. }
  split; [|split].
  - split; [cbn [t_mgr m_stats]; congruence|]. exists (sane (tf_timesteps f) (t_shows f) d0). split.
    + exact (reached_sane bld (t_load f) _ (t_shows f) (t_nt f OK) (t_ld f OK) (t_shows_unique f) d0 E st _ _
        (fun d t => t_getb_touch bld (t_load f) _ d t 0)
        (t_touch_sane bld (t_load f) _ (t_shows f) d0 (t_nt f OK) (t_ld f OK) (t_shows_unique f)) d R).
    + intros e t x Se Hx. assert (Ht : (t < tf_timesteps f)%N) by (rewrite <- V; now apply at_lt in Hx).
      destruct (get_sane bld (t_load f) _ _ (t_nt f OK) (t_ld f OK) (t_shows_unique f) d0 E e t Se Ht) as [e' [y [G [Gy [S' _]]]]].
      exists e'. split; [|exact S']. cbn [t_mgr m_get]. rewrite G. now rewrite (t_shows_unique f t x y (H1 t x Hx) Gy).
  - intros ->. destruct (t_nt f OK). cbn in V. lia.
  - apply Forall_forall. intros x Hx. apply In_nth_error in Hx. destruct Hx as [k Hk].
    assert (A : at_ L (N.of_nat k) x) by (unfold at_; now rewrite Nnat.Nat2N.id).
    apply (Rc (N.of_nat k)); [rewrite <- V; now apply at_lt in A | now apply H1].
Qed.

(** ** C119 *)
Lemma forallb_filter_id' {A} (f : A -> bool) l : forallb f l = true -> filter f l = l.
Proof. induction l as [|a l IH]; [reflexivity|]. cbn. destruct (f a); [|discriminate]. cbn. intros H. now rewrite IH. Qed.

Section Counts.
  Context {TF : Trig f64}.
  (** How many of the positions lie in cell [c] of the grid. *)
  Definition n_in (bld : build) (g : grid f64) (c : id3) (P : list (v3 f64)) : N := vlen (filter (in_cell bld (geo g) c) P).

  Lemma rows_pos t : forall (ps vs : list (v3 f64)) rs cs ds is ys,
    List.length vs = List.length ps -> List.length rs = List.length ps -> List.length cs = List.length ps -> List.length ds = List.length ps ->
    List.length is = List.length ps -> List.length ys = List.length ps ->
    map sm_pos (rows t ps vs rs cs ds is ys) = ps.
  Proof.
    induction ps as [|p ps IH]; intros [|v vs] [|r rs] [|c cs] [|e ds] [|i is] [|y ys]; cbn; intros; try lia; [reflexivity|].
    f_equal. apply IH; lia.
  Qed.
  Lemma samples_pos (x : timestep f64) : rect x -> map sm_pos (samples x) = ts_pos x.
  Proof. intros [A [B [C [D [E G]]]]]. apply rows_pos; assumption. Qed.
  Lemma samples_time (x : timestep f64) m : In m (samples x) -> sm_time m = ts_time x.
  Proof.
    unfold samples. generalize (ts_vel x) (ts_radius x) (ts_clouds x) (ts_density x) (ts_id x) (ts_type x).
    induction (ts_pos x) as [|p ps IH]; intros [|v vs] [|r rs] [|c cs] [|e ds] [|i is] [|y ys]; cbn; try tauto.
    intros [<-|H]; [reflexivity | now apply (IH vs rs cs ds is ys)].
  Qed.
  Lemma all_observed (L : list (timestep f64)) : Forall (fun x => is_finite (ts_time x) = true) L -> observed sel_default L = flat_map samples L.
  Proof.
    intros Fin. unfold observed. apply forallb_filter_id'. apply forallb_forall. intros m Hm. apply in_flat_map in Hm.
    destruct Hm as [x [Hx Hm]]. rewrite Forall_forall in Fin. unfold chosen, accepts. rewrite (samples_time x m Hm).
    rewrite c27_default_accepts_every_finite_time by now apply Fin. now rewrite c27_default_accepts_all.
  Qed.
  Lemma count_pos bld ge c (l : list (sample f64)) : vlen (samples_in bld ge c l) = vlen (filter (in_cell bld ge c) (map sm_pos l)).
  Proof.
    unfold samples_in, vlen. f_equal. induction l as [|m l IH]; [reflexivity|]. cbn [map filter].
    destruct (in_cell bld ge c (sm_pos m)); cbn [Datatypes.length]; now rewrite IH.
  Qed.
  Lemma flat_pos (L : list (timestep f64)) : Forall rect L -> map sm_pos (flat_map samples L) = concat (map ts_pos L).
  Proof.
    induction 1 as [|x L Rx _ IH]; [reflexivity|]. cbn [flat_map map concat]. rewrite map_app, IH, samples_pos by exact Rx. reflexivity.
  Qed.
  Lemma filter_le {A} (f : A -> bool) l : (vlen (filter f l) <= vlen l)%N.
  Proof. unfold vlen. induction l as [|a l IH]; cbn; [lia|]. destruct (f a); cbn; lia. Qed.

  (** [numberfield] with no window set, on whatever is recorded. *)
  Lemma number_counts bld (M : mgr f64) d L (g : grid f64) (cg : cart_geom f64) :
    recorded M d L -> Forall (fun x => is_finite (ts_time x) = true) L -> wf_grid g -> geo g = Cart cg -> sized (cc_cells cg) ->
    (vlen (concat (map ts_pos L)) <= 2 ^ 53)%N ->
    exists d' h, numberfield bld M d g sel_default = Val (d', h) /\ geo h = geo g /\
      forall c, inb3 (cc_cells cg) c = true -> B2R (at3 (data h) c) = NR (n_in bld g c (concat (map ts_pos L))).
  Proof.
    intros Rec Fin W G Sz Small. assert (Sk : sel_ok (sel_default (F := f64))) by (repeat split; discriminate).
    destruct (c34_number_of_samples bld M d L g cg sel_default Rec Sk W G Sz) as [d' [h [E [_ [Gh H]]]]].
    exists d', h. split; [exact E|]. split; [exact Gh|]. intros c Hc.
    rewrite (all_observed L Fin) in H. assert (Rl : Forall rect L) by apply Rec.
    specialize (H c Hc). rewrite count_pos, (flat_pos L Rl) in H.
    destruct H as [_ H]; [|exact H]. assert (Q := filter_le (in_cell bld (geo g) c) (concat (map ts_pos L))). lia.
  Qed.
  (** Each position inside is in exactly one cell. *)
  Lemma counts_total bld (g : grid f64) (cg : cart_geom f64) (P : list (v3 f64)) : geo g = Cart cg -> sized (cc_cells cg) ->
    (forall p, In p P -> is_inside g p = true) ->
    Rsum (map (fun c => NR (n_in bld g c P)) (ids3 (cc_cells cg))) = NR (vlen P).
  Proof.
    intros G Sz Hin. set (l := map (fun p => mkSample (n0 : f64) p p n0 n0 n0 n0 n0) P).
    assert (Ep : map sm_pos l = P) by (unfold l; rewrite map_map; cbn [sm_pos]; apply map_id).
    assert (Q := c34_nothing_lost bld g cg l G Sz).
    assert (Fa : filter (fun m => is_inside g (sm_pos m)) l = l).
    { apply forallb_filter_id'. apply forallb_forall. intros m Hm. apply Hin. rewrite <- Ep. now apply in_map. }
    rewrite Fa in Q. assert (Ll : List.length l = List.length P) by (unfold l; apply map_length).
    assert (Sum : forall cs, Rsum (map (fun c => NR (n_in bld g c P)) cs) =
      NR (N.of_nat (fold_right Nat.add 0%nat (map (fun c => List.length (samples_in bld (geo g) c l)) cs)))).
    { induction cs as [|c cs IH]; cbn [map fold_right]; [rewrite Rsum_nil; reflexivity|]. rewrite Rsum_cons, IH.
      unfold n_in. rewrite <- Ep, <- count_pos. unfold NR, vlen. rewrite <- plus_IZR. f_equal. lia. }
    rewrite Sum, <- Q, Ll. reflexivity.
  Qed.
End Counts.


(** What [numberfield] on a session in state [d] must answer when the experiment recorded the positions
    [P]: every cell of any Cartesian grid holds the number of positions inside that cell, and when the
    grid covers them all, the cells add up to the number of positions. *)
Definition counts {TF : Trig f64} (bld : build) (M : mgr f64) (d : ms M) (P : list (v3 f64)) : Prop :=
  forall (g : grid f64) (cg : cart_geom f64), wf_grid g -> geo g = Cart cg -> sized (cc_cells cg) ->
  exists d' r, numberfield bld M d g sel_default = Val (d', r) /\ geo r = geo g /\
    (forall c, inb3 (cc_cells cg) c = true -> B2R (at3 (data r) c) = NR (n_in bld g c P)) /\
    ((forall p, In p P -> is_inside g p = true) -> Rsum (map (fun c => B2R (at3 (data r) c)) (ids3 (cc_cells cg))) = NR (vlen P)).

Section EndToEnd.
  Context {TF : Trig f64} (bld : build).

  Lemma perm_filter {A} (q : A -> bool) l l' : Permutation l l' -> vlen (filter q l) = vlen (filter q l').
  Proof.
    unfold vlen. induction 1 as [|x l l' _ IH|x y l|l l' l'' _ IH1 _ IH2]; cbn [filter]; [reflexivity| | |congruence].
    - destruct (q x); cbn [Datatypes.length]; lia.
    - destruct (q x), (q y); reflexivity.
  Qed.
  Lemma recorded_counts (M : mgr f64) d L P : recorded M d L -> Forall (fun x => is_finite (ts_time x) = true) L ->
    Permutation (concat (map ts_pos L)) P -> (vlen P <= 2 ^ 53)%N -> counts bld M d P.
  Proof.
    intros Rec Fin Pm Small g cg W G Sz. assert (Small' : (vlen (concat (map ts_pos L)) <= 2 ^ 53)%N).
    { unfold vlen in *. rewrite (Permutation_length Pm). exact Small. }
    destruct (number_counts bld M d L g cg Rec Fin W G Sz Small') as [d' [r [E [Gr H]]]]. exists d', r. split; [exact E|]. split; [exact Gr|].
    assert (K : forall c, inb3 (cc_cells cg) c = true -> B2R (at3 (data r) c) = NR (n_in bld g c P)).
    { intros c Hc. rewrite (H c Hc). unfold n_in. now rewrite (perm_filter _ _ _ Pm). }
    split; [exact K|]. intros Hin. rewrite <- (counts_total bld g cg P G Sz Hin). f_equal. apply map_ext_in. intros c Hc. apply K. now apply in_ids3.
  Qed.

  Lemma t_counts (f : tfile f64) (st : stats f64) P : tf_ok f -> tf_rect f -> st_timesteps st = tf_timesteps f ->
    (forall k x, (k < tf_timesteps f)%N -> t_shows f k x -> is_finite (ts_time x) = true) ->
    (forall L, vlen L = tf_timesteps f -> (forall k x, at_ L k x -> t_shows f k x) -> Permutation (concat (map ts_pos L)) P) ->
    (vlen P <= 2 ^ 53)%N ->
    exists d0, dm_new bld (t_load f) (tf_timesteps f) = Val d0 /\
      forall d, reached (t_mgr bld f st) (t_touch bld (t_load f) (tf_timesteps f)) (tf_timesteps f) d0 d -> counts bld (t_mgr bld f st) d P.
  Proof.
    intros OK Rc Nt Fin Pm Small. destruct (new_ok bld (t_load f) (tf_timesteps f) (t_shows f) (t_nt f OK) (t_ld f OK)) as [d0 [E _]].
    exists d0. split; [exact E|]. intros d R. destruct (c118_t_recorded bld f st d0 d OK Rc Nt E R) as [L [V [H Rec]]].
    assert (H1 : forall k x, at_ L k x -> t_shows f k x) by (intros k x A; now apply H).
    apply (recorded_counts _ d L P Rec); [|now apply Pm|exact Small].
    apply Forall_forall. intros x Hx. apply In_nth_error in Hx. destruct Hx as [k Hk].
    assert (A : at_ L (N.of_nat k) x) by (unfold at_; now rewrite Nnat.Nat2N.id). apply (Fin (N.of_nat k)); [rewrite <- V; now apply at_lt in A | now apply H1].
  Qed.
  Lemma p_counts (f : pfile f64) (st : stats f64) P : pf_ok f -> st_timesteps st = pf_timesteps f ->
    (forall k x, (k < pf_timesteps f)%N -> p_shows f k x -> is_finite (ts_time x) = true) ->
    (forall L, vlen L = pf_timesteps f -> (forall k x, at_ L k x -> p_shows f k x) -> Permutation (concat (map ts_pos L)) P) ->
    (vlen P <= 2 ^ 53)%N ->
    exists d0, dm_new bld (p_load f) (pf_timesteps f) = Val d0 /\
      forall d, reached (p_mgr bld f st) (p_touch bld (p_load f) (pf_timesteps f)) (pf_timesteps f) d0 d -> counts bld (p_mgr bld f st) d P.
  Proof.
    intros OK Nt Fin Pm Small. destruct (new_ok bld (p_load f) (pf_timesteps f) (p_shows f) (p_nt f OK) (p_ld f OK)) as [d0 [E _]].
    exists d0. split; [exact E|]. intros d R. destruct (c118_p_recorded bld f st d0 d OK Nt E R) as [L [V [H Rec]]].
    assert (H1 : forall k x, at_ L k x -> p_shows f k x) by (intros k x A; now apply H).
    apply (recorded_counts _ d L P Rec); [|now apply Pm|exact Small].
    apply Forall_forall. intros x Hx. apply In_nth_error in Hx. destruct Hx as [k Hk].
    assert (A : at_ L (N.of_nat k) x) by (unfold at_; now rewrite Nnat.Nat2N.id). apply (Fin (N.of_nat k)); [rewrite <- V; now apply at_lt in A | now apply H1].
  Qed.
  Lemma concat_perm {A B C} (f : A -> list C) (g : B -> list C) l l' : vlen l = vlen l' ->
    (forall k a b, at_ l k a -> at_ l' k b -> Permutation (f a) (g b)) -> Permutation (concat (map f l)) (concat (map g l')).
  Proof.
    revert l'. induction l as [|a l IH]; intros [|b l'] V H; try (cbn in V; lia); [apply perm_nil|]. cbn [map concat]. apply Permutation_app.
    - exact (H 0%N a b eq_refl eq_refl).
    - apply IH; [rewrite !vlen_cons in V; lia|]. intros k x y Hx Hy. apply (H (k + 1)%N); unfold at_ in *; replace (N.to_nat (k + 1)) with (S (N.to_nat k)) by lia; assumption.
  Qed.

  (** *** VTK folders *)
  Lemma by_id_pos (c c' : particles f64) : p_wf c -> by_id c c' -> Permutation (p_pos c') (p_pos c).
  Proof.
    intros [_ [_ [_ [Lp _]]]] [[_ [_ [_ [Lp' _]]]] [L [_ [sl [P [_ H]]]]]].
    assert (Ls : vlen sl = p_len c) by (unfold vlen; rewrite (Permutation_length P), range_length; unfold p_len; lia).
    destruct (p_pos c) as [|p0 r0] eqn:E0.
    { assert (vlen (p_pos c') = 0%N) by (rewrite Lp', L, <- Lp; reflexivity). destruct (p_pos c'); [apply perm_nil | rewrite vlen_cons in *; lia]. }
    rewrite <- E0 in *. assert (E : p_pos c' = map (fun i => nth (N.to_nat i) (p_pos c) p0) sl).
    { apply (at_ext _ _ (p_len c)); [lia | unfold vlen in *; rewrite map_length; lia|].
      intros k Hk. destruct (lt_at sl k) as [i Hi]; [lia|].
      destruct (H k i Hi) as [[[[[id r] ty] p] v] [Ha Hb]]. cbn in Ha, Hb. destruct Ha as [_ [_ [_ [Ha _]]]], Hb as [_ [_ [_ [Hb _]]]].
      exists p. split; [exact Hb|]. apply at_map. exists i. split; [exact Hi|]. symmetry. now apply nth_error_nth. }
    rewrite E. etransitivity; [apply Permutation_map; exact P|].
    assert (Q : map (fun i => nth (N.to_nat i) (p_pos c) p0) (range 0 (p_len c)) = p_pos c); [|now rewrite Q].
    apply (at_ext _ _ (p_len c)); [unfold vlen; rewrite map_length, range_length; lia | exact Lp|].
    intros k Hk. destruct (lt_at (p_pos c) k) as [p Hp]; [lia|]. exists p. split; [|exact Hp]. apply at_map. exists k. split; [|symmetry; now apply nth_error_nth].
    unfold at_. rewrite range_nth_error by lia. f_equal. lia.
  Qed.
  Theorem c119_vtk cfg dt (fs : list (vtkfile f64)) (cs : list (particles f64)) (tf : tfile f64) (h : header f64) : Forall2 (content cfg) fs cs -> vtk_converter cfg fs dt = Val (tf, h) -> (vlen fs <= 2 ^ 53)%N ->
    Forall (fun f => is_finite (f_time dt f) = true) fs -> (vlen (concat (map p_pos cs)) <= 2 ^ 53)%N ->
    exists d0, dm_new bld (t_load tf) (tf_timesteps tf) = Val d0 /\
      forall d, reached (t_mgr bld tf (open_stats h)) (t_touch bld (t_load tf) (tf_timesteps tf)) (tf_timesteps tf) d0 d ->
        counts bld (t_mgr bld tf (open_stats h)) d (concat (map p_pos cs)).
  Proof.
    intros Fc E Ln Fin Small. assert (Ne : fs <> []) by (intros ->; discriminate).
    assert (Hd := c57_header _ _ _ _ _ _ Fc E). destruct Hd as [_ [_ [Hn _]]].
    assert (Io : in_order n0 (map (f_time dt) fs)).
    { assert (Dec : forall ts (old : f64), in_order old ts \/ ~ in_order old ts).
      { induction ts as [|t ts IH]; intros old; [left; exact I|]. cbn [in_order]. destruct (IH t) as [?|?]; [|right; tauto]. destruct (t <? old)%num; [right; intros [? _]; discriminate | left; auto]. }
      destruct (Dec (map (f_time dt) fs) n0) as [H|H]; [exact H|]. rewrite (c56_refused cfg dt fs cs Fc H) in E. discriminate. }
    destruct (c56_converted cfg dt fs cs Fc Ne Io) as [tf' [h' [E' [Nt Hg]]]]. rewrite E in E'. apply val_pair in E' as [<- <-].
    assert (Nt' : tf_timesteps (F := f64) tf = vlen fs) by exact Nt. clear Nt. rename Nt' into Nt.
    assert (All : forall k, (k < vlen fs)%N -> exists f c g c', at_ fs k f /\ at_ cs k c /\ tf_group tf k = Some g /\ p_wf c /\ by_id c c' /\ stored g (f_time dt f) c').
    { intros k Lk. destruct (lt_at fs k Lk) as [f Hf]. destruct (Forall2_at_l _ _ _ Fc _ _ Hf) as [c [Hc [Wc _]]]. destruct (Hg k f c Hf Hc) as [g [c' [Gk [B S]]]]. exists f, c, g, c'. auto 10. }
    assert (Sh : forall k x, (k < vlen fs)%N -> t_shows tf k x -> exists f c c', at_ fs k f /\ at_ cs k c /\ p_wf c /\ by_id c c' /\ x = shown (f_time dt f) c').
    { intros k x Lk [g' [Gk' [T1 [T2 [T3 [T4 [T5 [T6 [T7 T8]]]]]]]]]. destruct (All k Lk) as [f [c [g [c' [Hf [Hc [Gk [W [B S]]]]]]]]]. exists f, c, c'. repeat (split; [assumption|]).
      assert (g' = g) by congruence. subst g'. destruct S as [S1 [S2 [S3 [S4 [S5 [S6 [S7 S8]]]]]]].
      rewrite S8 in T8. destruct x as [xt xp xv xr xi xc xd xty]. cbn [ts_time ts_pos ts_vel ts_radius ts_id ts_clouds ts_density ts_type] in *.
      unfold shown. assert (Y : forall (A : Type) (o : option A) a b, o = Some a -> o = Some b -> b = a) by (intros; congruence).
      rewrite (Y _ _ _ _ S1 T1), (Y _ _ _ _ S2 T2), (Y _ _ _ _ S3 T3), (Y _ _ _ _ S5 T5), (Y _ _ _ _ S6 T7), (Y _ _ _ _ S7 T6).
      assert (Er := Y _ _ _ _ S4 T4). subst xr.
      assert (Rp : forall l : list f64, repeat (n1 : f64) (List.length l) = map (fun _ => n1) l) by (induction l as [|r l IHl]; [reflexivity|]; cbn [Datatypes.length repeat map]; now rewrite IHl).
      rewrite T8, Rp. reflexivity. }
    apply (t_counts tf (open_stats h)); [| | | | |exact Small].
    - split; [rewrite Nt; split; [destruct fs; [congruence | rewrite vlen_cons; lia] | exact Ln]|]. intros t Lt. rewrite Nt in Lt.
      destruct (All t Lt) as [f [c [g [c' [_ [_ [Gk [_ [_ S]]]]]]]]]. exists g. split; [exact Gk|]. destruct S as [-> [-> [-> [-> [-> [-> [-> _]]]]]]]. repeat split; discriminate.
    - intros k x Lk Hx. rewrite Nt in Lk. destruct (Sh k x Lk Hx) as [f [c [c' [_ [_ [_ [[[_ [W1 [W2 [W3 W4]]]] _] ->]]]]]]].
      unfold rect, shown, vlen, p_len in *. cbn [ts_time ts_pos ts_vel ts_radius ts_id ts_clouds ts_density ts_type]. rewrite !map_length. unfold vlen in *. repeat split; lia.
    - cbn [open_stats st_timesteps]. congruence.
    - intros k x Lk Hx. rewrite Nt in Lk. destruct (Sh k x Lk Hx) as [f [c [c' [Hf [_ [_ [_ ->]]]]]]]. cbn [shown ts_time]. rewrite Forall_forall in Fin. apply Fin. exact (nth_error_In _ _ Hf).
    - intros L V HL. assert (Lcs : vlen fs = vlen cs) by (unfold vlen; now rewrite (Forall2_length _ _ _ Fc)).
      apply concat_perm; [congruence|]. intros k x c Hx Hc. assert (Lk : (k < vlen fs)%N) by (rewrite <- Nt, <- V; now apply at_lt in Hx).
      destruct (Sh k x Lk (HL k x Hx)) as [f [c1 [c' [_ [Hc1 [W [B ->]]]]]]]. assert (c1 = c) by (unfold at_ in *; congruence). subst c1. cbn [shown ts_pos]. now apply by_id_pos.
  Qed.
  (** With the grid made from the file no particle is lost. *)
  Theorem c119_vtk_all cfg dt (fs : list (vtkfile f64)) (cs : list (particles f64)) (tf : tfile f64) (h : header f64) n : Forall2 (content cfg) fs cs -> vtk_converter cfg fs dt = Val (tf, h) -> (vlen fs <= 2 ^ 53)%N ->
    Forall (fun f => is_finite (f_time dt f) = true) fs -> (vlen (concat (map p_pos cs)) <= 2 ^ 53)%N -> sized n ->
    exists cs', Forall2 by_id cs cs' /\ (not_highest_first (concat (map p_pos cs')) ->
    exists g d0, py_grid (from_data (h_dims h) n "cartesian") = Val (Some g) /\ dm_new bld (t_load tf) (tf_timesteps tf) = Val d0 /\
      forall d, reached (t_mgr bld tf (open_stats h)) (t_touch bld (t_load tf) (tf_timesteps tf)) (tf_timesteps tf) d0 d ->
      exists d' r, numberfield bld (t_mgr bld tf (open_stats h)) d g sel_default = Val (d', r) /\
        Rsum (map (fun c => B2R (at3 (data r) c)) (ids3 n)) = NR (vlen (concat (map p_pos cs)))).
  Proof.
    intros Fc E Ln Fin Small Sz. destruct (c100_vtk cfg dt fs cs tf h n Sz Fc E) as [cs' [B Hg]]. exists cs'. split; [exact B|]. intros Nh.
    destruct (Hg Nh) as [g [Eg Hin]]. destruct (c119_vtk cfg dt fs cs tf h Fc E Ln Fin Small) as [d0 [E0 H]]. exists g, d0. split; [exact Eg|]. split; [exact E0|].
    intros d R. destruct (c99_from_data (h_dims h) n Sz) as [g' [cg [Eg' [G [C [_ [W _]]]]]]]. assert (g' = g) by (rewrite Eg in Eg'; congruence). subst g'.
    rewrite <- C in Sz. destruct (H d R g cg W G Sz) as [d' [r [Er [_ [_ Tot]]]]]. exists d', r. split; [exact Er|]. rewrite <- C. apply Tot.
    intros p Hp. assert (Hp' : In p (concat (map p_pos cs'))).
    { eapply Permutation_in; [|exact Hp]. apply Permutation_sym. apply concat_perm; [unfold vlen; now rewrite (Forall2_length _ _ _ B)|]. intros k a b Ha Hb.
      destruct (Forall2_at_l _ _ _ B _ _ Hb) as [a1 [Ha1 Bb]]. assert (a1 = a) by (unfold at_ in *; congruence). subst a1. apply by_id_pos; [|exact Bb].
      destruct (Forall2_at _ _ _ Fc _ _ Hb) as [f [_ [Wb _]]]. exact Wb. }
    apply in_concat in Hp'. destruct Hp' as [l [Hl Hp']]. apply in_map_iff in Hl. destruct Hl as [c [<- Hc]]. apply (Hin bld c p Hc Hp').
  Qed.
  (** *** Single-particle csv files *)
  Theorem c119_csv fit powf raw columns vel interp radius ss pf h T P V : csv_converter fit powf bld raw columns vel interp radius ss = Val (pf, h) -> holds pf T P V ->
    T <> [] -> (vlen T <= 2 ^ 53)%N -> Forall (fun t => is_finite t = true) T ->
    exists d0, dm_new bld (p_load pf) (pf_timesteps pf) = Val d0 /\
      forall d, reached (p_mgr bld pf (open_stats h)) (p_touch bld (p_load pf) (pf_timesteps pf)) (pf_timesteps pf) d0 d ->
        counts bld (p_mgr bld pf (open_stats h)) d P.
  Proof.
    intros E H Ne Ln Fin. assert (OK := c55_file _ _ _ _ _ _ _ _ _ _ _ E _ _ _ H Ne Ln). destruct (c54_header _ _ _ _ _ _ _ _ _ _ _ E _ _ _ H) as [_ [Ht _]].
    destruct H as [Np [Lt [Lp [Lv [g [Gr [Gt [Gp Gv]]]]]]]].
    apply p_counts; [exact OK | cbn [open_stats st_timesteps]; congruence | | |lia].
    - intros k x Lk [[g' [Gr' [l [Hl Hx]]]] _]. assert (g' = g) by congruence. subst g'. assert (l = T) by congruence. subst l.
      rewrite Forall_forall in Fin. apply Fin. exact (nth_error_In _ _ Hx).
    - intros L VL HL. assert (Q : concat (map ts_pos L) = P); [|now rewrite Q].
      assert (One : map ts_pos L = map (fun p => [p]) P).
      { apply (at_ext _ _ (pf_timesteps pf)); [unfold vlen in *; now rewrite map_length | unfold vlen in *; now rewrite map_length|].
        intros k Hk. destruct (lt_at L k ltac:(lia)) as [x Hx]. assert (S := HL k x Hx). destruct S as [_ [Vp [_ [_ [_ [_ [_ [_ S]]]]]]]].
        destruct (S 0%N ltac:(lia)) as [g' [p [v [r [de [ty [G' [A1 [[l [Hl A2]] _]]]]]]]]]. assert (g' = g) by congruence. subst g'. assert (l = P) by congruence. subst l.
        exists [p]. split; apply at_map; [exists x; split; [exact Hx|] | exists p; split; [exact A2 | reflexivity]].
        rewrite Np in Vp. destruct (ts_pos x) as [|q [|q' r']]; [discriminate | | rewrite !vlen_cons in Vp; lia]. unfold at_ in A1. cbn in A1. congruence. }
      rewrite One. clear. induction P as [|p P IH]; [reflexivity|]. cbn [map concat app]. now rewrite IH.
  Qed.
  (** *** One csv file per timestep *)
  Theorem c119_step_files columns files ls times : vlen columns = 7%N -> Forall2 (Forall2 (reads columns)) files ls -> ~ In [] files -> (vlen files <= vlen times)%N ->
    files <> [] -> (vlen files <= 2 ^ 53)%N -> Forall (fun t => is_finite t = true) times -> (vlen (concat ls) <= 2 ^ 53)%N ->
    exists tf h d0, csv_multi_file_time_step files columns times = Val (tf, h) /\ dm_new bld (t_load tf) (tf_timesteps tf) = Val d0 /\
      forall d, reached (t_mgr bld tf (open_stats h)) (t_touch bld (t_load tf) (tf_timesteps tf)) (tf_timesteps tf) d0 d ->
        counts bld (t_mgr bld tf (open_stats h)) d (map s_pos (concat ls)).
  Proof.
    intros L7 R Nf Hl Ne Ln Fin Small. destruct (c70_converted columns files ls times L7 R Nf Hl) as [tf [h [E [Nt [Hn [Hg _]]]]]]. exists tf, h.
    assert (All : forall k, (k < vlen files)%N -> exists t l g, at_ times k t /\ at_ ls k l /\ tf_group tf k = Some g /\ step_stored g t l).
    { intros k Lk. destruct (lt_at times k) as [t Ht]; [lia|]. destruct (lt_at files k Lk) as [d Hd]. destruct (Forall2_at_l _ _ _ R _ _ Hd) as [l [Hl' _]]. destruct (Hg k t l Ht Hl') as [g [G S]]. exists t, l, g. auto. }
    assert (Sh : forall k x, (k < vlen files)%N -> t_shows tf k x -> exists t l, at_ times k t /\ at_ ls k l /\ x = step_shown t l).
    { intros k x Lk [g' [Gk' [T1 [T2 [T3 [T4 [T5 [T6 [T7 T8]]]]]]]]]. destruct (All k Lk) as [t [l [g [Ht [Hl' [Gk S]]]]]]. exists t, l. split; [exact Ht|]. split; [exact Hl'|].
      assert (g' = g) by congruence. subst g'. destruct S as [S1 [S2 [S3 [S4 [S5 [S6 [S7 S8]]]]]]].
      rewrite S8 in T8. destruct x as [xt xp xv xr xi xc xd xty]. cbn [ts_time ts_pos ts_vel ts_radius ts_id ts_clouds ts_density ts_type] in *.
      unfold step_shown. assert (Y : forall (A : Type) (o : option A) a b, o = Some a -> o = Some b -> b = a) by (intros; congruence).
      rewrite (Y _ _ _ _ S1 T1), (Y _ _ _ _ S2 T2), (Y _ _ _ _ S3 T3), (Y _ _ _ _ S4 T5), (Y _ _ _ _ S6 T6), (Y _ _ _ _ S7 T7).
      assert (Er := Y _ _ _ _ S5 T4). subst xr. rewrite T8, repeat_length. reflexivity. }
    destruct (t_counts tf (open_stats h) (map s_pos (concat ls))) as [d0 [E0 H]]; [| | | | | |exists d0; auto].
    - split; [rewrite Nt; split; [destruct files; [congruence | rewrite vlen_cons; lia] | exact Ln]|]. intros k Lk. rewrite Nt in Lk.
      destruct (All k Lk) as [t [l [g [_ [_ [Gk S]]]]]]. exists g. split; [exact Gk|]. destruct S as [-> [-> [-> [-> [-> [-> [-> _]]]]]]]. repeat split; discriminate.
    - intros k x Lk Hx. rewrite Nt in Lk. destruct (Sh k x Lk Hx) as [t [l [_ [_ ->]]]]. unfold rect, step_shown.
      cbn [ts_time ts_pos ts_vel ts_radius ts_id ts_clouds ts_density ts_type]. rewrite !map_length, !repeat_length. repeat split.
    - cbn [open_stats st_timesteps]. congruence.
    - intros k x Lk Hx. rewrite Nt in Lk. destruct (Sh k x Lk Hx) as [t [l [Ht [_ ->]]]]. cbn [step_shown ts_time]. rewrite Forall_forall in Fin. apply Fin. exact (nth_error_In _ _ Ht).
    - intros L VL HL. rewrite concat_map. apply concat_perm; [rewrite VL, Nt; unfold vlen; now rewrite (Forall2_length _ _ _ R)|].
      intros k x l Hx Hl'. assert (Lk : (k < vlen files)%N) by (rewrite <- Nt, <- VL; now apply at_lt in Hx).
      destruct (Sh k x Lk (HL k x Hx)) as [t [l1 [_ [Hl1 ->]]]]. assert (l1 = l) by (unfold at_ in *; congruence). subst l1. apply Permutation_refl.
    - unfold vlen in *. now rewrite map_length.
  Qed.

  Lemma all_counted (M : mgr f64) (d : ms M) P dims n g : sized n -> counts bld M d P -> py_grid (from_data dims n "cartesian") = Val (Some g) ->
    (forall p, In p P -> is_inside g p = true) ->
    exists d' r, numberfield bld M d g sel_default = Val (d', r) /\ Rsum (map (fun c => B2R (at3 (data r) c)) (ids3 n)) = NR (vlen P).
  Proof.
    intros Sz Hc Eg Hin. destruct (c99_from_data dims n Sz) as [g' [cg [Eg' [G [C [_ [W _]]]]]]]. assert (g' = g) by (rewrite Eg in Eg'; congruence). subst g'.
    rewrite <- C in Sz. destruct (Hc g cg W G Sz) as [d' [r [Er [_ [_ Tot]]]]]. exists d', r. split; [exact Er|]. rewrite <- C. now apply Tot.
  Qed.
  Theorem c119_csv_all fit powf raw columns vel interp radius ss (pf : pfile f64) (h : header f64) T P V n :
    csv_converter fit powf bld raw columns vel interp radius ss = Val (pf, h) -> holds pf T P V ->
    T <> [] -> (vlen T <= 2 ^ 53)%N -> Forall (fun t => is_finite t = true) T -> not_highest_first P -> sized n ->
    exists g d0, py_grid (from_data (h_dims h) n "cartesian") = Val (Some g) /\ dm_new bld (p_load pf) (pf_timesteps pf) = Val d0 /\
      forall d, reached (p_mgr bld pf (open_stats h)) (p_touch bld (p_load pf) (pf_timesteps pf)) (pf_timesteps pf) d0 d ->
      exists d' r, numberfield bld (p_mgr bld pf (open_stats h)) d g sel_default = Val (d', r) /\
        Rsum (map (fun c => B2R (at3 (data r) c)) (ids3 n)) = NR (pf_timesteps pf).
  Proof.
    intros E H Ne Ln Fin Nh Sz. destruct (c100_csv _ _ _ _ _ _ _ _ _ _ _ _ _ _ n Sz E H Nh) as [g [Eg Hin]].
    destruct (c119_csv _ _ _ _ _ _ _ _ _ _ _ _ _ E H Ne Ln Fin) as [d0 [E0 Hc]]. exists g, d0. split; [exact Eg|]. split; [exact E0|]. intros d R.
    destruct (all_counted _ d P _ n g Sz (Hc d R) Eg) as [d' [r [Er Es]]]; [intros p Hp; apply (Hin bld p Hp)|]. exists d', r. split; [exact Er|].
    rewrite Es. destruct H as [_ [_ [Lp _]]]. now rewrite Lp.
  Qed.
  Theorem c119_step_files_all columns files ls times n : vlen columns = 7%N -> Forall2 (Forall2 (reads columns)) files ls -> ~ In [] files -> (vlen files <= vlen times)%N ->
    files <> [] -> (vlen files <= 2 ^ 53)%N -> Forall (fun t => is_finite t = true) times -> (vlen (concat ls) <= 2 ^ 53)%N ->
    not_highest_first (map s_pos (concat ls)) -> sized n ->
    exists tf h g d0, csv_multi_file_time_step files columns times = Val (tf, h) /\ py_grid (from_data (h_dims h) n "cartesian") = Val (Some g) /\
      dm_new bld (t_load tf) (tf_timesteps tf) = Val d0 /\
      forall d, reached (t_mgr bld tf (open_stats h)) (t_touch bld (t_load tf) (tf_timesteps tf)) (tf_timesteps tf) d0 d ->
      exists d' r, numberfield bld (t_mgr bld tf (open_stats h)) d g sel_default = Val (d', r) /\
        Rsum (map (fun c => B2R (at3 (data r) c)) (ids3 n)) = NR (vlen (concat ls)).
  Proof.
    intros L7 R Nf Hl Ne Ln Fin Small Nh Sz. destruct (c119_step_files columns files ls times L7 R Nf Hl Ne Ln Fin Small) as [tf [h [d0 [E [E0 Hc]]]]].
    destruct (c100_step_files columns files ls times n Sz L7 R Nf Hl Nh) as [tf' [h' [g [E' [Eg Hin]]]]].
    assert (Eq : tf' = tf /\ h' = h) by (rewrite E in E'; apply val_pair in E' as [E1 E2]; now split). destruct Eq as [-> ->].
    exists tf, h, g, d0. split; [exact E|]. split; [exact Eg|]. split; [exact E0|]. intros d Rd.
    destruct (all_counted _ d _ _ n g Sz (Hc d Rd) Eg) as [d' [r [Er Es]]].
    - intros p Hp. apply in_map_iff in Hp. destruct Hp as [s [<- Hs]]. apply in_concat in Hs. destruct Hs as [l [Hl' Hs]]. apply (Hin bld l s Hl' Hs).
    - exists d', r. split; [exact Er|]. rewrite Es. unfold vlen. now rewrite map_length.
  Qed.
End EndToEnd.
(** The hypotheses are met by the two VTK files (particles 7 and 3) and the csv files of the examples of C56, C53 and C70. *)
Example c119_vtk_case : Forall2 (content ex_cfg) ex_files ex_parts /\ (exists tf h, vtk_converter ex_cfg ex_files (f64_of_Z 1) = Val (tf, h)) /\
  (vlen ex_files <= 2 ^ 53)%N /\ Forall (fun f => is_finite (f_time (f64_of_Z 1) f) = true) ex_files /\ (vlen (concat (map p_pos ex_parts)) <= 2 ^ 53)%N /\
  not_highest_first (concat (map p_pos [ex_part [3; 7]%N 5; ex_part [3; 7]%N 6])).
Proof.
  destruct ex_content as [Hc Io]. split; [exact Hc|]. split.
  { destruct (c56_converted ex_cfg (f64_of_Z 1) ex_files ex_parts Hc ltac:(discriminate) Io) as [tf [h [E _]]]. exists tf, h. exact E. }
  split; [vm_compute; discriminate|]. split; [repeat constructor|]. split; [vm_compute; discriminate|].
  split; [repeat constructor|]. do 2 eexists. split; [reflexivity|]. intros i Hi.
  assert (Q : i = 0%N \/ i = 1%N \/ i = 2%N) by lia.
  eexists. split; [right; left; reflexivity|]. destruct Q as [-> | [-> | ->]]; vm_compute; reflexivity.
Qed.
Example c119_step_case : vlen ex_seven = 7%N /\ Forall2 (Forall2 (reads ex_seven)) ex_step_files ex_step_ls /\ ~ In [] ex_step_files /\ (vlen ex_step_files <= vlen [f64_of_Z 1; f64_of_Z 2])%N /\
  ex_step_files <> [] /\ Forall (fun t => is_finite t = true) [f64_of_Z 1; f64_of_Z 2] /\ (vlen (concat ex_step_ls) = 5)%N /\ not_highest_first (map s_pos (concat ex_step_ls)).
Proof.
  destruct ex_step_ok as [A [B [C [D D']]]]. repeat (split; [assumption|]). split; [repeat constructor|]. split; [reflexivity|].
  split; [repeat constructor|]. do 2 eexists. split; [reflexivity|]. intros i Hi.
  assert (Q : i = 0%N \/ i = 1%N \/ i = 2%N) by lia.
  eexists. split; [do 3 right; left; reflexivity|]. destruct Q as [-> | [-> | ->]]; vm_compute; reflexivity.
Qed.

(** ** C120: opening the files of the converters for several particles *)
Section C120.
  Context (bld : build) (pf : pfile f64) (h : header f64) (radius : f64) (ids : N -> f64) (parts : list (list (smp f64))).
  Hypothesis H : holds_all pf h radius ids parts.

  (** When the first particle has the most lines the file can be opened ... *)
  Theorem c120_opens_partial l : at_ parts 0 l -> vlen l = pf_timesteps pf -> (1 <= vlen l <= 2 ^ 53)%N ->
    pf_ok pf /\ exists d0, dm_new bld (p_load pf) (pf_timesteps pf) = Val d0.
  Proof.
    intros Hl Lt Ln. assert (OK : pf_ok pf).
    { destruct H as [Hg [_ [_ [_ [_ [Np _]]]]]]. destruct (Hg 0%N l Hl) as [g [G [[T [P [V [ET [EP [EV [LT [LP [LV _]]]]]]]]] [Rd [_ [De Ty]]]]]].
      assert (K : forall i, (i < pf_nparticles pf)%N -> i = 0%N) by (intros i; rewrite Np; lia).
      split; [rewrite Np; lia|]. split; [rewrite <- Lt; exact Ln|]. split.
      - exists g. split; [exact G|]. rewrite ET. eexists. split; [reflexivity|]. lia.
      - intros i Hi. rewrite (K i Hi). exists g. split; [exact G|]. rewrite EP, EV, Rd, De. cbn [long_if_there]. repeat split.
        + eexists. split; [reflexivity|]. lia.
        + eexists. split; [reflexivity|]. lia.
        + unfold vlen in *. rewrite repeat_length. lia.
        + rewrite <- Lt. exact Ty. }
    split; [exact OK|]. destruct (new_ok bld (p_load pf) (pf_timesteps pf) (p_shows pf) (p_nt pf OK) (p_ld pf OK)) as [d0 [E _]]. now exists d0.
  Qed.
  (** ... but not when it has fewer (and less than a buffer), nor when nothing was written. *)
  Theorem c120_short_refuted l : at_ parts 0 l -> (vlen l < N.min BUFFERSIZE (pf_timesteps pf))%N -> dm_new bld (p_load pf) (pf_timesteps pf) = Panic.
  Proof.
    intros Hl Lt. destruct H as [Hg [_ [_ [_ [_ [Np _]]]]]]. destruct (Hg 0%N l Hl) as [g [G [[T [P [V [ET [EP [EV [LT [LP [LV _]]]]]]]]] _]]].
    unfold dm_new, buf_update. cbv zeta. set (hi := if (pf_timesteps pf <=? BUFFERSIZE)%N then pf_timesteps pf else BUFFERSIZE).
    assert (Hh : (vlen l < hi)%N) by (unfold hi; destruct (pf_timesteps pf <=? BUFFERSIZE)%N eqn:Q; lia).
    rewrite usub_ge by lia. cbn [bind]. unfold p_load. replace (hi <? 0)%N with false by lia. rewrite Np. change (range 0 1) with [0%N]. cbn [mmap].
    unfold p_column. rewrite G. cbn [unwrap bind]. rewrite EP. cbn [unwrap bind]. unfold vslice at 1. replace (hi <=? vlen P)%N with false by lia. reflexivity.
  Qed.
  Theorem c120_none_refuted : parts = [] -> dm_new bld (p_load pf) (pf_timesteps pf) = Panic.
  Proof.
    intros E. destruct H as [_ [Hn [_ [_ [_ [Np _]]]]]]. rewrite E in Hn. assert (G := Hn 0%N ltac:(cbn; lia)).
    unfold dm_new, buf_update. cbv zeta. set (hi := if (pf_timesteps pf <=? BUFFERSIZE)%N then pf_timesteps pf else BUFFERSIZE).
    rewrite usub_ge by lia. cbn [bind]. unfold p_load. replace (hi <? 0)%N with false by lia. rewrite Np. change (range 0 1) with [0%N]. cbn [mmap].
    unfold p_column. rewrite G. reflexivity.
  Qed.
End C120.
(** Lines of the particles 5, 2, 5 and 9: particle 2, the first one written, has one line, particle 5 two. *)
Example c120_short_case : match csv_multi_idline no_fit (fun x _ => x) (map row8 ex_l8) ex_eight false false (f64_of_Z 1) with
  | Val (pf, h) => match dm_new Debug (p_load pf) (pf_timesteps pf) with Panic => true | Val _ => false end
  | Panic => false
  end = true.
Proof. vm_compute. reflexivity. Qed.
Example c120_opens_case : match csv_multi_chain no_fit (fun x _ => x) ex_chain ex_seven false false (f64_of_Z 1) with
  | Val (pf, h) => match dm_new Debug (p_load pf) (pf_timesteps pf) with Panic => false | Val _ => true end
  | Panic => false
  end = true.
Proof. vm_compute. reflexivity. Qed.
