(** * PropertiesAll: means over folders of files (C170)

    The mean speed and the mean velocities in the cells of a grid that are answered about a converted and opened VTK
    folder, or folder with one csv file per timestep, in terms of the entries of all the files. *)
From Coq Require Import Reals List NArith ZArith Bool Lia Lra String Permutation Sorted ZifyBool ZifyN ZifyNat.
From Flocq Require Import Core.Core IEEE754.BinarySingleNaN.
From Verif Require Import Base BaseFacts Num F64Facts RFacts NDArray GridModel GridSpec GridFacts CartProofs VecProofs SelModel PropertiesSel DataModel DataSpec DataProofs DataLoad PropertiesGrid PropertiesData FunModel FunSpec FunProofs FunMgr FunField PropertiesFun FunMom FunTemp MixModel CondModel FunExtract PyModel PyGridModel PropertiesPyGrid FunRefine SessionModel SessionSpec SessionProofs PropertiesSession
  ConvModel ConvSort ConvCsv PropertiesCsv ConvVtk ConvIds ConvMulti FunTrack FunCirc ConvIdChain PropertiesMulti PropertiesPipeline PropertiesMean PropertiesWrap PropertiesFrames PropertiesTracks.
Local Open Scope string_scope.
Local Open Scope list_scope.

(** The entries of a file, as positions with velocities. *)
Definition vtk_entries (c : particles f64) : list (v3 f64 * v3 f64) := combine (p_pos c) (p_vel c).
Definition step_entries (l : list (smp f64)) : list (v3 f64 * v3 f64) := map (fun s => (s_pos s, s_vel s)) l.

Lemma mean_close_perm m l l' : Permutation l l' -> mean_close m l -> mean_close m l'.
Proof.
  intros P [F H]. split; [exact F|]. assert (V : vlen l' = vlen l) by (unfold vlen; now rewrite (Permutation_length P)).
  rewrite V, <- (Rmean_perm _ _ (Permutation_map (fun x : f64 => B2R x) P)), <- (Rmean_perm _ _ (Permutation_map (fun x : f64 => Rabs (B2R x)) P)). exact H.
Qed.
Lemma flat_perm {A B C} (f : A -> list C) (g : B -> list C) l m : Forall2 (fun a b => Permutation (f a) (g b)) l m -> Permutation (flat_map f l) (flat_map g m).
Proof. induction 1 as [|a b l m H _ IH]; [reflexivity|]. cbn [flat_map]. now apply Permutation_app. Qed.
Lemma filter_perm {A} (f : A -> bool) l l' : Permutation l l' -> Permutation (filter f l) (filter f l').
Proof.
  induction 1 as [|x l l' _ IH|x y l|l l' l'' _ IH1 _ IH2]; [reflexivity| | |now transitivity (filter f l')]; cbn [filter].
  - destruct (f x); [now constructor | exact IH].
  - destruct (f x), (f y); try reflexivity. constructor.
Qed.
Lemma entries_of (x : timestep f64) : rect x -> map (fun m => (sm_pos m, sm_vel m)) (samples x) = combine (ts_pos x) (ts_vel x).
Proof.
  intros R. assert (Ls := samples_length x R). assert (Lv : vlen (ts_vel x) = vlen (ts_pos x)) by (unfold rect in R; unfold vlen in *; lia). apply (at_ext _ _ (vlen (ts_pos x))).
  - unfold vlen in *. rewrite map_length. lia.
  - unfold vlen in *. rewrite combine_length. lia.
  - intros k Hk. destruct (lt_at (samples x) k ltac:(lia)) as [m Hm]. destruct (samples_at x k m R Hm) as [_ [Hp [Hv _]]]. exists (sm_pos m, sm_vel m). split; [apply at_map; now exists m|].
    unfold at_ in *. revert Hp Hv. generalize (N.to_nat k) as n. generalize (ts_vel x) as V. clear. generalize (ts_pos x) as P. induction P as [|p P IH]; intros V n; [destruct n; discriminate|].
    destruct V as [|v V]; [destruct n; discriminate|]. destruct n as [|n]; cbn [combine nth_error]; [congruence | apply IH].
Qed.

Section All.
  Context {TF : Trig f64} (bld : build).

  Section Recorded.
    Context (M : mgr f64) (d : ms M) (L : list (timestep f64)) (E : list (v3 f64 * v3 f64)).
    Context (Rec : recorded M d L) (Fin : Forall (fun x => is_finite (ts_time x) = true) L)
      (P : Permutation (flat_map (fun x => combine (ts_pos x) (ts_vel x)) L) E).
    Lemma all_velocities : Permutation (in_window sel_default L) (map snd E).
    Proof.
      rewrite <- P. assert (Q : in_window sel_default L = map snd (flat_map (fun x => combine (ts_pos x) (ts_vel x)) L)); [|now rewrite Q].
      assert (Rc : Forall rect L) by exact (proj2 (proj2 Rec)). clear P Rec. unfold in_window. induction L as [|x l IH]; [reflexivity|].
      inversion Fin as [|? ? F1 F2]; subst. inversion Rc as [|? ? R1 R2]; subst. cbn [flat_map]. rewrite map_app, (IH F2 R2). f_equal.
      assert (Tv : timestep_valid sel_default (ts_time x) = true) by (apply c27_default_accepts_every_finite_time; exact F1). rewrite Tv.
      assert (Le : List.length (ts_pos x) = List.length (ts_vel x)) by (unfold rect, vlen in R1; lia). clear - Le. revert Le. generalize (ts_vel x) as V. generalize (ts_pos x) as Q.
      induction Q as [|p Q IH]; intros [|v V] Le; try discriminate; [reflexivity|]. cbn [combine map snd]. f_equal. apply IH. now injection Le.
    Qed.
    Lemma all_pairs : Permutation (map (fun m => (sm_pos m, sm_vel m)) (flat_map samples L)) E.
    Proof.
      rewrite <- P. assert (Q : map (fun m => (sm_pos m, sm_vel m)) (flat_map samples L) = flat_map (fun x => combine (ts_pos x) (ts_vel x)) L); [|now rewrite Q].
      assert (Rc : Forall rect L) by exact (proj2 (proj2 Rec)). clear P Rec Fin. induction L as [|x l IH]; [reflexivity|]. inversion Rc as [|? ? R1 R2]; subst.
      cbn [flat_map]. rewrite map_app, (IH R2), (entries_of x R1). reflexivity.
    Qed.
    Lemma speed_of : E <> [] -> (vlen E < 2 ^ 52)%N -> (forall p v, In (p, v) E -> slow v) ->
      exists d' m, mean_velocity_showcase bld M d sel_default = Val (d', m) /\ is_finite m = true /\
        let mean := Rmean (map (fun pv => exact_speed (snd pv)) E) in
        (Rabs (B2R m - mean) <= NR (vlen E + 9) / IZR (2 ^ 52) * mean + bpow radix2 (-530))%R.
    Proof.
      intros Ne Sm Sl. assert (Pv := all_velocities). assert (Vl : vlen (in_window sel_default L) = vlen E) by (unfold vlen; now rewrite (Permutation_length Pv), map_length).
      assert (R := c133_mean_speed bld _ d L sel_default Rec). cbv zeta in R. rewrite Vl in R.
      rewrite (Rmean_perm _ _ (Permutation_map exact_speed Pv)), map_map in R. apply R; [|exact Sm|].
      - intros Z. rewrite Z in Vl. destruct E; [contradiction | discriminate Vl].
      - intros v Hv. apply (Permutation_in _ Pv) in Hv. apply in_map_iff in Hv. destruct Hv as [[p w] [<- I]]. now apply (Sl p).
    Qed.
    Lemma vectors_of cells lm g : (vlen E < 2 ^ 52)%N -> (forall p x y z, In (p, (x, y, z)) E -> ordinary x /\ ordinary y /\ ordinary z) ->
      sized cells -> cart_new cells (ThreeD lm) = Val g ->
      exists d' v, vectorfield bld M d g sel_default = Val (d', v) /\
      forall k c, (k <= 2)%N -> inb3 cells c = true ->
        let l := filter (fun pv => in_cell bld (geo g) c (fst pv)) E in l <> [] ->
        mean_close (at3 (data (comp k v)) c) (map (fun pv => v3i k (snd pv)) l).
    Proof.
      intros Ln Od Sz Eg. assert (All := all_pairs). destruct (cart_new_geo _ _ _ Eg) as [cg [G [_ Cc]]]. assert (Obs := all_observed L Fin).
      assert (Vec : forall c, Permutation (map (fun m => (sm_pos m, sm_vel m)) (vectors bld g sel_default L c)) (filter (fun pv => in_cell bld (geo g) c (fst pv)) E)).
      { intros c. unfold vectors, samples_in. rewrite Obs, <- (filter_perm _ _ _ All). assert (Q : forall l, map (fun m => (sm_pos m, sm_vel m)) (filter pos_keep (filter (fun m => in_cell bld (geo g) c (sm_pos m)) l)) =
          filter (fun pv => in_cell bld (geo g) c (fst pv)) (map (fun m : sample f64 => (sm_pos m, sm_vel m)) l)); [|now rewrite Q].
        induction l as [|m l IH]; [reflexivity|]. cbn [map filter fst].
        destruct (in_cell bld (geo g) c (sm_pos m)) eqn:I; [|exact IH]. cbn [filter].
        assert (K : pos_keep m = true).
        { unfold pos_keep. unfold in_cell in I. rewrite G in I. apply andb_true_iff in I. destruct I as [I _]. cbn [geom_inside] in I. unfold cart_inside in I.
          destruct (sm_pos m) as [[a b] e]. destruct (cc_lim cg) as [[? ?] ?]. unfold nan3. destruct (nisnan a || nisnan b || nisnan e); [discriminate | reflexivity]. }
        rewrite K. cbn [map]. now rewrite IH. }
      destruct (c133_vector_field bld _ d L g cg sel_default Rec ltac:(repeat split; discriminate) (new_fresh cells (ThreeD lm) true g (or_introl Eg)) G ltac:(now rewrite Cc)) as [d' [v [Er Hv]]].
      - intros m Hm. assert (I : In (sm_pos m, sm_vel m) E) by (apply (Permutation_in _ All); apply (in_map (fun m => (sm_pos m, sm_vel m))); exact Hm).
        destruct (sm_vel m) as [[x y] z]. now apply (Od (sm_pos m)).
      - unfold all_samples. assert (X := Permutation_length All). rewrite map_length in X. unfold vlen in *. lia.
      - exists d', v. split; [exact Er|]. intros k c Hk Hc l Nl. specialize (Hv k c Hk ltac:(now rewrite Cc)). cbv zeta in Hv.
        assert (Em : Permutation (map (fun m => v3i k (sm_vel m)) (vectors bld g sel_default L c)) (map (fun pv => v3i k (snd pv)) l)).
        { unfold l. rewrite <- (Permutation_map (fun pv => v3i k (snd pv)) (Vec c)), map_map. reflexivity. }
        apply (mean_close_perm _ _ _ Em), Hv. intros Z. apply Nl. assert (X := Permutation_length (Vec c)). rewrite Z in X. unfold l. cbn [map Datatypes.length] in X.
        now apply length_zero_iff_nil.
    Qed.
  End Recorded.

  (** ** VTK folders *)
  Lemma by_id_entries (c c' : particles f64) : p_wf c -> by_id c c' -> Permutation (vtk_entries c') (vtk_entries c).
  Proof.
    intros W [W' [L [_ [sl [P [_ H]]]]]]. unfold vtk_entries. destruct W as [_ [_ [_ [W1 W2]]]]. destruct W' as [_ [_ [_ [W3 W4]]]]. unfold p_len in *.
    assert (Ls : vlen sl = vlen (p_ids c)) by (unfold vlen; rewrite (Permutation_length P), range_length; unfold vlen; lia).
    set (dv := ((n0, n0, n0), (n0, n0, n0)) : v3 f64 * v3 f64). set (N := combine (p_pos c) (p_vel c)).
    assert (LN : vlen N = vlen (p_ids c)) by (unfold N, vlen in *; rewrite combine_length; lia).
    assert (At : forall (Q V : list (v3 f64)) k p v, at_ Q k p -> at_ V k v -> at_ (combine Q V) k (p, v)).
    { intros Q V k. unfold at_. generalize (N.to_nat k) as n. clear. revert V. induction Q as [|q Q IH]; intros [|v V] [|n] p0 v0; try discriminate; cbn [combine nth_error]; [congruence | apply IH]. }
    assert (E : combine (p_pos c') (p_vel c') = map (fun i => nth (N.to_nat i) N dv) sl).
    { apply (at_ext _ _ (vlen (p_ids c))); [unfold vlen in *; rewrite combine_length; lia | unfold vlen in *; rewrite map_length; lia|].
      intros k Hk. destruct (lt_at sl k) as [i Hi]; [lia|].
      destruct (H k i Hi) as [[[[[id r] ty] p] v] [Ha Hb]]. cbn in Ha, Hb. destruct Ha as [_ [_ [_ [Ha1 Ha2]]]], Hb as [_ [_ [_ [Hb1 Hb2]]]].
      exists (p, v). split; [now apply At|]. apply at_map. exists i. split; [exact Hi|]. symmetry. apply nth_error_nth. exact (At _ _ _ _ _ Ha1 Ha2). }
    rewrite E. etransitivity; [apply Permutation_map; exact P|].
    assert (Q : map (fun i => nth (N.to_nat i) N dv) (range 0 (vlen (p_ids c))) = N); [|now rewrite Q].
    apply (at_ext _ _ (vlen (p_ids c))); [unfold vlen; rewrite map_length, range_length; unfold vlen; lia | exact LN|].
    intros k Hk. destruct (lt_at N k ltac:(lia)) as [p Hp]. exists p. split; [|exact Hp]. apply at_map. exists k. split; [|symmetry; now apply nth_error_nth].
    unfold at_. rewrite range_nth_error by lia. f_equal. lia.
  Qed.
  Lemma vtk_all cfg dt (fs : list (vtkfile f64)) (cs : list (particles f64)) (tf : tfile f64) (h : header f64) :
    Forall2 (content cfg) fs cs -> vtk_converter cfg fs dt = Val (tf, h) -> (vlen fs <= 2 ^ 53)%N -> Forall (fun x => is_finite (f_time dt x) = true) fs ->
    exists d0, dm_new bld (t_load tf) (tf_timesteps tf) = Val d0 /\
      forall d, reached (t_mgr bld tf (open_stats h)) (t_touch bld (t_load tf) (tf_timesteps tf)) (tf_timesteps tf) d0 d ->
      exists L, recorded (t_mgr bld tf (open_stats h)) d L /\ Forall (fun x => is_finite (ts_time x) = true) L /\
        Permutation (flat_map (fun x => combine (ts_pos x) (ts_vel x)) L) (flat_map vtk_entries cs).
  Proof.
    intros Fc E Ln Fin. destruct (c169_vtk_recorded bld _ _ _ _ _ _ Fc E Ln) as [d0 [E0 Q]]. exists d0. split; [exact E0|]. intros d Rd.
    destruct (Q d Rd) as [L [Rec [VL Tr]]]. exists L. split; [exact Rec|]. assert (Lc := Forall2_length _ _ _ Fc).
    assert (B : forall n x, nth_error L n = Some x -> exists f c c', nth_error fs n = Some f /\ nth_error cs n = Some c /\ by_id c c' /\ x = shown (f_time dt f) c').
    { intros n x Hn. destruct (Tr (N.of_nat n) x) as [f [c [c' [A1 [A2 A3]]]]]; [unfold at_; now rewrite Nat2N.id|]. exists f, c, c'. unfold at_ in A1, A2. rewrite Nat2N.id in A1, A2. auto. }
    split.
    - apply Forall_forall. intros x Hx. apply In_nth_error in Hx. destruct Hx as [n Hn]. destruct (B n x Hn) as [f [c [c' [A1 [_ [_ ->]]]]]]. cbn [shown ts_time]. rewrite Forall_forall in Fin. exact (Fin f (nth_error_In _ _ A1)).
    - apply flat_perm. assert (Ll : List.length L = List.length cs) by (unfold vlen in *; lia).
      assert (W : Forall (fun c => p_wf c) cs) by (clear - Fc; induction Fc as [|f c fs cs [Wc _] _ IH]; constructor; assumption).
      assert (B' : forall n x c, nth_error L n = Some x -> nth_error cs n = Some c -> Permutation (combine (ts_pos x) (ts_vel x)) (vtk_entries c)).
      { intros n x c Hx Hc. destruct (B n x Hx) as [f [c1 [c' [_ [Hc1 [Hb ->]]]]]]. assert (c1 = c) by congruence. subst c1. cbn [shown ts_pos ts_vel]. apply (by_id_entries c c'); [|exact Hb]. rewrite Forall_forall in W. apply W. exact (nth_error_In _ _ Hc). }
      clear - Ll B'. revert cs Ll B'. induction L as [|x L IH]; intros [|c cs] Ll B'; try discriminate; [constructor|]. constructor; [exact (B' 0%nat x c eq_refl eq_refl)|].
      apply IH; [now injection Ll|]. intros n. exact (B' (S n)).
  Qed.
  (** The mean speed of all entries of all files. *)
  Theorem c170_vtk_mean_speed cfg dt (fs : list (vtkfile f64)) (cs : list (particles f64)) (tf : tfile f64) (h : header f64) :
    Forall2 (content cfg) fs cs -> vtk_converter cfg fs dt = Val (tf, h) -> (vlen fs <= 2 ^ 53)%N -> Forall (fun x => is_finite (f_time dt x) = true) fs ->
    let E := flat_map vtk_entries cs in E <> [] -> (vlen E < 2 ^ 52)%N -> (forall p v, In (p, v) E -> slow v) ->
    exists d0, dm_new bld (t_load tf) (tf_timesteps tf) = Val d0 /\
      forall d, reached (t_mgr bld tf (open_stats h)) (t_touch bld (t_load tf) (tf_timesteps tf)) (tf_timesteps tf) d0 d ->
      exists d' m, mean_velocity_showcase bld (t_mgr bld tf (open_stats h)) d sel_default = Val (d', m) /\ is_finite m = true /\
        let mean := Rmean (map (fun pv => exact_speed (snd pv)) E) in
        (Rabs (B2R m - mean) <= NR (vlen E + 9) / IZR (2 ^ 52) * mean + bpow radix2 (-530))%R.
  Proof.
    intros Fc Ec Ln Fin E Ne Sm Sl. destruct (vtk_all _ _ _ _ _ _ Fc Ec Ln Fin) as [d0 [E0 Q]]. exists d0. split; [exact E0|]. intros d Rd.
    destruct (Q d Rd) as [L [Rec [FL P]]]. now apply (speed_of _ d L E).
  Qed.
  (** The mean velocity in a cell: that of all entries of all files with positions in it. *)
  Theorem c170_vtk_vectors cfg dt (fs : list (vtkfile f64)) (cs : list (particles f64)) (tf : tfile f64) (h : header f64) cells lm g :
    Forall2 (content cfg) fs cs -> vtk_converter cfg fs dt = Val (tf, h) -> (vlen fs <= 2 ^ 53)%N -> Forall (fun x => is_finite (f_time dt x) = true) fs ->
    let E := flat_map vtk_entries cs in (vlen E < 2 ^ 52)%N -> (forall p x y z, In (p, (x, y, z)) E -> ordinary x /\ ordinary y /\ ordinary z) ->
    sized cells -> cart_new cells (ThreeD lm) = Val g ->
    exists d0, dm_new bld (t_load tf) (tf_timesteps tf) = Val d0 /\
      forall d, reached (t_mgr bld tf (open_stats h)) (t_touch bld (t_load tf) (tf_timesteps tf)) (tf_timesteps tf) d0 d ->
      exists d' v, vectorfield bld (t_mgr bld tf (open_stats h)) d g sel_default = Val (d', v) /\
      forall k c, (k <= 2)%N -> inb3 cells c = true ->
        let l := filter (fun pv => in_cell bld (geo g) c (fst pv)) E in l <> [] ->
        mean_close (at3 (data (comp k v)) c) (map (fun pv => v3i k (snd pv)) l).
  Proof.
    intros Fc Ec Ln Fin E Sm Od Sz Eg. destruct (vtk_all _ _ _ _ _ _ Fc Ec Ln Fin) as [d0 [E0 Q]]. exists d0. split; [exact E0|]. intros d Rd.
    destruct (Q d Rd) as [L [Rec [FL P]]]. exact (vectors_of _ d L E Rec FL P cells lm g Sm Od Sz Eg).
  Qed.

  (** ** One csv file per timestep *)
  Theorem c170_step_recorded columns files ls times : vlen columns = 7%N -> Forall2 (Forall2 (reads columns)) files ls -> ~ In [] files ->
    (vlen files <= vlen times)%N -> files <> [] -> (vlen files <= 2 ^ 53)%N ->
    exists tf h d0, csv_multi_file_time_step files columns times = Val (tf, h) /\ dm_new bld (t_load tf) (tf_timesteps tf) = Val d0 /\
      forall d, reached (t_mgr bld tf (open_stats h)) (t_touch bld (t_load tf) (tf_timesteps tf)) (tf_timesteps tf) d0 d ->
      exists L, recorded (t_mgr bld tf (open_stats h)) d L /\ vlen L = vlen files /\
        forall k x, at_ L k x -> exists t l, at_ times k t /\ at_ ls k l /\ x = step_shown t l.
  Proof.
    intros L7 R Nf Hl Ne Ln. destruct (c70_converted columns files ls times L7 R Nf Hl) as [tf [h [E [Nt [Hn [Hg _]]]]]]. exists tf, h.
    assert (All : forall k, (k < vlen files)%N -> exists t l g, at_ times k t /\ at_ ls k l /\ tf_group tf k = Some g /\ step_stored g t l).
    { intros k Lk. destruct (lt_at times k) as [t Ht]; [lia|]. destruct (lt_at files k Lk) as [d Hd]. destruct (Forall2_at_l _ _ _ R _ _ Hd) as [l [Hl' _]]. destruct (Hg k t l Ht Hl') as [g [G S]]. exists t, l, g. auto. }
    assert (Sh : forall k x, (k < vlen files)%N -> t_shows tf k x -> exists t l, at_ times k t /\ at_ ls k l /\ x = step_shown t l).
    { intros k x Lk [g' [Gk' [T1 [T2 [T3 [T4 [T5 [T6 [T7 T8]]]]]]]]]. destruct (All k Lk) as [t [l [g [Ht [Hl' [Gk S]]]]]]. exists t, l. split; [exact Ht|]. split; [exact Hl'|].
      assert (g' = g) by congruence. subst g'. destruct S as [S1 [S2 [S3 [S4 [S5 [S6 [S7 S8]]]]]]].
      rewrite S8 in T8. destruct x as [xt xp xv xr xi xc xd xty]. cbn [ts_time ts_pos ts_vel ts_radius ts_id ts_clouds ts_density ts_type] in *.
      unfold step_shown. assert (Y : forall (A : Type) (o : option A) a b, o = Some a -> o = Some b -> b = a) by (intros; congruence).
      rewrite (Y _ _ _ _ S1 T1), (Y _ _ _ _ S2 T2), (Y _ _ _ _ S3 T3), (Y _ _ _ _ S4 T5), (Y _ _ _ _ S6 T6), (Y _ _ _ _ S7 T7).
      assert (Er := Y _ _ _ _ S5 T4). subst xr. rewrite T8, repeat_length. reflexivity. }
    assert (OK : tf_ok tf).
    { split; [rewrite Nt; split; [destruct files; [congruence | rewrite vlen_cons; lia] | exact Ln]|]. intros k Lk. rewrite Nt in Lk.
      destruct (All k Lk) as [t [l [g [_ [_ [Gk S]]]]]]. exists g. split; [exact Gk|]. destruct S as [-> [-> [-> [-> [-> [-> [-> _]]]]]]]. repeat split; discriminate. }
    assert (Rc : tf_rect tf).
    { intros k x Lk Hx. rewrite Nt in Lk. destruct (Sh k x Lk Hx) as [t [l [_ [_ ->]]]]. unfold rect, step_shown.
      cbn [ts_time ts_pos ts_vel ts_radius ts_id ts_clouds ts_density ts_type]. rewrite !map_length, !repeat_length. repeat split. }
    destruct (new_ok bld (t_load tf) (tf_timesteps tf) (t_shows tf) (t_nt tf OK) (t_ld tf OK)) as [d0 [E0 _]]. exists d0. split; [exact E|]. split; [exact E0|]. intros d Rd.
    destruct (c118_t_recorded bld tf (open_stats h) d0 d OK Rc ltac:(cbn [open_stats st_timesteps]; congruence) E0 Rd) as [L [VL [HL Rec]]].
    assert (Tr : forall k x, at_ L k x -> exists t l, at_ times k t /\ at_ ls k l /\ x = step_shown t l).
    { intros k x Hx. destruct (proj1 (HL k x) Hx) as [Lk S]. rewrite Nt in Lk. exact (Sh k x Lk S). }
    exists L. split; [exact Rec|]. split; [congruence | exact Tr].
  Qed.
  Lemma step_all columns files ls times : vlen columns = 7%N -> Forall2 (Forall2 (reads columns)) files ls -> ~ In [] files ->
    (vlen files <= vlen times)%N -> files <> [] -> (vlen files <= 2 ^ 53)%N -> Forall (fun t => is_finite t = true) times ->
    exists tf h d0, csv_multi_file_time_step files columns times = Val (tf, h) /\ dm_new bld (t_load tf) (tf_timesteps tf) = Val d0 /\
      forall d, reached (t_mgr bld tf (open_stats h)) (t_touch bld (t_load tf) (tf_timesteps tf)) (tf_timesteps tf) d0 d ->
      exists L, recorded (t_mgr bld tf (open_stats h)) d L /\ Forall (fun x => is_finite (ts_time x) = true) L /\
        Permutation (flat_map (fun x => combine (ts_pos x) (ts_vel x)) L) (flat_map step_entries ls).
  Proof.
    intros L7 R Nf Hl Ne Ln Fin. destruct (c170_step_recorded columns files ls times L7 R Nf Hl Ne Ln) as [tf [h [d0 [E [E0 Q]]]]]. exists tf, h, d0. split; [exact E|]. split; [exact E0|].
    intros d Rd. destruct (Q d Rd) as [L [Rec [VL Tr]]]. exists L. split; [exact Rec|]. assert (Lc := Forall2_length _ _ _ R).
    assert (B : forall n x, nth_error L n = Some x -> exists t l, nth_error times n = Some t /\ nth_error ls n = Some l /\ x = step_shown t l).
    { intros n x Hn. destruct (Tr (N.of_nat n) x) as [t [l [A1 [A2 A3]]]]; [unfold at_; now rewrite Nat2N.id|]. exists t, l. unfold at_ in A1, A2. rewrite Nat2N.id in A1, A2. auto. }
    split.
    - apply Forall_forall. intros x Hx. apply In_nth_error in Hx. destruct Hx as [n Hn]. destruct (B n x Hn) as [t [l [A1 [_ ->]]]]. cbn [step_shown ts_time]. rewrite Forall_forall in Fin. exact (Fin t (nth_error_In _ _ A1)).
    - apply flat_perm. assert (Ll : List.length L = List.length ls) by (unfold vlen in *; lia).
      assert (B' : forall n x l, nth_error L n = Some x -> nth_error ls n = Some l -> Permutation (combine (ts_pos x) (ts_vel x)) (step_entries l)).
      { intros n x l Hx Hc. destruct (B n x Hx) as [t [l1 [_ [Hc1 ->]]]]. assert (l1 = l) by congruence. subst l1. cbn [step_shown ts_pos ts_vel]. unfold step_entries.
        assert (Y : combine (map s_pos l) (map s_vel l) = map (fun s => (s_pos s, s_vel s)) l); [|now rewrite Y]. clear. induction l as [|s l IH]; [reflexivity|]. cbn [map combine]. now rewrite IH. }
      clear - Ll B'. revert ls Ll B'. induction L as [|x L IH]; intros [|c cs] Ll B'; try discriminate; [constructor|]. constructor; [exact (B' 0%nat x c eq_refl eq_refl)|].
      apply IH; [now injection Ll|]. intros n. exact (B' (S n)).
  Qed.
  Theorem c170_step_mean_speed columns files ls times : vlen columns = 7%N -> Forall2 (Forall2 (reads columns)) files ls -> ~ In [] files ->
    (vlen files <= vlen times)%N -> files <> [] -> (vlen files <= 2 ^ 53)%N -> Forall (fun t => is_finite t = true) times ->
    let E := flat_map step_entries ls in (vlen E < 2 ^ 52)%N -> (forall p v, In (p, v) E -> slow v) ->
    exists tf h d0, csv_multi_file_time_step files columns times = Val (tf, h) /\ dm_new bld (t_load tf) (tf_timesteps tf) = Val d0 /\
      forall d, reached (t_mgr bld tf (open_stats h)) (t_touch bld (t_load tf) (tf_timesteps tf)) (tf_timesteps tf) d0 d ->
      exists d' m, mean_velocity_showcase bld (t_mgr bld tf (open_stats h)) d sel_default = Val (d', m) /\ is_finite m = true /\
        let mean := Rmean (map (fun pv => exact_speed (snd pv)) E) in
        (Rabs (B2R m - mean) <= NR (vlen E + 9) / IZR (2 ^ 52) * mean + bpow radix2 (-530))%R.
  Proof.
    intros L7 R Nf Hl Ne Ln Fin E Sm Sl. destruct (step_all columns files ls times L7 R Nf Hl Ne Ln Fin) as [tf [h [d0 [Ec [E0 Q]]]]]. exists tf, h, d0. split; [exact Ec|]. split; [exact E0|].
    intros d Rd. destruct (Q d Rd) as [L [Rec [FL P]]]. apply (speed_of _ d L E); try assumption.
    destruct R as [|f l fs ls' H1 _]; [congruence|]. destruct H1 as [|r s0 rs ss _ _]; [exfalso; apply Nf; now left|]. discriminate.
  Qed.
  Theorem c170_step_vectors columns files ls times cells lm g : vlen columns = 7%N -> Forall2 (Forall2 (reads columns)) files ls -> ~ In [] files ->
    (vlen files <= vlen times)%N -> files <> [] -> (vlen files <= 2 ^ 53)%N -> Forall (fun t => is_finite t = true) times ->
    let E := flat_map step_entries ls in (vlen E < 2 ^ 52)%N -> (forall p x y z, In (p, (x, y, z)) E -> ordinary x /\ ordinary y /\ ordinary z) ->
    sized cells -> cart_new cells (ThreeD lm) = Val g ->
    exists tf h d0, csv_multi_file_time_step files columns times = Val (tf, h) /\ dm_new bld (t_load tf) (tf_timesteps tf) = Val d0 /\
      forall d, reached (t_mgr bld tf (open_stats h)) (t_touch bld (t_load tf) (tf_timesteps tf)) (tf_timesteps tf) d0 d ->
      exists d' v, vectorfield bld (t_mgr bld tf (open_stats h)) d g sel_default = Val (d', v) /\
      forall k c, (k <= 2)%N -> inb3 cells c = true ->
        let l := filter (fun pv => in_cell bld (geo g) c (fst pv)) E in l <> [] ->
        mean_close (at3 (data (comp k v)) c) (map (fun pv => v3i k (snd pv)) l).
  Proof.
    intros L7 R Nf Hl Ne Ln Fin E Sm Od Sz Eg. destruct (step_all columns files ls times L7 R Nf Hl Ne Ln Fin) as [tf [h [d0 [Ec [E0 Q]]]]]. exists tf, h, d0. split; [exact Ec|]. split; [exact E0|].
    intros d Rd. destruct (Q d Rd) as [L [Rec [FL P]]]. exact (vectors_of _ d L E Rec FL P cells lm g Sm Od Sz Eg).
  Qed.
End All.

(** ** Concrete cases *)
Local Notation f := f64_of_Z.
Lemma small_ok z : (z = 0 \/ z = 1)%Z -> is_finite (f z : f64) = true /\ (Rabs (B2R (f z)) <= bpow radix2 500)%R /\ ordinary (f z).
Proof.
  intros Hz. assert (A : is_finite (f z : f64) = true) by (destruct Hz as [-> | ->]; reflexivity).
  assert (B : (Rabs (B2R (f z)) <= 1)%R) by (rewrite (proj1 (of_Z_correct z ltac:(lia))); destruct Hz as [-> | ->]; [rewrite Rabs_R0; lra | rewrite Rabs_R1; lra]).
  assert (P1 := bpow_le radix2 0 500 ltac:(lia)). assert (P2 := bpow_le radix2 0 960 ltac:(lia)). change (bpow radix2 0) with 1%R in P1, P2.
  split; [exact A|]. split; [lra|]. split; [exact A | lra].
Qed.
Lemma slow_ok a b c : Forall (fun z => z = 0 \/ z = 1)%Z [a; b; c] -> slow (f a, f b, f c) /\ ordinary (f a) /\ ordinary (f b) /\ ordinary (f c).
Proof.
  intros H. inversion H as [|? ? Ha H1]; subst. inversion H1 as [|? ? Hb H2]; subst. inversion H2 as [|? ? Hc _]; subst.
  destruct (small_ok a Ha) as [A1 [A2 A3]]. destruct (small_ok b Hb) as [B1 [B2 B3]]. destruct (small_ok c Hc) as [C1 [C2 C3]]. unfold slow. tauto.
Qed.
Example c170_vtk_case : Forall2 (content ex_cfg) ex_files ex_parts /\ (exists tf h, vtk_converter ex_cfg ex_files (f 1) = Val (tf, h)) /\
  (vlen ex_files <= 2 ^ 53)%N /\ Forall (fun x => is_finite (f_time (f 1) x : f64) = true) ex_files /\
  let E := flat_map vtk_entries ex_parts in vlen E = 4%N /\ (forall p v, In (p, v) E -> slow v) /\
  (forall p x y z, In (p, (x, y, z)) E -> ordinary x /\ ordinary y /\ ordinary z) /\
  (exists g, cart_new (2, 2, 2)%N (ThreeD ((f 0, f 20), (f 0, f 40), (f 0, f 40))) = Val g /\ sized (2, 2, 2)%N).
Proof.
  destruct c119_vtk_case as [A [B [C _]]]. split; [exact A|]. split; [exact B|]. split; [exact C|].
  split; [repeat (constructor; [vm_compute; reflexivity|]); constructor|]. split; [reflexivity|].
  assert (S1 := slow_ok 1 0 0 ltac:(repeat constructor; lia)). assert (S2 := slow_ok 0 1 0 ltac:(repeat constructor; lia)).
  assert (I : forall p v, In (p, v) (flat_map vtk_entries ex_parts) -> In v [(f 1, f 0, f 0); (f 0, f 1, f 0)]).
  { intros p v H. cbn [flat_map vtk_entries ex_parts ex_part p_pos p_vel combine app In] in H. repeat (destruct H as [H|H]; [injection H as _ <-; cbn [In]; auto|]). destruct H. }
  split; [intros p v H; apply I in H; destruct H as [<-|[<-|[]]]; tauto|].
  split; [intros p x y z H; apply I in H; destruct H as [K|[K|[]]]; injection K as <- <- <-; tauto|].
  eexists. split; [reflexivity | repeat split; discriminate].
Qed.
Example c170_step_case : vlen ex_seven = 7%N /\ Forall2 (Forall2 (reads ex_seven)) ex_step_files ex_step_ls /\ ~ In [] ex_step_files /\
  (vlen ex_step_files <= vlen [f 1; f 2])%N /\ ex_step_files <> [] /\ (vlen ex_step_files <= 2 ^ 53)%N /\ Forall (fun t => is_finite (t : f64) = true) [f 1; f 2] /\
  let E := flat_map step_entries ex_step_ls in vlen E = 5%N /\ (forall p v, In (p, v) E -> slow v) /\
  (forall p x y z, In (p, (x, y, z)) E -> ordinary x /\ ordinary y /\ ordinary z).
Proof.
  destruct ex_step_ok as [A [B [C [D D']]]]. repeat (split; [assumption|]). split; [vm_compute; discriminate|]. split; [repeat (constructor; [reflexivity|]); constructor|]. split; [reflexivity|].
  assert (S1 := slow_ok 1 0 1 ltac:(repeat constructor; lia)).
  assert (I : forall p v, In (p, v) (flat_map step_entries ex_step_ls) -> v = (f 1, f 0, f 1)).
  { intros p v H. apply in_flat_map in H. destruct H as [l [Hl H]]. unfold step_entries in H. apply in_map_iff in H. destruct H as [s [E Hs]]. injection E as _ <-.
    cbn [In ex_step_ls] in Hl. destruct Hl as [<-|[<-|[]]]; apply in_map_iff in Hs; destruct Hs as [t [<- _]]; reflexivity. }
  split; [intros p v H; apply I in H; subst v; tauto|].
  intros p x y z H. apply I in H. injection H as -> -> ->. tauto.
Qed.
