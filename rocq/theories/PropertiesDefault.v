(** * Property C164: one CSV file per timestep without velocities (four columns, the default of Converter.csv_multi_files) *)
From Coq Require Import Reals List NArith ZArith Bool Lia String Ascii ZifyBool ZifyN ZifyNat.
From Flocq Require Import Core.Core IEEE754.BinarySingleNaN.
From Verif Require Import Base BaseFacts Num F64Facts RFacts NDArray DataModel DataSpec DataLoad DataProofs PropertiesData ConvModel ConvSort ConvCsv PropertiesCsv ConvVtk
  ConvIds ConvMulti ConvIdChain PropertiesMulti ConvFitted LibConvModel PropertiesLibConv.
Import ListNotations.
Local Open Scope list_scope.
Local Open Scope bool_scope.
Local Notation zero := (f64_of_Z 0).

Definition in_order7 : list Z := [0; 1; 2; 3; 4; 5; 6]%Z.
Lemma reads_in_order (s : smp f64) : reads in_order7 (smp_row s) s.
Proof. destruct s as [[t [[x y] z]] [[a b] c]]. unfold reads, in_order7. cbn [smp_row]. repeat (constructor; [now apply col_entry_pick|]). constructor. Qed.
(** Files of seven columns. *)
Definition as_rows (ls : list (list (smp f64))) : list (list (list f64)) := map (map smp_row) ls.
Lemma as_rows_len ls : vlen (as_rows ls) = vlen ls.
Proof. unfold vlen, as_rows. now rewrite map_length. Qed.
Lemma all_in_order ls : Forall2 (Forall2 (reads in_order7)) (as_rows ls) ls.
Proof.
  unfold as_rows.
  assert (R : forall l, Forall2 (reads in_order7) (map smp_row l) l).
  { induction l as [|s l IH]; [constructor|]. cbn [map]. constructor; [apply reads_in_order | exact IH]. }
  induction ls as [|l ls IH]; [constructor|]. cbn [map]. constructor; [apply R | exact IH].
Qed.
(** What is read of four columns: velocities that are not a number. *)
Lemma pick_same columns data l : vlen columns = 4%N -> Forall2 (reads_place columns) data l -> pick 7 columns data = pick 7 in_order7 (map smp_row l).
Proof.
  intros L4 R. destruct R as [|r s data l H R]; [destruct columns; [discriminate | reflexivity]|].
  rewrite !pick_rows by discriminate. rewrite (mmap_Forall2 _ (r :: data) (map smp_row (s :: l))).
  - symmetry. apply mmap_Forall2. generalize (s :: l). clear. intros l. induction l as [|s l IH]; [constructor|]. cbn [map]. constructor; [|exact IH].
    apply reads_pick, reads_in_order.
  - cbn [map]. constructor; [now apply pick_place in H|]. clear -R. induction R as [|r s data l H R IH]; [constructor|]. cbn [map]. constructor; [now apply pick_place in H | exact IH].
Qed.

(** The four columns are read as the seven columns of a file whose velocities are not a number. *)
Theorem c164_same columns files ls times : vlen columns = 4%N -> Forall2 (Forall2 (reads_place columns)) files ls ->
  csv_multi_file_time_step files columns times = csv_multi_file_time_step (as_rows ls) in_order7 times.
Proof.
  intros L4 R. unfold csv_multi_file_time_step. rewrite L4. change (vlen in_order7) with 7%N. change (negb _) with false at 1. change (negb ((7 =? 4)%N || (7 =? 7)%N)) with false. cbv iota.
  assert (Lf : vlen (as_rows ls) = vlen files) by (rewrite as_rows_len; unfold vlen; f_equal; symmetry; now apply Forall2_length in R).
  unfold enumerate, table. rewrite Lf.
  match goal with |- bind ?X _ = bind ?Y _ => assert (E : X = Y); [|now rewrite E] end.
  assert (G : forall i n s, mfold (csv_step_file times columns) (combine (range i n) files) s = mfold (csv_step_file times in_order7) (combine (range i n) (as_rows ls)) s).
  { clear Lf. unfold as_rows. induction R as [|data l files ls H R IH]; intros i n s; [now destruct (range i n)|]. cbn [map].
    destruct (N.ltb_spec i n) as [Hi|Hi]; [|rewrite range_empty by lia; reflexivity]. rewrite range_cons by lia. cbn [combine mfold].
    assert (E1 : csv_step_file times columns s (i, data) = csv_step_file times in_order7 s (i, map smp_row l)).
    { unfold csv_step_file. now rewrite (pick_same columns data l L4 H). }
    match type of E1 with _ = ?Y => transitivity (bind Y (fun s' => mfold (csv_step_file times columns) (combine (range (i + 1) n) files) s')) end; [now f_equal|].
    cbn [map combine mfold]. match goal with |- bind ?X _ = bind ?Y _ => change Y with X; destruct X; [apply IH | reflexivity] end. }
  apply G.
Qed.

Lemma places_velocity columns files ls : Forall2 (Forall2 (reads_place columns)) files ls -> Forall (Forall (fun s => s_vel s = unknown)) ls.
Proof.
  induction 1 as [|data l files ls H _ IH]; constructor; [|exact IH]. clear -H. induction H as [|r s data l [_ U] _ IH]; constructor; assumption.
Qed.
Lemma all_unknown l : Forall (fun s : smp f64 => s_vel s = unknown) l -> map (@s_vel f64) l = repeat unknown (List.length l).
Proof. induction 1 as [|s l H _ IH]; [reflexivity|]. cbn [map List.length repeat]. now rewrite H, IH. Qed.

(** Every file is the timestep of its place, at its time, with its ids and positions and with no velocities: every component is NaN. *)
Definition place_stored (g : tgroup f64) (t : f64) (l : list (smp f64)) : Prop :=
  tg_time g = Some t /\ tg_position g = Some (map s_pos l) /\ tg_id g = Some (map s_id l) /\
  tg_velocity g = Some (repeat (nnan, nnan, nnan) (List.length l)) /\
  tg_radius g = Some (repeat zero (List.length l)) /\ tg_ppcloud g = Some (repeat zero (List.length l)) /\ tg_ptype g = Some (repeat zero (List.length l)) /\ tg_density g = None.
Theorem c164_stored columns files ls times : vlen columns = 4%N -> Forall2 (Forall2 (reads_place columns)) files ls -> ~ In [] files -> (vlen files <= vlen times)%N ->
  exists tf h, csv_multi_file_time_step files columns times = Val (tf, h) /\
    tf_timesteps tf = vlen files /\ h_timesteps h = vlen files /\
    (forall k t l, at_ times k t -> at_ ls k l -> exists g, tf_group tf k = Some g /\ place_stored g t l) /\
    (forall k, (vlen files <= k)%N -> tf_group tf k = None) /\
    h_times h = firstn (List.length files) times /\
    (forall i, (i < 3)%N -> range_recorded (map (ax i) (map s_pos (concat ls))) (ax i (fst (h_dims h))) (ax i (snd (h_dims h)))).
Proof.
  intros L4 R Ne Hl. assert (Lf : vlen (as_rows ls) = vlen files) by (rewrite as_rows_len; unfold vlen; f_equal; symmetry; now apply Forall2_length in R).
  destruct (c70_converted in_order7 (as_rows ls) ls times eq_refl (all_in_order ls)) as [tf [h [E [Nt [Hn [Hg [Hno [Ht [_ [_ [_ [_ [_ [D _]]]]]]]]]]]]]].
  { intros H. apply Ne. apply in_map_iff in H as [l [El Hl']]. destruct l; [|discriminate]. clear -R Hl'. induction R as [|data l files ls H _ IH]; [destruct Hl'|].
    destruct Hl' as [-> | Hl']; [inversion H; now left | right; now apply IH]. }
  { now rewrite Lf. }
  exists tf, h. split; [rewrite <- E; now apply c164_same|]. rewrite Lf in *. split; [exact Nt|]. split; [exact Hn|].
  split; [|split; [exact Hno|split; [|exact D]]].
  - intros k t l Htk Hk. destruct (Hg k t l Htk Hk) as [g [Gg [S1 [S2 [S3 [S4 [S5 [S6 [S7 S8]]]]]]]]]. exists g. split; [exact Gg|]. unfold place_stored.
    assert (U : Forall (fun s => s_vel s = unknown) l).
    { apply places_velocity in R. rewrite Forall_forall in R. apply R. eapply nth_error_In, Hk. }
    rewrite S3, (all_unknown l U). repeat split; assumption.
  - rewrite Ht. f_equal. unfold as_rows. rewrite map_length. symmetry. now apply Forall2_length in R.
Qed.
(** Reading it back, in any order of reads. *)
Theorem c164_read_back bld columns files ls times (ks : list N) : vlen columns = 4%N -> Forall2 (Forall2 (reads_place columns)) files ls -> ~ In [] files -> (vlen files <= vlen times)%N ->
  files <> [] -> (vlen files <= 2 ^ 53)%N -> Forall (fun k => k < vlen files)%N ks ->
  exists tf h d outs, csv_multi_file_time_step files columns times = Val (tf, h) /\ t_hist bld tf (map ORead ks) = Val (d, outs) /\ map fst outs = ks /\
    Forall (fun o => exists t l, at_ times (fst o) t /\ at_ ls (fst o) l /\
      ts_time (snd o) = t /\ ts_pos (snd o) = map s_pos l /\ ts_vel (snd o) = repeat (nnan, nnan, nnan) (List.length l)) outs.
Proof.
  intros L4 R Ne Hl Nf Sm Hk. assert (Lf : vlen (as_rows ls) = vlen files) by (rewrite as_rows_len; unfold vlen; f_equal; symmetry; now apply Forall2_length in R).
  destruct (c70_read_back bld in_order7 (as_rows ls) ls times ks eq_refl (all_in_order ls)) as [tf [h [d [outs [E [Eh [Ek Ho]]]]]]].
  { intros H. apply Ne. apply in_map_iff in H as [l [El Hl']]. destruct l; [|discriminate]. clear -R Hl'. induction R as [|data l files ls H _ IH]; [destruct Hl'|].
    destruct Hl' as [-> | Hl']; [inversion H; now left | right; now apply IH]. }
  { now rewrite Lf. }
  { intros H. apply Nf. destruct R; [reflexivity | discriminate]. }
  { now rewrite Lf. }
  { now rewrite Lf. }
  exists tf, h, d, outs. split; [rewrite <- E; now apply c164_same|]. split; [exact Eh|]. split; [exact Ek|].
  eapply Forall_impl; [|exact Ho]. intros o [t [l [H1 [H2 H3]]]]. exists t, l. rewrite H3. cbn [step_shown ts_time ts_pos ts_vel].
  repeat (split; [assumption || reflexivity|]). apply all_unknown. apply places_velocity in R. rewrite Forall_forall in R. apply R. eapply nth_error_In, H2.
Qed.

(** ** The header: no velocity is ever recorded *)
Lemma nan_comps (i : N) (l : list (smp f64)) : Forall (fun s => s_vel s = unknown) l -> map (ax i) (map (@s_vel f64) l) = repeat nnan (List.length l).
Proof.
  intros U. rewrite (all_unknown l U). clear. induction (List.length l) as [|n IH]; [reflexivity|]. cbn [repeat map]. rewrite IH. f_equal. unfold ax, unknown. now destruct (i =? 0)%N, (i =? 1)%N.
Qed.
Lemma nan_mags (l : list (smp f64)) : Forall (fun s => s_vel s = unknown) l -> map magnitude (map (@s_vel f64) l) = repeat nnan (List.length l).
Proof. intros U. rewrite (all_unknown l U). clear. induction (List.length l) as [|n IH]; [reflexivity|]. cbn [repeat map]. now rewrite IH. Qed.
Lemma nan_sum n (s : f64) : (0 < n)%nat -> fold_left nadd (repeat nnan n) s = nnan.
Proof.
  assert (Z : forall s : f64, nadd s nnan = nnan) by (intros [ | | | ]; reflexivity).
  destruct n as [|n]; [lia|]. intros _. cbn [repeat fold_left]. rewrite Z. induction n as [|n IH]; [reflexivity|]. cbn [repeat fold_left]. rewrite Z. exact IH.
Qed.
Theorem c164_mean_velocity columns files ls times : vlen columns = 4%N -> Forall2 (Forall2 (reads_place columns)) files ls -> ~ In [] files -> (vlen files <= vlen times)%N -> files <> [] ->
  exists tf h, csv_multi_file_time_step files columns times = Val (tf, h) /\
    snd (fst (h_mag h)) = nnan /\ forall i lo mean hi, (i < 3)%N -> gsel i (h_vel h) = (lo, mean, hi) -> mean = nnan.
Proof.
  intros L4 R Ne Hl Nf. assert (Lf : vlen (as_rows ls) = vlen files) by (rewrite as_rows_len; unfold vlen; f_equal; symmetry; now apply Forall2_length in R).
  destruct (c70_converted in_order7 (as_rows ls) ls times eq_refl (all_in_order ls)) as [tf [h [E [_ [_ [_ [_ [_ [_ [_ [_ [_ [_ [_ [V M]]]]]]]]]]]]]]].
  { intros H. apply Ne. apply in_map_iff in H as [l [El Hl']]. destruct l; [|discriminate]. clear -R Hl'. induction R as [|data l files ls H _ IH]; [destruct Hl'|].
    destruct Hl' as [-> | Hl']; [inversion H; now left | right; now apply IH]. }
  { now rewrite Lf. }
  exists tf, h. split; [rewrite <- E; now apply c164_same|].
  assert (U : Forall (fun s => s_vel s = unknown) (concat ls)) by (apply Forall_concat; eapply places_velocity, R).
  assert (P : (0 < List.length (concat ls))%nat).
  { destruct R as [|data l files ls H R]; [congruence|]. cbn [concat]. rewrite app_length. destruct H; [exfalso; apply Ne; now left | cbn [List.length]; lia]. }
  assert (D : forall x : f64, ndiv nnan x = nnan) by (intros [ | | | ]; reflexivity).
  split.
  - destruct (h_mag h) as [[lo mean] hi] eqn:Eh. destruct (M lo mean hi eq_refl) as [_ Mm]. cbn [fst snd]. rewrite Mm, (nan_mags _ U), (nan_sum _ _ P). apply D.
  - intros i lo mean hi Hi Ev. destruct (V i lo mean hi Hi Ev) as [_ Mm]. rewrite Mm, (nan_comps i _ U), (nan_sum _ _ P). apply D.
Qed.

(** ** From Python: the default columns are time, x, y, z by name but the first is stored as the id *)
Theorem c164_python (read : ascii -> ascii -> bool -> string -> res (table f64)) texts ts times : Forall2 (fun x t => text_is read x "," "#" true t) texts ts ->
  py_csv_multi_files_default read texts times = csv_multi_file_time_step ts [0; 1; 2; 3]%Z times.
Proof. intros H. unfold py_csv_multi_files_default. now apply c114_csv_multi_files. Qed.

(** Two files of one and two lines. *)
Example c164_case : let ls := [[ex_place 1]; [ex_place 2; ex_place 3]] in
  let files := map (map (fun s : smp f64 => let '(t, (x, y, z), _) := s in [x; y; t; z])) ls in
  Forall2 (Forall2 (reads_place [2; 0; 1; 3]%Z)) files ls /\ ~ In [] files /\
  match csv_multi_file_time_step files [2; 0; 1; 3]%Z [f64_of_Z 1; f64_of_Z 2] with
  | Val (tf, h) => match tf_group tf 1 with
      | Some g => match tg_position g, tg_velocity g with Some [(x, _, _); _], Some [(u, _, _); _] => Beqb x (f64_of_Z 4) && is_nan u = true | _, _ => False end
      | None => False end
  | Panic => False end.
Proof.
  cbv zeta. split; [|split; [cbn; intuition discriminate | vm_compute; reflexivity]].
  repeat (constructor; [repeat (constructor; [split; [repeat (constructor; [now apply col_entry_pick|]); constructor | reflexivity]|]); constructor|]). constructor.
Qed.
