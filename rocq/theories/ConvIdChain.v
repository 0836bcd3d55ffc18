(** * Properties C59, C68, C69: CSV files with several particles. *)
From Coq Require Import Reals List NArith ZArith Bool Lia Lra Sorted Permutation ZifyBool ZifyN ZifyNat.
From Flocq Require Import Core.Core IEEE754.BinarySingleNaN.
From Verif Require Import Base BaseFacts Num F64Facts RFacts NDArray DataModel DataSpec DataLoad DataProofs PropertiesData ConvModel ConvSort ConvCsv PropertiesCsv ConvIds ConvMulti.
Local Open Scope list_scope.
Local Open Scope bool_scope.
Local Notation tm := (@s_time f64).
Local Notation zero := (f64_of_Z 0).

(** ** Specification *)

(** A particle's lines can be written: the first has a velocity; at most 500 are not after time zero and no time
    occurs more than 501 times. *)
Definition acceptable (l : list (smp f64)) : Prop :=
  (exists s, at_ l 0 s /\ is_nan (snd (s_vel s)) = false) /\
  (vlen (filter (fun s => Bleb (tm s) zero) l) <= 500)%N /\
  forall t, Bltb zero t = true -> (vlen (filter (fun s => Bleb (tm s) t && Bleb t (tm s)) l) <= 501)%N.

(** A file with the particles [parts]: group number [p] records the lines of the particle at place [p]; there are
    no further groups; the header describes the lines written ... *)
Definition holds_all (pf : pfile f64) (h : header f64) (radius : f64) (ids : N -> f64) (parts : list (list (smp f64))) : Prop :=
  (forall p l, at_ parts p l -> exists g, pf_group pf p = Some g /\ records g l /\
     pg_radius g = Some (repeat radius (length l)) /\ pg_id g = Some (repeat (ids p) (length l)) /\
     pg_density g = None /\ long_if_there (pg_ptype g) (vlen l)) /\
  (forall p, (vlen parts <= p)%N -> pf_group pf p = None) /\
  (exists ks, Forall2 (fun l k => forall s, In s k <-> exists i, at_ l i s /\ news l i) parts ks /\
     describes h (map tm (concat ks)) (map s_pos (concat ks)) (map s_vel (concat ks))) /\
  (** ... and the number of timesteps is that of the longest particle; the particle number is one. *)
  (forall l, In l parts -> (vlen l <= pf_timesteps pf)%N) /\
  (parts <> [] -> exists l, In l parts /\ vlen l = pf_timesteps pf) /\
  pf_nparticles pf = 1%N /\ h_nparticles h = 1%N /\ h_timesteps h = pf_timesteps pf.

Lemma acceptable_writable l : clean l -> s_sorted l -> (acceptable l <-> writable l).
Proof.
  intros C S. assert (Q := patient_iff l C S zero 0 no_nan_zero ltac:(lia)). rewrite N.add_0_l in Q. unfold acceptable, writable, n_upto, n_at in *.
  change (patient n0 0 l) with (patient zero 0 l). rewrite Q. split.
  - intros [[s [Hs Nv]] [H1 H2]]. split; [|split; [exact H1 | exact H2]]. destruct l as [|s0 l']; [discriminate|]. exists s0, l'. split; [reflexivity|]. injection Hs as ->. exact Nv.
  - intros [[s [l' [-> Nv]]] [H1 H2]]. split; [exists s; split; [reflexivity | exact Nv] | split; [exact H1 | exact H2]].
Qed.
Lemma fold_max_spec l : forall a, (a <= fold_left N.max l a)%N /\ (forall x, In x l -> (x <= fold_left N.max l a)%N) /\ (fold_left N.max l a = a \/ In (fold_left N.max l a) l).
Proof.
  induction l as [|x l IH]; intros a; cbn [fold_left]; [split; [lia | split; [intros ? [] | now left]]|].
  destruct (IH (N.max a x)) as [H1 [H2 H3]]. split; [lia|]. split.
  - intros y [<-|Hy]; [lia | now apply H2].
  - destruct H3 as [H3|H3]; [|right; now right]. rewrite H3. destruct (N.max_spec a x) as [[_ ->]|[_ ->]]; [right; now left | now left].
Qed.
Lemma multi_holds radius ids ty parts : Forall clean parts -> Forall writable parts ->
  exists pf h, write_particles radius ids ty (map (map smp_row) parts) = Val (pf, h) /\ holds_all pf h radius ids parts /\
    (forall p l, at_ parts p l -> exists g, pf_group pf p = Some g /\ pg_ptype g = match ty with Some x => Some (repeat x (length l)) | None => None end).
Proof.
  intros C W. destruct (write_particles_eq radius ids ty parts W) as [rate [times [E Et]]]. do 2 eexists. split; [exact E|].
  assert (G : forall p l, at_ parts p l -> pf_group (multi_file radius ids ty parts) p = Some (multi_group radius (ids p) ty l)).
  { intros p l Hp. unfold multi_file. cbn [pf_group]. rewrite nth_error_map. unfold enumerate.
    assert (X : forall (A : Type) (b : list A) i n x, nth_error b n = Some x -> nth_error (combine (range i (i + vlen b)) b) n = Some ((i + N.of_nat n)%N, x)).
    { clear. induction b as [|y b IH]; intros i [|n] x Hx; try discriminate; (rewrite range_cons by (rewrite vlen_cons; lia)); cbn [combine nth_error] in *.
      - injection Hx as ->. replace (i + N.of_nat 0)%N with i by lia. reflexivity.
      - replace (i + vlen (y :: b))%N with (i + 1 + vlen b)%N by (rewrite vlen_cons; lia). rewrite (IH (i + 1)%N n x Hx). replace (i + N.of_nat (S n))%N with (i + 1 + N.of_nat n)%N by lia. reflexivity. }
    specialize (X _ parts 0%N (N.to_nat p) l Hp). rewrite N.add_0_l in X. rewrite X. cbn [option_map fst snd]. rewrite N2Nat.id. reflexivity. }
  split.
  - split; [|split; [|split; [|split; [|split]]]].
    + intros p l Hp. exists (multi_group radius (ids p) ty l). split; [now apply G|]. split; [|split; [reflexivity|split; [reflexivity|split; [reflexivity|]]]].
      2: { destruct ty; cbn [multi_group pg_ptype long_if_there]; [unfold vlen; rewrite repeat_length; lia | exact I]. }
      apply group_records. rewrite Forall_forall in C. apply C. eapply nth_error_In, Hp.
    + intros p Hp. unfold multi_file. cbn [pf_group]. apply nth_error_None. rewrite map_length. unfold enumerate. rewrite combine_length, range_length. unfold vlen in *. lia.
    + exists (map (keep n0) parts). split; [|apply header_describes].
      clear -C. induction C as [|l parts Hl _ IH]; [constructor|]. cbn [map]. constructor; [|exact IH]. now apply keep_news.
    + intros l Hl. unfold multi_file. cbn [pf_timesteps]. apply fold_max_spec. now apply in_map.
    + intros Ne. unfold multi_file. cbn [pf_timesteps]. destruct (fold_max_spec (map vlen parts) 0%N) as [_ [H2 [H3|H3]]].
      * destruct parts as [|l parts]; [congruence|]. exists l. split; [now left|]. assert (X := H2 (vlen l) (or_introl eq_refl)). lia.
      * apply in_map_iff in H3 as [l [E2 Hl]]. exists l. auto.
    + split; [reflexivity|]. unfold mk_header. destruct (fold_left acc_line (concat (map (keep n0) parts)) acc0) as [[[r0 r1] r2] [[v0 v1] v2] mg ms [[d0 d1] d2] n]. split; reflexivity.
  - intros p l Hp. exists (multi_group radius (ids p) ty l). split; [now apply G | reflexivity].
Qed.

(** ** Lines labelled with an id *)
Definition row8 (x : f64 * smp f64) : list f64 := let '(i, (t, (x, y, z), (a, b, c))) := x in [t; i; x; y; z; a; b; c].
(** Specification.  What a line says: time, id, position, velocity. *)
Definition reads_id (columns : list Z) (r : list f64) (x : f64 * smp f64) : Prop :=
  Forall2 (col_entry r) columns (row8 x).
(** The samples of the particle with id [i] (as an integer), in the order of the file. *)
Definition samples_of (i : N) (l : list (f64 * smp f64)) : list (smp f64) :=
  map snd (filter (fun x => (nusize (fst x) =? i)%N) l).

Lemma rm_row8 x : remove_columns_row [1%N] (row8 x) = smp_row (snd x).
Proof. destruct x as [i [[t [[x y] z]] [[a b] c]]]. reflexivity. Qed.
Lemma reads_id_pick columns r x : reads_id columns r x -> vlen columns = 8%N /\ pick_row 8 columns r = Val (row8 x).
Proof.
  intros H. assert (L : vlen columns = 8%N).
  { unfold reads_id in H. apply Forall2_length in H. destruct x as [i [[t [[x y] z]] [[a b] c]]]. unfold vlen. rewrite H. reflexivity. }
  split; [exact L|]. unfold pick_row. rewrite L. rewrite (mmap_Forall2 _ _ (row8 x)); [cbn; now rewrite app_nil_r|].
  eapply Forall2_impl; [|exact H]. intros c v H'. now apply col_entry_pick.
Qed.
Lemma insert_ext {A} (le le' : A -> A -> res bool) x l : (forall a b, le a b = le' a b) -> insert le x l = insert le' x l.
Proof. intros H. induction l as [|y l IH]; [reflexivity|]. cbn [insert]. now rewrite H, IH. Qed.
Lemma isort_ext {A} (le le' : A -> A -> res bool) l : (forall a b, le a b = le' a b) -> isort le l = isort le' l.
Proof. intros H. induction l as [|y l IH]; [reflexivity|]. cbn [isort]. rewrite IH. destruct (isort le' l); [|reflexivity]. cbn [bind]. now apply insert_ext. Qed.
(** Removing a column commutes with sorting by another one. *)
Lemma sort_map (rm : list f64 -> list f64) (data : table f64) c : Forall (fun r => nth_error (rm r) (N.to_nat c) = nth_error r (N.to_nat c)) data ->
  (let! d := sort_by_column data c in Val (map rm d)) = sort_by_column (map rm data) c.
Proof.
  intros H. unfold sort_by_column. assert (L : vlen (map rm data) = vlen data) by (unfold vlen; now rewrite map_length).
  assert (Cl : forall i, cell (map rm data) i c = cell data i c).
  { intros i. unfold cell, vget. rewrite nth_error_map. destruct (nth_error data (N.to_nat i)) as [r|] eqn:E; [|reflexivity]. cbn [option_map unwrap bind].
    rewrite Forall_forall in H. now rewrite (H r (nth_error_In _ _ E)). }
  rewrite L.
  match goal with |- _ = bind (isort ?le1 ?r) _ => match goal with |- bind (bind (isort ?le2 ?r) _) _ = _ => rewrite (isort_ext le1 le2 r) by (intros; cbn beta; now rewrite !Cl) end end.
  destruct (isort _ (range 0 (vlen data))) as [idx|]; [|reflexivity]. cbn [bind].
  induction idx as [|i idx IH]; [reflexivity|]. cbn [mmap]. unfold vget at 1 3. rewrite nth_error_map. destruct (nth_error data (N.to_nat i)) as [r|]; [|reflexivity]. cbn [option_map unwrap bind].
  rewrite <- IH. destruct (mmap (vget data) idx); reflexivity.
Qed.
Lemma sort_samples l : clean l -> exists l', in_time_order l l' /\ sort_by_column (map smp_row l) 0 = Val (map smp_row l').
Proof.
  intros C. destruct (order_ex l C) as [l' [O E]]. exists l'. split; [exact O|].
  assert (Ec : column (map smp_row l) 0 = Val (map tm l)).
  { unfold column. clear. induction l as [|s l IH]; [reflexivity|]. cbn [map mmap]. rewrite IH. destruct s as [[t [[x y] z]] [[a b] c]]. reflexivity. }
  rewrite Ec in E. cbn [bind] in E. destruct (is_sorted (map tm l)) eqn:Es; [|exact E]. rewrite (c50_identity _ 0 _ Ec Es). exact E.
Qed.

Section Multi.
  Context (fit : list f64 -> list f64 -> N -> option (list f64)) (powf : f64 -> f64 -> f64).

  (** ** C68.  One particle per id, in ascending order of the ids, with its lines in the order of time. *)
  Theorem c68_id_line raw columns radius l : Forall2 (reads_id columns) raw l -> raw <> [] -> Forall (fun x => is_nan (tm (snd x)) = false) l ->
    exists ids parts, StronglySorted N.lt ids /\ (forall i, In i ids <-> exists x, In x l /\ nusize (fst x) = i) /\
      Forall2 (fun i part => in_time_order (samples_of i l) part) ids parts /\
      (Forall acceptable parts -> exists pf h, csv_multi_idline fit powf raw columns false false radius = Val (pf, h) /\ holds_all pf h radius nofN parts) /\
      (~ Forall acceptable parts -> csv_multi_idline fit powf raw columns false false radius = Panic).
  Proof.
    intros R Ne C. assert (Nl : l <> []) by (intros ->; inversion R; subst; congruence).
    assert (L8 : vlen columns = 8%N). { inversion R as [|r x ? ? H]; subst; [congruence|]. now apply reads_id_pick in H. }
    assert (Pk : pick 8 columns raw = Val (map row8 l)).
    { rewrite pick_rows by assumption. apply mmap_Forall2. clear -R. induction R as [|r s raw l H _ IH]; [constructor|]. cbn [map]. constructor; [now apply reads_id_pick in H | exact IH]. }
    assert (Lb : labelled (map row8 l)). { apply Forall_map, Forall_forall. intros [i [[t [[x y] z]] [[a b] c]]] _. cbn [row8]. do 3 eexists. reflexivity. }
    destruct (c58_groups (map row8 l) Lb) as [ids [maxt [steps [E [S [I _]]]]]]. { intros X. apply map_eq_nil in X. congruence. }
    assert (Ro : forall i, rows_of i (map row8 l) = map row8 (filter (fun x => (nusize (fst x) =? i)%N) l)).
    { intros i. unfold rows_of. clear. induction l as [|x l IH]; [reflexivity|]. cbn [map filter]. assert (O : of_id i (row8 x) = (nusize (fst x) =? i)%N) by (destruct x as [j [[t [[x y] z]] [[a b] c]]]; reflexivity).
      rewrite O. destruct (nusize (fst x) =? i)%N; cbn [map]; now rewrite IH. }
    assert (Pr : exists parts, Forall2 (fun i part => in_time_order (samples_of i l) part /\ clean part /\
        (let! d := sort_by_column (rows_of i (map row8 l)) 0 in Val (map (remove_columns_row [1%N]) d)) = Val (map smp_row part)) ids parts).
    { clear -C Ro. induction ids as [|i ids [parts IH]]; [exists []; constructor|].
      assert (Ci : clean (samples_of i l)). { unfold samples_of, clean. apply Forall_map. apply Forall_forall. intros x Hx. apply filter_In in Hx as [Hx _]. rewrite Forall_forall in C. now apply C. }
      destruct (sort_samples _ Ci) as [part [O Es]]. exists (part :: parts). constructor; [|exact IH]. split; [exact O|].
      split; [apply order_perm in O; unfold clean in *; now rewrite O|]. rewrite sort_map.
      - rewrite Ro, map_map. rewrite (map_ext _ (fun x => smp_row (snd x))) by (intros; apply rm_row8). rewrite <- Es. unfold samples_of. now rewrite map_map.
      - apply Forall_forall. intros r Hr. rewrite Ro in Hr. apply in_map_iff in Hr as [[j [[t [[x y] z]] [[a b] c]]] [<- _]]. reflexivity. }
    destruct Pr as [parts Fp]. exists ids, parts. split; [exact S|]. split.
    { intros i. rewrite I. split.
      - intros [row [Hr Ho]]. apply in_map_iff in Hr as [x [<- Hx]]. exists x. split; [exact Hx|]. destruct x as [j [[t [[x y] z]] [[a b] c]]]. now apply N.eqb_eq.
      - intros [x [Hx Hi]]. exists (row8 x). split; [now apply in_map|]. destruct x as [j [[t [[x y] z]] [[a b] c]]]. now apply N.eqb_eq. }
    split; [eapply Forall2_impl; [|exact Fp]; intros a b [O _]; exact O|].
    assert (Cp : Forall clean parts). { clear -Fp. induction Fp as [|? ? ? ? [_ [H _]] _ IH]; constructor; assumption. }
    assert (Sp : Forall s_sorted parts). { clear -Fp. induction Fp as [|? ? ? ? [H _] _ IH]; constructor; [now apply order_sorted in H | assumption]. }
    assert (Eq : csv_multi_idline fit powf raw columns false false radius = write_particles radius nofN (Some n0) (map (map smp_row) parts)).
    { unfold csv_multi_idline. rewrite L8. change (negb ((8 =? 5)%N || (8 =? 8)%N)) with false. cbv iota. rewrite Pk. cbn [bind]. rewrite E. cbn [bind].
      erewrite mmap_Forall2; [cbn [bind]; reflexivity|]. clear -Fp. induction Fp as [|i part ids parts [_ [_ H]] _ IH]; [constructor|]. cbn [map]. constructor; [|exact IH].
      destruct (sort_by_column (rows_of i (map row8 l)) 0) as [d|]; [|discriminate]. cbn [bind] in *. exact H. }
    assert (W : Forall acceptable parts <-> Forall writable parts).
    { clear -Cp Sp. induction Cp as [|l parts Hl _ IH]; [split; constructor|]. inversion Sp; subst. specialize (IH H2). split; intros H; inversion H; subst; constructor; try tauto; now apply acceptable_writable. }
    rewrite Eq, W. split.
    - intros Wp. destruct (multi_holds radius nofN (Some n0) parts Cp Wp) as [pf [h [H1 [H2 _]]]]. eauto.
    - intros Nw. apply write_bad. apply Exists_Forall_neg; [|exact Nw]. intros x. unfold writable. destruct x as [|s x]; [right; intros [[s [l' [Hx _]]] _]; discriminate|].
      destruct (nisnan (snd (s_vel s))) eqn:Ev; [right; intros [[s' [l' [Hx Hv]]] _]; inversion Hx; subst; congruence|].
      destruct (patient n0 0 (s :: x)); [left; split; [eauto | reflexivity] | right; intros [_ ?]; discriminate].
  Qed.

  (** ** Chained trajectories *)
  (** Specification.  A trajectory: at least one line, no time below the one before it. *)
  Fixpoint climbs (old : f64) (l : list (smp f64)) : Prop :=
    match l with [] => True | s :: l' => Bltb (tm s) old = false /\ climbs (tm s) l' end.
  Definition trajectory (l : list (smp f64)) : Prop := exists s l', l = s :: l' /\ climbs (tm s) l'.
  (** Trajectories one after the other: each next one starts before the time at which the one before it ends. *)
  Fixpoint chained (ls : list (list (smp f64))) : Prop :=
    match ls with
    | l :: ((l2 :: _) as ls') => trajectory l /\ (forall s, at_ l2 0 s -> Bltb (tm s) (last (map tm l) zero) = true) /\ chained ls'
    | [l] => trajectory l
    | [] => True
    end.

  Definition chain_step (st : list N * list f64 * list N * f64) (it : N * f64) : list N * list f64 * list N * f64 :=
    let '(starts, durs, steps, old) := st in
    let '(i, t) := it in
    if (0 <? i)%N && (t <? old)%num then (starts ++ [i], durs ++ [old], steps ++ [(i - last starts 0)%N], t)
    else (starts, durs, steps, t).
  Fixpoint offsets (o : N) (ls : list (list (smp f64))) : list N :=
    match ls with [] => [] | l :: ls' => o :: offsets (o + vlen l) ls' end.

  Lemma last_cons {A} (l : list A) : forall x d, last l x = last (x :: l) d.
  Proof. induction l as [|u l IH]; intros x d; [reflexivity|]. rewrite <- (IH u x). change (last (x :: u :: l) d) with (last (u :: l) d). apply IH. Qed.
  Lemma climb_fold l : forall i starts durs steps old, climbs old l ->
    fold_left chain_step (combine (range i (i + vlen l)) (map tm l)) (starts, durs, steps, old) = (starts, durs, steps, last (map tm l) old).
  Proof.
    induction l as [|s l IH]; intros i starts durs steps old H.
    - rewrite range_empty by (unfold vlen; cbn [length]; lia). reflexivity.
    - destruct H as [H1 H2]. rewrite range_cons by (rewrite vlen_cons; lia). cbn [map combine fold_left chain_step].
      change (nltb (tm s) old) with (Bltb (tm s) old). rewrite H1, andb_false_r. replace (i + vlen (s :: l))%N with (i + 1 + vlen l)%N by (rewrite vlen_cons; lia).
      rewrite IH by exact H2. f_equal. apply last_cons.
  Qed.
  Lemma range_app_combine {A} i (a b : list A) : combine (range i (i + vlen (a ++ b))) (a ++ b) = combine (range i (i + vlen a)) a ++ combine (range (i + vlen a) (i + vlen a + vlen b)) b.
  Proof.
    revert i. induction a as [|x a IH]; intros i.
    - cbn [app]. change (vlen (@nil A)) with 0%N. rewrite !N.add_0_r. rewrite (range_empty i i) by lia. reflexivity.
    - cbn [app]. rewrite (range_cons i (i + vlen (x :: a ++ b))), (range_cons i (i + vlen (x :: a))) by (rewrite vlen_cons; lia). cbn [combine app].
      replace (i + vlen (x :: a ++ b))%N with (i + 1 + vlen (a ++ b))%N by (rewrite vlen_cons; lia). rewrite IH. replace (i + 1 + vlen a)%N with (i + vlen (x :: a))%N by (rewrite vlen_cons; lia). reflexivity.
  Qed.
  Lemma vlen_map {A B} (f : A -> B) l : vlen (map f l) = vlen l.
  Proof. unfold vlen. now rewrite map_length. Qed.
  (** The pass over the trajectories that follow the first. *)
  Lemma chain_fold ls : chained ls -> forall i starts durs steps old, (0 < i)%N ->
    (forall l s, hd_error ls = Some l -> at_ l 0 s -> Bltb (tm s) old = true) ->
    exists durs' steps' old', fold_left chain_step (combine (range i (i + vlen (concat ls))) (map tm (concat ls))) (starts, durs, steps, old) = (starts ++ offsets i ls, durs', steps', old').
  Proof.
    induction ls as [|l ls IH]; intros Ch i starts durs steps old Hi Hh.
    - cbn [concat offsets]. rewrite range_empty by (unfold vlen; cbn [length]; lia). cbn. rewrite app_nil_r. eauto.
    - assert (Tr : trajectory l) by (cbn [chained] in Ch; destruct ls; [exact Ch | apply Ch]).
      assert (Ch' : chained ls) by (cbn [chained] in Ch; destruct ls; [exact I | apply Ch]).
      destruct Tr as [s [l' [El Cl]]]. cbn [concat offsets]. rewrite map_app.
      replace (vlen (l ++ concat ls)) with (vlen (map tm l ++ map tm (concat ls))) by (rewrite <- map_app; apply vlen_map).
      rewrite range_app_combine, fold_left_app, !vlen_map.
      assert (St : fold_left chain_step (combine (range i (i + vlen l)) (map tm l)) (starts, durs, steps, old) =
                   (starts ++ [i], durs ++ [old], steps ++ [(i - last starts 0)%N], last (map tm l) zero)).
      { rewrite El. rewrite range_cons by (rewrite vlen_cons; lia). cbn [map combine fold_left chain_step].
        change (nltb (tm s) old) with (Bltb (tm s) old). rewrite (Hh l s eq_refl) by (rewrite El; reflexivity). replace (0 <? i)%N with true by lia. cbn [andb].
        replace (i + vlen (s :: l'))%N with (i + 1 + vlen l')%N by (rewrite vlen_cons; lia). rewrite climb_fold by exact Cl. f_equal. apply last_cons. }
      rewrite St. destruct (IH Ch' (i + vlen l)%N (starts ++ [i]) (durs ++ [old]) (steps ++ [(i - last starts 0)%N]) (last (map tm l) zero)) as [d [st [o E]]]; [lia| |].
      { intros l2 s2 Hl Hs. cbn [chained] in Ch. destruct ls as [|l3 ls]; [discriminate|]. injection Hl as ->. destruct Ch as [_ [H _]]. now apply H. }
      exists d, st, o. etransitivity; [exact E|]. rewrite <- app_assoc. reflexivity.
  Qed.
  Lemma chain_scan_spec ls : chained ls -> ls <> [] -> exists dur steps, chain_scan (map tm (concat ls)) = (offsets 0 ls ++ [vlen (concat ls)], dur, steps).
  Proof.
    intros Ch Ne. destruct ls as [|l ls]; [congruence|]. unfold chain_scan, enumerate. rewrite !vlen_map.
    assert (Tr : trajectory l) by (cbn [chained] in Ch; destruct ls; [exact Ch | apply Ch]).
    assert (Ch' : chained ls) by (cbn [chained] in Ch; destruct ls; [exact I | apply Ch]).
    assert (G : exists durs steps old, fold_left chain_step (combine (range 0 (vlen (concat (l :: ls)))) (map tm (concat (l :: ls)))) ([0%N], [], [], n0) = (offsets 0 (l :: ls), durs, steps, old)).
    { destruct Tr as [s [l' [El Cl]]]. cbn [concat offsets]. rewrite map_app.
      replace (vlen (l ++ concat ls)) with (vlen (map tm l ++ map tm (concat ls))) by (rewrite <- map_app; apply vlen_map).
      assert (X := range_app_combine 0 (map tm l) (map tm (concat ls))). rewrite !N.add_0_l in X. rewrite X. clear X. rewrite fold_left_app, !vlen_map.
      assert (St : fold_left chain_step (combine (range 0 (vlen l)) (map tm l)) ([0%N], [], [], n0) = ([0%N], [], [], last (map tm l) zero)).
      { rewrite El. rewrite range_cons by (rewrite vlen_cons; lia). cbn [map combine fold_left chain_step]. change (0 <? 0)%N with false. cbn [andb].
        replace (vlen (s :: l'))%N with (0 + 1 + vlen l')%N by (rewrite vlen_cons; lia). rewrite climb_fold by exact Cl. f_equal. apply last_cons. }
      rewrite St. destruct (chain_fold ls Ch' (vlen l) [0%N] [] [] (last (map tm l) zero)) as [d [st [o E]]].
      - rewrite El, vlen_cons. lia.
      - intros l2 s2 Hl Hs. cbn [chained] in Ch. destruct ls as [|l3 ls]; [discriminate|]. injection Hl as ->. destruct Ch as [_ [H _]]. now apply H.
      - exists d, st, o. etransitivity; [exact E|]. reflexivity. }
    destruct G as [durs [steps [old G]]].
    match goal with |- context [fold_left ?f ?a ([0%N], ?d, ?s, ?z)] => replace (fold_left f a ([0%N], d, s, z)) with (offsets 0 (l :: ls), durs, steps, old) by (symmetry; exact G) end.
    do 2 eexists. reflexivity.
  Qed.
  Lemma offsets_len ls : forall o, length (offsets o ls) = length ls.
  Proof. induction ls as [|l ls IH]; intros o; cbn [offsets length]; [reflexivity|]. now rewrite IH. Qed.
  Lemma offsets_nth ls last : forall o k l, nth_error ls k = Some l -> exists a,
    nth_error (offsets o (ls ++ [last]) ++ [(o + vlen (concat (ls ++ [last])))%N]) k = Some a /\ nth_error (offsets o (ls ++ [last]) ++ [(o + vlen (concat (ls ++ [last])))%N]) (S k) = Some (a + vlen l)%N /\
    (o <= a)%N /\ forall (A : Type) (f : smp f64 -> A), firstn (length l) (skipn (N.to_nat (a - o)) (map f (concat (ls ++ [last])))) = map f l.
  Proof.
    induction ls as [|l0 ls IH]; intros o k l Hk; [destruct k; discriminate|]. destruct k as [|k]; cbn [nth_error] in Hk.
    - injection Hk as ->. exists o. cbn [app offsets nth_error]. split; [reflexivity|]. split; [|split; [lia|]].
      + destruct ls; reflexivity.
      + intros A f. rewrite N.sub_diag. cbn [N.to_nat skipn concat]. rewrite map_app, firstn_app, map_length, Nat.sub_diag. cbn [firstn]. rewrite app_nil_r. apply firstn_all2. rewrite map_length. lia.
    - destruct (IH (o + vlen l0)%N k l Hk) as [a [H1 [H2 [H3 H4]]]]. exists a. cbn [app offsets nth_error concat].
      replace (o + vlen (l0 ++ concat (ls ++ [last])))%N with (o + vlen l0 + vlen (concat (ls ++ [last])))%N by (unfold vlen; rewrite app_length; lia).
      split; [exact H1|]. split; [exact H2|]. split; [lia|]. intros A f. rewrite map_app, skipn_app, map_length.
      rewrite skipn_all2 by (rewrite map_length; unfold vlen in H3; lia). cbn [app]. replace (N.to_nat (a - o) - length l0)%nat with (N.to_nat (a - (o + vlen l0))) by (unfold vlen; lia). apply H4.
  Qed.

  Definition long_enough (l : list (smp f64)) : bool := (10 <=? vlen l)%N.
  (** ** C59.  Every trajectory of at least ten lines that is followed by another one becomes a particle, in order. *)
  Theorem c59_chain raw columns radius l ls last : Forall2 (reads columns) raw l -> Forall (fun s => is_nan (tm s) = false) l ->
    l = concat (ls ++ [last]) -> chained (ls ++ [last]) ->
    let parts := filter long_enough ls in
    (Forall acceptable parts -> exists pf h, csv_multi_chain fit powf raw columns false false radius = Val (pf, h) /\ holds_all pf h radius (fun _ => n1) parts) /\
    (~ Forall acceptable parts -> csv_multi_chain fit powf raw columns false false radius = Panic).
  Proof.
    intros R C El Ch parts.
    assert (Nl : l <> []). { assert (Tr : trajectory last). { clear -Ch. induction ls as [|l ls IH]; [exact Ch|]. apply IH. cbn [app chained] in Ch. destruct (ls ++ [last]) eqn:E; [destruct ls; discriminate | apply Ch]. }
      destruct Tr as [s [l' [-> _]]]. rewrite El, concat_app. cbn. destruct (concat ls); discriminate. }
    assert (L7 : vlen columns = 7%N). { inversion R as [|r x ? ? H]; subst; [congruence|]. now apply reads_pick in H. }
    assert (Pk : pick 7 columns raw = Val (map smp_row l)).
    { rewrite pick_rows by (intros ->; inversion R; subst; congruence). apply mmap_Forall2. clear -R. induction R as [|r s raw l H _ IH]; [constructor|]. cbn [map]. constructor; [now apply reads_pick in H | exact IH]. }
    assert (Ec : column (map smp_row l) 0 = Val (map tm l)).
    { unfold column. clear. induction l as [|s l IH]; [reflexivity|]. cbn [map mmap]. rewrite IH. destruct s as [[t [[x y] z]] [[a b] c]]. reflexivity. }
    assert (Eq : csv_multi_chain fit powf raw columns false false radius = write_particles radius (fun _ => n1) None (map (map smp_row) parts)).
    { unfold csv_multi_chain. rewrite L7. change (7 =? 0)%N with false. cbv iota. rewrite Pk. cbn [bind]. rewrite Ec. cbn [bind].
      destruct (chain_scan_spec (ls ++ [last]) Ch) as [dur [steps Es]]; [destruct ls; discriminate|]. rewrite <- El in Es. rewrite Es.
      set (starts := offsets 0 (ls ++ [last]) ++ [vlen l]).
      assert (Lst : (vlen starts - 2 = vlen ls)%N) by (unfold starts, vlen; rewrite app_length, offsets_len, app_length; cbn [length]; lia). rewrite Lst.
      assert (Mm : mmap (fun ix => let! a := vget starts ix in let! b := vget starts (ix + 1) in
          if (b - a <? 10)%N then Val [] else
          let d := firstn (N.to_nat (b - a)) (skipn (N.to_nat a) (map smp_row l)) in
          let! d := Val d in let! d := Val d in Val [d]) (range 0 (vlen ls)) = Val (map (fun p => if long_enough p then [map smp_row p] else []) ls)).
      { apply mmap_Forall2.
        assert (G : forall a b, ls = a ++ b -> Forall2 (fun ix y => (let! a := vget starts ix in let! b := vget starts (ix + 1) in
          if (b - a <? 10)%N then Val [] else
          let d := firstn (N.to_nat (b - a)) (skipn (N.to_nat a) (map smp_row l)) in
          let! d := Val d in let! d := Val d in Val [d]) = Val y) (range (vlen a) (vlen a + vlen b)) (map (fun p => if long_enough p then [map smp_row p] else []) b)).
        { intros a b. revert a. induction b as [|p b IHb]; intros a Eab; [change (vlen (@nil (list (smp f64)))) with 0%N; rewrite range_empty by lia; constructor|].
          rewrite range_cons by (rewrite vlen_cons; lia). cbn [map]. constructor.
          - assert (Hn : nth_error ls (N.to_nat (vlen a)) = Some p) by (rewrite Eab; unfold vlen; rewrite Nat2N.id, nth_error_app2, Nat.sub_diag by lia; reflexivity).
            destruct (offsets_nth ls last 0 _ _ Hn) as [o [H1 [H2 [_ H4]]]]. rewrite N.add_0_l, <- El in H1, H2. rewrite N.sub_0_r, <- El in H4.
            assert (V1 : vget starts (vlen a) = Val o) by (apply vget_val; exact H1). assert (V2 : vget starts (vlen a + 1) = Val (o + vlen p)%N) by (apply vget_val; replace (N.to_nat (vlen a + 1)) with (S (N.to_nat (vlen a))) by lia; exact H2).
            rewrite V1, V2. cbn [bind]. unfold long_enough. replace (o + vlen p - o)%N with (vlen p) by lia. cbv zeta.
            destruct (N.leb_spec 10 (vlen p)) as [Lp|Lp]; [replace (vlen p <? 10)%N with false by lia | replace (vlen p <? 10)%N with true by lia; reflexivity].
            cbn [bind]. do 2 f_equal. unfold vlen at 1. rewrite Nat2N.id. apply H4.
          - specialize (IHb (a ++ [p])). rewrite <- app_assoc in IHb. specialize (IHb Eab).
            replace (vlen (a ++ [p])) with (vlen a + 1)%N in IHb by (unfold vlen; rewrite app_length; cbn [length]; lia).
            replace (vlen a + vlen (p :: b))%N with (vlen a + 1 + vlen b)%N by (rewrite vlen_cons; lia). exact IHb. }
        specialize (G [] ls eq_refl). rewrite N.add_0_l in G. exact G. }
      match goal with |- bind ?X _ = _ => replace X with (Val (map (fun p => if long_enough p then [map smp_row p] else []) ls)) by (symmetry; exact Mm) end.
      cbn [bind]. f_equal. unfold parts. clear. induction ls as [|p ls IH]; [reflexivity|]. cbn [map concat filter]. destruct (long_enough p); cbn [app map]; now rewrite IH. }
    assert (Tp : Forall trajectory ls). { clear -Ch. induction ls as [|l ls IH]; [constructor|]. cbn [app chained] in Ch. destruct (ls ++ [last]) eqn:E; [destruct ls; discriminate|]. constructor; [apply Ch | apply IH, Ch]. }
    assert (Cs : Forall clean parts).
    { apply Forall_forall. intros p Hp. apply filter_In in Hp as [Hp _]. apply Forall_forall. intros s Hs. rewrite Forall_forall in C. apply C. rewrite El. apply in_concat. exists p. split; [apply in_or_app; now left | exact Hs]. }
    assert (Ss : Forall s_sorted parts).
    { apply Forall_forall. intros p Hp. assert (Cp : clean p) by (rewrite Forall_forall in Cs; now apply Cs). apply filter_In in Hp as [Hp _]. rewrite Forall_forall in Tp. destruct (Tp p Hp) as [s [p' [-> Cl]]].
      clear -Cp Cl. inversion Cp as [|? ? Ns Cp']; subst. assert (G : forall old, is_nan (old : f64) = false -> climbs old p' -> s_sorted p' /\ Forall (fun b => Bleb old (tm b) = true) p').
      { clear -Cp'. induction Cp' as [|s p Ns _ IH]; intros old No Cl; [split; constructor|]. destruct Cl as [H1 H2]. destruct (IH (tm s) Ns H2) as [S1 S2].
        assert (Le : Bleb old (tm s) = true) by (rewrite Bltb_negb in H1 by assumption; now apply negb_false_iff). split; [constructor; assumption|]. constructor; [exact Le|].
        eapply Forall_impl; [|exact S2]. intros b Hb. cbn beta in *. eapply Bleb_trans; eassumption. }
      destruct (G (tm s) Ns Cl) as [S1 S2]. constructor; assumption. }
    assert (W : Forall acceptable parts <-> Forall writable parts).
    { clear -Cs Ss. induction Cs as [|l parts Hl _ IH]; [split; constructor|]. inversion Ss; subst. specialize (IH H2). split; intros H; inversion H; subst; constructor; try tauto; now apply acceptable_writable. }
    rewrite Eq, W. split.
    - intros Wp. destruct (multi_holds radius (fun _ => n1) None parts Cs Wp) as [pf [h [H1 [H2 _]]]]. eauto.
    - intros Nw. apply write_bad. apply Exists_Forall_neg; [|exact Nw]. intros x. unfold writable. destruct x as [|s x]; [right; intros [[s [l' [Hx _]]] _]; discriminate|].
      destruct (nisnan (snd (s_vel s))) eqn:Ev; [right; intros [[s' [l' [Hx Hv]]] _]; inversion Hx; subst; congruence|].
      destruct (patient n0 0 (s :: x)); [left; split; [eauto | reflexivity] | right; intros [_ ?]; discriminate].
  Qed.
End Multi.
