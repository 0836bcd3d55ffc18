(** * PropertiesPyGrid: grids made through the Python class [Grid] (C99-C105). *)
From Coq Require Import Reals ZArith NArith String Lia Lra Sorted.
From Flocq Require Import Core.Core IEEE754.BinarySingleNaN.
From Verif Require Import Base Num BaseFacts F64Facts RFacts NDArray GridModel GridSpec GridFacts CartProofs CartR PropertiesGrid
  CylProofs DataModel FunModel FunSpec PropertiesFun ConvModel ConvCsv PropertiesCsv ConvVtk PropertiesMulti PropertiesCyl PolarR PyGridModel.
Import ListNotations.
Local Open Scope string_scope.

(** ** Vocabulary *)
Section Spec.
  Context {F : Type} {NF : Num F}.
  (** The box between two corners. *)
  Definition box_of (d : v3 F * v3 F) : lims F :=
    let '((x0, y0, z0), (x1, y1, z1)) := d in ((x0, x1), (y0, y1), (z0, z1)).
  Definition zcells (n : id3) : pycells F := let '(a, b, c) := n in CInt [Z.of_N a; Z.of_N b; Z.of_N c].
  (** [Grid(data, num_cells)] *)
  Definition from_data (d : v3 F * v3 F) (n : id3) (style : string) : gargs F :=
    mkArgs (Some d) (Some (zcells n)) style None None None None None.
  (** [Grid(num_cells=n, limits=[x0, x1, y0, y1, z0, z1])] *)
  Definition from_limits (l : lims F) (n : id3) (style : string) : gargs F :=
    let '((x0, x1), (y0, y1), (z0, z1)) := l in
    mkArgs None (Some (zcells n)) style None (Some [x0; x1; y0; y1; z0; z1]) None None None.
  Definition pair_list (o : option (F * F)) : option (list F) := option_map (fun l => [fst l; snd l]) o.
  (** [Grid(data, num_cells, xlim, ylim, zlim)], each argument optional. *)
  Definition from_ranges (d : option (v3 F * v3 F)) (x y z : option (F * F)) (n : id3) (style : string) : gargs F :=
    mkArgs d (Some (zcells n)) style None None (pair_list x) (pair_list y) (pair_list z).
  (** The range given, otherwise that of the data. *)
  Definition range_or (o : option (F * F)) (l : F * F) : F * F := match o with Some r => r | None => l end.
  Definition ordered (o : option (F * F)) : Prop := forall lo hi, o = Some (lo, hi) -> nltb hi lo = false.
End Spec.
(** Numbers of cells as numpy integers. *)
Definition int_cells (n : id3) : Prop := let '(a, b, c) := n in (a < 2 ^ 63 /\ b < 2 ^ 63 /\ c < 2 ^ 63)%N.
Lemma sized_int n : sized n -> int_cells n.
Proof. destruct n as [[a b] c]. unfold sized, int_cells. change (2 ^ 53)%N with 9007199254740992%N. change (2 ^ 63)%N with 9223372036854775808%N. lia. Qed.

Section Build.
  Context {F : Type} {NF : Num F} {TF : Trig F} {PF : PyInt F}.
  Lemma int64_N a : (a < 2 ^ 63)%N -> int64 (Z.of_N a) = Some (Z.of_N a).
  Proof.
    intros H. unfold int64. assert (E : ((- 2 ^ 63 <=? Z.of_N a)%Z && (Z.of_N a <? 2 ^ 63)%Z)%bool = true); [|now rewrite E].
    change (2 ^ 63)%N with 9223372036854775808%N in H. apply andb_true_intro. change (2 ^ 63)%Z with 9223372036854775808%Z. split; [apply Z.leb_le | apply Z.ltb_lt]; lia.
  Qed.
  Lemma usizes_ok n : int_cells n -> to_usizes (F := F) (zcells n) = Some (let '(a, b, c) := n in [a; b; c]).
  Proof.
    destruct n as [[a b] c]. intros [A [B C]]. cbn [zcells to_usizes all_some].
    assert (E : forall k, (k < 2 ^ 63)%N -> ((0 <=? Z.of_N k) && (Z.of_N k <? 2 ^ 64))%Z = true).
    { intros k Hk. change (2 ^ 63)%N with 9223372036854775808%N in Hk. change (2 ^ 64)%Z with 18446744073709551616%Z.
      apply andb_true_intro. split; [apply Z.leb_le | apply Z.ltb_lt]; lia. }
    rewrite !E by assumption. now rewrite !N2Z.id.
  Qed.
  Lemma cast_ok n : int_cells n -> cast (F := F) (zcells n) = Some (let '(a, b, c) := n in [a; b; c]).
  Proof.
    intros H. unfold cast. assert (E : as_int64 (F := F) (zcells n) = Some (zcells n)).
    { destruct n as [[a b] c], H as [A [B C]]. cbn [zcells as_int64 all_some]. now rewrite !int64_N by assumption. }
    rewrite E. now apply usizes_ok.
  Qed.
  Lemma zcells_len n : Nat.eqb (cells_len (F := F) (zcells n)) 3 = true.
  Proof. now destruct n as [[a b] c]. Qed.

  (** The grid of the given style. *)
  Definition new_grid (style : string) (n : id3) (l : lims F) : res (grid F) :=
    if String.eqb style "cartesian" then cart_new n (ThreeD l) else cyl_new n (ThreeD l) true.
  Lemma new_grid_val style n l : exists g, new_grid style n l = Val g.
  Proof.
    unfold new_grid. destruct n as [[a b] c], l as [[[x0 x1] [y0 y1]] [z0 z1]].
    destruct (String.eqb style "cartesian"); eexists; reflexivity.
  Qed.
  Lemma rust_grid_ok style n l g : new_grid style n l = Val g ->
    rust_grid style (Some (let '(a, b, c) := n in [a; b; c])) (flat_lims l) = Val (Some g).
  Proof.
    destruct n as [[a b] c], l as [[[x0 x1] [y0 y1]] [z0 z1]]. unfold new_grid, rust_grid, flat_lims. cbn [fst snd].
    destruct (String.eqb style "cartesian"); intros E; rewrite E; reflexivity.
  Qed.
  Definition known_style (s : string) : Prop := s = "cartesian" \/ s = "cylindrical".
  Lemma known_b s : known_style s -> negb (String.eqb s "cartesian" || String.eqb s "cylindrical") = false.
  Proof. intros [-> | ->]; reflexivity. Qed.
  Lemma lim_ok_pair o : ordered (F := F) o -> lim_ok (pair_list o) = true.
  Proof. destruct o as [[lo hi]|]; cbn; [|reflexivity]. intros H. now rewrite (H lo hi eq_refl). Qed.
  Lemma replaced_pair o lo hi : replaced (F := F) (pair_list o) lo hi = range_or o (lo, hi).
  Proof. destruct o as [[a b]|]; reflexivity. Qed.

  (** ** The calls, for both styles *)
  Lemma ranges_data d x y z n style : known_style style -> int_cells n -> ordered x -> ordered y -> ordered z ->
    let '(l0, l1, l2) := box_of d in
    exists g, new_grid style n (range_or x l0, range_or y l1, range_or z l2) = Val g /\
      py_grid (from_ranges (Some d) x y z n style) = Val (Some g).
  Proof.
    intros S N X Y Z. destruct d as [[[x0 y0] z0] [[x1 y1] z1]]. cbn [box_of].
    destruct (new_grid_val style n (range_or x (x0, x1), range_or y (y0, y1), range_or z (z0, z1))) as [g E].
    exists g. split; [exact E|]. unfold py_grid, from_ranges. cbn [a_cells a_x a_y a_z a_style a_size a_data a_limits].
    rewrite zcells_len, !lim_ok_pair, known_b by assumption. cbn [negb andb]. rewrite cast_ok by assumption.
    unfold data_dim. cbn [a_x a_y a_z]. rewrite !replaced_pair. now apply rust_grid_ok.
  Qed.
  Lemma raw_ok style n : int_cells n ->
    (if String.eqb style "cartesian" then to_usizes (F := F) (zcells n) else cast (zcells n)) = Some (let '(a, b, c) := n in [a; b; c]).
  Proof. intros N. destruct (String.eqb style "cartesian"); [now apply usizes_ok | now apply cast_ok]. Qed.
  Lemma limits_data d l n style : known_style style -> int_cells n ->
    Forall (fun x => nltb x n0 = false) (flat_lims l) ->
    exists g, new_grid style n l = Val g /\
      py_grid (mkArgs d (Some (zcells n)) style None (Some (flat_lims l)) None None None) = Val (Some g).
  Proof.
    intros S N P. destruct (new_grid_val style n l) as [g E]. exists g. split; [exact E|].
    unfold py_grid. cbn [a_cells a_x a_y a_z a_style a_size a_data a_limits lim_ok is_none]. rewrite zcells_len, known_b by assumption. cbn [negb andb].
    assert (Q : existsb (fun x => nltb x n0) (flat_lims l) = false).
    { clear -P. induction P as [|x m Hx _ IH]; [reflexivity|]. cbn [existsb]. now rewrite Hx, IH. }
    rewrite raw_ok by assumption. rewrite Q. cbn [negb]. rewrite (rust_grid_ok _ _ _ _ E). now destruct d.
  Qed.
  Lemma ranges_only x y z n style : known_style style -> int_cells n -> ordered (Some x) -> ordered (Some y) -> ordered (Some z) ->
    exists g, new_grid style n (x, y, z) = Val g /\
      py_grid (from_ranges None (Some x) (Some y) (Some z) n style) = Val (Some g).
  Proof.
    intros S N X Y Z. destruct (new_grid_val style n (x, y, z)) as [g E]. exists g. split; [exact E|].
    unfold py_grid, from_ranges. cbn [a_cells a_x a_y a_z a_style a_size a_data a_limits].
    rewrite zcells_len, !lim_ok_pair, known_b by assumption. cbn [negb andb]. rewrite raw_ok by assumption.
    cbn [pair_list option_map]. exact (rust_grid_ok _ _ _ _ E).
  Qed.
End Build.

Lemma filter_le {A} (f : A -> bool) l : (List.length (filter f l) <= List.length l)%nat.
Proof. induction l as [|x l IH]; cbn; [lia|]. destruct (f x); cbn; lia. Qed.

(** ** C99: a Cartesian grid made from a dataset covers the recorded range *)
Section C99.
  Context {TF : Trig f64}.
  Lemma cart_shape n l (g : grid f64) : cart_new n (ThreeD l) = Val g ->
    exists cg, geo g = Cart cg /\ cc_cells cg = n /\ cc_lim cg = l /\ wf_grid g /\
      forall c, at3 (data g) c = n0 /\ at3 (weight g) c = n0.
  Proof.
    intros E. destruct (c09_new_grid n l) as [g' [cg [E' [G [S1 [S2 [C [L [Z _]]]]]]]]].
    assert (g' = g) by congruence. subst g'. exists cg. repeat split; try assumption; try apply Z.
    - rewrite G. cbn [geom_cells]. congruence.
    - rewrite G. cbn [geom_cells]. congruence.
  Qed.

  Theorem c99_from_data (d : v3 f64 * v3 f64) (n : id3) : sized n ->
    exists g cg, py_grid (from_data d n "cartesian") = Val (Some g) /\
      geo g = Cart cg /\ cc_cells cg = n /\ cc_lim cg = box_of d /\ wf_grid g /\
      (forall c, at3 (data g) c = n0 /\ at3 (weight g) c = n0) /\
      forall bld p, in_box (box_of d) p ->
        is_inside g p = true /\ exists i, cell_id bld g p = Val (Some i) /\ inb3 n i = true.
  Proof.
    intros Sz. assert (Q := ranges_data d None None None n "cartesian" (or_introl eq_refl) (sized_int n Sz)
      ltac:(discriminate) ltac:(discriminate) ltac:(discriminate)).
    destruct (box_of d) as [[l0 l1] l2] eqn:B. cbn [range_or] in Q. destruct Q as [g [E Eg]].
    destruct (cart_shape _ _ _ E) as [cg [G [C [L [W Z]]]]]. exists g, cg. split; [exact Eg|]. repeat (split; [assumption|]).
    intros bld p Hp. rewrite <- L in Hp. rewrite <- C in Sz |- *. exact (proj1 (c01_lookup_in_bounds bld g cg p G Sz) Hp).
  Qed.

  (** If the dimensions in the header bound the observed positions, every one of them is counted
      in exactly one cell, and the numbers in the cells add up to the number of samples. *)
  Theorem c99_every_sample_counted (bld : build) (M : mgr f64) dm L (n : id3) g s :
    recorded M dm L -> sel_ok s -> sized n ->
    Forall (fun m => in_box (box_of (st_dims (m_stats M))) (sm_pos m)) (observed s L) ->
    (vlen (observed s L) <= 2 ^ 53)%N ->
    py_grid (from_data (st_dims (m_stats M)) n "cartesian") = Val (Some g) ->
    exists dm' h, numberfield bld M dm g s = Val (dm', h) /\
      (forall c, inb3 n c = true -> is_finite (at3 (data h) c) = true /\
         B2R (at3 (data h) c) = NR (vlen (samples_in bld (geo g) c (observed s L)))) /\
      Rsum (map (fun c => B2R (at3 (data h) c)) (ids3 n)) = NR (vlen (observed s L)).
  Proof.
    intros Rec Sk Sz Hb Small E. destruct (c99_from_data (st_dims (m_stats M)) n Sz) as [g' [cg [E' [G [C [L' [W [_ Ins]]]]]]]].
    assert (g' = g) by congruence. subst g'.
    destruct (c34_number_of_samples bld M dm L g cg s Rec Sk W G ltac:(now rewrite C)) as [dm' [h [Eh [_ [Gh Hc]]]]].
    rewrite C in Hc. exists dm', h. split; [exact Eh|].
    assert (Lt : forall c, (vlen (samples_in bld (geo g) c (observed s L)) <= 2 ^ 53)%N).
    { intros c. refine (N.le_trans _ _ _ _ Small). unfold samples_in, vlen. assert (Q := filter_le (fun m => in_cell bld (geo g) c (sm_pos m)) (observed s L)). lia. }
    split; [intros c Hin; now apply Hc|].
    assert (N := c34_nothing_lost bld g cg (observed s L) G ltac:(now rewrite C)). rewrite C in N.
    assert (A : filter (fun m => is_inside g (sm_pos m)) (observed s L) = observed s L).
    { clear -Hb Ins. induction Hb as [|m l Hm _ IH]; [reflexivity|]. cbn [filter]. destruct (Ins Debug (sm_pos m) Hm) as [I _]. now rewrite I, IH. }
    rewrite A in N. unfold vlen at 1. rewrite N.
    assert (Hin : forall c, In c (ids3 n) -> B2R (at3 (data h) c) = INR (List.length (samples_in bld (geo g) c (observed s L)))).
    { intros c Hi. apply in_ids3 in Hi. destruct (Hc c Hi (Lt c)) as [_ ->]. unfold NR, vlen. now rewrite INR_IZR_INZ, nat_N_Z. }
    clear -Hin. induction (ids3 n) as [|c l IH]; [cbn [map fold_right]; rewrite Rsum_nil; reflexivity|]. cbn [map fold_right]. rewrite Rsum_cons.
    rewrite Hin by now left. rewrite IH by (intros; apply Hin; now right).
    unfold NR. rewrite !nat_N_Z, Nat2Z.inj_add, plus_IZR, !INR_IZR_INZ. reflexivity.
  Qed.
End C99.

(** ** From the original file to the grid *)
(** All positions are numbers, and in every coordinate some later position is at least as high as the first. *)
Definition not_highest_first (P : list (v3 f64)) : Prop :=
  Forall (fun p => is_finite (ax 0 p) = true /\ is_finite (ax 1 p) = true /\ is_finite (ax 2 p) = true) P /\
  exists p0 rest, P = p0 :: rest /\
    forall i, (i < 3)%N -> exists p, In p rest /\ Bleb (ax i p0) (ax i p) = true.

Local Notation fmax := (nmax : f64).
Local Notation fmin := (nmin : f64).
Section Converted.
  Context {TF : Trig f64}.
  Lemma range_covers (P : list (v3 f64)) (dims : v3 f64 * v3 f64) : not_highest_first P ->
    (forall i, (i < 3)%N -> range_recorded (map (ax i) P) (ax i (fst dims)) (ax i (snd dims))) ->
    Forall (in_box (box_of dims)) P.
  Proof.
    intros [Fin [p0 [rest [-> Hr]]]] Rg. apply Forall_forall. intros p Hp.
    assert (A : forall i, (i < 3)%N -> Bleb (ax i (fst dims)) (ax i p) = true /\ Bleb (ax i p) (ax i (snd dims)) = true).
    { intros i Hi. destruct (Rg i Hi) as [[_ Lo] [Hhi _]].
      - discriminate.
      - rewrite Forall_forall in Fin. apply Forall_forall. intros x Hx. apply in_map_iff in Hx. destruct Hx as [q [<- Hq]].
        destruct (Fin q Hq) as [F0 [F1 F2]]. assert (D : i = 0%N \/ i = 1%N \/ i = 2%N) by lia. destruct D as [-> | [-> | ->]]; assumption.
      - split; [apply Lo; now apply in_map|].
        destruct (Hr i Hi) as [q [Hq Lq]]. destruct (Hhi (ax i p0) (map (ax i) rest) eq_refl) as [_ Up].
        + exists (ax i q). split; [now apply in_map | exact Lq].
        + apply Up. now apply in_map. }
    destruct dims as [[[x0 y0] z0] [[x1 y1] z1]], p as [[x y] z]. exact (conj (A 0%N eq_refl) (conj (A 1%N eq_refl) (A 2%N eq_refl))).
  Qed.
  Lemma covers P dims n : sized n -> Forall (in_box (box_of dims)) P ->
    exists g, py_grid (from_data dims n "cartesian") = Val (Some g) /\
      forall bld p, In p P -> is_inside g p = true /\ exists c, cell_id bld g p = Val (Some c) /\ inb3 n c = true.
  Proof.
    intros Sz C. destruct (c99_from_data dims n Sz) as [g [cg [E [_ [_ [_ [_ [_ H]]]]]]]]. exists g. split; [exact E|].
    intros bld p Hp. apply H. rewrite Forall_forall in C. now apply C.
  Qed.

  (** Every position written by a converter lies in the Cartesian grid made from the file. *)
  Theorem c100_csv fit powf bld raw columns vel interp radius ss pf h T P V n : sized n ->
    csv_converter fit powf bld raw columns vel interp radius ss = Val (pf, h) -> holds pf T P V -> not_highest_first P ->
    exists g, py_grid (from_data (h_dims h) n "cartesian") = Val (Some g) /\
      forall bld p, In p P -> is_inside g p = true /\ exists c, cell_id bld g p = Val (Some c) /\ inb3 n c = true.
  Proof.
    intros Sz E H R. apply covers; [exact Sz|]. apply range_covers; [exact R|]. exact (proj1 (proj2 (proj2 (proj2 (c54_header _ _ _ _ _ _ _ _ _ _ _ E _ _ _ H))))).
  Qed.
  Theorem c100_vtk cfg dt fs cs tf h n : sized n -> Forall2 (content cfg) fs cs -> vtk_converter cfg fs dt = Val (tf, h) ->
    exists cs', Forall2 by_id cs cs' /\ (not_highest_first (concat (map p_pos cs')) ->
    exists g, py_grid (from_data (h_dims h) n "cartesian") = Val (Some g) /\
      forall bld c p, In c cs' -> In p (p_pos c) -> is_inside g p = true /\ exists i, cell_id bld g p = Val (Some i) /\ inb3 n i = true).
  Proof.
    intros Sz C E. destruct (c57_header _ _ _ _ _ _ C E) as [cs' [B H]]. cbv zeta in H. exists cs'. split; [exact B|]. intros R.
    destruct H as [_ [_ [_ [_ [_ [_ [_ [H _]]]]]]]]. destruct (covers _ _ n Sz (range_covers _ _ R H)) as [g [Eg Hg]]. exists g. split; [exact Eg|].
    intros bld c p Hc Hp. apply Hg. apply in_concat. exists (p_pos c). split; [now apply in_map | exact Hp].
  Qed.
  Theorem c100_step_files columns files ls times n : sized n -> vlen columns = 7%N -> Forall2 (Forall2 (reads columns)) files ls -> ~ In [] files -> (vlen files <= vlen times)%N ->
    not_highest_first (map s_pos (concat ls)) ->
    exists tf h g, csv_multi_file_time_step files columns times = Val (tf, h) /\ py_grid (from_data (h_dims h) n "cartesian") = Val (Some g) /\
      forall bld l s, In l ls -> In s l -> is_inside g (s_pos s) = true /\ exists c, cell_id bld g (s_pos s) = Val (Some c) /\ inb3 n c = true.
  Proof.
    intros Sz C R Nf Lt Hr. destruct (c70_converted _ _ _ _ C R Nf Lt) as [tf [h [E H]]]. exists tf, h.
    destruct H as [_ [_ [_ [_ [_ [_ [_ [_ [_ [_ H]]]]]]]]]]. cbv zeta in H.
    destruct (covers _ _ n Sz (range_covers _ _ Hr (proj1 H))) as [g [Eg Hg]]. exists g. split; [exact E|]. split; [exact Eg|].
    intros bld l s Hl Hs. apply Hg. apply in_map. apply in_concat. eauto.
  Qed.

  (** False without that condition: if a coordinate only falls, the grid contains no position at all. *)
  Theorem c100_falling_refuted fit powf bld raw columns vel interp radius ss pf h T P V n i : sized n ->
    csv_converter fit powf bld raw columns vel interp radius ss = Val (pf, h) -> holds pf T P V ->
    (i < 3)%N -> P <> [] -> Forall (fun p => is_finite (ax i p) = true) P ->
    StronglySorted (fun a b => Bltb b a = true) (map (ax i) P) -> (forall p, In p P -> Bltb (ax i p) fmax = true) ->
    exists g, py_grid (from_data (h_dims h) n "cartesian") = Val (Some g) /\
      forall p, Bltb fmin (ax i p) = true -> is_inside g p = false.
  Proof.
    intros Sz E H Hi Ne Fin S Mx. destruct (c54_header _ _ _ _ _ _ _ _ _ _ _ E _ _ _ H) as [_ [_ [_ [Rg _]]]].
    destruct (Rg i Hi) as [_ [_ Fall]].
    - destruct P; [congruence | discriminate].
    - apply Forall_forall. intros x Hx. apply in_map_iff in Hx. destruct Hx as [q [<- Hq]]. rewrite Forall_forall in Fin. now apply Fin.
    - assert (Hm : ax i (snd (h_dims h)) = fmin).
      { apply Fall; [exact S|]. intros x Hx. apply in_map_iff in Hx. destruct Hx as [q [<- Hq]]. now apply Mx. }
      destruct (c99_from_data (h_dims h) n Sz) as [g [cg [Eg [G [C [L _]]]]]]. exists g. split; [exact Eg|].
      intros p Hp. rewrite <- C in Sz. destruct (c01_lookup_in_bounds Debug g cg p G Sz) as [_ Out].
      apply Out. rewrite L. intros In. apply Blt_nle in Hp. rewrite <- Hm in Hp.
      destruct (h_dims h) as [[[x0 y0] z0] [[x1 y1] z1]], p as [[x y] z]. destruct In as [[_ A] [[_ B] [_ D]]].
      cbn [box_of fst snd] in *. assert (Q : i = 0%N \/ i = 1%N \/ i = 2%N) by lia. destruct Q as [-> | [-> | ->]]; cbn [ax N.eqb Pos.eqb] in Hp;
        [change (Bleb x x1 = true) in A | change (Bleb y y1 = true) in B | change (Bleb z z1 = true) in D]; congruence.
  Qed.
End Converted.

(** ** C101: limits given by the user *)
Section C101.
  Context {F : Type} {NF : Num F} {TF : Trig F} {PF : PyInt F}.

  (** The limits asked for: [limits] if given, otherwise the ranges given and the data for the rest. *)
  Definition asked (a : gargs F) : option (lims F) :=
    match a_limits a with
    | Some [x0; x1; y0; y1; z0; z1] => Some ((x0, x1), (y0, y1), (z0, z1))
    | Some _ => None
    | None =>
        let pick o (e : option (F * F)) := match o with Some [lo; hi] => Some (lo, hi) | Some _ => None | None => e end in
        let dim i := match a_data a with
                     | Some d => let '(l0, l1, l2) := box_of d in Some (if (i =? 0)%N then l0 else if (i =? 1)%N then l1 else l2)
                     | None => None
                     end in
        match pick (a_x a) (dim 0%N), pick (a_y a) (dim 1%N), pick (a_z a) (dim 2%N) with
        | Some l0, Some l1, Some l2 => Some (l0, l1, l2)
        | _, _, _ => None
        end
    end.

  Lemma lim_ok_inv o : lim_ok (F := F) o = true -> o = None \/ exists lo hi, o = Some [lo; hi] /\ nltb hi lo = false.
  Proof.
    destruct o as [[|lo [|hi [|]]]|]; cbn; try discriminate; [|now left]. intros H. right. exists lo, hi. split; [reflexivity|]. now apply negb_true_iff in H.
  Qed.
  Lemma rust_grid_inv style cells l (g : grid F) : rust_grid style cells l = Val (Some g) ->
    exists a b c lm, cells = Some [a; b; c] /\ l = flat_lims lm /\ new_grid style (a, b, c) lm = Val g.
  Proof.
    unfold rust_grid. destruct cells as [[|a [|b [|c [|]]]]|]; try discriminate.
    destruct l as [|x0 [|x1 [|y0 [|y1 [|z0 [|z1 [|]]]]]]]; try discriminate. intros E. exists a, b, c, ((x0, x1), (y0, y1), (z0, z1)).
    split; [reflexivity|]. split; [reflexivity|]. unfold new_grid.
    destruct (String.eqb style "cartesian"); [destruct (cart_new _ _) | destruct (cyl_new _ _ _)]; cbn [bind] in E; congruence.
  Qed.

  (** What every accepted call returns. *)
  Lemma py_grid_inv (a : gargs F) g : py_grid a = Val (Some g) ->
    known_style (a_style a) /\ lim_ok (a_x a) = true /\ lim_ok (a_y a) = true /\ lim_ok (a_z a) = true /\
    exists cells n l, (match a_size a with None => a_cells a | Some [s0; s1; s2] => calc_num_cells a s0 s1 s2 | Some _ => None end) = Some cells /\
      (if (is_none (a_limits a) && negb (is_none (a_data a)) || negb (String.eqb (a_style a) "cartesian"))%bool then cast cells else to_usizes cells) = Some (let '(i, j, k) := n in [i; j; k]) /\
      asked a = Some l /\ new_grid (a_style a) n l = Val g.
  Proof.
    unfold py_grid. intros E. destruct (negb match a_cells a with Some c => Nat.eqb (cells_len c) 3 | None => true end); [discriminate|].
    destruct (lim_ok (a_x a)) eqn:X; [|discriminate]. destruct (lim_ok (a_y a)) eqn:Y; [|discriminate]. destruct (lim_ok (a_z a)) eqn:Z; [|discriminate].
    cbn [andb negb] in E. destruct (negb (String.eqb (a_style a) "cartesian" || String.eqb (a_style a) "cylindrical")) eqn:St; [discriminate|].
    assert (K : known_style (a_style a)).
    { apply negb_false_iff, orb_true_iff in St. destruct St as [St|St]; apply String.eqb_eq in St; [now left | now right]. }
    split; [exact K|]. do 3 (split; [reflexivity|]).
    destruct (match a_size a with None => a_cells a | Some [s0; s1; s2] => calc_num_cells a s0 s1 s2 | Some _ => None end) as [cells|] eqn:Cs; [|discriminate].
    cbv zeta in E. exists cells. unfold asked.
    destruct (a_data a) as [dd|] eqn:D, (a_limits a) as [l|] eqn:L; cbn [is_none andb orb negb] in *.
    - destruct (negb (existsb _ l)); [|discriminate]. apply rust_grid_inv in E as [i [j [k [lm [E1 [-> E2]]]]]].
      exists (i, j, k), lm. split; [reflexivity|]. split; [destruct (String.eqb (a_style a) "cartesian"); exact E1|].
      destruct lm as [[[x0 x1] [y0 y1]] [z0 z1]]. split; [reflexivity | exact E2].
    - apply rust_grid_inv in E as [i [j [k [lm [E1 [E2 E3]]]]]]. exists (i, j, k), (data_dim a dd). split; [reflexivity|]. split; [exact E1|].
      assert (lm = data_dim a dd).
      { destruct lm as [[[x0 x1] [y0 y1]] [z0 z1]], (data_dim a dd) as [[[u0 u1] [v0 v1]] [w0 w1]]. cbn [flat_lims fst snd] in E2. congruence. }
      subst lm. split; [|exact E3]. unfold data_dim, box_of. destruct dd as [[[x0 y0] z0] [[x1 y1] z1]]. cbn [N.eqb Pos.eqb].
      destruct (lim_ok_inv _ X) as [-> | [? [? [-> _]]]], (lim_ok_inv _ Y) as [-> | [? [? [-> _]]]], (lim_ok_inv _ Z) as [-> | [? [? [-> _]]]]; reflexivity.
    - destruct (is_none (a_x a) && is_none (a_y a) && is_none (a_z a))%bool; [|discriminate]. cbn [negb] in E.
      destruct (negb (existsb _ l)); [|discriminate]. apply rust_grid_inv in E as [i [j [k [lm [E1 [-> E2]]]]]].
      exists (i, j, k), lm. split; [reflexivity|]. split; [destruct (String.eqb (a_style a) "cartesian"); exact E1|].
      destruct lm as [[[x0 x1] [y0 y1]] [z0 z1]]. split; [reflexivity | exact E2].
    - destruct (lim_ok_inv _ X) as [Ex | [x0 [x1 [Ex _]]]]; rewrite Ex in E; [discriminate|].
      destruct (lim_ok_inv _ Y) as [Ey | [y0 [y1 [Ey _]]]]; rewrite Ey in E; [discriminate|].
      destruct (lim_ok_inv _ Z) as [Ez | [z0 [z1 [Ez _]]]]; rewrite Ez in E; [discriminate|].
      apply rust_grid_inv in E as [i [j [k [lm [E1 [E2 E3]]]]]]. exists (i, j, k), lm. split; [reflexivity|].
      split; [destruct (String.eqb (a_style a) "cartesian"); exact E1|]. rewrite Ex, Ey, Ez. split; [|exact E3].
      destruct lm as [[[? ?] [? ?]] [? ?]]. cbn [flat_lims fst snd] in E2. injection E2; intros; subst; reflexivity.
  Qed.
  Lemma int64_inv z z' : int64 z = Some z' -> z' = z /\ (z < 2 ^ 63)%Z.
  Proof. unfold int64. destruct ((- 2 ^ 63 <=? z)%Z && (z <? 2 ^ 63)%Z)%bool eqn:E; [|discriminate]. intros [= <-]. apply andb_prop in E as [_ E]. apply Z.ltb_lt in E. auto. Qed.
  Lemma usizes_inv l n : to_usizes (F := F) (CInt l) = Some n -> n = map Z.to_N l /\ Forall (fun z => (0 <= z)%Z) l.
  Proof.
    cbn [to_usizes]. revert n. induction l as [|z l IH]; intros n; cbn [all_some]; [intros [= <-]; auto|].
    destruct ((0 <=? z) && (z <? 2 ^ 64))%Z eqn:E; [|discriminate]. destruct (all_some _ l) as [m|]; [|discriminate].
    intros [= <-]. destruct (IH m eq_refl) as [-> P]. split; [reflexivity|]. constructor; [|exact P]. apply andb_prop in E as [E _]. now apply Z.leb_le in E.
  Qed.
  Lemma cast_int_inv l n : cast (F := F) (CInt l) = Some n -> n = map Z.to_N l /\ Forall (fun z => (0 <= z)%Z) l.
  Proof.
    unfold cast, as_int64. destruct (all_some int64 l) as [m|] eqn:E; [|discriminate]. cbn [option_map]. intros H.
    assert (m = l). { clear H. revert m E. induction l as [|z l IH]; intros m E; cbn [all_some] in E; [congruence|].
      destruct (int64 z) as [z'|] eqn:E1; [|discriminate]. apply int64_inv in E1 as [-> _]. destruct (all_some int64 l) as [m'|]; [|discriminate].
      injection E as <-. f_equal. now apply IH. }
    subst m. now apply usizes_inv.
  Qed.

  (** A returned grid has the limits and the numbers of cells that were asked for. *)
  Theorem c101_as_asked (a : gargs F) i j k g : a_size a = None -> a_cells a = Some (CInt [i; j; k]) ->
    py_grid a = Val (Some g) ->
    exists l, asked a = Some l /\ (0 <= i /\ 0 <= j /\ 0 <= k)%Z /\
      (a_style a = "cartesian" -> cart_new (Z.to_N i, Z.to_N j, Z.to_N k) (ThreeD l) = Val g) /\
      (a_style a = "cylindrical" -> cyl_new (Z.to_N i, Z.to_N j, Z.to_N k) (ThreeD l) true = Val g) /\
      (a_style a = "cartesian" \/ a_style a = "cylindrical").
  Proof.
    intros Sz Cs E. destruct (py_grid_inv a g E) as [K [_ [_ [_ [cells [n [l [Ec [En [El Eg]]]]]]]]]]. rewrite Sz, Cs in Ec. injection Ec as <-.
    exists l. split; [exact El|].
    assert (Q : (let '(i, j, k) := n in [i; j; k]) = map Z.to_N [i; j; k] /\ Forall (fun z => (0 <= z)%Z) [i; j; k]).
    { destruct (_ || _)%bool in En; [now apply cast_int_inv | now apply usizes_inv]. }
    destruct Q as [Q P]. destruct n as [[n0' n1'] n2']. cbn [map] in Q. injection Q as -> -> ->.
    inversion P as [|? ? P0 P']; subst. inversion P' as [|? ? P1 P'']; subst. inversion P'' as [|? ? P2 _]; subst.
    split; [auto|]. unfold new_grid in Eg. split; [intros S; rewrite S in Eg; exact Eg|]. split; [intros S; rewrite S in Eg; exact Eg | exact K].
  Qed.

  (** [limits] that are not negative are accepted, with or without data, for both styles. *)
  Theorem c101_limits d (l : lims F) n style : known_style style -> int_cells n ->
    let '((x0, x1), (y0, y1), (z0, z1)) := l in
    Forall (fun x => nltb x n0 = false) [x0; x1; y0; y1; z0; z1] ->
    exists g, py_grid (mkArgs d (Some (zcells n)) style None (Some [x0; x1; y0; y1; z0; z1]) None None None) = Val (Some g).
  Proof.
    intros K N. destruct l as [[[x0 x1] [y0 y1]] [z0 z1]]. intros P.
    destruct (limits_data d ((x0, x1), (y0, y1), (z0, z1)) n style K N P) as [g [_ E]]. exists g. exact E.
  Qed.
  (** So are three ranges of any sign, and with data any of them. *)
  Theorem c101_ranges d x y z n style : known_style style -> int_cells n -> ordered x -> ordered y -> ordered z ->
    (d = None -> x <> None /\ y <> None /\ z <> None) ->
    exists g, py_grid (from_ranges d x y z n style) = Val (Some g).
  Proof.
    intros K N X Y Z Hd. destruct d as [dd|].
    - assert (Q := ranges_data dd x y z n style K N X Y Z). destruct (box_of dd) as [[l0 l1] l2]. destruct Q as [g [_ Q]]. eauto.
    - destruct (Hd eq_refl) as [Hx [Hy Hz]]. destruct x as [x|], y as [y|], z as [z|]; try congruence.
      destruct (ranges_only x y z n style K N X Y Z) as [g [_ E]]. eauto.
  Qed.

  (** Everything else is refused with an exception; a panic needs [limits] of a wrong length. *)
  Theorem c101_refused (a : gargs F) :
    a_style a <> "cartesian" /\ a_style a <> "cylindrical" \/
    (a_data a = None /\ a_limits a = None /\ (a_x a = None \/ a_y a = None \/ a_z a = None)) \/
    (a_data a = None /\ a_limits a <> None /\ (a_x a <> None \/ a_y a <> None \/ a_z a <> None)) \/
    (exists r, (a_x a = Some r \/ a_y a = Some r \/ a_z a = Some r) /\ (List.length r <> 2%nat \/ exists lo hi, r = [lo; hi] /\ nltb hi lo = true)) \/
    (exists c, a_cells a = Some c /\ cells_len c <> 3%nat) \/
    (exists s, a_size a = Some s /\ List.length s <> 3%nat) \/
    (exists l, a_limits a = Some l /\ exists x, In x l /\ nltb x n0 = true) ->
    py_grid a = Val None.
  Proof.
    intros H. unfold py_grid. destruct (match a_cells a with Some c => Nat.eqb (cells_len c) 3 | None => true end) eqn:Cl; [cbn [negb]|reflexivity].
    destruct (lim_ok (a_x a)) eqn:X; [|reflexivity]. destruct (lim_ok (a_y a)) eqn:Y; [|reflexivity]. destruct (lim_ok (a_z a)) eqn:Z; [|reflexivity]. cbn [andb negb].
    destruct (String.eqb_spec (a_style a) "cartesian") as [S1|S1]; [|destruct (String.eqb_spec (a_style a) "cylindrical") as [S2|S2]; [|reflexivity]]; cbn [orb negb].
    all: destruct (match a_size a with None => a_cells a | Some [s0; s1; s2] => calc_num_cells a s0 s1 s2 | Some _ => None end) as [cells|] eqn:Cs; [|reflexivity].
    all: cbv zeta; destruct H as [[? ?]|[[D [L R]]|[[D [L R]]|[[r [Hr Hb]]|[[c [Hc Hn]]|[[s [Hs Hn]]|[l [L [x [Hx Hl]]]]]]]]]]; try congruence.
    all: try (exfalso; rewrite Hc in Cl; apply Nat.eqb_eq in Cl; congruence).
    all: try (exfalso; rewrite Hs in Cs; destruct s as [|? [|? [|? [|]]]]; try discriminate; apply Hn; reflexivity).
    all: try (exfalso; assert (Ok : lim_ok (Some r) = true) by (destruct Hr as [Hr|[Hr|Hr]]; rewrite Hr in *; assumption);
      destruct (lim_ok_inv _ Ok) as [?|[lo [hi [Er Lt]]]]; [congruence|]; injection Er as ->; destruct Hb as [Hb|[lo' [hi' [Er Gt]]]]; [now apply Hb | injection Er as -> ->; congruence]).
    all: try (rewrite D, L; destruct (a_x a) as [[|? [|? [|]]]|], (a_y a) as [[|? [|? [|]]]|], (a_z a) as [[|? [|? [|]]]|]; try reflexivity; exfalso; destruct R as [R|[R|R]]; congruence).
    all: try (rewrite D; destruct (a_limits a); [|congruence]; destruct (a_x a), (a_y a), (a_z a); cbn [is_none andb negb]; try reflexivity; exfalso; destruct R as [R|[R|R]]; congruence).
    all: rewrite L; assert (Ex : existsb (fun x => nltb x n0) l = true) by (apply existsb_exists; eauto); rewrite Ex; cbn [negb];
      destruct (a_data a); [reflexivity|]; now destruct (negb _).
  Qed.
  Theorem c101_panics (a : gargs F) : py_grid a = Panic -> exists l, a_limits a = Some l /\ List.length l <> 6%nat.
  Proof.
    unfold py_grid. destruct (match a_cells a with Some c => Nat.eqb (cells_len c) 3 | None => true end) eqn:Cl; [cbn [negb]|discriminate].
    destruct (lim_ok (a_x a) && lim_ok (a_y a) && lim_ok (a_z a))%bool eqn:X; [cbn [negb]|discriminate].
    destruct (negb (String.eqb (a_style a) "cartesian" || String.eqb (a_style a) "cylindrical")) eqn:St; [discriminate|].
    destruct (match a_size a with None => a_cells a | Some [s0; s1; s2] => calc_num_cells a s0 s1 s2 | Some _ => None end) as [cells|] eqn:Cs; [|discriminate].
    cbv zeta.
    assert (L3 : cells_len cells = 3%nat).
    { clear -Cl Cs PF NF. destruct (a_size a) as [[|s0 [|s1 [|s2 [|]]]]|]; try discriminate; [|rewrite Cs in Cl; now apply Nat.eqb_eq].
      assert (AS : forall (A B : Type) (f : A -> option B) l m, all_some f l = Some m -> List.length m = List.length l).
      { clear. intros A B f l; induction l as [|x l IH]; intros m; cbn [all_some]; [intros [= <-]; reflexivity|].
        destruct (f x); [|discriminate]. destruct (all_some f l); [|discriminate]. intros [= <-]. cbn. f_equal. now apply IH. }
      assert (A64 : forall c m, as_int64 (F := F) c = Some m -> cells_len m = cells_len c).
      { intros c m. unfold as_int64. destruct c as [l|l].
        - destruct (all_some int64 l) as [q|] eqn:Q; [|discriminate]. intros [= <-]. exact (AS _ _ _ _ _ Q).
        - destruct (all_some _ l) as [q|] eqn:Q; [|discriminate]. intros [= <-]. exact (AS _ _ _ _ _ Q). }
      unfold calc_num_cells in Cs. cbv zeta in Cs. destruct (a_data a) as [dd|].
      - destruct (data_dim a dd) as [[l0 l1] l2]. destruct (count_along l0 s0), (count_along l1 s1), (count_along l2 s2); try discriminate. injection Cs as <-. reflexivity.
      - destruct (a_limits a) as [[|x0 [|x1 [|y0 [|y1 [|z0 [|z1 ?]]]]]]|]; try discriminate.
        + destruct (count_along (x0, x1) s0), (count_along (y0, y1) s1), (count_along (z0, z1) s2); try discriminate. now apply A64 in Cs.
        + destruct (a_x a) as [[|? [|? [|]]]|], (a_y a) as [[|? [|? [|]]]|], (a_z a) as [[|? [|? [|]]]|]; try discriminate. now apply A64 in Cs. }
    assert (Rg : forall o l, (o = cast cells \/ o = to_usizes cells) -> List.length l = 6%nat -> rust_grid (a_style a) o l <> Panic).
    { intros o l Ho Hl. assert (Lo : forall m, o = Some m -> List.length m = 3%nat).
      { intros m Hm. rewrite <- L3. destruct cells as [c|c].
        - assert (Q : m = map Z.to_N c). { destruct Ho as [Ho|Ho]; rewrite Ho in Hm; [now apply cast_int_inv in Hm | now apply usizes_inv in Hm]. }
          subst m. now rewrite map_length.
        - destruct Ho as [Ho|Ho]; rewrite Ho in Hm; [|discriminate]. unfold cast in Hm. destruct (as_int64 (CFloat c)) as [[q|q]|] eqn:Q; try discriminate.
          apply usizes_inv in Hm as [-> _]. rewrite map_length. cbn [as_int64] in Q. cbn [cells_len].
          destruct (all_some _ c) as [q'|] eqn:Q'; [|discriminate]. injection Q as <-. clear -Q'. revert q' Q'. induction c as [|x c IH]; intros q; cbn [all_some]; [intros [= <-]; reflexivity|].
          destruct (match py_int x with Some z => int64 z | None => None end); [|discriminate]. destruct (all_some _ c); [|discriminate]. intros [= <-]. cbn. f_equal. now apply IH. }
      destruct o as [m|]; [|discriminate]. specialize (Lo m eq_refl). destruct m as [|? [|? [|? [|]]]]; try discriminate.
      destruct l as [|? [|? [|? [|? [|? [|? [|]]]]]]]; try discriminate. unfold rust_grid. intros E.
      match type of E with bind (if _ then cart_new ?n (ThreeD ?l) else _) _ = _ => destruct (new_grid_val (a_style a) n l) as [g Eg] end.
      unfold new_grid in Eg. rewrite Eg in E. discriminate. }
    assert (Rw : (if String.eqb (a_style a) "cartesian" then to_usizes cells else cast cells) = cast cells \/ (if String.eqb (a_style a) "cartesian" then to_usizes cells else cast cells) = to_usizes cells)
      by (destruct (String.eqb (a_style a) "cartesian"); auto).
    destruct (a_data a) as [dd|], (a_limits a) as [l|].
    - destruct (negb (existsb _ l)); [|discriminate]. intros E. exists l. split; [reflexivity|]. intros Hl. exact (Rg _ l Rw Hl E).
    - intros E. exfalso. refine (Rg _ _ (or_introl eq_refl) _ E). now destruct (data_dim a dd) as [[l0 l1] l2].
    - destruct (is_none (a_x a) && is_none (a_y a) && is_none (a_z a))%bool; cbn [negb]; [|discriminate]. destruct (negb (existsb _ l)); [|discriminate]. intros E. exists l. split; [reflexivity|]. intros Hl. exact (Rg _ l Rw Hl E).
    - intros E. exfalso. destruct (a_x a) as [[|? [|? [|]]]|], (a_y a) as [[|? [|? [|]]]|], (a_z a) as [[|? [|? [|]]]|]; try discriminate.
      refine (Rg _ _ Rw _ E). reflexivity.
  Qed.
End C101.

(** ** C103: cell sizes, in ideal arithmetic *)
Section C103.
  Context {TF : Trig R}.
  Local Open Scope R_scope.
  (** As many whole cells of that size as fit into the range; so no cell is smaller. *)
  Definition fits_size (l : R * R) (n : N) (s : R) : Prop :=
    fst l <= snd l -> NR n * s <= snd l - fst l < (NR n + 1) * s /\ ((1 <= n)%N -> s <= (snd l - fst l) / NR n).

  Lemma trunc_count z : (0 <= z)%Z -> NR (Z.to_N z) = IZR z.
  Proof. intros H. unfold NR. now rewrite Z2N.id. Qed.
  Lemma fits_trunc lo hi s : 0 < s -> (0 <= Ztrunc ((hi - lo) / s))%Z -> fits_size (lo, hi) (Z.to_N (Ztrunc ((hi - lo) / s))) s.
  Proof.
    intros Hs Hz Hl. cbn [fst snd] in *. assert (Q : 0 <= (hi - lo) / s) by (unfold Rdiv; apply Rmult_le_pos; [lra | apply Rlt_le, Rinv_0_lt_compat; lra]).
    rewrite trunc_count by exact Hz. rewrite Ztrunc_floor by exact Q.
    assert (A := Zfloor_lb ((hi - lo) / s)). assert (B := Zfloor_ub ((hi - lo) / s)).
    assert (E : (hi - lo) / s * s = hi - lo) by (field; lra). split.
    - split; [rewrite <- E at 2; apply Rmult_le_compat_r; lra|]. rewrite <- E at 1. apply Rmult_lt_compat_r; lra.
    - intros Hn. assert (P : 1 <= IZR (Zfloor ((hi - lo) / s))).
      { apply IZR_le. lia. }
      apply Rmult_le_reg_r with (IZR (Zfloor ((hi - lo) / s))); [lra|]. unfold Rdiv at 2. rewrite Rmult_assoc, Rinv_l by lra. rewrite Rmult_1_r.
      rewrite <- E at 2. rewrite Rmult_comm. apply Rmult_le_compat_r; lra.
  Qed.
  Lemma int_floats x y z n : cast (F := R) (CFloat [x; y; z]) = Some n ->
    n = [Z.to_N (Ztrunc x); Z.to_N (Ztrunc y); Z.to_N (Ztrunc z)] /\ (0 <= Ztrunc x)%Z /\ (0 <= Ztrunc y)%Z /\ (0 <= Ztrunc z)%Z.
  Proof.
    unfold cast. cbn [as_int64 all_some py_int pyint_R].
    destruct (int64 (Ztrunc x)) as [a|] eqn:A; [|discriminate]. destruct (int64 (Ztrunc y)) as [b|] eqn:B; [|discriminate]. destruct (int64 (Ztrunc z)) as [c|] eqn:C; [|discriminate].
    apply int64_inv in A as [-> _], B as [-> _], C as [-> _]. cbn [option_map]. intros H. apply usizes_inv in H as [-> H].
    inversion H as [|? ? P0 P']; subst. inversion P' as [|? ? P1 P'']; subst. inversion P'' as [|? ? P2 _]; subst. auto.
  Qed.
  Lemma int_ints (x y z : Z) n (b : bool) :
    (if b then cast (F := R) (CInt [x; y; z]) else to_usizes (F := R) (CInt [x; y; z])) = Some n ->
    n = [Z.to_N x; Z.to_N y; Z.to_N z] /\ (0 <= x)%Z /\ (0 <= y)%Z /\ (0 <= z)%Z.
  Proof.
    intros H. assert (Q : n = map Z.to_N [x; y; z] /\ Forall (fun z => (0 <= z)%Z) [x; y; z]) by (destruct b; [exact (cast_int_inv (F := R) _ _ H) | exact (usizes_inv (F := R) _ _ H)]).
    destruct Q as [-> P]. inversion P as [|? ? P0 P']; subst. inversion P' as [|? ? P1 P'']; subst. inversion P'' as [|? ? P2 _]; subst. auto.
  Qed.
  Lemma as_int64_floats x y z c : as_int64 (F := R) (CFloat [x; y; z]) = Some c -> c = CInt [Ztrunc x; Ztrunc y; Ztrunc z].
  Proof.
    cbn [as_int64 all_some py_int pyint_R].
    destruct (int64 (Ztrunc x)) as [i|] eqn:A; [|discriminate]. destruct (int64 (Ztrunc y)) as [j|] eqn:B; [|discriminate]. destruct (int64 (Ztrunc z)) as [k|] eqn:C; [|discriminate].
    apply int64_inv in A as [-> _], B as [-> _], C as [-> _]. intros [= <-]. reflexivity.
  Qed.

  Theorem c103_cell_size (a : gargs R) s0 s1 s2 g : a_size a = Some [s0; s1; s2] -> 0 < s0 -> 0 < s1 -> 0 < s2 ->
    a_data a = None \/ a_limits a = None -> py_grid a = Val (Some g) ->
    exists n l, asked a = Some l /\
      (let '(n0, n1, n2) := n in let '(l0, l1, l2) := l in fits_size l0 n0 s0 /\ fits_size l1 n1 s1 /\ fits_size l2 n2 s2) /\
      (a_style a = "cartesian" -> cart_new n (ThreeD l) = Val g) /\
      (a_style a = "cylindrical" -> cyl_new n (ThreeD l) true = Val g).
  Proof.
    intros Sz P0 P1 P2 Hd E. destruct (py_grid_inv a g E) as [K [X [Y [Z [cells [n [l [Ec [En [El Eg]]]]]]]]]]. rewrite Sz in Ec.
    exists n, l. split; [exact El|]. split; [|unfold new_grid in Eg; split; intros S; rewrite S in Eg; exact Eg].
    assert (Main : forall u v w, (let '(i, j, k) := n in [i; j; k]) = [Z.to_N (Ztrunc u); Z.to_N (Ztrunc v); Z.to_N (Ztrunc w)] ->
      (0 <= Ztrunc u)%Z /\ (0 <= Ztrunc v)%Z /\ (0 <= Ztrunc w)%Z ->
      (let '(l0, l1, l2) := l in u = (snd l0 - fst l0) / s0 /\ v = (snd l1 - fst l1) / s1 /\ w = (snd l2 - fst l2) / s2) ->
      let '(n0, n1, n2) := n in let '(l0, l1, l2) := l in fits_size l0 n0 s0 /\ fits_size l1 n1 s1 /\ fits_size l2 n2 s2).
    { clear -P0 P1 P2. intros u v w. destruct n as [[i j] k], l as [[[x0 x1] [y0 y1]] [z0 z1]]. cbn [fst snd]. intros [= -> -> ->] [Hu [Hv Hw]] [-> [-> ->]].
      repeat split; try (apply fits_trunc; assumption); try (now apply fits_trunc in Hu || now apply fits_trunc in Hv || now apply fits_trunc in Hw). }
    unfold calc_num_cells in Ec. cbv zeta in Ec. unfold asked in El. destruct (a_data a) as [dd|] eqn:D.
    - destruct Hd as [?|L]; [discriminate|]. rewrite L in *. cbn [is_none negb andb orb] in En.
      destruct (data_dim a dd) as [[l0 l1] l2] eqn:Dd. cbn [count_along py_int pyint_R] in Ec. unfold count_along in Ec. cbn [py_int pyint_R] in Ec. injection Ec as <-.
      apply int_floats in En as [En Pn]. cbn [nof num_R] in En, Pn. rewrite !Ztrunc_IZR in *.
      apply (Main _ _ _ En Pn).
      assert (l = (l0, l1, l2)). { unfold data_dim in Dd. destruct dd as [[[x0 y0] z0] [[x1 y1] z1]]. cbn [box_of N.eqb Pos.eqb] in El.
        destruct (lim_ok_inv _ X) as [Q|[? [? [Q _]]]]; rewrite Q in *; destruct (lim_ok_inv _ Y) as [Q'|[? [? [Q' _]]]]; rewrite Q' in *; destruct (lim_ok_inv _ Z) as [Q''|[? [? [Q'' _]]]]; rewrite Q'' in *;
          cbn [replaced] in Dd; congruence. }
      subst l. auto.
    - cbn [is_none negb andb] in En. rewrite andb_false_r in En. cbn [orb] in En. destruct (a_limits a) as [lm|] eqn:L.
      + destruct lm as [|x0 [|x1 [|y0 [|y1 [|z0 [|z1 [|]]]]]]]; try discriminate. injection El as <-.
        unfold count_along in Ec. cbn [py_int pyint_R fst snd] in Ec. apply as_int64_floats in Ec. subst cells. cbn [nof num_R] in En. rewrite !Ztrunc_IZR in En.
        apply int_ints in En as [En Pn]. refine (Main _ _ _ En Pn _). cbn [fst snd]. auto.
      + destruct (a_x a) as [[|x0 [|x1 [|]]]|], (a_y a) as [[|y0 [|y1 [|]]]|], (a_z a) as [[|z0 [|z1 [|]]]|]; try discriminate.
        injection El as <-. apply as_int64_floats in Ec. subst cells. apply int_ints in En as [En Pn]. refine (Main _ _ _ En Pn _). cbn [fst snd]. auto.
  Qed.
  (** A size above the range along one axis gives a grid that holds nothing, although positions can be
      inside it: every addition of a value panics or does nothing. *)
  Theorem c104_holds_nothing (a : gargs R) s0 s1 s2 g : a_size a = Some [s0; s1; s2] -> 0 < s0 -> 0 < s1 -> 0 < s2 ->
    a_data a = None \/ a_limits a = None -> py_grid a = Val (Some g) -> a_style a = "cartesian" \/ a_style a = "cylindrical" ->
    (forall l0 l1 l2, asked a = Some (l0, l1, l2) -> fst l0 <= snd l0 /\ fst l1 <= snd l1 /\ fst l2 <= snd l2 /\
       (snd l0 - fst l0 < s0 \/ snd l1 - fst l1 < s1 \/ snd l2 - fst l2 < s2)) ->
    (exists i j k, geom_cells (geo g) = (i, j, k) /\ (i = 0 \/ j = 0 \/ k = 0)%N) /\
    forall bld p v, add_value bld g p v = Panic \/ add_value bld g p v = Val g.
  Proof.
    intros Sz P0 P1 P2 Hd E K H. destruct (c103_cell_size a s0 s1 s2 g Sz P0 P1 P2 Hd E) as [[[i j] k] [[[l0 l1] l2] [A [F [C Y]]]]].
    destruct (H l0 l1 l2 A) as [L0 [L1 [L2 O]]]. destruct F as [F0 [F1 F2]].
    assert (Z : forall n s l, 0 < s -> fst l <= snd l -> fits_size l n s -> snd l - fst l < s -> n = 0%N).
    { clear. intros n s l Hs Hl F O. destruct (F Hl) as [[B _] _]. destruct (N.eq_dec n 0) as [|Ne]; [assumption|]. exfalso.
      assert (1 <= NR n) by (unfold NR; apply (IZR_le 1); lia). assert (1 * s <= NR n * s) by (apply Rmult_le_compat_r; lra). lra. }
    assert (Ze : (i = 0 \/ j = 0 \/ k = 0)%N) by (destruct O as [O|[O|O]]; eauto).
    assert (G : geom_cells (geo g) = (i, j, k) /\ sh3 (data g) = (i, j, k)).
    { destruct K as [K|K].
      - specialize (C K). unfold cart_new in C. destruct l0, l1, l2. injection C as <-. split; reflexivity.
      - specialize (Y K). unfold cyl_new in Y. destruct l0, l1, l2. injection Y as <-. split; reflexivity. }
    split; [exists i, j, k; split; [apply G | exact Ze]|]. destruct G as [G1 G2]. intros bld p v. unfold add_value.
    destruct (cell_id bld g p) as [[c|]|]; cbn [bind]; [|now right | now left].
    assert (I : inb3 (i, j, k) c = false) by (destruct c as [[c0 c1] c2]; cbn [inb3]; lia).
    assert (B : bump g c v n1 = Panic) by (unfold bump, get3, set3; rewrite G2, I; reflexivity).
    destruct (geo g) as [cg|y]; [|left; exact B]. cbn [geom_cells] in G1. rewrite G1, I. now right.
  Qed.
End C103.

(** ** C102: cylindrical grids made from a dataset, in ideal arithmetic *)
Section C102.
  Local Open Scope R_scope.
  (** Distance from the vertical axis through the centre of the box. *)
  Definition off_axis (x0 x1 y0 y1 : R) (p : v3 R) : R :=
    let '(x, y, _) := p in
    sqrt ((x - (x0 + x1) / 2) * (x - (x0 + x1) / 2) + (y - (y0 + y1) / 2) * (y - (y0 + y1) / 2)).
  (** The grid contains exactly the cylinder of half the larger side over the height of the box. *)
  Theorem c102_cylinder (bld : build) x0 x1 y0 y1 z0 z1 nr no nz : x0 < x1 -> y0 < y1 -> z0 < z1 ->
    (1 <= nr)%N -> (1 <= no)%N -> (1 <= nz)%N -> int_cells (nr, no, nz) ->
    exists g, py_grid (TF := trig_R) (from_data ((x0, y0, z0), (x1, y1, z1)) (nr, no, nz) "cylindrical") = Val (Some g) /\
      (forall p, is_inside (TF := trig_R) g p = true <->
         off_axis x0 x1 y0 y1 p <= Rmax ((x1 - x0) / 2) ((y1 - y0) / 2) /\ z0 <= snd p <= z1) /\
      (forall p, is_inside (TF := trig_R) g p = true ->
         exists c, cell_id (TF := trig_R) bld g p = Val (Some c) /\ inb3 (nr, no, nz) c = true).
  Proof.
    intros Hx Hy Hz Nr No Nz Ic.
    destruct (ranges_data (TF := trig_R) ((x0, y0, z0), (x1, y1, z1)) None None None (nr, no, nz) "cylindrical" (or_intror eq_refl) Ic
      ltac:(discriminate) ltac:(discriminate) ltac:(discriminate)) as [g [E Eg]].
    cbn [range_or] in E. change (cyl_new (TF := trig_R) (nr, no, nz) (ThreeD ((x0, x1), (y0, y1), (z0, z1))) true = Val g) in E.
    exists g. split; [exact Eg|]. destruct (cyl_new_val (TF := trig_R) _ _ _ _ _ _ _ _ E) as [y [G [Cc [Ra [_ [_ [_ [_ [Ce [El [Da We]]]]]]]]]]].
    rewrite !half_extent_R in Ra by assumption. split.
    - intros [[px py] pz]. unfold is_inside. rewrite G. cbn [geom_inside]. unfold cyl_inside, to_cylindrical. rewrite Ce, El, Ra.
      unfold in_interval. cbn [fst snd]. rewrite !andb_true_iff, !Rleb_true. cbn [npi natan2 trig_R nsub num_R].
      unfold off_axis. change (@nsqrt R num_R) with sqrt. change (@nadd R num_R) with Rplus. change (@nmul R num_R) with Rmult.
      assert (Q := Ratan2_range (py - (y0 + y1) / 2) (px - (x0 + x1) / 2)). split; [tauto|]. intros [A B].
      repeat split; try tauto; try apply Q; try (apply Rlt_le; apply Q).
    - intros p Hp. assert (W : wf_grid g). { split; rewrite G; cbn [geom_cells]; rewrite Cc; [rewrite Da | rewrite We]; reflexivity. }
      destruct (c20_inside_and_add (TF := trig_R) bld nr no nz x0 x1 y0 y1 z0 z1 g g p 0 PI_RGT_0 Nr No Nz Hx Hy Hz E eq_refl W Hp) as [c [_ [A [B _]]]].
      eauto.
  Qed.
  (** False: the recorded range does not fit into that cylinder; its corners are always outside. *)
  Theorem c102_corner_refuted x0 x1 y0 y1 z0 z1 nr no nz : x0 < x1 -> y0 < y1 -> z0 < z1 ->
    (1 <= nr)%N -> (1 <= no)%N -> (1 <= nz)%N -> int_cells (nr, no, nz) ->
    exists g, py_grid (TF := trig_R) (from_data ((x0, y0, z0), (x1, y1, z1)) (nr, no, nz) "cylindrical") = Val (Some g) /\
      forall z, is_inside (TF := trig_R) g (x0, y0, z) = false /\ is_inside (TF := trig_R) g (x1, y0, z) = false /\
                is_inside (TF := trig_R) g (x0, y1, z) = false /\ is_inside (TF := trig_R) g (x1, y1, z) = false.
  Proof.
    intros Hx Hy Hz Nr No Nz Ic. destruct (c102_cylinder Debug x0 x1 y0 y1 z0 z1 nr no nz Hx Hy Hz Nr No Nz Ic) as [g [E [H _]]].
    exists g. split; [exact E|].
    assert (C : forall x y z, (x = x0 \/ x = x1) -> (y = y0 \/ y = y1) -> is_inside (TF := trig_R) g (x, y, z) = false).
    { intros x y z Dx Dy. apply not_true_is_false. intros I. apply H in I. destruct I as [I _]. unfold off_axis in I.
      set (a := (x1 - x0) / 2) in *. set (b := (y1 - y0) / 2) in *. assert (Pa : 0 < a) by (unfold a; lra). assert (Pb : 0 < b) by (unfold b; lra).
      replace ((x - (x0 + x1) / 2) * (x - (x0 + x1) / 2)) with (a * a) in I by (unfold a; destruct Dx as [-> | ->]; field).
      replace ((y - (y0 + y1) / 2) * (y - (y0 + y1) / 2)) with (b * b) in I by (unfold b; destruct Dy as [-> | ->]; field).
      assert (Hm : 0 <= Rmax a b) by (apply Rle_trans with a; [lra | apply Rmax_l]).
      assert (S : a * a + b * b <= Rmax a b * Rmax a b).
      { assert (P : 0 <= a * a + b * b) by (assert (0 < a * a) by (now apply Rmult_lt_0_compat); assert (0 < b * b) by (now apply Rmult_lt_0_compat); lra).
        rewrite <- (sqrt_sqrt _ P). apply Rmult_le_compat; auto using sqrt_pos. }
      assert (0 < a * a) by (now apply Rmult_lt_0_compat). assert (0 < b * b) by (now apply Rmult_lt_0_compat).
      unfold Rmax in S. destruct (Rle_dec a b); lra. }
    intros z. repeat split; apply C; auto.
  Qed.
End C102.

(** ** C104: combinations of arguments that are not honoured *)
Section C104.
  Context {TF : Trig f64}.
  Local Notation f := f64_of_Z.
  (** Limits below zero are refused, although the same ranges one by one are accepted. *)
  Theorem c104_negative_refuted (l : lims f64) n style : known_style style -> int_cells n ->
    let '((x0, x1), (y0, y1), (z0, z1)) := l in
    nltb x0 n0 = true -> nltb x1 x0 = false -> nltb y1 y0 = false -> nltb z1 z0 = false ->
    py_grid (mkArgs None (Some (zcells n)) style None (Some [x0; x1; y0; y1; z0; z1]) None None None) = Val None /\
    exists g, py_grid (from_ranges None (Some (x0, x1)) (Some (y0, y1)) (Some (z0, z1)) n style) = Val (Some g).
  Proof.
    destruct l as [[[x0 x1] [y0 y1]] [z0 z1]]. intros K N Neg X Y Z. split.
    - apply c101_refused. do 6 right. eexists. split; [reflexivity|]. exists x0. split; [now left | exact Neg].
    - apply c101_ranges; try assumption; try (intros lo hi [= <- <-]; assumption). intros _. repeat split; discriminate.
  Qed.
  (** With data and limits, a cell size is always refused for Cartesian grids ... *)
  Theorem c104_size_refuted (a : gargs f64) d l s : a_data a = Some d -> a_limits a = Some l -> a_size a = Some s ->
    a_style a = "cartesian" -> py_grid a = Val None.
  Proof.
    intros D L S K. unfold py_grid. destruct (negb match a_cells a with Some c => Nat.eqb (cells_len c) 3 | None => true end); [reflexivity|].
    destruct (negb (lim_ok (a_x a) && lim_ok (a_y a) && lim_ok (a_z a))); [reflexivity|]. rewrite K, S, D, L. cbn [String.eqb Ascii.eqb Bool.eqb orb negb].
    destruct s as [|s0 [|s1 [|s2 [|]]]]; try reflexivity. unfold calc_num_cells. rewrite D. cbv zeta. destruct (data_dim a d) as [[l0 l1] l2].
    destruct (count_along l0 s0), (count_along l1 s1), (count_along l2 s2); try reflexivity. cbn [to_usizes]. now destruct (negb (existsb _ l)).
  Qed.
  (** ... and for cylindrical grids the cells are counted over the range of the data, not over the limits. *)
  Theorem c104_count_refuted :
    after (py_grid (mkArgs (Some ((f 0, f 0, f 0), (f 1, f 1, f 1))) None "cylindrical" (Some [nlit 1 2; nlit 1 2; nlit 1 2])
      (Some [f 0; f 2; f 0; f 2; f 0; f 2]) None None None)) (fun o => match o with Some g => geom_cells (geo g) = (2, 2, 2)%N | None => False end).
  Proof. vm_compute. reflexivity. Qed.
  (** A cell size above the range gives a grid without cells: adding a value inside it panics (checked build) ...*)
  Theorem c104_no_cells_refuted :
    after (py_grid (mkArgs None None "cartesian" (Some [f 2; f 2; f 2]) (Some [f 0; f 1; f 0; f 1; f 0; f 1]) None None None)) (fun o =>
      match o with
      | Some g => geom_cells (geo g) = (0, 0, 0)%N /\ is_inside g (f 0, f 0, f 0) = true /\ add_value Debug g (f 0, f 0, f 0) n1 = Panic
      | None => False
      end).
  Proof. vm_compute. repeat split. Qed.
  (** ... and rounding can lose a cell: three cells of 0.1 fit into [0, 0.3]. *)
  Theorem c104_rounding_refuted :
    after (py_grid (mkArgs None None "cartesian" (Some [nlit 1 10; nlit 1 10; nlit 1 10])
      (Some [f 0; nlit 3 10; f 0; nlit 3 10; f 0; nlit 3 10]) None None None)) (fun o =>
      match o with Some g => geom_cells (geo g) = (2, 2, 2)%N | None => False end).
  Proof. vm_compute. reflexivity. Qed.

  (** ** C105: [remove_outliers] is documented with modes 1 (zero), 2 (threshold), 3 (mean). *)
  Theorem c105_modes_refuted (bld : build) (g : grid f64) (thr : f64) :
    (exists g', outlier_removal bld g thr 1 = Val g' /\ forall i, nltb thr (at3 (data g) i) = true -> at3 (data g') i = thr) /\
    outlier_removal bld g thr 3 = Panic.
  Proof.
    split; [|now apply c16_other_modes_refused].
    destruct (c16_modes_0_1 bld g thr 1 (or_intror eq_refl)) as [g' [E [_ [_ [_ [_ [H _]]]]]]]. exists g'. split; [exact E|]. exact H.
  Qed.

  (** ** Concrete calls *)
  Example c99_case :
    after (py_grid (from_data ((f (-1), f 0, f 2), (f 3, f 1, f 4)) (4, 1, 2)%N "cartesian")) (fun o =>
      match o with
      | Some g => geom_cells (geo g) = (4, 1, 2)%N /\ py_cell_id Debug g (f 3) (f 1) (f 4) = Val (3, 0, 1)%N /\
          py_cell_id Debug g (f (-1)) (f 0) (f 2) = Val (0, 0, 0)%N /\ py_inside g [f 4; f 0; f 2] = Val false
      | None => False
      end).
  Proof. vm_compute. repeat split. Qed.
  Example c100_case : not_highest_first [(f 1, f 5, f 2); (f 2, f 4, f 2); (f 0, f 6, f 3)].
  Proof.
    split; [repeat constructor|]. do 2 eexists. split; [reflexivity|]. intros i Hi.
    assert (Q : i = 0%N \/ i = 1%N \/ i = 2%N) by lia. destruct Q as [-> | [-> | ->]].
    - exists (f 2, f 4, f 2). split; [now left | reflexivity].
    - exists (f 0, f 6, f 3). split; [right; now left | reflexivity].
    - exists (f 2, f 4, f 2). split; [now left | reflexivity].
  Qed.
  Definition rising_raw : table f64 := map (map f) [[1; 1; 5; 2; 1; 1; 1]; [2; 2; 4; 2; 1; 1; 1]; [3; 0; 6; 3; 1; 1; 1]]%Z.
  Definition file_cols : list Z := [0; 1; 2; 3; 4; 5; 6]%Z.
  Example c100_csv_case : match csv_converter no_fit (fun x _ => x) Debug rising_raw file_cols false false (f 1) 9 with
    | Val (pf, h) => match py_grid (from_data (h_dims h) (2, 2, 2)%N "cartesian") with
        | Val (Some g) => is_inside g (f 1, f 5, f 2) && is_inside g (f 2, f 4, f 2) && is_inside g (f 0, f 6, f 3)
        | _ => false
        end
    | Panic => false
    end = true.
  Proof. vm_compute. reflexivity. Qed.
  Definition falling_raw : table f64 := map (map f) [[1; 3; 5; 2; 1; 1; 1]; [2; 2; 6; 3; 1; 1; 1]]%Z.
  Example c100_falling_case : match csv_converter no_fit (fun x _ => x) Debug falling_raw file_cols false false (f 1) 9 with
    | Val (pf, h) => match py_grid (from_data (h_dims h) (2, 2, 2)%N "cartesian") with
        | Val (Some g) => negb (is_inside g (f 3, f 5, f 2)) && negb (is_inside g (f 2, f 6, f 3))
        | _ => false
        end
    | Panic => false
    end = true.
  Proof. vm_compute. reflexivity. Qed.
  Example c103_case :
    after (py_grid (mkArgs None None "cartesian" (Some [f 2; f 1; nlit 1 2]) None (Some [f (-2); f 3]) (Some [f 0; f 1]) (Some [f 0; f 2]))) (fun o =>
      match o with Some g => geom_cells (geo g) = (2, 1, 4)%N | None => False end).
  Proof. vm_compute. reflexivity. Qed.
  Example c101_panic_case : py_grid (mkArgs None (Some (zcells (1, 1, 1)%N)) "cartesian" None (Some [f 0; f 1]) None None None) = Panic.
  Proof. reflexivity. Qed.
End C104.
