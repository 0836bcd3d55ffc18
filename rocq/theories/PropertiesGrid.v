(** * Properties C01-C18: Cartesian (and common) grid operations.

    [f64] theorems are about IEEE-754 doubles with every rounding, overflow and NaN; [R]
    theorems are about ideal arithmetic.  The trigonometric oracle is universally
    quantified. *)
From Coq Require Import Reals List NArith ZArith Lia Lra Psatz Bool Permutation ZifyBool ZifyN.
From Flocq Require Import Core.Core IEEE754.BinarySingleNaN.
From Verif Require Import Base BaseFacts Num F64Facts RFacts NDArray GridModel GridSpec GridFacts
  CartProofs CartR GridOps GridR.

(** Small double literals for the examples. *)
Notation d := f64_of_Z (only parsing).
Definition box64 : lims f64 := ((d 0, d 1), (d 0, d 1), (d 0, d 1)).
Definition dhalf : f64 := nlit 1 2.
Definition d34 : f64 := nlit 3 4.

(** Run a computation to the end and look at the result (for examples). *)
Definition after {A} (m : res A) (P : A -> Prop) : Prop := match m with Val x => P x | Panic => False end.
(** Same double, NaN included. *)
Definition same (x y : f64) : Prop := B2SF x = B2SF y.

Lemma Val_pair {A B} (a c : A) (b e : B) : Val (a, b) = Val (c, e) -> a = c /\ b = e.
Proof. intros [= -> ->]. auto. Qed.

Section F64.
  Context {TF : Trig f64}.

  (** ** C01 *)
  Theorem c01_lookup_in_bounds (bld : build) (g : grid f64) (c : cart_geom f64) (p : pos3 f64) :
    geo g = Cart c -> sized (cc_cells c) ->
    (in_box (cc_lim c) p ->
       is_inside g p = true /\
       exists i, cell_id bld g p = Val (Some i) /\ inb3 (cc_cells c) i = true) /\
    (~ in_box (cc_lim c) p -> is_inside g p = false /\ cell_id bld g p = Val None).
  Proof.
    intros G S. unfold cell_id, is_inside. rewrite G. cbn [geom_cell_id geom_inside]. split; intros H.
    - split; [now apply cart_inside_f64 | now apply cart_cell_id_in].
    - split; [|now apply cart_cell_id_out]. destruct (cart_inside c p) eqn:E; [|reflexivity].
      apply cart_inside_f64 in E. contradiction.
  Qed.

  (** A position with a NaN coordinate is never in the box. *)
  Theorem c01_nan_is_outside (l : lims f64) (x y z : f64) :
    is_nan x = true \/ is_nan y = true \/ is_nan z = true -> ~ in_box l (x, y, z).
  Proof.
    destruct l as [[l0 l1] l2]. unfold in_box, within. cbn [nleb num_f64].
    intros H [[A _] [[B _] [C _]]]. apply Bleb_not_nan_r in A, B, C.
    destruct H as [H|[H|H]]; congruence.
  Qed.

  Example c01_ex_inside : forall bld, exists g,
    cart_new (3, 2, 1)%N (ThreeD box64) = Val g /\ in_box box64 (d 1, d 0, dhalf) /\
    cell_id bld g (d 1, d 0, dhalf) = Val (Some (2, 0, 0)%N).
  Proof. intros bld. eexists. split; [reflexivity|]. split; [vm_compute; tauto|]. destruct bld; vm_compute; reflexivity. Qed.
  (** Degenerate limits: every point of the box is still looked up in range. *)
  Example c01_ex_degenerate : forall bld g,
    cart_new (3, 2, 1)%N (ThreeD ((d 0, d 0), (d 0, d 1), (d 0, d 1))) = Val g ->
    cell_id bld g (d 0, d 1, dhalf) = Val (Some (0, 1, 0)%N).
  Proof. intros bld g [= <-]. destruct bld; vm_compute; reflexivity. Qed.

  (** ** C02 (Cartesian grids) *)
  Theorem c02_outside_inert (bld : build) (g : grid f64) (c : cart_geom f64) (p q : pos3 f64) (v : f64) :
    geo g = Cart c -> sized (cc_cells c) -> ~ in_box (cc_lim c) p ->
    add_value bld g p v = Val g /\ insert bld g p v = Val g /\
    get_value bld g p = Val nnan /\
    add_trajectory_value bld g p q v = Val g /\ add_trajectory_value bld g q p v = Val g.
  Proof.
    intros G S H. assert (E : cell_id bld g p = Val None) by (unfold cell_id; rewrite G; now apply cart_cell_id_out).
    split; [now apply add_value_out|]. split; [now apply insert_out|]. split; [now apply get_value_out|].
    unfold cell_id in E. rewrite G in E. cbn [geom_cell_id] in E.
    unfold add_trajectory_value, cell_ids_in_trajectory. rewrite G, E. cbn [bind]. split; [reflexivity|].
    destruct (cart_inside c q) eqn:Q.
    - apply cart_inside_f64 in Q. destruct (cart_cell_id_in bld c q S Q) as [i [-> _]]. reflexivity.
    - assert (X : cart_cell_id bld c q = Val None) by (unfold cart_cell_id; now rewrite Q). rewrite X. reflexivity.
  Qed.
  (** On a cylindrical grid the same call panics instead. *)
  Theorem c02_cylindrical_refuted : forall bld v, exists g p,
    cyl_new (2, 2, 2)%N (ThreeD ((d (-1), d 1), (d (-1), d 1), (d 0, d 1))) true = Val g /\
    is_inside g p = false /\ add_value bld g p v = Panic /\ insert bld g p v = Panic /\
    get_value bld g p = Panic.
  Proof.
    intros bld v. eexists. exists (d 5, d 0, d 0). split; [reflexivity|].
    split; [vm_compute; reflexivity|]. split; [vm_compute; reflexivity|]. split; vm_compute; reflexivity.
  Qed.
  Example c02_ex : ~ in_box box64 (d 2, d 0, d 0) /\ ~ in_box box64 (B754_nan, d 0, d 0).
  Proof. split; [vm_compute; intros [[_ H] _]; discriminate | apply c01_nan_is_outside; now left]. Qed.

  (** ** C03 *)
  Theorem c03_add_touches_one_cell (bld : build) (g : grid f64) (c : cart_geom f64) p v :
    geo g = Cart c -> sized (cc_cells c) -> wf_grid g -> in_box (cc_lim c) p ->
    exists i g', cell_id bld g p = Val (Some i) /\ add_value bld g p v = Val g' /\
      only_cell g g' i (nadd (at3 (data g) i) v) (nadd (at3 (weight g) i) n1).
  Proof.
    intros G S W H. destruct (c01_lookup_in_bounds bld g c p G S) as [H1 _].
    destruct (H1 H) as [_ [i [E I]]].
    destruct (add_value_in bld g p v i W E) as [g' [Eg O]]; [now rewrite G|]. eauto.
  Qed.
  Theorem c03_insert_touches_one_cell (bld : build) (g : grid f64) (c : cart_geom f64) p v :
    geo g = Cart c -> sized (cc_cells c) -> wf_grid g -> in_box (cc_lim c) p ->
    exists i g', cell_id bld g p = Val (Some i) /\ insert bld g p v = Val g' /\
      only_cell g g' i v (at3 (weight g) i) /\
      forall q, cell_id bld g q = Val (Some i) -> get_value bld g' q = Val v.
  Proof.
    intros G S W H. destruct (c01_lookup_in_bounds bld g c p G S) as [H1 _].
    destruct (H1 H) as [_ [i [E I]]].
    destruct (insert_in bld g p v i W E) as [g' [Eg O]]; [now rewrite G|].
    exists i, g'. split; [exact E|]. split; [exact Eg|]. split; [exact O|].
    intros q Hq. assert (Gg : geo g' = geo g) by apply O.
    rewrite (get_value_in bld g' q i).
    - destruct O as [_ [_ [_ [-> _]]]]. reflexivity.
    - eapply only_cell_wf; eauto.
    - unfold cell_id in *. now rewrite Gg.
    - now rewrite Gg, G.
  Qed.

  (** ** C04 *)
  Theorem c04_history (bld : build) (cells : id3) (l : lims f64) (h : list (pos3 f64 * f64)) (g : grid f64) :
    sized cells -> cart_new cells (ThreeD l) = Val g ->
    exists g', add_all bld h g = Val g' /\ wf_grid g' /\ geo g' = geo g /\
      forall i, at3 (data g') i = fold_left nadd (hit_values bld (geo g) i h) n0 /\
        ((vlen (hit_values bld (geo g) i h) <= 2 ^ 53)%N ->
          is_finite (at3 (weight g') i) = true /\
          B2R (at3 (weight g') i) = IZR (Z.of_N (vlen (hit_values bld (geo g) i h)))).
  Proof.
    intros S E. assert (W := cart_new_wf _ _ _ E).
    assert (D : exists c, geo g = Cart c /\ cc_cells c = cells /\ data g = zeros3 cells /\ weight g = zeros3 cells).
    { unfold cart_new in E. destruct l as [[[x0 x1] [y0 y1]] [z0 z1]], cells as [[nx ny] nz].
      injection E as <-. eexists. repeat split. }
    destruct D as [c [G [Cc [Dz Wz]]]].
    destruct (add_all_spec bld h g W) as [g' [Eg [W' [G' H]]]].
    { rewrite G. apply cart_lookups_ok. now rewrite Cc. }
    exists g'. split; [exact Eg|]. split; [exact W'|]. split; [exact G'|]. intros i.
    destruct (H i) as [H1 H2]. rewrite Dz in H1. rewrite Wz in H2. split; [exact H1|].
    intros Hk. rewrite H2. apply (count_exact _ _ 0%N); [reflexivity | | lia].
    cbn [zeros3 const3 at3]. vm_compute. reflexivity.
  Qed.
  Example c04_ex : let h := [((d 0, d 0, d 0), d 5); ((dhalf, d 0, d 0), d 7); ((d 1, d 1, d 1), d 9); ((d 2, d 0, d 0), d 1)] in
    after (cart_new (2, 2, 2)%N (ThreeD box64)) (fun g => after (add_all Release h g) (fun g' =>
      same (at3 (data g') (0, 0, 0)%N) (d 12) /\ same (at3 (weight g') (0, 0, 0)%N) (d 2) /\
      map B2SF (hit_values Release (geo g) (0, 0, 0)%N h) = map B2SF [d 5; d 7])).
  Proof. vm_compute. repeat split. Qed.

  (** ** C05 *)
  Theorem c05_monotone (bld : build) (g : grid f64) (c : cart_geom f64) p q i j :
    geo g = Cart c -> sized (cc_cells c) -> in_box (cc_lim c) p -> in_box (cc_lim c) q -> le3 p q ->
    cell_id bld g p = Val (Some i) -> cell_id bld g q = Val (Some j) -> idle3 i j.
  Proof. intros G. unfold cell_id. rewrite G. apply cart_cell_id_mono. Qed.
  Example c05_ex : le3 (d 0, dhalf, d 0) (dhalf, dhalf, d 1) /\ in_box box64 (d 0, dhalf, d 0) /\ in_box box64 (dhalf, dhalf, d 1).
  Proof. vm_compute. tauto. Qed.

  (** ** C06: false of the code: the centre of cell 1 of 2 is looked up as cell 0. *)
  Theorem c06_centre_refuted : forall bld,
    after (cart_new (2, 1, 1)%N (ThreeD box64)) (fun g =>
    match nth_error (get_xpositions g) 1 with
    | Some x => cell_id bld g (x, dhalf, dhalf) = Val (Some (0, 0, 0)%N)
    | None => False
    end).
  Proof. intros bld. destruct bld; vm_compute; reflexivity. Qed.

  (** ** C08: in doubles slicing can panic strictly inside the limits. *)
  Theorem c08_slice_refuted : let hi : f64 := nlit 1 (2 ^ 60) in
    after (cart_new (2, 2, 2)%N (ThreeD ((d (-1), hi), (d 0, d 1), (d 0, d 1)))) (fun g =>
    nltb (d (-1)) (d 0) = true /\ nltb (d 0) hi = true /\ slice g 0 (d 0) = Panic).
  Proof. vm_compute. repeat split. Qed.
  (** ... and the upper limit itself, which is inside the grid, always panics. *)
  Theorem c08_upper_limit_refuted :
    after (cart_new (2, 2, 2)%N (ThreeD box64)) (fun g =>
    in_box box64 (d 1, d 0, d 0) /\ slice g 0 (d 1) = Panic).
  Proof. vm_compute. repeat split. Qed.

  (** ** C09 in doubles: shape, zeros, limits; other dimensions refused. *)
  Theorem c09_new_grid (cells : id3) (l : lims f64) :
    exists g c, cart_new cells (ThreeD l) = Val g /\ geo g = Cart c /\
      sh3 (data g) = cells /\ sh3 (weight g) = cells /\ cc_cells c = cells /\ cc_lim c = l /\
      (forall i, at3 (data g) i = n0 /\ at3 (weight g) i = n0) /\
      (length (get_xpositions g), length (get_ypositions g), length (get_zpositions g)) =
        (N.to_nat (fst (fst cells)), N.to_nat (snd (fst cells)), N.to_nat (snd cells)).
  Proof.
    destruct cells as [[nx ny] nz], l as [[[x0 x1] [y0 y1]] [z0 z1]].
    do 2 eexists. split; [reflexivity|]. split; [reflexivity|]. do 4 (split; [reflexivity|]).
    split; [intros i; split; reflexivity|].
    cbn [get_xpositions get_ypositions get_zpositions geo cc_x cc_y cc_z fst snd].
    now rewrite !cart_centres_length.
  Qed.
  Theorem c09_other_dimensions_refused (cells : id3) (l1 : f64 * f64) (l2 : (f64 * f64) * (f64 * f64)) :
    cart_new cells (OneD l1) = Panic /\ cart_new cells (TwoD l2) = Panic.
  Proof. split; reflexivity. Qed.

  (** ** C10: one end outside: nothing is added (both orders are in [c02_outside_inert]). *)

  (** ** C11 *)
  Theorem c11_new_zeros (g : grid f64) : wf_grid g ->
    geo (new_zeros g) = geo g /\ wf_grid (new_zeros g) /\
    (forall i, at3 (data (new_zeros g)) i = n0) /\
    weight (new_zeros g) = weight g.
  Proof. intros [W1 W2]. unfold new_zeros, wf_grid. cbn. auto. Qed.
  (** False of the code: the weights survive, so a mean computed on the "fresh" grid is wrong. *)
  Theorem c11_fresh_refuted :
    after (cart_new (1, 1, 1)%N (ThreeD box64)) (fun g0 =>
    after (add_value Release g0 (d 0, d 0, d 0) (d 4)) (fun g =>
    same (at3 (weight (new_zeros g)) (0, 0, 0)%N) (d 1) /\
    after (add_value Release (new_zeros g) (d 0, d 0, d 0) (d 4)) (fun g' =>
    after (divide_by_weight g') (fun m => same (at3 (data m) (0, 0, 0)%N) (d 2))))).
  Proof. vm_compute. repeat split. Qed.

  (** ** C12 in doubles *)
  Theorem c12_unvisited_is_nan (bld : build) (cells : id3) (l : lims f64) (h : list (pos3 f64 * f64)) (g : grid f64) :
    sized cells -> cart_new cells (ThreeD l) = Val g ->
    exists g' m, add_all bld h g = Val g' /\ divide_by_weight g' = Val m /\ wf_grid m /\
      (forall i, inb3 cells i = true -> hit_values bld (geo g) i h = [] -> at3 (data m) i = nnan) /\
      (forall i, inb3 cells i = true ->
         at3 (data m) i = ndiv (fold_left nadd (hit_values bld (geo g) i h) n0) (at3 (weight g') i)) /\
      weight m = weight g'.
  Proof.
    intros S E. destruct (c04_history bld cells l h g S E) as [g' [Eg [W [G H]]]].
    assert (Cc : geom_cells (geo g') = cells).
    { rewrite G. unfold cart_new in E. destruct l as [[[x0 x1] [y0 y1]] [z0 z1]], cells as [[nx ny] nz].
      injection E as <-. reflexivity. }
    destruct (divide_by_weight_val g' W) as [m [Em [Wm [Gm [Wt Hm]]]]].
    exists g', m. split; [exact Eg|]. split; [exact Em|]. split; [exact Wm|].
    assert (V : forall i, inb3 cells i = true ->
         at3 (data m) i = ndiv (fold_left nadd (hit_values bld (geo g) i h) n0) (at3 (weight g') i)).
    { intros i Hi. rewrite Hm by congruence. now rewrite (proj1 (H i)). }
    split; [|split; [exact V | exact Wt]].
    intros i Hi Hn. rewrite V by assumption.
    assert (Z : at3 (weight g') i = n0).
    { assert (A : add_all bld h g = Val g') by exact Eg.
      assert (Wg := cart_new_wf _ _ _ E).
      assert (D : exists c, geo g = Cart c /\ cc_cells c = cells /\ weight g = zeros3 cells).
      { unfold cart_new in E. destruct l as [[[x0 x1] [y0 y1]] [z0 z1]], cells as [[nx ny] nz].
        injection E as <-. eexists. repeat split. }
      destruct D as [c [Gc [Cc' Wz]]].
      destruct (add_all_spec bld h g Wg) as [g2 [E2 [_ [_ H2]]]].
      { rewrite Gc. apply cart_lookups_ok. now rewrite Cc'. }
      rewrite A in E2. injection E2 as <-. rewrite (proj2 (H2 i)), Hn, Wz. reflexivity. }
    rewrite Hn, Z. vm_compute. reflexivity.
  Qed.

  (** ** C13 *)
  Theorem c13_shape_invariant (bld : build) (ops : list (gop f64)) (g g' : grid f64) :
    Forall (gop_ok (geom_cells (geo g))) ops -> wf_grid g ->
    mfold (gstep bld) ops g = Val g' -> wf_grid g' /\ geo g' = geo g.
  Proof. intros H W E. eapply ghist_wf; eauto. Qed.
  Theorem c13_new_grids_have_the_shape (cells : id3) (l : dim f64) (b : bool) (g : grid f64) :
    (cart_new cells l = Val g -> wf_grid g /\ geom_cells (geo g) = cells) /\
    (cyl_new cells l b = Val g -> wf_grid g /\ geom_cells (geo g) = cells).
  Proof.
    split; intros E; (split; [first [eapply cart_new_wf; exact E | eapply cyl_new_wf; exact E]|]).
    - unfold cart_new in E. destruct l as [l|l|l]; try discriminate.
      destruct l as [[[x0 x1] [y0 y1]] [z0 z1]], cells as [[nx ny] nz]. injection E as <-. reflexivity.
    - unfold cyl_new in E. destruct b; [|discriminate]. destruct l as [l|l|l]; try discriminate.
      destruct l as [[[x0 x1] [y0 y1]] [z0 z1]], cells as [[nx ny] nz]. injection E as <-. reflexivity.
  Qed.
  Theorem c13_set_refuses_other_shapes (g : grid f64) (a : arr3 f64) : wf_grid g ->
    (sh3 a <> geom_cells (geo g) -> set_data g a = Panic /\ set_weights g a = Panic) /\
    (sh3 a = geom_cells (geo g) ->
       set_data g a = Val (mkGrid (geo g) a (weight g)) /\ set_weights g a = Val (mkGrid (geo g) (data g) a)).
  Proof.
    intros [W1 W2]. unfold set_data, set_weights, sh_eqb. rewrite W1, W2. split; intros H.
    - assert (X : id3_eqb (geom_cells (geo g)) (sh3 a) = false) by (apply id3_eqb_neq; congruence).
      rewrite X. split; reflexivity.
    - rewrite <- H, id3_eqb_refl. split; reflexivity.
  Qed.
  (** Without the side condition on divisors the invariant fails: an axis with one cell is
      broadcast to the divisor's length, after which data and grid disagree. *)
  Theorem c13_broadcast_refuted : forall g,
    cart_new (1, 1, 1)%N (ThreeD box64) = Val g ->
    exists g', divide_by_array g (const3 (2, 1, 1)%N (d 1)) = Val g' /\ ~ wf_grid g'.
  Proof.
    intros g [= <-]. eexists. split; [reflexivity|].
    intros [H _]. cbn in H. discriminate.
  Qed.
  Example c13_ex :
    after (cart_new (2, 2, 2)%N (ThreeD box64)) (fun g => wf_grid g /\
    after (mfold (gstep Release) [OpAdd (d 0, d 0, d 0) (d 3); OpTraj (d 0, d 0, d 0) (d 1, d 1, d 1) (d 4);
      OpDivWeight; OpOutlier (d 1) 1] g) (fun g' => same (at3 (data g') (0, 0, 0)%N) (d 1))).
  Proof. vm_compute. repeat split. Qed.

  (** ** C14 in doubles: the exact expression computed along each line of cells.  A cell that
      holds no number (NaN) counts as 0; a NaN weight counts as 0 in cylindrical grids only. *)
  Theorem c14_collapse_f64 (g : grid f64) axis : wf_grid g -> (axis <= 2)%N ->
    let value c := if nisnan (at3 (data g) c) then d 0 else at3 (data g) c in
    let wt c := if (is_cylindrical (geo g) && nisnan (at3 (weight g) c))%bool then d 0 else at3 (weight g) c in
    exists a n, collapse g axis = Val a /\ v3get (geom_cells (geo g)) axis = Val n /\
      remove_axis axis (geom_cells (geo g)) = Val (sh2 a) /\
      forall i j, let line := map (fun k => match axis with 0%N => (k, i, j) | 1%N => (i, k, j) | _ => (i, j, k) end) (range 0 n) in
        at2 a (i, j) =
        ndiv (fold_left (fun s c => nadd s (nmul (value c) (wt c))) line (d 0))
             (fold_left (fun s c => nadd s (wt c)) line (d 0)).
  Proof.
    intros W Ha value wt. destruct (collapse_val g axis W Ha) as [a [n [E [En [Es H]]]]].
    destruct W as [W1 W2]. rewrite W1 in En, Es. exists a, n. split; [exact E|]. split; [exact En|]. split; [exact Es|].
    intros i j line. rewrite H. subst line.
    assert (FM : forall (f : f64 -> id3 -> f64) (h : N -> id3) l s0,
      fold_left f (map h l) s0 = fold_left (fun s k => f s (h k)) l s0).
    { intros f h l; induction l as [|x l IH]; intros s0; cbn; [reflexivity | apply IH]. }
    rewrite !FM.
    assert (L : forall k, lane axis (i, j) k = match axis with 0%N => (k, i, j) | 1%N => (i, k, j) | _ => (i, j, k) end).
    { intros k. assert (D : axis = 0%N \/ axis = 1%N \/ axis = 2%N) by lia. destruct D as [-> | [-> | ->]]; reflexivity. }
    assert (FE : forall (f h : f64 -> N -> f64) l s0, (forall s k, f s k = h s k) -> fold_left f l s0 = fold_left h l s0).
    { intros f h l; induction l as [|x l IH]; intros s0 Hx; cbn; [reflexivity|]. rewrite Hx. now apply IH. }
    f_equal; apply FE; intros s k; rewrite <- L; unfold value, wt, wfix, nan0; destruct (is_cylindrical (geo g)); reflexivity.
  Qed.
  (** A line of cells that was never visited has no mean: NaN. *)
  Theorem c14_unvisited_is_nan (g : grid f64) axis a i j n : wf_grid g -> (axis <= 2)%N ->
    collapse g axis = Val a -> v3get (geom_cells (geo g)) axis = Val n ->
    (forall k, (k < n)%N -> at3 (weight g) (match axis with 0%N => (k, i, j) | 1%N => (i, k, j) | _ => (i, j, k) end) = d 0) ->
    nisnan (at2 a (i, j)) = true.
  Proof.
    intros W Ha E En Hw. destruct (c14_collapse_f64 g axis W Ha) as [a' [n' [E' [En' [_ H]]]]].
    assert (a' = a) by congruence. assert (n' = n) by congruence. subst a' n'. cbv zeta in H. rewrite H. clear H.
    set (cell k := match axis with 0%N => (k, i, j) | 1%N => (i, k, j) | _ => (i, j, k) end) in *.
    set (value c := if nisnan (at3 (data g) c) then d 0 else at3 (data g) c).
    set (wt c := if (is_cylindrical (geo g) && nisnan (at3 (weight g) c))%bool then d 0 else at3 (weight g) c).
    assert (Hk : forall c, In c (map cell (range 0 n)) -> wt c = d 0).
    { intros c Hc. apply in_map_iff in Hc. destruct Hc as [k [<- Hk]]. apply in_range in Hk.
      assert (Hwk : at3 (weight g) (cell k) = d 0) by (apply Hw; lia). unfold wt. rewrite Hwk. now destruct (is_cylindrical (geo g)). }
    match goal with |- nisnan (ndiv ?p ?q) = true =>
      change (nisnan (ndiv (fold_left (fun s c => nadd s (nmul (value c) (wt c))) (map cell (range 0 n)) (d 0))
                           (fold_left (fun s c => nadd s (wt c)) (map cell (range 0 n)) (d 0))) = true) end.
    revert Hk. generalize (map cell (range 0 n)). intros l Hl.
    assert (Z : fold_left (fun s c => nadd s (wt c)) l (d 0) = d 0).
    { clear - Hl. induction l as [|c l IH]; [reflexivity|]. cbn [fold_left]. rewrite (Hl c) by now left.
      change (nadd (d 0) (d 0)) with (d 0). apply IH. intros; apply Hl; now right. }
    rewrite Z. clear Z.
    assert (P : forall l0 s, (forall c, In c l0 -> wt c = d 0) -> (s = d 0 \/ nisnan s = true) ->
      let r := fold_left (fun s c => nadd s (nmul (value c) (wt c))) l0 s in r = d 0 \/ nisnan r = true).
    { clear. induction l0 as [|c l0 IH]; intros s Hl Hs; [exact Hs|]. cbn [fold_left]. apply IH; [intros; apply Hl; now right|].
      rewrite (Hl c) by now left. generalize (value c). intros v.
      destruct Hs as [-> | Hs].
      - destruct v as [[]|[]| |[] ? ? ?]; cbn; auto.
      - right. destruct s; try discriminate. now destruct (nmul v (d 0)) as [[]|[]| |[] ? ? ?]. }
    destruct (P l (d 0) Hl (or_introl eq_refl)) as [-> | N]; [reflexivity|].
    match type of N with nisnan ?x = true => destruct x; try discriminate; reflexivity end.
  Qed.
  Example c14_f64_case :
    after (cart_new (2, 2, 2)%N (ThreeD box64)) (fun g =>
    after (mfold (gstep Release) [OpAdd (d 0, d 0, d 0) (d 3); OpDivWeight] g) (fun g' =>
      nisnan (at3 (data g') (1, 0, 0)%N) = true /\
      after (collapse g' 0) (fun a => same (at2 a (0, 0)%N) (d 3) /\ nisnan (at2 a (1, 1)%N) = true))).
  Proof. vm_compute. repeat split. Qed.
  Theorem c14_axis_refused (g : grid f64) axis : (2 < axis)%N ->
    collapse g axis = Panic /\ collapse_weight g axis = Panic.
  Proof. apply collapse_panic. Qed.

  (** ** C15 in doubles: order of the axes is irrelevant bit for bit, equal axes are refused. *)
  Theorem c15_axis_order (g : grid f64) a1 a2 :
    collapse_two g a1 a2 = collapse_two g a2 a1 /\ collapse_two_weight g a1 a2 = collapse_two_weight g a2 a1.
  Proof. split; [apply collapse_two_comm | apply collapse_two_weight_comm]. Qed.
  (** The second reduction works on the means of the first; lines without a mean count as 0. *)
  Theorem c15_collapse_two_f64 (g : grid f64) a1 a2 : wf_grid g -> (a1 <= 2)%N -> (a2 <= 2)%N -> (a1 < a2)%N ->
    exists c cw l, collapse g a1 = Val c /\ collapse_weight g a1 = Val cw /\ collapse_two g a1 a2 = Val l /\
      sh2 cw = sh2 c /\
      let rows := if (a2 =? 1)%N then snd (sh2 c) else fst (sh2 c) in
      let cols := if (a2 =? 1)%N then fst (sh2 c) else snd (sh2 c) in
      let cell i k := if (a2 =? 1)%N then (k, i) else (i, k) in
      l = map (fun i =>
        ndiv (fold_left (fun s k => nadd s (nmul (if nisnan (at2 c (cell i k)) then d 0 else at2 c (cell i k)) (at2 cw (cell i k)))) (range 0 cols) (d 0))
             (fold_left (fun s k => nadd s (at2 cw (cell i k))) (range 0 cols) (d 0))) (range 0 rows).
  Proof.
    intros W H1 H2 H3. destruct (collapse_val g a1 W H1) as [c [n [Ec [_ [Es _]]]]].
    destruct (collapse_weight_val g a1 W H1) as [cw [nw [Ew [_ [Esw _]]]]].
    destruct W as [W1 W2]. rewrite W1 in Es. rewrite W2 in Esw. assert (S : sh2 cw = sh2 c) by congruence.
    exists c, cw. eexists. split; [exact Ec|]. split; [exact Ew|]. split.
    { unfold collapse_two, order_axes. destruct (N.eqb_spec a1 a2) as [X|_]; [lia|].
      destruct (N.ltb_spec a2 a1) as [X|_]; [lia|]. cbn [bind]. rewrite Ec. cbn [bind]. rewrite Ew. cbn [bind].
      destruct (N.ltb_spec 1 (a2 - 1)) as [X|_]; [lia|]. reflexivity. }
    split; [exact S|]. cbv zeta. rewrite S, N.min_id.
    assert (D : a2 = 1%N \/ a2 = 2%N) by lia.
    assert (F2 : forall (f h : N -> f64) ks r0 w0,
      fold_left (fun acc k => (nadd (fst acc) (f k), nadd (snd acc) (h k))) ks (r0, w0) =
      (fold_left (fun s k => nadd s (f k)) ks r0, fold_left (fun s k => nadd s (h k)) ks w0)).
    { intros f h ks; induction ks as [|k ks IH]; intros r0 w0; cbn [fold_left fst snd]; [reflexivity | apply IH]. }
    destruct D as [-> | ->]; unfold len2, lane2; cbn [N.eqb Pos.eqb N.sub Pos.sub_mask Pos.pred_double Pos.sub Pos.double_pred_mask];
      apply map_ext; intros i; rewrite F2; reflexivity.
  Qed.
  Theorem c15_equal_axes_refused (g : grid f64) a : collapse_two g a a = Panic /\ collapse_two_weight g a a = Panic.
  Proof. apply collapse_two_same. Qed.

  (** ** C16 *)
  (** [x] exceeds [thr] means [thr < x] in IEEE order (so NaN never exceeds). *)
  Theorem c16_modes_0_1 (bld : build) (g : grid f64) (thr : f64) (mode : N) :
    (mode = 0%N \/ mode = 1%N) ->
    exists g', outlier_removal bld g thr mode = Val g' /\
      geo g' = geo g /\ sh3 (data g') = sh3 (data g) /\ weight g' = weight g /\
      (forall i, nltb thr (at3 (data g) i) = false -> at3 (data g') i = at3 (data g) i) /\
      (forall i, nltb thr (at3 (data g) i) = true ->
         at3 (data g') i = if (mode =? 0)%N then n0 else thr) /\
      (mode = 1%N \/ nleb n0 thr = true -> forall i, nltb thr (at3 (data g') i) = false) /\
      (mode = 1%N \/ nleb n0 thr = true ->
         exists g2, outlier_removal bld g' thr mode = Val g2 /\ geo g2 = geo g' /\ weight g2 = weight g' /\
           sh3 (data g2) = sh3 (data g') /\ forall i, at3 (data g2) i = at3 (data g') i).
  Proof.
    intros [-> | ->]; (eexists; split; [reflexivity|]; cbn [geo data weight with_data map3 sh3 at3];
      do 3 (split; [reflexivity|]); split; [intros i ->; reflexivity|]; split; [intros i ->; reflexivity|]).
    - assert (B : nleb n0 thr = true -> forall x : f64, nltb thr (if nltb thr x then n0 else x) = false).
      { intros H x. destruct (nltb thr x) eqn:E; [|exact E]. now apply Bltb_nonneg_zero. }
      split; [intros [H|H] i; [discriminate | now apply B]|].
      intros [H|H]; [discriminate|]. eexists. split; [reflexivity|].
      do 3 (split; [reflexivity|]). intros i. cbn [data with_data map3 at3].
      rewrite (B H (at3 (data g) i)). reflexivity.
    - assert (B : forall x : f64, nltb thr (if nltb thr x then thr else x) = false).
      { intros x. destruct (nltb thr x) eqn:E; [|exact E]. apply Bltb_irrefl. }
      split; [intros _ i; apply B|].
      intros _. eexists. split; [reflexivity|].
      do 3 (split; [reflexivity|]). intros i. cbn [data with_data map3 at3].
      rewrite (B (at3 (data g) i)). reflexivity.
  Qed.
  Theorem c16_other_modes_refused (bld : build) (g : grid f64) thr mode : (2 < mode)%N ->
    outlier_removal bld g thr mode = Panic.
  Proof.
    intros H. unfold outlier_removal.
    destruct (N.eqb_spec mode 0), (N.eqb_spec mode 1), (N.eqb_spec mode 2); try lia. reflexivity.
  Qed.
  (** Mode 0 with a negative threshold replaces by 0, which exceeds it. *)
  Theorem c16_negative_threshold_refuted : exists g g',
    cart_new (1, 1, 1)%N (ThreeD box64) = Val g /\
    outlier_removal Release g (d (-1)) 0 = Val g' /\
    nltb (d (-1)) (at3 (data g') (0, 0, 0)%N) = true.
  Proof. do 2 eexists. split; [reflexivity|]. split; [reflexivity|]. vm_compute. reflexivity. Qed.

  (** ** C17 *)
  (** Release builds never panic; cells not above the threshold are untouched; an outlier gets
      the means over exactly its adjacent cells (for Cartesian grids: those not themselves
      outliers), read from the grid before the call. *)
  Theorem c17_mode2_release (g : grid f64) (thr : f64) :
    wf_grid g -> fits (geom_cells (geo g)) ->
    exists g', outlier_removal Release g thr 2 = Val g' /\ wf_grid g' /\ geo g' = geo g /\
      forall i, inb3 (geom_cells (geo g)) i = true ->
        (nltb thr (at3 (data g) i) = false ->
           at3 (data g') i = at3 (data g) i /\ at3 (weight g') i = at3 (weight g) i) /\
        (nltb thr (at3 (data g) i) = true ->
           exists use,
             Permutation use (filter (fun j => is_cylindrical (geo g) || negb (nltb thr (at3 (data g) j)))
                                (filter (adjacent i) (ids3 (geom_cells (geo g))))) /\
             at3 (data g') i = ndiv (fold_left nadd (map (at3 (data g)) use) n0)
                                    (fold_left (fun n _ => nadd n n1) use n0) /\
             at3 (weight g') i = ndiv (fold_left nadd (map (at3 (weight g)) use) n0)
                                    (fold_left (fun n _ => nadd n n1) use n0)).
  Proof.
    intros W Hf. destruct (outlier2_release_total g thr) as [g' E].
    destruct (outlier2_val _ _ _ _ E) as [G [S1 [S2 H]]]. destruct W as [W1 W2].
    exists g'. split; [exact E|]. split; [split; congruence|]. split; [exact G|].
    intros i Hi. specialize (H i). rewrite W1 in H. specialize (H Hi). split; intros Ho.
    - rewrite outlier_cell_keep in H by exact Ho. apply Val_pair in H. destruct H as [<- <-]. auto.
    - destruct (outlier_cell_release g thr i (conj W1 W2) Hf Hi Ho) as [use [P Eu]].
      rewrite Eu in H. apply Val_pair in H. destruct H as [<- <-]. exists use. split; [|auto].
      eapply Permutation_trans; [exact P|]. erewrite filter_ext; [apply Permutation_refl|].
      intros j. cbv beta. rewrite negb_andb, negb_involutive. reflexivity.
  Qed.
  (** Debug builds panic exactly if an outlier has a zero coordinate, and otherwise agree. *)
  Theorem c17_mode2_debug (g : grid f64) (thr : f64) : wf_grid g ->
    (outlier_removal Debug g thr 2 = Panic <->
     exists i, inb3 (geom_cells (geo g)) i = true /\ nltb thr (at3 (data g) i) = true /\ on_lower_border i) /\
    (forall g' gr, outlier_removal Debug g thr 2 = Val g' -> outlier_removal Release g thr 2 = Val gr ->
       geo g' = geo gr /\ forall i, inb3 (geom_cells (geo g)) i = true ->
         at3 (data g') i = at3 (data gr) i /\ at3 (weight g') i = at3 (weight gr) i).
  Proof.
    intros [W1 W2]. split.
    - rewrite outlier2_debug_panic_iff. now rewrite W1.
    - intros g' gr E Er. destruct (outlier2_val _ _ _ _ E) as [G [_ [_ H]]]. destruct (outlier2_val _ _ _ _ Er) as [Gr [_ [_ Hr]]].
      split; [congruence|]. intros i Hi. rewrite W1 in H, Hr. specialize (H i Hi). specialize (Hr i Hi).
      assert (X : outlier_cell Debug g thr i = outlier_cell Release g thr i).
      { destruct (nltb thr (at3 (data g) i)) eqn:Ho; [|now rewrite !outlier_cell_keep].
        apply outlier_cell_debug_ok. intros Hb.
        assert (X : outlier_removal Debug g thr 2 = Panic); [|congruence].
        apply outlier2_debug_panic_iff. exists i. rewrite W1. auto. }
      rewrite X, Hr in H. apply Val_pair in H. destruct H as [-> ->]. auto.
  Qed.
  Theorem c17_border_refuted :
    after (cart_new (2, 2, 2)%N (ThreeD box64)) (fun g =>
    after (insert Debug g (d 0, d 0, d 0) (d 9)) (fun g1 =>
    wf_grid g1 /\ outlier_removal Debug g1 (d 1) 2 = Panic)).
  Proof. vm_compute. repeat split. Qed.
  Example c17_ex :
    after (cart_new (2, 2, 2)%N (ThreeD box64)) (fun g =>
    after (insert Release g (d 0, d 0, d 0) (d 9)) (fun g1 =>
    after (outlier_removal Release g1 (d 1) 2) (fun g2 => same (at3 (data g2) (0, 0, 0)%N) (d 0)))).
  Proof. vm_compute. repeat split. Qed.

  (** ** C18 *)
  Theorem c18_slice_idx (g : grid f64) axis k : wf_grid g ->
    ((axis <= 2)%N -> exists n, v3get (geom_cells (geo g)) axis = Val n /\
       ((k < n)%N -> exists a, slice_idx g axis k = Val a /\
           remove_axis axis (geom_cells (geo g)) = Val (sh2 a) /\
           forall c, coord axis c = k -> at2 a (drop axis c) = at3 (data g) c) /\
       ((n <= k)%N -> (k + n < 2 ^ 64)%N -> slice_idx g axis k = Panic) /\
       ((n <= 2 ^ 63)%N -> (k < n)%N -> slice_idx g axis (2 ^ 64 - n + k) = slice_idx g axis k)) /\
    ((2 < axis)%N -> slice_idx g axis k = Panic).
  Proof.
    intros [W1 W2]. split; [|apply slice_idx_panic].
    intros Ha. destruct (slice_idx_val g axis k Ha) as [n [En [H1 [H2 H3]]]]. rewrite W1 in *.
    exists n. split; [exact En|]. split; [|split; [exact H2 | exact H3]]. intros Hk.
    destruct (H1 Hk) as [a [Ea [Es H]]]. exists a. split; [exact Ea|]. split; [exact Es|].
    intros [[x y] z] Hc. destruct (axis_cases axis Ha) as [-> | [-> | ->]];
      cbn [coord drop N.eqb Pos.eqb] in *; subst; rewrite H; reflexivity.
  Qed.
  Example c18_ex :
    after (cart_new (2, 2, 2)%N (ThreeD box64)) (fun g =>
    after (insert Release g (d 1, d 0, d 1) (d 9)) (fun g1 =>
    after (slice_idx g1 1 0) (fun a => same (at2 a (1, 1)%N) (d 9) /\ same (at2 a (0, 1)%N) (d 0)))).
  Proof. vm_compute. repeat split. Qed.
End F64.

Section Ideal.
  Context {TF : Trig R}.
  Local Open Scope R_scope.

  (** ** C06: the centre of cell [k] of an axis is found in cell [k] in the lower half of the
      axis and in cell [k-1] in the upper half. *)
  Definition usable_axis (n : N) (lo hi : R) : Prop := (1 <= n <= 2 ^ 53 + 1)%N /\ lo < hi.
  Definition centre_found_in (n k : N) : N := if (2 * k + 1 <=? n)%N then k else (k - 1)%N.
  Theorem c06_centre (bld : build) (nx ny nz : N) x0 x1 y0 y1 z0 z1 (g : grid R) (i j k : N) (x y z : R) :
    usable_axis nx x0 x1 -> usable_axis ny y0 y1 -> usable_axis nz z0 z1 ->
    cart_new (nx, ny, nz) (ThreeD ((x0, x1), (y0, y1), (z0, z1))) = Val g ->
    nth_error (get_xpositions g) (N.to_nat i) = Some x ->
    nth_error (get_ypositions g) (N.to_nat j) = Some y ->
    nth_error (get_zpositions g) (N.to_nat k) = Some z ->
    (i < nx /\ j < ny /\ k < nz)%N /\
    cell_id bld g (x, y, z) = Val (Some (centre_found_in nx i, centre_found_in ny j, centre_found_in nz k)).
  Proof.
    intros [Nx Lx] [Ny Ly] [Nz Lz] E Ex Ey Ez. cbn in E. injection E as <-. cbn [get_xpositions get_ypositions get_zpositions geo] in *.
    assert (Rg : forall n lo hi m q, nth_error (cart_centres n lo hi) (N.to_nat m) = Some q -> (m < n)%N).
    { intros n lo hi m q H. assert (X : (N.to_nat m < List.length (cart_centres n lo hi))%nat) by (apply nth_error_Some; congruence).
      unfold cart_centres in X. rewrite map_length, range_length in X. lia. }
    assert (Ri := Rg _ _ _ _ _ Ex). assert (Rj := Rg _ _ _ _ _ Ey). assert (Rk := Rg _ _ _ _ _ Ez). split; [auto|].
    destruct (cart_centre_lookup bld nx x0 x1 i x Nx Lx Ri Ex) as [Ix Qx].
    destruct (cart_centre_lookup bld ny y0 y1 j y Ny Ly Rj Ey) as [Iy Qy].
    destruct (cart_centre_lookup bld nz z0 z1 k z Nz Lz Rk Ez) as [Iz Qz].
    unfold cell_id, geom_cell_id, cart_cell_id. cbn [geo].
    match goal with |- (if ?b then _ else _) = _ => assert (B : b = true) end.
    { apply cart_inside_R. cbn [cc_lim in_box]. rewrite !within_R. cbn [fst snd]. lra. }
    rewrite B. cbn [cc_cells cc_lim]. rewrite Qx, Qy, Qz. reflexivity.
  Qed.

  (** ** C07: on an axis of [n >= 2] cells the cells below the last are (hi-lo)/(n-1) wide, the last
      one is a single point; a single cell is the whole axis. *)
  Definition maps_to (n : N) (lo hi p : R) (i : N) : Prop :=
    (n = 1%N /\ i = 0%N) \/
    ((2 <= n)%N /\ lo + NR i * ((hi - lo) / (NR n - 1)) <= p < lo + (NR i + 1) * ((hi - lo) / (NR n - 1))).
  Lemma axis_maps (bld : build) (n : N) (lo hi p : R) : usable_axis n lo hi -> lo <= p <= hi ->
    exists i, cart_axis_id bld n (lo, hi) p = Val i /\ (i < n)%N /\ forall k, (k < n)%N -> (k = i <-> maps_to n lo hi p k).
  Proof.
    intros [Nn Ll] Hp. destruct (N.eq_dec n 1) as [->|Nn1].
    - exists 0%N. split; [|split; [lia|]].
      + destruct (cart_axis_bound_R bld 1 lo hi p Nn Ll Hp) as [q [-> Hq]]. f_equal. lia.
      + intros k Hk. unfold maps_to. split; [intros; left; lia | intros [[_ H]|[H _]]; lia].
    - assert (N2 : (2 <= n <= 2 ^ 53 + 1)%N) by lia.
      destruct (cart_axis_bound_R bld n lo hi p Nn Ll Hp) as [i [T Li]]. exists i. split; [exact T|]. split; [exact Li|].
      assert (Pr := fun k Hk => cart_axis_preimage bld n lo hi p k N2 Ll Hp Hk).
      intros k Hk. rewrite T in Pr. split.
      + intros ->. right. split; [lia|]. now apply Pr.
      + intros [[H _]|[_ H]]; [lia|]. apply Pr in H; [congruence | exact Hk].
  Qed.
  Theorem c07_cells (bld : build) (nx ny nz : N) x0 x1 y0 y1 z0 z1 (g : grid R) (p : pos3 R) (i j k : N) :
    usable_axis nx x0 x1 -> usable_axis ny y0 y1 -> usable_axis nz z0 z1 ->
    cart_new (nx, ny, nz) (ThreeD ((x0, x1), (y0, y1), (z0, z1))) = Val g -> is_inside g p = true ->
    (i < nx)%N -> (j < ny)%N -> (k < nz)%N ->
    (cell_id bld g p = Val (Some (i, j, k)) <->
     maps_to nx x0 x1 (fst (fst p)) i /\ maps_to ny y0 y1 (snd (fst p)) j /\ maps_to nz z0 z1 (snd p) k).
  Proof.
    intros Ux Uy Uz E In Hi Hj Hk. cbn in E. injection E as <-. destruct p as [[x y] z]. cbn [fst snd].
    assert (B := In). change (cart_inside (mkCart (nx, ny, nz) (cart_centres nx x0 x1) (cart_centres ny y0 y1) (cart_centres nz z0 z1) ((x0, x1), (y0, y1), (z0, z1))) (x, y, z) = true) in B, In. apply cart_inside_R in In. cbn [cc_lim in_box] in In. rewrite !within_R in In. cbn [fst snd] in In. destruct In as [Ix [Iy Iz]].
    destruct (axis_maps bld nx x0 x1 x Ux Ix) as [a [Ea [_ Ma]]].
    destruct (axis_maps bld ny y0 y1 y Uy Iy) as [b [Eb [_ Mb]]].
    destruct (axis_maps bld nz z0 z1 z Uz Iz) as [c [Ec [_ Mc]]].
    unfold cell_id, geom_cell_id, cart_cell_id. cbn [geo] in *. rewrite B. cbn [cc_cells cc_lim]. rewrite Ea, Eb, Ec. cbn [bind].
    rewrite <- (Ma i Hi), <- (Mb j Hj), <- (Mc k Hk). split; [intros H; injection H as -> -> ->; auto | intros [-> [-> ->]]; reflexivity].
  Qed.
  Theorem c07_last_is_a_point (n : N) (lo hi p : R) : usable_axis n lo hi -> (2 <= n)%N -> lo <= p <= hi ->
    (maps_to n lo hi p (n - 1) <-> p = hi).
  Proof.
    intros [Nn Ll] N2 Hp. assert (N2' : (2 <= n <= 2 ^ 53 + 1)%N) by lia.
    rewrite <- (cart_axis_last Release n lo hi p N2' Ll Hp), (cart_axis_preimage Release n lo hi p (n - 1) N2' Ll Hp) by lia.
    unfold maps_to. split; [intros [[H _]|[_ H]]; [lia | exact H] | intros H; right; auto].
  Qed.
  (** So the position 3/4 of the axis [0, 1] with two cells is not in the second one. *)
  Theorem c07_equal_widths_refuted : ~ forall bld n lo hi p i g,
    cart_new (n, 1, 1)%N (ThreeD ((lo, hi), (0, 1), (0, 1))) = Val g ->
    usable_axis n lo hi -> lo <= p < hi -> (i < n)%N ->
    (cell_id bld g (p, 0, 0) = Val (Some (i, 0, 0)%N) <->
     lo + NR i * ((hi - lo) / NR n) <= p < lo + (NR i + 1) * ((hi - lo) / NR n)).
  Proof.
    intros H. assert (U1 : usable_axis 1 0 1) by (split; [lia | lra]). assert (U2 : usable_axis 2 0 1) by (split; [lia | lra]).
    specialize (H Release 2%N 0 1 (3/4) 1%N _ eq_refl U2 ltac:(lra) ltac:(lia)).
    match type of H with cell_id _ ?g _ = _ <-> _ => assert (C := c07_cells Release 2 1 1 0 1 0 1 0 1 g (3/4, 0, 0) 1 0 0 U2 U1 U1 eq_refl) end.
    cbn [fst snd] in C.
    assert (X : 3/4 = 1); [|lra].
    apply (proj1 (c07_last_is_a_point 2 0 1 (3/4) U2 ltac:(lia) ltac:(lra))). change (2 - 1)%N with 1%N.
    apply C; [|lia|lia|lia|].
    - unfold is_inside. cbn [geo]. apply cart_inside_R. cbn [cc_lim in_box]. rewrite !within_R. cbn [fst snd]. lra.
    - apply H. unfold NR. cbn [Z.of_N]. lra.
  Qed.

  (** ** C08 *)
  Theorem c08_slice (g : grid R) (axis : N) (p lo hi : R) (n : N) :
    wf_grid g -> (axis <= 2)%N ->
    v3get (geom_lim (geo g)) axis = Val (lo, hi) -> v3get (geom_cells (geo g)) axis = Val n ->
    (1 <= n <= 2 ^ 53 + 1)%N -> lo < hi -> lo <= p <= hi ->
    (p < hi -> exists k a, (k < n)%N /\
       lo + NR k * ((hi - lo) / NR n) <= p < lo + (NR k + 1) * ((hi - lo) / NR n) /\
       slice g axis p = Val a /\
       forall c, coord axis c = k -> at2 a (drop axis c) = at3 (data g) c) /\
    (p = hi -> slice g axis p = Panic).
  Proof.
    intros [W1 W2] Ha El En Hn Hl Hp.
    destruct (slice_cell_range n lo hi p Hn Hl Hp) as [R1 R2].
    assert (Es : slice g axis p = slice_idx g axis (slice_cell n (lo, hi) p)).
    { unfold slice. rewrite El, En. reflexivity. }
    destruct (slice_idx_val g axis (slice_cell n (lo, hi) p) Ha) as [m [Em [H1 [H2 _]]]].
    rewrite W1, En in Em. injection Em as <-.
    split; intros H.
    - exists (slice_cell n (lo, hi) p).
      assert (K : (slice_cell n (lo, hi) p < n)%N).
      { assert (slice_cell n (lo, hi) p <> n) by (rewrite R2; lra). lia. }
      destruct (H1 K) as [a [Ea [Es2 Ha2]]]. exists a. split; [exact K|].
      split; [apply slice_cell_R; auto|]. rewrite Es. split; [exact Ea|].
      intros [[x y] z] Hc. destruct (axis_cases axis Ha) as [-> | [-> | ->]];
        cbn [coord drop N.eqb Pos.eqb] in *; subst; rewrite Ha2; cbn [lane N.eqb Pos.eqb]; congruence.
    - rewrite Es. apply R2 in H. apply H2; lia.
  Qed.

  (** ** C09: centres *)
  Theorem c09_centres (n : N) (lo hi : R) : lo < hi -> (1 <= n)%N ->
    length (cart_centres n lo hi) = N.to_nat n /\
    forall k, (k < n)%N -> exists x,
      nth_error (cart_centres n lo hi) (N.to_nat k) = Some x /\
      x = lo + (NR k + 1 / 2) * ((hi - lo) / NR n) /\ lo < x < hi /\
      ((k + 1 < n)%N -> exists y, nth_error (cart_centres n lo hi) (N.to_nat (k + 1)) = Some y /\
        y - x = (hi - lo) / NR n /\ x < y).
  Proof.
    intros Hl Hn. split; [apply cart_centres_length|]. intros k Hk. eexists.
    split; [now apply cart_centres_nth|].
    assert (Pn := NR_pos n Hn). assert (Ph : 0 < (hi - lo) / NR n) by (apply Rdiv_lt_0_compat; lra).
    assert (Pk := NR_nonneg k). assert (Lk : NR k + 1 <= NR n).
    { assert (H := proj1 (NR_le (k + 1) n) ltac:(lia)). rewrite NR_add in H. exact H. }
    assert (E : NR n * ((hi - lo) / NR n) = hi - lo) by (field; lra).
    set (h := (hi - lo) / NR n) in *. split; [lra|]. split; [nra|].
    intros Hk1. eexists. split; [now apply cart_centres_nth|]. fold h. rewrite NR_add. change (NR 1) with 1. lra.
  Qed.
  Theorem c09_published_positions (cells : id3) (l : lims R) g : cart_new cells (ThreeD l) = Val g ->
    let '(nx, ny, nz) := cells in let '((x0, x1), (y0, y1), (z0, z1)) := l in
    get_xpositions g = cart_centres nx x0 x1 /\ get_ypositions g = cart_centres ny y0 y1 /\
    get_zpositions g = cart_centres nz z0 z1.
  Proof. destruct cells as [[nx ny] nz], l as [[[x0 x1] [y0 y1]] [z0 z1]]. intros [= <-]. auto. Qed.

  (** ** C10 *)
  Theorem c10_trajectory_totals (bld : build) (g : grid R) (c : cart_geom R) p q v :
    geo g = Cart c -> wf_grid g -> sized (cc_cells c) -> proper (cc_lim c) ->
    in_box (cc_lim c) p -> in_box (cc_lim c) q ->
    exists g', add_trajectory_value bld g p q v = Val g' /\
      total (data g') = total (data g) + v /\ total (weight g') = total (weight g) + 1.
  Proof. apply traj_total. Qed.
  (** Cell by cell: half of the value and of the unit weight at the cell of each end. *)
  Theorem c10_trajectory_cells (bld : build) (g : grid R) (c : cart_geom R) p q v :
    geo g = Cart c -> wf_grid g -> sized (cc_cells c) -> proper (cc_lim c) ->
    in_box (cc_lim c) p -> in_box (cc_lim c) q ->
    exists g' a b, cell_id bld g p = Val (Some a) /\ cell_id bld g q = Val (Some b) /\
      add_trajectory_value bld g p q v = Val g' /\ geo g' = geo g /\ wf_grid g' /\
      forall i, at3 (data g') i = at3 (data g) i + (if id3_eqb a i then v / 2 else 0) + (if id3_eqb b i then v / 2 else 0) /\
                at3 (weight g') i = at3 (weight g) i + (if id3_eqb a i then 1 / 2 else 0) + (if id3_eqb b i then 1 / 2 else 0).
  Proof.
    intros G W S P Hp Hq.
    destruct (cart_cell_id_in_R bld c p S P Hp) as [a [Ea Ia]].
    destruct (cart_cell_id_in_R bld c q S P Hq) as [b [Eb Ib]].
    destruct W as [W1 W2].
    assert (Gc : geom_cells (geo g) = cc_cells c) by now rewrite G.
    destruct (bump_val g a (v * nlit 1 2)%num (nlit 1 2)) as [g1 [E1 O1]]; try congruence.
    assert (W1' := only_cell_wf _ _ _ _ _ O1 (conj W1 W2)). destruct W1' as [V1 V2].
    assert (G1 : geo g1 = geo g) by apply O1.
    destruct (bump_val g1 b (v * nlit 1 2)%num (nlit 1 2)) as [g2 [E2 O2]]; try congruence.
    exists g2, a, b. unfold cell_id. rewrite G. cbn [geom_cell_id].
    split; [exact Ea|]. split; [exact Eb|]. split.
    { unfold add_trajectory_value, cell_ids_in_trajectory. rewrite G, Ea. cbn [bind]. rewrite Eb. cbn [bind combine mfold fst snd].
      rewrite E1. cbn [bind]. rewrite E2. reflexivity. }
    split; [rewrite <- G; etransitivity; [apply O2 | exact G1]|].
    split; [eapply only_cell_wf; [exact O2 | split; assumption]|].
    intros i. unfold only_cell in O1, O2.
    destruct O1 as [_ [_ [_ [D1 [X1 F1]]]]], O2 as [_ [_ [_ [D2 [X2 F2]]]]].
    assert (HV : @nmul R num_R v (nlit 1 2) = v / 2) by (unfold nlit; cbn; lra).
    assert (HH : @nlit R num_R 1 2 = 1 / 2) by (unfold nlit; cbn; lra).
    rewrite HV, ?HH in *. clear HV HH.
    assert (A1 : at3 (data g1) i = at3 (data g) i + (if id3_eqb a i then v / 2 else 0) /\
                 at3 (weight g1) i = at3 (weight g) i + (if id3_eqb a i then 1 / 2 else 0)).
    { destruct (id3_eqb a i) eqn:X.
      - apply id3_eqb_eq in X. subst i. rewrite D1, X1. split; reflexivity.
      - apply id3_eqb_neq in X. destruct (F1 i) as [-> ->]; [congruence|]. split; lra. }
    destruct A1 as [A1 A2]. rewrite <- A1, <- A2.
    destruct (id3_eqb b i) eqn:X.
    - apply id3_eqb_eq in X. subst i. rewrite D2, X2. split; reflexivity.
    - apply id3_eqb_neq in X. destruct (F2 i) as [-> ->]; [congruence|]. split; lra.
  Qed.

  (** ** C12: means of the values that fell into the cell, hence between their bounds *)
  Theorem c12_mean (bld : build) (cells : id3) (l : lims R) (h : list (pos3 R * R)) (g : grid R) :
    sized cells -> proper l -> cart_new cells (ThreeD l) = Val g ->
    exists g' m, add_all bld h g = Val g' /\ divide_by_weight g' = Val m /\ wf_grid m /\
      forall i, inb3 cells i = true -> hit_values bld (geo g) i h <> [] ->
        at3 (weight m) i = INR (length (hit_values bld (geo g) i h)) /\
        at3 (data m) i = Rsum (hit_values bld (geo g) i h) / INR (length (hit_values bld (geo g) i h)) /\
        forall lo hi, (forall x, In x (hit_values bld (geo g) i h) -> lo <= x <= hi) ->
          lo <= at3 (data m) i <= hi.
  Proof.
    intros S P E. assert (Wg := cart_new_wf _ _ _ E).
    assert (D : exists c, geo g = Cart c /\ cc_cells c = cells /\ cc_lim c = l /\ data g = zeros3 cells /\ weight g = zeros3 cells).
    { unfold cart_new in E. destruct l as [[[x0 x1] [y0 y1]] [z0 z1]], cells as [[nx ny] nz].
      injection E as <-. eexists. repeat split. }
    destruct D as [c [Gc [Cc [Cl [Dz Wz]]]]].
    destruct (add_all_spec bld h g Wg) as [g' [Eg [Wg' [Gg H]]]].
    { rewrite Gc. apply cart_lookups_ok_R; congruence. }
    destruct (divide_by_weight_val g' Wg') as [m [Em [Wm [Gm [Wt Hm]]]]].
    exists g', m. split; [exact Eg|]. split; [exact Em|]. split; [exact Wm|].
    intros i Hi Hne. destruct (H i) as [H1 H2]. rewrite Dz in H1. rewrite Wz in H2.
    cbn [zeros3 const3 at3] in H1, H2. cbn [nadd num_R] in H1, H2. change (@n0 R num_R) with 0 in H1, H2.
    change (@n1 R num_R) with 1 in H2.
    rewrite fold_left_Rplus, Rplus_0_l in H1.
    rewrite (fold_left_Rplus_map (fun _ => 1)), Rplus_0_l, Rsum_const, Rmult_1_r in H2.
    assert (V : at3 (data m) i = Rsum (hit_values bld (geo g) i h) / INR (length (hit_values bld (geo g) i h))).
    { rewrite Hm by (rewrite Gg, Gc; cbn [geom_cells]; congruence). rewrite H1, H2. reflexivity. }
    split; [now rewrite Wt|]. split; [exact V|]. intros lo hi Hb. rewrite V. now apply mean_bounds.
  Qed.

  (** ** C14 *)
  Theorem c14_collapse (g : grid R) axis : wf_grid g -> (axis <= 2)%N ->
    exists a w, collapse g axis = Val a /\ collapse_weight g axis = Val w /\
      remove_axis axis (geom_cells (geo g)) = Val (sh2 a) /\ sh2 w = sh2 a /\
      Rsum (map (at2 w) (ids2 (sh2 w))) = total (weight g) /\
      forall ij, inb2 (sh2 a) ij = true ->
        let cells := line (geom_cells (geo g)) axis ij in
        at2 w ij = Rsum (map (at3 (weight g)) cells) /\
        at2 a ij = Rsum (map (fun c => at3 (data g) c * at3 (weight g) c) cells) / at2 w ij /\
        forall lo hi, (forall c, In c cells -> 0 <= at3 (weight g) c /\ lo <= at3 (data g) c <= hi) ->
          0 < at2 w ij -> lo <= at2 a ij <= hi.
  Proof.
    intros W Ha. destruct (collapse_R g axis W Ha) as [a [Ea [Sa Va]]].
    destruct (collapse_weight_R g axis W Ha) as [w [Ew [Sw Vw]]].
    assert (S : sh2 w = sh2 a) by congruence.
    exists a, w. split; [exact Ea|]. split; [exact Ew|]. split; [exact Sa|]. split; [exact S|].
    split; [eapply collapse_weight_total; eauto|]. intros ij Hij cells.
    rewrite (Vw ij) by congruence. rewrite (Va ij Hij). fold cells. split; [reflexivity|]. split; [reflexivity|].
    intros lo hi Hb Hpos. apply weighted_mean_bounds; auto; intros c Hc; apply (Hb c Hc).
  Qed.

  (** ** C15 *)
  Theorem c15_collapse_two (g : grid R) a1 a2 : wf_grid g -> (a1 <= 2)%N -> (a2 <= 2)%N -> a1 <> a2 ->
    (forall c, inb3 (geom_cells (geo g)) c = true -> 0 <= at3 (weight g) c) ->
    exists l w m, collapse_two g a1 a2 = Val l /\ collapse_two_weight g a1 a2 = Val w /\
      v3get (geom_cells (geo g)) (other_axis a1 a2) = Val m /\
      let cells i := plane_cells (geom_cells (geo g)) (other_axis a1 a2) i in
      w = map (fun i => Rsum (map (at3 (weight g)) (cells i))) (range 0 m) /\
      l = map (fun i => Rsum (map (fun c => at3 (data g) c * at3 (weight g) c) (cells i)) /
                        Rsum (map (at3 (weight g)) (cells i))) (range 0 m).
  Proof.
    intros W H1 H2 H3 Hw. destruct (collapse_two_R g a1 a2 W H1 H2 H3 Hw) as [l [m [El [Em Vl]]]].
    destruct (collapse_two_weight_R g a1 a2 W H1 H2 H3) as [w [m' [Ew [Em' Vw]]]].
    assert (m' = m) by congruence. subst m'. exists l, w, m. auto.
  Qed.
  Example c15_ex : other_axis 0 1 = 2%N /\ other_axis 2 0 = 1%N /\ other_axis 1 2 = 0%N /\
    plane_cells (2, 2, 2)%N 1 0 = [(0, 0, 0); (0, 0, 1); (1, 0, 0); (1, 0, 1)]%N /\
    line (2, 2, 2)%N 1 (1, 0)%N = [(1, 0, 0); (1, 1, 0)]%N.
  Proof. repeat split; reflexivity. Qed.
End Ideal.

Print Assumptions c01_lookup_in_bounds.
Print Assumptions c04_history.
Print Assumptions c14_collapse.
