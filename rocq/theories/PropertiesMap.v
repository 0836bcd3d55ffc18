(** * Properties C88, C93: scalar maps, contours, parity maps and parity plots. *)
From Coq Require Import Reals List NArith ZArith Bool Lia Lra String ZifyBool ZifyN ZifyNat.
From Flocq Require Import Core.Core IEEE754.BinarySingleNaN.
From Verif Require Import Base BaseFacts Num F64Facts RFacts NDArray GridModel GridSpec GridFacts GridOps PropertiesGrid DataModel DataSpec DataLoad PropertiesData ConvCsv
  PropertiesCsv PyModel PyStat PlotModel PlotProofs PropertiesPlot.
Local Open Scope list_scope.
Local Open Scope bool_scope.

(** The grid that gives the geometry of a field. *)
Definition frame {F} (f : field F) : grid F := match f with FGrid g => g | FVector v => vg0 v end.
Definition wf_field {F} {NF : Num F} (f : field F) : Prop :=
  match f with FGrid g => placed g /\ wf_grid g | FVector v => wf_vector v end.
(** The number shown for a cell: its value, or the length of its in-plane velocity. *)
Definition cell_number {F} {NF : Num F} {WF : Wave F} (f : field F) (axis : N) (c : id3) : F :=
  match f with
  | FGrid g => at3 (data g) c
  | FVector v => nhypot (at3 (data (component v (right_axis axis))) c) (at3 (data (component v (up_axis axis))) c)
  end.
(** The numbers shown for a depth average. *)
Definition depth_numbers {F} {NF : Num F} {WF : Wave F} (f : field F) (axis : N) (d : N * N -> F) : Prop :=
  match f with
  | FGrid g => exists a, collapse g axis = Val a /\ d = at2 a
  | FVector v => exists a b, collapse (component v (right_axis axis)) axis = Val a /\ collapse (component v (up_axis axis)) axis = Val b /\
      d = fun ij => nhypot (at2 a ij) (at2 b ij)
  end.
(** The [r]-th point of a heat map. *)
Definition shows {F} (h : @heat F) (r : N) (x y z : F) : Prop := at_ (h_x h) r x /\ at_ (h_y h) r y /\ at_ (h_z h) r z.
Definition points {F} (h : @heat F) (n : N) : Prop := vlen (h_x h) = n /\ vlen (h_y h) = n /\ vlen (h_z h) = n.

Section Maps.
  Context {F : Type} {NF : Num F} {TF : Trig F} {WF : Wave F}.

  Lemma heatmap_ok (x y : list F) z : sh2 z = (vlen x, vlen y) ->
    exists h, heatmap x y z = Val h /\ points h (vlen x * vlen y) /\
      forall i j a b, at_ x i a -> at_ y j b -> shows h (i * vlen y + j) a b (at2 z (i, j)).
  Proof.
    intros S. unfold heatmap. destruct (c64_meshgrid x y) as [xx [yy [E [Sx [Sy V]]]]]. rewrite E. cbn [bind].
    eexists. split; [reflexivity|]. unfold points, shows. cbn [h_x h_y h_z fst snd].
    rewrite (flat_len _ _ _ Sx), (flat_len _ _ _ Sy), (flat_len _ _ _ S). split; [auto|].
    intros i j a b Ha Hb. pose proof (at_lt _ _ _ Ha) as La. pose proof (at_lt _ _ _ Hb) as Lb.
    destruct (V i j a b Ha Hb) as [<- <-]. split; [|split]; now apply (flat_at _ (vlen x) (vlen y)).
  Qed.

  Definition tabulates (c : @contour F) (ij : N * N) (z : F) : Prop := exists row, at_ (c_data c) (snd ij) row /\ at_ row (fst ij) z.
  Definition tabulated (c : @contour F) (z : F) : Prop := exists row, In row (c_data c) /\ In z row.

  Lemma columns_at (m : arr2 F) i j : (i < fst (sh2 m))%N -> (j < snd (sh2 m))%N ->
    exists row, at_ (columns m) j row /\ at_ row i (at2 m (i, j)).
  Proof.
    intros Hi Hj. unfold columns. eexists. split.
    - apply (at_map' (fun j => map (fun i => at2 m (i, j)) (range 0 (fst (sh2 m))))). apply at_range. exact Hj.
    - cbv beta. apply (at_map' (fun i => at2 m (i, j))). now apply at_range.
  Qed.
  Lemma columns_size (m : arr2 F) : vlen (columns m) = snd (sh2 m) /\ forall row, In row (columns m) -> vlen row = fst (sh2 m).
  Proof.
    unfold columns. rewrite vlen_map, vlen_range'. split; [lia|]. intros row H. apply in_map_iff in H. destruct H as [j [<- _]].
    rewrite vlen_map, vlen_range'. lia.
  Qed.
  Lemma columns_in (m : arr2 F) z : (exists row, In row (columns m) /\ In z row) <-> In z (flatten_2d m).
  Proof.
    unfold columns, flatten_2d. split.
    - intros [row [H1 H2]]. apply in_map_iff in H1. destruct H1 as [j [<- Hj]]. apply in_map_iff in H2. destruct H2 as [i [<- Hi]].
      apply in_map. apply in_ids2. apply in_range in Hi, Hj. cbn [fst snd]. lia.
    - intros H. apply in_map_iff in H. destruct H as [[i j] [<- H]]. apply in_ids2 in H. cbn [fst snd] in H.
      exists (map (fun i => at2 m (i, j)) (range 0 (fst (sh2 m)))). split.
      + apply in_map_iff. exists j. split; [reflexivity|]. apply in_range. lia.
      + apply in_map_iff. exists i. split; [reflexivity|]. apply in_range. lia.
  Qed.

  Section Field.
    Variables (f : field F) (a : args F) (axis : N).
    Hypothesis W : wf_field f.
    Hypothesis Ha : (axis <= 2)%N.
    Notation g := (frame f).

    Lemma frame_placed : placed g.
    Proof. destruct f; apply W. Qed.

    (** The numbers of a plane, as every kind of plot computes them. *)
    Definition field_plane (k : N) : res (arr2 F) :=
      match f with
      | FGrid g => index_axis_move (data g) axis k
      | FVector v => let! uw := uv_plane v axis k in zip2e nhypot (fst uw) (snd uw)
      end.
    Definition field_depth : res (arr2 F) :=
      match f with
      | FGrid g => collapse g axis
      | FVector v => let! uw := uv_depth v axis in zip2e nhypot (fst uw) (snd uw)
      end.
    Lemma field_plane_ok k : (k < cells_along g axis)%N ->
      exists d, field_plane k = Val d /\ sh2 d = (vlen (centres g (right_axis axis)), vlen (centres g (up_axis axis))) /\
        forall c, on_plane g axis k c -> at2 d (drop axis c) = cell_number f axis c.
    Proof.
      intros Hk. pose proof frame_placed as P.
      assert (D : forall c, on_plane g axis k c -> lane axis (drop axis c) k = c)
        by (intros c Hc; now destruct (drop_in g axis c k P Ha Hc) as [_ [_ L]]).
      unfold field_plane, cell_number. destruct f as [g'|v]; cbn [frame wf_field] in *.
      - destruct W as [_ W']. destruct (plane_ok g' axis k W' Ha) as [d [E [S V]]]; [exists (cells_along g' axis); split; [now apply cells_get | exact Hk]|].
        exists d. split; [exact E|]. split; [now apply plane_shape|]. intros c Hc. specialize (D c Hc). destruct (drop axis c). now rewrite V, D.
      - destruct (uv_plane_ok v axis k (cells_along (vg0 v) axis) W Ha (cells_get _ axis Ha) Hk) as [u [w [E [Su [Sw V]]]]].
        rewrite E. cbn [bind fst snd]. rewrite zip2e_ok by congruence. eexists. split; [reflexivity|]. split; [exact Su|].
        intros c Hc. specialize (D c Hc). destruct (drop axis c) as [i j]. cbn [zip2 at2]. destruct (V i j) as [-> ->]. now rewrite D.
    Qed.
    Lemma field_depth_ok : exists d, field_depth = Val d /\
      sh2 d = (vlen (centres g (right_axis axis)), vlen (centres g (up_axis axis))) /\ depth_numbers f axis (at2 d).
    Proof.
      pose proof frame_placed as P. unfold field_depth, depth_numbers. destruct f as [g'|v]; cbn [frame wf_field] in *.
      - destruct W as [_ W']. destruct (collapse_val _ axis W' Ha) as [d [n [E [_ [S _]]]]]. exists d. split; [exact E|].
        split; [|eauto]. apply plane_shape; [exact P | exact Ha|]. now rewrite <- (proj1 W').
      - destruct (uv_depth_ok v axis W Ha) as [u [w [E [Cu [Cw [Su Sw]]]]]]. rewrite E. cbn [bind fst snd].
        rewrite zip2e_ok by congruence. eexists. split; [reflexivity|]. split; [exact Su|]. exists u, w. auto.
    Qed.

    (** ** Scalar maps: one point per cell of the plane, at its centre, with its number *)
    Lemma scalar_map_unfold : validate a = true ->
      scalar_map f a =
        match usize_arg (a_index a) with
        | None => Val None
        | Some idx =>
            let axis := Z.to_N (a_axis a) in
            let! s := (let! d := (match f with
                   | FGrid g => if String.eqb (a_selection a) "depth_average" then collapse g axis else let! k := unwrap idx in slice_idx g axis k
                   | FVector v => if String.eqb (a_selection a) "depth_average" then let! uw := uv_depth v axis in zip2e nhypot (fst uw) (snd uw)
                       else let! k := unwrap idx in let! uw := uv_plane v axis k in zip2e nhypot (fst uw) (snd uw)
                   end) in Val (smap_of g axis d)) in
            let! h := create_scalar_map s in Val (Some h)
        end.
    Proof.
      intros V. unfold scalar_map. rewrite V. cbn [negb]. destruct (usize_arg (a_index a)) as [idx|]; [|reflexivity]. cbv zeta.
      f_equal. destruct f as [g'|v], (String.eqb (a_selection a) "depth_average"); cbn [frame]; unfold smap_depth, smap_plane, smap_vdepth, smap_vplane;
        try reflexivity.
      - destruct (unwrap idx); reflexivity.
      - destruct (uv_depth v (Z.to_N (a_axis a))); cbn [bind]; [|reflexivity]. now destruct (zip2e _ _ _).
      - destruct (unwrap idx); cbn [bind]; [|reflexivity].
        destruct (uv_plane v (Z.to_N (a_axis a)) a0); cbn [bind]; [|reflexivity]. now destruct (zip2e _ _ _).
    Qed.

    Lemma smap_points d : sh2 d = (vlen (centres g (right_axis axis)), vlen (centres g (up_axis axis))) ->
      exists h, create_scalar_map (smap_of g axis d) = Val h /\
        points h (cells_along g (right_axis axis) * cells_along g (up_axis axis)) /\
        forall ij x y, place g axis ij x y -> shows h (rank g axis ij) x y (at2 d ij).
    Proof.
      intros S. pose proof frame_placed as P. pose proof (axes_le axis) as [L1 L2]. destruct (plot_axes g axis Ha) as [Ex Ey].
      unfold create_scalar_map, smap_of. cbn [s_x s_y s_data]. rewrite Ex, Ey.
      destruct (heatmap_ok _ _ d S) as [h [E [Hn V]]]. exists h. split; [exact E|]. rewrite !(cells_len g) by assumption. split; [exact Hn|].
      intros [i j] x y [Hx Hy]. unfold rank. rewrite (cells_len g) by assumption. cbn [fst snd] in *. now apply V.
    Qed.

    Theorem c88_map_plane k : (k < cells_along g axis)%N -> (k < 2 ^ 64)%N -> validate a = true -> asks_plane a axis k ->
      exists h, scalar_map f a = Val (Some h) /\
        points h (cells_along g (right_axis axis) * cells_along g (up_axis axis)) /\
        forall c, on_plane g axis k c -> exists x y,
          place g axis (drop axis c) x y /\ shows h (rank g axis (drop axis c)) x y (cell_number f axis c).
    Proof.
      intros Hk Hb Va [A1 [A2 A3]]. rewrite scalar_map_unfold by exact Va. rewrite (usize_ok a k A3 Hb), A1, A2, N2Z.id.
      cbn [String.eqb Ascii.eqb Bool.eqb unwrap bind]. cbv zeta.
      destruct (field_plane_ok k Hk) as [d [Ed [Sd Vd]]].
      assert (Em : (match f with FGrid g => slice_idx g axis k | FVector v => let! uw := uv_plane v axis k in zip2e nhypot (fst uw) (snd uw) end) = field_plane k).
      { unfold field_plane. clear - W Ha Hk. destruct f as [g'|v]; [|reflexivity]. symmetry. apply move_ok; [exact Ha | apply W|].
        intros n En. left. cbn [frame] in Hk. rewrite (cells_get g' axis Ha) in En. injection En as <-. exact Hk. }
      rewrite Em, Ed. cbn [bind]. destruct (smap_points d Sd) as [h [Eh [Ph Vh]]]. rewrite Eh. cbn [bind]. exists h. split; [reflexivity|]. split; [exact Ph|].
      intros c Hc. destruct (drop_in g axis c k frame_placed Ha Hc) as [B _].
      destruct (place_ex g axis (drop axis c) frame_placed Ha B) as [x [y Hp]]. exists x, y. split; [exact Hp|].
      rewrite <- (Vd c Hc). now apply Vh.
    Qed.
    Theorem c88_map_depth : validate a = true -> asks_depth a axis ->
      exists h d, scalar_map f a = Val (Some h) /\ depth_numbers f axis d /\
        points h (cells_along g (right_axis axis) * cells_along g (up_axis axis)) /\
        forall ij, (fst ij < cells_along g (right_axis axis) /\ snd ij < cells_along g (up_axis axis))%N -> exists x y,
          place g axis ij x y /\ shows h (rank g axis ij) x y (d ij).
    Proof.
      intros Va [A1 [A2 A3]]. rewrite scalar_map_unfold by exact Va. rewrite A1, A2, A3, N2Z.id.
      cbn [String.eqb Ascii.eqb Bool.eqb unwrap bind usize_arg]. cbv zeta. pose proof (axes_le axis) as [L1 L2].
      destruct field_depth_ok as [d [Ed [Sd Vd]]]. unfold field_depth in Ed. rewrite Ed. cbn [bind].
      destruct (smap_points d Sd) as [h [Eh [Ph Vh]]]. rewrite Eh. cbn [bind]. exists h, (at2 d). split; [reflexivity|]. split; [exact Vd|].
      split; [exact Ph|]. intros [i j] B. rewrite !(cells_len g) in B by (assumption || apply frame_placed).
      destruct (place_ex g axis (i, j) frame_placed Ha) as [x [y Hp]]; [now apply inb2_lt|]. exists x, y. split; [exact Hp|]. now apply Vh.
    Qed.

    (** ** Contours: the number of a cell stands in the row of its height and the column of its
        position to the right *)
    Lemma contour_unfold : validate a = true ->
      scalar_contour f a =
        match usize_arg (a_index a) with
        | None => Val None
        | Some idx =>
            let axis := Z.to_N (a_axis a) in
            let! d := (match f with
                   | FGrid g => if String.eqb (a_selection a) "depth_average" then collapse g axis else let! k := unwrap idx in index_axis_move (data g) axis k
                   | FVector v => if String.eqb (a_selection a) "depth_average" then let! uw := uv_depth v axis in zip2e nhypot (fst uw) (snd uw)
                       else let! k := unwrap idx in let! uw := uv_plane v axis k in zip2e nhypot (fst uw) (snd uw)
                   end) in Val (Some (contour_of g axis d, contour_levels (contour_of g axis d) 10))
        end.
    Proof.
      intros V. unfold scalar_contour. rewrite V. cbn [negb]. destruct (usize_arg (a_index a)) as [idx|]; [|reflexivity]. cbv zeta.
      destruct f as [g'|v], (String.eqb (a_selection a) "depth_average"); cbn [frame]; unfold contour_depth, contour_plane, contour_vdepth, contour_vplane.
      - now destruct (collapse _ _).
      - destruct (unwrap idx); cbn [bind]; [|reflexivity]. now destruct (index_axis_move _ _ _).
      - destruct (uv_depth v (Z.to_N (a_axis a))); cbn [bind]; [|reflexivity]. now destruct (zip2e _ _ _).
      - destruct (unwrap idx); cbn [bind]; [|reflexivity].
        destruct (uv_plane v (Z.to_N (a_axis a)) a0); cbn [bind]; [|reflexivity]. now destruct (zip2e _ _ _).
    Qed.

    Definition contour_size (c : @contour F) : Prop :=
      vlen (c_data c) = cells_along g (up_axis axis) /\ forall row, In row (c_data c) -> vlen row = cells_along g (right_axis axis).

    Theorem c88_contour_plane k : (k < cells_along g axis)%N -> (k < 2 ^ 64)%N -> validate a = true -> asks_plane a axis k ->
      exists c, scalar_contour f a = Val (Some (c, (c_min c, c_max c, ndiv (nsub (c_max c) (c_min c)) (nofN 10)))) /\
        c_x c = centres g (right_axis axis) /\ c_y c = centres g (up_axis axis) /\ contour_size c /\
        forall cell, on_plane g axis k cell -> tabulates c (drop axis cell) (cell_number f axis cell).
    Proof.
      intros Hk Hb Va [A1 [A2 A3]]. pose proof frame_placed as P. pose proof (axes_le axis) as [L1 L2].
      rewrite contour_unfold by exact Va. rewrite (usize_ok a k A3 Hb), A1, A2, N2Z.id.
      cbn [String.eqb Ascii.eqb Bool.eqb unwrap bind]. cbv zeta.
      destruct (field_plane_ok k Hk) as [d [Ed [Sd Vd]]]. unfold field_plane in Ed. rewrite Ed. cbn [bind].
      eexists. split; [reflexivity|]. unfold contour_of, contour_size. cbn [c_x c_y c_data]. destruct (plot_axes g axis Ha) as [Ex Ey].
      split; [exact Ex|]. split; [exact Ey|]. rewrite !(cells_len g) by assumption. pose proof (columns_size d) as CS. rewrite Sd in CS. cbn [fst snd] in CS.
      split; [exact CS|]. intros c Hc. destruct (drop_in g axis c k P Ha Hc) as [B _]. rewrite <- (Vd c Hc).
      destruct (drop axis c) as [i j]. apply inb2_lt in B. apply columns_at; rewrite Sd; apply B.
    Qed.
    Theorem c88_contour_depth : validate a = true -> asks_depth a axis ->
      exists c d, scalar_contour f a = Val (Some (c, (c_min c, c_max c, ndiv (nsub (c_max c) (c_min c)) (nofN 10)))) /\
        depth_numbers f axis d /\
        c_x c = centres g (right_axis axis) /\ c_y c = centres g (up_axis axis) /\ contour_size c /\
        forall ij, (fst ij < cells_along g (right_axis axis) /\ snd ij < cells_along g (up_axis axis))%N -> tabulates c ij (d ij).
    Proof.
      intros Va [A1 [A2 A3]]. pose proof frame_placed as P. pose proof (axes_le axis) as [L1 L2].
      rewrite contour_unfold by exact Va. rewrite A1, A2, A3, N2Z.id.
      cbn [String.eqb Ascii.eqb Bool.eqb unwrap bind usize_arg]. cbv zeta.
      destruct field_depth_ok as [d [Ed [Sd Vd]]]. unfold field_depth in Ed. rewrite Ed. cbn [bind].
      eexists _, (at2 d). split; [reflexivity|]. split; [exact Vd|]. unfold contour_of, contour_size. cbn [c_x c_y c_data]. destruct (plot_axes g axis Ha) as [Ex Ey].
      split; [exact Ex|]. split; [exact Ey|]. rewrite !(cells_len g) by assumption. pose proof (columns_size d) as CS. rewrite Sd in CS. cbn [fst snd] in CS.
      split; [exact CS|]. intros [i j] B. apply columns_at; rewrite Sd; apply B.
    Qed.
  End Field.
End Maps.

(** ** The range of a list of numbers, NaN entries left out *)
Lemma min_fold (l : list f64) : forall a : f64, is_nan a = false -> Forall (fun x => is_nan x = false) l ->
  lowest (fold_left (fun acc x => if Bltb x acc then x else acc) l a) (a :: l).
Proof.
  induction l as [|x l IH]; intros a Na Nl; cbn [fold_left].
  - split; [now left|]. intros y [<-|[]]. now apply Bleb_refl.
  - inversion Nl as [|? ? Nx Nl']; subst. set (b := if Bltb x a then x else a).
    assert (Nb : is_nan b = false) by (unfold b; now destruct (Bltb x a)).
    destruct (IH b Nb Nl') as [I L]. clear IH.
    assert (Lb : Bleb b x = true /\ Bleb b a = true).
    { unfold b. destruct (Bltb x a) eqn:E; split; try (now apply Bleb_refl); [now apply Blt_le|].
      destruct (Bleb a x) eqn:E2; [reflexivity|]. rewrite (Bnle_lt _ _ Na Nx E2) in E. discriminate. }
    assert (I' : forall z, In z (b :: l) -> In z (a :: x :: l)).
    { intros z [<-|H]; [unfold b; destruct (Bltb x a); [right; now left | now left] | right; now right]. }
    split; [now apply I'|].
    intros y [<-|[<-|Hy]]; [apply (Bleb_trans _ b); [apply L; now left | apply Lb] .. | apply L; now right].
Qed.
Lemma max_fold (l : list f64) : forall a : f64, is_nan a = false -> Forall (fun x => is_nan x = false) l ->
  highest (fold_left (fun acc x => if Bltb x acc then acc else x) l a) (a :: l).
Proof.
  induction l as [|x l IH]; intros a Na Nl; cbn [fold_left].
  - split; [now left|]. intros y [<-|[]]. now apply Bleb_refl.
  - inversion Nl as [|? ? Nx Nl']; subst. set (b := if Bltb x a then a else x).
    assert (Nb : is_nan b = false) by (unfold b; now destruct (Bltb x a)).
    destruct (IH b Nb Nl') as [I L]. clear IH.
    assert (Lb : Bleb x b = true /\ Bleb a b = true).
    { unfold b. destruct (Bltb x a) eqn:E; split; try (now apply Bleb_refl); [now apply Blt_le|].
      destruct (Bleb a x) eqn:E2; [reflexivity|]. rewrite (Bnle_lt _ _ Na Nx E2) in E. discriminate. }
    assert (I' : forall z, In z (b :: l) -> In z (a :: x :: l)).
    { intros z [<-|H]; [unfold b; destruct (Bltb x a); [now left | right; now left] | right; now right]. }
    split; [now apply I'|].
    intros y [<-|[<-|Hy]]; [apply (Bleb_trans _ b); [apply Lb | apply L; now left] .. | apply L; now right].
Qed.
Lemma skipnan_range (l : list f64) : numbers l <> [] -> lowest (min_skipnan l) (numbers l) /\ highest (max_skipnan l) (numbers l).
Proof.
  intros H. unfold min_skipnan, max_skipnan, skipnan. change (filter (fun x => negb (nisnan x)) l) with (numbers l).
  assert (N : Forall (fun x => is_nan x = false) (numbers l)).
  { apply Forall_forall. intros x Hx. apply filter_In in Hx. destruct Hx as [_ Hx]. now apply negb_true_iff in Hx. }
  destruct (numbers l) as [|x r]; [congruence|]. inversion N; subst. split; [now apply min_fold | now apply max_fold].
Qed.

(** The contour levels run from the lowest to the highest of the numbers shown. *)
Theorem c88_contour_range {TF : Trig f64} {WF : Wave f64} (f : field f64) a c l : scalar_contour f a = Val (Some (c, l)) ->
  (exists z, tabulated c z /\ is_nan z = false) ->
  (tabulated c (c_min c) /\ forall z, tabulated c z -> is_nan z = false -> Bleb (c_min c) z = true) /\
  (tabulated c (c_max c) /\ forall z, tabulated c z -> is_nan z = false -> Bleb z (c_max c) = true).
Proof.
  unfold tabulated. intros H X.
  assert (E : exists g axis d, c = contour_of g axis d).
  { unfold scalar_contour in H. destruct (negb (validate a)); [discriminate|]. destruct (usize_arg (a_index a)) as [idx|]; [|discriminate].
    cbv zeta in H. apply bind_val in H. destruct H as [c' [H E]]. injection E as E _. subst c'.
    destruct f as [g|v], (String.eqb (a_selection a) "depth_average").
    - apply bind_val in H. destruct H as [d [_ E]]. injection E as <-. eauto.
    - apply bind_val in H. destruct H as [k [_ H]]. apply bind_val in H. destruct H as [d [_ E]]. injection E as <-. eauto.
    - apply bind_val in H. destruct H as [uw [_ H]]. apply bind_val in H. destruct H as [d [_ E]]. injection E as <-. eauto.
    - apply bind_val in H. destruct H as [k [_ H]]. apply bind_val in H. destruct H as [uw [_ H]]. apply bind_val in H.
      destruct H as [d [_ E]]. injection E as <-. eauto. }
  destruct E as [g [axis [d ->]]]. unfold contour_of in *. cbn [c_data c_min c_max] in *.
  assert (M : forall z, In z (numbers (flatten_2d d)) <-> In z (flatten_2d d) /\ is_nan z = false).
  { intros z. unfold numbers. rewrite filter_In, negb_true_iff. reflexivity. }
  destruct (skipnan_range (flatten_2d d)) as [[L1 L2] [H1 H2]].
  { destruct X as [z [Tz Nz]]. rewrite columns_in in Tz. intros E. assert (I : In z (numbers (flatten_2d d))) by (apply M; auto). now rewrite E in I. }
  apply M in L1, H1. rewrite !columns_in. split; (split; [tauto|]); intros z; rewrite columns_in; intros Hz Nz.
  - apply L2, M. auto.
  - apply H2, M. auto.
Qed.

(** ** C87: [plot] of a grid: the depth average as a table, with the positions of its columns and rows *)
Theorem c87_table {F} {NF : Num F} (g : grid F) axis : placed g -> wf_grid g -> (axis <= 2)%N ->
  exists table a, grid_plot g axis = Val (centres g (up_axis axis), centres g (right_axis axis), table) /\ collapse g axis = Val a /\
    vlen table = cells_along g (right_axis axis) /\ (forall row, In row table -> vlen row = cells_along g (up_axis axis)) /\
    forall i j, (i < cells_along g (right_axis axis))%N -> (j < cells_along g (up_axis axis))%N ->
      exists row, at_ table i row /\ at_ row j (at2 a (i, j)).
Proof.
  intros P W Ha. pose proof (axes_le axis) as [L1 L2]. destruct (collapse_val _ axis W Ha) as [a [n [E [_ [S _]]]]].
  rewrite (proj1 W) in S. apply (plane_shape g _ _ P Ha) in S. rewrite <- !cells_len in S by assumption.
  unfold grid_plot. rewrite E. cbn [bind]. rewrite S. cbn [fst snd].
  set (rows := map _ _). exists rows, a.
  assert (Er : (if (axis =? 0)%N then Val (get_zpositions g, get_ypositions g, rows)
    else if (axis =? 1)%N then Val (get_zpositions g, get_xpositions g, rows) else Val (get_ypositions g, get_xpositions g, rows))
    = Val (centres g (up_axis axis), centres g (right_axis axis), rows)).
  { assert (axis = 0 \/ axis = 1 \/ axis = 2)%N as [-> | [-> | ->]] by lia; reflexivity. }
  split; [exact Er|]. split; [reflexivity|]. unfold rows. split; [rewrite vlen_map, vlen_range'; lia|]. split.
  - intros row H. apply in_map_iff in H. destruct H as [i [<- _]]. rewrite vlen_map, vlen_range'. lia.
  - intros i j Hi Hj. eexists. split.
    + apply (at_map' (fun i => map (fun j => at2 a (i, j)) (range 0 (cells_along g (up_axis axis))))). apply at_range. exact Hi.
    + cbv beta. apply (at_map' (fun j => at2 a (i, j))). now apply at_range.
Qed.
