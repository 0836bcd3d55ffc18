(** * PlotModel: src/plotting/plotting_2d/*.rs and the plotting part of src/pylib/libplot.rs,
    up4/plotting.py.

    Modelled: the arrays behind every plot, the arrows, the rescalings of the arrows, the traces
    handed to plotly (as lists of numbers) and the choice made from the arguments.  Not modelled:
    colours beyond the number fed to the gradient, layouts, JSON and plotly itself.
    [into_raw_vec] (memory order) is row-major order here: every array it is applied to was
    freshly built by ndarray in row-major order. *)
From Coq Require Import ZArith NArith String.
From Verif Require Import Base Num NDArray GridModel PyModel.

(** libm: [f64::hypot], [f64::sin], [f64::cos]. *)
Class Wave (F : Type) : Type := { nhypot : F -> F -> F; nsin : F -> F; ncos : F -> F }.

Section Plot.
  Context {F : Type} {NF : Num F} {TF : Trig F} {WF : Wave F}.
  Local Open Scope num_scope.

  (** ** ndarray *)

  (** [Zip::from(&mut out).and(&a).and(&b)] and [a *= &b]: both shapes must be the same. *)
  Definition sh2_eqb (a b : N * N) : bool := ((fst a =? fst b) && (snd a =? snd b))%N.
  Definition zip2e {G H K} (f : G -> H -> K) (a : arr2 G) (b : arr2 H) : res (arr2 K) :=
    if sh2_eqb (sh2 a) (sh2 b) then Val (zip2 f a b) else Panic.
  (** [&a + &b] with broadcasting. *)
  Definition bop2 (f : F -> F -> F) (a b : arr2 F) : res (arr2 F) :=
    let! d0 := bdim (fst (sh2 a)) (fst (sh2 b)) in
    let! d1 := bdim (snd (sh2 a)) (snd (sh2 b)) in
    let at_b (s : N * N) (ij : N * N) := (bidx (fst s) (fst ij), bidx (snd s) (snd ij)) in
    Val (mkA2 (d0, d1) (fun ij => f (at2 a (at_b (sh2 a) ij)) (at2 b (at_b (sh2 b) ij)))).
  (** [a.to_owned().index_axis_move(Axis(axis), k)]: unlike [s![k, ..]] it takes [k] as it is. *)
  Definition index_axis_move (a : arr3 F) (axis k : N) : res (arr2 F) :=
    let! sh := remove_axis axis (sh3 a) in
    let! n := v3get (sh3 a) axis in
    if (k <? n)%N then Val (plane axis sh a k) else Panic.
  (** ndarray-stats [min_skipnan], [max_skipnan]: NaN when there is no number. *)
  Definition skipnan (f : F -> F -> F) (l : list F) : F :=
    match filter (fun x => negb (nisnan x)) l with
    | [] => nnan
    | x :: r => fold_left f r x
    end.
  Definition min_skipnan (l : list F) : F := skipnan (fun acc x => if x <? acc then x else acc) l.
  Definition max_skipnan (l : list F) : F := skipnan (fun acc x => if x <? acc then acc else x) l.

  (** ** Which plane *)

  (** quiver.rs 83-97, unit_vector.rs 30-41, scalar_map.rs 23-34, ...: "select yz (0), xz (1) or
      xy (2) plane". *)
  Definition plot_x (g : grid F) (axis : N) : list F :=
    if (axis =? 0)%N then get_ypositions g else get_xpositions g.
  Definition plot_y (g : grid F) (axis : N) : list F :=
    if ((axis =? 0) || (axis =? 1))%N then get_zpositions g else get_ypositions g.
  (** quiver.rs 45-49, parity_map.rs 23-27, parity_contour.rs 21-25 (and the three other
      constructors of the parity files) instead take the y positions for axis 1, too. *)
  Definition plot_x' (g : grid F) (axis : N) : list F :=
    if ((axis =? 0) || (axis =? 1))%N then get_ypositions g else get_xpositions g.
  (** [let i = usize::from(axis == 0)], [let j = if axis == 0 || axis == 1 { 2 } else { 1 }]. *)
  Definition comp_i (axis : N) : N := if (axis =? 0)%N then 1%N else 0%N.
  Definition comp_j (axis : N) : N := if ((axis =? 0) || (axis =? 1))%N then 2%N else 1%N.
  (** [grid.data[i]]. *)
  Definition vcomp (v : vgrid F) (i : N) : res (grid F) :=
    if (i =? 0)%N then Val (vg0 v) else if (i =? 1)%N then Val (vg1 v)
    else if (i =? 2)%N then Val (vg2 v) else Panic.
  (** The two in-plane components, depth averaged or on one plane. *)
  Definition uv_depth (v : vgrid F) (axis : N) : res (arr2 F * arr2 F) :=
    let! gi := vcomp v (comp_i axis) in
    let! gj := vcomp v (comp_j axis) in
    let! u := collapse gi axis in
    let! w := collapse gj axis in
    Val (u, w).
  Definition uv_plane (v : vgrid F) (axis k : N) : res (arr2 F * arr2 F) :=
    let! gi := vcomp v (comp_i axis) in
    let! gj := vcomp v (comp_j axis) in
    let! u := index_axis_move (data gi) axis k in
    let! w := index_axis_move (data gj) axis k in
    Val (u, w).

  (** ** quiver.rs, unit_vector.rs *)

  (** quiver.rs 15-22, unit_vector.rs 17-25. *)
  Record arrows : Type := mkArr {
    q_x : list F; q_y : list F; q_u : arr2 F; q_v : arr2 F; q_norm : arr2 F; q_true : arr2 F }.

  (** quiver.rs 43-73. *)
  Definition quiver_depth (v : vgrid F) (axis : N) : res arrows :=
    let! uw := uv_depth v axis in
    let! norm := zip2e nhypot (fst uw) (snd uw) in
    Val (mkArr (plot_x' (vg0 v) axis) (plot_y (vg0 v) axis) (fst uw) (snd uw) norm norm).
  (** quiver.rs 75-115. *)
  Definition quiver_plane (v : vgrid F) (axis k : N) : res arrows :=
    let! uw := uv_plane v axis k in
    let! norm := zip2e nhypot (fst uw) (snd uw) in
    Val (mkArr (plot_x (vg0 v) axis) (plot_y (vg0 v) axis) (fst uw) (snd uw) norm norm).

  (** quiver.rs 230-254, unit_vector.rs 246-270: the norms are recomputed. *)
  Definition with_uv (p : arrows) (u v : arr2 F) : res arrows :=
    let! norm := zip2e nhypot u v in
    Val (mkArr (q_x p) (q_y p) u v norm (q_true p)).
  Definition scale_global (p : arrows) (s : F) : res arrows :=
    with_uv p (map2 (fun a => a * s) (q_u p)) (map2 (fun a => a * s) (q_v p)).
  Definition scale_elementwise (p : arrows) (s : arr2 F) : res arrows :=
    let! u := zip2e nmul (q_u p) s in
    let! v := zip2e nmul (q_v p) s in
    with_uv p u v.
  (** quiver.rs 256-293, unit_vector.rs 272-309. *)
  Definition bound_min (p : arrows) (min : F) : res arrows :=
    scale_elementwise p (map2 (fun n => if n <? min then min / n else n1) (q_norm p)).
  Definition bound_max (p : arrows) (max : F) : res arrows :=
    scale_elementwise p (map2 (fun n => if max <? n then max / n else n1) (q_norm p)).
  Definition bound_min_max (p : arrows) (min max : F) : res arrows :=
    scale_elementwise p (map2 (fun n => if max <? n then max / n else if n <? min then min / n else n1) (q_norm p)).
  (** quiver.rs 295-321, unit_vector.rs 311-337. *)
  Definition bound_half_node (p : arrows) (dx dy : F) : res arrows :=
    let largest := max_skipnan (flatten_2d (q_norm p)) in
    with_uv p (map2 (fun a => a * (nlit 1 2 * dx / largest)) (q_u p))
              (map2 (fun a => a * (nlit 1 2 * dy / largest)) (q_v p)).
  Definition bound_full_node (p : arrows) (dx dy : F) : res arrows :=
    let largest := max_skipnan (flatten_2d (q_norm p)) in
    with_uv p (map2 (fun a => a * (dx / largest)) (q_u p))
              (map2 (fun a => a * (dy / largest)) (q_v p)).

  (** [x[1] - x[0]] (unit_vector.rs 54-55, libplot.rs 87-88, 95-96, 152-153, 160-161). *)
  Definition spacing (x : list F) : res F :=
    let! a := vget x 1 in
    let! b := vget x 0 in
    Val (a - b).
  (** unit_vector.rs 44-65, 94-116. *)
  Definition unit_of (x y : list F) (u v : arr2 F) : res arrows :=
    let! true_norm := zip2e nhypot u v in
    let! u := zip2e ndiv u true_norm in
    let! v := zip2e ndiv v true_norm in
    let norm := mkA2 (sh2 u) (fun _ => n1) in
    let! dx := spacing x in
    let! dy := spacing y in
    bound_half_node (mkArr x y u v norm true_norm) dx dy.
  (** unit_vector.rs 28-66. *)
  Definition unit_depth (v : vgrid F) (axis : N) : res arrows :=
    let! uw := uv_depth v axis in
    unit_of (plot_x (vg0 v) axis) (plot_y (vg0 v) axis) (fst uw) (snd uw).
  (** unit_vector.rs 68-117. *)
  Definition unit_plane (v : vgrid F) (axis k : N) : res arrows :=
    let! uw := uv_plane v axis k in
    unit_of (plot_x (vg0 v) axis) (plot_y (vg0 v) axis) (fst uw) (snd uw).

  (** quiver.rs 323-328. *)
  Definition normalise_colour (p : arrows) : arr2 F :=
    let min := min_skipnan (flatten_2d (q_true p)) in
    let max := max_skipnan (flatten_2d (q_true p)) in
    map2 (fun t => (t - min) / (max - min)) (q_true p).

  (** plotting_2d.rs 4-10. *)
  Record arrow : Type := mkArrow { ar_base : F * F; ar_tip : F * F; ar_left : F * F; ar_right : F * F }.

  (** quiver.rs 119-168 and unit_vector.rs 120-168, which takes the angle of the unscaled arrow
      ([unit]).  [izip!] stops with the shortest of its arrays. *)
  Definition angle : F := npi / nof 9.
  Definition create_arrows (unit : bool) (p : arrows) (ratio : F) : res (list arrow) :=
    let len := map2 (fun n => n * nlit 3 10) (q_norm p) in
    let u := map2 (fun a => a * ratio) (q_u p) in
    let! barb := zip2e natan2 (q_v p) (if unit then q_u p else u) in
    let! xy := meshgrid (q_x p) (q_y p) in
    let a1 := map2 (fun a => a + angle) barb in
    let a2 := map2 (fun a => a - angle) barb in
    let! s1x := bop2 nmul len (map2 ncos a1) in
    let! s1y := bop2 nmul len (map2 nsin a1) in
    let! s2x := bop2 nmul len (map2 ncos a2) in
    let! s2y := bop2 nmul len (map2 nsin a2) in
    let! ex := bop2 nadd (fst xy) u in
    let! ey := bop2 nadd (snd xy) (q_v p) in
    let! p1x := bop2 nsub ex s1x in
    let! p1y := bop2 nsub ey s1y in
    let! p2x := bop2 nsub ex s2x in
    let! p2y := bop2 nsub ey s2y in
    let z a b := combine (flatten_2d a) (flatten_2d b) in
    Val (map (fun e => let '(b, t, (l, r)) := e in mkArrow b t l r)
             (combine (combine (z (fst xy) (snd xy)) (z ex ey)) (combine (z p1x p1y) (z p2x p2y)))).

  (** ** Traces *)

  (** One arrow as drawn: quiver.rs 181-194, unit_vector.rs 178-191; [None] is black. *)
  Record line : Type := mkLine { l_xs : list F; l_ys : list F; l_colour : option F }.
  Definition arrow_line (a : arrow) (c : option F) : line :=
    mkLine [fst (ar_base a); fst (ar_tip a); fst (ar_left a); fst (ar_right a); fst (ar_tip a)]
           [snd (ar_base a); snd (ar_tip a); snd (ar_left a); snd (ar_right a); snd (ar_tip a)] c.
  (** The marker carrying the colour bar: position and range (quiver.rs 211-225). *)
  Record bar : Type := mkBar { b_at : F * F; b_min : F; b_max : F; b_show : bool }.
  (** quiver.rs 172-228; [cmap]: a colour map was asked for. *)
  Definition quiver_traces (p : arrows) (ratio : F) (cmap : bool) : res (list line * bar) :=
    let! ars := create_arrows false p ratio in
    let lines := map (fun ac => arrow_line (fst ac) (if cmap then Some (snd ac) else None))
                     (combine ars (flatten_2d (normalise_colour p))) in
    let! x0 := vget (q_x p) 0 in
    let! y0 := vget (q_y p) 0 in
    let t := flatten_2d (q_true p) in
    Val (lines, mkBar (x0, y0) (min_skipnan t) (max_skipnan t) cmap).
  (** A heat map given point by point: [HeatMap::new(x, y, z)] with three flat lists. *)
  Record heat : Type := mkHeat { h_x : list F; h_y : list F; h_z : list F }.
  (** scalar_map.rs 112-126, unit_vector.rs 206-228. *)
  Definition heatmap (x y : list F) (z : arr2 F) : res heat :=
    let! xy := meshgrid x y in
    Val (mkHeat (flatten_2d (fst xy)) (flatten_2d (snd xy)) (flatten_2d z)).
  (** unit_vector.rs 170-204. *)
  Definition unit_traces (p : arrows) (ratio : F) : res (list line * heat) :=
    let! ars := create_arrows true p ratio in
    let! h := heatmap (q_x p) (q_y p) (q_true p) in
    Val (map (fun a => arrow_line a None) ars, h).

  (** ** scalar_map.rs *)
  Record smap : Type := mkSmap { s_x : list F; s_y : list F; s_data : arr2 F }.
  (** 21-43, 45-73. *)
  Definition smap_of (g : grid F) (axis : N) (d : arr2 F) : smap := mkSmap (plot_x g axis) (plot_y g axis) d.
  Definition smap_vdepth (v : vgrid F) (axis : N) : res smap :=
    let! uw := uv_depth v axis in
    let! d := zip2e nhypot (fst uw) (snd uw) in
    Val (smap_of (vg0 v) axis d).
  Definition smap_vplane (v : vgrid F) (axis k : N) : res smap :=
    let! uw := uv_plane v axis k in
    let! d := zip2e nhypot (fst uw) (snd uw) in
    Val (smap_of (vg0 v) axis d).
  (** 75-90, 92-110. *)
  Definition smap_depth (g : grid F) (axis : N) : res smap :=
    let! d := collapse g axis in Val (smap_of g axis d).
  Definition smap_plane (g : grid F) (axis k : N) : res smap :=
    let! d := slice_idx g axis k in Val (smap_of g axis d).
  (** 112-126. *)
  Definition create_scalar_map (s : smap) : res heat := heatmap (s_x s) (s_y s) (s_data s).

  (** ** scalar_contour.rs *)
  Record contour : Type := mkCont { c_x : list F; c_y : list F; c_data : list (list F); c_min : F; c_max : F }.
  (** [for col in data_arr.columns() { data.push(col.to_vec()) }]. *)
  Definition columns (a : arr2 F) : list (list F) :=
    map (fun j => map (fun i => at2 a (i, j)) (range 0 (fst (sh2 a)))) (range 0 (snd (sh2 a))).
  Definition contour_of (g : grid F) (axis : N) (d : arr2 F) : contour :=
    mkCont (plot_x g axis) (plot_y g axis) (columns d) (min_skipnan (flatten_2d d)) (max_skipnan (flatten_2d d)).
  (** 21-58, 60-108, 110-137, 139-174. *)
  Definition contour_vdepth (v : vgrid F) (axis : N) : res contour :=
    let! uw := uv_depth v axis in
    let! d := zip2e nhypot (fst uw) (snd uw) in
    Val (contour_of (vg0 v) axis d).
  Definition contour_vplane (v : vgrid F) (axis k : N) : res contour :=
    let! uw := uv_plane v axis k in
    let! d := zip2e nhypot (fst uw) (snd uw) in
    Val (contour_of (vg0 v) axis d).
  Definition contour_depth (g : grid F) (axis : N) : res contour :=
    let! d := collapse g axis in Val (contour_of g axis d).
  Definition contour_plane (g : grid F) (axis k : N) : res contour :=
    let! d := index_axis_move (data g) axis k in Val (contour_of g axis d).
  (** libplot.rs 266-280: the level range; the interval between two levels. *)
  Definition contour_levels (c : contour) (n : N) : F * F * F :=
    (c_min c, c_max c, (c_max c - c_min c) / nofN n).

  (** ** parity_map.rs, parity_contour.rs (the same code twice) *)
  Record parity : Type := mkPar { r_ref : arr2 F; r_comp : arr2 F; r_x : arr2 F; r_y : arr2 F; r_delta : arr2 F }.
  Definition parity_of (g : grid F) (axis : N) (a b : arr2 F) : res parity :=
    let! xy := meshgrid (plot_x' g axis) (plot_y g axis) in
    let! d := bop2 nsub a b in
    Val (mkPar a b (fst xy) (snd xy) d).
  (** parity_map.rs 17-66, 68-130, 132-164, 166-205. *)
  Definition parity_vdepth (v w : vgrid F) (axis : N) : res parity :=
    let! a := uv_depth v axis in
    let! na := zip2e nhypot (fst a) (snd a) in
    let! b := uv_depth w axis in
    let! nb := zip2e nhypot (fst b) (snd b) in
    parity_of (vg0 v) axis na nb.
  Definition parity_vplane (v w : vgrid F) (axis k : N) : res parity :=
    let! a := uv_plane v axis k in
    let! na := zip2e nhypot (fst a) (snd a) in
    let! b := uv_plane w axis k in
    let! nb := zip2e nhypot (fst b) (snd b) in
    parity_of (vg0 v) axis na nb.
  Definition parity_depth (g h : grid F) (axis : N) : res parity :=
    let! a := collapse g axis in
    let! b := collapse h axis in
    parity_of g axis a b.
  Definition parity_plane (g h : grid F) (axis k : N) : res parity :=
    let! a := index_axis_move (data g) axis k in
    let! b := index_axis_move (data h) axis k in
    parity_of g axis a b.
  (** parity_map.rs 207-216. *)
  Definition create_parity_map (r : parity) : heat :=
    mkHeat (flatten_2d (r_x r)) (flatten_2d (r_y r)) (flatten_2d (r_delta r)).
  (** parity_map.rs 218-257.  [from_shape_vec] with the shape of the reference. *)
  Definition with_delta (r : parity) (d : arr2 F) : parity := mkPar (r_ref r) (r_comp r) (r_x r) (r_y r) d.
  Definition delta_as_difference (r : parity) : res parity :=
    let! d := bop2 nsub (r_ref r) (r_comp r) in Val (with_delta r d).
  Definition delta_as_percent (r : parity) : res parity :=
    let! d := bop2 nsub (r_ref r) (r_comp r) in
    let! q := bop2 ndiv d (r_ref r) in
    Val (with_delta r (map2 (fun a => a * nof 100) q)).
  Definition delta_as_absolute_difference (r : parity) : res parity :=
    let! d := bop2 nsub (r_ref r) (r_comp r) in
    if (fst (sh2 d) * snd (sh2 d) =? fst (sh2 (r_ref r)) * snd (sh2 (r_ref r)))%N
    then Val (with_delta r (mkA2 (sh2 (r_ref r)) (fun ij => nabs (at2 d ij)))) else Panic.

  (** ** parity_plot.rs *)
  Record pplot : Type := mkPp { pp_ref : list F; pp_comp : list F; pp_xmin : F; pp_xmax : F; pp_ymin : F; pp_ymax : F }.
  (** 32-60 (repeated in every constructor); [get_data] of a vector grid is its first component
      (vector_grid.rs 221-223). *)
  Definition pp_of (dr dc : arr3 F) (ref comp : list F) : pplot :=
    let mn_r := min_skipnan (flat3 dr) in let mx_r := max_skipnan (flat3 dr) in
    let mn_c := min_skipnan (flat3 dc) in let mx_c := max_skipnan (flat3 dc) in
    let mn := if mn_r <? mn_c then mn_r else mn_c in
    let mx := if mx_c <? mx_r then mx_r else mx_c in
    mkPp ref comp mn mx mn mx.
  (** 24-79. *)
  Definition pplot_vall (v w : vgrid F) : pplot :=
    pp_of (data (vg0 v)) (data (vg0 w))
      (flat3 (data (vg0 v)) ++ flat3 (data (vg1 v)) ++ flat3 (data (vg2 v)))
      (flat3 (data (vg0 w)) ++ flat3 (data (vg1 w)) ++ flat3 (data (vg2 w))).
  (** 81-151. *)
  Definition pplot_vdepth (v w : vgrid F) (axis : N) : res pplot :=
    let! a := uv_depth v axis in
    let! b := uv_depth w axis in
    Val (pp_of (data (vg0 v)) (data (vg0 w))
      (flatten_2d (fst a) ++ flatten_2d (snd a)) (flatten_2d (fst b) ++ flatten_2d (snd b))).
  (** 153-236. *)
  Definition pplot_vplane (v w : vgrid F) (axis k : N) : res pplot :=
    let! a := uv_plane v axis k in
    let! b := uv_plane w axis k in
    Val (pp_of (data (vg0 v)) (data (vg0 w))
      (flatten_2d (fst a) ++ flatten_2d (snd a)) (flatten_2d (fst b) ++ flatten_2d (snd b))).
  (** 238-292, 294-352, 354-419. *)
  Definition pplot_all (g h : grid F) : pplot := pp_of (data g) (data h) (flat3 (data g)) (flat3 (data h)).
  Definition pplot_depth (g h : grid F) (axis : N) : res pplot :=
    let! a := collapse g axis in
    let! b := collapse h axis in
    Val (pp_of (data g) (data h) (flatten_2d a) (flatten_2d b)).
  Definition pplot_plane (g h : grid F) (axis k : N) : res pplot :=
    let! a := index_axis_move (data g) axis k in
    let! b := index_axis_move (data h) axis k in
    Val (pp_of (data g) (data h) (flatten_2d a) (flatten_2d b)).
  (** 421-438: the line and the points. *)
  Definition create_parity_scatter (p : pplot) : (F * F) * (F * F) * list (F * F) :=
    ((pp_xmin p, pp_ymin p), (pp_xmax p, pp_ymax p), combine (pp_ref p) (pp_comp p)).

  (** ** libgrid.rs 245-281 [plot]: positions along the columns, along the rows, and the rows. *)
  Definition grid_plot (g : grid F) (axis : N) : res (list F * list F * list (list F)) :=
    let! c := collapse g axis in
    let rows := map (fun i => map (fun j => at2 c (i, j)) (range 0 (snd (sh2 c)))) (range 0 (fst (sh2 c))) in
    if (axis =? 0)%N then Val (get_zpositions g, get_ypositions g, rows)
    else if (axis =? 1)%N then Val (get_zpositions g, get_xpositions g, rows)
    else Val (get_ypositions g, get_xpositions g, rows).

  (** ** up4/plotting.py [Plotter2D] and libplot.rs *)

  (** What the arguments of a call may hold. *)
  Record args : Type := mkArgs {
    a_axis : Z; a_selection : string; a_index : option Z; a_mode : option string;
    a_min : option F; a_max : option F; a_cmap : option string }.
  Local Open Scope string_scope.
  Definition opt_is (o : option string) (s : string) : bool :=
    match o with Some t => String.eqb t s | None => false end.
  Definition absent {A} (o : option A) : bool := match o with None => true | Some _ => false end.
  Definition mem (s : string) (l : list string) : bool := existsb (String.eqb s) l.
  (** plotting.py 950-990. *)
  Definition valid_modes : list string := ["min"; "max"; "minmax"; "half_node"; "full_node"].
  Definition valid_colours : list string :=
    ["turbo"; "viridis"; "inferno"; "spectral"; "magma"; "plasma"; "cividis"; "warm"; "cool"; "cubehelix";
     "blue_green"; "blue_purple"; "green_blue"; "orange_red"; "purple_blue_green"; "purple_blue"; "purple_red";
     "red_purple"; "yellow_green_blue"; "yellow_green"; "yellow_orange_brown"; "yellow_orange_red"; "blues";
     "greens"; "greys"; "oranges"; "purples"; "reds"; "brown_green"; "purple_green"; "pink_green";
     "purple_orange"; "red_blue"; "red_grey"; "red_yellow_blue"; "red_yellow_green"; "spectral"].
  (** plotting.py 991-1028; [false]: ValueError. *)
  Definition validate (a : args) : bool :=
    ((0 <=? a_axis a) && (a_axis a <=? 2))%Z &&
    (String.eqb (a_selection a) "depth_average" || String.eqb (a_selection a) "plane") &&
    negb (String.eqb (a_selection a) "plane" && absent (a_index a)) &&
    (match a_mode a with None => true | Some m => mem m valid_modes end) &&
    negb (opt_is (a_mode a) "min" && absent (a_min a)) &&
    negb (opt_is (a_mode a) "max" && absent (a_max a)) &&
    negb (opt_is (a_mode a) "minmax" && (absent (a_min a) || absent (a_max a))) &&
    (match a_cmap a with None => true | Some c => mem c valid_colours end).
  (** libplot.rs 548-589: the names with a gradient. *)
  Definition gradients : list string :=
    ["turbo"; "viridis"; "inferno"; "spectral"; "magma"; "plasma"; "cividis"; "warm"; "cool"; "cubehelix";
     "blue_green"; "blue_purple"; "green_blue"; "orange_red"; "purple_blue_green"; "purple_blue"; "purple_red";
     "red_purple"; "yellow_green_blue"; "yellow_green"; "yellow_orange_brown"; "yellow_orange_red"; "blues";
     "greens"; "greys"; "oranges"; "purples"; "reds"; "brown_green"; "purple_green"; "pink_green";
     "purple_orange"; "red_blue"; "red_grey"; "red_yellow_blue"; "red_yellow_green"].
  Definition get_gradient (c : option string) : option string :=
    match c with Some s => if mem s gradients then Some s else None | None => None end.
  (** An index handed to Rust: a negative one (or one beyond usize) is an OverflowError. *)
  Definition usize_arg (o : option Z) : option (option N) :=
    match o with
    | None => Some None
    | Some z => if ((0 <=? z) && (z <? 2 ^ 64))%Z then Some (Some (Z.to_N z)) else None
    end.
  (** libplot.rs 75-103, 141-167. *)
  Definition rescale (p : arrows) (mode : option string) (mn mx : option F) : res arrows :=
    if opt_is mode "min" then let! m := unwrap mn in bound_min p m
    else if opt_is mode "max" then let! m := unwrap mx in bound_max p m
    else if opt_is mode "minmax" then let! a := unwrap mn in let! b := unwrap mx in bound_min_max p a b
    else if opt_is mode "half_node" then
      let! dx := spacing (q_x p) in let! dy := spacing (q_y p) in bound_half_node p dx dy
    else if opt_is mode "full_node" then
      let! dx := spacing (q_x p) in let! dy := spacing (q_y p) in bound_full_node p dx dy
    else Val p.

  Inductive field : Type := FGrid (g : grid F) | FVector (v : vgrid F).

  (** A Python call: [None] is a raised exception, [Panic] a Rust panic. *)
  Definition raise {A} : res (option A) := Val None.
  (** plotting.py 67-203 with libplot.rs 53-115. *)
  Definition quiver_plot (f : field) (a : args) : res (option (list line * bar)) :=
    if negb (validate a) then raise else
    match f with
    | FGrid _ => raise
    | FVector v =>
        match usize_arg (a_index a) with
        | None => raise
        | Some idx =>
            let axis := Z.to_N (a_axis a) in
            let! p := (if String.eqb (a_selection a) "depth_average" then quiver_depth v axis
                       else let! k := unwrap idx in quiver_plane v axis k) in
            let! p := rescale p (a_mode a) (a_min a) (a_max a) in
            let! t := quiver_traces p n1 (negb (absent (get_gradient (a_cmap a)))) in
            Val (Some t)
        end
    end.
  (** plotting.py 206-342 with libplot.rs 118-175; the validation is given [min_size] twice
      (plotting.py 322-330). *)
  Definition unit_vector_plot (f : field) (a : args) : res (option (list line * heat)) :=
    match f with
    | FGrid _ => raise
    | FVector v =>
        if negb (validate (mkArgs (a_axis a) (a_selection a) (a_index a) (a_mode a) (a_min a) (a_min a) (a_cmap a)))
        then raise else
        match usize_arg (a_index a) with
        | None => raise
        | Some idx =>
            let axis := Z.to_N (a_axis a) in
            let! p := (if String.eqb (a_selection a) "depth_average" then unit_depth v axis
                       else let! k := unwrap idx in unit_plane v axis k) in
            let! p := rescale p (a_mode a) (a_min a) (a_max a) in
            let! t := unit_traces p n1 in
            Val (Some t)
        end
    end.
  (** plotting.py 344-445 with libplot.rs 181-224. *)
  Definition scalar_map (f : field) (a : args) : res (option heat) :=
    if negb (validate a) then raise else
    match usize_arg (a_index a) with
    | None => raise
    | Some idx =>
        let axis := Z.to_N (a_axis a) in
        let depth := String.eqb (a_selection a) "depth_average" in
        let! s := (match f with
                   | FVector v => if depth then smap_vdepth v axis else let! k := unwrap idx in smap_vplane v axis k
                   | FGrid g => if depth then smap_depth g axis else let! k := unwrap idx in smap_plane g axis k
                   end) in
        let! h := create_scalar_map s in
        Val (Some h)
    end.
  (** plotting.py 447-550 with libplot.rs 230-285 (ten levels). *)
  Definition scalar_contour (f : field) (a : args) : res (option (contour * (F * F * F))) :=
    if negb (validate a) then raise else
    match usize_arg (a_index a) with
    | None => raise
    | Some idx =>
        let axis := Z.to_N (a_axis a) in
        let depth := String.eqb (a_selection a) "depth_average" in
        let! c := (match f with
                   | FVector v => if depth then contour_vdepth v axis else let! k := unwrap idx in contour_vplane v axis k
                   | FGrid g => if depth then contour_depth g axis else let! k := unwrap idx in contour_plane g axis k
                   end) in
        Val (Some (c, contour_levels c 10))
    end.
  (** plotting.py 552-659, 661-772, 774-887 with libplot.rs 288-540; a comparison grid of the
      other kind is a TypeError.  [_parity_contour] is [_parity_map] again.  The third choice of
      libplot.rs 314, 352 ([from_grids], [from_vector_grids]) cannot be reached: the validation
      admits two selections only. *)
  Definition parity_args (a : args) : args :=
    mkArgs (a_axis a) (a_selection a) (a_index a) None None None None.
  Definition parity_map (f h : field) (a : args) : res (option heat) :=
    if negb (validate (parity_args a)) then raise else
    match usize_arg (a_index a) with
    | None => raise
    | Some idx =>
        let axis := Z.to_N (a_axis a) in
        let depth := String.eqb (a_selection a) "depth_average" in
        match f, h with
        | FVector v, FVector w =>
            let! r := (if depth then parity_vdepth v w axis else let! k := unwrap idx in parity_vplane v w axis k) in
            Val (Some (create_parity_map r))
        | FGrid g, FGrid h =>
            let! r := (if depth then parity_depth g h axis else let! k := unwrap idx in parity_plane g h axis k) in
            Val (Some (create_parity_map r))
        | _, _ => raise
        end
    end.
  Definition parity_plot (f h : field) (a : args) : res (option ((F * F) * (F * F) * list (F * F))) :=
    if negb (validate (parity_args a)) then raise else
    match usize_arg (a_index a) with
    | None => raise
    | Some idx =>
        let axis := Z.to_N (a_axis a) in
        let depth := String.eqb (a_selection a) "depth_average" in
        match f, h with
        | FVector v, FVector w =>
            let! r := (if depth then pplot_vdepth v w axis else let! k := unwrap idx in pplot_vplane v w axis k) in
            Val (Some (create_parity_scatter r))
        | FGrid g, FGrid h =>
            let! r := (if depth then pplot_depth g h axis else let! k := unwrap idx in pplot_plane g h axis k) in
            Val (Some (create_parity_scatter r))
        | _, _ => raise
        end
    end.
End Plot.
Arguments arrows : clear implicits.
Arguments arrow : clear implicits.
Arguments args : clear implicits.
Arguments field : clear implicits.
