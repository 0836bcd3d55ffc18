(** * GridModel: Cartesian, cylindrical and vector grids.

    Models src/grid.rs, src/grid/cartesian_grid.rs, src/grid/cylindrical_grid.rs and
    src/grid/vector_grid.rs.  The two scalar grids are one record [grid]: a geometry (the
    part in which they differ) and the [data]/[weight] arrays, whose methods are
    textually identical in both files except where noted. *)
From Coq Require Import ZArith NArith.
From Verif Require Import Base Num NDArray.

(** Trigonometry used by the code, an oracle: [y.atan2(x)] and [std::f64::consts::PI]. *)
Class Trig (F : Type) : Type := { natan2 : F -> F -> F; npi : F }.

Section Grid.
  Context {F : Type} {NF : Num F} {TF : Trig F}.
  Local Open Scope num_scope.

  Definition pos3 : Type := v3 F.
  Definition lims : Type := v3 (F * F).

  (** src/grid.rs 35-41: [enum Dim]. *)
  Inductive dim : Type :=
  | OneD (l : F * F) | TwoD (l : (F * F) * (F * F)) | ThreeD (l : lims).

  (** cartesian_grid.rs 12-22 without [data] and [weight]. *)
  Record cart_geom : Type := mkCart {
    cc_cells : id3; cc_x : list F; cc_y : list F; cc_z : list F; cc_lim : lims }.

  (** cylindrical_grid.rs 14-26 without [data] and [weight]. *)
  Record cyl_geom : Type := mkCyl {
    yc_cells : id3; yc_r : list (F * F); yc_rmean : list F; yc_o : list F; yc_z : list F;
    yc_center : v3 F; yc_radius : F; yc_lim : lims }.

  Inductive geom : Type := Cart (c : cart_geom) | Cyl (y : cyl_geom).

  Record grid : Type := mkGrid { geo : geom; data : arr3 F; weight : arr3 F }.

  (** ** Construction *)

  (** cartesian_grid.rs 32-45, one axis: the cell centres.  [cells as f64] of 0 gives an
      infinite cell size but then there is no position to compute. *)
  Definition cart_centres (n : N) (lo hi : F) : list F :=
    let size := (hi - lo) / nofN n in
    map (fun k => nofN k * size + size / n2 + lo) (range 0 n).

  (** cartesian_grid.rs 25-56 [CartesianGrid3D::new]. *)
  Definition cart_new (cells : id3) (limit : dim) : res grid :=
    match limit with
    | ThreeD ((x0, x1), (y0, y1), (z0, z1)) =>
        let '(nx, ny, nz) := cells in
        Val (mkGrid
               (Cart (mkCart cells (cart_centres nx x0 x1) (cart_centres ny y0 y1)
                             (cart_centres nz z0 z1) ((x0, x1), (y0, y1), (z0, z1))))
               (zeros3 cells) (zeros3 cells))
    | _ => Panic
    end.

  (** cylindrical_grid.rs 49-55: upper cell edges [-PI + k*o + o] and [k*z + z + z0]. *)
  Definition cyl_oedges (n : N) : list F :=
    let size := (n2 * npi) / nofN n in
    map (fun k => nneg npi + nofN k * size + size) (range 0 n).
  Definition cyl_zedges (n : N) (lo hi : F) : list F :=
    let size := (hi - lo) / nofN n in
    map (fun k => nofN k * size + size + lo) (range 0 n).

  (** cylindrical_grid.rs 63-79. *)
  Definition half_extent (lo hi c : F) : F :=
    if nabs (lo - c) <? nabs (hi - c) then nabs (hi - c) else nabs (lo - c).
  Definition outer_radius (x y : F) : F := if y <? x then x else y.

  (** cylindrical_grid.rs 81-98: the rings, [n] still to go, [inner] the running inner radius. *)
  Fixpoint cyl_rings (n : nat) (vol inner : F) : list (F * F) :=
    match n with
    | O => []
    | S n' => let new := nsqrt (vol + inner * inner) in (inner, new) :: cyl_rings n' vol new
    end.

  (** cylindrical_grid.rs 29-122 [CylindricalGrid3D::new]; [volume] says whether the mode
      string is "volume". *)
  Definition cyl_new (cells : id3) (limit : dim) (volume : bool) : res grid :=
    if negb volume then Panic else
    match limit with
    | ThreeD ((x0, x1), (y0, y1), (z0, z1)) =>
        let '(nr, no, nz) := cells in
        let cx := (x0 + x1) / n2 in
        let cy := (y0 + y1) / n2 in
        let cz := (z0 + z1) / n2 in
        let R := outer_radius (half_extent x0 x1 cx) (half_extent y0 y1 cy) in
        let rings := cyl_rings (N.to_nat nr) (R * R / nofN nr) n0 in
        Val (mkGrid
               (Cyl (mkCyl cells rings (map (fun r => (fst r + snd r) / n2) rings)
                           (cyl_oedges no) (cyl_zedges nz z0 z1) (cx, cy, cz) R
                           ((n0, R), (nneg npi, npi), (z0, z1))))
               (zeros3 cells) (zeros3 cells))
    | _ => Panic
    end.

  (** cylindrical_grid.rs 123-131. *)
  Definition to_cylindrical (y : cyl_geom) (p : pos3) : pos3 :=
    let '(p0, p1, p2) := p in
    let '(c0, c1, _) := yc_center y in
    let x := p0 - c0 in let v := p1 - c1 in
    (nsqrt (x * x + v * v), natan2 v x, p2).

  (** ** Position tests *)

  Definition in_interval (l : F * F) (x : F) : bool := (fst l <=? x) && (x <=? snd l).

  (** cartesian_grid.rs 110-120 ([pos >= lim0] is [lim0 <= pos] in IEEE). *)
  Definition cart_inside (c : cart_geom) (p : pos3) : bool :=
    let '(p0, p1, p2) := p in
    let '(l0, l1, l2) := cc_lim c in
    if nisnan p0 || nisnan p1 || nisnan p2 then false
    else in_interval l0 p0 && in_interval l1 p1 && in_interval l2 p2.

  (** cylindrical_grid.rs 179-186. *)
  Definition cyl_inside (y : cyl_geom) (p : pos3) : bool :=
    let '(r, o, z) := to_cylindrical y p in
    let '(_, l1, l2) := yc_lim y in
    (r <=? yc_radius y) && in_interval l1 o && in_interval l2 z.

  Definition geom_inside (g : geom) (p : pos3) : bool :=
    match g with Cart c => cart_inside c p | Cyl y => cyl_inside y p end.

  (** ** Cell lookup *)

  (** cartesian_grid.rs 137-142, one axis: [((p - lo) / (hi - lo) * (n - 1) as f64) as usize]. *)
  Definition cart_axis_id (bld : build) (n : N) (l : F * F) (p : F) : res N :=
    let! n' := usub bld n 1 in
    Val (nusize ((p - fst l) / (snd l - fst l) * nofN n')).

  (** cartesian_grid.rs 122-145. *)
  Definition cart_cell_id (bld : build) (c : cart_geom) (p : pos3) : res (option id3) :=
    if cart_inside c p then
      let '(p0, p1, p2) := p in
      let '(n0', n1', n2') := cc_cells c in
      let '(l0, l1, l2) := cc_lim c in
      let! i := cart_axis_id bld n0' l0 p0 in
      let! j := cart_axis_id bld n1' l1 p1 in
      let! k := cart_axis_id bld n2' l2 p2 in
      Val (Some (i, j, k))
    else Val None.

  (** cylindrical_grid.rs 192-197: the last ring containing [r]. *)
  Fixpoint ring_of (l : list (F * F)) (k : N) (r : F) (acc : option N) : option N :=
    match l with
    | [] => acc
    | q :: l' => ring_of l' (k + 1)%N r
                   (if (fst q <=? r) && (r <=? snd q) then Some k else acc)
    end.

  (** cylindrical_grid.rs 188-219; panics when no ring contains the radius or argmin fails. *)
  Definition cyl_cell_id (y : cyl_geom) (p : pos3) : res (option id3) :=
    let '(r, o, z) := to_cylindrical y p in
    let! i := unwrap (ring_of (yc_r y) 0 r None) in
    let! j := unwrap (argmin (map (fun e => nabs (e - o)) (yc_o y))) in
    let! k := unwrap (argmin (map (fun e => nabs (e - z)) (yc_z y))) in
    Val (Some (i, j, k)).

  Definition geom_cell_id (bld : build) (g : geom) (p : pos3) : res (option id3) :=
    match g with Cart c => cart_cell_id bld c p | Cyl y => cyl_cell_id y p end.

  Definition geom_cells (g : geom) : id3 :=
    match g with Cart c => cc_cells c | Cyl y => yc_cells y end.
  Definition geom_lim (g : geom) : lims :=
    match g with Cart c => cc_lim c | Cyl y => yc_lim y end.
  Definition is_cylindrical (g : geom) : bool :=
    match g with Cart _ => false | Cyl _ => true end.

  (** get_xpositions / get_ypositions / get_zpositions
      (cartesian_grid.rs 441-449, cylindrical_grid.rs 401-410). *)
  Definition get_xpositions (g : grid) : list F :=
    match geo g with Cart c => cc_x c | Cyl y => yc_rmean y end.
  Definition get_ypositions (g : grid) : list F :=
    match geo g with Cart c => cc_y c | Cyl y => yc_o y end.
  Definition get_zpositions (g : grid) : list F :=
    match geo g with Cart c => cc_z c | Cyl y => yc_z y end.

  Definition is_inside (g : grid) (p : pos3) : bool := geom_inside (geo g) p.
  Definition cell_id (bld : build) (g : grid) (p : pos3) : res (option id3) :=
    geom_cell_id bld (geo g) p.

  (** ** Updates *)

  Definition with_data (g : grid) (d : arr3 F) : grid := mkGrid (geo g) d (weight g).
  Definition with_weight (g : grid) (w : arr3 F) : grid := mkGrid (geo g) (data g) w.

  (** [data[c] += v; weight[c] += w]. *)
  Definition bump (g : grid) (c : id3) (v w : F) : res grid :=
    let! x := get3 (data g) c in
    let! d := set3 (data g) c (x + v) in
    let! y := get3 (weight g) c in
    let! u := set3 (weight g) c (y + w) in
    Val (mkGrid (geo g) d u).

  (** cartesian_grid.rs 254-257, cylindrical_grid.rs 233-236. *)
  Definition add_to_cell (g : grid) (c : id3) (v : F) : res grid := bump g c v n1.

  (** cartesian_grid.rs 258-264, cylindrical_grid.rs 238-244. *)
  Definition get_value (bld : build) (g : grid) (p : pos3) : res F :=
    let! o := cell_id bld g p in
    match o with None => Val nnan | Some c => get3 (data g) c end.

  (** cartesian_grid.rs 266-283 (with the extra bounds check, which prints and returns) and
      cylindrical_grid.rs 246-253 (without it). *)
  Definition add_value (bld : build) (g : grid) (p : pos3) (v : F) : res grid :=
    let! o := cell_id bld g p in
    match o with
    | None => Val g
    | Some c =>
        match geo g with
        | Cart cg => if inb3 (cc_cells cg) c then bump g c v n1 else Val g
        | Cyl _ => bump g c v n1
        end
    end.

  (** cartesian_grid.rs 147-155 (the rest of the function is unreachable). *)
  Definition cell_ids_in_trajectory (bld : build) (c : cart_geom) (p q : pos3)
    : res (option (list id3 * list F)) :=
    let! a := cart_cell_id bld c p in
    match a with
    | None => Val None
    | Some ca =>
        let! b := cart_cell_id bld c q in
        match b with
        | None => Val None
        | Some cb => Val (Some ([ca; cb], [nlit 1 2; nlit 1 2]))
        end
    end.

  (** cartesian_grid.rs 287-301; cylindrical_grid.rs 255-261 falls back to [add_value pos1]. *)
  Definition add_trajectory_value (bld : build) (g : grid) (p q : pos3) (v : F) : res grid :=
    match geo g with
    | Cart c =>
        let! o := cell_ids_in_trajectory bld c p q in
        match o with
        | None => Val g
        | Some (cs, fs) =>
            mfold (fun g' cf => bump g' (fst cf) (v * snd cf) (snd cf)) (combine cs fs) g
        end
    | Cyl _ => add_value bld g p v
    end.

  (** cartesian_grid.rs 303-313, cylindrical_grid.rs 263-273. *)
  Definition divide_by_array (g : grid) (a : arr3 F) : res grid :=
    let! d := zip3 ndiv (data g) a in Val (with_data g d).
  Definition divide_by_scalar (g : grid) (x : F) : grid :=
    with_data g (map3 (fun d => d / x) (data g)).
  Definition divide_by_weight (g : grid) : res grid :=
    let! d := zip3 ndiv (data g) (weight g) in Val (with_data g d).

  (** cartesian_grid.rs 315-321, cylindrical_grid.rs 275-281. *)
  Definition insert (bld : build) (g : grid) (p : pos3) (v : F) : res grid :=
    let! o := cell_id bld g p in
    match o with
    | None => Val g
    | Some c => let! d := set3 (data g) c v in Val (with_data g d)
    end.

  (** cartesian_grid.rs 322-326, cylindrical_grid.rs 282-286: the clone keeps its weights. *)
  Definition new_zeros (g : grid) : grid := with_data g (zeros3 (geom_cells (geo g))).

  (** ** Reductions *)

  Definition nan0 (x : F) : F := if nisnan x then n0 else x.

  (** cartesian_grid.rs 328-343; cylindrical_grid.rs 288-304 also replaces NaN weights.  The
      loop over the planes is a fold at each result index; shapes of data and weight
      are compared by the element-wise operators ([Panic] if they differ: grids never
      have different shapes, see the shape invariant). *)
  Definition collapse (g : grid) (axis : N) : res (arr2 F) :=
    let! sh := remove_axis axis (sh3 (data g)) in
    let! shw := remove_axis axis (sh3 (weight g)) in
    let! n := v3get (sh3 (data g)) axis in
    let! nw := v3get (sh3 (weight g)) axis in
    if negb ((fst sh =? fst shw)%N && (snd sh =? snd shw)%N) then Panic else
    let wf := if is_cylindrical (geo g) then nan0 else (fun x => x) in
    let ks := range 0 (N.min n nw) in
    let step (acc : arr2 F * arr2 F) (k : N) :=
      let d := map2 nan0 (plane axis sh (data g) k) in
      let w := map2 wf (plane axis sh (weight g) k) in
      (zip2 nadd (fst acc) (zip2 nmul d w), zip2 nadd (snd acc) w) in
    let '(r, w) := fold_left step ks (zeros2 sh, zeros2 sh) in
    Val (zip2 ndiv r w).

  (** cartesian_grid.rs 345-354, cylindrical_grid.rs 305-314. *)
  Definition collapse_weight (g : grid) (axis : N) : res (arr2 F) :=
    let! sh := remove_axis axis (sh3 (data g)) in
    let! n := v3get (sh3 (weight g)) axis in
    Val (fold_left (fun acc k => zip2 nadd acc (plane axis sh (weight g) k))
                   (range 0 n) (zeros2 sh)).

  (** Rows ([axis = 0]) or columns ([axis = 1]) of a matrix: [axis_iter]. *)
  Definition lane2 (axis : N) (i k : N) : N * N := if (axis =? 0)%N then (k, i) else (i, k).
  Definition len2 (axis : N) (sh : N * N) : N := if (axis =? 0)%N then fst sh else snd sh.

  (** [std::mem::swap] so that axis1 < axis2, then [axis2 - 1]
      (cartesian_grid.rs 358-368, cylindrical_grid.rs 318-327). *)
  Definition order_axes (a1 a2 : N) : res (N * N) :=
    if (a1 =? a2)%N then Panic
    else if (a2 <? a1)%N then Val (a2, a1 - 1)%N else Val (a1, a2 - 1)%N.

  (** cartesian_grid.rs 356-386, cylindrical_grid.rs 316-346.  The second axis must be 0 or 1
      after the shift, otherwise [remove_axis]/[axis_iter] panics. *)
  Definition collapse_two (g : grid) (axis1 axis2 : N) : res (list F) :=
    let! ax := order_axes axis1 axis2 in
    let '(a, b) := ax in
    let! c := collapse g a in
    let! cw := collapse_weight g a in
    if (1 <? b)%N then Panic else
    let m := len2 (1 - b) (sh2 c) in
    let ks := range 0 (N.min (len2 b (sh2 c)) (len2 b (sh2 cw))) in
    Val (map (fun i =>
           let '(r, w) := fold_left
             (fun acc k => (fst acc + nan0 (at2 c (lane2 b i k)) * at2 cw (lane2 b i k),
                            snd acc + at2 cw (lane2 b i k))) ks (n0, n0) in
           r / w) (range 0 m)).

  (** cartesian_grid.rs 388-409, cylindrical_grid.rs 348-369. *)
  Definition collapse_two_weight (g : grid) (axis1 axis2 : N) : res (list F) :=
    let! ax := order_axes axis1 axis2 in
    let '(a, b) := ax in
    let! cw := collapse_weight g a in
    if (1 <? b)%N then Panic else
    let m := len2 (1 - b) (sh2 cw) in
    Val (map (fun i => fold_left (fun acc k => acc + at2 cw (lane2 b i k))
                                 (range 0 (len2 b (sh2 cw))) n0) (range 0 m)).

  (** cartesian_grid.rs 428-439, cylindrical_grid.rs 388-399: [s![.., k, ..]] picks plane [k],
      counts the largest [usize] values from the end ([s_index]), and panics otherwise. *)
  Definition slice_idx (g : grid) (axis k : N) : res (arr2 F) :=
    let! sh := remove_axis axis (sh3 (data g)) in
    let! n := v3get (sh3 (data g)) axis in
    match s_index n k with Some k => Val (plane axis sh (data g) k) | None => Panic end.

  (** cartesian_grid.rs 413-415, cylindrical_grid.rs 373-375. *)
  Definition slice_cell (n : N) (l : F * F) (p : F) : N :=
    nusize ((p - fst l) / (snd l - fst l) * nofN n).
  (** cartesian_grid.rs 411-426, cylindrical_grid.rs 371-386. *)
  Definition slice (g : grid) (axis : N) (p : F) : res (arr2 F) :=
    let! l := v3get (geom_lim (geo g)) axis in
    let! n := v3get (geom_cells (geo g)) axis in
    slice_idx g axis (slice_cell n l p).

  Definition sh_eqb (a b : id3) : bool := id3_eqb a b.

  (** cartesian_grid.rs 466-479, cylindrical_grid.rs 429-442. *)
  Definition set_data (g : grid) (a : arr3 F) : res grid :=
    if sh_eqb (sh3 (data g)) (sh3 a) then Val (with_data g a) else Panic.
  Definition set_weights (g : grid) (a : arr3 F) : res grid :=
    if sh_eqb (sh3 (weight g)) (sh3 a) then Val (with_weight g a) else Panic.

  (** ** Outlier removal *)

  (** The offsets of the 26 neighbours in the order of the source
      (cartesian_grid.rs 500-527, cylindrical_grid.rs 462-489). *)
  Inductive off : Type := ODn | OEq | OUp.
  Definition offsets : list (off * off * off) :=
    [(ODn,ODn,ODn); (ODn,ODn,OEq); (ODn,ODn,OUp); (ODn,OEq,ODn); (ODn,OEq,OEq); (ODn,OEq,OUp);
     (ODn,OUp,ODn); (ODn,OUp,OEq); (ODn,OUp,OUp);
     (OEq,ODn,ODn); (OEq,ODn,OEq); (OEq,ODn,OUp); (OEq,OEq,ODn); (OEq,OEq,OUp);
     (OEq,OUp,ODn); (OEq,OUp,OEq); (OEq,OUp,OUp);
     (OUp,ODn,ODn); (OUp,ODn,OEq); (OUp,ODn,OUp); (OUp,OEq,ODn); (OUp,OEq,OEq); (OUp,OEq,OUp);
     (OUp,OUp,ODn); (OUp,OUp,OEq); (OUp,OUp,OUp)].
  Definition move (bld : build) (o : off) (i : N) : res N :=
    match o with ODn => usub bld i 1 | OEq => Val i | OUp => Val (i + 1)%N end.
  Definition move3 (bld : build) (o : off * off * off) (i : id3) : res id3 :=
    let '(o0, o1, o2) := o in let '(i0, i1, i2) := i in
    let! j0 := move bld o0 i0 in let! j1 := move bld o1 i1 in let! j2 := move bld o2 i2 in
    Val (j0, j1, j2).

  (** cartesian_grid.rs 529-541 ([skip = true]: neighbours above the threshold are skipped) and
      cylindrical_grid.rs 491-499 ([skip = false]). Accumulators: sum, weight_sum, counter_sum. *)
  Definition neighbour_sums (g : grid) (skip : bool) (thr : F) (js : list id3) : F * F * F :=
    fold_left (fun acc j =>
      let '(s, w, c) := acc in
      if inb3 (sh3 (data g)) j then
        if skip && (thr <? at3 (data g) j) then acc
        else (s + at3 (data g) j, w + at3 (weight g) j, c + n1)
      else acc) js (n0, n0, n0).

  (** One cell of mode 2 (cartesian_grid.rs 492-547, cylindrical_grid.rs 455-507).  The index
      list is built before it is used, so an underflow panics in a debug build. *)
  Definition outlier_cell (bld : build) (g : grid) (thr : F) (i : id3) : res (F * F) :=
    let x := at3 (data g) i in
    if thr <? x then
      let! js := mmap (fun o => move3 bld o i) offsets in
      let '(s, w, c) := neighbour_sums g (negb (is_cylindrical (geo g))) thr js in
      Val (s / c, w / c)
    else Val (x, at3 (weight g) i).

  (** cartesian_grid.rs 481-560, cylindrical_grid.rs 445-514. *)
  Definition outlier_removal (bld : build) (g : grid) (thr : F) (mode : N) : res grid :=
    if (mode =? 0)%N then
      Val (with_data g (map3 (fun x => if thr <? x then n0 else x) (data g)))
    else if (mode =? 1)%N then
      Val (with_data g (map3 (fun x => if thr <? x then thr else x) (data g)))
    else if (mode =? 2)%N then
      let! d := build3 (sh3 (data g)) (fun i => let! r := outlier_cell bld g thr i in Val (fst r)) in
      let! w := build3 (sh3 (data g)) (fun i => let! r := outlier_cell bld g thr i in Val (snd r)) in
      Val (mkGrid (geo g) d w)
    else Panic.

  (** ** Vector grids (vector_grid.rs) *)

  (** vector_grid.rs 9-12; [cyl_grid] is the geometry of a cylindrical grid, unused otherwise. *)
  Record vgrid : Type := mkV { vg0 : grid; vg1 : grid; vg2 : grid; vcyl : option cyl_geom }.

  (** vector_grid.rs 15-29. *)
  Definition vnew (g : grid) : vgrid :=
    mkV g g g (match geo g with Cyl y => Some y | Cart _ => None end).

  Definition vmap (f : grid -> grid) (v : vgrid) : vgrid :=
    mkV (f (vg0 v)) (f (vg1 v)) (f (vg2 v)) (vcyl v).
  Definition vmapM (f : grid -> res grid) (v : vgrid) : res vgrid :=
    let! a := f (vg0 v) in let! b := f (vg1 v) in let! c := f (vg2 v) in
    Val (mkV a b c (vcyl v)).

  (** vector_grid.rs 31-46 [velocity_calculation].  A cylindrical first grid always comes with
      its geometry ([vnew]); the uncentred [pos] is used together with the centred radius. *)
  Definition velocity_calculation (v : vgrid) (p u : v3 F) : v3 F :=
    match is_cylindrical (geo (vg0 v)), vcyl v with
    | true, Some y =>
        let '(r, _, _) := to_cylindrical y p in
        let '(p0, p1, _) := p in let '(u0, u1, u2) := u in
        ((p0 * u0 + p1 * u1) / r, (p0 * u1 - p1 * u0) / (p0 * p0 + p1 * p1), u2)
    | _, _ => u
    end.

  (** vector_grid.rs 108-173, 236-246: broadcast to the three grids. *)
  Definition v_add_value bld (v : vgrid) (p : pos3) (x : F) : res vgrid :=
    vmapM (fun g => add_value bld g p x) v.
  Definition v_divide_by_array (v : vgrid) (a : arr3 F) : res vgrid :=
    vmapM (fun g => divide_by_array g a) v.
  Definition v_divide_by_scalar (v : vgrid) (x : F) : vgrid :=
    vmap (fun g => divide_by_scalar g x) v.
  Definition v_divide_by_weight (v : vgrid) : res vgrid := vmapM divide_by_weight v.
  Definition v_insert bld (v : vgrid) (p : pos3) (x : F) : res vgrid :=
    vmapM (fun g => insert bld g p x) v.
  Definition v_add_to_cell (v : vgrid) (c : id3) (x : F) : res vgrid :=
    vmapM (fun g => add_to_cell g c x) v.
  Definition v_add_trajectory_value bld (v : vgrid) (p q : pos3) (x : F) : res vgrid :=
    vmapM (fun g => add_trajectory_value bld g p q x) v.
  Definition v_set_weights (v : vgrid) (a : arr3 F) : res vgrid :=
    vmapM (fun g => set_weights g a) v.
  Definition v_outlier_removal bld (v : vgrid) (thr : F) (mode : N) : res vgrid :=
    vmapM (fun g => outlier_removal bld g thr mode) v.
  (** vector_grid.rs 175-177: built from the first component. *)
  Definition v_new_zeros (v : vgrid) : vgrid := vnew (new_zeros (vg0 v)).
  Definition v_is_inside (v : vgrid) (p : pos3) : bool := is_inside (vg0 v) p.
  Definition v_cell_id bld (v : vgrid) (p : pos3) : res (option id3) := cell_id bld (vg0 v) p.
End Grid.

Arguments dim : clear implicits.
Arguments geom : clear implicits.
Arguments cart_geom : clear implicits.
Arguments cyl_geom : clear implicits.
Arguments grid : clear implicits.
Arguments vgrid : clear implicits.
Arguments pos3 : clear implicits.
Arguments lims : clear implicits.
