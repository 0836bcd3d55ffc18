(** * VGridModel: the classes RustGrid and RustVectorGrid of the Python module

    Models the array methods and the printed summaries of src/pylib/libgrid.rs 222-634 (the
    constructors are in PyGridModel, [plot] in PlotModel).  Arrays handed to numpy are the model's
    arrays; the text around the numbers of a summary is left out. *)
From Coq Require Import Reals List NArith ZArith.
From Flocq Require Import IEEE754.BinarySingleNaN.
From Verif Require Import Base Num NDArray GridModel FunModel PyModel PlotModel.
Import ListNotations.

(** [f64::mul_add]: x * y + z with one rounding. *)
Class Fma (F : Type) : Type := nfma : F -> F -> F -> F.
#[global] Instance fma_f64 : Fma f64 := fun x y z => Bfma mode_NE x y z.
#[global] Instance fma_R : Fma R := fun x y z => (x * y + z)%R.

Section VGrid.
  Context {F : Type} {NF : Num F} {TF : Trig F} {WF : Wave F} {FF : Fma F}.

  (** What a summary shows: cells, limits, mean, deviation, least and largest number. *)
  Record summary : Type := mkSum {
    y_cells : id3; y_lim : lims F; y_mean : F; y_std : F; y_min : F; y_max : F }.

  (** libgrid.rs 437-466 [__str__], [__repr__] of RustGrid: [nan_mean], [nan_std] (utilities.rs 75-99)
      of the data in iteration order, ndarray-stats [min_skipnan], [max_skipnan]. *)
  Definition grid_str (g : grid F) : summary :=
    mkSum (geom_cells (geo g)) (geom_lim (geo g)) (nan_mean (flat3 (data g))) (nan_std (flat3 (data g)))
      (min_skipnan (flat3 (data g))) (max_skipnan (flat3 (data g))).

  (** ndarray [mean]: [None] for an empty array, then [expect] panics. *)
  Definition nd_mean (l : list F) : res F :=
    match l with [] => Panic | _ => Val (ndiv (nd_sum l) (nofN (vlen l))) end.
  (** ndarray 0.15 [std(1.)], called in libgrid.rs 611 and 629: [var] asserts that 1 is at most the
      number of cells, then runs Welford's recurrence over the cells, with a fused multiply-add. *)
  Definition welford (st : N * F * F) (x : F) : N * F * F :=
    let '(i, mean, sq) := st in
    let delta := nsub x mean in
    let mean' := nadd mean (ndiv delta (nofN (i + 1))) in
    ((i + 1)%N, mean', nfma (nsub x mean') delta sq).
  Definition nd_std (l : list F) : res F :=
    let n := nofN (vlen l) in
    if nltb n n1 then Panic
    else let '(_, _, sq) := fold_left welford l (0%N, n0, n0) in Val (nsqrt (ndiv sq (nsub n n1))).
  (** libgrid.rs 598-633 [__str__], [__repr__] of RustVectorGrid; [get_data], [get_cells], [get_limits]
      of a vector grid are those of its first component (vector_grid.rs 212-223). *)
  Definition vgrid_str (v : vgrid F) : res (id3 * lims F * F * F * F * F) :=
    let l := flat3 (data (vg0 v)) in
    let! m := nd_mean l in
    let! e := nd_std l in
    Val (geom_cells (geo (vg0 v)), geom_lim (geo (vg0 v)), m, e, min_skipnan l, max_skipnan l).

  (** libgrid.rs 498-508 [to_numpy], 509-528 [cell_positions], 529-531 [shape]. *)
  Definition vg_numpy (v : vgrid F) : arr3 F * arr3 F * arr3 F := (data (vg0 v), data (vg1 v), data (vg2 v)).
  Definition vg_positions (v : vgrid F) : list F * list F * list F :=
    (get_xpositions (vg0 v), get_ypositions (vg0 v), get_zpositions (vg0 v)).
  Definition vg_shape (v : vgrid F) : id3 := geom_cells (geo (vg0 v)).
  (** 533-553 [slice], 555-575 [slice_pos], 577-592 [collapse]: component by component. *)
  Definition vg_each (v : vgrid F) (f : grid F -> res (arr2 F)) : res (arr2 F * arr2 F * arr2 F) :=
    let! a := f (vg0 v) in let! b := f (vg1 v) in let! c := f (vg2 v) in Val (a, b, c).
  Definition vg_slice (v : vgrid F) (axis k : N) := vg_each v (fun g => slice_idx g axis k).
  Definition vg_slice_pos (v : vgrid F) (axis : N) (p : F) := vg_each v (fun g => slice g axis p).
  Definition vg_collapse (v : vgrid F) (axis : N) := vg_each v (fun g => collapse g axis).
End VGrid.
Arguments summary : clear implicits.
