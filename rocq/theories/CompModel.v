(** * CompModel: src/comparison.rs, comparing two data sets

    [binary_threshold] is in PyModel. *)
From Coq Require Import List NArith ZArith Bool.
From Verif Require Import Base Num NDArray GridModel SelModel DataModel FunModel PyModel.
Import ListNotations.
Local Open Scope list_scope.

Section Comp.
  Context {F : Type} {NF : Num F} {TF : Trig F}.
  Local Open Scope num_scope.
  Variable bld : build.
  (** The two data managers; their state is what is buffered. *)
  Variables M1 M2 : mgr F.

  (** comparison.rs 7-13. *)
  Record comparer : Type := mkCmp { k_data : ms M1; k_grid : grid F; k_data2 : ms M2; k_grid2 : grid F; k_aligned : bool }.

  (** comparison.rs 15-28 [Comparison::compare]. *)
  Definition compare (d1 : ms M1) (d2 : ms M2) (g : grid F) : comparer := mkCmp d1 g d2 g false.

  (** [f64::max]: a NaN is ignored. *)
  Definition fmax2 (a b : F) : F := if nisnan a then b else if nisnan b then a else if a <? b then b else a.

  (** comparison.rs 48-61: rows 0 (lowest) and 1 (highest) of [dimensions()]. *)
  Definition sizes (dims : v3 F * v3 F) : v3 F :=
    let '((x0, y0, z0), (x1, y1, z1)) := dims in (x1 - x0, y1 - y0, z1 - z0).
  (** comparison.rs 63-69. *)
  Definition adjustment (size size2 : v3 F) : F :=
    let '(s, _, _) := size in let '(s2, _, _) := size2 in
    if nof 800 <? s / s2 then nof 1000 else if nof 800 <? s2 / s then n1 / nof 1000 else n1.
  (** comparison.rs 74-76. *)
  Definition system_size (size size2 : v3 F) (adj : F) : v3 F :=
    let '(sx, sy, sz) := size in let '(tx, ty, tz) := size2 in
    (fmax2 sx (tx * adj), fmax2 sy (ty * adj), fmax2 sz (tz * adj)).
  (** comparison.rs 79-103: the lower corner is kept. *)
  Definition dims1 (dims : v3 F * v3 F) (m : v3 F) : v3 F * v3 F :=
    let '((x0, y0, z0), _) := dims in let '(mx, my, mz) := m in ((x0, y0, z0), (x0 + mx, y0 + my, z0 + mz)).
  Definition dims2 (dims : v3 F * v3 F) (m : v3 F) (adj : F) : v3 F * v3 F :=
    let '((x0, y0, z0), _) := dims in let '(mx, my, mz) := m in ((x0, y0, z0), (x0 + mx * adj, y0 + my * adj, z0 + mz * adj)).
  (** comparison.rs 116-122. *)
  Definition moved (dims : v3 F * v3 F) (o : v3 F) : v3 F * v3 F :=
    let '((x0, y0, z0), (x1, y1, z1)) := dims in let '(ox, oy, oz) := o in
    ((x0 + ox, y0 + oy, z0 + oz), (x1 + ox, y1 + oy, z1 + oz)).

  (** comparison.rs 161-187 [make_grid]. *)
  Definition make_grid (dims : v3 F * v3 F) (cartesian : bool) (cells : id3) : res (grid F) :=
    let '((x0, y0, z0), (x1, y1, z1)) := dims in
    let d := ThreeD ((x0, x1), (y0, y1), (z0, z1)) in
    if cartesian then cart_new cells d else cyl_new cells d true.
  (** comparison.rs 37-43. *)
  Definition is_cartesian (g : grid F) : bool := match geo g with Cart _ => true | Cyl _ => false end.

  (** comparison.rs 105-113: [(-steps / 2..steps / 2).map(|x| x as f64 * move_)] for each axis, nested. *)
  Definition half_steps (steps : Z) : list Z := map (fun k => (Z.of_N k - steps / 2)%Z) (range 0 (Z.to_N (2 * (steps / 2)))).
  Definition step_of (size : F) (steps : Z) : F := (size / n2) / nof steps.
  Definition offsets_of (size : v3 F) (steps : Z) : list (v3 F) :=
    let '(sx, sy, sz) := size in
    flat_map (fun i => flat_map (fun j => map (fun k =>
      (nof i * step_of sx steps, nof j * step_of sy steps, nof k * step_of sz steps))
      (half_steps steps)) (half_steps steps)) (half_steps steps).

  (** comparison.rs 132-135: the arrays have the same shape; a sum of f64 starts at 0. *)
  Definition difference (a b : arr3 F) : F :=
    fold_left nadd (map (fun c => nabs (at3 a c - at3 b c)) (ids3 (sh3 a))) n0.

  (** comparison.rs 115-143: one offset.  The state is the two managers, [old_diff], [best_offset] and
      what was printed (best offset, difference), one entry for each offset. *)
  Record scan : Type := mkScan { c_d1 : ms M1; c_d2 : ms M2; c_old : F; c_best : v3 F; c_out : list (v3 F * F) }.
  Definition try_offset (cells : id3) (cartesian : bool) (q : F) (e1 e2 : v3 F * v3 F) (s : scan) (o : v3 F) : res scan :=
    let! g1 := make_grid (moved e1 o) cartesian cells in
    let! g2 := make_grid e2 cartesian cells in
    let! r1 := numberfield bld M1 (c_d1 s) g1 sel_default in
    let! r2 := numberfield bld M2 (c_d2 s) g2 sel_default in
    let! b1 := binary_threshold (data (snd r1)) q in
    let! b2 := binary_threshold (data (snd r2)) q in
    let diff := difference b1 b2 in
    let '(old, best) := if diff <? c_old s then (diff, o) else (c_old s, c_best s) in
    Val (mkScan (fst r1) (fst r2) old best (c_out s ++ [(best, diff)])).

  (** comparison.rs 33-146 [align] with the constants [steps] and [cells] as parameters; the result is the
      comparer afterwards and what was printed.  [f64::INFINITY] is 1/0. *)
  Definition align_with (steps : Z) (cells : id3) (c : comparer) : res (comparer * list (v3 F * F)) :=
    let size := sizes (st_dims (m_stats M1)) in
    let size2 := sizes (st_dims (m_stats M2)) in
    let adj := adjustment size size2 in
    let m := system_size size size2 adj in
    let e1 := dims1 (st_dims (m_stats M1)) m in
    let e2 := dims2 (st_dims (m_stats M2)) m adj in
    let! s := mfold (try_offset cells (is_cartesian (k_grid c)) (nlit 1 100) e1 e2) (offsets_of size steps)
                (mkScan (k_data c) (k_data2 c) (n1 / n0) (n0, n0, n0) []) in
    Val (mkCmp (c_d1 s) (k_grid c) (c_d2 s) (k_grid2 c) (k_aligned c), c_out s).
  Definition align : comparer -> res (comparer * list (v3 F * F)) := align_with 100 (100, 100, 100)%N.
End Comp.
Arguments mkCmp {F M1 M2}. Arguments k_data {F M1 M2}. Arguments k_grid {F M1 M2}. Arguments k_data2 {F M1 M2}. Arguments k_grid2 {F M1 M2}. Arguments k_aligned {F M1 M2}.
Arguments mkScan {F M1 M2}. Arguments c_d1 {F M1 M2}. Arguments c_d2 {F M1 M2}. Arguments c_old {F M1 M2}. Arguments c_best {F M1 M2}. Arguments c_out {F M1 M2}.
