(** * GridSpec: the vocabulary in which the grid properties are stated.

    Nothing here is used by the model; these definitions say what "inside", "only this
    cell changed", "the values that fell into this cell", "neighbour" and so on mean. *)
From Coq Require Import Reals List NArith ZArith Bool.
From Verif Require Import Base Num RFacts NDArray GridModel.

(** ** Positions and limits *)

(** [x] lies in the closed interval [l] (comparisons of the number type: false on NaN). *)
Definition within {F} {NF : Num F} (l : F * F) (x : F) : Prop :=
  nleb (fst l) x = true /\ nleb x (snd l) = true.
(** The position lies in the closed box. *)
Definition in_box {F} {NF : Num F} (l : lims F) (p : pos3 F) : Prop :=
  let '(l0, l1, l2) := l in let '(p0, p1, p2) := p in
  within l0 p0 /\ within l1 p1 /\ within l2 p2.
(** Every axis has between 1 and 2^53+1 cells. *)
Definition sized (cells : id3) : Prop :=
  let '(a, b, c) := cells in
  (1 <= a <= 2 ^ 53 + 1 /\ 1 <= b <= 2 ^ 53 + 1 /\ 1 <= c <= 2 ^ 53 + 1)%N.
(** No dimension reaches the modulus of usize. *)
Definition fits (sh : id3) : Prop :=
  let '(a, b, c) := sh in (a < usize_modulus /\ b < usize_modulus /\ c < usize_modulus)%N.
(** Lower limits below upper limits. *)
Definition proper (l : lims R) : Prop :=
  let '(l0, l1, l2) := l in (fst l0 < snd l0 /\ fst l1 < snd l1 /\ fst l2 < snd l2)%R.
(** Coordinate-wise order of positions and of cells. *)
Definition le3 {F} {NF : Num F} (p q : pos3 F) : Prop :=
  let '(p0, p1, p2) := p in let '(q0, q1, q2) := q in
  nleb p0 q0 = true /\ nleb p1 q1 = true /\ nleb p2 q2 = true.
Definition idle3 (c d : id3) : Prop :=
  let '(c0, c1, c2) := c in let '(d0, d1, d2) := d in (c0 <= d0 /\ c1 <= d1 /\ c2 <= d2)%N.
(** [n] as a real number. *)
Definition NR (n : N) : R := IZR (Z.of_N n).

(** ** Cells *)

(** The coordinate of a cell along an axis, and its two other coordinates in order. *)
Definition coord (axis : N) (c : id3) : N :=
  let '(i, j, k) := c in if (axis =? 0)%N then i else if (axis =? 1)%N then j else k.
Definition drop (axis : N) (c : id3) : N * N :=
  let '(i, j, k) := c in
  if (axis =? 0)%N then (j, k) else if (axis =? 1)%N then (i, k) else (i, j).
Definition id2_eqb (a b : N * N) : bool := ((fst a =? fst b) && (snd a =? snd b))%N.
(** The cells of a grid on one line along [axis], and on one plane orthogonal to [axis]. *)
Definition line (sh : id3) (axis : N) (ij : N * N) : list id3 :=
  filter (fun c => id2_eqb (drop axis c) ij) (ids3 sh).
Definition plane_cells (sh : id3) (axis k : N) : list id3 :=
  filter (fun c => (coord axis c =? k)%N) (ids3 sh).
(** The axis left over by two different axes. *)
Definition other_axis (a1 a2 : N) : N := (3 - a1 - a2)%N.
(** All indices of a matrix. *)
Definition ids2 (sh : N * N) : list (N * N) :=
  flat_map (fun i => map (fun j => (i, j)) (range 0 (snd sh))) (range 0 (fst sh)).
(** Two different cells that share a face, an edge or a corner. *)
Definition near (a b : N) : bool := ((a <=? b + 1) && (b <=? a + 1))%N.
Definition adjacent (c d : id3) : bool :=
  let '(i, j, k) := c in let '(i', j', k') := d in
  (near i i' && near j j' && near k k') && negb (id3_eqb c d).
(** A cell with a zero coordinate. *)
Definition on_lower_border (i : id3) : Prop :=
  let '(a, b, c) := i in a = 0%N \/ b = 0%N \/ c = 0%N.
(** The sum of all entries. *)
Definition total (a : arr3 R) : R := Rsum (map (at3 a) (ids3 (sh3 a))).

Section Spec.
  Context {F : Type} {NF : Num F} {TF : Trig F}.

  (** The grid is well formed: both arrays have the shape of the grid. *)
  Definition wf_grid (g : grid F) : Prop :=
    sh3 (data g) = geom_cells (geo g) /\ sh3 (weight g) = geom_cells (geo g).

  (** [g'] differs from [g] at most in cell [c], whose data and weight are [d] and [w]. *)
  Definition only_cell (g g' : grid F) (c : id3) (d w : F) : Prop :=
    geo g' = geo g /\ sh3 (data g') = sh3 (data g) /\ sh3 (weight g') = sh3 (weight g) /\
    at3 (data g') c = d /\ at3 (weight g') c = w /\
    forall c', c' <> c -> at3 (data g') c' = at3 (data g) c' /\ at3 (weight g') c' = at3 (weight g) c'.

  (** Does [p] fall in cell [c] of the geometry [ge]? *)
  Definition hits (bld : build) (ge : geom F) (c : id3) (pv : pos3 F * F) : bool :=
    match geom_cell_id bld ge (fst pv) with
    | Val (Some c') => id3_eqb c' c
    | _ => false
    end.
  (** The values of a history that fall in cell [c], in order. *)
  Definition hit_values (bld : build) (ge : geom F) (c : id3) (h : list (pos3 F * F)) : list F :=
    map snd (filter (hits bld ge c) h).
  (** A history of [add_value] calls. *)
  Definition add_all (bld : build) (h : list (pos3 F * F)) (g : grid F) : res (grid F) :=
    mfold (fun g pv => add_value bld g (fst pv) (snd pv)) h g.

  (** ** Operations as data, for statements about arbitrary histories. *)
  Inductive gop : Type :=
  | OpAdd (p : pos3 F) (v : F)
  | OpInsert (p : pos3 F) (v : F)
  | OpAddTo (c : id3) (v : F)
  | OpTraj (p q : pos3 F) (v : F)
  | OpDivArray (a : arr3 F)
  | OpDivScalar (x : F)
  | OpDivWeight
  | OpNewZeros
  | OpSetData (a : arr3 F)
  | OpSetWeights (a : arr3 F)
  | OpOutlier (thr : F) (mode : N).

  Definition gstep (bld : build) (g : grid F) (o : gop) : res (grid F) :=
    match o with
    | OpAdd p v => add_value bld g p v
    | OpInsert p v => insert bld g p v
    | OpAddTo c v => add_to_cell g c v
    | OpTraj p q v => add_trajectory_value bld g p q v
    | OpDivArray a => divide_by_array g a
    | OpDivScalar x => Val (divide_by_scalar g x)
    | OpDivWeight => divide_by_weight g
    | OpNewZeros => Val (new_zeros g)
    | OpSetData a => set_data g a
    | OpSetWeights a => set_weights g a
    | OpOutlier thr mode => outlier_removal bld g thr mode
    end.

  (** The divisor arrays used have the shape of the grid. *)
  Definition gop_ok (cells : id3) (o : gop) : Prop :=
    match o with OpDivArray a => sh3 a = cells | _ => True end.
End Spec.
Arguments gop : clear implicits.
