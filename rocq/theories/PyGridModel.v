(** * PyGridModel: the Python class [up4.Grid].

    Models up4/grid.py and the constructors of src/pylib/libgrid.rs 73-221.
    - A Python exception is [Val None] (its class and message are dropped), a Rust panic is
      [Panic], a grid is [Val (Some g)].
    - Arguments are typed: the [isinstance] checks of grid.py 63-113 (which only raise) are not
      modelled.  Numbers in [limits], [xlim], [ylim], [zlim] and [cell_size] are doubles;
      integers in these lists are taken to be exactly representable.
    - The printout of [num_cells] (line 122) is not modelled. *)
From Coq Require Import Reals ZArith NArith String.
From Flocq Require Import Core.Core IEEE754.BinarySingleNaN.
From Verif Require Import Base Num NDArray GridModel.

(** Python's [int(x)]: truncation; an exception for NaN and infinities. *)
Class PyInt (F : Type) : Type := { py_int : F -> option Z }.
#[global] Instance pyint_f64 : PyInt f64 :=
  { py_int x := if is_finite x then Some (Btrunc x) else None }.
#[global] Instance pyint_R : PyInt R := { py_int x := Some (Ztrunc x) }.

Section PyGrid.
  Context {F : Type} {NF : Num F} {TF : Trig F} {PF : PyInt F}.
  Local Open Scope num_scope.

  (** The numpy array [num_cells]: integers or floats. *)
  Inductive pycells : Type := CInt (l : list Z) | CFloat (l : list F).
  Definition cells_len (c : pycells) : nat := match c with CInt l => List.length l | CFloat l => List.length l end.

  Record gargs : Type := mkArgs {
    a_data : option (v3 F * v3 F);       (* min_position(), max_position(): pylib.rs 227-244 *)
    a_cells : option pycells;
    a_style : string;
    a_size : option (list F);
    a_limits : option (list F);
    a_x : option (list F); a_y : option (list F); a_z : option (list F) }.

  Fixpoint all_some {A B} (f : A -> option B) (l : list A) : option (list B) :=
    match l with
    | [] => Some []
    | a :: l' => match f a, all_some f l' with Some b, Some bs => Some (b :: bs) | _, _ => None end
    end.

  (** [np.asarray(.., dtype=np.int64)].  A float that does not fit raises, or becomes a negative
      number that the conversion to [usize] refuses: an exception either way. *)
  Definition int64 (z : Z) : option Z := if ((- 2 ^ 63 <=? z) && (z <? 2 ^ 63))%Z then Some z else None.
  Definition as_int64 (c : pycells) : option pycells :=
    match c with
    | CInt l => option_map CInt (all_some int64 l)
    | CFloat l => option_map CInt (all_some (fun x => match py_int x with Some z => int64 z | None => None end) l)
    end.
  (** PyO3: an argument of type [Vec<usize>]; a float is not an integer. *)
  Definition to_usizes (c : pycells) : option (list N) :=
    match c with
    | CFloat _ => None
    | CInt l => all_some (fun z => if ((0 <=? z) && (z <? 2 ^ 64))%Z then Some (Z.to_N z) else None) l
    end.

  (** grid.py 82-87, 90-95, 98-103. *)
  Definition lim_ok (o : option (list F)) : bool :=
    match o with
    | None => true
    | Some [lo; hi] => negb (hi <? lo)
    | Some _ => false
    end.
  (** grid.py 18-29, 162-173, 219-230: a given range replaces that of the data. *)
  Definition replaced (o : option (list F)) (lo hi : F) : F * F :=
    match o with Some [a; b] => (a, b) | _ => (lo, hi) end.
  Definition data_dim (a : gargs) (d : v3 F * v3 F) : lims F :=
    let '((x0, y0, z0), (x1, y1, z1)) := d in
    (replaced (a_x a) x0 x1, replaced (a_y a) y0 y1, replaced (a_z a) z0 z1).

  Definition count_along (l : F * F) (size : F) : option F :=
    match py_int ((snd l - fst l) / size) with Some z => Some (nof z) | None => None end.
  (** grid.py 16-48 [calc_num_cells]. *)
  Definition calc_num_cells (a : gargs) (s0 s1 s2 : F) : option pycells :=
    let counts l0 l1 l2 :=
      match count_along l0 s0, count_along l1 s1, count_along l2 s2 with
      | Some n0, Some n1, Some n2 => Some (CFloat [n0; n1; n2])
      | _, _, _ => None
      end in
    match a_data a with
    | Some d => let '(l0, l1, l2) := data_dim a d in counts l0 l1 l2
    | None =>
        match a_limits a with
        | Some (x0 :: x1 :: y0 :: y1 :: z0 :: z1 :: _) =>
            match counts (x0, x1) (y0, y1) (z0, z1) with Some c => as_int64 c | None => None end
        | Some _ => None
        | None =>
            match a_x a, a_y a, a_z a with
            | Some [x0; x1], Some [y0; y1], Some [z0; z1] =>
                as_int64 (CFloat [(x1 - x0) / s0; (y1 - y0) / s1; (z1 - z0) / s2])
            | _, _, _ => None
            end
        end
    end.

  (** libgrid.rs 74-88, 201-217 and 105-124, 162-182, once the cell numbers are converted. *)
  Definition rust_grid (style : string) (cells : option (list N)) (limit : list F) : res (option (grid F)) :=
    match cells with
    | None => Val None
    | Some [n0; n1; n2] =>
        match limit with
        | [x0; x1; y0; y1; z0; z1] =>
            let l := ThreeD ((x0, x1), (y0, y1), (z0, z1)) in
            let! g := (if String.eqb style "cartesian" then cart_new (n0, n1, n2) l else cyl_new (n0, n1, n2) l true) in
            Val (Some g)
        | _ => Panic
        end
    | Some _ => Panic
    end.
  Definition flat_lims (l : lims F) : list F :=
    let '(l0, l1, l2) := l in [fst l0; snd l0; fst l1; snd l1; fst l2; snd l2].
  Definition cast (c : pycells) : option (list N) :=
    match as_int64 c with Some c => to_usizes c | None => None end.

  Definition is_none {A} (o : option A) : bool := match o with None => true | Some _ => false end.

  (** grid.py 52-252 [Grid.__new__]. *)
  Definition py_grid (a : gargs) : res (option (grid F)) :=
    if negb (match a_cells a with Some c => Nat.eqb (cells_len c) 3 | None => true end) then Val None else   (* 76-79 *)
    if negb (lim_ok (a_x a) && lim_ok (a_y a) && lim_ok (a_z a))%bool then Val None else
    let cartesian := String.eqb (a_style a) "cartesian" in
    if negb (cartesian || String.eqb (a_style a) "cylindrical")%bool then Val None else   (* 109-110 *)
    match (match a_size a with                                              (* 114-121 *)
           | None => a_cells a
           | Some [s0; s1; s2] => calc_num_cells a s0 s1 s2
           | Some _ => None
           end) with
    | None => Val None
    | Some cells =>
        let raw := if cartesian then to_usizes cells else cast cells in
        let positive l := negb (existsb (fun x => x <? n0) l) in
        match a_data a, a_limits a with
        | None, Some l =>                                                   (* 131-136, 178-184, 235-241 *)
            if negb (is_none (a_x a) && is_none (a_y a) && is_none (a_z a))%bool then Val None
            else if positive l then rust_grid (a_style a) raw l else Val None
        | None, None =>                                                     (* 126-129, 185-187, 242-246 *)
            match a_x a, a_y a, a_z a with
            | Some [x0; x1], Some [y0; y1], Some [z0; z1] => rust_grid (a_style a) raw [x0; x1; y0; y1; z0; z1]
            | _, _, _ => Val None
            end
        | Some d, None => rust_grid (a_style a) (cast cells) (flat_lims (data_dim a d)) (* 140-149, 159-176, 196-205, 216-233 *)
        | Some d, Some l =>                                                 (* 152-157, 208-214 *)
            if positive l then rust_grid (a_style a) raw l else Val None
        end
    end.

  (** libgrid.rs 229-231 [is_inside] with a list of numbers, 484-486 [cell_id]. *)
  Definition py_inside (g : grid F) (p : list F) : res bool :=
    match p with x :: y :: z :: _ => Val (is_inside g (x, y, z)) | _ => Panic end.
  Definition py_cell_id (bld : build) (g : grid F) (x y z : F) : res id3 :=
    let! o := cell_id bld g (x, y, z) in unwrap o.
End PyGrid.
Arguments gargs : clear implicits.
Arguments pycells : clear implicits.
