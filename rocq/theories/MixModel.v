(** * MixModel: src/functions/mixing.rs (trait Mixing) *)
From Coq Require Import ZArith NArith String List.
From Verif Require Import Base Num NDArray GridModel SelModel DataModel FunModel.

Section Mix.
  Context {F : Type} {NF : Num F} {TF : Trig F}.
  Local Open Scope num_scope.
  Variable bld : build.
  Variable M : mgr F.

  (** mixing.rs 80-84, 175-179: one particle of type [y] at [p] into the grid of its type. *)
  Definition add_typed (ta tb : N) (ab : grid F * grid F) (p : v3 F) (y : N) : res (grid F * grid F) :=
    if (y =? ta)%N then let! a := add_value bld (fst ab) p n1 in Val (a, snd ab)
    else if (y =? tb)%N then let! b := add_value bld (snd ab) p n1 in Val (fst ab, b)
    else Val ab.

  (** mixing.rs 121-194 [concentration_field]. *)
  Definition concentration_field (d : ms M) (g : grid F) (s : selector F) (ta tb : N) : res (ms M * grid F) :=
    let! l := steps_but bld M 1 in
    let! r := loop_pure M s (fun ab x => loop_particles s x (fun ab i p =>
        if nan3 p then Val ab else
        if negb (is_inside g p) then Val ab else
        let! y := vget (ts_type x) i in
        add_typed ta tb ab p (nusize y)) ab) l (d, (new_zeros g, new_zeros g)) in
    let '(d', (a, b)) := r in
    let! ab := zip3 nadd (data a) (data b) in
    let! q := zip3 ndiv (data a) ab in
    let! h := set_data (new_zeros g) q in
    let! w := zip3 nadd (weight a) (weight b) in
    let! h := set_weights h w in
    Val (d', h).

  (** mixing.rs 56-59: the counter of type [y], growing the vector on demand.  [y + 2] must be a
      usize, otherwise the resize or the index panics; memory is taken to be unlimited. *)
  Definition count_type (tc : list N) (y : N) : res (list N) :=
    if (usize_modulus <=? y + 2)%N then Panic else
    let tc := if (vlen tc <=? y)%N then (tc ++ repeat 0 (N.to_nat (y + 2 - vlen tc)))%N%list else tc in
    let! n := vget tc y in
    vset tc y (n + 1)%N.

  (** mixing.rs 87-112: the index of one timestep from its two grids and the counters. *)
  Definition lacey_value (a b : grid F) (ca cb : N) (threshold : N) : res F :=
    let! ab := zip3 nadd (data b) (data a) in
    let! a' := divide_by_array a ab in
    let conc := data a' in
    let mean := nofN ca / nofN (ca + cb) in
    let! num := zip3 nadd (weight a') (weight b) in
    let cells := ids3 (sh3 conc) in
    let dev := fold_left (fun acc c =>
        if at3 num c <? nofN threshold then acc
        else if nisnan (at3 conc c) then acc
        else acc + sq (at3 conc c - mean)) cells n0 in
    let n := nofN (vlen cells) in
    let var := dev / (n - n1) in
    let smax := nsqrt (mean * (n1 - mean)) in
    let smin := nsqrt (mean * (n1 - mean) / n) in
    Val ((sq smax - var) / (sq smax - sq smin)).

  (** mixing.rs 45-85: one timestep. *)
  Definition lacey_counts (g : grid F) (s : selector F) (ta tb : N) (x : timestep F) : res (list N * (grid F * grid F)) :=
    loop_particles s x (fun st i p =>
      let! y := vget (ts_type x) i in
      let! tc := count_type (fst st) (nusize y) in
      if nan3 p then Val (tc, snd st) else
      if negb (is_inside g p) then Val (tc, snd st) else
      let! ab := add_typed ta tb (snd st) p (nusize y) in
      Val (tc, ab)) ([], (new_zeros g, new_zeros g)).
  Definition lacey_step (g : grid F) (s : selector F) (ta tb threshold : N) (x : timestep F) : res F :=
    let! r := lacey_counts g s ta tb x in
    let '(tc, (a, b)) := r in
    let! ca := vget tc ta in
    let! cb := vget tc tb in
    lacey_value a b ca cb threshold.

  (** mixing.rs 8-119 [lacey_mixing]: (time, mixing). *)
  Definition lacey_mixing (d : ms M) (g : grid F) (s : selector F) (ta tb threshold : N)
    : res (ms M * (list F * list F)) :=
    let! n := usub bld (st_timesteps (m_stats M)) 1 in
    let zs := repeat n0 (N.to_nat n) in
    loop_ts M s (fun st t x =>
      let! v := lacey_step g s ta tb threshold x in
      let! mix := vset (snd (snd st)) t v in
      let! time := vset (fst (snd st)) t (ts_time x) in
      Val (fst st, (time, mix))) (range 0 n) (d, (zs, zs)).

  (** mixing.rs 262-266: distance between two positions. *)
  Definition distance (p q : v3 F) : F :=
    let '(p0, p1, p2) := p in let '(q0, q1, q2) := q in
    nsqrt (sq (p0 - q0) + sq (p1 - q1) + sq (p2 - q2)).

  (** mixing.rs 196-293 [msd_field].  The element-wise loop of 278-288 zips two arrays of the
      shape of the grid and rebuilds an array of that shape. *)
  Definition msd_field (d : ms M) (g : grid F) (s : selector F) (dt : F) : res (ms M * grid F) :=
    let! d0 := m_setup M d 0 in
    let! l := steps_but bld M 1 in
    let! r := loop_ts M s (fun st _ x =>
        let '(d, h) := st in
        let ta := st_time (m_stats M) in
        match closest bld (length ta) ta (ts_time x + dt) with
        | None | Some Panic => Panic
        | Some (Val None) => Val (d, h)
        | Some (Val (Some t')) =>
            let! r := m_getb M d t' 0 in
            let '(d1, y) := r in
            let! h' := loop_particles s x (fun h i p =>
              if negb (is_inside g p) then Val h else
              let! q := vget (ts_pos y) i in
              add_value bld h p (distance p q)) h in
            Val (d1, h')
        end) l (d0, new_zeros g) in
    let '(d', h) := r in
    let! q := zip3 (fun x y => if n0 <? y then x * x / y else n0) (data h) (weight h) in
    if negb (id3_eqb (sh3 q) (geom_cells (geo g))) then Panic else
    let! g1 := set_data g q in
    let! g2 := set_weights g1 (weight h) in
    Val (d', g2).

  (** [Array1::linspace] (ndarray): start + i * (end - start) / (n - 1). *)
  Definition linspace (a b : F) (n : N) : list F :=
    let step := if (1 <? n)%N then (b - a) / nofN (n - 1) else n0 in
    map (fun i => a + step * nofN i) (range 0 n).

  (** mixing.rs 305-311. *)
  Definition weighted_mean (g : grid F) : F :=
    fold_left (fun acc c => acc + at3 (data g) c * at3 (weight g) c) (ids3 (geom_cells (geo g))) n0 /
    fold_left (fun acc c => acc + at3 (weight g) c) (ids3 (geom_cells (geo g))) n0.
  (** mixing.rs 295-316 [msd]: (msd, time). *)
  Definition msd (d : ms M) (g : grid F) (s : selector F) (tmin tmax : F) (steps : N)
    : res (ms M * (list F * list F)) :=
    let time := linspace tmin tmax steps in
    let! r := mfold (fun st t =>
        let! r := msd_field (fst st) g s t in
        Val (fst r, snd st ++ [weighted_mean (snd r)])%list) time (d, []) in
    Val (fst r, (snd r, time)).
End Mix.
