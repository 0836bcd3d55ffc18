(** * ConvModel: src/converter.rs, src/converter/convertertools.rs, src/converter/csv_modes/*.rs

    The parsed content of a CSV file is a table (list of rows), of a VTK file a record of named
    fields; the HDF5 file written is its logical content ([pfile] / [tfile] of DataModel) and its
    header attributes.  Not modelled: text and XML parsing, regular expressions, HDF5 storage,
    compression, progress bars, signal checks, printing ([print_debug!] is empty unless a feature
    is set).  [polyfit] and [powf] are parameters. *)
From Coq Require Import ZArith NArith String.
From Verif Require Import Base Num NDArray DataModel.

(** ** Sorting.  [slice::sort_by] is a stable sort; it is modelled by insertion sort, which gives
    the same list for every total preorder.  [le x y] is "not Greater"; it panics where
    [partial_cmp(..).unwrap()] does.  Like the library's sort it looks at every element as
    soon as there are two. *)
Section Sort.
  Context {A : Type} (le : A -> A -> res bool).
  Fixpoint insert (x : A) (l : list A) : res (list A) :=
    match l with
    | [] => Val [x]
    | y :: l' => let! b := le x y in
                 if b then Val (x :: y :: l') else let! r := insert x l' in Val (y :: r)
    end.
  Fixpoint isort (l : list A) : res (list A) :=
    match l with
    | [] => Val []
    | x :: l' => let! r := isort l' in insert x r
    end.
End Sort.

(** convertertools.rs 247-253 [make_sortlist]. *)
Definition make_sortlist (ids : list N) : res (list N) :=
  isort (fun i j => let! a := vget ids i in let! b := vget ids j in Val (a <=? b)%N) (range 0 (vlen ids)).

(** convertertools.rs 223-245 [sort_by_array]. *)
Definition sort_by_array {T} (data : list T) (idx : list N) : res (list T) :=
  if (vlen data =? vlen idx)%N then mmap (vget data) idx
  else let! l := mmap (fun i => let! a := vget data (3 * i) in let! b := vget data (3 * i + 1) in
                                let! c := vget data (3 * i + 2) in Val [a; b; c]) idx in
       Val (concat l).

(** csv_multi_idline.rs 441-449 [remove_columns], one row. *)
Definition remove_columns_row {T} (columns : list N) (row : list T) : list T :=
  map snd (filter (fun ix => negb (existsb (N.eqb (fst ix)) columns)) (enumerate row)).

Section Conv.
  Context {F : Type} {NF : Num F}.
  Local Open Scope num_scope.

  Definition table : Type := list (list F).
  (** [data[[i, j]]] *)
  Definition cell (t : table) (i j : N) : res F := let! r := vget t i in vget r j.

  (** convertertools.rs 255-272 [sort_by_column]. *)
  Definition sort_by_column (data : table) (column : N) : res table :=
    let! idx := isort (fun i j =>
        let! a := cell data i column in let! b := cell data j column in
        if nisnan a || nisnan b then Panic else Val (a <=? b)) (range 0 (vlen data)) in
    mmap (vget data) idx.

  (** convertertools.rs 274-279 [is_sorted]. *)
  Fixpoint is_sorted (l : list F) : bool :=
    match l with
    | a :: (b :: _) as l' => (a <=? b) && is_sorted l'
    | _ => true
    end.

  (** [data.column(j)] *)
  Definition column (t : table) (j : N) : res (list F) := mmap (fun r => vget r j) t.

  (** convertertools.rs 212-220 [interpolate_step]. *)
  Definition interpolate_step (time_old time_new time_current pos_old pos_new : F) : F :=
    pos_old + ((pos_new - pos_old) / (time_new - time_old)) * (time_current - time_old).

  (** convertertools.rs 50-78: the next value of [real_step]. *)
  Definition next_step (time : list F) (time_new : F) (rs : N) : res N :=
    let last := (vlen time - 1)%N in
    if negb (rs <? last)%N then Val rs else
    let! o := vget time rs in
    let! n := vget time (rs + 1) in
    if n <? o then Val (rs + 1)%N
    else if nabs (time_new - o) <? nabs (time_new - n) then Val rs
    else if negb (rs + 1 <? last)%N then Val (rs + 1)%N else
    let! o' := vget time (rs + 1) in
    let! n' := vget time (rs + 2) in
    if nabs (time_new - o') <? nabs (time_new - n') then Val (rs + 1)%N else Val (rs + 2)%N.

  (** convertertools.rs 83-113: the row for [time_new]. *)
  Definition interp_row (data : table) (time_new : F) (rs : N) : res (list F) :=
    let nan_row := [time_new; nnan; nnan; nnan] in
    if (vlen data - 1 <=? rs)%N then Val nan_row else
    let! t0 := cell data (rs - 1) 0 in
    let! t1 := cell data (rs + 1) 0 in
    if t0 =? t1 then Val nan_row else
    let! x0 := cell data (rs - 1) 1 in let! x1 := cell data (rs + 1) 1 in
    let! y0 := cell data (rs - 1) 2 in let! y1 := cell data (rs + 1) 2 in
    let! z0 := cell data (rs - 1) 3 in let! z1 := cell data (rs + 1) 3 in
    Val [time_new; interpolate_step t0 t1 time_new x0 x1; interpolate_step t0 t1 time_new y0 y1;
         interpolate_step t0 t1 time_new z0 z1].

  (** The first four entries of a row. *)
  Definition row4 (data : table) (i : N) : res (list F) :=
    let! t := cell data i 0 in let! x := cell data i 1 in
    let! y := cell data i 2 in let! z := cell data i 3 in Val [t; x; y; z].

  (** convertertools.rs 9-124 [interpolate]; [real_step] starts at 1 and only grows, so
      [real_step - 1] does not underflow.  No rows or no steps: index 0 is out of bounds. *)
  Definition interpolate (data : table) (max_time : F) (steps : N) : res table :=
    let! time := column data 0 in
    if negb (is_sorted time) then Panic else
    if (steps =? 0)%N then Panic else
    let dt := max_time / nofN steps in
    let! first := row4 data 0 in
    let! last := row4 data (vlen data - 1) in
    let zero := repeat (repeat n0 4) (N.to_nat steps) in
    let! a := vset zero 0 first in
    let! a := vset a (steps - 1) last in
    let! r := mfold (fun st step =>
        let '(a, rs) := st in
        let time_new := nofN step * dt in
        let! rs := next_step time time_new rs in
        let! row := interp_row data time_new rs in
        let! a := vset a step row in
        Val (a, rs)) (range 1 (steps - 1)) (a, 1%N) in
    Val (fst r).

  Section Fit.
    (** [polyfit_rs::polyfit(&x, &y, degree)]: coefficients, constant first; [Err] is [None]. *)
    Variable fit : list F -> list F -> N -> option (list F).
    (** [f64::powf] *)
    Variable powf : F -> F -> F.

    (** convertertools.rs 172-192: the derivative of the fitted polynomial, evaluated at
        [time[(sampling_steps - 1) / 2 + 1]]. *)
    Definition derivative (param : list F) (t : res F) : res F :=
      let! terms := mmap (fun np => let! x := t in
                           Val (snd np * nofN (fst np) * powf x (nofN (fst np) - n1))) (enumerate param) in
      Val (fold_left nadd terms n0).

    (** convertertools.rs 138-199: one output row; [h] is [(sampling_steps - 1) / 2]. *)
    Definition velocity_row (data : table) (h degree id : N) : res (list F) :=
      let seg := firstn (N.to_nat (2 * h + 1)) (skipn (N.to_nat (id - h)) data) in
      let! tm := column seg 0 in
      let! t0 := vget tm 0 in
      let time := map (fun t => t - t0) tm in
      let axis j := let! y := column seg j in
                    let! p := unwrap (fit time y degree) in
                    Val p in
      let! px := axis 1%N in let! py := axis 2%N in let! pz := axis 3%N in
      let at_ := vget time (h + 1) in
      let! vx := derivative px at_ in let! vy := derivative py at_ in let! vz := derivative pz at_ in
      let! row := row4 data id in
      Val (row ++ [vx; vy; vz]).

    (** convertertools.rs 126-210 [velocity_polynom].  The output rows are written in order, row
        [id - h] for [id] from [h]; a table too short for one window makes the subtraction
        (debug) or the allocation (release) panic.  Row [sampling_steps - 1 = n]: no rows. *)
    Definition velocity_polynom (data : table) (sampling_steps degree : N) : res table :=
      if N.even sampling_steps then Panic else
      let h := ((sampling_steps - 1) / 2)%N in
      if (vlen data <? sampling_steps - 1)%N then Panic else
      mmap (velocity_row data h degree) (range h (vlen data - h)).

    (** ** Header statistics *)

    (** [if x < lo { lo = x } else if x > hi { hi = x }] (converter.rs 228-232 and everywhere else). *)
    Definition span (r : F * F) (x : F) : F * F :=
      if x <? fst r then (x, snd r) else if snd r <? x then (fst r, x) else r.
    Definition span0 : F * F := (nmax, nmin).

    (** [velocity], [velocity_mag], [dimensions], [mean_counter]: converter.rs 147-176. *)
    Record acc : Type := mkAcc {
      a_vel : v3 (F * F); a_vsum : v3 F; a_mag : F * F; a_msum : F; a_dims : v3 (F * F); a_n : N }.
    Definition acc0 : acc :=
      mkAcc (span0, span0, span0) (n0, n0, n0) span0 n0 (span0, span0, span0) 0.
    Definition span3 (r : v3 (F * F)) (p : v3 F) : v3 (F * F) :=
      let '(r0, r1, r2) := r in let '(p0, p1, p2) := p in (span r0 p0, span r1 p1, span r2 p2).
    (** [vel.iter().map(|v| v * v).sum().sqrt()] *)
    Definition magnitude (v : v3 F) : F := let '(a, b, c) := v in nsqrt (a * a + b * b + c * c).
    (** converter.rs 222-246: the velocity part. *)
    Definition acc_vel (a : acc) (v : v3 F) : acc :=
      let '(s0, s1, s2) := a_vsum a in let '(v0, v1, v2) := v in
      mkAcc (span3 (a_vel a) v) (s0 + v0, s1 + v1, s2 + v2)
            (span (a_mag a) (magnitude v)) (a_msum a + magnitude v) (a_dims a) (a_n a).
    (** converter.rs 248-262: the position part. *)
    Definition acc_pos (a : acc) (p : v3 F) : acc :=
      mkAcc (a_vel a) (a_vsum a) (a_mag a) (a_msum a) (span3 (a_dims a) p) (a_n a).
    Definition acc_count (a : acc) (n : N) : acc :=
      mkAcc (a_vel a) (a_vsum a) (a_mag a) (a_msum a) (a_dims a) (a_n a + n).

    (** The attributes of the file; [velocity] rows are (min, mean, max). *)
    Record header : Type := mkHeader {
      h_dims : v3 F * v3 F; h_nparticles : N; h_timesteps : N; h_rate : F; h_time : F * F;
      h_vel : v3 (v3 F); h_mag : v3 F; h_times : list F }.
    (** converter.rs 315-373, the same in every converter. *)
    Definition mk_header (a : acc) (np nt : N) (rate : F) (time : F * F) (times : list F) : header :=
      let '(d0, d1, d2) := a_dims a in let '(r0, r1, r2) := a_vel a in let '(s0, s1, s2) := a_vsum a in
      let n := nofN (a_n a) in
      let mmm r s := (fst r, s / n, snd r) in
      mkHeader ((fst d0, fst d1, fst d2), (snd d0, snd d1, snd d2)) np nt rate time
               (mmm r0 s0, mmm r1 s1, mmm r2 s2) (mmm (a_mag a) (a_msum a)) times.

    (** ** The CSV line loop *)
    Definition MAX_FAILS : N := 500.
    Record wstate : Type := mkW {
      w_time : list F; w_pos : list (v3 F); w_vel : list (v3 F); w_fail : N; w_total : N;
      w_old : F; w_rate : F; w_tmax : F; w_acc : acc }.

    (** converter.rs 188-274, csv_multi_chain.rs 203-289, csv_multi_idline.rs 172-258: one line;
        [slot] is the row written.  The sample rate is taken after [old_time] was moved
        (lines 212 and 266). *)
    Definition csv_line (slot : N -> N -> res N) (w : wstate) (il : N * list F) : res wstate :=
      let '(i, line) := il in
      let! t := vget line 0 in
      if t <=? w_old w then
        if (MAX_FAILS <? w_fail w + 1)%N then Panic
        else Val (mkW (w_time w) (w_pos w) (w_vel w) (w_fail w + 1) (w_total w + 1)
                      (w_old w) (w_rate w) (w_tmax w) (w_acc w))
      else
        let! k := slot i (w_total w) in
        let! tm := vset (w_time w) k t in
        let! x := vget line 1 in let! y := vget line 2 in let! z := vget line 3 in
        let! ps := vset (w_pos w) k (x, y, z) in
        let! vx := vget line 4 in let! vy := vget line 5 in let! vz := vget line 6 in
        let! vs := vset (w_vel w) k (vx, vy, vz) in
        let a := acc_count (acc_pos (acc_vel (w_acc w) (vx, vy, vz)) (x, y, z)) 1 in
        let old := t in
        Val (mkW tm ps vs 0 (w_total w) old (t - old) (if w_tmax w <? t then t else w_tmax w) a).

    Definition zeros (n : N) : list F := repeat n0 (N.to_nat n).
    Definition zeros3 (n : N) : list (v3 F) := repeat (n0, n0, n0) (N.to_nat n).

    (** [s![.., c as usize]] (converter.rs 95): ndarray casts the index to [isize], so a negative
        column number survives and counts from the end of the row. *)
    Definition pick_cell (row : list F) (c : Z) : res F :=
      if (0 <=? c)%Z then vget row (Z.to_N c)
      else if (0 <=? Z.of_N (vlen row) + c)%Z then vget row (Z.to_N (Z.of_N (vlen row) + c)) else Panic.
    (** converter.rs 84-96: the requested columns, in the order asked for, then NaN up to width [w]. *)
    Definition pick_row (w : N) (columns : list Z) (row : list F) : res (list F) :=
      let! l := mmap (pick_cell row) columns in
      if (w <? vlen columns)%N then Panic else Val (l ++ repeat nnan (N.to_nat (w - vlen columns))).
    (** A file without rows is read as an array without columns, so any column is out of bounds. *)
    Definition pick (w : N) (columns : list Z) (data : table) : res table :=
      match data, columns with [], _ :: _ => Panic | _, _ => mmap (pick_row w columns) data end.
    Lemma pick_rows w columns data : data <> [] -> pick w columns data = mmap (pick_row w columns) data.
    Proof. destruct data; [congruence | reflexivity]. Qed.
    Lemma pick_val w columns data p : pick w columns data = Val p -> mmap (pick_row w columns) data = Val p.
    Proof. unfold pick. destruct data, columns; auto; discriminate. Qed.

    (** converter.rs 38-380 [csv_converter].  The [ppcloud] dataset (ones) is left out: the
        particle-ordered reader never looks at it.  Trimming happens at 278-280. *)
    Definition csv_converter (bld : build) (data : table) (columns : list Z) (vel interp : bool)
        (radius : F) (sampling_steps : N) : res (pfile F * header) :=
      if (vlen columns =? 0)%N then Panic else
      let! data := pick 7 columns data in
      let! tm := column data 0 in
      let! data := if is_sorted tm then Val data else sort_by_column data 0 in
      let! data :=
        if interp then
          let! t0 := cell data 0 0 in
          let! data := mmap (fun r => let! t := vget r 0 in vset r 0 (t - t0)) data in
          let! max_t := cell data (vlen data - 1) 0 in
          interpolate data max_t (vlen data)
        else Val data in
      let! data :=
        if vel then (if (5 <=? vlen columns)%N then Panic else velocity_polynom data sampling_steps 2)
        else Val data in
      let n := vlen data in
      let! v := cell data 0 6 in
      if nisnan v then Panic else
      let! w := mfold (csv_line (usub bld)) (enumerate data)
                  (mkW (zeros n) (zeros3 n) (zeros3 n) 0 0 n0 n0 n0 acc0) in
      let! keep := usub bld n (w_total w) in
      let times := firstn (N.to_nat keep) (w_time w) in
      let g := mkPg (Some (firstn (N.to_nat keep) (w_pos w))) (Some (firstn (N.to_nat keep) (w_vel w)))
                 (Some (repeat radius (N.to_nat n))) (Some (repeat n1 (N.to_nat n))) None
                 (Some times) (Some (repeat n1 (N.to_nat n))) in
      Val (mkPf (fun i => if (i =? 0)%N then Some g else None) 1 (vlen times),
           mk_header (w_acc w) 1 (vlen times) (w_rate w) (n0, w_tmax w) times).

    (** ** Several particles in one CSV *)

    (** csv_multi_idline.rs 155-305, csv_multi_chain.rs 178-331: the particles, each its own group,
        all sharing the header statistics.  Lines that are dropped leave zeros behind.
        [ids p] is the value of the [id] dataset, [ty] that of [particletype] if it is written. *)
    Record mstate : Type := mkM {
      m_acc : acc; m_groups : list (pgroup F); m_steps : N; m_rate : F; m_tmax : F; m_times : list F }.
    Definition write_particle (radius : F) (ids : N -> F) (ty : option F) (m : mstate) (pd : N * table)
      : res mstate :=
      let '(p, data) := pd in
      let n := vlen data in
      let! v := cell data 0 6 in
      if nisnan v then Panic else
      let! w := mfold (csv_line (fun i _ => Val i)) (enumerate data)
                  (mkW (zeros n) (zeros3 n) (zeros3 n) 0 0 n0 (m_rate m) (m_tmax m) (m_acc m)) in
      let g := mkPg (Some (w_pos w)) (Some (w_vel w)) (Some (repeat radius (N.to_nat n)))
                 (match ty with Some x => Some (repeat x (N.to_nat n)) | None => None end) None
                 (Some (w_time w)) (Some (repeat (ids p) (N.to_nat n))) in
      Val (mkM (w_acc w) (m_groups m ++ [g]) (N.max (m_steps m) n) (w_rate w) (w_tmax w) (w_time w)).
    (** The file; the header says one particle (csv_multi_idline.rs 326-331, csv_multi_chain.rs
        351-356).  [time_array] starts as 100 zeros. *)
    Definition write_particles (radius : F) (ids : N -> F) (ty : option F) (l : list table)
      : res (pfile F * header) :=
      let! m := mfold (write_particle radius ids ty) (enumerate l)
                  (mkM acc0 [] 0 n0 n0 (zeros 100)) in
      Val (mkPf (fun i => nth_error (m_groups m) (N.to_nat i)) 1 (m_steps m),
           mk_header (m_acc m) 1 (m_steps m) (m_rate m) (n0, m_tmax m) (m_times m)).

    (** csv_multi_idline.rs 375-402: the first pass of [sort_by_id]; ids with their number of rows
        in order of first appearance, the largest time, and [max_steps]. *)
    Fixpoint count_id (id : N) (l : list (N * N)) : list (N * N) * option N :=
      match l with
      | [] => ([(id, 1%N)], None)
      | (k, c) :: l' => if (k =? id)%N then ((k, (c + 1)%N) :: l', Some (c + 1)%N)
                        else let '(l'', o) := count_id id l' in ((k, c) :: l'', o)
      end.
    Definition scan_ids (data : table) : res (list (N * N) * F * N) :=
      let! t0 := cell data 0 0 in
      let! _ := cell data 0 1 in
      let! r := mfold (fun st row =>
          let '(ids, mint, maxt, steps) := st in
          let! idf := vget row 1 in
          let! t := vget row 0 in
          let '(mint, maxt) := if t <? mint then (t, maxt) else if maxt <? t then (mint, t) else (mint, maxt) in
          let '(ids, o) := count_id (nusize idf) ids in
          let steps := match o with Some c => if (steps <? c)%N then c else steps | None => steps end in
          Val (ids, mint, maxt, steps)) data ([], t0, t0, 0%N) in
      let '(ids, _, maxt, steps) := r in
      Val (ids, maxt, steps).
    (** csv_multi_idline.rs 365-438 [sort_by_id]: the ids sorted, then every row copied to the
        next free line of its id's array (zeros of the counted length). *)
    Fixpoint position (id : N) (l : list (N * N)) : option N :=
      match l with
      | [] => None
      | (k, _) :: l' => if (k =? id)%N then Some 0%N
                        else match position id l' with Some i => Some (i + 1)%N | None => None end
      end.
    Definition sort_by_id (data : table) : res (list table * F * N) :=
      let! r := scan_ids data in
      let '(ids, maxt, steps) := r in
      let! ids := isort (fun a b => Val (fst a <=? fst b)%N) ids in
      let blank := map (fun ic => repeat [n0; nofN (fst ic); n0; n0; n0; n0; n0; n0] (N.to_nat (snd ic))) ids in
      let! r := mfold (fun st row =>
          let '(out, lines) := st in
          let! idf := vget row 1 in
          let! k := unwrap (position (nusize idf) ids) in
          let! line := vget lines k in
          let! arr := vget out k in
          let! arr := vset arr line row in
          let! out := vset out k arr in
          let! lines := vset lines k (line + 1)%N in
          Val (out, lines)) data (blank, repeat 0%N (length ids)) in
      Val (fst r, maxt, steps).

    (** csv_multi_idline.rs 20-361 [csv_multi_idline]; without interpolation a row has seven
        columns after the id column is removed, with it four. *)
    Definition csv_multi_idline (data : table) (columns : list Z) (vel interp : bool) (radius : F)
      : res (pfile F * header) :=
      if negb ((vlen columns =? 5)%N || (vlen columns =? 8)%N) then Panic else
      let! data := pick 8 columns data in
      let! r := sort_by_id data in
      let '(parts, max_t, max_steps) := r in
      let! parts := mmap (fun arr =>
          let! d := sort_by_column arr 0 in
          let d := map (remove_columns_row [1%N]) d in
          let! d := if interp then interpolate d max_t max_steps else Val d in
          if vel then (if (5 <? vlen columns)%N then Panic else velocity_polynom d 9 2) else Val d) parts in
      write_particles radius nofN (Some n0) parts.

    (** csv_multi_chain.rs 66-89: the starts of the trajectories (a new one wherever the time
        drops), and the longest duration and row count among those that are followed by
        another one.  The list of starts ends with the number of rows. *)
    Definition chain_scan (tm : list F) : list N * F * N :=
      let '(starts, durs, steps, _) :=
        fold_left (fun st it =>
          let '(starts, durs, steps, old) := st in
          let '(i, t) := it in
          if (0 <? i)%N && (t <? old) then
            (starts ++ [i], durs ++ [old], steps ++ [(i - last starts 0)%N], t)
          else (starts, durs, steps, t)) (enumerate tm) ([0%N], [], [], n0) in
      (starts ++ [vlen tm],
       fold_left (fun a b => if b <? a then a else b) durs n0,
       fold_left (fun a b => if (b <? a)%N then a else b) steps 0%N).

    (** velocity_paralell.rs 8-107 [velocity_polynom_parallel] as called, with windows of seven rows
        and seven columns whatever [sampling_steps]: none on a table with fewer columns, which
        panics.  The rows are independent, so the order of evaluation does not matter. *)
    Definition velocity_parallel (data : table) (sampling_steps degree : N) : res table :=
      if N.even sampling_steps then Panic else
      let h := ((sampling_steps - 1) / 2)%N in
      let windows := map (fun i => firstn 7 (skipn (N.to_nat i) data)) (range 0 (vlen data - 6)) in
      let! rows := mmap (fun seg =>
          let! _ := cell seg 0 6 in
          let! tm := column seg 0 in
          let! t0 := vget tm 0 in
          let time := map (fun t => t - t0) tm in
          let axis j := let! y := column seg j in let! p := unwrap (fit time y degree) in Val p in
          let! px := axis 1%N in let! py := axis 2%N in let! pz := axis 3%N in
          let at_ := vget time (h + 1) in
          let! vx := derivative px at_ in let! vy := derivative py at_ in let! vz := derivative pz at_ in
          let! row := row4 seg h in
          Val (row ++ [vx; vy; vz])) windows in
      if (vlen rows =? 0)%N then Panic else Val rows.

    (** csv_multi_chain.rs 21-391 [csv_multi_chain].  [particles] counts the resets, so the loop
        at 91 stops before the last trajectory; the type dataset is written under the
        name [particleid] (313-322). *)
    Definition csv_multi_chain (data : table) (columns : list Z) (vel interp : bool) (radius : F)
      : res (pfile F * header) :=
      if (vlen columns =? 0)%N then Panic else
      let! data := pick 7 columns data in
      let! tm := column data 0 in
      let '(starts, dur, steps) := chain_scan tm in
      let! parts := mmap (fun ix =>
          let! a := vget starts ix in
          let! b := vget starts (ix + 1) in
          if (b - a <? 10)%N then Val [] else
          let d := firstn (N.to_nat (b - a)) (skipn (N.to_nat a) data) in
          let! d := if interp then (if vel then interpolate d dur steps else Panic) else Val d in
          let! d := if vel then
                      if (5 <=? vlen columns)%N then Panic
                      else if (vlen d <? 200000)%N then velocity_polynom d 9 2
                      else velocity_parallel d 9 2
                    else Val d in
          Val [d]) (range 0 (vlen starts - 2)) in
      write_particles radius (fun _ => n1) None (concat parts).

    (** converter.rs 382-434 [csv_multi_converter]: [None] means that nothing is written (a message is
        printed). *)
    Definition csv_multi_converter (data : table) (columns : list Z) (vel interp : bool) (radius : F)
        (mode : string) : res (option (pfile F * header)) :=
      if String.eqb mode "chain" then let! r := csv_multi_chain data columns vel interp radius in Val (Some r)
      else if String.eqb mode "id_line" then
        let! r := csv_multi_idline data columns vel interp radius in Val (Some r)
      else Val None.
  End Fit.

  (** ** One file per timestep *)

  Record tstate : Type := mkT {
    t_acc : acc; t_groups : list (tgroup F); t_np : N; t_time : F * F; t_times : list F; t_old : F;
    t_rate : F }.
  Definition finish (s : tstate) (nfiles : N) : tfile F * header :=
    (mkTf (fun i => nth_error (t_groups s) (N.to_nat i)) (t_np s) nfiles,
     mk_header (t_acc s) (t_np s) nfiles (t_rate s) (t_time s) (t_times s)).

  (** [Array::from_shape_vec((len / 3, 3), ..).unwrap()] and [axis_iter]. *)
  Fixpoint rows3 (l : list F) : res (list (v3 F)) :=
    match l with
    | [] => Val []
    | a :: b :: c :: l' => let! r := rows3 l' in Val ((a, b, c) :: r)
    | _ => Panic
    end.

  (** One VTK file: the step number in its name, its fields by name (read as u64 or f64;
      xmltools.rs 8-77 and legacytools.rs 2-31), the positions (xmltools.rs 79-141, legacytools.rs 33-53).
      The XML reader gives an empty list for an unknown field, the legacy reader panics:
      that is up to the two functions here. *)
  Record vtkfile : Type := mkVtk {
    vf_step : Z; vf_u64 : string -> res (list N); vf_f64 : string -> res (list F); vf_positions : res (list F) }.
  (** converter.rs 438-446, 870-876: the converter's settings. *)
  Record vtkcfg : Type := mkCfg {
    c_velocity : option string; c_id : option string; c_radius : option string;
    c_type : option string; c_diameter : option string }.

  (** converter.rs 626-790 (XML) and 1051-1212 (legacy): one file. *)
  Definition vtk_file (cfg : vtkcfg) (dt : F) (s : tstate) (kf : N * vtkfile) : res tstate :=
    let '(k, f) := kf in
    let t := nof (vf_step f) * dt in
    let time := if (k =? 0)%N then (t, snd (t_time s)) else t_time s in
    if t <? snd time then Panic else
    let time := (fst time, t) in
    let! name := unwrap (c_id cfg) in
    let! ids := vf_u64 f name in
    let! sl := make_sortlist ids in
    let! ids := sort_by_array ids sl in
    if (vlen ids =? 0)%N then Panic else
    let np := N.max (t_np s) (fold_left N.max ids 0%N) in
    let! radius :=
      match c_radius cfg, c_diameter cfg with
      | Some r, _ => let! l := vf_f64 f r in sort_by_array l sl
      | None, Some dm => let! l := vf_f64 f dm in sort_by_array (map (fun x => x * nlit 1 2) l) sl
      | None, None => Panic
      end in
    let! ty :=
      match c_type cfg with
      | Some n => let! l := vf_u64 f n in let! l := sort_by_array l sl in Val (map nofN l)
      | None => Val (map (fun _ => n1) radius)
      end in
    let! vname := unwrap (c_velocity cfg) in
    let! vel := vf_f64 f vname in
    let! vel := sort_by_array vel sl in
    let! vel := rows3 vel in
    let! pos := vf_positions f in
    let! pos := sort_by_array pos sl in
    let! pos := rows3 pos in
    let a := fold_left acc_pos pos (fold_left acc_vel vel (t_acc s)) in
    let g := mkTg (Some pos) (Some vel) (Some radius) None (Some (map (fun _ => n1) radius)) (Some t)
               (Some ty) (Some (map nofN ids)) in
    Val (mkT (acc_count a (vlen ids)) (t_groups s ++ [g]) np time (t_times s ++ [t]) t (t - t_old s)).

  (** converter.rs 585-856 (XML), 1010-1281 (legacy) [write_hdf5_from_files]. *)
  Definition vtk_converter (cfg : vtkcfg) (files : list vtkfile) (dt : F) : res (tfile F * header) :=
    if (vlen files =? 0)%N then Panic else
    let! s := mfold (vtk_file cfg dt) (enumerate files)
                (mkT acc0 [] 0 (n0, n0) [] n0 n0) in
    Val (finish s (vlen files)).

  (** csv_multi_file_time_step.rs 70-218: one file; columns are id, position, velocity.  The radius
      argument and [vel], [interpolate] are unused. *)
  Definition csv_step_file (times : list F) (columns : list Z) (s : tstate) (kd : N * table) : res tstate :=
    let '(k, data) := kd in
    let! t := vget times k in
    let time := (fst (t_time s), if snd (t_time s) <? t then t else snd (t_time s)) in
    let! rows := pick 7 columns data in
    let! ids := column rows 0 in
    let trip i r := let! a := vget r i in let! b := vget r (i + 1)%N in let! c := vget r (i + 2)%N in Val (a, b, c) in
    let! pos := mmap (trip 1%N) rows in
    let! vel := mmap (trip 4%N) rows in
    let a := fold_left acc_pos pos (fold_left acc_vel vel (t_acc s)) in
    let zero := map (fun _ => n0) ids in
    let g := mkTg (Some pos) (Some vel) (Some zero) None (Some zero) (Some t) (Some zero) (Some ids) in
    Val (mkT (acc_count a (vlen ids)) (t_groups s ++ [g]) (vlen ids) time (t_times s ++ [t]) t (t - t_old s)).
  (** csv_multi_file_time_step.rs 20-276 [csv_multi_file_time_step]. *)
  Definition csv_multi_file_time_step (files : list table) (columns : list Z) (times : list F)
    : res (tfile F * header) :=
    if negb ((vlen columns =? 4)%N || (vlen columns =? 7)%N) then Panic else
    let! s := mfold (csv_step_file times columns) (enumerate files)
                (mkT acc0 [] 0 (n0, n0) [] n0 n0) in
    Val (finish s (vlen files)).
End Conv.
Arguments table : clear implicits.
Arguments header : clear implicits.
Arguments vtkfile : clear implicits.
