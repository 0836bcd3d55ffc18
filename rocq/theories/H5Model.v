(** * H5Model: the HDF5 file while it is written and when it is opened

    The converters (src/converter.rs, src/converter/csv_modes/*.rs) as programs of HDF5 calls on named
    attributes, groups and datasets, which can be interrupted between any two calls, and the
    readers (pdata.rs 40-79, 925-1060, tdata.rs 38-75, 903-1040, pylib.rs 116-145) as look-ups by name.

    The calls of the [hdf5] crate are taken to be atomic and to take effect in program order (a panic
    unwinds and closes the file).  A call that creates something fails if the name is taken.  The
    numbers computed on the way are those of ConvModel. *)
From Coq Require Import List NArith ZArith Bool String DecimalString DecimalN.
From Verif Require Import Base Num NDArray SelModel DataModel FunModel ConvModel PyModel.
Local Open Scope list_scope.

(** [format!("{} {}", word, n)] *)
Definition numbered (word : string) (n : N) : string :=
  append word (append " " (NilEmpty.string_of_uint (N.to_uint n))).

Section H5.
  Context {F : Type} {NF : Num F}.

  (** What an attribute or a dataset holds: an integer, a number, a vector, or rows of three. *)
  Inductive item : Type := INat (n : N) | INum (x : F) | IVec (l : list F) | IRows (l : list (v3 F)).
  Definition names : Type := string -> option item.
  Definition no_names : names := fun _ => None.
  Definition put {A} (m : string -> option A) (k : string) (v : A) : string -> option A :=
    fun k' => if String.eqb k k' then Some v else m k'.

  (** The attributes of the root, its datasets, and its groups with their datasets. *)
  Record h5 : Type := mkH5 { x_attrs : names; x_sets : names; x_groups : string -> option names }.
  Definition h5_empty : h5 := mkH5 no_names no_names (fun _ => None).

  (** The output file, if there is one, and how many further calls are made before the program is
      interrupted ([None]: it is not). *)
  Record world : Type := mkWorld { w_disk : option h5; w_left : option nat }.
  Definition io (A : Type) : Type := world -> world * res A.
  Definition ret {A} (a : A) : io A := fun w => (w, Val a).
  (** A computation between two calls; if it panics the file stays as it is. *)
  Definition lift {A} (r : res A) : io A := fun w => (w, r).
  Definition ibind {A B} (m : io A) (k : A -> io B) : io B :=
    fun w => match m w with (w', Val a) => k a w' | (w', Panic) => (w', Panic) end.
  (** One HDF5 call. *)
  Definition call (f : option h5 -> res h5) : io unit :=
    fun w => match w_left w with
             | Some O => (w, Panic)
             | l => match f (w_disk w) with
                    | Val d => (mkWorld (Some d) (option_map Nat.pred l), Val tt)
                    | Panic => (w, Panic)
                    end
             end.
  Fixpoint ifold {S A} (f : S -> A -> io S) (l : list A) (s : S) : io S :=
    match l with [] => ret s | a :: l' => ibind (f s a) (fun s' => ifold f l' s') end.

  (** [File::create]: truncates an existing file. *)
  Definition file_create : io unit := call (fun _ => Val h5_empty).
  Definition on_file (f : h5 -> res h5) : io unit := call (fun d => let! d := unwrap d in f d).
  Definition fresh_name {A} (m : string -> option A) (k : string) : res unit :=
    match m k with None => Val tt | Some _ => Panic end.
  (** [new_attr_builder().with_data(v).create(k)], and [new_attr().create(k)] with [v] the initial value. *)
  Definition attr_create (k : string) (v : item) : io unit :=
    on_file (fun d => let! _ := fresh_name (x_attrs d) k in Val (mkH5 (put (x_attrs d) k v) (x_sets d) (x_groups d))).
  (** [write_scalar] on an attribute just created. *)
  Definition attr_write (k : string) (v : item) : io unit :=
    on_file (fun d => let! _ := unwrap (x_attrs d k) in Val (mkH5 (put (x_attrs d) k v) (x_sets d) (x_groups d))).
  Definition attr_scalar (k : string) (v : item) : io unit := ibind (attr_create k (INat 0)) (fun _ => attr_write k v).
  (** Groups and datasets of the root share their names. *)
  Definition group_create (k : string) : io unit :=
    on_file (fun d => let! _ := fresh_name (x_groups d) k in let! _ := fresh_name (x_sets d) k in
                      Val (mkH5 (x_attrs d) (x_sets d) (put (x_groups d) k no_names))).
  Definition root_set (k : string) (v : item) : io unit :=
    on_file (fun d => let! _ := fresh_name (x_groups d) k in let! _ := fresh_name (x_sets d) k in
                      Val (mkH5 (x_attrs d) (put (x_sets d) k v) (x_groups d))).
  Definition set_create (g k : string) (v : item) : io unit :=
    on_file (fun d => let! m := unwrap (x_groups d g) in let! _ := fresh_name m k in
                      Val (mkH5 (x_attrs d) (x_sets d) (put (x_groups d) g (put m k v)))).
  Definition set_write (g k : string) (v : item) : io unit :=
    on_file (fun d => let! m := unwrap (x_groups d g) in let! _ := unwrap (m k) in
                      Val (mkH5 (x_attrs d) (x_sets d) (put (x_groups d) g (put m k v)))).
  Notation "'do' x <- m ;; k" := (ibind m (fun x => k)) (at level 200, x pattern, m at level 99, k at level 200, right associativity).
  Notation "m ;; k" := (ibind m (fun _ => k)) (at level 100, k at level 200, right associativity).

  (** The value an integer attribute holds after an [f64] was written to it, read back as [f64]
      (HDF5's own conversion, a parameter here). *)
  Context (as_u64 : F -> F).

  Definition rows_of3 (v : v3 (v3 F)) : list (v3 F) := let '(a, b, c) := v in [a; b; c].
  Definition vec_of3 (v : v3 F) : list F := let '(a, b, c) := v in [a; b; c].

  (** converter.rs 334-377, 810-853, 1234-1277, csv_multi_idline.rs 320-363, csv_multi_chain.rs
      348-391, csv_multi_file_time_step.rs 221-264: the attributes, then the dataset [time array]. *)
  Definition header_io (h : header F) : io unit :=
    attr_create "dimensions" (IRows [fst (h_dims h); snd (h_dims h)]) ;;
    attr_scalar "particle number" (INat (h_nparticles h)) ;;
    attr_scalar "timesteps" (INat (h_timesteps h)) ;;
    attr_scalar "sample rate" (INum (as_u64 (h_rate h))) ;;
    attr_create "time" (IVec [fst (h_time h); snd (h_time h)]) ;;
    attr_create "velocity" (IRows (rows_of3 (h_vel h))) ;;
    attr_create "velocity magnitude" (IVec (vec_of3 (h_mag h))) ;;
    root_set "time array" (IVec (h_times h)).

  (** converter.rs 55-63 and the same elsewhere: a new file with its type. *)
  Definition new_file (ty : N) : io unit := file_create ;; attr_scalar "hdf5_up4_type" (INat ty).

  (** ** Converters to particle-ordered files *)
  Section Fit.
    Context (fit : list F -> list F -> N -> option (list F)) (powf : F -> F -> F).

    (** converter.rs 281-321, csv_multi_idline.rs 261-305, csv_multi_chain.rs 289-333: the datasets of
        one particle, [ty] the name and contents of the one for the type. *)
    Definition particle_io (g : string) (tm ids radius clouds : list F) (ty : string * list F) (vel pos : list (v3 F)) : io unit :=
      set_create g "time" (IVec tm) ;;
      set_create g "id" (IVec ids) ;;
      set_create g "radius" (IVec radius) ;;
      set_create g "ppcloud" (IVec clouds) ;;
      set_create g (fst ty) (IVec (snd ty)) ;;
      set_create g "velocity" (IRows vel) ;;
      set_create g "position" (IRows pos).

    (** converter.rs 79-141: the table from which the file is written. *)
    Definition csv_prep (data : table F) (columns : list Z) (vel interp : bool) (sampling_steps : N) : res (table F) :=
      if (vlen columns =? 0)%N then Panic else
      let! data := pick 7 columns data in
      let! tm := column data 0 in
      let! data := if is_sorted tm then Val data else sort_by_column data 0 in
      let! data :=
        if interp then
          let! t0 := cell data 0 0 in
          let! data := mmap (fun r => let! t := vget r 0 in vset r 0 (nsub t t0)) data in
          let! max_t := cell data (vlen data - 1) 0 in
          interpolate data max_t (vlen data)
        else Val data in
      if vel then (if (5 <=? vlen columns)%N then Panic else velocity_polynom fit powf data sampling_steps 2) else Val data.
    (** converter.rs 185-280: the lines. *)
    Definition csv_lines (bld : build) (data : table F) : res (wstate * N) :=
      let n := vlen data in
      let! v := cell data 0 6 in
      if nisnan v then Panic else
      let! w := mfold (csv_line (usub bld)) (enumerate data)
                  (mkW (zeros n) (zeros3 n) (zeros3 n) 0 0 n0 n0 n0 acc0) in
      let! keep := usub bld n (w_total w) in Val (w, keep).
    (** converter.rs 38-380 [csv_converter]; [found]: the CSV file exists; [read]: what the CSV reader
        makes of it. *)
    Definition csv_prog (bld : build) (found : bool) (read : res (table F)) (columns : list Z) (vel interp : bool)
        (radius : F) (sampling_steps : N) : io unit :=
      if negb found then lift Panic else
      new_file 2 ;;
      do data <- lift read ;;
      do data <- lift (csv_prep data columns vel interp sampling_steps) ;;
      let n := vlen data in
      group_create (numbered "particle" 0) ;;
      do (w, keep) <- lift (csv_lines bld data) ;;
      let times := firstn (N.to_nat keep) (w_time w) in
      let ones := repeat n1 (N.to_nat n) in
      particle_io (numbered "particle" 0) times ones (repeat radius (N.to_nat n)) ones ("particletype"%string, ones)
        (firstn (N.to_nat keep) (w_vel w)) (firstn (N.to_nat keep) (w_pos w)) ;;
      header_io (mk_header (w_acc w) 1 (vlen times) (w_rate w) (n0, w_tmax w) times).

    (** csv_multi_idline.rs 149-306, csv_multi_chain.rs 177-334: one particle; [types n]: the name
        and contents of the dataset for the type. *)
    Definition multi_io (radius : F) (ids : N -> F) (ty : option F) (types : N -> string * list F)
        (m : mstate) (pd : N * table F) : io mstate :=
      let '(p, data) := pd in
      let n := vlen data in
      let g := numbered "particle" p in
      group_create g ;;
      do m' <- lift (write_particle radius ids ty m pd) ;;
      let c := last (m_groups m') (mkPg None None None None None None None) in
      let some o := match o with Some l => l | None => [] end in
      let some3 o := match o with Some l => l | None => [] end in
      particle_io g (some (pg_time c)) (some (pg_id c)) (some (pg_radius c)) (repeat n1 (N.to_nat n)) (types n)
        (some3 (pg_velocity c)) (some3 (pg_position c)) ;;
      ret m'.
    Definition multi_prog (radius : F) (ids : N -> F) (ty : option F) (types : N -> string * list F) (l : list (table F)) : io unit :=
      do m <- ifold (multi_io radius ids ty types) (enumerate l) (mkM acc0 [] 0 n0 n0 (zeros 100)) ;;
      header_io (mk_header (m_acc m) 1 (m_steps m) (m_rate m) (n0, m_tmax m) (m_times m)).

    (** csv_multi_idline.rs 62-119 and csv_multi_chain.rs 52-151: the tables of the particles. *)
    Definition idline_parts (data : table F) (columns : list Z) (vel interp : bool) : res (list (table F)) :=
      let! data := pick 8 columns data in
      let! r := sort_by_id data in
      let '(parts, max_t, max_steps) := r in
      mmap (fun arr =>
          let! d := sort_by_column arr 0 in
          let d := map (remove_columns_row [1%N]) d in
          let! d := if interp then interpolate d max_t max_steps else Val d in
          if vel then (if (5 <? vlen columns)%N then Panic else velocity_polynom fit powf d 9 2) else Val d) parts.
    Definition chain_parts (data : table F) (columns : list Z) (vel interp : bool) : res (list (table F)) :=
      if (vlen columns =? 0)%N then Panic else
      let! data := pick 7 columns data in
      let! tm := column data 0 in
      let '(starts, dur, steps) := chain_scan tm in
      let! parts := mmap (fun ix =>
          let! a := vget starts ix in
          let! b := vget starts (ix + 1) in
          if (b - a <? 10)%N then Val [] else
          let d := firstn (N.to_nat (b - a)) (skipn (N.to_nat a) data) in
          let! d := if interp then (if vel then interpolate d dur steps else Panic) else Val d in
          let! d := if vel then
                      if (5 <=? vlen columns)%N then Panic
                      else if (vlen d <? 200000)%N then velocity_polynom fit powf d 9 2
                      else velocity_parallel fit powf d 9 2
                    else Val d in
          Val [d]) (range 0 (vlen starts - 2)) in
      Val (concat parts).
    (** csv_multi_idline.rs 21-366 [csv_multi_idline] *)
    Definition idline_prog (read : res (table F)) (columns : list Z) (vel interp : bool) (radius : F) : io unit :=
      if negb ((vlen columns =? 5)%N || (vlen columns =? 8)%N) then lift Panic else
      new_file 2 ;;
      do data <- lift read ;;
      do parts <- lift (idline_parts data columns vel interp) ;;
      multi_prog radius nofN (Some n0) (fun n => ("particletype"%string, repeat n0 (N.to_nat n))) parts.
    (** csv_multi_chain.rs 21-391 [csv_multi_chain]: the type goes by the name [particleid]. *)
    Definition chain_prog (read : res (table F)) (columns : list Z) (vel interp : bool) (radius : F) : io unit :=
      new_file 2 ;;
      do data <- lift read ;;
      do parts <- lift (chain_parts data columns vel interp) ;;
      multi_prog radius (fun _ => n1) None (fun n => ("particleid"%string, repeat n1 (N.to_nat n))) parts.
    (** converter.rs 384-434 [csv_multi_converter] *)
    Definition csv_multi_prog (found : bool) (read : res (table F)) (columns : list Z) (vel interp : bool) (radius : F) (mode : string) : io unit :=
      if negb found then lift Panic else
      if String.eqb mode "chain" then chain_prog read columns vel interp radius
      else if String.eqb mode "id_line" then idline_prog read columns vel interp radius
      else ret tt.
  End Fit.

  (** ** Converters to time-ordered files *)

  (** converter.rs 625-797 (XML) and 1051-1221 (legacy): one file; [None]: its name does not match
      the filter. *)
  Definition vtk_file_io (cfg : vtkcfg) (dt : F) (s : tstate) (kf : N * option (vtkfile F)) : io tstate :=
    let '(k, of) := kf in
    let g := numbered "timestep" k in
    group_create g ;;
    do f <- lift (unwrap of) ;;
    let t := nmul (nof (vf_step f)) dt in
    let time := if (k =? 0)%N then (t, snd (t_time s)) else t_time s in
    (if nltb t (snd time) then lift Panic else ret tt) ;;
    let time := (fst time, t) in
    set_create g "time" (INum n0) ;;
    set_write g "time" (INum t) ;;
    do (sl, ids) <- lift (let! name := unwrap (c_id cfg) in
                           let! ids := vf_u64 f name in
                           let! sl := make_sortlist ids in
                           let! ids := sort_by_array ids sl in
                           if (vlen ids =? 0)%N then Panic else Val (sl, ids)) ;;
    let np := N.max (t_np s) (fold_left N.max ids 0%N) in
    set_create g "id" (IVec (map nofN ids)) ;;
    do radius <- lift (match c_radius cfg, c_diameter cfg with
                       | Some r, _ => let! l := vf_f64 f r in sort_by_array l sl
                       | None, Some dm => let! l := vf_f64 f dm in sort_by_array (map (fun x => nmul x (nlit 1 2)) l) sl
                       | None, None => Panic
                       end) ;;
    set_create g "radius" (IVec radius) ;;
    set_create g "ppcloud" (IVec (map (fun _ => n1) radius)) ;;
    do ty <- lift (match c_type cfg with
                   | Some n => let! l := vf_u64 f n in let! l := sort_by_array l sl in Val (map nofN l)
                   | None => Val (map (fun _ => n1) radius)
                   end) ;;
    set_create g "particletype" (IVec ty) ;;
    do vel <- lift (let! vname := unwrap (c_velocity cfg) in
                    let! vel := vf_f64 f vname in
                    let! vel := sort_by_array vel sl in rows3 vel) ;;
    set_create g "velocity" (IRows vel) ;;
    do pos <- lift (let! pos := vf_positions f in
                    let! pos := sort_by_array pos sl in rows3 pos) ;;
    set_create g "position" (IRows pos) ;;
    let a := fold_left acc_pos pos (fold_left acc_vel vel (t_acc s)) in
    let c := mkTg (Some pos) (Some vel) (Some radius) None (Some (map (fun _ => n1) radius)) (Some t)
               (Some ty) (Some (map nofN ids)) in
    ret (mkT (acc_count a (vlen ids)) (t_groups s ++ [c]) np time (t_times s ++ [t]) t (nsub t (t_old s))).
  Definition finish_io (s : tstate) (n : N) : io unit := header_io (snd (finish s n)).
  (** converter.rs 585-856, 1010-1281 [write_hdf5_from_files] *)
  Definition vtk_prog (cfg : vtkcfg) (files : list (option (vtkfile F))) (dt : F) : io unit :=
    if (vlen files =? 0)%N then lift Panic else
    new_file 1 ;;
    do s <- ifold (vtk_file_io cfg dt) (enumerate files) (mkT acc0 [] 0 (n0, n0) [] n0 n0) ;;
    finish_io s (vlen files).

  (** csv_multi_file_time_step.rs 72-212: one file; [read]: what the CSV reader makes of it. *)
  Definition step_file_io (times : list F) (columns : list Z) (s : tstate) (kd : N * res (table F)) : io tstate :=
    let '(k, read) := kd in
    let g := numbered "timestep" k in
    group_create g ;;
    do t <- lift (vget times k) ;;
    let time := (fst (t_time s), if nltb (snd (t_time s)) t then t else snd (t_time s)) in
    set_create g "time" (INum n0) ;;
    set_write g "time" (INum t) ;;
    do data <- lift read ;;
    let trip i r := let! a := vget r i in let! b := vget r (i + 1)%N in let! c := vget r (i + 2)%N in Val (a, b, c) in
    do (ids, pos, vel) <- lift (let! rows := pick 7 columns data in
                                 let! ids := column rows 0 in
                                 let! pos := mmap (trip 1%N) rows in
                                 let! vel := mmap (trip 4%N) rows in Val (ids, pos, vel)) ;;
    let zero := map (fun _ => n0) ids in
    set_create g "id" (IVec ids) ;;
    set_create g "radius" (IVec zero) ;;
    set_create g "ppcloud" (IVec zero) ;;
    set_create g "particletype" (IVec zero) ;;
    set_create g "velocity" (IRows vel) ;;
    set_create g "position" (IRows pos) ;;
    let a := fold_left acc_pos pos (fold_left acc_vel vel (t_acc s)) in
    let c := mkTg (Some pos) (Some vel) (Some zero) None (Some zero) (Some t) (Some zero) (Some ids) in
    ret (mkT (acc_count a (vlen ids)) (t_groups s ++ [c]) (vlen ids) time (t_times s ++ [t]) t (nsub t (t_old s))).
  (** csv_multi_file_time_step.rs 21-270 [csv_multi_file_time_step] *)
  Definition step_prog (files : list (res (table F))) (columns : list Z) (times : list F) : io unit :=
    if negb ((vlen columns =? 4)%N || (vlen columns =? 7)%N) then lift Panic else
    new_file 1 ;;
    do s <- ifold (step_file_io times columns) (enumerate files) (mkT acc0 [] 0 (n0, n0) [] n0 n0) ;;
    finish_io s (vlen files).

  (** ** Opening *)

  (** [read_scalar], [read_1d], [read_2d]; anything of another kind is as if it were missing. *)
  Definition as_nat (o : option item) : option N := match o with Some (INat n) => Some n | _ => None end.
  Definition as_num (o : option item) : option F := match o with Some (INum x) => Some x | _ => None end.
  Definition as_vec (o : option item) : option (list F) := match o with Some (IVec l) => Some l | _ => None end.
  Definition as_rows (o : option item) : option (list (v3 F)) := match o with Some (IRows l) => Some l | _ => None end.
  Definition at3v {A} (l : list A) : res (v3 A) :=
    let! a := vget l 0 in let! b := vget l 1 in let! c := vget l 2 in Val (a, b, c).

  (** pdata.rs 925-1060, tdata.rs 903-1040 [global_stats]; the elements of the arrays are looked up here,
      in the code when they are used. *)
  Definition h5_header (f : h5) : res (header F) :=
    let! dims := unwrap (as_rows (x_attrs f "dimensions"%string)) in
    let! np := unwrap (as_nat (x_attrs f "particle number"%string)) in
    let! nt := unwrap (as_nat (x_attrs f "timesteps"%string)) in
    let! time := unwrap (as_vec (x_attrs f "time"%string)) in
    let! rate := unwrap (as_num (x_attrs f "sample rate"%string)) in
    let! vel := unwrap (as_rows (x_attrs f "velocity"%string)) in
    let! mag := unwrap (as_vec (x_attrs f "velocity magnitude"%string)) in
    let! times := unwrap (as_vec (x_sets f "time array"%string)) in
    let! d0 := vget dims 0 in let! d1 := vget dims 1 in
    let! ta := vget time 0 in let! tb := vget time 1 in
    let! v := at3v vel in let! m := at3v mag in
    Val (mkHeader (d0, d1) np nt rate (ta, tb) v m times).

  (** The groups and datasets that pdata.rs 368-567 and tdata.rs 77-326 ask for. *)
  Definition h5_pfile (f : h5) (h : header F) : pfile F :=
    mkPf (fun i => match x_groups f (numbered "particle" i) with
                   | Some m => Some (mkPg (as_rows (m "position"%string)) (as_rows (m "velocity"%string)) (as_vec (m "radius"%string))
                                      (as_vec (m "particletype"%string)) (as_vec (m "density"%string)) (as_vec (m "time"%string)) (as_vec (m "id"%string)))
                   | None => None
                   end) (h_nparticles h) (h_timesteps h).
  Definition h5_tfile (f : h5) (h : header F) : tfile F :=
    mkTf (fun i => match x_groups f (numbered "timestep" i) with
                   | Some m => Some (mkTg (as_rows (m "position"%string)) (as_rows (m "velocity"%string)) (as_vec (m "radius"%string))
                                      (as_vec (m "density"%string)) (as_vec (m "ppcloud"%string)) (as_num (m "time"%string))
                                      (as_vec (m "particletype"%string)) (as_vec (m "id"%string)))
                   | None => None
                   end) (h_nparticles h) (h_timesteps h).

  (** pdata.rs 40-79 [PData::new], tdata.rs 38-75 [TData::new]. *)
  Definition open_p (bld : build) (f : option h5) : res (header F * pfile F * dm F) :=
    let! f := unwrap f in let! h := h5_header f in
    let p := h5_pfile f h in
    let! d := dm_new bld (p_load p) (h_timesteps h) in Val (h, p, d).
  Definition open_t (bld : build) (f : option h5) : res (header F * tfile F * dm F) :=
    let! f := unwrap f in let! h := h5_header f in
    let t := h5_tfile f h in
    let! d := dm_new bld (t_load t) (h_timesteps h) in Val (h, t, d).
  (** pylib.rs 116-145 [Data(filename)] *)
  Definition open_data (bld : build) (f : option h5) : res (header F * opened F) :=
    let! x := unwrap f in
    let! ty := unwrap (as_nat (x_attrs x "hdf5_up4_type"%string)) in
    if (ty =? 1)%N then let! (h, t, d) := open_t bld f in Val (h, OpenT t d)
    else if (ty =? 2)%N then let! (h, p, d) := open_p bld f in Val (h, OpenP p d)
    else Panic.
End H5.
Arguments h5 : clear implicits.
Arguments item : clear implicits.
Arguments world : clear implicits.
