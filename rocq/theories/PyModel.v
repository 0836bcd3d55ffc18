(** * PyModel: src/pylib.rs (opening and indexing a data set), src/comparison.rs
    [binary_threshold], src/utilities.rs, src/utilities/maths.rs *)
From Coq Require Import ZArith NArith.
From Verif Require Import Base Num NDArray SelModel DataModel FunModel ConvModel.

(** [z as usize] for an isize, [n as isize] being [Z.of_N]. *)
Definition as_usize (z : Z) : N := Z.to_N (z mod 2 ^ 64).

Section Py.
  Context {F : Type} {NF : Num F}.
  Local Open Scope num_scope.

  (** ** pylib.rs 116-145 [PyData::constructor] *)

  (** A file that exists: the attribute [hdf5_up4_type], if there, and what the two readers find
      in it. *)
  Record hfile : Type := mkHf { hf_type : option Z; hf_p : pfile F; hf_t : tfile F }.
  Inductive opened : Type := OpenT (f : tfile F) (d : dm F) | OpenP (f : pfile F) (d : dm F).
  (** [None]: the file cannot be opened. *)
  Definition py_open (bld : build) (h : option hfile) : res opened :=
    let! h := unwrap h in
    let! ty := unwrap (hf_type h) in
    if (ty =? 1)%Z then
      let! d := dm_new bld (t_load (hf_t h)) (tf_timesteps (hf_t h)) in Val (OpenT (hf_t h) d)
    else if (ty =? 2)%Z then
      let! d := dm_new bld (p_load (hf_p h)) (pf_timesteps (hf_p h)) in Val (OpenP (hf_p h) d)
    else Panic.

  (** ** pylib.rs 827-928 [__getitem__], 930-932 [__len__] *)
  Section Item.
    Variable M : mgr F.
    Notation nt := (st_timesteps (m_stats M)).
    Notation np := (st_nparticles (m_stats M)).

    Definition py_len : N := nt.

    (** 850-856: the row of one particle. *)
    Definition py_row (x : timestep F) (i : N) : res (list F) :=
      let! id := vget (ts_id x) i in
      let! p := vget (ts_pos x) i in
      let! v := vget (ts_vel x) i in
      let '(px, py, pz) := p in let '(vx, vy, vz) := v in
      Val [id; px; py; pz; vx; vy; vz].
    (** 848-857. *)
    Definition py_table (x : timestep F) : res (list (list F)) :=
      mmap (py_row x) (range 0 (vlen (ts_pos x))).

    (** 831-835, 869-873: the number of the timestep. *)
    Definition py_index (i : Z) : N := as_usize (if (i <? 0)%Z then Z.of_N nt + i else i).

    (** 829-860. *)
    Definition py_int (d : ms M) (i : Z) : res (ms M * list (list F)) :=
      let! r := m_get M d (py_index i) in
      let! tbl := py_table (snd r) in
      Val (fst r, tbl).

    Definition zero_row : list F := repeat n0 7.
    (** [Array3::zeros([n, nparticles, 7])]: lengths beyond isize are refused; everything else is
        taken to fit in memory. *)
    Definition zero_blocks (n : N) : res (list (list (list F))) :=
      if (n <? 2 ^ 63)%N then Val (repeat (repeat zero_row (N.to_nat np)) (N.to_nat n)) else Panic.
    (** 880-890, 912-922: [result[i, j, ..] = row j] for every particle j of the timestep. *)
    Definition write_block (out : list (list (list F))) (i : N) (rows : list (list F)) : res (list (list (list F))) :=
      match rows with
      | [] => Val out
      | _ => let! b := vget out i in let! b := overwrite rows b in vset out i b
      end.
    (** The loops 867-891 and 905-923 over timestep numbers. *)
    Definition py_blocks (d : ms M) (out : list (list (list F))) (l : list N) : res (ms M * list (list (list F))) :=
      mfold (fun st e =>
        let! r := m_get M (fst st) (snd e) in
        let! rows := py_table (snd r) in
        let! out := write_block (snd st) (fst e) rows in
        Val (fst r, out)) (enumerate l) (d, out).

    (** 861-893: a list of indices. *)
    Definition py_list (d : ms M) (l : list Z) : res (ms M * list (list (list F))) :=
      let! out := zero_blocks (vlen l) in
      py_blocks d out (map py_index l).

    (** CPython [PySlice_GetIndicesEx] (called by [PySlice::indices], 896): [None] entries are the
        defaults; a zero step is an error, on which [expect] panics. *)
    Definition slice_bound (n step : Z) (o : option Z) (low_default high_default : Z) : Z :=
      match o with
      | None => if (step <? 0)%Z then high_default else low_default
      | Some i =>
          if (i <? 0)%Z
          then (if (i + n <? 0)%Z then (if (step <? 0)%Z then -1 else 0) else i + n)%Z
          else if (n <=? i)%Z then (if (step <? 0)%Z then n - 1 else n)%Z else i
      end.
    Definition slice_indices (n : Z) (start stop step : option Z) : res (Z * Z * Z) :=
      let st := match step with Some s => s | None => 1%Z end in
      if (st =? 0)%Z then Panic
      else Val (slice_bound n st start 0 (n - 1), slice_bound n st stop n (-1), st).
    (** [(start..stop).step_by(step)]. *)
    Definition step_range (start stop : Z) (step : N) : list Z :=
      map (fun k => (start + Z.of_nat k * Z.of_N step)%Z)
          (seq 0 (Z.to_nat ((stop - start + Z.of_N step - 1) / Z.of_N step))).

    (** 895-925: a slice.  The division truncates towards zero. *)
    Definition py_slice (d : ms M) (start stop step : option Z) : res (ms M * list (list (list F))) :=
      let! ix := slice_indices (Z.of_N nt) start stop step in
      let '(a, b, st) := ix in
      let! out := zero_blocks (as_usize (Z.quot (b - a) st)) in
      py_blocks d out (map as_usize (step_range a b (as_usize st))).
  End Item.

  (** ** pylib.rs 259-268 [set_time] *)
  Definition py_set_time (s : selector F) (max_time tmin tmax : F) : res (selector F) :=
    if max_time <? tmin then Panic else Val (set_time s tmin tmax).

  (** ** comparison.rs 146-158 [binary_threshold] *)

  (** The elements in [iter] (row-major) order. *)
  Definition flat3 (a : arr3 F) : list F := map (at3 a) (ids3 (sh3 a)).
  (** [sorted_by(|a, b| a.partial_cmp(b).unwrap())]: a stable sort; any sorting of two or more
      elements compares each of them, so a NaN panics then. *)
  Definition cmp_le (a b : F) : res bool := if nisnan a || nisnan b then Panic else Val (a <=? b).
  Definition binary_threshold (field : arr3 F) (quantile : F) : res (arr3 F) :=
    if negb ((n0 <=? quantile) && (quantile <=? n1)) then Panic else
    let! sorted := isort cmp_le (flat3 field) in
    let nonzero := filter (fun x => negb (x =? n0)) sorted in
    let! threshold := vget nonzero (nusize (nofN (vlen (flat3 field)) * quantile)) in
    Val (map3 (fun x => if threshold <? x then n1 else n0) field).

  (** ** utilities.rs 75-99 *)
  Definition nan_mean (l : list F) : F :=
    let r := fold_left (fun st x => let '(sum, count) := st in
      if negb (nisnan x) then (sum + x, (count + 1)%N) else (sum, count)) l (n0, 0%N) in
    fst r / nofN (snd r).
  Definition nan_std (l : list F) : F :=
    let mean := nan_mean l in
    let r := fold_left (fun st x => let '(sum, count) := st in
      if negb (nisnan x) then (sum + (x - mean) * (x - mean), (count + 1)%N) else (sum, count)) l (n0, 0%N) in
    nsqrt (fst r / nofN (snd r)).

  (** ** maths.rs *)

  (** 3-15. *)
  Definition minmax (l : list F) : F * F :=
    fold_left (fun st v => let '(mn, mx) := st in
      let mx := if mx <? v then v else mx in
      let mn := if v <? mn then v else mn in (mn, mx)) l (nmax, nmin).

  (** [a[[i, j]] = v]. *)
  Definition set2 (a : arr2 F) (i : N * N) (x : F) : res (arr2 F) :=
    if inb2 (sh2 a) i then Val (mkA2 (sh2 a) (fun j => if ((fst i =? fst j) && (snd i =? snd j))%N then x else at2 a j))
    else Panic.
  Definition ids2 (sh : N * N) : list (N * N) :=
    flat_map (fun i => map (fun j => (i, j)) (range 0 (snd sh))) (range 0 (fst sh)).

  (** 17-31. *)
  Definition meshgrid (x y : list F) : res (arr2 F * arr2 F) :=
    mfold (fun st ij =>
      let '(i, j) := ij in
      let! a := vget x i in let! xx := set2 (fst st) ij a in
      let! b := vget y j in let! yy := set2 (snd st) ij b in
      Val (xx, yy)) (ids2 (vlen x, vlen y)) (zeros2 (vlen x, vlen y), zeros2 (vlen x, vlen y)).
  (** 33-56. *)
  Definition meshgrid3d (x y z : list F) : res (arr3 F * arr3 F * arr3 F) :=
    let sh := (vlen x, vlen y, vlen z) in
    mfold (fun st ijk =>
      let '(i, j, k) := ijk in
      let '(xx, yy, zz) := st in
      let! a := vget x i in let! xx := set3 xx ijk a in
      let! b := vget y j in let! yy := set3 yy ijk b in
      let! c := vget z k in let! zz := set3 zz ijk c in
      Val (xx, yy, zz)) (ids3 sh) (NDArray.zeros3 sh, NDArray.zeros3 sh, NDArray.zeros3 sh).
  (** 58-74: the elements in row-major order. *)
  Definition flatten_2d (a : arr2 F) : list F := map (at2 a) (ids2 (sh2 a)).
  Definition flatten_3d (a : arr3 F) : list F := map (at3 a) (ids3 (sh3 a)).
End Py.
Arguments hfile : clear implicits.
Arguments opened : clear implicits.
