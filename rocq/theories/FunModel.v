(** * FunModel: src/functions.rs (trait Granular)

    The functions are written against any data manager ([mgr]); PData and TData are the two
    instances at the end.  [check_signals!] and the print macros have no effect here. *)
From Coq Require Import ZArith NArith String.
From Verif Require Import Base Num NDArray GridModel SelModel DataModel.

Section Fun.
  Context {F : Type} {NF : Num F} {TF : Trig F}.
  Local Open Scope num_scope.

  (** ndarray [sum] of contiguous data: numeric_util [unrolled_fold], eight running sums, then the
      rest. *)
  Fixpoint unrolled (l : list F) (p0 p1 p2 p3 p4 p5 p6 p7 : F) : F :=
    match l with
    | x0 :: x1 :: x2 :: x3 :: x4 :: x5 :: x6 :: x7 :: l' =>
        unrolled l' (nadd p0 x0) (nadd p1 x1) (nadd p2 x2) (nadd p3 x3) (nadd p4 x4) (nadd p5 x5) (nadd p6 x6) (nadd p7 x7)
    | _ => fold_left nadd l (nadd (nadd (nadd (nadd n0 (nadd p0 p4)) (nadd p1 p5)) (nadd p2 p6)) (nadd p3 p7))
    end.
  Definition nd_sum (l : list F) : F := unrolled l n0 n0 n0 n0 n0 n0 n0 n0.

  (** datamanager.rs 64-75 (the fields the functions read). *)
  Record stats : Type := mkStats {
    st_timesteps : N; st_nparticles : N; st_velmag : v3 F;   (* min, mean, max *)
    st_time : list F;                                        (* time_array *)
    st_dims : v3 F * v3 F }.                                 (* rows 0 (min) and 1 (max) *)

  (** datamanager.rs 8-48, the methods used by the functions. *)
  Record mgr : Type := mkMgr {
    ms : Type;
    m_get : ms -> N -> res (ms * timestep F);          (* get_timestep *)
    m_getb : ms -> N -> N -> res (ms * timestep F);    (* get_timestep_buffer *)
    m_setup : ms -> N -> res ms;                       (* setup_buffer *)
    m_stats : stats }.                                 (* global_stats *)

  Section Go.
    Variable bld : build.
    Variable M : mgr.
    Notation nt := (st_timesteps (m_stats M)).

    (** The range [0..=timesteps - 1]. *)
    Definition all_steps : res (list N) := let! last := usub bld nt 1 in Val (range 0 (last + 1)).
    (** The range [0..timesteps - k]. *)
    Definition steps_but (k : N) : res (list N) := let! n := usub bld nt k in Val (range 0 n).

    (** The time loop, e.g. 29-37: read, skip timesteps outside the window. *)
    Definition loop_ts {S} (s : selector F) (body : ms M * S -> N -> timestep F -> res (ms M * S))
      (l : list N) (st : ms M * S) : res (ms M * S) :=
      mfold (fun st t =>
        let! r := m_get M (fst st) t in
        let '(d, x) := r in
        if timestep_valid s (ts_time x) then body (d, snd st) t x else Val (d, snd st)) l st.
    (** ... whose body does not use the manager. *)
    Definition loop_pure {S} (s : selector F) (body : S -> timestep F -> res S)
      (l : list N) (st : ms M * S) : res (ms M * S) :=
      loop_ts s (fun st _ x => let! y := body (snd st) x in Val (fst st, y)) l st.

    (** The test [selector.is_valid(rad_array[particle], ...)], e.g. 53-58. *)
    Definition valid_at (s : selector F) (x : timestep F) (i : N) : res bool :=
      let! r := vget (ts_radius x) i in
      let! c := vget (ts_clouds x) i in
      let! de := vget (ts_density x) i in
      let! id := vget (ts_id x) i in
      is_valid s r c de (nusize id).
    (** The particle loop, e.g. 52-63. *)
    Definition loop_particles {S} (s : selector F) (x : timestep F) (body : S -> N -> v3 F -> res S)
      (st : S) : res S :=
      mfold (fun st i =>
        let! ok := valid_at s x i in
        if ok then (let! p := vget (ts_pos x) i in body st i p) else Val st)
        (range 0 (vlen (ts_pos x))) st.

    Definition nan3 (p : v3 F) : bool := let '(a, b, c) := p in nisnan a || nisnan b || nisnan c.
    Definition sq (x : F) : F := x * x.
    Definition speed (v : v3 F) : F := let '(a, b, c) := v in nsqrt (a * a + b * b + c * c).

    (** functions.rs 23-86 [vectorfield]. *)
    Definition vectorfield (d : ms M) (g : grid F) (s : selector F) : res (ms M * vgrid F) :=
      let! l := all_steps in
      let! r := loop_pure s (fun vg x => loop_particles s x (fun vg i p =>
          if nan3 p then Val vg else
          let! v := vget (ts_vel x) i in
          if negb (v_is_inside vg p) then Val vg else
          let '(u0, u1, u2) := velocity_calculation vg p v in
          let! a := add_value bld (vg0 vg) p u0 in
          let! b := add_value bld (vg1 vg) p u1 in
          let! c := add_value bld (vg2 vg) p u2 in
          Val (mkV a b c (vcyl vg))) vg) l (d, vnew g) in
      let! v := v_divide_by_weight (snd r) in
      Val (fst r, v).

    (** functions.rs 98-159: the velocity function chosen by the mode string. *)
    Definition velocity_mode (mode : string) : res (v3 F -> F) :=
      if String.eqb mode "absolute" then Val speed
      else if (String.eqb mode "x" || String.eqb mode "r")%bool then Val (fun '(x, _, _) => x)
      else if (String.eqb mode "y" || String.eqb mode "theta")%bool then Val (fun '(_, y, _) => y)
      else if String.eqb mode "xy" then Val (fun '(x, y, _) => nsqrt (x * x + y * y))
      else if String.eqb mode "xz" then Val (fun '(x, _, z) => nsqrt (x * x + z * z))
      else if String.eqb mode "yz" then Val (fun '(_, y, z) => nsqrt (y * y + z * z))
      else if String.eqb mode "z" then Val (fun '(_, _, z) => z)
      else Panic.

    (** functions.rs 88-240 [velocityfield]. *)
    Definition velocityfield (d : ms M) (g : grid F) (s : selector F) (mode : string) (vmin vmax : F)
      : res (ms M * grid F) :=
      let! calc := velocity_mode mode in
      let! l := all_steps in
      let! r := loop_pure s (fun h x => loop_particles s x (fun h i p =>
          if nan3 p then Val h else
          let! v := vget (ts_vel x) i in
          let a := calc v in
          if nisnan a then Val h else
          if negb (is_inside g p) then Val h else
          if (a <? vmin) || (vmax <? a) then Val h else
          add_value bld h p a) h) l (d, new_zeros g) in
      let! h := divide_by_weight (snd r) in
      Val (fst r, h).

    (** functions.rs 242-309 [numberfield]. *)
    Definition numberfield (d : ms M) (g : grid F) (s : selector F) : res (ms M * grid F) :=
      let! l := all_steps in
      loop_pure s (fun h x => loop_particles s x (fun h i p =>
        if negb (is_inside g p) then Val h else add_value bld h p n1) h) l (d, new_zeros g).

    (** functions.rs 311-403 [occupancyfield].  The accumulator is the grid and
        [complete_time]; the squared speed is folded from 0.0. *)
    Definition occupancyfield (d : ms M) (g : grid F) (s : selector F) (min_vel : F)
      : res (ms M * grid F) :=
      let! d0 := m_setup M d 0 in
      let! l := steps_but 3 in
      let! r := mfold (fun st t =>
          let '(d, acc) := st in
          let! r := m_get M d t in let '(d1, x) := r in
          let! r := m_getb M d1 (t + 1) 0 in let '(d2, y) := r in
          if negb (timestep_valid s (ts_time x)) then Val (d2, acc) else
          let! acc' := loop_particles s x (fun acc i p =>
            if negb (is_inside g p) then Val acc else
            let! v := vget (ts_vel x) i in
            let '(a, b, c) := v in
            if nsqrt (n0 + a * a + b * b + c * c) <? min_vel then Val acc else
            let spent := ts_time y - ts_time x in
            if spent <? n0 then Val acc else
            if (vlen (ts_pos y) <=? i)%N then Val acc else
            let! q := vget (ts_pos y) i in
            let! h := add_trajectory_value bld (fst acc) p q spent in
            Val (h, snd acc + spent)) acc in
          Val (d2, acc')) l (d0, (new_zeros g, n0)) in
      let '(d', (h, total)) := r in
      Val (d', divide_by_scalar h total).

    (** functions.rs 405-436 [mean_velocity_showcase]. *)
    Definition mean_velocity_showcase (d : ms M) (s : selector F) : res (ms M * F) :=
      let! l := all_steps in
      let! r := loop_pure s (fun acc x =>
          Val (fold_left (fun acc v => if nisnan (speed v) then acc
                                       else (fst acc + speed v, snd acc + n1)) (ts_vel x) acc))
          l (d, (n0, n0)) in
      Val (fst r, fst (snd r) / snd (snd r)).

    (** Accumulators of [dispersion] (471-477) and [granular_temperature_field] (752-758):
        sums of squares, sums, counts.  They start as copies of the data of the grid. *)
    Record moments : Type := mkMom { m_sq : v3 (arr3 F); m_sum : v3 (arr3 F); m_n : arr3 F }.
    Definition moments_of (g : grid F) : moments :=
      mkMom (data g, data g, data g) (data g, data g, data g) (data g).
    (** [a[c] += v]. *)
    Definition inc3 (a : arr3 F) (c : id3) (v : F) : res (arr3 F) :=
      let! x := get3 a c in set3 a c (x + v).
    (** 543-549, 809-815. *)
    Definition moments_add (m : moments) (c : id3) (v : v3 F) : res moments :=
      let '(v0, v1, v2) := v in
      let '(q0, q1, q2) := m_sq m in let '(s0, s1, s2) := m_sum m in
      let! q0 := inc3 q0 c (v0 * v0) in let! q1 := inc3 q1 c (v1 * v1) in
      let! q2 := inc3 q2 c (v2 * v2) in
      let! s0 := inc3 s0 c v0 in let! s1 := inc3 s1 c v1 in let! s2 := inc3 s2 c v2 in
      let! n := inc3 (m_n m) c n1 in
      Val (mkMom (q0, q1, q2) (s0, s1, s2) n).

    (** [sum] of an ndarray; the arrays here are contiguous. *)
    Definition sum3 (a : arr3 F) : F := nd_sum (map (at3 a) (ids3 (sh3 a))).

    (** 566-576: the dispersion of one cell. *)
    Definition cell_dispersion (m : moments) (c : id3) : F :=
      let n := at3 (m_n m) c in
      let '(q0, q1, q2) := m_sq m in let '(s0, s1, s2) := m_sum m in
      let ax q s := at3 q c / n - at3 s c * at3 s c / n / n in
      (ax q0 s0 + ax q1 s1 + ax q2 s2) * n / (n - n1).

    (** functions.rs 457-590 [dispersion].  The fuel of the nearest-timestep search is the number of records,
        enough by c32. *)
    Definition dispersion (d : ms M) (g : grid F) (s : selector F) (dt : F)
      : res (ms M * (grid F * F)) :=
      let! d0 := m_setup M d 0 in
      let! l := all_steps in
      let! r := loop_ts s (fun st _ x =>
          let '(d, m) := st in
          let ta := st_time (m_stats M) in
          match closest bld (length ta) ta (ts_time x + dt) with
          | None | Some Panic => Panic
          | Some (Val None) => Val (d, m)
          | Some (Val (Some t')) =>
              let! r := m_getb M d t' 0 in
              let '(d1, y) := r in
              let! m' := loop_particles s x (fun m i p =>
                if negb (is_inside g p) then Val m else
                let! o := cell_id bld g p in
                match o with
                | None => Val m
                | Some c => let! q := vget (ts_pos y) i in moments_add m c q
                end) m in
              Val (d1, m')
          end) l (d0, moments_of g) in
      let '(d', m) := r in
      let! h := mfold (fun h c =>
          let! n := get3 (m_n m) c in
          if n1 <? n then add_to_cell h c (cell_dispersion m c) else Val h)
          (ids3 (geom_cells (geo g))) (new_zeros g) in
      let! wd := zip3 nmul (weight h) (data h) in
      Val (d', (h, sum3 wd / sum3 (weight h))).

    (** functions.rs 612-615 [mean_velocity]. *)
    Definition mean_velocity : F := let '(_, mean, _) := st_velmag (m_stats M) in mean.

    (** functions.rs 663-678: the bin edges. *)
    Definition bin_edges (lo hi : F) (bins : N) : list F :=
      map (fun i => lo + nofN i * ((hi - lo) / nofN bins)) (range 0 bins) ++ [hi].

    (** functions.rs 641-736 [histogram]. *)
    Definition histogram (d : ms M) (g : grid F) (s : selector F) (property : string) (limit : F) (bins : N)
      : res (ms M * (list F * list F)) :=
      if negb (String.eqb property "velocity") then Panic else
      let '(lo, _, top) := st_velmag (m_stats M) in
      let hi := if limit =? n0 then top else limit in
      let edges := bin_edges lo hi bins in
      let! l := all_steps in
      let! r := loop_pure s (fun h x => loop_particles s x (fun h i p =>
          if negb (is_inside g p) then Val h else
          let! v := vget (ts_vel x) i in
          let! e0 := vget edges 0 in
          let! e1 := vget edges 1 in
          let bin := nusize (nfloor ((speed v - e0) / (e1 - e0))) in
          let! top := usub bld bins 1 in
          if (top <? bin)%N then Val h else
          let! y := vget h bin in vset h bin (y + n1)) h) l (d, repeat n0 (N.to_nat bins)) in
      Val (fst r, (snd r, edges)).

    (** functions.rs 818-844: the final array. *)
    Definition fluct (m : moments) (axis : N) : res (arr3 F) :=
      let! q := v3get (m_sq m) axis in
      let! s := v3get (m_sum m) axis in
      let! ss := zip3 nmul s s in
      let! sn := zip3 ndiv ss (m_n m) in
      zip3 nsub q sn.
    Definition gran_temp (m : moments) (mode : string) : res (arr3 F) :=
      let! fx := fluct m 0 in let! fy := fluct m 1 in let! fz := fluct m 2 in
      let! t :=
        if String.eqb mode "x" then Val fx
        else if String.eqb mode "y" then Val fy
        else if String.eqb mode "z" then Val fz
        else if String.eqb mode "xyz" then
          let! a := zip3 nadd fx fy in let! b := zip3 nadd a fz in Val (map3 (fun v => v / nof 3) b)
        else Panic in
      let! t := zip3 ndiv t (m_n m) in
      Val (map3 nsqrt t).

    (** functions.rs 738-850 [granular_temperature_field]. *)
    Definition granular_temperature_field (d : ms M) (g : grid F) (s : selector F) (mode : string)
      : res (ms M * grid F) :=
      let! l := all_steps in
      let! r := loop_pure s (fun m x => loop_particles s x (fun m i p =>
          if negb (is_inside g p) then Val m else
          let! v := vget (ts_vel x) i in
          let! o := cell_id bld g p in
          match o with None => Val m | Some c => moments_add m c v end) m) l (d, moments_of g) in
      let! t := gran_temp (snd r) mode in
      let! h := set_data (new_zeros g) t in
      let! h := set_weights h (m_n (snd r)) in
      Val (fst r, h).

    (** functions.rs 857-875: the index of a list of cells. *)
    Definition index_of_field (field : list F) : F :=
      let n := nofN (vlen field) in
      let mean := fold_left (fun acc x => if nisnan x then acc else acc + x) field n0 / n in
      nsqrt (fold_left (fun acc x => if nisnan x then acc else acc + (x - mean) * (x - mean)) field n0 / n).
    (** functions.rs 852-876 [homogenity_index]. *)
    Definition homogenity_index (d : ms M) (g : grid F) (s : selector F) (min_vel : F) : res (ms M * F) :=
      let! r := occupancyfield d g s min_vel in
      let! field := collapse_two (snd r) 0 1 in
      Val (fst r, index_of_field field).
  End Go.
End Fun.
Arguments stats : clear implicits.
Arguments mgr : clear implicits.
Arguments moments : clear implicits.

(** The two data managers (pdata.rs 904-1128, tdata.rs 882-1112); the statistics are read from
    file attributes when the file is opened. *)
Definition p_mgr {F} {NF : Num F} (bld : build) (f : pfile F) (st : stats F) : mgr F :=
  mkMgr (dm F) (dm_get bld (p_load f) (pf_timesteps f)) (p_get_buffer bld (p_load f) (pf_timesteps f))
        (dm_setup bld (p_load f) (pf_timesteps f)) st.
Definition t_mgr {F} {NF : Num F} (bld : build) (f : tfile F) (st : stats F) : mgr F :=
  mkMgr (dm F) (dm_get bld (t_load f) (tf_timesteps f)) (t_get_buffer bld (t_load f) (tf_timesteps f))
        (dm_setup bld (t_load f) (tf_timesteps f)) st.
