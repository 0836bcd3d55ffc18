(** * DataModel: src/datamanager.rs, src/datamanager/{pdata,tdata,utilities}.rs

    An HDF5 file is modelled by its logical content: groups found by name, datasets found by
    name (a missing group or dataset is [None]), attributes.  Reading a dataset of the wrong
    type or rank is not modelled; [position] and [velocity] datasets have three columns. *)
From Coq Require Import ZArith NArith.
From Verif Require Import Base Num NDArray.

(** pdata.rs 16, tdata.rs 17. *)
Definition BUFFERSIZE : N := 20000%N.

(** [for k in 0..l.len() { v[k] = l[k] }]: panics if [l] is longer than [v]. *)
Definition overwrite {A} (l v : list A) : res (list A) :=
  if (length l <=? length v)%nat then Val (l ++ skipn (length l) v) else Panic.

(** ndarray [slice(s![lo..hi])] of a one-dimensional array, lo <= hi. *)
Definition vslice {A} (l : list A) (lo hi : N) : res (list A) :=
  if (hi <=? vlen l)%N then Val (firstn (N.to_nat (hi - lo)) (skipn (N.to_nat lo) l)) else Panic.

Section Data.
  Context {F : Type} {NF : Num F}.
  Local Open Scope num_scope.

  (** datamanager.rs 51-61. *)
  Record timestep : Type := mkTs {
    ts_time : F; ts_pos : list (v3 F); ts_vel : list (v3 F); ts_radius : list F;
    ts_id : list F; ts_clouds : list F; ts_density : list F; ts_type : list F }.
  (** [Timestep::default()]. *)
  Definition ts_default : timestep := mkTs n0 [] [] [] [] [] [] [].

  (** ** The buffer logic shared (as text) by pdata.rs and tdata.rs *)

  (** [buffer], [range.0], [range.1], [buffersize], or their [_extra] counterparts. *)
  Record buf : Type := mkBuf { b_slots : list timestep; b_lo : N; b_hi : N; b_size : N }.
  (** The manager: main buffer, auxiliary buffers, [external_buffer_names]. *)
  Record dm : Type := mkDm { d_main : buf; d_extra : list buf; d_names : list N }.

  Definition fresh_slots : list timestep := repeat ts_default (N.to_nat BUFFERSIZE).

  Section Manager.
    Variable bld : build.
    (** What [update] reads from the file for [range.0..range.1]. *)
    Variable load : N -> N -> res (list timestep).
    Variable nt : N.

    (** pdata.rs 348-355 and 583-597 [update], 601-607 and 842-861 [update_extra];
        tdata.rs 328-334 and 584-587, 590-595 and 846-849. *)
    Definition buf_update (lo hi : N) (b : buf) : res buf :=
      let hi' := if (nt <=? hi)%N then nt else hi in
      let! size := usub bld hi' lo in
      let! l := load lo hi' in
      let! s := overwrite l (b_slots b) in
      Val (mkBuf s lo hi' size).

    (** pdata.rs 40-79, tdata.rs 38-75. *)
    Definition dm_new : res dm :=
      let! b := buf_update 0 BUFFERSIZE (mkBuf fresh_slots 0 0 BUFFERSIZE) in
      Val (mkDm b [] []).

    (** pdata.rs 916-917, tdata.rs 895-896: [(t as f64 / BUFFERSIZE as f64).floor() as usize]. *)
    Definition chunk (t : N) : N := nusize (nfloor (nofN t / nofN BUFFERSIZE)).

    (** pdata.rs 906-923, tdata.rs 884-901. *)
    Definition dm_get (d : dm) (t : N) : res (dm * timestep) :=
      let m := d_main d in
      let! last := usub bld (b_hi m) 1 in
      let! m' :=
        if (last <? t)%N then (let! hi := uadd bld t (b_size m) in buf_update t hi m)
        else if (t <? b_lo m)%N then buf_update (chunk t * BUFFERSIZE) ((chunk t + 1) * BUFFERSIZE) m
        else Val m in
      let! k := usub bld t (b_lo m') in
      let! x := vget (b_slots m') k in
      Val (mkDm m' (d_extra d) (d_names d), x).

    (** [external_buffer_names.iter().position(..)]. *)
    Fixpoint index_of (x : N) (l : list N) : option N :=
      match l with
      | [] => None
      | y :: l' => if (y =? x)%N then Some 0%N
                   else match index_of x l' with Some k => Some (k + 1)%N | None => None end
      end.

    (** pdata.rs 1082-1103, tdata.rs 1061-1082. *)
    Definition dm_setup (d : dm) (name : N) : res dm :=
      match index_of name (d_names d) with
      | Some k =>
          let! b := vget (d_extra d) k in
          let! b' := buf_update 0 BUFFERSIZE b in
          let! ex := vset (d_extra d) k b' in
          Val (mkDm (d_main d) ex (d_names d))
      | None =>
          let! b' := buf_update 0 BUFFERSIZE (mkBuf fresh_slots 0 BUFFERSIZE BUFFERSIZE) in
          Val (mkDm (d_main d) (d_extra d ++ [b']) (d_names d ++ [name]))
      end.

    (** pdata.rs 1106-1128: the window of the auxiliary buffer is maintained, with the size of
        the main one, but the answer is taken from the slots of the main buffer. *)
    Definition p_get_buffer (d : dm) (t id : N) : res (dm * timestep) :=
      let! e := vget (d_extra d) id in
      let! last := usub bld (b_hi e) 1 in
      let! e1 :=
        if (last <? t)%N then (let! hi := uadd bld t (b_size (d_main d)) in buf_update t hi e)
        else if ((b_hi e =? nt)%N && (t <? b_lo e)%N)%bool then buf_update 0 BUFFERSIZE e
        else Val e in
      let! e2 := if (t <? b_lo e1)%N then (let! hi := uadd bld t (b_size (d_main d)) in buf_update t hi e1) else Val e1 in
      let! ex := vset (d_extra d) id e2 in
      let! k := usub bld t (b_lo e2) in
      let! x := vget (b_slots (d_main d)) k in
      Val (mkDm (d_main d) ex (d_names d), x).

    (** tdata.rs 1085-1112: the last test looks at the window of the main buffer. *)
    Definition t_get_buffer (d : dm) (t id : N) : res (dm * timestep) :=
      let! e := vget (d_extra d) id in
      let! last := usub bld (b_hi e) 1 in
      let! e1 :=
        if (last <? t)%N then (let! hi := uadd bld t (b_size e) in buf_update t hi e)
        else if ((b_hi e =? nt)%N && (t <? b_lo e)%N)%bool then buf_update 0 BUFFERSIZE e
        else Val e in
      let! e2 := if (t <? b_lo (d_main d))%N then (let! hi := uadd bld t (b_size e1) in buf_update t hi e1) else Val e1 in
      let! ex := vset (d_extra d) id e2 in
      let! k := usub bld t (b_lo e2) in
      let! x := vget (b_slots e2) k in
      Val (mkDm (d_main d) ex (d_names d), x).
  End Manager.

  (** ** Particle-ordered files (pdata.rs) *)

  (** One group [particle i]. *)
  Record pgroup : Type := mkPg {
    pg_position : option (list (v3 F)); pg_velocity : option (list (v3 F));
    pg_radius : option (list F); pg_ptype : option (list F); pg_density : option (list F);
    pg_time : option (list F); pg_id : option (list F) }.
  (** The groups by particle number, and the attributes [particle number] and [timesteps]. *)
  Record pfile : Type := mkPf { pf_group : N -> option pgroup; pf_nparticles : N; pf_timesteps : N }.

  Record pcol : Type := mkPcol {
    pc_pos : list (v3 F); pc_vel : list (v3 F); pc_radius : list F; pc_type : list F;
    pc_density : list F; pc_time : list F }.

  (** pdata.rs 432-456: a dataset that may be missing, zeros instead. *)
  Definition opt_slice (o : option (list F)) (lo hi : N) : res (list F) :=
    match o with
    | Some l => vslice l lo hi
    | None => Val (repeat n0 (N.to_nat (hi - lo)))
    end.

  (** pdata.rs 368-567, one particle. *)
  Definition p_column (f : pfile) (lo hi i : N) : res pcol :=
    let! g := unwrap (pf_group f i) in
    let! lp := unwrap (pg_position g) in
    let! p := vslice lp lo hi in
    let! lv := unwrap (pg_velocity g) in
    let! v := vslice lv lo hi in
    let! r := opt_slice (pg_radius g) lo hi in
    let! ty := opt_slice (pg_ptype g) lo hi in
    let! de := opt_slice (pg_density g) lo hi in
    let! g0 := unwrap (pf_group f 0) in
    let! lt := unwrap (pg_time g0) in
    let! tm := vslice lt lo hi in
    Val (mkPcol p v r ty de tm).

  (** pdata.rs 583-596, one timestep: a row of the arrays filled from the columns. *)
  Definition p_row (cols : list pcol) (k : N) : res timestep :=
    let! c0 := vget cols 0 in
    let! tm := vget (pc_time c0) k in
    let! p := mmap (fun c => vget (pc_pos c) k) cols in
    let! v := mmap (fun c => vget (pc_vel c) k) cols in
    let! r := mmap (fun c => vget (pc_radius c) k) cols in
    let! de := mmap (fun c => vget (pc_density c) k) cols in
    let! ty := mmap (fun c => vget (pc_type c) k) cols in
    Val (mkTs tm p v r (map nofN (range 0 (vlen cols))) (map (fun _ => n1) cols) de ty).

  (** pdata.rs 355-596.  If lo > hi the wrapped array size cannot be allocated. *)
  Definition p_load (f : pfile) (lo hi : N) : res (list timestep) :=
    if (hi <? lo)%N then Panic else
    let! cols := mmap (p_column f lo hi) (range 0 (pf_nparticles f)) in
    mmap (p_row cols) (range 0 (hi - lo)).

  (** pdata.rs 81-341: one particle of [read_single]; the position row is reshaped to
      [(particles, 3)], which fails unless [particles] is 1. *)
  Definition p_single_part (f : pfile) (t i : N) : res (v3 F * v3 F * F * F * F * F * F) :=
    let! g := unwrap (pf_group f i) in
    let! lp := unwrap (pg_position g) in
    let! p := vget lp t in
    if negb (pf_nparticles f =? 1)%N then Panic else
    let! lv := unwrap (pg_velocity g) in
    let! v := vget lv t in
    let! lr := unwrap (pg_radius g) in
    let! r := vget lr t in
    let! lty := unwrap (pg_ptype g) in
    let! ty := vget lty t in
    let! lid := unwrap (pg_id g) in
    let! id := vget lid t in
    let! de := match pg_density g with Some l => vget l t | None => Val r end in
    let! g0 := unwrap (pf_group f 0) in
    let! lt := unwrap (pg_time g0) in
    let! tm := vget lt t in
    Val (p, v, r, ty, id, de, tm).
  Definition p_read_single (f : pfile) (t : N) : res timestep :=
    let! l := mmap (p_single_part f t) (range 0 (pf_nparticles f)) in
    let! first := vget l 0 in
    let tm := snd first in
    Val (mkTs tm (map (fun '(p, _, _, _, _, _, _) => p) l) (map (fun '(_, v, _, _, _, _, _) => v) l)
              (map (fun '(_, _, r, _, _, _, _) => r) l) (map (fun '(_, _, _, _, i, _, _) => i) l)
              (map (fun _ => n1) l) (map (fun '(_, _, _, _, _, de, _) => de) l)
              (map (fun '(_, _, _, ty, _, _, _) => ty) l)).

  (** ** Time-ordered files (tdata.rs) *)

  (** One group [timestep i]. *)
  Record tgroup : Type := mkTg {
    tg_position : option (list (v3 F)); tg_velocity : option (list (v3 F));
    tg_radius : option (list F); tg_density : option (list F); tg_ppcloud : option (list F);
    tg_time : option F; tg_ptype : option (list F); tg_id : option (list F) }.
  Record tfile : Type := mkTf { tf_group : N -> option tgroup; tf_nparticles : N; tf_timesteps : N }.

  (** tdata.rs 77-326 [read_single], and the loop bodies 338-580, 598-844. *)
  Definition t_read_single (f : tfile) (t : N) : res timestep :=
    let! g := unwrap (tf_group f t) in
    let! p := unwrap (tg_position g) in
    let! v := unwrap (tg_velocity g) in
    let! r := unwrap (tg_radius g) in
    let de := match tg_density g with Some l => l | None => map (fun _ => n1) r end in
    let! c := unwrap (tg_ppcloud g) in
    let! tm := unwrap (tg_time g) in
    let! ty := unwrap (tg_ptype g) in
    let! id := unwrap (tg_id g) in
    Val (mkTs tm p v r id c de ty).
  (** tdata.rs 337-585. *)
  Definition t_load (f : tfile) (lo hi : N) : res (list timestep) :=
    mmap (t_read_single f) (range lo hi).

  (** ** Nearest timestep: datamanager.rs 80-105 *)

  (** The loop 94-103; [None] of the outer option means the fuel ran out. *)
  Fixpoint search (bld : build) (fuel : nat) (ta : list F) (s : F) (low high mid : N) : option (res N) :=
    if negb (low <=? high)%N then Some (Val mid) else
    match fuel with
    | O => None
    | S fuel' =>
        let mid := ((low + high) / 2)%N in
        match vget ta mid with
        | Panic => Some Panic
        | Val x =>
            if nabs (x - s) <? nlit 1 100 then Some (Val mid)
            else if x <? s then search bld fuel' ta s (mid + 1)%N high mid
            else match usub bld mid 1 with
                 | Panic => Some Panic
                 | Val h => search bld fuel' ta s low h mid
                 end
        end
    end.
  (** The whole function; the inner option is [Result]. *)
  Definition closest (bld : build) (fuel : nat) (ta : list F) (s : F) : option (res (option N)) :=
    match usub bld (vlen ta) 1 with
    | Panic => Some Panic
    | Val high =>
        match vget ta high, vget ta 0 with
        | Val a, Val b =>
            if a <? s then Some (Val None)
            else if s <? b then Some (Val None)
            else match search bld fuel ta s 0 high (high / 2) with
                 | None => None
                 | Some Panic => Some Panic
                 | Some (Val m) => Some (Val (Some m))
                 end
        | _, _ => Some Panic
        end
    end.

  (** ** Rotation: utilities.rs 70-133 (one call of [sin_cos] per axis). *)
  Definition rot_axis (axis : N) (sc : F * F) (v : v3 F) : v3 F :=
    let '(sin, cos) := sc in let '(x, y, z) := v in
    if (axis =? 0)%N then (x, y * cos - z * sin, y * sin + z * cos)
    else if (axis =? 1)%N then (x * cos + z * sin, y, nneg x * sin + z * cos)
    else (x * cos - y * sin, x * sin + y * cos, z).
  Definition rotate_velocity (sincos : F -> F * F) (v : v3 F) (angles : v3 F) : v3 F :=
    let '(a, b, c) := angles in
    rot_axis 2 (sincos c) (rot_axis 1 (sincos b) (rot_axis 0 (sincos a) v)).
  Definition rotate_position (sincos : F -> F * F) (p : v3 F) (angles anchor : v3 F) : v3 F :=
    let '(p0, p1, p2) := p in let '(c0, c1, c2) := anchor in
    let '(x, y, z) := rotate_velocity sincos (p0 - c0, p1 - c1, p2 - c2) angles in
    (x + c0, y + c1, z + c2).

  (** pdata.rs 1184-1191, tdata.rs 1169-1176: the rotation settings.  No function of the crate
      reads them except [info]. *)
  Record rotation : Type := mkRot { r_set : bool; r_angle : v3 F; r_center : v3 F }.
  Definition set_rotation_angle (r : rotation) (angle axis : F) : res rotation :=
    let i := nusize axis in
    let '(a, b, c) := r_angle r in
    let! v := if (i =? 0)%N then Val (angle, b, c) else if (i =? 1)%N then Val (a, angle, c)
              else if (i =? 2)%N then Val (a, b, angle) else Panic in
    let '(a, b, c) := v in
    Val (mkRot (negb ((a =? n0) && (b =? n0) && (c =? n0))) v (r_center r)).
End Data.
Arguments timestep : clear implicits.
Arguments buf : clear implicits.
Arguments dm : clear implicits.
Arguments pgroup : clear implicits.
Arguments pfile : clear implicits.
Arguments tgroup : clear implicits.
Arguments tfile : clear implicits.
Arguments rotation : clear implicits.
