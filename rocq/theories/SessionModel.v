(** * SessionModel: src/pylib.rs, the class [Data] as a whole (struct [PyData], 97-101)

    An object of the class holds a data manager and a selector.  Every method clones the grid it is
    given ([grid.grid.clone()]), so a call changes neither its arguments nor anything else but
    these two fields.  Printing ([stats], [__str__]) is not modelled. *)
From Coq Require Import ZArith NArith List String.
From Verif Require Import Base Num NDArray GridModel SelModel DataModel FunModel MixModel CondModel PyModel.

Section Session.
  Context {F : Type} {NF : Num F} {TF : Trig F}.

  (** The methods with their arguments. *)
  Inductive call : Type :=
  | CSetTime (tmin tmax : F)                                   (* 259-268 *)
  | CVectorfield (g : grid F)                                  (* 296-304 *)
  | CVelocityfield (g : grid F) (mode : string) (vmin vmax : F) (* 317-341 *)
  | CExtract (pid a b : N)                                     (* 356-363 *)
  | CNumberfield (g : grid F)                                  (* 376-387 *)
  | COccupancy (g : grid F) (min_vel : F)                      (* 402-415 *)
  | CMeanVelocity                                              (* 423-434 *)
  | CDispersion (g : grid F) (dt : F)                          (* 457-476 *)
  | CHistogram (g : grid F) (property : string) (bins : N) (limit : F) (* 502-521 *)
  | CTemperature (g : grid F) (mode : string)                  (* 547-560 *)
  | CLacey (g : grid F) (ta tb threshold : N)                  (* 582-604 *)
  | CCirculation (position : F) (axis : N)                     (* 619-629 *)
  | CCirculation2 (p0 p1 : F) (axis : N)                       (* 648-658 *)
  | CConcentration (g : grid F) (ta tb : N)                    (* 679-696 *)
  | CHomogenity (g : grid F) (min_vel : F)                     (* 707-716 *)
  | CMsdField (g : grid F) (t : F)                             (* 732-742 *)
  | CMsd (g : grid F) (tmin tmax : F) (steps : N)              (* 765-783 *)
  | CItem (i : Z) | CItems (l : list Z) | CSlice (a b st : option Z) (* 827-928 *)
  | CLen                                                       (* 930-932 *)
  | CTime                                                      (* 277-283 *)
  | CDimensions                                                (* 207-220 *)
  | CMinPosition | CMaxPosition                                (* 227-244 *)
  | CNparticles.                                               (* 247-249 *)

  Inductive answer : Type :=
  | ANone | AGrid (g : grid F) | AVec (g : vgrid F) | ANum (x : F) | AGridNum (g : grid F) (x : F)
  | AList (l : list F) | ALists (l l' : list F) | APairs (l : list (F * F))
  | ATable (t : list (list F)) | ABlocks (b : list (list (list F))) | ACount (n : N)
  | ADims (d : v3 F * v3 F) | APos (p : v3 F).

  Variable bld : build.
  Variable M : mgr F.
  (** Attribute [time], second entry. *)
  Variable max_time : F.

  Definition session : Type := (ms M * selector F)%type.
  (** A query: the manager moves on, the selector stays. *)
  Definition ask {A} (s : selector F) (r : res (ms M * A)) (k : A -> answer) : res (session * answer) :=
    let! x := r in Val ((fst x, s), k (snd x)).

  Definition py_call (st : session) (c : call) : res (session * answer) :=
    let '(d, s) := st in
    let stats := m_stats M in
    match c with
    | CSetTime a b => let! s' := py_set_time s max_time a b in Val ((d, s'), ANone)
    | CVectorfield g => ask s (vectorfield bld M d g s) AVec
    | CVelocityfield g mode a b => ask s (velocityfield bld M d g s mode a b) AGrid
    | CExtract pid a b => ask s (extract bld M d pid a b) ATable
    | CNumberfield g => ask s (numberfield bld M d g s) AGrid
    | COccupancy g v => ask s (occupancyfield bld M d g s v) AGrid
    | CMeanVelocity => Val (st, ANum (mean_velocity M))
    | CDispersion g t => ask s (dispersion bld M d g s t) (fun r => AGridNum (fst r) (snd r))
    | CHistogram g p n l => ask s (histogram bld M d g s p l n) (fun r => ALists (fst r) (snd r))
    | CTemperature g mode => ask s (granular_temperature_field bld M d g s mode) AGrid
    | CLacey g a b t => ask s (lacey_mixing bld M d g s a b t) (fun r => ALists (fst r) (snd r))
    | CCirculation p axis => ask s (circulation_time bld M d s axis p) AList
    | CCirculation2 p q axis => ask s (circulation_time_two_boundary bld M d s axis p q) APairs
    | CConcentration g a b => ask s (concentration_field bld M d g s a b) AGrid
    | CHomogenity g v => ask s (homogenity_index bld M d g s v) ANum
    | CMsdField g t => ask s (msd_field bld M d g s t) AGrid
    | CMsd g a b n => ask s (msd bld M d g s a b n) (fun r => ALists (fst r) (snd r))
    | CItem i => ask s (py_int M d i) ATable
    | CItems l => ask s (py_list M d l) ABlocks
    | CSlice a b n => ask s (py_slice M d a b n) ABlocks
    | CLen => Val (st, ACount (st_timesteps stats))
    | CTime => Val (st, AList (st_time stats))
    | CDimensions => Val (st, ADims (st_dims stats))
    | CMinPosition => Val (st, APos (fst (st_dims stats)))
    | CMaxPosition => Val (st, APos (snd (st_dims stats)))
    | CNparticles => Val (st, ACount (st_nparticles stats))
    end.

  (** ** What a read that fails leaves behind

      [get_timestep_buffer] moves the window of the auxiliary buffer before it indexes it, so when
      the index is out of bounds the window has moved already: pdata.rs 1106-1127 and
      tdata.rs 1085-1111 without the last line. *)
  Definition p_touch (load : N -> N -> res (list (timestep F))) (nt : N) (d : dm F) (t id : N) : res (dm F) :=
    let! e := vget (d_extra d) id in
    let! last := usub bld (b_hi e) 1 in
    let! e1 :=
      if (last <? t)%N then (let! hi := uadd bld t (b_size (d_main d)) in buf_update bld load nt t hi e)
      else if ((b_hi e =? nt)%N && (t <? b_lo e)%N)%bool then buf_update bld load nt 0 BUFFERSIZE e
      else Val e in
    let! e2 := if (t <? b_lo e1)%N then (let! hi := uadd bld t (b_size (d_main d)) in buf_update bld load nt t hi e1) else Val e1 in
    let! ex := vset (d_extra d) id e2 in
    Val (mkDm (d_main d) ex (d_names d)).
  Definition t_touch (load : N -> N -> res (list (timestep F))) (nt : N) (d : dm F) (t id : N) : res (dm F) :=
    let! e := vget (d_extra d) id in
    let! last := usub bld (b_hi e) 1 in
    let! e1 :=
      if (last <? t)%N then (let! hi := uadd bld t (b_size e) in buf_update bld load nt t hi e)
      else if ((b_hi e =? nt)%N && (t <? b_lo e)%N)%bool then buf_update bld load nt 0 BUFFERSIZE e
      else Val e in
    let! e2 := if (t <? b_lo (d_main d))%N then (let! hi := uadd bld t (b_size e1) in buf_update bld load nt t hi e1) else Val e1 in
    let! ex := vset (d_extra d) id e2 in
    Val (mkDm (d_main d) ex (d_names d)).

  (** A sequence of calls, all of which return. *)
  Definition py_calls (l : list call) (st : session) : res session :=
    mfold (fun st c => let! r := py_call st c in Val (fst r)) l st.
End Session.
Arguments call : clear implicits.
Arguments answer : clear implicits.
