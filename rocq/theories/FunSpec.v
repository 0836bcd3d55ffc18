(** * FunSpec: the vocabulary for properties of the analysis functions (specification only). *)
From Coq Require Import NArith List Bool.
From Verif Require Import Base Num NDArray GridModel GridSpec SelModel DataModel DataSpec FunModel.

Section Spec.
  Context {F : Type} {NF : Num F} {TF : Trig F}.

  (** One recorded particle at one timestep. *)
  Record sample : Type := mkSample {
    sm_time : F; sm_pos : v3 F; sm_vel : v3 F; sm_radius : F; sm_cloud : F; sm_density : F;
    sm_id : F; sm_type : F }.

  Fixpoint rows (t : F) (ps vs : list (v3 F)) (rs cs ds is ys : list F) : list sample :=
    match ps, vs, rs, cs, ds, is, ys with
    | p :: ps, v :: vs, r :: rs, c :: cs, e :: ds, i :: is, y :: ys =>
        mkSample t p v r c e i y :: rows t ps vs rs cs ds is ys
    | _, _, _, _, _, _, _ => []
    end.
  (** The samples of a timestep, particle by particle. *)
  Definition samples (x : timestep F) : list sample :=
    rows (ts_time x) (ts_pos x) (ts_vel x) (ts_radius x) (ts_clouds x) (ts_density x) (ts_id x) (ts_type x).
  (** All arrays of a timestep have one entry per particle. *)
  Definition rect (x : timestep F) : Prop :=
    let n := length (ts_pos x) in
    length (ts_vel x) = n /\ length (ts_radius x) = n /\ length (ts_clouds x) = n /\
    length (ts_density x) = n /\ length (ts_id x) = n /\ length (ts_type x) = n.

  (** A selector with no empty list. *)
  Definition sel_ok (s : selector F) : Prop :=
    s_radius s <> [] /\ s_clouds s <> [] /\ s_density s <> [] /\ s_ids s <> [].
  (** The selector accepts the particle; ... and the time lies in the window. *)
  Definition accepts (s : selector F) (m : sample) : bool :=
    match is_valid s (sm_radius m) (sm_cloud m) (sm_density m) (nusize (sm_id m)) with
    | Val b => b | Panic => false
    end.
  Definition chosen (s : selector F) (m : sample) : bool :=
    timestep_valid s (sm_time m) && accepts s m.
  (** The samples of a data set that the selector lets through. *)
  Definition observed (s : selector F) (L : list (timestep F)) : list sample :=
    filter (chosen s) (flat_map samples L).

  (** The position lies in the grid and in cell [c] of it. *)
  Definition in_cell (bld : build) (ge : geom F) (c : id3) (p : v3 F) : bool :=
    geom_inside ge p && match geom_cell_id bld ge p with Val (Some c') => id3_eqb c' c | _ => false end.
  Definition samples_in (bld : build) (ge : geom F) (c : id3) (l : list sample) : list sample :=
    filter (fun m => in_cell bld ge c (sm_pos m)) l.
  (** Every position in the grid has a cell of the grid: holds for Cartesian grids in doubles
      (C01) and for cylindrical grids in ideal arithmetic (C20). *)
  Definition inside_ok (bld : build) (ge : geom F) : Prop :=
    forall p, geom_inside ge p = true ->
      exists c, geom_cell_id bld ge p = Val (Some c) /\ inb3 (geom_cells ge) c = true.

  (** The sample has a position and a value, and the value lies in the limits. *)
  Definition vel_keep (calc : v3 F -> F) (vmin vmax : F) (m : sample) : bool :=
    negb (nan3 (sm_pos m)) && negb (nisnan (calc (sm_vel m))) &&
    negb (nltb (calc (sm_vel m)) vmin || nltb vmax (calc (sm_vel m))).
  (** The sample has a position; its velocity in the coordinates of the grid. *)
  Definition pos_keep (m : sample) : bool := negb (nan3 (sm_pos m)).
  Definition grid_velocity (g : grid F) (m : sample) : v3 F := velocity_calculation (vnew g) (sm_pos m) (sm_vel m).

  (** ** Managers that read a data set *)

  (** Main reads return the timesteps of [L], in whatever order they are made. *)
  Definition reads_as (M : mgr F) (d : ms M) (L : list (timestep F)) : Prop :=
    st_timesteps (m_stats M) = vlen L /\
    exists Inv : ms M -> Prop, Inv d /\
      forall d t x, Inv d -> at_ L t x -> exists d', m_get M d t = Val (d', x) /\ Inv d'.

  (** The manager reads the non-empty data set [L], whose arrays have one entry per particle. *)
  Definition recorded (M : mgr F) (d : ms M) (L : list (timestep F)) : Prop :=
    reads_as M d L /\ L <> [] /\ Forall rect L.
  (** A grid with nothing in it: new, or emptied including its weights. *)
  Definition fresh (g : grid F) : Prop :=
    wf_grid g /\ forall c, at3 (data g) c = n0 /\ at3 (weight g) c = n0.

  (** The same together with auxiliary buffer 0: its reads are right if they return, and they
      do return for [t] when [can lo t], [lo] being the timestep last read through it. *)
  Definition aux_reads (can : N -> N -> Prop) (M : mgr F) (d : ms M) (L : list (timestep F)) : Prop :=
    st_timesteps (m_stats M) = vlen L /\
    exists (I0 : ms M -> Prop) (I1 : N -> ms M -> Prop), I0 d /\
      (forall d, I0 d -> exists d', m_setup M d 0 = Val d' /\ I1 0%N d') /\
      (forall lo d t x, I1 lo d -> at_ L t x -> exists d', m_get M d t = Val (d', x) /\ I1 lo d') /\
      (forall lo d t x, I1 lo d -> at_ L t x -> can lo t -> exists d', m_getb M d t 0 = Val (d', x) /\ I1 t d') /\
      (forall lo d t x d' y, I1 lo d -> at_ L t x -> m_getb M d t 0 = Val (d', y) -> y = x /\ I1 t d') /\
      (forall lo d, I1 lo d -> I0 d).
End Spec.
Arguments sample : clear implicits.
