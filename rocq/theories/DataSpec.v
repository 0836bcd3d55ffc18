(** * DataSpec: what a file shows at a timestep; histories of reads (specification only). *)
From Coq Require Import NArith List.
From Verif Require Import Base Num NDArray DataModel.

Section Spec.
  Context {F : Type} {NF : Num F}.

  (** Row [t] of a dataset. *)
  Definition at_ {A} (l : list A) (t : N) (x : A) : Prop := nth_error l (N.to_nat t) = Some x.
  Definition row {A} (o : option (list A)) (t : N) (x : A) : Prop := exists l, o = Some l /\ at_ l t x.
  (** ... of an optional dataset: zero if the dataset is missing. *)
  Definition row_or_zero (o : option (list F)) (t : N) (x : F) : Prop :=
    match o with Some l => at_ l t x | None => x = n0 end.
  (** A dataset with at least [n] rows. *)
  Definition long {A} (o : option (list A)) (n : N) : Prop := exists l, o = Some l /\ (n <= vlen l)%N.
  Definition long_if_there {A} (o : option (list A)) (n : N) : Prop :=
    match o with Some l => (n <= vlen l)%N | None => True end.

  (** [x] is what a particle-ordered file records at timestep [t]: particle [i] of [x] is row
      [t] of group [particle i]; the time is row [t] of the first particle's time. *)
  Definition p_shows (f : pfile F) (t : N) (x : timestep F) : Prop :=
    (exists g, pf_group f 0 = Some g /\ row (pg_time g) t (ts_time x)) /\
    vlen (ts_pos x) = pf_nparticles f /\ vlen (ts_vel x) = pf_nparticles f /\
    vlen (ts_radius x) = pf_nparticles f /\ vlen (ts_id x) = pf_nparticles f /\
    vlen (ts_clouds x) = pf_nparticles f /\ vlen (ts_density x) = pf_nparticles f /\
    vlen (ts_type x) = pf_nparticles f /\
    forall i, (i < pf_nparticles f)%N ->
      exists g p v r de ty, pf_group f i = Some g /\
        at_ (ts_pos x) i p /\ row (pg_position g) t p /\
        at_ (ts_vel x) i v /\ row (pg_velocity g) t v /\
        at_ (ts_radius x) i r /\ row_or_zero (pg_radius g) t r /\
        at_ (ts_density x) i de /\ row_or_zero (pg_density g) t de /\
        at_ (ts_type x) i ty /\ row_or_zero (pg_ptype g) t ty /\
        at_ (ts_id x) i (nofN i) /\ at_ (ts_clouds x) i n1.
  (** A file as the converters write it: at least one particle and one timestep, and every
      dataset that is there has a row for every timestep. *)
  Definition pf_ok (f : pfile F) : Prop :=
    (1 <= pf_nparticles f)%N /\ (1 <= pf_timesteps f <= 2 ^ 53)%N /\
    (exists g, pf_group f 0 = Some g /\ long (pg_time g) (pf_timesteps f)) /\
    forall i, (i < pf_nparticles f)%N -> exists g, pf_group f i = Some g /\
      long (pg_position g) (pf_timesteps f) /\ long (pg_velocity g) (pf_timesteps f) /\
      long_if_there (pg_radius g) (pf_timesteps f) /\ long_if_there (pg_density g) (pf_timesteps f) /\
      long_if_there (pg_ptype g) (pf_timesteps f).

  (** The same for time-ordered files: the fields are the datasets of group [timestep t]. *)
  Definition t_shows (f : tfile F) (t : N) (x : timestep F) : Prop :=
    exists g, tf_group f t = Some g /\
      tg_time g = Some (ts_time x) /\ tg_position g = Some (ts_pos x) /\
      tg_velocity g = Some (ts_vel x) /\ tg_radius g = Some (ts_radius x) /\
      tg_id g = Some (ts_id x) /\ tg_ppcloud g = Some (ts_clouds x) /\ tg_ptype g = Some (ts_type x) /\
      match tg_density g with
      | Some l => ts_density x = l
      | None => ts_density x = repeat n1 (length (ts_radius x))
      end.
  Definition tf_ok (f : tfile F) : Prop :=
    (1 <= tf_timesteps f <= 2 ^ 53)%N /\
    forall t, (t < tf_timesteps f)%N -> exists g, tf_group f t = Some g /\
      tg_time g <> None /\ tg_position g <> None /\ tg_velocity g <> None /\ tg_radius g <> None /\
      tg_id g <> None /\ tg_ppcloud g <> None /\ tg_ptype g <> None.

  (** ** Histories *)
  Inductive dop : Type :=
  | ORead (t : N)             (* get_timestep(t) *)
  | OSetup (name : N)         (* setup_buffer(name) *)
  | OAux (t id : N).          (* get_timestep_buffer(t, id) *)

  Section Run.
    Context (bld : build) (load : N -> N -> res (list (timestep F))) (nt : N)
            (getb : dm F -> N -> N -> res (dm F * timestep F)).
    Definition dstep (d : dm F) (o : dop) : res (dm F * list (N * timestep F)) :=
      match o with
      | ORead t => let! r := dm_get bld load nt d t in Val (fst r, [(t, snd r)])
      | OSetup name => let! d' := dm_setup bld load nt d name in Val (d', [])
      | OAux t id => let! r := getb d t id in Val (fst r, [(t, snd r)])
      end.
    (** The state reached and everything observed, with the requested timesteps. *)
    Fixpoint drun (ops : list dop) (d : dm F) : res (dm F * list (N * timestep F)) :=
      match ops with
      | [] => Val (d, [])
      | o :: ops' =>
          let! r := dstep d o in let! r' := drun ops' (fst r) in Val (fst r', snd r ++ snd r')
      end.
    Definition op_in_range (o : dop) : Prop :=
      match o with ORead t => (t < nt)%N | OSetup _ => True | OAux t _ => (t < nt)%N end.
    Definition dhist (ops : list dop) : res (dm F * list (N * timestep F)) :=
      let! d := dm_new bld load nt in drun ops d.
  End Run.

  Definition p_hist (bld : build) (f : pfile F) : list dop -> res (dm F * list (N * timestep F)) :=
    dhist bld (p_load f) (pf_timesteps f) (p_get_buffer bld (p_load f) (pf_timesteps f)).
  Definition t_hist (bld : build) (f : tfile F) : list dop -> res (dm F * list (N * timestep F)) :=
    dhist bld (t_load f) (tf_timesteps f) (t_get_buffer bld (t_load f) (tf_timesteps f)).
End Spec.
