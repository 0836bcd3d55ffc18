(** * SelModel: src/particleselector.rs *)
From Coq Require Import ZArith NArith.
From Verif Require Import Base Num.

Section Sel.
  Context {F : Type} {NF : Num F}.
  Local Open Scope num_scope.

  (** particleselector.rs 15-21. *)
  Record selector : Type := mkSel {
    s_time : F * F; s_radius : list F; s_clouds : list F; s_density : list F; s_ids : list N }.

  (** particleselector.rs 22-32. *)
  Definition sel_default : selector :=
    mkSel (nmin, nmax) [nneg n1] [nneg n1] [nneg n1] [0%N].

  (** [Vec<f64>::contains]. *)
  Definition fcontains (l : list F) (x : F) : bool := existsb (fun y => neqb y x) l.

  (** particleselector.rs 50-62; [v[0]] panics on an empty vector. *)
  Definition is_radius_valid (s : selector) (x : F) : res bool :=
    let! f := vget (s_radius s) 0 in
    if f =? nneg n1 then Val true
    else if (vlen (s_radius s) =? 1)%N then Val (x =? f)
    else if (vlen (s_radius s) =? 2)%N then
      let! u := vget (s_radius s) 1 in Val ((f <=? x) && (x <=? u))
    else Val (fcontains (s_radius s) x).

  (** particleselector.rs 63-75: tests the length of [radius]. *)
  Definition is_cloud_valid (s : selector) (x : F) : res bool :=
    let! f := vget (s_clouds s) 0 in
    if f =? nneg n1 then Val true
    else if (vlen (s_clouds s) =? 1)%N then Val (x =? f)
    else if (vlen (s_radius s) =? 2)%N then
      let! u := vget (s_clouds s) 1 in Val ((f <=? x) && (x <=? u))
    else Val (fcontains (s_clouds s) x).

  (** particleselector.rs 76-88: tests the length of [radius] and compares with [radius[1]]. *)
  Definition is_density_valid (s : selector) (x : F) : res bool :=
    let! f := vget (s_density s) 0 in
    if f =? nneg n1 then Val true
    else if (vlen (s_density s) =? 1)%N then Val (x =? f)
    else if (vlen (s_radius s) =? 2)%N then
      let! u := vget (s_radius s) 1 in Val ((f <=? x) && (x <=? u))
    else Val (fcontains (s_density s) x).

  (** particleselector.rs 89-102. *)
  Definition is_particleid_valid (s : selector) (i : N) : res bool :=
    let! f := vget (s_ids s) 0 in
    if (f =? 0)%N then Val true
    else if (vlen (s_ids s) =? 1)%N then Val (i =? f)%N
    else if (vlen (s_ids s) =? 2)%N then
      let! u := vget (s_ids s) 1 in Val ((f <=? i) && (i <=? u))%N
    else Val (existsb (fun y => (y =? i)%N) (s_ids s)).

  (** particleselector.rs 106-113; [&&] is lazy. *)
  Definition is_valid (s : selector) (radius cloud dens : F) (i : N) : res bool :=
    let! a := is_radius_valid s radius in
    if negb a then Val false else
    let! b := is_cloud_valid s cloud in
    if negb b then Val false else
    let! c := is_density_valid s dens in
    if negb c then Val false else is_particleid_valid s i.

  (** particleselector.rs 115-117. *)
  Definition timestep_valid (s : selector) (t : F) : bool :=
    (fst (s_time s) <=? t) && (t <=? snd (s_time s)).
  (** particleselector.rs 119-121. *)
  Definition set_time (s : selector) (lo hi : F) : selector :=
    mkSel (lo, hi) (s_radius s) (s_clouds s) (s_density s) (s_ids s).
End Sel.
Arguments selector : clear implicits.
