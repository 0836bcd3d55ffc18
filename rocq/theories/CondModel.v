(** * CondModel: src/functions/extractions.rs and src/functions/conditional.rs *)
From Coq Require Import ZArith NArith List.
From Verif Require Import Base Num NDArray GridModel SelModel DataModel FunModel.

Section Cond.
  Context {F : Type} {NF : Num F}.
  Local Open Scope num_scope.
  Variable bld : build.
  Variable M : mgr F.
  Notation nt := (st_timesteps (m_stats M)).

  (** [Array2::zeros((n, 7))]: ndarray panics if the number of elements exceeds isize::MAX. *)
  Definition alloc7 (n : N) : res (list (list F)) :=
    if (2 ^ 63 <=? n * 7)%N then Panic else Val (repeat (repeat n0 7) (N.to_nat n)).

  (** extractions.rs 22-36: one row. *)
  Definition extract_row (x : timestep F) (pid : N) : res (list F) :=
    let! p := vget (ts_pos x) pid in
    let! v := vget (ts_vel x) pid in
    let '(p0, p1, p2) := p in let '(v0, v1, v2) := v in
    Val [ts_time x; p0; p1; p2; v0; v1; v2].

  (** extractions.rs 12-41 [extract]. *)
  Definition extract (d : ms M) (pid : N) (a b : N) : res (ms M * list (list F)) :=
    if ((nt <=? a) || (nt <=? b))%N%bool then Panic else
    let! n := usub bld b a in
    let! z := alloc7 n in
    mfold (fun st '(id, t) =>
      let! r := m_get M (fst st) t in
      let '(d', x) := r in
      let! q := extract_row x pid in
      let! rows := vset (snd st) id q in
      Val (d', rows)) (enumerate (range a b)) (d, z).

  (** conditional.rs 13-15: the boundary must lie in the recorded dimensions; [dim[[1, axis]]]
      panics for axis > 2. *)
  Definition in_dims (axis : N) (b : F) : res bool :=
    let! hi := v3get (snd (st_dims (m_stats M))) axis in
    let! lo := v3get (fst (st_dims (m_stats M))) axis in
    Val (negb ((hi <? b) || (b <? lo))).

  (** The loop over [1..timesteps - 1] that keeps the previous valid timestep: conditional.rs
      23-82 and 111-237. *)
  Definition pair_loop {A} (s : selector F) (body : timestep F -> timestep F -> A -> res A)
    (d : ms M) (acc : A) : res (ms M * A) :=
    let! r := m_get M d 0 in
    let '(d0, x0) := r in
    let! n := usub bld nt 1 in
    let! r := loop_ts M s (fun st _ y =>
        let '(old, acc) := snd st in
        let! acc' := body old y acc in
        Val (fst st, (y, acc'))) (range 1 n) (d0, (x0, acc)) in
    Val (fst r, snd (snd r)).
  (** The particle loop, skipping indices whose id changed: conditional.rs 49-62, 138-151. *)
  Definition pair_particles {A} (s : selector F) (old y : timestep F)
    (body : A -> N -> v3 F -> v3 F -> res A) (acc : A) : res A :=
    loop_particles s y (fun acc i p =>
      let! id := vget (ts_id y) i in
      let! id' := vget (ts_id old) i in
      if negb (id =? id') then Val acc else
      let! q := vget (ts_pos old) i in
      body acc i p q) acc.

  (** [start_flag_array], [time_flag_array], [circulation_time]. *)
  Record circ : Type := mkCirc { ci_flag : list N; ci_time : list F; ci_out : list F }.

  (** conditional.rs 66-77. *)
  Definition circ_step (axis : N) (b now : F) (st : circ) (i : N) (p q : v3 F) : res circ :=
    let! pa := v3get p axis in
    let! qa := v3get q axis in
    if (pa - b) * (qa - b) <? n0 then
      let! f := vget (ci_flag st) i in
      if (f =? 0)%N then
        let! fl := vset (ci_flag st) i 1%N in
        let! tm := vset (ci_time st) i now in
        Val (mkCirc fl tm (ci_out st))
      else if (f =? 1)%N then
        let! fl := vset (ci_flag st) i 2%N in
        Val (mkCirc fl (ci_time st) (ci_out st))
      else
        let! t := vget (ci_time st) i in
        let! fl := vset (ci_flag st) i 0%N in
        Val (mkCirc fl (ci_time st) (ci_out st ++ [now - t]))
    else Val st.

  (** conditional.rs 3-84 [circulation_time]. *)
  Definition circulation_time (d : ms M) (s : selector F) (axis : N) (b : F) : res (ms M * list F) :=
    let! ok := in_dims axis b in
    if negb ok then Panic else
    let n := N.to_nat (st_nparticles (m_stats M) + 1) in
    let! r := pair_loop s (fun old y => pair_particles s old y (circ_step axis b (ts_time y))) d
                (mkCirc (repeat 0%N n) (repeat n0 n) []) in
    Val (fst r, ci_out (snd r)).

  (** [start_flag_array], [mid_flag_array], [time_flag_array], [mid_time_flag_array],
      [circulation_time] of the two-boundary version. *)
  Record circ2 : Type := mkCirc2 {
    c2_flag : list N; c2_mid : list N; c2_time : list F; c2_mtime : list F; c2_out : list (F * F) }.

  (** conditional.rs 158-168 (region 1 entered, own = 2) and 202-210 (region 0, own = 1):
      entering the region opposite to the start region [own]. *)
  Definition enter (own : N) (st : circ2) (i : N) : res circ2 :=
    let! f := vget (c2_flag st) i in
    if (f =? own)%N then
      let! mi := vset (c2_mid st) i 1%N in
      Val (mkCirc2 (c2_flag st) mi (c2_time st) (c2_mtime st) (c2_out st))
    else Val st.
  (** conditional.rs 176-191 (own = 1, other = 2) and 215-230 (own = 2, other = 1): leaving
      the region [own]. *)
  Definition leave (own other : N) (now : F) (st : circ2) (i : N) : res circ2 :=
    let! f := vget (c2_flag st) i in
    if (f =? 0)%N then
      let! tm := vset (c2_time st) i now in
      let! fl := vset (c2_flag st) i own in
      Val (mkCirc2 fl (c2_mid st) tm (c2_mtime st) (c2_out st))
    else if (f =? own)%N then
      let! m := vget (c2_mid st) i in
      if (m =? 1)%N then
        let! t := vget (c2_time st) i in
        let! mi := vset (c2_mid st) i 0%N in
        let! tm := vset (c2_time st) i now in
        Val (mkCirc2 (c2_flag st) mi tm (c2_mtime st) (c2_out st ++ [(t, now)]))
      else
        let! tm := vset (c2_time st) i now in
        Val (mkCirc2 (c2_flag st) (c2_mid st) tm (c2_mtime st) (c2_out st))
    else if (f =? other)%N then
      let! mt := vset (c2_mtime st) i now in
      Val (mkCirc2 (c2_flag st) (c2_mid st) (c2_time st) mt (c2_out st))
    else Val st.
  (** conditional.rs 198-231. *)
  Definition lower_step (b0 now pa qa : F) (st : circ2) (i : N) : res circ2 :=
    if (pa <? b0) && (b0 <? qa) then enter 1 st i
    else if (b0 <? pa) && (qa <? b0) then leave 2 1 now st i
    else Val st.
  (** conditional.rs 152-231; the counter [count] is never read (an i32: a debug build would stop at its
      2^31st upward crossing, which is not modelled). *)
  Definition circ2_step (axis : N) (b0 b1 now : F) (st : circ2) (i : N) (p q : v3 F) : res circ2 :=
    let! pa := v3get p axis in
    let! qa := v3get q axis in
    if (b1 <? pa) && (qa <? b1) then
      let! st' := enter 2 st i in
      lower_step b0 now pa qa st' i
    else if (pa <? b1) && (b1 <? qa) then leave 1 2 now st i
    else lower_step b0 now pa qa st i.

  (** conditional.rs 86-239 [circulation_time_two_boundary]. *)
  Definition circulation_time_two_boundary (d : ms M) (s : selector F) (axis : N) (b0 b1 : F)
    : res (ms M * list (F * F)) :=
    let! ok0 := in_dims axis b0 in
    if negb ok0 then Panic else
    let! ok1 := in_dims axis b1 in
    if negb ok1 then Panic else
    let n := N.to_nat (st_nparticles (m_stats M) + 1) in
    let! r := pair_loop s (fun old y => pair_particles s old y (circ2_step axis b0 b1 (ts_time y))) d
                (mkCirc2 (repeat 0%N n) (repeat 0%N n) (repeat n0 n) (repeat n0 n) []) in
    Val (fst r, c2_out (snd r)).
End Cond.
