(** * FunField: numberfield, velocityfield and vectorfield as per-cell sums. *)
From Coq Require Import NArith List Bool Lia String ZifyBool ZifyN ZifyNat.
From Verif Require Import Base BaseFacts Num NDArray GridModel GridSpec GridFacts CartProofs GridOps SelModel DataModel DataSpec DataProofs FunModel FunSpec FunProofs.

Section Gen.
  Context {F : Type} {NF : Num F} {TF : Trig F}.
  Context (bld : build) (M : mgr F).

  Lemma new_zeros_wf (g : grid F) : wf_grid g -> wf_grid (new_zeros g) /\ geo (new_zeros g) = geo g.
  Proof. intros [W1 W2]. unfold wf_grid, new_zeros, with_data. cbn. auto. Qed.

  Lemma number_fold (g : grid F) (s : selector F) L d st : recorded M d L -> sel_ok s ->
    match mfold (fun h m => if true && is_inside g (sm_pos m) then add_value bld h (sm_pos m) n1 else Val h) (observed s L) st with
    | Val r => exists d', (let! l := all_steps bld M in
        loop_pure M s (fun h x => loop_particles s x (fun h i p =>
          if negb (is_inside g p) then Val h else add_value bld h p n1) h) l (d, st)) = Val (d', r) /\ recorded M d' L
    | Panic => (let! l := all_steps bld M in
        loop_pure M s (fun h x => loop_particles s x (fun h i p =>
          if negb (is_inside g p) then Val h else add_value bld h p n1) h) l (d, st)) = Panic
    end.
  Proof.
    intros [Rd [Ne Rc]] Sk.
    assert (Q := loop_observed bld M s (fun _ h (i : N) p => if negb (is_inside g p) then Val h else add_value bld h p n1)
      (fun h m => if true && is_inside g (sm_pos m) then add_value bld h (sm_pos m) n1 else Val h) L d st Rd Ne Rc Sk).
    assert (H : forall (x : timestep F) st (i : N) (m : sample F), In x L -> at_ (samples x) i m ->
      (if negb (is_inside g (sm_pos m)) then Val st else add_value bld st (sm_pos m) n1) =
      (if true && is_inside g (sm_pos m) then add_value bld st (sm_pos m) n1 else Val st)).
    { intros x st' i m _ _. cbn [andb]. now destruct (is_inside g (sm_pos m)). }
    specialize (Q H). destruct (mfold _ (observed s L) st); [|exact Q].
    destruct Q as [d' [Q R]]. exists d'. split; [exact Q|]. split; [exact R|]. auto.
  Qed.

  Lemma velocity_fold (g : grid F) (s : selector F) calc vmin vmax L d st : recorded M d L -> sel_ok s ->
    let body (h : grid F) (m : sample F) :=
      if vel_keep calc vmin vmax m && is_inside g (sm_pos m) then add_value bld h (sm_pos m) (calc (sm_vel m)) else Val h in
    let prog := (let! l := all_steps bld M in
        loop_pure M s (fun h x => loop_particles s x (fun h i p =>
          if nan3 p then Val h else
          let! v := vget (ts_vel x) i in
          let a := calc v in
          if nisnan a then Val h else
          if negb (is_inside g p) then Val h else
          if nltb a vmin || nltb vmax a then Val h else
          add_value bld h p a) h) l (d, st)) in
    match mfold body (observed s L) st with
    | Val r => exists d', prog = Val (d', r) /\ recorded M d' L
    | Panic => prog = Panic
    end.
  Proof.
    intros [Rd [Ne Rc]] Sk body prog.
    assert (Q := loop_observed bld M s (fun x h i p => if nan3 p then Val h else
          let! v := vget (ts_vel x) i in
          let a := calc v in
          if nisnan a then Val h else
          if negb (is_inside g p) then Val h else
          if nltb a vmin || nltb vmax a then Val h else
          add_value bld h p a) body L d st Rd Ne Rc Sk).
    rewrite Forall_forall in Rc.
    match type of Q with ?P -> _ => assert (H : P) end.
    { intros x st' i m Hx Hm. destruct (samples_at x i m (Rc x Hx) Hm) as [_ [_ [Hv _]]].
      rewrite (proj2 (vget_val _ _ _) Hv). cbn [bind]. unfold body, vel_keep. cbn zeta.
      destruct (nan3 (sm_pos m)); cbn [negb andb]; [reflexivity|].
      destruct (nisnan (calc (sm_vel m))); cbn [negb andb]; [reflexivity|].
      destruct (is_inside g (sm_pos m)); cbn [negb andb];
        destruct (nltb (calc (sm_vel m)) vmin || nltb vmax (calc (sm_vel m))); reflexivity. }
    specialize (Q H). destruct (mfold body (observed s L) st); [|exact Q].
    destruct Q as [d' [Q R]]. exists d'. split; [exact Q|]. split; [exact R|]. split; [exact Ne|]. now apply Forall_forall.
  Qed.

  (** ** Vector grids: three accumulations in parallel. *)
  Definition vec_body (g : grid F) (val : sample F -> v3 F) (keep : sample F -> bool) (vg : vgrid F) (m : sample F) : res (vgrid F) :=
    if keep m && is_inside g (sm_pos m) then
      let '(u0, u1, u2) := val m in
      let! a := add_value bld (vg0 vg) (sm_pos m) u0 in
      let! b := add_value bld (vg1 vg) (sm_pos m) u1 in
      let! c := add_value bld (vg2 vg) (sm_pos m) u2 in
      Val (mkV a b c (vcyl vg))
    else Val vg.
  Definition one_body (g : grid F) (keep : sample F -> bool) (val : sample F -> F) (h : grid F) (m : sample F) : res (grid F) :=
    if keep m && is_inside g (sm_pos m) then add_value bld h (sm_pos m) (val m) else Val h.
  Definition p0 (v : v3 F) : F := fst (fst v).
  Definition p1 (v : v3 F) : F := snd (fst v).
  Definition p2 (v : v3 F) : F := snd v.
  Lemma vec_fold (g : grid F) val keep l : forall vg,
    mfold (vec_body g val keep) l vg =
    let! a := mfold (one_body g keep (fun m => p0 (val m))) l (vg0 vg) in
    let! b := mfold (one_body g keep (fun m => p1 (val m))) l (vg1 vg) in
    let! c := mfold (one_body g keep (fun m => p2 (val m))) l (vg2 vg) in
    Val (mkV a b c (vcyl vg)).
  Proof.
    induction l as [|m l IH]; intros [a b c y]; [reflexivity|]. cbn [mfold].
    unfold vec_body at 1, one_body at 1 3 5. destruct (keep m && is_inside g (sm_pos m)); cbn [bind].
    - destruct (val m) as [[u0 u1] u2]. unfold p0, p1, p2. cbn [fst snd vg0 vg1 vg2 vcyl].
      destruct (add_value bld a (sm_pos m) u0) as [a'|]; cbn [bind]; [|reflexivity].
      destruct (add_value bld b (sm_pos m) u1) as [b'|]; cbn [bind].
      + destruct (add_value bld c (sm_pos m) u2) as [c'|]; cbn [bind].
        * rewrite IH. reflexivity.
        * destruct (mfold (one_body g keep (fun m => fst (fst (val m)))) l a'); cbn [bind]; [|reflexivity].
          now destruct (mfold (one_body g keep (fun m => snd (fst (val m)))) l b').
      + now destruct (mfold (one_body g keep (fun m => fst (fst (val m)))) l a').
    - rewrite IH. reflexivity.
  Qed.

  (** The loop keeps the geometry of the first grid. *)
  Definition vec_like (g : grid F) (vg : vgrid F) : Prop :=
    geo (vg0 vg) = geo g /\ vcyl vg = vcyl (vnew g).

  Lemma mfold_ext_inv {S A} (P : S -> Prop) (f h : S -> A -> res S) l : forall st, P st ->
    (forall st a, P st -> f st a = h st a) -> (forall st a st', P st -> f st a = Val st' -> P st') ->
    mfold f l st = mfold h l st.
  Proof.
    induction l as [|a l IH]; intros st P0 E K; [reflexivity|]. cbn [mfold]. rewrite <- (E st a P0).
    destruct (f st a) as [st'|] eqn:Q; cbn [bind]; [|reflexivity]. apply IH; eauto.
  Qed.
  Lemma add_value_geo (g : grid F) p v g' : add_value bld g p v = Val g' -> geo g' = geo g.
  Proof.
    unfold add_value. intros E. apply bind_val in E. destruct E as [[c|] [_ E]]; [|now injection E as <-].
    assert (B : forall g', bump g c v n1 = Val g' -> geo g' = geo g).
    { clear E g'. intros g' E. unfold bump in E. repeat (apply bind_val in E; destruct E as [? [_ E]]). now injection E as <-. }
    assert (E' : bump g c v n1 = Val g' \/ g' = g).
    { destruct (geo g) as [cg|]; [destruct (inb3 _ _); [now left | right; now injection E] | now left]. }
    destruct E' as [E' | ->]; [now apply B | reflexivity].
  Qed.

  Lemma vector_fold (g : grid F) (s : selector F) L d : recorded M d L -> sel_ok s ->
    let prog := (let! l := all_steps bld M in
      loop_pure M s (fun vg x => loop_particles s x (fun vg i p =>
          if nan3 p then Val vg else
          let! v := vget (ts_vel x) i in
          if negb (v_is_inside vg p) then Val vg else
          let '(u0, u1, u2) := velocity_calculation vg p v in
          let! a := add_value bld (vg0 vg) p u0 in
          let! b := add_value bld (vg1 vg) p u1 in
          let! c := add_value bld (vg2 vg) p u2 in
          Val (mkV a b c (vcyl vg))) vg) l (d, vnew g)) in
    match mfold (vec_body g (grid_velocity g) pos_keep) (observed s L) (vnew g) with
    | Val r => exists d', prog = Val (d', r) /\ recorded M d' L
    | Panic => prog = Panic
    end.
  Proof.
    intros [Rd [Ne Rc]] Sk prog.
    set (raw := fun (vg : vgrid F) (m : sample F) => if nan3 (sm_pos m) then Val vg else
          if negb (v_is_inside vg (sm_pos m)) then Val vg else
          let '(u0, u1, u2) := velocity_calculation vg (sm_pos m) (sm_vel m) in
          let! a := add_value bld (vg0 vg) (sm_pos m) u0 in
          let! b := add_value bld (vg1 vg) (sm_pos m) u1 in
          let! c := add_value bld (vg2 vg) (sm_pos m) u2 in
          Val (mkV a b c (vcyl vg))).
    assert (Q := loop_observed bld M s (fun x vg i p => if nan3 p then Val vg else
          let! v := vget (ts_vel x) i in
          if negb (v_is_inside vg p) then Val vg else
          let '(u0, u1, u2) := velocity_calculation vg p v in
          let! a := add_value bld (vg0 vg) p u0 in
          let! b := add_value bld (vg1 vg) p u1 in
          let! c := add_value bld (vg2 vg) p u2 in
          Val (mkV a b c (vcyl vg))) raw L d (vnew g) Rd Ne Rc Sk).
    match type of Q with ?P -> _ => assert (H : P) end.
    { rewrite Forall_forall in Rc. intros x st' i m Hx Hm. destruct (samples_at x i m (Rc x Hx) Hm) as [_ [_ [Hv _]]].
      rewrite (proj2 (vget_val _ _ _) Hv). reflexivity. }
    specialize (Q H).
    assert (E : mfold raw (observed s L) (vnew g) = mfold (vec_body g (grid_velocity g) pos_keep) (observed s L) (vnew g)).
    { apply (mfold_ext_inv (vec_like g)).
      - split; reflexivity.
      - intros vg m [G1 G2]. unfold raw, vec_body, pos_keep, grid_velocity, v_is_inside, is_inside, velocity_calculation.
        rewrite G1, G2. cbn [vg0 vnew vcyl].
        destruct (nan3 (sm_pos m)); cbn [negb andb]; [reflexivity|].
        now destruct (geom_inside (geo g) (sm_pos m)).
      - intros vg m vg' [G1 G2]. unfold raw.
        destruct (nan3 (sm_pos m)); [intros [= <-]; split; assumption|].
        destruct (negb _); [intros [= <-]; split; assumption|].
        destruct (velocity_calculation vg (sm_pos m) (sm_vel m)) as [[u0 u1] u2]. intros R.
        apply bind_val in R. destruct R as [a [A R]]. apply bind_val in R. destruct R as [b [_ R]].
        apply bind_val in R. destruct R as [c [_ R]]. injection R as <-. split; [|exact G2]. cbn [vg0].
        rewrite (add_value_geo _ _ _ _ A). exact G1. }
    rewrite <- E. destruct (mfold raw (observed s L) (vnew g)); [|exact Q].
    destruct Q as [d' [Q R]]. exists d'. split; [exact Q|]. split; [exact R|]. auto.
  Qed.

  (** ** Nothing is lost: the cells partition the samples inside. *)
  Lemma samples_in_length_sum (ge : geom F) l : inside_ok bld ge ->
    length (filter (fun m : sample F => geom_inside ge (sm_pos m)) l) =
    fold_right Nat.add 0 (map (fun c => length (samples_in bld ge c l)) (ids3 (geom_cells ge))).
  Proof.
    intros Ok. induction l as [|m l IH].
    - cbn. induction (ids3 (geom_cells ge)) as [|c cs IHc]; [reflexivity|]. cbn. exact IHc.
    - cbn [filter].
      assert (Step : forall cs, NoDup cs ->
        fold_right Nat.add 0 (map (fun c => length (samples_in bld ge c (m :: l))) cs) =
        fold_right Nat.add 0 (map (fun c => length (samples_in bld ge c l)) cs) +
        (if existsb (fun c => in_cell bld ge c (sm_pos m)) cs then 1 else 0)).
      { induction cs as [|c cs IHc]; intros ND; [reflexivity|]. inversion ND as [|? ? Nin ND']; subst.
        cbn [map fold_right existsb]. rewrite (IHc ND'). unfold samples_in at 1. cbn [filter].
        fold (samples_in bld ge c l).
        destruct (in_cell bld ge c (sm_pos m)) eqn:I; cbn [length orb]; [|fold (samples_in bld ge c l); lia].
        assert (Z : existsb (fun c => in_cell bld ge c (sm_pos m)) cs = false).
        { destruct (existsb _ cs) eqn:Ex; [|reflexivity]. apply existsb_exists in Ex. destruct Ex as [c' [Hc' I']].
          unfold in_cell in I, I'. destruct (geom_inside ge (sm_pos m)); [|discriminate].
          destruct (geom_cell_id bld ge (sm_pos m)) as [[c0|]|]; try discriminate. cbn [andb] in *.
          apply id3_eqb_eq in I, I'. subst. contradiction. }
        rewrite Z. fold (samples_in bld ge c l). lia. }
      rewrite (Step _ (ids3_NoDup _)). rewrite <- IH.
      destruct (geom_inside ge (sm_pos m)) eqn:In.
      + destruct (Ok _ In) as [c [C1 C2]].
        assert (Ex : existsb (fun c => in_cell bld ge c (sm_pos m)) (ids3 (geom_cells ge)) = true).
        { apply existsb_exists. exists c. split; [now apply in_ids3|]. unfold in_cell. now rewrite In, C1, id3_eqb_refl. }
        rewrite Ex. cbn [length]. lia.
      + assert (Ex : existsb (fun c => in_cell bld ge c (sm_pos m)) (ids3 (geom_cells ge)) = false).
        { destruct (existsb _ _) eqn:Ex; [|reflexivity]. apply existsb_exists in Ex. destruct Ex as [c' [_ I']].
          unfold in_cell in I'. rewrite In in I'. discriminate. }
        rewrite Ex. lia.
  Qed.
End Gen.
