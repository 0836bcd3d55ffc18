(** * FunOcc: occupancyfield (C37). *)
From Coq Require Import Reals List NArith ZArith Bool Lia Lra String ZifyBool ZifyN ZifyNat Permutation.
From Flocq Require Import Core.Core IEEE754.BinarySingleNaN.
From Verif Require Import Base BaseFacts Num F64Facts RFacts NDArray GridModel GridSpec GridFacts CartProofs CartR GridOps CylProofs
  SelModel DataModel DataSpec DataProofs DataLoad PropertiesGrid PropertiesCyl PropertiesData FunModel FunSpec FunProofs FunMgr FunField PropertiesFun.
Local Open Scope list_scope.

(** ** Specification *)
Section Spec.
  Context {F : Type} {NF : Num F} {TF : Trig F}.
  (** A particle recorded at one timestep, the position recorded at the same index of the next
      timestep, and the time in between. *)
  Record stay : Type := mkStay { y_from : sample F; y_to : v3 F; y_spent : F }.
  Definition stays (x y : timestep F) : list stay :=
    map (fun mq => mkStay (fst mq) (snd mq) (nsub (ts_time y) (ts_time x))) (combine (samples x) (ts_pos y)).
  (** All of them for the first [n - 3] of the [n - 1] steps between timesteps. *)
  Definition all_stays (L : list (timestep F)) : list stay :=
    flat_map (fun xy => stays (fst xy) (snd xy)) (firstn (List.length L - 3) (combine L (tl L))).
  (** Those that count: chosen by the selector, starting in the grid, not slower than the
      threshold, not backwards in time. *)
  Definition speed0 (v : v3 F) : F :=
    let '(a, b, c) := v in nsqrt (nadd (nadd (nadd n0 (nmul a a)) (nmul b b)) (nmul c c)).
  Definition counts (g : grid F) (s : selector F) (min_vel : F) (y : stay) : bool :=
    chosen s (y_from y) && is_inside g (sm_pos (y_from y)) &&
    negb (nltb (speed0 (sm_vel (y_from y))) min_vel) && negb (nltb (y_spent y) n0).
  Definition counted g s min_vel L : list stay := filter (counts g s min_vel) (all_stays L).
  (** Where its time goes: on Cartesian grids half to the cell of either end if both are in the
      grid, otherwise nowhere; on cylindrical grids all to the cell of the start. *)
  Definition deposits (bld : build) (ge : geom F) (p q : v3 F) (v : F) : list (id3 * F) :=
    match ge with
    | Cart _ => match geom_cell_id bld ge p, geom_cell_id bld ge q with
                | Val (Some a), Val (Some b) => [(a, nmul v (nlit 1 2)); (b, nmul v (nlit 1 2))]
                | _, _ => []
                end
    | Cyl _ => match geom_cell_id bld ge p with Val (Some a) => [(a, v)] | _ => [] end
    end.
  Definition stay_deposits bld ge (y : stay) := deposits bld ge (sm_pos (y_from y)) (y_to y) (y_spent y).
  (** The amounts deposited in cell [c], in order. *)
  Definition deposited (c : id3) (l : list (id3 * F)) : list F := map snd (filter (fun e => id3_eqb (fst e) c) l).
End Spec.
Arguments stay : clear implicits.

Section Gen.
  Context {F : Type} {NF : Num F} {TF : Trig F}.

  (** ** Depositing *)
  Definition dep_ok (g0 g' : grid F) (l : list (id3 * F)) : Prop :=
    wf_grid g' /\ geo g' = geo g0 /\ forall c, at3 (data g') c = fold_left nadd (deposited c l) (at3 (data g0) c).
  Lemma dep_refl g : wf_grid g -> dep_ok g g []. Proof. intros W. split; [exact W|]. split; reflexivity. Qed.
  Lemma dep_trans a b c l m : dep_ok a b l -> dep_ok b c m -> dep_ok a c (l ++ m).
  Proof.
    intros [W1 [G1 H1]] [W2 [G2 H2]]. split; [exact W2|]. split; [congruence|]. intros i.
    unfold deposited. rewrite filter_app, map_app, fold_left_app. rewrite H2, H1. reflexivity.
  Qed.
  Lemma dep_bump g c v w g' : wf_grid g -> bump g c v w = Val g' -> dep_ok g g' [(c, v)].
  Proof.
    intros W B. destruct (bump_inv _ _ _ _ _ B) as [_ [_ O]]. pose proof O as [O1 [_ [_ [O4 [_ O6]]]]].
    split; [exact (only_cell_wf _ _ _ _ _ O W)|]. split; [exact O1|]. intros i. unfold deposited. cbn [filter fst].
    destruct (id3_eqb c i) eqn:E; cbn [map snd fold_left].
    - apply id3_eqb_eq in E. subst i. exact O4.
    - apply O6. intros ->. now rewrite id3_eqb_refl in E.
  Qed.
  (** On a well-formed grid all of whose lookups are in range. *)
  Lemma traj_dep bld g p q v g' : wf_grid g -> add_trajectory_value bld g p q v = Val g' ->
    dep_ok g g' (deposits bld (geo g) p q v).
  Proof.
    intros W E. unfold add_trajectory_value in E. unfold deposits. destruct (geo g) as [cg|y] eqn:G; cbn [geom_cell_id].
    - unfold cell_ids_in_trajectory in E. apply bind_val in E. destruct E as [o [C E]].
      apply bind_val in C. destruct C as [a [Ca C]]. rewrite Ca. destruct a as [ca|]; [|injection C as <-; injection E as <-; now apply dep_refl].
      apply bind_val in C. destruct C as [b [Cb C]]. rewrite Cb. destruct b as [cb|]; [|injection C as <-; injection E as <-; now apply dep_refl].
      injection C as <-. cbn [combine mfold fst snd] in E.
      apply bind_val in E. destruct E as [g1 [B1 E]]. apply bind_val in E. destruct E as [g2 [B2 E]]. injection E as <-.
      assert (D1 := dep_bump _ _ _ _ _ W B1).
      exact (dep_trans _ _ _ [_] [_] D1 (dep_bump _ _ _ _ _ (proj1 D1) B2)).
    - unfold add_value, cell_id in E. rewrite G in E. cbn [geom_cell_id] in E. apply bind_val in E. destruct E as [o [C E]]. rewrite C.
      destruct o as [c|]; [now apply (dep_bump _ _ _ _ _ W E) | injection E as <-; now apply dep_refl].
  Qed.
  Lemma bump_total g c v w : wf_grid g -> inb3 (geom_cells (geo g)) c = true -> exists g', bump g c v w = Val g'.
  Proof. intros [W1 W2] H. unfold bump, get3, set3. rewrite W1, H. cbn [bind]. rewrite W2, H. cbn [bind]. eauto. Qed.
  Lemma traj_total_cart bld g cg p q v : wf_grid g -> geo g = Cart cg -> inside_ok bld (geo g) ->
    exists g', add_trajectory_value bld g p q v = Val g'.
  Proof.
    intros W G Ok. unfold add_trajectory_value. rewrite G.
    assert (C : forall r, cart_cell_id bld cg r = Val None \/ exists c, cart_cell_id bld cg r = Val (Some c) /\ inb3 (cc_cells cg) c = true).
    { intros r. destruct (cart_inside cg r) eqn:In; [right|left; unfold cart_cell_id; now rewrite In].
      rewrite G in Ok. exact (Ok r In). }
    unfold cell_ids_in_trajectory.
    destruct (C p) as [-> | [ca [-> Ia]]]; cbn [bind]; [eauto|].
    destruct (C q) as [-> | [cb [-> Ib]]]; cbn [bind]; [eauto|].
    cbn [combine mfold fst snd].
    destruct (bump_total g ca (nmul v (nlit 1 2)) (nlit 1 2) W) as [g1 B1]; [now rewrite G|]. rewrite B1. cbn [bind].
    destruct (bump_inv _ _ _ _ _ B1) as [_ [_ O]]. assert (W1 := only_cell_wf _ _ _ _ _ O W).
    destruct (bump_total g1 cb (nmul v (nlit 1 2)) (nlit 1 2) W1) as [g2 B2].
    { destruct O as [-> _]. now rewrite G. }
    rewrite B2. cbn [bind]. eauto.
  Qed.

  Definition occ_body (bld : build) (acc : grid F * F) (y : stay F) : res (grid F * F) :=
    let! h := add_trajectory_value bld (fst acc) (sm_pos (y_from y)) (y_to y) (y_spent y) in
    Val (h, nadd (snd acc) (y_spent y)).
  Lemma occ_sound bld l : forall g0 t0 h t, wf_grid g0 -> mfold (occ_body bld) l (g0, t0) = Val (h, t) ->
    dep_ok g0 h (flat_map (stay_deposits bld (geo g0)) l) /\ t = fold_left nadd (map y_spent l) t0.
  Proof.
    induction l as [|y l IH]; intros g0 t0 h t W E.
    - cbn in E. apply Val_pair in E. destruct E as [<- <-]. split; [now apply dep_refl | reflexivity].
    - cbn [mfold] in E. unfold occ_body at 1 in E. cbn [fst snd] in E.
      destruct (add_trajectory_value bld g0 _ _ _) as [g1|] eqn:T; [|discriminate]. cbn [bind] in E.
      assert (D := traj_dep _ _ _ _ _ _ W T). destruct (IH g1 _ h t (proj1 D) E) as [D2 Et].
      cbn [flat_map map fold_left]. split; [|exact Et]. destruct D as [W1 [G1 H1]]. rewrite G1 in D2.
      eapply dep_trans; [|exact D2]. split; [exact W1|]. split; [exact G1|]. exact H1.
  Qed.
  Lemma occ_total bld l : forall g0 cg t0, wf_grid g0 -> geo g0 = Cart cg -> inside_ok bld (geo g0) ->
    exists r, mfold (occ_body bld) l (g0, t0) = Val r.
  Proof.
    induction l as [|y l IH]; intros g0 cg t0 W G Ok; cbn [mfold]; [eauto|]. unfold occ_body at 1. cbn [fst snd].
    destruct (traj_total_cart bld g0 cg (sm_pos (y_from y)) (y_to y) (y_spent y) W G Ok) as [g1 T]. rewrite T. cbn [bind].
    destruct (traj_dep _ _ _ _ _ _ W T) as [W1 [G1 _]]. apply (IH g1 cg); [exact W1 | congruence | now rewrite G1].
  Qed.

  (** ** The loops *)
  Lemma nth_error_nil {A} k : nth_error (@nil A) k = None. Proof. now destruct k. Qed.
  Lemma nth_error_firstn {A} (l : list A) : forall n k, k < n -> nth_error (firstn n l) k = nth_error l k.
  Proof. induction l as [|a l IH]; intros [|n] [|k] H; cbn; try reflexivity; try lia. apply IH. lia. Qed.
  Lemma combine_at {A B} (l : list A) (m : list B) i a b : at_ l i a -> at_ m i b -> at_ (combine l m) i (a, b).
  Proof.
    unfold at_. generalize (N.to_nat i) as k. clear i. revert m. induction l as [|x l IH]; intros [|y m] [|k]; cbn; try discriminate.
    - intros [= ->] [= ->]. reflexivity.
    - apply IH.
  Qed.
  Lemma combine_none {A B} (l : list A) (m : list B) i : (vlen m <= i)%N -> nth_error (combine l m) (N.to_nat i) = None.
  Proof. intros H. apply nth_error_None. rewrite combine_length. unfold vlen in H. lia. Qed.

  (** A loop over the indices of [l] that only uses [m] where it reaches. *)
  Lemma mfold_zip {S A B} (f : S -> N -> res S) (b : S -> A * B -> res S) (l : list A) (m : list B) :
    (forall i a c st, at_ l i a -> at_ m i c -> f st i = b st (a, c)) ->
    (forall i a st, at_ l i a -> (vlen m <= i)%N -> f st i = Val st) ->
    forall st, mfold f (range 0 (vlen l)) st = mfold b (combine l m) st.
  Proof.
    intros H1 H2.
    assert (Gen : forall k la lb st, (forall i a, at_ la i a -> at_ l (k + i)%N a) ->
      (forall i c, at_ lb i c <-> at_ m (k + i)%N c) ->
      mfold f (range k (k + vlen la)) st = mfold b (combine la lb) st).
    { intros k la. revert k. induction la as [|a la IH]; intros k lb st Ha Hb.
      - rewrite range_empty by (unfold vlen; cbn; lia). reflexivity.
      - rewrite range_cons by (unfold vlen; cbn [List.length]; lia).
        replace (k + vlen (a :: la))%N with (k + 1 + vlen la)%N by (unfold vlen; cbn [List.length]; lia).
        assert (A0 : at_ l k a) by (specialize (Ha 0%N a eq_refl); now rewrite N.add_0_r in Ha).
        assert (Ha' : forall i a', at_ la i a' -> at_ l (k + 1 + i)%N a').
        { intros i a' Hi. replace (k + 1 + i)%N with (k + (i + 1))%N by lia. apply Ha. unfold at_.
          replace (N.to_nat (i + 1)) with (Datatypes.S (N.to_nat i)) by lia. exact Hi. }
        destruct lb as [|c lb].
        + assert (Nm : forall j, (k <= j)%N -> (vlen m <= j)%N).
          { intros j Hj. destruct (N.le_gt_cases (vlen m) j) as [|Lt]; [assumption|]. exfalso.
            destruct (lt_at m j Lt) as [z Hz]. replace j with (k + (j - k))%N in Hz by lia. apply Hb in Hz.
            unfold at_ in Hz. rewrite nth_error_nil in Hz. discriminate. }
          cbn [combine]. cbn [mfold]. rewrite (H2 k a st A0 (Nm k ltac:(lia))). cbn [bind].
          rewrite (IH (k + 1)%N [] st Ha').
          * now destruct la.
          * intros i c. split; [intros Hc; unfold at_ in Hc; rewrite nth_error_nil in Hc; discriminate|].
            intros Hc. apply at_lt in Hc. specialize (Nm (k + 1 + i)%N ltac:(lia)). lia.
        + cbn [combine mfold]. assert (C0 : at_ m k c).
          { assert (Q := proj1 (Hb 0%N c) eq_refl). now rewrite N.add_0_r in Q. }
          rewrite (H1 k a c st A0 C0). destruct (b st (a, c)) as [st'|]; cbn [bind]; [|reflexivity].
          apply IH; [exact Ha'|]. intros i z. replace (k + 1 + i)%N with (k + (i + 1))%N by lia. rewrite <- (Hb (i + 1)%N z).
          unfold at_. replace (N.to_nat (i + 1)) with (Datatypes.S (N.to_nat i)) by lia. reflexivity. }
    intros st. change (vlen l) with (0 + vlen l)%N. apply Gen; intros; [assumption | reflexivity].
  Qed.
  (** One timestep: a fold over the stays that count. *)
  Lemma occ_step bld (g : grid F) (s : selector F) (min_vel : F) (x y : timestep F) acc : rect x -> sel_ok s ->
    timestep_valid s (ts_time x) = true ->
    loop_particles s x (fun acc i p =>
      if negb (is_inside g p) then Val acc else
      let! v := vget (ts_vel x) i in
      let '(a, b, c) := v in
      if nltb (nsqrt (nadd (nadd (nadd n0 (nmul a a)) (nmul b b)) (nmul c c))) min_vel then Val acc else
      let spent := nsub (ts_time y) (ts_time x) in
      if nltb spent n0 then Val acc else
      if (vlen (ts_pos y) <=? i)%N then Val acc else
      let! q := vget (ts_pos y) i in
      let! h := add_trajectory_value bld (fst acc) p q spent in
      Val (h, nadd (snd acc) spent)) acc =
    mfold (occ_body bld) (filter (counts g s min_vel) (stays x y)) acc.
  Proof.
    intros R Sk Tv. rewrite <- mfold_filter. unfold stays, loop_particles.
    transitivity (mfold (fun st mq => let z := mkStay (fst mq) (snd mq) (nsub (ts_time y) (ts_time x)) in
        if counts g s min_vel z then occ_body bld st z else Val st) (combine (samples x) (ts_pos y)) acc).
    - rewrite <- (samples_length x R). apply mfold_zip.
      + intros i m q st Hm Hq. destruct (samples_at x i m R Hm) as [Ht [Hp [Hv _]]].
        rewrite (valid_at_spec s x i m R Sk Hm). cbn [bind]. rewrite (proj2 (vget_val _ _ _) Hp), (proj2 (vget_val _ _ _) Hv), (proj2 (vget_val _ _ _) Hq).
        cbn [bind]. unfold counts, occ_body, chosen. cbn [y_from y_to y_spent fst snd]. rewrite Ht, Tv. cbn [andb].
        destruct (accepts s m); cbn [andb]; [|reflexivity].
        destruct (is_inside g (sm_pos m)); cbn [negb andb]; [|reflexivity].
        unfold speed0. destruct (sm_vel m) as [[a b] c].
        destruct (nltb (nsqrt _) min_vel); cbn [negb andb]; [reflexivity|].
        destruct (nltb (nsub (ts_time y) (ts_time x)) n0); cbn [negb andb]; [reflexivity|].
        assert (Lt : (vlen (ts_pos y) <=? i)%N = false) by (apply at_lt in Hq; lia). rewrite Lt. reflexivity.
      + intros i m st Hm Le. destruct (samples_at x i m R Hm) as [_ [Hp [Hv _]]].
        rewrite (valid_at_spec s x i m R Sk Hm). cbn [bind]. destruct (accepts s m); [|reflexivity].
        rewrite (proj2 (vget_val _ _ _) Hp), (proj2 (vget_val _ _ _) Hv). cbn [bind].
        destruct (is_inside g (sm_pos m)); cbn [negb]; [|reflexivity].
        destruct (sm_vel m) as [[a b] c]. destruct (nltb _ min_vel); [reflexivity|]. cbn zeta.
        destruct (nltb _ n0); [reflexivity|]. assert (Lt : (vlen (ts_pos y) <=? i)%N = true) by lia. now rewrite Lt.
    - generalize (combine (samples x) (ts_pos y)). intros l. revert acc. induction l as [|mq l IH]; intros acc; [reflexivity|].
      cbn [mfold map]. destruct (if counts _ _ _ _ then _ else _); cbn [bind]; [apply IH | reflexivity].
  Qed.
  Lemma stays_other (s : selector F) (x y : timestep F) : rect x -> timestep_valid s (ts_time x) = false ->
    forall g min_vel, filter (counts g s min_vel) (stays x y) = [].
  Proof.
    intros R Tv g mv. apply filter_none. intros z Hz. unfold stays in Hz. apply in_map_iff in Hz. destruct Hz as [[m q] [<- Hm]].
    apply in_combine_l in Hm. unfold counts, chosen. cbn [y_from fst snd]. now rewrite (samples_time x m R Hm), Tv.
  Qed.

  Lemma occ_loop can bld (M : mgr F) (g : grid F) (s : selector F) (min_vel : F) (I1 : N -> ms M -> Prop) L0 :
    (forall lo d t x, I1 lo d -> at_ L0 t x -> exists d', m_get M d t = Val (d', x) /\ I1 lo d') ->
    (forall lo d t x, I1 lo d -> at_ L0 t x -> can lo t -> exists d', m_getb M d t 0 = Val (d', x) /\ I1 t d') ->
    (forall t, can t (t + 1)%N) -> sel_ok s -> Forall rect L0 ->
    forall P k d acc, (forall i x y, at_ P i (x, y) -> at_ L0 (k + i)%N x /\ at_ L0 (k + i + 1)%N y) -> I1 k d ->
    let prog := mfold (fun st t =>
          let '(d, acc) := st in
          let! r := m_get M d t in let '(d1, x) := r in
          let! r := m_getb M d1 (t + 1) 0 in let '(d2, y) := r in
          if negb (timestep_valid s (ts_time x)) then Val (d2, acc) else
          let! acc' := loop_particles s x (fun acc i p =>
            if negb (is_inside g p) then Val acc else
            let! v := vget (ts_vel x) i in
            let '(a, b, c) := v in
            if nltb (nsqrt (nadd (nadd (nadd n0 (nmul a a)) (nmul b b)) (nmul c c))) min_vel then Val acc else
            let spent := nsub (ts_time y) (ts_time x) in
            if nltb spent n0 then Val acc else
            if (vlen (ts_pos y) <=? i)%N then Val acc else
            let! q := vget (ts_pos y) i in
            let! h := add_trajectory_value bld (fst acc) p q spent in
            Val (h, nadd (snd acc) spent)) acc in
          Val (d2, acc')) (range k (k + vlen P)) (d, acc) in
    match mfold (occ_body bld) (filter (counts g s min_vel) (flat_map (fun xy => stays (fst xy) (snd xy)) P)) acc with
    | Val r => exists d' k', prog = Val (d', r) /\ I1 k' d'
    | Panic => prog = Panic
    end.
  Proof.
    intros Get Getb Can Sk Rc. induction P as [|[x y] P IH]; intros k d acc HP I.
    - cbn [flat_map filter mfold]. unfold vlen. cbn [List.length]. rewrite range_empty by lia. cbn [mfold]. eauto.
    - rewrite range_cons by (unfold vlen; cbn [List.length]; lia).
      replace (k + vlen ((x, y) :: P))%N with (k + 1 + vlen P)%N by (unfold vlen; cbn [List.length]; lia).
      destruct (HP 0%N x y eq_refl) as [Hx Hy]. rewrite N.add_0_r in Hx, Hy.
      assert (HP' : forall i x y, at_ P i (x, y) -> at_ L0 (k + 1 + i)%N x /\ at_ L0 (k + 1 + i + 1)%N y).
      { intros i x' y' Hi. replace (k + 1 + i)%N with (k + (i + 1))%N by lia. apply HP. unfold at_.
        replace (N.to_nat (i + 1)) with (Datatypes.S (N.to_nat i)) by lia. exact Hi. }
      destruct (Get k d k x I Hx) as [d1 [E1 J1]]. destruct (Getb k d1 (k + 1)%N y J1 Hy (Can k)) as [d2 [E2 J2]].
      assert (Rx : rect x).
      { rewrite Forall_forall in Rc. apply Rc. unfold at_ in Hx. eapply nth_error_In. exact Hx. }
      cbn [flat_map fst snd]. rewrite filter_app, mfold_app.
      cbn [mfold]. rewrite E1. cbn [bind]. rewrite E2. cbn [bind].
      destruct (timestep_valid s (ts_time x)) eqn:Tv; cbn [negb].
      + assert (St := occ_step bld g s min_vel x y acc Rx Sk Tv). cbv zeta in St. rewrite St.
        destruct (mfold (occ_body bld) (filter (counts g s min_vel) (stays x y)) acc) as [acc1|]; cbn [bind]; [|reflexivity].
        apply IH; [exact HP' | exact J2].
      + rewrite (stays_other s x y Rx Tv). cbn [mfold bind]. apply IH; [exact HP' | exact J2].
  Qed.

  Lemma pairs_at {A} (L : list A) n i x y : (n <= List.length L - 1) -> at_ (firstn n (combine L (tl L))) i (x, y) -> at_ L i x /\ at_ L (i + 1)%N y.
  Proof.
    intros Hn H. unfold at_ in *.
    assert (H' : nth_error (combine L (tl L)) (N.to_nat i) = Some (x, y)).
    { destruct (Nat.lt_ge_cases (N.to_nat i) n) as [Lt|Ge]; [now rewrite nth_error_firstn in H by exact Lt|].
      rewrite (proj2 (nth_error_None _ _)) in H; [discriminate|]. rewrite firstn_length. lia. }
    replace (N.to_nat (i + 1)) with (Datatypes.S (N.to_nat i)) by lia.
    clear H Hn. revert L H'. generalize (N.to_nat i) as k. clear i.
    assert (G : forall k (L M : list A), nth_error (combine L M) k = Some (x, y) -> nth_error L k = Some x /\ nth_error M k = Some y).
    { induction k as [|k IH]; intros [|a L] [|b M] E; try discriminate; cbn in *; [injection E as -> ->; auto | auto]. }
    intros k L E. destruct (G k L (tl L) E) as [A1 A2]. split; [exact A1|]. destruct L; [now destruct k|]. exact A2.
  Qed.
End Gen.

(** ** C37 *)
Section C37.
  Context {F : Type} {NF : Num F} {TF : Trig F}.
  Lemma occ_run can bld (M : mgr F) d (L : list (timestep F)) g s min_vel :
    aux_reads can M d L -> (forall t, can t (t + 1)%N) -> (3 <= vlen L)%N -> Forall rect L -> sel_ok s ->
    match mfold (occ_body bld) (counted g s min_vel L) (new_zeros g, n0) with
    | Val r => exists d', occupancyfield bld M d g s min_vel = Val (d', divide_by_scalar (fst r) (snd r))
    | Panic => occupancyfield bld M d g s min_vel = Panic
    end.
  Proof.
    intros [Nt [I0 [I1 [J0 [Su [Get [Getb [_ _]]]]]]]] Can Len Rc Sk.
    destruct (Su d J0) as [d0 [E0 J1]].
    assert (V : vlen (firstn (List.length L - 3) (combine L (tl L))) = (vlen L - 3)%N).
    { unfold vlen. rewrite firstn_length, combine_length. destruct L; cbn [tl List.length] in *; lia. }
    assert (Q := occ_loop can bld M g s min_vel I1 L Get Getb Can Sk Rc (firstn (List.length L - 3) (combine L (tl L))) 0 d0 (new_zeros g, n0)).
    cbv zeta in Q. specialize (Q ltac:(intros i x y H; rewrite N.add_0_l; apply (pairs_at L (List.length L - 3)); [lia | exact H]) J1).
    rewrite V in Q. change (0 + (vlen L - 3))%N with (vlen L - 3)%N in Q.
    unfold occupancyfield. rewrite E0. cbn [bind]. unfold steps_but. rewrite Nt, usub_ge by exact Len. cbn [bind].
    unfold counted, all_stays. cbv zeta.
    destruct (mfold (occ_body bld) _ _) as [[h t]|].
    - destruct Q as [d' [k' [Q _]]]. exists d'. rewrite Q. reflexivity.
    - rewrite Q. reflexivity.
  Qed.

  (** Any number type, any grid: if the call returns, every cell holds the time deposited in it
      divided by the time of all stays that count. *)
  Theorem c37_shares can bld (M : mgr F) d (L : list (timestep F)) g s min_vel d' h :
    aux_reads can M d L -> (forall t, can t (t + 1)%N) -> (3 <= vlen L)%N -> Forall rect L -> sel_ok s -> wf_grid g ->
    occupancyfield bld M d g s min_vel = Val (d', h) ->
    geo h = geo g /\ forall c,
      at3 (data h) c = ndiv (fold_left nadd (deposited c (flat_map (stay_deposits bld (geo g)) (counted g s min_vel L))) n0)
                            (fold_left nadd (map y_spent (counted g s min_vel L)) n0).
  Proof.
    intros Aux Can Len Rc Sk W E. assert (Q := occ_run can bld M d L g s min_vel Aux Can Len Rc Sk).
    destruct (mfold _ _ _) as [[h1 t1]|] eqn:Fo; [|congruence]. destruct Q as [d2 Q]. rewrite Q in E.
    apply Val_pair in E. destruct E as [_ <-]. destruct (new_zeros_wf g W) as [W0 G0].
    destruct (occ_sound bld _ _ _ _ _ W0 Fo) as [[_ [G1 H]] Et]. cbn [fst snd]. rewrite G0 in *.
    split; [exact G1|]. intros c. cbn [divide_by_scalar with_data data map3 at3]. rewrite H, <- Et. reflexivity.
  Qed.
  Lemma occ_returns can bld (M : mgr F) d (L : list (timestep F)) g cg s min_vel :
    aux_reads can M d L -> (forall t, can t (t + 1)%N) -> (3 <= vlen L)%N -> Forall rect L -> sel_ok s -> wf_grid g ->
    geo g = Cart cg -> inside_ok bld (geo g) -> exists d' h, occupancyfield bld M d g s min_vel = Val (d', h).
  Proof.
    intros Aux Can Len Rc Sk W G Ok. assert (Q := occ_run can bld M d L g s min_vel Aux Can Len Rc Sk).
    destruct (new_zeros_wf g W) as [W0 G0].
    destruct (occ_total bld (counted g s min_vel L) (new_zeros g) cg n0 W0) as [r Fo]; [congruence | now rewrite G0|].
    rewrite Fo in Q. destruct Q as [d' Q]. eauto.
  Qed.
  (** Fewer than three timesteps: the debug build panics (the release build underflows). *)
  Theorem c37_short_refuted (M : mgr F) d g s min_vel : (st_timesteps (m_stats M) < 3)%N ->
    occupancyfield Debug M d g s min_vel = Panic.
  Proof.
    intros H. unfold occupancyfield. destruct (m_setup M d 0); [|reflexivity]. cbn [bind].
    unfold steps_but, usub. destruct (N.leb_spec 3 (st_timesteps (m_stats M))); [lia|]. reflexivity.
  Qed.
End C37.
(** Doubles, Cartesian grids: the call returns. *)
Theorem c37_returns {TF : Trig f64} can (bld : build) (M : mgr f64) d (L : list (timestep f64)) (g : grid f64) cg s min_vel :
  aux_reads can M d L -> (forall t, can t (t + 1)%N) -> (3 <= vlen L)%N -> Forall rect L -> sel_ok s -> wf_grid g ->
  geo g = Cart cg -> sized (cc_cells cg) -> exists d' h, occupancyfield bld M d g s min_vel = Val (d', h).
Proof. intros. eapply occ_returns; try eassumption. rewrite H5. now apply cart_inside_ok. Qed.
(** Doubles: no stay counts, no number. *)
Theorem c37_nothing_observed {TF : Trig f64} can (bld : build) (M : mgr f64) d (L : list (timestep f64)) (g : grid f64) s min_vel d' h :
  aux_reads can M d L -> (forall t, can t (t + 1)%N) -> (3 <= vlen L)%N -> Forall rect L -> sel_ok s -> wf_grid g ->
  occupancyfield bld M d g s min_vel = Val (d', h) -> counted g s min_vel L = [] -> forall c, is_nan (at3 (data h) c) = true.
Proof.
  intros Aux Can Len Rc Sk W E Em c. destruct (c37_shares can bld M d L g s min_vel d' h Aux Can Len Rc Sk W E) as [_ H].
  rewrite H, Em. reflexivity.
Qed.

(** Ideal arithmetic. *)
Section R.
  Context {TF : Trig R}.
  Local Open Scope R_scope.
  Definition dep_sum (l : list (id3 * R)) : R := Rsum (map snd l).
  Lemma deposited_cons c e (l : list (id3 * R)) : Rsum (deposited c (e :: l)) = (if id3_eqb (fst e) c then snd e else 0) + Rsum (deposited c l).
  Proof. unfold deposited. cbn [filter]. destruct (id3_eqb (fst e) c); cbn [map]; [now rewrite Rsum_cons | lra]. Qed.
  Lemma indicator_sum (a : id3) (v : R) cs : NoDup cs ->
    Rsum (map (fun c => if id3_eqb a c then v else 0) cs) = if existsb (id3_eqb a) cs then v else 0.
  Proof.
    induction cs as [|c cs IH]; intros ND; [reflexivity|]. inversion ND as [|? ? Nin ND']; subst.
    cbn [map existsb]. rewrite Rsum_cons, (IH ND'). destruct (id3_eqb a c) eqn:E; cbn [orb]; [|lra].
    apply id3_eqb_eq in E. subst c. destruct (existsb (id3_eqb a) cs) eqn:Ex; [|lra].
    apply existsb_exists in Ex. destruct Ex as [c [Hc Ec]]. apply id3_eqb_eq in Ec. subst c. contradiction.
  Qed.
  Lemma deposited_total (l : list (id3 * R)) cs : NoDup cs ->
    Rsum (map (fun c => Rsum (deposited c l)) cs) = dep_sum (filter (fun e => existsb (id3_eqb (fst e)) cs) l).
  Proof.
    intros ND. induction l as [|e l IH].
    - unfold dep_sum. cbn [filter map]. rewrite Rsum_nil. now apply Rsum_zero.
    - rewrite (Rsum_ext _ (fun c => (if id3_eqb (fst e) c then snd e else 0) + Rsum (deposited c l))) by (intros; apply deposited_cons).
      rewrite Rsum_map_plus, IH, (indicator_sum _ _ _ ND). cbn [filter]. unfold dep_sum.
      destruct (existsb (id3_eqb (fst e)) cs); cbn [map]; [now rewrite Rsum_cons | lra].
  Qed.
  Lemma deposits_nonneg bld ge p q v : 0 <= v -> Forall (fun e => 0 <= snd e) (deposits bld ge p q v).
  Proof.
    intros Hv. unfold deposits. assert (H : 0 <= nmul v (nlit 1 2)) by (unfold nlit; cbn [nmul num_R ndiv nof]; lra).
    destruct ge; destruct (geom_cell_id bld _ p) as [[a|]|]; try destruct (geom_cell_id bld _ q) as [[b|]|]; 
      repeat (apply Forall_nil || apply Forall_cons); first [exact H | exact Hv].
  Qed.
  Lemma deposits_sum bld ge p q v : 0 <= v -> dep_sum (deposits bld ge p q v) <= v.
  Proof.
    intros Hv. unfold deposits, dep_sum. 
    destruct ge; destruct (geom_cell_id bld _ p) as [[a|]|]; try destruct (geom_cell_id bld _ q) as [[b|]|]; cbn [map snd];
      rewrite ?Rsum_cons, ?Rsum_nil; unfold nlit; cbn [nmul num_R ndiv nof]; lra.
  Qed.
  Lemma counted_spent g s mv (L : list (timestep R)) y : In y (counted g s mv L) -> 0 <= y_spent y.
  Proof.
    intros H. apply filter_In in H. destruct H as [_ H]. unfold counts in H. rewrite !andb_true_iff in H.
    destruct H as [_ H]. apply negb_true_iff, Rltb_false in H. exact H.
  Qed.
  Lemma flat_deposits_nonneg bld ge l : (forall y, In y l -> 0 <= y_spent y) ->
    Forall (fun e => 0 <= snd e) (flat_map (stay_deposits bld ge) l).
  Proof.
    intros H. apply Forall_forall. intros e He. apply in_flat_map in He. destruct He as [y [Hy He]].
    assert (Q := deposits_nonneg bld ge (sm_pos (y_from y)) (y_to y) (y_spent y) (H y Hy)).
    rewrite Forall_forall in Q. now apply Q.
  Qed.
  Lemma dep_sum_filter p l : Forall (fun e : id3 * R => 0 <= snd e) l -> dep_sum (filter p l) <= dep_sum l.
  Proof.
    unfold dep_sum. induction l as [|e l IH]; intros H; [apply Rle_refl|]. inversion H; subst. specialize (IH H3). cbn [filter].
    destruct (p e); cbn [map]; rewrite ?Rsum_cons; lra.
  Qed.
  Lemma flat_deposits_sum bld ge l : (forall y, In y l -> 0 <= y_spent y) ->
    dep_sum (flat_map (stay_deposits bld ge) l) <= Rsum (map y_spent l).
  Proof.
    intros H. unfold dep_sum. rewrite Rsum_flat_map. apply Rsum_le. intros y Hy. exact (deposits_sum bld ge _ _ _ (H y Hy)).
  Qed.

  Theorem c37_fraction can bld (M : mgr R) d (L : list (timestep R)) (g : grid R) s min_vel d' h :
    aux_reads can M d L -> (forall t, can t (t + 1)%N) -> (3 <= vlen L)%N -> Forall rect L -> sel_ok s -> wf_grid g ->
    occupancyfield bld M d g s min_vel = Val (d', h) ->
    let T := Rsum (map y_spent (counted g s min_vel L)) in
    0 < T ->
    (forall c, at3 (data h) c = Rsum (deposited c (flat_map (stay_deposits bld (geo g)) (counted g s min_vel L))) / T) /\
    (forall c, 0 <= at3 (data h) c) /\ total (data h) <= 1.
  Proof.
    intros Aux Can Len Rc Sk W E T HT. destruct (c37_shares can bld M d L g s min_vel d' h Aux Can Len Rc Sk W E) as [_ H].
    assert (H1 : forall c, at3 (data h) c = Rsum (deposited c (flat_map (stay_deposits bld (geo g)) (counted g s min_vel L))) / T).
    { intros c. rewrite H. change (@nadd R num_R) with Rplus. rewrite !fold_left_Rplus. change (@n0 R num_R) with 0. cbn [ndiv num_R].
      unfold T. f_equal; lra. }
    assert (Pos := flat_deposits_nonneg bld (geo g) _ (counted_spent g s min_vel L)).
    split; [exact H1|]. split.
    - intros c. rewrite H1. apply Rmult_le_pos; [|left; now apply Rinv_0_lt_compat].
      unfold deposited. rewrite Forall_forall in Pos. apply Rsum_nonneg. intros e He. apply filter_In in He. now apply Pos.
    - unfold total. rewrite (Rsum_ext _ _ _ (fun c _ => H1 c)). unfold Rdiv. rewrite Rsum_map_scal_r.
      apply Rmult_le_reg_r with T; [exact HT|]. rewrite Rmult_assoc, Rinv_l, Rmult_1_r, Rmult_1_l by lra.
      rewrite deposited_total by apply ids3_NoDup.
      eapply Rle_trans; [apply dep_sum_filter; exact Pos|]. unfold T. apply flat_deposits_sum. exact (counted_spent g s min_vel L).
  Qed.
  (** If every counted stay also ends in the grid, the shares sum to 1. *)
  Theorem c37_sums_to_one can bld (M : mgr R) d (L : list (timestep R)) (g : grid R) s min_vel d' h :
    aux_reads can M d L -> (forall t, can t (t + 1)%N) -> (3 <= vlen L)%N -> Forall rect L -> sel_ok s -> wf_grid g ->
    inside_ok bld (geo g) -> occupancyfield bld M d g s min_vel = Val (d', h) ->
    let T := Rsum (map y_spent (counted g s min_vel L)) in
    0 < T -> (forall y, In y (counted g s min_vel L) -> is_inside g (y_to y) = true) ->
    total (data h) = 1.
  Proof.
    intros Aux Can Len Rc Sk W Ok E T HT Ins. destruct (c37_fraction can bld M d L g s min_vel d' h Aux Can Len Rc Sk W E HT) as [H1 _].
    unfold total. rewrite (Rsum_ext _ _ _ (fun c _ => H1 c)). unfold Rdiv. rewrite Rsum_map_scal_r.
    apply Rmult_eq_reg_r with T; [|lra]. rewrite Rmult_assoc, Rinv_l, Rmult_1_r, Rmult_1_l by lra.
    rewrite deposited_total by apply ids3_NoDup.
    assert (Sh : sh3 (data h) = geom_cells (geo g)).
    { assert (Q := occ_run can bld M d L g s min_vel Aux Can Len Rc Sk).
      destruct (mfold _ _ _) as [[h1 t1]|] eqn:Fo; [|congruence]. destruct Q as [d2 Q]. rewrite Q in E.
      apply Val_pair in E. destruct E as [_ <-]. destruct (new_zeros_wf g W) as [W0 G0].
      destruct (occ_sound bld _ _ _ _ _ W0 Fo) as [[W1 [G1 _]] _]. cbn [fst snd divide_by_scalar with_data data map3 sh3].
      destruct W1 as [-> _]. congruence. }
    rewrite Sh. unfold T.
    assert (Gen : forall l, (forall y, In y l -> is_inside g (sm_pos (y_from y)) = true /\ is_inside g (y_to y) = true) ->
      dep_sum (filter (fun e => existsb (id3_eqb (fst e)) (ids3 (geom_cells (geo g)))) (flat_map (stay_deposits bld (geo g)) l)) = Rsum (map y_spent l)).
    { induction l as [|y l IH]; intros Hl; [reflexivity|]. cbn [flat_map map]. rewrite filter_app. unfold dep_sum. rewrite map_app, Rsum_app, Rsum_cons.
      unfold dep_sum in IH. rewrite IH by (intros; apply Hl; now right). f_equal.
      destruct (Hl y (or_introl eq_refl)) as [I1 I2].
      destruct (Ok _ I1) as [a [Ca Ia]]. destruct (Ok _ I2) as [b [Cb Ib]].
      assert (Ex : forall a, inb3 (geom_cells (geo g)) a = true -> existsb (id3_eqb a) (ids3 (geom_cells (geo g))) = true).
      { intros i Hi. apply existsb_exists. exists i. split; [now apply in_ids3 | apply id3_eqb_refl]. }
      unfold stay_deposits, deposits. rewrite Ca, Cb. destruct (geo g) as [cg|yg] eqn:G; cbn [filter fst]; rewrite ?Ex by assumption;
        cbn [map snd]; rewrite ?Rsum_cons, ?Rsum_nil; unfold nlit; cbn [nmul num_R ndiv nof]; lra. }
    apply Gen. intros y Hy. split; [|now apply Ins]. apply filter_In in Hy. destruct Hy as [_ Hy]. unfold counts in Hy.
    rewrite !andb_true_iff in Hy. tauto.
  Qed.
End R.

(** Both kinds of managers, just opened (particle-ordered files up to the size of a buffer). *)
Theorem c37_pfile {TF : Trig f64} (bld : build) (f : pfile f64) st d (g : grid f64) cg s min_vel :
  pf_ok f -> st_timesteps st = pf_timesteps f -> (3 <= pf_timesteps f <= BUFFERSIZE)%N ->
  dm_new bld (p_load f) (pf_timesteps f) = Val d -> sel_ok s -> wf_grid g -> geo g = Cart cg -> sized (cc_cells cg) ->
  exists L d' h, vlen L = pf_timesteps f /\ (forall t x, at_ L t x -> p_shows f t x) /\
    occupancyfield bld (p_mgr bld f st) d g s min_vel = Val (d', h) /\
    forall c, at3 (data h) c = ndiv (fold_left nadd (deposited c (flat_map (stay_deposits bld (geo g)) (counted g s min_vel L))) n0)
                                    (fold_left nadd (map y_spent (counted g s min_vel L)) n0).
Proof.
  intros OK Nt [Lo Hi] E Sk W G Sz. destruct (p_aux_reads bld f st OK Nt d Hi E) as [L [V [H1 [Rc Aux]]]].
  destruct (c37_returns _ bld (p_mgr bld f st) d L g cg s min_vel Aux (fun _ => I) ltac:(lia) Rc Sk W G Sz) as [d' [h Eh]].
  exists L, d', h. split; [exact V|]. split; [exact H1|]. split; [exact Eh|].
  exact (proj2 (c37_shares _ bld (p_mgr bld f st) d L g s min_vel d' h Aux (fun _ => I) ltac:(lia) Rc Sk W Eh)).
Qed.
Theorem c37_tfile {TF : Trig f64} (bld : build) (f : tfile f64) st d (g : grid f64) cg s min_vel :
  tf_ok f -> tf_rect f -> st_timesteps st = tf_timesteps f -> (3 <= tf_timesteps f)%N ->
  dm_new bld (t_load f) (tf_timesteps f) = Val d -> sel_ok s -> wf_grid g -> geo g = Cart cg -> sized (cc_cells cg) ->
  exists L d' h, vlen L = tf_timesteps f /\ (forall t x, at_ L t x -> t_shows f t x) /\
    occupancyfield bld (t_mgr bld f st) d g s min_vel = Val (d', h) /\
    forall c, at3 (data h) c = ndiv (fold_left nadd (deposited c (flat_map (stay_deposits bld (geo g)) (counted g s min_vel L))) n0)
                                    (fold_left nadd (map y_spent (counted g s min_vel L)) n0).
Proof.
  intros OK Rc0 Nt Lo E Sk W G Sz. destruct (t_aux_reads bld f st OK Rc0 Nt d E) as [L [V [H1 [Rc Aux]]]].
  destruct (c37_returns _ bld (t_mgr bld f st) d L g cg s min_vel Aux (fun t => N.le_add_r t 1) ltac:(lia) Rc Sk W G Sz) as [d' [h Eh]].
  exists L, d', h. split; [exact V|]. split; [exact H1|]. split; [exact Eh|].
  exact (proj2 (c37_shares _ bld (t_mgr bld f st) d L g s min_vel d' h Aux (fun t => N.le_add_r t 1) ltac:(lia) Rc Sk W Eh)).
Qed.
(** Four timesteps: only the first step counts. *)
Definition ex_data4 : list (timestep f64) :=
  [ts_ex 0 (d 0, d 0, d 0) (d 1, d 1, d 1) (d 1, d 0, d 0) (d 0, d 2, d 0);
   ts_ex 1 (d 1, d 1, d 1) (d 1, d 1, d 1) (d 3, d 0, d 0) (d 0, d 2, d 0);
   ts_ex 2 (d 0, d 1, d 1) (d 0, d 0, d 0) (d 3, d 0, d 0) (d 0, d 2, d 0);
   ts_ex 3 (d 0, d 1, d 1) (d 0, d 0, d 0) (d 3, d 0, d 0) (d 0, d 2, d 0)].
Example c37_case {TF : Trig f64} :
  aux_reads (fun _ _ => True) (list_mgr ex_data4 (ex_stats 4)) tt ex_data4 /\
  after (cart_new (2, 2, 2)%N (ThreeD box64)) (fun g =>
  List.length (counted g sel_default (d 0) ex_data4) = 2%nat /\
  after (occupancyfield Debug (list_mgr ex_data4 (ex_stats 4)) tt g sel_default (d 0)) (fun r =>
    same (at3 (data (snd r)) (0, 0, 0)%N) (nlit 1 4) /\ same (at3 (data (snd r)) (1, 1, 1)%N) d34)).
Proof. split; [apply list_aux; reflexivity|]. vm_compute. repeat split; reflexivity. Qed.

(** Whatever the manager returns (ideal arithmetic): shares are never negative and sum to at most 1. *)
Section Any.
  Context {TF : Trig R}.
  Local Open Scope R_scope.
  Definition occ_inv (ge : geom R) (acc : grid R * R) : Prop :=
    wf_grid (fst acc) /\ geo (fst acc) = ge /\ (forall c, 0 <= at3 (data (fst acc)) c) /\ total (data (fst acc)) <= snd acc /\ 0 <= snd acc.
  Lemma occ_inv_step bld ge acc p q v h : occ_inv ge acc -> 0 <= v ->
    add_trajectory_value bld (fst acc) p q v = Val h -> occ_inv ge (h, nadd (snd acc) v).
  Proof.
    intros [W [G [Pos [Tot T0]]]] Hv E. assert (D := traj_dep _ _ _ _ _ _ W E). destruct D as [W1 [G1 H1]].
    assert (DP := deposits_nonneg bld (geo (fst acc)) p q v Hv). rewrite Forall_forall in DP.
    assert (H2 : forall c, at3 (data h) c = at3 (data (fst acc)) c + Rsum (deposited c (deposits bld (geo (fst acc)) p q v))).
    { intros c. rewrite H1. change (@nadd R num_R) with Rplus. now rewrite fold_left_Rplus. }
    assert (DN : forall c, 0 <= Rsum (deposited c (deposits bld (geo (fst acc)) p q v))).
    { intros c. apply Rsum_nonneg. intros e He. apply filter_In in He. now apply DP. }
    unfold occ_inv. cbn [fst snd]. split; [exact W1|]. split; [congruence|]. split; [intros c; rewrite H2; specialize (Pos c); specialize (DN c); lra|].
    split; [|change (@nadd R num_R (snd acc) v) with (snd acc + v); lra].
    unfold total in *. assert (Sh : sh3 (data h) = sh3 (data (fst acc))) by (destruct W as [-> _], W1 as [-> _]; congruence).
    rewrite Sh. rewrite (Rsum_ext _ _ _ (fun c _ => H2 c)), Rsum_map_plus, deposited_total by apply ids3_NoDup.
    assert (Q1 := dep_sum_filter (fun e => existsb (id3_eqb (fst e)) (ids3 (sh3 (data (fst acc))))) (deposits bld (geo (fst acc)) p q v)).
    rewrite Forall_forall in Q1. specialize (Q1 DP). assert (Q2 := deposits_sum bld (geo (fst acc)) p q v Hv).
    change (@nadd R num_R (snd acc) v) with (snd acc + v). lra.
  Qed.
  Theorem c37_any_manager bld (M : mgr R) d (g : grid R) s min_vel d' h : wf_grid g ->
    occupancyfield bld M d g s min_vel = Val (d', h) ->
    (forall c, 0 <= at3 (data h) c) /\ total (data h) <= 1.
  Proof.
    intros W E. unfold occupancyfield in E. apply bind_val in E. destruct E as [d0 [_ E]]. apply bind_val in E. destruct E as [l [_ E]].
    apply bind_val in E. destruct E as [[d1 [h1 T]] [E1 E]]. apply Val_pair in E. destruct E as [_ <-].
    assert (Inv : occ_inv (geo g) (snd (d1, (h1, T)))).
    { refine (mfold_inv (fun st => occ_inv (geo g) (snd st)) _ l (d0, (new_zeros g, n0)) (d1, (h1, T)) _ _ E1).
      1:{ destruct (new_zeros_wf g W) as [W0 G0]. unfold occ_inv. cbn [fst snd]. split; [exact W0|]. split; [exact G0|].
          change (@n0 R num_R) with 0. split; [intros c; apply Rle_refl|]. split; [|apply Rle_refl].
          unfold total. rewrite Rsum_zero; [apply Rle_refl | reflexivity]. }
      intros [dd acc] t [dd' acc'] _ I St. cbn [snd] in I |- *.
      apply bind_val in St. destruct St as [[d2 x] [_ St]]. apply bind_val in St. destruct St as [[d3 y] [_ St]].
      destruct (negb (timestep_valid s (ts_time x))); [apply Val_pair in St; destruct St as [_ <-]; exact I|].
      apply bind_val in St. destruct St as [acc2 [Lp St]]. apply Val_pair in St. destruct St as [_ <-].
      unfold loop_particles in Lp.
      refine (mfold_inv (occ_inv (geo g)) _ _ acc acc2 I _ Lp).
      clear I Lp. intros a i a' _ I St.
      apply bind_val in St. destruct St as [ok [_ St]]. destruct ok; [|injection St as <-; exact I].
      apply bind_val in St. destruct St as [p [_ St]].
      destruct (negb (is_inside g p)); [injection St as <-; exact I|].
      apply bind_val in St. destruct St as [[[u v] w] [_ St]].
      destruct (nltb _ min_vel); [injection St as <-; exact I|]. cbv zeta in St.
      destruct (nltb (nsub (ts_time y) (ts_time x)) n0) eqn:Neg; [injection St as <-; exact I|].
      destruct (vlen (ts_pos y) <=? i)%N; [injection St as <-; exact I|].
      apply bind_val in St. destruct St as [q [_ St]]. apply bind_val in St. destruct St as [h' [Tr St]]. injection St as <-.
      apply (occ_inv_step bld (geo g) a p q _ h' I); [|exact Tr]. now apply Rltb_false in Neg. }
    cbn [snd] in Inv. destruct Inv as [W1 [_ [Pos [Tot T0]]]]. cbn [fst snd] in *.
    cbn [divide_by_scalar with_data data map3 at3].
    assert (Z : forall c, at3 (data h1) c / T = at3 (data h1) c * / T) by reflexivity.
    destruct (Rle_lt_or_eq_dec _ _ T0) as [Tp | Tz].
    - split.
      + intros c. cbn [ndiv num_R]. apply Rmult_le_pos; [apply Pos | left; now apply Rinv_0_lt_compat].
      + unfold total in *. cbn [sh3 map3 at3]. cbn [ndiv num_R]. unfold Rdiv. rewrite Rsum_map_scal_r.
        apply Rmult_le_reg_r with T; [exact Tp|]. rewrite Rmult_assoc, Rinv_l, Rmult_1_r by lra. lra.
    - subst T. assert (I0 : / 0 = 0) by apply Rinv_0. cbn [ndiv num_R]. unfold Rdiv. rewrite I0.
      split; [intros c; lra|]. unfold total. cbn [sh3 map3 at3]. cbn [ndiv num_R]. unfold Rdiv. rewrite Rsum_zero; [lra|]. intros; rewrite ?I0; lra.
  Qed.
End Any.
