(** * Property C40: dispersion. *)
From Coq Require Import Reals List NArith ZArith Bool Lia Lra String ZifyBool ZifyN ZifyNat.
From Flocq Require Import Core.Core IEEE754.BinarySingleNaN.
From Verif Require Import Base BaseFacts Num F64Facts RFacts NDArray GridModel GridSpec GridFacts CartProofs CartR GridOps
  SelModel DataModel DataSpec DataProofs DataLoad PropertiesGrid PropertiesData FunModel FunSpec FunProofs FunMgr FunField PropertiesFun FunOcc FunMom FunTemp.
Local Open Scope list_scope.

(** ** Specification *)
Section Spec.
  Context {F : Type} {NF : Num F} {TF : Trig F}.
  (** The record found for the time of [x] plus the delay (C32). *)
  Definition delayed (bld : build) (ta : list F) (dt : F) (L : list (timestep F)) (x : timestep F) : option (timestep F) :=
    match closest bld (List.length ta) ta (nadd (ts_time x) dt) with
    | Some (Val (Some t)) => nth_error L (N.to_nat t)
    | _ => None
    end.
  (** Each chosen sample together with the position recorded at its index after the delay. *)
  Definition moves bld ta dt (s : selector F) (L : list (timestep F)) : list (sample F * v3 F) :=
    flat_map (fun x => match delayed bld ta dt L x with
                       | Some y => filter (fun mq => chosen s (fst mq)) (combine (samples x) (ts_pos y))
                       | None => []
                       end) L.
  Definition start (mq : sample F * v3 F) : v3 F := sm_pos (fst mq).
  Definition moves_in bld (g : grid F) (c : id3) (l : list (sample F * v3 F)) : list (sample F * v3 F) :=
    filter (fun mq => in_cell bld (geo g) c (start mq)) l.
End Spec.

Section Gen.
  Context {F : Type} {NF : Num F} {TF : Trig F}.

  Lemma search_bound bld ta (s : F) fuel : forall low high mid m, (mid < vlen ta)%N ->
    search bld fuel ta s low high mid = Some (Val m) -> (m < vlen ta)%N.
  Proof.
    induction fuel as [|fuel IH]; intros low high mid m Hm E; cbn [search] in E; destruct (low <=? high)%N; cbn [negb] in E;
      try (injection E as <-; exact Hm); [discriminate|].
    destruct (vget ta ((low + high) / 2)) as [x|] eqn:V; [|discriminate]. apply vget_lt_inv in V.
    destruct (nltb (nabs _) _); [injection E as <-; exact V|].
    destruct (nltb x s); [exact (IH _ _ _ _ V E)|]. destruct (usub bld _ 1); [exact (IH _ _ _ _ V E) | discriminate].
  Qed.
  Lemma closest_bound bld fuel ta (s : F) m : closest bld fuel ta s = Some (Val (Some m)) -> (m < vlen ta)%N.
  Proof.
    unfold closest. destruct (usub bld (vlen ta) 1) as [high|]; [|discriminate].
    destruct (vget ta high) as [a|] eqn:V; [|discriminate]. destruct (vget ta 0) as [b|]; [|discriminate].
    destruct (nltb a s); [discriminate|]. destruct (nltb s b); [discriminate|].
    destruct (search bld fuel ta s 0 high (high / 2)) as [[m'|]|] eqn:S; try discriminate. intros [= <-].
    eapply search_bound; [|exact S]. apply vget_lt_inv in V. assert (high / 2 <= high)%N by (apply N.div_le_upper_bound; lia). lia.
  Qed.

  (** A returning loop over the indices of [l] that reads [m] only where [p] holds. *)
  Lemma mfold_zip_val {S A B} (f : S -> N -> res S) (p : A -> bool) (b : S -> A * B -> res S) (l : list A) (m : list B) :
    (forall i a c st, at_ l i a -> at_ m i c -> f st i = b st (a, c)) ->
    (forall i a st st', at_ l i a -> (vlen m <= i)%N -> f st i = Val st' -> st' = st) ->
    forall st st', mfold f (range 0 (vlen l)) st = Val st' -> mfold b (combine l m) st = Val st'.
  Proof.
    intros H1 H2.
    set (f' := fun st i => if (vlen m <=? i)%N then Val st else f st i).
    assert (Q : forall st, mfold f' (range 0 (vlen l)) st = mfold b (combine l m) st).
    { apply mfold_zip.
      - intros i a c st Ha Hc. unfold f'. assert (Lt := at_lt _ _ _ Hc). destruct (N.leb_spec (vlen m) i); [lia|]. now apply H1.
      - intros i a st Ha Le. unfold f'. destruct (N.leb_spec (vlen m) i); [reflexivity | lia]. }
    intros st st' E. rewrite <- Q. clear Q.
    assert (G : forall is, (forall i, In i is -> (i < vlen l)%N) -> forall st st', mfold f is st = Val st' -> mfold f' is st = Val st').
    { induction is as [|i is IH]; intros Hi a a' Ea; [exact Ea|]. cbn [mfold] in *. apply bind_val in Ea. destruct Ea as [a1 [E1 Ea]].
      unfold f' at 1. destruct (N.leb_spec (vlen m) i) as [Le|Lt].
      - destruct (lt_at l i (Hi i (or_introl eq_refl))) as [z Hz]. rewrite (H2 i z a a1 Hz Le E1) in Ea. cbn [bind].
        apply IH; [intros; apply Hi; now right | exact Ea].
      - rewrite E1. cbn [bind]. apply IH; [intros; apply Hi; now right | exact Ea]. }
    apply G; [|exact E]. intros i Hi. apply in_range in Hi. lia.
  Qed.

  Definition disp_body bld (g : grid F) (y : timestep F) (m : moments F) (i : N) (p : v3 F) : res (moments F) :=
    if negb (is_inside g p) then Val m else
    let! o := cell_id bld g p in
    match o with
    | None => Val m
    | Some c => let! q := vget (ts_pos y) i in moments_add m c q
    end.
  Lemma disp_step bld (g : grid F) (s : selector F) (x y : timestep F) m m' : rect x -> sel_ok s ->
    timestep_valid s (ts_time x) = true ->
    loop_particles s x (disp_body bld g y) m = Val m' ->
    mfold (mom_body bld g start snd) (filter (fun mq => chosen s (fst mq)) (combine (samples x) (ts_pos y))) m = Val m'.
  Proof.
    intros R Sk Tv E. rewrite <- mfold_filter. unfold loop_particles in E. rewrite <- (samples_length x R) in E.
    refine (mfold_zip_val _ (fun _ => true) _ (samples x) (ts_pos y) _ _ m m' E).
    - intros i a c st Ha Hc. destruct (samples_at x i a R Ha) as [Ht [Hp _]]. rewrite (valid_at_spec s x i a R Sk Ha). cbn [bind].
      unfold chosen. cbn [fst]. rewrite Ht, Tv. cbn [andb]. destruct (accepts s a); [|reflexivity].
      rewrite (proj2 (vget_val _ _ _) Hp). cbn [bind]. unfold disp_body, mom_body, start. cbn [fst snd].
      rewrite (proj2 (vget_val _ _ _) Hc). reflexivity.
    - intros i a st st' Ha Le Ef. destruct (samples_at x i a R Ha) as [Ht [Hp _]]. rewrite (valid_at_spec s x i a R Sk Ha) in Ef. cbn [bind] in Ef.
      destruct (accepts s a); [|now injection Ef]. rewrite (proj2 (vget_val _ _ _) Hp) in Ef. cbn [bind] in Ef. unfold disp_body in Ef.
      destruct (negb _); [now injection Ef|]. destruct (cell_id bld g (sm_pos a)) as [[c|]|]; cbn [bind] in Ef; [|now injection Ef | discriminate].
      apply bind_val in Ef. destruct Ef as [q [Hq _]]. apply vget_lt_inv in Hq. lia.
  Qed.
  Lemma disp_step_total bld (g : grid F) (s : selector F) (x y : timestep F) m : rect x -> sel_ok s ->
    vlen (ts_pos y) = vlen (ts_pos x) -> inside_ok bld (geo g) -> mom_shape (geom_cells (geo g)) m ->
    exists m', loop_particles s x (disp_body bld g y) m = Val m' /\ mom_shape (geom_cells (geo g)) m'.
  Proof.
    intros R Sk Ln Ok Sh. unfold loop_particles.
    assert (G : forall is m, (forall i, In i is -> (i < vlen (ts_pos x))%N) -> mom_shape (geom_cells (geo g)) m ->
      exists m', mfold (fun st i => let! ok := valid_at s x i in if ok then (let! p := vget (ts_pos x) i in disp_body bld g y st i p) else Val st) is m = Val m'
        /\ mom_shape (geom_cells (geo g)) m').
    { induction is as [|i is IH]; intros m1 Hi S1; cbn [mfold]; [eauto|].
      assert (Li := Hi i (or_introl eq_refl)). rewrite <- (samples_length x R) in Li. destruct (lt_at _ _ Li) as [a Ha].
      rewrite (valid_at_spec s x i a R Sk Ha). cbn [bind].
      assert (Next : forall j, In j is -> (j < vlen (ts_pos x))%N) by (intros; apply Hi; now right).
      destruct (accepts s a); cbn [bind]; [|now apply IH].
      destruct (samples_at x i a R Ha) as [_ [Hp _]]. rewrite (proj2 (vget_val _ _ _) Hp). cbn [bind]. unfold disp_body at 1. unfold is_inside, cell_id.
      destruct (geom_inside (geo g) (sm_pos a)) eqn:In; cbn [negb bind]; [|now apply IH].
      destruct (Ok _ In) as [c [C1 C2]]. rewrite C1. cbn [bind].
      destruct (vget_lt (ts_pos y) i) as [q Hq]; [rewrite Ln; apply Hi; now left|]. rewrite Hq. cbn [bind].
      destruct (moments_add_ok _ m1 c q S1 C2) as [m2 E2]. rewrite E2. cbn [bind]. apply IH; [exact Next|].
      exact (proj1 (proj2 (moments_add_inv _ _ _ _ _ S1 E2))). }
    apply G; [|exact Sh]. intros i Hi. apply in_range in Hi. lia.
  Qed.

  (** A time loop that looks up the timestep at a delay (functions.rs 483-560, mixing.rs 212-275). *)
  Definition delay_ts {S} bld (M : mgr F) (dt : F) (body : timestep F -> timestep F -> S -> res S) : ms M * S -> N -> timestep F -> res (ms M * S) :=
    fun st _ x =>
          let '(d, m) := st in
          let ta := st_time (m_stats M) in
          match closest bld (List.length ta) ta (nadd (ts_time x) dt) with
          | None | Some Panic => Panic
          | Some (Val None) => Val (d, m)
          | Some (Val (Some t')) =>
              let! r := m_getb M d t' 0 in
              let '(d1, y) := r in
              let! m' := body x y m in
              Val (d1, m')
          end.

  Section Loop.
    Context {S : Type} (bld : build) (M : mgr F) (s : selector F) (dt : F) (L0 : list (timestep F)) (I1 : N -> ms M -> Prop) (can : N -> N -> Prop).
    Hypothesis Get : forall lo d t x, I1 lo d -> at_ L0 t x -> exists d', m_get M d t = Val (d', x) /\ I1 lo d'.
    Hypothesis Getb : forall lo d t x, I1 lo d -> at_ L0 t x -> can lo t -> exists d', m_getb M d t 0 = Val (d', x) /\ I1 t d'.
    Hypothesis Right : forall lo d t x d' y, I1 lo d -> at_ L0 t x -> m_getb M d t 0 = Val (d', y) -> y = x /\ I1 t d'.
    Hypothesis Ta : vlen (st_time (m_stats M)) = vlen L0.
    Hypothesis Rc : Forall rect L0.
    Context (body : timestep F -> timestep F -> S -> res S) (f : S -> sample F * v3 F -> res S).
    Hypothesis Step : forall x y m m', rect x -> timestep_valid s (ts_time x) = true -> body x y m = Val m' ->
      mfold f (filter (fun mq => chosen s (fst mq)) (combine (samples x) (ts_pos y))) m = Val m'.
    Notation ta := (st_time (m_stats M)).
    Definition moves_of (L : list (timestep F)) : list (sample F * v3 F) :=
      flat_map (fun x => match delayed bld ta dt L0 x with
                       | Some y => filter (fun mq => chosen s (fst mq)) (combine (samples x) (ts_pos y))
                       | None => []
                       end) L.
    Lemma no_moves x y : rect x -> timestep_valid s (ts_time x) = false ->
      filter (fun mq : sample F * v3 F => chosen s (fst mq)) (combine (samples x) (ts_pos y)) = [].
    Proof.
      intros R Tv. apply filter_none. intros [m q] Hm. apply in_combine_l in Hm. unfold chosen. cbn [fst]. now rewrite (samples_time x m R Hm), Tv.
    Qed.
    Lemma delay_loop_sound L : forall k d m lo r, (forall i x, at_ L i x -> at_ L0 (k + i)%N x) -> I1 lo d ->
      loop_ts M s (delay_ts bld M dt body) (range k (k + vlen L)) (d, m) = Val r ->
      mfold f (moves_of L) m = Val (snd r) /\ exists lo', I1 lo' (fst r).
    Proof.
      induction L as [|x L IH]; intros k d m lo r Sub J E.
      - unfold vlen in E. cbn [List.length] in E. rewrite range_empty in E by lia. injection E as <-. split; [reflexivity | eauto].
      - rewrite range_cons in E by (unfold vlen; cbn [List.length]; lia).
        replace (k + vlen (x :: L))%N with (k + 1 + vlen L)%N in E by (unfold vlen; cbn [List.length]; lia).
        assert (Hx : at_ L0 k x). { specialize (Sub 0%N x eq_refl). now rewrite N.add_0_r in Sub. }
        assert (Rx : rect x) by (rewrite Forall_forall in Rc; apply Rc; eapply nth_error_In; exact Hx).
        assert (Sub' : forall i y, at_ L i y -> at_ L0 (k + 1 + i)%N y).
        { intros i y Hi. replace (k + 1 + i)%N with (k + (i + 1))%N by lia. apply Sub. unfold at_.
          replace (N.to_nat (i + 1)) with (Datatypes.S (N.to_nat i)) by lia. exact Hi. }
        destruct (Get lo d k x J Hx) as [d1 [E1 J1]]. unfold loop_ts in E. cbn [mfold fst snd] in E. rewrite E1 in E. cbn [bind] in E.
        fold (loop_ts M s (delay_ts bld M dt body)) in E. cbn [moves_of flat_map]. rewrite mfold_app.
        destruct (timestep_valid s (ts_time x)) eqn:Tv.
        + unfold delay_ts in E at 1. unfold delayed. destruct (closest bld (List.length ta) ta (nadd (ts_time x) dt)) as [[[t'|]|]|] eqn:Cl; try discriminate.
          * apply closest_bound in Cl. rewrite Ta in Cl. destruct (lt_at L0 t' Cl) as [y Hy].
            apply bind_val in E. destruct E as [st' [E E3]]. apply bind_val in E. destruct E as [[d2 y'] [E2 E]].
            destruct (Right _ _ _ _ _ _ J1 Hy E2) as [-> J2]. apply bind_val in E. destruct E as [m' [E4 E]]. injection E as <-.
            unfold at_ in Hy. rewrite Hy. rewrite (Step x y m m' Rx Tv E4). cbn [bind].
            exact (IH (k + 1)%N d2 m' t' r Sub' J2 E3).
          * cbn [mfold bind]. cbn [bind] in E. exact (IH (k + 1)%N d1 m lo r Sub' J1 E).
        + assert (Z : match delayed bld ta dt L0 x with
                       | Some y => filter (fun mq => chosen s (fst mq)) (combine (samples x) (ts_pos y)) | None => [] end = []).
          { destruct (delayed bld ta dt L0 x); [now apply no_moves | reflexivity]. }
          rewrite Z. cbn [mfold bind]. cbn [bind] in E. exact (IH (k + 1)%N d1 m lo r Sub' J1 E).
    Qed.
    Hypothesis Can : forall lo t, can lo t.
    Context (P : S -> Prop).
    Hypothesis Tot : forall x y m, rect x -> vlen (ts_pos y) = vlen (ts_pos x) -> P m -> exists m', body x y m = Val m' /\ P m'.
    Hypothesis Np : exists np, Forall (fun x => vlen (ts_pos x) = np) L0.
    Hypothesis Cl : forall x, In x L0 -> exists o, closest bld (List.length ta) ta (nadd (ts_time x) dt) = Some (Val o).
    Lemma delay_loop_total L : forall k d m lo, (forall i x, at_ L i x -> at_ L0 (k + i)%N x) -> I1 lo d -> P m ->
      exists r, loop_ts M s (delay_ts bld M dt body) (range k (k + vlen L)) (d, m) = Val r.
    Proof.
      induction L as [|x L IH]; intros k d m lo Sub J Sh.
      - unfold vlen. cbn [List.length]. rewrite range_empty by lia. eexists. reflexivity.
      - rewrite range_cons by (unfold vlen; cbn [List.length]; lia).
        replace (k + vlen (x :: L))%N with (k + 1 + vlen L)%N by (unfold vlen; cbn [List.length]; lia).
        assert (Hx : at_ L0 k x). { specialize (Sub 0%N x eq_refl). now rewrite N.add_0_r in Sub. }
        assert (Ix : In x L0) by (eapply nth_error_In; exact Hx).
        assert (Rx : rect x) by (rewrite Forall_forall in Rc; now apply Rc).
        assert (Sub' : forall i y, at_ L i y -> at_ L0 (k + 1 + i)%N y).
        { intros i y Hi. replace (k + 1 + i)%N with (k + (i + 1))%N by lia. apply Sub. unfold at_.
          replace (N.to_nat (i + 1)) with (Datatypes.S (N.to_nat i)) by lia. exact Hi. }
        destruct (Get lo d k x J Hx) as [d1 [E1 J1]]. unfold loop_ts. cbn [mfold fst snd]. rewrite E1. cbn [bind].
        fold (loop_ts M s (delay_ts bld M dt body)).
        destruct (timestep_valid s (ts_time x)); [|cbn [bind]; exact (IH (k + 1)%N d1 m lo Sub' J1 Sh)].
        unfold delay_ts at 1. destruct (Cl x Ix) as [o Eo]. rewrite Eo. destruct o as [t'|]; [|cbn [bind]; exact (IH (k + 1)%N d1 m lo Sub' J1 Sh)].
        apply closest_bound in Eo. rewrite Ta in Eo. destruct (lt_at L0 t' Eo) as [y Hy].
        destruct (Getb lo d1 t' y J1 Hy (Can lo t')) as [d2 [E2 J2]]. rewrite E2. cbn [bind].
        destruct Np as [np Hnp]. rewrite Forall_forall in Hnp.
        destruct (Tot x y m Rx) as [m' [E3 S3]]; [rewrite (Hnp x Ix); apply Hnp; eapply nth_error_In; exact Hy | exact Sh|].
        rewrite E3. cbn [bind]. exact (IH (k + 1)%N d2 m' t' Sub' J2 S3).
    Qed.
  End Loop.

  (** The final grid. *)
  Lemma disp_cells m cs : forall (h0 h : grid F), NoDup cs -> mom_shape (geom_cells (geo h0)) m -> wf_grid h0 ->
    mfold (fun h c => let! n := get3 (m_n m) c in if nltb n1 n then add_to_cell h c (cell_dispersion m c) else Val h) cs h0 = Val h ->
    wf_grid h /\ geo h = geo h0 /\ forall c,
      at3 (data h) c = (if existsb (id3_eqb c) cs && nltb n1 (at3 (m_n m) c) then nadd (at3 (data h0) c) (cell_dispersion m c) else at3 (data h0) c) /\
      at3 (weight h) c = (if existsb (id3_eqb c) cs && nltb n1 (at3 (m_n m) c) then nadd (at3 (weight h0) c) n1 else at3 (weight h0) c).
  Proof.
    induction cs as [|c0 cs IH]; intros h0 h ND Sh W E.
    - injection E as <-. split; [exact W|]. split; [reflexivity|]. intros c. split; reflexivity.
    - inversion ND as [|? ? Nin ND']; subst. cbn [mfold] in E. apply bind_val in E. destruct E as [h1 [E1 E]].
      apply bind_val in E1. destruct E1 as [n [En E1]]. unfold get3 in En. destruct (inb3 (sh3 (m_n m)) c0) eqn:I; [|discriminate]. injection En as <-.
      assert (H1 : wf_grid h1 /\ geo h1 = geo h0 /\ forall c,
        at3 (data h1) c = (if id3_eqb c c0 && nltb n1 (at3 (m_n m) c0) then nadd (at3 (data h0) c) (cell_dispersion m c) else at3 (data h0) c) /\
        at3 (weight h1) c = (if id3_eqb c c0 && nltb n1 (at3 (m_n m) c0) then nadd (at3 (weight h0) c) n1 else at3 (weight h0) c)).
      { destruct (nltb n1 (at3 (m_n m) c0)) eqn:Q.
        - unfold add_to_cell in E1. destruct (bump_inv _ _ _ _ _ E1) as [_ [_ O]]. pose proof O as [O1 [O2 [O3 [O4 [O5 O6]]]]].
          split; [exact (only_cell_wf _ _ _ _ _ O W)|]. split; [exact O1|]. intros c. rewrite andb_true_r.
          destruct (id3_eqb c c0) eqn:Eq; [apply id3_eqb_eq in Eq; subst c; auto|]. apply O6. now apply id3_eqb_neq.
        - injection E1 as <-. split; [exact W|]. split; [reflexivity|]. intros c. rewrite andb_false_r. auto. }
      destruct H1 as [W1 [G1 H1]]. destruct (IH h1 h ND' ltac:(now rewrite G1) W1 E) as [W2 [G2 H2]].
      split; [exact W2|]. split; [congruence|]. intros c. destruct (H1 c) as [A1 A2], (H2 c) as [B1 B2]. rewrite B1, B2, A1, A2.
      cbn [existsb]. destruct (id3_eqb c c0) eqn:Eq; cbn [orb andb]; [|split; reflexivity].
      apply id3_eqb_eq in Eq. subst c0.
      assert (Z : existsb (id3_eqb c) cs = false).
      { destruct (existsb (id3_eqb c) cs) eqn:Ex; [|reflexivity]. apply existsb_exists in Ex. destruct Ex as [c' [Hc Ec]].
        apply id3_eqb_eq in Ec. congruence. }
      rewrite Z. cbn [andb]. destruct (nltb n1 (at3 (m_n m) c)); split; reflexivity.
  Qed.
  Lemma disp_cells_total m cs : forall (h0 : grid F), (forall c, In c cs -> inb3 (geom_cells (geo h0)) c = true) -> mom_shape (geom_cells (geo h0)) m -> wf_grid h0 ->
    exists h, mfold (fun h c => let! n := get3 (m_n m) c in if nltb n1 n then add_to_cell h c (cell_dispersion m c) else Val h) cs h0 = Val h /\ wf_grid h.
  Proof.
    induction cs as [|c cs IH]; intros h0 Hin Sh W; cbn [mfold]; [eauto|].
    assert (Eg : get3 (m_n m) c = Val (at3 (m_n m) c)) by (unfold get3; now rewrite (proj2 Sh), (Hin c (or_introl eq_refl))).
    rewrite Eg. cbn [bind].
    destruct (nltb n1 (at3 (m_n m) c)); cbn [bind]; [|apply IH; auto; intros; apply Hin; now right].
    destruct (bump_total h0 c (cell_dispersion m c) n1 W (Hin c (or_introl eq_refl))) as [h1 E1]. unfold add_to_cell. rewrite E1. cbn [bind].
    destruct (bump_wf _ _ _ _ _ E1 W) as [W1 G1]. apply IH; [|now rewrite G1 | exact W1]. intros; rewrite G1; apply Hin; now right.
  Qed.

  Lemma disp_run can bld (M : mgr F) d (L : list (timestep F)) g s dt d' h mean :
    aux_reads can M d L -> L <> [] -> vlen (st_time (m_stats M)) = vlen L -> Forall rect L -> sel_ok s -> wf_grid g ->
    dispersion bld M d g s dt = Val (d', (h, mean)) ->
    wf_grid h /\ geo h = geo g /\
    exists m, mom_ok bld g start snd (moves bld (st_time (m_stats M)) dt s L) (moments_of g) m /\
      (forall c, inb3 (geom_cells (geo g)) c = true ->
        at3 (data h) c = (if nltb n1 (at3 (m_n m) c) then nadd n0 (cell_dispersion m c) else n0) /\
        at3 (weight h) c = (if nltb n1 (at3 (m_n m) c) then nadd (at3 (weight g) c) n1 else at3 (weight g) c)) /\
      mean = ndiv (nd_sum (map (fun c => nmul (at3 (weight h) c) (at3 (data h) c)) (ids3 (geom_cells (geo g)))))
                  (nd_sum (map (at3 (weight h)) (ids3 (geom_cells (geo g))))).
  Proof.
    intros [Nt [I0 [I1 [J0 [Su [Get [Getb [Rt _]]]]]]]] Ne Ta Rc Sk W E. destruct (Su d J0) as [d0 [E0 J1]].
    unfold dispersion in E. rewrite E0 in E. cbn [bind] in E. rewrite (all_steps_val bld M L Nt Ne) in E. cbn [bind] in E.
    apply bind_val in E. destruct E as [[d1 m] [E1 E]].
    assert (Fo0 := delay_loop_sound bld M s dt L I1 can Get Getb Rt Ta Rc (fun x y m => loop_particles s x (disp_body bld g y) m) (mom_body bld g start snd)
      (fun x y m m' Rx Tv => disp_step bld g s x y m m' Rx Sk Tv) L 0 d0 (moments_of g) 0%N (d1, m) ltac:(intros; assumption) J1 E1). destruct Fo0 as [Fo _].
    change (moves_of bld M s dt L L) with (moves bld (st_time (m_stats M)) dt s L) in Fo. cbn [snd] in Fo.
    assert (Mo := mom_sound bld g start snd _ _ _ (moments_of_shape g W) Fo).
    apply bind_val in E. destruct E as [h1 [E2 E]]. apply bind_val in E. destruct E as [wd [E3 E]].
    apply Val_pair in E. destruct E as [_ E]. assert (Eh : h1 = h) by congruence. assert (Em : mean = ndiv (sum3 wd) (sum3 (weight h1))) by congruence.
    subst h1. clear E. destruct (new_zeros_wf g W) as [W0 G0].
    destruct (disp_cells m _ (new_zeros g) h (ids3_NoDup _) ltac:(rewrite G0; exact (proj1 Mo)) W0 E2) as [Wh [Gh H]].
    split; [exact Wh|]. split; [congruence|]. exists m. split; [exact Mo|].
    assert (Hc : forall c, inb3 (geom_cells (geo g)) c = true -> existsb (id3_eqb c) (ids3 (geom_cells (geo g))) = true).
    { intros c Hc. apply existsb_exists. exists c. split; [now apply in_ids3 | apply id3_eqb_refl]. }
    split.
    - intros c Hi. destruct (H c) as [A B]. rewrite A, B, (Hc c Hi). cbn [andb]. split; reflexivity.
    - rewrite Em. unfold sum3. destruct Wh as [Wh1 Wh2].
      destruct (zip3_at nmul (weight h) (data h) wd ltac:(congruence) E3) as [S3 H3].
      rewrite S3, Wh2, Gh, G0. f_equal. f_equal. apply map_ext_in. intros c Hi. apply in_ids3 in Hi. apply H3. rewrite Wh2, Gh, G0. exact Hi.
  Qed.
End Gen.

(** ndarray's eight running sums, in exact arithmetic. *)
Lemma unrolled_R n : forall (l : list R), (List.length l <= n)%nat -> forall p0 p1 p2 p3 p4 p5 p6 p7 : R,
  (unrolled l p0 p1 p2 p3 p4 p5 p6 p7 = p0 + p1 + p2 + p3 + p4 + p5 + p6 + p7 + Rsum l)%R.
Proof.
  induction n as [|n IH]; intros l Hl p0 p1 p2 p3 p4 p5 p6 p7.
  - destruct l; [|cbn in Hl; lia]. cbn [unrolled fold_left]. rewrite Rsum_nil. cbn [nadd num_R]. change (@n0 R num_R) with 0%R. lra.
  - destruct l as [|x0 [|x1 [|x2 [|x3 [|x4 [|x5 [|x6 [|x7 l]]]]]]]].
    9:{ cbn [unrolled]. rewrite IH by (cbn [List.length] in Hl; lia). rewrite !Rsum_cons. cbn [nadd num_R]. lra. }
    all: cbn [unrolled fold_left]; rewrite ?Rsum_cons, Rsum_nil; cbn [nadd num_R]; change (@n0 R num_R) with 0%R; lra.
Qed.
Lemma nd_sum_R (l : list R) : nd_sum l = Rsum l.
Proof. unfold nd_sum. rewrite (unrolled_R _ _ (le_n _)). change (@n0 R num_R) with 0%R. lra. Qed.

(** ** C40 *)
Section R.
  Context {TF : Trig R}.
  Local Open Scope R_scope.
  (** The unbiased sample variance. *)
  Definition Rsvar (l : list R) : R := Rsum (map (fun x => (x - Rmean l) * (x - Rmean l)) l) / (INR (List.length l) - 1).
  (** Summed over the axes. *)
  Definition spread (l : list (v3 R)) : R := Rsvar (map (v3i 0) l) + Rsvar (map (v3i 1) l) + Rsvar (map (v3i 2) l).

  Lemma Rsvar_var l : (2 <= List.length l)%nat -> Rsvar l = Rvar l * INR (List.length l) / (INR (List.length l) - 1) /\ 0 <= Rsvar l.
  Proof.
    intros H. assert (P : 2 <= INR (List.length l)) by (apply (le_INR 2) in H; exact H). unfold Rsvar, Rvar.
    split; [field; lra|]. apply Rmult_le_pos; [|left; apply Rinv_0_lt_compat; lra].
    apply Rsum_nonneg. intros x _. apply (Rle_0_sqr (x - Rmean l)).
  Qed.
  (** Ideal arithmetic, any grid without data: cells with at least two moves hold the spread of their
      end points, the others 0; the second result is the mean over the cells, by weight. *)
  Theorem c40_sample_variance can bld (M : mgr R) d (L : list (timestep R)) g s dt d' h mean :
    aux_reads can M d L -> L <> [] -> vlen (st_time (m_stats M)) = vlen L -> Forall rect L -> sel_ok s -> fresh g ->
    dispersion bld M d g s dt = Val (d', (h, mean)) ->
    geo h = geo g /\
    (forall c, inb3 (geom_cells (geo g)) c = true ->
      let l := moves_in bld g c (moves bld (st_time (m_stats M)) dt s L) in
      ((2 <= List.length l)%nat -> at3 (data h) c = spread (map snd l) /\ at3 (weight h) c = 1 /\ 0 <= at3 (data h) c) /\
      ((List.length l < 2)%nat -> at3 (data h) c = 0 /\ at3 (weight h) c = 0)) /\
    mean = Rsum (map (fun c => at3 (weight h) c * at3 (data h) c) (ids3 (geom_cells (geo g)))) /
           Rsum (map (at3 (weight h)) (ids3 (geom_cells (geo g)))).
  Proof.
    intros Aux Ne Ta Rc Sk [W Fr] E. destruct (disp_run can bld M d L g s dt d' h mean Aux Ne Ta Rc Sk W E) as [_ [G [m [[_ Mo] [H Hm]]]]].
    split; [exact G|]. split.
    - intros c Hc l. destruct (H c Hc) as [Hd Hw]. destruct (Mo c) as [Mk Mn].
      change (here bld g start c (moves bld (st_time (m_stats M)) dt s L)) with l in Mk, Mn.
      destruct (moments_of_at g 0 c) as [_ [_ E0]]. rewrite E0, (proj1 (Fr c)), count_R in Mn. change (@n0 R num_R) with 0 in Mn.
      assert (N1 : at3 (m_n m) c = INR (List.length l)).
      { rewrite Mn. unfold NR, vlen. rewrite nat_N_Z, <- INR_IZR_INZ. lra. }
      rewrite (proj2 (Fr c)) in Hw. change (@n0 R num_R) with 0 in Hw, Hd. change (@n1 R num_R) with 1 in Hw, Hd. rewrite N1 in Hd, Hw.
      split; intros Hl.
      + assert (P : 2 <= INR (List.length l)) by (apply (le_INR 2) in Hl; exact Hl).
        rewrite (proj2 (Rltb_true 1 (INR (List.length l)))) in Hd, Hw by lra.
        assert (D : cell_dispersion m c = spread (map snd l)).
        { assert (Ax : forall k, (k <= 2)%N -> at3 (v3i k (m_sq m)) c / INR (List.length l) -
                    at3 (v3i k (m_sum m)) c * at3 (v3i k (m_sum m)) c / INR (List.length l) / INR (List.length l) = Rvar (map (v3i k) (map snd l))).
          { intros k Hk. destruct (Mk k Hk) as [A B]. destruct (moments_of_at g k c) as [X [Y _]].
            rewrite A, B, X, Y, (proj1 (Fr c)). change (@nadd R num_R) with Rplus. rewrite !fold_left_Rplus. change (@n0 R num_R) with 0.
            rewrite Rvar_moments by (destruct l; [cbn in Hl; lia | discriminate]). rewrite !map_map, !map_length. cbn [nmul num_R]. field. lra. }
          assert (A0 := Ax 0%N ltac:(lia)). assert (A1 := Ax 1%N ltac:(lia)). assert (A2 := Ax 2%N ltac:(lia)).
          unfold cell_dispersion, spread. rewrite N1. destruct (m_sq m) as [[q0 q1] q2], (m_sum m) as [[s0 s1] s2].
          change (v3i 0 (q0, q1, q2)) with q0 in A0. change (v3i 1 (q0, q1, q2)) with q1 in A1. change (v3i 2 (q0, q1, q2)) with q2 in A2.
          change (v3i 0 (s0, s1, s2)) with s0 in A0. change (v3i 1 (s0, s1, s2)) with s1 in A1. change (v3i 2 (s0, s1, s2)) with s2 in A2.
          cbn [nadd nsub nmul ndiv num_R]. change (@n1 R num_R) with 1. rewrite A0, A1, A2.
          rewrite (proj1 (Rsvar_var (map (v3i 0) (map snd l)) ltac:(rewrite !map_length; exact Hl))).
          rewrite (proj1 (Rsvar_var (map (v3i 1) (map snd l)) ltac:(rewrite !map_length; exact Hl))).
          rewrite (proj1 (Rsvar_var (map (v3i 2) (map snd l)) ltac:(rewrite !map_length; exact Hl))).
          rewrite !map_length. field. lra. }
        rewrite D in Hd. change (@nadd R num_R) with Rplus in Hd, Hw. rewrite Rplus_0_l in Hd, Hw.
        split; [exact Hd|]. split; [exact Hw|]. rewrite Hd. unfold spread.
        generalize (proj2 (Rsvar_var (map (v3i 0) (map snd l)) ltac:(rewrite !map_length; exact Hl))).
        generalize (proj2 (Rsvar_var (map (v3i 1) (map snd l)) ltac:(rewrite !map_length; exact Hl))).
        generalize (proj2 (Rsvar_var (map (v3i 2) (map snd l)) ltac:(rewrite !map_length; exact Hl))). lra.
      + assert (P : INR (List.length l) <= 1) by (apply (le_INR (List.length l) 1); lia).
        rewrite (proj2 (Rltb_false 1 (INR (List.length l)))) in Hd, Hw by lra. auto.
    - rewrite Hm. now rewrite !nd_sum_R.
  Qed.
  (** Zero exactly when all end points coincide. *)
  Theorem c40_zero_iff_coincide (l : list (v3 R)) : (2 <= List.length l)%nat ->
    spread l = 0 <-> exists q, forall p, In p l -> p = q.
  Proof.
    intros H. assert (P : 2 <= INR (List.length l)) by (apply (le_INR 2) in H; exact H).
    assert (Nn : forall k, map (v3i k) l <> []) by (intros k; destruct l; [cbn in H; lia | discriminate]).
    assert (V : forall k, Rsvar (map (v3i k) l) = Rvar (map (v3i k) l) * INR (List.length l) / (INR (List.length l) - 1) /\ 0 <= Rsvar (map (v3i k) l)).
    { intros k. rewrite <- (map_length (v3i k) l). apply Rsvar_var. rewrite map_length. exact H. }
    unfold spread. split.
    - intros Z. destruct (V 0%N) as [V0 P0], (V 1%N) as [V1 P1], (V 2%N) as [V2 P2].
      assert (Z0 : forall k, Rsvar (map (v3i k) l) = 0 -> Rvar (map (v3i k) l) = 0).
      { intros k Hk. destruct (V k) as [Vk _]. rewrite Vk in Hk. 
        apply Rmult_eq_reg_r with (INR (List.length l) / (INR (List.length l) - 1)); [unfold Rdiv in *; lra|].
        apply Rgt_not_eq. apply Rdiv_lt_0_compat; lra. }
      exists (Rmean (map (v3i 0) l), Rmean (map (v3i 1) l), Rmean (map (v3i 2) l)). intros p Hp.
      assert (C : forall k, Rsvar (map (v3i k) l) = 0 -> v3i k p = Rmean (map (v3i k) l)).
      { intros k Hk. apply (Rvar_zero _ (Nn k) (Z0 k Hk)). now apply in_map. }
      rewrite <- (C 0%N), <- (C 1%N), <- (C 2%N) by lra. destruct p as [[a b] c]. reflexivity.
    - intros [q Hq]. assert (Z : forall k, Rsvar (map (v3i k) l) = 0).
      { intros k. destruct (V k) as [Vk _]. rewrite Vk. rewrite (Rvar_const _ (v3i k q) (Nn k)); [unfold Rdiv; lra|].
        intros x Hx. apply in_map_iff in Hx. destruct Hx as [p [<- Hp]]. now rewrite (Hq p Hp). }
      rewrite !Z. lra.
  Qed.
End R.
(** Doubles, Cartesian grids: the call returns, if auxiliary reads do, times are finite and the number of
    particles is the same throughout. *)
Theorem c40_returns {TF : Trig f64} can (bld : build) (M : mgr f64) d (L : list (timestep f64)) (g : grid f64) cg s dt :
  aux_reads can M d L -> (forall lo t, can lo t) -> L <> [] -> vlen (st_time (m_stats M)) = vlen L -> Forall rect L ->
  (exists np, Forall (fun x => vlen (ts_pos x) = np) L) -> sel_ok s -> wf_grid g -> geo g = Cart cg -> sized (cc_cells cg) ->
  Forall (fun x => is_finite x = true) (st_time (m_stats M)) -> Forall (fun x => is_finite (nadd (ts_time x) dt) = true) L ->
  exists d' h mean, dispersion bld M d g s dt = Val (d', (h, mean)).
Proof.
  intros [Nt [I0 [I1 [J0 [Su [Get [Getb [Rt _]]]]]]]] Can Ne Ta Rc Np Sk W G Sz Fin Fdt.
  destruct (Su d J0) as [d0 [E0 J1]]. unfold dispersion. rewrite E0. cbn [bind]. rewrite (all_steps_val bld M L Nt Ne). cbn [bind].
  assert (Ok : inside_ok bld (geo g)) by (rewrite G; now apply cart_inside_ok).
  destruct (delay_loop_total bld M s dt L I1 can Get Getb Rt Ta Rc (fun x y m => loop_particles s x (disp_body bld g y) m)
    (mom_body bld g start snd) (fun x y m m' Rx Tv => disp_step bld g s x y m m' Rx Sk Tv) Can
    (mom_shape (geom_cells (geo g))) (fun x y m Rx Ln Sh => disp_step_total bld g s x y m Rx Sk Ln Ok Sh) Np) with (L := L) (k := 0%N) (d := d0) (m := moments_of g) (lo := 0%N) as [[d1 m] E1].
  - intros x Hx. rewrite Forall_forall in Fdt. set (ta := st_time (m_stats M)) in *.
    assert (Lp : (0 < vlen ta)%N) by (rewrite Ta; destruct L; [contradiction | unfold vlen; cbn; lia]).
    destruct (vget_lt ta 0 Lp) as [a Ea]. destruct (vget_lt ta (vlen ta - 1) ltac:(lia)) as [b Eb].
    destruct (c32_search bld ta _ Fin (Fdt x Hx) (List.length ta) a b Ea Eb (Nat.le_refl _)) as [[_ Q] | [_ [t [Q _]]]]; eauto.
  - intros i x Hx. rewrite N.add_0_l. exact Hx.
  - exact J1.
  - now apply moments_of_shape.
  - rewrite N.add_0_l in E1. unfold delay_ts in E1.
    assert (Sh : mom_shape (geom_cells (geo g)) m).
    { assert (Fo0 := delay_loop_sound bld M s dt L I1 can Get Getb Rt Ta Rc (fun x y m => loop_particles s x (disp_body bld g y) m) (mom_body bld g start snd)
      (fun x y m m' Rx Tv => disp_step bld g s x y m m' Rx Sk Tv) L 0 d0 (moments_of g) 0%N (d1, m) ltac:(intros; assumption) J1 E1). destruct Fo0 as [Fo _].
      exact (proj1 (mom_sound bld g start snd _ _ _ (moments_of_shape g W) Fo)). }
    unfold disp_body in E1. rewrite E1. cbn [bind].
    destruct (new_zeros_wf g W) as [W0 G0].
    destruct (disp_cells_total m (ids3 (geom_cells (geo g))) (new_zeros g)) as [h [Eh Wh]];
      [intros c Hc; rewrite G0; now apply in_ids3 | now rewrite G0 | exact W0|].
    rewrite Eh. cbn [bind]. destruct (zip3_ok nmul (weight h) (data h)) as [wd Ew]; [destruct Wh; congruence|].
    rewrite Ew. cbn [bind]. eauto.
Qed.
(** Not independent of earlier contents: accumulators start from the data of the grid. *)
Definition disp_stats : stats f64 := mkStats 4 2 (d 0, d 1, d 2) [d 0; d 1; d 2; d 3] ((d 0, d 0, d 0), (d 1, d 1, d 1)).
Theorem c40_reused_grid_refuted {TF : Trig f64} :
  after (cart_new (1, 1, 1)%N (ThreeD box64)) (fun g =>
  after (dispersion Debug (list_mgr ex_data4 disp_stats) tt g sel_default (d 1)) (fun r1 =>
  after (numberfield Debug (list_mgr ex_data4 disp_stats) tt g sel_default) (fun rn =>
  after (dispersion Debug (list_mgr ex_data4 disp_stats) tt (snd rn) sel_default (d 1)) (fun r2 =>
    ~ same (at3 (data (fst (snd r1))) (0, 0, 0)%N) (at3 (data (fst (snd r2))) (0, 0, 0)%N))))).
Proof. vm_compute. intros H. discriminate H. Qed.
Example c40_case {TF : Trig f64} :
  aux_reads (fun _ _ => True) (list_mgr ex_data4 disp_stats) tt ex_data4 /\ vlen (st_time disp_stats) = vlen ex_data4 /\
  after (cart_new (1, 1, 1)%N (ThreeD box64)) (fun g => fresh g /\
  vlen (moves_in Debug g (0, 0, 0)%N (moves Debug (st_time disp_stats) (d 1) sel_default ex_data4)) = 6%N /\
  after (dispersion Debug (list_mgr ex_data4 disp_stats) tt g sel_default (d 1)) (fun r =>
    same (at3 (data (fst (snd r))) (0, 0, 0)%N) (nlit 4 5) /\ same (snd (snd r)) (nlit 4 5))).
Proof.
  split; [apply list_aux; reflexivity|]. split; [reflexivity|].
  destruct (cart_new (1, 1, 1)%N (ThreeD box64)) as [g|] eqn:E; [|discriminate]. cbn [after].
  split; [exact (new_fresh _ _ true g (or_introl E))|]. injection E as <-. vm_compute. repeat split; reflexivity.
Qed.
