(** * Property C45: mean squared displacement. *)
From Coq Require Import Reals List NArith ZArith Bool Lia Lra String ZifyBool ZifyN ZifyNat.
From Flocq Require Import Core.Core IEEE754.BinarySingleNaN.
From Verif Require Import Base BaseFacts Num F64Facts RFacts NDArray GridModel GridSpec GridFacts CartProofs CartR GridOps
  SelModel DataModel DataSpec DataProofs DataLoad PropertiesGrid PropertiesData FunModel FunSpec FunProofs FunMgr FunField PropertiesFun FunOcc FunMom FunTemp
  FunDisp MixModel FunMix.
Local Open Scope list_scope.

(** ** Specification *)
Section Spec.
  Context {F : Type} {NF : Num F} {TF : Trig F}.
  (** The moves (C40) that start before the last timestep. *)
  Definition moves_before_last bld ta dt (s : selector F) (L : list (timestep F)) : list (sample F * v3 F) :=
    flat_map (fun x => match delayed bld ta dt L x with
                       | Some y => filter (fun mq => chosen s (fst mq)) (combine (samples x) (ts_pos y))
                       | None => []
                       end) (removelast L).
  (** How far a move goes. *)
  Definition travelled (mq : sample F * v3 F) : F :=
    let '(p0, p1, p2) := start mq in let '(q0, q1, q2) := snd mq in
    nsqrt (nadd (nadd (nmul (nsub p0 q0) (nsub p0 q0)) (nmul (nsub p1 q1) (nsub p1 q1))) (nmul (nsub p2 q2) (nsub p2 q2))).
End Spec.

Section Gen.
  Context {F : Type} {NF : Num F} {TF : Trig F}.

  Definition msd_body bld (g : grid F) (h : grid F) (mq : sample F * v3 F) : res (grid F) :=
    if is_inside g (start mq) then add_value bld h (start mq) (travelled mq) else Val h.
  Definition msd_particle bld (g : grid F) (y : timestep F) (h : grid F) (i : N) (p : v3 F) : res (grid F) :=
    if negb (is_inside g p) then Val h else
    let! q := vget (ts_pos y) i in
    add_value bld h p (distance p q).
  Lemma msd_step bld (g : grid F) (s : selector F) (x y : timestep F) h h' : rect x -> sel_ok s ->
    timestep_valid s (ts_time x) = true ->
    loop_particles s x (msd_particle bld g y) h = Val h' ->
    mfold (msd_body bld g) (filter (fun mq => chosen s (fst mq)) (combine (samples x) (ts_pos y))) h = Val h'.
  Proof.
    intros R Sk Tv E. rewrite <- mfold_filter. unfold loop_particles in E. rewrite <- (samples_length x R) in E.
    refine (mfold_zip_val _ (fun _ => true) _ (samples x) (ts_pos y) _ _ h h' E).
    - intros i a c st Ha Hc. destruct (samples_at x i a R Ha) as [Ht [Hp _]]. rewrite (valid_at_spec s x i a R Sk Ha). cbn [bind].
      unfold chosen. cbn [fst]. rewrite Ht, Tv. cbn [andb]. destruct (accepts s a); [|reflexivity].
      rewrite (proj2 (vget_val _ _ _) Hp). cbn [bind]. unfold msd_particle, msd_body, travelled, start. cbn [fst snd].
      rewrite (proj2 (vget_val _ _ _) Hc). cbn [bind]. now destruct (is_inside g (sm_pos a)).
    - intros i a st st' Ha Le Ef. destruct (samples_at x i a R Ha) as [Ht [Hp _]]. rewrite (valid_at_spec s x i a R Sk Ha) in Ef. cbn [bind] in Ef.
      destruct (accepts s a); [|now injection Ef]. rewrite (proj2 (vget_val _ _ _) Hp) in Ef. cbn [bind] in Ef. unfold msd_particle in Ef.
      destruct (negb _); [now injection Ef|]. apply bind_val in Ef. destruct Ef as [q [Hq _]]. apply vget_lt_inv in Hq. lia.
  Qed.
  Lemma msd_step_total bld (g : grid F) (s : selector F) (x y : timestep F) h : rect x -> sel_ok s ->
    vlen (ts_pos y) = vlen (ts_pos x) -> inside_ok bld (geo g) -> (wf_grid h /\ geo h = geo g) ->
    exists h', loop_particles s x (msd_particle bld g y) h = Val h' /\ (wf_grid h' /\ geo h' = geo g).
  Proof.
    intros R Sk Ln Ok Wh. unfold loop_particles.
    assert (G : forall is h, (forall i, In i is -> (i < vlen (ts_pos x))%N) -> (wf_grid h /\ geo h = geo g) ->
      exists h', mfold (fun st i => let! ok := valid_at s x i in if ok then (let! p := vget (ts_pos x) i in msd_particle bld g y st i p) else Val st) is h = Val h'
        /\ (wf_grid h' /\ geo h' = geo g)).
    { induction is as [|i is IH]; intros h1 Hi [W1 G1]; cbn [mfold]; [eauto|].
      assert (Li := Hi i (or_introl eq_refl)). rewrite <- (samples_length x R) in Li. destruct (lt_at _ _ Li) as [a Ha].
      rewrite (valid_at_spec s x i a R Sk Ha). cbn [bind].
      assert (Next : forall j, In j is -> (j < vlen (ts_pos x))%N) by (intros; apply Hi; now right).
      destruct (accepts s a); cbn [bind]; [|now apply IH].
      destruct (samples_at x i a R Ha) as [_ [Hp _]]. rewrite (proj2 (vget_val _ _ _) Hp). cbn [bind]. unfold msd_particle at 1. unfold is_inside.
      destruct (geom_inside (geo g) (sm_pos a)) eqn:In; cbn [negb bind]; [|now apply IH].
      destruct (Ok _ In) as [c [C1 C2]]. destruct (vget_lt (ts_pos y) i) as [q Hq]; [rewrite Ln; apply Hi; now left|]. rewrite Hq. cbn [bind].
      destruct (add_value_in bld h1 (sm_pos a) (distance (sm_pos a) q) c W1) as [h2 [A _]]; [unfold cell_id; now rewrite G1 | now rewrite G1|].
      rewrite A. cbn [bind]. destruct (add_value_wf bld h1 _ _ h2 A W1) as [W2 G2]. apply IH; [exact Next|]. split; [exact W2 | congruence]. }
    apply G; [|exact Wh]. intros i Hi. apply in_range in Hi. lia.
  Qed.

  (** A move as a sample whose velocity is the end point, to use the lemmas about accumulation. *)
  Definition arrow (mq : sample F * v3 F) : sample F :=
    let m := fst mq in mkSample (sm_time m) (sm_pos m) (snd mq) (sm_radius m) (sm_cloud m) (sm_density m) (sm_id m) (sm_type m).
  Lemma mfold_map {S A B} (f : S -> B -> res S) (h : A -> B) l st : mfold f (map h l) st = mfold (fun st a => f st (h a)) l st.
  Proof. revert st; induction l as [|a l IH]; intros st; cbn [mfold map]; [reflexivity|]. destruct (f st (h a)); cbn [bind]; [apply IH | reflexivity]. Qed.
  Lemma msd_sound bld (g : grid F) l h0 h : wf_grid h0 -> geo h0 = geo g -> mfold (msd_body bld g) l h0 = Val h ->
    wf_grid h /\ geo h = geo g /\ forall c, inb3 (geom_cells (geo g)) c = true ->
      at3 (data h) c = fold_left nadd (map travelled (moves_in bld g c l)) (at3 (data h0) c) /\
      at3 (weight h) c = fold_left (fun w _ => nadd w n1) (moves_in bld g c l) (at3 (weight h0) c).
  Proof.
    intros W G E.
    assert (E' : mfold (fun h m => if true && is_inside g (sm_pos m) then add_value bld h (sm_pos m) (distance (sm_pos m) (sm_vel m)) else Val h) (map arrow l) h0 = Val h).
    { rewrite mfold_map. exact E. }
    destruct (accumulate_sound bld g (fun _ => true) _ _ _ _ W G E') as [W1 [G1 H]]. split; [exact W1|]. split; [exact G1|]. intros c Hc.
    destruct (H c Hc) as [A B]. rewrite filter_true in A, B.
    assert (Q : samples_in bld (geo g) c (map arrow l) = map arrow (moves_in bld g c l)).
    { unfold samples_in, moves_in. clear. induction l as [|mq l IH]; [reflexivity|]. cbn [map filter]. change (sm_pos (arrow mq)) with (start mq).
      destruct (in_cell bld (geo g) c (start mq)); cbn [map]; congruence. }
    rewrite Q in A, B. rewrite map_map in A. rewrite fold_left_map in B. split; [exact A | exact B].
  Qed.
  Lemma msd_finish (M : mgr F) (d' : ms M) (g h : grid F) : wf_grid g -> wf_grid h -> geo h = geo g ->
    exists g', (let! q := zip3 (fun x y => if nltb n0 y then ndiv (nmul x x) y else n0) (data h) (weight h) in
      if negb (id3_eqb (sh3 q) (geom_cells (geo g))) then Panic else
      let! g1 := set_data g q in
      let! g2 := set_weights g1 (weight h) in
      Val (d', g2)) = Val (d', g') /\ wf_grid g' /\ geo g' = geo g /\
    forall c, inb3 (geom_cells (geo g)) c = true ->
      at3 (data g') c = (if nltb n0 (at3 (weight h) c) then ndiv (nmul (at3 (data h) c) (at3 (data h) c)) (at3 (weight h) c) else n0) /\
      at3 (weight g') c = at3 (weight h) c.
  Proof.
    intros [Wd Ww] [H1 H2] G. rewrite G in H1, H2. set (f := fun x y => _).
    destruct (zip3_ok f (data h) (weight h)) as [q Eq]; [congruence|]. destruct (zip3_at f (data h) (weight h) q ltac:(congruence) Eq) as [S Hq].
    rewrite Eq. cbn [bind]. rewrite S, H1, id3_eqb_refl. cbn [negb]. unfold set_data, sh_eqb. rewrite Wd, S, H1, id3_eqb_refl. cbn [bind].
    unfold set_weights, sh_eqb, with_data. cbn [weight]. rewrite Ww, H2, id3_eqb_refl. cbn [bind]. eexists. split; [reflexivity|].
    unfold with_weight, wf_grid. cbn [data weight geo]. split; [split; congruence|]. split; [reflexivity|]. intros c Hc. split; [|reflexivity].
    rewrite Hq by congruence. reflexivity.
  Qed.

  Lemma msd_run can bld (M : mgr F) d (L : list (timestep F)) g s dt d' h :
    aux_reads can M d L -> L <> [] -> vlen (st_time (m_stats M)) = vlen L -> Forall rect L -> sel_ok s -> wf_grid g ->
    msd_field bld M d g s dt = Val (d', h) ->
    aux_reads can M d' L /\ wf_grid h /\ geo h = geo g /\
    forall c, inb3 (geom_cells (geo g)) c = true ->
      let l := moves_in bld g c (moves_before_last bld (st_time (m_stats M)) dt s L) in
      let sum := fold_left nadd (map travelled l) n0 in
      let n := fold_left (fun w _ => nadd w n1) l (at3 (weight g) c) in
      at3 (data h) c = (if nltb n0 n then ndiv (nmul sum sum) n else n0) /\ at3 (weight h) c = n.
  Proof.
    intros [Nt [I0 [I1 [J0 [Su [Get [Getb [Rt Back]]]]]]]] Ne Ta Rc Sk W E. destruct (Su d J0) as [d0 [E0 J1]].
    unfold msd_field in E. rewrite E0 in E. cbn [bind] in E. rewrite (steps_but_1 bld M L Nt Ne) in E. cbn [bind] in E.
    apply bind_val in E. destruct E as [[d1 h1] [E1 E]]. destruct (new_zeros_wf g W) as [W0 G0].
    destruct (delay_loop_sound bld M s dt L I1 can Get Getb Rt Ta Rc (fun x y m => loop_particles s x (msd_particle bld g y) m) (msd_body bld g)
      (fun x y m m' Rx Tv => msd_step bld g s x y m m' Rx Sk Tv) (removelast L) 0 d0 (new_zeros g) 0%N (d1, h1)
      ltac:(intros i x Hi; rewrite N.add_0_l; now apply at_removelast) J1 E1) as [Fo [lo J2]].
    change (moves_of bld M s dt L (removelast L)) with (moves_before_last bld (st_time (m_stats M)) dt s L) in Fo. cbn [fst snd] in Fo, J2.
    destruct (msd_sound bld g _ _ _ W0 G0 Fo) as [W1 [G1 H]]. destruct (msd_finish M d1 g h1 W W1 G1) as [g' [Ef [W2 [G2 H2]]]].
    rewrite Ef in E. apply Val_pair in E. destruct E as [<- <-].
    split; [split; [exact Nt|]; exists I0, I1; split; [eapply Back; exact J2|]; auto|].
    split; [exact W2|]. split; [exact G2|]. intros c Hc l sum n. destruct (H c Hc) as [A B], (H2 c Hc) as [C D].
    change (at3 (weight (new_zeros g)) c) with (at3 (weight g) c) in B. change (at3 (data (new_zeros g)) c) with (@n0 F NF) in A.
    fold l in A, B. fold sum in A. fold n in B. rewrite C, D, A, B. auto.
  Qed.
End Gen.

(** ** C45 *)
Section R.
  Context {TF : Trig R}.
  Local Open Scope R_scope.
  (** Ideal arithmetic, a grid without data: the weight of a cell is the number of moves starting
      in it (before the last timestep); its value is the square of the summed distances over that
      number. *)
  Theorem c45_field can bld (M : mgr R) d (L : list (timestep R)) g s dt d' h :
    aux_reads can M d L -> L <> [] -> vlen (st_time (m_stats M)) = vlen L -> Forall rect L -> sel_ok s -> fresh g ->
    msd_field bld M d g s dt = Val (d', h) ->
    aux_reads can M d' L /\ geo h = geo g /\
    forall c, inb3 (geom_cells (geo g)) c = true ->
      let l := moves_in bld g c (moves_before_last bld (st_time (m_stats M)) dt s L) in
      let total := Rsum (map travelled l) in
      at3 (weight h) c = NR (vlen l) /\ (l = [] -> at3 (data h) c = 0) /\ (l <> [] -> at3 (data h) c = total * total / NR (vlen l)).
  Proof.
    intros Aux Ne Ta Rc Sk [W Fr] E. destruct (msd_run can bld M d L g s dt d' h Aux Ne Ta Rc Sk W E) as [A [_ [G H]]].
    split; [exact A|]. split; [exact G|]. intros c Hc l total. destruct (H c Hc) as [D Wt]. fold l in D, Wt. rewrite (proj2 (Fr c)), count_R in Wt, D.
    change (@nadd R num_R) with Rplus in D. rewrite fold_left_Rplus in D. change (@n0 R num_R) with 0 in *. rewrite Rplus_0_l in *. rewrite Rplus_0_l in D. fold total in D.
    split; [exact Wt|]. split; intros Hl.
    - subst l. rewrite Hl in D. rewrite (proj2 (Rltb_false _ _)) in D by (unfold NR, vlen; cbn; lra). exact D.
    - rewrite (proj2 (Rltb_true _ _)) in D; [exact D|]. unfold NR. apply (IZR_lt 0). destruct l; [contradiction|]. unfold vlen. cbn [List.length]. lia.
  Qed.
  (** Against the mean of the squares: never more than n times as much, the number of samples; exactly n times
      as much when all moves are equally long. *)
  Theorem c45_bound (ds : list R) : ds <> [] ->
    Rsum ds * Rsum ds / NR (vlen ds) <= NR (vlen ds) * Rmean (map (fun x => x * x) ds) /\
    forall x, (forall y, In y ds -> y = x) -> Rsum ds * Rsum ds / NR (vlen ds) = NR (vlen ds) * Rmean (map (fun x => x * x) ds).
  Proof.
    intros Ne. assert (Hn : NR (vlen ds) = INR (List.length ds)) by (unfold NR, vlen; now rewrite nat_N_Z, <- INR_IZR_INZ).
    assert (P : 0 < INR (List.length ds)) by now apply len_pos.
    unfold Rmean. rewrite map_length, Hn. split.
    - assert (C := cauchy_schwarz ds). apply Rmult_le_reg_r with (INR (List.length ds)); [exact P|].
      replace (Rsum ds * Rsum ds / INR (List.length ds) * INR (List.length ds)) with (Rsum ds * Rsum ds) by (field; lra).
      replace (INR (List.length ds) * (Rsum (map (fun x => x * x) ds) / INR (List.length ds)) * INR (List.length ds)) with (INR (List.length ds) * Rsum (map (fun x => x * x) ds)) by (field; lra).
      exact C.
    - intros x H. assert (E1 : Rsum ds = INR (List.length ds) * x).
      { rewrite <- (map_id ds) at 1. rewrite <- (Rsum_const x ds). apply Rsum_ext. auto. }
      assert (E2 : Rsum (map (fun x => x * x) ds) = INR (List.length ds) * (x * x)).
      { rewrite <- (Rsum_const (x * x) ds). apply Rsum_ext. intros y Hy. now rewrite (H y Hy). }
      rewrite E1, E2. field. lra.
  Qed.
  Lemma square_of_sum (ds : list R) : (forall x, In x ds -> 0 <= x) -> 0 <= Rsum ds /\
    (Rsum ds = 0 <-> forall x, In x ds -> x = 0) /\
    Rsum (map (fun x => x * x) ds) <= Rsum ds * Rsum ds /\
    (Rsum ds * Rsum ds = Rsum (map (fun x => x * x) ds) <->
     forall i j x y, nth_error ds i = Some x -> nth_error ds j = Some y -> (i < j)%nat -> x = 0 \/ y = 0).
  Proof.
    induction ds as [|d ds IH]; intros H.
    { cbn. rewrite Rsum_nil. split; [lra|]. split; [split; [intros _ x [] | reflexivity]|]. split; [lra|]. split; [intros _ i j x y E; destruct i; discriminate | intros _; lra]. }
    destruct (IH (fun x I => H x (or_intror I))) as [P [Z [L Q]]]. assert (D : 0 <= d) by (apply H; now left).
    cbn [map]. rewrite !Rsum_cons. assert (0 <= d * Rsum ds) by (apply Rmult_le_pos; assumption).
    split; [lra|]. split; [|split; [lra|]].
    - split.
      + intros E x [<-|I]; [lra|]. apply Z; [lra | exact I].
      + intros A. rewrite (A d (or_introl eq_refl)), (proj2 Z); [lra | intros x I; apply A; now right].
    - split.
      + intros E i j x y Ei Ej K. assert (M : d * Rsum ds = 0) by lra. assert (E' : Rsum ds * Rsum ds = Rsum (map (fun x => x * x) ds)) by lra.
        destruct j as [|j]; [lia|]. cbn [nth_error] in Ej. destruct i as [|i].
        * cbn in Ei. injection Ei as <-. apply Rmult_integral in M. destruct M as [->|S0]; [now left|]. right. apply (proj1 Z S0). now apply nth_error_In in Ej.
        * cbn [nth_error] in Ei. apply (proj1 Q E' i j x y Ei Ej). lia.
      + intros A. assert (E' : Rsum ds * Rsum ds = Rsum (map (fun x => x * x) ds)).
        { apply Q. intros i j x y Ei Ej K. apply (A (S i) (S j) x y Ei Ej). lia. }
        assert (M : d * Rsum ds = 0).
        { destruct (Req_dec d 0) as [->|Nd]; [lra|]. replace (Rsum ds) with 0; [lra|]. symmetry. apply Z. intros x I.
          destruct (In_nth_error _ _ I) as [n En]. destruct (A 0%nat (S n) d x eq_refl En ltac:(lia)) as [F|F]; [contradiction | exact F]. }
        lra.
  Qed.
  Lemma travelled_nonneg (mq : sample R * v3 R) : 0 <= travelled mq.
  Proof. unfold travelled. destruct (start mq) as [[p0 p1] p2], (snd mq) as [[q0 q1] q2]. apply sqrt_pos. Qed.
  (** [msd_field] is the mean of the squared displacements exactly in those cells in which at most one
      of the moves has a length at all; otherwise it is more. *)
  Theorem c83_msd_iff can bld (M : mgr R) d (L : list (timestep R)) g s dt d' h :
    aux_reads can M d L -> L <> [] -> vlen (st_time (m_stats M)) = vlen L -> Forall rect L -> sel_ok s -> fresh g ->
    msd_field bld M d g s dt = Val (d', h) ->
    forall c, inb3 (geom_cells (geo g)) c = true ->
      let l := moves_in bld g c (moves_before_last bld (st_time (m_stats M)) dt s L) in l <> [] ->
      Rmean (map (fun m => travelled m * travelled m) l) <= at3 (data h) c /\
      (at3 (data h) c = Rmean (map (fun m => travelled m * travelled m) l) <->
       forall i j m m', nth_error l i = Some m -> nth_error l j = Some m' -> (i < j)%nat -> travelled m = 0 \/ travelled m' = 0).
  Proof.
    intros Aux Ne Ta Rc Sk Fr E c Hc l Nl. destruct (c45_field can bld M d L g s dt d' h Aux Ne Ta Rc Sk Fr E) as [_ [_ H]].
    destruct (H c Hc) as [_ [_ D]]. fold l in D. specialize (D Nl). cbv zeta in D. rewrite D. clear D H.
    clearbody l. clear - Nl.
    destruct (square_of_sum (map travelled l)) as [_ [_ [Le Q]]].
    { intros x I. apply in_map_iff in I. destruct I as [m [<- _]]. apply travelled_nonneg. }
    rewrite map_map in Le, Q. unfold Rmean. rewrite map_length.
    assert (Hn : NR (vlen l) = INR (List.length l)) by (unfold NR, vlen; now rewrite nat_N_Z, <- INR_IZR_INZ). rewrite Hn.
    assert (P : 0 < INR (List.length l)) by now apply len_pos.
    assert (Pi : 0 < / INR (List.length l)) by now apply Rinv_0_lt_compat.
    split; [apply Rmult_le_compat_r; [lra | exact Le]|]. split.
    - intros E i j m m' Ei Ej K. apply (Rmult_eq_reg_r (/ INR (List.length l))) in E; [|lra].
      apply (proj1 Q E i j (travelled m) (travelled m')); [now apply map_nth_error | now apply map_nth_error | exact K].
    - intros A. f_equal. apply Q. intros i j x y Ei Ej K. rewrite nth_error_map in Ei, Ej.
      destruct (nth_error l i) as [m|] eqn:Em; [|discriminate]. destruct (nth_error l j) as [m'|] eqn:Em'; [|discriminate]. cbn in Ei, Ej. injection Ei as <-. injection Ej as <-. exact (A i j m m' Em Em' K).
  Qed.
  (** [msd]: [steps] delays evenly spaced between the limits, and for each the mean of the cells of [msd_field] by weight. *)
  Theorem c45_msd can bld (M : mgr R) d (L : list (timestep R)) g s tmin tmax steps d' ms time :
    aux_reads can M d L -> L <> [] -> vlen (st_time (m_stats M)) = vlen L -> Forall rect L -> sel_ok s -> fresh g ->
    msd bld M d g s tmin tmax steps = Val (d', (ms, time)) ->
    vlen ms = steps /\ vlen time = steps /\
    forall i, (i < steps)%N -> exists t v, at_ time i t /\ at_ ms i v /\
      ((1 < steps)%N -> t = tmin + NR i * ((tmax - tmin) / (NR steps - 1))) /\
      let cells := ids3 (geom_cells (geo g)) in
      let far c := Rsum (map travelled (moves_in bld g c (moves_before_last bld (st_time (m_stats M)) t s L))) in
      let n c := NR (vlen (moves_in bld g c (moves_before_last bld (st_time (m_stats M)) t s L))) in
      v = Rsum (map (fun c => far c * far c) cells) / Rsum (map n cells).
  Proof.
    intros Aux Ne Ta Rc Sk Fr E. unfold msd in E. apply bind_val in E. destruct E as [[d1 vs] [E1 E]].
    cbn [fst snd] in E. apply Val_pair in E. destruct E as [_ E]. apply pair_equal_spec in E. destruct E as [<- <-].
    set (val := fun t => let cells := ids3 (geom_cells (geo g)) in
      let far c := Rsum (map travelled (moves_in bld g c (moves_before_last bld (st_time (m_stats M)) t s L))) in
      let n c := NR (vlen (moves_in bld g c (moves_before_last bld (st_time (m_stats M)) t s L))) in
      Rsum (map (fun c => far c * far c) cells) / Rsum (map n cells)).
    assert (Fo : forall ts d0 acc r, aux_reads can M d0 L ->
      mfold (fun st t => let! r := msd_field bld M (fst st) g s t in Val (fst r, snd st ++ [weighted_mean (snd r)])) ts (d0, acc) = Val r ->
      snd r = acc ++ map val ts).
    { induction ts as [|t ts IH]; intros d0 acc r A0 Q; cbn [mfold map] in *; [injection Q as <-; now rewrite app_nil_r|].
      apply bind_val in Q. destruct Q as [st [Q1 Q]]. cbn [fst snd] in Q1. apply bind_val in Q1. destruct Q1 as [[d2 h] [Q1 Q2]].
      destruct (c45_field can bld M d0 L g s t d2 h A0 Ne Ta Rc Sk Fr Q1) as [A2 [G2 H2]]. cbn [fst snd] in Q2.
      assert (Ev : weighted_mean h = val t).
      { unfold weighted_mean, val. rewrite G2. set (cells := ids3 (geom_cells (geo g))). change (@nadd R num_R) with Rplus. change (@n0 R num_R) with 0.
        rewrite <- (fold_left_map Rplus (fun c => nmul (at3 (data h) c) (at3 (weight h) c)) cells 0), <- (fold_left_map Rplus (fun c => at3 (weight h) c) cells 0).
        rewrite !fold_left_Rplus, !Rplus_0_l. cbn [ndiv nmul num_R]. cbv zeta. apply (f_equal2 Rdiv); apply Rsum_ext; intros c Hc; apply in_ids3 in Hc; destruct (H2 c Hc) as [B1 [B2 B3]].
        - rewrite B1. set (l := moves_in bld g c _) in *. destruct l as [|x l].
          + rewrite (B2 eq_refl). cbn [map]. rewrite Rsum_nil. unfold NR, vlen. cbn. lra.
          + rewrite (B3 ltac:(discriminate)). field. unfold NR, vlen. cbn [List.length]. apply not_0_IZR. lia.
        - exact B1. }
      assert (St : st = (d2, acc ++ [val t])) by (rewrite <- Ev; congruence). subst st.
      rewrite (IH _ _ _ A2 Q). now rewrite <- app_assoc. }
    specialize (Fo _ _ _ _ Aux E1). cbn [snd app] in Fo. subst vs. unfold linspace.
    set (f := fun i => nadd tmin (nmul (if (1 <? steps)%N then ndiv (nsub tmax tmin) (nofN (steps - 1)) else n0) (nofN i))).
    assert (Lr : vlen (range 0 steps) = steps) by (unfold vlen, range; rewrite map_length, seq_length; lia).
    assert (Lt : vlen (map f (range 0 steps)) = steps) by (unfold vlen; rewrite map_length; exact Lr).
    split; [unfold vlen; rewrite map_length; exact Lt|]. split; [exact Lt|]. intros i Hi.
    assert (Ri : at_ (range 0 steps) i i). { unfold at_, range. rewrite nth_error_map.
      rewrite (nth_error_nth' (seq 0 (N.to_nat (steps - 0))) 0%nat) by (rewrite seq_length; lia). rewrite seq_nth by lia. cbn [option_map]. f_equal. lia. }
    exists (f i), (val (f i)). assert (At : at_ (map f (range 0 steps)) i (f i)) by (unfold at_ in *; rewrite nth_error_map, Ri; reflexivity).
    split; [exact At|]. split; [unfold at_ in *; rewrite nth_error_map, At; reflexivity|]. split; [|reflexivity].
    intros H1. unfold f. destruct (N.ltb_spec 1 steps); [|lia]. cbn [nadd nmul ndiv nsub num_R]. unfold nofN. cbn [nof num_R]. fold (NR (steps - 1)). fold (NR i).
    assert (Q : NR (steps - 1) = NR steps - 1). { unfold NR. rewrite N2Z.inj_sub by lia. rewrite minus_IZR. reflexivity. }
    rewrite Q. lra.
  Qed.
End R.
(** Doubles, Cartesian grids: the call returns under the conditions of C40. *)
Theorem c45_returns {TF : Trig f64} can (bld : build) (M : mgr f64) d (L : list (timestep f64)) (g : grid f64) cg s dt :
  aux_reads can M d L -> (forall lo t, can lo t) -> L <> [] -> vlen (st_time (m_stats M)) = vlen L -> Forall rect L ->
  (exists np, Forall (fun x => vlen (ts_pos x) = np) L) -> sel_ok s -> wf_grid g -> geo g = Cart cg -> sized (cc_cells cg) ->
  Forall (fun x => is_finite x = true) (st_time (m_stats M)) -> Forall (fun x => is_finite (nadd (ts_time x) dt) = true) L ->
  exists d' h, msd_field bld M d g s dt = Val (d', h).
Proof.
  intros [Nt [I0 [I1 [J0 [Su [Get [Getb [Rt _]]]]]]]] Can Ne Ta Rc Np Sk W G Sz Fin Fdt.
  destruct (Su d J0) as [d0 [E0 J1]]. unfold msd_field. rewrite E0. cbn [bind]. rewrite (steps_but_1 bld M L Nt Ne). cbn [bind].
  assert (Ok : inside_ok bld (geo g)) by (rewrite G; now apply cart_inside_ok). destruct (new_zeros_wf g W) as [W0 G0].
  destruct (delay_loop_total bld M s dt L I1 can Get Getb Rt Ta Rc (fun x y m => loop_particles s x (msd_particle bld g y) m)
    (msd_body bld g) (fun x y m m' Rx Tv => msd_step bld g s x y m m' Rx Sk Tv) Can
    (fun h => wf_grid h /\ geo h = geo g) (fun x y m Rx Ln Sh => msd_step_total bld g s x y m Rx Sk Ln Ok Sh) Np) with (L := removelast L) (k := 0%N) (d := d0) (m := new_zeros g) (lo := 0%N) as [[d1 h] E1].
  - intros x Hx. rewrite Forall_forall in Fdt. set (ta := st_time (m_stats M)) in *.
    assert (Lp : (0 < vlen ta)%N) by (rewrite Ta; destruct L; [contradiction | unfold vlen; cbn; lia]).
    destruct (vget_lt ta 0 Lp) as [a Ea]. destruct (vget_lt ta (vlen ta - 1) ltac:(lia)) as [b Eb].
    destruct (c32_search bld ta _ Fin (Fdt x Hx) (List.length ta) a b Ea Eb (Nat.le_refl _)) as [[_ Q] | [_ [t [Q _]]]]; eauto.
  - intros i x Hx. rewrite N.add_0_l. now apply at_removelast.
  - exact J1.
  - auto.
  - rewrite N.add_0_l in E1. unfold delay_ts in E1.
    destruct (delay_loop_sound bld M s dt L I1 can Get Getb Rt Ta Rc (fun x y m => loop_particles s x (msd_particle bld g y) m) (msd_body bld g)
      (fun x y m m' Rx Tv => msd_step bld g s x y m m' Rx Sk Tv) (removelast L) 0 d0 (new_zeros g) 0%N (d1, h)
      ltac:(intros i x Hi; rewrite N.add_0_l; now apply at_removelast) J1 E1) as [Fo _].
    destruct (msd_sound bld g _ _ _ W0 G0 Fo) as [W1 [G1 _]]. destruct (msd_finish M d1 g h W W1 G1) as [g' [Ef _]].
    unfold msd_particle in E1. rewrite E1. cbn [bind]. exists d1, g'. exact Ef.
Qed.
(** False of the code: two moves over a distance of 1 give 2, not 1. *)
Definition msd_data : list (timestep f64) :=
  let x t a := mkTs (d t) [(d a, d 0, d 0)] [(d 0, d 0, d 0)] [d 1] [d 1] [d 0] [d 1] [d 1] in
  [x 0 0; x 1 1; x 2 2]%Z.
Definition msd_stats : stats f64 := mkStats 3 1 (d 0, d 1, d 2) [d 0; d 1; d 2] ((d 0, d 0, d 0), (d 1, d 1, d 1)).
Theorem c45_mean_of_squares_refuted {TF : Trig f64} :
  after (cart_new (1, 1, 1)%N (ThreeD ((d 0, d 2), (d 0, d 2), (d 0, d 2)))) (fun g =>
  let l := moves_in Debug g (0, 0, 0)%N (moves Debug (st_time msd_stats) (d 1) sel_default msd_data) in
  map B2SF (map travelled l) = map B2SF [d 1; d 1] /\
  after (msd_field Debug (list_mgr msd_data msd_stats) tt g sel_default (d 1)) (fun r => same (at3 (data (snd r)) (0, 0, 0)%N) (d 2))).
Proof. vm_compute. split; reflexivity. Qed.
Example c45_case {TF : Trig f64} : aux_reads (fun _ _ => True) (list_mgr msd_data msd_stats) tt msd_data /\ vlen (st_time msd_stats) = vlen msd_data /\
  after (cart_new (1, 1, 1)%N (ThreeD box64)) fresh /\ Forall rect msd_data /\
  (exists np, Forall (fun x => vlen (ts_pos x) = np) msd_data) /\
  Forall (fun x => is_finite x = true) (st_time msd_stats) /\ Forall (fun x => is_finite (nadd (ts_time x) (d 1)) = true) msd_data.
Proof.
  split; [apply list_aux; reflexivity|]. split; [reflexivity|].
  split; [destruct (cart_new (1, 1, 1)%N (ThreeD box64)) as [g|] eqn:E; [exact (new_fresh _ _ true g (or_introl E)) | discriminate]|].
  split; [repeat constructor|]. split; [exists 1%N; repeat constructor|]. split; repeat constructor.
Qed.
