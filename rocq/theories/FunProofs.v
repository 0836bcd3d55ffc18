(** * FunProofs: the loops of the analysis functions. *)
From Coq Require Import NArith List Bool Lia ZifyBool ZifyN ZifyNat.
From Verif Require Import Base BaseFacts Num NDArray GridModel GridSpec GridFacts CartProofs SelModel DataModel DataSpec FunModel FunSpec.

(** ** Loops over indices are loops over elements *)
Lemma mfold_index_from {S A} (f : S -> N -> res S) (g : S -> A -> res S) (l : list A) : forall (k : N) st,
  (forall i a st, at_ l i a -> f st (k + i)%N = g st a) ->
  mfold f (range k (k + vlen l)) st = mfold g l st.
Proof.
  induction l as [|a l IH]; intros k st H.
  - unfold vlen. cbn [length]. rewrite range_empty by lia. reflexivity.
  - rewrite range_cons by (unfold vlen; cbn [length]; lia). cbn [mfold].
    rewrite <- (H 0%N a st eq_refl). rewrite N.add_0_r. destruct (f st k) as [st'|]; [|reflexivity]. cbn [bind].
    replace (k + vlen (a :: l))%N with (k + 1 + vlen l)%N by (unfold vlen; cbn [length]; lia).
    apply IH. intros i b st1 Hi. replace (k + 1 + i)%N with (k + (i + 1))%N by lia. apply H.
    unfold at_ in *. replace (N.to_nat (i + 1)) with (Datatypes.S (N.to_nat i)) by lia. exact Hi.
Qed.
Lemma mfold_index {S A} (f : S -> N -> res S) (g : S -> A -> res S) (l : list A) st :
  (forall i a st, at_ l i a -> f st i = g st a) -> mfold f (range 0 (vlen l)) st = mfold g l st.
Proof. intros H. change (vlen l) with (0 + vlen l)%N. apply mfold_index_from. intros. now apply H. Qed.

Lemma mfold_filter {S A} (f : S -> A -> res S) (p : A -> bool) l st :
  mfold (fun st a => if p a then f st a else Val st) l st = mfold f (filter p l) st.
Proof.
  revert st; induction l as [|a l IH]; intros st; cbn [mfold filter]; [reflexivity|].
  destruct (p a); cbn [mfold bind]; [|apply IH]. destruct (f st a) as [s'|]; cbn [bind]; [apply IH | reflexivity].
Qed.
Lemma mfold_flat_map {S A B} (f : S -> B -> res S) (g : A -> list B) l st :
  mfold (fun st a => mfold f (g a) st) l st = mfold f (flat_map g l) st.
Proof.
  revert st; induction l as [|a l IH]; intros st; cbn [mfold flat_map]; [reflexivity|].
  rewrite mfold_app. destruct (mfold f (g a) st) as [s'|]; cbn [bind]; [apply IH | reflexivity].
Qed.
Lemma filter_flat_map {A B} (p : B -> bool) (g : A -> list B) l :
  filter p (flat_map g l) = flat_map (fun a => filter p (g a)) l.
Proof. induction l as [|a l IH]; cbn; [reflexivity|]. now rewrite filter_app, IH. Qed.
Lemma filter_filter {A} (p q : A -> bool) l : filter p (filter q l) = filter (fun x => q x && p x) l.
Proof. induction l as [|a l IH]; cbn; [reflexivity|]. destruct (q a); cbn; [destruct (p a); cbn; congruence | exact IH]. Qed.
Lemma filter_none {A} (p : A -> bool) l : (forall x, In x l -> p x = false) -> filter p l = [].
Proof. induction l as [|a l IH]; intros H; cbn; [reflexivity|]. rewrite (H a (or_introl eq_refl)). apply IH. intros; apply H; now right. Qed.

Section Loops.
  Context {F : Type} {NF : Num F} {TF : Trig F}.

  (** ** Samples *)
  Lemma rows_nth (t : F) : forall (ps vs : list (v3 F)) (rs cs ds is ys : list F) k,
    length vs = length ps -> length rs = length ps -> length cs = length ps -> length ds = length ps ->
    length is = length ps -> length ys = length ps ->
    match nth_error (rows t ps vs rs cs ds is ys) k return Prop with
    | Some m => sm_time m = t /\ nth_error ps k = Some (sm_pos m) /\ nth_error vs k = Some (sm_vel m) /\
        nth_error rs k = Some (sm_radius m) /\ nth_error cs k = Some (sm_cloud m) /\
        nth_error ds k = Some (sm_density m) /\ nth_error is k = Some (sm_id m) /\ nth_error ys k = Some (sm_type m)
    | None => nth_error ps k = None
    end /\ length (rows t ps vs rs cs ds is ys) = length ps.
  Proof.
    induction ps as [|p ps IH]; intros [|v vs] [|r rs] [|c cs] [|e ds] [|i is] [|y ys] k;
      cbn [length]; intros; try discriminate.
    - cbn. split; [now destruct k | reflexivity].
    - cbn [rows]. injection H as H. injection H0 as H0. injection H1 as H1. injection H2 as H2. injection H3 as H3. injection H4 as H4.
      destruct k as [|k]; cbn [nth_error length].
      + split; [cbn; repeat split; reflexivity|]. f_equal. exact (proj2 (IH vs rs cs ds is ys 0%nat H H0 H1 H2 H3 H4)).
      + destruct (IH vs rs cs ds is ys k H H0 H1 H2 H3 H4) as [A B]. split; [exact A | now rewrite B].
  Qed.
  Lemma samples_at (x : timestep F) i m : rect x -> at_ (samples x) i m ->
    sm_time m = ts_time x /\ at_ (ts_pos x) i (sm_pos m) /\ at_ (ts_vel x) i (sm_vel m) /\
    at_ (ts_radius x) i (sm_radius m) /\ at_ (ts_clouds x) i (sm_cloud m) /\ at_ (ts_density x) i (sm_density m) /\
    at_ (ts_id x) i (sm_id m) /\ at_ (ts_type x) i (sm_type m).
  Proof.
    intros [R1 [R2 [R3 [R4 [R5 R6]]]]] H.
    destruct (rows_nth (ts_time x) (ts_pos x) (ts_vel x) (ts_radius x) (ts_clouds x) (ts_density x) (ts_id x) (ts_type x) (N.to_nat i) R1 R2 R3 R4 R5 R6) as [A _].
    unfold at_ in H. unfold samples in H. rewrite H in A. exact A.
  Qed.
  Lemma samples_length (x : timestep F) : rect x -> vlen (samples x) = vlen (ts_pos x).
  Proof.
    intros [R1 [R2 [R3 [R4 [R5 R6]]]]].
    destruct (rows_nth (ts_time x) (ts_pos x) (ts_vel x) (ts_radius x) (ts_clouds x) (ts_density x) (ts_id x) (ts_type x) 0 R1 R2 R3 R4 R5 R6) as [_ A].
    unfold vlen, samples. now rewrite A.
  Qed.
  Lemma samples_time (x : timestep F) m : rect x -> In m (samples x) -> sm_time m = ts_time x.
  Proof.
    intros R H. apply In_nth_error in H. destruct H as [k H].
    apply (samples_at x (N.of_nat k) m R). unfold at_. now rewrite Nnat.Nat2N.id.
  Qed.

  Lemma vget_0 {A} (f : A) r : vget (f :: r) 0 = Val f. Proof. reflexivity. Qed.
  Lemma vget_1 {A} (f u : A) r : vget (f :: u :: r) 1 = Val u. Proof. reflexivity. Qed.
  Ltac tot := repeat match goal with
    | |- exists b, Val _ = Val b => eexists; reflexivity
    | |- context [if ?b then _ else _] => destruct b eqn:?
    | |- _ => rewrite vget_1; cbn [bind]
    end.
  Lemma is_valid_total (s : selector F) r c e i : sel_ok s -> exists b, is_valid s r c e i = Val b.
  Proof.
    intros [Hr [Hc [He Hi]]].
    assert (A : exists b, is_radius_valid s r = Val b).
    { unfold is_radius_valid. destruct (s_radius s) as [|r0 [|r1 rr]]; [contradiction| |]; rewrite vget_0; cbn [bind]; tot.
      discriminate. }
    assert (B : exists b, is_cloud_valid s c = Val b).
    { unfold is_cloud_valid. destruct (s_clouds s) as [|r0 [|r1 rr]]; [contradiction| |]; rewrite vget_0; cbn [bind]; tot.
      discriminate. }
    assert (C : exists b, is_density_valid s e = Val b).
    { unfold is_density_valid. destruct (s_radius s) as [|q0 [|q1 qq]]; [contradiction| |];
      (destruct (s_density s) as [|r0 [|r1 rr]]; [contradiction| |]); rewrite vget_0; cbn [bind]; tot; discriminate. }
    assert (D : exists b, is_particleid_valid s i = Val b).
    { unfold is_particleid_valid. destruct (s_ids s) as [|r0 [|r1 rr]]; [contradiction| |]; rewrite vget_0; cbn [bind]; tot.
      discriminate. }
    unfold is_valid. destruct A as [[] ->], B as [[] ->], C as [[] ->], D as [b ->]; cbn [bind negb]; eauto.
  Qed.

  Lemma valid_at_spec (s : selector F) (x : timestep F) i m : rect x -> sel_ok s -> at_ (samples x) i m ->
    valid_at s x i = Val (accepts s m).
  Proof.
    intros R S H. destruct (samples_at x i m R H) as [_ [_ [_ [Hr [Hc [He [Hi _]]]]]]].
    unfold valid_at. rewrite (proj2 (vget_val _ _ _) Hr), (proj2 (vget_val _ _ _) Hc), (proj2 (vget_val _ _ _) He), (proj2 (vget_val _ _ _) Hi).
    cbn [bind]. unfold accepts. destruct (is_valid_total s (sm_radius m) (sm_cloud m) (sm_density m) (nusize (sm_id m)) S) as [b ->].
    reflexivity.
  Qed.

  Lemma loop_particles_spec {S} (s : selector F) (x : timestep F) (body : S -> N -> v3 F -> res S)
    (body' : S -> sample F -> res S) st : rect x -> sel_ok s ->
    (forall st i m, at_ (samples x) i m -> body st i (sm_pos m) = body' st m) ->
    loop_particles s x body st = mfold body' (filter (accepts s) (samples x)) st.
  Proof.
    intros R Sk H. unfold loop_particles. rewrite <- (samples_length x R). rewrite <- mfold_filter.
    apply mfold_index. intros i m st' Hm. rewrite (valid_at_spec s x i m R Sk Hm). cbn [bind].
    destruct (accepts s m); [|reflexivity].
    destruct (samples_at x i m R Hm) as [_ [Hp _]]. rewrite (proj2 (vget_val _ _ _) Hp). cbn [bind]. now apply H.
  Qed.

  (** ** The time loop *)
  Lemma at_app1 {A} (l l' : list A) i x : at_ l i x -> at_ (l ++ l') i x.
  Proof. unfold at_. intros H. rewrite nth_error_app1; [exact H|]. apply nth_error_Some. congruence. Qed.

  Lemma loop_pure_run {S} (M : mgr F) (s : selector F) (body : S -> timestep F -> res S) (Inv : ms M -> Prop) L0 :
    (forall d t x, Inv d -> at_ L0 t x -> exists d', m_get M d t = Val (d', x) /\ Inv d') ->
    forall L k d st, (forall i x, at_ L i x -> at_ L0 (k + i)%N x) -> Inv d ->
    match mfold (fun st x => if timestep_valid s (ts_time x) then body st x else Val st) L st with
    | Val r => exists d', loop_pure M s body (range k (k + vlen L)) (d, st) = Val (d', r) /\ Inv d'
    | Panic => loop_pure M s body (range k (k + vlen L)) (d, st) = Panic
    end.
  Proof.
    intros Get. induction L as [|x L IH]; intros k d st Sub I.
    - cbn [mfold]. unfold vlen. cbn [length]. rewrite range_empty by lia. exists d. split; [reflexivity | exact I].
    - rewrite range_cons by (unfold vlen; cbn [length]; lia).
      replace (k + vlen (x :: L))%N with (k + 1 + vlen L)%N by (unfold vlen; cbn [length]; lia).
      assert (Hx : at_ L0 k x). { specialize (Sub 0%N x eq_refl). now rewrite N.add_0_r in Sub. }
      destruct (Get d k x I Hx) as [d1 [G I1]].
      assert (Sub' : forall i y, at_ L i y -> at_ L0 (k + 1 + i)%N y).
      { intros i y Hi. replace (k + 1 + i)%N with (k + (i + 1))%N by lia. apply Sub. unfold at_.
        replace (N.to_nat (i + 1)) with (Datatypes.S (N.to_nat i)) by lia. exact Hi. }
      cbn [mfold]. unfold loop_pure, loop_ts in *. cbn [mfold fst snd]. rewrite G. cbn [bind].
      destruct (timestep_valid s (ts_time x)).
      + destruct (body st x) as [st1|]; cbn [bind fst snd]; [|reflexivity]. apply IH; assumption.
      + cbn [bind]. apply IH; assumption.
  Qed.

  Lemma all_steps_val bld (M : mgr F) (L : list (timestep F)) : st_timesteps (m_stats M) = vlen L -> L <> [] -> all_steps bld M = Val (range 0 (vlen L)).
  Proof.
    intros E H. unfold all_steps. rewrite E. destruct L; [contradiction|]. rewrite usub_ge by (unfold vlen; cbn; lia).
    cbn [bind]. do 2 f_equal. unfold vlen; cbn [length]; lia.
  Qed.

  (** A whole run: the loops visit exactly the observed samples, in order. *)
  Lemma observed_fold {S} (s : selector F) (f : S -> sample F -> res S) L st : Forall rect L ->
    mfold (fun st x => if timestep_valid s (ts_time x) then mfold f (filter (accepts s) (samples x)) st else Val st) L st =
    mfold f (observed s L) st.
  Proof.
    intros R. unfold observed. rewrite filter_flat_map, <- mfold_flat_map. apply mfold_ext. intros st' x Hx.
    rewrite Forall_forall in R. specialize (R x Hx).
    destruct (timestep_valid s (ts_time x)) eqn:V.
    - f_equal. apply filter_ext_in. intros m Hm. unfold chosen. now rewrite (samples_time x m R Hm), V.
    - rewrite (filter_none (chosen s)); [reflexivity|]. intros m Hm. unfold chosen. now rewrite (samples_time x m R Hm), V.
  Qed.

  Lemma loop_observed {S} bld (M : mgr F) (s : selector F) (body : timestep F -> S -> N -> v3 F -> res S)
    (f : S -> sample F -> res S) L d st :
    reads_as M d L -> L <> [] -> Forall rect L -> sel_ok s ->
    (forall x st i m, In x L -> at_ (samples x) i m -> body x st i (sm_pos m) = f st m) ->
    match mfold f (observed s L) st with
    | Val r => exists d', (let! l := all_steps bld M in
                 loop_pure M s (fun st x => loop_particles s x (body x) st) l (d, st)) = Val (d', r) /\ reads_as M d' L
    | Panic => (let! l := all_steps bld M in
                 loop_pure M s (fun st x => loop_particles s x (body x) st) l (d, st)) = Panic
    end.
  Proof.
    intros [Nt [Inv [I Get]]] Ne R Sk H. rewrite (all_steps_val bld M L Nt Ne). cbn [bind].
    assert (Q := loop_pure_run M s (fun st x => loop_particles s x (body x) st) Inv L Get L 0 d st ltac:(intros; assumption) I).
    change (0 + vlen L)%N with (vlen L) in Q. rewrite <- (observed_fold s f L st R).
    replace (mfold (fun st x => if timestep_valid s (ts_time x) then mfold f (filter (accepts s) (samples x)) st else Val st) L st)
      with (mfold (fun st x => if timestep_valid s (ts_time x) then loop_particles s x (body x) st else Val st) L st).
    - destruct (mfold _ L st) as [r|]; [|exact Q]. destruct Q as [d' [Q I']]. exists d'. split; [exact Q|].
      split; [exact Nt|]. exists Inv. auto.
    - apply mfold_ext. intros st' x Hx. destruct (timestep_valid s (ts_time x)); [|reflexivity].
      rewrite Forall_forall in R. apply loop_particles_spec; auto.
  Qed.

  (** ** Accumulating in a grid *)
  Lemma fold_left_snoc {A B} (f : A -> B -> A) l b a : fold_left f (l ++ [b]) a = f (fold_left f l a) b.
  Proof. now rewrite fold_left_app. Qed.

  Definition acc_ok bld (ge : geom F) (keep : sample F -> bool) (val : sample F -> F) (l : list (sample F)) (g0 g' : grid F) : Prop :=
    wf_grid g' /\ geo g' = ge /\
    forall c, inb3 (geom_cells ge) c = true ->
      at3 (data g') c = fold_left nadd (map val (filter keep (samples_in bld ge c l))) (at3 (data g0) c) /\
      at3 (weight g') c = fold_left (fun w _ => nadd w n1) (filter keep (samples_in bld ge c l)) (at3 (weight g0) c).

  Lemma samples_in_snoc bld ge c l (m : sample F) :
    samples_in bld ge c (l ++ [m]) = samples_in bld ge c l ++ (if in_cell bld ge c (sm_pos m) then [m] else []).
  Proof. unfold samples_in. rewrite filter_app. f_equal. Qed.

  Lemma accumulate_sound bld (g : grid F) (keep : sample F -> bool) (val : sample F -> F) l : forall g0 g',
    wf_grid g0 -> geo g0 = geo g ->
    mfold (fun h m => if keep m && is_inside g (sm_pos m) then add_value bld h (sm_pos m) (val m) else Val h) l g0 = Val g' ->
    acc_ok bld (geo g) keep val l g0 g'.
  Proof.
    induction l as [|m l IH] using rev_ind; intros g0 g' W G E.
    - cbn in E. injection E as <-. split; [exact W|]. split; [exact G|]. intros c _. split; reflexivity.
    - rewrite mfold_app in E. apply bind_val in E. destruct E as [g1 [E1 E2]]. cbn [mfold] in E2.
      destruct (IH g0 g1 W G E1) as [W1 [G1 H1]].
      apply bind_val in E2. destruct E2 as [g2 [E2 E3]]. injection E3 as <-.
      assert (Same : g2 = g1 -> (forall c, inb3 (geom_cells (geo g)) c = true ->
                keep m = true -> in_cell bld (geo g) c (sm_pos m) = false) -> acc_ok bld (geo g) keep val (l ++ [m]) g0 g2).
      { intros -> Hn. split; [exact W1|]. split; [exact G1|]. intros c Hc.
        rewrite samples_in_snoc, filter_app. destruct (H1 c Hc) as [A B].
        assert (Z : filter keep (if in_cell bld (geo g) c (sm_pos m) then [m] else []) = []).
        { destruct (in_cell bld (geo g) c (sm_pos m)) eqn:I; cbn; [|reflexivity]. destruct (keep m) eqn:K; [|reflexivity].
          rewrite (Hn c Hc eq_refl) in I. discriminate. }
        rewrite Z, app_nil_r. auto. }
      unfold is_inside in E2.
      destruct (keep m) eqn:K; cbn [andb] in E2;
        [|apply Same; [now injection E2 | congruence]].
      destruct (geom_inside (geo g) (sm_pos m)) eqn:In;
        [|apply Same; [now injection E2 | intros c _ _; unfold in_cell; now rewrite In]].
      assert (Hit : forall c, in_cell bld (geo g) c (sm_pos m) = match geom_cell_id bld (geo g) (sm_pos m) with Val (Some c') => id3_eqb c' c | _ => false end)
        by (intros c; unfold in_cell; now rewrite In).
      unfold add_value, cell_id in E2. rewrite G1 in E2.
      destruct (geom_cell_id bld (geo g) (sm_pos m)) as [[c0|]|] eqn:Cid; [| |discriminate]; cbn [bind] in E2.
      + assert (Bump : bump g1 c0 (val m) n1 = Val g2 -> acc_ok bld (geo g) keep val (l ++ [m]) g0 g2).
        { intros Bp. destruct (bump_inv _ _ _ _ _ Bp) as [_ [_ O]]. pose proof O as [O1 [O2 [O3 [O4 [O5 O6]]]]].
          split; [exact (only_cell_wf _ _ _ _ _ O W1)|]. split; [congruence|]. intros c Hc.
          destruct (H1 c Hc) as [A B]. rewrite samples_in_snoc, filter_app, map_app, !fold_left_app, Hit.
          destruct (id3_eqb c0 c) eqn:Eq.
          - apply id3_eqb_eq in Eq. subst c0. cbn [filter]. rewrite K. cbn [map fold_left]. now rewrite O4, O5, A, B.
          - cbn [filter map fold_left]. destruct (O6 c) as [Q1 Q2]; [intros ->; now rewrite id3_eqb_refl in Eq|].
            now rewrite Q1, Q2, A, B. }
        destruct (geo g) as [cg|y] eqn:Gg; [|now apply Bump].
        destruct (inb3 (cc_cells cg) c0) eqn:Ib; [now apply Bump|].
        apply Same; [now injection E2|]. intros c Hc _. rewrite Hit. apply id3_eqb_neq. intros ->.
        cbn [geom_cells] in Hc. congruence.
      + apply Same; [now injection E2|]. intros c _ _. now rewrite Hit.
  Qed.

  Lemma accumulate_total bld (g : grid F) (keep : sample F -> bool) (val : sample F -> F) l : forall g0,
    inside_ok bld (geo g) -> wf_grid g0 -> geo g0 = geo g ->
    exists g', mfold (fun h m => if keep m && is_inside g (sm_pos m) then add_value bld h (sm_pos m) (val m) else Val h) l g0 = Val g'.
  Proof.
    induction l as [|m l IH]; intros g0 Ok W G; cbn [mfold]; [eauto|].
    destruct (keep m && is_inside g (sm_pos m)) eqn:E; cbn [bind]; [|now apply IH].
    apply andb_true_iff in E. destruct E as [_ E]. destruct (Ok (sm_pos m) E) as [c [C1 C2]].
    destruct (add_value_in bld g0 (sm_pos m) (val m) c W) as [g1 [A _]];
      [unfold cell_id; now rewrite G | now rewrite G|].
    rewrite A. cbn [bind]. destruct (add_value_wf bld g0 _ _ g1 A W) as [W1 G1]. apply IH; [assumption..|congruence].
  Qed.
End Loops.
