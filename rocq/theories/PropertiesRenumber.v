(** * PropertiesRenumber: renumbering the particles (C168)

    One recording stores the particles in another order than the other one, the same order in every
    timestep.  Analyses that follow particles from timestep to timestep give the same answer. *)
From Coq Require Import Reals List NArith ZArith Lia Lra Bool Permutation ZifyBool ZifyN ZifyNat.
From Flocq Require Import Core.Core IEEE754.BinarySingleNaN.
From Verif Require Import Base BaseFacts Num F64Facts RFacts NDArray GridModel GridSpec GridFacts CartProofs CartR GridOps
  SelModel DataModel DataSpec DataProofs DataLoad PropertiesGrid PropertiesData FunModel FunSpec FunProofs FunMgr FunField PropertiesFun FunOcc FunMom FunTemp
  FunDisp MixModel FunMix FunLacey FunMsd CondModel FunExtract FunTrack FunCirc FunCirc2 PropertiesParts PropertiesScale PropertiesFrames PropertiesScale2.
Import ListNotations.
Local Open Scope list_scope.

(** ** Specification *)
(** [sg] reorders the numbers below [n]. *)
Definition reorders (sg : N -> N) (n : N) : Prop := Permutation (map sg (range 0 n)) (range 0 n).
Section Spec.
  Context {F : Type} {NF : Num F}.
  (** Particle [i] of [x'] is particle [sg i] of [x]; both have [n] particles. *)
  Definition renumbered (sg : N -> N) (n : N) (x x' : timestep F) : Prop :=
    ts_time x' = ts_time x /\ vlen (ts_pos x) = n /\ vlen (ts_pos x') = n /\
    forall i, (i < n)%N -> exists m, at_ (samples x) (sg i) m /\ at_ (samples x') i m.
End Spec.

Lemma reorders_lt sg n i : reorders sg n -> (i < n)%N -> (sg i < n)%N.
Proof.
  intros P H. assert (Q : In (sg i) (range 0 n)) by (apply (Permutation_in _ P), in_map, in_range; lia). apply in_range in Q. lia.
Qed.
(** A list of [n] entries read in another order. *)
Lemma nth_all {A} (l : list A) n : vlen l = n -> map Some l = map (fun i => nth_error l (N.to_nat i)) (range 0 n).
Proof.
  intros <-. apply list_ext. intros k. rewrite !nth_error_map. destruct (Nat.lt_ge_cases k (List.length l)) as [H|H].
  - rewrite range_nth_error by (unfold vlen; lia). cbn [option_map]. rewrite N.add_0_l, Nat2N.id. destruct (nth_error l k) eqn:E; [reflexivity|].
    apply nth_error_None in E. lia.
  - rewrite (proj2 (nth_error_None l k) H). assert (Q : nth_error (range 0 (vlen l)) k = None) by (apply nth_error_None; rewrite range_length; unfold vlen; lia).
    now rewrite Q.
Qed.
Lemma perm_pick {A} sg n (l l' : list A) : reorders sg n -> vlen l = n -> vlen l' = n ->
  (forall i, (i < n)%N -> exists a, at_ l (sg i) a /\ at_ l' i a) -> Permutation l' l.
Proof.
  intros P V V' H. assert (Q : Permutation (map Some l') (map Some l)).
  { rewrite (nth_all l n V), (nth_all l' n V').
    replace (map (fun i => nth_error l' (N.to_nat i)) (range 0 n)) with (map (fun i => nth_error l (N.to_nat i)) (map sg (range 0 n))).
    - now apply Permutation_map.
    - rewrite map_map. apply map_ext_in. intros i Hi. apply in_range in Hi. destruct (H i (proj2 Hi)) as [a [A1 A2]]. unfold at_ in *. congruence. }
  apply Permutation_map_inv in Q. destruct Q as [l3 [E P3]]. rewrite P3. apply Permutation_sym.
  replace l3 with l'; [apply Permutation_refl|]. clear - E. revert l3 E. induction l' as [|a l' IH]; intros [|b l3] E; try discriminate; [reflexivity|].
  cbn [map] in E. injection E as -> E. now rewrite (IH l3 E).
Qed.
Lemma flat_map_perm2 {A B} (R : A -> A -> Prop) (f f' : A -> list B) l l' : Forall2 R l l' ->
  (forall x x', In x l -> In x' l' -> R x x' -> Permutation (f' x') (f x)) -> Permutation (flat_map f' l') (flat_map f l).
Proof.
  induction 1 as [|x x' l l' Hx Hl IH]; intros H; [apply Permutation_refl|]. cbn [flat_map]. apply Permutation_app.
  - apply H; [now left | now left | exact Hx].
  - apply IH. intros y y' Hy Hy'. apply H; now right.
Qed.
Lemma Forall2_filter {A} (R : A -> A -> Prop) p l l' : Forall2 R l l' -> (forall x x', R x x' -> p x' = p x) -> Forall2 R (filter p l) (filter p l').
Proof.
  intros H E. induction H as [|x x' l l' Hx Hl IH]; [constructor|]. cbn [filter]. rewrite (E _ _ Hx). destruct (p x); [now constructor | exact IH].
Qed.
Lemma Forall2_removelast {A} (R : A -> A -> Prop) l l' : Forall2 R l l' -> Forall2 R (removelast l) (removelast l').
Proof.
  induction 1 as [|x x' l l' Hx Hl IH]; [constructor|]. destruct Hl as [|y y' l l' Hy Hl]; [constructor|].
  change (removelast (x :: y :: l)) with (x :: removelast (y :: l)). change (removelast (x' :: y' :: l')) with (x' :: removelast (y' :: l')). now constructor.
Qed.
Lemma Forall2_nth {A} (R : A -> A -> Prop) l l' k : Forall2 R l l' ->
  match nth_error l k, nth_error l' k with Some x, Some x' => R x x' | None, None => True | _, _ => False end.
Proof. intros H. revert k. induction H as [|x x' l l' Hx Hl IH]; intros [|k]; cbn; try exact I; [exact Hx | apply IH]. Qed.
Lemma Forall2_len {A} (R : A -> A -> Prop) l l' : Forall2 R l l' -> List.length l = List.length l'.
Proof. induction 1; cbn [List.length]; congruence. Qed.
Lemma in_firstn {A} (l : list A) a : forall k, In a (firstn k l) -> In a l.
Proof. induction l as [|b l IH]; intros [|k]; cbn; try tauto. intros [->|H]; [now left | right; exact (IH k H)]. Qed.
Lemma Forall2_firstn {A} (R : A -> A -> Prop) l l' : Forall2 R l l' -> forall k, Forall2 R (firstn k l) (firstn k l').
Proof. induction 1 as [|x x' l l' Hx Hl IH]; intros [|k]; cbn [firstn]; try constructor; auto. Qed.
Definition both {A} (R : A -> A -> Prop) (p p' : A * A) : Prop := R (fst p) (fst p') /\ R (snd p) (snd p').
Lemma Forall2_combine {A} (R : A -> A -> Prop) l l' : Forall2 R l l' -> forall m m', Forall2 R m m' -> Forall2 (both R) (combine l m) (combine l' m').
Proof.
  induction 1 as [|x x' l l' Hx Hl IH]; intros m m' Hm; [constructor|]. destruct Hm as [|y y' m m' Hy Hm]; cbn [combine]; [constructor|].
  constructor; [now split | now apply IH].
Qed.
Lemma Forall2_pairs {A} (R : A -> A -> Prop) l l' : Forall2 R l l' -> forall x x', R x x' -> Forall2 (both R) (pairs x l) (pairs x' l').
Proof. induction 1 as [|y y' l l' Hy Hl IH]; intros x x' Hx; cbn [pairs]; constructor; [now split | now apply IH]. Qed.

Section Any.
  Context {F : Type} {NF : Num F} {TF : Trig F}.
  Variable (sg : N -> N) (n : N).
  Hypothesis (Sg : reorders sg n).

  Lemma renumbered_row (x x' : timestep F) i : renumbered sg n x x' -> (i < n)%N -> nth_error (samples x') (N.to_nat i) = nth_error (samples x) (N.to_nat (sg i)).
  Proof. intros [_ [_ [_ H]]] Hi. destruct (H i Hi) as [m [A B]]. unfold at_ in *. congruence. Qed.
  Lemma renumbered_beyond (x x' : timestep F) i : rect x' -> renumbered sg n x x' -> (n <= i)%N -> nth_error (samples x') (N.to_nat i) = None.
  Proof. intros Rc [_ [_ [V _]]] Hi. apply nth_error_None. assert (E := samples_length x' Rc). unfold vlen in *. lia. Qed.
  Lemma compared_renumbered s (L L' : list (timestep F)) : Forall2 (renumbered sg n) L L' -> Forall2 (both (renumbered sg n)) (compared s L) (compared s L').
  Proof.
    intros H. destruct H as [|x x' l l' Hx Hl]; [constructor|]. cbn [compared]. apply Forall2_pairs; [|exact Hx].
    apply Forall2_filter; [now apply Forall2_removelast|]. intros y y' [E _]. now rewrite E.
  Qed.
  Lemma moves_renumbered s (L L' : list (timestep F)) i : Forall2 (renumbered sg n) L L' -> (i < n)%N -> FunTrack.moves s L' i = FunTrack.moves s L (sg i).
  Proof.
    intros H Hi. unfold FunTrack.moves. assert (Q := compared_renumbered s L L' H). induction Q as [|p p' l l' [A B] Hl IH]; [reflexivity|].
    cbn [flat_map]. rewrite IH. f_equal. unfold move1. now rewrite (renumbered_row _ _ i A Hi), (renumbered_row _ _ i B Hi).
  Qed.
  Lemma moves_beyond s (L L' : list (timestep F)) i : Forall rect L' -> Forall2 (renumbered sg n) L L' -> (n <= i)%N -> FunTrack.moves s L' i = [].
  Proof.
    intros Rc H Hi. unfold FunTrack.moves. assert (Q : Forall (fun p => nth_error (samples (fst p)) (N.to_nat i) = None) (compared s L')).
    { apply Forall_forall. intros [x y] Hp. destruct (compared_in s L' x y Hp) as [Hx _]. cbn [fst].
      rewrite Forall_forall in Rc. destruct (In_nth_error _ _ Hx) as [k Hk]. assert (R2 := Forall2_nth _ _ _ k H). rewrite Hk in R2.
      destruct (nth_error L k) as [z|]; [|contradiction]. apply (renumbered_beyond z x i); [now apply Rc | exact R2 | exact Hi]. }
    induction Q as [|p l Hp Hl IH]; [reflexivity|]. cbn [flat_map]. rewrite IH. unfold move1. now rewrite Hp.
  Qed.
  (** What is computed for each particle comes out for the renumbered ones. *)
  Lemma particles_renumbered {B} (f f' : N -> list B) np : (n <= np)%N ->
    (forall i, (i < n)%N -> f' i = f (sg i)) -> (forall i, (n <= i)%N -> f i = [] /\ f' i = []) ->
    Permutation (flat_map f' (range 0 np)) (flat_map f (range 0 np)).
  Proof.
    intros Le H1 H2. rewrite (range_split 0 n np) by lia. rewrite !flat_map_app.
    assert (Z : forall g : N -> list B, (forall i, (n <= i)%N -> g i = []) -> flat_map g (range n np) = []).
    { intros g Hg. assert (Q : forall i, In i (range n np) -> g i = []) by (intros i Hi; apply in_range in Hi; apply Hg; lia).
      induction (range n np) as [|i l IH]; [reflexivity|]. cbn [flat_map]. rewrite Q by now left. apply IH. intros; apply Q. now right. }
    rewrite (Z f), (Z f') by (intros i Hi; now apply H2). apply Permutation_app_tail.
    replace (flat_map f' (range 0 n)) with (flat_map f (map sg (range 0 n))); [now apply Permutation_flat_map|].
    assert (Q : forall i, In i (range 0 n) -> f' i = f (sg i)) by (intros i Hi; apply in_range in Hi; apply H1; lia).
    induction (range 0 n) as [|i l IH]; [reflexivity|]. cbn [map flat_map]. rewrite Q by now left. f_equal. apply IH. intros; apply Q. now right.
  Qed.
  Lemma all_beyond s (L : list (timestep F)) i : Forall rect L -> Forall (fun x => vlen (ts_pos x) = n) L -> (n <= i)%N -> FunTrack.moves s L i = [].
  Proof.
    intros Rc V Hi. unfold FunTrack.moves. assert (Q : Forall (fun p => nth_error (samples (fst p)) (N.to_nat i) = None) (compared s L)).
    { apply Forall_forall. intros [x y] Hp. destruct (compared_in s L x y Hp) as [Hx _]. cbn [fst]. rewrite Forall_forall in Rc, V.
      apply nth_error_None. assert (E := samples_length x (Rc x Hx)). specialize (V x Hx). unfold vlen in *. lia. }
    induction Q as [|p l Hp Hl IH]; [reflexivity|]. cbn [flat_map]. rewrite IH. unfold move1. now rewrite Hp.
  Qed.
  Lemma sizes (L L' : list (timestep F)) : Forall2 (renumbered sg n) L L' -> Forall (fun x => vlen (ts_pos x) = n) L.
  Proof. induction 1 as [|x x' l l' [_ [V _]] Hl IH]; constructor; auto. Qed.

  (** ** Circulation *)
  Theorem c168_circulation bld (M M' : mgr F) d e L L' s axis b d1 out e1 out' :
    recorded M d L -> recorded M' e L' -> Forall2 (renumbered sg n) L L' -> sel_ok s ->
    st_nparticles (m_stats M') = st_nparticles (m_stats M) -> (n <= st_nparticles (m_stats M) + 1)%N ->
    circulation_time bld M d s axis b = Val (d1, out) -> circulation_time bld M' e s axis b = Val (e1, out') ->
    Permutation out' out.
  Proof.
    intros Rec Rec' Rn Sk Np Le R1 R2. destruct (c47_times bld M d s axis b L d1 out Rec Sk R1) as [_ P]. destruct (c47_times bld M' e s axis b L' e1 out' Rec' Sk R2) as [_ P'].
    rewrite P', P, Np. apply particles_renumbered; [exact Le| |]; intros i Hi; unfold crossings.
    - now rewrite (moves_renumbered s L L' i Rn Hi).
    - now rewrite (all_beyond s L i (proj2 (proj2 Rec)) (sizes L L' Rn) Hi), (moves_beyond s L L' i (proj2 (proj2 Rec')) Rn Hi).
  Qed.
  Theorem c168_two_boundaries bld (M M' : mgr F) d e L L' s axis b0 b1 d1 out e1 out' :
    recorded M d L -> recorded M' e L' -> Forall2 (renumbered sg n) L L' -> sel_ok s ->
    st_nparticles (m_stats M') = st_nparticles (m_stats M) -> (n <= st_nparticles (m_stats M) + 1)%N ->
    circulation_time_two_boundary bld M d s axis b0 b1 = Val (d1, out) -> circulation_time_two_boundary bld M' e s axis b0 b1 = Val (e1, out') ->
    Permutation out' out.
  Proof.
    intros Rec Rec' Rn Sk Np Le R1 R2. destruct (c48_intervals bld M d s axis b0 b1 L d1 out Rec Sk R1) as [_ P]. destruct (c48_intervals bld M' e s axis b0 b1 L' e1 out' Rec' Sk R2) as [_ P'].
    rewrite P', P, Np. apply particles_renumbered; [exact Le| |]; intros i Hi; unfold passings.
    - now rewrite (moves_renumbered s L L' i Rn Hi).
    - now rewrite (all_beyond s L i (proj2 (proj2 Rec)) (sizes L L' Rn) Hi), (moves_beyond s L L' i (proj2 (proj2 Rec')) Rn Hi).
  Qed.

  (** ** Trajectories *)
  Theorem c168_extract bld (M M' : mgr F) d e L L' i a b :
    recorded M d L -> recorded M' e L' -> Forall2 (renumbered sg n) L L' -> (i < n)%N -> (a <= b)%N -> (b < vlen L)%N -> (b * 7 < 2 ^ 63)%N ->
    exists d1 e1 rows, extract bld M d (sg i) a b = Val (d1, rows) /\ extract bld M' e i a b = Val (e1, rows).
  Proof.
    intros Rec Rec' Rn Hi Hab Hb Hm. assert (Hs := reorders_lt sg n i Sg Hi).
    assert (Vl : vlen L' = vlen L) by (unfold vlen; f_equal; symmetry; exact (Forall2_len _ _ _ Rn)).
    assert (Each : forall t x', at_ L' t x' -> exists x, at_ L t x /\ renumbered sg n x x').
    { intros t x' Hx. assert (Q := Forall2_nth _ _ _ (N.to_nat t) Rn). unfold at_ in *. rewrite Hx in Q. destruct (nth_error L (N.to_nat t)) as [x|]; [eauto | contradiction]. }
    destruct (c46_rows bld M d L (sg i) a b Rec Hab Hb Hm) as [d1 [rows [E1 [_ [V1 H1]]]]].
    { intros t x _ Hx. assert (Z := sizes L L' Rn). rewrite Forall_forall in Z. rewrite (Z x (nth_error_In _ _ Hx)). exact Hs. }
    destruct (c46_rows bld M' e L' i a b Rec' Hab ltac:(lia) Hm) as [e1 [rows' [E2 [_ [V2 H2]]]]].
    { intros t x' _ Hx. destruct (Each t x' Hx) as [x [_ [_ [_ [V _]]]]]. rewrite V. exact Hi. }
    exists d1, e1, rows. split; [exact E1|]. rewrite E2. do 2 f_equal. apply (at_ext _ _ (b - a)%N V2 V1). intros k Hk.
    destruct (lt_at L' (a + k) ltac:(lia)) as [x' Hx']. destruct (Each _ _ Hx') as [x [Hx Rx]]. destruct Rx as [_ [_ [_ Rx]]]. destruct (Rx i Hi) as [m [A B]].
    exists (row_of m). split; [exact (H2 k x' m Hk Hx' B) | exact (H1 k x m Hk Hx A)].
  Qed.

  (** ** Lists of samples *)
  Lemma samples_renumbered (x x' : timestep F) : rect x -> rect x' -> renumbered sg n x x' -> Permutation (samples x') (samples x).
  Proof.
    intros Rx Rx' [_ [V [V' H]]]. apply (perm_pick sg n); [exact Sg | | | exact H]; rewrite samples_length by assumption; assumption.
  Qed.
  Lemma ends_renumbered (x x' y y' : timestep F) : rect x -> rect x' -> rect y -> rect y' -> renumbered sg n x x' -> renumbered sg n y y' ->
    Permutation (combine (samples x') (ts_pos y')) (combine (samples x) (ts_pos y)).
  Proof.
    intros Rx Rx' Ry Ry' [_ [V [V' H]]] [_ [W [W' K]]]. apply (perm_pick sg n); [exact Sg | | |].
    - assert (E := samples_length x Rx). unfold vlen in *. rewrite combine_length. lia.
    - assert (E := samples_length x' Rx'). unfold vlen in *. rewrite combine_length. lia.
    - intros i Hi. destruct (H i Hi) as [m [A B]]. destruct (K i Hi) as [m2 [A2 B2]].
      exists (m, sm_pos m2). split; apply combine_at; try assumption; [exact (proj1 (proj2 (samples_at y _ _ Ry A2))) | exact (proj1 (proj2 (samples_at y' _ _ Ry' B2)))].
  Qed.
  Lemma all_renumbered (L L' : list (timestep F)) : Forall rect L -> Forall rect L' -> Forall2 (renumbered sg n) L L' ->
    Permutation (flat_map samples L') (flat_map samples L).
  Proof.
    intros Rc Rc' H. rewrite Forall_forall in Rc, Rc'. apply (flat_map_perm2 _ _ _ _ _ H). intros x x' Hx Hx' Q. apply samples_renumbered; auto.
  Qed.
  Lemma stays_renumbered (L L' : list (timestep F)) : Forall rect L -> Forall rect L' -> Forall2 (renumbered sg n) L L' ->
    Permutation (all_stays L') (all_stays L).
  Proof.
    intros Rc Rc' H. rewrite Forall_forall in Rc, Rc'. unfold all_stays. rewrite <- (Forall2_len _ _ _ H).
    assert (Q : Forall2 (both (renumbered sg n)) (firstn (List.length L - 3) (combine L (tl L))) (firstn (List.length L - 3) (combine L' (tl L')))).
    { apply Forall2_firstn, Forall2_combine; [exact H|]. destruct H; [constructor | assumption]. }
    apply (flat_map_perm2 _ _ _ _ _ Q). intros [x y] [x' y'] Hp Hp' [A B]. cbn [fst snd] in *. unfold stays.
    assert (I1 : In x L /\ In y (tl L)) by (split; [eapply in_combine_l | eapply in_combine_r]; eapply in_firstn; exact Hp).
    assert (I2 : In x' L' /\ In y' (tl L')) by (split; [eapply in_combine_l | eapply in_combine_r]; eapply in_firstn; exact Hp').
    assert (T : forall l (z : timestep F), In z (tl l) -> In z l) by (intros [|? ?] z Hz; [exact Hz | now right]).
    rewrite (proj1 A), (proj1 B). apply Permutation_map, ends_renumbered; firstorder.
  Qed.
End Any.

Section Ideal.
  Context {TF : Trig R}.
  Variable (sg : N -> N) (n : N).
  Hypothesis (Sg : reorders sg n).
  Local Open Scope R_scope.

  Lemma step_renumbered s (x x' y y' : timestep R) : rect x -> rect x' -> rect y -> rect y' -> renumbered sg n x x' -> renumbered sg n y y' ->
    Permutation (filter (fun mq => chosen s (fst mq)) (combine (samples x') (ts_pos y'))) (filter (fun mq => chosen s (fst mq)) (combine (samples x) (ts_pos y))).
  Proof. intros. now apply filter_perm, (ends_renumbered sg n Sg). Qed.
  Lemma after_delay bld ta dt s (L L' r r' : list (timestep R)) : Forall rect L -> Forall rect L' -> Forall rect r -> Forall rect r' ->
    Forall2 (renumbered sg n) L L' -> Forall2 (renumbered sg n) r r' ->
    Permutation
      (flat_map (fun x => match delayed bld ta dt L' x with Some y => filter (fun mq => chosen s (fst mq)) (combine (samples x) (ts_pos y)) | None => [] end) r')
      (flat_map (fun x => match delayed bld ta dt L x with Some y => filter (fun mq => chosen s (fst mq)) (combine (samples x) (ts_pos y)) | None => [] end) r).
  Proof.
    intros Rc Rc' Rr Rr' H Hr. rewrite Forall_forall in Rc, Rc', Rr, Rr'. apply (flat_map_perm2 _ _ _ _ _ Hr). intros x x' Hx Hx' Q.
    unfold delayed. rewrite (proj1 Q). destruct (closest _ _ _ _) as [[[t|]|]|]; try apply Permutation_refl.
    assert (K := Forall2_nth _ _ _ (N.to_nat t) H). destruct (nth_error L (N.to_nat t)) as [y|] eqn:Ey, (nth_error L' (N.to_nat t)) as [y'|] eqn:Ey'; try contradiction; [|apply Permutation_refl].
    apply step_renumbered; auto; [apply Rc; now apply nth_error_In in Ey | apply Rc'; now apply nth_error_In in Ey'].
  Qed.
  Lemma rect_removelast (L : list (timestep R)) : Forall rect L -> Forall rect (removelast L).
  Proof.
    clear. induction 1 as [|x l Hx Hl IH]; [constructor|]. cbn [removelast]. destruct l; [constructor | now constructor].
  Qed.

  (** ** Displacements *)
  Theorem c168_msd bld can can' (g : grid R) (M M' : mgr R) d e L L' s dt d1 h e1 h' :
    aux_reads can M d L -> aux_reads can' M' e L' -> L <> [] -> st_time (m_stats M') = st_time (m_stats M) ->
    vlen (st_time (m_stats M)) = vlen L -> Forall rect L -> Forall rect L' -> Forall2 (renumbered sg n) L L' -> sel_ok s -> fresh g ->
    msd_field bld M d g s dt = Val (d1, h) -> msd_field bld M' e g s dt = Val (e1, h') ->
    forall c, inb3 (geom_cells (geo g)) c = true -> at3 (data h') c = at3 (data h) c /\ at3 (weight h') c = at3 (weight h) c.
  Proof.
    intros A A' Ne St Vt Rc Rc' Rn Sk Fr R1 R2 c Hc. assert (Vl : vlen L' = vlen L) by (unfold vlen; f_equal; symmetry; exact (Forall2_len _ _ _ Rn)).
    assert (Ne' : L' <> []) by (intros ->; destruct L; [contradiction | inversion Rn]).
    destruct (c45_field can bld M d L g s dt d1 h A Ne Vt Rc Sk Fr R1) as [_ [_ H]].
    destruct (c45_field can' bld M' e L' g s dt e1 h' A' Ne' ltac:(now rewrite St, Vl) Rc' Sk Fr R2) as [_ [_ H']].
    specialize (H c Hc). specialize (H' c Hc). cbv zeta in H, H'. rewrite St in H'.
    assert (P : Permutation (FunDisp.moves_in bld g c (moves_before_last bld (st_time (m_stats M)) dt s L')) (FunDisp.moves_in bld g c (moves_before_last bld (st_time (m_stats M)) dt s L))).
    { apply filter_perm. apply after_delay; try assumption; [now apply rect_removelast | now apply rect_removelast | now apply Forall2_removelast]. }
    set (ms := FunDisp.moves_in bld g c (moves_before_last bld (st_time (m_stats M)) dt s L)) in *. set (ms' := FunDisp.moves_in bld g c (moves_before_last bld (st_time (m_stats M)) dt s L')) in *.
    clearbody ms ms'. assert (Vm : vlen ms' = vlen ms) by (unfold vlen; f_equal; exact (Permutation_length P)).
    destruct H as [W [Z B]], H' as [W' [Z' B']]. rewrite W, W', Vm. split; [|reflexivity].
    destruct ms as [|m ms].
    - apply Permutation_sym, Permutation_nil in P. rewrite (Z eq_refl), (Z' P). reflexivity.
    - assert (Nm : ms' <> []) by (intros ->; apply Permutation_nil in P; discriminate P).
      rewrite (B ltac:(discriminate)), (B' Nm), Vm. now rewrite (Rsum_perm _ _ (Permutation_map travelled P)).
  Qed.
  Lemma Rsvar_perm (l l' : list R) : Permutation l l' -> Rsvar l = Rsvar l'.
  Proof. intros P. unfold Rsvar. rewrite (Permutation_length P), (Rmean_perm l l' P). f_equal. apply Rsum_perm, Permutation_map, P. Qed.
  Theorem c168_dispersion bld can can' (g : grid R) (M M' : mgr R) d e L L' s dt d1 h mean e1 h' mean' :
    aux_reads can M d L -> aux_reads can' M' e L' -> L <> [] -> st_time (m_stats M') = st_time (m_stats M) ->
    vlen (st_time (m_stats M)) = vlen L -> Forall rect L -> Forall rect L' -> Forall2 (renumbered sg n) L L' -> sel_ok s -> fresh g ->
    dispersion bld M d g s dt = Val (d1, (h, mean)) -> dispersion bld M' e g s dt = Val (e1, (h', mean')) ->
    (forall c, inb3 (geom_cells (geo g)) c = true -> at3 (data h') c = at3 (data h) c /\ at3 (weight h') c = at3 (weight h) c) /\ mean' = mean.
  Proof.
    intros A A' Ne St Vt Rc Rc' Rn Sk Fr R1 R2. assert (Vl : vlen L' = vlen L) by (unfold vlen; f_equal; symmetry; exact (Forall2_len _ _ _ Rn)).
    assert (Ne' : L' <> []) by (intros ->; destruct L; [contradiction | inversion Rn]).
    destruct (c40_sample_variance can bld M d L g s dt d1 h mean A Ne Vt Rc Sk Fr R1) as [_ [H Hm]].
    destruct (c40_sample_variance can' bld M' e L' g s dt e1 h' mean' A' Ne' ltac:(now rewrite St, Vl) Rc' Sk Fr R2) as [_ [H' Hm']].
    assert (Cell : forall c, inb3 (geom_cells (geo g)) c = true -> at3 (data h') c = at3 (data h) c /\ at3 (weight h') c = at3 (weight h) c).
    { intros c Hc. specialize (H c Hc). specialize (H' c Hc). cbv zeta in H, H'. rewrite St in H'.
      assert (P : Permutation (FunDisp.moves_in bld g c (FunDisp.moves bld (st_time (m_stats M)) dt s L')) (FunDisp.moves_in bld g c (FunDisp.moves bld (st_time (m_stats M)) dt s L))).
      { apply filter_perm. now apply after_delay. }
      set (ms := FunDisp.moves_in bld g c (FunDisp.moves bld (st_time (m_stats M)) dt s L)) in *. set (ms' := FunDisp.moves_in bld g c (FunDisp.moves bld (st_time (m_stats M)) dt s L')) in *.
      clearbody ms ms'. destruct H as [B S], H' as [B' S']. rewrite (Permutation_length P) in B', S'.
      destruct (Nat.lt_ge_cases (List.length ms) 2) as [Lt|Ge].
      - destruct (S Lt) as [-> ->]. destruct (S' Lt) as [-> ->]. now split.
      - destruct (B Ge) as [-> [-> _]]. destruct (B' Ge) as [-> [-> _]]. split; [|reflexivity].
        unfold FunDisp.spread. now rewrite !(Rsvar_perm _ _ (Permutation_map _ (Permutation_map snd P))). }
    split; [exact Cell|]. rewrite Hm, Hm'. 
    rewrite (map_ext_in (at3 (weight h')) (at3 (weight h)) (ids3 (geom_cells (geo g)))) by (intros c Hc; apply in_ids3 in Hc; now apply Cell).
    rewrite (map_ext_in (fun c => at3 (weight h') c * at3 (data h') c) (fun c => at3 (weight h) c * at3 (data h) c) (ids3 (geom_cells (geo g)))); [reflexivity|].
    intros c Hc. apply in_ids3 in Hc. now destruct (Cell c Hc) as [-> ->].
  Qed.

  (** ** Occupancy *)
  Theorem c168_occupancy bld can can' (g : grid R) (M M' : mgr R) d e L L' s min_vel d1 h e1 h' :
    aux_reads can M d L -> aux_reads can' M' e L' -> (forall t, can t (t + 1)%N) -> (forall t, can' t (t + 1)%N) ->
    (3 <= vlen L)%N -> Forall rect L -> Forall rect L' -> Forall2 (renumbered sg n) L L' -> sel_ok s -> wf_grid g ->
    occupancyfield bld M d g s min_vel = Val (d1, h) -> occupancyfield bld M' e g s min_vel = Val (e1, h') ->
    0 < Rsum (map y_spent (counted g s min_vel L)) ->
    forall c, at3 (data h') c = at3 (data h) c.
  Proof.
    intros A A' C C' Len Rc Rc' Rn Sk W R1 R2 Pos c. assert (Vl : vlen L' = vlen L) by (unfold vlen; f_equal; symmetry; exact (Forall2_len _ _ _ Rn)).
    assert (P : Permutation (counted g s min_vel L') (counted g s min_vel L)) by (apply filter_perm; now apply (stays_renumbered sg n Sg)).
    assert (Es := Rsum_perm _ _ (Permutation_map y_spent P)).
    destruct (c37_fraction can bld M d L g s min_vel d1 h A C Len Rc Sk W R1 Pos) as [H _].
    destruct (c37_fraction can' bld M' e L' g s min_vel e1 h' A' C' ltac:(now rewrite Vl) Rc' Sk W R2 ltac:(now rewrite Es)) as [H' _].
    rewrite H, H', Es. f_equal. apply Rsum_perm. unfold deposited. apply Permutation_map, filter_perm. now apply Permutation_flat_map.
  Qed.

  (** ** Mixing *)
  Lemma number_perm t (l l' : list (sample R)) : Permutation l l' -> number_of t l = number_of t l'.
  Proof. intros P. unfold number_of, vlen. f_equal. apply Permutation_length, filter_perm, P. Qed.
  Lemma share_perm ta tb (l l' : list (sample R)) : Permutation l l' -> FunLacey.share ta tb l = FunLacey.share ta tb l'.
  Proof. intros P. unfold FunLacey.share. now rewrite !(number_perm _ _ _ P). Qed.
  Theorem c168_lacey bld (g : grid R) (M M' : mgr R) d e L L' s ta tb thr d1 e1 tm tm' mix mix' :
    recorded M d L -> recorded M' e L' -> Forall2 (renumbered sg n) L L' -> sel_ok s -> fresh g -> ta <> tb -> (1 <= thr)%N ->
    lacey_mixing bld M d g s ta tb thr = Val (d1, (tm, mix)) -> lacey_mixing bld M' e g s ta tb thr = Val (e1, (tm', mix')) ->
    tm' = tm /\ mix' = mix.
  Proof.
    intros Rec Rec' Rn Sk Fr Ne Th R1 R2. assert (Vl : vlen L' = vlen L) by (unfold vlen; f_equal; symmetry; exact (Forall2_len _ _ _ Rn)).
    destruct (c43_index bld M d L g s ta tb thr d1 tm mix Rec Sk Fr Ne Th R1) as [V1 [V2 H]].
    destruct (c43_index bld M' e L' g s ta tb thr e1 tm' mix' Rec' Sk Fr Ne Th R2) as [V1' [V2' H']]. rewrite Vl in V1', V2'.
    assert (Both : forall i, (i < vlen L - 1)%N -> (exists v, at_ tm' i v /\ at_ tm i v) /\ exists v, at_ mix' i v /\ at_ mix i v).
    { intros i Hi. assert (Hi' : (i < vlen (removelast L))%N) by (rewrite vlen_removelast; exact Hi). destruct (lt_at _ _ Hi') as [x Hx].
      assert (K := Forall2_nth _ _ _ (N.to_nat i) (Forall2_removelast _ _ _ Rn)). assert (Hx0 := Hx). unfold at_ in Hx0. rewrite Hx0 in K.
      destruct (nth_error (removelast L') (N.to_nat i)) as [x'|] eqn:Ex'; [|contradiction]. specialize (H i x Hx). specialize (H' i x' Ex'). rewrite (proj1 K) in H'.
      destruct (timestep_valid s (ts_time x)); [|destruct H as [H1 H2], H' as [H1' H2']; split; eexists; split; eassumption].
      destruct H as [H1 H2], H' as [H1' H2']. cbv zeta in H2, H2'. split; [eexists; split; eassumption|].
      assert (In1 : rect x) by (refine (proj1 (Forall_forall _ _) (rect_removelast L (proj2 (proj2 Rec))) x _); now apply nth_error_In in Hx0).
      assert (In2 : rect x') by (refine (proj1 (Forall_forall _ _) (rect_removelast L' (proj2 (proj2 Rec'))) x' _); now apply nth_error_In in Ex').
      assert (P : Permutation (observed s [x']) (observed s [x])).
      { unfold observed. apply filter_perm. cbn [flat_map]. rewrite !app_nil_r. now apply (samples_renumbered sg n Sg). }
      assert (Pc : forall c, Permutation (samples_in bld (geo g) c (observed s [x'])) (samples_in bld (geo g) c (observed s [x]))) by (intros c; now apply filter_perm).
      assert (Fc : full_cells bld g ta tb thr (observed s [x']) = full_cells bld g ta tb thr (observed s [x])).
      { unfold full_cells. apply filter_ext. intros c. now rewrite !(number_perm _ _ _ (Pc c)). }
      rewrite Fc, (share_perm _ _ _ _ P) in H2'.
      rewrite (map_ext _ (fun c => FunLacey.share ta tb (samples_in bld (geo g) c (observed s [x]))) (fun c => share_perm ta tb _ _ (Pc c))) in H2'. eauto. }
    split; apply (at_ext _ _ (vlen L - 1)%N); try assumption; intros i Hi; now apply Both.
  Qed.

  (** ** Fields of samples: C158 applies *)
  Theorem c168_samples (L L' : list (timestep R)) : Forall rect L -> Forall rect L' -> Forall2 (renumbered sg n) L L' -> Permutation (flat_map samples L') (flat_map samples L).
  Proof. exact (all_renumbered sg n Sg L L'). Qed.
End Ideal.

(** ** A case: the two particles of [circ_ex] (C47) swapped *)
Definition swap (i : N) : N := (1 - i)%N.
Definition circ_swapped : list (timestep f64) :=
  [two_at 0 2 1 5 1; two_at 1 2 1 5 (-1); two_at 2 2 1 5 1; two_at 3 2 1 5 (-1); two_at 4 2 1 5 1; two_at 5 2 1 5 1].
Example c168_case : reorders swap 2 /\ Forall2 (renumbered swap 2) circ_ex circ_swapped /\
  recorded (list_mgr circ_ex (circ_stats 6)) tt circ_ex /\ recorded (list_mgr circ_swapped (circ_stats 6)) tt circ_swapped /\
  (2 <= st_nparticles (circ_stats 6) + 1)%N /\ circ_of circ_ex = Val [(true, 2%Z)] /\ circ_of circ_swapped = Val [(true, 2%Z)].
Proof.
  split; [unfold reorders; cbn; apply perm_swap|].
  assert (Q : forall t i1 i2 x1 x2, renumbered swap 2 (two_at t i1 i2 x1 x2) (two_at t i2 i1 x2 x1)).
  { intros. split; [reflexivity|]. split; [reflexivity|]. split; [reflexivity|]. intros i Hi.
    assert (C : i = 0%N \/ i = 1%N) by lia. destruct C as [-> | ->]; eexists; split; reflexivity. }
  split; [repeat constructor; apply Q|].
  split; [apply list_recorded; [discriminate | repeat constructor | reflexivity]|].
  split; [apply list_recorded; [discriminate | repeat constructor | reflexivity]|].
  split; [cbn; lia|]. split; vm_compute; reflexivity.
Qed.
