(** * Structural facts about arrays and grids, for any number type (proofs only). *)
From Coq Require Import List NArith ZArith Lia Bool ZifyBool ZifyN.
From Verif Require Import Base BaseFacts Num NDArray GridModel GridSpec.

Lemma id3_eqb_eq a b : id3_eqb a b = true <-> a = b.
Proof.
  destruct a as [[a0 a1] a2], b as [[b0 b1] b2]. unfold id3_eqb.
  rewrite !andb_true_iff, !N.eqb_eq. split; [intros [[-> ->] ->]; reflexivity | intros [= -> -> ->]; auto].
Qed.
Lemma id3_eqb_refl a : id3_eqb a a = true.
Proof. now apply id3_eqb_eq. Qed.
Lemma id3_eqb_neq a b : id3_eqb a b = false <-> a <> b.
Proof. rewrite <- id3_eqb_eq. destruct (id3_eqb a b); intuition congruence. Qed.

Lemma inb3_lt a b c i j k : inb3 (a, b, c) (i, j, k) = true <-> (i < a /\ j < b /\ k < c)%N.
Proof. unfold inb3. rewrite !andb_true_iff, !N.ltb_lt. tauto. Qed.

Lemma in_ids3 sh i : In i (ids3 sh) <-> inb3 sh i = true.
Proof.
  destruct sh as [[a b] c], i as [[i j] k]. rewrite inb3_lt. unfold ids3.
  rewrite in_flat_map. split.
  - intros [i' [Hi H]]. apply in_flat_map in H. destruct H as [j' [Hj H]].
    apply in_map_iff in H. destruct H as [k' [E Hk]].
    apply in_range in Hi, Hj, Hk. injection E as -> -> ->. lia.
  - intros H. exists i. split; [apply in_range; lia|].
    apply in_flat_map. exists j. split; [apply in_range; lia|].
    apply in_map_iff. exists k. split; [reflexivity|]. apply in_range. lia.
Qed.

Lemma NoDup_app_intro {A} (l1 l2 : list A) :
  NoDup l1 -> NoDup l2 -> (forall x, In x l1 -> In x l2 -> False) -> NoDup (l1 ++ l2).
Proof.
  induction l1 as [|a l1 IH]; intros H1 H2 H; cbn; [exact H2|].
  inversion H1; subst. constructor.
  - rewrite in_app_iff. intros [X|X]; [contradiction | eapply H; [now left | exact X]].
  - apply IH; auto. intros x X Y. eapply H; [right; exact X | exact Y].
Qed.

Lemma NoDup_flat_map {A B} (f : A -> list B) l :
  NoDup l -> (forall a, In a l -> NoDup (f a)) ->
  (forall a b x, In x (f a) -> In x (f b) -> a = b) -> NoDup (flat_map f l).
Proof.
  induction l as [|a l IH]; intros Hl Hf Hd; cbn; [constructor|].
  inversion Hl as [|? ? Ha Hl']; subst. apply NoDup_app_intro.
  - apply Hf. now left.
  - apply IH; auto. intros; apply Hf; now right.
  - intros x X Y. apply in_flat_map in Y. destruct Y as [b [Hb Y]].
    assert (a = b) by (eapply Hd; eauto). subst. contradiction.
Qed.

Lemma ids3_NoDup sh : NoDup (ids3 sh).
Proof.
  destruct sh as [[a b] c]. unfold ids3. apply NoDup_flat_map.
  - apply range_NoDup.
  - intros i _. apply NoDup_flat_map.
    + apply range_NoDup.
    + intros j _. apply FinFun.Injective_map_NoDup; [intros x y; congruence | apply range_NoDup].
    + intros j j' x H1 H2. apply in_map_iff in H1, H2.
      destruct H1 as [k1 [<- _]], H2 as [k2 [E _]]. congruence.
  - intros i i' x H1 H2. apply in_flat_map in H1, H2.
    destruct H1 as [j1 [_ H1]], H2 as [j2 [_ H2]]. apply in_map_iff in H1, H2.
    destruct H1 as [k1 [<- _]], H2 as [k2 [E _]]. congruence.
Qed.

Lemma build3_val {F} {NF : Num F} sh (f : id3 -> res F) a :
  build3 sh f = Val a -> sh3 a = sh /\ forall i, inb3 sh i = true -> f i = Val (at3 a i).
Proof.
  unfold build3. intros H. apply bind_val in H. destruct H as [u [Hu H]].
  injection H as <-. cbn. split; [reflexivity|]. intros i Hi.
  apply in_ids3 in Hi. revert u Hu Hi. generalize (ids3 sh) as l.
  assert (G : forall l u u0, mfold (fun (_ : unit) i => let! _ := f i in Val tt) l u0 = Val u ->
      In i l -> f i = Val match f i with Val x => x | Panic => n0 end).
  { induction l as [|j l IH]; intros u u0 Hu Hi; [easy|]. cbn in Hu.
    destruct (f j) as [x|] eqn:E; cbn in Hu; [|discriminate].
    destruct Hi as [-> | Hi]; [now rewrite E | eapply IH; eauto]. }
  intros l u Hu Hi. eapply G; eauto.
Qed.

Lemma build3_ok {F} {NF : Num F} sh (f : id3 -> res F) :
  (forall i, inb3 sh i = true -> exists x, f i = Val x) -> exists a, build3 sh f = Val a.
Proof.
  intros H. unfold build3.
  assert (G : forall l u, (forall i, In i l -> exists x, f i = Val x) ->
     exists u', mfold (fun (_ : unit) i => let! _ := f i in Val tt) l u = Val u').
  { induction l as [|j l IH]; intros u Hl; cbn; [eauto|].
    destruct (Hl j (or_introl eq_refl)) as [x ->]. cbn. apply IH. intros; apply Hl; now right. }
  destruct (G (ids3 sh) tt) as [u ->].
  - intros i Hi. apply H. now apply in_ids3.
  - cbn. eauto.
Qed.

Lemma build3_panic {F} {NF : Num F} sh (f : id3 -> res F) i :
  inb3 sh i = true -> f i = Panic -> build3 sh f = Panic.
Proof.
  intros Hi Hf. destruct (build3 sh f) as [a|] eqn:E; [|reflexivity].
  apply build3_val in E. destruct E as [_ E]. rewrite (E i Hi) in Hf. discriminate.
Qed.

Section Facts.
  Context {F : Type} {NF : Num F} {TF : Trig F}.



  Lemma bump_val (g : grid F) c v w :
    inb3 (sh3 (data g)) c = true -> inb3 (sh3 (weight g)) c = true ->
    exists g', bump g c v w = Val g' /\
      only_cell g g' c (nadd (at3 (data g) c) v) (nadd (at3 (weight g) c) w).
  Proof.
    intros Hd Hw. unfold bump, get3, set3. rewrite Hd, Hw. cbn [bind].
    eexists. split; [reflexivity|]. unfold only_cell. cbn [geo data weight sh3 at3].
    rewrite id3_eqb_refl. repeat split; try reflexivity.
    - destruct (id3_eqb c c') eqn:E; [apply id3_eqb_eq in E; congruence | reflexivity].
    - destruct (id3_eqb c c') eqn:E; [apply id3_eqb_eq in E; congruence | reflexivity].
  Qed.

  Lemma bump_inv (g : grid F) c v w g' : bump g c v w = Val g' ->
    inb3 (sh3 (data g)) c = true /\ inb3 (sh3 (weight g)) c = true /\
    only_cell g g' c (nadd (at3 (data g) c) v) (nadd (at3 (weight g) c) w).
  Proof.
    intros H. destruct (inb3 (sh3 (data g)) c) eqn:Hd; [|unfold bump, get3 in H; rewrite Hd in H; discriminate].
    destruct (inb3 (sh3 (weight g)) c) eqn:Hw.
    - destruct (bump_val g c v w Hd Hw) as [g2 [E O]]. rewrite E in H. injection H as <-. auto.
    - unfold bump, get3, set3 in H. rewrite Hd, Hw in H. discriminate.
  Qed.

  Lemma only_cell_wf (g g' : grid F) c d w : only_cell g g' c d w -> wf_grid g -> wf_grid g'.
  Proof. intros [H1 [H2 [H3 _]]] [W1 W2]. split; congruence. Qed.

  Lemma zip3_same {G H} (f : F -> G -> H) a b : sh3 a = sh3 b ->
    zip3 f a b = Val (mkA3 (sh3 a) (fun i => f (at3 a (bidx3 (sh3 a) i)) (at3 b (bidx3 (sh3 a) i)))).
  Proof.
    unfold zip3. intros E. rewrite <- E. destruct (sh3 a) as [[a0 a1] a2].
    unfold bdim. rewrite !N.eqb_refl. reflexivity.
  Qed.

  Lemma bidx3_in sh i : inb3 sh i = true -> bidx3 sh i = i.
  Proof.
    destruct sh as [[a b] c], i as [[x y] z]. rewrite inb3_lt. intros [H1 [H2 H3]].
    unfold bidx3, bidx.
    destruct (N.eqb_spec a 1), (N.eqb_spec b 1), (N.eqb_spec c 1); f_equal; try f_equal; lia.
  Qed.




  Lemma bump_wf (g : grid F) c v w g' : bump g c v w = Val g' -> wf_grid g ->
    wf_grid g' /\ geo g' = geo g.
  Proof.
    intros H W. apply bump_inv in H. destruct H as [_ [_ O]].
    split; [eapply only_cell_wf; eauto | apply O].
  Qed.

  Lemma add_value_wf bld (g : grid F) p v g' : add_value bld g p v = Val g' -> wf_grid g ->
    wf_grid g' /\ geo g' = geo g.
  Proof.
    unfold add_value. intros H W. apply bind_val in H. destruct H as [o [_ H]].
    destruct o as [c|]; [|injection H as <-; auto].
    destruct (geo g) as [cg|y] eqn:E.
    - destruct (inb3 (cc_cells cg) c); [rewrite <- E; eapply bump_wf; eauto | injection H as <-; auto].
    - rewrite <- E. eapply bump_wf; eauto.
  Qed.

  Lemma gstep_wf bld (g : grid F) o g' : gop_ok (geom_cells (geo g)) o ->
    gstep bld g o = Val g' -> wf_grid g -> wf_grid g' /\ geo g' = geo g.
  Proof.
    intros Hok H W. destruct o as [p v|p v|c v|p q v|a|x| | |a|a|thr mode]; cbn in H, Hok.
    - eapply add_value_wf; eauto.
    - unfold insert in H. apply bind_val in H. destruct H as [o [_ H]].
      destruct o as [c|]; [|injection H as <-; auto].
      apply bind_val in H. destruct H as [d [Hd H]]. injection H as <-.
      unfold set3 in Hd. destruct (inb3 (sh3 (data g)) c); [|discriminate].
      injection Hd as <-. unfold wf_grid in *. cbn. tauto.
    - eapply bump_wf; eauto.
    - unfold add_trajectory_value in H. destruct (geo g) as [cg|y] eqn:E.
      + apply bind_val in H. destruct H as [o [_ H]].
        destruct o as [[cs fs]|]; [|injection H as <-; auto].
        assert (P : wf_grid g' /\ geo g' = geo g).
        { revert H. apply (mfold_inv (fun x => wf_grid x /\ geo x = geo g)); [auto|].
          intros s x s' _ [Ws Gs] Hb. destruct (bump_wf _ _ _ _ _ Hb Ws). split; congruence || auto. }
        rewrite <- E. exact P.
      + rewrite <- E. eapply add_value_wf; eauto.
    - unfold divide_by_array in H. destruct W as [W1 W2]. rewrite zip3_same in H by congruence.
      cbn in H. injection H as <-. unfold wf_grid. cbn. auto.
    - injection H as <-. unfold wf_grid in *. cbn. tauto.
    - unfold divide_by_weight in H. destruct W as [W1 W2]. rewrite zip3_same in H by congruence.
      cbn in H. injection H as <-. unfold wf_grid. cbn. auto.
    - injection H as <-. unfold wf_grid in *. cbn. tauto.
    - unfold set_data, sh_eqb in H. destruct (id3_eqb (sh3 (data g)) (sh3 a)) eqn:E; [|discriminate].
      apply id3_eqb_eq in E. injection H as <-. destruct W. unfold wf_grid. cbn. split; [split|]; congruence.
    - unfold set_weights, sh_eqb in H. destruct (id3_eqb (sh3 (weight g)) (sh3 a)) eqn:E; [|discriminate].
      apply id3_eqb_eq in E. injection H as <-. destruct W. unfold wf_grid. cbn. split; [split|]; congruence.
    - unfold outlier_removal in H.
      destruct (mode =? 0)%N; [injection H as <-; unfold wf_grid in *; cbn; tauto|].
      destruct (mode =? 1)%N; [injection H as <-; unfold wf_grid in *; cbn; tauto|].
      destruct (mode =? 2)%N; [|discriminate].
      apply bind_val in H. destruct H as [d [Hd H]]. apply bind_val in H. destruct H as [w [Hw H]].
      injection H as <-. apply build3_val in Hd, Hw. destruct Hd as [Hd _], Hw as [Hw _], W.
      unfold wf_grid. cbn. split; [split|]; congruence.
  Qed.

  Lemma ghist_wf bld ops (g g' : grid F) : Forall (gop_ok (geom_cells (geo g))) ops ->
    mfold (gstep bld) ops g = Val g' -> wf_grid g -> wf_grid g' /\ geo g' = geo g.
  Proof.
    revert g; induction ops as [|o ops IH]; intros g Hok H W; cbn in H; [injection H as <-; auto|].
    inversion Hok as [|? ? Ho Hops]; subst. apply bind_val in H. destruct H as [g1 [H1 H]].
    destruct (gstep_wf _ _ _ _ Ho H1 W) as [W1 G1].
    rewrite <- G1 in Hops. destruct (IH g1 Hops H W1) as [W2 G2]. split; congruence || auto.
  Qed.

  Lemma cart_new_wf cells lim g : cart_new cells lim = Val g -> wf_grid g.
  Proof.
    unfold cart_new. destruct lim as [l|l|l]; try discriminate.
    destruct l as [[[x0 x1] [y0 y1]] [z0 z1]], cells as [[nx ny] nz].
    intros [= <-]. split; reflexivity.
  Qed.
  Lemma cyl_new_wf cells lim b g : cyl_new cells lim b = Val g -> wf_grid g.
  Proof.
    unfold cyl_new. destruct b; [|discriminate]. destruct lim as [l|l|l]; try discriminate.
    destruct l as [[[x0 x1] [y0 y1]] [z0 z1]], cells as [[nx ny] nz].
    intros [= <-]. split; reflexivity.
  Qed.
End Facts.
