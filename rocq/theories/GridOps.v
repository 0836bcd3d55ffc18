(** * Reductions, slices, outlier removal, division (proofs only). *)
From Coq Require Import Reals List NArith ZArith Lia Lra Psatz Bool Permutation ZifyBool ZifyN.
From Flocq Require Import Core.Core IEEE754.BinarySingleNaN.
From Verif Require Import Base BaseFacts Num F64Facts RFacts NDArray GridModel GridSpec GridFacts CartProofs CartR.



Section Generic.
  Context {F : Type} {NF : Num F} {TF : Trig F}.

  (** ** collapse *)
  Definition wfix (g : grid F) : F -> F := if is_cylindrical (geo g) then nan0 else (fun x => x).

  Lemma fold_collapse axis sh (d w : arr3 F) (wf : F -> F) ks acc :
    let step := fun (acc : arr2 F * arr2 F) (k : N) =>
      (zip2 nadd (fst acc) (zip2 nmul (map2 nan0 (plane axis sh d k)) (map2 wf (plane axis sh w k))),
       zip2 nadd (snd acc) (map2 wf (plane axis sh w k))) in
    let r := fold_left step ks acc in
    sh2 (fst r) = sh2 (fst acc) /\ sh2 (snd r) = sh2 (snd acc) /\
    forall ij, at2 (fst r) ij = fold_left (fun s k => nadd s (nmul (nan0 (at3 d (lane axis ij k))) (wf (at3 w (lane axis ij k))))) ks (at2 (fst acc) ij)
      /\ at2 (snd r) ij = fold_left (fun s k => nadd s (wf (at3 w (lane axis ij k)))) ks (at2 (snd acc) ij).
  Proof.
    cbv zeta. revert acc; induction ks as [|k ks IH]; intros acc; cbn [fold_left]; [auto|].
    destruct (IH (zip2 nadd (fst acc) (zip2 nmul (map2 nan0 (plane axis sh d k)) (map2 wf (plane axis sh w k))),
       zip2 nadd (snd acc) (map2 wf (plane axis sh w k)))) as [H1 [H2 H3]].
    split; [exact H1|]. split; [exact H2|]. intros ij. exact (H3 ij).
  Qed.

  Lemma fold_collapse_w axis sh (w : arr3 F) ks acc :
    let r := fold_left (fun acc k => zip2 nadd acc (plane axis sh w k)) ks acc in
    sh2 r = sh2 acc /\
    forall ij, at2 r ij = fold_left (fun s k => nadd s (at3 w (lane axis ij k))) ks (at2 acc ij).
  Proof.
    cbv zeta. revert acc; induction ks as [|k ks IH]; intros acc; cbn [fold_left]; [auto|].
    destruct (IH (zip2 nadd acc (plane axis sh w k))) as [H1 H2].
    split; [exact H1|]. intros ij. exact (H2 ij).
  Qed.

  Lemma remove_axis_ok axis sh : (axis <= 2)%N ->
    exists s n, remove_axis axis sh = Val s /\ v3get sh axis = Val n /\
      (forall i j k, inb3 sh (lane axis (i, j) k) = true <-> (i < fst s /\ j < snd s /\ k < n)%N).
  Proof.
    intros H. destruct sh as [[a b] c]. unfold remove_axis, v3get, lane.
    assert (D : axis = 0%N \/ axis = 1%N \/ axis = 2%N) by lia.
    destruct D as [-> | [-> | ->]]; cbn [N.eqb Pos.eqb]; do 2 eexists; (split; [reflexivity|]; split; [reflexivity|]);
      intros; rewrite inb3_lt; cbn [fst snd]; lia.
  Qed.

  Lemma collapse_val (g : grid F) axis : wf_grid g -> (axis <= 2)%N ->
    exists a n, collapse g axis = Val a /\ v3get (sh3 (data g)) axis = Val n /\
      remove_axis axis (sh3 (data g)) = Val (sh2 a) /\
      forall ij, at2 a ij =
        ndiv (fold_left (fun s k => nadd s (nmul (nan0 (at3 (data g) (lane axis ij k))) (wfix g (at3 (weight g) (lane axis ij k))))) (range 0 n) n0)
             (fold_left (fun s k => nadd s (wfix g (at3 (weight g) (lane axis ij k)))) (range 0 n) n0).
  Proof.
    intros [W1 W2] Ha. destruct (remove_axis_ok axis (sh3 (data g)) Ha) as [s [n [E1 [E2 _]]]].
    unfold collapse. rewrite W2, <- W1, E1, E2. cbn [bind]. rewrite !N.eqb_refl. cbn [andb negb].
    rewrite N.min_id. fold (wfix g).
    match goal with |- context [fold_left ?st ?ks ?ac] =>
      destruct (fold_collapse axis s (data g) (weight g) (wfix g) ks ac) as [H1 [H2 H3]];
      cbv zeta in H1, H2, H3; destruct (fold_left st ks ac) as [r w] end.
    cbn [fst snd] in *. do 2 eexists. split; [reflexivity|]. split; [reflexivity|].
    split; [cbn; rewrite H1; reflexivity|]. intros ij. cbn [at2 zip2].
    destruct (H3 ij) as [-> ->]. reflexivity.
  Qed.

  Lemma collapse_panic (g : grid F) axis : (2 < axis)%N ->
    collapse g axis = Panic /\ collapse_weight g axis = Panic.
  Proof.
    intros H. unfold collapse, collapse_weight, remove_axis.
    destruct (sh3 (data g)) as [[a b] c].
    destruct (N.eqb_spec axis 0), (N.eqb_spec axis 1), (N.eqb_spec axis 2); try lia. split; reflexivity.
  Qed.

  Lemma collapse_weight_val (g : grid F) axis : wf_grid g -> (axis <= 2)%N ->
    exists a n, collapse_weight g axis = Val a /\ v3get (sh3 (weight g)) axis = Val n /\
      remove_axis axis (sh3 (weight g)) = Val (sh2 a) /\
      forall ij, at2 a ij = fold_left (fun s k => nadd s (at3 (weight g) (lane axis ij k))) (range 0 n) n0.
  Proof.
    intros [W1 W2] Ha. destruct (remove_axis_ok axis (sh3 (data g)) Ha) as [s [n [E1 [E2 _]]]].
    unfold collapse_weight. rewrite W2, <- W1, E1, E2. cbn [bind].
    destruct (fold_collapse_w axis s (weight g) (range 0 n) (zeros2 s)) as [H1 H2].
    do 2 eexists. split; [reflexivity|]. split; [reflexivity|]. split; [rewrite H1; reflexivity|].
    intros ij. rewrite H2. reflexivity.
  Qed.

  Lemma order_axes_comm a b : order_axes a b = order_axes b a.
  Proof.
    unfold order_axes. rewrite (N.eqb_sym b a). destruct (N.eqb_spec a b); [reflexivity|].
    destruct (N.ltb_spec b a), (N.ltb_spec a b); try lia; reflexivity.
  Qed.

  Lemma collapse_two_comm (g : grid F) a b : collapse_two g a b = collapse_two g b a.
  Proof. unfold collapse_two. now rewrite order_axes_comm. Qed.
  Lemma collapse_two_weight_comm (g : grid F) a b : collapse_two_weight g a b = collapse_two_weight g b a.
  Proof. unfold collapse_two_weight. now rewrite order_axes_comm. Qed.
  Lemma collapse_two_same (g : grid F) a : collapse_two g a a = Panic /\ collapse_two_weight g a a = Panic.
  Proof. unfold collapse_two, collapse_two_weight, order_axes. rewrite N.eqb_refl. split; reflexivity. Qed.

  (** ** slices *)
  Lemma slice_idx_val (g : grid F) axis k : (axis <= 2)%N ->
    exists n, v3get (sh3 (data g)) axis = Val n /\
    ((k < n)%N -> exists a, slice_idx g axis k = Val a /\
        remove_axis axis (sh3 (data g)) = Val (sh2 a) /\
        forall i j, at2 a (i, j) = at3 (data g) (lane axis (i, j) k)) /\
    ((n <= k)%N -> (k + n < 2 ^ 64)%N -> slice_idx g axis k = Panic) /\
    ((n <= 2 ^ 63)%N -> (k < n)%N -> slice_idx g axis (2 ^ 64 - n + k) = slice_idx g axis k).
  Proof.
    intros Ha. destruct (remove_axis_ok axis (sh3 (data g)) Ha) as [s [n [E1 [E2 _]]]].
    exists n. split; [exact E2|]. unfold slice_idx. rewrite E1, E2. cbn [bind].
    split; [|split]; intros Hk; [|intros Hn..].
    - rewrite (s_index_in n k Hk). eexists. split; [reflexivity|]. split; reflexivity.
    - rewrite (s_index_out n k Hk Hn). reflexivity.
    - rewrite (s_index_in n k Hn), (s_index_end n k Hk Hn). reflexivity.
  Qed.
  Lemma slice_idx_panic (g : grid F) axis k : (2 < axis)%N -> slice_idx g axis k = Panic.
  Proof.
    intros H. unfold slice_idx, remove_axis. destruct (sh3 (data g)) as [[a b] c].
    destruct (N.eqb_spec axis 0), (N.eqb_spec axis 1), (N.eqb_spec axis 2); try lia. reflexivity.
  Qed.

  (** ** outlier removal, mode 2 *)
  Lemma move_release o i : exists j, move Release o i = Val j.
  Proof.
    destruct o; cbn; eauto. unfold usub. destruct (1 <=? i)%N; eauto.
  Qed.

  Definition rmove (o : off) (i : N) : N :=
    match o with ODn => if (1 <=? i)%N then i - 1 else i + usize_modulus - 1 | OEq => i | OUp => i + 1 end%N.
  Definition rmove3 (o : off * off * off) (i : id3) : id3 :=
    let '(o0, o1, o2) := o in let '(i0, i1, i2) := i in (rmove o0 i0, rmove o1 i1, rmove o2 i2).

  Lemma move_rmove o i : move Release o i = Val (rmove o i).
  Proof. destruct o; cbn; try reflexivity. unfold usub. destruct (1 <=? i)%N; reflexivity. Qed.
  Lemma move3_rmove o i : move3 Release o i = Val (rmove3 o i).
  Proof. destruct o as [[o0 o1] o2], i as [[i0 i1] i2]. unfold move3. now rewrite !move_rmove. Qed.

  Lemma mmap_rmove i : mmap (fun o => move3 Release o i) offsets = Val (map (fun o => rmove3 o i) offsets).
  Proof. apply mmap_val. intros o _. apply move3_rmove. Qed.


  (** One axis: the moves that stay inside are exactly the near indices. *)
  Lemma rmove_in s o i : (s < usize_modulus)%N -> (i < s)%N -> (rmove o i < s)%N ->
    near i (rmove o i) = true /\ (rmove o i = i <-> o = OEq).
  Proof.
    intros Hs Hi. unfold rmove, near. destruct o.
    - destruct (N.leb_spec 1 i); intros H1; [|lia]. split; [lia|]. split; [lia | discriminate].
    - intros _. split; [lia|]. tauto.
    - intros H1. split; [lia|]. split; [lia | discriminate].
  Qed.
  Lemma near_move s i j : (i < s)%N -> (j < s)%N -> near i j = true -> exists o, rmove o i = j.
  Proof.
    unfold near. intros Hi Hj H.
    destruct (N.lt_trichotomy j i) as [L|[L|L]].
    - exists ODn. cbn. destruct (N.leb_spec 1 i); lia.
    - exists OEq. cbn. lia.
    - exists OUp. cbn. lia.
  Qed.

  Lemma offsets_all o : In o offsets <-> o <> (OEq, OEq, OEq).
  Proof.
    destruct o as [[[| |] [| |]] [| |]];
      (split; [intros H E; try discriminate E; cbv in H; repeat (destruct H as [H|H]; [discriminate H|]); exact H
              |intros H; try (exfalso; apply H; reflexivity); unfold offsets; repeat (left; reflexivity) || right]).
    all: cbn [In]; auto 40.
  Qed.

  Lemma rmove_inj s o o' i : (s < usize_modulus)%N -> (i < s)%N -> (rmove o i < s)%N ->
    rmove o i = rmove o' i -> o = o'.
  Proof.
    unfold rmove. intros Hs Hi. destruct o, o'; try reflexivity;
      destruct (N.leb_spec 1 i); intros; lia.
  Qed.

  Lemma offsets_NoDup : NoDup offsets.
  Proof. unfold offsets. repeat (constructor; [cbn; intuition congruence|]). constructor. Qed.

  Lemma NoDup_map_filter {A B} (f : A -> B) (p : B -> bool) l :
    NoDup l -> (forall x y, In x l -> In y l -> p (f x) = true -> f x = f y -> x = y) ->
    NoDup (filter p (map f l)).
  Proof.
    induction l as [|a l IH]; intros Hn Hf; cbn; [constructor|].
    inversion Hn as [|? ? Ha Hl]; subst.
    assert (G : NoDup (filter p (map f l))) by (apply IH; auto; intros; apply Hf; auto; now right).
    destruct (p (f a)) eqn:E; [|exact G]. constructor; [|exact G].
    rewrite filter_In, in_map_iff. intros [[x [Hx Hin]] _].
    apply Ha. rewrite (Hf a x); auto; [now left | now right].
  Qed.

  Lemma neighbours_perm sh i : fits sh -> inb3 sh i = true ->
    Permutation (filter (inb3 sh) (map (fun o => rmove3 o i) offsets))
                (filter (adjacent i) (ids3 sh)).
  Proof.
    intros Hf Hi. apply NoDup_Permutation.
    - apply NoDup_map_filter; [apply offsets_NoDup|].
      intros o o' _ _. destruct o as [[o0 o1] o2], o' as [[q0 q1] q2], i as [[i0 i1] i2], sh as [[a b] c].
      unfold rmove3. rewrite !inb3_lt in *. unfold fits in Hf.
      intros [L0 [L1 L2]] [= E0 E1 E2].
      rewrite (rmove_inj a o0 q0 i0), (rmove_inj b o1 q1 i1), (rmove_inj c o2 q2 i2); try tauto; reflexivity.
    - apply NoDup_filter, ids3_NoDup.
    - intros j. rewrite !filter_In, in_map_iff, in_ids3. split.
      + intros [[o [<- Ho]] Hj]. split; [exact Hj|]. apply offsets_all in Ho.
        destruct o as [[o0 o1] o2], i as [[i0 i1] i2], sh as [[a b] c].
        unfold rmove3 in *. rewrite !inb3_lt in *. unfold fits in Hf. cbn [adjacent].
        destruct (rmove_in a o0 i0) as [N0 E0]; try tauto.
        destruct (rmove_in b o1 i1) as [N1 E1]; try tauto.
        destruct (rmove_in c o2 i2) as [N2 E2]; try tauto.
        rewrite N0, N1, N2. cbn [andb]. apply negb_true_iff, id3_eqb_neq.
        intros [= X0 X1 X2]. apply Ho. symmetry in X0, X1, X2.
        apply E0 in X0. apply E1 in X1. apply E2 in X2. congruence.
      + intros [Hj Ha]. split; [|exact Hj].
        destruct j as [[j0 j1] j2], i as [[i0 i1] i2], sh as [[a b] c].
        rewrite !inb3_lt in *. unfold fits in Hf. cbn [adjacent] in Ha.
        apply andb_true_iff in Ha. destruct Ha as [Ha Hne].
        apply andb_true_iff in Ha. destruct Ha as [Ha A2]. apply andb_true_iff in Ha. destruct Ha as [A0 A1].
        destruct (near_move a i0 j0) as [o0 E0]; try tauto.
        destruct (near_move b i1 j1) as [o1 E1]; try tauto.
        destruct (near_move c i2 j2) as [o2 E2]; try tauto.
        exists (o0, o1, o2). split; [cbn; congruence|]. apply offsets_all.
        intros [= -> -> ->]. cbn in E0, E1, E2. subst.
        rewrite id3_eqb_refl in Hne. discriminate.
  Qed.

  (** The running sums of the neighbour loop. *)
  Lemma neighbour_sums_spec (g : grid F) skip thr js :
    let use := filter (fun j => negb (skip && nltb thr (at3 (data g) j))) (filter (inb3 (sh3 (data g))) js) in
    neighbour_sums g skip thr js =
      (fold_left nadd (map (at3 (data g)) use) n0,
       fold_left nadd (map (at3 (weight g)) use) n0,
       fold_left (fun c _ => nadd c n1) use n0).
  Proof.
    cbv zeta. unfold neighbour_sums. generalize (n0 : F) at 1 4 as s. generalize (n0 : F) at 1 3 as w.
    generalize (n0 : F) as c.
    induction js as [|j js IH]; intros c w s; cbn [fold_left filter map]; [reflexivity|].
    destruct (inb3 (sh3 (data g)) j) eqn:E1; [|apply IH].
    cbn [filter]. destruct (skip && nltb thr (at3 (data g) j)) eqn:E2; cbn [negb map fold_left]; apply IH.
  Qed.

  (** Release builds: the value written into one cell. *)
  Lemma outlier_cell_release (g : grid F) thr i :
    wf_grid g -> fits (geom_cells (geo g)) -> inb3 (geom_cells (geo g)) i = true ->
    nltb thr (at3 (data g) i) = true ->
    let keep := fun j => negb (negb (is_cylindrical (geo g)) && nltb thr (at3 (data g) j)) in
    exists use, Permutation use (filter keep (filter (adjacent i) (ids3 (geom_cells (geo g))))) /\
      outlier_cell Release g thr i =
        Val (ndiv (fold_left nadd (map (at3 (data g)) use) n0) (fold_left (fun c _ => nadd c n1) use n0),
             ndiv (fold_left nadd (map (at3 (weight g)) use) n0) (fold_left (fun c _ => nadd c n1) use n0)).
  Proof.
    intros [W1 W2] Hf Hi Ho keep. unfold outlier_cell. rewrite Ho, mmap_rmove. cbn [bind].
    rewrite neighbour_sums_spec. rewrite W1.
    exists (filter keep (filter (inb3 (geom_cells (geo g))) (map (fun o => rmove3 o i) offsets))).
    split; [|reflexivity].
    assert (P : forall l l', Permutation l l' -> Permutation (filter keep l) (filter keep l')).
    { induction 1 as [|x l l' _ IH|x y l|l l' l'' _ IH1 _ IH2]; cbn.
      - constructor.
      - destruct (keep x); [now constructor | assumption].
      - destruct (keep x), (keep y); try apply Permutation_refl. constructor.
      - eapply Permutation_trans; eauto. }
    apply P. now apply neighbours_perm.
  Qed.

  Lemma outlier_cell_keep bld (g : grid F) thr i : nltb thr (at3 (data g) i) = false ->
    outlier_cell bld g thr i = Val (at3 (data g) i, at3 (weight g) i).
  Proof. intros H. unfold outlier_cell. now rewrite H. Qed.


  Lemma outlier_cell_debug_panic (g : grid F) thr i :
    nltb thr (at3 (data g) i) = true -> on_lower_border i -> outlier_cell Debug g thr i = Panic.
  Proof.
    intros Ho Hb. unfold outlier_cell. rewrite Ho.
    assert (E : mmap (fun o => move3 Debug o i) offsets = Panic); [|now rewrite E].
    unfold offsets. cbn [mmap]. destruct i as [[a b] c].
    assert (E : move3 Debug (ODn, ODn, ODn) (a, b, c) = Panic); [|now rewrite E].
    unfold move3, move. cbn in Hb.
    destruct Hb as [-> | [-> | ->]]; [reflexivity| |].
    - unfold usub. destruct (1 <=? a)%N; reflexivity.
    - unfold usub. destruct (1 <=? a)%N; cbn [bind]; [|reflexivity]. destruct (1 <=? b)%N; reflexivity.
  Qed.

  Lemma outlier_cell_debug_ok (g : grid F) thr i :
    ~ on_lower_border i -> outlier_cell Debug g thr i = outlier_cell Release g thr i.
  Proof.
    intros Hb. unfold outlier_cell. destruct (nltb thr (at3 (data g) i)); [|reflexivity].
    assert (E : forall o, move3 Debug o i = move3 Release o i).
    { intros [[o0 o1] o2]. destruct i as [[a b] c]. cbn in Hb.
      assert (M : forall o x, x <> 0%N -> move Debug o x = move Release o x).
      { intros o x Hx. destruct o; cbn; try reflexivity. rewrite !usub_ge by lia. reflexivity. }
      unfold move3. rewrite (M o0 a), (M o1 b), (M o2 c) by tauto. reflexivity. }
    assert (E2 : forall l, mmap (fun o => move3 Debug o i) l = mmap (fun o => move3 Release o i) l).
    { induction l as [|o l IH]; cbn; [reflexivity|]. now rewrite E, IH. }
    now rewrite E2.
  Qed.

  Lemma outlier2_val bld (g g' : grid F) thr : outlier_removal bld g thr 2 = Val g' ->
    geo g' = geo g /\ sh3 (data g') = sh3 (data g) /\ sh3 (weight g') = sh3 (data g) /\
    forall i, inb3 (sh3 (data g)) i = true ->
      outlier_cell bld g thr i = Val (at3 (data g') i, at3 (weight g') i).
  Proof.
    unfold outlier_removal. cbn [N.eqb Pos.eqb]. intros H.
    apply bind_val in H. destruct H as [d [Hd H]]. apply bind_val in H. destruct H as [w [Hw H]].
    injection H as <-. apply build3_val in Hd, Hw. destruct Hd as [Sd Hd], Hw as [Sw Hw].
    cbn. split; [reflexivity|]. split; [exact Sd|]. split; [exact Sw|]. intros i Hi.
    specialize (Hd i Hi). specialize (Hw i Hi). unfold bind in Hd, Hw.
    destruct (outlier_cell bld g thr i) as [[x y]|]; [|discriminate].
    cbn in Hd, Hw. congruence.
  Qed.

  Lemma outlier2_ok bld (g : grid F) thr :
    (forall i, inb3 (sh3 (data g)) i = true -> exists r, outlier_cell bld g thr i = Val r) ->
    exists g', outlier_removal bld g thr 2 = Val g'.
  Proof.
    intros H. unfold outlier_removal. cbn [N.eqb Pos.eqb].
    destruct (build3_ok (sh3 (data g)) (fun i => let! r := outlier_cell bld g thr i in Val (fst r))) as [d Ed].
    { intros i Hi. destruct (H i Hi) as [r ->]. cbn. eauto. }
    destruct (build3_ok (sh3 (data g)) (fun i => let! r := outlier_cell bld g thr i in Val (snd r))) as [w Ew].
    { intros i Hi. destruct (H i Hi) as [r ->]. cbn. eauto. }
    rewrite Ed. cbn [bind]. rewrite Ew. cbn [bind]. eauto.
  Qed.

  Lemma outlier2_release_total (g : grid F) thr : exists g', outlier_removal Release g thr 2 = Val g'.
  Proof.
    apply outlier2_ok. intros i _. unfold outlier_cell.
    destruct (nltb thr (at3 (data g) i)); [|eauto].
    rewrite mmap_rmove. cbn [bind]. destruct neighbour_sums as [[s w] c]. eauto.
  Qed.

  Lemma outlier2_debug_panic_iff (g : grid F) thr :
    outlier_removal Debug g thr 2 = Panic <->
    exists i, inb3 (sh3 (data g)) i = true /\ nltb thr (at3 (data g) i) = true /\ on_lower_border i.
  Proof.
    split.
    - intros H.
      destruct (Exists_dec (fun i => nltb thr (at3 (data g) i) = true /\ on_lower_border i) (ids3 (sh3 (data g)))) as [E|E].
      { intros i. destruct (nltb thr (at3 (data g) i)); [|right; intros [? _]; discriminate].
        destruct i as [[a b] c]. unfold on_lower_border.
        destruct (N.eq_dec a 0), (N.eq_dec b 0), (N.eq_dec c 0); (left; tauto) || (right; tauto). }
      + apply Exists_exists in E. destruct E as [i [Hi [H1 H2]]]. exists i. rewrite <- in_ids3. auto.
      + exfalso. destruct (outlier2_ok Debug g thr) as [g' Eg]; [|congruence].
        intros i Hi. destruct (nltb thr (at3 (data g) i)) eqn:Ho.
        * rewrite outlier_cell_debug_ok.
          -- unfold outlier_cell. rewrite Ho, mmap_rmove. cbn [bind]. destruct neighbour_sums as [[s w] c]. eauto.
          -- intros Hb. apply E. apply Exists_exists. exists i. rewrite in_ids3. auto.
        * unfold outlier_cell. rewrite Ho. eauto.
    - intros [i [Hi [Ho Hb]]]. unfold outlier_removal. cbn [N.eqb Pos.eqb].
      rewrite (build3_panic _ _ i Hi); [reflexivity|]. now rewrite outlier_cell_debug_panic.
  Qed.

  (** ** division *)
  Lemma divide_by_weight_val (g : grid F) : wf_grid g ->
    exists g', divide_by_weight g = Val g' /\ wf_grid g' /\ geo g' = geo g /\ weight g' = weight g /\
      forall c, inb3 (geom_cells (geo g)) c = true -> at3 (data g') c = ndiv (at3 (data g) c) (at3 (weight g) c).
  Proof.
    intros [W1 W2]. unfold divide_by_weight. rewrite zip3_same by congruence. cbn [bind].
    eexists. split; [reflexivity|]. split; [split; cbn; congruence|]. split; [reflexivity|].
    split; [reflexivity|]. intros c Hc. cbn [with_data data at3]. rewrite W1, bidx3_in by exact Hc. reflexivity.
  Qed.
End Generic.
