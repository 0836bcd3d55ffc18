(** * Reductions in ideal arithmetic, outlier removal modes 0 and 1 (proofs only). *)
From Coq Require Import Reals List NArith ZArith Lia Lra Psatz Bool Permutation ZifyBool ZifyN.
From Flocq Require Import Core.Core IEEE754.BinarySingleNaN.
From Verif Require Import Base BaseFacts Num F64Facts RFacts NDArray GridModel GridSpec GridFacts CartProofs CartR GridOps.

Local Open Scope R_scope.



Lemma id2_eqb_eq a b : id2_eqb a b = true <-> a = b.
Proof.
  destruct a, b. unfold id2_eqb. cbn [fst snd]. rewrite andb_true_iff, !N.eqb_eq.
  split; [intros [-> ->]; reflexivity | intros [= -> ->]; auto].
Qed.

Lemma axis_cases axis : (axis <= 2)%N -> axis = 0%N \/ axis = 1%N \/ axis = 2%N.
Proof. lia. Qed.

Lemma line_perm sh axis s n ij : (axis <= 2)%N -> remove_axis axis sh = Val s -> v3get sh axis = Val n ->
  inb2 s ij = true ->
  Permutation (map (lane axis ij) (range 0 n)) (line sh axis ij).
Proof.
  intros Ha Hs Hn Hij. destruct ij as [i j]. unfold inb2 in Hij. cbn [fst snd] in Hij.
  destruct sh as [[a b] c].
  apply NoDup_Permutation.
  - apply FinFun.Injective_map_NoDup; [|apply range_NoDup].
    intros x y. unfold lane. destruct (axis =? 0)%N, (axis =? 1)%N; congruence.
  - apply NoDup_filter, ids3_NoDup.
  - intros x. unfold line. rewrite filter_In, in_map_iff, in_ids3, id2_eqb_eq.
    destruct (axis_cases axis Ha) as [-> | [-> | ->]]; cbn [remove_axis v3get N.eqb Pos.eqb lane drop] in *;
      injection Hs as <-; injection Hn as <-; cbn [fst snd] in Hij;
      (split;
       [ intros [k [<- Hk]]; apply in_range in Hk; rewrite inb3_lt; cbn [drop N.eqb Pos.eqb]; split; [lia | reflexivity]
       | destruct x as [[x0 x1] x2]; rewrite inb3_lt; cbn [drop N.eqb Pos.eqb]; intros [H1 [= -> ->]];
         eexists; split; [reflexivity | apply in_range; lia]]).
Qed.


Section RGrid2.
  Context {TF : Trig R}.

  Lemma Rsum_line sh axis s n ij (f : id3 -> R) : (axis <= 2)%N -> remove_axis axis sh = Val s ->
    v3get sh axis = Val n -> inb2 s ij = true ->
    Rsum (map (fun k => f (lane axis ij k)) (range 0 n)) = Rsum (map f (line sh axis ij)).
  Proof.
    intros Ha Hs Hn Hij. rewrite <- (map_map (lane axis ij) f).
    apply Rsum_perm, Permutation_map. eapply line_perm; eauto.
  Qed.

  Lemma nan0_R (x : R) : nan0 x = x. Proof. reflexivity. Qed.
  Lemma wfix_R (g : grid R) x : wfix g x = x.
  Proof. unfold wfix. destruct is_cylindrical; reflexivity. Qed.

  Lemma collapse_R (g : grid R) axis : wf_grid g -> (axis <= 2)%N ->
    exists a, collapse g axis = Val a /\
      remove_axis axis (geom_cells (geo g)) = Val (sh2 a) /\
      forall ij, inb2 (sh2 a) ij = true ->
        at2 a ij = Rsum (map (fun c => at3 (data g) c * at3 (weight g) c) (line (geom_cells (geo g)) axis ij)) /
                   Rsum (map (at3 (weight g)) (line (geom_cells (geo g)) axis ij)).
  Proof.
    intros W Ha. destruct (collapse_val g axis W Ha) as [a [n [E [En [Es H]]]]].
    destruct W as [W1 W2]. rewrite W1 in En, Es. exists a. split; [exact E|]. split; [exact Es|].
    intros ij Hij. rewrite H.
    cbn [nadd nmul ndiv num_R]. change (n0 : R) with 0.
    rewrite (fold_left_Rplus_map (fun k => at3 (data g) (lane axis ij k) * wfix g (at3 (weight g) (lane axis ij k)))).
    rewrite (fold_left_Rplus_map (fun k => wfix g (at3 (weight g) (lane axis ij k)))).
    rewrite !Rplus_0_l.
    rewrite <- (Rsum_line _ _ _ _ _ (fun c => at3 (data g) c * at3 (weight g) c) Ha Es En Hij).
    rewrite <- (Rsum_line _ _ _ _ _ (at3 (weight g)) Ha Es En Hij).
    f_equal; apply Rsum_ext; intros k _; rewrite wfix_R; reflexivity.
  Qed.

  Lemma collapse_weight_R (g : grid R) axis : wf_grid g -> (axis <= 2)%N ->
    exists a, collapse_weight g axis = Val a /\
      remove_axis axis (geom_cells (geo g)) = Val (sh2 a) /\
      forall ij, inb2 (sh2 a) ij = true ->
        at2 a ij = Rsum (map (at3 (weight g)) (line (geom_cells (geo g)) axis ij)).
  Proof.
    intros W Ha. destruct (collapse_weight_val g axis W Ha) as [a [n [E [En [Es H]]]]].
    destruct W as [W1 W2]. rewrite W2 in En, Es. exists a. split; [exact E|]. split; [exact Es|].
    intros ij Hij. rewrite H.
    cbn [nadd num_R]. change (n0 : R) with 0.
    rewrite (fold_left_Rplus_map (fun k => at3 (weight g) (lane axis ij k))), Rplus_0_l.
    now rewrite <- (Rsum_line _ _ _ _ _ (at3 (weight g)) Ha Es En Hij).
  Qed.

  (** Planes as unions of lines. *)
  Lemma plane_perm sh a b s n ij0 : (a <= 1)%N -> (b <= 1)%N -> (a <= b)%N -> remove_axis a sh = Val s ->
    v3get sh a = Val n -> (ij0 < len2 (1 - b) s)%N ->
    Permutation (flat_map (fun k => map (lane a (lane2 b ij0 k)) (range 0 n)) (range 0 (len2 b s)))
                (plane_cells sh (other_axis a (b + 1)) ij0).
  Proof.
    intros Ha Hb Hab Hs Hn Hi. destruct sh as [[x y] z].
    apply NoDup_Permutation.
    - apply NoDup_flat_map.
      + apply range_NoDup.
      + intros k _. apply FinFun.Injective_map_NoDup; [|apply range_NoDup].
        intros u v. unfold lane. destruct (lane2 b ij0 k), (a =? 0)%N, (a =? 1)%N; congruence.
      + intros k k' u H1 H2. apply in_map_iff in H1, H2.
        destruct H1 as [l [<- _]], H2 as [l' [E _]]. revert E. unfold lane, lane2.
        destruct (b =? 0)%N, (a =? 0)%N, (a =? 1)%N; congruence.
    - apply NoDup_filter, ids3_NoDup.
    - intros u. unfold plane_cells. rewrite filter_In, in_flat_map, in_ids3, N.eqb_eq.
      assert (D : (a = 0 /\ b = 0 \/ a = 0 /\ b = 1 \/ a = 1 /\ b = 1)%N) by lia.
      destruct u as [[u0 u1] u2].
      destruct D as [[-> ->] | [[-> ->] | [-> ->]]]; unfold other_axis, lane2, len2 in *;
        cbn [remove_axis v3get N.eqb Pos.eqb N.sub N.add Pos.add Pos.succ Pos.sub_mask Pos.double_mask Pos.succ_double_mask Pos.double_pred_mask Pos.pred_double coord] in *;
        injection Hs as <-; injection Hn as <-; cbn [fst snd] in *; rewrite inb3_lt;
        (split;
         [ intros [k [Hk H]]; apply in_map_iff in H; destruct H as [l [E Hl]]; cbn in E; injection E as <- <- <-;
           apply in_range in Hk, Hl; cbn; split; [lia | reflexivity]
         | cbn; intros [H1 ->];
           match goal with |- context [_ = (?A, ?B, ?C)] => idtac | _ => idtac end ]).
      + exists u1. split; [apply in_range; lia|]. apply in_map_iff. exists u0. split; [reflexivity | apply in_range; lia].
      + exists u2. split; [apply in_range; lia|]. apply in_map_iff. exists u0. split; [reflexivity | apply in_range; lia].
      + exists u2. split; [apply in_range; lia|]. apply in_map_iff. exists u1. split; [reflexivity | apply in_range; lia].
  Qed.

  Lemma Rsum_plane sh a b s n i (f : id3 -> R) : (a <= 1)%N -> (b <= 1)%N -> (a <= b)%N -> remove_axis a sh = Val s ->
    v3get sh a = Val n -> (i < len2 (1 - b) s)%N ->
    Rsum (map (fun k => Rsum (map f (line sh a (lane2 b i k)))) (range 0 (len2 b s))) =
    Rsum (map f (plane_cells sh (other_axis a (b + 1)) i)).
  Proof.
    intros Ha Hb Hab Hs Hn Hi.
    rewrite <- (Rsum_perm _ _ (Permutation_map f (plane_perm sh a b s n i Ha Hb Hab Hs Hn Hi))).
    rewrite Rsum_flat_map. apply Rsum_ext. intros k Hk. apply in_range in Hk.
    rewrite map_map. rewrite <- (Rsum_line sh a s n (lane2 b i k) f); [reflexivity | lia | assumption | assumption |].
    unfold inb2, lane2, len2 in *. destruct (N.eqb_spec b 0) as [->|Hb0]; cbn [fst snd N.eqb N.sub] in *.
    - change (1 - 0)%N with 1%N in Hi. cbn [N.eqb Pos.eqb] in Hi. lia.
    - assert (b = 1)%N by lia. subst. cbn in Hi. lia.
  Qed.

  Lemma order_axes_val a1 a2 : (a1 <= 2)%N -> (a2 <= 2)%N -> a1 <> a2 ->
    exists a b, order_axes a1 a2 = Val (a, b) /\ (a <= 1)%N /\ (b <= 1)%N /\ (a <= b)%N /\
      other_axis a (b + 1) = other_axis a1 a2 /\
      (forall sh s, remove_axis a sh = Val s -> v3get sh (other_axis a1 a2) = Val (len2 (1 - b) s)).
  Proof.
    intros H1 H2 H3. destruct (axis_cases a1 H1) as [-> | [-> | ->]], (axis_cases a2 H2) as [-> | [-> | ->]];
      try (exfalso; apply H3; reflexivity); do 2 eexists; (split; [reflexivity|]);
      (split; [cbn; lia|]); (split; [cbn; lia|]); (split; [cbn; lia|]); (split; [reflexivity|]);
      intros [[x y] z] s H; cbn in H; injection H as <-; reflexivity.
  Qed.

  Lemma in_line sh axis ij c : In c (line sh axis ij) -> inb3 sh c = true.
  Proof. unfold line. rewrite filter_In, in_ids3. tauto. Qed.

  Lemma zero_weights l (d w : id3 -> R) : (forall c, In c l -> 0 <= w c) -> Rsum (map w l) = 0 ->
    Rsum (map (fun c => d c * w c) l) = 0.
  Proof.
    intros Hw H0. apply Rsum_zero. intros c Hc.
    enough (w c = 0) by nra.
    revert Hw H0 Hc. induction l as [|x l IH]; intros Hw H0 Hc; [easy|].
    rs. assert (P : 0 <= Rsum (map w l)) by (apply Rsum_nonneg; intros; apply Hw; now right).
    assert (Q := Hw x (or_introl eq_refl)).
    destruct Hc as [->|Hc]; [lra|]. apply IH; auto; [|lra]. intros; apply Hw; now right.
  Qed.

  Lemma collapse_two_R (g : grid R) a1 a2 : wf_grid g -> (a1 <= 2)%N -> (a2 <= 2)%N -> a1 <> a2 ->
    (forall c, inb3 (geom_cells (geo g)) c = true -> 0 <= at3 (weight g) c) ->
    exists l m, collapse_two g a1 a2 = Val l /\ v3get (geom_cells (geo g)) (other_axis a1 a2) = Val m /\
      l = map (fun i =>
        Rsum (map (fun c => at3 (data g) c * at3 (weight g) c) (plane_cells (geom_cells (geo g)) (other_axis a1 a2) i)) /
        Rsum (map (at3 (weight g)) (plane_cells (geom_cells (geo g)) (other_axis a1 a2) i))) (range 0 m).
  Proof.
    intros W H1 H2 H3 Hw. destruct (order_axes_val a1 a2 H1 H2 H3) as [a [b [Eo [Ha [Hb [Hab [Oax Hm]]]]]]].
    destruct (collapse_R g a W ltac:(lia)) as [c [Ec [Esc Hc]]].
    destruct (collapse_weight_R g a W ltac:(lia)) as [cw [Ew [Esw Hcw]]].
    assert (Es : sh2 cw = sh2 c) by congruence.
    destruct (remove_axis_ok a (geom_cells (geo g)) ltac:(lia)) as [s [n [E1 [E2 _]]]].
    assert (Ess : s = sh2 c) by congruence. subst s.
    exists (map (fun i =>
        Rsum (map (fun c => at3 (data g) c * at3 (weight g) c) (plane_cells (geom_cells (geo g)) (other_axis a1 a2) i)) /
        Rsum (map (at3 (weight g)) (plane_cells (geom_cells (geo g)) (other_axis a1 a2) i))) (range 0 (len2 (1 - b) (sh2 c)))).
    exists (len2 (1 - b) (sh2 c)). split; [|split; [exact (Hm _ _ E1) | reflexivity]].
    unfold collapse_two. rewrite Eo. cbn [bind]. rewrite Ec. cbn [bind]. rewrite Ew. cbn [bind].
    assert (L1 : (1 <? b)%N = false) by (apply N.ltb_ge; lia). rewrite L1.
    f_equal. apply map_ext_in. intros i Hi. apply in_range in Hi.
    rewrite Es, N.min_id.
    assert (F2 : forall ks r0 w0, fold_left (fun acc k =>
        (fst acc + nan0 (at2 c (lane2 b i k)) * at2 cw (lane2 b i k), snd acc + at2 cw (lane2 b i k))) ks (r0, w0) =
        (r0 + Rsum (map (fun k => at2 c (lane2 b i k) * at2 cw (lane2 b i k)) ks),
         w0 + Rsum (map (fun k => at2 cw (lane2 b i k)) ks))).
    { induction ks as [|k ks IH]; intros r0 w0; cbn [fold_left]; rs; [f_equal; lra|].
      cbn [fst snd]. rewrite IH, nan0_R. f_equal; lra. }
    cbn [nadd nmul ndiv num_R] in *. change (@n0 R num_R) with 0. rewrite F2, !Rplus_0_l.
    assert (IB : forall k, (k < len2 b (sh2 c))%N -> inb2 (sh2 c) (lane2 b i k) = true).
    { intros k Hk. clear - Hi Hk Hb. unfold inb2, lane2, len2 in *.
      destruct (N.eqb_spec b 0) as [->|Hb0]; cbn [fst snd N.eqb Pos.eqb N.sub] in *.
      - change (1 - 0)%N with 1%N in Hi. cbn [N.eqb Pos.eqb] in Hi. lia.
      - assert (b = 1)%N by lia. subst. cbn in Hi. lia. }
    rewrite <- Oax.
    rewrite <- (Rsum_plane _ a b _ n i (at3 (weight g)) Ha Hb Hab E1 E2 ltac:(lia)).
    rewrite <- (Rsum_plane _ a b _ n i (fun c => at3 (data g) c * at3 (weight g) c) Ha Hb Hab E1 E2 ltac:(lia)).
    f_equal; apply Rsum_ext; intros k Hk; apply in_range in Hk.
    - rewrite Hc by (apply IB; lia). rewrite Hcw by (rewrite Es; apply IB; lia).
      destruct (Req_dec (Rsum (map (at3 (weight g)) (line (geom_cells (geo g)) a (lane2 b i k)))) 0) as [Z|NZ].
      + rewrite Z, Rmult_0_r. symmetry. apply zero_weights; [|exact Z].
        intros u Hu. apply Hw. eapply in_line; eauto.
      + field. exact NZ.
    - rewrite Hcw by (rewrite Es; apply IB; lia). reflexivity.
  Qed.

  Lemma collapse_two_weight_R (g : grid R) a1 a2 : wf_grid g -> (a1 <= 2)%N -> (a2 <= 2)%N -> a1 <> a2 ->
    exists l m, collapse_two_weight g a1 a2 = Val l /\ v3get (geom_cells (geo g)) (other_axis a1 a2) = Val m /\
      l = map (fun i => Rsum (map (at3 (weight g)) (plane_cells (geom_cells (geo g)) (other_axis a1 a2) i))) (range 0 m).
  Proof.
    intros W H1 H2 H3. destruct (order_axes_val a1 a2 H1 H2 H3) as [a [b [Eo [Ha [Hb [Hab [Oax Hm]]]]]]].
    destruct (collapse_weight_R g a W ltac:(lia)) as [cw [Ew [Esw Hcw]]].
    destruct (remove_axis_ok a (geom_cells (geo g)) ltac:(lia)) as [s [n [E1 [E2 _]]]].
    assert (Ess : s = sh2 cw) by congruence. subst s.
    exists (map (fun i => Rsum (map (at3 (weight g)) (plane_cells (geom_cells (geo g)) (other_axis a1 a2) i)))
              (range 0 (len2 (1 - b) (sh2 cw)))).
    exists (len2 (1 - b) (sh2 cw)). split; [|split; [exact (Hm _ _ E1) | reflexivity]].
    unfold collapse_two_weight. rewrite Eo. cbn [bind]. rewrite Ew. cbn [bind].
    assert (L1 : (1 <? b)%N = false) by (apply N.ltb_ge; lia). rewrite L1.
    f_equal. apply map_ext_in. intros i Hi. apply in_range in Hi.
    assert (IB : forall k, (k < len2 b (sh2 cw))%N -> inb2 (sh2 cw) (lane2 b i k) = true).
    { intros k Hk. clear - Hi Hk Hb. unfold inb2, lane2, len2 in *.
      destruct (N.eqb_spec b 0) as [->|Hb0]; cbn [fst snd N.eqb Pos.eqb N.sub] in *.
      - change (1 - 0)%N with 1%N in Hi. cbn [N.eqb Pos.eqb] in Hi. lia.
      - assert (b = 1)%N by lia. subst. cbn in Hi. lia. }
    cbn [nadd num_R]. change (@n0 R num_R) with 0.
    rewrite (fold_left_Rplus_map (fun k => at2 cw (lane2 b i k))), Rplus_0_l.
    rewrite <- Oax, <- (Rsum_plane _ a b _ n i (at3 (weight g)) Ha Hb Hab E1 E2 ltac:(lia)).
    apply Rsum_ext; intros k Hk; apply in_range in Hk. apply Hcw, IB. lia.
  Qed.

  (** Totals. *)
  Lemma Rsum_partition {A B} (eqb : B -> B -> bool) (Heq : forall a b, eqb a b = true <-> a = b)
    (f : A -> R) (key : A -> B) (l : list A) (keys : list B) :
    NoDup keys -> (forall x, In x l -> In (key x) keys) ->
    Rsum (map (fun k => Rsum (map f (filter (fun x => eqb (key x) k) l))) keys) = Rsum (map f l).
  Proof.
    intros Hnd. induction l as [|x l IH]; intros Hin; cbn [filter].
    - rs. apply Rsum_zero. intros; rs; reflexivity.
    - rs. rewrite <- IH by (intros; apply Hin; now right).
      assert (G : forall k, Rsum (map f (if eqb (key x) k then x :: filter (fun x => eqb (key x) k) l else filter (fun x => eqb (key x) k) l))
        = (if eqb (key x) k then f x else 0) + Rsum (map f (filter (fun x => eqb (key x) k) l))).
      { intros k. destruct (eqb (key x) k); rs; lra. }
      rewrite (Rsum_ext _ _ _ (fun k _ => G k)), Rsum_map_plus. f_equal.
      assert (U := Rsum_update eqb Heq (fun _ => 0) (key x) (f x) keys Hnd (Hin x (or_introl eq_refl))).
      cbv beta in U. rewrite U. rewrite Rsum_zero by reflexivity. lra.
  Qed.

  Lemma in_ids2 sh ij : In ij (ids2 sh) <-> inb2 sh ij = true.
  Proof.
    unfold ids2, inb2. destruct ij as [i j]. rewrite in_flat_map. cbn [fst snd]. split.
    - intros [x [Hx H]]. apply in_map_iff in H. destruct H as [y [[= -> ->] Hy]].
      apply in_range in Hx, Hy. lia.
    - intros H. exists i. split; [apply in_range; lia|]. apply in_map_iff. exists j. split; [reflexivity|]. apply in_range. lia.
  Qed.
  Lemma ids2_NoDup sh : NoDup (ids2 sh).
  Proof.
    unfold ids2. apply NoDup_flat_map.
    - apply range_NoDup.
    - intros i _. apply FinFun.Injective_map_NoDup; [intros x y; congruence | apply range_NoDup].
    - intros i i' x H1 H2. apply in_map_iff in H1, H2. destruct H1 as [? [<- _]], H2 as [? [E _]]. congruence.
  Qed.

  Lemma collapse_weight_total (g : grid R) axis a : wf_grid g -> (axis <= 2)%N -> collapse_weight g axis = Val a ->
    Rsum (map (at2 a) (ids2 (sh2 a))) = total (weight g).
  Proof.
    intros W Ha E. destruct (collapse_weight_R g axis W Ha) as [a' [E' [Es H]]].
    rewrite E in E'. injection E' as <-.
    destruct W as [W1 W2]. unfold total. rewrite W2.
    rewrite <- (Rsum_partition id2_eqb id2_eqb_eq (at3 (weight g)) (drop axis) _ (ids2 (sh2 a)) (ids2_NoDup _)).
    - apply Rsum_ext. intros ij Hij. apply in_ids2 in Hij. exact (H ij Hij).
    - intros c Hc. apply in_ids3 in Hc. apply in_ids2.
      destruct (geom_cells (geo g)) as [[x y] z], c as [[i j] k].
      rewrite inb3_lt in Hc. unfold inb2.
      destruct (axis_cases axis Ha) as [-> | [-> | ->]]; cbn in Es; injection Es as <-; cbn; lia.
  Qed.
End RGrid2.

(** ** Outlier removal, modes 0 and 1 *)
Lemma Bltb_irrefl (x : f64) : Bltb x x = false.
Proof.
  unfold Bltb, SpecFloat.SFltb. destruct x as [s|[|]| |s m e H]; cbn; try reflexivity.
  rewrite Z.compare_refl, Pos.compare_cont_refl. destruct s; reflexivity.
Qed.
Lemma Bltb_nonneg_zero (x : f64) : Bleb (f64_of_Z 0) x = true -> Bltb x (f64_of_Z 0) = false.
Proof. destruct x as [s|[|]| |[|] m e H]; cbn; try reflexivity; discriminate. Qed.
