(** * FunMom: per-cell sums of squares, sums and counts, and the loops filling them. *)
From Coq Require Import Reals List NArith ZArith Bool Lia Lra String ZifyBool ZifyN ZifyNat.
From Flocq Require Import Core.Core IEEE754.BinarySingleNaN.
From Verif Require Import Base BaseFacts Num F64Facts RFacts NDArray GridModel GridSpec GridFacts CartProofs CartR GridOps
  SelModel DataModel DataSpec DataProofs PropertiesGrid PropertiesData FunModel FunSpec FunProofs FunMgr FunField PropertiesFun FunOcc.
Local Open Scope list_scope.

Section Gen.
  Context {F : Type} {NF : Num F} {TF : Trig F}.

  Lemma inc3_inv (a : arr3 F) c v a' : inc3 a c v = Val a' ->
    inb3 (sh3 a) c = true /\ sh3 a' = sh3 a /\ forall j, at3 a' j = if id3_eqb c j then nadd (at3 a c) v else at3 a j.
  Proof.
    unfold inc3, get3, set3. destruct (inb3 (sh3 a) c) eqn:I; [|discriminate]. cbn [bind]. intros [= <-]. auto.
  Qed.
  Lemma inc3_ok (a : arr3 F) c v : inb3 (sh3 a) c = true -> exists a', inc3 a c v = Val a'.
  Proof. intros I. unfold inc3, get3, set3. rewrite I. cbn [bind]. eauto. Qed.

  Definition mom_shape (sh : id3) (m : moments F) : Prop :=
    (forall k, (k <= 2)%N -> sh3 (v3i k (m_sq m)) = sh /\ sh3 (v3i k (m_sum m)) = sh) /\ sh3 (m_n m) = sh.

  Lemma le2 k : (k <= 2)%N -> k = 0%N \/ k = 1%N \/ k = 2%N. Proof. lia. Qed.

  Lemma moments_add_inv sh m c v m' : mom_shape sh m -> moments_add m c v = Val m' ->
    inb3 sh c = true /\ mom_shape sh m' /\
    forall j,
      (forall k, (k <= 2)%N ->
         at3 (v3i k (m_sq m')) j = (if id3_eqb c j then nadd (at3 (v3i k (m_sq m)) j) (nmul (v3i k v) (v3i k v)) else at3 (v3i k (m_sq m)) j) /\
         at3 (v3i k (m_sum m')) j = (if id3_eqb c j then nadd (at3 (v3i k (m_sum m)) j) (v3i k v) else at3 (v3i k (m_sum m)) j)) /\
      at3 (m_n m') j = (if id3_eqb c j then nadd (at3 (m_n m) j) n1 else at3 (m_n m) j).
  Proof.
    intros [S1 S2] E. destruct m as [[[q0 q1] q2] [[s0 s1] s2] n], v as [[v0 v1] v2]. unfold moments_add in E. cbn [m_sq m_sum m_n] in *.
    repeat (apply bind_val in E; let x := fresh "x" in let H := fresh "H" in destruct E as [x [H E]]; apply inc3_inv in H; destruct H as [? [? H]]).
    injection E as <-. unfold mom_shape. cbn [m_sq m_sum m_n].
    assert (K0 := S1 0%N ltac:(lia)). assert (K1 := S1 1%N ltac:(lia)). assert (K2 := S1 2%N ltac:(lia)).
    unfold v3i in K0, K1, K2. cbn [N.eqb Pos.eqb fst snd] in K0, K1, K2. destruct K0, K1, K2.
    split; [congruence|]. split.
    - split; [|congruence]. intros k Hk. unfold v3i. destruct (le2 k Hk) as [-> | [-> | ->]]; cbn [N.eqb Pos.eqb fst snd]; split; congruence.
    - intros j. assert (Eq : id3_eqb c j = true -> j = c) by (intros Q; now apply id3_eqb_eq in Q).
      split.
      + intros k Hk. unfold v3i. destruct (le2 k Hk) as [-> | [-> | ->]]; cbn [N.eqb Pos.eqb fst snd]; split;
          match goal with H : forall j, at3 ?x j = _ |- at3 ?x _ = _ => rewrite H end;
          (destruct (id3_eqb c j); [rewrite (Eq eq_refl); reflexivity | reflexivity]).
      + match goal with H : forall j, at3 ?x j = _ |- at3 ?x _ = _ => rewrite H end.
        destruct (id3_eqb c j); [rewrite (Eq eq_refl); reflexivity | reflexivity].
  Qed.
  Lemma moments_add_ok sh m c v : mom_shape sh m -> inb3 sh c = true -> exists m', moments_add m c v = Val m'.
  Proof.
    intros [S1 S2] I. destruct m as [[[q0 q1] q2] [[s0 s1] s2] n], v as [[v0 v1] v2]. unfold moments_add. cbn [m_sq m_sum m_n] in *.
    assert (K0 := S1 0%N ltac:(lia)). assert (K1 := S1 1%N ltac:(lia)). assert (K2 := S1 2%N ltac:(lia)).
    unfold v3i in K0, K1, K2. cbn [N.eqb Pos.eqb fst snd] in K0, K1, K2. destruct K0, K1, K2.
    repeat match goal with |- context [inc3 ?a c ?v] => let E := fresh in destruct (inc3_ok a c v ltac:(congruence)) as [? E]; rewrite E; cbn [bind] end.
    eauto.
  Qed.

  (** Items with a position and a value. *)
  Section Items.
    Context {A : Type} (bld : build) (g : grid F) (pos val : A -> v3 F).
    Definition here (c : id3) (l : list A) : list A := filter (fun a => in_cell bld (geo g) c (pos a)) l.
    Definition mom_body (m : moments F) (a : A) : res (moments F) :=
      if negb (is_inside g (pos a)) then Val m else
      let! o := cell_id bld g (pos a) in
      match o with None => Val m | Some c => moments_add m c (val a) end.
    Definition mom_ok (l : list A) (m0 m : moments F) : Prop :=
      mom_shape (geom_cells (geo g)) m /\ forall c,
        (forall k, (k <= 2)%N ->
          at3 (v3i k (m_sq m)) c = fold_left nadd (map (fun a => nmul (v3i k (val a)) (v3i k (val a))) (here c l)) (at3 (v3i k (m_sq m0)) c) /\
          at3 (v3i k (m_sum m)) c = fold_left nadd (map (fun a => v3i k (val a)) (here c l)) (at3 (v3i k (m_sum m0)) c)) /\
        at3 (m_n m) c = fold_left (fun w _ => nadd w n1) (here c l) (at3 (m_n m0) c).
    Lemma mom_sound l : forall m0 m, mom_shape (geom_cells (geo g)) m0 -> mfold mom_body l m0 = Val m -> mom_ok l m0 m.
    Proof.
      induction l as [|a l IH] using rev_ind; intros m0 m S E.
      - cbn in E. injection E as <-. split; [exact S|]. intros c. split; [intros k Hk; split; reflexivity | reflexivity].
      - rewrite mfold_app in E. apply bind_val in E. destruct E as [m1 [E1 E]]. destruct (IH m0 m1 S E1) as [S1 H1].
        cbn [mfold] in E. apply bind_val in E. destruct E as [m2 [E2 E]]. injection E as <-.
        assert (Hs : forall c, here c (l ++ [a]) = here c l ++ (if in_cell bld (geo g) c (pos a) then [a] else [])).
        { intros c. unfold here. rewrite filter_app. reflexivity. }
        assert (Same : m2 = m1 -> (forall c, in_cell bld (geo g) c (pos a) = false) -> mom_ok (l ++ [a]) m0 m2).
        { intros -> Hn. split; [exact S1|]. intros c. rewrite Hs, Hn, app_nil_r. apply H1. }
        unfold mom_body, is_inside, cell_id in E2. unfold in_cell in *.
        destruct (geom_inside (geo g) (pos a)); cbn [negb] in E2; [|apply Same; [now injection E2 | reflexivity]].
        destruct (geom_cell_id bld (geo g) (pos a)) as [[c0|]|]; cbn [bind] in E2; [| apply Same; [now injection E2 | reflexivity] | discriminate].
        destruct (moments_add_inv _ _ _ _ _ S1 E2) as [_ [S2 H2]]. split; [exact S2|]. intros c.
        destruct (H1 c) as [A1 A2], (H2 c) as [B1 B2]. rewrite Hs. cbn [andb].
        destruct (id3_eqb c0 c); rewrite ?app_nil_r.
        + split; [|rewrite B2, A2, fold_left_app; reflexivity]. intros k Hk. destruct (A1 k Hk) as [C1 C2], (B1 k Hk) as [D1 D2].
          rewrite !map_app, !fold_left_app, D1, D2, C1, C2. split; reflexivity.
        + split; [|now rewrite B2, A2]. intros k Hk. destruct (A1 k Hk) as [C1 C2], (B1 k Hk) as [D1 D2]. now rewrite D1, D2, C1, C2.
    Qed.
    Lemma mom_total l : forall m0, inside_ok bld (geo g) -> mom_shape (geom_cells (geo g)) m0 -> exists m, mfold mom_body l m0 = Val m.
    Proof.
      induction l as [|a l IH]; intros m0 Ok S; cbn [mfold]; [eauto|]. unfold mom_body at 1, is_inside, cell_id.
      destruct (geom_inside (geo g) (pos a)) eqn:I; cbn [negb bind]; [|now apply IH].
      destruct (Ok _ I) as [c [C1 C2]]. rewrite C1. cbn [bind].
      destruct (moments_add_ok _ m0 c (val a) S C2) as [m1 E]. rewrite E. cbn [bind]. apply IH; [exact Ok|].
      exact (proj1 (proj2 (moments_add_inv _ _ _ _ _ S E))).
    Qed.
  End Items.

  Lemma moments_of_shape (g : grid F) : wf_grid g -> mom_shape (geom_cells (geo g)) (moments_of g).
  Proof.
    intros [W _]. unfold moments_of, mom_shape. cbn [m_sq m_sum m_n]. split; [|exact W]. intros k Hk. unfold v3i.
    destruct (le2 k Hk) as [-> | [-> | ->]]; cbn [N.eqb Pos.eqb fst snd]; auto.
  Qed.
  Lemma moments_of_at (g : grid F) k c : at3 (v3i k (m_sq (moments_of g))) c = at3 (data g) c /\ at3 (v3i k (m_sum (moments_of g))) c = at3 (data g) c /\
    at3 (m_n (moments_of g)) c = at3 (data g) c.
  Proof. unfold moments_of, v3i. cbn [m_sq m_sum m_n]. destruct (k =? 0)%N, (k =? 1)%N; auto. Qed.
End Gen.

(** Ideal arithmetic: sums of squares and the variance. *)
Section R.
  Local Open Scope R_scope.
  (** The mean and the mean squared deviation of a list of numbers. *)
  Definition Rmean (l : list R) : R := Rsum l / INR (List.length l).
  Definition Rvar (l : list R) : R := Rsum (map (fun x => (x - Rmean l) * (x - Rmean l)) l) / INR (List.length l).
  Lemma len_pos {A} (l : list A) : l <> [] -> 0 < INR (List.length l).
  Proof. intros H. apply lt_0_INR. destruct l; [contradiction | cbn; lia]. Qed.
  Lemma Rvar_nonneg l : l <> [] -> 0 <= Rvar l.
  Proof.
    intros H. apply Rmult_le_pos; [|left; apply Rinv_0_lt_compat; now apply len_pos].
    apply Rsum_nonneg. intros x _. apply (Rle_0_sqr (x - Rmean l)).
  Qed.
  (** The one-pass formula. *)
  Lemma Rvar_moments l : l <> [] ->
    Rvar l = (Rsum (map (fun x => x * x) l) - Rsum l * Rsum l / INR (List.length l)) / INR (List.length l).
  Proof.
    intros H. assert (P := len_pos l H). unfold Rvar. rewrite variance_id. unfold Rmean. f_equal. field. lra.
  Qed.
  Lemma Rvar_const l a : l <> [] -> (forall x, In x l -> x = a) -> Rvar l = 0.
  Proof.
    intros H E. assert (P := len_pos l H).
    assert (S : Rsum l = INR (List.length l) * a).
    { rewrite <- (map_id l) at 1. rewrite (Rsum_ext _ (fun _ => a)) by exact E. apply Rsum_const. }
    assert (M : Rmean l = a) by (unfold Rmean; rewrite S; field; lra).
    unfold Rvar. rewrite Rsum_zero; [unfold Rdiv; lra|]. intros x Hx. rewrite M, (E x Hx). lra.
  Qed.
  Lemma Rvar_zero l : l <> [] -> Rvar l = 0 -> forall x, In x l -> x = Rmean l.
  Proof.
    intros H E x Hx. assert (P := len_pos l H). unfold Rvar in E.
    assert (S : Rsum (map (fun x => (x - Rmean l) * (x - Rmean l)) l) = 0).
    { apply Rmult_eq_reg_r with (/ INR (List.length l)); [|apply Rinv_neq_0_compat; lra]. unfold Rdiv in E. lra. }
    assert (Q : forall f : R -> R, (forall y, 0 <= f y) -> forall l, Rsum (map f l) = 0 -> forall y, In y l -> f y = 0).
    { intros f Hf. induction l0 as [|z l0 IH]; intros S0 y Hy; [contradiction|]. cbn [map] in S0. rewrite Rsum_cons in S0.
      assert (0 <= Rsum (map f l0)) by (apply Rsum_nonneg; auto). specialize (Hf z) as Hz.
      destruct Hy as [<-|Hy]; [lra|]. apply IH; [lra | exact Hy]. }
    specialize (Q (fun x => (x - Rmean l) * (x - Rmean l)) (fun y => Rle_0_sqr (y - Rmean l)) l S x Hx). cbn beta in Q.
    apply Rmult_integral in Q. lra.
  Qed.
End R.
