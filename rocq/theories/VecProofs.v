(** * Vector grids: component-wise behaviour (specification vocabulary and proofs). *)
From Coq Require Import Reals List NArith ZArith Lia Lra Bool.
From Verif Require Import Base BaseFacts Num NDArray GridModel GridSpec GridFacts CartProofs.

Section Vec.
  Context {F : Type} {NF : Num F} {TF : Trig F}.

  (** A call on a vector grid: [VAdd3] is what [vectorfield] does with one sample (one value per
      component, functions.rs 75-77), the others are the [GridFunctions3D] methods. *)
  Inductive vop : Type :=
  | VAdd3 (p : pos3 F) (u : v3 F)
  | VAll (o : gop F).

  (** The scalar operation component [k] sees. *)
  Definition vproj (k : N) (o : vop) : gop F :=
    match o with
    | VAdd3 p (u0, u1, u2) => OpAdd p (if (k =? 0)%N then u0 else if (k =? 1)%N then u1 else u2)
    | VAll o => o
    end.

  (** [set_data] is unimplemented on vector grids and [new_zeros] makes three copies of the
      first component's. *)
  Definition vstep (bld : build) (v : vgrid F) (o : vop) : res (vgrid F) :=
    match o with
    | VAdd3 p (u0, u1, u2) =>
        let! a := add_value bld (vg0 v) p u0 in
        let! b := add_value bld (vg1 v) p u1 in
        let! c := add_value bld (vg2 v) p u2 in
        Val (mkV a b c (vcyl v))
    | VAll (OpAdd p x) => v_add_value bld v p x
    | VAll (OpInsert p x) => v_insert bld v p x
    | VAll (OpAddTo c x) => v_add_to_cell v c x
    | VAll (OpTraj p q x) => v_add_trajectory_value bld v p q x
    | VAll (OpDivArray a) => v_divide_by_array v a
    | VAll (OpDivScalar x) => Val (v_divide_by_scalar v x)
    | VAll OpDivWeight => v_divide_by_weight v
    | VAll OpNewZeros => Val (v_new_zeros v)
    | VAll (OpSetData _) => Panic
    | VAll (OpSetWeights a) => v_set_weights v a
    | VAll (OpOutlier thr mode) => v_outlier_removal bld v thr mode
    end.

  Definition comp (k : N) (v : vgrid F) : grid F :=
    if (k =? 0)%N then vg0 v else if (k =? 1)%N then vg1 v else vg2 v.

  (** The three components have the same geometry and the same weights. *)
  Definition shared (v : vgrid F) : Prop :=
    geo (vg1 v) = geo (vg0 v) /\ geo (vg2 v) = geo (vg0 v) /\
    weight (vg1 v) = weight (vg0 v) /\ weight (vg2 v) = weight (vg0 v).

  (** Everything except outlier removal by neighbours, which rewrites weights per component. *)
  Definition vop_plain (o : vop) : Prop :=
    match o with VAll (OpOutlier _ mode) => mode <> 2%N | _ => True end.

  Lemma vmapM_comp f v v' k : vmapM f v = Val v' -> f (comp k v) = Val (comp k v').
  Proof.
    unfold vmapM. intros H. apply bind_val in H. destruct H as [a [Ha H]].
    apply bind_val in H. destruct H as [b [Hb H]]. apply bind_val in H. destruct H as [c [Hc H]].
    injection H as <-. unfold comp. destruct (k =? 0)%N; [exact Ha|]. destruct (k =? 1)%N; assumption.
  Qed.

  (** Weights after a scalar step depend on geometry and weights only. *)
  Lemma bump_weights (g h : grid F) c v x w g' h' : geo g = geo h -> weight g = weight h ->
    bump g c v w = Val g' -> bump h c x w = Val h' -> weight g' = weight h' /\ geo g' = geo g /\ geo h' = geo h.
  Proof.
    intros G W. unfold bump. intros H1 H2.
    apply bind_val in H1. destruct H1 as [a [_ H1]]. apply bind_val in H1. destruct H1 as [b [_ H1]].
    apply bind_val in H1. destruct H1 as [y [Hy H1]]. apply bind_val in H1. destruct H1 as [u [Hu H1]].
    apply bind_val in H2. destruct H2 as [a2 [_ H2]]. apply bind_val in H2. destruct H2 as [b2 [_ H2]].
    apply bind_val in H2. destruct H2 as [y2 [Hy2 H2]]. apply bind_val in H2. destruct H2 as [u2 [Hu2 H2]].
    injection H1 as <-. injection H2 as <-. cbn. rewrite W in *. rewrite Hy in Hy2. injection Hy2 as <-.
    rewrite Hu in Hu2. injection Hu2 as <-. auto.
  Qed.
  Lemma add_value_weights bld (g h : grid F) p v x g' h' : geo g = geo h -> weight g = weight h ->
    add_value bld g p v = Val g' -> add_value bld h p x = Val h' -> weight g' = weight h' /\ geo g' = geo g /\ geo h' = geo h.
  Proof.
    intros G W. unfold add_value, cell_id. rewrite G.
    destruct (geom_cell_id bld (geo h) p) as [[c|]|]; cbn [bind]; [| | discriminate].
    - destruct (geo h) as [cg|y] eqn:E.
      + destruct (inb3 (cc_cells cg) c).
        * intros H1 H2. rewrite <- E in G. destruct (bump_weights _ _ _ _ _ _ _ _ G W H1 H2) as [A [B C]].
          split; [exact A|]. split; congruence.
        * intros [= <-] [= <-]. split; [exact W|]. split; congruence.
      + intros H1 H2. rewrite <- E in G. destruct (bump_weights _ _ _ _ _ _ _ _ G W H1 H2) as [A [B C]].
        split; [exact A|]. split; congruence.
    - intros [= <-] [= <-]. auto.
  Qed.

  Lemma gstep_weights bld (g h : grid F) (o : gop F) g' h' :
    (match o with OpOutlier _ m => m <> 2%N | OpSetData _ => False | _ => True end) ->
    geo g = geo h -> weight g = weight h ->
    gstep bld g o = Val g' -> gstep bld h o = Val h' -> geo g' = geo h' /\ weight g' = weight h'.
  Proof.
    intros Hp G W. destruct o as [p v|p v|c v|p q v|a|x| | |a|a|thr mode]; cbn [gstep]; intros H1 H2.
    - destruct (add_value_weights _ _ _ _ _ _ _ _ G W H1 H2) as [A [B C]]. split; congruence.
    - unfold insert, cell_id in *. rewrite G in H1.
      apply bind_val in H1. destruct H1 as [o1 [E1 H1]]. apply bind_val in H2. destruct H2 as [o2 [E2 H2]].
      rewrite E1 in E2. injection E2 as <-. destruct o1 as [c|].
      + apply bind_val in H1. destruct H1 as [d1 [_ H1]]. apply bind_val in H2. destruct H2 as [d2 [_ H2]].
        injection H1 as <-. injection H2 as <-. cbn. auto.
      + injection H1 as <-. injection H2 as <-. auto.
    - destruct (bump_weights _ _ _ _ _ _ _ _ G W H1 H2) as [A [B C]]. split; congruence.
    - unfold add_trajectory_value in *. rewrite G in H1. destruct (geo h) as [cg|y] eqn:E.
      + apply bind_val in H1. destruct H1 as [o1 [E1 H1]]. apply bind_val in H2. destruct H2 as [o2 [E2 H2]].
        rewrite E1 in E2. injection E2 as <-. destruct o1 as [[cs fs]|].
        * rewrite <- E in G. revert H1 H2. clear E E1. revert g h G W.
          induction (combine cs fs) as [|cf l IH]; intros g h G W H1 H2; cbn in H1, H2.
          -- injection H1 as <-. injection H2 as <-. auto.
          -- apply bind_val in H1. destruct H1 as [g1 [X1 H1]]. apply bind_val in H2. destruct H2 as [h1 [X2 H2]].
             destruct (bump_weights _ _ _ _ _ _ _ _ G W X1 X2) as [A [B C]].
             eapply IH; [| |exact H1|exact H2]; congruence.
        * injection H1 as <-. injection H2 as <-. split; congruence.
      + rewrite <- E in G. destruct (add_value_weights _ _ _ _ _ _ _ _ G W H1 H2) as [A [B C]]. split; congruence.
    - unfold divide_by_array in *. apply bind_val in H1. destruct H1 as [d1 [_ H1]].
      apply bind_val in H2. destruct H2 as [d2 [_ H2]]. injection H1 as <-. injection H2 as <-. cbn. auto.
    - injection H1 as <-. injection H2 as <-. cbn. auto.
    - unfold divide_by_weight in *. apply bind_val in H1. destruct H1 as [d1 [_ H1]].
      apply bind_val in H2. destruct H2 as [d2 [_ H2]]. injection H1 as <-. injection H2 as <-. cbn. auto.
    - injection H1 as <-. injection H2 as <-. cbn. auto.
    - contradiction.
    - unfold set_weights in *. destruct (sh_eqb (sh3 (weight g)) (sh3 a)); [|discriminate].
      destruct (sh_eqb (sh3 (weight h)) (sh3 a)); [|discriminate]. injection H1 as <-. injection H2 as <-. cbn. auto.
    - unfold outlier_removal in *. destruct (mode =? 0)%N; [injection H1 as <-; injection H2 as <-; cbn; auto|].
      destruct (mode =? 1)%N; [injection H1 as <-; injection H2 as <-; cbn; auto|].
      destruct (N.eqb_spec mode 2); [contradiction | discriminate].
  Qed.

  Lemma vstep_shared bld v o v' : vop_plain o -> shared v -> vstep bld v o = Val v' -> shared v'.
  Proof.
    intros Hp [G1 [G2 [W1 W2]]] H.
    destruct o as [p [[u0 u1] u2]|o].
    - cbn in H. apply bind_val in H. destruct H as [a [Ha H]]. apply bind_val in H. destruct H as [b [Hb H]].
      apply bind_val in H. destruct H as [c [Hc H]]. injection H as <-.
      destruct (add_value_weights _ _ _ _ _ _ _ _ G1 W1 Hb Ha) as [A [B C]].
      destruct (add_value_weights _ _ _ _ _ _ _ _ G2 W2 Hc Ha) as [A' [B' C']].
      unfold shared. cbn. repeat split; congruence.
    - destruct o as [p x|p x|c x|p q x|a|x| | |a|a|thr mode]; cbn [vstep] in H; cbn [vop_plain] in Hp;
        try discriminate; try (injection H as <-; unfold shared; cbn; auto; fail).
      all: match type of H with
        | v_add_value ?b ?v ?p ?x = _ => assert (K : forall k, gstep b (comp k v) (OpAdd p x) = Val (comp k v')) by (intros k; exact (vmapM_comp _ _ _ k H)); pose (o := OpAdd p x)
        | v_insert ?b ?v ?p ?x = _ => assert (K : forall k, gstep b (comp k v) (OpInsert p x) = Val (comp k v')) by (intros k; exact (vmapM_comp _ _ _ k H))
        | v_add_to_cell ?v ?c ?x = _ => assert (K : forall k, gstep bld (comp k v) (OpAddTo c x) = Val (comp k v')) by (intros k; exact (vmapM_comp _ _ _ k H))
        | v_add_trajectory_value ?b ?v ?p ?q ?x = _ => assert (K : forall k, gstep b (comp k v) (OpTraj p q x) = Val (comp k v')) by (intros k; exact (vmapM_comp _ _ _ k H))
        | v_divide_by_array ?v ?a = _ => assert (K : forall k, gstep bld (comp k v) (OpDivArray a) = Val (comp k v')) by (intros k; exact (vmapM_comp _ _ _ k H))
        | v_divide_by_weight ?v = _ => assert (K : forall k, gstep bld (comp k v) OpDivWeight = Val (comp k v')) by (intros k; exact (vmapM_comp _ _ _ k H))
        | v_set_weights ?v ?a = _ => assert (K : forall k, gstep bld (comp k v) (OpSetWeights a) = Val (comp k v')) by (intros k; exact (vmapM_comp _ _ _ k H))
        | v_outlier_removal ?b ?v ?t ?m = _ => assert (K : forall k, gstep b (comp k v) (OpOutlier t m) = Val (comp k v')) by (intros k; exact (vmapM_comp _ _ _ k H))
        end;
        match type of K with forall k, gstep _ _ ?o = _ =>
          destruct (gstep_weights bld (vg1 v) (vg0 v) o (vg1 v') (vg0 v') ltac:(cbn; auto) G1 W1 (K 1%N) (K 0%N));
          destruct (gstep_weights bld (vg2 v) (vg0 v) o (vg2 v') (vg0 v') ltac:(cbn; auto) G2 W2 (K 2%N) (K 0%N)) end;
        unfold shared; auto.
  Qed.

  (** Component [k] behaves as the scalar grid fed with the component's operations. *)
  Lemma vstep_comp bld v o v' k : shared v -> vstep bld v o = Val v' ->
    gstep bld (comp k v) (vproj k o) = Val (comp k v').
  Proof.
    intros [G1 [G2 [W1 W2]]] H. destruct o as [p [[u0 u1] u2]|o].
    - cbn in H. apply bind_val in H. destruct H as [a [Ha H]]. apply bind_val in H. destruct H as [b [Hb H]].
      apply bind_val in H. destruct H as [c [Hc H]]. injection H as <-.
      unfold comp. cbn. destruct (k =? 0)%N; [exact Ha|]. destruct (k =? 1)%N; assumption.
    - destruct o as [p x|p x|c x|p q x|a|x| | |a|a|thr mode]; cbn [vstep vproj gstep] in *;
        try discriminate; try (exact (vmapM_comp _ _ _ k H)).
      + injection H as <-. unfold comp, v_divide_by_scalar, vmap. cbn.
        destruct (k =? 0)%N; [reflexivity|]. destruct (k =? 1)%N; reflexivity.
      + injection H as <-. unfold comp, v_new_zeros, vnew, new_zeros, with_data. cbn.
        destruct (k =? 0)%N; [reflexivity|]. destruct (k =? 1)%N; congruence.
  Qed.

  Lemma vhist bld ops v v' k : Forall vop_plain ops -> shared v -> mfold (vstep bld) ops v = Val v' ->
    shared v' /\ mfold (gstep bld) (map (vproj k) ops) (comp k v) = Val (comp k v').
  Proof.
    revert v; induction ops as [|o ops IH]; intros v Hp S H; cbn in H.
    - injection H as <-. auto.
    - inversion Hp as [|? ? Ho Hops]; subst. apply bind_val in H. destruct H as [v1 [H1 H]].
      destruct (IH v1 Hops (vstep_shared _ _ _ _ Ho S H1) H) as [A B]. split; [exact A|].
      cbn [map mfold]. rewrite (vstep_comp _ _ _ _ k S H1). exact B.
  Qed.
End Vec.
Arguments vop : clear implicits.
