(** * Property C48: circulation between two boundaries. *)
From Coq Require Import Reals List NArith ZArith Bool Lia Lra Permutation Sorted ZifyBool ZifyN ZifyNat.
From Flocq Require Import Core.Core IEEE754.BinarySingleNaN.
From Verif Require Import Base BaseFacts Num F64Facts NDArray GridModel SelModel DataModel DataSpec DataLoad
  PropertiesGrid FunModel FunSpec FunProofs PropertiesFun CondModel FunTrack FunCirc.
Local Open Scope list_scope.

(** ** Specification *)
Inductive region : Type := Upper | Lower.
Inductive passage : Type := Enter (r : region) | Leave (r : region).
Definition other (r : region) : region := match r with Upper => Lower | Lower => Upper end.
Section Spec.
  Context {F : Type} {NF : Num F}.
  (** The upper region is above [b1], the lower one below [b0]; a move from [q] to [p]. *)
  Definition lower_passage (b0 p q : F) : list passage :=
    if nltb p b0 && nltb b0 q then [Enter Lower] else if nltb b0 p && nltb q b0 then [Leave Lower] else [].
  (** What is noticed of a move: what happens at [b1], and, unless it left the upper region, what
      happens at [b0]. *)
  Definition passages (b0 b1 p q : F) : list passage :=
    if nltb b1 p && nltb q b1 then Enter Upper :: lower_passage b0 p q
    else if nltb p b1 && nltb b1 q then [Leave Upper]
    else lower_passage b0 p q.
  Definition move_events (axis : N) (b0 b1 : F) (mm : sample F * sample F) : list (passage * F) :=
    match v3get (sm_pos (snd mm)) axis, v3get (sm_pos (fst mm)) axis with
    | Val p, Val q => map (fun e => (e, cross_time mm)) (passages b0 b1 p q)
    | _, _ => []
    end.
  (** The passages of particle [i] in time order. *)
  Definition passings s axis b0 b1 L i : list (passage * F) := flat_map (move_events axis b0 b1) (moves s L i).

  (** Round trips from region [r]: from one departure from [r] to the next one, if the other
      region was entered in between.  [open] is the last departure and whether the other
      region has been entered since. *)
  Fixpoint laps (r : region) (open : option (F * bool)) (l : list (passage * F)) : list (F * F) :=
    match l with
    | [] => []
    | (Leave r', t) :: l =>
        match r, r' with
        | Upper, Upper | Lower, Lower =>
            match open with Some (t0, true) => [(t0, t)] | _ => [] end ++ laps r (Some (t, false)) l
        | _, _ => laps r open l
        end
    | (Enter r', t) :: l =>
        match r, r' with
        | Upper, Lower | Lower, Upper => laps r (match open with Some (t0, _) => Some (t0, true) | None => None end) l
        | _, _ => laps r open l
        end
    end.
  (** The region left first is the start region of the particle for good. *)
  Fixpoint trips (l : list (passage * F)) : list (F * F) :=
    match l with
    | [] => []
    | (Leave r, t) :: l' => laps r None l
    | _ :: l' => trips l'
    end.
  Definition leaves (r : region) (e : passage * F) : Prop := fst e = Leave r.
End Spec.

(** [laps] read back: exactly the pairs of successive departures from [r] with an arrival in the
    other region between them. *)
Section Laps.
  Context {F : Type} {NF : Num F}.
  Lemma laps_some_in r (l : list (passage * F)) : forall t0 seen t1 t2,
    In (t1, t2) (laps r (Some (t0, seen)) l) <->
    (exists mid post, l = mid ++ (Leave r, t2) :: post /\ t1 = t0 /\ (forall e, In e mid -> fst e <> Leave r) /\
       (seen = true \/ exists t, In (Enter (other r), t) mid)) \/
    (exists pre mid post, l = pre ++ (Leave r, t1) :: mid ++ (Leave r, t2) :: post /\
       (forall e, In e mid -> fst e <> Leave r) /\ exists t, In (Enter (other r), t) mid).
  Proof.
    induction l as [|[p t] l IH]; intros t0 seen t1 t2.
    { cbn. split; [tauto|]. intros [[[|? ?] [post [E _]]]|[[|? ?] [mid [post [E _]]]]]; discriminate. }
    assert (Nop : (p <> Leave r) -> (p <> Enter (other r)) -> laps r (Some (t0, seen)) ((p, t) :: l) = laps r (Some (t0, seen)) l).
    { intros A B. destruct p as [[]|[]], r; cbn in *; congruence. }
    assert (In1 : p = Enter (other r) -> laps r (Some (t0, seen)) ((p, t) :: l) = laps r (Some (t0, true)) l).
    { intros ->. destruct r; reflexivity. }
    assert (Out1 : p = Leave r -> laps r (Some (t0, seen)) ((p, t) :: l) = (if seen then [(t0, t)] else []) ++ laps r (Some (t, false)) l).
    { intros ->. destruct r, seen; reflexivity. }
    assert (Dec : p = Leave r \/ p = Enter (other r) \/ (p <> Leave r /\ p <> Enter (other r))).
    { destruct p as [[]|[]], r; cbn; intuition congruence. }
    destruct Dec as [Ep|[Ep|[Ep1 Ep2]]].
    - rewrite (Out1 Ep), in_app_iff, IH. subst p. split.
      + intros [H|[H|H]].
        * destruct seen; [|contradiction]. destruct H as [[= <- <-]|[]]. left. exists [], l. split; [reflexivity|]. split; [reflexivity|].
          split; [intros e []|now left].
        * destruct H as [mid [post [-> [-> [Hm [C|Hi]]]]]]; [discriminate|]. right. exists [], mid, post. auto.
        * destruct H as [pre [mid [post [-> H]]]]. right. exists ((Leave r, t) :: pre), mid, post. auto.
      + intros [[mid [post [E [-> [Hm Hs]]]]]|[pre [mid [post [E [Hm Hi]]]]]].
        * destruct mid as [|e mid].
          -- injection E as -> ->. left. destruct Hs as [->|[x []]]. now left.
          -- injection E as <- _. exfalso. apply (Hm (Leave r, t)); [now left | reflexivity].
        * destruct pre as [|e pre].
          -- injection E as -> ->. right. left. exists mid, post. split; [reflexivity|]. split; [reflexivity|]. split; [exact Hm | now right].
          -- injection E as <- ->. right. right. exists pre, mid, post. auto.
    - rewrite (In1 Ep), IH. subst p. split.
      + intros [[mid [post [-> [-> [Hm _]]]]]|[pre [mid [post [-> H]]]]].
        * left. exists ((Enter (other r), t) :: mid), post. split; [reflexivity|]. split; [reflexivity|]. split.
          -- intros e [<-|He]; [discriminate | now apply Hm].
          -- right. exists t. now left.
        * right. exists ((Enter (other r), t) :: pre), mid, post. auto.
      + intros [[mid [post [E [-> [Hm Hs]]]]]|[pre [mid [post [E [Hm Hi]]]]]].
        * destruct mid as [|e mid]; [destruct r; discriminate|]. injection E as <- ->. left. exists mid, post. split; [reflexivity|].
          split; [reflexivity|]. split; [intros e He; apply Hm; now right | now left].
        * destruct pre as [|e pre]; [destruct r; discriminate|]. injection E as <- ->. right. exists pre, mid, post. auto.
    - rewrite (Nop Ep1 Ep2), IH. split.
      + intros [[mid [post [-> [-> [Hm Hs]]]]]|[pre [mid [post [-> H]]]]].
        * left. exists ((p, t) :: mid), post. split; [reflexivity|]. split; [reflexivity|]. split.
          -- intros e [<-|He]; [exact Ep1 | now apply Hm].
          -- destruct Hs as [Hs|[x Hx]]; [now left | right; exists x; now right].
        * right. exists ((p, t) :: pre), mid, post. auto.
      + intros [[mid [post [E [-> [Hm Hs]]]]]|[pre [mid [post [E [Hm Hi]]]]]].
        * destruct mid as [|e mid]; [injection E as -> _ _; contradiction|]. injection E as <- ->. left. exists mid, post. split; [reflexivity|].
          split; [reflexivity|]. split; [intros e He; apply Hm; now right|]. destruct Hs as [Hs|[x [Hx|Hx]]]; [now left | | right; now exists x].
          injection Hx as -> _. contradiction.
        * destruct pre as [|e pre]; [injection E as -> _ _; contradiction|]. injection E as <- ->. right. exists pre, mid, post. auto.
  Qed.
  Lemma laps_none_in r (l : list (passage * F)) t1 t2 : In (t1, t2) (laps r None l) <->
    exists pre mid post, l = pre ++ (Leave r, t1) :: mid ++ (Leave r, t2) :: post /\
       (forall e, In e mid -> fst e <> Leave r) /\ exists t, In (Enter (other r), t) mid.
  Proof.
    induction l as [|[p t] l IH].
    { cbn. split; [tauto|]. intros [[|? ?] [mid [post [E _]]]]; discriminate. }
    assert (Nop : (p <> Leave r) -> laps r None ((p, t) :: l) = laps r None l).
    { intros A. destruct p as [[]|[]], r; cbn in *; congruence. }
    assert (Out1 : p = Leave r -> laps r None ((p, t) :: l) = laps r (Some (t, false)) l).
    { intros ->. destruct r; reflexivity. }
    assert (Dec : p = Leave r \/ p <> Leave r) by (destruct p as [[]|[]], r; intuition congruence).
    destruct Dec as [Ep|Ep].
    - rewrite (Out1 Ep), laps_some_in. subst p. split.
      + intros [[mid [post [-> [-> [Hm [C|Hi]]]]]]|[pre [mid [post [-> H]]]]]; [discriminate | |].
        * exists [], mid, post. auto.
        * exists ((Leave r, t) :: pre), mid, post. auto.
      + intros [pre [mid [post [E [Hm Hi]]]]]. destruct pre as [|e pre].
        * injection E as -> ->. left. exists mid, post. split; [reflexivity|]. split; [reflexivity|]. split; [exact Hm | now right].
        * injection E as <- ->. right. exists pre, mid, post. auto.
    - rewrite (Nop Ep), IH. split.
      + intros [pre [mid [post [-> H]]]]. exists ((p, t) :: pre), mid, post. auto.
      + intros [pre [mid [post [E H]]]]. destruct pre as [|e pre]; [injection E as -> _ _; contradiction|]. injection E as <- ->.
        exists pre, mid, post. auto.
  Qed.
  (** The trips of a sequence of passages. *)
  Theorem c48_trips (l : list (passage * F)) t1 t2 : In (t1, t2) (trips l) <->
    exists r pre mid post, l = pre ++ (Leave r, t1) :: mid ++ (Leave r, t2) :: post /\
      (exists r0 t0 a z, l = a ++ (Leave r0, t0) :: z /\ (forall e, In e a -> forall r', fst e <> Leave r') /\ r = r0) /\
      (forall e, In e mid -> fst e <> Leave r) /\ exists t, In (Enter (other r), t) mid.
  Proof.
    induction l as [|[[r'|r'] t] l IH].
    - cbn. split; [tauto|]. intros [r [[|? ?] [mid [post [E _]]]]]; discriminate.
    - cbn [trips]. rewrite IH. split.
      + intros [r [pre [mid [post [E [[r0 [t0 [a [z [E2 [Ha ->]]]]]] H]]]]]].
        exists r0, ((Enter r', t) :: pre), mid, post. split; [rewrite E; reflexivity|]. split; [|exact H].
        exists r0, t0, ((Enter r', t) :: a), z. split; [rewrite E2; reflexivity|]. split; [|reflexivity].
        intros e [<-|He] r1; [discriminate | now apply Ha].
      + intros [r [pre [mid [post [E [[r0 [t0 [a [z [E2 [Ha ->]]]]]] H]]]]]].
        destruct pre as [|e pre]; [discriminate|]. injection E as <- E. destruct a as [|e a]; [discriminate|]. injection E2 as <- E2.
        exists r0, pre, mid, post. split; [exact E|]. split; [|exact H]. exists r0, t0, a, z. split; [exact E2|]. split; [|reflexivity].
        intros e He. apply Ha. now right.
    - cbn [trips]. rewrite laps_none_in. split.
      + intros [pre [mid [post [E H]]]]. exists r', pre, mid, post. split; [exact E|]. split; [|exact H].
        exists r', t, [], l. split; [reflexivity|]. split; [intros e []|reflexivity].
      + intros [r [pre [mid [post [E [[r0 [t0 [a [z [E2 [Ha ->]]]]]] H]]]]]].
        assert (r0 = r') as ->. { destruct a as [|e a]; [injection E2 as <- _ _; reflexivity|]. injection E2 as <- _. exfalso. now apply (Ha (Leave r', t) (or_introl eq_refl) r'). }
        exists pre, mid, post. auto.
  Qed.

  (** With sorted times the intervals of a particle come in order and do not overlap. *)
  Section Order.
    Variable le : F -> F -> Prop.
    Definition ends (l : list (F * F)) : list F := flat_map (fun '(a, b) => [a; b]) l.
    Lemma laps_ge r l : forall t0 seen, Forall (le t0) (map snd l) -> le t0 t0 -> StronglySorted le (map snd l) -> (forall e, In e l -> le (snd e) (snd e)) ->
      StronglySorted le (ends (laps r (Some (t0, seen)) l)) /\ Forall (le t0) (ends (laps r (Some (t0, seen)) l)).
    Proof.
      induction l as [|[p t] l IH]; intros t0 seen Hf Hr S Hrl; [cbn; split; constructor|].
      cbn [map snd] in *. inversion Hf as [|? ? Ht Hl]; subst. apply StronglySorted_inv in S. destruct S as [S H].
      assert (Rl : forall e, In e l -> le (snd e) (snd e)) by (intros; apply Hrl; now right).
      assert (Stay : forall sn, StronglySorted le (ends (laps r (Some (t0, sn)) l)) /\ Forall (le t0) (ends (laps r (Some (t0, sn)) l))).
      { intros sn. apply IH; assumption. }
      assert (Rt : le t t) by (apply (Hrl (p, t)); now left).
      destruct (IH t false H Rt S Rl) as [A B].
      assert (Go : StronglySorted le (ends ((if seen then [(t0, t)] else []) ++ laps r (Some (t, false)) l)) /\
                   Forall (le t0) (ends ((if seen then [(t0, t)] else []) ++ laps r (Some (t, false)) l))).
      { assert (B0 : Forall (le t0) (ends (laps r (Some (t, false)) l))).
        { rewrite Forall_forall in *. intros x Hx. unfold ends in Hx. apply in_flat_map in Hx. destruct Hx as [[a c] [Hac Hx]].
          apply laps_some_in in Hac. destruct Hac as [[mid [post [E [-> _]]]]|[pre [mid [post [E _]]]]].
          - destruct Hx as [<-|[<-|[]]]; [exact Ht|]. apply Hl. rewrite E. apply in_map_iff. exists (Leave r, c). split; [reflexivity|]. apply in_or_app. right. now left.
          - destruct Hx as [<-|[<-|[]]]; apply Hl; rewrite E; apply in_map_iff.
            + exists (Leave r, a). split; [reflexivity|]. apply in_or_app. right. now left.
            + exists (Leave r, c). split; [reflexivity|]. apply in_or_app. right. right. apply in_or_app. right. now left. }
        destruct seen; cbn [app ends flat_map]; [|split; assumption]. split.
        - constructor; [constructor; assumption|]. constructor; [exact Ht | exact B0].
        - constructor; [exact Hr|]. constructor; [exact Ht | exact B0]. }
      destruct p as [[]|[]], r; cbn [laps]; try apply Stay; try (destruct seen; exact Go).
    Qed.
    Theorem c48_ordered (l : list (passage * F)) : StronglySorted le (map snd l) -> (forall e, In e l -> le (snd e) (snd e)) ->
      StronglySorted le (ends (trips l)).
    Proof.
      intros S Hr. induction l as [|[[r'|r'] t] l IH]; [constructor| |]; cbn [map snd] in S; apply StronglySorted_inv in S; destruct S as [S H]; cbn [trips].
      - apply IH; [exact S | intros e He; apply Hr; now right].
      - assert (Q : laps r' None ((Leave r', t) :: l) = laps r' (Some (t, false)) l) by (destruct r'; reflexivity). rewrite Q.
        apply laps_ge; [exact H | apply (Hr (Leave r', t)); now left | exact S | intros e He; apply Hr; now right].
    Qed.
  End Order.
End Laps.

(** ** The code *)
Section C48.
  Context {F : Type} {NF : Num F}.
  Definition view2 (st : circ2 (F := F)) (i : N) : option (N * N * F) :=
    match vget (c2_flag st) i, vget (c2_mid st) i, vget (c2_time st) i with Val f, Val m, Val t => Some (f, m, t) | _, _, _ => None end.
  Definition code (r : region) : N := match r with Upper => 1 | Lower => 2 end.
  Definition step2 (s : N * N * F) (e : passage * F) : (N * N * F) * list (F * F) :=
    let '(f, m, t) := s in
    match fst e with
    | Enter r => if (f =? code (other r))%N then ((f, 1%N, t), []) else (s, [])
    | Leave r =>
        if (f =? 0)%N then ((code r, m, snd e), [])
        else if (f =? code r)%N then if (m =? 1)%N then ((f, 0%N, snd e), [(t, snd e)]) else ((f, m, snd e), [])
        else (s, [])
    end.
  Definition good2 (st : circ2 (F := F)) : Prop :=
    vlen (c2_mid st) = vlen (c2_flag st) /\ vlen (c2_time st) = vlen (c2_flag st) /\ vlen (c2_mtime st) = vlen (c2_flag st).

  (** What an update of particle [i] by the passages [e] does. *)
  Definition does (e : list (passage * F)) (acc acc' : circ2 (F := F)) (i : N) : Prop :=
    good2 acc' /\ (e = [] -> acc' = acc) /\ (e <> [] -> view2 acc i <> None) /\
    (forall t, view2 acc i = Some t -> view2 acc' i = Some (fst (mrun step2 t e)) /\
      c2_out acc' = c2_out acc ++ snd (mrun step2 t e) /\ forall j, j <> i -> view2 acc' j = view2 acc j).
  Lemma does_nil acc i : good2 acc -> does [] acc acc i.
  Proof.
    intros G. split; [exact G|]. split; [auto|]. split; [intros C; now contradiction C|]. intros t Hv. cbn [mrun fst snd]. rewrite app_nil_r. auto.
  Qed.
  Lemma does_app e1 e2 a b c i : does e1 a b i -> does e2 b c i -> does (e1 ++ e2) a c i.
  Proof.
    intros [G1 [N1 [V1 T1]]] [G2 [N2 [V2 T2]]]. split; [exact G2|]. split; [|split].
    - intros E. apply app_eq_nil in E. destruct E as [E1 E2]. rewrite (N2 E2). now apply N1.
    - intros E. destruct e1 as [|x e1]; [|apply V1; discriminate]. rewrite <- (N1 eq_refl). now apply V2.
    - intros t Hv. destruct (T1 t Hv) as [A1 [A2 A3]]. destruct (T2 _ A1) as [B1 [B2 B3]]. rewrite mrun_app. cbn [fst snd].
      split; [exact B1|]. split; [now rewrite B2, A2, app_assoc|]. intros j Dj. now rewrite B3, A3.
  Qed.
  Lemma view2_some (acc : circ2 (F := F)) i f : good2 acc -> vget (c2_flag acc) i = Val f -> exists m t, vget (c2_mid acc) i = Val m /\ vget (c2_time acc) i = Val t /\ view2 acc i = Some (f, m, t).
  Proof.
    intros [G1 [G2 G3]] Ef. assert (L := vget_lt_inv _ _ _ Ef). destruct (vget_lt (c2_mid acc) i ltac:(lia)) as [m Em].
    destruct (vget_lt (c2_time acc) i ltac:(lia)) as [t Et]. exists m, t. unfold view2. now rewrite Ef, Em, Et.
  Qed.
  Ltac upd H := let G := fresh "G" in let L := fresh "L" in destruct (vset_val _ _ _ _ H) as [_ [L G]].
  Ltac viewj := intros j Dj; unfold view2; cbn [c2_flag c2_mid c2_time];
    repeat match goal with G : forall j, vget ?x j = _ |- _ => rewrite !G; clear G end; rewrite ?(proj2 (N.eqb_neq _ j)) by lia; reflexivity.

  Lemma enter_does r now acc acc' i : good2 acc -> enter (code (other r)) acc i = Val acc' -> does [(Enter r, now)] acc acc' i.
  Proof.
    intros Gd E. unfold enter in E. apply bind_val in E. destruct E as [f [Ef E]].
    destruct (view2_some acc i f Gd Ef) as [m [t [Em [Et V]]]]. destruct Gd as [G1 [G2 G3]].
    destruct (f =? code (other r))%N eqn:Ff.
    - apply bind_val in E. destruct E as [mi [Emi E]]. injection E as <-. destruct (vset_val _ _ _ _ Emi) as [_ [L G]].
      split; [unfold good2; cbn; lia|]. split; [discriminate|]. split; [rewrite V; discriminate|].
      intros x Hx. rewrite V in Hx. injection Hx as <-. cbn [mrun step2 fst snd]. rewrite Ff. cbn [fst snd app]. rewrite app_nil_r.
      split; [unfold view2; cbn [c2_flag c2_mid c2_time]; rewrite Ef, Et, G, N.eqb_refl; reflexivity|]. split; [reflexivity|].
      intros j Dj. unfold view2. cbn [c2_flag c2_mid c2_time]. rewrite G. rewrite (proj2 (N.eqb_neq i j)) by lia. reflexivity.
    - injection E as <-. split; [split; auto|]. split; [discriminate|]. split; [rewrite V; discriminate|].
      intros x Hx. rewrite V in Hx. injection Hx as <-. cbn [mrun step2 fst snd]. rewrite Ff. cbn [fst snd app]. rewrite app_nil_r. auto.
  Qed.
  Lemma leave_does r now acc acc' i : good2 acc -> leave (code r) (code (other r)) now acc i = Val acc' -> does [(Leave r, now)] acc acc' i.
  Proof.
    intros Gd E. unfold leave in E. apply bind_val in E. destruct E as [f [Ef E]].
    destruct (view2_some acc i f Gd Ef) as [m [t [Em [Et V]]]]. destruct Gd as [G1 [G2 G3]].
    unfold does. rewrite V.
    destruct (f =? 0)%N eqn:F0.
    { apply bind_val in E. destruct E as [tm [Etm E]]. apply bind_val in E. destruct E as [fl [Efl E]].
      assert (E' : mkCirc2 fl (c2_mid acc) tm (c2_mtime acc) (c2_out acc) = acc') by congruence. subst acc'.
      destruct (vset_val _ _ _ _ Etm) as [_ [L2 Gt]]. destruct (vset_val _ _ _ _ Efl) as [_ [L1 Gf]].
      split; [unfold good2; cbn [c2_flag c2_mid c2_time c2_mtime]; lia|]. split; [discriminate|]. split; [discriminate|].
      intros x [= <-]. cbn [mrun step2 fst snd]. rewrite F0. cbn [fst snd app c2_out]. rewrite app_nil_r.
      split; [unfold view2; cbn [c2_flag c2_mid c2_time]; rewrite Gf, Gt, Em, N.eqb_refl; reflexivity|]. split; [reflexivity|].
      intros j Dj. unfold view2. cbn [c2_flag c2_mid c2_time]. rewrite Gf, Gt. rewrite (proj2 (N.eqb_neq i j)) by lia. reflexivity. }
    destruct (f =? code r)%N eqn:F1.
    { rewrite Em in E. cbn [bind] in E. destruct (m =? 1)%N eqn:M1.
      - rewrite Et in E. cbn [bind] in E. apply bind_val in E. destruct E as [mi [Emi E]]. apply bind_val in E. destruct E as [tm [Etm E]].
        assert (E' : mkCirc2 (c2_flag acc) mi tm (c2_mtime acc) (c2_out acc ++ [(t, now)]) = acc') by congruence. subst acc'.
        destruct (vset_val _ _ _ _ Emi) as [_ [L1 Gm]]. destruct (vset_val _ _ _ _ Etm) as [_ [L2 Gt]].
        split; [unfold good2; cbn [c2_flag c2_mid c2_time c2_mtime]; lia|]. split; [discriminate|]. split; [discriminate|].
        intros x [= <-]. cbn [mrun step2 fst snd]. rewrite F0, F1, M1. cbn [fst snd app c2_out].
        split; [unfold view2; cbn [c2_flag c2_mid c2_time]; rewrite Ef, Gm, Gt, N.eqb_refl; reflexivity|]. split; [reflexivity|].
        intros j Dj. unfold view2. cbn [c2_flag c2_mid c2_time]. rewrite Gm, Gt. rewrite (proj2 (N.eqb_neq i j)) by lia. reflexivity.
      - apply bind_val in E. destruct E as [tm [Etm E]].
        assert (E' : mkCirc2 (c2_flag acc) (c2_mid acc) tm (c2_mtime acc) (c2_out acc) = acc') by congruence. subst acc'.
        destruct (vset_val _ _ _ _ Etm) as [_ [L2 Gt]].
        split; [unfold good2; cbn [c2_flag c2_mid c2_time c2_mtime]; lia|]. split; [discriminate|]. split; [discriminate|].
        intros x [= <-]. cbn [mrun step2 fst snd]. rewrite F0, F1, M1. cbn [fst snd app c2_out]. rewrite app_nil_r.
        split; [unfold view2; cbn [c2_flag c2_mid c2_time]; rewrite Ef, Em, Gt, N.eqb_refl; reflexivity|]. split; [reflexivity|].
        intros j Dj. unfold view2. cbn [c2_flag c2_mid c2_time]. rewrite Gt. rewrite (proj2 (N.eqb_neq i j)) by lia. reflexivity. }
    destruct (f =? code (other r))%N.
    { apply bind_val in E. destruct E as [mt [Emt E]]. assert (E' : mkCirc2 (c2_flag acc) (c2_mid acc) (c2_time acc) mt (c2_out acc) = acc') by congruence. subst acc'.
      destruct (vset_val _ _ _ _ Emt) as [_ [L2 _]].
      split; [unfold good2; cbn [c2_flag c2_mid c2_time c2_mtime]; lia|]. split; [discriminate|]. split; [discriminate|].
      intros x [= <-]. cbn [mrun step2 fst snd]. rewrite F0, F1. cbn [fst snd app c2_out]. rewrite app_nil_r. split; [exact V|]. auto. }
    assert (acc = acc') by congruence. subst acc'. split; [split; auto|]. split; [discriminate|]. split; [discriminate|].
    intros x [= <-]. cbn [mrun step2 fst snd]. rewrite F0, F1. cbn [fst snd app]. rewrite app_nil_r. auto.
  Qed.
  Lemma lower_does b0 now pa qa acc acc' i : good2 acc -> lower_step b0 now pa qa acc i = Val acc' ->
    does (map (fun e => (e, now)) (lower_passage b0 pa qa)) acc acc' i.
  Proof.
    intros Gd E. unfold lower_step, lower_passage in *. destruct (nltb pa b0 && nltb b0 qa); [exact (enter_does Lower now acc acc' i Gd E)|].
    destruct (nltb b0 pa && nltb qa b0); [exact (leave_does Lower now acc acc' i Gd E)|].
    injection E as <-. now apply does_nil.
  Qed.
  Lemma body2 axis b0 b1 (x y : timestep F) acc acc' i m m' : rect x -> rect y -> at_ (samples x) i m -> at_ (samples y) i m' ->
    good2 acc -> circ2_step axis b0 b1 (ts_time y) acc i (sm_pos m') (sm_pos m) = Val acc' ->
    does (move_events axis b0 b1 (m, m')) acc acc' i.
  Proof.
    intros Rx Ry Hx Hy Gd E. destruct (samples_at y i m' Ry Hy) as [Tm _].
    unfold circ2_step in E. unfold move_events. cbn [fst snd].
    destruct (v3get (sm_pos m') axis) as [pa|]; [|discriminate]. destruct (v3get (sm_pos m) axis) as [qa|]; [|discriminate].
    cbn [bind] in E. unfold cross_time. cbn [snd]. rewrite Tm. unfold passages.
    destruct (nltb b1 pa && nltb qa b1).
    - apply bind_val in E. destruct E as [st [E1 E2]]. cbn [map]. 
      assert (D1 := enter_does Upper (ts_time y) acc st i Gd E1).
      exact (does_app [(Enter Upper, ts_time y)] _ acc st acc' i D1 (lower_does _ _ _ _ _ _ _ (proj1 D1) E2)).
    - destruct (nltb pa b1 && nltb b1 qa); [exact (leave_does Upper (ts_time y) acc acc' i Gd E) | now apply lower_does].
  Qed.
  Lemma enter_total own acc i : (i < vlen (c2_flag acc))%N -> good2 acc -> exists acc', enter (F := F) own acc i = Val acc' /\ vlen (c2_flag acc') = vlen (c2_flag acc) /\ good2 acc'.
  Proof.
    intros L [G1 [G2 G3]]. unfold enter. destruct (vget_lt _ _ L) as [f ->]. cbn [bind]. destruct (f =? own)%N.
    - destruct (vset_ok (c2_mid acc) i 1%N ltac:(lia)) as [mi E]. rewrite E. cbn [bind]. eexists. split; [reflexivity|].
      destruct (vset_val _ _ _ _ E) as [_ [L1 _]]. unfold good2. cbn. split; [reflexivity | lia].
    - eexists. split; [reflexivity|]. split; [reflexivity|]. repeat split; assumption.
  Qed.
  Lemma leave_total own oth now acc i : (i < vlen (c2_flag acc))%N -> good2 acc -> exists acc', leave (F := F) own oth now acc i = Val acc'.
  Proof.
    intros L [G1 [G2 G3]]. unfold leave. destruct (vget_lt _ _ L) as [f ->]. cbn [bind].
    destruct (vget_lt (c2_mid acc) i ltac:(lia)) as [m ->]. destruct (vget_lt (c2_time acc) i ltac:(lia)) as [t ->].
    destruct (vset_ok (c2_flag acc) i own ltac:(lia)) as [fl ->]. destruct (vset_ok (c2_mid acc) i 0%N ltac:(lia)) as [mi ->].
    destruct (vset_ok (c2_time acc) i now ltac:(lia)) as [tm ->]. destruct (vset_ok (c2_mtime acc) i now ltac:(lia)) as [mt ->]. cbn [bind].
    destruct (f =? 0)%N; [eauto|]. destruct (f =? own)%N; [destruct (m =? 1)%N; eauto|]. destruct (f =? oth)%N; eauto.
  Qed.
  Lemma lower_total b0 now pa qa acc i : (i < vlen (c2_flag acc))%N -> good2 acc -> exists acc', lower_step (F := F) b0 now pa qa acc i = Val acc'.
  Proof.
    intros L G. unfold lower_step. destruct (nltb pa b0 && nltb b0 qa); [destruct (enter_total 1 acc i L G) as [a [E _]]; eauto|].
    destruct (nltb b0 pa && nltb qa b0); [now apply leave_total | eauto].
  Qed.
  Lemma total2 axis b0 b1 (x y : timestep F) acc i m m' t : (axis < 3)%N -> rect x -> rect y -> at_ (samples x) i m -> at_ (samples y) i m' ->
    good2 acc -> view2 acc i = Some t -> exists acc', circ2_step axis b0 b1 (ts_time y) acc i (sm_pos m') (sm_pos m) = Val acc'.
  Proof.
    intros Ax _ _ _ _ Gd V. unfold circ2_step.
    destruct (v3get_ok (sm_pos m') axis Ax) as [pa ->]. destruct (v3get_ok (sm_pos m) axis Ax) as [qa ->]. cbn [bind].
    assert (L : (i < vlen (c2_flag acc))%N). { unfold view2 in V. destruct (vget (c2_flag acc) i) as [f|] eqn:Ef; [|discriminate]. now apply vget_lt_inv in Ef. }
    destruct (nltb b1 pa && nltb qa b1).
    - destruct (enter_total 2 acc i L Gd) as [a [-> [La Ga]]]. cbn [bind]. apply lower_total; [lia | exact Ga].
    - destruct (nltb pa b1 && nltb b1 qa); [now apply leave_total | now apply lower_total].
  Qed.
  Lemma init2 np : tracks view2 c2_out step2 (0%N, 0%N, n0) good2 np (fun _ => [])
    (mkCirc2 (repeat 0%N (N.to_nat np)) (repeat 0%N (N.to_nat np)) (repeat n0 (N.to_nat np)) (repeat n0 (N.to_nat np)) []).
  Proof.
    split; [unfold good2, vlen; cbn; now rewrite !repeat_length|]. split; [|split].
    - intros i Hi. split; [|reflexivity]. unfold view2. cbn [c2_flag]. rewrite vget_repeat. now rewrite (proj2 (N.ltb_ge _ _)) by lia.
    - intros i Hi. unfold view2. cbn [c2_flag c2_mid c2_time]. rewrite !vget_repeat. now rewrite (proj2 (N.ltb_lt _ _)) by lia.
    - cbn [c2_out mrun snd]. induction (range 0 np) as [|a l IH]; [reflexivity | exact IH].
  Qed.

  (** The machine computes the trips. *)
  Lemma run_laps r l : forall m t, (m = 0 \/ m = 1)%N ->
    snd (mrun step2 (code r, m, t) l) = laps r (Some (t, (m =? 1)%N)) l.
  Proof.
    assert (C : forall a, (code a =? 0)%N = false) by (intros []; reflexivity).
    induction l as [|[p now] l IH]; intros m t Hm; [reflexivity|]. cbn [mrun step2 fst snd].
    destruct p as [q|q].
    - destruct (code r =? code (other q))%N eqn:E.
      + cbn [fst snd app]. rewrite (IH 1%N t (or_intror eq_refl)). destruct r, q; try discriminate E; reflexivity.
      + cbn [fst snd app]. rewrite (IH m t Hm). destruct r, q; try discriminate E; reflexivity.
    - rewrite C. destruct (code r =? code q)%N eqn:E.
      + destruct Hm as [->| ->]; cbn [N.eqb Pos.eqb fst snd app].
        * rewrite (IH 0%N now (or_introl eq_refl)). destruct r, q; try discriminate E; reflexivity.
        * rewrite (IH 0%N now (or_introl eq_refl)). destruct r, q; try discriminate E; reflexivity.
      + cbn [fst snd app]. rewrite (IH m t Hm). destruct r, q; try discriminate E; reflexivity.
  Qed.
  Lemma run_trips l : snd (mrun step2 (0%N, 0%N, n0) l) = trips l.
  Proof.
    induction l as [|[[r|r] t] l IH]; [reflexivity| |].
    - cbn [mrun step2 fst snd trips]. assert ((0 =? code (other r))%N = false) as -> by (destruct r; reflexivity). cbn [fst snd app]. exact IH.
    - cbn [mrun step2 fst snd trips N.eqb app]. rewrite (run_laps r l 0 t (or_introl eq_refl)). destruct r; reflexivity.
  Qed.

  (** The intervals reported are the round trips of every particle. *)
  Theorem c48_intervals bld (M : mgr F) d s axis b0 b1 L d' out :
    recorded M d L -> sel_ok s -> circulation_time_two_boundary bld M d s axis b0 b1 = Val (d', out) ->
    recorded M d' L /\
    Permutation out (flat_map (fun i => trips (passings s axis b0 b1 L i)) (range 0 (st_nparticles (m_stats M) + 1))).
  Proof.
    intros Rc Sk E. unfold circulation_time_two_boundary in E. apply bind_val in E. destruct E as [ok [_ E]]. destruct ok; cbn [negb] in E; [|discriminate].
    apply bind_val in E. destruct E as [ok [_ E]]. destruct ok; cbn [negb] in E; [|discriminate].
    apply bind_val in E. destruct E as [[d1 st] [E1 E]]. apply Val_pair in E. destruct E as [<- <-]. cbn [fst snd].
    set (np := (st_nparticles (m_stats M) + 1)%N) in *.
    assert (Q := pair_loop_spec bld M s (fun old y => pair_particles s old y (circ2_step axis b0 b1 (ts_time y))) d L
      (mkCirc2 (repeat 0%N (N.to_nat np)) (repeat 0%N (N.to_nat np)) (repeat n0 (N.to_nat np)) (repeat n0 (N.to_nat np)) []) Rc).
    destruct (mfold _ (compared s L) _) as [r|] eqn:Em; [|rewrite Q in E1; discriminate].
    destruct Q as [d2 [Q R2]]. rewrite Q in E1. apply Val_pair in E1. destruct E1 as [<- <-]. split; [exact R2|].
    assert (T := tracks_all view2 c2_out step2 (0%N, 0%N, n0) good2 np s (fun _ y => circ2_step axis b0 b1 (ts_time y)) (move_events axis b0 b1)
      (body2 axis b0 b1) (compared s L) _ _ r (compared_Forall rect s L (proj2 (proj2 Rc))) Sk (init2 np) Em).
    destruct T as [_ [_ [_ T]]]. rewrite T. cbn [app]. rewrite !flat_map_concat_map.
    erewrite map_ext; [reflexivity|]. intros i. cbn beta. apply run_trips.
  Qed.
  Theorem c48_returns bld (M : mgr F) d s axis b0 b1 L n :
    recorded M d L -> sel_ok s -> within_range M axis b0 -> within_range M axis b1 ->
    Forall (fun x => vlen (ts_pos x) = n) L -> (n <= st_nparticles (m_stats M) + 1)%N ->
    exists d' out, circulation_time_two_boundary bld M d s axis b0 b1 = Val (d', out).
  Proof.
    intros Rc Sk Dm0 Dm1 Hn Hnp. apply in_dims_range in Dm0, Dm1. unfold circulation_time_two_boundary. rewrite Dm0, Dm1. cbn [bind negb].
    assert (Ax : (axis < 3)%N). { destruct (N.ltb_spec axis 3) as [A|A]; [exact A|]. unfold in_dims in Dm0. rewrite v3get_panic in Dm0 by exact A. discriminate. }
    set (np := (st_nparticles (m_stats M) + 1)%N) in *.
    assert (Q := pair_loop_spec bld M s (fun old y => pair_particles s old y (circ2_step axis b0 b1 (ts_time y))) d L
      (mkCirc2 (repeat 0%N (N.to_nat np)) (repeat 0%N (N.to_nat np)) (repeat n0 (N.to_nat np)) (repeat n0 (N.to_nat np)) []) Rc).
    assert (P : Forall (fun x => rect x /\ vlen (ts_pos x) = n) L).
    { apply Forall_forall. intros x Hx. split; [|rewrite Forall_forall in Hn; now apply Hn]. destruct Rc as [_ [_ R]]. rewrite Forall_forall in R. now apply R. }
    assert (P2 := compared_Forall _ s L P).
    destruct (total_all view2 c2_out step2 (0%N, 0%N, n0) good2 np s (fun _ y => circ2_step axis b0 b1 (ts_time y)) (move_events axis b0 b1)
      (body2 axis b0 b1) (fun x y acc i m m' t => total2 axis b0 b1 x y acc i m m' t Ax) (compared s L) n) with
      (evs := fun _ : N => @nil (passage * F)) (acc := mkCirc2 (repeat 0%N (N.to_nat np)) (repeat 0%N (N.to_nat np)) (repeat n0 (N.to_nat np)) (repeat n0 (N.to_nat np)) (@nil (F * F))) as [r Er].
    - eapply Forall_impl; [|exact P2]. intros [x y] [[A1 A2] [B1 B2]]. auto.
    - exact Hnp.
    - exact Sk.
    - apply init2.
    - cbv beta in Q. rewrite Er in Q. destruct Q as [d' [Q _]]. rewrite Q. cbn [bind]. eauto.
  Qed.
  Theorem c48_refused bld (M : mgr F) d s axis b0 b1 : ~ within_range M axis b0 \/ ~ within_range M axis b1 ->
    circulation_time_two_boundary bld M d s axis b0 b1 = Panic.
  Proof.
    intros H. rewrite <- !in_dims_range in H. unfold circulation_time_two_boundary. destruct (in_dims M axis b0) as [[]|]; cbn [bind negb]; [|reflexivity..].
    destruct (in_dims M axis b1) as [[]|]; cbn [bind negb]; [|reflexivity..]. destruct H as [H|H]; now contradiction H.
  Qed.
  (** Passages of a particle come in time order. *)
  Lemma passings_sorted (le : F -> F -> Prop) s axis b0 b1 (L : list (timestep F)) i :
    Forall rect L -> StronglySorted (fun x y => le (ts_time x) (ts_time y)) L -> (forall x, In x L -> le (ts_time x) (ts_time x)) ->
    StronglySorted le (map snd (passings s axis b0 b1 L i)) /\ forall e, In e (passings s axis b0 b1 L i) -> le (snd e) (snd e).
  Proof.
    intros Rc S Rf. assert (Q := moves_sorted le s L i Rc S). unfold passings.
    assert (T : forall mm e, In e (move_events axis b0 b1 mm) -> snd e = cross_time mm).
    { intros mm e He. unfold move_events in He. destruct (v3get (sm_pos (snd mm)) axis); [|contradiction]. destruct (v3get (sm_pos (fst mm)) axis); [|contradiction].
      apply in_map_iff in He. destruct He as [p [<- _]]. reflexivity. }
    assert (R2 : forall mm, In mm (moves s L i) -> le (cross_time mm) (cross_time mm)).
    { intros [m m'] Hm. apply moves_in in Hm. destruct Hm as [x [y [Cxy [_ [Hy _]]]]]. apply compared_in in Cxy. destruct Cxy as [_ Iy].
      rewrite Forall_forall in Rc. unfold cross_time. cbn [snd]. destruct (samples_at y i m' (Rc y Iy) Hy) as [-> _]. now apply Rf. }
    split.
    - induction (moves s L i) as [|mm l IH]; [constructor|]. apply StronglySorted_inv in Q. destruct Q as [Q H]. cbn [flat_map]. rewrite map_app.
      assert (Hl : StronglySorted le (map snd (flat_map (move_events axis b0 b1) l))) by (apply IH; [exact Q | intros; apply R2; now right]).
      assert (All : forall e, In e (map snd (flat_map (move_events axis b0 b1) l)) -> le (cross_time mm) e).
      { intros e He. apply in_map_iff in He. destruct He as [pe [<- He]]. apply in_flat_map in He. destruct He as [m2 [H2 He]].
        rewrite (T m2 pe He). rewrite Forall_forall in H. now apply H. }
      assert (Hh : forall e, In e (map snd (move_events axis b0 b1 mm)) -> e = cross_time mm).
      { intros e He. apply in_map_iff in He. destruct He as [pe [<- He]]. now apply T. }
      specialize (R2 mm (or_introl eq_refl)). revert Hh. generalize (map snd (move_events axis b0 b1 mm)) as h. induction h as [|e h IHh]; intros Hh; [exact Hl|].
      cbn [app]. constructor; [apply IHh; intros; apply Hh; now right|]. apply Forall_forall. intros e' He'.
      rewrite (Hh e (or_introl eq_refl)). apply in_app_or in He'. destruct He' as [He'|He']; [rewrite (Hh e' (or_intror He')); exact R2 | now apply All].
    - intros e He. apply in_flat_map in He. destruct He as [mm [Hm He]]. rewrite (T mm e He). now apply R2.
  Qed.
  (** Times in order: the intervals of one particle are ordered and do not overlap. *)
  Theorem c48_disjoint (le : F -> F -> Prop) s axis b0 b1 (L : list (timestep F)) i :
    Forall rect L -> StronglySorted (fun x y => le (ts_time x) (ts_time y)) L -> (forall x, In x L -> le (ts_time x) (ts_time x)) ->
    StronglySorted le (ends (trips (passings s axis b0 b1 L i))).
  Proof. intros Rc S Rf. destruct (passings_sorted le s axis b0 b1 L i Rc S Rf) as [A B]. now apply c48_ordered. Qed.
End C48.

(** ** A case and the refutations *)
Definition circ2_of (L : list (timestep f64)) : res (list (Z * Z)) :=
  let! r := circulation_time_two_boundary Debug (list_mgr L (circ_stats (vlen L))) tt sel_default 0 (d (-2)) (d 2) in
  Val (map (fun v => (Btrunc (fst v), Btrunc (snd v))) (snd r)).
Definition at_x (t x : Z) := two_at t 1 2 x 0.
(** Out of the top at 1, into the bottom at 2, out of it at 3, into the top at 4, out of it at 5. *)
Definition circ2_ex := [at_x 0 3; at_x 1 0; at_x 2 (-3); at_x 3 0; at_x 4 3; at_x 5 0; at_x 6 0].
Example c48_case : recorded (list_mgr circ2_ex (circ_stats 7)) tt circ2_ex /\ sel_ok (sel_default (F := f64)) /\
  within_range (list_mgr circ2_ex (circ_stats 7)) 0 (d (-2)) /\ within_range (list_mgr circ2_ex (circ_stats 7)) 0 (d 2) /\
  Forall (fun x => vlen (ts_pos x) = 2%N) circ2_ex /\ StronglySorted (fun x y => Bleb (ts_time x) (ts_time y) = true) circ2_ex /\
  circ2_of circ2_ex = Val [(1, 5)%Z].
Proof.
  split; [apply list_recorded; [discriminate | repeat constructor | reflexivity]|].
  split; [repeat split; discriminate|]. split; [apply in_dims_range; vm_compute; reflexivity|]. split; [apply in_dims_range; vm_compute; reflexivity|]. split; [repeat constructor|].
  split; [repeat constructor; vm_compute; reflexivity | vm_compute; reflexivity].
Qed.
(** A fall from the top region straight into the bottom region is not noticed at the lower boundary:
    the round trip top - bottom - top - out is not reported. *)
Theorem c48_fall_refuted : circ2_of [at_x 0 3; at_x 1 (-3); at_x 2 0; at_x 3 3; at_x 4 0; at_x 5 0] = Val [].
Proof. vm_compute. reflexivity. Qed.
(** A rise from the bottom region straight into the top region ends a trip, although the particle
    had not been in the top region since it last left the bottom. *)
Theorem c48_rise_refuted : circ2_of [at_x 0 (-3); at_x 1 0; at_x 2 (-3); at_x 3 3; at_x 4 3] = Val [(1, 3)%Z].
Proof. vm_compute. reflexivity. Qed.

(** ** The same for every record (exact arithmetic: only comparisons are involved) *)
Section Jumps.
  Context {TF : Trig R}.
  Local Open Scope R_scope.
  (** What a move does: stays above or below both boundaries, or passes both at once. *)
  Definition from_to (axis : N) (mm : sample R * sample R) (q p : R) : Prop :=
    v3get (sm_pos (fst mm)) axis = Val q /\ v3get (sm_pos (snd mm)) axis = Val p.
  Definition stays_above axis (b1 : R) mm : Prop := exists q p, from_to axis mm q p /\ b1 < q /\ b1 < p.
  Definition stays_below axis (b0 : R) mm : Prop := exists q p, from_to axis mm q p /\ q < b0 /\ p < b0.
  Definition falls axis (b0 b1 : R) mm : Prop := exists q p, from_to axis mm q p /\ b1 < q /\ p < b0.
  Definition rises axis (b0 b1 : R) mm : Prop := exists q p, from_to axis mm q p /\ q < b0 /\ b1 < p.

  Lemma above_events axis b0 b1 mm : b0 <= b1 -> stays_above axis b1 mm -> move_events axis b0 b1 mm = [].
  Proof.
    intros B [q [p [[Eq Ep] [Q P]]]]. unfold move_events. rewrite Ep, Eq. unfold passages, lower_passage. cbn [nltb num_R].
    repeat match goal with |- context [Rlt_dec ?x ?y] => destruct (Rlt_dec x y); try (exfalso; lra) end; reflexivity.
  Qed.
  Lemma below_events axis b0 b1 mm : b0 <= b1 -> stays_below axis b0 mm -> move_events axis b0 b1 mm = [].
  Proof.
    intros B [q [p [[Eq Ep] [Q P]]]]. unfold move_events. rewrite Ep, Eq. unfold passages, lower_passage. cbn [nltb num_R].
    repeat match goal with |- context [Rlt_dec ?x ?y] => destruct (Rlt_dec x y); try (exfalso; lra) end; reflexivity.
  Qed.
  Lemma fall_events axis b0 b1 mm : b0 <= b1 -> falls axis b0 b1 mm -> move_events axis b0 b1 mm = [(Leave Upper, cross_time mm)].
  Proof.
    intros B [q [p [[Eq Ep] [Q P]]]]. unfold move_events. rewrite Ep, Eq. unfold passages, lower_passage. cbn [nltb num_R].
    repeat match goal with |- context [Rlt_dec ?x ?y] => destruct (Rlt_dec x y); try (exfalso; lra) end; reflexivity.
  Qed.
  Lemma rise_events axis b0 b1 mm : b0 <= b1 -> rises axis b0 b1 mm ->
    move_events axis b0 b1 mm = [(Enter Upper, cross_time mm); (Leave Lower, cross_time mm)].
  Proof.
    intros B [q [p [[Eq Ep] [Q P]]]]. unfold move_events. rewrite Ep, Eq. unfold passages, lower_passage. cbn [nltb num_R].
    repeat match goal with |- context [Rlt_dec ?x ?y] => destruct (Rlt_dec x y); try (exfalso; lra) end; reflexivity.
  Qed.
  (** A particle that starts above and then passes both boundaries in one step whenever it passes any
      is never reported, however often it goes down and up again. *)
  Theorem c84_jumps_missed s axis b0 b1 (L : list (timestep R)) i pre mm post : b0 <= b1 ->
    moves s L i = pre ++ mm :: post -> Forall (stays_above axis b1) pre -> falls axis b0 b1 mm ->
    Forall (fun m => stays_above axis b1 m \/ stays_below axis b0 m \/ falls axis b0 b1 m \/ rises axis b0 b1 m) post ->
    trips (passings s axis b0 b1 L i) = [].
  Proof.
    intros B E Hp Hm Hq. unfold passings. rewrite E, flat_map_app. cbn [flat_map].
    replace (flat_map (move_events axis b0 b1) pre) with (@nil (passage * R)).
    - rewrite (fall_events _ _ _ _ B Hm). cbn [app trips laps].
      assert (G : forall o, laps Upper o (flat_map (move_events axis b0 b1) post) = [] \/ exists t, o = Some (t, true)).
      { clear E Hp. induction Hq as [|m post Hm' Hq IH]; intros o; [now left|]. cbn [flat_map].
        destruct Hm' as [H|[H|[H|H]]];
          [rewrite (above_events _ _ _ _ B H) | rewrite (below_events _ _ _ _ B H) | rewrite (fall_events _ _ _ _ B H) | rewrite (rise_events _ _ _ _ B H)]; cbn [app laps]; try (apply IH).
        destruct o as [[t []]|]; [right; eauto | |]; left; (destruct (IH (Some (cross_time m, false))) as [->|[t' T]]; [reflexivity | discriminate]). }
      destruct (G (Some (cross_time mm, false))) as [->|[t T]]; [reflexivity | discriminate].
    - symmetry. clear - Hp B. induction Hp as [|m pre H _ IH]; [reflexivity|]. cbn [flat_map]. now rewrite (above_events _ _ _ _ B H), IH.
  Qed.
  (** A particle that leaves the lower region, returns to it and then rises past both boundaries in one step
      is reported with the time from its departure to that rise, although it has not been above in between. *)
  Theorem c84_rise_reported s axis b0 b1 (L : list (timestep R)) i pre c1 mid c2 post : b0 <= b1 ->
    moves s L i = pre ++ c1 :: mid ++ c2 :: post -> Forall (stays_below axis b0) pre ->
    (exists q p, from_to axis c1 q p /\ q < b0 < p /\ p < b1) ->
    (forall m, In m mid -> exists q p, from_to axis m q p /\ p < b1 /\ q < b1 /\ ~ (q < b0 < p)) ->
    rises axis b0 b1 c2 -> In (cross_time c1, cross_time c2) (trips (passings s axis b0 b1 L i)).
  Proof.
    intros B E Hp [q [p [[Eq Ep] [H1 H2]]]] Hm Hr. unfold passings. rewrite E, flat_map_app. cbn [flat_map]. rewrite flat_map_app. cbn [flat_map].
    replace (flat_map (move_events axis b0 b1) pre) with (@nil (passage * R)).
    2:{ symmetry. clear - Hp B. induction Hp as [|m pre H _ IH]; [reflexivity|]. cbn [flat_map]. now rewrite (below_events _ _ _ _ B H), IH. }
    assert (E1 : move_events axis b0 b1 c1 = [(Leave Lower, cross_time c1)]).
    { unfold move_events. rewrite Ep, Eq. unfold passages, lower_passage. cbn [nltb num_R].
      repeat match goal with |- context [Rlt_dec ?x ?y] => destruct (Rlt_dec x y); try (exfalso; lra) end; reflexivity. }
    rewrite E1, (rise_events _ _ _ _ B Hr). cbn [app trips laps].
    assert (G : forall l, laps Lower (Some (cross_time c1, false)) (flat_map (move_events axis b0 b1) mid ++ l) = laps Lower (Some (cross_time c1, false)) l).
    { intros l. clear E Hr. induction mid as [|m mid IH]; [reflexivity|]. cbn [flat_map]. rewrite <- app_assoc.
      destruct (Hm m (or_introl eq_refl)) as [q' [p' [[Eq' Ep'] [A1 [A2 A3]]]]].
      assert (Em : move_events axis b0 b1 m = [] \/ move_events axis b0 b1 m = [(Enter Lower, cross_time m)]).
      { unfold move_events. rewrite Ep', Eq'. unfold passages, lower_passage. cbn [nltb num_R].
        repeat match goal with |- context [Rlt_dec ?x ?y] => destruct (Rlt_dec x y); try (exfalso; tauto || lra) end; auto. }
      destruct Em as [-> | ->]; cbn [app laps]; apply IH; intros m' I; apply Hm; now right. }
    rewrite G. cbn [app laps]. now left.
  Qed.
End Jumps.
(** Two records that meet these hypotheses: the falls and the rise of the two refutations above. *)
Section Jumps_case.
  Let h (x : R) : sample R := mkSample 0%R (x, 0, 0)%R (0, 0, 0)%R 0%R 0%R 0%R 0%R 0%R.
  Example c84_jumps_case : falls 0 (-2) 2 (h 3, h (-3)) /\ rises 0 (-2) 2 (h (-3), h 3) /\ stays_above 0 2 (h 3, h 4) /\ stays_below 0 (-2) (h (-3), h (-4)) /\
    exists q p, from_to 0 (h (-3), h 0) q p /\ (q < -2 < p /\ p < 2)%R.
  Proof. repeat split; do 2 eexists; (split; [split; reflexivity|]); lra. Qed.
End Jumps_case.
