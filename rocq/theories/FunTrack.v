(** * FunTrack: loops over consecutive timesteps that follow every particle separately. *)
From Coq Require Import List NArith ZArith Bool Lia Permutation ZifyBool ZifyN ZifyNat.
From Verif Require Import Base BaseFacts Num NDArray GridModel SelModel DataModel DataSpec DataLoad
  FunModel FunSpec FunProofs CondModel.
Local Open Scope list_scope.

(** ** Specification *)
Section Spec.
  Context {F : Type} {NF : Num F}.
  Fixpoint pairs {A} (x : A) (l : list A) : list (A * A) :=
    match l with [] => [] | y :: r => (x, y) :: pairs y r end.
  (** The pairs of timesteps compared: the first timestep of the data, then those in the time
      window, the last timestep excepted. *)
  Definition compared (s : selector F) (L : list (timestep F)) : list (timestep F * timestep F) :=
    match L with
    | [] => []
    | x0 :: r => pairs x0 (filter (fun y => timestep_valid s (ts_time y)) (removelast r))
    end.
  (** The moves of particle [i] (before, after): it is at index [i] in both timesteps with one id, and the
      selector accepts it in the later one. *)
  Definition move1 (s : selector F) (i : N) (xy : timestep F * timestep F) : list (sample F * sample F) :=
    match nth_error (samples (fst xy)) (N.to_nat i), nth_error (samples (snd xy)) (N.to_nat i) with
    | Some m, Some m' => if accepts s m' && neqb (sm_id m') (sm_id m) then [(m, m')] else []
    | _, _ => []
    end.
  Definition moves (s : selector F) (L : list (timestep F)) (i : N) : list (sample F * sample F) :=
    flat_map (move1 s i) (compared s L).
End Spec.

Section Loops.
  Context {F : Type} {NF : Num F}.

  Lemma pair_fold {A} (M : mgr F) (s : selector F) (body : timestep F -> timestep F -> A -> res A) (Inv : ms M -> Prop) L0 :
    (forall d t x, Inv d -> at_ L0 t x -> exists d', m_get M d t = Val (d', x) /\ Inv d') ->
    forall L k d x acc, (forall i y, at_ L i y -> at_ L0 (k + i)%N y) -> Inv d ->
    match mfold (fun acc xy => body (fst xy) (snd xy) acc) (pairs x (filter (fun y => timestep_valid s (ts_time y)) L)) acc with
    | Val r => exists d' x', loop_ts M s (fun st _ y => let '(old, acc) := snd st in
          let! acc' := body old y acc in Val (fst st, (y, acc'))) (range k (k + vlen L)) (d, (x, acc)) = Val (d', (x', r)) /\ Inv d'
    | Panic => loop_ts M s (fun st _ y => let '(old, acc) := snd st in
          let! acc' := body old y acc in Val (fst st, (y, acc'))) (range k (k + vlen L)) (d, (x, acc)) = Panic
    end.
  Proof.
    intros Get. induction L as [|y L IH]; intros k d x acc Sub I.
    - cbn [filter pairs mfold]. unfold vlen. cbn [length]. rewrite range_empty by lia. exists d, x. split; [reflexivity | exact I].
    - rewrite range_cons by (unfold vlen; cbn [length]; lia).
      replace (k + vlen (y :: L))%N with (k + 1 + vlen L)%N by (unfold vlen; cbn [length]; lia).
      assert (Hy : at_ L0 k y). { specialize (Sub 0%N y eq_refl). now rewrite N.add_0_r in Sub. }
      destruct (Get d k y I Hy) as [d1 [G I1]].
      assert (Sub' : forall i z, at_ L i z -> at_ L0 (k + 1 + i)%N z).
      { intros i z Hi. replace (k + 1 + i)%N with (k + (i + 1))%N by lia. apply Sub. unfold at_.
        replace (N.to_nat (i + 1)) with (Datatypes.S (N.to_nat i)) by lia. exact Hi. }
      unfold loop_ts in *. cbn [mfold filter fst snd]. rewrite G. cbn [bind].
      destruct (timestep_valid s (ts_time y)).
      + cbn [pairs mfold fst snd]. destruct (body x y acc) as [acc1|]; cbn [bind fst snd]; [|reflexivity].
        exact (IH (k + 1)%N d1 y acc1 Sub' I1).
      + cbn [bind]. exact (IH (k + 1)%N d1 x acc Sub' I1).
  Qed.

  Lemma removelast_vlen {A} (l : list A) : vlen (removelast l) = (vlen l - 1)%N.
  Proof.
    destruct l as [|a l]; [reflexivity|].
    assert (Q := f_equal (@List.length A) (app_removelast_last (l := a :: l) a ltac:(discriminate))). rewrite app_length in Q.
    cbn [List.length] in Q. unfold vlen. cbn [List.length]. lia.
  Qed.
  Lemma removelast_at {A} (l : list A) i x : at_ (removelast l) i x -> at_ l i x.
  Proof.
    intros H. destruct l as [|a l]; [unfold at_ in H; cbn [removelast] in H; destruct (N.to_nat i); discriminate H|].
    rewrite (app_removelast_last a (l := a :: l)) by discriminate. now apply at_app1.
  Qed.

  (** The whole loop is a fold over the compared pairs. *)
  Lemma pair_loop_spec {A} bld (M : mgr F) (s : selector F) (body : timestep F -> timestep F -> A -> res A) d L acc :
    recorded M d L ->
    match mfold (fun acc xy => body (fst xy) (snd xy) acc) (compared s L) acc with
    | Val r => exists d', pair_loop bld M s body d acc = Val (d', r) /\ recorded M d' L
    | Panic => pair_loop bld M s body d acc = Panic
    end.
  Proof.
    intros [[Nt [Inv [I Get]]] [Ne Rc]]. destruct L as [|x0 L]; [contradiction|]. cbn [compared].
    destruct (Get d 0%N x0 I eq_refl) as [d0 [G I0]].
    assert (Q := pair_fold M s body Inv (x0 :: L) Get (removelast L) 1 d0 x0 acc). 
    unfold pair_loop. rewrite G. cbn [bind]. rewrite Nt. rewrite usub_ge by (unfold vlen; cbn [length]; lia). cbn [bind].
    assert (E : (1 + vlen (removelast L) = vlen (x0 :: L) - 1)%N \/ L = []).
    { destruct L as [|y L]; [now right|]. left. rewrite removelast_vlen. unfold vlen. cbn [length]. lia. }
    assert (E' : range 1 (1 + vlen (removelast L)) = range 1 (vlen (x0 :: L) - 1)).
    { destruct E as [->| ->]; [reflexivity|]. reflexivity. }
    rewrite E' in Q. specialize (Q ltac:(intros i y Hi; apply removelast_at in Hi; unfold at_ in *; replace (N.to_nat (1 + i)) with (S (N.to_nat i)) by lia; exact Hi) I0).
    destruct (mfold _ _ acc) as [r|].
    - destruct Q as [d' [x' [Q I']]]. rewrite Q. cbn [bind fst snd]. exists d'. split; [reflexivity|].
      split; [|auto]. split; [exact Nt|]. exists Inv. auto.
    - rewrite Q. reflexivity.
  Qed.

  (** One pair of timesteps. *)
  Definition one_index {A} (s : selector F) (x y : timestep F) (body : A -> N -> v3 F -> v3 F -> res A) (acc : A) (i : N) (m' : sample F) : res A :=
    if accepts s m' then
      match nth_error (samples x) (N.to_nat i) with
      | None => Panic
      | Some m => if neqb (sm_id m') (sm_id m) then body acc i (sm_pos m') (sm_pos m) else Val acc
      end
    else Val acc.
  Lemma pair_particles_spec {A} (s : selector F) (x y : timestep F) (body : A -> N -> v3 F -> v3 F -> res A) acc :
    rect x -> rect y -> sel_ok s ->
    pair_particles s x y body acc = mfold (fun acc '(i, m') => one_index s x y body acc i m') (enumerate (samples y)) acc.
  Proof.
    intros Rx Ry Sk. unfold pair_particles, loop_particles. rewrite <- (samples_length y Ry). unfold enumerate.
    set (step := fun (st : A) (i : N) => _).
    assert (G : forall l k acc, (forall i m', at_ l i m' -> at_ (samples y) (k + i) m') ->
      mfold step (range k (k + vlen l)) acc = mfold (fun acc '(i, m') => one_index s x y body acc i m') (combine (range k (k + vlen l)) l) acc).
    { induction l as [|m' l IH]; intros k acc' Sub.
      - unfold vlen. cbn [length]. rewrite range_empty by lia. reflexivity.
      - rewrite range_cons by (unfold vlen; cbn [length]; lia).
        replace (k + vlen (m' :: l))%N with (k + 1 + vlen l)%N by (unfold vlen; cbn [length]; lia).
        assert (Hm : at_ (samples y) k m'). { specialize (Sub 0%N m' eq_refl). now rewrite N.add_0_r in Sub. }
        cbn [combine mfold]. replace (step acc' k) with (one_index s x y body acc' k m').
        + destruct (one_index s x y body acc' k m') as [acc1|]; cbn [bind]; [|reflexivity]. apply IH. intros i z Hi.
          replace (k + 1 + i)%N with (k + (i + 1))%N by lia. apply Sub. unfold at_.
          replace (N.to_nat (i + 1)) with (S (N.to_nat i)) by lia. exact Hi.
        + unfold step, one_index. rewrite (valid_at_spec s y k m' Ry Sk Hm). cbn [bind]. destruct (accepts s m'); [|reflexivity].
          destruct (samples_at y k m' Ry Hm) as [_ [Hp [_ [_ [_ [_ [Hi _]]]]]]].
          rewrite (proj2 (vget_val _ _ _) Hp). cbn [bind]. rewrite (proj2 (vget_val _ _ _) Hi). cbn [bind].
          destruct (nth_error (samples x) (N.to_nat k)) as [m|] eqn:E.
          * destruct (samples_at x k m Rx E) as [_ [Hp' [_ [_ [_ [_ [Hi' _]]]]]]].
            rewrite (proj2 (vget_val _ _ _) Hi'). cbn [bind]. destruct (neqb (sm_id m') (sm_id m)); cbn [negb]; [|reflexivity].
            rewrite (proj2 (vget_val _ _ _) Hp'). reflexivity.
          * destruct (vget (ts_id x) k) as [z|] eqn:V; [|reflexivity]. exfalso. apply vget_lt_inv in V.
            apply nth_error_None in E. destruct Rx as [R1 [R2 [R3 [R4 [R5 R6]]]]].
            assert (SL := samples_length x ltac:(repeat split; assumption)). unfold vlen in *. lia. }
    exact (G (samples y) 0%N acc ltac:(intros; assumption)).
  Qed.

  (** ** One machine per particle *)
  Section Machine.
    Context {A T E O : Type} (view : A -> N -> option T) (outs : A -> list O) (mstep : T -> E -> T * list O) (t0 : T) (Good : A -> Prop).
    Fixpoint mrun (t : T) (l : list E) : T * list O :=
      match l with
      | [] => (t, [])
      | e :: l => (fst (mrun (fst (mstep t e)) l), snd (mstep t e) ++ snd (mrun (fst (mstep t e)) l))
      end.
    Lemma mrun_app t l1 l2 : mrun t (l1 ++ l2) = (fst (mrun (fst (mrun t l1)) l2), snd (mrun t l1) ++ snd (mrun (fst (mrun t l1)) l2)).
    Proof.
      revert t; induction l1 as [|e l IH]; intros t; cbn [app mrun fst snd]; [now destruct (mrun t l2)|].
      rewrite IH. cbn [fst snd]. now rewrite app_assoc.
    Qed.

    Variable np : N.
    (** Every particle is in the state its events lead to, and the outputs are those of all machines. *)
    Definition tracks (evs : N -> list E) (acc : A) : Prop :=
      Good acc /\
      (forall i, (np <= i)%N -> view acc i = None /\ evs i = []) /\
      (forall i, (i < np)%N -> view acc i = Some (fst (mrun t0 (evs i)))) /\
      Permutation (outs acc) (flat_map (fun i => snd (mrun t0 (evs i))) (range 0 np)).

    Lemma flat_map_update (f g : N -> list O) (n : N) i new : (i < n)%N -> (forall j, j <> i -> g j = f j) -> g i = f i ++ new ->
      Permutation (flat_map f (range 0 n) ++ new) (flat_map g (range 0 n)).
    Proof.
      intros Hi Hj Hg. rewrite (range_split 0 i n) by lia. rewrite (range_cons i n) by lia. rewrite !flat_map_app. cbn [flat_map].
      assert (X : forall a b, (b <= i \/ i < a)%N -> flat_map g (range a b) = flat_map f (range a b)).
      { intros a b H. rewrite !flat_map_concat_map. f_equal. apply map_ext_in. intros j Hjn. apply in_range in Hjn. apply Hj. lia. }
      rewrite (X 0%N i), (X (i + 1)%N n), Hg by lia. rewrite <- !app_assoc. apply Permutation_app_head. apply Permutation_app_head.
      apply Permutation_app_comm.
    Qed.

    Lemma tracks_step evs evs' acc acc' i e : tracks evs acc -> (forall j, evs' j = if (j =? i)%N then evs i ++ e else evs j) ->
      Good acc' -> (e = [] -> acc' = acc) -> (e <> [] -> view acc i <> None) ->
      (forall t, view acc i = Some t -> view acc' i = Some (fst (mrun t e)) /\ outs acc' = outs acc ++ snd (mrun t e) /\
        forall j, j <> i -> view acc' j = view acc j) ->
      tracks evs' acc'.
    Proof.
      intros [T0 [T1 [T2 T3]]] He Gd Hn Hs Ht. split; [exact Gd|].
      assert (Hi : evs' i = evs i ++ e) by (rewrite He, N.eqb_refl; reflexivity).
      assert (Hj : forall j, j <> i -> evs' j = evs j) by (intros j Hj; rewrite He, (proj2 (N.eqb_neq _ _) Hj); reflexivity).
      destruct (N.ltb_spec i np) as [Lt|Ge].
      - destruct (Ht _ (T2 i Lt)) as [V1 [O1 V2]]. split; [|split].
        + intros j Hge. rewrite V2, Hj by lia. now apply T1.
        + intros j Hlt. destruct (N.eq_dec j i) as [->|Dj]; [|rewrite V2, Hj by exact Dj; now apply T2].
          rewrite V1, Hi, mrun_app. reflexivity.
        + rewrite O1. rewrite T3. apply flat_map_update with (i := i); [exact Lt | |].
          * intros j Dj. now rewrite Hj.
          * rewrite Hi, mrun_app. reflexivity.
      - destruct (T1 i Ge) as [V E0]. assert (e = []) as -> by (destruct e; [reflexivity | exfalso; now apply Hs]).
        rewrite (Hn eq_refl). assert (Q : forall j, evs' j = evs j).
        { intros j. destruct (N.eq_dec j i) as [->|Dj]; [rewrite Hi; apply app_nil_r | now apply Hj]. }
        split; [|split].
        + intros j Hge. rewrite Q. now apply T1.
        + intros j Hlt. rewrite Q. now apply T2.
        + rewrite T3. rewrite !flat_map_concat_map. erewrite map_ext; [reflexivity|]. intros j. cbn beta. now rewrite Q.
    Qed.

    Variable (s : selector F) (body : timestep F -> timestep F -> A -> N -> v3 F -> v3 F -> res A) (ev : sample F * sample F -> list E).
    Hypothesis Body : forall x y acc acc' i m m', rect x -> rect y -> at_ (samples x) i m -> at_ (samples y) i m' ->
      Good acc -> body x y acc i (sm_pos m') (sm_pos m) = Val acc' ->
      Good acc' /\ (ev (m, m') = [] -> acc' = acc) /\ (ev (m, m') <> [] -> view acc i <> None) /\
      (forall t, view acc i = Some t -> view acc' i = Some (fst (mrun t (ev (m, m')))) /\ outs acc' = outs acc ++ snd (mrun t (ev (m, m'))) /\
        forall j, j <> i -> view acc' j = view acc j).

    Lemma tracks_ext evs evs' acc : (forall i, evs i = evs' i) -> tracks evs acc -> tracks evs' acc.
    Proof.
      intros Q [T0 [T1 [T2 T3]]]. split; [exact T0|]. split; [|split].
      - intros i Hi. rewrite <- Q. now apply T1.
      - intros i Hi. rewrite <- Q. now apply T2.
      - rewrite T3. rewrite !flat_map_concat_map. erewrite map_ext; [reflexivity|]. intros j. cbn beta. now rewrite Q.
    Qed.

    Lemma tracks_pair evs acc acc' x y : rect x -> rect y -> sel_ok s -> tracks evs acc ->
      pair_particles s x y (body x y) acc = Val acc' ->
      tracks (fun i => evs i ++ flat_map ev (move1 s i (x, y))) acc'.
    Proof.
      intros Rx Ry Sk T0 E0. rewrite (pair_particles_spec s x y (body x y) acc Rx Ry Sk) in E0. unfold enumerate in E0.
      assert (G : forall l k acc acc', (forall i m', at_ l i m' -> at_ (samples y) (k + i) m') ->
        tracks (fun i => evs i ++ if (i <? k)%N then flat_map ev (move1 s i (x, y)) else []) acc ->
        mfold (fun acc '(i, m') => one_index s x y (body x y) acc i m') (combine (range k (k + vlen l)) l) acc = Val acc' ->
        tracks (fun i => evs i ++ if (i <? k + vlen l)%N then flat_map ev (move1 s i (x, y)) else []) acc').
      { induction l as [|m' l IH]; intros k a a' Sub Tr Em.
        - unfold vlen in *. cbn [length] in *. rewrite range_empty in Em by lia. cbn [combine mfold] in Em. injection Em as <-.
          now rewrite N.add_0_r.
        - rewrite range_cons in Em by (unfold vlen; cbn [length]; lia).
          replace (k + vlen (m' :: l))%N with (k + 1 + vlen l)%N in * by (unfold vlen; cbn [length]; lia).
          cbn [combine mfold] in Em. apply bind_val in Em. destruct Em as [a1 [E1 E2]].
          assert (Hm : at_ (samples y) k m'). { specialize (Sub 0%N m' eq_refl). now rewrite N.add_0_r in Sub. }
          apply (IH (k + 1)%N a1 a'); [| |exact E2].
          { intros i z Hi. replace (k + 1 + i)%N with (k + (i + 1))%N by lia. apply Sub. unfold at_.
            replace (N.to_nat (i + 1)) with (S (N.to_nat i)) by lia. exact Hi. }
          set (e := flat_map ev (move1 s k (x, y))).
 assert (Ga : Good a) by apply Tr.
          assert (Step : Good a1 /\ (e = [] -> a1 = a) /\ (e <> [] -> view a k <> None) /\
            (forall t, view a k = Some t -> view a1 k = Some (fst (mrun t e)) /\ outs a1 = outs a ++ snd (mrun t e) /\
             forall j, j <> k -> view a1 j = view a j)).
          { assert (Skip : a1 = a -> e = [] -> Good a1 /\ (e = [] -> a1 = a) /\ (e <> [] -> view a k <> None) /\
            (forall t, view a k = Some t -> view a1 k = Some (fst (mrun t e)) /\ outs a1 = outs a ++ snd (mrun t e) /\
             forall j, j <> k -> view a1 j = view a j)).
            { intros -> ->. split; [exact Ga|]. split; [auto|]. split; [intros C; now contradiction C|]. intros t Hv. cbn [mrun fst snd]. rewrite app_nil_r. auto. }
            unfold one_index in E1. unfold e, move1 in *. cbn [fst snd] in *. unfold at_ in Hm. rewrite Hm in *.
            destruct (accepts s m'); [|injection E1 as <-; destruct (nth_error (samples x) (N.to_nat k)); now apply Skip].
            destruct (nth_error (samples x) (N.to_nat k)) as [m|] eqn:Ex; [|discriminate]. cbn [andb] in *.
            destruct (neqb (sm_id m') (sm_id m)); [|injection E1 as <-; now apply Skip].
            cbn [flat_map] in *. rewrite app_nil_r. exact (Body x y a a1 k m m' Rx Ry Ex Hm Ga E1). }
          destruct Step as [S0 [S1 [S2 S3]]].
          apply (tracks_step (fun i => evs i ++ (if (i <? k)%N then flat_map ev (move1 s i (x, y)) else [])) _ a a1 k e); [exact Tr | | exact S0 | exact S1 | exact S2 | exact S3].
          intros j. destruct (N.eqb_spec j k) as [->|Dj].
          + rewrite (proj2 (N.ltb_ge k k)) by lia. rewrite (proj2 (N.ltb_lt k (k + 1))) by lia. rewrite app_nil_r. reflexivity.
          + destruct (N.ltb_spec j k); [rewrite (proj2 (N.ltb_lt j (k + 1))) by lia | rewrite (proj2 (N.ltb_ge j (k + 1))) by lia]; reflexivity. }
      specialize (G (samples y) 0%N acc acc' ltac:(intros; assumption)).
      eapply tracks_ext; [|apply G; [|exact E0]].
      - intros i. cbn beta. destruct (N.ltb_spec i (0 + vlen (samples y))); [reflexivity|].
        unfold move1. cbn [fst snd]. assert (nth_error (samples y) (N.to_nat i) = None) as -> by (apply nth_error_None; unfold vlen in *; lia).
        now destruct (nth_error (samples x) (N.to_nat i)).
      - eapply tracks_ext; [|exact T0]. intros i. cbn beta. rewrite (proj2 (N.ltb_ge i 0)) by lia. now rewrite app_nil_r.
    Qed.

    Lemma tracks_all L evs acc acc' : Forall (fun xy => rect (fst xy) /\ rect (snd xy)) L -> sel_ok s -> tracks evs acc ->
      mfold (fun acc xy => pair_particles s (fst xy) (snd xy) (body (fst xy) (snd xy)) acc) L acc = Val acc' ->
      tracks (fun i => evs i ++ flat_map ev (flat_map (move1 s i) L)) acc'.
    Proof.
      intros R Sk. revert evs acc. induction R as [|[x y] L [Rx Ry] RL IH]; intros evs acc T0 E0.
      - cbn [mfold] in E0. injection E0 as <-. eapply tracks_ext; [|exact T0]. intros i. cbn [flat_map]. now rewrite app_nil_r.
      - cbn [mfold fst snd] in *. apply bind_val in E0. destruct E0 as [a1 [E1 E2]].
        assert (T1 := tracks_pair evs acc a1 x y Rx Ry Sk T0 E1). specialize (IH _ a1 T1 E2).
        eapply tracks_ext; [|exact IH]. intros i. cbn beta. cbn [flat_map]. now rewrite flat_map_app, app_assoc.
    Qed.

    (** Total if every particle of every timestep has a machine. *)
    Hypothesis Total : forall x y acc i m m' t, rect x -> rect y -> at_ (samples x) i m -> at_ (samples y) i m' ->
      Good acc -> view acc i = Some t -> exists acc', body x y acc i (sm_pos m') (sm_pos m) = Val acc'.
    Lemma total_pair evs acc x y : rect x -> rect y -> sel_ok s -> tracks evs acc -> (vlen (ts_pos y) <= np)%N ->
      (vlen (ts_pos y) <= vlen (ts_pos x))%N -> exists acc', pair_particles s x y (body x y) acc = Val acc'.
    Proof.
      intros Rx Ry Sk T0 Hn Hxy. rewrite (pair_particles_spec s x y (body x y) acc Rx Ry Sk). unfold enumerate.
      rewrite <- (samples_length y Ry) in Hn, Hxy. rewrite <- (samples_length x Rx) in Hxy.
      assert (P0 : Good acc /\ forall i, (i < np)%N -> view acc i <> None) by (destruct T0 as [T0 [_ [T2 _]]]; split; [exact T0|]; intros i Hi; rewrite (T2 i Hi); discriminate).
      clear T0. revert acc P0.
      assert (G : forall l k acc, (forall i m', at_ l i m' -> at_ (samples y) (k + i) m') -> (k + vlen l = vlen (samples y))%N ->
        Good acc /\ (forall i, (i < np)%N -> view acc i <> None) -> exists acc',
        mfold (fun acc '(i, m') => one_index s x y (body x y) acc i m') (combine (range k (k + vlen l)) l) acc = Val acc').
      { induction l as [|m' l IH]; intros k a Sub Hk P0.
        - exists a. unfold vlen. cbn [length]. rewrite range_empty by lia. reflexivity.
        - rewrite range_cons by (unfold vlen; cbn [length]; lia).
          replace (k + vlen (m' :: l))%N with (k + 1 + vlen l)%N in * by (unfold vlen; cbn [length]; lia).
          cbn [combine mfold].
          assert (Hm : at_ (samples y) k m'). { specialize (Sub 0%N m' eq_refl). now rewrite N.add_0_r in Sub. }
          assert (Lk := at_lt _ _ _ Hm). destruct (lt_at (samples x) k ltac:(lia)) as [m Hx].
          assert (S1 : exists a1, one_index s x y (body x y) a k m' = Val a1 /\ Good a1 /\ forall i, (i < np)%N -> view a1 i <> None).
          { unfold one_index. destruct (accepts s m'); [|exists a; auto]. unfold at_ in Hx. rewrite Hx.
            destruct (neqb (sm_id m') (sm_id m)); [|exists a; auto].
            assert (Vk := proj2 P0 k ltac:(lia)). destruct (view a k) as [t|] eqn:Ev; [|now contradiction Vk].
            destruct (Total x y a k m m' t Rx Ry Hx Hm (proj1 P0) Ev) as [a1 E1]. exists a1. split; [exact E1|].
            destruct (Body x y a a1 k m m' Rx Ry Hx Hm (proj1 P0) E1) as [Ga1 [_ [_ B]]]. destruct (B t Ev) as [B1 [_ B2]]. split; [exact Ga1|].
            intros i Hi. destruct (N.eq_dec i k) as [->|Di]; [rewrite B1; discriminate | rewrite B2 by exact Di; now apply (proj2 P0)]. }
          destruct S1 as [a1 [-> P1]]. cbn [bind]. apply IH; [| lia | exact P1].
          intros i z Hi. replace (k + 1 + i)%N with (k + (i + 1))%N by lia. apply Sub. unfold at_.
          replace (N.to_nat (i + 1)) with (S (N.to_nat i)) by lia. exact Hi. }
      intros acc P0. exact (G (samples y) 0%N acc ltac:(intros; assumption) ltac:(lia) P0).
    Qed.
    Lemma total_all L n : Forall (fun xy => rect (fst xy) /\ rect (snd xy) /\ vlen (ts_pos (fst xy)) = n /\ vlen (ts_pos (snd xy)) = n) L ->
      (n <= np)%N -> sel_ok s -> forall evs acc, tracks evs acc -> exists acc',
      mfold (fun acc xy => pair_particles s (fst xy) (snd xy) (body (fst xy) (snd xy)) acc) L acc = Val acc'.
    Proof.
      intros H Hn Sk. induction H as [|[x y] L [Rx [Ry [Nx Ny]]] HL IH]; intros evs acc T0; [exists acc; reflexivity|].
      cbn [mfold fst snd] in *. destruct (total_pair evs acc x y Rx Ry Sk T0 ltac:(lia) ltac:(lia)) as [a1 E1]. rewrite E1. cbn [bind].
      exact (IH _ a1 (tracks_pair evs acc a1 x y Rx Ry Sk T0 E1)).
    Qed.
  End Machine.

  Lemma pairs_Forall {A} (P : A -> Prop) x l : P x -> Forall P l -> Forall (fun xy => P (fst xy) /\ P (snd xy)) (pairs x l).
  Proof.
    intros Hx H. revert x Hx. induction H as [|y l Hy Hl IH]; intros x Hx; cbn [pairs]; constructor; [cbn; auto | now apply IH].
  Qed.
  Lemma compared_Forall (P : timestep F -> Prop) s L : Forall P L -> Forall (fun xy => P (fst xy) /\ P (snd xy)) (compared s L).
  Proof.
    intros H. destruct L as [|x0 L]; [constructor|]. inversion H as [|? ? Hx HL]; subst. cbn [compared]. apply pairs_Forall; [exact Hx|].
    apply Forall_forall. intros y Hy. apply filter_In in Hy. destruct Hy as [Hy _]. rewrite Forall_forall in HL. apply HL.
    apply In_nth_error in Hy. destruct Hy as [k Hk]. apply (nth_error_In L (N.to_nat (N.of_nat k))).
    apply removelast_at. unfold at_. now rewrite Nnat.Nat2N.id.
  Qed.
End Loops.
