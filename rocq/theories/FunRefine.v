(** * FunRefine: what a call returns depends on the manager only through what its reads return.

    Two managers whose reads agree as long as their states are related give the same outcome (the
    same value, or a panic) for every function of the crate, and related states afterwards. *)
From Coq Require Import ZArith NArith List Bool String Lia ZifyBool ZifyN ZifyNat.
From Verif Require Import Base BaseFacts Num NDArray GridModel SelModel DataModel DataSpec FunModel MixModel CondModel PyModel FunDisp.

(** Both panic, or both return related values. *)
Definition rres {A B} (R : A -> B -> Prop) (x : res A) (y : res B) : Prop :=
  match x, y with Val a, Val b => R a b | Panic, Panic => True | _, _ => False end.

Lemma rbind {A B A' B'} (R : A -> B -> Prop) (R' : A' -> B' -> Prop) x y k k' :
  rres R x y -> (forall a b, R a b -> rres R' (k a) (k' b)) -> rres R' (bind x k) (bind y k').
Proof. destruct x, y; cbn; intros H1 H2; try contradiction; auto. Qed.
Lemma rbind_eq {A A' B'} (R' : A' -> B' -> Prop) (x : res A) k k' :
  (forall a, rres R' (k a) (k' a)) -> rres R' (bind x k) (bind x k').
Proof. destruct x; cbn; auto. Qed.
Lemma rfold {A B C} (R : A -> B -> Prop) (f : A -> C -> res A) (g : B -> C -> res B) l : forall a b,
  (forall a b c, In c l -> R a b -> rres R (f a c) (g b c)) -> R a b -> rres R (mfold f l a) (mfold g l b).
Proof.
  induction l as [|c l IH]; intros a b H Hr; cbn; [exact Hr|].
  apply (rbind R); [apply H; [now left | exact Hr]|]. intros. apply IH; [|assumption]. intros. apply H; [now right | assumption].
Qed.
Lemma rres_weaken {A B} (R R' : A -> B -> Prop) x y : (forall a b, R a b -> R' a b) -> rres R x y -> rres R' x y.
Proof. destruct x, y; cbn; auto. Qed.

(** Related states and equal results. *)
Definition agree {S T A} (Rel : S -> T -> Prop) (a : S * A) (b : T * A) : Prop := Rel (fst a) (fst b) /\ snd a = snd b.
(** What a call returns, without the state. *)
Definition outcome {S A} (r : res (S * A)) : res A := match r with Val (_, a) => Val a | Panic => Panic end.
Lemma agree_outcome {S T A} (Rel : S -> T -> Prop) (x : res (S * A)) (y : res (T * A)) :
  rres (agree Rel) x y -> outcome x = outcome y.
Proof. destruct x as [[s a]|], y as [[t b]|]; cbn; try contradiction; [intros [_ H]; cbn in H; now subst | reflexivity]. Qed.

Section Refine.
  Context {F : Type} {NF : Num F} {TF : Trig F}.
  Variable bld : build.
  Variables M1 M2 : mgr F.
  Hypothesis Hst : m_stats M1 = m_stats M2.
  Notation nt := (st_timesteps (m_stats M2)).
  Hypothesis Hnt : (1 <= nt)%N.

  Section Get.
  Variable Rel : ms M1 -> ms M2 -> Prop.
  Hypothesis Hget : forall d e t, Rel d e -> (t < nt)%N -> rres (agree Rel) (m_get M1 d t) (m_get M2 e t).

  Lemma r_loop_ts {S} (s : selector F) b1 b2 l (d : ms M1) (e : ms M2) (acc : S) :
    (forall d e acc t x, In t l -> Rel d e -> rres (agree Rel) (b1 (d, acc) t x) (b2 (e, acc) t x)) ->
    (forall t, In t l -> (t < nt)%N) -> Rel d e ->
    rres (agree Rel) (loop_ts M1 s b1 l (d, acc)) (loop_ts M2 s b2 l (e, acc)).
  Proof.
    intros Hb Hl Hr. unfold loop_ts. apply rfold; [|split; [exact Hr | reflexivity]].
    intros [d1 a1] [e1 a2] t Ht [R1 R2]. cbn [fst snd] in *. subst a2.
    apply (rbind (agree Rel)); [apply Hget; auto|]. intros [d2 x] [e2 y] [R3 R4]. cbn [fst snd] in *. subst y.
    destruct (timestep_valid s (ts_time x)); [now apply Hb | split; [exact R3 | reflexivity]].
  Qed.
  Lemma r_loop_pure {S} (s : selector F) (b : S -> timestep F -> res S) l (d : ms M1) (e : ms M2) (acc : S) :
    (forall t, In t l -> (t < nt)%N) -> Rel d e ->
    rres (agree Rel) (loop_pure M1 s b l (d, acc)) (loop_pure M2 s b l (e, acc)).
  Proof.
    intros Hl Hr. apply r_loop_ts; [|exact Hl | exact Hr]. intros. cbn [fst snd]. apply rbind_eq. intros a. split; [assumption | reflexivity].
  Qed.
  Lemma r_all_steps : all_steps bld M1 = all_steps bld M2.
  Proof. unfold all_steps. now rewrite Hst. Qed.
  Lemma r_steps_but k : steps_but bld M1 k = steps_but bld M2 k.
  Proof. unfold steps_but. now rewrite Hst. Qed.
  Lemma all_steps_lt l : all_steps bld M2 = Val l -> forall t, In t l -> (t < nt)%N.
  Proof. unfold all_steps. rewrite usub_ge by lia. cbn. intros E t Ht. injection E as <-. apply in_range in Ht. lia. Qed.
  Lemma steps_but_lt k l : (k <= nt)%N -> steps_but bld M2 k = Val l -> forall t, In t l -> (t + k < nt)%N.
  Proof. unfold steps_but. intros Hk. rewrite usub_ge by lia. cbn. intros E t Ht. injection E as <-. apply in_range in Ht. lia. Qed.

  (** All functions of the form: loop over all timesteps, then a pure end. *)
  Ltac over := intros Hr; rewrite ?r_all_steps, ?r_steps_but;
    match goal with |- rres _ (bind ?x _) _ => destruct x as [l|] eqn:El; [|exact I] end; cbn [bind].

  Lemma r_vectorfield d e g s : Rel d e -> rres (agree Rel) (vectorfield bld M1 d g s) (vectorfield bld M2 e g s).
  Proof.
    unfold vectorfield. over. apply (rbind (agree Rel)); [apply r_loop_pure; [exact (all_steps_lt l El) | exact Hr]|].
    intros [d1 a] [e1 b] [R1 R2]. cbn [fst snd] in *. subst b. apply rbind_eq. intros. now split.
  Qed.
  Lemma r_velocityfield d e g s mode vmin vmax : Rel d e ->
    rres (agree Rel) (velocityfield bld M1 d g s mode vmin vmax) (velocityfield bld M2 e g s mode vmin vmax).
  Proof.
    intros Hr. unfold velocityfield. apply rbind_eq. intros calc. revert Hr. over.
    apply (rbind (agree Rel)); [apply r_loop_pure; [exact (all_steps_lt l El) | exact Hr]|].
    intros [d1 a] [e1 b] [R1 R2]. cbn [fst snd] in *. subst b. apply rbind_eq. intros. now split.
  Qed.
  Lemma r_numberfield d e g s : Rel d e -> rres (agree Rel) (numberfield bld M1 d g s) (numberfield bld M2 e g s).
  Proof. unfold numberfield. over. apply r_loop_pure; [exact (all_steps_lt l El) | exact Hr]. Qed.
  Lemma r_showcase d e s : Rel d e -> rres (agree Rel) (mean_velocity_showcase bld M1 d s) (mean_velocity_showcase bld M2 e s).
  Proof.
    unfold mean_velocity_showcase. over. apply (rbind (agree Rel)); [apply r_loop_pure; [exact (all_steps_lt l El) | exact Hr]|].
    intros [d1 a] [e1 b] [R1 R2]. cbn [fst snd] in *. subst b. now split.
  Qed.
  Lemma r_histogram d e g s property limit bins : Rel d e ->
    rres (agree Rel) (histogram bld M1 d g s property limit bins) (histogram bld M2 e g s property limit bins).
  Proof.
    intros Hr. unfold histogram. rewrite Hst. destruct (negb _); [exact I|]. destruct (st_velmag (m_stats M2)) as [[lo mean] top].
    cbv zeta. revert Hr. over. apply (rbind (agree Rel)); [apply r_loop_pure; [exact (all_steps_lt l El) | exact Hr]|].
    intros [d1 a] [e1 b] [R1 R2]. cbn [fst snd] in *. subst b. now split.
  Qed.
  Lemma r_temperature d e g s mode : Rel d e ->
    rres (agree Rel) (granular_temperature_field bld M1 d g s mode) (granular_temperature_field bld M2 e g s mode).
  Proof.
    unfold granular_temperature_field. over. apply (rbind (agree Rel)); [apply r_loop_pure; [exact (all_steps_lt l El) | exact Hr]|].
    intros [d1 a] [e1 b] [R1 R2]. cbn [fst snd] in *. subst b. repeat (apply rbind_eq; intros). now split.
  Qed.
  Lemma r_concentration d e g s ta tb : Rel d e ->
    rres (agree Rel) (concentration_field bld M1 d g s ta tb) (concentration_field bld M2 e g s ta tb).
  Proof.
    unfold concentration_field. over.
    assert (Hl : forall t, In t l -> (t < nt)%N) by (intros t Ht; pose proof (steps_but_lt 1 l ltac:(lia) El t Ht); lia).
    apply (rbind (agree Rel)); [apply r_loop_pure; [exact Hl | exact Hr]|].
    intros [d1 [a a']] [e1 b] [R1 R2]. cbn [fst snd] in *. subst b. repeat (apply rbind_eq; intros). now split.
  Qed.
  Lemma r_lacey d e g s ta tb thr : Rel d e ->
    rres (agree Rel) (lacey_mixing bld M1 d g s ta tb thr) (lacey_mixing bld M2 e g s ta tb thr).
  Proof.
    intros Hr. unfold lacey_mixing. rewrite Hst. rewrite usub_ge by lia. cbn [bind]. cbv zeta.
    apply r_loop_ts; [|intros t Ht; apply in_range in Ht; lia | exact Hr].
    intros d1 e1 acc t x _ R1. cbn [fst snd]. repeat (apply rbind_eq; intros). now split.
  Qed.
  Lemma r_extract d e pid a b : Rel d e -> rres (agree Rel) (extract bld M1 d pid a b) (extract bld M2 e pid a b).
  Proof.
    intros Hr. unfold extract. rewrite Hst.
    destruct ((nt <=? a) || (nt <=? b))%N%bool eqn:C; [exact I|]. apply orb_false_iff in C. destruct C as [Ca Cb].
    apply rbind_eq. intros n. apply rbind_eq. intros z. apply rfold; [|now split].
    intros [d1 a1] [e1 a2] [id t] Ht [R1 R2]. cbn [fst snd] in *. subst a2.
    assert (Hlt : (t < nt)%N) by (apply in_combine_r in Ht; apply in_range in Ht; lia).
    apply (rbind (agree Rel)); [now apply Hget|]. intros [d2 x] [e2 y] [R3 R4]. cbn [fst snd] in *. subst y.
    repeat (apply rbind_eq; intros). now split.
  Qed.
  Lemma r_pair_loop {A} (s : selector F) (body : timestep F -> timestep F -> A -> res A) d e acc : Rel d e ->
    rres (agree Rel) (pair_loop bld M1 s body d acc) (pair_loop bld M2 s body e acc).
  Proof.
    intros Hr. unfold pair_loop. apply (rbind (agree Rel)); [apply Hget; [exact Hr | lia]|].
    intros [d1 x] [e1 y] [R1 R2]. cbn [fst snd] in *. subst y. rewrite Hst, usub_ge by lia. cbn [bind].
    apply (rbind (agree Rel)).
    - apply r_loop_ts; [|intros t Ht; apply in_range in Ht; lia | exact R1].
      intros d2 e2 [old a] t y _ R2. cbn [fst snd]. apply rbind_eq. intros. now split.
    - intros [d2 [u a]] [e2 b] [R3 R4]. cbn [fst snd] in *. subst b. now split.
  Qed.
  Lemma r_circulation d e s axis b : Rel d e ->
    rres (agree Rel) (circulation_time bld M1 d s axis b) (circulation_time bld M2 e s axis b).
  Proof.
    intros Hr. unfold circulation_time, in_dims. rewrite Hst. apply rbind_eq. intros ok. destruct (negb ok); [exact I|]. cbv zeta.
    apply (rbind (agree Rel)); [now apply r_pair_loop|]. intros [d1 a] [e1 a'] [R1 R2]. cbn [fst snd] in *. subst a'. now split.
  Qed.
  Lemma r_circulation2 d e s axis b0 b1 : Rel d e ->
    rres (agree Rel) (circulation_time_two_boundary bld M1 d s axis b0 b1) (circulation_time_two_boundary bld M2 e s axis b0 b1).
  Proof.
    intros Hr. unfold circulation_time_two_boundary, in_dims. rewrite Hst.
    apply rbind_eq. intros ok. destruct (negb ok); [exact I|]. apply rbind_eq. intros ok'. destruct (negb ok'); [exact I|]. cbv zeta.
    apply (rbind (agree Rel)); [now apply r_pair_loop|]. intros [d1 a] [e1 a'] [R1 R2]. cbn [fst snd] in *. subst a'. now split.
  Qed.
  (** Indexing, as long as the timesteps asked for exist. *)
  Lemma r_int d e i : Rel d e -> (py_index M2 i < nt)%N -> rres (agree Rel) (py_int M1 d i) (py_int M2 e i).
  Proof.
    intros Hr Hi. unfold py_int. unfold py_index at 1. rewrite Hst. apply (rbind (agree Rel)); [now apply Hget|].
    intros [d1 x] [e1 y] [R1 R2]. cbn [fst snd] in *. subst y. apply rbind_eq. intros. now split.
  Qed.
  Lemma r_blocks d e out l : Rel d e -> (forall t, In t l -> (t < nt)%N) ->
    rres (agree Rel) (py_blocks M1 d out l) (py_blocks M2 e out l).
  Proof.
    intros Hr Hl. unfold py_blocks. apply rfold; [|now split].
    intros [d1 a1] [e1 a2] [k t] Ht [R1 R2]. cbn [fst snd] in *. subst a2. apply in_combine_r in Ht.
    apply (rbind (agree Rel)); [apply Hget; auto|]. intros [d2 x] [e2 y] [R3 R4]. cbn [fst snd] in *. subst y.
    repeat (apply rbind_eq; intros). now split.
  Qed.
  Lemma r_list d e l : Rel d e -> (forall i, In i l -> (py_index M2 i < nt)%N) -> rres (agree Rel) (py_list M1 d l) (py_list M2 e l).
  Proof.
    intros Hr Hl. unfold py_list, zero_blocks. rewrite Hst. apply rbind_eq. intros out.
    replace (map (py_index M1) l) with (map (py_index M2) l) by (apply map_ext; intros; unfold py_index; now rewrite Hst).
    apply r_blocks; [exact Hr|]. intros t Ht. apply in_map_iff in Ht. destruct Ht as [i [<- Hi]]. now apply Hl.
  Qed.
  Lemma r_slice d e a b st : Rel d e ->
    (forall a' b' st', slice_indices (Z.of_N nt) a b st = Val (a', b', st') ->
       forall t, In t (map as_usize (step_range a' b' (as_usize st'))) -> (t < nt)%N) ->
    rres (agree Rel) (py_slice M1 d a b st) (py_slice M2 e a b st).
  Proof.
    intros Hr Hl. unfold py_slice, zero_blocks. rewrite Hst.
    destruct (slice_indices (Z.of_N nt) a b st) as [[[a' b'] st']|] eqn:E; [|exact I]. cbn [bind].
    apply rbind_eq. intros out. apply r_blocks; [exact Hr|]. exact (Hl a' b' st' eq_refl).
  Qed.
  End Get.

  (** Functions with an auxiliary buffer: [Rel] between calls, [Rel1] once the buffer is set up,
      [Rel2] once timestep 0 has been read. *)
  Section Aux.
    Variables Rel Rel1 Rel2 : ms M1 -> ms M2 -> Prop.
    Hypothesis Hset : forall d e, Rel d e -> rres Rel1 (m_setup M1 d 0) (m_setup M2 e 0).
    Hypothesis Hget0 : forall d e, Rel1 d e -> rres (agree Rel2) (m_get M1 d 0) (m_get M2 e 0).
    Hypothesis Hget2 : forall d e t, Rel2 d e -> (t < nt)%N -> rres (agree Rel2) (m_get M1 d t) (m_get M2 e t).
    Hypothesis Hgetb : forall d e t, Rel2 d e -> (t < nt)%N -> rres (agree Rel2) (m_getb M1 d t 0) (m_getb M2 e t 0).
    Hypothesis Hb1 : forall d e, Rel1 d e -> Rel d e.
    Hypothesis Hb2 : forall d e, Rel2 d e -> Rel d e.

    Lemma r_fold0 {S} (f : ms M1 * S -> N -> res (ms M1 * S)) (f' : ms M2 * S -> N -> res (ms M2 * S)) n d e acc :
      Rel1 d e ->
      (forall d e, Rel1 d e -> rres (agree Rel2) (f (d, acc) 0%N) (f' (e, acc) 0%N)) ->
      (forall d e acc t, Rel2 d e -> (t < n)%N -> rres (agree Rel2) (f (d, acc) t) (f' (e, acc) t)) ->
      rres (agree Rel) (mfold f (range 0 n) (d, acc)) (mfold f' (range 0 n) (e, acc)).
    Proof.
      intros Hr H0 H2. destruct (N.eq_dec n 0) as [->|Hn]; [rewrite range_empty by lia; cbn; split; [now apply Hb1 | reflexivity]|].
      rewrite range_cons by lia. cbn [mfold]. apply (rbind (agree Rel2)); [now apply H0|].
      intros [d1 a] [e1 b] [R1 R2]. cbn [fst snd] in *. subst b.
      apply (rres_weaken (agree Rel2)); [intros ? ? [A B]; split; [now apply Hb2 | exact B]|].
      apply rfold; [|now split]. intros [d2 a2] [e2 b2] t Ht [R3 R4]. cbn [fst snd] in *. subst b2.
      apply in_range in Ht. apply H2; [exact R3 | lia].
    Qed.

    Lemma r_occupancy d e g s mv : (3 <= nt)%N -> Rel d e ->
      rres (agree Rel) (occupancyfield bld M1 d g s mv) (occupancyfield bld M2 e g s mv).
    Proof.
      intros H3 Hr. unfold occupancyfield. apply (rbind Rel1); [now apply Hset|]. intros d0 e0 R0. rewrite r_steps_but.
      unfold steps_but. rewrite usub_ge by lia. cbn [bind].
      match goal with |- rres _ (bind ?x _) (bind ?y _) => assert (Q : rres (agree Rel) x y) end.
      { assert (Step : forall d1 e1 t x acc, Rel2 d1 e1 -> (t + 1 < nt)%N ->
          rres (agree Rel2)
           (let! r := m_getb M1 d1 (t + 1) 0 in let '(d2, y) := r in
            if negb (timestep_valid s (ts_time x)) then Val (d2, acc) else
            let! acc' := loop_particles s x (fun acc i p =>
              if negb (is_inside g p) then Val acc else
              let! v := vget (ts_vel x) i in
              let '(a, b, c) := v in
              if nltb (nsqrt (nadd (nadd (nadd n0 (nmul a a)) (nmul b b)) (nmul c c))) mv then Val acc else
              let spent := nsub (ts_time y) (ts_time x) in
              if nltb spent n0 then Val acc else
              if (vlen (ts_pos y) <=? i)%N then Val acc else
              let! q := vget (ts_pos y) i in
              let! h := add_trajectory_value bld (fst acc) p q spent in
              Val (h, nadd (snd acc) spent)) acc in
            Val (d2, acc'))
           (let! r := m_getb M2 e1 (t + 1) 0 in let '(d2, y) := r in
            if negb (timestep_valid s (ts_time x)) then Val (d2, acc) else
            let! acc' := loop_particles s x (fun acc i p =>
              if negb (is_inside g p) then Val acc else
              let! v := vget (ts_vel x) i in
              let '(a, b, c) := v in
              if nltb (nsqrt (nadd (nadd (nadd n0 (nmul a a)) (nmul b b)) (nmul c c))) mv then Val acc else
              let spent := nsub (ts_time y) (ts_time x) in
              if nltb spent n0 then Val acc else
              if (vlen (ts_pos y) <=? i)%N then Val acc else
              let! q := vget (ts_pos y) i in
              let! h := add_trajectory_value bld (fst acc) p q spent in
              Val (h, nadd (snd acc) spent)) acc in
            Val (d2, acc'))).
        { intros d1 e1 t x acc R1 Ht. apply (rbind (agree Rel2)); [now apply Hgetb|].
          intros [d2 y] [e2 y'] [R2 R3]. cbn [fst snd] in *. subst y'. destruct (negb _); [now split|].
          apply rbind_eq. intros. now split. }
        apply r_fold0; [exact R0 | |].
        - intros d1 e1 R1. apply (rbind (agree Rel2)); [now apply Hget0|]. intros [d2 x] [e2 x'] [R2 R3]. cbn [fst snd] in *. subst x'.
          apply Step; [exact R2 | lia].
        - intros d1 e1 acc t R1 Ht. apply (rbind (agree Rel2)); [apply Hget2; [exact R1 | lia]|]. intros [d2 x] [e2 x'] [R2 R3]. cbn [fst snd] in *. subst x'.
          apply Step; [exact R2 | lia]. }
      revert Q. match goal with |- rres _ ?x ?y -> _ => generalize x, y end. intros x y Q.
      apply (rbind (agree Rel) _ x y _ _ Q). intros [d1 [h t]] [e1 ht'] [R1 R2]. cbn [fst snd] in *. subst ht'. now split.
    Qed.
    Lemma r_homogenity d e g s mv : (3 <= nt)%N -> Rel d e ->
      rres (agree Rel) (homogenity_index bld M1 d g s mv) (homogenity_index bld M2 e g s mv).
    Proof.
      intros H3 Hr. unfold homogenity_index. apply (rbind (agree Rel)); [now apply r_occupancy|].
      intros [d1 h] [e1 h'] [R1 R2]. cbn [fst snd] in *. subst h'. apply rbind_eq. intros. now split.
    Qed.

    (** A time loop whose body reads the auxiliary buffer. *)
    Lemma r_loop_aux {S} (s : selector F) (b1 : ms M1 * S -> N -> timestep F -> res (ms M1 * S)) b2 n d e (acc : S) :
      (forall d e acc t x, Rel2 d e -> rres (agree Rel2) (b1 (d, acc) t x) (b2 (e, acc) t x)) -> (n <= nt)%N -> Rel1 d e ->
      rres (agree Rel) (loop_ts M1 s b1 (range 0 n) (d, acc)) (loop_ts M2 s b2 (range 0 n) (e, acc)).
    Proof.
      intros Hb Hn Hr. unfold loop_ts. apply r_fold0; [exact Hr | |]; cbn [fst snd].
      - intros d1 e1 R1. apply (rbind (agree Rel2)); [now apply Hget0|]. intros [d2 x] [e2 x'] [R2 R3]. cbn [fst snd] in *. subst x'.
        destruct (timestep_valid _ _); [now apply Hb | now split].
      - intros d1 e1 a t R1 Ht. apply (rbind (agree Rel2)); [apply Hget2; [exact R1 | lia]|]. intros [d2 x] [e2 x'] [R2 R3]. cbn [fst snd] in *. subst x'.
        destruct (timestep_valid _ _); [now apply Hb | now split].
    Qed.
    Hypothesis Hta : vlen (st_time (m_stats M2)) = nt.
    Lemma r_dispersion d e g s dt : Rel d e -> rres (agree Rel) (dispersion bld M1 d g s dt) (dispersion bld M2 e g s dt).
    Proof.
      intros Hr. unfold dispersion. apply (rbind Rel1); [now apply Hset|]. intros d0 e0 R0. rewrite r_all_steps.
      unfold all_steps. rewrite usub_ge by lia. cbn [bind]. rewrite Hst.
      match goal with |- rres _ (bind ?x _) (bind ?y _) => assert (Q : rres (agree Rel) x y) end.
      { apply r_loop_aux; [|lia | exact R0]. intros d1 e1 acc t x R1.
        destruct (closest bld (List.length (st_time (m_stats M2))) (st_time (m_stats M2)) (nadd (ts_time x) dt)) as [[[t'|]|]|] eqn:Cl; try exact I; [|now split].
        apply closest_bound in Cl. rewrite Hta in Cl.
        apply (rbind (agree Rel2)); [now apply Hgetb|]. intros [d2 y] [e2 y'] [R2 R3]. cbn [fst snd] in *. subst y'.
        apply rbind_eq. intros. now split. }
      revert Q. match goal with |- rres _ ?x ?y -> _ => generalize x, y end. intros x y Q.
      apply (rbind (agree Rel) _ x y _ _ Q). intros [d1 m] [e1 m'] [R1 R2]. cbn [fst snd] in *. subst m'.
      repeat (apply rbind_eq; intros). now split.
    Qed.
    Lemma r_msd_field d e g s dt : Rel d e -> rres (agree Rel) (msd_field bld M1 d g s dt) (msd_field bld M2 e g s dt).
    Proof.
      intros Hr. unfold msd_field. apply (rbind Rel1); [now apply Hset|]. intros d0 e0 R0. rewrite r_steps_but.
      unfold steps_but. rewrite usub_ge by lia. cbn [bind]. rewrite Hst.
      match goal with |- rres _ (bind ?x _) (bind ?y _) => assert (Q : rres (agree Rel) x y) end.
      { apply r_loop_aux; [|lia | exact R0]. intros d1 e1 acc t x R1.
        destruct (closest bld (List.length (st_time (m_stats M2))) (st_time (m_stats M2)) (nadd (ts_time x) dt)) as [[[t'|]|]|] eqn:Cl; try exact I; [|now split].
        apply closest_bound in Cl. rewrite Hta in Cl.
        apply (rbind (agree Rel2)); [now apply Hgetb|]. intros [d2 y] [e2 y'] [R2 R3]. cbn [fst snd] in *. subst y'.
        apply rbind_eq. intros. now split. }
      revert Q. match goal with |- rres _ ?x ?y -> _ => generalize x, y end. intros x y Q.
      apply (rbind (agree Rel) _ x y _ _ Q). intros [d1 m] [e1 m'] [R1 R2]. cbn [fst snd] in *. subst m'.
      apply rbind_eq. intros q. destruct (negb _); [exact I|]. repeat (apply rbind_eq; intros). now split.
    Qed.
    Lemma r_msd d e g s tmin tmax steps : Rel d e ->
      rres (agree Rel) (msd bld M1 d g s tmin tmax steps) (msd bld M2 e g s tmin tmax steps).
    Proof.
      intros Hr. unfold msd. cbv zeta. apply (rbind (agree Rel)).
      - apply rfold; [|now split]. intros [d1 a] [e1 a'] t _ [R1 R2]. cbn [fst snd] in *. subst a'.
        apply (rbind (agree Rel)); [now apply r_msd_field|]. intros [d2 h] [e2 h'] [R3 R4]. cbn [fst snd] in *. subst h'. now split.
      - intros [d1 a] [e1 a'] [R1 R2]. cbn [fst snd] in *. subst a'. now split.
    Qed.
  End Aux.
End Refine.
