(** * Property C46: extracting the trajectory of a particle. *)
From Coq Require Import Reals List NArith ZArith Bool Lia ZifyBool ZifyN ZifyNat.
From Flocq Require Import Core.Core IEEE754.BinarySingleNaN.
From Verif Require Import Base BaseFacts Num NDArray GridModel GridSpec SelModel DataModel DataSpec DataProofs DataLoad
  PropertiesGrid FunModel FunSpec FunProofs PropertiesFun CondModel.
Local Open Scope list_scope.

Section C46.
  Context {F : Type} {NF : Num F}.

  (** Specification: the row of a sample. *)
  Definition row_of (m : sample F) : list F :=
    let '(p0, p1, p2) := sm_pos m in let '(v0, v1, v2) := sm_vel m in [sm_time m; p0; p1; p2; v0; v1; v2].

  Lemma enumerate_map {A B} (f : A -> B) (l : list A) : enumerate (map f l) = map (fun '(i, a) => (i, f a)) (enumerate l).
  Proof.
    unfold enumerate, vlen. rewrite map_length. generalize (range 0 (N.of_nat (length l))) as r.
    induction l as [|a l IH]; intros [|i r]; cbn; [reflexivity..|]. now rewrite IH.
  Qed.
  Lemma enumerate_range a b : (a <= b)%N -> enumerate (range a b) = map (fun i => (i, a + i)%N) (range 0 (b - a)).
  Proof.
    intros H. unfold enumerate. replace (vlen (range a b)) with (b - a)%N by (unfold vlen; rewrite range_length; lia).
    assert (G : forall n k a, combine (range k (k + N.of_nat n)) (range a (a + N.of_nat n)) =
      map (fun i => (i, a + (i - k))%N) (range k (k + N.of_nat n))).
    { clear. induction n as [|n IH]; intros k a.
      - rewrite range_empty by lia. reflexivity.
      - rewrite (range_cons k) by lia. rewrite (range_cons a) by lia. cbn [combine map].
        replace (k + N.of_nat (S n))%N with (k + 1 + N.of_nat n)%N by lia.
        replace (a + N.of_nat (S n))%N with (a + 1 + N.of_nat n)%N by lia.
        rewrite IH. f_equal; [f_equal; lia|]. apply map_ext_in. intros i Hi. apply in_range in Hi. f_equal. lia. }
    specialize (G (N.to_nat (b - a)) 0%N a). rewrite N2Nat.id in G. replace (a + (b - a))%N with b in G by lia.
    replace (0 + (b - a))%N with (b - a)%N in G by lia.
    rewrite G. apply map_ext. intros i. f_equal. lia.
  Qed.

  (** In range: one row per timestep of [a, b), row [i] that of timestep [a + i]. *)
  Theorem c46_rows bld (M : mgr F) d L pid a b :
    recorded M d L -> (a <= b)%N -> (b < vlen L)%N -> (b * 7 < 2 ^ 63)%N ->
    (forall t x, (a <= t < b)%N -> at_ L t x -> (pid < vlen (ts_pos x))%N) ->
    exists d' rows, extract bld M d pid a b = Val (d', rows) /\ recorded M d' L /\ vlen rows = (b - a)%N /\
      forall i x m, (i < b - a)%N -> at_ L (a + i) x -> at_ (samples x) pid m -> at_ rows i (row_of m).
  Proof.
    intros [[Nt [Inv [I Get]]] [Ne Rc]] Hab Hb Hm Hp. unfold extract. rewrite Nt.
    rewrite (proj2 (N.leb_gt _ _) Hb). rewrite (proj2 (N.leb_gt (vlen L) a)) by lia. cbn [orb].
    rewrite usub_ge by exact Hab. cbn [bind]. unfold alloc7. rewrite (proj2 (N.leb_gt _ _)) by lia. cbn [bind].
    rewrite enumerate_range by exact Hab. set (n := (b - a)%N).
    set (body := fun st '(id, t) => _).
    assert (Q : forall k, (k <= n)%N -> exists d' rows,
      mfold body (map (fun i => (i, a + i)%N) (range 0 k)) (d, repeat (repeat n0 7) (N.to_nat n)) = Val (d', rows) /\
      Inv d' /\ vlen rows = n /\
      forall i x m, (i < k)%N -> at_ L (a + i) x -> at_ (samples x) pid m -> at_ rows i (row_of m)).
    { intros k. induction k as [|k IH] using N.peano_ind; intros Hk.
      - rewrite range_empty by lia. cbn [map mfold]. do 2 eexists. split; [reflexivity|]. split; [exact I|].
        split; [unfold vlen; rewrite repeat_length; lia | intros; lia].
      - destruct IH as [d1 [rows [E [I1 [V H1]]]]]; [lia|].
        rewrite <- N.add_1_r, range_snoc by lia. rewrite map_app, mfold_app, E. cbn [bind map mfold]. unfold body at 1. cbn [fst snd].
        destruct (lt_at L (a + k)) as [x Hx]; [lia|].
        destruct (Get d1 _ x I1 Hx) as [d2 [G I2]]. rewrite G. cbn [bind].
        assert (Rx : rect x). { rewrite Forall_forall in Rc. apply Rc. eapply nth_error_In; exact Hx. }
        assert (Hpid := Hp (a + k)%N x ltac:(lia) Hx). rewrite <- (samples_length x Rx) in Hpid.
        destruct (lt_at _ _ Hpid) as [m Hmm]. destruct (samples_at x pid m Rx Hmm) as [T [P [Ve _]]].
        unfold extract_row. rewrite (proj2 (vget_val _ _ _) P), (proj2 (vget_val _ _ _) Ve). cbn [bind].
        destruct (sm_pos m) as [[p0 p1] p2] eqn:Ep. destruct (sm_vel m) as [[v0 v1] v2] eqn:Ev. cbn [bind].
        destruct (vset_ok rows k [ts_time x; p0; p1; p2; v0; v1; v2]) as [rows' Es]; [lia|]. rewrite Es. cbn [bind].
        exists d2, rows'. split; [reflexivity|]. split; [exact I2|].
        destruct (vset_val _ _ _ _ Es) as [Lr [S1 S2]]. split; [lia|].
        intros i y m' Hi Hy Hm'. destruct (N.eq_dec i k) as [->|Dk].
        + assert (y = x) by (unfold at_ in *; congruence). subst y.
          assert (m' = m) by (unfold at_ in *; congruence). subst m'.
          unfold row_of. rewrite Ep, Ev, T. apply vget_val. rewrite S2, N.eqb_refl. reflexivity.
        + apply vget_val. rewrite S2. rewrite (proj2 (N.eqb_neq k i)) by lia. apply vget_val. apply (H1 i y m'); [lia | exact Hy | exact Hm']. }
    destruct (Q n ltac:(lia)) as [d' [rows [E [I' [V H]]]]].
    exists d', rows. rewrite E. split; [reflexivity|]. split; [|split; [exact V | exact H]].
    split; [|auto]. split; [exact Nt|]. exists Inv. auto.
  Qed.

  (** Anything else is refused. *)
  Theorem c46_refused bld (M : mgr F) d pid a b :
    (st_timesteps (m_stats M) < 2 ^ 60)%N ->
    (st_timesteps (m_stats M) <= a \/ st_timesteps (m_stats M) <= b \/ b < a)%N ->
    extract bld M d pid a b = Panic.
  Proof.
    intros Nt H. unfold extract.
    destruct (N.leb_spec (st_timesteps (m_stats M)) a); cbn [orb]; [reflexivity|].
    destruct (N.leb_spec (st_timesteps (m_stats M)) b); cbn [orb]; [reflexivity|].
    unfold usub. rewrite (proj2 (N.leb_gt _ _)) by lia. destruct bld; cbn [bind]; [reflexivity|].
    unfold alloc7. rewrite (proj2 (N.leb_le _ _)); [reflexivity|]. unfold usize_modulus. lia.
  Qed.
  (** A particle missing from a requested timestep is refused too. *)
  Theorem c46_missing_particle bld (M : mgr F) d L pid a b t x :
    recorded M d L -> (a <= t < b)%N -> at_ L t x -> (vlen (ts_pos x) <= pid)%N ->
    extract bld M d pid a b = Panic.
  Proof.
    intros [[Nt [Inv [I Get]]] [Ne Rc]] Ht Hx Hp. unfold extract. rewrite Nt.
    destruct ((vlen L <=? a)%N || (vlen L <=? b)%N) eqn:O; [reflexivity|].
    apply orb_false_iff in O. destruct O as [_ O]. apply N.leb_gt in O.
    rewrite usub_ge by lia. cbn [bind]. unfold alloc7. destruct (2 ^ 63 <=? _)%N; [reflexivity|]. cbn [bind].
    rewrite enumerate_range by lia. rewrite (range_split 0 (t - a) (b - a)) by lia. rewrite map_app, mfold_app.
    set (body := fun st '(id, t) => _).
    match goal with |- bind ?m _ = _ => destruct m as [[d1 rows]|] eqn:E end; [|reflexivity]. cbn [bind].
    assert (I1 : Inv d1).
    { assert (G : forall l st st', Inv (fst st) -> (forall i, In i l -> (i < t - a)%N) ->
         mfold body (map (fun i => (i, a + i)%N) l) st = Val st' -> Inv (fst st')).
      { induction l as [|i l IH]; intros st st' Is Hl Es; cbn [map mfold] in Es; [now injection Es as <-|].
        apply bind_val in Es. destruct Es as [st1 [E1 E2]]. apply (IH st1 st'); [|intros; apply Hl; now right|exact E2].
        unfold body in E1. destruct (lt_at L (a + i)) as [y Hy]; [specialize (Hl i (or_introl eq_refl)); lia|].
        destruct (Get (fst st) _ y Is Hy) as [d2 [Gd I2]]. rewrite Gd in E1. cbn [bind] in E1.
        apply bind_val in E1. destruct E1 as [q [_ E1]]. apply bind_val in E1. destruct E1 as [rw [_ E1]].
        injection E1 as <-. exact I2. }
      apply (G (range 0 (t - a)) (d, repeat (repeat n0 7) (N.to_nat (b - a))) (d1, rows)); [exact I | | exact E].
      intros i Hi. apply in_range in Hi. lia. }
    rewrite range_cons by lia. cbn [map mfold]. unfold body at 1. cbn [fst].
    destruct (Get d1 (a + (t - a))%N x I1) as [d2 [G _]]; [now replace (a + (t - a))%N with t by lia|].
    rewrite G. cbn [bind]. unfold extract_row.
    destruct (vget (ts_pos x) pid) eqn:Ev; [|reflexivity]. apply vget_lt_inv in Ev. lia.
  Qed.
  (** The last recorded timestep is in no range that is accepted. *)
  Theorem c46_last_timestep_refuted bld (M : mgr F) d pid a b r : (st_timesteps (m_stats M) < 2 ^ 60)%N ->
    extract bld M d pid a b = Val r -> ~ (a <= st_timesteps (m_stats M) - 1 < b)%N.
  Proof.
    intros Nt E H. rewrite c46_refused in E; [discriminate | exact Nt | lia].
  Qed.
End C46.

Example c46_case :
  recorded (list_mgr ex_data (ex_stats 2)) tt ex_data /\ after (extract Debug (list_mgr ex_data (ex_stats 2)) tt 1 0 1) (fun r =>
    match snd r with [row] => map B2SF row = map B2SF (map f64_of_Z [0; 1; 1; 1; 0; 2; 0]%Z) | _ => False end).
Proof. split; [exact (proj1 ex_data_recorded)|]. vm_compute. reflexivity. Qed.
