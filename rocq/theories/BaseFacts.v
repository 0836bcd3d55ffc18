(** * Facts about the base library (proofs only). *)
From Coq Require Import List NArith ZArith Lia Permutation ZifyBool ZifyN ZifyNat.
From Verif Require Import Base.

Lemma bind_val {A B} (m : res A) (k : A -> res B) b :
  bind m k = Val b -> exists a, m = Val a /\ k a = Val b.
Proof. destruct m as [a|]; cbn; [eauto | discriminate]. Qed.

Lemma range_length a b : length (range a b) = N.to_nat (b - a).
Proof. unfold range. now rewrite map_length, seq_length. Qed.

Lemma in_range a b k : In k (range a b) <-> (a <= k < b)%N.
Proof.
  unfold range. rewrite in_map_iff. split.
  - intros [j [Hj Hin]]. apply in_seq in Hin. lia.
  - intros H. exists (N.to_nat (k - a)). split; [lia|]. apply in_seq. lia.
Qed.

Lemma range_empty a b : (b <= a)%N -> range a b = [].
Proof. intros H. unfold range. replace (N.to_nat (b - a)) with 0 by lia. reflexivity. Qed.

Lemma seq_shift_map n s : seq (S s) n = map S (seq s n).
Proof. revert s; induction n as [|n IH]; intros s; cbn; [reflexivity | now rewrite IH]. Qed.

Lemma range_cons a b : (a < b)%N -> range a b = a :: range (a + 1) b.
Proof.
  intros H. unfold range.
  replace (N.to_nat (b - a)) with (S (N.to_nat (b - (a + 1)))) by lia.
  cbn [seq map]. f_equal; [lia|].
  rewrite seq_shift_map, map_map. apply map_ext. intros k. lia.
Qed.

Lemma range_snoc a b : (a <= b)%N -> range a (b + 1) = range a b ++ [b].
Proof.
  intros H. unfold range.
  replace (N.to_nat (b + 1 - a)) with (N.to_nat (b - a) + 1)%nat by lia.
  rewrite seq_app, map_app. cbn. f_equal. f_equal. lia.
Qed.

Lemma range_split a m b : (a <= m)%N -> (m <= b)%N -> range a b = range a m ++ range m b.
Proof.
  intros H1 H2. unfold range.
  replace (N.to_nat (b - a)) with (N.to_nat (m - a) + N.to_nat (b - m))%nat by lia.
  rewrite seq_app, map_app. f_equal.
  rewrite Nat.add_0_l.
  set (d := N.to_nat (m - a)). set (n := N.to_nat (b - m)).
  assert (Hm : (m = a + N.of_nat d)%N) by (subst d; lia). rewrite Hm.
  clearbody d n. clear.
  assert (G : forall s, map (fun k => (a + N.of_nat k)%N) (seq (d + s) n)
              = map (fun k => (a + N.of_nat d + N.of_nat k)%N) (seq s n)).
  { induction n as [|n IH]; intros s; cbn; [reflexivity|]. f_equal; [lia|].
    rewrite <- IH. f_equal. f_equal. lia. }
  specialize (G 0). rewrite Nat.add_0_r in G. exact G.
Qed.

Lemma range_NoDup a b : NoDup (range a b).
Proof.
  unfold range. apply FinFun.Injective_map_NoDup; [intros x y; lia | apply seq_NoDup].
Qed.

Lemma range_nth a b k d : (k < N.to_nat (b - a))%nat ->
  nth k (range a b) d = (a + N.of_nat k)%N.
Proof.
  intros H. unfold range.
  rewrite nth_indep with (d' := (a + N.of_nat 0)%N) by (now rewrite map_length, seq_length).
  rewrite (map_nth (fun j => (a + N.of_nat j)%N)). now rewrite seq_nth.
Qed.

Lemma range_nth_error a b k : (k < N.to_nat (b - a))%nat ->
  nth_error (range a b) k = Some (a + N.of_nat k)%N.
Proof.
  intros H. rewrite (nth_error_nth' _ 0%N) by (now rewrite range_length).
  now rewrite range_nth.
Qed.

Lemma usub_ge bld a b : (b <= a)%N -> usub bld a b = Val (a - b)%N.
Proof. intros H. unfold usub. now rewrite (proj2 (N.leb_le _ _) H). Qed.

Lemma usub_inv_debug a b c : usub Debug a b = Val c -> (b <= a)%N /\ c = (a - b)%N.
Proof.
  unfold usub. destruct (N.leb_spec b a) as [H|H]; [|discriminate].
  now intros [= <-].
Qed.

Lemma mfold_app {S A} (f : S -> A -> res S) l1 l2 s :
  mfold f (l1 ++ l2) s = let! s' := mfold f l1 s in mfold f l2 s'.
Proof.
  revert s; induction l1 as [|a l1 IH]; intros s; cbn; [reflexivity|].
  destruct (f s a) as [s'|]; cbn; [apply IH | reflexivity].
Qed.

(** A loop whose body never panics is a [fold_left]. *)
Lemma mfold_total {S A} (f : S -> A -> res S) (g : S -> A -> S) l s :
  (forall s a, In a l -> f s a = Val (g s a)) -> mfold f l s = Val (fold_left g l s).
Proof.
  revert s; induction l as [|a l IH]; intros s H; cbn; [reflexivity|].
  rewrite H by (now left). cbn. apply IH. intros; apply H; now right.
Qed.

(** Loop invariant rule. *)
Lemma mfold_inv {S A} (P : S -> Prop) (f : S -> A -> res S) l s s' :
  P s -> (forall s a s', In a l -> P s -> f s a = Val s' -> P s') ->
  mfold f l s = Val s' -> P s'.
Proof.
  revert s; induction l as [|a l IH]; intros s H0 Hs; cbn; [now intros [= <-]|].
  destruct (f s a) as [s1|] eqn:E; cbn; [|discriminate].
  apply IH; [eapply Hs; eauto; now left | intros; eapply Hs; eauto; now right].
Qed.

Lemma mfold_ext {S A} (f g : S -> A -> res S) l s :
  (forall s a, In a l -> f s a = g s a) -> mfold f l s = mfold g l s.
Proof.
  revert s; induction l as [|a l IH]; intros s H; cbn; [reflexivity|].
  rewrite H by (now left). destruct (g s a); cbn; [|reflexivity].
  apply IH. intros; apply H; now right.
Qed.

Lemma fold_left_ext_in {S A} (f g : S -> A -> S) l s :
  (forall s a, In a l -> f s a = g s a) -> fold_left f l s = fold_left g l s.
Proof.
  revert s; induction l as [|a l IH]; intros s H; cbn; [reflexivity|].
  rewrite H by (now left). apply IH. intros; apply H; now right.
Qed.

Lemma fold_left_map {S A B} (f : S -> B -> S) (g : A -> B) l s :
  fold_left f (map g l) s = fold_left (fun s a => f s (g a)) l s.
Proof. revert s; induction l as [|a l IH]; intros s; cbn; auto. Qed.

Lemma fold_left_filter {S A} (f : S -> A -> S) (p : A -> bool) l s :
  fold_left f (filter p l) s = fold_left (fun s a => if p a then f s a else s) l s.
Proof.
  revert s; induction l as [|a l IH]; intros s; cbn; [reflexivity|].
  destruct (p a); cbn; apply IH.
Qed.

Lemma mmap_val {A B} (f : A -> res B) (g : A -> B) l :
  (forall a, In a l -> f a = Val (g a)) -> mmap f l = Val (map g l).
Proof.
  induction l as [|a l IH]; intros H; cbn; [reflexivity|].
  rewrite H by (now left). cbn. rewrite IH; [reflexivity|]. intros; apply H; now right.
Qed.

Lemma mmap_inv {A B} (f : A -> res B) l l' :
  mmap f l = Val l' -> Forall2 (fun a b => f a = Val b) l l'.
Proof.
  revert l'; induction l as [|a l IH]; intros l'; cbn; [intros [= <-]; constructor|].
  intros H. apply bind_val in H. destruct H as [b [Hb H]].
  apply bind_val in H. destruct H as [bs [Hbs H]]. injection H as <-.
  constructor; auto.
Qed.

Lemma mmap_Forall2 {A B} (f : A -> res B) l l' :
  Forall2 (fun a b => f a = Val b) l l' -> mmap f l = Val l'.
Proof. induction 1 as [|a b l l' H _ IH]; cbn; [reflexivity|]. now rewrite H, IH. Qed.

Lemma vget_lt {A} (l : list A) i : (i < vlen l)%N -> exists a, vget l i = Val a.
Proof.
  unfold vget, vlen. intros H.
  destruct (nth_error l (N.to_nat i)) as [a|] eqn:E; [cbn; eauto|].
  apply (proj1 (nth_error_None _ _)) in E. lia.
Qed.

Lemma vget_val {A} (l : list A) i a : vget l i = Val a <-> nth_error l (N.to_nat i) = Some a.
Proof. unfold vget. destruct (nth_error l (N.to_nat i)); cbn; split; congruence. Qed.

Lemma vget_lt_inv {A} (l : list A) i a : vget l i = Val a -> (i < vlen l)%N.
Proof.
  rewrite vget_val. intros H. assert (H1 : nth_error l (N.to_nat i) <> None) by congruence.
  apply nth_error_Some in H1. unfold vlen. lia.
Qed.

Lemma list_set_some {A} (l : list A) i v : i < length l ->
  exists l', list_set l i v = Some l' /\ length l' = length l /\
    forall j, nth_error l' j = if Nat.eqb i j then Some v else nth_error l j.
Proof.
  revert i; induction l as [|a l IH]; intros i H; [cbn in H; lia|].
  destruct i as [|i]; cbn.
  - exists (v :: l). repeat split; auto. intros [|j]; reflexivity.
  - destruct (IH i) as [l' [E [L N']]]; [cbn in H; lia|]. rewrite E.
    exists (a :: l'). repeat split; [cbn; lia|]. intros [|j]; cbn; auto.
Qed.

Lemma list_set_none {A} (l : list A) i v : length l <= i -> list_set l i v = None.
Proof.
  revert i; induction l as [|a l IH]; intros i H; [reflexivity|].
  destruct i as [|i]; cbn in *; [lia|]. now rewrite IH by lia.
Qed.

Lemma vset_val {A} (l : list A) i v l' : vset l i v = Val l' ->
  (i < vlen l)%N /\ vlen l' = vlen l /\
  forall j, vget l' j = if (i =? j)%N then Val v else vget l j.
Proof.
  unfold vset, vlen, vget. intros H.
  destruct (Nat.lt_ge_cases (N.to_nat i) (length l)) as [Hlt|Hge].
  - destruct (list_set_some l (N.to_nat i) v Hlt) as [l2 [E [L Hn]]].
    rewrite E in H. cbn in H. injection H as <-.
    split; [lia|]. split; [lia|]. intros j. rewrite Hn.
    destruct (N.eqb_spec i j) as [->|Hne]; [now rewrite Nat.eqb_refl|].
    destruct (Nat.eqb_spec (N.to_nat i) (N.to_nat j)); [lia | reflexivity].
  - rewrite list_set_none in H by lia. discriminate.
Qed.

Lemma vset_ok {A} (l : list A) i v : (i < vlen l)%N -> exists l', vset l i v = Val l'.
Proof.
  unfold vset, vlen. intros H.
  destruct (list_set_some l (N.to_nat i) v) as [l2 [E _]]; [lia|]. rewrite E. cbn. eauto.
Qed.
