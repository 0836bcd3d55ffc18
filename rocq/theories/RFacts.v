(** * Facts about finite sums of reals (proofs only). *)
From Coq Require Import Reals List Lia Lra Psatz Permutation ZArith NArith.
From Flocq Require Import Core.Core.
From Verif Require Import Base BaseFacts Num.
Import ListNotations.
Local Open Scope R_scope.

(** The sum of a list. *)
Definition Rsum (l : list R) : R := fold_right Rplus 0 l.

Lemma Rsum_nil : Rsum [] = 0. Proof. reflexivity. Qed.
Lemma Rsum_cons x l : Rsum (x :: l) = x + Rsum l. Proof. reflexivity. Qed.
Global Opaque Rsum.
Ltac rs := repeat (rewrite ?Rsum_nil, ?Rsum_cons, ?map_cons, ?map_app in * ); cbn [map] in *;
  rewrite ?Rsum_nil, ?Rsum_cons in *.

Lemma fold_left_Rplus l a : fold_left Rplus l a = a + Rsum l.
Proof. revert a; induction l as [|x l IH]; intros a; cbn [fold_left]; rs; [lra | rewrite IH; lra]. Qed.

Lemma fold_left_Rplus_map {A} (f : A -> R) l a :
  fold_left (fun s x => s + f x) l a = a + Rsum (map f l).
Proof. revert a; induction l as [|x l IH]; intros a; cbn [fold_left]; rs; [lra | rewrite IH; lra]. Qed.

Lemma Rsum_app l1 l2 : Rsum (l1 ++ l2) = Rsum l1 + Rsum l2.
Proof. induction l1 as [|x l IH]; cbn [app]; rs; [lra | rewrite IH; lra]. Qed.

Lemma Rsum_perm l1 l2 : Permutation l1 l2 -> Rsum l1 = Rsum l2.
Proof. induction 1; rs; lra. Qed.

Lemma Rsum_ext {A} (f g : A -> R) l : (forall x, In x l -> f x = g x) ->
  Rsum (map f l) = Rsum (map g l).
Proof. intros H. f_equal. apply map_ext_in. exact H. Qed.

Lemma Rsum_map_plus {A} (f g : A -> R) l :
  Rsum (map (fun x => f x + g x) l) = Rsum (map f l) + Rsum (map g l).
Proof. induction l as [|x l IH]; rs; [lra | rewrite IH; lra]. Qed.

Lemma Rsum_map_scal {A} (f : A -> R) k l :
  Rsum (map (fun x => k * f x) l) = k * Rsum (map f l).
Proof. induction l as [|x l IH]; rs; [lra | rewrite IH; lra]. Qed.

Lemma Rsum_map_scal_r {A} (f : A -> R) k l :
  Rsum (map (fun x => f x * k) l) = Rsum (map f l) * k.
Proof. induction l as [|x l IH]; rs; [lra | rewrite IH; lra]. Qed.

Lemma Rsum_zero {A} (f : A -> R) l : (forall x, In x l -> f x = 0) -> Rsum (map f l) = 0.
Proof.
  induction l as [|x l IH]; intros H; rs; [lra|].
  rewrite H by (now left). rewrite (IH (fun y Hy => H y (or_intror Hy))). lra.
Qed.

Lemma Rsum_const {A} (k : R) (l : list A) : Rsum (map (fun _ => k) l) = INR (length l) * k.
Proof.
  induction l as [|x l IH]; [rs; cbn [length INR]; lra|].
  cbn [length]. rewrite S_INR. rs. rewrite IH. lra.
Qed.

Lemma Rsum_le {A} (f g : A -> R) l : (forall x, In x l -> f x <= g x) ->
  Rsum (map f l) <= Rsum (map g l).
Proof.
  induction l as [|x l IH]; intros H; rs; [lra|].
  generalize (H x (or_introl eq_refl)) (IH (fun y Hy => H y (or_intror Hy))).
  lra.
Qed.

Lemma Rsum_nonneg {A} (f : A -> R) l : (forall x, In x l -> 0 <= f x) -> 0 <= Rsum (map f l).
Proof.
  intros H. rewrite <- (Rsum_zero (fun _ : A => 0) l) by reflexivity. now apply Rsum_le.
Qed.

Lemma Rsum_swap {A B} (f : A -> B -> R) la lb :
  Rsum (map (fun a => Rsum (map (f a) lb)) la) = Rsum (map (fun b => Rsum (map (fun a => f a b) la)) lb).
Proof.
  induction la as [|a la IH]; cbn [map].
  - symmetry. now apply Rsum_zero.
  - rewrite Rsum_cons, IH, <- Rsum_map_plus. apply Rsum_ext. intros b _. now rewrite Rsum_cons.
Qed.

Lemma Rsum_flat_map {A B} (f : B -> R) (g : A -> list B) l :
  Rsum (map f (flat_map g l)) = Rsum (map (fun a => Rsum (map f (g a))) l).
Proof.
  induction l as [|a l IH]; cbn [map flat_map]; [reflexivity|].
  now rewrite map_app, Rsum_app, Rsum_cons, IH.
Qed.

(** Updating one entry of a duplicate-free family. *)
Lemma Rsum_update {A} (eqb : A -> A -> bool) (Heq : forall a b, eqb a b = true <-> a = b)
  (f : A -> R) (c : A) (x : R) l : NoDup l -> In c l ->
  Rsum (map (fun i => if eqb c i then x else f i) l) = Rsum (map f l) - f c + x.
Proof.
  induction l as [|a l IH]; intros Hnd Hin; [easy|].
  inversion Hnd as [|a' l' Hna Hnd']; subst. rs.
  destruct Hin as [-> | Hin].
  - rewrite (proj2 (Heq c c) eq_refl).
    assert (E : map (fun i => if eqb c i then x else f i) l = map f l).
    { apply map_ext_in. intros i Hi. destruct (eqb c i) eqn:E; [|reflexivity].
      apply Heq in E. subst. contradiction. }
    rewrite E. lra.
  - destruct (eqb c a) eqn:E; [apply Heq in E; subst; contradiction|].
    specialize (IH Hnd' Hin). lra.
Qed.

(** Weighted means. *)
Lemma weighted_mean_bounds {A} (d w : A -> R) l lo hi :
  (forall x, In x l -> lo <= d x <= hi) -> (forall x, In x l -> 0 <= w x) ->
  0 < Rsum (map w l) ->
  lo <= Rsum (map (fun x => d x * w x) l) / Rsum (map w l) <= hi.
Proof.
  intros Hd Hw Hp.
  assert (H1 : lo * Rsum (map w l) <= Rsum (map (fun x => d x * w x) l)).
  { rewrite <- Rsum_map_scal. apply Rsum_le. intros x Hx. specialize (Hd x Hx). specialize (Hw x Hx). nra. }
  assert (H2 : Rsum (map (fun x => d x * w x) l) <= hi * Rsum (map w l)).
  { rewrite <- Rsum_map_scal. apply Rsum_le. intros x Hx. specialize (Hd x Hx). specialize (Hw x Hx). nra. }
  split.
  - apply Rmult_le_reg_r with (1 := Hp). unfold Rdiv. rewrite Rmult_assoc, Rinv_l by lra. lra.
  - apply Rmult_le_reg_r with (1 := Hp). unfold Rdiv. rewrite Rmult_assoc, Rinv_l by lra. lra.
Qed.

Lemma mean_bounds (l : list R) lo hi : l <> [] -> (forall x, In x l -> lo <= x <= hi) ->
  lo <= Rsum l / INR (length l) <= hi.
Proof.
  intros Hne H.
  assert (Hp : 0 < INR (length l)) by (apply lt_0_INR; destruct l; [easy | cbn; lia]).
  assert (E1 : lo * INR (length l) <= Rsum l).
  { clear Hp Hne. induction l as [|x l IH]; [rs; cbn [length INR]; lra|].
    cbn [length]. rewrite S_INR. generalize (H x (or_introl eq_refl)) (IH (fun y Hy => H y (or_intror Hy))).
    rs. lra. }
  assert (E2 : Rsum l <= hi * INR (length l)).
  { clear Hp Hne E1. induction l as [|x l IH]; [rs; cbn [length INR]; lra|].
    cbn [length]. rewrite S_INR. generalize (H x (or_introl eq_refl)) (IH (fun y Hy => H y (or_intror Hy))).
    rs. lra. }
  split; apply Rmult_le_reg_r with (1 := Hp); unfold Rdiv; rewrite Rmult_assoc, Rinv_l by lra; lra.
Qed.

(** Variance: n * sum of squares dominates the square of the sum. *)
Lemma Rsum_sq_nonneg (l : list R) : 0 <= Rsum (map (fun x => x * x) l).
Proof. apply Rsum_nonneg. intros x _. nra. Qed.

Lemma variance_id (l : list R) (m : R) :
  Rsum (map (fun x => (x - m) * (x - m)) l) =
  Rsum (map (fun x => x * x) l) - 2 * m * Rsum l + INR (length l) * (m * m).
Proof.
  induction l as [|x l IH]; [rs; cbn [length INR]; lra|].
  cbn [length]. rewrite S_INR. rs. rewrite IH. lra.
Qed.

Lemma cauchy_schwarz (l : list R) :
  Rsum l * Rsum l <= INR (length l) * Rsum (map (fun x => x * x) l).
Proof.
  destruct l as [|a l']; [rs; cbn [length INR]; lra|]. set (l := a :: l').
  assert (Hp : 0 < INR (length l)) by (apply lt_0_INR; cbn; lia).
  set (m := Rsum l / INR (length l)).
  assert (Hm : m * INR (length l) = Rsum l).
  { unfold m, Rdiv. rewrite Rmult_assoc, Rinv_l by lra. lra. }
  assert (V : 0 <= Rsum (map (fun x => (x - m) * (x - m)) l)).
  { apply Rsum_nonneg. intros x _. apply (Rle_0_sqr (x - m)). }
  rewrite variance_id in V. rewrite <- Hm in *. clearbody m.
  revert V Hp. generalize (INR (length l)) (Rsum (map (fun x => x * x) l)). intros n s2 V Hp.
  assert (H : 0 <= s2 - n * (m * m)) by nra. nra.
Qed.

(** Booleans of the ideal instance. *)
Lemma Rltb_true a b : @nltb R num_R a b = true <-> a < b.
Proof. cbn. destruct (Rlt_dec a b); intuition congruence. Qed.
Lemma Rltb_false a b : @nltb R num_R a b = false <-> b <= a.
Proof. cbn. destruct (Rlt_dec a b); split; intros; try discriminate; try reflexivity; lra. Qed.
Lemma Rleb_true a b : @nleb R num_R a b = true <-> a <= b.
Proof. cbn. destruct (Rle_dec a b); intuition congruence. Qed.
Lemma Rleb_false a b : @nleb R num_R a b = false <-> b < a.
Proof. cbn. destruct (Rle_dec a b); split; intros; try discriminate; try reflexivity; lra. Qed.
Lemma Reqb_true a b : @neqb R num_R a b = true <-> a = b.
Proof. cbn. destruct (Req_EM_T a b); intuition congruence. Qed.
Lemma Reqb_false a b : @neqb R num_R a b = false <-> a <> b.
Proof. cbn. destruct (Req_EM_T a b); intuition congruence. Qed.

(** The cast of a real between two naturals. *)
Lemma R_to_usize_floor (x : R) (k : N) :
  IZR (Z.of_N k) <= x < IZR (Z.of_N k) + 1 -> (k < 2 ^ 63)%N -> R_to_usize x = k.
Proof.
  intros H Hk. unfold R_to_usize.
  assert (E : Ztrunc x = Z.of_N k).
  { rewrite Ztrunc_floor.
    - apply Zfloor_imp. rewrite plus_IZR. lra.
    - assert (0 <= IZR (Z.of_N k)) by (apply IZR_le; lia). lra. }
  rewrite E, Z.min_r; [apply N2Z.id | unfold usize_max; lia].
Qed.

Lemma R_to_usize_spec (x : R) : 0 <= x < IZR (2 ^ 63) ->
  IZR (Z.of_N (R_to_usize x)) <= x < IZR (Z.of_N (R_to_usize x)) + 1.
Proof.
  intros H. unfold R_to_usize. rewrite Ztrunc_floor by lra.
  assert (F1 := Zfloor_lb x). assert (F2 := Zfloor_ub x).
  assert (P : (0 <= Zfloor x)%Z) by (apply Zfloor_lub; cbn; lra).
  assert (Q : (Zfloor x < 2 ^ 63)%Z) by (apply lt_IZR; lra).
  rewrite Z.min_r by (unfold usize_max; lia).
  rewrite Z2N.id by assumption. lra.
Qed.
