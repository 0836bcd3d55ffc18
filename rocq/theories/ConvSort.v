(** * Properties C49, C50: sort lists and sorted tables. *)
From Coq Require Import Reals List NArith ZArith Bool Lia Permutation Sorted ZifyBool ZifyN ZifyNat.
From Flocq Require Import Core.Core IEEE754.BinarySingleNaN.
From Verif Require Import Base BaseFacts Num F64Facts NDArray DataModel DataSpec DataLoad ConvModel.
Local Open Scope list_scope.
Local Open Scope bool_scope.

(** ** Stable sorting *)
Section Stable.
  Context {A : Type} (le : A -> A -> res bool) (leb : A -> A -> bool) (ok : A -> Prop) (before0 : A -> A -> Prop).
  Hypothesis Le : forall x y, ok x -> ok y -> le x y = Val (leb x y).
  Hypothesis Total : forall x y, ok x -> ok y -> leb x y = false -> leb y x = true.
  Hypothesis Trans : forall x y z, ok x -> ok y -> ok z -> leb x y = true -> leb y z = true -> leb x z = true.

  (** Sorted, ties in the order they came in. *)
  Definition in_order (x y : A) : Prop := leb x y = true /\ (leb y x = true -> before0 x y).

  Lemma insert_stable x l : ok x -> Forall ok l -> Forall (before0 x) l -> StronglySorted in_order l ->
    exists r, insert le x l = Val r /\ Permutation r (x :: l) /\ StronglySorted in_order r.
  Proof.
    induction l as [|y l IH]; intros Ox Ol B S; cbn [insert].
    - exists [x]. repeat split; repeat constructor.
    - inversion Ol as [|? ? Oy Ol']; subst. inversion B as [|? ? By Bl]; subst. inversion S as [|? ? Sl Fy]; subst.
      rewrite Le by assumption. cbn [bind]. destruct (leb x y) eqn:E.
      + exists (x :: y :: l). split; [reflexivity|]. split; [reflexivity|]. constructor; [exact S|].
        constructor; [split; auto|]. rewrite Forall_forall in *. intros z Hz. split; [|auto].
        apply (Trans x y z); auto. apply (Fy z Hz).
      + destruct (IH Ox Ol' Bl Sl) as [r [Er [P Sr]]]. rewrite Er. cbn [bind]. exists (y :: r).
        split; [reflexivity|]. split; [rewrite P; apply perm_swap|]. constructor; [exact Sr|].
        apply Forall_forall. intros z Hz. apply (Permutation_in _ P) in Hz. destruct Hz as [<-|Hz].
        * split; [auto | congruence].
        * rewrite Forall_forall in Fy. auto.
  Qed.
  Lemma isort_stable l : Forall ok l -> StronglySorted before0 l ->
    exists r, isort le l = Val r /\ Permutation r l /\ StronglySorted in_order r.
  Proof.
    induction l as [|x l IH]; intros O S; cbn [isort]; [exists []; repeat constructor|].
    inversion O; subst. inversion S; subst. destruct IH as [r [E [P Sr]]]; auto. rewrite E. cbn [bind].
    destruct (insert_stable x r) as [q [Eq [Pq Sq]]]; auto.
    - apply Forall_forall. intros z Hz. apply (Permutation_in _ P) in Hz. revert z Hz. now apply Forall_forall.
    - apply Forall_forall. intros z Hz. apply (Permutation_in _ P) in Hz. revert z Hz. now apply Forall_forall.
    - exists q. split; [exact Eq|]. split; [rewrite Pq, P; reflexivity | exact Sq].
  Qed.
  (** A list already in order is left alone. *)
  Lemma isort_id l : Forall ok l -> StronglySorted (fun x y => leb x y = true) l -> isort le l = Val l.
  Proof.
    induction l as [|x l IH]; intros O S; cbn [isort]; [reflexivity|].
    inversion O; subst. inversion S as [|? ? S' F]; subst. rewrite IH by assumption. cbn [bind].
    destruct l as [|y l]; cbn [insert]; [reflexivity|]. inversion F; subst. inversion H2; subst.
    rewrite Le by assumption. cbn [bind]. now rewrite H3.
  Qed.
End Stable.
Lemma isort_perm {A} (le : A -> A -> res bool) l r : isort le l = Val r -> Permutation r l.
Proof.
  assert (I : forall x l r, insert le x l = Val r -> Permutation r (x :: l)).
  { clear. induction l as [|y l IH]; intros r; cbn [insert]; intros E.
    - injection E as <-. reflexivity.
    - apply bind_val in E as [b [_ E]]. destruct b; [injection E as <-; reflexivity|].
      apply bind_val in E as [q [Eq E]]. injection E as <-. rewrite (IH q Eq). apply perm_swap. }
  revert r. induction l as [|x l IH]; intros r; cbn [isort]; intros E; [now injection E as <-|].
  apply bind_val in E as [q [Eq E]]. rewrite (I _ _ _ E). now rewrite (IH q Eq).
Qed.
Lemma range_sorted a b : StronglySorted N.lt (range a b).
Proof.
  remember (N.to_nat (b - a)) as n eqn:E. revert a E. induction n as [|n IH]; intros a E.
  - rewrite range_empty by lia. constructor.
  - rewrite range_cons by lia. constructor; [apply IH; lia|]. apply Forall_forall. intros k Hk. apply in_range in Hk. lia.
Qed.
Lemma StronglySorted_impl {A} (P Q : A -> A -> Prop) l : (forall x y, In x l -> In y l -> P x y -> Q x y) ->
  StronglySorted P l -> StronglySorted Q l.
Proof.
  induction l as [|x l IH]; intros H S; [constructor|]. inversion S; subst. constructor.
  - apply IH; [intros; apply H; cbn; auto | assumption].
  - rewrite Forall_forall in *. intros y Hy. apply H; cbn; auto.
Qed.

(** ** C49 *)
(** Specification: particle [i] comes before particle [j]: smaller id, or the same id and earlier
    in the file. *)
Definition id_before (ids : list N) (i j : N) : Prop :=
  exists a b, at_ ids i a /\ at_ ids j b /\ (a < b \/ a = b /\ i < j)%N.

Theorem c49_sortlist (ids : list N) : exists sl, make_sortlist ids = Val sl /\
  Permutation sl (range 0 (vlen ids)) /\ StronglySorted (id_before ids) sl.
Proof.
  unfold make_sortlist.
  destruct (isort_stable (fun i j => let! a := vget ids i in let! b := vget ids j in Val (a <=? b)%N)
    (fun i j => nth (N.to_nat i) ids 0%N <=? nth (N.to_nat j) ids 0%N)%N (fun i => (i < vlen ids)%N) N.lt) with (l := range 0 (vlen ids))
    as [sl [E [P S]]].
  - intros i j Hi Hj. unfold vget, vlen in *. rewrite !(nth_error_nth' ids 0%N) by lia. reflexivity.
  - intros; lia.
  - intros; lia.
  - apply Forall_forall. intros i Hi. apply in_range in Hi. lia.
  - apply range_sorted.
  - exists sl. split; [exact E|]. split; [exact P|]. eapply StronglySorted_impl; [|exact S].
    intros i j Hi Hj [H1 H2]. apply (Permutation_in _ P), in_range in Hi. apply (Permutation_in _ P), in_range in Hj.
    exists (nth (N.to_nat i) ids 0%N), (nth (N.to_nat j) ids 0%N). unfold at_, vlen in *.
    rewrite !(nth_error_nth' ids 0%N) by lia. repeat split. destruct (N.leb_spec (nth (N.to_nat j) ids 0%N) (nth (N.to_nat i) ids 0%N)); [right; split; [|apply H2]|left]; lia.
Qed.

Lemma mmap_vget {A} (l : list A) idx : Forall (fun i => i < vlen l)%N idx ->
  exists out, mmap (vget l) idx = Val out /\ vlen out = vlen idx /\
    forall k i, at_ idx k i -> exists x, at_ l i x /\ at_ out k x.
Proof.
  intros H. destruct (mmap_ok (vget l) (fun i x => at_ l i x) idx) as [out [E F]].
  - intros i Hi. rewrite Forall_forall in H. destruct (lt_at l i (H i Hi)) as [x Hx].
    exists x. split; [now apply at_vget | exact Hx].
  - exists out. split; [exact E|]. split; [unfold vlen; now rewrite (Forall2_length _ _ _ F)|].
    intros k i Hk. destruct (Forall2_at_l _ _ _ F _ _ Hk) as [x [Hx Px]]. exists x. auto.
Qed.

Lemma sl_lt {A} (ids : list A) sl : Permutation sl (range 0 (vlen ids)) -> Forall (fun i => i < vlen ids)%N sl.
Proof. intros P. apply Forall_forall. intros i Hi. apply (Permutation_in _ P), in_range in Hi. lia. Qed.
Lemma sl_len {A} (ids : list A) sl : Permutation sl (range 0 (vlen ids)) -> vlen sl = vlen ids.
Proof. intros P. apply Permutation_length in P. unfold vlen in *. rewrite range_length in P. lia. Qed.

(** One value per particle: entry [k] of the result belongs to the [k]-th particle of the sort list. *)
Theorem c49_scalars {T} (data : list T) ids sl : make_sortlist ids = Val sl -> vlen data = vlen ids ->
  exists out, sort_by_array data sl = Val out /\ vlen out = vlen ids /\
    forall k i, at_ sl k i -> exists x, at_ data i x /\ at_ out k x.
Proof.
  intros E L. destruct (c49_sortlist ids) as [sl' [E' [P _]]]. rewrite E in E'. injection E' as <-.
  unfold sort_by_array. rewrite (sl_len ids sl P), L, N.eqb_refl.
  destruct (mmap_vget data sl) as [out [Eo [Lo H]]]; [rewrite L; now apply sl_lt|].
  exists out. split; [exact Eo|]. split; [rewrite Lo; now apply sl_len | exact H].
Qed.

(** Three values per particle. *)
Lemma rows3_spec {F} (l : list F) vs : rows3 l = Val vs ->
  vlen l = (3 * vlen vs)%N /\ forall i a b c, at_ vs i (a, b, c) <->
    at_ l (3 * i) a /\ at_ l (3 * i + 1) b /\ at_ l (3 * i + 2) c.
Proof.
  unfold vlen. remember (length l) as n eqn:En. revert l vs En. induction n as [n IH] using lt_wf_ind. intros l vs En.
  destruct l as [|a [|b [|c l]]]; cbn [rows3]; try discriminate.
  - intros E. injection E as <-. cbn in En. subst n. split; [reflexivity|]. intros i a b c. unfold at_.
    rewrite !(proj2 (nth_error_None _ _)) by (cbn; lia). intuition discriminate.
  - intros E. apply bind_val in E as [r [Er E]]. injection E as <-. cbn in En.
    destruct (IH (length l) ltac:(lia) l r eq_refl Er) as [L H]. split; [cbn; lia|].
    intros i x y z. unfold at_ in *. destruct (N.eq_dec i 0) as [->|Hi].
    + cbn. split; [intros [= <- <- <-]; auto | intros [[= <-] [[= <-] [= <-]]]; reflexivity].
    + specialize (H (i - 1)%N x y z).
      replace (N.to_nat i) with (S (N.to_nat (i - 1))) by lia.
      replace (N.to_nat (3 * i)) with (3 + N.to_nat (3 * (i - 1)))%nat by lia.
      replace (N.to_nat (3 * i + 1)) with (3 + N.to_nat (3 * (i - 1) + 1))%nat by lia.
      replace (N.to_nat (3 * i + 2)) with (3 + N.to_nat (3 * (i - 1) + 2))%nat by lia.
      cbn [nth_error Nat.add]. exact H.
Qed.
Lemma rows3_concat {F} (l : list (v3 F)) : rows3 (concat (map (fun '(a, b, c) => [a; b; c]) l)) = Val l.
Proof. induction l as [|[[a b] c] l IH]; cbn; [reflexivity|]. now rewrite IH. Qed.

Lemma sort_vectors {F} (data : list F) vs idx : rows3 data = Val vs -> vlen vs = vlen idx ->
  Forall (fun i => i < vlen vs)%N idx ->
  exists out, sort_by_array data idx = Val out /\ rows3 out = mmap (vget vs) idx.
Proof.
  intros E L H. destruct (rows3_spec _ _ E) as [Ln G]. unfold sort_by_array. destruct (N.eqb_spec (vlen data) (vlen idx)) as [Eq|Ne].
  - assert (vlen idx = 0)%N by lia. assert (idx = []) as -> by (unfold vlen in *; destruct idx; [reflexivity | cbn in *; lia]).
    exists []. auto.
  - destruct (mmap_vget vs idx H) as [out [Eo _]].
    exists (concat (map (fun '(a, b, c) => [a; b; c]) out)). rewrite rows3_concat, Eo. split; [|reflexivity].
    rewrite (mmap_Forall2 _ idx (map (fun '(a, b, c) => [a; b; c]) out)); [reflexivity|].
    apply mmap_inv in Eo. clear -Eo G. induction Eo as [|i [[a b] c] idx out Hi _ IH]; cbn [map]; constructor; [|exact IH].
    apply vget_val in Hi. apply G in Hi. destruct Hi as [A [B C]].
    rewrite (at_vget _ _ _ A), (at_vget _ _ _ B), (at_vget _ _ _ C). reflexivity.
Qed.

Theorem c49_vectors {F} (data : list F) ids sl : make_sortlist ids = Val sl -> vlen data = (3 * vlen ids)%N ->
  exists out, sort_by_array data sl = Val out /\ vlen out = (3 * vlen ids)%N /\
    forall k i c, at_ sl k i -> (c < 3)%N -> exists x, at_ data (3 * i + c) x /\ at_ out (3 * k + c) x.
Proof.
  intros E L. destruct (c49_sortlist ids) as [sl' [E' [P _]]]. rewrite E in E'. injection E' as <-.
  assert (exists vs, rows3 data = Val vs) as [vs Ev].
  { clear -L. remember (length ids) as n eqn:En. assert (length data = 3 * n)%nat by (unfold vlen in L; lia). clear L En.
    revert data H. induction n as [|n IH]; intros data H; [destruct data; [exists []; reflexivity | discriminate]|].
    destruct data as [|a [|b [|c data]]]; cbn in H; try lia. destruct (IH data) as [vs E]; [lia|].
    exists ((a, b, c) :: vs). cbn. now rewrite E. }
  destruct (rows3_spec _ _ Ev) as [Lv Gv]. assert (Lvs : vlen vs = vlen ids) by lia.
  destruct (sort_vectors data vs sl Ev) as [out [Eo Ro]]; [rewrite (sl_len _ _ P); exact Lvs | rewrite Lvs; now apply sl_lt|].
  destruct (mmap_vget vs sl) as [ws [Ew [Lw H]]]; [rewrite Lvs; now apply sl_lt|]. rewrite Ew in Ro.
  destruct (rows3_spec _ _ Ro) as [Lo Go]. exists out. split; [exact Eo|]. split; [rewrite Lo, Lw, (sl_len _ _ P); reflexivity|].
  intros k i c Hk Hc. destruct (H k i Hk) as [[[a b] e] [Ha Hb]]. apply Gv in Ha. apply Go in Hb.
  destruct Ha as [A0 [A1 A2]], Hb as [B0 [B1 B2]].
  assert (c = 0 \/ c = 1 \/ c = 2)%N as [-> | [-> | ->]] by lia; rewrite ?N.add_0_r; eauto.
Qed.

(** All the data of a particle stay together, and no particle is lost or invented. *)
Theorem c49_together {T F} (ids : list N) (scal : list T) (vec : list F) vs sl :
  make_sortlist ids = Val sl -> vlen scal = vlen ids -> rows3 vec = Val vs -> vlen vs = vlen ids ->
  exists ids' scal' vec' vs', sort_by_array ids sl = Val ids' /\ sort_by_array scal sl = Val scal' /\
    sort_by_array vec sl = Val vec' /\ rows3 vec' = Val vs' /\
    Permutation (combine ids' (combine scal' vs')) (combine ids (combine scal vs)) /\
    StronglySorted N.le ids'.
Proof.
  intros E Ls Ev Lv. destruct (c49_sortlist ids) as [sl' [E' [P S]]]. rewrite E in E'. injection E' as <-.
  assert (Hl := sl_len _ _ P). assert (Hf := sl_lt _ _ P).
  destruct ids as [|i0 ids].
  { cbn in P. apply Permutation_sym, Permutation_nil in P. subst sl.
    destruct scal; [|discriminate]. destruct vs; [|discriminate]. destruct (rows3_spec _ _ Ev) as [L _].
    destruct vec; [|discriminate]. exists [], [], [], []. repeat split; constructor. }
  destruct scal as [|s0 scal]; [discriminate|]. destruct vs as [|v0 vs]; [discriminate|].
  set (I := i0 :: ids) in *. set (Sc := s0 :: scal) in *. set (V := v0 :: vs) in *.
  assert (G : forall X (l : list X) x0, vlen l = vlen I -> mmap (vget l) sl = Val (map (fun i => nth (N.to_nat i) l x0) sl)).
  { intros X l x0 L. apply mmap_val. intros i Hi. rewrite Forall_forall in Hf. specialize (Hf i Hi).
    unfold vget. rewrite (nth_error_nth' l x0) by (unfold vlen in *; lia). reflexivity. }
  destruct (sort_vectors vec V sl Ev) as [vec' [E1 E2]]; [congruence | rewrite Lv; exact Hf|].
  exists (map (fun i => nth (N.to_nat i) I i0) sl), (map (fun i => nth (N.to_nat i) Sc s0) sl), vec', (map (fun i => nth (N.to_nat i) V v0) sl).
  split; [unfold sort_by_array; rewrite Hl, N.eqb_refl; now apply G|].
  split; [unfold sort_by_array; rewrite Hl, Ls, N.eqb_refl; now apply G|].
  split; [exact E1|]. split; [rewrite E2; now apply G|]. split.
  - assert (C : forall X Y (f : N -> X) (g : N -> Y) l, combine (map f l) (map g l) = map (fun i => (f i, g i)) l).
    { intros X Y f g l. induction l as [|a l IH]; cbn; congruence. }
    rewrite !C. rewrite (Permutation_map _ P). rewrite <- !C.
    assert (D : forall X (l : list X) x0, vlen l = vlen I -> map (fun i => nth (N.to_nat i) l x0) (range 0 (vlen I)) = l).
    { intros X l x0 L. apply (nth_ext _ _ x0 x0); [rewrite map_length, range_length; unfold vlen in *; lia|].
      intros n Hn. rewrite map_length, range_length in Hn. rewrite (nth_indep _ x0 (nth (N.to_nat 0) l x0)) by (rewrite map_length, range_length; exact Hn).
      rewrite (map_nth (fun i => nth (N.to_nat i) l x0)). f_equal. rewrite range_nth by lia. lia. }
    rewrite !D by assumption || reflexivity. reflexivity.
  - clear -S. induction S as [|i l S IH F]; cbn [map]; constructor; [exact IH|]. rewrite Forall_forall in *. intros y Hy.
    apply in_map_iff in Hy as [j [<- Hj]]. destruct (F j Hj) as [a [b [Ha [Hb H]]]]. unfold at_ in *.
    rewrite (nth_error_nth _ _ _ Ha), (nth_error_nth _ _ _ Hb). lia.
Qed.
Example c49_together_used : exists ids' scal' vec' vs', sort_by_array [7; 2; 7; 1]%N [3; 1; 0; 2]%N = Val ids' /\
  sort_by_array [10; 20; 30; 40]%N [3; 1; 0; 2]%N = Val scal' /\
  sort_by_array [0; 0; 1; 0; 0; 2; 0; 0; 3; 0; 0; 4]%N [3; 1; 0; 2]%N = Val vec' /\ rows3 vec' = Val vs' /\
  ids' = [1; 2; 7; 7]%N /\ scal' = [40; 20; 10; 30]%N /\ vs' = [(0, 0, 4); (0, 0, 2); (0, 0, 1); (0, 0, 3)]%N.
Proof. do 4 eexists. repeat split; reflexivity. Qed.
Example c49_sortlist_ex : make_sortlist [7; 2; 7; 1]%N = Val [3; 1; 0; 2]%N. Proof. reflexivity. Qed.

(** ** C50 *)
Lemma Bleb_total (x y : f64) : is_nan x = false -> is_nan y = false -> Bleb x y = false -> Bleb y x = true.
Proof.
  intros Nx Ny H. destruct (is_finite x) eqn:Fx, (is_finite y) eqn:Fy.
  - apply Bleb_R; [assumption..|]. apply Rlt_le, Rnot_le_lt. intros C. apply (Bleb_R x y Fx Fy) in C. congruence.
  - destruct y as [|[|]| |]; try discriminate; destruct x as [|[|]| |]; try discriminate; cbn in *; congruence.
  - destruct x as [|[|]| |]; try discriminate; destruct y as [|[|]| |]; try discriminate; cbn in *; congruence.
  - destruct x as [|[|]| |]; try discriminate; destruct y as [|[|]| |]; try discriminate; cbn in *; congruence.
Qed.

(** Specification: the entry of a row in a column, and "row [i] before row [j]". *)
Definition entry (data : table f64) (c i : N) (x : f64) : Prop := exists r, at_ data i r /\ at_ r c x.
Definition row_before (data : table f64) (c i j : N) : Prop :=
  exists a b, entry data c i a /\ entry data c j b /\ Bleb a b = true /\ (Bleb b a = true -> (i < j)%N).
Definition wide (data : table f64) (c : N) : Prop := Forall (fun r => (c < vlen r)%N) data.
Definition no_nan (data : table f64) (c : N) : Prop := forall i x, entry data c i x -> is_nan x = false.

Lemma cell_entry (data : table f64) i c x : cell data i c = Val x <-> entry data c i x.
Proof.
  unfold cell, entry, at_. split.
  - intros E. apply bind_val in E as [r [E1 E2]]. exists r. split; now apply vget_val.
  - intros [r [E1 E2]]. apply vget_val in E1, E2. now rewrite E1.
Qed.
Lemma wide_entry data c i : wide data c -> (i < vlen data)%N -> exists x, entry data c i x.
Proof.
  intros W H. destruct (lt_at data i H) as [r Hr]. unfold wide in W. rewrite Forall_forall in W.
  destruct (lt_at r c) as [x Hx]; [apply W; eapply nth_error_In; exact Hr|]. exists x, r. auto.
Qed.
Definition key (data : table f64) (c i : N) : f64 := match cell data i c with Val x => x | Panic => B754_nan end.
Lemma key_entry data c i x : entry data c i x -> key data c i = x.
Proof. intros H. apply cell_entry in H. unfold key. now rewrite H. Qed.

Definition cmp_col (data : table f64) (c i j : N) : res bool :=
  let! a := cell data i c in let! b := cell data j c in
  if nisnan a || nisnan b then Panic else Val (a <=? b)%num.
Lemma cmp_col_ok data c i j : wide data c -> no_nan data c -> (i < vlen data)%N -> (j < vlen data)%N ->
  cmp_col data c i j = Val (Bleb (key data c i) (key data c j)).
Proof.
  intros W Nn Hi Hj. destruct (wide_entry _ _ _ W Hi) as [a Ha], (wide_entry _ _ _ W Hj) as [b Hb].
  rewrite (key_entry _ _ _ _ Ha), (key_entry _ _ _ _ Hb). assert (Na := Nn _ _ Ha). assert (Nb := Nn _ _ Hb).
  apply cell_entry in Ha, Hb. unfold cmp_col. rewrite Ha, Hb. cbn [bind nisnan num_f64]. rewrite Na, Nb. reflexivity.
Qed.
Lemma key_ok data c i : wide data c -> no_nan data c -> (i < vlen data)%N -> is_nan (key data c i) = false.
Proof. intros W Nn Hi. destruct (wide_entry _ _ _ W Hi) as [a Ha]. rewrite (key_entry _ _ _ _ Ha). eapply Nn; exact Ha. Qed.

(** The rows come out in the order [idx]: every row exactly once, ordered in the column, ties in
    their old order. *)
Theorem c50_sorted (data : table f64) c : wide data c -> no_nan data c ->
  exists out idx, sort_by_column data c = Val out /\
    Permutation idx (range 0 (vlen data)) /\ StronglySorted (row_before data c) idx /\
    vlen out = vlen data /\ forall k i, at_ idx k i -> exists r, at_ data i r /\ at_ out k r.
Proof.
  intros W Nn. unfold sort_by_column. fold (cmp_col data c).
  destruct (isort_stable (cmp_col data c) (fun i j => Bleb (key data c i) (key data c j)) (fun i => (i < vlen data)%N) N.lt) with (l := range 0 (vlen data))
    as [idx [E [P S]]].
  - intros. now apply cmp_col_ok.
  - intros x y Hx Hy. apply Bleb_total; now apply key_ok.
  - intros x y z _ _ _. apply Bleb_trans.
  - apply Forall_forall. intros i Hi. apply in_range in Hi. lia.
  - apply range_sorted.
  - change (fun i j => _) with (cmp_col data c). rewrite E. cbn [bind].
    assert (Hf : Forall (fun i => i < vlen data)%N idx).
    { apply Forall_forall. intros i Hi. apply (Permutation_in _ P), in_range in Hi. lia. }
    destruct (mmap_vget data idx Hf) as [out [Eo [Lo H]]]. exists out, idx. split; [exact Eo|]. split; [exact P|].
    split; [|split; [|exact H]].
    + eapply StronglySorted_impl; [|exact S]. intros i j Hi Hj [H1 H2]. rewrite Forall_forall in Hf.
      destruct (wide_entry _ _ _ W (Hf i Hi)) as [a Ha], (wide_entry _ _ _ W (Hf j Hj)) as [b Hb].
      rewrite (key_entry _ _ _ _ Ha), (key_entry _ _ _ _ Hb) in *. exists a, b. auto.
    + rewrite Lo. unfold vlen. rewrite (Permutation_length P), range_length. unfold vlen. lia.
Qed.
(** The result is a rearrangement of the rows, and passes the converter's own test. *)
Theorem c50_rows (data : table f64) c out : wide data c -> no_nan data c -> sort_by_column data c = Val out ->
  Permutation out data /\ exists l, column out c = Val l /\ is_sorted l = true.
Proof.
  intros W Nn E. destruct (c50_sorted data c W Nn) as [out' [idx [E' [P [S [L H]]]]]]. rewrite E in E'. injection E' as <-.
  assert (Eo : out = map (fun i => nth (N.to_nat i) data []) idx).
  { apply nth_ext with (d := []) (d' := []); [rewrite map_length, (Permutation_length P), range_length; unfold vlen in *; lia|].
    intros n Hn. assert (Hi : (n < length idx)%nat). { rewrite (Permutation_length P), range_length. unfold vlen in *. lia. }
    destruct (nth_error idx n) as [i|] eqn:Ei; [|apply nth_error_None in Ei; lia].
    destruct (H (N.of_nat n) i) as [r [Hr Ho]]; [unfold at_; now rewrite Nat2N.id|]. unfold at_ in *. rewrite Nat2N.id in Ho.
    rewrite (nth_error_nth _ _ _ Ho). symmetry. rewrite (nth_indep _ [] (nth (N.to_nat i) data [])) by (rewrite map_length; exact Hi).
    rewrite (map_nth (fun i => nth (N.to_nat i) data [])). rewrite (nth_error_nth _ _ i Ei). now apply nth_error_nth. }
  split.
  - rewrite Eo, (Permutation_map _ P).
    replace (map (fun i => nth (N.to_nat i) data []) (range 0 (vlen data))) with data; [reflexivity|].
    apply nth_ext with (d := []) (d' := []); [rewrite map_length, range_length; unfold vlen; lia|].
    intros n Hn. rewrite (nth_indep (map _ _) [] (nth (N.to_nat 0) data [])) by (rewrite map_length, range_length; unfold vlen; lia).
    rewrite (map_nth (fun i => nth (N.to_nat i) data [])). rewrite range_nth by (unfold vlen; lia). f_equal. lia.
  - assert (Hf : forall i, In i idx -> (i < vlen data)%N).
    { intros i Hi. apply (Permutation_in _ P), in_range in Hi. lia. }
    exists (map (key data c) idx). split.
    + unfold column. rewrite Eo. clear -Hf W. induction idx as [|i idx IH]; cbn; [reflexivity|].
      destruct (wide_entry data c i W) as [x Hx]; [apply Hf; now left|].
      rewrite (key_entry _ _ _ _ Hx). destruct Hx as [r [Hr Hx]]. unfold at_ in Hr. rewrite (nth_error_nth _ _ _ Hr).
      rewrite (at_vget _ _ _ Hx). cbn [bind]. rewrite IH by (intros; apply Hf; now right). reflexivity.
    + clear -S. induction S as [|i l S IH F]; [reflexivity|]. destruct l as [|j l]; [reflexivity|].
      change (Bleb (key data c i) (key data c j) && is_sorted (map (key data c) (j :: l)) = true). rewrite IH, andb_true_r.
      inversion F as [|? ? [a [b [Ha [Hb [L _]]]]] _]; subst. now rewrite (key_entry _ _ _ _ Ha), (key_entry _ _ _ _ Hb).
Qed.

Lemma is_sorted_strong (l : list f64) : is_sorted l = true -> StronglySorted (fun a b => Bleb a b = true) l.
Proof.
  induction l as [|a l IH]; intros H; [constructor|]. destruct l as [|b l]; [repeat constructor|].
  change (Bleb a b && is_sorted (b :: l) = true) in H. apply andb_true_iff in H as [H1 H2]. specialize (IH H2).
  constructor; [exact IH|]. inversion IH as [|? ? _ F]; subst. constructor; [exact H1|].
  rewrite Forall_forall in *. intros x Hx. eapply Bleb_trans; [exact H1 | auto].
Qed.
(** A table already in order (in particular, one sorted before) is left alone. *)
Theorem c50_identity (data : table f64) c l : column data c = Val l -> is_sorted l = true ->
  sort_by_column data c = Val data.
Proof.
  intros E S. apply is_sorted_strong in S. unfold column in E. apply mmap_inv in E.
  assert (W : wide data c). { clear -E. induction E as [|r x data l H _ IH]; constructor; [now apply vget_lt_inv in H | exact IH]. }
  assert (K : map (key data c) (range 0 (vlen data)) = l).
  { apply nth_ext with (d := key data c 0) (d' := key data c 0); [rewrite map_length, range_length, <- (Forall2_length _ _ _ E); unfold vlen; lia|].
    intros n Hn. rewrite map_length, range_length in Hn. rewrite (map_nth (key data c)), range_nth by lia.
    destruct (nth_error data n) as [r|] eqn:Er; [|apply nth_error_None in Er; unfold vlen in Hn; lia].
    destruct (Forall2_at_l _ _ _ E n r Er) as [x [Hx Ex]]. rewrite (nth_error_nth _ _ _ Hx). apply key_entry.
    exists r. split; [unfold at_; rewrite N.add_0_l, Nat2N.id; exact Er | now apply vget_val]. }
  destruct data as [|r0 [|r1 data]].
  { reflexivity. }
  { reflexivity. }
  set (D := r0 :: r1 :: data) in *.
  assert (Nn : no_nan D c).
  { intros i x Hx. assert (Hi : (i < vlen D)%N) by (destruct Hx as [r [Hr _]]; now apply at_lt in Hr).
    assert (Q : forall y, In y l -> is_nan y = false).
    { assert (L2 : (2 <= length l)%nat) by (rewrite <- (Forall2_length _ _ _ E); cbn; lia). clear -S L2. intros y Hy.
      destruct S as [|a l S F]; [cbn in L2; lia|]. destruct Hy as [<-|Hy].
      - destruct l as [|b l]; [cbn in L2; lia|]. inversion F; subst. now apply Bleb_not_nan_l in H1.
      - rewrite Forall_forall in F. specialize (F y Hy). now apply Bleb_not_nan_r in F. }
    rewrite <- (key_entry _ _ _ _ Hx). apply Q. rewrite <- K. apply in_map, in_range. lia. }
  unfold sort_by_column. fold (cmp_col D c).
  rewrite (isort_id (cmp_col D c) (fun i j => Bleb (key D c i) (key D c j)) (fun i => (i < vlen D)%N)).
  - cbn [bind]. clear. assert (G : forall (l pre : table f64), mmap (vget (pre ++ l)) (range (vlen pre) (vlen pre + vlen l)) = Val l).
    { induction l as [|r l IH]; intros pre; [now rewrite range_empty by (cbn; lia)|].
      rewrite range_cons by (unfold vlen; cbn; lia). cbn [mmap]. unfold vget at 1, vlen at 1. rewrite Nat2N.id, nth_error_app2, Nat.sub_diag by lia.
      cbn [nth_error unwrap bind]. specialize (IH (pre ++ [r])). rewrite <- app_assoc in IH. cbn [app] in IH.
      replace (vlen (pre ++ [r])) with (vlen pre + 1)%N in IH by (unfold vlen; rewrite app_length; cbn; lia).
      replace (vlen pre + 1 + vlen l)%N with (vlen pre + vlen (r :: l))%N in IH by (unfold vlen; cbn; lia). rewrite IH. reflexivity. }
    apply (G D []).
  - intros. now apply cmp_col_ok.
  - apply Forall_forall. intros i Hi. apply in_range in Hi. lia.
  - rewrite <- K in S. clear -S. remember (range 0 (vlen D)) as r eqn:Er. clear Er. induction r as [|i r IH]; [constructor|].
    cbn in S. inversion S as [|? ? S' F]; subst. constructor; [auto|]. rewrite Forall_forall in *. intros j Hj. apply F. now apply in_map.
Qed.

(** NaN in the column of a table with at least two rows is refused, wherever it is. *)
Theorem c50_nan (data : table f64) c i x : (2 <= vlen data)%N -> entry data c i x -> is_nan x = true ->
  sort_by_column data c = Panic.
Proof.
  intros L2 Hx Nx. unfold sort_by_column. fold (cmp_col data c).
  assert (Q : forall j, cmp_col data c i j = Panic /\ cmp_col data c j i = Panic).
  { intros j. apply cell_entry in Hx. unfold cmp_col. rewrite Hx. cbn [bind]. split.
    - destruct (cell data j c); [|reflexivity]. cbn [bind nisnan num_f64]. now rewrite Nx.
    - destruct (cell data j c); [|reflexivity]. cbn [bind nisnan num_f64]. now rewrite Nx, orb_true_r. }
  assert (Hi : (i < vlen data)%N) by (destruct Hx as [r [Hr _]]; now apply at_lt in Hr).
  assert (I1 : forall l, l <> [] -> insert (cmp_col data c) i l = Panic).
  { intros [|j l] H; [congruence|]. cbn. now rewrite (proj1 (Q j)). }
  assert (I2 : forall l j r, In i l -> insert (cmp_col data c) j l = Val r -> hd_error l <> Some i).
  { intros [|k l] j r _; cbn; [discriminate|]. intros E [= ->]. rewrite (proj2 (Q j)) in E. discriminate. }
  enough (G : forall l, In i l -> (2 <= length l)%nat -> isort (cmp_col data c) l = Panic).
  { rewrite G; [reflexivity | apply in_range; lia | rewrite range_length; lia]. }
  assert (IN : forall l r, isort (cmp_col data c) l = Val r -> length r = length l).
  { intros l r E. apply isort_perm in E. now apply Permutation_length. }
  induction l as [|a l IH]; intros Hin L; [destruct Hin|]. cbn [isort].
  destruct (isort (cmp_col data c) l) as [r|] eqn:E; [|reflexivity]. cbn [bind].
  assert (Lr := IN _ _ E). destruct (N.eq_dec a i) as [->|Na].
  - apply I1. intros ->. cbn in *. lia.
  - destruct Hin as [->|Hin]; [congruence|]. destruct (le_lt_dec 2 (length l)) as [G|G].
    + specialize (IH Hin G). congruence.
    + destruct l as [|b [|]]; cbn in *; [destruct Hin | | lia]. destruct Hin as [->|[]]. injection E as <-. cbn. now rewrite (proj2 (Q a)).
Qed.
Definition ex50 : table f64 := [[f64_of_Z 2; f64_of_Z 0]; [f64_of_Z 1; f64_of_Z 1]; [f64_of_Z 2; f64_of_Z 2]].
Example c50_used : wide ex50 0 /\ no_nan ex50 0 /\
  sort_by_column ex50 0 = Val [[f64_of_Z 1; f64_of_Z 1]; [f64_of_Z 2; f64_of_Z 0]; [f64_of_Z 2; f64_of_Z 2]].
Proof.
  split; [repeat constructor|]. split.
  - intros i x [r [Hr Hx]]. unfold at_ in *. destruct (N.to_nat i) as [|[|[|n]]]; cbn [nth_error ex50] in Hr; [| | |destruct n; discriminate];
    inversion Hr; subst r; cbn [nth_error N.to_nat] in Hx; inversion Hx; reflexivity.
  - unfold sort_by_column. fold (cmp_col ex50 0).
    assert (E : isort (cmp_col ex50 0) (range 0 (vlen ex50)) = Val [1; 0; 2]%N) by (vm_compute; reflexivity).
    rewrite E. reflexivity.
Qed.
