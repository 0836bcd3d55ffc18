(** * Properties C62-C64, C72: binary threshold, NaN-aware statistics, minmax, meshgrid, flatten. *)
From Coq Require Import Reals List NArith ZArith Bool Lia Lra Permutation Sorted ZifyBool ZifyN ZifyNat.
From Flocq Require Import Core.Core IEEE754.BinarySingleNaN.
From Verif Require Import Base BaseFacts Num F64Facts RFacts NDArray GridModel GridFacts DataModel DataSpec DataLoad PropertiesGrid ConvModel ConvSort ConvCsv
  PropertiesData PropertiesCsv PyModel.
Local Open Scope list_scope.
Local Open Scope bool_scope.

(** ** C62 *)
(** The non-zero entries of a field; its number of cells. *)
Definition nonzero (a : arr3 f64) : list f64 := filter (fun x => negb (Beqb x (f64_of_Z 0))) (map (at3 a) (ids3 (sh3 a))).
Definition cells_of (a : arr3 f64) : N := vlen (ids3 (sh3 a)).
(** [thr] is the entry of rank [k] (counted from 0) of [l]. *)
Definition rank (l : list f64) (k : N) (thr : f64) : Prop :=
  In thr l /\ (vlen (filter (fun x => Bltb x thr) l) <= k)%N /\ (k < vlen (filter (fun x => Bleb x thr) l))%N.
(** The rank that a quantile asks for: number of cells times quantile, in doubles, truncated. *)
Definition q_rank (a : arr3 f64) (q : f64) : N := f64_to_usize (Bmult mode_NE (f64_of_Z (Z.of_N (cells_of a))) q).

Lemma filter_none {A} (p : A -> bool) l : (forall x, In x l -> p x = false) -> filter p l = [].
Proof. induction l as [|x l IH]; intros H; cbn; [reflexivity|]. rewrite H by (now left). apply IH. intros y Hy. apply H. now right. Qed.
Lemma filter_all {A} (p : A -> bool) l : (forall x, In x l -> p x = true) -> filter p l = l.
Proof. induction l as [|x l IH]; intros H; cbn; [reflexivity|]. rewrite H by (now left). f_equal. apply IH. intros y Hy. apply H. now right. Qed.
Lemma filter_perm {A} (p : A -> bool) l l' : Permutation l l' -> Permutation (filter p l) (filter p l').
Proof. induction 1; cbn; try destruct (p x); try destruct (p y); auto using perm_nil, perm_skip, perm_swap; try reflexivity. etransitivity; eassumption. Qed.
Lemma filter_sorted {A} (R : A -> A -> Prop) p l : StronglySorted R l -> StronglySorted R (filter p l).
Proof.
  induction 1 as [|x l S IH H]; cbn; [constructor|]. destruct (p x); [|exact IH]. constructor; [exact IH|].
  rewrite Forall_forall in *. intros y Hy. apply filter_In in Hy. now apply H.
Qed.

Lemma cmp_le_ok (x y : f64) : is_nan x = false -> is_nan y = false -> cmp_le x y = Val (Bleb x y).
Proof. intros Hx Hy. unfold cmp_le. cbn [nisnan num_f64]. now rewrite Hx, Hy. Qed.
Lemma insert_nan (x y : f64) l r : insert cmp_le x (y :: l) = Val r -> is_nan x = false /\ is_nan y = false.
Proof.
  cbn [insert]. unfold cmp_le at 1. cbn [nisnan num_f64]. destruct (is_nan x), (is_nan y); cbn; try discriminate. auto.
Qed.
Lemma isort_nan (l : list f64) r : isort cmp_le l = Val r -> (2 <= length l)%nat -> Forall (fun x => is_nan x = false) l.
Proof.
  revert r. induction l as [|x l IH]; intros r E Hl; [constructor|]. cbn [isort] in E. apply bind_val in E. destruct E as [q [Eq E]].
  assert (P := isort_perm _ _ _ Eq). destruct q as [|y q].
  { apply Permutation_nil in P. subst l. cbn in Hl. lia. }
  destruct (insert_nan x y q r E) as [Nx Ny]. constructor; [exact Nx|].
  destruct l as [|z [|w l]]; [constructor| |].
  - apply Permutation_sym, Permutation_length_1_inv in P. injection P as <- _. now constructor.
  - apply (IH _ Eq). cbn. lia.
Qed.
Lemma sorted_ok (l : list f64) : (2 <= length l)%nat -> Forall (fun x => is_nan x = false) l ->
  exists r, isort cmp_le l = Val r /\ Permutation r l /\ StronglySorted (fun x y => Bleb x y = true) r.
Proof.
  intros _ Nn. destruct (isort_stable (@cmp_le f64 _) Bleb (fun x => is_nan x = false) (fun _ _ => True)) with (l := l) as [r [E [P S]]].
  - intros. now apply cmp_le_ok.
  - intros. now apply Bleb_total.
  - intros x y z _ _ _. apply Bleb_trans.
  - exact Nn.
  - clear Nn. induction l; constructor; auto. now apply Forall_forall.
  - exists r. split; [exact E|]. split; [exact P|]. eapply StronglySorted_impl; [|exact S]. intros x y _ _ H. apply H.
Qed.
(** One cell: sorted without comparing anything. *)
Lemma isort_any (l : list f64) r : isort cmp_le l = Val r ->
  Permutation r l /\ StronglySorted (fun x y => Bleb x y = true) r.
Proof.
  intros E. destruct l as [|x [|y l]].
  - cbn in E. injection E as <-. split; [reflexivity | constructor].
  - cbn in E. injection E as <-. split; [reflexivity | repeat constructor].
  - assert (Nn := isort_nan _ _ E ltac:(cbn; lia)). destruct (sorted_ok (x :: y :: l) ltac:(cbn; lia) Nn) as [r' [E' [P S]]].
    rewrite E in E'. injection E' as <-. auto.
Qed.
Lemma nonzero_nan (a : arr3 f64) r : isort cmp_le (flat3 a) = Val r -> forall x, In x (nonzero a) -> is_nan x = true -> vlen (flat3 a) = 1%N.
Proof.
  intros E x Hx Nx. apply filter_In in Hx. destruct Hx as [Hx _]. fold (flat3 a) in Hx.
  destruct (flat3 a) as [|y [|z l]] eqn:L; [contradiction | reflexivity|].
  assert (Nn := isort_nan _ _ E ltac:(cbn; lia)). rewrite Forall_forall in Nn. rewrite (Nn x Hx) in Nx. discriminate.
Qed.

Lemma ofnat_le (m n : nat) k : n = N.to_nat k -> (m <= n)%nat -> (N.of_nat m <= k)%N. Proof. lia. Qed.
Lemma ofnat_lt (m n : nat) k : n = N.to_nat k -> (n < m)%nat -> (k < N.of_nat m)%N. Proof. lia. Qed.
Lemma rank_gen {A} (p q : A -> bool) l1 x l2 : (forall y, In y l2 -> p y = false) -> p x = false ->
  (forall y, In y l1 -> q y = true) -> q x = true ->
  (length (filter p (l1 ++ x :: l2)) <= length l1)%nat /\ (length l1 < length (filter q (l1 ++ x :: l2)))%nat.
Proof.
  intros H1 H2 H3 H4. rewrite !filter_app. cbn [filter]. rewrite H2, H4, (filter_none p l2 H1), (filter_all q l1 H3).
  rewrite !app_length. cbn [length]. assert (length (filter p l1) <= length l1)%nat; [|lia].
  clear. induction l1 as [|y l IH]; cbn; [lia|]. destruct (p y); cbn; lia.
Qed.
Lemma Ble_nlt (x y : f64) : Bleb x y = true -> Bltb y x = false.
Proof. intros H. apply not_true_iff_false. intros C. apply Blt_nle in C. congruence. Qed.
Lemma rank_of (l S : list f64) k thr : StronglySorted (fun x y => Bleb x y = true) S -> Permutation S l ->
  at_ S k thr -> is_nan thr = false -> rank l k thr.
Proof.
  intros Ss P Hk Nt. unfold rank. split; [eapply Permutation_in; [exact P|]; eapply nth_error_In; exact Hk|].
  assert (C : forall p : f64 -> bool, vlen (filter p l) = vlen (filter p S)).
  { intros p. unfold vlen. f_equal. apply Permutation_length, filter_perm, Permutation_sym, P. }
  rewrite !C. clear C P l. unfold at_ in Hk. apply nth_error_split in Hk. destruct Hk as [l1 [l2 [-> L1]]].
  assert (A : forall x, In x l2 -> Bleb thr x = true).
  { intros x Hx. clear L1. induction l1 as [|y l1 IH]; cbn in Ss; inversion Ss as [|? ? S' H']; subst; [|now apply IH].
    rewrite Forall_forall in H'. now apply H'. }
  assert (B : forall x, In x l1 -> Bleb x thr = true).
  { intros x Hx. clear L1. induction l1 as [|y l1 IH]; [contradiction|]. cbn in Ss. inversion Ss as [|? ? S' H']; subst.
    destruct Hx as [<-|Hx]; [|now apply IH]. rewrite Forall_forall in H'. apply H'. apply in_or_app. right. now left. }
  destruct (rank_gen (fun x => Bltb x thr) (fun x => Bleb x thr) l1 thr l2) as [G1 G2].
  - intros y Hy. apply Ble_nlt. now apply A.
  - apply Ble_nlt. now apply Bleb_refl.
  - exact B.
  - now apply Bleb_refl.
  - split; [exact (ofnat_le _ _ _ L1 G1) | exact (ofnat_lt _ _ _ L1 G2)].
Qed.

(** What the operation computes: a field of the same shape that is 1 exactly in the cells above the
    threshold, which is the non-zero entry of the rank asked for. *)
Theorem c62_marks (a out : arr3 f64) q : binary_threshold a q = Val out -> (2 <= cells_of a)%N ->
  exists thr, rank (nonzero a) (q_rank a q) thr /\ sh3 out = sh3 a /\
    forall c, at3 out c = f64_of_Z (if Bltb thr (at3 a c) then 1 else 0).
Proof.
  unfold binary_threshold. intros E Hc. destruct (negb _); [discriminate|]. apply bind_val in E. destruct E as [srt [Es E]].
  apply bind_val in E. destruct E as [thr [Et E]]. injection E as <-.
  destruct (isort_any _ _ Es) as [P S]. exists thr. split; [|split; [reflexivity|]].
  - assert (Q : q_rank a q = nusize (nmul (nofN (vlen (flat3 a))) q)).
    { unfold q_rank, cells_of, flat3. rewrite vlen_map. reflexivity. }
    rewrite Q. apply vget_val in Et. eapply rank_of; [apply filter_sorted, S| |exact Et|].
    + unfold nonzero. fold (flat3 a). apply filter_perm, P.
    + apply nth_error_In in Et. apply filter_In in Et. destruct Et as [Et _].
      assert (Nn := isort_nan _ _ Es). rewrite Forall_forall in Nn. apply Nn; [|eapply Permutation_in; [exact P | exact Et]].
      unfold cells_of, flat3 in *. rewrite map_length. unfold vlen in Hc. lia.
  - intros c. unfold map3. cbn [at3]. cbn [nltb num_f64]. now destruct (Bltb thr (at3 a c)).
Qed.
(** When it is refused: exactly for a quantile outside [0, 1], for NaN in the field, or if the
    field does not have enough non-zero entries. *)
Theorem c62_accepts (a : arr3 f64) q : (2 <= cells_of a)%N ->
  (exists out, binary_threshold a q = Val out) <->
  (Bleb (f64_of_Z 0) q = true /\ Bleb q (f64_of_Z 1) = true /\
   (forall c, inb3 (sh3 a) c = true -> is_nan (at3 a c) = false) /\ (q_rank a q < vlen (nonzero a))%N).
Proof.
  intros Hc. assert (Lf : (2 <= length (flat3 a))%nat) by (unfold cells_of, flat3 in *; rewrite map_length; unfold vlen in Hc; lia).
  assert (Q : q_rank a q = nusize (nmul (nofN (vlen (flat3 a))) q)).
  { unfold q_rank, cells_of, flat3. rewrite vlen_map. reflexivity. }
  unfold binary_threshold. cbn [nleb num_f64]. change (n0 : f64) with (f64_of_Z 0). change (n1 : f64) with (f64_of_Z 1). split.
  - intros [out E]. destruct (Bleb (f64_of_Z 0) q); [|discriminate]. destruct (Bleb q (f64_of_Z 1)); [|discriminate].
    cbn [andb negb] in E. apply bind_val in E. destruct E as [srt [Es E]].
    apply bind_val in E. destruct E as [thr [Et E]]. split; [reflexivity|]. split; [reflexivity|].
    assert (P := isort_perm _ _ _ Es). assert (Nn := isort_nan _ _ Es Lf). split.
    + intros c Hin. rewrite Forall_forall in Nn. apply Nn. unfold flat3. apply in_map. now apply in_ids3.
    + apply vget_lt_inv in Et. rewrite Q. unfold vlen in *. erewrite (Permutation_length (filter_perm _ _ _ P)) in Et. exact Et.
  - intros [-> [-> [Nn Hk]]]. cbn [andb negb].
    assert (Nf : Forall (fun x => is_nan x = false) (flat3 a)).
    { apply Forall_forall. intros x Hx. unfold flat3 in Hx. apply in_map_iff in Hx. destruct Hx as [c [<- Hc']]. apply Nn. now apply in_ids3. }
    destruct (sorted_ok _ Lf Nf) as [srt [Es [P _]]]. rewrite Es. cbn [bind].
    rewrite <- Q. match goal with |- context [vget ?l ?k] => destruct (vget_lt l k) as [thr Et] end.
    { unfold vlen in *. erewrite (Permutation_length (filter_perm _ _ _ P)). exact Hk. }
    rewrite Et. cbn [bind]. eauto.
Qed.
(** More is never marked less. *)
Theorem c62_monotone (a out : arr3 f64) q c c' : binary_threshold a q = Val out -> (2 <= cells_of a)%N ->
  Bleb (at3 a c) (at3 a c') = true -> Bleb (at3 out c) (at3 out c') = true.
Proof.
  intros E Hc H. destruct (c62_marks a out q E Hc) as [thr [_ [_ Ho]]]. rewrite !Ho.
  destruct (Bltb thr (at3 a c)) eqn:A; [|destruct (Bltb thr (at3 a c')); reflexivity].
  rewrite (Blt_le_trans _ _ _ A H). reflexivity.
Qed.
(** The rank asked for is the rounded product, truncated; it never exceeds the number of cells. *)
Section RS.
Local Open Scope R_scope.
Lemma mul_unit' (x y : f64) (n : Z) : is_finite x = true -> is_finite y = true ->
  0 <= B2R x <= 1 -> B2R y = IZR n -> (0 <= n <= 2 ^ 53)%Z ->
  is_finite (Bmult mode_NE y x) = true /\ B2R (Bmult mode_NE y x) = rnd (IZR n * B2R x) /\
  0 <= rnd (IZR n * B2R x) <= IZR n.
Proof.
  intros Fx Fy Hx Hy Hn.
  assert (N0 : 0 <= IZR n) by (apply IZR_le; lia).
  assert (Q : 0 <= IZR n * B2R x <= IZR n) by nra.
  assert (Q' : 0 <= rnd (IZR n * B2R x) <= IZR n).
  { split; [now apply rnd_nonneg|].
    apply Rle_trans with (rnd (IZR n)); [now apply rnd_mono|].
    rewrite rnd_fmt; [lra | apply fmt_int; lia]. }
  generalize (Bmult_correct 53 1024 _ _ mode_NE y x). rewrite Hy.
  change (round radix2 fexp64 (round_mode mode_NE) (IZR n * B2R x)) with (rnd (IZR n * B2R x)).
  rewrite Rabs_pos_eq by lra.
  rewrite Rlt_bool_true.
  - intros [H1 [H2 _]]. rewrite H2, Fx, Fy. auto.
  - apply Rle_lt_trans with (IZR (2 ^ 53)); [|apply M64_big].
    apply Rle_trans with (IZR n); [lra | apply IZR_le; lia].
Qed.
End RS.
Theorem c62_rank_bound (a : arr3 f64) q : (cells_of a <= 2 ^ 53)%N ->
  Bleb (f64_of_Z 0) q = true -> Bleb q (f64_of_Z 1) = true ->
  Z.of_N (q_rank a q) = Ztrunc (rnd (IZR (Z.of_N (cells_of a)) * B2R q)%R) /\ (q_rank a q <= cells_of a)%N.
Proof.
  intros Hc H0 H1. destruct (of_Z_correct (Z.of_N (cells_of a))) as [Ec Fc]; [lia|].
  destruct (of_Z_correct 0) as [E0 F0]; [lia|]. destruct (of_Z_correct 1) as [E1 F1]; [lia|].
  assert (Fq : is_finite q = true).
  { destruct q as [|[|]| |]; try reflexivity; discriminate. }
  apply (Bleb_R _ _ F0 Fq) in H0. apply (Bleb_R _ _ Fq F1) in H1. rewrite E0 in H0. rewrite E1 in H1.
  destruct (mul_unit' q (f64_of_Z (Z.of_N (cells_of a))) (Z.of_N (cells_of a)) Fq Fc) as [Fm [Em Bm]]; [lra | exact Ec | lia|].
  unfold q_rank. rewrite (to_usize_finite _ Fm), Em. set (r := rnd _) in *. clearbody r.
  assert (T : (0 <= Ztrunc r <= Z.of_N (cells_of a))%Z).
  { rewrite Ztrunc_floor by lra. split.
    - apply Zfloor_lub. lra.
    - apply le_IZR. apply Rle_trans with r; [apply Zfloor_lb | lra]. }
  unfold usize_max. lia.
Qed.
(** Quantile 1 is always refused. *)
Theorem c62_quantile_one (a : arr3 f64) : (2 <= cells_of a <= 2 ^ 53)%N -> binary_threshold a (f64_of_Z 1) = Panic.
Proof.
  intros Hc. destruct (binary_threshold a (f64_of_Z 1)) as [out|] eqn:E; [|reflexivity]. exfalso.
  assert (A := proj1 (c62_accepts a (f64_of_Z 1) ltac:(lia)) (ex_intro _ out E)). destruct A as [A0 [A1 [_ Hk]]].
  destruct (c62_rank_bound a (f64_of_Z 1) ltac:(lia) A0 A1) as [R _].
  destruct (of_Z_correct 1) as [E1 _]; [lia|]. rewrite E1, Rmult_1_r in R.
  rewrite rnd_fmt in R by (apply fmt_int; lia). rewrite Ztrunc_IZR in R.
  assert (vlen (nonzero a) <= cells_of a)%N; [|lia].
  unfold nonzero, cells_of, vlen. rewrite <- (map_length (at3 a)). generalize (map (at3 a) (ids3 (sh3 a))).
  induction l as [|x l IH]; cbn [filter length]; [lia|]. destruct (negb _); cbn [length]; lia.
Qed.
(** A case: four cells with 0, 3, 1, 2 and the median. *)
Definition ex_field : arr3 f64 := mkA3 (1, 1, 4)%N (fun '(_, _, k) => nth (N.to_nat k) [d 0; d 3; d 1; d 2] (d 0)).
Example c62_case : cells_of ex_field = 4%N /\ q_rank ex_field (nlit 1 2) = 2%N /\ vlen (nonzero ex_field) = 3%N /\
  after (binary_threshold ex_field (nlit 1 4)) (fun out => map B2SF (flat3 out) = map B2SF [d 0; d 1; d 0; d 0]).
Proof. split; [reflexivity|]. split; [reflexivity|]. split; [vm_compute; reflexivity|]. vm_compute. reflexivity. Qed.

(** ** C72: the q-quantile of the non-zero entries *)
(** The rank is counted in all cells, not in the non-zero ones: a half-empty field has no median. *)
Theorem c72_quantile_refuted (a : arr3 f64) q : (2 <= cells_of a)%N -> (vlen (nonzero a) <= q_rank a q)%N ->
  binary_threshold a q = Panic.
Proof.
  intros Hc Hk. destruct (binary_threshold a q) as [out|] eqn:E; [|reflexivity]. exfalso.
  assert (A := proj1 (c62_accepts a q ltac:(lia)) (ex_intro _ out E)). destruct A as [_ [_ [_ A]]]. lia.
Qed.
Definition ex_half : arr3 f64 := mkA3 (1, 1, 4)%N (fun '(_, _, k) => nth (N.to_nat k) [d 0; d 3; d 0; d 2] (d 0)).
Example c72_case : cells_of ex_half = 4%N /\ q_rank ex_half (nlit 1 2) = 2%N /\ vlen (nonzero ex_half) = 2%N.
Proof. split; [reflexivity|]. split; [reflexivity|]. vm_compute; reflexivity. Qed.

(** ** C63 *)
Definition numbers (l : list f64) : list f64 := filter (fun x => negb (is_nan x)) l.
Lemma nan_fold (g : f64 -> f64) (l : list f64) : forall st : f64 * N,
  fold_left (fun st x => let '(sum, count) := st in
    if negb (nisnan x) then (nadd sum (g x), (count + 1)%N) else (sum, count)) l st =
  (fold_left (fun s x => nadd s (g x)) (numbers l) (fst st), (snd st + vlen (numbers l))%N).
Proof.
  induction l as [|x l IH]; intros [s c]; cbn [fold_left numbers filter fst snd].
  - unfold vlen. cbn. now rewrite N.add_0_r.
  - cbn [nisnan num_f64]. destruct (is_nan x); cbn [negb]; fold (numbers l); rewrite IH; cbn [fst snd fold_left]; [reflexivity|].
    f_equal. unfold vlen. cbn [length]. lia.
Qed.
(** The mean is the sum of the numbers in the array, in order, divided by how many there are. *)
Theorem c63_mean (l : list f64) :
  nan_mean l = Bdiv mode_NE (fold_left (Bplus mode_NE) (numbers l) (f64_of_Z 0)) (f64_of_Z (Z.of_N (vlen (numbers l)))).
Proof.
  unfold nan_mean. rewrite (nan_fold (fun x => x) l (n0, 0%N)). cbn [fst snd]. rewrite N.add_0_l. reflexivity.
Qed.
Theorem c63_std (l : list f64) :
  let m := nan_mean l in
  nan_std l = Bsqrt mode_NE (Bdiv mode_NE
     (fold_left (fun s x => Bplus mode_NE s (Bmult mode_NE (Bminus mode_NE x m) (Bminus mode_NE x m))) (numbers l) (f64_of_Z 0))
     (f64_of_Z (Z.of_N (vlen (numbers l))))).
Proof.
  cbv zeta. unfold nan_std. rewrite (nan_fold (fun x => nmul (nsub x (nan_mean l)) (nsub x (nan_mean l))) l (n0, 0%N)).
  cbn [fst snd]. rewrite N.add_0_l. reflexivity.
Qed.
(** NaN entries make no difference, wherever they stand; only NaN gives NaN. *)
Theorem c63_ignores (l l' : list f64) : numbers l = numbers l' -> nan_mean l = nan_mean l' /\ nan_std l = nan_std l'.
Proof.
  intros E. assert (M : nan_mean l = nan_mean l') by (rewrite !c63_mean; now rewrite E). split; [exact M|].
  rewrite !c63_std. cbv zeta. now rewrite E, M.
Qed.
Theorem c63_all_nan (l : list f64) : Forall (fun x => is_nan x = true) l ->
  is_nan (nan_mean l) = true /\ is_nan (nan_std l) = true.
Proof.
  intros H. assert (E : numbers l = numbers []).
  { unfold numbers at 2. cbn. unfold numbers. apply filter_none. intros x Hx. rewrite Forall_forall in H. now rewrite (H x Hx). }
  destruct (c63_ignores _ _ E) as [-> ->]. split; reflexivity.
Qed.
(** The standard deviation is never negative. *)
Lemma sqrt_sign (x : f64) : is_nan (Bsqrt mode_NE x) = true \/ Bleb (f64_of_Z 0) (Bsqrt mode_NE x) = true.
Proof.
  destruct (is_nan (Bsqrt mode_NE x)) eqn:N; [now left|]. right.
  destruct (Bsqrt_correct 53 1024 _ _ mode_NE x) as [E [F S]].
  destruct x as [s|[|]| |s m e B]; try (destruct s; reflexivity); try discriminate; try reflexivity.
  destruct s; [discriminate|]. cbn [is_finite] in F. 
  apply Bleb_R; [reflexivity | exact F|]. rewrite E. destruct (of_Z_correct 0) as [-> _]; [lia|].
  apply rnd_nonneg. apply sqrt_pos.
Qed.
Theorem c63_std_sign (l : list f64) : is_nan (nan_std l) = true \/ Bleb (f64_of_Z 0) (nan_std l) = true.
Proof. rewrite c63_std. apply sqrt_sign. Qed.

Section C63R.
  Local Open Scope R_scope.
  Lemma R_fold (g : R -> R) (l : list R) : forall st : R * N,
    fold_left (fun st x => let '(sum, count) := st in
      if negb (nisnan x) then (nadd sum (g x), (count + 1)%N) else (sum, count)) l st =
    (fst st + Rsum (map g l), (snd st + vlen l)%N).
  Proof.
    induction l as [|x l IH]; intros [s c]; cbn [fold_left map].
    - rewrite Rsum_nil, Rplus_0_r. unfold vlen. cbn. now rewrite N.add_0_r.
    - cbn [nisnan num_R negb]. rewrite IH. cbn [fst snd]. rewrite Rsum_cons. cbn [nadd num_R].
      f_equal; [ring|]. unfold vlen. cbn [length]. lia.
  Qed.
  Lemma nofN_INR (n : N) : nofN n = INR (N.to_nat n).
  Proof. unfold nofN. cbn [nof num_R]. rewrite INR_IZR_INZ. f_equal. lia. Qed.
  (** In ideal arithmetic: the mean, between the smallest and the largest entry ... *)
  Theorem c63_mean_ideal (l : list R) lo hi : l <> [] -> (forall x, In x l -> lo <= x <= hi) ->
    nan_mean l = Rsum l / INR (length l) /\ lo <= nan_mean l <= hi.
  Proof.
    intros Hne H. assert (E : nan_mean l = Rsum l / INR (length l)).
    { unfold nan_mean. rewrite (R_fold (fun x => x) l (n0, 0%N)). cbn [fst snd]. rewrite N.add_0_l, nofN_INR, map_id.
      unfold vlen. rewrite Nnat.Nat2N.id. cbn. now rewrite Rplus_0_l. }
    split; [exact E|]. rewrite E. now apply mean_bounds.
  Qed.
  (** ... and the (population) standard deviation, zero exactly if all entries are equal. *)
  Theorem c63_std_ideal (l : list R) : l <> [] ->
    let m := Rsum l / INR (length l) in
    nan_std l = sqrt (Rsum (map (fun x => (x - m) * (x - m)) l) / INR (length l)) /\ 0 <= nan_std l /\
    (nan_std l = 0 <-> forall x, In x l -> x = m).
  Proof.
    intros Hne. cbv zeta. set (m := Rsum l / INR (length l)).
    assert (Hp : 0 < INR (length l)) by (apply lt_0_INR; destruct l; [easy | cbn; lia]).
    assert (Em : nan_mean l = m).
    { unfold nan_mean. rewrite (R_fold (fun x => x) l (n0, 0%N)). cbn [fst snd]. rewrite N.add_0_l, nofN_INR, map_id.
      unfold vlen. rewrite Nnat.Nat2N.id. cbn. now rewrite Rplus_0_l. }
    assert (E : nan_std l = sqrt (Rsum (map (fun x => (x - m) * (x - m)) l) / INR (length l))).
    { unfold nan_std. rewrite Em. rewrite (R_fold (fun x => nmul (nsub x m) (nsub x m)) l (n0, 0%N)). cbn [fst snd].
      rewrite N.add_0_l, nofN_INR. unfold vlen. rewrite Nnat.Nat2N.id. cbn. now rewrite Rplus_0_l. }
    split; [exact E|]. split; [rewrite E; apply sqrt_pos|]. rewrite E.
    assert (Nn : 0 <= Rsum (map (fun x => (x - m) * (x - m)) l)) by (apply Rsum_nonneg; intros; apply Rle_0_sqr).
    split.
    - intros Z. apply sqrt_eq_0 in Z; [|apply Rmult_le_pos; [exact Nn | left; now apply Rinv_0_lt_compat]].
      assert (Z' : Rsum (map (fun x => (x - m) * (x - m)) l) = 0).
      { apply Rmult_eq_reg_r with (/ INR (length l)); [|apply Rinv_neq_0_compat; lra]. rewrite Rmult_0_l. exact Z. }
      clear - Z'. clearbody m. induction l as [|y l IH]; intros x Hx; [contradiction|]. cbn [map] in Z'. rewrite Rsum_cons in Z'.
      assert (N1 : 0 <= Rsum (map (fun x => (x - m) * (x - m)) l)) by (apply Rsum_nonneg; intros; apply Rle_0_sqr).
      assert (N2 : 0 <= (y - m) * (y - m)) by apply Rle_0_sqr.
      destruct Hx as [<-|Hx]; [nra | apply IH; [lra | exact Hx]].
    - intros H. rewrite Rsum_zero; [unfold Rdiv; rewrite Rmult_0_l; apply sqrt_0|].
      intros x Hx. rewrite (H x Hx). ring.
  Qed.
End C63R.
(** With rounding the mean can leave the range of the data: three times 0.1. *)
Theorem c72_mean_refuted : let x : f64 := nlit 1 10 in
  Bltb x (nan_mean [x; x; x]) = true.
Proof. vm_compute. reflexivity. Qed.
Example c63_case : numbers [d 1; nnan; d 3] = [d 1; d 3] /\ B2SF (nan_mean [d 1; nnan; d 3]) = B2SF (d 2) /\
  B2SF (nan_std [d 1; nnan; d 3]) = B2SF (d 1).
Proof. repeat split; vm_compute; reflexivity. Qed.

(** ** C64 *)
Local Notation fmax := (@nmax f64 num_f64).
Local Notation fmin := (@nmin f64 num_f64).
Definition mm_step (st : f64 * f64) (v : f64) : f64 * f64 :=
  (if Bltb v (fst st) then v else fst st, if Bltb (snd st) v then v else snd st).
Lemma minmax_fold (l : list f64) : minmax l = fold_left mm_step l (fmax, fmin).
Proof. unfold minmax. apply fold_left_ext_in. intros [mn mx] v _. reflexivity. Qed.
Lemma mm_fold (xs : list f64) : forall r : f64 * f64, is_nan (fst r) = false -> is_nan (snd r) = false ->
  let r' := fold_left mm_step xs r in
  (fst r' = fst r \/ In (fst r') (numbers xs)) /\ Bleb (fst r') (fst r) = true /\ (forall y, In y (numbers xs) -> Bleb (fst r') y = true) /\
  (snd r' = snd r \/ In (snd r') (numbers xs)) /\ Bleb (snd r) (snd r') = true /\ (forall y, In y (numbers xs) -> Bleb y (snd r') = true).
Proof.
  induction xs as [|x xs IH]; intros [lo hi] Nl Nh; cbn [fold_left fst snd] in *.
  - cbn. repeat split; try (now left); try (now apply Bleb_refl); intros y [].
  - destruct (is_nan x) eqn:Nx.
    + assert (E : mm_step (lo, hi) x = (lo, hi)).
      { unfold mm_step. cbn [fst snd]. destruct x; try discriminate. destruct lo, hi; reflexivity. }
      rewrite E. unfold numbers. cbn [filter]. rewrite Nx. cbn [negb]. fold (numbers xs). now apply (IH (lo, hi)).
    + assert (Ns : numbers (x :: xs) = x :: numbers xs) by (unfold numbers; cbn [filter]; now rewrite Nx). rewrite Ns.
      assert (Q1 : is_nan (fst (mm_step (lo, hi) x)) = false) by (unfold mm_step; cbn [fst snd]; now destruct (Bltb x lo)).
      assert (Q2 : is_nan (snd (mm_step (lo, hi) x)) = false) by (unfold mm_step; cbn [fst snd]; now destruct (Bltb hi x)).
      specialize (IH _ Q1 Q2). cbv zeta in IH |- *. revert IH. generalize (fold_left mm_step xs (mm_step (lo, hi) x)). intros r' IH.
      unfold mm_step in IH. cbn [fst snd] in IH. destruct IH as [A1 [A2 [A3 [B1 [B2 B3]]]]].
      assert (C1 : Bleb (if Bltb x lo then x else lo) x = true /\ Bleb (if Bltb x lo then x else lo) lo = true).
      { destruct (Bltb x lo) eqn:E; [split; [now apply Bleb_refl | now apply Blt_le]|].
        split; [|now apply Bleb_refl]. destruct (Bleb lo x) eqn:E2; [reflexivity|]. rewrite (Bnle_lt _ _ Nl Nx E2) in E. discriminate. }
      assert (C2 : Bleb x (if Bltb hi x then x else hi) = true /\ Bleb hi (if Bltb hi x then x else hi) = true).
      { destruct (Bltb hi x) eqn:E; [split; [now apply Bleb_refl | now apply Blt_le]|].
        split; [|now apply Bleb_refl]. destruct (Bleb x hi) eqn:E2; [reflexivity|]. rewrite (Bnle_lt _ _ Nx Nh E2) in E. discriminate. }
      split; [destruct A1 as [->|A1]; [destruct (Bltb x lo); [right; now left | now left] | right; now right]|].
      split; [eapply Bleb_trans; [exact A2 | apply C1]|].
      split; [intros y [<-|Hy]; [eapply Bleb_trans; [exact A2 | apply C1] | now apply A3]|].
      split; [destruct B1 as [->|B1]; [destruct (Bltb hi x); [right; now left | now left] | right; now right]|].
      split; [eapply Bleb_trans; [apply C2 | exact B2]|].
      intros y [<-|Hy]; [eapply Bleb_trans; [apply C2 | exact B2] | now apply B3].
Qed.
Lemma fmin_eq (x : f64) : is_finite x = true -> Bleb x fmin = true -> x = fmin.
Proof.
  intros Fx H. assert (G := finite_ge_min x Fx). apply Bleb_R in H; [|exact Fx|reflexivity]. apply Bleb_R in G; [|reflexivity|exact Fx].
  assert (E : B2R x = B2R fmin) by (apply Rle_antisym; assumption).
  assert (M : (B2R fmin < 0)%R).
  { assert (L : Bltb fmin (f64_of_Z 0) = true) by reflexivity. apply Bltb_R in L; [|reflexivity..].
    destruct (of_Z_correct 0) as [Z0 _]; [lia|]. rewrite Z0 in L. exact L. }
  apply B2R_inj; [|reflexivity|exact E]. rewrite <- E in M.
  destruct x as [s| | |s m e p]; try discriminate; [exfalso; change (0 < 0)%R in M; lra|].
  destruct s; [reflexivity|]. exfalso. assert (P : (0 < F2R (Float radix2 (Z.pos m) e))%R) by (apply Float_prop.F2R_gt_0; cbn; lia).
  change (F2R (Float radix2 (Z.pos m) e) < 0)%R in M. lra.
Qed.
(** Numbers in the array, all finite, NaN entries ignored: the lowest and the highest of them. *)
Theorem c64_minmax (l : list f64) : numbers l <> [] -> Forall (fun x => is_finite x = true) (numbers l) ->
  lowest (fst (minmax l)) (numbers l) /\ highest (snd (minmax l)) (numbers l).
Proof.
  intros Ne Fx. rewrite minmax_fold.
  destruct (mm_fold l (fmax, fmin)) as [A1 [A2 [A3 [B1 [B2 B3]]]]]; [reflexivity..|]. cbn [fst snd] in *.
  destruct (numbers l) as [|x ns] eqn:N; [congruence|]. assert (F0 := Forall_inv Fx). split.
  - split; [|exact A3]. destruct A1 as [A1|A1]; [|exact A1]. rewrite A1 in *. left. symmetry.
    apply Bpos_eq; [reflexivity | apply A3; now left | now apply finite_le_max].
  - split; [|exact B3]. destruct B1 as [B1|B1]; [|exact B1]. rewrite B1 in *. left. apply fmin_eq; [exact F0 | apply B3; now left].
Qed.
Example c64_case : numbers [d 2; nnan; d (-1); d 7] = [d 2; d (-1); d 7] /\
  B2SF (fst (minmax [d 2; nnan; d (-1); d 7])) = B2SF (d (-1)) /\ B2SF (snd (minmax [d 2; nnan; d (-1); d 7])) = B2SF (d 7).
Proof. repeat split; vm_compute; reflexivity. Qed.
(** Without a number in the array the answer is (MAX, MIN); an infinite array has a finite minimum. *)
Theorem c64_empty (l : list f64) : numbers l = [] -> minmax l = (fmax, fmin).
Proof.
  intros N. rewrite minmax_fold. assert (H : forall x, In x l -> is_nan x = true).
  { intros x Hx. destruct (is_nan x) eqn:E; [reflexivity|]. exfalso. assert (In x (numbers l)) by (apply filter_In; rewrite E; auto). now rewrite N in H. }
  clear N. induction l as [|x l IH]; [reflexivity|]. cbn [fold_left].
  assert (E : mm_step (fmax, fmin) x = (fmax, fmin)) by (assert (Nx := H x (or_introl eq_refl)); destruct x; try discriminate; reflexivity).
  rewrite E. apply IH. intros y Hy. apply H. now right.
Qed.
(** With infinities: each end is right exactly if the numbers are not all infinite at that end. *)
Theorem c72_minmax_exact (l : list f64) : numbers l <> [] ->
  (Forall (fun x => x = B754_infinity false) (numbers l) -> fst (minmax l) = fmax) /\
  (~ Forall (fun x => x = B754_infinity false) (numbers l) -> lowest (fst (minmax l)) (numbers l)) /\
  (Forall (fun x => x = B754_infinity true) (numbers l) -> snd (minmax l) = fmin) /\
  (~ Forall (fun x => x = B754_infinity true) (numbers l) -> highest (snd (minmax l)) (numbers l)).
Proof.
  intros Ne. rewrite minmax_fold.
  destruct (mm_fold l (fmax, fmin)) as [A1 [A2 [A3 [B1 [B2 B3]]]]]; [reflexivity..|]. cbn [fst snd] in *.
  set (r := fold_left mm_step l (fmax, fmin)) in *. clearbody r.
  assert (Some_other : forall v, ~ Forall (fun x => x = v) (numbers l) -> (v = B754_infinity false \/ v = B754_infinity true) -> exists x, In x (numbers l) /\ x <> v /\ is_nan x = false).
  { intros v Nf Hv. assert (D : forall x : f64, x = v \/ x <> v).
    { intros x. destruct Hv as [-> | ->], x as [[]|[]| |[]]; first [now left | right; discriminate]. }
    assert (Nn : forall x, In x (numbers l) -> is_nan x = false) by (intros x Hx; apply filter_In in Hx; destruct (is_nan x); [destruct Hx; discriminate | reflexivity]).
    revert Nf Nn. generalize (numbers l) as xs0. clear - D. induction xs0 as [|x xs IH]; intros Nf Nn; [exfalso; apply Nf; constructor|].
    destruct (D x) as [->|Dx]; [|exists x; split; [now left | split; [exact Dx | apply Nn; now left]]].
    destruct IH as [y [Hy Q]]; [intros H; apply Nf; now constructor | intros y Hy; apply Nn; now right | exists y; split; [now right | exact Q]]. }
  repeat split.
  - intros H. rewrite Forall_forall in H. destruct A1 as [A1|A1]; [exact A1|]. exfalso. rewrite (H _ A1) in A2. discriminate.
  - destruct A1 as [A1|A1]; [|exact A1]. rewrite A1 in *. destruct (Some_other _ H (or_introl eq_refl)) as [x [Hx [Dx Nx]]].
    assert (L := A3 x Hx). assert (Fx : is_finite x = true) by (destruct x as [[]|[]| |[]]; try discriminate; try reflexivity; congruence).
    replace fmax with x; [exact Hx|]. symmetry. apply Bpos_eq; [reflexivity | exact L | now apply finite_le_max].
  - exact A3.
  - intros H. rewrite Forall_forall in H. destruct B1 as [B1|B1]; [exact B1|]. exfalso. rewrite (H _ B1) in B2. discriminate.
  - destruct B1 as [B1|B1]; [|exact B1]. rewrite B1 in *. destruct (Some_other _ H (or_intror eq_refl)) as [x [Hx [Dx Nx]]].
    assert (L := B3 x Hx). assert (Fx : is_finite x = true) by (destruct x as [[]|[]| |[]]; try discriminate; try reflexivity; congruence).
    replace fmin with x; [exact Hx | now apply fmin_eq].
  - exact B3.
Qed.
Example c72_minmax_case : numbers [B754_infinity false; d 3] <> [] /\ ~ Forall (fun x => x = B754_infinity false) (numbers [B754_infinity false; d 3]) /\
  B2SF (fst (minmax [B754_infinity false; d 3])) = B2SF (d 3) /\ snd (minmax [B754_infinity false; d 3]) = B754_infinity false.
Proof.
  split; [discriminate|]. split; [|split; vm_compute; reflexivity].
  intros H. inversion H as [|? ? _ H2]; subst. inversion H2 as [|? ? E _]; subst. apply (f_equal is_finite) in E. vm_compute in E. discriminate.
Qed.
Theorem c72_minmax_infinite_refuted : minmax [B754_infinity false] = (fmax, B754_infinity false).
Proof. reflexivity. Qed.

(** meshgrid and flatten, for any kind of numbers. *)
Section Mesh.
  Context {F : Type} {NF : Num F}.
  Lemma in_ids2 sh ij : In ij (ids2 sh) <-> (fst ij < fst sh /\ snd ij < snd sh)%N.
  Proof.
    unfold ids2. rewrite in_flat_map. destruct ij as [i j]. cbn [fst snd]. split.
    - intros [k [Hk H]]. apply in_map_iff in H. destruct H as [m [E Hm]]. apply in_range in Hk, Hm. injection E as <- <-. lia.
    - intros [Hi Hj]. exists i. split; [apply in_range; lia|]. apply in_map_iff. exists j. split; [reflexivity | apply in_range; lia].
  Qed.
  Lemma mesh_loop (x y : list F) (l : list (N * N)) : forall st,
    (forall ij, In ij l -> (fst ij < vlen x /\ snd ij < vlen y)%N) -> sh2 (fst st) = (vlen x, vlen y) -> sh2 (snd st) = (vlen x, vlen y) ->
    exists st', mfold (fun st ij =>
      let '(i, j) := ij in
      let! a := vget x i in let! xx := set2 (fst st) ij a in
      let! b := vget y j in let! yy := set2 (snd st) ij b in
      Val (xx, yy)) l st = Val st' /\ sh2 (fst st') = (vlen x, vlen y) /\ sh2 (snd st') = (vlen x, vlen y) /\
      forall i j a b, at_ x i a -> at_ y j b ->
        (In (i, j) l \/ (at2 (fst st) (i, j) = a /\ at2 (snd st) (i, j) = b)) ->
        at2 (fst st') (i, j) = a /\ at2 (snd st') (i, j) = b.
  Proof.
    induction l as [|[i j] l IH]; intros st Hl S1 S2; cbn [mfold].
    - exists st. split; [reflexivity|]. split; [exact S1|]. split; [exact S2|]. intros i j a b _ _ [[]|H]; exact H.
    - destruct (Hl (i, j) (or_introl eq_refl)) as [Hi Hj]. cbn [fst snd] in Hi, Hj.
      destruct (lt_at x i Hi) as [a Ha], (lt_at y j Hj) as [b Hb]. rewrite (at_vget _ _ _ Ha), (at_vget _ _ _ Hb). cbn [bind].
      assert (Ib : inb2 (vlen x, vlen y) (i, j) = true) by (unfold inb2; cbn [fst snd]; lia).
      unfold set2 at 1. rewrite S1, Ib. cbn [bind]. unfold set2 at 1. rewrite S2, Ib. cbn [bind].
      match goal with |- context [mfold ?f l ?s] => destruct (IH s) as [st' [E [T1 [T2 H]]]] end.
      + intros ij Hij. apply Hl. now right.
      + cbn [fst snd sh2]. first [reflexivity | exact S1].
      + cbn [fst snd sh2]. first [reflexivity | exact S2].
      + exists st'. split; [exact E|]. split; [exact T1|]. split; [exact T2|].
        intros i' j' a' b' Ha' Hb' C. apply (H i' j' a' b' Ha' Hb'). cbn [fst snd at2].
        destruct ((i =? i') && (j =? j'))%N eqn:Eq.
        * right. assert (i = i' /\ j = j') by lia. destruct H0; subst. unfold at_ in *. split; congruence.
        * destruct C as [[C|C]|C]; [injection C as -> ->; lia | now left | now right].
  Qed.
  Theorem c64_meshgrid (x y : list F) : exists xx yy, meshgrid x y = Val (xx, yy) /\
    sh2 xx = (vlen x, vlen y) /\ sh2 yy = (vlen x, vlen y) /\
    forall i j a b, at_ x i a -> at_ y j b -> at2 xx (i, j) = a /\ at2 yy (i, j) = b.
  Proof.
    destruct (mesh_loop x y (ids2 (vlen x, vlen y)) (zeros2 (vlen x, vlen y), zeros2 (vlen x, vlen y))) as [[xx yy] [E [S1 [S2 H]]]].
    - intros ij Hij. apply in_ids2 in Hij. exact Hij.
    - reflexivity.
    - reflexivity.
    - exists xx, yy. split; [exact E|]. split; [exact S1|]. split; [exact S2|]. intros i j a b Ha Hb. apply (H i j a b Ha Hb). left.
      apply in_ids2. cbn [fst snd]. split; [eapply at_lt; exact Ha | eapply at_lt; exact Hb].
  Qed.
  Lemma mesh3_loop (x y z : list F) (l : list id3) : let sh := (vlen x, vlen y, vlen z) in forall xx yy zz,
    (forall c, In c l -> inb3 sh c = true) -> sh3 xx = sh -> sh3 yy = sh -> sh3 zz = sh ->
    exists xx' yy' zz', mfold (fun st ijk =>
      let '(i, j, k) := ijk in
      let '(xx, yy, zz) := st in
      let! a := vget x i in let! xx := set3 xx ijk a in
      let! b := vget y j in let! yy := set3 yy ijk b in
      let! c := vget z k in let! zz := set3 zz ijk c in
      Val (xx, yy, zz)) l (xx, yy, zz) = Val (xx', yy', zz') /\ sh3 xx' = sh /\ sh3 yy' = sh /\ sh3 zz' = sh /\
      forall i j k a b c, at_ x i a -> at_ y j b -> at_ z k c ->
        (In (i, j, k) l \/ (at3 xx (i, j, k) = a /\ at3 yy (i, j, k) = b /\ at3 zz (i, j, k) = c)) ->
        at3 xx' (i, j, k) = a /\ at3 yy' (i, j, k) = b /\ at3 zz' (i, j, k) = c.
  Proof.
    cbv zeta. induction l as [|[[i j] k] l IH]; intros xx yy zz Hl S1 S2 S3; cbn [mfold].
    - exists xx, yy, zz. split; [reflexivity|]. split; [exact S1|]. split; [exact S2|]. split; [exact S3|]. intros i j k a b c _ _ _ [[]|H]; exact H.
    - assert (Ib := Hl (i, j, k) (or_introl eq_refl)). pose proof Ib as Ib'. apply inb3_lt in Ib'. destruct Ib' as [Hi [Hj Hk]].
      destruct (lt_at x i Hi) as [a Ha], (lt_at y j Hj) as [b Hb], (lt_at z k Hk) as [c Hc].
      rewrite (at_vget _ _ _ Ha), (at_vget _ _ _ Hb), (at_vget _ _ _ Hc). cbn [bind].
      unfold set3 at 1. rewrite S1, Ib. cbn [bind]. unfold set3 at 1. rewrite S2, Ib. cbn [bind]. unfold set3 at 1. rewrite S3, Ib. cbn [bind].
      match goal with |- context [mfold ?f l (?u, ?v, ?w)] => destruct (IH u v w) as [x1 [y1 [z1 [E [T1 [T2 [T3 H]]]]]]] end.
      + intros ij Hij. apply Hl. now right.
      + cbn [fst snd sh2]. first [reflexivity | exact S1].
      + cbn [fst snd sh2]. first [reflexivity | exact S2].
      + cbn [sh3]. first [reflexivity | exact S3].
      + exists x1, y1, z1. split; [exact E|]. split; [exact T1|]. split; [exact T2|]. split; [exact T3|].
        intros i' j' k' a' b' c' Ha' Hb' Hc' C. apply (H i' j' k' a' b' c' Ha' Hb' Hc'). cbn [at3 id3_eqb].
        destruct ((i =? i') && (j =? j') && (k =? k'))%N eqn:Eq.
        * right. assert (i = i' /\ j = j' /\ k = k') by lia. destruct H0 as [? [? ?]]; subst. unfold at_ in *. repeat split; congruence.
        * destruct C as [[C|C]|C]; [injection C as -> -> ->; lia | now left | now right].
  Qed.
  Theorem c64_meshgrid3d (x y z : list F) : exists xx yy zz, meshgrid3d x y z = Val (xx, yy, zz) /\
    sh3 xx = (vlen x, vlen y, vlen z) /\ sh3 yy = (vlen x, vlen y, vlen z) /\ sh3 zz = (vlen x, vlen y, vlen z) /\
    forall i j k a b c, at_ x i a -> at_ y j b -> at_ z k c ->
      at3 xx (i, j, k) = a /\ at3 yy (i, j, k) = b /\ at3 zz (i, j, k) = c.
  Proof.
    unfold meshgrid3d. set (sh := (vlen x, vlen y, vlen z)).
    destruct (mesh3_loop x y z (ids3 sh) (NDArray.zeros3 sh) (NDArray.zeros3 sh) (NDArray.zeros3 sh)) as [xx [yy [zz [E [S1 [S2 [S3 H]]]]]]];
      [intros c Hc; now apply in_ids3 | reflexivity..|].
    exists xx, yy, zz. split; [exact E|]. split; [exact S1|]. split; [exact S2|]. split; [exact S3|].
    intros i j k a b c Ha Hb Hc. apply (H i j k a b c Ha Hb Hc). left. apply in_ids3, inb3_lt.
    split; [eapply at_lt; exact Ha|]. split; [eapply at_lt; exact Hb | eapply at_lt; exact Hc].
  Qed.

  Lemma at_concat {A B} (f : A -> list B) (l : list A) n : (forall a, In a l -> vlen (f a) = n) ->
    vlen (flat_map f l) = (vlen l * n)%N /\
    forall i j a b, at_ l i a -> at_ (f a) j b -> at_ (flat_map f l) (i * n + j) b.
  Proof.
    induction l as [|a0 l IH]; intros Hn; cbn [flat_map].
    - split; [reflexivity|]. intros i j a b H. unfold at_ in H. now destruct (N.to_nat i).
    - destruct IH as [L H]; [intros a Ha; apply Hn; now right|]. assert (N0 := Hn a0 (or_introl eq_refl)). split.
      + unfold vlen in *. rewrite app_length. cbn [length]. nia.
      + intros i j a b Ha Hb. unfold at_. destruct (N.eq_dec i 0) as [->|Nz].
        * unfold at_ in Ha. cbn in Ha. injection Ha as <-. rewrite nth_error_app1; [rewrite N.mul_0_l, N.add_0_l; exact Hb|].
          apply at_lt in Hb. unfold vlen in Hb. lia.
        * assert (Ha' : at_ l (i - 1) a) by (unfold at_ in *; replace (N.to_nat i) with (S (N.to_nat (i - 1))) in Ha by lia; exact Ha).
          specialize (H _ _ _ _ Ha' Hb). unfold at_ in H. unfold vlen in N0. rewrite nth_error_app2 by nia.
          replace (N.to_nat (i * n + j) - length (f a0))%nat with (N.to_nat ((i - 1) * n + j)) by nia. exact H.
  Qed.
  Lemma at_range n i : (i < n)%N -> at_ (range 0 n) i i.
  Proof. intros H. unfold at_. rewrite range_nth_error by lia. f_equal. lia. Qed.
  Lemma at_map' {A B} (f : A -> B) l i a : at_ l i a -> at_ (map f l) i (f a).
  Proof. intros H. unfold at_ in *. now rewrite nth_error_map, H. Qed.
  Lemma vlen_range' n : vlen (range 0 n) = n. Proof. unfold vlen. rewrite range_length. lia. Qed.
  (** Row-major: entry (i, j) is found at i * columns + j, and there is nothing else. *)
  Theorem c64_flatten_2d (a : arr2 F) : let '(r, c) := sh2 a in
    vlen (flatten_2d a) = (r * c)%N /\
    forall i j, (i < r)%N -> (j < c)%N -> at_ (flatten_2d a) (i * c + j) (at2 a (i, j)).
  Proof.
    unfold flatten_2d. destruct (sh2 a) as [r c]. unfold ids2. cbn [fst snd].
    destruct (at_concat (fun i => map (fun j => (i, j)) (range 0 c)) (range 0 r) c) as [L H].
    { intros i _. rewrite vlen_map. apply vlen_range'. }
    split; [rewrite vlen_map, L, vlen_range'; reflexivity|]. intros i j Hi Hj. apply at_map'.
    apply (H i j i (i, j)); [now apply at_range|]. apply (at_map' (fun j => (i, j))). now apply at_range.
  Qed.
  Theorem c64_flatten_3d (a : arr3 F) : let '(s0, s1, s2) := sh3 a in
    vlen (flatten_3d a) = (s0 * s1 * s2)%N /\
    forall i j k, (i < s0)%N -> (j < s1)%N -> (k < s2)%N ->
      at_ (flatten_3d a) ((i * s1 + j) * s2 + k) (at3 a (i, j, k)).
  Proof.
    unfold flatten_3d. destruct (sh3 a) as [[s0 s1] s2]. unfold ids3.
    set (pl := fun i => flat_map (fun j => map (fun k => (i, j, k)) (range 0 s2)) (range 0 s1)).
    assert (P : forall i, vlen (pl i) = (s1 * s2)%N /\ forall j k, (j < s1)%N -> (k < s2)%N -> at_ (pl i) (j * s2 + k) (i, j, k)).
    { intros i. destruct (at_concat (fun j => map (fun k => (i, j, k)) (range 0 s2)) (range 0 s1) s2) as [L H].
      { intros j _. rewrite vlen_map. apply vlen_range'. }
      split; [unfold pl; rewrite L, vlen_range'; reflexivity|]. intros j k Hj Hk. unfold pl.
      apply (H j k j (i, j, k)); [now apply at_range|]. apply (at_map' (fun k => (i, j, k))). now apply at_range. }
    destruct (at_concat pl (range 0 s0) (s1 * s2)%N) as [L H]; [intros i _; apply P|].
    split; [rewrite vlen_map; unfold id3, v3 in *; rewrite L, vlen_range'; lia|]. intros i j k Hi Hj Hk. apply at_map'.
    replace ((i * s1 + j) * s2 + k)%N with (i * (s1 * s2) + (j * s2 + k))%N by lia.
    apply (H i (j * s2 + k)%N i (i, j, k)); [now apply at_range | now apply P].
  Qed.
End Mesh.
Example c64_mesh_case : after (meshgrid [d 1; d 2] [d 5; d 6; d 7]) (fun m =>
  map B2SF (flatten_2d (fst m)) = map B2SF [d 1; d 1; d 1; d 2; d 2; d 2] /\
  map B2SF (flatten_2d (snd m)) = map B2SF [d 5; d 6; d 7; d 5; d 6; d 7]).
Proof. vm_compute. auto. Qed.
