(** * Cartesian grids in ideal arithmetic (proofs only). *)
From Coq Require Import Reals List NArith ZArith Lia Lra Psatz Bool ZifyBool ZifyN.
From Flocq Require Import Core.Core.
From Verif Require Import Base BaseFacts Num RFacts NDArray GridModel GridSpec GridFacts CartProofs.
Local Open Scope R_scope.


Lemma NR_0 : NR 0 = 0. Proof. reflexivity. Qed.
Lemma NR_add a b : NR (a + b) = NR a + NR b.
Proof. unfold NR. now rewrite N2Z.inj_add, plus_IZR. Qed.
Lemma NR_sub a b : (b <= a)%N -> NR (a - b) = NR a - NR b.
Proof. intros H. unfold NR. now rewrite N2Z.inj_sub, minus_IZR. Qed.
Lemma NR_le a b : (a <= b)%N <-> NR a <= NR b.
Proof. unfold NR. split; [intros; apply IZR_le; lia | intros H; apply le_IZR in H; lia]. Qed.
Lemma NR_lt a b : (a < b)%N <-> NR a < NR b.
Proof. unfold NR. split; [intros; apply IZR_lt; lia | intros H; apply lt_IZR in H; lia]. Qed.
Lemma NR_pos n : (1 <= n)%N -> 1 <= NR n.
Proof. intros H. apply (NR_le 1 n) in H. exact H. Qed.
Lemma NR_nonneg n : 0 <= NR n.
Proof. apply (NR_le 0 n). lia. Qed.
Lemma NR_small n : (n <= 2 ^ 53 + 1)%N -> NR n < IZR (2 ^ 63).
Proof. intros H. apply IZR_lt. lia. Qed.

Lemma cart_axis_id_R bld n lo hi p : (1 <= n)%N ->
  cart_axis_id bld n (lo, hi) p = Val (R_to_usize ((p - lo) / (hi - lo) * NR (n - 1))).
Proof. intros H. unfold cart_axis_id. rewrite usub_ge by lia. reflexivity. Qed.

Lemma frac_range lo hi p : lo < hi -> lo <= p <= hi -> 0 <= (p - lo) / (hi - lo) <= 1.
Proof.
  intros H1 H2. split.
  - apply Rmult_le_pos; [lra|]. apply Rlt_le, Rinv_0_lt_compat. lra.
  - apply Rmult_le_reg_r with (hi - lo); [lra|]. unfold Rdiv. rewrite Rmult_assoc, Rinv_l by lra. lra.
Qed.

Lemma usize_unique x k : (k < 2 ^ 63)%N -> 0 <= x < IZR (2 ^ 63) ->
  (R_to_usize x = k <-> NR k <= x < NR k + 1).
Proof.
  intros Hk Hx. split.
  - intros <-. apply R_to_usize_spec. exact Hx.
  - intros H. apply R_to_usize_floor; assumption.
Qed.

(** Cell [i] of an axis with [n >= 2] cells is [[lo + i*w, lo + (i+1)*w)] with [w = (hi-lo)/(n-1)]. *)
Lemma cart_axis_preimage bld n lo hi p i :
  (2 <= n <= 2 ^ 53 + 1)%N -> lo < hi -> lo <= p <= hi -> (i < n)%N ->
  (cart_axis_id bld n (lo, hi) p = Val i <->
   lo + NR i * ((hi - lo) / (NR n - 1)) <= p < lo + (NR i + 1) * ((hi - lo) / (NR n - 1))).
Proof.
  intros Hn Hl Hp Hi. rewrite cart_axis_id_R by lia.
  assert (Hm : 1 <= NR n - 1) by (assert (H := proj1 (NR_le 2 n) ltac:(lia)); unfold NR in *; cbn in H; lra).
  rewrite NR_sub by lia. change (NR 1) with 1.
  set (m := NR n - 1) in *. set (w := (hi - lo) / m).
  assert (Fr := frac_range lo hi p Hl Hp).
  assert (E : (p - lo) / (hi - lo) * m = (p - lo) / w).
  { unfold w. field. split; lra. }
  assert (Wp : 0 < w) by (apply Rmult_lt_0_compat; [lra | apply Rinv_0_lt_compat; lra]).
  assert (X : 0 <= (p - lo) / (hi - lo) * m < IZR (2 ^ 63)).
  { assert (m < IZR (2 ^ 63)) by (generalize (NR_small n ltac:(lia)); unfold m; lra).
    split; [apply Rmult_le_pos; lra | nra]. }
  transitivity (R_to_usize ((p - lo) / (hi - lo) * m) = i); [split; [now intros [= ->] | now intros ->]|].
  rewrite usize_unique by (try lia; assumption).
  rewrite E. split.
  - intros [A B].
    apply (Rmult_le_compat_r w) in A; [|lra]. apply (Rmult_lt_compat_r w) in B; [|lra].
    unfold Rdiv in A, B. rewrite Rmult_assoc, Rinv_l in A, B by lra. lra.
  - intros [A B]. split.
    + apply Rmult_le_reg_r with w; [lra|]. unfold Rdiv. rewrite Rmult_assoc, Rinv_l by lra. lra.
    + apply Rmult_lt_reg_r with w; [lra|]. unfold Rdiv. rewrite Rmult_assoc, Rinv_l by lra. lra.
Qed.

Lemma cart_axis_last bld n lo hi p :
  (2 <= n <= 2 ^ 53 + 1)%N -> lo < hi -> lo <= p <= hi ->
  (cart_axis_id bld n (lo, hi) p = Val (n - 1)%N <-> p = hi).
Proof.
  intros Hn Hl Hp. rewrite cart_axis_preimage by (try lia; assumption).
  assert (Hm : 1 <= NR n - 1) by (assert (H := proj1 (NR_le 2 n) ltac:(lia)); unfold NR in *; cbn in H; lra).
  rewrite NR_sub by lia. change (NR 1) with 1. set (m := NR n - 1) in *.
  assert (E : m * ((hi - lo) / m) = hi - lo) by (field; lra).
  rewrite E. rewrite Rmult_plus_distr_r, Rmult_1_l, E.
  assert (0 < (hi - lo) / m) by (apply Rmult_lt_0_compat; [lra | apply Rinv_0_lt_compat; lra]).
  split; intros; lra.
Qed.

(** The centres published by a new grid. *)
Lemma cart_centres_nth n lo hi k : (k < n)%N ->
  nth_error (cart_centres n lo hi) (N.to_nat k) =
  Some (NR k * ((hi - lo) / NR n) + (hi - lo) / NR n / 2 + lo).
Proof.
  intros H. unfold cart_centres. rewrite nth_error_map, range_nth_error by lia.
  cbn [option_map]. f_equal. unfold nofN. cbn [nof num_R nadd nmul ndiv nsub n2].
  rewrite N.add_0_l, N2Nat.id. reflexivity.
Qed.

Lemma cart_centres_length {F} {NF : Num F} n lo hi : length (cart_centres (F:=F) n lo hi) = N.to_nat n.
Proof. unfold cart_centres. rewrite map_length, range_length. f_equal. lia. Qed.

(** Where the centre of cell [k] is looked up. *)
Lemma cart_centre_lookup bld n lo hi k c :
  (1 <= n <= 2 ^ 53 + 1)%N -> lo < hi -> (k < n)%N ->
  nth_error (cart_centres n lo hi) (N.to_nat k) = Some c ->
  lo < c < hi /\
  cart_axis_id bld n (lo, hi) c = Val (if (2 * k + 1 <=? n)%N then k else (k - 1)%N).
Proof.
  intros Hn Hl Hk Hc. rewrite cart_centres_nth in Hc by assumption. injection Hc as <-.
  assert (Pn := NR_pos n ltac:(lia)). assert (Pk := NR_nonneg k).
  assert (Lk := proj1 (NR_le (k + 1) n) ltac:(lia)). rewrite NR_add in Lk. change (NR 1) with 1 in Lk.
  set (n' := NR n) in *. set (k' := NR k) in *.
  assert (Ec : k' * ((hi - lo) / n') + (hi - lo) / n' / 2 + lo = lo + (hi - lo) * ((k' + /2) / n')) by (field; lra).
  rewrite Ec.
  assert (Q : 0 < (k' + / 2) / n' < 1).
  { split; [apply Rmult_lt_0_compat; [lra | apply Rinv_0_lt_compat; lra]|].
    apply Rmult_lt_reg_r with n'; [lra|]. unfold Rdiv. rewrite Rmult_assoc, Rinv_l by lra. lra. }
  split; [nra|].
  rewrite cart_axis_id_R by lia. f_equal. rewrite NR_sub by lia. change (NR 1) with 1. fold n'.
  replace ((lo + (hi - lo) * ((k' + / 2) / n') - lo) / (hi - lo) * (n' - 1))
    with (k' + / 2 - (k' + / 2) / n') by (field; lra).
  destruct (N.leb_spec (2 * k + 1) n) as [H|H].
  - apply R_to_usize_floor; [|lia]. fold (NR k). fold k'.
    assert (G := proj1 (NR_le _ _) H). rewrite NR_add in G. change (NR 1) with 1 in G.
    replace (NR (2 * k)) with (2 * k') in G by (unfold k', NR; rewrite N2Z.inj_mul, mult_IZR; reflexivity).
    fold n' in G.
    assert ((k' + / 2) / n' <= / 2).
    { apply Rmult_le_reg_r with n'; [lra|]. unfold Rdiv. rewrite Rmult_assoc, Rinv_l by lra. lra. }
    lra.
  - apply R_to_usize_floor; [|lia]. fold (NR (k - 1)). rewrite NR_sub by lia. change (NR 1) with 1. fold k'.
    assert (G := proj1 (NR_lt _ _) H). rewrite NR_add in G. change (NR 1) with 1 in G.
    replace (NR (2 * k)) with (2 * k') in G by (unfold k', NR; rewrite N2Z.inj_mul, mult_IZR; reflexivity).
    fold n' in G.
    assert (/ 2 < (k' + / 2) / n').
    { apply Rmult_lt_reg_r with n'; [lra|]. unfold Rdiv. rewrite Rmult_assoc, Rinv_l by lra. lra. }
    lra.
Qed.

(** [slice] picks the cell of the published partition. *)
Lemma slice_cell_R n lo hi p k :
  (1 <= n <= 2 ^ 53 + 1)%N -> lo < hi -> lo <= p <= hi -> (k <= n)%N ->
  (slice_cell n (lo, hi) p = k <->
   lo + NR k * ((hi - lo) / NR n) <= p < lo + (NR k + 1) * ((hi - lo) / NR n)).
Proof.
  intros Hn Hl Hp Hk. unfold slice_cell. cbn [fst snd nusize num_R nmul ndiv nsub].
  change (nofN n) with (NR n).
  assert (Pn := NR_pos n ltac:(lia)). set (m := NR n) in *. set (w := (hi - lo) / m).
  assert (Fr := frac_range lo hi p Hl Hp).
  assert (E : (p - lo) / (hi - lo) * m = (p - lo) / w) by (unfold w; field; split; lra).
  assert (Wp : 0 < w) by (apply Rmult_lt_0_compat; [lra | apply Rinv_0_lt_compat; lra]).
  assert (X : 0 <= (p - lo) / (hi - lo) * m < IZR (2 ^ 63)).
  { assert (m < IZR (2 ^ 63)) by (apply NR_small; lia).
    split; [apply Rmult_le_pos; lra | nra]. }
  rewrite usize_unique by (try lia; assumption). rewrite E. split.
  - intros [A B].
    apply (Rmult_le_compat_r w) in A; [|lra]. apply (Rmult_lt_compat_r w) in B; [|lra].
    unfold Rdiv in A, B. rewrite Rmult_assoc, Rinv_l in A, B by lra. lra.
  - intros [A B]. split.
    + apply Rmult_le_reg_r with w; [lra|]. unfold Rdiv. rewrite Rmult_assoc, Rinv_l by lra. lra.
    + apply Rmult_lt_reg_r with w; [lra|]. unfold Rdiv. rewrite Rmult_assoc, Rinv_l by lra. lra.
Qed.

Lemma slice_cell_range n lo hi p : (1 <= n <= 2 ^ 53 + 1)%N -> lo < hi -> lo <= p <= hi ->
  (slice_cell n (lo, hi) p <= n)%N /\ (slice_cell n (lo, hi) p = n <-> p = hi).
Proof.
  intros Hn Hl Hp.
  assert (Pn := NR_pos n ltac:(lia)).
  assert (Fr := frac_range lo hi p Hl Hp).
  assert (X : 0 <= (p - lo) / (hi - lo) * NR n < IZR (2 ^ 63)).
  { assert (NR n < IZR (2 ^ 63)) by (apply NR_small; lia).
    split; [apply Rmult_le_pos; lra | nra]. }
  split.
  - unfold slice_cell. cbn [fst snd nusize num_R nmul ndiv nsub]. change (nofN n) with (NR n).
    apply R_to_usize_spec in X. apply NR_le. unfold NR at 1. nra.
  - rewrite slice_cell_R by (try lia; assumption).
    assert (E : NR n * ((hi - lo) / NR n) = hi - lo) by (field; lra).
    rewrite Rmult_plus_distr_r, Rmult_1_l, E.
    assert (0 < (hi - lo) / NR n) by (apply Rmult_lt_0_compat; [lra | apply Rinv_0_lt_compat; lra]).
    split; intros; lra.
Qed.


Section RGrid.
  Context {TF : Trig R}.

  Lemma only_cell_total (g g' : grid R) c d w : wf_grid g -> inb3 (geom_cells (geo g)) c = true ->
    only_cell g g' c d w ->
    total (data g') = total (data g) - at3 (data g) c + d /\
    total (weight g') = total (weight g) - at3 (weight g) c + w.
  Proof.
    intros [W1 W2] Hin [G [S1 [S2 [D [Wt Fr]]]]].
    assert (I1 : In c (ids3 (sh3 (data g)))) by (apply in_ids3; congruence).
    assert (I2 : In c (ids3 (sh3 (weight g)))) by (apply in_ids3; congruence).
    unfold total. rewrite S1, S2. split.
    - rewrite <- (Rsum_update id3_eqb id3_eqb_eq (at3 (data g)) c d _ (ids3_NoDup _) I1).
      apply Rsum_ext. intros i _. destruct (id3_eqb c i) eqn:E.
      + apply id3_eqb_eq in E. now subst.
      + apply id3_eqb_neq in E. now apply Fr, not_eq_sym.
    - rewrite <- (Rsum_update id3_eqb id3_eqb_eq (at3 (weight g)) c w _ (ids3_NoDup _) I2).
      apply Rsum_ext. intros i _. destruct (id3_eqb c i) eqn:E.
      + apply id3_eqb_eq in E. now subst.
      + apply id3_eqb_neq in E. now apply Fr, not_eq_sym.
  Qed.

  (** Cell bounds in ideal arithmetic. *)
  Lemma cart_axis_bound_R bld n lo hi p : (1 <= n <= 2 ^ 53 + 1)%N -> lo < hi -> lo <= p <= hi ->
    exists i, cart_axis_id bld n (lo, hi) p = Val i /\ (i < n)%N.
  Proof.
    intros Hn Hl Hp. rewrite cart_axis_id_R by lia. eexists. split; [reflexivity|].
    assert (Fr := frac_range lo hi p Hl Hp).
    assert (Pm := NR_nonneg (n - 1)). assert (Sm := NR_small (n - 1) ltac:(lia)).
    assert (X : 0 <= (p - lo) / (hi - lo) * NR (n - 1) < IZR (2 ^ 63)).
    { split; [apply Rmult_le_pos; lra | nra]. }
    apply R_to_usize_spec in X.
    set (k := R_to_usize ((p - lo) / (hi - lo) * NR (n - 1))) in *.
    assert (k <= n - 1)%N; [|lia]. apply NR_le. unfold NR at 1. nra.
  Qed.


  Lemma cart_inside_R (c : cart_geom R) p : cart_inside c p = true <-> in_box (cc_lim c) p.
  Proof.
    unfold cart_inside, in_box, within, in_interval.
    destruct p as [[p0 p1] p2], (cc_lim c) as [[l0 l1] l2]. cbn [nisnan num_R orb].
    rewrite !andb_true_iff. tauto.
  Qed.

  Lemma within_R l x : within l x <-> fst l <= x <= snd l.
  Proof. unfold within. now rewrite !Rleb_true. Qed.

  Lemma cart_cell_id_in_R (bld : build) (c : cart_geom R) p :
    sized (cc_cells c) -> proper (cc_lim c) -> in_box (cc_lim c) p ->
    exists i, cart_cell_id bld c p = Val (Some i) /\ inb3 (cc_cells c) i = true.
  Proof.
    intros Hs Hpr Hin. unfold cart_cell_id. rewrite (proj2 (cart_inside_R c p) Hin).
    destruct p as [[p0 p1] p2], (cc_cells c) as [[a b] d], (cc_lim c) as [[[x0 x1] [y0 y1]] [z0 z1]].
    unfold sized, proper, in_box in *. rewrite !within_R in Hin. cbn [fst snd] in *.
    destruct Hs as [S0 [S1 S2]], Hin as [I0 [I1 I2]], Hpr as [P0 [P1 P2]].
    destruct (cart_axis_bound_R bld a x0 x1 p0 S0 P0 I0) as [i [-> Li]].
    destruct (cart_axis_bound_R bld b y0 y1 p1 S1 P1 I1) as [j [-> Lj]].
    destruct (cart_axis_bound_R bld d z0 z1 p2 S2 P2 I2) as [k [-> Lk]].
    cbn [bind]. exists (i, j, k). split; [reflexivity|]. now apply inb3_lt.
  Qed.

  Lemma cart_lookups_ok_R bld (c : cart_geom R) : sized (cc_cells c) -> proper (cc_lim c) ->
    lookups_ok bld (Cart c).
  Proof.
    intros Hs Hp p. cbn [geom_cell_id geom_cells].
    destruct (cart_inside c p) eqn:E.
    - right. apply cart_inside_R in E. apply cart_cell_id_in_R; assumption.
    - left. unfold cart_cell_id. now rewrite E.
  Qed.

  Lemma traj_total bld (g : grid R) c p q v :
    geo g = Cart c -> wf_grid g -> sized (cc_cells c) -> proper (cc_lim c) ->
    in_box (cc_lim c) p -> in_box (cc_lim c) q ->
    exists g', add_trajectory_value bld g p q v = Val g' /\
      total (data g') = total (data g) + v /\ total (weight g') = total (weight g) + 1.
  Proof.
    intros G W Hs Hpr Hp Hq.
    destruct (cart_cell_id_in_R bld c p Hs Hpr Hp) as [a [Ea Ia]].
    destruct (cart_cell_id_in_R bld c q Hs Hpr Hq) as [b [Eb Ib]].
    assert (Ia' : inb3 (geom_cells (geo g)) a = true) by (rewrite G; exact Ia).
    assert (Ib' : inb3 (geom_cells (geo g)) b = true) by (rewrite G; exact Ib).
    unfold add_trajectory_value, cell_ids_in_trajectory. rewrite G, Ea. cbn [bind].
    rewrite Eb. cbn [bind combine mfold fst snd].
    destruct (bump_val g a (nmul v (nlit 1 2)) (nlit 1 2)) as [g1 [E1 O1]];
      [destruct W; congruence | destruct W; congruence|].
    rewrite E1. cbn [bind].
    assert (W1 : wf_grid g1) by (eapply only_cell_wf; eauto).
    assert (G1 : geo g1 = geo g) by apply O1.
    rewrite <- G1 in Ib'.
    destruct (bump_val g1 b (nmul v (nlit 1 2)) (nlit 1 2)) as [g2 [E2 O2]];
      [destruct W1; congruence | destruct W1; congruence|].
    rewrite E2. cbn [bind]. exists g2. split; [reflexivity|].
    destruct (only_cell_total _ _ _ _ _ W Ia' O1) as [T1 T2].
    destruct (only_cell_total _ _ _ _ _ W1 Ib' O2) as [T3 T4].
    rewrite T3, T4, T1, T2. cbn [nadd nmul ndiv nlit nof num_R]. split; unfold nlit; cbn; lra.
  Qed.
End RGrid.
