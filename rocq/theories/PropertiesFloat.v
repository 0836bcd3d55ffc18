(** * PropertiesFloat: how far the grid in doubles is from the grid in exact arithmetic

    C130: the cell of a position.  C131: the centres.  C132: slicing at a position. *)
From Coq Require Import Reals List NArith ZArith Lia Lra Psatz Bool ZifyBool ZifyN.
From Flocq Require Import Core.Core IEEE754.BinarySingleNaN.
From Verif Require Import Base BaseFacts Num RFacts NDArray GridModel GridSpec GridFacts CartProofs F64Facts CartR GridOps GridR PropertiesGrid FloatErr.
Local Open Scope R_scope.

(** An axis with finite limits, the lower below the upper, whose length does not overflow. *)
Definition axis64 (lo hi : f64) : Prop :=
  is_finite lo = true /\ is_finite hi = true /\ B2R lo < B2R hi /\ is_finite (nsub hi lo) = true.
(** Its exact length, and the allowance: the length over 2^50. *)
Definition len (lo hi : f64) : R := B2R hi - B2R lo.
Definition tol (lo hi : f64) : R := len lo hi / IZR (2 ^ 50).

Lemma tol_pos lo hi : axis64 lo hi -> 0 < tol lo hi.
Proof. intros [_ [_ [H _]]]. unfold tol, len. apply Rdiv_lt_0_compat; [lra | apply IZR_lt; reflexivity]. Qed.
Lemma inside_finite lo hi p : axis64 lo hi -> within (lo, hi) p -> is_finite p = true /\ B2R lo <= B2R p <= B2R hi.
Proof.
  intros [Fl [Fh [L _]]] [A B]. cbn [fst snd nleb num_f64] in A, B.
  assert (Fp : is_finite p = true).
  { destruct p as [s|[|]| |s m e H]; try reflexivity; destruct lo as [s1|[|]| |s1 m1 e1 H1], hi as [s2|[|]| |s2 m2 e2 H2]; cbn in *; try discriminate;
      repeat match goal with s : bool |- _ => destruct s end; cbn in *; discriminate. }
  split; [exact Fp|]. apply Bleb_R in A, B; auto.
Qed.

(** The index computed along an axis from the fraction times [m]. *)
Lemma index_floor lo hi p (m : N) : axis64 lo hi -> within (lo, hi) p -> (m <= 2 ^ 53)%N ->
  let i := f64_to_usize (frac lo hi p (Z.of_N m)) in
  exists q, NR i <= q < NR i + 1 /\ (i <= m)%N /\
    Rabs (q - (B2R p - B2R lo) / len lo hi * NR m) <= 5 * eps * ((B2R p - B2R lo) / len lo hi * NR m) + bpow radix2 (-1020).
Proof.
  intros Ax Ip Hm i. destruct (inside_finite lo hi p Ax Ip) as [Fp Rp]. destruct Ax as [Fl [Fh [L Fd]]].
  destruct (frac_err lo hi p (Z.of_N m) Fl Fh Fp Fd L Rp ltac:(lia)) as [Fq [Hq E]].
  exists (B2R (frac lo hi p (Z.of_N m))). fold (NR m) in E, Hq. unfold len.
  assert (Ei : i = Z.to_N (Zfloor (B2R (frac lo hi p (Z.of_N m))))).
  { unfold i. rewrite to_usize_finite by exact Fq. rewrite Ztrunc_floor by lra. rewrite Z.min_r; [reflexivity|].
    assert ((Zfloor (B2R (frac lo hi p (Z.of_N m))) <= Z.of_N m)%Z).
    { apply le_IZR. apply Rle_trans with (1 := Zfloor_lb _). exact (proj2 Hq). }
    unfold usize_max. lia. }
  assert (Z0 : (0 <= Zfloor (B2R (frac lo hi p (Z.of_N m))))%Z) by (apply Zfloor_lub; exact (proj1 Hq)).
  assert (NRi : NR i = IZR (Zfloor (B2R (frac lo hi p (Z.of_N m))))) by (rewrite Ei; unfold NR; now rewrite Z2N.id).
  split; [|split].
  - rewrite NRi. split; [apply Zfloor_lb | apply Zfloor_ub].
  - apply NR_le. rewrite NRi. apply Rle_trans with (1 := Zfloor_lb _). exact (proj2 Hq).
  - exact E.
Qed.
(** Rounding moves the index by less than the allowance. *)
Lemma err_small Q m : 0 <= Q <= m -> 1 <= m -> 5 * eps * Q + bpow radix2 (-1020) <= m / IZR (2 ^ 50).
Proof.
  intros HQ Hm. assert (B : bpow radix2 (-1020) <= eps).
  { apply bpow_le. lia. }
  rewrite eps_val in *. replace (m / IZR (2 ^ 50)) with (8 * (/ 9007199254740992 * m)).
  - nra.
  - cbn [Z.pow Z.pow_pos Pos.iter Z.mul Pos.mul]. lra.
Qed.
Definition width (lo hi : f64) (m : N) : R := len lo hi / NR m.
Lemma index_near lo hi p (m : N) : axis64 lo hi -> within (lo, hi) p -> (1 <= m <= 2 ^ 53)%N ->
  let i := f64_to_usize (frac lo hi p (Z.of_N m)) in
  (i <= m)%N /\
  B2R lo + NR i * width lo hi m - tol lo hi <= B2R p < B2R lo + (NR i + 1) * width lo hi m + tol lo hi.
Proof.
  intros Ax Ip Hm. cbv zeta. destruct (index_floor lo hi p m Ax Ip ltac:(lia)) as [q [Hq [Hi E]]]. split; [exact Hi|].
  set (i := f64_to_usize _) in *. destruct (inside_finite lo hi p Ax Ip) as [_ Rp]. destruct Ax as [_ [_ [L _]]].
  assert (Hb : 0 < len lo hi) by (unfold len; lra).
  assert (Pm := NR_pos m ltac:(lia)).
  set (Q := (B2R p - B2R lo) / len lo hi * NR m) in *.
  assert (Fr : 0 <= (B2R p - B2R lo) / len lo hi <= 1) by (apply frac_range; [exact L | exact Rp]).
  assert (HQ : 0 <= Q <= NR m) by (unfold Q; nra).
  assert (Er := err_small Q (NR m) HQ Pm).
  assert (A : Rabs (q - Q) <= NR m / IZR (2 ^ 50)) by lra. apply Rabs_le_inv in A.
  assert (Ew : NR m * width lo hi m = len lo hi) by (unfold width; field; lra).
  assert (Et : NR m / IZR (2 ^ 50) * width lo hi m = tol lo hi) by (unfold tol, width; field; split; [apply IZR_neq; discriminate | lra]).
  assert (Ep : Q * width lo hi m = B2R p - B2R lo) by (unfold Q, width; field; lra).
  assert (Hw : 0 < width lo hi m) by (apply Rdiv_lt_0_compat; lra).
  nra.
Qed.

Section Any.
  Context {TF : Trig f64} {TR : Trig R}.

  (** ** C130 *)

  (** The cell of a double along one axis is the interval of C07 enlarged by the allowance at both ends. *)
  Definition about (n : N) (lo hi p : f64) (i : N) : Prop :=
    (n = 1%N /\ i = 0%N) \/
    ((2 <= n)%N /\ (i < n)%N /\
     B2R lo + NR i * (len lo hi / (NR n - 1)) - tol lo hi <= B2R p < B2R lo + (NR i + 1) * (len lo hi / (NR n - 1)) + tol lo hi).
  Lemma axis_val bld n (lo hi p : f64) : (1 <= n <= 2 ^ 53 + 1)%N ->
    cart_axis_id bld n (lo, hi) p = Val (f64_to_usize (frac lo hi p (Z.of_N (n - 1)))).
  Proof. intros H. unfold cart_axis_id. rewrite usub_ge by lia. reflexivity. Qed.
  Lemma axis_about bld n lo hi p i : axis64 lo hi -> within (lo, hi) p -> (1 <= n <= 2 ^ 53 + 1)%N ->
    cart_axis_id bld n (lo, hi) p = Val i -> about n lo hi p i.
  Proof.
    intros Ax Ip Hn E. rewrite axis_val in E by exact Hn. injection E as <-.
    destruct (N.eq_dec n 1) as [->|N1].
    - left. split; [reflexivity|]. destruct (index_floor lo hi p 0 Ax Ip ltac:(lia)) as [q [_ [H _]]]. change (1 - 1)%N with 0%N. lia.
    - right. destruct (index_near lo hi p (n - 1) Ax Ip ltac:(lia)) as [H1 H2]. split; [lia|]. split; [lia|].
      unfold width in H2. rewrite NR_sub in H2 by lia. exact H2.
  Qed.
  Theorem c130_cell (bld : build) (nx ny nz : N) x0 x1 y0 y1 z0 z1 (g : grid f64) (x y z : f64) :
    sized (nx, ny, nz) -> axis64 x0 x1 -> axis64 y0 y1 -> axis64 z0 z1 ->
    cart_new (nx, ny, nz) (ThreeD ((x0, x1), (y0, y1), (z0, z1))) = Val g -> is_inside g (x, y, z) = true ->
    exists i j k, cell_id bld g (x, y, z) = Val (Some (i, j, k)) /\
      about nx x0 x1 x i /\ about ny y0 y1 y j /\ about nz z0 z1 z k.
  Proof.
    intros [Sx [Sy Sz]] Ax Ay Az E Hin. cbn in E. injection E as <-. unfold is_inside, geom_inside in Hin. cbn [geo] in Hin.
    assert (B := Hin). apply cart_inside_f64 in Hin. cbn [cc_lim in_box] in Hin. destruct Hin as [Ix [Iy Iz]].
    unfold cell_id, geom_cell_id, cart_cell_id. cbn [geo]. rewrite B. cbn [cc_cells cc_lim].
    rewrite !axis_val by lia. cbn [bind]. do 3 eexists. split; [reflexivity|].
    split; [|split]; apply (axis_about bld); auto; apply axis_val; lia.
  Qed.
  (** The same axis in exact arithmetic: the two cells differ only for a position within the allowance of the
      border between them, and (up to 2^49 cells) are then neighbours. *)
  Definition agree (n : N) (lo hi p : f64) (i j : N) : Prop :=
    i = j \/
    (Rabs (B2R p - (B2R lo + NR (N.max i j) * (len lo hi / (NR n - 1)))) <= tol lo hi /\
     ((n <= 2 ^ 49)%N -> (i = j + 1 \/ j = i + 1)%N)).
  Lemma axis_agree bld n lo hi p i j : axis64 lo hi -> within (lo, hi) p -> (1 <= n <= 2 ^ 53 + 1)%N ->
    cart_axis_id bld n (lo, hi) p = Val i -> cart_axis_id bld n (B2R lo, B2R hi) (B2R p) = Val j -> agree n lo hi p i j.
  Proof.
    intros Ax Ip Hn Ei Ej. destruct (inside_finite lo hi p Ax Ip) as [Fp Rp].
    destruct (N.eq_dec n 1) as [->|N1].
    - left. assert (i < 1)%N. { rewrite axis_val in Ei by lia. injection Ei as Ei. change (1 - 1)%N with 0%N in Ei. destruct (index_floor lo hi p 0 Ax Ip ltac:(lia)) as [q [_ [H _]]]. change (Z.of_N 0) with 0%Z in H. rewrite Ei in H. lia. }
      destruct (cart_axis_bound_R bld 1 (B2R lo) (B2R hi) (B2R p) ltac:(lia) (proj1 (proj2 (proj2 Ax))) Rp) as [j' [E' H']]. rewrite E' in Ej. injection Ej as ->. lia.
    - assert (Ab := axis_about bld n lo hi p i Ax Ip Hn Ei). destruct Ab as [[? _]|[_ [Hi Ab]]]; [lia|].
      destruct (cart_axis_bound_R bld n (B2R lo) (B2R hi) (B2R p) ltac:(lia) (proj1 (proj2 (proj2 Ax))) Rp) as [j' [E' Hj]]. rewrite E' in Ej. injection Ej as ->.
      assert (Mj := proj1 (cart_axis_preimage bld n (B2R lo) (B2R hi) (B2R p) j ltac:(lia) (proj1 (proj2 (proj2 Ax))) Rp Hj) E').
      fold (len lo hi) in Mj.
      rewrite axis_val in Ei by exact Hn. injection Ei as Ei.
      destruct (index_floor lo hi p (n - 1) Ax Ip ltac:(lia)) as [q [Hq [_ Er]]]. rewrite Ei in Hq.
      assert (Tp := tol_pos lo hi Ax).
      assert (Pm : 1 <= NR n - 1) by (assert (H := proj1 (NR_le 2 n) ltac:(lia)); unfold NR in *; cbn in H; lra).
      assert (Hb : 0 < len lo hi) by (unfold len; destruct Ax as [_ [_ [L _]]]; lra).
      assert (Hw : 0 < len lo hi / (NR n - 1)) by (apply Rdiv_lt_0_compat; lra).
      destruct (N.eq_dec i j) as [->|Nij]; [now left | right]. split.
      + destruct (N.lt_ge_cases i j) as [Lt|Ge].
        * rewrite N.max_r by lia. assert (K := proj1 (NR_le (i + 1) j) ltac:(lia)). rewrite NR_add in K. change (NR 1) with 1 in K.
          apply Rabs_le. nra.
        * rewrite N.max_l by lia. assert (K := proj1 (NR_le (j + 1) i) ltac:(lia)). rewrite NR_add in K. change (NR 1) with 1 in K.
          apply Rabs_le. nra.
      + intros Hs. set (Q := (B2R p - B2R lo) / len lo hi * NR (n - 1)) in *.
        assert (EQ : Q = (B2R p - B2R lo) / (len lo hi / (NR n - 1))) by (unfold Q; rewrite NR_sub by lia; change (NR 1) with 1; field; lra).
        assert (HQj : NR j <= Q < NR j + 1).
        { rewrite EQ. split.
          - apply Rmult_le_reg_r with (1 := Hw). unfold Rdiv at 2. rewrite Rmult_assoc, Rinv_l by lra. lra.
          - apply Rmult_lt_reg_r with (1 := Hw). unfold Rdiv at 1. rewrite Rmult_assoc, Rinv_l by lra. lra. }
        assert (Fr : 0 <= (B2R p - B2R lo) / len lo hi <= 1) by (apply frac_range; [apply Ax | exact Rp]).
        assert (HQ : 0 <= Q <= NR (n - 1)) by (unfold Q; rewrite NR_sub by lia; change (NR 1) with 1; nra).
        assert (Es := err_small Q (NR (n - 1)) HQ ltac:(rewrite NR_sub by lia; exact Pm)).
        assert (Nn : NR (n - 1) <= IZR (2 ^ 49)) by (unfold NR; apply IZR_le; lia).
        assert (Half : NR (n - 1) / IZR (2 ^ 50) <= / 2).
        { apply Rmult_le_reg_r with (IZR (2 ^ 50)); [apply IZR_lt; reflexivity|]. unfold Rdiv. rewrite Rmult_assoc, Rinv_l by (apply IZR_neq; discriminate).
          cbn [Z.pow Z.pow_pos Pos.iter Z.mul Pos.mul] in *. lra. }
        apply Rabs_le_inv in Er.
        assert (A1 : NR i < NR j + 2) by lra. assert (A2 : NR j < NR i + 2) by lra.
        change 2 with (NR 2) in A1, A2. rewrite <- NR_add in A1, A2. apply NR_lt in A1, A2. lia.
  Qed.
  Theorem c130_exact (bld : build) (nx ny nz : N) x0 x1 y0 y1 z0 z1 (g : grid f64) (g' : grid R) (x y z : f64) i j k i' j' k' :
    sized (nx, ny, nz) -> axis64 x0 x1 -> axis64 y0 y1 -> axis64 z0 z1 ->
    cart_new (nx, ny, nz) (ThreeD ((x0, x1), (y0, y1), (z0, z1))) = Val g ->
    cart_new (nx, ny, nz) (ThreeD ((B2R x0, B2R x1), (B2R y0, B2R y1), (B2R z0, B2R z1))) = Val g' ->
    cell_id bld g (x, y, z) = Val (Some (i, j, k)) -> cell_id bld g' (B2R x, B2R y, B2R z) = Val (Some (i', j', k')) ->
    agree nx x0 x1 x i i' /\ agree ny y0 y1 y j j' /\ agree nz z0 z1 z k k'.
  Proof.
    intros [Sx [Sy Sz]] Ax Ay Az E E' C C'. cbn in E, E'. injection E as <-. injection E' as <-.
    unfold cell_id, geom_cell_id, cart_cell_id in C, C'. cbn [geo] in C, C'.
    destruct (cart_inside _ (x, y, z)) eqn:B in C; [|discriminate]. apply cart_inside_f64 in B. cbn [cc_lim in_box] in B. destruct B as [Ix [Iy Iz]].
    destruct (cart_inside _ _) in C'; [|discriminate]. cbn [cc_cells cc_lim] in C, C'.
    rewrite !axis_val in C by lia. cbn [bind] in C. injection C as Ci Cj Ck.
    apply bind_val in C' as [a [Ea C']]. apply bind_val in C' as [b [Eb C']]. apply bind_val in C' as [c [Ec C']]. injection C' as <- <- <-.
    split; [|split]; eapply (axis_agree bld); eauto; rewrite axis_val by lia; congruence.
  Qed.
  (** Inside or outside is decided without error. *)
  Theorem c130_inside (nx ny nz : N) x0 x1 y0 y1 z0 z1 (g : grid f64) (g' : grid R) (x y z : f64) :
    axis64 x0 x1 -> axis64 y0 y1 -> axis64 z0 z1 -> is_finite x = true -> is_finite y = true -> is_finite z = true ->
    cart_new (nx, ny, nz) (ThreeD ((x0, x1), (y0, y1), (z0, z1))) = Val g ->
    cart_new (nx, ny, nz) (ThreeD ((B2R x0, B2R x1), (B2R y0, B2R y1), (B2R z0, B2R z1))) = Val g' ->
    is_inside g (x, y, z) = is_inside g' (B2R x, B2R y, B2R z).
  Proof.
    intros [Fx0 [Fx1 _]] [Fy0 [Fy1 _]] [Fz0 [Fz1 _]] Fx Fy Fz E E'. cbn in E, E'. injection E as <-. injection E' as <-.
    unfold is_inside, geom_inside. cbn [geo]. apply eq_true_iff_eq. rewrite cart_inside_f64, cart_inside_R. cbn [cc_lim in_box].
    rewrite !within_R. unfold within. cbn [fst snd nleb num_f64]. rewrite !Bleb_R by assumption. tauto.
  Qed.

  (** ** C131 *)

  (** The sum of the absolute limits. *)
  Definition reach (lo hi : f64) : R := Rabs (B2R lo) + Rabs (B2R hi).
  Lemma len_reach lo hi : len lo hi <= reach lo hi.
  Proof.
    unfold len, reach. assert (A1 := Rle_abs (B2R hi)). assert (A2 := Rle_abs (- B2R lo)). rewrite Rabs_Ropp in A2. lra.
  Qed.
  (** The centre of cell [k] of [n] equal cells. *)
  Definition middle (lo hi : f64) (n k : N) : R := B2R lo + (NR k + / 2) * (len lo hi / NR n).
  Lemma centres_nth64 n (lo hi : f64) k x : nth_error (cart_centres n lo hi) (N.to_nat k) = Some x ->
    (k < n)%N /\ x = centre lo hi (Z.of_N n) (Z.of_N k).
  Proof.
    intros H. assert (Hk : (k < n)%N).
    { assert (X : (N.to_nat k < List.length (cart_centres n lo hi))%nat) by (apply nth_error_Some; congruence). rewrite cart_centres_length in X. lia. }
    split; [exact Hk|]. unfold cart_centres in H. rewrite nth_error_map, range_nth_error in H by lia.
    rewrite N.add_0_l, N2Nat.id in H. cbn [option_map] in H. injection H as <-. reflexivity.
  Qed.
  Lemma centre_close n lo hi k x : axis64 lo hi -> bpow radix2 (-900) <= len lo hi -> (1 <= n <= 2 ^ 49)%N ->
    nth_error (cart_centres n lo hi) (N.to_nat k) = Some x ->
    is_finite x = true /\ B2R lo <= B2R x <= B2R hi /\ Rabs (B2R x - middle lo hi n k) <= 6 * eps * reach lo hi.
  Proof.
    intros Ax Hl Hn Hx. destruct (centres_nth64 n lo hi k x Hx) as [Hk ->]. assert (R := len_reach lo hi). destruct Ax as [Fl [Fh [L Fd]]].
    destruct (centre_err lo hi (Z.of_N n) (Z.of_N k) Fl Fh Fd Hl ltac:(lia) ltac:(lia)) as [H1 [H2 H3]].
    split; [exact H1|]. split; [exact H2|]. unfold middle. apply Rle_trans with (1 := H3). fold (len lo hi) (reach lo hi).
    assert (P := eps_pos). nra.
  Qed.
  (** The published centres are inside the limits and within 2^-50 of the absolute limits of where they should be. *)
  Theorem c131_centres (n : N) (lo hi : f64) (k : N) (x : f64) :
    axis64 lo hi -> bpow radix2 (-900) <= len lo hi -> (1 <= n <= 2 ^ 49)%N ->
    nth_error (cart_centres n lo hi) (N.to_nat k) = Some x ->
    within (lo, hi) x /\ Rabs (B2R x - middle lo hi n k) <= reach lo hi / IZR (2 ^ 50).
  Proof.
    intros Ax Hl Hn Hx. destruct (centre_close n lo hi k x Ax Hl Hn Hx) as [F1 [H1 H2]]. split.
    - destruct Ax as [Fl [Fh _]]. unfold within. cbn [fst snd nleb num_f64]. rewrite !Bleb_R by assumption. exact H1.
    - apply Rle_trans with (1 := H2). rewrite eps_val. assert (0 <= reach lo hi) by (assert (X := len_reach lo hi); assert (Y := bpow_ge_0 radix2 (-900)); lra).
      cbn [Z.pow Z.pow_pos Pos.iter Z.mul Pos.mul]. lra.
  Qed.
  (** With cells that are not too small for the numbers involved, they are strictly increasing ... *)
  Theorem c131_increasing (n : N) (lo hi : f64) (k : N) (x y : f64) :
    axis64 lo hi -> bpow radix2 (-900) <= len lo hi -> (1 <= n <= 2 ^ 49)%N -> NR n * reach lo hi <= IZR (2 ^ 49) * len lo hi ->
    nth_error (cart_centres n lo hi) (N.to_nat k) = Some x -> nth_error (cart_centres n lo hi) (N.to_nat (k + 1)) = Some y ->
    nltb x y = true.
  Proof.
    intros Ax Hl Hn Hs Hx Hy. destruct (centre_close n lo hi k x Ax Hl Hn Hx) as [F1 [_ H1]]. destruct (centre_close n lo hi (k + 1) y Ax Hl Hn Hy) as [F2 [_ H2]].
    cbn [nltb num_f64]. apply Bltb_R; auto. apply Rabs_le_inv in H1, H2. unfold middle in *. rewrite NR_add in H2. change (NR 1) with 1 in H2.
    assert (Pn := NR_pos n ltac:(lia)). assert (W : 12 * eps * reach lo hi < len lo hi / NR n).
    { apply Rmult_lt_reg_r with (NR n); [lra|]. replace (len lo hi / NR n * NR n) with (len lo hi) by (field; lra). rewrite eps_val.
      assert (B := bpow_gt_0 radix2 (-900)). cbn [Z.pow Z.pow_pos Pos.iter Z.mul Pos.mul] in Hs. lra. }
    nra.
  Qed.
  (** ... and each is looked up in the same cell as in exact arithmetic (C06); only the centre of the middle cell of
      an odd number, which lies exactly on a border, may go to either side. *)
  Definition centre_in (n k i : N) : Prop :=
    i = centre_found_in n k \/ (n = 2 * k + 1 /\ k = i + 1)%N.
  Lemma centre_axis bld n lo hi k x : axis64 lo hi -> bpow radix2 (-900) <= len lo hi -> (1 <= n <= 2 ^ 49)%N ->
    NR n * NR n * reach lo hi <= IZR (2 ^ 48) * len lo hi ->
    nth_error (cart_centres n lo hi) (N.to_nat k) = Some x ->
    exists i, cart_axis_id bld n (lo, hi) x = Val i /\ centre_in n k i.
  Proof.
    intros Ax Hl Hn Hs Hx. assert (Wi := proj1 (c131_centres n lo hi k x Ax Hl Hn Hx)).
    destruct (centre_close n lo hi k x Ax Hl Hn Hx) as [F1 [H1 H2]]. destruct (centres_nth64 n lo hi k x Hx) as [Hk _].
    rewrite axis_val by lia. eexists. split; [reflexivity|]. destruct (index_floor lo hi x (n - 1) Ax Wi ltac:(lia)) as [q [Hq [Hi Er]]].
    set (i := f64_to_usize _) in *. clearbody i. unfold centre_in.
    assert (Pn := NR_pos n ltac:(lia)). assert (Pk := NR_nonneg k). assert (Pi := NR_nonneg i).
    assert (Hb : 0 < len lo hi) by (assert (B := bpow_gt_0 radix2 (-900)); lra). assert (Rc := len_reach lo hi).
    rewrite NR_sub in Er by lia. change (NR 1) with 1 in Er.
    set (Q := (B2R x - B2R lo) / len lo hi * (NR n - 1)) in *.
    assert (Fr : 0 <= (B2R x - B2R lo) / len lo hi <= 1) by (apply frac_range; [apply Ax | exact H1]).
    assert (HQ : 0 <= Q <= NR n - 1) by (unfold Q; nra).
    (* the exact place of the exact centre *)
    set (C := NR k + / 2 - (NR k + / 2) / NR n).
    assert (EC : (middle lo hi n k - B2R lo) / len lo hi * (NR n - 1) = C) by (unfold middle, C; field; lra).
    assert (DQ : Rabs (Q - C) <= 6 * eps * (reach lo hi / len lo hi) * NR n).
    { rewrite <- EC. unfold Q. replace ((B2R x - B2R lo) / len lo hi * (NR n - 1) - (middle lo hi n k - B2R lo) / len lo hi * (NR n - 1))
        with ((B2R x - middle lo hi n k) * ((NR n - 1) / len lo hi)) by (field; lra).
      assert (0 <= (NR n - 1) / len lo hi) by (apply Rmult_le_pos; [lra | apply Rlt_le, Rinv_0_lt_compat; lra]).
      rewrite Rabs_mult, (Rabs_pos_eq ((NR n - 1) / len lo hi)) by assumption.
      apply Rle_trans with (6 * eps * reach lo hi * ((NR n - 1) / len lo hi)); [now apply Rmult_le_compat_r|].
      replace (6 * eps * (reach lo hi / len lo hi) * NR n) with (6 * eps * reach lo hi * (NR n / len lo hi)) by (field; lra).
      apply Rmult_le_compat_l; [assert (P := eps_pos); nra|]. unfold Rdiv. apply Rmult_le_compat_r; [apply Rlt_le, Rinv_0_lt_compat; lra | lra]. }
    set (rho := reach lo hi / len lo hi) in *.
    assert (R1 : 1 <= rho) by (unfold rho; apply Rmult_le_reg_r with (len lo hi); [lra|]; unfold Rdiv; rewrite Rmult_assoc, Rinv_l by lra; lra).
    assert (Hs' : NR n * NR n * rho <= IZR (2 ^ 48)).
    { unfold rho. apply Rmult_le_reg_r with (len lo hi); [lra|]. unfold Rdiv. rewrite !Rmult_assoc, Rinv_l by lra. rewrite Rmult_1_r, <- Rmult_assoc. exact Hs. }
    assert (Eq : Rabs (q - C) <= 12 * eps * rho * NR n).
    { replace (q - C) with ((q - Q) + (Q - C)) by ring. apply Rle_trans with (1 := Rabs_triang _ _).
      assert (B : bpow radix2 (-1020) <= eps) by (apply bpow_le; lia). assert (P := eps_pos).
      assert (X1 : 5 * eps * Q + bpow radix2 (-1020) <= 6 * eps * NR n) by nra.
      assert (X2 : 6 * eps * NR n <= 6 * eps * rho * NR n) by (apply Rmult_le_compat_r; nra). lra. }
    assert (Small : 12 * eps * rho * NR n < / (2 * NR n)).
    { apply Rmult_lt_reg_r with (2 * NR n); [lra|]. rewrite Rinv_l by lra.
      replace (12 * eps * rho * NR n * (2 * NR n)) with (24 * eps * (NR n * NR n * rho)) by ring. rewrite eps_val.
      cbn [Z.pow Z.pow_pos Pos.iter Z.mul Pos.mul] in Hs'. lra. }
    assert (D : Rabs (q - C) < / (2 * NR n)) by lra. apply Rabs_def2 in D. clear Eq Small DQ Er.
    assert (Half : / (2 * NR n) <= / 2) by (apply Rinv_le; lra).
    assert (EC2 : C = NR k + (NR n - 2 * NR k - 1) * / (2 * NR n)) by (unfold C; field; lra).
    assert (In : 0 < / (2 * NR n)) by (apply Rinv_0_lt_compat; lra).
    assert (One : NR n * / (2 * NR n) = / 2) by (field; lra).
    assert (Rk : NR (2 * k + 1) = 2 * NR k + 1) by (rewrite NR_add; unfold NR; rewrite N2Z.inj_mul, mult_IZR; reflexivity).
    set (z := / (2 * NR n)) in *. clearbody z.
    assert (Uq : forall j, NR j <= q < NR j + 1 -> i = j).
    { intros j Hj. assert (A1 : NR i < NR j + 1) by lra. assert (A2 : NR j < NR i + 1) by lra.
      change 1 with (NR 1) in A1, A2. rewrite <- NR_add in A1, A2. apply NR_lt in A1, A2. lia. }
    unfold centre_found_in. destruct (N.leb_spec (2 * k + 1) n) as [Le|Gt].
    - destruct (N.eq_dec n (2 * k + 1)) as [E|Ne].
      + assert (E' : NR n - 2 * NR k - 1 = 0) by (rewrite E, Rk; lra). rewrite E' in EC2.
        destruct (Rle_lt_dec (NR k) q) as [Ge|Lt].
        * left. apply Uq. lra.
        * right. split; [exact E|]. assert (Pos : (1 <= k)%N).
          { destruct (N.eq_dec k 0) as [K0|]; [|lia]. subst k. change (NR 0) with 0 in *. lra. }
          assert (X : i = (k - 1)%N); [|lia]. apply Uq. rewrite NR_sub by lia. change (NR 1) with 1. lra.
      + left. apply Uq. assert (G : (2 * k + 1 + 1 <= n)%N) by lia. apply NR_le in G. rewrite NR_add, Rk in G. change (NR 1) with 1 in G. nra.
    - left. assert (Pos : (1 <= k)%N) by lia. apply Uq. rewrite NR_sub by lia. change (NR 1) with 1.
      assert (G : (n + 1 <= 2 * k + 1)%N) by lia. apply NR_le in G. rewrite NR_add, Rk in G. change (NR 1) with 1 in G.
      assert (G2 : (k + 1 <= n)%N) by lia. apply NR_le in G2. rewrite NR_add in G2. change (NR 1) with 1 in G2. nra.
  Qed.
  Theorem c131_found (bld : build) (nx ny nz : N) x0 x1 y0 y1 z0 z1 (g : grid f64) (i j k : N) (x y z : f64) :
    let fine n lo hi := axis64 lo hi /\ bpow radix2 (-900) <= len lo hi /\ (1 <= n <= 2 ^ 49)%N /\
                        NR n * NR n * reach lo hi <= IZR (2 ^ 48) * len lo hi in
    fine nx x0 x1 -> fine ny y0 y1 -> fine nz z0 z1 ->
    cart_new (nx, ny, nz) (ThreeD ((x0, x1), (y0, y1), (z0, z1))) = Val g ->
    nth_error (get_xpositions g) (N.to_nat i) = Some x ->
    nth_error (get_ypositions g) (N.to_nat j) = Some y ->
    nth_error (get_zpositions g) (N.to_nat k) = Some z ->
    exists i' j' k', cell_id bld g (x, y, z) = Val (Some (i', j', k')) /\ centre_in nx i i' /\ centre_in ny j j' /\ centre_in nz k k'.
  Proof.
    intros fine [Ax [Lx [Nx Sx]]] [Ay [Ly [Ny Sy]]] [Az [Lz [Nz Sz]]] E Ex Ey Ez. cbn in E. injection E as <-. cbn [get_xpositions get_ypositions get_zpositions geo] in *.
    destruct (centre_axis bld nx x0 x1 i x Ax Lx Nx Sx Ex) as [i' [Ei Ci]].
    destruct (centre_axis bld ny y0 y1 j y Ay Ly Ny Sy Ey) as [j' [Ej Cj]].
    destruct (centre_axis bld nz z0 z1 k z Az Lz Nz Sz Ez) as [k' [Ek Ck]].
    exists i', j', k'. split; [|auto]. unfold cell_id, geom_cell_id, cart_cell_id. cbn [geo].
    match goal with |- (if ?b then _ else _) = _ => assert (B : b = true) end.
    { apply cart_inside_f64. cbn [cc_lim in_box]. split; [|split].
      - exact (proj1 (c131_centres nx x0 x1 i x Ax Lx Nx Ex)).
      - exact (proj1 (c131_centres ny y0 y1 j y Ay Ly Ny Ey)).
      - exact (proj1 (c131_centres nz z0 z1 k z Az Lz Nz Ez)). }
    rewrite B. cbn [cc_cells cc_lim]. rewrite Ei, Ej, Ek. reflexivity.
  Qed.

  (** ** C132 *)

  (** Slicing at a position gives the plane of a cell that holds the position up to the allowance; it
      panics only within the allowance of the upper limit. *)
  Theorem c132_slice (g : grid f64) (axis : N) (p lo hi : f64) (n : N) :
    wf_grid g -> (axis <= 2)%N ->
    v3get (geom_lim (geo g)) axis = Val (lo, hi) -> v3get (geom_cells (geo g)) axis = Val n ->
    axis64 lo hi -> (1 <= n <= 2 ^ 53)%N -> within (lo, hi) p ->
    (exists k a, (k < n)%N /\
       B2R lo + NR k * (len lo hi / NR n) - tol lo hi <= B2R p < B2R lo + (NR k + 1) * (len lo hi / NR n) + tol lo hi /\
       slice g axis p = Val a /\ forall c, coord axis c = k -> at2 a (drop axis c) = at3 (data g) c) \/
    (slice g axis p = Panic /\ B2R hi - tol lo hi <= B2R p).
  Proof.
    intros [W1 W2] Ha El En Ax Hn Hp.
    assert (Es : slice g axis p = slice_idx g axis (f64_to_usize (frac lo hi p (Z.of_N n)))).
    { unfold slice. rewrite El, En. reflexivity. }
    destruct (index_near lo hi p n Ax Hp Hn) as [Hi Hc]. set (i := f64_to_usize _) in *. unfold width in Hc.
    destruct (slice_idx_val g axis i Ha) as [m [Em [H1 [H2 _]]]]. rewrite W1, En in Em. injection Em as <-.
    destruct (N.lt_ge_cases i n) as [Lt|Ge].
    - left. destruct (H1 Lt) as [a [Ea [_ Ha2]]]. exists i, a. split; [exact Lt|]. split; [exact Hc|]. rewrite Es. split; [exact Ea|].
      intros [[x y] z] Hcc. destruct (axis_cases axis Ha) as [-> | [-> | ->]];
        cbn [coord drop N.eqb Pos.eqb] in *; subst; rewrite Ha2; cbn [lane N.eqb Pos.eqb]; congruence.
    - right. rewrite Es. split; [apply H2; lia|]. assert (i = n) by lia. subst i. rewrite H in Hc.
      assert (Pn := NR_pos n ltac:(lia)). assert (E : NR n * (len lo hi / NR n) = len lo hi) by (field; lra). unfold len in *. lra.
  Qed.
End Any.


(** A case the theorems apply to: 100 cells from 0 to 10 along each axis. *)
Lemma d_val (a : Z) : (Z.abs a <= 2 ^ 52)%Z -> B2R (d a) = IZR a /\ is_finite (d a) = true.
Proof. intros H. apply (of_Z_correct a). lia. Qed.
Lemma axis_ints (a b : Z) : (- 2 ^ 50 <= a)%Z -> (a < b)%Z -> (b <= 2 ^ 50)%Z -> axis64 (d a) (d b).
Proof.
  intros Ha Hab Hb. destruct (d_val a ltac:(lia)) as [Ea Fa]. destruct (d_val b ltac:(lia)) as [Eb Fb].
  split; [exact Fa|]. split; [exact Fb|]. assert (L := IZR_lt _ _ Hab). split; [now rewrite Ea, Eb|].
  destruct (minus_cases (d b) (d a) Fb Fa) as [[_ [F _]]|[Big _]]; [rewrite Ea, Eb; lra | exact F|].
  exfalso. rewrite Ea, Eb in Big. rewrite <- minus_IZR, rnd_fmt in Big by (apply fmt_int; lia).
  assert (X := M64_big). assert (IZR (b - a) <= IZR (2 ^ 53)) by (apply IZR_le; lia). lra.
Qed.
Example c131_fine : let lo := d 0 in let hi := d 10 in let n := 100%N in
  axis64 lo hi /\ bpow radix2 (-900) <= len lo hi /\ (1 <= n <= 2 ^ 49)%N /\ NR n * NR n * reach lo hi <= IZR (2 ^ 48) * len lo hi.
Proof.
  cbv zeta. split; [apply axis_ints; lia|]. unfold len, reach. rewrite (proj1 (d_val 0 ltac:(lia))), (proj1 (d_val 10 ltac:(lia))).
  rewrite Rabs_R0, (Rabs_pos_eq 10) by lra. split; [apply Rle_trans with (bpow radix2 1); [apply bpow_le; lia | change (bpow radix2 1) with 2; lra]|].
  split; [lia|]. change (NR 100) with 100. cbn [Z.pow Z.pow_pos Pos.iter Z.mul Pos.mul]. lra.
Qed.
Example c130_case {TF : Trig f64} :
  sized (100, 100, 100)%N /\
  after (cart_new (100, 100, 100)%N (ThreeD ((d 0, d 10), (d 0, d 10), (d 0, d 10)))) (fun g => is_inside g (d 3, d 7, d 10) = true /\ wf_grid g).
Proof. split; [repeat split; vm_compute; discriminate|]. destruct (cart_new _ _) as [g|] eqn:E; [|discriminate]. split; [|exact (cart_new_wf _ _ _ E)]. injection E as <-. vm_compute. reflexivity. Qed.
Example c132_case : within (d 0, d 10) (d 3).
Proof. split; vm_compute; reflexivity. Qed.
