(** * Cylindrical grids in doubles (proofs only). *)
From Coq Require Import Reals List NArith ZArith Lia Lra Psatz Bool ZifyBool ZifyN.
From Flocq Require Import Core.Core IEEE754.BinarySingleNaN.
From Verif Require Import Base BaseFacts Num RFacts NDArray GridModel GridSpec GridFacts F64Facts CylProofs FloatErr FloatSum.
Import ListNotations.
Local Open Scope R_scope.

(** ** Powers of the rounding factor *)
Lemma pow_low e m : 0 <= e <= 1 -> 1 - INR m * e <= (1 - e) ^ m.
Proof.
  intros He. induction m as [|m IH]; [cbn; lra|]. rewrite S_INR. cbn [pow].
  assert (0 <= INR m) by apply pos_INR. assert (X : (1 - e) * (1 - INR m * e) <= (1 - e) * (1 - e) ^ m) by (apply Rmult_le_compat_l; lra).
  assert (0 <= INR m * e * e) by (apply Rmult_le_pos; [apply Rmult_le_pos|]; lra). nra.
Qed.
Lemma pow_up e m : 0 <= e -> INR m * e <= / 2 -> (1 + e) ^ m <= 1 + 2 * INR m * e.
Proof.
  intros He. induction m as [|m IH]; intros Hm; [cbn; lra|]. rewrite S_INR in *. cbn [pow].
  assert (0 <= INR m) by apply pos_INR. assert (IH' := IH ltac:(lra)).
  assert (X : (1 + e) * (1 + e) ^ m <= (1 + e) * (1 + 2 * INR m * e)) by (apply Rmult_le_compat_l; lra).
  assert (Y : 2 * (INR m * e) * e <= 1 * e) by (apply Rmult_le_compat_r; lra). nra.
Qed.
Lemma pow_ge1 e m : 0 <= e -> 1 <= (1 + e) ^ m.
Proof. intros He. apply pow_R1_Rle. lra. Qed.
Lemma pow_le1 e m : 0 <= e <= 1 -> 0 <= (1 - e) ^ m <= 1.
Proof. intros He. split; [apply pow_le; lra|]. induction m as [|m IH]; cbn; [lra|]. assert (0 <= (1 - e) ^ m) by (apply pow_le; lra). nra. Qed.

(** ** The ring boundaries: [s_0 = 0], [s_{k+1} = sqrt (vol + s_k s_k)] *)
Fixpoint bnd (vol : f64) (k : nat) : f64 :=
  match k with O => n0 | S k' => nsqrt (nadd vol (nmul (bnd vol k') (bnd vol k'))) end.
Lemma rings_nth vol n j i : (i < n)%nat -> nth_error (cyl_rings n vol (bnd vol j)) i = Some (bnd vol (j + i), bnd vol (j + i + 1)).
Proof.
  revert j i. induction n as [|n IH]; intros j i Hi; [lia|]. cbn [cyl_rings]. destruct i as [|i].
  - cbn [nth_error]. rewrite Nat.add_0_r, Nat.add_1_r. reflexivity.
  - cbn [nth_error]. change (nsqrt (nadd vol (nmul (bnd vol j) (bnd vol j)))) with (bnd vol (S j)). rewrite IH by lia.
    do 3 f_equal; lia.
Qed.

  Lemma eps40 n k : INR n <= bpow radix2 40 -> (k <= n)%nat -> INR (4 * k + 1) * eps <= / 1024.
  Proof.
    intros Hn Hk. assert (INR k <= INR n) by (apply le_INR; lia).
    assert (E : INR (4 * k + 1) = 4 * INR k + 1) by (rewrite plus_INR, mult_INR; cbn; lra).
    rewrite E. assert (P := eps_pos). assert (B : bpow radix2 40 = 1099511627776) by (cbn; reflexivity).
    apply Rle_trans with ((4 * bpow radix2 40 + 1) * eps); [apply Rmult_le_compat_r; lra|]. rewrite B, eps_val. lra.
  Qed.

Section Rings.
  Variables (V : R) (vol : f64) (n : nat).
  Hypothesis (Hn : INR n <= bpow radix2 40) (Vlo : bpow radix2 (-1000) <= V) (Vhi : INR n * V <= bpow radix2 960).
  Hypothesis (Fv : is_finite vol = true) (Ev : V * (1 - eps) ^ 2 <= B2R vol <= V * (1 + eps) ^ 2).

  Lemma ring_err k : (k <= n)%nat ->
    is_finite (bnd vol k) = true /\ 0 <= B2R (bnd vol k) /\
    INR k * V * (1 - eps) ^ (4 * k + 1) <= B2R (bnd vol k) * B2R (bnd vol k) <= INR k * V * (1 + eps) ^ (4 * k + 1).
  Proof.
    assert (P := eps_pos). assert (Le := eps_le). assert (PV := bpow_gt_0 radix2 (-1000)).
    induction k as [|k IH]; intros Hk.
    { change (bnd vol 0) with (f64_of_Z 0). destruct (of_Z_correct 0 ltac:(lia)) as [E F]. rewrite E. cbn [INR]. split; [exact F|]. lra. }
    destruct (IH ltac:(lia)) as [Fs [S0 [SL SU]]]. set (s := bnd vol k) in *. change (bnd vol (S k)) with (Bsqrt mode_NE (Bplus mode_NE vol (Bmult mode_NE s s))).
    assert (Ek := eps40 n k Hn ltac:(lia)). assert (Lw := pow_low eps (4 * k + 1) ltac:(lra)). assert (Up := pow_up eps (4 * k + 1) ltac:(lra) ltac:(lra)).
    assert (Kp : 0 <= INR k) by apply pos_INR. assert (Kn : INR k <= INR n) by (apply le_INR; lia).
    set (q := B2R s * B2R s) in *. assert (Q0 : 0 <= q) by (unfold q; apply Rmult_le_pos; exact S0).
    assert (KV : INR k * V <= bpow radix2 960) by (apply Rle_trans with (2 := Vhi); apply Rmult_le_compat_r; lra).
    assert (B961 : bpow radix2 961 = 2 * bpow radix2 960) by (replace 961%Z with (1 + 960)%Z by lia; rewrite bpow_plus; reflexivity).
    assert (KV0 : 0 <= INR k * V) by (apply Rmult_le_pos; lra).
    assert (Q961 : q <= bpow radix2 961).
    { apply Rle_trans with (1 := SU). rewrite B961. rewrite (Rmult_comm 2). apply Rmult_le_compat; try lra. apply pow_le; lra. }
    assert (Bq : Rabs (rnd q) <= bpow radix2 961).
    { rewrite Rabs_pos_eq by now apply rnd_nonneg. rewrite <- (rnd_fmt (bpow radix2 961)) by (apply generic_format_bpow; vm_compute; discriminate). now apply rnd_mono. }
    destruct (mul_R s s Fs Fs) as [Fm Em]; [fold q; apply Rle_lt_trans with (1 := Bq); apply bpow_lt; lia|]. fold q in Em.
    (* the square *)
    assert (E1 : q * (1 - eps) <= rnd q <= q * (1 + eps)).
    { destruct k as [|k']. { assert (q = 0) by (cbn [INR] in SL, SU; lra). rewrite H, rnd_0. lra. }
      assert (K1 : 1 <= INR (S k')) by (rewrite S_INR; assert (X := pos_INR k'); lra).
      assert (Qn : bpow radix2 (-1022) <= Rabs q).
      { rewrite Rabs_pos_eq by exact Q0. apply Rle_trans with (2 := SL). apply Rle_trans with (bpow radix2 (-1000) * / 2).
        - change (/ 2) with (bpow radix2 (-1)). rewrite <- bpow_plus. apply bpow_le. lia.
        - apply Rmult_le_compat; try lra. nra. }
      destruct (rnd_rel q Qn) as [e [He E]]. assert (G := factor _ He). rewrite E. split; apply Rmult_le_compat_l; lra. }
    set (m := Bmult mode_NE s s) in *. rewrite <- Em in E1.
    assert (M0 : 0 <= B2R m) by (rewrite Em; now apply rnd_nonneg).
    assert (V2 : V <= 2 * B2R vol).
    { assert ((1 - eps) ^ 2 >= / 2) by (cbn; nra). apply Rle_trans with (2 * (V * (1 - eps) ^ 2)); [nra | lra]. }
    assert (PVol : 0 < B2R vol) by lra.
    assert (VU : B2R vol <= bpow radix2 961).
    { apply Rle_trans with (1 := proj2 Ev). rewrite B961. assert (V <= bpow radix2 960). { apply Rle_trans with (2 := Vhi). assert (1 <= INR n) by (change 1 with (INR 1); apply le_INR; lia). nra. }
      assert ((1 + eps) ^ 2 <= 2) by (cbn; nra). rewrite (Rmult_comm 2). apply Rmult_le_compat; try lra. apply pow_le; lra. }
    assert (M961 : B2R m <= bpow radix2 961).
    { rewrite Em. rewrite Rabs_pos_eq in Bq by now apply rnd_nonneg. exact Bq. }
    assert (B962 : bpow radix2 962 = 2 * bpow radix2 961) by (replace 962%Z with (1 + 961)%Z by lia; rewrite bpow_plus; reflexivity).
    destruct (rnd_sum (B2R vol) (B2R m) (fmt_B2R vol) (fmt_B2R m)) as [e2 [He2 E2]]. assert (G2 := factor _ He2).
    destruct (add_R vol m Fv Fm) as [Fa Ea].
    { rewrite Rabs_pos_eq by (apply rnd_nonneg; lra). apply Rle_lt_trans with (bpow radix2 962); [|apply bpow_lt; lia].
      rewrite <- (rnd_fmt (bpow radix2 962)) by (apply generic_format_bpow; vm_compute; discriminate). apply rnd_mono. lra. }
    set (a := Bplus mode_NE vol m) in *. rewrite E2 in Ea.
    assert (A0 : / 4 * V <= B2R a).
    { rewrite Ea. apply Rle_trans with ((/ 2 * V) * / 2); [lra|]. apply Rmult_le_compat; lra. }
    destruct (sqrt_R a Fa ltac:(lra)) as [Fr Er]. split; [exact Fr|]. rewrite Er.
    assert (Rp := sqrt_pos (B2R a)). split; [now apply rnd_nonneg|].
    assert (Rn : bpow radix2 (-1022) <= Rabs (sqrt (B2R a))).
    { rewrite Rabs_pos_eq by exact Rp. apply sq_le; [exact Rp|]. rewrite sqrt_sqrt by lra. apply Rle_trans with (2 := A0).
      rewrite <- bpow_plus. apply Rle_trans with (bpow radix2 (-2) * bpow radix2 (-1000)); [rewrite <- bpow_plus; apply bpow_le; lia|].
      change (bpow radix2 (-2)) with (/ 4). apply Rmult_le_compat_l; lra. }
    destruct (rnd_rel _ Rn) as [e3 [He3 E3]]. assert (G3 := factor _ He3). rewrite E3.
    replace (sqrt (B2R a) * (1 + e3) * (sqrt (B2R a) * (1 + e3))) with (sqrt (B2R a) * sqrt (B2R a) * ((1 + e3) * (1 + e3))) by ring.
    rewrite sqrt_sqrt by lra. rewrite Ea.
    assert (T3 : (1 - eps) * (1 - eps) <= (1 + e3) * (1 + e3) <= (1 + eps) * (1 + eps)) by (split; apply Rmult_le_compat; lra).
    set (x := (1 + e3) * (1 + e3)) in *. rewrite S_INR. replace (4 * S k + 1)%nat with (3 + (1 + (4 * k + 1)))%nat by lia. rewrite !(pow_add _ 3).
    set (lp := (1 - eps) ^ (1 + (4 * k + 1))) in *. set (up := (1 + eps) ^ (1 + (4 * k + 1))) in *.
    assert (LP : lp = (1 - eps) * (1 - eps) ^ (4 * k + 1)) by reflexivity. assert (UP : up = (1 + eps) * (1 + eps) ^ (4 * k + 1)) by reflexivity.
    assert (l1 := pow_le1 eps (4 * k + 1) ltac:(lra)). assert (u1 := pow_ge1 eps (4 * k + 1) ltac:(lra)).
    assert (l2 : 0 <= lp <= (1 - eps) ^ 2).
    { rewrite LP. split; [apply Rmult_le_pos; lra|]. cbn [pow]. rewrite Rmult_1_r. apply Rmult_le_compat_l; [lra|].
      replace (4 * k + 1)%nat with (1 + 4 * k)%nat by lia. cbn [pow Nat.add]. assert (W := pow_le1 eps (4 * k) ltac:(lra)). nra. }
    assert (u2 : (1 + eps) ^ 2 <= up).
    { rewrite UP. cbn [pow]. rewrite Rmult_1_r. apply Rmult_le_compat_l; [lra|].
      replace (4 * k + 1)%nat with (1 + 4 * k)%nat by lia. cbn [pow Nat.add]. assert (W := pow_ge1 eps (4 * k) ltac:(lra)). nra. }
    assert (V0 : 0 <= V) by lra.
    assert (Lo : (INR k + 1) * V * lp <= B2R vol + B2R m).
    { assert (V * lp <= V * (1 - eps) ^ 2) by (apply Rmult_le_compat_l; lra).
      assert (INR k * V * lp <= q * (1 - eps)). { rewrite LP, (Rmult_comm (1 - eps)), <- Rmult_assoc. apply Rmult_le_compat_r; lra. } lra. }
    assert (Hi : B2R vol + B2R m <= (INR k + 1) * V * up).
    { assert (V * (1 + eps) ^ 2 <= V * up) by (apply Rmult_le_compat_l; lra).
      assert (q * (1 + eps) <= INR k * V * up). { rewrite UP, (Rmult_comm (1 + eps)), <- Rmult_assoc. apply Rmult_le_compat_r; lra. } lra. }
    set (b := B2R vol + B2R m) in *. assert (B0 : 0 <= b) by (unfold b; lra).
    assert (E13 : (1 - eps) ^ 3 = (1 - eps) * ((1 - eps) * (1 - eps))) by ring. assert (E23 : (1 + eps) ^ 3 = (1 + eps) * ((1 + eps) * (1 + eps))) by ring.
    assert (Z1 : (1 - eps) ^ 3 <= (1 + e2) * x) by (rewrite E13; apply Rmult_le_compat; nra).
    assert (Z2 : (1 + e2) * x <= (1 + eps) ^ 3) by (rewrite E23; apply Rmult_le_compat; nra).
    assert (Z3 : 0 <= (1 - eps) ^ 3) by (apply pow_le; lra).
    assert (KV1 : 0 <= (INR k + 1) * V) by (apply Rmult_le_pos; lra).
    split.
    - apply Rle_trans with (((INR k + 1) * V * lp) * (1 - eps) ^ 3); [right; ring|]. rewrite (Rmult_assoc b). apply Rmult_le_compat; try lra. apply Rmult_le_pos; lra.
    - rewrite (Rmult_assoc b). apply Rle_trans with (((INR k + 1) * V * up) * (1 + eps) ^ 3); [|right; ring]. apply Rmult_le_compat; try lra; nra.
  Qed.
End Rings.

(** ** The ring of a distance *)
Section Lookup.
  Context {F : Type} {NF : Num F}.
  Definition holds (q : F * F) (r : F) : bool := (nleb (fst q) r && nleb r (snd q))%bool.
  Lemma ring_of_in (l : list (F * F)) k r acc j : ring_of l k r acc = Some j ->
    acc = Some j \/ exists i q, j = (k + N.of_nat i)%N /\ nth_error l i = Some q /\ holds q r = true.
  Proof.
    revert k acc. induction l as [|q l IH]; intros k acc H; [now left|]. cbn [ring_of] in H. fold (holds q r) in H.
    destruct (IH _ _ H) as [A|[i [q' [-> [A B]]]]]; [|right; exists (S i), q'; split; [lia | auto]].
    destruct (holds q r) eqn:E; [|now left]. injection A as <-. right. exists 0%nat, q. split; [lia | auto].
  Qed.
  Lemma ring_of_acc (l : list (F * F)) k r acc : acc <> None -> ring_of l k r acc <> None.
  Proof.
    revert k acc. induction l as [|q l IH]; intros k acc H; [exact H|]. cbn [ring_of]. apply IH. destruct (_ && _)%bool; [discriminate | exact H].
  Qed.
  Lemma ring_of_none (l : list (F * F)) k r : ring_of l k r None = None <-> forall q, In q l -> holds q r = false.
  Proof.
    revert k. induction l as [|q l IH]; intros k; [split; [intros _ q' [] | reflexivity]|]. cbn [ring_of]. fold (holds q r). split.
    - intros H q' [<-|Hq']; [|destruct (holds q r); [exfalso; now apply ring_of_acc in H | now apply (IH (k + 1)%N)]].
      destruct (holds q r); [exfalso; now apply ring_of_acc in H | reflexivity].
    - intros H. rewrite (H q (or_introl eq_refl)). apply IH. intros q' Hq'. apply H. now right.
  Qed.
End Lookup.
Lemma holds_R (q : f64 * f64) (r : f64) : is_finite (fst q) = true -> is_finite (snd q) = true -> is_finite r = true ->
  holds q r = true <-> B2R (fst q) <= B2R r <= B2R (snd q).
Proof.
  intros F1 F2 Fr. unfold holds. cbn [nleb num_f64]. rewrite andb_true_iff, !Bleb_R by assumption. tauto.
Qed.
Lemma ring_found (n : nat) (vol r : f64) : (1 <= n)%nat -> (forall k, (k <= n)%nat -> is_finite (bnd vol k) = true) ->
  is_finite r = true -> 0 <= B2R r <= B2R (bnd vol n) ->
  exists i, ring_of (cyl_rings n vol n0) 0 r None = Some (N.of_nat i) /\ (i < n)%nat /\ B2R (bnd vol i) <= B2R r <= B2R (bnd vol (i + 1)).
Proof.
  intros Hn Fb Fr Hr. change (n0 (F := f64)) with (bnd vol 0).
  destruct (ring_of (cyl_rings n vol (bnd vol 0)) 0 r None) as [j|] eqn:E.
  - destruct (ring_of_in _ _ _ _ _ E) as [A|[i [q [-> [Hq Hh]]]]]; [discriminate|].
    assert (Hi : (i < n)%nat) by (rewrite <- (cyl_rings_length n vol (bnd vol 0)); apply nth_error_Some; congruence).
    rewrite rings_nth in Hq by exact Hi. injection Hq as <-. cbn [Nat.add] in Hh. apply holds_R in Hh; [|apply Fb; cbn; lia..|exact Fr].
    exists i. split; [f_equal; lia|]. split; [exact Hi | exact Hh].
  - exfalso. rewrite ring_of_none in E.
    assert (G : forall m, (m <= n)%nat -> B2R (bnd vol m) <= B2R r /\ ((0 < m)%nat -> B2R (bnd vol m) < B2R r)).
    { induction m as [|m IH]; intros Hm. { split; [|lia]. change (bnd vol 0) with (f64_of_Z 0). rewrite (proj1 (of_Z_correct 0 ltac:(lia))). lra. }
      destruct (IH ltac:(lia)) as [A _]. assert (Q := rings_nth vol n 0 m ltac:(lia)). cbn [Nat.add] in Q. apply nth_error_In in Q. apply E in Q.
      apply not_true_iff_false in Q. rewrite holds_R in Q by (cbn; auto; apply Fb; lia). cbn [fst snd] in Q. rewrite Nat.add_1_r in Q.
      split; [|intros _]; destruct (Rle_dec (B2R r) (B2R (bnd vol (S m)))) as [L|L]; try lra; exfalso; apply Q; lra. }
    destruct (G n ltac:(lia)) as [_ A]. specialize (A ltac:(lia)). lra.
Qed.
(** Beyond every boundary there is no ring. *)
Lemma ring_beyond (n : nat) (vol r : f64) : (forall k, (k <= n)%nat -> is_finite (bnd vol k) = true) -> is_finite r = true ->
  (forall k, (k <= n)%nat -> B2R (bnd vol k) < B2R r) -> ring_of (cyl_rings n vol n0) 0 r None = None.
Proof.
  intros Fb Fr Hr. apply ring_of_none. intros q Hq. apply In_nth_error in Hq. destruct Hq as [i Hq].
  assert (Hi : (i < n)%nat) by (rewrite <- (cyl_rings_length n vol n0); apply nth_error_Some; congruence).
  change (n0 (F := f64)) with (bnd vol 0) in Hq. rewrite rings_nth in Hq by exact Hi. injection Hq as <-. cbn [Nat.add].
  apply not_true_iff_false. rewrite holds_R by (cbn; auto; apply Fb; lia). cbn [fst snd]. specialize (Hr (i + 1)%nat ltac:(lia)). lra.
Qed.

(** ** The nearest edge *)
Definition toR (x : f64) : R := B2R x.
Lemma argmin_from_B2R (l : list f64) k best cur : Forall (fun x => is_finite x = true) l -> is_finite cur = true ->
  argmin_from l k best cur = argmin_from (map toR l) k best (B2R cur).
Proof.
  revert k best cur. induction l as [|x l IH]; intros k best cur Fl Fc; [reflexivity|].
  pose proof (Forall_inv Fl) as Fx. apply Forall_inv_tail in Fl. cbn [argmin_from map].
  assert (N1 : nisnan x = false) by (destruct x; cbn in *; congruence). assert (N2 : nisnan cur = false) by (destruct cur; cbn in *; congruence).
  cbn [nisnan num_f64 num_R nltb] in *. change (toR x) with (B2R x). rewrite N1, N2. cbn [orb].
  destruct (Rlt_dec (B2R x) (B2R cur)) as [L|L]; destruct (Bltb x cur) eqn:E; [| | |].
  - now apply IH.
  - apply not_true_iff_false in E. rewrite Bltb_R in E by assumption. contradiction.
  - apply Bltb_R in E; [contradiction | assumption..].
  - now apply IH.
Qed.
Lemma argmin_64 (l : list f64) : l <> [] -> Forall (fun x => is_finite x = true) l ->
  exists i x, argmin l = Some (N.of_nat i) /\ nth_error l i = Some x /\
    (forall i' x', nth_error l i' = Some x' -> B2R x <= B2R x').
Proof.
  intros Hl Fl. assert (E : argmin l = argmin (map toR l)).
  { destruct l as [|x l]; [easy|]. unfold argmin. cbn [map]. apply argmin_from_B2R; [exact Fl | now apply Forall_inv in Fl]. }
  destruct (argmin_R (map toR l)) as [i [x [Ei [Hx [Hm _]]]]]; [destruct l; [easy | discriminate]|].
  rewrite nth_error_map in Hx. destruct (nth_error l i) as [y|] eqn:Ey; [|discriminate Hx]. cbn [option_map] in Hx. assert (Hy : x = B2R y) by (unfold toR in Hx; congruence). subst x.
  exists i, y. split; [now rewrite E|]. split; [exact Ey|]. intros i' x' H. apply (Hm i'). rewrite nth_error_map. change (option_map toR (nth_error l i') = Some (toR x')). now rewrite H.
Qed.
(** If each edge is within [dl] of [t k] and everything is at most [w] from the value, the index found is that of the nearest [t k] up to rounding. *)
Lemma nearest_64 (edges : list f64) (v : f64) (t : nat -> R) (dl w : R) : edges <> [] -> is_finite v = true -> 0 <= w <= bpow radix2 1000 ->
  (forall k e, nth_error edges k = Some e -> is_finite e = true /\ Rabs (B2R e - t k) <= dl /\ Rabs (B2R e - B2R v) <= w) ->
  exists i, argmin (map (fun e => nabs (nsub e v)) edges) = Some (N.of_nat i) /\ (i < length edges)%nat /\
    forall k, (k < length edges)%nat -> Rabs (t i - B2R v) <= Rabs (t k - B2R v) + 2 * dl + 2 * eps * w.
Proof.
  intros Hne Fv Hw He. assert (P := eps_pos). assert (Le := eps_le).
  assert (D : forall k e, nth_error edges k = Some e -> is_finite (nabs (nsub e v)) = true /\
     exists f, Rabs f <= eps /\ B2R (nabs (nsub e v)) = Rabs (B2R e - B2R v) * (1 + f)).
  { intros k e Hk. destruct (He k e Hk) as [Fe [_ Hwe]]. destruct (rnd_diff e v) as [f [Hf E]]. assert (G := factor _ Hf).
    assert (X : Rabs (rnd (B2R e - B2R v)) < M64).
    { rewrite E, Rabs_mult, (Rabs_pos_eq (1 + f)) by lra. apply Rle_lt_trans with (w * 2); [apply Rmult_le_compat; try lra; apply Rabs_pos|].
      apply Rle_lt_trans with (bpow radix2 1000 * bpow radix2 1); [change (bpow radix2 1) with 2; lra|]. rewrite <- bpow_plus. apply bpow_lt. lia. }
    assert (C := Bminus_correct 53 1024 _ _ mode_NE e v Fe Fv).
    change (round radix2 (SpecFloat.fexp 53 1024) (round_mode mode_NE) (B2R e - B2R v)) with (rnd (B2R e - B2R v)) in C.
    rewrite Rlt_bool_true in C by exact X. destruct C as [C1 [C2 _]].
    cbn [nabs nsub num_f64]. rewrite is_finite_Babs, B2R_Babs. split; [exact C2|]. exists f. split; [exact Hf|].
    rewrite C1, E, Rabs_mult, (Rabs_pos_eq (1 + f)) by lra. reflexivity. }
  destruct (argmin_64 (map (fun e => nabs (nsub e v)) edges)) as [i [x [Ei [Hx Hm]]]].
  { destruct edges; [easy | discriminate]. }
  { apply Forall_forall. intros y Hy. apply in_map_iff in Hy. destruct Hy as [e [<- Hin]]. apply In_nth_error in Hin. destruct Hin as [k Hk]. apply (D k e Hk). }
  exists i. split; [exact Ei|]. rewrite nth_error_map in Hx. destruct (nth_error edges i) as [ei|] eqn:Eei; [|discriminate Hx]. cbn [option_map] in Hx.
  assert (Hxe : x = nabs (nsub ei v)) by congruence. subst x.
  split; [apply nth_error_Some; congruence|]. intros k Hk. destruct (nth_error edges k) as [ek|] eqn:Eek; [|apply nth_error_Some in Eek; [contradiction | exact Hk]].
  specialize (Hm k (nabs (nsub ek v))). rewrite nth_error_map, Eek in Hm. specialize (Hm eq_refl).
  destruct (D i ei Eei) as [_ [f1 [Hf1 E1]]]. destruct (D k ek Eek) as [_ [f2 [Hf2 E2]]]. rewrite E1, E2 in Hm.
  destruct (He i ei Eei) as [_ [A1 B1]]. destruct (He k ek Eek) as [_ [A2 B2]].
  assert (G1 := factor _ Hf1). assert (G2 := factor _ Hf2).
  set (u1 := Rabs (B2R ei - B2R v)) in *. set (u2 := Rabs (B2R ek - B2R v)) in *.
  assert (U1 : 0 <= u1) by apply Rabs_pos. assert (U2 : 0 <= u2) by apply Rabs_pos.
  assert (Z1 : u1 * (1 - eps) <= u1 * (1 + f1)) by (apply Rmult_le_compat_l; lra). assert (Z2 : u2 * (1 + f2) <= u2 * (1 + eps)) by (apply Rmult_le_compat_l; lra).
  assert (Z3 : u1 * eps <= w * eps) by (apply Rmult_le_compat_r; lra). assert (Z4 : u2 * eps <= w * eps) by (apply Rmult_le_compat_r; lra).
  assert (T1 : Rabs (t i - B2R v) <= u1 + dl).
  { replace (t i - B2R v) with ((B2R ei - B2R v) - (B2R ei - t i)) by ring. apply Rle_trans with (1 := Rabs_triang _ _). rewrite Rabs_Ropp. unfold u1. lra. }
  assert (T2 : u2 <= Rabs (t k - B2R v) + dl).
  { unfold u2. replace (B2R ek - B2R v) with ((t k - B2R v) + (B2R ek - t k)) by ring. apply Rle_trans with (1 := Rabs_triang _ _). lra. }
  lra.
Qed.

(** ** Published edges *)
Lemma within_rnd x m : (-1000 <= m <= 1000)%Z -> Rabs x <= bpow radix2 m -> Rabs (rnd x) <= bpow radix2 m /\ Rabs (rnd x) < M64.
Proof.
  intros Hm H. assert (Fm : generic_format radix2 fexp64 (bpow radix2 m)) by (apply generic_format_bpow; unfold fexp64, SpecFloat.fexp, SpecFloat.emin; lia).
  assert (A : Rabs (rnd x) <= bpow radix2 m).
  { apply Rabs_le. apply Rabs_le_inv in H. split.
    - rewrite <- (rnd_fmt (- bpow radix2 m)) by now apply generic_format_opp. apply rnd_mono. lra.
    - rewrite <- (rnd_fmt (bpow radix2 m)) by exact Fm. apply rnd_mono. lra. }
  split; [exact A|]. apply Rle_lt_trans with (1 := A). apply bpow_lt. lia.
Qed.
Lemma b40 (n : Z) : (1 <= n <= 2 ^ 40)%Z -> 1 <= IZR n <= bpow radix2 40.
Proof. intros H. split; [apply IZR_le; lia|]. rewrite <- IZR_Zpower by lia. apply IZR_le. change (Zpower radix2 40) with (2 ^ 40)%Z. lia. Qed.
(** A multiple of the cell size. *)
Lemma size_err (B : f64) (n k : Z) : is_finite B = true -> bpow radix2 (-490) <= B2R B <= bpow radix2 490 -> (1 <= n <= 2 ^ 40)%Z -> (0 <= k < n)%Z ->
  let size := Bdiv mode_NE B (f64_of_Z n) in let m := Bmult mode_NE (f64_of_Z k) size in
  is_finite size = true /\ is_finite m = true /\
  exists f g, 1 - eps <= f <= 1 + eps /\ 1 - eps <= g <= 1 + eps /\ B2R size = B2R B / IZR n * f /\ B2R m = IZR k * (B2R B / IZR n * f) * g.
Proof.
  intros FB HB Hn Hk size m. assert (P := eps_pos). assert (Le := eps_le). assert (N := b40 n Hn).
  destruct (of_Z_correct n ltac:(lia)) as [En Fn]. destruct (of_Z_correct k ltac:(lia)) as [Ek Fk].
  assert (P4 := bpow_gt_0 radix2 (-490)).
  assert (K0 : 0 <= IZR k) by (apply IZR_le; lia). assert (Kn : IZR k <= IZR n) by (apply IZR_le; lia).
  set (h := B2R B / IZR n). assert (Hh : h * IZR n = B2R B) by (unfold h; field; lra).
  assert (h0 : bpow radix2 (-530) <= h).
  { apply Rmult_le_reg_r with (bpow radix2 40); [apply bpow_gt_0|]. rewrite <- bpow_plus. apply Rle_trans with (B2R B); [apply Rle_trans with (2 := proj1 HB); apply bpow_le; lia|].
    rewrite <- Hh. apply Rmult_le_compat_l; [|lra]. unfold h. apply Rlt_le, Rdiv_lt_0_compat; lra. }
  assert (P5 := bpow_gt_0 radix2 (-530)). assert (h1 : h <= B2R B) by (rewrite <- Hh; nra).
  destruct (rnd_rel h) as [e1 [He1 E1]]; [rewrite Rabs_pos_eq by lra; apply Rle_trans with (2 := h0); apply bpow_le; lia|]. assert (G1 := factor _ He1).
  destruct (within_rnd h 490 ltac:(lia)) as [_ W1]; [rewrite Rabs_pos_eq by lra; lra|].
  destruct (div_R B (f64_of_Z n) FB) as [Fs Es]; [rewrite En; lra | rewrite En; exact W1|]. fold size in Fs, Es. rewrite En in Es. fold h in Es. rewrite E1 in Es.
  split; [exact Fs|].
  assert (S0 : 0 < B2R size) by (rewrite Es; nra).
  assert (M1 : IZR k * B2R size <= bpow radix2 491).
  { apply Rle_trans with (IZR n * (h * 2)); [apply Rmult_le_compat; try lra; rewrite Es; apply Rmult_le_compat_l; lra|].
    replace (IZR n * (h * 2)) with (B2R B * 2) by (rewrite <- Hh; ring). replace 491%Z with (490 + 1)%Z by lia. rewrite bpow_plus. change (bpow radix2 1) with 2. lra. }
  assert (M0 : 0 <= IZR k * B2R size) by (apply Rmult_le_pos; lra).
  destruct (within_rnd (IZR k * B2R size) 491 ltac:(lia)) as [_ W2]; [rewrite Rabs_pos_eq by lra; lra|].
  destruct (mul_R (f64_of_Z k) size Fk Fs) as [Fm Em]; [rewrite Ek; exact W2|]. fold m in Fm, Em. rewrite Ek in Em. split; [exact Fm|].
  destruct (Z.eq_dec k 0) as [->|Hk0].
  - exists (1 + e1), 1. split; [exact G1|]. split; [lra|]. split; [exact Es|]. rewrite Em, !Rmult_0_l, rnd_0. reflexivity.
  - assert (1 <= IZR k) by (apply IZR_le; lia). destruct (rnd_rel (IZR k * B2R size)) as [e2 [He2 E2]].
    { rewrite Rabs_pos_eq by lra. apply Rle_trans with (1 * (bpow radix2 (-530) * bpow radix2 (-1))).
      - rewrite Rmult_1_l, <- bpow_plus. apply bpow_le. lia.
      - change (bpow radix2 (-1)) with (/ 2). apply Rmult_le_compat; try lra. rewrite Es. apply Rmult_le_compat; lra. }
    exists (1 + e1), (1 + e2). split; [exact G1|]. split; [exact (factor _ He2)|]. split; [exact Es|]. rewrite Em, E2, Es. reflexivity.
Qed.
Lemma fours e f1 f2 f3 f4 : 0 < e <= / 1000000000000 -> 1 - e <= f1 <= 1 + e -> 1 - e <= f2 <= 1 + e -> 1 - e <= f3 <= 1 + e -> 1 - e <= f4 <= 1 + e ->
  1 - 5 * e <= f1 * f2 * f3 * f4 <= 1 + 5 * e.
Proof.
  intros He H1 H2 H3 H4.
  assert (A : (1 - e) * (1 - e) <= f1 * f2 <= (1 + e) * (1 + e)) by (split; apply Rmult_le_compat; lra).
  assert (B : (1 - e) * (1 - e) <= f3 * f4 <= (1 + e) * (1 + e)) by (split; apply Rmult_le_compat; lra).
  rewrite Rmult_assoc. set (a := f1 * f2) in *. set (b := f3 * f4) in *. clearbody a b.
  assert (C : (1 - e) * (1 - e) * ((1 - e) * (1 - e)) <= a * b <= (1 + e) * (1 + e) * ((1 + e) * (1 + e))) by (split; apply Rmult_le_compat; nra).
  assert (D1 : 1 - 4 * e <= (1 - e) * (1 - e) * ((1 - e) * (1 - e))).
  { assert (X : 1 - 2 * e <= (1 - e) * (1 - e)) by nra. apply Rle_trans with ((1 - 2 * e) * (1 - 2 * e)); [nra|]. apply Rmult_le_compat; lra. }
  assert (D2 : (1 + e) * (1 + e) * ((1 + e) * (1 + e)) <= 1 + 5 * e).
  { assert (X : (1 + e) * (1 + e) <= 1 + 21 / 10 * e) by nra. apply Rle_trans with ((1 + 21 / 10 * e) * (1 + 21 / 10 * e)); [apply Rmult_le_compat; nra | nra]. }
  lra.
Qed.
(** [k * size + size + lo], the upper edge of layer [k]. *)
Definition zedge (lo hi : f64) (n k : Z) : f64 :=
  let size := Bdiv mode_NE (Bminus mode_NE hi lo) (f64_of_Z n) in
  Bplus mode_NE (Bplus mode_NE (Bmult mode_NE (f64_of_Z k) size) size) lo.
Lemma zedge_err (lo hi : f64) (n k : Z) :
  is_finite lo = true -> is_finite hi = true -> Rabs (B2R lo) <= bpow radix2 480 -> Rabs (B2R hi) <= bpow radix2 480 ->
  bpow radix2 (-480) <= B2R hi - B2R lo -> (1 <= n <= 2 ^ 40)%Z -> (0 <= k < n)%Z ->
  is_finite (zedge lo hi n k) = true /\
  Rabs (B2R (zedge lo hi n k) - (B2R lo + (IZR k + 1) * ((B2R hi - B2R lo) / IZR n))) <= 8 * eps * (Rabs (B2R lo) + Rabs (B2R hi)).
Proof.
  intros Fl Fh Bl Bh Hb Hn Hk. assert (P := eps_pos). assert (Le := eps_le). assert (P4 := bpow_gt_0 radix2 (-480)). assert (N := b40 n Hn).
  set (b := B2R hi - B2R lo) in *. set (rc := Rabs (B2R lo) + Rabs (B2R hi)).
  assert (Brc : b <= rc) by (unfold b, rc; assert (X1 := Rle_abs (B2R hi)); assert (X2 := Rle_abs (- B2R lo)); rewrite Rabs_Ropp in X2; lra).
  assert (R481 : rc <= bpow radix2 481) by (unfold rc; replace 481%Z with (1 + 480)%Z by lia; rewrite bpow_plus; change (bpow radix2 1) with 2; lra).
  destruct (rnd_diff hi lo) as [e1 [He1 E1]]. assert (G1 := factor _ He1). fold b in E1.
  assert (FB : is_finite (Bminus mode_NE hi lo) = true /\ B2R (Bminus mode_NE hi lo) = rnd b).
  { destruct (minus_cases hi lo Fh Fl ltac:(unfold b in Hb; lra)) as [[_ [A B]]|[Big _]]; [auto|]. exfalso. fold b in Big.
    destruct (within_rnd b 481 ltac:(lia)) as [_ W]; [rewrite Rabs_pos_eq by lra; lra|]. rewrite Rabs_pos_eq in W by (apply rnd_nonneg; lra). lra. }
  destruct FB as [FB EB]. rewrite E1 in EB.
  assert (HB : bpow radix2 (-490) <= B2R (Bminus mode_NE hi lo) <= bpow radix2 490).
  { rewrite EB. split.
    - apply Rle_trans with (bpow radix2 (-480) * bpow radix2 (-1)); [rewrite <- bpow_plus; apply bpow_le; lia|]. change (bpow radix2 (-1)) with (/ 2). apply Rmult_le_compat; lra.
    - apply Rle_trans with (bpow radix2 481 * bpow radix2 1); [change (bpow radix2 1) with 2; apply Rmult_le_compat; lra|]. rewrite <- bpow_plus. apply bpow_le. lia. }
  unfold zedge. destruct (size_err _ n k FB HB Hn Hk) as [Fs [Fm [f2 [f3 [G2 [G3 [Es Em]]]]]]].
  set (size := Bdiv mode_NE (Bminus mode_NE hi lo) (f64_of_Z n)) in *. set (m := Bmult mode_NE (f64_of_Z k) size) in *. rewrite EB in Es, Em.
  assert (K0 : 0 <= IZR k) by (apply IZR_le; lia). assert (Kn : IZR k + 1 <= IZR n) by (rewrite <- plus_IZR; apply IZR_le; lia).
  set (h := b / IZR n). assert (Hh : h * IZR n = b) by (unfold h; field; lra).
  assert (h0 : 0 < h) by (unfold h; apply Rdiv_lt_0_compat; lra).
  replace (b * (1 + e1) / IZR n) with (h * (1 + e1)) in Es, Em by (unfold h; field; lra).
  destruct (rnd_sum (B2R m) (B2R size) (fmt_B2R m) (fmt_B2R size)) as [e4 [He4 E4]]. assert (G4 := factor _ He4).
  set (T := (IZR k + 1) * h). assert (T0 : 0 < T) by (unfold T; nra).
  assert (Tb : T <= b) by (rewrite <- Hh; unfold T; rewrite (Rmult_comm h); apply Rmult_le_compat_r; lra).
  assert (V2 : T * (1 - 5 * eps) <= (B2R m + B2R size) * (1 + e4) <= T * (1 + 5 * eps)).
  { rewrite Es, Em. replace ((IZR k * (h * (1 + e1) * f2) * f3 + h * (1 + e1) * f2) * (1 + e4)) with (IZR k * h * ((1 + e1) * f2 * f3 * (1 + e4)) + h * ((1 + e1) * f2 * 1 * (1 + e4))) by ring.
    assert (X1 := fours eps (1 + e1) f2 f3 (1 + e4) ltac:(lra) G1 G2 G3 G4). assert (X2 := fours eps (1 + e1) f2 1 (1 + e4) ltac:(lra) G1 G2 ltac:(lra) G4).
    set (x1 := (1 + e1) * f2 * f3 * (1 + e4)) in *. set (x2 := (1 + e1) * f2 * 1 * (1 + e4)) in *. clearbody x1 x2. unfold T.
    assert (Kh : 0 <= IZR k * h) by (apply Rmult_le_pos; lra).
    split; [assert (IZR k * h * (1 - 5 * eps) <= IZR k * h * x1) by (apply Rmult_le_compat_l; lra); assert (h * (1 - 5 * eps) <= h * x2) by (apply Rmult_le_compat_l; lra); lra
           |assert (IZR k * h * x1 <= IZR k * h * (1 + 5 * eps)) by (apply Rmult_le_compat_l; lra); assert (h * x2 <= h * (1 + 5 * eps)) by (apply Rmult_le_compat_l; lra); lra]. }
  destruct (within_rnd (B2R m + B2R size) 483 ltac:(lia)) as [_ W4].
  { assert (M0 : 0 <= B2R m + B2R size). { rewrite Es, Em. assert (0 <= h * (1 + e1) * f2) by (apply Rmult_le_pos; [apply Rmult_le_pos|]; lra). assert (0 <= IZR k * (h * (1 + e1) * f2) * f3) by (apply Rmult_le_pos; [apply Rmult_le_pos|]; lra). lra. }
    rewrite Rabs_pos_eq by exact M0.
    assert (X : (B2R m + B2R size) * / 2 <= T * (3 / 2)). { apply Rle_trans with ((B2R m + B2R size) * (1 + e4)); [apply Rmult_le_compat_l; lra|]. apply Rle_trans with (1 := proj2 V2). apply Rmult_le_compat_l; lra. }
    apply Rle_trans with (4 * bpow radix2 481); [lra|]. change 4 with (bpow radix2 2). rewrite <- bpow_plus. apply bpow_le. lia. }
  destruct (add_R m size Fm Fs W4) as [Fa Ea]. rewrite E4 in Ea. set (a := Bplus mode_NE m size) in *. rewrite <- Ea in V2.
  destruct (rnd_sum (B2R a) (B2R lo) (fmt_B2R a) (fmt_B2R lo)) as [e5 [He5 E5]].
  fold T. set (t := B2R lo + T). assert (Ht : Rabs t <= rc).
  { assert (B2R lo <= t <= B2R hi) by (unfold t, b in *; lra). unfold rc. apply Rabs_le. assert (Y1 := Rle_abs (B2R hi)). assert (Y2 := Rle_abs (- B2R lo)). rewrite Rabs_Ropp in Y2.
    assert (Y3 := Rabs_pos (B2R lo)). assert (Y4 := Rabs_pos (B2R hi)). lra. }
  assert (Dt : Rabs (B2R a + B2R lo - t) <= 5 * eps * rc).
  { replace (B2R a + B2R lo - t) with (B2R a - T) by (unfold t; ring). assert (5 * eps * T <= 5 * eps * rc) by (apply Rmult_le_compat_l; lra). apply Rabs_le. lra. }
  assert (R0 : 0 <= rc) by (unfold rc; assert (Y3 := Rabs_pos (B2R lo)); assert (Y4 := Rabs_pos (B2R hi)); lra).
  assert (Da : Rabs (B2R a + B2R lo) <= rc + 5 * eps * rc).
  { replace (B2R a + B2R lo) with ((B2R a + B2R lo - t) + t) by ring. apply Rle_trans with (1 := Rabs_triang _ _). lra. }
  assert (E10 : 5 * eps * rc <= / 10 * rc) by (apply Rmult_le_compat_r; lra).
  destruct (within_rnd (B2R a + B2R lo) 482 ltac:(lia)) as [_ W5].
  { apply Rle_trans with (1 := Da). replace 482%Z with (1 + 481)%Z by lia. rewrite bpow_plus. change (bpow radix2 1) with 2. lra. }
  destruct (add_R a lo Fa Fl W5) as [Fz Ez]. split; [exact Fz|]. rewrite Ez, E5.
  replace ((B2R a + B2R lo) * (1 + e5) - t) with ((B2R a + B2R lo - t) + e5 * (B2R a + B2R lo)) by ring.
  apply Rle_trans with (1 := Rabs_triang _ _). rewrite Rabs_mult.
  assert (Rabs e5 * Rabs (B2R a + B2R lo) <= eps * (2 * rc)) by (apply Rmult_le_compat; try apply Rabs_pos; lra). assert (0 <= eps * rc) by (apply Rmult_le_pos; lra). lra.
Qed.
(** [-PI + k * size + size], the upper edge of sector [k]. *)
Definition oedge (pi : f64) (n k : Z) : f64 :=
  let size := Bdiv mode_NE (Bmult mode_NE (f64_of_Z 2) pi) (f64_of_Z n) in
  Bplus mode_NE (Bplus mode_NE (Bopp pi) (Bmult mode_NE (f64_of_Z k) size)) size.
Lemma oedge_err (pi : f64) (n k : Z) : is_finite pi = true -> 3 <= B2R pi <= 4 -> (1 <= n <= 2 ^ 40)%Z -> (0 <= k < n)%Z ->
  is_finite (oedge pi n k) = true /\ Rabs (B2R (oedge pi n k) - (- B2R pi + (IZR k + 1) * (2 * B2R pi / IZR n))) <= 64 * eps.
Proof.
  intros Fp Hp Hn Hk. assert (P := eps_pos). assert (Le := eps_le). assert (N := b40 n Hn).
  destruct (of_Z_correct 2 ltac:(lia)) as [E2 F2].
  assert (B4 : bpow radix2 4 = 16) by (cbn; lra).
  destruct (within_rnd (2 * B2R pi) 4 ltac:(lia)) as [_ W0]; [rewrite Rabs_pos_eq by lra; rewrite B4; lra|].
  destruct (mul_R (f64_of_Z 2) pi F2 Fp) as [FB EB]; [rewrite E2; exact W0|]. rewrite E2 in EB.
  destruct (rnd_rel (2 * B2R pi)) as [e1 [He1 E1]]; [rewrite Rabs_pos_eq by lra; apply Rle_trans with (bpow radix2 0); [apply bpow_le; lia | cbn; lra]|]. assert (G1 := factor _ He1). rewrite E1 in EB.
  assert (HB : bpow radix2 (-490) <= B2R (Bmult mode_NE (f64_of_Z 2) pi) <= bpow radix2 490).
  { rewrite EB. split; [apply Rle_trans with (bpow radix2 0); [apply bpow_le; lia | cbn; nra] | apply Rle_trans with (bpow radix2 4); [rewrite B4; nra | apply bpow_le; lia]]. }
  unfold oedge. destruct (size_err _ n k FB HB Hn Hk) as [Fs [Fm [f2 [f3 [G2 [G3 [Es Em]]]]]]].
  set (size := Bdiv mode_NE (Bmult mode_NE (f64_of_Z 2) pi) (f64_of_Z n)) in *. set (m := Bmult mode_NE (f64_of_Z k) size) in *. rewrite EB in Es, Em.
  assert (K0 : 0 <= IZR k) by (apply IZR_le; lia). assert (Kn : IZR k + 1 <= IZR n) by (rewrite <- plus_IZR; apply IZR_le; lia).
  set (b := 2 * B2R pi) in *. set (h := b / IZR n). assert (Hh : h * IZR n = b) by (unfold h; field; lra).
  assert (h0 : 0 < h) by (unfold h; apply Rdiv_lt_0_compat; unfold b; lra).
  replace (b * (1 + e1) / IZR n) with (h * (1 + e1)) in Es, Em by (unfold h; field; lra).
  assert (Tb : IZR k * h + h <= b) by (replace (IZR k * h + h) with ((IZR k + 1) * h) by ring; rewrite <- Hh, (Rmult_comm h); apply Rmult_le_compat_r; lra).
  assert (T8 : (IZR k + 1) * h <= 8) by (apply Rle_trans with b; [rewrite <- Hh, (Rmult_comm h); apply Rmult_le_compat_r; lra | unfold b; lra]).
  assert (Kh : 0 <= IZR k * h) by (apply Rmult_le_pos; lra).
  assert (Ms : Rabs (B2R m - IZR k * h) <= 5 * eps * (IZR k * h)).
  { rewrite Em. assert (X := fours eps (1 + e1) f2 f3 1 ltac:(lra) G1 G2 G3 ltac:(lra)).
    replace (IZR k * (h * (1 + e1) * f2) * f3 - IZR k * h) with (IZR k * h * ((1 + e1) * f2 * f3 * 1 - 1)) by ring. rewrite Rabs_mult, (Rabs_pos_eq (IZR k * h)) by exact Kh.
    rewrite Rmult_comm. apply Rmult_le_compat_r; [exact Kh|]. apply Rabs_le. lra. }
  assert (Ss : Rabs (B2R size - h) <= 5 * eps * h).
  { rewrite Es. assert (X := fours eps (1 + e1) f2 1 1 ltac:(lra) G1 G2 ltac:(lra) ltac:(lra)).
    replace (h * (1 + e1) * f2 - h) with (h * ((1 + e1) * f2 * 1 * 1 - 1)) by ring. rewrite Rabs_mult, (Rabs_pos_eq h) by lra.
    rewrite Rmult_comm. apply Rmult_le_compat_r; [lra|]. apply Rabs_le. lra. }
  assert (Sm : 5 * eps * (IZR k * h) + 5 * eps * h <= 40 * eps) by (replace (5 * eps * (IZR k * h) + 5 * eps * h) with (5 * eps * ((IZR k + 1) * h)) by ring; nra).
  assert (E0 : 0 <= 5 * eps * (IZR k * h)) by (apply Rmult_le_pos; lra). assert (E00 : 0 <= 5 * eps * h) by (apply Rmult_le_pos; lra).
  apply Rabs_le_inv in Ms, Ss.
  assert (Fo : is_finite (Bopp pi) = true) by now rewrite is_finite_Bopp.
  destruct (rnd_sum (B2R (Bopp pi)) (B2R m) (fmt_B2R (Bopp pi)) (fmt_B2R m)) as [e4 [He4 E4]]. rewrite B2R_Bopp in E4.
  assert (A1 : Rabs (- B2R pi + B2R m) <= 5) by (apply Rabs_le; unfold b in *; lra).
  destruct (within_rnd (- B2R pi + B2R m) 4 ltac:(lia)) as [_ W4]; [rewrite B4; lra|].
  destruct (add_R (Bopp pi) m Fo Fm) as [Fa Ea]; [rewrite B2R_Bopp; exact W4|]. rewrite B2R_Bopp, E4 in Ea. set (a := Bplus mode_NE (Bopp pi) m) in *.
  assert (D4 : Rabs (e4 * (- B2R pi + B2R m)) <= eps * 5) by (rewrite Rabs_mult; apply Rmult_le_compat; try apply Rabs_pos; lra).
  apply Rabs_le_inv in D4.
  destruct (rnd_sum (B2R a) (B2R size) (fmt_B2R a) (fmt_B2R size)) as [e5 [He5 E5]].
  assert (Ta : B2R a + B2R size - (- B2R pi + (IZR k + 1) * h) = (B2R m - IZR k * h) + (B2R size - h) + e4 * (- B2R pi + B2R m)) by (rewrite Ea; ring).
  assert (A2 : Rabs (B2R a + B2R size) <= 5).
  { assert (- B2R pi <= - B2R pi + (IZR k + 1) * h <= B2R pi) by (assert ((IZR k + 1) * h <= b) by (rewrite <- Hh, (Rmult_comm h); apply Rmult_le_compat_r; lra); unfold b in *; lra). apply Rabs_le. lra. }
  destruct (within_rnd (B2R a + B2R size) 4 ltac:(lia)) as [_ W5]; [rewrite B4; lra|].
  destruct (add_R a size Fa Fs W5) as [Fz Ez]. split; [exact Fz|]. rewrite Ez, E5.
  assert (D5 : Rabs (e5 * (B2R a + B2R size)) <= eps * 5) by (rewrite Rabs_mult; apply Rmult_le_compat; try apply Rabs_pos; lra).
  apply Rabs_le_inv in D5. fold b. fold h. apply Rabs_le. lra.
Qed.
