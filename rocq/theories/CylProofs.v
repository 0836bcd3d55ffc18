(** * Cylindrical grids in ideal arithmetic (proofs only). *)
From Coq Require Import Reals List NArith ZArith Lia Lra Psatz Bool ZifyBool ZifyN.
From Flocq Require Import Core.Core.
From Verif Require Import Base BaseFacts Num RFacts NDArray GridModel GridSpec GridFacts CartProofs CartR.
Local Open Scope R_scope.

Lemma half_extent_R lo hi : lo < hi -> half_extent lo hi ((lo + hi) / 2) = (hi - lo) / 2.
Proof.
  intros H. unfold half_extent. cbn [nabs nsub num_R].
  destruct (nltb _ _); [rewrite Rabs_pos_eq by lra | rewrite Rabs_left1 by lra]; lra.
Qed.
Lemma outer_radius_R x y : outer_radius x y = Rmax x y.
Proof.
  unfold outer_radius. destruct (nltb y x) eqn:E.
  - apply Rltb_true in E. now rewrite Rmax_left by lra.
  - apply Rltb_false in E. now rewrite Rmax_right by lra.
Qed.

(** Ring [i] counted from a starting index [k]. *)
Lemma cyl_rings_nth vol n k i : 0 <= vol -> (i < n)%nat ->
  nth_error (cyl_rings n vol (sqrt (INR k * vol))) i =
  Some (sqrt (INR (k + i) * vol), sqrt (INR (k + i + 1) * vol)).
Proof.
  intros Hv. revert k i; induction n as [|n IH]; intros k i Hi; [lia|].
  assert (Hk : 0 <= INR k * vol) by (apply Rmult_le_pos; [apply pos_INR | exact Hv]).
  cbn [cyl_rings]. cbn [nsqrt nadd nmul num_R]. rewrite sqrt_sqrt by exact Hk.
  replace (vol + INR k * vol) with (INR (k + 1) * vol) by (rewrite plus_INR; cbn [INR]; lra).
  destruct i as [|i]; cbn [nth_error].
  - rewrite Nat.add_0_r. reflexivity.
  - rewrite IH by lia. do 2 f_equal; f_equal; f_equal; f_equal; lia.
Qed.
Lemma cyl_rings_length {F} {NF : Num F} n (vol inner : F) : length (cyl_rings n vol inner) = n.
Proof. revert inner; induction n as [|n IH]; intros; cbn; [reflexivity | now rewrite IH]. Qed.

Lemma cyl_rings_0 vol n i : 0 <= vol -> (i < n)%nat ->
  nth_error (cyl_rings n vol 0) i = Some (sqrt (INR i * vol), sqrt (INR (i + 1) * vol)).
Proof.
  intros Hv Hi. assert (H := cyl_rings_nth vol n 0 i Hv Hi).
  cbn [INR] in H. rewrite Rmult_0_l, sqrt_0 in H. exact H.
Qed.

(** The last ring containing [r]. *)
Lemma ring_of_spec (l : list (R * R)) k r acc :
  (forall j, ring_of l k r acc = Some j ->
     acc = Some j \/ (exists i q, j = (k + N.of_nat i)%N /\ nth_error l i = Some q /\ fst q <= r <= snd q)) /\
  (forall i q, nth_error l i = Some q -> fst q <= r <= snd q ->
     exists j, ring_of l k r acc = Some j /\ (k + N.of_nat i <= j)%N) /\
  (acc <> None -> ring_of l k r acc <> None) /\
  (forall j j', acc = Some j -> (j <= k)%N -> ring_of l k r acc = Some j' -> (j <= j')%N).
Proof.
  revert k acc; induction l as [|q l IH]; intros k acc; cbn [ring_of].
  - split; [auto|]. split; [intros [|i] q H; discriminate|]. split; [auto|].
    intros j j' -> _ [= ->]. lia.
  - set (acc' := if (nleb (fst q) r && nleb r (snd q))%bool then Some k else acc).
    destruct (IH (k + 1)%N acc') as [H1 [H2 [H3 H4]]].
    assert (D : (fst q <= r <= snd q /\ acc' = Some k) \/ (~ (fst q <= r <= snd q) /\ acc' = acc)).
    { unfold acc'. destruct (nleb (fst q) r && nleb r (snd q))%bool eqn:E.
      - left. apply andb_true_iff in E. rewrite !Rleb_true in E. auto.
      - right. split; [|reflexivity]. intros [A B]. apply andb_false_iff in E.
        rewrite !Rleb_false in E. lra. }
    split; [|split; [|split]].
    + intros j Hj. destruct (H1 j Hj) as [Ha | [i [q' [-> [Hn Hq]]]]].
      * destruct D as [[Hq E] | [_ E]]; rewrite E in Ha.
        -- injection Ha as <-. right. exists 0%nat, q. split; [lia|]. auto.
        -- auto.
      * right. exists (S i), q'. split; [lia|]. auto.
    + intros [|i] q' Hn Hq; cbn in Hn.
      * injection Hn as <-. destruct D as [[_ E] | [N _]]; [|contradiction].
        destruct (ring_of l (k + 1)%N r acc') as [j|] eqn:Ej.
        -- exists j. split; [reflexivity|]. assert (k <= j)%N by (eapply (H4 k j); [exact E | lia | reflexivity]). lia.
        -- exfalso. apply H3; [congruence | reflexivity].
      * destruct (H2 i q' Hn Hq) as [j [Ej Hj]]. exists j. split; [exact Ej | lia].
    + intros Ha. apply H3. destruct D as [[_ ->] | [_ ->]]; congruence.
    + intros j j' -> Hle Hj'. destruct D as [[_ E] | [_ E]].
      * assert (k <= j')%N by (eapply (H4 k j'); [exact E | lia | exact Hj']). lia.
      * eapply (H4 j j'); [exact E | lia | exact Hj'].
Qed.

Lemma ring_lookup n R r : (1 <= n)%nat -> 0 < R -> 0 <= r <= R ->
  exists i, ring_of (cyl_rings n (R * R / INR n) 0) 0 r None = Some (N.of_nat i) /\ (i < n)%nat /\
    sqrt (INR i * (R * R / INR n)) <= r <= sqrt (INR (i + 1) * (R * R / INR n)) /\
    forall j, (j < n)%nat -> sqrt (INR j * (R * R / INR n)) <= r <= sqrt (INR (j + 1) * (R * R / INR n)) -> (j <= i)%nat.
Proof.
  intros Hn HR Hr. assert (Pn : 0 < INR n) by (apply lt_0_INR; lia).
  set (vol := R * R / INR n). assert (Pv : 0 < vol) by (apply Rdiv_lt_0_compat; nra).
  assert (Ev : INR n * vol = R * R) by (unfold vol; field; lra).
  destruct (ring_of_spec (cyl_rings n vol 0) 0 r None) as [H1 [H2 _]].
  assert (Ex : exists i, (i < n)%nat /\ sqrt (INR i * vol) <= r <= sqrt (INR (i + 1) * vol)).
  { assert (G : forall m, (m <= n)%nat -> (exists i, (i < m)%nat /\ sqrt (INR i * vol) <= r <= sqrt (INR (i + 1) * vol)) \/ (m = 0%nat \/ sqrt (INR m * vol) < r)).
    { induction m as [|m IHm]; intros Hm; [auto|].
      destruct (IHm ltac:(lia)) as [[i [A B]] | H]; [left; exists i; split; [lia | exact B]|].
      destruct (Rle_dec r (sqrt (INR (m + 1) * vol))) as [L|L].
      - left. exists m. split; [lia|]. split; [|exact L].
        destruct H as [-> | H]; [|lra]. cbn [INR]. rewrite Rmult_0_l, sqrt_0. lra.
      - right. right. replace (S m) with (m + 1)%nat by lia. lra. }
    destruct (G n ltac:(lia)) as [E | [E | E]]; [exact E | lia | exfalso].
    rewrite Ev, sqrt_square in E by lra. lra. }
  destruct Ex as [i [Hi Hb]].
  destruct (H2 i _ (cyl_rings_0 vol n i ltac:(lra) Hi) Hb) as [j [Ej Hj]].
  destruct (H1 j Ej) as [X | [i' [q [-> [Hq Hr']]]]]; [discriminate|].
  assert (Hi' : (i' < n)%nat).
  { rewrite <- (cyl_rings_length n vol 0). apply nth_error_Some. congruence. }
  rewrite (cyl_rings_0 vol n i' ltac:(lra) Hi') in Hq. injection Hq as <-. cbn [fst snd] in Hr'.
  exists i'. split; [rewrite Ej; f_equal; lia|]. split; [exact Hi'|]. split; [exact Hr'|].
  intros k Hk Hkb. destruct (H2 k _ (cyl_rings_0 vol n k ltac:(lra) Hk) Hkb) as [j' [Ej' Hj']].
  rewrite Ej in Ej'. injection Ej' as <-. lia.
Qed.

(** ** Nearest edge *)
Lemma argmin_from_R (l : list R) k best cur j :
  argmin_from l k best cur = Some j ->
  (j = best /\ forall i x, nth_error l i = Some x -> cur <= x) \/
  (exists i x, j = (k + N.of_nat i)%N /\ nth_error l i = Some x /\ x < cur /\
     (forall i' x', nth_error l i' = Some x' -> x <= x') /\
     (forall i' x', (i' < i)%nat -> nth_error l i' = Some x' -> x < x')).
Proof.
  revert k best cur; induction l as [|y l IH]; intros k best cur H; cbn in H.
  - injection H as <-. left. split; [reflexivity|]. intros [|i] x Hx; discriminate.
  - destruct (Rlt_dec y cur) as [L|L].
    + destruct (IH _ _ _ H) as [[-> Hm] | [i [x [-> [Hx [Hlt [Hm Hf]]]]]]].
      * right. exists 0%nat, y. split; [lia|]. split; [reflexivity|]. split; [exact L|]. split.
        -- intros [|i'] x' Hx'; cbn in Hx'; [injection Hx' as <-; lra | eapply Hm; eauto].
        -- intros i' x' Hi'. lia.
      * right. exists (S i), x. split; [lia|]. split; [exact Hx|]. split; [lra|]. split.
        -- intros [|i'] x' Hx'; cbn in Hx'; [injection Hx' as <-; lra | eapply Hm; eauto].
        -- intros [|i'] x' Hi' Hx'; cbn in Hx'; [injection Hx' as <-; lra | eapply (Hf i'); [lia | exact Hx']].
    + destruct (IH _ _ _ H) as [[-> Hm] | [i [x [-> [Hx [Hlt [Hm Hf]]]]]]].
      * left. split; [reflexivity|]. intros [|i'] x' Hx'; cbn in Hx'; [injection Hx' as <-; lra | eapply Hm; eauto].
      * right. exists (S i), x. split; [lia|]. split; [exact Hx|]. split; [exact Hlt|]. split.
        -- intros [|i'] x' Hx'; cbn in Hx'; [injection Hx' as <-; lra | eapply Hm; eauto].
        -- intros [|i'] x' Hi' Hx'; cbn in Hx'; [injection Hx' as <-; lra | eapply (Hf i'); [lia | exact Hx']].
Qed.
Lemma argmin_from_some (l : list R) k best cur : exists j, argmin_from l k best cur = Some j.
Proof.
  revert k best cur; induction l as [|y l IH]; intros; cbn; [eauto|]. destruct (Rlt_dec y cur); apply IH.
Qed.

(** First index of a minimum. *)
Lemma argmin_R (l : list R) : l <> [] -> exists i x, argmin l = Some (N.of_nat i) /\ nth_error l i = Some x /\
  (forall i' x', nth_error l i' = Some x' -> x <= x') /\
  (forall i' x', (i' < i)%nat -> nth_error l i' = Some x' -> x < x').
Proof.
  destruct l as [|y l]; [easy|]. intros _. unfold argmin.
  destruct (argmin_from_some (y :: l) 0 0 y) as [j Ej].
  destruct (argmin_from_R _ _ _ _ _ Ej) as [[-> Hm] | [i [x [-> [Hx [_ [Hm Hf]]]]]]].
  - exists 0%nat, y. split; [exact Ej|]. split; [reflexivity|]. split; [exact Hm|]. intros; lia.
  - exists i, x. split; [rewrite Ej; f_equal; lia|]. auto.
Qed.

(** The index of the nearest of the [n] upper edges [lo + (k+1)*h]. *)
Lemma nearest_edge (n : nat) (edges : list R) (lo h z : R) : (1 <= n)%nat -> 0 < h ->
  length edges = n -> (forall k, (k < n)%nat -> nth_error edges k = Some (lo + (INR k + 1) * h)) ->
  exists i, argmin (map (fun e => nabs (nsub e z)) edges) = Some (N.of_nat i) /\ (i < n)%nat /\
    forall t, (t < n)%nat -> lo + INR t * h <= z < lo + (INR t + 1) * h ->
      i = if Nat.eqb t 0 then 0%nat else if Rle_dec (z - (lo + INR t * h)) (h / 2) then (t - 1)%nat else t.
Proof.
  intros Hn Hh Hl He.
  destruct (argmin_R (map (fun e => nabs (nsub e z)) edges)) as [i [x [Ei [Hx [Hm Hf]]]]].
  { destruct edges; cbn in *; [lia | discriminate]. }
  assert (Hi : (i < n)%nat).
  { rewrite <- Hl, <- (map_length (fun e => nabs (nsub e z)) edges). apply nth_error_Some. congruence. }
  exists i. split; [exact Ei|]. split; [exact Hi|]. intros t Ht Hz.
  assert (Hv : forall k, (k < n)%nat -> nth_error (map (fun e => nabs (nsub e z)) edges) k = Some (Rabs (lo + (INR k + 1) * h - z))).
  { intros k Hk. rewrite nth_error_map, He by exact Hk. reflexivity. }
  rewrite Hv in Hx by exact Hi. injection Hx as <-.
  assert (D : forall k, (k < n)%nat -> Rabs (lo + (INR i + 1) * h - z) <= Rabs (lo + (INR k + 1) * h - z)).
  { intros k Hk. apply (Hm k). now apply Hv. }
  assert (D' : forall k, (k < i)%nat -> Rabs (lo + (INR i + 1) * h - z) < Rabs (lo + (INR k + 1) * h - z)).
  { intros k Hk. apply (Hf k); [exact Hk | apply Hv; lia]. }
  clear Hm Hf Hv Ei He.
  (* i is t or t-1 *)
  assert (U : (i <= t)%nat).
  { destruct (le_lt_dec i t) as [?|L]; [assumption|]. exfalso.
    specialize (D' t L). assert (INR t + 1 <= INR i) by (rewrite <- S_INR; apply le_INR; lia).
    rewrite !Rabs_pos_eq in D' by nra. nra. }
  assert (Lw : (t <= i + 1)%nat).
  { destruct (le_lt_dec t (i + 1)) as [?|L]; [assumption|]. exfalso.
    specialize (D (t - 1)%nat ltac:(lia)).
    assert (INR i + 2 <= INR t) by (replace 2 with (INR 2) by reflexivity; rewrite <- plus_INR; apply le_INR; lia).
    rewrite minus_INR in D by lia. change (INR 1) with 1 in D. rewrite !Rabs_left1 in D by nra. nra. }
  destruct (Nat.eqb_spec t 0) as [->|Ht0]; [lia|].
  assert (T1 : INR (t - 1) = INR t - 1) by (rewrite minus_INR by lia; reflexivity).
  destruct (Rle_dec (z - (lo + INR t * h)) (h / 2)) as [C|C].
  - assert (Q : (i = t \/ i = t - 1)%nat) by lia. destruct Q as [-> | ->]; [|reflexivity]. exfalso.
    specialize (D' (t - 1)%nat ltac:(lia)). rewrite T1 in D'.
    rewrite (Rabs_pos_eq (lo + (INR t + 1) * h - z)) in D' by lra. rewrite Rabs_left1 in D' by lra. lra.
  - assert (Q : (i = t \/ i = t - 1)%nat) by lia. destruct Q as [-> | ->]; [reflexivity|]. exfalso.
    specialize (D t Ht). rewrite T1 in D.
    rewrite (Rabs_pos_eq (lo + (INR t + 1) * h - z)) in D by lra. rewrite Rabs_left1 in D by lra. lra.
Qed.

Section Cyl.
  Context {TF : Trig R}.

  Lemma cyl_new_val cells x0 x1 y0 y1 z0 z1 g :
    cyl_new cells (ThreeD ((x0, x1), (y0, y1), (z0, z1))) true = Val g ->
    exists y, geo g = Cyl y /\ yc_cells y = cells /\
      yc_radius y = Rmax (half_extent x0 x1 ((x0 + x1) / 2)) (half_extent y0 y1 ((y0 + y1) / 2)) /\
      yc_r y = cyl_rings (N.to_nat (fst (fst cells))) (yc_radius y * yc_radius y / NR (fst (fst cells))) 0 /\
      yc_rmean y = map (fun r => (fst r + snd r) / 2) (yc_r y) /\
      yc_o y = cyl_oedges (snd (fst cells)) /\ yc_z y = cyl_zedges (snd cells) z0 z1 /\
      yc_center y = ((x0 + x1) / 2, (y0 + y1) / 2, (z0 + z1) / 2) /\
      yc_lim y = ((0, yc_radius y), (- npi, npi), (z0, z1)) /\
      data g = zeros3 cells /\ weight g = zeros3 cells.
  Proof.
    unfold cyl_new. cbn [negb]. destruct cells as [[nr no] nz]. intros [= <-].
    eexists. split; [reflexivity|]. cbn [yc_cells yc_radius yc_r yc_rmean yc_o yc_z yc_center yc_lim fst snd data weight].
    split; [reflexivity|]. rewrite outer_radius_R. split; [reflexivity|]. repeat (split; [reflexivity|]). reflexivity.
  Qed.

  Lemma zedges_nth n lo hi k : (k < N.to_nat n)%nat ->
    nth_error (cyl_zedges n lo hi) k = Some (lo + (INR k + 1) * ((hi - lo) / NR n)).
  Proof.
    intros H. unfold cyl_zedges. rewrite nth_error_map, range_nth_error by lia. cbn [option_map]. f_equal.
    unfold nofN. cbn [nof nadd nmul ndiv nsub num_R]. rewrite N.add_0_l, nat_N_Z, <- INR_IZR_INZ. unfold NR. lra.
  Qed.
  Lemma zedges_length {F} {NF : Num F} n (lo hi : F) : length (cyl_zedges n lo hi) = N.to_nat n.
  Proof. unfold cyl_zedges. rewrite map_length, range_length. f_equal. lia. Qed.
  Lemma oedges_nth n k : (k < N.to_nat n)%nat ->
    nth_error (cyl_oedges n) k = Some (- npi + (INR k + 1) * ((npi - - npi) / NR n)).
  Proof.
    intros H. unfold cyl_oedges. rewrite nth_error_map, range_nth_error by lia. cbn [option_map]. f_equal.
    unfold nofN. cbn [nof nadd nmul ndiv nsub nneg num_R]. rewrite N.add_0_l, nat_N_Z, <- INR_IZR_INZ.
    change (@n2 R num_R) with 2. unfold NR. lra.
  Qed.
  Lemma oedges_length n : length (cyl_oedges (F := R) n) = N.to_nat n.
  Proof. unfold cyl_oedges. rewrite map_length, range_length. f_equal. lia. Qed.
End Cyl.
