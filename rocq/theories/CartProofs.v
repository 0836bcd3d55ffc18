(** * Cartesian grids: cell lookup and accumulation (proofs only). *)
From Coq Require Import Reals List NArith ZArith Lia Lra Bool ZifyBool ZifyN.
From Flocq Require Import Core.Core IEEE754.BinarySingleNaN.
From Verif Require Import Base BaseFacts Num F64Facts RFacts NDArray GridModel GridSpec GridFacts.

(** ** Specification vocabulary *)


Lemma cart_inside_f64 (c : cart_geom f64) (p : pos3 f64) :
  cart_inside c p = true <-> in_box (cc_lim c) p.
Proof.
  unfold cart_inside, in_box, within, in_interval.
  destruct p as [[p0 p1] p2], (cc_lim c) as [[l0 l1] l2]. cbn [nleb nisnan num_f64].
  rewrite <- !andb_true_iff.
  destruct (is_nan p0 || is_nan p1 || is_nan p2) eqn:E.
  - split; [discriminate|]. rewrite !andb_true_iff. intros [[H0 _] [[H1 _] [H2 _]]].
    apply Bleb_not_nan_r in H0, H1, H2. rewrite H0, H1, H2 in E. discriminate.
  - rewrite !andb_assoc. reflexivity.
Qed.

Lemma cart_axis_id_f64 bld n lo hi p : (1 <= n)%N ->
  cart_axis_id bld n (lo, hi) p = Val (axis_index lo hi p (Z.of_N (n - 1))).
Proof. intros H. unfold cart_axis_id. rewrite usub_ge by lia. reflexivity. Qed.

Lemma cart_axis_bound bld n l p : (1 <= n <= 2 ^ 53 + 1)%N -> within l p ->
  exists i, cart_axis_id (F := f64) bld n l p = Val i /\ (i < n)%N.
Proof.
  destruct l as [lo hi]. intros Hn [H1 H2]. cbn [fst snd nleb num_f64] in H1, H2.
  rewrite cart_axis_id_f64 by lia. eexists. split; [reflexivity|].
  assert (B := axis_index_bound lo hi p (Z.of_N (n - 1)) ltac:(lia) H1 H2 (Bleb_trans _ _ _ H1 H2)).
  lia.
Qed.

Lemma cart_cell_id_in (bld : build) (c : cart_geom f64) p :
  sized (cc_cells c) -> in_box (cc_lim c) p ->
  exists i, cart_cell_id bld c p = Val (Some i) /\ inb3 (cc_cells c) i = true.
Proof.
  intros Hs Hin. unfold cart_cell_id.
  rewrite (proj2 (cart_inside_f64 c p) Hin).
  destruct p as [[p0 p1] p2], (cc_cells c) as [[a b] d], (cc_lim c) as [[l0 l1] l2].
  unfold sized, in_box in Hs, Hin. destruct Hs as [S0 [S1 S2]], Hin as [I0 [I1 I2]].
  destruct (cart_axis_bound bld a l0 p0 S0 I0) as [i [-> Li]].
  destruct (cart_axis_bound bld b l1 p1 S1 I1) as [j [-> Lj]].
  destruct (cart_axis_bound bld d l2 p2 S2 I2) as [k [-> Lk]].
  cbn. exists (i, j, k). split; [reflexivity|]. now apply inb3_lt.
Qed.

Lemma cart_cell_id_out (bld : build) (c : cart_geom f64) p :
  ~ in_box (cc_lim c) p -> cart_cell_id bld c p = Val None.
Proof.
  intros H. unfold cart_cell_id. destruct (cart_inside c p) eqn:E; [|reflexivity].
  apply cart_inside_f64 in E. contradiction.
Qed.

Lemma cart_cell_id_mono bld (c : cart_geom f64) p q i j :
  sized (cc_cells c) -> in_box (cc_lim c) p -> in_box (cc_lim c) q -> le3 p q ->
  cart_cell_id bld c p = Val (Some i) -> cart_cell_id bld c q = Val (Some j) -> idle3 i j.
Proof.
  intros Hs Hp Hq Hle. unfold cart_cell_id.
  rewrite (proj2 (cart_inside_f64 c p) Hp), (proj2 (cart_inside_f64 c q) Hq).
  destruct p as [[p0 p1] p2], q as [[q0 q1] q2], (cc_cells c) as [[a b] d],
    (cc_lim c) as [[[x0 x1] [y0 y1]] [z0 z1]].
  unfold sized, in_box, within, le3 in *. cbn [fst snd nleb num_f64] in Hp, Hq, Hle.
  destruct Hs as [S0 [S1 S2]], Hle as [L0 [L1 L2]].
  destruct Hp as [[A0 A0'] [[A1 A1'] [A2 A2']]], Hq as [[C0 C0'] [[C1 C1'] [C2 C2']]].
  assert (N0 : (1 <= a)%N) by (apply S0). assert (N1 : (1 <= b)%N) by (apply S1).
  assert (N2 : (1 <= d)%N) by (apply S2).
  rewrite (cart_axis_id_f64 bld a x0 x1 p0 N0), (cart_axis_id_f64 bld b y0 y1 p1 N1),
    (cart_axis_id_f64 bld d z0 z1 p2 N2), (cart_axis_id_f64 bld a x0 x1 q0 N0),
    (cart_axis_id_f64 bld b y0 y1 q1 N1), (cart_axis_id_f64 bld d z0 z1 q2 N2).
  cbn [bind]. intros [= <-] [= <-].
  assert (R0 : (0 <= Z.of_N (a - 1) <= 2 ^ 53)%Z) by (clear - S0; lia).
  assert (R1 : (0 <= Z.of_N (b - 1) <= 2 ^ 53)%Z) by (clear - S1; lia).
  assert (R2 : (0 <= Z.of_N (d - 1) <= 2 ^ 53)%Z) by (clear - S2; lia).
  unfold idle3. repeat split; apply axis_index_mono; assumption.
Qed.

(** ** Generic consequences of a successful or failed lookup *)
Section Gen.
  Context {F : Type} {NF : Num F} {TF : Trig F}.

  Lemma add_value_out bld (g : grid F) p v : cell_id bld g p = Val None -> add_value bld g p v = Val g.
  Proof. unfold add_value. now intros ->. Qed.
  Lemma insert_out bld (g : grid F) p v : cell_id bld g p = Val None -> insert bld g p v = Val g.
  Proof. unfold insert. now intros ->. Qed.
  Lemma get_value_out bld (g : grid F) p : cell_id bld g p = Val None -> get_value bld g p = Val nnan.
  Proof. unfold get_value. now intros ->. Qed.

  Lemma add_value_in bld (g : grid F) p v c : wf_grid g ->
    cell_id bld g p = Val (Some c) -> inb3 (geom_cells (geo g)) c = true ->
    exists g', add_value bld g p v = Val g' /\
      only_cell g g' c (nadd (at3 (data g) c) v) (nadd (at3 (weight g) c) n1).
  Proof.
    intros [W1 W2] Hc Hin. unfold add_value. rewrite Hc. cbn [bind].
    destruct (bump_val g c v n1) as [g' [E O]]; [congruence | congruence|].
    exists g'. split; [|exact O]. destruct (geo g) as [cg|y]; [|exact E].
    cbn in Hin. now rewrite Hin.
  Qed.

  Lemma insert_in bld (g : grid F) p v c : wf_grid g ->
    cell_id bld g p = Val (Some c) -> inb3 (geom_cells (geo g)) c = true ->
    exists g', insert bld g p v = Val g' /\ only_cell g g' c v (at3 (weight g) c).
  Proof.
    intros [W1 W2] Hc Hin. unfold insert, set3. rewrite Hc. cbn [bind].
    rewrite W1, Hin. cbn [bind]. eexists. split; [reflexivity|].
    unfold only_cell, with_data. cbn [geo data weight sh3 at3]. rewrite id3_eqb_refl.
    repeat split; try reflexivity; try congruence.
    - intros; destruct (id3_eqb c c') eqn:E; [apply id3_eqb_eq in E; congruence | reflexivity].
  Qed.

  Lemma get_value_in bld (g : grid F) p c : wf_grid g ->
    cell_id bld g p = Val (Some c) -> inb3 (geom_cells (geo g)) c = true ->
    get_value bld g p = Val (at3 (data g) c).
  Proof.
    intros [W1 _] Hc Hin. unfold get_value, get3. rewrite Hc. cbn [bind]. now rewrite W1, Hin.
  Qed.



  (** All lookups either fail or succeed within bounds. *)
  Definition lookups_ok (bld : build) (ge : geom F) : Prop :=
    forall p, geom_cell_id bld ge p = Val None \/
      exists c, geom_cell_id bld ge p = Val (Some c) /\ inb3 (geom_cells ge) c = true.

  Lemma hit_values_cons bld ge c p v h :
    hit_values bld ge c ((p, v) :: h) =
    match geom_cell_id bld ge p with
    | Val (Some c') => if id3_eqb c' c then v :: hit_values bld ge c h else hit_values bld ge c h
    | _ => hit_values bld ge c h
    end.
  Proof.
    unfold hit_values. cbn [filter]. unfold hits at 1. cbn [fst].
    destruct (geom_cell_id bld ge p) as [[c'|]|]; try reflexivity.
    destruct (id3_eqb c' c); reflexivity.
  Qed.

  Lemma add_all_spec bld (h : list (pos3 F * F)) (g : grid F) : wf_grid g -> lookups_ok bld (geo g) ->
    exists g', add_all bld h g = Val g' /\ wf_grid g' /\ geo g' = geo g /\
      forall c, at3 (data g') c = fold_left nadd (hit_values bld (geo g) c h) (at3 (data g) c) /\
                at3 (weight g') c = fold_left (fun w _ => nadd w n1) (hit_values bld (geo g) c h) (at3 (weight g) c).
  Proof.
    revert g; induction h as [|[p v] h IH]; intros g W L.
    - exists g. split; [reflexivity|]. split; [exact W|]. split; [reflexivity|]. intros c. split; reflexivity.
    - unfold add_all. cbn [mfold fst snd]. destruct (L p) as [Hn | [c [Hc Hin]]].
      + rewrite add_value_out by exact Hn. cbn [bind].
        destruct (IH g W L) as [g' [E [W' [G' S]]]]. exists g'.
        split; [exact E|]. split; [exact W'|]. split; [exact G'|]. intros c.
        rewrite hit_values_cons, Hn. apply S.
      + destruct (add_value_in bld g p v c W Hc Hin) as [g1 [E1 O]]. rewrite E1. cbn [bind].
        assert (G1 : geo g1 = geo g) by apply O.
        destruct (IH g1) as [g' [E [W' [G' S]]]].
        { eapply only_cell_wf; eauto. } { rewrite G1. exact L. }
        exists g'. split; [exact E|]. split; [exact W'|]. split; [congruence|]. intros c0.
        destruct (S c0) as [S1 S2]. rewrite G1 in S1, S2. rewrite S1, S2, hit_values_cons, Hc.
        destruct O as [_ [_ [_ [O1 [O2 O3]]]]].
        destruct (id3_eqb c c0) eqn:Ec.
        * apply id3_eqb_eq in Ec. subst c0. cbn [fold_left]. rewrite O1, O2. auto.
        * apply id3_eqb_neq in Ec. destruct (O3 c0) as [Q1 Q2]; [congruence|]. rewrite Q1, Q2. auto.
  Qed.
End Gen.

(** ** f64 *)
Section F64.
  Context {TF : Trig f64}.

  Lemma cart_lookups_ok bld (c : cart_geom f64) : sized (cc_cells c) -> lookups_ok bld (Cart c).
  Proof.
    intros Hs p. cbn.
    destruct (cart_inside c p) eqn:E.
    - right. apply cart_inside_f64 in E. apply cart_cell_id_in; assumption.
    - left. apply cart_cell_id_out. rewrite <- cart_inside_f64. congruence.
  Qed.

  (** Counting by repeated +1.0 is exact up to 2^53. *)
  Lemma count_exact {A} (l : list A) (w : f64) (k : N) :
    is_finite w = true -> B2R w = IZR (Z.of_N k) -> (k + vlen l <= 2 ^ 53)%N ->
    is_finite (fold_left (fun w _ => nadd w n1) l w) = true /\
    B2R (fold_left (fun w (_ : A) => nadd w n1) l w) = IZR (Z.of_N (k + vlen l)).
  Proof.
    revert w k; induction l as [|a l IH]; intros w k Fw Ew Hk.
    - cbn. unfold vlen. cbn. rewrite N.add_0_r. auto.
    - cbn [fold_left]. unfold vlen in *. cbn [length] in *.
      assert (A1 : is_finite (nadd w n1 : f64) = true /\ B2R (nadd w n1 : f64) = IZR (Z.of_N (k + 1))).
      { destruct (of_Z_correct 1 ltac:(lia)) as [O1 F1].
        generalize (Bplus_correct 53 1024 _ _ mode_NE w (f64_of_Z 1) Fw F1).
        rewrite O1, Ew.
        replace (IZR (Z.of_N k) + 1)%R with (IZR (Z.of_N (k + 1))).
        2:{ rewrite N2Z.inj_add, plus_IZR. reflexivity. }
        change (round radix2 fexp64 (round_mode mode_NE) (IZR (Z.of_N (k + 1)))) with (rnd (IZR (Z.of_N (k + 1)))).
        rewrite rnd_fmt by (apply fmt_int; lia).
        rewrite Rlt_bool_true.
        - intros [H1 [H2 _]]. auto.
        - apply Rle_lt_trans with (IZR (2 ^ 53)); [|apply M64_big].
          rewrite <- abs_IZR. apply IZR_le. lia. }
      destruct A1 as [A1 A2].
      destruct (IH _ _ A1 A2) as [B1 B2]; [lia|].
      split; [exact B1|]. rewrite B2. f_equal. f_equal. lia.
  Qed.
End F64.
