(** * PropertiesOccFloat: the occupancy field in doubles (C154)

    The shares of time that the occupancy field stores, compared with the exact shares. *)
From Coq Require Import Reals List NArith ZArith Lia Lra Bool ZifyBool ZifyN.
From Flocq Require Import Core.Core IEEE754.BinarySingleNaN.
From Verif Require Import Base BaseFacts Num RFacts NDArray GridModel GridSpec GridFacts CartProofs F64Facts CartR GridOps GridR PropertiesGrid VecProofs SelModel PropertiesSel
  DataModel DataSpec DataLoad FunModel FunSpec FunProofs FunMgr FunField PropertiesFun FunOcc FloatErr FloatSum PropertiesMean FloatNd PropertiesWrap PropertiesDepth.
Import ListNotations.
Local Open Scope R_scope.

(** A running sum of inexact terms. *)
Lemma sum_terms {A} (l : list A) (t : A -> f64) (X B q : A -> R) (ka : R) :
  (forall c, In c l -> is_finite (t c) = true /\ Rabs (B2R (t c) - X c) <= ka * B c + q c * eta /\ Rabs (X c) <= B c /\ 0 <= q c) ->
  0 <= ka <= / 4 -> (Z.of_nat (length l) <= 2 ^ 48)%Z -> Rsum (map B l) <= bpow radix2 1000 -> Rsum (map q l) * eta <= 1 ->
  let s := fold_left (Bplus mode_NE) (map t l) (f64_of_Z 0) in
  is_finite s = true /\
  Rabs (B2R s - Rsum (map X l)) <= (ka + 5 / 2 * INR (length l) * eps) * Rsum (map B l) + 9 / 8 * (Rsum (map q l) * eta).
Proof.
  intros H Hk Hl HB HQ s.
  set (SX := Rsum (map X l)). set (SB := Rsum (map B l)) in *. set (Q := Rsum (map q l)) in *.
  assert (P := eps_pos). assert (Pe := eta_pos). assert (Le := eps_le).
  assert (B0 : forall c, In c l -> 0 <= B c) by (intros c Hc; destruct (H c Hc) as [_ [_ [Hx _]]]; assert (Y := Rabs_pos (X c)); lra).
  assert (SB0 : 0 <= SB) by (apply Rsum_nonneg; exact B0).
  assert (Q0 : 0 <= Q) by (apply Rsum_nonneg; intros c Hc; apply (H c Hc)).
  set (T := Rsum (map (fun c => B2R (t c)) l)). set (TA := Rsum (map (fun c => Rabs (B2R (t c))) l)).
  assert (E1 : Rabs (T - SX) <= ka * SB + Q * eta).
  { replace (T - SX) with (Rsum (map (fun c => B2R (t c) - X c) l)).
    - replace (ka * SB + Q * eta) with (Rsum (map (fun c => ka * B c + q c * eta) l)).
      + apply Rabs_Rsum_le. intros c Hc. apply (H c Hc).
      + rewrite (Rsum_map_plus (fun c => ka * B c) (fun c => q c * eta)), Rsum_map_scal. f_equal. unfold Q. rewrite Rmult_comm, <- Rsum_map_scal. apply Rsum_ext. intros; ring.
    - unfold T, SX. replace (Rsum (map X l)) with (- Rsum (map (fun c => -1 * X c) l)) by (rewrite Rsum_map_scal; ring).
      unfold Rminus. rewrite Ropp_involutive, <- Rsum_map_plus. apply Rsum_ext. intros; ring. }
  assert (E2 : TA <= 5 / 4 * SB + Q * eta).
  { replace (5 / 4 * SB + Q * eta) with (Rsum (map (fun c => 5 / 4 * B c + q c * eta) l)).
    - apply Rsum_le. intros c Hc. destruct (H c Hc) as [_ [U [V _]]]. specialize (B0 c Hc).
      replace (B2R (t c)) with ((B2R (t c) - X c) + X c) by ring. apply Rle_trans with (1 := Rabs_triang _ _).
      assert (ka * B c <= / 4 * B c) by (apply Rmult_le_compat_r; lra). lra.
    - rewrite (Rsum_map_plus (fun c => 5 / 4 * B c) (fun c => q c * eta)), Rsum_map_scal. f_equal. unfold Q. rewrite Rmult_comm, <- Rsum_map_scal. apply Rsum_ext. intros; ring. }
  assert (Big : 5 / 4 * SB + Q * eta <= bpow radix2 1010).
  { assert (1 <= bpow radix2 1000) by (change 1 with (bpow radix2 0); apply bpow_le; lia).
    replace 1010%Z with (10 + 1000)%Z by lia. rewrite bpow_plus. change (bpow radix2 10) with 1024. lra. }
  destruct (sum_err (map t l)) as [Fs Es].
  { apply Forall_forall. intros y Hy. apply in_map_iff in Hy as [c [<- Hc]]. apply (H c Hc). }
  { rewrite map_length. lia. }
  { rewrite map_map. apply Rle_trans with (1 := E2). apply Rle_trans with (1 := Big). apply bpow_le. lia. }
  rewrite !map_map, map_length in Es. fold T TA s in Es. split; [exact Fs|].
  rewrite <- INR_IZR_INZ in Es. set (m := INR (length l)) in *.
  assert (m0 : 0 <= m) by apply pos_INR.
  assert (me : m * eps <= / 32).
  { apply Rle_trans with (IZR (2 ^ 48) * eps); [apply Rmult_le_compat_r; [lra | unfold m; rewrite INR_IZR_INZ; apply IZR_le; exact Hl]|].
    rewrite eps_val. change (IZR (2 ^ 48)) with 281474976710656. lra. }
  replace (B2R s - SX) with ((B2R s - T) + (T - SX)) by ring. apply Rle_trans with (1 := Rabs_triang _ _).
  assert (H0 : 2 * m * eps * TA <= 2 * m * eps * (5 / 4 * SB + Q * eta)) by (apply Rmult_le_compat_l; [|exact E2]; assert (0 <= m * eps) by (apply Rmult_le_pos; lra); lra).
  assert (m * eps * (Q * eta) <= / 32 * (Q * eta)) by (apply Rmult_le_compat_r; [apply Rmult_le_pos; lra | exact me]).
  replace (2 * m * eps * (5 / 4 * SB + Q * eta)) with (5 / 2 * m * eps * SB + 2 * (m * eps * (Q * eta))) in H0 by field.
  assert (0 <= Q * eta) by (apply Rmult_le_pos; lra). lra.
Qed.
Lemma fold_nonneg (l : list f64) : forall s : f64, 0 <= B2R s -> Forall (fun x : f64 => 0 <= B2R x) l -> 
  is_finite (fold_left (Bplus mode_NE) l s) = true -> 0 <= B2R (fold_left (Bplus mode_NE) l s).
Proof.
  induction l as [|x l IH]; intros s Hs Hl F; [exact Hs|]. inversion Hl as [|? ? Hx Hl']; subst. cbn [fold_left] in *. apply IH; auto.
  clear IH F. destruct (is_finite s) eqn:Fs, (is_finite x) eqn:Fx.
  - generalize (Bplus_correct 53 1024 _ _ mode_NE s x Fs Fx).
    change (round radix2 fexp64 (round_mode mode_NE) (B2R s + B2R x)) with (rnd (B2R s + B2R x)).
    destruct (Rlt_bool _ _).
    + intros [-> _]. apply rnd_nonneg. lra.
    + intros [E _]. destruct (Bplus mode_NE s x) as [| | |b m e p]; cbn [B2R]; try lra. exfalso. destruct (Bsign s); discriminate E.
  - destruct x as [bx|bx| |bx mx ex px]; try discriminate Fx; destruct s as [bs|bs| |bs ms es ps]; cbn; try destruct (Bool.eqb bs bx); cbn; lra.
  - destruct s as [bs|bs| |bs ms es ps]; try discriminate Fs; destruct x as [bx|bx| |bx mx ex px]; cbn; try destruct (Bool.eqb bs bx); cbn; lra.
  - destruct s as [bs|bs| |bs ms es ps]; try discriminate Fs; destruct x as [bx|bx| |bx mx ex px]; cbn; try destruct (Bool.eqb bs bx); cbn; lra.
Qed.

(** ** Where the time of a stay goes, exactly *)
Section Exact.
  Context {TF : Trig f64}.
  Definition spent (y : stay f64) : R := B2R (y_spent y).
  (** On Cartesian grids half to the cell of either end if both are in the grid, otherwise nowhere; on cylindrical grids
      all to the cell of the start. *)
  Definition time_in (bld : build) (ge : geom f64) (c : id3) (y : stay f64) : R :=
    let here i amount := if id3_eqb i c then amount else 0 in
    match ge with
    | Cart _ => match geom_cell_id bld ge (sm_pos (y_from y)), geom_cell_id bld ge (y_to y) with
                | Val (Some a), Val (Some b) => here a (spent y / 2) + here b (spent y / 2)
                | _, _ => 0
                end
    | Cyl _ => match geom_cell_id bld ge (sm_pos (y_from y)) with Val (Some a) => here a (spent y) | _ => 0 end
    end.

  Definition part (ge : geom f64) : R := match ge with Cart _ => / 2 | Cyl _ => 1 end.
  (** The deposits in [c] with the stay they come from. *)
  Definition tagged bld ge c (l : list (stay f64)) : list (id3 * f64 * stay f64) :=
    filter (fun e => id3_eqb (fst (fst e)) c) (flat_map (fun y => map (fun e => (e, y)) (stay_deposits bld ge y)) l).
  Lemma tagged_deposited bld ge c l : deposited c (flat_map (stay_deposits bld ge) l) = map (fun e => snd (fst e)) (tagged bld ge c l).
  Proof.
    unfold deposited, tagged. induction l as [|y l IH]; [reflexivity|]. cbn [flat_map]. rewrite !filter_app, !map_app, IH. f_equal.
    induction (stay_deposits bld ge y) as [|e es IHe]; [reflexivity|]. cbn [map filter fst]. destruct (id3_eqb (fst e) c); cbn [map]; now rewrite IHe.
  Qed.
  Lemma tagged_sum bld ge c l : Rsum (map (fun e => part ge * spent (snd e)) (tagged bld ge c l)) = Rsum (map (time_in bld ge c) l).
  Proof.
    unfold tagged. induction l as [|y l IH]; [reflexivity|]. cbn [flat_map map]. rewrite filter_app, map_app, Rsum_app, Rsum_cons, IH. f_equal.
    unfold stay_deposits, deposits, time_in, part. destruct ge as [cg|yg].
    - destruct (geom_cell_id bld _ (sm_pos (y_from y))) as [[a|]|]; try reflexivity. destruct (geom_cell_id bld _ (y_to y)) as [[b|]|]; try reflexivity.
      cbn [map filter fst]. destruct (id3_eqb a c), (id3_eqb b c); cbn [map snd]; rewrite ?Rsum_cons, ?Rsum_nil; lra.
    - destruct (geom_cell_id bld _ (sm_pos (y_from y))) as [[a|]|]; try reflexivity.
      cbn [map filter fst]. destruct (id3_eqb a c); cbn [map snd]; rewrite ?Rsum_cons, ?Rsum_nil; lra.
  Qed.
  Lemma tagged_len bld ge c l : (length (tagged bld ge c l) <= 2 * length l)%nat.
  Proof.
    unfold tagged. apply Nat.le_trans with (1 := filter_len _ _). induction l as [|y l IH]; [cbn; lia|]. cbn [flat_map length]. rewrite app_length, map_length.
    assert (length (stay_deposits bld ge y) <= 2)%nat; [|lia]. clear. unfold stay_deposits, deposits. destruct ge; destruct (geom_cell_id bld _ _) as [[a|]|]; cbn [length]; try lia.
    destruct (geom_cell_id bld _ _) as [[b|]|]; cbn [length]; lia.
  Qed.
  Lemma tagged_in bld ge c l e : In e (tagged bld ge c l) -> In (snd e) l /\
    (snd (fst e) = match ge with Cart _ => nmul (y_spent (snd e)) (nlit 1 2) | Cyl _ => y_spent (snd e) end).
  Proof.
    unfold tagged. intros H. apply filter_In in H as [H _]. apply in_flat_map in H as [y [Hy H]]. apply in_map_iff in H as [e' [<- H]]. cbn [fst snd]. split; [exact Hy|].
    unfold stay_deposits, deposits in H. destruct ge as [cg|yg].
    - destruct (geom_cell_id bld _ (sm_pos (y_from y))) as [[a|]|]; try destruct H. destruct (geom_cell_id bld _ (y_to y)) as [[b|]|]; try destruct H.
      + subst e'. reflexivity.
      + destruct H as [<- | []]. reflexivity.
    - destruct (geom_cell_id bld _ (sm_pos (y_from y))) as [[a|]|]; try destruct H; [subst e'; reflexivity | destruct H].
  Qed.

  Lemma time_in_pos bld ge c y : 0 <= spent y -> 0 <= time_in bld ge c y.
  Proof.
    intros H. unfold time_in. destruct ge; destruct (geom_cell_id bld _ (sm_pos (y_from y))) as [[a|]|]; try lra.
    - destruct (geom_cell_id bld _ (y_to y)) as [[b|]|]; try lra. destruct (id3_eqb a c), (id3_eqb b c); lra.
    - destruct (id3_eqb a c); lra.
  Qed.
  (** Over distinct cells the time of a stay is given away at most once; exactly once if both ends are among them. *)
  Lemma time_in_total bld ge cs y : NoDup cs -> 0 <= spent y -> Rsum (map (fun c => time_in bld ge c y) cs) <= spent y.
  Proof.
    intros ND H. unfold time_in. destruct ge as [cg|yg].
    - destruct (geom_cell_id bld _ (sm_pos (y_from y))) as [[a|]|]; try (rewrite Rsum_zero by reflexivity; lra).
      destruct (geom_cell_id bld _ (y_to y)) as [[b|]|]; try (rewrite Rsum_zero by reflexivity; lra).
      rewrite Rsum_map_plus, !(indicator_sum _ _ _ ND). destruct (existsb _ cs), (existsb _ cs); lra.
    - destruct (geom_cell_id bld _ (sm_pos (y_from y))) as [[a|]|]; try (rewrite Rsum_zero by reflexivity; lra).
      rewrite (indicator_sum _ _ _ ND). destruct (existsb _ cs); lra.
  Qed.
  Lemma time_in_whole bld ge cs y a b : NoDup cs -> geom_cell_id bld ge (sm_pos (y_from y)) = Val (Some a) -> geom_cell_id bld ge (y_to y) = Val (Some b) ->
    In a cs -> In b cs -> Rsum (map (fun c => time_in bld ge c y) cs) = spent y.
  Proof.
    intros ND Ea Eb Ia Ib. assert (Ex : forall i, In i cs -> existsb (id3_eqb i) cs = true) by (intros i Hi; apply existsb_exists; exists i; split; [exact Hi | apply id3_eqb_refl]).
    unfold time_in. rewrite Ea, Eb. destruct ge as [cg|yg].
    - rewrite Rsum_map_plus, !(indicator_sum _ _ _ ND), (Ex a Ia), (Ex b Ib). lra.
    - rewrite (indicator_sum _ _ _ ND), (Ex a Ia). lra.
  Qed.
End Exact.

Lemma half_val : is_finite (nlit (F := f64) 1 2) = true /\ B2R (nlit (F := f64) 1 2) = / 2.
Proof. assert (H : nlit (F := f64) 1 2 = Bdiv mode_NE (f64_of_Z 1) (f64_of_Z 2)) by reflexivity. rewrite H.
  destruct (of_Z_correct 1 ltac:(lia)) as [E1 F1], (of_Z_correct 2 ltac:(lia)) as [E2 F2].
  assert (R1 : rnd (/ 2) = / 2) by (apply rnd_fmt; replace (/ 2) with (bpow radix2 (-1)) by reflexivity; apply generic_format_bpow; vm_compute; discriminate).
  destruct (div_R (f64_of_Z 1) (f64_of_Z 2) F1) as [A B]; rewrite ?E1, ?E2; [lra | |].
  - replace (1 / 2) with (/ 2) by lra. rewrite R1, Rabs_pos_eq by lra. apply Rlt_trans with (bpow radix2 1); [cbn; lra | apply bpow_lt; lia].
  - split; [exact A|]. rewrite B, E1, E2. replace (1 / 2) with (/ 2) by lra. exact R1.
Qed.

(** Stays of finite, nonnegative length. *)
Definition lasting (y : stay f64) : Prop := is_finite (y_spent y) = true /\ 0 <= spent y.
Lemma counted_lasting {TF : Trig f64} (g : grid f64) s mv L y : In y (counted g s mv L) -> is_finite (y_spent y) = true -> lasting y.
Proof.
  intros H F. split; [exact F|]. apply filter_In in H. destruct H as [_ H]. unfold counts in H. rewrite !andb_true_iff in H.
  destruct H as [_ H]. apply negb_true_iff in H. unfold spent. destruct (Rle_lt_dec 0 (B2R (y_spent y))) as [P|P]; [exact P|].
  destruct (of_Z_correct 0 ltac:(lia)) as [E0 F0]. assert (X : @nltb f64 _ (y_spent y) n0 = true) by (apply Bltb_R; auto; rewrite E0; exact P). congruence.
Qed.

Lemma tag_term {TF : Trig f64} bld ge c l e : (forall y, In y l -> lasting y) -> Rsum (map spent l) <= bpow radix2 1000 -> In e (tagged bld ge c l) ->
  let t := snd (fst e) in is_finite t = true /\ 0 <= B2R t /\ Rabs (B2R t - part ge * spent (snd e)) <= eps * (part ge * spent (snd e)) + 1 * eta /\ 0 <= part ge * spent (snd e) <= spent (snd e).
Proof.
  intros Hl HT He t. assert (P := eps_pos). assert (Pe := eta_pos). destruct (tagged_in bld ge c l e He) as [Hy Et]. destruct (Hl _ Hy) as [Fy Py]. fold t in Et. unfold part. destruct ge as [cg|yg].
  - destruct half_val as [Fh Eh]. assert (Le : spent (snd e) <= bpow radix2 1000).
    { apply Rle_trans with (2 := HT). apply (Rsum_one spent l); [|exact Hy]. intros y H. apply (Hl y H). }
    unfold spent in *. set (v := B2R (y_spent (snd e))) in *.
    assert (Big : Rabs (B2R (y_spent (snd e)) * B2R (nlit (F := f64) 1 2)) <= bpow radix2 1023).
    { rewrite Eh. fold v. rewrite Rabs_pos_eq by lra. apply Rle_trans with (bpow radix2 1000); [lra | apply bpow_le; lia]. }
    destruct (mul_R (y_spent (snd e)) (nlit 1 2) Fy Fh) as [A B]; [apply big_lt, rnd_big, Big|].
    rewrite Et. change (nmul (y_spent (snd e)) (nlit 1 2)) with (Bmult mode_NE (y_spent (snd e)) (nlit (F := f64) 1 2)). rewrite Eh in B. fold v in B. split; [exact A|].
    rewrite B. split; [apply rnd_nonneg; lra|]. split; [|lra]. destruct (rnd_ex (v * / 2)) as [x [dd [Hx [Hd ->]]]].
    replace (v * / 2 * (1 + x) + dd - / 2 * v) with (x * (/ 2 * v) + dd) by ring. apply Rle_trans with (1 := Rabs_triang _ _). apply Rplus_le_compat; [|lra].
    rewrite Rabs_mult, (Rabs_pos_eq (/ 2 * v)) by lra. apply Rmult_le_compat_r; lra.
  - rewrite Et. split; [exact Fy|]. split; [exact Py|]. split; [|lra]. unfold spent in *. rewrite Rmult_1_l, Rminus_diag_eq, Rabs_R0 by reflexivity.
    assert (0 <= eps * B2R (y_spent (snd e))) by (apply Rmult_le_pos; lra). lra.
Qed.

(** The quotient of the two running sums. *)
Lemma share_close {TF : Trig f64} bld ge c (S : list (stay f64)) : (forall y, In y S -> lasting y) -> (vlen S <= 2 ^ 46)%N ->
  bpow radix2 (-900) <= Rsum (map spent S) <= bpow radix2 1000 ->
  let x := Bdiv mode_NE (fold_left (Bplus mode_NE) (deposited c (flat_map (stay_deposits bld ge) S)) (f64_of_Z 0)) (fold_left (Bplus mode_NE) (map y_spent S) (f64_of_Z 0)) in
  let n := NR (vlen S) in let share := Rsum (map (time_in bld ge c) S) / Rsum (map spent S) in
  is_finite x = true /\ 0 <= B2R x /\ Rabs (B2R x - share) <= (8 * n + 3) / IZR (2 ^ 53) * share + (4 * n + 1) * bpow radix2 (-175).
Proof.
  intros Hl Hn [T0 T1] x n share. assert (P := eps_pos). assert (Pe := eta_pos). assert (Le := eps_le).
  set (T := Rsum (map spent S)) in *. set (Dx := Rsum (map (time_in bld ge c) S)) in *.
  assert (Tp : 0 < T) by (apply Rlt_le_trans with (2 := T0); apply bpow_gt_0).
  assert (Hlen := tagged_len bld ge c S). set (l := tagged bld ge c S) in *.
  assert (n0' : 0 <= n) by (apply (IZR_le 0); clear; lia).
  assert (nE : INR (length S) = n) by (unfold n; now rewrite vlen_INR).
  assert (lE : INR (length l) <= 2 * n) by (rewrite <- nE; replace 2 with (INR 2) by reflexivity; rewrite <- mult_INR; apply le_INR; exact Hlen).
  assert (ne : n * eps <= / 128).
  { apply Rle_trans with (IZR (2 ^ 46) * eps); [apply Rmult_le_compat_r; [lra | apply IZR_le; clear - Hn; lia]|]. rewrite eps_val. change (IZR (2 ^ 46)) with 70368744177664. lra. }
  assert (Sp : forall y, In y S -> 0 <= spent y) by (intros y Hy; apply (Hl y Hy)).
  assert (DT : Dx <= T).
  { unfold Dx, T. apply Rsum_le. intros y Hy. apply Rle_trans with (Rsum (map (fun c => time_in bld ge c y) [c])); [cbn [map]; rewrite Rsum_cons, Rsum_nil; lra|].
    apply time_in_total; [repeat constructor; intros [] | exact (Sp y Hy)]. }
  assert (D0 : 0 <= Dx) by (apply Rsum_nonneg; intros y Hy; apply time_in_pos, (Sp y Hy)).
  assert (DE : Rsum (map (fun e => part ge * spent (snd e)) l) = Dx) by apply tagged_sum.
  destruct (sum_terms l (fun e => snd (fst e)) (fun e => part ge * spent (snd e)) (fun e => part ge * spent (snd e)) (fun _ => 1) eps) as [Fd Ed].
  { intros e He. destruct (tag_term bld ge c S e Hl T1 He) as [A1 [A2 [A3 A4]]]. split; [exact A1|]. split; [exact A3|]. split; [rewrite Rabs_pos_eq by apply A4; apply Rle_refl | lra]. }
  { rewrite eps_val. lra. }
  { unfold vlen in Hn. clear - Hn Hlen. lia. }
  { rewrite DE. apply Rle_trans with (1 := DT). exact T1. }
  { rewrite Rsum_const, Rmult_1_r. apply Rle_trans with (2 * n * eta); [apply Rmult_le_compat_r; lra|].
    assert (eta <= eps) by (unfold eta, eps; apply bpow_le; lia). assert (n * eta <= n * eps) by (apply Rmult_le_compat_l; lra). lra. }
  rewrite DE, Rsum_const, Rmult_1_r in Ed. subst x. rewrite tagged_deposited. fold l. set (sd := fold_left (Bplus mode_NE) (map (fun e => snd (fst e)) l) (f64_of_Z 0)) in *.
  assert (Pd : 0 <= B2R sd).
  { apply fold_nonneg; [destruct (of_Z_correct 0 ltac:(lia)) as [-> _]; apply Rle_refl | | exact Fd]. apply Forall_forall. intros v Hv. apply in_map_iff in Hv as [e [<- He]].
    apply (tag_term bld ge c S e Hl T1 He). }
  destruct (sum_err (map y_spent S)) as [Ft Et].
  { apply Forall_forall. intros v Hv. apply in_map_iff in Hv as [y [<- Hy]]. apply (Hl y Hy). }
  { rewrite map_length. unfold vlen in Hn. clear - Hn. lia. }
  { rewrite map_map, (Rsum_ext _ spent) by (intros y Hy; apply Rabs_pos_eq, (Sp y Hy)). apply Rle_trans with (1 := T1). apply bpow_le. lia. }
  rewrite !map_map, map_length in Et. rewrite (Rsum_ext (fun y => Rabs (B2R (y_spent y))) spent) in Et by (intros y Hy; apply Rabs_pos_eq, (Sp y Hy)).
  change (Rsum (map (fun y => B2R (y_spent y)) S)) with T in Et. change (Rsum (map spent S)) with T in Et. rewrite <- INR_IZR_INZ, nE in Et.
  set (st := fold_left (Bplus mode_NE) (map y_spent S) (f64_of_Z 0)) in *.
  assert (nT : n * eps * T <= / 128 * T) by (apply Rmult_le_compat_r; lra).
  assert (Tl : T - 2 * (n * eps * T) <= B2R st <= T + 2 * (n * eps * T)) by (apply Rabs_le_inv in Et; lra).
  set (u := n * eta). assert (u0 : 0 <= u) by (apply Rmult_le_pos; lra).
  assert (Ed' : Rabs (B2R sd - Dx) <= (eps + 5 * (n * eps)) * Dx + 9 / 4 * u).
  { apply Rle_trans with (1 := Ed). apply Rplus_le_compat.
    - apply Rmult_le_compat_r; [exact D0|]. assert (INR (length l) * eps <= 2 * n * eps) by (apply Rmult_le_compat_r; lra). lra.
    - assert (INR (length l) * eta <= 2 * n * eta) by (apply Rmult_le_compat_r; lra). unfold u. lra. }
  assert (St : 0 < B2R st) by lra. set (a := B2R sd) in *. set (b := B2R st) in *.
  assert (s0 : 0 <= share) by (apply Rmult_le_pos; [exact D0 | left; apply Rinv_0_lt_compat; exact Tp]).
  assert (s1 : share <= 1) by (unfold share; apply Rmult_le_reg_r with T; [exact Tp|]; unfold Rdiv; rewrite Rmult_assoc, Rinv_l, Rmult_1_r, Rmult_1_l by lra; exact DT).
  assert (Dsh : Dx = share * T) by (unfold share; field; lra).
  set (w := u / T). assert (wu : u = w * T) by (unfold w; field; lra).
  assert (w0 : 0 <= w) by (apply Rmult_le_pos; [exact u0 | left; apply Rinv_0_lt_compat; exact Tp]).
  assert (eta_w : bpow radix2 900 * eta = bpow radix2 (-175)) by (unfold eta; rewrite <- bpow_plus; reflexivity).
  assert (wb : w <= n * bpow radix2 (-175)).
  { unfold w. apply Rmult_le_reg_r with T; [exact Tp|]. unfold Rdiv. rewrite Rmult_assoc, Rinv_l, Rmult_1_r by lra. rewrite <- eta_w. unfold u.
    assert (I1 : 1 <= bpow radix2 900 * T).
    { apply Rle_trans with (bpow radix2 900 * bpow radix2 (-900)); [rewrite <- bpow_plus; apply Rle_refl | apply Rmult_le_compat_l; [apply bpow_ge_0 | exact T0]]. }
    replace (n * (bpow radix2 900 * eta) * T) with (n * eta * (bpow radix2 900 * T)) by ring. rewrite <- (Rmult_1_r (n * eta)) at 1. apply Rmult_le_compat_l; [exact u0 | exact I1]. }
  set (k := n * eps) in *. assert (k0 : 0 <= k) by (apply Rmult_le_pos; lra).
  (* the exact quotient of the computed sums *)
  assert (Q : Rabs (a / b - share) <= 64 / 63 * ((eps + 7 * k) * share + 9 / 4 * w)).
  { replace (a / b - share) with ((a - Dx + share * (T - b)) / b) by (rewrite Dsh; field; lra).
    unfold Rdiv at 1. rewrite Rabs_mult, (Rabs_pos_eq (/ b)) by (left; apply Rinv_0_lt_compat; exact St).
    apply Rmult_le_reg_r with b; [exact St|]. rewrite Rmult_assoc, Rinv_l, Rmult_1_r by lra.
    assert (N1 : Rabs (a - Dx + share * (T - b)) <= ((eps + 7 * k) * share + 9 / 4 * w) * T).
    { apply Rle_trans with (1 := Rabs_triang _ _). rewrite Rabs_mult, (Rabs_pos_eq share) by exact s0. assert (Rabs (T - b) <= 2 * (k * T)) by (apply Rabs_le; lra).
      assert (share * Rabs (T - b) <= share * (2 * (k * T))) by (apply Rmult_le_compat_l; lra).
      rewrite Dsh, wu in Ed'. replace (((eps + 7 * k) * share + 9 / 4 * w) * T) with ((eps + 5 * k) * (share * T) + 9 / 4 * (w * T) + share * (2 * (k * T))) by ring. rewrite Dsh. lra. }
    apply Rle_trans with (1 := N1). set (e := (eps + 7 * k) * share + 9 / 4 * w).
    assert (e0 : 0 <= e) by (unfold e; assert (0 <= (eps + 7 * k) * share) by (apply Rmult_le_pos; lra); lra).
    replace (64 / 63 * e * b) with (e * (64 / 63 * b)) by ring. apply Rmult_le_compat_l; [exact e0 | lra]. }
  assert (ks : k * share <= / 128 * share) by (apply Rmult_le_compat_r; lra).
  assert (es : eps * share <= / 128 * share) by (apply Rmult_le_compat_r; [exact s0 | rewrite eps_val; lra]).
  assert (w1 : w <= 1).
  { apply Rle_trans with (1 := wb). apply Rle_trans with (IZR (2 ^ 46) * bpow radix2 (-175)); [apply Rmult_le_compat_r; [apply bpow_ge_0 | apply IZR_le; clear - Hn; lia]|].
    replace (IZR (2 ^ 46)) with (bpow radix2 46) by reflexivity. rewrite <- bpow_plus. change 1 with (bpow radix2 0). apply bpow_le. lia. }
  assert (q0 : 0 <= a / b) by (apply Rmult_le_pos; [exact Pd | left; apply Rinv_0_lt_compat; exact St]).
  assert (qb : a / b <= 10) by (apply Rabs_le_inv in Q; lra).
  destruct (div_R sd st Fd) as [Fx Ex]; [fold b; lra | |].
  { apply big_lt, rnd_big. fold a b. rewrite Rabs_pos_eq by exact q0. apply Rle_trans with (bpow radix2 4); [cbn; lra | apply bpow_le; lia]. }
  split; [exact Fx|]. rewrite Ex. fold a b. split; [apply rnd_nonneg; exact q0|].
  destruct (rnd_ex (a / b)) as [e [dd [He [Hd ->]]]].
  replace (a / b * (1 + e) + dd - share) with ((a / b - share) + e * (a / b) + dd) by ring.
  apply Rle_trans with (1 := Rabs_triang _ _). apply Rle_trans with (Rabs (a / b - share + e * (a / b)) + eta); [lra|].
  assert (R1 : Rabs (a / b - share + e * (a / b)) <= 64 / 63 * ((eps + 7 * k) * share + 9 / 4 * w) + eps * (a / b)).
  { apply Rle_trans with (1 := Rabs_triang _ _). apply Rplus_le_compat; [exact Q|]. rewrite Rabs_mult, (Rabs_pos_eq (a / b)) by exact q0. apply Rmult_le_compat_r; [exact q0 | exact He]. }
  assert (R2 : eps * (a / b) <= eps * (9 / 8 * share + 3 * w)) by (apply Rmult_le_compat_l; [lra|]; apply Rabs_le_inv in Q; lra).
  assert (R3 : eps * w <= / 128 * w) by (apply Rmult_le_compat_r; [exact w0 | rewrite eps_val; lra]).
  assert (R4 : eta <= bpow radix2 (-175)) by (unfold eta; apply bpow_le; lia).
  replace ((8 * n + 3) / IZR (2 ^ 53) * share) with (8 * (k * share) + 3 * (eps * share)) by (rewrite <- eps_over; unfold k; ring).
  replace (64 / 63 * ((eps + 7 * k) * share + 9 / 4 * w)) with (64 / 63 * (eps * share) + 64 / 9 * (k * share) + 16 / 7 * w) in R1 by field.
  assert (0 <= k * share) by (apply Rmult_le_pos; lra). assert (0 <= eps * share) by (apply Rmult_le_pos; lra). lra.
Qed.

(** Each stored share is the exact one up to rounding; where no time was spent at all there is no number. *)
Theorem c154_shares {TF : Trig f64} can (bld : build) (M : mgr f64) d (L : list (timestep f64)) (g : grid f64) s min_vel d' h :
  aux_reads can M d L -> (forall t, can t (t + 1)%N) -> (3 <= vlen L)%N -> Forall rect L -> sel_ok s -> wf_grid g ->
  occupancyfield bld M d g s min_vel = Val (d', h) ->
  let S := counted g s min_vel L in let n := NR (vlen S) in let T := Rsum (map spent S) in
  (forall y, In y S -> is_finite (y_spent y) = true) ->
  (T = 0 -> forall c, is_nan (at3 (data h) c) = true) /\
  ((vlen S <= 2 ^ 46)%N -> bpow radix2 (-900) <= T <= bpow radix2 1000 -> forall c,
     let share := Rsum (map (time_in bld (geo g) c) S) / T in
     is_finite (at3 (data h) c) = true /\ 0 <= B2R (at3 (data h) c) /\
     Rabs (B2R (at3 (data h) c) - share) <= (8 * n + 3) / IZR (2 ^ 53) * share + (4 * n + 1) * bpow radix2 (-175)).
Proof.
  intros Aux Can Len Rc Sk W E S n T Fy. destruct (c37_shares can bld M d L g s min_vel d' h Aux Can Len Rc Sk W E) as [_ H]. fold S in H.
  assert (Hl : forall y, In y S -> lasting y) by (intros y Hy; apply (counted_lasting g s min_vel L y Hy), (Fy y Hy)). split.
  - intros T0 c. rewrite H. destruct (of_Z_correct 0 ltac:(lia)) as [Z0 F0].
    assert (Zy : forall y, In y S -> spent y = 0).
    { intros y Hy. assert (A := Rsum_one spent S y (fun y Hy => proj2 (Hl y Hy)) Hy). fold T in A. assert (B := proj2 (Hl y Hy)). lra. }
    assert (D1 : is_finite (fold_left (Bplus mode_NE) (map y_spent S) (f64_of_Z 0)) = true /\ B2R (fold_left (Bplus mode_NE) (map y_spent S) (f64_of_Z 0)) = 0).
    { apply fold_zero; [|exact F0 | exact Z0]. apply Forall_forall. intros v Hv. apply in_map_iff in Hv as [y [<- Hy]]. split; [apply (Hl y Hy) | apply (Zy y Hy)]. }
    assert (D2 : is_finite (fold_left (Bplus mode_NE) (deposited c (flat_map (stay_deposits bld (geo g)) S)) (f64_of_Z 0)) = true /\
      B2R (fold_left (Bplus mode_NE) (deposited c (flat_map (stay_deposits bld (geo g)) S)) (f64_of_Z 0)) = 0).
    { apply fold_zero; [|exact F0 | exact Z0]. rewrite tagged_deposited. apply Forall_forall. intros v Hv. apply in_map_iff in Hv as [e [<- He]].
      destruct (tagged_in bld (geo g) c S e He) as [Hy Et]. rewrite Et. specialize (Zy _ Hy). destruct (Hl _ Hy) as [Fy' _]. unfold spent in Zy. destruct (geo g) as [cg|yg]; [|split; assumption].
      destruct half_val as [Fh Eh]. assert (Z : rnd (B2R (y_spent (snd e)) * B2R (nlit (F := f64) 1 2)) = 0) by (rewrite Zy, Rmult_0_l; apply rnd_0).
      destruct (mul_R (y_spent (snd e)) (nlit 1 2) Fy' Fh) as [A B]; [rewrite Z, Rabs_R0; apply bpow_gt_0|]. split; [exact A | rewrite <- Z; exact B]. }
    exact (zero_over _ _ (proj1 D2) (proj2 D2) (proj1 D1) (proj2 D1)).
  - intros Hn HT c. rewrite H. exact (share_close bld (geo g) c S Hl Hn HT).
Qed.

(** The shares over all cells: at most 1 up to rounding, and 1 up to rounding if every counted stay ends in the grid. *)
Theorem c154_total {TF : Trig f64} can (bld : build) (M : mgr f64) d (L : list (timestep f64)) (g : grid f64) s min_vel d' h :
  aux_reads can M d L -> (forall t, can t (t + 1)%N) -> (3 <= vlen L)%N -> Forall rect L -> sel_ok s -> wf_grid g ->
  occupancyfield bld M d g s min_vel = Val (d', h) ->
  let S := counted g s min_vel L in let n := NR (vlen S) in let T := Rsum (map spent S) in
  let cells := ids3 (geom_cells (geo g)) in
  let slack := (8 * n + 3) / IZR (2 ^ 53) + NR (vlen cells) * (4 * n + 1) * bpow radix2 (-175) in
  (forall y, In y S -> is_finite (y_spent y) = true) -> (vlen S <= 2 ^ 46)%N -> bpow radix2 (-900) <= T <= bpow radix2 1000 ->
  Rsum (map (fun c => B2R (at3 (data h) c)) cells) <= 1 + slack /\
  (inside_ok bld (geo g) -> (forall y, In y S -> is_inside g (y_to y) = true) -> Rabs (Rsum (map (fun c => B2R (at3 (data h) c)) cells) - 1) <= slack).
Proof.
  intros Aux Can Len Rc Sk W E S n T cells slack Fy Hn HT.
  destruct (c154_shares can bld M d L g s min_vel d' h Aux Can Len Rc Sk W E Fy) as [_ H]. specialize (H Hn HT). cbv zeta in H. fold S T n in H.
  assert (Hl : forall y, In y S -> lasting y) by (intros y Hy; apply (counted_lasting g s min_vel L y Hy), (Fy y Hy)).
  assert (Tp : 0 < T) by (apply Rlt_le_trans with (2 := proj1 HT); apply bpow_gt_0). assert (P := eps_pos).
  set (share := fun c => Rsum (map (time_in bld (geo g) c) S) / T).
  assert (ND : NoDup cells) by apply ids3_NoDup. assert (n0' : 0 <= n) by (apply (IZR_le 0); clear; lia).
  assert (Sw : Rsum (map share cells) * T = Rsum (map (fun y => Rsum (map (fun c => time_in bld (geo g) c y) cells)) S)).
  { unfold share, Rdiv. rewrite Rsum_map_scal_r, Rmult_assoc, Rinv_l, Rmult_1_r by lra. apply Rsum_swap. }
  assert (S1 : Rsum (map share cells) <= 1).
  { apply Rmult_le_reg_r with T; [exact Tp|]. rewrite Sw, Rmult_1_l. unfold T. apply Rsum_le. intros y Hy. apply time_in_total; [exact ND | apply (Hl y Hy)]. }
  assert (S0 : 0 <= Rsum (map share cells)).
  { apply Rsum_nonneg. intros c _. apply Rmult_le_pos; [|left; apply Rinv_0_lt_compat; exact Tp]. apply Rsum_nonneg. intros y Hy. apply time_in_pos, (Hl y Hy). }
  assert (D : Rabs (Rsum (map (fun c => B2R (at3 (data h) c)) cells) - Rsum (map share cells)) <= slack).
  { replace (Rsum (map (fun c => B2R (at3 (data h) c)) cells) - Rsum (map share cells)) with (Rsum (map (fun c => B2R (at3 (data h) c) - share c) cells)).
    - apply Rle_trans with (Rsum (map (fun c => (8 * n + 3) / IZR (2 ^ 53) * share c + (4 * n + 1) * bpow radix2 (-175)) cells)).
      + apply Rabs_Rsum_le. intros c _. apply (H c).
      + rewrite (Rsum_map_plus (fun c => (8 * n + 3) / IZR (2 ^ 53) * share c) (fun _ => (4 * n + 1) * bpow radix2 (-175))), Rsum_map_scal, Rsum_const, <- vlen_INR. unfold slack.
        apply Rplus_le_compat; [|rewrite <- Rmult_assoc; apply Rle_refl]. rewrite <- (Rmult_1_r ((8 * n + 3) / IZR (2 ^ 53))) at 2. apply Rmult_le_compat_l; [|exact S1].
        rewrite <- eps_over. apply Rmult_le_pos; lra.
    - replace (Rsum (map share cells)) with (- Rsum (map (fun c => -1 * share c) cells)) by (rewrite Rsum_map_scal; ring).
      unfold Rminus. rewrite Ropp_involutive, <- Rsum_map_plus. apply Rsum_ext. intros; ring. }
  split; [apply Rabs_le_inv in D; lra|]. intros Ok Ins. assert (S2 : Rsum (map share cells) = 1); [|rewrite <- S2; exact D].
  apply Rmult_eq_reg_r with T; [|lra]. rewrite Sw, Rmult_1_l. unfold T. apply Rsum_ext. intros y Hy.
  assert (I1 : is_inside g (sm_pos (y_from y)) = true).
  { apply filter_In in Hy. destruct Hy as [_ Hy]. unfold counts in Hy. rewrite !andb_true_iff in Hy. tauto. }
  destruct (Ok _ I1) as [a [Ca Ia]]. destruct (Ok _ (Ins y Hy)) as [b [Cb Ib]].
  apply (time_in_whole bld (geo g) cells y a b ND Ca Cb); now apply in_ids3.
Qed.

(** Two stays counted on a grid of eight cells: the hypotheses are met. *)
Example c154_case {TF : Trig f64} : exists g d' h, cart_new (2, 2, 2)%N (ThreeD box64) = Val g /\ wf_grid g /\ inside_ok Debug (geo g) /\
  aux_reads (fun _ _ => True) (list_mgr ex_data4 (PropertiesFun.ex_stats 4)) tt ex_data4 /\ Forall rect ex_data4 /\ sel_ok (sel_default (F := f64)) /\
  occupancyfield Debug (list_mgr ex_data4 (PropertiesFun.ex_stats 4)) tt g sel_default (f64_of_Z 0) = Val (d', h) /\
  vlen (counted g sel_default (f64_of_Z 0) ex_data4) = 2%N /\ Rsum (map spent (counted g sel_default (f64_of_Z 0) ex_data4)) = 2 /\
  (forall y, In y (counted g sel_default (f64_of_Z 0) ex_data4) -> is_finite (y_spent y) = true /\ is_inside g (y_to y) = true).
Proof.
  destruct (cart_new (2, 2, 2)%N (ThreeD box64)) as [g|] eqn:E; [|discriminate].
  assert (Fr := new_fresh _ _ true g (or_introl E)). destruct (cart_new_geo _ _ _ E) as [cg [G [C1 C2]]].
  assert (Sz : sized (cc_cells cg)) by (rewrite C2; cbn; lia).
  assert (Aux : aux_reads (fun _ _ => True) (list_mgr ex_data4 (PropertiesFun.ex_stats 4)) tt ex_data4) by (apply list_aux; reflexivity).
  assert (Rc : Forall rect ex_data4) by (repeat constructor).
  destruct (c37_returns _ Debug (list_mgr ex_data4 (PropertiesFun.ex_stats 4)) tt ex_data4 g cg sel_default (f64_of_Z 0) Aux (fun _ => I) ltac:(vm_compute; discriminate) Rc (proj2 ex_data_recorded) (proj1 Fr) G Sz) as [d' [h Eh]].
  exists g, d', h. split; [reflexivity|]. split; [exact (proj1 Fr)|]. split; [rewrite G; now apply cart_inside_ok|]. split; [exact Aux|]. split; [exact Rc|].
  split; [apply ex_data_recorded|]. split; [exact Eh|]. clear - E.
  assert (Sp : map (fun y => (B2SF (y_spent y), is_inside g (y_to y))) (counted g sel_default (f64_of_Z 0) ex_data4) = [(B2SF (f64_of_Z 1), true); (B2SF (f64_of_Z 1), true)])
    by (injection E as <-; vm_compute; reflexivity).
  destruct (of_Z_correct 1 ltac:(lia)) as [E1 F1].
  destruct (counted g sel_default (f64_of_Z 0) ex_data4) as [|y0 [|y1 [|y2 l]]]; try discriminate Sp. cbn [map] in Sp.
  injection Sp as S0 I0 S1 I1.
  assert (H0 : y_spent y0 = f64_of_Z 1 /\ is_inside g (y_to y0) = true) by (split; [apply B2SF_inj; exact S0 | exact I0]).
  assert (H1 : y_spent y1 = f64_of_Z 1 /\ is_inside g (y_to y1) = true) by (split; [apply B2SF_inj; exact S1 | exact I1]).
  split; [reflexivity|]. split; [cbn [map]; rewrite !Rsum_cons, Rsum_nil; unfold spent; rewrite (proj1 H0), (proj1 H1), E1; lra|].
  intros y [<- | [<- | []]]; [rewrite (proj1 H0) | rewrite (proj1 H1)]; split; try exact F1; [apply H0 | apply H1].
Qed.
