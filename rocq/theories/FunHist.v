(** * FunHist: velocity histogram (C38). *)
From Coq Require Import Reals List NArith ZArith Bool Lia Lra String ZifyBool ZifyN ZifyNat Sorted.
From Flocq Require Import Core.Core IEEE754.BinarySingleNaN.
From Verif Require Import Base BaseFacts Num F64Facts RFacts NDArray GridModel GridSpec GridFacts CartProofs CartR
  SelModel DataModel DataSpec DataProofs DataLoad PropertiesGrid PropertiesData FunModel FunSpec FunProofs FunMgr FunField PropertiesFun.
Local Open Scope list_scope.
Local Open Scope string_scope.

(** ** Specification *)
Section Spec.
  Context {F : Type} {NF : Num F} {TF : Trig F}.
  (** The limits of the histogram: the smallest recorded speed, and the given limit, or the
      largest recorded speed if that is zero. *)
  Definition hist_lo (st : stats F) : F := fst (fst (st_velmag st)).
  Definition hist_hi (st : stats F) (limit : F) : F := if neqb limit n0 then snd (st_velmag st) else limit.
  (** The samples considered: chosen, and in the grid. *)
  Definition sampled (g : grid F) (s : selector F) (L : list (timestep F)) : list (sample F) :=
    filter (fun m => is_inside g (sm_pos m)) (observed s L).
  (** The bin of a sample, as computed. *)
  Definition bin_of (edges : list F) (m : sample F) : N :=
    nusize (nfloor (ndiv (nsub (speed (sm_vel m)) (nth 0 edges n0)) (nsub (nth 1 edges n0) (nth 0 edges n0)))).
  Definition in_bin (edges : list F) (b : N) (m : sample F) : bool := (bin_of edges m =? b)%N.
End Spec.

Section Gen.
  Context {F : Type} {NF : Num F} {TF : Trig F}.

  Definition hist_body (bins : N) (edges : list F) (h : list F) (m : sample F) : res (list F) :=
    if (bins - 1 <? bin_of edges m)%N then Val h else
    let! y := vget h (bin_of edges m) in vset h (bin_of edges m) (nadd y n1).

  Lemma hist_fold bins edges l : forall h0, vlen h0 = bins -> (1 <= bins)%N ->
    exists h, mfold (hist_body bins edges) l h0 = Val h /\ vlen h = bins /\
      forall b x0, at_ h0 b x0 -> at_ h b (fold_left (fun w _ => nadd w n1) (filter (in_bin edges b) l) x0).
  Proof.
    induction l as [|m l IH] using rev_ind; intros h0 V B.
    - exists h0. split; [reflexivity|]. split; [exact V|]. intros b x0 H. exact H.
    - destruct (IH h0 V B) as [h [E [Vh Hh]]]. rewrite mfold_app, E. cbn [bind mfold]. unfold hist_body.
      destruct (N.ltb_spec (bins - 1) (bin_of edges m)) as [Gt|Le]; cbn [bind].
      + exists h. split; [reflexivity|]. split; [exact Vh|]. intros b x0 H0. rewrite filter_app, fold_left_app.
        cbn [filter]. assert (Nb : in_bin edges b m = false).
        { unfold in_bin. apply N.eqb_neq. intros Eb. apply at_lt in H0. unfold vlen in *; lia. }
        rewrite Nb. cbn [fold_left]. now apply Hh.
      + destruct (vget_lt h (bin_of edges m) ltac:(lia)) as [y Hy]. rewrite Hy. cbn [bind].
        destruct (vset_ok h (bin_of edges m) (nadd y n1) ltac:(lia)) as [h' Hs]. rewrite Hs. cbn [bind].
        exists h'. split; [reflexivity|]. destruct (vset_nth _ _ _ _ Hs) as [Len [Eq Ne]].
        split; [unfold vlen in *; lia|]. intros b x0 H0. rewrite filter_app, fold_left_app. cbn [filter]. unfold in_bin at 1.
        destruct (N.eqb_spec (bin_of edges m) b) as [<-|Nb]; cbn [fold_left].
        * unfold at_. rewrite Eq. f_equal. f_equal. assert (Q := Hh _ _ H0). apply vget_val in Hy. unfold at_ in Q. congruence.
        * unfold at_. rewrite Ne by lia. now apply Hh.
  Qed.

  Lemma histogram_run bld (M : mgr F) d (L : list (timestep F)) g s limit bins : recorded M d L -> sel_ok s -> (1 <= bins)%N ->
    let edges := bin_edges (hist_lo (m_stats M)) (hist_hi (m_stats M) limit) bins in
    exists d' h, histogram bld M d g s "velocity" limit bins = Val (d', (h, edges)) /\ recorded M d' L /\ vlen h = bins /\
      forall b, (b < bins)%N -> at_ h b (fold_left (fun w _ => nadd w n1) (filter (in_bin edges b) (sampled g s L)) n0).
  Proof.
    intros [Rd [Ne Rc]] Sk B edges.
    assert (Ve : exists e0 e1 r, edges = e0 :: e1 :: r).
    { unfold edges, bin_edges. rewrite range_cons by lia. cbn [map app].
      destruct (N.eq_dec bins 1) as [->|Nb]; [do 3 eexists; reflexivity|].
      rewrite range_cons by lia. do 3 eexists. reflexivity. }
    destruct Ve as [e0 [e1 [er Ee]]].
    set (raw := fun (h : list F) (m : sample F) =>
      if negb (is_inside g (sm_pos m)) then Val h else hist_body bins edges h m).
    assert (Q := loop_observed bld M s (fun x h i p =>
          if negb (is_inside g p) then Val h else
          let! v := vget (ts_vel x) i in
          let! e0 := vget edges 0 in
          let! e1 := vget edges 1 in
          let bin := nusize (nfloor (ndiv (nsub (speed v) e0) (nsub e1 e0))) in
          let! top := usub bld bins 1 in
          if (top <? bin)%N then Val h else
          let! y := vget h bin in vset h bin (nadd y n1)) raw L d (repeat n0 (N.to_nat bins)) Rd Ne Rc Sk).
    match type of Q with ?P -> _ => assert (H : P) end.
    { rewrite Forall_forall in Rc. intros x st i m Hx Hm. destruct (samples_at x i m (Rc x Hx) Hm) as [_ [_ [Hv _]]].
      unfold raw, hist_body, bin_of. rewrite (proj2 (vget_val _ _ _) Hv), Ee, usub_ge by lia. reflexivity. }
    specialize (Q H).
    assert (E : mfold raw (observed s L) (repeat n0 (N.to_nat bins)) = mfold (hist_body bins edges) (sampled g s L) (repeat n0 (N.to_nat bins))).
    { unfold sampled. rewrite <- mfold_filter. apply mfold_ext. intros st m _. unfold raw. now destruct (is_inside g (sm_pos m)). }
    rewrite E in Q.
    destruct (hist_fold bins edges (sampled g s L) (repeat n0 (N.to_nat bins))) as [h [Eh [Vh Hh]]]; [unfold vlen; rewrite repeat_length; lia | exact B|].
    rewrite Eh in Q. destruct Q as [d' [Q Rd']]. exists d', h.
    split.
    - unfold histogram. cbn [String.eqb negb Ascii.eqb Bool.eqb]. change (String.eqb "velocity" "velocity") with true. cbn [negb].
      unfold edges, hist_lo, hist_hi in Q |- *. destruct (st_velmag (m_stats M)) as [[lo mean] top]. cbn [fst snd] in Q |- *.
      cbv zeta in Q |- *. destruct (all_steps bld M); [|discriminate Q]. cbn [bind] in Q |- *. rewrite Q. reflexivity.
    - split; [split; auto|]. split; [exact Vh|]. intros b Hb. apply Hh. unfold at_. rewrite nth_error_repeat; [reflexivity | lia].
  Qed.

  (** The bins partition the samples whose bin exists. *)
  Lemma bins_partition edges (bins : N) (l : list (sample F)) :
    List.length (filter (fun m => (bin_of edges m <? bins)%N) l) =
    fold_right Nat.add 0 (map (fun b => List.length (filter (in_bin edges b) l)) (range 0 bins)).
  Proof.
    induction l as [|m l IH].
    - cbn [filter]. induction (range 0 bins) as [|b r IHr]; [reflexivity|]. cbn. exact IHr.
    - assert (Step : forall bs, NoDup bs ->
        fold_right Nat.add 0 (map (fun b => List.length (filter (in_bin edges b) (m :: l))) bs) =
        fold_right Nat.add 0 (map (fun b => List.length (filter (in_bin edges b) l)) bs) +
        (if existsb (N.eqb (bin_of edges m)) bs then 1 else 0)).
      { induction bs as [|b bs IHb]; intros ND; [reflexivity|]. inversion ND as [|? ? Nin ND']; subst.
        cbn [map fold_right existsb]. rewrite (IHb ND'). cbn [filter]. unfold in_bin at 1. 
        destruct (N.eqb_spec (bin_of edges m) b) as [Eb|Nb]; cbn [List.length orb].
        - assert (Z : existsb (N.eqb (bin_of edges m)) bs = false).
          { destruct (existsb _ bs) eqn:Ex; [|reflexivity]. apply existsb_exists in Ex. destruct Ex as [c [Hc Ec]].
            apply N.eqb_eq in Ec. congruence. }
          rewrite Z. lia.
        - lia. }
      rewrite (Step _ (range_NoDup 0 bins)), <- IH. cbn [filter].
      destruct (N.ltb_spec (bin_of edges m) bins) as [Lt|Ge]; cbn [List.length].
      + assert (Ex : existsb (N.eqb (bin_of edges m)) (range 0 bins) = true).
        { apply existsb_exists. exists (bin_of edges m). split; [apply in_range; lia | apply N.eqb_refl]. }
        rewrite Ex. lia.
      + assert (Ex : existsb (N.eqb (bin_of edges m)) (range 0 bins) = false).
        { destruct (existsb _ _) eqn:Ex; [|reflexivity]. apply existsb_exists in Ex. destruct Ex as [c [Hc Ec]].
          apply N.eqb_eq in Ec. apply in_range in Hc. lia. }
        rewrite Ex. lia.
  Qed.
End Gen.

(** ** C38 *)
(** Doubles: the call returns [bins] counts and the edges; bin [b] holds exactly the number of
    samples with bin number [b]. *)
Theorem c38_counts {TF : Trig f64} (bld : build) (M : mgr f64) d L (g : grid f64) s limit bins :
  recorded M d L -> sel_ok s -> (1 <= bins)%N -> (vlen (sampled g s L) <= 2 ^ 53)%N ->
  let edges := bin_edges (hist_lo (m_stats M)) (hist_hi (m_stats M) limit) bins in
  exists d' h, histogram bld M d g s "velocity" limit bins = Val (d', (h, edges)) /\ vlen h = bins /\
    forall b, (b < bins)%N -> exists n : f64, at_ h b n /\ is_finite n = true /\
      B2R n = NR (vlen (filter (in_bin edges b) (sampled g s L))).
Proof.
  intros Rec Sk B Small edges. destruct (histogram_run bld M d L g s limit bins Rec Sk B) as [d' [h [E [_ [V H]]]]].
  exists d', h. split; [exact E|]. split; [exact V|]. intros b Hb. eexists. split; [now apply H|].
  destruct (of_Z_correct 0 ltac:(lia)) as [O1 F1].
  apply (count_exact _ (f64_of_Z 0) 0 F1 O1).
  assert (Q : (vlen (filter (in_bin edges b) (sampled g s L)) <= vlen (sampled g s L))%N).
  { unfold vlen. generalize (sampled g s L). clear. intros l. induction l as [|m l IH]; cbn; [lia|]. destruct (in_bin edges b m); cbn [List.length] in *; lia. }
  fold edges. lia.
Qed.
(** The counts sum to the number of samples whose bin exists. *)
Theorem c38_total {TF : Trig f64} (edges : list f64) (bins : N) (l : list (sample f64)) :
  List.length (filter (fun m => (bin_of edges m <? bins)%N) l) =
  fold_right Nat.add 0 (map (fun b => List.length (filter (in_bin edges b) l)) (range 0 bins)).
Proof. apply bins_partition. Qed.
(** Other properties are refused. *)
Theorem c38_other_property_refused {TF : Trig f64} (bld : build) (M : mgr f64) d g s property limit bins :
  property <> "velocity" -> histogram bld M d g s property limit bins = Panic.
Proof. intros H. unfold histogram. destruct (String.eqb_spec property "velocity"); [contradiction | reflexivity]. Qed.

(** Ideal arithmetic: edges and bins. *)
Section R.
  Context {TF : Trig R}.
  Local Open Scope R_scope.
  Lemma edges_nth lo hi bins k : (k < N.to_nat bins)%nat ->
    nth_error (bin_edges lo hi bins) k = Some (lo + INR k * ((hi - lo) / NR bins)).
  Proof.
    intros H. unfold bin_edges. rewrite nth_error_app1 by (rewrite map_length, range_length; lia).
    rewrite (map_nth_error _ k _ (range_nth_error 0 bins k ltac:(lia))). f_equal. cbn [nadd nmul nsub ndiv num_R nofN nof].
    unfold nofN. cbn [nof num_R]. rewrite N.add_0_l, nat_N_Z, <- INR_IZR_INZ. reflexivity.
  Qed.
  Lemma edges_last lo hi bins : nth_error (bin_edges (F := R) lo hi bins) (N.to_nat bins) = Some hi.
  Proof.
    unfold bin_edges. rewrite nth_error_app2 by (rewrite map_length, range_length; lia). rewrite map_length, range_length.
    replace (N.to_nat bins - N.to_nat (bins - 0))%nat with 0%nat by lia. reflexivity.
  Qed.
  Lemma NR_nat n : NR n = INR (N.to_nat n).
  Proof. unfold NR. rewrite INR_IZR_INZ. f_equal. lia. Qed.
  Lemma edges_at lo hi bins k : (1 <= bins)%N -> (k <= N.to_nat bins)%nat ->
    nth_error (bin_edges lo hi bins) k = Some (lo + INR k * ((hi - lo) / NR bins)).
  Proof.
    intros B H. destruct (Nat.eq_dec k (N.to_nat bins)) as [->|]; [|apply edges_nth; lia].
    rewrite edges_last. f_equal. rewrite <- NR_nat. assert (P := NR_pos bins B). field. lra.
  Qed.
  (** One more edge than bins, from the lower to the upper limit, increasing. *)
  Theorem c38_edges lo hi bins : (1 <= bins)%N -> lo < hi ->
    vlen (bin_edges lo hi bins) = (bins + 1)%N /\
    nth_error (bin_edges lo hi bins) 0 = Some lo /\ nth_error (bin_edges lo hi bins) (N.to_nat bins) = Some hi /\
    forall i j a b, (i < j)%nat -> nth_error (bin_edges lo hi bins) i = Some a -> nth_error (bin_edges lo hi bins) j = Some b -> a < b.
  Proof.
    intros B Hl.
    assert (V : vlen (bin_edges lo hi bins) = (bins + 1)%N).
    { unfold vlen, bin_edges. rewrite app_length, map_length, range_length. cbn [List.length]. lia. }
    split; [exact V|]. split; [rewrite edges_at by lia; f_equal; cbn [INR]; lra|]. split; [apply edges_last|].
    intros i j a b Hij Ha Hb.
    assert (Lj : (j < List.length (bin_edges lo hi bins))%nat) by (apply nth_error_Some; congruence).
    unfold vlen in V. rewrite edges_at in Ha by lia. rewrite edges_at in Hb by lia. injection Ha as <-. injection Hb as <-.
    assert (P := NR_pos bins B). assert (W : 0 < (hi - lo) / NR bins) by (apply Rdiv_lt_0_compat; lra).
    assert (INR i < INR j) by now apply lt_INR. nra.
  Qed.
  (** A sample not slower than the lower limit is in bin [b] iff its speed lies between the
      edges of that bin; samples at or above the upper limit are in no bin. *)
  Theorem c38_enclosed lo hi bins (m : sample R) b : (1 <= bins <= 2 ^ 53)%N -> lo < hi -> lo <= speed (sm_vel m) ->
    speed (sm_vel m) <= lo + (hi - lo) * IZR (2 ^ 9) ->
    let edges := bin_edges lo hi bins in
    (b < bins)%N ->
    in_bin edges b m = true <->
    nth (N.to_nat b) edges 0 <= speed (sm_vel m) < nth (N.to_nat b + 1) edges 0.
  Proof.
    intros [B B'] Hl Hv Hs edges Hb. set (v := speed (sm_vel m)) in *.
    assert (P := NR_pos bins B). set (w := (hi - lo) / NR bins). assert (W : 0 < w) by (apply Rdiv_lt_0_compat; lra).
    assert (E : forall k, (k <= N.to_nat bins)%nat -> nth k edges 0 = lo + INR k * w).
    { intros k Hk. apply nth_error_nth. unfold edges. now apply edges_at. }
    rewrite !E by lia. unfold in_bin, bin_of. change (@n0 R num_R) with 0. fold edges v. rewrite (E 0%nat), (E 1%nat) by lia.
    cbn [nsub ndiv num_R nusize nfloor INR].
    replace ((v - (lo + 0 * w)) / (lo + 1 * w - (lo + 0 * w))) with ((v - lo) / w) by (field; lra).
    set (x := (v - lo) / w).
    assert (X0 : 0 <= x) by (apply Rmult_le_pos; [unfold v in *; lra | left; now apply Rinv_0_lt_compat]).
    assert (Vx : v = lo + x * w) by (unfold x; field; lra).
    assert (Nb : NR bins <= IZR (2 ^ 53)) by (unfold NR; apply IZR_le; lia).
    assert (X1 : x < IZR (2 ^ 63)).
    { assert (Wn : w * NR bins = hi - lo) by (unfold w; field; lra).
      assert (x * w <= w * NR bins * IZR (2 ^ 9)) by (rewrite Wn; lra).
      assert (x <= NR bins * IZR (2 ^ 9)) by (apply Rmult_le_reg_r with w; lra).
      assert (NR bins * IZR (2 ^ 9) <= IZR (2 ^ 53) * IZR (2 ^ 9)) by (apply Rmult_le_compat_r; [apply IZR_le; lia | exact Nb]).
      rewrite <- mult_IZR in H1. eapply Rle_lt_trans; [exact H0|]. eapply Rle_lt_trans; [exact H1|]. apply IZR_lt. lia. }
    assert (Fl : (0 <= Zfloor x)%Z) by (apply Zfloor_lub; exact X0).
    assert (Fu : (Zfloor x < 2 ^ 63)%Z) by (apply lt_IZR; eapply Rle_lt_trans; [apply Zfloor_lb | exact X1]).
    assert (Us : R_to_usize (IZR (Zfloor x)) = Z.to_N (Zfloor x)).
    { unfold R_to_usize. rewrite Ztrunc_IZR. f_equal. unfold usize_max. lia. }
    rewrite Us, Vx, plus_INR. cbn [INR].
    assert (Ib : INR (N.to_nat b) = IZR (Z.of_N b)) by (rewrite INR_IZR_INZ; f_equal; lia). rewrite Ib.
    rewrite N.eqb_eq. split.
    - intros <-. rewrite Z2N.id by exact Fl. assert (A := Zfloor_lb x). assert (A' := Zfloor_ub x). split; nra.
    - intros [A1 A2]. assert (Z1 : Zfloor x = Z.of_N b).
      { apply Zfloor_imp. rewrite plus_IZR. split; [|]; apply Rmult_le_reg_r with w || apply Rmult_lt_reg_r with w; lra. }
      rewrite Z1. lia.
  Qed.
End R.

(** Slower than the lower limit: counted in bin 0 all the same. *)
Theorem c38_below_refuted {TF : Trig f64} :
  in_bin (bin_edges (d 1) (d 2) 1) 0 (mkSample (d 0) (d 0, d 0, d 0) (d 0, d 0, d 0) (d 1) (d 1) (d 1) (d 1) (d 1)) = true.
Proof. vm_compute. reflexivity. Qed.
(** A NaN velocity is counted in bin 0. *)
Theorem c38_nan_refuted {TF : Trig f64} :
  in_bin (bin_edges (d 0) (d 2) 2) 0 (mkSample (d 0) (d 0, d 0, d 0) (B754_nan, d 0, d 0) (d 1) (d 1) (d 1) (d 1) (d 1)) = true.
Proof. vm_compute. reflexivity. Qed.
(** With the default limit the fastest sample is in no bin. *)
Theorem c38_maximum_refuted {TF : Trig f64} :
  after (cart_new (2, 2, 2)%N (ThreeD box64)) (fun g =>
  after (histogram Debug (list_mgr ex_data (ex_stats 2)) tt g sel_default "velocity" (d 0) 2) (fun r =>
    map B2SF (fst (snd r)) = map B2SF [d 0; d 1] /\ vlen (sampled g sel_default ex_data) = 3%N)).
Proof. vm_compute. split; reflexivity. Qed.
Example c38_case : exists m : sample R, (0 <= speed (sm_vel m))%R /\ in_bin (bin_edges 0%R 4%R 4) 1 m = true.
Proof.
  assert (S : speed (F := R) (1, 0, 0)%R = 1%R).
  { unfold speed. cbn [nsqrt nadd nmul num_R]. replace (1 * 1 + 0 * 0 + 0 * 0)%R with 1%R by lra. apply sqrt_1. }
  exists (mkSample 0 (0, 0, 0) (1, 0, 0) 0 0 0 0 0)%R. cbn [sm_vel]. split; [rewrite S; lra|].
  apply (c38_enclosed 0 4 4 (mkSample 0 (0, 0, 0) (1, 0, 0) 0 0 0 0 0)%R 1); cbn [sm_vel]; rewrite ?S; try lia; try lra.
  - assert (E1 := edges_at 0 4 4 1 ltac:(lia) ltac:(lia)). assert (E2 := edges_at 0 4 4 2 ltac:(lia) ltac:(lia)).
    apply nth_error_nth with (d := 0%R) in E1, E2. change (N.to_nat 1 + 1)%nat with 2%nat. change (N.to_nat 1) with 1%nat.
    rewrite E1, E2. cbn [INR]. unfold NR. cbn [Z.of_N]. lra.
Qed.
