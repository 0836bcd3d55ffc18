(** * PropertiesComp: comparing two data sets (src/comparison.rs)

    C121: aligning leaves the comparer as it was.  C122: when aligning works.  C123: what it prints.
    C124: the two grids it compares. *)
From Coq Require Import Reals List NArith ZArith Bool Lia Lra Permutation ZifyBool ZifyN ZifyNat.
From Flocq Require Import Core.Core IEEE754.BinarySingleNaN.
From Verif Require Import Base BaseFacts Num F64Facts RFacts NDArray GridModel GridSpec GridFacts CartProofs SelModel PropertiesSel DataModel DataSpec DataProofs DataLoad PropertiesGrid PropertiesData FunModel FunSpec FunProofs FunMgr FunField PropertiesFun FunMix PyModel PyStat PropertiesPipeline CompModel.
Import ListNotations.
Local Open Scope list_scope.

(** ** Specification *)
Section Spec.
  Context {TF : Trig f64} (bld : build).
  (** The cells of a grid that contain at least one of the positions. *)
  Definition occupied (g : grid f64) (P : list (v3 f64)) : list id3 :=
    filter (fun c => (0 <? n_in bld g c P)%N) (ids3 (geom_cells (geo g))).
  (** [thr] is the entry of rank [r] (from 0) of a list of numbers. *)
  Definition rankN (l : list N) (r thr : N) : Prop :=
    In thr l /\ (vlen (filter (fun x => x <? thr)%N l) <= r)%N /\ (r < vlen (filter (fun x => x <=? thr)%N l))%N.
  (** [thr] is the number of positions in the occupied cell of rank [r]. *)
  Definition threshold (g : grid f64) (P : list (v3 f64)) (r thr : N) : Prop :=
    rankN (map (fun c => n_in bld g c P) (occupied g P)) r thr.
  (** The number of cells with more positions than the threshold in exactly one of the two grids. *)
  Definition mismatch (cells : id3) (r : N) (g1 : grid f64) (P1 : list (v3 f64)) (g2 : grid f64) (P2 : list (v3 f64)) (k : N) : Prop :=
    exists thr1 thr2, threshold g1 P1 r thr1 /\ threshold g2 P2 r thr2 /\
      k = vlen (filter (fun c => xorb (thr1 <? n_in bld g1 c P1)%N (thr2 <? n_in bld g2 c P2)%N) (ids3 cells)).
  (** [m] is the first place of the least of the entries [0..n]. *)
  Definition first_min (l : list N) (n m : N) : Prop :=
    (m <= n)%N /\ exists k, at_ l m k /\ (forall j k', (j <= n)%N -> at_ l j k' -> (k <= k')%N) /\
      (forall j k', (j < m)%N -> at_ l j k' -> (k < k')%N).
End Spec.

(** ** C121 *)
Theorem c121_not_aligned_refuted {F} {NF : Num F} {TF : Trig F} (bld : build) (M1 M2 : mgr F) (d1 : ms M1) (d2 : ms M2) (g : grid F) c' out :
  align bld M1 M2 (compare M1 M2 d1 d2 g) = Val (c', out) -> k_grid c' = g /\ k_grid2 c' = g /\ k_aligned c' = false.
Proof.
  unfold align, align_with. cbv zeta. intros E. apply bind_val in E. destruct E as [s [_ E]].
  assert (Q : c' = mkCmp (c_d1 s) g (c_d2 s) g false) by (cbn in E; congruence). rewrite Q. repeat split.
Qed.

(** ** C123: what is compared is two number fields on grids of the kind of the grid given *)
Section Kind.
  Context {F} {NF : Num F} {TF : Trig F} (bld : build) (M1 M2 : mgr F).
  Definition same_kind (g h : grid F) : Prop :=
    match geo g, geo h with Cart _, Cart _ => True | Cyl _, Cyl _ => True | _, _ => False end.
  (** A printed line: the difference of the thresholded number fields of the two data sets. *)
  Definition compares (g : grid F) (line : v3 F * F) : Prop :=
    exists ga gb d1 d2 ra rb qa qb, same_kind ga g /\ same_kind gb g /\ geom_cells (geo ga) = (100, 100, 100)%N /\ geom_cells (geo gb) = (100, 100, 100)%N /\
      numberfield bld M1 d1 ga sel_default = Val ra /\ numberfield bld M2 d2 gb sel_default = Val rb /\
      binary_threshold (data (snd ra)) (nlit 1 100) = Val qa /\ binary_threshold (data (snd rb)) (nlit 1 100) = Val qb /\ snd line = difference qa qb.
  Lemma made_kind dims cells (g h : grid F) : make_grid dims (is_cartesian g) cells = Val h -> same_kind h g /\ geom_cells (geo h) = cells.
  Proof.
    destruct dims as [[[x0 y0] z0] [[x1 y1] z1]], cells as [[nx ny] nz]. unfold make_grid, is_cartesian, same_kind. destruct (geo g); intros [= <-]; cbn; auto.
  Qed.
  Theorem c123_kind (g : grid F) (d1 : ms M1) (d2 : ms M2) c' out : align bld M1 M2 (compare M1 M2 d1 d2 g) = Val (c', out) -> Forall (compares g) out.
  Proof.
    unfold align, align_with. cbv zeta. intros E. apply bind_val in E. destruct E as [s [E Q]]. assert (Q' : c_out s = out) by congruence. rewrite <- Q'. clear Q Q'.
    set (e1 := dims1 _ _) in E. set (e2 := dims2 _ _ _) in E. clearbody e1 e2.
    cbn [compare k_grid k_data k_data2] in E. revert E. generalize (offsets_of (sizes (st_dims (m_stats M1))) 100). intros os.
    match goal with |- mfold _ _ ?i = _ -> _ => assert (I : Forall (compares g) (c_out i)) by constructor; revert I; generalize i end.
    induction os as [|o os IH]; intros i I E; cbn [mfold] in E; [injection E as <-; exact I|]. destruct (try_offset bld M1 M2 _ _ _ _ _ i o) as [i'|] eqn:T; [|discriminate].
    apply (IH i'); [|exact E]. clear IH E. unfold try_offset in T.
    apply bind_val in T. destruct T as [g1 [E1 T]]. apply bind_val in T. destruct T as [g2 [E2 T]]. apply bind_val in T. destruct T as [r1 [E3 T]].
    apply bind_val in T. destruct T as [r2 [E4 T]]. apply bind_val in T. destruct T as [b1 [E5 T]]. apply bind_val in T. destruct T as [b2 [E6 T]].
    apply made_kind in E1, E2. destruct (_ <? _)%num in T; injection T as <-; cbn [c_out]; (apply Forall_app; split; [exact I|]; constructor; [|constructor]);
      exists g1, g2, (c_d1 i), (c_d2 i), r1, r2, b1, b2; cbn [snd]; tauto.
  Qed.
End Kind.

(** ** One offset *)
  Lemma NR_lt a b : (NR a < NR b)%R <-> (a < b)%N.
  Proof. unfold NR. split; [intros H; apply lt_IZR in H; lia | intros H; apply IZR_lt; lia]. Qed.
  Lemma NR_le a b : (NR a <= NR b)%R <-> (a <= b)%N.
  Proof. unfold NR. split; [intros H; apply le_IZR in H; lia | intros H; apply IZR_le; lia]. Qed.
  Lemma NR_eq a b : NR a = NR b <-> a = b.
  Proof. unfold NR. split; [intros H; apply eq_IZR in H; lia | congruence]. Qed.
  Lemma bool_iff (b c : bool) : (b = true <-> c = true) -> b = c.
  Proof. destruct b, c; intuition congruence. Qed.
  Lemma filter_map {A B} (f : A -> B) (p : B -> bool) l : filter p (map f l) = map f (filter (fun x => p (f x)) l).
  Proof. induction l as [|a l IH]; [reflexivity|]. cbn. destruct (p (f a)); cbn; now rewrite IH. Qed.
  Lemma filter_ext_in' {A} (p p' : A -> bool) l : (forall x, In x l -> p x = p' x) -> filter p l = filter p' l.
  Proof. induction l as [|a l IH]; intros H; [reflexivity|]. cbn. rewrite (H a (or_introl eq_refl)), IH; [reflexivity|]. intros x Hx. apply H. now right. Qed.
  Lemma zero_R : B2R (f64_of_Z 0) = NR 0 /\ is_finite (f64_of_Z 0) = true.
  Proof. exact (of_Z_correct 0 ltac:(lia)). Qed.

  Lemma vlen_cons {A} (x : A) l : vlen (x :: l) = (vlen l + 1)%N.
  Proof. unfold vlen. cbn [Datatypes.length]. lia. Qed.
  Lemma sub_exact (x y : f64) (a b : Z) : is_finite x = true -> B2R x = IZR a -> is_finite y = true -> B2R y = IZR b -> (Z.abs (a - b) <= 2 ^ 53)%Z ->
    is_finite (nsub x y : f64) = true /\ B2R (nsub x y : f64) = IZR (a - b).
  Proof.
    intros Fx Ex Fy Ey Hab. generalize (Bminus_correct 53 1024 _ _ mode_NE x y Fx Fy). rewrite Ex, Ey, <- minus_IZR.
    change (round radix2 fexp64 (round_mode mode_NE) (IZR (a - b))) with (rnd (IZR (a - b))). rewrite rnd_fmt by (apply fmt_int; lia). rewrite Rlt_bool_true.
    - intros [H1 [H2 _]]. auto.
    - apply Rle_lt_trans with (IZR (2 ^ 53)); [|apply M64_big]. rewrite <- abs_IZR. apply IZR_le. lia.
  Qed.
  Lemma add_bits (t : id3 -> f64) (p : id3 -> bool) : forall l (w : f64) n, is_finite w = true -> B2R w = NR n -> (n + vlen l <= 2 ^ 53)%N ->
    (forall c, In c l -> is_finite (t c) = true /\ B2R (t c) = NR (if p c then 1 else 0)) ->
    is_finite (fold_left nadd (map t l) w) = true /\ B2R (fold_left nadd (map t l) w) = NR (n + vlen (filter p l)).
  Proof.
    induction l as [|c l IH]; intros w n Fw Ew Le Ht; cbn [map fold_left filter]; [rewrite N.add_0_r; auto|].
    rewrite vlen_cons in Le. destruct (Ht c (or_introl eq_refl)) as [Fc Ec].
    destruct (p c).
    - destruct (add_exact w (t c) n 1 Fw Ew Fc Ec ltac:(lia)) as [A1 A2]. rewrite vlen_cons. replace (n + (vlen (filter p l) + 1))%N with (n + 1 + vlen (filter p l))%N by lia.
      apply IH; [exact A1 | exact A2 | lia | intros c' Hc'; apply Ht; now right].
    - destruct (add_exact w (t c) n 0 Fw Ew Fc Ec ltac:(lia)) as [A1 A2]. rewrite N.add_0_r in A2. apply IH; [exact A1 | exact A2 | lia | intros c' Hc'; apply Ht; now right].
  Qed.
Section One.
  Context {TF : Trig f64} (bld : build).
  (** The number field of a data set. *)
  Lemma number_field (M : mgr f64) d L (g : grid f64) (cg : cart_geom f64) :
    recorded M d L -> Forall (fun x => is_finite (ts_time x) = true) L -> wf_grid g -> geo g = Cart cg -> sized (cc_cells cg) ->
    (vlen (concat (map ts_pos L)) <= 2 ^ 53)%N ->
    exists d' h, numberfield bld M d g sel_default = Val (d', h) /\ recorded M d' L /\ sh3 (data h) = cc_cells cg /\
      forall c, inb3 (cc_cells cg) c = true -> is_finite (at3 (data h) c) = true /\ B2R (at3 (data h) c) = NR (n_in bld g c (concat (map ts_pos L))).
  Proof.
    intros Rec Fin W G Sz Small. assert (Sk : sel_ok (sel_default (F := f64))) by (repeat split; discriminate).
    destruct (c34_number_of_samples bld M d L g cg sel_default Rec Sk W G Sz) as [d' [h [E [Rec' [Gh H]]]]].
    exists d', h. split; [exact E|]. split; [exact Rec'|]. split.
    { destruct (number_cells bld M d L g sel_default d' h Rec Sk W E) as [_ [[Wh _] [Gh' _]]]. rewrite Wh, Gh', G. reflexivity. }
    intros c Hc. rewrite (all_observed L Fin) in H. assert (Rl : Forall rect L) by apply Rec.
    specialize (H c Hc). rewrite count_pos, (flat_pos L Rl) in H. apply H.
    assert (Q := PropertiesPipeline.filter_le (in_cell bld (geo g) c) (concat (map ts_pos L))). lia.
  Qed.

  Context (cells : id3) (q : f64).
  Hypothesis Sz : sized cells.
  Hypothesis Two : (2 <= vlen (ids3 cells) <= 2 ^ 53)%N.
  Hypothesis Hq : Bleb (f64_of_Z 0) q = true /\ Bleb q (f64_of_Z 1) = true.
  Definition quota : N := f64_to_usize (Bmult mode_NE (f64_of_Z (Z.of_N (vlen (ids3 cells)))) q).

  (** A field whose entries are numbers of positions. *)
  Definition holds_counts (a : arr3 f64) (cnt : id3 -> N) : Prop :=
    sh3 a = cells /\ forall c, inb3 cells c = true -> is_finite (at3 a c) = true /\ B2R (at3 a c) = NR (cnt c).
  Section Field.
    Context (a : arr3 f64) (cnt : id3 -> N).
    Hypothesis H : holds_counts a cnt.
    Lemma fin c : In c (ids3 cells) -> is_finite (at3 a c) = true. Proof. intros Hc. apply (proj2 H). now apply in_ids3. Qed.
    Lemma val c : In c (ids3 cells) -> B2R (at3 a c) = NR (cnt c). Proof. intros Hc. apply (proj2 H). now apply in_ids3. Qed.
    Lemma nonzero_cells : nonzero a = map (at3 a) (filter (fun c => (0 <? cnt c)%N) (ids3 cells)).
    Proof.
      unfold nonzero. rewrite (proj1 H), filter_map. apply (f_equal (map (at3 a))). apply filter_ext_in'. intros c Hc.
      destruct zero_R as [Z1 Z2]. apply bool_iff. rewrite negb_true_iff.
      assert (E : Beqb (at3 a c) (f64_of_Z 0) = true <-> cnt c = 0%N) by (rewrite Beqb_R, (val c Hc), Z1, NR_eq by (try apply fin; assumption); reflexivity).
      destruct (Beqb (at3 a c) (f64_of_Z 0)).
      - assert (Q : cnt c = 0%N) by now apply E. rewrite Q. split; discriminate.
      - split; [intros _ | reflexivity]. destruct (N.eq_dec (cnt c) 0) as [Q|Q]; [apply E in Q; discriminate | lia].
    Qed.
    Lemma few_panic : (vlen (filter (fun c => (0 <? cnt c)%N) (ids3 cells)) <= quota)%N -> binary_threshold a q = Panic.
    Proof.
      intros Few. destruct (binary_threshold a q) as [out|] eqn:E; [|reflexivity]. exfalso.
      assert (Ca : cells_of a = vlen (ids3 cells)) by (unfold cells_of; now rewrite (proj1 H)).
      destruct (proj1 (c62_accepts a q ltac:(lia)) (ex_intro _ out E)) as [_ [_ [_ R]]]. rewrite nonzero_cells, vlen_map in R.
      unfold q_rank in R. rewrite Ca in R. unfold quota in Few. lia.
    Qed.
    Lemma many_marks : (quota < vlen (filter (fun c => (0 <? cnt c)%N) (ids3 cells)))%N ->
      exists out thr, binary_threshold a q = Val out /\ sh3 out = cells /\
        rankN (map cnt (filter (fun c => (0 <? cnt c)%N) (ids3 cells))) quota thr /\
        forall c, In c (ids3 cells) -> at3 out c = f64_of_Z (if (thr <? cnt c)%N then 1 else 0).
    Proof.
      intros Many. assert (Ca : cells_of a = vlen (ids3 cells)) by (unfold cells_of; now rewrite (proj1 H)).
      assert (Rk : q_rank a q = quota) by (unfold q_rank, quota; now rewrite Ca).
      destruct (proj2 (c62_accepts a q ltac:(lia))) as [out E].
      { split; [apply Hq|]. split; [apply Hq|]. split; [|rewrite Rk, nonzero_cells, vlen_map; exact Many].
        intros c Hc. rewrite (proj1 H) in Hc. apply in_ids3 in Hc. assert (Fc := fin c Hc). destruct (at3 a c); try discriminate; reflexivity. }
      destruct (c62_marks a out q E ltac:(lia)) as [t [[Ti [R1 R2]] [So Ho]]]. rewrite Rk in R1, R2. rewrite nonzero_cells in Ti, R1, R2.
      apply in_map_iff in Ti. destruct Ti as [c0 [<- Hc0]]. assert (Hc0' : In c0 (ids3 cells)) by (now apply filter_In in Hc0).
      exists out, (cnt c0). split; [exact E|]. split; [now rewrite So, (proj1 H)|].
      assert (Lt : forall c c', In c (ids3 cells) -> In c' (ids3 cells) -> Bltb (at3 a c) (at3 a c') = (cnt c <? cnt c')%N).
      { intros c c' Hc Hc'. apply bool_iff. rewrite Bltb_R, (val c Hc), (val c' Hc'), NR_lt by now apply fin. lia. }
      assert (Le : forall c c', In c (ids3 cells) -> In c' (ids3 cells) -> Bleb (at3 a c) (at3 a c') = (cnt c <=? cnt c')%N).
      { intros c c' Hc Hc'. apply bool_iff. rewrite Bleb_R, (val c Hc), (val c' Hc'), NR_le by now apply fin. lia. }
      split.
      - rewrite filter_map, vlen_map in R1, R2.
        rewrite (filter_ext_in' _ (fun c => cnt c <? cnt c0)%N) in R1 by (intros c Hc; apply Lt; [now apply filter_In in Hc | exact Hc0']).
        rewrite (filter_ext_in' _ (fun c => cnt c <=? cnt c0)%N) in R2 by (intros c Hc; apply Le; [now apply filter_In in Hc | exact Hc0']).
        unfold rankN. rewrite !filter_map, !vlen_map. split; [now apply in_map|]. split; assumption.
      - intros c Hc. rewrite Ho, Lt by assumption. reflexivity.
    Qed.
  End Field.

  Lemma difference_count (b1 b2 : arr3 f64) (p1 p2 : id3 -> bool) : sh3 b1 = cells ->
    (forall c, In c (ids3 cells) -> at3 b1 c = f64_of_Z (if p1 c then 1 else 0)) -> (forall c, In c (ids3 cells) -> at3 b2 c = f64_of_Z (if p2 c then 1 else 0)) ->
    is_finite (difference b1 b2) = true /\ B2R (difference b1 b2) = NR (vlen (filter (fun c => xorb (p1 c) (p2 c)) (ids3 cells))).
  Proof.
    intros S H1 H2. unfold difference. rewrite S. destruct zero_R as [Z1 Z2].
    refine (add_bits (fun c => nabs (nsub (at3 b1 c) (at3 b2 c))) (fun c => xorb (p1 c) (p2 c)) (ids3 cells) (f64_of_Z 0) 0 Z2 Z1 ltac:(lia) _).
    intros c Hc. rewrite H1, H2 by exact Hc.
    set (a := if p1 c then 1%Z else 0%Z). set (b := if p2 c then 1%Z else 0%Z).
    assert (Ha : (0 <= a <= 1)%Z) by (unfold a; destruct (p1 c); lia). assert (Hb : (0 <= b <= 1)%Z) by (unfold b; destruct (p2 c); lia).
    destruct (of_Z_correct a ltac:(lia)) as [Oa Fa]. destruct (of_Z_correct b ltac:(lia)) as [Ob Fb].
    destruct (sub_exact (f64_of_Z a) (f64_of_Z b) a b Fa Oa Fb Ob ltac:(lia)) as [Fs Es].
    change (nabs (nsub (f64_of_Z a) (f64_of_Z b)) : f64) with (Babs (nsub (f64_of_Z a) (f64_of_Z b) : f64)).
    rewrite is_finite_Babs, B2R_Babs. split; [exact Fs|]. rewrite Es, <- abs_IZR. unfold NR, a, b. destruct (p1 c), (p2 c); reflexivity.
  Qed.
End One.

(** The boxes of the two grids that [align] compares (first one before it is moved). *)
Section Boxes.
  Context {F : Type} {NF : Num F}.
  Definition box1 (s1 s2 : stats F) : v3 F * v3 F :=
    let adj := adjustment (sizes (st_dims s1)) (sizes (st_dims s2)) in
    dims1 (st_dims s1) (system_size (sizes (st_dims s1)) (sizes (st_dims s2)) adj).
  Definition box2 (s1 s2 : stats F) : v3 F * v3 F :=
    let adj := adjustment (sizes (st_dims s1)) (sizes (st_dims s2)) in
    dims2 (st_dims s2) (system_size (sizes (st_dims s1)) (sizes (st_dims s2)) adj) adj.
End Boxes.

Section Align.
  Context {TF : Trig f64} (bld : build) (M1 M2 : mgr f64) (L1 L2 : list (timestep f64)).
  Definition positions (L : list (timestep f64)) : list (v3 f64) := concat (map ts_pos L).
  Definition countable (L : list (timestep f64)) : Prop :=
    Forall (fun x => is_finite (ts_time x) = true) L /\ (vlen (positions L) <= 2 ^ 53)%N.
  Hypothesis C1 : countable L1.
  Hypothesis C2 : countable L2.
  Context (cells : id3).
  Hypothesis Sz : sized cells.
  Hypothesis Two : (2 <= vlen (ids3 cells) <= 2 ^ 53)%N.
  Let q : f64 := nlit 1 100.
  Lemma q_ok : Bleb (f64_of_Z 0) q = true /\ Bleb q (f64_of_Z 1) = true.
  Proof. split; vm_compute; reflexivity. Qed.
  Let r := quota cells q.

  Lemma make_cart dims : exists g cg, make_grid dims true cells = Val g /\ wf_grid g /\ geo g = Cart cg /\ cc_cells cg = cells.
  Proof.
    destruct dims as [[[x0 y0] z0] [[x1 y1] z1]]. destruct cells as [[nx ny] nz]. unfold make_grid.
    do 2 eexists. split; [reflexivity|]. split; [split; reflexivity | split; reflexivity].
  Qed.

  Lemma field_ok (M : mgr f64) d L dims : countable L -> recorded M d L ->
    exists g d' h, make_grid dims true cells = Val g /\ numberfield bld M d g sel_default = Val (d', h) /\ recorded M d' L /\
      geom_cells (geo g) = cells /\ holds_counts cells (data h) (fun c => n_in bld g c (positions L)).
  Proof.
    intros [Fin Small] Rec. destruct (make_cart dims) as [g [cg [E [W [G C]]]]].
    destruct (number_field bld M d L g cg Rec Fin W G ltac:(rewrite C; exact Sz) Small) as [d' [h [En [Rec' [Sh H]]]]].
    exists g, d', h. split; [exact E|]. split; [exact En|]. split; [exact Rec'|]. split; [rewrite G; exact C|].
    rewrite C in *. split; [exact Sh | exact H].
  Qed.

  Definition good_offset (e1 e2 : v3 f64 * v3 f64) (o : v3 f64) : Prop :=
    forall g1 g2, make_grid (moved e1 o) true cells = Val g1 -> make_grid e2 true cells = Val g2 ->
      (r < vlen (occupied bld g1 (positions L1)))%N /\ (r < vlen (occupied bld g2 (positions L2)))%N.
  Definition offset_mismatch (e1 e2 : v3 f64 * v3 f64) (o : v3 f64) (k : N) : Prop :=
    exists g1 g2, make_grid (moved e1 o) true cells = Val g1 /\ make_grid e2 true cells = Val g2 /\
      mismatch bld cells r g1 (positions L1) g2 (positions L2) k.

  Lemma try_cases e1 e2 (s : scan M1 M2) o : recorded M1 (c_d1 s) L1 -> recorded M2 (c_d2 s) L2 ->
    (~ good_offset e1 e2 o /\ try_offset bld M1 M2 cells true q e1 e2 s o = Panic) \/
    (good_offset e1 e2 o /\ exists d1' d2' k (diff : f64), recorded M1 d1' L1 /\ recorded M2 d2' L2 /\ offset_mismatch e1 e2 o k /\
       is_finite diff = true /\ B2R diff = NR k /\
       try_offset bld M1 M2 cells true q e1 e2 s o =
         Val (let b := if Bltb diff (c_old s) then o else c_best s in
              mkScan d1' d2' (if Bltb diff (c_old s) then diff else c_old s) b (c_out s ++ [(b, diff)]))).
  Proof.
    intros R1 R2. unfold try_offset.
    destruct (field_ok M1 (c_d1 s) L1 (moved e1 o) C1 R1) as [g1 [d1' [h1 [Eg1 [En1 [R1' [Gc1 H1]]]]]]].
    destruct (field_ok M2 (c_d2 s) L2 e2 C2 R2) as [g2 [d2' [h2 [Eg2 [En2 [R2' [Gc2 H2]]]]]]].
    rewrite Eg1, Eg2. cbn [bind]. rewrite En1. cbn [bind]. rewrite En2. cbn [bind fst snd].
    assert (O1 : occupied bld g1 (positions L1) = filter (fun c => (0 <? n_in bld g1 c (positions L1))%N) (ids3 cells)) by (unfold occupied; now rewrite Gc1).
    assert (O2 : occupied bld g2 (positions L2) = filter (fun c => (0 <? n_in bld g2 c (positions L2))%N) (ids3 cells)) by (unfold occupied; now rewrite Gc2).
    destruct (N.le_gt_cases (vlen (occupied bld g1 (positions L1))) r) as [Few|Many1].
    { left. split; [intros G; destruct (G g1 g2 Eg1 Eg2); lia|].
      rewrite (few_panic cells q Two q_ok (data h1) _ H1) by (rewrite O1 in Few; exact Few). reflexivity. }
    destruct (many_marks cells q Two q_ok (data h1) _ H1 ltac:(rewrite O1 in Many1; exact Many1)) as [b1 [t1 [E1 [S1 [T1 K1]]]]]. rewrite E1. cbn [bind].
    destruct (N.le_gt_cases (vlen (occupied bld g2 (positions L2))) r) as [Few|Many2].
    { left. split; [intros G; destruct (G g1 g2 Eg1 Eg2); lia|].
      rewrite (few_panic cells q Two q_ok (data h2) _ H2) by (rewrite O2 in Few; exact Few). reflexivity. }
    destruct (many_marks cells q Two q_ok (data h2) _ H2 ltac:(rewrite O2 in Many2; exact Many2)) as [b2 [t2 [E2 [S2 [T2 K2]]]]]. rewrite E2. cbn [bind].
    right. split.
    { intros g1' g2' Eg1' Eg2'. assert (g1' = g1) by congruence. assert (g2' = g2) by congruence. subst. split; assumption. }
    destruct (difference_count cells q Two q_ok b1 b2 (fun c => (t1 <? n_in bld g1 c (positions L1))%N) (fun c => (t2 <? n_in bld g2 c (positions L2))%N) S1 K1 K2) as [Df De].
    exists d1', d2'. eexists. exists (difference b1 b2). split; [exact R1'|]. split; [exact R2'|]. split; [|split; [exact Df|split; [exact De|]]].
    - exists g1, g2. split; [exact Eg1|]. split; [exact Eg2|]. exists t1, t2. unfold threshold. rewrite O1, O2. split; [exact T1|]. split; [exact T2|]. reflexivity.
    - change (nltb (difference b1 b2) (c_old s)) with (Bltb (difference b1 b2) (c_old s)). destruct (Bltb (difference b1 b2) (c_old s)); reflexivity.
  Qed.

  (** ** The scan *)
  Definition prints (os : list (v3 f64)) (ds : list N) (out : list (v3 f64 * f64)) : Prop :=
    forall n b x, at_ out n (b, x) ->
      (exists k, at_ ds n k /\ is_finite x = true /\ B2R x = NR k) /\
      exists m, at_ os m b /\ first_min ds n m.
  Definition scan_inv (os : list (v3 f64)) (ds : list N) (s : scan M1 M2) : Prop :=
    recorded M1 (c_d1 s) L1 /\ recorded M2 (c_d2 s) L2 /\ vlen (c_out s) = vlen os /\ vlen ds = vlen os /\ prints os ds (c_out s) /\
    (os = [] /\ c_old s = B754_infinity false \/
     exists m k, at_ os m (c_best s) /\ first_min ds (vlen ds - 1) m /\ at_ ds m k /\ is_finite (c_old s) = true /\ B2R (c_old s) = NR k).

  Lemma at_app_l {A} (l l' : list A) n x : at_ l n x -> at_ (l ++ l') n x.
  Proof. unfold at_. intros H. rewrite nth_error_app1; [exact H|]. apply nth_error_Some. congruence. Qed.
  Lemma at_app_inv {A} (l : list A) y n x : at_ (l ++ [y]) n x -> at_ l n x \/ n = vlen l /\ x = y.
  Proof.
    unfold at_, vlen. intros H. destruct (Nat.lt_ge_cases (N.to_nat n) (List.length l)) as [Q|Q]; [rewrite nth_error_app1 in H by exact Q; now left|].
    rewrite nth_error_app2 in H by exact Q. destruct (N.to_nat n - List.length l)%nat as [|j] eqn:E; cbn in H; [right; split; [lia | congruence] | destruct j; discriminate].
  Qed.
  Lemma at_app_last {A} (l : list A) y : at_ (l ++ [y]) (vlen l) y.
  Proof. unfold at_, vlen. rewrite nth_error_app2 by lia. replace (N.to_nat (N.of_nat (List.length l)) - List.length l)%nat with 0%nat by lia. reflexivity. Qed.
  Lemma first_min_app l l' n m : (n < vlen l)%N -> first_min l n m -> first_min (l ++ l') n m.
  Proof.
    intros Ln [Lm [k [Hk [H1 H2]]]]. split; [exact Lm|]. exists k. split; [now apply at_app_l|].
    assert (Old : forall j k', (j <= n)%N -> at_ (l ++ l') j k' -> at_ l j k').
    { intros j k' Hj. unfold at_. rewrite nth_error_app1; [auto|]. unfold vlen in *. lia. }
    split; intros j k' Hj Hk'; [apply (H1 j k' Hj) | apply (H2 j k' Hj)]; apply Old; try assumption; lia.
  Qed.
  Lemma inv_step e1 e2 os ds s s' o : scan_inv os ds s -> try_offset bld M1 M2 cells true q e1 e2 s o = Val s' ->
    good_offset e1 e2 o /\ exists k, offset_mismatch e1 e2 o k /\ scan_inv (os ++ [o]) (ds ++ [k]) s'.
  Proof.
    intros [R1 [R2 [Lo [Ld [Pr Best]]]]] E. destruct (try_cases e1 e2 s o R1 R2) as [[_ E']|[G [d1' [d2' [k [diff [R1' [R2' [Mm [Df [De E']]]]]]]]]]]; [congruence|].
    split; [exact G|]. exists k. split; [exact Mm|]. rewrite E in E'. injection E' as ->. cbv zeta.
    assert (Lsn : forall A (l : list A) y, vlen (l ++ [y]) = (vlen l + 1)%N) by (intros; unfold vlen; rewrite app_length; cbn; lia).
    (* the new best *)
    set (b := if Bltb diff (c_old s) then o else c_best s).
    set (old' := if Bltb diff (c_old s) then diff else c_old s).
    assert (New : exists m k0, at_ (os ++ [o]) m b /\ first_min (ds ++ [k]) (vlen ds) m /\ at_ (ds ++ [k]) m k0 /\ is_finite old' = true /\ B2R old' = NR k0).
    { assert (Take : (forall j k'', at_ ds j k'' -> (k < k'')%N) -> exists m k0, at_ (os ++ [o]) m o /\ first_min (ds ++ [k]) (vlen ds) m /\ at_ (ds ++ [k]) m k0 /\ is_finite diff = true /\ B2R diff = NR k0).
      { intros Less. exists (vlen ds), k. split; [rewrite Ld; apply at_app_last|]. split; [|split; [apply at_app_last | split; assumption]].
        split; [lia|]. exists k. split; [apply at_app_last|]. split.
        - intros j k' Hj Hk. apply at_app_inv in Hk. destruct Hk as [Hk|[_ ->]]; [|lia]. specialize (Less j k' Hk). lia.
        - intros j k' Hj Hk. apply at_app_inv in Hk. destruct Hk as [Hk|[? _]]; [|lia]. exact (Less j k' Hk). }
      destruct Best as [[Em Inf]|[m [k0 [Hm [[Lm [k1 [Hk1 [Min First]]]] [Hk0 [Fo Eo]]]]]]].
      - assert (T : Bltb diff (c_old s) = true) by (rewrite Inf; destruct diff as [[]|[]| |[]]; try discriminate Df; reflexivity).
        unfold b, old'. rewrite T. apply Take. intros j k' Hj. rewrite Em in Ld. destruct ds; [|cbn in Ld; lia]. unfold at_ in Hj. destruct (N.to_nat j); discriminate.
      - assert (k1 = k0) by (unfold at_ in *; congruence). subst k1.
        assert (Lds : (m < vlen ds)%N) by now apply at_lt in Hk0.
        destruct (Bltb diff (c_old s)) eqn:T.
        + unfold b, old'. apply Take. assert (T' : (k < k0)%N) by (apply NR_lt; rewrite <- De, <- Eo; now apply Bltb_R). intros j k' Hj. assert (Lj := at_lt _ _ _ Hj). specialize (Min j k' ltac:(lia) Hj). lia.
        + unfold b, old'. assert (Nlt : (k0 <= k)%N). { destruct (N.le_gt_cases k0 k) as [Q|Q]; [exact Q|]. apply NR_lt in Q. rewrite <- De, <- Eo in Q. apply Bltb_R in Q; [congruence | assumption | assumption]. }
          exists m, k0. split; [now apply at_app_l|]. split; [|split; [now apply at_app_l | split; assumption]].
          split; [lia|]. exists k0. split; [now apply at_app_l|]. split.
          * intros j k' Hj Hk. apply at_app_inv in Hk. destruct Hk as [Hk|[_ ->]]; [|exact Nlt]. assert (Lj := at_lt _ _ _ Hk). apply (Min j k'); [lia | exact Hk].
          * intros j k' Hj Hk. apply at_app_inv in Hk. destruct Hk as [Hk|[? _]]; [|lia]. now apply (First j k'). }
    destruct New as [m [k0 [N1 [N2 [N3 [N4 N5]]]]]]. unfold scan_inv. cbn [c_d1 c_d2 c_old c_best c_out].
    split; [exact R1'|]. split; [exact R2'|]. rewrite !Lsn. split; [lia|]. split; [lia|]. split.
    - intros n b' x Hn. apply at_app_inv in Hn. destruct Hn as [Hn|[-> Eb]].
      + destruct (Pr n b' x Hn) as [[k' [Hk' Hx]] [m' [Hm' Hf]]]. assert (Ln := at_lt _ _ _ Hn).
        split; [exists k'; split; [now apply at_app_l | exact Hx]|]. exists m'. split; [now apply at_app_l|]. apply first_min_app; [lia | exact Hf].
      + assert (Eb' : b' = b /\ x = diff) by (split; congruence). destruct Eb' as [-> ->]. rewrite Lo, <- Ld. split; [exists k; split; [apply at_app_last | split; assumption]|].
        exists m. split; assumption.
    - right. exists m, k0. replace (vlen ds + 1 - 1)%N with (vlen ds) by lia. repeat (split; [assumption|]). assumption.
  Qed.

  Lemma scan_all e1 e2 : forall l os ds s s', scan_inv os ds s -> mfold (try_offset bld M1 M2 cells true q e1 e2) l s = Val s' ->
    Forall (good_offset e1 e2) l /\ exists ks, Forall2 (offset_mismatch e1 e2) l ks /\ scan_inv (os ++ l) (ds ++ ks) s'.
  Proof.
    induction l as [|o l IH]; intros os ds s s' Inv E.
    - cbn in E. injection E as <-. split; [constructor|]. exists []. rewrite !app_nil_r. split; [constructor | exact Inv].
    - cbn [mfold] in E. apply bind_val in E. destruct E as [s1 [E1 E]]. destruct (inv_step e1 e2 os ds s s1 o Inv E1) as [G [k [Mm Inv1]]].
      destruct (IH (os ++ [o]) (ds ++ [k]) s1 s' Inv1 E) as [Gs [ks [F2 Inv']]]. split; [now constructor|]. exists (k :: ks). split; [now constructor|].
      rewrite <- !app_assoc in Inv'. exact Inv'.
  Qed.
  Lemma scan_good e1 e2 : forall l (s : scan M1 M2), recorded M1 (c_d1 s) L1 -> recorded M2 (c_d2 s) L2 -> Forall (good_offset e1 e2) l ->
    exists s', mfold (try_offset bld M1 M2 cells true q e1 e2) l s = Val s'.
  Proof.
    induction l as [|o l IH]; intros s R1 R2 G; [now exists s|]. apply Forall_cons_iff in G. destruct G as [Go G]. cbn [mfold].
    destruct (try_cases e1 e2 s o R1 R2) as [[Bad _]|[_ [d1' [d2' [k [diff [R1' [R2' [_ [_ [_ E]]]]]]]]]]]; [contradiction|]. rewrite E. cbn [bind]. now apply IH.
  Qed.

  Context (steps : Z) (c : comparer M1 M2).
  Hypothesis Rec1 : recorded M1 (k_data c) L1.
  Hypothesis Rec2 : recorded M2 (k_data2 c) L2.
  Hypothesis Cart1 : is_cartesian (k_grid c) = true.
  Let b1 := box1 (m_stats M1) (m_stats M2).
  Let b2 := box2 (m_stats M1) (m_stats M2).
  Let os := offsets_of (sizes (st_dims (m_stats M1))) steps.
  Let s0 : scan M1 M2 := mkScan (k_data c) (k_data2 c) (ndiv n1 n0) (n0, n0, n0) [].
  Lemma inv0 : scan_inv [] [] s0.
  Proof.
    split; [exact Rec1|]. split; [exact Rec2|]. split; [reflexivity|]. split; [reflexivity|]. split.
    - intros n b x H. unfold at_ in H. cbn in H. destruct (N.to_nat n); discriminate.
    - left. split; reflexivity.
  Qed.
  Lemma align_unfold : align_with bld M1 M2 steps cells c =
    let! s := mfold (try_offset bld M1 M2 cells true q b1 b2) os s0 in
    Val (mkCmp (c_d1 s) (k_grid c) (c_d2 s) (k_grid2 c) (k_aligned c), c_out s).
  Proof. unfold align_with. rewrite Cart1. reflexivity. Qed.

  Theorem align_works : (exists x, align_with bld M1 M2 steps cells c = Val x) <-> Forall (good_offset b1 b2) os.
  Proof.
    rewrite align_unfold. split.
    - intros [x E]. apply bind_val in E. destruct E as [s [E _]]. exact (proj1 (scan_all b1 b2 os [] [] s0 s inv0 E)).
    - intros G. destruct (scan_good b1 b2 os s0 Rec1 Rec2 G) as [s E]. rewrite E. cbn [bind]. eexists. reflexivity.
  Qed.
  Theorem align_prints c' out : align_with bld M1 M2 steps cells c = Val (c', out) ->
    exists ks, Forall2 (offset_mismatch b1 b2) os ks /\ vlen out = vlen os /\ prints os ks out.
  Proof.
    rewrite align_unfold. intros E. apply bind_val in E. destruct E as [s [E Eo]].
    destruct (scan_all b1 b2 os [] [] s0 s inv0 E) as [_ [ks [F2 [_ [_ [Lo [_ [Pr _]]]]]]]]. cbn [app] in *.
    exists ks. split; [exact F2|]. assert (out = c_out s) by congruence. subst out. split; [exact Lo | exact Pr].
  Qed.
End Align.

(** ** C122, C123: the constants of the program *)
Section Final.
  Context {TF : Trig f64} (bld : build).

  Lemma vlen_app {A} (l l' : list A) : vlen (l ++ l') = (vlen l + vlen l')%N.
  Proof. unfold vlen. rewrite app_length. lia. Qed.
  Lemma flat_map_len {A B} (f : A -> list B) n : forall l, (forall x, In x l -> vlen (f x) = n) -> vlen (flat_map f l) = (vlen l * n)%N.
  Proof.
    induction l as [|a l IH]; intros H; [reflexivity|]. cbn [flat_map]. rewrite vlen_app, (H a (or_introl eq_refl)), IH by (intros x Hx; apply H; now right).
    rewrite vlen_cons. lia.
  Qed.
  Lemma ids3_len a b c : vlen (ids3 (a, b, c)) = (a * b * c)%N.
  Proof.
    unfold ids3. rewrite (flat_map_len _ (b * c)%N).
    - rewrite vlen_range. lia.
    - intros i _. rewrite (flat_map_len _ c); [rewrite vlen_range; lia|]. intros j _. rewrite vlen_map, vlen_range. lia.
  Qed.
  Definition hundred : id3 := (100, 100, 100)%N.
  Lemma hundred_sized : sized hundred. Proof. repeat split; lia. Qed.
  Lemma hundred_two : (2 <= vlen (ids3 hundred) <= 2 ^ 53)%N. Proof. unfold hundred. rewrite ids3_len. lia. Qed.
  (** One hundredth of the million cells. *)
  Lemma hundred_quota : quota hundred (nlit 1 100) = 10000%N.
  Proof. unfold quota, hundred. rewrite ids3_len. vm_compute. reflexivity. Qed.

  Lemma occupied_le (g : grid f64) (cg : cart_geom f64) (P : list (v3 f64)) : geo g = Cart cg -> sized (cc_cells cg) ->
    (vlen (occupied bld g P) <= vlen P)%N.
  Proof.
    intros G Sz. set (l := map (fun p => mkSample (n0 : f64) p p n0 n0 n0 n0 n0) P).
    assert (Q := c34_nothing_lost bld g cg l G Sz).
    assert (Ep : map sm_pos l = P) by (unfold l; rewrite map_map; cbn [sm_pos]; apply map_id).
    assert (Len : (List.length (filter (fun m => is_inside g (sm_pos m)) l) <= List.length P)%nat).
    { rewrite <- Ep, map_length. clear. induction l as [|m l IH]; cbn; [lia|]. destruct (is_inside g (sm_pos m)); cbn; lia. }
    rewrite Q in Len. clear Q. unfold occupied. rewrite G. cbn [geom_cells].
    apply N.le_trans with (N.of_nat (fold_right Nat.add 0%nat (map (fun c => List.length (samples_in bld (Cart cg) c l)) (ids3 (cc_cells cg))))); [|rewrite G in Len; unfold vlen; lia].
    clear Len. induction (ids3 (cc_cells cg)) as [|c ids IH]; cbn [filter map fold_right]; [unfold vlen; cbn; lia|].
    assert (E : n_in bld g c P = N.of_nat (List.length (samples_in bld (Cart cg) c l))).
    { unfold n_in, vlen. rewrite G. apply f_equal. rewrite <- Ep. unfold samples_in. clear. induction l as [|m l IH]; cbn; [reflexivity|].
      destruct (in_cell bld (Cart cg) c (sm_pos m)); cbn; now rewrite IH. }
    rewrite E. destruct (0 <? N.of_nat (List.length (samples_in bld (Cart cg) c l)))%N eqn:T; [rewrite vlen_cons|]; lia.
  Qed.

  Context (M1 M2 : mgr f64) (L1 L2 : list (timestep f64)) (d1 : ms M1) (d2 : ms M2).
  Hypothesis C1 : countable L1.
  Hypothesis C2 : countable L2.
  Hypothesis R1 : recorded M1 d1 L1.
  Hypothesis R2 : recorded M2 d2 L2.

  Lemma half_steps_in n i : (0 <= n)%Z -> In i (half_steps (2 * n)) <-> (- n <= i < n)%Z.
  Proof.
    intros Hn. unfold half_steps. replace (2 * n / 2)%Z with n by (symmetry; rewrite Z.mul_comm; apply Z.div_mul; lia). rewrite in_map_iff. split.
    - intros [k [E Hk]]. apply in_range in Hk. lia.
    - intros H. exists (Z.to_N (i + n)). split; [lia|]. apply in_range. lia.
  Qed.

  (** The offset [(i, j, k)] that [align] tries: [i] hundredths of half the width of the first data set. *)
  Definition offset_at (i j k : Z) : v3 f64 :=
    let '((x0, y0, z0), (x1, y1, z1)) := st_dims (m_stats M1) in
    let part (i : Z) (a b : f64) : f64 := nmul (nof i) (ndiv (ndiv (nsub b a) n2) (nof 100)) in
    (part i x0 x1, part j y0 y1, part k z0 z1).
  Definition tried (i : Z) : Prop := (-50 <= i < 50)%Z.
  Lemma offset_in o : In o (offsets_of (sizes (st_dims (m_stats M1))) 100) <-> exists i j k, tried i /\ tried j /\ tried k /\ o = offset_at i j k.
  Proof.
    unfold offset_at, sizes, offsets_of, step_of, tried. destruct (st_dims (m_stats M1)) as [[[x0 y0] z0] [[x1 y1] z1]].
    rewrite in_flat_map. assert (H := fun i => half_steps_in 50 i ltac:(lia)). change (2 * 50)%Z with 100%Z in H. change (- (50))%Z with (-50)%Z in H. split.
    - intros [i [Hi Q]]. apply in_flat_map in Q. destruct Q as [j [Hj Q]]. apply in_map_iff in Q. destruct Q as [k [E Hk]].
      exists i, j, k. split; [now apply H|]. split; [now apply H|]. split; [now apply H|]. symmetry. exact E.
    - intros [i [j [k [Hi [Hj [Hk ->]]]]]]. exists i. split; [now apply H|]. apply in_flat_map. exists j. split; [now apply H|]. apply in_map_iff. exists k. split; [reflexivity | now apply H].
  Qed.

  (** A grid of a million cells over a box, and how many of its cells contain one of the positions. *)
  Definition cells_hit (box : v3 f64 * v3 f64) (P : list (v3 f64)) (n : N) : Prop :=
    exists g, cart_new hundred (ThreeD ((fst (fst (fst box)), fst (fst (snd box))), (snd (fst (fst box)), snd (fst (snd box))), (snd (fst box), snd (snd box)))) = Val g /\ vlen (occupied bld g P) = n.
  Lemma cells_hit_ex box P : exists n, cells_hit box P n.
  Proof.
    destruct (make_cart hundred hundred_sized hundred_two box) as [g [cg [E [W [G C]]]]]. destruct box as [[[x0 y0] z0] [[x1 y1] z1]].
    exists (vlen (occupied bld g P)), g. split; [exact E | reflexivity].
  Qed.
  Lemma cells_hit_le box P n : cells_hit box P n -> (n <= vlen P)%N.
  Proof.
    intros [g [E <-]]. destruct (make_cart hundred hundred_sized hundred_two box) as [g' [cg [E' [W [G C]]]]]. destruct box as [[[x0 y0] z0] [[x1 y1] z1]].
    assert (Q : Val g = Val g') by exact (eq_trans (eq_sym E) E'). assert (Q' : g = g') by congruence. clear Q E. rename Q' into Q.
    rewrite Q. apply (occupied_le g' cg P G). rewrite C. apply hundred_sized.
  Qed.

  Theorem c122_aligns (g : grid f64) : is_cartesian g = true ->
    (exists x, align bld M1 M2 (compare M1 M2 d1 d2 g) = Val x) <->
    (forall i j k, tried i -> tried j -> tried k -> exists n1 n2,
       cells_hit (moved (box1 (m_stats M1) (m_stats M2)) (offset_at i j k)) (positions L1) n1 /\ (10000 < n1)%N /\
       cells_hit (box2 (m_stats M1) (m_stats M2)) (positions L2) n2 /\ (10000 < n2)%N).
  Proof.
    intros Cg. unfold align. rewrite (align_works bld M1 M2 L1 L2 C1 C2 hundred hundred_sized hundred_two 100 (compare M1 M2 d1 d2 g) R1 R2 Cg).
    rewrite Forall_forall. assert (Mk : forall box g', make_grid box true hundred = Val g' <->
       cart_new hundred (ThreeD ((fst (fst (fst box)), fst (fst (snd box))), (snd (fst (fst box)), snd (fst (snd box))), (snd (fst box), snd (snd box)))) = Val g').
    { intros [[[x0 y0] z0] [[x1 y1] z1]] g'. reflexivity. }
    unfold good_offset. rewrite hundred_quota. split.
    - intros H i j k Hi Hj Hk. specialize (H (offset_at i j k) (proj2 (offset_in _) (ex_intro _ i (ex_intro _ j (ex_intro _ k (conj Hi (conj Hj (conj Hk eq_refl)))))))).
      destruct (make_cart hundred hundred_sized hundred_two (moved (box1 (m_stats M1) (m_stats M2)) (offset_at i j k))) as [g1 [_ [E1 _]]].
      destruct (make_cart hundred hundred_sized hundred_two (box2 (m_stats M1) (m_stats M2))) as [g2 [_ [E2 _]]].
      destruct (H g1 g2 E1 E2) as [Q1 Q2]. exists (vlen (occupied bld g1 (positions L1))), (vlen (occupied bld g2 (positions L2))).
      split; [exists g1; split; [now apply Mk | reflexivity]|]. split; [exact Q1|]. split; [exists g2; split; [now apply Mk | reflexivity] | exact Q2].
    - intros H o Ho g1 g2 E1 E2. apply offset_in in Ho. destruct Ho as [i [j [k [Hi [Hj [Hk ->]]]]]]. apply Mk in E1. apply Mk in E2.
      destruct (H i j k Hi Hj Hk) as [m1 [m2 [[g1' [E1' <-]] [Q1 [[g2' [E2' <-]] Q2]]]]].
      assert (g1' = g1) by congruence. assert (g2' = g2) by congruence. subst. split; assumption.
  Qed.

  (** Fewer than 10001 positions in either data set: [align] panics. *)
  Theorem c122_sparse_refuted (g : grid f64) : is_cartesian g = true ->
    (vlen (positions L1) <= 10000)%N \/ (vlen (positions L2) <= 10000)%N -> align bld M1 M2 (compare M1 M2 d1 d2 g) = Panic.
  Proof.
    intros Cg Few. destruct (align bld M1 M2 (compare M1 M2 d1 d2 g)) as [x|] eqn:E; [|reflexivity]. exfalso.
    assert (Q := proj1 (c122_aligns g Cg) (ex_intro _ x E) 0%Z 0%Z 0%Z ltac:(unfold tried; lia) ltac:(unfold tried; lia) ltac:(unfold tried; lia)).
    destruct Q as [m1 [m2 [H1 [Q1 [H2 Q2]]]]]. apply cells_hit_le in H1, H2. destruct Few; lia.
  Qed.

  (** Every entry printed: the first offset so far with the least mismatch, and the mismatch of the present one. *)
  Theorem c123_prints (g : grid f64) c' out : is_cartesian g = true -> align bld M1 M2 (compare M1 M2 d1 d2 g) = Val (c', out) ->
    exists (os : list (v3 f64)) (ks : list N),
      (forall o, In o os <-> exists i j k, tried i /\ tried j /\ tried k /\ o = offset_at i j k) /\
      vlen os = 1000000%N /\ vlen out = vlen os /\
      (forall n o k, at_ os n o -> at_ ks n k -> exists g1 g2,
         make_grid (moved (box1 (m_stats M1) (m_stats M2)) o) true hundred = Val g1 /\ make_grid (box2 (m_stats M1) (m_stats M2)) true hundred = Val g2 /\
         mismatch bld hundred 10000 g1 (positions L1) g2 (positions L2) k) /\
      (forall n o, at_ os n o -> exists k (x : f64) b m, at_ ks n k /\ at_ out n (b, x) /\ is_finite x = true /\ B2R x = NR k /\ at_ os m b /\ first_min ks n m).
  Proof.
    intros Cg E. unfold align in E.
    destruct (align_prints bld M1 M2 L1 L2 C1 C2 hundred hundred_sized hundred_two 100 (compare M1 M2 d1 d2 g) R1 R2 Cg c' out E) as [ks [F2 [Lo Pr]]].
    exists (offsets_of (sizes (st_dims (m_stats M1))) 100), ks. split; [exact offset_in|]. split.
    { unfold offsets_of. destruct (sizes (st_dims (m_stats M1))) as [[sx sy] sz].
      assert (H : vlen (half_steps 100) = 100%N) by reflexivity.
      rewrite (flat_map_len _ 10000%N); [rewrite H; reflexivity|]. intros i _. rewrite (flat_map_len _ 100%N); [rewrite H; reflexivity|].
      intros j _. rewrite vlen_map. exact H. }
    split; [exact Lo|]. split.
    - intros n o k Ho Hk. destruct (Forall2_at _ _ _ F2 _ _ Hk) as [o2 [Ho2 Q]]. assert (Eo : o2 = o) by (unfold at_ in Ho; congruence). rewrite Eo in Q. clear Eo Ho2 o2. unfold offset_mismatch in Q. rewrite hundred_quota in Q. exact Q.
    - intros n o Ho. assert (Ln := at_lt _ _ _ Ho). rewrite <- Lo in Ln. destruct (lt_at _ _ Ln) as [[b x] Hx].
      destruct (Pr n b x Hx) as [[k [Hk [Fx Ex]]] [m [Hm Hf]]]. exists k, x, b, m. auto 10.
  Qed.
End Final.

(** ** C124: the boxes, in exact arithmetic *)
Section Units.
  Local Open Scope R_scope.
  Context {TF : Trig R}.
  Definition ax (a : nat) (p : v3 R) : R := let '(x, y, z) := p in match a with 0%nat => x | 1%nat => y | _ => z end.
  (** The extent of a box along an axis. *)
  Definition width (b : v3 R * v3 R) (a : nat) : R := ax a (snd b) - ax a (fst b).
  Definition in_dims (b : v3 R * v3 R) (p : v3 R) : Prop := forall a, ax a (fst b) <= ax a p <= ax a (snd b).

  Lemma fmax2_R a b : fmax2 a b = Rmax a b.
  Proof.
    unfold fmax2. change (nisnan a) with false. change (nisnan b) with false. cbv iota. destruct (nltb a b) eqn:E.
    - apply Rltb_true in E. rewrite Rmax_right; lra.
    - rewrite Rmax_left; [reflexivity|]. destruct (Rle_or_lt b a) as [H|H]; [exact H|]. apply Rltb_true in H. congruence.
  Qed.
  Lemma not_big w v k : 0 < v -> w <= k * v -> ~ k < w / v.
  Proof. intros Hv H Q. apply (Rmult_lt_compat_r v) in Q; [|exact Hv]. unfold Rdiv in Q. rewrite Rmult_assoc, Rinv_l in Q by lra. lra. Qed.
  Lemma big w v k : 0 < v -> k * v < w -> k < w / v.
  Proof. intros Hv H. apply Rmult_lt_reg_r with v; [exact Hv|]. unfold Rdiv. rewrite Rmult_assoc, Rinv_l by lra. lra. Qed.

  (** Data sets whose widths differ by a factor of at most 800. *)
  Theorem c124_boxes (s1 s2 : stats R) :
    0 < width (st_dims s1) 0 -> 0 < width (st_dims s2) 0 ->
    width (st_dims s1) 0 <= 800 * width (st_dims s2) 0 -> width (st_dims s2) 0 <= 800 * width (st_dims s1) 0 ->
    (forall a, ax a (fst (box1 s1 s2)) = ax a (fst (st_dims s1)) /\ ax a (fst (box2 s1 s2)) = ax a (fst (st_dims s2))) /\
    (forall a, width (box1 s1 s2) a = Rmax (width (st_dims s1) a) (width (st_dims s2) a) /\
               width (box2 s1 s2) a = Rmax (width (st_dims s1) a) (width (st_dims s2) a)) /\
    (forall p, in_dims (st_dims s1) p -> in_dims (box1 s1 s2) p) /\ (forall p, in_dims (st_dims s2) p -> in_dims (box2 s1 s2) p).
  Proof.
    unfold box1, box2, width, in_dims. destruct (st_dims s1) as [[[x0 y0] z0] [[x1 y1] z1]], (st_dims s2) as [[[u0 v0] w0] [[u1 v1] w1]].
    cbn [fst snd ax]. intros P1 P2 H1 H2. unfold sizes.
    assert (A : adjustment (nsub x1 x0, nsub y1 y0, nsub z1 z0) (nsub u1 u0, nsub v1 v0, nsub w1 w0) = 1).
    { unfold adjustment. cbv zeta. cbn [ndiv nsub nof num_R].
      destruct (nltb 800 ((x1 - x0) / (u1 - u0))) eqn:E1; [apply Rltb_true in E1; exfalso; exact (not_big _ _ 800 P2 H1 E1)|].
      destruct (nltb 800 ((u1 - u0) / (x1 - x0))) eqn:E2; [apply Rltb_true in E2; exfalso; exact (not_big _ _ 800 P1 H2 E2)|]. reflexivity. }
    rewrite A. unfold system_size, dims1, dims2. rewrite !fmax2_R. cbn [nmul nadd nsub num_R fst snd ax]. rewrite !Rmult_1_r.
    assert (Q : forall a b, a <= Rmax a b) by apply Rmax_l. assert (Q' : forall a b, b <= Rmax a b) by apply Rmax_r.
    split; [intros a; destruct a as [|[|a]]; cbn [ax]; split; reflexivity|].
    split; [intros a; destruct a as [|[|a]]; cbn [ax]; split; ring|].
    split; intros p H a; specialize (H a); destruct p as [[p0 p1] p2], a as [|[|a]]; cbn [ax] in *; split; try lra.
    - specialize (Q (x1 - x0) (u1 - u0)). lra.
    - specialize (Q (y1 - y0) (v1 - v0)). lra.
    - specialize (Q (z1 - z0) (w1 - w0)). lra.
    - specialize (Q' (x1 - x0) (u1 - u0)). lra.
    - specialize (Q' (y1 - y0) (v1 - v0)). lra.
    - specialize (Q' (z1 - z0) (w1 - w0)). lra.
  Qed.
  Theorem c124_moved (b : v3 R * v3 R) (o : v3 R) a : width (moved b o) a = width b a /\ ax a (fst (moved b o)) = ax a (fst b) + ax a o.
  Proof. unfold moved, width. destruct b as [[[x0 y0] z0] [[x1 y1] z1]], o as [[ox oy] oz]. destruct a as [|[|a]]; cbn; split; ring. Qed.

  (** The first data set in smaller units (its numbers are larger): all of the second one is in one cell. *)
  Theorem c124_units_refuted (bld : build) (s1 s2 : stats R) (g : grid R) (cg : cart_geom R) p :
    (forall a, 0 < width (st_dims s2) a) -> 800 * width (st_dims s2) 0 < width (st_dims s1) 0 ->
    make_grid (box2 s1 s2) true (100, 100, 100)%N = Val g -> geo g = Cart cg -> in_dims (st_dims s2) p ->
    cart_cell_id bld cg p = Val (Some (0, 0, 0)%N).
  Proof.
    unfold box2, width, in_dims. destruct (st_dims s1) as [[[x0 y0] z0] [[x1 y1] z1]], (st_dims s2) as [[[u0 v0] w0] [[u1 v1] w1]].
    cbn [fst snd]. intros P2 H1 Eg G Hp.
    assert (Pu := P2 0%nat). assert (Pv := P2 1%nat). assert (Pw := P2 2%nat). assert (Hu := Hp 0%nat). assert (Hv := Hp 1%nat). assert (Hw := Hp 2%nat).
    destruct p as [[p0 p1] p2]. cbn [ax] in *. unfold sizes in Eg.
    assert (A : adjustment (nsub x1 x0, nsub y1 y0, nsub z1 z0) (nsub u1 u0, nsub v1 v0, nsub w1 w0) = 1000).
    { unfold adjustment. cbv zeta. cbn [ndiv nsub nof num_R].
      destruct (nltb 800 ((x1 - x0) / (u1 - u0))) eqn:E1; [reflexivity|]. assert (B := big _ _ 800 Pu H1). apply Rltb_true in B. congruence. }
    rewrite A in Eg. unfold system_size, dims2 in Eg. rewrite !fmax2_R in Eg. cbn [nmul nadd nsub num_R] in Eg.
    set (mx := Rmax (x1 - x0) ((u1 - u0) * 1000)) in *. set (my := Rmax (y1 - y0) ((v1 - v0) * 1000)) in *. set (mz := Rmax (z1 - z0) ((w1 - w0) * 1000)) in *.
    assert (Mx : (u1 - u0) * 1000 <= mx) by apply Rmax_r. assert (My : (v1 - v0) * 1000 <= my) by apply Rmax_r. assert (Mz : (w1 - w0) * 1000 <= mz) by apply Rmax_r.
    clearbody mx my mz. clear A H1 P2 Hp.
    unfold make_grid in Eg. cbn in Eg. injection Eg as <-. cbn [geo] in G. assert (Gc : cc_cells cg = (100, 100, 100)%N /\ cc_lim cg = ((u0, u0 + mx * 1000), (v0, v0 + my * 1000), (w0, w0 + mz * 1000))) by (cbn in G; injection G as <-; split; reflexivity).
    destruct Gc as [Gc Gl]. clear G.
    assert (Ax : forall lo m p', (lo < lo + m * 1000) -> lo <= p' -> p' - lo <= m / 1000 -> cart_axis_id bld 100 (lo, lo + m * 1000) p' = Val 0%N).
    { intros lo m p' L1' L2' L3'. apply (CartR.cart_axis_preimage bld 100 lo (lo + m * 1000) p' 0); [lia | exact L1' | lra | lia|].
      change (NR 0) with 0. change (NR 100) with 100. split; lra. }
    unfold cart_cell_id. rewrite (proj2 (CartR.cart_inside_R _ _)).
    - rewrite Gc, Gl. rewrite !Ax by lra. reflexivity.
    - unfold in_box. rewrite Gl. rewrite !CartR.within_R. cbn [fst snd]. lra.
  Qed.
  (** The first data set in larger units: the box covers less than 1/800000 of the width of the second. *)
  Theorem c124_units_small_refuted (s1 s2 : stats R) :
    0 < width (st_dims s1) 0 -> 800 * width (st_dims s1) 0 < width (st_dims s2) 0 ->
    width (box2 s1 s2) 0 < width (st_dims s2) 0 / 800000.
  Proof.
    unfold box2, width. destruct (st_dims s1) as [[[x0 y0] z0] [[x1 y1] z1]], (st_dims s2) as [[[u0 v0] w0] [[u1 v1] w1]].
    cbn [fst snd ax]. intros P1 H1. unfold sizes.
    assert (A : adjustment (nsub x1 x0, nsub y1 y0, nsub z1 z0) (nsub u1 u0, nsub v1 v0, nsub w1 w0) = 1 / 1000).
    { unfold adjustment. cbv zeta. cbn [ndiv nsub nof num_R].
      destruct (nltb 800 ((x1 - x0) / (u1 - u0))) eqn:E1.
      - apply Rltb_true in E1. exfalso. refine (not_big (x1 - x0) (u1 - u0) 800 _ _ E1); lra.
      - assert (B := big _ _ 800 P1 H1). apply Rltb_true in B. rewrite B. reflexivity. }
    rewrite A. unfold system_size, dims2. rewrite !fmax2_R. cbn [nmul nadd nsub num_R fst snd ax].
    assert (M : Rmax (x1 - x0) ((u1 - u0) * (1 / 1000)) < (u1 - u0) / 800) by (apply Rmax_lub_lt; lra). lra.
  Qed.
End Units.

(** ** Cases *)
(** Small constants: two data sets of four positions, the second one shifted by 1. *)
Definition ex_line (s : Z) : list (timestep f64) :=
  let ps := map (fun k => (d (k + s), d (k + s), d (k + s))) [0; 2; 4; 6]%Z in
  [mkTs (d 0) ps ps [d 1; d 1; d 1; d 1] [d 1; d 2; d 3; d 4] [d 0; d 0; d 0; d 0] [d 1; d 1; d 1; d 1] [d 1; d 1; d 1; d 1]].
Definition ex_line_stats (s : Z) : stats f64 := mkStats 1 4 (d 0, d 0, d 0) [d 0] ((d s, d s, d s), (d (6 + s), d (6 + s), d (6 + s))).
(** The x components printed (the same along all axes here) and the mismatches. *)
Definition shown (l : list (v3 f64 * f64)) : list (SpecFloat.spec_float * N) :=
  map (fun r => (B2SF (fst (fst (fst r))), f64_to_usize (snd r))) l.

(** The program's constants: a lattice of 99 x 99 x 99 positions in a box of side 99. *)
Section Lattice.
  Context {TF : Trig f64} (bld : build).
  Definition xs : list f64 := map (fun k => nadd (nof (Z.of_N k)) (ndiv n1 n2)) (range 0 99).
  Definition lattice : list (v3 f64) := flat_map (fun x => flat_map (fun y => map (fun z => (x, y, z)) xs) xs) xs.
  Definition lat_ts : timestep f64 :=
    let c := map (fun _ => d 1) lattice in mkTs (d 0) lattice (map (fun _ => (d 0, d 0, d 0)) lattice) c c c c c.
  Definition lat_stats : stats f64 := mkStats 1 970299 (d 0, d 0, d 0) [d 0] ((d 0, d 0, d 0), (d 99, d 99, d 99)).
  Definition lat_mgr : mgr f64 := list_mgr [lat_ts] lat_stats.

  Lemma lattice_len : vlen lattice = 970299%N.
  Proof.
    unfold lattice. assert (H : vlen xs = 99%N) by reflexivity. rewrite (flat_map_len _ 9801%N); [rewrite H; reflexivity|].
    intros x _. rewrite (flat_map_len _ 99%N); [rewrite H; reflexivity|]. intros y _. rewrite vlen_map. exact H.
  Qed.
  Lemma in_lattice x y z : In x xs -> In y xs -> In z xs -> In (x, y, z) lattice.
  Proof. intros Hx Hy Hz. unfold lattice. apply in_flat_map. exists x. split; [exact Hx|]. apply in_flat_map. exists y. split; [exact Hy|]. apply in_map_iff. exists z. split; [reflexivity | exact Hz]. Qed.
  Local Opaque lattice.
  Lemma lat_recorded : recorded lat_mgr tt [lat_ts] /\ countable [lat_ts].
  Proof.
    split.
    - apply list_recorded; [discriminate | constructor; [|constructor] | reflexivity]. unfold rect, lat_ts. cbv zeta. cbn [ts_pos ts_vel ts_radius ts_clouds ts_density ts_id ts_type]. rewrite !map_length. auto 10.
    - split; [repeat constructor|]. unfold positions. cbn [map concat lat_ts ts_pos]. rewrite app_nil_r, lattice_len. lia.
  Qed.

  (** The cells along an axis that contain one of the [xs]. *)
  Definition axis_cell (l : f64 * f64) (x : f64) : list N :=
    if negb (nisnan x) && in_interval l x then match cart_axis_id bld 100 l x with Val i => if (i <? 100)%N then [i] else [] | Panic => [] end else [].
  Definition hits (l : f64 * f64) : list N := nodup N.eq_dec (flat_map (axis_cell l) xs).
  Lemma in_hits l i : In i (hits l) -> exists x, In x xs /\ nisnan x = false /\ in_interval l x = true /\ cart_axis_id bld 100 l x = Val i /\ (i < 100)%N.
  Proof.
    unfold hits. rewrite nodup_In, in_flat_map. intros [x [Hx H]]. exists x. split; [exact Hx|]. unfold axis_cell in H.
    destruct (nisnan x) eqn:E1; cbn [negb andb] in H; [destruct H|]. destruct (in_interval l x) eqn:E2; [|destruct H].
    destruct (cart_axis_id bld 100 l x) as [j|] eqn:E3; [|destruct H]. destruct (j <? 100)%N eqn:E4; [|destruct H]. destruct H as [->|[]]. repeat split; try reflexivity. lia.
  Qed.
  Lemma list_prod_len {A B} (l : list A) (l' : list B) : vlen (list_prod l l') = (vlen l * vlen l')%N.
  Proof. unfold vlen. rewrite prod_length. lia. Qed.
  Lemma NoDup_prod {A B} (l : list A) (l' : list B) : NoDup l -> NoDup l' -> NoDup (list_prod l l').
  Proof.
    intros H H'. induction H as [|a l Ha H IH]; [constructor|]. cbn. apply NoDup_app_intro.
    - apply FinFun.Injective_map_NoDup; [intros x y; congruence | exact H'].
    - exact IH.
    - intros [x y] H1 H2. apply in_map_iff in H1. destruct H1 as [y' [E _]]. apply in_prod_iff in H2. destruct H2 as [H2 _]. assert (x = a) by congruence. subst. contradiction.
  Qed.
  Lemma lattice_hits lx ly lz g : cart_new hundred (ThreeD (lx, ly, lz)) = Val g ->
    (vlen (hits lx) * vlen (hits ly) * vlen (hits lz) <= vlen (occupied bld g lattice))%N.
  Proof.
    intros E. rewrite <- !list_prod_len. unfold vlen at 1 2. rewrite <- N.compare_le_iff, <- Nat2N.inj_compare, Nat.compare_le_iff.
    apply NoDup_incl_length.
    - apply NoDup_prod; [apply NoDup_prod|]; apply NoDup_nodup.
    - intros [[i j] k] H. apply in_prod_iff in H. destruct H as [H Hk]. apply in_prod_iff in H. destruct H as [Hi Hj].
      apply in_hits in Hi, Hj, Hk. destruct Hi as [x [Hx [Nx [Ix [Cx Li]]]]], Hj as [y [Hy [Ny [Iy [Cy Lj]]]]], Hk as [z [Hz [Nz [Iz [Cz Lk]]]]].
      destruct lx as [x0 x1], ly as [y0 y1], lz as [z0 z1]. unfold cart_new, hundred in E. injection E as <-. unfold occupied. cbn [geo geom_cells cc_cells]. apply filter_In. split; [apply in_ids3, inb3_lt; lia|].
      unfold n_in. cbn [geo]. set (cg := mkCart _ _ _ _ _).
      assert (P : In (x, y, z) (filter (in_cell bld (Cart cg) (i, j, k)) lattice)).
      { apply filter_In. split.
        - now apply in_lattice.
        - assert (Is : cart_inside cg (x, y, z) = true). { unfold cart_inside, cg. cbn [cc_lim]. rewrite Nx, Ny, Nz, Ix, Iy, Iz. reflexivity. }
          unfold in_cell. cbn [geom_inside geom_cell_id]. rewrite Is. unfold cart_cell_id. rewrite Is. unfold cg. cbn [cc_cells cc_lim]. rewrite Cx, Cy, Cz. cbn [bind].
          unfold id3_eqb. rewrite !N.eqb_refl. reflexivity. }
      destruct (filter (in_cell bld (Cart cg) (i, j, k)) lattice) as [|? ?]; [destruct P|]. rewrite vlen_cons. lia.
  Qed.

  (** At least 50 cells are hit along each axis, whatever the offset. *)
  Definition shift1 (i : Z) : f64 := nmul (nof i) (ndiv (ndiv (nsub (d 99) (d 0)) n2) (nof 100)).
  Definition lat_lim (o : f64) : f64 * f64 :=
    let m := fmax2 (nsub (d 99) (d 0)) (nmul (nsub (d 99) (d 0)) n1) in (nadd (d 0) o, nadd (nadd (d 0) m) o).
  Definition lat_lim2 : f64 * f64 :=
    let m := fmax2 (nsub (d 99) (d 0)) (nmul (nsub (d 99) (d 0)) n1) in (d 0, nadd (d 0) (nmul m n1)).
  Lemma lat_axis : forallb (fun i => (50 <=? vlen (hits (lat_lim (shift1 (Z.of_N i - 50)))))%N) (range 0 100) && (50 <=? vlen (hits lat_lim2))%N = true.
  Proof. destruct bld; vm_compute; reflexivity. Qed.
  Lemma lat_adj : adjustment (sizes (st_dims lat_stats)) (sizes (st_dims lat_stats)) = n1.
  Proof. reflexivity. Qed.
  Theorem lattice_aligns (g : grid f64) : is_cartesian g = true -> exists x, align bld lat_mgr lat_mgr (compare lat_mgr lat_mgr tt tt g) = Val x.
  Proof.
    intros Cg. destruct lat_recorded as [Rc Ct]. apply (c122_aligns bld lat_mgr lat_mgr [lat_ts] [lat_ts] tt tt Ct Ct Rc Rc g Cg).
    assert (Ps : positions [lat_ts] = lattice) by (unfold positions; cbn [map concat lat_ts ts_pos]; apply app_nil_r). rewrite Ps.
    assert (Ax := lat_axis). apply andb_true_iff in Ax. destruct Ax as [Ax Ax2]. rewrite forallb_forall in Ax.
    assert (Ax1 : forall i, tried i -> (50 <= vlen (hits (lat_lim (shift1 i))))%N).
    { intros i Hi. unfold tried in Hi. specialize (Ax (Z.to_N (i + 50)) ltac:(apply in_range; lia)). replace (Z.of_N (Z.to_N (i + 50)) - 50)%Z with i in Ax by lia. lia. }
    intros i j k Hi Hj Hk.
    destruct (cells_hit_ex bld (moved (box1 (m_stats lat_mgr) (m_stats lat_mgr)) (offset_at lat_mgr i j k)) lattice) as [m1 H1].
    destruct (cells_hit_ex bld (box2 (m_stats lat_mgr) (m_stats lat_mgr)) lattice) as [m2 H2].
    exists m1, m2. split; [exact H1|]. split; [|split; [exact H2|]].
    - destruct H1 as [g1 [E1 <-]]. assert (Q := lattice_hits (lat_lim (shift1 i)) (lat_lim (shift1 j)) (lat_lim (shift1 k)) g1 E1).
      assert (Qi := Ax1 i Hi). assert (Qj := Ax1 j Hj). assert (Qk := Ax1 k Hk). clear - Q Qi Qj Qk. nia.
    - destruct H2 as [g2 [E2 <-]]. assert (Q := lattice_hits lat_lim2 lat_lim2 lat_lim2 g2 E2). clear - Q Ax2. nia.
  Qed.
End Lattice.

(** The sparse case: the four positions of [ex_line]. *)
Example c122_case {TF : Trig f64} (bld : build) (g : grid f64) : is_cartesian g = true ->
  align bld (list_mgr (ex_line 0) (ex_line_stats 0)) (list_mgr (ex_line 1) (ex_line_stats 1)) (compare (list_mgr (ex_line 0) (ex_line_stats 0)) (list_mgr (ex_line 1) (ex_line_stats 1)) tt tt g) = Panic.
Proof.
  intros Cg. apply (c122_sparse_refuted bld _ _ (ex_line 0) (ex_line 1)).
  - split; [repeat constructor | cbn; lia].
  - split; [repeat constructor | cbn; lia].
  - apply list_recorded; [discriminate | repeat constructor | reflexivity].
  - apply list_recorded; [discriminate | repeat constructor | reflexivity].
  - exact Cg.
  - left. cbn. lia.
Qed.
(** The grids that are compared: 'cells' cells, all empty, over the box given; a cylindrical one stands
    on the middle of the box. *)
Theorem c123_grids {TF : Trig f64} (x0 y0 z0 x1 y1 z1 : f64) (cells : id3) (cartesian : bool) :
  exists g, make_grid ((x0, y0, z0), (x1, y1, z1)) cartesian cells = Val g /\ fresh g /\ geom_cells (geo g) = cells /\
    match geo g with
    | Cart c => cartesian = true /\ cc_lim c = ((x0, x1), (y0, y1), (z0, z1))
    | Cyl y => cartesian = false /\ yc_center y = (ndiv (nadd x0 x1) n2, ndiv (nadd y0 y1) n2, ndiv (nadd z0 z1) n2) /\ snd (yc_lim y) = (z0, z1)
    end.
Proof.
  destruct cells as [[nx ny] nz]. destruct cartesian.
  - eexists. split; [reflexivity|]. split; [|cbn [geo geom_cells cc_cells cc_lim]; auto]. now apply (new_fresh (nx, ny, nz) (ThreeD ((x0, x1), (y0, y1), (z0, z1))) true); left.
  - eexists. split; [reflexivity|]. split; [|cbn [geo geom_cells yc_cells yc_center yc_lim snd]; auto]. now apply (new_fresh (nx, ny, nz) (ThreeD ((x0, x1), (y0, y1), (z0, z1))) true); right.
Qed.

Example c123_case {TF : Trig f64} : 
  after (cart_new (2, 2, 2)%N (ThreeD box64)) (fun g =>
  after (align_with Debug (list_mgr (ex_line 0) (ex_line_stats 0)) (list_mgr (ex_line 1) (ex_line_stats 1)) 2 (3, 3, 3)%N (compare (list_mgr (ex_line 0) (ex_line_stats 0)) (list_mgr (ex_line 1) (ex_line_stats 1)) tt tt g))
    (fun r => map snd (shown (snd r)) = [2; 1; 1; 1; 1; 1; 1; 0]%N /\ map fst (shown (snd r)) = repeat (B2SF (nneg (ndiv (d 3) (d 2)) : f64)) 7 ++ [B2SF (d 0)])).
Proof. vm_compute. split; reflexivity. Qed.
Example c121_case {TF : Trig f64} (g : grid f64) : is_cartesian g = true ->
  exists c' out, align Debug lat_mgr lat_mgr (compare lat_mgr lat_mgr tt tt g) = Val (c', out) /\ k_aligned c' = false.
Proof.
  intros Cg. destruct (lattice_aligns Debug g Cg) as [[c' out] E]. exists c', out. split; [exact E|]. exact (proj2 (proj2 (c121_not_aligned_refuted _ _ _ _ _ _ _ _ E))).
Qed.
Section UnitCases.
  Local Open Scope R_scope.
  Definition cube (w : R) : stats R := mkStats 1 1 (0, 0, 0) [0] ((0, 0, 0), (w, w, w)).
  Example c124_case : width (st_dims (cube 3)) 0 <= 800 * width (st_dims (cube 2)) 0 /\ width (st_dims (cube 2)) 0 <= 800 * width (st_dims (cube 3)) 0 /\ 0 < width (st_dims (cube 2)) 0.
  Proof. unfold width; cbn; lra. Qed.
  (** Millimetres and metres. *)
  Example c124_units_case : (forall a, 0 < width (st_dims (cube 1)) a) /\ 800 * width (st_dims (cube 1)) 0 < width (st_dims (cube 1000)) 0 /\ in_dims (st_dims (cube 1)) (1, 1, 1).
  Proof. unfold width, in_dims. split; [|split]; [intros [|[|a]]; cbn; lra | cbn; lra | intros [|[|a]]; cbn; lra]. Qed.
End UnitCases.
