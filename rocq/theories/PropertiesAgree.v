(** * PropertiesAgree: the fields agree with each other (C161) *)
From Coq Require Import Reals List NArith ZArith Lia Lra Psatz Bool String ZifyBool ZifyN ZifyNat.
From Flocq Require Import Core.Core IEEE754.BinarySingleNaN.
From Verif Require Import Base BaseFacts Num F64Facts RFacts NDArray GridModel GridSpec GridFacts CartProofs CartR GridOps
  VecProofs SelModel DataModel DataSpec DataProofs DataLoad PropertiesGrid PropertiesData FunModel FunSpec FunProofs FunMgr FunField PropertiesFun FunMom FunTemp
  PropertiesStat PropertiesParts.
Import ListNotations.
Local Open Scope string_scope.
Local Open Scope list_scope.

Lemma le_not_lt (a x : f64) : Bleb a x = true -> Bltb x a = false.
Proof.
  intros H. assert (Q := Bcompare_swap 53 1024 a x). unfold Bleb, Bltb, SpecFloat.SFleb, SpecFloat.SFltb in *. unfold Bcompare in Q.
  rewrite Q. destruct (SpecFloat.SFcompare (B2SF a) (B2SF x)) as [[]|]; cbn in *; congruence.
Qed.
(** ** Doubles, bit for bit *)
Section Bits.
  Context {TF : Trig f64}.
  Lemma cart_no_nan (cg : cart_geom f64) p : cart_inside cg p = true -> nan3 p = false.
  Proof.
    destruct p as [[a b] c]. unfold cart_inside. destruct (cc_lim cg) as [[l0 l1] l2]. cbn [nan3].
    destruct (_ || _ || _); [discriminate | reflexivity].
  Qed.
  Lemma vectors_all bld (g : grid f64) (cg : cart_geom f64) s L c : geo g = Cart cg ->
    vectors bld g s L c = samples_in bld (geo g) c (observed s L).
  Proof.
    intros G. unfold vectors, samples_in. rewrite filter_filter. apply filter_ext. intros m. unfold pos_keep, in_cell. rewrite G. cbn [geom_inside].
    destruct (cart_inside cg (sm_pos m)) eqn:E; [|now rewrite andb_false_r]. now rewrite (cart_no_nan cg _ E).
  Qed.
  (** The number field is the weight of the vector field. *)
  Theorem c161_number_is_weight bld (M : mgr f64) d L (g : grid f64) (cg : cart_geom f64) s d1 h d2 v :
    recorded M d L -> sel_ok s -> fresh g -> geo g = Cart cg ->
    numberfield bld M d g s = Val (d1, h) -> vectorfield bld M d1 g s = Val (d2, v) ->
    forall k c, (k <= 2)%N -> inb3 (cc_cells cg) c = true -> at3 (weight (comp k v)) c = at3 (data h) c.
  Proof.
    intros Rec Sk [W Fr] G E Ev k c Hk Hc.
    destruct (number_cells bld M d L g s d1 h Rec Sk W E) as [Rec1 [_ [_ H]]].
    destruct (vector_cells bld M d1 L g s d2 v Rec1 Sk W Ev) as [_ Hv]. destruct (Hv k Hk) as [_ [_ H']].
    destruct (H c ltac:(now rewrite G)) as [-> _]. destruct (H' c ltac:(now rewrite G)) as [-> _].
    rewrite (proj2 (Fr c)). now rewrite (vectors_all bld g cg s L c G).
  Qed.
  (** Component [k] of the vector field is the velocity field in mode x, y or z, when the limits cut nothing. *)
  Definition mode_of (k : N) : string := if (k =? 0)%N then "x" else if (k =? 1)%N then "y" else "z".
  Theorem c161_components bld (M : mgr f64) d L (g : grid f64) (cg : cart_geom f64) s k vmin vmax d1 h d2 v :
    recorded M d L -> sel_ok s -> fresh g -> geo g = Cart cg -> (k <= 2)%N ->
    (forall m, In m (flat_map samples L) -> Bleb vmin (v3i k (sm_vel m)) = true /\ Bleb (v3i k (sm_vel m)) vmax = true) ->
    velocityfield bld M d g s (mode_of k) vmin vmax = Val (d1, h) -> vectorfield bld M d1 g s = Val (d2, v) ->
    forall c, inb3 (cc_cells cg) c = true ->
      at3 (data (comp k v)) c = at3 (data h) c /\ at3 (weight (comp k v)) c = at3 (weight h) c.
  Proof.
    intros Rec Sk [W Fr] G Hk Lim E Ev c Hc.
    assert (Em : exists calc : v3 f64 -> f64, velocity_mode (mode_of k) = Val calc /\ forall u, calc u = v3i k u).
    { assert (K : k = 0%N \/ k = 1%N \/ k = 2%N) by (clear - Hk; lia). destruct K as [-> | [-> | ->]];
        (eexists; split; [reflexivity | intros [[x y] z]; reflexivity]). }
    destruct Em as [calc [Em Ec]].
    destruct (velocity_cells bld M d L g s _ calc vmin vmax d1 h Rec Sk W Em E) as [Rec1 [_ [_ H]]].
    destruct (vector_cells bld M d1 L g s d2 v Rec1 Sk W Ev) as [_ Hv]. destruct (Hv k Hk) as [_ [_ H']].
    destruct (H c ltac:(now rewrite G)) as [B A]. destruct (H' c ltac:(now rewrite G)) as [B' A'].
    rewrite (proj1 (Fr c)) in A'. rewrite (proj2 (Fr c)) in B, B'.
    assert (Same : averaged bld g s calc vmin vmax L c = vectors bld g s L c).
    { rewrite (vectors_all bld g cg s L c G). unfold averaged, samples_in, observed. rewrite !filter_filter.
      apply filter_ext_in. intros m Hm. destruct (Lim m Hm) as [L1 L2]. unfold vel_keep, in_cell. rewrite !Ec, G. cbn [geom_inside].
      destruct (cart_inside cg (sm_pos m)) eqn:I; [|cbn [andb]; now rewrite andb_false_r]. rewrite (cart_no_nan cg _ I). cbn [negb andb nisnan nltb num_f64].
      set (x := v3i k (sm_vel m)) in *. rewrite (Bleb_not_nan_r _ _ L1).
      assert (N1 := le_not_lt _ _ L1). assert (N2 := le_not_lt _ _ L2).
      now rewrite N1, N2. }
    rewrite Same in A, B. split; [|now rewrite B, B']. rewrite A, A', B, B'. do 2 f_equal. apply map_ext. intros m. rewrite Ec. f_equal.
    unfold grid_velocity, velocity_calculation, vnew. cbn [vg0 vcyl]. now rewrite G.
  Qed.
End Bits.

(** ** Ideal arithmetic *)
Section Ideal.
  Context {TF : Trig R}.
  Local Open Scope R_scope.
  Definition dot (u v : v3 R) : R := v3i 0 u * v3i 0 v + v3i 1 u * v3i 1 v + v3i 2 u * v3i 2 v.
  Lemma speed_dot (v : v3 R) : speed v = sqrt (dot v v).
  Proof. destruct v as [[x y] z]. reflexivity. Qed.
  Lemma dot_nonneg v : 0 <= dot v v.
  Proof. destruct v as [[x y] z]. unfold dot, v3i. cbn [N.eqb Pos.eqb fst snd]. nra. Qed.
  (** Cauchy-Schwarz. *)
  Lemma dot_le u v : dot u v <= sqrt (dot u u) * sqrt (dot v v).
  Proof.
    rewrite <- sqrt_mult by apply dot_nonneg. apply Rsqr_incr_0_var; [|apply sqrt_pos].
    rewrite Rsqr_sqrt by (apply Rmult_le_pos; apply dot_nonneg). unfold Rsqr.
    destruct u as [[a b] c], v as [[x y] z]. unfold dot, v3i. cbn [N.eqb Pos.eqb fst snd].
    clear. assert (Q : forall t : R, 0 <= t * t) by (intros t; nra).
    assert (H1 := Q (a * y - b * x)). assert (H2 := Q (a * z - c * x)). assert (H3 := Q (b * z - c * y)). cbn in *. lra.
  Qed.
  Definition mean_vec (l : list (v3 R)) : v3 R := (Rmean (map (v3i 0) l), Rmean (map (v3i 1) l), Rmean (map (v3i 2) l)).
  Lemma dot_mean u (l : list (v3 R)) : l <> [] -> dot u (mean_vec l) = Rmean (map (dot u) l).
  Proof.
    intros Ne. assert (P := len_pos l Ne). unfold mean_vec, Rmean. rewrite !map_length. destruct u as [[a b] c]. 
    change (dot (a, b, c) (Rsum (map (v3i 0) l) / INR (List.length l), Rsum (map (v3i 1) l) / INR (List.length l), Rsum (map (v3i 2) l) / INR (List.length l))) with (a * (Rsum (map (v3i 0) l) / INR (List.length l)) + b * (Rsum (map (v3i 1) l) / INR (List.length l)) + c * (Rsum (map (v3i 2) l) / INR (List.length l))).
    assert (S : Rsum (map (dot (a, b, c)) l) = a * Rsum (map (v3i 0) l) + b * Rsum (map (v3i 1) l) + c * Rsum (map (v3i 2) l)).
    { clear. induction l as [|v l IH]; [cbn [map]; rewrite !Rsum_nil; ring|]. cbn [map]. rewrite !Rsum_cons, IH. unfold dot. destruct v as [[x y] z]. unfold v3i. cbn [N.eqb Pos.eqb fst snd]. ring. }
    rewrite S. unfold Rdiv. ring.
  Qed.
  (** The length of the mean is at most the mean length. *)
  Lemma mean_length (l : list (v3 R)) : l <> [] -> sqrt (dot (mean_vec l) (mean_vec l)) <= Rmean (map speed l).
  Proof.
    intros Ne. assert (P := len_pos l Ne). set (w := mean_vec l). set (n := sqrt (dot w w)).
    assert (Sp : 0 <= Rmean (map speed l)).
    { unfold Rmean. apply Rmult_le_pos; [|left; apply Rinv_0_lt_compat; now rewrite map_length].
      apply Rsum_nonneg. intros x _. rewrite speed_dot. apply sqrt_pos. }
    assert (N0 : 0 <= n) by apply sqrt_pos. assert (N2 : n * n = dot w w) by (apply sqrt_sqrt, dot_nonneg).
    assert (H : n * n <= n * Rmean (map speed l)).
    { rewrite N2. unfold w at 2. rewrite dot_mean by exact Ne. unfold Rmean. rewrite !map_length.
      unfold Rdiv. rewrite <- Rmult_assoc. apply Rmult_le_compat_r; [left; now apply Rinv_0_lt_compat|].
      clear - n. generalize l. intros k. induction k as [|v k IH]; [cbn [map]; rewrite !Rsum_nil; lra|].
      cbn [map]. rewrite !Rsum_cons. rewrite Rmult_plus_distr_l. apply Rplus_le_compat; [|exact IH].
      rewrite speed_dot. apply dot_le. }
    destruct (Rle_lt_or_eq_dec 0 n N0) as [Pos | Z]; [|rewrite <- Z; exact Sp].
    apply Rmult_le_reg_l with n; [exact Pos | exact H].
  Qed.
  Lemma var_ge (l : list R) : l <> [] -> 0 <= Rvar l /\ Rsum (map (fun x => x * x) l) / INR (List.length l) = Rvar l + Rmean l * Rmean l.
  Proof.
    intros Ne. split.
    - unfold Rvar. apply Rmult_le_pos; [|left; apply Rinv_0_lt_compat; now apply len_pos]. apply Rsum_nonneg. intros x _. clear. assert (Q := Rle_0_sqr (x - Rmean l)). unfold Rsqr in Q. exact Q.
    - assert (H := spread l 0 Ne). rewrite (map_ext (fun x => (x - 0) * (x - 0)) (fun x => x * x)) in H by (intros; ring). rewrite H. ring.
  Qed.
  (** The square of the mean length is at most the mean square length, the variances included. *)
  Lemma mean_square (l : list (v3 R)) : l <> [] ->
    Rmean (map speed l) * Rmean (map speed l) <=
      dot (mean_vec l) (mean_vec l) + (Rvar (map (v3i 0) l) + Rvar (map (v3i 1) l) + Rvar (map (v3i 2) l)).
  Proof.
    intros Ne. assert (Nm : forall f : v3 R -> R, map f l <> []) by (intros f; destruct l; [contradiction | discriminate]).
    destruct (var_ge _ (Nm speed)) as [V E]. destruct (var_ge _ (Nm (v3i 0))) as [_ E0]. destruct (var_ge _ (Nm (v3i 1))) as [_ E1]. destruct (var_ge _ (Nm (v3i 2))) as [_ E2].
    assert (S : Rsum (map (fun x => x * x) (map speed l)) = Rsum (map (fun x => x * x) (map (v3i 0) l)) + Rsum (map (fun x => x * x) (map (v3i 1) l)) + Rsum (map (fun x => x * x) (map (v3i 2) l))).
    { rewrite !map_map. clear. induction l as [|v l IH]; [cbn [map]; rewrite !Rsum_nil; ring|]. cbn [map]. rewrite !Rsum_cons, IH.
      rewrite speed_dot, sqrt_sqrt by apply dot_nonneg. unfold dot. ring. }
    rewrite S in E. rewrite !map_length in E, E0, E1, E2. unfold Rdiv in E. rewrite !Rmult_plus_distr_r in E. fold (Rdiv (Rsum (map (fun x => x * x) (map (v3i 0) l))) (INR (List.length l))) in E.
    change (dot (mean_vec l) (mean_vec l)) with (Rmean (map (v3i 0) l) * Rmean (map (v3i 0) l) + Rmean (map (v3i 1) l) * Rmean (map (v3i 1) l) + Rmean (map (v3i 2) l) * Rmean (map (v3i 2) l)). unfold Rdiv in E0, E1, E2. unfold Rdiv in E. rewrite E0, E1, E2 in E. lra.
  Qed.

  Lemma vectors_all_R bld (g : grid R) s L c : vectors bld g s L c = samples_in bld (geo g) c (observed s L).
  Proof. unfold vectors. rewrite <- (filter_true (samples_in bld (geo g) c (observed s L))) at 2. apply filter_ext. intros m. unfold pos_keep. now destruct (sm_pos m) as [[x y] z]. Qed.

  (** On a Cartesian grid: length of the vector field <= mean speed <= the root of its square plus three
      times the square of the granular temperature field. *)
  Theorem c161_speed_between bld (M : mgr R) d L (g : grid R) (cg : cart_geom R) s vmin vmax d1 v d2 h d3 t :
    recorded M d L -> sel_ok s -> fresh g -> geo g = Cart cg ->
    (forall m, In m (flat_map samples L) -> vmin <= speed (sm_vel m) <= vmax) ->
    vectorfield bld M d g s = Val (d1, v) -> velocityfield bld M d1 g s "absolute" vmin vmax = Val (d2, h) ->
    granular_temperature_field bld M d2 g s "xyz" = Val (d3, t) ->
    forall c, inb3 (cc_cells cg) c = true -> samples_in bld (geo g) c (observed s L) <> [] ->
      let w := (at3 (data (comp 0 v)) c, at3 (data (comp 1 v)) c, at3 (data (comp 2 v)) c) in
      speed w <= at3 (data h) c <= sqrt (speed w * speed w + 3 * (at3 (data t) c * at3 (data t) c)).
  Proof.
    intros Rec Sk Fr G Lim Ev Eh Et c Hc Ne w. assert (Hc' : inb3 (geom_cells (geo g)) c = true) by now rewrite G.
    destruct (vector_cells bld M d L g s d1 v Rec Sk (proj1 Fr) Ev) as [Rec1 _].
    destruct (velocity_cells bld M d1 L g s "absolute" speed vmin vmax d2 h Rec1 Sk (proj1 Fr) eq_refl Eh) as [Rec2 _].
    assert (Hv : forall k, (k <= 2)%N -> _) by (intros k Hk; exact (c36_vector_mean_ideal bld M d L g s d1 v Rec Sk Fr Ev k c Hk Hc')).
    assert (Hh := c35_mean_ideal bld M d1 L g s "absolute" speed vmin vmax d2 h Rec1 Sk Fr eq_refl Eh c Hc').
    destruct (c39_standard_deviation bld M d2 L g s "xyz" d3 t Rec2 Sk Fr ltac:(cbn; tauto) Et c Hc') as [_ Ht].
    cbv zeta in Hv, Hh, Ht. destruct (Ht Ne) as [Vp Ht']. clear Ht.
    rewrite vectors_all_R in Hv. 
    assert (Av : averaged bld g s speed vmin vmax L c = samples_in bld (geo g) c (observed s L)).
    { unfold averaged. rewrite <- (filter_true (samples_in bld (geo g) c (observed s L))) at 2. apply filter_ext_in. intros m Hm.
      assert (I : In m (flat_map samples L)) by (unfold samples_in, observed in Hm; apply filter_In in Hm as [Hm _]; now apply filter_In in Hm as [Hm _]).
      destruct (Lim m I) as [L1 L2]. unfold vel_keep. destruct (sm_pos m) as [[x y] z]. cbn [nan3 nisnan num_R negb orb andb].
      apply negb_true_iff, orb_false_iff. split; apply Rltb_false; assumption. }
    rewrite Av in Hh. destruct (Hh Ne) as [Hh' _]. clear Hh.
    set (l := samples_in bld (geo g) c (observed s L)) in *. clearbody l. set (vs := map sm_vel l).
    assert (Nv : vs <> []) by (unfold vs; destruct l; [contradiction | discriminate]).
    assert (Gv : forall k, map (fun m => v3i k (grid_velocity g m)) l = map (v3i k) vs).
    { intros k. unfold vs. rewrite map_map. apply map_ext. intros m. f_equal. unfold grid_velocity, velocity_calculation, vnew. cbn [vg0 vcyl]. now rewrite G. }
    assert (Ew : w = mean_vec vs).
    { unfold w, mean_vec. destruct (Hv 0%N ltac:(clear; lia)) as [_ A0]. destruct (Hv 1%N ltac:(clear; lia)) as [_ A1]. destruct (Hv 2%N ltac:(clear; lia)) as [_ A2].
      rewrite (A0 Ne), (A1 Ne), (A2 Ne), !Gv. unfold Rmean. rewrite !map_length. unfold vs. now rewrite !map_length. }
    assert (Eh' : at3 (data h) c = Rmean (map speed vs)).
    { rewrite Hh'. unfold Rmean, vs. now rewrite map_map, map_length. }
    assert (Et' : 3 * (at3 (data t) c * at3 (data t) c) = Rvar (map (v3i 0) vs) + Rvar (map (v3i 1) vs) + Rvar (map (v3i 2) vs)).
    { rewrite Ht', sqrt_sqrt by exact Vp. unfold mode_var, component_var. cbn [String.eqb Ascii.eqb Bool.eqb].
      unfold vs. rewrite !map_map. field. }
    rewrite Ew, Eh', Et', speed_dot, sqrt_sqrt by apply dot_nonneg. split; [now apply mean_length|].
    assert (Q := mean_square vs Nv). assert (Sp : 0 <= Rmean (map speed vs)).
    { apply Rle_trans with (2 := mean_length vs Nv). apply sqrt_pos. }
    rewrite <- (sqrt_square _ Sp). apply sqrt_le_1_alt. exact Q.
  Qed.

  (** ** The one mean velocity is the mean of the velocity field, weighted with its numbers of samples. *)
  Lemma nil_or {A} (l : list A) : l = [] \/ l <> [].
  Proof. destruct l; [now left | right; discriminate]. Qed.
  Lemma sum_once {A B} (p : B -> A -> bool) (f : A -> R) (cs : list B) a : NoDup cs -> (exists c, In c cs /\ p c a = true) ->
    (forall c c', p c a = true -> p c' a = true -> c = c') -> Rsum (map (fun c => if p c a then f a else 0) cs) = f a.
  Proof.
    induction cs as [|c cs IH]; intros ND [c1 [I P1]] U; [destruct I|]. inversion ND as [|? ? Nin ND']; subst. cbn [map]. rewrite Rsum_cons.
    destruct (p c a) eqn:Pc.
    - rewrite (map_ext_in _ (fun _ => 0)); [rewrite Rsum_zero by reflexivity; ring|]. intros c' Hc'. destruct (p c' a) eqn:P'; [|reflexivity].
      exfalso. apply Nin. now rewrite (U c c' Pc P').
    - destruct I as [-> | I]; [congruence|]. rewrite IH; [ring | exact ND' | now exists c1 | exact U].
  Qed.
  Lemma sum_cells {A B} (p : B -> A -> bool) (f : A -> R) (cs : list B) (l : list A) : NoDup cs ->
    (forall a, In a l -> exists c, In c cs /\ p c a = true) -> (forall a c c', p c a = true -> p c' a = true -> c = c') ->
    Rsum (map f l) = Rsum (map (fun c => Rsum (map f (filter (p c) l))) cs).
  Proof.
    intros ND Ex U. induction l as [|a l IH].
    - cbn [map filter]. rewrite Rsum_nil, Rsum_zero; [reflexivity | intros; apply Rsum_nil].
    - cbn [map]. rewrite Rsum_cons, IH by (intros; apply Ex; now right).
      rewrite <- (sum_once p f cs a ND (Ex a (or_introl eq_refl)) (U a)) at 1. rewrite <- Rsum_map_plus. f_equal. apply map_ext. intros c. cbn [filter].
      destruct (p c a); cbn [map]; rewrite ?Rsum_cons; ring.
  Qed.
  Lemma samples_vel (x : timestep R) : rect x -> map sm_vel (samples x) = ts_vel x.
  Proof.
    intros Hx. assert (Lv := samples_length x Hx). destruct Hx as [R1 [R2 [R3 [R4 [R5 R6]]]]]. unfold samples, rect in *.
    assert (Q : forall ps vs rs cs ds is ys, List.length vs = List.length ps -> List.length rs = List.length ps -> List.length cs = List.length ps ->
      List.length ds = List.length ps -> List.length is = List.length ps -> List.length ys = List.length ps ->
      map sm_vel (rows (ts_time x) ps vs rs cs ds is ys) = vs).
    { clear. induction ps as [|p ps IH]; intros [|v vs] [|r rs] [|c cs] [|e ds] [|i is] [|y ys]; cbn; try discriminate; intros; try reflexivity.
      f_equal. apply IH; congruence. }
    now apply Q.
  Qed.
  Lemma in_window_map (s : selector R) (L : list (timestep R)) : Forall rect L ->
    in_window s L = map sm_vel (filter (fun m => timestep_valid s (sm_time m)) (flat_map samples L)).
  Proof.
    intros Re. induction Re as [|x L Hx Re IH]; [reflexivity|]. cbn [in_window flat_map]. rewrite filter_app, map_app, <- IH. f_equal.
    destruct (timestep_valid s (ts_time x)) eqn:V.
    - replace (filter (fun m => timestep_valid s (sm_time m)) (samples x)) with (samples x); [symmetry; now apply samples_vel|].
      rewrite <- (filter_true (samples x)) at 1. apply filter_ext_in. intros m Hm. now rewrite (samples_time x m Hx Hm).
    - rewrite filter_none; [reflexivity|]. intros m Hm. now rewrite (samples_time x m Hx Hm).
  Qed.
  Theorem c161_one_number bld (M : mgr R) d L (g : grid R) (cg : cart_geom R) s vmin vmax :
    recorded M d L -> sel_ok s -> fresh g -> geo g = Cart cg -> sized (cc_cells cg) -> proper (cc_lim cg) ->
    (forall m, In m (flat_map samples L) -> timestep_valid s (sm_time m) = true ->
      accepts s m = true /\ geom_inside (geo g) (sm_pos m) = true /\ vmin <= speed (sm_vel m) <= vmax) ->
    in_window s L <> [] ->
    exists d1 h d2 v, velocityfield bld M d g s "absolute" vmin vmax = Val (d1, h) /\ mean_velocity_showcase bld M d1 s = Val (d2, v) /\
      let cells := ids3 (cc_cells cg) in
      0 < Rsum (map (fun c => at3 (weight h) c) cells) /\
      v = Rsum (map (fun c => at3 (weight h) c * at3 (data h) c) cells) / Rsum (map (fun c => at3 (weight h) c) cells).
  Proof.
    intros Rec Sk Fr G Sz Pr All Ne.
    assert (Ok : inside_ok bld (geo g)) by (rewrite G; now apply cart_inside_ok_R).
    destruct (velocity_total bld M d L g s "absolute" speed vmin vmax Rec Sk (proj1 Fr) Ok eq_refl) as [d1 [h Eh]].
    destruct (velocity_cells bld M d L g s "absolute" speed vmin vmax d1 h Rec Sk (proj1 Fr) eq_refl Eh) as [Rec1 [_ [_ H]]].
    destruct (c41_mean_ideal bld M d1 L s Rec1) as [d2 [v [Ev Hv]]]. exists d1, h, d2, v. split; [exact Eh|]. split; [exact Ev|].
    destruct (Hv Ne) as [-> _]. clear Hv. assert (Re := proj2 (proj2 Rec)). rewrite (in_window_map s L Re) in *.
    set (obs := filter (fun m => timestep_valid s (sm_time m)) (flat_map samples L)) in *.
    assert (Eo : observed s L = obs).
    { unfold observed, obs. apply filter_ext_in. intros m Hm. unfold chosen. destruct (timestep_valid s (sm_time m)) eqn:V; [|reflexivity]. exact (proj1 (All m Hm V)). }
    assert (In_ : forall m, In m obs -> geom_inside (geo g) (sm_pos m) = true /\ vmin <= speed (sm_vel m) <= vmax).
    { intros m Hm. unfold obs in Hm. apply filter_In in Hm as [I V]. exact (proj2 (All m I V)). }
    assert (Av : forall c, averaged bld g s speed vmin vmax L c = filter (fun m => in_cell bld (geo g) c (sm_pos m)) obs).
    { intros c. unfold averaged. rewrite Eo. unfold samples_in. rewrite <- (filter_true (filter _ obs)) at 2. apply filter_ext_in. intros m Hm.
      apply filter_In in Hm as [Hm _]. destruct (In_ m Hm) as [_ [L1 L2]]. unfold vel_keep. destruct (sm_pos m) as [[x y] z]. cbn [nan3 nisnan num_R negb orb andb].
      apply negb_true_iff, orb_false_iff. split; apply Rltb_false; assumption. }
    intros cells.
    assert (U : forall (m : sample R) c c', in_cell bld (geo g) c (sm_pos m) = true -> in_cell bld (geo g) c' (sm_pos m) = true -> c = c').
    { intros m c c' A B. unfold in_cell in A, B. destruct (geom_inside (geo g) (sm_pos m)); [|discriminate].
      destruct (geom_cell_id bld (geo g) (sm_pos m)) as [[c0|]|]; try discriminate. cbn [andb] in *. apply id3_eqb_eq in A, B. now rewrite <- A, <- B. }
    assert (Ex : forall m, In m obs -> exists c, In c cells /\ in_cell bld (geo g) c (sm_pos m) = true).
    { intros m Hm. destruct (Ok _ (proj1 (In_ m Hm))) as [c [C1 C2]]. exists c. split; [apply in_ids3; rewrite G in C2; exact C2|].
      unfold in_cell. now rewrite (proj1 (In_ m Hm)), C1, id3_eqb_refl. }
    assert (Sum : forall f : sample R -> R, Rsum (map f obs) = Rsum (map (fun c => Rsum (map f (filter (fun m => in_cell bld (geo g) c (sm_pos m)) obs))) cells)).
    { intros f. apply (sum_cells (fun c (m : sample R) => in_cell bld (geo g) c (sm_pos m))); [apply ids3_NoDup | exact Ex | exact U]. }
    assert (Cell : forall c, In c cells -> at3 (weight h) c = Rsum (map (fun _ => 1) (averaged bld g s speed vmin vmax L c)) /\
      at3 (weight h) c * at3 (data h) c = Rsum (map (fun m => speed (sm_vel m)) (averaged bld g s speed vmin vmax L c))).
    { intros c Hc. apply in_ids3 in Hc. destruct (H c ltac:(now rewrite G)) as [B A].
      assert (W : at3 (weight h) c = INR (List.length (averaged bld g s speed vmin vmax L c))).
      { rewrite B, (proj2 (proj2 Fr c)), count_R. change (@n0 R num_R) with 0. unfold NR, vlen. rewrite nat_N_Z, <- INR_IZR_INZ. ring. }
      split; [rewrite W, Rsum_const; ring|].
      destruct (nil_or (averaged bld g s speed vmin vmax L c)) as [E0 | Nl].
      - rewrite E0 in W |- *. rewrite W. cbn [List.length map INR]. rewrite Rsum_nil. ring.
      - destruct (c35_mean_ideal bld M d L g s "absolute" speed vmin vmax d1 h Rec Sk Fr eq_refl Eh c ltac:(now rewrite G) Nl) as [-> _].
        rewrite W. assert (P := len_pos _ Nl). unfold Rdiv. rewrite (Rmult_comm (Rsum _)), <- Rmult_assoc, Rinv_r by lra. ring. }
    assert (E1 : Rsum (map (fun c => at3 (weight h) c) cells) = INR (List.length obs)).
    { replace (INR (List.length obs)) with (Rsum (map (fun _ : sample R => 1) obs)) by (rewrite Rsum_const; ring). rewrite (Sum (fun _ => 1)). f_equal. apply map_ext_in. intros c Hc. rewrite (proj1 (Cell c Hc)). now rewrite Av. }
    assert (E2 : Rsum (map (fun c => at3 (weight h) c * at3 (data h) c) cells) = Rsum (map (fun m => speed (sm_vel m)) obs)).
    { rewrite (Sum (fun m => speed (sm_vel m))). f_equal. apply map_ext_in. intros c Hc. rewrite (proj2 (Cell c Hc)). now rewrite Av. }
    rewrite E1, E2. split; [apply len_pos; intros E0; apply Ne; now rewrite E0|].
    unfold Rmean. now rewrite map_map, !map_length.
  Qed.
End Ideal.

(** Concrete cases. *)
Definition agree_data {F} {NF : Num F} : list (timestep F) :=
  [mkTs n0 [(n1, n1, n1); (n1, n1, n1)] [(nof 3, n0, n0); (n0, nof 4, n0)] [n1; n1] [n1; nof 2] [n0; n1] [n0; n0] [n1; nof 2]].
Example c161_case_bits {TF : Trig f64} :
  recorded (list_mgr (agree_data (F := f64)) (ex_stats 1)) tt agree_data /\
  (forall m, In m (flat_map samples (agree_data (F := f64))) -> Bleb (d 0) (v3i 1 (sm_vel m)) = true /\ Bleb (v3i 1 (sm_vel m)) (d 9) = true) /\
  after (cart_new (2, 2, 2)%N (ThreeD box64)) (fun g => fresh g /\
  after (numberfield Debug (list_mgr agree_data (ex_stats 1)) tt g sel_default) (fun r1 =>
  after (velocityfield Debug (list_mgr agree_data (ex_stats 1)) tt g sel_default (mode_of 1) (d 0) (d 9)) (fun r2 =>
  after (vectorfield Debug (list_mgr agree_data (ex_stats 1)) tt g sel_default) (fun r3 =>
    same (at3 (data (snd r1)) (1, 1, 1)%N) (d 2) /\ same (at3 (data (snd r2)) (1, 1, 1)%N) (d 2) /\ same (at3 (data (comp 1 (snd r3))) (1, 1, 1)%N) (d 2))))).
Proof.
  split; [apply list_recorded; [discriminate | repeat constructor | reflexivity]|].
  split; [intros m [<- | [<- | []]]; split; vm_compute; reflexivity|].
  destruct (cart_new (2, 2, 2)%N (ThreeD box64)) as [g|] eqn:E; [|discriminate]. cbn [after].
  split; [exact (new_fresh _ _ true g (or_introl E))|]. injection E as <-. vm_compute. repeat split; reflexivity.
Qed.
(** The hypotheses of the two ideal theorems: two particles at (1, 1, 1), speeds 3 and 4, in the box [0, 2]^3. *)
Example c161_case_ideal {TF : Trig R} : let cg : cart_geom R := mkCart (2, 2, 2)%N (cart_centres 2%N 0%R 2%R) (cart_centres 2%N 0%R 2%R) (cart_centres 2%N 0%R 2%R) ((0, 2), (0, 2), (0, 2))%R in
  sized (cc_cells cg) /\ proper (cc_lim cg) /\ in_window sel_default (agree_data (F := R)) <> [] /\
  (forall st, st_timesteps st = 1%N -> recorded (list_mgr (agree_data (F := R)) st) tt agree_data) /\
  (forall m, In m (flat_map samples (agree_data (F := R))) ->
     accepts sel_default m = true /\ geom_inside (Cart cg) (sm_pos m) = true /\ (3 <= speed (sm_vel m) <= 4)%R).
Proof.
  intros cg. split; [cbn; lia|]. split; [cbn; lra|].
  assert (V : timestep_valid (sel_default (F := R)) 0%R = true).
  { unfold timestep_valid, sel_default. cbn [s_time fst snd]. apply andb_true_iff. cbn [nleb num_R].
    assert (B : (0 <= IZR (2 ^ 1024 - 2 ^ 971))%R) by (apply IZR_le; vm_compute; discriminate).
    split; apply Rleb_true; [change (- IZR (2 ^ 1024 - 2 ^ 971) <= 0)%R; lra | exact B]. }
  split; [cbn [in_window agree_data flat_map ts_time ts_vel]; change (@n0 R num_R) with 0%R; rewrite V; discriminate|].
  split; [intros st E; apply list_recorded; [discriminate | repeat constructor | now rewrite E]|].
  assert (Q : forall a : R, (if Req_EM_T a a then true else false) = true) by (intros a; destruct (Req_EM_T a a); [reflexivity | contradiction]).
  assert (I : geom_inside (Cart cg) (1, 1, 1)%R = true).
  { cbn. unfold cart_inside, in_interval. cbn. repeat (destruct (Rlt_dec _ _); try lra); repeat (destruct (Rle_dec _ _); try lra); reflexivity. }
  intros m Hm. split; [|split].
  - destruct Hm as [<- | [<- | []]]; unfold accepts, is_valid, is_radius_valid, is_cloud_valid, is_density_valid, is_particleid_valid, sel_default; cbn; rewrite !Q; reflexivity.
  - destruct Hm as [<- | [<- | []]]; exact I.
  - assert (S : speed (3, 0, 0)%R = 3%R /\ speed (0, 4, 0)%R = 4%R).
    { split; unfold speed; cbn; [transitivity (sqrt (3 * 3)) | transitivity (sqrt (4 * 4))]; try (apply sqrt_square; lra); f_equal; ring. }
    destruct S as [S3 S4]. destruct Hm as [<- | [<- | []]]; cbn [sm_vel]; change (@n0 R num_R) with 0%R; change (@nof R num_R) with IZR; rewrite ?S3, ?S4; lra.
Qed.
