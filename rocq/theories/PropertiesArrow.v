(** * Properties C90-C92: arrows drawn, their sizes and their colours, in exact arithmetic. *)
From Coq Require Import Reals List NArith ZArith Bool Lia Lra Psatz String ZifyBool ZifyN ZifyNat.
From Verif Require Import Base BaseFacts Num RFacts NDArray GridModel GridSpec GridFacts GridOps PropertiesGrid DataModel DataSpec DataLoad PropertiesData
  PolarR PyModel PyStat PlotModel PlotProofs PropertiesPlot PropertiesMap.
Local Open Scope list_scope.
Local Open Scope bool_scope.
Local Open Scope R_scope.

#[local] Existing Instance trig_R.
(** libm in exact arithmetic. *)
#[local] Instance wave_R : Wave R := {| nhypot := fun u v => sqrt (u * u + v * v); nsin := sin; ncos := cos |}.

(** The length of a vector. *)
Definition long (u v : R) : R := sqrt (u * u + v * v).
Lemma long_pos u v : 0 <= long u v. Proof. apply sqrt_pos. Qed.
Lemma long_sqr u v : long u v * long u v = u * u + v * v.
Proof. apply sqrt_sqrt. nra. Qed.
Lemma long_ge u v : Rabs u <= long u v /\ Rabs v <= long u v.
Proof.
  pose proof (long_pos u v). pose proof (long_sqr u v). split; apply Rabs_le; split; nra.
Qed.
Lemma long_0 u v : long u v = 0 <-> u = 0 /\ v = 0.
Proof.
  pose proof (long_sqr u v). pose proof (long_pos u v). split; [intros E; rewrite E in *; split; nra|]. intros [-> ->].
  unfold long. replace (0 * 0 + 0 * 0) with 0 by ring. apply sqrt_0.
Qed.
Lemma long_scale s u v : 0 <= s -> long (u * s) (v * s) = long u v * s.
Proof.
  intros H. unfold long. replace (u * s * (u * s) + v * s * (v * s)) with ((u * u + v * v) * (s * s)) by ring.
  rewrite sqrt_mult by nra. now rewrite sqrt_square.
Qed.

(** An arrow drawn from (x, y) along (u, v): the shaft, and two barbs of three tenths of its
    length, one on either side, at twenty degrees to the shaft. *)
Definition barb (x y u v bx by_ side : R) : Prop :=
  let px := x + u - bx in let py := y + v - by_ in
  long px py = 3 / 10 * long u v /\
  u * px + v * py = 3 / 10 * (long u v * long u v) * cos (PI / 9) /\
  u * py - v * px = side * (3 / 10) * (long u v * long u v) * sin (PI / 9).
Definition drawn (l : @line R) (x y u v : R) : Prop :=
  exists lx ly rx ry,
    l_xs l = [x; x + u; lx; rx; x + u] /\ l_ys l = [y; y + v; ly; ry; y + v] /\ barb x y u v lx ly 1 /\ barb x y u v rx ry (-1).

(** An array of arrows whose recorded lengths are the lengths. *)
Definition measured (p : arrows R) : Prop :=
  plottable p /\ forall ij, at2 (q_norm p) ij = long (at2 (q_u p) ij) (at2 (q_v p) ij).

Lemma barb_ok x y u v side : side = 1 \/ side = -1 ->
  barb x y u v (x + u - long u v * (3 / 10) * cos (Ratan2 v u + side * (PI / 9))) (y + v - long u v * (3 / 10) * sin (Ratan2 v u + side * (PI / 9))) side.
Proof.
  intros Hs. unfold barb. cbv zeta. set (b := Ratan2 v u + side * (PI / 9)). pose proof (long_pos u v) as P.
  replace (x + u - (x + u - long u v * (3 / 10) * cos b)) with (cos b * (long u v * (3 / 10))) by ring.
  replace (y + v - (y + v - long u v * (3 / 10) * sin b)) with (sin b * (long u v * (3 / 10))) by ring.
  split; [|].
  { rewrite long_scale by lra. unfold long at 1. replace (cos b * cos b + sin b * sin b) with (Rsqr (sin b) + Rsqr (cos b)) by (unfold Rsqr; ring).
    rewrite sin2_cos2, sqrt_1. lra. }
  destruct (Ratan2_polar v u) as [Cu Su]. fold (long u v) in Cu, Su. set (t := Ratan2 v u) in *.
  assert (E1 : cos b = cos t * cos (PI / 9) - side * sin t * sin (PI / 9)).
  { unfold b. destruct Hs as [-> | ->]; [rewrite Rmult_1_l, cos_plus; ring | replace (t + -1 * (PI / 9)) with (t - PI / 9) by ring; rewrite cos_minus; ring]. }
  assert (E2 : sin b = sin t * cos (PI / 9) + side * cos t * sin (PI / 9)).
  { unfold b. destruct Hs as [-> | ->]; [rewrite Rmult_1_l, sin_plus; ring | replace (t + -1 * (PI / 9)) with (t - PI / 9) by ring; rewrite sin_minus; ring]. }
  rewrite E1, E2. pose proof (sin2_cos2 t) as ST. unfold Rsqr in ST. set (L := long u v) in *.
  set (c9 := cos (PI / 9)). set (s9 := sin (PI / 9)).
  split.
  - replace (u * ((cos t * c9 - side * sin t * s9) * (L * (3 / 10))) + v * ((sin t * c9 + side * cos t * s9) * (L * (3 / 10))))
      with (L * (3 / 10) * (c9 * (u * cos t + v * sin t) + side * s9 * (v * cos t - u * sin t))) by ring.
    rewrite <- Cu, <- Su. replace (L * cos t * cos t + L * sin t * sin t) with (L * (sin t * sin t + cos t * cos t)) by ring. rewrite ST. ring.
  - replace (u * ((sin t * c9 + side * cos t * s9) * (L * (3 / 10))) - v * ((cos t * c9 - side * sin t * s9) * (L * (3 / 10))))
      with (L * (3 / 10) * (side * s9 * (u * cos t + v * sin t) - c9 * (v * cos t - u * sin t))) by ring.
    rewrite <- Cu, <- Su. replace (L * cos t * cos t + L * sin t * sin t) with (L * (sin t * sin t + cos t * cos t)) by ring. rewrite ST. ring.
Qed.

Lemma arrows_drawn unit (p : arrows R) : measured p ->
  exists l, create_arrows unit p n1 = Val l /\ vlen l = (vlen (q_x p) * vlen (q_y p))%N /\
    forall i j x y, at_ (q_x p) i x -> at_ (q_y p) j y ->
      exists ar, at_ l (i * vlen (q_y p) + j)%N ar /\ forall c, drawn (arrow_line ar c) x y (at2 (q_u p) (i, j)) (at2 (q_v p) (i, j)) /\ l_colour (arrow_line ar c) = c.
Proof.
  intros [P M]. destruct (create_arrows_ok unit p n1 P) as [l [E [Ll V]]]. exists l. split; [exact E|]. split; [exact Ll|].
  intros i j x y Hx Hy. specialize (V i j x y Hx Hy). cbv zeta in V. eexists. split; [exact V|]. intros c. split; [|reflexivity].
  unfold drawn, arrow_line. cbn [l_xs l_ys fst snd ar_base ar_tip ar_left ar_right]. rewrite M.
  set (u := at2 (q_u p) (i, j)). set (v := at2 (q_v p) (i, j)).
  assert (U : @nmul R num_R u n1 = u) by (cbn; ring). rewrite U.
  assert (U2 : (if unit then u else u) = u) by now destruct unit. rewrite U2.
  eexists _, _, _, _. split; [reflexivity|]. split; [reflexivity|].
  assert (L3 : @nlit R num_R 3 10 = 3 / 10) by reflexivity. assert (An : @angle R num_R trig_R = PI / 9) by reflexivity. rewrite L3, An.
  split.
  - pose proof (barb_ok x y u v 1 (or_introl eq_refl)) as B. rewrite !Rmult_1_l in B. exact B.
  - pose proof (barb_ok x y u v (-1) (or_intror eq_refl)) as B. replace (Ratan2 v u + -1 * (PI / 9)) with (Ratan2 v u - PI / 9) in B by ring. exact B.
Qed.

(** ** Rescaling *)
(** [p'] is [p] with every arrow stretched by its own two factors. *)
Definition stretched (p p' : arrows R) (sx sy : N * N -> R) : Prop :=
  measured p' /\ q_x p' = q_x p /\ q_y p' = q_y p /\ q_true p' = q_true p /\
  forall ij, at2 (q_u p') ij = at2 (q_u p) ij * sx ij /\ at2 (q_v p') ij = at2 (q_v p) ij * sy ij.

Lemma elementwise_ok (p : arrows R) (f : R -> R) : measured p ->
  exists p', scale_elementwise p (map2 f (q_norm p)) = Val p' /\ stretched p p' (fun ij => f (at2 (q_norm p) ij)) (fun ij => f (at2 (q_norm p) ij)).
Proof.
  intros [[S1 [S2 [S3 S4]]] M]. unfold scale_elementwise, with_uv.
  rewrite (zip2e_ok nmul (q_u p)) by (cbn [map2 sh2]; congruence). cbn [bind].
  rewrite (zip2e_ok nmul (q_v p)) by (cbn [map2 sh2]; congruence). cbn [bind].
  rewrite zip2e_ok by (cbn [zip2 sh2]; congruence). cbn [bind]. eexists. split; [reflexivity|].
  unfold stretched, measured, plottable. cbn [q_x q_y q_u q_v q_norm q_true zip2 map2 sh2 at2].
  split; [split; [auto|reflexivity]|]. repeat split; reflexivity.
Qed.
Lemma nodes_ok (p : arrows R) (a b : R) : measured p ->
  exists p', with_uv p (map2 (fun x => nmul x a) (q_u p)) (map2 (fun x => nmul x b) (q_v p)) = Val p' /\ stretched p p' (fun _ => a) (fun _ => b).
Proof.
  intros [[S1 [S2 [S3 S4]]] M]. unfold with_uv.
  rewrite zip2e_ok by (cbn [map2 sh2]; congruence). cbn [bind]. eexists. split; [reflexivity|].
  unfold stretched, measured, plottable. cbn [q_x q_y q_u q_v q_norm q_true zip2 map2 sh2 at2].
  split; [split; [auto|reflexivity]|]. repeat split; reflexivity.
Qed.

Lemma max_fold_R (l : list R) : forall a : R,
  let m := fold_left (fun acc x => if nltb x acc then acc else x) l a in In m (a :: l) /\ forall y, In y (a :: l) -> y <= m.
Proof.
  induction l as [|x l IH]; intros a; cbn [fold_left]; cbv zeta.
  - split; [now left|]. intros y [<-|[]]. lra.
  - set (b := if nltb x a then a else x). destruct (IH b) as [I L]. clear IH. cbv zeta in I, L.
    assert (Lb : x <= b /\ a <= b) by (unfold b; destruct (nltb x a) eqn:E; [apply Rltb_true in E | apply Rltb_false in E]; lra).
    split; [destruct I as [I|I]; [|right; now right]; rewrite <- I; unfold b; destruct (nltb x a); [now left | right; now left]|].
    intros y [<-|[<-|Hy]]; [apply Rle_trans with b; [apply Lb | apply L; now left] .. | apply L; now right].
Qed.
Lemma min_fold_R (l : list R) : forall a : R,
  let m := fold_left (fun acc x => if nltb x acc then x else acc) l a in In m (a :: l) /\ forall y, In y (a :: l) -> m <= y.
Proof.
  induction l as [|x l IH]; intros a; cbn [fold_left]; cbv zeta.
  - split; [now left|]. intros y [<-|[]]. lra.
  - set (b := if nltb x a then x else a). destruct (IH b) as [I L]. clear IH. cbv zeta in I, L.
    assert (Lb : b <= x /\ b <= a) by (unfold b; destruct (nltb x a) eqn:E; [apply Rltb_true in E | apply Rltb_false in E]; lra).
    split; [destruct I as [I|I]; [|right; now right]; rewrite <- I; unfold b; destruct (nltb x a); [right; now left | now left]|].
    intros y [<-|[<-|Hy]]; [apply Rle_trans with b; [apply L; now left | apply Lb] .. | apply L; now right].
Qed.
Lemma skipnan_R (l : list R) : l <> [] -> (In (max_skipnan l) l /\ forall y, In y l -> y <= max_skipnan l) /\ (In (min_skipnan l) l /\ forall y, In y l -> min_skipnan l <= y).
Proof.
  intros H. unfold max_skipnan, min_skipnan, skipnan. assert (E : filter (fun x : R => negb (nisnan x)) l = l).
  { clear H. induction l as [|x l IH]; [reflexivity|]. cbn. now f_equal. }
  rewrite E. destruct l as [|x r]; [congruence|]. split; [apply max_fold_R | apply min_fold_R].
Qed.
(** Entries of a table. *)
Definition entry (n m : N) (ij : N * N) : Prop := (fst ij < n /\ snd ij < m)%N.
Lemma in_flat (t : arr2 R) n m x : sh2 t = (n, m) -> In x (flatten_2d t) <-> exists ij, entry n m ij /\ x = at2 t ij.
Proof.
  intros S. unfold flatten_2d. rewrite in_map_iff, S. split.
  - intros [ij [<- H]]. apply in_ids2 in H. exists ij. auto.
  - intros [ij [H ->]]. exists ij. rewrite in_ids2. auto.
Qed.
Lemma flat_nonempty (t : arr2 R) n m : sh2 t = (n, m) -> (1 <= n)%N -> (1 <= m)%N -> flatten_2d t <> [].
Proof.
  intros S Hn Hm E. assert (I : In (at2 t (0%N, 0%N)) (flatten_2d t)) by (apply (in_flat _ _ _ _ S); exists (0%N, 0%N); split; [split; cbn; lia | reflexivity]).
  now rewrite E in I.
Qed.

(** ** Calls *)
(** What a call shows: the plane [k], or (for the planes the code gets right) a depth average. *)
Definition asks (v : vgrid R) (a : args R) (axis : N) : Prop :=
  (exists k, (k < cells_along (vg0 v) axis)%N /\ (k < 2 ^ 64)%N /\ asks_plane a axis k) \/ asks_depth a axis.
(** The in-plane velocities shown: those of the cells of the plane, or the depth averages. *)
Definition flow (v : vgrid R) (a : args R) (axis : N) (u w : N * N -> R) : Prop :=
  let U := component v (right_axis axis) in let V := component v (up_axis axis) in
  (forall k, asks_plane a axis k -> forall c, on_plane (vg0 v) axis k c -> u (drop axis c) = at3 (data U) c /\ w (drop axis c) = at3 (data V) c) /\
  (asks_depth a axis -> exists x y, collapse U axis = Val x /\ collapse V axis = Val y /\ u = at2 x /\ w = at2 y).

Section Calls.
  Variables (v : vgrid R) (a : args R) (axis : N).
  Hypothesis W : wf_vector v.
  Hypothesis S : sized (geom_cells (geo (vg0 v))).
  Hypothesis Ha : (axis <= 2)%N.
  Hypothesis Va : validate a = true.
  Hypothesis Q : asks v a axis.
  Notation g := (vg0 v).
  Notation n := (cells_along g (right_axis axis)).
  Notation m := (cells_along g (up_axis axis)).

  (** The arrows before rescaling. *)
  Definition raw_quiver : res (arrows R) :=
    if String.eqb (a_selection a) "depth_average" then quiver_depth v axis
    else match usize_arg (a_index a) with Some idx => let! k := unwrap idx in quiver_plane v axis k | None => Panic end.
  Lemma quiver_call : quiver_plot (FVector v) a =
    let! p := raw_quiver in let! p := rescale p (a_mode a) (a_min a) (a_max a) in
    let! t := quiver_traces p n1 (negb (absent (get_gradient (a_cmap a)))) in Val (Some t).
  Proof.
    unfold quiver_plot, raw_quiver. rewrite Va. cbn [negb].
    destruct Q as [[k [_ [Hb [A1 [A2 A3]]]]]|[A1 [A2 A3]]]; rewrite A1, A2, N2Z.id.
    - rewrite (usize_ok a k A3 Hb). reflexivity.
    - rewrite A3. reflexivity.
  Qed.
  Lemma raw_ok : (axis = 1%N -> ~ asks_depth a axis) ->
    exists p, raw_quiver = Val p /\ measured p /\ q_x p = centres g (right_axis axis) /\ q_y p = centres g (up_axis axis) /\
      q_true p = q_norm p /\ flow v a axis (at2 (q_u p)) (at2 (q_v p)).
  Proof.
    intros N1. unfold raw_quiver, flow. cbv zeta. destruct Q as [[k [Hk [Hb [A1 [A2 A3]]]]]|[A1 [A2 A3]]]; rewrite A2; cbn [String.eqb Ascii.eqb Bool.eqb].
    - rewrite (usize_ok a k A3 Hb). cbn [unwrap bind].
      destruct (quiver_plane_ok v axis W Ha k Hk) as [p [E [P [Ex [Ey [En [Et H]]]]]]]. exists p. split; [exact E|].
      split; [split; [exact P|]; intros ij; rewrite En; reflexivity|]. split; [exact Ex|]. split; [exact Ey|]. split; [exact Et|]. split.
      + intros k' [_ [_ B3]] c Hc. rewrite A3 in B3. injection B3 as B3. apply N2Z.inj in B3. subst k'. now apply H.
      + intros [_ [B2 _]]. rewrite A2 in B2. discriminate.
    - assert (H1 : axis <> 1%N) by (intros E; apply (N1 E); split; auto).
      destruct (quiver_depth_ok v axis W Ha H1) as [p [x [y [E [P [Ex [Ey [En [Et [Cx [Cy [Eu Ev]]]]]]]]]]]]. exists p. split; [exact E|].
      split; [split; [exact P|]; intros ij; rewrite En; reflexivity|]. split; [exact Ex|]. split; [exact Ey|]. split; [exact Et|]. split.
      + intros k' [_ [B2 _]]. rewrite A2 in B2. discriminate.
      + intros _. exists x, y. rewrite Eu, Ev. auto.
  Qed.

  Lemma sizes : vlen (centres g (right_axis axis)) = n /\ vlen (centres g (up_axis axis)) = m /\ (1 <= n)%N /\ (1 <= m)%N.
  Proof.
    pose proof (axes_le axis) as [L1 L2]. destruct (lens v axis W S Ha) as [B1 B2]. rewrite !(cells_len g) by (assumption || apply W). auto.
  Qed.

  (** Whatever the rescaling: one arrow per entry, drawn from the centre, coloured by its true
      length on the scale of all true lengths. *)
  Definition coloured (l : @line R) (u w : N * N -> R) (ij : N * N) (cmap : bool) : Prop :=
    if cmap then exists lo hi,
      (exists e, entry n m e /\ lo = long (u e) (w e)) /\ (exists e, entry n m e /\ hi = long (u e) (w e)) /\
      (forall e, entry n m e -> lo <= long (u e) (w e) <= hi) /\ l_colour l = Some ((long (u ij) (w ij) - lo) / (hi - lo))
    else l_colour l = None.
  Lemma traces_ok p p' sx sy cmap : measured p -> q_x p = centres g (right_axis axis) -> q_y p = centres g (up_axis axis) -> q_true p = q_norm p ->
    stretched p p' sx sy ->
    exists ls b, quiver_traces p' n1 cmap = Val (ls, b) /\ vlen ls = (n * m)%N /\
      forall ij, entry n m ij -> exists x y l, place g axis ij x y /\ at_ ls (rank g axis ij) l /\
        drawn l x y (at2 (q_u p) ij * sx ij) (at2 (q_v p) ij * sy ij) /\ coloured l (at2 (q_u p)) (at2 (q_v p)) ij cmap.
  Proof.
    intros Mp Ex Ey Et [Mp' [Ex' [Ey' [Et' H]]]]. destruct sizes as [Ln [Lm [N1 N2]]].
    destruct (arrows_drawn false p' Mp') as [ars [Ea [La Da]]]. unfold quiver_traces. rewrite Ea. cbn [bind].
    rewrite Ex', Ey', Ex, Ey in *. rewrite Ln, Lm in *.
    destruct (nonempty_first (centres g (right_axis axis))) as [x0 ->]; [lia|]. destruct (nonempty_first (centres g (up_axis axis))) as [y0 ->]; [lia|]. cbn [bind].
    assert (St : sh2 (q_true p') = (n, m)) by (destruct Mp' as [[_ [_ [_ X]]] _]; rewrite Ex', Ey', Ln, Lm in X; exact X).
    assert (Sn : sh2 (normalise_colour p') = (n, m)) by exact St.
    eexists _, _. split; [reflexivity|]. split; [rewrite vlen_map, vlen_combine, La, (flat_len _ _ _ Sn); lia|].
    intros [i j] [Bi Bj]. cbn [fst snd] in *.
    destruct (place_ex g axis (i, j) (proj1 W) Ha) as [x [y Hp]]; [rewrite Ln, Lm; apply inb2_lt; cbn [fst snd]; lia|].
    pose proof Hp as [Hx Hy]. cbn [fst snd] in *. destruct (Da i j x y Hx Hy) as [ar [Aar Dar]].
    pose proof (flat_at _ _ _ i j Sn Bi Bj) as B.
    pose proof (at_map' (fun ac => arrow_line (fst ac) (if cmap then Some (snd ac) else None)) _ _ _ (at_combine _ _ _ _ _ Aar B)) as C.
    cbv beta in C. cbn [fst snd] in C. destruct (H (i, j)) as [H1 H2]. rewrite H1, H2 in Dar.
    exists x, y, (arrow_line ar (if cmap then Some (at2 (normalise_colour p') (i, j)) else None)). split; [exact Hp|]. split; [exact C|].
    split; [apply Dar|]. unfold coloured. destruct cmap; [|reflexivity].
    assert (T : forall e, at2 (q_true p') e = long (at2 (q_u p) e) (at2 (q_v p) e)) by (intros e; rewrite Et', Et; apply Mp).
    destruct (skipnan_R (flatten_2d (q_true p'))) as [[I1 M1] [I2 M2]]; [now apply (flat_nonempty _ _ _ St)|].
    exists (min_skipnan (flatten_2d (q_true p'))), (max_skipnan (flatten_2d (q_true p'))).
    apply (in_flat _ _ _ _ St) in I1. apply (in_flat _ _ _ _ St) in I2.
    split; [destruct I2 as [e [He E]]; exists e; rewrite E; rewrite T; auto|].
    split; [destruct I1 as [e [He E]]; exists e; rewrite E; rewrite T; auto|].
    split; [intros e He; rewrite <- T; split; [apply M2 | apply M1]; apply (in_flat _ _ _ _ St); eauto|].
    destruct (Dar (Some (at2 (normalise_colour p') (i, j)))) as [_ ->]. unfold normalise_colour at 1. cbn [map2 at2]. rewrite T. reflexivity.
  Qed.

  Definition cmap_asked : bool := negb (absent (get_gradient (a_cmap a))).
  (** The picture: every entry's arrow, given how its velocity is stretched. *)
  Definition picture (ls : list (@line R)) (u w : N * N -> R) (sx sy : N * N -> R) : Prop :=
    vlen ls = (n * m)%N /\
    forall ij, entry n m ij -> exists x y l, place g axis ij x y /\ at_ ls (rank g axis ij) l /\
      drawn l x y (u ij * sx ij) (w ij * sy ij) /\ coloured l u w ij cmap_asked.

  Hypothesis N1 : axis = 1%N -> ~ asks_depth a axis.

  Lemma call_scaled (sx sy : arrows R -> N * N -> R) :
    (forall p, measured p -> q_x p = centres g (right_axis axis) -> q_y p = centres g (up_axis axis) ->
       exists p', rescale p (a_mode a) (a_min a) (a_max a) = Val p' /\ stretched p p' (sx p) (sy p)) ->
    exists p ls b, quiver_plot (FVector v) a = Val (Some (ls, b)) /\ measured p /\ q_x p = centres g (right_axis axis) /\ q_y p = centres g (up_axis axis) /\
      flow v a axis (at2 (q_u p)) (at2 (q_v p)) /\ picture ls (at2 (q_u p)) (at2 (q_v p)) (sx p) (sy p).
  Proof.
    intros H. destruct (raw_ok N1) as [p [E [M [Ex [Ey [Et Fl]]]]]]. rewrite quiver_call, E. cbn [bind].
    destruct (H p M Ex Ey) as [p' [E' St]]. rewrite E'. cbn [bind].
    destruct (traces_ok p p' _ _ cmap_asked M Ex Ey Et St) as [ls [b [El [Ll Vl]]]]. fold cmap_asked. rewrite El. cbn [bind].
    exists p, ls, b. split; [reflexivity|]. split; [exact M|]. split; [exact Ex|]. split; [exact Ey|]. split; [exact Fl|]. split; assumption.
  Qed.

  (** *** No scaling *)
  Theorem c90_plain : a_mode a = None ->
    exists u w ls b, quiver_plot (FVector v) a = Val (Some (ls, b)) /\ flow v a axis u w /\ picture ls u w (fun _ => 1) (fun _ => 1).
  Proof.
    intros Hm. destruct (call_scaled (fun _ _ => 1) (fun _ _ => 1)) as [p [ls [b [E [_ [_ [_ [Fl P]]]]]]]]; [|eauto 8].
    intros p M Ex Ey. rewrite Hm. exists p. split; [reflexivity|]. split; [exact M|]. repeat (split; [reflexivity|]). intros ij. lra.
  Qed.

  Ltac by_norm f := 
    let p := fresh "p" in let M := fresh "M" in intros p M _ _; destruct (elementwise_ok p f M) as [p' [E St]]; exists p'; split; [exact E|exact St].

  (** *** At least [mn], at most [mx] long *)
  Theorem c91_max mx : a_mode a = Some "max"%string -> a_max a = Some mx -> 0 < mx ->
    exists u w s ls b, quiver_plot (FVector v) a = Val (Some (ls, b)) /\ flow v a axis u w /\ picture ls u w s s /\
      forall ij, 0 < s ij /\ long (u ij * s ij) (w ij * s ij) = Rmin mx (long (u ij) (w ij)).
  Proof.
    intros Hm Hx Pm. set (f := fun nn : R => if nltb mx nn then ndiv mx nn else n1).
    destruct (call_scaled (fun p ij => f (at2 (q_norm p) ij)) (fun p ij => f (at2 (q_norm p) ij))) as [p [ls [b [E [[_ M] [_ [_ [Fl P]]]]]]]].
    { rewrite Hm, Hx. by_norm f. }
    exists (at2 (q_u p)), (at2 (q_v p)), (fun ij => f (at2 (q_norm p) ij)), ls, b. split; [exact E|]. split; [exact Fl|]. split; [exact P|].
    intros ij. rewrite M. set (L := long _ _). pose proof (long_pos (at2 (q_u p) ij) (at2 (q_v p) ij)) as PL. fold L in PL.
    assert (K : 0 < f L /\ L * f L = Rmin mx L).
    { unfold f. destruct (nltb mx L) eqn:D; [apply Rltb_true in D | apply Rltb_false in D]; cbn [ndiv n1 nof num_R].
      - rewrite Rmin_left by lra. split; [apply Rdiv_lt_0_compat; lra | field; lra].
      - rewrite Rmin_right by lra. split; lra. }
    split; [apply K|]. rewrite long_scale by (left; apply K). apply K.
  Qed.
  Theorem c91_min mn : a_mode a = Some "min"%string -> a_min a = Some mn ->
    exists u w s ls b, quiver_plot (FVector v) a = Val (Some (ls, b)) /\ flow v a axis u w /\ picture ls u w s s /\
      forall ij, 0 < long (u ij) (w ij) -> 0 < s ij /\ long (u ij * s ij) (w ij * s ij) = Rmax mn (long (u ij) (w ij)).
  Proof.
    intros Hm Hx. set (f := fun nn : R => if nltb nn mn then ndiv mn nn else n1).
    destruct (call_scaled (fun p ij => f (at2 (q_norm p) ij)) (fun p ij => f (at2 (q_norm p) ij))) as [p [ls [b [E [[_ M] [_ [_ [Fl P]]]]]]]].
    { rewrite Hm, Hx. by_norm f. }
    exists (at2 (q_u p)), (at2 (q_v p)), (fun ij => f (at2 (q_norm p) ij)), ls, b. split; [exact E|]. split; [exact Fl|]. split; [exact P|].
    intros ij. rewrite M. set (L := long _ _). intros PL.
    assert (K : 0 < f L /\ L * f L = Rmax mn L).
    { unfold f. destruct (nltb L mn) eqn:D; [apply Rltb_true in D | apply Rltb_false in D]; cbn [ndiv n1 nof num_R].
      - rewrite Rmax_left by lra. split; [apply Rdiv_lt_0_compat; lra | field; lra].
      - rewrite Rmax_right by lra. split; lra. }
    split; [apply K|]. rewrite long_scale by (left; apply K). apply K.
  Qed.
  Theorem c91_min_max mn mx : a_mode a = Some "minmax"%string -> a_min a = Some mn -> a_max a = Some mx -> 0 < mx -> mn <= mx ->
    exists u w s ls b, quiver_plot (FVector v) a = Val (Some (ls, b)) /\ flow v a axis u w /\ picture ls u w s s /\
      forall ij, 0 < long (u ij) (w ij) -> 0 < s ij /\ long (u ij * s ij) (w ij * s ij) = Rmin mx (Rmax mn (long (u ij) (w ij))).
  Proof.
    intros Hm Hx Hy Px Pm. set (f := fun nn : R => if nltb mx nn then ndiv mx nn else if nltb nn mn then ndiv mn nn else n1).
    destruct (call_scaled (fun p ij => f (at2 (q_norm p) ij)) (fun p ij => f (at2 (q_norm p) ij))) as [p [ls [b [E [[_ M] [_ [_ [Fl P]]]]]]]].
    { rewrite Hm, Hx, Hy. by_norm f. }
    exists (at2 (q_u p)), (at2 (q_v p)), (fun ij => f (at2 (q_norm p) ij)), ls, b. split; [exact E|]. split; [exact Fl|]. split; [exact P|].
    intros ij. rewrite M. set (L := long _ _). intros PL.
    assert (K : 0 < f L /\ L * f L = Rmin mx (Rmax mn L)).
    { unfold f. destruct (nltb mx L) eqn:D; [apply Rltb_true in D | apply Rltb_false in D]; cbn [ndiv n1 nof num_R].
      - rewrite Rmax_right, Rmin_left by lra. split; [apply Rdiv_lt_0_compat; lra | field; lra].
      - destruct (nltb L mn) eqn:D'; [apply Rltb_true in D' | apply Rltb_false in D']; cbn [ndiv n1 nof num_R].
        + rewrite Rmax_left, Rmin_right by lra. split; [apply Rdiv_lt_0_compat; lra | field; lra].
        + rewrite Rmax_right, Rmin_right by lra. split; lra. }
    split; [apply K|]. rewrite long_scale by (left; apply K). apply K.
  Qed.

  (** *** Fitted to the cells: the longest arrow sets the scale, and no arrow reaches beyond
      (half) the spacing of the cells *)
  Lemma fitted part dx dy p : measured p -> q_x p = centres g (right_axis axis) -> q_y p = centres g (up_axis axis) ->
    let largest := max_skipnan (flatten_2d (q_norm p)) in
    (exists e, entry n m e /\ 0 < long (at2 (q_u p) e) (at2 (q_v p) e)) -> 0 <= part ->
    (exists e, entry n m e /\ largest = long (at2 (q_u p) e) (at2 (q_v p) e)) /\
    forall ij, entry n m ij -> long (at2 (q_u p) ij) (at2 (q_v p) ij) <= largest /\
      Rabs (at2 (q_u p) ij * (part * dx / largest)) <= part * Rabs dx /\ Rabs (at2 (q_v p) ij * (part * dy / largest)) <= part * Rabs dy.
  Proof.
    intros [[_ [_ [Sn _]]] M] Ex Ey largest [e0 [He0 P0]] Hp. destruct sizes as [Ln [Lm [N1' N2']]]. rewrite Ex, Ey, Ln, Lm in Sn.
    destruct (skipnan_R (flatten_2d (q_norm p))) as [[I1 M1] _]; [now apply (flat_nonempty _ _ _ Sn)|]. fold largest in I1, M1.
    assert (Le : forall e, entry n m e -> long (at2 (q_u p) e) (at2 (q_v p) e) <= largest).
    { intros e He. rewrite <- M. apply M1. apply (in_flat _ _ _ _ Sn). eauto. }
    assert (Pl : 0 < largest) by (specialize (Le e0 He0); lra).
    split; [apply (in_flat _ _ _ _ Sn) in I1; destruct I1 as [e [He E]]; exists e; rewrite E, M; auto|].
    intros ij Hij. specialize (Le ij Hij). split; [exact Le|].
    assert (K : forall c dd, Rabs c <= largest -> Rabs (c * (part * dd / largest)) <= part * Rabs dd).
    { intros c dd Hc. replace (c * (part * dd / largest)) with (c / largest * (part * dd)) by (field; lra).
      rewrite Rabs_mult, Rabs_mult, (Rabs_pos_eq part) by lra. unfold Rdiv. rewrite Rabs_mult, (Rabs_pos_eq (/ largest)) by (left; now apply Rinv_0_lt_compat).
      assert (Rabs c * / largest <= 1) by (apply (Rmult_le_reg_r largest); [lra|]; rewrite Rmult_assoc, Rinv_l by lra; lra).
      pose proof (Rabs_pos dd). pose proof (Rabs_pos c). assert (0 <= part * Rabs dd) by nra.
      apply Rle_trans with (1 * (part * Rabs dd)); [|lra]. apply Rmult_le_compat_r; lra. }
    destruct (long_ge (at2 (q_u p) ij) (at2 (q_v p) ij)). split; apply K; lra.
  Qed.
  Theorem c91_fitted part : (a_mode a = Some "half_node"%string /\ part = 1 / 2) \/ (a_mode a = Some "full_node"%string /\ part = 1) ->
    forall x0 x1 y0 y1, at_ (centres g (right_axis axis)) 0 x0 -> at_ (centres g (right_axis axis)) 1 x1 ->
      at_ (centres g (up_axis axis)) 0 y0 -> at_ (centres g (up_axis axis)) 1 y1 ->
    exists u w L ls b, quiver_plot (FVector v) a = Val (Some (ls, b)) /\ flow v a axis u w /\
      picture ls u w (fun _ => part * (x1 - x0) / L) (fun _ => part * (y1 - y0) / L) /\
      ((exists e, entry n m e /\ 0 < long (u e) (w e)) ->
       (exists e, entry n m e /\ L = long (u e) (w e)) /\
       forall ij, entry n m ij -> long (u ij) (w ij) <= L /\
         Rabs (u ij * (part * (x1 - x0) / L)) <= part * Rabs (x1 - x0) /\ Rabs (w ij * (part * (y1 - y0) / L)) <= part * Rabs (y1 - y0)).
  Proof.
    intros Hm x0 x1 y0 y1 X0 X1 Y0 Y1.
    assert (Sp : forall xs (c d : R), at_ xs 0 c -> at_ xs 1 d -> spacing xs = Val (d - c)).
    { intros xs c d A0 A1. unfold spacing. rewrite (at_vget _ _ _ A1). cbn [bind]. rewrite (at_vget _ _ _ A0). reflexivity. }
    destruct (call_scaled (fun p _ => part * (x1 - x0) / max_skipnan (flatten_2d (q_norm p))) (fun p _ => part * (y1 - y0) / max_skipnan (flatten_2d (q_norm p))))
      as [p [ls [b [E [M [Ex [Ey [Fl P]]]]]]]].
    { intros p M Ex Ey. destruct Hm as [[Hm ->]|[Hm ->]]; rewrite Hm; cbn [rescale opt_is String.eqb Ascii.eqb Bool.eqb]; rewrite Ex, Ey, (Sp _ _ _ X0 X1), (Sp _ _ _ Y0 Y1); cbn [bind].
      - apply (nodes_ok p (1 / 2 * (x1 - x0) / max_skipnan (flatten_2d (q_norm p))) (1 / 2 * (y1 - y0) / max_skipnan (flatten_2d (q_norm p))) M).
      - pose proof (nodes_ok p ((x1 - x0) / max_skipnan (flatten_2d (q_norm p))) ((y1 - y0) / max_skipnan (flatten_2d (q_norm p))) M) as H.
        rewrite !Rmult_1_l. exact H. }
    exists (at2 (q_u p)), (at2 (q_v p)), (max_skipnan (flatten_2d (q_norm p))), ls, b. split; [exact E|]. split; [exact Fl|]. split; [exact P|].
    intros Nz. destruct (fitted part (x1 - x0) (y1 - y0) p M Ex Ey Nz) as [F1 F2]; [destruct Hm as [[_ ->]|[_ ->]]; lra|]. split; [exact F1|].
    intros ij Hij. apply (F2 ij Hij).
  Qed.
End Calls.

(** ** Colours lie on the scale *)
Theorem c92_scale (v : vgrid R) axis l u w ij : entry (cells_along (vg0 v) (right_axis axis)) (cells_along (vg0 v) (up_axis axis)) ij ->
  coloured v axis l u w ij true ->
  (exists e, entry (cells_along (vg0 v) (right_axis axis)) (cells_along (vg0 v) (up_axis axis)) e /\ long (u e) (w e) <> long (u ij) (w ij)) ->
  exists q, l_colour l = Some q /\ 0 <= q <= 1.
Proof.
  intros He [lo [hi [_ [_ [B E]]]]] [e [Hd D]]. eexists. split; [exact E|]. pose proof (B e Hd). pose proof (B ij He).
  assert (H1 : 0 < hi - lo) by lra. split.
  - unfold Rdiv. apply Rmult_le_pos; [lra|]. left. now apply Rinv_0_lt_compat.
  - apply (Rmult_le_reg_r (hi - lo)); [lra|]. unfold Rdiv. rewrite Rmult_assoc, Rinv_l by lra. lra.
Qed.

(** ** Unit vector plots *)
Section Unit.
  Variables (v : vgrid R) (a : args R) (axis : N).
  Hypothesis W : wf_vector v.
  Hypothesis S : sized (geom_cells (geo (vg0 v))).
  Hypothesis Ha : (axis <= 2)%N.
  Hypothesis Va : validate a = true.
  Hypothesis Q : asks v a axis.
  Notation g := (vg0 v).
  Notation n := (cells_along g (right_axis axis)).
  Notation m := (cells_along g (up_axis axis)).

  Lemma flow_tables : exists ua wa,
    (if String.eqb (a_selection a) "depth_average" then uv_depth v axis
     else match usize_arg (a_index a) with Some idx => let! k := unwrap idx in uv_plane v axis k | None => Panic end) = Val (ua, wa) /\
    sh2 ua = (n, m) /\ sh2 wa = (n, m) /\ flow v a axis (at2 ua) (at2 wa).
  Proof.
    destruct (sizes v axis W S Ha) as [Ln [Lm _]]. unfold flow. cbv zeta.
    destruct Q as [[k [Hk [Hb [A1 [A2 A3]]]]]|[A1 [A2 A3]]]; rewrite A2; cbn [String.eqb Ascii.eqb Bool.eqb].
    - rewrite (usize_ok a k A3 Hb). cbn [unwrap bind].
      destruct (uv_plane_ok v axis k (cells_along g axis) W Ha (cells_get g axis Ha) Hk) as [ua [wa [E [Su [Sw H]]]]].
      exists ua, wa. rewrite Sw, Su, Ln, Lm. split; [exact E|]. split; [reflexivity|]. split; [reflexivity|]. split.
      + intros k' [_ [_ B3]] c Hc. rewrite A3 in B3. injection B3 as B3. apply N2Z.inj in B3. subst k'.
        destruct (drop_in g axis c k (proj1 W) Ha Hc) as [_ [_ L]]. destruct (drop axis c) as [i j]. destruct (H i j) as [-> ->]. rewrite L. auto.
      + intros [_ [B2 _]]. rewrite A2 in B2. discriminate.
    - destruct (uv_depth_ok v axis W Ha) as [ua [wa [E [Cu [Cw [Su Sw]]]]]].
      exists ua, wa. rewrite Sw, Su, Ln, Lm. split; [exact E|]. split; [reflexivity|]. split; [reflexivity|]. split.
      + intros k' [_ [B2 _]]. rewrite A2 in B2. discriminate.
      + intros _. exists ua, wa. auto.
  Qed.

  (** Every arrow points along its velocity, half a cell wide and half a cell high at most, and all
      have that size whatever the speed; behind them, a map of the speed. *)
  Theorem c93_unit : a_mode a = None ->
    forall x0 x1 y0 y1, at_ (centres g (right_axis axis)) 0 x0 -> at_ (centres g (right_axis axis)) 1 x1 ->
      at_ (centres g (up_axis axis)) 0 y0 -> at_ (centres g (up_axis axis)) 1 y1 ->
    exists u w ls h, unit_vector_plot (FVector v) a = Val (Some (ls, h)) /\ flow v a axis u w /\ vlen ls = (n * m)%N /\ points h (n * m)%N /\
      forall ij, entry n m ij -> exists x y l, place g axis ij x y /\ shows h (rank g axis ij) x y (long (u ij) (w ij)) /\
        at_ ls (rank g axis ij) l /\ drawn l x y (u ij / long (u ij) (w ij) * ((x1 - x0) / 2)) (w ij / long (u ij) (w ij) * ((y1 - y0) / 2)).
  Proof.
    intros Hm x0 x1 y0 y1 X0 X1 Y0 Y1. destruct flow_tables as [ua [wa [E [Su [Sw Fl]]]]]. destruct (sizes v axis W S Ha) as [Ln [Lm [N1 N2]]].
    destruct (plot_axes g axis Ha) as [Ex Ey].
    assert (Sp : forall xs (c d : R), at_ xs 0 c -> at_ xs 1 d -> spacing xs = Val (d - c)).
    { intros xs c d A0 A1. unfold spacing. rewrite (at_vget _ _ _ A1). cbn [bind]. rewrite (at_vget _ _ _ A0). reflexivity. }
    set (L := fun ij => long (at2 ua ij) (at2 wa ij)).
    assert (Up : exists p, unit_of (plot_x g axis) (plot_y g axis) ua wa = Val p /\ measured p /\
      q_x p = centres g (right_axis axis) /\ q_y p = centres g (up_axis axis) /\
      (forall ij, at2 (q_true p) ij = L ij /\ at2 (q_u p) ij = at2 ua ij / L ij * ((x1 - x0) / 2) /\ at2 (q_v p) ij = at2 wa ij / L ij * ((y1 - y0) / 2))).
    { unfold unit_of. rewrite Ex, Ey. rewrite (zip2e_ok nhypot) by congruence. cbn [bind].
      rewrite (zip2e_ok ndiv ua) by reflexivity. cbn [bind]. rewrite (zip2e_ok ndiv wa) by (cbn [zip2 sh2]; congruence). cbn [bind].
      rewrite (Sp _ _ _ X0 X1), (Sp _ _ _ Y0 Y1). cbn [bind]. unfold bound_half_node. cbn [q_norm q_u q_v zip2 sh2].
      rewrite Su. set (big := max_skipnan _).
      assert (B1 : big = 1).
      { set (one := mkA2 (n, m) (fun _ : N * N => @n1 R num_R)) in *. assert (S1 : sh2 one = (n, m)) by reflexivity.
        destruct (skipnan_R (flatten_2d one)) as [[I1 _] _]; [now apply (flat_nonempty _ _ _ S1)|]. apply (in_flat _ _ _ _ S1) in I1.
        destruct I1 as [ij [_ I1]]. exact I1. }
      unfold with_uv. rewrite zip2e_ok by (cbn [map2 zip2 sh2]; congruence). cbn [bind q_x q_y q_true]. eexists. split; [reflexivity|].
      unfold measured, plottable. cbn [q_x q_y q_u q_v q_norm q_true zip2 map2 sh2 at2]. rewrite Su, Sw, Ln, Lm.
      split; [split; [auto|reflexivity]|]. split; [reflexivity|]. split; [reflexivity|]. intros ij. rewrite B1.
      split; [reflexivity|]. assert (L12 : @nlit R num_R 1 2 = 1 / 2) by reflexivity. rewrite L12. fold (L ij).
      change (@nmul R num_R) with Rmult. change (@ndiv R num_R) with Rdiv. change (sqrt (at2 ua ij * at2 ua ij + at2 wa ij * at2 wa ij)) with (L ij).
      unfold Rdiv. rewrite Rinv_1. change (nhypot (at2 ua ij) (at2 wa ij)) with (L ij). split; ring. }
    destruct Up as [p [Ep [Mp [Exp [Eyp V]]]]].
    destruct (arrows_drawn true p Mp) as [ars [Ea [La Da]]].
    assert (St : sh2 (q_true p) = (vlen (q_x p), vlen (q_y p))) by apply Mp.
    destruct (heatmap_ok (q_x p) (q_y p) (q_true p) St) as [h [Eh [Ph Vh]]]. rewrite Exp, Eyp, Ln, Lm in *.
    exists (at2 ua), (at2 wa), (map (fun ar => arrow_line ar None) ars), h. split.
    - unfold unit_vector_plot.
      assert (Va' : validate (mkArgs (a_axis a) (a_selection a) (a_index a) (a_mode a) (a_min a) (a_min a) (a_cmap a)) = true).
      { revert Va. unfold validate. cbn [a_axis a_selection a_index a_mode a_min a_max a_cmap]. rewrite Hm. cbn [opt_is andb negb]. auto. }
      rewrite Va'. cbn [negb].
      assert (Ax : Z.to_N (a_axis a) = axis) by (destruct Q as [[k [_ [_ [-> _]]]]|[-> _]]; apply N2Z.id). rewrite Ax.
      assert (Ix : exists idx, usize_arg (a_index a) = Some idx) by (destruct Q as [[k [_ [Hb [_ [_ A3]]]]]|[_ [_ ->]]]; [rewrite (usize_ok a k A3 Hb)|]; cbn; eauto).
      destruct Ix as [idx Ix]. rewrite Ix in *. unfold unit_depth, unit_plane.
      assert (Up : (if String.eqb (a_selection a) "depth_average" then let! uw := uv_depth v axis in unit_of (plot_x g axis) (plot_y g axis) (fst uw) (snd uw)
        else let! k := unwrap idx in let! uw := uv_plane v axis k in unit_of (plot_x g axis) (plot_y g axis) (fst uw) (snd uw)) = Val p).
      { destruct (String.eqb (a_selection a) "depth_average"); [rewrite E; exact Ep|]. destruct (unwrap idx); cbn [bind] in *; [|discriminate]. rewrite E. exact Ep. }
      rewrite Up. cbn [bind]. rewrite Hm. cbn [rescale opt_is bind]. unfold unit_traces. rewrite Ea. cbn [bind]. rewrite Exp, Eyp, Eh. reflexivity.
    - split; [exact Fl|]. split; [rewrite vlen_map; exact La|]. split; [exact Ph|]. intros [i j] [Bi Bj]. cbn [fst snd] in *.
      destruct (place_ex g axis (i, j) (proj1 W) Ha) as [x [y Hp]]; [rewrite Ln, Lm; apply inb2_lt; cbn [fst snd]; lia|].
      pose proof Hp as [Hx Hy]. cbn [fst snd] in *. destruct (Da i j x y Hx Hy) as [ar [Aar Dar]].
      pose proof (at_map' (fun ar => arrow_line ar None) _ _ _ Aar) as C. destruct (V (i, j)) as [V1 [V2 V3]].
      exists x, y, (arrow_line ar None). split; [exact Hp|]. fold (L (i, j)). rewrite <- V1. split; [now apply Vh|]. split; [exact C|].
      rewrite V1, <- V2, <- V3. apply Dar.
  Qed.
  (** With square cells all arrows are as long as half a cell. *)
  Theorem c93_same_size u w s : 0 < long u w -> 0 <= s -> long (u / long u w * (s / 2)) (w / long u w * (s / 2)) = s / 2.
  Proof.
    intros P Hs. rewrite long_scale by lra. unfold Rdiv at 1 2. rewrite long_scale by (left; now apply Rinv_0_lt_compat).
    rewrite Rinv_r by lra. lra.
  Qed.
End Unit.
