(** * Facts about the plotting model, for any kind of numbers. *)
From Coq Require Import Reals List NArith ZArith Bool Lia Lra String ZifyBool ZifyN ZifyNat.
From Verif Require Import Base BaseFacts Num NDArray GridModel GridSpec GridFacts GridOps DataModel DataSpec DataLoad PropertiesData PyModel PyStat PlotModel.
Local Open Scope list_scope.
Local Open Scope bool_scope.

(** The positions of the cells along an axis; the axes shown to the right and upwards by a plot
    whose plane is orthogonal to [axis]. *)
Definition centres {F} (g : grid F) (axis : N) : list F :=
  if (axis =? 0)%N then get_xpositions g else if (axis =? 1)%N then get_ypositions g else get_zpositions g.
Definition right_axis (axis : N) : N := if (axis =? 0)%N then 1%N else 0%N.
Definition up_axis (axis : N) : N := if (axis =? 2)%N then 1%N else 2%N.
(** As many positions as cells. *)
Definition placed {F} (g : grid F) : Prop :=
  geom_cells (geo g) = (vlen (get_xpositions g), vlen (get_ypositions g), vlen (get_zpositions g)).
(** A vector field: three component grids of the same geometry. *)
Definition component {F} (v : vgrid F) (a : N) : grid F :=
  if (a =? 0)%N then vg0 v else if (a =? 1)%N then vg1 v else vg2 v.
Definition wf_vector {F} {NF : Num F} (v : vgrid F) : Prop :=
  placed (vg0 v) /\ forall a, (a <= 2)%N -> wf_grid (component v a) /\ geo (component v a) = geo (vg0 v).

Section Facts.
  Context {F : Type} {NF : Num F} {TF : Trig F} {WF : Wave F}.

  Lemma sh2_eqb_refl s : sh2_eqb s s = true.
  Proof. unfold sh2_eqb. now rewrite !N.eqb_refl. Qed.
  Lemma zip2e_ok {G H K} (f : G -> H -> K) (a : arr2 G) (b : arr2 H) : sh2 a = sh2 b ->
    zip2e f a b = Val (zip2 f a b).
  Proof. intros E. unfold zip2e. now rewrite E, sh2_eqb_refl. Qed.
  Lemma zip2e_inv {G H K} (f : G -> H -> K) (a : arr2 G) (b : arr2 H) r : zip2e f a b = Val r ->
    sh2 a = sh2 b /\ r = zip2 f a b.
  Proof.
    unfold zip2e, sh2_eqb. destruct (sh2 a) as [a0 a1], (sh2 b) as [b0 b1]. cbn [fst snd].
    destruct (N.eqb_spec a0 b0), (N.eqb_spec a1 b1); cbn [andb]; try discriminate.
    intros E. injection E as <-. subst. auto.
  Qed.
  Lemma bidx_lt d i : (i < d)%N -> bidx d i = i.
  Proof. intros H. unfold bidx. destruct (N.eqb_spec d 1); lia. Qed.
  Lemma bdim_same d : bdim d d = Val d.
  Proof. unfold bdim. now rewrite N.eqb_refl. Qed.
  Lemma bop2_ok f (a b : arr2 F) : sh2 a = sh2 b ->
    exists r, bop2 f a b = Val r /\ sh2 r = sh2 a /\
      forall ij, inb2 (sh2 a) ij = true -> at2 r ij = f (at2 a ij) (at2 b ij).
  Proof.
    intros E. unfold bop2. rewrite <- E, !bdim_same. cbn [bind]. eexists. split; [reflexivity|].
    cbn [sh2 at2]. split; [now destruct (sh2 a)|]. intros [i j] H. unfold inb2 in H. cbn [fst snd] in *.
    rewrite !bidx_lt by lia. reflexivity.
  Qed.
  Lemma inb2_lt s i j : inb2 s (i, j) = true <-> (i < fst s /\ j < snd s)%N.
  Proof. unfold inb2. cbn [fst snd]. lia. Qed.

  Lemma at_combine {A B} (l : list A) (m : list B) t a b : at_ l t a -> at_ m t b -> at_ (combine l m) t (a, b).
  Proof.
    unfold at_. generalize (N.to_nat t). clear t. intros t. revert l m. induction t; intros [|x l] [|y m]; cbn; try discriminate.
    - intros E1 E2. now injection E1 as <-; injection E2 as <-.
    - apply IHt.
  Qed.
  Lemma vlen_combine {A B} (l : list A) (m : list B) : vlen (combine l m) = N.min (vlen l) (vlen m).
  Proof. unfold vlen. rewrite combine_length. lia. Qed.
  Lemma flat_len (a : arr2 F) n m : sh2 a = (n, m) -> vlen (flatten_2d a) = (n * m)%N.
  Proof. intros E. pose proof (c64_flatten_2d a) as H. rewrite E in H. apply H. Qed.
  Lemma flat_at (a : arr2 F) n m i j : sh2 a = (n, m) -> (i < n)%N -> (j < m)%N ->
    at_ (flatten_2d a) (i * m + j) (at2 a (i, j)).
  Proof. intros E Hi Hj. pose proof (c64_flatten_2d a) as H. rewrite E in H. now apply H. Qed.

  (** ** Planes *)
  Lemma move_ok (g : grid F) axis k : (axis <= 2)%N -> wf_grid g ->
    (forall n, v3get (geom_cells (geo g)) axis = Val n -> (k < n)%N \/ (k + n < 2 ^ 64)%N) ->
    index_axis_move (data g) axis k = slice_idx g axis k.
  Proof.
    intros Ha [W1 _] H. rewrite <- W1 in H. unfold index_axis_move, slice_idx.
    destruct (remove_axis axis (sh3 (data g))); cbn [bind]; [|reflexivity].
    destruct (v3get (sh3 (data g)) axis) as [n|]; cbn [bind]; [|reflexivity].
    destruct (N.ltb_spec k n) as [L|L]; [now rewrite s_index_in|].
    destruct (H n eq_refl) as [Q|Q]; [lia|]. now rewrite s_index_out.
  Qed.
  Lemma drop_lane axis i j k : (axis <= 2)%N -> drop axis (lane axis (i, j) k) = (i, j) /\ coord axis (lane axis (i, j) k) = k.
  Proof.
    intros H. unfold drop, lane, coord. destruct (N.eqb_spec axis 0), (N.eqb_spec axis 1); auto.
  Qed.
  Lemma lane_drop axis c : (axis <= 2)%N -> lane axis (drop axis c) (coord axis c) = c.
  Proof.
    intros H. destruct c as [[i j] k]. unfold drop, lane, coord. destruct (N.eqb_spec axis 0), (N.eqb_spec axis 1); auto.
  Qed.

  Lemma comp_axis axis : (axis <= 2)%N -> comp_i axis = right_axis axis /\ comp_j axis = up_axis axis.
  Proof.
    intros H. assert (axis = 0 \/ axis = 1 \/ axis = 2)%N as [-> | [-> | ->]] by lia; auto.
  Qed.
  Lemma plot_axes (g : grid F) axis : (axis <= 2)%N ->
    plot_x g axis = centres g (right_axis axis) /\ plot_y g axis = centres g (up_axis axis).
  Proof.
    intros H. assert (axis = 0 \/ axis = 1 \/ axis = 2)%N as [-> | [-> | ->]] by lia; auto.
  Qed.
  Lemma plot_axes' (g : grid F) axis : (axis <= 2)%N -> axis <> 1%N -> plot_x' g axis = plot_x g axis.
  Proof.
    intros H H1. assert (axis = 0 \/ axis = 2)%N as [-> | ->] by lia; auto.
  Qed.
  Lemma vcomp_ok (v : vgrid F) a : (a <= 2)%N -> vcomp v a = Val (component v a).
  Proof.
    intros H. assert (a = 0 \/ a = 1 \/ a = 2)%N as [-> | [-> | ->]] by lia; auto.
  Qed.
  Lemma axes_le axis : (right_axis axis <= 2 /\ up_axis axis <= 2)%N.
  Proof. unfold right_axis, up_axis. destruct (N.eqb_spec axis 0), (N.eqb_spec axis 2); lia. Qed.

  (** The plane of a placed grid has the lengths of its two lists of positions. *)
  Lemma plane_shape (g : grid F) axis s : placed g -> (axis <= 2)%N -> remove_axis axis (geom_cells (geo g)) = Val s ->
    s = (vlen (centres g (right_axis axis)), vlen (centres g (up_axis axis))).
  Proof.
    intros P H. rewrite P. unfold remove_axis.
    assert (axis = 0 \/ axis = 1 \/ axis = 2)%N as [-> | [-> | ->]] by lia; cbn; intros E; injection E as <-; reflexivity.
  Qed.
  Lemma slice_ok (g : grid F) axis k : wf_grid g -> (axis <= 2)%N ->
    (exists n, v3get (geom_cells (geo g)) axis = Val n /\ (k < n)%N) ->
    exists a, slice_idx g axis k = Val a /\ remove_axis axis (geom_cells (geo g)) = Val (sh2 a) /\
      forall i j, at2 a (i, j) = at3 (data g) (lane axis (i, j) k).
  Proof.
    intros [W1 W2] Ha [n [En Hk]]. destruct (slice_idx_val g axis k Ha) as [m [Em [H _]]].
    rewrite W1 in *. rewrite En in Em. injection Em as <-. auto.
  Qed.
  Lemma plane_ok (g : grid F) axis k : wf_grid g -> (axis <= 2)%N ->
    (exists n, v3get (geom_cells (geo g)) axis = Val n /\ (k < n)%N) ->
    exists a, index_axis_move (data g) axis k = Val a /\ remove_axis axis (geom_cells (geo g)) = Val (sh2 a) /\
      forall i j, at2 a (i, j) = at3 (data g) (lane axis (i, j) k).
  Proof.
    intros W Ha H. rewrite move_ok; [now apply slice_ok | exact Ha | exact W|]. destruct H as [n [En Hk]]. intros m Em. left. congruence.
  Qed.
  Lemma uv_plane_ok (v : vgrid F) axis k n : wf_vector v -> (axis <= 2)%N ->
    v3get (geom_cells (geo (vg0 v))) axis = Val n -> (k < n)%N ->
    exists u w, uv_plane v axis k = Val (u, w) /\
      sh2 u = (vlen (centres (vg0 v) (right_axis axis)), vlen (centres (vg0 v) (up_axis axis))) /\ sh2 w = sh2 u /\
      forall i j, at2 u (i, j) = at3 (data (component v (right_axis axis))) (lane axis (i, j) k) /\
                  at2 w (i, j) = at3 (data (component v (up_axis axis))) (lane axis (i, j) k).
  Proof.
    intros [P W] Ha En Hk. destruct (comp_axis axis Ha) as [Ei Ej]. pose proof (axes_le axis) as [L1 L2].
    destruct (W _ L1) as [W1 G1], (W _ L2) as [W2 G2].
    destruct (plane_ok _ axis k W1 Ha) as [u [Eu [Su Vu]]]; [rewrite G1; eauto|].
    destruct (plane_ok _ axis k W2 Ha) as [w [Ew [Sw Vw]]]; [rewrite G2; eauto|].
    exists u, w. unfold uv_plane. rewrite Ei, Ej, !vcomp_ok by assumption. cbn [bind].
    rewrite Eu, Ew. cbn [bind].
    split; [reflexivity|]. rewrite G1 in Su. rewrite G2 in Sw.
    rewrite (plane_shape _ _ _ P Ha Su), (plane_shape _ _ _ P Ha Sw). split; [reflexivity|]. split; [reflexivity|]. intros i j. auto.
  Qed.
  Lemma uv_depth_ok (v : vgrid F) axis : wf_vector v -> (axis <= 2)%N ->
    exists u w, uv_depth v axis = Val (u, w) /\
      collapse (component v (right_axis axis)) axis = Val u /\ collapse (component v (up_axis axis)) axis = Val w /\
      sh2 u = (vlen (centres (vg0 v) (right_axis axis)), vlen (centres (vg0 v) (up_axis axis))) /\ sh2 w = sh2 u.
  Proof.
    intros [P W] Ha. destruct (comp_axis axis Ha) as [Ei Ej]. pose proof (axes_le axis) as [L1 L2].
    destruct (W _ L1) as [W1 G1], (W _ L2) as [W2 G2].
    destruct (collapse_val _ axis W1 Ha) as [u [n1 [Eu [_ [Su _]]]]].
    destruct (collapse_val _ axis W2 Ha) as [w [n2 [Ew [_ [Sw _]]]]].
    exists u, w. unfold uv_depth. rewrite Ei, Ej, !vcomp_ok by assumption. cbn [bind]. rewrite Eu, Ew. cbn [bind].
    destruct W1 as [W1 _], W2 as [W2 _]. rewrite W1, G1 in Su. rewrite W2, G2 in Sw.
    rewrite (plane_shape _ _ _ P Ha Su), (plane_shape _ _ _ P Ha Sw). auto.
  Qed.

  (** ** Arrows *)
  Definition plottable (p : arrows F) : Prop :=
    sh2 (q_u p) = (vlen (q_x p), vlen (q_y p)) /\ sh2 (q_v p) = (vlen (q_x p), vlen (q_y p)) /\
    sh2 (q_norm p) = (vlen (q_x p), vlen (q_y p)) /\ sh2 (q_true p) = (vlen (q_x p), vlen (q_y p)).

  Lemma create_arrows_ok unit (p : arrows F) ratio : plottable p ->
    exists l, create_arrows unit p ratio = Val l /\ vlen l = (vlen (q_x p) * vlen (q_y p))%N /\
      forall i j x y, at_ (q_x p) i x -> at_ (q_y p) j y ->
        let u := nmul (at2 (q_u p) (i, j)) ratio in
        let v := at2 (q_v p) (i, j) in
        let n := nmul (at2 (q_norm p) (i, j)) (nlit 3 10) in
        let t := natan2 v (if unit then at2 (q_u p) (i, j) else u) in
        let tx := nadd x u in let ty := nadd y v in
        at_ l (i * vlen (q_y p) + j)
          (mkArrow (x, y) (tx, ty)
             (nsub tx (nmul n (ncos (nadd t angle))), nsub ty (nmul n (nsin (nadd t angle))))
             (nsub tx (nmul n (ncos (nsub t angle))), nsub ty (nmul n (nsin (nsub t angle))))).
  Proof.
    intros [S1 [S2 [S3 S4]]]. set (nx := vlen (q_x p)) in *. set (ny := vlen (q_y p)) in *.
    unfold create_arrows.
    set (len := map2 (fun n => nmul n (nlit 3 10)) (q_norm p)).
    set (u := map2 (fun a => nmul a ratio) (q_u p)).
    assert (Su : sh2 u = (nx, ny)) by exact S1. assert (Sl : sh2 len = (nx, ny)) by exact S3.
    set (bu := if unit then q_u p else u).
    assert (Sb : sh2 bu = (nx, ny)) by (unfold bu; destruct unit; assumption).
    assert (Vb : forall ij, at2 bu ij = if unit then at2 (q_u p) ij else nmul (at2 (q_u p) ij) ratio)
      by (intros; unfold bu; destruct unit; reflexivity).
    rewrite zip2e_ok by (rewrite S2, Sb; reflexivity). cbn [bind].
    destruct (c64_meshgrid (q_x p) (q_y p)) as [xx [yy [Em [Sx [Sy Vm]]]]]. rewrite Em. cbn [bind fst snd].
    fold nx ny in Sx, Sy. set (barb := zip2 natan2 (q_v p) bu).
    assert (Sr : sh2 barb = (nx, ny)) by exact S2.
    set (a1 := map2 (fun a => nadd a angle) barb). set (a2 := map2 (fun a => nsub a angle) barb).
    assert (Sa1 : sh2 a1 = (nx, ny)) by exact Sr. assert (Sa2 : sh2 a2 = (nx, ny)) by exact Sr.
    destruct (bop2_ok nmul len (map2 ncos a1)) as [s1x [E1 [Z1 V1]]]; [now rewrite Sl|]. rewrite E1. cbn [bind].
    destruct (bop2_ok nmul len (map2 nsin a1)) as [s1y [E2 [Z2 V2]]]; [now rewrite Sl|]. rewrite E2. cbn [bind].
    destruct (bop2_ok nmul len (map2 ncos a2)) as [s2x [E3 [Z3 V3]]]; [now rewrite Sl|]. rewrite E3. cbn [bind].
    destruct (bop2_ok nmul len (map2 nsin a2)) as [s2y [E4 [Z4 V4]]]; [now rewrite Sl|]. rewrite E4. cbn [bind].
    destruct (bop2_ok nadd xx u) as [ex [E5 [Z5 V5]]]; [now rewrite Sx|]. rewrite E5. cbn [bind].
    destruct (bop2_ok nadd yy (q_v p)) as [ey [E6 [Z6 V6]]]; [now rewrite Sy|]. rewrite E6. cbn [bind].
    rewrite Sx in *. rewrite Sy in *. rewrite Sl in *.
    destruct (bop2_ok nsub ex s1x) as [p1x [E7 [Z7 V7]]]; [now rewrite Z5, Z1|]. rewrite E7. cbn [bind].
    destruct (bop2_ok nsub ey s1y) as [p1y [E8 [Z8 V8]]]; [now rewrite Z6, Z2|]. rewrite E8. cbn [bind].
    destruct (bop2_ok nsub ex s2x) as [p2x [E9 [Z9 V9]]]; [now rewrite Z5, Z3|]. rewrite E9. cbn [bind].
    destruct (bop2_ok nsub ey s2y) as [p2y [E10 [Z10 V10]]]; [now rewrite Z6, Z4|]. rewrite E10. cbn [bind].
    rewrite Z5 in *. rewrite Z6 in *.
    eexists. split; [reflexivity|]. split.
    { rewrite vlen_map, !vlen_combine, !(flat_len _ nx ny) by assumption. lia. }
    intros i j x y Hx Hy. cbv zeta. pose proof (at_lt _ _ _ Hx) as Lx. pose proof (at_lt _ _ _ Hy) as Ly.
    fold nx in Lx. fold ny in Ly.
    assert (B : inb2 (nx, ny) (i, j) = true) by (apply inb2_lt; auto).
    destruct (Vm i j x y Hx Hy) as [Mx My].
    pose proof (flat_at xx nx ny i j Sx Lx Ly) as A1. pose proof (flat_at yy nx ny i j Sy Lx Ly) as A2.
    pose proof (flat_at ex nx ny i j Z5 Lx Ly) as A3. pose proof (flat_at ey nx ny i j Z6 Lx Ly) as A4.
    pose proof (flat_at p1x nx ny i j Z7 Lx Ly) as A5. pose proof (flat_at p1y nx ny i j Z8 Lx Ly) as A6.
    pose proof (flat_at p2x nx ny i j Z9 Lx Ly) as A7. pose proof (flat_at p2y nx ny i j Z10 Lx Ly) as A8.
    pose proof (at_combine _ _ _ _ _ (at_combine _ _ _ _ _ (at_combine _ _ _ _ _ A1 A2) (at_combine _ _ _ _ _ A3 A4))
                  (at_combine _ _ _ _ _ (at_combine _ _ _ _ _ A5 A6) (at_combine _ _ _ _ _ A7 A8))) as A.
    apply (at_map' (fun e => let '(b, t, (l, r)) := e in mkArrow b t l r)) in A. cbv beta iota in A.
    rewrite V7, V8, V9, V10, V1, V2, V3, V4, V5, V6, Mx, My in A by exact B.
    unfold a1, a2, barb, len, u, zip2, map2 in A. cbn [at2] in A. rewrite Vb in A. exact A.
  Qed.
End Facts.
