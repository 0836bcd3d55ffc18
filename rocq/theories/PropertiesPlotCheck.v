(** * Properties C86, C94-C97: fields that can be plotted, checked arguments, and what goes wrong. *)
From Coq Require Import Reals List NArith ZArith Bool Lia Lra String ZifyBool ZifyN ZifyNat.
From Flocq Require Import Core.Core IEEE754.BinarySingleNaN.
From Verif Require Import Base BaseFacts Num F64Facts RFacts NDArray GridModel GridSpec GridFacts GridOps VecProofs PropertiesGrid DataModel DataSpec DataLoad PropertiesData ConvCsv
  PropertiesCsv PyModel PyStat PlotModel PlotProofs PropertiesPlot PropertiesMap PropertiesParity.
Local Open Scope list_scope.
Local Open Scope bool_scope.

(** ** Every grid the library builds can be plotted *)
Section Reach.
  Context {F : Type} {NF : Num F} {TF : Trig F}.
  Lemma rings_len n (vol inner : F) : List.length (cyl_rings n vol inner) = n.
  Proof. revert inner. induction n; intros; cbn; congruence. Qed.
  Lemma new_placed cells lim (g : grid F) : cart_new cells lim = Val g \/ (exists b, cyl_new cells lim b = Val g) -> placed g /\ geom_cells (geo g) = cells.
  Proof.
    unfold placed. intros [E|[b E]].
    - unfold cart_new in E. destruct lim as [l|l|[[[x0 x1] [y0 y1]] [z0 z1]]]; try discriminate. destruct cells as [[nx ny] nz]. injection E as <-.
      cbn [geo geom_cells cc_cells get_xpositions get_ypositions get_zpositions cc_x cc_y cc_z]. unfold get_xpositions, get_ypositions, get_zpositions.
      cbn [geo cc_x cc_y cc_z]. unfold cart_centres. rewrite !vlen_map, !vlen_range'. auto.
    - unfold cyl_new in E. destruct b; [|discriminate]. destruct lim as [l|l|[[[x0 x1] [y0 y1]] [z0 z1]]]; try discriminate. destruct cells as [[nx ny] nz].
      cbn [negb] in E. injection E as <-. unfold get_xpositions, get_ypositions, get_zpositions.
      cbn [geo geom_cells yc_cells yc_rmean yc_o yc_z]. unfold cyl_oedges, cyl_zedges. rewrite !vlen_map, !vlen_range'.
      unfold vlen at 1. rewrite rings_len, N2Nat.id. auto.
  Qed.
  Lemma placed_geo (g h : grid F) : geo h = geo g -> placed g -> placed h.
  Proof. unfold placed, get_xpositions, get_ypositions, get_zpositions. now intros ->. Qed.
  Lemma hist_wf bld ops (g g' : grid F) : mfold (gstep bld) ops g = Val g' -> Forall (gop_ok (geom_cells (geo g))) ops -> wf_grid g -> wf_grid g' /\ geo g' = geo g.
  Proof.
    revert g. induction ops as [|o ops IH]; intros g H Ho W; cbn in H; [injection H as <-; auto|].
    apply bind_val in H. destruct H as [g1 [H1 H]]. inversion Ho as [|? ? Ho1 Ho2]; subst.
    destruct (gstep_wf bld g o g1 Ho1 H1 W) as [W1 G1]. rewrite <- G1 in Ho2. destruct (IH g1 H Ho2 W1) as [W2 G2]. split; [exact W2 | congruence].
  Qed.
  (** A grid built and filled in any way shows as many positions as it has cells. *)
  Theorem c86_grid bld cells lim (g0 g : grid F) ops :
    (cart_new cells lim = Val g0 \/ exists b, cyl_new cells lim b = Val g0) ->
    Forall (gop_ok cells) ops -> mfold (gstep bld) ops g0 = Val g ->
    wf_field (FGrid g) /\ geom_cells (geo g) = cells.
  Proof.
    intros E Ho H. destruct (new_placed cells lim g0 E) as [P C].
    assert (W : wf_grid g0) by (destruct E as [E|[b E]]; [eapply cart_new_wf | eapply cyl_new_wf]; exact E).
    rewrite <- C in Ho. destruct (hist_wf bld ops g0 g H Ho W) as [W' G]. cbn [wf_field]. rewrite G. split; [|exact C]. split; [now apply (placed_geo g0) | exact W'].
  Qed.
  (** A vector field likewise (outlier removal by neighbours excepted, which treats the components apart). *)
  Theorem c86_vector bld cells lim (g0 : grid F) v ops :
    (cart_new cells lim = Val g0 \/ exists b, cyl_new cells lim b = Val g0) ->
    Forall vop_plain ops -> Forall (fun o => forall k, gop_ok cells (vproj k o)) ops -> mfold (vstep bld) ops (vnew g0) = Val v ->
    wf_field (FVector v) /\ geom_cells (geo (vg0 v)) = cells.
  Proof.
    intros E Hp Ho H. destruct (new_placed cells lim g0 E) as [P C].
    assert (W : wf_grid g0) by (destruct E as [E|[b E]]; [eapply cart_new_wf | eapply cyl_new_wf]; exact E).
    assert (Sh : shared (vnew g0)) by (repeat split).
    assert (K : forall k, (k <= 2)%N -> wf_grid (component v k) /\ geo (component v k) = geo g0).
    { intros k _. destruct (vhist bld ops (vnew g0) v k Hp Sh H) as [_ Hk].
      assert (Ek : comp k (vnew g0) = g0) by (unfold comp, vnew; cbn; destruct (k =? 0)%N, (k =? 1)%N; reflexivity). rewrite Ek in Hk.
      change (component v k) with (comp k v). apply (hist_wf bld (map (vproj k) ops)); [exact Hk | | exact W].
      rewrite C. apply Forall_forall. intros o Hi. apply in_map_iff in Hi. destruct Hi as [o' [<- Hi]]. rewrite Forall_forall in Ho. now apply Ho. }
    destruct (K 0%N) as [W0 G0]; [lia|]. change (component v 0) with (vg0 v) in *.
    split; [|rewrite G0; exact C]. split; [now apply (placed_geo g0)|]. intros k Hk. rewrite G0. now apply K.
  Qed.
End Reach.

(** ** C94: arguments *)
Section Checks.
  Context {F : Type} {NF : Num F} {TF : Trig F} {WF : Wave F}.
  Local Open Scope string_scope.
  (** The documented conditions on the arguments of a plot. *)
  Definition documented (a : args F) : Prop :=
    (a_axis a = 0 \/ a_axis a = 1 \/ a_axis a = 2)%Z /\
    (a_selection a = "depth_average" \/ (a_selection a = "plane" /\ a_index a <> None)) /\
    (a_mode a = None \/ (a_mode a = Some "min" /\ a_min a <> None) \/ (a_mode a = Some "max" /\ a_max a <> None) \/
     (a_mode a = Some "minmax" /\ a_min a <> None /\ a_max a <> None) \/ a_mode a = Some "half_node" \/ a_mode a = Some "full_node") /\
    (forall c, a_cmap a = Some c -> In c gradients).

  Lemma mem_In s l : mem s l = true <-> In s l.
  Proof.
    unfold mem. rewrite existsb_exists. split; [intros [x [H E]]; apply String.eqb_eq in E; now subst | intros H; exists s; split; [exact H | apply String.eqb_refl]].
  Qed.
  Lemma colours_same c : mem c valid_colours = mem c gradients.
  Proof.
    apply eq_true_iff_eq. rewrite !mem_In. split; intros H; cbn [valid_colours gradients In] in *;
      repeat (destruct H as [<-|H]; [cbn; tauto|]); contradiction.
  Qed.
  Theorem c94_accepted (a : args F) : validate a = true <-> documented a.
  Proof.
    unfold validate, documented. rewrite !andb_true_iff, !negb_true_iff.
    assert (Ec : (match a_cmap a with None => true | Some c => mem c valid_colours end) = true <-> (forall c, a_cmap a = Some c -> In c gradients)).
    { destruct (a_cmap a) as [c|].
      - rewrite colours_same, mem_In. split; [intros H c' E; injection E as <-; exact H | auto].
      - split; [intros _ c' E; discriminate | auto]. }
    rewrite Ec. clear Ec.
    assert (Ea : ((0 <=? a_axis a) && (a_axis a <=? 2))%Z = true <-> (a_axis a = 0 \/ a_axis a = 1 \/ a_axis a = 2)%Z) by lia. rewrite <- andb_true_iff, Ea. clear Ea.
    assert (Es : (String.eqb (a_selection a) "depth_average" || String.eqb (a_selection a) "plane" = true /\ String.eqb (a_selection a) "plane" && absent (a_index a) = false) <->
      (a_selection a = "depth_average" \/ (a_selection a = "plane" /\ a_index a <> None))).
    { destruct (String.eqb_spec (a_selection a) "depth_average") as [E|E]; [rewrite E; cbn; tauto|].
      destruct (String.eqb_spec (a_selection a) "plane") as [E'|E']; cbn [orb andb]; [|split; [intros [H _]; discriminate | tauto]].
      destruct (a_index a); cbn [absent]; split; intros H.
      - right. split; [exact E' | discriminate].
      - split; reflexivity.
      - destruct H; discriminate.
      - destruct H as [H|[_ H]]; congruence. }
    assert (Em : ((match a_mode a with None => true | Some m => mem m valid_modes end) = true /\
       opt_is (a_mode a) "min" && absent (a_min a) = false /\ opt_is (a_mode a) "max" && absent (a_max a) = false /\
       opt_is (a_mode a) "minmax" && (absent (a_min a) || absent (a_max a)) = false) <->
      (a_mode a = None \/ (a_mode a = Some "min" /\ a_min a <> None) \/ (a_mode a = Some "max" /\ a_max a <> None) \/
       (a_mode a = Some "minmax" /\ a_min a <> None /\ a_max a <> None) \/ a_mode a = Some "half_node" \/ a_mode a = Some "full_node")).
    { destruct (a_mode a) as [m|]; [|cbn; tauto]. rewrite mem_In. cbn [valid_modes In opt_is]. split.
      - intros [[<-|[<-|[<-|[<-|[<-|[]]]]]] [H1 [H2 H3]]]; cbn in H1, H2, H3; destruct (a_min a), (a_max a); cbn in *; try discriminate;
          repeat (first [left; repeat split; congruence | right]); try reflexivity; repeat split; try congruence.
      - intros H. decompose [or and] H; try congruence;
        match goal with E : Some m = Some _ |- _ => injection E as -> end; destruct (a_min a), (a_max a); cbn; try congruence; tauto. }
    tauto.
  Qed.
  (** Anything else is refused with an exception, never a panic, and so is a scalar grid given to a
      vector plot, a negative index, and the comparison of a scalar field with a vector field. *)
  Theorem c94_refused (f h : field F) (a : args F) : ~ documented a ->
    quiver_plot f a = Val None /\ scalar_map f a = Val None /\ scalar_contour f a = Val None /\
    (a_mode a = None -> a_cmap a = None -> unit_vector_plot f a = Val None /\ parity_map f h a = Val None /\ parity_plot f h a = Val None).
  Proof.
    intros H. rewrite <- c94_accepted in H. apply not_true_is_false in H.
    unfold quiver_plot, scalar_map, scalar_contour, unit_vector_plot, parity_map, parity_plot. rewrite H. cbn [negb].
    split; [reflexivity|]. split; [reflexivity|]. split; [reflexivity|]. intros Em Ec.
    assert (Ep : validate (parity_args a) = validate a).
    { unfold validate, parity_args. cbn [a_axis a_selection a_index a_mode a_min a_max a_cmap]. rewrite Em, Ec. reflexivity. }
    assert (Eu : validate (mkArgs (a_axis a) (a_selection a) (a_index a) (a_mode a) (a_min a) (a_min a) (a_cmap a)) = validate a).
    { unfold validate. cbn [a_axis a_selection a_index a_mode a_min a_max a_cmap]. rewrite Em. reflexivity. }
    rewrite Ep, Eu, H. cbn [negb]. split; [now destruct f|]. split; reflexivity.
  Qed.
  (** The parity plots look at the axis, the selection and the plane only: a colour map or a mode given with them is neither
      checked nor used; wrong choices of the three are refused. *)
  Theorem c94_parity (f h : field F) (a b : args F) : a_axis a = a_axis b -> a_selection a = a_selection b -> a_index a = a_index b ->
    parity_map f h a = parity_map f h b /\ parity_plot f h a = parity_plot f h b.
  Proof. intros E1 E2 E3. unfold parity_map, parity_plot, parity_args. now rewrite E1, E2, E3. Qed.
  Theorem c94_parity_refused (f h : field F) (a : args F) :
    ~ ((a_axis a = 0 \/ a_axis a = 1 \/ a_axis a = 2)%Z /\ (a_selection a = "depth_average" \/ (a_selection a = "plane" /\ a_index a <> None))) ->
    parity_map f h a = Val None /\ parity_plot f h a = Val None.
  Proof.
    intros N. set (b := mkArgs (a_axis a) (a_selection a) (a_index a) (@None string) (@None F) (@None F) (@None string)).
    destruct (c94_parity f h a b eq_refl eq_refl eq_refl) as [-> ->]. apply (c94_refused f h b); [|reflexivity|reflexivity].
    intros [D1 [D2 _]]. apply N. split; assumption.
  Qed.
  Theorem c94_wrong_kind (g : grid F) (v : vgrid F) (a : args F) :
    quiver_plot (FGrid g) a = Val None /\ unit_vector_plot (FGrid g) a = Val None /\
    parity_map (FGrid g) (FVector v) a = Val None /\ parity_map (FVector v) (FGrid g) a = Val None /\
    parity_plot (FGrid g) (FVector v) a = Val None /\ parity_plot (FVector v) (FGrid g) a = Val None.
  Proof.
    unfold quiver_plot, unit_vector_plot, parity_map, parity_plot.
    repeat split; destruct (negb _); try reflexivity; now destruct (usize_arg (a_index a)).
  Qed.
  Theorem c94_negative (f h : field F) (a : args F) z : a_index a = Some z -> (z < 0)%Z ->
    quiver_plot f a = Val None /\ unit_vector_plot f a = Val None /\ scalar_map f a = Val None /\ scalar_contour f a = Val None /\
    parity_map f h a = Val None /\ parity_plot f h a = Val None.
  Proof.
    intros E Hz. assert (U : usize_arg (a_index a) = None) by (rewrite E; unfold usize_arg; destruct (andb _ _) eqn:B; [lia | reflexivity]).
    unfold quiver_plot, unit_vector_plot, scalar_map, scalar_contour, parity_map, parity_plot. rewrite U.
    repeat split; destruct (negb _); try reflexivity; now destruct f.
  Qed.
  (** A plane that does not exist is a panic. *)
  Theorem c94_no_such_plane (f : field F) (a : args F) axis k : wf_field f -> (axis <= 2)%N ->
    validate a = true -> asks_plane a axis k -> (k < 2 ^ 64)%N -> (cells_along (frame f) axis <= k)%N ->
    ((k + cells_along (frame f) axis < 2 ^ 64)%N -> scalar_map f a = Panic) /\ scalar_contour f a = Panic.
  Proof.
    intros W Ha Va [A1 [A2 A3]] Hb Hk. rewrite scalar_map_unfold, contour_unfold by assumption. rewrite (usize_ok a k A3 Hb), A1, A2, N2Z.id.
    cbn [String.eqb Ascii.eqb Bool.eqb unwrap bind]. cbv zeta.
    assert (P : forall g : grid F, wf_grid g -> cells_along g axis = cells_along (frame f) axis -> index_axis_move (data g) axis k = Panic).
    { intros g [Wg _] Eg. unfold index_axis_move.
      assert (Er : exists sh, remove_axis axis (sh3 (data g)) = Val sh).
      { destruct (remove_axis axis (sh3 (data g))) eqn:R; [eauto|]. exfalso. revert R. unfold remove_axis. destruct (sh3 (data g)) as [[? ?] ?].
        assert (axis = 0 \/ axis = 1 \/ axis = 2)%N as [-> | [-> | ->]] by lia; discriminate. }
      destruct Er as [sh ->]. cbn [bind]. rewrite Wg, (cells_get g axis Ha), Eg. cbn [bind]. destruct (N.ltb_spec k (cells_along (frame f) axis)); [lia | reflexivity]. }
    destruct f as [g|v]; cbn [frame wf_field] in *.
    - split; [intros Hw; rewrite <- move_ok; [|exact Ha | apply W|]|]; [rewrite P by (apply W || reflexivity); reflexivity | | rewrite P by (apply W || reflexivity); reflexivity].
      intros m Em. right. rewrite (cells_get g axis Ha) in Em. injection Em as <-. exact Hw.
    - destruct W as [Pl W]. pose proof (axes_le axis) as [L1 L2]. destruct (comp_axis axis Ha) as [Ei Ej].
      unfold uv_plane. rewrite Ei, Ej, !vcomp_ok by assumption. cbn [bind].
      destruct (W _ L1) as [W1 G1].
      rewrite P; [auto | exact W1 | unfold cells_along; now rewrite G1].
  Qed.

  (** Whatever the other arguments, and whatever it is compared with: none of the plots ever shows something for a plane that does not exist. *)
  Theorem c94_no_plot (f h : field F) (a : args F) axis k : wf_field f -> (axis <= 2)%N ->
    asks_plane a axis k -> (k < 2 ^ 64)%N -> (cells_along (frame f) axis <= k)%N ->
    (forall r, quiver_plot f a <> Val (Some r)) /\ (forall r, unit_vector_plot f a <> Val (Some r)) /\
    ((k + cells_along (frame f) axis < 2 ^ 64)%N -> forall r, scalar_map f a <> Val (Some r)) /\ (forall r, scalar_contour f a <> Val (Some r)) /\
    (forall r, parity_map f h a <> Val (Some r)) /\ (forall r, parity_plot f h a <> Val (Some r)).
  Proof.
    intros W Ha [A1 [A2 A3]] Hb Hk.
    assert (P : forall g : grid F, wf_grid g -> cells_along g axis = cells_along (frame f) axis -> index_axis_move (data g) axis k = Panic).
    { intros g [Wg _] Eg. unfold index_axis_move.
      assert (Er : exists sh, remove_axis axis (sh3 (data g)) = Val sh).
      { destruct (remove_axis axis (sh3 (data g))) eqn:R; [eauto|]. exfalso. revert R. unfold remove_axis. destruct (sh3 (data g)) as [[? ?] ?].
        assert (axis = 0 \/ axis = 1 \/ axis = 2)%N as [-> | [-> | ->]] by lia; discriminate. }
      destruct Er as [sh ->]. cbn [bind]. rewrite Wg, (cells_get g axis Ha), Eg. cbn [bind]. destruct (N.ltb_spec k (cells_along (frame f) axis)); [lia | reflexivity]. }
    assert (U : forall v, f = FVector v -> uv_plane v axis k = Panic).
    { intros v ->. cbn [frame wf_field] in *. destruct W as [Pl W]. pose proof (axes_le axis) as [L1 L2]. destruct (comp_axis axis Ha) as [Ei Ej].
      unfold uv_plane. rewrite Ei, Ej, !vcomp_ok by assumption. cbn [bind]. destruct (W _ L1) as [W1 G1].
      rewrite P; [reflexivity | exact W1 | unfold cells_along; now rewrite G1]. }
    assert (Q : forall g, f = FGrid g -> index_axis_move (data g) axis k = Panic).
    { intros g ->. cbn [frame wf_field] in *. apply P; [apply W | reflexivity]. }
    unfold quiver_plot, unit_vector_plot, scalar_map, scalar_contour, parity_map, parity_plot.
    rewrite (usize_ok a k A3 Hb), A1, A2, N2Z.id. cbn [String.eqb Ascii.eqb Bool.eqb unwrap bind]. cbv zeta.
    unfold quiver_plane, unit_plane, smap_vplane, smap_plane, contour_vplane, contour_plane, parity_vplane, parity_plane, pplot_vplane, pplot_plane.
    destruct f as [g|v].
    - assert (S : (k + cells_along (frame (FGrid g)) axis < 2 ^ 64)%N -> slice_idx g axis k = Panic).
      { intros Hw. rewrite <- move_ok; [apply Q; reflexivity | exact Ha | apply W|]. intros m Em. right. rewrite (cells_get g axis Ha) in Em. injection Em as <-. exact Hw. }
      rewrite (Q g eq_refl). unfold raise; repeat split; [intros r | intros r | intros Hw; rewrite (S Hw); intros r | intros r | intros r | intros r]; repeat match goal with |- context [negb ?b] => destruct b; cbn [negb] end; try destruct h; cbn [bind]; discriminate.
    - rewrite (U v eq_refl). unfold raise; repeat split; [intros r | intros r | intros _ r | intros r | intros r | intros r]; repeat match goal with |- context [negb ?b] => destruct b; cbn [negb] end; try destruct h; cbn [bind]; discriminate.
  Qed.

  (** The exception: a scalar map of a scalar field counts the largest numbers from the end, so that plane
      [2 ^ 64 - n + k] of [n] is plane [k], whatever the other arguments. *)
  Theorem c94_wraps_refuted (g : grid F) (a b : args F) axis k : wf_field (FGrid g) -> (axis <= 2)%N -> (cells_along g axis <= 2 ^ 63)%N -> (k < cells_along g axis)%N ->
    asks_plane a axis k -> asks_plane b axis (2 ^ 64 - cells_along g axis + k) -> validate a = true -> validate b = true ->
    scalar_map (FGrid g) b = scalar_map (FGrid g) a.
  Proof.
    intros W Ha Hn Hk [A1 [A2 A3]] [B1 [B2 B3]] Va Vb. rewrite !scalar_map_unfold by assumption. destruct W as [_ [W1 W2]].
    assert (K : (k < 2 ^ 64)%N) by (change (2 ^ 64)%N with (2 ^ 63 + 2 ^ 63)%N; clear - Hn Hk; lia).
    assert (K' : (2 ^ 64 - cells_along g axis + k < 2 ^ 64)%N) by (change (2 ^ 64)%N with (2 ^ 63 + 2 ^ 63)%N; clear - Hn Hk; lia).
    rewrite (usize_ok a k A3 K), (usize_ok b _ B3 K'), A1, A2, B1, B2, N2Z.id. cbn [String.eqb Ascii.eqb Bool.eqb unwrap bind]. cbv zeta.
    destruct (slice_idx_val g axis k Ha) as [n [En [_ [_ H]]]]. rewrite W1, (cells_get g axis Ha) in En. injection En as <-. now rewrite (H Hn Hk).
  Qed.

  (** ** C95-C97: what goes wrong *)
  (** A depth-averaged vector plot along axis 1 takes the y positions for the x axis: it panics
      unless there are as many cells along y as along x. *)
  Theorem c95_depth_panics_refuted (v : vgrid F) (a : args F) : wf_vector v ->
    validate a = true -> asks_depth a 1 -> a_mode a = None ->
    let nx := cells_along (vg0 v) 0 in let ny := cells_along (vg0 v) 1 in
    nx <> ny -> nx <> 1%N -> ny <> 1%N -> quiver_plot (FVector v) a = Panic.
  Proof.
    intros W Va [A1 [A2 A3]] Am nx ny D1 D2 D3. unfold quiver_plot. rewrite Va, A1, A2, A3, N2Z.id, Am. cbn [negb String.eqb Ascii.eqb Bool.eqb usize_arg].
    destruct (uv_depth_ok v 1 W ltac:(lia)) as [u [w [E [_ [_ [Su Sw]]]]]]. unfold quiver_depth. rewrite E. cbn [bind fst snd].
    rewrite zip2e_ok by congruence. cbn [bind rescale opt_is]. unfold quiver_traces, create_arrows. cbn [q_x q_y q_u q_v q_norm].
    rewrite zip2e_ok by (cbn [map2 sh2]; congruence). cbn [bind].
    change (plot_x' (vg0 v) 1) with (centres (vg0 v) 1). change (plot_y (vg0 v) 1) with (centres (vg0 v) 2).
    destruct (c64_meshgrid (centres (vg0 v) 1) (centres (vg0 v) 2)) as [xx [yy [-> [Sx [Sy _]]]]]. cbn [bind fst snd].
    assert (B : forall f c (aa bb : arr2 F), sh2 aa = sh2 bb -> exists r, bop2 f aa (map2 c bb) = Val r) by (intros; destruct (bop2_ok f aa (map2 c bb)) as [r [-> _]]; [assumption | eauto]).
    match goal with |- bind (bind ?x _) _ = _ => destruct (B nmul ncos (map2 (fun n => nmul n (nlit 3 10)) (zip2 nhypot u w))
      (map2 (fun a0 => nadd a0 angle) (zip2 natan2 w (map2 (fun a0 => nmul a0 n1) u)))) as [r1 E1]; [cbn; congruence|] end. rewrite E1. cbn [bind].
    destruct (B nmul nsin (map2 (fun n => nmul n (nlit 3 10)) (zip2 nhypot u w))
      (map2 (fun a0 => nadd a0 angle) (zip2 natan2 w (map2 (fun a0 => nmul a0 n1) u)))) as [r2 E2]; [cbn; congruence|]. rewrite E2. cbn [bind].
    destruct (B nmul ncos (map2 (fun n => nmul n (nlit 3 10)) (zip2 nhypot u w))
      (map2 (fun a0 => nsub a0 angle) (zip2 natan2 w (map2 (fun a0 => nmul a0 n1) u)))) as [r3 E3]; [cbn; congruence|]. rewrite E3. cbn [bind].
    destruct (B nmul nsin (map2 (fun n => nmul n (nlit 3 10)) (zip2 nhypot u w))
      (map2 (fun a0 => nsub a0 angle) (zip2 natan2 w (map2 (fun a0 => nmul a0 n1) u)))) as [r4 E4]; [cbn; congruence|]. rewrite E4. cbn [bind].
    unfold bop2 at 1. cbn [map2 sh2]. rewrite Sx, Su. cbn [fst snd]. change (right_axis 1) with 0%N. rewrite <- !(cells_len (vg0 v)) by (apply W || lia).
    fold nx ny. unfold bdim at 1. destruct (N.eqb_spec ny nx); [congruence|]. destruct (N.eqb_spec ny 1); [congruence|]. destruct (N.eqb_spec nx 1); [congruence|]. reflexivity.
  Qed.
  (** With as many cells along y as along x the arrows are drawn, but at the y positions. *)
  Theorem c95_depth_misplaced_refuted (v : vgrid F) (a : args F) : wf_vector v -> sized (geom_cells (geo (vg0 v))) ->
    validate a = true -> asks_depth a 1 -> a_mode a = None ->
    cells_along (vg0 v) 0 = cells_along (vg0 v) 1 ->
    exists ls b, quiver_plot (FVector v) a = Val (Some (ls, b)) /\
      forall i k y z, at_ (get_ypositions (vg0 v)) i y -> at_ (get_zpositions (vg0 v)) k z ->
        exists l y' z', at_ ls (i * cells_along (vg0 v) 2 + k) l /\ goes l y z y' z'.
  Proof.
    intros W Sz Va [A1 [A2 A3]] Am Exy. unfold quiver_plot. rewrite Va, A1, A2, A3, N2Z.id, Am. cbn [negb String.eqb Ascii.eqb Bool.eqb usize_arg].
    destruct (uv_depth_ok v 1 W ltac:(lia)) as [u [w [E [_ [_ [Su Sw]]]]]]. unfold quiver_depth. rewrite E. cbn [bind fst snd].
    rewrite zip2e_ok by congruence. cbn [bind rescale opt_is].
    set (p := mkArr _ _ _ _ _ _). change (right_axis 1) with 0%N in *. change (up_axis 1) with 2%N in *.
    rewrite <- !(cells_len (vg0 v)) in Su by (apply W || lia). rewrite Exy in Su. rewrite !(cells_len (vg0 v)) in Su by (apply W || lia).
    assert (P : plottable p).
    { unfold plottable, p. cbn [q_x q_y q_u q_v q_norm q_true zip2 sh2]. change (plot_x' (vg0 v) 1) with (centres (vg0 v) 1). change (plot_y (vg0 v) 1) with (centres (vg0 v) 2).
      rewrite Sw, Su. auto. }
    assert (L : (1 <= vlen (q_x p) /\ 1 <= vlen (q_y p))%N).
    { unfold p. cbn [q_x q_y]. change (plot_x' (vg0 v) 1) with (centres (vg0 v) 1). change (plot_y (vg0 v) 1) with (centres (vg0 v) 2).
      rewrite <- !(cells_len (vg0 v)) by (apply W || lia). unfold cells_along, coord. unfold sized in Sz. destruct (geom_cells (geo (vg0 v))) as [[? ?] ?]. cbn. lia. }
    destruct (quiver_lines p (negb (absent (get_gradient (a_cmap a)))) P) as [ls [b [El [_ Vl]]]]; [apply L..|]. rewrite El. cbn [bind].
    exists ls, b. split; [reflexivity|]. intros i k y z Hy Hz. destruct (Vl i k y z Hy Hz) as [l [Al Gl]].
    exists l. eexists _, _. split; [|exact Gl]. rewrite (cells_len (vg0 v)) by (apply W || lia). exact Al.
  Qed.
  (** The parity map along axis 1 takes the y positions, too. *)
  Theorem c95_parity_misplaced_refuted (f h : field F) (a : args F) k m : wf_field f -> wf_field h -> comparable f h ->
    validate (parity_args a) = true -> asks_plane a 1 k -> (k < cells_along (frame f) 1)%N -> (k < 2 ^ 64)%N ->
    parity_map f h a = Val (Some m) ->
    vlen (h_x m) = (cells_along (frame f) 1 * cells_along (frame f) 2)%N /\ vlen (h_z m) = (cells_along (frame f) 0 * cells_along (frame f) 2)%N /\
    forall i j y z, at_ (get_ypositions (frame f)) i y -> at_ (get_zpositions (frame f)) j z ->
      at_ (h_x m) (i * cells_along (frame f) 2 + j) y /\ at_ (h_y m) (i * cells_along (frame f) 2 + j) z.
  Proof.
    intros Wf Wh C Va [A1 [A2 A3]] Hk Hb. rewrite map_unfold by assumption. rewrite (usize_ok a k A3 Hb), A1, A2, N2Z.id.
    cbn [String.eqb Ascii.eqb Bool.eqb unwrap bind]. cbv zeta.
    destruct (field_plane_ok f 1 Wf ltac:(lia) k Hk) as [x [E1 [S1 _]]].
    destruct (field_plane_ok h 1 Wh ltac:(lia) k) as [y [E2 [S2 _]]]; [rewrite (same_along f h); assumption|]. rewrite (same_shape f h 1) in S2 by assumption.
    rewrite E1. cbn [bind]. rewrite E2. cbn [bind]. unfold parity_of.
    change (plot_x' (frame f) 1) with (centres (frame f) 1). change (plot_y (frame f) 1) with (centres (frame f) 2).
    destruct (c64_meshgrid (centres (frame f) 1) (centres (frame f) 2)) as [xx [yy [-> [Sx [Sy V]]]]]. cbn [bind fst snd].
    destruct (bop2_ok nsub x y) as [dl [-> [Sd _]]]; [congruence|]. cbn [bind]. intros E. injection E as <-.
    unfold create_parity_map. cbn [h_x h_y h_z r_x r_y r_delta]. pose proof (frame_placed f Wf) as P.
    change (right_axis 1) with 0%N in *. change (up_axis 1) with 2%N in *. rewrite S1 in Sd.
    rewrite (flat_len _ _ _ Sx), (flat_len _ _ _ Sd). rewrite !(cells_len (frame f)) by (assumption || lia). split; [reflexivity|]. split; [reflexivity|].
    intros i j py pz Hy Hz. pose proof (at_lt _ _ _ Hy) as B1. pose proof (at_lt _ _ _ Hz) as B2.
    destruct (V i j py pz Hy Hz) as [<- <-]. split; [apply (flat_at _ _ _ _ _ Sx B1 B2) | apply (flat_at _ _ _ _ _ Sy B1 B2)].
  Qed.
  (** The unit vector plot checks [min_size] in the place of [max_size]: "max" with a maximum and
      no minimum is refused ... *)
  Theorem c96_max_refuted (f : field F) (a : args F) mx : documented a -> a_mode a = Some "max" -> a_max a = Some mx -> a_min a = None ->
    unit_vector_plot f a = Val None.
  Proof.
    intros _ Em _ En. unfold unit_vector_plot. destruct f as [g|v]; [reflexivity|].
    assert (E : validate (mkArgs (a_axis a) (a_selection a) (a_index a) (a_mode a) (a_min a) (a_min a) (a_cmap a)) = false).
    { unfold validate. cbn [a_axis a_selection a_index a_mode a_min a_max a_cmap]. rewrite Em, En. cbn [opt_is absent String.eqb Ascii.eqb Bool.eqb andb negb orb].
      rewrite !andb_false_r. reflexivity. }
    rewrite E. reflexivity.
  Qed.
  (** ... and "minmax" without a maximum is accepted, and panics. *)
  Theorem c96_minmax_refuted (v : vgrid F) (a : args F) axis k mn : wf_vector v -> (axis <= 2)%N -> (k < cells_along (vg0 v) axis)%N -> (k < 2 ^ 64)%N ->
    asks_plane a axis k -> a_mode a = Some "minmax" -> a_min a = Some mn -> a_max a = None -> a_cmap a = None ->
    unit_vector_plot (FVector v) a = Panic.
  Proof.
    intros W Ha Hk Hb [A1 [A2 A3]] Em En Ex Ec. unfold unit_vector_plot.
    assert (E : validate (mkArgs (a_axis a) (a_selection a) (a_index a) (a_mode a) (a_min a) (a_min a) (a_cmap a)) = true).
    { apply c94_accepted. unfold documented. cbn [a_axis a_selection a_index a_mode a_min a_max a_cmap]. rewrite A1, A2, A3, Em, En, Ec.
      split; [lia|]. split; [right; split; [reflexivity | discriminate]|]. split; [|discriminate].
      right. right. right. left. repeat split; discriminate. }
    rewrite E, (usize_ok a k A3 Hb), A1, A2, N2Z.id. cbn [negb String.eqb Ascii.eqb Bool.eqb unwrap bind].
    destruct (unit_plane v axis k) as [p|]; [|reflexivity]. cbn [bind]. rewrite Em, En, Ex. reflexivity.
  Qed.
  (** A plane of one cell across has no spacing: unit vector plots of it panic, and so do quiver
      plots fitted to the cells. *)
  Theorem c97_single_cell_refuted (v : vgrid F) (a : args F) axis k : wf_vector v -> (axis <= 2)%N -> (k < cells_along (vg0 v) axis)%N -> (k < 2 ^ 64)%N ->
    validate a = true -> asks_plane a axis k ->
    cells_along (vg0 v) (right_axis axis) = 1%N \/ cells_along (vg0 v) (up_axis axis) = 1%N ->
    (a_mode a = None -> unit_vector_plot (FVector v) a = Panic) /\
    (a_mode a = Some "half_node" \/ a_mode a = Some "full_node" -> quiver_plot (FVector v) a = Panic).
  Proof.
    intros W Ha Hk Hb Va [A1 [A2 A3]] One. pose proof (axes_le axis) as [L1 L2]. rewrite !(cells_len (vg0 v)) in One by (assumption || apply W).
    assert (Sp : forall l : list F, vlen l = 1%N -> spacing l = Panic) by (intros [|x [|y l]] H; try reflexivity; unfold vlen in H; cbn in H; lia).
    assert (Two : forall (x y : list F) (B : Type) (r : F -> F -> res B), vlen x = 1%N \/ vlen y = 1%N -> (let! dx := spacing x in let! dy := spacing y in r dx dy) = Panic).
    { intros x y B r [H|H]; [rewrite (Sp x H); reflexivity|]. destruct (spacing x); cbn [bind]; [|reflexivity]. rewrite (Sp y H). reflexivity. }
    split.
    - intros Em. unfold unit_vector_plot.
      assert (Va' : validate (mkArgs (a_axis a) (a_selection a) (a_index a) (a_mode a) (a_min a) (a_min a) (a_cmap a)) = true).
      { revert Va. unfold validate. cbn [a_axis a_selection a_index a_mode a_min a_max a_cmap]. rewrite Em. cbn [opt_is andb negb]. auto. }
      rewrite Va', (usize_ok a k A3 Hb), A1, A2, N2Z.id. cbn [negb String.eqb Ascii.eqb Bool.eqb unwrap bind].
      unfold unit_plane. destruct (uv_plane_ok v axis k _ W Ha (cells_get _ axis Ha) Hk) as [u [w [E [Su [Sw _]]]]]. rewrite E. cbn [bind fst snd].
      unfold unit_of. rewrite (zip2e_ok nhypot) by congruence. cbn [bind]. rewrite (zip2e_ok ndiv u) by reflexivity. cbn [bind].
      rewrite (zip2e_ok ndiv w) by (cbn [zip2 sh2]; congruence). cbn [bind]. destruct (plot_axes (vg0 v) axis Ha) as [-> ->].
      match goal with |- bind (let! dx := _ in let! dy := _ in @?r dx dy) _ = _ => rewrite (Two _ _ _ r One) end. reflexivity.
    - intros Em. unfold quiver_plot. rewrite Va, (usize_ok a k A3 Hb), A1, A2, N2Z.id. cbn [negb String.eqb Ascii.eqb Bool.eqb unwrap bind].
      destruct (quiver_plane_ok v axis W Ha k Hk) as [p [-> [_ [Ex [Ey _]]]]]. cbn [bind].
      destruct Em as [-> | ->]; cbn [rescale opt_is String.eqb Ascii.eqb Bool.eqb]; rewrite Ex, Ey;
        match goal with |- bind (let! dx := _ in let! dy := _ in @?r dx dy) _ = _ => rewrite (Two _ _ _ r One) end; reflexivity.
  Qed.
End Checks.

Section Lines.
  Context {F : Type} {NF : Num F} {TF : Trig F} {WF : Wave F}.
  (** As [quiver_lines], with the colours. *)
  Lemma quiver_colours (p : arrows F) cmap : plottable p -> (1 <= vlen (q_x p))%N -> (1 <= vlen (q_y p))%N ->
    exists ls b, quiver_traces p n1 cmap = Val (ls, b) /\
      forall i j x y, at_ (q_x p) i x -> at_ (q_y p) j y ->
        exists l, at_ ls (i * vlen (q_y p) + j) l /\
          goes l x y (nadd x (nmul (at2 (q_u p) (i, j)) n1)) (nadd y (at2 (q_v p) (i, j))) /\
          l_colour l = if cmap then Some (at2 (normalise_colour p) (i, j)) else None.
  Proof.
    intros P Hx Hy. destruct (create_arrows_ok false p n1 P) as [ars [Ea [La Va]]].
    unfold quiver_traces. rewrite Ea. cbn [bind].
    destruct (nonempty_first _ Hx) as [x0 ->]. destruct (nonempty_first _ Hy) as [y0 ->]. cbn [bind].
    assert (Sn : sh2 (normalise_colour p) = (vlen (q_x p), vlen (q_y p))) by (apply P).
    eexists _, _. split; [reflexivity|].
    intros i j x y Ax Ay. pose proof (Va i j x y Ax Ay) as A. cbv zeta in A.
    pose proof (flat_at _ _ _ i j Sn (at_lt _ _ _ Ax) (at_lt _ _ _ Ay)) as B.
    pose proof (at_map' (fun ac => arrow_line (fst ac) (if cmap then Some (snd ac) else None)) _ _ _ (at_combine _ _ _ _ _ A B)) as C.
    eexists. split; [exact C|]. split; [|cbn; now destruct cmap]. split; cbn; eexists; reflexivity.
  Qed.
  Lemma elementwise_any (p : arrows F) (f : F -> F) : plottable p ->
    exists p', scale_elementwise p (map2 f (q_norm p)) = Val p' /\ plottable p' /\ q_x p' = q_x p /\ q_y p' = q_y p /\
      forall ij, at2 (q_u p') ij = nmul (at2 (q_u p) ij) (f (at2 (q_norm p) ij)) /\ at2 (q_v p') ij = nmul (at2 (q_v p) ij) (f (at2 (q_norm p) ij)).
  Proof.
    intros [S1 [S2 [S3 S4]]]. unfold scale_elementwise, with_uv.
    rewrite (zip2e_ok nmul (q_u p)) by (cbn [map2 sh2]; congruence). cbn [bind].
    rewrite (zip2e_ok nmul (q_v p)) by (cbn [map2 sh2]; congruence). cbn [bind].
    rewrite zip2e_ok by (cbn [zip2 sh2]; congruence). cbn [bind]. eexists. split; [reflexivity|].
    unfold plottable. cbn [q_x q_y q_u q_v q_norm q_true zip2 map2 sh2 at2]. repeat split; assumption.
  Qed.
End Lines.

(** Cells without velocity and a minimal size: the arrow is drawn to NaN. *)
Theorem c97_zero_arrow_refuted {TF : Trig f64} {WF : Wave f64} (v : vgrid f64) (a : args f64) axis k mn :
  nhypot (B754_zero false) (B754_zero false) = B754_zero false ->
  wf_vector v -> sized (geom_cells (geo (vg0 v))) -> (axis <= 2)%N -> (k < cells_along (vg0 v) axis)%N -> (k < 2 ^ 64)%N ->
  validate a = true -> asks_plane a axis k -> a_mode a = Some "min"%string -> a_min a = Some mn -> is_finite mn = true -> Bltb (B754_zero false) mn = true ->
  exists ls b, quiver_plot (FVector v) a = Val (Some (ls, b)) /\
    forall c, on_plane (vg0 v) axis k c ->
      at3 (data (component v (right_axis axis))) c = B754_zero false -> at3 (data (component v (up_axis axis))) c = B754_zero false ->
      exists x y l, at_ ls (rank (vg0 v) axis (drop axis c)) l /\ goes l x y B754_nan B754_nan.
Proof.
  intros H0 W S Ha Hk Hb Va [A1 [A2 A3]] Am An Fm Pm.
  destruct (quiver_plane_ok v axis W Ha k Hk) as [p [Ep [Pp [Ex [Ey [En [_ H]]]]]]].
  pose proof (axes_le axis) as [L1 L2]. pose proof (lens v axis W S Ha) as [N1 N2].
  unfold quiver_plot. rewrite Va, (usize_ok a k A3 Hb), A1, A2, N2Z.id, Am, An. cbn [negb String.eqb Ascii.eqb Bool.eqb unwrap bind].
  rewrite Ep. cbn [bind rescale opt_is String.eqb Ascii.eqb Bool.eqb unwrap]. unfold bound_min.
  destruct (elementwise_any p (fun n => if nltb n mn then ndiv mn n else n1) Pp) as [p' [E' [Pp' [Ex' [Ey' V']]]]]. rewrite E'. cbn [bind].
  destruct (quiver_colours p' (negb (absent (get_gradient (a_cmap a)))) Pp') as [ls [b [El Vl]]]; [rewrite Ex', Ex; exact N1 | rewrite Ey', Ey; exact N2|].
  rewrite El. cbn [bind]. exists ls, b. split; [reflexivity|]. intros c Hc Zu Zv.
  destruct (drop_in (vg0 v) axis c k (proj1 W) Ha Hc) as [B [_ _]]. destruct (place_ex (vg0 v) axis (drop axis c) (proj1 W) Ha B) as [x [y [Hx Hy]]].
  destruct (H c Hc) as [Hu Hv]. rewrite Zu in Hu. rewrite Zv in Hv. unfold rank. rewrite (cells_len (vg0 v)) by (assumption || apply W).
  destruct (drop axis c) as [i j]. cbn [fst snd] in *. rewrite <- Ex, <- Ex' in Hx. rewrite <- Ey, <- Ey' in Hy.
  destruct (Vl i j x y Hx Hy) as [l [Al [Gl _]]]. exists x, y, l. rewrite Ey', Ey in Al. split; [exact Al|].
  destruct (V' (i, j)) as [Vu Vw]. rewrite Hu in Vu. rewrite Hv in Vw.
  assert (Hn : at2 (q_norm p) (i, j) = B754_zero false) by (rewrite En; cbn [zip2 at2]; rewrite Hu, Hv; exact H0). rewrite Hn in *.
  assert (Q : nmul (B754_zero false : f64) (if nltb (B754_zero false : f64) mn then ndiv mn (B754_zero false : f64) else n1) = B754_nan).
  { change (@nltb f64 num_f64) with (@Bltb 53 1024). rewrite Pm. destruct mn as [s|s| |s m e Hme]; try discriminate; reflexivity. }
  rewrite Q in Vu, Vw. rewrite Vu, Vw in Gl.
  assert (Z1 : forall z : f64, nadd z (nmul (B754_nan : f64) n1) = B754_nan) by (intros [s|s| |s m e Hme]; reflexivity).
  assert (Z2 : forall z : f64, nadd z (B754_nan : f64) = B754_nan) by (intros [s|s| |s m e Hme]; reflexivity).
  rewrite Z1, Z2 in Gl. exact Gl.
Qed.

(** A field of the same speed everywhere: no colour lies on the scale. *)
Theorem c97_uniform_refuted {TF : Trig f64} {WF : Wave f64} (v : vgrid f64) (a : args f64) axis k (speed : f64) :
  wf_vector v -> sized (geom_cells (geo (vg0 v))) -> (axis <= 2)%N -> (k < cells_along (vg0 v) axis)%N -> (k < 2 ^ 64)%N ->
  validate a = true -> asks_plane a axis k -> a_mode a = None -> get_gradient (a_cmap a) <> None -> is_finite speed = true ->
  (forall c, on_plane (vg0 v) axis k c -> cell_number (FVector v) axis c = speed) ->
  exists ls b, quiver_plot (FVector v) a = Val (Some (ls, b)) /\
    forall c, on_plane (vg0 v) axis k c -> exists l, at_ ls (rank (vg0 v) axis (drop axis c)) l /\ l_colour l = Some B754_nan.
Proof.
  intros W S Ha Hk Hb Va [A1 [A2 A3]] Am Ac Fs Hs.
  destruct (quiver_plane_ok v axis W Ha k Hk) as [p [Ep [Pp [Ex [Ey [En [Et H]]]]]]].
  pose proof (axes_le axis) as [L1 L2]. pose proof (lens v axis W S Ha) as [N1 N2].
  unfold quiver_plot. rewrite Va, (usize_ok a k A3 Hb), A1, A2, N2Z.id, Am. cbn [negb String.eqb Ascii.eqb Bool.eqb unwrap bind].
  rewrite Ep. cbn [bind rescale opt_is].
  assert (Ec : negb (absent (get_gradient (a_cmap a))) = true) by (destruct (get_gradient (a_cmap a)); [reflexivity | congruence]). rewrite Ec.
  destruct (quiver_colours p true Pp) as [ls [b [El Vl]]]; [rewrite Ex; exact N1 | rewrite Ey; exact N2|]. rewrite El. cbn [bind].
  exists ls, b. split; [reflexivity|].
  assert (T : forall ij, inb2 (vlen (q_x p), vlen (q_y p)) ij = true -> at2 (q_true p) ij = speed).
  { intros [i j] B. apply inb2_lt in B. cbn [fst snd] in B. rewrite Ex, Ey in B. set (c := lane axis (i, j) k).
    assert (D : drop axis c = (i, j) /\ coord axis c = k) by now apply drop_lane.
    assert (Hc : on_plane (vg0 v) axis k c).
    { split; [|apply D]. pose proof (proj1 W) as P. rewrite P. rewrite <- !(cells_len (vg0 v)) in B by (assumption || exact P). unfold cells_along in *. rewrite P in *.
      unfold c, lane, coord, right_axis, up_axis in *.
      assert (axis = 0 \/ axis = 1 \/ axis = 2)%N as [Ea | [Ea | Ea]] by lia; rewrite Ea in *; cbn in B, Hk |- *; apply inb3_lt; lia. }
    rewrite Et, En. cbn [zip2 at2]. destruct (H c Hc) as [Hu Hv]. rewrite (proj1 D) in Hu, Hv. rewrite Hu, Hv. now apply Hs. }
  assert (St : sh2 (q_true p) = (vlen (q_x p), vlen (q_y p))) by apply Pp.
  assert (All : forall x, In x (flatten_2d (q_true p)) -> x = speed).
  { intros x Hx. unfold flatten_2d in Hx. apply in_map_iff in Hx. destruct Hx as [[i j] [<- Hx]]. apply in_ids2 in Hx. rewrite St in Hx. apply T. now apply inb2_lt. }
  assert (Ne : numbers (flatten_2d (q_true p)) <> []).
  { intros E. assert (I : In speed (numbers (flatten_2d (q_true p)))); [|now rewrite E in I]. apply filter_In. split; [|now destruct speed].
    assert (B : inb2 (vlen (q_x p), vlen (q_y p)) (0%N, 0%N) = true) by (apply inb2_lt; cbn [fst snd]; rewrite Ex, Ey; lia).
    rewrite <- (T _ B). unfold flatten_2d. apply in_map. apply in_ids2. rewrite St. apply inb2_lt in B. exact B. }
  destruct (skipnan_range _ Ne) as [[I1 _] [I2 _]]. apply filter_In in I1, I2. destruct I1 as [I1 _], I2 as [I2 _]. apply All in I1, I2.
  intros c Hc. destruct (drop_in (vg0 v) axis c k (proj1 W) Ha Hc) as [B [_ _]]. destruct (place_ex (vg0 v) axis (drop axis c) (proj1 W) Ha B) as [x [y [Hx Hy]]].
  unfold rank. rewrite (cells_len (vg0 v)) by (assumption || apply W). destruct (drop axis c) as [i j]. cbn [fst snd] in *.
  rewrite <- Ex in Hx. rewrite <- Ey in Hy. destruct (Vl i j x y Hx Hy) as [l [Al [_ Cl]]]. exists l. rewrite Ey in Al. split; [exact Al|]. rewrite Cl. f_equal.
  unfold normalise_colour. cbn [map2 at2]. rewrite I1, I2, T by (rewrite Ex, Ey; exact B).
  assert (Z : nsub speed speed = B754_zero false).
  { clear -Fs. destruct speed as [s|s| |s m e Hme]; try discriminate; [now destruct s|].
    set (z := B754_finite s m e Hme) in *. pose proof (Bminus_correct 53 1024 _ _ mode_NE z z Fs Fs) as K.
    rewrite Rminus_diag_eq, round_0, Rabs_R0 in K by (reflexivity || auto with typeclass_instances).
    rewrite Rlt_bool_true in K by apply bpow_gt_0. destruct K as [K [K2 K3]]. rewrite Rcompare_Eq in K3 by reflexivity.
    change (nsub z z) with (Bminus mode_NE z z). revert K K2 K3. generalize (Bminus mode_NE z z). intros r Hr Fr Sr.
    destruct r as [s'|s'| |s' m' e' B]; try discriminate.
    - cbn in Sr. destruct s; cbn in Sr; subst; reflexivity.
    - exfalso. cbn in Hr. unfold F2R in Hr. cbn [Fnum Fexp] in Hr. pose proof (bpow_gt_0 radix2 e').
      apply Rmult_integral in Hr. destruct Hr as [Hr|Hr]; [|lra]. apply eq_IZR in Hr. destruct s'; discriminate. }
  rewrite Z. reflexivity.
Qed.

(** ** Cases: a field of 3 x 2 x 4 cells moving along y *)
Section Cases.
  Context {F : Type} {NF : Num F} {TF : Trig F}.
  Definition ex_frame : grid F :=
    mkGrid (Cart (mkCart (3, 2, 4)%N (cart_centres 3 n0 n1) (cart_centres 2 n0 n1) (cart_centres 4 n0 n1) ((n0, n1), (n0, n1), (n0, n1))))
      (zeros3 (3, 2, 4)%N) (zeros3 (3, 2, 4)%N).
  Definition ex_moving : grid F := mkGrid (geo ex_frame) (mkA3 (3, 2, 4)%N (fun _ => nof 5)) (weight ex_frame).
  Definition ex_field : vgrid F := mkV ex_frame ex_moving ex_frame None.
  Definition ex_plane (mode : option string) : args F := mkArgs 2 "plane" (Some 3%Z) mode (Some n1) (Some n2) (Some "viridis"%string).
  Definition ex_depth : args F := mkArgs 2 "depth_average" None None None None None.
  Lemma ex_wf : wf_vector ex_field.
  Proof.
    split; [reflexivity|]. intros k Hk. assert (k = 0 \/ k = 1 \/ k = 2)%N as [-> | [-> | ->]] by lia; repeat split.
  Qed.
  Example c86_case : cart_new (3, 2, 4)%N (ThreeD ((n0, n1), (n0, n1), (n0, n1))) = Val ex_frame /\ wf_vector ex_field /\ sized (geom_cells (geo (vg0 ex_field))) /\
    wf_field (FVector ex_field) /\ wf_field (FGrid ex_moving) /\ comparable (FGrid ex_moving) (FGrid ex_frame) /\
    (3 < cells_along (vg0 ex_field) 2)%N /\ asks_plane (ex_plane None) 2 3 /\ asks_depth ex_depth 2 /\
    validate (ex_plane None) = true /\ validate ex_depth = true /\ validate (parity_args (ex_plane None)) = true /\
    Forall (fun m => validate (ex_plane (Some m)) = true) valid_modes /\
    on_plane (vg0 ex_field) 2 3 (2, 1, 3)%N /\ get_gradient (a_cmap (ex_plane None)) = Some "viridis"%string.
  Proof.
    split; [reflexivity|]. split; [apply ex_wf|]. split; [cbn; lia|]. split; [apply ex_wf|]. split; [repeat split|]. split; [repeat split|].
    split; [reflexivity|]. split; [repeat split|]. split; [repeat split|]. split; [reflexivity|]. split; [reflexivity|]. split; [reflexivity|].
    split; [repeat constructor|]. split; [repeat split|]. reflexivity.
  Qed.
  (** Two cells at least along either axis of the plane: there are spacings. *)
  Example c91_case : exists x0 x1 y0 y1 : F, at_ (centres (vg0 ex_field) (right_axis 2)) 0 x0 /\ at_ (centres (vg0 ex_field) (right_axis 2)) 1 x1 /\
    at_ (centres (vg0 ex_field) (up_axis 2)) 0 y0 /\ at_ (centres (vg0 ex_field) (up_axis 2)) 1 y1.
  Proof. repeat eexists. Qed.
  (** Unequal numbers of cells along x and y; a depth average along y. *)
  Example c95_case : let a := mkArgs 1 "depth_average" None None (@None F) None None in
    validate a = true /\ asks_depth a 1 /\ cells_along (vg0 ex_field) 0 <> cells_along (vg0 ex_field) 1 /\ cells_along (vg0 ex_field) 0 <> 1%N /\ cells_along (vg0 ex_field) 1 <> 1%N.
  Proof. cbv zeta. split; [reflexivity|]. split; [repeat split|]. split; [discriminate|]. split; discriminate. Qed.
End Cases.

(** The diagonal of a comparison of vector fields follows the x component alone: here every
    y component is 5, and the line ends at 0. *)
Theorem c98_vector_diagonal_refuted :
  exists s, parity_plot (F := f64) (FVector ex_field) (FVector ex_field) (ex_plane None) = Val (Some s) /\
    diagonal s (d 0) (d 0) /\ In (d 5, d 5) (pairs s).
Proof.
  destruct (c89_plot_vector (F := f64) ex_field ex_field (ex_plane None) 2) with (k := 3%N) as [s [E [_ V]]];
    [apply ex_wf | apply ex_wf | reflexivity | lia | reflexivity | reflexivity | reflexivity | repeat split |].
  exists s. split; [exact E|]. split.
  - assert (Es : exists l m, s = create_parity_scatter (pp_of (data (vg0 ex_field)) (data (vg0 ex_field)) l m)).
    { unfold parity_plot in E. destruct (negb _); [discriminate|]. destruct (usize_arg _) as [idx|]; [|discriminate]. cbv zeta in E.
      apply bind_val in E. destruct E as [p [E Ep]]. injection Ep as <-. destruct (String.eqb _ _).
      - apply bind_val in E. destruct E as [u [_ E]]. apply bind_val in E. destruct E as [w [_ E]]. injection E as <-. eauto.
      - apply bind_val in E. destruct E as [k [_ E]]. apply bind_val in E. destruct E as [u [_ E]]. apply bind_val in E. destruct E as [w [_ E]]. injection E as <-. eauto. }
    destruct Es as [l [m ->]]. set (D := data (vg0 (ex_field (F := f64)))).
    assert (All : forall x, In x (numbers (flat3 D)) -> x = d 0).
    { intros x Hx. apply filter_In in Hx. destruct Hx as [Hx _]. unfold flat3 in Hx. apply in_map_iff in Hx. destruct Hx as [c [<- _]]. reflexivity. }
    assert (Ne : numbers (flat3 D) <> []).
    { intros En. assert (I : In (d 0) (numbers (flat3 D))); [|now rewrite En in I]. apply filter_In. split; [|reflexivity].
      unfold flat3. apply in_map_iff. exists (0, 0, 0)%N. split; [reflexivity|]. apply in_ids3. reflexivity. }
    destruct (pp_range D D l m Ne Ne) as [E1 [E2 [[L1 _] [H1 _]]]]. apply in_app_or in L1, H1.
    assert (X1 : pp_xmin (pp_of D D l m) = d 0) by (destruct L1; now apply All). assert (X2 : pp_xmax (pp_of D D l m) = d 0) by (destruct H1; now apply All).
    unfold diagonal, create_parity_scatter. cbn [fst]. rewrite <- E1, <- E2, X1, X2. reflexivity.
  - destruct (V (2, 1, 3)%N) as [_ A]; [repeat split|]. unfold at_ in A. apply nth_error_In in A. exact A.
Qed.
