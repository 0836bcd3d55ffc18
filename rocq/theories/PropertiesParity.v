(** * Property C89: parity maps and parity plots. *)
From Coq Require Import Reals List NArith ZArith Bool Lia Lra String ZifyBool ZifyN ZifyNat.
From Flocq Require Import Core.Core IEEE754.BinarySingleNaN.
From Verif Require Import Base BaseFacts Num F64Facts RFacts NDArray GridModel GridSpec GridFacts GridOps PropertiesGrid DataModel DataSpec DataLoad PropertiesData ConvCsv
  PropertiesCsv PyModel PyStat PlotModel PlotProofs PropertiesPlot PropertiesMap.
Local Open Scope list_scope.
Local Open Scope bool_scope.

(** Two fields of one kind with the same numbers of cells. *)
Definition comparable {F} (f h : field F) : Prop :=
  match f, h with FGrid _, FGrid _ => True | FVector _, FVector _ => True | _, _ => False end /\
  geom_cells (geo (frame h)) = geom_cells (geo (frame f)).

Section Parity.
  Context {F : Type} {NF : Num F} {TF : Trig F} {WF : Wave F}.
  Variables (f h : field F) (a : args F) (axis : N).
  Hypothesis Wf : wf_field f.
  Hypothesis Wh : wf_field h.
  Hypothesis C : comparable f h.
  Hypothesis Ha : (axis <= 2)%N.
  Notation g := (frame f).

  Lemma same_along b : cells_along (frame h) b = cells_along g b.
  Proof. unfold cells_along. now rewrite (proj2 C). Qed.
  Lemma same_plane k c : on_plane (frame h) axis k c <-> on_plane g axis k c.
  Proof. unfold on_plane. now rewrite (proj2 C). Qed.
  Lemma same_shape : (vlen (centres (frame h) (right_axis axis)), vlen (centres (frame h) (up_axis axis))) =
    (vlen (centres g (right_axis axis)), vlen (centres g (up_axis axis))).
  Proof.
    pose proof (axes_le axis) as [L1 L2]. rewrite <- !cells_len by (assumption || now apply frame_placed). now rewrite !same_along.
  Qed.

  (** The two tables that a parity map compares. *)
  Lemma map_unfold : validate (parity_args a) = true ->
    parity_map f h a =
      match usize_arg (a_index a) with
      | None => Val None
      | Some idx =>
          let axis := Z.to_N (a_axis a) in
          if String.eqb (a_selection a) "depth_average"
          then let! x := field_depth f axis in let! y := field_depth h axis in let! r := parity_of g axis x y in Val (Some (create_parity_map r))
          else let! k := unwrap idx in
               let! x := field_plane f axis k in let! y := field_plane h axis k in let! r := parity_of g axis x y in Val (Some (create_parity_map r))
      end.
  Proof.
    intros V. unfold parity_map. rewrite V. cbn [negb]. destruct (usize_arg (a_index a)) as [idx|]; [|reflexivity]. cbv zeta.
    destruct C as [K _]. generalize (Z.to_N (a_axis a)). intros ax.
    destruct f as [g'|v], h as [h'|w]; try contradiction; destruct (String.eqb (a_selection a) "depth_average"); cbn [frame field_depth field_plane];
      unfold parity_depth, parity_plane, parity_vdepth, parity_vplane.
    - destruct (collapse g' ax); cbn [bind]; [|reflexivity]. now destruct (collapse h' ax).
    - destruct (unwrap idx); cbn [bind]; [|reflexivity].
      destruct (index_axis_move (data g') ax a0); cbn [bind]; [|reflexivity]. now destruct (index_axis_move (data h') ax a0).
    - destruct (uv_depth v ax) as [uw|]; cbn [bind]; [|reflexivity]. destruct (zip2e _ (fst uw) _); cbn [bind]; [|reflexivity].
      destruct (uv_depth w ax) as [uw'|]; cbn [bind]; [|reflexivity]. now destruct (zip2e _ (fst uw') _).
    - destruct (unwrap idx); cbn [bind]; [|reflexivity].
      destruct (uv_plane v ax a0) as [uw|]; cbn [bind]; [|reflexivity]. destruct (zip2e _ (fst uw) _); cbn [bind]; [|reflexivity].
      destruct (uv_plane w ax a0) as [uw'|]; cbn [bind]; [|reflexivity]. now destruct (zip2e _ (fst uw') _).
  Qed.

  Lemma parity_points x y : axis <> 1%N -> sh2 x = (vlen (centres g (right_axis axis)), vlen (centres g (up_axis axis))) -> sh2 y = sh2 x ->
    exists r, parity_of g axis x y = Val r /\
      points (create_parity_map r) (cells_along g (right_axis axis) * cells_along g (up_axis axis)) /\
      forall ij px py, place g axis ij px py -> shows (create_parity_map r) (rank g axis ij) px py (nsub (at2 x ij) (at2 y ij)).
  Proof.
    intros H1 Sx Sy. pose proof (frame_placed f Wf) as P. pose proof (axes_le axis) as [L1 L2]. destruct (plot_axes g axis Ha) as [Ex Ey].
    unfold parity_of. rewrite (plot_axes' g axis Ha H1), Ex, Ey.
    destruct (c64_meshgrid (centres g (right_axis axis)) (centres g (up_axis axis))) as [xx [yy [E [S1 [S2 V]]]]]. rewrite E. cbn [bind fst snd].
    destruct (bop2_ok nsub x y (eq_sym Sy)) as [dl [Ed [Sd Vd]]]. rewrite Ed. cbn [bind]. eexists. split; [reflexivity|].
    unfold points, shows, create_parity_map. cbn [h_x h_y h_z r_x r_y r_delta]. rewrite Sx in *.
    rewrite (flat_len _ _ _ S1), (flat_len _ _ _ S2), (flat_len _ _ _ Sd). rewrite !(cells_len g) by assumption. split; [auto|].
    intros [i j] px py [Hx Hy]. cbn [fst snd] in *. unfold rank. rewrite (cells_len g) by assumption. cbn [fst snd].
    pose proof (at_lt _ _ _ Hx) as B1. pose proof (at_lt _ _ _ Hy) as B2. destruct (V i j px py Hx Hy) as [<- <-].
    rewrite <- Vd by now apply inb2_lt. split; [apply (flat_at _ _ _ _ _ S1 B1 B2) | split; [apply (flat_at _ _ _ _ _ S2 B1 B2) | apply (flat_at _ _ _ _ _ Sd B1 B2)]].
  Qed.

  (** Cell by cell: the value of the reference less the value of the comparison. *)
  Theorem c89_map_plane k : axis <> 1%N -> (k < cells_along g axis)%N -> (k < 2 ^ 64)%N -> validate (parity_args a) = true -> asks_plane a axis k ->
    exists m, parity_map f h a = Val (Some m) /\
      points m (cells_along g (right_axis axis) * cells_along g (up_axis axis)) /\
      forall c, on_plane g axis k c -> exists x y,
        place g axis (drop axis c) x y /\ shows m (rank g axis (drop axis c)) x y (nsub (cell_number f axis c) (cell_number h axis c)).
  Proof.
    intros H1 Hk Hb Va [A1 [A2 A3]]. rewrite map_unfold by exact Va. rewrite (usize_ok a k A3 Hb), A1, A2, N2Z.id.
    cbn [String.eqb Ascii.eqb Bool.eqb unwrap bind]. cbv zeta.
    destruct (field_plane_ok f axis Wf Ha k Hk) as [x [E1 [S1 V1]]].
    destruct (field_plane_ok h axis Wh Ha k) as [y [E2 [S2 V2]]]; [now rewrite same_along|]. rewrite same_shape in S2.
    rewrite E1. cbn [bind]. rewrite E2. cbn [bind]. destruct (parity_points x y H1 S1) as [r [Er [Pr Vr]]]; [congruence|].
    rewrite Er. cbn [bind]. eexists. split; [reflexivity|]. split; [exact Pr|].
    intros c Hc. destruct (drop_in g axis c k (frame_placed f Wf) Ha Hc) as [B _].
    destruct (place_ex g axis (drop axis c) (frame_placed f Wf) Ha B) as [px [py Hp]]. exists px, py. split; [exact Hp|].
    rewrite <- (V1 c Hc), <- (V2 c) by now apply same_plane. now apply Vr.
  Qed.
  Theorem c89_map_depth : axis <> 1%N -> validate (parity_args a) = true -> asks_depth a axis ->
    exists m d e, parity_map f h a = Val (Some m) /\ depth_numbers f axis d /\ depth_numbers h axis e /\
      points m (cells_along g (right_axis axis) * cells_along g (up_axis axis)) /\
      forall ij, (fst ij < cells_along g (right_axis axis) /\ snd ij < cells_along g (up_axis axis))%N -> exists x y,
        place g axis ij x y /\ shows m (rank g axis ij) x y (nsub (d ij) (e ij)).
  Proof.
    intros H1 Va [A1 [A2 A3]]. rewrite map_unfold by exact Va. rewrite A1, A2, A3, N2Z.id.
    cbn [String.eqb Ascii.eqb Bool.eqb unwrap bind usize_arg]. cbv zeta. pose proof (axes_le axis) as [L1 L2].
    destruct (field_depth_ok f axis Wf Ha) as [x [E1 [S1 V1]]].
    destruct (field_depth_ok h axis Wh Ha) as [y [E2 [S2 V2]]]. rewrite same_shape in S2.
    rewrite E1. cbn [bind]. rewrite E2. cbn [bind]. destruct (parity_points x y H1 S1) as [r [Er [Pr Vr]]]; [congruence|].
    rewrite Er. cbn [bind]. eexists _, _, _. split; [reflexivity|]. split; [exact V1|]. split; [exact V2|]. split; [exact Pr|].
    intros [i j] B. rewrite !(cells_len g) in B by (assumption || now apply frame_placed).
    destruct (place_ex g axis (i, j) (frame_placed f Wf) Ha) as [px [py Hp]]; [now apply inb2_lt|]. exists px, py. split; [exact Hp|]. now apply Vr.
  Qed.
End Parity.

(** Comparing a field with itself gives zero wherever its numbers are finite. *)
Theorem c89_self {TF : Trig f64} {WF : Wave f64} (f : field f64) a axis k :
  wf_field f -> (axis <= 2)%N -> axis <> 1%N -> (k < cells_along (frame f) axis)%N -> (k < 2 ^ 64)%N ->
  validate (parity_args a) = true -> asks_plane a axis k ->
  exists m, parity_map f f a = Val (Some m) /\
    forall c, on_plane (frame f) axis k c -> is_finite (cell_number f axis c) = true ->
      exists x y z, place (frame f) axis (drop axis c) x y /\ shows m (rank (frame f) axis (drop axis c)) x y z /\ z = B754_zero false.
Proof.
  intros W Ha H1 Hk Hb Va A.
  destruct (c89_map_plane f f a axis W W) with (k := k) as [m [E [_ V]]]; try assumption; [split; [now destruct f | reflexivity]|].
  exists m. split; [exact E|]. intros c Hc Fc. destruct (V c Hc) as [x [y [Hp Hs]]]. exists x, y, (nsub (cell_number f axis c) (cell_number f axis c)).
  split; [exact Hp|]. split; [exact Hs|]. generalize Fc. generalize (cell_number f axis c). clear. intros z Fz.
  pose proof (Bminus_correct 53 1024 _ _ mode_NE z z Fz Fz) as H. rewrite Rminus_diag_eq, round_0, Rabs_R0 in H by (reflexivity || auto with typeclass_instances).
  rewrite Rlt_bool_true in H by apply bpow_gt_0. destruct H as [H [H2 H3]].
  rewrite Rcompare_Eq in H3 by reflexivity.
  change (nsub z z) with (Bminus mode_NE z z). revert H H2 H3. generalize (Bminus mode_NE z z). intros r Hr Fr Sr.
  destruct r as [s|s| |s m e B]; try discriminate.
  - cbn in Sr. destruct (Bsign z); cbn in Sr; subst; reflexivity.
  - exfalso. cbn in Hr. unfold F2R in Hr. cbn [Fnum Fexp] in Hr. pose proof (bpow_gt_0 radix2 e).
    apply Rmult_integral in Hr. destruct Hr as [Hr|Hr]; [|lra]. apply eq_IZR in Hr. destruct s; discriminate.
Qed.

(** ** Parity plots *)
(** What a parity plot draws: the end points of a line, and points. *)
Definition pairs {F} (s : (F * F) * (F * F) * list (F * F)) : list (F * F) := snd s.
Definition diagonal {F} (s : (F * F) * (F * F) * list (F * F)) (lo hi : F) : Prop := fst s = ((lo, lo), (hi, hi)).

Section ParityPlot.
  Context {F : Type} {NF : Num F} {TF : Trig F} {WF : Wave F}.
  Lemma at_app2 {A} (l l' : list A) i x : at_ l' i x -> at_ (l ++ l') (vlen l + i) x.
  Proof.
    unfold at_, vlen. intros H. rewrite nth_error_app2 by lia. rewrite <- H. f_equal. lia.
  Qed.
  Lemma vlen_app {A} (l l' : list A) : vlen (l ++ l') = (vlen l + vlen l')%N.
  Proof. unfold vlen. rewrite app_length. lia. Qed.
  Lemma at_app1' {A} (l l' : list A) i x : at_ l i x -> at_ (l ++ l') i x.
  Proof. intros H. unfold at_ in *. rewrite nth_error_app1; [exact H|]. apply nth_error_Some. congruence. Qed.

  Section Grids.
    Variables (g h : grid F) (a : args F) (axis : N).
    Hypothesis Pg : placed g.
    Hypothesis Wg : wf_grid g.
    Hypothesis Wh : wf_grid h.
    Hypothesis C : geom_cells (geo h) = geom_cells (geo g).
    Hypothesis Ha : (axis <= 2)%N.
    Notation N1 := (cells_along g (right_axis axis)).
    Notation N2 := (cells_along g (up_axis axis)).

    (** One point per cell of the plane: its value in the reference, its value in the comparison. *)
    Theorem c89_plot_plane k : (k < cells_along g axis)%N -> (k < 2 ^ 64)%N -> validate (parity_args a) = true -> asks_plane a axis k ->
      exists s, parity_plot (FGrid g) (FGrid h) a = Val (Some s) /\ vlen (pairs s) = (N1 * N2)%N /\
        forall c, on_plane g axis k c -> at_ (pairs s) (rank g axis (drop axis c)) (at3 (data g) c, at3 (data h) c).
    Proof.
      intros Hk Hb Va [A1 [A2 A3]]. pose proof (axes_le axis) as [L1 L2]. unfold parity_plot. rewrite Va, (usize_ok a k A3 Hb), A1, A2, N2Z.id.
      cbn [negb String.eqb Ascii.eqb Bool.eqb unwrap bind]. unfold pplot_plane.
      destruct (plane_ok g axis k Wg Ha) as [x [E1 [S1 V1]]]; [exists (cells_along g axis); split; [now apply cells_get | exact Hk]|].
      destruct (plane_ok h axis k Wh Ha) as [y [E2 [S2 V2]]]; [exists (cells_along g axis); rewrite C; split; [now apply cells_get | exact Hk]|].
      rewrite E1. cbn [bind]. rewrite E2. cbn [bind]. rewrite C in S2. apply (plane_shape g _ _ Pg Ha) in S1, S2.
      eexists. split; [reflexivity|]. unfold pairs. cbn [snd create_parity_scatter pp_of pp_ref pp_comp].
      rewrite vlen_combine, (flat_len _ _ _ S1), (flat_len _ _ _ S2), N.min_id, !(cells_len g) by assumption. split; [reflexivity|].
      intros c Hc. destruct (drop_in g axis c k Pg Ha Hc) as [B [_ L]]. unfold rank. rewrite (cells_len g) by assumption.
      destruct (drop axis c) as [i j]. apply inb2_lt in B. cbn [fst snd] in *. rewrite <- L, <- V1, <- V2.
      apply at_combine; [apply (flat_at _ _ _ _ _ S1) | apply (flat_at _ _ _ _ _ S2)]; tauto.
    Qed.
    Theorem c89_plot_depth : validate (parity_args a) = true -> asks_depth a axis ->
      exists s x y, parity_plot (FGrid g) (FGrid h) a = Val (Some s) /\ collapse g axis = Val x /\ collapse h axis = Val y /\ vlen (pairs s) = (N1 * N2)%N /\
        forall ij, (fst ij < N1 /\ snd ij < N2)%N -> at_ (pairs s) (rank g axis ij) (at2 x ij, at2 y ij).
    Proof.
      intros Va [A1 [A2 A3]]. pose proof (axes_le axis) as [L1 L2]. unfold parity_plot. rewrite Va, A1, A2, A3, N2Z.id.
      cbn [negb String.eqb Ascii.eqb Bool.eqb unwrap bind usize_arg]. unfold pplot_depth.
      destruct (collapse_val _ axis Wg Ha) as [x [n [E1 [_ [S1 _]]]]]. destruct (collapse_val _ axis Wh Ha) as [y [n' [E2 [_ [S2 _]]]]].
      rewrite (proj1 Wg) in S1. rewrite (proj1 Wh), C in S2. apply (plane_shape g _ _ Pg Ha) in S1, S2.
      rewrite E1. cbn [bind]. rewrite E2. cbn [bind]. eexists _, x, y. split; [reflexivity|]. split; [reflexivity|]. split; [reflexivity|].
      unfold pairs. cbn [snd create_parity_scatter pp_of pp_ref pp_comp].
      rewrite vlen_combine, (flat_len _ _ _ S1), (flat_len _ _ _ S2), N.min_id, !(cells_len g) by assumption. split; [reflexivity|].
      intros [i j] B. unfold rank. rewrite (cells_len g) by assumption. cbn [fst snd] in *.
      apply at_combine; [apply (flat_at _ _ _ _ _ S1) | apply (flat_at _ _ _ _ _ S2)]; tauto.
    Qed.
  End Grids.

  Section Vectors.
    Variables (v w : vgrid F) (a : args F) (axis : N).
    Hypothesis Wv : wf_vector v.
    Hypothesis Ww : wf_vector w.
    Hypothesis C : geom_cells (geo (vg0 w)) = geom_cells (geo (vg0 v)).
    Hypothesis Ha : (axis <= 2)%N.
    Notation g := (vg0 v).
    Notation N1 := (cells_along g (right_axis axis)).
    Notation N2 := (cells_along g (up_axis axis)).
    (** Two points per cell: one for each in-plane component. *)
    Theorem c89_plot_vector k : (k < cells_along g axis)%N -> (k < 2 ^ 64)%N -> validate (parity_args a) = true -> asks_plane a axis k ->
      exists s, parity_plot (FVector v) (FVector w) a = Val (Some s) /\ vlen (pairs s) = (2 * (N1 * N2))%N /\
        forall c, on_plane g axis k c ->
          at_ (pairs s) (rank g axis (drop axis c)) (at3 (data (component v (right_axis axis))) c, at3 (data (component w (right_axis axis))) c) /\
          at_ (pairs s) (N1 * N2 + rank g axis (drop axis c)) (at3 (data (component v (up_axis axis))) c, at3 (data (component w (up_axis axis))) c).
    Proof.
      intros Hk Hb Va [A1 [A2 A3]]. pose proof (axes_le axis) as [L1 L2]. pose proof (proj1 Wv) as Pg.
      unfold parity_plot. rewrite Va, (usize_ok a k A3 Hb), A1, A2, N2Z.id.
      cbn [negb String.eqb Ascii.eqb Bool.eqb unwrap bind]. unfold pplot_vplane.
      destruct (uv_plane_ok v axis k (cells_along g axis) Wv Ha (cells_get g axis Ha) Hk) as [u1 [u2 [E1 [S1 [S1' V1]]]]].
      assert (Sm : cells_along (vg0 w) axis = cells_along g axis) by (unfold cells_along; now rewrite C).
      destruct (uv_plane_ok w axis k (cells_along (vg0 w) axis) Ww Ha (cells_get _ axis Ha)) as [w1 [w2 [E2 [S2 [S2' V2]]]]]; [now rewrite Sm|].
      rewrite E1. cbn [bind]. rewrite E2. cbn [bind fst snd].
      rewrite <- !cells_len in S1, S2 by (assumption || apply Ww). unfold cells_along in S2. rewrite C in S2.
      fold (cells_along (vg0 v) (right_axis axis)) in S2. fold (cells_along (vg0 v) (up_axis axis)) in S2. rewrite S1 in S1'. rewrite S2 in S2'.
      eexists. split; [reflexivity|]. unfold pairs. cbn [snd create_parity_scatter pp_of pp_ref pp_comp].
      rewrite vlen_combine, !vlen_app, !(flat_len _ _ _ S1), !(flat_len _ _ _ S2), !(flat_len _ _ _ S1'), !(flat_len _ _ _ S2'). split; [lia|].
      intros c Hc. destruct (drop_in g axis c k Pg Ha Hc) as [B [_ L]]. rewrite <- !(cells_len g) in B by assumption. unfold rank.
      destruct (drop axis c) as [i j]. apply inb2_lt in B. cbn [fst snd] in *. destruct B as [B1 B2].
      destruct (V1 i j) as [X1 X2], (V2 i j) as [Y1 Y2]. rewrite L in *. rewrite <- X1, <- X2, <- Y1, <- Y2. split.
      - apply at_combine; apply at_app1'; [apply (flat_at _ _ _ _ _ S1 B1 B2) | apply (flat_at _ _ _ _ _ S2 B1 B2)].
      - apply at_combine; [rewrite <- (flat_len _ _ _ S1) | rewrite <- (flat_len _ _ _ S2)]; apply at_app2;
          [apply (flat_at _ _ _ _ _ S1' B1 B2) | apply (flat_at _ _ _ _ _ S2' B1 B2)].
    Qed.
    (** The same for the averages along an axis. *)
    Theorem c89_plot_vector_depth : validate (parity_args a) = true -> asks_depth a axis ->
      exists s x1 x2 y1 y2, parity_plot (FVector v) (FVector w) a = Val (Some s) /\ vlen (pairs s) = (2 * (N1 * N2))%N /\
        collapse (component v (right_axis axis)) axis = Val x1 /\ collapse (component v (up_axis axis)) axis = Val x2 /\
        collapse (component w (right_axis axis)) axis = Val y1 /\ collapse (component w (up_axis axis)) axis = Val y2 /\
        forall ij, (fst ij < N1 /\ snd ij < N2)%N ->
          at_ (pairs s) (rank g axis ij) (at2 x1 ij, at2 y1 ij) /\ at_ (pairs s) (N1 * N2 + rank g axis ij) (at2 x2 ij, at2 y2 ij).
    Proof.
      intros Va [A1 [A2 A3]]. pose proof (axes_le axis) as [L1 L2]. pose proof (proj1 Wv) as Pg.
      unfold parity_plot. rewrite Va, A1, A2, A3, N2Z.id.
      cbn [negb String.eqb Ascii.eqb Bool.eqb unwrap bind usize_arg]. unfold pplot_vdepth.
      destruct (uv_depth_ok v axis Wv Ha) as [u1 [u2 [E1 [Cu1 [Cu2 [S1 S1']]]]]].
      destruct (uv_depth_ok w axis Ww Ha) as [w1 [w2 [E2 [Cw1 [Cw2 [S2 S2']]]]]].
      rewrite E1. cbn [bind]. rewrite E2. cbn [bind fst snd].
      rewrite <- !cells_len in S1, S2 by (assumption || apply Ww). unfold cells_along in S2. rewrite C in S2.
      fold (cells_along (vg0 v) (right_axis axis)) in S2. fold (cells_along (vg0 v) (up_axis axis)) in S2. rewrite S1 in S1'. rewrite S2 in S2'.
      eexists _, u1, u2, w1, w2. split; [reflexivity|]. unfold pairs. cbn [snd create_parity_scatter pp_of pp_ref pp_comp].
      rewrite vlen_combine, !vlen_app, !(flat_len _ _ _ S1), !(flat_len _ _ _ S2), !(flat_len _ _ _ S1'), !(flat_len _ _ _ S2'). split; [lia|].
      split; [exact Cu1|]. split; [exact Cu2|]. split; [exact Cw1|]. split; [exact Cw2|].
      intros [i j] [B1 B2]. unfold rank. cbn [fst snd] in *. split.
      - apply at_combine; apply at_app1'; [apply (flat_at _ _ _ _ _ S1 B1 B2) | apply (flat_at _ _ _ _ _ S2 B1 B2)].
      - apply at_combine; [rewrite <- (flat_len _ _ _ S1) | rewrite <- (flat_len _ _ _ S2)]; apply at_app2;
          [apply (flat_at _ _ _ _ _ S1' B1 B2) | apply (flat_at _ _ _ _ _ S2' B1 B2)].
    Qed.
  End Vectors.
End ParityPlot.

(** The diagonal: from the lowest to the highest number of the two grids. *)
Definition has_number (l : list f64) : Prop := exists x, In x l /\ is_nan x = false.
Definition values_of (g : grid f64) (x : f64) : Prop := exists c, inb3 (geom_cells (geo g)) c = true /\ at3 (data g) c = x /\ is_nan x = false.

Lemma pp_range (dr dc : arr3 f64) l m : numbers (flat3 dr) <> [] -> numbers (flat3 dc) <> [] ->
  let p := pp_of dr dc l m in
  pp_xmin p = pp_ymin p /\ pp_xmax p = pp_ymax p /\
  lowest (pp_xmin p) (numbers (flat3 dr) ++ numbers (flat3 dc)) /\ highest (pp_xmax p) (numbers (flat3 dr) ++ numbers (flat3 dc)).
Proof.
  intros H1 H2. cbv zeta. unfold pp_of. cbn [pp_xmin pp_ymin pp_xmax pp_ymax].
  destruct (skipnan_range _ H1) as [[A1 A2] [B1 B2]], (skipnan_range _ H2) as [[C1 C2] [D1 D2]].
  split; [reflexivity|]. split; [reflexivity|].
  assert (Nn : forall (l : list f64) x, In x (numbers l) -> is_nan x = false).
  { intros l' x Hx. apply filter_In in Hx. destruct Hx as [_ Hx]. now apply negb_true_iff in Hx. }
  pose proof (Nn _ _ A1) as Na. pose proof (Nn _ _ B1) as Nb. pose proof (Nn _ _ C1) as Nc. pose proof (Nn _ _ D1) as Nd.
  change (@nltb f64 num_f64) with (@Bltb 53 1024).
  split; (split; [|intros y Hy; apply in_app_or in Hy]).
  - destruct (Bltb _ _); apply in_or_app; tauto.
  - destruct (Bltb (min_skipnan (flat3 dr)) _) eqn:E.
    + destruct Hy as [Hy|Hy]; [now apply A2|]. apply (Bleb_trans _ (min_skipnan (flat3 dc))); [now apply Blt_le | now apply C2].
    + destruct Hy as [Hy|Hy]; [|now apply C2]. apply (Bleb_trans _ (min_skipnan (flat3 dr))); [|now apply A2].
      destruct (Bleb _ _) eqn:E2; [reflexivity|]. rewrite (Bnle_lt _ _ Nc Na E2) in E. discriminate.
  - destruct (Bltb _ _); apply in_or_app; tauto.
  - destruct (Bltb (max_skipnan (flat3 dc)) _) eqn:E.
    + destruct Hy as [Hy|Hy]; [now apply B2|]. apply (Bleb_trans _ (max_skipnan (flat3 dc))); [now apply D2 | now apply Blt_le].
    + destruct Hy as [Hy|Hy]; [|now apply D2]. apply (Bleb_trans _ (max_skipnan (flat3 dr))); [now apply B2|].
      destruct (Bleb _ _) eqn:E2; [reflexivity|]. rewrite (Bnle_lt _ _ Nb Nd E2) in E. discriminate.
Qed.

Lemma numbers_values (g : grid f64) x : wf_grid g -> In x (numbers (flat3 (data g))) <-> values_of g x.
Proof.
  intros [W _]. unfold numbers, flat3, values_of. rewrite filter_In, in_map_iff, negb_true_iff, W. split.
  - intros [[c [E Hc]] Nx]. exists c. rewrite <- in_ids3. auto.
  - intros [c [Hc [E Nx]]]. split; [|exact Nx]. exists c. rewrite in_ids3. auto.
Qed.

(** Every number in either grid lies between the ends of the diagonal, and both ends are reached. *)
Theorem c89_diagonal {TF : Trig f64} {WF : Wave f64} (g h : grid f64) a s : wf_grid g -> wf_grid h ->
  (exists x, values_of g x) -> (exists x, values_of h x) ->
  parity_plot (FGrid g) (FGrid h) a = Val (Some s) ->
  exists lo hi, diagonal s lo hi /\ (values_of g lo \/ values_of h lo) /\ (values_of g hi \/ values_of h hi) /\
    forall x, values_of g x \/ values_of h x -> Bleb lo x = true /\ Bleb x hi = true.
Proof.
  intros Wg Wh [x Hx] [y Hy] H.
  assert (E : exists l m, s = create_parity_scatter (pp_of (data g) (data h) l m)).
  { unfold parity_plot in H. destruct (negb _); [discriminate|]. destruct (usize_arg (a_index a)) as [idx|]; [|discriminate]. cbv zeta in H.
    apply bind_val in H. destruct H as [p [H E]]. injection E as <-. destruct (String.eqb _ _).
    - apply bind_val in H. destruct H as [u [_ H]]. apply bind_val in H. destruct H as [w [_ H]]. injection H as <-. eauto.
    - apply bind_val in H. destruct H as [k [_ H]]. apply bind_val in H. destruct H as [u [_ H]]. apply bind_val in H. destruct H as [w [_ H]].
      injection H as <-. eauto. }
  destruct E as [l [m ->]].
  destruct (pp_range (data g) (data h) l m) as [E1 [E2 [[L1 L2] [H1 H2]]]];
    [intros E; apply (numbers_values g x Wg) in Hx; now rewrite E in Hx | intros E; apply (numbers_values h y Wh) in Hy; now rewrite E in Hy|].
  revert E1 E2 L1 L2 H1 H2. generalize (pp_of (data g) (data h) l m). intros p E1 E2 L1 L2 H1 H2.
  exists (pp_xmin p), (pp_xmax p). unfold diagonal, create_parity_scatter. cbn [fst]. rewrite <- E1, <- E2. split; [reflexivity|].
  apply in_app_or in L1, H1. rewrite !numbers_values in L1, H1 by assumption. split; [exact L1|]. split; [exact H1|].
  intros z Hz. rewrite <- !numbers_values in Hz by assumption. apply in_or_app in Hz. auto.
Qed.
