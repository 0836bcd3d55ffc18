(** * Properties C86-C9x: what the plots show. *)
From Coq Require Import Reals List NArith ZArith Bool Lia Lra String ZifyBool ZifyN ZifyNat.
From Flocq Require Import Core.Core IEEE754.BinarySingleNaN.
From Verif Require Import Base BaseFacts Num F64Facts RFacts NDArray GridModel GridSpec GridFacts GridOps PropertiesGrid DataModel DataSpec DataLoad PropertiesData ConvCsv
  PyModel PyStat PlotModel PlotProofs.
Local Open Scope list_scope.
Local Open Scope bool_scope.

(** ** C86: vector plots *)

(** A call that asks for the plane number [k] orthogonal to [axis], or for the depth average. *)
Definition asks_plane {F} (a : args F) (axis k : N) : Prop :=
  a_axis a = Z.of_N axis /\ a_selection a = "plane"%string /\ a_index a = Some (Z.of_N k).
Definition asks_depth {F} (a : args F) (axis : N) : Prop :=
  a_axis a = Z.of_N axis /\ a_selection a = "depth_average"%string /\ a_index a = None.
(** The number of cells along an axis. *)
Definition cells_along {F} (g : grid F) (axis : N) : N := coord axis (geom_cells (geo g)).
Definition on_plane {F} (g : grid F) (axis k : N) (c : id3) : Prop :=
  inb3 (geom_cells (geo g)) c = true /\ coord axis c = k.
(** The point ([x], [y]) of the plot at which the cells with the in-plane coordinates [ij] lie,
    and their number in row-major order. *)
Definition place {F} (g : grid F) (axis : N) (ij : N * N) (x y : F) : Prop :=
  at_ (centres g (right_axis axis)) (fst ij) x /\ at_ (centres g (up_axis axis)) (snd ij) y.
Definition rank {F} (g : grid F) (axis : N) (ij : N * N) : N := (fst ij * cells_along g (up_axis axis) + snd ij)%N.
(** An arrow is drawn from (x, y) to (x', y'). *)
Definition goes {F} (l : line) (x y x' y' : F) : Prop :=
  (exists r, l_xs l = x :: x' :: r) /\ (exists r, l_ys l = y :: y' :: r).

Section Planes.
  Context {F : Type} {NF : Num F} {TF : Trig F} {WF : Wave F}.

  Lemma cells_get (g : grid F) axis : (axis <= 2)%N -> v3get (geom_cells (geo g)) axis = Val (cells_along g axis).
  Proof.
    intros H. unfold cells_along, coord, v3get. destruct (geom_cells (geo g)) as [[i j] k].
    assert (axis = 0 \/ axis = 1 \/ axis = 2)%N as [-> | [-> | ->]] by lia; reflexivity.
  Qed.
  Lemma cells_len (g : grid F) axis : placed g -> (axis <= 2)%N -> cells_along g axis = vlen (centres g axis).
  Proof.
    intros P H. unfold cells_along. rewrite P. unfold coord, centres.
    assert (axis = 0 \/ axis = 1 \/ axis = 2)%N as [-> | [-> | ->]] by lia; reflexivity.
  Qed.
  Lemma at_ex {A} (l : list A) i : (i < vlen l)%N -> exists x, at_ l i x.
  Proof.
    intros H. unfold at_, vlen in *. destruct (nth_error l (N.to_nat i)) eqn:E; eauto. apply nth_error_None in E. lia.
  Qed.
  (** Every cell of a plane has its place. *)
  Lemma place_ex (g : grid F) axis ij : placed g -> (axis <= 2)%N ->
    inb2 (vlen (centres g (right_axis axis)), vlen (centres g (up_axis axis))) ij = true -> exists x y, place g axis ij x y.
  Proof.
    intros P H B. destruct ij as [i j]. apply inb2_lt in B. cbn [fst snd] in B.
    destruct (at_ex (centres g (right_axis axis)) i) as [x Hx]; [lia|].
    destruct (at_ex (centres g (up_axis axis)) j) as [y Hy]; [lia|]. exists x, y. split; assumption.
  Qed.
  Lemma drop_in (g : grid F) axis c k : placed g -> (axis <= 2)%N -> on_plane g axis k c ->
    inb2 (vlen (centres g (right_axis axis)), vlen (centres g (up_axis axis))) (drop axis c) = true /\ (k < cells_along g axis)%N /\
    lane axis (drop axis c) k = c.
  Proof.
    intros P H [B E]. destruct c as [[i j] l]. unfold cells_along in *. rewrite P in *. apply inb3_lt in B.
    unfold drop, coord, right_axis, up_axis, centres, lane in *.
    assert (axis = 0 \/ axis = 1 \/ axis = 2)%N as [-> | [-> | ->]] by lia; cbn in *; subst; (split; [apply inb2_lt; cbn [fst snd]; lia|]; split; [lia|reflexivity]).
  Qed.

  Lemma usize_ok (a : args F) k : a_index a = Some (Z.of_N k) -> (k < 2 ^ 64)%N -> usize_arg (a_index a) = Some (Some k).
  Proof.
    intros -> H. unfold usize_arg. destruct (andb _ _) eqn:E; [now rewrite N2Z.id|]. exfalso.
    change (2 ^ 64)%N with 18446744073709551616%N in H. change (2 ^ 64)%Z with 18446744073709551616%Z in E. lia.
  Qed.

  Lemma nonempty_first (l : list F) : (1 <= vlen l)%N -> exists x, vget l 0 = Val x.
  Proof. destruct l as [|x l]; [cbn; lia|]. intros _. now exists x. Qed.

  (** The lines of a quiver plot without rescaling. *)
  Lemma quiver_lines (p : arrows F) cmap : plottable p -> (1 <= vlen (q_x p))%N -> (1 <= vlen (q_y p))%N ->
    exists ls b, quiver_traces p n1 cmap = Val (ls, b) /\ vlen ls = (vlen (q_x p) * vlen (q_y p))%N /\
      forall i j x y, at_ (q_x p) i x -> at_ (q_y p) j y ->
        exists l, at_ ls (i * vlen (q_y p) + j) l /\
          goes l x y (nadd x (nmul (at2 (q_u p) (i, j)) n1)) (nadd y (at2 (q_v p) (i, j))).
  Proof.
    intros P Hx Hy. destruct (create_arrows_ok false p n1 P) as [ars [Ea [La Va]]].
    unfold quiver_traces. rewrite Ea. cbn [bind].
    destruct (nonempty_first _ Hx) as [x0 ->]. destruct (nonempty_first _ Hy) as [y0 ->]. cbn [bind].
    assert (Sn : sh2 (normalise_colour p) = (vlen (q_x p), vlen (q_y p))) by (apply P).
    eexists _, _. split; [reflexivity|]. split.
    { rewrite vlen_map, vlen_combine, La, (flat_len _ _ _ Sn). lia. }
    intros i j x y Ax Ay. pose proof (Va i j x y Ax Ay) as A. cbv zeta in A.
    pose proof (flat_at _ _ _ i j Sn (at_lt _ _ _ Ax) (at_lt _ _ _ Ay)) as B.
    pose proof (at_map' (fun ac => arrow_line (fst ac) (if cmap then Some (snd ac) else None)) _ _ _ (at_combine _ _ _ _ _ A B)) as C.
    eexists. split; [exact C|]. split; cbn; eexists; reflexivity.
  Qed.

  Section Quiver.
    Variables (v : vgrid F) (a : args F) (axis : N).
    Hypothesis W : wf_vector v.
    Hypothesis S : sized (geom_cells (geo (vg0 v))).
    Hypothesis Ha : (axis <= 2)%N.
    Notation g := (vg0 v).
    Notation U := (component v (right_axis axis)).
    Notation V := (component v (up_axis axis)).

    Lemma lens : (1 <= vlen (centres g (right_axis axis)))%N /\ (1 <= vlen (centres g (up_axis axis)))%N.
    Proof.
      destruct W as [P _]. rewrite P in S. unfold sized in S. unfold centres, right_axis, up_axis.
      assert (axis = 0 \/ axis = 1 \/ axis = 2)%N as [-> | [-> | ->]] by lia; cbn in *; lia.
    Qed.

    Lemma quiver_plane_ok k : (k < cells_along g axis)%N ->
      exists p, quiver_plane v axis k = Val p /\ plottable p /\ q_x p = centres g (right_axis axis) /\ q_y p = centres g (up_axis axis) /\
        q_norm p = zip2 nhypot (q_u p) (q_v p) /\ q_true p = q_norm p /\
        forall c, on_plane g axis k c -> at2 (q_u p) (drop axis c) = at3 (data U) c /\ at2 (q_v p) (drop axis c) = at3 (data V) c.
    Proof.
      intros Hk. destruct (uv_plane_ok v axis k (cells_along g axis) W Ha (cells_get g axis Ha) Hk) as [u [w [E [Su [Sw H]]]]].
      destruct (plot_axes g axis Ha) as [Ex Ey].
      unfold quiver_plane. rewrite E. cbn [bind fst snd]. rewrite zip2e_ok by congruence. cbn [bind].
      eexists. split; [reflexivity|]. unfold plottable. cbn [q_x q_y q_u q_v q_norm q_true]. rewrite Ex, Ey.
      split; [rewrite Sw, Su; auto|]. split; [reflexivity|]. split; [reflexivity|]. split; [reflexivity|]. split; [reflexivity|].
      intros c Hc. destruct (drop_in g axis c k (proj1 W) Ha Hc) as [_ [_ L]]. destruct (drop axis c) as [i j].
      destruct (H i j) as [H1 H2]. rewrite H1, H2, L. auto.
    Qed.
    Lemma quiver_depth_ok : axis <> 1%N -> exists p ua va, quiver_depth v axis = Val p /\ plottable p /\
        q_x p = centres g (right_axis axis) /\ q_y p = centres g (up_axis axis) /\
        q_norm p = zip2 nhypot (q_u p) (q_v p) /\ q_true p = q_norm p /\
        collapse U axis = Val ua /\ collapse V axis = Val va /\ q_u p = ua /\ q_v p = va.
    Proof.
      intros H1. destruct (uv_depth_ok v axis W Ha) as [u [w [E [Cu [Cw [Su Sw]]]]]].
      destruct (plot_axes g axis Ha) as [Ex Ey].
      unfold quiver_depth. rewrite E. cbn [bind fst snd]. rewrite zip2e_ok by congruence. cbn [bind].
      eexists _, u, w. split; [reflexivity|]. unfold plottable. cbn [q_x q_y q_u q_v q_norm q_true].
      rewrite (plot_axes' g axis Ha H1), Ex, Ey.
      split; [rewrite Sw, Su; auto|]. repeat (split; [reflexivity || assumption|]). reflexivity.
    Qed.

    (** One arrow per cell of the plane, from the centre of the cell along its velocity. *)
    Theorem c86_quiver_plane k : (k < cells_along g axis)%N -> (k < 2 ^ 64)%N ->
      validate a = true -> asks_plane a axis k -> a_mode a = None ->
      exists ls b, quiver_plot (FVector v) a = Val (Some (ls, b)) /\
        vlen ls = (cells_along g (right_axis axis) * cells_along g (up_axis axis))%N /\
        forall c, on_plane g axis k c -> exists x y l,
          place g axis (drop axis c) x y /\ at_ ls (rank g axis (drop axis c)) l /\
          goes l x y (nadd x (nmul (at3 (data U) c) n1)) (nadd y (at3 (data V) c)).
    Proof.
      intros Hk Hb Va [A1 [A2 A3]] Am. destruct (quiver_plane_ok k Hk) as [p [Ep [Pp [Ex [Ey [_ [_ H]]]]]]].
      pose proof (proj1 W) as P. pose proof (axes_le axis) as [L1 L2]. pose proof lens as [N1 N2].
      unfold quiver_plot. rewrite Va, (usize_ok a k A3 Hb), A1, A2, N2Z.id, Am. cbn [negb String.eqb Ascii.eqb Bool.eqb unwrap bind].
      rewrite Ep. cbn [bind rescale opt_is].
      destruct (quiver_lines p (negb (absent (get_gradient (a_cmap a)))) Pp) as [ls [b [El [Ll Vl]]]];
        [rewrite Ex; exact N1 | rewrite Ey; exact N2|]. rewrite El. cbn [bind].
      exists ls, b. split; [reflexivity|]. rewrite !(cells_len g) by assumption. rewrite Ll, Ex, Ey. split; [reflexivity|].
      intros c Hc. destruct (drop_in g axis c k P Ha Hc) as [B [_ L]].
      destruct (place_ex g axis (drop axis c) P Ha B) as [x [y Hp]]. destruct (H c Hc) as [E1 E2].
      unfold rank. rewrite (cells_len g) by assumption. destruct (drop axis c) as [i j]. destruct Hp as [Px Py]. cbn [fst snd] in *.
      rewrite <- Ex in Px. rewrite <- Ey in Py. destruct (Vl i j x y Px Py) as [l [Al Gl]].
      exists x, y, l. rewrite Ex in Px. rewrite Ey in Py. split; [split; assumption|]. rewrite <- Ey. split; [exact Al|]. rewrite <- E1, <- E2. exact Gl.
    Qed.
    (** Depth averages: the components are what [collapse] gives. *)
    Theorem c86_quiver_depth : axis <> 1%N -> validate a = true -> asks_depth a axis -> a_mode a = None ->
      exists ls b u w, quiver_plot (FVector v) a = Val (Some (ls, b)) /\ collapse U axis = Val u /\ collapse V axis = Val w /\
        vlen ls = (cells_along g (right_axis axis) * cells_along g (up_axis axis))%N /\
        forall ij, (fst ij < cells_along g (right_axis axis) /\ snd ij < cells_along g (up_axis axis))%N -> exists x y l,
          place g axis ij x y /\ at_ ls (rank g axis ij) l /\
          goes l x y (nadd x (nmul (at2 u ij) n1)) (nadd y (at2 w ij)).
    Proof.
      intros H1 Va [A1 [A2 A3]] Am. destruct (quiver_depth_ok H1) as [p [u [w [Ep [Pp [Ex [Ey [_ [_ [Cu [Cw [Eu Ew]]]]]]]]]]]].
      pose proof (proj1 W) as P. pose proof (axes_le axis) as [L1 L2]. pose proof lens as [N1 N2].
      unfold quiver_plot. rewrite Va, A1, A2, A3, N2Z.id, Am. cbn [negb String.eqb Ascii.eqb Bool.eqb unwrap bind usize_arg].
      rewrite Ep. cbn [bind rescale opt_is].
      destruct (quiver_lines p (negb (absent (get_gradient (a_cmap a)))) Pp) as [ls [b [El [Ll Vl]]]];
        [rewrite Ex; exact N1 | rewrite Ey; exact N2|]. rewrite El. cbn [bind].
      exists ls, b, u, w. split; [reflexivity|]. split; [exact Cu|]. split; [exact Cw|].
      rewrite !(cells_len g) by assumption. rewrite Ll, Ex, Ey. split; [reflexivity|].
      intros [i j] B. destruct (place_ex g axis (i, j) P Ha) as [x [y Hp]]; [apply inb2_lt; exact B|].
      unfold rank. rewrite (cells_len g) by assumption. destruct Hp as [Px Py]. cbn [fst snd] in *.
      rewrite <- Ex in Px. rewrite <- Ey in Py. destruct (Vl i j x y Px Py) as [l [Al Gl]].
      exists x, y, l. rewrite Ex in Px. rewrite Ey in Py. split; [split; assumption|]. rewrite <- Ey. split; [exact Al|].
      rewrite <- Eu, <- Ew. exact Gl.
    Qed.
  End Quiver.
End Planes.
