(** * PropertiesCases: concrete cases of earlier theorems

    Each example meets the hypotheses of the theorems of the property it is named after, and where it is short enough
    shows what the theorem then says of it. *)
From Coq Require Import Reals List NArith ZArith Lia Lra Bool String Permutation ZifyBool ZifyN ZifyNat.
From Flocq Require Import IEEE754.BinarySingleNaN.
From Verif Require Import Base BaseFacts Num F64Facts RFacts NDArray GridModel GridSpec GridFacts CartProofs CartR GridOps CylProofs VecProofs PolarR
  SelModel DataModel DataSpec DataProofs DataLoad PropertiesGrid PropertiesCyl PropertiesSel PropertiesData FunModel FunSpec FunProofs FunMgr PropertiesFun FunTemp
  PropertiesParts PlotModel PropertiesMap PropertiesParity PropertiesArrow PropertiesPlotCheck PyGridModel PropertiesPyGrid ConvModel ConvSort ConvCsv ConvVel ConvInterp PropertiesCsv ConvIds ConvIdChain ConvMulti PropertiesMulti ConvFitted LibConvModel PropertiesLibConv SessionSpec PropertiesPipeline.
From Verif Require Import NDArray.
Import ListNotations.
Local Open Scope string_scope.
Local Open Scope list_scope.
Local Open Scope N_scope.
Notation d := f64_of_Z.

(** ** Grids over the reals *)
Section Reals.
  Context {TF : Trig R}.
  Local Open Scope R_scope.
  Definition unit_box : lims R := ((0, 1), (0, 1), (0, 1)).
  Definition cells_321 : id3 := (3, 2, 1)%N.
  Lemma unit_axis n : (1 <= n <= 2 ^ 53 + 1)%N -> usable_axis n 0 1.
  Proof. intros H. split; [exact H | lra]. Qed.
  Lemma unit_proper : proper unit_box.
  Proof. cbn. repeat split; lra. Qed.
  Lemma unit_grid : exists (g : grid R) c, cart_new cells_321 (ThreeD unit_box) = Val g /\ geo g = Cart c /\ cc_cells c = cells_321 /\ cc_lim c = unit_box /\ wf_grid g /\
    data g = zeros3 cells_321.
  Proof.
    eexists. eexists. split; [reflexivity|]. cbn [geo data weight]. repeat (split; [reflexivity|]). split; [|reflexivity].
    apply (cart_new_wf cells_321 (ThreeD unit_box)). reflexivity.
  Qed.

  (** Three cells of one third along x: the centre 1/6 + 1/3 of the second is found in the cell the theorem names. *)
  Example c06_case : exists (g : grid R), cart_new cells_321 (ThreeD unit_box) = Val g /\ usable_axis 3 0 1 /\ usable_axis 2 0 1 /\ usable_axis 1 0 1 /\
    exists x y z, nth_error (get_xpositions g) 1 = Some x /\ nth_error (get_ypositions g) 0 = Some y /\ nth_error (get_zpositions g) 0 = Some z.
  Proof.
    eexists. split; [reflexivity|]. repeat (split; [apply unit_axis; lia|]). do 3 eexists. repeat split.
  Qed.
  Example c07_case (bld : build) : exists (g : grid R), cart_new cells_321 (ThreeD unit_box) = Val g /\ is_inside g (1, 1, 1) = true /\
    cell_id bld g (1, 1, 1) = Val (Some (2, 1, 0)%N).
  Proof.
    destruct unit_grid as [g [c [E [G [Cc [Cl [W _]]]]]]]. exists g. split; [exact E|].
    assert (I : is_inside g (1, 1, 1) = true).
    { unfold is_inside, geom_inside. rewrite G. unfold cart_inside. rewrite Cl. unfold unit_box, in_interval. cbn [fst snd nleb num_R nisnan orb]. do 2 (destruct (Rle_dec _ _); [|exfalso; lra]). reflexivity. }
    split; [exact I|].
    apply (c07_cells bld 3 2 1 0 1 0 1 0 1 g (1, 1, 1) 2 1 0); try (apply unit_axis; lia); try lia; try exact E; try exact I.
    cbn [fst snd].
    split; [apply (c07_last_is_a_point 3 0 1 1 (unit_axis 3 ltac:(lia)) ltac:(lia) ltac:(lra)); reflexivity|].
    split; [apply (c07_last_is_a_point 2 0 1 1 (unit_axis 2 ltac:(lia)) ltac:(lia) ltac:(lra)); reflexivity|].
    left. split; reflexivity.
  Qed.
  Example c08_case : exists (g : grid R) a, cart_new cells_321 (ThreeD unit_box) = Val g /\ slice g 0 (1 / 2) = Val a /\
    forall c, coord 0 c = 1%N -> at2 a (drop 0 c) = at3 (data g) c.
  Proof.
    destruct unit_grid as [g [c [E [G [Cc [Cl [W _]]]]]]]. exists g.
    destruct (c08_slice g 0 (1 / 2) 0 1 3 W ltac:(lia)) as [H _].
    - rewrite G. unfold geom_lim. rewrite Cl. reflexivity.
    - rewrite G. unfold geom_cells. rewrite Cc. reflexivity.
    - lia.
    - lra.
    - lra.
    - destruct (H ltac:(lra)) as [k [a [Hk [B [Ea Ha]]]]]. exists a. split; [exact E|]. split; [exact Ea|].
      assert (k = 1%N).
      { assert (k = 0 \/ k = 1 \/ k = 2)%N as [-> | [-> | ->]] by lia; [exfalso | reflexivity | exfalso]; unfold NR in B; cbn in B; lra. }
      subst k. exact Ha.
  Qed.
  Example c10_case (bld : build) : exists (g g' : grid R), cart_new cells_321 (ThreeD unit_box) = Val g /\
    add_trajectory_value bld g (0, 0, 0) (1, 1, 1) 6 = Val g' /\ total (data g') = total (data g) + 6 /\ total (weight g') = total (weight g) + 1.
  Proof.
    destruct unit_grid as [g [c [E [G [Cc [Cl [W _]]]]]]]. exists g.
    assert (S : sized (cc_cells c)) by (rewrite Cc; cbn; lia).
    assert (P : proper (cc_lim c)) by (rewrite Cl; apply unit_proper).
    destruct (c10_trajectory_totals bld g c (0, 0, 0) (1, 1, 1) 6 G W S P) as [g' [H1 [H2 H3]]].
    - rewrite Cl. unfold unit_box, in_box, within. cbn [fst snd nleb num_R]. do 2 (destruct (Rle_dec _ _); [|exfalso; lra]). tauto.
    - rewrite Cl. unfold unit_box, in_box, within. cbn [fst snd nleb num_R]. do 2 (destruct (Rle_dec _ _); [|exfalso; lra]). tauto.
    - exists g'. auto.
  Qed.
  Example c12_case (bld : build) : exists (g g' m : grid R), cart_new cells_321 (ThreeD unit_box) = Val g /\
    add_all bld [((1, 1, 1), 2); ((1, 1, 1), 4)] g = Val g' /\ divide_by_weight g' = Val m /\ at3 (data m) (2, 1, 0)%N = 3.
  Proof.
    destruct unit_grid as [g [c [E [G [Cc [Cl [W _]]]]]]]. exists g.
    destruct (c12_mean bld cells_321 unit_box [((1, 1, 1), 2); ((1, 1, 1), 4)] g ltac:(cbn; lia) unit_proper E) as [g' [m [H1 [H2 [_ H]]]]].
    exists g', m. split; [exact E|]. split; [exact H1|]. split; [exact H2|].
    destruct (c07_case bld) as [g2 [E2 [I2 C2]]]. assert (g2 = g) as -> by (rewrite E in E2; congruence).
    assert (Hv : hit_values bld (geo g) (2, 1, 0)%N [((1, 1, 1), 2); ((1, 1, 1), 4)] = [2; 4]).
    { unfold hit_values. cbn [filter]. unfold hits. cbn [fst]. change (geom_cell_id bld (geo g) (1, 1, 1)) with (cell_id bld g (1, 1, 1)). rewrite C2. reflexivity. }
    destruct (H (2, 1, 0)%N eq_refl) as [_ [V _]].
    { intros X. rewrite Hv in X. discriminate. }
    rewrite V, Hv. cbn [List.length INR]. rewrite !Rsum_cons, Rsum_nil. lra.
  Qed.
End Reals.

(** ** Cylindrical grids over the reals: 4 rings, 3 sectors and 2 layers in the box 0..2 x 0..1 x 0..1 *)
Section Cylinder.
  Local Open Scope R_scope.
  Definition cyl_case {TF : Trig R} := cyl_new (4, 3, 2)%N (ThreeD ((0, 2), (0, 1), (0, 1))) true.
  Lemma cyl_there {TF : Trig R} : exists g, cyl_case = Val g.
  Proof. unfold cyl_case, cyl_new. cbn [negb]. eexists. reflexivity. Qed.
  Example c19_case {TF : Trig R} : exists g y a b, cyl_case = Val g /\ geo g = Cyl y /\ yc_radius y = 1 /\
    nth_error (yc_r y) 1 = Some (a, b) /\ b * b - a * a = 1 / 4.
  Proof.
    destruct cyl_there as [g E]. destruct (c19_rings 4 3 2 0 2 0 1 0 1 g ltac:(lia) ltac:(lra) ltac:(lra) E) as [y [G [Rr [_ H]]]].
    assert (R1 : yc_radius y = 1) by (rewrite Rr, Rmax_left; lra).
    destruct (H 1%nat ltac:(vm_compute; lia)) as [a [b [Hn [_ [_ [Q _]]]]]]. exists g, y, a, b. repeat (split; [assumption|]). rewrite Q, R1. unfold NR. cbn. lra.
  Qed.
  Existing Instance trig_R.
  Example c20_case (bld : build) : exists g y i j k a b, cyl_case = Val g /\ geo g = Cyl y /\
    cell_id bld g (3 / 2, 1 / 2, 0) = Val (Some (N.of_nat i, N.of_nat j, N.of_nat k)) /\ (i < 4)%nat /\ nth_error (yc_r y) i = Some (a, b) /\ a <= 1 / 2 <= b.
  Proof.
    destruct cyl_there as [g E].
    assert (Pp : 0 < npi) by (cbn; apply PI_RGT_0).
    destruct (c20_cell_found bld 4 3 2 0 2 0 1 0 1 g (3 / 2, 1 / 2, 0) Pp ltac:(lia) ltac:(lia) ltac:(lia) ltac:(lra) ltac:(lra) ltac:(lra) E) as [y [G H]].
    destruct (c19_rings 4 3 2 0 2 0 1 0 1 g ltac:(lia) ltac:(lra) ltac:(lra) E) as [y' [G' [Rr _]]]. assert (y' = y) by congruence. subst y'.
    assert (D : axis_distance y (3 / 2, 1 / 2, 0) = 1 / 2).
    { destruct (cyl_new_val _ _ _ _ _ _ _ _ E) as [y2 [G2 [_ [_ [_ [_ [_ [_ [C _]]]]]]]]]. assert (y2 = y) by congruence. subst y2.
      unfold axis_distance. rewrite C. cbn [fst snd].
      replace ((3 / 2 - (0 + 2) / 2) * (3 / 2 - (0 + 2) / 2) + (1 / 2 - (0 + 1) / 2) * (1 / 2 - (0 + 1) / 2)) with ((1 / 2) * (1 / 2)) by lra. apply sqrt_square. lra. }
    rewrite D in H. assert (R1 : yc_radius y = 1) by (rewrite Rr, Rmax_left; lra). rewrite R1 in H.
    destruct (H ltac:(lra)) as [i [j [k [a [b [Hc [Hi [_ [_ [Hn [Hab _]]]]]]]]]]]. exists g, y, i, j, k, a, b. repeat (split; [assumption|]). exact Hab.
  Qed.
  Example c21_case (bld : build) : exists g i j k, cyl_case = Val g /\
    cell_id bld g (around_axis 0 2 0 1 (9 / 10) 0 0) = Val (Some (i, j, k)) /\ i = 3%N.
  Proof.
    destruct cyl_there as [g E].
    destruct (c21_lookup bld 4 3 2 0 2 0 1 0 1 g (9 / 10) 0 0 ltac:(lia) ltac:(lia) ltac:(lia) ltac:(lra) ltac:(lra) ltac:(lra) E ltac:(lra)) as [_ H].
    { pose proof PI_RGT_0. lra. }
    assert (Rm : Rmax ((2 - 0) / 2) ((1 - 0) / 2) = 1) by (rewrite Rmax_left; lra). rewrite Rm in H.
    destruct (H ltac:(lra)) as [i [j [k [Hc [[Hi _] [[_ B] _]]]]]]. exists g, i, j, k. split; [exact E|]. split; [exact Hc|].
    destruct (N.le_gt_cases 3 i) as [L|L]; [lia|]. exfalso.
    assert (Q : sqrt ((NR i + 1) / NR 4) <= sqrt (3 / 4)).
    { apply sqrt_le_1_alt. assert (NR i <= 2) by (change 2 with (NR 2); unfold NR; apply IZR_le; lia). change (NR 4) with 4. lra. }
    assert (S : sqrt (3 / 4) < 9 / 10). { rewrite <- (sqrt_square (9 / 10)) by lra. apply sqrt_lt_1_alt. lra. }
    lra.
  Qed.
  Example c23_case : exists g y, cyl_new (4, 3, 2)%N (ThreeD ((-1, 1), (-1, 1), (0, 1))) true = Val g /\ geo g = Cyl y /\ yc_center y = (0, 0, 1 / 2).
  Proof.
    assert (E : exists g : grid R, cyl_new (4, 3, 2)%N (ThreeD ((-1, 1), (-1, 1), (0, 1))) true = Val g) by (unfold cyl_new; cbn [negb]; eexists; reflexivity).
    destruct E as [g E]. destruct (cyl_new_val _ _ _ _ _ _ _ _ E) as [y [G [_ [_ [_ [_ [_ [_ [C _]]]]]]]]]. exists g, y. split; [exact E|]. split; [exact G|].
    rewrite C. f_equal; [f_equal|]; lra.
  Qed.
End Cylinder.

(** ** Grids of doubles *)
Section Doubles.
  Context {TF : Trig f64}.
  Example c03_case : after (cart_new (3, 2, 1) (ThreeD box64)) (fun g => after (add_value Release g (d 1, d 0, dhalf) (d 7)) (fun g' =>
    same (at3 (data g') (2, 0, 0)) (d 7) /\ same (at3 (weight g') (2, 0, 0)) (d 1) /\ same (at3 (data g') (1, 0, 0)) (d 0))).
  Proof. vm_compute. repeat split; reflexivity. Qed.
  Example c11_case : after (cart_new (3, 2, 1) (ThreeD box64)) (fun g => after (add_value Release g (d 1, d 0, dhalf) (d 7)) (fun g' =>
    same (at3 (data (new_zeros g')) (2, 0, 0)) (d 0) /\ same (at3 (weight (new_zeros g')) (2, 0, 0)) (d 1))).
  Proof. vm_compute. split; reflexivity. Qed.
  Example c16_case : after (cart_new (3, 2, 1) (ThreeD box64)) (fun g => after (add_value Release g (d 1, d 0, dhalf) (d 7)) (fun g' =>
    after (outlier_removal Release g' (d 5) 0) (fun h0 => after (outlier_removal Release g' (d 5) 1) (fun h1 =>
    same (at3 (data h0) (2, 0, 0)) (d 0) /\ same (at3 (data h1) (2, 0, 0)) (d 5))))).
  Proof. vm_compute. split; reflexivity. Qed.
  Example c27_case : let s := set_time (sel_default (F := f64)) (d 1) (d 3) in
    timestep_valid s (d 1) = true /\ timestep_valid s (d 3) = true /\ timestep_valid s (d 4) = false /\ timestep_valid s B754_nan = false.
  Proof. vm_compute. repeat split; reflexivity. Qed.
End Doubles.

(** ** Files *)
Definition one_pfile (n : N) : pfile f64 :=
  mkPf (fun i => if i <? 1 then Some (mkPg (Some (map (fun t => (nofN t, nofN t, d 0)) (range 0 n))) (Some (repeat (d 0, d 1, d 0) (N.to_nat n)))
                     (Some (repeat (d 1) (N.to_nat n))) (Some (repeat (d 2) (N.to_nat n))) (Some (repeat (d 3) (N.to_nat n))) (Some (times n)) (Some (repeat (nofN 0) (N.to_nat n)))) else None) 1 n.
Lemma one_pfile_ok n : 1 <= n <= 2 ^ 53 -> pf_ok (one_pfile n).
Proof.
  intros Hn. unfold pf_ok. cbn [pf_nparticles pf_timesteps one_pfile pf_group]. split; [lia|]. split; [exact Hn|].
  assert (L : n <= vlen (times n)) by (unfold times; rewrite PropertiesData.vlen_map, vlen_range; lia).
  assert (Lr : forall {A} (x : A), DataSpec.long (Some (repeat x (N.to_nat n))) n) by (intros A x; eexists; split; [reflexivity|]; unfold vlen; rewrite repeat_length; lia).
  assert (Ll : forall (x : f64), long_if_there (Some (repeat x (N.to_nat n))) n) by (intros x; cbn; unfold vlen; rewrite repeat_length; lia).
  split; [eexists; split; [reflexivity|]; cbn [pg_time]; eexists; split; [reflexivity | exact L]|].
  intros i Hi. destruct (N.ltb_spec i 1); [|lia]. eexists. split; [reflexivity|]. cbn [pg_position pg_velocity pg_radius pg_density pg_ptype].
  split; [eexists; split; [reflexivity|]; rewrite PropertiesData.vlen_map, vlen_range; lia|]. split; [apply Lr|]. repeat (split; [apply Ll|]). apply Ll.
Qed.
(** The file of one particle read through the buffers and directly: timestep 2. *)
Example c31_case : pf_ok (one_pfile 4) /\ row (pg_id (match pf_group (one_pfile 4) 0 with Some g => g | None => mkPg None None None None None None None end)) 2 (nofN 0) /\
  after (p_hist Debug (one_pfile 4) [ORead 1; ORead 3]) (fun r =>
  after (dm_get Debug (p_load (one_pfile 4)) 4 (fst r) 2) (fun q => after (p_read_single (one_pfile 4) 2) (fun x =>
    map B2SF (ts_radius (snd q)) = map B2SF (ts_radius x) /\ B2SF (ts_time (snd q)) = B2SF (d 2) /\ B2SF (ts_time x) = B2SF (d 2)))).
Proof. split; [apply one_pfile_ok; lia|]. split; [exists (repeat (nofN 0) 4); split; reflexivity|]. vm_compute. repeat split; reflexivity. Qed.
Example c31_t_case : Forall (op_in_range 4) [ORead 1; ORead 3] /\
  after (t_hist Debug (ex_tfile 4) [ORead 1; ORead 3]) (fun r =>
  after (dm_get Debug (t_load (ex_tfile 4)) 4 (fst r) 2) (fun q => after (t_read_single (ex_tfile 4) 2) (fun x =>
    map B2SF (ts_radius (snd q)) = map B2SF (ts_radius x) /\ B2SF (ts_time x) = B2SF (d 2)))).
Proof. split; [repeat constructor|]. vm_compute. repeat split; reflexivity. Qed.
(** The moving particles of two timesteps: speeds 1, 2, 3, 2. *)
Example c41_case {TF : Trig f64} : recorded (list_mgr ex_data (ex_stats 2)) tt ex_data /\ (vlen (moving (in_window sel_default ex_data)) = 4)%N /\
  after (mean_velocity_showcase Debug (list_mgr ex_data (ex_stats 2)) tt sel_default) (fun r => same (snd r) (d 2)).
Proof. split; [apply ex_data_recorded|]. split; vm_compute; reflexivity. Qed.
(** C118: both files are opened, and a session may read any timestep. *)
Example c118_case : pf_ok (one_pfile 4) /\ tf_ok (ex_tfile 4) /\ tf_rect (ex_tfile 4) /\
  (exists d0, dm_new Debug (p_load (one_pfile 4)) 4 = Val d0) /\ (exists d0, dm_new Debug (t_load (ex_tfile 4)) 4 = Val d0).
Proof.
  split; [apply one_pfile_ok; lia|]. split; [apply ex_tfile_ok; lia|]. split.
  - intros t x Ht [g [Hg [H1 [H2 [H3 [H4 [H5 [H6 [H7 H8]]]]]]]]]. cbn [tf_timesteps ex_tfile tf_group] in *. destruct (N.ltb_spec t 4); [|lia].
    injection Hg as <-. cbn [tg_time tg_position tg_velocity tg_radius tg_id tg_ppcloud tg_ptype tg_density] in *.
    injection H2 as H2. injection H3 as H3. injection H4 as H4. injection H5 as H5. injection H6 as H6. injection H7 as H7.
    destruct x as [a b c e f g h i]. cbn [ts_time ts_pos ts_vel ts_radius ts_clouds ts_density ts_id ts_type] in *. subst. repeat split.
  - assert (O : forall X : res (dm f64), after X (fun _ => True) -> exists d0, X = Val d0) by (intros [x|] H; [now exists x | destruct H]).
    split; apply O; vm_compute; exact I.
Qed.

(** ** Converters *)
(** The four columns of twelve lines are twelve lines of one trajectory: C107 and C108 apply to them. *)
Example c107_case : fits_all ex_line /\ Forall2 (reads_place ConvFitted.ex_cols) ex_rows (List.concat ([ex_long] ++ [[ex_place 0]])) /\ chained ([ex_long] ++ [[ex_place 0]]) /\
  filter long_enough [ex_long] = [ex_long].
Proof. split; [exact ex_fits|]. split; [exact ConvFitted.ex_reads|]. split; [exact ex_chained | reflexivity]. Qed.
Example c108_case powf : exists dur n, highest dur (f64_of_Z 0 :: map end_of [ex_long]) /\ n = 12 /\
  exists parts, Forall2 (resampled_fitted ex_line powf dur n) [ex_long] parts /\
    (forall pf h, csv_multi_chain ex_line powf ex_rows ConvFitted.ex_cols true true (d 1) = Val (pf, h) -> holds_all pf h (d 1) (fun _ => n1) parts).
Proof.
  destruct (c108_chain ex_line powf ex_rows ConvFitted.ex_cols (d 1) _ [ex_long] [ex_place 0] ex_fits ConvFitted.ex_reads ex_clean eq_refl ex_chained) as [dur [n [H1 [_ [H3 [H4 _]]]]]].
  destruct (H3 ltac:(discriminate)) as [p [[<-|[]] Hp]]. assert (n = 12) as -> by (rewrite <- Hp; reflexivity).
  destruct (H4 ltac:(lia)) as [parts [P1 [P2 _]]]. exists dur, 12. split; [exact H1|]. split; [reflexivity|]. exists parts. split; [exact P1 | exact P2].
Qed.
Example c70_case : Forall2 (Forall2 (reads ex_seven)) ex_step_files ex_step_ls /\ ~ In [] ex_step_files /\
  exists tf h, csv_multi_file_time_step ex_step_files ex_seven [d 1; d 2] = Val (tf, h) /\ tf_timesteps tf = vlen ex_step_files.
Proof.
  destruct c119_step_case as [A [B [C [D _]]]]. split; [exact B|]. split; [exact C|].
  destruct (c70_converted ex_seven ex_step_files ex_step_ls [d 1; d 2] A B C D) as [tf [h [E [H _]]]]. exists tf, h. split; assumption.
Qed.
(** Two legacy files of time steps 10 and 20. *)
Example c110_case : exists xs, Forall2 (snapshot ex_castN ex_castF (fun _ => Val ex_legacy) Legacy
    (fun n => if String.eqb n "f/10.vtk" then Val 10%Z else Val 20%Z) "v" "radius" "id" "type" None) ["f/10.vtk"; "f/20.vtk"] xs /\
  ConvVtk.in_order n0 (map (fun x => nof (fst x) * d 1)%num xs).
Proof.
  exists [(10%Z, ex_c [nof 2; nof 4] [nof 1; nof 2]); (20%Z, ex_c [nof 2; nof 4] [nof 1; nof 2])]. split.
  - constructor; [split; [reflexivity | eexists; split; [reflexivity | exact ex_legacy_particles]]|].
    constructor; [split; [reflexivity | eexists; split; [reflexivity | exact ex_legacy_particles]]|]. constructor.
  - cbn [map ConvVtk.in_order fst]. split; [vm_compute; reflexivity|]. split; [vm_compute; reflexivity | exact I].
Qed.
(** ** Plots *)
Example c94_case {F} {NF : Num F} {TF : Trig F} {WF : Wave F} : PropertiesPlotCheck.documented (F := F) (ex_plane (Some "minmax")) /\ ~ PropertiesPlotCheck.documented (F := F) (PlotModel.mkArgs 3%Z "plane" (Some 0%Z) None None None None) /\
  ~ PropertiesPlotCheck.documented (F := F) (PlotModel.mkArgs 1%Z "plane" None None None None None) /\ ~ PropertiesPlotCheck.documented (F := F) (PlotModel.mkArgs 1%Z "volume" None None None None None).
Proof.
  split; [apply c94_accepted; reflexivity|].
  split; [intros H; apply c94_accepted in H; discriminate|]. split; intros H; apply c94_accepted in H; discriminate.
Qed.

(** ** Recordings in another order: two particles swapped in the second timestep *)
Definition swapped : list (timestep f64) :=
  match two_data with
  | x :: y :: l => x :: mkTs (ts_time y) (rev (ts_pos y)) (rev (ts_vel y)) (rev (ts_radius y)) (rev (ts_id y)) (rev (ts_clouds y)) (rev (ts_density y)) (rev (ts_type y)) :: l
  | l => l end.
Example c158_case : Permutation (flat_map samples two_data) (flat_map samples swapped) /\ flat_map samples two_data <> flat_map samples swapped /\
  recorded (list_mgr two_data (ex_stats 2)) tt two_data /\ recorded (list_mgr swapped (ex_stats 2)) tt swapped.
Proof.
  split; [|split; [|split]].
  - unfold swapped, two_data. cbn [map]. do 2 apply perm_skip. apply perm_swap.
  - intros H. apply (f_equal (map (fun m => B2SF (fst (fst (sm_vel m)))))) in H. vm_compute in H. discriminate.
  - apply list_recorded; [discriminate | repeat constructor | reflexivity].
  - apply list_recorded; [discriminate | repeat constructor | reflexivity].
Qed.
