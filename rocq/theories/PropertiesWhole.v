(** * PropertiesWhole: parity plots of two whole scalar grids (C137, continued) *)
From Coq Require Import Reals List NArith ZArith Lia Bool ZifyBool ZifyN.
From Flocq Require Import Core.Core IEEE754.BinarySingleNaN.
From Verif Require Import Base BaseFacts Num RFacts NDArray GridModel GridSpec GridFacts CartProofs F64Facts CartR GridOps GridR PropertiesGrid VecProofs SelModel PropertiesSel DataModel DataSpec DataLoad FunModel FunSpec ConvModel PropertiesCsv FunProofs FunMgr FunField PropertiesFun FunMom FunTemp FunDisp PyModel PyItem PyStat PlotModel PlotProofs PropertiesPlot PropertiesMap PropertiesParity PropertiesPlotCheck PropertiesWrap.
Import ListNotations.

(** Point [i] pairs the number of the reference in the cell at place [i] with that of the comparison in the same cell. *)
Theorem c137_whole {F} {NF : Num F} (g h : grid F) : wf_grid g -> wf_grid h -> geom_cells (geo h) = geom_cells (geo g) ->
  let s := create_parity_scatter (pplot_all g h) in
  vlen (pairs s) = vlen (ids3 (geom_cells (geo g))) /\
  forall c i, at_ (ids3 (geom_cells (geo g))) i c -> at_ (pairs s) i (at3 (data g) c, at3 (data h) c).
Proof.
  intros [Wg _] [Wh _] Sh s. unfold s, pairs, create_parity_scatter, pplot_all, pp_of, flat3. cbn [snd pp_ref pp_comp]. rewrite Wg, Wh, Sh.
  split; [rewrite vlen_combine; unfold vlen; rewrite !map_length; lia|].
  intros c i Hi. apply at_combine; unfold at_ in *; rewrite nth_error_map, Hi; reflexivity.
Qed.
(** Its diagonal goes from the lowest to the highest number of the two grids. *)
Theorem c137_whole_diagonal (g h : grid f64) : wf_grid g -> wf_grid h -> (exists x, values_of g x) -> (exists x, values_of h x) ->
  exists lo hi, diagonal (create_parity_scatter (pplot_all g h)) lo hi /\ (values_of g lo \/ values_of h lo) /\ (values_of g hi \/ values_of h hi) /\
    forall x, values_of g x \/ values_of h x -> Bleb lo x = true /\ Bleb x hi = true.
Proof.
  intros Wg Wh [x Hx] [y Hy]. unfold pplot_all. generalize (flat3 (data g)), (flat3 (data h)). intros l m.
  destruct (pp_range (data g) (data h) l m) as [E1 [E2 [[L1 L2] [H1 H2]]]];
    [intros E; apply (numbers_values g x Wg) in Hx; now rewrite E in Hx | intros E; apply (numbers_values h y Wh) in Hy; now rewrite E in Hy|].
  revert E1 E2 L1 L2 H1 H2. generalize (pp_of (data g) (data h) l m). intros p E1 E2 L1 L2 H1 H2.
  exists (pp_xmin p), (pp_xmax p). unfold diagonal, create_parity_scatter. cbn [fst]. rewrite <- E1, <- E2. split; [reflexivity|].
  apply in_app_or in L1, H1. rewrite !numbers_values in L1, H1 by assumption. split; [exact L1|]. split; [exact H1|].
  intros z Hz. rewrite <- !numbers_values in Hz by assumption. apply in_or_app in Hz. auto.
Qed.
(** Concrete case: a field of ones against one of twos, four cells each. *)
Example c137_whole_case {TF : Trig f64} : exists g h : grid f64, wf_grid g /\ wf_grid h /\ geom_cells (geo h) = geom_cells (geo g) /\
  (exists x, values_of g x) /\ (exists x, values_of h x) /\ exists c, at_ (ids3 (geom_cells (geo g))) 1 c /\ at3 (data g) c <> at3 (data h) c.
Proof.
  assert (E0 : exists g, cart_new (F := f64) (2, 2, 1)%N (ThreeD box64) = Val g) by (eexists; reflexivity). destruct E0 as [g E].
  destruct (new_placed (2, 2, 1)%N (ThreeD box64) g (or_introl E)) as [_ C].
  set (k := fun z => mkGrid (geo g) (mkA3 (2, 2, 1)%N (fun _ => f64_of_Z z)) (mkA3 (2, 2, 1)%N (fun _ => f64_of_Z 1))).
  exists (k 1%Z), (k 2%Z). assert (W : forall z, wf_grid (k z)) by (intros z; split; cbn [k data weight geo sh3]; now rewrite C).
  split; [apply W|]. split; [apply W|]. split; [reflexivity|].
  split; [exists (f64_of_Z 1), (0, 0, 0)%N; cbn [k data geo at3]; rewrite C; split; [reflexivity|]; split; reflexivity|].
  split; [exists (f64_of_Z 2), (0, 0, 0)%N; cbn [k data geo at3]; rewrite C; split; [reflexivity|]; split; reflexivity|].
  exists (0, 1, 0)%N. cbn [k data geo at3]. rewrite C. split; [reflexivity|]. intros Q. apply (f_equal (Beqb (f64_of_Z 1))) in Q. vm_compute in Q. discriminate Q.
Qed.
