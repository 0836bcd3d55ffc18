(** * Properties C34-C36: number, velocity and vector fields.

    [recorded M d L]: the manager [M] in state [d] reads the data set [L] (established for both
    kinds of files, after any history of reads, by [p_recorded] and [t_recorded]).
    [observed s L]: the samples of [L] the selector lets through.  [samples_in bld ge c l]: the
    samples of [l] in cell [c]. *)
From Coq Require Import Reals List NArith ZArith Bool Lia Lra String ZifyBool ZifyN ZifyNat.
From Flocq Require Import Core.Core IEEE754.BinarySingleNaN.
From Verif Require Import Base BaseFacts Num F64Facts RFacts NDArray GridModel GridSpec GridFacts CartProofs CartR GridOps CylProofs
  VecProofs SelModel DataModel DataSpec DataProofs DataLoad PropertiesGrid PropertiesCyl PropertiesData FunModel FunSpec FunProofs FunMgr FunField.
Local Open Scope string_scope.
Local Open Scope list_scope.

(** ** Data managers *)
Theorem p_recorded (bld : build) (f : pfile f64) (st : stats f64) ops d outs :
  pf_ok f -> st_timesteps st = pf_timesteps f ->
  Forall (op_in_range (pf_timesteps f)) ops -> p_hist bld f ops = Val (d, outs) ->
  exists L, vlen L = pf_timesteps f /\ (forall t x, at_ L t x -> p_shows f t x) /\ recorded (p_mgr bld f st) d L.
Proof.
  intros OK Nt Ho E. destruct (p_reads bld f st OK Nt ops d outs Ho E) as [L [V [H1 [R Rd]]]].
  exists L. split; [exact V|]. split; [exact H1|]. split; [exact Rd|]. split; [|exact R].
  intros ->. destruct (p_nt f OK). cbn in V. lia.
Qed.
Theorem t_recorded (bld : build) (f : tfile f64) (st : stats f64) ops d outs :
  tf_ok f -> tf_rect f -> st_timesteps st = tf_timesteps f ->
  Forall (op_in_range (tf_timesteps f)) ops -> t_hist bld f ops = Val (d, outs) ->
  exists L, vlen L = tf_timesteps f /\ (forall t x, at_ L t x -> t_shows f t x) /\ recorded (t_mgr bld f st) d L.
Proof.
  intros OK Rc Nt Ho E. destruct (t_reads bld f st OK Rc Nt ops d outs Ho E) as [L [V [H1 [R Rd]]]].
  exists L. split; [exact V|]. split; [exact H1|]. split; [exact Rd|]. split; [|exact R].
  intros ->. destruct (t_nt f OK). cbn in V. lia.
Qed.

(** A manager over a list, for the examples. *)
Definition list_mgr {F} {NF : Num F} (L : list (timestep F)) (st : stats F) : mgr F :=
  mkMgr unit (fun _ t => let! x := vget L t in Val (tt, x)) (fun _ t _ => let! x := vget L t in Val (tt, x))
        (fun _ _ => Val tt) st.
Lemma list_recorded {F} {NF : Num F} (L : list (timestep F)) st : L <> [] -> Forall rect L -> st_timesteps st = vlen L ->
  recorded (list_mgr L st) tt L.
Proof.
  intros Ne R Nt. split; [|auto]. split; [exact Nt|]. exists (fun _ => True). split; [exact I|].
  intros e t x _ Hx. exists tt. split; [|exact I]. cbn [list_mgr m_get]. now rewrite (proj2 (vget_val _ _ _) Hx).
Qed.
Lemma list_aux {F} {NF : Num F} (L : list (timestep F)) st : st_timesteps st = vlen L ->
  aux_reads (fun _ _ => True) (list_mgr L st) tt L.
Proof.
  intros Nt. split; [exact Nt|]. exists (fun _ => True), (fun _ _ => True). cbn [list_mgr m_get m_getb m_setup].
  repeat split; auto.
  - intros e _. exists tt. auto.
  - intros lo e t x _ Hx. exists tt. now rewrite (proj2 (vget_val _ _ _) Hx).
  - intros lo e t x _ Hx _. exists tt. now rewrite (proj2 (vget_val _ _ _) Hx).
  - rewrite (proj2 (vget_val _ _ _) H0) in H1. now injection H1.
Qed.

(** ** Grids whose positions inside have a cell *)
Lemma cart_inside_ok {TF : Trig f64} bld (c : cart_geom f64) : sized (cc_cells c) -> inside_ok bld (Cart c).
Proof. intros S p In. cbn in *. apply cart_cell_id_in; [exact S|]. now apply cart_inside_f64. Qed.
Lemma cart_inside_ok_R {TF : Trig R} bld (c : cart_geom R) : sized (cc_cells c) -> proper (cc_lim c) -> inside_ok bld (Cart c).
Proof. intros S P p In. cbn in *. apply cart_cell_id_in_R; [exact S|exact P|]. now apply cart_inside_R. Qed.
Lemma cyl_inside_ok_R {TF : Trig R} bld nr no nz x0 x1 y0 y1 z0 z1 (g : grid R) :
  (0 < npi)%R -> (1 <= nr)%N -> (1 <= no)%N -> (1 <= nz)%N -> (x0 < x1)%R -> (y0 < y1)%R -> (z0 < z1)%R ->
  cyl_new (nr, no, nz) (ThreeD ((x0, x1), (y0, y1), (z0, z1))) true = Val g -> inside_ok bld (geo g).
Proof.
  intros Hpi Hr Ho Hz Hx Hy Hzz E p In.
  assert (W : wf_grid g) by exact (cyl_new_wf _ _ _ _ E).
  destruct (c20_inside_and_add bld nr no nz x0 x1 y0 y1 z0 z1 g g p 0 Hpi Hr Ho Hz Hx Hy Hzz E eq_refl W In) as [c [_ [C1 [C2 _]]]].
  exists c. split; [exact C1|]. destruct (cyl_new_val _ _ _ _ _ _ _ _ E) as [y [G [Cc _]]].
  rewrite G. cbn [geom_cells]. now rewrite Cc.
Qed.
Lemma new_fresh {F} {NF : Num F} {TF : Trig F} cells l b (g : grid F) :
  cart_new cells l = Val g \/ cyl_new cells l b = Val g -> fresh g.
Proof.
  intros H. assert (W : wf_grid g) by (destruct H as [H|H]; [exact (cart_new_wf _ _ _ H) | exact (cyl_new_wf _ _ _ _ H)]).
  split; [exact W|]. destruct H as [H|H].
  - unfold cart_new in H. destruct l as [|?|[[[x0 x1] [y0 y1]] [z0 z1]]], cells as [[a b'] c]; try discriminate. injection H as <-. intros i. auto.
  - unfold cyl_new in H. destruct b; [|discriminate]. cbn [negb] in H.
    destruct l as [|?|[[[x0 x1] [y0 y1]] [z0 z1]]], cells as [[a b'] c]; try discriminate. injection H as <-. intros i. auto.
Qed.

(** Counting in ideal arithmetic. *)
Lemma count_R {A} (l : list A) (w : R) : fold_left (fun w _ => nadd w n1) l w = (w + NR (vlen l))%R.
Proof.
  revert w; induction l as [|a l IH]; intros w; cbn [fold_left].
  - unfold NR, vlen. cbn. lra.
  - rewrite IH. change (nadd w n1) with (w + 1)%R. unfold vlen. cbn [List.length]. rewrite Nat2N.inj_succ, <- N.add_1_r, NR_add.
    change (NR 1) with 1%R. lra.
Qed.
Lemma fold_ones {F} {NF : Num F} {A} (l : list A) (w : F) :
  fold_left nadd (map (fun _ => n1) l) w = fold_left (fun w _ => nadd w n1) l w.
Proof. revert w; induction l as [|a l IH]; intros w; cbn; auto. Qed.
Lemma filter_true {A} (l : list A) : filter (fun _ => true) l = l.
Proof. induction l as [|a l IH]; cbn; [reflexivity | now rewrite IH]. Qed.

(** ** C34 *)
Section C34.
  Context {F : Type} {NF : Num F} {TF : Trig F}.

  (** Per cell: one addition of 1.0 per sample in it, for any geometry and number type. *)
  Lemma number_cells bld (M : mgr F) d (L : list (timestep F)) g s d' h : recorded M d L -> sel_ok s -> wf_grid g ->
    numberfield bld M d g s = Val (d', h) ->
    recorded M d' L /\ wf_grid h /\ geo h = geo g /\
    forall c, inb3 (geom_cells (geo g)) c = true ->
      at3 (data h) c = fold_left (fun w _ => nadd w n1) (samples_in bld (geo g) c (observed s L)) n0 /\
      at3 (weight h) c = fold_left (fun w _ => nadd w n1) (samples_in bld (geo g) c (observed s L)) (at3 (weight g) c).
  Proof.
    intros Rec Sk W E. destruct (new_zeros_wf g W) as [W0 G0].
    assert (Q := number_fold bld M g s L d (new_zeros g) Rec Sk).
    destruct (mfold _ (observed s L) (new_zeros g)) as [r|] eqn:Fo.
    - destruct Q as [d2 [Q R]]. unfold numberfield in E. rewrite Q in E. apply Val_pair in E. destruct E as [<- <-].
      destruct (accumulate_sound bld g (fun _ => true) (fun _ => n1) _ _ _ W0 G0 Fo) as [W1 [G1 H]].
      split; [exact R|]. split; [exact W1|]. split; [exact G1|]. intros c Hc. destruct (H c Hc) as [A B].
      rewrite filter_true in A, B. rewrite fold_ones in A. split; [exact A | exact B].
    - unfold numberfield in E. rewrite Q in E. discriminate.
  Qed.
  Lemma number_total bld (M : mgr F) d (L : list (timestep F)) g s : recorded M d L -> sel_ok s -> wf_grid g -> inside_ok bld (geo g) ->
    exists d' h, numberfield bld M d g s = Val (d', h).
  Proof.
    intros Rec Sk W Ok. destruct (new_zeros_wf g W) as [W0 G0].
    assert (Q := number_fold bld M g s L d (new_zeros g) Rec Sk).
    destruct (accumulate_total bld g (fun _ => true) (fun _ => n1) (observed s L) (new_zeros g) Ok W0 G0) as [r Fo].
    rewrite Fo in Q. destruct Q as [d' [Q _]]. exists d', r. exact Q.
  Qed.
End C34.

(** Doubles, Cartesian grids of any size and limits: the call returns, and every cell holds
    exactly the number of observed samples in it. *)
Theorem c34_number_of_samples {TF : Trig f64} (bld : build) (M : mgr f64) d L (g : grid f64) (cg : cart_geom f64) s :
  recorded M d L -> sel_ok s -> wf_grid g -> geo g = Cart cg -> sized (cc_cells cg) ->
  exists d' h, numberfield bld M d g s = Val (d', h) /\ recorded M d' L /\ geo h = geo g /\
  forall c, inb3 (cc_cells cg) c = true ->
    (vlen (samples_in bld (geo g) c (observed s L)) <= 2 ^ 53)%N ->
    is_finite (at3 (data h) c) = true /\ B2R (at3 (data h) c) = NR (vlen (samples_in bld (geo g) c (observed s L))).
Proof.
  intros Rec Sk W G Sz. destruct (number_total bld M d L g s Rec Sk W) as [d' [h E]]; [rewrite G; now apply cart_inside_ok|].
  exists d', h. split; [exact E|]. destruct (number_cells bld M d L g s d' h Rec Sk W E) as [R [_ [G' H]]].
  split; [exact R|]. split; [exact G'|]. intros c Hc Small. destruct (H c ltac:(now rewrite G)) as [-> _].
  destruct (of_Z_correct 0 ltac:(lia)) as [O1 F1].
  exact (count_exact (samples_in bld (geo g) c (observed s L)) (f64_of_Z 0) 0 F1 O1 ltac:(lia)).
Qed.
(** No sample inside is lost or counted in two cells. *)
Theorem c34_nothing_lost {TF : Trig f64} (bld : build) (g : grid f64) (cg : cart_geom f64) (l : list (sample f64)) :
  geo g = Cart cg -> sized (cc_cells cg) ->
  List.length (filter (fun m => is_inside g (sm_pos m)) l) =
  fold_right Nat.add 0 (map (fun c => List.length (samples_in bld (geo g) c l)) (ids3 (cc_cells cg))).
Proof.
  intros G Sz. assert (Q := samples_in_length_sum bld (geo g) l). rewrite G in Q at 1. specialize (Q (cart_inside_ok bld cg Sz)).
  unfold is_inside. rewrite Q. now rewrite G.
Qed.
(** Cylindrical grids in doubles: whenever the call returns, the same counts. *)
Theorem c34_cylindrical {TF : Trig f64} (bld : build) (M : mgr f64) d L (g : grid f64) s d' h :
  recorded M d L -> sel_ok s -> wf_grid g -> numberfield bld M d g s = Val (d', h) ->
  forall c, inb3 (geom_cells (geo g)) c = true ->
    (vlen (samples_in bld (geo g) c (observed s L)) <= 2 ^ 53)%N ->
    is_finite (at3 (data h) c) = true /\ B2R (at3 (data h) c) = NR (vlen (samples_in bld (geo g) c (observed s L))).
Proof.
  intros Rec Sk W E c Hc Small. destruct (number_cells bld M d L g s d' h Rec Sk W E) as [_ [_ [_ H]]].
  destruct (H c Hc) as [-> _]. destruct (of_Z_correct 0 ltac:(lia)) as [O1 F1].
  exact (count_exact (samples_in bld (geo g) c (observed s L)) (f64_of_Z 0) 0 F1 O1 ltac:(lia)).
Qed.
(** Ideal arithmetic, any new cylindrical grid: the call returns the counts. *)
Theorem c34_cylindrical_ideal {TF : Trig R} (bld : build) (M : mgr R) d L nr no nz x0 x1 y0 y1 z0 z1 (g : grid R) s :
  recorded M d L -> sel_ok s -> (0 < npi)%R -> (1 <= nr)%N -> (1 <= no)%N -> (1 <= nz)%N -> (x0 < x1)%R -> (y0 < y1)%R -> (z0 < z1)%R ->
  cyl_new (nr, no, nz) (ThreeD ((x0, x1), (y0, y1), (z0, z1))) true = Val g ->
  exists d' h, numberfield bld M d g s = Val (d', h) /\
  forall c, inb3 (nr, no, nz) c = true ->
    at3 (data h) c = NR (vlen (samples_in bld (geo g) c (observed s L))).
Proof.
  intros Rec Sk Hpi Hr Ho Hz Hx Hy Hzz E.
  assert (W : wf_grid g) by exact (cyl_new_wf _ _ _ _ E).
  destruct (number_total bld M d L g s Rec Sk W) as [d' [h Eh]]; [exact (cyl_inside_ok_R bld nr no nz x0 x1 y0 y1 z0 z1 g Hpi Hr Ho Hz Hx Hy Hzz E)|].
  exists d', h. split; [exact Eh|]. destruct (number_cells bld M d L g s d' h Rec Sk W Eh) as [_ [_ [_ H]]].
  destruct (cyl_new_val _ _ _ _ _ _ _ _ E) as [y [G [Cc _]]].
  intros c Hc. destruct (H c) as [A _]; [rewrite G; cbn [geom_cells]; now rewrite Cc|]. rewrite A.
  rewrite count_R. change (@n0 R num_R) with 0%R. lra.
Qed.
(** Composed with the particle-ordered manager, after any history of reads. *)
Theorem c34_on_a_file {TF : Trig f64} (bld : build) (f : pfile f64) (st : stats f64) ops d outs (g : grid f64) (cg : cart_geom f64) s :
  pf_ok f -> st_timesteps st = pf_timesteps f ->
  Forall (op_in_range (pf_timesteps f)) ops -> p_hist bld f ops = Val (d, outs) ->
  sel_ok s -> wf_grid g -> geo g = Cart cg -> sized (cc_cells cg) ->
  exists L d' h, vlen L = pf_timesteps f /\ (forall t x, at_ L t x -> p_shows f t x) /\
  numberfield bld (p_mgr bld f st) d g s = Val (d', h) /\
  forall c, inb3 (cc_cells cg) c = true -> (vlen (samples_in bld (geo g) c (observed s L)) <= 2 ^ 53)%N ->
    B2R (at3 (data h) c) = NR (vlen (samples_in bld (geo g) c (observed s L))).
Proof.
  intros OK Nt Ho E Sk W G Sz. destruct (p_recorded bld f st ops d outs OK Nt Ho E) as [L [V [H1 Rec]]].
  destruct (c34_number_of_samples bld (p_mgr bld f st) d L g cg s Rec Sk W G Sz) as [d' [h [Eh [_ [_ H]]]]].
  exists L, d', h. split; [exact V|]. split; [exact H1|]. split; [exact Eh|]. intros c Hc Small. now apply H.
Qed.

(** A data set of two timesteps and two particles. *)
Definition ts_ex (t : Z) (p q u v : v3 f64) : timestep f64 :=
  mkTs (d t) [p; q] [u; v] [d 1; d 1] [d 0; d 1] [d 0; d 0] [d 1; d 1] [d 1; d 2].
Definition ex_data : list (timestep f64) :=
  [ts_ex 0 (d 0, d 0, d 0) (d 1, d 1, d 1) (d 1, d 0, d 0) (d 0, d 2, d 0);
   ts_ex 1 (d 0, d 0, d 0) (d 5, d 1, d 1) (d 3, d 0, d 0) (d 0, d 2, d 0)].
Definition ex_stats (n : N) : stats f64 := mkStats n 2 (d 0, d 1, d 2) [d 0; d 1] ((d 0, d 0, d 0), (d 1, d 1, d 1)).
Example ex_data_recorded : recorded (list_mgr ex_data (ex_stats 2)) tt ex_data /\ sel_ok (sel_default (F := f64)).
Proof.
  split; [apply list_recorded; [discriminate | repeat constructor | reflexivity]|].
  repeat split; discriminate.
Qed.
Example c34_case {TF : Trig f64} :
  after (cart_new (2, 2, 2)%N (ThreeD box64)) (fun g =>
  after (numberfield Debug (list_mgr ex_data (ex_stats 2)) tt g sel_default) (fun r =>
    same (at3 (data (snd r)) (0, 0, 0)%N) (d 2) /\ same (at3 (data (snd r)) (1, 1, 1)%N) (d 1))).
Proof. vm_compute. split; reflexivity. Qed.

(** ** C35 *)
Section C35.
  Context {F : Type} {NF : Num F} {TF : Trig F}.
  (** The samples averaged in cell [c]. *)
  Definition averaged bld (g : grid F) (s : selector F) calc vmin vmax (L : list (timestep F)) c : list (sample F) :=
    filter (vel_keep calc vmin vmax) (samples_in bld (geo g) c (observed s L)).

  Lemma velocity_cells bld (M : mgr F) d (L : list (timestep F)) g s mode calc vmin vmax d' h :
    recorded M d L -> sel_ok s -> wf_grid g -> velocity_mode mode = Val calc ->
    velocityfield bld M d g s mode vmin vmax = Val (d', h) ->
    recorded M d' L /\ wf_grid h /\ geo h = geo g /\
    forall c, inb3 (geom_cells (geo g)) c = true ->
      at3 (weight h) c = fold_left (fun w _ => nadd w n1) (averaged bld g s calc vmin vmax L c) (at3 (weight g) c) /\
      at3 (data h) c = ndiv (fold_left nadd (map (fun m => calc (sm_vel m)) (averaged bld g s calc vmin vmax L c)) n0) (at3 (weight h) c).
  Proof.
    intros Rec Sk W Em E. destruct (new_zeros_wf g W) as [W0 G0].
    assert (Q := velocity_fold bld M g s calc vmin vmax L d (new_zeros g) Rec Sk). cbv zeta in Q.
    unfold velocityfield in E. rewrite Em in E. cbn [bind] in E.
    destruct (mfold _ (observed s L) (new_zeros g)) as [r|] eqn:Fo.
    - destruct Q as [d2 [Q R]].
      destruct (all_steps bld M) as [steps|]; [|discriminate Q]. cbn [bind] in Q, E. rewrite Q in E. cbn [bind fst snd] in E.
      destruct (accumulate_sound bld g _ (fun m => calc (sm_vel m)) _ _ _ W0 G0 Fo) as [W1 [G1 H]].
      apply bind_val in E. destruct E as [h' [Dv E]]. apply Val_pair in E. destruct E as [<- <-].
      destruct (divide_by_weight_val r W1) as [h2 [Dv' [Wh [Gh [Wt Dt]]]]]. rewrite Dv in Dv'. injection Dv' as <-.
      split; [exact R|]. split; [exact Wh|]. split; [congruence|]. intros c Hc. destruct (H c Hc) as [A B].
      rewrite Wt. split; [exact B|]. rewrite Dt by (rewrite G1; exact Hc). now rewrite A.
    - destruct (all_steps bld M) as [steps|]; [|discriminate E]. cbn [bind] in Q, E. rewrite Q in E. discriminate.
  Qed.
  Lemma velocity_total bld (M : mgr F) d (L : list (timestep F)) g s mode calc vmin vmax :
    recorded M d L -> sel_ok s -> wf_grid g -> inside_ok bld (geo g) -> velocity_mode mode = Val calc ->
    exists d' h, velocityfield bld M d g s mode vmin vmax = Val (d', h).
  Proof.
    intros Rec Sk W Ok Em. destruct (new_zeros_wf g W) as [W0 G0].
    assert (Q := velocity_fold bld M g s calc vmin vmax L d (new_zeros g) Rec Sk). cbv zeta in Q.
    destruct (accumulate_total bld g (vel_keep calc vmin vmax) (fun m => calc (sm_vel m)) (observed s L) (new_zeros g) Ok W0 G0) as [r Fo].
    rewrite Fo in Q. destruct Q as [d' [Q _]].
    destruct (accumulate_sound bld g _ _ _ _ _ W0 G0 Fo) as [W1 [G1 _]].
    destruct (divide_by_weight_val r W1) as [h2 [Dv _]].
    exists d', h2. unfold velocityfield. rewrite Em. cbn [bind].
    destruct (all_steps bld M) as [steps|]; [|discriminate Q]. cbn [bind] in *. rewrite Q. cbn [bind fst snd]. now rewrite Dv.
  Qed.
End C35.

(** The accepted mode strings; all others are refused. *)
Definition modes : list string := ["absolute"; "x"; "r"; "y"; "theta"; "xy"; "xz"; "yz"; "z"].
Theorem c35_unknown_mode {TF : Trig f64} (bld : build) (M : mgr f64) d g s mode vmin vmax : ~ In mode modes ->
  velocityfield bld M d g s mode vmin vmax = Panic.
Proof.
  intros H. unfold velocityfield, velocity_mode.
  repeat match goal with |- context [String.eqb mode ?m] =>
    destruct (String.eqb_spec mode m) as [-> | _]; [exfalso; apply H; cbn; tauto|] end. reflexivity.
Qed.
(** What the modes mean, in ideal arithmetic. *)
Theorem c35_modes (x y z : R) :
  let comp m := match velocity_mode m with Val f => Some (f (x, y, z)) | Panic => None end in
  comp "absolute" = Some (sqrt (x ^ 2 + y ^ 2 + z ^ 2))%R /\ comp "x" = Some x /\ comp "y" = Some y /\ comp "z" = Some z /\ comp "xy" = Some (sqrt (x ^ 2 + y ^ 2))%R /\ comp "xz" = Some (sqrt (x ^ 2 + z ^ 2))%R /\ comp "yz" = Some (sqrt (y ^ 2 + z ^ 2))%R.
Proof.
  cbn. rewrite !Rmult_1_r. repeat split; reflexivity.
Qed.

(** Doubles, Cartesian grids: the call returns; in each cell the sum of the values of exactly the
    samples to be averaged (added in recording order, as f64 additions) divided by their number; NaN where there are
    none.  [h]'s weights are those numbers. *)
Theorem c35_mean {TF : Trig f64} (bld : build) (M : mgr f64) d L (g : grid f64) (cg : cart_geom f64) s mode calc vmin vmax :
  recorded M d L -> sel_ok s -> fresh g -> geo g = Cart cg -> sized (cc_cells cg) -> velocity_mode mode = Val calc ->
  exists d' h, velocityfield bld M d g s mode vmin vmax = Val (d', h) /\ recorded M d' L /\ geo h = geo g /\ forall c, inb3 (cc_cells cg) c = true ->
    let l := averaged bld g s calc vmin vmax L c in
    (l = [] -> is_nan (at3 (data h) c) = true) /\
   ((vlen l <= 2 ^ 53)%N -> exists n : f64, is_finite n = true /\ B2R n = NR (vlen l) /\ at3 (weight h) c = n /\
      at3 (data h) c = ndiv (fold_left nadd (map (fun m => calc (sm_vel m)) l) (f64_of_Z 0)) n).
Proof.
  intros Rec Sk [W Fr] G Sz Em.
  destruct (velocity_total bld M d L g s mode calc vmin vmax Rec Sk W) as [d' [h E]]; [rewrite G; now apply cart_inside_ok | exact Em|].
  exists d', h. split; [exact E|]. destruct (velocity_cells bld M d L g s mode calc vmin vmax d' h Rec Sk W Em E) as [R [_ [G' H]]].
  split; [exact R|]. split; [exact G'|]. intros c Hc l. destruct (H c ltac:(now rewrite G)) as [B A].
  rewrite (proj2 (Fr c)) in B. split.
  - intros El. rewrite A, B. fold l. rewrite El. reflexivity.
  - intros Small. destruct (of_Z_correct 0 ltac:(lia)) as [O1 F1].
    destruct (count_exact l (f64_of_Z 0) 0 F1 O1 ltac:(lia)) as [C1 C2].
    exists (at3 (weight h) c). rewrite B. fold l. split; [exact C1|]. split; [exact C2|]. split; [reflexivity|].
    rewrite A, B. reflexivity.
Qed.
(** Ideal arithmetic: the arithmetic mean, within the limits. *)
Theorem c35_mean_ideal {TF : Trig R} (bld : build) (M : mgr R) d L (g : grid R) s mode calc vmin vmax d' h :
  recorded M d L -> sel_ok s -> fresh g -> velocity_mode mode = Val calc ->
  velocityfield bld M d g s mode vmin vmax = Val (d', h) ->
  forall c, inb3 (geom_cells (geo g)) c = true ->
    let l := averaged bld g s calc vmin vmax L c in
    l <> [] ->
    at3 (data h) c = (Rsum (map (fun m => calc (sm_vel m)) l) / INR (List.length l))%R /\
   (vmin <= at3 (data h) c <= vmax)%R.
Proof.
  intros Rec Sk [W Fr] Em E c Hc l Hl.
  destruct (velocity_cells bld M d L g s mode calc vmin vmax d' h Rec Sk W Em E) as [_ [_ [_ H]]].
  destruct (H c Hc) as [B A]. rewrite (proj2 (Fr c)) in B.
  assert (Mean : at3 (data h) c = (Rsum (map (fun m => calc (sm_vel m)) l) / INR (List.length l))%R).
  { rewrite A, B. fold l. rewrite count_R.
    change (@nadd R num_R) with Rplus. rewrite fold_left_Rplus. change (@n0 R num_R) with 0%R. cbn [ndiv num_R].
    unfold NR, vlen. rewrite nat_N_Z, <- INR_IZR_INZ. f_equal; lra. }
  split; [exact Mean|]. rewrite Mean. rewrite <- (map_length (fun m => calc (sm_vel m)) l). apply mean_bounds.
  - destruct l; [contradiction | discriminate].
  - intros v Hv. apply in_map_iff in Hv. destruct Hv as [m [<- Hm]]. unfold l, averaged in Hm. apply filter_In in Hm.
    destruct Hm as [_ Hm]. unfold vel_keep in Hm. apply andb_true_iff in Hm. destruct Hm as [_ Hm].
    apply negb_true_iff, orb_false_iff in Hm. rewrite !Rltb_false in Hm. exact Hm.
Qed.
(** Not on a grid that was used before: the old weights stay in the divisor. *)
Theorem c35_reused_grid_refuted {TF : Trig f64} :
  after (cart_new (2, 2, 2)%N (ThreeD box64)) (fun g =>
  after (velocityfield Debug (list_mgr ex_data (ex_stats 2)) tt g sel_default "x" (d 0) (d 9)) (fun r1 =>
  after (velocityfield Debug (list_mgr ex_data (ex_stats 2)) tt (snd r1) sel_default "x" (d 0) (d 9)) (fun r2 =>
    same (at3 (data (snd r1)) (0, 0, 0)%N) (d 2) /\ same (at3 (data (snd r2)) (0, 0, 0)%N) (d 1)))).
Proof. vm_compute. split; reflexivity. Qed.
(** Modes "r" and "theta" are the x and y components, on cylindrical grids too. *)
Theorem c35_cylindrical_modes_refuted {TF : Trig f64} (bld : build) (M : mgr f64) d g s vmin vmax :
  velocityfield bld M d g s "r" vmin vmax = velocityfield bld M d g s "x" vmin vmax /\
  velocityfield bld M d g s "theta" vmin vmax = velocityfield bld M d g s "y" vmin vmax.
Proof. split; reflexivity. Qed.
Example c35_case {TF : Trig f64} :
  after (cart_new (2, 2, 2)%N (ThreeD box64)) (fun g => fresh g /\
  after (velocityfield Debug (list_mgr ex_data (ex_stats 2)) tt g sel_default "absolute" (d 0) (d 9)) (fun r =>
    same (at3 (data (snd r)) (0, 0, 0)%N) (d 2) /\ same (at3 (data (snd r)) (1, 1, 1)%N) (d 2) /\
    same (at3 (data (snd r)) (0, 1, 0)%N) B754_nan)).
Proof.
  destruct (cart_new (2, 2, 2)%N (ThreeD box64)) as [g|] eqn:E; [|discriminate]. cbn [after].
  split; [exact (new_fresh _ _ true g (or_introl E))|]. injection E as <-. vm_compute. repeat split; reflexivity.
Qed.

(** ** C36 *)
Section C36.
  Context {F : Type} {NF : Num F} {TF : Trig F}.
  Definition v3i (k : N) (v : v3 F) : F := if (k =? 0)%N then fst (fst v) else if (k =? 1)%N then snd (fst v) else snd v.
  (** The samples averaged in cell [c]. *)
  Definition vectors bld (g : grid F) (s : selector F) (L : list (timestep F)) c : list (sample F) :=
    filter pos_keep (samples_in bld (geo g) c (observed s L)).

  Lemma vector_cells bld (M : mgr F) d (L : list (timestep F)) g s d' v :
    recorded M d L -> sel_ok s -> wf_grid g -> vectorfield bld M d g s = Val (d', v) ->
    recorded M d' L /\ forall k, (k <= 2)%N -> wf_grid (comp k v) /\ geo (comp k v) = geo g /\
    forall c, inb3 (geom_cells (geo g)) c = true ->
      at3 (weight (comp k v)) c = fold_left (fun w _ => nadd w n1) (vectors bld g s L c) (at3 (weight g) c) /\
      at3 (data (comp k v)) c =
        ndiv (fold_left nadd (map (fun m => v3i k (grid_velocity g m)) (vectors bld g s L c)) (at3 (data g) c))
             (at3 (weight (comp k v)) c).
  Proof.
    intros Rec Sk W E.
    assert (Q := vector_fold bld M g s L d Rec Sk). cbv zeta in Q.
    unfold vectorfield in E. rewrite vec_fold in Q. cbn [vnew vg0 vg1 vg2 vcyl] in Q.
    destruct (mfold (one_body bld g pos_keep (fun m => p0 (grid_velocity g m))) (observed s L) g) as [a|] eqn:Ea; cbn [bind] in Q;
      [|destruct (all_steps bld M); cbn [bind] in *; [rewrite Q in E|]; discriminate].
    destruct (mfold (one_body bld g pos_keep (fun m => p1 (grid_velocity g m))) (observed s L) g) as [b|] eqn:Eb; cbn [bind] in Q;
      [|destruct (all_steps bld M); cbn [bind] in *; [rewrite Q in E|]; discriminate].
    destruct (mfold (one_body bld g pos_keep (fun m => p2 (grid_velocity g m))) (observed s L) g) as [e|] eqn:Ee; cbn [bind] in Q;
      [|destruct (all_steps bld M); cbn [bind] in *; [rewrite Q in E|]; discriminate].
    destruct Q as [d2 [Q R]]. destruct (all_steps bld M) as [steps|]; [|discriminate Q]. cbn [bind] in Q, E.
    rewrite Q in E. cbn [bind fst snd] in E. apply bind_val in E. destruct E as [v' [Dv E]]. apply Val_pair in E.
    destruct E as [<- <-]. split; [exact R|].
    destruct (accumulate_sound bld g _ _ _ _ _ W eq_refl Ea) as [Wa [Ga Ha]].
    destruct (accumulate_sound bld g _ _ _ _ _ W eq_refl Eb) as [Wb [Gb Hb]].
    destruct (accumulate_sound bld g _ _ _ _ _ W eq_refl Ee) as [We [Ge He]].
    destruct (divide_by_weight_val a Wa) as [a' [Da [Wa' [Ga' [Wta Dta]]]]].
    destruct (divide_by_weight_val b Wb) as [b' [Db [Wb' [Gb' [Wtb Dtb]]]]].
    destruct (divide_by_weight_val e We) as [e' [De [We' [Ge' [Wte Dte]]]]].
    unfold v_divide_by_weight, vmapM in Dv. cbn [vg0 vg1 vg2 vcyl] in Dv. rewrite Da, Db, De in Dv. cbn [bind] in Dv. injection Dv as <-.
    intros k Hk. assert (K : k = 0%N \/ k = 1%N \/ k = 2%N) by lia.
    destruct K as [-> | [-> | ->]]; unfold comp, v3i; cbn [N.eqb Pos.eqb vg0 vg1 vg2].
    - split; [exact Wa'|]. split; [congruence|]. intros c Hc. destruct (Ha c Hc) as [A B].
      rewrite Wta. split; [exact B|]. rewrite Dta by (rewrite Ga; exact Hc). now rewrite A.
    - split; [exact Wb'|]. split; [congruence|]. intros c Hc. destruct (Hb c Hc) as [A B].
      rewrite Wtb. split; [exact B|]. rewrite Dtb by (rewrite Gb; exact Hc). now rewrite A.
    - split; [exact We'|]. split; [congruence|]. intros c Hc. destruct (He c Hc) as [A B].
      rewrite Wte. split; [exact B|]. rewrite Dte by (rewrite Ge; exact Hc). now rewrite A.
  Qed.
  Lemma vector_total bld (M : mgr F) d (L : list (timestep F)) g s :
    recorded M d L -> sel_ok s -> wf_grid g -> inside_ok bld (geo g) -> exists d' v, vectorfield bld M d g s = Val (d', v).
  Proof.
    intros Rec Sk W Ok. assert (Q := vector_fold bld M g s L d Rec Sk). cbv zeta in Q.
    unfold vectorfield. rewrite vec_fold in Q. cbn [vnew vg0 vg1 vg2 vcyl] in Q.
    destruct (accumulate_total bld g pos_keep (fun m => p0 (grid_velocity g m)) (observed s L) g Ok W eq_refl) as [a Ea].
    destruct (accumulate_total bld g pos_keep (fun m => p1 (grid_velocity g m)) (observed s L) g Ok W eq_refl) as [b Eb].
    destruct (accumulate_total bld g pos_keep (fun m => p2 (grid_velocity g m)) (observed s L) g Ok W eq_refl) as [e Ee].
    unfold one_body in Q. rewrite Ea, Eb, Ee in Q. cbn [bind] in Q. destruct Q as [d' [Q _]].
    destruct (all_steps bld M) as [steps|]; [|discriminate Q]. cbn [bind] in *. rewrite Q. cbn [bind fst snd].
    destruct (accumulate_sound bld g _ _ _ _ _ W eq_refl Ea) as [Wa _].
    destruct (accumulate_sound bld g _ _ _ _ _ W eq_refl Eb) as [Wb _].
    destruct (accumulate_sound bld g _ _ _ _ _ W eq_refl Ee) as [We _].
    destruct (divide_by_weight_val a Wa) as [a' [Da _]]. destruct (divide_by_weight_val b Wb) as [b' [Db _]].
    destruct (divide_by_weight_val e We) as [e' [De _]].
    unfold v_divide_by_weight, vmapM. cbn [vg0 vg1 vg2 vcyl]. rewrite Da, Db, De. cbn [bind]. eauto.
  Qed.
End C36.
(** Doubles, Cartesian grids: the call returns; component [k] of each cell is the sum of the samples'
    component [k] divided by their number, which is the weight in all three components. *)
Theorem c36_vector_mean {TF : Trig f64} (bld : build) (M : mgr f64) d L (g : grid f64) (cg : cart_geom f64) s :
  recorded M d L -> sel_ok s -> fresh g -> geo g = Cart cg -> sized (cc_cells cg) ->
  exists d' v, vectorfield bld M d g s = Val (d', v) /\ recorded M d' L /\
  forall k c, (k <= 2)%N -> inb3 (cc_cells cg) c = true ->
    let l := vectors bld g s L c in
    (l = [] -> is_nan (at3 (data (comp k v)) c) = true) /\
    ((vlen l <= 2 ^ 53)%N -> exists n : f64, is_finite n = true /\ B2R n = NR (vlen l) /\ at3 (weight (comp k v)) c = n /\
       at3 (data (comp k v)) c = ndiv (fold_left nadd (map (fun m => v3i k (sm_vel m)) l) (f64_of_Z 0)) n).
Proof.
  intros Rec Sk [W Fr] G Sz.
  destruct (vector_total bld M d L g s Rec Sk W) as [d' [v E]]; [rewrite G; now apply cart_inside_ok|].
  exists d', v. split; [exact E|]. destruct (vector_cells bld M d L g s d' v Rec Sk W E) as [R H].
  split; [exact R|]. intros k c Hk Hc l. destruct (H k Hk) as [_ [_ H']]. destruct (H' c ltac:(now rewrite G)) as [B A].
  rewrite (proj2 (Fr c)) in B. rewrite (proj1 (Fr c)) in A.
  assert (Same : map (fun m => v3i k (grid_velocity g m)) (vectors bld g s L c) = map (fun m => v3i k (sm_vel m)) l).
  { apply map_ext. intros m. f_equal. unfold grid_velocity, velocity_calculation, vnew. cbn [vg0 vcyl]. now rewrite G. }
  rewrite Same in A. split.
  - intros El. rewrite A, B. fold l. rewrite El. reflexivity.
  - intros Small. destruct (of_Z_correct 0 ltac:(lia)) as [O1 F1].
    destruct (count_exact l (f64_of_Z 0) 0 F1 O1 ltac:(lia)) as [C1 C2].
    exists (at3 (weight (comp k v)) c). rewrite B. fold l. split; [exact C1|]. split; [exact C2|]. split; [reflexivity|].
    rewrite A, B. reflexivity.
Qed.
(** Ideal arithmetic, any grid: the mean velocity in the coordinates of the grid (C23). *)
Theorem c36_vector_mean_ideal {TF : Trig R} (bld : build) (M : mgr R) d L (g : grid R) s d' v :
  recorded M d L -> sel_ok s -> fresh g -> vectorfield bld M d g s = Val (d', v) ->
  forall k c, (k <= 2)%N -> inb3 (geom_cells (geo g)) c = true ->
    let l := vectors bld g s L c in
    at3 (weight (comp k v)) c = INR (List.length l) /\
    (l <> [] -> at3 (data (comp k v)) c = (Rsum (map (fun m => v3i k (grid_velocity g m)) l) / INR (List.length l))%R).
Proof.
  intros Rec Sk [W Fr] E k c Hk Hc l. destruct (vector_cells bld M d L g s d' v Rec Sk W E) as [_ H].
  destruct (H k Hk) as [_ [_ H']]. destruct (H' c Hc) as [B A].
  rewrite (proj2 (Fr c)) in B. rewrite (proj1 (Fr c)) in A. rewrite count_R in B. fold l in A, B.
  assert (B' : at3 (weight (comp k v)) c = INR (List.length l)).
  { rewrite B. change (@n0 R num_R) with 0%R. unfold NR, vlen. rewrite nat_N_Z, <- INR_IZR_INZ. lra. }
  split; [exact B'|]. intros _. rewrite A, B'. change (@nadd R num_R) with Rplus. rewrite fold_left_Rplus.
  change (@n0 R num_R) with 0%R. cbn [ndiv num_R]. f_equal. lra.
Qed.
Example c36_case {TF : Trig f64} :
  after (cart_new (2, 2, 2)%N (ThreeD box64)) (fun g => fresh g /\
  after (vectorfield Debug (list_mgr ex_data (ex_stats 2)) tt g sel_default) (fun r =>
    same (at3 (data (comp 0 (snd r))) (0, 0, 0)%N) (d 2) /\ same (at3 (data (comp 1 (snd r))) (1, 1, 1)%N) (d 2) /\
    same (at3 (data (comp 0 (snd r))) (1, 1, 1)%N) (d 0) /\ same (at3 (data (comp 2 (snd r))) (0, 1, 0)%N) B754_nan)).
Proof.
  destruct (cart_new (2, 2, 2)%N (ThreeD box64)) as [g|] eqn:E; [|discriminate]. cbn [after].
  split; [exact (new_fresh _ _ true g (or_introl E))|]. injection E as <-. vm_compute. repeat split; reflexivity.
Qed.
