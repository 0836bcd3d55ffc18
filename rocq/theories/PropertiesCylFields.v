(** * Property C149: fields on cylindrical grids in doubles. *)
From Coq Require Import Reals List NArith ZArith Lia Lra Bool ZifyBool ZifyN.
From Flocq Require Import Core.Core IEEE754.BinarySingleNaN.
From Verif Require Import Base BaseFacts Num RFacts NDArray GridModel GridSpec GridFacts CartProofs F64Facts CartR GridOps GridR PropertiesGrid VecProofs SelModel PropertiesSel
  DataModel DataSpec DataLoad FunModel FunSpec FunProofs FunMgr FunField PropertiesFun FunMom FunTemp FloatErr FloatSum PropertiesMean CylFloat PropertiesCylFloat FloatCalc FloatVar PropertiesVar.
Import ListNotations.

(** ** Any number type, any geometry *)
Section Any.
  Context {F : Type} {NF : Num F} {TF : Trig F}.
  (** Every sample of the list that lies in the grid has a cell. *)
  Definition placed (bld : build) (ge : geom F) (l : list (sample F)) : Prop :=
    forall m, In m l -> geom_inside ge (sm_pos m) = true ->
      exists c, geom_cell_id bld ge (sm_pos m) = Val (Some c) /\ inb3 (geom_cells ge) c = true.
  Lemma accumulate_placed bld (g : grid F) (keep : sample F -> bool) (val : sample F -> F) l : forall g0,
    placed bld (geo g) l -> wf_grid g0 -> geo g0 = geo g ->
    exists g', mfold (fun h m => if keep m && is_inside g (sm_pos m) then add_value bld h (sm_pos m) (val m) else Val h) l g0 = Val g'.
  Proof.
    induction l as [|m l IH]; intros g0 Ok W G; cbn [mfold]; [eauto|].
    assert (Ok' : placed bld (geo g) l) by (intros m' H; apply Ok; now right).
    destruct (keep m && is_inside g (sm_pos m)) eqn:E; cbn [bind]; [|now apply IH].
    apply andb_true_iff in E. destruct E as [_ E]. destruct (Ok m (or_introl eq_refl) E) as [c [C1 C2]].
    destruct (add_value_in bld g0 (sm_pos m) (val m) c W) as [g1 [A _]];
      [unfold cell_id; now rewrite G | now rewrite G|].
    rewrite A. cbn [bind]. destruct (add_value_wf bld g0 _ _ g1 A W) as [W1 G1]. apply IH; [assumption..|congruence].
  Qed.
  Lemma accumulate_stuck bld (g : grid F) (keep : sample F -> bool) (val : sample F -> F) l m : In m l -> keep m = true -> is_inside g (sm_pos m) = true ->
    geom_cell_id bld (geo g) (sm_pos m) = Panic -> forall g0, wf_grid g0 -> geo g0 = geo g ->
    mfold (fun h m => if keep m && is_inside g (sm_pos m) then add_value bld h (sm_pos m) (val m) else Val h) l g0 = Panic.
  Proof.
    intros Hi K I P. induction l as [|a l IH]; intros g0 W G; [contradiction|]. cbn [mfold]. destruct Hi as [->|Hi].
    - rewrite K, I. cbn [andb]. unfold add_value, cell_id. rewrite G, P. reflexivity.
    - destruct (keep a && is_inside g (sm_pos a)); cbn [bind]; [|now apply IH].
      destruct (add_value bld g0 (sm_pos a) (val a)) as [g1|] eqn:A; cbn [bind]; [|reflexivity].
      destruct (add_value_wf bld g0 _ _ g1 A W) as [W1 G1]. apply IH; [exact Hi | exact W1 | congruence].
  Qed.
  Lemma mom_placed bld (g : grid F) l : forall m0, placed bld (geo g) l -> mom_shape (geom_cells (geo g)) m0 -> exists m, mfold (mom_body bld g sm_pos sm_vel) l m0 = Val m.
  Proof.
    induction l as [|a l IH]; intros m0 Ok S; cbn [mfold]; [eauto|]. unfold mom_body at 1, is_inside, cell_id.
    assert (Ok' : placed bld (geo g) l) by (intros m' H; apply Ok; now right).
    destruct (geom_inside (geo g) (sm_pos a)) eqn:I; cbn [negb bind]; [|now apply IH].
    destruct (Ok a (or_introl eq_refl) I) as [c [C1 C2]]. rewrite C1. cbn [bind].
    destruct (moments_add_ok _ m0 c (sm_vel a) S C2) as [m1 E]. rewrite E. cbn [bind]. apply IH; [exact Ok'|].
    exact (proj1 (proj2 (moments_add_inv _ _ _ _ _ S E))).
  Qed.
  Lemma mom_stuck bld (g : grid F) l m : In m l -> is_inside g (sm_pos m) = true -> geom_cell_id bld (geo g) (sm_pos m) = Panic ->
    forall m0, mfold (mom_body bld g sm_pos sm_vel) l m0 = Panic.
  Proof.
    intros Hi I P. induction l as [|a l IH]; intros m0; [contradiction|]. cbn [mfold]. destruct Hi as [->|Hi].
    - unfold mom_body. rewrite I. cbn [negb]. unfold cell_id. rewrite P. reflexivity.
    - destruct (mom_body bld g sm_pos sm_vel m0 a); cbn [bind]; [now apply IH | reflexivity].
  Qed.

  (** The four fields return if the observed samples have cells ... *)
  Lemma fields_placed bld (M : mgr F) d (L : list (timestep F)) g s : recorded M d L -> sel_ok s -> wf_grid g -> placed bld (geo g) (observed s L) ->
    (exists d' h, numberfield bld M d g s = Val (d', h)) /\
    (forall mode calc vmin vmax, velocity_mode mode = Val calc -> exists d' h, velocityfield bld M d g s mode vmin vmax = Val (d', h)) /\
    (exists d' v, vectorfield bld M d g s = Val (d', v)) /\
    (forall mode, In mode temp_modes -> exists d' h, granular_temperature_field bld M d g s mode = Val (d', h)).
  Proof.
    intros Rec Sk W Ok. destruct (new_zeros_wf g W) as [W0 G0]. split; [|split; [|split]].
    - assert (Q := number_fold bld M g s L d (new_zeros g) Rec Sk).
      destruct (accumulate_placed bld g (fun _ => true) (fun _ => n1) (observed s L) (new_zeros g) Ok W0 G0) as [r Fo].
      rewrite Fo in Q. destruct Q as [d' [Q _]]. exists d', r. exact Q.
    - intros mode calc vmin vmax Em. assert (Q := velocity_fold bld M g s calc vmin vmax L d (new_zeros g) Rec Sk). cbv zeta in Q.
      destruct (accumulate_placed bld g (vel_keep calc vmin vmax) (fun m => calc (sm_vel m)) (observed s L) (new_zeros g) Ok W0 G0) as [r Fo].
      rewrite Fo in Q. destruct Q as [d' [Q _]].
      destruct (accumulate_sound bld g _ _ _ _ _ W0 G0 Fo) as [W1 [G1 _]].
      destruct (divide_by_weight_val r W1) as [h2 [Dv _]].
      exists d', h2. unfold velocityfield. rewrite Em. cbn [bind].
      destruct (all_steps bld M) as [steps|]; [|discriminate Q]. cbn [bind] in *. rewrite Q. cbn [bind fst snd]. now rewrite Dv.
    - assert (Q := vector_fold bld M g s L d Rec Sk). cbv zeta in Q.
      unfold vectorfield. rewrite vec_fold in Q. cbn [vnew vg0 vg1 vg2 vcyl] in Q.
      destruct (accumulate_placed bld g pos_keep (fun m => p0 (grid_velocity g m)) (observed s L) g Ok W eq_refl) as [a Ea].
      destruct (accumulate_placed bld g pos_keep (fun m => p1 (grid_velocity g m)) (observed s L) g Ok W eq_refl) as [b Eb].
      destruct (accumulate_placed bld g pos_keep (fun m => p2 (grid_velocity g m)) (observed s L) g Ok W eq_refl) as [e Ee].
      unfold one_body in Q. rewrite Ea, Eb, Ee in Q. cbn [bind] in Q. destruct Q as [d' [Q _]].
      destruct (all_steps bld M) as [steps|]; [|discriminate Q]. cbn [bind] in *. rewrite Q. cbn [bind fst snd].
      destruct (accumulate_sound bld g _ _ _ _ _ W eq_refl Ea) as [Wa _].
      destruct (accumulate_sound bld g _ _ _ _ _ W eq_refl Eb) as [Wb _].
      destruct (accumulate_sound bld g _ _ _ _ _ W eq_refl Ee) as [We _].
      destruct (divide_by_weight_val a Wa) as [a' [Da _]]. destruct (divide_by_weight_val b Wb) as [b' [Db _]].
      destruct (divide_by_weight_val e We) as [e' [De _]].
      unfold v_divide_by_weight, vmapM. cbn [vg0 vg1 vg2 vcyl]. rewrite Da, Db, De. cbn [bind]. eauto.
    - intros mode Hm. assert (Q := temp_cells bld M d L g s mode Rec Sk W Hm).
      destruct (mom_placed bld g (observed s L) (moments_of g) Ok (moments_of_shape g W)) as [m Fo]. rewrite Fo in Q.
      destruct Q as [d' [h [E _]]]. eauto.
  Qed.
  (** ... and panic if one of those they use has not. *)
  Lemma fields_stuck bld (M : mgr F) d (L : list (timestep F)) g s m : recorded M d L -> sel_ok s -> wf_grid g ->
    In m (observed s L) -> is_inside g (sm_pos m) = true -> geom_cell_id bld (geo g) (sm_pos m) = Panic ->
    numberfield bld M d g s = Panic /\
    (forall mode calc vmin vmax, velocity_mode mode = Val calc -> vel_keep calc vmin vmax m = true -> velocityfield bld M d g s mode vmin vmax = Panic) /\
    (pos_keep m = true -> vectorfield bld M d g s = Panic) /\
    (forall mode, In mode temp_modes -> granular_temperature_field bld M d g s mode = Panic).
  Proof.
    intros Rec Sk W Hm Hi P. destruct (new_zeros_wf g W) as [W0 G0]. split; [|split; [|split]].
    - assert (Q := number_fold bld M g s L d (new_zeros g) Rec Sk).
      assert (St := accumulate_stuck bld g (fun _ => true) (fun _ => n1) (observed s L) m Hm eq_refl Hi P (new_zeros g) W0 G0). cbv beta in St. rewrite St in Q. exact Q.
    - intros mode calc vmin vmax Em K. assert (Q := velocity_fold bld M g s calc vmin vmax L d (new_zeros g) Rec Sk). cbv zeta in Q.
      assert (St := accumulate_stuck bld g (vel_keep calc vmin vmax) (fun m => calc (sm_vel m)) (observed s L) m Hm K Hi P (new_zeros g) W0 G0). cbv beta in St. rewrite St in Q.
      unfold velocityfield. rewrite Em. cbn [bind]. destruct (all_steps bld M) as [steps|]; [|reflexivity]. cbn [bind] in *. now rewrite Q.
    - intros K. assert (Q := vector_fold bld M g s L d Rec Sk). cbv zeta in Q.
      unfold vectorfield. rewrite vec_fold in Q. cbn [vnew vg0 vg1 vg2 vcyl] in Q.
      assert (St := accumulate_stuck bld g pos_keep (fun m => p0 (grid_velocity g m)) (observed s L) m Hm K Hi P g W eq_refl). cbv beta in St.
      unfold one_body in Q at 1. rewrite St in Q. cbn [bind] in Q.
      destruct (all_steps bld M) as [steps|]; [|reflexivity]. cbn [bind] in *. now rewrite Q.
    - intros mode Hmo. assert (Q := temp_cells bld M d L g s mode Rec Sk W Hmo). now rewrite (mom_stuck bld g (observed s L) m Hm Hi P) in Q.
  Qed.
  (** The cells share out the samples inside. *)
  Lemma in_just_one bld (ge : geom F) (m : sample F) : forall cs, NoDup cs ->
    fold_right Nat.add 0%nat (map (fun c => if in_cell bld ge c (sm_pos m) then 1%nat else 0%nat) cs) = if existsb (fun c => in_cell bld ge c (sm_pos m)) cs then 1%nat else 0%nat.
  Proof.
    induction cs as [|c cs IH]; intros ND; [reflexivity|]. inversion ND as [|? ? Nin ND']; subst. cbn [map fold_right existsb]. rewrite (IH ND').
    destruct (in_cell bld ge c (sm_pos m)) eqn:I; cbn [orb]; [|lia].
    assert (Z : existsb (fun c => in_cell bld ge c (sm_pos m)) cs = false).
    { destruct (existsb _ cs) eqn:Ex; [|reflexivity]. apply existsb_exists in Ex. destruct Ex as [c' [Hc' I']].
      unfold in_cell in I, I'. destruct (geom_inside ge (sm_pos m)); [|discriminate].
      destruct (geom_cell_id bld ge (sm_pos m)) as [[c0|]|]; try discriminate. cbn [andb] in *.
      apply id3_eqb_eq in I, I'. subst. contradiction. }
    rewrite Z. lia.
  Qed.
  Lemma placed_sum bld (ge : geom F) (l : list (sample F)) : placed bld ge l ->
    length (filter (fun m : sample F => geom_inside ge (sm_pos m)) l) =
    fold_right Nat.add 0%nat (map (fun c => length (samples_in bld ge c l)) (ids3 (geom_cells ge))).
  Proof.
    induction l as [|m l IH]; intros Ok.
    - cbn. induction (ids3 (geom_cells ge)) as [|c cs IHc]; [reflexivity|]. cbn. exact IHc.
    - assert (Sp : forall cs, fold_right Nat.add 0%nat (map (fun c => length (samples_in bld ge c (m :: l))) cs) =
        (fold_right Nat.add 0%nat (map (fun c => if in_cell bld ge c (sm_pos m) then 1%nat else 0%nat) cs) + fold_right Nat.add 0%nat (map (fun c => length (samples_in bld ge c l)) cs))%nat).
      { induction cs as [|c cs IHc]; [reflexivity|]. cbn [map fold_right]. rewrite IHc. unfold samples_in at 1 3. cbn [filter]. destruct (in_cell bld ge c (sm_pos m)); cbn [length]; lia. }
      rewrite Sp, (in_just_one bld ge m _ (ids3_NoDup _)). rewrite <- IH by (intros m' H; apply Ok; now right). cbn [filter].
      destruct (geom_inside ge (sm_pos m)) eqn:I.
      + destruct (Ok m (or_introl eq_refl) I) as [c [C1 C2]].
        assert (Ex : existsb (fun c => in_cell bld ge c (sm_pos m)) (ids3 (geom_cells ge)) = true).
        { apply existsb_exists. exists c. split; [now apply in_ids3|]. unfold in_cell. now rewrite I, C1, id3_eqb_refl. }
        rewrite Ex. cbn [length]. lia.
      + assert (Ex : existsb (fun c => in_cell bld ge c (sm_pos m)) (ids3 (geom_cells ge)) = false).
        { destruct (existsb _ _) eqn:X; [|reflexivity]. apply existsb_exists in X. destruct X as [c [_ X]]. unfold in_cell in X. rewrite I in X. discriminate X. }
        rewrite Ex. reflexivity.
  Qed.
End Any.

Local Open Scope R_scope.
Section Doubles.
  Context {TF : Trig f64}.
  Local Notation eps := (bpow radix2 (-53)).
  (** The radius the grid gives a position. *)
  Definition radius_of (y : cyl_geom f64) (p : pos3 f64) : f64 := fst (fst (to_cylindrical y p)).

  Section OneGrid.
    Variables (bld : build) (nr no nz : N) (x0 x1 y0 y1 z0 z1 : f64) (g0 : grid f64) (y : cyl_geom f64) (g : grid f64).
    Hypothesis (Pi : pi_sane) (Hr : (1 <= nr <= 2 ^ 40)%N) (Ho : (1 <= no <= 2 ^ 40)%N) (Hz : (1 <= nz <= 2 ^ 40)%N).
    Hypothesis (Mx : moderate x0 x1) (My : moderate y0 y1) (Mz : moderate z0 z1).
    Hypothesis (E0 : cyl_new (nr, no, nz) (ThreeD ((x0, x1), (y0, y1), (z0, z1))) true = Val g0) (G0 : geo g0 = Cyl y) (G : geo g = geo g0) (W : wf_grid g).
    Lemma placed_inside_rim l : (forall m, In m l -> is_inside g (sm_pos m) = true -> nleb (radius_of y (sm_pos m)) (rim y) = true) -> placed bld (geo g) l.
    Proof using All.
      intros Hl m Hm Hi. specialize (Hl m Hm Hi). unfold radius_of in Hl. destruct (to_cylindrical y (sm_pos m)) as [[r o] z] eqn:Cy. cbn [fst] in Hl.
      destruct (c140_lookup bld nr no nz x0 x1 y0 y1 z0 z1 g0 g y (sm_pos m) n0 Pi Hr Ho Hz Mx My Mz E0 G0 G W Hi r o z Cy Hl) as [i [j [k [a [b [g2 [C [Li [_ [_ [[Lj _] [[Lk _] _]]]]]]]]]]]].
      exists (i, j, k). split; [exact C|]. destruct (cyl_new_val64 _ _ _ _ _ _ _ _ _ _ E0) as [y' [G' [Cc _]]]. rewrite G0 in G'. injection G' as <-.
      rewrite G, G0. cbn [geom_cells]. rewrite Cc. apply inb3_lt. clear - Li Lj Lk. lia.
    Qed.
    Lemma bounded_by_rim (b : N -> f64) : (nr <= 2 ^ 20)%N -> (forall i, (i < nr)%N -> nth_error (yc_r y) (N.to_nat i) = Some (b i, b (i + 1)%N)) -> b nr = rim y ->
      forall i, (i <= nr)%N -> B2R (b i) <= B2R (rim y).
    Proof using Hr Mx My E0 G0.
      clear Ho Hz. intros Hs Nth Br. rewrite <- Br.
      assert (Up : forall j : nat, (N.of_nat j <= nr)%N -> B2R (b (nr - N.of_nat j)%N) <= B2R (b nr)).
      { induction j as [|j IH]; intros Hj; [rewrite N.sub_0_r; apply Rle_refl|]. specialize (IH ltac:(nlia)).
        assert (Hi : (nr - N.of_nat (S j) < nr)%N) by nlia. assert (Q := Nth _ Hi).
        assert (I := c140_rings_increase nr no nz x0 x1 y0 y1 z0 z1 g0 y _ _ _ E0 G0 Mx My ltac:(nlia) Hi Q).
        replace (nr - N.of_nat (S j) + 1)%N with (nr - N.of_nat j)%N in I by nlia. lra. }
      intros i Hi. specialize (Up (N.to_nat (nr - i)) ltac:(nlia)). replace (nr - N.of_nat (N.to_nat (nr - i)))%N with i in Up by nlia. exact Up.
    Qed.
    Lemma stuck_beyond_rim p : (nr <= 2 ^ 20)%N -> is_inside g p = true -> nleb (radius_of y p) (rim y) = false -> geom_cell_id bld (geo g) p = Panic.
    Proof using Hr Mx My E0 G0 G.
      clear Ho Hz. intros Hs Hi Hf. rewrite G, G0. cbn [geom_cell_id]. unfold cyl_cell_id. unfold radius_of in Hf.
      destruct (c140_rings _ _ _ _ _ _ _ _ _ _ _ E0 G0 Mx My Hr) as [bb [B0 [Brim [Len [Nth Sq]]]]].
      destruct (c140_radius _ _ _ _ _ _ _ _ _ _ _ E0 G0 Mx My) as [Fra _].
      destruct (cyl_new_val64 _ _ _ _ _ _ _ _ _ _ E0) as [y' [G' [_ [_ [_ [_ [_ [_ El]]]]]]]]. rewrite G0 in G'. injection G' as <-.
      unfold is_inside in Hi. rewrite G, G0 in Hi. cbn [geom_inside] in Hi. unfold cyl_inside in Hi.
      destruct (to_cylindrical y p) as [[r o] z] eqn:Cy. cbn [fst] in Hf. rewrite El in Hi.
      apply andb_true_iff in Hi. destruct Hi as [Hi _]. apply andb_true_iff in Hi. destruct Hi as [Hi _]. cbn [fst snd nleb num_f64] in Hi.
      assert (Fr : is_finite r = true).
      { unfold to_cylindrical in Cy. destruct p as [[p0 p1] p2], (yc_center y) as [[c0 c1] c2]. cbv zeta in Cy. cbn [nsqrt num_f64] in Cy.
        assert (Hx := f_equal (fun t => fst (fst t)) Cy). cbn [fst] in Hx. rewrite <- Hx in Hi |- *. now apply (sqrt_shape _ (yc_radius y)). }
      assert (Frim : is_finite (rim y) = true) by (rewrite <- Brim; apply Sq, N.le_refl).
      cbn [nleb num_f64] in Hf. apply not_true_iff_false in Hf. rewrite Bleb_R in Hf by assumption. apply Rnot_le_lt in Hf.
      assert (Bd := bounded_by_rim bb Hs Nth Brim).
      assert (Rn : ring_of (yc_r y) 0 r None = None).
      { apply ring_of_none. intros q Hq. apply In_nth_error in Hq. destruct Hq as [i Hq].
        assert (Li : (i < N.to_nat nr)%nat) by (rewrite <- Len; apply nth_error_Some; congruence).
        assert (Hi' : (N.of_nat i < nr)%N) by nlia. assert (Nq := Nth _ Hi'). rewrite Nat2N.id in Nq. rewrite Nq in Hq. assert (Hqq : q = (bb (N.of_nat i), bb (N.of_nat i + 1)%N)) by congruence. subst q.
        apply not_true_iff_false. rewrite holds_R; [|cbn [fst snd]; apply Sq; nlia..|exact Fr]. cbn [fst snd].
        assert (B1 := Bd (N.of_nat i + 1)%N ltac:(nlia)). lra. }
      rewrite Rn. reflexivity.
    Qed.
  End OneGrid.

  (** *** When the calls return *)
  Theorem c149_returns (bld : build) (nr no nz : N) x0 x1 y0 y1 z0 z1 (g0 g : grid f64) (y : cyl_geom f64) (M : mgr f64) d (L : list (timestep f64)) s :
    pi_sane -> (1 <= nr <= 2 ^ 40)%N -> (1 <= no <= 2 ^ 40)%N -> (1 <= nz <= 2 ^ 40)%N ->
    moderate x0 x1 -> moderate y0 y1 -> moderate z0 z1 ->
    cyl_new (nr, no, nz) (ThreeD ((x0, x1), (y0, y1), (z0, z1))) true = Val g0 -> geo g0 = Cyl y -> geo g = geo g0 -> wf_grid g ->
    recorded M d L -> sel_ok s ->
    (forall m, In m (observed s L) -> is_inside g (sm_pos m) = true -> nleb (radius_of y (sm_pos m)) (rim y) = true) ->
    (exists d' h, numberfield bld M d g s = Val (d', h)) /\
    (forall mode (calc : v3 f64 -> f64) vmin vmax, velocity_mode mode = Val calc -> exists d' h, velocityfield bld M d g s mode vmin vmax = Val (d', h)) /\
    (exists d' v, vectorfield bld M d g s = Val (d', v)) /\
    (forall mode, In mode temp_modes -> exists d' h, granular_temperature_field bld M d g s mode = Val (d', h)).
  Proof.
    intros Pi Hr Ho Hz Mx My Mz E0 G0 G W Rec Sk Hl. apply (fields_placed bld M d L g s Rec Sk W).
    exact (placed_inside_rim bld nr no nz x0 x1 y0 y1 z0 z1 g0 y g Pi Hr Ho Hz Mx My Mz E0 G0 G W _ Hl).
  Qed.
  (** With up to 2^20 rings the condition is exact: the number field returns just when no observed sample in the grid is beyond the rim. *)
  Theorem c149_returns_iff (bld : build) (nr no nz : N) x0 x1 y0 y1 z0 z1 (g0 g : grid f64) (y : cyl_geom f64) (M : mgr f64) d (L : list (timestep f64)) s :
    pi_sane -> (1 <= nr <= 2 ^ 20)%N -> (1 <= no <= 2 ^ 40)%N -> (1 <= nz <= 2 ^ 40)%N ->
    moderate x0 x1 -> moderate y0 y1 -> moderate z0 z1 ->
    cyl_new (nr, no, nz) (ThreeD ((x0, x1), (y0, y1), (z0, z1))) true = Val g0 -> geo g0 = Cyl y -> geo g = geo g0 -> wf_grid g ->
    recorded M d L -> sel_ok s ->
    let fine := forall m, In m (observed s L) -> is_inside g (sm_pos m) = true -> nleb (radius_of y (sm_pos m)) (rim y) = true in
    ((exists d' h, numberfield bld M d g s = Val (d', h)) <-> fine) /\
    (forall mode, In mode temp_modes -> (exists d' h, granular_temperature_field bld M d g s mode = Val (d', h)) <-> fine).
  Proof.
    intros Pi Hr Ho Hz Mx My Mz E0 G0 G W Rec Sk fine. assert (Hr' : (1 <= nr <= 2 ^ 40)%N) by nlia.
    assert (Ret := c149_returns bld nr no nz x0 x1 y0 y1 z0 z1 g0 g y M d L s Pi Hr' Ho Hz Mx My Mz E0 G0 G W Rec Sk). fold fine in Ret.
    assert (St : forall m, In m (observed s L) -> is_inside g (sm_pos m) = true -> nleb (radius_of y (sm_pos m)) (rim y) = false -> geom_cell_id bld (geo g) (sm_pos m) = Panic).
    { intros m Hm Hi Hf. exact (stuck_beyond_rim bld nr no nz x0 x1 y0 y1 z0 z1 g0 y g Hr' Mx My E0 G0 G (sm_pos m) (proj2 Hr) Hi Hf). }
    split; [split|intros mode Hmode; split].
    - intros [d' [h E]] m Hm Hi. apply not_false_iff_true. intros Hf. destruct (fields_stuck bld M d L g s m Rec Sk W Hm Hi (St m Hm Hi Hf)) as [A _]. congruence.
    - intros Hf. apply (Ret Hf).
    - intros [d' [h E]] m Hm Hi. apply not_false_iff_true. intros Hf. destruct (fields_stuck bld M d L g s m Rec Sk W Hm Hi (St m Hm Hi Hf)) as [_ [_ [_ A]]]. specialize (A mode Hmode). congruence.
    - intros Hf. destruct (Ret Hf) as [_ [_ [_ A]]]. exact (A mode Hmode).
  Qed.

  (** *** What they return, on any grid *)
  Lemma in_observed s (L : list (timestep f64)) m : In m (observed s L) -> In m (all_samples L).
  Proof. unfold observed. intros H. now apply filter_In in H as [H _]. Qed.
  Theorem c149_velocity (bld : build) (M : mgr f64) d (L : list (timestep f64)) (g : grid f64) s mode (calc : v3 f64 -> f64) vmin vmax d' h :
    recorded M d L -> sel_ok s -> fresh g -> velocity_mode mode = Val calc ->
    ordinary vmin -> ordinary vmax -> (vlen (all_samples L) < 2 ^ 52)%N ->
    velocityfield bld M d g s mode vmin vmax = Val (d', h) ->
    forall c, inb3 (geom_cells (geo g)) c = true -> let l := averaged bld g s calc vmin vmax L c in l <> [] ->
      mean_close (at3 (data h) c) (map (fun m => calc (sm_vel m)) l).
  Proof.
    intros Rec Sk [W Fr] Em O1 O2 Small E c Hc l Ne. destruct (velocity_cells bld M d L g s mode calc vmin vmax d' h Rec Sk W Em E) as [_ [_ [_ H]]].
    destruct (H c Hc) as [Hw Hd]. fold l in Hw, Hd. rewrite (proj2 (Fr c)) in Hw.
    assert (Len : (vlen l <= vlen (all_samples L))%N).
    { unfold l, averaged, samples_in, observed. unfold vlen. assert (X1 := filter_len (chosen s) (all_samples L)).
      match goal with |- context [filter ?f (filter ?g0 ?x)] => assert (X2 := filter_len f (filter g0 x)); assert (X3 := filter_len g0 x) end.
      unfold all_samples in *. clear - X1 X2 X3. lia. }
    assert (Small' : (vlen l < 2 ^ 52)%N) by (clear - Len Small; lia).
    destruct (of_Z_correct 0 ltac:(clear; lia)) as [Q1 F1].
    destruct (count_exact l (f64_of_Z 0) 0 F1 Q1 ltac:(clear - Small'; lia)) as [_ Cn]. change (0 + vlen l)%N with (vlen l) in Cn.
    rewrite Hd, Hw. apply mean_of.
    - apply Forall_forall. intros v Hv. apply in_map_iff in Hv as [m [<- Hi]]. apply averaged_in in Hi as [_ K].
      destruct (kept_between calc vmin vmax m (proj1 O1) (proj1 O2) K) as [F2 B]. split; [exact F2|].
      destruct O1 as [_ O1], O2 as [_ O2]. apply Rabs_le_inv in O1, O2. apply Rabs_le. lra.
    - destruct l; [now destruct Ne | discriminate].
    - unfold vlen in *. rewrite map_length. exact Small'.
    - unfold vlen. rewrite map_length. exact Cn.
  Qed.
  Theorem c149_vector (bld : build) (M : mgr f64) d (L : list (timestep f64)) (g : grid f64) s d' v :
    recorded M d L -> sel_ok s -> fresh g ->
    (forall m, In m (all_samples L) -> let '(a, b, c) := grid_velocity g m in ordinary a /\ ordinary b /\ ordinary c) -> (vlen (all_samples L) < 2 ^ 52)%N ->
    vectorfield bld M d g s = Val (d', v) ->
    forall k c, (k <= 2)%N -> inb3 (geom_cells (geo g)) c = true -> let l := vectors bld g s L c in l <> [] ->
      mean_close (at3 (data (comp k v)) c) (map (fun m => v3i k (grid_velocity g m)) l).
  Proof.
    intros Rec Sk [W Fr] O Small E k c Hk Hc l Ne. destruct (vector_cells bld M d L g s d' v Rec Sk W E) as [_ H]. destruct (H k Hk) as [_ [_ H']].
    destruct (H' c Hc) as [Hw Hd]. fold l in Hw, Hd. rewrite (proj2 (Fr c)) in Hw. rewrite (proj1 (Fr c)) in Hd.
    assert (Len : (vlen l <= vlen (all_samples L))%N).
    { unfold l, vectors, samples_in, observed. unfold vlen. assert (X1 := filter_len (chosen s) (all_samples L)).
      match goal with |- context [filter ?f (filter ?g0 ?x)] => assert (X2 := filter_len f (filter g0 x)); assert (X3 := filter_len g0 x) end.
      unfold all_samples in *. clear - X1 X2 X3. lia. }
    assert (Small' : (vlen l < 2 ^ 52)%N) by (clear - Len Small; lia).
    destruct (of_Z_correct 0 ltac:(clear; lia)) as [Q1 F1].
    destruct (count_exact l (f64_of_Z 0) 0 F1 Q1 ltac:(clear - Small'; lia)) as [_ Cn]. change (0 + vlen l)%N with (vlen l) in Cn.
    rewrite Hd, Hw. apply mean_of.
    - apply Forall_forall. intros w Hv. apply in_map_iff in Hv as [m [<- Hi]]. apply vectors_in in Hi. specialize (O m Hi).
      destruct (grid_velocity g m) as [[a b] e]. destruct (axis_cases k Hk) as [-> | [-> | ->]]; apply O.
    - destruct l; [now destruct Ne | discriminate].
    - unfold vlen in *. rewrite map_length. exact Small'.
    - unfold vlen. rewrite map_length. exact Cn.
  Qed.
  (** The number field: exact counts, adding up to the samples inside. *)
  Theorem c149_number (bld : build) (nr no nz : N) x0 x1 y0 y1 z0 z1 (g0 g : grid f64) (y : cyl_geom f64) (M : mgr f64) d (L : list (timestep f64)) s :
    pi_sane -> (1 <= nr <= 2 ^ 40)%N -> (1 <= no <= 2 ^ 40)%N -> (1 <= nz <= 2 ^ 40)%N ->
    moderate x0 x1 -> moderate y0 y1 -> moderate z0 z1 ->
    cyl_new (nr, no, nz) (ThreeD ((x0, x1), (y0, y1), (z0, z1))) true = Val g0 -> geo g0 = Cyl y -> geo g = geo g0 -> wf_grid g ->
    recorded M d L -> sel_ok s -> (vlen (all_samples L) <= 2 ^ 53)%N ->
    (forall m, In m (observed s L) -> is_inside g (sm_pos m) = true -> nleb (radius_of y (sm_pos m)) (rim y) = true) ->
    exists d' h, numberfield bld M d g s = Val (d', h) /\
      (forall c, inb3 (nr, no, nz) c = true -> is_finite (at3 (data h) c) = true /\ B2R (at3 (data h) c) = NR (vlen (samples_in bld (geo g) c (observed s L)))) /\
      Rsum (map (fun c => B2R (at3 (data h) c)) (ids3 (nr, no, nz))) = NR (vlen (filter (fun m => is_inside g (sm_pos m)) (observed s L))).
  Proof.
    intros Pi Hr Ho Hz Mx My Mz E0 G0 G W Rec Sk Small Hl.
    assert (Pl := placed_inside_rim bld nr no nz x0 x1 y0 y1 z0 z1 g0 y g Pi Hr Ho Hz Mx My Mz E0 G0 G W _ Hl).
    destruct (proj1 (fields_placed bld M d L g s Rec Sk W Pl)) as [d' [h E]]. exists d', h. split; [exact E|].
    assert (Cc : geom_cells (geo g) = (nr, no, nz)).
    { destruct (cyl_new_val64 _ _ _ _ _ _ _ _ _ _ E0) as [y' [G' [Cc _]]]. rewrite G, G'. exact Cc. }
    assert (Hn : forall c, inb3 (nr, no, nz) c = true -> is_finite (at3 (data h) c) = true /\ B2R (at3 (data h) c) = NR (vlen (samples_in bld (geo g) c (observed s L)))).
    { intros c Hc. apply (c34_cylindrical bld M d L g s d' h Rec Sk W E); [now rewrite Cc|].
      unfold samples_in, observed, vlen. assert (A := filter_len (fun m => in_cell bld (geo g) c (sm_pos m)) (filter (chosen s) (flat_map samples L))). assert (B := filter_len (chosen s) (flat_map samples L)).
      unfold all_samples, vlen in Small. clear - A B Small. lia. }
    split; [exact Hn|].
    transitivity (Rsum (map (fun c => INR (length (samples_in bld (geo g) c (observed s L)))) (ids3 (nr, no, nz)))).
    { apply f_equal, map_ext_in. intros c Hc. apply in_ids3 in Hc. rewrite (proj2 (Hn c Hc)). apply vlen_INR. }
    rewrite vlen_INR. unfold is_inside. assert (Sum := placed_sum bld (geo g) _ Pl). rewrite Cc in Sum. rewrite Sum. clear.
    induction (ids3 (nr, no, nz)) as [|c cs IH]; cbn [map fold_right]; [now rewrite Rsum_nil|]. rewrite Rsum_cons, plus_INR, IH. reflexivity.
  Qed.
End Doubles.

(** The hypotheses are met by a grid of 6 x 8 x 5 cells around the axis and the four samples of [ex_data], three of which are within the rim. *)
Example c149_case {TF : Trig f64} : pi_sane -> (forall a b : f64, in_interval (nneg npi, npi) (natan2 a b) = true) ->
  moderate (d (-4)) (d 4) /\ recorded (list_mgr ex_data (PropertiesFun.ex_stats 2)) tt ex_data /\ sel_ok (sel_default (F := f64)) /\
  exists (g : grid f64) (y : cyl_geom f64),
    cyl_new (6, 8, 5)%N (ThreeD ((d (-4), d 4), (d (-4), d 4), (d (-4), d 4))) true = Val g /\ geo g = Cyl y /\ fresh g /\
    (forall m, In m (observed sel_default ex_data) -> is_inside g (sm_pos m) = true -> nleb (radius_of y (sm_pos m)) (rim y) = true) /\
    vlen (filter (fun m => is_inside g (sm_pos m)) (observed sel_default ex_data)) = 3%N.
Proof.
  intros Pi At. assert (Mx : moderate (d (-4)) (d 4)) by (apply moderate_ints; lia). destruct ex_data_recorded as [A B]. split; [exact Mx|]. split; [exact A|]. split; [exact B|].
  destruct (cyl_new (6, 8, 5)%N (ThreeD ((d (-4), d 4), (d (-4), d 4), (d (-4), d 4))) true) as [g|] eqn:E; [|discriminate E].
  destruct (cyl_new_val64 _ _ _ _ _ _ _ _ _ _ E) as [y [G [_ [Ra [Er [_ [_ [Ce El]]]]]]]]. exists g, y. split; [reflexivity|]. split; [exact G|].
  split; [exact (new_fresh _ _ true g (or_intror E))|].
  assert (Hr : forall m, In m (observed sel_default ex_data) -> nleb (radius_of y (sm_pos m)) (yc_radius y) = nleb (radius_of y (sm_pos m)) (rim y) /\
     match to_cylindrical y (sm_pos m) with (_, o, z) => in_interval (nneg npi, npi) o = true /\ in_interval (d (-4), d 4) z = true end).
  { intros m Hm. split.
    - unfold rim, radius_of, to_cylindrical. rewrite Er, Ce, Ra. cbv beta zeta.
      repeat (destruct Hm as [<- | Hm]; [vm_compute; reflexivity|]). destruct Hm.
    - unfold to_cylindrical. rewrite Ce. destruct (sm_pos m) as [[a b] e] eqn:Q. split; [apply At|].
      repeat (destruct Hm as [<- | Hm]; [injection Q as <- <- <-; vm_compute; reflexivity|]). destruct Hm. }
  split.
  { intros m Hm Hi. destruct (Hr m Hm) as [X _]. rewrite <- X. unfold is_inside in Hi. rewrite G in Hi. cbn [geom_inside] in Hi. unfold cyl_inside in Hi. rewrite El in Hi. unfold radius_of.
    destruct (to_cylindrical y (sm_pos m)) as [[r o] z]. apply andb_true_iff in Hi. destruct Hi as [Hi _]. apply andb_true_iff in Hi. exact (proj1 Hi). }
  assert (X : filter (fun m => is_inside g (sm_pos m)) (observed sel_default ex_data) = filter (fun m => nleb (radius_of y (sm_pos m)) (yc_radius y)) (observed sel_default ex_data)).
  { apply filter_ext_in. intros m Hm. destruct (Hr m Hm) as [_ Y]. unfold is_inside, radius_of. rewrite G. cbn [geom_inside]. unfold cyl_inside. rewrite El.
    destruct (to_cylindrical y (sm_pos m)) as [[r o] z]. destruct Y as [Y1 Y2]. rewrite Y1, Y2. cbn [fst]. now rewrite !andb_true_r. }
  rewrite X. unfold radius_of, to_cylindrical. rewrite Ce, Ra. vm_compute. reflexivity.
Qed.
(** ... while on the same grid a sample at the distance 4 from the axis, which the grid accepts, stops the calls. *)
Definition rim_data : list (timestep f64) := [ts_ex 0 (d 4, d 0, d 0) (d 1, d 1, d 1) (d 1, d 0, d 0) (d 0, d 2, d 0)].
Example c149_stops {TF : Trig f64} : pi_sane -> (forall a b : f64, in_interval (nneg npi, npi) (natan2 a b) = true) ->
  exists g : grid f64, cyl_new (6, 8, 5)%N (ThreeD ((d (-4), d 4), (d (-4), d 4), (d (-4), d 4))) true = Val g /\
    is_inside g (d 4, d 0, d 0) = true /\ numberfield Debug (list_mgr rim_data (PropertiesFun.ex_stats 1)) tt g (sel_default (F := f64)) = Panic.
Proof.
  intros Pi At. assert (Mx : moderate (d (-4)) (d 4)) by (apply moderate_ints; lia).
  assert (A : recorded (list_mgr rim_data (PropertiesFun.ex_stats 1)) tt rim_data) by (apply list_recorded; [discriminate | repeat constructor | reflexivity]).
  destruct (cyl_new (6, 8, 5)%N (ThreeD ((d (-4), d 4), (d (-4), d 4), (d (-4), d 4))) true) as [g|] eqn:E; [|discriminate E].
  destruct (cyl_new_val64 _ _ _ _ _ _ _ _ _ _ E) as [y [G [_ [Ra [Er [_ [_ [Ce El]]]]]]]]. exists g. split; [reflexivity|].
  assert (Hi : is_inside g (d 4, d 0, d 0) = true).
  { unfold is_inside. rewrite G. cbn [geom_inside]. unfold cyl_inside, to_cylindrical. rewrite El, Ce, At, Ra. vm_compute. reflexivity. }
  split; [exact Hi|].
  assert (Hm : exists m, In m (observed sel_default rim_data) /\ sm_pos m = (d 4, d 0, d 0)) by (eexists; split; [left; reflexivity | reflexivity]). destruct Hm as [m [Hm Pm]].
  rewrite <- Pm in Hi.
  assert (W : wf_grid g) by exact (cyl_new_wf _ _ _ _ E).
  apply (fields_stuck Debug (list_mgr rim_data (PropertiesFun.ex_stats 1)) tt rim_data g sel_default _ A ltac:(repeat split; discriminate) W Hm Hi).
  apply (stuck_beyond_rim Debug 6 8 5 (d (-4)) (d 4) (d (-4)) (d 4) (d (-4)) (d 4) g y g ltac:(lia) Mx Mx E G eq_refl); [lia | exact Hi|].
  rewrite Pm. unfold rim, radius_of, to_cylindrical. rewrite Er, Ce, Ra. vm_compute. reflexivity.
Qed.
