(** * Properties C39, C41, C42: granular temperature, mean velocity, homogeneity index. *)
From Coq Require Import Reals List NArith ZArith Bool Lia Lra String ZifyBool ZifyN ZifyNat.
From Flocq Require Import Core.Core IEEE754.BinarySingleNaN.
From Verif Require Import Base BaseFacts Num F64Facts RFacts NDArray GridModel GridSpec GridFacts CartProofs CartR GridOps
  SelModel DataModel DataSpec DataProofs PropertiesGrid PropertiesData FunModel FunSpec FunProofs FunMgr FunField PropertiesFun FunOcc FunMom.
Local Open Scope string_scope.
Local Open Scope list_scope.

Section Gen.
  Context {F : Type} {NF : Num F} {TF : Trig F}.

  Lemma zip3_at {G H} (f : F -> G -> H) a b r : sh3 a = sh3 b -> zip3 f a b = Val r ->
    sh3 r = sh3 a /\ forall c, inb3 (sh3 a) c = true -> at3 r c = f (at3 a c) (at3 b c).
  Proof.
    intros E Z. rewrite zip3_same in Z by exact E. injection Z as <-. cbn [sh3 at3]. split; [reflexivity|].
    intros c Hc. now rewrite bidx3_in.
  Qed.
  Lemma zip3_ok {G H} (f : F -> G -> H) a b : sh3 a = sh3 b -> exists r, zip3 f a b = Val r.
  Proof. intros E. rewrite zip3_same by exact E. eauto. Qed.

  (** The value of a cell for one axis, and the final value. *)
  Definition fluct_at (m : moments F) (k : N) (c : id3) : F :=
    nsub (at3 (v3i k (m_sq m)) c) (ndiv (nmul (at3 (v3i k (m_sum m)) c) (at3 (v3i k (m_sum m)) c)) (at3 (m_n m) c)).
  Definition temp_at (m : moments F) (mode : string) (c : id3) : F :=
    let v := if String.eqb mode "x" then fluct_at m 0 c
             else if String.eqb mode "y" then fluct_at m 1 c
             else if String.eqb mode "z" then fluct_at m 2 c
             else ndiv (nadd (nadd (fluct_at m 0 c) (fluct_at m 1 c)) (fluct_at m 2 c)) (nof 3) in
    nsqrt (ndiv v (at3 (m_n m) c)).

  Lemma v3get_v3i {A} (v : v3 A) k : (k <= 2)%N -> v3get v k = Val (v3i k v).
  Proof. destruct v as [[a b] c]. intros H. destruct (le2 k H) as [-> | [-> | ->]]; reflexivity. Qed.

  Lemma fluct_val sh m k : mom_shape sh m -> (k <= 2)%N ->
    exists r, fluct m k = Val r /\ sh3 r = sh /\ forall c, inb3 sh c = true -> at3 r c = fluct_at m k c.
  Proof.
    intros [S1 S2] Hk. destruct (S1 k Hk) as [Sq Ss]. unfold fluct. rewrite !v3get_v3i by exact Hk. cbn [bind].
    destruct (zip3_ok nmul (v3i k (m_sum m)) (v3i k (m_sum m)) eq_refl) as [a Ea]. rewrite Ea. cbn [bind].
    destruct (zip3_at _ _ _ _ eq_refl Ea) as [Sa Ha].
    destruct (zip3_ok ndiv a (m_n m) ltac:(congruence)) as [b Eb]. rewrite Eb. cbn [bind].
    destruct (zip3_at ndiv a (m_n m) b ltac:(congruence) Eb) as [Sb Hb].
    destruct (zip3_ok nsub (v3i k (m_sq m)) b ltac:(congruence)) as [r Er]. rewrite Er.
    destruct (zip3_at nsub (v3i k (m_sq m)) b r ltac:(congruence) Er) as [Sr Hr].
    exists r. split; [reflexivity|]. split; [congruence|]. intros c Hc. unfold fluct_at.
    rewrite Hr by (rewrite Sq; exact Hc). rewrite Hb by (rewrite Sa, Ss; exact Hc). rewrite Ha by (rewrite Ss; exact Hc). reflexivity.
  Qed.

  Definition temp_modes : list string := ["x"; "y"; "z"; "xyz"].
  Lemma gran_temp_val sh m mode : mom_shape sh m -> In mode temp_modes ->
    exists r, gran_temp m mode = Val r /\ sh3 r = sh /\ forall c, inb3 sh c = true -> at3 r c = temp_at m mode c.
  Proof.
    intros S Hm. unfold gran_temp.
    destruct (fluct_val sh m 0 S ltac:(lia)) as [fx [Ex [Sx Hx]]]. destruct (fluct_val sh m 1 S ltac:(lia)) as [fy [Ey [Sy Hy]]].
    destruct (fluct_val sh m 2 S ltac:(lia)) as [fz [Ez [Sz Hz]]]. rewrite Ex, Ey, Ez. cbn [bind]. destruct S as [S1 S2].
    assert (Fin : forall t, sh3 t = sh -> (forall c, inb3 sh c = true ->
        at3 t c = (if String.eqb mode "x" then fluct_at m 0 c else if String.eqb mode "y" then fluct_at m 1 c
             else if String.eqb mode "z" then fluct_at m 2 c
             else ndiv (nadd (nadd (fluct_at m 0 c) (fluct_at m 1 c)) (fluct_at m 2 c)) (nof 3))) ->
        exists r, (let! t := zip3 ndiv t (m_n m) in Val (map3 nsqrt t)) = Val r /\ sh3 r = sh /\
          forall c, inb3 sh c = true -> at3 r c = temp_at m mode c).
    { intros t St Ht. destruct (zip3_ok ndiv t (m_n m) ltac:(congruence)) as [u Eu]. rewrite Eu. cbn [bind].
      destruct (zip3_at ndiv t (m_n m) u ltac:(congruence) Eu) as [Su Hu]. eexists. split; [reflexivity|]. cbn [map3 sh3 at3].
      split; [congruence|]. intros c Hc. unfold temp_at. rewrite Hu by congruence. rewrite Ht by exact Hc. reflexivity. }
    cbn [temp_modes In] in Hm. destruct Hm as [<- | [<- | [<- | [<- | []]]]].
    - change ("x" =? "x")%string with true. cbn [bind]. apply Fin; [exact Sx | exact Hx].
    - change ("y" =? "x")%string with false. change ("y" =? "y")%string with true. cbn [bind]. apply Fin; [exact Sy | exact Hy].
    - change ("z" =? "x")%string with false. change ("z" =? "y")%string with false. change ("z" =? "z")%string with true. cbn [bind].
      apply Fin; [exact Sz | exact Hz].
    - change ("xyz" =? "x")%string with false. change ("xyz" =? "y")%string with false. change ("xyz" =? "z")%string with false.
      change ("xyz" =? "xyz")%string with true.
      destruct (zip3_ok nadd fx fy ltac:(congruence)) as [a Ea]. rewrite Ea. cbn [bind].
      destruct (zip3_at nadd fx fy a ltac:(congruence) Ea) as [Sa Ha].
      destruct (zip3_ok nadd a fz ltac:(congruence)) as [b Eb]. rewrite Eb. cbn [bind].
      destruct (zip3_at nadd a fz b ltac:(congruence) Eb) as [Sb Hb].
      apply Fin; [cbn [map3 sh3]; congruence|]. intros c Hc. cbn [map3 at3].
      rewrite Hb, Ha by congruence. rewrite Hx, Hy, Hz by exact Hc. reflexivity.
  Qed.
  Lemma gran_temp_mode m mode : ~ In mode temp_modes -> gran_temp m mode = Panic.
  Proof.
    intros H. unfold gran_temp. destruct (fluct m 0); [|reflexivity]. destruct (fluct m 1); [|reflexivity]. destruct (fluct m 2); [|reflexivity].
    cbn [bind]. cbn [temp_modes In] in H.
    destruct (String.eqb_spec mode "x"); [subst; tauto|]. destruct (String.eqb_spec mode "y"); [subst; tauto|].
    destruct (String.eqb_spec mode "z"); [subst; tauto|]. destruct (String.eqb_spec mode "xyz"); [subst; tauto|]. reflexivity.
  Qed.

  (** The loop over the data. *)
  Lemma temp_fold bld (M : mgr F) (g : grid F) (s : selector F) L d m0 : recorded M d L -> sel_ok s ->
    let prog := (let! l := all_steps bld M in
        loop_pure M s (fun m x => loop_particles s x (fun m i p =>
          if negb (is_inside g p) then Val m else
          let! v := vget (ts_vel x) i in
          let! o := cell_id bld g p in
          match o with None => Val m | Some c => moments_add m c v end) m) l (d, m0)) in
    match mfold (mom_body bld g sm_pos sm_vel) (observed s L) m0 with
    | Val r => exists d', prog = Val (d', r) /\ recorded M d' L
    | Panic => prog = Panic
    end.
  Proof.
    intros [Rd [Ne Rc]] Sk prog.
    assert (Q := loop_observed bld M s (fun x m i p =>
          if negb (is_inside g p) then Val m else
          let! v := vget (ts_vel x) i in
          let! o := cell_id bld g p in
          match o with None => Val m | Some c => moments_add m c v end) (mom_body bld g sm_pos sm_vel) L d m0 Rd Ne Rc Sk).
    match type of Q with ?P -> _ => assert (H : P) end.
    { rewrite Forall_forall in Rc. intros x st i m Hx Hm. destruct (samples_at x i m (Rc x Hx) Hm) as [_ [_ [Hv _]]].
      rewrite (proj2 (vget_val _ _ _) Hv). reflexivity. }
    specialize (Q H). destruct (mfold _ (observed s L) m0); [|exact Q].
    destruct Q as [d' [Q R]]. exists d'. split; [exact Q|]. split; [exact R|]. auto.
  Qed.

  (** Per cell, any number type and grid. *)
  Lemma temp_cells bld (M : mgr F) d (L : list (timestep F)) g s mode : recorded M d L -> sel_ok s -> wf_grid g -> In mode temp_modes ->
    match mfold (mom_body bld g sm_pos sm_vel) (observed s L) (moments_of g) with
    | Val m => exists d' h, granular_temperature_field bld M d g s mode = Val (d', h) /\ recorded M d' L /\ wf_grid h /\ geo h = geo g /\
        mom_ok bld g sm_pos sm_vel (observed s L) (moments_of g) m /\
        forall c, inb3 (geom_cells (geo g)) c = true -> at3 (weight h) c = at3 (m_n m) c /\ at3 (data h) c = temp_at m mode c
    | Panic => granular_temperature_field bld M d g s mode = Panic
    end.
  Proof.
    intros Rec Sk W Hm. assert (Q := temp_fold bld M g s L d (moments_of g) Rec Sk). cbv zeta in Q.
    unfold granular_temperature_field.
    destruct (mfold _ (observed s L) (moments_of g)) as [m|] eqn:Fo.
    - destruct Q as [d' [Q R]]. destruct (all_steps bld M) as [steps|]; [|discriminate Q]. cbn [bind] in Q |- *. rewrite Q. cbn [bind fst snd].
      assert (Ok := mom_sound bld g sm_pos sm_vel _ _ _ (moments_of_shape g W) Fo). destruct Ok as [Sh Hc].
      destruct (gran_temp_val _ m mode Sh Hm) as [t [Et [St Ht]]]. rewrite Et. cbn [bind].
      destruct W as [W1 W2]. unfold set_data, new_zeros, with_data, zeros3, const3. cbn [data sh3].
      assert (E1 : sh_eqb (geom_cells (geo g)) (sh3 t) = true) by (rewrite St; apply id3_eqb_refl). rewrite E1. cbn [bind].
      unfold set_weights, with_weight. cbn [weight geo data].
      assert (E2 : sh_eqb (sh3 (weight g)) (sh3 (m_n m)) = true) by (rewrite W2, (proj2 Sh); apply id3_eqb_refl). rewrite E2. cbn [bind].
      do 2 eexists. split; [reflexivity|]. split; [exact R|]. split; [|split; [reflexivity|]].
      + split; cbn [data weight geo]; [exact St | exact (proj2 Sh)].
      + split; [split; assumption|]. intros c Hc'. cbn [weight data]. split; [reflexivity | now apply Ht].
    - destruct (all_steps bld M) as [steps|]; [|reflexivity]. cbn [bind] in Q |- *. rewrite Q. reflexivity.
  Qed.
End Gen.

(** ** C39 *)
(** Unknown modes are refused. *)
Theorem c39_unknown_mode {TF : Trig f64} (bld : build) (M : mgr f64) d g s mode :
  ~ In mode temp_modes -> granular_temperature_field bld M d g s mode = Panic.
Proof.
  intros H. unfold granular_temperature_field. destruct (all_steps bld M) as [l|]; [|reflexivity]. cbn [bind].
  match goal with |- (let! r := ?p in _) = _ => destruct p as [r|] end; [|reflexivity]. cbn [bind]. now rewrite gran_temp_mode.
Qed.
(** Doubles, Cartesian grids: the call returns, and the weight is the number of samples. *)
Theorem c39_returns {TF : Trig f64} (bld : build) (M : mgr f64) d L (g : grid f64) cg s mode :
  recorded M d L -> sel_ok s -> fresh g -> geo g = Cart cg -> sized (cc_cells cg) -> In mode temp_modes ->
  exists d' h, granular_temperature_field bld M d g s mode = Val (d', h) /\ recorded M d' L /\ geo h = geo g /\
    forall c, inb3 (cc_cells cg) c = true ->
      let l := samples_in bld (geo g) c (observed s L) in
      (l = [] -> is_nan (at3 (data h) c) = true) /\
      ((vlen l <= 2 ^ 53)%N -> is_finite (at3 (weight h) c) = true /\ B2R (at3 (weight h) c) = NR (vlen l)).
Proof.
  intros Rec Sk [W Fr] G Sz Hm. assert (Q := temp_cells bld M d L g s mode Rec Sk W Hm).
  destruct (mom_total bld g sm_pos sm_vel (observed s L) (moments_of g)) as [m Fo];
    [rewrite G; now apply cart_inside_ok | now apply moments_of_shape|].
  rewrite Fo in Q. destruct Q as [d' [h [E [R [_ [G' [[_ Ok] H]]]]]]]. exists d', h.
  split; [exact E|]. split; [exact R|]. split; [exact G'|]. intros c Hc l.
  destruct (H c ltac:(now rewrite G)) as [Hw Hd]. destruct (Ok c) as [Ok1 Ok2]. destruct (moments_of_at g 0 c) as [_ [_ E0]].
  rewrite E0, (proj1 (Fr c)) in Ok2. change (here bld g sm_pos c (observed s L)) with l in Ok1, Ok2. split.
  - intros El. rewrite Hd. unfold temp_at. rewrite Ok2, El. cbn [fold_left].
    destruct (Ok1 0%N ltac:(lia)) as [A0 B0], (Ok1 1%N ltac:(lia)) as [A1 B1], (Ok1 2%N ltac:(lia)) as [A2 B2].
    unfold fluct_at. rewrite A0, B0, A1, B1, A2, B2, Ok2, El. cbn [map fold_left].
    destruct (moments_of_at g 0 c) as [X0 [Y0 _]], (moments_of_at g 1 c) as [X1 [Y1 _]], (moments_of_at g 2 c) as [X2 [Y2 _]].
    rewrite X0, Y0, X1, Y1, X2, Y2, (proj1 (Fr c)).
    destruct (mode =? "x")%string, (mode =? "y")%string, (mode =? "z")%string; reflexivity.
  - intros Small. rewrite Hw, Ok2. destruct (of_Z_correct 0 ltac:(lia)) as [O1 F1].
    exact (count_exact l (f64_of_Z 0) 0 F1 O1 ltac:(lia)).
Qed.
(** Ideal arithmetic, any grid: the standard deviation of the component over the samples of the cell; for xyz
    the root of the mean of the three variances. *)
Definition component_var {TF : Trig R} (k : N) (l : list (sample R)) : R := Rvar (map (fun m => v3i k (sm_vel m)) l).
Definition mode_var {TF : Trig R} (mode : string) (l : list (sample R)) : R :=
  (if String.eqb mode "x" then component_var 0 l
  else if String.eqb mode "y" then component_var 1 l
  else if String.eqb mode "z" then component_var 2 l
  else (component_var 0 l + component_var 1 l + component_var 2 l) / 3)%R.
Theorem c39_standard_deviation {TF : Trig R} (bld : build) (M : mgr R) d L (g : grid R) s mode d' h :
  recorded M d L -> sel_ok s -> fresh g -> In mode temp_modes ->
  granular_temperature_field bld M d g s mode = Val (d', h) ->
  forall c, inb3 (geom_cells (geo g)) c = true ->
    let l := samples_in bld (geo g) c (observed s L) in
    at3 (weight h) c = INR (List.length l) /\
    (l <> [] -> (0 <= mode_var mode l)%R /\ at3 (data h) c = sqrt (mode_var mode l)).
Proof.
  intros Rec Sk [W Fr] Hm E c Hc l. assert (Q := temp_cells bld M d L g s mode Rec Sk W Hm).
  destruct (mfold _ (observed s L) (moments_of g)) as [m|]; [|congruence].
  destruct Q as [d2 [h2 [E2 [_ [_ [_ [[_ Ok] H]]]]]]]. rewrite E2 in E. apply Val_pair in E. destruct E as [_ ->].
  destruct (H c Hc) as [Hw Hd]. destruct (Ok c) as [Ok1 Ok2]. change (here bld g sm_pos c (observed s L)) with l in Ok1, Ok2.
  destruct (moments_of_at g 0 c) as [_ [_ E0]]. rewrite E0, (proj1 (Fr c)), count_R in Ok2. change (@n0 R num_R) with 0%R in Ok2.
  assert (N1 : at3 (m_n m) c = INR (List.length l)).
  { rewrite Ok2. unfold NR, vlen. rewrite nat_N_Z, <- INR_IZR_INZ. lra. }
  split; [congruence|]. intros Hl. assert (P := len_pos l Hl).
  assert (V : forall k, (k <= 2)%N -> (fluct_at m k c = component_var k l * INR (List.length l) /\ 0 <= component_var k l)%R).
  { intros k Hk. assert (Hn : map (fun a => v3i k (sm_vel a)) l <> []) by (destruct l; [contradiction | discriminate]).
    split; [|apply Rvar_nonneg; exact Hn]. destruct (Ok1 k Hk) as [A B]. destruct (moments_of_at g k c) as [X [Y _]].
    unfold fluct_at, component_var. rewrite A, B, N1, X, Y, (proj1 (Fr c)). change (@nadd R num_R) with Rplus. rewrite !fold_left_Rplus.
    change (@n0 R num_R) with 0%R. cbn [nsub nmul ndiv num_R]. rewrite Rvar_moments by exact Hn. rewrite map_map, map_length. field. lra. }
  destruct (V 0%N ltac:(lia)) as [V0 P0], (V 1%N ltac:(lia)) as [V1 P1], (V 2%N ltac:(lia)) as [V2 P2].
  split.
  - unfold mode_var. destruct (mode =? "x")%string; [exact P0|]. destruct (mode =? "y")%string; [exact P1|].
    destruct (mode =? "z")%string; [exact P2|]. lra.
  - rewrite Hd. unfold temp_at, mode_var. rewrite N1, V0, V1, V2. cbn [nsqrt ndiv nadd nof num_R]. f_equal.
    destruct (mode =? "x")%string; [field; lra|]. destruct (mode =? "y")%string; [field; lra|].
    destruct (mode =? "z")%string; [field; lra|]. field. lra.
Qed.
(** It is zero exactly when all samples of the cell have the same velocity component. *)
Theorem c39_zero_iff_uniform {TF : Trig R} (k : N) (l : list (sample R)) : l <> [] ->
  component_var k l = 0%R <-> exists v, forall m, In m l -> v3i k (sm_vel m) = v.
Proof.
  intros Hl. assert (Hn : map (fun a => v3i k (sm_vel a)) l <> []) by (destruct l; [contradiction | discriminate]). unfold component_var. split.
  - intros E. eexists. intros m Hm. apply (Rvar_zero _ Hn E). now apply (in_map (fun a => v3i k (sm_vel a))).
  - intros [v H]. apply (Rvar_const _ v Hn). intros x Hx. apply in_map_iff in Hx. destruct Hx as [m [<- Hm]]. now apply H.
Qed.
(** Doubles: rounding can make the radicand negative, so a uniform velocity gives NaN. *)
Definition uniform_data : list (timestep f64) :=
  let v := (nlit 1 10, d 0, d 0) in
  [ts_ex 0 (d 0, d 0, d 0) (d 1, d 1, d 1) v v; ts_ex 1 (d 0, d 0, d 0) (d 0, d 0, d 0) v v].
Theorem c39_nan_refuted {TF : Trig f64} :
  after (cart_new (2, 2, 2)%N (ThreeD box64)) (fun g =>
  after (granular_temperature_field Debug (list_mgr uniform_data (ex_stats 2)) tt g sel_default "x") (fun r =>
    vlen (samples_in Debug (geo g) (0, 0, 0)%N (observed sel_default uniform_data)) = 3%N /\
    same (at3 (weight (snd r)) (0, 0, 0)%N) (d 3) /\ same (at3 (data (snd r)) (0, 0, 0)%N) B754_nan)).
Proof. vm_compute. repeat split; reflexivity. Qed.
(** The result depends on what the grid held before. *)
Theorem c39_reused_grid_refuted {TF : Trig f64} :
  after (cart_new (2, 2, 2)%N (ThreeD box64)) (fun g =>
  after (granular_temperature_field Debug (list_mgr ex_data (ex_stats 2)) tt g sel_default "x") (fun r1 =>
  after (numberfield Debug (list_mgr ex_data (ex_stats 2)) tt g sel_default) (fun rn =>
  after (granular_temperature_field Debug (list_mgr ex_data (ex_stats 2)) tt (snd rn) sel_default "x") (fun r2 =>
    same (at3 (weight (snd r1)) (0, 0, 0)%N) (d 2) /\ same (at3 (weight (snd r2)) (0, 0, 0)%N) (d 4))))).
Proof. vm_compute. repeat split; reflexivity. Qed.
Example c39_case {TF : Trig f64} :
  recorded (list_mgr ex_data (ex_stats 2)) tt ex_data /\
  after (cart_new (2, 2, 2)%N (ThreeD box64)) (fun g => fresh g /\
  after (granular_temperature_field Debug (list_mgr ex_data (ex_stats 2)) tt g sel_default "x") (fun r =>
    same (at3 (data (snd r)) (0, 0, 0)%N) (d 1) /\ same (at3 (weight (snd r)) (0, 0, 0)%N) (d 2) /\
    same (at3 (data (snd r)) (0, 1, 0)%N) B754_nan)).
Proof.
  split; [apply list_recorded; [discriminate | repeat constructor | reflexivity]|].
  destruct (cart_new (2, 2, 2)%N (ThreeD box64)) as [g|] eqn:E; [|discriminate]. cbn [after].
  split; [exact (new_fresh _ _ true g (or_introl E))|]. injection E as <-. vm_compute. repeat split; reflexivity.
Qed.

(** ** C41 *)
Section C41.
  Context {F : Type} {NF : Num F} {TF : Trig F}.
  (** All samples of the timesteps in the window: the particle criteria are not consulted. *)
  Definition in_window (s : selector F) (L : list (timestep F)) : list (v3 F) :=
    flat_map (fun x => if timestep_valid s (ts_time x) then ts_vel x else []) L.
  Definition moving (l : list (v3 F)) : list (v3 F) := filter (fun v => negb (nisnan (speed v))) l.
  Lemma showcase_run bld (M : mgr F) d (L : list (timestep F)) s : reads_as M d L -> L <> [] ->
    exists d', mean_velocity_showcase bld M d s =
      Val (d', ndiv (fold_left nadd (map speed (moving (in_window s L))) n0) (fold_left (fun w _ => nadd w n1) (moving (in_window s L)) n0)).
  Proof.
    intros [Nt [Inv [I Get]]] Ne. unfold mean_velocity_showcase. rewrite (all_steps_val bld M L Nt Ne). cbn [bind].
    set (step := fun (acc : F * F) v => if nisnan (speed v) then acc else (nadd (fst acc) (speed v), nadd (snd acc) n1)).
    assert (Q := loop_pure_run M s (fun acc x => Val (fold_left step (ts_vel x) acc)) Inv L Get L 0 d (n0, n0) ltac:(intros; assumption) I).
    change (0 + vlen L)%N with (vlen L) in Q.
    assert (E : forall L acc, mfold (fun st x => if timestep_valid s (ts_time x) then Val (fold_left step (ts_vel x) st) else Val st) L acc =
      Val (fold_left step (in_window s L) acc)).
    { clear. induction L as [|x L IH]; intros acc; [reflexivity|]. cbn [mfold in_window flat_map].
      destruct (timestep_valid s (ts_time x)); cbn [bind app]; rewrite IH; [now rewrite fold_left_app | reflexivity]. }
    rewrite E in Q. destruct Q as [d' [Q _]]. exists d'. rewrite Q. cbn [bind fst snd].
    assert (S : forall l a b, fold_left step l (a, b) =
      (fold_left nadd (map speed (moving l)) a, fold_left (fun w _ => nadd w n1) (moving l) b)).
    { clear. induction l as [|v l IH]; intros a b; [reflexivity|]. cbn [fold_left]. unfold moving. cbn [filter]. unfold step at 2. cbn [fst snd].
      destruct (nisnan (speed v)); cbn [negb map fold_left]; apply IH. }
    rewrite S. reflexivity.
  Qed.
End C41.
(** Doubles: the sum of the speeds that are numbers over their number, over all particles. *)
Theorem c41_mean_speed {TF : Trig f64} (bld : build) (M : mgr f64) d L s : recorded M d L ->
  let l := moving (in_window s L) in
  exists d' v, mean_velocity_showcase bld M d s = Val (d', v) /\
    (l = [] -> is_nan v = true) /\
    ((vlen l <= 2 ^ 53)%N -> exists n : f64, is_finite n = true /\ B2R n = NR (vlen l) /\ v = ndiv (fold_left nadd (map speed l) (f64_of_Z 0)) n).
Proof.
  intros [Rd [Ne _]] l. destruct (showcase_run bld M d L s Rd Ne) as [d' E]. fold l in E. eexists _, _. split; [exact E|]. split.
  - intros ->. reflexivity.
  - intros Small. destruct (of_Z_correct 0 ltac:(lia)) as [O1 F1]. destruct (count_exact l (f64_of_Z 0) 0 F1 O1 ltac:(lia)) as [C1 C2].
    eexists. split; [exact C1|]. split; [exact C2|]. reflexivity.
Qed.
(** Ideal arithmetic: the mean of their speeds. *)
Theorem c41_mean_ideal {TF : Trig R} (bld : build) (M : mgr R) d L s : recorded M d L ->
  let l := in_window s L in
  exists d' v, mean_velocity_showcase bld M d s = Val (d', v) /\ (l <> [] -> v = Rmean (map speed l) /\ (0 <= v)%R).
Proof.
  intros [Rd [Ne _]] l. destruct (showcase_run bld M d L s Rd Ne) as [d' E].
  assert (Mv : moving (in_window s L) = l) by (unfold moving; cbn [nisnan num_R negb]; apply filter_true). rewrite Mv in E.
  eexists _, _. split; [exact E|]. intros Hl.
  assert (V : ndiv (fold_left nadd (map speed l) n0) (fold_left (fun w _ => nadd w n1) l n0) = Rmean (map speed l)).
  { rewrite count_R. change (@nadd R num_R) with Rplus. rewrite fold_left_Rplus. change (@n0 R num_R) with 0%R. cbn [ndiv num_R].
    unfold Rmean. rewrite map_length. unfold NR, vlen. rewrite nat_N_Z, <- INR_IZR_INZ. f_equal; lra. }
  split; [exact V|]. rewrite V. apply Rmult_le_pos; [|left; apply Rinv_0_lt_compat; rewrite map_length; now apply len_pos].
  apply Rsum_nonneg. intros [[a b] c] _. unfold speed. cbn [nsqrt num_R]. apply sqrt_pos.
Qed.
(** False of the code: a selector for particle 2 alone changes nothing; [mean_velocity] ignores the selector altogether. *)
Theorem c41_selector_refuted {TF : Trig f64} :
  let only2 := mkSel (s_time sel_default) (s_radius sel_default) (s_clouds sel_default) (s_density sel_default) [2%N] in
  vlen (observed only2 ex_data) <> vlen (observed sel_default ex_data) /\
  after (mean_velocity_showcase Debug (list_mgr ex_data (ex_stats 2)) tt only2) (fun r1 =>
  after (mean_velocity_showcase Debug (list_mgr ex_data (ex_stats 2)) tt sel_default) (fun r2 => same (snd r1) (snd r2))).
Proof. vm_compute. split; [discriminate | reflexivity]. Qed.
Theorem c41_mean_velocity_is_header {TF : Trig f64} (M : mgr f64) : mean_velocity M = snd (fst (st_velmag (m_stats M))).
Proof. unfold mean_velocity. destruct (st_velmag (m_stats M)) as [[a b] c]. reflexivity. Qed.

(** ** C42 *)
(** The index is a function of the occupancy per layer: occupancy collapsed over x and y. *)
Theorem c42_from_occupancy {TF : Trig f64} (bld : build) (M : mgr f64) d (g : grid f64) s min_vel d' v :
  homogenity_index bld M d g s min_vel = Val (d', v) ->
  exists h layers, occupancyfield bld M d g s min_vel = Val (d', h) /\ collapse_two h 0 1 = Val layers /\ v = index_of_field layers.
Proof.
  unfold homogenity_index. intros E. apply bind_val in E. destruct E as [[d1 h] [E1 E]]. apply bind_val in E. destruct E as [layers [E2 E]].
  apply Val_pair in E. destruct E as [<- <-]. exists h, layers. auto.
Qed.
(** It returns whenever the occupancy does. *)
Theorem c42_returns {TF : Trig f64} can (bld : build) (M : mgr f64) d (L : list (timestep f64)) (g : grid f64) cg s min_vel :
  aux_reads can M d L -> (forall t, can t (t + 1)%N) -> (3 <= vlen L)%N -> Forall rect L -> sel_ok s -> wf_grid g ->
  geo g = Cart cg -> sized (cc_cells cg) -> exists d' v, homogenity_index bld M d g s min_vel = Val (d', v).
Proof.
  intros Aux Can Len Rc Sk W G Sz. destruct (c37_returns can bld M d L g cg s min_vel Aux Can Len Rc Sk W G Sz) as [d' [h E]].
  assert (Wh : wf_grid h).
  { assert (Q := occ_run can bld M d L g s min_vel Aux Can Len Rc Sk).
    destruct (mfold _ _ _) as [[h1 t1]|] eqn:Fo; [|congruence]. destruct Q as [d2 Q]. rewrite Q in E.
    apply Val_pair in E. destruct E as [_ <-]. destruct (new_zeros_wf g W) as [W0 G0].
    destruct (occ_sound bld _ _ _ _ _ W0 Fo) as [[[W1 W2] [G1 _]] _].
    split; cbn [fst snd divide_by_scalar with_data data map3 sh3 weight geo]; assumption. }
  unfold homogenity_index. rewrite E. cbn [bind fst snd]. unfold collapse_two, order_axes. cbn [N.eqb N.ltb N.compare N.sub bind].
  destruct (collapse_val h 0 Wh ltac:(lia)) as [c [nc [Ec _]]]. rewrite Ec. cbn [bind].
  destruct (collapse_weight_val h 0 Wh ltac:(lia)) as [cw [nw [Ew _]]]. rewrite Ew. cbn [bind].
  change (1 <? Pos.pred_N 1)%N with false. cbn [bind]. do 2 eexists. reflexivity.
Qed.
(** Ideal arithmetic: the standard deviation of the layers; zero exactly for a uniform profile. *)
Theorem c42_standard_deviation {TF : Trig R} (layers : list R) : layers <> [] ->
  index_of_field layers = sqrt (Rvar layers) /\ (0 <= index_of_field layers)%R /\
  (index_of_field layers = 0%R <-> exists v, forall x, In x layers -> x = v).
Proof.
  intros Hl. assert (E : index_of_field layers = sqrt (Rvar layers)).
  { unfold index_of_field. cbn [nisnan num_R]. cbv zeta.
    assert (S : forall (f : R -> R) l a, fold_left (fun acc x => nadd acc (f x)) l a = (a + Rsum (map f l))%R).
    { clear. intros f l. induction l as [|x l IH]; intros a; cbn [fold_left map]; [rewrite Rsum_nil; lra|]. rewrite IH, Rsum_cons.
      cbn [nadd num_R]. lra. }
    assert (S1 := S (fun x => x) layers). rewrite map_id in S1. cbv beta in S1. rewrite S1.
    change (@n0 R num_R) with 0%R. unfold nofN. cbn [nsqrt nmul nsub ndiv nof num_R]. unfold vlen. rewrite nat_N_Z, <- INR_IZR_INZ.
    rewrite Rplus_0_l. fold (Rmean layers). rewrite (S (fun x => ((x - Rmean layers) * (x - Rmean layers))%R)). rewrite Rplus_0_l. reflexivity. }
  split; [exact E|]. rewrite E. split; [apply sqrt_pos|]. split.
  - intros Z. exists (Rmean layers). apply Rvar_zero; [exact Hl|]. apply sqrt_eq_0 in Z; [exact Z | now apply Rvar_nonneg].
  - intros [v H]. rewrite (Rvar_const layers v Hl H). apply sqrt_0.
Qed.
(** False of the code: a layer without data is left out of the sums but counted in the divisor, so one
    layer with data and one without do not give 0. *)
Theorem c42_empty_layer_refuted {TF : Trig f64} :
  is_nan (index_of_field (F := f64) [d 1; B754_nan]) = false /\ Bltb (d 0) (index_of_field (F := f64) [d 1; B754_nan]) = true /\
  after (cart_new (1, 1, 4)%N (ThreeD box64)) (fun g =>
  after (occupancyfield Debug (list_mgr ex_data4 (ex_stats 4)) tt g sel_default (d 2)) (fun r =>
  after (collapse_two (snd r) 0 1) (fun layers => map B2SF layers = map B2SF [B754_nan; B754_nan; B754_nan; d 1]) /\
  after (homogenity_index Debug (list_mgr ex_data4 (ex_stats 4)) tt g sel_default (d 2)) (fun q => Bltb (d 0) (snd q) = true))).
Proof. vm_compute. repeat split; reflexivity. Qed.
Example c42_case {TF : Trig f64} :
  after (cart_new (2, 2, 2)%N (ThreeD box64)) (fun g => wf_grid g /\
  after (homogenity_index Debug (list_mgr ex_data4 (ex_stats 4)) tt g sel_default (d 0)) (fun r => is_finite (snd r) = true)).
Proof. vm_compute. repeat split; reflexivity. Qed.
