(** * PropertiesSession: an object of the class [Data] as a whole

    C116: earlier calls leave no trace (but the time window).  C117: the two kinds of file with the
    same content give the same answers. *)
From Coq Require Import NArith ZArith List Bool String Lia ZifyBool ZifyN ZifyNat.
From Verif Require Import Base BaseFacts Num NDArray GridModel SelModel DataModel DataSpec DataProofs DataLoad PropertiesGrid PropertiesData FunModel FunSpec MixModel CondModel PyModel FunRefine SessionModel SessionSpec SessionProofs.

(** ** C116 *)
Section Reached.
  Context (bld : build) (load : N -> N -> res (list (timestep f64))) (nt : N)
          (good : N -> timestep f64 -> Prop).
  Hypothesis Hnt : (1 <= nt <= 2 ^ 53)%N.
  Hypothesis Hload : forall lo hi, (lo <= hi <= nt)%N -> exists l, load lo hi = Val l /\
    vlen l = (hi - lo)%N /\ forall k x, at_ l k x -> good (lo + k)%N x.
  Hypothesis Huniq : forall t x y, good t x -> good t y -> x = y.
  Variable d0 : dm f64.
  Hypothesis Hnew : dm_new bld load nt = Val d0.
  Variable st : stats f64.
  Variable getb : dm f64 -> N -> N -> res (dm f64 * timestep f64).
  Variable touch : dm f64 -> N -> N -> res (dm f64).
  Hypothesis Hgt : forall d t d' x, getb d t 0 = Val (d', x) -> touch d t 0 = Val d'.
  Hypothesis Htouch : forall d t d', sane nt good d0 d -> (t <= nt)%N -> touch d t 0 = Val d' -> sane nt good d0 d'.
  Notation M := (mkMgr (dm f64) (dm_get bld load nt) getb (dm_setup bld load nt) st).
  Lemma reached_sane d : reached M touch nt d0 d -> sane nt good d0 d.
  Proof.
    induction 1 as [|d t d' x _ IH Ht E|d d' _ IH E|d t d' x _ IH Ht E|d t d' _ IH Ht E].
    - exact (new_sane bld load nt good Hnt Hload Huniq d0 Hnew).
    - cbn [m_get] in E. destruct (N.eq_dec t nt) as [->|Ne].
      + exact (get_past_sane bld load nt good Hnt Hload Huniq d0 d d' x IH E).
      + destruct (get_sane bld load nt good Hnt Hload Huniq d0 Hnew d t IH ltac:(lia)) as [e [y [G [_ [S _]]]]].
        rewrite G in E. apply Val_pair in E. now destruct E as [<- _].
    - cbn [m_setup] in E. rewrite (setup_sane bld load nt good Hnt Hload Huniq d0 Hnew d IH) in E.
      injection E as <-. exact (setup_sane' bld load nt good Hnt Hload Huniq d0 Hnew d IH).
    - cbn [m_getb] in E. apply (Htouch d t d' IH ltac:(lia)). now apply (Hgt d t d' x).
    - apply (Htouch d t d' IH ltac:(lia)). exact E.
  Qed.
  Lemma getb_sane d t d' x : sane nt good d0 d -> (t < nt)%N -> getb d t 0 = Val (d', x) -> sane nt good d0 d'.
  Proof. intros S Ht E. apply (Htouch d t d' S ltac:(lia)). now apply (Hgt d t d' x). Qed.
  Hypothesis Nt : st_timesteps st = nt.
  Hypothesis Ta : vlen (st_time st) = nt.
  Context {TF : Trig f64}.
  Lemma reached_outcome d s c mt : reached M touch nt d0 d -> call_ok nt c ->
    outcome (py_call bld M mt (d, s) c) = outcome (py_call bld M mt (d0, s) c).
  Proof.
    intros R Hc. apply agree_outcome with (Rel := srel M M (pair_sane nt good d0)).
    apply (call_agree bld load nt good Hnt Hload Huniq d0 Hnew st Nt Ta getb getb_sane mt d d0 s c);
      [now apply reached_sane | apply reached_sane; constructor | exact Hc].
  Qed.

  Lemma call_sel d s c d' s' a mt : py_call bld M mt (d, s) c = Val ((d', s'), a) ->
    s' = match c with CSetTime x y => set_time s x y | _ => s end.
  Proof.
    intros E. destruct c; cbn [py_call] in E;
      try (unfold ask in E; apply bind_val in E; destruct E as [r [_ E]]; apply Val_pair in E; destruct E as [E _];
           apply (f_equal snd) in E; cbn [snd] in E; now symmetry);
      try (apply Val_pair in E; destruct E as [E _]; apply (f_equal snd) in E; cbn [snd] in E; now symmetry).
    unfold py_set_time in E. destruct (nltb mt tmin); [discriminate|]. cbn [bind] in E.
    apply Val_pair in E; destruct E as [E _]; apply (f_equal snd) in E; cbn [snd] in E; now symmetry.
  Qed.
  Lemma calls_sane l mt : forall d s d' s', sane nt good d0 d -> Forall (call_ok nt) l ->
    py_calls bld M mt l (d, s) = Val (d', s') -> sane nt good d0 d' /\
      s' = fold_left (fun s c => match c with CSetTime x y => set_time s x y | _ => s end) l s.
  Proof.
    unfold py_calls. induction l as [|c l IH]; intros d s d' s' S Hl E.
    - cbn in E. apply Val_pair in E. destruct E as [<- <-]. split; [exact S | reflexivity].
    - cbn [mfold] in E. apply bind_val in E. destruct E as [st1 [E1 E]].
      apply bind_val in E1. destruct E1 as [[[d1 s1] a] [C1 E1]]. injection E1 as <-. apply Forall_cons_iff in Hl. destruct Hl as [Hc Hl'].
      assert (S1 := call_sane bld load nt good Hnt Hload Huniq d0 Hnew st Nt Ta getb getb_sane mt d s c d1 s1 a S Hc C1).
      apply call_sel in C1. cbn [fold_left]. rewrite <- C1. exact (IH d1 s1 d' s' S1 Hl' E).
  Qed.
  Lemma window_fold (l : list (call f64)) :
    fold_left (fun s c => match c with CSetTime x y => set_time s x y | _ => s end) l sel_default = window_of l.
  Proof.
    unfold window_of.
    assert (H : forall l w, fold_left (fun s c => match c with CSetTime x y => set_time s x y | _ => s end) l
        (match w with Some (a, b) => mkSel (a, b) [nneg n1] [nneg n1] [nneg n1] [0%N] | None => sel_default end) =
      match fold_left (fun w c => match c with CSetTime a b => Some (a, b) | _ => w end) l w with
      | Some (a, b) => mkSel (a, b) [nneg n1] [nneg n1] [nneg n1] [0%N] | None => sel_default (F := f64) end).
    { clear. induction l as [|c l IH]; intros w; [reflexivity|]. destruct c; cbn [fold_left]; try apply (IH w).
      rewrite <- (IH (Some (tmin, tmax))). f_equal. destruct w as [[a b]|]; reflexivity. }
    exact (H l None).
  Qed.
  Lemma calls_outcome l d s c mt : Forall (call_ok nt) l -> py_calls bld M mt l (d0, sel_default) = Val (d, s) -> call_ok nt c ->
    outcome (py_call bld M mt (d, s) c) = outcome (py_call bld M mt (d0, window_of l) c).
  Proof.
    intros Hl E Hc. destruct (calls_sane l mt d0 sel_default d s (reached_sane d0 (opened M touch nt d0)) Hl E) as [S ->]. rewrite window_fold.
    apply agree_outcome with (Rel := srel M M (pair_sane nt good d0)).
    apply (call_agree bld load nt good Hnt Hload Huniq d0 Hnew st Nt Ta getb getb_sane mt d d0 _ c);
      [exact S | apply reached_sane; constructor | exact Hc].
  Qed.
End Reached.

(** The statistics agree with the file. *)
Definition stats_ok (st : stats f64) (nt : N) : Prop := st_timesteps st = nt /\ vlen (st_time st) = nt.

Section C116.
  Context {TF : Trig f64} (bld : build) (st : stats f64) (mt : f64).

  (** Particle-ordered files: whatever was requested before, a call answers as on a file just opened. *)
  Theorem c116_p_no_trace (f : pfile f64) d0 d s c : pf_ok f -> stats_ok st (pf_timesteps f) ->
    dm_new bld (p_load f) (pf_timesteps f) = Val d0 ->
    reached (p_mgr bld f st) (p_touch bld (p_load f) (pf_timesteps f)) (pf_timesteps f) d0 d ->
    call_ok (pf_timesteps f) c ->
    outcome (py_call bld (p_mgr bld f st) mt (d, s) c) = outcome (py_call bld (p_mgr bld f st) mt (d0, s) c).
  Proof.
    intros OK [Nt Ta] E R Hc.
    exact (reached_outcome bld (p_load f) (pf_timesteps f) (p_shows f) (p_nt f OK) (p_ld f OK) (p_shows_unique f) d0 E st _ _
      (fun d t => p_getb_touch bld (p_load f) (pf_timesteps f) d t 0)
      (p_touch_sane bld (p_load f) _ (p_shows f) d0 (p_nt f OK) (p_ld f OK) (p_shows_unique f)) Nt Ta d s c mt R Hc).
  Qed.
  (** The same in terms of calls: only the last [set_time] matters. *)
  Theorem c116_p_calls (f : pfile f64) d0 l d s c : pf_ok f -> stats_ok st (pf_timesteps f) ->
    dm_new bld (p_load f) (pf_timesteps f) = Val d0 ->
    Forall (call_ok (pf_timesteps f)) l -> py_calls bld (p_mgr bld f st) mt l (d0, sel_default) = Val (d, s) ->
    call_ok (pf_timesteps f) c ->
    outcome (py_call bld (p_mgr bld f st) mt (d, s) c) = outcome (py_call bld (p_mgr bld f st) mt (d0, window_of l) c).
  Proof.
    intros OK [Nt Ta] E Hl R Hc.
    exact (calls_outcome bld (p_load f) (pf_timesteps f) (p_shows f) (p_nt f OK) (p_ld f OK) (p_shows_unique f) d0 E st _ _
      (fun d t => p_getb_touch bld (p_load f) (pf_timesteps f) d t 0)
      (p_touch_sane bld (p_load f) _ (p_shows f) d0 (p_nt f OK) (p_ld f OK) (p_shows_unique f)) Nt Ta l d s c mt Hl R Hc).
  Qed.
  (** Time-ordered files. *)
  Theorem c116_t_no_trace (f : tfile f64) d0 d s c : tf_ok f -> stats_ok st (tf_timesteps f) ->
    dm_new bld (t_load f) (tf_timesteps f) = Val d0 ->
    reached (t_mgr bld f st) (t_touch bld (t_load f) (tf_timesteps f)) (tf_timesteps f) d0 d ->
    call_ok (tf_timesteps f) c ->
    outcome (py_call bld (t_mgr bld f st) mt (d, s) c) = outcome (py_call bld (t_mgr bld f st) mt (d0, s) c).
  Proof.
    intros OK [Nt Ta] E R Hc.
    exact (reached_outcome bld (t_load f) (tf_timesteps f) (t_shows f) (t_nt f OK) (t_ld f OK) (t_shows_unique f) d0 E st _ _
      (fun d t => t_getb_touch bld (t_load f) (tf_timesteps f) d t 0)
      (t_touch_sane bld (t_load f) _ (t_shows f) d0 (t_nt f OK) (t_ld f OK) (t_shows_unique f)) Nt Ta d s c mt R Hc).
  Qed.
  Theorem c116_t_calls (f : tfile f64) d0 l d s c : tf_ok f -> stats_ok st (tf_timesteps f) ->
    dm_new bld (t_load f) (tf_timesteps f) = Val d0 ->
    Forall (call_ok (tf_timesteps f)) l -> py_calls bld (t_mgr bld f st) mt l (d0, sel_default) = Val (d, s) ->
    call_ok (tf_timesteps f) c ->
    outcome (py_call bld (t_mgr bld f st) mt (d, s) c) = outcome (py_call bld (t_mgr bld f st) mt (d0, window_of l) c).
  Proof.
    intros OK [Nt Ta] E Hl R Hc.
    exact (calls_outcome bld (t_load f) (tf_timesteps f) (t_shows f) (t_nt f OK) (t_ld f OK) (t_shows_unique f) d0 E st _ _
      (fun d t => t_getb_touch bld (t_load f) (tf_timesteps f) d t 0)
      (t_touch_sane bld (t_load f) _ (t_shows f) d0 (t_nt f OK) (t_ld f OK) (t_shows_unique f)) Nt Ta l d s c mt Hl R Hc).
  Qed.
End C116.

(** The hypotheses hold of a file with three timesteps after Python has iterated once too often. *)
Definition ex_st3 : stats f64 := mkStats 3 1 (d 0, d 0, d 0) (times 3) ((d 0, d 0, d 0), (d 2, d 0, d 0)).
Example c116_case {TF : Trig f64} bld : pf_ok (ex_pfile 1 3) /\ stats_ok ex_st3 3 /\
  exists d0 d1, dm_new bld (p_load (ex_pfile 1 3)) 3 = Val d0 /\
    reached (p_mgr bld (ex_pfile 1 3) ex_st3) (p_touch bld (p_load (ex_pfile 1 3)) 3) 3 d0 d1 /\ d1 <> d0 /\
    Forall (call_ok (F := f64) 3) [CItem (-1); CItems [0; 2]; CSlice None None (Some 2); CExtract 0 0 2; CLen]%Z.
Proof.
  split; [apply ex_pfile_ok; lia|]. split; [split; reflexivity|].
  destruct (dm_new bld (p_load (ex_pfile 1 3)) 3) as [d0|] eqn:E0.
  - exists d0. destruct (m_get (p_mgr bld (ex_pfile 1 3) ex_st3) d0 3) as [[d1 x]|] eqn:E1.
    + exists d1. split; [reflexivity|]. split; [eapply read; [constructor | apply N.le_refl | exact E1]|]. split.
      * intros ->.
        assert (Q : match dm_new bld (p_load (ex_pfile 1 3)) 3 with Val d0 =>
          match m_get (p_mgr bld (ex_pfile 1 3) ex_st3) d0 3 with
          | Val (d1, _) => N.eqb (b_lo (d_main d0)) (b_lo (d_main d1)) | _ => true end | _ => true end = false).
        { clear. destruct bld; vm_compute; reflexivity. }
        rewrite E0, E1, N.eqb_refl in Q. discriminate.
      * repeat constructor; cbn; lia.
    + exfalso. assert (Q : match dm_new bld (p_load (ex_pfile 1 3)) 3 with Val d0 =>
          match m_get (p_mgr bld (ex_pfile 1 3) ex_st3) d0 3 with Val _ => true | _ => false end | _ => true end = true).
      { clear. destruct bld; vm_compute; reflexivity. } rewrite E0, E1 in Q. discriminate.
  - exfalso. assert (Q : match dm_new bld (p_load (ex_pfile 1 3)) 3 with Val _ => true | _ => false end = true).
    { clear. destruct bld; vm_compute; reflexivity. } rewrite E0 in Q. discriminate.
Qed.

(** ** C117 *)
(** A particle-ordered and a time-ordered file of the same data. *)
Definition same_content (f : pfile f64) (g : tfile f64) : Prop :=
  pf_timesteps f = tf_timesteps g /\
  forall t, (t < pf_timesteps f)%N -> exists x, p_shows f t x /\ t_shows g t x.

Section C117.
  Context {TF : Trig f64} (bld : build) (st : stats f64) (mt : f64) (f : pfile f64) (g : tfile f64).
  Hypothesis OKp : pf_ok f.
  Hypothesis OKt : tf_ok g.
  Hypothesis Hsame : same_content f g.
  Hypothesis Hst : stats_ok st (pf_timesteps f).
  Variables dp dt : dm f64.
  Hypothesis Np : dm_new bld (p_load f) (pf_timesteps f) = Val dp.
  Hypothesis Nt : dm_new bld (t_load g) (tf_timesteps g) = Val dt.
  Notation nt := (pf_timesteps f).
  Notation Mp := (p_mgr bld f st).
  Notation Mt := (t_mgr bld g st).
  Let Rel (d e : dm f64) : Prop := sane nt (p_shows f) dp d /\ sane nt (t_shows g) dt e.

  Lemma same_ts t x y : (t < nt)%N -> p_shows f t x -> t_shows g t y -> x = y.
  Proof.
    intros Ht Hx Hy. destruct Hsame as [_ H]. destruct (H t Ht) as [z [Z1 Z2]].
    rewrite (p_shows_unique f t x z Hx Z1). exact (t_shows_unique g t z y Z2 Hy).
  Qed.
  Lemma t_nt' : (1 <= nt <= 2 ^ 53)%N. Proof. exact (p_nt f OKp). Qed.
  Lemma t_ld' lo hi : (lo <= hi <= nt)%N -> exists l, t_load g lo hi = Val l /\
    vlen l = (hi - lo)%N /\ forall k x, at_ l k x -> t_shows g (lo + k)%N x.
  Proof. intros H. apply (t_ld g OKt). destruct Hsame as [E _]. rewrite <- E. exact H. Qed.
  Lemma Nt' : dm_new bld (t_load g) nt = Val dt.
  Proof. destruct Hsame as [E _]. rewrite E. exact Nt. Qed.
  Notation Mt' := (mkMgr (dm f64) (dm_get bld (t_load g) nt) (t_get_buffer bld (t_load g) nt) (dm_setup bld (t_load g) nt) st).

  Lemma c_get d e t : Rel d e -> (t < nt)%N -> rres (agree Rel) (m_get Mp d t) (m_get Mt' e t).
  Proof.
    intros [Sd Se] Ht. cbn [m_get p_mgr].
    destruct (get_sane bld (p_load f) nt _ t_nt' (p_ld f OKp) (p_shows_unique f) dp Np d t Sd Ht) as [d' [x [E1 [G1 [S1 _]]]]].
    destruct (get_sane bld (t_load g) nt _ t_nt' t_ld' (t_shows_unique g) dt Nt' e t Se Ht) as [e' [y [E2 [G2 [S2 _]]]]].
    rewrite E1, E2. split; [split; assumption | exact (same_ts t x y Ht G1 G2)].
  Qed.

  (** Files that fit one buffer: the auxiliary buffer holds all of it. *)
  Section Small.
    Hypothesis Hb : (nt <= BUFFERSIZE)%N.
    Let Rel1 (d e : dm f64) : Prop := sane nt (p_shows f) dp d /\ sane nt (t_shows g) dt e /\
      d_extra d = [d_main dp] /\ d_names d = [0%N] /\ d_extra e = [d_main dt] /\ d_names e = [0%N].
    Let Rel2 (d e : dm f64) : Prop := d = mkDm (d_main dp) [d_main dp] [0%N] /\ e = mkDm (d_main dt) [d_main dt] [0%N].

    Lemma whole (load : N -> N -> res (list (timestep f64))) (good : N -> timestep f64 -> Prop) d0 : (forall lo hi, (lo <= hi <= nt)%N -> exists l, load lo hi = Val l /\
        vlen l = (hi - lo)%N /\ forall k x, at_ l k x -> good (lo + k)%N x) -> (forall t x y, good t x -> good t y -> x = y) ->
      dm_new bld load nt = Val d0 -> binv nt good (d_main d0) /\ b_lo (d_main d0) = 0%N /\ b_hi (d_main d0) = nt /\ sane nt good d0 d0.
    Proof.
      intros Hl Hu E. split; [|split; [|split]].
      - apply (B0_ok bld load nt good t_nt' Hl Hu d0 E).
      - apply (B0_ok bld load nt good t_nt' Hl Hu d0 E).
      - destruct (new_ok bld load nt good t_nt' Hl) as [d1 [E1 [_ [_ [_ H]]]]]. rewrite E in E1. injection E1 as <-. rewrite H. lia.
      - exact (new_sane bld load nt good t_nt' Hl Hu d0 E).
    Qed.
    Lemma whole_get (load : N -> N -> res (list (timestep f64))) (good : N -> timestep f64 -> Prop) d0 t : (forall lo hi, (lo <= hi <= nt)%N -> exists l, load lo hi = Val l /\
        vlen l = (hi - lo)%N /\ forall k x, at_ l k x -> good (lo + k)%N x) -> (forall t x y, good t x -> good t y -> x = y) ->
      dm_new bld load nt = Val d0 -> (t < nt)%N -> exists x, good t x /\
        dm_get bld load nt (mkDm (d_main d0) [d_main d0] [0%N]) t = Val (mkDm (d_main d0) [d_main d0] [0%N], x) /\
        p_get_buffer bld load nt (mkDm (d_main d0) [d_main d0] [0%N]) t 0 = Val (mkDm (d_main d0) [d_main d0] [0%N], x) /\
        t_get_buffer bld load nt (mkDm (d_main d0) [d_main d0] [0%N]) t 0 = Val (mkDm (d_main d0) [d_main d0] [0%N], x).
    Proof.
      intros Hl Hu E Ht. destruct (whole load good d0 Hl Hu E) as [I [Lo [Hi _]]].
      destruct (binv_read bld load nt good t_nt' Hl (d_main d0) t I ltac:(lia)) as [x [E1 [E2 G]]]. exists x. split; [exact G|].
      assert (N1 : (nt - 1 <? t)%N = false) by (apply N.ltb_ge; lia). assert (N2 : (t <? 0)%N = false) by (apply N.ltb_ge; lia).
      split; [|split].
      - unfold dm_get. cbn [d_main d_extra d_names]. rewrite Hi, usub_ge by (destruct t_nt'; lia). cbn [bind].
        rewrite N1. rewrite Lo in E1, E2. rewrite Lo, N2. cbn [bind]. rewrite Lo, E1. cbn [bind]. rewrite E2. reflexivity.
      - unfold p_get_buffer. cbn [d_main d_extra d_names]. change (vget [d_main d0] 0) with (Val (d_main d0)). cbn [bind].
        rewrite Hi, usub_ge by (destruct t_nt'; lia). cbn [bind]. rewrite N1. rewrite Lo in E1, E2. rewrite Lo, N2, andb_false_r. cbn [bind].
        rewrite Lo, N2. cbn [bind]. change (vset [d_main d0] 0 (d_main d0)) with (Val [d_main d0]). cbn [bind]. rewrite Lo, E1. cbn [bind]. rewrite E2. reflexivity.
      - unfold t_get_buffer. cbn [d_main d_extra d_names]. change (vget [d_main d0] 0) with (Val (d_main d0)). cbn [bind].
        rewrite Hi, usub_ge by (destruct t_nt'; lia). cbn [bind]. rewrite N1. rewrite Lo in E1, E2. rewrite Lo, N2, andb_false_r. cbn [bind].
        change (vset [d_main d0] 0 (d_main d0)) with (Val [d_main d0]). cbn [bind]. rewrite Lo, E1. cbn [bind]. rewrite E2. reflexivity.
    Qed.
    Lemma small_aux : aux_agree Mp Mt' nt Rel Rel1 Rel2.
    Proof.
      split; [exact (proj2 Hst)|]. cbn [p_mgr m_setup m_get m_getb]. split; [|split; [|split; [|split; [|split]]]].
      - intros d e [Sd Se]. rewrite (setup_sane bld (p_load f) nt _ t_nt' (p_ld f OKp) (p_shows_unique f) dp Np d Sd).
        rewrite (setup_sane bld (t_load g) nt _ t_nt' t_ld' (t_shows_unique g) dt Nt' e Se). cbn [rres].
        split; [exact (setup_sane' bld (p_load f) nt _ t_nt' (p_ld f OKp) (p_shows_unique f) dp Np d Sd)|].
        split; [exact (setup_sane' bld (t_load g) nt _ t_nt' t_ld' (t_shows_unique g) dt Nt' e Se)|]. repeat split.
      - intros d e [Sd [Se [X1 [X2 [X3 X4]]]]]. assert (H0 : (0 < nt)%N) by (destruct t_nt'; lia).
        destruct (get_sane bld (p_load f) nt _ t_nt' (p_ld f OKp) (p_shows_unique f) dp Np d 0 Sd H0) as [d' [x [E1 [G1 [S1 [Y1 [Y2 Y3]]]]]]].
        destruct (get_sane bld (t_load g) nt _ t_nt' t_ld' (t_shows_unique g) dt Nt' e 0 Se H0) as [e' [y [E2 [G2 [S2 [Y4 [Y5 Y6]]]]]]].
        rewrite E1, E2. split; [|exact (same_ts 0 x y H0 G1 G2)]. cbn [fst]. destruct d' as [m1 e1 n1'], e' as [m2 e2 n2].
        cbn [d_main d_extra d_names] in *. rewrite (Y3 eq_refl), (Y6 eq_refl). split; congruence.
      - intros d e t [-> ->] Ht.
        destruct (whole_get _ _ dp t (p_ld f OKp) (p_shows_unique f) Np Ht) as [x [G1 [E1 _]]].
        destruct (whole_get _ _ dt t t_ld' (t_shows_unique g) Nt' Ht) as [y [G2 [E2 _]]].
        rewrite E1, E2. split; [split; reflexivity | exact (same_ts t x y Ht G1 G2)].
      - intros d e t [-> ->] Ht.
        destruct (whole_get _ _ dp t (p_ld f OKp) (p_shows_unique f) Np Ht) as [x [G1 [_ [E1 _]]]].
        destruct (whole_get _ _ dt t t_ld' (t_shows_unique g) Nt' Ht) as [y [G2 [_ [_ E2]]]].
        rewrite E1, E2. split; [split; reflexivity | exact (same_ts t x y Ht G1 G2)].
      - intros d e [Sd [Se _]]. split; assumption.
      - intros d e [-> ->]. destruct (whole _ _ dp (p_ld f OKp) (p_shows_unique f) Np) as [_ [_ [_ S1]]].
        destruct (whole _ _ dt t_ld' (t_shows_unique g) Nt') as [_ [_ [_ S2]]].
        split; [exact (setup_sane' bld (p_load f) nt _ t_nt' (p_ld f OKp) (p_shows_unique f) dp Np dp S1) |
                exact (setup_sane' bld (t_load g) nt _ t_nt' t_ld' (t_shows_unique g) dt Nt' dt S2)].
    Qed.
  End Small.

  (** Every call answers alike on the two files, whatever was requested from either before; the
      methods with an auxiliary buffer on files that fit the buffer. *)
  Theorem c117_same_answers d e s c :
    reached Mp (p_touch bld (p_load f) nt) nt dp d ->
    reached Mt (t_touch bld (t_load g) nt) nt dt e ->
    call_ok nt c -> (uses_aux c = true -> (nt <= 20000)%N) ->
    outcome (py_call bld Mp mt (d, s) c) = outcome (py_call bld Mt mt (e, s) c).
  Proof.
    intros Rd Re Hc Ha.
    assert (Sd : sane nt (p_shows f) dp d).
    { exact (reached_sane bld (p_load f) nt (p_shows f) t_nt' (p_ld f OKp) (p_shows_unique f) dp Np st _ _
        (fun d t => p_getb_touch bld (p_load f) nt d t 0)
        (p_touch_sane bld (p_load f) _ (p_shows f) dp t_nt' (p_ld f OKp) (p_shows_unique f)) d Rd). }
    revert e Re. unfold t_mgr. rewrite <- (proj1 Hsame). intros e Re.
    assert (Se : sane nt (t_shows g) dt e).
    { exact (reached_sane bld (t_load g) nt (t_shows g) t_nt' t_ld' (t_shows_unique g) dt Nt' st _ _
        (fun d t => t_getb_touch bld (t_load g) nt d t 0)
        (t_touch_sane bld (t_load g) _ (t_shows g) dt t_nt' t_ld' (t_shows_unique g)) e Re). }
    apply agree_outcome with (Rel := srel Mp Mt' Rel).
    apply (call_refine bld Mp Mt' eq_refl nt (proj1 Hst) t_nt' mt Rel c_get _ _ c (fun u => small_aux (Ha u)));
      [exact Hc | split; assumption].
  Qed.
End C117.

(** Every particle-ordered file has a time-ordered one of the same content. *)
Definition transposed (f : pfile f64) : tfile f64 :=
  mkTf (fun t => match p_load f t (t + 1) with
    | Val (x :: _) => Some (mkTg (Some (ts_pos x)) (Some (ts_vel x)) (Some (ts_radius x)) (Some (ts_density x))
                                 (Some (ts_clouds x)) (Some (ts_time x)) (Some (ts_type x)) (Some (ts_id x)))
    | _ => None end) (pf_nparticles f) (pf_timesteps f).
Example c117_case (f : pfile f64) : pf_ok f -> same_content f (transposed f) /\ tf_ok (transposed f).
Proof.
  intros OK.
  assert (H : forall t, (t < pf_timesteps f)%N -> exists x l, p_load f t (t + 1) = Val (x :: l) /\ p_shows f t x).
  { intros t Ht. destruct (p_ld f OK t (t + 1) ltac:(lia)) as [l [E [V G]]]. destruct l as [|x l]; [unfold vlen in V; cbn in V; lia|].
    exists x, l. split; [exact E|]. specialize (G 0%N x eq_refl). now rewrite N.add_0_r in G. }
  split.
  - split; [reflexivity|]. intros t Ht. destruct (H t Ht) as [x [l [E G]]]. exists x. split; [exact G|].
    unfold t_shows, transposed. cbn [tf_group]. rewrite E. eexists. split; [reflexivity|]. cbn. repeat split.
  - split; [exact (p_nt f OK)|]. cbn [tf_timesteps tf_group transposed]. intros t Ht. destruct (H t Ht) as [x [l [E G]]]. rewrite E.
    eexists. split; [reflexivity|]. cbn. repeat split; discriminate.
Qed.
