(** * PropertiesRecover: reading after reads that were refused or out of range (C152)

    A read that panics reaches Python as an exception; the object stays in use.  What such a read leaves behind:
    [update] sets [buffersize] first, then reads the file, then fills the slots one by one, and moves the window
    last (pdata.rs 348-597, tdata.rs 328-587).  Not modelled: the slots a time-ordered file has filled when a group
    turns out to be missing. *)
From Coq Require Import Reals NArith ZArith List Lia ZifyN ZifyNat ZifyBool.
From Verif Require Import Base BaseFacts Num F64Facts NDArray DataModel DataSpec DataProofs DataLoad GridModel PropertiesGrid PropertiesData.

Section Left.
  Context {F : Type} {NF : Num F}.
  Variable bld : build.
  Variable load : N -> N -> res (list (timestep F)).
  Variable nt : N.
  (** The buffer after [update], whether it returned or not: pdata.rs 348-597, tdata.rs 328-587. *)
  Definition update_left (lo hi : N) (b : buf F) : buf F :=
    let hi' := if (nt <=? hi)%N then nt else hi in
    match usub bld hi' lo with
    | Panic => b
    | Val size =>
        match load lo hi' with
        | Panic => mkBuf (b_slots b) (b_lo b) (b_hi b) size
        | Val l =>
            if (length l <=? length (b_slots b))%nat then mkBuf (l ++ skipn (length l) (b_slots b)) lo hi' size
            else mkBuf (firstn (length (b_slots b)) l) (b_lo b) (b_hi b) size
        end
    end.
  (** The manager after [get_timestep], whether it returned or not: pdata.rs 906-923, tdata.rs 884-901. *)
  Definition dm_after (d : dm F) (t : N) : dm F :=
    let m := d_main d in
    match usub bld (b_hi m) 1 with
    | Panic => d
    | Val last =>
        let m' :=
          if (last <? t)%N then
            match uadd bld t (b_size m) with Panic => m | Val hi => update_left t hi m end
          else if (t <? b_lo m)%N then update_left (chunk t * BUFFERSIZE) ((chunk t + 1) * BUFFERSIZE) m
          else m in
        mkDm m' (d_extra d) (d_names d)
    end.

  Lemma update_left_val lo hi b b' : buf_update bld load nt lo hi b = Val b' -> update_left lo hi b = b'.
  Proof.
    unfold buf_update, update_left. destruct (usub bld _ lo) as [size|]; [|discriminate]. cbn [bind].
    destruct (load lo _) as [l|]; [|discriminate]. cbn [bind]. unfold overwrite.
    destruct (length l <=? length (b_slots b))%nat; [|discriminate]. cbn [bind]. intros E. now injection E.
  Qed.
  (** A read that returns leaves what it returns. *)
  Lemma dm_after_val d t d' x : dm_get bld load nt d t = Val (d', x) -> dm_after d t = d'.
  Proof.
    unfold dm_get, dm_after. destruct (usub bld (b_hi (d_main d)) 1) as [last|]; [|discriminate]. cbn [bind].
    intros E. apply bind_val in E. destruct E as [m' [E1 E]]. apply bind_val in E. destruct E as [k [_ E]].
    apply bind_val in E. destruct E as [y [_ E]]. apply Val_pair in E. destruct E as [<- _]. f_equal.
    destruct (last <? t)%N.
    - apply bind_val in E1. destruct E1 as [hi [-> E1]]. now apply update_left_val.
    - destruct (t <? b_lo (d_main d))%N; [now apply update_left_val | now injection E1].
  Qed.
End Left.

Section Main.
  Context (bld : build) (load : N -> N -> res (list (timestep f64))) (nt : N)
          (good : N -> timestep f64 -> Prop).
  Hypothesis Hnt : (1 <= nt <= 2 ^ 53)%N.
  Hypothesis Hload : forall lo hi, (lo <= hi <= nt)%N -> exists l, load lo hi = Val l /\
    vlen l = (hi - lo)%N /\ forall k x, at_ l k x -> good (lo + k)%N x.
  Definition minv (m : buf f64) : Prop :=
    vlen (b_slots m) = BUFFERSIZE /\ (b_size m <= BUFFERSIZE)%N /\
    (binv nt good m \/ b_lo m = nt /\ b_hi m = nt).
  Lemma binv_minv m : binv nt good m -> minv m.
  Proof. intros I. pose proof I as [V [_ [_ [Z _]]]]. split; [exact V|]. split; [exact Z | now left]. Qed.

  Lemma get_minv d t : minv (d_main d) -> (t < nt)%N ->
    exists d' x, dm_get bld load nt d t = Val (d', x) /\ good t x /\ minv (d_main d').
  Proof.
    intros [V [Z Hm]] Ht. unfold dm_get. set (m := d_main d) in *.
    assert (Hi : (1 <= b_hi m)%N) by (destruct Hm as [[_ [Q _]]|[_ Q]]; lia).
    rewrite usub_ge by lia. cbn [bind].
    assert (Fin : forall m', binv nt good m' -> (b_lo m' <= t < b_hi m')%N -> exists d' x,
      (let! k := usub bld t (b_lo m') in let! x := vget (b_slots m') k in Val (mkDm m' (d_extra d) (d_names d), x)) = Val (d', x) /\
      good t x /\ minv (d_main d')).
    { intros m' I Hw. destruct (binv_read bld load nt good Hnt Hload m' t I Hw) as [x [E1 [E2 G]]]. rewrite E1. cbn [bind].
      rewrite E2. cbn [bind]. eexists _, x. split; [reflexivity|]. split; [exact G|]. cbn [d_main]. now apply binv_minv. }
    destruct (N.ltb_spec (b_hi m - 1) t) as [C|C].
    - rewrite reach_ok by lia. cbn [bind].
      destruct Hm as [[_ [Q1 [Q2 _]]]|[_ Q]]; [|lia].
      destruct (update_ok bld load nt good Hnt Hload m t (t + b_size m)) as [m' [E [I [L H]]]]; [exact V | lia | lia |].
      rewrite E. cbn [bind]. apply Fin; [exact I | lia].
    - destruct (N.ltb_spec t (b_lo m)) as [C2|C2].
      + rewrite (chunk_div t) by lia.
        assert (Db : (t / BUFFERSIZE * BUFFERSIZE <= t < (t / BUFFERSIZE + 1) * BUFFERSIZE)%N).
        { assert (A := N.div_mod' t BUFFERSIZE). assert (B := N.mod_upper_bound t BUFFERSIZE ltac:(discriminate)). lia. }
        destruct (update_ok bld load nt good Hnt Hload m (t / BUFFERSIZE * BUFFERSIZE) ((t / BUFFERSIZE + 1) * BUFFERSIZE))
          as [m' [E [I [L H]]]]; [exact V | lia | lia |].
        rewrite E. cbn [bind]. apply Fin; [exact I | lia].
      + cbn [bind]. destruct Hm as [I|[Q1 Q2]]; [|lia]. apply Fin; [exact I | lia].
  Qed.
  Lemma after_minv d t : minv (d_main d) -> (bld = Debug \/ (t <= nt)%N) -> minv (d_main (dm_after bld load nt d t)).
  Proof.
    intros M Ht. destruct (N.lt_ge_cases t nt) as [C|C].
    - destruct (get_minv d t M C) as [d' [x [E [_ I]]]]. now rewrite (dm_after_val _ _ _ _ _ _ _ E).
    - pose proof M as [V [Z Hm]]. unfold dm_after. set (m := d_main d) in *.
      assert (Hi : (1 <= b_hi m <= nt)%N) by (destruct Hm as [[_ [Q _]]|[_ Q]]; lia).
      rewrite usub_ge by lia. cbn [d_main]. destruct (N.ltb_spec (b_hi m - 1) t) as [_|C2]; [|lia].
      unfold uadd. destruct (N.ltb_spec (t + b_size m) usize_modulus) as [C3|C3].
      + unfold update_left. destruct (N.leb_spec nt (t + b_size m)) as [_|C4]; [|lia].
        destruct (N.eq_dec t nt) as [->|Ne].
        * rewrite usub_ge by lia. destruct (Hload nt nt ltac:(lia)) as [l [E [L _]]]. rewrite E.
          assert (l = []) by (destruct l; [reflexivity | unfold vlen in L; cbn in L; lia]). subst l.
          cbn [length Nat.leb skipn app]. split; [exact V|]. cbn [b_size b_lo b_hi]. split; [lia|]. now right.
        * destruct Ht as [->|Ht]; [|lia]. unfold usub. destruct (N.leb_spec t nt) as [C4|_]; [lia|]. exact M.
      + destruct Ht as [->|Ht]; [exact M|]. exfalso. unfold usize_modulus, BUFFERSIZE in *. lia.
  Qed.
  Lemma recovers d0 : dm_new bld load nt = Val d0 -> forall ts, (bld = Debug \/ Forall (fun t => (t <= nt)%N) ts) ->
    forall t, (t < nt)%N -> exists d' x, dm_get bld load nt (fold_left (dm_after bld load nt) ts d0) t = Val (d', x) /\ good t x.
  Proof.
    intros E0 ts Hts t Ht. destruct (new_ok bld load nt good Hnt Hload) as [d [E [[I _] _]]]. rewrite E0 in E. injection E as <-.
    assert (Q : forall ts d, minv (d_main d) -> (bld = Debug \/ Forall (fun t => (t <= nt)%N) ts) ->
      minv (d_main (fold_left (dm_after bld load nt) ts d))).
    { clear - Hnt Hload. induction ts as [|u ts IH]; intros d M H; cbn [fold_left]; [exact M|]. apply IH.
      - apply after_minv; [exact M|]. destruct H as [H|H]; [now left|]. inversion H; now right.
      - destruct H as [H|H]; [now left|]. inversion H; now right. }
    destruct (get_minv _ t (Q ts d0 (binv_minv _ I) Hts) Ht) as [d' [x [G [Gx _]]]]. eauto.
  Qed.
End Main.

(** ** C152 *)
(** Reads of any indices, returned or refused, never spoil a later read in range: in builds with overflow checks, and
    in every build as long as no index was more than one past the end. *)
Theorem c152_p (bld : build) (f : pfile f64) (ts : list N) (t : N) : pf_ok f ->
  (bld = Debug \/ Forall (fun u => (u <= pf_timesteps f)%N) ts) -> (t < pf_timesteps f)%N ->
  exists d0 d' x, dm_new bld (p_load f) (pf_timesteps f) = Val d0 /\
    dm_get bld (p_load f) (pf_timesteps f) (fold_left (dm_after bld (p_load f) (pf_timesteps f)) ts d0) t = Val (d', x) /\
    p_shows f t x.
Proof.
  intros OK Hts Ht. destruct (new_ok bld _ _ _ (p_nt f OK) (p_ld f OK)) as [d0 [E0 _]].
  destruct (recovers bld _ _ _ (p_nt f OK) (p_ld f OK) d0 E0 ts Hts t Ht) as [d' [x [G S]]]. eauto 6.
Qed.
Theorem c152_t (bld : build) (f : tfile f64) (ts : list N) (t : N) : tf_ok f ->
  (bld = Debug \/ Forall (fun u => (u <= tf_timesteps f)%N) ts) -> (t < tf_timesteps f)%N ->
  exists d0 d' x, dm_new bld (t_load f) (tf_timesteps f) = Val d0 /\
    dm_get bld (t_load f) (tf_timesteps f) (fold_left (dm_after bld (t_load f) (tf_timesteps f)) ts d0) t = Val (d', x) /\
    t_shows f t x.
Proof.
  intros OK Hts Ht. destruct (new_ok bld _ _ _ (t_nt f OK) (t_ld f OK)) as [d0 [E0 _]].
  destruct (recovers bld _ _ _ (t_nt f OK) (t_ld f OK) d0 E0 ts Hts t Ht) as [d' [x [G S]]]. eauto 6.
Qed.
Example c152_case : pf_ok (ex_pfile 2 30000) /\ tf_ok (ex_tfile 30000) /\ (29999 < pf_timesteps (ex_pfile 2 30000))%N.
Proof. split; [apply ex_pfile_ok; lia|]. split; [apply ex_tfile_ok; lia | reflexivity]. Qed.

(** False of the code without overflow checks.  Time-ordered files: two reads past the end, the second one nearer to it,
    wrap the size of the window around; a read of one of the last timesteps then gives the first one. *)
Lemma wrap_add t a : (a <= t < 2 ^ 63)%N -> (1 <= a)%N -> uadd Release t (usize_modulus - a) = Val (t - a)%N.
Proof.
  intros H1 H2. unfold uadd. unfold usize_modulus. destruct (N.ltb_spec (t + (2 ^ 64 - a)) (2 ^ 64)) as [C|C]; [lia|].
  f_equal. lia.
Qed.
Lemma wrap_sub t a : (a <= t < 2 ^ 63)%N -> (1 <= a)%N -> usub Release (t - a) t = Val (usize_modulus - a)%N.
Proof.
  intros H1 H2. unfold usub. destruct (N.leb_spec t (t - a)) as [C|C]; [lia|]. f_equal. unfold usize_modulus. lia.
Qed.
Section Wrap.
  Context (load : N -> N -> res (list (timestep f64))) (nt : N) (good : N -> timestep f64 -> Prop).
  Hypothesis Hnt : (1 <= nt <= 2 ^ 53)%N.
  Hypothesis Hload : forall lo hi, (lo <= hi <= nt)%N -> exists l, load lo hi = Val l /\
    vlen l = (hi - lo)%N /\ forall k x, at_ l k x -> good (lo + k)%N x.
  (** A read whose range wraps around reads nothing and answers with slot 0. *)
  Lemma empty_read d t hi size x : (b_hi (d_main d) - 1 < t)%N -> (1 <= b_hi (d_main d))%N ->
    uadd Release t (b_size (d_main d)) = Val hi -> usub Release (if (nt <=? hi)%N then nt else hi) t = Val size ->
    load t (if (nt <=? hi)%N then nt else hi) = Val [] -> at_ (b_slots (d_main d)) 0 x ->
    dm_get Release load nt d t =
      Val (mkDm (mkBuf (b_slots (d_main d)) t (if (nt <=? hi)%N then nt else hi) size) (d_extra d) (d_names d), x).
  Proof.
    intros C Hi U S L X. unfold dm_get. rewrite usub_ge by exact Hi. cbn [bind]. apply N.ltb_lt in C. rewrite C, U. cbn [bind].
    unfold buf_update. rewrite S. cbn [bind]. rewrite L. unfold overwrite. cbn [length Nat.leb app skipn bind b_lo b_slots].
    rewrite usub_ge by lia. cbn [bind]. rewrite N.sub_diag, (at_vget _ _ _ X). reflexivity.
  Qed.
  Hypothesis Hempty : forall lo hi, (hi <= lo)%N -> load lo hi = Val [].
  Lemma three_reads d0 (a b t : N) : dm_new Release load nt = Val d0 -> (1 <= b < a)%N -> (a <= t)%N ->
    (nt + b <= t + a)%N -> (t < nt)%N ->
    exists d1 d2 d3 x, good 0%N x /\ dm_get Release load nt d0 (nt + a)%N = Val (d1, x) /\
      dm_get Release load nt d1 (nt + b)%N = Val (d2, x) /\ dm_get Release load nt d2 t = Val (d3, x).
  Proof.
    intros E0 Hb Ha Hw Ht. destruct (new_ok Release load nt good Hnt Hload) as [d [E [[I _] [_ [L H]]]]].
    rewrite E0 in E. injection E as <-. pose proof I as [V [W [Z [S5 S6]]]].
    destruct (S6 0%N ltac:(lia)) as [x [X G]]. rewrite L in G. cbn in G.
    pose proof (empty_read d0 (nt + a) (nt + a + b_size (d_main d0)) (usize_modulus - a) x) as R1.
    assert (T1 : (nt <=? nt + a + b_size (d_main d0))%N = true) by (apply N.leb_le; lia). rewrite T1 in R1.
    pose proof (empty_read (mkDm (mkBuf (b_slots (d_main d0)) (nt + a) nt (usize_modulus - a)) (d_extra d0) (d_names d0))
      (nt + b) (nt + b - a) (usize_modulus - a) x) as R2. cbn [d_main b_hi b_size b_slots d_extra d_names] in R2.
    assert (T2 : (nt <=? nt + b - a)%N = false) by (apply N.leb_gt; lia). rewrite T2 in R2.
    pose proof (empty_read (mkDm (mkBuf (b_slots (d_main d0)) (nt + b) (nt + b - a) (usize_modulus - a)) (d_extra d0) (d_names d0))
      t (t - a) (usize_modulus - a) x) as R3. cbn [d_main b_hi b_size b_slots d_extra d_names] in R3.
    assert (T3 : (nt <=? t - a)%N = false) by (apply N.leb_gt; lia). rewrite T3 in R3.
    eexists _, _, _, x. split; [exact G|]. split; [apply R1 | split; [apply R2 | apply R3]]; try exact X; try lia;
      try (apply Hempty; lia); try (apply wrap_add; lia); try (apply wrap_sub; lia).
    - unfold uadd, usize_modulus. destruct (N.ltb_spec (nt + a + b_size (d_main d0)) (2 ^ 64)) as [_|C]; [reflexivity|].
      unfold BUFFERSIZE in *. lia.
    - rewrite <- (wrap_sub (nt + a)%N a) by lia. f_equal. lia.
  Qed.
End Wrap.
Theorem c152_stale_refuted (f : tfile f64) (a b t : N) : tf_ok f -> (1 <= b < a)%N -> (a <= t < tf_timesteps f)%N ->
  (tf_timesteps f + b <= t + a)%N ->
  exists d x, t_shows f 0 x /\
    t_hist Release f [ORead (tf_timesteps f + a)%N; ORead (tf_timesteps f + b)%N; ORead t] =
    Val (d, [((tf_timesteps f + a)%N, x); ((tf_timesteps f + b)%N, x); (t, x)]).
Proof.
  intros OK Hb Ht Hw. destruct (new_ok Release _ _ _ (t_nt f OK) (t_ld f OK)) as [d0 [E0 _]].
  assert (He : forall lo hi, (hi <= lo)%N -> t_load f lo hi = Val []).
  { intros lo hi Hl. unfold t_load, range. replace (N.to_nat (hi - lo)) with 0%nat by lia. reflexivity. }
  destruct (three_reads _ _ _ (t_nt f OK) (t_ld f OK) He d0 a b t E0 Hb (proj1 Ht) Hw (proj2 Ht))
    as [d1 [d2 [d3 [x [G [R1 [R2 R3]]]]]]].
  exists d3, x. split; [exact G|]. unfold t_hist, dhist. rewrite E0. cbn [bind drun dstep].
  rewrite R1. cbn [bind fst snd app]. rewrite R2. cbn [bind fst snd app]. rewrite R3. reflexivity.
Qed.
Example c152_stale_case : tf_ok (ex_tfile 30) /\ (1 <= 1 < 2)%N /\ (2 <= 29 < tf_timesteps (ex_tfile 30))%N /\
  (tf_timesteps (ex_tfile 30) + 1 <= 29 + 2)%N.
Proof. split; [apply ex_tfile_ok; lia|]. cbn [tf_timesteps ex_tfile]. lia. Qed.

(** Particle-ordered files: the refused read has wrapped the size of the window around as well, and a read in range
    beyond the window is refused ... *)
Theorem c152_refused_refuted (f : pfile f64) (e : N) : pf_ok f -> (BUFFERSIZE < pf_timesteps f)%N -> (1 <= e <= BUFFERSIZE)%N ->
  exists d0, dm_new Release (p_load f) (pf_timesteps f) = Val d0 /\
    dm_get Release (p_load f) (pf_timesteps f) d0 (pf_timesteps f + e) = Panic /\
    dm_get Release (p_load f) (pf_timesteps f) (dm_after Release (p_load f) (pf_timesteps f) d0 (pf_timesteps f + e)) BUFFERSIZE = Panic.
Proof.
  intros OK Hn He. assert (Hnt := p_nt f OK). assert (Hld := p_ld f OK). set (nt := pf_timesteps f) in *.
  destruct (new_ok Release (p_load f) nt _ Hnt Hld) as [d0 [E0 [[I Ix] [_ [L H]]]]]. exists d0. split; [exact E0|].
  pose proof I as [V [W [Z [S5 S6]]]].
  assert (Bad : forall lo hi, (hi < lo)%N -> p_load f lo hi = Panic).
  { intros lo hi C. unfold p_load. apply N.ltb_lt in C. now rewrite C. }
  split.
  { apply (far_past_end_load (p_load f) nt (p_shows f) Hnt Hld Release d0 (nt + e)%N); [split; [exact I | exact Ix] | unfold usize_modulus, BUFFERSIZE in *; lia |].
    intros hi Hh. now apply Bad. }
  assert (A : dm_after Release (p_load f) nt d0 (nt + e) =
    mkDm (mkBuf (b_slots (d_main d0)) 0 BUFFERSIZE (usize_modulus - e)) (d_extra d0) (d_names d0)).
  { unfold dm_after. rewrite usub_ge by lia. destruct (N.ltb_spec (b_hi (d_main d0) - 1) (nt + e)) as [_|C]; [|lia].
    unfold uadd. destruct (N.ltb_spec (nt + e + b_size (d_main d0)) usize_modulus) as [_|C]; [|unfold usize_modulus, BUFFERSIZE in *; lia].
    unfold update_left. destruct (N.leb_spec nt (nt + e + b_size (d_main d0))) as [_|C]; [|lia].
    assert (S : usub Release nt (nt + e) = Val (usize_modulus - e)%N).
    { rewrite <- (wrap_sub (nt + e)%N e) by (unfold BUFFERSIZE in *; lia). f_equal. lia. }
    rewrite S, Bad by lia. rewrite L, H. replace (N.min BUFFERSIZE nt) with BUFFERSIZE by lia. reflexivity. }
  rewrite A. unfold dm_get. cbn [d_main b_hi b_lo b_size b_slots]. rewrite usub_ge by (unfold BUFFERSIZE; lia). cbn [bind].
  destruct (N.ltb_spec (BUFFERSIZE - 1) BUFFERSIZE) as [_|C]; [|unfold BUFFERSIZE in C; lia].
  rewrite wrap_add by (unfold BUFFERSIZE in *; lia). cbn [bind]. unfold buf_update.
  destruct (N.leb_spec nt (BUFFERSIZE - e)) as [C|_]; [lia|]. rewrite wrap_sub by (unfold BUFFERSIZE in *; lia). cbn [bind].
  rewrite Bad by (unfold BUFFERSIZE in *; lia). reflexivity.
Qed.
Example c152_refused_case : pf_ok (ex_pfile 2 30000) /\ (BUFFERSIZE < pf_timesteps (ex_pfile 2 30000))%N /\ (1 <= 5 <= BUFFERSIZE)%N.
Proof. split; [apply ex_pfile_ok; lia|]. split; [reflexivity | unfold BUFFERSIZE; lia]. Qed.
(** ... or, after an index far enough past the end, is refused when it has overwritten the buffer already: timestep 0 is
    then answered with the data of another timestep. *)
Theorem c152_overwritten_refuted (f : pfile f64) (e : N) : pf_ok f -> (2 * BUFFERSIZE < pf_timesteps f)%N ->
  (BUFFERSIZE < e)%N -> (pf_timesteps f + e + BUFFERSIZE < 2 ^ 64)%N ->
  exists d0 d' x, dm_new Release (p_load f) (pf_timesteps f) = Val d0 /\
    let d1 := dm_after Release (p_load f) (pf_timesteps f) d0 (pf_timesteps f + e) in
    let d2 := dm_after Release (p_load f) (pf_timesteps f) d1 BUFFERSIZE in
    dm_get Release (p_load f) (pf_timesteps f) d1 BUFFERSIZE = Panic /\
    dm_get Release (p_load f) (pf_timesteps f) d2 0 = Val (d', x) /\ p_shows f BUFFERSIZE x.
Proof.
  intros OK Hn He Hm. assert (Hnt := p_nt f OK). assert (Hld := p_ld f OK). set (nt := pf_timesteps f) in *.
  destruct (new_ok Release (p_load f) nt _ Hnt Hld) as [d0 [E0 [[I Ix] [_ [L H]]]]].
  pose proof I as [V [W [Z [S5 S6]]]].
  assert (Bad : forall lo hi, (hi < lo)%N -> p_load f lo hi = Panic).
  { intros lo hi C. unfold p_load. apply N.ltb_lt in C. now rewrite C. }
  assert (A : dm_after Release (p_load f) nt d0 (nt + e) =
    mkDm (mkBuf (b_slots (d_main d0)) 0 BUFFERSIZE (usize_modulus - e)) (d_extra d0) (d_names d0)).
  { unfold dm_after. rewrite usub_ge by lia. destruct (N.ltb_spec (b_hi (d_main d0) - 1) (nt + e)) as [_|C]; [|lia].
    unfold uadd. destruct (N.ltb_spec (nt + e + b_size (d_main d0)) usize_modulus) as [_|C]; [|unfold usize_modulus in *; lia].
    unfold update_left. destruct (N.leb_spec nt (nt + e + b_size (d_main d0))) as [_|C]; [|lia].
    assert (S : usub Release nt (nt + e) = Val (usize_modulus - e)%N).
    { unfold usub. destruct (N.leb_spec (nt + e) nt) as [C|_]; [lia|]. f_equal. unfold usize_modulus. lia. }
    rewrite S, Bad by lia. rewrite L, H. replace (N.min BUFFERSIZE nt) with BUFFERSIZE by lia. reflexivity. }
  destruct (Hld BUFFERSIZE nt ltac:(lia)) as [l [El [Ll Gl]]].
  assert (Long : (length l <=? length (b_slots (d_main d0)))%nat = false).
  { apply Nat.leb_gt. unfold vlen in *. lia. }
  assert (U : uadd Release BUFFERSIZE (usize_modulus - e) = Val (BUFFERSIZE + (usize_modulus - e))%N).
  { unfold uadd. destruct (N.ltb_spec (BUFFERSIZE + (usize_modulus - e)) usize_modulus) as [_|C]; [reflexivity|].
    unfold usize_modulus, BUFFERSIZE in *. lia. }
  assert (T : (nt <=? BUFFERSIZE + (usize_modulus - e))%N = true).
  { apply N.leb_le. unfold usize_modulus. lia. }
  assert (Lt : (BUFFERSIZE - 1 <? BUFFERSIZE)%N = true) by reflexivity.
  assert (One : (1 <= BUFFERSIZE)%N) by (unfold BUFFERSIZE; lia).
  set (d1 := mkDm (mkBuf (b_slots (d_main d0)) 0 BUFFERSIZE (usize_modulus - e)) (d_extra d0) (d_names d0)) in *.
  assert (A2 : dm_after Release (p_load f) nt d1 BUFFERSIZE =
    mkDm (mkBuf (firstn (length (b_slots (d_main d0))) l) 0 BUFFERSIZE (nt - BUFFERSIZE)) (d_extra d0) (d_names d0)).
  { unfold dm_after, d1. cbn [d_main b_hi b_lo b_size b_slots d_extra d_names]. rewrite usub_ge by exact One.
    rewrite Lt, U. unfold update_left. rewrite T, usub_ge by lia. rewrite El. cbn [b_slots b_lo b_hi]. rewrite Long. reflexivity. }
  destruct (vget_lt l 0) as [x X]; [lia|]. apply vget_val in X.
  eexists d0, _, x. split; [exact E0|]. cbv zeta. rewrite A, A2. split; [|split].
  - unfold dm_get, d1. cbn [d_main b_hi b_lo b_size b_slots]. rewrite usub_ge by exact One. cbn [bind].
    rewrite Lt, U. cbn [bind]. unfold buf_update. rewrite T, usub_ge by lia. cbn [bind]. rewrite El. cbn [bind b_slots].
    unfold overwrite. rewrite Long. reflexivity.
  - unfold dm_get. cbn [d_main b_hi b_lo b_size b_slots]. rewrite usub_ge by exact One. cbn [bind].
    assert (C0 : (BUFFERSIZE - 1 <? 0)%N = false) by reflexivity. rewrite C0. cbn [N.ltb N.compare bind b_lo b_slots].
    rewrite usub_ge by lia. cbn [bind].
    assert (Q : vget (firstn (length (b_slots (d_main d0))) l) (0 - 0) = Val x).
    { apply vget_val. cbn. destruct (length (b_slots (d_main d0))) as [|n] eqn:Ln; [unfold vlen, BUFFERSIZE in V; lia|].
      destruct l as [|y l]; [discriminate X|]. exact X. }
    rewrite Q. cbn [bind]. reflexivity.
  - specialize (Gl 0%N x X). now rewrite N.add_0_r in Gl.
Qed.
Example c152_overwritten_case : pf_ok (ex_pfile 2 50000) /\ (2 * BUFFERSIZE < pf_timesteps (ex_pfile 2 50000))%N /\
  (BUFFERSIZE < 70000)%N /\ (pf_timesteps (ex_pfile 2 50000) + 70000 + BUFFERSIZE < 2 ^ 64)%N.
Proof. split; [apply ex_pfile_ok; lia|]. repeat split; reflexivity. Qed.
Print Assumptions c152_p.
Print Assumptions c152_overwritten_refuted.
