(** * SessionProofs: whatever was done with a [Data] object before, the next call behaves as on a
    freshly opened one. *)
From Coq Require Import NArith ZArith List Bool String Lia ZifyBool ZifyN ZifyNat.
From Verif Require Import Base BaseFacts Num NDArray GridModel SelModel DataModel DataSpec DataProofs DataLoad PropertiesGrid PropertiesData FunModel FunSpec MixModel CondModel PyModel FunRefine SessionModel SessionSpec.

(** Two managers whose reads agree answer every call alike. *)
Section CallRefine.
  Context {F : Type} {NF : Num F} {TF : Trig F}.
  Variable bld : build.
  Variables M1 M2 : mgr F.
  Hypothesis Hst : m_stats M1 = m_stats M2.
  Variable nt : N.
  Hypothesis Nt : st_timesteps (m_stats M2) = nt.
  Hypothesis Hnt : (1 <= nt <= 2 ^ 53)%N.
  Variable mt : F.

  Lemma item_index i : item_ok nt i -> (py_index M2 i < nt)%N.
  Proof.
    unfold item_ok, py_index, as_usize. rewrite Nt. intros H.
    rewrite Z.mod_small; destruct (Z.ltb_spec i 0); lia.
  Qed.
  Lemma bound_pos n k o lo hi : (0 <= n)%Z -> (0 < k)%Z -> (0 <= lo <= n)%Z ->
    (0 <= slice_bound n k o lo hi <= n)%Z.
  Proof.
    intros Hn Hk Hl. unfold slice_bound. destruct (Z.ltb_spec k 0); [lia|]. destruct o as [i|]; [|lia].
    destruct (Z.ltb_spec i 0); [destruct (Z.ltb_spec (i + n) 0); lia|]. destruct (Z.leb_spec n i); lia.
  Qed.
  Lemma slice_in a b s a' b' s' : match s with Some k => (0 < k)%Z | None => True end ->
    slice_indices (Z.of_N nt) a b s = Val (a', b', s') ->
    forall t, In t (map as_usize (step_range a' b' (as_usize s'))) -> (t < nt)%N.
  Proof.
    intros Hs E t Ht. unfold slice_indices in E. set (k := match s with Some k => k | None => 1%Z end) in *.
    assert (Hk : (0 < k)%Z) by (unfold k; destruct s; lia).
    destruct (Z.eqb_spec k 0); [discriminate|].
    assert (Ea : a' = slice_bound (Z.of_N nt) k a 0 (Z.of_N nt - 1)) by congruence.
    assert (Eb : b' = slice_bound (Z.of_N nt) k b (Z.of_N nt) (-1)) by congruence. assert (Es : s' = k) by congruence. clear E.
    assert (Ba : (0 <= a' <= Z.of_N nt)%Z) by (rewrite Ea; apply bound_pos; lia).
    assert (Bb : (0 <= b' <= Z.of_N nt)%Z) by (rewrite Eb; apply bound_pos; lia).
    apply in_map_iff in Ht. destruct Ht as [z [<- Hz]]. unfold step_range in Hz. apply in_map_iff in Hz.
    destruct Hz as [j [<- Hj]]. apply in_seq in Hj. set (m := Z.of_N (as_usize s')) in *.
    assert (Hj0 : (Z.of_nat j < (b' - a' + m - 1) / m)%Z) by lia.
    destruct (Z.eq_dec m 0) as [Z0|NZ]; [rewrite Z0 in Hj0; rewrite Zdiv_0_r in Hj0; lia|].
    assert (Hm : (0 < m)%Z) by (unfold m in *; lia).
    assert (H1 : (Z.of_nat j * m <= b' - a' - 1)%Z).
    { assert (Q : (m * ((b' - a' + m - 1) / m) <= b' - a' + m - 1)%Z) by (apply Z.mul_div_le; lia). nia. }
    unfold as_usize. rewrite Z.mod_small by nia. nia.
  Qed.


  Variable Rel : ms M1 -> ms M2 -> Prop.
  Hypothesis Hget : forall d e t, Rel d e -> (t < nt)%N -> rres (agree Rel) (m_get M1 d t) (m_get M2 e t).
  Variables Rel1 Rel2 : ms M1 -> ms M2 -> Prop.
  (** What the functions with an auxiliary buffer need in addition. *)
  Definition aux_agree : Prop :=
    vlen (st_time (m_stats M2)) = nt /\
    (forall d e, Rel d e -> rres Rel1 (m_setup M1 d 0) (m_setup M2 e 0)) /\
    (forall d e, Rel1 d e -> rres (agree Rel2) (m_get M1 d 0) (m_get M2 e 0)) /\
    (forall d e t, Rel2 d e -> (t < nt)%N -> rres (agree Rel2) (m_get M1 d t) (m_get M2 e t)) /\
    (forall d e t, Rel2 d e -> (t < nt)%N -> rres (agree Rel2) (m_getb M1 d t 0) (m_getb M2 e t 0)) /\
    (forall d e, Rel1 d e -> Rel d e) /\ (forall d e, Rel2 d e -> Rel d e).
  Definition srel (a : session M1) (b : session M2) : Prop := Rel (fst a) (fst b) /\ snd a = snd b.
  Lemma r_ask {A} s (k : A -> answer F) (x : res (ms M1 * A)) (y : res (ms M2 * A)) : rres (agree Rel) x y ->
    rres (agree srel) (ask M1 s x k) (ask M2 s y k).
  Proof.
    intros H. unfold ask. apply (rbind (agree Rel)); [exact H|]. intros [d1 a] [e1 b] [S1 R]. cbn [fst snd] in *. subst b.
    split; [split; [exact S1 | reflexivity] | reflexivity].
  Qed.
  Theorem call_refine c : (uses_aux c = true -> aux_agree) -> forall d e s, call_ok nt c -> Rel d e ->
    rres (agree srel) (py_call bld M1 mt (d, s) c) (py_call bld M2 mt (e, s) c).
  Proof.
    intros Ha d e s Hc Hr.
    assert (H1 : (1 <= st_timesteps (m_stats M2))%N) by lia.
    assert (Hg : forall d e t, Rel d e -> (t < st_timesteps (m_stats M2))%N -> rres (agree Rel) (m_get M1 d t) (m_get M2 e t))
      by (rewrite Nt; exact Hget).
    assert (Done : forall a : answer F, rres (agree srel) (Val (((d, s) : session M1), a)) (Val (((e, s) : session M2), a)))
      by (intros a; split; [split; [exact Hr | reflexivity] | reflexivity]).
    destruct c; cbn [py_call call_ok uses_aux] in *; try (apply r_ask).
    - destruct (py_set_time s mt tmin tmax) as [s'|]; [|exact I]. split; [split; [exact Hr | reflexivity] | reflexivity].
    - exact (r_vectorfield bld M1 M2 Hst H1 Rel Hg d e _ _ Hr).
    - exact (r_velocityfield bld M1 M2 Hst H1 Rel Hg d e _ _ _ _ _ Hr).
    - exact (r_extract bld M1 M2 Hst H1 Rel Hg d e _ _ _ Hr).
    - exact (r_numberfield bld M1 M2 Hst H1 Rel Hg d e _ _ Hr).
    - destruct (Ha eq_refl) as [A0 [A1 [A2 [A3 [A4 [A5 A6]]]]]]. rewrite <- Nt in A3, A4, Hc.
      exact (r_occupancy bld M1 M2 Hst H1 Rel Rel1 Rel2 A1 A2 A3 A4 A5 A6 d e _ _ _ Hc Hr).
    - unfold mean_velocity. rewrite Hst. apply Done.
    - destruct (Ha eq_refl) as [A0 [A1 [A2 [A3 [A4 [A5 A6]]]]]]. rewrite <- Nt in A3, A4, A0.
      exact (r_dispersion bld M1 M2 Hst H1 Rel Rel1 Rel2 A1 A2 A3 A4 A5 A6 A0 d e _ _ _ Hr).
    - exact (r_histogram bld M1 M2 Hst H1 Rel Hg d e _ _ _ _ _ Hr).
    - exact (r_temperature bld M1 M2 Hst H1 Rel Hg d e _ _ _ Hr).
    - exact (r_lacey bld M1 M2 Hst H1 Rel Hg d e _ _ _ _ _ Hr).
    - exact (r_circulation bld M1 M2 Hst H1 Rel Hg d e _ _ _ Hr).
    - exact (r_circulation2 bld M1 M2 Hst H1 Rel Hg d e _ _ _ _ Hr).
    - exact (r_concentration bld M1 M2 Hst H1 Rel Hg d e _ _ _ _ Hr).
    - destruct (Ha eq_refl) as [A0 [A1 [A2 [A3 [A4 [A5 A6]]]]]]. rewrite <- Nt in A3, A4, Hc.
      exact (r_homogenity bld M1 M2 Hst H1 Rel Rel1 Rel2 A1 A2 A3 A4 A5 A6 d e _ _ _ Hc Hr).
    - destruct (Ha eq_refl) as [A0 [A1 [A2 [A3 [A4 [A5 A6]]]]]]. rewrite <- Nt in A3, A4, A0.
      exact (r_msd_field bld M1 M2 Hst H1 Rel Rel1 Rel2 A1 A2 A3 A4 A5 A6 A0 d e _ _ _ Hr).
    - destruct (Ha eq_refl) as [A0 [A1 [A2 [A3 [A4 [A5 A6]]]]]]. rewrite <- Nt in A3, A4, A0.
      exact (r_msd bld M1 M2 Hst H1 Rel Rel1 Rel2 A1 A2 A3 A4 A5 A6 A0 d e _ _ _ _ _ Hr).
    - apply (r_int M1 M2 Hst Rel Hg d e _ Hr). rewrite Nt. now apply item_index.
    - apply (r_list M1 M2 Hst Rel Hg d e _ Hr). intros i Hi. rewrite Nt. apply item_index. rewrite Forall_forall in Hc. now apply Hc.
    - apply (r_slice M1 M2 Hst Rel Hg d e _ _ _ Hr). rewrite Nt. intros a' b' s' E. now apply (slice_in a b st a' b' s').
    - rewrite Hst. apply Done.
    - rewrite Hst. apply Done.
    - rewrite Hst. apply Done.
    - rewrite Hst. apply Done.
    - rewrite Hst. apply Done.
    - rewrite Hst. apply Done.
  Qed.
End CallRefine.

Section Sane.
  Context (bld : build) (load : N -> N -> res (list (timestep f64))) (nt : N)
          (good : N -> timestep f64 -> Prop).
  Hypothesis Hnt : (1 <= nt <= 2 ^ 53)%N.
  Hypothesis Hload : forall lo hi, (lo <= hi <= nt)%N -> exists l, load lo hi = Val l /\
    vlen l = (hi - lo)%N /\ forall k x, at_ l k x -> good (lo + k)%N x.
  Hypothesis Huniq : forall t x y, good t x -> good t y -> x = y.
  Variable d0 : dm f64.
  Hypothesis Hnew : dm_new bld load nt = Val d0.
  Notation B0 := (d_main d0).
  Notation get := (dm_get bld load nt).
  Notation setup := (dm_setup bld load nt).
  Notation update := (buf_update bld load nt).

  (** Slots that no window of this file reaches are as new. *)
  Definition buf_ok (b : buf f64) : Prop :=
    vlen (b_slots b) = BUFFERSIZE /\ (b_size b <= BUFFERSIZE)%N /\ skipn (N.to_nat nt) (b_slots b) = skipn (N.to_nat nt) fresh_slots.

  Lemma skipn_skipn' {A} (l : list A) : forall n m, skipn n (skipn m l) = skipn (m + n) l.
  Proof. induction l as [|a l IH]; intros n [|m]; cbn; [reflexivity | now rewrite skipn_nil | reflexivity | apply IH]. Qed.
  Lemma skipn_overwrite {A} (l v : list A) n : (List.length l <= n)%nat -> skipn n (l ++ skipn (List.length l) v) = skipn n v.
  Proof.
    intros H. rewrite skipn_app, (skipn_all2 l) by lia. cbn [app]. rewrite skipn_skipn'. f_equal. lia.
  Qed.
  Lemma update_buf_ok lo hi b b' : buf_ok b -> (lo <= nt)%N -> (lo <= hi <= lo + BUFFERSIZE)%N -> update lo hi b = Val b' -> buf_ok b'.
  Proof.
    intros [V [Z T]] Hl Hh. unfold buf_update. set (h := if (nt <=? hi)%N then nt else hi).
    assert (Eh : (lo <= h <= nt)%N /\ (h <= lo + BUFFERSIZE)%N) by (unfold h; destruct (N.leb_spec nt hi); lia).
    rewrite usub_ge by lia. cbn [bind]. destruct (Hload lo h (proj1 Eh)) as [l [L1 [L2 _]]]. rewrite L1. cbn [bind].
    unfold overwrite. destruct (Nat.leb_spec (List.length l) (List.length (b_slots b))) as [Q|Q]; [|discriminate]. cbn [bind].
    intros E. injection E as <-. unfold buf_ok. cbn [b_slots b_size]. split; [|split; [lia|]].
    - unfold vlen in *. rewrite app_length, skipn_length. lia.
    - rewrite skipn_overwrite; [exact T | unfold vlen in L2; lia].
  Qed.
  Lemma fresh_len : vlen (fresh_slots (F := f64)) = BUFFERSIZE.
  Proof. unfold vlen, fresh_slots. rewrite repeat_length. lia. Qed.
  (** Loading the first window gives the buffer of a freshly opened file. *)
  Lemma update0 b : buf_ok b -> update 0 BUFFERSIZE b = Val B0.
  Proof.
    intros [V [Z T]]. unfold dm_new in Hnew. apply bind_val in Hnew. destruct Hnew as [b0 [E0 E1]].
    assert (Eb : b0 = B0) by (injection E1; intros <-; reflexivity). rewrite <- Eb. rewrite <- E0. clear E1 Eb E0.
    unfold buf_update. set (h := if (nt <=? BUFFERSIZE)%N then nt else BUFFERSIZE).
    assert (Eh : h = N.min nt BUFFERSIZE) by (unfold h; destruct (N.leb_spec nt BUFFERSIZE); lia).
    rewrite usub_ge by lia. cbn [bind]. destruct (Hload 0 h ltac:(lia)) as [l [L1 [L2 _]]]. rewrite L1. cbn [bind b_slots].
    assert (Fl := fresh_len). assert (Ll : List.length l = N.to_nat h) by (unfold vlen in L2; lia).
    unfold overwrite. unfold vlen in V, Fl.
    destruct (Nat.leb_spec (List.length l) (List.length (b_slots b))) as [Q|Q]; [|lia].
    destruct (Nat.leb_spec (List.length l) (List.length (fresh_slots (F := f64)))) as [Q'|Q']; [|lia]. cbn [bind].
    do 2 f_equal. f_equal. destruct (N.le_gt_cases nt BUFFERSIZE) as [C|C].
    - replace (List.length l) with (N.to_nat nt) by lia. exact T.
    - rewrite !skipn_all2 by lia. reflexivity.
  Qed.

  (** The main buffer: a window of the file (the one of a fresh file, if it begins at 0), or past the
      end. *)
  Definition main_ok (m : buf f64) : Prop :=
    buf_ok m /\ ((binv nt good m /\ (b_lo m = 0%N -> m = B0)) \/ (b_lo m = nt /\ b_hi m = nt)).
  (** At most auxiliary buffer 0. *)
  Definition extra_ok (d : dm f64) : Prop :=
    (d_names d = [] /\ d_extra d = []) \/ (d_names d = [0%N] /\ exists b, d_extra d = [b] /\ buf_ok b).
  Definition sane (d : dm f64) : Prop := main_ok (d_main d) /\ extra_ok d.

  Lemma B0_ok : buf_ok B0 /\ binv nt good B0 /\ b_lo B0 = 0%N /\ d_extra d0 = [] /\ d_names d0 = [].
  Proof.
    destruct (new_ok bld load nt good Hnt Hload) as [d [E [[I [_ N]] [X [L H]]]]]. rewrite Hnew in E. injection E as <-.
    split.
    - assert (Bf : buf_ok (mkBuf fresh_slots 0 0 BUFFERSIZE)) by (split; [apply fresh_len | split; [cbn [b_size]; lia | reflexivity]]).
      apply (update_buf_ok 0 BUFFERSIZE _ B0 Bf); [lia | unfold BUFFERSIZE; lia | now apply update0].
    - split; [exact I|]. split; [exact L|]. split; [exact X|]. rewrite X in N. destruct (d_names d0); [reflexivity | discriminate].
  Qed.
  Lemma new_sane : sane d0.
  Proof.
    destruct B0_ok as [B1 [B2 [B3 [B4 B5]]]]. split; [split; [exact B1|]; left; split; [exact B2 | reflexivity] | left; split; assumption].
  Qed.

  Lemma get_main m ex nm t : get (mkDm m ex nm) t =
    let! r := get (mkDm m [] []) t in Val (mkDm (d_main (fst r)) ex nm, snd r).
  Proof.
    unfold dm_get. cbn [d_main d_extra d_names]. destruct (usub bld (b_hi m) 1) as [last|]; [|reflexivity]. cbn [bind].
    match goal with |- bind ?x _ = _ => destruct x as [m'|] end; [|reflexivity]. cbn [bind].
    destruct (usub bld t (b_lo m')) as [k|]; [|reflexivity]. cbn [bind]. destruct (vget (b_slots m') k); reflexivity.
  Qed.
  Lemma chunk0 : chunk (F := f64) 0 = 0%N.
  Proof. rewrite chunk_div by lia. reflexivity. Qed.

  (** Which buffer a read leaves. *)
  Lemma get_step m t : main_ok m -> (t < nt)%N ->
    exists m' x, get (mkDm m [] []) t = Val (mkDm m' [] [], x) /\ good t x /\ main_ok m' /\ (t = 0%N -> m' = B0).
  Proof.
    intros [Bm Hm] Ht.
    assert (Chunk : exists m', update (chunk (F := f64) t * BUFFERSIZE) ((chunk (F := f64) t + 1) * BUFFERSIZE) m = Val m' /\
      binv nt good m' /\ buf_ok m' /\ (b_lo m' <= t < b_hi m')%N /\ (b_lo m' = 0%N -> m' = B0)).
    { rewrite chunk_div by lia.
      assert (Db : (t / BUFFERSIZE * BUFFERSIZE <= t < (t / BUFFERSIZE + 1) * BUFFERSIZE)%N).
      { assert (A := N.div_mod' t BUFFERSIZE). assert (B := N.mod_upper_bound t BUFFERSIZE ltac:(discriminate)). lia. }
      destruct (update_ok bld load nt good Hnt Hload m (t / BUFFERSIZE * BUFFERSIZE) ((t / BUFFERSIZE + 1) * BUFFERSIZE))
        as [m' [E [I [L H]]]]; [apply Bm | lia | lia |].
      exists m'. split; [exact E|]. split; [exact I|]. split; [apply (update_buf_ok _ _ m m' Bm) in E; [exact E | lia | lia]|].
      split; [lia|]. intros Lz. rewrite Lz in L. assert (Z : (t / BUFFERSIZE = 0)%N) by (unfold BUFFERSIZE in *; lia).
      rewrite Z in E. change (0 * BUFFERSIZE)%N with 0%N in E. change ((0 + 1) * BUFFERSIZE)%N with BUFFERSIZE in E.
      rewrite (update0 m Bm) in E. now injection E. }
    assert (Fin : forall m', binv nt good m' -> buf_ok m' -> (b_lo m' <= t < b_hi m')%N -> (b_lo m' = 0%N -> m' = B0) ->
      exists m1 x, (let! k := usub bld t (b_lo m') in let! x := vget (b_slots m') k in Val (mkDm m' [] [], x)) = Val (mkDm m1 [] [], x) /\
        good t x /\ main_ok m1 /\ (t = 0%N -> m1 = B0)).
    { intros m' I Bo Hw Hz. destruct (binv_read bld load nt good Hnt Hload m' t I Hw) as [x [E1 [E2 G]]]. rewrite E1. cbn [bind]. rewrite E2. cbn [bind].
      exists m', x. split; [reflexivity|]. split; [exact G|]. split; [split; [exact Bo | left; split; assumption]|].
      intros ->. apply Hz. lia. }
    unfold dm_get. cbn [d_main d_extra d_names]. destruct Hm as [[I Hz]|[Lo Hi]].
    - pose proof I as [M1 [M2 [M3 [M4 M5]]]]. rewrite usub_ge by lia. cbn [bind].
      destruct (N.ltb_spec (b_hi m - 1) t) as [C|C].
      + rewrite reach_ok by lia. cbn [bind]. destruct (update_ok bld load nt good Hnt Hload m t (t + b_size m)) as [m' [E [I' [L H]]]]; [exact M1 | lia | lia |].
        rewrite E. cbn [bind]. apply Fin; [exact I' | apply (update_buf_ok _ _ m m' Bm) in E; [exact E | lia | lia] | lia | intros Z; lia].
      + destruct (N.ltb_spec t (b_lo m)) as [C2|C2].
        * destruct Chunk as [m' [E [I' [Bo [Hw Hz']]]]]. rewrite E. cbn [bind]. now apply Fin.
        * cbn [bind]. apply Fin; [exact I | exact Bm | lia | exact Hz].
    - rewrite Hi, usub_ge by lia. cbn [bind]. destruct (N.ltb_spec (nt - 1) t) as [C|C]; [lia|].
      rewrite Lo. destruct (N.ltb_spec t nt) as [C2|C2]; [|lia].
      destruct Chunk as [m' [E [I' [Bo [Hw Hz']]]]]. rewrite E. cbn [bind]. now apply Fin.
  Qed.
  (** Reading timestep [nt], one past the end, does no lasting harm. *)
  Lemma get_past m d' x : main_ok m -> get (mkDm m [] []) nt = Val (d', x) -> main_ok (d_main d') /\ d_extra d' = [] /\ d_names d' = [].
  Proof.
    intros [Bm Hm]. unfold dm_get. cbn [d_main d_extra d_names].
    assert (Hi : (1 <= b_hi m <= nt)%N).
    { destruct Hm as [[[_ [M2 _]] _]|[_ E]]; lia. }
    assert (Sz : (b_size m <= BUFFERSIZE)%N).
    { apply Bm. }
    rewrite usub_ge by lia. cbn [bind]. destruct (N.ltb_spec (b_hi m - 1) nt) as [C|C]; [|lia].
    rewrite reach_ok by lia. cbn [bind].
    destruct (update nt (nt + b_size m) m) as [m'|] eqn:E; [|discriminate]. cbn [bind].
    destruct (usub bld nt (b_lo m')) as [k|]; [|discriminate]. cbn [bind].
    destruct (vget (b_slots m') k) as [y|]; [|discriminate]. cbn [bind]. intros Q. apply Val_pair in Q. destruct Q as [<- _].
    cbn [d_main d_extra d_names]. split; [|split; reflexivity].
    split; [apply (update_buf_ok _ _ m m' Bm) in E; [exact E | lia | lia]|].
    right. unfold buf_update in E. destruct (N.leb_spec nt (nt + b_size m)) as [_|C2]; [|lia].
    rewrite usub_ge in E by lia. cbn [bind] in E. apply bind_val in E. destruct E as [l [_ E]].
    apply bind_val in E. destruct E as [s [_ E]]. injection E as <-. split; reflexivity.
  Qed.

  Lemma get_sane d t : sane d -> (t < nt)%N ->
    exists d' x, get d t = Val (d', x) /\ good t x /\ sane d' /\ d_extra d' = d_extra d /\ d_names d' = d_names d /\
      (t = 0%N -> d_main d' = B0).
  Proof.
    intros [Hm He] Ht. destruct d as [m ex nm]. cbn [d_main d_extra d_names] in *.
    destruct (get_step m t Hm Ht) as [m' [x [E [G [Hm' Hz]]]]]. rewrite get_main, E. cbn [bind fst snd d_main].
    exists (mkDm m' ex nm), x. split; [reflexivity|]. split; [exact G|]. split; [split; [exact Hm' | exact He]|]. auto.
  Qed.
  Lemma get_past_sane d d' x : sane d -> get d nt = Val (d', x) -> sane d'.
  Proof.
    intros [Hm He] E. destruct d as [m ex nm]. cbn [d_main] in Hm. rewrite get_main in E.
    apply bind_val in E. destruct E as [[d1 y] [E1 E]]. apply Val_pair in E. destruct E as [<- _].
    destruct (get_past m d1 y Hm E1) as [A _]. split; [exact A | exact He].
  Qed.
  (** Setting up the auxiliary buffer always gives the same buffer. *)
  Lemma setup_sane d : sane d -> setup d 0 = Val (mkDm (d_main d) [B0] [0%N]).
  Proof.
    intros [Hm He]. unfold dm_setup. destruct He as [[Nm Ex]|[Nm [b [Ex Bb]]]]; rewrite Nm, Ex.
    - cbn [index_of]. rewrite update0; [reflexivity | split; [apply fresh_len | split; [cbn [b_size]; lia | reflexivity]]].
    - cbn [index_of N.eqb]. change (vget [b] 0) with (Val b). cbn [bind]. rewrite update0 by exact Bb. reflexivity.
  Qed.
  Lemma setup_sane' d : sane d -> sane (mkDm (d_main d) [B0] [0%N]).
  Proof.
    intros [Hm He]. split; [exact Hm|]. right. split; [reflexivity|]. exists B0. split; [reflexivity | apply B0_ok].
  Qed.

  (** ** The manager with an auxiliary read that only ever changes buffer 0 *)
  Variable st : stats f64.
  Hypothesis Nt : st_timesteps st = nt.
  Hypothesis Ta : vlen (st_time st) = nt.
  Variable getb : dm f64 -> N -> N -> res (dm f64 * timestep f64).
  Hypothesis Hgetb : forall d t d' x, sane d -> (t < nt)%N -> getb d t 0 = Val (d', x) -> sane d'.
  Notation M := (mkMgr (dm f64) get getb setup st).

  Definition pair_sane (d e : dm f64) : Prop := sane d /\ sane e.
  Definition pair_set (d e : dm f64) : Prop := sane d /\ sane e /\ d_extra d = d_extra e /\ d_names d = d_names e.
  Definition pair_eq (d e : dm f64) : Prop := sane d /\ d = e.

  Lemma h_get d e t : pair_sane d e -> (t < nt)%N -> rres (agree pair_sane) (get d t) (get e t).
  Proof.
    intros [Sd Se] Ht. destruct (get_sane d t Sd Ht) as [d' [x [E1 [G1 [S1 _]]]]]. destruct (get_sane e t Se Ht) as [e' [y [E2 [G2 [S2 _]]]]].
    rewrite E1, E2. split; [split; assumption | exact (Huniq t x y G1 G2)].
  Qed.
  Lemma h_set d e : pair_sane d e -> rres pair_set (setup d 0) (setup e 0).
  Proof.
    intros [Sd Se]. rewrite (setup_sane d Sd), (setup_sane e Se). cbn. repeat split; try (now apply setup_sane').
  Qed.
  Lemma h_get0 d e : pair_set d e -> rres (agree pair_eq) (get d 0) (get e 0).
  Proof.
    intros [Sd [Se [Ex Nm]]]. destruct (get_sane d 0 Sd ltac:(lia)) as [d' [x [E1 [G1 [S1 [X1 [N1 Z1]]]]]]].
    destruct (get_sane e 0 Se ltac:(lia)) as [e' [y [E2 [G2 [S2 [X2 [N2 Z2]]]]]]]. rewrite E1, E2.
    split; [|exact (Huniq 0 x y G1 G2)]. split; [exact S1|]. cbn [fst]. destruct d' as [m ex nm], e' as [m' ex' nm'].
    cbn [d_main d_extra d_names] in *. rewrite (Z1 eq_refl), (Z2 eq_refl). congruence.
  Qed.
  Lemma h_get2 d e t : pair_eq d e -> (t < nt)%N -> rres (agree pair_eq) (get d t) (get e t).
  Proof.
    intros [Sd <-] Ht. destruct (get_sane d t Sd Ht) as [d' [x [E1 [G1 [S1 _]]]]]. rewrite E1. split; [split; [exact S1 | reflexivity] | reflexivity].
  Qed.
  Lemma h_getb d e t : pair_eq d e -> (t < nt)%N -> rres (agree pair_eq) (getb d t 0) (getb e t 0).
  Proof.
    intros [Sd <-] Ht. destruct (getb d t 0) as [[d' x]|] eqn:E; [|exact I]. split; [split; [exact (Hgetb d t d' x Sd Ht E) | reflexivity] | reflexivity].
  Qed.
  Lemma h_b1 d e : pair_set d e -> pair_sane d e.
  Proof. intros [A [B _]]. split; assumption. Qed.
  Lemma h_b2 d e : pair_eq d e -> pair_sane d e.
  Proof. intros [A <-]. split; assumption. Qed.

  Variable mt : f64.
  Context {TF : Trig f64}.
  Notation call1 := (py_call bld M mt).
  Theorem call_agree d e s c : sane d -> sane e -> SessionSpec.call_ok nt c ->
    rres (agree (srel M M pair_sane)) (call1 (d, s) c) (call1 (e, s) c).
  Proof.
    intros Sd Se Hc. apply (call_refine bld M M eq_refl nt Nt ltac:(lia) mt pair_sane h_get pair_set pair_eq c); [|exact Hc | split; assumption].
    intros _. split; [exact Ta|]. split; [exact h_set|]. split; [exact h_get0|]. split; [exact h_get2|]. split; [exact h_getb|].
    split; [exact h_b1 | exact h_b2].
  Qed.
  Lemma call_sane d s c d' s' a : sane d -> SessionSpec.call_ok nt c -> call1 (d, s) c = Val ((d', s'), a) -> sane d'.
  Proof.
    intros Sd Hc E. assert (Q := call_agree d d s c Sd Sd Hc). rewrite E in Q. destruct Q as [[[Q _] _] _]. exact Q.
  Qed.
End Sane.

(** ** The two kinds of file *)
(** [touch] and the auxiliary read differ in the last two lines only. *)
Lemma p_getb_touch {F} {NF : Num F} bld (load : N -> N -> res (list (timestep F))) nt d t id d' x :
  p_get_buffer bld load nt d t id = Val (d', x) -> p_touch bld load nt d t id = Val d'.
Proof.
  unfold p_get_buffer, p_touch. intros E. apply bind_val in E. destruct E as [e [-> E]]. cbn [bind].
  apply bind_val in E. destruct E as [l [-> E]]. cbn [bind]. apply bind_val in E. destruct E as [e1 [-> E]]. cbn [bind].
  apply bind_val in E. destruct E as [e2 [-> E]]. cbn [bind]. apply bind_val in E. destruct E as [ex [-> E]]. cbn [bind].
  apply bind_val in E. destruct E as [k [_ E]]. apply bind_val in E. destruct E as [y [_ E]]. apply Val_pair in E. now destruct E as [<- _].
Qed.
Lemma t_getb_touch {F} {NF : Num F} bld (load : N -> N -> res (list (timestep F))) nt d t id d' x :
  t_get_buffer bld load nt d t id = Val (d', x) -> t_touch bld load nt d t id = Val d'.
Proof.
  unfold t_get_buffer, t_touch. intros E. apply bind_val in E. destruct E as [e [-> E]]. cbn [bind].
  apply bind_val in E. destruct E as [l [-> E]]. cbn [bind]. apply bind_val in E. destruct E as [e1 [-> E]]. cbn [bind].
  apply bind_val in E. destruct E as [e2 [-> E]]. cbn [bind]. apply bind_val in E. destruct E as [ex [-> E]]. cbn [bind].
  apply bind_val in E. destruct E as [k [_ E]]. apply bind_val in E. destruct E as [y [_ E]]. apply Val_pair in E. now destruct E as [<- _].
Qed.
Section Touch.
  Context (bld : build) (load : N -> N -> res (list (timestep f64))) (nt : N) (good : N -> timestep f64 -> Prop) (d0 : dm f64).
  Hypothesis Hnt : (1 <= nt <= 2 ^ 53)%N.
  Hypothesis Hload : forall lo hi, (lo <= hi <= nt)%N -> exists l, load lo hi = Val l /\
    vlen l = (hi - lo)%N /\ forall k x, at_ l k x -> good (lo + k)%N x.
  Hypothesis Huniq : forall t x y, good t x -> good t y -> x = y.
  Lemma upd lo hi b b' : buf_ok nt b -> (lo <= nt)%N -> (lo <= hi <= lo + BUFFERSIZE)%N -> buf_update bld load nt lo hi b = Val b' -> buf_ok nt b'.
  Proof. exact (update_buf_ok bld load nt good Hnt Hload Huniq lo hi b b'). Qed.
  Lemma p_touch_sane d t d' : sane nt good d0 d -> (t <= nt)%N -> p_touch bld load nt d t 0 = Val d' -> sane nt good d0 d'.
  Proof.
    intros [Hm He] Ht E. unfold p_touch in E. assert (Zm : (b_size (d_main d) <= BUFFERSIZE)%N) by apply Hm. apply bind_val in E. destruct E as [e [V E]]. apply bind_val in E. destruct E as [la [_ E]].
    apply bind_val in E. destruct E as [e1 [U1 E]]. apply bind_val in E. destruct E as [e2 [U2 E]].
    apply bind_val in E. destruct E as [ex [S E]]. injection E as <-. split; [exact Hm|].
    destruct He as [[Nm Ex]|[Nm [b [Ex Bb]]]]; rewrite Ex in *; [discriminate V|].
    assert (Eb : b = e) by now injection V. subst e. assert (Es : ex = [e2]) by now injection S. subst ex.
    right. cbn [d_names d_extra]. split; [exact Nm|]. exists e2. split; [reflexivity|].
    assert (B1 : buf_ok nt e1).
    { destruct (la <? t)%N; [rewrite reach_ok in U1 by (try apply Bb; try apply Hm; lia); cbn [bind] in U1; apply upd in U1; [exact U1 | exact Bb | lia | destruct Bb as [_ [Zb _]]; lia]|].
      destruct ((b_hi b =? nt)%N && (t <? b_lo b)%N)%bool; [apply upd in U1; [exact U1 | exact Bb | lia | unfold BUFFERSIZE; lia]|].
      assert (Q : b = e1) by now injection U1. now rewrite <- Q. }
    destruct (t <? b_lo e1)%N; [rewrite reach_ok in U2 by (try apply B1; try apply Hm; lia); cbn [bind] in U2; apply upd in U2; [exact U2 | exact B1 | lia | destruct B1 as [_ [Zb _]]; lia]|].
    assert (Q : e1 = e2) by now injection U2. now rewrite <- Q.
  Qed.
  Lemma t_touch_sane d t d' : sane nt good d0 d -> (t <= nt)%N -> t_touch bld load nt d t 0 = Val d' -> sane nt good d0 d'.
  Proof.
    intros [Hm He] Ht E. unfold t_touch in E. assert (Zm : (b_size (d_main d) <= BUFFERSIZE)%N) by apply Hm. apply bind_val in E. destruct E as [e [V E]]. apply bind_val in E. destruct E as [la [_ E]].
    apply bind_val in E. destruct E as [e1 [U1 E]]. apply bind_val in E. destruct E as [e2 [U2 E]].
    apply bind_val in E. destruct E as [ex [S E]]. injection E as <-. split; [exact Hm|].
    destruct He as [[Nm Ex]|[Nm [b [Ex Bb]]]]; rewrite Ex in *; [discriminate V|].
    assert (Eb : b = e) by now injection V. subst e. assert (Es : ex = [e2]) by now injection S. subst ex.
    right. cbn [d_names d_extra]. split; [exact Nm|]. exists e2. split; [reflexivity|].
    assert (B1 : buf_ok nt e1).
    { destruct (la <? t)%N; [rewrite reach_ok in U1 by (try apply Bb; try apply Hm; lia); cbn [bind] in U1; apply upd in U1; [exact U1 | exact Bb | lia | destruct Bb as [_ [Zb _]]; lia]|].
      destruct ((b_hi b =? nt)%N && (t <? b_lo b)%N)%bool; [apply upd in U1; [exact U1 | exact Bb | lia | unfold BUFFERSIZE; lia]|].
      assert (Q : b = e1) by now injection U1. now rewrite <- Q. }
    destruct (t <? b_lo (d_main d))%N; [rewrite reach_ok in U2 by (try apply B1; try apply Hm; lia); cbn [bind] in U2; apply upd in U2; [exact U2 | exact B1 | lia | destruct B1 as [_ [Zb _]]; lia]|].
    assert (Q : e1 = e2) by now injection U2. now rewrite <- Q.
  Qed.
End Touch.
