(** * Property C43: the Lacey mixing index. *)
From Coq Require Import Reals List NArith ZArith Bool Lia Lra String ZifyBool ZifyN ZifyNat.
From Flocq Require Import Core.Core IEEE754.BinarySingleNaN.
From Verif Require Import Base BaseFacts Num F64Facts RFacts NDArray GridModel GridSpec GridFacts CartProofs CartR GridOps
  SelModel DataModel DataSpec DataProofs DataLoad PropertiesGrid PropertiesData FunModel FunSpec FunProofs FunMgr FunField PropertiesFun FunOcc FunMom FunTemp
  FunDisp MixModel FunMix.
Local Open Scope list_scope.

Section Gen.
  Context {F : Type} {NF : Num F} {TF : Trig F}.

  (** The counters hold the number of samples of each type seen. *)
  Definition counted_types (tc : list N) (ys : list N) : Prop :=
    (forall y, In y ys -> (y < vlen tc)%N) /\
    forall t n, at_ tc t n -> n = vlen (filter (fun y => y =? t)%N ys).
  Lemma nth_repeat {A} (x : A) n k y : nth_error (repeat x n) k = Some y -> y = x.
  Proof. intros H. apply nth_error_In in H. now apply repeat_spec in H. Qed.
  Lemma grow_counted tc ys m : counted_types tc ys -> counted_types (tc ++ repeat 0%N m) ys.
  Proof.
    intros [H1 H2]. split.
    - intros y Hy. specialize (H1 y Hy). unfold vlen in *. rewrite app_length. lia.
    - intros t n Hn. unfold at_ in Hn. destruct (Nat.lt_ge_cases (N.to_nat t) (List.length tc)) as [Lt|Ge].
      + rewrite nth_error_app1 in Hn by lia. now apply H2.
      + rewrite nth_error_app2 in Hn by lia. apply nth_repeat in Hn. subst n. rewrite filter_none; [reflexivity|].
        intros y Hy. specialize (H1 y Hy). unfold vlen in H1. lia.
  Qed.
  Lemma count_type_inv tc ys y tc' : counted_types tc ys -> count_type tc y = Val tc' -> counted_types tc' (ys ++ [y]).
  Proof.
    unfold count_type. intros C E. destruct (usize_modulus <=? y + 2)%N; [discriminate|].
    set (t2 := if (vlen tc <=? y)%N then _ else tc) in E.
    assert (C2 : counted_types t2 ys) by (unfold t2; destruct (vlen tc <=? y)%N; [now apply grow_counted | exact C]).
    apply bind_val in E. destruct E as [n [En E]]. destruct (vset_val _ _ _ _ E) as [Lt [Ln Hj]]. destruct C2 as [H1 H2]. split.
    - intros z Hz. rewrite Ln. apply in_app_or in Hz. destruct Hz as [Hz|[<-|[]]]; [now apply H1 | exact Lt].
    - intros t k Hk. apply at_vget in Hk. rewrite Hj in Hk. rewrite filter_app. cbn [filter].
      unfold vlen. rewrite app_length, Nnat.Nat2N.inj_add. fold (vlen (filter (fun y0 => y0 =? t)%N ys)).
      destruct (N.eqb_spec y t) as [->|Ne].
      + injection Hk as <-. rewrite (H2 t n) by (now apply vget_val). reflexivity.
      + cbn [List.length]. rewrite (H2 t k) by (now apply vget_val). lia.
  Qed.
  Lemma count_type_ok tc y : (y + 2 < usize_modulus)%N -> exists tc', count_type tc y = Val tc' .
  Proof.
    intros H. unfold count_type. destruct (N.leb_spec usize_modulus (y + 2)); [lia|].
    set (t2 := if (vlen tc <=? y)%N then _ else tc).
    assert (Lt : (y < vlen t2)%N). { unfold t2. destruct (N.leb_spec (vlen tc) y); [|assumption]. unfold vlen. rewrite app_length, repeat_length. unfold vlen in *. lia. }
    destruct (vget_lt t2 y Lt) as [n ->]. cbn [bind]. now apply vset_ok.
  Qed.
  Definition count_sample (tc : list N) (m : sample F) : res (list N) := count_type tc (nusize (sm_type m)).
  Lemma counts_sound l : forall tc ys tc', counted_types tc ys -> mfold count_sample l tc = Val tc' ->
    counted_types tc' (ys ++ map (fun m => nusize (sm_type m)) l).
  Proof.
    induction l as [|m l IH]; intros tc ys tc' C E; cbn [mfold map] in *; [injection E as <-; now rewrite app_nil_r|].
    apply bind_val in E. destruct E as [t1 [E1 E]]. replace (ys ++ nusize (sm_type m) :: map (fun m => nusize (sm_type m)) l)
      with ((ys ++ [nusize (sm_type m)]) ++ map (fun m => nusize (sm_type m)) l) by now rewrite <- app_assoc.
    eapply IH; [|exact E]. eapply count_type_inv; eauto.
  Qed.
  Lemma counts_total l : Forall (fun m : sample F => (nusize (sm_type m) + 2 < usize_modulus)%N) l -> forall tc, exists tc', mfold count_sample l tc = Val tc'.
  Proof.
    induction 1 as [|m l Hm _ IH]; intros tc; cbn [mfold]; [eauto|]. destruct (count_type_ok tc _ Hm) as [t1 E]. unfold count_sample at 1. rewrite E. cbn [bind]. apply IH.
  Qed.
  Lemma counted_number (l : list (sample F)) tc t n : mfold count_sample l [] = Val tc -> vget tc t = Val n -> n = number_of t l.
  Proof.
    intros E V. destruct (counts_sound l [] [] tc) as [_ H]; [split; [intros y []| intros t' n' Hn; unfold at_ in Hn; destruct (N.to_nat t'); discriminate] | exact E|].
    rewrite (H t n) by (now apply vget_val). cbn [app]. unfold number_of, vlen. f_equal. clear. induction l as [|m l IH]; [reflexivity|]. cbn [map filter].
    unfold of_type at 1. destruct (nusize (sm_type m) =? t)%N; cbn [List.length]; congruence.
  Qed.
  Lemma counted_present (l : list (sample F)) tc t : mfold count_sample l [] = Val tc -> (0 < number_of t l)%N -> (t < vlen tc)%N.
  Proof.
    intros E P. destruct (counts_sound l [] [] tc) as [H _]; [split; [intros y []| intros t' n' Hn; unfold at_ in Hn; destruct (N.to_nat t'); discriminate] | exact E|].
    apply H. cbn [app]. unfold number_of in P. destruct (filter (of_type t) l) as [|m r] eqn:Ef; [cbn in P; lia|].
    assert (Hm : In m (filter (of_type t) l)) by (rewrite Ef; now left). apply filter_In in Hm. destruct Hm as [Hm Ht].
    apply in_map_iff. exists m. split; [now apply N.eqb_eq in Ht | exact Hm].
  Qed.

  (** One timestep: the counters and the two grids are filled independently. *)
  Lemma lacey_split bld ta tb (g : grid F) l : forall tc ab tc' ab',
    mfold (fun st m => let! tc := count_sample (fst st) m in let! ab := both_types ta tb bld g (snd st) m in Val (tc, ab)) l (tc, ab) = Val (tc', ab') <->
    mfold count_sample l tc = Val tc' /\ mfold (both_types ta tb bld g) l ab = Val ab'.
  Proof.
    induction l as [|m l IH]; intros tc ab tc' ab'; cbn [mfold].
    - split; [intros [= <- <-]; auto | intros [[= <-] [= <-]]; reflexivity].
    - cbn [fst snd]. destruct (count_sample tc m) as [t1|]; cbn [bind]; [|split; [discriminate | intros [H _]; discriminate H]].
      destruct (both_types ta tb bld g ab m) as [a1|]; cbn [bind]; [apply IH | split; [discriminate | intros [_ H]; discriminate H]].
  Qed.
  Lemma lacey_counts_spec bld ta tb (g : grid F) s x tc ab : rect x -> sel_ok s ->
    lacey_counts bld g s ta tb x = Val (tc, ab) <->
    mfold count_sample (filter (accepts s) (samples x)) [] = Val tc /\
    mfold (both_types ta tb bld g) (filter (accepts s) (samples x)) (new_zeros g, new_zeros g) = Val ab.
  Proof.
    intros R Sk. unfold lacey_counts.
    rewrite (loop_particles_spec s x _ (fun st m => let! tc := count_sample (fst st) m in let! ab := both_types ta tb bld g (snd st) m in Val (tc, ab)) _ R Sk).
    - apply lacey_split.
    - intros [tc1 ab1] i m Hm. destruct (samples_at x i m R Hm) as [_ [_ [_ [_ [_ [_ [_ Ht]]]]]]]. rewrite (proj2 (vget_val _ _ _) Ht). cbn [bind fst snd].
      unfold count_sample. destruct (count_type tc1 (nusize (sm_type m))) as [t1|]; cbn [bind]; [|reflexivity].
      unfold both_types, pos_keep. destruct (nan3 (sm_pos m)); cbn [negb andb bind]; [reflexivity|].
      destruct (is_inside g (sm_pos m)); reflexivity.
  Qed.
  Lemma accepted_observed (s : selector F) x : rect x -> timestep_valid s (ts_time x) = true -> filter (accepts s) (samples x) = observed s [x].
  Proof.
    intros R V. unfold observed. cbn [flat_map]. rewrite app_nil_r. apply filter_ext_in. intros m Hm. unfold chosen. now rewrite (samples_time x m R Hm), V.
  Qed.
  (** The value written for a timestep, from its observed samples. *)
  Lemma lacey_step_inv bld ta tb thr (g : grid F) s x v : rect x -> sel_ok s -> wf_grid g -> timestep_valid s (ts_time x) = true ->
    lacey_step bld g s ta tb thr x = Val v ->
    let l := observed s [x] in
    exists a b, acc_ok bld (geo g) (fun m => pos_keep m && of_type ta m) (fun _ => n1) l (new_zeros g) a /\
      acc_ok bld (geo g) (fun m => pos_keep m && second ta tb m) (fun _ => n1) l (new_zeros g) b /\
      lacey_value a b (number_of ta l) (number_of tb l) thr = Val v.
  Proof.
    intros R Sk W V E l. destruct (new_zeros_wf g W) as [W0 G0]. unfold lacey_step in E. apply bind_val in E. destruct E as [[tc [a b]] [E1 E]].
    apply lacey_counts_spec in E1; [|exact R|exact Sk]. rewrite (accepted_observed s x R V) in E1. fold l in E1. destruct E1 as [C1 C2].
    apply bind_val in E. destruct E as [ca [Ea E]]. apply bind_val in E. destruct E as [cb [Eb E]].
    rewrite (counted_number l tc ta ca C1 Ea), (counted_number l tc tb cb C1 Eb) in E.
    destruct (types_sound ta tb bld g l _ _ a b W0 G0 W0 G0 C2) as [Ha Hb]. exists a, b. auto.
  Qed.
  Lemma lacey_value_ok (a b : grid F) ge ca cb thr : wf_grid a -> geo a = ge -> wf_grid b -> geo b = ge ->
    lacey_value a b ca cb thr = Val (
      let conc c := ndiv (at3 (data a) c) (nadd (at3 (data b) c) (at3 (data a) c)) in
      let num c := nadd (at3 (weight a) c) (at3 (weight b) c) in
      let mean := ndiv (nofN ca) (nofN (ca + cb)) in
      let cells := ids3 (geom_cells ge) in
      let dev := fold_left (fun acc c => if nltb (num c) (nofN thr) then acc else if nisnan (conc c) then acc else nadd acc (sq (nsub (conc c) mean))) cells n0 in
      let n := nofN (vlen cells) in
      let var := ndiv dev (nsub n n1) in
      let smax := nsqrt (nmul mean (nsub n1 mean)) in
      let smin := nsqrt (ndiv (nmul mean (nsub n1 mean)) n) in
      ndiv (nsub (sq smax) var) (nsub (sq smax) (sq smin))).
  Proof.
    intros [A1 A2] Ga [B1 B2] Gb. rewrite Ga in A1, A2. rewrite Gb in B1, B2. unfold lacey_value.
    destruct (zip3_ok nadd (data b) (data a)) as [ab Eab]; [congruence|]. destruct (zip3_at nadd (data b) (data a) ab ltac:(congruence) Eab) as [S1 H1].
    rewrite Eab. cbn [bind]. unfold divide_by_array. destruct (zip3_ok ndiv (data a) ab) as [q Eq]; [congruence|].
    destruct (zip3_at ndiv (data a) ab q ltac:(congruence) Eq) as [S2 H2]. rewrite Eq. cbn [bind]. unfold with_data. cbn [data weight].
    destruct (zip3_ok nadd (weight a) (weight b)) as [w Ew]; [congruence|]. destruct (zip3_at nadd (weight a) (weight b) w ltac:(congruence) Ew) as [S3 H3].
    rewrite Ew. cbn [bind]. cbv zeta. rewrite S2, A1. f_equal.
    match goal with |- ndiv (nsub _ (ndiv ?a _)) _ = ndiv (nsub _ (ndiv ?b _)) _ => assert (Q : a = b) end; [|now rewrite Q].
    apply fold_left_ext_in. intros acc c Hc. apply in_ids3 in Hc. rewrite H3, H2, H1 by congruence. reflexivity.
  Qed.

  (** The time loop writes one entry per timestep. *)
  Section Loop.
    Context (M : mgr F) (s : selector F) (val : timestep F -> res F) (Inv : ms M -> Prop) (L0 : list (timestep F)).
    Hypothesis Get : forall d t x, Inv d -> at_ L0 t x -> exists d', m_get M d t = Val (d', x) /\ Inv d'.
    Definition series_body (st : ms M * (list F * list F)) (t : N) (x : timestep F) : res (ms M * (list F * list F)) :=
      let! v := val x in
      let! mix := vset (snd (snd st)) t v in
      let! time := vset (fst (snd st)) t (ts_time x) in
      Val (fst st, (time, mix)).
    Lemma series_sound L : forall k d tm mx d' tm' mx', (forall i x, at_ L i x -> at_ L0 (k + i)%N x) -> Inv d ->
      loop_ts M s series_body (range k (k + vlen L)) (d, (tm, mx)) = Val (d', (tm', mx')) ->
      Inv d' /\ vlen tm' = vlen tm /\ vlen mx' = vlen mx /\
      (forall j, (j < k)%N -> vget tm' j = vget tm j /\ vget mx' j = vget mx j) /\
      forall i x, at_ L i x ->
        if timestep_valid s (ts_time x) then vget tm' (k + i) = Val (ts_time x) /\ exists v, val x = Val v /\ vget mx' (k + i) = Val v
        else vget tm' (k + i) = vget tm (k + i) /\ vget mx' (k + i) = vget mx (k + i).
    Proof.
      induction L as [|x L IH]; intros k d tm mx d' tm' mx' Sub I E.
      - unfold vlen in E. cbn [List.length] in E. rewrite range_empty in E by lia. injection E as <- <- <-.
        split; [exact I|]. split; [reflexivity|]. split; [reflexivity|]. split; [auto|]. intros i y Hi. unfold at_ in Hi. destruct (N.to_nat i); discriminate.
      - rewrite range_cons in E by (unfold vlen; cbn [List.length]; lia).
        replace (k + vlen (x :: L))%N with (k + 1 + vlen L)%N in E by (unfold vlen; cbn [List.length]; lia).
        assert (Hx : at_ L0 k x). { specialize (Sub 0%N x eq_refl). now rewrite N.add_0_r in Sub. }
        assert (Sub' : forall i y, at_ L i y -> at_ L0 (k + 1 + i)%N y).
        { intros i y Hi. replace (k + 1 + i)%N with (k + (i + 1))%N by lia. apply Sub. unfold at_.
          replace (N.to_nat (i + 1)) with (Datatypes.S (N.to_nat i)) by lia. exact Hi. }
        destruct (Get d k x I Hx) as [d1 [E1 I1]]. unfold loop_ts in E. cbn [mfold fst snd] in E. rewrite E1 in E. cbn [bind] in E.
        fold (loop_ts M s series_body) in E.
        assert (Stp : exists tm1 mx1, loop_ts M s series_body (range (k + 1) (k + 1 + vlen L)) (d1, (tm1, mx1)) = Val (d', (tm', mx')) /\
          vlen tm1 = vlen tm /\ vlen mx1 = vlen mx /\ (forall j, j <> k -> vget tm1 j = vget tm j /\ vget mx1 j = vget mx j) /\
          if timestep_valid s (ts_time x) then vget tm1 k = Val (ts_time x) /\ exists v, val x = Val v /\ vget mx1 k = Val v
          else vget tm1 k = vget tm k /\ vget mx1 k = vget mx k).
        { destruct (timestep_valid s (ts_time x)).
          - apply bind_val in E. destruct E as [st1 [Eb E]]. unfold series_body in Eb. apply bind_val in Eb. destruct Eb as [v [Ev Eb]].
            apply bind_val in Eb. destruct Eb as [mx1 [Em Eb]]. apply bind_val in Eb. destruct Eb as [tm1 [Et Eb]]. injection Eb as <-. cbn [fst snd] in *.
            destruct (vset_val _ _ _ _ Em) as [_ [Lm Hm]], (vset_val _ _ _ _ Et) as [_ [Lt Ht]].
            exists tm1, mx1. split; [exact E|]. split; [exact Lt|]. split; [exact Lm|]. split.
            + intros j Hj. rewrite Ht, Hm. destruct (N.eqb_spec k j); [congruence | auto].
            + rewrite Ht, Hm, N.eqb_refl. eauto.
          - exists tm, mx. auto 10. }
        destruct Stp as [tm1 [mx1 [E2 [Lt [Lm [Oth Here]]]]]]. destruct (IH _ _ _ _ _ _ _ Sub' I1 E2) as [I2 [Lt2 [Lm2 [Lo Hi]]]].
        split; [exact I2|]. split; [congruence|]. split; [congruence|]. split.
        + intros j Hj. destruct (Lo j ltac:(lia)) as [A B], (Oth j ltac:(lia)) as [C D]. split; congruence.
        + intros i y Hy. destruct (N.eqb_spec i 0) as [->|Ni].
          * unfold at_ in Hy. cbn in Hy. injection Hy as <-. rewrite N.add_0_r. destruct (Lo k ltac:(lia)) as [A B].
            destruct (timestep_valid s (ts_time x)); [rewrite A, B; exact Here | rewrite A, B; exact Here].
          * assert (Hy' : at_ L (i - 1)%N y). { unfold at_ in *. replace (N.to_nat i) with (Datatypes.S (N.to_nat (i - 1))) in Hy by lia. exact Hy. }
            specialize (Hi (i - 1)%N y Hy'). replace (k + 1 + (i - 1))%N with (k + i)%N in Hi by lia.
            destruct (timestep_valid s (ts_time y)); [exact Hi|]. destruct (Oth (k + i)%N ltac:(lia)) as [A B]. rewrite A, B in Hi. exact Hi.
    Qed.
    Lemma series_total L : forall k d tm mx, (forall i x, at_ L i x -> at_ L0 (k + i)%N x) -> Inv d -> (k + vlen L <= vlen tm)%N -> (k + vlen L <= vlen mx)%N ->
      (forall x, In x L -> timestep_valid s (ts_time x) = true -> exists v, val x = Val v) ->
      exists r, loop_ts M s series_body (range k (k + vlen L)) (d, (tm, mx)) = Val r.
    Proof.
      induction L as [|x L IH]; intros k d tm mx Sub I Lt Lm Hv.
      - unfold vlen. cbn [List.length]. rewrite range_empty by lia. eexists. reflexivity.
      - assert (Lk : (k + 1 + vlen L)%N = (k + vlen (x :: L))%N) by (unfold vlen; cbn [List.length]; lia).
        rewrite range_cons by (unfold vlen; cbn [List.length]; lia). rewrite <- Lk in *.
        assert (Hx : at_ L0 k x). { specialize (Sub 0%N x eq_refl). now rewrite N.add_0_r in Sub. }
        assert (Sub' : forall i y, at_ L i y -> at_ L0 (k + 1 + i)%N y).
        { intros i y Hi. replace (k + 1 + i)%N with (k + (i + 1))%N by lia. apply Sub. unfold at_.
          replace (N.to_nat (i + 1)) with (Datatypes.S (N.to_nat i)) by lia. exact Hi. }
        assert (Hv' : forall x, In x L -> timestep_valid s (ts_time x) = true -> exists v, val x = Val v) by (intros; apply Hv; [now right | assumption]).
        destruct (Get d k x I Hx) as [d1 [E1 I1]]. unfold loop_ts. cbn [mfold fst snd]. rewrite E1. cbn [bind].
        fold (loop_ts M s series_body). destruct (timestep_valid s (ts_time x)) eqn:V.
        + unfold series_body at 1. destruct (Hv x (or_introl eq_refl) V) as [v ->]. cbn [bind fst snd].
          destruct (vset_ok mx k v ltac:(lia)) as [mx1 Em]. destruct (vset_ok tm k (ts_time x) ltac:(lia)) as [tm1 Et]. rewrite Em. cbn [bind]. rewrite Et. cbn [bind].
          destruct (vset_val _ _ _ _ Em) as [_ [Lm1 _]], (vset_val _ _ _ _ Et) as [_ [Lt1 _]]. apply IH; try assumption; lia.
        + cbn [bind]. apply IH; try assumption; lia.
    Qed.
  End Loop.
End Gen.

(** ** C43: specification *)
Section R.
  Context {TF : Trig R}.
  Local Open Scope R_scope.
  (** The share of type [ta] among both types. *)
  Definition share (ta tb : N) (l : list (sample R)) : R := NR (number_of ta l) / NR (number_of ta l + number_of tb l).
  (** (sigma_max^2 - s^2) / (sigma_max^2 - sigma_min^2) with sigma_max^2 = c (1 - c),
      sigma_min^2 = sigma_max^2 / n and s^2 the deviations of the cells over n - 1. *)
  Definition lacey_index (n : N) (c : R) (shares : list R) : R :=
    (c * (1 - c) - Rsum (map (fun x => (x - c) * (x - c)) shares) / (NR n - 1)) / (c * (1 - c) - c * (1 - c) / NR n).
  (** The cells with at least [thr] samples of the two types. *)
  Definition full_cells bld (g : grid R) ta tb thr (l : list (sample R)) : list id3 :=
    filter (fun c => thr <=? number_of ta (samples_in bld (geo g) c l) + number_of tb (samples_in bld (geo g) c l))%N (ids3 (geom_cells (geo g))).

  Lemma NR_pos n : 0 <= NR n. Proof. unfold NR. apply (IZR_le 0). lia. Qed.
  Lemma share_unit ta tb l : 0 <= share ta tb l <= 1.
  Proof.
    unfold share. set (a := number_of ta l). set (b := number_of tb l). assert (Pa := NR_pos a). assert (Pb := NR_pos b). rewrite NR_add.
    destruct (Rle_lt_or_eq_dec 0 (NR a) Pa) as [P|Z].
    - split; [apply Rlt_le, Rdiv_lt_0_compat; lra|]. apply Rmult_le_reg_r with (NR a + NR b); [lra|]. unfold Rdiv. rewrite Rmult_assoc, Rinv_l by lra. lra.
    - rewrite <- Z. unfold Rdiv. rewrite Rmult_0_l. lra.
  Qed.
  Lemma sq_sqrt (x : R) : 0 <= x -> sq (nsqrt x) = x.
  Proof. intros H. unfold sq. cbn [nmul nsqrt num_R]. now apply sqrt_def. Qed.

  Lemma lacey_step_R bld ta tb thr (g : grid R) s x v : rect x -> sel_ok s -> fresh g -> timestep_valid s (ts_time x) = true ->
    ta <> tb -> (1 <= thr)%N -> lacey_step bld g s ta tb thr x = Val v ->
    let l := observed s [x] in
    v = lacey_index (vlen (ids3 (geom_cells (geo g)))) (share ta tb l)
          (map (fun c => share ta tb (samples_in bld (geo g) c l)) (full_cells bld g ta tb thr l)).
  Proof.
    intros Rx Sk [W Fr] V Ne Thr E l. destruct (lacey_step_inv bld ta tb thr g s x v Rx Sk W V E) as [a [b [[Wa [Ga Ha]] [[Wb [Gb Hb]] Ev]]]]. fold l in Ha, Hb, Ev.
    rewrite (lacey_value_ok a b (geo g) _ _ _ Wa Ga Wb Gb) in Ev.
    match type of Ev with Val ?t = Val v => assert (Ev' : v = t) by congruence end. rewrite Ev'. clear Ev Ev'. cbv zeta.
    set (cells := ids3 (geom_cells (geo g))). set (mean := ndiv (nofN (number_of ta l)) (nofN (number_of ta l + number_of tb l))).
    assert (Em : mean = share ta tb l) by reflexivity. rewrite Em.
    assert (U := share_unit ta tb l). set (c := share ta tb l) in *.
    assert (P0 : 0 <= c * (1 - c)) by (apply Rmult_le_pos; lra).
    assert (P1 : 0 <= c * (1 - c) / NR (vlen cells)).
    { destruct (Rle_lt_or_eq_dec _ _ (NR_pos (vlen cells))) as [P|Z]; [apply Rmult_le_pos; [exact P0 | left; now apply Rinv_0_lt_compat]|].
      rewrite <- Z. unfold Rdiv. rewrite Rinv_0. lra. }
    change (nmul c (nsub n1 c)) with (c * (1 - c)). change (@nofN R num_R (vlen cells)) with (NR (vlen cells)). cbn [ndiv nsub num_R]. change (@n1 R num_R) with 1.
    rewrite !sq_sqrt by assumption. unfold lacey_index. rewrite map_map. fold cells.
    match goal with |- (_ - ?a / _) / _ = (_ - ?b / _) / _ => assert (Q : a = b) end; [|now rewrite Q].
    (* the deviations *)
    assert (D : forall cell, inb3 (geom_cells (geo g)) cell = true ->
      at3 (data a) cell = NR (number_of ta (samples_in bld (geo g) cell l)) /\ at3 (weight a) cell = NR (number_of ta (samples_in bld (geo g) cell l)) /\
      at3 (data b) cell = NR (number_of tb (samples_in bld (geo g) cell l)) /\ at3 (weight b) cell = NR (number_of tb (samples_in bld (geo g) cell l))).
    { intros cell Hc. destruct (Ha cell Hc) as [A1 A2], (Hb cell Hc) as [B1 B2]. rewrite fold_ones in A1, B1.
      change (at3 (weight (new_zeros g)) cell) with (at3 (weight g) cell) in A2, B2. rewrite (proj2 (Fr cell)) in A2, B2.
      change (at3 (data (new_zeros g)) cell) with (@n0 R num_R) in A1, B1.
      assert (Fi : filter (fun m => pos_keep m && of_type ta m) (samples_in bld (geo g) cell l) = filter (of_type ta) (samples_in bld (geo g) cell l)).
      { apply filter_ext. intros [? [[? ?] ?] ? ? ? ? ? ?]. reflexivity. }
      assert (Se : filter (fun m => pos_keep m && second ta tb m) (samples_in bld (geo g) cell l) = filter (of_type tb) (samples_in bld (geo g) cell l)).
      { apply filter_ext. intros m. unfold pos_keep, second, of_type. destruct (sm_pos m) as [[? ?] ?].
        cbn [nan3 nisnan num_R orb negb andb]. destruct (N.eqb_spec (nusize (sm_type m)) ta) as [E1|E1], (N.eqb_spec (nusize (sm_type m)) tb) as [E2|E2]; try reflexivity. congruence. }
      rewrite Fi in A1, A2. rewrite Se in B1, B2. rewrite count_R in A1, A2, B1, B2. change (@n0 R num_R) with 0 in *. unfold number_of. repeat split; lra. }
    transitivity (fold_left Rplus (map (fun cell => (share ta tb (samples_in bld (geo g) cell l) - c) * (share ta tb (samples_in bld (geo g) cell l) - c)) (full_cells bld g ta tb thr l)) 0);
      [|rewrite fold_left_Rplus; lra].
    rewrite fold_left_map. unfold full_cells. rewrite fold_left_filter. change (@n0 R num_R) with 0. apply fold_left_ext_in. intros acc cell Hc. apply in_ids3 in Hc.
    destruct (D cell Hc) as [D1 [D2 [D3 D4]]]. cbn [nisnan num_R]. rewrite D1, D2, D3, D4. change (@nadd R num_R) with Rplus. rewrite <- !NR_add.
    set (na := number_of ta _). set (nb := number_of tb _).
    destruct (N.leb_spec thr (na + nb)) as [Le|Gt].
    - rewrite (proj2 (Rltb_false _ _)) by (unfold nofN, NR; cbn [nof num_R]; apply IZR_le; lia).
      unfold sq, share. fold na nb. cbn [ndiv nmul nsub num_R]. replace (nb + na)%N with (na + nb)%N by lia. reflexivity.
    - rewrite (proj2 (Rltb_true _ _)) by (unfold nofN, NR; cbn [nof num_R]; apply IZR_lt; lia). reflexivity.
  Qed.
  (** Ideal arithmetic, a grid without data, a threshold of at least one particle: one entry per
      timestep but the last; timesteps outside the window read 0. *)
  Theorem c43_index (bld : build) (M : mgr R) d L (g : grid R) s ta tb thr d' time mix :
    recorded M d L -> sel_ok s -> fresh g -> ta <> tb -> (1 <= thr)%N ->
    lacey_mixing bld M d g s ta tb thr = Val (d', (time, mix)) ->
    vlen time = (vlen L - 1)%N /\ vlen mix = (vlen L - 1)%N /\
    forall t x, at_ (removelast L) t x ->
      if timestep_valid s (ts_time x)
      then at_ time t (ts_time x) /\
           let l := observed s [x] in
           at_ mix t (lacey_index (vlen (ids3 (geom_cells (geo g)))) (share ta tb l)
                        (map (fun c => share ta tb (samples_in bld (geo g) c l)) (full_cells bld g ta tb thr l)))
      else at_ time t 0 /\ at_ mix t 0.
  Proof.
    intros [[Nt [Inv [I Get]]] [Nem Rc]] Sk Fr Ne Thr E. unfold lacey_mixing in E. rewrite Nt in E.
    rewrite usub_ge in E by (destruct L; [contradiction | unfold vlen; cbn; lia]). cbn [bind] in E.
    rewrite <- vlen_removelast in E. set (zs := repeat n0 (N.to_nat (vlen (removelast L)))) in E.
    assert (Lz : vlen zs = (vlen L - 1)%N) by (unfold zs, vlen at 1; rewrite repeat_length, vlen_removelast; lia).
    destruct (series_sound M s (lacey_step bld g s ta tb thr) Inv L Get (removelast L) 0 d zs zs d' time mix) as [_ [Lt [Lm [_ H]]]].
    - intros i x Hi. rewrite N.add_0_l. now apply at_removelast.
    - exact I.
    - exact E.
    - split; [congruence|]. split; [congruence|]. intros t x Hx. specialize (H t x Hx). rewrite N.add_0_l in H.
      assert (Rx : rect x). { assert (Q := Forall_removelast _ _ Rc). rewrite Forall_forall in Q. apply Q. eapply nth_error_In. exact Hx. }
      destruct (timestep_valid s (ts_time x)) eqn:V.
      + destruct H as [H1 [v [Ev H2]]]. split; [now apply vget_val|]. rewrite (lacey_step_R bld ta tb thr g s x v Rx Sk Fr V Ne Thr Ev) in H2. now apply vget_val.
      + destruct H as [H1 H2]. apply at_lt in Hx. destruct (vget_lt zs t ltac:(rewrite Lz, <- vlen_removelast; exact Hx)) as [z Hz].
        assert (Z : z = 0). { apply vget_val in Hz. apply nth_error_In in Hz. now apply repeat_spec in Hz. }
        subst z. rewrite Hz in H1, H2. split; now apply vget_val.
  Qed.
  (** The index never exceeds n / (n - 1), and reaches it exactly when every full cell has the
      overall share: for perfectly mixed data it is n / (n - 1), not 1. *)
  Theorem c43_upper_bound (n : N) (c : R) (shares : list R) : (2 <= n)%N -> 0 < c < 1 ->
    lacey_index n c shares <= NR n / (NR n - 1) /\
    (lacey_index n c shares = NR n / (NR n - 1) <-> forall x, In x shares -> x = c).
  Proof.
    intros Hn Hc. unfold lacey_index. set (D := Rsum _).
    assert (Pn : 2 <= NR n) by (unfold NR; apply (IZR_le 2); lia).
    assert (PD : 0 <= D) by (apply Rsum_nonneg; intros x _; apply (Rle_0_sqr (x - c))).
    assert (PC : 0 < c * (1 - c)) by (apply Rmult_lt_0_compat; lra).
    set (C := c * (1 - c)) in *.
    assert (Q : (C - D / (NR n - 1)) / (C - C / NR n) = NR n / (NR n - 1) - D * (NR n / (C * ((NR n - 1) * (NR n - 1))))) by (field; repeat split; try lra; nra).
    assert (PK : 0 < NR n / (C * ((NR n - 1) * (NR n - 1)))) by (apply Rdiv_lt_0_compat; [lra | apply Rmult_lt_0_compat; [exact PC|]; apply Rmult_lt_0_compat; lra]).
    rewrite Q. split; [|split].
    - assert (0 <= D * (NR n / (C * ((NR n - 1) * (NR n - 1))))) by (apply Rmult_le_pos; lra). lra.
    - intros Eq x Hx. assert (Z : D = 0). { apply Rmult_eq_reg_r with (NR n / (C * ((NR n - 1) * (NR n - 1)))); lra. }
      assert (G : forall l : list R, Rsum (map (fun x => (x - c) * (x - c)) l) = 0 -> forall x, In x l -> x = c).
      { induction l as [|y l IH]; intros Hz z Hz'; [contradiction|]. cbn [map] in Hz. rewrite Rsum_cons in Hz.
        assert (0 <= (y - c) * (y - c)) by apply (Rle_0_sqr (y - c)).
        assert (0 <= Rsum (map (fun x => (x - c) * (x - c)) l)) by (apply Rsum_nonneg; intros w _; apply (Rle_0_sqr (w - c))).
        destruct Hz' as [<-|Hz']; [|apply IH; [lra | exact Hz']]. assert (Y : (y - c) * (y - c) = 0) by lra. apply Rmult_integral in Y. lra. }
      exact (G shares Z x Hx).
    - intros H. assert (Z : D = 0). { unfold D. apply Rsum_zero. intros x Hx. rewrite (H x Hx). lra. } rewrite Z. lra.
  Qed.
End R.
(** Doubles, Cartesian grids: the call returns if both types occur among the selected particles
    of every timestep in the window (but the last). *)
Theorem c43_returns {TF : Trig f64} (bld : build) (M : mgr f64) d L (g : grid f64) (cg : cart_geom f64) s ta tb thr :
  recorded M d L -> sel_ok s -> wf_grid g -> geo g = Cart cg -> sized (cc_cells cg) ->
  (forall x, In x (removelast L) -> timestep_valid s (ts_time x) = true ->
    (0 < number_of ta (observed s [x]))%N /\ (0 < number_of tb (observed s [x]))%N /\
    Forall (fun m => (nusize (sm_type m) + 2 < 2 ^ 64)%N) (observed s [x])) ->
  exists d' time mix, lacey_mixing bld M d g s ta tb thr = Val (d', (time, mix)).
Proof.
  intros [[Nt [Inv [I Get]]] [Nem Rc]] Sk W G Sz Pres. unfold lacey_mixing. rewrite Nt.
  rewrite usub_ge by (destruct L; [contradiction | unfold vlen; cbn; lia]). cbn [bind].
  rewrite <- vlen_removelast. set (zs := repeat n0 (N.to_nat (vlen (removelast L)))).
  assert (Lz : vlen zs = vlen (removelast L)) by (unfold zs, vlen at 1; rewrite repeat_length; lia).
  destruct (series_total M s (lacey_step bld g s ta tb thr) Inv L Get (removelast L) 0 d zs zs) as [[d' [time mix]] E].
  - intros i x Hi. rewrite N.add_0_l. now apply at_removelast.
  - exact I.
  - lia.
  - lia.
  - intros x Hx V. destruct (Pres x Hx V) as [Pa [Pb Ty]].
    assert (R : rect x) by (assert (Q := Forall_removelast _ _ Rc); rewrite Forall_forall in Q; now apply Q).
    destruct (new_zeros_wf g W) as [W0 G0]. unfold lacey_step.
    destruct (counts_total (observed s [x]) Ty []) as [tc Etc].
    destruct (types_total ta tb bld g (observed s [x]) _ _ ltac:(rewrite G; now apply cart_inside_ok) W0 G0 W0 G0) as [a [b Eab]].
    rewrite (proj2 (lacey_counts_spec bld ta tb g s x tc (a, b) R Sk)) by (rewrite (accepted_observed s x R V); auto). cbn [bind].
    destruct (vget_lt tc ta (counted_present _ _ _ Etc Pa)) as [ca ->]. destruct (vget_lt tc tb (counted_present _ _ _ Etc Pb)) as [cb ->]. cbn [bind].
    destruct (types_sound ta tb bld g _ _ _ a b W0 G0 W0 G0 Eab) as [[Wa [Ga _]] [Wb [Gb _]]].
    rewrite (lacey_value_ok a b (geo g) _ _ _ Wa Ga Wb Gb). eauto.
  - rewrite N.add_0_l in E. exists d', time, mix. exact E.
Qed.
(** False of the code: perfectly mixed data (each of the two cells holds one particle of each
    type) give more than 1.5. *)
Definition lacey_data : list (timestep f64) :=
  let p := (d 0, d 0, d 0) in let q := (d 0, d 0, d 1) in
  let x t := mkTs (d t) [p; p; q; q] [p; p; p; p] [d 1; d 1; d 1; d 1] [d 0; d 1; d 2; d 3] [d 0; d 0; d 0; d 0] [d 1; d 1; d 1; d 1] [d 1; d 2; d 1; d 2] in
  [x 0%Z; x 1%Z].
Theorem c43_at_most_one_refuted {TF : Trig f64} :
  recorded (list_mgr lacey_data (ex_stats 2)) tt lacey_data /\
  after (cart_new (1, 1, 2)%N (ThreeD box64)) (fun g =>
    (forall x, In x lacey_data -> forall c, In c [(0, 0, 0); (0, 0, 1)]%N ->
       number_of 1 (samples_in Debug (geo g) c (samples x)) = 1%N /\ number_of 2 (samples_in Debug (geo g) c (samples x)) = 1%N) /\
    after (lacey_mixing Debug (list_mgr lacey_data (ex_stats 2)) tt g sel_default 1 2 1) (fun r => map (Bltb (nlit 3 2)) (snd (snd r)) = [true])).
Proof.
  split; [apply list_recorded; [discriminate | repeat constructor | reflexivity]|].
  destruct (cart_new (1, 1, 2)%N (ThreeD box64)) as [g|] eqn:E; [|discriminate]. cbn [after]. injection E as <-. split.
  - intros x [<-|[<-|[]]] c [<-|[<-|[]]]; vm_compute; auto.
  - vm_compute. reflexivity.
Qed.
(** False of the code: a timestep in which a type does not occur makes the call panic. *)
Theorem c43_absent_type_refuted {TF : Trig f64} :
  after (cart_new (1, 1, 2)%N (ThreeD box64)) (fun g =>
    lacey_mixing Debug (list_mgr lacey_data (ex_stats 2)) tt g sel_default 1 4 1 = Panic).
Proof. vm_compute. reflexivity. Qed.
Example c43_case {TF : Trig f64} : exists g, cart_new (1, 1, 2)%N (ThreeD box64) = Val g /\ fresh g /\
  (forall x, In x (removelast lacey_data) -> timestep_valid (sel_default (F := f64)) (ts_time x) = true ->
    (0 < number_of 1 (observed sel_default [x]))%N /\ (0 < number_of 2 (observed sel_default [x]))%N /\
    Forall (fun m => (nusize (sm_type m) + 2 < 2 ^ 64)%N) (observed sel_default [x])).
Proof.
  eexists. split; [reflexivity|]. split; [apply (new_fresh (1, 1, 2)%N (ThreeD box64) true); left; reflexivity|].
  intros x [<-|[]] _. split; [vm_compute; reflexivity|]. split; [vm_compute; reflexivity|].
  apply Forall_forall. intros m Hm. assert (Q : forallb (fun m => nusize (sm_type m) + 2 <? 2 ^ 64)%N (observed sel_default [nth 0 lacey_data (ts_default (F := f64))]) = true) by (vm_compute; reflexivity).
  rewrite forallb_forall in Q. apply N.ltb_lt. now apply Q.
Qed.
