(** * PropertiesFirst: what is analysed of a CSV file with several particles (C171)

    The converter writes every particle to a group of its own, but the header says one particle: readers are shown the first
    group only.  What extract, mean_velocity_showcase and vectorfield answer about such a file, in terms of the lines of the
    first particle. *)
From Coq Require Import Reals List NArith ZArith Bool Lia Lra String Permutation Sorted ZifyBool ZifyN ZifyNat.
From Flocq Require Import Core.Core IEEE754.BinarySingleNaN.
From Verif Require Import Base BaseFacts Num F64Facts RFacts NDArray GridModel GridSpec GridFacts CartProofs VecProofs SelModel PropertiesSel DataModel DataSpec DataProofs DataLoad PropertiesGrid PropertiesData FunModel FunSpec FunProofs FunMgr FunField PropertiesFun FunMom FunTemp MixModel CondModel FunExtract PyModel PyGridModel PropertiesPyGrid FunRefine SessionModel SessionSpec SessionProofs PropertiesSession
  ConvModel ConvSort ConvCsv PropertiesCsv ConvVtk ConvIds ConvMulti FunTrack FunCirc ConvIdChain PropertiesMulti PropertiesPipeline PropertiesMean PropertiesWrap PropertiesFrames PropertiesTracks PropertiesAll.
Local Open Scope string_scope.
Local Open Scope list_scope.
Local Notation zero := (f64_of_Z 0).
Local Notation tm := (@s_time f64).

(** The entries that a reader sees for the lines [l] of a particle: a line later than zero and than all before it as it is, any other
    line as a particle at rest in the origin at time zero. *)
Definition blank : smp f64 := (zero, (zero, zero, zero), (zero, zero, zero)).
Definition seen_as (l E : list (smp f64)) : Prop :=
  vlen E = vlen l /\ forall k s, at_ l k s -> (news l k -> at_ E k s) /\ (~ news l k -> at_ E k blank).

Section First.
  Context {TF : Trig f64} (bld : build).

  Section File.
    Context (pf : pfile f64) (h : header f64) (radius : f64) (ids : N -> f64) (l : list (smp f64)) (others : list (list (smp f64))).
    Context (H : holds_all pf h radius ids (l :: others)).

    (** ** The first particle is not the longest *)
    Theorem c171_not_opened l' : In l' others -> (vlen l < vlen l')%N -> (vlen l < BUFFERSIZE)%N -> dm_new bld (p_load pf) (pf_timesteps pf) = Panic.
    Proof.
      intros Hl' Hlt Hb. destruct H as [Hg [_ [_ [Hn [_ [Np _]]]]]]. specialize (Hn l' (or_intror Hl')).
      destruct (Hg 0%N l eq_refl) as [g [G [[T [P [V [ET [EP [EV [LT [LP [LV _]]]]]]]]] _]]].
      unfold dm_new, buf_update. set (hi := if (pf_timesteps pf <=? BUFFERSIZE)%N then pf_timesteps pf else BUFFERSIZE).
      assert (Hh : (vlen l < hi)%N) by (unfold hi; destruct (N.leb_spec (pf_timesteps pf) BUFFERSIZE); lia). rewrite usub_ge by lia. cbn [bind].
      unfold p_load. rewrite (proj2 (N.ltb_ge _ _)) by lia. rewrite Np. change (range 0 1) with [0%N]. cbn [mmap].
      unfold p_column. rewrite G. cbn [unwrap bind]. rewrite EP. cbn [unwrap bind]. unfold vslice at 1. rewrite (proj2 (N.leb_gt _ _)) by lia. reflexivity.
    Qed.

    (** ** The first particle is not the longest, and long enough for the file to be opened *)
    (** A first particle that fills the buffer can be opened all the same. *)
    Theorem c171_shorter_opened : (BUFFERSIZE <= vlen l)%N -> (vlen l <= 2 ^ 52)%N -> exists d0, dm_new bld (p_load pf) (pf_timesteps pf) = Val d0.
    Proof.
      intros Hb Hm. destruct H as [Hg [_ [_ [Hn [_ [Np _]]]]]]. specialize (Hn l (or_introl eq_refl)). unfold BUFFERSIZE in Hb.
      destruct (Hg 0%N l eq_refl) as [g [G [[T [P [V [ET [EP [EV [LT [LP [LV _]]]]]]]]] [Er [Ei [Ed Ety]]]]]].
      set (q := mkPf (pf_group pf) 1 (vlen l)).
      assert (OK : pf_ok q).
      { split; [cbn; lia|]. split; [cbn; lia|]. split; [exists g; split; [exact G|]; exists T; split; [exact ET | cbn; lia]|]. intros i Hi. cbn in Hi. assert (i = 0%N) by lia. subst i. exists g. split; [exact G|].
        split; [exists P; split; [exact EP | cbn; lia]|]. split; [exists V; split; [exact EV | cbn; lia]|]. rewrite Er, Ed. split; [cbn [long_if_there q pf_timesteps]; unfold vlen; rewrite repeat_length; lia|]. split; [exact I | exact Ety]. }
      destruct (new_ok bld (p_load q) (pf_timesteps q) (p_shows q) (p_nt q OK) (p_ld q OK)) as [d0 [E0 _]]. exists d0. rewrite <- E0.
      assert (Ld : forall lo hi, p_load pf lo hi = p_load q lo hi) by (intros; unfold p_load; rewrite Np; reflexivity).
      unfold dm_new, buf_update. cbn [q pf_timesteps].
      assert (S1 : (if (pf_timesteps pf <=? BUFFERSIZE)%N then pf_timesteps pf else BUFFERSIZE) = BUFFERSIZE) by (unfold BUFFERSIZE in *; destruct (N.leb_spec (pf_timesteps pf) 20000); lia).
      assert (S2 : (if (vlen l <=? BUFFERSIZE)%N then vlen l else BUFFERSIZE) = BUFFERSIZE) by (unfold BUFFERSIZE in *; destruct (N.leb_spec (vlen l) 20000); lia).
      rewrite S1, S2. rewrite usub_ge by lia. cbn [bind]. rewrite Ld. reflexivity.
    Qed.
    Section Shorter.
      Context (l' : list (smp f64)) (Hl' : In l' others) (Hlt : (vlen l < vlen l')%N) (Big : Forall (fun q => (vlen q <= 2 ^ 52)%N) others).
      Let nt := pf_timesteps pf.
      Let load := p_load pf.
      Lemma shorter_nt : (vlen l < nt)%N /\ (nt <= 2 ^ 52)%N.
      Proof.
        destruct H as [_ [_ [_ [Hn [Hx _]]]]]. assert (A := Hn l' (or_intror Hl')). split; [subst nt; lia|].
        destruct (Hx ltac:(discriminate)) as [q [[<-|I] E]]; [subst nt; lia|]. rewrite Forall_forall in Big. specialize (Big q I). subst nt. lia.
      Qed.
      Lemma load_short lo hi x : load lo hi = Val x -> (hi <= vlen l)%N.
      Proof.
        destruct H as [Hg [_ [_ [_ [_ [Np _]]]]]]. destruct (Hg 0%N l eq_refl) as [g [G [[T [P [V [ET [EP [EV [LT [LP [LV _]]]]]]]]] _]]].
        unfold load, p_load. destruct (hi <? lo)%N; [discriminate|]. rewrite Np. change (range 0 1) with [0%N]. cbn [mmap].
        unfold p_column. rewrite G. cbn [unwrap bind]. rewrite EP. cbn [unwrap bind]. unfold vslice at 1. destruct (N.leb_spec hi (vlen P)) as [A|A]; [intros _; clear - A LP; lia | try rewrite andb_false_r; discriminate].
      Qed.
      Definition sound (b : buf f64) : Prop := (b_lo b < b_hi b)%N /\ (b_hi b <= vlen l)%N /\ b_size b = (b_hi b - b_lo b)%N.
      Lemma update_sound lo hi b b' : (lo < hi)%N -> (lo < nt)%N -> buf_update bld load nt lo hi b = Val b' -> sound b'.
      Proof.
        intros A B U. unfold buf_update in U. set (hi' := if (nt <=? hi)%N then nt else hi) in *. assert (L : (lo < hi')%N) by (unfold hi'; destruct (N.leb_spec nt hi); lia).
        rewrite usub_ge in U by lia. cbn [bind] in U. apply bind_val in U. destruct U as [x [X U]]. apply bind_val in U. destruct U as [s [_ U]]. injection U as <-.
        apply load_short in X. repeat split; cbn [b_lo b_hi b_size]; lia.
      Qed.
      Lemma get_sound d t d' x : sound (d_main d) -> (t <= nt)%N -> dm_get bld load nt d t = Val (d', x) -> (t < vlen l)%N /\ sound (d_main d').
      Proof.
        intros [S1 [S2 S3]] Ht E0. destruct shorter_nt as [N1 N2]. unfold dm_get in E0. rewrite usub_ge in E0 by lia. cbn [bind] in E0.
        apply bind_val in E0. destruct E0 as [m [U E0]]. apply bind_val in E0. destruct E0 as [k [_ E0]]. apply bind_val in E0. destruct E0 as [y [_ E0]]. injection E0 as <- _. cbn [d_main].
        destruct (N.ltb_spec (b_hi (d_main d) - 1) t) as [C|C].
        - unfold uadd in U. rewrite (proj2 (N.ltb_lt _ _)) in U by (rewrite S3; unfold usize_modulus; lia). cbn [bind] in U.
          assert (Q : (t < nt)%N).
          { destruct (N.eq_dec t nt) as [->|]; [|lia]. exfalso. unfold buf_update in U. rewrite (proj2 (N.leb_le nt _)) in U by lia. rewrite usub_ge in U by lia. cbn [bind] in U.
            apply bind_val in U. destruct U as [z [X _]]. apply load_short in X. lia. }
          assert (Sm : sound m) by (refine (update_sound _ _ _ _ _ Q U); lia). split; [|exact Sm]. destruct Sm as [M1 [M2 _]].
          assert (b_lo m = t). { unfold buf_update in U. apply bind_val in U. destruct U as [? [_ U]]. apply bind_val in U. destruct U as [? [_ U]]. apply bind_val in U. destruct U as [? [_ U]]. now injection U as <-. }
          lia.
        - split; [lia|]. destruct (N.ltb_spec t (b_lo (d_main d))) as [C'|C'].
          + assert (Ec : chunk (F := f64) t = (t / BUFFERSIZE)%N) by (apply chunk_div; lia). rewrite Ec in U.
            assert (Lo : (t / BUFFERSIZE * BUFFERSIZE <= t)%N) by (rewrite N.mul_comm; apply N.mul_div_le; discriminate).
            refine (update_sound _ _ _ _ _ _ U); [unfold BUFFERSIZE; lia | lia].
          + injection U as <-. repeat split; assumption.
      Qed.
      Context (d0 : dm f64) (Op : dm_new bld load nt = Val d0).
      Lemma reached_sound d : reached (p_mgr bld pf (open_stats h)) (p_touch bld load nt) nt d0 d -> sound (d_main d).
      Proof.
        destruct shorter_nt as [N1 N2]. induction 1 as [|d t d' x R IH Ht G|d d' R IH G|d t d' x R IH Ht G|d t d' R IH Ht G].
        - unfold dm_new in Op. apply bind_val in Op. destruct Op as [b [U E0]]. injection E0 as <-. cbn [d_main]. refine (update_sound _ _ _ _ _ _ U); [reflexivity | lia].
        - exact (proj2 (get_sound _ _ _ _ IH Ht G)).
        - cbn [p_mgr m_setup] in G. unfold dm_setup in G. destruct (index_of 0 (d_names d)).
          + apply bind_val in G. destruct G as [? [_ G]]. apply bind_val in G. destruct G as [? [_ G]]. apply bind_val in G. destruct G as [? [_ G]]. now injection G as <-.
          + apply bind_val in G. destruct G as [? [_ G]]. now injection G as <-.
        - cbn [p_mgr m_getb] in G. unfold p_get_buffer in G. do 7 (try (apply bind_val in G; destruct G as [? [_ G]])). now injection G as <-.
        - unfold p_touch in G. do 5 (apply bind_val in G; destruct G as [? [_ G]]). now injection G as <-.
      Qed.
      Context (d : dm f64) (Rd : reached (p_mgr bld pf (open_stats h)) (p_touch bld (p_load pf) (pf_timesteps pf)) (pf_timesteps pf) d0 d).
      (** No timestep past the end of the first particle can be read, ... *)
      Theorem c171_shorter_reads t : (vlen l <= t)%N -> (t <= pf_timesteps pf)%N -> dm_get bld (p_load pf) (pf_timesteps pf) d t = Panic.
      Proof.
        intros A B. destruct (dm_get bld (p_load pf) (pf_timesteps pf) d t) as [[d' x]|] eqn:G; [|reflexivity]. apply (get_sound d t d' x (reached_sound d Rd) B) in G. lia.
      Qed.
      (** ... so that functions that go through all timesteps panic, whatever is selected. *)
      Lemma loop_stops {S} s (body : dm f64 * S -> N -> timestep f64 -> res (dm f64 * S)) y :
        (forall e z t x e' z', body (e, z) t x = Val (e', z') -> e' = e) ->
        loop_ts (p_mgr bld pf (open_stats h)) s body (range 0 nt) (d, y) = Panic.
      Proof.
        intros Hb. destruct shorter_nt as [N1 N2]. unfold loop_ts. rewrite (range_split 0 (vlen l) nt) by lia. rewrite mfold_app.
        assert (K : forall q st, sound (d_main (fst st)) -> Forall (fun t => (t <= nt)%N) q -> forall st', mfold (fun st t => bind (m_get (p_mgr bld pf (open_stats h)) (fst st) t) (fun r => let '(e, x) := r in if timestep_valid s (ts_time x) then body (e, snd st) t x else Val (e, snd st))) q st = Val st' -> sound (d_main (fst st'))).
        { induction q as [|t q IH]; intros st Ss Fq st' Q; cbn [mfold] in Q; [injection Q as <-; exact Ss|]. inversion Fq as [|? ? F1 F2]; subst. apply bind_val in Q. destruct Q as [st1 [Q1 Q2]].
          apply (IH st1); [|exact F2|exact Q2]. apply bind_val in Q1. destruct Q1 as [[e x] [G Q1]]. apply (get_sound _ _ _ _ Ss F1) in G. destruct G as [_ G].
          destruct (timestep_valid s (ts_time x)); [destruct st1 as [e1 z1]; apply Hb in Q1; subst e1; exact G | injection Q1 as <-; exact G]. }
        match goal with |- bind ?m _ = _ => destruct m as [st'|] eqn:Q; [|reflexivity] end. cbn [bind].
        apply K in Q; [|exact (reached_sound d Rd) | apply Forall_forall; intros t Ht; apply in_range in Ht; lia].
        assert (R1 : exists r, range (vlen l) nt = vlen l :: r).
        { unfold range. destruct (N.to_nat (nt - vlen l)) as [|n] eqn:En; [lia|]. cbn [seq map]. eexists. f_equal. lia. }
        destruct R1 as [r ->]. cbn [mfold]. cbn [p_mgr m_get].
        destruct (dm_get bld (p_load pf) (pf_timesteps pf) (fst st') (vlen l)) as [[d' x]|] eqn:G; [|reflexivity]. apply get_sound in G; [lia | exact Q | lia].
      Qed.
      Lemma nt_stats : st_timesteps (m_stats (p_mgr bld pf (open_stats h))) = nt.
      Proof. destruct H as [_ [_ [_ [_ [_ [_ [_ Ht]]]]]]]. cbn [p_mgr m_stats open_stats st_timesteps]. subst nt. congruence. Qed.
      Lemma steps_all : all_steps bld (p_mgr bld pf (open_stats h)) = Val (range 0 nt).
      Proof. unfold all_steps. rewrite nt_stats. destruct shorter_nt. rewrite usub_ge by lia. cbn [bind]. do 2 f_equal. lia. Qed.
      Theorem c171_shorter_no_speed s : mean_velocity_showcase bld (p_mgr bld pf (open_stats h)) d s = Panic.
      Proof.
        unfold mean_velocity_showcase. rewrite steps_all. cbn [bind]. unfold loop_pure. rewrite loop_stops; [reflexivity|].
        intros e z t x e' z' Q. cbn in Q. now injection Q.
      Qed.
      Theorem c171_shorter_no_vectors g s : vectorfield bld (p_mgr bld pf (open_stats h)) d g s = Panic.
      Proof.
        unfold vectorfield. rewrite steps_all. cbn [bind]. unfold loop_pure. rewrite loop_stops; [reflexivity|].
        intros e z t x e' z' Q. apply bind_val in Q. destruct Q as [y [_ Q]]. now injection Q.
      Qed.
      (** Nor can lines past its end be extracted. *)
      Theorem c171_shorter_no_lines i a b : (a < b)%N -> (vlen l < b)%N -> extract bld (p_mgr bld pf (open_stats h)) d i a b = Panic.
      Proof.
        intros Hab Hb. destruct shorter_nt as [N1 N2]. unfold extract. rewrite nt_stats. destruct ((nt <=? a) || (nt <=? b))%N eqn:C; [reflexivity|]. apply orb_false_iff in C as [C1 C2]. apply N.leb_gt in C1, C2.
        rewrite usub_ge by lia. cbn [bind]. match goal with |- bind ?m _ = _ => destruct m as [z|]; [|reflexivity] end. cbn [bind].
        assert (K : forall q (st : dm f64 * list (list f64)), sound (d_main (fst st)) -> Forall (fun p => (snd p <= nt)%N) q -> (exists p, In p q /\ (vlen l <= snd p)%N) ->
          mfold (fun st '(id, t) => bind (m_get (p_mgr bld pf (open_stats h)) (fst st) t) (fun r => let '(d', x) := r in bind (extract_row x i) (fun q => bind (vset (snd st) id q) (fun rows => Val (d', rows))))) q st = Panic).
        { induction q as [|[id t] q IH]; intros [e z'] Ss Fq [p [Ip Hp]]; [contradiction Ip|]. cbn [fst] in Ss. inversion Fq as [|? ? F1 F2]; subst. cbn [mfold]. cbn [snd] in F1. cbn [p_mgr m_get fst snd].
          destruct (dm_get bld (p_load pf) (pf_timesteps pf) e t) as [[d' x]|] eqn:G; [|reflexivity]. apply get_sound in G; [|exact Ss|exact F1]. destruct G as [Lt Sd]. cbn [bind].
          destruct (extract_row x i) as [row|]; [|reflexivity]. cbn [bind]. destruct (vset z' id row) as [rows|]; [|reflexivity]. cbn [bind].
          apply IH; [exact Sd | exact F2|]. destruct Ip as [<-|Ip]; [cbn [snd] in Hp; lia | now exists p]. }
        rewrite enumerate_range by lia. apply K; [exact (reached_sound d Rd) | |].
        - apply Forall_forall. intros p Ip. apply in_map_iff in Ip. destruct Ip as [k [<- Ik]]. apply in_range in Ik. cbn [snd]. lia.
        - exists (b - 1 - a, a + (b - 1 - a))%N. cbn [snd]. split; [|lia]. apply in_map_iff. exists (b - 1 - a)%N. split; [reflexivity|]. apply in_range. lia.
      Qed.
    End Shorter.
    (** ** The first particle is the longest *)
    Context (Ne : l <> []) (Longest : forall l', In l' others -> (vlen l' <= vlen l)%N) (Ln : (vlen l <= 2 ^ 53)%N).
    Context (E : list (smp f64)) (HE : seen_as l E).
    Theorem c171_recorded : exists d0, dm_new bld (p_load pf) (pf_timesteps pf) = Val d0 /\
      forall d, reached (p_mgr bld pf (open_stats h)) (p_touch bld (p_load pf) (pf_timesteps pf)) (pf_timesteps pf) d0 d ->
      exists L, recorded (p_mgr bld pf (open_stats h)) d L /\
        map (fun x => (ts_time x, ts_pos x, ts_vel x)) L = map (fun s => (tm s, [s_pos s], [s_vel s])) E.
    Proof.
      destruct HE as [LE AtE]. destruct H as [Hg [_ [_ [Hn [Hx [Np [_ Ht]]]]]]].
      assert (Nt : pf_timesteps pf = vlen l).
      { destruct (Hx ltac:(discriminate)) as [l1 [[<-|I1] E1]]; [now symmetry|]. specialize (Longest l1 I1). specialize (Hn l (or_introl eq_refl)). lia. }
      destruct (Hg 0%N l eq_refl) as [g [G [[T [P [V [ET [EP [EV [LT [LP [LV Rk]]]]]]]]] [Er [Ei [Ed Ety]]]]]].
      assert (L1 : (1 <= vlen l)%N) by (destruct l; [contradiction | rewrite vlen_cons; lia]).
      assert (OK : pf_ok pf).
      { split; [lia|]. split; [lia|]. split; [exists g; split; [exact G|]; exists T; split; [exact ET | lia]|]. intros i Hi. assert (i = 0%N) by lia. subst i. exists g. split; [exact G|].
        split; [exists P; split; [exact EP | lia]|]. split; [exists V; split; [exact EV | lia]|]. rewrite Er, Ed, Nt. split; [cbn [long_if_there]; unfold vlen; rewrite repeat_length; lia|]. split; [exact I | exact Ety]. }
      destruct (new_ok bld (p_load pf) (pf_timesteps pf) (p_shows pf) (p_nt pf OK) (p_ld pf OK)) as [d0 [E0 _]]. exists d0. split; [exact E0|]. intros d Rd.
      assert (Nt' : st_timesteps (open_stats h) = pf_timesteps pf) by (cbn [open_stats st_timesteps]; congruence).
      destruct (c118_p_recorded bld pf (open_stats h) d0 d OK Nt' E0 Rd) as [L [VL [HL Rec]]]. exists L. split; [exact Rec|].
      apply (at_ext _ _ (vlen l)); [unfold vlen in *; rewrite map_length; lia | unfold vlen in *; rewrite map_length; lia|]. intros k Hk.
      destruct (lt_at L k ltac:(lia)) as [x Hxk]. destruct (lt_at l k Hk) as [s Hs]. destruct (proj1 (HL k x) Hxk) as [_ [[g' [G' [T' [ET' At]]]] [Vp [Vv [_ [_ [_ [_ [_ S]]]]]]]]].
      assert (g' = g) by congruence. subst g'. assert (T' = T) by congruence. subst T'.
      destruct (S 0%N ltac:(lia)) as [g' [p [v [r [de [ty [G2 [A1 [[P' [EP' A2]] [B1 [[V' [EV' B2]] _]]]]]]]]]]].
      assert (g' = g) by congruence. subst g'. assert (P' = P) by congruence. assert (V' = V) by congruence. subst P' V'.
      assert (One : forall (A : Type) (q : list A) a, vlen q = pf_nparticles pf -> at_ q 0 a -> q = [a]).
      { intros A q a Vq Hq. rewrite Np in Vq. destruct q as [|b [|c q]]; [discriminate | unfold at_ in Hq; cbn in Hq; congruence | rewrite !vlen_cons in Vq; lia]. }
      assert (X : (ts_time x, ts_pos x, ts_vel x) = (ts_time x, [p], [v])) by (now rewrite (One _ _ _ Vp A1), (One _ _ _ Vv B1)).
      exists (ts_time x, [p], [v]). split; [apply at_map; exists x; split; [exact Hxk | symmetry; exact X]|].
      assert (Fu : forall (A : Type) (q : list A) i a b, at_ q i a -> at_ q i b -> a = b) by (clear; unfold at_; intros; congruence).
      destruct (Rk k s Hs) as [R1 R2]. destruct (AtE k s Hs) as [Q1 Q2]. apply at_map. destruct (Classical_Prop.classic (news l k)) as [W|W].
      - destruct (R1 W) as [C1 [C2 C3]]. exists s. split; [now apply Q1|]. now rewrite (Fu _ _ _ _ _ At C1), (Fu _ _ _ _ _ A2 C2), (Fu _ _ _ _ _ B2 C3).
      - destruct (R2 W) as [C1 [C2 C3]]. exists blank. split; [now apply Q2|]. now rewrite (Fu _ _ _ _ _ At C1), (Fu _ _ _ _ _ A2 C2), (Fu _ _ _ _ _ B2 C3).
    Qed.
    Lemma rec_rows (L : list (timestep f64)) : map (fun x => (ts_time x, ts_pos x, ts_vel x)) L = map (fun s => (tm s, [s_pos s], [s_vel s])) E ->
      vlen L = vlen l /\ forall k x, at_ L k x -> exists s, at_ E k s /\ ts_time x = tm s /\ ts_pos x = [s_pos s] /\ ts_vel x = [s_vel s].
    Proof.
      intros Q. split.
      - assert (X := f_equal (@List.length _) Q). rewrite !map_length in X. destruct HE as [LE _]. unfold vlen in *. lia.
      - intros k x Hx. assert (A : at_ (map (fun x => (ts_time x, ts_pos x, ts_vel x)) L) k (ts_time x, ts_pos x, ts_vel x)) by (apply at_map; now exists x).
        rewrite Q in A. apply at_map in A. destruct A as [s [Hs Es]]. exists s. split; [exact Hs|]. injection Es as -> -> ->. auto.
    Qed.
    (** The trajectory of particle 0 is that of the first particle; no other can be extracted. *)
    Theorem c171_trajectory a b : (a <= b)%N -> (b < vlen l)%N ->
      exists d0, dm_new bld (p_load pf) (pf_timesteps pf) = Val d0 /\
      forall d, reached (p_mgr bld pf (open_stats h)) (p_touch bld (p_load pf) (pf_timesteps pf)) (pf_timesteps pf) d0 d ->
      (exists d' rows, extract bld (p_mgr bld pf (open_stats h)) d 0 a b = Val (d', rows) /\ vlen rows = (b - a)%N /\
        forall i t x y z u v w, (i < b - a)%N -> at_ E (a + i) (t, (x, y, z), (u, v, w)) -> at_ rows i [t; x; y; z; u; v; w]) /\
      forall i, (1 <= i)%N -> (a < b)%N -> extract bld (p_mgr bld pf (open_stats h)) d i a b = Panic.
    Proof.
      intros Hab Hb. destruct c171_recorded as [d0 [E0 Q]]. exists d0. split; [exact E0|]. intros d Rd. destruct (Q d Rd) as [L [Rec Rw]]. destruct (rec_rows L Rw) as [VL Tr]. split.
      - destruct (c46_rows bld _ d L 0 a b Rec Hab ltac:(lia) ltac:(lia)) as [d' [rows [Er [_ [Vr Hr]]]]].
        { intros t x _ Hx. destruct (Tr t x Hx) as [s [_ [_ [-> _]]]]. reflexivity. }
        exists d', rows. split; [exact Er|]. split; [exact Vr|]. intros i t x y z u v w Hi He.
        destruct (lt_at L (a + i) ltac:(lia)) as [X HX]. destruct (Tr _ _ HX) as [s [Hs [Et [Ep Ev]]]].
        assert (Y : forall (A : Type) (o : option A) e g, o = Some e -> o = Some g -> e = g) by (intros; congruence).
        assert (s = (t, (x, y, z), (u, v, w))) by exact (Y _ _ _ _ Hs He). subst s. cbn [s_time s_pos s_vel fst snd] in Et, Ep, Ev.
        assert (Rx : rect X) by (apply (proj1 (Forall_forall rect L) (proj2 (proj2 Rec))); exact (nth_error_In _ _ HX)).
        destruct (lt_at (samples X) 0) as [m Hm]; [rewrite samples_length, Ep by exact Rx; reflexivity|].
        destruct (samples_at X 0 m Rx Hm) as [B1 [B2 [B3 _]]]. rewrite Ep in B2. rewrite Ev in B3. unfold at_ in B2, B3. cbn in B2, B3. injection B2 as B2. injection B3 as B3.
        assert (Row : row_of m = [t; x; y; z; u; v; w]) by (unfold row_of; now rewrite B1, <- B2, <- B3, Et).
        rewrite <- Row. exact (Hr i X m Hi HX Hm).
      - intros i Hi Hlt. destruct (lt_at L a ltac:(lia)) as [X HX]. apply (c46_missing_particle bld _ d L i a b a X Rec ltac:(lia) HX).
        destruct (Tr _ _ HX) as [s [_ [_ [-> _]]]]. exact Hi.
    Qed.
    Context (Fin : Forall (fun s => is_finite (tm s) = true) E).
    Lemma first_all (L : list (timestep f64)) : map (fun x => (ts_time x, ts_pos x, ts_vel x)) L = map (fun s => (tm s, [s_pos s], [s_vel s])) E ->
      Forall (fun x => is_finite (ts_time x) = true) L /\ Permutation (flat_map (fun x => combine (ts_pos x) (ts_vel x)) L) (step_entries E).
    Proof.
      clear HE Ne Longest Ln. revert L Fin. induction E as [|s q IH]; intros [|x L] FE Q; try discriminate; [split; [constructor | reflexivity]|]. inversion FE as [|? ? F1 F2]; subst.
      cbn [map] in Q. injection Q as Q1 Q2 Q3 Q. destruct (IH L F2 Q) as [I1 I2]. split.
      - constructor; [|exact I1]. cbv beta. change (is_finite (ts_time x : f64) = true). change (ts_time x = tm s :> f64) in Q1. rewrite Q1. exact F1.
      - cbn [flat_map]. rewrite Q2, Q3. cbn [combine app]. unfold step_entries. cbn [map]. constructor. exact I2.
    Qed.
    (** The mean speed is that of the first particle's entries, whatever the others do. *)
    Theorem c171_mean_speed : (vlen l < 2 ^ 52)%N -> (forall s, In s E -> slow (s_vel s)) ->
      exists d0, dm_new bld (p_load pf) (pf_timesteps pf) = Val d0 /\
      forall d, reached (p_mgr bld pf (open_stats h)) (p_touch bld (p_load pf) (pf_timesteps pf)) (pf_timesteps pf) d0 d ->
      exists d' m, mean_velocity_showcase bld (p_mgr bld pf (open_stats h)) d sel_default = Val (d', m) /\ is_finite m = true /\
        let mean := Rmean (map (fun s => exact_speed (s_vel s)) E) in
        (Rabs (B2R m - mean) <= NR (vlen l + 9) / IZR (2 ^ 52) * mean + bpow radix2 (-530))%R.
    Proof.
      intros Sm Sl. destruct c171_recorded as [d0 [E0 Q]]. exists d0. split; [exact E0|]. intros d Rd. destruct (Q d Rd) as [L [Rec Rw]]. destruct (first_all L Rw) as [FL P].
      assert (Vs : vlen (step_entries E) = vlen l) by (destruct HE as [LE _]; rewrite <- LE; unfold step_entries, vlen; now rewrite map_length).
      destruct (speed_of bld _ d L (step_entries E) Rec FL P) as [d' [m [Er [Fm Hm]]]].
      - intros Z. rewrite Z in Vs. destruct l; [contradiction | discriminate Vs].
      - lia.
      - intros p v Hv. unfold step_entries in Hv. apply in_map_iff in Hv. destruct Hv as [s [Es Hs]]. injection Es as _ <-. now apply Sl.
      - exists d', m. split; [exact Er|]. split; [exact Fm|]. cbv zeta in *. rewrite Vs in Hm. unfold step_entries in Hm. rewrite map_map in Hm. exact Hm.
    Qed.
    Theorem c171_vectors cells lm g : (vlen l < 2 ^ 52)%N -> (forall s x y z, In s E -> s_vel s = (x, y, z) -> ordinary x /\ ordinary y /\ ordinary z) ->
      sized cells -> cart_new cells (ThreeD lm) = Val g ->
      exists d0, dm_new bld (p_load pf) (pf_timesteps pf) = Val d0 /\
      forall d, reached (p_mgr bld pf (open_stats h)) (p_touch bld (p_load pf) (pf_timesteps pf)) (pf_timesteps pf) d0 d ->
      exists d' v, vectorfield bld (p_mgr bld pf (open_stats h)) d g sel_default = Val (d', v) /\
      forall k c, (k <= 2)%N -> inb3 cells c = true ->
        let q := filter (fun s => in_cell bld (geo g) c (s_pos s)) E in q <> [] ->
        mean_close (at3 (data (comp k v)) c) (map (fun s => v3i k (s_vel s)) q).
    Proof.
      intros Sm Od Sz Eg. destruct c171_recorded as [d0 [E0 Q]]. exists d0. split; [exact E0|]. intros d Rd. destruct (Q d Rd) as [L [Rec Rw]]. destruct (first_all L Rw) as [FL P].
      assert (Vs : vlen (step_entries E) = vlen l) by (destruct HE as [LE _]; rewrite <- LE; unfold step_entries, vlen; now rewrite map_length).
      destruct (vectors_of bld _ d L (step_entries E) Rec FL P cells lm g ltac:(lia)) as [d' [v [Er Hv]]].
      - intros p x y z I. unfold step_entries in I. apply in_map_iff in I. destruct I as [s [Es Hs]]. injection Es as _ Ev. now apply (Od s).
      - exact Sz.
      - exact Eg.
      - exists d', v. split; [exact Er|]. intros k c Hk Hc q Nq. specialize (Hv k c Hk Hc). cbv zeta in Hv.
        assert (Fq : filter (fun pv => in_cell bld (geo g) c (fst pv)) (step_entries E) = map (fun s => (s_pos s, s_vel s)) q).
        { unfold q, step_entries. clear. induction E as [|s r IH]; [reflexivity|]. cbn [map filter fst]. destruct (in_cell bld (geo g) c (s_pos s)); cbn [map]; now rewrite IH. }
        rewrite Fq, map_map in Hv. apply Hv. intros Z. apply map_eq_nil in Z. contradiction.
    Qed.
  End File.
  (** Such a file: a chain of trajectories. *)
  Theorem c171_chain fit powf raw columns radius l ls last pf h : Forall2 (reads columns) raw l -> Forall (fun s => is_nan (tm s) = false) l ->
    l = concat (ls ++ [last]) -> chained (ls ++ [last]) -> csv_multi_chain fit powf raw columns false false radius = Val (pf, h) ->
    holds_all pf h radius (fun _ => n1) (filter long_enough ls).
  Proof.
    intros R C El Ch E. destruct (c59_chain fit powf raw columns radius l ls last R C El Ch) as [Y Nn]. cbv zeta in Y, Nn.
    destruct (Classical_Prop.classic (Forall acceptable (filter long_enough ls))) as [A|A]; [|rewrite (Nn A) in E; discriminate].
    destruct (Y A) as [pf' [h' [E' H]]]. rewrite E' in E. injection E as <- <-. exact H.
  Qed.
End First.

(** Lines that climb from above zero are all seen as they are. *)
Lemma climbing_seen l : Forall (fun s => Bltb zero (tm s) = true) l -> StronglySorted (fun a b => Bltb (tm a) (tm b) = true) l -> seen_as l l.
Proof.
  intros P S. split; [reflexivity|]. intros k s Hs. split; [auto|]. intros N. exfalso. apply N. exists s. split; [exact Hs|]. split.
  - rewrite Forall_forall in P. apply P. exact (nth_error_In _ _ Hs).
  - intros k' s' Hk Hs'. unfold at_ in *. assert (Hk2 : (N.to_nat k' < N.to_nat k)%nat) by lia. revert Hk2 Hs Hs'. generalize (N.to_nat k) as n, (N.to_nat k') as n'. clear - S.
    induction S as [|a l S IH F]; intros n n' Hn Hs Hs'; [destruct n; discriminate|]. destruct n as [|n]; [lia|]. destruct n' as [|n'].
    + cbn in Hs, Hs'. injection Hs' as <-. rewrite Forall_forall in F. apply F. exact (nth_error_In _ _ Hs).
    + cbn in Hs, Hs'. apply (IH n n'); [lia | assumption..].
Qed.
(** ** Concrete cases: a chain of trajectories of eleven, ten and two lines; and of ten, eleven and two. *)
Local Notation f := f64_of_Z.
Definition lines_at (ts : list Z) : list (smp f64) := map (fun t => ex_s t (t + 20)) ts.
Definition ten : list Z := [1; 2; 3; 4; 5; 6; 7; 8; 9; 10]%Z.
Definition three_tracks (a b : list Z) : table f64 := map (fun t => PropertiesMulti.ex_line t (t + 20)) (a ++ b ++ ex_t2).
Lemma few_acceptable ts : (1 <= vlen ts <= 500)%N -> acceptable (lines_at ts).
Proof.
  intros L. assert (Fl : forall p : smp f64 -> bool, (vlen (filter p (lines_at ts)) <= 500)%N).
  { intros p. assert (Q : forall q : list (smp f64), (vlen (filter p q) <= vlen q)%N) by (unfold vlen; induction q as [|a q IH]; cbn [filter Datatypes.length]; [lia|]; destruct (p a); cbn [Datatypes.length]; lia).
    specialize (Q (lines_at ts)). assert (vlen (lines_at ts) = vlen ts) by (unfold lines_at, vlen; now rewrite map_length). lia. }
  split; [|split].
  - destruct ts as [|t ts]; [cbn in L; lia|]. exists (ex_s t (t + 20)). split; reflexivity.
  - apply Fl.
  - intros t _. etransitivity; [apply Fl | lia].
Qed.
Lemma three_ok a b : Forall (fun s => is_nan (tm s) = false) (lines_at a ++ lines_at b ++ lines_at ex_t2) -> chained [lines_at a; lines_at b; lines_at ex_t2] ->
  (10 <= vlen a <= 500)%N -> (10 <= vlen b <= 500)%N ->
  forall fit powf, exists pf h, csv_multi_chain fit powf (three_tracks a b) ex_seven false false (f 1) = Val (pf, h) /\ holds_all pf h (f 1) (fun _ => n1) [lines_at a; lines_at b].
Proof.
  intros C Ch La Lb fit powf.
  assert (R : Forall2 (reads ex_seven) (three_tracks a b) (concat ([lines_at a; lines_at b] ++ [lines_at ex_t2]))).
  { cbn [app concat]. rewrite app_nil_r. unfold lines_at. rewrite <- !map_app. apply ex_lines. }
  assert (C' : Forall (fun s => is_nan (tm s) = false) (concat ([lines_at a; lines_at b] ++ [lines_at ex_t2]))) by (cbn [app concat]; now rewrite app_nil_r).
  destruct (c59_chain fit powf _ _ (f 1) _ [lines_at a; lines_at b] (lines_at ex_t2) R C' eq_refl Ch) as [Y _]. cbv zeta in Y.
  assert (Ef : filter long_enough [lines_at a; lines_at b] = [lines_at a; lines_at b]).
  { cbn [filter]. assert (Va : long_enough (lines_at a) = true) by (unfold long_enough, lines_at, vlen in *; rewrite map_length; lia). assert (Vb : long_enough (lines_at b) = true) by (unfold long_enough, lines_at, vlen in *; rewrite map_length; lia). now rewrite Va, Vb. }
  rewrite Ef in Y. apply Y. repeat constructor; apply few_acceptable; lia.
Qed.
Lemma climbs_at t ts : (fix up (o : Z) (l : list Z) := match l with [] => true | x :: l' => negb (Bltb (f x) (f o)) && up x l' end) t ts = true -> trajectory (lines_at (t :: ts)).
Proof.
  intros H. exists (ex_s t (t + 20)), (lines_at ts). split; [reflexivity|]. revert t H. induction ts as [|u ts IH]; intros t H; [exact I|].
  apply andb_true_iff in H as [H1 H2]. cbn [lines_at map climbs]. split; [now apply negb_true_iff in H1|]. now apply IH.
Qed.
Example c171_case fit powf : exists pf h, csv_multi_chain fit powf (three_tracks ex_t1 ten) ex_seven false false (f 1) = Val (pf, h) /\
  holds_all pf h (f 1) (fun _ => n1) [lines_at ex_t1; lines_at ten] /\ (vlen (lines_at ten) < vlen (lines_at ex_t1))%N /\ seen_as (lines_at ex_t1) (lines_at ex_t1) /\
  Forall (fun s => is_finite (tm s) = true) (lines_at ex_t1) /\ (forall s, In s (lines_at ex_t1) -> slow (s_vel s)) /\
  (forall s x y z, In s (lines_at ex_t1) -> s_vel s = (x, y, z) -> ordinary x /\ ordinary y /\ ordinary z).
Proof.
  destruct (three_ok ex_t1 ten) with (fit := fit) (powf := powf) as [pf [h [E H]]].
  - repeat (constructor; [vm_compute; reflexivity|]). constructor.
  - cbn [chained]. split; [apply climbs_at; vm_compute; reflexivity|]. split; [intros s Hs; unfold at_ in Hs; cbn in Hs; injection Hs as <-; vm_compute; reflexivity|].
    split; [apply climbs_at; vm_compute; reflexivity|]. split; [intros s Hs; unfold at_ in Hs; cbn in Hs; injection Hs as <-; vm_compute; reflexivity | apply climbs_at; vm_compute; reflexivity].
  - vm_compute. split; discriminate.
  - vm_compute. split; discriminate.
  - exists pf, h. split; [exact E|]. split; [exact H|]. split; [reflexivity|]. split; [|split].
    + apply climbing_seen.
      * repeat (constructor; [vm_compute; reflexivity|]). constructor.
      * repeat (constructor; [|repeat (constructor; [vm_compute; reflexivity|]); constructor]). constructor.
    + repeat (constructor; [vm_compute; reflexivity|]). constructor.
    + assert (S1 := slow_ok 1 0 1 ltac:(repeat constructor; lia)).
      assert (V : forall s, In s (lines_at ex_t1) -> s_vel s = (f 1, f 0, f 1)) by (intros s Hs; apply in_map_iff in Hs; destruct Hs as [t [<- _]]; reflexivity).
      split; [intros s Hs; rewrite (V s Hs); apply S1|]. intros s x y z Hs Ev. rewrite (V s Hs) in Ev. injection Ev as <- <- <-. tauto.
Qed.
Example c171_not_opened_case fit powf : exists pf h, csv_multi_chain fit powf (three_tracks ten ex_t1) ex_seven false false (f 1) = Val (pf, h) /\
  holds_all pf h (f 1) (fun _ => n1) [lines_at ten; lines_at ex_t1] /\ (vlen (lines_at ten) < vlen (lines_at ex_t1))%N /\ (vlen (lines_at ten) < BUFFERSIZE)%N.
Proof.
  destruct (three_ok ten ex_t1) with (fit := fit) (powf := powf) as [pf [h [E H]]].
  - repeat (constructor; [vm_compute; reflexivity|]). constructor.
  - cbn [chained]. split; [apply climbs_at; vm_compute; reflexivity|]. split; [intros s Hs; unfold at_ in Hs; cbn in Hs; injection Hs as <-; vm_compute; reflexivity|].
    split; [apply climbs_at; vm_compute; reflexivity|]. split; [intros s Hs; unfold at_ in Hs; cbn in Hs; injection Hs as <-; vm_compute; reflexivity | apply climbs_at; vm_compute; reflexivity].
  - vm_compute. split; discriminate.
  - vm_compute. split; discriminate.
  - exists pf, h. split; [exact E|]. split; [exact H|]. split; reflexivity.
Qed.

(** Trajectories whose times climb strictly from above zero. *)
Fixpoint strictly (ts : list Z) : bool :=
  match ts with
  | [] => true
  | t :: q => Bltb zero (f t) && match q with [] => true | u :: _ => Bltb (f t) (f u) end && strictly q
  end.
Lemma strictly_sorted ts : strictly ts = true -> StronglySorted (fun a b => Bltb (tm a) (tm b) = true) (lines_at ts) /\ Forall (fun s => Bltb zero (tm s) = true) (lines_at ts).
Proof.
  intros S. assert (A : Sorted (fun a b => Bltb (tm a) (tm b) = true) (lines_at ts) /\ Forall (fun s => Bltb zero (tm s) = true) (lines_at ts)).
  { induction ts as [|t q IH]; [split; constructor|]. cbn [strictly] in S. apply andb_true_iff in S as [S S3]. apply andb_true_iff in S as [S1 S2]. destruct (IH S3) as [I1 I2]. unfold lines_at in *. cbn [map]. split; constructor; try assumption.
    destruct q as [|u q]; [constructor|]. cbn [map]. constructor. exact S2. }
  destruct A as [A B]. split; [|exact B]. apply Sorted_StronglySorted; [|exact A]. intros x y z H1 H2. exact (Bltb_trans _ _ _ H1 H2).
Qed.
Lemma strictly_trajectory t ts : strictly (t :: ts) = true -> trajectory (lines_at (t :: ts)).
Proof.
  intros H. apply climbs_at. revert t H. induction ts as [|u ts IH]; intros t H; [reflexivity|]. cbn [strictly] in H. apply andb_true_iff in H as [H S3]. apply andb_true_iff in H as [S1 S2].
  apply andb_true_iff. split; [|apply IH; exact S3]. destruct (Bltb (f u) (f t)) eqn:E; [|reflexivity]. assert (X := Bltb_trans _ _ _ S2 E). rewrite Bltb_irr in X. discriminate.
Qed.
Lemma strictly_acceptable t ts : strictly (t :: ts) = true -> acceptable (lines_at (t :: ts)).
Proof.
  intros H. destruct (strictly_sorted _ H) as [S P]. split; [exists (ex_s t (t + 20)); split; reflexivity|]. revert S P. generalize (lines_at (t :: ts)). clear. intros l S P. split.
  - replace (filter (fun s => Bleb (tm s) zero) l) with (@nil (smp f64)); [unfold vlen; cbn; lia|]. induction P as [|s l F P IH]; [reflexivity|]. inversion S; subst. cbn [filter].
    destruct (Bleb (tm s) zero) eqn:E; [|now apply IH]. rewrite Bltb_negb in F; [|reflexivity | exact (Bltb_nan_r _ _ F)]. rewrite E in F. discriminate.
  - intros u _. assert (Q : (vlen (filter (fun s => Bleb (tm s) u && Bleb u (tm s)) l) <= 1)%N); [|lia].
    induction S as [|s l S IH F]; [unfold vlen; cbn; lia|]. inversion P as [|? ? P1 P2]; subst. cbn [filter]. destruct (Bleb (tm s) u && Bleb u (tm s)) eqn:E; [|now apply IH].
    replace (filter (fun s0 => Bleb (tm s0) u && Bleb u (tm s0)) l) with (@nil (smp f64)); [unfold vlen; cbn; lia|]. apply andb_true_iff in E as [E1 E2]. clear - F E1 E2.
    induction F as [|x l F1 F IH]; [reflexivity|]. cbn [filter]. destruct (Bleb (tm x) u && Bleb u (tm x)) eqn:E; [|exact IH]. apply andb_true_iff in E as [E3 E4]. exfalso.
    assert (X := Bleb_trans _ _ _ E3 E2). rewrite Bltb_negb in F1; [|exact (Bltb_nan_l _ _ F1) | exact (Bltb_nan_r _ _ F1)]. rewrite X in F1. discriminate.
Qed.
Lemma strictly_case t1 a t2 b t3 c : strictly (t1 :: a) = true -> strictly (t2 :: b) = true -> strictly (t3 :: c) = true ->
  Bltb (f t2) (last (map tm (lines_at (t1 :: a))) zero) = true -> Bltb (f t3) (last (map tm (lines_at (t2 :: b))) zero) = true ->
  long_enough (lines_at (t1 :: a)) = true -> long_enough (lines_at (t2 :: b)) = true ->
  forall fit powf, exists pf h,
    csv_multi_chain fit powf (map (fun t => PropertiesMulti.ex_line t (t + 20)) ((t1 :: a) ++ (t2 :: b) ++ (t3 :: c))) ex_seven false false (f 1) = Val (pf, h) /\
    holds_all pf h (f 1) (fun _ => n1) [lines_at (t1 :: a); lines_at (t2 :: b)].
Proof.
  intros S1 S2 S3 L1 L2 La Lb fit powf. set (A := lines_at (t1 :: a)) in *. set (B := lines_at (t2 :: b)) in *. set (C := lines_at (t3 :: c)).
  assert (R : Forall2 (reads ex_seven) (map (fun t => PropertiesMulti.ex_line t (t + 20)) ((t1 :: a) ++ (t2 :: b) ++ (t3 :: c))) (concat ([A; B] ++ [C]))).
  { cbn [app concat]. rewrite app_nil_r. unfold A, B, C, lines_at. rewrite <- !map_app. apply ex_lines. }
  assert (N : Forall (fun s => is_nan (tm s) = false) (concat ([A; B] ++ [C]))).
  { cbn [app concat]. rewrite app_nil_r. assert (X : forall ts, strictly ts = true -> Forall (fun s => is_nan (tm s) = false) (lines_at ts)).
    { intros ts S. eapply Forall_impl; [|exact (proj2 (strictly_sorted ts S))]. intros s Hs. exact (Bltb_nan_r _ _ Hs). }
    apply Forall_app. split; [now apply X|]. apply Forall_app. split; now apply X. }
  assert (Ch : chained ([A; B] ++ [C])).
  { cbn [app chained]. split; [now apply strictly_trajectory|]. split; [intros s Hs; unfold at_, B, lines_at in Hs; cbn [N.to_nat nth_error map] in Hs; injection Hs as <-; exact L1|].
    split; [now apply strictly_trajectory|]. split; [intros s Hs; unfold at_, C, lines_at in Hs; cbn [N.to_nat nth_error map] in Hs; injection Hs as <-; exact L2|]. now apply strictly_trajectory. }
  destruct (c59_chain fit powf _ _ (f 1) _ [A; B] C R N eq_refl Ch) as [Y _]. cbv zeta in Y. cbn [filter] in Y. rewrite La, Lb in Y. apply Y. repeat constructor; now apply strictly_acceptable.
Qed.
(** A first trajectory of 20000 lines, a second one of 20001. *)
Fixpoint up (n : nat) (z : Z) : list Z := match n with O => [] | S n => z :: up n (z + 1)%Z end.
Lemma up_case n m : strictly (1 :: up n 2)%Z = true -> strictly (1 :: up m 2)%Z = true -> Bltb (f 1) (f (1 + Z.of_nat n)) = true -> Bltb (f 1) (f (1 + Z.of_nat m)) = true ->
  (9 <= n)%nat -> (9 <= m)%nat ->
  forall fit powf, exists pf h,
  csv_multi_chain fit powf (map (fun t => PropertiesMulti.ex_line t (t + 20)) ((1 :: up n 2)%Z ++ (1 :: up m 2)%Z ++ [1; 2]%Z)) ex_seven false false (f 1) = Val (pf, h) /\
  holds_all pf h (f 1) (fun _ => n1) [lines_at (1 :: up n 2)%Z; lines_at (1 :: up m 2)%Z] /\
  vlen (lines_at (1 :: up n 2)%Z) = (N.of_nat n + 1)%N /\ vlen (lines_at (1 :: up m 2)%Z) = (N.of_nat m + 1)%N.
Proof.
  assert (V : forall n z, List.length (up n z) = n) by (clear; induction n as [|n IH]; intros z; cbn [up Datatypes.length]; [reflexivity | now rewrite IH]).
  assert (W : forall n, vlen (lines_at (1 :: up n 2)%Z) = (N.of_nat n + 1)%N) by (intros k; unfold lines_at, vlen; rewrite map_length; cbn [Datatypes.length]; rewrite V; lia).
  assert (Lk : forall k, last (map tm (lines_at (1 :: up k 2)%Z)) zero = f (1 + Z.of_nat k)).
  { intros k. unfold lines_at. rewrite map_map. assert (X : forall k z, last (map (fun t => tm (ex_s t (t + 20))) (z :: up k (z + 1)%Z)) zero = f (z + Z.of_nat k)).
    { clear. induction k as [|k IH]; intros z; [cbn [up map last]; unfold ex_s, s_time; cbn [fst]; f_equal; lia|]. cbn [up]. specialize (IH (z + 1)%Z). cbn [map] in *. cbn [last] in *. rewrite IH. f_equal. lia. }
    exact (X k 1%Z). }
  intros S1 S2 B1 B2 Hn Hm fit powf.
  destruct (strictly_case 1 (up n 2) 1 (up m 2) 1 [2%Z] S1 S2) with (fit := fit) (powf := powf) as [pf [h [E H]]].
  - vm_compute. reflexivity.
  - rewrite Lk. exact B1.
  - rewrite Lk. exact B2.
  - unfold long_enough. rewrite W. lia.
  - unfold long_enough. rewrite W. lia.
  - exists pf, h. split; [exact E|]. split; [exact H|]. split; apply W.
Qed.
Example c171_shorter_case fit powf : exists a b pf h,
  csv_multi_chain fit powf (map (fun t => PropertiesMulti.ex_line t (t + 20)) (a ++ b ++ [1; 2]%Z)) ex_seven false false (f 1) = Val (pf, h) /\
  holds_all pf h (f 1) (fun _ => n1) [lines_at a; lines_at b] /\ vlen (lines_at a) = BUFFERSIZE /\ vlen (lines_at b) = (BUFFERSIZE + 1)%N.
Proof.
  exists (1 :: up (N.to_nat 19999) 2)%Z, (1 :: up (N.to_nat 20000) 2)%Z.
  destruct (up_case (N.to_nat 19999) (N.to_nat 20000)) with (fit := fit) (powf := powf) as [pf [h [E [H [W1 W2]]]]].
  - vm_compute. reflexivity.
  - vm_compute. reflexivity.
  - vm_compute. reflexivity.
  - vm_compute. reflexivity.
  - lia.
  - lia.
  - exists pf, h. split; [exact E|]. split; [exact H|]. split; [exact W1 | exact W2].
Qed.
