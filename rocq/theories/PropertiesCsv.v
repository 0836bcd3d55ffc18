(** * Properties C53, C54, C55 (statements; the machinery is in ConvCsv). *)
From Coq Require Import Reals List NArith ZArith Bool Lia Lra Sorted Permutation ZifyBool ZifyN ZifyNat.
From Flocq Require Import Core.Core IEEE754.BinarySingleNaN.
From Verif Require Import Base BaseFacts Num F64Facts RFacts NDArray DataModel DataSpec DataLoad DataProofs PropertiesData ConvModel ConvSort ConvInterp ConvCsv.
Local Open Scope list_scope.
Local Open Scope bool_scope.
Local Notation tm := (@s_time f64).
Local Notation zero := (f64_of_Z 0).

(** ** Specification *)

(** No row has a time that is not a number. *)
Definition times_ok (columns : list Z) (raw : table f64) : Prop :=
  forall i r s, at_ raw i r -> reads columns r s -> is_nan (tm s) = false.
(** The datasets of the one particle in the file: times, positions, velocities, one row per timestep. *)
Definition holds (pf : pfile f64) (T : list f64) (P V : list (v3 f64)) : Prop :=
  pf_nparticles pf = 1%N /\ vlen T = pf_timesteps pf /\ vlen P = pf_timesteps pf /\ vlen V = pf_timesteps pf /\
  exists g, pf_group pf 0 = Some g /\ pg_time g = Some T /\ pg_position g = Some P /\ pg_velocity g = Some V.

Lemma at_map {A B} (f : A -> B) l k y : at_ (map f l) k y <-> exists x, at_ l k x /\ y = f x.
Proof.
  unfold at_. rewrite nth_error_map. destruct (nth_error l (N.to_nat k)) as [x|]; cbn [option_map]; split.
  - intros H. exists x. split; [reflexivity | congruence].
  - intros [x' [H ->]]. congruence.
  - discriminate.
  - intros [x' [H _]]. discriminate.
Qed.
Lemma Forall2_ats {A B} (P : A -> B -> Prop) l l' i a b : Forall2 P l l' -> at_ l i a -> at_ l' i b -> P a b.
Proof. intros F Ha Hb. destruct (Forall2_at _ _ _ F _ _ Hb) as [a' [Ha' H]]. unfold at_ in Ha. congruence. Qed.
Lemma val_pair {A B} (a a' : A) (b b' : B) : Val (a, b) = Val (a', b') -> a = a' /\ b = b'.
Proof. now intros [= -> ->]. Qed.
Lemma no_nan_zero : is_nan zero = false. Proof. reflexivity. Qed.

Section Csv.
  Context (fit : list f64 -> list f64 -> N -> option (list f64)) (powf : f64 -> f64 -> f64) (bld : build).

  Lemma csv_open raw columns radius ss r : times_ok columns raw ->
    csv_converter fit powf bld raw columns false false radius ss = Val r ->
    exists l l', raw <> [] /\ Forall2 (reads columns) raw l /\ clean l /\ clean l' /\ in_time_order l l' /\ csv_out radius l' = Val r.
  Proof.
    intros N E. destruct (csv_reads fit powf bld _ _ _ _ _ E) as [Ne [l F]].
    assert (C : clean l).
    { apply Forall_forall. intros s Hs. apply In_nth_error in Hs as [k Hk]. destruct (Forall2_at _ _ _ F k s Hk) as [r0 [Hr Hs]].
      apply (N (N.of_nat k) r0 s); [unfold at_; now rewrite Nat2N.id | exact Hs]. }
    destruct (csv_plain fit powf bld raw columns radius ss l F C Ne) as [l' [O E']].
    exists l, l'. split; [exact Ne|]. split; [exact F|]. split; [exact C|]. split; [|split; [exact O | congruence]].
    apply order_perm in O. unfold clean in *. now rewrite O.
  Qed.
  Lemma csv_out_inv radius l pf h : csv_out radius l = Val (pf, h) ->
    let ks := keep n0 l in h = csv_header ks /\ pf_timesteps pf = vlen ks /\ pf_nparticles pf = 1%N /\
    pf_group pf 0 = Some (csv_group radius (vlen l) ks) /\ patient n0 0 l = true.
  Proof.
    unfold csv_out. intros E. apply bind_val in E as [v [_ E]]. destruct (is_nan v); [discriminate|].
    destruct (patient n0 0 l) eqn:P; [|discriminate]. cbn zeta in E |- *. apply val_pair in E as [E1 E2]. subst pf h. auto.
  Qed.

  (** ** C53.  The file holds one timestep for every positive time that occurs, in order; a timestep is
      the first row with that time. *)
  Theorem c53_written raw columns radius ss pf h : times_ok columns raw ->
    csv_converter fit powf bld raw columns false false radius ss = Val (pf, h) ->
    exists T P V, holds pf T P V /\
      StronglySorted (fun a b => Bltb a b = true) T /\
      (forall t, In t T <-> Bltb zero t = true /\ exists i r s, at_ raw i r /\ reads columns r s /\ tm s = t) /\
      (forall k t p v, at_ T k t -> at_ P k p -> at_ V k v ->
         exists i r, at_ raw i r /\ reads columns r (t, p, v) /\
         forall i' r' s', (i' < i)%N -> at_ raw i' r' -> reads columns r' s' -> tm s' <> t).
  Proof.
    intros N E. destruct (csv_open _ _ _ _ _ N E) as [l [l' [Ne [F [C [C' [O Eo]]]]]]].
    apply csv_out_inv in Eo. cbn zeta in Eo. destruct Eo as [_ [Nt [Np [G _]]]]. set (ks := keep n0 l') in *.
    exists (map tm ks), (map s_pos ks), (map s_vel ks).
    assert (Mp := order_perm _ _ O).
    assert (First : forall j s, nth_error ks j = Some s -> t_lt zero (tm s) /\ exists i r, at_ raw i r /\ reads columns r s /\
              forall i' r' s', (i' < i)%N -> at_ raw i' r' -> reads columns r' s' -> tm s' <> tm s).
    { intros j s Hj. destruct (keep_first l' C' zero j s no_nan_zero Hj) as [L [k [Hk Hf]]]. split; [exact L|].
      destruct (order_first l l' k s O Hk Hf) as [i [Hi Hu]]. destruct (Forall2_at _ _ _ F _ _ Hi) as [r [Hr Hs]].
      exists i, r. split; [exact Hr|]. split; [exact Hs|]. intros i' r' s' Li Hr' Hs' Q.
      destruct (Forall2_at_l _ _ _ F _ _ Hr') as [s2 [Hs2 Rs2]]. assert (s2 = s') by (eapply reads_unique; eassumption). subst s2.
      specialize (Hu i' s' Li Hs2). rewrite Q, Bleb_refl in Hu by exact (Bltb_nan_r _ _ L). discriminate. }
    split; [|split; [|split]].
    - split; [exact Np|]. rewrite Nt. unfold vlen. rewrite !map_length. repeat (split; [reflexivity|]). exists (csv_group radius (vlen l') ks). repeat split; exact G.
    - exact (proj1 (keep_inc l' C' zero no_nan_zero)).
    - intros t. rewrite in_map_iff. split.
      + intros [s [<- Hs]]. apply In_nth_error in Hs as [j Hj]. destruct (First j s Hj) as [L [i [r [Hr [Hs _]]]]]. split; [exact L|]. exists i, r, s. auto.
      + intros [L [i [r [s [Hr [Hs <-]]]]]]. destruct (Forall2_at_l _ _ _ F _ _ Hr) as [s2 [Hs2 Rs2]]. assert (s2 = s) by (eapply reads_unique; eassumption). subst s2.
        destruct (keep_all l' C' (order_sorted _ _ O) zero s no_nan_zero) as [s' [Hin [L1 L2]]]; [eapply Permutation_in; [symmetry; exact Mp | eapply nth_error_In, Hs2] | exact L|].
        exists s'. split; [symmetry; now apply Bpos_eq | exact Hin].
    - intros k t p v Ht Hp Hv. apply at_map in Ht as [s [Hs ->]]. apply at_map in Hp as [s1 [Hs1 ->]]. apply at_map in Hv as [s2 [Hs2 ->]].
      assert (s1 = s) by (unfold at_ in *; congruence). assert (s2 = s) by (unfold at_ in *; congruence). subst s1 s2.
      destruct (First _ s Hs) as [_ H]. destruct s as [[t p] v]. exact H.
  Qed.

  (** The conversion is refused exactly if more than 500 rows are at or before time zero or some time
      occurs more than 501 times. *)
  Theorem c53_refused raw columns radius ss l : Forall2 (reads columns) raw l -> raw <> [] ->
    Forall (fun s => is_nan (tm s) = false) l -> Forall (fun s => is_nan (snd (s_vel s)) = false) l ->
    ((exists r, csv_converter fit powf bld raw columns false false radius ss = Val r) <->
     (vlen (filter (fun s => Bleb (tm s) zero) l) <= 500)%N /\
     forall t, Bltb zero t = true -> (vlen (filter (fun s => Beqb (tm s) t) l) <= 501)%N).
  Proof.
    intros F Ne C Cv. destruct (csv_plain fit powf bld raw columns radius ss l F C Ne) as [l' [O E]]. rewrite E.
    assert (Mp := order_perm _ _ O). assert (C' : clean l') by (unfold clean; now rewrite Mp).
    assert (Cv' : Forall (fun s => is_nan (snd (s_vel s)) = false) l') by now rewrite Mp.
    assert (Q := patient_iff l' C' (order_sorted _ _ O) zero 0 no_nan_zero ltac:(lia)). rewrite N.add_0_l in Q.
    assert (Pf : forall p, vlen (filter p l') = vlen (filter p l)).
    { intros p. unfold vlen. f_equal. apply Permutation_length. clear -Mp. induction Mp; cbn; auto.
      - destruct (p x); [now constructor | assumption].
      - destruct (p x), (p y); try reflexivity. constructor.
      - now transitivity (filter p l'). }
    unfold n_upto, n_at in Q. rewrite Pf in Q.
    assert (Q2 : patient zero 0 l' = true <-> (vlen (filter (fun s => Bleb (tm s) zero) l) <= 500)%N /\
     forall t, Bltb zero t = true -> (vlen (filter (fun s => Beqb (tm s) t) l) <= 501)%N).
    { rewrite Q. split; intros [H1 H2]; (split; [exact H1|]); intros t Ht; specialize (H2 t Ht).
      - rewrite Pf in H2. erewrite filter_ext_in; [exact H2|]. intros s Hs. cbn beta. apply Bool.eq_iff_eq_true. rewrite andb_true_iff.
        split.
        + intros Eq. assert (Hs' : is_nan (tm s) = false) by (unfold clean in C; rewrite Forall_forall in C; now apply C).
          assert (Nt := Bltb_nan_r _ _ Ht). destruct (is_finite (tm s)) eqn:F1, (is_finite t) eqn:F2.
          * apply (Beqb_R _ _ F1 F2) in Eq. split; apply Bleb_R; try assumption; lra.
          * destruct t as [|[|]| |]; try discriminate; destruct (tm s) as [|[|]| |]; try discriminate; split; reflexivity.
          * destruct (tm s) as [|[|]| |]; try discriminate; destruct t as [|[|]| |]; try discriminate; split; reflexivity.
          * destruct t as [|[|]| |]; try discriminate; destruct (tm s) as [|[|]| |]; try discriminate; split; reflexivity.
        + intros [X1 X2]. rewrite <- (Bpos_eq t (tm s) Ht X2 X1). destruct (is_finite t) eqn:F1; [now apply Beqb_R|].
          destruct t as [|[|]| |]; try discriminate; reflexivity.
      - rewrite Pf. erewrite filter_ext_in; [exact H2|]. intros s Hs. cbn beta. apply Bool.eq_iff_eq_true. rewrite andb_true_iff.
        split.
        + intros [X1 X2]. rewrite <- (Bpos_eq t (tm s) Ht X2 X1). destruct (is_finite t) eqn:F1; [now apply Beqb_R|].
          destruct t as [|[|]| |]; try discriminate; reflexivity.
        + intros Eq. assert (Hs' : is_nan (tm s) = false) by (unfold clean in C; rewrite Forall_forall in C; now apply C).
          assert (Nt := Bltb_nan_r _ _ Ht). destruct (is_finite (tm s)) eqn:F1, (is_finite t) eqn:F2.
          * apply (Beqb_R _ _ F1 F2) in Eq. split; apply Bleb_R; try assumption; lra.
          * destruct t as [|[|]| |]; try discriminate; destruct (tm s) as [|[|]| |]; try discriminate; split; reflexivity.
          * destruct (tm s) as [|[|]| |]; try discriminate; destruct t as [|[|]| |]; try discriminate; split; reflexivity.
          * destruct t as [|[|]| |]; try discriminate; destruct (tm s) as [|[|]| |]; try discriminate; split; reflexivity. }
    assert (Ln : l' <> []). { intros ->. apply Permutation_nil in Mp. subst l. inversion F; subst; congruence. }
    rewrite <- Q2. unfold csv_out. destruct l' as [|s l'']; [congruence|]. inversion Cv' as [|? ? Hv _]; subst.
    assert (Ec : cell (map smp_row (s :: l'')) 0 6 = Val (snd (s_vel s))) by (destruct s as [[t [[x y] z]] [[a b] c]]; reflexivity).
    rewrite Ec. cbn [bind]. match goal with |- context [if is_nan ?c then _ else _] => replace (is_nan c) with false by (symmetry; exact Hv) end. change n0 with zero. destruct (patient zero 0 (s :: l'')); split; intros H; try reflexivity; try discriminate; [eauto | destruct H; discriminate].
  Qed.
  (** A table that does not give seven columns is refused, and so is resampling without velocities. *)
  Theorem c53_columns raw columns radius ss r :
    csv_converter fit powf bld raw columns false false radius ss = Val r -> vlen columns = 7%N.
  Proof.
    intros E. destruct (csv_reads fit powf bld _ _ _ _ _ E) as [Ne [l F]]. inversion F as [|r0 s ? ? H]; subst; [congruence|]. now apply reads_pick in H.
  Qed.

  (** With velocities computed from a polynomial fit: the table [d] the fit is applied to is the file's,
      sorted by time (and resampled if asked for); of the fitted rows [l] exactly those later than
      zero and than all rows before them are written, in order. *)
  Definition record (l : list (smp f64)) (s : smp f64) : Prop := exists k, at_ l k s /\ Bltb zero (tm s) = true /\
    forall k' s', (k' < k)%N -> at_ l k' s' -> Bltb (tm s') (tm s) = true.
  Theorem c53_velocity raw columns interp radius ss pf h :
    csv_converter fit powf bld raw columns true interp radius ss = Val (pf, h) ->
    exists p st d l T P V, pick 7 columns raw = Val p /\ (vlen columns < 5)%N /\
      (p = st /\ (exists t, column p 0 = Val t /\ is_sorted t = true) \/ sort_by_column p 0 = Val st) /\
      (if interp then exists t0 q m, cell st 0 0 = Val t0 /\
                      mmap (fun r => let! t := vget r 0 in vset r 0 (t - t0)%num) st = Val q /\
                      cell q (vlen q - 1) 0 = Val m /\ interpolate q m (vlen q) = Val d
       else d = st) /\
      velocity_polynom fit powf d ss 2 = Val (map smp_row l) /\ holds pf T P V /\
      (Forall (fun s => is_nan (tm s) = false) l ->
       StronglySorted (fun a b => Bltb a b = true) T /\
       forall s, (exists k, at_ T k (tm s) /\ at_ P k (s_pos s) /\ at_ V k (s_vel s)) <-> record l s).
  Proof.
    unfold csv_converter. intros E. destruct (vlen columns =? 0)%N; [discriminate|].
    apply bind_val in E as [p [Pk E]]. apply bind_val in E as [t [Et E]]. apply bind_val in E as [st [Es E]]. apply bind_val in E as [d [Ed E]].
    apply bind_val in E as [v [Ev E]]. destruct (N.leb_spec 5 (vlen columns)) as [|Lc]; [discriminate|].
    assert (El : exists l, v = map smp_row l).
    { clear -Ev. unfold velocity_polynom in Ev. destruct (N.even ss); [discriminate|]. destruct (vlen d <? ss - 1)%N; [discriminate|].
      apply mmap_inv in Ev. revert Ev. generalize (range ((ss - 1) / 2) (vlen d - (ss - 1) / 2)). intros ids Ev.
      induction Ev as [|i r ids v H _ [l IH]]; [exists []; reflexivity|].
      assert (X : exists s, r = smp_row s).
      { unfold velocity_row in H. cbv zeta in H. apply bind_val in H as [? [_ H]]. apply bind_val in H as [? [_ H]]. apply bind_val in H as [? [_ H]]. apply bind_val in H as [? [_ H]]. apply bind_val in H as [? [_ H]].
        apply bind_val in H as [vx [_ H]]. apply bind_val in H as [vy [_ H]]. apply bind_val in H as [vz [_ H]]. apply bind_val in H as [r4 [R4 H]].
        unfold row4 in R4. apply bind_val in R4 as [t' [_ R4]]. apply bind_val in R4 as [x' [_ R4]]. apply bind_val in R4 as [y' [_ R4]]. apply bind_val in R4 as [z' [_ R4]].
        exists (t', (x', y', z'), (vx, vy, vz)). cbn [smp_row]. assert (r4 = [t'; x'; y'; z']) by congruence. subst r4. cbn [app] in H. congruence. }
      destruct X as [s ->]. exists (s :: l). cbn [map]. now rewrite IH. }
    destruct El as [l ->].
    assert (Eo : csv_out radius l = Val (pf, h)) by (rewrite <- (write_eq bld l radius); exact E).
    apply csv_out_inv in Eo. cbn zeta in Eo. destruct Eo as [_ [Nt [Np [G _]]]]. set (ks := keep n0 l) in *.
    exists p, st, d, l, (map tm ks), (map s_pos ks), (map s_vel ks). split; [exact Pk|]. split; [exact Lc|].
    split. { destruct (is_sorted t) eqn:Q; [left; split; [congruence | eauto] | right; exact Es]. }
    split. { destruct interp; [|congruence]. apply bind_val in Ed as [t0 [E0 Ed]]. apply bind_val in Ed as [q [Eq Ed]]. apply bind_val in Ed as [m [Em Ed]]. exists t0, q, m. auto. }
    split; [exact Ev|]. split.
    { split; [exact Np|]. rewrite Nt. unfold vlen. rewrite !map_length. repeat (split; [reflexivity|]). exists (csv_group radius (vlen l) ks). repeat split; exact G. }
    intros C. split; [exact (proj1 (keep_inc l C zero no_nan_zero))|]. intros s. split.
    - intros [k [Ht [Hp Hv]]]. apply at_map in Ht as [s0 [Hs0 E0]]. apply at_map in Hp as [s1 [Hs1 E1]]. apply at_map in Hv as [s2 [Hs2 E2]].
      assert (s1 = s0) by (unfold at_ in *; congruence). assert (s2 = s0) by (unfold at_ in *; congruence). subst s1 s2.
      assert (s0 = s). { destruct s0 as [[? ?] ?], s as [[? ?] ?]. cbn in E0, E1, E2. congruence. } subst s0.
      destruct (keep_first l C zero _ s no_nan_zero Hs0) as [L [j [Hj Hf]]]. exists (N.of_nat j). split; [unfold at_; now rewrite Nat2N.id|]. split; [exact L|].
      intros k' s' Lk Hs'. apply (Hf (N.to_nat k') s'); [lia | exact Hs'].
    - intros [k [Hk [L Hf]]].
      assert (Hin : In s ks).
      { unfold ks. change n0 with zero. clear -Hk L Hf C. unfold at_ in *. remember (N.to_nat k) as n eqn:En.
        assert (Hf' : forall k' s', (k' < n)%nat -> nth_error l k' = Some s' -> Bltb (tm s') (tm s) = true).
        { intros k' s' Lk H. apply (Hf (N.of_nat k')); [lia | now rewrite Nat2N.id]. }
        clear Hf En k. assert (No := no_nan_zero). revert n Hk L Hf' No. generalize zero as old. induction C as [|s0 l N0 _ IH]; intros old n Hk L Hf No; [destruct n; discriminate|].
        cbn [keep]. change (nleb (tm s0) old) with (Bleb (tm s0) old). destruct n as [|n]; cbn [nth_error] in Hk.
        - injection Hk as ->. rewrite (Blt_nle _ _ L). now left.
        - assert (L0 : Bltb (tm s0) (tm s) = true) by (apply (Hf 0%nat); [lia | reflexivity]).
          destruct (Bleb (tm s0) old); [|right]; apply (IH _ n); try assumption; intros k' s' Lk H; apply (Hf (S k')); [lia | exact H | lia | exact H]. }
      apply In_nth_error in Hin as [j Hj]. exists (N.of_nat j). repeat split; apply at_map; exists s; (split; [unfold at_; now rewrite Nat2N.id | reflexivity]).
  Qed.

  (** Resampling without velocities is refused: the resampled table has no velocity columns. *)
  Theorem c53_resampled raw columns radius ss : csv_converter fit powf bld raw columns false true radius ss = Panic.
  Proof.
    destruct (csv_converter fit powf bld raw columns false true radius ss) as [r|] eqn:E; [exfalso | reflexivity].
    unfold csv_converter in E. destruct (vlen columns =? 0)%N; [discriminate|].
    apply bind_val in E as [p [Pk E]]. apply bind_val in E as [t [Et E]]. apply bind_val in E as [st [Es E]]. apply bind_val in E as [d [Ed E]].
    cbn [bind] in E. apply bind_val in E as [v [Ev _]].
    apply bind_val in Ed as [t0 [E0 Ed]]. apply bind_val in Ed as [q [Eq Ed]]. apply bind_val in Ed as [m [Em Ed]].
    apply cell_entry in Ev as [r0 [Hr Hv]].
    assert (L : forall r, In r d -> vlen r = 4%N).
    { clear -Ed. unfold interpolate in Ed. apply bind_val in Ed as [time [_ Ed]]. destruct (negb (is_sorted time)); [discriminate|].
      destruct (vlen q =? 0)%N; [discriminate|]. cbv zeta in Ed. apply bind_val in Ed as [first [Ef Ed]]. apply bind_val in Ed as [lst [El Ed]].
      apply bind_val in Ed as [a1 [A1 Ed]]. apply bind_val in Ed as [a2 [A2 Ed]]. apply bind_val in Ed as [[a3 rs] [A3 Ed]].
      assert (L4 : forall i r, row4 q i = Val r -> vlen r = 4%N).
      { intros i r H. unfold row4 in H. apply bind_val in H as [? [_ H]]. apply bind_val in H as [? [_ H]]. apply bind_val in H as [? [_ H]]. apply bind_val in H as [? [_ H]]. injection H as <-. reflexivity. }
      assert (Keep : forall (a a' : table f64) i r, (forall x, In x a -> vlen x = 4%N) -> vlen r = 4%N -> vset a i r = Val a' -> forall x, In x a' -> vlen x = 4%N).
      { intros a a' i r Ha Hr H x Hx. apply vset_val in H as [_ [_ H]]. apply In_nth_error in Hx as [k Hk].
        specialize (H (N.of_nat k)). assert (Hg : vget a' (N.of_nat k) = Val x) by (apply vget_val; now rewrite Nat2N.id). rewrite Hg in H.
        destruct (i =? N.of_nat k)%N; [congruence|]. symmetry in H. apply vget_val in H. apply Ha. eapply nth_error_In, H. }
      assert (H2 : forall x, In x a2 -> vlen x = 4%N).
      { eapply Keep; [|exact (L4 _ _ El)|exact A2]. eapply Keep; [|exact (L4 _ _ Ef)|exact A1]. intros x Hx. apply repeat_spec in Hx. subst x. unfold vlen. rewrite repeat_length. reflexivity. }
      cbn [fst] in Ed. assert (a3 = d) by congruence. subst a3.
      change (forall x, In x (fst (d, rs)) -> vlen x = 4%N).
      refine (mfold_inv (fun st : table f64 * N => forall x, In x (fst st) -> vlen x = 4%N) _ _ (a2, 1%N) (d, rs) H2 _ A3).
      intros [a rs'] step s' _ Ha H. apply bind_val in H as [rs2 [_ H]]. apply bind_val in H as [r [Hr H]]. apply bind_val in H as [a' [Ha' H]].
      assert (s' = (a', rs2)) by congruence. subst s'. cbn [fst] in *. eapply Keep; [exact Ha| |exact Ha'].
      unfold interp_row in Hr. cbv zeta in Hr. destruct (vlen q - 1 <=? rs2)%N; [injection Hr as <-; reflexivity|].
      apply bind_val in Hr as [u0 [_ Hr]]. apply bind_val in Hr as [u1 [_ Hr]]. destruct (u0 =? u1)%num; [injection Hr as <-; reflexivity|].
      do 6 (apply bind_val in Hr as [? [_ Hr]]). injection Hr as <-. reflexivity. }
    apply at_lt in Hv. rewrite (L r0) in Hv; [lia|]. eapply nth_error_In, Hr.
  Qed.
End Csv.

(** ** C54: the header *)
Local Notation fmax := (@nmax f64 num_f64).
Local Notation fmin := (@nmin f64 num_f64).

(** Specification: the lowest and the highest of some numbers. *)
Definition lowest (x : f64) (xs : list f64) : Prop := In x xs /\ forall y, In y xs -> Bleb x y = true.
Definition highest (x : f64) (xs : list f64) : Prop := In x xs /\ forall y, In y xs -> Bleb y x = true.
(** What the header says about the range of a quantity: the lowest value is right; the highest is
    right if a value after the first is at least as high as the first, and it is f64::MIN for
    a quantity that only falls. *)
Definition range_recorded (xs : list f64) (lo hi : f64) : Prop :=
  xs <> [] -> Forall (fun x => is_finite x = true) xs ->
  lowest lo xs /\
  (forall x0 rest, xs = x0 :: rest -> (exists x, In x rest /\ Bleb x0 x = true) -> highest hi xs) /\
  (StronglySorted (fun a b => Bltb b a = true) xs -> (forall x, In x xs -> Bltb x fmax = true) -> hi = fmin).
Definition mean_recorded (xs : list f64) (m : f64) : Prop := m = (fold_left nadd xs n0 / nofN (vlen xs))%num.

Lemma max_float_R : B2R (Bmax_float : f64) = (bpow radix2 1024 - bpow radix2 (1024 - 53))%R.
Proof.
  unfold Bmax_float. rewrite B2R_SF2B. cbn [SF2R]. 
  change (shift_pos (Z.to_pos 53) 1 - 1)%positive with 9007199254740991%positive. change (1024 - 53)%Z with 971%Z.
  unfold F2R. cbn [Fnum Fexp cond_Zopp]. replace 1024%Z with (53 + 971)%Z by reflexivity. rewrite bpow_plus.
  replace (IZR (Z.pos 9007199254740991)) with (bpow radix2 53 - 1)%R; [ring|]. rewrite <- (IZR_Zpower radix2 53) by lia.
  change (Z.pos 9007199254740991) with (2 ^ 53 - 1)%Z. rewrite minus_IZR. reflexivity.
Qed.
Lemma finite_le_max (x : f64) : is_finite x = true -> Bleb x fmax = true.
Proof.
  intros Fx. apply Bleb_R; [exact Fx | reflexivity|]. refine (Rle_trans _ _ _ _ (Req_le _ _ (eq_sym max_float_R))).
  assert (H := abs_B2R_le_emax_minus_prec 53 1024 f64_prec x). assert (Q := Rle_abs (B2R x)).
  exact (Rle_trans _ _ _ Q H).
Qed.
Lemma finite_ge_min (x : f64) : is_finite x = true -> Bleb fmin x = true.
Proof.
  intros Fx. apply Bleb_R; [reflexivity | exact Fx|].
  assert (H := finite_le_max (Bopp x)). assert (F2 : is_finite (Bopp x) = true) by (now rewrite is_finite_Bopp). specialize (H F2).
  apply Bleb_R in H; [|exact F2 | reflexivity]. rewrite B2R_Bopp in H. assert (M : (B2R (@nmin f64 num_f64) = - B2R (@nmax f64 num_f64))%R) by (unfold nmin; apply B2R_Bopp). refine (Rle_trans _ _ _ (Req_le _ _ M) _). change (- B2R (@nmax f64 num_f64) <= B2R x)%R. change (- B2R x <= B2R (@nmax f64 num_f64))%R in H. lra.
Qed.

Lemma lo_fold (xs : list f64) : forall r : f64 * f64, is_nan (fst r) = false -> Forall (fun x => is_nan x = false) xs ->
  let r' := fold_left span xs r in
  (fst r' = fst r \/ In (fst r') xs) /\ Bleb (fst r') (fst r) = true /\ forall y, In y xs -> Bleb (fst r') y = true.
Proof.
  induction xs as [|x xs IH]; intros [lo hi] Nl Nx; cbn [fold_left fst] in *.
  - split; [now left|]. split; [now apply Bleb_refl | intros y []].
  - inversion Nx as [|? ? N0 Nr]; subst.
    assert (Q : fst (span (lo, hi) x) = (if Bltb x lo then x else lo)).
    { unfold span. cbn [fst snd]. change (nltb x lo) with (Bltb x lo). destruct (Bltb x lo); [reflexivity|]. destruct (hi <? x)%num; reflexivity. }
    assert (Nq : is_nan (fst (span (lo, hi) x)) = false) by (rewrite Q; destruct (Bltb x lo); assumption).
    destruct (IH (span (lo, hi) x) Nq Nr) as [H1 [H2 H3]]. cbn [fst] in *. destruct (Bltb x lo) eqn:E; rewrite Q in *.
    + split; [right; destruct H1 as [->|H1]; [now left | now right]|]. split; [eapply Bleb_trans; [exact H2 | now apply Blt_le]|].
      intros y [<-|Hy]; [exact H2 | now apply H3].
    + split; [destruct H1 as [->|H1]; [now left | right; now right]|]. split; [exact H2|]. intros y [<-|Hy]; [|now apply H3].
      eapply Bleb_trans; [exact H2|]. destruct (Bleb lo x) eqn:E2; [reflexivity|]. rewrite (Bnle_lt _ _ Nl N0 E2) in E. discriminate.
Qed.
Lemma hi_fold (x0 : f64) (xs : list f64) : forall r : f64 * f64, is_nan (snd r) = false -> Bleb (fst r) x0 = true -> Forall (fun x => is_nan x = false) xs ->
  let r' := fold_left span xs r in
  (snd r' = snd r \/ In (snd r') xs) /\ Bleb (snd r) (snd r') = true /\
  forall y, In y xs -> Bleb y (snd r') = true \/ Bltb y x0 = true.
Proof.
  induction xs as [|x xs IH]; intros [lo hi] Nh L0 Nx; cbn [fold_left fst snd] in *.
  - split; [now left|]. split; [now apply Bleb_refl | intros y []].
  - inversion Nx as [|? ? N0 Nr]; subst. unfold span at 2 4 6 8. cbn [fst snd]. change (nltb x lo) with (Bltb x lo). change (nltb hi x) with (Bltb hi x).
    destruct (Bltb x lo) eqn:E.
    + assert (Lx : Bltb x x0 = true) by exact (Blt_le_trans _ _ _ E L0).
      destruct (IH (x, hi)) as [H1 [H2 H3]]; cbn [fst snd]; [assumption | now apply Blt_le | assumption|]. cbn [fst snd] in *.
      split; [destruct H1 as [->|H1]; [now left | right; now right]|]. split; [exact H2|]. intros y [<-|Hy]; [now right | now apply H3].
    + destruct (Bltb hi x) eqn:E2.
      * destruct (IH (lo, x)) as [H1 [H2 H3]]; cbn [fst snd]; [assumption..|]. cbn [fst snd] in *.
        split; [right; destruct H1 as [->|H1]; [now left | now right]|]. split; [eapply Bleb_trans; [apply Blt_le, E2 | exact H2]|].
        intros y [<-|Hy]; [now left | now apply H3].
      * destruct (IH (lo, hi)) as [H1 [H2 H3]]; cbn [fst snd]; [assumption..|]. cbn [fst snd] in *.
        split; [destruct H1 as [->|H1]; [now left | right; now right]|]. split; [exact H2|].
        intros y [<-|Hy]; [|now apply H3]. left. eapply Bleb_trans; [|exact H2].
        destruct (Bleb x hi) eqn:E3; [reflexivity|]. rewrite (Bnle_lt _ _ N0 Nh E3) in E2. discriminate.
Qed.
Lemma fall_fold (xs : list f64) : forall r : f64 * f64, StronglySorted (fun a b => Bltb b a = true) xs ->
  (forall x, In x xs -> Bltb x (fst r) = true) -> snd (fold_left span xs r) = snd r.
Proof.
  induction xs as [|x xs IH]; intros [lo hi] S H; [reflexivity|]. cbn [fold_left fst snd] in *.
  assert (E : span (lo, hi) x = (x, hi)). { unfold span. cbn [fst snd]. change (nltb x lo) with (Bltb x lo). now rewrite (H x (or_introl eq_refl)). }
  rewrite E. inversion S as [|? ? S' Fx]; subst. rewrite Forall_forall in Fx. now rewrite IH.
Qed.
Lemma span_recorded xs : range_recorded xs (fst (fold_left span xs span0)) (snd (fold_left span xs span0)).
Proof.
  intros Ne Fx. assert (Nx : Forall (fun x => is_nan x = false) xs) by (eapply Forall_impl; [|exact Fx]; intros x; now destruct x).
  assert (N0 : is_nan (fst (span0 (F := f64))) = false) by reflexivity.
  destruct (lo_fold xs span0 N0 Nx) as [L1 [L2 L3]]. clear N0. split; [|split].
  - split; [|exact L3]. destruct L1 as [L1|L1]; [|exact L1]. destruct xs as [|x xs]; [congruence|].
    rewrite L1 in *. assert (Fm := finite_le_max x (Forall_inv Fx)). assert (Lm := L3 x (or_introl eq_refl)).
    left. symmetry. apply Bpos_eq; [reflexivity | exact Lm | exact Fm].
  - intros x0 rest -> [x [Hx Lx]]. inversion Fx as [|? ? F0 Fr]; subst. inversion Nx as [|? ? N0 Nr]; subst.
    assert (Q : exists h, span span0 x0 = (x0, h) /\ (h = fmin \/ h = x0)).
    { unfold span, span0. cbn [fst snd]. change (nltb x0 fmax) with (Bltb x0 fmax). destruct (Bltb x0 fmax) eqn:E; [eauto|].
      assert (Em : x0 = fmax). { symmetry. apply Bpos_eq; [reflexivity| |now apply finite_le_max]. destruct (Bleb fmax x0) eqn:E2; [reflexivity|]. assert (C := Bnle_lt fmax x0 ltac:(reflexivity) N0 E2). exfalso. apply (eq_true_false_abs _ C). exact E. }
      subst x0. exists fmax. split; [reflexivity | now right]. }
    destruct Q as [h [Q Hh]]. cbn [fold_left]. rewrite Q.
    assert (Nh : is_nan h = false) by (destruct Hh as [->| ->]; [reflexivity | exact N0]).
    destruct (hi_fold x0 rest (x0, h)) as [H1 [H2 H3]]; cbn [fst snd]; [exact Nh | now apply Bleb_refl | exact Nr|]. cbn [fst snd] in H1, H2, H3.
    set (m := snd (fold_left span rest (x0, h))) in *.
    assert (Xm : Bleb x m = true). { destruct (H3 x Hx) as [H|H]; [exact H|]. apply Blt_nle in H. congruence. }
    assert (X0 : Bleb x0 m = true) by (eapply Bleb_trans; eassumption). split.
    + destruct H1 as [H1|H1]; [|now right]. destruct Hh as [Hh|Hh]; [|left; congruence]. right. assert (E : x = m); [|congruence].
      assert (Fxx : is_finite x = true) by (rewrite Forall_forall in Fr; now apply Fr).
      assert (Em : m = fmin) by congruence. clear -Fxx Xm Em. subst m. rewrite Em in Xm. rewrite Em.
      assert (G := finite_ge_min x Fxx). assert (ER : B2R x = B2R fmin) by (apply Rle_antisym; apply Bleb_R; try assumption; reflexivity).
      apply B2R_inj; [|reflexivity|exact ER]. destruct x; try discriminate; try reflexivity.
    + intros y [<-|Hy]; [exact X0|]. destruct (H3 y Hy) as [H|H]; [exact H|]. apply Blt_le in H. eapply Bleb_trans; eassumption.
  - intros S H. now rewrite fall_fold.
Qed.

Definition ax (i : N) (p : v3 f64) : f64 :=
  let '(x, y, z) := p in if (i =? 0)%N then x else if (i =? 1)%N then y else z.

Lemma acc_fold (ks : list (smp f64)) : forall a, let r := fold_left acc_line ks a in
  a_n r = (a_n a + vlen ks)%N /\
  (forall i, (i < 3)%N -> let g (p : v3 (f64 * f64)) := let '(u, v, w) := p in if (i =? 0)%N then u else if (i =? 1)%N then v else w in
     g (a_dims r) = fold_left span (map (fun s => ax i (s_pos s)) ks) (g (a_dims a)) /\
     g (a_vel r) = fold_left span (map (fun s => ax i (s_vel s)) ks) (g (a_vel a)) /\
     ax i (a_vsum r) = fold_left nadd (map (fun s => ax i (s_vel s)) ks) (ax i (a_vsum a))) /\
  a_mag r = fold_left span (map (fun s => magnitude (s_vel s)) ks) (a_mag a) /\
  a_msum r = fold_left nadd (map (fun s => magnitude (s_vel s)) ks) (a_msum a).
Proof.
  induction ks as [|s ks IH]; intros a; cbn zeta.
  - cbn [fold_left map]. split; [unfold vlen; cbn; lia|]. auto.
  - cbn [fold_left map]. destruct (IH (acc_line a s)) as [H1 [H2 [H3 H4]]]. cbn zeta in *. rewrite H1, H3, H4. clear H1 H3 H4 IH.
    destruct a as [[[r0 r1] r2] [[v0 v1] v2] mg ms [[d0 d1] d2] n]. destruct s as [[t [[x y] z]] [[a b] c]]. cbn [s_pos s_vel fst snd].
    unfold acc_line, acc_count, acc_pos, acc_vel. cbn [a_n a_mag a_msum a_dims a_vel a_vsum s_pos s_vel fst snd span3].
    split; [rewrite vlen_cons; lia|]. split; [|auto]. intros i Hi. specialize (H2 i Hi). destruct H2 as [H2 [H3 H4]].
    unfold acc_line, acc_count, acc_pos, acc_vel in H2, H3, H4. cbn [a_n a_mag a_msum a_dims a_vel a_vsum s_pos s_vel fst snd span3] in H2, H3, H4.
    rewrite H2, H3, H4. clear. unfold ax. destruct (i =? 0)%N; [auto|]. destruct (i =? 1)%N; auto.
Qed.
Lemma later_fold (T : list f64) : forall a, StronglySorted t_lt T -> Forall (t_lt a) T -> fold_left later T a = last T a.
Proof.
  induction T as [|t T IH]; intros a S F; [reflexivity|]. cbn [fold_left]. inversion S as [|? ? S' Ft]; subst. inversion F as [|? ? Fa _]; subst.
  unfold later at 2. change (nltb a t) with (Bltb a t). rewrite Fa. rewrite IH by assumption. destruct T as [|u T]; [reflexivity|].
  change (last (u :: T) t = last (u :: T) a). clear. revert u. induction T as [|v T IH]; intros u; [reflexivity|]. apply (IH v).
Qed.
Lemma minus_self (x : f64) : is_finite x = true -> Beqb (Bminus mode_NE x x) zero = true.
Proof.
  intros Fx. destruct (minus_cases x x Fx Fx (Rle_refl _)) as [[_ [F0 E]]|[C _]].
  - destruct (of_Z_correct 0) as [Z0 Fz]; [lia|]. apply Beqb_R; [exact F0 | exact Fz|]. rewrite E, Z0, Rminus_diag_eq by reflexivity. apply rnd_0.
  - exfalso. rewrite Rminus_diag_eq, rnd_0 in C by reflexivity. assert (0 < M64)%R by (apply Rlt_trans with 1%R; [lra | apply M64_gt1]). lra.
Qed.

Section Header.
  Context (fit : list f64 -> list f64 -> N -> option (list f64)) (powf : f64 -> f64 -> f64) (bld : build).
  Context (raw : table f64) (columns : list Z) (vel interp : bool) (radius : f64) (ss : N) (pf : pfile f64) (h : header f64).
  Hypothesis E : csv_converter fit powf bld raw columns vel interp radius ss = Val (pf, h).

  Lemma csv_any : exists l, csv_out radius l = Val (pf, h).
  Proof.
    destruct vel.
    - unfold csv_converter in E. destruct (vlen columns =? 0)%N; [discriminate|].
      apply bind_val in E as [p [Pk E1]]. apply bind_val in E1 as [t [Et E1]]. apply bind_val in E1 as [st [Es E1]]. apply bind_val in E1 as [d [Ed E1]].
      apply bind_val in E1 as [v [Ev E1]]. destruct (N.leb_spec 5 (vlen columns)) as [|Lc]; [discriminate|].
      assert (El : exists l, v = map smp_row l).
      { clear -Ev. unfold velocity_polynom in Ev. destruct (N.even ss); [discriminate|]. destruct (vlen d <? ss - 1)%N; [discriminate|].
        apply mmap_inv in Ev. revert Ev. generalize (range ((ss - 1) / 2) (vlen d - (ss - 1) / 2)). intros ids Ev.
        induction Ev as [|i r ids v H _ [l IH]]; [exists []; reflexivity|].
        assert (X : exists s, r = smp_row s).
        { unfold velocity_row in H. cbv zeta in H. apply bind_val in H as [? [_ H]]. apply bind_val in H as [? [_ H]]. apply bind_val in H as [? [_ H]]. apply bind_val in H as [? [_ H]]. apply bind_val in H as [? [_ H]].
          apply bind_val in H as [vx [_ H]]. apply bind_val in H as [vy [_ H]]. apply bind_val in H as [vz [_ H]]. apply bind_val in H as [r4 [R4 H]].
          unfold row4 in R4. apply bind_val in R4 as [t' [_ R4]]. apply bind_val in R4 as [x' [_ R4]]. apply bind_val in R4 as [y' [_ R4]]. apply bind_val in R4 as [z' [_ R4]].
          exists (t', (x', y', z'), (vx, vy, vz)). cbn [smp_row]. assert (r4 = [t'; x'; y'; z']) by congruence. subst r4. cbn [app] in H. congruence. }
        destruct X as [s ->]. exists (s :: l). cbn [map]. now rewrite IH. }
      destruct El as [l ->]. exists l. rewrite <- (write_eq bld l radius). exact E1.
    - destruct interp; [rewrite c53_resampled in E; discriminate|].
      destruct (csv_reads fit powf bld _ _ _ _ _ E) as [Ne [l F]]. unfold csv_converter in E. destruct (vlen columns =? 0)%N; [discriminate|].
      apply bind_val in E as [p [Pk E1]]. apply bind_val in E1 as [t [Et E1]]. apply bind_val in E1 as [st [Es E1]]. cbn [bind] in E1.
      assert (Ep : p = map smp_row l).
      { apply pick_val in Pk. apply mmap_inv in Pk. clear -Pk F. revert l F. induction Pk as [|r q raw p H _ IH]; intros l F; inversion F as [|? s ? l' Hs F']; subst; [reflexivity|].
        cbn [map]. rewrite <- (IH _ F'). f_equal. apply reads_pick in Hs as [_ Hs]. congruence. }
      assert (El : exists l', st = map smp_row l').
      { destruct (is_sorted t); [exists l; congruence|]. clear -Es Ep. unfold sort_by_column in Es. apply bind_val in Es as [idx [_ Es]]. apply mmap_inv in Es.
        induction Es as [|i r idx st H _ [l' IH]]; [exists []; reflexivity|]. apply vget_val in H. subst p. rewrite nth_error_map in H.
        destruct (nth_error l (N.to_nat i)) as [s|]; [|discriminate]. exists (s :: l'). cbn [map option_map] in *. congruence. }
      destruct El as [l' ->]. exists l'. rewrite <- (write_eq bld l' radius). exact E1.
  Qed.

  Context (T : list f64) (P V : list (v3 f64)).
  Hypothesis H : holds pf T P V.

  Lemma csv_holds : exists l, csv_out radius l = Val (pf, h) /\ let ks := keep n0 l in
    T = map tm ks /\ P = map s_pos ks /\ V = map s_vel ks /\ h = csv_header ks.
  Proof.
    destruct csv_any as [l El]. exists l. split; [exact El|]. apply csv_out_inv in El. cbn zeta in *. destruct El as [Eh [Nt [Np [G _]]]].
    destruct H as [_ [_ [_ [_ [g [Hg [Ht [Hp Hv]]]]]]]]. assert (g = csv_group radius (vlen l) (keep n0 l)) by congruence. subst g.
    cbn [csv_group pg_time pg_position pg_velocity] in Ht, Hp, Hv. repeat split; congruence.
  Qed.

  (** Number of particles and timesteps, times, and the range of every coordinate, of every
      velocity component and of the speed, and their means. *)
  Theorem c54_header : h_nparticles h = 1%N /\ h_timesteps h = vlen T /\ h_times h = T /\
    (forall i, (i < 3)%N -> range_recorded (map (ax i) P) (ax i (fst (h_dims h))) (ax i (snd (h_dims h)))) /\
    (forall i lo mean hi, (i < 3)%N ->
       (let '(r0, r1, r2) := h_vel h in if (i =? 0)%N then r0 else if (i =? 1)%N then r1 else r2) = (lo, mean, hi) ->
       range_recorded (map (ax i) V) lo hi /\ mean_recorded (map (ax i) V) mean) /\
    (forall lo mean hi, h_mag h = (lo, mean, hi) ->
       range_recorded (map magnitude V) lo hi /\ mean_recorded (map magnitude V) mean).
  Proof.
    destruct csv_holds as [l [_ [-> [-> [-> ->]]]]]. set (ks := keep n0 l). clear.
    assert (L : forall A (f : smp f64 -> A), vlen (map f ks) = vlen ks) by (intros; unfold vlen; now rewrite map_length).
    destruct (acc_fold ks acc0) as [Hn [Hi [Hm Hs]]]. cbn zeta in *. rewrite N.add_0_l in Hn.
    unfold csv_header, mk_header. destruct (fold_left acc_line ks acc0) as [[[r0 r1] r2] [[v0 v1] v2] mg ms [[d0 d1] d2] n]. cbn [a_n a_mag a_msum a_dims a_vel a_vsum] in *.
    cbn [h_nparticles h_timesteps h_times h_dims h_vel h_mag fst snd]. split; [reflexivity|]. split; [now rewrite L|]. split; [reflexivity|]. split; [|split].
    - intros i Li. destruct (Hi i Li) as [H1 _]. rewrite map_map.
      assert (R := span_recorded (map (fun s => ax i (s_pos s)) ks)). change (ax i (fst d0, fst d1, fst d2)) with (if (i =? 0)%N then fst d0 else if (i =? 1)%N then fst d1 else fst d2).
      change (ax i (snd d0, snd d1, snd d2)) with (if (i =? 0)%N then snd d0 else if (i =? 1)%N then snd d1 else snd d2). cbn [acc0 a_dims] in H1.
      destruct (i =? 0)%N; [|destruct (i =? 1)%N]; rewrite <- H1 in R; exact R.
    - intros i lo mean hi Li Eq. destruct (Hi i Li) as [_ [H2 H3]]. rewrite map_map.
      assert (R := span_recorded (map (fun s => ax i (s_vel s)) ks)). unfold mean_recorded. rewrite L, <- Hn. cbn [acc0 a_vel a_vsum] in H2, H3. change (ax i (v0, v1, v2)) with (if (i =? 0)%N then v0 else if (i =? 1)%N then v1 else v2) in H3. change (ax i (n0, n0, n0)) with (if (i =? 0)%N then n0 else if (i =? 1)%N then n0 else n0 : f64) in H3.
      destruct (i =? 0)%N; [|destruct (i =? 1)%N]; rewrite <- H2 in R; rewrite <- H3; assert (E1 := f_equal (fun p => fst (fst p)) Eq); assert (E2 := f_equal (fun p => snd (fst p)) Eq); assert (E3 := f_equal snd Eq); cbn [fst snd] in E1, E2, E3; subst lo mean hi; split; (exact R || reflexivity).
    - intros lo mean hi Eq. unfold mean_recorded. rewrite map_map, L, <- Hn. cbn [acc0 a_mag a_msum] in Hm, Hs.
      assert (R := span_recorded (map (fun s => magnitude (s_vel s)) ks)). rewrite <- Hm in R. rewrite <- Hs.
      assert (E1 := f_equal (fun p => fst (fst p)) Eq); assert (E2 := f_equal (fun p => snd (fst p)) Eq); assert (E3 := f_equal snd Eq); cbn [fst snd] in E1, E2, E3. subst lo mean hi. split; [exact R | reflexivity].
  Qed.

  (** The recorded time span ends at the last written time. *)
  Theorem c54_time : StronglySorted (fun a b => Bltb a b = true) T -> Forall (fun t => Bltb zero t = true) T ->
    h_time h = (zero, last T zero).
  Proof.
    intros S F. destruct csv_holds as [l [_ [Et [_ [_ ->]]]]]. rewrite Et in S, F |- *. unfold csv_header, mk_header.
    destruct (fold_left acc_line (keep n0 l) acc0) as [[[r0 r1] r2] [[v0 v1] v2] mg ms [[d0 d1] d2] n]. cbn [a_dims a_vel a_vsum h_time].
    f_equal. now apply later_fold.
  Qed.

  (** The sample rate is always recorded as zero. *)
  Theorem c54_rate_refuted : T <> [] -> Forall (fun t => is_finite t = true) T -> Beqb (h_rate h) zero = true.
  Proof.
    intros Ne F. destruct csv_holds as [l [_ [Et [_ [_ ->]]]]]. rewrite Et in Ne, F. unfold csv_header, mk_header.
    destruct (fold_left acc_line (keep n0 l) acc0) as [[[r0 r1] r2] [[v0 v1] v2] mg ms [[d0 d1] d2] n]. cbn [a_dims a_vel a_vsum h_rate].
    destruct (keep n0 l) as [|s ks]; [cbn in Ne; congruence|]. apply minus_self.
    rewrite Forall_forall in F. apply F. destruct (exists_last Ne) as [m [x Em]]. rewrite Em. rewrite last_last. apply in_or_app. right. now left.
  Qed.

  (** ** C55.  The file is well-formed for the readers ... *)
  Theorem c55_file : T <> [] -> (vlen T <= 2 ^ 53)%N -> pf_ok pf.
  Proof.
    intros Ne Lt. destruct csv_holds as [l [El [Et [Ep [Ev _]]]]]. apply csv_out_inv in El. cbn zeta in El. destruct El as [_ [Nt [Np [G _]]]].
    destruct H as [_ [L1 [L2 [L3 _]]]]. assert (Lk := keep_len l n0). assert (Np' : (1 <= vlen T)%N) by (destruct T; [congruence | rewrite vlen_cons; lia]).
    unfold pf_ok. rewrite Np. split; [lia|]. split; [rewrite <- L1; lia|]. split.
    { eexists. split; [exact G|]. exists (map tm (keep n0 l)). split; [reflexivity|]. rewrite <- L1, Et. reflexivity. }
    intros i Hi. assert (i = 0)%N by lia. subst i. eexists. split; [exact G|]. rewrite Nt. cbn [csv_group pg_position pg_velocity pg_radius pg_density pg_ptype long_if_there].
    assert (M : forall A (f : smp f64 -> A), vlen (map f (keep n0 l)) = vlen (keep n0 l)) by (intros; unfold vlen; now rewrite map_length).
    repeat split.
    - eexists. split; [reflexivity|]. now rewrite M.
    - eexists. split; [reflexivity|]. now rewrite M.
    - unfold vlen at 2. rewrite repeat_length. lia.
    - unfold vlen at 2. rewrite repeat_length. lia.
  Qed.
  (** ... and reading it back, in any order, gives the written samples. *)
  Theorem c55_read_back (ks : list N) : T <> [] -> (vlen T <= 2 ^ 53)%N -> Forall (fun k => k < vlen T)%N ks ->
    exists d outs, p_hist bld pf (map ORead ks) = Val (d, outs) /\ map fst outs = ks /\
      Forall (fun o => let '(k, x) := o in exists t p v, at_ T k t /\ at_ P k p /\ at_ V k v /\
        x = mkTs t [p] [v] [radius] [nofN 0] [n1] [n0] [n1]) outs.
  Proof.
    intros Ne Lt Hk. assert (OK := c55_file Ne Lt). destruct csv_holds as [l [El [Et [Ep [Ev _]]]]]. apply csv_out_inv in El. cbn zeta in El. destruct El as [_ [Nt [Np [G _]]]].
    destruct H as [_ [L1 [L2 [L3 _]]]]. rewrite L1 in Hk. destruct (c28_reads bld pf OK ks Hk) as [d [outs [Eh [Em Sh]]]].
    exists d, outs. split; [exact Eh|]. split; [exact Em|]. eapply Forall_impl; [|exact Sh]. intros [k x] Hx. cbn [fst snd] in Hx.
    destruct Hx as [[g [G' [lt [Elt Ht]]]] [S1 [S2 [S3 [S4 [S5 [S6 [S7 Hi]]]]]]]]. rewrite Np in *.
    destruct (Hi 0%N) as [g2 [p [v [r [de [ty [G2 [A1 [R1 [A2 [R2 [A3 [R3 [A4 [R4 [A5 [R5 [A6 A7]]]]]]]]]]]]]]]]]]; [lia|].
    assert (g = csv_group radius (vlen l) (keep n0 l)) by congruence. assert (g2 = csv_group radius (vlen l) (keep n0 l)) by congruence. subst g g2.
    cbn [csv_group pg_time pg_position pg_velocity pg_radius pg_density pg_ptype row row_or_zero] in *.
    assert (One : forall A (u : list A) a, vlen u = 1%N -> at_ u 0 a -> u = [a]).
    { clear. intros A [|b [|c u]] a Lu Ha; try (rewrite ?vlen_cons in Lu; unfold vlen in Lu; cbn [length] in Lu; lia). unfold at_ in Ha. cbn in Ha. congruence. }
    destruct R1 as [lp [Elp R1]], R2 as [lv [Elv R2]].
    assert (lt = T) by congruence. assert (lp = P) by congruence. assert (lv = V) by congruence. subst lt lp lv.
    assert (r = radius) by (apply nth_error_In in R3; now apply repeat_spec in R3). assert (ty = n1) by (apply nth_error_In in R5; now apply repeat_spec in R5). subst r ty de.
    exists (ts_time x), p, v. split; [exact Ht|]. split; [exact R1|]. split; [exact R2|].
    destruct x as [xt xp xv xr xi xc xd xty]. cbn [ts_time ts_pos ts_vel ts_radius ts_id ts_clouds ts_density ts_type] in *.
    rewrite (One _ _ _ S1 A1), (One _ _ _ S2 A2), (One _ _ _ S3 A3), (One _ _ _ S4 A6), (One _ _ _ S5 A7), (One _ _ _ S6 A4), (One _ _ _ S7 A5). reflexivity.
  Qed.
End Header.

(** The radius (and id and type) datasets keep one row per row of the CSV file, dropped or not. *)
Theorem c55_length_refuted fit powf bld raw columns radius ss pf h i r s : times_ok columns raw ->
  csv_converter fit powf bld raw columns false false radius ss = Val (pf, h) ->
  at_ raw i r -> reads columns r s -> Bleb (tm s) zero = true ->
  exists g rad, pf_group pf 0 = Some g /\ pg_radius g = Some rad /\ vlen rad = vlen raw /\ (pf_timesteps pf < vlen rad)%N.
Proof.
  intros N E Hr Hs Le. destruct (csv_open fit powf bld _ _ _ _ _ N E) as [l [l' [Ne [F [C [C' [O Eo]]]]]]].
  apply csv_out_inv in Eo. cbn zeta in Eo. destruct Eo as [_ [Nt [Np [G _]]]]. assert (Mp := order_perm _ _ O).
  exists (csv_group radius (vlen l') (keep n0 l')), (repeat radius (N.to_nat (vlen l'))). split; [exact G|]. split; [reflexivity|].
  assert (L1 : vlen (repeat radius (N.to_nat (vlen l'))) = vlen l') by (unfold vlen; rewrite repeat_length; lia).
  assert (L2 : vlen l' = vlen raw) by (apply Permutation_length in Mp; apply Forall2_length in F; unfold vlen; lia).
  split; [congruence|]. rewrite Nt, L1.
  destruct (Forall2_at_l _ _ _ F _ _ Hr) as [s2 [Hs2 Rs2]]. assert (s2 = s) by (eapply reads_unique; eassumption). subst s2.
  assert (Hin : In s l') by (eapply Permutation_in; [symmetry; exact Mp | eapply nth_error_In, Hs2]).
  clear -Hin Le C'. change n0 with zero. assert (No := no_nan_zero). revert Le No. generalize zero as old. induction C' as [|s0 l N0 _ IH]; intros old Le No; [destruct Hin|].
  cbn [keep]. change (nleb (tm s0) old) with (Bleb (tm s0) old). rewrite vlen_cons. destruct (Bleb (tm s0) old) eqn:E.
  - assert (Q := keep_len l old). lia.
  - destruct Hin as [->|Hin]; [rewrite Le in E; discriminate|]. rewrite vlen_cons. assert (L := Bnle_lt _ _ N0 No E).
    specialize (IH Hin (tm s0) (Bleb_trans _ _ _ Le (Blt_le _ _ L)) N0). lia.
Qed.

(** ** A concrete file: columns in another order, an unsorted and repeated time, a row at time zero. *)
Local Notation f := f64_of_Z.
Definition ex_raw : table f64 :=
  map (map f) [[10; 20; 30; 2; 1; 1; 1]; [11; 21; 31; 0; 1; 1; 1]; [12; 22; 32; 1; 1; 1; 4]; [13; 23; 33; 1; 1; 1; 1]; [9; 24; 34; 3; 1; 1; 1]]%Z.
Definition ex_cols : list Z := [3; 0; 1; 2; 4; 5; 6]%Z.
Definition no_fit (_ _ : list f64) (_ : N) : option (list f64) := None.
Definition times_are (pf : pfile f64) (zs : list Z) : bool :=
  match pf_group pf 0 with
  | Some g => match pg_time g with
              | Some T => (vlen T =? vlen zs)%N && forallb (fun p => Beqb (fst p) (f (snd p))) (combine T zs)
              | None => false
              end
  | None => false
  end.
Example ex_csv_times : match csv_converter no_fit (fun x _ => x) Debug ex_raw ex_cols false false (f 1) 9 with
  | Val (pf, h) => times_are pf [1; 2; 3]%Z && Beqb (ax 2 (fst (h_dims h))) (f 30) && Beqb (ax 0 (fst (h_dims h))) (f 9) && Beqb (ax 0 (snd (h_dims h))) fmin && Beqb (ax 1 (snd (h_dims h))) (f 24)
  | Panic => false
  end = true.
Proof. vm_compute. reflexivity. Qed.
(** (The first coordinate only falls, 12, 10, 9: its highest value is recorded as f64::MIN.) *)
Lemma ex_reads : exists l, Forall2 (reads ex_cols) ex_raw l /\ clean l /\ Forall (fun s => is_nan (snd (s_vel s)) = false) l.
Proof.
  exists (map (fun z => let '(t, x, y, w, c) := z in (f t, (f x, f y, f w), (f 1, f 1, f c)))
    [(2, 10, 20, 30, 1); (0, 11, 21, 31, 1); (1, 12, 22, 32, 4); (1, 13, 23, 33, 1); (3, 9, 24, 34, 1)]%Z).
  split; [|split; repeat constructor]. unfold ex_raw, ex_cols. cbn [map].
  repeat (constructor; [unfold reads; cbn [smp_row]; repeat (constructor; [now apply col_entry_pick|]); constructor|]). constructor.
Qed.
Example c53_used : times_ok ex_cols ex_raw /\ exists pf h T P V,
  csv_converter no_fit (fun x _ => x) Debug ex_raw ex_cols false false (f 1) 9 = Val (pf, h) /\ holds pf T P V /\
  T <> [] /\ (vlen T <= 2 ^ 53)%N /\ pf_ok pf.
Proof.
  destruct ex_reads as [l [F [C Cv]]].
  assert (Tk : times_ok ex_cols ex_raw).
  { intros i r s Hr Hs. destruct (Forall2_at_l _ _ _ F _ _ Hr) as [s2 [Hs2 Rs2]]. assert (s2 = s) by (eapply reads_unique; eassumption). subst s2.
    unfold clean in C. rewrite Forall_forall in C. apply C. eapply nth_error_In, Hs2. }
  split; [exact Tk|].
  assert (L : vlen l = 5%N) by (apply Forall2_length in F; unfold vlen; rewrite <- F; reflexivity).
  assert (Ln : forall p, (vlen (filter p l) <= 5)%N). { intros p. rewrite <- L. clear. unfold vlen. induction l as [|a l IH]; cbn [filter]; [lia|]. destruct (p a); cbn [length]; lia. }
  destruct (proj2 (c53_refused no_fit (fun x _ => x) Debug ex_raw ex_cols (f 1) 9 l F ltac:(discriminate) C Cv)) as [[pf h] E].
  { split; [|intros t _]; match goal with |- (vlen (filter ?p l) <= _)%N => specialize (Ln p) end; lia. }
  destruct (c53_written no_fit (fun x _ => x) Debug _ _ _ _ _ _ Tk E) as [T [P [V [H [S [Hin _]]]]]].
  assert (Hr : exists r, at_ ex_raw 0 r) by (apply lt_at; reflexivity). destruct Hr as [r Hr].
  assert (Ne : T <> []).
  { intros ->. apply (proj2 (Hin (f 3))). split; [reflexivity|].
    exists 4%N, (nth 4 ex_raw []), (f 3, (f 9, f 24, f 34), (f 1, f 1, f 1)). split; [reflexivity|]. split; [|reflexivity].
    unfold reads, ex_cols. cbn [smp_row]. repeat (constructor; [now apply col_entry_pick|]). constructor. }
  assert (Lt : (vlen T <= 2 ^ 53)%N).
  { destruct (csv_holds no_fit (fun x _ => x) Debug _ _ _ _ _ _ _ _ E T P V H) as [l2 [Eo [-> _]]].
    destruct (csv_open no_fit (fun x _ => x) Debug _ _ _ _ _ Tk E) as [l0 [l' [_ [F0 [_ [_ [O Eo']]]]]]].
    assert (G : (vlen (map tm (keep n0 l2)) = pf_timesteps pf)%N) by exact (proj1 (proj2 H)). rewrite G. apply csv_out_inv in Eo'. cbn zeta in Eo'. destruct Eo' as [_ [-> _]].
    assert (Q := keep_len l' n0). apply order_perm, Permutation_length in O. apply Forall2_length in F0. unfold vlen in *. change (length ex_raw) with 5%nat in F0. lia. }
  exists pf, h, T, P, V. split; [exact E|]. split; [exact H|]. split; [exact Ne|]. split; [exact Lt|]. exact (c55_file no_fit (fun x _ => x) Debug _ _ _ _ _ _ _ _ E T P V H Ne Lt).
Qed.
