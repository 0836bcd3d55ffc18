(** * Several particles in one CSV file: what is written per particle, and the header. *)
From Coq Require Import Reals List NArith ZArith Bool Lia Lra Sorted Permutation ZifyBool ZifyN ZifyNat.
From Flocq Require Import Core.Core IEEE754.BinarySingleNaN.
From Verif Require Import Base BaseFacts Num F64Facts RFacts NDArray DataModel DataSpec DataLoad ConvModel ConvSort ConvCsv PropertiesCsv.
Local Open Scope list_scope.
Local Open Scope bool_scope.

Section Loop.
  Context {F : Type} {NF : Num F}.
  (** The lines kept, each at its place. *)
  Fixpoint mark (old : F) (l : list (smp F)) : list (option (smp F)) :=
    match l with
    | [] => []
    | s :: l' => if (s_time s <=? old)%num then None :: mark old l' else Some s :: mark (s_time s) l'
    end.
  Definition o_time (o : option (smp F)) : F := match o with Some s => s_time s | None => n0 end.
  Definition o_pos (o : option (smp F)) : v3 F := match o with Some s => s_pos s | None => (n0, n0, n0) end.
  Definition o_vel (o : option (smp F)) : v3 F := match o with Some s => s_vel s | None => (n0, n0, n0) end.
  Lemma mark_len l : forall old, length (mark old l) = length l.
  Proof. induction l as [|s l IH]; intros old; cbn [mark length]; [reflexivity|]. destruct (s_time s <=? old)%num; cbn [length]; now rewrite IH. Qed.

  Lemma vset_mid {A} (a : list A) b b' tl : vset (a ++ b :: tl) (vlen a) b' = Val (a ++ b' :: tl).
  Proof.
    unfold vset, vlen. rewrite Nat2N.id. assert (X : list_set (a ++ b :: tl) (length a) b' = Some (a ++ b' :: tl)); [|now rewrite X].
    induction a as [|y a IHa]; [reflexivity|]. cbn [app length list_set]. now rewrite IHa.
  Qed.
  Lemma line_loop l : forall w dt dp dv i, vlen dt = i -> vlen dp = i -> vlen dv = i ->
    w_time w = dt ++ zeros (vlen l) -> w_pos w = dp ++ zeros3 (vlen l) -> w_vel w = dv ++ zeros3 (vlen l) ->
    let r := mfold (csv_line (fun i _ => Val i)) (combine (range i (i + vlen l)) (map smp_row l)) w in
    if patient (w_old w) (w_fail w) l then exists w', r = Val w' /\
      w_time w' = dt ++ map o_time (mark (w_old w) l) /\ w_pos w' = dp ++ map o_pos (mark (w_old w) l) /\
      w_vel w' = dv ++ map o_vel (mark (w_old w) l) /\
      w_tmax w' = fold_left later (map s_time (keep (w_old w) l)) (w_tmax w) /\
      w_acc w' = fold_left acc_line (keep (w_old w) l) (w_acc w)
    else r = Panic.
  Proof.
    induction l as [|s l IH]; intros w dt dp dv i L1 L2 L3 E1 E2 E3; cbn zeta.
    - cbn [patient mark keep map fold_left]. exists w. unfold vlen at 1. rewrite range_empty by (cbn [length]; lia). cbn [map combine mfold]. auto 10.
    - rewrite range_cons by (rewrite vlen_cons; lia). rewrite !vlen_cons, !N.add_assoc. cbn [map combine mfold patient mark keep].
      destruct s as [[t [[x y] z]] [[a b] c]]. cbn [smp_row]. change (s_time (t, (x, y, z), (a, b, c))) with t.
      rewrite vlen_cons in E1, E2, E3. unfold zeros, zeros3 in E1, E2, E3. replace (N.to_nat (1 + vlen l)) with (S (N.to_nat (vlen l))) in E1, E2, E3 by lia. cbn [repeat] in E1, E2, E3.
      assert (A1 : forall A (u : list A) v, vlen u = i -> vlen (u ++ [v]) = (i + 1)%N) by (intros; unfold vlen in *; rewrite app_length; cbn [length]; lia).
      set (w1 := mkW (w_time w) (w_pos w) (w_vel w) (w_fail w + 1) (w_total w + 1) (w_old w) (w_rate w) (w_tmax w) (w_acc w)).
      set (w2 := mkW (dt ++ t :: repeat n0 (N.to_nat (vlen l))) (dp ++ (x, y, z) :: repeat (n0, n0, n0) (N.to_nat (vlen l))) (dv ++ (a, b, c) :: repeat (n0, n0, n0) (N.to_nat (vlen l)))
                   0 (w_total w) t (t - t)%num (if (w_tmax w <? t)%num then t else w_tmax w) (acc_line (w_acc w) (t, (x, y, z), (a, b, c)))).
      assert (St : csv_line (fun i _ : N => Val i) w (i, [t; x; y; z; a; b; c]) =
        if (t <=? w_old w)%num then if (500 <? w_fail w + 1)%N then Panic else Val w1 else Val w2).
      { unfold csv_line. change (vget [t; x; y; z; a; b; c] 0) with (Val t). cbn [bind]. destruct (t <=? w_old w)%num; [reflexivity|]. cbn [bind]. rewrite E1, E2, E3.
        replace (vset (dt ++ n0 :: repeat n0 (N.to_nat (vlen l))) i t) with (Val (dt ++ t :: repeat n0 (N.to_nat (vlen l)))) by (symmetry; rewrite <- L1; apply vset_mid). cbn [bind].
        change (vget [t; x; y; z; a; b; c] 1) with (Val x). change (vget [t; x; y; z; a; b; c] 2) with (Val y).
        change (vget [t; x; y; z; a; b; c] 3) with (Val z). change (vget [t; x; y; z; a; b; c] 4) with (Val a).
        change (vget [t; x; y; z; a; b; c] 5) with (Val b). change (vget [t; x; y; z; a; b; c] 6) with (Val c). cbn [bind].
        replace (vset (dp ++ (n0, n0, n0) :: repeat (n0, n0, n0) (N.to_nat (vlen l))) i (x, y, z)) with (Val (dp ++ (x, y, z) :: repeat (n0, n0, n0) (N.to_nat (vlen l)))) by (rewrite <- L2; symmetry; apply vset_mid).
        cbn [bind].
        replace (vset (dv ++ (n0, n0, n0) :: repeat (n0, n0, n0) (N.to_nat (vlen l))) i (a, b, c)) with (Val (dv ++ (a, b, c) :: repeat (n0, n0, n0) (N.to_nat (vlen l)))) by (rewrite <- L3; symmetry; apply vset_mid).
        reflexivity. }
      rewrite St. clear St. destruct (t <=? w_old w)%num eqn:E.
      + destruct (500 <? w_fail w + 1)%N; [reflexivity|]. cbn [bind].
        specialize (IH w1 (dt ++ [n0]) (dp ++ [(n0, n0, n0)]) (dv ++ [(n0, n0, n0)]) (i + 1)%N (A1 _ _ _ L1) (A1 _ _ _ L2) (A1 _ _ _ L3)).
        cbn [w1 w_time w_pos w_vel w_old w_fail w_tmax w_acc] in IH. rewrite <- !app_assoc in IH. cbn [app] in IH. specialize (IH E1 E2 E3). cbn zeta in IH.
        destruct (patient (w_old w) (w_fail w + 1) l); [|exact IH]. destruct IH as [w' [Er [H1 [H2 [H3 H4]]]]]. exists w'. split; [exact Er|].
        cbn [map o_time o_pos o_vel]. auto.
      + cbn [bind].
        specialize (IH w2 (dt ++ [t]) (dp ++ [(x, y, z)]) (dv ++ [(a, b, c)]) (i + 1)%N (A1 _ _ _ L1) (A1 _ _ _ L2) (A1 _ _ _ L3)).
        cbn [w2 w_time w_pos w_vel w_old w_fail w_tmax w_acc] in IH. rewrite <- !app_assoc in IH. cbn [app] in IH. specialize (IH eq_refl eq_refl eq_refl). cbn zeta in IH.
        destruct (patient t 0 l); [|exact IH]. destruct IH as [w' [Er [H1 [H2 [H3 H4]]]]]. exists w'. split; [exact Er|].
        cbn [map o_time o_pos o_vel s_time s_pos s_vel fst snd fold_left]. auto.
  Qed.

  (** One particle. *)
  Definition multi_group (radius idv : F) (ty : option F) (l : list (smp F)) : pgroup F :=
    let o := mark n0 l in let n := length l in
    mkPg (Some (map o_pos o)) (Some (map o_vel o)) (Some (repeat radius n)) (match ty with Some x => Some (repeat x n) | None => None end) None
         (Some (map o_time o)) (Some (repeat idv n)).
  (** A table that can be written. *)
  Definition writable (l : list (smp F)) : Prop :=
    (exists s l', l = s :: l' /\ nisnan (snd (s_vel s)) = false) /\ patient n0 0 l = true.
  Lemma write_one radius ids ty m p l : writable l -> exists rate, write_particle radius ids ty m (p, map smp_row l) =
    Val (mkM (fold_left acc_line (keep n0 l) (m_acc m)) (m_groups m ++ [multi_group radius (ids p) ty l]) (N.max (m_steps m) (vlen l)) rate
             (fold_left later (map s_time (keep n0 l)) (m_tmax m)) (map o_time (mark n0 l))).
  Proof.
    intros [[s [l' [El Nv]]] Pt]. unfold write_particle.
    assert (Ec : cell (map smp_row l) 0 6 = Val (snd (s_vel s))) by (subst l; destruct s as [[t [[x y] z]] [[a b] c]]; reflexivity).
    rewrite Ec. cbn [bind]. rewrite Nv. assert (L : vlen (map smp_row l) = vlen l) by (unfold vlen; now rewrite map_length). unfold enumerate. rewrite L.
    assert (Q := line_loop l (mkW (zeros (vlen l)) (zeros3 (vlen l)) (zeros3 (vlen l)) 0 0 n0 (m_rate m) (m_tmax m) (m_acc m)) [] [] [] 0 eq_refl eq_refl eq_refl eq_refl eq_refl eq_refl).
    cbn zeta in Q. cbn [w_old w_fail w_tmax w_acc] in Q. rewrite Pt, N.add_0_l in Q. destruct Q as [w' [Ew [H1 [H2 [H3 [H4 H5]]]]]]. rewrite Ew. cbn [bind].
    exists (w_rate w'). rewrite H1, H2, H3, H4, H5. unfold multi_group, vlen. rewrite Nat2N.id. reflexivity.
  Qed.
  (** All particles. *)
  Lemma write_all radius ids ty ls : Forall writable ls -> forall i m, exists rate times,
    mfold (write_particle radius ids ty) (combine (range i (i + vlen ls)) (map (map smp_row) ls)) m =
    Val (mkM (fold_left acc_line (concat (map (keep n0) ls)) (m_acc m))
             (m_groups m ++ map (fun pl => multi_group radius (ids (fst pl)) ty (snd pl)) (combine (range i (i + vlen ls)) ls))
             (fold_left N.max (map vlen ls) (m_steps m)) rate
             (fold_left later (map s_time (concat (map (keep n0) ls))) (m_tmax m)) times) /\
    times = match ls with [] => m_times m | _ => map o_time (mark n0 (last ls [])) end.
  Proof.
    induction 1 as [|l ls W _ IH]; intros i m.
    - exists (m_rate m), (m_times m). rewrite range_empty by (unfold vlen; cbn [length]; lia). cbn. rewrite app_nil_r. destruct m. auto.
    - rewrite range_cons by (rewrite vlen_cons; lia). cbn [map combine mfold]. destruct (write_one radius ids ty m i l W) as [rate E1]. rewrite E1. cbn [bind].
      replace (i + vlen (l :: ls))%N with (i + 1 + vlen ls)%N by (rewrite vlen_cons; lia).
      match goal with |- context [mfold _ _ ?m0] => destruct (IH (i + 1)%N m0) as [r2 [times [E2 Et]]] end. cbn [m_acc m_groups m_steps m_tmax m_times] in *.
      exists r2, times. rewrite E2. split.
      + cbn [concat fold_left map fst snd]. rewrite map_app, !fold_left_app, <- !app_assoc. reflexivity.
      + rewrite Et. destruct ls; reflexivity.
  Qed.
  Definition multi_file (radius : F) (ids : N -> F) (ty : option F) (ls : list (list (smp F))) : pfile F :=
    let gs := map (fun pl => multi_group radius (ids (fst pl)) ty (snd pl)) (enumerate ls) in
    mkPf (fun i => nth_error gs (N.to_nat i)) 1 (fold_left N.max (map vlen ls) 0%N).
  Lemma write_particles_eq radius ids ty ls : Forall writable ls -> exists rate times,
    write_particles radius ids ty (map (map smp_row) ls) =
    Val (multi_file radius ids ty ls,
         mk_header (fold_left acc_line (concat (map (keep n0) ls)) acc0) 1 (fold_left N.max (map vlen ls) 0%N) rate
           (n0, fold_left later (map s_time (concat (map (keep n0) ls))) n0) times) /\
    times = match ls with [] => zeros 100 | _ => map o_time (mark n0 (last ls [])) end.
  Proof.
    intros W. unfold write_particles, enumerate. change (table F) with (list (list F)). replace (vlen (map (map smp_row) ls)) with (vlen ls) by (unfold vlen; now rewrite map_length).
    destruct (write_all radius ids ty ls W 0 (mkM acc0 [] 0 n0 n0 (zeros 100))) as [rate [times [E Et]]]. change (table F) with (list (list F)) in E. rewrite N.add_0_l in E.
    cbn [m_acc m_groups m_steps m_tmax m_times app] in E, Et. exists rate, times. split; [|exact Et].
    rewrite E. reflexivity.
  Qed.
  Lemma write_bad radius ids ty ls : Exists (fun l => ~ writable l) ls -> write_particles radius ids ty (map (map smp_row) ls) = Panic.
  Proof.
    intros H. unfold write_particles, enumerate. change (table F) with (list (list F)). replace (vlen (map (map smp_row) ls)) with (vlen ls) by (unfold vlen; now rewrite map_length).
    assert (G : forall i m, mfold (write_particle radius ids ty) (combine (range i (i + vlen ls)) (map (map smp_row) ls)) m = Panic);
      [|specialize (G 0%N (mkM acc0 [] 0 n0 n0 (zeros 100))); rewrite N.add_0_l in G; change (table F) with (list (list F)) in G; now rewrite G].
    induction H as [l ls Nw|l ls H IH]; intros i m; (rewrite range_cons by (rewrite vlen_cons; lia)); cbn [map combine mfold].
    - assert (E : write_particle radius ids ty m (i, map smp_row l) = Panic); [|now rewrite E].
      unfold write_particle. destruct l as [|s l']; [reflexivity|]. set (l := s :: l') in *.
      assert (Ec : cell (map smp_row l) 0 6 = Val (snd (s_vel s))) by (destruct s as [[t [[x y] z]] [[a b] c]]; reflexivity).
      rewrite Ec. cbn [bind]. destruct (nisnan (snd (s_vel s))) eqn:Nv; [reflexivity|].
      assert (L : vlen (map smp_row l) = vlen l) by (unfold vlen; now rewrite map_length). unfold enumerate. rewrite L.
      assert (Q := line_loop l (mkW (zeros (vlen l)) (zeros3 (vlen l)) (zeros3 (vlen l)) 0 0 n0 (m_rate m) (m_tmax m) (m_acc m)) [] [] [] 0 eq_refl eq_refl eq_refl eq_refl eq_refl eq_refl).
      cbn zeta in Q. cbn [w_old w_fail w_tmax w_acc] in Q. destruct (patient n0 0 l) eqn:Pt; [exfalso; apply Nw; split; [exists s, l'; auto | exact Pt]|].
      rewrite N.add_0_l in Q. now rewrite Q.
    - destruct (write_particle radius ids ty m (i, map smp_row l)) as [m'|]; [|reflexivity]. cbn [bind].
      replace (i + vlen (l :: ls))%N with (i + 1 + vlen ls)%N by (rewrite vlen_cons; lia). apply IH.
  Qed.
End Loop.

(** ** What a written particle shows (doubles) *)
Local Notation tm := (@s_time f64).
Local Notation zero := (f64_of_Z 0).

(** Specification.  Line [k] is news: later than zero and than every line before it. *)
Definition news (l : list (smp f64)) (k : N) : Prop := exists s, at_ l k s /\ Bltb zero (tm s) = true /\
  forall k' s', (k' < k)%N -> at_ l k' s' -> Bltb (tm s') (tm s) = true.
(** The datasets of a group hold the lines [l], each at its place; a line that is not news leaves zeros. *)
Definition records (g : pgroup f64) (l : list (smp f64)) : Prop := exists T P V,
  pg_time g = Some T /\ pg_position g = Some P /\ pg_velocity g = Some V /\
  vlen T = vlen l /\ vlen P = vlen l /\ vlen V = vlen l /\
  forall k s, at_ l k s ->
    (news l k -> at_ T k (tm s) /\ at_ P k (s_pos s) /\ at_ V k (s_vel s)) /\
    (~ news l k -> at_ T k zero /\ at_ P k (zero, zero, zero) /\ at_ V k (zero, zero, zero)).

Lemma mark_spec l : clean l -> forall (old : f64), is_nan old = false -> forall k s, nth_error l k = Some s ->
  let new := t_lt old (tm s) /\ forall k' s', (k' < k)%nat -> nth_error l k' = Some s' -> t_lt (tm s') (tm s) in
  nth_error (mark old l) k = Some (Some s) /\ new \/ nth_error (mark old l) k = Some None /\ ~ new.
Proof.
  induction 1 as [|s0 l Ns _ IH]; intros old No k s Hk; [destruct k; discriminate|]. cbn zeta. cbn [mark].
  change (nleb (tm s0) old) with (Bleb (tm s0) old). destruct k as [|k]; cbn [nth_error] in Hk.
  - injection Hk as <-. destruct (Bleb (tm s0) old) eqn:E; [right | left]; cbn [nth_error]; (split; [reflexivity|]).
    + intros [L _]. rewrite (Blt_nle _ _ L) in E. discriminate.
    + split; [exact (Bnle_lt _ _ Ns No E)|]. intros k' s' L. lia.
  - destruct (Bleb (tm s0) old) eqn:E; cbn [nth_error].
    + destruct (IH old No k s Hk) as [[M [L H]]|[M H]]; [left | right]; (split; [exact M|]).
      * split; [exact L|]. intros [|k'] s' Lt Hs; [cbn in Hs; injection Hs as <-; exact (Ble_lt_trans _ _ _ E L) | apply (H k' s'); [lia | exact Hs]].
      * intros [L N]. apply H. split; [exact L|]. intros k' s' Lt Hs. apply (N (S k') s'); [lia | exact Hs].
    + assert (L0 := Bnle_lt _ _ Ns No E). destruct (IH (tm s0) Ns k s Hk) as [[M [L H]]|[M H]]; [left | right]; (split; [exact M|]).
      * split; [exact (Bltb_trans _ _ _ L0 L)|]. intros [|k'] s' Lt Hs; [cbn in Hs; injection Hs as <-; exact L | apply (H k' s'); [lia | exact Hs]].
      * intros [L N]. apply H. split; [apply (N 0%nat s0); [lia | reflexivity]|]. intros k' s' Lt Hs. apply (N (S k') s'); [lia | exact Hs].
Qed.
Lemma news_nat l k s : at_ l k s -> (news l k <-> t_lt zero (tm s) /\ forall k' s', (k' < N.to_nat k)%nat -> nth_error l k' = Some s' -> t_lt (tm s') (tm s)).
Proof.
  intros H. split.
  - intros [s' [Hs [L N]]]. assert (s' = s) by (unfold at_ in *; congruence). subst s'. split; [exact L|]. intros k' s' Lt Hk. apply (N (N.of_nat k') s'); [lia | unfold at_; now rewrite Nat2N.id].
  - intros [L N]. exists s. split; [exact H|]. split; [exact L|]. intros k' s' Lt Hk. apply (N (N.to_nat k') s'); [lia | exact Hk].
Qed.
Lemma group_records radius idv ty l : clean l -> records (multi_group radius idv ty l) l.
Proof.
  intros C. exists (map o_time (mark n0 l)), (map o_pos (mark n0 l)), (map o_vel (mark n0 l)). do 3 (split; [reflexivity|]).
  unfold vlen. rewrite !map_length, mark_len. do 3 (split; [reflexivity|]). intros k s Hs. assert (Q := mark_spec l C zero no_nan_zero (N.to_nat k) s Hs). cbn zeta in Q.
  assert (Nw := news_nat l k s Hs). unfold at_. rewrite !nth_error_map. change (mark n0 l) with (mark zero l). split; intros H.
  - destruct Q as [[-> _]|[_ Q]]; [cbn; auto | tauto].
  - destruct Q as [[_ Q]|[-> _]]; [tauto | cbn; auto].
Qed.
(** The rows a converter would count for its statistics: the news, in order. *)
Lemma keep_news l : clean l -> forall s, In s (keep n0 l) <-> exists k, at_ l k s /\ news l k.
Proof.
  intros C s. split.
  - intros Hs. apply In_nth_error in Hs as [j Hj]. destruct (keep_first l C zero j s no_nan_zero Hj) as [L [k [Hk Hf]]].
    exists (N.of_nat k). assert (A : at_ l (N.of_nat k) s) by (unfold at_; now rewrite Nat2N.id). split; [exact A|]. apply (news_nat _ _ _ A). split; [exact L|].
    intros k' s' Lt. apply Hf. lia.
  - intros [k [Hk N]]. apply (news_nat _ _ _ Hk) in N. destruct N as [L N]. unfold at_ in Hk. revert Hk N. generalize (N.to_nat k) as n. clear k.
    change n0 with zero. revert L. assert (Nz := no_nan_zero). revert Nz. generalize zero as old. induction C as [|s0 l Ns C IH]; intros old No L n Hk N; [destruct n; discriminate|].
    cbn [keep]. change (nleb (tm s0) old) with (Bleb (tm s0) old). destruct n as [|n]; cbn [nth_error] in Hk.
    + injection Hk as ->. rewrite (Blt_nle _ _ L). now left.
    + assert (N' : forall k' s', (k' < n)%nat -> nth_error l k' = Some s' -> t_lt (tm s') (tm s)) by (intros k' s' Lt Hs; apply (N (S k') s'); [lia | exact Hs]).
      destruct (Bleb (tm s0) old); [now apply (IH old No L n)|]. right. apply (IH (tm s0) Ns) with (n := n); [apply (N 0%nat s0); [lia | reflexivity] | exact Hk | exact N'].
Qed.

(** *** The header *)
(** Specification: everything the header says about the positions [P], velocities [V], times [T] and the number of lines. *)
Definition describes (h : header f64) (T : list f64) (P V : list (v3 f64)) : Prop :=
  (forall i, (i < 3)%N -> range_recorded (map (ax i) P) (ax i (fst (h_dims h))) (ax i (snd (h_dims h)))) /\
  (forall i lo mean hi, (i < 3)%N ->
     (let '(r0, r1, r2) := h_vel h in if (i =? 0)%N then r0 else if (i =? 1)%N then r1 else r2) = (lo, mean, hi) ->
     range_recorded (map (ax i) V) lo hi /\ mean_recorded (map (ax i) V) mean) /\
  (forall lo mean hi, h_mag h = (lo, mean, hi) ->
     range_recorded (map magnitude V) lo hi /\ mean_recorded (map magnitude V) mean) /\
  (Forall (fun t => Bltb zero t = true) T -> fst (h_time h) = zero /\ (T <> [] -> highest (snd (h_time h)) T)).

Lemma later_high (T : list f64) : forall a : f64, is_nan a = false -> Forall (fun t : f64 => is_nan t = false) T ->
  let r := fold_left later T a in (r = a \/ In r T) /\ Bleb a r = true /\ forall t, In t T -> Bleb t r = true.
Proof.
  induction T as [|t T IH]; intros a Na Ft; cbn zeta.
  - cbn [fold_left]. split; [now left|]. split; [now apply Bleb_refl | intros ? []].
  - inversion Ft as [|? ? Nt Ft']; subst. cbn [fold_left].
    assert (U : later a t = if Bltb a t then t else a) by reflexivity. rewrite U. clear U. destruct (Bltb a t) eqn:E.
    + destruct (IH t Nt Ft') as [A [B C]]. cbn zeta in *. split; [right; destruct A; [left; congruence | now right]|]. split; [eapply Bleb_trans; [apply Blt_le, E | exact B]|].
      intros y [<-|Hy]; [exact B | now apply C].
    + destruct (IH a Na Ft') as [A [B C]]. cbn zeta in *. split; [destruct A; [now left | right; now right]|]. split; [exact B|].
      intros y [<-|Hy]; [|now apply C]. eapply Bleb_trans; [|exact B]. rewrite Bltb_negb in E by assumption. now apply negb_false_iff.
Qed.
Lemma header_describes (ks : list (smp f64)) np nt rate times :
  describes (mk_header (fold_left acc_line ks acc0) np nt rate (n0, fold_left later (map tm ks) n0) times) (map tm ks) (map s_pos ks) (map s_vel ks).
Proof.
  assert (L : forall A (f : smp f64 -> A), vlen (map f ks) = vlen ks) by (intros; unfold vlen; now rewrite map_length).
  destruct (acc_fold ks acc0) as [Hn [Hi [Hm Hs]]]. cbn zeta in *. rewrite N.add_0_l in Hn.
  unfold describes, mk_header. destruct (fold_left acc_line ks acc0) as [[[r0 r1] r2] [[v0 v1] v2] mg ms [[d0 d1] d2] n]. cbn [a_n a_mag a_msum a_dims a_vel a_vsum] in *.
  cbn [h_nparticles h_timesteps h_times h_dims h_vel h_mag h_time fst snd]. split; [|split; [|split]].
  - intros i Li. destruct (Hi i Li) as [H1 _]. rewrite map_map.
    assert (R := span_recorded (map (fun s => ax i (s_pos s)) ks)). change (ax i (fst d0, fst d1, fst d2)) with (if (i =? 0)%N then fst d0 else if (i =? 1)%N then fst d1 else fst d2).
    change (ax i (snd d0, snd d1, snd d2)) with (if (i =? 0)%N then snd d0 else if (i =? 1)%N then snd d1 else snd d2). cbn [acc0 a_dims] in H1.
    destruct (i =? 0)%N; [|destruct (i =? 1)%N]; rewrite <- H1 in R; exact R.
  - intros i lo mean hi Li Eq. destruct (Hi i Li) as [_ [H2 H3]]. rewrite map_map.
    assert (R := span_recorded (map (fun s => ax i (s_vel s)) ks)). unfold mean_recorded. rewrite L, <- Hn. cbn [acc0 a_vel a_vsum] in H2, H3. change (ax i (v0, v1, v2)) with (if (i =? 0)%N then v0 else if (i =? 1)%N then v1 else v2) in H3. change (ax i (n0, n0, n0)) with (if (i =? 0)%N then n0 else if (i =? 1)%N then n0 else n0 : f64) in H3.
    destruct (i =? 0)%N; [|destruct (i =? 1)%N]; rewrite <- H2 in R; rewrite <- H3; assert (E1 := f_equal (fun p => fst (fst p)) Eq); assert (E2 := f_equal (fun p => snd (fst p)) Eq); assert (E3 := f_equal snd Eq); cbn [fst snd] in E1, E2, E3; subst lo mean hi; split; (exact R || reflexivity).
  - intros lo mean hi Eq. unfold mean_recorded. rewrite map_map, L, <- Hn. cbn [acc0 a_mag a_msum] in Hm, Hs.
    assert (R := span_recorded (map (fun s => magnitude (s_vel s)) ks)). rewrite <- Hm in R. rewrite <- Hs.
    assert (E1 := f_equal (fun p => fst (fst p)) Eq); assert (E2 := f_equal (fun p => snd (fst p)) Eq); assert (E3 := f_equal snd Eq); cbn [fst snd] in E1, E2, E3. subst lo mean hi. split; [exact R | reflexivity].
  - intros Fp. split; [reflexivity|]. intros Ne. assert (Fn : Forall (fun t : f64 => is_nan t = false) (map tm ks)) by (eapply Forall_impl; [|exact Fp]; intros t Ht; exact (Bltb_nan_r _ _ Ht)).
    destruct (later_high (map tm ks) zero no_nan_zero Fn) as [A [B C]]. cbn zeta in *. split; [|exact C]. destruct A as [A|A]; [|exact A]. exfalso.
    destruct (map tm ks) as [|t T]; [congruence|]. assert (Hp := Forall_inv Fp). cbn beta in Hp. assert (Hc := C t (or_introl eq_refl)). rewrite A in Hc. rewrite (Blt_nle _ _ Hp) in Hc. discriminate.
Qed.
