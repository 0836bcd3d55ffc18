(** * Properties C53, C54, C55: what the single-particle CSV converter writes. *)
From Coq Require Import Reals List NArith ZArith Bool Lia Lra Sorted Permutation ZifyBool ZifyN ZifyNat.
From Flocq Require Import Core.Core IEEE754.BinarySingleNaN.
From Verif Require Import Base BaseFacts Num F64Facts RFacts NDArray DataModel DataSpec DataLoad ConvModel ConvSort.
Local Open Scope list_scope.
Local Open Scope bool_scope.

(** ** The loop *)
Section Loop.
  Context {F : Type} {NF : Num F}.

  (** A sample: time, position, velocity. *)
  Definition smp : Type := F * v3 F * v3 F.
  Definition s_time (s : smp) : F := fst (fst s).
  Definition s_pos (s : smp) : v3 F := snd (fst s).
  Definition s_vel (s : smp) : v3 F := snd s.
  Definition smp_row (s : smp) : list F :=
    let '(t, (x, y, z), (a, b, c)) := s in [t; x; y; z; a; b; c].

  (** The samples kept, and whether no more than 500 in a row are rejected. *)
  Fixpoint keep (old : F) (l : list smp) : list smp :=
    match l with
    | [] => []
    | s :: l' => if (s_time s <=? old)%num then keep old l' else s :: keep (s_time s) l'
    end.
  Fixpoint patient (old : F) (fails : N) (l : list smp) : bool :=
    match l with
    | [] => true
    | s :: l' => if (s_time s <=? old)%num then
                   if (500 <? fails + 1)%N then false else patient old (fails + 1) l'
                 else patient (s_time s) 0 l'
    end.
  Definition acc_line (a : acc) (s : smp) : acc := acc_count (acc_pos (acc_vel a (s_vel s)) (s_pos s)) 1.
  Definition later (a t : F) : F := if (a <? t)%num then t else a.

  Definition overwrite {A} (l : list A) (k : N) (vs : list A) : list A :=
    firstn (N.to_nat k) l ++ vs ++ skipn (N.to_nat k + length vs) l.
  Lemma vset_overwrite {A} (l : list A) k v : (k < vlen l)%N -> vset l k v = Val (overwrite l k [v]).
  Proof.
    intros H. destruct (vset_ok l k v H) as [l' E]. rewrite E. f_equal.
    unfold vset in E. destruct (list_set l (N.to_nat k) v) as [l2|] eqn:E2; [|discriminate]. injection E as <-. clear H.
    unfold overwrite. revert l l2 E2. generalize (N.to_nat k) as n. induction n as [|n IH]; intros [|a l] l2 E2; try discriminate.
    - cbn in *. congruence.
    - cbn [list_set] in E2. destruct (list_set l n v) as [l3|] eqn:E3; [|discriminate]. injection E2 as <-.
      cbn [firstn skipn length Nat.add app]. f_equal. now apply IH.
  Qed.
  Lemma overwrite_nil {A} (l : list A) k : overwrite l k [] = l.
  Proof. unfold overwrite. cbn [app length]. rewrite Nat.add_0_r. apply firstn_skipn. Qed.
  Lemma overwrite_len {A} (l : list A) k vs : (k + vlen vs <= vlen l)%N -> vlen (overwrite l k vs) = vlen l.
  Proof. unfold overwrite, vlen. intros H. rewrite !app_length, firstn_length, skipn_length. lia. Qed.
  Lemma overwrite_cons {A} (l : list A) k v vs : (k < vlen l)%N ->
    overwrite (overwrite l k [v]) (k + 1) vs = overwrite l k (v :: vs).
  Proof.
    intros H. unfold overwrite, vlen in *. replace (N.to_nat (k + 1)) with (S (N.to_nat k)) by lia.
    rewrite firstn_app. rewrite firstn_firstn, firstn_length. replace (Nat.min (S (N.to_nat k)) (N.to_nat k)) with (N.to_nat k) by lia.
    replace (S (N.to_nat k) - Nat.min (N.to_nat k) (length l))%nat with 1%nat by lia. cbn [firstn app].
    rewrite <- app_assoc. cbn [app]. do 3 f_equal.
    rewrite skipn_app, firstn_length. rewrite skipn_all2 by (rewrite firstn_length; lia). cbn [app length].
    replace (S (N.to_nat k) + length vs - Nat.min (N.to_nat k) (length l))%nat with (S (length vs)) by lia. cbn [skipn].
    replace (N.to_nat k + S (length vs))%nat with ((N.to_nat k + 1) + length vs)%nat by lia. clear. generalize (N.to_nat k + 1)%nat as n. revert l.
    assert (G : forall n m (l : list A), skipn m (skipn n l) = skipn (n + m) l). { induction n as [|n IH]; intros m [|a l]; try reflexivity; [now rewrite !skipn_nil | apply IH]. }
    intros l n. apply G.
  Qed.

  Lemma csv_loop bld l : forall i w, (w_total w <= i)%N ->
    vlen (w_time w) = (i + vlen l)%N -> vlen (w_pos w) = (i + vlen l)%N -> vlen (w_vel w) = (i + vlen l)%N ->
    let k := (i - w_total w)%N in let ks := keep (w_old w) l in
    mfold (csv_line (usub bld)) (combine (range i (i + vlen l)) (map smp_row l)) w =
    if patient (w_old w) (w_fail w) l then
      Val (mkW (overwrite (w_time w) k (map s_time ks)) (overwrite (w_pos w) k (map s_pos ks)) (overwrite (w_vel w) k (map s_vel ks))
             (w_fail (match mfold (csv_line (usub bld)) (combine (range i (i + vlen l)) (map smp_row l)) w with Val w' => w' | Panic => w end))
             (w_total w + (vlen l - vlen ks))
             (last (map s_time ks) (w_old w))
             (match ks with [] => w_rate w | _ => let t := last (map s_time ks) (w_old w) in (t - t)%num end)
             (fold_left later (map s_time ks) (w_tmax w)) (fold_left acc_line ks (w_acc w)))
    else Panic.
  Proof.
    induction l as [|s l IH]; intros i w Ht L1 L2 L3; cbn zeta.
    - rewrite range_empty by (unfold vlen; cbn; lia). cbn [combine mfold keep map patient fold_left last].
      rewrite !overwrite_nil. destruct w as [? ? ? ? ? ? ? ? ?]. cbn. rewrite N.add_0_r. reflexivity.
    - assert (Lc : vlen (s :: l) = (1 + vlen l)%N) by (unfold vlen; cbn [length]; lia).
      assert (Lk : forall o, (vlen (keep o l) <= vlen l)%N).
      { clear. induction l as [|s l IH]; intros o; cbn [keep]; [reflexivity|]. destruct (s_time s <=? o)%num; specialize (IH o) as I1; specialize (IH (s_time s)) as I2; unfold vlen in *; cbn [length]; lia. }
      rewrite Lc, !N.add_assoc in L1, L2, L3.
      rewrite range_cons by lia. cbn [map combine mfold keep patient].
      destruct s as [[t [[x y] z]] [[a b] c]]. cbn [smp_row s_time fst]. change (s_time (t, (x, y, z), (a, b, c))) with t.
      unfold csv_line at 1 3. cbn [vget nth_error N.to_nat unwrap bind]. 
      change (vget [t; x; y; z; a; b; c] 0) with (Val t). cbn [bind].
      destruct (t <=? w_old w)%num eqn:E.
      + change MAX_FAILS with 500%N. destruct (500 <? w_fail w + 1)%N; [reflexivity|]. cbn [bind].
        rewrite !Lc, !N.add_assoc.
        match goal with |- mfold _ _ ?w1 = _ => specialize (IH (i + 1)%N w1) end. cbn [w_time w_pos w_vel w_fail w_total w_old w_rate w_tmax w_acc] in IH.
        rewrite IH by lia. destruct (patient (w_old w) (w_fail w + 1) l); [|reflexivity].
        cbn [w_fail]. replace (i + 1 - (w_total w + 1))%N with (i - w_total w)%N by lia. do 2 f_equal. specialize (Lk (w_old w)). lia.
      + rewrite usub_ge by exact Ht. cbn [bind]. set (k := (i - w_total w)%N).
        rewrite (vset_overwrite (w_time w)) by lia. cbn [bind].
        change (vget [t; x; y; z; a; b; c] 1) with (Val x). change (vget [t; x; y; z; a; b; c] 2) with (Val y).
        change (vget [t; x; y; z; a; b; c] 3) with (Val z). change (vget [t; x; y; z; a; b; c] 4) with (Val a).
        change (vget [t; x; y; z; a; b; c] 5) with (Val b). change (vget [t; x; y; z; a; b; c] 6) with (Val c). cbn [bind].
        rewrite (vset_overwrite (w_pos w)) by lia. cbn [bind]. rewrite (vset_overwrite (w_vel w)) by lia. cbn [bind].
        cbn zeta. rewrite !Lc, !N.add_assoc.
        match goal with |- mfold _ _ ?w1 = _ => specialize (IH (i + 1)%N w1) end. cbn [w_time w_pos w_vel w_fail w_total w_old w_rate w_tmax w_acc] in IH.
        assert (Q : forall A (u : list A) v, vlen u = (i + 1 + vlen l)%N -> vlen (overwrite u k [v]) = (i + 1 + vlen l)%N).
        { intros A u v Hu. rewrite overwrite_len; [lia|]. unfold vlen at 1. cbn [length]. lia. }
        rewrite IH; [|lia|now apply Q..]. destruct (patient t 0 l); [|reflexivity].
        cbn [w_fail map s_time s_pos s_vel fst snd fold_left]. unfold k. replace (i + 1 - w_total w)%N with (i - w_total w + 1)%N by lia.
        rewrite !overwrite_cons by lia. f_equal. f_equal.
        * specialize (Lk t). unfold vlen in *. cbn [length]. lia.
        * cbn [last map]. destruct (keep t l) as [|s' l']; [reflexivity|]. cbn [map]. generalize (map s_time l') as m. clear. intros m. revert s'. induction m as [|u m IH]; intros s'; cbn [last]; [reflexivity|]. destruct m; [reflexivity|]. cbn [last] in IH. apply (IH s').
        * cbn [last map]. destruct (keep t l) as [|s' l']; [reflexivity|]. cbn [map].
          assert (G : forall m (u d d' : F), last (u :: m) d = last (u :: m) d'). { clear. induction m as [|v m IH]; intros u d d'; [reflexivity|]. change (last (v :: m) d = last (v :: m) d'). apply IH. }
          now rewrite (G _ _ t (w_old w)).
  Qed.
End Loop.
Arguments smp : clear implicits.

(** ** Order of doubles that are not NaN *)
Lemma Bltb_negb (x y : f64) : is_nan x = false -> is_nan y = false -> Bltb x y = negb (Bleb y x).
Proof.
  intros Nx Ny. destruct (is_finite x) eqn:Fx, (is_finite y) eqn:Fy.
  - destruct (Bleb y x) eqn:E; cbn [negb].
    + apply not_true_iff_false. intros C. apply (Bltb_R x y Fx Fy) in C. apply (Bleb_R y x Fy Fx) in E. lra.
    + apply (Bltb_R x y Fx Fy). apply Rnot_le_lt. intros C. apply (Bleb_R y x Fy Fx) in C. congruence.
  - destruct y as [|[|]| |]; try discriminate; destruct x as [|[|]| |]; try discriminate; reflexivity.
  - destruct x as [|[|]| |]; try discriminate; destruct y as [|[|]| |]; try discriminate; reflexivity.
  - destruct x as [|[|]| |]; try discriminate; destruct y as [|[|]| |]; try discriminate; reflexivity.
Qed.
Lemma Bltb_nan_l (x y : f64) : Bltb x y = true -> is_nan x = false.
Proof. destruct x, y; reflexivity || discriminate. Qed.
Lemma Bltb_nan_r (x y : f64) : Bltb x y = true -> is_nan y = false.
Proof. destruct x as [|[]| |], y as [|[]| |]; reflexivity || discriminate. Qed.
Lemma Blt_le (x y : f64) : Bltb x y = true -> Bleb x y = true.
Proof.
  intros H. assert (Nx := Bltb_nan_l _ _ H). assert (Ny := Bltb_nan_r _ _ H). rewrite Bltb_negb in H by assumption.
  apply Bleb_total; [assumption..|]. now apply negb_true_iff.
Qed.
Lemma Bnle_lt (x y : f64) : is_nan x = false -> is_nan y = false -> Bleb x y = false -> Bltb y x = true.
Proof. intros Nx Ny H. rewrite Bltb_negb by assumption. now rewrite H. Qed.
Lemma Blt_nle (x y : f64) : Bltb x y = true -> Bleb y x = false.
Proof. intros H. assert (Nx := Bltb_nan_l _ _ H). assert (Ny := Bltb_nan_r _ _ H). rewrite Bltb_negb in H by assumption. now apply negb_true_iff. Qed.
Lemma Ble_lt_trans (x y z : f64) : Bleb x y = true -> Bltb y z = true -> Bltb x z = true.
Proof.
  intros H1 H2. assert (Nx := Bleb_not_nan_l _ _ H1). assert (Nz := Bltb_nan_r _ _ H2).
  apply Bnle_lt; [assumption..|]. apply not_true_iff_false. intros C. apply Blt_nle in H2. rewrite (Bleb_trans z x y C H1) in H2. discriminate.
Qed.
Lemma Blt_le_trans (x y z : f64) : Bltb x y = true -> Bleb y z = true -> Bltb x z = true.
Proof.
  intros H1 H2. assert (Nx := Bltb_nan_l _ _ H1). assert (Nz := Bleb_not_nan_r _ _ H2).
  apply Bnle_lt; [assumption..|]. apply not_true_iff_false. intros C. apply Blt_nle in H1. rewrite (Bleb_trans y z x H2 C) in H1. discriminate.
Qed.
Lemma Bltb_trans (x y z : f64) : Bltb x y = true -> Bltb y z = true -> Bltb x z = true.
Proof. intros H1 H2. apply (Ble_lt_trans x y z); [now apply Blt_le | exact H2]. Qed.
Lemma Bltb_irr (x : f64) : Bltb x x = false.
Proof. apply not_true_iff_false. intros H. assert (E := Blt_nle _ _ H). rewrite (Blt_le _ _ H) in E. discriminate. Qed.
Lemma Bleb_refl (x : f64) : is_nan x = false -> Bleb x x = true.
Proof. intros N. apply not_false_iff_true. intros H. assert (E := Bnle_lt _ _ N N H). rewrite Bltb_irr in E. discriminate. Qed.
(** Numbers that are equal and not zero are the same double. *)
Lemma Bpos_eq (x y : f64) : Bltb (f64_of_Z 0) x = true -> Bleb x y = true -> Bleb y x = true -> x = y.
Proof.
  intros P H1 H2. assert (Py := Blt_le_trans _ _ _ P H1).
  assert (Nx := Bltb_nan_r _ _ P). assert (Ny := Bltb_nan_r _ _ Py).
  destruct (is_finite x) eqn:Fx, (is_finite y) eqn:Fy.
  - assert (E : B2R x = B2R y) by (apply Rle_antisym; [now apply Bleb_R | now apply Bleb_R]).
    destruct (of_Z_correct 0) as [Z0 Fz]; [lia|].
    apply (Bltb_R _ _ Fz Fx) in P. rewrite Z0 in P. apply B2R_inj; [| |exact E].
    + destruct x; try discriminate; try reflexivity; exfalso; cbn [B2R] in P; lra.
    + destruct y; try discriminate; try reflexivity; exfalso; cbn [B2R] in E; lra.
  - destruct y as [|[|]| |]; try discriminate; destruct x as [|[|]| |]; try discriminate.
  - destruct x as [|[|]| |]; try discriminate; destruct y as [|[|]| |]; try discriminate.
  - destruct x as [|[|]| |]; try discriminate; destruct y as [|[|]| |]; try discriminate; reflexivity.
Qed.

(** ** The samples kept *)
Local Notation tm := (@s_time f64).

Definition t_lt (a b : f64) : Prop := Bltb a b = true.
Definition clean (l : list (smp f64)) : Prop := Forall (fun s => is_nan (tm s) = false) l.
Definition s_sorted (l : list (smp f64)) : Prop := StronglySorted (fun a b => Bleb (tm a) (tm b) = true) l.

Lemma keep_inc l : clean l -> forall (old : f64), is_nan old = false ->
  StronglySorted t_lt (map tm (keep old l)) /\ Forall (t_lt old) (map tm (keep old l)).
Proof.
  induction 1 as [|s l Ns _ IH]; intros old No; cbn [keep map]; [split; constructor|].
  change (nleb (tm s) old) with (Bleb (tm s) old). destruct (Bleb (tm s) old) eqn:E; [now apply IH|].
  cbn [map]. destruct (IH _ Ns) as [S1 S2]. assert (L := Bnle_lt _ _ Ns No E). split; [now constructor|].
  constructor; [exact L|]. eapply Forall_impl; [|exact S2]. intros t Ht. exact (Bltb_trans _ _ _ L Ht).
Qed.
Lemma keep_first l : clean l -> forall (old : f64) j s, is_nan old = false -> nth_error (keep old l) j = Some s ->
  t_lt old (tm s) /\ exists k, nth_error l k = Some s /\
    forall k' s', (k' < k)%nat -> nth_error l k' = Some s' -> t_lt (tm s') (tm s).
Proof.
  induction 1 as [|s0 l Ns _ IH]; intros old j s No H; [destruct j; discriminate|]. cbn [keep] in H.
  change (nleb (tm s0) old) with (Bleb (tm s0) old) in H. destruct (Bleb (tm s0) old) eqn:E.
  - destruct (IH old j s No H) as [L [k [Hk Hb]]]. split; [exact L|]. exists (S k). split; [exact Hk|].
    intros [|k'] s' Lt Hs; [cbn in Hs; injection Hs as <-; exact (Ble_lt_trans _ _ _ E L) | apply (Hb k' s'); [lia | exact Hs]].
  - assert (L0 := Bnle_lt _ _ Ns No E). destruct j as [|j]; cbn [nth_error] in H.
    + injection H as <-. split; [exact L0|]. exists 0%nat. split; [reflexivity|]. intros k' s' Lt. lia.
    + destruct (IH (tm s0) j s Ns H) as [L [k [Hk Hb]]]. split; [exact (Bltb_trans _ _ _ L0 L)|]. exists (S k). split; [exact Hk|].
      intros [|k'] s' Lt Hs; [cbn in Hs; injection Hs as <-; exact L | apply (Hb k' s'); [lia | exact Hs]].
Qed.
Lemma keep_all l : clean l -> s_sorted l -> forall (old : f64) s, is_nan old = false -> In s l -> t_lt old (tm s) ->
  exists s', In s' (keep old l) /\ Bleb (tm s) (tm s') = true /\ Bleb (tm s') (tm s) = true.
Proof.
  intros C S. induction S as [|s0 l S IH F0]; intros old s No Hin L; [destruct Hin|]. inversion C as [|? ? N0 Cl]; subst. cbn [keep].
  change (nleb (tm s0) old) with (Bleb (tm s0) old). destruct (Bleb (tm s0) old) eqn:E.
  - destruct Hin as [<-|Hin]; [|now apply IH]. rewrite (Blt_nle _ _ L) in E. discriminate.
  - assert (Ns : is_nan (tm s) = false) by exact (Bltb_nan_r _ _ L). destruct (Bleb (tm s) (tm s0)) eqn:E0.
    + exists s0. split; [now left|]. split; [exact E0|]. destruct Hin as [<-|Hin]; [exact E0|]. rewrite Forall_forall in F0. now apply F0.
    + destruct Hin as [<-|Hin]; [rewrite Bleb_refl in E0 by exact N0; discriminate|].
      destruct (IH Cl (tm s0) s N0 Hin (Bnle_lt _ _ Ns N0 E0)) as [s' [H1 H2]]. exists s'. split; [now right | exact H2].
Qed.

(** The number of samples at or before a time, and at a time. *)
Definition n_upto (t : f64) (l : list (smp f64)) : N := vlen (filter (fun s => Bleb (tm s) t) l).
Definition n_at (t : f64) (l : list (smp f64)) : N :=
  vlen (filter (fun s => Bleb (tm s) t && Bleb t (tm s)) l).
Lemma vlen_cons {A} (a : A) l : vlen (a :: l) = (1 + vlen l)%N.
Proof. unfold vlen. cbn [length]. lia. Qed.
Lemma filter_none {A} (p : A -> bool) l : Forall (fun a => p a = false) l -> filter p l = [].
Proof. induction 1 as [|a l H _ IH]; cbn; [reflexivity|]. now rewrite H. Qed.
Lemma patient_iff l : clean l -> s_sorted l -> forall (old : f64) f, is_nan old = false -> (f <= 500)%N ->
  (patient old f l = true <-> (f + n_upto old l <= 500)%N /\ forall t, t_lt old t -> (n_at t l <= 501)%N).
Proof.
  intros C S. induction S as [|s l S IH F0]; intros old f No Hf.
  - cbn. split; [intros _; split; [lia | intros; cbn; lia] | reflexivity].
  - inversion C as [|? ? Ns Cl]; subst. specialize (IH Cl). cbn [patient]. change (nleb (tm s) old) with (Bleb (tm s) old).
    unfold n_upto, n_at. cbn [filter]. destruct (Bleb (tm s) old) eqn:E.
    + rewrite vlen_cons. fold (n_upto old l). destruct (N.ltb_spec 500 (f + 1)) as [B|B].
      * split; [discriminate|]. intros [H _]. lia.
      * rewrite IH by lia. assert (Q : forall t, t_lt old t -> Bleb (tm s) t && Bleb t (tm s) = false).
        { intros t Ht. rewrite (Blt_nle (tm s) t), andb_false_r; [reflexivity|]. exact (Ble_lt_trans _ _ _ E Ht). }
        split; intros [H1 H2]; (split; [lia|]); intros t Ht; specialize (H2 t Ht); rewrite (Q t Ht) in *; exact H2.
    + assert (L := Bnle_lt _ _ Ns No E). rewrite IH by lia. rewrite filter_none by (eapply Forall_impl; [|exact F0]; intros s' H'; apply (Blt_nle old); exact (Blt_le_trans _ _ _ L H')).
      assert (Q : filter (fun s0 => Bleb (tm s0) (tm s)) l = filter (fun s0 => Bleb (tm s0) (tm s) && Bleb (tm s) (tm s0)) l).
      { apply filter_ext_in. intros s' Hs. rewrite Forall_forall in F0. rewrite (F0 s' Hs), andb_true_r. reflexivity. }
      fold (n_upto (tm s) l). split.
      * intros [H1 H2]. split; [cbn; lia|]. intros t Ht. destruct (Bleb (tm s) t && Bleb t (tm s)) eqn:Et.
        -- apply andb_true_iff in Et as [E1 E2]. rewrite vlen_cons. unfold n_upto in H1. rewrite Q in H1.
           erewrite filter_ext_in; [apply N.add_le_mono_l with (p := 1%N) in H1; exact H1|]. intros s' Hs. cbn beta.
           rewrite Forall_forall in F0. specialize (F0 s' Hs). f_equal; apply Bool.eq_iff_eq_true; split; intros X; try (eapply Bleb_trans; eassumption).
        -- destruct (Bleb (tm s) t) eqn:E1; cbn [andb] in Et.
           ++ apply (H2 t). apply Bnle_lt; [now apply Bleb_not_nan_r in E1 | exact Ns | exact Et].
           ++ rewrite filter_none; [cbn; lia|]. eapply Forall_impl; [|exact F0]. intros s' Hs. cbn beta in Hs.
              destruct (Bleb (tm s') t) eqn:E2; [|reflexivity]. rewrite (Bleb_trans _ _ _ Hs E2) in E1. discriminate.
      * intros [_ H2]. split.
        -- specialize (H2 (tm s) L). rewrite Bleb_refl in H2 by exact Ns. cbn [andb] in H2. rewrite vlen_cons in H2. unfold n_upto. rewrite Q. lia.
        -- intros t Ht. specialize (H2 t (Bltb_trans _ _ _ L Ht)). rewrite (Blt_nle (tm s) t Ht), andb_false_r in H2. exact H2.
Qed.

(** ** From the file's rows to the samples *)
Lemma Forall2_impl {A B} (P Q : A -> B -> Prop) l l' : (forall a b, P a b -> Q a b) -> Forall2 P l l' -> Forall2 Q l l'.
Proof. intros H. induction 1; constructor; auto. Qed.

(** Specification.  The entry of a row in column [c]: columns are counted from 0, or from the end
    with negative numbers, -1 being the last. *)
Definition col_entry (r : list f64) (c : Z) (x : f64) : Prop := exists k, at_ r k x /\ (c = Z.of_N k \/ c = Z.of_N k - Z.of_N (vlen r))%Z.
Lemma col_entry_pick r c x : col_entry r c x <-> pick_cell r c = Val x.
Proof.
  unfold col_entry, pick_cell. split.
  - intros [k [Hk [-> | ->]]].
    + destruct (Z.leb_spec 0 (Z.of_N k)); [|lia]. rewrite N2Z.id. now apply at_vget.
    + assert (L := at_lt _ _ _ Hk). destruct (Z.leb_spec 0 (Z.of_N k - Z.of_N (vlen r))); [lia|].
      replace (Z.of_N (vlen r) + (Z.of_N k - Z.of_N (vlen r)))%Z with (Z.of_N k) by lia. destruct (Z.leb_spec 0 (Z.of_N k)); [|lia]. rewrite N2Z.id. now apply at_vget.
  - destruct (Z.leb_spec 0 c) as [H|H].
    + intros E. exists (Z.to_N c). split; [now apply vget_val | left; lia].
    + destruct (Z.leb_spec 0 (Z.of_N (vlen r) + c)) as [H'|H']; [|discriminate]. intros E. exists (Z.to_N (Z.of_N (vlen r) + c)). split; [now apply vget_val | right; lia].
Qed.
Lemma col_entry_unique r c x x' : col_entry r c x -> col_entry r c x' -> x = x'.
Proof. rewrite !col_entry_pick. congruence. Qed.

(** Specification.  [s] is what a row says when the columns are read in the given order: time,
    position, velocity. *)
Definition reads (columns : list Z) (r : list f64) (s : smp f64) : Prop :=
  Forall2 (col_entry r) columns (smp_row s).
Lemma reads_unique columns r s s' : reads columns r s -> reads columns r s' -> s = s'.
Proof.
  unfold reads. intros H H'. assert (E : smp_row s = smp_row s').
  { revert H'. generalize (smp_row s'). induction H as [|c x cs xs H _ IH]; intros l H'; inversion H' as [|? y ? ys Hy H'']; subst; [reflexivity|].
    f_equal; [exact (col_entry_unique _ _ _ _ H Hy) | now apply IH]. }
  destruct s as [[t [[x y] z]] [[a b] c]], s' as [[t' [[x' y'] z']] [[a' b'] c']]. cbn [smp_row] in E. inversion E. reflexivity.
Qed.
Lemma pick_row_reads columns r out : vlen columns = 7%N -> pick_row 7 columns r = Val out -> exists s, out = smp_row s /\ reads columns r s.
Proof.
  intros L. unfold pick_row. rewrite L. cbn [N.ltb N.compare Pos.compare Pos.compare_cont].
  destruct (mmap _ columns) as [l|] eqn:E; [|discriminate]. change (7 <? 7)%N with false. cbn [bind]. intros H.
  assert (out = l) by (rewrite app_nil_r in H; congruence). subst out. clear H. apply mmap_inv in E.
  assert (L2 : length l = 7%nat). { apply Forall2_length in E. unfold vlen in L. lia. }
  destruct l as [|t [|x [|y [|z [|a [|b [|c [|]]]]]]]]; try discriminate. exists (t, (x, y, z), (a, b, c)). split; [reflexivity|].
  unfold reads. cbn [smp_row]. eapply Forall2_impl; [|exact E]. intros k v H. now apply col_entry_pick.
Qed.
Lemma reads_pick columns r s : reads columns r s -> vlen columns = 7%N /\ pick_row 7 columns r = Val (smp_row s).
Proof.
  intros H. assert (L : vlen columns = 7%N).
  { unfold reads in H. apply Forall2_length in H. destruct s as [[t [[x y] z]] [[a b] c]]. unfold vlen. rewrite H. reflexivity. }
  split; [exact L|]. unfold pick_row. rewrite L. rewrite (mmap_Forall2 _ _ (smp_row s)); [cbn; now rewrite app_nil_r|].
  eapply Forall2_impl; [|exact H]. intros c x H'. now apply col_entry_pick.
Qed.

(** [l'] is [l] in the order of time, samples with the same time in their old order. *)
Definition in_time_order (l l' : list (smp f64)) : Prop := exists idx, Permutation idx (range 0 (vlen l)) /\
  Forall2 (at_ l) idx l' /\
  StronglySorted (fun i j => exists a b, at_ l i a /\ at_ l j b /\ Bleb (tm a) (tm b) = true /\ (Bleb (tm b) (tm a) = true -> (i < j)%N)) idx.

Lemma sorted_at {A} (P : A -> A -> Prop) l : StronglySorted P l -> forall i j a b, (i < j)%nat -> nth_error l i = Some a -> nth_error l j = Some b -> P a b.
Proof.
  induction 1 as [|x l S IH F]; intros i j a b L Ha Hb; [destruct i; discriminate|]. destruct j as [|j]; [lia|]. cbn in Hb.
  destruct i as [|i]; cbn in Ha; [|now apply (IH i j a b); [lia|..]]. injection Ha as <-. rewrite Forall_forall in F. apply F. eapply nth_error_In, Hb.
Qed.
Lemma order_perm l l' : in_time_order l l' -> Permutation l' l.
Proof.
  intros [idx [P [F _]]].
  assert (G : forall (i : list N) (x : list (smp f64)), Forall2 (at_ l) i x -> x = map (fun k => nth (N.to_nat k) l (B754_nan, (B754_nan, B754_nan, B754_nan), (B754_nan, B754_nan, B754_nan))) i).
  { induction 1 as [|k s i x H _ IH]; cbn; [reflexivity|]. rewrite <- IH. f_equal. symmetry. apply nth_error_nth. exact H. }
  rewrite (G _ _ F). etransitivity; [apply Permutation_map; exact P|]. rewrite <- (G (range 0 (vlen l)) l); [reflexivity|].
  clear. assert (Q : forall (l : list (smp f64)) n (m : list (smp f64)), (forall k s, nth_error l k = Some s -> nth_error m (n + k) = Some s) ->
     Forall2 (at_ m) (range (N.of_nat n) (N.of_nat n + vlen l)) l).
  { intros l0. induction l0 as [|s l0 IH]; intros n m H; [change (vlen (@nil (smp f64))) with 0%N; rewrite N.add_0_r, range_empty by reflexivity; constructor|].
    rewrite range_cons by (rewrite vlen_cons; lia). constructor.
    - unfold at_. rewrite Nat2N.id. rewrite <- (Nat.add_0_r n). now apply H.
    - replace (N.of_nat n + 1)%N with (N.of_nat (S n)) by lia. replace (N.of_nat n + vlen (s :: l0))%N with (N.of_nat (S n) + vlen l0)%N by (rewrite vlen_cons; lia).
      apply IH. intros k s' Hk. replace (S n + k)%nat with (n + S k)%nat by lia. now apply H. }
  apply (Q l 0%nat l). auto.
Qed.
Lemma order_sorted l l' : in_time_order l l' -> s_sorted l'.
Proof.
  intros [idx [_ [F S]]]. unfold s_sorted. revert l' F. induction S as [|i idx S IH Fi]; intros l' F; inversion F as [|? s ? l'' Hs F']; subst; constructor; [now apply IH|].
  apply Forall_forall. intros s' Hin. apply In_nth_error in Hin as [k Hk]. destruct (Forall2_at _ _ _ F' k s' Hk) as [j [Hj Hat]].
  rewrite Forall_forall in Fi. destruct (Fi j (nth_error_In _ _ Hj)) as [a [b [Ha [Hb [Le _]]]]].
  assert (a = s) by (unfold at_ in *; congruence). assert (b = s') by (unfold at_ in *; congruence). now subst.
Qed.
Lemma order_first l l' k s : in_time_order l l' -> nth_error l' k = Some s ->
  (forall k' s', (k' < k)%nat -> nth_error l' k' = Some s' -> t_lt (tm s') (tm s)) ->
  exists i, at_ l i s /\ forall i' s', (i' < i)%N -> at_ l i' s' -> Bleb (tm s) (tm s') && Bleb (tm s') (tm s) = false.
Proof.
  intros [idx [P [F S]]] Hk Hf. destruct (Forall2_at _ _ _ F k s Hk) as [i [Hi Ha]]. exists i. split; [exact Ha|].
  intros i' s' L Hs'. assert (Hin : In i' idx).
  { eapply Permutation_in; [symmetry; exact P|]. apply in_range. apply at_lt in Hs'. lia. }
  apply In_nth_error in Hin as [k' Hk']. destruct (Forall2_at_l _ _ _ F k' i' Hk') as [s2 [Hs2 Ha2]].
  assert (s2 = s') by (unfold at_ in *; congruence). subst s2.
  destruct (Nat.lt_trichotomy k' k) as [Lk|[Ek|Lk]].
  - rewrite (Blt_nle _ _ (Hf k' s' Lk Hs2)). reflexivity.
  - subst k'. assert (i' = i) by congruence. lia.
  - destruct (sorted_at _ _ S k k' i i' Lk Hi Hk') as [a [b [Xa [Xb [Le Ti]]]]].
    assert (a = s) by (unfold at_ in *; congruence). assert (b = s') by (unfold at_ in *; congruence). subst a b.
    destruct (Bleb (tm s') (tm s)) eqn:E; [specialize (Ti eq_refl); lia|]. apply andb_false_r.
Qed.

(** The table of samples, sorted by the converter. *)
Lemma order_ex l : clean l -> exists l', in_time_order l l' /\
  (let! t := column (map smp_row l) 0 in if is_sorted t then @Val (table f64) (map smp_row l) else sort_by_column (map smp_row l) 0) = Val (map smp_row l').
Proof.
  intros C. set (data := map smp_row l : table f64).
  assert (Ec : column data 0 = Val (map tm l)).
  { unfold data, column. clear. induction l as [|s l IH]; [reflexivity|]. cbn [map mmap]. rewrite IH. destruct s as [[t [[x y] z]] [[a b] c]]. reflexivity. }
  assert (En : forall i x, entry data 0 i x <-> exists s, at_ l i s /\ x = tm s).
  { intros i x. unfold entry, data, at_. rewrite nth_error_map. split.
    - intros [r [Hr Hx]]. destruct (nth_error l (N.to_nat i)) as [s|]; [|discriminate]. cbn [option_map] in Hr. exists s. split; [reflexivity|].
      assert (r = smp_row s) by congruence. subst r. destruct s as [[t [[a b] c]] [[e f] g]]. cbn [smp_row nth_error N.to_nat] in Hx. change (Some t = Some x) in Hx. cbn. congruence.
    - intros [s [Hs ->]]. rewrite Hs. exists (smp_row s). split; [reflexivity|]. destruct s as [[t [[a b] c]] [[e f] g]]. reflexivity. }
  assert (W : wide data 0). { unfold wide, data. apply Forall_map, Forall_forall. intros s _. destruct s as [[t [[a b] c]] [[e f] g]]. reflexivity. }
  assert (Nn : no_nan data 0). { intros i x Hx. apply En in Hx as [s [Hs ->]]. unfold clean in C. rewrite Forall_forall in C. apply C. eapply nth_error_In, Hs. }
  destruct (c50_sorted data 0 W Nn) as [out [idx [E [P [S [L Ho]]]]]].
  rewrite Ec. cbn [bind].
  assert (Eo : (if is_sorted (map tm l) then Val data else sort_by_column data 0) = Val out).
  { destruct (is_sorted (map tm l)) eqn:Es; [|exact E]. rewrite (c50_identity data 0 _ Ec Es) in E. congruence. }
  assert (Ll : vlen data = vlen l) by (unfold vlen, data; now rewrite map_length).
  assert (X : exists l', Forall2 (at_ l) idx l').
  { assert (Fi : Forall (fun i => (i < vlen l)%N) idx). { apply Forall_forall. intros i Hi. apply (Permutation_in _ P) in Hi. apply in_range in Hi. lia. }
    clear -Fi. induction Fi as [|i idx Hi _ [l' IH]]; [exists []; constructor|]. destruct (lt_at l i Hi) as [s Hs]. exists (s :: l'). now constructor. }
  destruct X as [l' F]. exists l'. split.
  - exists idx. rewrite Ll in P. split; [exact P|]. split; [exact F|].
    eapply StronglySorted_impl; [|exact S]. intros i j _ _ [a [b [Ha [Hb [Le Ti]]]]]. apply En in Ha as [sa [Ha ->]]. apply En in Hb as [sb [Hb ->]]. exists sa, sb. auto.
  - etransitivity; [exact Eo|]. f_equal. apply (at_ext _ _ (vlen l)); [lia | unfold vlen; rewrite map_length; apply Permutation_length in P; apply Forall2_length in F; rewrite range_length in P; unfold vlen in *; lia|].
    intros k Hk. assert (Hi : exists i, at_ idx k i). { apply lt_at. apply Permutation_length in P. rewrite range_length in P. unfold vlen in *. lia. }
    destruct Hi as [i Hi]. destruct (Ho k i Hi) as [r [Hr Ho']]. exists r. split; [exact Ho'|].
    destruct (Forall2_at_l _ _ _ F (N.to_nat k) i Hi) as [s [Hs Ha]]. unfold at_. rewrite nth_error_map, Hs. cbn [option_map].
    unfold at_, data in Hr. rewrite nth_error_map in Hr. unfold at_ in Ha. rewrite Ha in Hr. exact Hr.
Qed.

(** ** What is written *)
Definition csv_group (radius : f64) (n : N) (ks : list (smp f64)) : pgroup f64 :=
  mkPg (Some (map s_pos ks)) (Some (map s_vel ks)) (Some (repeat radius (N.to_nat n)))
       (Some (repeat n1 (N.to_nat n))) None (Some (map tm ks)) (Some (repeat n1 (N.to_nat n))).
Definition csv_header (ks : list (smp f64)) : header f64 :=
  mk_header (fold_left acc_line ks acc0) 1 (vlen ks)
    (match ks with [] => n0 | _ => let t := last (map tm ks) n0 in (t - t)%num end)
    (n0, fold_left later (map tm ks) n0) (map tm ks).
Definition csv_out (radius : f64) (l : list (smp f64)) : res (pfile f64 * header f64) :=
  let! v := cell (map smp_row l) 0 6 in
  if is_nan v then Panic else
  if patient n0 0 l then
    let ks := keep n0 l in
    Val (mkPf (fun i => if (i =? 0)%N then Some (csv_group radius (vlen l) ks) else None) 1 (vlen ks), csv_header ks)
  else Panic.

Lemma keep_len {F} {NF : Num F} (l : list (smp F)) o : (vlen (keep o l) <= vlen l)%N.
Proof. revert o. induction l as [|s l IH]; intros o; cbn [keep]; [reflexivity|]. specialize (IH o) as I1; specialize (IH (s_time s)) as I2. destruct (s_time s <=? o)%num; unfold vlen in *; cbn [length]; lia. Qed.
Lemma overwrite_zeros {A} (z : A) (n : N) vs : (vlen vs <= n)%N -> firstn (N.to_nat (vlen vs)) (overwrite (repeat z (N.to_nat n)) 0 vs) = vs.
Proof. intros H. unfold overwrite, vlen in *. cbn [N.to_nat firstn app]. rewrite Nat2N.id, firstn_app, Nat.sub_diag, firstn_all. cbn [firstn]. apply app_nil_r. Qed.

Lemma write_eq bld (l : list (smp f64)) (radius : f64) :
  (let data := map smp_row l in
   let n := vlen data in
   let! v := cell data 0 6 in
   if nisnan v then Panic else
   let! w := mfold (csv_line (usub bld)) (enumerate data) (mkW (zeros n) (zeros3 n) (zeros3 n) 0 0 n0 n0 n0 acc0) in
   let! kp := usub bld n (w_total w) in
   let times := firstn (N.to_nat kp) (w_time w) in
   let g := mkPg (Some (firstn (N.to_nat kp) (w_pos w))) (Some (firstn (N.to_nat kp) (w_vel w)))
                 (Some (repeat radius (N.to_nat n))) (Some (repeat n1 (N.to_nat n))) None
                 (Some times) (Some (repeat n1 (N.to_nat n))) in
   Val (mkPf (fun i => if (i =? 0)%N then Some g else None) 1 (vlen times),
        mk_header (w_acc w) 1 (vlen times) (w_rate w) (n0, w_tmax w) times)) = csv_out radius l.
Proof.
  cbn zeta. unfold csv_out. destruct (cell (map smp_row l) 0 6) as [v|]; [|reflexivity]. cbn [bind].
  change (nisnan v) with (is_nan v). destruct (is_nan v); [reflexivity|].
  assert (L : vlen (map smp_row l) = vlen l) by (unfold vlen; now rewrite map_length). unfold enumerate. rewrite L.
  assert (Q := csv_loop bld l 0 (mkW (zeros (vlen l)) (zeros3 (vlen l)) (zeros3 (vlen l)) 0 0 n0 n0 n0 acc0)). cbn zeta in Q.
  cbn [w_time w_pos w_vel w_fail w_total w_old w_rate w_tmax w_acc] in Q. rewrite !N.add_0_l in Q.
  assert (Z1 : vlen (zeros (F := f64) (vlen l)) = vlen l) by (unfold vlen, zeros; rewrite repeat_length; lia).
  assert (Z3 : vlen (zeros3 (F := f64) (vlen l)) = vlen l) by (unfold vlen, zeros3; rewrite repeat_length; lia).
  rewrite Q by (assumption || lia). destruct (patient n0 0 l); [|reflexivity]. cbn [bind w_total w_time w_pos w_vel w_acc w_rate w_tmax].
  assert (Lk := keep_len l n0). rewrite usub_ge by lia. cbn [bind].
  replace (vlen l - (vlen l - vlen (keep n0 l)))%N with (vlen (keep n0 l)) by lia.
  assert (M : forall A (f : smp f64 -> A), vlen (map f (keep n0 l)) = vlen (keep n0 l)) by (intros; unfold vlen; now rewrite map_length).
  replace (firstn (N.to_nat (vlen (keep n0 l))) (overwrite (zeros (vlen l)) (0 - 0) (map s_time (keep n0 l)))) with (map s_time (keep n0 l))
    by (symmetry; rewrite <- (M _ s_time) at 1; apply overwrite_zeros; rewrite M; exact Lk).
  replace (firstn (N.to_nat (vlen (keep n0 l))) (overwrite (zeros3 (vlen l)) (0 - 0) (map s_pos (keep n0 l)))) with (map s_pos (keep n0 l))
    by (symmetry; rewrite <- (M _ s_pos) at 1; apply overwrite_zeros; rewrite M; exact Lk).
  replace (firstn (N.to_nat (vlen (keep n0 l))) (overwrite (zeros3 (vlen l)) (0 - 0) (map s_vel (keep n0 l)))) with (map s_vel (keep n0 l))
    by (symmetry; rewrite <- (M _ s_vel) at 1; apply overwrite_zeros; rewrite M; exact Lk).
  rewrite M. reflexivity.
Qed.

Section Csv.
  Context (fit : list f64 -> list f64 -> N -> option (list f64)) (powf : f64 -> f64 -> f64) (bld : build).

  (** Without velocity calculation and resampling. *)
  Lemma csv_plain raw columns radius ss l : Forall2 (reads columns) raw l -> clean l -> raw <> [] ->
    exists l', in_time_order l l' /\ csv_converter fit powf bld raw columns false false radius ss = csv_out radius l'.
  Proof.
    intros F C Ne. destruct (order_ex l C) as [l' [O E]]. exists l'. split; [exact O|]. unfold csv_converter.
    assert (L : vlen columns = 7%N). { inversion F as [|r s ? ? H]; subst; [congruence|]. now apply reads_pick in H. }
    rewrite L. change (7 =? 0)%N with false. cbv iota.
    assert (Pk : pick 7 columns raw = Val (map smp_row l)).
    { rewrite pick_rows by assumption. apply mmap_Forall2. clear -F. induction F as [|r s raw l H _ IH]; [constructor|]. cbn [map]. constructor; [now apply reads_pick in H | exact IH]. }
    rewrite Pk. cbn [bind]. destruct (column (map smp_row l) 0) as [t|]; [|discriminate]. cbn [bind] in E |- *. rewrite E. cbn [bind].
    apply (write_eq bld l' radius).
  Qed.
  Lemma csv_reads raw columns radius ss r : csv_converter fit powf bld raw columns false false radius ss = Val r ->
    raw <> [] /\ exists l, Forall2 (reads columns) raw l.
  Proof.
    unfold csv_converter. intros E. destruct (vlen columns =? 0)%N; [discriminate|].
    apply bind_val in E as [data [Pk E]]. apply bind_val in E as [t [Et E]]. apply bind_val in E as [data2 [E2 E]].
    cbn [bind] in E. apply bind_val in E as [v [Ev E]]. change (nisnan v) with (is_nan v) in E. destruct (is_nan v) eqn:Nv; [discriminate|]. clear E.
    apply pick_val in Pk. apply mmap_inv in Pk.
    assert (Sub : forall r, In r data2 -> In r data).
    { destruct (is_sorted t); [congruence|]. unfold sort_by_column in E2. apply bind_val in E2 as [idx [_ E2]]. apply mmap_inv in E2.
      intros r0 H. apply In_nth_error in H as [k Hk]. destruct (Forall2_at _ _ _ E2 k r0 Hk) as [i [_ Hi]]. apply vget_val in Hi. eapply nth_error_In, Hi. }
    apply cell_entry in Ev as [r0 [Hr Hv]]. assert (Hin : In r0 data) by (apply Sub; eapply nth_error_In, Hr).
    assert (Raw : raw <> []). { intros ->. inversion Pk; subst. destruct Hin. }
    split; [exact Raw|].
    assert (L7 : vlen columns = 7%N).
    { apply In_nth_error in Hin as [k Hk]. destruct (Forall2_at _ _ _ Pk k r0 Hk) as [rr [_ Hp]]. unfold pick_row in Hp.
      apply bind_val in Hp as [m [Hm Hp]]. destruct (N.ltb_spec 7 (vlen columns)); [discriminate|].
      destruct (N.eq_dec (vlen columns) 7) as [E7|Ne]; [exact E7|]. exfalso.
      apply mmap_inv, Forall2_length in Hm. assert (r0 = m ++ repeat nnan (N.to_nat (7 - vlen columns))) by congruence. subst r0.
      unfold at_ in Hv. rewrite nth_error_app2 in Hv by (unfold vlen in *; lia).
      assert (Hrep : In v (repeat (nnan : f64) (N.to_nat (7 - vlen columns)))) by (eapply nth_error_In, Hv).
      apply repeat_spec in Hrep. subst v. discriminate. }
    clear -Pk L7. induction Pk as [|r0 out raw data H _ [l IH]]; [exists []; constructor|].
    destruct (pick_row_reads columns r0 out L7 H) as [s [_ Hs]]. exists (s :: l). now constructor.
  Qed.
End Csv.
