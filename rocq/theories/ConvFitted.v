(** * Properties C107, C108: CSV files with several particles, velocities computed by the converter. *)
From Coq Require Import Reals List NArith ZArith Bool Lia Lra Sorted Permutation ZifyBool ZifyN ZifyNat.
From Flocq Require Import Core.Core IEEE754.BinarySingleNaN.
From Verif Require Import Base BaseFacts Num F64Facts RFacts NDArray DataModel DataSpec DataLoad DataProofs PropertiesData ConvModel ConvInterp ConvVel ConvSort ConvCsv PropertiesCsv ConvIds ConvMulti ConvIdChain.
Local Open Scope list_scope.
Local Open Scope bool_scope.
Local Notation tm := (@s_time f64).
Local Notation zero := (f64_of_Z 0).

(** ** Specification *)
Definition unknown : v3 f64 := (nnan, nnan, nnan).
(** What a line with time and position only says. *)
Definition reads_place (columns : list Z) (r : list f64) (s : smp f64) : Prop :=
  Forall2 (col_entry r) columns (firstn 4 (smp_row s)) /\ s_vel s = unknown.
(** ... and one with time, id and position only. *)
Definition reads_place_id (columns : list Z) (r : list f64) (x : f64 * smp f64) : Prop :=
  Forall2 (col_entry r) columns (firstn 5 (row8 x)) /\ s_vel (snd x) = unknown.
Definition px (s : smp f64) : f64 := let '(x, _, _) := s_pos s in x.
Definition py (s : smp f64) : f64 := let '(_, y, _) := s_pos s in y.
Definition pz (s : smp f64) : f64 := let '(_, _, z) := s_pos s in z.

Section Spec.
  Context (fit : list f64 -> list f64 -> N -> option (list f64)) (powf : f64 -> f64 -> f64).
  (** The samples [l'] are those of [l] from the fifth on, with velocities: sample [k + 4] gets the slopes, at the time
      of sample [k + 5], of the fits of degree two to the positions of the [w] samples from sample [k] on. *)
  Definition fitted (w : N) (l l' : list (smp f64)) : Prop :=
    vlen l' = (vlen l - (w - 1))%N /\
    forall k s', at_ l' k s' -> exists b s u cx cy cz,
      at_ l k b /\ at_ l (k + 4) s /\ at_ l (k + 5) u /\ tm s' = tm s /\ s_pos s' = s_pos s /\
      let win := firstn (N.to_nat w) (skipn (N.to_nat k) l) in
      let ts := map (fun s => tm s - tm b)%num win in
      fit ts (map px win) 2 = Some cx /\ fit ts (map py win) 2 = Some cy /\ fit ts (map pz win) 2 = Some cz /\
      s_vel s' = (slope powf cx (tm u - tm b)%num, slope powf cy (tm u - tm b)%num, slope powf cz (tm u - tm b)%num).
  Definition fits_all : Prop := forall ts xs, length ts = length xs -> fit ts xs 2 <> None.
End Spec.

(** ** Tables of samples *)
(** A row that starts with time and position. *)
Definition place_first (rw : smp f64 -> list f64) : Prop := forall s, exists rest, rw s = [tm s; px s; py s; pz s] ++ rest.
Lemma smp_first : place_first smp_row.
Proof. intros [[t [[x y] z]] [[a b] c]]. exists [a; b; c]. reflexivity. Qed.
Definition place (s : smp f64) : list f64 := [tm s; px s; py s; pz s].
Lemma place_place : place_first place.
Proof. intros s. exists []. reflexivity. Qed.
Lemma columns_first rw (l : list (smp f64)) : place_first rw ->
  column (map rw l) 0 = Val (map tm l) /\ column (map rw l) 1 = Val (map px l) /\
  column (map rw l) 2 = Val (map py l) /\ column (map rw l) 3 = Val (map pz l).
Proof.
  intros Rw. unfold column. repeat split; induction l as [|s l IH]; try reflexivity; cbn [map mmap]; rewrite IH; destruct (Rw s) as [rest ->]; reflexivity.
Qed.
Definition columns_smp l := columns_first smp_row l smp_first.
Lemma row4_first rw l k s : place_first rw -> at_ l k s -> row4 (map rw l) k = Val [tm s; px s; py s; pz s].
Proof.
  intros Rw H. apply row4_sample. exists (tm s), (px s), (py s), (pz s). split; [|reflexivity]. exists (rw s). unfold at_ in *. rewrite nth_error_map, H.
  destruct (Rw s) as [rest E]. cbn [option_map]. split; [reflexivity|]. rewrite E. repeat (split; [reflexivity|]). reflexivity.
Qed.
Definition row4_smp l k s := row4_first smp_row l k s smp_first.
Lemma window_at {A} (l : list A) w k i x : (k + w <= vlen l)%N -> (i < w)%N -> at_ l (k + i) x -> at_ (firstn (N.to_nat w) (skipn (N.to_nat k) l)) i x.
Proof.
  intros Hk Hi H. unfold at_ in *. rewrite nth_error_firstn. destruct (Nat.ltb_spec (N.to_nat i) (N.to_nat w)); [|lia]. rewrite nth_error_skipn'.
  replace (N.to_nat k + N.to_nat i)%nat with (N.to_nat (k + i)) by lia. exact H.
Qed.

Section Fit.
  Context (fit : list f64 -> list f64 -> N -> option (list f64)) (powf : f64 -> f64 -> f64).
  Hypothesis Fits : fits_all fit.

  (** One window. *)
  Lemma window_fits (l : list (smp f64)) w k : (6 <= w)%N -> (k + w <= vlen l)%N -> exists b s u cx cy cz,
    at_ l k b /\ at_ l (k + 4) s /\ at_ l (k + 5) u /\
    let win := firstn (N.to_nat w) (skipn (N.to_nat k) l) in
    let ts := map (fun s => tm s - tm b)%num win in
    fit ts (map px win) 2 = Some cx /\ fit ts (map py win) 2 = Some cy /\ fit ts (map pz win) 2 = Some cz /\
    vget (map tm win) 0 = Val (tm b) /\ vget ts 5 = Val (tm u - tm b)%num.
  Proof.
    intros Hw Hk. destruct (lt_at l k ltac:(lia)) as [b Hb]. destruct (lt_at l (k + 4) ltac:(lia)) as [s Hs]. destruct (lt_at l (k + 5) ltac:(lia)) as [u Hu].
    set (win := firstn (N.to_nat w) (skipn (N.to_nat k) l)). set (ts := map (fun s => tm s - tm b)%num win).
    assert (Q : forall g : smp f64 -> f64, exists p, fit ts (map g win) 2 = Some p).
    { intros g. destruct (fit ts (map g win) 2) as [p|] eqn:E; [eauto|]. apply Fits in E; [contradiction|]. unfold ts. now rewrite !map_length. }
    destruct (Q px) as [cx Ex]. destruct (Q py) as [cy Ey]. destruct (Q pz) as [cz Ez]. exists b, s, u, cx, cy, cz.
    split; [exact Hb|]. split; [exact Hs|]. split; [exact Hu|]. cbv zeta. fold win. fold ts. split; [exact Ex|]. split; [exact Ey|]. split; [exact Ez|]. split.
    - apply vget_val. rewrite nth_error_map. assert (H0 := window_at l w k 0 b Hk ltac:(lia)). rewrite N.add_0_r in H0. specialize (H0 Hb). unfold at_ in H0. fold win in H0. now rewrite H0.
    - apply vget_val. unfold ts. rewrite nth_error_map. assert (H5 := window_at l w k 5 u Hk ltac:(lia) Hu). unfold at_ in H5. fold win in H5. now rewrite H5.
  Qed.
  Definition fitted_one (w : N) (l : list (smp f64)) (k : N) (s' : smp f64) : Prop := exists b s u cx cy cz,
      at_ l k b /\ at_ l (k + 4) s /\ at_ l (k + 5) u /\ tm s' = tm s /\ s_pos s' = s_pos s /\
      let win := firstn (N.to_nat w) (skipn (N.to_nat k) l) in
      let ts := map (fun s => tm s - tm b)%num win in
      fit ts (map px win) 2 = Some cx /\ fit ts (map py win) 2 = Some cy /\ fit ts (map pz win) 2 = Some cz /\
      s_vel s' = (slope powf cx (tm u - tm b)%num, slope powf cy (tm u - tm b)%num, slope powf cz (tm u - tm b)%num).
  Lemma sequential_row rw l k : place_first rw -> (k + 9 <= vlen l)%N -> exists s', velocity_row fit powf (map rw l) 4 2 (4 + k) = Val (smp_row s') /\ fitted_one 9 l k s'.
  Proof.
    intros Rw Hk. destruct (window_fits l 9 k ltac:(lia) Hk) as [b [s [u [cx [cy [cz [Hb [Hs [Hu W]]]]]]]]]. cbv zeta in W. destruct W as [Ex [Ey [Ez [V0 V5]]]].
    set (win := firstn (N.to_nat 9) (skipn (N.to_nat k) l)) in *. set (ts := map (fun s => tm s - tm b)%num win) in *.
    exists (tm s, s_pos s, (slope powf cx (tm u - tm b)%num, slope powf cy (tm u - tm b)%num, slope powf cz (tm u - tm b)%num)). split.
    - unfold velocity_row. change (2 * 4 + 1)%N with 9%N. replace (4 + k - 4)%N with k by lia. rewrite skipn_map, firstn_map. fold win.
      destruct (columns_first rw win Rw) as [-> [-> [-> ->]]]. cbn [bind]. rewrite V0. cbn [bind]. rewrite map_map. fold ts. cbv zeta. rewrite Ex, Ey, Ez. cbn [unwrap bind].
      change (4 + 1)%N with 5%N. rewrite V5. rewrite !derivative_slope. cbn [bind]. replace (4 + k)%N with (k + 4)%N by lia. rewrite (row4_first rw l (k + 4) s Rw Hs).
      destruct s as [[t [[x y] z]] v]. reflexivity.
    - exists b, s, u, cx, cy, cz. repeat (split; [first [assumption | reflexivity]|]). cbv zeta. fold win. fold ts. repeat (split; [assumption|]). reflexivity.
  Qed.
  Lemma range_shift n : forall a c, range (c + a) (c + a + n) = map (fun k => (c + k)%N) (range a (a + n)).
  Proof.
    induction n as [|n IH] using N.peano_ind; intros a c; [rewrite !range_empty by lia; reflexivity|].
    rewrite (range_cons (c + a)) by lia. rewrite (range_cons a) by lia. cbn [map]. f_equal. specialize (IH (a + 1)%N c).
    replace (c + a + 1)%N with (c + (a + 1))%N by lia. replace (c + a + N.succ n)%N with (c + (a + 1) + n)%N by lia. replace (a + N.succ n)%N with (a + 1 + n)%N by lia. exact IH.
  Qed.
  Lemma mmap_map {A B C} (g : A -> B) (h : B -> res C) l : mmap h (map g l) = mmap (fun a => h (g a)) l.
  Proof. induction l as [|a l IH]; [reflexivity|]. cbn [map mmap]. now rewrite IH. Qed.
  Lemma rows_fitted w l l' : Forall2 (fitted_one w l) (range 0 (vlen l - (w - 1))) l' -> fitted fit powf w l l'.
  Proof.
    intros H. split.
    - unfold vlen at 1. rewrite <- (Forall2_length _ _ _ H), range_length. lia.
    - intros k s' Hk. destruct (Forall2_at _ _ _ H _ _ Hk) as [i [Hi Fi]].
      assert (Ei : i = k). { assert (Li : (N.to_nat k < length (range 0 (vlen l - (w - 1))))%nat) by (apply (proj1 (nth_error_Some _ _)); congruence). rewrite range_length in Li. rewrite range_nth_error in Hi by lia. injection Hi as <-. lia. }
      subst i. exact Fi.
  Qed.
  Lemma mmap_rows {A} (f : A -> res (list f64)) (P : A -> smp f64 -> Prop) l : (forall a, In a l -> exists s, f a = Val (smp_row s) /\ P a s) ->
    exists l', mmap f l = Val (map smp_row l') /\ Forall2 P l l'.
  Proof.
    induction l as [|a l IH]; intros H; [exists []; split; [reflexivity | constructor]|]. destruct (H a (or_introl eq_refl)) as [s [E Ps]].
    destruct IH as [l' [E' P']]; [intros; apply H; now right|]. exists (s :: l'). split; [|now constructor]. cbn [mmap map]. rewrite E. cbn [bind]. rewrite E'. reflexivity.
  Qed.
  Lemma sequential rw l : place_first rw -> (8 <= vlen l)%N -> exists l', velocity_polynom fit powf (map rw l) 9 2 = Val (map smp_row l') /\ fitted fit powf 9 l l'.
  Proof.
    intros Rw L. unfold velocity_polynom. change (N.even 9) with false. change ((9 - 1) / 2)%N with 4%N. cbv iota zeta. rewrite vlen_map.
    destruct (N.ltb_spec (vlen l) (9 - 1)); [lia|].
    replace (range 4 (vlen l - 4)) with (map (fun k => (4 + k)%N) (range 0 (vlen l - 8))).
    2: { assert (X := range_shift (vlen l - 8) 0 4). rewrite N.add_0_l in X. rewrite <- X. f_equal; lia. }
    rewrite mmap_map. destruct (mmap_rows (fun k => velocity_row fit powf (map rw l) 4 2 (4 + k)) (fitted_one 9 l) (range 0 (vlen l - 8))) as [l' [E F]].
    { intros k Hk. apply in_range in Hk. apply sequential_row; [exact Rw | lia]. }
    exists l'. split; [exact E|]. apply rows_fitted. exact F.
  Qed.
  Lemma parallel l : (7 <= vlen l)%N -> exists l', velocity_parallel fit powf (map smp_row l) 9 2 = Val (map smp_row l') /\ fitted fit powf 7 l l'.
  Proof.
    intros L. unfold velocity_parallel. change (N.even 9) with false. change ((9 - 1) / 2)%N with 4%N. cbv iota zeta. rewrite vlen_map, mmap_map.
    match goal with |- context [mmap ?f ?r] => destruct (mmap_rows f (fitted_one 7 l) r) as [l' [E F]] end.
    { intros k Hk. apply in_range in Hk. destruct (window_fits l 7 k ltac:(lia) ltac:(lia)) as [b [s [u [cx [cy [cz [Hb [Hs [Hu W]]]]]]]]]. cbv zeta in W. destruct W as [Ex [Ey [Ez [V0 V5]]]].
      set (win := firstn (N.to_nat 7) (skipn (N.to_nat k) l)) in *. set (ts := map (fun s => tm s - tm b)%num win) in *.
      exists (tm s, s_pos s, (slope powf cx (tm u - tm b)%num, slope powf cy (tm u - tm b)%num, slope powf cz (tm u - tm b)%num)). split.
      - change 7%nat with (N.to_nat 7). rewrite skipn_map, firstn_map. fold win.
        assert (H0 : at_ win 0 b) by (apply window_at; [lia | lia | now rewrite N.add_0_r]).
        assert (C6 : exists x, cell (map smp_row win) 0 6 = Val x).
        { exists (snd (s_vel b)). apply cell_val. exists (smp_row b). unfold at_ in *. rewrite nth_error_map, H0. split; [reflexivity|]. destruct b as [[t [[x y] z]] [[a b] c]]. reflexivity. }
        destruct C6 as [x6 ->]. cbn [bind]. destruct (columns_smp win) as [-> [-> [-> ->]]]. cbn [bind]. rewrite V0. cbn [bind]. rewrite map_map. fold ts. rewrite Ex, Ey, Ez. cbn [unwrap bind].
        change (4 + 1)%N with 5%N. rewrite V5. rewrite !derivative_slope. cbn [bind]. rewrite (row4_smp win 4 s) by (apply window_at; [lia | lia | exact Hs]).
        destruct s as [[t [[x y] z]] v]. reflexivity.
      - exists b, s, u, cx, cy, cz. repeat (split; [first [assumption | reflexivity]|]). cbv zeta. fold win. fold ts. repeat (split; [assumption|]). reflexivity. }
    assert (FF : fitted fit powf 7 l l') by (apply rows_fitted; exact F). exists l'. split; [|exact FF].
    rewrite E. cbn [bind]. rewrite vlen_map. destruct FF as [Ll _]. destruct (N.eqb_spec (vlen l') 0); [lia | reflexivity].
  Qed.
End Fit.

(** ** Reading lines without velocities *)
Lemma pick_place columns r s : reads_place columns r s -> vlen columns = 4%N /\ pick_row 7 columns r = Val (smp_row s).
Proof.
  intros [H U]. destruct s as [[t [[x y] z]] v]. cbn [s_vel snd] in U. unfold s_vel in U. cbn [snd] in U. subst v.
  assert (L : vlen columns = 4%N) by (apply Forall2_length in H; unfold vlen; rewrite H; reflexivity).
  split; [exact L|]. unfold pick_row. rewrite L. rewrite (mmap_Forall2 _ _ [t; x; y; z]); [reflexivity|].
  eapply Forall2_impl; [|exact H]. intros c w H'. now apply col_entry_pick.
Qed.
Lemma pick_place_id columns r x : reads_place_id columns r x -> vlen columns = 5%N /\ pick_row 8 columns r = Val (row8 x).
Proof.
  intros [H U]. destruct x as [i [[t [[x y] z]] v]]. unfold s_vel in U. cbn [snd] in U. subst v.
  assert (L : vlen columns = 5%N) by (apply Forall2_length in H; unfold vlen; rewrite H; reflexivity).
  split; [exact L|]. unfold pick_row. rewrite L. rewrite (mmap_Forall2 _ _ [t; i; x; y; z]); [reflexivity|].
  eapply Forall2_impl; [|exact H]. intros c w H'. now apply col_entry_pick.
Qed.
Lemma picks {A} (R : list f64 -> A -> Prop) (row : A -> list f64) n w columns raw l :
  (forall r s, R r s -> vlen columns = n /\ pick_row w columns r = Val (row s)) -> Forall2 R raw l -> raw <> [] ->
  vlen columns = n /\ pick w columns raw = Val (map row l).
Proof.
  intros H F Ne. split.
  - inversion F as [|r x ? ? Hr]; subst; [congruence|]. now apply H in Hr.
  - rewrite pick_rows by assumption. apply mmap_Forall2. clear Ne. induction F as [|r s raw l Hr _ IH]; [constructor|]. cbn [map]. constructor; [now apply H in Hr | exact IH].
Qed.
Lemma fitted_clean fit powf w l l' : fitted fit powf w l l' -> clean l -> clean l'.
Proof.
  intros [_ H] C. apply Forall_forall. intros s' Hs. apply In_nth_error in Hs as [k Hk]. destruct (H (N.of_nat k) s') as [b [s [u [cx [cy [cz [_ [Hs [_ [-> _]]]]]]]]]]; [unfold at_; now rewrite Nat2N.id|].
  unfold clean in C. rewrite Forall_forall in C. apply C. eapply nth_error_In, Hs.
Qed.
Lemma sorted_at {A} (R : A -> A -> Prop) l : StronglySorted R l <-> forall i j a b, (i < j)%nat -> nth_error l i = Some a -> nth_error l j = Some b -> R a b.
Proof.
  split.
  - induction 1 as [|x l S IH F]; intros i j a b Hij Hi Hj; [destruct i; discriminate|]. destruct j as [|j]; [lia|]. destruct i as [|i].
    + injection Hi as ->. rewrite Forall_forall in F. apply F. eapply nth_error_In, Hj.
    + apply (IH i j a b); [lia | exact Hi | exact Hj].
  - induction l as [|x l IH]; intros H; constructor.
    + apply IH. intros i j a b Hij Hi Hj. apply (H (S i) (S j)); [lia | exact Hi | exact Hj].
    + apply Forall_forall. intros b Hb. apply In_nth_error in Hb as [j Hj]. apply (H 0%nat (S j)); [lia | reflexivity | exact Hj].
Qed.
Lemma fitted_sorted fit powf w l l' : fitted fit powf w l l' -> s_sorted l -> s_sorted l'.
Proof.
  intros [_ H] S. apply sorted_at. intros i j a b Hij Hi Hj.
  destruct (H (N.of_nat i) a) as [? [s [? [? [? [? [_ [Hs [_ [Ea _]]]]]]]]]]; [unfold at_; now rewrite Nat2N.id|].
  destruct (H (N.of_nat j) b) as [? [s2 [? [? [? [? [_ [Hs2 [_ [Eb _]]]]]]]]]]; [unfold at_; now rewrite Nat2N.id|].
  rewrite Ea, Eb. apply (proj1 (sorted_at _ l) S (N.to_nat (N.of_nat i + 4)) (N.to_nat (N.of_nat j + 4))); [lia | exact Hs | exact Hs2].
Qed.
Lemma climbs_sorted s p : clean (s :: p) -> climbs (tm s) p -> s_sorted (s :: p).
Proof.
  intros Cp Cl. inversion Cp as [|? ? Ns Cp']; subst. assert (G : forall old, is_nan (old : f64) = false -> climbs old p -> s_sorted p /\ Forall (fun b => Bleb old (tm b) = true) p).
  { clear -Cp'. induction Cp' as [|s p Ns _ IH]; intros old No Cl; [split; constructor|]. destruct Cl as [H1 H2]. destruct (IH (tm s) Ns H2) as [S1 S2].
    assert (Le : Bleb old (tm s) = true) by (rewrite Bltb_negb in H1 by assumption; now apply negb_false_iff). split; [constructor; assumption|]. constructor; [exact Le|].
    eapply Forall_impl; [|exact S2]. intros b Hb. cbn beta in *. eapply Bleb_trans; eassumption. }
  destruct (G (tm s) Ns Cl) as [S1 S2]. constructor; assumption.
Qed.
(** Writing particles: all or nothing. *)
Lemma write_all radius ids ty parts : Forall clean parts -> Forall s_sorted parts ->
  (Forall acceptable parts -> exists pf h, write_particles radius ids ty (map (map smp_row) parts) = Val (pf, h) /\ holds_all pf h radius ids parts) /\
  (~ Forall acceptable parts -> write_particles radius ids ty (map (map smp_row) parts) = Panic).
Proof.
  intros Cs Ss. assert (W : Forall acceptable parts <-> Forall writable parts).
  { clear -Cs Ss. induction Cs as [|l parts Hl _ IH]; [split; constructor|]. inversion Ss; subst. specialize (IH H2). split; intros H; inversion H; subst; constructor; try tauto; now apply acceptable_writable. }
  rewrite W. split.
  - intros Wp. destruct (multi_holds radius ids ty parts Cs Wp) as [pf [h [H1 [H2 _]]]]. eauto.
  - intros Nw. apply write_bad. apply Exists_Forall_neg; [|exact Nw]. intros x. unfold writable. destruct x as [|s x]; [right; intros [[s [l' [Hx _]]] _]; discriminate|].
    destruct (nisnan (snd (s_vel s))) eqn:Ev; [right; intros [[s' [l' [Hx Hv]]] _]; inversion Hx; subst; congruence|].
    destruct (patient n0 0 (s :: x)); [left; split; [eauto | reflexivity] | right; intros [_ ?]; discriminate].
Qed.
Lemma mmap_split {A B} (f : A -> res B) l : (exists l', mmap f l = Val l' /\ Forall2 (fun a b => f a = Val b) l l') \/ (mmap f l = Panic /\ exists a, In a l /\ f a = Panic).
Proof.
  induction l as [|a l [[l' [E F]]|[E [x [Hx Fx]]]]]; [left; exists []; split; [reflexivity | constructor]| |].
  - cbn [mmap]. destruct (f a) as [b|] eqn:Ea.
    + left. exists (b :: l'). cbn [bind]. rewrite E. split; [reflexivity | now constructor].
    + right. split; [reflexivity|]. exists a. split; [now left | exact Ea].
  - right. cbn [mmap]. rewrite E. split; [destruct (f a); reflexivity|]. exists x. split; [now right | exact Fx].
Qed.
Lemma mmap_panic {A B} (f : A -> res B) l a : In a l -> f a = Panic -> mmap f l = Panic.
Proof. intros H E. induction l as [|x l IH]; [destruct H|]. cbn [mmap]. destruct H as [->|H]; [now rewrite E|]. rewrite (IH H). destruct (f x); reflexivity. Qed.

(** ** The longest duration and number of lines *)
Definition end_of (p : list (smp f64)) : f64 := last (map tm p) zero.
Definition later_of (a b : f64) : f64 := if (b <? a)%num then a else b.
Definition more_of (a b : N) : N := if (b <? a)%N then a else b.

Section Scan.
  Lemma chain_step_traj l i starts durs steps old : trajectory l -> (0 < i)%N -> (forall s, at_ l 0 s -> Bltb (tm s) old = true) ->
    fold_left chain_step (combine (range i (i + vlen l)) (map tm l)) (starts, durs, steps, old) =
    (starts ++ [i], durs ++ [old], steps ++ [(i - last starts 0)%N], end_of l).
  Proof.
    intros [s [l' [El Cl]]] Hi Hh. rewrite El. rewrite range_cons by (rewrite vlen_cons; lia). cbn [map combine fold_left chain_step].
    change (nltb (tm s) old) with (Bltb (tm s) old). rewrite (Hh s) by (rewrite El; reflexivity). replace (0 <? i)%N with true by lia. cbn [andb].
    replace (i + vlen (s :: l'))%N with (i + 1 + vlen l')%N by (rewrite vlen_cons; lia). rewrite (climb_fold (fun _ _ _ => None) (fun x _ => x)) by exact Cl. f_equal. unfold end_of. apply last_cons.
  Qed.
  Lemma chained_tail l ls : chained (l :: ls) -> trajectory l /\ chained ls /\ forall l2 s, hd_error ls = Some l2 -> at_ l2 0 s -> Bltb (tm s) (end_of l) = true.
  Proof.
    intros Ch. cbn [chained] in Ch. destruct ls as [|l2 ls].
    - split; [exact Ch|]. split; [exact I|]. intros l3 s H. discriminate.
    - destruct Ch as [T [H C]]. split; [exact T|]. split; [exact C|]. intros l3 s E Hs. injection E as <-. now apply H.
  Qed.
  Lemma scan_rest ls lst : forall i starts durs steps old, chained (ls ++ [lst]) -> (0 < i)%N ->
    (forall l s, hd_error (ls ++ [lst]) = Some l -> at_ l 0 s -> Bltb (tm s) old = true) ->
    fold_left chain_step (combine (range i (i + vlen (concat (ls ++ [lst])))) (map tm (concat (ls ++ [lst])))) (starts, durs, steps, old) =
    (starts ++ offsets i (ls ++ [lst]), durs ++ old :: map end_of ls, steps ++ (i - last starts 0)%N :: map vlen ls, end_of lst).
  Proof.
    induction ls as [|l ls IH]; intros i starts durs steps old Ch Hi Hh; cbn [app] in *.
    - destruct (chained_tail _ _ Ch) as [T _]. cbn [concat]. rewrite app_nil_r. rewrite chain_step_traj; [reflexivity | exact T | exact Hi|]. intros s Hs. now apply (Hh lst s).
    - destruct (chained_tail _ _ Ch) as [T [C H]]. cbn [concat]. rewrite map_app.
      replace (vlen (l ++ concat (ls ++ [lst]))) with (vlen (map tm l ++ map tm (concat (ls ++ [lst])))) by (rewrite <- map_app; apply vlen_map).
      rewrite (range_app_combine), fold_left_app, !vlen_map.
      assert (St := chain_step_traj l i starts durs steps old T Hi (fun s Hs => Hh l s eq_refl Hs)).
      match goal with |- fold_left _ _ ?X = _ => replace X with (starts ++ [i], durs ++ [old], steps ++ [(i - last starts 0)%N], end_of l) by (symmetry; exact St) end.
      assert (Lp : (0 < i + vlen l)%N) by lia.
      assert (X := IH (i + vlen l)%N (starts ++ [i]) (durs ++ [old]) (steps ++ [(i - last starts 0)%N]) (end_of l) C Lp H).
      etransitivity; [exact X|]. rewrite last_last. replace (i + vlen l - i)%N with (vlen l) by lia. cbn [offsets map]. rewrite <- !app_assoc. reflexivity.
  Qed.
  Lemma scan_all ls lst : chained (ls ++ [lst]) ->
    chain_scan (map tm (concat (ls ++ [lst]))) = (offsets 0 (ls ++ [lst]) ++ [vlen (concat (ls ++ [lst]))], fold_left later_of (map end_of ls) zero, fold_left more_of (map vlen ls) 0%N).
  Proof.
    intros Ch. unfold chain_scan, enumerate. rewrite !vlen_map. destruct ls as [|l ls]; cbn [app] in *.
    - destruct (chained_tail _ _ Ch) as [T _]. destruct T as [s [l' [El Cl]]]. cbn [concat]. rewrite app_nil_r.
      assert (St : fold_left chain_step (combine (range 0 (vlen lst)) (map tm lst)) ([0%N], [], [], zero) = ([0%N], [], [], end_of lst)).
      { rewrite El. rewrite range_cons by (rewrite vlen_cons; lia). cbn [map combine fold_left chain_step]. change (0 <? 0)%N with false. cbn [andb].
        replace (vlen (s :: l'))%N with (0 + 1 + vlen l')%N by (rewrite vlen_cons; lia). rewrite (climb_fold (fun _ _ _ => None) (fun x _ => x)) by exact Cl. f_equal. apply last_cons. }
      match goal with |- context [fold_left ?f ?a ([0%N], ?d, ?s, ?z)] => replace (fold_left f a ([0%N], d, s, z)) with ([0%N], @nil f64, @nil N, end_of lst) by (symmetry; exact St) end. reflexivity.
    - destruct (chained_tail _ _ Ch) as [T [C H]].
      assert (G : fold_left chain_step (combine (range 0 (vlen (concat (l :: ls ++ [lst])))) (map tm (concat (l :: ls ++ [lst])))) ([0%N], [], [], zero) =
                  (0%N :: offsets (vlen l) (ls ++ [lst]), map end_of (l :: ls), map vlen (l :: ls), end_of lst)).
      { destruct T as [s [l' [El Cl]]]. cbn [concat]. rewrite map_app.
        replace (vlen (l ++ concat (ls ++ [lst]))) with (vlen (map tm l ++ map tm (concat (ls ++ [lst])))) by (rewrite <- map_app; apply vlen_map).
        assert (X := range_app_combine 0 (map tm l) (map tm (concat (ls ++ [lst])))). rewrite !N.add_0_l in X. rewrite X. clear X. rewrite fold_left_app, !vlen_map.
        assert (St : fold_left chain_step (combine (range 0 (vlen l)) (map tm l)) ([0%N], [], [], zero) = ([0%N], [], [], end_of l)).
        { rewrite El. rewrite range_cons by (rewrite vlen_cons; lia). cbn [map combine fold_left chain_step]. change (0 <? 0)%N with false. cbn [andb].
          replace (vlen (s :: l'))%N with (0 + 1 + vlen l')%N by (rewrite vlen_cons; lia). rewrite (climb_fold (fun _ _ _ => None) (fun x _ => x)) by exact Cl. f_equal. apply last_cons. }
        match goal with |- fold_left _ _ ?Y = _ => replace Y with ([0%N], @nil f64, @nil N, end_of l) by (symmetry; exact St) end.
        assert (Lp : (0 < vlen l)%N) by (rewrite El, vlen_cons; lia).
        etransitivity; [exact (scan_rest ls lst (vlen l) [0%N] [] [] (end_of l) C Lp H)|]. cbn [last app map]. now rewrite N.sub_0_r. }
      match goal with |- context [fold_left ?f ?a ([0%N], ?d, ?s, ?z)] => replace (fold_left f a ([0%N], d, s, z)) with (0%N :: offsets (vlen l) (ls ++ [lst]), map end_of (l :: ls), map vlen (l :: ls), end_of lst) by (symmetry; exact G) end.
      reflexivity.
  Qed.
  Lemma more_spec l : forall a, (a <= fold_left more_of l a)%N /\ (forall x, In x l -> (x <= fold_left more_of l a)%N) /\ (fold_left more_of l a = a \/ In (fold_left more_of l a) l).
  Proof.
    induction l as [|x l IH]; intros a; cbn [fold_left]; [split; [lia | split; [intros ? [] | now left]]|].
    destruct (IH (more_of a x)) as [H1 [H2 H3]]. assert (M : (a <= more_of a x)%N /\ (x <= more_of a x)%N /\ (more_of a x = a \/ more_of a x = x)) by (unfold more_of; destruct (N.ltb_spec x a); lia).
    split; [lia|]. split.
    - intros y [<-|Hy]; [lia | now apply H2].
    - destruct H3 as [H3|H3]; [|right; now right]. rewrite H3. destruct M as [_ [_ [->| ->]]]; [now left | right; now left].
  Qed.
  Lemma later_spec l : Forall (fun x => is_nan x = false) l -> forall a, is_nan a = false ->
    is_nan (fold_left later_of l a) = false /\ Bleb a (fold_left later_of l a) = true /\ (forall x, In x l -> Bleb x (fold_left later_of l a) = true) /\ (fold_left later_of l a = a \/ In (fold_left later_of l a) l).
  Proof.
    induction 1 as [|x l Nx _ IH]; intros a Na; cbn [fold_left].
    - split; [exact Na|]. split; [now apply Bleb_refl|]. split; [intros ? [] | now left].
    - assert (M : is_nan (later_of a x) = false /\ Bleb a (later_of a x) = true /\ Bleb x (later_of a x) = true /\ (later_of a x = a \/ later_of a x = x)).
      { unfold later_of. change (nltb x a) with (Bltb x a). rewrite Bltb_negb by assumption. destruct (Bleb a x) eqn:E; cbn [negb].
        - repeat split; [assumption | exact E | now apply Bleb_refl | now right].
        - repeat split; [assumption | now apply Bleb_refl | | now left]. apply (Bleb_total a x); assumption. }
      destruct M as [M1 [M2 [M3 M4]]]. destruct (IH _ M1) as [H1 [H2 [H3 H4]]]. split; [exact H1|]. split; [eapply Bleb_trans; eassumption|]. split.
      + intros y [<-|Hy]; [eapply Bleb_trans; eassumption | now apply H3].
      + destruct H4 as [H4|H4]; [|right; now right]. rewrite H4. destruct M4 as [->| ->]; [now left | right; now left].
  Qed.
End Scan.

Section Chain.
  Context (fit : list f64 -> list f64 -> N -> option (list f64)) (powf : f64 -> f64 -> f64).

  Lemma chain_bind {A B} (proc : list (smp f64) -> res A) ls (K : list A -> res B) :
    (let! ps := mmap (fun p => if long_enough p then let! d := proc p in Val [d] else Val []) ls in K (concat ps)) = let! ds := mmap proc (filter long_enough ls) in K ds.
  Proof.
    revert K. induction ls as [|p ls IH]; intros K; [reflexivity|]. cbn [mmap filter]. destruct (long_enough p) eqn:E.
    - cbn [mmap]. destruct (proc p) as [d|]; [|reflexivity]. cbn [bind]. specialize (IH (fun ds => K (d :: ds))). cbn beta in IH.
      destruct (mmap (fun p => if long_enough p then let! d := proc p in Val [d] else Val []) ls); cbn [bind concat app] in *; rewrite IH; destruct (mmap proc (filter long_enough ls)); reflexivity.
    - cbn [bind]. specialize (IH K). destruct (mmap (fun p => if long_enough p then let! d := proc p in Val [d] else Val []) ls); cbn [bind concat app] in *; exact IH.
  Qed.
  Definition chain_proc (columns : list Z) (interp : bool) (dur : f64) (n : N) (p : list (smp f64)) : res (table f64) :=
    let! d := (if interp then interpolate (map smp_row p) dur n else Val (map smp_row p)) in
    if (5 <=? vlen columns)%N then Panic else if (vlen d <? 200000)%N then velocity_polynom fit powf d 9 2 else velocity_parallel fit powf d 9 2.
  Lemma chain_eq raw columns interp radius l ls last : (vlen columns <> 0)%N -> pick 7 columns raw = Val (map smp_row l) -> l = concat (ls ++ [last]) -> chained (ls ++ [last]) ->
    csv_multi_chain fit powf raw columns true interp radius = let! ds := mmap (chain_proc columns interp (fold_left later_of (map end_of ls) zero) (fold_left more_of (map vlen ls) 0%N)) (filter long_enough ls) in write_particles radius (fun _ => n1) None ds.
  Proof.
    intros L0 Pk El Ch. unfold csv_multi_chain. destruct (N.eqb_spec (vlen columns) 0); [contradiction|]. rewrite Pk. cbn [bind].
    destruct (columns_smp l) as [Ec _]. rewrite Ec. cbn [bind].
    assert (Es := scan_all ls last Ch). rewrite <- El in Es. rewrite Es. set (dur := fold_left later_of (map end_of ls) zero). set (steps := fold_left more_of (map vlen ls) 0%N).
    set (starts := offsets 0 (ls ++ [last]) ++ [vlen l]).
    assert (Lst : (vlen starts - 2 = vlen ls)%N) by (unfold starts, vlen; rewrite app_length, offsets_len, app_length; cbn [length]; lia). rewrite Lst.
    rewrite <- chain_bind. f_equal.
    match goal with |- mmap ?X _ = _ => set (step := X) end.
    assert (G : forall a b, ls = a ++ b -> mmap step
          (range (vlen a) (vlen a + vlen b)) = mmap (fun p => if long_enough p then let! d := chain_proc columns interp dur steps p in Val [d] else Val []) b).
    { intros a b. revert a. induction b as [|p b IHb]; intros a Eab; [change (vlen (@nil (list (smp f64)))) with 0%N; rewrite range_empty by lia; reflexivity|].
      rewrite range_cons by (rewrite vlen_cons; lia). cbn [mmap].
      specialize (IHb (a ++ [p])). rewrite <- app_assoc in IHb. specialize (IHb Eab).
      replace (vlen (a ++ [p])) with (vlen a + 1)%N in IHb by (unfold vlen; rewrite app_length; cbn [length]; lia).
      replace (vlen a + vlen (p :: b))%N with (vlen a + 1 + vlen b)%N by (rewrite vlen_cons; lia). rewrite IHb.
      enough (Es1 : step (vlen a) = (if long_enough p then let! d := chain_proc columns interp dur steps p in Val [d] else Val [])) by now rewrite Es1.
      assert (Hn : nth_error ls (N.to_nat (vlen a)) = Some p) by (rewrite Eab; unfold vlen; rewrite Nat2N.id, nth_error_app2, Nat.sub_diag by lia; reflexivity).
      destruct (offsets_nth ls last 0 _ _ Hn) as [o [H1 [H2 [_ H4]]]]. rewrite N.add_0_l, <- El in H1, H2. rewrite N.sub_0_r, <- El in H4.
      assert (V1 : vget starts (vlen a) = Val o) by (apply vget_val; exact H1). assert (V2 : vget starts (vlen a + 1) = Val (o + vlen p)%N) by (apply vget_val; replace (N.to_nat (vlen a + 1)) with (S (N.to_nat (vlen a))) by lia; exact H2).
      unfold step. rewrite V1, V2. cbn [bind]. unfold long_enough. replace (o + vlen p - o)%N with (vlen p) by lia. cbv zeta.
      destruct (N.leb_spec 10 (vlen p)) as [Lp|Lp]; [replace (vlen p <? 10)%N with false by lia | replace (vlen p <? 10)%N with true by lia; reflexivity].
      cbn [bind]. unfold chain_proc. replace (firstn (N.to_nat (vlen p)) (skipn (N.to_nat o) (map smp_row l))) with (map smp_row p) by (symmetry; unfold vlen at 1; rewrite Nat2N.id; apply H4). destruct interp; [destruct (interpolate (map smp_row p) dur steps) as [d|]; reflexivity | reflexivity]. }
    specialize (G [] ls eq_refl). rewrite N.add_0_l in G. exact G.
  Qed.

  (** ** C107.  A chained file without velocities: every trajectory of at least ten lines that is followed by another
      one becomes a particle that has the velocities fitted to windows of nine lines (seven from 200000 lines on). *)
  Definition window_of (p : list (smp f64)) : N := if (vlen p <? 200000)%N then 9%N else 7%N.
  Theorem c107_chain raw columns radius l ls last : fits_all fit ->
    Forall2 (reads_place columns) raw l -> Forall (fun s => is_nan (tm s) = false) l ->
    l = concat (ls ++ [last]) -> chained (ls ++ [last]) ->
    exists parts, Forall2 (fun p => fitted fit powf (window_of p) p) (filter long_enough ls) parts /\
      (Forall acceptable parts -> exists pf h, csv_multi_chain fit powf raw columns true false radius = Val (pf, h) /\ holds_all pf h radius (fun _ => n1) parts) /\
      (~ Forall acceptable parts -> csv_multi_chain fit powf raw columns true false radius = Panic).
  Proof.
    intros Fits R C El Ch.
    assert (Nl : raw <> []). { assert (Tr : trajectory last). { clear -Ch. induction ls as [|l ls IH]; [exact Ch|]. apply IH. cbn [app chained] in Ch. destruct (ls ++ [last]) eqn:E; [destruct ls; discriminate | apply Ch]. }
      destruct Tr as [s [l' [-> _]]]. intros ->. assert (L0 : l = []) by (inversion R; reflexivity). rewrite El, concat_app in L0. cbn in L0. destruct (concat ls); discriminate. }
    destruct (picks _ _ 4%N 7%N columns raw l (pick_place columns) R Nl) as [L4 Pk]. rewrite (chain_eq raw columns false radius l ls last ltac:(lia) Pk El Ch). set (dur := fold_left later_of (map end_of ls) zero). set (steps := fold_left more_of (map vlen ls) 0%N).
    assert (Tp : Forall trajectory ls). { clear -Ch. induction ls as [|l ls IH]; [constructor|]. cbn [app chained] in Ch. destruct (ls ++ [last]) eqn:E; [destruct ls; discriminate|]. constructor; [apply Ch | apply IH, Ch]. }
    assert (Cl : Forall clean ls). { apply Forall_forall. intros p Hp. apply Forall_forall. intros s Hs. rewrite Forall_forall in C. apply C. rewrite El. apply in_concat. exists p. split; [apply in_or_app; now left | exact Hs]. }
    assert (Pr : exists parts, mmap (chain_proc columns false dur steps) (filter long_enough ls) = Val (map (map smp_row) parts) /\ Forall2 (fun p => fitted fit powf (window_of p) p) (filter long_enough ls) parts).
    { assert (Lg : Forall (fun p => (10 <= vlen p)%N) (filter long_enough ls)). { apply Forall_forall. intros p Hp. apply filter_In in Hp as [_ Hp]. unfold long_enough in Hp. lia. }
      clear -Fits L4 Lg. induction Lg as [|p ps Lp _ [parts [E F]]]; [exists []; split; [reflexivity | constructor]|].
      assert (One : exists l', chain_proc columns false dur steps p = Val (map smp_row l') /\ fitted fit powf (window_of p) p l').
      { unfold chain_proc, window_of. cbn [bind]. rewrite L4, vlen_map. change (5 <=? 4)%N with false. cbv iota. destruct (vlen p <? 200000)%N; [apply (sequential fit powf Fits smp_row) | apply parallel]; (exact smp_first || assumption || lia). }
      destruct One as [l' [E1 F1]]. exists (l' :: parts). split; [|now constructor]. cbn [mmap map]. rewrite E1. cbn [bind]. rewrite E. reflexivity. }
    destruct Pr as [parts [E F]]. rewrite E. cbn [bind]. exists parts. split; [exact F|]. apply write_all.
    - assert (Cf : Forall clean (filter long_enough ls)) by (apply Forall_forall; intros p Hp; apply filter_In in Hp as [Hp _]; rewrite Forall_forall in Cl; now apply Cl).
      clear -F Cf. induction F as [|p q ps qs H _ IH]; [constructor|]. inversion Cf; subst. constructor; [eapply fitted_clean; eassumption | now apply IH].
    - assert (Cf : Forall s_sorted (filter long_enough ls)). { apply Forall_forall. intros p Hp. apply filter_In in Hp as [Hp _]. rewrite Forall_forall in Tp, Cl. specialize (Cl p Hp). destruct (Tp p Hp) as [s [p' [-> Hc]]]. now apply climbs_sorted. }
      clear -F Cf. induction F as [|p q ps qs H _ IH]; [constructor|]. inversion Cf; subst. constructor; [eapply fitted_sorted; eassumption | now apply IH].
  Qed.
End Chain.

Section IdLine.
  Context (fit : list f64 -> list f64 -> N -> option (list f64)) (powf : f64 -> f64 -> f64).

  (** The table of each id, ids ascending, after sorting by time and removing the id column. *)
  Lemma id_tables columns raw l : pick 8 columns raw = Val (map row8 l) -> l <> [] -> Forall (fun x => is_nan (tm (snd x)) = false) l ->
    (vlen columns = 5 \/ vlen columns = 8)%N ->
    exists ids groups maxt steps, StronglySorted N.lt ids /\ (forall i, In i ids <-> exists x, In x l /\ nusize (fst x) = i) /\
      Forall2 (fun i g => in_time_order (samples_of i l) g /\ clean g) ids groups /\
      (highest maxt (map (fun x => tm (snd x)) l) /\ (forall g, In g groups -> (1 < vlen g -> vlen g <= steps)%N) /\ (steps = 0%N \/ exists g, In g groups /\ (1 < vlen g)%N /\ vlen g = steps)) /\
      forall vel interp radius, csv_multi_idline fit powf raw columns vel interp radius =
        let! parts := mmap (fun g => let! d := (if interp : bool then interpolate (map smp_row g) maxt steps else Val (map smp_row g)) in
            if vel : bool then (if (5 <? vlen columns)%N then Panic else velocity_polynom fit powf d 9 2) else Val d) groups in
        write_particles radius nofN (Some n0) parts.
  Proof.
    intros Pk Nl C Lc.
    assert (Lb : labelled (map row8 l)). { apply Forall_map, Forall_forall. intros [i [[t [[x y] z]] [[a b] c]]] _. cbn [row8]. do 3 eexists. reflexivity. }
    destruct (c58_groups (map row8 l) Lb) as [ids [maxt [steps [E [S [I [St1 [St2 _]]]]]]]]. { intros X. apply map_eq_nil in X. congruence. }
    assert (Ro : forall i, rows_of i (map row8 l) = map row8 (filter (fun x => (nusize (fst x) =? i)%N) l)).
    { intros i. unfold rows_of. clear. induction l as [|x l IH]; [reflexivity|]. cbn [map filter]. assert (O : of_id i (row8 x) = (nusize (fst x) =? i)%N) by (destruct x as [j [[t [[x y] z]] [[a b] c]]]; reflexivity).
      rewrite O. destruct (nusize (fst x) =? i)%N; cbn [map]; now rewrite IH. }
    assert (Pr : exists groups, Forall2 (fun i part => in_time_order (samples_of i l) part /\ clean part /\
        (let! d := sort_by_column (rows_of i (map row8 l)) 0 in Val (map (remove_columns_row [1%N]) d)) = Val (map smp_row part)) ids groups).
    { clear -C Ro. induction ids as [|i ids [parts IH]]; [exists []; constructor|].
      assert (Ci : clean (samples_of i l)). { unfold samples_of, clean. apply Forall_map. apply Forall_forall. intros x Hx. apply filter_In in Hx as [Hx _]. rewrite Forall_forall in C. now apply C. }
      destruct (sort_samples _ Ci) as [part [O Es]]. exists (part :: parts). constructor; [|exact IH]. split; [exact O|].
      split; [apply order_perm in O; unfold clean in *; now rewrite O|]. rewrite sort_map.
      - rewrite Ro, map_map. rewrite (map_ext _ (fun x => smp_row (snd x))) by (intros; apply rm_row8). rewrite <- Es. unfold samples_of. now rewrite map_map.
      - apply Forall_forall. intros r Hr. rewrite Ro in Hr. apply in_map_iff in Hr as [[j [[t [[x y] z]] [[a b] c]]] [<- _]]. reflexivity. }
    destruct Pr as [groups Fp]. exists ids, groups, maxt, steps. split; [exact S|]. split.
    { intros i. rewrite I. split.
      - intros [row [Hr Ho]]. apply in_map_iff in Hr as [x [<- Hx]]. exists x. split; [exact Hx|]. destruct x as [j [[t [[x y] z]] [[a b] c]]]. now apply N.eqb_eq.
      - intros [x [Hx Hi]]. exists (row8 x). split; [now apply in_map|]. destruct x as [j [[t [[x y] z]] [[a b] c]]]. now apply N.eqb_eq. }
    split; [eapply Forall2_impl; [|exact Fp]; intros a b [O [Cb _]]; now split|]. split.
    { assert (Len : forall i g, in_time_order (samples_of i l) g -> vlen (rows_of i (map row8 l)) = vlen g).
      { intros i g O. apply order_perm, Permutation_length in O. rewrite Ro. unfold vlen. rewrite O. unfold samples_of. now rewrite !map_length. }
      split; [|split].
      - destruct (c58_max_time (map row8 l) Lb) as [parts [mt [st [E2 Hm]]]].
        + intros X. apply map_eq_nil in X. congruence.
        + apply Forall_map. eapply Forall_impl; [|exact C]. intros [i [[t [[x y] z]] [[a b] c]]] H. exact H.
        + assert (mt = maxt) by congruence. subst mt. rewrite map_map in Hm. erewrite map_ext; [exact Hm|]. intros [i [[t [[x y] z]] [[a b] c]]]. reflexivity.
      - intros g Hg Hl. assert (X : exists i, in_time_order (samples_of i l) g). { clear -Fp Hg. induction Fp as [|i g' ids gs [O _] _ IH]; [destruct Hg|]. destruct Hg as [->|Hg]; [eauto | now apply IH]. }
        destruct X as [i O]. specialize (Len i g O). specialize (St1 i). lia.
      - destruct St2 as [->|[i [Hi [H1 H2]]]]; [now left|]. right. assert (X : exists g, In g groups /\ in_time_order (samples_of i l) g). { clear -Fp Hi. induction Fp as [|i' g ids gs [O _] _ IH]; [destruct Hi|]. destruct Hi as [->|Hi]; [exists g; split; [now left | exact O]|]. destruct (IH Hi) as [g' [? ?]]. exists g'. split; [now right | assumption]. }
        destruct X as [g [Hg O]]. exists g. specialize (Len i g O). split; [exact Hg|]. lia. }
    intros vel interp radius. unfold csv_multi_idline. assert (Ec : negb ((vlen columns =? 5)%N || (vlen columns =? 8)%N) = false) by (destruct Lc as [-> | ->]; reflexivity).
    rewrite Ec, Pk. cbn [bind]. rewrite E. cbn [bind]. f_equal. rewrite mmap_map. clear -Fp.
    induction Fp as [|i g ids groups [_ [_ H]] _ IH]; [reflexivity|]. cbn [mmap map].
    destruct (sort_by_column (rows_of i (map row8 l)) 0) as [d|]; [|discriminate]. cbn [bind] in *. injection H as ->. now rewrite IH.
  Qed.

  (** ** C107.  Lines labelled with ids, without velocities: one particle per id, with the velocities fitted to windows of
      nine of its lines, in the order of time; an id with fewer than nine lines is refused. *)
  Theorem c107_id_line raw columns radius l : fits_all fit ->
    Forall2 (reads_place_id columns) raw l -> raw <> [] -> Forall (fun x => is_nan (tm (snd x)) = false) l ->
    exists ids groups, StronglySorted N.lt ids /\ (forall i, In i ids <-> exists x, In x l /\ nusize (fst x) = i) /\
      Forall2 (fun i g => in_time_order (samples_of i l) g) ids groups /\
      (Forall (fun g => (9 <= vlen g)%N) groups -> exists parts, Forall2 (fitted fit powf 9) groups parts /\
        (Forall acceptable parts -> exists pf h, csv_multi_idline fit powf raw columns true false radius = Val (pf, h) /\ holds_all pf h radius nofN parts) /\
        (~ Forall acceptable parts -> csv_multi_idline fit powf raw columns true false radius = Panic)) /\
      (Exists (fun g => (vlen g < 9)%N) groups -> csv_multi_idline fit powf raw columns true false radius = Panic).
  Proof.
    intros Fits R Ne C. destruct (picks _ _ 5%N 8%N columns raw l (pick_place_id columns) R Ne) as [L5 Pk].
    assert (Nl : l <> []) by (intros ->; inversion R; subst; congruence).
    destruct (id_tables columns raw l Pk Nl C (or_introl L5)) as [ids [groups [maxt [steps [S [I [G [_ E]]]]]]]]. exists ids, groups. split; [exact S|]. split; [exact I|].
    split; [eapply Forall2_impl; [|exact G]; now intros a b [? _]|]. rewrite E. clear E. cbn [bind]. rewrite L5. change (5 <? 5)%N with false. cbv iota.
    assert (Sc : Forall (fun g => clean g /\ s_sorted g) groups). { clear -G. induction G as [|? ? ? ? [H H'] _ IH]; constructor; [split; [exact H' | now apply order_sorted in H] | exact IH]. }
    clear G I S. assert (Go : forall gs, Forall (fun g => (8 <= vlen g)%N) gs -> exists parts, mmap (fun g => velocity_polynom fit powf (map smp_row g) 9 2) gs = Val (map (map smp_row) parts) /\ Forall2 (fitted fit powf 9) gs parts).
    { induction 1 as [|g gs Lg _ [parts [E F]]]; [exists []; split; [reflexivity | constructor]|]. destruct (sequential fit powf Fits smp_row g smp_first Lg) as [l' [E1 F1]].
      exists (l' :: parts). split; [|now constructor]. cbn [mmap map]. rewrite E1. cbn [bind]. rewrite E. reflexivity. }
    assert (Wr : forall parts, Forall2 (fitted fit powf 9) groups parts -> Forall clean parts /\ Forall s_sorted parts).
    { clear -Sc. intros parts F. induction F as [|g q gs qs H _ IH]; [split; constructor|]. inversion Sc as [|? ? [H1 H2] Hsc]; subst. destruct (IH Hsc). split; constructor; try assumption; [eapply fitted_clean | eapply fitted_sorted]; eassumption. }
    split.
    - intros L9. destruct (Go groups) as [parts [E F]]; [eapply Forall_impl; [|exact L9]; cbn beta; lia|]. exists parts. split; [exact F|]. rewrite E. cbn [bind]. destruct (Wr parts F). now apply write_all.
    - intros Ex. assert (D : Forall (fun g => (8 <= vlen g)%N) groups \/ Exists (fun g => (vlen g < 8)%N) groups).
      { clear. induction groups as [|g gs [H|H]]; [left; constructor | | right; now constructor 2]. destruct (N.le_gt_cases 8 (vlen g)); [left; now constructor | right; now constructor 1]. }
      destruct D as [L8|L8].
      + destruct (Go groups L8) as [parts [E F]]. rewrite E. cbn [bind]. destruct (Wr parts F) as [W1 W2]. apply (write_all radius nofN (Some n0) parts W1 W2).
        intros A. clear -Ex F A. induction F as [|g q gs qs [H _] _ IH]; [inversion Ex|]. inversion A as [|? ? A1 A2]; subst. inversion Ex as [? ? Hg|? ? Hg]; subst; [|now apply IH].
        destruct A1 as [[s [Hs _]] _]. apply at_lt in Hs. lia.
      + apply Exists_exists in L8 as [g [Hg Lg]]. rewrite (mmap_panic _ _ g Hg); [reflexivity|]. apply c52_short. rewrite vlen_map. lia.
  Qed.
End IdLine.

(** ** Resampling *)
Definition chord (a b : smp f64) (t : f64) : v3 f64 :=
  (line (tm a) (px a) (tm b) (px b) t, line (tm a) (py a) (tm b) (py b) t, line (tm a) (pz a) (tm b) (pz b) t).
(** [m] are [n] samples: the first and the last of [l], and between them at multiples of [dur / n] points on
    chords of [l] (or blanks). *)
Definition resampled (dur : f64) (n : N) (l m : list (smp f64)) : Prop :=
  vlen m = n /\
  (exists s s', at_ l (vlen l - 1) s /\ at_ m (n - 1) s' /\ tm s' = tm s /\ s_pos s' = s_pos s) /\
  ((2 <= n)%N -> exists s s', at_ l 0 s /\ at_ m 0 s' /\ tm s' = tm s /\ s_pos s' = s_pos s) /\
  forall k s', (1 <= k < n - 1)%N -> at_ m k s' -> tm s' = (nofN k * (dur / nofN n))%num /\
    (s_pos s' = unknown \/ exists j a b, (0 < j)%N /\ at_ l (j - 1) a /\ at_ l (j + 1) b /\ Beqb (tm a) (tm b) = false /\ s_pos s' = chord a b (tm s')).

Lemma sorted_is_sorted (l : list f64) : StronglySorted (fun a b => Bleb a b = true) l -> is_sorted l = true.
Proof.
  induction 1 as [|a l S IH Fa]; [reflexivity|]. destruct l as [|b l]; [reflexivity|]. change (Bleb a b && is_sorted (b :: l) = true). apply andb_true_iff. split; [now inversion Fa | exact IH].
Qed.
Lemma sorted_map_tm l : s_sorted l -> StronglySorted (fun a b => Bleb a b = true) (map tm l).
Proof. induction 1 as [|a l S IH Fa]; [constructor|]. cbn [map]. constructor; [exact IH|]. now apply Forall_map. Qed.
Lemma sample_first rw l i t x y z : place_first rw -> sample_at (map rw l) i t x y z -> exists s, at_ l i s /\ tm s = t /\ s_pos s = (x, y, z).
Proof.
  intros Rw [r [Hr [H0 [H1 [H2 H3]]]]]. unfold at_ in *. rewrite nth_error_map in Hr. destruct (nth_error l (N.to_nat i)) as [s|]; [|discriminate]. cbn [option_map] in Hr. injection Hr as <-.
  destruct (Rw s) as [rest E]. rewrite E in H0, H1, H2, H3. cbn in H0, H1, H2, H3. exists s. split; [reflexivity|].
  injection H0 as <-. injection H1 as <-. injection H2 as <-. injection H3 as <-. split; [reflexivity|]. destruct s as [[t [[x y] z]] v]. reflexivity.
Qed.
Lemma resample rw g dur n : place_first rw -> s_sorted g -> g <> [] -> (0 < n)%N ->
  exists m, interpolate (map rw g) dur n = Val (map place m) /\ resampled dur n g m.
Proof.
  intros Rw S Ne Hn. destruct (columns_first rw g Rw) as [Ec _].
  destruct (c51_rows (map rw g) dur n (map tm g) Ec (sorted_is_sorted _ (sorted_map_tm _ S))) as [out [E [L [Hl [Hf Hm]]]]].
  - rewrite vlen_map. destruct g; [congruence | rewrite vlen_cons; lia].
  - apply Forall_map, Forall_forall. intros s _. destruct (Rw s) as [rest ->]. unfold vlen. cbn [app length]. lia.
  - exact Hn.
  - rewrite vlen_map in Hl.
    set (smp_of := fun r : list f64 => match r with [t; x; y; z] => (t, (x, y, z), unknown) | _ => (nnan, unknown, unknown) end : smp f64).
    exists (map smp_of out).
    assert (Sh : forall k r, at_ out k r -> exists t x y z, r = [t; x; y; z]).
    { intros k r Hr. assert (Lk := at_lt _ _ _ Hr). rewrite L in Lk.
      assert (Fu : forall r', at_ out k r' -> r' = r) by (unfold at_ in *; congruence).
      destruct (N.eq_dec k (n - 1)) as [->|D1]; [destruct Hl as [t [x [y [z [_ H]]]]]; apply Fu in H; subst; eauto 6|].
      destruct (N.eq_dec k 0) as [->|D0]; [destruct Hf as [t [x [y [z [_ H]]]]]; [lia|]; apply Fu in H; subst; eauto 6|].
      destruct (Hm k ltac:(lia)) as [row [H Q]]. apply Fu in H. subst row. cbv zeta in Q. destruct Q as [->|[j [_ [t0 [x0 [y0 [z0 [t1 [x1 [y1 [z1 [_ [_ [_ ->]]]]]]]]]]]]]]; unfold blank_row; eauto 6. }
    split.
    + rewrite E. f_equal. rewrite map_map. apply nth_ext with (d := []) (d' := []); [now rewrite map_length|]. intros k Hk.
      destruct (nth_error out k) as [r|] eqn:Er; [|apply nth_error_None in Er; lia].
      destruct (Sh (N.of_nat k) r) as [t [x [y [z ->]]]]; [unfold at_; now rewrite Nat2N.id|]. rewrite (nth_error_nth _ _ _ Er). symmetry. apply nth_error_nth. rewrite nth_error_map, Er. reflexivity.
    + assert (At : forall k t x y z, at_ out k [t; x; y; z] -> at_ (map smp_of out) k (t, (x, y, z), unknown)).
      { intros k t x y z H. unfold at_ in *. rewrite nth_error_map, H. reflexivity. }
      split; [now rewrite vlen_map|]. split; [|split].
      * destruct Hl as [t [x [y [z [Hs Ha]]]]]. apply (sample_first rw) in Hs as [s [Hs [<- Ep]]]; [|exact Rw]. apply At in Ha. eexists s, _. split; [exact Hs|]. split; [exact Ha|]. split; [reflexivity|]. now rewrite Ep.
      * intros H2. destruct (Hf H2) as [t [x [y [z [Hs Ha]]]]]. apply (sample_first rw) in Hs as [s [Hs [<- Ep]]]; [|exact Rw]. apply At in Ha. eexists s, _. split; [exact Hs|]. split; [exact Ha|]. split; [reflexivity|]. now rewrite Ep.
      * intros k s' Hk Hs'. destruct (Hm k Hk) as [row [Ha Q]]. cbv zeta in Q. destruct Q as [->|[j [Hj [t0 [x0 [y0 [z0 [t1 [x1 [y1 [z1 [Sa [Sb [Ne' ->]]]]]]]]]]]]]].
        -- apply At in Ha. unfold at_ in Ha, Hs'. rewrite Ha in Hs'. injection Hs' as <-. split; [reflexivity | left; reflexivity].
        -- apply At in Ha. unfold at_ in Ha, Hs'. rewrite Ha in Hs'. injection Hs' as <-. split; [reflexivity|]. right.
           apply (sample_first rw) in Sa as [a [Ha' [<- Ea]]]; [|exact Rw]. apply (sample_first rw) in Sb as [b [Hb' [<- Eb]]]; [|exact Rw].
           exists j, a, b. split; [exact Hj|]. split; [exact Ha'|]. split; [exact Hb'|]. split; [exact Ne'|].
           unfold chord, px, py, pz. rewrite Ea, Eb. reflexivity.
Qed.
(** Products and quotients that are numbers. *)
Lemma finite_number (x : f64) : is_finite x = true -> is_nan x = false.
Proof. now destruct x. Qed.
Lemma overflow_number (x : f64) s : B2SF x = binary_overflow 53 1024 mode_NE s -> is_nan x = false.
Proof. destruct x; try reflexivity. cbn. destruct s; discriminate. Qed.
Lemma mul_number (k x : f64) : is_finite k = true -> B2R k <> 0%R -> is_nan x = false -> is_nan (Bmult mode_NE k x) = false.
Proof.
  intros Fk Nk Nx. destruct x as [sx|sx| |sx m e B]; [| |discriminate|].
  - destruct k; try discriminate; reflexivity.
  - destruct k; try discriminate; [cbn in Nk; lra | reflexivity].
  - assert (C := Bmult_correct 53 1024 f64_prec f64_emax mode_NE k (B754_finite sx m e B)). destruct (Rlt_bool _ _).
    + destruct C as [_ [C _]]. rewrite Fk in C. change (is_finite (B754_finite sx m e B)) with true in C. apply (finite_number _ C).
    + apply (overflow_number _ _ C).
Qed.
Lemma div_number (x k : f64) : is_finite k = true -> B2R k <> 0%R -> is_nan x = false -> is_nan (Bdiv mode_NE x k) = false.
Proof.
  intros Fk Nk Nx. destruct x as [sx|sx| |sx m e B]; [| |discriminate|].
  - destruct k; try discriminate; [cbn in Nk; lra | reflexivity].
  - destruct k; try discriminate; reflexivity.
  - assert (C := Bdiv_correct 53 1024 f64_prec f64_emax mode_NE (B754_finite sx m e B) k Nk). destruct (Rlt_bool _ _).
    + destruct C as [_ [C _]]. change (is_finite (B754_finite sx m e B)) with true in C. apply (finite_number _ C).
    + apply (overflow_number _ _ C).
Qed.

Lemma last_in {A} (l : list A) d : l <> [] -> In (last l d) l.
Proof. intros H. destruct (exists_last H) as [l' [x ->]]. rewrite last_last. apply in_or_app. right. now left. Qed.
Lemma filter_le {A} (f : A -> bool) l : (length (filter f l) <= length l)%nat.
Proof. induction l as [|x l IH]; [reflexivity|]. cbn [filter]. destruct (f x); cbn [length]; lia. Qed.
Lemma count_number n : (0 < n)%N -> (n <= 2 ^ 53)%N -> is_finite (nofN n : f64) = true /\ B2R (nofN n : f64) <> 0%R.
Proof.
  intros Hp Hb. destruct (of_Z_correct (Z.of_N n)) as [E F]; [lia|]. split; [exact F|]. change (B2R (f64_of_Z (Z.of_N n)) <> 0%R). rewrite E. apply IZR_neq. lia.
Qed.
Lemma resampled_clean dur n l m : is_nan dur = false -> (0 < n)%N -> (n <= 2 ^ 53)%N -> clean l -> resampled dur n l m -> clean m.
Proof.
  intros Nd Hp Hb C [L [[s [s1 [Hs [Hs1 [E1 _]]]]] [H0 H]]]. unfold clean in C. rewrite Forall_forall in C. apply Forall_forall. intros s' Hs'. apply In_nth_error in Hs' as [k Hk].
  assert (A : at_ m (N.of_nat k) s') by (unfold at_; now rewrite Nat2N.id). assert (Lk := at_lt _ _ _ A). rewrite L in Lk.
  destruct (N.eq_dec (N.of_nat k) (n - 1)) as [D|D].
  - rewrite D in A. unfold at_ in A, Hs1. rewrite A in Hs1. injection Hs1 as ->. rewrite E1. apply C. eapply nth_error_In, Hs.
  - destruct (N.eq_dec (N.of_nat k) 0) as [Dz|Dz].
    + destruct H0 as [a [a' [Ha [Ha' [E _]]]]]; [lia|]. rewrite Dz in A. unfold at_ in A, Ha'. rewrite A in Ha'. injection Ha' as ->. rewrite E. apply C. eapply nth_error_In, Ha.
    + destruct (H (N.of_nat k) s' ltac:(lia) A) as [-> _]. destruct (count_number n Hp Hb). destruct (count_number (N.of_nat k) ltac:(lia) ltac:(lia)). apply mul_number; try assumption. now apply div_number.
Qed.
(** What is written, whenever something is. *)
Lemma write_sound radius ids ty parts : Forall clean parts ->
  (forall pf h, write_particles radius ids ty (map (map smp_row) parts) = Val (pf, h) -> holds_all pf h radius ids parts) /\
  (Forall s_sorted parts -> Forall acceptable parts -> exists pf h, write_particles radius ids ty (map (map smp_row) parts) = Val (pf, h)).
Proof.
  intros Cs. assert (D : Forall writable parts \/ Exists (fun l => ~ writable l) parts).
  { clear Cs. induction parts as [|x parts [IH|IH]]; [left; constructor| |right; now constructor 2].
    assert (Dx : writable x \/ ~ writable x); [|destruct Dx; [left | right]; now constructor].
    unfold writable. destruct x as [|s x]; [right; intros [[s [l' [Hx _]]] _]; discriminate|].
    destruct (nisnan (snd (s_vel s))) eqn:Ev; [right; intros [[s' [l' [Hx Hv]]] _]; inversion Hx; subst; congruence|].
    destruct (patient n0 0 (s :: x)); [left; split; [eauto | reflexivity] | right; intros [_ ?]; discriminate]. }
  split.
  - intros pf h E. destruct D as [W|Nw]; [|rewrite (write_bad radius ids ty parts Nw) in E; discriminate].
    destruct (multi_holds radius ids ty parts Cs W) as [pf' [h' [E' [H _]]]]. rewrite E' in E. injection E as <- <-. exact H.
  - intros Ss A. destruct (write_all radius ids ty parts Cs Ss) as [H _]. destruct (H A) as [pf [h [E _]]]. eauto.
Qed.

Section Resampled.
  Context (fit : list f64 -> list f64 -> N -> option (list f64)) (powf : f64 -> f64 -> f64).
  Definition resampled_fitted (dur : f64) (n : N) (p q : list (smp f64)) : Prop := exists m, resampled dur n p m /\ fitted fit powf 9 m q.

  Lemma resample_fit rw dur n p : fits_all fit -> place_first rw -> s_sorted p -> p <> [] -> (8 <= n)%N ->
    exists q, (let! d := interpolate (map rw p) dur n in velocity_polynom fit powf d 9 2) = Val (map smp_row q) /\ resampled_fitted dur n p q.
  Proof.
    intros Fits Rw S Ne Hn. destruct (resample rw p dur n Rw S Ne ltac:(lia)) as [m [E R]]. rewrite E. cbn [bind].
    destruct (sequential fit powf Fits place m place_place) as [q [Eq F]]; [destruct R as [-> _]; exact Hn|]. exists q. split; [exact Eq|]. exists m. now split.
  Qed.
  Lemma resampled_parts dur n ps qs : is_nan dur = false -> (0 < n)%N -> (n <= 2 ^ 53)%N -> Forall clean ps -> Forall2 (resampled_fitted dur n) ps qs -> Forall clean qs.
  Proof.
    intros Nd H1 H2 C F. induction F as [|p q ps qs [m [R Fm]] _ IH]; [constructor|]. inversion C; subst. constructor; [|now apply IH]. eapply fitted_clean; [exact Fm|]. eapply resampled_clean; [exact Nd | exact H1 | exact H2 | eassumption | exact R].
  Qed.

  (** ** C108.  A chained file without velocities, resampled: every trajectory of at least ten lines that is followed by
      another one is first resampled to as many lines as the longest such trajectory has, over the longest duration; then
      velocities are fitted to windows of nine.  From 200000 lines on the conversion is refused. *)
  Theorem c108_chain raw columns radius l ls last : fits_all fit ->
    Forall2 (reads_place columns) raw l -> Forall (fun s => is_nan (tm s) = false) l ->
    l = concat (ls ++ [last]) -> chained (ls ++ [last]) ->
    exists dur n, highest dur (zero :: map end_of ls) /\
      (forall p, In p ls -> (vlen p <= n)%N) /\ (ls <> [] -> exists p, In p ls /\ vlen p = n) /\
      ((n < 200000)%N -> exists parts, Forall2 (resampled_fitted dur n) (filter long_enough ls) parts /\
        (forall pf h, csv_multi_chain fit powf raw columns true true radius = Val (pf, h) -> holds_all pf h radius (fun _ => n1) parts) /\
        (Forall s_sorted parts -> Forall acceptable parts -> exists pf h, csv_multi_chain fit powf raw columns true true radius = Val (pf, h))) /\
      ((200000 <= n)%N -> csv_multi_chain fit powf raw columns true true radius = Panic).
  Proof.
    intros Fits R C El Ch.
    assert (Nl : raw <> []). { assert (Tr : trajectory last). { clear -Ch. induction ls as [|l ls IH]; [exact Ch|]. apply IH. cbn [app chained] in Ch. destruct (ls ++ [last]) eqn:E; [destruct ls; discriminate | apply Ch]. }
      destruct Tr as [s [l' [-> _]]]. intros ->. assert (L0 : l = []) by (inversion R; reflexivity). rewrite El, concat_app in L0. cbn in L0. destruct (concat ls); discriminate. }
    destruct (picks _ _ 4%N 7%N columns raw l (pick_place columns) R Nl) as [L4 Pk]. rewrite (chain_eq fit powf raw columns true radius l ls last ltac:(lia) Pk El Ch).
    assert (Tp : Forall trajectory ls). { clear -Ch. induction ls as [|l ls IH]; [constructor|]. cbn [app chained] in Ch. destruct (ls ++ [last]) eqn:E; [destruct ls; discriminate|]. constructor; [apply Ch | apply IH, Ch]. }
    assert (Cl : Forall clean ls). { apply Forall_forall. intros p Hp. apply Forall_forall. intros s Hs. rewrite Forall_forall in C. apply C. rewrite El. apply in_concat. exists p. split; [apply in_or_app; now left | exact Hs]. }
    assert (Ne : Forall (fun x => is_nan x = false) (map end_of ls)).
    { apply Forall_map. clear -Cl. induction Cl as [|p ps Hp _ IH]; constructor; [|exact IH]. unfold end_of. destruct p as [|s p]; [reflexivity|]. apply Forall_forall with (x := last (map tm (s :: p)) zero) (P := fun x : f64 => is_nan x = false) (l := map tm (s :: p)); [now apply Forall_map | apply last_in; discriminate]. }
    destruct (later_spec _ Ne zero eq_refl) as [Nd [D1 [D2 D3]]]. destruct (more_spec (map vlen ls) 0%N) as [_ [M2 M3]].
    set (dur := fold_left later_of (map end_of ls) zero) in *. set (n := fold_left more_of (map vlen ls) 0%N) in *.
    assert (Mn : ls <> [] -> exists p, In p ls /\ vlen p = n).
    { intros Nls. destruct M3 as [M3|M3].
      - destruct ls as [|p ls']; [congruence|]. exists p. split; [now left|]. specialize (M2 (vlen p) (or_introl eq_refl)). lia.
      - apply in_map_iff in M3 as [p [E Hp]]. eauto. }
    exists dur, n. split; [split; [destruct D3 as [D3|D3]; [left; now symmetry | right; exact D3] | intros x [<-|Hx]; [exact D1 | now apply D2]]|].
    split; [intros p Hp; apply M2; now apply in_map|]. split; [exact Mn|].
    assert (Ps : Forall (fun p => s_sorted p /\ p <> [] /\ clean p /\ (10 <= n)%N) (filter long_enough ls)).
    { apply Forall_forall. intros p Hp. apply filter_In in Hp as [Hp Lp]. unfold long_enough in Lp. assert (Lm := M2 (vlen p) (in_map _ _ _ Hp)). rewrite Forall_forall in Tp, Cl.
      destruct (Tp p Hp) as [s [p' [-> Hc]]]. specialize (Cl _ Hp). split; [now apply climbs_sorted|]. split; [discriminate|]. split; [exact Cl | lia]. }
    split.
    - intros Hn. assert (Pr : exists parts, mmap (chain_proc fit powf columns true dur n) (filter long_enough ls) = Val (map (map smp_row) parts) /\ Forall2 (resampled_fitted dur n) (filter long_enough ls) parts).
      { clear -Ps Hn Fits L4. induction Ps as [|p ps [S [Np [_ Ln]]] _ [parts [E F]]]; [exists []; split; [reflexivity | constructor]|].
        destruct (resample_fit smp_row dur n p Fits smp_first S Np ltac:(lia)) as [q [Eq Fq]]. exists (q :: parts). split; [|now constructor]. cbn [mmap map].
        assert (Ep : chain_proc fit powf columns true dur n p = Val (map smp_row q)); [|rewrite Ep; cbn [bind]; rewrite E; reflexivity].
        unfold chain_proc. cbv iota. rewrite L4. change (5 <=? 4)%N with false. cbv iota. destruct (resample smp_row p dur n smp_first S Np ltac:(lia)) as [m [Em [Rm _]]]. rewrite Em in Eq |- *. cbn [bind] in *. rewrite vlen_map, Rm. replace (n <? 200000)%N with true by lia. exact Eq. }
      destruct Pr as [parts [E F]]. exists parts. split; [exact F|]. rewrite E. cbn [bind].
      destruct parts as [|q qs] eqn:Eqs; [apply (write_sound radius (fun _ => n1) None []); constructor|]. rewrite <- Eqs in *. apply write_sound.
      assert (Ln : (10 <= n)%N) by (destruct (filter long_enough ls); [inversion F; subst; discriminate | inversion Ps as [|? ? H]; subst; tauto]).
      apply (resampled_parts dur n (filter long_enough ls)); [exact Nd | lia | lia | eapply Forall_impl; [|exact Ps]; cbn beta; tauto | exact F].
    - intros Hn. assert (Nls : ls <> []) by (intros ->; unfold n in Hn; cbn in Hn; lia). destruct (Mn Nls) as [p [Hp Lp]].
      assert (Hf : In p (filter long_enough ls)) by (apply filter_In; split; [exact Hp | unfold long_enough; lia]).
      rewrite (mmap_panic _ _ p Hf); [reflexivity|]. rewrite Forall_forall in Ps. destruct (Ps p Hf) as [S [Np _]].
      unfold chain_proc. cbv iota. destruct (resample smp_row p dur n smp_first S Np ltac:(lia)) as [m [Em [Rm _]]]. rewrite Em. cbn [bind]. rewrite L4. change (5 <=? 4)%N with false. cbv iota. rewrite vlen_map, Rm. replace (n <? 200000)%N with false by lia.
      unfold velocity_parallel. change (N.even 9) with false. cbv iota zeta. rewrite vlen_map, Rm.
      erewrite mmap_panic; [reflexivity | apply (in_map (fun i => firstn 7 (skipn (N.to_nat i) (map place m))) _ 0%N); apply in_range; lia|].       destruct m as [|s m]; [change (vlen (@nil (smp f64))) with 0%N in Rm; lia|]. reflexivity.
  Qed.

  (** ** C108.  Lines labelled with ids, without velocities, resampled: the lines of each id, in the order of time, are
      first resampled to as many lines as the largest id has, over the latest time; then velocities are fitted to
      windows of nine.  If no id has nine lines the conversion is refused. *)
  Theorem c108_id_line raw columns radius l : fits_all fit -> (vlen l <= 2 ^ 53)%N ->
    Forall2 (reads_place_id columns) raw l -> raw <> [] -> Forall (fun x => is_nan (tm (snd x)) = false) l ->
    exists ids groups dur, StronglySorted N.lt ids /\ (forall i, In i ids <-> exists x, In x l /\ nusize (fst x) = i) /\
      Forall2 (fun i g => in_time_order (samples_of i l) g) ids groups /\ highest dur (map (fun x => tm (snd x)) l) /\
      (forall n, (9 <= n)%N -> (forall g, In g groups -> (vlen g <= n)%N) -> (exists g, In g groups /\ vlen g = n) ->
        exists parts, Forall2 (resampled_fitted dur n) groups parts /\
          (forall pf h, csv_multi_idline fit powf raw columns true true radius = Val (pf, h) -> holds_all pf h radius nofN parts) /\
          (Forall s_sorted parts -> Forall acceptable parts -> exists pf h, csv_multi_idline fit powf raw columns true true radius = Val (pf, h))) /\
      (Forall (fun g => (vlen g < 9)%N) groups -> csv_multi_idline fit powf raw columns true true radius = Panic).
  Proof.
    intros Fits Lb R Ne C. destruct (picks _ _ 5%N 8%N columns raw l (pick_place_id columns) R Ne) as [L5 Pk].
    assert (Nl : l <> []) by (intros ->; inversion R; subst; congruence).
    destruct (id_tables fit powf columns raw l Pk Nl C (or_introl L5)) as [ids [groups [dur [steps [S [I [G [[Hd [St1 St2]] E]]]]]]]]. exists ids, groups, dur. split; [exact S|]. split; [exact I|].
    split; [eapply Forall2_impl; [|exact G]; now intros a b [? _]|]. split; [exact Hd|]. rewrite E. clear E. rewrite L5. change (5 <? 5)%N with false. cbv iota.
    assert (Nd : is_nan dur = false). { destruct Hd as [Hd _]. apply in_map_iff in Hd as [x [<- Hx]]. rewrite Forall_forall in C. now apply C. }
    assert (Sc : Forall (fun g => clean g /\ s_sorted g /\ g <> [] /\ (vlen g <= 2 ^ 53)%N) groups).
    { assert (H : Forall (fun i => exists x, In x l /\ nusize (fst x) = i) ids) by (apply Forall_forall; intros i Hi; now apply I). clear -G H Lb.
      induction G as [|i g ids gs [O Cg] _ IH]; constructor; [|now apply IH; inversion H]. split; [exact Cg|]. split; [now apply order_sorted in O|].
      apply order_perm in O. inversion H as [|? ? [x [Hx Hi]] _]; subst. split.
      - intros ->. symmetry in O. apply Permutation_sym, Permutation_nil in O. assert (In (snd x) (samples_of (nusize (fst x)) l)) by (apply in_map, filter_In; split; [exact Hx | now apply N.eqb_eq]). rewrite O in H0. destruct H0.
      - apply Permutation_length in O. unfold samples_of in O. rewrite map_length in O. assert (Lf := filter_le (fun y : f64 * smp f64 => (nusize (fst y) =? nusize (fst x))%N) l). unfold vlen in *. lia. }
    assert (Ng : exists g, In g groups).
    { destruct l as [|x l']; [congruence|]. assert (Hi : In (nusize (fst x)) ids) by (apply I; exists x; split; [now left | reflexivity]). destruct ids as [|i ids]; [destruct Hi|]. inversion G as [|? g ? gs _ _]; subst. exists g. now left. }
    split.
    - intros n Hn Hm [g [Hg Lg]]. assert (n = steps).
      { assert (X := St1 g Hg ltac:(lia)). destruct St2 as [St2|[g' [Hg' [_ Lg']]]]; [lia|]. specialize (Hm g' Hg'). lia. }
      subst steps. assert (Hb : (n <= 2 ^ 53)%N) by (rewrite Forall_forall in Sc; destruct (Sc g Hg) as [_ [_ [_ ?]]]; lia).
      assert (Pr : exists parts, mmap (fun g => let! d := interpolate (map smp_row g) dur n in velocity_polynom fit powf d 9 2) groups = Val (map (map smp_row) parts) /\ Forall2 (resampled_fitted dur n) groups parts).
      { clear -Sc Hn Fits. induction Sc as [|p ps [_ [Sp [Np _]]] _ [parts [E F]]]; [exists []; split; [reflexivity | constructor]|].
        destruct (resample_fit smp_row dur n p Fits smp_first Sp Np ltac:(lia)) as [q [Eq Fq]]. exists (q :: parts). split; [|now constructor]. cbn [mmap map]. rewrite Eq. cbn [bind]. rewrite E. reflexivity. }
      destruct Pr as [parts [E F]]. exists parts. split; [exact F|]. rewrite E. cbn [bind]. apply write_sound.
      apply (resampled_parts dur n groups); [exact Nd | lia | exact Hb | eapply Forall_impl; [|exact Sc]; cbn beta; tauto | exact F].
    - intros Sm. assert (Hs : (steps < 9)%N). { destruct St2 as [->|[g [Hg [_ <-]]]]; [lia|]. rewrite Forall_forall in Sm. now apply Sm. }
      destruct Ng as [g0 Hg0]. destruct (N.eq_dec steps 8) as [->|D8].
      + assert (Pr : exists parts, mmap (fun g => let! d := interpolate (map smp_row g) dur 8 in velocity_polynom fit powf d 9 2) groups = Val (map (map smp_row) parts) /\ Forall2 (resampled_fitted dur 8) groups parts).
        { clear -Sc Fits. induction Sc as [|p ps [_ [Sp [Np _]]] _ [parts [E F]]]; [exists []; split; [reflexivity | constructor]|].
          destruct (resample_fit smp_row dur 8 p Fits smp_first Sp Np ltac:(lia)) as [q [Eq Fq]]. exists (q :: parts). split; [|now constructor]. cbn [mmap map]. rewrite Eq. cbn [bind]. rewrite E. reflexivity. }
        destruct Pr as [parts [E F]]. rewrite E. cbn [bind]. apply write_bad. destruct groups as [|g gs]; [destruct Hg0|]. inversion F as [|? q ? qs [m [[Lm _] [Lq _]]] _]; subst. constructor 1.
        intros [[s [q' [-> _]]] _]. rewrite vlen_cons in Lq. lia.
      + rewrite (mmap_panic _ _ g0 Hg0); [reflexivity|]. rewrite Forall_forall in Sc. destruct (Sc g0 Hg0) as [_ [Sp [Np _]]]. destruct (N.eq_dec steps 0) as [->|D0].
        * unfold interpolate. destruct (column (map smp_row g0) 0) as [tt|]; [|reflexivity]. cbn [bind]. destruct (negb (is_sorted tt)); reflexivity.
        * destruct (resample smp_row g0 dur steps smp_first Sp Np ltac:(lia)) as [m [Em [Lm _]]]. rewrite Em. cbn [bind]. apply c52_short. rewrite vlen_map. lia.
  Qed.
End Resampled.

(** ** C109.  How many lines of a trajectory survive, and what happens to trajectories of 200000 lines or more. *)
Theorem c109_lines fit powf raw columns radius l ls last pf h : fits_all fit ->
  Forall2 (reads_place columns) raw l -> Forall (fun s => is_nan (tm s) = false) l ->
  l = concat (ls ++ [last]) -> chained (ls ++ [last]) ->
  csv_multi_chain fit powf raw columns true false radius = Val (pf, h) ->
  forall k p, at_ (filter long_enough ls) k p -> exists g times, pf_group pf k = Some g /\ pg_radius g = Some times /\
    vlen times = (if (vlen p <? 200000)%N then vlen p - 8 else vlen p - 6)%N.
Proof.
  intros Fits R C El Ch E k p Hk. destruct (c107_chain fit powf raw columns radius l ls last Fits R C El Ch) as [parts [F [Y Nn]]].
  assert (H : holds_all pf h radius (fun _ => n1) parts).
  { destruct (Classical_Prop.classic (Forall acceptable parts)) as [A|A]; [|rewrite (Nn A) in E; discriminate]. destruct (Y A) as [pf' [h' [E' H]]]. rewrite E' in E. injection E as <- <-. exact H. }
  destruct (Forall2_at_l _ _ _ F _ _ Hk) as [q [Hq [Lq _]]]. destruct H as [H _]. destruct (H k q Hq) as [g [Hg [_ [Hr _]]]]. exists g, (repeat radius (length q)). split; [exact Hg|]. split; [exact Hr|].
  unfold vlen at 1. rewrite repeat_length. change (N.of_nat (length q)) with (vlen q). rewrite Lq. unfold window_of. destruct (vlen p <? 200000)%N; lia.
Qed.
Theorem c109_resampled fit powf raw columns radius l ls last p : fits_all fit ->
  Forall2 (reads_place columns) raw l -> Forall (fun s => is_nan (tm s) = false) l ->
  l = concat (ls ++ [last]) -> chained (ls ++ [last]) -> In p ls -> (200000 <= vlen p)%N ->
  csv_multi_chain fit powf raw columns true true radius = Panic.
Proof.
  intros Fits R C El Ch Hp Lp. destruct (c108_chain fit powf raw columns radius l ls last Fits R C El Ch) as [dur [n [_ [Hn [_ [_ H]]]]]]. apply H. specialize (Hn p Hp). lia.
Qed.

(** ** The hypotheses are met *)
Definition ex_line : list f64 -> list f64 -> N -> option (list f64) := fun _ _ _ => Some [nof 0; nof 2].
Definition ex_pow : f64 -> f64 -> f64 := fun _ _ => nof 1.
Lemma ex_fits : fits_all ex_line.
Proof. intros ts xs _. discriminate. Qed.
(** Twelve lines of a trajectory, then one line of the next; the columns in another order. *)
Definition ex_rows : list (list f64) := map (fun k => map nof [2 * k; 7; k + 1; 3 * k]%Z) [0; 1; 2; 3; 4; 5; 6; 7; 8; 9; 10; 11; 0]%Z.
Definition ex_cols : list Z := [2; 0; 1; 3]%Z.
Definition ex_place (k : Z) : smp f64 := (nof (k + 1), (nof (2 * k), nof 7, nof (3 * k)), unknown).
Definition ex_long : list (smp f64) := map ex_place [0; 1; 2; 3; 4; 5; 6; 7; 8; 9; 10; 11]%Z.
Example ex_reads : Forall2 (reads_place ex_cols) ex_rows (concat [ex_long; [ex_place 0]]).
Proof. unfold ex_rows, ex_long. cbn [map concat app]. repeat (constructor; [split; [repeat (constructor; [now apply col_entry_pick|]); constructor | reflexivity]|]). constructor. Qed.
Example ex_clean : Forall (fun s => is_nan (tm s) = false) (concat [ex_long; [ex_place 0]]).
Proof. unfold ex_long. cbn [map concat app]. repeat (constructor; [vm_compute; reflexivity|]). constructor. Qed.
Example ex_chained : chained [ex_long; [ex_place 0]].
Proof.
  split; [|split].
  - exists (ex_place 0), (map ex_place [1; 2; 3; 4; 5; 6; 7; 8; 9; 10; 11]%Z). split; [reflexivity|]. cbn [map climbs]. repeat (split; [vm_compute; reflexivity|]). exact I.
  - intros s Hs. injection Hs as <-. vm_compute. reflexivity.
  - exists (ex_place 0), []. split; [reflexivity | exact I].
Qed.
Definition worked {A} (r : res A) : bool := match r with Val _ => true | Panic => false end.
Example ex_chain_works : worked (csv_multi_chain ex_line ex_pow ex_rows ex_cols true false (nof 1)) = true /\ worked (csv_multi_chain ex_line ex_pow ex_rows ex_cols true true (nof 1)) = true.
Proof. vm_compute. split; reflexivity. Qed.
(** Ten lines of particle 4. *)
Definition ex_id_rows : list (list f64) := map (fun k => map nof [k; 4; 2 * k; 7; 3 * k]%Z) [1; 2; 3; 4; 5; 6; 7; 8; 9; 10]%Z.
Example ex_reads_id : Forall2 (reads_place_id [0; 1; 2; 3; 4]%Z) ex_id_rows (map (fun k => (nof 4, (nof k, (nof (2 * k), nof 7, nof (3 * k)), unknown))) [1; 2; 3; 4; 5; 6; 7; 8; 9; 10]%Z).
Proof. unfold ex_id_rows. cbn [map]. repeat (constructor; [split; [repeat (constructor; [now apply col_entry_pick|]); constructor | reflexivity]|]). constructor. Qed.
Example ex_id_works : worked (csv_multi_idline ex_line ex_pow ex_id_rows [0; 1; 2; 3; 4]%Z true false (nof 1)) = true /\ worked (csv_multi_idline ex_line ex_pow ex_id_rows [0; 1; 2; 3; 4]%Z true true (nof 1)) = true.
Proof. vm_compute. split; reflexivity. Qed.
