(** * What [update] loads is what the file shows (proofs only). *)
From Coq Require Import NArith List Lia ZifyN ZifyNat ZifyBool.
From Verif Require Import Base BaseFacts Num NDArray DataModel DataSpec DataProofs.

Lemma mmap_ok {A B} (f : A -> res B) (P : A -> B -> Prop) l :
  (forall a, In a l -> exists b, f a = Val b /\ P a b) -> exists bs, mmap f l = Val bs /\ Forall2 P l bs.
Proof.
  induction l as [|a l IH]; intros H; [exists []; split; [reflexivity | constructor]|].
  destruct (H a (or_introl eq_refl)) as [b [Eb Pb]].
  destruct IH as [bs [Ebs Pbs]]; [intros a' Ha'; apply H; now right|].
  exists (b :: bs). cbn. rewrite Eb. cbn [bind]. rewrite Ebs. cbn [bind]. split; [reflexivity | now constructor].
Qed.
Lemma Forall2_at {A B} (P : A -> B -> Prop) l l' : Forall2 P l l' -> forall k b, nth_error l' k = Some b ->
  exists a, nth_error l k = Some a /\ P a b.
Proof.
  induction 1 as [|a b l l' Pab _ IH]; intros k x E; [destruct k; discriminate|].
  destruct k as [|k]; cbn in *; [injection E as <-; eauto | auto].
Qed.
Lemma Forall2_at_l {A B} (P : A -> B -> Prop) l l' : Forall2 P l l' -> forall k a, nth_error l k = Some a ->
  exists b, nth_error l' k = Some b /\ P a b.
Proof.
  induction 1 as [|a b l l' Pab _ IH]; intros k x E; [destruct k; discriminate|].
  destruct k as [|k]; cbn in *; [injection E as <-; eauto | auto].
Qed.
Lemma Forall2_length {A B} (P : A -> B -> Prop) l l' : Forall2 P l l' -> length l = length l'.
Proof. induction 1; cbn; congruence. Qed.
Lemma Forall2_range {B} (P : N -> B -> Prop) a b l' : Forall2 P (range a b) l' ->
  vlen l' = (b - a)%N /\ (forall k x, at_ l' k x -> (k < b - a)%N /\ P (a + k)%N x) /\
  (forall k, (k < b - a)%N -> exists x, at_ l' k x /\ P (a + k)%N x).
Proof.
  intros H. assert (L := Forall2_length _ _ _ H). rewrite range_length in L. unfold vlen, at_.
  split; [lia|]. split.
  - intros k x E. assert (nth_error l' (N.to_nat k) <> None) as Q by congruence. apply nth_error_Some in Q.
    destruct (Forall2_at _ _ _ H _ _ E) as [i [Ei Pi]].
    rewrite range_nth_error in Ei by lia. injection Ei as <-. split; [lia|].
    now replace (a + k)%N with (a + N.of_nat (N.to_nat k))%N by lia.
  - intros k Hk. destruct (Forall2_at_l _ _ _ H (N.to_nat k) (a + k)%N) as [x [Ex Px]]; [|eauto].
    rewrite range_nth_error by lia. f_equal. lia.
Qed.

Lemma nth_error_firstn {A} (l : list A) n k : nth_error (firstn n l) k = if (k <? n)%nat then nth_error l k else None.
Proof.
  revert n k. induction l as [|a l IH]; intros [|n] [|k]; cbn; try reflexivity.
  - now destruct (match n with O => false | S m => (k <=? m)%nat end).
  - apply IH.
Qed.
Lemma nth_error_skipn' {A} (l : list A) n k : nth_error (skipn n l) k = nth_error l (n + k).
Proof. revert l. induction n as [|n IH]; intros [|a l]; cbn; [reflexivity | reflexivity | now destruct k | apply IH]. Qed.

Lemma vslice_ok {A} (l : list A) lo hi : (lo <= hi <= vlen l)%N -> exists s, vslice l lo hi = Val s /\
  vlen s = (hi - lo)%N /\ (forall k x, at_ s k x <-> (k < hi - lo)%N /\ at_ l (lo + k) x).
Proof.
  intros H. unfold vslice. destruct (N.leb_spec hi (vlen l)); [|lia].
  eexists. split; [reflexivity|]. unfold vlen in *. rewrite firstn_length, skipn_length. split; [lia|].
  intros k x. unfold at_. rewrite nth_error_firstn, nth_error_skipn'.
  destruct (Nat.ltb_spec (N.to_nat k) (N.to_nat (hi - lo))) as [L|L].
  - replace (N.to_nat lo + N.to_nat k)%nat with (N.to_nat (lo + k)) by lia. split; [intros E; split; [lia | exact E] | tauto].
  - split; [discriminate | lia].
Qed.

Lemma at_lt {A} (l : list A) k x : at_ l k x -> (k < vlen l)%N.
Proof. intros H. unfold vlen. assert (nth_error l (N.to_nat k) <> None) as Q by (unfold at_ in H; congruence). apply nth_error_Some in Q. lia. Qed.
Lemma lt_at {A} (l : list A) k : (k < vlen l)%N -> exists x, at_ l k x.
Proof. intros H. destruct (vget_lt l k H) as [x X]. exists x. now apply vget_val. Qed.
Lemma at_vget {A} (l : list A) k x : at_ l k x -> vget l k = Val x.
Proof. apply vget_val. Qed.

Section Load.
  Context {F : Type} {NF : Num F}.

  Lemma opt_slice_ok (o : option (list F)) lo hi n : long_if_there o n -> (lo <= hi <= n)%N ->
    exists s, opt_slice o lo hi = Val s /\ vlen s = (hi - lo)%N /\
      (forall k x, at_ s k x -> row_or_zero o (lo + k) x).
  Proof.
    intros H Hl. destruct o as [l|]; cbn [opt_slice row_or_zero long_if_there] in *.
    - destruct (vslice_ok l lo hi) as [s [E [L X]]]; [lia|]. exists s. split; [exact E|]. split; [exact L|].
      intros k x Hk. now apply X.
    - eexists. split; [reflexivity|]. unfold vlen. rewrite repeat_length. split; [lia|].
      intros k x E. apply nth_error_In, repeat_spec in E. exact E.
  Qed.

  (** Column [i] holds rows lo..hi of particle [i]. *)
  Definition col_ok (f : pfile F) (lo hi i : N) (c : pcol) : Prop :=
    exists g g0, pf_group f i = Some g /\ pf_group f 0 = Some g0 /\
      vlen (pc_pos c) = (hi - lo)%N /\ vlen (pc_vel c) = (hi - lo)%N /\ vlen (pc_radius c) = (hi - lo)%N /\
      vlen (pc_type c) = (hi - lo)%N /\ vlen (pc_density c) = (hi - lo)%N /\ vlen (pc_time c) = (hi - lo)%N /\
      (forall k x, at_ (pc_pos c) k x -> row (pg_position g) (lo + k) x) /\
      (forall k x, at_ (pc_vel c) k x -> row (pg_velocity g) (lo + k) x) /\
      (forall k x, at_ (pc_radius c) k x -> row_or_zero (pg_radius g) (lo + k) x) /\
      (forall k x, at_ (pc_type c) k x -> row_or_zero (pg_ptype g) (lo + k) x) /\
      (forall k x, at_ (pc_density c) k x -> row_or_zero (pg_density g) (lo + k) x) /\
      (forall k x, at_ (pc_time c) k x -> row (pg_time g0) (lo + k) x).

  Lemma p_column_ok f lo hi i : pf_ok f -> (lo <= hi <= pf_timesteps f)%N -> (i < pf_nparticles f)%N ->
    exists c, p_column f lo hi i = Val c /\ col_ok f lo hi i c.
  Proof.
    intros [_ [_ [[g0 [G0 [lt [Lt Ht]]]] Hg]]] Hl Hi.
    destruct (Hg i Hi) as [g [G [[lp [Lp Hp]] [[lv [Lv Hv]] [Hr [Hd Hty]]]]]].
    unfold p_column. rewrite G. cbn [unwrap bind]. rewrite Lp. cbn [unwrap bind].
    destruct (vslice_ok lp lo hi) as [sp [Ep [Np Xp]]]; [lia|]. rewrite Ep. cbn [bind]. rewrite Lv. cbn [unwrap bind].
    destruct (vslice_ok lv lo hi) as [sv [Ev [Nv Xv]]]; [lia|]. rewrite Ev. cbn [bind].
    destruct (opt_slice_ok _ lo hi _ Hr Hl) as [sr [Er [Nr Xr]]]. rewrite Er. cbn [bind].
    destruct (opt_slice_ok _ lo hi _ Hty Hl) as [sy [Ey [Ny Xy]]]. rewrite Ey. cbn [bind].
    destruct (opt_slice_ok _ lo hi _ Hd Hl) as [sd [Ed [Nd Xd]]]. rewrite Ed. cbn [bind].
    rewrite G0. cbn [unwrap bind]. rewrite Lt. cbn [unwrap bind].
    destruct (vslice_ok lt lo hi) as [st [Et [Nt Xt]]]; [lia|]. rewrite Et. cbn [bind].
    eexists. split; [reflexivity|]. exists g, g0. cbn [pc_pos pc_vel pc_radius pc_type pc_density pc_time].
    repeat split; try assumption.
    - intros k x E. exists lp. split; [exact Lp|]. now apply Xp.
    - intros k x E. exists lv. split; [exact Lv|]. now apply Xv.
    - intros k x E. exists lt. split; [exact Lt|]. now apply Xt.
  Qed.

  Lemma mmap_get_ok {A B} (sel : A -> list B) (cols : list A) k :
    (forall c, In c cols -> (k < vlen (sel c))%N) ->
    exists l, mmap (fun c => vget (sel c) k) cols = Val l /\ vlen l = vlen cols /\
      (forall i c, at_ cols i c -> exists x, at_ l i x /\ at_ (sel c) k x).
  Proof.
    intros H. destruct (mmap_ok (fun c => vget (sel c) k) (fun c x => at_ (sel c) k x) cols) as [l [E X]].
    { intros c Hc. destruct (lt_at (sel c) k (H c Hc)) as [x Hx]. exists x. split; [now apply at_vget | exact Hx]. }
    exists l. split; [exact E|]. split; [unfold vlen; now rewrite (Forall2_length _ _ _ X)|].
    intros i c Hc. destruct (Forall2_at_l _ _ _ X _ _ Hc) as [x [Hx Px]]. eauto.
  Qed.

  Lemma p_load_good f lo hi : pf_ok f -> (lo <= hi <= pf_timesteps f)%N -> exists l, p_load f lo hi = Val l /\
    vlen l = (hi - lo)%N /\ forall k x, at_ l k x -> p_shows f (lo + k)%N x.
  Proof.
    intros Hf Hl. unfold p_load. destruct (N.ltb_spec hi lo); [lia|].
    destruct (mmap_ok (p_column f lo hi) (col_ok f lo hi) (range 0 (pf_nparticles f))) as [cols [E C]].
    { intros i Hi. apply in_range in Hi. apply p_column_ok; [exact Hf | exact Hl | lia]. }
    rewrite E. cbn [bind]. destruct (Forall2_range _ _ _ _ C) as [Lc [C1 C2]]. rewrite N.sub_0_r in *.
    assert (Ln : forall c, In c cols -> exists i, (i < pf_nparticles f)%N /\ col_ok f lo hi i c).
    { intros c Hc. apply In_nth_error in Hc. destruct Hc as [n Hn].
      destruct (C1 (N.of_nat n) c) as [A B]; [unfold at_; now rewrite Nat2N.id|]. eauto. }
    destruct (mmap_ok (p_row cols) (fun k x => p_shows f (lo + k) x) (range 0 (hi - lo))) as [l [El X]].
    { intros k Hk. apply in_range in Hk. unfold p_row.
      assert (Hnp : (0 < pf_nparticles f)%N) by (destruct Hf; lia).
      destruct (C2 0%N Hnp) as [c0 [Hc0 Oc0]]. rewrite (at_vget _ _ _ Hc0). cbn [bind].
      destruct Oc0 as [g [g0 [G [G0 [P1 [P2 [P3 [P4 [P5 [P6 [Q1 [Q2 [Q3 [Q4 [Q5 Q6]]]]]]]]]]]]]]].
      destruct (lt_at (pc_time c0) k ltac:(lia)) as [tm Htm]. rewrite (at_vget _ _ _ Htm). cbn [bind].
      assert (S : forall {B} (sel : pcol -> list B), (forall i c, col_ok f lo hi i c -> vlen (sel c) = (hi - lo)%N) ->
        exists l, mmap (fun c => vget (sel c) k) cols = Val l /\ vlen l = pf_nparticles f /\
          (forall i c, at_ cols i c -> exists x, at_ l i x /\ at_ (sel c) k x)).
      { intros B sel Hsel. destruct (mmap_get_ok sel cols k) as [l [M1 [M2 M3]]].
        - intros c Hc. destruct (Ln c Hc) as [i [_ Oc]]. rewrite (Hsel i c Oc). lia.
        - exists l. split; [exact M1|]. split; [lia | exact M3]. }
      destruct (S _ pc_pos ltac:(intros i c [? [? D]]; apply D)) as [lp [-> [Np Xp]]]. cbn [bind].
      destruct (S _ pc_vel ltac:(intros i c [? [? D]]; apply D)) as [lv [-> [Nv Xv]]]. cbn [bind].
      destruct (S _ pc_radius ltac:(intros i c [? [? D]]; apply D)) as [lr [-> [Nr Xr]]]. cbn [bind].
      destruct (S _ pc_density ltac:(intros i c [? [? D]]; apply D)) as [ld [-> [Nd Xd]]]. cbn [bind].
      destruct (S _ pc_type ltac:(intros i c [? [? D]]; apply D)) as [ly [-> [Ny Xy]]]. cbn [bind].
      eexists. split; [reflexivity|]. unfold p_shows. cbn [ts_time ts_pos ts_vel ts_radius ts_id ts_clouds ts_density ts_type].
      assert (MI : forall {A B} (h : A -> B) (l : list A), vlen (map h l) = vlen l) by (intros; unfold vlen; now rewrite map_length).
      assert (RI : vlen (range 0 (vlen cols)) = pf_nparticles f) by (unfold vlen in *; rewrite range_length; lia).
      split; [exists g0; split; [exact G0 | now apply Q6]|]. rewrite !MI, RI.
      repeat (split; [assumption || reflexivity|]).
      intros i Hi. destruct (C2 i Hi) as [c [Hc [g' [g0' [G' [_ [_ [_ [_ [_ [_ [_ [R1 [R2 [R3 [R4 [R5 _]]]]]]]]]]]]]]]]].
      destruct (Xp i c Hc) as [p [Hp1 Hp2]]. destruct (Xv i c Hc) as [v [Hv1 Hv2]].
      destruct (Xr i c Hc) as [r [Hr1 Hr2]]. destruct (Xd i c Hc) as [de [Hd1 Hd2]].
      destruct (Xy i c Hc) as [ty [Hy1 Hy2]].
      exists g', p, v, r, de, ty. repeat split; auto.
      - unfold at_. rewrite nth_error_map, range_nth_error by lia. cbn. f_equal. f_equal. lia.
      - unfold at_ in *. rewrite nth_error_map, Hc. reflexivity. }
    rewrite El. exists l. split; [reflexivity|].
    destruct (Forall2_range _ _ _ _ X) as [Lx [X1 _]]. rewrite N.sub_0_r in *. split; [exact Lx|].
    intros k x Hk. destruct (X1 k x Hk) as [_ Y]. exact Y.
  Qed.

  Lemma t_single_ok f t : tf_ok f -> (t < tf_timesteps f)%N -> exists x, t_read_single f t = Val x /\ t_shows f t x.
  Proof.
    intros [_ H] Ht. destruct (H t Ht) as [g [G [H1 [H2 [H3 [H4 [H5 [H6 H7]]]]]]]].
    unfold t_read_single. rewrite G. cbn [unwrap bind].
    destruct (tg_position g) as [p|] eqn:Ep; [|contradiction]. cbn [unwrap bind].
    destruct (tg_velocity g) as [v|] eqn:Ev; [|contradiction]. cbn [unwrap bind].
    destruct (tg_radius g) as [r|] eqn:Er; [|contradiction]. cbn [unwrap bind].
    destruct (tg_ppcloud g) as [c|] eqn:Ec; [|contradiction]. cbn [unwrap bind].
    destruct (tg_time g) as [tm|] eqn:Et; [|contradiction]. cbn [unwrap bind].
    destruct (tg_ptype g) as [ty|] eqn:Ey; [|contradiction]. cbn [unwrap bind].
    destruct (tg_id g) as [i|] eqn:Ei; [|contradiction]. cbn [unwrap bind].
    eexists. split; [reflexivity|]. exists g. cbn [ts_time ts_pos ts_vel ts_radius ts_id ts_clouds ts_density ts_type].
    repeat split; try assumption. destruct (tg_density g); [reflexivity|].
    clear. induction r as [|a r IH]; cbn; [reflexivity | now f_equal].
  Qed.
  Lemma t_load_good f lo hi : tf_ok f -> (lo <= hi <= tf_timesteps f)%N -> exists l, t_load f lo hi = Val l /\
    vlen l = (hi - lo)%N /\ forall k x, at_ l k x -> t_shows f (lo + k)%N x.
  Proof.
    intros Hf Hl. unfold t_load.
    destruct (mmap_ok (t_read_single f) (t_shows f) (range lo hi)) as [l [E X]].
    { intros t Ht. apply in_range in Ht. apply t_single_ok; [exact Hf | lia]. }
    exists l. split; [exact E|]. destruct (Forall2_range _ _ _ _ X) as [Lx [X1 _]]. split; [exact Lx|].
    intros k x Hk. now apply X1.
  Qed.

  (** What a file shows at a timestep is unique. *)
  Lemma at_ext {A} (l l' : list A) n : vlen l = n -> vlen l' = n ->
    (forall i, (i < n)%N -> exists x, at_ l i x /\ at_ l' i x) -> l = l'.
  Proof.
    intros L L' H. apply list_ext. intros k. destruct (N.lt_ge_cases (N.of_nat k) n) as [Hk|Hk].
    - destruct (H _ Hk) as [x [X Y]]. unfold at_ in *. rewrite Nat2N.id in *. congruence.
    - unfold vlen in *. rewrite !(proj2 (nth_error_None _ _)) by lia. reflexivity.
  Qed.
  Lemma row_fun {A} (o : option (list A)) t x y : row o t x -> row o t y -> x = y.
  Proof. intros [l [-> X]] [l' [E Y]]. injection E as <-. unfold at_ in *. congruence. Qed.
  Lemma row0_fun (o : option (list F)) t x y : row_or_zero o t x -> row_or_zero o t y -> x = y.
  Proof. destruct o; cbn; unfold at_; congruence. Qed.
  Lemma p_shows_unique f t x y : p_shows f t x -> p_shows f t y -> x = y.
  Proof.
    intros [[g [G T]] [L1 [L2 [L3 [L4 [L5 [L6 [L7 H]]]]]]]] [[g' [G' T']] [M1 [M2 [M3 [M4 [M5 [M6 [M7 H']]]]]]]].
    rewrite G in G'. injection G' as <-.
    assert (X : forall i, (i < pf_nparticles f)%N ->
      (exists a, at_ (ts_pos x) i a /\ at_ (ts_pos y) i a) /\ (exists a, at_ (ts_vel x) i a /\ at_ (ts_vel y) i a) /\
      (exists a, at_ (ts_radius x) i a /\ at_ (ts_radius y) i a) /\ (exists a, at_ (ts_id x) i a /\ at_ (ts_id y) i a) /\
      (exists a, at_ (ts_clouds x) i a /\ at_ (ts_clouds y) i a) /\ (exists a, at_ (ts_density x) i a /\ at_ (ts_density y) i a) /\
      (exists a, at_ (ts_type x) i a /\ at_ (ts_type y) i a)).
    { intros i Hi. destruct (H i Hi) as [h [p [v [r [de [ty [A1 [A2 [A3 [A4 [A5 [A6 [A7 [A8 [A9 [A10 [A11 [A12 A13]]]]]]]]]]]]]]]]]].
      destruct (H' i Hi) as [h' [p' [v' [r' [de' [ty' [B1 [B2 [B3 [B4 [B5 [B6 [B7 [B8 [B9 [B10 [B11 [B12 B13]]]]]]]]]]]]]]]]]].
      rewrite A1 in B1. injection B1 as <-.
      rewrite (row_fun _ _ _ _ B3 A3) in B2. rewrite (row_fun _ _ _ _ B5 A5) in B4.
      rewrite (row0_fun _ _ _ _ B7 A7) in B6. rewrite (row0_fun _ _ _ _ B9 A9) in B8. rewrite (row0_fun _ _ _ _ B11 A11) in B10.
      repeat split; eexists; split; eassumption. }
    destruct x as [x1 x2 x3 x4 x5 x6 x7 x8], y as [y1 y2 y3 y4 y5 y6 y7 y8].
    cbn [ts_time ts_pos ts_vel ts_radius ts_id ts_clouds ts_density ts_type] in *.
    f_equal; [now apply (row_fun _ _ _ _ T T') | | | | | | |];
      (eapply at_ext; [eassumption | eassumption | intros i Hi; apply (X i Hi)]).
  Qed.
  Lemma t_shows_unique f t x y : t_shows f t x -> t_shows f t y -> x = y.
  Proof.
    intros [g [G [A1 [A2 [A3 [A4 [A5 [A6 [A7 A8]]]]]]]]] [g' [G' [B1 [B2 [B3 [B4 [B5 [B6 [B7 B8]]]]]]]]].
    rewrite G in G'. injection G' as <-. destruct x as [x1 x2 x3 x4 x5 x6 x7 x8], y as [y1 y2 y3 y4 y5 y6 y7 y8].
    cbn [ts_time ts_pos ts_vel ts_radius ts_id ts_clouds ts_density ts_type] in *.
    destruct (tg_density g); congruence.
  Qed.
End Load.
