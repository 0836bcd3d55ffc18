(** * Proofs about buffered reading. *)
From Coq Require Import Reals NArith ZArith List Lia ZifyN ZifyNat ZifyBool.
From Flocq Require Import IEEE754.BinarySingleNaN.
From Verif Require Import Base BaseFacts Num F64Facts F64Floor NDArray DataModel DataSpec.

Lemma chunk_div (t : N) : (t < 2 ^ 53)%N -> chunk (F := f64) t = (t / BUFFERSIZE)%N.
Proof.
  intros H. unfold chunk, nofN. cbn [nusize nfloor ndiv nof num_f64].
  rewrite div_floor_usize; [| lia | unfold BUFFERSIZE; lia].
  rewrite <- N2Z.inj_div. apply N2Z.id.
Qed.

Lemma nth_error_overwrite {A} (l v s : list A) k : overwrite l v = Val s ->
  length s = length v /\ (k < length l -> nth_error s k = nth_error l k).
Proof.
  unfold overwrite. destruct (Nat.leb_spec (length l) (length v)) as [H|H]; [|discriminate].
  intros E. injection E as <-. split.
  - rewrite app_length, skipn_length. lia.
  - intros Hk. now apply nth_error_app1.
Qed.
Lemma overwrite_ok {A} (l v : list A) : length l <= length v -> exists s, overwrite l v = Val s.
Proof. intros H. unfold overwrite. apply Nat.leb_le in H. rewrite H. eauto. Qed.

Lemma wrapped (t lo : N) : (t < lo)%N -> (lo <= 2 ^ 53)%N -> forall bld k, usub bld t lo = Val k -> (2 ^ 63 <= k)%N.
Proof.
  intros H1 H2 bld k. unfold usub. destruct (N.leb_spec lo t); [lia|].
  destruct bld; [discriminate|]. intros E. injection E as <-. unfold usize_modulus. lia.
Qed.

Lemma reach_ok bld (t n : N) : (t <= 2 ^ 53)%N -> (n <= BUFFERSIZE)%N -> uadd bld t n = Val (t + n)%N.
Proof.
  intros H1 H2. unfold uadd. destruct (N.ltb_spec (t + n) usize_modulus) as [_|C]; [reflexivity|].
  unfold usize_modulus, BUFFERSIZE in *. lia.
Qed.

Lemma vset_nth {A} (l : list A) i v l' : vset l i v = Val l' ->
  length l' = length l /\ nth_error l' (N.to_nat i) = Some v /\
  forall k, k <> N.to_nat i -> nth_error l' k = nth_error l k.
Proof.
  intros H. destruct (vset_val l i v l' H) as [H1 [H2 H3]]. split; [unfold vlen in H2; lia|]. split.
  - apply vget_val. rewrite H3. now rewrite N.eqb_refl.
  - intros k Hk. specialize (H3 (N.of_nat k)). destruct (N.eqb_spec i (N.of_nat k)); [lia|].
    unfold vget in H3. rewrite Nat2N.id in H3.
    destruct (nth_error l' k), (nth_error l k); cbn in H3; congruence.
Qed.

Lemma list_ext {A} (l l' : list A) : (forall k, nth_error l k = nth_error l' k) -> l = l'.
Proof.
  revert l'. induction l as [|a l IH]; intros [|b l'] H; [reflexivity | specialize (H 0); discriminate | specialize (H 0); discriminate |].
  f_equal; [specialize (H 0); cbn in H; congruence|]. apply IH. intros k. apply (H (S k)).
Qed.

Section Buf.
  Context (bld : build) (load : N -> N -> res (list (timestep f64))) (nt : N)
          (good : N -> timestep f64 -> Prop).
  Hypothesis Hnt : (1 <= nt <= 2 ^ 53)%N.
  Hypothesis Hload : forall lo hi, (lo <= hi <= nt)%N -> exists l, load lo hi = Val l /\
    vlen l = (hi - lo)%N /\ forall k x, at_ l k x -> good (lo + k)%N x.

  Definition binv (b : buf f64) : Prop :=
    vlen (b_slots b) = BUFFERSIZE /\ (b_lo b < b_hi b <= nt)%N /\ b_size b = (b_hi b - b_lo b)%N /\
    (b_size b <= BUFFERSIZE)%N /\
    forall k, (k < b_hi b - b_lo b)%N -> exists x, at_ (b_slots b) k x /\ good (b_lo b + k)%N x.

  Lemma update_ok b lo hi : vlen (b_slots b) = BUFFERSIZE -> (lo < nt)%N -> (lo < hi <= lo + BUFFERSIZE)%N ->
    exists b', buf_update bld load nt lo hi b = Val b' /\ binv b' /\ b_lo b' = lo /\ b_hi b' = N.min hi nt.
  Proof.
    intros Hs Hl Hh. unfold buf_update.
    set (h := (if (nt <=? hi)%N then nt else hi)).
    assert (Eh : h = N.min hi nt) by (unfold h; destruct (N.leb_spec nt hi); lia).
    rewrite usub_ge by lia. cbn [bind].
    destruct (Hload lo h ltac:(lia)) as [l [L1 [L2 L3]]]. rewrite L1. cbn [bind].
    assert (Ln : length l = N.to_nat (h - lo)) by (unfold vlen in L2; lia).
    destruct (overwrite_ok l (b_slots b)) as [s S]; [unfold vlen in Hs; lia|]. rewrite S. cbn [bind].
    eexists. split; [reflexivity|]. unfold binv. cbn [b_slots b_lo b_hi b_size].
    destruct (nth_error_overwrite l (b_slots b) s 0 S) as [Sl _].
    repeat split; try lia.
    - unfold vlen in *. lia.
    - intros k Hk. destruct (vget_lt l k) as [x X]; [lia|]. apply vget_val in X. exists x. split.
      + unfold at_. destruct (nth_error_overwrite l (b_slots b) s (N.to_nat k) S) as [_ Q].
        rewrite Q; [exact X | unfold vlen in *; lia].
      + apply L3. exact X.
  Qed.

  Lemma binv_read b t : binv b -> (b_lo b <= t < b_hi b)%N ->
    exists x, usub bld t (b_lo b) = Val (t - b_lo b)%N /\ vget (b_slots b) (t - b_lo b) = Val x /\ good t x.
  Proof.
    intros [H1 [H2 [H3 [H4 H5]]]] Ht. destruct (H5 (t - b_lo b)%N ltac:(lia)) as [x [X G]].
    exists x. split; [apply usub_ge; lia|]. split; [now apply vget_val|].
    replace (b_lo b + (t - b_lo b))%N with t in G by lia. exact G.
  Qed.

  Definition dinv (d : dm f64) : Prop :=
    binv (d_main d) /\ Forall binv (d_extra d) /\ length (d_names d) = length (d_extra d).

  Lemma repeat_vlen {A} (x : A) n : vlen (repeat x (N.to_nat n)) = n.
  Proof. unfold vlen. rewrite repeat_length. lia. Qed.

  Lemma new_ok : exists d, dm_new bld load nt = Val d /\ dinv d /\ d_extra d = [] /\
    b_lo (d_main d) = 0%N /\ b_hi (d_main d) = N.min BUFFERSIZE nt.
  Proof.
    unfold dm_new. destruct (update_ok (mkBuf fresh_slots 0 0 BUFFERSIZE) 0 BUFFERSIZE) as [b [E [I [L H]]]];
      [apply repeat_vlen | lia | unfold BUFFERSIZE; lia |].
    rewrite E. cbn [bind]. eexists. split; [reflexivity|]. unfold dinv. cbn. auto.
  Qed.

  Lemma get_ok d t : dinv d -> (t < nt)%N ->
    exists d' x, dm_get bld load nt d t = Val (d', x) /\ good t x /\ dinv d' /\
      d_extra d' = d_extra d /\ d_names d' = d_names d /\ (b_lo (d_main d') <= t < b_hi (d_main d'))%N /\
      ((nt <= BUFFERSIZE)%N -> b_lo (d_main d) = 0%N /\ b_hi (d_main d) = nt -> d_main d' = d_main d).
  Proof.
    intros [Im [Ie En]] Ht. pose proof Im as [M1 [M2 [M3 [M4 M5]]]]. unfold dm_get.
    rewrite usub_ge by lia. cbn [bind].
    assert (Main : forall m', binv m' -> (b_lo m' <= t < b_hi m')%N ->
      exists d' x, (let! k := usub bld t (b_lo m') in let! x := vget (b_slots m') k in
                    Val (mkDm m' (d_extra d) (d_names d), x)) = Val (d', x) /\ good t x /\ dinv d' /\
        d_extra d' = d_extra d /\ d_names d' = d_names d /\
        (b_lo (d_main d') <= t < b_hi (d_main d'))%N /\ d_main d' = m').
    { intros m' Im' Hm'. destruct (binv_read m' t Im' Hm') as [x [E1 [E2 G]]]. rewrite E1. cbn [bind].
      rewrite E2. cbn [bind]. eexists _, _. split; [reflexivity|]. unfold dinv. cbn. auto 10. }
    destruct (N.ltb_spec (b_hi (d_main d) - 1) t) as [C|C].
    - rewrite reach_ok by lia. cbn [bind]. destruct (update_ok (d_main d) t (t + b_size (d_main d))) as [m' [E [I [L H]]]]; [exact M1 | lia | lia |].
      rewrite E. cbn [bind]. destruct (Main m' I) as [d' [x [P1 [P2 [P3 [P4 [P5 [P6 P7]]]]]]]]; [lia|].
      exists d', x. repeat split; try assumption; try apply P3; try lia; intros; exfalso; lia.
    - destruct (N.ltb_spec t (b_lo (d_main d))) as [C2|C2].
      + rewrite (chunk_div t) by lia.
        assert (Db : (t / BUFFERSIZE * BUFFERSIZE <= t < (t / BUFFERSIZE + 1) * BUFFERSIZE)%N).
        { assert (A := N.div_mod' t BUFFERSIZE). assert (B := N.mod_upper_bound t BUFFERSIZE ltac:(discriminate)). lia. }
        destruct (update_ok (d_main d) (t / BUFFERSIZE * BUFFERSIZE) ((t / BUFFERSIZE + 1) * BUFFERSIZE))
          as [m' [E [I [L H]]]]; [exact M1 | lia | lia |].
        rewrite E. cbn [bind]. destruct (Main m' I) as [d' [x [P1 [P2 [P3 [P4 [P5 [P6 P7]]]]]]]]; [lia|].
        exists d', x. repeat split; try assumption; try apply P3; try lia; intros; exfalso; lia.
      + cbn [bind]. destruct (Main (d_main d) Im) as [d' [x [P1 [P2 [P3 [P4 [P5 [P6 P7]]]]]]]]; [lia|].
        exists d', x. repeat split; try assumption; try apply P3; try lia; intros; assumption.
  Qed.

  Lemma index_of_lt x l k : index_of x l = Some k -> (k < vlen l)%N.
  Proof.
    revert k. induction l as [|y l IH]; cbn; intros k; [discriminate|]. unfold vlen in *. cbn [length].
    destruct (y =? x)%N; [intros E; injection E as <-; lia|].
    destruct (index_of x l) as [j|]; [|discriminate]. specialize (IH j eq_refl).
    intros E. injection E as <-. lia.
  Qed.

  Lemma Forall_vset {A} (P : A -> Prop) l i v l' : Forall P l -> P v -> vset l i v = Val l' -> Forall P l'.
  Proof.
    intros Hl Hv E. destruct (vset_nth _ _ _ _ E) as [Le [Eq Ne]].
    apply Forall_forall. intros y Hy. apply In_nth_error in Hy. destruct Hy as [k Hk].
    destruct (Nat.eq_dec k (N.to_nat i)) as [->|Nk].
    - rewrite Eq in Hk. now injection Hk as <-.
    - rewrite Ne in Hk by exact Nk. rewrite Forall_forall in Hl. apply Hl. now apply nth_error_In in Hk.
  Qed.

  Lemma setup_ok d name : dinv d -> exists d' k e, dm_setup bld load nt d name = Val d' /\ dinv d' /\
    d_main d' = d_main d /\ vget (d_extra d') k = Val e /\ b_lo e = 0%N /\ b_hi e = N.min BUFFERSIZE nt /\
    index_of name (d_names d') = Some k /\
    (forall j, (j < vlen (d_extra d))%N -> j <> k -> vget (d_extra d') j = vget (d_extra d) j) /\
    (vlen (d_extra d) <= vlen (d_extra d'))%N /\
    ((nt <= BUFFERSIZE)%N -> Forall (fun e => b_lo e = 0%N /\ b_hi e = nt) (d_extra d) ->
      Forall (fun e => b_lo e = 0%N /\ b_hi e = nt) (d_extra d')).
  Proof.
    intros [Im [Ie En]]. unfold dm_setup. destruct (index_of name (d_names d)) as [k|] eqn:K.
    - assert (Hk := index_of_lt _ _ _ K).
      destruct (vget_lt (d_extra d) k) as [b B]; [unfold vlen in *; lia|]. rewrite B. cbn [bind].
      assert (Ib : binv b). { rewrite Forall_forall in Ie. apply Ie. apply vget_val in B. now apply nth_error_In in B. }
      destruct (update_ok b 0 BUFFERSIZE) as [b' [E [I [L H]]]]; [apply Ib | lia | unfold BUFFERSIZE; lia |].
      rewrite E. cbn [bind]. destruct (vset_ok (d_extra d) k b') as [ex X]; [unfold vlen in *; lia|].
      rewrite X. cbn [bind]. destruct (vset_nth _ _ _ _ X) as [Le [Eq Ne]].
      eexists _, k, b'. split; [reflexivity|]. unfold dinv. cbn [d_main d_extra d_names].
      split; [split; [exact Im|split; [now apply (Forall_vset _ _ _ _ _ Ie I X) | congruence]]|].
      split; [reflexivity|]. split; [now apply vget_val|]. repeat split; try assumption.
      + intros j _ Nj. unfold vget. rewrite Ne; [reflexivity | lia].
      + unfold vlen. lia.
      + intros Hb Hf. apply (Forall_vset _ _ _ _ _ Hf) with (2 := X). lia.
    - destruct (update_ok (mkBuf fresh_slots 0 BUFFERSIZE BUFFERSIZE) 0 BUFFERSIZE) as [b' [E [I [L H]]]];
        [apply repeat_vlen | lia | unfold BUFFERSIZE; lia |].
      rewrite E. cbn [bind]. eexists _, (vlen (d_extra d)), b'. split; [reflexivity|].
      unfold dinv. cbn [d_main d_extra d_names].
      split; [split; [exact Im|split; [apply Forall_app; auto|rewrite !app_length; cbn; lia]]|].
      split; [reflexivity|].
      assert (G : nth_error (d_extra d ++ [b']) (N.to_nat (vlen (d_extra d))) = Some b').
      { unfold vlen. rewrite Nat2N.id, nth_error_app2, Nat.sub_diag by lia. reflexivity. }
      split; [now apply vget_val|]. repeat split; try assumption.
      + assert (Vn : vlen (d_extra d) = vlen (d_names d)) by (unfold vlen; lia). rewrite Vn. clear -K.
        induction (d_names d) as [|y l IH]; cbn in *; [now rewrite N.eqb_refl|].
        destruct (y =? name)%N; [discriminate|].
        destruct (index_of name l) as [j|]; [discriminate|]. rewrite IH by reflexivity. f_equal. unfold vlen. cbn [length]. lia.
      + intros j Hj _. unfold vget. rewrite nth_error_app1; [reflexivity | unfold vlen in Hj; lia].
      + unfold vlen. rewrite app_length. lia.
      + intros Hb Hf. apply Forall_app. split; [exact Hf|]. constructor; [lia | constructor].
  Qed.

  Lemma extra_inv d id e : dinv d -> vget (d_extra d) id = Val e -> binv e.
  Proof. intros [_ [Ie _]] E. rewrite Forall_forall in Ie. apply Ie. apply vget_val in E. now apply nth_error_In in E. Qed.

  Lemma set_inv d id e ex : dinv d -> binv e -> vset (d_extra d) id e = Val ex ->
    dinv (mkDm (d_main d) ex (d_names d)).
  Proof.
    intros [Im [Ie En]] I X. unfold dinv. cbn [d_main d_extra d_names].
    split; [exact Im|]. split; [now apply (Forall_vset _ _ _ _ _ Ie I X)|].
    destruct (vset_nth _ _ _ _ X) as [Le _]. congruence.
  Qed.

  Lemma stale_panics (b : buf f64) t : vlen (b_slots b) = BUFFERSIZE -> (b_lo b <= 2 ^ 53)%N -> (t < b_lo b)%N ->
    forall k x, usub bld t (b_lo b) = Val k -> vget (b_slots b) k = Val x -> False.
  Proof.
    intros Hs Hl Ht k x K X. assert (W := wrapped t (b_lo b) Ht Hl bld k K).
    apply vget_lt_inv in X. unfold BUFFERSIZE in Hs. lia.
  Qed.

  (** TData: an auxiliary read that answers answers right. *)
  Lemma t_aux_sound d t id d' x : dinv d -> (t < nt)%N ->
    t_get_buffer bld load nt d t id = Val (d', x) -> good t x /\ dinv d' /\ d_main d' = d_main d /\
      vlen (d_extra d') = vlen (d_extra d).
  Proof.
    intros I Ht. unfold t_get_buffer. destruct (vget (d_extra d) id) as [e|] eqn:E; [|discriminate]. cbn [bind].
    assert (Ie := extra_inv d id e I E). pose proof Ie as [E1 [E2 [E3 [E4 E5]]]].
    rewrite usub_ge by lia. cbn [bind].
    (* the state after the first test *)
    set (m1 := if (b_hi e - 1 <? t)%N then (let! hi := uadd bld t (b_size e) in buf_update bld load nt t hi e)
               else if ((b_hi e =? nt)%N && (t <? b_lo e)%N)%bool then buf_update bld load nt 0 BUFFERSIZE e else Val e).
    assert (M1 : exists e1, m1 = Val e1 /\ binv e1 /\ ((t < b_hi e1)%N \/ (BUFFERSIZE <= t)%N /\ b_lo e1 = 0%N)).
    { unfold m1. destruct (N.ltb_spec (b_hi e - 1) t) as [C|C].
      - rewrite reach_ok by lia. cbn [bind]. destruct (update_ok e t (t + b_size e)) as [e' [U [I' [L H]]]]; [exact E1 | lia | lia |].
        exists e'. split; [exact U|]. split; [exact I'|]. left. lia.
      - destruct (N.eqb_spec (b_hi e) nt) as [Cn|Cn]; [destruct (N.ltb_spec t (b_lo e)) as [Cl|Cl]|]; cbn [andb].
        + destruct (update_ok e 0 BUFFERSIZE) as [e' [U [I' [L H]]]]; [exact E1 | lia | unfold BUFFERSIZE; lia |].
          exists e'. split; [exact U|]. split; [exact I'|]. destruct (N.lt_ge_cases t BUFFERSIZE); [left; lia | right; lia].
        + exists e. split; [reflexivity|]. split; [exact Ie|]. left. lia.
        + exists e. split; [reflexivity|]. split; [exact Ie|]. left. lia. }
    clearbody m1. destruct M1 as [e1 [-> [I1 Hi1]]]. cbn [bind].
    pose proof I1 as [F1 [F2 [F3 [F4 F5]]]].
    destruct (N.ltb_spec t (b_lo (d_main d))) as [C|C].
    - rewrite reach_ok by lia. cbn [bind]. destruct (update_ok e1 t (t + b_size e1)) as [e2 [U [I2 [L H]]]]; [exact F1 | lia | lia |].
      rewrite U. cbn [bind]. destruct (vset (d_extra d) id e2) as [ex|] eqn:X; [|discriminate]. cbn [bind].
      destruct (binv_read e2 t I2 ltac:(lia)) as [y [Y1 [Y2 G]]]. rewrite Y1. cbn [bind]. rewrite Y2. cbn [bind].
      intros Q. injection Q as <- <-. split; [exact G|]. split; [now apply (set_inv d id e2 ex)|]. split; [reflexivity|].
      cbn [d_extra]. destruct (vset_nth _ _ _ _ X) as [Le _]. unfold vlen. lia.
    - cbn [bind]. destruct (vset (d_extra d) id e1) as [ex|] eqn:X; [|discriminate]. cbn [bind].
      destruct (usub bld t (b_lo e1)) as [k|] eqn:K; [|discriminate]. cbn [bind].
      destruct (vget (b_slots e1) k) as [y|] eqn:Y; [|discriminate]. cbn [bind].
      intros Q. injection Q as <- <-.
      destruct (N.lt_ge_cases t (b_lo e1)) as [Cl|Cl]; [exfalso; apply (stale_panics e1 t F1 ltac:(lia) Cl k y K Y)|].
      destruct Hi1 as [Hi1|[Hb Hz]].
      + destruct (binv_read e1 t I1 ltac:(lia)) as [y' [Y1 [Y2 G]]]. rewrite Y1 in K. injection K as <-.
        rewrite Y2 in Y. injection Y as <-. split; [exact G|]. split; [now apply (set_inv d id e1 ex)|].
        split; [reflexivity|]. cbn [d_extra]. destruct (vset_nth _ _ _ _ X) as [Le _]. unfold vlen. lia.
      + exfalso. rewrite usub_ge in K by lia. injection K as <-. apply vget_lt_inv in Y. lia.
  Qed.

  (** ... and it answers if the request is not below the auxiliary window. *)
  Lemma t_aux_forward d t id e : dinv d -> (t < nt)%N -> vget (d_extra d) id = Val e -> (b_lo e <= t)%N ->
    exists d' x e', t_get_buffer bld load nt d t id = Val (d', x) /\ vget (d_extra d') id = Val e' /\ (b_lo e' <= t)%N.
  Proof.
    intros I Ht E Hlo. unfold t_get_buffer. rewrite E. cbn [bind].
    assert (Ie := extra_inv d id e I E). pose proof Ie as [E1 [E2 [E3 [E4 E5]]]].
    rewrite usub_ge by lia. cbn [bind].
    set (m1 := if (b_hi e - 1 <? t)%N then (let! hi := uadd bld t (b_size e) in buf_update bld load nt t hi e)
               else if ((b_hi e =? nt)%N && (t <? b_lo e)%N)%bool then buf_update bld load nt 0 BUFFERSIZE e else Val e).
    assert (M1 : exists e1, m1 = Val e1 /\ binv e1 /\ (b_lo e1 <= t < b_hi e1)%N).
    { unfold m1. destruct (N.ltb_spec (b_hi e - 1) t) as [C|C].
      - rewrite reach_ok by lia. cbn [bind]. destruct (update_ok e t (t + b_size e)) as [e' [U [I' [L H]]]]; [exact E1 | lia | lia |].
        exists e'. split; [exact U|]. split; [exact I'|]. lia.
      - destruct (N.ltb_spec t (b_lo e)) as [Cl|Cl]; [lia|]. rewrite Bool.andb_false_r.
        exists e. split; [reflexivity|]. split; [exact Ie|]. lia. }
    clearbody m1. destruct M1 as [e1 [-> [I1 Hi1]]]. cbn [bind].
    pose proof I1 as [F1 [F2 [F3 [F4 F5]]]].
    assert (Idl := vget_lt_inv _ _ _ E).
    assert (Fin : forall e2, binv e2 -> (b_lo e2 <= t < b_hi e2)%N ->
      exists d' x e', (let! ex := vset (d_extra d) id e2 in let! k := usub bld t (b_lo e2) in
        let! x := vget (b_slots e2) k in Val (mkDm (d_main d) ex (d_names d), x)) = Val (d', x) /\
        vget (d_extra d') id = Val e' /\ (b_lo e' <= t)%N).
    { intros e2 I2 H2. destruct (vset_ok (d_extra d) id e2 Idl) as [ex X]. rewrite X. cbn [bind].
      destruct (binv_read e2 t I2 H2) as [y [Y1 [Y2 G]]]. rewrite Y1. cbn [bind]. rewrite Y2. cbn [bind].
      eexists _, _, e2. split; [reflexivity|]. cbn [d_extra]. destruct (vset_nth _ _ _ _ X) as [_ [Eq _]].
      split; [now apply vget_val | lia]. }
    destruct (N.ltb_spec t (b_lo (d_main d))) as [C|C].
    - rewrite reach_ok by lia. cbn [bind]. destruct (update_ok e1 t (t + b_size e1)) as [e2 [U [I2 [L H]]]]; [exact F1 | lia | lia |].
      rewrite U. cbn [bind]. apply Fin; [exact I2 | lia].
    - cbn [bind]. apply Fin; assumption.
  Qed.

  (** PData: with at most BUFFERSIZE timesteps the windows never move. *)
  Definition still (d : dm f64) : Prop :=
    (b_lo (d_main d) = 0%N /\ b_hi (d_main d) = nt) /\ Forall (fun e => b_lo e = 0%N /\ b_hi e = nt) (d_extra d).

  Lemma p_aux_still d t id : dinv d -> still d -> (t < nt)%N -> (id < vlen (d_extra d))%N ->
    exists x, p_get_buffer bld load nt d t id = Val (d, x) /\ good t x.
  Proof.
    intros I [[S1 S2] S3] Ht Hid. unfold p_get_buffer.
    destruct (vget_lt (d_extra d) id Hid) as [e E]. rewrite E. cbn [bind].
    assert (Se : b_lo e = 0%N /\ b_hi e = nt).
    { rewrite Forall_forall in S3. apply S3. apply vget_val in E. now apply nth_error_In in E. }
    rewrite usub_ge by lia. cbn [bind].
    destruct (N.ltb_spec (b_hi e - 1) t) as [C|C]; [lia|].
    destruct (N.ltb_spec t (b_lo e)) as [Cl|Cl]; [lia|]. rewrite Bool.andb_false_r. cbn [bind].
    destruct (N.ltb_spec t (b_lo e)) as [Cl2|_]; [lia|]. cbn [bind].
    destruct (vset_ok (d_extra d) id e Hid) as [ex X]. rewrite X. cbn [bind].
    assert (Ex : ex = d_extra d).
    { destruct (vset_nth _ _ _ _ X) as [Le [Eq Ne]]. apply vget_val in E. clear - Le Eq Ne E.
      apply list_ext. intros k. destruct (Nat.eq_dec k (N.to_nat id)) as [->|Nk]; [congruence | now apply Ne]. }
    subst ex. destruct (binv_read (d_main d) t) as [y [Y1 [Y2 G]]]; [apply I | lia |].
    rewrite usub_ge by lia. cbn [bind].
    replace (t - b_lo e)%N with (t - b_lo (d_main d))%N by lia.
    rewrite Y2. cbn [bind]. exists y. split; [|exact G]. now destruct d.
  Qed.
End Buf.

(** ** Whole histories *)
Section Hist.
  Context (bld : build) (load : N -> N -> res (list (timestep f64))) (nt : N)
          (good : N -> timestep f64 -> Prop)
          (getb : dm f64 -> N -> N -> res (dm f64 * timestep f64)).
  Hypothesis Hnt : (1 <= nt <= 2 ^ 53)%N.
  Hypothesis Hload : forall lo hi, (lo <= hi <= nt)%N -> exists l, load lo hi = Val l /\
    vlen l = (hi - lo)%N /\ forall k x, at_ l k x -> good (lo + k)%N x.
  Notation Inv := (dinv nt good).
  Notation run := (drun bld load nt getb).
  Hypothesis Hgetb : forall d t id d' x, Inv d -> (t < nt)%N -> getb d t id = Val (d', x) -> Inv d'.

  Lemma step_inv d o d' outs : Inv d -> op_in_range nt o -> dstep bld load nt getb d o = Val (d', outs) -> Inv d'.
  Proof.
    intros I Ho E. destruct o as [t|name|t id]; cbn [dstep op_in_range] in *.
    - destruct (get_ok bld load nt good Hnt Hload d t I Ho) as [e [x [G [_ [I' _]]]]]. rewrite G in E. cbn in E.
      now injection E as <- _.
    - destruct (setup_ok bld load nt good Hnt Hload d name I) as [e [k [b [G [I' _]]]]]. rewrite G in E. cbn in E.
      now injection E as <- _.
    - destruct (getb d t id) as [[e x]|] eqn:G; [|discriminate]. cbn in E. injection E as <- _.
      now apply (Hgetb d t id e x).
  Qed.
  Lemma run_inv ops : forall d d' outs, Inv d -> Forall (op_in_range nt) ops -> run ops d = Val (d', outs) -> Inv d'.
  Proof.
    induction ops as [|o ops IH]; intros d d' outs I Ho E; cbn [drun] in E; [now injection E as <- _|].
    destruct (dstep bld load nt getb d o) as [[d1 o1]|] eqn:S; [|discriminate]. cbn [bind fst snd] in E.
    destruct (run ops d1) as [[d2 o2]|] eqn:R; [|discriminate]. cbn [bind fst snd] in E. injection E as <- _.
    inversion Ho; subst. apply (IH d1 d2 o2); auto. now apply (step_inv d o d1 o1).
  Qed.
  (** If every auxiliary answer is right, everything observed is right. *)
  Hypothesis Hgood : forall d t id d' x, Inv d -> (t < nt)%N -> getb d t id = Val (d', x) -> good t x.
  Lemma run_good ops : forall d d' outs, Inv d -> Forall (op_in_range nt) ops -> run ops d = Val (d', outs) ->
    Forall (fun o => good (fst o) (snd o)) outs.
  Proof.
    induction ops as [|o ops IH]; intros d d' outs I Ho E; cbn [drun] in E; [injection E as _ <-; constructor|].
    destruct (dstep bld load nt getb d o) as [[d1 o1]|] eqn:S; [|discriminate]. cbn [bind fst snd] in E.
    destruct (run ops d1) as [[d2 o2]|] eqn:R; [|discriminate]. cbn [bind fst snd] in E. injection E as _ <-.
    inversion Ho; subst. apply Forall_app. split; [|apply (IH d1 d2 o2); auto; now apply (step_inv d o d1 o1)].
    destruct o as [t|name|t id]; cbn [dstep op_in_range] in *.
    - destruct (get_ok bld load nt good Hnt Hload d t I H1) as [e [x [G [Gx _]]]]. rewrite G in S. cbn in S.
      injection S as _ <-. constructor; [exact Gx | constructor].
    - destruct (dm_setup bld load nt d name); [|discriminate]. cbn in S. injection S as _ <-. constructor.
    - destruct (getb d t id) as [[e x]|] eqn:G; [|discriminate]. cbn in S. injection S as _ <-.
      constructor; [now apply (Hgood d t id e x) | constructor].
  Qed.
End Hist.

Section HistReads.
  Context (bld : build) (load : N -> N -> res (list (timestep f64))) (nt : N)
          (good : N -> timestep f64 -> Prop)
          (getb : dm f64 -> N -> N -> res (dm f64 * timestep f64)).
  Hypothesis Hnt : (1 <= nt <= 2 ^ 53)%N.
  Hypothesis Hload : forall lo hi, (lo <= hi <= nt)%N -> exists l, load lo hi = Val l /\
    vlen l = (hi - lo)%N /\ forall k x, at_ l k x -> good (lo + k)%N x.

  (** Main reads alone never panic and are all right. *)
  Lemma reads_ok h : forall d, dinv nt good d -> Forall (fun t => t < nt)%N h ->
    exists d' outs, drun bld load nt getb (map ORead h) d = Val (d', outs) /\ map fst outs = h /\
      Forall (fun o => good (fst o) (snd o)) outs.
  Proof.
    induction h as [|t h IH]; intros d I Hh; cbn [map drun]; [exists d, []; repeat split; constructor|].
    inversion Hh; subst. cbn [dstep].
    destruct (get_ok bld load nt good Hnt Hload d t I H1) as [d1 [x [G [Gx [I1 _]]]]]. rewrite G. cbn [bind fst snd].
    destruct (IH d1 I1 H2) as [d2 [outs [R [M Fo]]]]. rewrite R. cbn [bind fst snd].
    exists d2, ((t, x) :: outs). split; [reflexivity|]. cbn [map fst]. split; [now rewrite M|]. constructor; [exact Gx | exact Fo].
  Qed.
End HistReads.

Lemma p_aux_inv bld (load : N -> N -> res (list (timestep f64))) nt (good : N -> timestep f64 -> Prop) d t id d' x :
  (1 <= nt <= 2 ^ 53)%N ->
  (forall lo hi, (lo <= hi <= nt)%N -> exists l, load lo hi = Val l /\
    vlen l = (hi - lo)%N /\ forall k x, at_ l k x -> good (lo + k)%N x) ->
  dinv nt good d -> (t < nt)%N -> p_get_buffer bld load nt d t id = Val (d', x) -> dinv nt good d'.
Proof.
  intros Hnt Hload I Ht. unfold p_get_buffer.
  destruct (vget (d_extra d) id) as [e|] eqn:E; [|discriminate]. cbn [bind].
  assert (Ie := extra_inv nt good d id e I E). pose proof Ie as [E1 [E2 [E3 [E4 E5]]]].
  destruct I as [Im Io]. pose proof Im as [M1 [M2 [M3 [M4 M5]]]].
  rewrite usub_ge by lia. cbn [bind].
  set (m1 := if (b_hi e - 1 <? t)%N then (let! hi := uadd bld t (b_size (d_main d)) in buf_update bld load nt t hi e)
             else if ((b_hi e =? nt)%N && (t <? b_lo e)%N)%bool then buf_update bld load nt 0 BUFFERSIZE e else Val e).
  assert (A1 : exists e1, m1 = Val e1 /\ binv nt good e1).
  { unfold m1. destruct (N.ltb_spec (b_hi e - 1) t) as [C|C].
    - rewrite reach_ok by lia. cbn [bind]. destruct (update_ok bld load nt good Hnt Hload e t (t + b_size (d_main d))) as [e' [U [I' _]]]; [exact E1 | lia | lia | eauto].
    - destruct (N.eqb_spec (b_hi e) nt) as [Cn|Cn]; [destruct (N.ltb_spec t (b_lo e)) as [Cl|Cl]|]; cbn [andb]; eauto.
      destruct (update_ok bld load nt good Hnt Hload e 0 BUFFERSIZE) as [e' [U [I' _]]]; [exact E1 | lia | unfold BUFFERSIZE; lia | eauto]. }
  clearbody m1. destruct A1 as [e1 [-> I1]]. cbn [bind]. pose proof I1 as [F1 [F2 [F3 [F4 F5]]]].
  set (m2 := if (t <? b_lo e1)%N then (let! hi := uadd bld t (b_size (d_main d)) in buf_update bld load nt t hi e1) else Val e1).
  assert (A2 : exists e2, m2 = Val e2 /\ binv nt good e2).
  { unfold m2. destruct (N.ltb_spec t (b_lo e1)) as [C|C]; eauto.
    rewrite reach_ok by lia. cbn [bind]. destruct (update_ok bld load nt good Hnt Hload e1 t (t + b_size (d_main d))) as [e' [U [I' _]]]; [exact F1 | lia | lia | eauto]. }
  clearbody m2. destruct A2 as [e2 [-> I2]]. cbn [bind].
  destruct (vset (d_extra d) id e2) as [ex|] eqn:X; [|discriminate]. cbn [bind].
  destruct (usub bld t (b_lo e2)) as [k|]; [|discriminate]. cbn [bind].
  destruct (vget (b_slots (d_main d)) k) as [y|]; [|discriminate]. cbn [bind].
  intros Q. injection Q as <- _. apply (set_inv nt good d id e2 ex); [split; assumption | exact I2 | exact X].
Qed.
