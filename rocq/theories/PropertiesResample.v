(** * Property C146: which samples a resampled row is made from, and how far it is from the motion (ideal arithmetic). *)
From Coq Require Import Reals List NArith ZArith Bool Lia Lra ZifyBool ZifyN ZifyNat.
From Verif Require Import Base BaseFacts Num RFacts NDArray DataModel DataSpec DataLoad ConvModel ConvInterp.
Local Open Scope list_scope.

Section Resample.
  Local Open Scope R_scope.

  (** Specification.  The samples are at most twice as dense as the new time base of spacing [dt]. *)
  Definition at_most_twice_as_dense (data : table R) (dt : R) : Prop :=
    forall i t u, cell data i 0 = Val t -> cell data (i + 1) 0 = Val u -> dt <= 2 * (u - t).
  (** Sample [j] is, of all but the first, the one nearest to time [t]. *)
  Definition nearest (data : table R) (j : N) (t : R) : Prop :=
    (1 <= j)%N /\ exists u, cell data j 0 = Val u /\
      forall i v, (1 <= i)%N -> cell data i 0 = Val v -> Rabs (t - u) <= Rabs (t - v).
  Definition between (a b x : R) : Prop := Rmin a b <= x <= Rmax a b.

  Section Steady.
    Variables (data : table R) (time : list R) (dt : R).
    Hypothesis (Ec : column data 0 = Val time) (I : increasing data) (Hn : (3 <= vlen data)%N) (Hdt : 0 <= dt).
    Hypothesis (Sp : at_most_twice_as_dense data dt) (First : forall t, cell data 0 0 = Val t -> 0 <= t).

    Lemma time_len : vlen time = vlen data.
    Proof using Ec. unfold column in Ec. apply mmap_inv in Ec. unfold vlen. now rewrite (Forall2_length _ _ _ Ec). Qed.
    Lemma time_at i : (i < vlen data)%N -> exists t, vget time i = Val t /\ cell data i 0 = Val t.
    Proof using Ec.
      intros Hi. destruct (vget_lt time i) as [t Ht]; [rewrite time_len; exact Hi|]. exists t. split; [exact Ht|].
      exact (proj1 (column_cell _ _ _ _ _ Ec) Ht).
    Qed.
    Lemma nearer (t a b : R) : a < b -> (nabs (t - a) <? nabs (t - b))%num = true <-> 2 * t < a + b.
    Proof using.
      intros H. cbn [nltb nabs nsub num_R]. destruct (Rlt_dec (Rabs (t - a)) (Rabs (t - b))) as [L|L].
      - split; [intros _|reflexivity]. revert L. unfold Rabs. destruct (Rcase_abs (t - a)), (Rcase_abs (t - b)); lra.
      - split; [discriminate|]. intros Q. exfalso. apply L. unfold Rabs. destruct (Rcase_abs (t - a)), (Rcase_abs (t - b)); lra.
    Qed.

    (** The anchor is never ahead of the nearest sample ... *)
    Definition not_ahead (j : N) (t : R) : Prop :=
      (1 < j)%N -> forall a b, cell data (j - 1) 0 = Val a -> cell data j 0 = Val b -> a + b <= 2 * t.
    (** ... and not behind it. *)
    Definition not_behind (j : N) (t : R) : Prop :=
      forall a b, cell data j 0 = Val a -> cell data (j + 1) 0 = Val b -> 2 * t < a + b.
    Lemma anchor_bound k : (anchor time dt k <= vlen data - 1)%N.
    Proof using Ec Hn.
      induction k as [|k IH]; [cbn; clear - Hn; lia|]. assert (H := next_step_range _ _ _ _ (anchor_step time dt k)).
      rewrite time_len in H. clear - H IH. lia.
    Qed.
    Lemma number k : nofN (N.of_nat k) = INR k.
    Proof using. unfold nofN. cbn [nof num_R]. rewrite nat_N_Z. symmetry. apply INR_IZR_INZ. Qed.
    Lemma anchor_steady k : not_ahead (anchor time dt k) (INR k * dt) /\ not_behind (anchor time dt k) (INR k * dt).
    Proof using Ec I Hn Hdt Sp First.
      induction k as [|k [A B]].
      - cbn [anchor]. split; [intros H; lia|]. intros a b Ha Hb. replace (1 + 1)%N with 2%N in Hb by reflexivity.
        destruct (time_at 0) as [t0 [_ C0]]; [clear - Hn; lia|]. assert (F0 := First t0 C0).
        assert (t0 < a) by (apply (I 0 1)%N; [lia | exact C0 | exact Ha]).
        assert (a < b) by (apply (I 1 2)%N; [lia | exact Ha | exact Hb]). cbn [INR]. lra.
      - assert (St := anchor_step time dt k). set (m := anchor time dt k) in *. set (m' := anchor time dt (S k)) in *.
        rewrite number in St. set (t' := (INR (S k) * dt)) in *. assert (Et : t' = INR k * dt + dt) by (unfold t'; rewrite S_INR; ring).
        assert (Bm := anchor_bound k). fold m in Bm. assert (P := anchor_pos time dt k). fold m in P.
        assert (stay : not_ahead m t'). { intros H a b Ha Hb. assert (Q := A H a b Ha Hb). lra. }
        unfold next_step in St. rewrite time_len in St.
        destruct (N.ltb_spec m (vlen data - 1)) as [Lm|Lm]; cbn [negb] in St.
        2:{ injection St as <-. split; [exact stay|]. intros a b _ Hb. exfalso. apply cell_val in Hb as [r [Hr _]].
            apply at_lt in Hr. lia. }
        destruct (time_at m) as [a [Va Ca]]; [lia|]. destruct (time_at (m + 1)) as [b [Vb Cb]]; [lia|].
        rewrite Va, Vb in St. cbn [bind] in St. assert (ab : a < b) by (apply (I m (m + 1))%N; [lia | exact Ca | exact Cb]).
        assert (X : (b <? a)%num = false). { cbn [nltb num_R]. destruct (Rlt_dec b a); [lra | reflexivity]. }
        rewrite X in St. assert (Bk := B a b Ca Cb). assert (g1 := Sp m a b Ca Cb).
        destruct (nabs (nmul (INR (S k)) dt - a) <? nabs (nmul (INR (S k)) dt - b))%num eqn:N1; change (nmul (INR (S k)) dt) with t' in *.
        { injection St as <-. split; [exact stay|]. intros a' b' Ha Hb.
          assert (a' = a) by congruence. assert (b' = b) by congruence. subst. now apply nearer. }
        assert (Q1 : a + b <= 2 * t'). { destruct (Rle_lt_dec (a + b) (2 * t')) as [|Q]; [assumption|]. apply nearer in Q; [|exact ab]. congruence. }
        assert (one : not_ahead (m + 1) t').
        { intros _ a' b' Ha Hb. replace (m + 1 - 1)%N with m in Ha by lia. assert (a' = a) by congruence. assert (b' = b) by congruence. subst. exact Q1. }
        destruct (N.ltb_spec (m + 1) (vlen data - 1)) as [L1|L1]; cbn [negb] in St.
        2:{ injection St as <-. split; [exact one|]. intros a' b' _ Hb. exfalso. apply cell_val in Hb as [r [Hr _]]. apply at_lt in Hr. lia. }
        destruct (time_at (m + 2)) as [c [Vc Cc]]; [lia|]. rewrite Vc in St. cbn [bind] in St.
        assert (bc : b < c) by (apply (I (m + 1) (m + 2))%N; [lia | exact Cb | exact Cc]).
        assert (g2 : dt <= 2 * (c - b)) by (apply (Sp (m + 1)%N); [exact Cb | replace (m + 1 + 1)%N with (m + 2)%N by lia; exact Cc]).
        destruct (nabs (t' - b) <? nabs (t' - c))%num eqn:N2.
        { injection St as <-. split; [exact one|]. intros a' b' Ha Hb. replace (m + 1 + 1)%N with (m + 2)%N in Hb by lia.
          assert (a' = b) by congruence. assert (b' = c) by congruence. subst. now apply nearer. }
        injection St as <-.
        assert (Q2 : b + c <= 2 * t'). { destruct (Rle_lt_dec (b + c) (2 * t')) as [|Q]; [assumption|]. apply nearer in Q; [|exact bc]. congruence. }
        split.
        + intros _ a' b' Ha Hb. replace (m + 2 - 1)%N with (m + 1)%N in Ha by lia. assert (a' = b) by congruence. assert (b' = c) by congruence. subst. exact Q2.
        + intros a' b' Ha Hb. assert (a' = c) by congruence. subst a'. assert (g3 := Sp (m + 2)%N c b' Cc Hb).
          lra.
    Qed.

    (** The times of the samples, in order. *)
    Lemma times_le i j a b : (i <= j)%N -> cell data i 0 = Val a -> cell data j 0 = Val b -> a <= b.
    Proof using I.
      intros H Ha Hb. destruct (N.eq_dec i j) as [->|D]; [|apply Rlt_le, (I i j); [clear - H D; lia | exact Ha | exact Hb]].
      assert (a = b) by (clear - Ha Hb; congruence). clear - H0; lra.
    Qed.
    Lemma anchor_nearest k : nearest data (anchor time dt k) (INR k * dt).
    Proof using Ec I Hn Hdt Sp First.
      destruct (anchor_steady k) as [A B]. assert (P := anchor_pos time dt k). assert (U := anchor_bound k).
      set (j := anchor time dt k) in *. set (t := INR k * dt) in *.
      destruct (time_at j) as [u [_ Cu]]; [clear - U Hn; lia|]. split; [exact P|]. exists u. split; [exact Cu|].
      intros i v Hi Cv. destruct (N.lt_trichotomy i j) as [L|[->|L]].
      - destruct (time_at (j - 1)) as [p [_ Cp]]; [clear - U Hn; lia|]. assert (Q := A ltac:(clear - L Hi; lia) p u Cp Cu).
        assert (v <= p) by (apply (times_le i (j - 1)%N); [clear - L; lia | exact Cv | exact Cp]).
        assert (p < u) by (apply (I (j - 1) j)%N; [clear - L; lia | exact Cp | exact Cu]).
        unfold Rabs. destruct (Rcase_abs (t - u)), (Rcase_abs (t - v)); lra.
      - assert (u = v) by congruence. subst. lra.
      - assert (Lv : (i < vlen data)%N). { apply cell_val in Cv as [r [Hr _]]. now apply at_lt in Hr. }
        destruct (time_at (j + 1)) as [p [_ Cp]]; [clear - L Lv; lia|]. assert (Q := B u p Cu Cp).
        assert (p <= v) by (apply (times_le (j + 1)%N i); [clear - L; lia | exact Cp | exact Cv]).
        assert (u < p) by (apply (I j (j + 1))%N; [clear; lia | exact Cu | exact Cp]).
        unfold Rabs. destruct (Rcase_abs (t - u)), (Rcase_abs (t - v)); lra.
    Qed.
  End Steady.

  Lemma line_mix t0 x0 t1 x1 t : t0 < t1 -> line t0 x0 t1 x1 t = ((t1 - t) / (t1 - t0)) * x0 + ((t - t0) / (t1 - t0)) * x1.
  Proof. intros H. unfold line. cbn [nadd nsub nmul ndiv num_R]. field. lra. Qed.
  Lemma line_between t0 x0 t1 x1 t : t0 < t1 -> t0 <= t <= t1 -> between x0 x1 (line t0 x0 t1 x1 t).
  Proof.
    intros H T. unfold line. cbn [nadd nsub nmul ndiv num_R]. set (l := (t - t0) / (t1 - t0)).
    replace ((x1 - x0) / (t1 - t0) * (t - t0)) with ((x1 - x0) * l) by (unfold l; field; lra).
    assert (0 <= l <= 1). { unfold l. split; [apply Rmult_le_pos; [lra | apply Rlt_le, Rinv_0_lt_compat; lra]|]. apply Rmult_le_reg_r with (t1 - t0); [lra|]. unfold Rdiv. rewrite Rmult_assoc, Rinv_l by lra. lra. }
    unfold between, Rmin, Rmax. destruct (Rle_dec x0 x1); nra.
  Qed.

  (** C146: if the samples are at most twice as dense as the new time base, then every new row up to
      the midpoint of the last gap lies on the chord between the two neighbours of the sample nearest
      to its time, and (after the first sample) each coordinate is between those of the neighbours. *)
  Theorem c146_chord (data : table R) max_time steps time t1 t2 : column data 0 = Val time -> increasing data ->
    (3 <= vlen data)%N -> Forall (fun r => (3 < vlen r)%N) data -> (0 < steps)%N -> 0 <= max_time ->
    at_most_twice_as_dense data (max_time / IZR (Z.of_N steps)) -> (forall t, cell data 0 0 = Val t -> 0 <= t) ->
    cell data (vlen data - 2) 0 = Val t1 -> cell data (vlen data - 1) 0 = Val t2 ->
    exists out, interpolate data max_time steps = Val out /\ vlen out = steps /\
      forall k, (1 <= k < steps - 1)%N -> let t := IZR (Z.of_N k) * (max_time / IZR (Z.of_N steps)) in
        2 * t < t1 + t2 ->
        exists j ta xa ya za tb xb yb zb, nearest data j t /\ (j + 1 < vlen data)%N /\
          sample_at data (j - 1) ta xa ya za /\ sample_at data (j + 1) tb xb yb zb /\ ta < tb /\ t <= tb /\
          at_ out k [t; line ta xa tb xb t; line ta ya tb yb t; line ta za tb zb t] /\
          ((forall t0, cell data 0 0 = Val t0 -> t0 <= t) ->
            ta <= t /\ between xa xb (line ta xa tb xb t) /\ between ya yb (line ta ya tb yb t) /\ between za zb (line ta za tb zb t)).
  Proof.
    intros Ec I Hn W Hs Hm Sp Fst C1 C2. assert (Es := increasing_sorted data time Ec I).
    destruct (interp_spec data max_time steps time Ec Es ltac:(lia) W Hs) as [out [first [last [E [L [_ [_ [_ [_ H]]]]]]]]].
    exists out. split; [exact E|]. split; [exact L|]. intros k Hk t Ht. destruct (H k Hk) as [r [Hr Er]].
    change (nofN k * (max_time / nofN steps))%num with t in Er.
    change (max_time / nofN steps)%num with (max_time / IZR (Z.of_N steps)) in Er.
    set (dt := max_time / IZR (Z.of_N steps)) in *.
    assert (Hdt : 0 <= dt). { unfold dt. apply Rmult_le_pos; [exact Hm|]. apply Rlt_le, Rinv_0_lt_compat, IZR_lt. lia. }
    assert (Et : INR (N.to_nat k) * dt = t). { unfold t. rewrite INR_IZR_INZ, N_nat_Z. reflexivity. }
    assert (An : (anchor time dt (N.to_nat k) <= vlen data - 2)%N).
    { apply (anchor_interior data time dt t1 t2); try assumption. rewrite Et. exact Ht. }
    assert (Nr := anchor_nearest data time dt Ec I Hn Hdt Sp Fst (N.to_nat k)).
    destruct (anchor_steady data time dt Ec I Hn Hdt Sp Fst (N.to_nat k)) as [Ah Bh].
    assert (P := anchor_pos time dt (N.to_nat k)). rewrite Et in Nr, Ah, Bh. set (j := anchor time dt (N.to_nat k)) in *.
    destruct (interp_row_spec data t j r ltac:(lia) Er) as [[_ [Q|[u0 [u1 [A [B Q]]]]]]|[_ [ta [xa [ya [za [tb [xb [yb [zb [S0 [S1 [Q ->]]]]]]]]]]]]].
    - lia.
    - exfalso. cbn [neqb num_R] in Q. destruct (Req_EM_T u0 u1) as [Eq|]; [|discriminate].
      assert (u0 < u1) by (apply (I (j - 1) (j + 1))%N; [lia | exact A | exact B]). lra.
    - assert (Ca : cell data (j - 1) 0 = Val ta) by (apply sample_cells in S0; tauto).
      assert (Cb : cell data (j + 1) 0 = Val tb) by (apply sample_cells in S1; tauto).
      assert (U : ta < tb) by (apply (I (j - 1) (j + 1))%N; [lia | exact Ca | exact Cb]).
      destruct (time_at data time Ec j) as [u [_ Cu]]; [lia|].
      assert (u < tb) by (apply (I j (j + 1))%N; [lia | exact Cu | exact Cb]).
      assert (ta < u) by (apply (I (j - 1) j)%N; [lia | exact Ca | exact Cu]).
      assert (Bq := Bh u tb Cu Cb).
      exists j, ta, xa, ya, za, tb, xb, yb, zb. split; [exact Nr|]. split; [lia|]. split; [exact S0|]. split; [exact S1|].
      split; [exact U|]. split; [lra|]. split; [exact Hr|]. intros F0.
      assert (Le : ta <= t).
      { destruct (N.eq_dec j 1) as [E1|D1]; [apply F0; rewrite <- Ca; f_equal; lia|]. assert (Q' := Ah ltac:(lia) ta u Ca Cu). lra. }
      split; [exact Le|]. repeat split; apply line_between; lra.
  Qed.

  (** Consequences.  The row at the time of an inner sample does not show that sample but the chord between
      its neighbours, so it shows the sample only if the three are in line. *)
  Theorem c146_at_sample (data : table R) max_time steps time j t x y z : column data 0 = Val time -> increasing data ->
    (3 <= vlen data)%N -> Forall (fun r => (3 < vlen r)%N) data -> (0 < steps)%N -> 0 <= max_time ->
    at_most_twice_as_dense data (max_time / IZR (Z.of_N steps)) -> (forall t, cell data 0 0 = Val t -> 0 <= t) ->
    (1 <= j)%N -> (j + 1 < vlen data)%N -> sample_at data j t x y z ->
    exists out, interpolate data max_time steps = Val out /\
      forall k, (1 <= k < steps - 1)%N -> t = IZR (Z.of_N k) * (max_time / IZR (Z.of_N steps)) ->
        exists ta xa ya za tb xb yb zb,
          sample_at data (j - 1) ta xa ya za /\ sample_at data (j + 1) tb xb yb zb /\
          at_ out k [t; line ta xa tb xb t; line ta ya tb yb t; line ta za tb zb t].
  Proof.
    intros Ec I Hn W Hs Hm Sp Fst Hj Hj1 Sj.
    destruct (time_at data time Ec (vlen data - 2)) as [t1 [_ C1]]; [lia|]. destruct (time_at data time Ec (vlen data - 1)) as [t2 [_ C2]]; [lia|].
    destruct (c146_chord data max_time steps time t1 t2 Ec I Hn W Hs Hm Sp Fst C1 C2) as [out [E [_ H]]]. exists out. split; [exact E|].
    intros k Hk Et. assert (Cj : cell data j 0 = Val t) by (apply sample_cells in Sj; tauto).
    assert (L1 : t <= t1) by (apply (times_le data I j (vlen data - 2)%N); [lia | exact Cj | exact C1]).
    assert (L2 : t1 < t2) by (apply (I (vlen data - 2) (vlen data - 1))%N; [lia | exact C1 | exact C2]).
    destruct (H k Hk ltac:(cbv zeta; lra)) as [j' [ta [xa [ya [za [tb [xb [yb [zb [[Hj' [u [Cu Nu]]] [_ [S0 [S1 [_ [_ [A _]]]]]]]]]]]]]]]].
    rewrite <- Et in *. assert (Q := Nu j t Hj Cj). replace (t - t) with 0 in Q by ring. rewrite Rabs_R0 in Q.
    assert (u = t). { assert (P := Rabs_pos (t - u)). assert (Z0 : Rabs (t - u) = 0) by lra. destruct (Req_dec (t - u) 0) as [|D]; [lra|]. apply Rabs_no_R0 in D. contradiction. }
    subst u. assert (j' = j).
    { destruct (N.lt_trichotomy j' j) as [l|[e|l]]; [|exact e|].
      - assert (t < t) by (apply (I j' j); [exact l | exact Cu | exact Cj]). lra.
      - assert (t < t) by (apply (I j j'); [exact l | exact Cj | exact Cu]). lra. }
    subst j'. exists ta, xa, ya, za, tb, xb, yb, zb. auto.
  Qed.

  (** From the midpoint of the last gap on, rows are blank (but for the last, which is the last sample). *)
  Theorem c146_tail_blank (data : table R) max_time steps time t1 t2 : column data 0 = Val time -> increasing data ->
    (3 <= vlen data)%N -> Forall (fun r => (3 < vlen r)%N) data -> (0 < steps)%N -> 0 <= max_time ->
    at_most_twice_as_dense data (max_time / IZR (Z.of_N steps)) -> (forall t, cell data 0 0 = Val t -> 0 <= t) ->
    cell data (vlen data - 2) 0 = Val t1 -> cell data (vlen data - 1) 0 = Val t2 ->
    exists out, interpolate data max_time steps = Val out /\
      forall k, (1 <= k < steps - 1)%N -> let t := IZR (Z.of_N k) * (max_time / IZR (Z.of_N steps)) in
        t1 + t2 <= 2 * t -> at_ out k (blank_row t).
  Proof.
    intros Ec I Hn W Hs Hm Sp Fst C1 C2. assert (Es := increasing_sorted data time Ec I).
    destruct (interp_spec data max_time steps time Ec Es ltac:(lia) W Hs) as [out [first [last [E [L [_ [_ [_ [_ H]]]]]]]]].
    exists out. split; [exact E|]. intros k Hk t Ht. destruct (H k Hk) as [r [Hr Er]].
    change (nofN k * (max_time / nofN steps))%num with t in Er.
    change (max_time / nofN steps)%num with (max_time / IZR (Z.of_N steps)) in Er.
    set (dt := max_time / IZR (Z.of_N steps)) in *.
    assert (Hdt : 0 <= dt). { unfold dt. apply Rmult_le_pos; [exact Hm|]. apply Rlt_le, Rinv_0_lt_compat, IZR_lt. lia. }
    assert (Et : INR (N.to_nat k) * dt = t). { unfold t. rewrite INR_IZR_INZ, N_nat_Z. reflexivity. }
    destruct (anchor_steady data time dt Ec I Hn Hdt Sp Fst (N.to_nat k)) as [_ Bh].
    assert (U := anchor_bound data time dt Ec Hn (N.to_nat k)). rewrite Et in Bh. set (j := anchor time dt (N.to_nat k)) in *.
    assert (Ej : j = (vlen data - 1)%N).
    { destruct (N.eq_dec j (vlen data - 1)) as [|D]; [assumption|]. exfalso.
      destruct (time_at data time Ec j) as [a [_ Ca]]; [lia|]. destruct (time_at data time Ec (j + 1)) as [b [_ Cb]]; [lia|].
      assert (Q := Bh a b Ca Cb).
      assert (a <= t1) by (apply (times_le data I j (vlen data - 2)%N); [lia | exact Ca | exact C1]).
      assert (b <= t2) by (apply (times_le data I (j + 1)%N (vlen data - 1)%N); [lia | exact Cb | exact C2]). lra. }
    unfold interp_row in Er. rewrite (proj2 (N.leb_le (vlen data - 1) j)) in Er by lia. injection Er as <-. exact Hr.
  Qed.

  (** How far a row is from the motion it samples: the particle moved no faster than [V] ... *)
  Lemma chord_lipschitz (x : R -> R) V t0 t1 t : t0 < t1 -> t0 <= t <= t1 ->
    (forall a b, Rabs (x a - x b) <= V * Rabs (a - b)) -> Rabs (line t0 (x t0) t1 (x t1) t - x t) <= V * ((t1 - t0) / 2).
  Proof.
    intros H T L. rewrite line_mix by exact H. set (l := (t - t0) / (t1 - t0)).
    assert (El : (t1 - t) / (t1 - t0) = 1 - l) by (unfold l; field; lra). rewrite El.
    assert (Tl : t - t0 = l * (t1 - t0)) by (unfold l; field; lra).
    assert (B : 0 <= l <= 1). { unfold l. split; [apply Rmult_le_pos; [lra | apply Rlt_le, Rinv_0_lt_compat; lra]|]. apply Rmult_le_reg_r with (t1 - t0); [lra|]. unfold Rdiv. rewrite Rmult_assoc, Rinv_l by lra. lra. }
    replace ((1 - l) * x t0 + l * x t1 - x t) with ((1 - l) * (x t0 - x t) + l * (x t1 - x t)) by ring.
    assert (A0 := L t0 t). assert (A1 := L t1 t). rewrite (Rabs_left1 (t0 - t)) in A0 by lra. rewrite (Rabs_right (t1 - t)) in A1 by lra.
    assert (V0 : 0 <= V). { assert (Q := L t1 t0). rewrite (Rabs_right (t1 - t0)) in Q by lra. assert (P := Rabs_pos (x t1 - x t0)). apply Rmult_le_reg_r with (t1 - t0); lra. }
    eapply Rle_trans; [apply Rabs_triang|]. rewrite !Rabs_mult, (Rabs_right (1 - l)), (Rabs_right l) by lra.
    assert (M0 : (1 - l) * Rabs (x t0 - x t) <= (1 - l) * (V * (l * (t1 - t0)))) by (apply Rmult_le_compat_l; [lra|]; replace (l * (t1 - t0)) with (- (t0 - t)) by lra; exact A0).
    assert (M1 : l * Rabs (x t1 - x t) <= l * (V * ((1 - l) * (t1 - t0)))).
    { apply Rmult_le_compat_l; [lra|]. replace ((1 - l) * (t1 - t0)) with (t1 - t) by lra. exact A1. }
    assert (K : (1 - l) * l <= 1 / 4) by (assert (0 <= (l - 1 / 2) * (l - 1 / 2)) by apply Rle_0_sqr; lra).
    assert (K' : V * (t1 - t0) * ((1 - l) * l) <= V * (t1 - t0) * (1 / 4)) by (apply Rmult_le_compat_l; [apply Rmult_le_pos; lra | exact K]).
    lra.
  Qed.
  (** ... or its velocity [v] changed no faster than [A]. *)
  Lemma chord_smooth (x v : R -> R) A t0 t1 t : t0 < t1 -> t0 <= t <= t1 -> (forall s, derivable_pt_lim x s (v s)) ->
    (forall a b, Rabs (v a - v b) <= A * Rabs (a - b)) -> Rabs (line t0 (x t0) t1 (x t1) t - x t) <= A * ((t1 - t0) * (t1 - t0) / 4).
  Proof.
    intros H T D L.
    assert (A0 : 0 <= A). { assert (Q := L t1 t0). rewrite (Rabs_right (t1 - t0)) in Q by lra. assert (P := Rabs_pos (v t1 - v t0)). apply Rmult_le_reg_r with (t1 - t0); lra. }
    assert (Mv : forall a b, a <= b -> exists c, a <= c <= b /\ x b - x a = v c * (b - a)).
    { intros a b Hab. destruct (Req_dec a b) as [->|Dn]; [exists b; split; [lra | ring]|].
      destruct (MVT_cor2 x v a b) as [c [Ec Hc]]; [lra | intros; apply D|]. exists c. split; [lra | exact Ec]. }
    destruct (Mv t0 t) as [c0 [B0 E0]]; [lra|]. destruct (Mv t t1) as [c1 [B1 E1]]; [lra|].
    rewrite line_mix by exact H.
    assert (Ex : (t1 - t) / (t1 - t0) * x t0 + (t - t0) / (t1 - t0) * x t1 - x t = ((t - t0) * (t1 - t) / (t1 - t0)) * (v c1 - v c0)).
    { replace (x t0) with (x t - v c0 * (t - t0)) by lra. replace (x t1) with (x t + v c1 * (t1 - t)) by lra. field. lra. }
    rewrite Ex. rewrite Rabs_mult. assert (Lc := L c1 c0). rewrite (Rabs_right (c1 - c0)) in Lc by lra.
    set (w := (t - t0) * (t1 - t) / (t1 - t0)).
    assert (Hw : 0 <= w). { unfold w. apply Rmult_le_pos; [apply Rmult_le_pos; lra | apply Rlt_le, Rinv_0_lt_compat; lra]. }
    rewrite (Rabs_right w) by lra.
    assert (Lw : w <= (t1 - t0) / 4).
    { unfold w. apply Rmult_le_reg_r with (t1 - t0); [lra|]. unfold Rdiv at 1. rewrite Rmult_assoc, Rinv_l by lra.
      assert (0 <= (2 * t - t0 - t1) * (2 * t - t0 - t1)) by apply Rle_0_sqr. lra. }
    assert (Lc' : Rabs (v c1 - v c0) <= A * (t1 - t0)). { eapply Rle_trans; [exact Lc|]. apply Rmult_le_compat_l; lra. }
    assert (M : w * Rabs (v c1 - v c0) <= ((t1 - t0) / 4) * (A * (t1 - t0))).
    { apply Rmult_le_compat; [exact Hw | apply Rabs_pos | exact Lw | exact Lc']. }
    lra.
  Qed.

  (** The table records a motion [x], [y], [z]. *)
  Definition records (data : table R) (x y z : R -> R) : Prop :=
    forall i t a b c, sample_at data i t a b c -> a = x t /\ b = y t /\ c = z t.
  Definition gaps_below (data : table R) (g : R) : Prop :=
    forall i t u, cell data i 0 = Val t -> cell data (i + 1) 0 = Val u -> u - t <= g.

  Theorem c146_accuracy (data : table R) max_time steps time t1 t2 (x y z : R -> R) g :
    column data 0 = Val time -> increasing data ->
    (3 <= vlen data)%N -> Forall (fun r => (3 < vlen r)%N) data -> (0 < steps)%N -> 0 <= max_time ->
    at_most_twice_as_dense data (max_time / IZR (Z.of_N steps)) -> cell data 0 0 = Val 0 ->
    cell data (vlen data - 2) 0 = Val t1 -> cell data (vlen data - 1) 0 = Val t2 ->
    records data x y z -> gaps_below data g ->
    exists out, interpolate data max_time steps = Val out /\
      forall k, (1 <= k < steps - 1)%N -> let t := IZR (Z.of_N k) * (max_time / IZR (Z.of_N steps)) in
        2 * t < t1 + t2 -> exists a b c, at_ out k [t; a; b; c] /\
          (forall V, (forall s u, Rabs (x s - x u) <= V * Rabs (s - u)) -> Rabs (a - x t) <= V * g) /\
          (forall V, (forall s u, Rabs (y s - y u) <= V * Rabs (s - u)) -> Rabs (b - y t) <= V * g) /\
          (forall V, (forall s u, Rabs (z s - z u) <= V * Rabs (s - u)) -> Rabs (c - z t) <= V * g) /\
          (forall v A, (forall s, derivable_pt_lim x s (v s)) -> (forall s u, Rabs (v s - v u) <= A * Rabs (s - u)) -> Rabs (a - x t) <= A * (g * g)) /\
          (forall v A, (forall s, derivable_pt_lim y s (v s)) -> (forall s u, Rabs (v s - v u) <= A * Rabs (s - u)) -> Rabs (b - y t) <= A * (g * g)) /\
          (forall v A, (forall s, derivable_pt_lim z s (v s)) -> (forall s u, Rabs (v s - v u) <= A * Rabs (s - u)) -> Rabs (c - z t) <= A * (g * g)).
  Proof.
    intros Ec I Hn W Hs Hm Sp C0 C1 C2 Re Ga.
    assert (Fst : forall t, cell data 0 0 = Val t -> 0 <= t) by (intros t Q; rewrite C0 in Q; injection Q as <-; lra).
    destruct (c146_chord data max_time steps time t1 t2 Ec I Hn W Hs Hm Sp Fst C1 C2) as [out [E [_ H]]]. exists out. split; [exact E|].
    intros k Hk t Ht. destruct (H k Hk Ht) as [j [ta [xa [ya [za [tb [xb [yb [zb [[Hj [u [Cu Nu]]] [Hj1 [S0 [S1 [U [Le [A F0]]]]]]]]]]]]]]]].
    fold t in A, Le, F0.
    assert (T0 : 0 <= t). { unfold t. apply Rmult_le_pos; [apply IZR_le; lia|]. apply Rmult_le_pos; [exact Hm|]. apply Rlt_le, Rinv_0_lt_compat, IZR_lt. lia. }
    destruct F0 as [La _]; [intros t0 Q; rewrite C0 in Q; injection Q as <-; exact T0|].
    destruct (Re _ _ _ _ _ S0) as [-> [-> ->]]. destruct (Re _ _ _ _ _ S1) as [-> [-> ->]].
    assert (G2 : tb - ta <= 2 * g).
    { assert (Ca : cell data (j - 1) 0 = Val ta) by (apply sample_cells in S0; tauto). assert (Cb : cell data (j + 1) 0 = Val tb) by (apply sample_cells in S1; tauto).
      assert (Q1 := Ga (j - 1)%N ta u Ca ltac:(replace (j - 1 + 1)%N with j by lia; exact Cu)). assert (Q2 := Ga j u tb Cu Cb). lra. }
    do 3 eexists. split; [exact A|].
    assert (Lip : forall (q : R -> R) V, (forall s r, Rabs (q s - q r) <= V * Rabs (s - r)) -> Rabs (line ta (q ta) tb (q tb) t - q t) <= V * g).
    { intros q V L. eapply Rle_trans; [apply (chord_lipschitz q V); [exact U | lra | exact L]|].
      assert (0 <= V). { assert (Q := L tb ta). rewrite (Rabs_right (tb - ta)) in Q by lra. assert (P := Rabs_pos (q tb - q ta)). apply Rmult_le_reg_r with (tb - ta); lra. }
      apply Rmult_le_compat_l; lra. }
    assert (Smo : forall (q v : R -> R) B, (forall s, derivable_pt_lim q s (v s)) -> (forall s r, Rabs (v s - v r) <= B * Rabs (s - r)) -> Rabs (line ta (q ta) tb (q tb) t - q t) <= B * (g * g)).
    { intros q v B D L. eapply Rle_trans; [apply (chord_smooth q v B); [exact U | lra | exact D | exact L]|].
      assert (0 <= B). { assert (Q := L tb ta). rewrite (Rabs_right (tb - ta)) in Q by lra. assert (P := Rabs_pos (v tb - v ta)). apply Rmult_le_reg_r with (tb - ta); lra. }
      apply Rmult_le_compat_l; [assumption|].
      assert (M : (tb - ta) * (tb - ta) <= (2 * g) * (2 * g)) by (apply Rmult_le_compat; lra). lra. }
    repeat split; intros; eauto.
  Qed.

  (** If the samples are denser, rows fall behind: row [k] never uses a sample after number [2 k + 2]; if
      that one is before the time of the row, the row is extrapolated (or blank). *)
  Theorem c146_falls_behind (data : table R) max_time steps time : column data 0 = Val time -> increasing data ->
    (0 < vlen data)%N -> Forall (fun r => (3 < vlen r)%N) data -> (0 < steps)%N ->
    exists out, interpolate data max_time steps = Val out /\
      forall k, (1 <= k < steps - 1)%N -> let t := IZR (Z.of_N k) * (max_time / IZR (Z.of_N steps)) in
        (forall u, cell data (2 * k + 2) 0 = Val u -> u < t) -> (2 * k + 2 < vlen data)%N ->
        exists j ta xa ya za tb xb yb zb, sample_at data (j - 1) ta xa ya za /\ sample_at data (j + 1) tb xb yb zb /\
          ta < tb < t /\ at_ out k [t; line ta xa tb xb t; line ta ya tb yb t; line ta za tb zb t].
  Proof.
    intros Ec I Hn W Hs. assert (Es := increasing_sorted data time Ec I).
    destruct (interp_spec data max_time steps time Ec Es Hn W Hs) as [out [first [last [E [L [_ [_ [_ [_ H]]]]]]]]].
    exists out. split; [exact E|]. intros k Hk t Hu Hl. destruct (H k Hk) as [r [Hr Er]].
    change (nofN k * (max_time / nofN steps))%num with t in Er. set (dt := (max_time / nofN steps)%num) in *.
    assert (G : forall m, (anchor time dt m <= 2 * N.of_nat m + 1)%N).
    { induction m as [|m IH]; [cbn; lia|]. assert (Q := next_step_range _ _ _ _ (anchor_step time dt m)). lia. }
    assert (Gk := G (N.to_nat k)). rewrite N2Nat.id in Gk. assert (P := anchor_pos time dt (N.to_nat k)).
    set (j := anchor time dt (N.to_nat k)) in *.
    destruct (time_at data time Ec (2 * k + 2)) as [u [_ Cu]]; [lia|]. assert (Lu := Hu u Cu).
    destruct (interp_row_spec data t j r ltac:(lia) Er) as [[_ [Q|[u0 [u1 [A [B Q]]]]]]|[_ [ta [xa [ya [za [tb [xb [yb [zb [S0 [S1 [Q ->]]]]]]]]]]]]].
    - lia.
    - exfalso. cbn [neqb num_R] in Q. destruct (Req_EM_T u0 u1) as [Eq|]; [|discriminate].
      assert (u0 < u1) by (apply (I (j - 1) (j + 1))%N; [lia | exact A | exact B]). lra.
    - assert (Ca : cell data (j - 1) 0 = Val ta) by (apply sample_cells in S0; tauto).
      assert (Cb : cell data (j + 1) 0 = Val tb) by (apply sample_cells in S1; tauto).
      assert (ta < tb) by (apply (I (j - 1) (j + 1))%N; [lia | exact Ca | exact Cb]).
      assert (tb <= u) by (apply (times_le data I (j + 1)%N (2 * k + 2)%N); [lia | exact Cb | exact Cu]).
      exists j, ta, xa, ya, za, tb, xb, yb, zb. split; [exact S0|]. split; [exact S1|]. split; [lra | exact Hr].
  Qed.
End Resample.

(** ** The hypotheses are met *)
(** Ten samples a second apart (the third one off the line), asked for at ten times. *)
Definition ex_bump : table R := map (fun k => [IZR k; if (k =? 3)%Z then 1 else 0; 1; 2 * IZR k]%R) [0; 1; 2; 3; 4; 5; 6; 7; 8; 9]%Z.
Lemma listed (l : list Z) (f : Z -> list R) i t : (forall k, nth_error (f k) 0 = Some (IZR k)) ->
  cell (map f l) i 0 = Val t -> exists k, nth_error l (N.to_nat i) = Some k /\ t = IZR k.
Proof.
  intros H C. apply cell_val in C as [r [Hr Ht]]. unfold at_ in Hr. rewrite nth_error_map in Hr.
  destruct (nth_error l (N.to_nat i)) as [k|]; [|discriminate]. injection Hr as <-. exists k. split; [reflexivity|].
  unfold at_ in Ht. change (N.to_nat 0) with 0%nat in Ht. rewrite H in Ht. congruence.
Qed.
Example c146_case : exists time out, column ex_bump 0 = Val time /\ increasing ex_bump /\
  at_most_twice_as_dense ex_bump (10 / 10) /\ gaps_below ex_bump 1 /\
  interpolate ex_bump 10%R 10 = Val out /\ at_ out 3 [3; 0; 1; 6]%R.
Proof.
  assert (Ec : column ex_bump 0 = Val (map IZR [0; 1; 2; 3; 4; 5; 6; 7; 8; 9]%Z)) by reflexivity.
  assert (Fk : forall k, nth_error [IZR k; if (k =? 3)%Z then 1 else 0; 1; 2 * IZR k]%R 0 = Some (IZR k)) by reflexivity.
  assert (Len : forall i k, nth_error [0; 1; 2; 3; 4; 5; 6; 7; 8; 9]%Z i = Some k -> (i < 10)%nat /\ k = Z.of_nat i).
  { intros i k. do 10 (destruct i as [|i]; [intros [= <-]; split; [lia | reflexivity]|]). destruct i; discriminate. }
  assert (I : increasing ex_bump).
  { intros i j t u Hij Ht Hu. apply (listed _ _ _ _ Fk) in Ht as [a [Ha ->]], Hu as [b [Hb ->]]. apply Len in Ha, Hb. apply IZR_lt. lia. }
  assert (Gap : forall i t u, cell ex_bump i 0 = Val t -> cell ex_bump (i + 1) 0 = Val u -> (u - t = 1)%R).
  { intros i t u Ht Hu. apply (listed _ _ _ _ Fk) in Ht as [a [Ha ->]], Hu as [b [Hb ->]]. apply Len in Ha, Hb. rewrite <- minus_IZR. f_equal. lia. }
  assert (Sp : at_most_twice_as_dense ex_bump (10 / 10)). { intros i t u Ht Hu. rewrite (Gap i t u Ht Hu). lra. }
  destruct (c146_at_sample ex_bump 10%R 10 _ 3 3%R 1%R 1%R 6%R Ec I) as [out [E H]]; try (cbn; lia); try assumption; try lra.
  - repeat constructor.
  - intros t Q. injection Q as <-. lra.
  - eexists. split; [reflexivity|]. split; [reflexivity|]. split; [reflexivity|]. split; [reflexivity|]. unfold at_. replace 6%R with (2 * 3)%R by ring; reflexivity.
  - destruct (H 3%N ltac:(lia)) as [ta [xa [ya [za [tb [xb [yb [zb [S0 [S1 A]]]]]]]]]]; [cbn [Z.of_N]; lra|].
    exists (map IZR [0; 1; 2; 3; 4; 5; 6; 7; 8; 9]%Z), out. split; [exact Ec|]. split; [exact I|]. split; [exact Sp|].
    split; [intros i t u Ht Hu; rewrite (Gap i t u Ht Hu); lra|]. split; [exact E|].
    apply sample_cells in S0 as [T0 [X0 [Y0 Z0]]], S1 as [T1 [X1 [Y1 Z1]]].
    injection T0 as <-. injection X0 as <-. injection Y0 as <-. injection Z0 as <-.
    injection T1 as <-. injection X1 as <-. injection Y1 as <-. injection Z1 as <-.
    replace [3; 0; 1; 6]%R with [3; line 2 0 4 0 3; line 2 1 4 1 3; line 2 (2 * 2) 4 (2 * 4) 3]%R; [exact A|].
    unfold line. cbn [nadd nsub nmul ndiv num_R]. repeat f_equal; field.
Qed.
(** Eight samples in the first eight seconds and one at 100 s: the second of five rows lags. *)
Definition ex_burst : table R := map (fun k => [IZR k; IZR k; 0; 0]%R) [0; 1; 2; 3; 4; 5; 6; 7; 100]%Z.
Example c146_lags : exists time, column ex_burst 0 = Val time /\ increasing ex_burst /\
  (forall u, cell ex_burst (2 * 1 + 2) 0 = Val u -> (u < 1 * (100 / 5))%R).
Proof.
  exists (map IZR [0; 1; 2; 3; 4; 5; 6; 7; 100]%Z). split; [reflexivity|]. split.
  - intros i j t u Hij Ht Hu.
    apply (listed _ (fun k => [IZR k; IZR k; 0; 0]%R) _ _ (fun _ => eq_refl)) in Ht as [a [Ha ->]], Hu as [b [Hb ->]]. apply IZR_lt.
    assert (Q : (N.to_nat i < N.to_nat j)%nat) by lia. revert Q Ha Hb. generalize (N.to_nat i) as p, (N.to_nat j) as q. clear.
    intros p q Q Ha Hb.
    assert (G : forall i k, nth_error [0; 1; 2; 3; 4; 5; 6; 7; 100]%Z i = Some k -> (i < 8)%nat /\ k = Z.of_nat i \/ i = 8%nat /\ k = 100%Z).
    { intros i k. do 8 (destruct i as [|i]; [intros [= <-]; left; split; [lia | reflexivity]|]). destruct i; [intros [= <-]; right; auto|]. destruct i; discriminate. }
    apply G in Ha, Hb. lia.
  - intros u Q. injection Q as <-. lra.
Qed.
Print Assumptions c146_chord.
Print Assumptions c146_accuracy.
