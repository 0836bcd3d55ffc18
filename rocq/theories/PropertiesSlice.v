(** * PropertiesSlice: slicing at any position, in doubles

    C150: which plane [slice] gives for positions outside the limits. *)
From Coq Require Import Reals List NArith ZArith Lia Lra Bool ZifyBool ZifyN.
From Flocq Require Import Core.Core IEEE754.BinarySingleNaN.
From Verif Require Import Base BaseFacts Num RFacts NDArray GridModel GridSpec GridFacts CartProofs F64Facts CartR GridOps GridR PropertiesGrid FloatErr PropertiesFloat.
Local Open Scope R_scope.

(** A position before the lower limit, or none at all. *)
Definition before (lo p : f64) : Prop := Bltb p lo = true \/ is_nan p = true.

Lemma usize_neg (x : f64) : is_nan x = false -> Bsign x = true -> f64_to_usize x = 0%N.
Proof.
  intros N S. destruct x as [s|s| |s m e H]; try discriminate; cbn [Bsign] in S; subst s; try reflexivity.
  rewrite to_usize_finite by reflexivity. assert (Q : (Ztrunc (B2R (B754_finite true m e H)) <= 0)%Z).
  { apply le_IZR. assert (L : B2R (B754_finite true m e H) <= 0) by (cbn [B2R cond_Zopp]; apply F2R_le_0; cbn; lia).
    rewrite Ztrunc_ceil by exact L. apply IZR_le. apply Zceil_glb. exact L. }
  unfold usize_max. lia.
Qed.
Lemma inf_of (x : f64) s : B2SF x = binary_overflow 53 1024 mode_NE s -> x = B754_infinity s.
Proof. destruct x as [?|?| |? ? ? ?]; cbn; intros E; try discriminate. now injection E as ->. Qed.
Lemma pos_sign (x : f64) : is_finite x = true -> 0 < B2R x -> Bsign x = false.
Proof.
  intros F P. destruct x as [?|?| |s m e H]; try discriminate; [cbn [B2R] in P; lra|]. destruct s; [|reflexivity]. exfalso. cbn [B2R] in P.
  assert (@F2R radix2 {| Fnum := SpecFloat.cond_Zopp true (Z.pos m); Fexp := e |} <= 0) by (apply F2R_le_0; cbn; lia). lra.
Qed.
Lemma minus_neg (x y : f64) : is_finite y = true -> Bltb x y = true ->
  is_nan (Bminus mode_NE x y) = false /\ Bsign (Bminus mode_NE x y) = true.
Proof.
  intros Fy L. destruct (is_finite x) eqn:Fx.
  - apply Bltb_R in L; [|assumption..].
    pose proof (Bminus_correct 53 1024 _ _ mode_NE x y Fx Fy) as C. cbv zeta in C.
    destruct (Rlt_bool_spec (Rabs (round radix2 (SpecFloat.fexp 53 1024) (round_mode mode_NE) (B2R x - B2R y))) (bpow radix2 1024)) as [B|B].
    + destruct C as [_ [F S]]. split; [destruct (Bminus mode_NE x y); try reflexivity; discriminate|]. rewrite S.
      rewrite Rcompare_Lt by lra. reflexivity.
    + destruct C as [O S]. apply inf_of in O. rewrite O. split; [reflexivity|]. cbn [Bsign].
      destruct (Bsign x) eqn:Sx; [reflexivity|]. exfalso. destruct (Bsign y) eqn:Sy; [|discriminate].
      assert (0 <= B2R x) by (destruct x as [?|?| |s m e H]; try discriminate; cbn [B2R Bsign] in *; try lra; subst s; apply F2R_ge_0; cbn; lia).
      assert (B2R y <= 0) by (destruct y as [?|?| |s m e H0]; try discriminate; cbn [B2R Bsign] in *; try lra; subst s; apply F2R_le_0; cbn; lia). lra.
  - destruct x as [?|[|]| |? ? ? ?]; try discriminate.
    + destruct y as [?|?| |? ? ? ?]; try discriminate; split; reflexivity.
    + destruct y as [?|?| |? ? ? ?]; discriminate.
Qed.
Lemma div_neg (x y : f64) : is_nan x = false -> Bsign x = true -> is_finite y = true -> 0 < B2R y ->
  is_nan (Bdiv mode_NE x y) = false /\ Bsign (Bdiv mode_NE x y) = true.
Proof.
  intros Nx Sx Fy Py. assert (Sy := pos_sign y Fy Py).
  destruct (is_finite x) eqn:Fx.
  - assert (Ny : B2R y <> 0) by lra. pose proof (Bdiv_correct 53 1024 _ _ mode_NE x y Ny) as C.
    destruct (Rlt_bool_spec (Rabs (round radix2 (SpecFloat.fexp 53 1024) (round_mode mode_NE) (B2R x / B2R y))) (bpow radix2 1024)) as [B|B].
    + destruct C as [_ [F S]]. rewrite Fx in F.
      assert (N : is_nan (Bdiv mode_NE x y) = false) by (destruct (Bdiv mode_NE x y); try reflexivity; discriminate).
      split; [exact N|]. rewrite (S N), Sx, Sy. reflexivity.
    + apply inf_of in C. rewrite C, Sx, Sy. split; reflexivity.
  - destruct x as [?|s| |? ? ? ?]; try discriminate. cbn [Bsign] in Sx. subst s.
    destruct y as [?|?| |s m e H]; try discriminate; [cbn [B2R] in Py; lra|]. cbn [Bsign] in Sy. subst s. split; reflexivity.
Qed.
Lemma mult_neg (x y : f64) : is_nan x = false -> Bsign x = true -> is_finite y = true -> 0 < B2R y ->
  is_nan (Bmult mode_NE x y) = false /\ Bsign (Bmult mode_NE x y) = true.
Proof.
  intros Nx Sx Fy Py. assert (Sy := pos_sign y Fy Py).
  destruct (is_finite x) eqn:Fx.
  - pose proof (Bmult_correct 53 1024 _ _ mode_NE x y) as C.
    destruct (Rlt_bool_spec (Rabs (round radix2 (SpecFloat.fexp 53 1024) (round_mode mode_NE) (B2R x * B2R y))) (bpow radix2 1024)) as [B|B].
    + destruct C as [_ [F S]]. rewrite Fx, Fy in F.
      assert (N : is_nan (Bmult mode_NE x y) = false) by (destruct (Bmult mode_NE x y); try reflexivity; discriminate).
      split; [exact N|]. rewrite (S N), Sx, Sy. reflexivity.
    + apply inf_of in C. rewrite C, Sx, Sy. split; reflexivity.
  - destruct x as [?|s| |? ? ? ?]; try discriminate. cbn [Bsign] in Sx. subst s.
    destruct y as [?|?| |s m e H]; try discriminate; [cbn [B2R] in Py; lra|]. cbn [Bsign] in Sy. subst s. split; reflexivity.
Qed.

(** Positive quotients and products: the rounded value, or infinity. *)
Lemma div_pos (x y : f64) : is_finite x = true -> is_finite y = true -> 0 < B2R x -> 0 < B2R y ->
  (is_finite (Bdiv mode_NE x y) = true /\ B2R (Bdiv mode_NE x y) = rnd (B2R x / B2R y)) \/ Bdiv mode_NE x y = B754_infinity false.
Proof.
  intros Fx Fy Px Py. assert (Ny : B2R y <> 0) by lra. pose proof (Bdiv_correct 53 1024 _ _ mode_NE x y Ny) as C.
  destruct (Rlt_bool_spec (Rabs (round radix2 (SpecFloat.fexp 53 1024) (round_mode mode_NE) (B2R x / B2R y))) (bpow radix2 1024)) as [B|B].
  - left. destruct C as [V [F _]]. rewrite Fx in F. split; [exact F | exact V].
  - right. apply inf_of in C. rewrite C, !pos_sign by assumption. reflexivity.
Qed.
Lemma mult_pos (x y : f64) : is_finite x = true -> is_finite y = true -> 0 < B2R x -> 0 < B2R y ->
  (is_finite (Bmult mode_NE x y) = true /\ B2R (Bmult mode_NE x y) = rnd (B2R x * B2R y)) \/ Bmult mode_NE x y = B754_infinity false.
Proof.
  intros Fx Fy Px Py. pose proof (Bmult_correct 53 1024 _ _ mode_NE x y) as C.
  destruct (Rlt_bool_spec (Rabs (round radix2 (SpecFloat.fexp 53 1024) (round_mode mode_NE) (B2R x * B2R y))) (bpow radix2 1024)) as [B|B].
  - left. destruct C as [V [F _]]. rewrite Fx, Fy in F. split; [exact F | exact V].
  - right. apply inf_of in C. rewrite C, !pos_sign by assumption. reflexivity.
Qed.
Lemma rnd_pow k : (0 <= k <= 900)%Z -> rnd (bpow radix2 k) = bpow radix2 k.
Proof. intros H. apply rnd_fmt. apply generic_format_bpow. unfold SpecFloat.fexp, SpecFloat.emin. lia. Qed.
Lemma inf_times (y : f64) : is_finite y = true -> 0 < B2R y -> Bmult mode_NE (B754_infinity false) y = B754_infinity false /\ Bdiv mode_NE (B754_infinity false) y = B754_infinity false.
Proof.
  intros F P. pose proof (pos_sign y F P) as S. destruct y as [?|?| |s m e H]; try discriminate; [cbn [B2R] in P; lra|]. cbn [Bsign] in S. subst s. split; reflexivity.
Qed.

Section Any.
  Context {TF : Trig f64}.
  Variables (g : grid f64) (axis n : N) (lo hi : f64).
  Hypothesis W : wf_grid g.
  Hypothesis Ha : (axis <= 2)%N.
  Hypothesis El : v3get (geom_lim (geo g)) axis = Val (lo, hi).
  Hypothesis En : v3get (geom_cells (geo g)) axis = Val n.
  Hypothesis Ax : axis64 lo hi.
  Hypothesis Hn : (1 <= n <= 2 ^ 53)%N.

  Lemma slice_frac p : slice g axis p = slice_idx g axis (f64_to_usize (frac lo hi p (Z.of_N n))).
  Proof using El En. unfold slice. rewrite El, En. reflexivity. Qed.
  Lemma len_pos : is_finite (Bminus mode_NE hi lo) = true /\ 0 < B2R (Bminus mode_NE hi lo) /\ B2R (Bminus mode_NE hi lo) = rnd (len lo hi).
  Proof using Ax.
    destruct Ax as [Fl [Fh [L Fd]]]. change (nsub hi lo) with (Bminus mode_NE hi lo) in Fd.
    destruct (minus_cases hi lo Fh Fl ltac:(lra)) as [[_ [F V]]|[_ I]]; [|rewrite I in Fd; discriminate].
    split; [exact F|]. split; [|exact V]. rewrite V. destruct (rnd_diff hi lo) as [e [He Ee]]. rewrite Ee. pose proof (factor e He). pose proof eps_le.
    apply Rmult_lt_0_compat; lra.
  Qed.
  Lemma n_double : is_finite (f64_of_Z (Z.of_N n)) = true /\ B2R (f64_of_Z (Z.of_N n)) = NR n /\ 1 <= NR n.
  Proof using Hn.
    destruct (of_Z_correct (Z.of_N n) ltac:(clear - Hn; lia)) as [V F]. split; [exact F|]. split; [exact V|]. unfold NR. apply IZR_le. clear - Hn; lia.
  Qed.

  (** Before the lower limit (and for NaN): the first plane. *)
  Theorem c150_before p : before lo p -> exists a, slice g axis p = Val a /\ forall c, coord axis c = 0%N -> at2 a (drop axis c) = at3 (data g) c.
  Proof using W Ha El En Ax Hn.
    intros B. assert (Z : f64_to_usize (frac lo hi p (Z.of_N n)) = 0%N).
    { destruct len_pos as [FL [PL _]]. destruct n_double as [Fn [Vn Ln]]. destruct B as [B|B].
      - destruct (minus_neg p lo (proj1 Ax) B) as [N1 S1]. destruct (div_neg _ _ N1 S1 FL PL) as [N2 S2].
        destruct (mult_neg _ (f64_of_Z (Z.of_N n)) N2 S2 Fn ltac:(rewrite Vn; lra)) as [N3 S3]. now apply usize_neg.
      - destruct p as [?|?| |? ? ? ?]; try discriminate. destruct lo as [?|?| |? ? ? ?]; reflexivity. }
    rewrite slice_frac, Z. destruct (c18_slice_idx g axis 0 W) as [H _]. destruct (H Ha) as [m [Em [H1 _]]]. rewrite En in Em. injection Em as <-.
    destruct (H1 ltac:(lia)) as [a [Ea [_ Va]]]. exists a. auto.
  Qed.
  (** Beyond the upper limit, by up to some five hundred lengths of the grid: a panic. *)
  Theorem c150_beyond p : is_finite p = true -> is_finite (nsub p lo) = true -> B2R hi <= B2R p <= B2R lo + 512 * len lo hi -> slice g axis p = Panic.
  Proof using W Ha El En Ax Hn.
    intros Fp Fd Hp. change (nsub p lo) with (Bminus mode_NE p lo) in Fd.
    destruct len_pos as [FL [PL VL]]. destruct n_double as [Fn [Vn Ln]].
    assert (L0 : 0 < len lo hi) by (destruct Ax as [_ [_ [L _]]]; unfold len; lra).
    destruct (minus_cases p lo Fp (proj1 Ax) ltac:(unfold len in *; lra)) as [[_ [Fx Vx]]|[_ I]]; [|rewrite I in Fd; discriminate].
    assert (X1 : B2R (Bminus mode_NE hi lo) <= B2R (Bminus mode_NE p lo)) by (rewrite VL, Vx; apply rnd_mono; unfold len; lra).
    assert (X2 : B2R (Bminus mode_NE p lo) <= 1024 * B2R (Bminus mode_NE hi lo)).
    { rewrite VL, Vx. destruct (rnd_diff p lo) as [e [He Ee]], (rnd_diff hi lo) as [d [Hd Ed]]. unfold len. rewrite Ee, Ed. pose proof (factor e He) as F1. pose proof (factor d Hd) as F2. pose proof eps_le as Le. unfold len in *.
      apply Rle_trans with (512 * (B2R hi - B2R lo) * (1 + e)); [apply Rmult_le_compat_r; lra|].
      replace (512 * (B2R hi - B2R lo) * (1 + e)) with ((B2R hi - B2R lo) * (512 * (1 + e))) by ring.
      replace (1024 * ((B2R hi - B2R lo) * (1 + d))) with ((B2R hi - B2R lo) * (1024 * (1 + d))) by ring. apply Rmult_le_compat_l; lra. }
    assert (Q : 1 <= B2R (Bminus mode_NE p lo) / B2R (Bminus mode_NE hi lo) <= bpow radix2 10).
    { change (bpow radix2 10) with 1024. split; [apply Rmult_le_reg_r with (1 := PL) | apply Rmult_le_reg_r with (1 := PL)]; unfold Rdiv; rewrite Rmult_assoc, Rinv_l; lra. }
    assert (Y : 1 <= rnd (B2R (Bminus mode_NE p lo) / B2R (Bminus mode_NE hi lo)) <= bpow radix2 10).
    { rewrite <- (rnd_pow 10) by lia. split; [|now apply rnd_mono]. change 1 with (bpow radix2 0). rewrite <- (rnd_pow 0) by lia. now apply rnd_mono. }
    assert (M : bpow radix2 10 < M64) by (apply bpow_lt; lia).
    destruct (div_R (Bminus mode_NE p lo) (Bminus mode_NE hi lo) Fx (Rgt_not_eq _ _ PL)) as [Fy Vy]; [rewrite Rabs_pos_eq; [exact (Rle_lt_trans _ _ _ (proj2 Y) M) | apply Rle_trans with (2 := proj1 Y); lra]|].
    assert (Zn : (Z.of_N n <= 2 ^ 53)%Z) by lia. assert (Rn : NR n <= bpow radix2 53) by (apply IZR_le in Zn; exact Zn).
    assert (T : NR n <= rnd (B2R (Bdiv mode_NE (Bminus mode_NE p lo) (Bminus mode_NE hi lo)) * NR n) <= bpow radix2 63).
    { rewrite Vy. split.
      - rewrite <- (rnd_fmt (NR n)) at 1 by (apply fmt_int; lia). apply rnd_mono. rewrite <- (Rmult_1_l (NR n)) at 1. apply Rmult_le_compat_r; lra.
      - rewrite <- (rnd_pow 63) by lia. apply rnd_mono. change (bpow radix2 63) with (bpow radix2 (10 + 53)). rewrite bpow_plus. apply Rmult_le_compat; lra. }
    assert (M' : bpow radix2 63 < M64) by (apply bpow_lt; lia).
    destruct (mul_R (Bdiv mode_NE (Bminus mode_NE p lo) (Bminus mode_NE hi lo)) (f64_of_Z (Z.of_N n)) Fy Fn) as [Fz Vz]; [rewrite Vn, Rabs_pos_eq; [exact (Rle_lt_trans _ _ _ (proj2 T) M') | apply Rle_trans with (2 := proj1 T); lra]|].
    rewrite Vn in Vz. rewrite slice_frac. destruct (slice_idx_val g axis (f64_to_usize (frac lo hi p (Z.of_N n))) Ha) as [m [Em [_ [H _]]]].
    rewrite (proj1 W), En in Em. injection Em as <-.
    assert (I : f64_to_usize (frac lo hi p (Z.of_N n)) = Z.to_N (Z.min usize_max (Zfloor (B2R (frac lo hi p (Z.of_N n)))))).
    { rewrite to_usize_finite by exact Fz. rewrite Ztrunc_floor; [reflexivity|]. unfold frac. rewrite Vz. lra. }
    assert (I1 : (Z.of_N n <= Zfloor (B2R (frac lo hi p (Z.of_N n))))%Z) by (apply Zfloor_lub; unfold frac; rewrite Vz; apply T).
    assert (I2 : (Zfloor (B2R (frac lo hi p (Z.of_N n))) <= 2 ^ 63)%Z).
    { apply le_IZR. apply Rle_trans with (1 := Zfloor_lb _). unfold frac. rewrite Vz. apply T. }
    apply H; rewrite I; unfold usize_max; clear - I1 I2 Hn; lia.
  Qed.
  (** Very far beyond it, and at infinity: the last plane. *)
  Theorem c150_far p : p = B754_infinity false \/ is_finite p = true /\ B2R lo + bpow radix2 66 * len lo hi <= B2R p ->
    exists a, slice g axis p = Val a /\ forall c, coord axis c = (n - 1)%N -> at2 a (drop axis c) = at3 (data g) c.
  Proof using W Ha El En Ax Hn.
    intros Hp. destruct len_pos as [FL [PL VL]]. destruct n_double as [Fn [Vn Ln]].
    assert (L0 : 0 < len lo hi) by (destruct Ax as [_ [_ [L _]]]; unfold len; lra).
    assert (B66 : 0 < bpow radix2 66) by apply bpow_gt_0. assert (B65 : 0 < bpow radix2 65) by apply bpow_gt_0.
    assert (Z : f64_to_usize (frac lo hi p (Z.of_N n)) = (2 ^ 64 - 1)%N).
    { unfold frac.
      assert (D : (is_finite (Bdiv mode_NE (Bminus mode_NE p lo) (Bminus mode_NE hi lo)) = true /\ bpow radix2 65 <= B2R (Bdiv mode_NE (Bminus mode_NE p lo) (Bminus mode_NE hi lo))) \/ Bdiv mode_NE (Bminus mode_NE p lo) (Bminus mode_NE hi lo) = B754_infinity false).
      { destruct Hp as [-> | [Fp Hp]].
        - right. assert (E : Bminus mode_NE (B754_infinity false) lo = B754_infinity false) by (destruct lo as [?|?| |? ? ? ?]; try reflexivity; destruct Ax as [F _]; discriminate).
          rewrite E. now apply inf_times.
        - assert (Hle : 0 < bpow radix2 66 * len lo hi) by (apply Rmult_lt_0_compat; lra).
          destruct (minus_cases p lo Fp (proj1 Ax) ltac:(lra)) as [[_ [Fx Vx]]|[_ I]]; [|right; rewrite I; now apply inf_times].
          assert (X : bpow radix2 65 * B2R (Bminus mode_NE hi lo) <= B2R (Bminus mode_NE p lo)).
          { rewrite VL, Vx. destruct (rnd_diff p lo) as [e [He Ee]], (rnd_diff hi lo) as [d [Hd Ed]]. rewrite Ee. unfold len in *. rewrite Ed. pose proof (factor e He) as F1. pose proof (factor d Hd) as F2. pose proof eps_le as Le.
            apply Rle_trans with (bpow radix2 66 * (B2R hi - B2R lo) * (1 + e)); [|apply Rmult_le_compat_r; lra].
            change 66%Z with (1 + 65)%Z. rewrite bpow_plus. change (bpow radix2 1) with 2.
            replace (2 * bpow radix2 65 * (B2R hi - B2R lo) * (1 + e)) with (bpow radix2 65 * ((B2R hi - B2R lo) * (2 * (1 + e)))) by ring.
            apply Rmult_le_compat_l; [lra|]. apply Rmult_le_compat_l; lra. }
          assert (Px : 0 < B2R (Bminus mode_NE p lo)) by (apply Rlt_le_trans with (2 := X); now apply Rmult_lt_0_compat).
          destruct (div_pos _ _ Fx FL Px PL) as [[F V]|I]; [left | now right]. split; [exact F|]. rewrite V, <- (rnd_pow 65) by lia. apply rnd_mono.
          apply Rmult_le_reg_r with (1 := PL). unfold Rdiv. rewrite Rmult_assoc, Rinv_l; lra. }
      destruct D as [[F V]|I]; [|rewrite I; destruct (inf_times (f64_of_Z (Z.of_N n)) Fn ltac:(rewrite Vn; lra)) as [E _]; rewrite E; reflexivity].
      destruct (mult_pos _ (f64_of_Z (Z.of_N n)) F Fn ltac:(lra) ltac:(rewrite Vn; lra)) as [[F' V']|I]; [|rewrite I; reflexivity].
      rewrite to_usize_finite by exact F'. rewrite Vn in V'.
      assert (T : bpow radix2 65 <= B2R (Bmult mode_NE (Bdiv mode_NE (Bminus mode_NE p lo) (Bminus mode_NE hi lo)) (f64_of_Z (Z.of_N n)))).
      { rewrite V', <- (rnd_pow 65) by lia. apply rnd_mono. rewrite <- (Rmult_1_r (bpow radix2 65)). apply Rmult_le_compat; lra. }
      assert (Q : (2 ^ 65 <= Ztrunc (B2R (Bmult mode_NE (Bdiv mode_NE (Bminus mode_NE p lo) (Bminus mode_NE hi lo)) (f64_of_Z (Z.of_N n)))))%Z).
      { rewrite Ztrunc_floor by lra. apply Zfloor_lub. exact T. }
      rewrite Z.min_l; [reflexivity|]. unfold usize_max. lia. }
    rewrite slice_frac, Z. destruct (c18_slice_idx g axis (n - 1) W) as [H _]. destruct (H Ha) as [m [Em [H1 [_ H3]]]]. rewrite En in Em. injection Em as <-.
    replace (2 ^ 64 - 1)%N with (2 ^ 64 - n + (n - 1))%N by lia. rewrite H3 by lia.
    destruct (H1 ltac:(lia)) as [a [Ea [_ Va]]]. exists a. auto.
  Qed.
  (** So the panic is never for a position before the grid. *)
  Theorem c150_panics_only p : slice g axis p = Panic -> is_finite p = true /\ B2R hi - tol lo hi <= B2R p.
  Proof using W Ha El En Ax Hn.
    intros P. destruct (is_nan p) eqn:Np.
    { destruct (c150_before p (or_intror Np)) as [a [E _]]. congruence. }
    destruct (Bltb p lo) eqn:L.
    { destruct (c150_before p (or_introl L)) as [a [E _]]. congruence. }
    assert (Pt := tol_pos lo hi Ax). assert (Ax' := Ax). destruct Ax' as [Fl [Fh [Lt _]]].
    destruct (is_finite p) eqn:Fp.
    - split; [reflexivity|]. destruct (Rle_lt_dec (B2R hi) (B2R p)) as [G|G]; [lra|].
      assert (Rl : B2R lo <= B2R p).
      { destruct (Rle_lt_dec (B2R lo) (B2R p)) as [?|Q]; [assumption|]. exfalso. apply (Bltb_R p lo Fp Fl) in Q. congruence. }
      assert (I : within (lo, hi) p) by (split; cbn [fst snd]; apply Bleb_R; try assumption; lra).
      destruct (c132_slice g axis p lo hi n W Ha El En Ax Hn I) as [[k [a [_ [_ [E _]]]]]|[_ H]]; [congruence | exact H].
    - exfalso. destruct p as [?|s| |? ? ? ?]; try discriminate. destruct s.
      + destruct lo as [?|?| |? ? ? ?]; discriminate.
      + destruct (c150_far (B754_infinity false) (or_introl eq_refl)) as [a [E _]]. congruence.
  Qed.
End Any.

(** The hypotheses are met: the grid of three cells over [0, 4] along axis 0, sliced before, beyond and far beyond it. *)
Example c150_case {TF : Trig f64} (g : grid f64) : cart_new (3, 1, 1)%N (ThreeD ((d 0, d 4), (d 0, d 1), (d 0, d 1))) = Val g ->
  wf_grid g /\ v3get (geom_lim (geo g)) 0 = Val (d 0, d 4) /\ v3get (geom_cells (geo g)) 0 = Val 3%N /\ axis64 (d 0) (d 4) /\
  before (d 0) (d (-7)) /\ before (d 0) B754_nan /\
  is_finite (d 5) = true /\ is_finite (nsub (d 5) (d 0)) = true /\ B2R (d 4) <= B2R (d 5) <= B2R (d 0) + 512 * len (d 0) (d 4).
Proof.
  intros E. assert (V : forall z, (Z.abs z <= 2 ^ 53)%Z -> B2R (d z) = IZR z /\ is_finite (d z) = true) by apply of_Z_correct.
  destruct (V 0%Z ltac:(lia)) as [V0 F0], (V 4%Z ltac:(lia)) as [V4 F4], (V 5%Z ltac:(lia)) as [V5 F5].
  split; [now apply cart_new_wf in E|]. unfold len. rewrite V0, V4, V5.
  unfold cart_new in E. assert (Eg : forall x y : grid f64, Val x = Val y -> y = x) by (intros x y Q; injection Q as <-; reflexivity).
  apply Eg in E. subst g. cbn [geo geom_lim geom_cells cc_lim cc_cells]. split; [reflexivity|]. split; [reflexivity|].
  split; [unfold axis64; rewrite V0, V4; repeat split; try assumption; lra|].
  split; [left; reflexivity|]. split; [right; reflexivity|]. split; [exact F5|]. split; [reflexivity|]. lra.
Qed.
