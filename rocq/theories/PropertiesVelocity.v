(** * Property C147: the accuracy of velocities computed from noisy positions by least squares (ideal arithmetic). *)
From Coq Require Import Reals List NArith ZArith Bool Lia Lra ZifyBool ZifyN ZifyNat.
From Verif Require Import Base BaseFacts Num RFacts NDArray DataModel DataSpec DataLoad ConvModel ConvInterp ConvVel.
Local Open Scope list_scope.
Local Open Scope R_scope.

(** ** Specification *)
(** The sum of the squared differences between the numbers [ys] at the times [ts] and a polynomial. *)
Definition misfit (cs ts ys : list R) : R :=
  Rsum (map (fun ty => (snd ty - poly cs (fst ty)) * (snd ty - poly cs (fst ty))) (combine ts ys)).
(** The fit of degree two: three coefficients, with the least misfit. *)
Definition least_squares (fit : list R -> list R -> N -> option (list R)) : Prop :=
  forall ts ys, length ts = length ys -> (2 < length ts)%nat -> NoDup ts ->
    exists cs, fit ts ys 2%N = Some cs /\ vlen cs = 3%N /\ forall ds, vlen ds = 3%N -> misfit cs ts ys <= misfit ds ts ys.
(** A motion along one axis: velocity [V], acceleration [A], the latter changing by at most [J] per time. *)
Definition motion (X V A : R -> R) (J : R) : Prop :=
  (forall s, derivable_pt_lim X s (V s)) /\ (forall s, derivable_pt_lim V s (A s)) /\
  (forall s r, Rabs (A s - A r) <= J * Rabs (s - r)).
(** Column [j] holds positions of the motion, each with an error of at most [eta]. *)
Definition measured (data : table R) (j : N) (X : R -> R) (eta : R) : Prop :=
  forall i t x, cell data i 0 = Val t -> cell data i j = Val x -> Rabs (x - X t) <= eta.

(** The same, of the [s] rows from row [i] only. *)
Definition increasing_in (data : table R) (i s : N) : Prop :=
  forall p q t u, (p < q < s)%N -> cell data (i + p) 0 = Val t -> cell data (i + q) 0 = Val u -> t < u.
Definition measured_in (data : table R) (j i s : N) (X : R -> R) (eta : R) : Prop :=
  forall k t x, (k < s)%N -> cell data (i + k) 0 = Val t -> cell data (i + k) j = Val x -> Rabs (x - X t) <= eta.

(** ** Least squares *)
Lemma three (cs : list R) : vlen cs = 3%N -> exists a b c, cs = [a; b; c].
Proof. intros L. destruct cs as [|a [|b [|c [|]]]]; try (exfalso; unfold vlen in L; cbn [length] in L; lia). eauto. Qed.
Lemma sum_lin {T} (f g h : T -> R) a b c l : Rsum (map (fun x => a * f x + b * g x + c * h x) l) = a * Rsum (map f l) + b * Rsum (map g l) + c * Rsum (map h l).
Proof. rewrite (Rsum_map_plus (fun x => a * f x + b * g x)), Rsum_map_plus, !Rsum_map_scal. reflexivity. Qed.

(** The fitted polynomial is, at every time of the window, almost as close to any given polynomial as the numbers are. *)
Lemma fit_close (ts ys cs qs : list R) eps : length ts = length ys -> vlen cs = 3%N -> vlen qs = 3%N -> 0 <= eps ->
  (forall ds, vlen ds = 3%N -> misfit cs ts ys <= misfit ds ts ys) ->
  (forall t y, In (t, y) (combine ts ys) -> Rabs (y - poly qs t) <= eps) ->
  forall t y, In (t, y) (combine ts ys) -> Rabs (poly cs t - poly qs t) <= eps * sqrt (INR (length ts)).
Proof.
  intros Ll Lc Lq He Min Near t y Ht. destruct (three cs Lc) as [a [b [c ->]]]. destruct (three qs Lq) as [a' [b' [c' ->]]].
  set (l := combine ts ys) in *. set (e := fun ty : R * R => snd ty - poly [a'; b'; c'] (fst ty)).
  set (p := fun ty : R * R => poly [a; b; c] (fst ty) - poly [a'; b'; c'] (fst ty)).
  set (P := Rsum (map (fun x => p x * p x) l)). set (B := Rsum (map (fun x => (e x - p x) * p x) l)).
  set (E := Rsum (map (fun x => e x * e x) l)). set (Q := Rsum (map (fun x => (e x - p x) * (e x - p x)) l)).
  assert (HP : 0 <= P) by (apply Rsum_nonneg; intros; apply Rle_0_sqr).
  assert (HQ : 0 <= Q) by (apply Rsum_nonneg; intros; apply Rle_0_sqr).
  assert (M : forall k, 0 <= 2 * k * B + k * k * P).
  { intros k. specialize (Min [a - k * (a - a'); b - k * (b - b'); c - k * (c - c')] eq_refl). unfold misfit in Min. fold l in Min.
    assert (E1 : Rsum (map (fun ty : R * R => (snd ty - poly [a; b; c] (fst ty)) * (snd ty - poly [a; b; c] (fst ty))) l) = Q).
    { apply Rsum_ext. intros x _. unfold e, p. ring. }
    assert (E2 : Rsum (map (fun ty : R * R => (snd ty - poly [a - k * (a - a'); b - k * (b - b'); c - k * (c - c')] (fst ty)) *
                   (snd ty - poly [a - k * (a - a'); b - k * (b - b'); c - k * (c - c')] (fst ty))) l) = 1 * Q + (2 * k) * B + (k * k) * P).
    { unfold Q, B, P. rewrite <- sum_lin. apply Rsum_ext. intros x _. unfold e, p. rewrite !poly3. ring. }
    rewrite E1, E2 in Min. lra. }
  assert (B0 : B = 0).
  { specialize (M (- B / (P + 1))).
    assert (Z : 2 * (- B / (P + 1)) * B + - B / (P + 1) * (- B / (P + 1)) * P = - (B * B) * ((P + 2) / ((P + 1) * (P + 1)))) by (field; lra).
    rewrite Z in M. assert (K : 0 < (P + 2) / ((P + 1) * (P + 1))) by (apply Rdiv_lt_0_compat; [lra | apply Rmult_lt_0_compat; lra]).
    assert (S0 : 0 <= B * B) by apply Rle_0_sqr. assert (B * B <= 0).
    { apply Rmult_le_reg_r with ((P + 2) / ((P + 1) * (P + 1))); lra. }
    assert (Bz : B * B = 0) by lra. apply Rmult_integral in Bz. tauto. }
  assert (EE : E = 1 * Q + 2 * B + 1 * P). { unfold E, Q, B, P. rewrite <- sum_lin. apply Rsum_ext. intros x _. ring. }
  assert (LE : E <= INR (length ts) * (eps * eps)).
  { replace (length ts) with (length l) by (unfold l; rewrite combine_length; lia). rewrite <- Rsum_const. apply Rsum_le.
    intros [t' y'] Hx. assert (N := Near t' y' Hx). change (snd (t', y') - poly [a'; b'; c'] (fst (t', y'))) with (y' - poly [a'; b'; c'] t') in *.
    unfold e. cbn [fst snd]. rewrite <- (Rabs_mult_self (y' - poly [a'; b'; c'] t')) || idtac.
    assert (A0 := Rabs_pos (y' - poly [a'; b'; c'] t')).
    replace ((y' - poly [a'; b'; c'] t') * (y' - poly [a'; b'; c'] t')) with (Rabs (y' - poly [a'; b'; c'] t') * Rabs (y' - poly [a'; b'; c'] t')).
    - apply Rmult_le_compat; assumption.
    - rewrite <- Rabs_mult. apply Rabs_right, Rle_ge, Rle_0_sqr. }
  assert (Lp : p (t, y) * p (t, y) <= P).
  { unfold P. clear - Ht. revert Ht. generalize (t, y). intros w. induction l as [|x l IH]; [contradiction|]. intros [->|H]; rewrite map_cons, Rsum_cons.
    - assert (0 <= Rsum (map (fun x => p x * p x) l)) by (apply Rsum_nonneg; intros; apply Rle_0_sqr). lra.
    - assert (0 <= p x * p x) by apply Rle_0_sqr. specialize (IH H). lra. }
  change (Rabs (p (t, y)) <= eps * sqrt (INR (length ts))).
  assert (Hs : 0 <= eps * sqrt (INR (length ts))) by (apply Rmult_le_pos; [exact He | apply sqrt_pos]).
  rewrite <- (Rabs_right (eps * sqrt (INR (length ts)))) by lra. apply Rsqr_le_abs_0. unfold Rsqr.
  replace (eps * sqrt (INR (length ts)) * (eps * sqrt (INR (length ts)))) with (INR (length ts) * (eps * eps)); [lra|].
  rewrite <- (sqrt_sqrt (INR (length ts))) at 1 by apply pos_INR. ring.
Qed.
(** A quadratic that is small at three times has a small slope at the one in the middle. *)
Lemma slope_small A B C a u b M : a < u < b -> 0 <= M ->
  (forall s, s = a \/ s = u \/ s = b -> Rabs (A + B * s + C * (s * s)) <= M) ->
  Rabs (B + 2 * C * u) <= 2 * M * (1 / (u - a) + 1 / (b - u)).
Proof.
  intros H HM S. set (p := fun s => A + B * s + C * (s * s)) in *.
  set (al := u - a). set (be := b - u). assert (Hal : 0 < al) by (unfold al; lra). assert (Hbe : 0 < be) by (unfold be; lra).
  assert (Ex : B + 2 * C * u = (p b - p u) * (al / (be * (al + be))) + (p u - p a) * (be / (al * (al + be)))).
  { replace b with (u + be) by (unfold be; ring). replace a with (u - al) by (unfold al; ring). unfold p. field. lra. }
  rewrite Ex.
  assert (Two : forall x y w, Rabs (p x) <= M -> Rabs (p y) <= M -> 0 <= w -> Rabs ((p x - p y) * w) <= 2 * M * w).
  { intros x y w Hx Hy Hw. rewrite Rabs_mult, (Rabs_right w) by lra. apply Rmult_le_compat_r; [exact Hw|].
    eapply Rle_trans; [apply Rabs_triang|]. rewrite Rabs_Ropp. lra. }
  assert (W1 : 0 <= al / (be * (al + be)) <= 1 / be).
  { split; [apply Rlt_le, Rdiv_lt_0_compat; [lra | apply Rmult_lt_0_compat; lra]|].
    apply Rmult_le_reg_r with (be * (al + be)); [apply Rmult_lt_0_compat; lra|]. replace (al / (be * (al + be)) * (be * (al + be))) with al by (field; lra).
    replace (1 / be * (be * (al + be))) with (al + be) by (field; lra). lra. }
  assert (W2 : 0 <= be / (al * (al + be)) <= 1 / al).
  { split; [apply Rlt_le, Rdiv_lt_0_compat; [lra | apply Rmult_lt_0_compat; lra]|].
    apply Rmult_le_reg_r with (al * (al + be)); [apply Rmult_lt_0_compat; lra|]. replace (be / (al * (al + be)) * (al * (al + be))) with be by (field; lra).
    replace (1 / al * (al * (al + be))) with (al + be) by (field; lra). lra. }
  assert (T1 := Two b u _ ltac:(apply S; auto) ltac:(apply S; auto) (proj1 W1)).
  assert (T2 := Two u a _ ltac:(apply S; auto) ltac:(apply S; auto) (proj1 W2)).
  eapply Rle_trans; [apply Rabs_triang|].
  assert (K1 : 2 * M * (al / (be * (al + be))) <= 2 * M * (1 / be)) by (apply Rmult_le_compat_l; lra).
  assert (K2 : 2 * M * (be / (al * (al + be))) <= 2 * M * (1 / al)) by (apply Rmult_le_compat_l; lra).
  lra.
Qed.
(** The motion leaves its parabola at time [u] by at most [J] times the cube of the time. *)
Lemma taylor (X V A : R -> R) J u t : motion X V A J ->
  Rabs (X t - (X u + V u * (t - u) + A u / 2 * ((t - u) * (t - u)))) <= J * (Rabs (t - u) * Rabs (t - u) * Rabs (t - u)).
Proof.
  intros [DX [DV L]].
  assert (J0 : 0 <= J). { assert (Q := L 1 0). replace (1 - 0) with 1 in Q by ring. rewrite Rabs_R1 in Q. assert (P := Rabs_pos (A 1 - A 0)). lra. }
  assert (Mv : forall (f g : R -> R) a b, (forall s, derivable_pt_lim f s (g s)) -> exists c, (Rabs (c - a) <= Rabs (b - a)) /\ f b - f a = g c * (b - a)).
  { intros f g a b D. destruct (Rtotal_order a b) as [H|[->|H]].
    - destruct (MVT_cor2 f g a b H) as [c [Ec Hc]]; [intros; apply D|]. exists c. split; [rewrite !Rabs_right; lra | exact Ec].
    - exists b. split; [lra | ring].
    - destruct (MVT_cor2 f g b a H) as [c [Ec Hc]]; [intros; apply D|]. exists c. split; [rewrite !Rabs_left1; lra | lra]. }
  set (h := fun s => X s - (X u + V u * (s - u) + A u / 2 * ((s - u) * (s - u)))).
  assert (Dh : forall s, derivable_pt_lim h s (V s - V u - A u * (s - u))).
  { intros s. unfold h. replace (V s - V u - A u * (s - u)) with (V s - (V u + A u * (s - u))) by ring.
    apply (derivable_pt_lim_minus X (fun s => X u + V u * (s - u) + A u / 2 * ((s - u) * (s - u)))); [apply DX|].
    assert (D1 : derivable_pt_lim (fun s => s - u) s 1).
    { replace 1 with (1 - 0) by ring. apply (derivable_pt_lim_minus id (fct_cte u)); [apply derivable_pt_lim_id | apply derivable_pt_lim_const]. }
    replace (V u + A u * (s - u)) with ((0 + V u * 1) + A u / 2 * (1 * (s - u) + (s - u) * 1)) by field.
    apply (derivable_pt_lim_plus (fun s => X u + V u * (s - u)) (fun s => A u / 2 * ((s - u) * (s - u)))).
    - apply (derivable_pt_lim_plus (fct_cte (X u)) (fun s => V u * (s - u))); [apply derivable_pt_lim_const|].
      apply (derivable_pt_lim_scal (fun s => s - u)). exact D1.
    - apply (derivable_pt_lim_scal (fun s => (s - u) * (s - u))). apply (derivable_pt_lim_mult (fun s => s - u) (fun s => s - u)); exact D1. }
  destruct (Mv h (fun s => V s - V u - A u * (s - u)) u t Dh) as [c [Hc Ec]].
  assert (h0 : h u = 0) by (unfold h; ring). rewrite h0 in Ec.
  destruct (Mv V A u c DV) as [c' [Hc' Ec']].
  change (Rabs (h t) <= J * (Rabs (t - u) * Rabs (t - u) * Rabs (t - u))).
  replace (h t) with ((A c' - A u) * (c - u) * (t - u)).
  2:{ replace (h t) with (h t - 0) by ring. rewrite Ec. replace ((A c' - A u) * (c - u)) with (V c - V u - A u * (c - u)); [reflexivity|]. rewrite Ec'. ring. }
  rewrite !Rabs_mult.
  assert (La := L c' u). set (w := Rabs (t - u)) in *. assert (0 <= w) by apply Rabs_pos. assert (0 <= Rabs (c - u)) by apply Rabs_pos.
  assert (La' : Rabs (A c' - A u) <= J * w). { eapply Rle_trans; [exact La|]. apply Rmult_le_compat_l; lra. }
  assert (K : Rabs (A c' - A u) * Rabs (c - u) <= J * w * w) by (apply Rmult_le_compat; [apply Rabs_pos | assumption | exact La' | exact Hc]).
  assert (K' : Rabs (A c' - A u) * Rabs (c - u) * w <= J * w * w * w) by (apply Rmult_le_compat_r; assumption). lra.
Qed.

Section Velocity.
  Variable fit : list R -> list R -> N -> option (list R).
  Variable powf : R -> R -> R.

  (** One axis of one window. *)
  Lemma window_velocity (data : table R) j i s h ts xs t0 u ta tb X V A J eta cs : powf_ok powf -> least_squares fit -> increasing_in data i s ->
    motion X V A J -> measured_in data j i s X eta -> s = (2 * h + 1)%N -> (2 <= h)%N ->
    window data 0 i s ts -> window data j i s xs -> at_ ts 0 t0 -> at_ ts (h + 1) u ->
    cell data i 0 = Val ta -> cell data (i + s - 1) 0 = Val tb ->
    fit (map (fun t => t - t0) ts) xs 2%N = Some cs ->
    ta < u < tb /\
    Rabs (slope powf cs (u - t0) - V u) <=
      2 * ((eta + J * ((tb - ta) * (tb - ta) * (tb - ta))) * sqrt (IZR (Z.of_N s))) * (1 / (u - ta) + 1 / (tb - u)).
  Proof.
    intros P LS I Mo Me Es Hh [Lt Wt] [Lx Wx] H0 Hu Ca Cb Ef.
    assert (Cu : cell data (i + (h + 1)) 0 = Val u) by (apply Wt in Hu; tauto).
    assert (C0 : cell data i 0 = Val t0) by (apply Wt in H0; replace (i + 0)%N with i in H0 by lia; tauto).
    assert (t0 = ta) by congruence. subst t0.
    assert (Hau : ta < u) by (apply (I 0 (h + 1))%N; [lia | rewrite N.add_0_r; exact Ca | exact Cu]).
    assert (Hub : u < tb) by (apply (I (h + 1) (s - 1))%N; [lia | exact Cu | replace (i + (s - 1))%N with (i + s - 1)%N by lia; exact Cb]).
    split; [lra|].
    set (qs := [X u - V u * (u - ta) + A u / 2 * ((u - ta) * (u - ta)); V u - A u * (u - ta); A u / 2]).
    assert (Eq : forall t, poly qs (t - ta) = X u + V u * (t - u) + A u / 2 * ((t - u) * (t - u))) by (intros t; unfold qs; rewrite poly3; field).
    assert (Lm : length (map (fun t => t - ta) ts) = length xs) by (rewrite map_length; unfold vlen in *; lia).
    assert (Nd : NoDup (map (fun t => t - ta) ts)).
    { apply FinFun.Injective_map_NoDup; [intros p q Hpq; lra|]. apply NoDup_nth_error. intros p q Hp Epq.
      destruct (nth_error ts p) as [t|] eqn:Etp; [|apply nth_error_None in Etp; lia]. symmetry in Epq.
      assert (Cp : (N.of_nat p < s)%N /\ cell data (i + N.of_nat p) 0 = Val t) by (apply Wt; unfold at_; now rewrite Nat2N.id).
      assert (Cq : (N.of_nat q < s)%N /\ cell data (i + N.of_nat q) 0 = Val t) by (apply Wt; unfold at_; now rewrite Nat2N.id).
      destruct (lt_eq_lt_dec p q) as [[H|H]|H]; [|exact H|]; exfalso.
      + assert (t < t) by (apply (I (N.of_nat p) (N.of_nat q))%N; [lia | apply Cp | apply Cq]). lra.
      + assert (t < t) by (apply (I (N.of_nat q) (N.of_nat p))%N; [lia | apply Cq | apply Cp]). lra. }
    destruct (LS (map (fun t => t - ta) ts) xs Lm) as [cs' [Ef' [Lc Min]]]; [rewrite map_length; unfold vlen in *; lia | exact Nd|].
    assert (cs' = cs) by congruence. subst cs'. clear Ef'.
    assert (J0 : 0 <= J). { destruct Mo as [_ [_ L]]. assert (Q := L 1 0). replace (1 - 0) with 1 in Q by ring. rewrite Rabs_R1 in Q. assert (Q' := Rabs_pos (A 1 - A 0)). lra. }
    set (w := tb - ta) in *. set (eps := eta + J * (w * w * w)).
    assert (Both : forall t x, In (t, x) (combine (map (fun t => t - ta) ts) xs) <-> exists k t', (k < s)%N /\ t = t' - ta /\ cell data (i + k) 0 = Val t' /\ cell data (i + k) j = Val x).
    { intros t x. split.
      - intros Hin. apply In_nth_error in Hin as [n Hn]. assert (Ln := proj1 (nth_error_Some (combine (map (fun t => t - ta) ts) xs) n) ltac:(congruence)).
        rewrite combine_length, map_length in Ln. destruct (nth_error ts n) as [t'|] eqn:E1; [|apply nth_error_None in E1; lia].
        destruct (nth_error xs n) as [x'|] eqn:E2; [|apply nth_error_None in E2; lia].
        assert (E3 : nth_error (combine (map (fun t => t - ta) ts) xs) n = Some (t' - ta, x')).
        { clear - E1 E2. revert xs n E1 E2. induction ts as [|a l IH]; intros [|b m] [|n] E1 E2; cbn in *; try discriminate; [congruence | now apply IH]. }
        rewrite E3 in Hn. injection Hn as <- <-. exists (N.of_nat n), t'.
        assert (K1 : (N.of_nat n < s)%N /\ cell data (i + N.of_nat n) 0 = Val t') by (apply Wt; unfold at_; now rewrite Nat2N.id).
        assert (K2 : (N.of_nat n < s)%N /\ cell data (i + N.of_nat n) j = Val x') by (apply Wx; unfold at_; now rewrite Nat2N.id). tauto.
      - intros [k [t' [Hk [-> [K1 K2]]]]]. assert (A1 : at_ ts k t') by (apply Wt; auto). assert (A2 : at_ xs k x) by (apply Wx; auto).
        unfold at_ in A1, A2. apply nth_error_In with (n := N.to_nat k). clear - A1 A2. revert xs A2. generalize dependent (N.to_nat k). intros n.
        revert n. induction ts as [|a l IH]; intros [|n] E1 [|b m] E2; cbn in *; try discriminate; [congruence | now apply IH]. }
    assert (In_w : forall k t', (k < s)%N -> cell data (i + k) 0 = Val t' -> ta <= t' <= tb).
    { intros k t' Hk Ct. split.
      - destruct (N.eq_dec k 0) as [->|D]; [replace (i + 0)%N with i in Ct by lia; assert (t' = ta) by congruence; lra|]. apply Rlt_le, (I 0 k)%N; [lia | rewrite N.add_0_r; exact Ca | exact Ct].
      - destruct (N.eq_dec k (s - 1)) as [->|D]; [replace (i + (s - 1))%N with (i + s - 1)%N in Ct by lia; assert (t' = tb) by congruence; lra|]. apply Rlt_le, (I k (s - 1))%N; [lia | exact Ct | replace (i + (s - 1))%N with (i + s - 1)%N by lia; exact Cb]. }
    assert (Xs : forall k, (k < s)%N -> exists x, cell data (i + k) j = Val x).
    { intros k Hk. destruct (lt_at xs k) as [x Hx]; [lia|]. exists x. apply Wx in Hx. tauto. }
    assert (Eta : 0 <= eta). { destruct (Xs 0%N ltac:(lia)) as [x Cx]. assert (Q := Me 0%N ta x ltac:(lia) ltac:(rewrite N.add_0_r; exact Ca) Cx). assert (Q' := Rabs_pos (x - X ta)). lra. }
    assert (Hw : 0 < w) by (unfold w; lra).
    assert (Heps : 0 <= eps). { unfold eps. assert (0 <= J * (w * w * w)) by (apply Rmult_le_pos; [exact J0 | apply Rmult_le_pos; [apply Rmult_le_pos; lra | lra]]). lra. }
    assert (Near : forall t x, In (t, x) (combine (map (fun t => t - ta) ts) xs) -> Rabs (x - poly qs t) <= eps).
    { intros t x Hin. apply Both in Hin as [k [t' [Hk [-> [K1 K2]]]]]. rewrite Eq. assert (Q1 := Me _ _ _ Hk K1 K2). assert (Q2 := taylor X V A J u t' Mo).
      assert (Iw := In_w k t' Hk K1). set (r := Rabs (t' - u)) in *. assert (Hr : 0 <= r <= w). { split; [apply Rabs_pos|]. unfold r, w. apply Rabs_le. lra. }
      assert (R3 : r * r * r <= w * w * w). { apply Rmult_le_compat; [apply Rmult_le_pos; lra | lra | apply Rmult_le_compat; lra | lra]. }
      assert (J * (r * r * r) <= J * (w * w * w)) by (apply Rmult_le_compat_l; assumption).
      replace (x - (X u + V u * (t' - u) + A u / 2 * ((t' - u) * (t' - u)))) with ((x - X t') + (X t' - (X u + V u * (t' - u) + A u / 2 * ((t' - u) * (t' - u))))) by ring.
      eapply Rle_trans; [apply Rabs_triang|]. unfold eps. lra. }
    assert (Cl := fit_close (map (fun t => t - ta) ts) xs cs qs eps Lm Lc eq_refl Heps Min Near).
    rewrite map_length in Cl. replace (INR (length ts)) with (IZR (Z.of_N s)) in Cl.
    2:{ rewrite INR_IZR_INZ. f_equal. unfold vlen in Lt. lia. }
    set (M := eps * sqrt (IZR (Z.of_N s))) in *. assert (HM : 0 <= M) by (apply Rmult_le_pos; [exact Heps | apply sqrt_pos]).
    destruct (three cs Lc) as [a [b [c ->]]]. rewrite slope3 by exact P.
    assert (Sm := slope_small (a - (X u - V u * (u - ta) + A u / 2 * ((u - ta) * (u - ta)))) (b - (V u - A u * (u - ta))) (c - A u / 2) 0 (u - ta) (tb - ta) M).
    replace (b + 2 * c * (u - ta) - V u) with (b - (V u - A u * (u - ta)) + 2 * (c - A u / 2) * (u - ta)) by field.
    replace (tb - u) with (tb - ta - (u - ta)) by ring. replace (u - ta - 0) with (u - ta) in Sm by ring. apply Sm; [lra | exact HM|].
    intros r Hr. assert (Kr : exists k t', (k < s)%N /\ r = t' - ta /\ cell data (i + k) 0 = Val t').
    { destruct Hr as [->|[->| ->]].
      - exists 0%N, ta. split; [lia|]. split; [ring|]. replace (i + 0)%N with i by lia. exact Ca.
      - exists (h + 1)%N, u. split; [lia|]. split; [reflexivity | exact Cu].
      - exists (s - 1)%N, tb. split; [lia|]. split; [reflexivity|]. replace (i + (s - 1))%N with (i + s - 1)%N by lia. exact Cb. }
    destruct Kr as [k [t' [Hk [-> Ct]]]]. destruct (Xs k Hk) as [x Cx].
    assert (Q := Cl (t' - ta) x ltac:(apply Both; exists k, t'; auto)). unfold qs in Q. rewrite !poly3 in Q.
    eapply Rle_trans; [|exact Q]. right. f_equal. ring.
  Qed.

  (** C147: positions measured with errors up to [eta] of a motion whose acceleration changes by at most
      [J] per time, a window of [s] samples from time [ta] to [tb]: the velocity given for the middle
      sample is that of the motion at the sample after it, up to this bound. *)
  Definition velocity_bound (eta J : R) (s : N) (ta u tb : R) : R :=
    2 * ((eta + J * ((tb - ta) * (tb - ta) * (tb - ta))) * sqrt (IZR (Z.of_N s))) * (1 / (u - ta) + 1 / (tb - u)).
  Theorem c147_velocity (data : table R) s out X Y Z VX VY VZ AX AY AZ J eta : powf_ok powf -> least_squares fit -> increasing data ->
    motion X VX AX J -> motion Y VY AY J -> motion Z VZ AZ J ->
    measured data 1 X eta -> measured data 2 Y eta -> measured data 3 Z eta ->
    (5 <= s)%N -> velocity_polynom fit powf data s 2%N = Val out ->
    vlen out = (vlen data - (s - 1))%N /\
    forall i row, at_ out i row -> exists t x y z u ta tb vx vy vz,
      sample_at data (i + (s - 1) / 2) t x y z /\ cell data (i + (s - 1) / 2 + 1) 0 = Val u /\
      cell data i 0 = Val ta /\ cell data (i + s - 1) 0 = Val tb /\ ta < t < u /\ u < tb /\
      row = [t; x; y; z; vx; vy; vz] /\
      Rabs (vx - VX u) <= velocity_bound eta J s ta u tb /\
      Rabs (vy - VY u) <= velocity_bound eta J s ta u tb /\
      Rabs (vz - VZ u) <= velocity_bound eta J s ta u tb /\
      (forall K, (forall r, Rabs (AX r) <= K) -> Rabs (vx - VX t) <= velocity_bound eta J s ta u tb + K * (u - t)) /\
      (forall K, (forall r, Rabs (AY r) <= K) -> Rabs (vy - VY t) <= velocity_bound eta J s ta u tb + K * (u - t)) /\
      (forall K, (forall r, Rabs (AZ r) <= K) -> Rabs (vz - VZ t) <= velocity_bound eta J s ta u tb + K * (u - t)).
  Proof.
    intros P LS I Mx My Mz Ex Ey Ez Hs E. destruct (c52_rows fit powf data s 2%N out ltac:(lia) E) as [h [Eh [Lo [Ls H]]]].
    split; [exact Lo|]. intros i row Hi.
    replace ((s - 1) / 2)%N with h by (subst s; replace (2 * h + 1 - 1)%N with (h * 2)%N by lia; now rewrite N.div_mul).
    destruct (H i row Hi) as [t [x [y [z [ts [xs [ys [zs [px [py [pz [t0 [u [Sm [Wt [Wx [Wy [Wz [H0 [Hu [Fx [Fy [Fz Er]]]]]]]]]]]]]]]]]]]]]]].
    change (fun t => (t - t0)%num) with (fun t => (t - t0)) in Fx, Fy, Fz.
    assert (Ca : cell data i 0 = Val t0) by (apply Wt in H0; replace (i + 0)%N with i in H0 by lia; tauto).
    destruct (lt_at ts (s - 1)) as [tb Hb]; [rewrite (proj1 Wt); lia|].
    assert (Cb : cell data (i + s - 1) 0 = Val tb) by (apply Wt in Hb; replace (i + s - 1)%N with (i + (s - 1))%N by lia; tauto).
    assert (Cu : cell data (i + h + 1) 0 = Val u) by (apply Wt in Hu; replace (i + h + 1)%N with (i + (h + 1))%N by lia; tauto).
    assert (Ct : cell data (i + h) 0 = Val t) by (apply sample_cells in Sm; tauto).
    assert (Iw : increasing_in data i s) by (intros p q a b Hpq; apply I; lia).
    assert (Loc : forall j Q, measured data j Q eta -> measured_in data j i s Q eta) by (intros j Q Hq k a b _; apply Hq).
    destruct (window_velocity data 1 i s h ts xs t0 u t0 tb X VX AX J eta px P LS Iw Mx (Loc _ _ Ex) Eh ltac:(lia) Wt Wx H0 Hu Ca Cb Fx) as [[O1 O2] Bx].
    destruct (window_velocity data 2 i s h ts ys t0 u t0 tb Y VY AY J eta py P LS Iw My (Loc _ _ Ey) Eh ltac:(lia) Wt Wy H0 Hu Ca Cb Fy) as [_ By].
    destruct (window_velocity data 3 i s h ts zs t0 u t0 tb Z VZ AZ J eta pz P LS Iw Mz (Loc _ _ Ez) Eh ltac:(lia) Wt Wz H0 Hu Ca Cb Fz) as [_ Bz].
    assert (T1 : t0 < t) by (apply (I i (i + h)%N); [lia | exact Ca | exact Ct]).
    assert (T2 : t < u) by (apply (I (i + h)%N (i + h + 1)%N); [lia | exact Ct | exact Cu]).
    assert (Late : forall Q V A K, motion Q V A J -> (forall r, Rabs (A r) <= K) -> Rabs (V u - V t) <= K * (u - t)).
    { intros Q V A K [_ [D _]] HK. destruct (MVT_cor2 V A t u T2) as [c [Ec _]]; [intros; apply D|]. rewrite Ec, Rabs_mult, (Rabs_right (u - t)) by lra.
      apply Rmult_le_compat_r; [lra | apply HK]. }
    assert (Add : forall v a b c d, Rabs (v - a) <= c -> Rabs (a - b) <= d -> Rabs (v - b) <= c + d).
    { intros v a b c d A1 A2. replace (v - b) with ((v - a) + (a - b)) by ring. eapply Rle_trans; [apply Rabs_triang|]. lra. }
    do 10 eexists. split; [exact Sm|]. split; [exact Cu|]. split; [exact Ca|]. split; [exact Cb|]. split; [lra|]. split; [lra|]. split; [exact Er|].
    split; [exact Bx|]. split; [exact By|]. split; [exact Bz|].
    split; [|split]; intros K HK.
    - eapply Add; [exact Bx | eapply Late; [exact Mx | exact HK]].
    - eapply Add; [exact By | eapply Late; [exact My | exact HK]].
    - eapply Add; [exact Bz | eapply Late; [exact Mz | exact HK]].
  Qed.
End Velocity.

(** A least-squares fit of degree two finds polynomials of degree two exactly, the assumption of C52. *)
Lemma sum_zero (f : R * R -> R) l : (forall x, In x l -> 0 <= f x) -> Rsum (map f l) <= 0 -> forall x, In x l -> f x = 0.
Proof.
  induction l as [|y l IH]; intros H S x Hx; [contradiction|]. rewrite map_cons, Rsum_cons in S.
  assert (0 <= f y) by (apply H; now left). assert (0 <= Rsum (map f l)) by (apply Rsum_nonneg; intros; apply H; now right).
  destruct Hx as [->|Hx]; [lra|]. apply IH; [intros; apply H; now right | lra | exact Hx].
Qed.
Theorem c147_exact fit : least_squares fit -> exact_fit fit.
Proof.
  intros LS ts cs L D Lc. destruct (LS ts (map (poly cs) ts)) as [ds [E [Ld M]]]; [now rewrite map_length | unfold vlen in L; lia | exact D|].
  rewrite E. f_equal. specialize (M cs Lc).
  assert (Cm : combine ts (map (poly cs) ts) = map (fun t => (t, poly cs t)) ts).
  { clear. induction ts as [|t ts IH]; [reflexivity|]. cbn [map combine]. now rewrite IH. }
  unfold misfit in M. rewrite Cm, !map_map in M. cbn [fst snd] in M.
  rewrite (Rsum_zero (fun t => (poly cs t - poly cs t) * (poly cs t - poly cs t))) in M by (intros; ring).
  assert (Z : forall t, In t ts -> poly cs t = poly ds t).
  { intros t Ht. set (f := fun ty : R * R => (snd ty - poly ds (fst ty)) * (snd ty - poly ds (fst ty))).
    assert (Q := sum_zero f (map (fun t => (t, poly cs t)) ts)). rewrite map_map in Q. unfold f in Q. cbn [fst snd] in Q.
    specialize (Q ltac:(intros; apply Rle_0_sqr) M (t, poly cs t) ltac:(apply in_map_iff; eauto)). cbn [fst snd] in Q. apply Rmult_integral in Q. lra. }
  destruct ts as [|t0 [|t1 [|t2 ts]]]; try (exfalso; unfold vlen in L; cbn [length] in L; lia).
  inversion D as [|? ? N0 D1]; subst. inversion D1 as [|? ? N1 D2]; subst. cbn [In] in N0, N1.
  assert (H1 : t1 - t0 <> 0) by (intros Q; apply N0; left; lra). assert (H2 : t2 - t0 <> 0) by (intros Q; apply N0; right; left; lra).
  assert (H3 : t2 - t1 <> 0) by (intros Q; apply N1; left; lra).
  destruct (three cs Lc) as [a [b [c ->]]]. destruct (three ds Ld) as [a' [b' [c' ->]]].
  assert (Z0 := Z t0 ltac:(now left)). assert (Z1 := Z t1 ltac:(right; now left)). assert (Z2 := Z t2 ltac:(right; right; now left)). rewrite !poly3 in Z0, Z1, Z2.
  assert (E1 : (t1 - t0) * ((b - b') + (c - c') * (t0 + t1)) = 0) by lra. apply Rmult_integral in E1 as [E1|E1]; [lra|].
  assert (E2 : (t2 - t1) * ((b - b') + (c - c') * (t1 + t2)) = 0) by lra. apply Rmult_integral in E2 as [E2|E2]; [lra|].
  assert (E3 : (t2 - t0) * (c - c') = 0) by lra. apply Rmult_integral in E3 as [E3|E3]; [lra|].
  assert (c' = c) by lra. subst c'. assert (b' = b) by lra. subst b'. assert (a' = a) by lra. now subst.
Qed.

(** ** The hypotheses are met: a least-squares fit exists, by orthogonal polynomials. *)
Definition total (f : R * R -> R) (l : list (R * R)) : R := Rsum (map f l).
Lemma total_lin f g h k a b c d l : total (fun x => a * f x + b * g x + c * h x + d * k x) l = a * total f l + b * total g l + c * total h l + d * total k l.
Proof. unfold total. rewrite (Rsum_map_plus (fun x => a * f x + b * g x + c * h x)), sum_lin, Rsum_map_scal. reflexivity. Qed.
Lemma total_ext f g l : (forall x, In x l -> f x = g x) -> total f l = total g l. Proof. apply Rsum_ext. Qed.
Definition ortho (ts ys : list R) (_ : N) : option (list R) :=
  let l := combine ts ys in
  let n := INR (length l) in
  let mu := total fst l / n in
  let nu := total (fun x => fst x * fst x) l / n in
  let N1 := total (fun x => (fst x - mu) * (fst x - mu)) l in
  let al := total (fun x => fst x * fst x * (fst x - mu)) l / N1 in
  let p2 := fun t => t * t - nu - al * (t - mu) in
  let N2 := total (fun x => p2 (fst x) * p2 (fst x)) l in
  let c0 := total snd l / n in
  let c1 := total (fun x => snd x * (fst x - mu)) l / N1 in
  let c2 := total (fun x => snd x * p2 (fst x)) l / N2 in
  Some [c0 - c1 * mu - c2 * nu + c2 * al * mu; c1 - c2 * al; c2].
Lemma ortho_least : least_squares ortho.
Proof.
  intros ts ys L G D. unfold ortho. set (l := combine ts ys). set (n := INR (length l)). set (mu := total fst l / n).
  set (nu := total (fun x => fst x * fst x) l / n). set (N1 := total (fun x => (fst x - mu) * (fst x - mu)) l).
  set (al := total (fun x => fst x * fst x * (fst x - mu)) l / N1). set (p2 := fun t => t * t - nu - al * (t - mu)).
  set (N2 := total (fun x => p2 (fst x) * p2 (fst x)) l). set (c0 := total snd l / n).
  set (c1 := total (fun x => snd x * (fst x - mu)) l / N1). set (c2 := total (fun x => snd x * p2 (fst x)) l / N2).
  exists [c0 - c1 * mu - c2 * nu + c2 * al * mu; c1 - c2 * al; c2]. split; [reflexivity|]. split; [reflexivity|].
  assert (Hn : n <> 0). { unfold n, l. rewrite combine_length. apply not_0_INR. lia. }
  assert (Pts : exists a b c ya yb yc, In (a, ya) l /\ In (b, yb) l /\ In (c, yc) l /\ a <> b /\ a <> c /\ b <> c).
  { unfold l. destruct ts as [|a [|b [|c ts]]]; cbn [length] in G; try lia. destruct ys as [|ya [|yb [|yc ys]]]; cbn [length] in L; try lia.
    inversion D as [|? ? M0 D1]; subst. inversion D1 as [|? ? M1 D2]; subst. cbn [In] in M0, M1.
    exists a, b, c, ya, yb, yc. cbn [combine In]. repeat split; auto. }
  destruct Pts as [a [b [c [ya [yb [yc [Ia [Ib [Ic [Dab [Dac Dbc]]]]]]]]]]].
  assert (H1 : N1 <> 0).
  { intros Z. assert (Q : forall x, In x l -> (fst x - mu) * (fst x - mu) = 0).
    { apply sum_zero; [intros; apply Rle_0_sqr|]. unfold N1, total in Z. lra. }
    assert (Qa := Q _ Ia). assert (Qb := Q _ Ib). cbn [fst] in Qa, Qb. apply Rmult_integral in Qa. apply Rmult_integral in Qb. lra. }
  assert (H2 : N2 <> 0).
  { intros Z. assert (Q : forall x, In x l -> p2 (fst x) * p2 (fst x) = 0).
    { apply sum_zero; [intros; apply Rle_0_sqr|]. unfold N2, total in Z. lra. }
    assert (Qa := Q _ Ia). assert (Qb := Q _ Ib). assert (Qc := Q _ Ic). cbn [fst] in Qa, Qb, Qc. 
    assert (Pa : p2 a = 0) by (apply Rmult_integral in Qa; tauto). assert (Pb : p2 b = 0) by (apply Rmult_integral in Qb; tauto). assert (Pc : p2 c = 0) by (apply Rmult_integral in Qc; tauto).
    unfold p2 in Pa, Pb, Pc. assert (E1 : (a - b) * (a + b - al) = 0) by lra. assert (E2 : (a - c) * (a + c - al) = 0) by lra.
    apply Rmult_integral in E1. apply Rmult_integral in E2. lra. }
  assert (T1 : total (fun _ => 1) l = n). { unfold total, n. rewrite Rsum_const. ring. }
  (* the three polynomials are orthogonal *)
  assert (O1 : total (fun x => fst x - mu) l = 0).
  { rewrite (total_ext _ (fun x => 1 * fst x + (- mu) * 1 + 0 * 1 + 0 * 1)) by (intros; ring).
    rewrite (total_lin fst (fun _ => 1) (fun _ => 1) (fun _ => 1)), T1. unfold mu. field. exact Hn. }
  assert (O2 : total (fun x => p2 (fst x)) l = 0).
  { rewrite (total_ext _ (fun x => 1 * (fst x * fst x) + (- nu) * 1 + (- al) * (fst x - mu) + 0 * 1)) by (intros; unfold p2; ring).
    rewrite (total_lin (fun x => fst x * fst x) (fun _ => 1) (fun x => fst x - mu) (fun _ => 1)), T1, O1. unfold nu. field. exact Hn. }
  assert (O3 : total (fun x => (fst x - mu) * p2 (fst x)) l = 0).
  { rewrite (total_ext _ (fun x => 1 * (fst x * fst x * (fst x - mu)) + (- nu) * (fst x - mu) + (- al) * ((fst x - mu) * (fst x - mu)) + 0 * 1)) by (intros; unfold p2; ring).
    rewrite (total_lin (fun x => fst x * fst x * (fst x - mu)) (fun x => fst x - mu) (fun x => (fst x - mu) * (fst x - mu)) (fun _ => 1)), O1. fold N1. unfold al. field. exact H1. }
  set (q := fun t => c0 + c1 * (t - mu) + c2 * p2 t).
  assert (K0 : total (fun x => snd x - q (fst x)) l = 0).
  { rewrite (total_ext _ (fun x => 1 * snd x + (- c0) * 1 + (- c1) * (fst x - mu) + (- c2) * p2 (fst x))) by (intros; unfold q; ring).
    rewrite (total_lin snd (fun _ => 1) (fun x => fst x - mu) (fun x => p2 (fst x))), T1, O1, O2. unfold c0. field. exact Hn. }
  assert (K1 : total (fun x => (snd x - q (fst x)) * (fst x - mu)) l = 0).
  { rewrite (total_ext _ (fun x => 1 * (snd x * (fst x - mu)) + (- c0) * (fst x - mu) + (- c1) * ((fst x - mu) * (fst x - mu)) + (- c2) * ((fst x - mu) * p2 (fst x)))) by (intros; unfold q; ring).
    rewrite (total_lin (fun x => snd x * (fst x - mu)) (fun x => fst x - mu) (fun x => (fst x - mu) * (fst x - mu)) (fun x => (fst x - mu) * p2 (fst x))), O1, O3. fold N1. unfold c1. field. exact H1. }
  assert (K2 : total (fun x => (snd x - q (fst x)) * p2 (fst x)) l = 0).
  { rewrite (total_ext _ (fun x => 1 * (snd x * p2 (fst x)) + (- c0) * p2 (fst x) + (- c1) * ((fst x - mu) * p2 (fst x)) + (- c2) * (p2 (fst x) * p2 (fst x)))) by (intros; unfold q; ring).
    rewrite (total_lin (fun x => snd x * p2 (fst x)) (fun x => p2 (fst x)) (fun x => (fst x - mu) * p2 (fst x)) (fun x => p2 (fst x) * p2 (fst x))), O2, O3. fold N2. unfold c2. field. exact H2. }
  intros ds Ld. destruct (three ds Ld) as [d0 [d1 [d2 ->]]]. unfold misfit. fold l.
  set (e0 := c0 - (d0 + d1 * mu + d2 * (nu))). set (e1 := c1 - (d1 + d2 * al)). set (e2 := c2 - d2).
  assert (R1 : forall t, poly [c0 - c1 * mu - c2 * nu + c2 * al * mu; c1 - c2 * al; c2] t = q t) by (intros; rewrite poly3; unfold q, p2; ring).
  assert (R2 : forall t, poly [d0; d1; d2] t = q t - (e0 + e1 * (t - mu) + e2 * p2 t)) by (intros; rewrite poly3; unfold q, p2, e0, e1, e2; ring).
  set (w := fun t => e0 + e1 * (t - mu) + e2 * p2 t).
  assert (X1 : Rsum (map (fun ty : R * R => (snd ty - poly [c0 - c1 * mu - c2 * nu + c2 * al * mu; c1 - c2 * al; c2] (fst ty)) *
       (snd ty - poly [c0 - c1 * mu - c2 * nu + c2 * al * mu; c1 - c2 * al; c2] (fst ty))) l) = total (fun x => (snd x - q (fst x)) * (snd x - q (fst x))) l).
  { apply Rsum_ext. intros. now rewrite R1. }
  assert (X2 : Rsum (map (fun ty : R * R => (snd ty - poly [d0; d1; d2] (fst ty)) * (snd ty - poly [d0; d1; d2] (fst ty))) l) =
     1 * total (fun x => (snd x - q (fst x)) * (snd x - q (fst x))) l + 1 * total (fun x => w (fst x) * w (fst x)) l
     + 1 * (2 * e0 * total (fun x => snd x - q (fst x)) l + 2 * e1 * total (fun x => (snd x - q (fst x)) * (fst x - mu)) l + 2 * e2 * total (fun x => (snd x - q (fst x)) * p2 (fst x)) l + 0 * total (fun _ => 1) l) + 0 * total (fun _ => 1) l).
  { rewrite <- total_lin, <- total_lin. apply Rsum_ext. intros x _. rewrite R2. fold (w (fst x)). unfold w. ring. }
  rewrite X1, X2, K0, K1, K2. assert (0 <= total (fun x => w (fst x) * w (fst x)) l) by (apply Rsum_nonneg; intros; apply Rle_0_sqr). lra.
Qed.

(** A case: the motion [t^3] along [x], measured with an error of one tenth, [t^2] along [y], at rest along [z]. *)
Definition ex_noisy : table R := map (fun k => [IZR k; IZR k * IZR k * IZR k + (if Z.even k then 1 / 10 else - (1 / 10)); IZR k * IZR k; 0]) [0; 1; 2; 3; 4; 5]%Z.
Example c147_used : powf_ok powR /\ least_squares ortho /\ increasing ex_noisy /\
  motion (fun t => t * t * t) (fun t => 3 * (t * t)) (fun t => 6 * t) 6 /\ motion (fun t => t * t) (fun t => 2 * t) (fun _ => 2) 6 /\
  motion (fun _ => 0) (fun _ => 0) (fun _ => 0) 6 /\
  measured ex_noisy 1 (fun t => t * t * t) (1 / 10) /\ measured ex_noisy 2 (fun t => t * t) (1 / 10) /\ measured ex_noisy 3 (fun _ => 0) (1 / 10) /\
  exists out, velocity_polynom ortho powR ex_noisy 5 2 = Val out /\ vlen out = 2%N.
Proof.
  assert (P : powf_ok powR) by (destruct c52_used as [P _]; exact P).
  assert (Cc : forall i j x, cell ex_noisy i j = Val x -> exists k, k = Z.of_N i /\ at_ [IZR k; IZR k * IZR k * IZR k + (if Z.even k then 1 / 10 else - (1 / 10)); IZR k * IZR k; 0] j x).
  { intros i j x H. apply cell_val in H as [r [Hr Hx]]. unfold at_, ex_noisy in Hr. rewrite nth_error_map in Hr.
    destruct (nth_error [0; 1; 2; 3; 4; 5]%Z (N.to_nat i)) as [k|] eqn:E; [|discriminate]. cbn [option_map] in Hr. injection Hr as <-.
    exists k. split; [|exact Hx].
    assert (Li : (N.to_nat i < 6)%nat) by (apply (proj1 (nth_error_Some [0; 1; 2; 3; 4; 5]%Z (N.to_nat i))); congruence).
    remember (N.to_nat i) as n eqn:En. destruct n as [|[|[|[|[|[|]]]]]]; try lia; cbn in E; injection E as <-; lia. }
  assert (I : increasing ex_noisy).
  { intros i j t u Hij Ht Hu. apply Cc in Ht as [k [-> Ht]]. apply Cc in Hu as [m [-> Hu]].
    unfold at_ in *. cbn in Ht, Hu. injection Ht as <-. injection Hu as <-. apply IZR_lt. lia. }
  assert (Sq : forall s, derivable_pt_lim (fun t => t * t) s (2 * s)).
  { intros s. replace (2 * s) with (1 * s + s * 1) by ring. apply (derivable_pt_lim_mult id id); apply derivable_pt_lim_id. }
  assert (Cu : forall s, derivable_pt_lim (fun t => t * t * t) s (3 * (s * s))).
  { intros s. replace (3 * (s * s)) with (2 * s * s + s * s * 1) by ring. apply (derivable_pt_lim_mult (fun t => t * t) id); [apply Sq | apply derivable_pt_lim_id]. }
  split; [exact P|]. split; [exact ortho_least|]. split; [exact I|]. split; [|split; [|split; [|split; [|split; [|split]]]]].
  - split; [exact Cu|]. split.
    + intros s. replace (6 * s) with (3 * (2 * s)) by ring. apply (derivable_pt_lim_scal (fun t => t * t)). apply Sq.
    + intros s r. replace (6 * s - 6 * r) with (6 * (s - r)) by ring. rewrite Rabs_mult, (Rabs_right 6) by lra. lra.
  - split; [exact Sq|]. split.
    + intros s. assert (D := derivable_pt_lim_scal id 2 s 1 (derivable_pt_lim_id s)). rewrite Rmult_1_r in D. exact D.
    + intros s r. replace (2 - 2) with 0 by ring. rewrite Rabs_R0. apply Rmult_le_pos; [lra | apply Rabs_pos].
  - split; [intros; apply derivable_pt_lim_const|]. split; [intros; apply derivable_pt_lim_const|].
    intros s r. replace (0 - 0) with 0 by ring. rewrite Rabs_R0. apply Rmult_le_pos; [lra | apply Rabs_pos].
  - intros i t x Ct Cx. apply Cc in Ct as [k [-> Ht]]. apply Cc in Cx as [m [-> Hx]]. unfold at_ in Ht, Hx. cbn in Ht, Hx. injection Ht as <-. injection Hx as <-.
    apply Rabs_le. destruct (Z.even (Z.of_N i)); lra.
  - intros i t x Ct Cx. apply Cc in Ct as [k [-> Ht]]. apply Cc in Cx as [m [-> Hx]]. unfold at_ in Ht, Hx. cbn in Ht, Hx. injection Ht as <-. injection Hx as <-.
    apply Rabs_le. lra.
  - intros i t x Ct Cx. apply Cc in Cx as [m [-> Hx]]. unfold at_ in Hx. cbn in Hx. injection Hx as <-. apply Rabs_le. lra.
  - destruct (c52_total ortho powR ex_noisy 5 2) as [out E]; [reflexivity | lia | cbn; lia | repeat constructor | intros; discriminate|].
    exists out. split; [exact E|]. destruct (c52_rows ortho powR ex_noisy 5 2 out ltac:(lia) E) as [h [_ [Lo _]]]. exact Lo.
Qed.
