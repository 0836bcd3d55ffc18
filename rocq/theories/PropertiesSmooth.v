(** * Property C148: resampling followed by the computation of velocities (ideal arithmetic). *)
From Coq Require Import Reals List NArith ZArith Bool Lia Lra ZifyBool ZifyN ZifyNat.
From Verif Require Import Base BaseFacts Num RFacts NDArray DataModel DataSpec DataLoad ConvModel ConvInterp ConvVel PropertiesResample PropertiesVelocity.
Local Open Scope list_scope.
Local Open Scope R_scope.

Lemma derivative_lipschitz (V A : R -> R) K : (forall s, derivable_pt_lim V s (A s)) -> (forall r, Rabs (A r) <= K) -> forall s r, Rabs (V s - V r) <= K * Rabs (s - r).
Proof.
  intros D HK s r. assert (K0 : 0 <= K) by (eapply Rle_trans; [apply Rabs_pos | apply (HK 0)]).
  assert (Up : forall a b, a < b -> Rabs (V b - V a) <= K * (b - a)).
  { intros a b H. destruct (MVT_cor2 V A a b H) as [c [Ec _]]; [intros; apply D|]. rewrite Ec, Rabs_mult, (Rabs_right (b - a)) by lra.
    apply Rmult_le_compat_r; [lra | apply HK]. }
  destruct (Rtotal_order s r) as [H|[->|H]].
  - rewrite Rabs_minus_sym, (Rabs_minus_sym s r), (Rabs_right (r - s)) by lra. now apply Up.
  - replace (V r - V r) with 0 by ring. rewrite Rabs_R0. apply Rmult_le_pos; [exact K0 | apply Rabs_pos].
  - rewrite (Rabs_right (s - r)) by lra. now apply Up.
Qed.
Lemma motion_lipschitz X V A J K : motion X V A J -> (forall r, Rabs (A r) <= K) -> forall s r, Rabs (V s - V r) <= K * Rabs (s - r).
Proof. intros [_ [D _]]. now apply derivative_lipschitz. Qed.

(** C148: samples (gaps at most [g], at most twice as dense as the new time base of spacing [dt]) of a
    motion with accelerations up to [K] that change by at most [J] per time, resampled and
    differentiated with windows of [s]: every window that ends before the middle of the last gap gives
    a position within [K g^2] of the motion, and a velocity within [velocity_bound] of the true one
    (with that position error) at the next row. *)
Theorem c148_velocity fit powf (data : table R) max_time steps time t1 t2 X Y Z VX VY VZ AX AY AZ J K g s out vel :
  powf_ok powf -> least_squares fit ->
  column data 0 = Val time -> increasing data -> (3 <= vlen data)%N -> Forall (fun r => (3 < vlen r)%N) data -> (0 < steps)%N -> 0 < max_time ->
  at_most_twice_as_dense data (max_time / IZR (Z.of_N steps)) -> cell data 0 0 = Val 0 ->
  cell data (vlen data - 2) 0 = Val t1 -> cell data (vlen data - 1) 0 = Val t2 ->
  records data X Y Z -> gaps_below data g ->
  motion X VX AX J -> motion Y VY AY J -> motion Z VZ AZ J ->
  (forall r, Rabs (AX r) <= K) -> (forall r, Rabs (AY r) <= K) -> (forall r, Rabs (AZ r) <= K) ->
  interpolate data max_time steps = Val out -> (5 <= s)%N -> velocity_polynom fit powf out s 2%N = Val vel ->
  let dt := max_time / IZR (Z.of_N steps) in
  let at_row k := IZR (Z.of_N k) * dt in
  forall i, (i + s < steps)%N -> 2 * at_row (i + s - 1)%N < t1 + t2 ->
  exists x y z vx vy vz,
    let h := ((s - 1) / 2)%N in let t := at_row (i + h)%N in let u := at_row (i + h + 1)%N in
    let B := velocity_bound (K * (g * g)) J s (at_row i) u (at_row (i + s - 1)%N) in
    at_ vel i [t; x; y; z; vx; vy; vz] /\
    Rabs (x - X t) <= K * (g * g) /\ Rabs (y - Y t) <= K * (g * g) /\ Rabs (z - Z t) <= K * (g * g) /\
    Rabs (vx - VX u) <= B /\ Rabs (vy - VY u) <= B /\ Rabs (vz - VZ u) <= B /\
    Rabs (vx - VX t) <= B + K * dt /\ Rabs (vy - VY t) <= B + K * dt /\ Rabs (vz - VZ t) <= B + K * dt.
Proof.
  intros Pw LS Ec I Hn W Hs Hm Sp C0 C1 C2 Re Ga Mx My Mz Kx Ky Kz E H5 Ev dt at_row i Hi Ht.
  destruct (c146_accuracy data max_time steps time t1 t2 X Y Z g Ec I Hn W Hs ltac:(lra) Sp C0 C1 C2 Re Ga) as [out' [E' Acc]].
  assert (out' = out) by congruence. subst out'. clear E'. change (max_time / IZR (Z.of_N steps)) with dt in Acc.
  destruct (c51_rows data max_time steps time Ec (increasing_sorted data time Ec I) ltac:(clear - Hn; lia) W Hs) as [out' [E' [Lo [_ [First _]]]]].
  assert (out' = out) by congruence. subst out'. clear E'.
  assert (Sn : 0 < IZR (Z.of_N steps)) by (apply IZR_lt; clear - Hs; lia).
  assert (Dt : 0 < dt) by (apply Rdiv_lt_0_compat; assumption).
  assert (Mono : forall p q, (p < q)%N -> at_row p < at_row q) by (intros p q Hpq; unfold at_row; apply Rmult_lt_compat_r; [exact Dt | apply IZR_lt; clear - Hpq; lia]).
  assert (K0 : 0 <= K) by (eapply Rle_trans; [apply Rabs_pos | apply (Kx 0)]).
  assert (Sq : 0 <= K * (g * g)) by (apply Rmult_le_pos; [exact K0 | apply Rle_0_sqr]).
  assert (Rows : forall k, (k < s)%N -> exists a b c, at_ out (i + k) [at_row (i + k)%N; a; b; c] /\
      Rabs (a - X (at_row (i + k)%N)) <= K * (g * g) /\ Rabs (b - Y (at_row (i + k)%N)) <= K * (g * g) /\ Rabs (c - Z (at_row (i + k)%N)) <= K * (g * g)).
  { intros k Hk. destruct (N.eq_dec (i + k) 0) as [Z0|Nz].
    - rewrite Z0. destruct (First ltac:(clear - Hi H5; lia)) as [t [x [y [z [S0 A0]]]]]. assert (Ct : cell data 0 0 = Val t) by (apply sample_cells in S0; tauto).
      assert (t = 0) by congruence. subst t. destruct (Re _ _ _ _ _ S0) as [-> [-> ->]]. exists (X 0), (Y 0), (Z 0).
      assert (at_row 0%N = 0) as -> by (unfold at_row; cbn [Z.of_N]; ring). split; [exact A0|].
      repeat split; match goal with |- Rabs (?a - ?a) <= _ => replace (a - a) with 0 by ring; rewrite Rabs_R0; exact Sq end.
    - assert (Lt : 2 * at_row (i + k)%N < t1 + t2).
      { destruct (N.eq_dec k (s - 1)) as [->|D]; [replace (i + (s - 1))%N with (i + s - 1)%N by (clear - H5; lia); exact Ht|].
        assert (Q := Mono (i + k)%N (i + s - 1)%N ltac:(clear - Hk D; lia)). lra. }
      destruct (Acc (i + k)%N ltac:(clear - Nz Hk Hi; lia) Lt) as [a [b [c [A0 [_ [_ [_ [Sx [Sy Sz]]]]]]]]].
      exists a, b, c. split; [exact A0|]. split; [|split].
      + apply (Sx VX K); [apply Mx | exact (motion_lipschitz _ _ _ _ _ Mx Kx)].
      + apply (Sy VY K); [apply My | exact (motion_lipschitz _ _ _ _ _ My Ky)].
      + apply (Sz VZ K); [apply Mz | exact (motion_lipschitz _ _ _ _ _ Mz Kz)]. }
  assert (Cells : forall k j x, (k < s)%N -> cell out (i + k) j = Val x -> exists a b c, at_ out (i + k) [at_row (i + k)%N; a; b; c] /\ at_ [at_row (i + k)%N; a; b; c] j x /\
      Rabs (a - X (at_row (i + k)%N)) <= K * (g * g) /\ Rabs (b - Y (at_row (i + k)%N)) <= K * (g * g) /\ Rabs (c - Z (at_row (i + k)%N)) <= K * (g * g)).
  { intros k j x Hk Cx. destruct (Rows k Hk) as [a [b [c [A0 Q]]]]. exists a, b, c. split; [exact A0|]. split; [|exact Q].
    apply cell_val in Cx as [r [Hr Hx]]. unfold at_ in A0, Hr. congruence. }
  assert (Iw : increasing_in out i s).
  { intros p q t u Hpq Cp Cq. apply Cells in Cp as [? [? [? [_ [Tp _]]]]]; [|clear - Hpq; lia]. apply Cells in Cq as [? [? [? [_ [Tq _]]]]]; [|clear - Hpq; lia].
    injection Tp as <-. injection Tq as <-. apply Mono. clear - Hpq; lia. }
  assert (M1 : measured_in out 1 i s X (K * (g * g))).
  { intros k t x Hk Ct Cx. destruct (Cells k 0%N t Hk Ct) as [? [? [? [_ [Tt _]]]]]. injection Tt as <-.
    destruct (Cells k 1%N x Hk Cx) as [? [? [? [_ [Tx [Q _]]]]]]. injection Tx as <-. exact Q. }
  assert (M2 : measured_in out 2 i s Y (K * (g * g))).
  { intros k t x Hk Ct Cx. destruct (Cells k 0%N t Hk Ct) as [? [? [? [_ [Tt _]]]]]. injection Tt as <-.
    destruct (Cells k 2%N x Hk Cx) as [? [? [? [_ [Tx [_ [Q _]]]]]]]. injection Tx as <-. exact Q. }
  assert (M3 : measured_in out 3 i s Z (K * (g * g))).
  { intros k t x Hk Ct Cx. destruct (Cells k 0%N t Hk Ct) as [? [? [? [_ [Tt _]]]]]. injection Tt as <-.
    destruct (Cells k 3%N x Hk Cx) as [? [? [? [_ [Tx [_ [_ Q]]]]]]]. injection Tx as <-. exact Q. }
  destruct (c52_rows fit powf out s 2%N vel ltac:(clear - H5; lia) Ev) as [h [Eh [Lv [_ H]]]].
  replace ((s - 1) / 2)%N with h by (clear - Eh; subst s; replace (2 * h + 1 - 1)%N with (h * 2)%N by lia; now rewrite N.div_mul).
  destruct (lt_at vel i) as [row Hr]; [rewrite Lv, Lo; clear - Hi; lia|].
  destruct (H i row Hr) as [t [x [y [z [ts [xs [ys [zs [px [py [pz [t0 [u [Sm [Wt [Wx [Wy [Wz [H0 [Hu [Fx [Fy [Fz Er]]]]]]]]]]]]]]]]]]]]]]].
  change (fun t => (t - t0)%num) with (fun t => (t - t0)) in Fx, Fy, Fz.
  assert (Time : forall k v, (k < s)%N -> cell out (i + k) 0 = Val v -> v = at_row (i + k)%N).
  { intros k v Hk Cv. destruct (Cells k 0%N v Hk Cv) as [? [? [? [_ [Tt _]]]]]. injection Tt as <-. reflexivity. }
  assert (Hh : (2 <= h)%N) by (clear - Eh H5; lia).
  assert (Ca : cell out (i + 0) 0 = Val t0) by (apply (proj2 Wt); exact H0).
  assert (T0 : t0 = at_row i). { rewrite (Time 0%N t0 ltac:(clear - H5; lia) Ca). now rewrite N.add_0_r. }
  assert (Cu : cell out (i + (h + 1)) 0 = Val u) by (apply (proj2 Wt); exact Hu).
  assert (Tu : u = at_row (i + h + 1)%N). { rewrite (Time (h + 1)%N u ltac:(clear - Eh Hh; lia) Cu). now rewrite N.add_assoc. }
  destruct (lt_at ts (s - 1)) as [tb Hb]; [rewrite (proj1 Wt); clear - H5; lia|].
  assert (Cb : cell out (i + (s - 1)) 0 = Val tb) by (apply (proj2 Wt); exact Hb).
  assert (Tb : tb = at_row (i + s - 1)%N). { rewrite (Time (s - 1)%N tb ltac:(clear - H5; lia) Cb). f_equal. clear - H5; lia. }
  assert (Tt : t = at_row (i + h)%N). { apply (Time h t ltac:(clear - Eh Hh; lia)). apply sample_cells in Sm; tauto. }
  rewrite N.add_0_r in Ca. replace (i + (s - 1))%N with (i + s - 1)%N in Cb by (clear - H5; lia).
  destruct (window_velocity fit powf out 1 i s h ts xs t0 u t0 tb X VX AX J (K * (g * g)) px Pw LS Iw Mx M1 Eh Hh Wt Wx H0 Hu Ca Cb Fx) as [_ Bx].
  destruct (window_velocity fit powf out 2 i s h ts ys t0 u t0 tb Y VY AY J (K * (g * g)) py Pw LS Iw My M2 Eh Hh Wt Wy H0 Hu Ca Cb Fy) as [_ By].
  destruct (window_velocity fit powf out 3 i s h ts zs t0 u t0 tb Z VZ AZ J (K * (g * g)) pz Pw LS Iw Mz M3 Eh Hh Wt Wz H0 Hu Ca Cb Fz) as [_ Bz].
  fold (velocity_bound (K * (g * g)) J s t0 u tb) in Bx, By, Bz.
  assert (Hk : (h < s)%N) by (clear - Eh; lia).
  assert (Sc := Sm). apply sample_cells in Sc as [Ct [Cx [Cy Cz]]].
  assert (Px := M1 h t x Hk Ct Cx). assert (Py := M2 h t y Hk Ct Cy). assert (Pz := M3 h t z Hk Ct Cz).
  assert (Gap : u - t = dt). { rewrite Tu, Tt. unfold at_row. rewrite N2Z.inj_add, plus_IZR. cbn [Z.of_N]. ring. }
  assert (Late : forall Q V A, motion Q V A J -> (forall r, Rabs (A r) <= K) -> forall v, Rabs (v - V u) <= velocity_bound (K * (g * g)) J s t0 u tb -> Rabs (v - V t) <= velocity_bound (K * (g * g)) J s t0 u tb + K * dt).
  { intros Q V A M Ka v Hv. assert (L := motion_lipschitz _ _ _ _ _ M Ka u t). rewrite Gap, (Rabs_right dt) in L by lra.
    replace (v - V t) with ((v - V u) + (V u - V t)) by ring. eapply Rle_trans; [apply Rabs_triang|]. lra. }
  exists x, y, z, (slope powf px (u - t0)), (slope powf py (u - t0)), (slope powf pz (u - t0)). cbv zeta.
  rewrite <- Tt, <- Tu, <- T0, <- Tb. split; [change (at_ vel i [t; x; y; z; slope powf px (u - t0)%num; slope powf py (u - t0)%num; slope powf pz (u - t0)%num]); rewrite <- Er; exact Hr|].
  repeat (split; [assumption|]). split; [|split]; eauto.
Qed.

(** The hypotheses are met: an oscillation along [x], free fall along [y], at rest along [z], ten samples, windows of five. *)
Definition ex_wave : table R := map (fun k => [IZR k; sin (IZR k); IZR k * IZR k; 0]) [0; 1; 2; 3; 4; 5; 6; 7; 8; 9]%Z.
Example c148_case : exists time out vel, powf_ok powR /\ least_squares ortho /\ column ex_wave 0 = Val time /\ increasing ex_wave /\
  Forall (fun r => (3 < vlen r)%N) ex_wave /\ at_most_twice_as_dense ex_wave (10 / IZR (Z.of_N 10)) /\ cell ex_wave 0 0 = Val 0 /\
  records ex_wave sin (fun t => t * t) (fun _ => 0) /\ gaps_below ex_wave 1 /\
  motion sin cos (fun t => - sin t) 1 /\ motion (fun t => t * t) (fun t => 2 * t) (fun _ => 2) 1 /\ motion (fun _ => 0) (fun _ => 0) (fun _ => 0) 1 /\
  (forall r, Rabs (- sin r) <= 2) /\ interpolate ex_wave 10 10 = Val out /\ velocity_polynom ortho powR out 5 2 = Val vel /\
  (4 + 5 < 10)%N /\ 2 * (IZR (Z.of_N (4 + 5 - 1)) * (10 / IZR (Z.of_N 10))) < 8 + 9.
Proof.
  assert (P : powf_ok powR) by (destruct c52_used as [P _]; exact P).
  assert (Ec : column ex_wave 0 = Val (map IZR [0; 1; 2; 3; 4; 5; 6; 7; 8; 9]%Z)) by reflexivity.
  assert (Fk : forall k, nth_error [IZR k; sin (IZR k); IZR k * IZR k; 0] 0 = Some (IZR k)) by reflexivity.
  assert (Len : forall i k, nth_error [0; 1; 2; 3; 4; 5; 6; 7; 8; 9]%Z i = Some k -> (i < 10)%nat /\ k = Z.of_nat i).
  { intros i k. do 10 (destruct i as [|i]; [intros [= <-]; split; [lia | reflexivity]|]). destruct i; discriminate. }
  assert (I : increasing ex_wave).
  { intros i j t u Hij Ht Hu. apply (listed _ _ _ _ Fk) in Ht as [a [Ha ->]], Hu as [b [Hb ->]]. apply Len in Ha, Hb. apply IZR_lt. lia. }
  assert (Gap : forall i t u, cell ex_wave i 0 = Val t -> cell ex_wave (i + 1) 0 = Val u -> u - t = 1).
  { intros i t u Ht Hu. apply (listed _ _ _ _ Fk) in Ht as [a [Ha ->]], Hu as [b [Hb ->]]. apply Len in Ha, Hb. rewrite <- minus_IZR. f_equal. lia. }
  assert (W : Forall (fun r => (3 < vlen r)%N) ex_wave) by repeat constructor.
  destruct (c51_rows ex_wave 10 10 _ Ec (increasing_sorted _ _ Ec I) ltac:(cbn; lia) W ltac:(lia)) as [out [E [Lo [Last [First Rest]]]]].
  assert (Wo : Forall (fun r => (3 < vlen r)%N) out).
  { apply Forall_forall. intros r Hr. apply In_nth_error in Hr as [n Hn].
    assert (Ln : (n < 10)%nat). { assert (Q := proj1 (nth_error_Some out n) ltac:(congruence)). unfold vlen in Lo. lia. }
    assert (A : at_ out (N.of_nat n) r) by (unfold at_; now rewrite Nat2N.id).
    destruct (Nat.eq_dec n 0) as [->|N0].
    { destruct (First ltac:(lia)) as [? [? [? [? [_ Q]]]]]. unfold at_ in Q, A. change (N.to_nat 0) with 0%nat in Q. change (N.to_nat (N.of_nat 0)) with 0%nat in A. assert (r = [x; x0; x1; x2]) as -> by congruence. cbn; lia. }
    destruct (Nat.eq_dec n 9) as [->|N9].
    { destruct Last as [? [? [? [? [_ Q]]]]]. unfold at_ in Q, A. change (N.to_nat (10 - 1)) with 9%nat in Q. change (N.to_nat (N.of_nat 9)) with 9%nat in A. assert (r = [x; x0; x1; x2]) as -> by congruence. cbn; lia. }
    destruct (Rest (N.of_nat n) ltac:(lia)) as [row [Q [->|[j [? [? [? [? [? [? [? [? [? [_ [_ [_ ->]]]]]]]]]]]]]]]]; unfold at_ in Q, A; match type of Q with _ = Some ?l => assert (r = l) as -> by congruence end; unfold blank_row; cbn; lia. }
  destruct (c52_total ortho powR out 5 2) as [vel Ev]; [reflexivity | lia | rewrite Lo; lia | exact Wo | intros; discriminate|].
  exists (map IZR [0; 1; 2; 3; 4; 5; 6; 7; 8; 9]%Z), out, vel. do 5 (split; [first [assumption | exact ortho_least]|]).
  split; [intros i t u Ht Hu; rewrite (Gap i t u Ht Hu); cbn [Z.of_N]; lra|]. split; [reflexivity|]. split.
  { intros i t a b c Sm. apply sample_cells in Sm as [C0 [C1 [C2 C3]]].
    apply cell_val in C0 as [r [Hr H0]], C1 as [r1 [Hr1 H1]], C2 as [r2 [Hr2 H2]], C3 as [r3 [Hr3 H3]].
    assert (r1 = r) by (unfold at_ in *; congruence). assert (r2 = r) by (unfold at_ in *; congruence). assert (r3 = r) by (unfold at_ in *; congruence). subst.
    unfold at_, ex_wave in Hr. rewrite nth_error_map in Hr. destruct (nth_error [0; 1; 2; 3; 4; 5; 6; 7; 8; 9]%Z (N.to_nat i)) as [k|]; [|discriminate].
    cbn [option_map] in Hr. injection Hr as <-. unfold at_ in *. injection H0 as <-. injection H1 as <-. injection H2 as <-. injection H3 as <-. auto. }
  split; [intros i t u Ht Hu; rewrite (Gap i t u Ht Hu); lra|]. split.
  { split; [apply derivable_pt_lim_sin|]. split; [apply derivable_pt_lim_cos|].
    intros s r. replace (- sin s - - sin r) with (sin r - sin s) by ring. rewrite (Rabs_minus_sym s r).
    apply (derivative_lipschitz sin cos); [apply derivable_pt_lim_sin|]. intros q. apply Rabs_le, COS_bound. }
  destruct c147_used as [_ [_ [_ [_ [My [Mz _]]]]]]. split; [|split; [|split]].
  - destruct My as [D1 [D2 _]]. split; [exact D1|]. split; [exact D2|]. intros s r. replace (2 - 2) with 0 by ring. rewrite Rabs_R0. apply Rmult_le_pos; [lra | apply Rabs_pos].
  - destruct Mz as [D1 [D2 _]]. split; [exact D1|]. split; [exact D2|]. intros s r. replace (0 - 0) with 0 by ring. rewrite Rabs_R0. apply Rmult_le_pos; [lra | apply Rabs_pos].
  - intros r. rewrite Rabs_Ropp. apply Rabs_le. assert (Q := SIN_bound r). lra.
  - split; [exact E|]. split; [exact Ev|]. split; [lia|]. change (Z.of_N (4 + 5 - 1)) with 8%Z. change (Z.of_N 10) with 10%Z. lra.
Qed.
