(** * FloatNd: rounding errors of ndarray's eight running sums *)
From Coq Require Import Reals List NArith ZArith Lia Lra Bool.
From Flocq Require Import Core.Core IEEE754.BinarySingleNaN.
From Verif Require Import Base BaseFacts Num RFacts F64Facts FloatErr FloatCalc FloatVar FunModel.
Import ListNotations.
Local Open Scope R_scope.

Lemma cp k x X A y Y B : close k 0 x X A -> close k 0 y Y B -> 0 <= k <= IZR (2 ^ 50) -> A + B <= bpow radix2 1000 -> close (k + 2) 0 (Bplus mode_NE x y) (X + Y) (A + B).
Proof.
  intros C D Hk HS. assert (A0 := A_pos _ _ _ _ _ C). assert (B0 := A_pos _ _ _ _ _ D). assert (Z := bpow_ge_0 radix2 200).
  assert (E := close_plus k 0 0 x X A y Y B C D). rewrite Rplus_0_l, Rmult_0_r in E. apply E; [split; [exact Hk|]; split; [split; lra | lra] | split; [exact Hk|]; split; [split; lra | lra] | exact HS].
Qed.
Lemma ce k (x : f64) : is_finite x = true -> 0 <= k -> close k 0 x (val x) (Rabs (val x)).
Proof. intros F H. apply (close_weaken _ _ _ _ _ _ _ _ (close_exact x F)); [exact H | apply Rle_refl | apply Rle_refl | apply Rle_refl]. Qed.
Lemma sz_cons x l : sz (x :: l) = Rabs (val x) + sz l.
Proof. unfold sz. cbn [map]. apply Rsum_cons. Qed.
Lemma sm_cons x l : sm (x :: l) = val x + sm l.
Proof. unfold sm. cbn [map]. apply Rsum_cons. Qed.
Lemma sz_nil : sz [] = 0. Proof. apply Rsum_nil. Qed.
Lemma sm_nil : sm [] = 0. Proof. apply Rsum_nil. Qed.
Lemma sz_pos l : 0 <= sz l.
Proof. apply Rsum_nonneg. intros x _. apply Rabs_pos. Qed.
Lemma fold_close l : forall k a X A, close k 0 a X A -> Forall (fun x : f64 => is_finite x = true) l -> 0 <= k -> k + 2 * INR (length l) <= IZR (2 ^ 50) -> A + sz l <= bpow radix2 1000 ->
  close (k + 2 * INR (length l)) 0 (fold_left (Bplus mode_NE) l a) (X + sm l) (A + sz l).
Proof.
  induction l as [|x l IH]; intros k a X A C F K0 Hk HS.
  - cbn [fold_left length INR] in *. rewrite sz_nil, sm_nil, Rmult_0_r, !Rplus_0_r. exact C.
  - cbn [fold_left]. rewrite sz_cons in HS. rewrite sz_cons, sm_cons. cbn [length] in *. rewrite S_INR in *. inversion F as [|? ? Fx Fl]; subst.
    assert (Z := sz_pos l). assert (P := pos_INR (length l)). assert (R := Rabs_pos (val x)).
    assert (D := cp k a X A x (val x) (Rabs (val x)) C (ce k x Fx K0) ltac:(lra) ltac:(lra)).
    replace (k + 2 * (INR (length l) + 1)) with (k + 2 + 2 * INR (length l)) by ring.
    replace (X + (val x + sm l)) with (X + val x + sm l) by ring. replace (A + (Rabs (val x) + sz l)) with (A + Rabs (val x) + sz l) by ring.
    apply (IH _ _ _ _ D Fl); lra.
Qed.
Definition sum8 (a0 a1 a2 a3 a4 a5 a6 a7 : R) : R := a0 + a1 + a2 + a3 + a4 + a5 + a6 + a7.
Lemma join8 k p0 p1 p2 p3 p4 p5 p6 p7 X0 X1 X2 X3 X4 X5 X6 X7 A0 A1 A2 A3 A4 A5 A6 A7 :
  close k 0 p0 X0 A0 -> close k 0 p1 X1 A1 -> close k 0 p2 X2 A2 -> close k 0 p3 X3 A3 -> close k 0 p4 X4 A4 -> close k 0 p5 X5 A5 -> close k 0 p6 X6 A6 -> close k 0 p7 X7 A7 ->
  0 <= k -> k + 10 <= IZR (2 ^ 50) -> sum8 A0 A1 A2 A3 A4 A5 A6 A7 <= bpow radix2 1000 ->
  close (k + 10) 0 (Bplus mode_NE (Bplus mode_NE (Bplus mode_NE (Bplus mode_NE (f64_of_Z 0) (Bplus mode_NE p0 p4)) (Bplus mode_NE p1 p5)) (Bplus mode_NE p2 p6)) (Bplus mode_NE p3 p7))
    (sum8 X0 X1 X2 X3 X4 X5 X6 X7) (sum8 A0 A1 A2 A3 A4 A5 A6 A7).
Proof.
  intros C0 C1 C2 C3 C4 C5 C6 C7 K0 Hk HS. unfold sum8 in *.
  assert (a0 := A_pos _ _ _ _ _ C0). assert (a1 := A_pos _ _ _ _ _ C1). assert (a2 := A_pos _ _ _ _ _ C2). assert (a3 := A_pos _ _ _ _ _ C3).
  assert (a4 := A_pos _ _ _ _ _ C4). assert (a5 := A_pos _ _ _ _ _ C5). assert (a6 := A_pos _ _ _ _ _ C6). assert (a7 := A_pos _ _ _ _ _ C7).
  assert (D0 := cp _ _ _ _ _ _ _ C0 C4 ltac:(lra) ltac:(lra)). assert (D1 := cp _ _ _ _ _ _ _ C1 C5 ltac:(lra) ltac:(lra)).
  assert (D2 := cp _ _ _ _ _ _ _ C2 C6 ltac:(lra) ltac:(lra)). assert (D3 := cp _ _ _ _ _ _ _ C3 C7 ltac:(lra) ltac:(lra)).
  destruct (of_Z_correct 0 ltac:(lia)) as [Z0 F0]. assert (Z := ce (k + 2) (f64_of_Z 0) F0 ltac:(lra)). unfold val in Z. rewrite Z0, Rabs_R0 in Z.
  assert (E0 := cp _ _ _ _ _ _ _ Z D0 ltac:(lra) ltac:(lra)).
  assert (W : forall k' x X A, close (k + 2) 0 x X A -> k + 2 <= k' -> close k' 0 x X A) by (intros k' x X A C Hk'; apply (close_weaken _ _ _ _ _ _ _ _ C); lra).
  assert (E1 := cp _ _ _ _ _ _ _ E0 (W (k + 2 + 2) _ _ _ D1 ltac:(lra)) ltac:(lra) ltac:(lra)).
  assert (E2 := cp _ _ _ _ _ _ _ E1 (W (k + 2 + 2 + 2) _ _ _ D2 ltac:(lra)) ltac:(lra) ltac:(lra)).
  assert (E3 := cp _ _ _ _ _ _ _ E2 (W (k + 2 + 2 + 2 + 2) _ _ _ D3 ltac:(lra)) ltac:(lra) ltac:(lra)).
  replace (X0 + X1 + X2 + X3 + X4 + X5 + X6 + X7) with (0 + (X0 + X4) + (X1 + X5) + (X2 + X6) + (X3 + X7)) by ring.
  apply (close_weaken _ _ _ _ _ _ _ _ E3); lra.
Qed.
Lemma unrolled_close n : forall (l : list f64), (length l <= n)%nat -> Forall (fun x : f64 => is_finite x = true) l ->
  forall k p0 p1 p2 p3 p4 p5 p6 p7 X0 X1 X2 X3 X4 X5 X6 X7 A0 A1 A2 A3 A4 A5 A6 A7,
  close k 0 p0 X0 A0 -> close k 0 p1 X1 A1 -> close k 0 p2 X2 A2 -> close k 0 p3 X3 A3 -> close k 0 p4 X4 A4 -> close k 0 p5 X5 A5 -> close k 0 p6 X6 A6 -> close k 0 p7 X7 A7 ->
  0 <= k -> k + 10 + 2 * INR (length l) <= IZR (2 ^ 50) -> sum8 A0 A1 A2 A3 A4 A5 A6 A7 + sz l <= bpow radix2 1000 ->
  close (k + 10 + 2 * INR (length l)) 0 (unrolled l p0 p1 p2 p3 p4 p5 p6 p7) (sum8 X0 X1 X2 X3 X4 X5 X6 X7 + sm l) (sum8 A0 A1 A2 A3 A4 A5 A6 A7 + sz l).
Proof.
  induction n as [|n IH]; intros l Hl Fl k p0 p1 p2 p3 p4 p5 p6 p7 X0 X1 X2 X3 X4 X5 X6 X7 A0 A1 A2 A3 A4 A5 A6 A7 C0 C1 C2 C3 C4 C5 C6 C7 K0 Hk HS;
    assert (Z := sz_pos l); assert (P := pos_INR (length l)).
  - destruct l; [|cbn in Hl; lia].
    apply (fold_close [] (k + 10) _ _ _ (join8 k _ _ _ _ _ _ _ _ _ _ _ _ _ _ _ _ _ _ _ _ _ _ _ _ C0 C1 C2 C3 C4 C5 C6 C7 K0 ltac:(lra) ltac:(lra)) Fl); lra.
  - assert (J := join8 k _ _ _ _ _ _ _ _ _ _ _ _ _ _ _ _ _ _ _ _ _ _ _ _ C0 C1 C2 C3 C4 C5 C6 C7 K0 ltac:(lra) ltac:(lra)).
    assert (G := fold_close l (k + 10) _ _ _ J Fl ltac:(lra) ltac:(lra) ltac:(lra)).
    destruct l as [|x0 [|x1 [|x2 [|x3 [|x4 [|x5 [|x6 [|x7 l]]]]]]]]; [exact G|exact G|exact G|exact G|exact G|exact G|exact G|exact G|].
    clear J G. cbn [unrolled]. cbn [length] in *. rewrite !S_INR in *. rewrite !sz_cons in *. rewrite !sm_cons.
    assert (Zl := sz_pos l). assert (Pl := pos_INR (length l)).
    inversion Fl as [|? ? f0 Fl0]; subst. inversion Fl0 as [|? ? f1 Fl1]; subst. inversion Fl1 as [|? ? f2 Fl2]; subst. inversion Fl2 as [|? ? f3 Fl3]; subst.
    inversion Fl3 as [|? ? f4 Fl4]; subst. inversion Fl4 as [|? ? f5 Fl5]; subst. inversion Fl5 as [|? ? f6 Fl6]; subst. inversion Fl6 as [|? ? f7 Fl7]; subst.
    unfold sum8 in HS.
    assert (a0 := A_pos _ _ _ _ _ C0). assert (a1 := A_pos _ _ _ _ _ C1). assert (a2 := A_pos _ _ _ _ _ C2). assert (a3 := A_pos _ _ _ _ _ C3).
    assert (a4 := A_pos _ _ _ _ _ C4). assert (a5 := A_pos _ _ _ _ _ C5). assert (a6 := A_pos _ _ _ _ _ C6). assert (a7 := A_pos _ _ _ _ _ C7).
    assert (r0 := Rabs_pos (val x0)). assert (r1 := Rabs_pos (val x1)). assert (r2 := Rabs_pos (val x2)). assert (r3 := Rabs_pos (val x3)).
    assert (r4 := Rabs_pos (val x4)). assert (r5 := Rabs_pos (val x5)). assert (r6 := Rabs_pos (val x6)). assert (r7 := Rabs_pos (val x7)).
    assert (D0 := cp _ _ _ _ _ _ _ C0 (ce k x0 f0 K0) ltac:(lra) ltac:(lra)). assert (D1 := cp _ _ _ _ _ _ _ C1 (ce k x1 f1 K0) ltac:(lra) ltac:(lra)).
    assert (D2 := cp _ _ _ _ _ _ _ C2 (ce k x2 f2 K0) ltac:(lra) ltac:(lra)). assert (D3 := cp _ _ _ _ _ _ _ C3 (ce k x3 f3 K0) ltac:(lra) ltac:(lra)).
    assert (D4 := cp _ _ _ _ _ _ _ C4 (ce k x4 f4 K0) ltac:(lra) ltac:(lra)). assert (D5 := cp _ _ _ _ _ _ _ C5 (ce k x5 f5 K0) ltac:(lra) ltac:(lra)).
    assert (D6 := cp _ _ _ _ _ _ _ C6 (ce k x6 f6 K0) ltac:(lra) ltac:(lra)). assert (D7 := cp _ _ _ _ _ _ _ C7 (ce k x7 f7 K0) ltac:(lra) ltac:(lra)).
    assert (G := IH l ltac:(clear - Hl; lia) Fl7 (k + 2) _ _ _ _ _ _ _ _ _ _ _ _ _ _ _ _ _ _ _ _ _ _ _ _ D0 D1 D2 D3 D4 D5 D6 D7 ltac:(lra) ltac:(lra) ltac:(unfold sum8; lra)).
    replace (sum8 X0 X1 X2 X3 X4 X5 X6 X7 + (val x0 + (val x1 + (val x2 + (val x3 + (val x4 + (val x5 + (val x6 + (val x7 + sm l)))))))))
      with (sum8 (X0 + val x0) (X1 + val x1) (X2 + val x2) (X3 + val x3) (X4 + val x4) (X5 + val x5) (X6 + val x6) (X7 + val x7) + sm l) by (unfold sum8; ring).
    apply (close_weaken _ _ _ _ _ _ _ _ G); [lra | lra | unfold sum8; lra | lra].
Qed.
Lemma nd_sum_close (l : list f64) : Forall (fun x : f64 => is_finite x = true) l -> (length l <= 2 ^ 46)%nat -> sz l <= bpow radix2 1000 ->
  close (10 + 2 * INR (length l)) 0 (nd_sum l) (sm l) (sz l).
Proof.
  intros F Hn HS. assert (B := b46 _ Hn). destruct (of_Z_correct 0 ltac:(lia)) as [Z0 F0]. assert (Z := ce 0 (f64_of_Z 0) F0 (Rle_refl 0)). unfold val in Z. rewrite Z0, Rabs_R0 in Z.
  assert (G := unrolled_close _ l (le_n _) F 0 _ _ _ _ _ _ _ _ _ _ _ _ _ _ _ _ _ _ _ _ _ _ _ _ Z Z Z Z Z Z Z Z (Rle_refl 0)).
  unfold sum8 in G. rewrite !Rplus_0_l in G. apply G; [kfits | exact HS].
Qed.

(** Whole numbers add up exactly. *)
Definition whole (x : f64) (a : Z) : Prop := is_finite x = true /\ B2R x = IZR a /\ (0 <= a)%Z.
Definition zsum (l : list Z) : Z := fold_right Z.add 0%Z l.
Lemma whole_plus x y a b : whole x a -> whole y b -> (a + b <= 2 ^ 53)%Z -> whole (Bplus mode_NE x y) (a + b).
Proof.
  intros [Fx [Ex Ax]] [Fy [Ey Ay]] H. assert (Fm : rnd (B2R x + B2R y) = IZR (a + b)) by (rewrite Ex, Ey, <- plus_IZR; apply rnd_fmt, fmt_int; lia).
  destruct (add_R x y Fx Fy) as [A B].
  - rewrite Fm, <- abs_IZR. apply Rle_lt_trans with (IZR (2 ^ 53)); [apply IZR_le; lia | apply M64_big].
  - rewrite Fm in B. split; [exact A|]. split; [exact B | lia].
Qed.
Lemma zsum_pos l : Forall (fun a => 0 <= a)%Z l -> (0 <= zsum l)%Z.
Proof. induction 1 as [|a l Ha H IH]; cbn [zsum fold_right]; [lia | fold (zsum l); lia]. Qed.
Lemma wholes_pos l ns : Forall2 whole l ns -> (0 <= zsum ns)%Z.
Proof. intros H. apply zsum_pos. induction H as [|x a l ns [_ [_ Ha]] H IH]; constructor; assumption. Qed.
Lemma fold_whole l ns : Forall2 whole l ns -> forall x a, whole x a -> (a + zsum ns <= 2 ^ 53)%Z -> whole (fold_left (Bplus mode_NE) l x) (a + zsum ns).
Proof.
  induction 1 as [|y b l ns Hy H IH]; intros x a Hx S; cbn [fold_left zsum fold_right] in *; [now rewrite Z.add_0_r|]. fold (zsum ns) in *.
  assert (P := wholes_pos _ _ H). rewrite Z.add_assoc in *. apply IH; [|exact S]. apply whole_plus; [exact Hx | exact Hy | lia].
Qed.
Lemma whole_pos x a : whole x a -> (0 <= a)%Z. Proof. intros [_ [_ H]]. exact H. Qed.
Lemma unrolled_whole n : forall (l : list f64) ns, (length l <= n)%nat -> Forall2 whole l ns -> forall p0 p1 p2 p3 p4 p5 p6 p7 a0 a1 a2 a3 a4 a5 a6 a7,
  whole p0 a0 -> whole p1 a1 -> whole p2 a2 -> whole p3 a3 -> whole p4 a4 -> whole p5 a5 -> whole p6 a6 -> whole p7 a7 ->
  (a0 + a1 + a2 + a3 + a4 + a5 + a6 + a7 + zsum ns <= 2 ^ 53)%Z -> whole (unrolled l p0 p1 p2 p3 p4 p5 p6 p7) (a0 + a1 + a2 + a3 + a4 + a5 + a6 + a7 + zsum ns).
Proof.
  assert (Join : forall l ns, Forall2 whole l ns -> forall p0 p1 p2 p3 p4 p5 p6 p7 a0 a1 a2 a3 a4 a5 a6 a7,
    whole p0 a0 -> whole p1 a1 -> whole p2 a2 -> whole p3 a3 -> whole p4 a4 -> whole p5 a5 -> whole p6 a6 -> whole p7 a7 ->
    (a0 + a1 + a2 + a3 + a4 + a5 + a6 + a7 + zsum ns <= 2 ^ 53)%Z ->
    whole (fold_left (Bplus mode_NE) l (Bplus mode_NE (Bplus mode_NE (Bplus mode_NE (Bplus mode_NE (f64_of_Z 0) (Bplus mode_NE p0 p4)) (Bplus mode_NE p1 p5)) (Bplus mode_NE p2 p6)) (Bplus mode_NE p3 p7))) (a0 + a1 + a2 + a3 + a4 + a5 + a6 + a7 + zsum ns)).
  { intros l ns H p0 p1 p2 p3 p4 p5 p6 p7 a0 a1 a2 a3 a4 a5 a6 a7 H0 H1 H2 H3 H4 H5 H6 H7 S. assert (P := wholes_pos _ _ H).
    assert (P0 := whole_pos _ _ H0). assert (P1 := whole_pos _ _ H1). assert (P2 := whole_pos _ _ H2). assert (P3 := whole_pos _ _ H3). assert (P4 := whole_pos _ _ H4). assert (P5 := whole_pos _ _ H5). assert (P6 := whole_pos _ _ H6). assert (P7 := whole_pos _ _ H7).
    destruct (of_Z_correct 0 ltac:(lia)) as [Z0 F0]. assert (Z : whole (f64_of_Z 0) 0) by (split; [exact F0|]; split; [exact Z0 | lia]).
    replace (a0 + a1 + a2 + a3 + a4 + a5 + a6 + a7 + zsum ns)%Z with (0 + (a0 + a4) + (a1 + a5) + (a2 + a6) + (a3 + a7) + zsum ns)%Z by lia.
    apply fold_whole; [exact H | |lia]. repeat (apply whole_plus; [| |lia]); assumption. }
  induction n as [|n IH]; intros l ns Hl H p0 p1 p2 p3 p4 p5 p6 p7 a0 a1 a2 a3 a4 a5 a6 a7 H0 H1 H2 H3 H4 H5 H6 H7 S.
  - destruct l; [|cbn in Hl; lia]. now apply Join.
  - assert (G := Join l ns H _ _ _ _ _ _ _ _ _ _ _ _ _ _ _ _ H0 H1 H2 H3 H4 H5 H6 H7 S).
    destruct l as [|x0 [|x1 [|x2 [|x3 [|x4 [|x5 [|x6 [|x7 l]]]]]]]]; [exact G|exact G|exact G|exact G|exact G|exact G|exact G|exact G|]. clear G.
    inversion H as [|? b0 ? ns0 f0 G0]; subst. inversion G0 as [|? b1 ? ns1 f1 G1]; subst. inversion G1 as [|? b2 ? ns2 f2 G2]; subst. inversion G2 as [|? b3 ? ns3 f3 G3]; subst.
    inversion G3 as [|? b4 ? ns4 f4 G4]; subst. inversion G4 as [|? b5 ? ns5 f5 G5]; subst. inversion G5 as [|? b6 ? ns6 f6 G6]; subst. inversion G6 as [|? b7 ? ns7 f7 G7]; subst.
    cbn [unrolled]. cbn [zsum fold_right] in *. fold (zsum ns7) in *. assert (P := wholes_pos _ _ G7).
    assert (P0 := whole_pos _ _ H0). assert (P1 := whole_pos _ _ H1). assert (P2 := whole_pos _ _ H2). assert (P3 := whole_pos _ _ H3). assert (P4 := whole_pos _ _ H4). assert (P5 := whole_pos _ _ H5). assert (P6 := whole_pos _ _ H6). assert (P7 := whole_pos _ _ H7).
    assert (Q0 := whole_pos _ _ f0). assert (Q1 := whole_pos _ _ f1). assert (Q2 := whole_pos _ _ f2). assert (Q3 := whole_pos _ _ f3). assert (Q4 := whole_pos _ _ f4). assert (Q5 := whole_pos _ _ f5). assert (Q6 := whole_pos _ _ f6). assert (Q7 := whole_pos _ _ f7).
    match goal with |- whole _ ?e => replace e with ((a0 + b0) + (a1 + b1) + (a2 + b2) + (a3 + b3) + (a4 + b4) + (a5 + b5) + (a6 + b6) + (a7 + b7) + zsum ns7)%Z by lia end.
    cbn [length] in Hl. apply IH; [lia | exact G7 | | | | | | | | |lia]; (apply whole_plus; [assumption | assumption | lia]).
Qed.
Lemma nd_sum_whole (l : list f64) ns : Forall2 whole l ns -> (zsum ns <= 2 ^ 53)%Z -> whole (nd_sum l) (zsum ns).
Proof.
  intros H S. destruct (of_Z_correct 0 ltac:(lia)) as [Z0 F0]. assert (Z : whole (f64_of_Z 0) 0) by (split; [exact F0|]; split; [exact Z0 | lia]).
  exact (unrolled_whole _ l ns (le_n _) H _ _ _ _ _ _ _ _ 0%Z 0%Z 0%Z 0%Z 0%Z 0%Z 0%Z 0%Z Z Z Z Z Z Z Z Z S).
Qed.
