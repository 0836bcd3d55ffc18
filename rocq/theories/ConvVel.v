(** * Property C52: velocities from local polynomial fits. *)
From Coq Require Import Reals List NArith ZArith Bool Lia Lra Sorted ZifyBool ZifyN ZifyNat.
From Flocq Require Import Core.Core IEEE754.BinarySingleNaN.
From Verif Require Import Base BaseFacts Num F64Facts RFacts NDArray DataModel DataSpec DataLoad ConvModel ConvInterp.
Local Open Scope list_scope.
Local Open Scope bool_scope.

Section Any.
  Context {F : Type} {NF : Num F}.
  Variable fit : list F -> list F -> N -> option (list F).
  Variable powf : F -> F -> F.

  (** Specification: [l] is column [c] of the [s] rows from row [i]. *)
  Definition window (data : table F) (c i s : N) (l : list F) : Prop :=
    vlen l = s /\ forall k x, at_ l k x <-> (k < s)%N /\ cell data (i + k) c = Val x.
  (** The derivative, term by term, of the polynomial with coefficients [cs] (constant first). *)
  Definition slope (cs : list F) (x : F) : F :=
    fold_left nadd (map (fun nc => (snd nc * nofN (fst nc) * powf x (nofN (fst nc) - n1))%num) (enumerate cs)) n0.

  Lemma derivative_slope cs x : derivative powf cs (Val x) = Val (slope cs x).
  Proof.
    unfold derivative, slope. cbn [bind].
    rewrite (mmap_val _ (fun nc => (snd nc * nofN (fst nc) * powf x (nofN (fst nc) - n1))%num)) by reflexivity. reflexivity.
  Qed.
  Lemma column_window (data : table F) c i s l : (i + s <= vlen data)%N ->
    column (firstn (N.to_nat s) (skipn (N.to_nat i) data)) c = Val l -> window data c i s l.
  Proof.
    intros H E. apply mmap_inv in E. split.
    - unfold vlen in *. rewrite <- (Forall2_length _ _ _ E), firstn_length, skipn_length. lia.
    - intros k x. rewrite cell_val. unfold at_. split.
      + intros Hx. destruct (Forall2_at _ _ _ E _ _ Hx) as [r [Hr Ex]]. rewrite nth_error_firstn in Hr.
        destruct (Nat.ltb_spec (N.to_nat k) (N.to_nat s)); [|discriminate]. rewrite nth_error_skipn' in Hr. split; [lia|].
        exists r. split; [replace (N.to_nat (i + k)) with (N.to_nat i + N.to_nat k)%nat by lia; exact Hr | now apply vget_val].
      + intros [Hk [r [Hr Hx]]]. replace (N.to_nat (i + k)) with (N.to_nat i + N.to_nat k)%nat in Hr by lia.
        destruct (Forall2_at_l _ _ _ E (N.to_nat k) r) as [y [Hy Ey]].
        { rewrite nth_error_firstn. destruct (Nat.ltb_spec (N.to_nat k) (N.to_nat s)); [|lia]. now rewrite nth_error_skipn'. }
        apply vget_val in Ey. congruence.
  Qed.
  Lemma wide_window (data : table F) c i s : Forall (fun r => (c < vlen r)%N) data ->
    exists l, column (firstn (N.to_nat s) (skipn (N.to_nat i) data)) c = Val l.
  Proof.
    intros W. destruct (mmap_ok (fun r => vget r c) (fun _ _ => True) (firstn (N.to_nat s) (skipn (N.to_nat i) data))) as [l [E _]].
    - intros r Hr. apply (In_nth_error) in Hr as [m Hm]. rewrite nth_error_firstn in Hm. destruct (m <? N.to_nat s)%nat; [|discriminate].
      rewrite nth_error_skipn' in Hm. rewrite Forall_forall in W. destruct (vget_lt r c) as [x Ex]; [apply W; eapply nth_error_In; exact Hm|]. eauto.
    - exists l. exact E.
  Qed.

  (** C52, any arithmetic: [n - (s - 1)] rows; row [i] shows time and position of sample [i + h], the middle of
      the window of [s = 2h + 1] samples from sample [i], and the slope of the window's fits at
      sample [i + h + 1]. *)
  Theorem c52_rows (data : table F) s degree out : (3 <= s)%N -> velocity_polynom fit powf data s degree = Val out ->
    exists h, s = (2 * h + 1)%N /\ vlen out = (vlen data - (s - 1))%N /\ (s - 1 <= vlen data)%N /\
    forall i row, at_ out i row -> exists t x y z ts xs ys zs cx cy cz t0 u,
      sample_at data (i + h) t x y z /\
      window data 0 i s ts /\ window data 1 i s xs /\ window data 2 i s ys /\ window data 3 i s zs /\
      at_ ts 0 t0 /\ at_ ts (h + 1) u /\
      fit (map (fun t => t - t0)%num ts) xs degree = Some cx /\
      fit (map (fun t => t - t0)%num ts) ys degree = Some cy /\
      fit (map (fun t => t - t0)%num ts) zs degree = Some cz /\
      row = [t; x; y; z; slope cx (u - t0)%num; slope cy (u - t0)%num; slope cz (u - t0)%num].
  Proof.
    intros H3. unfold velocity_polynom. destruct (N.even s) eqn:Ev; [discriminate|].
    assert (Od : N.odd s = true) by (rewrite <- N.negb_even, Ev; reflexivity). apply N.odd_spec in Od as [h Eh].
    replace ((s - 1) / 2)%N with h by (subst s; replace (2 * h + 1 - 1)%N with (h * 2)%N by lia; now rewrite N.div_mul).
    destruct (N.ltb_spec (vlen data) (s - 1)) as [|Hl]; [discriminate|]. intros E. apply mmap_inv in E.
    exists h. split; [exact Eh|]. split.
    { unfold vlen at 1. rewrite <- (Forall2_length _ _ _ E), range_length. lia. }
    split; [exact Hl|]. intros i row Hi. destruct (Forall2_range _ _ _ _ E) as [_ [G _]].
    destruct (G i row Hi) as [Hb R]. clear G E. unfold velocity_row in R.
    replace (h + i - h)%N with i in R by lia. replace (2 * h + 1)%N with s in R by lia.
    set (seg := firstn (N.to_nat s) (skipn (N.to_nat i) data)) in *.
    apply bind_val in R as [ts [Et R]]. apply bind_val in R as [t0 [E0 R]]. cbv zeta in R.
    apply bind_val in R as [cx [Ex R]]. apply bind_val in R as [cy [Ey R]]. apply bind_val in R as [cz [Ez R]].
    apply bind_val in Ex as [xs [Xs Ex]]. apply bind_val in Ex as [px [Fx Ex]].
    apply bind_val in Ey as [ys [Ys Ey]]. apply bind_val in Ey as [py [Fy Ey]].
    apply bind_val in Ez as [zs [Zs Ez]]. apply bind_val in Ez as [pz [Fz Ez]].
    injection Ex as ->. injection Ey as ->. injection Ez as ->.
    assert (Wt := column_window data 0 i s ts ltac:(lia) Et). assert (Wx := column_window data 1 i s xs ltac:(lia) Xs).
    assert (Wy := column_window data 2 i s ys ltac:(lia) Ys). assert (Wz := column_window data 3 i s zs ltac:(lia) Zs).
    destruct (lt_at ts (h + 1)) as [u Hu]; [rewrite (proj1 Wt); lia|].
    assert (Eu : vget (map (fun t => t - t0)%num ts) (h + 1) = Val (u - t0)%num).
    { apply vget_val. rewrite nth_error_map. unfold at_ in Hu. now rewrite Hu. }
    rewrite Eu, !derivative_slope in R. cbn [bind] in R. apply bind_val in R as [r4 [R4 R]]. apply row4_sample in R4.
    destruct R4 as [t [x [y [z [S4 ->]]]]]. cbn [app] in R.
    exists t, x, y, z, ts, xs, ys, zs, cx, cy, cz, t0, u.
    split; [replace (i + h)%N with (h + i)%N by lia; exact S4|]. repeat (split; [assumption|]).
    split; [now apply vget_val|]. split; [exact Hu|].
    destruct (fit (map (fun t => t - t0)%num ts) xs degree); [|discriminate]. injection Fx as ->.
    destruct (fit (map (fun t => t - t0)%num ts) ys degree); [|discriminate]. injection Fy as ->.
    destruct (fit (map (fun t => t - t0)%num ts) zs degree); [|discriminate]. injection Fz as ->.
    repeat (split; [reflexivity|]). congruence.
  Qed.

  (** It succeeds on every table of at least [s - 1] rows if the fits do. *)
  Theorem c52_total (data : table F) s degree : N.odd s = true -> (3 <= s)%N -> (s - 1 <= vlen data)%N ->
    Forall (fun r => (3 < vlen r)%N) data -> (forall ts xs, length ts = length xs -> fit ts xs degree <> None) ->
    exists out, velocity_polynom fit powf data s degree = Val out.
  Proof.
    intros Od H3 Hl W Fit. unfold velocity_polynom. rewrite <- N.negb_odd, Od. cbn [negb].
    rewrite (proj2 (N.ltb_ge (vlen data) (s - 1)) Hl). apply N.odd_spec in Od as [h Eh].
    replace ((s - 1) / 2)%N with h by (subst s; replace (2 * h + 1 - 1)%N with (h * 2)%N by lia; now rewrite N.div_mul).
    destruct (mmap_ok (velocity_row fit powf data h degree) (fun _ _ => True) (range h (vlen data - h))) as [out [E _]]; [|exists out; exact E].
    intros id Hid. apply in_range in Hid. unfold velocity_row. replace (2 * h + 1)%N with s by lia.
    assert (Wc : forall c, (c <= 3)%N -> Forall (fun r => (c < vlen r)%N) data).
    { intros c Hc. eapply Forall_impl; [|exact W]. intros r Hr. cbn in *. lia. }
    destruct (wide_window data 0 (id - h) s (Wc 0%N ltac:(lia))) as [ts Et]. assert (Wt := column_window data 0 (id - h) s ts ltac:(lia) Et).
    destruct (wide_window data 1 (id - h) s (Wc 1%N ltac:(lia))) as [xs Ex]. assert (Wx := column_window data 1 (id - h) s xs ltac:(lia) Ex).
    destruct (wide_window data 2 (id - h) s (Wc 2%N ltac:(lia))) as [ys Ey]. assert (Wy := column_window data 2 (id - h) s ys ltac:(lia) Ey).
    destruct (wide_window data 3 (id - h) s (Wc 3%N ltac:(lia))) as [zs Ez]. assert (Wz := column_window data 3 (id - h) s zs ltac:(lia) Ez).
    rewrite Et. cbn [bind]. destruct (lt_at ts 0) as [t0 H0]; [rewrite (proj1 Wt); lia|]. rewrite (at_vget _ _ _ H0). cbn [bind].
    rewrite Ex, Ey, Ez. cbn [bind].
    assert (Q : forall l, vlen l = s -> exists p, fit (map (fun t => t - t0)%num ts) l degree = Some p).
    { intros l Ll. destruct (fit (map (fun t => t - t0)%num ts) l degree) as [p|] eqn:Ef; [eauto|]. exfalso. apply (Fit _ _) in Ef; [exact Ef|].
      rewrite map_length. destruct Wt as [Lt _]. unfold vlen in *. lia. }
    destruct (Q xs (proj1 Wx)) as [px ->]. destruct (Q ys (proj1 Wy)) as [py ->]. destruct (Q zs (proj1 Wz)) as [pz ->]. cbn [unwrap bind].
    destruct (lt_at ts (h + 1)) as [u Hu]; [rewrite (proj1 Wt); lia|].
    assert (Eu : vget (map (fun t => t - t0)%num ts) (h + 1) = Val (u - t0)%num).
    { apply vget_val. rewrite nth_error_map. unfold at_ in Hu. now rewrite Hu. }
    rewrite Eu, !derivative_slope. cbn [bind]. destruct (row4_total data id W) as [r Er]; [lia|]. rewrite Er. cbn [bind]. eauto.
  Qed.
  (** Even windows, and tables too short for the window, are refused. *)
  Theorem c52_even (data : table F) s degree : N.even s = true -> velocity_polynom fit powf data s degree = Panic.
  Proof. intros E. unfold velocity_polynom. now rewrite E. Qed.
  Theorem c52_short (data : table F) s degree : (vlen data < s - 1)%N -> velocity_polynom fit powf data s degree = Panic.
  Proof. intros E. unfold velocity_polynom. destruct (N.even s); [reflexivity|]. now rewrite (proj2 (N.ltb_lt _ _) E). Qed.
  (** A window of one sample never works: there is no sample after the middle. *)
  Theorem c52_one (data : table F) degree : (0 < vlen data)%N -> (forall ts xs, fit ts xs degree <> Some []) ->
    velocity_polynom fit powf data 1 degree = Panic.
  Proof.
    intros H Ne. unfold velocity_polynom. cbn [N.even]. change ((1 - 1) / 2)%N with 0%N. rewrite (proj2 (N.ltb_ge (vlen data) (1 - 1))) by lia.
    rewrite range_cons by lia. cbn [mmap]. enough (E : velocity_row fit powf data 0 degree 0 = Panic) by (rewrite E; reflexivity).
    unfold velocity_row. cbn [N.sub N.to_nat skipn]. change (N.to_nat (2 * 0 + 1)) with 1%nat.
    destruct data as [|r data]; [unfold vlen in H; cbn in H; lia|]. cbn [firstn skipn column mmap].
    destruct (vget r 0) as [t|]; [|reflexivity]. cbn [bind]. change (vget [t] 0) with (Val t). cbn [bind].
    destruct (vget r 1) as [x|]; [|reflexivity]. cbn [bind]. destruct (fit _ [x] degree) as [px|] eqn:Ex; [|reflexivity]. cbn [unwrap bind].
    destruct (vget r 2) as [y|]; [|reflexivity]. cbn [bind]. destruct (fit _ [y] degree) as [py|]; [|reflexivity]. cbn [unwrap bind].
    destruct (vget r 3) as [z|]; [|reflexivity]. cbn [bind]. destruct (fit _ [z] degree) as [pz|]; [|reflexivity]. cbn [unwrap bind].
    change (vget (map (fun t1 => t1 - t)%num [t]) (0 + 1)) with (@Panic F).
    destruct px as [|c px]; [exfalso; eapply Ne; exact Ex|]. unfold derivative, enumerate. cbn [vlen]. rewrite range_cons by (unfold vlen; cbn; lia). reflexivity.
  Qed.
End Any.

(** ** Ideal arithmetic *)
Section Ideal.
  Variable fit : list R -> list R -> N -> option (list R).
  Variable powf : R -> R -> R.
  (** The polynomial with coefficients [cs], constant first. *)
  Definition poly (cs : list R) (t : R) : R :=
    fold_right Rplus 0%R (map (fun nc => snd nc * t ^ N.to_nat (fst nc))%R (enumerate cs)).
  (** [powf] on the exponents 0, 1, 2, ... *)
  Definition powf_ok : Prop := forall x k, powf x (INR k) = (x ^ k)%R.
  (** The fit of degree two (the degree every converter asks for) finds every polynomial of degree two, given three or
      more distinct times. *)
  Definition exact_fit : Prop := forall ts cs, (2 < vlen ts)%N -> NoDup ts -> vlen cs = 3%N ->
    fit ts (map (poly cs) ts) 2 = Some cs.

  Lemma fold_left_Rplus l a : fold_left Rplus l a = (a + fold_right Rplus 0 l)%R.
  Proof. revert a. induction l as [|x l IH]; intros a; cbn; [ring|]. rewrite IH. ring. Qed.

  (** [slope] is the derivative of the polynomial. *)
  Theorem c52_slope_derivative cs t : powf_ok -> derivable_pt_lim (poly cs) t (slope powf cs t).
  Proof.
    intros P. unfold slope, poly. change nadd with Rplus. rewrite fold_left_Rplus. change (@n0 R num_R) with 0%R. rewrite Rplus_0_l.
    induction (enumerate cs) as [|[k c] l IH]; cbn [map fold_right fst snd].
    - apply derivable_pt_lim_const.
    - apply (derivable_pt_lim_plus (fun t => c * t ^ N.to_nat k)%R (fun t => fold_right Rplus 0 (map (fun nc => snd nc * t ^ N.to_nat (fst nc)) l))%R); [|exact IH].
      replace (c * nofN k * powf t (nofN k - n1))%num with (c * (INR (N.to_nat k) * t ^ Nat.pred (N.to_nat k)))%R.
      + apply (derivable_pt_lim_scal (fun t => t ^ N.to_nat k)%R). apply derivable_pt_lim_pow.
      + unfold nofN, n1. cbn [nmul nsub nof num_R]. rewrite INR_IZR_INZ, N_nat_Z. destruct (N.eq_dec k 0) as [->|D]; [cbn; ring|].
        replace (IZR (Z.of_N k) - 1)%R with (INR (Nat.pred (N.to_nat k))); [rewrite P; ring|].
        rewrite INR_IZR_INZ. rewrite <- minus_IZR. f_equal. lia.
  Qed.

  (** Accelerated motion [x = a + b t + c t^2] on an axis. *)
  Definition quadratic (data : table R) (j : N) (a b c : R) : Prop :=
    forall i t x, cell data i 0 = Val t -> cell data i j = Val x -> x = (a + b * t + c * (t * t))%R.

  Lemma poly3 a b c t : poly [a; b; c] t = (a + b * t + c * (t * t))%R.
  Proof. change (poly [a; b; c] t) with (a * t ^ 0 + (b * t ^ 1 + (c * t ^ 2 + 0)))%R. cbn. ring. Qed.
  Lemma slope3 a b c t : powf_ok -> slope powf [a; b; c]%R t = (b + 2 * c * t)%R.
  Proof.
    intros P. change (slope powf [a; b; c]%R t) with (0 + a * 0 * powf t (0 - 1) + b * 1 * powf t (1 - 1) + c * 2 * powf t (2 - 1))%R.
    replace (1 - 1)%R with (INR 0) by (cbn; ring). replace (2 - 1)%R with (INR 1) by (cbn; ring). rewrite !P. cbn. ring.
  Qed.
  Lemma window_fit (data : table R) j i s ts xs t0 a b c : exact_fit -> increasing data -> quadratic data j a b c -> (3 <= s)%N ->
    window data 0 i s ts -> window data j i s xs -> at_ ts 0 t0 ->
    fit (map (fun t => t - t0)%R ts) xs 2 = Some [a + b * t0 + c * (t0 * t0); b + 2 * c * t0; c]%R.
  Proof.
    intros X I Q H3 [Lt Wt] [Lx Wx] H0.
    assert (E : xs = map (poly [a + b * t0 + c * (t0 * t0); b + 2 * c * t0; c]%R) (map (fun t => t - t0)%R ts)).
    { apply nth_ext with (d := 0%R) (d' := 0%R); [rewrite !map_length; unfold vlen in *; lia|]. intros n Hn.
      assert (Hs : (N.of_nat n < s)%N) by (unfold vlen in *; lia).
      destruct (lt_at ts (N.of_nat n)) as [t Ht]; [lia|]. destruct (lt_at xs (N.of_nat n)) as [x Hx]; [lia|].
      apply (proj1 (Wt _ _)) in Ht as Ct. apply (proj1 (Wx _ _)) in Hx as Cx. specialize (Q _ _ _ (proj2 Ct) (proj2 Cx)).
      unfold at_ in Ht, Hx. rewrite Nat2N.id in Ht, Hx. rewrite (nth_error_nth _ _ _ Hx). symmetry. apply nth_error_nth.
      rewrite !nth_error_map, Ht. cbn [option_map]. f_equal. rewrite Q, poly3. ring. }
    rewrite E. apply X.
    - unfold vlen in *. rewrite map_length. lia.
    - apply FinFun.Injective_map_NoDup; [intros u v Huv; lra|]. apply NoDup_nth_error. intros p q Hp Epq.
      destruct (nth_error ts p) as [t|] eqn:Etp; [|apply nth_error_None in Etp; lia]. symmetry in Epq.
      assert (Cp : (N.of_nat p < s)%N /\ cell data (i + N.of_nat p) 0 = Val t) by (apply Wt; unfold at_; now rewrite Nat2N.id).
      assert (Cq : (N.of_nat q < s)%N /\ cell data (i + N.of_nat q) 0 = Val t) by (apply Wt; unfold at_; now rewrite Nat2N.id).
      destruct (lt_eq_lt_dec p q) as [[H|H]|H]; [|exact H|]; exfalso.
      + assert (t < t)%R by (apply (I (i + N.of_nat p) (i + N.of_nat q))%N; [lia | apply Cp | apply Cq]). lra.
      + assert (t < t)%R by (apply (I (i + N.of_nat q) (i + N.of_nat p))%N; [lia | apply Cq | apply Cp]). lra.
    - reflexivity.
  Qed.

  (** With an exact fit, accelerated motion gets at sample [i + h] the velocity it has at sample [i + h + 1]. *)
  Theorem c52_velocity (data : table R) s out ax bx cx ay by_ cy az bz cz : powf_ok -> exact_fit -> increasing data ->
    quadratic data 1 ax bx cx -> quadratic data 2 ay by_ cy -> quadratic data 3 az bz cz ->
    (3 <= s)%N -> velocity_polynom fit powf data s 2 = Val out ->
    forall i row, at_ out i row -> exists t x y z u,
      sample_at data (i + (s - 1) / 2) t x y z /\ cell data (i + (s - 1) / 2 + 1) 0 = Val u /\
      row = [t; x; y; z; bx + 2 * cx * u; by_ + 2 * cy * u; bz + 2 * cz * u]%R.
  Proof.
    intros P X I Qx Qy Qz H3 E i row Hi. destruct (c52_rows fit powf data s 2 out H3 E) as [h [Eh [_ [_ H]]]].
    replace ((s - 1) / 2)%N with h by (subst s; replace (2 * h + 1 - 1)%N with (h * 2)%N by lia; now rewrite N.div_mul).
    destruct (H i row Hi) as [t [x [y [z [ts [xs [ys [zs [px [py [pz [t0 [u [Sm [Wt [Wx [Wy [Wz [H0 [Hu [Fx [Fy [Fz Er]]]]]]]]]]]]]]]]]]]]]]].
    change (fun t => (t - t0)%num) with (fun t => (t - t0)%R) in Fx, Fy, Fz.
    rewrite (window_fit data 1 i s ts xs t0 _ _ _ X I Qx H3 Wt Wx H0) in Fx. rewrite (window_fit data 2 i s ts ys t0 _ _ _ X I Qy H3 Wt Wy H0) in Fy.
    rewrite (window_fit data 3 i s ts zs t0 _ _ _ X I Qz H3 Wt Wz H0) in Fz.
    assert (G : forall a b c, slope powf [a + b * t0 + c * (t0 * t0); b + 2 * c * t0; c]%R (u - t0)%R = (b + 2 * c * u)%R).
    { intros a b c. rewrite slope3 by exact P. ring. }
    exists t, x, y, z, u. split; [exact Sm|]. split.
    { apply Wt in Hu. replace (i + h + 1)%N with (i + (h + 1))%N by lia. apply Hu. }
    rewrite Er. assert (px = _) as -> by (injection Fx as Fx; symmetry; exact Fx).
    assert (py = _) as -> by (injection Fy as Fy; symmetry; exact Fy). assert (pz = _) as -> by (injection Fz as Fz; symmetry; exact Fz).
    change (u - t0)%num with (u - t0)%R. now rewrite !G.
  Qed.
  (** Hence straight-line motion is right everywhere... *)
  Theorem c52_linear (data : table R) s out ax bx ay by_ az bz : powf_ok -> exact_fit -> increasing data ->
    quadratic data 1 ax bx 0 -> quadratic data 2 ay by_ 0 -> quadratic data 3 az bz 0 ->
    (3 <= s)%N -> velocity_polynom fit powf data s 2 = Val out ->
    forall i row, at_ out i row -> exists t x y z, sample_at data (i + (s - 1) / 2) t x y z /\ row = [t; x; y; z; bx; by_; bz].
  Proof.
    intros P X I Qx Qy Qz H3 E i row Hi.
    destruct (c52_velocity data s out ax bx 0 ay by_ 0 az bz 0 P X I Qx Qy Qz H3 E i row Hi) as [t [x [y [z [u [Sm [_ ->]]]]]]].
    exists t, x, y, z. split; [exact Sm|]. repeat f_equal; ring.
  Qed.
  (** ... and accelerated motion wrong in every row, by [2 c] times the time step. *)
  Theorem c52_middle_refuted (data : table R) s out ax bx cx ay by_ cy az bz cz : powf_ok -> exact_fit -> increasing data ->
    quadratic data 1 ax bx cx -> quadratic data 2 ay by_ cy -> quadratic data 3 az bz cz ->
    (3 <= s)%N -> velocity_polynom fit powf data s 2 = Val out -> cx <> 0%R ->
    forall i row v, at_ out i row -> at_ row 4 v -> exists t, at_ row 0 t /\ v <> (bx + 2 * cx * t)%R.
  Proof.
    intros P X I Qx Qy Qz H3 E Hc i row v Hi Hv.
    destruct (c52_velocity data s out ax bx cx ay by_ cy az bz cz P X I Qx Qy Qz H3 E i row Hi) as [t [x [y [z [u [Sm [Cu ->]]]]]]].
    exists t. split; [reflexivity|]. assert (v = bx + 2 * cx * u)%R by (unfold at_ in Hv; change (N.to_nat 4) with 4%nat in Hv; cbn [nth_error] in Hv; congruence). subst v.
    assert (t < u)%R.
    { apply sample_cells in Sm as [Ct _]. apply (I (i + (s - 1) / 2) (i + (s - 1) / 2 + 1))%N; [lia | exact Ct | exact Cu]. }
    intros Q. assert (cx * (u - t) = 0)%R by lra. apply Rmult_integral in H0. lra.
  Qed.
End Ideal.

(** The hypotheses are met: Newton's formula, and a falling particle. *)
Definition newton (ts ys : list R) (_ : N) : option (list R) :=
  match ts, ys with
  | t0 :: t1 :: t2 :: _, y0 :: y1 :: y2 :: _ =>
      let e := ((y1 - y0) / (t1 - t0))%R in
      let c := (((y2 - y1) / (t2 - t1) - e) / (t2 - t0))%R in
      let b := (e - c * (t0 + t1))%R in
      Some [y0 - b * t0 - c * (t0 * t0); b; c]%R
  | _, _ => Some [0]%R
  end.
Definition powR (x y : R) : R := x ^ Z.to_nat (Zfloor y).
Definition ex_fall : table R := map (fun k => [IZR k; IZR k * IZR k; 1; 0]%R) [0; 1; 2; 3; 4]%Z.
Example c52_used : powf_ok powR /\ exact_fit newton /\ increasing ex_fall /\
  quadratic ex_fall 1 0 0 1 /\ quadratic ex_fall 2 1 0 0 /\ quadratic ex_fall 3 0 0 0 /\
  exists out, velocity_polynom newton powR ex_fall 3 2 = Val out /\ at_ out 0 [1; 1 * 1; 1; 0; 0 + 2 * 1 * 2; 0 + 2 * 0 * 2; 0 + 2 * 0 * 2]%R.
Proof.
  assert (P : powf_ok powR). { intros x k. unfold powR. rewrite INR_IZR_INZ, Zfloor_IZR, Nat2Z.id. reflexivity. }
  assert (X : exact_fit newton).
  { intros ts cs L D Lc. destruct ts as [|t0 [|t1 [|t2 ts]]]; unfold vlen in L; cbn in L; try lia.
    destruct cs as [|a [|b [|c [|]]]]; try (exfalso; unfold vlen in Lc; cbn [length] in Lc; lia). cbn [newton map]. rewrite !poly3.
    inversion D as [|? ? N0 D1]; subst. inversion D1 as [|? ? N1 D2]; subst. cbn in N0, N1.
    assert (t1 - t0 <> 0)%R by (intros E; apply N0; left; lra). assert (t2 - t0 <> 0)%R by (intros E; apply N0; right; left; lra).
    assert (t2 - t1 <> 0)%R by (intros E; apply N1; left; lra).
    assert (E1 : ((a + b * t1 + c * (t1 * t1) - (a + b * t0 + c * (t0 * t0))) / (t1 - t0) = b + c * (t0 + t1))%R) by (field; assumption).
    assert (E2 : ((a + b * t2 + c * (t2 * t2) - (a + b * t1 + c * (t1 * t1))) / (t2 - t1) = b + c * (t1 + t2))%R) by (field; assumption).
    rewrite E1, E2. assert (E3 : ((b + c * (t1 + t2) - (b + c * (t0 + t1))) / (t2 - t0) = c)%R) by (field; assumption). rewrite E3.
    assert (Eb : (b + c * (t0 + t1) - c * (t0 + t1) = b)%R) by ring. rewrite Eb.
    assert (Ea : (a + b * t0 + c * (t0 * t0) - b * t0 - c * (t0 * t0) = a)%R) by ring. rewrite Ea. reflexivity. }
  assert (Cc : forall i j x, cell ex_fall i j = Val x -> exists k, In k [0; 1; 2; 3; 4]%Z /\ k = Z.of_N i /\ at_ [IZR k; IZR k * IZR k; 1; 0]%R j x).
  { intros i j x H. apply cell_val in H as [r [Hr Hx]]. unfold at_, ex_fall in Hr. rewrite nth_error_map in Hr.
    destruct (nth_error [0; 1; 2; 3; 4]%Z (N.to_nat i)) as [k|] eqn:E; [|discriminate]. cbn [option_map] in Hr. injection Hr as <-.
    exists k. split; [eapply nth_error_In; exact E|]. split; [|exact Hx].
    assert (Li : (N.to_nat i < 5)%nat) by (apply (proj1 (nth_error_Some [0; 1; 2; 3; 4]%Z (N.to_nat i))); congruence).
    remember (N.to_nat i) as n eqn:En. destruct n as [|[|[|[|[|]]]]]; try lia; cbn in E; injection E as <-; lia. }
  assert (I : increasing ex_fall).
  { intros i j t u Hij Ht Hu. apply Cc in Ht as [k [_ [-> Ht]]]. apply Cc in Hu as [m [_ [-> Hu]]].
    unfold at_ in *. cbn in Ht, Hu. injection Ht as <-. injection Hu as <-. apply IZR_lt. lia. }
  assert (Q : forall j a b c, (forall k x, In k [0; 1; 2; 3; 4]%Z -> at_ [IZR k; IZR k * IZR k; 1; 0]%R j x -> x = (a + b * IZR k + c * (IZR k * IZR k))%R) -> quadratic ex_fall j a b c).
  { intros j a b c H i t x Ht Hx. apply Cc in Ht as [k [Hk [-> Ht]]]. apply Cc in Hx as [m [Hm [-> Hx]]].
    unfold at_ in Ht. cbn in Ht. injection Ht as <-. apply H; assumption. }
  assert (Q1 : quadratic ex_fall 1 0 0 1). { apply Q. intros k x _ H. unfold at_ in H. cbn in H. injection H as <-. ring. }
  assert (Q2 : quadratic ex_fall 2 1 0 0). { apply Q. intros k x _ H. unfold at_ in H. cbn in H. injection H as <-. ring. }
  assert (Q3 : quadratic ex_fall 3 0 0 0). { apply Q. intros k x _ H. unfold at_ in H. cbn in H. injection H as <-. ring. }
  do 6 (split; [assumption|]).
  destruct (c52_total newton powR ex_fall 3 2) as [out E]; [reflexivity | lia | cbn; lia | repeat constructor | | ].
  { intros ts xs _. unfold newton. destruct ts as [|? [|? [|? ?]]], xs as [|? [|? [|? ?]]]; discriminate. }
  exists out. split; [exact E|].
  destruct (c52_rows newton powR ex_fall 3 2 out ltac:(lia) E) as [h [_ [Lo _]]]. change (vlen ex_fall - (3 - 1))%N with 3%N in Lo.
  destruct (lt_at out 0) as [row Hr]; [lia|].
  destruct (c52_velocity newton powR ex_fall 3 out 0 0 1 1 0 0 0 0 0 P X I Q1 Q2 Q3 ltac:(lia) E 0%N row Hr) as [t [x [y [z [u [Sm [Cu ->]]]]]]].
  change (0 + (3 - 1) / 2)%N with 1%N in Sm, Cu. change (1 + 1)%N with 2%N in Cu.
  apply sample_cells in Sm as [C0 [C1 [C2 C3]]].
  assert (t = 1)%R by (change (Val 1%R = Val t) in C0; congruence). assert (x = 1 * 1)%R by (change (Val (1 * 1)%R = Val x) in C1; congruence).
  assert (y = 1)%R by (change (Val 1%R = Val y) in C2; congruence). assert (z = 0)%R by (change (Val 0%R = Val z) in C3; congruence).
  assert (u = 2)%R by (change (Val 2%R = Val u) in Cu; congruence). subst. exact Hr.
Qed.
