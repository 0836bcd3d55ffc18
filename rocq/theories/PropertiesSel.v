(** * Properties C24-C27: the particle selector (IEEE doubles). *)
From Coq Require Import Reals List NArith ZArith Lia Lra Bool ZifyBool ZifyN.
From Flocq Require Import Core.Core IEEE754.BinarySingleNaN.
From Verif Require Import Base BaseFacts Num F64Facts SelModel PropertiesGrid.

(** The documented rule of a filter list: unset, one value, a closed range, or a set of values. *)
Definition passes {F} {NF : Num F} (l : list F) (x : F) : Prop :=
  match l with
  | [] => False
  | f :: r =>
      neqb f (nneg n1) = true \/
      match r with
      | [] => neqb x f = true
      | [u] => nleb f x = true /\ nleb x u = true
      | _ => exists y, In y l /\ neqb y x = true
      end
  end.
Definition ids_pass (l : list N) (i : N) : Prop :=
  match l with
  | [] => False
  | f :: r =>
      f = 0%N \/
      match r with
      | [] => i = f
      | [u] => (f <= i <= u)%N
      | _ => In i l
      end
  end.
(** How the code judges density: as [passes], except that the upper end of a range comes from
    the radius list and a range is recognised by the length of the radius list. *)

Lemma fcontains_spec {F} {NF : Num F} (l : list F) x : fcontains l x = true <-> exists y, In y l /\ neqb y x = true.
Proof. unfold fcontains. apply existsb_exists. Qed.

Lemma vget_cons0 {A} (f : A) r : vget (f :: r) 0 = Val f. Proof. reflexivity. Qed.
Lemma vget_cons1 {A} (f u : A) r : vget (f :: u :: r) 1 = Val u. Proof. reflexivity. Qed.
Lemma vlen3 {A} (a b c : A) r : ((vlen (a :: b :: c :: r) =? 1) = false /\ (vlen (a :: b :: c :: r) =? 2) = false)%N.
Proof. unfold vlen. cbn [length]. split; apply N.eqb_neq; lia. Qed.

(** ** C24 *)
Theorem c24_radius (s : selector f64) (x : f64) : s_radius s <> [] ->
  exists b, is_radius_valid s x = Val b /\ (b = true <-> passes (s_radius s) x).
Proof.
  intros H. unfold is_radius_valid, passes. destruct (s_radius s) as [|f [|u [|w r]]]; [contradiction| | |];
    rewrite vget_cons0; cbn [bind]; destruct (neqb f (nneg n1)) eqn:E; try (eexists; split; [reflexivity|]; tauto).
  - eexists. split; [reflexivity|]. intuition discriminate.
  - cbn [vlen length N.of_nat N.eqb Pos.eqb Pos.of_succ_nat Pos.succ]. rewrite vget_cons1. cbn [bind].
    eexists. split; [reflexivity|]. rewrite andb_true_iff. intuition discriminate.
  - destruct (vlen3 f u w r) as [-> ->]. eexists. split; [reflexivity|].
    rewrite fcontains_spec. intuition discriminate.
Qed.
Example c24_case : let s := mkSel (nmin, nmax) [d 1; d 3] [nneg n1] [nneg n1] [0%N] in
  passes (s_radius s) (d 3) /\ is_radius_valid s (d 3) = Val true /\ ~ passes (s_radius s) (d 4).
Proof. vm_compute. repeat split; [right; split; reflexivity | intros [H|[_ H]]; discriminate]. Qed.
Theorem c24_empty_panics (s : selector f64) (x : f64) : s_radius s = [] -> is_radius_valid s x = Panic.
Proof. intros H. unfold is_radius_valid. now rewrite H. Qed.

(** ** C25 *)
(** Clouds follow the rule when the radius list has two entries iff the cloud list has. *)
Theorem c25_cloud (s : selector f64) (x : f64) : s_clouds s <> [] ->
  ((vlen (s_radius s) =? 2)%N = (vlen (s_clouds s) =? 2)%N \/ vlen (s_clouds s) = 1%N) ->
  exists b, is_cloud_valid s x = Val b /\ (b = true <-> passes (s_clouds s) x).
Proof.
  intros H L. unfold is_cloud_valid, passes. destruct (s_clouds s) as [|f [|u [|w r]]]; [contradiction| | |];
    rewrite vget_cons0; cbn [bind]; destruct (neqb f (nneg n1)) eqn:E; try (eexists; split; [reflexivity|]; tauto).
  - eexists. split; [reflexivity|]. intuition discriminate.
  - destruct L as [L|L]; [|discriminate]. change (vlen [f; u] =? 2)%N with true in L. rewrite L.
    change (vlen [f; u] =? 1)%N with false. rewrite vget_cons1. cbn [bind].
    eexists. split; [reflexivity|]. rewrite andb_true_iff. intuition discriminate.
  - destruct (vlen3 f u w r) as [L1 L2]. destruct L as [L|L]; [|unfold vlen in L; cbn [length] in L; lia].
    rewrite L, L1, L2. eexists. split; [reflexivity|].
    rewrite fcontains_spec. intuition discriminate.
Qed.
Example c25_cloud_case : let s := mkSel (nmin, nmax) [d 0; d 5] [d 1; d 3] [nneg n1] [0%N] in
  (vlen (s_radius s) =? 2)%N = (vlen (s_clouds s) =? 2)%N /\ is_cloud_valid s (d 2) = Val true.
Proof. vm_compute. split; reflexivity. Qed.
(** Density follows it if in addition a range's upper end equals the radius list's. *)
Theorem c25_density (s : selector f64) (x : f64) : s_density s <> [] ->
  ((vlen (s_radius s) =? 2)%N = (vlen (s_density s) =? 2)%N \/ vlen (s_density s) = 1%N) ->
  (vlen (s_density s) = 2%N -> nth_error (s_density s) 1 = nth_error (s_radius s) 1) ->
  exists b, is_density_valid s x = Val b /\ (b = true <-> passes (s_density s) x).
Proof.
  intros H L U. unfold is_density_valid, passes. destruct (s_density s) as [|f [|u [|w r]]]; [contradiction| | |];
    rewrite vget_cons0; cbn [bind]; destruct (neqb f (nneg n1)) eqn:E; try (eexists; split; [reflexivity|]; tauto).
  - eexists. split; [reflexivity|]. intuition discriminate.
  - destruct L as [L|L]; [|discriminate]. change (vlen [f; u] =? 2)%N with true in L. rewrite L.
    change (vlen [f; u] =? 1)%N with false.
    assert (V : vget (s_radius s) 1 = Val u)
      by (unfold vget; change (N.to_nat 1) with 1%nat; rewrite <- (U eq_refl); reflexivity).
    rewrite V. cbn [bind].
    eexists. split; [reflexivity|]. rewrite andb_true_iff. intuition discriminate.
  - destruct (vlen3 f u w r) as [L1 L2]. destruct L as [L|L]; [|unfold vlen in L; cbn [length] in L; lia].
    rewrite L, L1, L2. eexists. split; [reflexivity|].
    rewrite fcontains_spec. intuition discriminate.
Qed.
Example c25_density_case : let s := mkSel (nmin, nmax) [d 0; d 5] [nneg n1] [d 1; d 5] [0%N] in
  (vlen (s_radius s) =? 2)%N = (vlen (s_density s) =? 2)%N /\ nth_error (s_density s) 1 = nth_error (s_radius s) 1 /\
  is_density_valid s (d 2) = Val true.
Proof. cbv zeta. split; [reflexivity|]. split; [reflexivity|]. vm_compute. reflexivity. Qed.
(** False of the code: with the default radius filter a cloud range [1,3] rejects 2 ... *)
Theorem c25_cloud_refuted : let s := mkSel (nmin, nmax) [nneg n1] [d 1; d 3] [nneg n1] [0%N] in
  passes (s_clouds s) (d 2) /\ is_cloud_valid s (d 2) = Val false.
Proof. vm_compute. split; [right; split; reflexivity | reflexivity]. Qed.
(** ... and with a radius range the density range is cut off by the radius. *)
Theorem c25_density_refuted : let s := mkSel (nmin, nmax) [d 0; d 5] [nneg n1] [d 1000; d 3000] [0%N] in
  passes (s_density s) (d 2000) /\ is_density_valid s (d 2000) = Val false.
Proof. vm_compute. split; [right; split; reflexivity | reflexivity]. Qed.

(** ** C26 *)
Theorem c26_ids (s : selector f64) (i : N) : s_ids s <> [] ->
  exists b, is_particleid_valid s i = Val b /\ (b = true <-> ids_pass (s_ids s) i).
Proof.
  intros H. unfold is_particleid_valid, ids_pass. destruct (s_ids s) as [|f [|u [|w r]]]; [contradiction| | |];
    rewrite vget_cons0; cbn [bind]; destruct (N.eqb_spec f 0) as [E|E]; try (eexists; split; [reflexivity|]; tauto).
  - eexists. split; [reflexivity|]. rewrite N.eqb_eq. tauto.
  - change (vlen [f; u] =? 1)%N with false. change (vlen [f; u] =? 2)%N with true. rewrite vget_cons1. cbn [bind].
    eexists. split; [reflexivity|]. lia.
  - destruct (vlen3 f u w r) as [-> ->]. eexists. split; [reflexivity|].
    rewrite existsb_exists. split.
    + intros [y [Hy E']]. apply N.eqb_eq in E'. subst. tauto.
    + intros [->|Hi]; [contradiction|]. exists i. split; [exact Hi | apply N.eqb_refl].
Qed.
Example c26_case : let s := mkSel (nmin, nmax) [nneg n1] [nneg n1] [nneg n1] [4%N; 9%N; 2%N] : selector f64 in
  ids_pass (s_ids s) 9 /\ is_particleid_valid s 9 = Val true /\ is_particleid_valid s 5 = Val false.
Proof. cbv zeta. split; [right; cbn; tauto|]. split; reflexivity. Qed.
(** Every id but 0 can be selected alone; 0 cannot. *)
Theorem c26_single (s : selector f64) (k i : N) : s_ids s = [k] ->
  (k <> 0%N -> is_particleid_valid s i = Val (i =? k)%N) /\ (k = 0%N -> is_particleid_valid s i = Val true).
Proof.
  intros H. unfold is_particleid_valid. rewrite H, vget_cons0. cbn [bind].
  split; [intros Hk; destruct (N.eqb_spec k 0); [contradiction | reflexivity] | intros ->; reflexivity].
Qed.
Theorem c26_zero_refuted : let s := mkSel (nmin, nmax) [nneg n1] [nneg n1] [nneg n1] [0%N] : selector f64 in
  is_particleid_valid s 7 = Val true.
Proof. reflexivity. Qed.

(** ** C27 *)
Theorem c27_conjunction (s : selector f64) r c de i :
  is_valid s r c de i = Val true <->
  is_radius_valid s r = Val true /\ is_cloud_valid s c = Val true /\ is_density_valid s de = Val true /\
  is_particleid_valid s i = Val true.
Proof.
  unfold is_valid.
  destruct (is_radius_valid s r) as [[|]|]; cbn; try (intuition discriminate).
  destruct (is_cloud_valid s c) as [[|]|]; cbn; try (intuition discriminate).
  destruct (is_density_valid s de) as [[|]|]; cbn; try (intuition discriminate).
Qed.
Theorem c27_default_accepts_all (r c de : f64) i : is_valid sel_default r c de i = Val true.
Proof. vm_compute. reflexivity. Qed.
Lemma B2R_max : B2R (Bmax_float : f64) = (bpow radix2 1024 - bpow radix2 (1024 - 53))%R.
Proof.
  assert (M : B2SF (Bmax_float : f64) = SpecFloat.S754_finite false 9007199254740991 971) by (vm_compute; reflexivity).
  rewrite <- SF2R_B2SF, M. unfold SF2R, F2R. cbn [Fnum Fexp cond_Zopp].
  change (bpow radix2 1024) with (bpow radix2 (53 + 971)). rewrite bpow_plus.
  change (1024 - 53)%Z with 971%Z. change (bpow radix2 53) with (IZR 9007199254740992).
  rewrite (minus_IZR 9007199254740992 1 : IZR 9007199254740991 = _). ring.
Qed.
Lemma finite_le_max (x : f64) : is_finite x = true -> Bleb x Bmax_float = true.
Proof.
  intros Fx. rewrite Bleb_correct by (assumption || reflexivity). apply Rle_bool_true. rewrite B2R_max.
  assert (L := abs_B2R_le_emax_minus_prec 53 1024 _ x). apply Rle_trans with (2 := L). apply Rle_abs.
Qed.
Theorem c27_default_accepts_every_finite_time (t : f64) : is_finite t = true -> timestep_valid sel_default t = true.
Proof.
  intros H. unfold timestep_valid. apply andb_true_iff. split; [|apply finite_le_max; exact H].
  change (Bleb (Bopp Bmax_float) t = true).
  assert (G := finite_le_max (Bopp t) ltac:(now rewrite is_finite_Bopp)).
  rewrite Bleb_correct in G |- * by (rewrite ?is_finite_Bopp; (assumption || reflexivity)).
  rewrite B2R_Bopp in *.
  apply Rle_bool_true. destruct (Rle_bool_spec (- B2R t) (B2R (Bmax_float : f64))); [lra | discriminate].
Qed.
Theorem c27_default_time (t : f64) : timestep_valid sel_default t = is_finite t.
Proof.
  destruct (is_finite t) eqn:E; [now apply c27_default_accepts_every_finite_time|].
  destruct t as [s|[|]| |s m e B]; try discriminate; vm_compute; reflexivity.
Qed.
Theorem c27_window (s : selector f64) (lo hi t : f64) :
  timestep_valid (set_time s lo hi) t = true <-> nleb lo t = true /\ nleb t hi = true.
Proof. unfold timestep_valid, set_time. cbn [s_time fst snd]. apply andb_true_iff. Qed.
(** Setting the time window changes no other filter. *)
Theorem c27_set_time_frame (s : selector f64) lo hi r c de i :
  is_valid (set_time s lo hi) r c de i = is_valid s r c de i.
Proof. reflexivity. Qed.

Print Assumptions c24_radius.
Print Assumptions c27_default_accepts_every_finite_time.
