(** * PropertiesH5: the files the converters leave behind

    C126: interrupted and failed conversions.  C127: finished conversions, by name.  C128: repeating a
    conversion.  C129: converting over an earlier file. *)
From Coq Require Import Reals List NArith ZArith Bool Lia Ascii String DecimalString DecimalN DecimalFacts.
From Flocq Require Import Core.Core IEEE754.BinarySingleNaN.
From Verif Require Import Base BaseFacts Num NDArray SelModel DataModel DataSpec FunModel ConvModel PyModel H5Model.
Import ListNotations.
Local Open Scope string_scope.
Local Open Scope list_scope.

(** ** Names *)
Lemma append_inj (s a b : string) : append s a = append s b -> a = b.
Proof. induction s as [|c s IH]; cbn; [auto|]. intros H. injection H as H. auto. Qed.
Lemma numbered_inj w i j : numbered w i = numbered w j -> i = j.
Proof.
  unfold numbered. intros H. apply append_inj in H. apply append_inj in H.
  apply (f_equal NilEmpty.uint_of_string) in H. rewrite !NilEmpty.usu in H. injection H as H.
  now apply Unsigned.to_uint_inj.
Qed.
(** The number a string of digits denotes in base ten, if it is one. *)
Definition digit (c : ascii) : option N := let n := N_of_ascii c in if ((48 <=? n) && (n <=? 57))%N then Some (n - 48)%N else None.
Fixpoint decimal (s : string) (acc : N) : option N :=
  match s with EmptyString => Some acc | String c s => match digit c with Some k => decimal s (10 * acc + k)%N | None => None end end.
Fixpoint fold_digits (d : Decimal.uint) (acc : N) : N :=
  match d with
  | Decimal.Nil => acc
  | Decimal.D0 d => fold_digits d (10 * acc) | Decimal.D1 d => fold_digits d (10 * acc + 1) | Decimal.D2 d => fold_digits d (10 * acc + 2)
  | Decimal.D3 d => fold_digits d (10 * acc + 3) | Decimal.D4 d => fold_digits d (10 * acc + 4) | Decimal.D5 d => fold_digits d (10 * acc + 5)
  | Decimal.D6 d => fold_digits d (10 * acc + 6) | Decimal.D7 d => fold_digits d (10 * acc + 7) | Decimal.D8 d => fold_digits d (10 * acc + 8)
  | Decimal.D9 d => fold_digits d (10 * acc + 9)
  end%N.
Lemma decimal_digits d : forall acc, decimal (NilEmpty.string_of_uint d) acc = Some (fold_digits d acc).
Proof.
  induction d; intros acc; cbn [NilEmpty.string_of_uint decimal fold_digits]; [reflexivity|..].
  all: match goal with |- context [digit ?c] => let v := eval vm_compute in (digit c) in change (digit c) with v end; cbn iota; rewrite ?N.add_0_r; apply IHd.
Qed.
Lemma acc_pos d : forall p, fold_digits d (Npos p) = Npos (Pos.of_uint_acc d p).
Proof.
  induction d; intros p; cbn [fold_digits Pos.of_uint_acc]; [reflexivity|..].
  all: match goal with |- fold_digits ?d ?x = Npos (Pos.of_uint_acc ?d ?y) => replace x with (Npos y); [apply IHd|] end.
  all: clear; lia.
Qed.
Lemma fold_of_uint d : fold_digits d 0 = N.of_uint d.
Proof. unfold N.of_uint. induction d; cbn [fold_digits Pos.of_uint]; try reflexivity; try exact IHd; apply acc_pos. Qed.
Lemma head_digit d c s : NilEmpty.string_of_uint d = String c s -> c = "0"%char -> exists d', d = Decimal.D0 d'.
Proof. destruct d; cbn; intros H E; try discriminate; injection H as <- _; try discriminate E. eexists. reflexivity. Qed.
(** The groups are called by a word, a space and the number in decimal notation: digits that denote the number,
    without a leading zero unless the number is zero. *)
Theorem c127_names w n : exists ds, numbered w n = append w (append " " ds) /\ ds <> EmptyString /\ decimal ds 0 = Some n /\
  (forall ds', ds = String "0" ds' -> n = 0%N /\ ds' = EmptyString).
Proof.
  exists (NilEmpty.string_of_uint (N.to_uint n)). split; [reflexivity|].
  assert (E : N.of_uint (N.to_uint n) = n) by apply Unsigned.of_to.
  split; [intros H; destruct n; [discriminate H|]; cbn in H; destruct (Pos.to_uint p) eqn:P; try discriminate H; assert (Z := Unsigned.of_to (Npos p)); cbn [N.to_uint] in Z; rewrite P in Z; discriminate Z|].
  split; [rewrite decimal_digits, fold_of_uint, E; reflexivity|].
  intros ds' H. destruct (head_digit _ _ _ H eq_refl) as [d' Ed].
  assert (U := Unsigned.to_of (N.to_uint n)). rewrite E, Ed in U.
  unfold Decimal.unorm in U. change (Decimal.nzhead (Decimal.D0 d')) with (Decimal.nzhead d') in U.
  destruct (Decimal.nzhead d') as [|z|z|z|z|z|z|z|z|z|z] eqn:Z; try discriminate U.
  - injection U as ->. rewrite Ed in H. cbn in H. injection H as <-. split; [|reflexivity]. rewrite <- E, Ed. reflexivity.
  - exfalso. exact (nzhead_nonzero d' z Z).
Qed.
Lemma particle_not_times i : numbered "particle" i <> "time array".
Proof. unfold numbered. cbn. discriminate. Qed.
Lemma timestep_not_times i : numbered "timestep" i <> "time array".
Proof. unfold numbered. cbn. discriminate. Qed.

Section Any.
  Context {F : Type} {NF : Num F} (as_u64 : F -> F).

  Lemma put_same {A} (m : string -> option A) k v : put m k v k = Some v.
  Proof. unfold put. now rewrite String.eqb_refl. Qed.
  Lemma put_other {A} (m : string -> option A) k k' v : k <> k' -> put m k v k' = m k'.
  Proof. unfold put. intros H. apply String.eqb_neq in H. now rewrite H. Qed.

  (** ** C126 *)

  (** No way of opening the file works. *)
  Definition unopenable (f : option (h5 F)) : Prop :=
    forall bld, open_data bld f = Panic /\ open_p bld f = Panic /\ open_t bld f = Panic.
  Definition untimed (f : h5 F) : Prop := x_sets f "time array" = None.
  Lemma untimed_unopenable f : untimed f -> unopenable (Some f).
  Proof.
    intros H. assert (E : h5_header f = Panic).
    { unfold h5_header. rewrite H. cbn [as_vec unwrap bind].
      repeat match goal with |- bind (unwrap ?x) _ = Panic => destruct x; [cbn [unwrap bind] | reflexivity] end. reflexivity. }
    intros bld. unfold open_data, open_p, open_t. cbn [unwrap bind]. rewrite E. cbn [bind].
    split; [|auto]. destruct (as_nat (x_attrs f "hdf5_up4_type")) as [ty|]; [|reflexivity]. cbn [unwrap bind].
    destruct (ty =? 1)%N; [reflexivity|]. now destruct (ty =? 2)%N.
  Qed.

  Definition stored (w : world F) : Prop := exists f, w_disk w = Some f /\ untimed f.
  Definition keeps {A} (m : io A) : Prop := forall w, stored w -> stored (fst (m w)).
  (** As long as it does not finish. *)
  Definition keeps' {A} (m : io A) : Prop := forall w, stored w -> snd (m w) = Panic -> stored (fst (m w)).
  Definition ended {A} (m : io A) : Prop :=
    forall w, snd (m w) = Panic -> w_disk (fst (m w)) = w_disk w \/ stored (fst (m w)).

  Lemma keeps_ret {A} (a : A) : keeps (ret a). Proof. intros w H. exact H. Qed.
  Lemma keeps_lift {A} (r : res A) : keeps (lift r). Proof. intros w H. exact H. Qed.
  Lemma keeps_bind {A B} (m : io A) (k : A -> io B) : keeps m -> (forall a, keeps (k a)) -> keeps (ibind m k).
  Proof. intros Hm Hk w Hw. unfold ibind. specialize (Hm w Hw). destruct (m w) as [w' [a|]]; [now apply Hk | exact Hm]. Qed.
  Lemma keeps_fold {S A} (f : S -> A -> io S) l : (forall s a, keeps (f s a)) -> forall s, keeps (ifold f l s).
  Proof. intros H. induction l as [|a l IH]; intros s; [apply keeps_ret|]. cbn. apply keeps_bind; auto. Qed.
  Lemma keeps_on f : (forall d d', untimed d -> f d = Val d' -> untimed d') -> keeps (on_file f).
  Proof.
    intros H w [d [E U]]. unfold on_file, call. rewrite E. cbn [unwrap bind].
    destruct (w_left w) as [[|n]|]; [now exists d| |]; (destruct (f d) as [d'|] eqn:Ed; [exists d'; cbn; split; [reflexivity | eauto] | now exists d]).
  Qed.
  Ltac op := apply keeps_on; unfold untimed; intros d d' U E;
    repeat (apply bind_val in E; let x := fresh in let Hx := fresh in destruct E as [x [Hx E]]); injection E as <-; exact U.
  Lemma keeps_attr_create k v : keeps (attr_create k v). Proof. op. Qed.
  Lemma keeps_attr_write k v : keeps (attr_write k v). Proof. op. Qed.
  Lemma keeps_attr_scalar k v : keeps (attr_scalar k v).
  Proof. apply keeps_bind; [apply keeps_attr_create|]. intros. apply keeps_attr_write. Qed.
  Lemma keeps_group k : keeps (@group_create F k). Proof. op. Qed.
  Lemma keeps_set g k v : keeps (set_create g k v). Proof. op. Qed.
  Lemma keeps_set_write g k v : keeps (set_write g k v). Proof. op. Qed.

  Lemma keeps'_of {A} (m : io A) : keeps m -> keeps' m. Proof. intros H w Hw _. now apply H. Qed.
  Lemma keeps'_bind {A B} (m : io A) (k : A -> io B) : keeps m -> (forall a, keeps' (k a)) -> keeps' (ibind m k).
  Proof. intros Hm Hk w Hw. unfold ibind. specialize (Hm w Hw). destruct (m w) as [w' [a|]]; [now apply Hk | auto]. Qed.
  Lemma keeps'_root k v : keeps' (root_set k v).
  Proof.
    intros w Hw. unfold root_set, on_file, call. destruct (w_left w) as [[|n]|]; [auto| |].
    - destruct (bind _ _); cbn; [discriminate | auto].
    - destruct (bind _ _); cbn; [discriminate | auto].
  Qed.
  Lemma keeps'_header h : keeps' (header_io as_u64 h).
  Proof.
    unfold header_io. repeat (apply keeps'_bind; [first [apply keeps_attr_create | apply keeps_attr_scalar]|intros []]). apply keeps'_root.
  Qed.
  Lemma keeps_particle g tm ids r c ty v p : keeps (particle_io g tm ids r c ty v p).
  Proof. unfold particle_io. repeat (apply keeps_bind; [apply keeps_set|intros []]). apply keeps_set. Qed.
  Lemma ended_new ty {A} (k : io A) : keeps' k -> ended (ibind (new_file ty) (fun _ => k)).
  Proof.
    intros Hk w. unfold new_file, file_create, ibind, call.
    assert (S0 : forall l, stored (mkWorld (Some (@h5_empty F)) l)) by (intros l; now exists h5_empty).
    assert (Go : forall l, snd (match attr_scalar "hdf5_up4_type" (INat ty) (mkWorld (Some (@h5_empty F)) l) with (w', Val a) => k w' | (w', Panic) => (w', Panic) end) = Panic ->
       stored (fst (match attr_scalar "hdf5_up4_type" (INat ty) (mkWorld (Some (@h5_empty F)) l) with (w', Val a) => k w' | (w', Panic) => (w', Panic) end))).
    { intros l. pose proof (keeps_attr_scalar "hdf5_up4_type" (INat ty) _ (S0 l)) as H.
      destruct (attr_scalar _ _ _) as [w' [u|]]; cbn [fst snd] in *; [now apply Hk | auto]. }
    destruct (w_left w) as [[|n]|]; [left; reflexivity | right; now apply (Go (Some n)) | right; now apply (Go None)].
  Qed.
  Lemma ended_panic {A} : ended (lift (@Panic A)). Proof. intros w _. now left. Qed.
  Lemma ended_unopenable {A} (m : io A) w : ended m -> snd (m w) = Panic ->
    w_disk (fst (m w)) = w_disk w \/ unopenable (w_disk (fst (m w))).
  Proof. intros H E. destruct (H w E) as [H1|[f [H1 U]]]; [now left | right]. rewrite H1. now apply untimed_unopenable. Qed.

  Section Fit.
    Context (fit : list F -> list F -> N -> option (list F)) (powf : F -> F -> F).
    (** If a conversion fails or is interrupted between any two HDF5 calls, the output file is either as
        it was before or cannot be opened in any way. *)
    Theorem c126_csv bld found read columns vel interp radius steps (w : world F) :
      let r := csv_prog as_u64 fit powf bld found read columns vel interp radius steps w in
      snd r = Panic -> w_disk (fst r) = w_disk w \/ unopenable (w_disk (fst r)).
    Proof.
      apply ended_unopenable. unfold csv_prog. destruct found; [|apply ended_panic]. cbn [negb]. apply ended_new.
      apply keeps'_bind; [apply keeps_lift|]. intros data. apply keeps'_bind; [apply keeps_lift|]. intros data'.
      apply keeps'_bind; [apply keeps_group|]. intros []. apply keeps'_bind; [apply keeps_lift|]. intros [s keep].
      apply keeps'_bind; [apply keeps_particle|]. intros []. apply keeps'_header.
    Qed.
    Lemma keeps'_multi radius ids ty types l : keeps' (multi_prog as_u64 radius ids ty types l).
    Proof.
      unfold multi_prog. apply keeps'_bind; [|intros m; apply keeps'_header]. apply keeps_fold. intros m [p data]. unfold multi_io.
      apply keeps_bind; [apply keeps_group|]. intros []. apply keeps_bind; [apply keeps_lift|]. intros m'.
      apply keeps_bind; [apply keeps_particle|]. intros []. apply keeps_ret.
    Qed.
    Theorem c126_csv_multi found read columns vel interp radius mode (w : world F) :
      let r := csv_multi_prog as_u64 fit powf found read columns vel interp radius mode w in
      snd r = Panic -> w_disk (fst r) = w_disk w \/ unopenable (w_disk (fst r)).
    Proof.
      apply ended_unopenable. unfold csv_multi_prog. destruct found; [|apply ended_panic]. cbn [negb].
      destruct (String.eqb mode "chain"); [|destruct (String.eqb mode "id_line")].
      - unfold chain_prog. apply ended_new. apply keeps'_bind; [apply keeps_lift|]. intros data. apply keeps'_bind; [apply keeps_lift|]. intros parts. apply keeps'_multi.
      - unfold idline_prog. destruct (negb _); [apply ended_panic|]. apply ended_new.
        apply keeps'_bind; [apply keeps_lift|]. intros data. apply keeps'_bind; [apply keeps_lift|]. intros parts. apply keeps'_multi.
      - intros w'. discriminate.
    Qed.
  End Fit.
  Theorem c126_vtk cfg files dt (w : world F) :
    let r := vtk_prog as_u64 cfg files dt w in
    snd r = Panic -> w_disk (fst r) = w_disk w \/ unopenable (w_disk (fst r)).
  Proof.
    apply ended_unopenable. unfold vtk_prog. destruct (_ =? 0)%N; [apply ended_panic|]. apply ended_new.
    apply keeps'_bind; [|intros s; apply keeps'_header]. apply keeps_fold. intros s [k f]. unfold vtk_file_io.
    repeat first [apply keeps_ret | apply keeps_lift | apply keeps_group | apply keeps_set | apply keeps_set_write
                 | match goal with |- keeps (if ?b then _ else _) => destruct b end
                 | match goal with |- forall x : _ * _, _ => intros [? ?] | |- forall x, _ => intros ? end
                 | apply keeps_bind].
  Qed.
  Theorem c126_csv_steps files columns times (w : world F) :
    let r := step_prog as_u64 files columns times w in
    snd r = Panic -> w_disk (fst r) = w_disk w \/ unopenable (w_disk (fst r)).
  Proof.
    apply ended_unopenable. unfold step_prog. destruct (negb _); [apply ended_panic|]. apply ended_new.
    apply keeps'_bind; [|intros s; apply keeps'_header]. apply keeps_fold. intros s [k f]. unfold step_file_io.
    repeat first [apply keeps_ret | apply keeps_lift | apply keeps_group | apply keeps_set | apply keeps_set_write
                 | match goal with |- forall x : _ * _ * _, _ => intros [[? ?] ?] | |- forall x, _ => intros ? end
                 | apply keeps_bind].
  Qed.

  (** ** C127 *)

  (** What the readers find: the header (with the sample rate as the integer attribute holds it), and
      the groups by number. *)
  Definition with_rate (h : header F) : header F :=
    mkHeader (h_dims h) (h_nparticles h) (h_timesteps h) (as_u64 (h_rate h)) (h_time h) (h_vel h) (h_mag h) (h_times h).
  Definition p_layout (f : h5 F) (pf : pfile F) (h : header F) : Prop :=
    x_attrs f "hdf5_up4_type" = Some (INat 2) /\ h5_header f = Val (with_rate h) /\
    (forall i, pf_group (h5_pfile f (with_rate h)) i = pf_group pf i) /\
    pf_nparticles pf = h_nparticles h /\ pf_timesteps pf = h_timesteps h.
  Definition t_layout (f : h5 F) (tf : tfile F) (h : header F) : Prop :=
    x_attrs f "hdf5_up4_type" = Some (INat 1) /\ h5_header f = Val (with_rate h) /\
    (forall i, tf_group (h5_tfile f (with_rate h)) i = tf_group tf i) /\
    tf_nparticles tf = h_nparticles h /\ tf_timesteps tf = h_timesteps h.

  Lemma mmap_ext {A B} (f g : A -> res B) l : (forall a, f a = g a) -> mmap f l = mmap g l.
  Proof. intros H. induction l as [|a l IH]; [reflexivity|]. cbn. now rewrite H, IH. Qed.
  Lemma p_load_ext (p q : pfile F) lo hi : (forall i, pf_group p i = pf_group q i) -> pf_nparticles p = pf_nparticles q -> p_load p lo hi = p_load q lo hi.
  Proof.
    intros G Np. unfold p_load. destruct (hi <? lo)%N; [reflexivity|]. rewrite Np.
    rewrite (mmap_ext (p_column p lo hi) (p_column q lo hi)); [reflexivity|]. intros i. unfold p_column. now rewrite !G.
  Qed.
  Lemma t_load_ext (p q : tfile F) lo hi : (forall i, tf_group p i = tf_group q i) -> t_load p lo hi = t_load q lo hi.
  Proof. intros G. unfold t_load. apply mmap_ext. intros i. unfold t_read_single. now rewrite G. Qed.
  Lemma dm_new_ext bld (l l' : N -> N -> res (list (timestep F))) nt : (forall lo hi, l lo hi = l' lo hi) -> dm_new bld l nt = dm_new bld l' nt.
  Proof. intros H. unfold dm_new, buf_update. destruct (usub bld _ 0); [|reflexivity]. cbn [bind]. now rewrite H. Qed.

  (** Opening a file of that layout. *)
  Theorem c127_open_p bld f pf h : p_layout f pf h ->
    match dm_new bld (p_load pf) (pf_timesteps pf) with
    | Val d => exists p, open_data bld (Some f) = Val (with_rate h, OpenP p d) /\ open_p bld (Some f) = Val (with_rate h, p, d) /\
                 (forall i, pf_group p i = pf_group pf i) /\ pf_nparticles p = pf_nparticles pf /\ pf_timesteps p = pf_timesteps pf /\
                 forall lo hi, p_load p lo hi = p_load pf lo hi
    | Panic => open_data bld (Some f) = Panic
    end.
  Proof.
    intros [Ty [Hd [G [Np Nt]]]]. unfold open_data, open_p. cbn [unwrap bind]. rewrite Ty, Hd. cbn [as_nat unwrap bind].
    replace (2 =? 1)%N with false by reflexivity. replace (2 =? 2)%N with true by reflexivity.
    assert (L : forall lo hi, p_load (h5_pfile f (with_rate h)) lo hi = p_load pf lo hi) by (intros; apply p_load_ext; [exact G | cbn; congruence]).
    rewrite (dm_new_ext bld _ _ (h_timesteps (with_rate h)) L).
    replace (h_timesteps (with_rate h)) with (pf_timesteps pf) by (rewrite Nt; reflexivity).
    destruct (dm_new bld (p_load pf) (pf_timesteps pf)) as [d|]; [|reflexivity]. cbn [bind].
    eexists. split; [reflexivity|]. split; [reflexivity|]. split; [exact G|]. split; [cbn; congruence|]. split; [cbn; congruence | exact L].
  Qed.
  Theorem c127_open_t bld f tf h : t_layout f tf h ->
    match dm_new bld (t_load tf) (tf_timesteps tf) with
    | Val d => exists t, open_data bld (Some f) = Val (with_rate h, OpenT t d) /\ open_t bld (Some f) = Val (with_rate h, t, d) /\
                 (forall i, tf_group t i = tf_group tf i) /\ tf_nparticles t = tf_nparticles tf /\ tf_timesteps t = tf_timesteps tf /\
                 forall lo hi, t_load t lo hi = t_load tf lo hi
    | Panic => open_data bld (Some f) = Panic
    end.
  Proof.
    intros [Ty [Hd [G [Np Nt]]]]. unfold open_data, open_t. cbn [unwrap bind]. rewrite Ty, Hd. cbn [as_nat unwrap bind].
    replace (1 =? 1)%N with true by reflexivity.
    assert (L : forall lo hi, t_load (h5_tfile f (with_rate h)) lo hi = t_load tf lo hi) by (intros; now apply t_load_ext).
    rewrite (dm_new_ext bld _ _ (h_timesteps (with_rate h)) L).
    replace (h_timesteps (with_rate h)) with (tf_timesteps tf) by (rewrite Nt; reflexivity).
    destruct (dm_new bld (t_load tf) (tf_timesteps tf)) as [d|]; [|reflexivity]. cbn [bind].
    eexists. split; [reflexivity|]. split; [reflexivity|]. split; [exact G|]. split; [cbn; congruence|]. split; [cbn; congruence | exact L].
  Qed.

  (** Running without interruption. *)
  Notation on f := (mkWorld (F := F) (Some f) None).
  Lemma run_on g f : on_file g (on f) = match g f with Val f' => (on f', Val tt) | Panic => (on f, Panic) end.
  Proof. reflexivity. Qed.
  Lemma run_bind {A B} (m : @io F A) (k : A -> io B) w w' a : m w = (w', Val a) -> ibind m k w = k a w'.
  Proof. intros H. unfold ibind. now rewrite H. Qed.
  Lemma run_panic {A B} (m : @io F A) (k : A -> io B) w : snd (m w) = Panic -> snd (ibind m k w) = Panic.
  Proof. intros H. unfold ibind. destruct (m w) as [w' [a|]]; [discriminate | reflexivity]. Qed.
  Lemma run_attr_create A S G k v : A k = None -> attr_create k v (on (mkH5 A S G)) = (on (mkH5 (put A k v) S G), Val tt).
  Proof. intros H. unfold attr_create. rewrite run_on. unfold fresh_name. cbn [x_attrs x_sets x_groups]. now rewrite H. Qed.
  Lemma run_attr_scalar A S G k v : A k = None -> attr_scalar k v (on (mkH5 A S G)) = (on (mkH5 (put (put A k (INat 0)) k v) S G), Val tt).
  Proof.
    intros H. unfold attr_scalar. rewrite (run_bind _ _ _ _ _ (run_attr_create A S G k _ H)). unfold attr_write. rewrite run_on.
    cbn [x_attrs x_sets x_groups]. rewrite put_same. reflexivity.
  Qed.
  (** The attributes of a new file of type [ty], and the file with groups [G]. *)
  Definition typed (ty : N) : @names F := put (put no_names "hdf5_up4_type" (INat 0)) "hdf5_up4_type" (INat ty).
  Definition shell (ty : N) (G : string -> option names) : h5 F := mkH5 (typed ty) no_names G.
  Lemma new_run ty d : new_file ty (mkWorld d None) = (on (shell ty (fun _ => None)), Val tt).
  Proof. reflexivity. Qed.
  Lemma header_run ty G h : G "time array" = None -> exists f', header_io as_u64 h (on (shell ty G)) = (on f', Val tt) /\
    x_attrs f' "hdf5_up4_type" = Some (INat ty) /\ h5_header f' = Val (with_rate h) /\ x_groups f' = G.
  Proof.
    intros Gr. destruct h as [[d0 d1] np nt rate [ta tb] [[[[v0 v1] v2] [[v3_ v4] v5]] [[v6 v7] v8]] [[m0 m1] m2] times].
    eexists. split.
    - unfold header_io, shell.
      repeat (erewrite run_bind; [|first [apply run_attr_create; reflexivity | apply run_attr_scalar; reflexivity]]).
      unfold root_set. rewrite run_on. cbn [x_groups x_sets]. unfold fresh_name. rewrite Gr. cbn [no_names bind]. reflexivity.
    - repeat split; reflexivity.
  Qed.
  (** A group more. *)
  Lemma group_run ty G k : G k = None -> group_create k (on (shell ty G)) = (on (shell ty (put G k no_names)), Val tt).
  Proof. intros H. unfold group_create, shell. rewrite run_on. cbn [x_groups x_sets]. unfold fresh_name. rewrite H. reflexivity. Qed.
  Lemma set_run ty G g m k v : m k = None -> G g = Some m ->
    set_create g k v (on (shell ty G)) = (on (shell ty (put G g (put m k v))), Val tt).
  Proof. intros H1 H2. unfold set_create, shell. rewrite run_on. cbn [x_groups]. rewrite H2. cbn [unwrap bind]. unfold fresh_name. rewrite H1. reflexivity. Qed.
  Lemma set_write_run ty G g m k v o : m k = Some o -> G g = Some m ->
    set_write g k v (on (shell ty G)) = (on (shell ty (put G g (put m k v))), Val tt).
  Proof. intros H1 H2. unfold set_write, shell. rewrite run_on. cbn [x_groups]. rewrite H2. cbn [unwrap bind]. rewrite H1. reflexivity. Qed.
  (** [G'] has the group [g] with the datasets [m], the rest as in [G]. *)
  Definition grown (G G' : string -> option names) (g : string) (m : @names F) : Prop := G' g = Some m /\ forall k, g <> k -> G' k = G k.
  Lemma grown_put G g m : grown G (put G g m) g m.
  Proof. split; [apply put_same|]. intros. now apply put_other. Qed.
  Lemma grown_set ty G0 G g m k v : grown G0 G g m -> m k = None -> exists G', set_create g k v (on (shell ty G)) = (on (shell ty G'), Val tt) /\ grown G0 G' g (put m k v).
  Proof.
    intros [H1 H2] Hk. exists (put G g (put m k v)). split; [apply set_run; assumption|]. split; [apply put_same|]. intros k' Hk'. rewrite put_other by assumption. auto.
  Qed.
  Lemma grown_set_write ty G0 G g m k v o : grown G0 G g m -> m k = Some o -> exists G', set_write g k v (on (shell ty G)) = (on (shell ty G'), Val tt) /\ grown G0 G' g (put m k v).
  Proof.
    intros [H1 H2] Hk. exists (put G g (put m k v)). split; [eapply set_write_run; eassumption|]. split; [apply put_same|]. intros k' Hk'. rewrite put_other by assumption. auto.
  Qed.
  (** The datasets of a particle, as the reader sees them. *)
  Definition p_view (m : @names F) : pgroup F :=
    mkPg (as_rows (m "position")) (as_rows (m "velocity")) (as_vec (m "radius")) (as_vec (m "particletype")) (as_vec (m "density")) (as_vec (m "time")) (as_vec (m "id")).
  Definition t_view (m : @names F) : tgroup F :=
    mkTg (as_rows (m "position")) (as_rows (m "velocity")) (as_vec (m "radius")) (as_vec (m "density")) (as_vec (m "ppcloud")) (as_num (m "time")) (as_vec (m "particletype")) (as_vec (m "id")).
  Ltac grow := repeat match goal with
      | H : grown ?G ?G1 ?g ?m |- context [ibind (set_create ?g ?k ?v) _ (mkWorld (Some (shell ?ty ?G1)) None)] =>
        let E := fresh in let Gr' := fresh in let G' := fresh in
        destruct (grown_set ty G G1 g m k v H eq_refl) as [G' [E Gr']]; rewrite (run_bind _ _ _ _ _ E); clear E H
      | H : grown ?G ?G1 ?g ?m |- context [ibind (set_write ?g ?k ?v) _ (mkWorld (Some (shell ?ty ?G1)) None)] =>
        let E := fresh in let Gr' := fresh in let G' := fresh in
        destruct (grown_set_write ty G G1 g m k v _ H eq_refl) as [G' [E Gr']]; rewrite (run_bind _ _ _ _ _ E); clear E H
      | H : grown ?G ?G1 ?g ?m |- context [set_create ?g ?k ?v (mkWorld (Some (shell ?ty ?G1)) None)] =>
        let E := fresh in let Gr' := fresh in let G' := fresh in
        destruct (grown_set ty G G1 g m k v H eq_refl) as [G' [E Gr']]; rewrite E; clear E H
      end.
  Lemma particle_run ty G g tm ids r c tn tl v p : In tn ["particletype"; "particleid"] ->
    exists G' m, particle_io g tm ids r c (tn, tl) v p (on (shell ty (put G g no_names))) = (on (shell ty G'), Val tt) /\ grown G G' g m /\
      p_view m = mkPg (Some p) (Some v) (Some r) (if String.eqb tn "particletype" then Some tl else None) None (Some tm) (Some ids).
  Proof.
    intros Ht. pose proof (grown_put G g no_names) as Gr. unfold particle_io. cbn [fst snd].
    cbn in Ht. destruct Ht as [<-|[<-|[]]].
    all: grow.
    all: eexists; eexists; split; [reflexivity|]; split; [eassumption | reflexivity].
  Qed.

  Lemma run_lift {A B} (r : res A) (k : A -> @io F B) w : ibind (lift r) k w = match r with Val a => k a w | Panic => (w, Panic) end.
  Proof. unfold ibind, lift. now destruct r. Qed.

  Lemma header_counts a np nt rate time times :
    h_nparticles (mk_header (F := F) a np nt rate time times) = np /\ h_timesteps (mk_header a np nt rate time times) = nt.
  Proof. unfold mk_header. repeat match goal with |- context [let '(_, _) := ?x in _] => destruct x end. now split. Qed.

  (** *** One particle *)
  Section Fit.
    Context (fit : list F -> list F -> N -> option (list F)) (powf : F -> F -> F).
    Lemma csv_split bld data columns vel interp radius steps :
      csv_converter fit powf bld data columns vel interp radius steps =
      let! data := csv_prep fit powf data columns vel interp steps in
      let! (w, keep) := csv_lines bld data in
      let n := vlen data in
      let times := firstn (N.to_nat keep) (w_time w) in
      let g := mkPg (Some (firstn (N.to_nat keep) (w_pos w))) (Some (firstn (N.to_nat keep) (w_vel w)))
                 (Some (repeat radius (N.to_nat n))) (Some (repeat n1 (N.to_nat n))) None
                 (Some times) (Some (repeat n1 (N.to_nat n))) in
      Val (mkPf (fun i => if (i =? 0)%N then Some g else None) 1 (vlen times),
           mk_header (w_acc w) 1 (vlen times) (w_rate w) (n0, w_tmax w) times).
    Proof.
      unfold csv_converter, csv_prep, csv_lines. destruct (vlen columns =? 0)%N; [reflexivity|].
      destruct (pick 7 columns data) as [d1|]; [|reflexivity]. cbn [bind].
      destruct (column d1 0) as [tm|]; [|reflexivity]. cbn [bind].
      destruct (if is_sorted tm then _ else _) as [d2|]; [|reflexivity]. cbn [bind].
      destruct (if interp then _ else _) as [d3|]; [|reflexivity]. cbn [bind].
      destruct (if vel then _ else _) as [d4|]; [|reflexivity]. cbn [bind].
      destruct (cell d4 0 6) as [v|]; [|reflexivity]. cbn [bind]. destruct (nisnan v); [reflexivity|].
      destruct (mfold _ _ _) as [w|]; [|reflexivity]. cbn [bind]. now destruct (usub bld _ _).
    Qed.
    Theorem c127_csv bld data columns vel interp radius steps before :
      let r := csv_prog as_u64 fit powf bld true (Val data) columns vel interp radius steps (mkWorld before None) in
      match csv_converter fit powf bld data columns vel interp radius steps with
      | Val (pf, h) => exists f, r = (mkWorld (Some f) None, Val tt) /\ p_layout f pf h
      | Panic => snd r = Panic
      end.
    Proof.
      cbv zeta. rewrite csv_split. unfold csv_prog. cbn [negb].
      rewrite (run_bind _ _ _ _ _ (new_run 2 before)), run_lift, run_lift.
      destruct (csv_prep _ _ _ _ _ _ _) as [d|]; [|reflexivity]. cbn [bind].
      rewrite (run_bind _ _ _ _ _ (group_run 2 _ (numbered "particle" 0) eq_refl)), run_lift.
      destruct (csv_lines bld d) as [[w keep]|]; [|reflexivity]. cbn [bind]. cbv zeta.
      match goal with |- context [particle_io ?g ?tm ?ids ?r ?c (?tn, ?tl) ?v ?p] =>
        destruct (particle_run 2 (fun _ => None) g tm ids r c tn tl v p) as [G' [m [E [[G1 G2] Vw]]]] end.
      { now left. }
      rewrite (run_bind _ _ _ _ _ E).
      match goal with |- context [header_io as_u64 ?h] => destruct (header_run 2 G' h) as [f' [E' [Ty [Hd Gf]]]] end.
      { rewrite G2; [reflexivity|]. apply particle_not_times. }
      exists f'. split; [exact E'|]. split; [exact Ty|]. split; [exact Hd|]. split; [|split; symmetry; apply header_counts].
      intros i. unfold h5_pfile. cbn [pf_group]. rewrite Gf. destruct (N.eqb_spec i 0) as [->|Ni].
      - rewrite G1. f_equal. exact Vw.
      - rewrite G2; [reflexivity|]. intros H. apply numbered_inj in H. congruence.
    Qed.
    (** *** Several particles *)
    Definition p_inv (m : @mstate F) (G : string -> option names) : Prop :=
      (forall i, option_map p_view (G (numbered "particle" i)) = nth_error (m_groups m) (N.to_nat i)) /\ G "time array" = None.
    Lemma p_inv_next m G g m' nm c :
      p_inv m G -> m_groups m' = m_groups m ++ [c] -> g = numbered "particle" (vlen (m_groups m)) ->
      forall G', grown G G' g nm -> p_view nm = c -> p_inv m' G'.
    Proof.
      intros [I T] Em -> G' [H1 H2] V. split.
      - intros i. rewrite Em. destruct (N.eq_dec i (vlen (m_groups m))) as [->|Ni].
        + rewrite H1. cbn [option_map]. unfold vlen. rewrite Nat2N.id, nth_error_app2, Nat.sub_diag by lia. cbn. now rewrite V.
        + rewrite H2, I by (intros H; apply numbered_inj in H; congruence). unfold vlen in Ni.
          destruct (Nat.lt_ge_cases (N.to_nat i) (List.length (m_groups m))).
          * now rewrite nth_error_app1.
          * rewrite (proj2 (nth_error_None _ _)) by lia. symmetry. apply nth_error_None. rewrite app_length. cbn. lia.
      - rewrite H2; [exact T|]. apply particle_not_times.
    Qed.
    Lemma write_particle_group radius ids ty m p data m' : write_particle radius ids ty m (p, data) = Val m' ->
      exists pos vel tm, m_groups m' = m_groups m ++ [mkPg (Some pos) (Some vel) (Some (repeat radius (N.to_nat (vlen data))))
        (match ty with Some x => Some (repeat x (N.to_nat (vlen data))) | None => None end) None (Some tm) (Some (repeat (ids p) (N.to_nat (vlen data))))].
    Proof.
      unfold write_particle. intros H. apply bind_val in H as [v [_ H]]. destruct (nisnan v); [discriminate|].
      apply bind_val in H as [w [_ H]]. injection H as <-. cbn [m_groups]. eauto.
    Qed.
    Definition typing (ty : option F) (types : N -> string * list F) : Prop := forall n,
      In (fst (types n)) ["particletype"; "particleid"] /\
      (if String.eqb (fst (types n)) "particletype" then Some (snd (types n)) else None) = match ty with Some x => Some (repeat x (N.to_nat n)) | None => None end.
    Lemma multi_run radius ids ty types (Ht : typing ty types) l : forall p m G,
      p_inv m G -> vlen (m_groups m) = p ->
      let e := combine (map N.of_nat (seq (N.to_nat p) (List.length l))) l in
      match mfold (write_particle radius ids ty) e m with
      | Val m' => exists G', ifold (multi_io radius ids ty types) e m (mkWorld (Some (shell 2 G)) None) = (mkWorld (Some (shell 2 G')) None, Val m') /\ p_inv m' G'
      | Panic => snd (ifold (multi_io radius ids ty types) e m (mkWorld (Some (shell 2 G)) None)) = Panic
      end.
    Proof.
      induction l as [|data l IH]; intros p m G I Ep.
      - cbn. exists G. split; [reflexivity | exact I].
      - cbn [List.length seq map combine mfold ifold]. rewrite N2Nat.id.
        assert (Gn : G (numbered "particle" p) = None).
        { destruct I as [I _]. specialize (I p). rewrite (proj2 (nth_error_None _ _)) in I by (unfold vlen in Ep; lia).
          now destruct (G (numbered "particle" p)). }
        assert (St : match write_particle radius ids ty m (p, data) with
                     | Val m' => exists G', multi_io radius ids ty types m (p, data) (mkWorld (Some (shell 2 G)) None) = (mkWorld (Some (shell 2 G')) None, Val m') /\ p_inv m' G'
                     | Panic => snd (multi_io radius ids ty types m (p, data) (mkWorld (Some (shell 2 G)) None)) = Panic end).
        { unfold multi_io. rewrite (run_bind _ _ _ _ _ (group_run 2 G (numbered "particle" p) Gn)), run_lift.
          destruct (write_particle radius ids ty m (p, data)) as [m'|] eqn:Ew; [|reflexivity].
          destruct (write_particle_group _ _ _ _ _ _ _ Ew) as [pos [vel [tm Eg]]].
          rewrite Eg, last_last. cbn [pg_time pg_id pg_radius pg_velocity pg_position].
          destruct (Ht (vlen data)) as [Hi Hty]. destruct (types (vlen data)) as [tn tl]. cbn [fst snd] in *.
          destruct (particle_run 2 G (numbered "particle" p) tm (repeat (ids p) (N.to_nat (vlen data))) (repeat radius (N.to_nat (vlen data)))
             (repeat n1 (N.to_nat (vlen data))) tn tl vel pos Hi) as [G' [nm [E [Gr Vw]]]].
          rewrite (run_bind _ _ _ _ _ E). exists G'. split; [reflexivity|].
          eapply (p_inv_next m G (numbered "particle" p) m' nm); [exact I | exact Eg | now rewrite Ep | exact Gr | rewrite Vw, Hty; reflexivity]. }
        destruct (write_particle radius ids ty m (p, data)) as [m'|] eqn:Ew; cbn [bind].
        + destruct St as [G' [E I']]. rewrite (run_bind _ _ _ _ _ E).
          specialize (IH (p + 1)%N m' G' I'). replace (N.to_nat (p + 1)) with (S (N.to_nat p)) in IH by lia. apply IH.
          destruct (write_particle_group _ _ _ _ _ _ _ Ew) as [pos [vel [tm Eg]]]. rewrite Eg. unfold vlen in *. rewrite app_length. cbn. lia.
        + now apply run_panic.
    Qed.
    Lemma enum_seq {A} (l : list A) : enumerate l = combine (map N.of_nat (seq (N.to_nat 0) (List.length l))) l.
    Proof.
      unfold enumerate, range, vlen. do 2 f_equal.
      - rewrite N.sub_0_r, Nat2N.id. reflexivity.
    Qed.
    Lemma multi_prog_run radius ids ty types (Ht : typing ty types) l :
      let r := multi_prog as_u64 radius ids ty types l (mkWorld (Some (shell 2 (fun _ => None))) None) in
      match write_particles radius ids ty l with
      | Val (pf, h) => exists f, r = (mkWorld (Some f) None, Val tt) /\ p_layout f pf h
      | Panic => snd r = Panic
      end.
    Proof.
      cbv zeta. unfold multi_prog, write_particles.
      pose proof (multi_run radius ids ty types Ht l 0 (mkM acc0 [] 0 n0 n0 (zeros 100)) (fun _ => None)) as H.
      cbv zeta in H. rewrite <- enum_seq in H.
      destruct (mfold _ _ _) as [m'|]; cbn [bind].
      - destruct H as [G' [E [I T]]].
        { split; [|reflexivity]. intros i. cbn. symmetry. apply nth_error_None. cbn. lia. }
        { reflexivity. }
        rewrite (run_bind _ _ _ _ _ E). destruct (header_run 2 G' (mk_header (m_acc m') 1 (m_steps m') (m_rate m') (n0, m_tmax m') (m_times m')) T) as [f' [E' [Ty [Hd Gf]]]].
        exists f'. split; [exact E'|]. split; [exact Ty|]. split; [exact Hd|]. split; [|split; symmetry; apply header_counts].
        intros i. unfold h5_pfile. cbn [pf_group]. rewrite Gf, <- I. reflexivity.
      - apply run_panic. apply H; [|reflexivity]. split; [|reflexivity]. intros i. cbn. symmetry. apply nth_error_None. cbn. lia.
    Qed.
    Theorem c127_csv_multi data columns vel interp radius mode before :
      let r := csv_multi_prog as_u64 fit powf true (Val data) columns vel interp radius mode (mkWorld before None) in
      match csv_multi_converter fit powf data columns vel interp radius mode with
      | Val (Some (pf, h)) => exists f, r = (mkWorld (Some f) None, Val tt) /\ p_layout f pf h
      | Val None => r = (mkWorld before None, Val tt)
      | Panic => snd r = Panic
      end.
    Proof.
      cbv zeta. unfold csv_multi_prog, csv_multi_converter. cbn [negb].
      destruct (String.eqb mode "chain"); [|destruct (String.eqb mode "id_line"); [|reflexivity]].
      - unfold chain_prog. rewrite (run_bind _ _ _ _ _ (new_run 2 before)), run_lift, run_lift.
        pose proof (multi_prog_run radius (fun _ => n1) None (fun n => ("particleid", repeat n1 (N.to_nat n)))) as H.
        assert (Ht : typing None (fun n => ("particleid", repeat n1 (N.to_nat n)))).
        { intros n. split; [cbn; auto | reflexivity]. }
        specialize (H Ht). cbv zeta in H.
        unfold csv_multi_chain, chain_parts. destruct (vlen columns =? 0)%N; [reflexivity|].
        destruct (pick 7 columns data) as [d|]; [|reflexivity]. cbn [bind].
        destruct (column d 0) as [tm|]; [|reflexivity]. cbn [bind]. destruct (chain_scan tm) as [[starts dur] n].
        destruct (mmap _ _) as [parts|]; [|reflexivity]. cbn [bind]. specialize (H (concat parts)).
        destruct (write_particles radius (fun _ => n1) None (concat parts)) as [[pf h]|]; exact H.
      - unfold idline_prog, csv_multi_idline. destruct (negb _); [reflexivity|].
        rewrite (run_bind _ _ _ _ _ (new_run 2 before)), run_lift, run_lift.
        pose proof (multi_prog_run radius nofN (Some n0) (fun n => ("particletype", repeat n0 (N.to_nat n)))) as H.
        assert (Ht : typing (Some n0) (fun n => ("particletype", repeat n0 (N.to_nat n)))).
        { intros n. split; [cbn; auto | reflexivity]. }
        specialize (H Ht). cbv zeta in H.
        unfold idline_parts. destruct (pick 8 columns data) as [d|]; [|reflexivity]. cbn [bind].
        destruct (sort_by_id d) as [[[parts mt] ms]|]; [|reflexivity]. cbn [bind].
        destruct (mmap _ _) as [parts'|]; [|reflexivity]. cbn [bind]. specialize (H parts').
        destruct (write_particles radius nofN (Some n0) parts') as [[pf h]|]; exact H.
    Qed.
  End Fit.

  (** *** One file per timestep *)
  Definition t_inv (s : @tstate F) (G : string -> option names) : Prop :=
    (forall i, option_map t_view (G (numbered "timestep" i)) = nth_error (t_groups s) (N.to_nat i)) /\ G "time array" = None.
  Lemma t_inv_next s G g s' nm c :
    t_inv s G -> t_groups s' = t_groups s ++ [c] -> g = numbered "timestep" (vlen (t_groups s)) ->
    forall G', grown G G' g nm -> t_view nm = c -> t_inv s' G'.
  Proof.
    intros [I T] Em -> G' [H1 H2] V. split.
    - intros i. rewrite Em. destruct (N.eq_dec i (vlen (t_groups s))) as [->|Ni].
      + rewrite H1. cbn [option_map]. unfold vlen. rewrite Nat2N.id, nth_error_app2, Nat.sub_diag by lia. cbn. now rewrite V.
      + rewrite H2, I by (intros H; apply numbered_inj in H; congruence). unfold vlen in Ni.
        destruct (Nat.lt_ge_cases (N.to_nat i) (List.length (t_groups s))).
        * now rewrite nth_error_app1.
        * rewrite (proj2 (nth_error_None _ _)) by lia. symmetry. apply nth_error_None. rewrite app_length. cbn. lia.
    - rewrite H2; [exact T|]. apply timestep_not_times.
  Qed.
  (** Any program that writes one group per file. *)
  Section Steps.
    Context {A B : Type} (pure : @tstate F -> N * A -> res (@tstate F)) (prog : @tstate F -> N * B -> @io F (@tstate F)) (into : A -> B).
    Context (step : forall s k a G, t_inv s G -> vlen (t_groups s) = k -> G (numbered "timestep" k) = None ->
      match pure s (k, a) with
      | Val s' => exists G', prog s (k, into a) (mkWorld (Some (shell 1 G)) None) = (mkWorld (Some (shell 1 G')) None, Val s') /\ t_inv s' G' /\ vlen (t_groups s') = (k + 1)%N
      | Panic => snd (prog s (k, into a) (mkWorld (Some (shell 1 G)) None)) = Panic
      end).
    Lemma steps_fold l : forall k s G, t_inv s G -> vlen (t_groups s) = k ->
      let ix := map N.of_nat (seq (N.to_nat k) (List.length l)) in
      match mfold pure (combine ix l) s with
      | Val s' => exists G', ifold prog (combine ix (map into l)) s (mkWorld (Some (shell 1 G)) None) = (mkWorld (Some (shell 1 G')) None, Val s') /\ t_inv s' G'
      | Panic => snd (ifold prog (combine ix (map into l)) s (mkWorld (Some (shell 1 G)) None)) = Panic
      end.
    Proof.
      induction l as [|a l IH]; intros k s G I Ek.
      - cbn. exists G. split; [reflexivity | exact I].
      - cbn [List.length seq map combine mfold ifold]. rewrite N2Nat.id.
        assert (Gn : G (numbered "timestep" k) = None).
        { destruct I as [I _]. specialize (I k). rewrite (proj2 (nth_error_None _ _)) in I by (unfold vlen in Ek; lia).
          now destruct (G (numbered "timestep" k)). }
        pose proof (step s k a G I Ek Gn) as St. destruct (pure s (k, a)) as [s'|]; cbn [bind].
        + destruct St as [G' [E [I' L']]]. rewrite (run_bind _ _ _ _ _ E).
          specialize (IH (k + 1)%N s' G' I' L'). replace (N.to_nat (k + 1)) with (S (N.to_nat k)) in IH by lia. exact IH.
        + now apply run_panic.
    Qed.
    Lemma steps_run l n :
      let r := ibind (ifold prog (enumerate (map into l)) (mkT acc0 [] 0 (n0, n0) [] n0 n0)) (fun s => finish_io as_u64 s n) (mkWorld (Some (shell 1 (fun _ => None))) None) in
      match mfold pure (enumerate l) (mkT acc0 [] 0 (n0, n0) [] n0 n0) with
      | Val s => exists f, r = (mkWorld (Some f) None, Val tt) /\ t_layout f (fst (finish s n)) (snd (finish s n))
      | Panic => snd r = Panic
      end.
    Proof.
      cbv zeta. pose proof (steps_fold l 0 (mkT acc0 [] 0 (n0, n0) [] n0 n0) (fun _ => None)) as H.
      cbv zeta in H. rewrite !enum_seq, map_length.
      destruct (mfold _ _ _) as [s'|].
      - destruct H as [G' [E [I T]]].
        { split; [|reflexivity]. intros i. cbn. symmetry. apply nth_error_None. cbn. lia. }
        { reflexivity. }
        rewrite (run_bind _ _ _ _ _ E). unfold finish_io. destruct (header_run 1 G' (snd (finish s' n)) T) as [f' [E' [Ty [Hd Gf]]]].
        exists f'. split; [exact E'|]. split; [exact Ty|]. split; [exact Hd|]. split; [|split; symmetry; apply header_counts].
        intros i. unfold h5_tfile. cbn [tf_group]. rewrite Gf. cbn [finish fst tf_group]. rewrite <- I. reflexivity.
      - apply run_panic. apply H; [|reflexivity]. split; [|reflexivity]. intros i. cbn. symmetry. apply nth_error_None. cbn. lia.
    Qed.
  End Steps.
  Lemma vtk_file_run cfg dt s k f G : t_inv s G -> vlen (t_groups s) = k -> G (numbered "timestep" k) = None ->
    match vtk_file cfg dt s (k, f) with
    | Val s' => exists G', vtk_file_io cfg dt s (k, Some f) (mkWorld (Some (shell 1 G)) None) = (mkWorld (Some (shell 1 G')) None, Val s') /\ t_inv s' G' /\ vlen (t_groups s') = (k + 1)%N
    | Panic => snd (vtk_file_io cfg dt s (k, Some f) (mkWorld (Some (shell 1 G)) None)) = Panic
    end.
  Proof.
    intros I Ek Gn. unfold vtk_file_io, vtk_file. rewrite (run_bind _ _ _ _ _ (group_run 1 G (numbered "timestep" k) Gn)), run_lift.
    cbn [unwrap]. destruct (nltb _ _); [reflexivity|]. rewrite (run_bind (ret tt) _ _ _ _ eq_refl).
    pose proof (grown_put G (numbered "timestep" k) no_names) as Gr. grow. rewrite run_lift.
    destruct (unwrap (c_id cfg)) as [name|]; [|reflexivity]. cbn [bind].
    destruct (vf_u64 f name) as [ids0|]; [|reflexivity]. cbn [bind].
    destruct (make_sortlist ids0) as [sl|]; [|reflexivity]. cbn [bind].
    destruct (sort_by_array ids0 sl) as [ids|]; [|reflexivity]. cbn [bind].
    destruct (vlen ids =? 0)%N; [reflexivity|]. grow. rewrite run_lift.
    match goal with |- match bind ?x _ with _ => _ end => destruct x as [radius|]; [|reflexivity] end.
    cbn [bind]. grow. rewrite run_lift.
    match goal with |- match bind ?x _ with _ => _ end => destruct x as [ty|]; [|reflexivity] end.
    cbn [bind]. grow. rewrite run_lift.
    destruct (unwrap (c_velocity cfg)) as [vname|]; [|reflexivity]. cbn [bind].
    destruct (vf_f64 f vname) as [vel0|]; [|reflexivity]. cbn [bind].
    destruct (sort_by_array vel0 sl) as [vel1|]; [|reflexivity]. cbn [bind].
    destruct (rows3 vel1) as [vel|]; [|reflexivity]. cbn [bind]. grow. rewrite run_lift.
    destruct (vf_positions f) as [pos0|]; [|reflexivity]. cbn [bind].
    destruct (sort_by_array pos0 sl) as [pos1|]; [|reflexivity]. cbn [bind].
    destruct (rows3 pos1) as [pos|]; [|reflexivity]. cbn [bind]. grow.
    match goal with H : grown G ?G' _ ?nm |- _ => exists G'; split; [reflexivity|]; split;
      [eapply (t_inv_next s G (numbered "timestep" k) _ nm); [exact I | reflexivity | now rewrite Ek | exact H | reflexivity]|] end.
    cbn [t_groups]. unfold vlen in *. rewrite app_length. cbn. lia.
  Qed.
  Theorem c127_vtk cfg files dt before :
    let r := vtk_prog as_u64 cfg (map Some files) dt (mkWorld before None) in
    match vtk_converter cfg files dt with
    | Val (tf, h) => exists f, r = (mkWorld (Some f) None, Val tt) /\ t_layout f tf h
    | Panic => snd r = Panic
    end.
  Proof.
    cbv zeta. unfold vtk_prog, vtk_converter. replace (vlen (map Some files)) with (vlen files) by (unfold vlen; now rewrite map_length).
    destruct (vlen files =? 0)%N; [reflexivity|]. rewrite (run_bind _ _ _ _ _ (new_run 1 before)).
    pose proof (steps_run (vtk_file cfg dt) (vtk_file_io cfg dt) Some (vtk_file_run cfg dt) files (vlen files)) as H. cbv zeta in H.
    destruct (mfold _ _ _) as [s|]; exact H.
  Qed.
  (** A file whose name the filter does not match. *)
  Theorem c127_vtk_misfit cfg files dt (w : world F) : In None files -> snd (vtk_prog as_u64 cfg files dt w) = Panic.
  Proof.
    intros Hin. unfold vtk_prog. destruct (_ =? 0)%N; [reflexivity|].
    assert (Hb : forall A B (m : @io F A) (k : A -> io B), (forall a w, snd (k a w) = Panic) -> forall w, snd (ibind m k w) = Panic).
    { intros A B m k H w0. unfold ibind. destruct (m w0) as [w' [a|]]; [apply H | reflexivity]. }
    apply Hb. intros _ w1. apply run_panic. unfold enumerate.
    assert (G : forall l ix s w, In None l -> (List.length l <= List.length ix)%nat -> snd (ifold (vtk_file_io cfg dt) (combine ix l) s w) = Panic).
    { induction l as [|o l IH]; intros ix s w0 [] L; (destruct ix as [|i ix]; cbn in L; [lia|]); cbn [combine ifold].
      - subst o. apply run_panic. unfold vtk_file_io. apply Hb. intros _ w2. reflexivity.
      - apply Hb. intros s' w2. apply IH; [assumption | lia]. }
    apply G; [exact Hin|]. rewrite range_length. unfold vlen. lia.
  Qed.
  Lemma step_file_run times columns s k data G : t_inv s G -> vlen (t_groups s) = k -> G (numbered "timestep" k) = None ->
    match csv_step_file times columns s (k, data) with
    | Val s' => exists G', step_file_io times columns s (k, Val data) (mkWorld (Some (shell 1 G)) None) = (mkWorld (Some (shell 1 G')) None, Val s') /\ t_inv s' G' /\ vlen (t_groups s') = (k + 1)%N
    | Panic => snd (step_file_io times columns s (k, Val data) (mkWorld (Some (shell 1 G)) None)) = Panic
    end.
  Proof.
    intros I Ek Gn. unfold step_file_io, csv_step_file. rewrite (run_bind _ _ _ _ _ (group_run 1 G (numbered "timestep" k) Gn)), run_lift.
    destruct (vget times k) as [t|]; [|reflexivity]. cbn [bind]. cbv zeta.
    pose proof (grown_put G (numbered "timestep" k) no_names) as Gr. grow. rewrite !run_lift.
    destruct (pick 7 columns data) as [rows|]; [|reflexivity]. cbn [bind].
    destruct (column rows 0) as [ids|]; [|reflexivity]. cbn [bind].
    destruct (mmap _ rows) as [pos|]; [|reflexivity]. cbn [bind].
    destruct (mmap _ rows) as [vel|]; [|reflexivity]. cbn [bind]. grow.
    match goal with H : grown G ?G' _ ?nm |- _ => exists G'; split; [reflexivity|]; split;
      [eapply (t_inv_next s G (numbered "timestep" k) _ nm); [exact I | reflexivity | now rewrite Ek | exact H | reflexivity]|] end.
    cbn [t_groups]. unfold vlen in *. rewrite app_length. cbn. lia.
  Qed.
  Theorem c127_csv_steps files columns times before :
    let r := step_prog as_u64 (map Val files) columns times (mkWorld before None) in
    match csv_multi_file_time_step files columns times with
    | Val (tf, h) => exists f, r = (mkWorld (Some f) None, Val tt) /\ t_layout f tf h
    | Panic => snd r = Panic
    end.
  Proof.
    cbv zeta. unfold step_prog, csv_multi_file_time_step. replace (vlen (map Val files)) with (vlen files) by (unfold vlen; now rewrite map_length).
    destruct (negb _); [reflexivity|]. rewrite (run_bind _ _ _ _ _ (new_run 1 before)).
    pose proof (steps_run (csv_step_file times columns) (step_file_io times columns) Val (step_file_run times columns) files (vlen files)) as H. cbv zeta in H.
    destruct (mfold _ _ _) as [s|]; exact H.
  Qed.

  (** The two together: opening the output of a finished conversion gives what the converter computed. *)
  Definition opens_p (f : option (h5 F)) (pf : pfile F) (h : header F) : Prop := forall bld,
    match dm_new bld (p_load pf) (pf_timesteps pf) with
    | Val d => exists p, open_data bld f = Val (with_rate h, OpenP p d) /\ (forall i, pf_group p i = pf_group pf i) /\
                 pf_nparticles p = pf_nparticles pf /\ pf_timesteps p = pf_timesteps pf
    | Panic => open_data bld f = Panic
    end.
  Definition opens_t (f : option (h5 F)) (tf : tfile F) (h : header F) : Prop := forall bld,
    match dm_new bld (t_load tf) (tf_timesteps tf) with
    | Val d => exists t, open_data bld f = Val (with_rate h, OpenT t d) /\ (forall i, tf_group t i = tf_group tf i) /\
                 tf_nparticles t = tf_nparticles tf /\ tf_timesteps t = tf_timesteps tf
    | Panic => open_data bld f = Panic
    end.
  Lemma layout_opens_p f pf h : p_layout f pf h -> opens_p (Some f) pf h.
  Proof.
    intros L bld. pose proof (c127_open_p bld f pf h L) as H. destruct (dm_new _ _ _) as [d|]; [|exact H].
    destruct H as [p [H1 [_ [H2 [H3 [H4 _]]]]]]. exists p. auto.
  Qed.
  Lemma layout_opens_t f tf h : t_layout f tf h -> opens_t (Some f) tf h.
  Proof.
    intros L bld. pose proof (c127_open_t bld f tf h L) as H. destruct (dm_new _ _ _) as [d|]; [|exact H].
    destruct H as [p [H1 [_ [H2 [H3 [H4 _]]]]]]. exists p. auto.
  Qed.
  Theorem c127_csv_opens fit powf bld data columns vel interp radius steps before :
    let r := csv_prog as_u64 fit powf bld true (Val data) columns vel interp radius steps (mkWorld before None) in
    match csv_converter fit powf bld data columns vel interp radius steps with
    | Val (pf, h) => snd r = Val tt /\ opens_p (w_disk (fst r)) pf h
    | Panic => snd r = Panic
    end.
  Proof.
    cbv zeta. pose proof (c127_csv fit powf bld data columns vel interp radius steps before) as H. cbv zeta in H.
    destruct (csv_converter _ _ _ _ _ _ _ _ _) as [[pf h]|]; [|exact H]. destruct H as [f [-> L]]. split; [reflexivity | now apply layout_opens_p].
  Qed.
  Theorem c127_csv_multi_opens fit powf data columns vel interp radius mode before :
    let r := csv_multi_prog as_u64 fit powf true (Val data) columns vel interp radius mode (mkWorld before None) in
    match csv_multi_converter fit powf data columns vel interp radius mode with
    | Val (Some (pf, h)) => snd r = Val tt /\ opens_p (w_disk (fst r)) pf h
    | Val None => snd r = Val tt /\ w_disk (fst r) = before
    | Panic => snd r = Panic
    end.
  Proof.
    cbv zeta. pose proof (c127_csv_multi fit powf data columns vel interp radius mode before) as H. cbv zeta in H.
    destruct (csv_multi_converter _ _ _ _ _ _ _ _) as [[[pf h]|]|]; [|now rewrite H|exact H]. destruct H as [f [-> L]]. split; [reflexivity | now apply layout_opens_p].
  Qed.
  Theorem c127_vtk_opens cfg files dt before :
    let r := vtk_prog as_u64 cfg (map Some files) dt (mkWorld before None) in
    match vtk_converter cfg files dt with
    | Val (tf, h) => snd r = Val tt /\ opens_t (w_disk (fst r)) tf h
    | Panic => snd r = Panic
    end.
  Proof.
    cbv zeta. pose proof (c127_vtk cfg files dt before) as H. cbv zeta in H.
    destruct (vtk_converter _ _ _) as [[tf h]|]; [|exact H]. destruct H as [f [-> L]]. split; [reflexivity | now apply layout_opens_t].
  Qed.
  Theorem c127_csv_steps_opens files columns times before :
    let r := step_prog as_u64 (map Val files) columns times (mkWorld before None) in
    match csv_multi_file_time_step files columns times with
    | Val (tf, h) => snd r = Val tt /\ opens_t (w_disk (fst r)) tf h
    | Panic => snd r = Panic
    end.
  Proof.
    cbv zeta. pose proof (c127_csv_steps files columns times before) as H. cbv zeta in H.
    destruct (csv_multi_file_time_step _ _ _) as [[tf h]|]; [|exact H]. destruct H as [f [-> L]]. split; [reflexivity | now apply layout_opens_t].
  Qed.

  (** ** C128 *)

  (** The program does not look at the file that was there. *)
  Definition blind {A} (m : @io F A) : Prop :=
    (exists r, forall w, m w = (w, r)) \/ (forall d d', m (mkWorld d None) = m (mkWorld d' None)).
  Lemma blind_again {A} (m : @io F A) before n : blind m ->
    m (mkWorld (w_disk (fst (m (mkWorld before (Some n))))) None) = m (mkWorld before None).
  Proof. intros [[r H]|H]; [rewrite (H (mkWorld before (Some n))); reflexivity | apply H]. Qed.
  Lemma blind_new ty {A} (k : @io F A) : blind (ibind (new_file ty) (fun _ => k)).
  Proof. right. intros d d'. unfold ibind. now rewrite !new_run. Qed.
  Lemma blind_lift {A} (r : res A) : blind (lift r). Proof. left. now exists r. Qed.
  (** A conversion repeated after an attempt that was interrupted anywhere does exactly what it would
      have done without that attempt. *)
  Theorem c128_csv fit powf bld found read columns vel interp radius steps before n :
    let prog := csv_prog as_u64 fit powf bld found read columns vel interp radius steps in
    prog (mkWorld (w_disk (fst (prog (mkWorld before (Some n))))) None) = prog (mkWorld before None).
  Proof. apply blind_again. unfold csv_prog. destruct (negb found); [apply blind_lift | apply blind_new]. Qed.
  Theorem c128_csv_multi fit powf found read columns vel interp radius mode before n :
    let prog := csv_multi_prog as_u64 fit powf found read columns vel interp radius mode in
    prog (mkWorld (w_disk (fst (prog (mkWorld before (Some n))))) None) = prog (mkWorld before None).
  Proof.
    apply blind_again. unfold csv_multi_prog, chain_prog, idline_prog. destruct (negb found); [apply blind_lift|].
    destruct (String.eqb mode "chain"); [apply blind_new|]. destruct (String.eqb mode "id_line"); [|left; now exists (Val tt)].
    destruct (negb _); [apply blind_lift | apply blind_new].
  Qed.
  Theorem c128_vtk cfg files dt before n :
    let prog := vtk_prog as_u64 cfg files dt in
    prog (mkWorld (w_disk (fst (prog (mkWorld before (Some n))))) None) = prog (mkWorld before None).
  Proof. apply blind_again. unfold vtk_prog. destruct (_ =? 0)%N; [apply blind_lift | apply blind_new]. Qed.
  Theorem c128_csv_steps files columns times before n :
    let prog := step_prog as_u64 files columns times in
    prog (mkWorld (w_disk (fst (prog (mkWorld before (Some n))))) None) = prog (mkWorld before None).
  Proof. apply blind_again. unfold step_prog. destruct (negb _); [apply blind_lift | apply blind_new]. Qed.

  (** ** C129 (refuted) *)

  (** What was in the output file is lost with the first call: if the conversion then fails or is
      interrupted, nothing that can be opened is left. *)
  Definition wipes {A} (m : @io F A) : Prop := forall w, w_left w <> Some O -> snd (m w) = Panic -> unopenable (w_disk (fst (m w))).
  Lemma wipes_new ty {A} (k : @io F A) : keeps' k -> wipes (ibind (new_file ty) (fun _ => k)).
  Proof.
    intros Hk w Hn. assert (G : stored (fst (new_file ty w))).
    { unfold new_file, file_create, ibind, call.
      destruct (w_left w) as [[|n]|]; [congruence | |]; cbn [fst]; apply keeps_attr_scalar; now exists h5_empty. }
    unfold ibind. destruct (new_file ty w) as [w' [u|]]; cbn [fst snd] in *; intros E.
    - destruct (Hk w' G E) as [f [-> U]]. now apply untimed_unopenable.
    - destruct G as [f [-> U]]. now apply untimed_unopenable.
  Qed.
  Theorem c129_csv_refuted fit powf bld read columns vel interp radius steps (w : world F) :
    let r := csv_prog as_u64 fit powf bld true read columns vel interp radius steps w in
    w_left w <> Some O -> snd r = Panic -> unopenable (w_disk (fst r)).
  Proof.
    cbv zeta. revert w. unfold csv_prog. cbn [negb]. apply wipes_new.
    apply keeps'_bind; [apply keeps_lift|]. intros data. apply keeps'_bind; [apply keeps_lift|]. intros data'.
    apply keeps'_bind; [apply keeps_group|]. intros []. apply keeps'_bind; [apply keeps_lift|]. intros [s keep].
    apply keeps'_bind; [apply keeps_particle|]. intros []. apply keeps'_header.
  Qed.
  Theorem c129_vtk_refuted cfg files dt (w : world F) :
    let r := vtk_prog as_u64 cfg files dt w in
    files <> [] -> w_left w <> Some O -> snd r = Panic -> unopenable (w_disk (fst r)).
  Proof.
    cbv zeta. intros Hf. revert w. unfold vtk_prog. destruct (N.eqb_spec (vlen files) 0) as [E|_]; [destruct files; [congruence | discriminate]|].
    apply wipes_new. apply keeps'_bind; [|intros s; apply keeps'_header]. apply keeps_fold. intros s [k f]. unfold vtk_file_io.
    repeat first [apply keeps_ret | apply keeps_lift | apply keeps_group | apply keeps_set | apply keeps_set_write
                 | match goal with |- keeps (if ?b then _ else _) => destruct b end
                 | match goal with |- forall x : _ * _, _ => intros [? ?] | |- forall x, _ => intros ? end
                 | apply keeps_bind].
  Qed.
  (** In particular a CSV file that cannot be read, or one file name that the filter does not match,
      destroys the earlier output. *)
  Corollary c129_unreadable_refuted fit powf bld columns vel interp radius steps earlier :
    let r := csv_prog as_u64 fit powf bld true Panic columns vel interp radius steps (mkWorld earlier None) in
    snd r = Panic /\ unopenable (w_disk (fst r)).
  Proof.
    assert (P : snd (csv_prog as_u64 fit powf bld true Panic columns vel interp radius steps (mkWorld earlier None)) = Panic).
    { unfold csv_prog. cbn [negb]. rewrite (run_bind _ _ _ _ _ (new_run 2 earlier)). reflexivity. }
    split; [exact P|]. apply c129_csv_refuted; [discriminate | exact P].
  Qed.
  Corollary c129_misfit_refuted cfg files dt earlier : In None files ->
    let r := vtk_prog as_u64 cfg files dt (mkWorld earlier None) in
    snd r = Panic /\ unopenable (w_disk (fst r)).
  Proof.
    intros H. pose proof (c127_vtk_misfit cfg files dt (mkWorld earlier None) H) as P. split; [exact P|].
    apply c129_vtk_refuted; [intros ->; destruct H | discriminate | exact P].
  Qed.
End Any.

(** ** The theorems are used *)
From Verif Require Import PropertiesCsv ConvVtk ConvIdChain PropertiesMulti.

(** A conversion that is interrupted after five calls, one that finishes, and the file it leaves. *)
Definition ex_prog := csv_prog (F := f64) (fun x => x) no_fit (fun x _ => x) Debug true (Val ex_raw) ex_cols false false (nof 1) 9.
Example c126_used : snd (ex_prog (mkWorld None (Some 5%nat))) = Panic /\
  match w_disk (fst (ex_prog (mkWorld None (Some 5%nat)))) with Some f => match x_groups f (numbered "particle" 0) with Some _ => True | None => False end | None => False end.
Proof. split; vm_compute; [reflexivity | exact I]. Qed.
Example c127_used : (exists f, ex_prog (mkWorld None None) = (mkWorld (Some f) None, Val tt)) /\
  match w_disk (fst (ex_prog (mkWorld None None))) with
  | Some f => match open_data Debug (Some f) with Val (h, OpenP p d) => h_timesteps h = 3%N | _ => False end
  | None => False end.
Proof.
  split; [|vm_compute; reflexivity].
  pose proof (c127_csv (F := f64) (fun x => x) no_fit (fun x _ => x) Debug ex_raw ex_cols false false (nof 1) 9 None) as H. cbv zeta in H.
  destruct (csv_converter _ _ _ _ _ _ _ _ _) as [[pf h]|] eqn:E.
  - destruct H as [f [H _]]. now exists f.
  - exfalso. assert (S0 : match csv_converter no_fit (fun x _ => x) Debug ex_raw ex_cols false false (nof 1) 9 with Val _ => True | Panic => False end) by (vm_compute; exact I).
    now rewrite E in S0.
Qed.
Example c127_vtk_used : match vtk_converter ex_cfg ex_files (nof 1) with Val _ => True | Panic => False end /\
  snd (vtk_prog (F := f64) (fun x => x) ex_cfg (map Some ex_files) (nof 1) (mkWorld None None)) = Val tt.
Proof. vm_compute. now split. Qed.
Example c127_multi_used :
  snd (csv_multi_prog (F := f64) (fun x => x) no_fit (fun x _ => x) true (Val ex_chain) ex_seven false false (nof 1) "chain" (mkWorld None None)) = Val tt /\
  snd (csv_multi_prog (F := f64) (fun x => x) no_fit (fun x _ => x) true (Val (map row8 ex_l8)) ex_eight false false (nof 1) "id_line" (mkWorld None None)) = Val tt /\
  snd (step_prog (F := f64) (fun x => x) (map Val ex_step_files) ex_seven (map nof [1; 2]%Z) (mkWorld None None)) = Val tt.
Proof. vm_compute. auto. Qed.
(** An openable file, then a conversion that fails. *)
Example c129_used : exists earlier : h5 f64, (exists x, open_data Debug (Some earlier) = Val x) /\
  unopenable (w_disk (fst (csv_prog (F := f64) (fun x => x) no_fit (fun x _ => x) Debug true Panic ex_cols false false (nof 1) 9 (mkWorld (Some earlier) None)))).
Proof.
  destruct (w_disk (fst (ex_prog (mkWorld None None)))) as [f|] eqn:E.
  - exists f. split; [|apply c129_unreadable_refuted].
    assert (H : match w_disk (fst (ex_prog (mkWorld None None))) with Some f => match open_data Debug (Some f) with Val _ => True | Panic => False end | None => False end) by (vm_compute; exact I).
    rewrite E in H. destruct (open_data Debug (Some f)) as [x|]; [now exists x | destruct H].
  - exfalso. assert (H : match w_disk (fst (ex_prog (mkWorld None None))) with Some _ => True | None => False end) by (vm_compute; exact I).
    now rewrite E in H.
Qed.
