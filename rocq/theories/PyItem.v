(** * Properties C60, C61, C71: opening and indexing a data set from Python. *)
From Coq Require Import ZArith NArith List Bool Lia ZifyBool ZifyN ZifyNat.
From Flocq Require Import IEEE754.BinarySingleNaN.
From Verif Require Import Base BaseFacts Num NDArray DataModel DataSpec DataProofs DataLoad FunModel FunSpec FunProofs FunMgr
  PropertiesGrid PropertiesData GridModel SelModel PyModel.
Local Open Scope list_scope.
Local Ltac Zify.zify_post_hook ::= Z.div_mod_to_equations.

Lemma combine_snoc {A B} (l : list A) (l' : list B) a b : length l = length l' ->
  combine (l ++ [a]) (l' ++ [b]) = combine l l' ++ [(a, b)].
Proof. revert l'; induction l as [|x l IH]; intros [|y l'] H; try discriminate; cbn; [reflexivity|]. now rewrite IH by (cbn in H; lia). Qed.

(** ** Specification *)
Section Spec.
  Context {F : Type} {NF : Num F}.
  (** Python's index [i] of a sequence of length [n] denotes entry [t]. *)
  Definition picks (n : N) (i : Z) (t : N) : Prop :=
    (0 <= i < Z.of_N n /\ Z.of_N t = i)%Z \/ (- Z.of_N n <= i < 0 /\ Z.of_N t = Z.of_N n + i)%Z.
  (** [tbl] has one row [id, x, y, z, vx, vy, vz] for every particle of the timestep. *)
  Definition shown_as (x : timestep F) (tbl : list (list F)) : Prop :=
    vlen tbl = vlen (ts_pos x) /\
    forall i, (i < vlen (ts_pos x))%N -> exists id px py pz vx vy vz,
      at_ (ts_id x) i id /\ at_ (ts_pos x) i (px, py, pz) /\ at_ (ts_vel x) i (vx, vy, vz) /\
      at_ tbl i [id; px; py; pz; vx; vy; vz].
  (** ... filled up with zero rows to [np] rows. *)
  Definition padded (np : N) (x : timestep F) (blk : list (list F)) : Prop :=
    exists tbl, shown_as x tbl /\ blk = tbl ++ repeat (repeat n0 7) (N.to_nat np - length tbl).
  (** Python's reading of a slice bound for a positive step. *)
  Definition clamp (n : Z) (o : option Z) (default : Z) : Z :=
    match o with
    | None => default
    | Some i => if (i <? 0)%Z then Z.max 0 (n + i) else Z.min i n
    end.
End Spec.

Section Item.
  Context {F : Type} {NF : Num F} {TF : Trig F}.
  Variable M : mgr F.
  Notation nt := (st_timesteps (m_stats M)).
  Notation np := (st_nparticles (m_stats M)).

  Lemma as_usize_small z : (0 <= z < 2 ^ 64)%Z -> as_usize z = Z.to_N z.
  Proof. intros H. unfold as_usize. now rewrite Z.mod_small. Qed.

  Lemma table_ok (x : timestep F) : rect x -> exists tbl, py_table x = Val tbl /\ shown_as x tbl.
  Proof.
    intros [R1 [_ [_ [_ [R5 _]]]]].
    destruct (mmap_ok (py_row x) (fun i r => exists id px py pz vx vy vz,
      at_ (ts_id x) i id /\ at_ (ts_pos x) i (px, py, pz) /\ at_ (ts_vel x) i (vx, vy, vz) /\
      r = [id; px; py; pz; vx; vy; vz]) (range 0 (vlen (ts_pos x)))) as [tbl [E P]].
    - intros i Hi. apply in_range in Hi. destruct Hi as [_ Hi].
      destruct (lt_at (ts_id x) i) as [id Hid]; [unfold vlen in *; lia|].
      destruct (lt_at (ts_pos x) i) as [[[px py] pz] Hp]; [unfold vlen in *; lia|].
      destruct (lt_at (ts_vel x) i) as [[[vx vy] vz] Hv]; [unfold vlen in *; lia|].
      unfold py_row. rewrite (at_vget _ _ _ Hid), (at_vget _ _ _ Hp), (at_vget _ _ _ Hv). cbn [bind].
      eexists. split; [reflexivity|]. do 7 eexists. eauto.
    - exists tbl. split; [exact E|]. destruct (Forall2_range _ _ _ _ P) as [L H]. split; [rewrite L; lia|].
      intros i Hi. destruct H as [_ H]. destruct (H i ltac:(lia)) as [r [Hr Q]]. rewrite N.add_0_l in Q.
      destruct Q as [id [px [py [pz [vx [vy [vz [A [B [C D]]]]]]]]]]. subst r. do 7 eexists. eauto.
  Qed.

  Context (L : list (timestep F)).
  Hypothesis Rc : Forall rect L.
  Variable Inv : ms M -> Prop.
  Hypothesis Rd : forall d t x, Inv d -> at_ L t x -> exists d', m_get M d t = Val (d', x) /\ Inv d'.

  Lemma rect_at t x : at_ L t x -> rect x.
  Proof. intros H. rewrite Forall_forall in Rc. apply Rc. eapply nth_error_In; exact H. Qed.

  Lemma padded_nil (x : timestep F) : shown_as x [] -> padded np x (repeat zero_row (N.to_nat np)).
  Proof. intros H. exists []. split; [exact H|]. cbn. now rewrite Nat.sub_0_r. Qed.
  Lemma skipn_rep {A} (a : A) n k : skipn k (repeat a n) = repeat a (n - k).
  Proof. revert n; induction k as [|k IH]; intros [|n]; cbn; auto. Qed.
  Lemma write_ok out i (x : timestep F) rows : shown_as x rows -> (vlen (ts_pos x) <= np)%N ->
    at_ out i (repeat zero_row (N.to_nat np)) ->
    exists out' b, write_block out i rows = Val out' /\ vlen out' = vlen out /\ at_ out' i b /\ padded np x b /\
      forall j, j <> i -> nth_error out' (N.to_nat j) = nth_error out (N.to_nat j).
  Proof.
    intros Sh Hn Hi. destruct rows as [|r rows].
    - cbn [write_block]. exists out, (repeat zero_row (N.to_nat np)). split; [reflexivity|]. split; [reflexivity|].
      split; [exact Hi|]. split; [now apply padded_nil | reflexivity].
    - unfold write_block. rewrite (at_vget _ _ _ Hi). cbn [bind].
      assert (Lr : (vlen (r :: rows) <= np)%N) by (destruct Sh as [V _]; lia).
      unfold overwrite. rewrite repeat_length.
      destruct (Nat.leb_spec (length (r :: rows)) (N.to_nat np)); [|unfold vlen in Lr; lia]. cbn [bind].
      set (b := (r :: rows) ++ _). destruct (vset_ok out i b) as [out' E]; [now apply at_lt in Hi|].
      exists out', b. split; [exact E|]. destruct (vset_nth _ _ _ _ E) as [V [At Ot]].
      split; [unfold vlen; lia|]. split; [exact At|]. split.
      + exists (r :: rows). split; [exact Sh|]. unfold b. now rewrite skipn_rep.
      + intros j Hj. apply Ot. lia.
  Qed.

  Lemma blocks_ok (l : list N) : forall k d out,
    (forall t, In t l -> exists x, at_ L t x /\ (vlen (ts_pos x) <= np)%N) -> Inv d ->
    (forall j, (k <= j < k + vlen l)%N -> at_ out j (repeat zero_row (N.to_nat np))) ->
    exists d' out', mfold (fun st e =>
        let! r := m_get M (fst st) (snd e) in
        let! rows := py_table (snd r) in
        let! out := write_block (snd st) (fst e) rows in
        Val (fst r, out)) (combine (range k (k + vlen l)) l) (d, out) = Val (d', out') /\ Inv d' /\
      vlen out' = vlen out /\
      (forall j t x, at_ l j t -> at_ L t x -> exists b, at_ out' (k + j) b /\ padded np x b) /\
      (forall j, (j < k \/ k + vlen l <= j)%N -> nth_error out' (N.to_nat j) = nth_error out (N.to_nat j)).
  Proof.
    induction l as [|t l IH]; intros k d out Hl I Z.
    - replace (combine _ _) with (@nil (N * N)) by (now rewrite combine_nil).
      cbn [mfold]. exists d, out. repeat split; auto. intros j t x H. unfold at_ in H. now destruct (N.to_nat j).
    - assert (Vl : vlen (t :: l) = (vlen l + 1)%N) by (unfold vlen; cbn [length]; lia).
      rewrite Vl in *. rewrite (range_cons k) by lia. cbn [combine mfold fst snd].
      destruct (Hl t (or_introl eq_refl)) as [x [Hx Hp]]. destruct (Rd d t x I Hx) as [d1 [G I1]].
      rewrite G. cbn [bind fst snd]. destruct (table_ok x (rect_at t x Hx)) as [tbl [T Sh]]. rewrite T. cbn [bind].
      destruct (write_ok out k x tbl Sh Hp (Z k ltac:(lia))) as [out1 [b [W [V1 [B1 [P1 O1]]]]]]. rewrite W. cbn [bind fst snd].
      destruct (IH (k + 1)%N d1 out1) as [d2 [out2 [R [I2 [V2 [B2 O2]]]]]].
      + intros u Hu. apply Hl. now right.
      + exact I1.
      + intros j Hj. unfold at_. rewrite O1 by lia. apply Z. lia.
      + replace (k + 1 + vlen l)%N with (k + (vlen l + 1))%N in * by lia.
        exists d2, out2. split; [exact R|]. split; [exact I2|]. split; [lia|]. split.
        * intros j u y Hj Hy. destruct (N.eq_dec j 0) as [->|Nz].
          -- unfold at_ in Hj. cbn in Hj. injection Hj as <-.
             assert (y = x) by (unfold at_ in Hx, Hy; rewrite Hx in Hy; now injection Hy). subst y.
             exists b. split; [|exact P1]. unfold at_. rewrite O2 by lia. rewrite N.add_0_r. exact B1.
          -- destruct (B2 (j - 1)%N u y) as [c [Hc Pc]]; [|exact Hy|].
             ++ unfold at_ in *. replace (N.to_nat j) with (S (N.to_nat (j - 1))) in Hj by lia. exact Hj.
             ++ exists c. split; [|exact Pc]. replace (k + j)%N with (k + 1 + (j - 1))%N by lia. exact Hc.
        * intros j Hj. rewrite O2 by lia. apply O1. lia.
  Qed.

  Lemma py_blocks_ok (l : list N) d n :
    (forall t, In t l -> exists x, at_ L t x /\ (vlen (ts_pos x) <= np)%N) -> Inv d -> n = vlen l ->
    exists d' out', py_blocks M d (repeat (repeat zero_row (N.to_nat np)) (N.to_nat n)) l = Val (d', out') /\ Inv d' /\
      vlen out' = n /\ (forall j t x, at_ l j t -> at_ L t x -> exists b, at_ out' j b /\ padded np x b).
  Proof.
    intros Hl I ->. unfold py_blocks, enumerate.
    destruct (blocks_ok l 0 d (repeat (repeat zero_row (N.to_nat np)) (N.to_nat (vlen l))) Hl I) as [d' [out' [E [I' [V [B _]]]]]].
    - intros j Hj. unfold at_. apply nth_error_repeat. lia.
    - rewrite N.add_0_l in E. exists d', out'. split; [exact E|]. split; [exact I'|].
      split; [rewrite V; unfold vlen; rewrite repeat_length; lia|]. intros j t x. apply (B j t x).
  Qed.
End Item.

(** ** C60 *)
Section C60.
  Context {F : Type} {NF : Num F} {TF : Trig F}.
  Context (M : mgr F) (d : ms M) (L : list (timestep F)).
  Hypothesis Rec : recorded M d L.
  Hypothesis Small : (vlen L < 2 ^ 63)%N.
  Notation np := (st_nparticles (m_stats M)).

  Theorem c60_len : py_len M = vlen L.
  Proof. destruct Rec as [[E _] _]. exact E. Qed.

  Lemma index_ok i t : picks (vlen L) i t -> py_index M i = t /\ (t < vlen L)%N.
  Proof.
    intros P. unfold py_index. destruct Rec as [[-> _] _]. destruct P as [[H E]|[H E]].
    - destruct (Z.ltb_spec i 0); [lia|]. rewrite as_usize_small by lia. lia.
    - destruct (Z.ltb_spec i 0); [|lia]. rewrite as_usize_small by lia. lia.
  Qed.

  (** An integer in Python's range gives the table of its timestep (and the data set can be read
      on as before). *)
  Theorem c60_int i t : picks (vlen L) i t ->
    exists d' x tbl, at_ L t x /\ py_int M d i = Val (d', tbl) /\ shown_as x tbl /\ recorded M d' L.
  Proof.
    intros P. destruct (index_ok i t P) as [E Ht]. destruct Rec as [[Nt [Inv [I Rd]]] [Ne Rc]].
    destruct (lt_at L t Ht) as [x Hx]. destruct (Rd d t x I Hx) as [d' [G I']].
    destruct (table_ok x (rect_at L Rc t x Hx)) as [tbl [T S]].
    exists d', x, tbl. split; [exact Hx|]. unfold py_int. rewrite E, G. cbn [bind fst snd]. rewrite T.
    split; [reflexivity|]. split; [exact S|]. split; [|auto]. split; [exact Nt|]. exists Inv. auto.
  Qed.

  (** A list of indices gives one block per entry, in order. *)
  Theorem c60_list (l : list Z) (ts : list N) : (vlen l < 2 ^ 63)%N ->
    Forall (fun x => vlen (ts_pos x) <= np)%N L -> Forall2 (picks (vlen L)) l ts ->
    exists d' out, py_list M d l = Val (d', out) /\ recorded M d' L /\ vlen out = vlen l /\
      forall k t x, at_ ts k t -> at_ L t x -> exists b, at_ out k b /\ padded np x b.
  Proof.
    intros Hl Hn P. pose proof Rec as [[Nt [Inv [I Rd]]] [Ne Rc]]. unfold py_list, zero_blocks.
    destruct (N.ltb_spec (vlen l) (2 ^ 63)); [|lia]. cbn [bind].
    assert (E : map (py_index M) l = ts /\ Forall (fun t => t < vlen L)%N ts).
    { induction P as [|i t l ts Hit P IH]; [split; [reflexivity | constructor]|].
      destruct IH as [IH1 IH2]; [unfold vlen in *; cbn [length] in *; lia | unfold vlen in *; cbn [length] in *; lia|].
      destruct (index_ok i t Hit) as [A B]. cbn [map]. rewrite A, IH1. split; [reflexivity | now constructor]. }
    destruct E as [-> Ft].
    destruct (py_blocks_ok M L Rc Inv Rd ts d (vlen l)) as [d' [out [E [I' [V B]]]]].
    - intros t Ht. rewrite Forall_forall in Ft, Hn. destruct (lt_at L t (Ft t Ht)) as [x Hx]. exists x. split; [exact Hx|].
      apply Hn. eapply nth_error_In; exact Hx.
    - exact I.
    - apply Forall2_length in P. unfold vlen. now rewrite P.
    - exists d', out. split; [exact E|]. split; [|split; [exact V | exact B]].
      split; [|auto]. split; [exact Nt|]. exists Inv. auto.
  Qed.

  Lemma bound_pos n s o dl dh : (0 < s)%Z -> (0 <= n)%Z -> (o = None \/ True) ->
    slice_bound n s o dl dh = clamp n o dl.
  Proof.
    intros Hs Hn _. unfold slice_bound, clamp. destruct (Z.ltb_spec s 0); [lia|]. destruct o as [i|]; [|reflexivity].
    destruct (Z.ltb_spec i 0), (Z.ltb_spec (i + n) 0), (Z.leb_spec n i); lia.
  Qed.
  Lemma indices_pos start stop s : (0 < s)%Z ->
    slice_indices (Z.of_N (vlen L)) start stop (Some s) =
      Val (clamp (Z.of_N (vlen L)) start 0, clamp (Z.of_N (vlen L)) stop (Z.of_N (vlen L)), s).
  Proof.
    intros Hs. unfold slice_indices. destruct (Z.eqb_spec s 0); [lia|]. rewrite !bound_pos by (auto; lia). reflexivity.
  Qed.
  Lemma clamp_range o dl : (0 <= dl <= Z.of_N (vlen L))%Z -> (0 <= clamp (Z.of_N (vlen L)) o dl <= Z.of_N (vlen L))%Z.
  Proof. intros H. unfold clamp. destruct o as [i|]; [|exact H]. destruct (Z.ltb_spec i 0); lia. Qed.

  Lemma step_range_at a b s k z : (0 < s)%Z -> (a <= b)%Z ->
    at_ (step_range a b (Z.to_N s)) k z <-> (z = a + Z.of_N k * s /\ z < b)%Z.
  Proof.
    intros Hs Hab. unfold step_range, at_. rewrite Z2N.id by lia. rewrite nth_error_map.
    destruct (nth_error (seq 0 _) (N.to_nat k)) as [m|] eqn:E; cbn.
    - assert (Lt := nth_error_Some (seq 0 (Z.to_nat ((b - a + s - 1) / s))) (N.to_nat k)). rewrite E, seq_length in Lt.
      assert (Lt' : (N.to_nat k < Z.to_nat ((b - a + s - 1) / s))%nat) by (apply Lt; discriminate). clear Lt.
      apply nth_error_nth with (d := 0%nat) in E. rewrite seq_nth in E by exact Lt'. cbn in E. subst m.
      split.
      + intros Q. injection Q as <-. split; nia.
      + intros [-> _]. f_equal. nia.
    - split; [discriminate|]. intros [-> Hz]. exfalso. apply nth_error_None in E. rewrite seq_length in E. nia.
  Qed.
  Lemma step_range_len a b s : (0 < s)%Z -> (a <= b)%Z -> vlen (step_range a b (Z.to_N s)) = Z.to_N ((b - a + s - 1) / s).
  Proof. intros Hs Hab. unfold step_range, vlen. rewrite map_length, seq_length, Z2N.id by lia. lia. Qed.

  (** A slice with a positive step that divides its span gives exactly the timesteps Python would
      select: start, start + step, ... below stop. *)
  Theorem c60_slice (start stop step : option Z) :
    let n := Z.of_N (vlen L) in
    let a := clamp n start 0 in let b := clamp n stop n in
    let s := match step with Some s => s | None => 1%Z end in
    Forall (fun x => vlen (ts_pos x) <= np)%N L ->
    (0 < s < 2 ^ 63)%Z -> (a <= b)%Z -> (s | b - a)%Z ->
    exists d' out, py_slice M d start stop step = Val (d', out) /\ recorded M d' L /\
      Z.of_N (vlen out) = ((b - a) / s)%Z /\
      forall k, (k < vlen out)%N -> exists t x blk, (Z.of_N t = a + Z.of_N k * s)%Z /\ (Z.of_N t < b)%Z /\
        at_ L t x /\ at_ out k blk /\ padded np x blk.
  Proof.
    cbv zeta. set (n := Z.of_N (vlen L)). set (a := clamp n start 0). set (b := clamp n stop n).
    set (s := match step with Some s => s | None => 1%Z end). intros Hn Hs Hab [q Dv].
    pose proof Rec as [[Nt [Inv [I Rd]]] [Ne Rc]]. unfold py_slice. rewrite Nt. fold n.
    assert (Ix : slice_indices n start stop step = Val (a, b, s)).
    { transitivity (slice_indices n start stop (Some s)); [now destruct step|]. apply indices_pos. lia. }
    rewrite Ix. cbn [bind].
    assert (Ra : (0 <= a <= n)%Z) by (apply clamp_range; lia). assert (Rb : (0 <= b <= n)%Z) by (apply clamp_range; lia).
    assert (Q : Z.quot (b - a) s = q) by (rewrite Dv; apply Z.quot_mul; lia).
    assert (Q' : ((b - a) / s = q)%Z) by (rewrite Dv; apply Z.div_mul; lia). rewrite Q, Q'.
    assert (q0 : (0 <= q <= n)%Z) by nia.
    rewrite (as_usize_small q), (as_usize_small s) by lia.
    unfold zero_blocks. destruct (N.ltb_spec (Z.to_N q) (2 ^ 63)); [|lia]. cbn [bind].
    assert (Len : vlen (map as_usize (step_range a b (Z.to_N s))) = Z.to_N q).
    { rewrite vlen_map, step_range_len by lia. f_equal. rewrite Dv. symmetry. apply Z.div_unique with (r := (s - 1)%Z); nia. }
    destruct (py_blocks_ok M L Rc Inv Rd (map as_usize (step_range a b (Z.to_N s))) d (Z.to_N q)) as [d' [out [E [I' [V B]]]]].
    - intros t Ht. apply in_map_iff in Ht. destruct Ht as [z [<- Hz]]. apply In_nth_error in Hz. destruct Hz as [k Hk].
      assert (Hz : at_ (step_range a b (Z.to_N s)) (N.of_nat k) z) by (unfold at_; now rewrite Nat2N.id).
      apply step_range_at in Hz; [|lia..]. destruct Hz as [Ez Lz].
      rewrite as_usize_small by nia. destruct (lt_at L (Z.to_N z)) as [x Hx]; [nia|]. exists x. split; [exact Hx|].
      rewrite Forall_forall in Hn. apply Hn. eapply nth_error_In; exact Hx.
    - exact I.
    - now rewrite Len.
    - exists d', out. split; [exact E|]. split; [split; [split; [exact Nt|]; exists Inv; auto | auto]|].
      split; [rewrite V; lia|]. intros k Hk. rewrite V in Hk.
      destruct (lt_at (map as_usize (step_range a b (Z.to_N s))) k ltac:(lia)) as [t Ht].
      pose proof Ht as Ht0. unfold at_ in Ht. rewrite nth_error_map in Ht.
      destruct (nth_error (step_range a b (Z.to_N s)) (N.to_nat k)) as [z|] eqn:Hz; [|discriminate]. cbn in Ht. injection Ht as <-.
      assert (Hz' : at_ (step_range a b (Z.to_N s)) k z) by exact Hz. apply step_range_at in Hz'; [|lia..].
      destruct Hz' as [Ez Lz]. rewrite as_usize_small in Ht0 by nia.
      destruct (lt_at L (Z.to_N z)) as [x Hx]; [nia|]. destruct (B k (Z.to_N z) x Ht0 Hx) as [blk [Hb Pb]].
      exists (Z.to_N z), x, blk. rewrite Z2N.id by nia. auto 10.
  Qed.

  (** ** C71: what other slices do *)

  (** The step does not divide the span: the last selected timestep has no place (it panics as soon
      as that timestep has a particle). *)
  Theorem c71_remainder_refuted (start stop : option Z) (s : Z) :
    let n := Z.of_N (vlen L) in
    let a := clamp n start 0 in let b := clamp n stop n in
    Forall (fun x => 0 < vlen (ts_pos x) <= np)%N L ->
    (0 < s < 2 ^ 63)%Z -> (a <= b)%Z -> ~ (s | b - a)%Z ->
    py_slice M d start stop (Some s) = Panic.
  Proof.
    cbv zeta. set (n := Z.of_N (vlen L)). set (a := clamp n start 0). set (b := clamp n stop n). intros Hn Hs Hab Dv.
    pose proof Rec as [[Nt [Inv [I Rd]]] [Ne Rc]]. unfold py_slice. rewrite Nt. fold n.
    assert (Ix : slice_indices n start stop (Some s) = Val (a, b, s)) by (apply indices_pos; lia).
    rewrite Ix. cbn [bind].
    assert (Ra : (0 <= a <= n)%Z) by (apply clamp_range; lia). assert (Rb : (0 <= b <= n)%Z) by (apply clamp_range; lia).
    rewrite Z.quot_div_nonneg by lia. set (q := ((b - a) / s)%Z).
    assert (Mz : ((b - a) mod s <> 0)%Z) by (intros C; apply Dv; now apply Z.mod_divide; [lia|]).
    assert (Dm := Z.div_mod (b - a) s ltac:(lia)). assert (Mb := Z.mod_pos_bound (b - a) s ltac:(lia)). fold q in Dm.
    set (r := ((b - a) mod s)%Z) in *. assert (q0 : (0 <= q <= n)%Z) by nia.
    rewrite (as_usize_small q), (as_usize_small s) by lia.
    unfold zero_blocks. destruct (N.ltb_spec (Z.to_N q) (2 ^ 63)); [|lia]. cbn [bind].
    set (l := map as_usize (step_range a b (Z.to_N s))).
    assert (Len : vlen l = (Z.to_N q + 1)%N).
    { unfold l. rewrite vlen_map, step_range_len by lia.
      assert (E : ((b - a + s - 1) / s = q + 1)%Z) by (symmetry; apply Z.div_unique with (r := (r - 1)%Z); nia).
      rewrite E. lia. }
    assert (Hl : forall t, In t l -> exists x, at_ L t x /\ (0 < vlen (ts_pos x) <= np)%N).
    { intros t Ht. apply in_map_iff in Ht. destruct Ht as [z [<- Hz]]. apply In_nth_error in Hz. destruct Hz as [k Hk].
      assert (Hz : at_ (step_range a b (Z.to_N s)) (N.of_nat k) z) by (unfold at_; now rewrite Nat2N.id).
      apply step_range_at in Hz; [|lia..]. destruct Hz as [Ez Lz].
      rewrite as_usize_small by nia. destruct (lt_at L (Z.to_N z)) as [x Hx]; [nia|]. exists x. split; [exact Hx|].
      rewrite Forall_forall in Hn. apply Hn. eapply nth_error_In; exact Hx. }
    clearbody l. destruct (exists_last (l := l)) as [l0 [t ->]]; [intros ->; unfold vlen in Len; cbn in Len; lia|].
    assert (V0 : vlen l0 = Z.to_N q) by (unfold vlen in *; rewrite app_length in Len; cbn [length] in Len; lia).
    unfold py_blocks, enumerate. rewrite Len, range_snoc by lia.
    rewrite combine_snoc by (rewrite range_length; unfold vlen in V0; lia). rewrite mfold_app.
    destruct (py_blocks_ok M L Rc Inv Rd l0 d (Z.to_N q)) as [d' [out [E [I' [V B]]]]].
    - intros u Hu. destruct (Hl u) as [x [A [_ C]]]; [apply in_or_app; now left|]. eauto.
    - exact I.
    - now rewrite V0.
    - unfold py_blocks, enumerate in E. rewrite V0 in E. rewrite E. cbn [bind mfold fst snd].
      destruct (Hl t) as [x [Hx [Hp _]]]; [apply in_or_app; right; now left|].
      destruct (Rd d' t x I' Hx) as [d2 [G I2]]. rewrite G. cbn [bind fst snd].
      destruct (table_ok x (rect_at L Rc t x Hx)) as [tbl [T [Vt _]]]. rewrite T. cbn [bind].
      destruct tbl as [|w tbl]; [unfold vlen in Vt; cbn in Vt; unfold vlen in Hp; lia|]. cbn [write_block].
      assert (Nv : vget out (Z.to_N q) = Panic).
      { unfold vget. replace (nth_error out _) with (@None (list (list F))); [reflexivity|].
        symmetry. apply nth_error_None. unfold vlen in V. lia. }
      rewrite Nv. reflexivity.
  Qed.
  (** A negative step: zeros, whatever was recorded. *)
  Theorem c71_reversed_refuted :
    py_slice M d None None (Some (-1)%Z) = Val (d, repeat (repeat (repeat n0 7) (N.to_nat np)) (length L)).
  Proof.
    destruct Rec as [[Nt _] _]. unfold py_slice. rewrite Nt. unfold slice_indices. cbn [Z.eqb bind slice_bound Z.ltb Z.compare].
    replace (Z.quot (-1 - (Z.of_N (vlen L) - 1)) (-1)) with (Z.of_N (vlen L)).
    2:{ replace (-1 - (Z.of_N (vlen L) - 1))%Z with (Z.of_N (vlen L) * -1)%Z by lia. now rewrite Z.quot_mul. }
    rewrite as_usize_small by lia. unfold zero_blocks. destruct (N.ltb_spec (Z.to_N (Z.of_N (vlen L))) (2 ^ 63)); [|lia].
    cbn [bind]. replace (step_range _ _ _) with (@nil Z); cycle 1.
    { unfold step_range. change (as_usize (-1)) with (2 ^ 64 - 1)%N.
      replace (Z.to_nat _) with 0%nat; [reflexivity|].
      assert (E : ((-1 - (Z.of_N (vlen L) - 1) + Z.of_N (2 ^ 64 - 1) - 1) / Z.of_N (2 ^ 64 - 1) <= 0)%Z); [|lia].
      apply Z.lt_succ_r. apply Z.div_lt_upper_bound; [reflexivity|]. change (Z.of_N (2 ^ 64 - 1)) with (2 ^ 64 - 1)%Z. lia. }
    cbn [map]. unfold py_blocks, enumerate. cbn [combine]. change (range 0 (vlen [])) with (@nil N). cbn [combine mfold].
    do 2 f_equal. unfold zero_row. f_equal. unfold vlen. lia.
  Qed.
  (** A slice that selects nothing because it starts behind its end. *)
  Theorem c71_empty_refuted (start stop : option Z) (s : Z) :
    let n := Z.of_N (vlen L) in (0 < s)%Z -> (s <= clamp n start 0 - clamp n stop n)%Z ->
    py_slice M d start stop (Some s) = Panic.
  Proof.
    cbv zeta. set (n := Z.of_N (vlen L)). set (a := clamp n start 0). set (b := clamp n stop n). intros Hs Hab.
    destruct Rec as [[Nt _] _]. unfold py_slice. rewrite Nt. fold n.
    assert (Ix : slice_indices n start stop (Some s) = Val (a, b, s)) by (apply indices_pos; lia).
    rewrite Ix. cbn [bind].
    assert (Ra : (0 <= a <= n)%Z) by (apply clamp_range; lia). assert (Rb : (0 <= b <= n)%Z) by (apply clamp_range; lia).
    assert (Qb : (- n <= Z.quot (b - a) s < 0)%Z).
    { replace (b - a)%Z with (- (a - b))%Z by lia. rewrite Z.quot_opp_l by lia. rewrite Z.quot_div_nonneg by lia.
      assert (1 <= (a - b) / s)%Z by (apply Z.div_le_lower_bound; lia).
      assert ((a - b) / s <= a - b)%Z by (apply Z.div_le_upper_bound; nia). lia. }
    unfold zero_blocks, as_usize. set (q := Z.quot (b - a) s) in *.
    replace (q mod 2 ^ 64)%Z with (2 ^ 64 + q)%Z by (apply Z.mod_unique with (q := (-1)%Z); lia).
    destruct (N.ltb_spec (Z.to_N (2 ^ 64 + q)) (2 ^ 63)); [lia | reflexivity].
  Qed.
End C60.

(** For the two file kinds, after any history of reads. *)
Theorem c60_pfile (bld : build) (f : pfile f64) (st : stats f64) ops d outs i t :
  pf_ok f -> st_timesteps st = pf_timesteps f ->
  Forall (op_in_range (pf_timesteps f)) ops -> p_hist bld f ops = Val (d, outs) ->
  picks (pf_timesteps f) i t ->
  exists d' x tbl, py_int (p_mgr bld f st) d i = Val (d', tbl) /\ p_shows f t x /\ shown_as x tbl.
Proof.
  intros OK Nt Ho E P. destruct (p_reads bld f st OK Nt ops d outs Ho E) as [L [V [H1 [R1 R2]]]].
  assert (B := p_nt f OK).
  destruct (c60_int (p_mgr bld f st) d L) with (i := i) (t := t) as [d' [x [tbl [A [G [S _]]]]]].
  - split; [exact R2|]. split; [intros ->; unfold vlen in V; cbn in V; lia | exact R1].
  - lia.
  - now rewrite V.
  - exists d', x, tbl. auto.
Qed.
Theorem c60_tfile (bld : build) (f : tfile f64) (st : stats f64) ops d outs i t :
  tf_ok f -> tf_rect f -> st_timesteps st = tf_timesteps f ->
  Forall (op_in_range (tf_timesteps f)) ops -> t_hist bld f ops = Val (d, outs) ->
  picks (tf_timesteps f) i t ->
  exists d' x tbl, py_int (t_mgr bld f st) d i = Val (d', tbl) /\ t_shows f t x /\ shown_as x tbl.
Proof.
  intros OK Rc Nt Ho E P. destruct (t_reads bld f st OK Rc Nt ops d outs Ho E) as [L [V [H1 [R1 R2]]]].
  assert (B := t_nt f OK).
  destruct (c60_int (t_mgr bld f st) d L) with (i := i) (t := t) as [d' [x [tbl [A [G [S _]]]]]].
  - split; [exact R2|]. split; [intros ->; unfold vlen in V; cbn in V; lia | exact R1].
  - lia.
  - now rewrite V.
  - exists d', x, tbl. auto.
Qed.
(** Every ok file can be read as a recorded data set from the moment it is opened. *)
Theorem c60_opened (bld : build) (fp : pfile f64) (ft : tfile f64) (st : stats f64) :
  (pf_ok fp -> st_timesteps st = pf_timesteps fp ->
    exists d L, p_hist bld fp [] = Val (d, []) /\ recorded (p_mgr bld fp st) d L /\
      vlen L = pf_timesteps fp /\ (forall t x, at_ L t x -> p_shows fp t x) /\
      Forall (fun x => vlen (ts_pos x) = pf_nparticles fp) L) /\
  (tf_ok ft -> tf_rect ft -> st_timesteps st = tf_timesteps ft ->
    exists d L, t_hist bld ft [] = Val (d, []) /\ recorded (t_mgr bld ft st) d L /\
      vlen L = tf_timesteps ft /\ (forall t x, at_ L t x -> t_shows ft t x)).
Proof.
  split.
  - intros OK Nt. assert (B := p_nt fp OK).
    destruct (c28_reads bld fp OK []) as [d [outs [E [H _]]]]; [constructor|]. cbn [map] in E.
    destruct outs; [|discriminate]. exists d.
    destruct (p_reads bld fp st OK Nt [] d [] (Forall_nil _) E) as [L [V [H1 [R1 R2]]]]. exists L.
    split; [exact E|]. split; [split; [exact R2|]; split; [intros ->; unfold vlen in V; cbn in V; lia | exact R1]|].
    split; [exact V|]. split; [exact H1|]. apply Forall_forall. intros x Hx. apply In_nth_error in Hx.
    destruct Hx as [k Hk]. assert (A : at_ L (N.of_nat k) x) by (unfold at_; now rewrite Nnat.Nat2N.id).
    apply H1 in A. apply A.
  - intros OK Rc Nt. assert (B := t_nt ft OK).
    destruct (c29_reads bld ft OK []) as [d [outs [E [H _]]]]; [constructor|]. cbn [map] in E.
    destruct outs; [|discriminate]. exists d.
    destruct (t_reads bld ft st OK Rc Nt [] d [] (Forall_nil _) E) as [L [V [H1 [R1 R2]]]]. exists L.
    split; [exact E|]. split; [split; [exact R2|]; split; [intros ->; unfold vlen in V; cbn in V; lia | exact R1]|].
    split; [exact V | exact H1].
Qed.
(** A case: two particles, five timesteps; [data[-1]], [data[[0, -2]]] and [data[1::2]]. *)
Definition ex_stats (n np : N) : stats f64 := mkStats n np (B754_nan, B754_nan, B754_nan) [] ((B754_nan, B754_nan, B754_nan), (B754_nan, B754_nan, B754_nan)).
Definition mg5 : mgr f64 := p_mgr Debug (ex_pfile 2 5) (ex_stats 5 2).
Definition firsts (l : list (list f64)) := map (fun r => B2SF (nth 1 r B754_nan)) l.
Example c60_case : pf_ok (ex_pfile 2 5) /\ picks 5 (-1) 4 /\
  clamp 5 (Some 1%Z) 0 = 1%Z /\ clamp 5 None 5 = 5%Z /\ (2 | 5 - 1)%Z /\
  after (p_hist Debug (ex_pfile 2 5) []) (fun r =>
    after (py_int mg5 (fst r) (-1)) (fun q => firsts (snd q) = [B2SF (d 4); B2SF (d 4)]) /\
    after (py_list mg5 (fst r) [0; -2]%Z) (fun q => map firsts (snd q) = [[B2SF (d 0); B2SF (d 0)]; [B2SF (d 3); B2SF (d 3)]]) /\
    after (py_slice mg5 (fst r) (Some 1%Z) None (Some 2%Z)) (fun q => map firsts (snd q) = [[B2SF (d 1); B2SF (d 1)]; [B2SF (d 3); B2SF (d 3)]])).
Proof.
  split; [apply ex_pfile_ok; lia|]. split; [right; lia|]. split; [reflexivity|]. split; [reflexivity|]. split; [now exists 2%Z|].
  vm_compute. auto.
Qed.
(** [data[::2]] of five timesteps panics, [data[::-1]] is zero. *)
Example c71_case : ~ (2 | 5 - 0)%Z /\
  after (p_hist Debug (ex_pfile 2 5) []) (fun r =>
    py_slice mg5 (fst r) None None (Some 2%Z) = Panic /\
    after (py_slice mg5 (fst r) None None (Some (-1)%Z)) (fun q => map (fun b => hd [] (map firsts [b])) (snd q) = repeat [B2SF (d 0); B2SF (d 0)] 5)).
Proof. split; [intros [z Hz]; lia|]. vm_compute. auto. Qed.

(** [data[n]] is not refused: directly after opening it is timestep 0, for every file. *)
Theorem c71_past_end_refuted (bld : build) (fp : pfile f64) (ft : tfile f64) (st : stats f64) :
  (pf_ok fp -> exists d d' x tbl, p_hist bld fp [] = Val (d, []) /\
    py_int (p_mgr bld fp st) d (Z.of_N (pf_timesteps fp)) = Val (d', tbl) /\ p_shows fp 0 x /\ shown_as x tbl) /\
  (tf_ok ft -> tf_rect ft -> exists d d' x tbl, t_hist bld ft [] = Val (d, []) /\
    py_int (t_mgr bld ft st) d (Z.of_N (tf_timesteps ft)) = Val (d', tbl) /\ t_shows ft 0 x /\ shown_as x tbl).
Proof.
  split.
  - intros OK. destruct (proj1 (c65_opened_refuted bld fp ft) OK) as [d1 [x [E Sx]]]. assert (B := p_nt fp OK).
    unfold p_hist, dhist in *. destruct (dm_new bld (p_load fp) (pf_timesteps fp)) as [d|]; [|discriminate].
    cbn [bind drun dstep] in *. apply bind_val in E. destruct E as [r [G E]]. apply bind_val in G. destruct G as [[d2 y] [G G']].
    injection G' as <-. cbn [fst snd app] in E. injection E as E1 E2. subst d2.
    assert (y = x) by congruence. subst y.
    assert (Rx : rect x) by (exact (p_rect fp (ex_stats (pf_timesteps fp) 1) eq_refl 0 x Sx)). destruct (table_ok x Rx) as [tbl [T S]]. exists d, d1, x, tbl. split; [reflexivity|].
    split; [|auto]. unfold py_int, py_index. destruct (Z.ltb_spec (Z.of_N (pf_timesteps fp)) 0); [lia|].
    rewrite as_usize_small by lia. rewrite N2Z.id. cbn [p_mgr m_get]. rewrite G. cbn [bind fst snd]. now rewrite T.
  - intros OK Rc. destruct (proj2 (c65_opened_refuted bld fp ft) OK) as [d1 [x [E Sx]]]. assert (B := t_nt ft OK).
    unfold t_hist, dhist in *. destruct (dm_new bld (t_load ft) (tf_timesteps ft)) as [d|]; [|discriminate].
    cbn [bind drun dstep] in *. apply bind_val in E. destruct E as [r [G E]]. apply bind_val in G. destruct G as [[d2 y] [G G']].
    injection G' as <-. cbn [fst snd app] in E. injection E as E1 E2. subst d2.
    assert (y = x) by congruence. subst y.
    destruct (table_ok x (Rc 0%N x ltac:(lia) Sx)) as [tbl [T S]]. exists d, d1, x, tbl. split; [reflexivity|].
    split; [|auto]. unfold py_int, py_index. destruct (Z.ltb_spec (Z.of_N (tf_timesteps ft)) 0); [lia|].
    rewrite as_usize_small by lia. rewrite N2Z.id. cbn [t_mgr m_get]. rewrite G. cbn [bind fst snd]. now rewrite T.
Qed.

(** ** C61 *)
Theorem c61_open (bld : build) (h : hfile f64) :
  (hf_type h = Some 1%Z -> tf_ok (hf_t h) ->
     exists d, py_open bld (Some h) = Val (OpenT (hf_t h) d) /\ t_hist bld (hf_t h) [] = Val (d, [])) /\
  (hf_type h = Some 2%Z -> pf_ok (hf_p h) ->
     exists d, py_open bld (Some h) = Val (OpenP (hf_p h) d) /\ p_hist bld (hf_p h) [] = Val (d, [])) /\
  (forall f d, py_open bld (Some h) = Val (OpenT f d) -> hf_type h = Some 1%Z /\ f = hf_t h) /\
  (forall f d, py_open bld (Some h) = Val (OpenP f d) -> hf_type h = Some 2%Z /\ f = hf_p h).
Proof.
  unfold py_open. cbn [unwrap bind]. split; [|split; [|split]].
  - intros -> OK. cbn [unwrap bind]. cbn [Z.eqb Pos.eqb].
    destruct (c29_reads bld (hf_t h) OK []) as [d [outs [E [H _]]]]; [constructor|]. cbn [map] in E.
    destruct outs; [|discriminate]. exists d. split; [|exact E]. unfold t_hist, dhist in E.
    destruct (dm_new bld (t_load (hf_t h)) (tf_timesteps (hf_t h))) as [d0|]; [|discriminate]. cbn in E. now injection E as ->.
  - intros -> OK. cbn [unwrap bind]. cbn [Z.eqb Pos.eqb].
    destruct (c28_reads bld (hf_p h) OK []) as [d [outs [E [H _]]]]; [constructor|]. cbn [map] in E.
    destruct outs; [|discriminate]. exists d. split; [|exact E]. unfold p_hist, dhist in E.
    destruct (dm_new bld (p_load (hf_p h)) (pf_timesteps (hf_p h))) as [d0|]; [|discriminate]. cbn in E. now injection E as ->.
  - intros f d E. destruct (hf_type h) as [ty|]; [|discriminate]. cbn [unwrap bind] in E.
    destruct (Z.eqb_spec ty 1) as [T1|T1]; [subst ty|].
    + apply bind_val in E. destruct E as [d0 [_ E]]. injection E as <- _. auto.
    + destruct (Z.eqb_spec ty 2); [|discriminate]. apply bind_val in E. destruct E as [d0 [_ E]]. discriminate.
  - intros f d E. destruct (hf_type h) as [ty|]; [|discriminate]. cbn [unwrap bind] in E.
    destruct (Z.eqb_spec ty 1) as [T1|T1]; [subst ty|].
    + apply bind_val in E. destruct E as [d0 [_ E]]. discriminate.
    + destruct (Z.eqb_spec ty 2) as [T2|T2]; [subst ty|discriminate]. apply bind_val in E. destruct E as [d0 [_ E]]. injection E as <- _. auto.
Qed.
Theorem c61_refused (bld : build) :
  @py_open f64 _ bld None = Panic /\
  forall h : hfile f64, hf_type h <> Some 1%Z -> hf_type h <> Some 2%Z -> py_open bld (Some h) = Panic.
Proof.
  split; [reflexivity|]. intros h H1 H2. unfold py_open. cbn [unwrap bind]. destruct (hf_type h) as [ty|]; [|reflexivity].
  cbn [unwrap bind]. destruct (Z.eqb_spec ty 1) as [T1|T1]; [subst ty; congruence|]. destruct (Z.eqb_spec ty 2) as [T2|T2]; [subst ty; congruence | reflexivity].
Qed.
Example c61_case : exists h : hfile f64, hf_type h = Some 2%Z /\ pf_ok (hf_p h) /\ pf_timesteps (hf_p h) = 3%N.
Proof. exists (mkHf (Some 2%Z) (ex_pfile 2 3) (ex_tfile 1)). split; [reflexivity|]. split; [apply ex_pfile_ok; lia | reflexivity]. Qed.
