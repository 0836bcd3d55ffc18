(** * Properties C56, C57: converting VTK files (one file per timestep). *)
From Coq Require Import Reals List NArith ZArith Bool Lia Lra Sorted Permutation ZifyBool ZifyN ZifyNat String.
From Flocq Require Import Core.Core IEEE754.BinarySingleNaN.
From Verif Require Import Base BaseFacts Num F64Facts RFacts NDArray DataModel DataSpec DataLoad DataProofs PropertiesData ConvModel ConvSort ConvCsv PropertiesCsv.
Local Open Scope list_scope.
Local Open Scope bool_scope.

Section Vtk.
  Context {F : Type} {NF : Num F}.

  (** ** Specification *)

  (** The particles of a file, entry by entry in the order of the file. *)
  Record particles : Type := mkPs { p_ids : list N; p_rad : list F; p_type : list F; p_pos : list (v3 F); p_vel : list (v3 F) }.
  Definition p_len (c : particles) : N := vlen (p_ids c).
  Definition p_wf (c : particles) : Prop := p_ids c <> [] /\ vlen (p_rad c) = p_len c /\ vlen (p_type c) = p_len c /\
    vlen (p_pos c) = p_len c /\ vlen (p_vel c) = p_len c.
  (** Particle number [i]. *)
  Definition p_at (c : particles) (i : N) (x : N * F * F * v3 F * v3 F) : Prop :=
    let '(id, r, ty, p, v) := x in
    at_ (p_ids c) i id /\ at_ (p_rad c) i r /\ at_ (p_type c) i ty /\ at_ (p_pos c) i p /\ at_ (p_vel c) i v.
  (** What the fields of a file say: the radius from the radius field, else half the diameter; type 1
      if there is no type field. *)
  Definition content (cfg : vtkcfg) (f : vtkfile F) (c : particles) : Prop :=
    p_wf c /\
    (exists n, c_id cfg = Some n /\ vf_u64 f n = Val (p_ids c)) /\
    match c_radius cfg, c_diameter cfg with
    | Some r, _ => vf_f64 f r = Val (p_rad c)
    | None, Some dm => exists l, vf_f64 f dm = Val l /\ p_rad c = map (fun x => x * nlit 1 2)%num l
    | None, None => False
    end /\
    match c_type cfg with
    | Some n => exists l, vf_u64 f n = Val l /\ p_type c = map nofN l
    | None => p_type c = map (fun _ => n1) (p_rad c)
    end /\
    (exists n l, c_velocity cfg = Some n /\ vf_f64 f n = Val l /\ rows3 l = Val (p_vel c)) /\
    (exists l, vf_positions f = Val l /\ rows3 l = Val (p_pos c)).
  (** The time of a file. *)
  Definition f_time (dt : F) (f : vtkfile F) : F := (nof (vf_step f) * dt)%num.
  (** No time is below the one before it, nor the first below zero. *)
  Fixpoint in_order (old : F) (ts : list F) : Prop :=
    match ts with [] => True | t :: ts' => (t <? old)%num = false /\ in_order t ts' end.
  (** [c'] is [c] sorted by id, whole particles moved, ties kept in order. *)
  Definition by_id (c c' : particles) : Prop :=
    p_wf c' /\ p_len c' = p_len c /\ StronglySorted N.le (p_ids c') /\
    exists sl, Permutation sl (range 0 (p_len c)) /\ StronglySorted (id_before (p_ids c)) sl /\
      forall k i, at_ sl k i -> exists x, p_at c i x /\ p_at c' k x.
  (** The group of a timestep. *)
  Definition stored (g : tgroup F) (t : F) (c : particles) : Prop :=
    tg_time g = Some t /\ tg_position g = Some (p_pos c) /\ tg_velocity g = Some (p_vel c) /\
    tg_radius g = Some (p_rad c) /\ tg_id g = Some (map nofN (p_ids c)) /\ tg_ptype g = Some (p_type c) /\
    tg_ppcloud g = Some (map (fun _ => n1) (p_rad c)) /\ tg_density g = None.

  (** ** One file *)
  Lemma sort_scalars {T} (data : list T) ids sl : make_sortlist ids = Val sl -> vlen data = vlen ids ->
    exists out, sort_by_array data sl = Val out /\ vlen out = vlen ids /\ forall k i x, at_ sl k i -> at_ data i x -> at_ out k x.
  Proof.
    intros E L. destruct (c49_scalars data ids sl E L) as [out [Eo [Lo H]]]. exists out. split; [exact Eo|]. split; [exact Lo|].
    intros k i x Hk Hx. destruct (H k i Hk) as [y [Hy Ho]]. unfold at_ in *. congruence.
  Qed.
  Lemma sort_triples (data : list F) vs ids sl : make_sortlist ids = Val sl -> rows3 data = Val vs -> vlen vs = vlen ids ->
    exists out vs', sort_by_array data sl = Val out /\ rows3 out = Val vs' /\ vlen vs' = vlen ids /\ forall k i x, at_ sl k i -> at_ vs i x -> at_ vs' k x.
  Proof.
    intros E R L. destruct (c49_sortlist ids) as [sl' [E' [P _]]]. assert (sl' = sl) by congruence. subst sl'.
    assert (Fl := sl_lt ids sl P). rewrite <- L in Fl. assert (Ls := sl_len ids sl P).
    destruct (sort_vectors data vs sl R) as [out [Eo Er]]; [congruence | exact Fl|].
    destruct (mmap_vget vs sl Fl) as [vs' [Em [Lm H]]]. exists out, vs'. split; [exact Eo|]. split; [congruence|]. split; [congruence|].
    intros k i x Hk Hx. destruct (H k i Hk) as [y [Hy Ho]]. unfold at_ in *. congruence.
  Qed.

  Definition np_after (np : N) (c : particles) : N := fold_left N.max (p_ids c) np.
  Definition acc_file (a : acc) (c : particles) : acc := acc_count (fold_left acc_pos (p_pos c) (fold_left acc_vel (p_vel c) a)) (p_len c).

  Lemma fold_max_comm l : forall a, N.max a (fold_left N.max l 0%N) = fold_left N.max l a.
  Proof.
    assert (G : forall l a b, fold_left N.max l (N.max a b) = N.max a (fold_left N.max l b)).
    { clear. induction l as [|x l IH]; intros a b; cbn [fold_left]; [reflexivity|]. rewrite <- IH. f_equal. lia. }
    intros a. rewrite <- G. f_equal. lia.
  Qed.
  Lemma fold_max_perm l l' : Permutation l l' -> forall a, fold_left N.max l a = fold_left N.max l' a.
  Proof.
    induction 1 as [|x l l' _ IH|x y l|l l' l'' _ IH1 _ IH2]; intros a; cbn [fold_left]; [reflexivity | apply IH | f_equal; lia | now rewrite IH1].
  Qed.
  Lemma by_id_perm c c' : by_id c c' -> Permutation (p_ids c') (p_ids c).
  Proof.
    intros [W' [L [_ [sl [P [_ H]]]]]].
    assert (E : p_ids c' = map (fun i => nth (N.to_nat i) (p_ids c) 0%N) sl).
    { apply (at_ext _ _ (p_len c)); [exact L | unfold vlen; rewrite map_length; apply Permutation_length in P; rewrite range_length in P; unfold p_len in *; lia|].
      intros k Hk. destruct (lt_at sl k) as [i Hi]; [apply Permutation_length in P; rewrite range_length in P; unfold vlen, p_len in *; lia|].
      destruct (H k i Hi) as [[[[[id r] ty] p] v] [[Ha _] [Hb _]]]. exists id. split; [exact Hb|]. apply at_map. exists i. split; [exact Hi|]. symmetry. now apply nth_error_nth. }
    rewrite E. etransitivity; [apply Permutation_map; exact P|]. clear. unfold p_len.
    assert (Q : map (fun i => nth (N.to_nat i) (p_ids c) 0%N) (range 0 (vlen (p_ids c))) = p_ids c); [|now rewrite Q].
    apply (at_ext _ _ (vlen (p_ids c))); [unfold vlen; rewrite map_length, range_length; lia | reflexivity|].
    intros k Hk. destruct (lt_at (p_ids c) k Hk) as [x Hx]. exists x. split; [|exact Hx]. apply at_map. exists k. split; [|symmetry; now apply nth_error_nth].
    unfold at_. rewrite range_nth_error by lia. f_equal. lia.
  Qed.

  Lemma vtk_file_eq cfg dt f c s k : content cfg f c -> exists c', by_id c c' /\
    let t := f_time dt f in
    let old := if (k =? 0)%N then (t, snd (t_time s)) else t_time s in
    exists g, stored g t c' /\
    vtk_file cfg dt s (k, f) = if (t <? snd (t_time s))%num then Panic else
      Val (mkT (acc_file (t_acc s) c') (t_groups s ++ [g]) (np_after (t_np s) c') (fst old, t) (t_times s ++ [t]) t (t - t_old s)%num).
  Proof.
    intros [[Ne [Lr [Lt [Lp Lv]]]] [[nid [Cid Eid]] [Hrad [Hty [[nv [lv [Cv [Ev Rv]]]] [lp [Ep Rp]]]]]]].
    destruct (c49_sortlist (p_ids c)) as [sl [Esl [Psl Ssl]]].
    destruct (sort_scalars (p_ids c) _ sl Esl eq_refl) as [ids' [Ei [Li Hi]]].
    destruct (sort_scalars (p_rad c) _ sl Esl Lr) as [rad' [Er [Lr' Hr]]].
    destruct (sort_scalars (p_type c) _ sl Esl Lt) as [ty' [Ety [Lt' Ht]]].
    destruct (sort_triples lv _ _ sl Esl Rv Lv) as [lv' [vel' [Esv [Rv' [Lv' Hv]]]]].
    destruct (sort_triples lp _ _ sl Esl Rp Lp) as [lp' [pos' [Esp [Rp' [Lp' Hp]]]]].
    assert (Lsl := sl_len (p_ids c) sl Psl).
    exists (mkPs ids' rad' ty' pos' vel').
    assert (B : by_id c (mkPs ids' rad' ty' pos' vel')).
    { assert (Wf : p_wf (mkPs ids' rad' ty' pos' vel')).
      { unfold p_wf, p_len in *. cbn [p_ids p_rad p_type p_pos p_vel]. split; [|repeat split; congruence]. intros ->. destruct (p_ids c); [congruence|]. cbn in Li. unfold vlen in Li. cbn in Li. lia. }
      split; [exact Wf|]. split; [exact Li|]. split.
      - cbn [p_ids]. assert (Ein : ids' = map (fun i => nth (N.to_nat i) (p_ids c) 0%N) sl).
        { apply (at_ext _ _ (vlen (p_ids c))); [exact Li | unfold vlen in *; rewrite map_length; exact Lsl|]. intros k0 Hk.
          destruct (lt_at sl k0) as [i Hi0]; [lia|]. assert (Hlt := sl_lt _ _ Psl). rewrite Forall_forall in Hlt. specialize (Hlt i (nth_error_In _ _ Hi0)).
          destruct (lt_at (p_ids c) i Hlt) as [x Hx]. exists x. split; [now apply (Hi k0 i)|]. apply at_map. exists i. split; [exact Hi0|]. symmetry. now apply nth_error_nth. }
        rewrite Ein. clear -Ssl. induction Ssl as [|i sl Ssl IH Fi]; cbn [map]; constructor; [exact IH|]. apply Forall_map. eapply Forall_impl; [|exact Fi].
        intros j [a [b [Ha [Hb Hab]]]]. rewrite (nth_error_nth _ _ 0%N Ha), (nth_error_nth _ _ 0%N Hb). lia.
      - exists sl. split; [exact Psl|]. split; [exact Ssl|]. intros k0 i Hk. assert (Hlt := sl_lt _ _ Psl). rewrite Forall_forall in Hlt. specialize (Hlt i (nth_error_In _ _ Hk)).
        unfold p_len in *. destruct (lt_at (p_ids c) i Hlt) as [x Hx]. destruct (lt_at (p_rad c) i) as [r Hr0]; [lia|]. destruct (lt_at (p_type c) i) as [y Hy]; [lia|].
        destruct (lt_at (p_pos c) i) as [p Hp0]; [lia|]. destruct (lt_at (p_vel c) i) as [v Hv0]; [lia|].
        exists (x, r, y, p, v). unfold p_at. cbn [p_ids p_rad p_type p_pos p_vel]. split; [auto|]. repeat split; eauto. }
    split; [exact B|]. cbn zeta.
    set (g := mkTg (Some pos') (Some vel') (Some rad') None (Some (map (fun _ => n1) rad')) (Some (f_time dt f)) (Some ty') (Some (map nofN ids')) : tgroup F).
    exists g. split; [repeat split|]. unfold vtk_file. fold (f_time dt f). set (t := f_time dt f).
    replace (snd (if (k =? 0)%N then (t, snd (t_time s)) else t_time s)) with (snd (t_time s)) by (destruct (k =? 0)%N; reflexivity).
    destruct (t <? snd (t_time s))%num; [reflexivity|]. rewrite Cid. cbn [unwrap bind]. rewrite Eid. cbn [bind]. rewrite Esl. cbn [bind]. rewrite Ei. cbn [bind].
    assert (Z : (vlen ids' =? 0)%N = false). { apply N.eqb_neq. rewrite Li. destruct (p_ids c); [congruence|]. rewrite vlen_cons. lia. }
    rewrite Z. rewrite fold_max_comm. fold (np_after (t_np s) (mkPs ids' rad' ty' pos' vel')).
    assert (R : match c_radius cfg with
                | Some r => let! l := vf_f64 f r in sort_by_array l sl
                | None => match c_diameter cfg with
                          | Some dm => let! l := vf_f64 f dm in sort_by_array (map (fun x => x * nlit 1 2)%num l) sl
                          | None => Panic end end = Val rad').
    { destruct (c_radius cfg) as [r|]; [rewrite Hrad; exact Er|]. destruct (c_diameter cfg) as [dm|]; [|destruct Hrad]. destruct Hrad as [l [El Eq]]. rewrite El. cbn [bind]. rewrite <- Eq. exact Er. }
    match goal with |- bind ?m _ = _ => assert (R' : m = Val rad') by (rewrite <- R; destruct (c_radius cfg), (c_diameter cfg); reflexivity); rewrite R' end. cbn [bind].
    assert (Y : match c_type cfg with
                | Some n => let! l := vf_u64 f n in let! l0 := sort_by_array l sl in Val (map nofN l0)
                | None => Val (map (fun _ => n1) rad') end = Val ty').
    { destruct (c_type cfg) as [n|].
      - destruct Hty as [l [-> El]]. cbn [bind]. assert (Ll : vlen l = vlen (p_ids c)) by (unfold p_len in Lt; rewrite El in Lt; unfold vlen in *; rewrite map_length in Lt; exact Lt).
        destruct (sort_scalars l _ sl Esl Ll) as [l' [El' [Ll' Hl]]]. rewrite El'. cbn [bind]. f_equal.
        apply (at_ext _ _ (vlen (p_ids c))); [unfold vlen in *; rewrite map_length; exact Ll' | exact Lt'|]. intros k0 Hk.
        destruct (lt_at sl k0) as [i Hi0]; [lia|]. assert (Hlt := sl_lt _ _ Psl). rewrite Forall_forall in Hlt. specialize (Hlt i (nth_error_In _ _ Hi0)).
        destruct (lt_at l i) as [x Hx]; [lia|]. exists (nofN x). split; [apply at_map; exists x; split; [now apply (Hl k0 i) | reflexivity]|]. apply (Ht k0 i); [exact Hi0|]. rewrite El. apply at_map. eauto.
      - f_equal. apply (at_ext _ _ (vlen (p_ids c))); [unfold vlen in *; rewrite map_length; exact Lr' | exact Lt'|]. intros k0 Hk. exists n1. split.
        + destruct (lt_at rad' k0) as [r Hr0]; [lia|]. apply at_map. exists r. auto.
        + destruct (lt_at sl k0) as [i Hi0]; [lia|]. assert (Hlt := sl_lt _ _ Psl). rewrite Forall_forall in Hlt. specialize (Hlt i (nth_error_In _ _ Hi0)).
          destruct (lt_at (p_rad c) i) as [x Hx]; [unfold p_len in *; lia|]. apply (Ht k0 i); [exact Hi0|]. rewrite Hty. apply at_map. eauto. }
    rewrite Y. cbn [bind]. rewrite Cv. cbn [unwrap bind]. rewrite Ev. cbn [bind]. rewrite Esv. cbn [bind]. rewrite Rv'. cbn [bind]. rewrite Ep. cbn [bind]. rewrite Esp. cbn [bind]. rewrite Rp'. cbn [bind].
    destruct (k =? 0)%N; reflexivity.
  Qed.

  (** ** All files *)
  Lemma vtk_loop cfg dt fs cs : Forall2 (content cfg) fs cs -> forall i s, in_order (snd (t_time s)) (map (f_time dt) fs) ->
    exists cs' gs s', mfold (vtk_file cfg dt) (combine (range i (i + vlen fs)) fs) s = Val s' /\
      Forall2 by_id cs cs' /\ Forall2 (fun g tc => stored g (fst tc) (snd tc)) gs (combine (map (f_time dt) fs) cs') /\
      t_groups s' = t_groups s ++ gs /\ t_times s' = t_times s ++ map (f_time dt) fs /\
      t_np s' = fold_left np_after cs' (t_np s) /\ t_acc s' = fold_left acc_file cs' (t_acc s) /\
      t_time s' = (match fs with f :: _ => if (i =? 0)%N then f_time dt f else fst (t_time s) | [] => fst (t_time s) end, last (map (f_time dt) fs) (snd (t_time s))) /\
      t_old s' = last (map (f_time dt) fs) (t_old s) /\
      t_rate s' = (match rev (map (f_time dt) fs) with [] => t_rate s | t :: ts => t - hd (t_old s) ts end)%num.
  Proof.
    induction 1 as [|f c fs cs Hc _ IH]; intros i s Io.
    - exists [], [], s. rewrite range_empty by (unfold vlen; cbn [Datatypes.length]; lia). cbn [combine mfold map last fold_left rev]. rewrite !app_nil_r. destruct (t_time s) eqn:Et. repeat split; constructor.
    - cbn [map in_order] in Io. destruct Io as [H0 Io]. destruct (vtk_file_eq cfg dt f c s i Hc) as [c' [B [g [Sg Ef]]]]. cbn zeta in *. rewrite H0 in Ef.
      rewrite range_cons by (rewrite vlen_cons; lia). cbn [combine mfold]. rewrite Ef. cbn [bind].
      match type of Ef with _ = Val ?s1 => set (s1' := s1) in * end.
      destruct (IH (i + 1)%N s1') as [cs' [gs [s' [E [Fb [Fs [Hg [Ht [Hn [Ha [Htm [Ho Hr]]]]]]]]]]]]; [exact Io|].
      exists (c' :: cs'), (g :: gs), s'. replace (i + vlen (f :: fs))%N with (i + 1 + vlen fs)%N by (rewrite vlen_cons; lia).
      split; [exact E|]. split; [now constructor|]. split; [cbn [map combine]; constructor; [exact Sg | exact Fs]|].
      cbn [t_groups t_times t_np t_acc t_time t_old t_rate s1' fst snd] in *. rewrite Hg, Ht, Hn, Ha. rewrite <- !app_assoc. do 4 (split; [reflexivity|]).
      assert (Lm : forall A (t : A) l d, last (t :: l) d = last l t).
      { clear. intros A t l. revert t. induction l as [|u l IHl]; intros t d0; [reflexivity|]. change (last (u :: l) d0 = last (u :: l) t). now rewrite !IHl. }
      split; [|split].
      + rewrite Htm. cbn [map]. rewrite Lm. f_equal. destruct fs as [|f2 fs]; [destruct (i =? 0)%N; reflexivity|].
        destruct (N.eqb_spec (i + 1) 0); [lia|]. destruct (i =? 0)%N; reflexivity.
      + rewrite Ho. cbn [map]. now rewrite Lm.
      + rewrite Hr. cbn [map rev]. destruct (rev (map (f_time dt) fs)) as [|u us]; [reflexivity|]. cbn [app]. destruct us; reflexivity.
  Qed.
  Lemma vtk_loop_bad cfg dt fs cs : Forall2 (content cfg) fs cs -> forall i s, ~ in_order (snd (t_time s)) (map (f_time dt) fs) ->
    mfold (vtk_file cfg dt) (combine (range i (i + vlen fs)) fs) s = Panic.
  Proof.
    induction 1 as [|f c fs cs Hc _ IH]; intros i s Io; [cbn in Io; tauto|].
    destruct (vtk_file_eq cfg dt f c s i Hc) as [c' [B [g [Sg Ef]]]]. cbn zeta in *. cbn [map in_order] in Io.
    rewrite range_cons by (rewrite vlen_cons; lia). cbn [combine mfold]. rewrite Ef. destruct (f_time dt f <? snd (t_time s))%num; [reflexivity|]. cbn [bind].
    replace (i + vlen (f :: fs))%N with (i + 1 + vlen fs)%N by (rewrite vlen_cons; lia). apply IH. cbn [t_time snd]. tauto.
  Qed.

  (** ** C56.  One timestep per file, in order, every particle of the file at the place its id gives it. *)
  Theorem c56_converted cfg dt fs cs : Forall2 (content cfg) fs cs -> fs <> [] -> in_order n0 (map (f_time dt) fs) ->
    exists tf h, vtk_converter cfg fs dt = Val (tf, h) /\ tf_timesteps tf = vlen fs /\
      forall k f c, at_ fs k f -> at_ cs k c ->
        exists g c', tf_group tf k = Some g /\ by_id c c' /\ stored g (f_time dt f) c'.
  Proof.
    intros Fc Ne Io. destruct (vtk_loop cfg dt fs cs Fc 0 (mkT acc0 [] 0 (n0, n0) [] n0 n0) Io) as [cs' [gs [s' [E [Fb [Fs [Hg _]]]]]]].
    rewrite N.add_0_l in E. unfold vtk_converter, enumerate. rewrite E. cbn [bind].
    assert (Z : (vlen fs =? 0)%N = false). { apply N.eqb_neq. destruct fs; [congruence|]. rewrite vlen_cons. lia. }
    rewrite Z. unfold finish. do 2 eexists. split; [reflexivity|]. cbn [tf_timesteps tf_group]. split; [reflexivity|].
    intros k f c Hf Hc. destruct (Forall2_at_l _ _ _ Fb _ _ Hc) as [c' [Hc' Bc]].
    assert (Hp : nth_error (combine (map (f_time dt) fs) cs') (N.to_nat k) = Some (f_time dt f, c')).
    { clear -Hf Hc'. revert Hf Hc'. unfold at_. generalize (N.to_nat k) as n. revert cs'. induction fs as [|a fs IH]; intros [|c0 cs'] [|n] Hf Hc'; try discriminate; cbn in *; [congruence | now apply IH]. }
    destruct (Forall2_at _ _ _ Fs _ _ Hp) as [g [Hgk Sg]]. cbn [t_groups app] in Hg. subst gs. exists g, c'. auto.
  Qed.
  (** Files whose times decrease, or start below zero, are refused. *)
  Theorem c56_refused cfg dt fs cs : Forall2 (content cfg) fs cs -> ~ in_order n0 (map (f_time dt) fs) ->
    vtk_converter cfg fs dt = Panic.
  Proof.
    intros Fc Io. unfold vtk_converter. destruct (vlen fs =? 0)%N; [reflexivity|]. unfold enumerate.
    assert (B := vtk_loop_bad cfg dt fs cs Fc 0 (mkT acc0 [] 0 (n0, n0) [] n0 n0) Io). rewrite N.add_0_l in B. now rewrite B.
  Qed.
End Vtk.

Arguments particles : clear implicits.

(** ** Reading the converted files back *)
Definition shown (t : f64) (c : particles f64) : timestep f64 :=
  mkTs t (p_pos c) (p_vel c) (p_rad c) (map nofN (p_ids c)) (map (fun _ => n1) (p_rad c)) (map (fun _ => n1) (p_rad c)) (p_type c).
Theorem c56_read_back bld cfg dt fs cs (ks : list N) : Forall2 (content cfg) fs cs -> fs <> [] -> (vlen fs <= 2 ^ 53)%N ->
  in_order (f64_of_Z 0) (map (f_time dt) fs) -> Forall (fun k => k < vlen fs)%N ks ->
  exists tf h d outs, vtk_converter cfg fs dt = Val (tf, h) /\ t_hist bld tf (map ORead ks) = Val (d, outs) /\ map fst outs = ks /\
    Forall (fun o => let '(k, x) := o in exists f c c', at_ fs k f /\ at_ cs k c /\ by_id c c' /\ x = shown (f_time dt f) c') outs.
Proof.
  intros Fc Ne Ln Io Hk. destruct (c56_converted cfg dt fs cs Fc Ne Io) as [tf [h [E [Nt Hg]]]]. exists tf, h.
  assert (All : forall k, (k < vlen fs)%N -> exists f c g c', at_ fs k f /\ at_ cs k c /\ tf_group tf k = Some g /\ by_id c c' /\ stored g (f_time dt f) c').
  { intros k Lk. destruct (lt_at fs k Lk) as [f Hf]. destruct (Forall2_at_l _ _ _ Fc _ _ Hf) as [c [Hc _]]. destruct (Hg k f c Hf Hc) as [g [c' [Gk [B S]]]]. exists f, c, g, c'. auto. }
  assert (OK : tf_ok tf).
  { split; [rewrite Nt; split; [destruct fs; [congruence | rewrite vlen_cons; lia] | exact Ln]|]. intros t Lt. rewrite Nt in Lt.
    destruct (All t Lt) as [f [c [g [c' [_ [_ [Gk [_ S]]]]]]]]. exists g. split; [exact Gk|]. destruct S as [-> [-> [-> [-> [-> [-> [-> _]]]]]]]. repeat split; discriminate. }
  rewrite <- Nt in Hk. destruct (c29_reads bld tf OK ks Hk) as [d [outs [Eh [Em Sh]]]]. exists d, outs. split; [exact E|]. split; [exact Eh|]. split; [exact Em|].
  assert (Hin : forall o, In o outs -> (fst o < vlen fs)%N). { intros o Ho. rewrite <- Nt. rewrite Forall_forall in Hk. apply Hk. rewrite <- Em. now apply in_map. }
  rewrite Forall_forall in Sh |- *. intros [k x] Ho. specialize (Sh _ Ho). specialize (Hin _ Ho). cbn [fst snd] in *.
  destruct (All k Hin) as [f [c [g [c' [Hf [Hc [Gk [B S]]]]]]]]. exists f, c, c'. split; [exact Hf|]. split; [exact Hc|]. split; [exact B|].
  destruct Sh as [g' [Gk' [T1 [T2 [T3 [T4 [T5 [T6 [T7 T8]]]]]]]]]. assert (g' = g) by congruence. subst g'. destruct S as [S1 [S2 [S3 [S4 [S5 [S6 [S7 S8]]]]]]].
  rewrite S8 in T8. destruct x as [xt xp xv xr xi xc xd xty]. cbn [ts_time ts_pos ts_vel ts_radius ts_id ts_clouds ts_density ts_type] in *.
  unfold shown. assert (xr = p_rad c') by congruence. subst xr. f_equal; try congruence.
  rewrite T8. clear. induction (p_rad c') as [|r l IH]; [reflexivity|]. cbn [Datatypes.length repeat map]. now rewrite IH.
Qed.

(** ** C57: the header *)
Definition gsel {A} (i : N) (p : v3 A) : A := let '(u, v, w) := p in if (i =? 0)%N then u else if (i =? 1)%N then v else w.
Lemma acc_vel_fold (vs : list (v3 f64)) : forall a, let r := fold_left acc_vel vs a in
  a_n r = a_n a /\ a_dims r = a_dims a /\
  (forall i, (i < 3)%N -> gsel i (a_vel r) = fold_left span (map (ax i) vs) (gsel i (a_vel a)) /\
     ax i (a_vsum r) = fold_left nadd (map (ax i) vs) (ax i (a_vsum a))) /\
  a_mag r = fold_left span (map magnitude vs) (a_mag a) /\ a_msum r = fold_left nadd (map magnitude vs) (a_msum a).
Proof.
  induction vs as [|v vs IH]; intros a; cbn zeta; [cbn [fold_left map]; auto|]. cbn [fold_left map].
  destruct (IH (acc_vel a v)) as [H1 [H2 [H3 [H4 H5]]]]. cbn zeta in *. rewrite H1, H2, H4, H5.
  destruct a as [[[r0 r1] r2] [[v0 v1] v2] mg ms ds n]. destruct v as [[x y] z]. cbn [acc_vel a_n a_mag a_msum a_dims a_vel a_vsum span3].
  do 2 (split; [reflexivity|]). split; [|auto]. intros i Hi. destruct (H3 i Hi) as [E1 E2]. split; [etransitivity; [exact E1|] | etransitivity; [exact E2|]]; unfold gsel, ax; cbn [acc_vel a_vel a_vsum span3]; destruct (i =? 0)%N; try reflexivity; destruct (i =? 1)%N; reflexivity.
Qed.
Lemma acc_pos_fold (ps : list (v3 f64)) : forall a, let r := fold_left acc_pos ps a in
  a_n r = a_n a /\ a_vel r = a_vel a /\ a_vsum r = a_vsum a /\ a_mag r = a_mag a /\ a_msum r = a_msum a /\
  (forall i, (i < 3)%N -> gsel i (a_dims r) = fold_left span (map (ax i) ps) (gsel i (a_dims a))).
Proof.
  induction ps as [|p ps IH]; intros a; cbn zeta; [cbn [fold_left map]; auto 10|]. cbn [fold_left map].
  destruct (IH (acc_pos a p)) as [H1 [H2 [H3 [H4 [H5 H6]]]]]. cbn zeta in *. rewrite H1, H2, H3, H4, H5.
  destruct a as [vl vs mg ms [[d0 d1] d2] n]. destruct p as [[x y] z]. cbn [acc_pos a_n a_mag a_msum a_dims a_vel a_vsum span3].
  do 5 (split; [reflexivity|]). intros i Hi. etransitivity; [exact (H6 i Hi)|]. unfold gsel, ax; cbn [acc_pos a_dims span3]; destruct (i =? 0)%N; try reflexivity; destruct (i =? 1)%N; reflexivity.
Qed.
Lemma acc_files (cs : list (particles f64)) : forall a, let r := fold_left acc_file cs a in
  a_n r = fold_left (fun n c => n + p_len c)%N cs (a_n a) /\
  (forall i, (i < 3)%N -> gsel i (a_dims r) = fold_left span (map (ax i) (concat (map p_pos cs))) (gsel i (a_dims a)) /\
     gsel i (a_vel r) = fold_left span (map (ax i) (concat (map p_vel cs))) (gsel i (a_vel a)) /\
     ax i (a_vsum r) = fold_left nadd (map (ax i) (concat (map p_vel cs))) (ax i (a_vsum a))) /\
  a_mag r = fold_left span (map magnitude (concat (map p_vel cs))) (a_mag a) /\
  a_msum r = fold_left nadd (map magnitude (concat (map p_vel cs))) (a_msum a).
Proof.
  induction cs as [|c cs IH]; intros a; cbn zeta; [cbn [fold_left map concat]; auto|]. cbn [fold_left map concat].
  destruct (IH (acc_file a c)) as [H1 [H2 [H3 H4]]]. cbn zeta in *. rewrite H1, H3, H4. clear H1 H3 H4 IH.
  assert (V := acc_vel_fold (p_vel c) a). cbn zeta in V. destruct V as [V1 [V2 [V3 [V4 V5]]]].
  assert (P := acc_pos_fold (p_pos c) (fold_left acc_vel (p_vel c) a)). cbn zeta in P. destruct P as [P1 [P2 [P3 [P4 [P5 P6]]]]].
  assert (Q1 : a_n (acc_file a c) = (a_n a + p_len c)%N) by (unfold acc_file; cbn [acc_count a_n]; now rewrite P1, V1).
  assert (Q2 : a_mag (acc_file a c) = fold_left span (map magnitude (p_vel c)) (a_mag a)) by (unfold acc_file; cbn [acc_count a_mag]; now rewrite P4, V4).
  assert (Q3 : a_msum (acc_file a c) = fold_left nadd (map magnitude (p_vel c)) (a_msum a)) by (unfold acc_file; cbn [acc_count a_msum]; now rewrite P5, V5).
  rewrite Q1, Q2, Q3, !map_app, !fold_left_app. split; [reflexivity|]. split; [|auto].
  intros i Hi. destruct (H2 i Hi) as [E1 [E2 E3]]. destruct (V3 i Hi) as [V6 V7]. rewrite E1, E2, E3, !map_app, !fold_left_app.
  unfold acc_file. cbn [acc_count a_dims a_vel a_vsum]. rewrite (P6 i Hi), P2, P3, V2, V6, V7. auto.
Qed.

(** Dimensions, velocity ranges and means describe all particles of all timesteps; the time range is that
    of the files.  The number of particles is the largest id. *)
Theorem c57_header cfg dt fs cs tf h : Forall2 (content cfg) fs cs -> vtk_converter cfg fs dt = Val (tf, h) ->
  exists cs', Forall2 by_id cs cs' /\
    let P := concat (map p_pos cs') in let V := concat (map p_vel cs') in let T := map (f_time dt) fs in
    h_timesteps h = vlen fs /\ h_times h = T /\ h_time h = (hd n0 T, last T n0) /\
    (forall t1 t2 T0, T = T0 ++ [t1; t2] -> h_rate h = (t2 - t1)%num) /\
    (exists c, In c cs /\ In (h_nparticles h) (p_ids c)) /\ (forall c i, In c cs -> In i (p_ids c) -> (i <= h_nparticles h)%N) /\
    tf_nparticles tf = h_nparticles h /\
    (forall i, (i < 3)%N -> range_recorded (map (ax i) P) (ax i (fst (h_dims h))) (ax i (snd (h_dims h)))) /\
    (forall i lo mean hi, (i < 3)%N -> gsel i (h_vel h) = (lo, mean, hi) ->
       range_recorded (map (ax i) V) lo hi /\ mean_recorded (map (ax i) V) mean) /\
    (forall lo mean hi, h_mag h = (lo, mean, hi) ->
       range_recorded (map magnitude V) lo hi /\ mean_recorded (map magnitude V) mean).
Proof.
  intros Fc E. assert (Ne : fs <> []) by (intros ->; discriminate).
  assert (Io : in_order n0 (map (f_time dt) fs)).
  { assert (Dec : forall ts (old : f64), in_order old ts \/ ~ in_order old ts).
    { induction ts as [|t ts IH]; intros old; [left; exact I|]. cbn [in_order]. destruct (IH t) as [?|?]; [|right; tauto]. destruct (t <? old)%num; [right; intros [? _]; discriminate | left; auto]. }
    destruct (Dec (map (f_time dt) fs) n0) as [H|H]; [exact H|]. rewrite (c56_refused cfg dt fs cs Fc H) in E. discriminate. }
  destruct (vtk_loop cfg dt fs cs Fc 0 (mkT acc0 [] 0 (n0, n0) [] n0 n0) Io) as [cs' [gs [s' [El [Fb [Fs [Hg [Ht [Hn [Ha [Htm [Ho Hr]]]]]]]]]]]].
  rewrite N.add_0_l in El. unfold vtk_converter, enumerate in E. rewrite El in E. cbn [bind] in E.
  destruct (vlen fs =? 0)%N; [discriminate|]. unfold finish in E. apply val_pair in E as [E1 E2]. exists cs'. split; [exact Fb|].
  cbn [t_groups t_times t_np t_acc t_time t_old t_rate fst snd app] in *. cbn zeta.
  assert (Hh : h_nparticles h = t_np s' /\ h_timesteps h = vlen fs /\ h_rate h = t_rate s' /\ h_time h = t_time s' /\ h_times h = t_times s').
  { rewrite <- E2. unfold mk_header. destruct (t_acc s') as [[[r0 r1] r2] [[v0 v1] v2] mg ms [[d0 d1] d2] n]. cbn. auto. }
  destruct Hh as [Hh1 [Hh2 [Hh3 [Hh4 Hh5]]]]. rewrite Hh1, Hh2, Hh3, Hh4, Hh5. split; [reflexivity|]. split; [exact Ht|].
  split. { rewrite Htm. destruct fs as [|f0 fs]; [congruence|]. cbn [map hd]. destruct fs; reflexivity. }
  split. { intros t1 t2 T0 Et. rewrite Hr, Et, rev_app_distr. reflexivity. }
  assert (Np : t_np s' = fold_left N.max (concat (map p_ids cs')) 0%N).
  { rewrite Hn. clear. generalize 0%N as a. induction cs' as [|c cs IH]; intros a; cbn [fold_left map concat]; [reflexivity|]. rewrite fold_left_app. apply IH. }
  assert (Mx : forall l a, In (fold_left N.max l a) (a :: l) /\ forall x, In x (a :: l) -> (x <= fold_left N.max l a)%N).
  { clear. induction l as [|x l IH]; intros a; cbn [fold_left]; [split; [now left | intros x [->|[]]; lia]|]. destruct (IH (N.max a x)) as [I1 I2]. split.
    - destruct I1 as [<-|I1]; [|right; now right]. destruct (N.max_spec a x) as [[_ ->]|[_ ->]]; [right; now left | now left].
    - intros y Hy. assert (Hm := I2 (N.max a x) (or_introl eq_refl)). destruct Hy as [->|[->|Hy]]; [lia | lia | apply I2; now right]. }
  assert (Ids : forall i, In i (concat (map p_ids cs')) <-> exists c, In c cs /\ In i (p_ids c)).
  { intros i. rewrite in_concat. split.
    - intros [l [Hl Hi]]. apply in_map_iff in Hl as [c' [<- Hc']]. apply In_nth_error in Hc' as [k Hk]. destruct (Forall2_at _ _ _ Fb k c' Hk) as [c [Hc B]]. exists c. split; [eapply nth_error_In, Hc|]. eapply Permutation_in; [apply (by_id_perm c c' B) | exact Hi].
    - intros [c [Hc Hi]]. apply In_nth_error in Hc as [k Hk]. destruct (Forall2_at_l _ _ _ Fb k c Hk) as [c' [Hc' B]]. exists (p_ids c'). split; [apply in_map; eapply nth_error_In, Hc'|]. eapply Permutation_in; [symmetry; apply (by_id_perm c c' B) | exact Hi]. }
  destruct (Mx (concat (map p_ids cs')) 0%N) as [M1 M2]. rewrite <- Np in M1, M2.
  split. { destruct M1 as [M1|M1]; [|now apply Ids]. destruct fs as [|f0 fs]; [congruence|]. inversion Fc as [|? c0 ? cs0 Hc0 _]; subst.
    destruct Hc0 as [[Nc _] _]. destruct (p_ids c0) as [|i0 l0] eqn:Ei; [congruence|].
    assert (Hi : In i0 (concat (map p_ids cs'))) by (apply Ids; exists c0; split; [now left | rewrite Ei; now left]).
    assert (Le := M2 i0 (or_intror Hi)). exists c0. split; [now left|]. rewrite Ei. left. lia. }
  split. { intros c i Hc Hi. apply M2. right. apply Ids. eauto. }
  split; [rewrite <- E1; reflexivity|].
  assert (A := acc_files cs' acc0). cbn zeta in A. rewrite <- Ha in A. destruct A as [A1 [A2 [A3 A4]]]. cbn [acc0 a_n a_dims a_vel a_vsum a_mag a_msum] in A1, A2, A3, A4.
  assert (Ln : forall (g : v3 f64 -> f64), vlen (map g (concat (map p_vel cs'))) = a_n (t_acc s')).
  { intros g. unfold vlen. rewrite map_length. rewrite A1. assert (Lv : Forall (fun c => vlen (p_vel c) = p_len c) cs').
    { apply Forall_forall. intros c' Hc'. apply In_nth_error in Hc' as [k Hk]. destruct (Forall2_at _ _ _ Fb k c' Hk) as [c [_ B]]. destruct B as [[_ [_ [_ [_ Lv]]]] _]. exact Lv. }
    clear -Lv. assert (G : forall n, (n + N.of_nat (Datatypes.length (concat (map p_vel cs'))) = fold_left (fun n c => n + p_len c) cs' n)%N); [|rewrite <- G; reflexivity].
    induction Lv as [|c cs' Hc _ IH]; intros n; cbn [fold_left map concat]; [cbn; lia|]. rewrite <- IH, app_length. unfold vlen in Hc. lia. }
  rewrite <- E2. unfold mk_header. destruct (t_acc s') as [[[r0 r1] r2] [[v0 v1] v2] mg ms [[d0 d1] d2] n]. cbn [a_n a_dims a_vel a_vsum a_mag a_msum] in *.
  cbn [h_dims h_vel h_mag fst snd]. split; [|split].
  - intros i Li. destruct (A2 i Li) as [H1 _]. assert (R := span_recorded (map (ax i) (concat (map p_pos cs')))).
    change (ax i (fst d0, fst d1, fst d2)) with (if (i =? 0)%N then fst d0 else if (i =? 1)%N then fst d1 else fst d2).
    change (ax i (snd d0, snd d1, snd d2)) with (if (i =? 0)%N then snd d0 else if (i =? 1)%N then snd d1 else snd d2). unfold gsel in H1.
    destruct (i =? 0)%N; [|destruct (i =? 1)%N]; rewrite <- H1 in R; exact R.
  - intros i lo mean hi Li Eq. destruct (A2 i Li) as [_ [H2 H3]]. assert (R := span_recorded (map (ax i) (concat (map p_vel cs')))).
    unfold mean_recorded. rewrite Ln. unfold gsel in H2, Eq. change (ax i (v0, v1, v2)) with (if (i =? 0)%N then v0 else if (i =? 1)%N then v1 else v2) in H3. change (ax i (n0, n0, n0)) with (if (i =? 0)%N then n0 else if (i =? 1)%N then n0 else n0 : f64) in H3.
    destruct (i =? 0)%N; [|destruct (i =? 1)%N]; rewrite <- H2 in R; rewrite <- H3; assert (X1 := f_equal (fun p => fst (fst p)) Eq); assert (X2 := f_equal (fun p => snd (fst p)) Eq); assert (X3 := f_equal snd Eq); cbn [fst snd] in X1, X2, X3; subst lo mean hi; split; (exact R || reflexivity).
  - intros lo mean hi Eq. unfold mean_recorded. rewrite Ln. assert (R := span_recorded (map magnitude (concat (map p_vel cs')))). rewrite <- A3 in R. rewrite <- A4.
    assert (X1 := f_equal (fun p => fst (fst p)) Eq); assert (X2 := f_equal (fun p => snd (fst p)) Eq); assert (X3 := f_equal snd Eq); cbn [fst snd] in X1, X2, X3. subst lo mean hi. split; [exact R | reflexivity].
Qed.

(** The hypotheses are met: two files of two particles each, ids stored as 7, 3 and as 3, 7. *)
Local Notation f := f64_of_Z.
Definition ex_cfg : vtkcfg := mkCfg (Some "v"%string) (Some "id"%string) None None (Some "d"%string).
Definition ex_file (step : Z) (ids : list N) (x : Z) : vtkfile f64 :=
  mkVtk step (fun _ => Val ids) (fun n => if String.eqb n "d" then Val [f 2; f 4] else Val (map f [1; 0; 0; 0; 1; 0]%Z))
    (Val (map f [x; 1; 1; x + 1; 2; 2]%Z)).
Definition ex_part (ids : list N) (x : Z) : particles f64 :=
  mkPs ids (map (fun y => y * nlit 1 2)%num [f 2; f 4]) [n1; n1] [(f x, f 1, f 1); (f (x + 1), f 2, f 2)] [(f 1, f 0, f 0); (f 0, f 1, f 0)].
Definition ex_files := [ex_file 0 [7; 3]%N 5; ex_file 10 [3; 7]%N 6].
Definition ex_parts := [ex_part [7; 3]%N 5; ex_part [3; 7]%N 6].
Lemma ex_content : Forall2 (content ex_cfg) ex_files ex_parts /\ in_order (f 0) (map (f_time (f 1)) ex_files).
Proof.
  split.
  - repeat (constructor; [split; [repeat split; discriminate | split; [exists "id"%string; split; reflexivity | split; [eexists; split; reflexivity | split; [reflexivity | split; [exists "v"%string; eexists; repeat split | eexists; split; reflexivity]]]]] |]). constructor.
  - split; [vm_compute; reflexivity | split; [vm_compute; reflexivity | exact I]].
Qed.
Example c56_used : exists tf h, vtk_converter ex_cfg ex_files (f 1) = Val (tf, h) /\ tf_timesteps tf = 2%N /\
  h_nparticles h = 7%N /\
  match tf_group tf 0 with
  | Some g => match tg_position g, tg_radius g with
              | Some ((x1, _, _) :: _), Some (r1 :: _) => Beqb x1 (f 6) && Beqb r1 (f 2) = true
              | _, _ => False end
  | None => False end.
Proof.
  destruct ex_content as [C O]. destruct (c56_converted ex_cfg (f 1) ex_files ex_parts C ltac:(discriminate) O) as [tf [h [E [Nt _]]]].
  exists tf, h. split; [exact E|]. split; [exact Nt|]. revert E. clear.
  assert (G : match vtk_converter ex_cfg ex_files (f 1) with
    | Val (tf, h) => (h_nparticles h =? 7)%N && match tf_group tf 0 with
       | Some g => match tg_position g, tg_radius g with Some ((x1, _, _) :: _), Some (r1 :: _) => Beqb x1 (f 6) && Beqb r1 (f 2) | _, _ => false end
       | None => false end
    | Panic => false end = true) by (vm_compute; reflexivity).
  intros E. rewrite E in G. apply andb_true_iff in G as [G1 G2]. split; [now apply N.eqb_eq|].
  destruct (tf_group tf 0) as [g|]; [|discriminate]. destruct (tg_position g) as [[|[[x1 ?] ?] ?]|]; try discriminate. destruct (tg_radius g) as [[|r1 ?]|]; [discriminate | exact G2 | discriminate].
Qed.
(** Refuted: the header does not give the number of particles: two particles, header says 7. *)
Theorem c57_nparticles_refuted : exists cfg fs cs dt tf h, Forall2 (content (F := f64) cfg) fs cs /\
  vtk_converter cfg fs dt = Val (tf, h) /\ Forall (fun c => p_len c = 2%N) cs /\ h_nparticles h = 7%N.
Proof.
  exists ex_cfg, ex_files, ex_parts, (f 1). destruct c56_used as [tf [h [E [_ [Hn _]]]]]. exists tf, h. split; [apply ex_content|]. split; [exact E|]. split; [repeat constructor | exact Hn].
Qed.
