(** * Properties C69, C70: what the files with several particles lose; one CSV file per timestep. *)
From Coq Require Import Reals List NArith ZArith Bool Lia Lra Sorted Permutation ZifyBool ZifyN ZifyNat.
From Flocq Require Import Core.Core IEEE754.BinarySingleNaN.
From Verif Require Import Base BaseFacts Num F64Facts RFacts NDArray DataModel DataSpec DataLoad DataProofs PropertiesData ConvModel ConvSort ConvCsv PropertiesCsv ConvVtk ConvIds ConvMulti ConvIdChain.
Local Open Scope list_scope.
Local Open Scope bool_scope.
Local Notation tm := (@s_time f64).
Local Notation zero := (f64_of_Z 0).

(** ** C69, refuted *)

Section Lost.
  Context (fit : list f64 -> list f64 -> N -> option (list f64)) (powf : f64 -> f64 -> f64).
  (** A chained file with one trajectory, however long, is accepted and nothing of it is written. *)
  Theorem c69_single_refuted raw columns radius l : Forall2 (reads columns) raw l -> Forall (fun s => is_nan (tm s) = false) l -> trajectory l ->
    exists pf h, csv_multi_chain fit powf raw columns false false radius = Val (pf, h) /\ forall p, pf_group pf p = None.
  Proof.
    intros R C T. destruct (c59_chain fit powf raw columns radius l [] l R C) as [H _]; [cbn; now rewrite app_nil_r | exact T|].
    cbn [filter] in H. destruct (H (Forall_nil _)) as [pf [h [E [_ [N _]]]]]. exists pf, h. split; [exact E|]. intros p. apply N. unfold vlen. cbn. lia.
  Qed.
  (** Trajectories of fewer than ten lines are not written, nor is the last one. *)
  Theorem c69_short_refuted raw columns radius l ls last : Forall2 (reads columns) raw l -> Forall (fun s => is_nan (tm s) = false) l ->
    l = concat (ls ++ [last]) -> chained (ls ++ [last]) -> Forall (fun t => (vlen t < 10)%N) ls ->
    exists pf h, csv_multi_chain fit powf raw columns false false radius = Val (pf, h) /\ forall p, pf_group pf p = None.
  Proof.
    intros R C E T S. destruct (c59_chain fit powf raw columns radius l ls last R C E T) as [H _].
    assert (Z : filter long_enough ls = []). { clear -S. induction S as [|x ls Hx _ IH]; [reflexivity|]. cbn [filter]. unfold long_enough at 1. replace (10 <=? vlen x)%N with false by lia. exact IH. }
    rewrite Z in H. destruct (H (Forall_nil _)) as [pf [h [E2 [_ [N _]]]]]. exists pf, h. split; [exact E2|]. intros p. apply N. unfold vlen. cbn. lia.
  Qed.
End Lost.
(** The header says one particle whatever was written, so a reader of the file is shown one. *)
Theorem c69_one_shown_refuted pf h radius ids parts t x : holds_all pf h radius ids parts -> p_shows pf t x -> vlen (ts_pos x) = 1%N.
Proof. intros [_ [_ [_ [_ [_ [Np _]]]]]] [_ [L _]]. congruence. Qed.
(** A line that is not after all the lines before it reads as a particle at rest in the origin. *)
Theorem c69_origin_refuted pf h radius ids parts l k s : holds_all pf h radius ids parts -> at_ parts 0 l -> at_ l k s -> ~ news l k ->
  forall x, p_shows pf k x -> ts_time x = zero /\ ts_pos x = [(zero, zero, zero)] /\ ts_vel x = [(zero, zero, zero)].
Proof.
  intros [H [_ [_ [_ [_ [Np _]]]]]] Hl Hk Nn x [[g0 [G0 R0]] [L1 [L2 [_ [_ [_ [_ [_ S]]]]]]]].
  destruct (H 0%N l Hl) as [g [G [[T [P [V [ET [EP [EV [_ [_ [_ Rk]]]]]]]]] _]]]. destruct (Rk k s Hk) as [_ Z]. destruct (Z Nn) as [Z1 [Z2 Z3]].
  assert (g0 = g) by congruence. subst g0. destruct (S 0%N) as [g' [p [v [r [de [ty [G' [A1 [R1 [A2 [R2 _]]]]]]]]]]]; [rewrite Np; lia|]. assert (g' = g) by congruence. subst g'.
  rewrite ET in R0. rewrite EP in R1. rewrite EV in R2. unfold row in *. destruct R0 as [? [E0 R0]]. destruct R1 as [? [E1 R1]]. destruct R2 as [? [E2 R2]].
  assert (One : forall (A : Type) (q : list A) a, vlen q = 1%N -> at_ q 0 a -> q = [a]).
  { clear. intros A [|a0 [|b q]] a L Ha; unfold vlen in L; cbn in L; try lia. unfold at_ in Ha. cbn in Ha. congruence. }
  injection E0 as <-. injection E1 as <-. injection E2 as <-. rewrite Np in *.
  assert (Fu : forall (A : Type) (q : list A) i a b, at_ q i a -> at_ q i b -> a = b) by (clear; unfold at_; intros; congruence).
  split; [exact (Fu _ _ _ _ _ R0 Z1)|]. rewrite (One _ _ _ L1 A1), (One _ _ _ L2 A2), (Fu _ _ _ _ _ R1 Z2), (Fu _ _ _ _ _ R2 Z3). split; reflexivity.
Qed.

(** Files that meet the hypotheses: a chain of two trajectories, the first of eleven lines. *)
Local Notation f := f64_of_Z.
Definition ex_line (t x : Z) : list f64 := map f [t; x; 1; 2; 1; 0; 1]%Z.
Definition ex_s (t x : Z) : smp f64 := (f t, (f x, f 1, f 2), (f 1, f 0, f 1)).
Definition ex_seven : list Z := [0; 1; 2; 3; 4; 5; 6]%Z.
Definition ex_t1 : list Z := [1; 2; 3; 4; 5; 6; 7; 8; 9; 10; 11]%Z.
Definition ex_t2 : list Z := [1; 2]%Z.
Definition ex_chain : table f64 := map (fun t => ex_line t (t + 20)) (ex_t1 ++ ex_t2).
Definition ex_ls : list (list (smp f64)) := [map (fun t => ex_s t (t + 20)) ex_t1].
Definition ex_last : list (smp f64) := map (fun t => ex_s t (t + 20)) ex_t2.
Lemma ex_lines ts : Forall2 (reads ex_seven) (map (fun t => ex_line t (t + 20)) ts) (map (fun t => ex_s t (t + 20)) ts).
Proof. induction ts as [|t ts IH]; [constructor|]. cbn [map]. constructor; [|exact IH]. unfold reads, ex_seven, ex_line, ex_s. cbn [smp_row map]. repeat (constructor; [now apply col_entry_pick|]). constructor. Qed.
Lemma ex_chain_ok : Forall2 (reads ex_seven) ex_chain (concat (ex_ls ++ [ex_last])) /\ Forall (fun s => is_nan (tm s) = false) (concat (ex_ls ++ [ex_last])) /\
  chained (ex_ls ++ [ex_last]) /\ Forall acceptable (filter long_enough ex_ls) /\ filter long_enough ex_ls <> [].
Proof.
  split; [|split; [|split; [|split]]].
  - unfold ex_chain, ex_ls, ex_last. cbn [app concat]. rewrite app_nil_r, <- map_app. apply ex_lines.
  - unfold ex_ls, ex_last, ex_t1, ex_t2. cbn [app concat map]. repeat (constructor; [vm_compute; reflexivity|]). constructor.
  - assert (Tr : forall t ts, (fix up (o : Z) (l : list Z) := match l with [] => true | x :: l' => negb (Bltb (f x) (f o)) && up x l' end) t ts = true -> trajectory (map (fun t => ex_s t (t + 20)) (t :: ts))).
    { clear. intros t ts H. exists (ex_s t (t + 20)), (map (fun t => ex_s t (t + 20)) ts). split; [reflexivity|]. revert t H. induction ts as [|u ts IH]; intros t H; [exact I|].
      apply andb_true_iff in H as [H1 H2]. cbn [map climbs]. split; [now apply negb_true_iff in H1|]. now apply IH. }
    unfold ex_ls, ex_last. cbn [app chained]. split; [apply Tr; vm_compute; reflexivity|]. split; [|apply Tr; vm_compute; reflexivity].
    intros s Hs. unfold at_ in Hs. cbn in Hs. injection Hs as <-. vm_compute. reflexivity.
  - unfold ex_ls. cbn [filter]. change (long_enough _) with true. cbv iota. constructor; [|constructor]. split; [|split].
    + exists (ex_s 1 21). split; reflexivity.
    + match goal with |- (vlen (filter ?p ?l) <= _)%N => assert (H : (vlen (filter p l) <= 11)%N) end; [|lia].
      clear. match goal with |- (vlen (filter ?p ?l) <= _)%N => generalize p end. intros p. change 11%N with (vlen (map (fun t => ex_s t (t + 20)) ex_t1)). generalize (map (fun t => ex_s t (t + 20)) ex_t1). intros q. unfold vlen. induction q as [|a q IH]; cbn [filter length]; [lia|]. destruct (p a); cbn [length]; lia.
    + intros t _. match goal with |- (vlen (filter ?p ?l) <= _)%N => assert (H : (vlen (filter p l) <= 11)%N) end; [|lia].
      match goal with |- (vlen (filter ?p ?l) <= _)%N => generalize p end. intros p. change 11%N with (vlen (map (fun t => ex_s t (t + 20)) ex_t1)). generalize (map (fun t => ex_s t (t + 20)) ex_t1). intros q. unfold vlen. induction q as [|a q IH]; cbn [filter length]; [lia|]. destruct (p a); cbn [length]; lia.
  - discriminate.
Qed.
Example c59_used fit powf : exists pf h g, csv_multi_chain fit powf ex_chain ex_seven false false (f 1) = Val (pf, h) /\
  pf_group pf 0 = Some g /\ pf_group pf 1 = None /\ pf_timesteps pf = 11%N.
Proof.
  destruct ex_chain_ok as [R [C [Ch [A Ne]]]]. destruct (c59_chain fit powf _ _ (f 1) _ ex_ls ex_last R C eq_refl Ch) as [H _].
  destruct (H A) as [pf [h [E [Hg [Hn [_ [_ [Ht _]]]]]]]]. destruct (Hg 0%N (map (fun t => ex_s t (t + 20)) ex_t1) eq_refl) as [g [G _]]. exists pf, h, g.
  split; [exact E|]. split; [exact G|]. split; [apply Hn; vm_compute; discriminate|]. destruct (Ht Ne) as [l [[<-|[]] <-]]. reflexivity.
Qed.
(** ... and lines labelled with ids 5, 2, 5, 9, the second at time zero. *)
Definition ex_eight : list Z := [0; 1; 2; 3; 4; 5; 6; 7]%Z.
Definition ex_l8 : list (f64 * smp f64) := map (fun '(t, i, x) => (f i, (f t, (f x, f x, f x), (f 1, f 1, f 1)))) [(2, 5, 10); (0, 2, 20); (1, 5, 11); (3, 9, 30)]%Z.
Lemma ex_l8_ok : Forall2 (reads_id ex_eight) (map row8 ex_l8) ex_l8 /\ map row8 ex_l8 <> [] /\ Forall (fun x => is_nan (tm (snd x)) = false) ex_l8.
Proof.
  split; [|split; [discriminate | repeat constructor]]. unfold ex_l8. cbn [map]. repeat (constructor; [unfold reads_id, ex_eight; cbn [row8]; repeat (constructor; [now apply col_entry_pick|]); constructor|]). constructor.
Qed.
Example c68_used fit powf : match csv_multi_idline fit powf (map row8 ex_l8) ex_eight false false (f 1) with
  | Val (pf, h) => (pf_timesteps pf =? 2)%N && match pf_group pf 1 with
      | Some g => match pg_time g, pg_position g, pg_id g with
                  | Some [a; b], Some [(x, _, _); (y, _, _)], Some [i; _] => Beqb a (f 1) && Beqb b (f 2) && Beqb x (f 11) && Beqb y (f 10) && Beqb i (f 1)
                  | _, _, _ => false end
      | None => false end
  | Panic => false end = true.
Proof. vm_compute. reflexivity. Qed.

(** ** C70: one CSV file per timestep *)

Lemma describes_of (cs : list (particles f64)) np nt rate time times : Forall (fun c => vlen (p_vel c) = p_len c) cs ->
  let h := mk_header (fold_left acc_file cs acc0) np nt rate time times in
  let P := concat (map p_pos cs) in let V := concat (map p_vel cs) in
  (forall i, (i < 3)%N -> range_recorded (map (ax i) P) (ax i (fst (h_dims h))) (ax i (snd (h_dims h)))) /\
  (forall i lo mean hi, (i < 3)%N -> gsel i (h_vel h) = (lo, mean, hi) ->
     range_recorded (map (ax i) V) lo hi /\ mean_recorded (map (ax i) V) mean) /\
  (forall lo mean hi, h_mag h = (lo, mean, hi) ->
     range_recorded (map magnitude V) lo hi /\ mean_recorded (map magnitude V) mean).
Proof.
  intros Lv. cbn zeta. assert (A := acc_files cs acc0). cbn zeta in A. destruct A as [A1 [A2 [A3 A4]]]. set (a := fold_left acc_file cs acc0) in *.
  cbn [acc0 a_n a_dims a_vel a_vsum a_mag a_msum] in A1, A2, A3, A4.
  assert (Ln : forall (g : v3 f64 -> f64), vlen (map g (concat (map p_vel cs))) = a_n a).
  { intros g. unfold vlen. rewrite map_length. rewrite A1.
    clear -Lv. assert (G : forall n, (n + N.of_nat (length (concat (map p_vel cs))) = fold_left (fun n c => n + p_len c) cs n)%N); [|rewrite <- G; reflexivity].
    induction Lv as [|c cs Hc _ IH]; intros n; cbn [fold_left map concat]; [cbn; lia|]. rewrite <- IH, app_length. unfold vlen in Hc. lia. }
  unfold mk_header. destruct a as [[[r0 r1] r2] [[v0 v1] v2] mg ms [[d0 d1] d2] n]. cbn [a_n a_dims a_vel a_vsum a_mag a_msum] in *.
  cbn [h_dims h_vel h_mag fst snd]. split; [|split].
  - intros i Li. destruct (A2 i Li) as [H1 _]. assert (R := span_recorded (map (ax i) (concat (map p_pos cs)))).
    change (ax i (fst d0, fst d1, fst d2)) with (if (i =? 0)%N then fst d0 else if (i =? 1)%N then fst d1 else fst d2).
    change (ax i (snd d0, snd d1, snd d2)) with (if (i =? 0)%N then snd d0 else if (i =? 1)%N then snd d1 else snd d2). unfold gsel in H1.
    destruct (i =? 0)%N; [|destruct (i =? 1)%N]; rewrite <- H1 in R; exact R.
  - intros i lo mean hi Li Eq. destruct (A2 i Li) as [_ [H2 H3]]. assert (R := span_recorded (map (ax i) (concat (map p_vel cs)))).
    unfold mean_recorded. rewrite Ln. unfold gsel in H2, Eq. change (ax i (v0, v1, v2)) with (if (i =? 0)%N then v0 else if (i =? 1)%N then v1 else v2) in H3. change (ax i (n0, n0, n0)) with (if (i =? 0)%N then n0 else if (i =? 1)%N then n0 else n0 : f64) in H3.
    destruct (i =? 0)%N; [|destruct (i =? 1)%N]; rewrite <- H2 in R; rewrite <- H3; assert (X1 := f_equal (fun p => fst (fst p)) Eq); assert (X2 := f_equal (fun p => snd (fst p)) Eq); assert (X3 := f_equal snd Eq); cbn [fst snd] in X1, X2, X3; subst lo mean hi; split; (exact R || reflexivity).
  - intros lo mean hi Eq. unfold mean_recorded. rewrite Ln. assert (R := span_recorded (map magnitude (concat (map p_vel cs)))). rewrite <- A3 in R. rewrite <- A4.
    assert (X1 := f_equal (fun p => fst (fst p)) Eq); assert (X2 := f_equal (fun p => snd (fst p)) Eq); assert (X3 := f_equal snd Eq); cbn [fst snd] in X1, X2, X3. subst lo mean hi. split; [exact R | reflexivity].
Qed.

(** Specification.  A line of such a file: id, position, velocity. *)
Definition s_id (s : smp f64) : f64 := s_time s.
(** The group of a timestep holds the lines of its file, in the order of the file. *)
Definition step_stored (g : tgroup f64) (t : f64) (l : list (smp f64)) : Prop :=
  tg_time g = Some t /\ tg_position g = Some (map s_pos l) /\ tg_velocity g = Some (map s_vel l) /\ tg_id g = Some (map s_id l) /\
  tg_radius g = Some (repeat zero (length l)) /\ tg_ppcloud g = Some (repeat zero (length l)) /\ tg_ptype g = Some (repeat zero (length l)) /\ tg_density g = None.

Definition as_p (l : list (smp f64)) : particles f64 := mkPs (map (fun _ => 0%N) l) [] [] (map s_pos l) (map s_vel l).
Lemma trips (l : list (smp f64)) :
  column (map smp_row l) 0 = Val (map s_id l) /\
  mmap (fun r => let! a := vget r 1 in let! b := vget r (1 + 1) in let! c := vget r (1 + 2) in Val (a, b, c)) (map smp_row l) = Val (map s_pos l) /\
  mmap (fun r => let! a := vget r 4 in let! b := vget r (4 + 1) in let! c := vget r (4 + 2) in Val (a, b, c)) (map smp_row l) = Val (map s_vel l).
Proof.
  induction l as [|s l [H1 [H2 H3]]]; [repeat split|]. unfold column in *. cbn [map mmap]. rewrite H1, H2, H3. destruct s as [[t [[x y] z]] [[a b] c]]. repeat split.
Qed.
Lemma step_eq times columns s k data l t : vlen columns = 7%N -> Forall2 (reads columns) data l -> data <> [] -> at_ times k t ->
  exists g, step_stored g t l /\
    csv_step_file times columns s (k, data) = Val (mkT (acc_file (t_acc s) (as_p l)) (t_groups s ++ [g]) (vlen l)
      (fst (t_time s), later (snd (t_time s)) t) (t_times s ++ [t]) t (t - t_old s)%num).
Proof.
  intros L7 R Ne Ht. assert (Pk : pick 7 columns data = Val (map smp_row l)).
  { rewrite pick_rows by assumption. apply mmap_Forall2. clear -R. induction R as [|r s raw l H _ IH]; [constructor|]. cbn [map]. constructor; [now apply reads_pick in H | exact IH]. }
  destruct (trips l) as [T1 [T2 T3]].
  exists (mkTg (Some (map s_pos l)) (Some (map s_vel l)) (Some (map (fun _ => n0) (map s_id l))) None (Some (map (fun _ => n0) (map s_id l))) (Some t) (Some (map (fun _ => n0) (map s_id l))) (Some (map s_id l))).
  assert (Z : map (fun _ => n0) (map s_id l) = repeat zero (length l)). { clear. induction l as [|s l IH]; [reflexivity|]. cbn [map length repeat]. now rewrite IH. }
  split; [unfold step_stored; cbn [tg_time tg_position tg_velocity tg_id tg_radius tg_ppcloud tg_ptype tg_density]; rewrite Z; repeat split|].
  unfold csv_step_file. rewrite (at_vget _ _ _ Ht). cbn [bind]. rewrite Pk. cbn [bind]. rewrite T1. cbn [bind].
  match goal with |- bind ?X _ = _ => replace X with (Val (map s_pos l)) by (symmetry; exact T2) end. cbn [bind].
  match goal with |- bind ?X _ = _ => replace X with (Val (map s_vel l)) by (symmetry; exact T3) end. cbn [bind]. f_equal.
  assert (L : vlen (map s_id l) = vlen l) by (unfold vlen; now rewrite map_length). rewrite L.
  unfold acc_file, as_p. cbn [p_pos p_vel]. unfold p_len. cbn [p_ids]. assert (L2 : vlen (map (fun _ : smp f64 => 0%N) l) = vlen l) by (unfold vlen; now rewrite map_length). rewrite L2. reflexivity.
Qed.
Lemma step_loop times columns files ls : vlen columns = 7%N -> Forall2 (Forall2 (reads columns)) files ls -> ~ In [] files -> forall i s, (i + vlen files <= vlen times)%N ->
  exists gs s', mfold (csv_step_file times columns) (combine (range i (i + vlen files)) files) s = Val s' /\
    let ts := firstn (length files) (skipn (N.to_nat i) times) in
    Forall2 (fun g tl => step_stored g (fst tl) (snd tl)) gs (combine ts ls) /\
    t_groups s' = t_groups s ++ gs /\ t_times s' = t_times s ++ ts /\
    t_np s' = last (map vlen ls) (t_np s) /\ t_acc s' = fold_left acc_file (map as_p ls) (t_acc s) /\
    t_time s' = (fst (t_time s), fold_left later ts (snd (t_time s))) /\
    t_rate s' = (match rev ts with [] => t_rate s | t :: us => t - hd (t_old s) us end)%num.
Proof.
  intros L7. induction 1 as [|data l files ls H _ IH]; intros Ne i s Hi.
  - exists [], s. rewrite range_empty by (unfold vlen; cbn [length]; lia). cbn [combine mfold length firstn map last fold_left rev]. rewrite !app_nil_r. destruct (t_time s) eqn:Et. repeat split; constructor.
  - rewrite vlen_cons in Hi. destruct (lt_at times i) as [t Ht]; [lia|]. destruct (step_eq times columns s i data l t L7 H ltac:(intros ->; apply Ne; now left) Ht) as [g [Sg Ef]].
    rewrite range_cons by (rewrite vlen_cons; lia). cbn [combine mfold]. rewrite Ef. cbn [bind]. match type of Ef with _ = Val ?s1 => set (s1' := s1) in * end.
    destruct (IH (fun X => Ne (or_intror X)) (i + 1)%N s1') as [gs [s' [E [Fs [Hg [Htm [Hn [Ha [Hti Hr]]]]]]]]]; [lia|]. cbn zeta in *.
    assert (Sk : skipn (N.to_nat i) times = t :: skipn (N.to_nat (i + 1)) times).
    { replace (N.to_nat (i + 1)) with (S (N.to_nat i)) by lia. clear -Ht. unfold at_ in Ht. revert times Ht. induction (N.to_nat i) as [|n IHn]; intros [|a times] Ht; try discriminate; [cbn in *; congruence|]. cbn [skipn]. now apply IHn. }
    exists (g :: gs), s'. replace (i + vlen (data :: files))%N with (i + 1 + vlen files)%N by (rewrite vlen_cons; lia). split; [exact E|]. cbn [length]. rewrite Sk. cbn [firstn].
    set (ts := firstn (length files) (skipn (N.to_nat (i + 1)) times)) in *.
    split; [cbn [combine]; constructor; [exact Sg | exact Fs]|]. cbn [t_groups t_times t_np t_acc t_time t_old t_rate s1' fst snd] in *.
    rewrite Hg, Htm, Hn, Ha, Hti, Hr, <- !app_assoc. do 2 (split; [reflexivity|]). split; [cbn [map]; apply last_cons|]. do 2 (split; [reflexivity|]).
    cbn [rev]. destruct (rev ts) as [|u us]; [reflexivity|]. cbn [app]. destruct us; reflexivity.
Qed.

(** Every file becomes the timestep of its place, with the time given for it, its lines in their order and zero
    for radius, number and type; the header describes all the lines; the number of particles is the number of lines
    of the last file. *)
Theorem c70_converted columns files ls times : vlen columns = 7%N -> Forall2 (Forall2 (reads columns)) files ls -> ~ In [] files -> (vlen files <= vlen times)%N ->
  exists tf h, csv_multi_file_time_step files columns times = Val (tf, h) /\
    tf_timesteps tf = vlen files /\ h_timesteps h = vlen files /\
    (forall k t l, at_ times k t -> at_ ls k l -> exists g, tf_group tf k = Some g /\ step_stored g t l) /\
    (forall k, (vlen files <= k)%N -> tf_group tf k = None) /\
    h_times h = firstn (length files) times /\
    (forall t1 t2 T0, h_times h = T0 ++ [t1; t2] -> h_rate h = (t2 - t1)%num) /\
    tf_nparticles tf = h_nparticles h /\ (forall ls0 l, ls = ls0 ++ [l] -> h_nparticles h = vlen l) /\
    fst (h_time h) = zero /\ (Forall (fun t => Bltb zero t = true) (h_times h) -> h_times h <> [] -> highest (snd (h_time h)) (h_times h)) /\
    let P := map s_pos (concat ls) in let V := map s_vel (concat ls) in
    (forall i, (i < 3)%N -> range_recorded (map (ax i) P) (ax i (fst (h_dims h))) (ax i (snd (h_dims h)))) /\
    (forall i lo mean hi, (i < 3)%N -> gsel i (h_vel h) = (lo, mean, hi) ->
       range_recorded (map (ax i) V) lo hi /\ mean_recorded (map (ax i) V) mean) /\
    (forall lo mean hi, h_mag h = (lo, mean, hi) ->
       range_recorded (map magnitude V) lo hi /\ mean_recorded (map magnitude V) mean).
Proof.
  intros L7 R Nf Hl. destruct (step_loop times columns files ls L7 R Nf 0 (mkT acc0 [] 0 (n0, n0) [] n0 n0)) as [gs [s' [E [Fs [Hg [Htm [Hn [Ha [Hti Hr]]]]]]]]]; [lia|].
  rewrite N.add_0_l in E. change (skipn (N.to_nat 0) times) with times in *. set (ts := firstn (length files) times) in *. cbn [t_groups t_times t_np t_acc t_time t_old t_rate fst snd app] in *.
  unfold csv_multi_file_time_step. rewrite L7. change (negb _) with false. cbv iota. unfold enumerate.
  match goal with |- context [mfold ?g ?l ?s0] => replace (mfold g l s0) with (Val s') by (symmetry; exact E) end. cbn [bind]. unfold finish. do 2 eexists. split; [reflexivity|].
  cbn [tf_timesteps tf_group tf_nparticles]. rewrite Hg, Ha, Hti, Hr, Htm, Hn.
  match goal with |- context [mk_header ?a ?b ?c ?d ?e ?g] => set (h := mk_header a b c d e g) end.
  assert (Hh : h_nparticles h = last (map vlen ls) 0%N /\ h_timesteps h = vlen files /\ h_rate h = (match rev ts with [] => n0 | t :: us => t - hd n0 us end)%num /\ h_time h = (n0, fold_left later ts n0) /\ h_times h = ts).
  { unfold h, mk_header. destruct (fold_left acc_file (map as_p ls) acc0) as [[[r0 r1] r2] [[v0 v1] v2] mg ms [[d0 d1] d2] n]. cbn [h_nparticles h_timesteps h_rate h_time h_times]. repeat split. }
  destruct Hh as [Hh1 [Hh2 [Hh3 [Hh4 Hh5]]]]. rewrite Hh1, Hh2, Hh4, Hh5. do 2 (split; [reflexivity|]).
  assert (Lf : length ls = length files) by (symmetry; now apply Forall2_length in R).
  assert (Lts : length ts = length files) by (unfold ts; rewrite firstn_length; unfold vlen in Hl; lia).
  split; [|split; [|split; [reflexivity|split; [|split; [reflexivity|split; [|split; [reflexivity|split]]]]]]].
  - intros k t l Ht Hk. assert (Hp : nth_error (combine ts ls) (N.to_nat k) = Some (t, l)).
    { assert (Lk : (N.to_nat k < length files)%nat) by (rewrite <- Lf; apply nth_error_Some; unfold at_ in Hk; congruence).
      assert (H1 : nth_error ts (N.to_nat k) = Some t) by (unfold ts; rewrite nth_error_firstn; replace (N.to_nat k <? length files)%nat with true by lia; exact Ht).
      clearbody ts. clear -H1 Hk. unfold at_ in Hk. revert ts ls H1 Hk. induction (N.to_nat k) as [|n IH]; intros [|a ts] [|b ls] H1 Hk; try discriminate; cbn [nth_error combine] in *; [congruence | now apply IH]. }
    destruct (Forall2_at _ _ _ Fs _ _ Hp) as [g [Hgk Sg]]. exists g. split; [exact Hgk | exact Sg].
  - intros k Hk. apply nth_error_None. apply Forall2_length in Fs. rewrite combine_length in Fs. unfold vlen in Hk. lia.
  - intros t1 t2 T0 Et. rewrite Hh3, Et, rev_app_distr. reflexivity.
  - intros ls0 l ->. rewrite map_app. apply last_last.
  - intros Ft Ne. cbn [snd]. assert (Np : Forall (fun t : f64 => is_nan t = false) ts).
    { eapply Forall_impl; [|exact Ft]. intros t H. cbn beta in H. destruct t; try reflexivity. discriminate. }
    destruct (later_high ts zero no_nan_zero Np) as [A [B C]]. cbn zeta in *. change n0 with zero. split; [|exact C].
    destruct A as [A|A]; [|exact A]. exfalso. destruct ts as [|t ts']; [congruence|]. assert (H1 := C t (or_introl eq_refl)). rewrite A in H1. inversion Ft; subst. rewrite (Blt_nle _ _ H2) in H1. discriminate.
  - cbn zeta. assert (D := describes_of (map as_p ls) (last (map vlen ls) 0%N) (vlen files) (match rev ts with [] => n0 | t :: us => t - hd n0 us end)%num (n0, fold_left later ts n0) ts). cbn zeta in D.
    assert (CP : concat (map p_pos (map as_p ls)) = map s_pos (concat ls)) by (rewrite map_map; cbn [as_p p_pos]; symmetry; apply concat_map).
    assert (CV : concat (map p_vel (map as_p ls)) = map s_vel (concat ls)) by (rewrite map_map; cbn [as_p p_vel]; symmetry; apply concat_map).
    rewrite CP, CV in D. apply D. apply Forall_map, Forall_forall. intros l _. unfold as_p, p_len, vlen. cbn [p_vel p_ids]. now rewrite !map_length.
Qed.

(** A file without lines stops the conversion. *)
Lemma step_empty times columns s k : columns <> [] -> csv_step_file (F := f64) times columns s (k, []) = Panic.
Proof. intros Ne. unfold csv_step_file. destruct (vget times k) as [t|]; [|reflexivity]. cbn [bind]. destruct columns; [congruence | reflexivity]. Qed.
Theorem c70_empty_file columns (files : list (table f64)) times : In [] files -> csv_multi_file_time_step files columns times = Panic.
Proof.
  intros Hi. unfold csv_multi_file_time_step. destruct (negb _) eqn:Ec; [reflexivity|]. assert (Nc : columns <> []) by (intros ->; discriminate Ec). unfold enumerate.
  match goal with |- bind ?X _ = _ => assert (Xp : X = Panic); [|rewrite Xp; reflexivity] end.
  rewrite <- (N.add_0_l (vlen files)) at 1. generalize 0%N at 1 2 as i. match goal with |- forall i, mfold _ _ ?s0 = _ => generalize s0 end.
  revert Hi. induction files as [|d fs IH]; intros Hi s i; [destruct Hi|]. rewrite range_cons by (rewrite vlen_cons; lia). cbn [combine mfold].
  destruct Hi as [-> | Hi]; [now rewrite step_empty|]. destruct (csv_step_file times columns s (i, d)) as [s'|]; [|reflexivity]. cbn [bind].
  rewrite vlen_cons. replace (i + (1 + vlen fs))%N with (i + 1 + vlen fs)%N by lia. now apply IH.
Qed.
(** Too few times, or a number of columns other than four or seven, are refused. *)
Theorem c70_refused columns files ls times : Forall2 (Forall2 (reads columns)) files ls -> (vlen times < vlen files)%N \/ vlen columns <> 4%N /\ vlen columns <> 7%N ->
  csv_multi_file_time_step files columns times = Panic.
Proof.
  intros R [Hl|[H4 H7]].
  - unfold csv_multi_file_time_step. destruct (negb _) eqn:Ec; [reflexivity|]. unfold enumerate. assert (G : forall fs i s, (vlen times < i + vlen fs)%N -> fs <> [] -> mfold (csv_step_file times columns) (combine (range i (i + vlen fs)) fs) s = Panic).
    { clear. induction fs as [|d fs IH]; intros i s Hi Ne; [congruence|]. rewrite range_cons by (rewrite vlen_cons; lia). cbn [combine mfold].
      destruct (csv_step_file times columns s (i, d)) as [s'|] eqn:E; [|reflexivity]. cbn [bind]. rewrite vlen_cons in *. destruct fs as [|d2 fs].
      - exfalso. unfold csv_step_file in E. destruct (vget times i) as [t|] eqn:Et; [|discriminate]. apply vget_lt_inv in Et. cbn in Hi. lia.
      - replace (i + (1 + vlen (d2 :: fs)))%N with (i + 1 + vlen (d2 :: fs))%N by lia. apply IH; [lia | discriminate]. }
    specialize (G files 0%N (mkT acc0 [] 0 (n0, n0) [] n0 n0)). rewrite N.add_0_l in G. match goal with |- bind ?X _ = _ => assert (Xp : X = Panic); [|rewrite Xp; reflexivity] end. apply G; [exact Hl|]. intros ->. unfold vlen in Hl. cbn [length] in Hl. lia.
  - unfold csv_multi_file_time_step. replace (negb _) with true by (symmetry; apply negb_true_iff, orb_false_iff; split; now apply N.eqb_neq). reflexivity.
Qed.
(** Read back, each timestep is its file. *)
Definition step_shown (t : f64) (l : list (smp f64)) : timestep f64 :=
  mkTs t (map s_pos l) (map s_vel l) (repeat zero (length l)) (map s_id l) (repeat zero (length l)) (repeat n1 (length l)) (repeat zero (length l)).
Theorem c70_read_back bld columns files ls times (ks : list N) : vlen columns = 7%N -> Forall2 (Forall2 (reads columns)) files ls -> ~ In [] files -> (vlen files <= vlen times)%N ->
  files <> [] -> (vlen files <= 2 ^ 53)%N -> Forall (fun k => k < vlen files)%N ks ->
  exists tf h d outs, csv_multi_file_time_step files columns times = Val (tf, h) /\ t_hist bld tf (map ORead ks) = Val (d, outs) /\ map fst outs = ks /\
    Forall (fun o => exists t l, at_ times (fst o) t /\ at_ ls (fst o) l /\ snd o = step_shown t l) outs.
Proof.
  intros L7 R Nf Hl Ne Ln Hk. destruct (c70_converted columns files ls times L7 R Nf Hl) as [tf [h [E [Nt [_ [Hg _]]]]]]. exists tf, h.
  assert (All : forall k, (k < vlen files)%N -> exists t l g, at_ times k t /\ at_ ls k l /\ tf_group tf k = Some g /\ step_stored g t l).
  { intros k Lk. destruct (lt_at times k) as [t Ht]; [lia|]. destruct (lt_at files k Lk) as [d Hd]. destruct (Forall2_at_l _ _ _ R _ _ Hd) as [l [Hl' _]]. destruct (Hg k t l Ht Hl') as [g [G S]]. exists t, l, g. auto. }
  assert (OK : tf_ok tf).
  { split; [rewrite Nt; split; [destruct files; [congruence | rewrite vlen_cons; lia] | exact Ln]|]. intros k Lk. rewrite Nt in Lk.
    destruct (All k Lk) as [t [l [g [_ [_ [Gk S]]]]]]. exists g. split; [exact Gk|]. destruct S as [-> [-> [-> [-> [-> [-> [-> _]]]]]]]. repeat split; discriminate. }
  rewrite <- Nt in Hk. destruct (c29_reads bld tf OK ks Hk) as [d [outs [Eh [Em Sh]]]]. exists d, outs. split; [exact E|]. split; [exact Eh|]. split; [exact Em|].
  assert (Hin : forall o, In o outs -> (fst o < vlen files)%N). { intros o Ho. rewrite <- Nt. rewrite Forall_forall in Hk. apply Hk. rewrite <- Em. now apply in_map. }
  rewrite Forall_forall in Sh |- *. intros [k x] Ho. specialize (Sh _ Ho). specialize (Hin _ Ho). cbn [fst snd] in *.
  destruct (All k Hin) as [t [l [g [Ht [Hl' [Gk S]]]]]]. exists t, l. split; [exact Ht|]. split; [exact Hl'|].
  destruct Sh as [g' [Gk' [T1 [T2 [T3 [T4 [T5 [T6 [T7 T8]]]]]]]]]. assert (g' = g) by congruence. subst g'. destruct S as [S1 [S2 [S3 [S4 [S5 [S6 [S7 S8]]]]]]].
  rewrite S8 in T8. destruct x as [xt xp xv xr xi xc xd xty]. cbn [ts_time ts_pos ts_vel ts_radius ts_id ts_clouds ts_density ts_type] in *.
  unfold step_shown. assert (Sm : forall (A : Type) (a b : A), Some a = Some b -> a = b) by (intros; congruence).
  assert (Y : forall (A : Type) (o : option A) a b, o = Some a -> o = Some b -> b = a) by (intros; congruence).
  rewrite (Y _ _ _ _ S1 T1), (Y _ _ _ _ S2 T2), (Y _ _ _ _ S3 T3), (Y _ _ _ _ S4 T5), (Y _ _ _ _ S6 T6), (Y _ _ _ _ S7 T7).
  assert (Er := Y _ _ _ _ S5 T4). subst xr. rewrite T8, repeat_length. reflexivity.
Qed.
Definition ex_step_files : list (table f64) := [map (fun t => ex_line t (t + 20)) [7; 3]%Z; map (fun t => ex_line t (t + 20)) [3; 7; 8]%Z].
Definition ex_step_ls : list (list (smp f64)) := [map (fun t => ex_s t (t + 20)) [7; 3]%Z; map (fun t => ex_s t (t + 20)) [3; 7; 8]%Z].
Lemma ex_step_ok : vlen ex_seven = 7%N /\ Forall2 (Forall2 (reads ex_seven)) ex_step_files ex_step_ls /\ ~ In [] ex_step_files /\ (vlen ex_step_files <= vlen [f 1; f 2])%N /\ ex_step_files <> [].
Proof. split; [reflexivity|]. split; [|split; [intros [|[|[]]]; discriminate|]; split; [vm_compute; discriminate | discriminate]]. repeat (constructor; [apply ex_lines|]). constructor. Qed.
(** Refuted: the number of particles is that of the last file, however many lines the others have. *)
Theorem c70_nparticles_refuted : exists files ls times columns tf h, vlen columns = 7%N /\ Forall2 (Forall2 (reads columns)) files ls /\
  csv_multi_file_time_step files columns times = Val (tf, h) /\ h_nparticles h = 2%N /\ exists l, In l ls /\ vlen l = 3%N.
Proof.
  exists (rev ex_step_files), (rev ex_step_ls), [f 1; f 2], ex_seven.
  assert (R : Forall2 (Forall2 (reads ex_seven)) (rev ex_step_files) (rev ex_step_ls)) by (cbn [rev app ex_step_files ex_step_ls]; repeat (constructor; [apply ex_lines|]); constructor).
  destruct (c70_converted ex_seven (rev ex_step_files) (rev ex_step_ls) [f 1; f 2] eq_refl R ltac:(intros [|[|[]]]; discriminate)) as [tf [h [E [_ [_ [_ [_ [_ [_ [_ [Np _]]]]]]]]]]]; [vm_compute; discriminate|].
  exists tf, h. split; [reflexivity|]. split; [exact R|]. split; [exact E|]. split; [apply (Np [map (fun t => ex_s t (t + 20)) [3; 7; 8]%Z] (map (fun t => ex_s t (t + 20)) [7; 3]%Z)); reflexivity|].
  exists (map (fun t => ex_s t (t + 20)) [3; 7; 8]%Z). split; [now left | reflexivity].
Qed.
