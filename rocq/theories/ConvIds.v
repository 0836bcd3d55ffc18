(** * Property C58: grouping the rows of a table by particle id. *)
From Coq Require Import Reals List NArith ZArith Bool Lia Lra Sorted Permutation ZifyBool ZifyN ZifyNat.
From Flocq Require Import Core.Core IEEE754.BinarySingleNaN.
From Verif Require Import Base BaseFacts Num F64Facts NDArray DataModel DataSpec DataLoad ConvModel ConvSort ConvCsv PropertiesCsv.
Local Open Scope list_scope.
Local Open Scope bool_scope.

Section Ids.
  Context {F : Type} {NF : Num F}.

  (** ** Specification *)
  (** The row belongs to particle [i]: its id column, as an integer, is [i]. *)
  Definition of_id (i : N) (row : list F) : bool :=
    match nth_error row 1 with Some x => (nusize x =? i)%N | None => false end.
  (** The rows of particle [i], in the order of the table. *)
  Definition rows_of (i : N) (data : table F) : table F := filter (of_id i) data.
  (** Every row has a time and an id. *)
  Definition labelled (data : table F) : Prop := Forall (fun row => exists t x l, row = t :: x :: l) data.

  Definition cnt (i : N) (data : table F) : N := vlen (rows_of i data).

  (** ** Counting *)
  Lemma count_new id l : ~ In id (map fst l) -> count_id id l = (l ++ [(id, 1%N)], None).
  Proof.
    induction l as [|[k c] l IH]; intros H; cbn [count_id app]; [reflexivity|]. cbn [map fst In] in H.
    destruct (N.eqb_spec k id); [tauto|]. rewrite IH by tauto. reflexivity.
  Qed.
  Lemma count_old id l : NoDup (map fst l) -> In id (map fst l) -> exists c, In (id, c) l /\
    count_id id l = (map (fun kc => if (fst kc =? id)%N then (fst kc, (snd kc + 1)%N) else kc) l, Some (c + 1)%N).
  Proof.
    induction l as [|[k c] l IH]; intros D H; [destruct H|]. cbn [map fst] in D, H. inversion D as [|? ? Nk D']; subst.
    cbn [count_id map fst snd]. destruct (N.eqb_spec k id) as [->|Ne].
    - exists c. split; [now left|]. do 2 f_equal. clear -Nk. rewrite <- (map_id l) at 1. apply map_ext_in. intros [k c'] Hi. cbn [fst snd].
      destruct (N.eqb_spec k id) as [->|]; [|reflexivity]. exfalso. apply Nk. change id with (fst (id, c')). now apply in_map.
    - destruct H as [->|H]; [congruence|]. destruct (IH D' H) as [c' [Hi E]]. exists c'. split; [now right|]. now rewrite E.
  Qed.

  (** The state of the first pass after the rows [pre]. *)
  Definition counted (pre : table F) (ids : list (N * N)) : Prop :=
    NoDup (map fst ids) /\ (forall i c, In (i, c) ids -> c = cnt i pre /\ (0 < c)%N) /\
    (forall i, In i (map fst ids) <-> exists row, In row pre /\ of_id i row = true).
  Definition steps_of (pre : table F) (steps : N) : Prop :=
    (forall i, (1 < cnt i pre -> cnt i pre <= steps)%N) /\ (steps = 0%N \/ exists i, (1 < cnt i pre)%N /\ cnt i pre = steps).

  Lemma rows_snoc i pre row : rows_of i (pre ++ [row]) = rows_of i pre ++ (if of_id i row then [row] else []).
  Proof. unfold rows_of. rewrite filter_app. cbn [filter]. reflexivity. Qed.
  Lemma cnt_snoc i pre row : cnt i (pre ++ [row]) = (cnt i pre + if of_id i row then 1 else 0)%N.
  Proof. unfold cnt. rewrite rows_snoc. unfold vlen. rewrite app_length. destruct (of_id i row); cbn [length]; lia. Qed.
  Lemma cnt_app i a b : cnt i (a ++ b) = (cnt i a + cnt i b)%N.
  Proof. unfold cnt, rows_of, vlen. rewrite filter_app, app_length. lia. Qed.
  Lemma cnt_pos i pre row : In row pre -> of_id i row = true -> (0 < cnt i pre)%N.
  Proof. intros H1 H2. unfold cnt, rows_of, vlen. assert (X : In row (filter (of_id i) pre)) by now apply filter_In. destruct (filter (of_id i) pre); [destruct X | cbn [length]; lia]. Qed.

  Lemma count_step pre row ids steps t x l : row = t :: x :: l -> counted pre ids -> steps_of pre steps ->
    let '(ids', o) := count_id (nusize x) ids in
    counted (pre ++ [row]) ids' /\ steps_of (pre ++ [row]) (match o with Some c => if (steps <? c)%N then c else steps | None => steps end).
  Proof.
    intros Er [D [C I]] [S1 S2]. assert (Oi : forall i, of_id i row = (nusize x =? i)%N) by (intros i; subst row; reflexivity).
    set (id := nusize x) in *. destruct (in_dec N.eq_dec id (map fst ids)) as [H|H].
    - destruct (count_old id ids D H) as [c [Hc E]]. rewrite E.
      assert (Hm : forall i, In i (map fst (map (fun kc => if (fst kc =? id)%N then (fst kc, (snd kc + 1)%N) else kc) ids)) <-> In i (map fst ids)).
      { intros i. rewrite map_map. replace (map (fun x0 : N * N => fst (if (fst x0 =? id)%N then (fst x0, (snd x0 + 1)%N) else x0)) ids) with (map fst ids); [reflexivity|]. apply map_ext. intros [k c']. cbn [fst snd]. now destruct (k =? id)%N. }
      destruct (C id c Hc) as [Ec Cp]. split.
      + split; [|split].
        * rewrite map_map. replace (map (fun x0 : N * N => fst (if (fst x0 =? id)%N then (fst x0, (snd x0 + 1)%N) else x0)) ids) with (map fst ids); [exact D|]. apply map_ext. intros [k c']. cbn [fst snd]. now destruct (k =? id)%N.
        * intros i c' Hi. apply in_map_iff in Hi as [[k c2] [Eq Hi]]. cbn [fst snd] in Eq. destruct (C k c2 Hi) as [C1 C2]. rewrite cnt_snoc, Oi.
          destruct (N.eqb_spec k id) as [->|Ne].
          -- inversion Eq; subst i c'. rewrite N.eqb_refl. lia.
          -- inversion Eq; subst i c'. destruct (N.eqb_spec id k); [congruence|]. lia.
        * intros i. rewrite Hm, I. split.
          -- intros [r [Hr Ho]]. exists r. split; [apply in_or_app; now left | exact Ho].
          -- intros [r [Hr Ho]]. apply in_app_or in Hr as [Hr|[<-|[]]]; [now exists r|]. rewrite Oi in Ho. apply N.eqb_eq in Ho. rewrite <- Ho. now apply I.
      + split.
        * intros i. rewrite cnt_snoc, Oi. specialize (S1 i). destruct (N.eqb_spec id i) as [<-|Ne]; destruct (N.ltb_spec steps (c + 1)); lia.
        * destruct (N.ltb_spec steps (c + 1)) as [L|L].
          -- right. exists id. rewrite cnt_snoc, Oi, N.eqb_refl. lia.
          -- destruct S2 as [->|[i [S3 S4]]]; [now left|]. right. destruct (N.eq_dec i id) as [->|Ne]; [lia|].
             exists i. rewrite cnt_snoc, Oi. destruct (N.eqb_spec id i); [congruence | lia].
    - rewrite count_new by exact H. assert (Z : cnt id pre = 0%N).
      { unfold cnt. destruct (rows_of id pre) as [|r rs] eqn:Er2; [reflexivity|]. exfalso. apply H, I. assert (X : In r (rows_of id pre)) by (rewrite Er2; now left). apply filter_In in X. eauto. }
      split.
      + split; [|split].
        * rewrite map_app. cbn [map fst]. apply (Permutation_NoDup (Permutation_cons_append (map fst ids) id)). now constructor.
        * intros i c Hi. rewrite cnt_snoc, Oi. apply in_app_or in Hi as [Hi|[Hi|[]]].
          -- destruct (C i c Hi) as [C1 C2]. destruct (N.eqb_spec id i) as [<-|]; [|lia]. exfalso. apply H. change id with (fst (id, c)). now apply in_map.
          -- inversion Hi; subst i c. rewrite N.eqb_refl. lia.
        * intros i. rewrite map_app, in_app_iff. cbn [map fst In]. rewrite I. split.
          -- intros [[r [Hr Ho]]|[<-|[]]]; [exists r; split; [apply in_or_app; now left | exact Ho]|]. exists row. split; [apply in_or_app; right; now left|]. now rewrite Oi, N.eqb_refl.
          -- intros [r [Hr Ho]]. apply in_app_or in Hr as [Hr|[<-|[]]]; [left; eauto|]. right. left. rewrite Oi in Ho. now apply N.eqb_eq.
      + split.
        * intros i. rewrite cnt_snoc, Oi. specialize (S1 i). destruct (N.eqb_spec id i) as [<-|Ne]; lia.
        * destruct S2 as [->|[i [S3 S4]]]; [now left|]. right. exists i. rewrite cnt_snoc, Oi. destruct (N.eqb_spec id i) as [<-|Ne]; lia.
  Qed.

  Definition upd_min (t mint maxt : F) : F * F := (if t <? mint then (t, maxt) else if maxt <? t then (mint, t) else (mint, maxt))%num.
  Definition scan_step (st : list (N * N) * F * F * N) (row : list F) : res (list (N * N) * F * F * N) :=
    let '(ids, mint, maxt, steps) := st in
    let! idf := vget row 1 in
    let! t := vget row 0 in
    let '(mint, maxt) := (if t <? mint then (t, maxt) else if maxt <? t then (mint, t) else (mint, maxt))%num in
    let '(ids, o) := count_id (nusize idf) ids in
    let steps := match o with Some c => if (steps <? c)%N then c else steps | None => steps end in
    Val (ids, mint, maxt, steps).
  Definition tm_of (row : list F) : F := hd n0 row.
  Lemma scan_loop post : labelled post -> forall pre ids mint maxt steps, counted pre ids -> steps_of pre steps ->
    exists ids' steps', mfold scan_step post (ids, mint, maxt, steps) =
      Val (ids', fst (fold_left (fun m t => upd_min t (fst m) (snd m)) (map tm_of post) (mint, maxt)),
                 snd (fold_left (fun m t => upd_min t (fst m) (snd m)) (map tm_of post) (mint, maxt)), steps') /\
      counted (pre ++ post) ids' /\ steps_of (pre ++ post) steps'.
  Proof.
    induction post as [|row post IH]; intros L pre ids mint maxt steps C S.
    - exists ids, steps. rewrite app_nil_r. split; [reflexivity|]. split; assumption.
    - inversion L as [|? ? [t [x [l Er]]] L']; subst. cbn [mfold map fold_left]. unfold scan_step at 1.
      change (vget (t :: x :: l) 1) with (Val x). change (vget (t :: x :: l) 0) with (Val t). cbn [bind].
      assert (K := count_step pre (t :: x :: l) ids steps t x l eq_refl C S). destruct (count_id (nusize x) ids) as [ids1 o]. destruct K as [C1 S1].
      change (upd_min (tm_of (t :: x :: l)) (fst (mint, maxt)) (snd (mint, maxt))) with (if t <? mint then (t, maxt) else if maxt <? t then (mint, t) else (mint, maxt))%num.
      destruct (if (t <? mint)%num then (t, maxt) else if (maxt <? t)%num then (mint, t) else (mint, maxt)) as [mn mx].
      cbv zeta. cbn [bind]. destruct (IH L' _ _ mn mx _ C1 S1) as [ids' [steps' [E [C2 S2]]]]. exists ids', steps'. rewrite <- app_assoc in C2, S2. auto.
  Qed.

  (** ** Filling *)
  Lemma position_spec (id : N) (l : list (N * N)) : In id (map fst l) -> exists k c, position id l = Some k /\ nth_error l (N.to_nat k) = Some (id, c).
  Proof.
    induction l as [|[k c] l IH]; intros H; [destruct H|]. cbn [position]. destruct (N.eqb_spec k id) as [->|Ne]; [exists 0%N, c; auto|].
    destruct H as [H|H]; [cbn in H; congruence|]. destruct (IH H) as [j [c' [-> E]]]. exists (j + 1)%N, c'. split; [reflexivity|].
    replace (N.to_nat (j + 1)) with (S (N.to_nat j)) by lia. exact E.
  Qed.
  Lemma vset_map {A} (g g' : N * N -> A) ids : NoDup (map fst ids) -> forall k i c, nth_error ids (N.to_nat k) = Some (i, c) ->
    (forall x, In x ids -> fst x <> i -> g' x = g x) -> vset (map g ids) k (g' (i, c)) = Val (map g' ids).
  Proof.
    intros D k i c E H. unfold vset. assert (X : list_set (map g ids) (N.to_nat k) (g' (i, c)) = Some (map g' ids)); [|now rewrite X].
    revert E. generalize (N.to_nat k) as n. induction ids as [|a ids IH]; intros [|n] E; try discriminate.
    - injection E as ->. cbn [map list_set]. do 2 f_equal. inversion D as [|? ? Na D']; subst. apply map_ext_in. intros x Hx. symmetry. apply H; [now right|].
      intros <-. apply Na. now apply in_map.
    - cbn [nth_error] in E. inversion D as [|? ? Na D']; subst. cbn [map list_set]. rewrite IH; [| exact D' | intros; apply H; [now right | assumption] | exact E].
      do 2 f_equal. symmetry. apply H; [now left|]. intros Eq. apply Na. rewrite Eq. apply nth_error_In in E. change i with (fst (i, c)). now apply in_map.
  Qed.

  Definition blank (i : N) : list F := [n0; nofN i; n0; n0; n0; n0; n0; n0].
  Definition filled (pre : table F) (ic : N * N) : table F := rows_of (fst ic) pre ++ repeat (blank (fst ic)) (N.to_nat (snd ic - cnt (fst ic) pre)).
  Definition fill_step (ids : list (N * N)) (st : list (table F) * list N) (row : list F) : res (list (table F) * list N) :=
    let '(out, lines) := st in
    let! idf := vget row 1 in
    let! k := unwrap (position (nusize idf) ids) in
    let! line := vget lines k in
    let! arr := vget out k in
    let! arr := vset arr line row in
    let! out := vset out k arr in
    let! lines := vset lines k (line + 1)%N in
    Val (out, lines).
  Lemma fill_loop ids data : NoDup (map fst ids) -> (forall i c, In (i, c) ids -> c = cnt i data) ->
    (forall i, In i (map fst ids) <-> exists row, In row data /\ of_id i row = true) ->
    forall post pre, data = pre ++ post -> labelled post ->
    mfold (fill_step ids) post (map (filled pre) ids, map (fun ic => cnt (fst ic) pre) ids) =
      Val (map (filled data) ids, map (fun ic => cnt (fst ic) data) ids).
  Proof.
    intros D C I post. induction post as [|row post IH]; intros pre Ed L.
    - rewrite app_nil_r in Ed. subst pre. reflexivity.
    - inversion L as [|? ? [t [x [l Er]]] L']; subst row. cbn [mfold]. unfold fill_step at 1.
      change (vget (t :: x :: l) 1) with (Val x). cbn [bind]. set (row := t :: x :: l) in *. set (id := nusize x).
      assert (Oi : forall i, of_id i row = (id =? i)%N) by (intros i; reflexivity).
      assert (Hin : In id (map fst ids)). { apply I. exists row. split; [rewrite Ed; apply in_or_app; right; now left|]. rewrite Oi. apply N.eqb_refl. }
      destruct (position_spec id ids Hin) as [k [c [Ek En]]]. fold id. rewrite Ek. cbn [unwrap bind].
      assert (Ec := C id c (nth_error_In _ _ En)).
      assert (G1 : vget (map (fun ic : N * N => cnt (fst ic) pre) ids) k = Val (cnt id pre)) by (apply vget_val; rewrite nth_error_map, En; reflexivity).
      assert (G2 : vget (map (filled pre) ids) k = Val (filled pre (id, c))) by (apply vget_val; rewrite nth_error_map, En; reflexivity).
      rewrite G1, G2. cbn [bind].
      assert (G3 : vset (filled pre (id, c)) (cnt id pre) row = Val (filled (pre ++ [row]) (id, c))).
      { unfold filled. cbn [fst snd]. rewrite rows_snoc, cnt_snoc, Oi, N.eqb_refl.
        assert (Hc : (cnt id pre + 1 <= c)%N) by (rewrite Ec, Ed, cnt_app; assert (X := cnt_pos id (row :: post) row (or_introl eq_refl)); rewrite Oi, N.eqb_refl in X; specialize (X eq_refl); lia).
        replace (N.to_nat (c - cnt id pre)) with (S (N.to_nat (c - (cnt id pre + 1)))) by lia. cbn [repeat]. rewrite <- app_assoc. cbn [app].
        unfold vset, cnt. generalize (repeat (blank id) (N.to_nat (c - (vlen (rows_of id pre) + 1)))) as tl. intros tl.
        assert (X : forall (A : Type) (a : list A) b b' tl, list_set (a ++ b :: tl) (length a) b' = Some (a ++ b' :: tl)). { clear. induction a as [|y a IHa]; intros b b' tl; [reflexivity|]. cbn [app length list_set]. now rewrite IHa. }
        unfold vlen at 1. rewrite Nat2N.id, X. reflexivity. }
      rewrite G3. cbn [bind]. rewrite (vset_map (filled pre) (filled (pre ++ [row])) ids D k id c En).
      2: { intros [i c'] Hx Hne. cbn [fst] in Hne. unfold filled. cbn [fst snd]. rewrite rows_snoc, cnt_snoc, Oi. destruct (N.eqb_spec id i); [congruence|]. now rewrite app_nil_r, N.add_0_r. }
      cbn [bind]. assert (G4 : (cnt id pre + 1)%N = (fun ic : N * N => cnt (fst ic) (pre ++ [row])) (id, c)) by (cbn [fst]; now rewrite cnt_snoc, Oi, N.eqb_refl).
      rewrite G4, (vset_map (fun ic : N * N => cnt (fst ic) pre) (fun ic : N * N => cnt (fst ic) (pre ++ [row])) ids D k id c En).
      2: { intros [i c'] Hx Hne. cbn [fst] in *. rewrite cnt_snoc, Oi. destruct (N.eqb_spec id i); [congruence|]. now rewrite N.add_0_r. }
      cbn [bind]. apply IH; [now rewrite <- app_assoc | exact L'].
  Qed.

  (** ** C58 *)
  (** One table per id that occurs, in ascending order of the ids, each with exactly the rows of that id, in
      the order they had; the number of steps is the size of the largest group of at least two rows (0 if there is none). *)
  Theorem c58_groups (data : table F) : labelled data -> data <> [] ->
    exists ids maxt steps, sort_by_id data = Val (map (fun i => rows_of i data) ids, maxt, steps) /\
      StronglySorted N.lt ids /\ (forall i, In i ids <-> exists row, In row data /\ of_id i row = true) /\
      (forall i, 1 < vlen (rows_of i data) -> vlen (rows_of i data) <= steps)%N /\
      (steps = 0%N \/ exists i, In i ids /\ (1 < vlen (rows_of i data))%N /\ vlen (rows_of i data) = steps) /\
      maxt = snd (fold_left (fun m t => upd_min t (fst m) (snd m)) (map tm_of data) (tm_of (hd [] data), tm_of (hd [] data))).
  Proof.
    intros L Ne. unfold sort_by_id, scan_ids. destruct data as [|row data]; [congruence|]. set (all := row :: data) in *.
    assert (Er := Forall_inv L). destruct Er as [t [x [l Er]]].
    assert (E0 : cell all 0 0 = Val t) by (subst all row; reflexivity). assert (E1 : cell all 0 1 = Val x) by (subst all row; reflexivity).
    rewrite E0, E1. cbn [bind]. change (mfold _ all ([], t, t, 0%N)) with (mfold scan_step all ([], t, t, 0%N)).
    destruct (scan_loop all L [] [] t t 0%N) as [ids [steps [E [[D [C I]] [S1 S2]]]]].
    - split; [constructor|]. split; [intros ? ? []|]. intros i. split; [intros [] | intros [? [[] _]]].
    - split; [intros i H; cbn in H; lia | now left].
    - cbn [app] in *. rewrite E. cbn [bind].
      destruct (isort_stable (fun a b : N * N => Val (fst a <=? fst b)%N) (fun a b => fst a <=? fst b)%N (fun _ => True) (fun _ _ => True)) with (l := ids) as [ids' [Es [P Ss]]].
      + reflexivity.
      + intros. lia.
      + intros. lia.
      + apply Forall_forall. auto.
      + clear. induction ids; constructor; [assumption|]. apply Forall_forall. auto.
      + rewrite Es. cbn [bind].
        assert (D' : NoDup (map fst ids')) by (eapply Permutation_NoDup; [symmetry; apply Permutation_map, P | exact D]).
        assert (I' : forall i, In i (map fst ids') <-> exists row, In row all /\ of_id i row = true).
        { intros i. rewrite <- I. split; apply Permutation_in; [apply Permutation_map, P | symmetry; apply Permutation_map, P]. }
        assert (C' : forall i c, In (i, c) ids' -> c = cnt i all) by (intros i c Hi; apply (C i c); eapply Permutation_in; [exact P | exact Hi]).
        assert (Fl := fill_loop ids' all D' C' I' all [] eq_refl L).
        assert (B1 : map (filled []) ids' = map (fun ic => repeat [n0; nofN (fst ic); n0; n0; n0; n0; n0; n0] (N.to_nat (snd ic))) ids') by (apply map_ext; intros [i c]; unfold filled; cbn; now rewrite N.sub_0_r).
        assert (B2 : map (fun ic : N * N => cnt (fst ic) []) ids' = repeat 0%N (length ids')) by (clear; induction ids' as [|? ? IH]; [reflexivity | cbn [map length repeat]; now rewrite IH]).
        rewrite B1, B2 in Fl. match goal with |- context [mfold ?f all ?s] => replace (mfold f all s) with (Val (map (filled all) ids', map (fun ic : N * N => cnt (fst ic) all) ids')) by (symmetry; exact Fl) end.
        cbn [bind fst]. exists (map fst ids'). eexists _, steps. split; [|split; [|split; [|split; [|split; [|reflexivity]]]]].
        * do 3 f_equal. rewrite map_map. apply map_ext_in. intros [i c] Hi. unfold filled. cbn [fst snd]. rewrite (C' i c Hi), N.sub_diag. cbn [N.to_nat repeat]. now rewrite app_nil_r.
          subst all row. reflexivity.
        * clear -Ss D'. induction Ss as [|a l Ss IH Fa]; cbn [map]; [constructor|]. cbn [map] in D'. inversion D' as [|? ? Na D2]; subst. constructor; [now apply IH|].
          apply Forall_map. apply Forall_forall. intros b Hb. rewrite Forall_forall in Fa. destruct (Fa b Hb) as [Le _].
          assert (fst a <> fst b) by (intros Eq; apply Na; rewrite Eq; now apply in_map). lia.
        * exact I'.
        * exact S1.
        * destruct S2 as [->|[i [S3 S4]]]; [now left|]. right. exists i. split; [|auto]. apply I'. unfold cnt in S3. destruct (rows_of i all) as [|r rs] eqn:Er2; [cbn in S3; lia|].
          assert (X : In r (rows_of i all)) by (rewrite Er2; now left). apply filter_In in X. eauto.
  Qed.
End Ids.

(** The time returned is the latest of the table (doubles; times that are not NaN). *)
Theorem c58_max_time (data : table f64) : labelled data -> data <> [] -> Forall (fun row => is_nan (tm_of row : f64) = false) data ->
  exists parts maxt steps, sort_by_id data = Val (parts, maxt, steps) /\ highest maxt (map tm_of data).
Proof.
  intros L Ne Nn. destruct (c58_groups data L Ne) as [ids [maxt [steps [E [_ [_ [_ [_ M]]]]]]]]. exists (map (fun i => rows_of i data) ids), maxt, steps. split; [exact E|].
  assert (G : forall (ts : list f64) (mn mx : f64), Forall (fun t : f64 => is_nan t = false) ts -> is_nan mn = false -> is_nan mx = false -> Bleb mn mx = true ->
    let r := snd (fold_left (fun m t => upd_min t (fst m) (snd m)) ts (mn, mx)) in (r = mx \/ In r ts) /\ Bleb mx r = true /\ forall y, In y ts -> Bleb y r = true).
  { clear. induction ts as [|t ts IH]; intros mn mx Ft Hn Hx Hle; cbn zeta.
    - cbn [fold_left snd]. split; [now left|]. split; [now apply Bleb_refl | intros y []].
    - inversion Ft as [|? ? Nt Ft']; subst. cbn [fold_left fst snd]. 
      assert (U : upd_min t mn mx = if Bltb t mn then (t, mx) else if Bltb mx t then (mn, t) else (mn, mx)) by reflexivity. rewrite U. clear U.
      destruct (Bltb t mn) eqn:E1; [|destruct (Bltb mx t) eqn:E2].
      + assert (Lt : Bleb t mx = true) by (eapply Bleb_trans; [apply Blt_le, E1 | exact Hle]).
        destruct (IH t mx Ft' Nt Hx Lt) as [A [B C]]. cbn zeta in *. split; [destruct A; [now left | right; now right]|]. split; [exact B|].
        intros y [<-|Hy]; [|now apply C]. eapply Bleb_trans; [exact Lt | exact B].
      + assert (Lt : Bleb mn t = true) by (eapply Bleb_trans; [exact Hle | apply Blt_le, E2]).
        destruct (IH mn t Ft' Hn Nt Lt) as [A [B C]]. cbn zeta in *. split; [right; destruct A; [left; congruence | now right]|].
        split; [eapply Bleb_trans; [apply Blt_le, E2 | exact B]|]. intros y [<-|Hy]; [exact B | now apply C].
      + destruct (IH mn mx Ft' Hn Hx Hle) as [A [B C]]. cbn zeta in *. split; [destruct A; [now left | right; now right]|]. split; [exact B|].
        intros y [<-|Hy]; [|now apply C]. eapply Bleb_trans; [|exact B]. rewrite Bltb_negb in E2 by assumption. now apply negb_false_iff. }
  destruct data as [|row data]; [congruence|]. assert (Nr := Forall_inv Nn). cbn beta in Nr.
  assert (Fn : Forall (fun t : f64 => is_nan t = false) (map tm_of (row :: data))) by (apply Forall_map; exact Nn).
  destruct (G (map tm_of (row :: data)) (tm_of row) (tm_of row) Fn Nr Nr (Bleb_refl _ Nr)) as [A [B C]]. cbn zeta in *. cbn [hd] in M. rewrite <- M in A, B, C.
  split; [|exact C]. destruct A as [A|A]; [|exact A]. rewrite A. now left.
Qed.
(** Ids that are whole numbers are taken as they are. *)
Lemma id_exact (z : Z) : (0 <= z <= 2 ^ 53)%Z -> nusize (f64_of_Z z) = Z.to_N z.
Proof.
  intros H. destruct (of_Z_correct z) as [E Fi]; [lia|]. cbn [nusize num_f64]. rewrite to_usize_finite by exact Fi. rewrite E, Ztrunc_IZR. f_equal. unfold usize_max. lia.
Qed.
(** Refuted: the number of steps is not the size of the largest group when every particle has one row. *)
Local Notation f := f64_of_Z.
Definition ex_row (t i x : Z) : list f64 := map f [t; i; x; x; x; 1; 1; 1]%Z.
Definition ex_ids : table f64 := [ex_row 1 5 10; ex_row 1 2 20; ex_row 2 5 11; ex_row 0 9 30].
Lemma ex_labelled : labelled ex_ids /\ ex_ids <> [] /\ Forall (fun row => is_nan (tm_of row : f64) = false) ex_ids.
Proof. split; [|split; [discriminate|]]; repeat constructor; do 3 eexists; reflexivity. Qed.
Example c58_used : match sort_by_id ex_ids with
  | Val ([a; b; c], m, n) => (vlen a =? 1)%N && (vlen b =? 2)%N && (vlen c =? 1)%N && Beqb m (f 2) && (n =? 2)%N
  | _ => false end = true.
Proof. vm_compute. reflexivity. Qed.
Theorem c58_singletons_refuted : exists (data : table f64) (parts : list (table f64)) (maxt : f64), labelled data /\ data <> [] /\ sort_by_id data = Val (parts, maxt, 0%N) /\ Forall (fun p => vlen p = 1%N) parts.
Proof.
  exists [ex_row 1 5 10; ex_row 1 2 20]. destruct (sort_by_id [ex_row 1 5 10; ex_row 1 2 20]) as [[[parts m] n]|] eqn:E.
  - exists parts, m. split; [repeat constructor; do 3 eexists; reflexivity|]. split; [discriminate|].
    assert (G : match sort_by_id [ex_row 1 5 10; ex_row 1 2 20] with Val (ps, _, n) => forallb (fun p => vlen p =? 1)%N ps && (n =? 0)%N | Panic => false end = true) by (vm_compute; reflexivity).
    rewrite E in G. apply andb_true_iff in G as [G1 G2]. apply N.eqb_eq in G2. subst n. split; [reflexivity|].
    apply Forall_forall. intros p Hp. rewrite forallb_forall in G1. apply N.eqb_eq. now apply G1.
  - exfalso. assert (G : match sort_by_id [ex_row 1 5 10; ex_row 1 2 20] with Val _ => true | Panic => false end = true) by (vm_compute; reflexivity). rewrite E in G. discriminate.
Qed.
