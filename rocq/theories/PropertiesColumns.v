(** * PropertiesColumns: which columns of a csv file the converters take

    C151. *)
From Coq Require Import List NArith ZArith Lia Bool String.
From Verif Require Import Base BaseFacts Num ConvModel.
Import ListNotations.

(** In rows of [m] entries, column [c'] is column [c], or [c] counts it from the end. *)
Definition same_column (m : N) (c c' : Z) : Prop :=
  c' = c \/ (- Z.of_N m <= c < 0 /\ c' = c + Z.of_N m)%Z.
(** There is no such column. *)
Definition no_column (m : N) (c : Z) : Prop := (c < - Z.of_N m \/ Z.of_N m <= c)%Z.

Section Columns.
  Context {F : Type} {NF : Num F}.
  Notation table := (table F).
  Lemma cell_same (r : list F) m c c' : vlen r = m -> same_column m c c' -> pick_cell r c = pick_cell r c'.
  Proof.
    intros L [->|[H ->]]; [reflexivity|]. unfold pick_cell. rewrite L.
    destruct (Z.leb_spec 0 c); [lia|]. destruct (Z.leb_spec 0 (Z.of_N m + c)); [|lia]. destruct (Z.leb_spec 0 (c + Z.of_N m)); [|lia].
    f_equal. lia.
  Qed.
  Lemma cells_same (r : list F) m cs cs' : vlen r = m -> Forall2 (same_column m) cs cs' -> mmap (pick_cell r) cs = mmap (pick_cell r) cs'.
  Proof. intros L H. induction H as [|c c' cs cs' Hc _ IH]; [reflexivity|]. cbn [mmap]. now rewrite (cell_same r m c c' L Hc), IH. Qed.
  Lemma same_len m cs cs' : Forall2 (same_column m) cs cs' -> vlen cs = vlen cs'.
  Proof. intros H. unfold vlen. f_equal. induction H; cbn [List.length]; congruence. Qed.
  Lemma pick_same w (data : table) m cs cs' : Forall (fun r => vlen r = m) data -> Forall2 (same_column m) cs cs' -> pick w cs data = pick w cs' data.
  Proof.
    intros L H. destruct data as [|r data]; [destruct H; reflexivity|]. rewrite !pick_rows by discriminate.
    remember (r :: data) as l eqn:E. clear E. induction L as [|r' l Lr _ IH]; [reflexivity|]. cbn [mmap]. rewrite IH.
    unfold pick_row. now rewrite (cells_same r' m cs cs' Lr H), (same_len m cs cs' H).
  Qed.
  (** Counting a column from the end changes nothing in what is converted. *)
  Theorem c151_one fit powf bld (data : table) m cs cs' vel interp radius ss : Forall (fun r => vlen r = m) data -> Forall2 (same_column m) cs cs' ->
    csv_converter fit powf bld data cs vel interp radius ss = csv_converter fit powf bld data cs' vel interp radius ss.
  Proof. intros L H. unfold csv_converter. now rewrite (pick_same 7 data m cs cs' L H), (same_len m cs cs' H). Qed.
  Theorem c151_multi fit powf (data : table) m cs cs' vel interp radius mode : Forall (fun r => vlen r = m) data -> Forall2 (same_column m) cs cs' ->
    csv_multi_converter fit powf data cs vel interp radius mode = csv_multi_converter fit powf data cs' vel interp radius mode.
  Proof.
    intros L H. unfold csv_multi_converter, csv_multi_chain, csv_multi_idline.
    now rewrite (pick_same 7 data m cs cs' L H), (pick_same 8 data m cs cs' L H), (same_len m cs cs' H).
  Qed.
  Theorem c151_steps (files : list table) m cs cs' times : Forall (Forall (fun r => vlen r = m)) files -> Forall2 (same_column m) cs cs' ->
    csv_multi_file_time_step files cs times = csv_multi_file_time_step files cs' times.
  Proof.
    intros L H. unfold csv_multi_file_time_step. rewrite (same_len m cs cs' H). destruct (negb _); [reflexivity|].
    assert (E : forall l s, (forall k d, In (k, d) l -> Forall (fun r => vlen r = m) d) -> mfold (csv_step_file times cs) l s = mfold (csv_step_file times cs') l s).
    { clear - H. induction l as [|[k d] l IH]; intros s Hl; [reflexivity|]. cbn [mfold].
      assert (S : csv_step_file times cs s (k, d) = csv_step_file times cs' s (k, d)).
      { unfold csv_step_file. rewrite (pick_same 7 d m cs cs'); [reflexivity | apply (Hl k); now left | exact H]. }
      rewrite S. destruct (csv_step_file times cs' s (k, d)); cbn [bind]; [|reflexivity]. apply IH. intros k' d' Hd. apply (Hl k'). now right. }
    rewrite E; [reflexivity|]. intros k d Hd. unfold enumerate in Hd. apply in_combine_r in Hd. rewrite Forall_forall in L. now apply L.
  Qed.
  (** A column that does not exist, or a file without rows, is refused. *)
  Lemma cell_none (r : list F) m c : vlen r = m -> no_column m c -> pick_cell r c = Panic.
  Proof.
    intros L H. unfold pick_cell, no_column in *. rewrite L. destruct (Z.leb_spec 0 c).
    - unfold vget. destruct (nth_error r (N.to_nat (Z.to_N c))) eqn:E; [|reflexivity]. exfalso.
      apply nth_error_Some_lt in E || (assert (X : nth_error r (N.to_nat (Z.to_N c)) <> None) by congruence; apply nth_error_Some in X; unfold vlen in L; lia).
    - destruct (Z.leb_spec 0 (Z.of_N m + c)); [lia | reflexivity].
  Qed.
  Lemma pick_none w (data : table) m cs c : Forall (fun r => vlen r = m) data -> In c cs -> data = [] \/ no_column m c -> pick w cs data = Panic.
  Proof.
    intros L Hc [->|H]; [destruct cs; [contradiction | reflexivity]|]. destruct data as [|r data]; [destruct cs; [contradiction | reflexivity]|].
    rewrite pick_rows by discriminate. cbn [mmap]. inversion L as [|? ? Lr _]; subst.
    assert (E : pick_row w cs r = Panic).
    { unfold pick_row. assert (M : mmap (pick_cell r) cs = Panic); [|now rewrite M].
      induction cs as [|c' cs IH]; [contradiction|]. cbn [mmap]. destruct Hc as [->|Hc]; [now rewrite (cell_none r _ c eq_refl H)|].
      destruct (pick_cell r c'); cbn [bind]; [|reflexivity]. now rewrite IH. }
    now rewrite E.
  Qed.
  Theorem c151_refused fit powf bld (data : table) m cs c vel interp radius ss mode : Forall (fun r => vlen r = m) data -> In c cs -> data = [] \/ no_column m c ->
    csv_converter fit powf bld data cs vel interp radius ss = Panic /\
    (mode = "chain"%string \/ mode = "id_line"%string -> csv_multi_converter fit powf data cs vel interp radius mode = Panic).
  Proof.
    intros L Hc H. assert (P : forall w, pick w cs data = Panic) by (intros w; now apply (pick_none w data m cs c)). split.
    - unfold csv_converter. rewrite P. now destruct (_ =? 0)%N.
    - intros [-> | ->]; unfold csv_multi_converter; cbn [String.eqb Ascii.eqb Bool.eqb]; unfold csv_multi_chain, csv_multi_idline; rewrite P; [now destruct (_ =? 0)%N | now destruct (negb _)].
  Qed.
End Columns.

(** Rows of five: columns 4, 1, 2, 3 or -1, -4, 2, -2; there is no column -6. *)
Example c151_case : Forall2 (same_column 5) [-1; -4; 2; -2]%Z [4; 1; 2; 3]%Z /\ no_column 5 (-6) /\ no_column 5 5.
Proof. unfold same_column, no_column. repeat (constructor; try lia). Qed.
