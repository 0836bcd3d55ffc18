(** * Properties C110-C115: the Python Converter class. *)
From Coq Require Import Reals List NArith ZArith Bool Lia Sorted Permutation ZifyBool ZifyN ZifyNat String Ascii.
From Flocq Require Import Core.Core IEEE754.BinarySingleNaN.
From Verif Require Import Base BaseFacts Num F64Facts NDArray DataModel DataSpec DataLoad DataProofs PropertiesData ConvModel ConvSort ConvCsv PropertiesCsv ConvVtk LibConvModel.
Local Open Scope list_scope.
Local Open Scope bool_scope.

(** ** Specification: strings *)
Definition mentions (s p : string) : Prop := exists a b, s = (a ++ p ++ b)%string.
Definition ending (s p : string) : Prop := exists a, s = (a ++ p)%string.
(** The converter documented for a filter. *)
Definition documented (filter : string) (k : kind) : Prop :=
  match k with
  | Legacy => mentions filter ".vtk"
  | Xml Unstr => mentions filter ".vtu" /\ ~ mentions filter ".vtk"
  | Xml Poly => mentions filter ".vtp" /\ ~ mentions filter ".vtk" /\ ~ mentions filter ".vtu"
  end.

Lemma prefix_iff p : forall s, prefix p s = true <-> exists b, s = (p ++ b)%string.
Proof.
  induction p as [|a p IH]; intros s; [split; [intros _; exists s; reflexivity | intros _; destruct s; reflexivity]|]. destruct s as [|x s]; cbn [prefix String.append].
  - split; [discriminate | intros [b E]; discriminate].
  - destruct (ascii_dec a x) as [->|D].
    + rewrite IH. split; intros [b E]; exists b; [now rewrite E | now injection E].
    + split; [discriminate | intros [b E]; injection E; congruence].
Qed.
Lemma contains_iff p : forall s, contains s p = true <-> mentions s p.
Proof.
  induction s as [|x s IH]; cbn [contains].
  - rewrite orb_false_r, prefix_iff. split.
    + intros [b E]. exists ""%string, b. exact E.
    + intros [a [b E]]. destruct a; [eauto | discriminate].
  - rewrite orb_true_iff, prefix_iff, IH. split.
    + intros [[b E]|[a [b E]]]; [exists ""%string, b; exact E | exists (String x a), b; cbn; now rewrite E].
    + intros [a [b E]]. destruct a as [|y a]; [left; eauto | right; exists a, b; now injection E].
Qed.
Lemma ends_iff p : forall s, ends_with s p = true <-> ending s p.
Proof.
  induction s as [|x s IH]; cbn [ends_with].
  - rewrite orb_false_r, String.eqb_eq. split; [intros <-; now exists ""%string | intros [a E]; destruct a; [exact E | discriminate]].
  - rewrite orb_true_iff, String.eqb_eq, IH. split.
    + intros [E|[a E]]; [exists ""%string; exact E | exists (String x a); cbn; now rewrite E].
    + intros [a E]. destruct a as [|y a]; [left; exact E | right; exists a; now injection E].
Qed.
Lemma contains_not p s : contains s p = false <-> ~ mentions s p.
Proof. rewrite <- contains_iff. now rewrite not_true_iff_false. Qed.
Lemma choose_documented filter k : choose filter = Some k <-> documented filter k.
Proof.
  unfold choose, documented. destruct (contains filter ".vtk") eqn:E1; [apply contains_iff in E1|apply contains_not in E1].
  - destruct k as [|[|]]; split; try tauto; try discriminate.
  - destruct (contains filter ".vtu") eqn:E2; [apply contains_iff in E2|apply contains_not in E2].
    + destruct k as [|[|]]; split; try tauto; try discriminate.
    + destruct (contains filter ".vtp") eqn:E3; [apply contains_iff in E3|apply contains_not in E3]; destruct k as [|[|]]; split; try tauto; try discriminate.
Qed.

Section Spec.
  Context {F : Type} {NF : Num F} {B : Type} (castN : B -> option N) (castF : B -> option F).
  Definition converts {T} (c : B -> option T) (bs : list B) (l : list T) : Prop := Forall2 (fun b x => c b = Some x) bs l.
  Definition of_type (t : vtktype) (ps : list (res (piece B))) : dataset B := match t with Poly => PolyData ps | Unstr => Unstructured ps end.
  (** The field [name] of a file consists of the numbers [l].  Legacy files: the first array of that name in the field data of
      the first piece.  XML files: the arrays of that name of all pieces, one after the other. *)
  Definition says {T} (c : B -> option T) (k : kind) (d : dataset B) (name : string) (l : list T) : Prop :=
    match k with
    | Legacy => exists p more fname before a after rest, d = PolyData (Val p :: more) /\
        pc_attrs p = FieldData fname (before ++ a :: after) :: rest /\ ar_name a = name /\
        Forall (fun x => ar_name x <> name) before /\ converts c (ar_data a) l
    | Xml t => exists ps parts, d = of_type t (map Val ps) /\ l = concat parts /\
        Forall2 (fun p part => exists before a after, pc_attrs p = before ++ DataArray a :: after /\ ar_name a = name /\
          Forall (fun x => attr_name x <> name) (before ++ after) /\ converts c (ar_data a) part) ps parts
    end.
  Definition points (k : kind) (d : dataset B) (l : list F) : Prop :=
    match k with
    | Legacy => exists p more, d = PolyData (Val p :: more) /\ converts castF (pc_points p) l
    | Xml t => exists ps parts, d = of_type t (map Val ps) /\ l = concat parts /\ Forall2 (fun p part => converts castF (pc_points p) part) ps parts
    end.
  (** No piece that the reader looks at has a field [name]. *)
  Definition lacks (k : kind) (d : dataset B) (name : string) : Prop :=
    match k with
    | Legacy => exists p more fname l rest, d = PolyData (Val p :: more) /\ pc_attrs p = FieldData fname l :: rest /\ Forall (fun x => ar_name x <> name) l
    | Xml t => exists ps, d = of_type t (map Val ps) /\ Forall (fun p => Forall (fun x => attr_name x <> name) (pc_attrs p)) ps
    end.
  Definition flat (vs : list (v3 F)) : list F := concat (map (fun '(a, b, c) => [a; b; c]) vs).
  (** The particles of a file: with a diameter field name, radii are half of that field. *)
  Definition has_particles (k : kind) (vel rad id ty : string) (diam : option string) (d : dataset B) (c : particles F) : Prop :=
    p_wf c /\ says castN k d id (p_ids c) /\
    match diam with
    | Some dm => exists l, says castF k d dm l /\ p_rad c = map (fun x => x * nlit 1 2)%num l
    | None => says castF k d rad (p_rad c)
    end /\
    (exists l, says castN k d ty l /\ p_type c = map nofN l) /\
    says castF k d vel (flat (p_vel c)) /\ points k d (flat (p_pos c)).

  (** ** The readers *)
  Lemma cast_ok {T} (c : B -> option T) bs l : converts c bs l -> cast_into c bs = Val l.
  Proof. intros H. unfold cast_into. apply mmap_Forall2. eapply Forall2_impl; [|exact H]. intros b x E. cbn beta. now rewrite E. Qed.
  Lemma xml_pieces_of t ps : xml_pieces (B := B) t (of_type t ps) = Val ps.
  Proof. destruct t; reflexivity. Qed.
  Definition pick_attr {T} (c : B -> option T) (name : string) (a : attribute B) : res (list T) :=
    if String.eqb (attr_name a) name then match a with DataArray a => cast_into c (ar_data a) | FieldData _ _ => Val [] end else Val [].
  Lemma other_attrs {T} (c : B -> option T) name l : Forall (fun x => attr_name x <> name) l -> exists r, mmap (pick_attr c name) l = Val r /\ concat r = [].
  Proof.
    induction 1 as [|a l Ha _ [r [E Er]]]; [exists []; now split|]. exists ([] :: r). split; [|exact Er]. cbn [mmap]. unfold pick_attr at 1. rewrite (proj2 (String.eqb_neq _ _) Ha). cbn [bind]. now rewrite E.
  Qed.
  Lemma mmap_app {A C} (f : A -> res C) l1 l2 r1 r2 : mmap f l1 = Val r1 -> mmap f l2 = Val r2 -> mmap f (l1 ++ l2) = Val (r1 ++ r2).
  Proof.
    revert r1. induction l1 as [|a l1 IH]; intros r1 E1 E2; cbn [mmap app] in *; [injection E1 as <-; exact E2|].
    destruct (f a) as [x|]; [|discriminate]. cbn [bind] in *. destruct (mmap f l1) as [r|]; [|discriminate]. cbn [bind] in *. injection E1 as <-. now rewrite (IH r eq_refl E2).
  Qed.
  Lemma field_read {T} (c : B -> option T) k d name l : says c k d name l ->
    match k with Legacy => legacy_field c d name | Xml t => xml_field c t d name end = Val l.
  Proof.
    destruct k as [|t]; cbn [says].
    - intros [p [more [fname [before [a [after [rest [-> [Ep [En [Fb Cv]]]]]]]]]]]. unfold legacy_field, legacy_piece. cbn [bind]. rewrite Ep.
      assert (Ef : find (fun x => String.eqb (ar_name x) name) (before ++ a :: after) = Some a).
      { clear -En Fb. induction Fb as [|x before Hx _ IH]; cbn [app find]; [now rewrite (proj2 (String.eqb_eq _ _) En) | now rewrite (proj2 (String.eqb_neq _ _) Hx)]. }
      rewrite Ef. cbn [unwrap bind]. now apply cast_ok.
    - intros [ps [parts [-> [-> Fp]]]]. unfold xml_field. rewrite xml_pieces_of. cbn [bind]. erewrite mmap_Forall2; [reflexivity|].
      clear -Fp. induction Fp as [|p part ps parts [before [a [after [Ep [En [Fo Cv]]]]]] _ IH]; cbn [map]; constructor; [|exact IH]. cbn [bind]. rewrite Ep.
      apply Forall_app in Fo as [F1 F2]. destruct (other_attrs c name before F1) as [r1 [E1 Z1]]. destruct (other_attrs c name after F2) as [r2 [E2 Z2]].
      assert (Ea : pick_attr c name (DataArray a) = Val part) by (unfold pick_attr; cbn [attr_name]; rewrite (proj2 (String.eqb_eq _ _) En); now apply cast_ok).
      assert (X : mmap (pick_attr c name) (before ++ DataArray a :: after) = Val (r1 ++ part :: r2)).
      { apply mmap_app; [exact E1|]. cbn [mmap]. rewrite Ea. cbn [bind]. now rewrite E2. }
      change (mmap _ (before ++ DataArray a :: after)) with (mmap (pick_attr c name) (before ++ DataArray a :: after)). rewrite X. cbn [bind]. f_equal. rewrite concat_app. cbn [concat]. now rewrite Z1, Z2, app_nil_r.
  Qed.
  Lemma field_missing {T} (c : B -> option T) k d name : lacks k d name ->
    match k with Legacy => legacy_field c d name | Xml t => xml_field c t d name end = match k with Legacy => Panic | Xml _ => Val [] end.
  Proof.
    destruct k as [|t]; cbn [lacks].
    - intros [p [more [fname [l [rest [-> [Ep Fb]]]]]]]. unfold legacy_field, legacy_piece. cbn [bind]. rewrite Ep.
      assert (Ef : find (fun x => String.eqb (ar_name x) name) l = None).
      { clear -Fb. induction Fb as [|x before Hx _ IH]; cbn [find]; [reflexivity | now rewrite (proj2 (String.eqb_neq _ _) Hx)]. }
      rewrite Ef. reflexivity.
    - intros [ps [-> Fp]]. unfold xml_field. rewrite xml_pieces_of. cbn [bind].
      assert (X : exists r, mmap (fun rp => let! p := rp in let! l := mmap (pick_attr c name) (pc_attrs p) in Val (concat l)) (map Val ps) = Val r /\ concat r = []).
      { induction Fp as [|p ps Hp _ [r [E Z]]]; [exists []; now split|]. destruct (other_attrs c name _ Hp) as [r1 [E1 Z1]]. exists (concat r1 :: r). split; [|cbn [concat]; now rewrite Z1, Z].
        cbn [map mmap bind]. rewrite E1. cbn [bind]. rewrite E. reflexivity. }
      destruct X as [r [E Z]]. change (mmap _ (map Val ps)) with (mmap (fun rp => let! p := rp in let! l := mmap (pick_attr c name) (pc_attrs p) in Val (concat l)) (map Val ps)). rewrite E. cbn [bind]. now rewrite Z.
  Qed.
  Lemma points_read k d l : points k d l -> match k with Legacy => legacy_positions castF d | Xml t => xml_positions castF t d end = Val l.
  Proof.
    destruct k as [|t]; cbn [points].
    - intros [p [more [-> Cv]]]. unfold legacy_positions, legacy_piece. cbn [bind]. now apply cast_ok.
    - intros [ps [parts [-> [-> Fp]]]]. unfold xml_positions. rewrite xml_pieces_of. cbn [bind]. erewrite mmap_Forall2; [reflexivity|].
      induction Fp as [|p part ps parts Cv _ IH]; cbn [map]; constructor; [|exact IH]. cbn [bind]. now apply cast_ok.
  Qed.

  Context (import : string -> res (dataset B)) (regex : string -> res (string -> res Z)) (natsort : list string -> list string).
  Lemma opened k vel rad id ty diam name step d c : import name = Val d -> has_particles k vel rad id ty diam d c ->
    content (settings vel rad id ty diam) (vtk_open castN castF import k name step) c.
  Proof.
    intros Ei [W [Hi [Hr [[tys [Ht Et]] [Hv Hp]]]]].
    assert (Fn : forall n l, says castN k d n l -> vf_u64 (vtk_open castN castF import k name step) n = Val l).
    { intros n l H. apply field_read in H. destruct k; cbn [vtk_open vf_u64]; rewrite Ei; exact H. }
    assert (Ff : forall n l, says castF k d n l -> vf_f64 (vtk_open castN castF import k name step) n = Val l).
    { intros n l H. apply field_read in H. destruct k; cbn [vtk_open vf_f64]; rewrite Ei; exact H. }
    assert (Fp : vf_positions (vtk_open castN castF import k name step) = Val (flat (p_pos c))).
    { apply points_read in Hp. destruct k; cbn [vtk_open vf_positions]; rewrite Ei; exact Hp. }
    split; [exact W|]. destruct diam as [dm|]; cbn [settings c_id c_radius c_diameter c_type c_velocity].
    - destruct Hr as [l [Hr Er]]. repeat split.
      + exists id. split; [reflexivity | now apply Fn].
      + exists l. split; [now apply Ff | exact Er].
      + exists tys. split; [now apply Fn | exact Et].
      + exists vel, (flat (p_vel c)). split; [reflexivity|]. split; [now apply Ff | apply rows3_concat].
      + exists (flat (p_pos c)). split; [exact Fp | apply rows3_concat].
    - repeat split.
      + exists id. split; [reflexivity | now apply Fn].
      + now apply Ff.
      + exists tys. split; [now apply Fn | exact Et].
      + exists vel, (flat (p_vel c)). split; [reflexivity|]. split; [now apply Ff | apply rows3_concat].
      + exists (flat (p_pos c)). split; [exact Fp | apply rows3_concat].
  Qed.

  (** The file [name] belongs to step [step] and has the particles [c]. *)
  Definition snapshot (k : kind) (re : string -> res Z) (vel rad id ty : string) (diam : option string) (name : string) (x : Z * particles F) : Prop :=
    re name = Val (fst x) /\ exists d, import name = Val d /\ has_particles k vel rad id ty diam d (snd x).

  (** ** C110.  Converter.vtk with a filter that mentions .vtk, .vtu or .vtp (in this order of precedence) stores the particles of
      every file, sorted by id, at the time step * timestep; files out of order are refused. *)
  Theorem c110_vtk k pattern re names xs dt vel rad id ty diam : documented pattern k -> regex pattern = Val re -> names <> [] ->
    Forall2 (snapshot k re vel rad id ty diam) names xs ->
    let times := map (fun x => nof (fst x) * dt)%num xs in
    (in_order n0 times -> exists tf h, py_vtk castN castF import regex names dt pattern vel rad id ty diam = Val (Some (tf, h)) /\
       tf_timesteps tf = vlen names /\
       forall i step c, at_ xs i (step, c) -> exists g c', tf_group tf i = Some g /\ by_id c c' /\ stored g (nof step * dt)%num c') /\
    (~ in_order n0 times -> py_vtk castN castF import regex names dt pattern vel rad id ty diam = Panic).
  Proof.
    intros Dk Er Ne Fs times. apply choose_documented in Dk. unfold py_vtk. rewrite Dk. unfold from_files. rewrite Er. cbn [bind].
    set (files := map (fun p => vtk_open castN castF import k (fst p) (fst (snd p))) (combine names xs)).
    assert (Em : mmap (fun n => let! s := re n in Val (vtk_open castN castF import k n s)) names = Val files).
    { unfold files. clear -Fs. induction Fs as [|n x names xs [Hs _] _ IH]; [reflexivity|]. cbn [mmap combine map fst snd]. rewrite Hs. cbn [bind]. now rewrite IH. }
    assert (Fc : Forall2 (content (settings vel rad id ty diam)) files (map snd xs)).
    { unfold files. clear -Fs. induction Fs as [|n x names xs [_ [d [Ei Hp]]] _ IH]; cbn [combine map]; constructor; [|exact IH]. cbn [fst snd]. now apply opened with (d := d). }
    assert (Et : map (f_time dt) files = times).
    { unfold files, times. clear -Fs. induction Fs as [|n x names xs _ _ IH]; [reflexivity|]. cbn [combine map fst snd]. rewrite IH. f_equal. unfold f_time. destruct k; reflexivity. }
    assert (Lf : vlen files = vlen names). { unfold files, vlen. rewrite map_length, combine_length, (Forall2_length _ _ _ Fs), Nat.min_id. reflexivity. }
    rewrite Em. cbn [bind]. rewrite <- Et. split.
    - intros Io. destruct (c56_converted _ dt files (map snd xs) Fc) as [tf [h [E [Nt Hg]]]].
      + intros Z. rewrite Z in Lf. destruct names; [congruence | discriminate].
      + exact Io.
      + exists tf, h. rewrite E. split; [reflexivity|]. split; [congruence|]. intros i step c Hi.
        destruct (Forall2_at _ _ _ Fs _ _ Hi) as [n [Hn _]].
        assert (Hf : at_ files i (vtk_open castN castF import k n step)).
        { unfold files, at_ in *. rewrite nth_error_map. assert (X : nth_error (combine names xs) (N.to_nat i) = Some (n, (step, c))).
          { clear -Hn Hi. revert xs Hi Hn. generalize (N.to_nat i). intros j. revert j. induction names as [|a names IH]; intros [|j] [|b xs] Hi Hn; try discriminate; cbn in *; [now injection Hi as ->; injection Hn as -> | now apply IH]. }
          rewrite X. reflexivity. }
        assert (Hc : at_ (map snd xs) i c) by (unfold at_ in *; rewrite nth_error_map, Hi; reflexivity).
        destruct (Hg i _ c Hf Hc) as [g [c' [H1 [H2 H3]]]]. exists g, c'. split; [exact H1|]. split; [exact H2|]. unfold f_time in H3. destruct k; exact H3.
    - intros Io. rewrite (c56_refused _ dt files (map snd xs) Fc Io). reflexivity.
  Qed.
  (** Any other filter: nothing is written. *)
  Theorem c110_nothing names dt pattern vel rad id ty diam :
    ~ mentions pattern ".vtk" -> ~ mentions pattern ".vtu" -> ~ mentions pattern ".vtp" ->
    py_vtk castN castF import regex names dt pattern vel rad id ty diam = Val None /\
    forall entries, py_vtk_from_folder castN castF import regex natsort entries dt pattern vel rad id ty diam = Val None.
  Proof.
    intros H1 H2 H3. apply contains_not in H1, H2, H3. unfold py_vtk, py_vtk_from_folder, choose. rewrite H1, H2, H3. split; reflexivity.
  Qed.

  (** ** C111.  A field that a file does not have: the conversion is refused, never completed with made-up values. *)
  Lemma mfold_bad {A C} (f : C -> A -> res C) (P : A -> Prop) l : (forall c a, P a -> f c a = Panic) -> Exists P l -> forall c, mfold f l c = Panic.
  Proof.
    intros H E. induction E as [a l Ha|a l _ IH]; intros c; cbn [mfold]; [now rewrite H|]. destruct (f c a); [apply IH | reflexivity].
  Qed.
  Lemma sort_empty {T} sl : (0 < vlen sl)%N -> sort_by_array (@nil T) sl = Panic.
  Proof.
    intros H. unfold sort_by_array. destruct sl as [|i sl]; [cbn in H; lia|]. change (vlen (@nil T)) with 0%N. replace (0 =? vlen (i :: sl))%N with false by (rewrite vlen_cons; lia). cbn [mmap].
    replace (vget (@nil T) (3 * i)) with (@Panic T) by (symmetry; unfold vget; now destruct (N.to_nat (3 * i))). reflexivity.
  Qed.
  Theorem c111_missing_field k pattern names dt vel rad id ty diam name d field :
    documented pattern k -> In name names -> import name = Val d ->
    In field [vel; match diam with Some dm => dm | None => rad end; id; ty] -> lacks k d field ->
    py_vtk castN castF import regex names dt pattern vel rad id ty diam = Panic.
  Proof.
    intros Dk Hn Ei Hf La. apply choose_documented in Dk. unfold py_vtk. rewrite Dk. unfold from_files. destruct (regex pattern) as [re|]; [|reflexivity]. cbn [bind].
    match goal with |- context [mmap ?f names] => destruct (mmap f names) as [files|] eqn:Em end; [|reflexivity]. cbn [bind].
    enough (E : vtk_converter (settings vel rad id ty diam) files dt = Panic) by now rewrite E.
    unfold vtk_converter. destruct (vlen files =? 0)%N; [reflexivity|]. rewrite (mfold_bad _ (fun kf => exists step, snd kf = vtk_open castN castF import k name step)); [reflexivity | |].
    - intros s [j f0] [step Es]. cbn [snd] in Es. subst f0. unfold vtk_file.
      assert (Mn : vf_u64 (vtk_open castN castF import k name step) field = match k with Legacy => Panic | Xml _ => Val [] end).
      { assert (X := field_missing castN k d field La). destruct k; cbn [vtk_open vf_u64]; rewrite Ei; exact X. }
      assert (Mf : vf_f64 (vtk_open castN castF import k name step) field = match k with Legacy => Panic | Xml _ => Val [] end).
      { assert (X := field_missing castF k d field La). destruct k; cbn [vtk_open vf_f64]; rewrite Ei; exact X. }
      set (f := vtk_open castN castF import k name step) in *. cbv zeta. destruct (nltb _ _); [reflexivity|].
      assert (Ci : c_id (settings vel rad id ty diam) = Some id) by (destruct diam; reflexivity). rewrite Ci. cbn [unwrap bind].
      destruct (vf_u64 f id) as [ids|] eqn:Eids; [|reflexivity]. cbn [bind]. destruct (c49_sortlist ids) as [sl [Esl [Psl _]]]. rewrite Esl. cbn [bind].
      destruct (sort_by_array ids sl) as [ids'|] eqn:Es; [|reflexivity]. cbn [bind]. destruct (N.eqb_spec (vlen ids') 0) as [|Nz]; [reflexivity|].
      assert (Lsl : (0 < vlen sl)%N).
      { destruct sl as [|i sl]; [|rewrite vlen_cons; lia]. exfalso. apply Nz. unfold sort_by_array in Es. destruct (vlen ids =? vlen (@nil N))%N; cbn in Es; injection Es as <-; reflexivity. }
      assert (Cr : c_radius (settings vel rad id ty diam) = match diam with Some _ => None | None => Some rad end /\ c_diameter (settings vel rad id ty diam) = diam) by (destruct diam; split; reflexivity).
      destruct Cr as [-> ->].
      assert (Ct : c_type (settings vel rad id ty diam) = Some ty) by (destruct diam; reflexivity). assert (Cv : c_velocity (settings vel rad id ty diam) = Some vel) by (destruct diam; reflexivity). rewrite Ct, Cv.
      destruct Hf as [<-|[<-|[<-|[<-|[]]]]].
      + match goal with |- bind ?X _ = _ => destruct X; [cbn [bind] | reflexivity] end. match goal with |- bind ?X _ = _ => destruct X; [cbn [bind unwrap] | reflexivity] end.
        rewrite Mf. destruct k; [reflexivity|]. cbn [bind]. rewrite sort_empty by exact Lsl. reflexivity.
      + destruct diam as [dm|]; rewrite Mf; (destruct k; [reflexivity|]); cbn [bind map]; (rewrite sort_empty by exact Lsl); reflexivity.
      + exfalso. rewrite Mn in Eids. destruct k; [discriminate|]. injection Eids as <-. unfold make_sortlist in Esl. assert (Lz := Permutation_length Psl). rewrite range_empty in Lz by (cbn; lia). destruct sl; [cbn in Lsl; lia | discriminate].
      + match goal with |- bind ?X _ = _ => destruct X; [cbn [bind] | reflexivity] end. rewrite Mn. destruct k; [reflexivity|]. cbn [bind]. rewrite sort_empty by exact Lsl. reflexivity.
    - assert (Ex : exists step, In (vtk_open castN castF import k name step) files).
      { clear -Em Hn. revert files Em. induction names as [|n names IH]; intros files Em; [destruct Hn|]. cbn [mmap] in Em. destruct (re n) as [s|] eqn:Es; [|discriminate]. cbn [bind] in Em.
        match type of Em with context [mmap ?f names] => destruct (mmap f names) as [fs|] eqn:Ef end; [|discriminate]. cbn [bind] in Em. injection Em as <-.
        destruct Hn as [->|Hn]; [exists s; now left|]. destruct (IH Hn fs eq_refl) as [step Hs]. exists step. now right. }
      destruct Ex as [step Hs]. apply Exists_exists. apply In_nth_error in Hs as [j Hj]. exists (N.of_nat j, vtk_open castN castF import k name step). split; [|exists step; reflexivity].
      apply nth_error_In with (n := j). unfold enumerate. clear -Hj.
      assert (X : forall (A : Type) (b : list A) i n x, nth_error b n = Some x -> nth_error (combine (range i (i + vlen b)) b) n = Some ((i + N.of_nat n)%N, x)).
      { clear. induction b as [|y b IH]; intros i [|n] x Hx; try discriminate; (rewrite range_cons by (rewrite vlen_cons; lia)); cbn [combine nth_error] in *.
        - injection Hx as ->. replace (i + N.of_nat 0)%N with i by lia. reflexivity.
        - specialize (IH (i + 1)%N n x Hx). rewrite vlen_cons. replace (i + (1 + vlen b))%N with (i + 1 + vlen b)%N by lia. replace (i + N.of_nat (S n))%N with (i + 1 + N.of_nat n)%N by lia. exact IH. }
      specialize (X _ files 0%N j _ Hj). rewrite !N.add_0_l in X. exact X.
  Qed.

  (** A file of another kind than the filter says, or one that cannot be read: the conversion is refused. *)
  Definition wrong_kind (k : kind) (d : dataset B) : Prop :=
    match k, d with
    | Legacy, PolyData (Val _ :: _) => False
    | Xml Poly, PolyData _ => False
    | Xml Unstr, Unstructured _ => False
    | _, _ => True
    end.
  Lemma opened_at k names (re : string -> res Z) name files : In name names ->
    mmap (fun n => let! s := re n in Val (vtk_open castN castF import k n s)) names = Val files ->
    Exists (fun kf => exists step, snd kf = vtk_open castN castF import k name step) (enumerate files).
  Proof.
    intros Hn Em.
    assert (Ex : exists step, In (vtk_open castN castF import k name step) files).
    { revert files Em. induction names as [|n names IH]; intros files Em; [destruct Hn|]. cbn [mmap] in Em. destruct (re n) as [s|] eqn:Es; [|discriminate]. cbn [bind] in Em.
      match type of Em with context [mmap ?f names] => destruct (mmap f names) as [fs|] eqn:Ef end; [|discriminate]. cbn [bind] in Em. injection Em as <-.
      destruct Hn as [->|Hn]; [exists s; now left|]. destruct (IH Hn fs eq_refl) as [step Hs]. exists step. now right. }
    destruct Ex as [step Hs]. apply Exists_exists. apply In_nth_error in Hs as [j Hj]. exists (N.of_nat j, vtk_open castN castF import k name step). split; [|exists step; reflexivity].
    apply nth_error_In with (n := j). unfold enumerate. clear -Hj.
    assert (X : forall (A : Type) (b : list A) i n x, nth_error b n = Some x -> nth_error (combine (range i (i + vlen b)) b) n = Some ((i + N.of_nat n)%N, x)).
    { clear. induction b as [|y b IH]; intros i [|n] x Hx; try discriminate; (rewrite range_cons by (rewrite vlen_cons; lia)); cbn [combine nth_error] in *.
      - injection Hx as ->. replace (i + N.of_nat 0)%N with i by lia. reflexivity.
      - specialize (IH (i + 1)%N n x Hx). rewrite vlen_cons. replace (i + (1 + vlen b))%N with (i + 1 + vlen b)%N by lia. replace (i + N.of_nat (S n))%N with (i + 1 + N.of_nat n)%N by lia. exact IH. }
    specialize (X _ files 0%N j _ Hj). rewrite !N.add_0_l in X. exact X.
  Qed.
  Theorem c111_wrong_kind k pattern names dt vel rad id ty diam name :
    documented pattern k -> In name names -> import name = Panic \/ (exists d, import name = Val d /\ wrong_kind k d) ->
    py_vtk castN castF import regex names dt pattern vel rad id ty diam = Panic.
  Proof.
    intros Dk Hn Bad. apply choose_documented in Dk. unfold py_vtk. rewrite Dk. unfold from_files. destruct (regex pattern) as [re|]; [|reflexivity]. cbn [bind].
    match goal with |- context [mmap ?f names] => destruct (mmap f names) as [files|] eqn:Em end; [|reflexivity]. cbn [bind].
    enough (E : vtk_converter (settings vel rad id ty diam) files dt = Panic) by now rewrite E.
    unfold vtk_converter. destruct (vlen files =? 0)%N; [reflexivity|]. rewrite (mfold_bad _ (fun kf => exists step, snd kf = vtk_open castN castF import k name step)); [reflexivity | |exact (opened_at k names re name files Hn Em)].
    intros s [j f0] [step Es]. cbn [snd] in Es. subst f0. unfold vtk_file. cbv zeta. destruct (nltb _ _); [reflexivity|].
    assert (Ci : c_id (settings vel rad id ty diam) = Some id) by (destruct diam; reflexivity). rewrite Ci. cbn [unwrap bind].
    assert (Mn : vf_u64 (vtk_open castN castF import k name step) id = Panic).
    { destruct Bad as [Ei | [d [Ei W]]]; [destruct k; cbn [vtk_open vf_u64]; now rewrite Ei|].
      destruct k as [|t]; cbn [vtk_open vf_u64]; rewrite Ei; cbn [bind]; cbn [wrong_kind] in W.
      - unfold legacy_field, legacy_piece. destruct d as [[|[p|] more]|ps|]; try reflexivity. destruct W.
      - unfold xml_field, xml_pieces. destruct t, d; try reflexivity; destruct W. }
    rewrite Mn. reflexivity.
  Qed.

  (** ** C112.  Converter.vtk_from_folder converts exactly the files of the folder whose path ends in .vtk and does not mention
      boundingBox, in their natural order, whatever order the operating system lists them in. *)
  Definition wanted (path : string) : Prop := ending path ".vtk" /\ ~ mentions path "boundingBox".
  Theorem c112_folder (before : string -> string -> Prop) entries names pattern dt vel rad id ty diam k :
    (forall a b, before a b -> ~ before b a) ->
    (forall l, Permutation (natsort l) l /\ (NoDup l -> StronglySorted before (natsort l))) ->
    documented pattern k -> NoDup entries ->
    StronglySorted before names -> (forall n, In n names <-> In n entries /\ wanted n) -> names <> [] ->
    py_vtk_from_folder castN castF import regex natsort (Val entries) dt pattern vel rad id ty diam =
    py_vtk castN castF import regex names dt pattern vel rad id ty diam.
  Proof.
    intros As Sn Dk Nd Ss Hm Ne. apply choose_documented in Dk. unfold py_vtk_from_folder, py_vtk. rewrite Dk. unfold from_folder. cbn [bind].
    set (kept := filter (fun n => ends_with n ".vtk" && negb (contains n "boundingBox")) entries).
    assert (Hk : forall n, In n kept <-> In n names).
    { intros n. unfold kept. rewrite filter_In, Hm, andb_true_iff, negb_true_iff, ends_iff, contains_not. reflexivity. }
    assert (Nk : NoDup kept) by now apply NoDup_filter. destruct (Sn kept) as [Pk Sk]. specialize (Sk Nk).
    assert (Eq : natsort kept = names).
    { assert (Hi : forall n, In n (natsort kept) <-> In n names) by (intros n; rewrite <- Hk; split; intros H; [apply (Permutation_in _ Pk H) | apply (Permutation_in _ (Permutation_sym Pk) H)]).
      clear -As Ss Sk Hi. revert names Ss Hi. induction Sk as [|a l Sl IH Fa]; intros names Ss Hi.
      - destruct names as [|b names]; [reflexivity|]. exfalso. apply (proj2 (Hi b)). now left.
      - destruct Ss as [|b names Sb Fb]; [exfalso; apply (proj1 (Hi a)); now left|]. rewrite Forall_forall in Fa, Fb.
        assert (a = b). { destruct (proj1 (Hi a) (or_introl eq_refl)) as [E|Ha]; [now symmetry|]. destruct (proj2 (Hi b) (or_introl eq_refl)) as [E|Hb]; [exact E|]. exfalso. apply (As a b); [now apply Fa | now apply Fb]. }
        subst b. f_equal. apply IH; [exact Sb|]. intros n. split; intros Hn.
        + destruct (proj1 (Hi n) (or_intror Hn)) as [<-|H]; [exfalso; apply (As a a); now apply Fa | exact H].
        + destruct (proj2 (Hi n) (or_intror Hn)) as [<-|H]; [exfalso; apply (As a a); now apply Fb | exact H]. }
    rewrite Eq. destruct (N.eqb_spec (vlen names) 0) as [L0|_]; [|reflexivity]. destruct names; [congruence | rewrite vlen_cons in L0; lia].
  Qed.
  (** A folder without such files is refused: for every filter, also one for .vtu or .vtp files. *)
  Theorem c113_only_vtk_refuted entries pattern dt vel rad id ty diam k : (forall l, Permutation (natsort l) l) -> documented pattern k ->
    (forall n, In n entries -> ~ ending n ".vtk" \/ mentions n "boundingBox") ->
    py_vtk_from_folder castN castF import regex natsort (Val entries) dt pattern vel rad id ty diam = Panic.
  Proof.
    intros Sn Dk Hn. apply choose_documented in Dk. unfold py_vtk_from_folder. rewrite Dk. unfold from_folder. cbn [bind].
    assert (E : filter (fun n => ends_with n ".vtk" && negb (contains n "boundingBox")) entries = []).
    { clear -Hn. induction entries as [|n l IH]; [reflexivity|]. cbn [filter]. assert (E : ends_with n ".vtk" && negb (contains n "boundingBox") = false).
      { apply not_true_iff_false. rewrite andb_true_iff, negb_true_iff, ends_iff, contains_not. destruct (Hn n (or_introl eq_refl)); tauto. }
      rewrite E. apply IH. intros m Hm. apply Hn. now right. }
    rewrite E. assert (P := Permutation_length (Sn [])). destruct (natsort []); [reflexivity | discriminate].
  Qed.
End Spec.

(** ** C114, C115.  The CSV entry points. *)
Section Csv.
  Context {F : Type} {NF : Num F} (fit : list F -> list F -> N -> option (list F)) (powf : F -> F -> F).
  Context (read : ascii -> ascii -> bool -> string -> res (table F)).
  (** The text is a table if the first characters of [delimiter] and [comment] are used. *)
  Definition text_is (text delimiter comment : string) (hdr : bool) (t : table F) : Prop :=
    exists d dr c cr, delimiter = String d dr /\ comment = String c cr /\ read d c hdr text = Val t.
  Theorem c114_csv bld text columns delimiter hdr comment vel interp radius steps t : text_is text delimiter comment hdr t ->
    (N.odd steps = true -> py_csv fit powf read bld text columns delimiter hdr comment vel interp radius steps = csv_converter fit powf bld t columns vel interp radius steps) /\
    (N.odd steps = false -> py_csv fit powf read bld text columns delimiter hdr comment vel interp radius steps = Panic).
  Proof.
    intros [d [dr [c [cr [-> [-> E]]]]]]. unfold py_csv, open_csv. cbn [first_byte bind]. rewrite E. cbn [bind]. rewrite <- N.negb_even. destruct (N.even steps); split; (reflexivity || discriminate).
  Qed.
  Theorem c114_csv_multi text columns delimiter hdr comment vel interp radius method t : text_is text delimiter comment hdr t ->
    py_csv_multi fit powf read text columns delimiter hdr comment vel interp radius method = csv_multi_converter fit powf t columns vel interp radius method.
  Proof.
    intros [d [dr [c [cr [-> [-> E]]]]]]. unfold py_csv_multi, csv_multi_converter, open_csv. cbn [first_byte bind]. rewrite E. reflexivity.
  Qed.
  Theorem c114_csv_multi_files texts ts times columns delimiter hdr comment : Forall2 (fun x t => text_is x delimiter comment hdr t) texts ts ->
    py_csv_multi_files read texts times columns delimiter hdr comment = csv_multi_file_time_step ts columns times.
  Proof.
    intros H. unfold py_csv_multi_files. erewrite mmap_Forall2; [reflexivity|]. eapply Forall2_impl; [|exact H]. intros x t [d [dr [c [cr [-> [-> E]]]]]]. unfold open_csv. cbn [first_byte bind]. exact E.
  Qed.
  (** An empty delimiter or comment string, or a text that is not a table, is refused. *)
  Theorem c114_unreadable bld text columns delimiter hdr comment vel interp radius steps : (forall t, ~ text_is text delimiter comment hdr t) ->
    py_csv fit powf read bld text columns delimiter hdr comment vel interp radius steps = Panic /\
    forall method, method = "chain"%string \/ method = "id_line"%string -> py_csv_multi fit powf read text columns delimiter hdr comment vel interp radius method = Panic.
  Proof.
    intros H. assert (E : open_csv read text delimiter comment hdr = Panic).
    { unfold open_csv. destruct delimiter as [|d dr]; [reflexivity|]. destruct comment as [|c cr]; [reflexivity|]. cbn [first_byte bind]. destruct (read d c hdr text) as [t|] eqn:E; [|reflexivity]. exfalso. apply (H t). exists d, dr, c, cr. auto. }
    split; [unfold py_csv; destruct (N.even steps); [reflexivity | now rewrite E]|]. intros method [-> | ->]; unfold py_csv_multi; rewrite E; reflexivity.
  Qed.
  (** Refuted: "the default arguments work".  Converter.csv refuses every file if velocities are neither read nor computed ... *)
  Lemma interp_short (data : table F) max_t n out : interpolate data max_t n = Val out -> Forall (fun r => vget r 6 = Panic) out.
  Proof.
    unfold interpolate. destruct (column data 0) as [time|]; [|discriminate]. cbn [bind]. destruct (negb (is_sorted time)); [discriminate|]. destruct (n =? 0)%N; [discriminate|]. cbv zeta.
    assert (R4 : forall i r, row4 data i = Val r -> vget r 6 = Panic).
    { intros i r. unfold row4. destruct (cell data i 0); [|discriminate]. destruct (cell data i 1); [|discriminate]. destruct (cell data i 2); [|discriminate]. destruct (cell data i 3); [|discriminate]. cbn [bind]. intros E. injection E as <-. reflexivity. }
    assert (Ri : forall t rs r, interp_row data t rs = Val r -> vget r 6 = Panic).
    { intros t rs r. unfold interp_row. destruct (_ <=? rs)%N; [intros E; injection E as <-; reflexivity|]. destruct (cell data (rs - 1) 0); [|discriminate]. destruct (cell data (rs + 1) 0); [|discriminate]. cbn [bind].
      destruct (neqb _ _); [intros E; injection E as <-; reflexivity|]. destruct (cell data (rs - 1) 1); [|discriminate]. destruct (cell data (rs + 1) 1); [|discriminate]. destruct (cell data (rs - 1) 2); [|discriminate]. destruct (cell data (rs + 1) 2); [|discriminate]. destruct (cell data (rs - 1) 3); [|discriminate]. destruct (cell data (rs + 1) 3); [|discriminate]. cbn [bind].
      intros E; injection E as <-; reflexivity. }
    assert (Vs : forall (a a' : table F) k r, Forall (fun r => vget r 6 = Panic) a -> vget r 6 = Panic -> vset a k r = Val a' -> Forall (fun r => vget r 6 = Panic) a').
    { intros a a' k r Fa Hr E. rewrite Forall_forall in Fa |- *. intros x Hx. apply In_nth_error in Hx as [j Hj]. destruct (vset_nth a k r a' E) as [_ [X Y]].
      destruct (Nat.eq_dec j (N.to_nat k)) as [->|D]; [rewrite X in Hj; injection Hj as <-; exact Hr | rewrite Y in Hj by exact D; apply Fa; eapply nth_error_In, Hj]. }
    destruct (row4 data 0) as [first|] eqn:E1; [|discriminate]. destruct (row4 data (vlen data - 1)) as [last|] eqn:E2; [|discriminate]. cbn [bind].
    destruct (vset (repeat (repeat n0 4) (N.to_nat n)) 0 first) as [a1|] eqn:E3; [|discriminate]. cbn [bind]. destruct (vset a1 (n - 1) last) as [a2|] eqn:E4; [|discriminate]. cbn [bind].
    assert (F0 : Forall (fun r : list F => vget r 6 = Panic) (repeat (repeat n0 4) (N.to_nat n))) by (apply Forall_forall; intros x Hx; apply repeat_spec in Hx; subst; reflexivity).
    assert (F1 := Vs _ _ _ _ F0 (R4 _ _ E1) E3). assert (F2 := Vs _ _ _ _ F1 (R4 _ _ E2) E4). clear F0 F1 E3 E4 E1 E2.
    match goal with |- context [mfold ?f ?l ?s] => destruct (mfold f l s) as [r|] eqn:Em end; [|discriminate]. cbn [bind]. intros E. injection E as <-.
    revert Em. generalize (range 1 (n - 1)). intros steps. revert F2. generalize a2 1%N. induction steps as [|k steps IH]; intros a rs Fa Em; cbn [mfold] in Em; [injection Em as <-; exact Fa|].
    destruct (next_step _ _ _) as [rs'|]; [|discriminate]. cbn [bind] in Em. destruct (interp_row _ _ _) as [row|] eqn:Er; [|discriminate]. cbn [bind] in Em. destruct (vset a k row) as [a'|] eqn:Ev; [|discriminate]. cbn [bind] in Em.
    apply (IH a' rs'); [|exact Em]. eapply Vs; [exact Fa | eapply Ri, Er | exact Ev].
  Qed.
  Theorem c115_csv_refuted bld text columns delimiter hdr comment interp radius steps : nisnan (nnan : F) = true -> (vlen columns < 7)%N ->
    py_csv fit powf read bld text columns delimiter hdr comment false interp radius steps = Panic.
  Proof.
    intros Nn Lc. unfold py_csv. destruct (N.even steps); [reflexivity|]. destruct (open_csv read text delimiter comment hdr) as [t|]; [|reflexivity]. cbn [bind].
    unfold csv_converter. destruct (vlen columns =? 0)%N; [reflexivity|]. destruct (pick 7 columns t) as [d|] eqn:Ep; [|reflexivity]. cbn [bind].
    assert (Hd : Forall (fun r => vget r 6 = Val nnan) d).
    { apply pick_val in Ep. clear -Ep Lc. revert d Ep. induction t as [|r t IH]; intros d Ep; cbn [mmap] in Ep; [injection Ep as <-; constructor|].
      destruct (pick_row 7 columns r) as [x|] eqn:Ex; [|discriminate]. cbn [bind] in Ep. destruct (mmap (pick_row 7 columns) t) as [xs|]; [|discriminate]. cbn [bind] in Ep. injection Ep as <-.
      constructor; [|now apply IH]. unfold pick_row in Ex. match type of Ex with context [mmap ?f columns] => destruct (mmap f columns) as [l|] eqn:El end; [|discriminate]. cbn [bind] in Ex.
      destruct (7 <? vlen columns)%N; [discriminate|]. assert (Ex' : x = l ++ repeat nnan (N.to_nat (7 - vlen columns))) by congruence. subst x. assert (Ll : List.length l = List.length columns).
      { clear -El. revert l El. induction columns as [|c cs IH]; intros l El; cbn [mmap] in El; [injection El as <-; reflexivity|]. match type of El with bind ?X _ = _ => destruct X; [cbn [bind] in El | discriminate] end.
        match type of El with bind ?X _ = _ => destruct X as [l'|]; [cbn [bind] in El | discriminate] end. injection El as <-. cbn [List.length]. f_equal. now apply IH. }
      apply vget_val. unfold vlen in *. rewrite nth_error_app2 by lia. apply nth_error_repeat. lia. }
    destruct (column d 0) as [tm|]; [|reflexivity]. cbn [bind].
    match goal with |- bind ?X _ = _ => destruct X as [d1|] eqn:E1; [cbn [bind] | reflexivity] end.
    assert (Hd1 : Forall (fun r => vget r 6 = Val nnan) d1).
    { destruct (is_sorted tm); [injection E1 as <-; exact Hd|]. unfold sort_by_column in E1. match type of E1 with bind ?X _ = _ => destruct X as [idx|]; [cbn [bind] in E1 | discriminate] end.
      clear -E1 Hd. revert d1 E1. induction idx as [|i idx IH]; intros d1 E1; cbn [mmap] in E1; [injection E1 as <-; constructor|]. destruct (vget d i) as [r|] eqn:Er; [|discriminate]. cbn [bind] in E1.
      destruct (mmap (vget d) idx) as [rs|]; [|discriminate]. cbn [bind] in E1. injection E1 as <-. constructor; [|now apply IH]. rewrite Forall_forall in Hd. apply Hd. apply vget_val in Er. eapply nth_error_In, Er. }
    match goal with |- bind ?X _ = _ => destruct X as [d2|] eqn:E2; [cbn [bind] | reflexivity] end.
    assert (Hd2 : Forall (fun r => vget r 6 = Val nnan) d2 \/ Forall (fun r => vget r 6 = Panic) d2).
    { destruct interp; [right | left; injection E2 as <-; exact Hd1]. match type of E2 with bind ?X _ = _ => destruct X; [cbn [bind] in E2 | discriminate] end. match type of E2 with bind ?X _ = _ => destruct X; [cbn [bind] in E2 | discriminate] end. match type of E2 with bind ?X _ = _ => destruct X; [cbn [bind] in E2 | discriminate] end.
      eapply interp_short, E2. }
    unfold cell. destruct (vget d2 0) as [r|] eqn:Er; [|reflexivity]. cbn [bind]. apply vget_val in Er. apply nth_error_In in Er. destruct Hd2 as [H|H]; rewrite Forall_forall in H; rewrite (H r Er); [|reflexivity]. cbn [bind]. now rewrite Nn.
  Qed.
  Corollary c115_csv_default_refuted bld text : nisnan (nnan : F) = true -> py_csv_default fit powf read bld text = Panic.
  Proof. intros Nn. apply c115_csv_refuted; [exact Nn | reflexivity]. Qed.
  (** ... and Converter.csv_multi never writes anything: the default method is id_line in quotation marks, which is none of the methods. *)
  Theorem c115_csv_multi_default_refuted text : py_csv_multi_default fit powf read text = Val None.
  Proof. reflexivity. Qed.
  (** With one of the two methods and the defaults otherwise, the text is read with a quotation mark between the fields and at
      the start of comments: a text that cannot be read that way, as numbers separated by commas, is refused. *)
  Theorem c115_csv_multi_quotes_refuted text method : method = "chain"%string \/ method = "id_line"%string ->
    (read "034"%char "034"%char true text = Panic -> py_csv_multi_method fit powf read text method = Panic) /\
    (forall t, read "034"%char "034"%char true text = Val t ->
       py_csv_multi_method fit powf read text method = csv_multi_converter fit powf t [0; 1; 2; 3]%Z false false n0 method).
  Proof.
    intros [-> | ->]; (split; [intros H | intros t H]; unfold py_csv_multi_method, py_csv_multi, open_csv, quoted; cbn [first_byte bind String.append String.eqb Ascii.eqb Bool.eqb]; rewrite H; reflexivity).
  Qed.
End Csv.

(** ** The hypotheses are met *)
Definition ex_castN (z : Z) : option N := if (z <? 0)%Z then None else Some (Z.to_N z).
Definition ex_castF (z : Z) : option f64 := Some (nof z).
Definition ex_arr (n : string) (l : list Z) : array Z := mkArr n l.
Definition ex_legacy : dataset Z :=
  PolyData [Val (mkPiece [5; 1; 1; 6; 2; 2]%Z [FieldData "FieldData" [ex_arr "id" [7; 3]%Z; ex_arr "type" [1; 2]%Z; ex_arr "v" [1; 0; 0; 0; 1; 0]%Z; ex_arr "radius" [2; 4]%Z]])].
(** Two pieces of one particle each, in an unstructured grid, with diameters. *)
Definition ex_piece (i x dm : Z) : piece Z :=
  mkPiece [x; 1; 1]%Z [DataArray (ex_arr "v" [1; 0; 0]%Z); DataArray (ex_arr "id" [i]%Z); DataArray (ex_arr "type" [1]%Z); DataArray (ex_arr "d" [dm]%Z)].
Definition ex_xml : dataset Z := Unstructured [Val (ex_piece 7 5 2); Val (ex_piece 3 6 4)].
Definition ex_c (r : list f64) (ty : list f64) : particles f64 :=
  mkPs [7; 3]%N r ty [(nof 5, nof 1, nof 1); (nof 6, nof 2, nof 2)] [(nof 1, nof 0, nof 0); (nof 0, nof 1, nof 0)].
Definition ex_x : particles f64 :=
  mkPs [7; 3]%N (map (fun x => x * nlit 1 2)%num [nof 2; nof 4]) [nof 1; nof 1] [(nof 5, nof 1, nof 1); (nof 6, nof 1, nof 1)] [(nof 1, nof 0, nof 0); (nof 1, nof 0, nof 0)].
Ltac conv := repeat (constructor; [reflexivity|]); constructor.
Ltac others := repeat (constructor; [cbn; discriminate|]); constructor.
Example ex_legacy_particles : has_particles ex_castN ex_castF Legacy "v" "radius" "id" "type" None ex_legacy (ex_c [nof 2; nof 4] [nof 1; nof 2]).
Proof.
  split; [repeat split; discriminate|]. split; [|split; [|split; [|split]]].
  - do 3 eexists. exists []. do 3 eexists. split; [reflexivity|]. split; [reflexivity|]. split; [reflexivity|]. split; [others | conv].
  - do 3 eexists. exists [ex_arr "id" [7; 3]%Z; ex_arr "type" [1; 2]%Z; ex_arr "v" [1; 0; 0; 0; 1; 0]%Z]. do 3 eexists. split; [reflexivity|]. split; [reflexivity|]. split; [reflexivity|]. split; [others | conv].
  - exists [1; 2]%N. split; [|reflexivity]. do 3 eexists. exists [ex_arr "id" [7; 3]%Z]. do 3 eexists. split; [reflexivity|]. split; [reflexivity|]. split; [reflexivity|]. split; [others | conv].
  - do 3 eexists. exists [ex_arr "id" [7; 3]%Z; ex_arr "type" [1; 2]%Z]. do 3 eexists. split; [reflexivity|]. split; [reflexivity|]. split; [reflexivity|]. split; [others | conv].
  - do 2 eexists. split; [reflexivity | conv].
Qed.
Example ex_xml_particles : has_particles ex_castN ex_castF (Xml Unstr) "v" "radius" "id" "type" (Some "d"%string) ex_xml ex_x.
Proof.
  assert (P : ex_xml = of_type Unstr (map Val [ex_piece 7 5 2; ex_piece 3 6 4])) by reflexivity.
  split; [repeat split; discriminate|]. split; [|split; [|split; [|split]]].
  - exists [ex_piece 7 5 2; ex_piece 3 6 4], [[7%N]; [3%N]]. split; [exact P|]. split; [reflexivity|].
    repeat (constructor; [exists [DataArray (ex_arr "v" [1; 0; 0]%Z)]; do 2 eexists; split; [reflexivity|]; split; [reflexivity|]; split; [others | conv]|]). constructor.
  - exists [nof 2; nof 4]. split; [|reflexivity]. exists [ex_piece 7 5 2; ex_piece 3 6 4], [[nof 2]; [nof 4]]. split; [exact P|]. split; [reflexivity|].
    constructor; [exists [DataArray (ex_arr "v" [1; 0; 0]%Z); DataArray (ex_arr "id" [7]%Z); DataArray (ex_arr "type" [1]%Z)]; do 2 eexists; split; [reflexivity|]; split; [reflexivity|]; split; [others | conv]|].
    constructor; [exists [DataArray (ex_arr "v" [1; 0; 0]%Z); DataArray (ex_arr "id" [3]%Z); DataArray (ex_arr "type" [1]%Z)]; do 2 eexists; split; [reflexivity|]; split; [reflexivity|]; split; [others | conv]|]. constructor.
  - exists [1; 1]%N. split; [|reflexivity]. exists [ex_piece 7 5 2; ex_piece 3 6 4], [[1%N]; [1%N]]. split; [exact P|]. split; [reflexivity|].
    constructor; [exists [DataArray (ex_arr "v" [1; 0; 0]%Z); DataArray (ex_arr "id" [7]%Z)]; do 2 eexists; split; [reflexivity|]; split; [reflexivity|]; split; [others | conv]|].
    constructor; [exists [DataArray (ex_arr "v" [1; 0; 0]%Z); DataArray (ex_arr "id" [3]%Z)]; do 2 eexists; split; [reflexivity|]; split; [reflexivity|]; split; [others | conv]|]. constructor.
  - exists [ex_piece 7 5 2; ex_piece 3 6 4], [[nof 1; nof 0; nof 0]; [nof 1; nof 0; nof 0]]. split; [exact P|]. split; [reflexivity|].
    repeat (constructor; [exists []; do 2 eexists; split; [reflexivity|]; split; [reflexivity|]; split; [others | conv]|]). constructor.
  - exists [ex_piece 7 5 2; ex_piece 3 6 4], [[nof 5; nof 1; nof 1]; [nof 6; nof 1; nof 1]]. split; [exact P|]. split; [reflexivity|]. repeat (constructor; [conv|]). constructor.
Qed.
Example ex_filters : documented "(\d+).vtk" Legacy /\ documented "(\d+).vtu" (Xml Unstr) /\ documented "(\d+).vtp" (Xml Poly).
Proof. repeat split; try (apply contains_not; reflexivity); apply contains_iff; reflexivity. Qed.
Example ex_lacks : lacks Legacy ex_legacy "density" /\ lacks (Xml Unstr) ex_xml "radius".
Proof.
  split.
  - do 5 eexists. split; [reflexivity|]. split; [reflexivity | others].
  - exists [ex_piece 7 5 2; ex_piece 3 6 4]. split; [reflexivity|]. repeat (constructor; [others|]). constructor.
Qed.
(** The order of the files: any sorting by a strict total order will do, for example the lexicographic one. *)
From Coq Require Import OrderedTypeEx.
Fixpoint ex_insert (a : string) (l : list string) : list string :=
  match l with [] => [a] | b :: l' => match String_as_OT.cmp a b with Gt => b :: ex_insert a l' | _ => a :: l end end.
Definition ex_sort (l : list string) : list string := fold_right ex_insert [] l.
Example ex_natsort : (forall a b, String_as_OT.lt a b -> ~ String_as_OT.lt b a) /\
  forall l, Permutation (ex_sort l) l /\ (NoDup l -> StronglySorted String_as_OT.lt (ex_sort l)).
Proof.
  split; [intros a b H1 H2; apply (String_as_OT.lt_not_eq _ _ (String_as_OT.lt_trans _ _ _ H1 H2)); reflexivity|].
  assert (Pi : forall a l, Permutation (ex_insert a l) (a :: l)).
  { intros a. induction l as [|b l IH]; [reflexivity|]. cbn [ex_insert]. destruct (String_as_OT.cmp a b); [reflexivity | reflexivity|]. rewrite IH. apply perm_swap. }
  assert (P : forall l, Permutation (ex_sort l) l). { induction l as [|a l IH]; [reflexivity|]. cbn [ex_sort fold_right]. rewrite Pi. now constructor. }
  intros l. split; [apply P|]. induction 1 as [|a l Na _ IH]; [constructor|]. change (StronglySorted String_as_OT.lt (ex_insert a (ex_sort l))).
  assert (Ni : ~ In a (ex_sort l)) by (intros H; apply Na; apply (Permutation_in _ (P l) H)). revert IH Ni. generalize (ex_sort l). clear -Pi. intros m S. induction S as [|b m S IH Fb]; intros Ni; [repeat constructor|].
  cbn [ex_insert]. assert (Cs := String_as_OT.cmp_antisym a b). destruct (String_as_OT.cmp a b) eqn:E.
  - apply String_as_OT.cmp_eq in E. exfalso. apply Ni. left. now symmetry.
  - apply String_as_OT.cmp_lt in E. constructor; [now constructor|]. constructor; [exact E|]. eapply Forall_impl; [|exact Fb]. intros c Hc. cbn beta in Hc. eapply String_as_OT.lt_trans; eassumption.
  - assert (L : String_as_OT.lt b a) by (apply String_as_OT.cmp_lt; rewrite String_as_OT.cmp_antisym, E; reflexivity).
    constructor; [apply IH; intros H; apply Ni; now right|]. apply Forall_forall. intros c Hc. apply (Permutation_in _ (Pi a m)) in Hc. destruct Hc as [<-|Hc]; [exact L|]. rewrite Forall_forall in Fb. now apply Fb.
Qed.
(** Two files of the folder are converted, in the order of their names. *)
Example ex_folder : match py_vtk_from_folder ex_castN ex_castF (fun _ => Val ex_legacy) (fun _ => Val (fun n => if String.eqb n "f/10.vtk" then Val 10%Z else Val 20%Z)) ex_sort
    (Val ["f/20.vtk"; "f/boundingBox.vtk"; "f/notes.txt"; "f/10.vtk"]%string) (nof 1 : f64) "(\d+).vtk" "v" "radius" "id" "type" None with
  | Val (Some (tf, h)) => (tf_timesteps tf =? 2)%N && match tf_group tf 0, tf_group tf 1 with Some g, Some g' => match tg_time g, tg_time g' with Some t, Some t' => Beqb t (nof 10) && Beqb t' (nof 20) | _, _ => false end | _, _ => false end
  | _ => false end = true.
Proof. vm_compute. reflexivity. Qed.
Example ex_vtu_refused : py_vtk_from_folder ex_castN ex_castF (fun _ => Val ex_xml) (fun _ => Val (fun n => Val 1%Z)) ex_sort
    (Val ["f/1.vtu"]%string) (nof 1 : f64) "(\d+).vtu" "v" "radius" "id" "type" (Some "d"%string) = Panic.
Proof. reflexivity. Qed.
Example ex_text : text_is (F := f64) (fun d c h x => if Ascii.eqb d "," && Ascii.eqb c "#" && h then Val [[nof 1]] else Panic) "1" "," "#" true [[nof 1]].
Proof. exists ","%char, ""%string, "#"%char, ""%string. repeat split. Qed.
Example c111_wrong_kind_case : documented "(\d+).vtp" (Xml Poly) /\ wrong_kind (Xml Poly) (@Unstructured bool []) /\ wrong_kind (Xml Unstr) (@PolyData bool []) /\ wrong_kind Legacy (@Unstructured bool []) /\
  ~ wrong_kind (Xml Poly) (@PolyData bool []).
Proof.
  split; [|cbn [wrong_kind]; tauto].
  split; [apply contains_iff; reflexivity|]. split; apply contains_not; reflexivity.
Qed.
