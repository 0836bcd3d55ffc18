(** * Model of the Python [Converter] class, of the VTK readers below it and of the folder conversion
    (src/pylib/libconv.rs, src/converter/xmltools.rs, legacytools.rs, src/converter.rs 514-560, 943-988). *)
From Coq Require Import List NArith ZArith Bool String Ascii.
From Verif Require Import Base Num DataModel ConvModel.
Local Open Scope list_scope.
Local Open Scope bool_scope.

(** [str::contains] *)
Fixpoint contains (s p : string) : bool :=
  prefix p s || match s with EmptyString => false | String _ s' => contains s' p end.
(** [str::ends_with] *)
Fixpoint ends_with (s p : string) : bool :=
  String.eqb s p || match s with EmptyString => false | String _ s' => ends_with s' p end.

Section LibConv.
  Context {F : Type} {NF : Num F}.
  (** A number as stored in a VTK buffer, and its conversion to [u64] and [f64]
      ([IOBuffer::cast_into], which fails for the whole buffer if one number cannot be converted). *)
  Context {B : Type} (castN : B -> option N) (castF : B -> option F).

  (** vtkio's data model, as far as the readers look at it. *)
  Record array : Type := mkArr { ar_name : string; ar_data : list B }.
  Inductive attribute : Type := DataArray (a : array) | FieldData (name : string) (l : list array).
  Definition attr_name (a : attribute) : string := match a with DataArray a => ar_name a | FieldData n _ => n end.
  Record piece : Type := mkPiece { pc_points : list B; pc_attrs : list attribute }.
  (** A piece that cannot be loaded is [Panic]. *)
  Inductive dataset : Type := PolyData (ps : list (res piece)) | Unstructured (ps : list (res piece)) | OtherData.
  (** converter.rs 861-865 [VTKType] *)
  Inductive vtktype : Type := Poly | Unstr.
  Inductive kind : Type := Legacy | Xml (t : vtktype).

  Definition cast_into {T} (c : B -> option T) (l : list B) : res (list T) := mmap (fun b => unwrap (c b)) l.

  (** xmltools.rs 24-47, 49-75, 93-101, 103-111: the pieces, if the file is of the expected type. *)
  Definition xml_pieces (t : vtktype) (d : dataset) : res (list (res piece)) :=
    match t, d with Poly, PolyData ps => Val ps | Unstr, Unstructured ps => Val ps | _, _ => Panic end.
  (** xmltools.rs 8-77 [get_field]: the data arrays of that name of every piece, one after the other. *)
  Definition xml_field {T} (c : B -> option T) (t : vtktype) (d : dataset) (name : string) : res (list T) :=
    let! ps := xml_pieces t d in
    let! parts := mmap (fun rp =>
        let! p := rp in
        let! l := mmap (fun a => if String.eqb (attr_name a) name then
                                   match a with DataArray a => cast_into c (ar_data a) | FieldData _ _ => Val [] end
                                 else Val []) (pc_attrs p) in
        Val (concat l)) ps in
    Val (concat parts).
  (** xmltools.rs 79-141 [get_positions] *)
  Definition xml_positions (t : vtktype) (d : dataset) : res (list F) :=
    let! ps := xml_pieces t d in
    let! parts := mmap (fun rp => let! p := rp in cast_into castF (pc_points p)) ps in
    Val (concat parts).

  (** legacytools.rs 8-17, 40-48: the first piece of poly data. *)
  Definition legacy_piece (d : dataset) : res piece :=
    match d with PolyData (rp :: _) => rp | _ => Panic end.
  (** legacytools.rs 2-31 [get_field]: the first array of that name in the first point attribute. *)
  Definition legacy_field {T} (c : B -> option T) (d : dataset) (name : string) : res (list T) :=
    let! p := legacy_piece d in
    match pc_attrs p with
    | FieldData _ l :: _ => let! a := unwrap (find (fun a => String.eqb (ar_name a) name) l) in cast_into c (ar_data a)
    | _ => Panic
    end.
  (** legacytools.rs 33-53 [get_positions] *)
  Definition legacy_positions (d : dataset) : res (list F) :=
    let! p := legacy_piece d in cast_into castF (pc_points p).

  (** The file system: [Vtk::import] (with [load_all_pieces], which changes nothing for files without parallel
      pieces), and [std::fs::read_dir]. *)
  Variable import : string -> res dataset.
  (** [Regex::new(filter)], then the first group of the match of a file name, parsed as [i64]. *)
  Variable regex : string -> res (string -> res Z).
  (** [sort_unstable_by(natord::compare)] *)
  Variable natsort : list string -> list string.

  (** One file as the conversion loop sees it. *)
  Definition vtk_open (k : kind) (name : string) (step : Z) : vtkfile F :=
    match k with
    | Legacy => mkVtk step (fun n => let! d := import name in legacy_field castN d n)
                  (fun n => let! d := import name in legacy_field castF d n)
                  (let! d := import name in legacy_positions d)
    | Xml t => mkVtk step (fun n => let! d := import name in xml_field castN t d n)
                  (fun n => let! d := import name in xml_field castF t d n)
                  (let! d := import name in xml_positions t d)
    end.
  (** converter.rs 585-856 and 1012-1281 [write_hdf5_from_files]; the step number of a file is read inside the
      loop, here beforehand (either way a name that does not match makes the conversion panic). *)
  Definition from_files (k : kind) (cfg : vtkcfg) (names : list string) (dt : F) (filter : string)
    : res (tfile F * header F) :=
    let! re := regex filter in
    let! files := mmap (fun n => let! s := re n in Val (vtk_open k n s)) names in
    vtk_converter cfg files dt.
  (** converter.rs 514-560 and 943-988 [write_hdf5_from_folder]: the same text for both converters; [entries] is
      what [read_dir] lists, or [Panic]. *)
  Definition from_folder (k : kind) (cfg : vtkcfg) (entries : res (list string)) (dt : F) (pattern : string)
    : res (tfile F * header F) :=
    let! l := entries in
    let l := natsort (filter (fun n => ends_with n ".vtk" && negb (contains n "boundingBox")) l) in
    if (vlen l =? 0)%N then Panic else from_files k cfg l dt pattern.

  (** libconv.rs 114-125, 131-147, 153-169: the settings. *)
  Definition settings (vel rad id ty : string) (diam : option string) : vtkcfg :=
    match diam with
    | Some dm => mkCfg (Some vel) (Some id) None (Some ty) (Some dm)
    | None => mkCfg (Some vel) (Some id) (Some rad) (Some ty) None
    end.
  (** libconv.rs 110, 127, 149: the converter for a filter, if any. *)
  Definition choose (filter : string) : option kind :=
    if contains filter ".vtk" then Some Legacy
    else if contains filter ".vtu" then Some (Xml Unstr)
    else if contains filter ".vtp" then Some (Xml Poly)
    else None.
  (** libconv.rs 98-172 [Converter.vtk]; [None]: nothing is written. *)
  Definition py_vtk (names : list string) (dt : F) (filter vel rad id ty : string) (diam : option string)
    : res (option (tfile F * header F)) :=
    match choose filter with
    | Some k => let! r := from_files k (settings vel rad id ty diam) names dt filter in Val (Some r)
    | None => Val None
    end.
  (** libconv.rs 247-321 [Converter.vtk_from_folder] *)
  Definition py_vtk_from_folder (entries : res (list string)) (dt : F) (filter vel rad id ty : string) (diam : option string)
    : res (option (tfile F * header F)) :=
    match choose filter with
    | Some k => let! r := from_folder k (settings vel rad id ty diam) entries dt filter in Val (Some r)
    | None => Val None
    end.

  Section Csv.
    Context (fit : list F -> list F -> N -> option (list F)) (powf : F -> F -> F).
    (** The csv reader: delimiter, comment character, header, and the text to a table of numbers
        ([Panic]: a text that is not a table of numbers). *)
    Variable read : ascii -> ascii -> bool -> string -> res (table F).
    (** [delimiter.as_bytes()[0]]; the strings here are bytes. *)
    Definition first_byte (s : string) : res ascii := match s with String a _ => Val a | EmptyString => Panic end.
    Definition open_csv (text : string) (delimiter comment : string) (hdr : bool) : res (table F) :=
      let! d := first_byte delimiter in
      let! c := first_byte comment in
      read d c hdr text.

    (** libconv.rs 375-405 [Converter.csv] on an existing file with this text. *)
    Definition py_csv (bld : build) (text : string) (columns : list Z) (delimiter : string) (hdr : bool) (comment : string)
        (vel interp : bool) (radius : F) (steps : N) : res (pfile F * header F) :=
      if N.even steps then Panic else
      let! t := open_csv text delimiter comment hdr in
      csv_converter fit powf bld t columns vel interp radius steps.
    (** libconv.rs 362-373: its default arguments. *)
    Definition py_csv_default (bld : build) (text : string) : res (pfile F * header F) :=
      py_csv bld text [0; 1; 2; 3]%Z "," true "#" false false n0 9.

    (** libconv.rs 473-503, converter.rs 384-434 [Converter.csv_multi] on an existing file with this text. *)
    Definition py_csv_multi (text : string) (columns : list Z) (delimiter : string) (hdr : bool) (comment : string)
        (vel interp : bool) (radius : F) (method : string) : res (option (pfile F * header F)) :=
      if String.eqb method "chain" then
        let! t := open_csv text delimiter comment hdr in
        let! r := csv_multi_chain fit powf t columns vel interp radius in Val (Some r)
      else if String.eqb method "id_line" then
        let! t := open_csv text delimiter comment hdr in
        let! r := csv_multi_idline fit powf t columns vel interp radius in Val (Some r)
      else Val None.
    (** libconv.rs 460-471: its default arguments; three strings contain quotation marks. *)
    Definition quoted (s : string) : string := String "034" (s ++ String "034" "")%string.
    Definition py_csv_multi_method (text : string) (method : string) : res (option (pfile F * header F)) :=
      py_csv_multi text [0; 1; 2; 3]%Z (quoted ",") true (quoted "#") false false n0 method.
    Definition py_csv_multi_default (text : string) : res (option (pfile F * header F)) :=
      py_csv_multi_method text (quoted "id_line").

    (** libconv.rs 564-593 [Converter.csv_multi_files] on existing files with these texts. *)
    Definition py_csv_multi_files (texts : list string) (times : list F) (columns : list Z) (delimiter : string) (hdr : bool)
        (comment : string) : res (tfile F * header F) :=
      let! ts := mmap (fun x => open_csv x delimiter comment hdr) texts in
      csv_multi_file_time_step ts columns times.
    (** libconv.rs 551-562: its default arguments. *)
    Definition py_csv_multi_files_default (texts : list string) (times : list F) : res (tfile F * header F) :=
      py_csv_multi_files texts times [0; 1; 2; 3]%Z "," true "#".
  End Csv.
End LibConv.
Arguments array : clear implicits.
Arguments attribute : clear implicits.
Arguments piece : clear implicits.
Arguments dataset : clear implicits.
