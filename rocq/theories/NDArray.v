(** * NDArray: the fragment of the [ndarray] crate that the code uses.

    Arrays are a shape and a function from indices.  Only indices inside the shape are
    meaningful: every read and write below checks bounds and is [Panic] otherwise, as
    ndarray's indexing is. *)
From Coq Require Import ZArith NArith Lia.
From Verif Require Import Base Num.

(** [[T; 3]] and [CellId] (src/types.rs lines 1-5). *)
Definition v3 (A : Type) : Type := (A * A * A)%type.
Definition id3 : Type := v3 N.

Definition id3_eqb (a b : id3) : bool :=
  let '(a0, a1, a2) := a in let '(b0, b1, b2) := b in
  ((a0 =? b0) && (a1 =? b1) && (a2 =? b2))%N.

(** Indexing a fixed [[T; 3]] by a usize. *)
Definition v3get {A} (v : v3 A) (i : N) : res A :=
  let '(a, b, c) := v in
  if (i =? 0)%N then Val a else if (i =? 1)%N then Val b
  else if (i =? 2)%N then Val c else Panic.

Definition inb3 (sh i : id3) : bool :=
  let '(s0, s1, s2) := sh in let '(i0, i1, i2) := i in
  ((i0 <? s0) && (i1 <? s1) && (i2 <? s2))%N.

(** All indices of a shape in [indexed_iter] (row-major) order. *)
Definition ids3 (sh : id3) : list id3 :=
  let '(s0, s1, s2) := sh in
  flat_map (fun i => flat_map (fun j => map (fun k => (i, j, k)) (range 0 s2)) (range 0 s1))
           (range 0 s0).

(** ** Array3 *)
Record arr3 (F : Type) : Type := mkA3 { sh3 : id3; at3 : id3 -> F }.
Arguments mkA3 {F}. Arguments sh3 {F}. Arguments at3 {F}.

Definition const3 {F} (sh : id3) (x : F) : arr3 F := mkA3 sh (fun _ => x).
Definition zeros3 {F} {NF : Num F} (sh : id3) : arr3 F := const3 sh n0.

Definition get3 {F} (a : arr3 F) (i : id3) : res F :=
  if inb3 (sh3 a) i then Val (at3 a i) else Panic.
Definition set3 {F} (a : arr3 F) (i : id3) (x : F) : res (arr3 F) :=
  if inb3 (sh3 a) i then Val (mkA3 (sh3 a) (fun j => if id3_eqb i j then x else at3 a j))
  else Panic.
Definition map3 {F G} (f : F -> G) (a : arr3 F) : arr3 G := mkA3 (sh3 a) (fun i => f (at3 a i)).

(** ndarray 0.15 binary operators on [&Array3, &Array3] broadcast both sides: on each axis
    the lengths must agree or one of them must be 1. *)
Definition bdim (a b : N) : res N :=
  if (a =? b)%N then Val a else if (a =? 1)%N then Val b
  else if (b =? 1)%N then Val a else Panic.
Definition bidx (d i : N) : N := if (d =? 1)%N then 0%N else i.
Definition bidx3 (sh i : id3) : id3 :=
  let '(s0, s1, s2) := sh in let '(i0, i1, i2) := i in (bidx s0 i0, bidx s1 i1, bidx s2 i2).
Definition zip3 {F G H} (f : F -> G -> H) (a : arr3 F) (b : arr3 G) : res (arr3 H) :=
  let '(a0, a1, a2) := sh3 a in let '(b0, b1, b2) := sh3 b in
  let! s0 := bdim a0 b0 in let! s1 := bdim a1 b1 in let! s2 := bdim a2 b2 in
  Val (mkA3 (s0, s1, s2) (fun i => f (at3 a (bidx3 (sh3 a) i)) (at3 b (bidx3 (sh3 b) i)))).

(** A loop writing every index of an array once, [f i] being the (possibly panicking) value
    computed for index [i]. *)
Definition build3 {F} {NF : Num F} (sh : id3) (f : id3 -> res F) : res (arr3 F) :=
  let! _ := mfold (fun (_ : unit) i => let! _ := f i in Val tt) (ids3 sh) tt in
  Val (mkA3 sh (fun i => match f i with Val x => x | Panic => n0 end)).

(** ** Array2 *)
Record arr2 (F : Type) : Type := mkA2 { sh2 : N * N; at2 : N * N -> F }.
Arguments mkA2 {F}. Arguments sh2 {F}. Arguments at2 {F}.

Definition zeros2 {F} {NF : Num F} (sh : N * N) : arr2 F := mkA2 sh (fun _ => n0).
Definition inb2 (sh i : N * N) : bool := ((fst i <? fst sh) && (snd i <? snd sh))%N.
Definition get2 {F} (a : arr2 F) (i : N * N) : res F :=
  if inb2 (sh2 a) i then Val (at2 a i) else Panic.
(** Element-wise operation of two arrays of the same shape. *)
Definition zip2 {F G H} (f : F -> G -> H) (a : arr2 F) (b : arr2 G) : arr2 H :=
  mkA2 (sh2 a) (fun i => f (at2 a i) (at2 b i)).
Definition map2 {F G} (f : F -> G) (a : arr2 F) : arr2 G := mkA2 (sh2 a) (fun i => f (at2 a i)).

(** The plane that [s![k, ..]] picks on an axis of length [n]: the index is a [usize] that the
    macro casts to [isize], and negative numbers count from the end, so the [n] largest
    [usize] values are the planes [0 .. n - 1] again (ndarray 0.15, [SliceInfoElem::from] and
    [abs_index]).  [None] is ndarray's out-of-bounds panic. *)
Definition s_index (n k : N) : option N :=
  if (k <? n)%N then Some k
  else if ((2 ^ 64 <=? k + n) && (k <? 2 ^ 64))%N then Some (k + n - 2 ^ 64)%N
  else None.
Lemma s_index_in n k : (k < n)%N -> s_index n k = Some k.
Proof. intros H. unfold s_index. now rewrite (proj2 (N.ltb_lt k n) H). Qed.
Lemma s_index_out n k : (n <= k)%N -> (k + n < 2 ^ 64)%N -> s_index n k = None.
Proof. intros H H'. unfold s_index. rewrite (proj2 (N.ltb_ge k n) H). destruct (N.leb_spec (2 ^ 64) (k + n)); [|reflexivity]. exfalso. apply (N.lt_irrefl (k + n)). eapply N.lt_le_trans; eassumption. Qed.
Lemma s_index_end n k : (n <= 2 ^ 63)%N -> (k < n)%N -> s_index n (2 ^ 64 - n + k) = Some k.
Proof.
  intros H Hk. unfold s_index. change (2 ^ 64)%N with (2 ^ 63 + 2 ^ 63)%N. set (m := (2 ^ 63)%N) in *.
  destruct (N.ltb_spec (m + m - n + k) n) as [L|L].
  - exfalso. clear - H Hk L. clearbody m. lia.
  - replace (m + m <=? m + m - n + k + n)%N with true by (symmetry; apply N.leb_le; clear - H Hk L; clearbody m; lia).
    replace (m + m - n + k <? m + m)%N with true by (symmetry; apply N.ltb_lt; clear - H Hk L; clearbody m; lia). cbn [andb]. f_equal. clear - H Hk L. clearbody m. lia.
Qed.

(** ** Axes.  [lane axis (i,j) k] is the index whose coordinate along [axis] is [k] and whose
    other coordinates are [i, j] in order. *)
Definition lane (axis : N) (ij : N * N) (k : N) : id3 :=
  let '(i, j) := ij in
  if (axis =? 0)%N then (k, i, j) else if (axis =? 1)%N then (i, k, j) else (i, j, k).
(** [raw_dim().remove_axis(axis)] and [len_of(axis)]; an axis > 2 panics in [axis_iter]. *)
Definition remove_axis (axis : N) (sh : id3) : res (N * N) :=
  let '(a, b, c) := sh in
  if (axis =? 0)%N then Val (b, c) else if (axis =? 1)%N then Val (a, c)
  else if (axis =? 2)%N then Val (a, b) else Panic.
(** The [k]-th subview along [axis] ([axis_iter] / [slice(s![.., k, ..])]). *)
Definition plane {F} (axis : N) (sh : N * N) (a : arr3 F) (k : N) : arr2 F :=
  mkA2 sh (fun ij => at3 a (lane axis ij k)).

(** ** ndarray-stats [argmin]: [None] on empty input or an incomparable (NaN) element,
    otherwise the first index of a minimal element. *)
Fixpoint argmin_from {F} {NF : Num F} (l : list F) (k best : N) (cur : F) : option N :=
  match l with
  | [] => Some best
  | x :: l' =>
      if nisnan x || nisnan cur then None
      else if nltb x cur then argmin_from l' (k + 1)%N k x
      else argmin_from l' (k + 1)%N best cur
  end.
Definition argmin {F} {NF : Num F} (l : list F) : option N :=
  match l with [] => None | x :: _ => argmin_from l 0 0 x end.
