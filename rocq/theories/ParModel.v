(** * ParModel: the parallel map of velocity_paralell.rs

    [x.par_iter().enumerate().map(f).collect::<Vec<_>>()] (velocity_paralell.rs 31-96) as rayon runs
    it: the index range is split into pieces at any places, any thread takes any piece and runs its
    items in order, each writing to its own place of the output; when an item panics the rest of its
    piece is not run, other pieces may or may not be, and the panic is passed on at the end.  One
    step is one split or one item; the steps of several threads are interleaved.  Calls of [check_signals!]
    and printing inside an item are left out. *)
From Coq Require Import List NArith Relations.
From Verif Require Import Base Num ConvModel.
Import ListNotations.

Section Par.
  Context {A B : Type} (f : A -> res B).
  (** The pieces still to be run, the output, whether an item has panicked. *)
  Record pstate : Type := mkPs { ps_work : list (N * N); ps_out : list (option B); ps_panicked : bool }.
  Definition par_start (l : list A) : pstate := mkPs [(0%N, vlen l)] (map (fun _ => None) l) false.
  Inductive par_step (l : list A) : pstate -> pstate -> Prop :=
  | P_split w lo mid hi w' out b : (lo < mid < hi)%N ->
      par_step l (mkPs (w ++ (lo, hi) :: w') out b) (mkPs (w ++ (lo, mid) :: (mid, hi) :: w') out b)
  | P_item w lo hi w' out b a y out' : (lo < hi)%N -> vget l lo = Val a -> f a = Val y -> vset out lo (Some y) = Val out' ->
      par_step l (mkPs (w ++ (lo, hi) :: w') out b) (mkPs (w ++ ((lo + 1)%N, hi) :: w') out' b)
  | P_panic w lo hi w' out b a : (lo < hi)%N -> vget l lo = Val a -> f a = Panic ->
      par_step l (mkPs (w ++ (lo, hi) :: w') out b) (mkPs (w ++ w') out true)
  | P_skip w lo hi w' out : par_step l (mkPs (w ++ (lo, hi) :: w') out true) (mkPs (w ++ w') out true).
  Definition par_runs (l : list A) (s : pstate) : Prop := clos_refl_trans _ (par_step l) (par_start l) s.
  Definition par_done (s : pstate) : Prop := Forall (fun r => snd r <= fst r)%N (ps_work s).
  (** The vector handed back: rayon checks that every place was written. *)
  Definition par_result (s : pstate) : res (list B) := if ps_panicked s then Panic else mmap unwrap (ps_out s).
End Par.

Section Velocity.
  Context {F : Type} {NF : Num F} (fit : list F -> list F -> N -> option (list F)) (powf : F -> F -> F).
  (** velocity_paralell.rs 20-29: the windows. *)
  Definition par_windows (data : table F) : list (table F) :=
    map (fun i => firstn 7 (skipn (N.to_nat i) data)) (range 0 (vlen data - 6)).
  (** velocity_paralell.rs 34-95: one item. *)
  Definition par_row (sampling_steps degree : N) (seg : table F) : res (list F) :=
    let h := ((sampling_steps - 1) / 2)%N in
    let! _ := cell seg 0 6 in
    let! tm := column seg 0 in
    let! t0 := vget tm 0 in
    let time := map (fun t => nsub t t0) tm in
    let axis j := let! y := column seg j in let! p := unwrap (fit time y degree) in Val p in
    let! px := axis 1%N in let! py := axis 2%N in let! pz := axis 3%N in
    let at_ := vget time (h + 1) in
    let! vx := derivative powf px at_ in let! vy := derivative powf py at_ in let! vz := derivative powf pz at_ in
    let! row := row4 seg h in
    Val (row ++ [vx; vy; vz]).
End Velocity.
Arguments pstate : clear implicits.
