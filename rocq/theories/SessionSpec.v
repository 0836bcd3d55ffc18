(** * SessionSpec: histories of an object of the class [Data] (specification only) *)
From Coq Require Import ZArith NArith List String.
From Verif Require Import Base Num NDArray GridModel SelModel DataModel FunModel MixModel CondModel PyModel FunRefine SessionModel.

(** [outcome] (FunRefine): what a call returns, or that it panics, without the state it leaves. *)

Section Spec.
  Context {F : Type} {NF : Num F}.

  (** Calls that ask for timesteps the file has ([nt] of them): Python's [data[i]] for
      [-nt <= i < nt], slices with a positive step, and the occupancy functions, which skip two
      timesteps, for files with three or more. *)
  Definition item_ok (nt : N) (i : Z) : Prop := (- Z.of_N nt <= i < Z.of_N nt)%Z.
  Definition call_ok (nt : N) (c : call F) : Prop :=
    match c with
    | COccupancy _ _ | CHomogenity _ _ => (3 <= nt)%N
    | CItem i => item_ok nt i
    | CItems l => Forall (item_ok nt) l
    | CSlice a b s => match s with Some k => (0 < k)%Z | None => True end
    | _ => True
    end.

  (** The methods that read pairs of timesteps through an auxiliary buffer. *)
  Definition uses_aux (c : call F) : bool :=
    match c with COccupancy _ _ | CHomogenity _ _ | CDispersion _ _ | CMsdField _ _ | CMsd _ _ _ _ => true | _ => false end.

  (** States of the data manager of an opened file.  Between opening and now any requests may have
      been made, by calls that returned, that failed, or that were interrupted half-way
      ([check_signals]): reads, one of timestep [nt] (one past the end, as Python's [for] makes)
      among them; setting up the auxiliary buffer; auxiliary reads, also ones that failed. *)
  Inductive reached (M : mgr F) (touch : ms M -> N -> N -> res (ms M)) (nt : N) (d0 : ms M) : ms M -> Prop :=
  | opened : reached M touch nt d0 d0
  | read d t d' x : reached M touch nt d0 d -> (t <= nt)%N -> m_get M d t = Val (d', x) -> reached M touch nt d0 d'
  | setup d d' : reached M touch nt d0 d -> m_setup M d 0%N = Val d' -> reached M touch nt d0 d'
  | aux d t d' x : reached M touch nt d0 d -> (t < nt)%N -> m_getb M d t 0%N = Val (d', x) -> reached M touch nt d0 d'
  | aux_failed d t d' : reached M touch nt d0 d -> (t < nt)%N -> touch d t 0%N = Val d' -> reached M touch nt d0 d'.

  (** The time window in force after some calls: that of the last [set_time], everything if there was none. *)
  Definition window_of (l : list (call F)) : selector F :=
    match fold_left (fun w c => match c with CSetTime a b => Some (a, b) | _ => w end) l None with
    | Some (a, b) => mkSel (a, b) [nneg n1] [nneg n1] [nneg n1] [0%N]
    | None => mkSel (nmin, nmax) [nneg n1] [nneg n1] [nneg n1] [0%N]
    end.
End Spec.
