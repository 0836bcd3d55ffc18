(** * Base: panics, machine integers, loops.

    Conventions of the whole model (no proofs in this file).

    - A Rust panic (explicit [panic!], failed [unwrap], index out of bounds, integer
      underflow in a debug build) is the value [Panic] of [res A].
    - Rust's [Result<T, E>] is [option T] ([None] = [Err], message dropped).
    - [usize] is [N].  Subtraction is [usub], which follows Rust's build profiles.
      Sizes never exceed memory, so addition and multiplication are not wrapped. *)
From Coq Require Export List NArith ZArith Bool.
Export ListNotations.

Inductive res (A : Type) : Type :=
| Val (a : A)
| Panic.
Arguments Val {A} a.
Arguments Panic {A}.

Definition bind {A B} (m : res A) (k : A -> res B) : res B :=
  match m with Val a => k a | Panic => Panic end.

Notation "'let!' x ':=' m 'in' k" := (bind m (fun x => k))
  (at level 200, x pattern, m at level 100, k at level 200, right associativity).

(** [Option::unwrap] / slice indexing with a checked [nth_error]. *)
Definition unwrap {A} (o : option A) : res A :=
  match o with Some a => Val a | None => Panic end.

(** Cargo build profiles: [cargo build] (overflow checks on) and
    [cargo build --release] (overflow wraps); Cargo.toml lines 44-47 keep the
    defaults for [overflow-checks]. *)
Inductive build : Type := Debug | Release.

Definition usize_modulus : N := (2 ^ 64)%N.

(** [a - b] on usize. *)
Definition usub (bld : build) (a b : N) : res N :=
  if (b <=? a)%N then Val (a - b)%N
  else match bld with
       | Debug => Panic
       | Release => Val (a + usize_modulus - b)%N
       end.

(** [a + b] on usize, where the code can reach the bound (see [DataModel.dm_get]). *)
Definition uadd (bld : build) (a b : N) : res N :=
  if (a + b <? usize_modulus)%N then Val (a + b)%N
  else match bld with
       | Debug => Panic
       | Release => Val (a + b - usize_modulus)%N
       end.

(** The half-open Rust range [a..b] (empty if b <= a). *)
Definition range (a b : N) : list N :=
  map (fun k => (a + N.of_nat k)%N) (seq 0 (N.to_nat (b - a))).

(** A [for x in l] loop with mutable state [s] whose body may panic. *)
Fixpoint mfold {S A} (f : S -> A -> res S) (l : list A) (s : S) : res S :=
  match l with
  | [] => Val s
  | a :: l' => let! s' := f s a in mfold f l' s'
  end.

(** Mapping a panicking function over a list. *)
Fixpoint mmap {A B} (f : A -> res B) (l : list A) : res (list B) :=
  match l with
  | [] => Val []
  | a :: l' => let! b := f a in let! bs := mmap f l' in Val (b :: bs)
  end.

(** Indexing a [Vec] / [Array1] by a usize: panics out of bounds. *)
Definition vget {A} (l : list A) (i : N) : res A := unwrap (nth_error l (N.to_nat i)).

(** [l[i] = v]: panics out of bounds. *)
Fixpoint list_set {A} (l : list A) (i : nat) (v : A) : option (list A) :=
  match l, i with
  | [], _ => None
  | _ :: l', O => Some (v :: l')
  | a :: l', S i' => match list_set l' i' v with Some l'' => Some (a :: l'') | None => None end
  end.
Definition vset {A} (l : list A) (i : N) (v : A) : res (list A) :=
  unwrap (list_set l (N.to_nat i) v).

Definition vlen {A} (l : list A) : N := N.of_nat (length l).

(** [xs.iter().enumerate()] *)
Definition enumerate {A} (l : list A) : list (N * A) := combine (range 0 (vlen l)) l.
