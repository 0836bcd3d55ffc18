(** * Num: the floating point operations the code uses.

    The model is written once, over any structure [Num F]; it is then read at
    - [f64]: IEEE-754 binary64 with round to nearest even (Flocq), which is
      what Rust's [f64] is, bit for bit up to NaN payloads;
    - [R]: ideal real arithmetic, used for algebraic laws only. *)
From Coq Require Import Reals ZArith NArith.
From Flocq Require Import Core.Core IEEE754.BinarySingleNaN.
From Verif Require Import Base.

Class Num (F : Type) : Type := {
  nadd : F -> F -> F;              (* a + b *)
  nsub : F -> F -> F;              (* a - b *)
  nmul : F -> F -> F;              (* a * b *)
  ndiv : F -> F -> F;              (* a / b *)
  nneg : F -> F;                   (* -a *)
  nabs : F -> F;                   (* a.abs() *)
  nsqrt : F -> F;                  (* a.sqrt() *)
  nltb : F -> F -> bool;           (* a < b   (false on NaN) *)
  nleb : F -> F -> bool;           (* a <= b  (false on NaN) *)
  neqb : F -> F -> bool;           (* a == b  (false on NaN) *)
  nisnan : F -> bool;              (* a.is_nan() *)
  nof : Z -> F;                    (* integer literal, or `n as f64` *)
  nusize : F -> N;                 (* a as usize: truncates, saturates, NaN -> 0 *)
  nfloor : F -> F;                 (* a.floor() *)
  nnan : F;                        (* f64::NAN *)
  nmax : F                         (* f64::MAX; f64::MIN is its negation *)
}.

(** [n as f64] for a usize. *)
Definition nofN {F} {NF : Num F} (n : N) : F := nof (Z.of_N n).
(** The literal a/b with small integers a, b (e.g. 0.5, 0.01): correctly rounded. *)
Definition nlit {F} {NF : Num F} (a b : Z) : F := ndiv (nof a) (nof b).
Definition nmin {F} {NF : Num F} : F := nneg nmax.
Definition n0 {F} {NF : Num F} : F := nof 0.
Definition n1 {F} {NF : Num F} : F := nof 1.
Definition n2 {F} {NF : Num F} : F := nof 2.

Declare Scope num_scope.
Delimit Scope num_scope with num.
Notation "a + b" := (nadd a b) : num_scope.
Notation "a - b" := (nsub a b) : num_scope.
Notation "a * b" := (nmul a b) : num_scope.
Notation "a / b" := (ndiv a b) : num_scope.
Notation "a <? b" := (nltb a b) : num_scope.
Notation "a <=? b" := (nleb a b) : num_scope.
Notation "a =? b" := (neqb a b) : num_scope.

(** ** IEEE binary64 *)
Definition f64 : Type := binary_float 53 1024.

Lemma f64_prec : FLX.Prec_gt_0 53. Proof. reflexivity. Qed.
Lemma f64_emax : Prec_lt_emax 53 1024. Proof. reflexivity. Qed.
#[global] Existing Instance f64_prec.
#[global] Existing Instance f64_emax.

Definition usize_max : Z := (2 ^ 64 - 1)%Z.

(** [as usize] (Rust reference, "numeric cast": saturating, NaN is 0). *)
Definition f64_to_usize (x : f64) : N :=
  match x with
  | B754_nan => 0%N
  | B754_infinity s => if s then 0%N else Z.to_N usize_max
  | _ => Z.to_N (Z.min usize_max (Btrunc x))
  end.

(** [floor]: round to integral towards minus infinity. *)
Definition f64_floor (x : f64) : f64 := Bnearbyint mode_DN x.

Definition f64_of_Z (z : Z) : f64 := binary_normalize 53 1024 _ _ mode_NE z 0 false.

#[global] Instance num_f64 : Num f64 := {
  nadd := Bplus mode_NE;
  nsub := Bminus mode_NE;
  nmul := Bmult mode_NE;
  ndiv := Bdiv mode_NE;
  nneg := Bopp;
  nabs := Babs;
  nsqrt := Bsqrt mode_NE;
  nltb := Bltb;
  nleb := Bleb;
  neqb := Beqb;
  nisnan := fun x => is_nan x;
  nof := f64_of_Z;
  nusize := f64_to_usize;
  nfloor := f64_floor;
  nnan := B754_nan;
  nmax := Bmax_float
}.

(** ** Ideal arithmetic.  [nnan] has no counterpart: no theorem read at R uses it. *)
Definition R_to_usize (x : R) : N := Z.to_N (Z.min usize_max (Ztrunc x)).

#[global] Instance num_R : Num R := {
  nadd := Rplus;
  nsub := Rminus;
  nmul := Rmult;
  ndiv := Rdiv;
  nneg := Ropp;
  nabs := Rabs;
  nsqrt := sqrt;
  nltb := fun a b => if Rlt_dec a b then true else false;
  nleb := fun a b => if Rle_dec a b then true else false;
  neqb := fun a b => if Req_EM_T a b then true else false;
  nisnan := fun _ => false;
  nof := IZR;
  nusize := R_to_usize;
  nfloor := fun x => IZR (Zfloor x);
  nnan := 0%R;
  nmax := IZR (2 ^ 1024 - 2 ^ 971)
}.
