(** Arithmetic interface for the model of cyphus-diffeq.

    The Rust code computes with [f64] everywhere.  The model is written once,
    over an arbitrary record [arith] of scalar operations, and later
    instantiated twice:
      - [ArithF.F64 powf powi] : IEEE-754 binary64 (Flocq), the code's own
        arithmetic, with the two libm functions [powf]/[powi] left as oracles;
      - [ArithR.RA inf]        : exact real arithmetic.
    A theorem quantified over every [A : arith] therefore holds for [f64].

    Nothing in this file is assumed: [arith] is a plain record of operations
    and carries no laws. *)
From Coq Require Import ZArith List Bool.
Import ListNotations.

Record arith := mkArith {
  num      : Type;
  add      : num -> num -> num;          (* [x + y]          *)
  sub      : num -> num -> num;          (* [x - y]          *)
  mul      : num -> num -> num;          (* [x * y]          *)
  div      : num -> num -> num;          (* [x / y]          *)
  opp      : num -> num;                 (* [-x]             *)
  nabs     : num -> num;                 (* [x.abs()]        *)
  nsqrt    : num -> num;                 (* [x.sqrt()]       *)
  fma      : num -> num -> num -> num;   (* [x.mul_add(y,z)] = x*y+z *)
  powf     : num -> num -> num;          (* [x.powf(y)]      *)
  powi     : num -> Z -> num;            (* [x.powi(k)]      *)
  nmax     : num -> num -> num;          (* [x.max(y)]       *)
  nmin     : num -> num -> num;          (* [x.min(y)]       *)
  copysign : num -> num -> num;          (* [x.copysign(y)]  *)
  ltb      : num -> num -> bool;         (* [x < y]          *)
  leb      : num -> num -> bool;         (* [x <= y]         *)
  eqb      : num -> num -> bool;         (* [x == y]         *)
  lit      : Z -> positive -> num;       (* the literal n/d, rounded once *)
  eps      : num;                        (* [f64::EPSILON]   *)
  infty    : num;                        (* [f64::INFINITY]  *)
}.

Declare Scope num_scope.
Delimit Scope num_scope with num.
Notation "x + y" := (add _ x y) : num_scope.
Notation "x - y" := (sub _ x y) : num_scope.
Notation "x * y" := (mul _ x y) : num_scope.
Notation "x / y" := (div _ x y) : num_scope.
Notation "- x" := (opp _ x) : num_scope.
Notation "x <? y" := (ltb _ x y) : num_scope.
Notation "x <=? y" := (leb _ x y) : num_scope.
(* Rust [a > b] is [b < a] and [a >= b] is [b <= a]; both are false on NaN. *)
Notation "x >? y" := (ltb _ y x) (at level 70, no associativity) : num_scope.
Notation "x >=? y" := (leb _ y x) (at level 70, no associativity) : num_scope.
Notation "x =? y" := (eqb _ x y) : num_scope.

(** [k as f64] for a [usize] [k]. *)
Definition of_nat (A : arith) (k : nat) : num A := lit A (Z.of_nat k) 1.
(** The literals [0.0] and [1.0]. *)
Definition n0 (A : arith) : num A := lit A 0 1.
Definition n1 (A : arith) : num A := lit A 1 1.
Arguments of_nat {A} k.
Arguments n0 {A}.
Arguments n1 {A}.

(** Outcome of a computation: a value, a Rust panic (index out of bounds,
    arithmetic overflow of [usize] in a checked build, [unimplemented!()],
    remainder by zero), or exhaustion of the model's fuel, which stands for
    "the loop has not ended yet". *)
Inductive res (X : Type) : Type :=
| Ok (x : X)
| Panic
| OutOfFuel.
Arguments Ok {X} x.
Arguments Panic {X}.
Arguments OutOfFuel {X}.

Definition bind {X Y} (r : res X) (k : X -> res Y) : res Y :=
  match r with
  | Ok x => k x
  | Panic => Panic
  | OutOfFuel => OutOfFuel
  end.
Notation "'let*' x := r 'in' k" := (bind r (fun x => k))
  (at level 200, x pattern, r at level 100, k at level 200, right associativity).

(** [assert!]-like guard: the shape/bounds checks ndarray performs. *)
Definition guard {X} (b : bool) (k : res X) : res X := if b then k else Panic.

(** Checked [usize] subtraction (panics when it would underflow). *)
Definition usub (a b : nat) : res nat :=
  if Nat.leb b a then Ok (a - b)%nat else Panic.

(** [for i in lo..hi { body }] threading the mutated state. *)
Fixpoint for_list {S} (l : list nat) (body : nat -> S -> res S) (s : S) : res S :=
  match l with
  | [] => Ok s
  | i :: l' => bind (body i s) (for_list l' body)
  end.
Definition for_range {S} (lo hi : nat) (body : nat -> S -> res S) (s : S) : res S :=
  for_list (seq lo (hi - lo)) body s.
