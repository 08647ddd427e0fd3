(** Vocabulary for the binary64 statements about Radau5. *)
From Coq Require Import ZArith List Bool Reals.
From Flocq Require Import BinarySingleNaN.
From Verif Require Import Arith Vec Core ArithF.

(** Step-size options in the ranges where Radau5 shrinks a rejected step:
    safety factor positive and at most 0.99, largest reduction [facl] above
    1.005, largest growth [facr] positive and finite, [dtmax] not negative and
    not NaN.  Of the power function: it maps an error of at least 1 (or NaN) to
    a number at least 1 (or NaN) under the exponent 1/4, and a number in
    [1, 20] to a number in [0, 1] under a negative exponent [-1/k], as libm's
    [pow] does. *)
Definition radau_f64_sane {fpowf fpowi} (o : opts (F64 fpowf fpowi)) : Prop :=
  fltb fzero (o_safe o) = true /\ fleb (o_safe o) (f_lit 99 100) = true /\
  fleb (f_lit 1005 1000) (o_facl o) = true /\
  fltb fzero (o_facr o) = true /\ fltb (o_facr o) finf = true /\
  fleb fzero (o_dtmax o) = true /\
  (forall err, fltb err (f_lit 1 1) = false ->
     fpowf err (f_lit 1 4) = fnan \/ fleb (f_lit 1 1) (fpowf err (f_lit 1 4)) = true) /\
  (forall x k, fleb (f_lit 1 1) x = true -> fleb x (f_lit 20 1) = true -> 4 <= k ->
     let q := fpowf x (fdiv (f_lit (-1) 1) (f_lit (Z.of_nat k) 1)) in
     fleb fzero q = true /\ fleb q (f_lit 1 1) = true).

(** A forward problem in binary64: such options, finite ends of the span with a
    finite length, an initial step size that is not negative (and not NaN). *)
Definition radau_f64_forward {fpowf fpowi P} (b : builder (F64 fpowf fpowi) P) : Prop :=
  radau_f64_sane (b_opts b) /\ is_finite (b_t b : f64) = true /\ is_finite (b_tfinal b : f64) = true /\
  fltb (b_t b) (b_tfinal b) = true /\ is_finite (fsub (b_tfinal b) (b_t b)) = true /\
  fleb fzero (b_dt b) = true.

(** [a < b] on floats. *)
Definition flt (a b : f64) : Prop := fltb a b = true.
