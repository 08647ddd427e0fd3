(** Vocabulary for the binary64 statements. *)
From Coq Require Import ZArith List Bool Reals.
From Flocq Require Import BinarySingleNaN.
From Verif Require Import Arith Vec Core ArithF.

(** Step-size options in the ranges where DormandPrince5 shrinks a rejected
    step: safety factor and largest reduction positive and at most 0.99,
    largest growth positive and finite, [dtmax] not negative and not NaN, and a
    power function that maps an error above 1 (or NaN) to a number at least 1
    (or NaN) under the exponent the controller uses, [0.2 - beta^0.75].  libm's
    [pow] does the latter whenever that exponent is not negative, as for the
    default [beta = 0.04]. *)
Definition f64_sane {fpowf fpowi} (o : opts (F64 fpowf fpowi)) : Prop :=
  fltb fzero (o_safe o) = true /\ fleb (o_safe o) (f_lit 99 100) = true /\
  fltb fzero (o_facl o) = true /\ fleb (o_facl o) (f_lit 99 100) = true /\
  fltb fzero (o_facr o) = true /\ fltb (o_facr o) finf = true /\
  fleb fzero (o_dtmax o) = true /\
  (forall err, fleb err (f_lit 1 1) = false ->
     let q := fpowf err (fsub (f_lit 2 10) (fpowf (o_beta o) (f_lit 75 100))) in
     q = fnan \/ fleb (f_lit 1 1) q = true).

(** [a <= b] on floats. *)
Definition fle (a b : f64) : Prop := fleb a b = true.

(** A forward problem in binary64: such options, finite ends of the span with a
    finite length, an initial step size that is not negative (and not NaN). *)
Definition f64_forward {fpowf fpowi P} (b : builder (F64 fpowf fpowi) P) : Prop :=
  f64_sane (b_opts b) /\ is_finite (b_t b : f64) = true /\ is_finite (b_tfinal b : f64) = true /\
  fltb (b_t b) (b_tfinal b) = true /\ is_finite (fsub (b_tfinal b) (b_t b)) = true /\
  fleb fzero (b_dt b) = true.

(** What is needed of the power function at an error memory of zero: [0^beta]
    is 0, and powers of a non-negative error are not negative. *)
Definition pow_at_zero {fpowf fpowi} (o : opts (F64 fpowf fpowi)) : Prop :=
  fpowf fzero (o_beta o) = fzero /\
  forall err, fleb fzero err = true ->
    let q := fpowf err (fsub (f_lit 2 10) (fpowf (o_beta o) (f_lit 75 100))) in
    q = fnan \/ fleb fzero q = true.

(** [a <= 2b] and [b <= 2a], for numbers of the same sign. *)
Definition within_two (a b : Rdefinitions.R) : Prop := ((a <= 2 * b /\ b <= 2 * a) \/ (2 * a <= b /\ 2 * b <= a))%R.
