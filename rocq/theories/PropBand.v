(** Property theorems for the banded solvers (C28, continued). *)
From Coq Require Import ZArith List Bool Lia Reals Lra.
From Verif Require Import Arith Vec Core Linalg LinalgBand ArithR SpecRK SpecLin SpecBand LinFacts LinR LinBad LinBand.
Import ListNotations.
Local Open Scope R_scope.

(** C28.  The case in which [decb] and [solb] are right: upper triangular band
    matrices without more rows than the band has, and with no zero on the
    diagonal. *)
Theorem C28_decb_solb_upper : forall (inf : R) n ub ab ip,
  (0 < ub)%nat -> (0 < n <= ub + 1)%nat -> band_storage n 0 ub ab -> length ip = n ->
  (forall i, (i < n)%nat -> band_entry 0 ub ab i i <> 0) ->
  exists ip', @decb (RA inf) n ab 0 ub ip = Ok (O, ab, ip') /\
    forall b, length b = n -> exists x, @solb (RA inf) n ab 0 ub b ip' = Ok x /\
      band_solution n 0 ub ab x b /\ forall y, band_solution n 0 ub ab y b -> y = x.
Proof. exact decb_solb_upper. Qed.
Print Assumptions C28_decb_solb_upper.

Example C28_decb_solb_upper_ex : band_storage 2 0 1 [[0; 5]; [2; 3]] /\
  forall i, (i < 2)%nat -> band_entry 0 1 [[0; 5]; [2; 3]] i i <> 0.
Proof. exact upper_ex. Qed.

(** [decb] with [lb = 0] accepts a singular matrix. *)
Theorem C28_decb_upper_singular_refuted : forall inf : R,
  exists ab ip ip', band_storage 2 0 1 ab /\
    @decb (RA inf) 2 ab 0 1 ip = Ok (O, ab, ip') /\ band_singular 2 0 1 ab.
Proof. exact decb_upper_singular_refuted. Qed.
Print Assumptions C28_decb_upper_singular_refuted.

(** A diagonal matrix makes [solb] and [solbc] panic, in every arithmetic. *)
Theorem C28_solb_diagonal_panics_refuted : forall (A : arith) n (a : mat A) (b : vec A) ip,
  solb n a 0 0 b ip = Panic.
Proof. exact @solb_diagonal_panics. Qed.
Print Assumptions C28_solb_diagonal_panics_refuted.

Theorem C28_solbc_diagonal_panics_refuted : forall (A : arith) n (ar ai : mat A) (br bi : vec A) ip,
  solbc n ar ai 0 0 br bi ip = Panic.
Proof. exact @solbc_diagonal_panics. Qed.
Print Assumptions C28_solbc_diagonal_panics_refuted.

(** [solbc] returns for no matrix with more than [lb + ub + 1] rows. *)
Theorem C28_solbc_panics_refuted : forall (A : arith) n (ar ai : mat A) lb ub (br bi : vec A) ip x,
  (lb + ub + 1 < n)%nat -> solbc n ar ai lb ub br bi ip <> Ok x.
Proof. exact @solbc_panics. Qed.
Print Assumptions C28_solbc_panics_refuted.

(** For one equation [solbc] returns the right-hand side without dividing. *)
Theorem C28_solbc_dimension_one_refuted : forall (A : arith) (ar ai : mat A) lb ub (br bi : vec A) ip,
  (0 < lb + ub)%nat -> solbc 1 ar ai lb ub br bi ip = Ok (br, bi).
Proof. exact @solbc_one. Qed.
Print Assumptions C28_solbc_dimension_one_refuted.

(** [decbc] and [solbc] together give a wrong solution. *)
Theorem C28_decbc_solbc_refuted : forall inf : R,
  exists ar ai br bi ip code ar' ai' ip' xr xi,
    @decbc (RA inf) 2 ar ai 1 1 ip = Ok (code, ar', ai', ip') /\ code = O /\
    @solbc (RA inf) 2 ar' ai' 1 1 br bi ip' = Ok (xr, xi) /\
    ~ band_csolution 2 1 1 ar ai xr xi br bi /\ band_csolution 2 1 1 ar ai [1; 1] [0; 0] br bi.
Proof. exact decbc_solbc_refuted. Qed.
Print Assumptions C28_decbc_solbc_refuted.

(** [decbc] accepts a singular tridiagonal matrix. *)
Theorem C28_decbc_singular_refuted : forall inf : R,
  exists ar ai ip code ar' ai' ip',
    @decbc (RA inf) 2 ar ai 1 1 ip = Ok (code, ar', ai', ip') /\ code = O /\
    (exists xr xi, (exists i, (i < 2)%nat /\ comp xr i <> 0) /\
       band_csolution 2 1 1 ar ai xr xi (repeat 0 2) (repeat 0 2)).
Proof. exact decbc_singular_refuted. Qed.
Print Assumptions C28_decbc_singular_refuted.
