(** Property theorems for the linear solvers in exact arithmetic
    (C26, C27, C28). *)
From Coq Require Import ZArith List Bool Lia Reals Lra.
From Verif Require Import Arith Vec Core Linalg ArithR SpecRK SpecLin LinFacts LinR LinC LinSpec LinBad LinThm.
Import ListNotations.
Local Open Scope R_scope.

(** C26.  [dec] never panics; a nonzero code means the matrix is singular; code
    0 means that [sol] gives the one solution for every right-hand side, except
    that a matrix whose first column is zero also gets code 0. *)
Theorem C26_dec_sol : forall (inf : R) n a ip,
  (0 < n)%nat -> square n a -> length ip = n ->
  exists code a' ip', @dec (RA inf) n a ip = Ok (code, a', ip') /\
    (code = O <-> ~ singular_matrix n a \/ ((2 <= n)%nat /\ zero_column n a 0)) /\
    (~ singular_matrix n a -> forall b, length b = n ->
       exists x, @sol (RA inf) n a' b ip' = Ok x /\ solution n a x b /\
         forall y, solution n a y b -> y = x).
Proof. exact dec_sol_thm. Qed.
Print Assumptions C26_dec_sol.

(** The exception is real: every such matrix is singular and gets code 0. *)
Theorem C26_zero_column_refuted : forall (inf : R) n a ip,
  (2 <= n)%nat -> square n a -> length ip = n -> zero_column n a 0 ->
  singular_matrix n a /\ exists a' ip', @dec (RA inf) n a ip = Ok (O, a', ip').
Proof. exact dec_zero_column. Qed.
Print Assumptions C26_zero_column_refuted.

Example C26_ex : square 2 [[0; 2]; [1; 1]] /\ ~ singular_matrix 2 [[0; 2]; [1; 1]] /\
  square 2 [[0; 2]; [0; 1]] /\ zero_column 2 [[0; 2]; [0; 1]] 0.
Proof. exact dec_ex. Qed.

(** C27.  The same for complex matrices. *)
Theorem C27_decc_solc : forall (inf : R) n ar ai ip,
  (0 < n)%nat -> square n ar -> square n ai -> length ip = n ->
  exists code ar' ai' ip', @decc (RA inf) n ar ai ip = Ok (code, ar', ai', ip') /\
    (code = O <-> ~ csingular_matrix n ar ai \/ ((2 <= n)%nat /\ zero_column n ar 0 /\ zero_column n ai 0)) /\
    (~ csingular_matrix n ar ai -> forall br bi, length br = n -> length bi = n ->
       exists xr xi, @solc (RA inf) n ar' ai' br bi ip' = Ok (xr, xi) /\
         csolution n ar ai xr xi br bi /\
         forall yr yi, csolution n ar ai yr yi br bi -> yr = xr /\ yi = xi).
Proof. exact decc_solc_thm. Qed.
Print Assumptions C27_decc_solc.

Theorem C27_zero_column_refuted : forall (inf : R) n ar ai ip,
  (2 <= n)%nat -> square n ar -> square n ai -> length ip = n -> zero_column n ar 0 -> zero_column n ai 0 ->
  csingular_matrix n ar ai /\ exists ar' ai' ip', @decc (RA inf) n ar ai ip = Ok (O, ar', ai', ip').
Proof. exact decc_zero_column. Qed.
Print Assumptions C27_zero_column_refuted.

Example C27_ex : square 2 [[0; 1]; [0; 0]] /\ square 2 [[0; 0]; [1; 0]] /\
  ~ csingular_matrix 2 [[0; 1]; [0; 0]] [[0; 0]; [1; 0]].
Proof. exact decc_ex. Qed.

(** C28.  The real Hessenberg pair is correct for every lower bandwidth. *)
Theorem C28_dech_solh : forall (inf : R) n lb a ip,
  (0 < n)%nat -> square n a -> length ip = n -> lower_band n lb a ->
  exists code a' ip', @dech (RA inf) n a lb ip = Ok (code, a', ip') /\
    (code = O <-> ~ singular_matrix n a \/ ((2 <= n)%nat /\ zero_column n a 0)) /\
    (~ singular_matrix n a -> forall b, length b = n ->
       exists x, @solh (RA inf) n a' lb b ip' = Ok x /\ solution n a x b /\
         forall y, solution n a y b -> y = x).
Proof. exact dech_solh_thm. Qed.
Print Assumptions C28_dech_solh.

(** The complex Hessenberg decomposition is correct for [lb >= 1] (its factors
    solve the system when given to [solc]). *)
Theorem C28_dechc_solc : forall (inf : R) n lb ar ai ip,
  (0 < n)%nat -> (0 < lb)%nat -> square n ar -> square n ai -> length ip = n ->
  lower_band n lb ar -> lower_band n lb ai ->
  exists code ar' ai' ip', @dechc (RA inf) n ar ai lb ip = Ok (code, ar', ai', ip') /\
    (code = O <-> ~ csingular_matrix n ar ai \/ ((2 <= n)%nat /\ zero_column n ar 0 /\ zero_column n ai 0)) /\
    (~ csingular_matrix n ar ai -> forall br bi, length br = n -> length bi = n ->
       exists xr xi, @solc (RA inf) n ar' ai' br bi ip' = Ok (xr, xi) /\
         csolution n ar ai xr xi br bi /\
         forall yr yi, csolution n ar ai yr yi br bi -> yr = xr /\ yi = xi).
Proof. exact dechc_solc_thm. Qed.
Print Assumptions C28_dechc_solc.

Example C28_ex : square 3 [[1; 2; 3]; [4; 5; 6]; [0; 7; 9]] /\ lower_band 3 1 [[1; 2; 3]; [4; 5; 6]; [0; 7; 9]] /\
  ~ singular_matrix 3 [[1; 2; 3]; [4; 5; 6]; [0; 7; 9]].
Proof. exact dech_ex. Qed.

(** [solhc] does not solve the system. *)
Theorem C28_solhc_refuted : forall inf : R,
  exists ar ai br bi ip code ar' ai' ip' xr xi,
    square 2 ar /\ square 2 ai /\ lower_band 2 1 ar /\ lower_band 2 1 ai /\
    length br = 2%nat /\ length bi = 2%nat /\
    @dechc (RA inf) 2 ar ai 1 ip = Ok (code, ar', ai', ip') /\ code = O /\
    @solhc (RA inf) 2 ar' ai' 1 br bi ip' = Ok (xr, xi) /\
    ~ csolution 2 ar ai xr xi br bi /\ csolution 2 ar ai [0; 1] [0; 0] br bi.
Proof. exact solhc_refuted. Qed.
Print Assumptions C28_solhc_refuted.

(** [dechc] with [lb = 0] accepts a singular diagonal matrix whose first column
    is zero (no other column is looked at except the last). *)
Theorem C28_dechc_diagonal_refuted : forall inf : R,
  exists ar ai ip code ar' ai' ip',
    square 2 ar /\ square 2 ai /\ lower_band 2 0 ar /\ lower_band 2 0 ai /\
    @dechc (RA inf) 2 ar ai 0 ip = Ok (code, ar', ai', ip') /\ code = O /\
    csingular_matrix 2 ar ai.
Proof. exact dechc_diag_refuted. Qed.
Print Assumptions C28_dechc_diagonal_refuted.

(** [decb] and [solb] together give a wrong solution. *)
Theorem C28_decb_solb_refuted : forall inf : R,
  exists ab b ip code ab' ip' x,
    @decb (RA inf) 2 ab 1 1 ip = Ok (code, ab', ip') /\ code = O /\
    @solb (RA inf) 2 ab' 1 1 b ip' = Ok x /\
    ~ band_solution 2 1 1 ab x b /\ band_solution 2 1 1 ab [1; 1] b.
Proof. exact decb_solb_refuted. Qed.
Print Assumptions C28_decb_solb_refuted.

(** [decb] accepts a singular tridiagonal matrix. *)
Theorem C28_decb_singular_refuted : forall inf : R,
  exists ab ip code ab' ip',
    @decb (RA inf) 2 ab 1 1 ip = Ok (code, ab', ip') /\ code = O /\ band_singular 2 1 1 ab.
Proof. exact decb_singular_refuted. Qed.
Print Assumptions C28_decb_singular_refuted.

(** [solb] returns for no matrix with more than [lb + ub + 1] rows, whatever the
    arithmetic. *)
Theorem C28_solb_panics_refuted : forall (A : arith) n (a : mat A) lb ub (b : vec A) ip x,
  (lb + ub + 1 < n)%nat -> solb n a lb ub b ip <> Ok x.
Proof. exact @solb_panics. Qed.
Print Assumptions C28_solb_panics_refuted.

(** [elmhes] does not give a similar matrix. *)
Theorem C28_elmhes_refuted : forall inf : R,
  exists a inter h inter', square 3 a /\
    @elmhes (RA inf) 3 0 3 a inter = Ok (h, inter') /\ ~ similar 3 (entry a) (hess_part h).
Proof. exact elmhes_refuted. Qed.
Print Assumptions C28_elmhes_refuted.
