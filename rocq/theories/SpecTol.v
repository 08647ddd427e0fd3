(** Vocabulary for the effect of the tolerances. *)
From Coq Require Import List Reals.
From Verif Require Import Arith Vec Core ArithR.
Import ListNotations.
Local Open Scope R_scope.

(** The polynomial with coefficients [a], constant term first. *)
Definition polynomial (a : list R) (t : R) : R := fold_right (fun c r => c + t * r) 0 a.
(** The right-hand side [f(t, u) = g(t)] of an integration of [g], in one dimension. *)
Definition quadrature {inf} (g : R -> R) : rhs (RA inf) unit := fun _ _ t _ _ => g t.
