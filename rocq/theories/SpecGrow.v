(** The growth of a mode in one Dormand-Prince step. *)
From Coq Require Import Reals.
From Coquelicot Require Import Complex.
Local Open Scope R_scope.

Fixpoint cpow (z : C) (k : nat) : C := match k with O => 1 | S k' => z * cpow z k' end%C.
(** The stability function of the fifth-order formula, at [z = x + i y]. *)
Definition dopri_growth (z : C) : C :=
  (1 + z + cpow z 2 / 2 + cpow z 3 / 6 + cpow z 4 / 24 + cpow z 5 / 120 + cpow z 6 / 600)%C.
