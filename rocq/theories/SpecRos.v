(** Rosenbrock methods and their order conditions (Hairer-Wanner, Solving ODEs
    II, section IV.7).  In the variables that avoid products with the Jacobian a
    step of size [h] solves, for each stage,

      (1/(h gamma) - J) U_i = f (t + alpha_i h) (u + sum_(j<i) a_ij U_j)
                              + sum_(j<i) (c_ij/h) U_j + gamma_i h f_t

    and ends at [u + sum_i m_i U_i]. *)
From Coq Require Import Reals List Arith.
From Verif Require Import SpecRK.
Import ListNotations.
Local Open Scope R_scope.

Record rosenbrock := mkRos {
  ro_stages : nat; ro_gamma : R; ro_a : list (list R); ro_c : list (list R) }.

Section Ros.
Variable M : rosenbrock.
Notation s := (ro_stages M).
(** The coefficients of the classical formulation: [G] is the matrix
    [(gamma_ij)], the inverse of [1/gamma - c]. *)
Variable G : nat -> nat -> R.
Definition at_row (m : list (list R)) (i j : nat) : R := comp (nth i m []) j.
Definition gamma_matrix : Prop := forall i j, (i < s)%nat -> (j < s)%nat ->
  rsum s (fun k => ((if Nat.eqb i k then 1 / ro_gamma M else 0) - at_row (ro_c M) i k) * G k j)
  = if Nat.eqb i j then 1 else 0.
Definition alpha (i j : nat) : R := rsum s (fun k => at_row (ro_a M) i k * G k j).
Definition beta (i j : nat) : R := alpha i j + G i j.
(** Classical weights of the result [u + sum_i m_i U_i]. *)
Definition classical (m : list R) (j : nat) : R := rsum s (fun k => comp m k * G k j).

(** The elementary weight of a tree at stage [i]: a node with one child uses
    [beta], one with more uses [alpha]. *)
Fixpoint ros_weight (t : tree) (i : nat) : R :=
  match t with
  | Node [] => 1
  | Node [t1] => rsum s (fun j => beta i j * ros_weight t1 j)
  | Node l => fold_right (fun t x => rsum s (fun j => alpha i j * ros_weight t j) * x) 1 l
  end.
(** Left-hand side of the order condition of [t], which is [1/density t]; for a
    continuous output at [theta] it is [theta ^ order t / density t]. *)
Definition ros_sum (b : nat -> R) (t : tree) : R := rsum s (fun i => b i * ros_weight t i).
End Ros.
