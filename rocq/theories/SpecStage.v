(** Vocabulary for the stage equations and the error test of Radau5. *)
From Coq Require Import List Reals.
From Verif Require Import Arith Vec Core Spec Jacobian Radau SpecRK SpecLin SpecRadau.
Import ListNotations.

Section Run.
Context {A : arith} {P : Type}.
Notation state := (integ A P (radau_cache A)).
Notation alg := (@Radau5 A P).

(** The step size behind the iteration matrices in use after [k] calls: the
    length ([dtprev]) of the last step during which the public counter of
    decompositions grew. *)
Inductive matrix_step (fuel : nat) (s0 : state) : nat -> state -> num A -> Prop :=
| matrix_new k s s' r : continues alg None fuel k s0 s -> step alg None fuel s = Ok (s', r) ->
    decompositions (i_stats s) < decompositions (i_stats s') ->
    matrix_step fuel s0 (S k) s' (i_dtprev s')
| matrix_kept k s s' r h : continues alg None fuel k s0 s -> matrix_step fuel s0 k s h ->
    step alg None fuel s = Ok (s', r) -> decompositions (i_stats s') = decompositions (i_stats s) ->
    matrix_step fuel s0 (S k) s' h.

(** [J] is what the crate's Jacobian routine returns for the problem of [s] at
    [(t, u)] (for some buffer passed in). *)
Definition jacobian_at (s : state) (t : num A) (u : vec A) (J : mat A) : Prop :=
  exists buf tr tr', jacobian_u (i_dudt s) (i_dfdu s) buf u t (i_params s) tr = Ok (J, tr').
End Run.

(** The coefficients of the three-stage Radau IIA method (order 5) and the
    inverse of their matrix; stages are numbered 0, 1, 2. *)
Local Open Scope R_scope.
Definition radau_a (k l : nat) : R :=
  let q := sqrt 6 in
  match k, l with
  | O, O => (88 - 7 * q) / 360 | O, S O => (296 - 169 * q) / 1800 | O, S (S O) => (-2 + 3 * q) / 225
  | S O, O => (296 + 169 * q) / 1800 | S O, S O => (88 + 7 * q) / 360 | S O, S (S O) => (-2 - 3 * q) / 225
  | S (S O), O => (16 - q) / 36 | S (S O), S O => (16 + q) / 36 | S (S O), S (S O) => 1 / 9
  | _, _ => 0
  end.
Definition radau_ainv (k l : nat) : R :=
  let q := sqrt 6 in
  match k, l with
  | O, O => 2 + q / 2 | O, S O => -6/5 + 29/30 * q | O, S (S O) => 2/5 - 4/15 * q
  | S O, O => -6/5 - 29/30 * q | S O, S O => 2 - q / 2 | S O, S (S O) => 2/5 + 4/15 * q
  | S (S O), O => -1 + 8/3 * q | S (S O), S O => -1 - 8/3 * q | S (S O), S (S O) => 5
  | _, _ => 0
  end.
Definition radau_c (k : nat) : R := match k with O => node1 | 1%nat => node2 | _ => 1 end.

(** Absolute value sums over the three stages. *)
Definition abs3 (x : nat -> R) : R := Rabs (x 0%nat) + Rabs (x 1%nat) + Rabs (x 2%nat).

(** The real eigenvalue of the inverse of the coefficient matrix, as tabulated. *)
Definition radau_gamma : R := 3637834252744496 / 1000000000000000.

(** The first column of [gamma/h - J] vanishes (and there is more than one
    column). *)
Definition blind (n : nat) (h : R) (J : list (list R)) : Prop :=
  (2 <= n)%nat /\ forall i, (i < n)%nat -> entry J i 0 = if Nat.eqb i 0 then radau_gamma / h else 0.

(** Component [i] of the defect with which the stage increments [z] solve stage
    [k] of the collocation equations with step [h]
      [(A^-1 z)_k / h = f(t_k, u + z_k)],
    where [f(t_k, u + z_k)] is linearised at the last point [y k] at which it was
    evaluated (value [F k], matrix [J]). *)
Definition stage_defect (n : nat) (J : list (list R)) (h : R) (u : list R) (y z : nat -> list R)
    (F : nat -> nat -> R) (i k : nat) : R :=
  (radau_ainv k 0 * comp (z 0%nat) i + radau_ainv k 1 * comp (z 1%nat) i + radau_ainv k 2 * comp (z 2%nat) i) / h
  - F k i
  - rsum n (fun j => entry J i j * (comp u j + comp (z k) j - comp (y k) j)).

(** What rounding the tabulated coefficients of the method to 16 to 20 digits
    can contribute to that defect. *)
Definition table_error (n : nat) (J : list (list R)) (h : R) (u : list R) (y z : nat -> list R)
    (F : nat -> nat -> R) (i : nat) : R :=
  1 / 10^14 * (abs3 (fun l => comp (z l) i) / Rabs h)
  + 1 / 10^18 * abs3 (fun l => F l i)
  + 1 / 10^18 * rsum n (fun j => Rabs (entry J i j) * abs3 (fun l => comp (y l) j - comp u j)).

(** *** The error test *)
(** Weights of the stage increments in the embedded error estimate. *)
Definition radau_e (k : nat) : R :=
  let q := sqrt 6 in
  match k with O => - (13 + 7 * q) / 3 | S O => (-13 + 7 * q) / 3 | _ => - (1 / 3) end.

(** [v] is the filtered error estimate
      [(gamma/h - J)^-1 (g + (e_0 z_0 + e_1 z_1 + e_2 z_2) / dt)]. *)
Definition filtered_estimate (n : nat) (J : list (list R)) (h dt : R) (z : nat -> list R) (g : nat -> R) (v : list R) : Prop :=
  length v = n /\ forall i, (i < n)%nat ->
    radau_gamma / h * comp v i - rsum n (fun j => entry J i j * comp v j)
    = g i + (radau_e 0 * comp (z 0%nat) i + radau_e 1 * comp (z 1%nat) i + radau_e 2 * comp (z 2%nat) i) / dt.

(** Root mean square of the components of [v] measured in units of the
    tolerance at [u]. *)
Definition tol_rms (n : nat) (atol rtol : R) (u v : list R) : R :=
  sqrt (rsum n (fun i => (comp v i / (atol + rtol * Rabs (comp u i))) ^ 2) / INR n).

(** The tolerances Radau5 works with, from the requested ones. *)
Definition radau_rtol (rtol : R) : R := 1 / 10 * Rpower rtol (2 / 3).
Definition radau_atol (atol rtol : R) : R := radau_rtol rtol * (atol / rtol).
