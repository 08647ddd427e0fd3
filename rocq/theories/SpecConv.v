(** Vocabulary for convergence: a smooth initial value problem together with its
    exact solution, independent of the model of the code. *)
From Coq Require Import Reals List.
From Verif Require Import SpecRK SpecLin.
Local Open Scope R_scope.

(** [u] and [v] differ by at most [d] in each of the first [n] components. *)
Definition close (n : nat) (d : R) (u v : list R) : Prop :=
  forall i, (i < n)%nat -> Rabs (comp u i - comp v i) <= d.

(** [y] solves [y' = f(t, y)] on [[t0, tf]], and the problem is smooth there:
    - [y] has six bounded derivatives; [D m i] is the derivative number [m] of
      component [i];
    - near the solution, [f] is Lipschitz in the state;
    - along the solution, [f] is differentiable with respect to the state, with
      a remainder of second order, and its Jacobian [J] is a twice
      differentiable function of time with bounded derivatives. *)
Record smooth_problem (n : nat) (f : R -> list R -> list R) (t0 tf : R) (y : R -> list R) : Prop := {
  sp_length : forall t, length (y t) = n;
  sp_solution : exists (D : nat -> nat -> R -> R) (B : R),
    (forall i t, D 0%nat i t = comp (y t) i) /\
    (forall i t, (i < n)%nat -> t0 <= t <= tf -> D 1%nat i t = comp (f t (y t)) i) /\
    (forall m i t, (m <= 5)%nat -> (i < n)%nat -> t0 <= t <= tf ->
       derivable_pt_lim (D m i) t (D (S m) i t)) /\
    (forall m i t, (m <= 6)%nat -> (i < n)%nat -> t0 <= t <= tf -> Rabs (D m i t) <= B);
  sp_lipschitz : exists r L, 0 < r /\ forall t u v d,
    t0 <= t <= tf -> length u = n -> length v = n ->
    close n r u (y t) -> close n r v (y t) -> close n d u v ->
    close n (L * d) (f t u) (f t v);
  sp_jacobian : exists (J J1 J2 : nat -> nat -> R -> R) r B, 0 < r /\
    (forall t v d, t0 <= t <= tf -> length v = n -> 0 <= d <= r -> close n d v (y t) ->
       forall i, (i < n)%nat ->
       Rabs (comp (f t v) i - comp (f t (y t)) i
             - rsum n (fun k => J i k t * (comp v k - comp (y t) k))) <= B * d ^ 2) /\
    (forall i k t, (i < n)%nat -> (k < n)%nat -> t0 <= t <= tf ->
       derivable_pt_lim (J i k) t (J1 i k t) /\ derivable_pt_lim (J1 i k) t (J2 i k t) /\
       Rabs (J i k t) <= B /\ Rabs (J1 i k t) <= B /\ Rabs (J2 i k t) <= B) }.

(** [y] solves [y' = f(t, y)] on [[t0, tf]], its derivative changes at a bounded
    rate, and [f] is Lipschitz in the state. *)
Record lipschitz_problem (n : nat) (f : R -> list R -> list R) (t0 tf : R) (y : R -> list R) : Prop := {
  lp_length : forall t, length (y t) = n;
  lp_solution : forall i t, (i < n)%nat -> t0 <= t <= tf ->
    derivable_pt_lim (fun s => comp (y s) i) t (comp (f t (y t)) i);
  lp_slope : exists B, forall s t, t0 <= s <= tf -> t0 <= t <= tf ->
    close n (B * Rabs (s - t)) (f s (y s)) (f t (y t));
  lp_lipschitz : exists L, forall t u v d,
    t0 <= t <= tf -> length u = n -> length v = n -> close n d u v -> close n (L * d) (f t u) (f t v) }.
(** The matrices [Jac t u] have entries of bounded size for times in the span. *)
Definition jacobian_bounded (n : nat) (Jac : R -> list R -> list (list R)) (t0 tf : R) : Prop :=
  exists B, forall t u, t0 <= t <= tf -> length u = n ->
  forall i j, (i < n)%nat -> (j < n)%nat -> Rabs (entry (Jac t u) i j) <= B.
