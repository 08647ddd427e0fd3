(** Linear systems [u' = J (u - e)] and their modes. *)
From Coq Require Import List Reals.
From Verif Require Import SpecRK.
Local Open Scope R_scope.

(** The right-hand side [F] is [J (u - e)]; [e] is the equilibrium. *)
Definition linear_system (n : nat) (F : R -> list R -> list R) (J : nat -> nat -> R) (e : list R) : Prop :=
  forall t u i, length u = n -> (i < n)%nat -> comp (F t u) i = rsum n (fun j => J i j * (comp u j - comp e j)).

(** [p + i q] is a left eigenvector of [J] for the eigenvalue [a + i c]. *)
Definition left_eigenvector (n : nat) (J : nat -> nat -> R) (p q : nat -> R) (a c : R) : Prop :=
  forall j, (j < n)%nat ->
    rsum n (fun i => p i * J i j) = a * p j - c * q j /\
    rsum n (fun i => q i * J i j) = a * q j + c * p j.

(** How much of [u - e] there is in that mode: [|(p + i q) . (u - e)|].  Along an
    exact solution this is [exp (a t)] times its initial value. *)
Definition mode (n : nat) (p q : nat -> R) (e u : list R) : R :=
  sqrt ((rsum n (fun i => p i * (comp u i - comp e i))) ^ 2 + (rsum n (fun i => q i * (comp u i - comp e i))) ^ 2).
