(** Vocabulary for changes of units and labels: the components of the state are
    renumbered and measured in another unit, and so is time. *)
From Coq Require Import List Reals.
From RecordUpdate Require Import RecordSet.
From Verif Require Import Arith Vec Core ArithR SpecRK SpecODE SpecLin.
Import ListNotations RecordSetNotations.
Local Open Scope R_scope.

(** [sg] renumbers [n] components; [si] is its inverse. *)
Definition renumbers (n : nat) (sg si : nat -> nat) : Prop :=
  forall i, (i < n)%nat -> (sg i < n)%nat /\ (si i < n)%nat /\ si (sg i) = i /\ sg (si i) = i.
(** The state [u] in the new units: component [i] is [c] times the old
    component [sg i].  ([c] may be negative.) *)
Definition converted (n : nat) (c : R) (sg : nat -> nat) (u : list R) : list R :=
  map (fun i => c * comp u (sg i)) (seq 0 n).
(** A rate of change has the unit of the state divided by that of time. *)
Definition same_ode (n : nat) (c tau : R) (sg : nat -> nat) (F F' : R -> list R -> list R) : Prop :=
  forall t u, length u = n -> F' (tau * t) (converted n c sg u) = converted n (c / tau) sg (F t u).
(** Entries of a Jacobian have the unit of an inverse time. *)
Definition same_jacobian (n : nat) (c tau : R) (sg : nat -> nat) (J J' : R -> list R -> list (list R)) : Prop :=
  forall t u i j, length u = n -> (i < n)%nat -> (j < n)%nat ->
  entry (J' (tau * t) (converted n c sg u)) i j = entry (J t u) (sg i) (sg j) / tau.

(** The problem [b'] is [b] in the new units; the Jacobians are compared
    separately. *)
Record same_problem_in {inf P P'} (c tau : R) (sg : nat -> nat) (b : builder (RA inf) P) (b' : builder (RA inf) P') : Prop := {
  si_ode : same_ode (length (b_u b)) c tau sg (ode (b_dudt b) (b_params b)) (ode (b_dudt b') (b_params b'));
  si_u : b_u b' = converted (length (b_u b)) c sg (b_u b);
  si_t : b_t b' = tau * b_t b;
  si_tfinal : b_tfinal b' = tau * b_tfinal b;
  si_dt : b_dt b' = tau * b_dt b;
  si_opts : b_opts b' = b_opts b <| o_abstol := Rabs c * o_abstol (b_opts b) |> <| o_dtmax := tau * o_dtmax (b_opts b) |> }.

(** The two integrators show the same, each in its units. *)
Definition same_view {inf P P' C C'} (n : nat) (c tau : R) (sg : nat -> nat) (s : integ (RA inf) P C) (s' : integ (RA inf) P' C') : Prop :=
  i_t s' = tau * i_t s /\ i_u s' = converted n c sg (i_u s) /\ i_dt s' = tau * i_dt s /\
  accepts (i_stats s') = accepts (i_stats s) /\ rejects (i_stats s') = rejects (i_stats s) /\
  rc (i_sol s') = rc (i_sol s).
