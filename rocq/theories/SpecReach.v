(** Vocabulary for the statement that integrations of bounded right-hand sides
    succeed. *)
From Coq Require Import List Reals.
From Verif Require Import Arith Vec Core ArithR SpecRK SpecODE.
Local Open Scope R_scope.

(** [|f_i(t,v)| <= M] for all [t] in the span and all states [v]. *)
Definition bounded_rhs {inf P} (f : rhs (RA inf) P) (p : P) (n : nat) (t0 tf M : R) : Prop :=
  forall t v i, t0 <= t <= tf -> length v = n -> (i < n)%nat -> Rabs (comp (ode f p t v) i) <= M.

(** The exponent [0.2 - beta^0.75] with which the controller uses the error. *)
Definition control_exponent (beta : R) : R :=
  if Req_EM_T beta 0 then 1/5 else 1/5 - Rpower beta (3/4).

(** An error of at most [kappa] makes the controller enlarge the step, or keep
    it, whatever the previous error was. *)
Definition no_shrink_error {inf} (o : opts (RA inf)) (kappa : R) : Prop :=
  0 < kappa <= 1 /\ 1 <= o_facr o /\
  Rpower kappa (control_exponent (o_beta o)) <= o_safe o * Rpower (1/10000) (o_beta o).

(** A step size that no run uses less than (except for its last step), if steps
    of size [h] keep the error below [kappa]. *)
Definition least_step {inf} (o : opts (RA inf)) (dt0 h : R) : R :=
  Rmin (o_dtmax o) (o_facl o * Rmin dt0 (o_facl o * h)).
