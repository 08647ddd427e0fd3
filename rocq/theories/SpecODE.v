(** Vocabulary for the exact-arithmetic properties of DormandPrince5 runs:
    the right-hand side as a mathematical function, Dormand-Prince steps
    between recorded points, admissible options, bounded right-hand sides. *)
From Coq Require Import List Reals.
From Verif Require Import Arith Vec Core ArithR SpecRK.
Import ListNotations.
Local Open Scope R_scope.

(** The user's closure as a function [f(t,u)]: its output when the buffer
    holds zeros.  For closures that assign every entry ([Spec.overwrites])
    the buffer is irrelevant. *)
Definition ode {inf P} (f : rhs (RA inf) P) (p : P) (t : R) (u : list R) : list R :=
  call_rhs (A := RA inf) f (zeros (length u)) u t p.

Section SpecODE.
Context {inf : R} {P : Type}.
Notation RI := (RA inf).

(** [y] is reached from [x] by one step of the Dormand-Prince formula. *)
Definition dopri_transition (f : rhs RI P) (p : P) (x y : R * list R) : Prop :=
  exists h, fst y = fst x + h /\
    snd y = rk_step dopri_rows dopri_b (ode f p) (fst x) (snd x) h.

(** ... and the two formulas of the pair agree within the tolerances. *)
Definition error_test (f : rhs RI P) (p : P) (atol rtol : R) (x y : R * list R) : Prop :=
  exists h, fst y = fst x + h /\
    snd y = rk_step dopri_rows dopri_b (ode f p) (fst x) (snd x) h /\
    wrms atol rtol (snd x) (snd y)
      (vdiff (snd y) (rk_step dopri_rows dopri_bhat (ode f p) (fst x) (snd x) h)) <= 1.

(** Ranges of the options under which the step-size controller behaves.  They
    hold for the defaults.  [beta^3 <= (1/5)^4] says that the exponent
    [0.2 - beta^0.75] of the controller is non-negative. *)
Record sane_opts (o : opts RI) : Prop := {
  so_safe : 0 < o_safe o < 1;
  so_facl : 0 < o_facl o < 1;
  so_facr : 0 < o_facr o;
  so_beta : 0 <= o_beta o;
  so_beta3 : o_beta o * o_beta o * o_beta o <= 1/5 * (1/5) * (1/5) * (1/5);
  so_dtmax : 0 < o_dtmax o }.

(** Time at which a recorded event evaluated the right-hand side or the
    Jacobian. *)
Definition ev_time (e : event RI) : R := match e with EvF t _ => t | EvJ t _ => t end.

(** [v] differs from [u] by at most [r] in each of [n] components. *)
Definition within (n : nat) (r : R) (u v : list R) : Prop :=
  length v = n /\ forall i, (i < n)%nat -> Rabs (comp v i - comp u i) <= r.

(** The right-hand side is bounded by [M] on the points within [r] of [(t,u)]
    that lie between [t] and [tf]. *)
Definition bounded_near (f : rhs RI P) (p : P) (n : nat) (tf t : R) (u : list R) (M r : R) : Prop :=
  forall t' v, t <= t' <= Rmin tf (t + r) -> within n r u v ->
  forall i, (i < n)%nat -> Rabs (comp (ode f p t' v) i) <= M.

(** Bounded in a neighbourhood of every point of the span: for instance every
    continuous right-hand side. *)
Definition locally_bounded (f : rhs RI P) (p : P) (n : nat) (t0 tf : R) : Prop :=
  forall t u, t0 <= t <= tf -> length u = n ->
  exists M r, 0 <= M /\ 0 < r /\ bounded_near f p n tf t u M r.

(** The step a call of [step()] tries first: the stored step size, or what is
    left of the span when that is less than 1.01 times it. *)
Definition trial_step {C} (s : integ RI P C) : R :=
  if Rlt_dec (i_tfinal s) (i_t s + 101/100 * i_dt s) then i_tfinal s - i_t s else i_dt s.
End SpecODE.

(** Differences of consecutive elements. *)
Fixpoint gaps (l : list R) : list R :=
  match l with
  | a :: (b :: _) as l' => (b - a) :: gaps l'
  | _ => []
  end.
