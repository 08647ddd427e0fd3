(** The textbook description of what a DormandPrince5 run does, independent of
    the code: a Dormand-Prince 5(4) pair, an error norm, and a step-size
    controller with memory (a "PI controller", Hairer-Norsett-Wanner, Solving
    ODEs I, section II.4 and II, section IV.2). *)
From Coq Require Import List Reals Bool Arith.
From Verif Require Import Arith Vec Core ArithR SpecRK SpecODE SpecReach.
Import ListNotations.
Local Open Scope R_scope.

(** [x^y] for [0 <= x], [0 <= y], with [0^0 = 1]. *)
Definition power (x y : R) : R :=
  if Req_EM_T x 0 then (if Req_EM_T y 0 then 1 else 0) else Rpower x y.

(** What an observer sees of a run between two steps, and the controller's
    memory of the last error. *)
Record pilot := mkPilot {
  p_t : R; p_u : list R;      (* the current point *)
  p_h : R;                    (* the step size proposed for the next step *)
  p_mem : R;                  (* 0 before the first step *)
  p_accepted : nat; p_rejected : nat;
  p_code : retcode }.

Section PI.
Context {inf : R} (F : R -> list R -> list R) (o : opts (RA inf)) (tf : R).

(** Result and weighted error of one trial of size [h]. *)
Definition try_point (t : R) (u : list R) (h : R) : list R := rk_step dopri_rows dopri_b F t u h.
Definition try_error (t : R) (u : list R) (h : R) : R :=
  wrms (o_abstol o) (o_reltol o) u (try_point t u h)
    (vdiff (try_point t u h) (rk_step dopri_rows dopri_bhat F t u h)).

(** The error enters with the exponent [0.2 - beta^0.75]. *)
Definition err_power (e : R) : R := power e (control_exponent (o_beta o)).

(** Size of the next trial after one of size [h] was rejected with error [e]. *)
Definition retry_size (e h : R) : R := h / Rmin (1 / o_facl o) (err_power e / o_safe o).

(** Size proposed for the next step after one of size [h] was accepted with
    error [e]; [m] is the memory.  When the power of the memory vanishes
    (before the first step, with [beta > 0]) the quotient counts as infinite. *)
Definition step_quotient (m e : R) : R :=
  Rmax (1 / o_facr o)
    (if Req_EM_T (power m (o_beta o)) 0 then 1 / o_facl o
     else Rmin (1 / o_facl o) (err_power e / power m (o_beta o) / o_safe o)).
Definition next_size (m e h : R) (after_rejection : bool) : R :=
  let h' := Rmin (h / step_quotient m e) (o_dtmax o) in
  if after_rejection then Rmin h' h else h'.

(** [tries t u h n tiny h']: beginning with size [h], [n] trials are rejected
    and then one of size [h'] is accepted; [tiny] says whether a proposed size
    was below the resolution of [t]. *)
Inductive tries (t : R) (u : list R) : R -> nat -> bool -> R -> Prop :=
| tries_accept h : try_error t u h <= 1 -> tries t u h 0 false h
| tries_reject h h1 n tiny h' :
    1 < try_error t u h -> h1 = retry_size (try_error t u h) h ->
    tries t u h1 n tiny h' ->
    tries t u h (S n) (Rleb h1 (Rabs t * / 2^52) || tiny) h'.

(** One step.  The first trial is the proposed size, or what is left of the
    span when that is less than 1.01 times it. *)
Definition near_end (x : pilot) : bool := Rltb tf (p_t x + 101/100 * p_h x).
Definition pi_step (x y : pilot) : Prop :=
  exists n tiny h,
    tries (p_t x) (p_u x) (if near_end x then tf - p_t x else p_h x) n tiny h /\
    let e := try_error (p_t x) (p_u x) h in
    y = {| p_t := p_t x + h;
           p_u := try_point (p_t x) (p_u x) h;
           p_h := next_size (p_mem x) e h (negb (n =? 0)%nat);
           p_mem := Rmax e (1/10000);
           p_accepted := S (p_accepted x);
           p_rejected := p_rejected x + (if (p_accepted x =? 0)%nat then 0 else n);
           p_code := if near_end x && (n =? 0)%nat then RSuccess
                     else if (o_max_steps o <? S (p_accepted x))%nat then RMaxIters
                     else if tiny then RDtLessThanMin else RContinue |}.

(** [k] steps, none of which is made after the end. *)
Inductive pi_run : nat -> pilot -> pilot -> Prop :=
| pi_run_0 x : pi_run 0 x x
| pi_run_S k x y z : pi_run k x y -> p_code y = RContinue -> pi_step y z -> pi_run (S k) x z.
End PI.

(** The start of a run, and what a state of the integrator shows. *)
Definition pilot_start (t0 : R) (u0 : list R) (h0 : R) : pilot := mkPilot t0 u0 h0 0 0 0 RContinue.
Definition shows {inf P C} (s : integ (RA inf) P C) (x : pilot) : Prop :=
  i_t s = p_t x /\ i_u s = p_u x /\ i_dt s = p_h x /\
  accepts (i_stats s) = p_accepted x /\ rejects (i_stats s) = p_rejected x /\
  rc (i_sol s) = p_code x.
