(** Vocabulary for the property statements that is independent of how the
    model computes: reading the ghost trace, relations between integrator
    states, and kinds of callbacks. *)
From Coq Require Import ZArith List Bool.
From Verif Require Import Arith Vec Core.
Import ListNotations.

Section Spec.
Context {A : arith} {P C : Type}.

(** Number of calls of the user's [dudt] and of Jacobian evaluations in a trace. *)
Definition is_rhs_call (e : event A) : bool := match e with EvF _ _ => true | EvJ _ _ => false end.
Definition rhs_calls (tr : list (event A)) : nat := length (filter is_rhs_call tr).
Definition jac_calls (tr : list (event A)) : nat :=
  length (filter (fun e => negb (is_rhs_call e)) tr).

(** The recorded solution as a list of points. *)
Definition points (s : integ A P C) : list (num A * vec A) :=
  combine (ts (i_sol s)) (us (i_sol s)).

(** [l] extends [l0]. *)
Definition extends {X} (l0 l : list X) : Prop := exists new, l = l0 ++ new.

(** Last element of a list. *)
Definition last_opt {X} (l : list X) : option X := nth_error l (length l - 1).

(** The problem data and options of [s'] are those of [s]. *)
Definition problem_kept (s s' : integ A P C) : Prop :=
  i_dudt s' = i_dudt s /\ i_dfdt s' = i_dfdt s /\ i_dfdu s' = i_dfdu s /\
  i_params s' = i_params s /\ i_tdir s' = i_tdir s /\ i_tfinal s' = i_tfinal s /\
  i_opts s' = i_opts s.

(** A right-hand side that assigns every entry of its output buffer: what it
    writes does not depend on what the buffer held. *)
Definition overwrites (f : rhs A P) : Prop :=
  forall d d' u t p i, length d = length d' -> i < length d -> f d u t p i = f d' u t p i.

(** A callback that may change anything except the recorded solution, the
    counters, the options and the shapes of the working arrays (for instance
    one that projects [u] back onto a manifold, or only observes). *)
Record benign_callback (cb : callback A P C) : Prop := {
  bc_sol : forall s, i_sol (run_callback cb s) = i_sol s;
  bc_stats : forall s, i_stats (run_callback cb s) = i_stats s;
  bc_opts : forall s, i_opts (run_callback cb s) = i_opts s;
  bc_cache : forall s, i_cache (run_callback cb s) = i_cache s;
  bc_trace : forall s, i_trace (run_callback cb s) = i_trace s;
  bc_len_u : forall s, length (i_u (run_callback cb s)) = length (i_u s);
  bc_len_uprev : forall s, length (i_uprev (run_callback cb s)) = length (i_uprev s) }.

Lemma no_callback_benign : benign_callback None.
Proof. constructor; reflexivity. Qed.
End Spec.

(** [k] successive [step()] calls that all returned [Some _]. *)
Inductive continues {A : arith} {P : Type} (al : algorithm A P) (cb : callback A P (Cache al))
    (fstep : nat) : nat -> integ A P (Cache al) -> integ A P (Cache al) -> Prop :=
| cont_0 s : continues al cb fstep 0 s s
| cont_S k s s1 n s2 :
    step al cb fstep s = Ok (s1, Some n) -> continues al cb fstep k s1 s2 ->
    continues al cb fstep (S k) s s2.

(** The states of a run that is not stepped on after its end: [k] calls of
    [step()], all but possibly the last of which returned [Some _].  In
    particular every result of [integrate()] is such a state. *)
Inductive reached {A : arith} {P : Type} (al : algorithm A P) (cb : callback A P (Cache al))
    (fstep : nat) : nat -> integ A P (Cache al) -> integ A P (Cache al) -> Prop :=
| reached_0 s : reached al cb fstep 0 s s
| reached_S k s s1 s2 r :
    continues al cb fstep k s s1 -> step al cb fstep s1 = Ok (s2, r) ->
    reached al cb fstep (S k) s s2.
Arguments benign_callback {A P C} cb.

(** Two integrators that a user cannot tell apart through the public fields
    holding results (everything but the options and the solver's cache). *)
Definition same_results {A P C} (s s' : integ A P C) : Prop :=
  i_u s' = i_u s /\ i_t s' = i_t s /\ i_dt s' = i_dt s /\ i_uprev s' = i_uprev s /\
  i_tprev s' = i_tprev s /\ i_dtprev s' = i_dtprev s /\ i_sol s' = i_sol s /\
  i_stats s' = i_stats s /\ i_trace s' = i_trace s /\ i_tdir s' = i_tdir s /\
  i_tfinal s' = i_tfinal s /\ i_dudt s' = i_dudt s /\ i_params s' = i_params s.

(** Two outcomes of the same kind, related by [R] when they are values. *)
Definition same_outcome {X} (R : X -> X -> Prop) (r r' : res X) : Prop :=
  match r, r' with
  | Ok x, Ok x' => R x x'
  | Panic, Panic => True
  | OutOfFuel, OutOfFuel => True
  | _, _ => False
  end.
