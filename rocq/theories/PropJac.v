(** Property theorems for the Jacobian helpers (C31, C33).  [jacobian_u f None]
    is the finite-difference Jacobian, [jacobian_t f None] the fallback for the
    time derivative; [overwrites f] says that the closure assigns every entry of
    its output buffer. *)
From Coq Require Import ZArith List Bool Lia Reals Lra.
From Flocq Require Import Core BinarySingleNaN.
From Verif Require Import Arith Vec Core Jacobian Spec ArithR ArithF SpecRK SpecODE SpecLin LinFacts JacFacts.
Import ListNotations.

(** C31.  In every arithmetic: no panic, exactly [n+1] calls of the closure, all
    at time [t] and at points that differ from [u] in at most one component, and
    no entry of the result depends on what the matrix held before. *)
Theorem C31_evaluations : forall (A : arith) (P : Type) (f : rhs A P) df u t p tr,
  overwrites f -> is_shape (length u) (length u) df = true ->
  exists df' new, jacobian_u f None df u t p tr = Ok (df', new ++ tr) /\
    is_shape (length u) (length u) df' = true /\
    rhs_calls new = S (length u) /\
    (forall t' v, In (EvF t' v) new -> t' = t /\ length v = length u /\
       exists i, forall j, j <> i -> nth j v n0 = nth j u n0) /\
    (forall df2, is_shape (length u) (length u) df2 = true ->
       jacobian_u f None df2 u t p tr = Ok (df', new ++ tr)).
Proof. intros A P. exact (@fd_evaluations A P). Qed.
Print Assumptions C31_evaluations.

(** Over the reals it is exact for [f(t,u) = M u + c]. *)
Theorem C31_exact_for_affine : forall (inf : R) (P : Type) (f : rhs (RA inf) P)
    (M : nat -> nat -> R) (c : nat -> R) df (u : list R) (t : R) p tr,
  overwrites f ->
  (forall v i, length v = length u -> (i < length u)%nat ->
     comp (ode f p t v) i = (rsum (length u) (fun j => M i j * comp v j) + c i)%R) ->
  square (length u) df ->
  exists df' tr', jacobian_u f None df u t p tr = Ok (df', tr') /\ square (length u) df' /\
    forall i j, (i < length u)%nat -> (j < length u)%nat -> entry df' i j = M i j.
Proof. intros inf P. exact (@fd_affine inf P). Qed.
Print Assumptions C31_exact_for_affine.

(** In f64 a state component below [-2^19] makes its whole column zero, whatever
    the right-hand side. *)
Theorem C31_increment_lost_refuted : forall pf pi (P : Type) (f : rhs (F64 pf pi) P) df (u : list f64) t p tr c,
  overwrites f -> is_shape (A := F64 pf pi) (length u) (length u) df = true -> (c < length u)%nat ->
  is_finite (nth c u fnan) = true -> (B2R (nth c u fnan) < - bpow radix2 19)%R ->
  (forall d i, (i < length u)%nat -> length d = length u -> is_finite (f d u t p i) = true) ->
  exists df' tr', jacobian_u f None df u t p tr = Ok (df', tr') /\
    forall r, (r < length u)%nat -> nth c (nth r df' []) fnan = fzero.
Proof. intros pf pi P. exact (@fd_lost pf pi P). Qed.
Print Assumptions C31_increment_lost_refuted.

(** [f(t,u) = 2u + 1] over the reals; [f(t,u) = u] in f64 at [u = -2^20], whose
    derivative is 1. *)
Example C31_affine_ex : forall inf,
  let f : rhs (RA inf) unit := fun _ v _ _ i => (2 * comp v i + 1)%R in
  overwrites f /\ square 1 [[7%R]] /\
  forall v i, length v = 1%nat -> (i < 1)%nat ->
    comp (ode f tt 0%R v) i = (rsum 1 (fun j => 2 * comp v j) + 1)%R.
Proof. exact affine_ex. Qed.
Example C31_lost_ex : forall pf pi,
  let f : rhs (F64 pf pi) unit := fun _ v _ _ i => nth i v fzero in
  let u := [f_of_Z (-1048576)] in
  overwrites f /\ is_shape (A := F64 pf pi) 1 1 [[fnan]] = true /\ is_finite (nth 0 u fnan) = true /\
  (B2R (nth 0 u fnan) < - bpow radix2 19)%R /\
  forall d i, (i < 1)%nat -> length d = 1%nat -> is_finite (f d u fzero tt i) = true.
Proof. exact lost_ex. Qed.

(** C33.  The fallback for df/dt returns zeros for every right-hand side, over
    the reals and (where the right-hand side is finite) in f64. *)
Theorem C33_always_zero_refuted : forall (inf : R) (P : Type) (f : rhs (RA inf) P) df (u : list R) (t : R) p,
  overwrites f -> length df = length u ->
  jacobian_t f None df u t p = Ok (repeat 0%R (length u)).
Proof. intros inf P. exact (@jacobian_t_R inf P). Qed.
Print Assumptions C33_always_zero_refuted.

Theorem C33_f64_always_zero_refuted : forall pf pi (P : Type) (f : rhs (F64 pf pi) P) df (u : list f64) (t : f64) p,
  overwrites f -> length df = length u ->
  (forall i, (i < length u)%nat -> is_finite (f df u t p i) = true) ->
  jacobian_t f None df u t p = Ok (repeat fzero (length u)).
Proof. intros pf pi P. exact (@jacobian_t_f64 pf pi P). Qed.
Print Assumptions C33_f64_always_zero_refuted.

(** [f(t,u) = t], whose time derivative is 1. *)
Example C33_ex : forall inf (u : list R) (t : R), length u = 1%nat ->
  let f : rhs (RA inf) unit := fun _ _ t _ _ => t in
  overwrites f /\ derivable_pt_lim (fun t => comp (ode f tt t u) 0) t 1%R /\
  jacobian_t f None [5%R] u t tt = Ok [0%R].
Proof. exact jact_ex. Qed.
