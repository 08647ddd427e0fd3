(** Vocabulary for convergence in binary64, independent of the model of the
    code. *)
From Coq Require Import ZArith Reals List.
From Flocq Require Import Core BinarySingleNaN.
From Verif Require Import Arith Vec Core ArithF SpecRK SpecConv.
Local Open Scope R_scope.

(** The real numbers a vector of floats stands for, and floats that stand for one. *)
Definition Rvec (u : list f64) : list R := map B2R u.
Definition finite_vec (u : list f64) : Prop := Forall (fun x : f64 => is_finite x = true) u.

(** Near the solution [y], the right-hand side [F] is Lipschitz in time. *)
Definition time_lipschitz (n : nat) (F : R -> list R -> list R) (t0 tf : R) (y : R -> list R) : Prop :=
  exists r L, 0 < r /\ forall s t u, t0 <= s <= tf -> t0 <= t <= tf -> length u = n ->
    close n r u (y s) -> close n r u (y t) -> close n (L * Rabs (s - t)) (F s u) (F t u).

(** The user's binary64 right-hand side [f] evaluates [F] with an error of at
    most [d] at points within [r] of the solution, whatever its output buffer
    held. *)
Definition evaluates {fpowf fpowi P} (n : nat) (f : rhs (F64 fpowf fpowi) P) (p : P)
    (F : R -> list R -> list R) (t0 tf : R) (y : R -> list R) (r d : R) : Prop :=
  forall (buf u : list f64) (t : f64) i, length buf = n -> length u = n -> finite_vec u ->
    is_finite t = true -> t0 <= B2R t <= tf -> close n r (Rvec u) (y (B2R t)) -> (i < n)%nat ->
    is_finite (f buf u t p i : f64) = true /\
    Rabs (B2R (f buf u t p i : f64) - comp (F (B2R t) (Rvec u)) i) <= d.

(** Half a unit in the last place of 1: the relative error of one operation. *)
Definition u64 : R := bpow radix2 (-53).

(** Vectors with components of at most [V], and what is asked of a right-hand
    side on them at the times of [[t0, T]]: it is bounded by [M] and Lipschitz
    with constants [L] in the state and [Lt] in time, and the user's binary64
    function [f] evaluates it with an error of at most [d]. *)
Definition box (n : nat) (V : R) (u : list R) : Prop :=
  length u = n /\ forall i, (i < n)%nat -> Rabs (comp u i) <= V.
Record tame {fpowf fpowi P} (n : nat) (f : rhs (F64 fpowf fpowi) P) (p : P)
    (F : R -> list R -> list R) (t0 T V M L Lt d : R) : Prop := {
  tm_bound : forall t u i, t0 <= t <= T -> box n V u -> (i < n)%nat -> Rabs (comp (F t u) i) <= M;
  tm_state : forall t u v e, t0 <= t <= T -> box n V u -> box n V v -> close n e u v -> close n (L * e) (F t u) (F t v);
  tm_time : forall s t u, t0 <= s <= T -> t0 <= t <= T -> box n V u -> close n (Lt * Rabs (s - t)) (F s u) (F t u);
  tm_eval : forall (buf u : list f64) (t : f64) i, length buf = n -> finite_vec u -> box n V (Rvec u) ->
    is_finite t = true -> t0 <= B2R t <= T -> (i < n)%nat ->
    is_finite (f buf u t p i : f64) = true /\ Rabs (B2R (f buf u t p i : f64) - comp (F (B2R t) (Rvec u)) i) <= d }.
