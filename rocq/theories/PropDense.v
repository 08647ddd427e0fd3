(** C25: the continuous output of Radau5.  [inf] is the real that stands for
    [f64::INFINITY].  [s] is the state before, [s'] the state after a call of
    [step()] that recorded a point; [z1], [z2], [z3] are the stage increments
    of that step, [node1], [node2], 1 the nodes they belong to. *)
From Coq Require Import ZArith List Bool Reals Lra.
From RecordUpdate Require Import RecordSet.
From Verif Require Import Arith Vec Core Spec SpecRadau ArithR ArithF Radau RadauEx RadauREx RadauDense.
Import ListNotations RecordSetNotations.
Local Open Scope R_scope.

(** At the new point the continuous output is the recorded state. *)
Theorem C25_radau_dense_at_new_point :
  forall P inf (b : builder (RA inf) P) fuel k s0 s s' r,
  b_u b <> [] -> o_dense (b_opts b) = true ->
  build Radau5 b = Ok s0 -> reached Radau5 None fuel k s0 s -> rc (i_sol s) = RContinue ->
  step Radau5 None fuel s = Ok (s', r) -> ts (i_sol s') <> ts (i_sol s) -> i_t s' <> i_t s ->
  radau_dense_output (i_t s') s' = i_u s'.
Proof. intros P inf. exact (@dense_new inf P). Qed.
Print Assumptions C25_radau_dense_at_new_point.

(** At the second node it is the second stage, up to the rounding of the
    tabulated constants. *)
Theorem C25_radau_dense_at_second_node :
  forall P inf (b : builder (RA inf) P) fuel k s0 s s' r,
  b_u b <> [] -> o_dense (b_opts b) = true ->
  build Radau5 b = Ok s0 -> reached Radau5 None fuel k s0 s -> rc (i_sol s) = RContinue ->
  step Radau5 None fuel s = Ok (s', r) -> ts (i_sol s') <> ts (i_sol s) -> i_t s' <> i_t s ->
  forall i, (i < length (b_u b))%nat ->
  Rabs (at_ (radau_dense_output (i_t s + node2 * (i_t s' - i_t s)) s') i -
        (at_ (i_u s) i + at_ (z2 (i_cache s')) i)) <=
  1 / 1000000000000000 * Rabs (at_ (z2 (i_cache s')) i - at_ (z3 (i_cache s')) i).
Proof. intros P inf. exact (@dense_second inf P). Qed.
Print Assumptions C25_radau_dense_at_second_node.

(** At the old point it is not the old state: it is off by [2 c2] times the
    second divided difference of the stages, in every component of every step
    (again up to the rounding of the tabulated constants). *)
Theorem C25_radau_dense_at_old_point_refuted :
  forall P inf (b : builder (RA inf) P) fuel k s0 s s' r,
  b_u b <> [] -> o_dense (b_opts b) = true ->
  build Radau5 b = Ok s0 -> reached Radau5 None fuel k s0 s -> rc (i_sol s) = RContinue ->
  step Radau5 None fuel s = Ok (s', r) -> ts (i_sol s') <> ts (i_sol s) -> i_t s' <> i_t s ->
  forall i, (i < length (b_u b))%nat ->
  let a1 := at_ (z1 (i_cache s')) i in let a2 := at_ (z2 (i_cache s')) i in let a3 := at_ (z3 (i_cache s')) i in
  Rabs (at_ (radau_dense_output (i_t s) s') i - (at_ (i_u s) i - 2 * node2 * bend a1 a2 a3)) <=
  1 / 100000000000000 * (Rabs a1 + Rabs a2 + Rabs a3).
Proof. intros P inf. exact (@dense_old_point inf P). Qed.
Print Assumptions C25_radau_dense_at_old_point_refuted.
Example C25_radau_dense_ex : forall inf, let b := set_dense true (r_rest inf 0 1 1) in
  b_u b <> [] /\ o_dense (b_opts b) = true /\
  exists s0 s r, build Radau5 b = Ok s0 /\ reached Radau5 None 1 0 s0 s0 /\ rc (i_sol s0) = RContinue /\
    step Radau5 None 1 s0 = Ok (s, r) /\ ts (i_sol s) <> ts (i_sol s0) /\ i_t s <> i_t s0.
Proof. intros inf b. split; [discriminate|]. split; [reflexivity|exact (rest_dense inf)]. Qed.

(** The same in binary64, on one step of length 1/10 of the harmonic
    oscillator from (1, 0): the continuous output at the starting time is
    above 1.005 instead of 1. *)
Theorem C25_radau_dense_f64_refuted : exists s0 s r,
  build radx x_dense = Ok s0 /\ step radx None 60 s0 = Ok (s, r) /\ rc (i_sol s) = RContinue /\
  feqb (at_ (i_u s0) 0) (y 1 1) = true /\ fltb (y 1005 1000) (at_ (radau_dense_output (i_t s0) s) 0) = true.
Proof. exact dense_ex. Qed.
Print Assumptions C25_radau_dense_f64_refuted.
