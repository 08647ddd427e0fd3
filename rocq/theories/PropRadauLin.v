(** C41 for Radau5, in exact arithmetic ([inf] is the real that stands for
    [f64::INFINITY]). *)
From Coq Require Import ZArith List Bool Reals Lra.
From Verif Require Import Arith Vec Core Spec SpecRK SpecLin SpecStage ArithR Jacobian Radau RadauREx StageForms RadauLin RadauLinEx.
Import ListNotations.
Local Open Scope R_scope.

(** A functional [w] that vanishes on the right-hand side (and on the columns of
    the Jacobian, if the user supplies one) has the same value at all recorded
    states.  If [w] ignores the first component the linear solver must not meet
    a matrix whose first column vanishes ([blind], which it does not report). *)
Theorem C41_radau_linear_invariants :
  forall P inf (b : builder (RA inf) P) (w : nat -> R) fuel k s0 s,
  let n := length (b_u b) in
  overwrites (b_dudt b) -> b_u b <> [] ->
  (forall d u t, length d = n -> length u = n ->
     rsum n (fun i => w i * b_dudt b d u t (b_params b) i) = 0) ->
  match b_dfdu b with
  | None => True
  | Some g => forall buf u t j, (j < n)%nat -> rsum n (fun i => w i * g buf u t (b_params b) i j) = 0
  end ->
  (w 0%nat <> 0 \/ forall t u J h, jacobian_at s0 t u J -> h <> 0 -> ~ blind n h J) ->
  build Radau5 b = Ok s0 -> reached Radau5 None fuel k s0 s ->
  forall u, In u (us (i_sol s)) ->
    rsum n (fun i => w i * comp u i) = rsum n (fun i => w i * comp (b_u b) i).
Proof. intros P inf. exact (@radau_linear_invariants inf P). Qed.
Print Assumptions C41_radau_linear_invariants.

(** Exchange between two compartments, Jacobian by differences, [w = (1, 1)]. *)
Example C41_radau_ex : forall inf, let b := r_swap inf in
  overwrites (b_dudt b) /\ b_u b <> [] /\ b_dfdu b = None /\
  (forall d u t, length d = 2%nat -> length u = 2%nat -> rsum 2 (fun i => 1 * b_dudt b d u t (b_params b) i) = 0) /\
  exists fuel fuel2 s0 s, build Radau5 b = Ok s0 /\ integrate Radau5 None fuel fuel2 s0 = Ok s /\ rc (i_sol s) <> RContinue.
Proof. exact swap_ex. Qed.
