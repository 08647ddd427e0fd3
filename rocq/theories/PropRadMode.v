(** Stability of Radau5 on linear systems in exact arithmetic.  [linear_system],
    [left_eigenvector] and [mode] are in [SpecMode.v]; [points s] is the list of
    recorded pairs (time, state); [the_jacobian] is the user's Jacobian or the
    forward differences used instead ([SpecIRK.v]). *)
From Coq Require Import List Reals Lra Lia.
From RecordUpdate Require Import RecordSet.
From Verif Require Import Arith Vec Core Radau Spec SpecRK SpecODE SpecLin SpecStage SpecRadau SpecIRK SpecMode ArithR SubEx RadModeMain.
Import ListNotations.
Local Open Scope R_scope.
Notation state inf P := (integ (RA inf) P (radau_cache (RA inf))).
Notation alg := (@Radau5 _ _).

(** C61.  A mode of [u' = J (u - e)] that does not grow in the exact solution
    (eigenvalue [a + i c], [a <= 0]) does not grow in the computed one, whatever
    the step sizes, the tolerances and the size of [a] and [c]: each step
    multiplies it by at most [1 + 10^-13]. *)
Theorem C61_radau_modes_do_not_grow :
  forall P inf (b : builder (RA inf) P) J e p q a c,
  let n := length (b_u b) in
  let Jac := the_jacobian (b_dudt b) (b_dfdu b) (b_params b) in
  overwrites (b_dudt b) -> jac_overwrites (b_dfdu b) -> b_u b <> [] ->
  0 < o_reltol (b_opts b) -> 0 < o_abstol (b_opts b) -> radau_sane (b_opts b) -> 0 < b_dt b -> b_t b < b_tfinal b ->
  linear_system n (ode (b_dudt b) (b_params b)) J e ->
  (b_dfdu b = None \/
   forall t u, length u = n -> forall i j, (i < n)%nat -> (j < n)%nat -> entry (Jac t u) i j = J i j) ->
  ((forall i, (0 < i < n)%nat -> J i 0%nat = 0) -> J 0%nat 0%nat <= 0) ->
  left_eigenvector n J p q a c -> a <= 0 ->
  forall fuel k (s0 s : state inf P), build alg b = Ok s0 -> reached alg None fuel k s0 s ->
  forall j t u, nth_error (points s) j = Some (t, u) ->
    mode n p q e u <= (1 + / 10 ^ 13) ^ j * mode n p q e (b_u b).
Proof. intros P inf. exact (@modes_stable P inf). Qed.
Print Assumptions C61_radau_modes_do_not_grow.

(** C61.  A mode that is fast compared with the step size [h] is damped by a
    factor of at least [h |a + i c| / 6] in that step. *)
Theorem C61_radau_fast_modes_damped :
  forall P inf (b : builder (RA inf) P) J e p q a c,
  let n := length (b_u b) in
  let Jac := the_jacobian (b_dudt b) (b_dfdu b) (b_params b) in
  overwrites (b_dudt b) -> jac_overwrites (b_dfdu b) -> b_u b <> [] ->
  0 < o_reltol (b_opts b) -> 0 < o_abstol (b_opts b) -> radau_sane (b_opts b) -> 0 < b_dt b -> b_t b < b_tfinal b ->
  linear_system n (ode (b_dudt b) (b_params b)) J e ->
  (b_dfdu b = None \/
   forall t u, length u = n -> forall i j, (i < n)%nat -> (j < n)%nat -> entry (Jac t u) i j = J i j) ->
  ((forall i, (0 < i < n)%nat -> J i 0%nat = 0) -> J 0%nat 0%nat <= 0) ->
  left_eigenvector n J p q a c -> a <= 0 ->
  forall fuel k (s0 s : state inf P), build alg b = Ok s0 -> reached alg None fuel k s0 s ->
  forall j t u t' u', nth_error (points s) j = Some (t, u) -> nth_error (points s) (S j) = Some (t', u') ->
  let h := t' - t in let size := sqrt (a ^ 2 + c ^ 2) in
  0 < h * size -> mode n p q e u' <= (6 / (h * size) + / 10 ^ 13) * mode n p q e u.
Proof. intros P inf. exact (@modes_damped P inf). Qed.
Print Assumptions C61_radau_fast_modes_damped.

(** A damped oscillator, [u0' = - u0 - 10 u1], [u1' = 10 u0 - u1] from [(1, 0)],
    with the default options and no Jacobian given; the mode is [u0 + i u1]. *)
Example C61_ex : forall inf, 0 < inf ->
  let b := r_osc inf in
  overwrites (b_dudt b) /\ jac_overwrites (b_dfdu b) /\ b_u b <> [] /\
  0 < o_reltol (b_opts b) /\ 0 < o_abstol (b_opts b) /\ radau_sane (b_opts b) /\ 0 < b_dt b /\ b_t b < b_tfinal b /\
  linear_system 2 (ode (b_dudt b) (b_params b)) osc_J [0; 0] /\ b_dfdu b = None /\
  ((forall i, (0 < i < 2)%nat -> osc_J i 0%nat = 0) -> osc_J 0%nat 0%nat <= 0) /\
  left_eigenvector 2 osc_J osc_p osc_q (-1) 10 /\ mode 2 osc_p osc_q [0; 0] (b_u b) = 1 /\
  exists fuel k s0 s, build alg b = Ok s0 /\ reached alg None fuel (S k) s0 s.
Proof.
  intros inf Hinf b. split; [intros d d' u t p i _ _; reflexivity|]. split; [exact I|]. split; [discriminate|].
  split; [cbn; unfold rlit; lra|]. split; [cbn; unfold rlit; lra|].
  split; [exact (def_sane inf Hinf (r_osc_rhs inf) [1; 0])|]. split; [cbn; unfold rlit; lra|]. split; [cbn; lra|].
  split; [exact (osc_linear inf)|]. split; [reflexivity|]. split; [intros _; cbn; lra|]. split; [exact osc_eigen|].
  split; [|exact (osc_reached inf)]. unfold mode, rsum. cbn.
  match goal with |- sqrt ?x = 1 => replace x with 1 by ring end. exact sqrt_1.
Qed.
