(** Property theorems: Radau5 as a whole (C54). *)
From Coq Require Import ZArith List Bool Reals Lra.
From Verif Require Import Arith Vec Core Driver Radau Spec SpecRK SpecODE SpecLin SpecStage SpecRadau SpecReach SpecIRK ArithR
  RadauLinEx SubEx RadauRef RadRefDet RadRefEx.
Import ListNotations.
Local Open Scope R_scope.

Notation alg := (@Radau5 _ _).

(** C54.  Exact arithmetic, forward integration.  Whatever a run shows after
    [k] calls of [step()] - time, state, next step size, all statistics, return
    code - is what the reference description of SpecIRK.v arrives at in [k]
    steps.  (The hypothesis about [blind] excludes the Jacobians whose first
    column the decomposition of the code misses, see C26.) *)
Theorem C54_radau_follows_reference :
  forall P inf (b : builder (RA inf) P) fuel k (s0 s : integ (RA inf) P (radau_cache (RA inf))),
  let n := length (b_u b) in
  let Jac := the_jacobian (b_dudt b) (b_dfdu b) (b_params b) in
  overwrites (b_dudt b) -> jac_overwrites (b_dfdu b) -> b_u b <> [] ->
  0 < o_reltol (b_opts b) -> 0 < o_abstol (b_opts b) -> radau_sane (b_opts b) ->
  (forall h t u, 0 < h -> length u = n -> ~ blind n h (Jac t u)) ->
  0 < b_dt b -> b_t b < b_tfinal b ->
  build alg b = Ok s0 -> reached alg None fuel k s0 s ->
  exists x, rad_run n (ode (b_dudt b) (b_params b)) Jac (b_opts b) (b_tfinal b) k
              (rad_start Jac (b_t b) (b_u b) (b_dt b)) x /\ rad_shows s x.
Proof.
  intros P inf b fuel k s0 s n Jac H1 H2 H3 H4 H5 H6 H7.
  exact (radau_reference inf b H1 H2 H3 H4 H5 H6 H7 fuel k s0 s).
Qed.
Print Assumptions C54_radau_follows_reference.

(** C54.  Conversely, as long as the reference goes on, so does the run. *)
Theorem C54_radau_reference_is_followed :
  forall P inf (b : builder (RA inf) P) k (s0 : integ (RA inf) P (radau_cache (RA inf))) x,
  let n := length (b_u b) in
  let Jac := the_jacobian (b_dudt b) (b_dfdu b) (b_params b) in
  overwrites (b_dudt b) -> jac_overwrites (b_dfdu b) -> b_u b <> [] ->
  0 < o_reltol (b_opts b) -> 0 < o_abstol (b_opts b) -> radau_sane (b_opts b) ->
  (forall h t u, 0 < h -> length u = n -> ~ blind n h (Jac t u)) ->
  0 < b_dt b -> b_t b < b_tfinal b ->
  build alg b = Ok s0 ->
  rad_run n (ode (b_dudt b) (b_params b)) Jac (b_opts b) (b_tfinal b) k (rad_start Jac (b_t b) (b_u b) (b_dt b)) x ->
  forall fuel, (o_max_steps (b_opts b) + o_max_newt_iter (b_opts b) + 5 <= fuel)%nat ->
  exists s, reached alg None fuel k s0 s /\ rad_shows s x.
Proof.
  intros P inf b k s0 x n Jac H1 H2 H3 H4 H5 H6 H7 H8 H9.
  exact (radau_reference_complete b H1 H2 H3 H4 H5 H6 H7 H8 H9 k s0 x).
Qed.
Print Assumptions C54_radau_reference_is_followed.

(** C54.  The reference has exactly one end, and [integrate()] arrives there. *)
Theorem C54_radau_integrate_is_reference :
  forall P inf (b : builder (RA inf) P) (s0 : integ (RA inf) P (radau_cache (RA inf))) fuel fuel2,
  let n := length (b_u b) in
  let Jac := the_jacobian (b_dudt b) (b_dfdu b) (b_params b) in
  let run k := rad_run n (ode (b_dudt b) (b_params b)) Jac (b_opts b) (b_tfinal b) k
                 (rad_start Jac (b_t b) (b_u b) (b_dt b)) in
  overwrites (b_dudt b) -> jac_overwrites (b_dfdu b) -> b_u b <> [] ->
  0 < o_reltol (b_opts b) -> 0 < o_abstol (b_opts b) -> radau_sane (b_opts b) ->
  (forall h t u, 0 < h -> length u = n -> ~ blind n h (Jac t u)) ->
  0 < b_dt b -> b_t b < b_tfinal b ->
  build alg b = Ok s0 ->
  (o_max_steps (b_opts b) + o_max_newt_iter (b_opts b) + 5 <= fuel)%nat -> (max 1 (o_max_steps (b_opts b)) <= fuel2)%nat ->
  exists s k x, integrate alg None fuel fuel2 s0 = Ok s /\ run k x /\ rad_shows s x /\ p_code x <> RContinue /\
    forall k' x', run k' x' -> p_code x' <> RContinue -> k' = k /\ x' = x.
Proof.
  intros P inf b s0 fuel fuel2 n Jac run H1 H2 H3 H4 H5 H6 H7 H8 H9.
  exact (radau_integrate_reference b H1 H2 H3 H4 H5 H6 H7 H8 H9 s0 fuel fuel2).
Qed.
Print Assumptions C54_radau_integrate_is_reference.

Example C54_ex : forall inf, 0 < inf -> let b := r_swap inf in
  let Jac := the_jacobian (b_dudt b) (b_dfdu b) (b_params b) in
  overwrites (b_dudt b) /\ jac_overwrites (b_dfdu b) /\ b_u b <> [] /\
  0 < o_reltol (b_opts b) /\ 0 < o_abstol (b_opts b) /\ radau_sane (b_opts b) /\
  (forall h t u, 0 < h -> length u = 2%nat -> ~ blind 2 h (Jac t u)) /\
  0 < b_dt b /\ b_t b < b_tfinal b /\
  exists fuel k s0 s x, build alg b = Ok s0 /\ reached alg None fuel (S k) s0 s /\
    rad_run 2 (ode (b_dudt b) (b_params b)) Jac (b_opts b) (b_tfinal b) (S k)
      (rad_start Jac (b_t b) (b_u b) (b_dt b)) x.
Proof.
  intros inf Hinf b Jac.
  assert (overwrites (b_dudt b)) as H1 by (intros d d' u t p i _ _; reflexivity).
  assert (jac_overwrites (b_dfdu b)) as H2 by exact I.
  assert (b_u b <> []) as H3 by discriminate.
  assert (0 < o_reltol (b_opts b)) as H4 by (cbn; unfold rlit; lra).
  assert (0 < o_abstol (b_opts b)) as H5 by (cbn; unfold rlit; lra).
  assert (radau_sane (b_opts b)) as H6 by exact (def_sane inf Hinf (r_swap_rhs inf) [1; 0]).
  assert (forall h t u, 0 < h -> length u = 2%nat -> ~ blind 2 h (Jac t u)) as H7 by exact (swap_seeing inf).
  assert (0 < b_dt b) as H8 by (cbn; unfold rlit; lra).
  assert (b_t b < b_tfinal b) as H9 by (cbn; lra).
  repeat (split; [assumption|]).
  destruct (swap_reached inf) as (fuel & k & s0 & s & Hb & Hr).
  destruct (radau_reference inf b H1 H2 H3 H4 H5 H6 H7 fuel (S k) s0 s H8 H9 Hb Hr) as (x & Hx & _).
  exists fuel, k, s0, s, x. auto.
Qed.
