(** Property theorems: DormandPrince5 as a whole (C53). *)
From Coq Require Import ZArith List Bool Reals Lra.
From Verif Require Import Arith Vec Core Driver DP5 Spec SpecRK SpecODE SpecReach SpecPI ArithR DP5REx DP5Ref.
Import ListNotations.
Local Open Scope R_scope.

Notation alg := (@DormandPrince5 _ _).

(** C53.  Exact arithmetic, forward integration.  Whatever a run shows after
    [k] calls of [step()] - time, state, next step size, accepted and rejected
    steps, return code - is what the reference description arrives at in [k]
    steps.  ([safe <= facl * inf] says that infinity is large.) *)
Theorem C53_dp5_follows_reference :
  forall P inf (b : builder (RA inf) P) fuel k (s0 s : integ (RA inf) P (dp5_cache (RA inf))),
  sane_opts (b_opts b) -> overwrites (b_dudt b) -> b_u b <> [] ->
  0 < o_abstol (b_opts b) -> 0 <= o_reltol (b_opts b) -> o_safe (b_opts b) <= o_facl (b_opts b) * inf ->
  0 < b_dt b -> b_t b < b_tfinal b ->
  build alg b = Ok s0 -> reached alg None fuel k s0 s ->
  exists x, pi_run (ode (b_dudt b) (b_params b)) (b_opts b) (b_tfinal b) k
              (pilot_start (b_t b) (b_u b) (b_dt b)) x /\ shows s x.
Proof.
  intros P inf b fuel k s0 s H1 H2 H3 H4 H5 H6. exact (dp5_reference inf b H1 H2 H3 H4 H5 H6 fuel k s0 s).
Qed.
Print Assumptions C53_dp5_follows_reference.

(** C53.  Conversely, as long as the reference goes on, so does the run. *)
Theorem C53_dp5_reference_is_followed :
  forall P inf (b : builder (RA inf) P) k (s0 : integ (RA inf) P (dp5_cache (RA inf))) x,
  sane_opts (b_opts b) -> overwrites (b_dudt b) -> b_u b <> [] ->
  0 < o_abstol (b_opts b) -> 0 <= o_reltol (b_opts b) -> o_safe (b_opts b) <= o_facl (b_opts b) * inf ->
  o_max_stiff (b_opts b) <> 0%nat -> 0 < b_dt b -> b_t b < b_tfinal b ->
  build alg b = Ok s0 ->
  pi_run (ode (b_dudt b) (b_params b)) (b_opts b) (b_tfinal b) k (pilot_start (b_t b) (b_u b) (b_dt b)) x ->
  exists fuel s, reached alg None fuel k s0 s /\ shows s x.
Proof.
  intros P inf b k s0 x H1 H2 H3 H4 H5 H6 H7.
  exact (dp5_reference_complete inf b H1 H2 H3 H4 H5 H6 H7 k s0 x).
Qed.
Print Assumptions C53_dp5_reference_is_followed.

Example C53_ex : forall inf, 5 < inf ->
  let b := r_dp5 inf 1 0 1 in
  sane_opts (b_opts b) /\ overwrites (b_dudt b) /\ b_u b <> [] /\
  0 < o_abstol (b_opts b) /\ 0 <= o_reltol (b_opts b) /\ o_safe (b_opts b) <= o_facl (b_opts b) * inf /\
  o_max_stiff (b_opts b) <> 0%nat /\ 0 < b_dt b /\ b_t b < b_tfinal b /\
  exists fuel k s0 s x, build alg b = Ok s0 /\ reached alg None fuel (S k) s0 s /\
    pi_run (ode (b_dudt b) (b_params b)) (b_opts b) (b_tfinal b) (S k) (pilot_start (b_t b) (b_u b) (b_dt b)) x.
Proof.
  intros inf Hinf b.
  assert (sane_opts (b_opts b)) as H1 by (apply default_sane; lra).
  assert (overwrites (b_dudt b)) as H2 by apply r_osc_overwrites.
  assert (b_u b <> []) as H3 by discriminate.
  assert (0 < o_abstol (b_opts b)) as H4 by (cbn; unfold rlit; lra).
  assert (0 <= o_reltol (b_opts b)) as H5 by (cbn; unfold rlit; lra).
  assert (o_safe (b_opts b) <= o_facl (b_opts b) * inf) as H6 by (cbn; unfold rlit; lra).
  assert (0 < b_dt b) as H8 by (unfold b; rewrite r_dp5_dt; lra).
  assert (b_t b < b_tfinal b) as H9 by (cbn; lra).
  repeat (split; [assumption|]). split; [cbn; Lia.lia|]. split; [assumption|]. split; [assumption|].
  destruct (osc_reached inf) as (fuel & k & s0 & s & Hb & Hr); [lra|].
  destruct (dp5_reference inf b H1 H2 H3 H4 H5 H6 fuel (S k) s0 s H8 H9 Hb Hr) as (x & Hx & _).
  exists fuel, k, s0, s, x. auto.
Qed.
