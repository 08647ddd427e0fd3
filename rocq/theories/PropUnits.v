(** Property theorems: units and labels (C57). *)
From Coq Require Import ZArith List Bool Reals Lra.
From Verif Require Import Arith Vec Core Driver DP5 Radau Spec SpecRK SpecODE SpecLin SpecStage SpecRadau SpecReach SpecIRK SpecUnits ArithR
  DP5REx RadauHist RadauLinEx SubEx RadRefEx UnitsDP5 UnitsRad UnitsEx.
Import ListNotations.
Local Open Scope R_scope.

(** C57.  Exact arithmetic, forward integration.  Renumber the components of the
    state, change their common unit (or sign) and the unit of time: everything a
    DormandPrince5 run shows after [k] calls of [step()] is the same, in the new
    units. *)
Theorem C57_dp5_units_and_labels :
  forall P P' inf (b : builder (RA inf) P) (b' : builder (RA inf) P') sg si c tau,
  renumbers (length (b_u b)) sg si -> c <> 0 -> 0 < tau -> same_problem_in c tau sg b b' ->
  overwrites (b_dudt b) -> overwrites (b_dudt b') -> b_u b <> [] ->
  sane_opts (b_opts b) -> 0 < o_abstol (b_opts b) -> 0 <= o_reltol (b_opts b) ->
  o_safe (b_opts b) <= o_facl (b_opts b) * inf -> o_max_stiff (b_opts b) <> 0%nat ->
  0 < b_dt b -> b_t b < b_tfinal b ->
  forall fuel k s0 s s0',
  build (@DormandPrince5 _ _) b = Ok s0 -> build (@DormandPrince5 _ _) b' = Ok s0' ->
  reached (@DormandPrince5 _ _) None fuel k s0 s ->
  exists fuel' s', reached (@DormandPrince5 _ _) None fuel' k s0' s' /\ same_view (length (b_u b)) c tau sg s s'.
Proof. exact @dp5_units. Qed.
Print Assumptions C57_dp5_units_and_labels.

(** C57.  The same for Radau5, all statistics included, when the Jacobians of
    the two problems agree up to the units ([blind]: see C26). *)
Theorem C57_radau_units_and_labels :
  forall P P' inf (b : builder (RA inf) P) (b' : builder (RA inf) P') sg si c tau,
  let n := length (b_u b) in
  let Jac := the_jacobian (b_dudt b) (b_dfdu b) (b_params b) in
  let Jac' := the_jacobian (b_dudt b') (b_dfdu b') (b_params b') in
  renumbers n sg si -> c <> 0 -> 0 < tau -> same_problem_in c tau sg b b' -> same_jacobian n c tau sg Jac Jac' ->
  overwrites (b_dudt b) -> overwrites (b_dudt b') -> jac_overwrites (b_dfdu b) -> jac_overwrites (b_dfdu b') -> b_u b <> [] ->
  0 < o_reltol (b_opts b) -> 0 < o_abstol (b_opts b) -> radau_sane (b_opts b) ->
  (forall h t u, 0 < h -> length u = n -> ~ blind n h (Jac t u) /\ ~ blind n h (Jac' t u)) ->
  0 < b_dt b -> b_t b < b_tfinal b ->
  forall fuel k s0 s s0', build (@Radau5 _ _) b = Ok s0 -> build (@Radau5 _ _) b' = Ok s0' ->
  reached (@Radau5 _ _) None fuel k s0 s ->
  forall fuel', (o_max_steps (b_opts b) + o_max_newt_iter (b_opts b) + 5 <= fuel')%nat ->
  exists s', reached (@Radau5 _ _) None fuel' k s0' s' /\ same_view n c tau sg s s' /\ i_stats s' = i_stats s.
Proof. exact @radau_units. Qed.
Print Assumptions C57_radau_units_and_labels.

(** C57.  They do without a user Jacobian, whatever the unit of time and the
    labels, when the unit of the state stays the same. *)
Theorem C57_differences_units_and_labels :
  forall P P' inf n sg si tau (f : rhs (RA inf) P) p (f' : rhs (RA inf) P') p',
  renumbers n sg si -> 0 < tau -> same_ode n 1 tau sg (ode f p) (ode f' p') ->
  same_jacobian n 1 tau sg (the_jacobian f None p) (the_jacobian f' None p').
Proof. exact @fd_same_jacobian. Qed.
Print Assumptions C57_differences_units_and_labels.

Example C57_ex_dp5 : forall inf, 5 < inf ->
  let b := r_dp5 inf 1 0 1 in let b' := osc_units inf in
  renumbers (length (b_u b)) exch exch /\ -2 <> 0 /\ 0 < 3 /\ same_problem_in (-2) 3 exch b b' /\
  overwrites (b_dudt b) /\ overwrites (b_dudt b') /\ b_u b <> [] /\
  sane_opts (b_opts b) /\ 0 < o_abstol (b_opts b) /\ 0 <= o_reltol (b_opts b) /\
  o_safe (b_opts b) <= o_facl (b_opts b) * inf /\ o_max_stiff (b_opts b) <> 0%nat /\
  0 < b_dt b /\ b_t b < b_tfinal b /\
  exists fuel k s0 s s0', build (@DormandPrince5 _ _) b = Ok s0 /\ build (@DormandPrince5 _ _) b' = Ok s0' /\
    reached (@DormandPrince5 _ _) None fuel (S k) s0 s.
Proof.
  intros inf Hinf b b'. split; [exact exch_renumbers|]. split; [lra|]. split; [lra|]. split; [exact (osc_units_same inf)|].
  split; [apply r_osc_overwrites|]. split; [intros d d' u t p i _ _; reflexivity|]. split; [discriminate|].
  split; [apply default_sane; lra|]. split; [cbn; unfold rlit; lra|]. split; [cbn; unfold rlit; lra|].
  split; [cbn; unfold rlit; lra|]. split; [cbn; Lia.lia|]. split; [unfold b; rewrite r_dp5_dt; lra|]. split; [cbn; lra|].
  destruct (osc_reached inf) as (fuel & k & s0 & s & Hb & Hr); [lra|].
  eexists fuel, k, s0, s, _. split; [exact Hb|]. split; [reflexivity|exact Hr].
Qed.

Example C57_ex_radau : forall inf, 0 < inf ->
  let b := r_swap inf in let b' := swap_units inf in
  let Jac := the_jacobian (b_dudt b) (b_dfdu b) (b_params b) in
  let Jac' := the_jacobian (b_dudt b') (b_dfdu b') (b_params b') in
  renumbers 2 exch exch /\ 1 <> 0 /\ 0 < 2 /\ same_problem_in 1 2 exch b b' /\ same_jacobian 2 1 2 exch Jac Jac' /\
  overwrites (b_dudt b) /\ overwrites (b_dudt b') /\ jac_overwrites (b_dfdu b) /\ jac_overwrites (b_dfdu b') /\ b_u b <> [] /\
  0 < o_reltol (b_opts b) /\ 0 < o_abstol (b_opts b) /\ radau_sane (b_opts b) /\
  (forall h t u, 0 < h -> length u = 2%nat -> ~ blind 2 h (Jac t u) /\ ~ blind 2 h (Jac' t u)) /\
  0 < b_dt b /\ b_t b < b_tfinal b /\
  exists fuel k s0 s s0', build (@Radau5 _ _) b = Ok s0 /\ build (@Radau5 _ _) b' = Ok s0' /\
    reached (@Radau5 _ _) None fuel (S k) s0 s.
Proof.
  intros inf Hinf b b' Jac Jac'. split; [exact exch_renumbers|]. split; [lra|]. split; [lra|].
  pose proof (swap_units_same inf) as Hs. split; [exact Hs|].
  split; [apply (fd_same_jacobian inf 2 exch exch); [exact exch_renumbers|lra|exact (si_ode _ _ _ _ _ Hs)]|].
  split; [intros d d' u t p i _ _; reflexivity|]. split; [intros d d' u t p i _ _; reflexivity|].
  split; [exact I|]. split; [exact I|]. split; [discriminate|].
  split; [cbn; unfold rlit; lra|]. split; [cbn; unfold rlit; lra|].
  split; [exact (def_sane inf Hinf (r_swap_rhs inf) [1; 0])|].
  split; [intros h t u Hh Hu; split; [now apply swap_seeing|now apply swap_units_seeing]|].
  split; [cbn; unfold rlit; lra|]. split; [cbn; lra|].
  destruct (swap_reached inf) as (fuel & k & s0 & s & Hb & Hr).
  destruct (radau_build_ok b') as (s0' & Hb').
  exists fuel, k, s0, s, s0'. auto.
Qed.
