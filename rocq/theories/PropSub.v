(** C50: invariant subspaces and equilibria, in exact arithmetic ([inf] is the
    real that stands for [f64::INFINITY]). *)
From Coq Require Import ZArith List Bool Reals Lra.
From Verif Require Import Arith Vec Core Spec SpecRK SpecLin SpecStage SpecRadau SpecSub ArithR Jacobian DP5 Radau DP5REx RadauLinEx RadauSub DP5Sub SubEx.
Import ListNotations.
Local Open Scope R_scope.

(** If the right-hand side maps the affine space through the initial state in
    the directions [V] into [V], every recorded state lies in it. *)
Theorem C50_dp5_invariant_subspaces :
  forall P inf (b : builder (RA inf) P) (V : (nat -> R) -> Prop) fuel k s0 s,
  let n := length (b_u b) in
  overwrites (b_dudt b) -> subspace n V ->
  (forall d u t, length d = n -> length u = n -> in_coset V (b_u b) u -> V (b_dudt b d u t (b_params b))) ->
  build DormandPrince5 b = Ok s0 -> steps_n DormandPrince5 None fuel k s0 = Ok s ->
  forall u, In u (us (i_sol s)) -> in_coset V (b_u b) u.
Proof. intros P inf. exact (@dp5_subspace P inf). Qed.
Print Assumptions C50_dp5_invariant_subspaces.

Example C50_dp5_ex : forall inf, 0 < inf -> let b := b_quad inf in
  subspace 2 line /\ overwrites (b_dudt b) /\
  (forall d u t, length d = 2%nat -> length u = 2%nat -> in_coset line (b_u b) u -> line (b_dudt b d u t (b_params b))) /\
  exists fuel k s0 s, build DormandPrince5 b = Ok s0 /\ reached DormandPrince5 None fuel (S k) s0 s.
Proof. exact line_ex. Qed.

(** The same for Radau5, whose iteration matrices must respect [V] too (and not
    have a vanishing first column, [blind], which the linear solver does not
    report). *)
Theorem C50_radau_invariant_subspaces :
  forall P inf (b : builder (RA inf) P) (V : (nat -> R) -> Prop) fuel k s0 s,
  let n := length (b_u b) in
  b_u b <> [] -> subspace n V ->
  (forall d u t, length d = n -> length u = n -> in_coset V (b_u b) u -> V (b_dudt b d u t (b_params b))) ->
  (forall t u J, length u = n -> in_coset V (b_u b) u -> square n J -> jacobian_at s0 t u J ->
     (forall x, V x -> V (jmul n J x)) /\ forall h, usable_step b h -> ~ blind n h J) ->
  build Radau5 b = Ok s0 -> reached Radau5 None fuel k s0 s ->
  forall u, In u (us (i_sol s)) -> in_coset V (b_u b) u.
Proof. intros P inf. exact (@radau_subspace inf P). Qed.
Print Assumptions C50_radau_invariant_subspaces.

(** An exchange between two components: opposite changes. *)
Example C50_radau_ex : forall inf, 0 < inf -> let b := r_swap inf in
  b_u b <> [] /\ subspace 2 line /\
  (forall d u t, length d = 2%nat -> length u = 2%nat -> in_coset line (b_u b) u -> line (b_dudt b d u t (b_params b))) /\
  (forall s0 t u J, build Radau5 b = Ok s0 -> length u = 2%nat -> square 2 J -> jacobian_at s0 t u J ->
     (forall x, line x -> line (jmul 2 J x)) /\ forall h, usable_step b h -> ~ blind 2 h J) /\
  exists fuel fuel2 s0 s, build Radau5 b = Ok s0 /\ integrate Radau5 None fuel fuel2 s0 = Ok s /\ rc (i_sol s) <> RContinue.
Proof. exact swap_line_ex. Qed.

(** Components whose right-hand side vanishes while they have their initial
    values keep them.  No condition on Jacobians by differences. *)
Theorem C50_radau_held_components :
  forall P inf (b : builder (RA inf) P) (F : nat -> Prop) fuel k s0 s,
  (forall i, {F i} + {~ F i}) ->
  let n := length (b_u b) in
  let held u := forall i, (i < n)%nat -> F i -> comp u i = comp (b_u b) i in
  overwrites (b_dudt b) -> b_u b <> [] ->
  (forall d u t i, length d = n -> length u = n -> held u -> (i < n)%nat -> F i -> b_dudt b d u t (b_params b) i = 0) ->
  match b_dfdu b with
  | None => True
  | Some g => forall buf u t i j, held u -> (i < n)%nat -> F i -> (j < n)%nat -> ~ F j -> g buf u t (b_params b) i j = 0
  end ->
  (forall t u J h, length u = n -> held u -> square n J -> jacobian_at s0 t u J -> usable_step b h -> ~ blind n h J) ->
  build Radau5 b = Ok s0 -> reached Radau5 None fuel k s0 s ->
  forall u, In u (us (i_sol s)) -> held u.
Proof. intros P inf. exact (@radau_held inf P). Qed.
Print Assumptions C50_radau_held_components.

(** A decaying species, and one that only grows from itself and is absent at the start. *)
Example C50_radau_held_ex : forall inf, 0 < inf -> let b := r_absent inf in
  overwrites (b_dudt b) /\ b_u b <> [] /\ b_dfdu b = None /\
  (forall d u t, length d = 2%nat -> length u = 2%nat -> comp u 1 = comp (b_u b) 1 -> b_dudt b d u t (b_params b) 1%nat = 0) /\
  (forall s0 t u J h, build Radau5 b = Ok s0 -> length u = 2%nat -> comp u 1 = comp (b_u b) 1 -> square 2 J ->
     jacobian_at s0 t u J -> usable_step b h -> ~ blind 2 h J) /\
  exists fuel fuel2 s0 s, build Radau5 b = Ok s0 /\ integrate Radau5 None fuel fuel2 s0 = Ok s /\ rc (i_sol s) <> RContinue.
Proof. exact absent_ex. Qed.

(** Equilibria: a run started where the right-hand side vanishes stays there. *)
Theorem C50_dp5_equilibria :
  forall P inf (b : builder (RA inf) P) fuel k s0 s,
  let n := length (b_u b) in
  overwrites (b_dudt b) ->
  (forall d t i, length d = n -> (i < n)%nat -> b_dudt b d (b_u b) t (b_params b) i = 0) ->
  build DormandPrince5 b = Ok s0 -> steps_n DormandPrince5 None fuel k s0 = Ok s ->
  forall u, In u (us (i_sol s)) -> u = b_u b.
Proof. intros P inf. exact (@dp5_equilibrium P inf). Qed.
Print Assumptions C50_dp5_equilibria.

Example C50_dp5_equilibria_ex : forall inf, 0 < inf -> let b := r_dp5 inf 0 0 1 in
  overwrites (b_dudt b) /\
  (forall d t i, length d = 2%nat -> (i < 2)%nat -> b_dudt b d (b_u b) t (b_params b) i = 0) /\
  exists fuel fuel2 s0 s, build DormandPrince5 b = Ok s0 /\ integrate DormandPrince5 None fuel fuel2 s0 = Ok s.
Proof. exact d_still_ex. Qed.

Theorem C50_radau_equilibria :
  forall P inf (b : builder (RA inf) P) fuel k s0 s,
  let n := length (b_u b) in
  overwrites (b_dudt b) -> b_u b <> [] ->
  (forall d t i, length d = n -> (i < n)%nat -> b_dudt b d (b_u b) t (b_params b) i = 0) ->
  (forall t J h, square n J -> jacobian_at s0 t (b_u b) J -> usable_step b h -> ~ blind n h J) ->
  build Radau5 b = Ok s0 -> reached Radau5 None fuel k s0 s ->
  forall u, In u (us (i_sol s)) -> u = b_u b.
Proof. intros P inf. exact (@radau_equilibrium inf P). Qed.
Print Assumptions C50_radau_equilibria.

Example C50_radau_equilibria_ex : forall inf, 0 < inf -> let b := r_still inf in
  overwrites (b_dudt b) /\ b_u b <> [] /\
  (forall d t i, length d = 2%nat -> (i < 2)%nat -> b_dudt b d (b_u b) t (b_params b) i = 0) /\
  (forall s0 t J h, build Radau5 b = Ok s0 -> square 2 J -> jacobian_at s0 t (b_u b) J -> usable_step b h -> ~ blind 2 h J) /\
  exists fuel fuel2 s0 s, build Radau5 b = Ok s0 /\ integrate Radau5 None fuel fuel2 s0 = Ok s /\ rc (i_sol s) <> RContinue.
Proof. intros inf _. exact (still_ex inf). Qed.
