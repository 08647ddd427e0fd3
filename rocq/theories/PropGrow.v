(** Property theorems: DormandPrince5 on linear systems, exact arithmetic (C64).
    [linear_system], [left_eigenvector] and [mode] are in [SpecMode.v];
    [dopri_growth z] is [1 + z + z^2/2 + z^3/6 + z^4/24 + z^5/120 + z^6/600] for
    complex [z] ([SpecGrow.v]); [points s] is the list of recorded pairs (time,
    state). *)
From Coq Require Import List Reals Lra Lia.
From Coquelicot Require Import Complex.
From Verif Require Import Arith Vec Core DP5 Spec SpecRK SpecODE SpecMode SpecGrow ArithR DP5Grow DP5GrowEx.
Import ListNotations.
Local Open Scope R_scope.
Notation state inf P := (integ (RA inf) P (dp5_cache (RA inf))).
Notation alg := (@DormandPrince5 _ _).

(** C64.  A step of size [h] multiplies the mode for the eigenvalue [a + i c] by
    [|dopri_growth (h (a + i c))|], exactly. *)
Theorem C64_dp5_mode_factor :
  forall P inf (b : builder (RA inf) P) J e p q a c,
  let n := length (b_u b) in
  overwrites (b_dudt b) -> linear_system n (ode (b_dudt b) (b_params b)) J e -> left_eigenvector n J p q a c ->
  forall fuel k (s0 s : state inf P), build alg b = Ok s0 -> reached alg None fuel k s0 s ->
  forall j t u t' u', nth_error (points s) j = Some (t, u) -> nth_error (points s) (S j) = Some (t', u') ->
  let h := t' - t in
  mode n p q e u' = Cmod (dopri_growth (h * a, h * c)) * mode n p q e u.
Proof. intros P inf. exact (@mode_factor P inf). Qed.
Print Assumptions C64_dp5_mode_factor.

(** C64.  For a real eigenvalue the limit is sharp to the second digit: the mode
    does not grow in a step with [h |a| <= 3.3], and grows if [h |a| >= 3.31]. *)
Theorem C64_dp5_real_modes :
  forall P inf (b : builder (RA inf) P) J e p q a,
  let n := length (b_u b) in
  overwrites (b_dudt b) -> linear_system n (ode (b_dudt b) (b_params b)) J e -> left_eigenvector n J p q a 0 ->
  forall fuel k (s0 s : state inf P), build alg b = Ok s0 -> reached alg None fuel k s0 s ->
  forall j t u t' u', nth_error (points s) j = Some (t, u) -> nth_error (points s) (S j) = Some (t', u') ->
  let h := t' - t in
  (-33/10 <= h * a <= 0 -> mode n p q e u' <= mode n p q e u) /\
  (h * a <= -331/100 -> 0 < mode n p q e u -> mode n p q e u < mode n p q e u').
Proof. intros P inf. exact (@real_modes P inf). Qed.
Print Assumptions C64_dp5_real_modes.

(** C64.  With the largest step and the initial step below about [1 / |a|] and
    [0.9 / |c|], a mode that does not grow in the exact solution ([a <= 0],
    oscillations [a = 0] included) is never larger than at the start. *)
Theorem C64_dp5_dtmax_keeps_modes :
  forall P inf (b : builder (RA inf) P) J e p q a c,
  let n := length (b_u b) in
  let H := 101/100 * Rmax (b_dt b) (o_dtmax (b_opts b)) in
  overwrites (b_dudt b) -> sane_opts (b_opts b) -> 0 < b_dt b -> b_t b < b_tfinal b ->
  linear_system n (ode (b_dudt b) (b_params b)) J e -> left_eigenvector n J p q a c ->
  a <= 0 -> H * Rabs a <= 1 -> H * Rabs c <= 9/10 ->
  forall fuel k (s0 s : state inf P), build alg b = Ok s0 -> reached alg None fuel k s0 s ->
  forall t u, In (t, u) (points s) -> mode n p q e u <= mode n p q e (b_u b).
Proof. intros P inf. exact (@dtmax_modes P inf). Qed.
Print Assumptions C64_dp5_dtmax_keeps_modes.

(** The harmonic oscillator with steps of at most 1/2 meets the hypotheses of all
    three ([a = 0], [c = -1]); the decay below those of the second. *)
Example C64_ex : forall inf,
  let b := r_swing inf in let n := length (b_u b) in
  let H := 101/100 * Rmax (b_dt b) (o_dtmax (b_opts b)) in
  overwrites (b_dudt b) /\ sane_opts (b_opts b) /\ 0 < b_dt b /\ b_t b < b_tfinal b /\
  linear_system n (ode (b_dudt b) (b_params b)) swing_J [0; 0] /\ left_eigenvector n swing_J swing_p swing_q 0 (-1) /\
  H * Rabs 0 <= 1 /\ H * Rabs (-1) <= 9/10 /\ mode n swing_p swing_q [0; 0] (b_u b) = 1 /\
  exists fuel k s0 s, build alg b = Ok s0 /\ reached alg None fuel (S k) s0 s.
Proof. exact swing_ex. Qed.

(** C64.  Unlike Radau5 (C61), whatever the tolerances admit may grow: a
    decaying mode more than a thousandfold in the first step. *)
Theorem C64_dp5_decaying_modes_decay_refuted : forall inf, 5 <= inf ->
  exists (b : builder (RA inf) unit) J e p q a,
  let n := length (b_u b) in
  overwrites (b_dudt b) /\ sane_opts (b_opts b) /\ 0 < b_dt b /\ b_t b < b_tfinal b /\
  linear_system n (ode (b_dudt b) (b_params b)) J e /\ left_eigenvector n J p q a 0 /\ a < 0 /\
  exists fuel s0 s t u, build alg b = Ok s0 /\ reached alg None fuel 1 s0 s /\ In (t, u) (points s) /\
    1000 * mode n p q e (b_u b) < mode n p q e u.
Proof. exact decay_grows. Qed.
Print Assumptions C64_dp5_decaying_modes_decay_refuted.
