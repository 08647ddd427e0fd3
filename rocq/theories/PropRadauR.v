(** Properties of Radau5 in exact arithmetic.  [inf] is the real that stands
    for [f64::INFINITY] (the default [dtmax]); [reached alg None fuel k s0 s]
    says that [s] is the state after [k] calls of [step()] on a fresh integrator
    [s0], none of them made after the integration ended. *)
From Coq Require Import ZArith List Bool Reals Lra Sorted.
From RecordUpdate Require Import RecordSet.
From Verif Require Import Arith Vec Core Linalg Jacobian Radau Spec SpecODE SpecRadau ArithR RadauJac RadauRForms RadauREx.
Import ListNotations RecordSetNotations.
Local Open Scope R_scope.
Notation state inf P := (integ (RA inf) P (radau_cache (RA inf))).
Notation alg := (@Radau5 _ _).

(** C11.  A [step()] that recorded a point after [j] failed attempts (each
    counted in [steps]) took a step at most [radau_shrink^j] times the one it
    tried first; [radau_shrink < 1]. *)
Theorem C11_radau_rejection_shrinks :
  forall P inf (b : builder (RA inf) P) fuel k (s0 s s' : state inf P) r,
  radau_sane (b_opts b) -> 0 < b_dt b -> b_t b < b_tfinal b ->
  build alg b = Ok s0 -> reached alg None fuel k s0 s -> rc (i_sol s) = RContinue ->
  step alg None fuel s = Ok (s', r) -> ts (i_sol s') <> ts (i_sol s) ->
  exists j, steps (i_stats s') = (steps (i_stats s) + S j)%nat /\
    0 < i_dtprev s' <= radau_trial s * radau_shrink (b_opts b) ^ j.
Proof. intros P. exact (@fwd_shrink P). Qed.
Print Assumptions C11_radau_rejection_shrinks.

(** C12.  The next step size is within the limits [h/facl .. h/facr] of the one
    just taken, cut at [dtmax], unless the remaining span is taken in one go. *)
Theorem C12_radau_ratio_limits :
  forall P inf (b : builder (RA inf) P) fuel k (s0 s s' : state inf P) r,
  radau_sane (b_opts b) -> 0 < b_dt b -> b_t b < b_tfinal b ->
  build alg b = Ok s0 -> reached alg None fuel k s0 s -> rc (i_sol s) = RContinue ->
  step alg None fuel s = Ok (s', r) -> rc (i_sol s') = RContinue ->
  let h := i_dtprev s' in let o := b_opts b in
  0 < h /\
  ((i_dt s' = b_tfinal b - i_t s' /\ i_dt s' <= Rmin (h / o_facr o) (o_dtmax o) / o_quot1 o) \/
   (Rmin (h / o_facl o) (o_dtmax o) <= i_dt s' <= h / o_facr o /\ i_dt s' <= o_dtmax o / o_quot1 o)).
Proof. intros P. exact (@fwd_growth P). Qed.
Print Assumptions C12_radau_ratio_limits.

Example C11_C12_ex : forall inf,
  let b := r_rest inf 0 1 1 in
  radau_sane (b_opts b) /\ 0 < b_dt b /\ b_t b < b_tfinal b /\
  exists (s0 s s' : state inf unit) r, build alg b = Ok s0 /\ reached alg None 1 1 s0 s /\
    rc (i_sol s) = RContinue /\ step alg None 1 s = Ok (s', r) /\
    ts (i_sol s') <> ts (i_sol s) /\ rc (i_sol s') = RContinue.
Proof.
  intros inf b. split; [apply r_rest_sane; lra|]. split; [unfold b; rewrite r_rest_dt; lra|].
  split; [cbn; lra|]. exact (rest_two inf).
Qed.

(** C13. *)
Theorem C13_radau_times :
  forall P inf (b : builder (RA inf) P),
  radau_sane (b_opts b) -> 0 < b_dt b -> b_t b < b_tfinal b ->
  forall fuel k (s0 s : state inf P),
  build alg b = Ok s0 -> reached alg None fuel k s0 s ->
  StronglySorted Rlt (ts (i_sol s)) /\ Forall (fun t => b_t b <= t <= b_tfinal b) (ts (i_sol s)).
Proof. intros P. exact (@fwd_times P). Qed.
Print Assumptions C13_radau_times.

(** C14. *)
Theorem C14_radau_success_at_end :
  forall P inf (b : builder (RA inf) P),
  radau_sane (b_opts b) -> 0 < b_dt b -> b_t b < b_tfinal b ->
  forall fuel k (s0 s : state inf P),
  build alg b = Ok s0 -> reached alg None fuel k s0 s -> rc (i_sol s) = RSuccess ->
  i_t s = b_tfinal b /\ last_opt (ts (i_sol s)) = Some (b_tfinal b).
Proof. intros P. exact (@fwd_success P). Qed.
Print Assumptions C14_radau_success_at_end.

Example C14_radau_ex : forall inf,
  let b := r_rest inf 0 (1/1000000) 1 in
  radau_sane (b_opts b) /\ 0 < b_dt b /\ b_t b < b_tfinal b /\
  exists (s0 s : state inf unit), build alg b = Ok s0 /\ reached alg None 1 1 s0 s /\ rc (i_sol s) = RSuccess.
Proof.
  intros inf b. split; [apply r_rest_sane; lra|]. split; [unfold b; rewrite r_rest_dt; lra|].
  split; [cbn; lra|]. exact (rest_success inf).
Qed.

(** C15 holds for Radau5 when [t0 + 1.0001 dt + tfinal >= 0]: the end-of-span
    test [t + 1.0001 dt - tfinal*tdir >= 0], whose sign is wrong, then makes the
    first trial step span the whole interval. *)
Theorem C15_radau_backward :
  forall P inf (b : builder (RA inf) P) fuel k (s0 s : state inf P),
  radau_sane (b_opts b) -> b_tfinal b < b_t b -> 0 <= b_t b + 10001/10000 * b_dt b + b_tfinal b ->
  build alg b = Ok s0 -> reached alg None fuel k s0 s ->
  StronglySorted Rgt (ts (i_sol s)) /\ Forall (fun t => b_tfinal b <= t <= b_t b) (ts (i_sol s)) /\
  (rc (i_sol s) = RSuccess -> i_t s = b_tfinal b) /\
  Forall (fun e => b_tfinal b <= ev_time e <= b_t b) (i_trace s).
Proof. intros P. exact (@bwd_times P). Qed.
Print Assumptions C15_radau_backward.

(** C15 is false for Radau5 otherwise: the first recorded step leads away from
    the end of the span, and only then does the integration turn around. *)
Theorem C15_radau_backward_refuted :
  forall P inf (b : builder (RA inf) P) fuel k (s0 s : state inf P),
  radau_sane (b_opts b) -> b_tfinal b < b_t b -> 0 < b_dt b ->
  b_t b + 10001/10000 * b_dt b + b_tfinal b < 0 ->
  build alg b = Ok s0 -> reached alg None fuel k s0 s ->
  (ts (i_sol s) = [b_t b] /\ rc (i_sol s) <> RSuccess) \/
  exists t1 l, ts (i_sol s) = b_t b :: t1 :: l /\ b_t b < t1 <= b_t b + b_dt b /\
    StronglySorted Rgt (t1 :: l) /\ Forall (fun t => b_tfinal b <= t) l /\
    (rc (i_sol s) = RSuccess -> i_t s = b_tfinal b).
Proof. intros P. exact (@bwd_overshoot P). Qed.
Print Assumptions C15_radau_backward_refuted.

Example C15_radau_ex : forall inf,
  (exists (s0 s : state inf unit), radau_sane (b_opts (r_rest inf 1 0 1)) /\
    0 <= b_t (r_rest inf 1 0 1) + 10001/10000 * b_dt (r_rest inf 1 0 1) + b_tfinal (r_rest inf 1 0 1) /\
    build alg (r_rest inf 1 0 1) = Ok s0 /\
    reached alg None 1 1 s0 s /\ rc (i_sol s) = RSuccess /\ ts (i_sol s) = [1; 0]) /\
  (exists (s0 s : state inf unit), radau_sane (b_opts (r_rest inf (-1) (-2) 1)) /\
    b_t (r_rest inf (-1) (-2) 1) + 10001/10000 * b_dt (r_rest inf (-1) (-2) 1) + b_tfinal (r_rest inf (-1) (-2) 1) < 0 /\
    build alg (r_rest inf (-1) (-2) 1) = Ok s0 /\
    reached alg None 1 1 s0 s /\ ts (i_sol s) = [-1; -1 + 1/1000000]).
Proof.
  intros inf. split.
  - destruct (rest_back inf) as (s0 & s & H). exists s0, s. split; [apply r_rest_sane; lra|].
    split; [rewrite r_rest_dt; cbn; lra|]. exact H.
  - destruct (rest_away inf) as (s0 & s & H). exists s0, s. split; [apply r_rest_sane; lra|].
    split; [rewrite r_rest_dt; cbn; lra|]. exact H.
Qed.

(** C16. *)
Theorem C16_radau_dtmax :
  forall P inf (b : builder (RA inf) P),
  radau_sane (b_opts b) -> 0 < b_dt b -> b_t b < b_tfinal b ->
  forall fuel k (s0 s : state inf P),
  build alg b = Ok s0 -> reached alg None fuel k s0 s ->
  Forall (fun g => g <= 10001/10000 * (o_dtmax (b_opts b) / o_quot1 (b_opts b))) (tl (gaps (ts (i_sol s)))) /\
  (forall g, hd_error (gaps (ts (i_sol s))) = Some g -> g <= 10001/10000 * b_dt b).
Proof. intros P. exact (@fwd_dtmax P). Qed.
Print Assumptions C16_radau_dtmax.

(** C16.  The literal claim is false: a first step ten times [dtmax]. *)
Theorem C16_radau_literal_refuted :
  forall inf, let b := r_rest inf 0 1 (1/10000000) in
  exists (s0 s : state inf unit), radau_sane (b_opts b) /\ build alg b = Ok s0 /\ reached alg None 1 1 s0 s /\
  gaps (ts (i_sol s)) = [1/1000000] /\ 1/1000000 = 10 * o_dtmax (b_opts b).
Proof. exact rest_exceeds_dtmax. Qed.
Print Assumptions C16_radau_literal_refuted.

(** C20. *)
Theorem C20_radau_rhs_inside_span :
  forall P inf (b : builder (RA inf) P),
  radau_sane (b_opts b) -> 0 < b_dt b -> b_t b < b_tfinal b ->
  forall fuel k (s0 s : state inf P),
  build alg b = Ok s0 -> reached alg None fuel k s0 s ->
  Forall (fun e => b_t b <= ev_time e <= b_tfinal b) (i_trace s).
Proof. intros P. exact (@fwd_span P). Qed.
Print Assumptions C20_radau_rhs_inside_span.

Example C13_C16_C20_radau_ex : forall inf,
  let b := r_rest inf 0 1 1 in
  radau_sane (b_opts b) /\ 0 < b_dt b /\ b_t b < b_tfinal b /\
  exists (s0 s : state inf unit), build alg b = Ok s0 /\ reached alg None 1 2 s0 s.
Proof.
  intros inf b. split; [apply r_rest_sane; lra|]. split; [unfold b; rewrite r_rest_dt; lra|].
  split; [cbn; lra|]. exact (rest_reached2 inf).
Qed.

(** C32 (in every arithmetic).  Along a run the Jacobian held by the integrator
    (the matrix [dfdu] of its cache, from which the iteration matrices are
    formed) is what the closure wrote when called at some recorded point. *)
Theorem C32_radau_user_jacobian :
  forall A P (b : builder A P) g fuel k (s0 s : integ A P (radau_cache A)),
  build alg b = Ok s0 -> b_u b <> [] -> b_dfdu b = Some g -> reached alg None fuel k s0 s ->
  exists t u df, In (t, u) (combine (ts (i_sol s)) (us (i_sol s))) /\
    forall i j, (i < length (b_u b))%nat -> (j < length (b_u b))%nat ->
      at2 (dfdu (i_cache s)) i j = g df u t (b_params b) i j.
Proof. exact @radau_user_jacobian. Qed.
Print Assumptions C32_radau_user_jacobian.

(** C32.  The evaluation itself calls the closure once and the right-hand side
    never (the trace grows by one Jacobian event). *)
Theorem C32_no_rhs_evaluation :
  forall A P (f : rhs A P) g df u t p tr m tr',
  jacobian_u f (Some g) df u t p tr = Ok (m, tr') ->
  tr' = EvJ t u :: tr /\
  forall i j r, nth_error df i = Some r -> (j < length r)%nat -> at2 m i j = g df u t p i j.
Proof. exact @user_jacobian_call. Qed.
Print Assumptions C32_no_rhs_evaluation.

Example C32_radau_ex : forall inf,
  let b := r_rest inf 0 1 1 in
  b_u b <> [] /\ b_dfdu b = Some (zero_jac inf) /\
  exists (s0 s : state inf unit), build alg b = Ok s0 /\ reached alg None 1 2 s0 s.
Proof.
  intros inf b. split; [discriminate|]. split; [reflexivity|]. exact (rest_reached2 inf).
Qed.
