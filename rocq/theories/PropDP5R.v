(** Properties of DormandPrince5 in exact arithmetic.  [inf] is the real that
    stands for [f64::INFINITY] (the default [dtmax]); [reached alg None fuel k
    s0 s] says that [s] is the state after [k] calls of [step()] on a fresh
    integrator [s0], none of them made after the integration ended. *)
From Coq Require Import ZArith List Bool Reals Lra Sorted.
From RecordUpdate Require Import RecordSet.
From Verif Require Import Arith Vec Core DP5 Spec SpecRK SpecODE ArithR RKFacts Examples DP5Ex DP5Num DP5Dense DP5Term DP5RForms DP5REx.
Import ListNotations RecordSetNotations.
Local Open Scope R_scope.
Notation state inf P := (integ (RA inf) P (dp5_cache (RA inf))).
Notation alg := (@DormandPrince5 _ _).

(** C10.  A call of [step()] returns within [S N] attempts, where [N] is large
    enough for [max(safe, facl)^N] to bring the stored step below the size at
    which the right-hand side, bounded by [M] near the current point, meets the
    absolute tolerance. *)
Theorem C10_step_returns :
  forall P inf (b : builder (RA inf) P) fuel k (s0 s : state inf P) M r N,
  sane_opts (b_opts b) -> overwrites (b_dudt b) -> 0 < b_dt b -> b_t b < b_tfinal b ->
  0 < o_abstol (b_opts b) -> 0 <= o_reltol (b_opts b) -> o_max_stiff (b_opts b) <> 0%nat -> b_u b <> [] ->
  build alg b = Ok s0 -> reached alg None fuel k s0 s -> rc (i_sol s) = RContinue ->
  bounded_near (b_dudt b) (b_params b) (length (b_u b)) (b_tfinal b) (i_t s) (i_u s) M r -> 0 <= M ->
  let h := 101/100 * i_dt s * Rmax (o_safe (b_opts b)) (o_facl (b_opts b)) ^ N in
  h <= r -> 25 * h * M <= r -> h * M <= o_abstol (b_opts b) ->
  exists s' r', step alg None (S N) s = Ok (s', r').
Proof. intros P. exact (@dp5_step_returns P). Qed.
Print Assumptions C10_step_returns.

(** C10.  For a locally bounded right-hand side (every continuous one is),
    [integrate()] returns. *)
Theorem C10_integrate_returns :
  forall P inf (b : builder (RA inf) P) (s0 : state inf P),
  sane_opts (b_opts b) -> overwrites (b_dudt b) -> 0 < b_dt b -> b_t b < b_tfinal b ->
  0 < o_abstol (b_opts b) -> 0 <= o_reltol (b_opts b) -> o_max_stiff (b_opts b) <> 0%nat -> b_u b <> [] ->
  locally_bounded (b_dudt b) (b_params b) (length (b_u b)) (b_t b) (b_tfinal b) ->
  build alg b = Ok s0 ->
  exists fuel s, integrate alg None fuel (S (o_max_steps (b_opts b))) s0 = Ok s.
Proof. intros P. exact (@dp5_integrate_ends P). Qed.
Print Assumptions C10_integrate_returns.

Example C10_ex : forall inf, 0 < inf ->
  let b := r_dp5 inf 1 0 1 in
  sane_opts (b_opts b) /\ overwrites (b_dudt b) /\ 0 < b_dt b /\ b_t b < b_tfinal b /\
  0 < o_abstol (b_opts b) /\ 0 <= o_reltol (b_opts b) /\ o_max_stiff (b_opts b) <> 0%nat /\ b_u b <> [] /\
  locally_bounded (b_dudt b) (b_params b) (length (b_u b)) (b_t b) (b_tfinal b).
Proof.
  intros inf H b. split; [now apply default_sane|]. split; [apply r_osc_overwrites|].
  split; [unfold b; rewrite r_dp5_dt; lra|]. split; [cbn; lra|].
  split; [unfold b; rewrite r_dp5_atol; lra|]. split; [unfold b; rewrite r_dp5_rtol; lra|].
  split; [apply r_dp5_stiff|]. split; [discriminate|]. apply osc_locally_bounded.
Qed.

(** C11.  A [step()] that made [k] rejected attempts (6 evaluations of the
    right-hand side per attempt) accepted a step between [facl^k] and
    [max(safe, facl)^k] times the one it tried first. *)
Theorem C11_dp5_rejection_shrinks :
  forall P inf (b : builder (RA inf) P) fuel k0 (s0 s s' : state inf P) r,
  sane_opts (b_opts b) -> 0 < b_dt b -> b_t b < b_tfinal b ->
  build alg b = Ok s0 -> reached alg None fuel k0 s0 s -> rc (i_sol s) = RContinue ->
  step alg None fuel s = Ok (s', r) ->
  exists k, function_evals (i_stats s') = (function_evals (i_stats s) + 6 * (k + 1))%nat /\
    trial_step s * o_facl (b_opts b) ^ k <= i_dtprev s'
      <= trial_step s * Rmax (o_safe (b_opts b)) (o_facl (b_opts b)) ^ k.
Proof. intros P. exact (@dp5_shrink P). Qed.
Print Assumptions C11_dp5_rejection_shrinks.

(** C11 without the restriction on [beta] is false: with [beta = 1] a rejected
    attempt (the loop turn says "not done") is retried with a step 14.4 times
    longer. *)
Theorem C11_dp5_large_beta_refuted :
  forall inf, exists (s0 s1 : state inf unit),
  build alg (b_jump inf) = Ok s0 /\ trial_step s0 = i_dt s0 /\ i_dt s0 = 57600/71 /\
  dp5_attempt s0 = Ok (s1, false) /\ i_dt s1 = 72/5 * i_dt s0.
Proof. exact beta_rejected_step_grows. Qed.
Print Assumptions C11_dp5_large_beta_refuted.

(** C12.  The next step size is between [facl] and [facr] times the last one,
    cut at [dtmax]. *)
Theorem C12_dp5_ratio_limits :
  forall P inf (b : builder (RA inf) P) fuel k0 (s0 s s' : state inf P) r,
  sane_opts (b_opts b) -> o_facl (b_opts b) <= o_facr (b_opts b) ->
  0 < b_dt b -> b_t b < b_tfinal b ->
  build alg b = Ok s0 -> reached alg None fuel k0 s0 s -> rc (i_sol s) = RContinue ->
  step alg None fuel s = Ok (s', r) ->
  Rmin (o_facl (b_opts b) * i_dtprev s') (o_dtmax (b_opts b)) <= i_dt s'
    <= Rmin (o_facr (b_opts b) * i_dtprev s') (o_dtmax (b_opts b)).
Proof. intros P. exact (@dp5_growth P). Qed.
Print Assumptions C12_dp5_ratio_limits.

(** C12.  The documented limit [dtnew/dtold <= 1/facr] is exceeded by every
    step (when [1/facr < facl], as by default, and [dtmax] does not intervene). *)
Theorem C12_dp5_documented_limit_refuted :
  forall P inf (b : builder (RA inf) P) fuel k0 (s0 s s' : state inf P) r,
  sane_opts (b_opts b) -> o_facl (b_opts b) <= o_facr (b_opts b) ->
  / o_facr (b_opts b) < o_facl (b_opts b) ->
  0 < b_dt b -> b_t b < b_tfinal b ->
  build alg b = Ok s0 -> reached alg None fuel k0 s0 s -> rc (i_sol s) = RContinue ->
  step alg None fuel s = Ok (s', r) -> i_dtprev s' / o_facr (b_opts b) < o_dtmax (b_opts b) ->
  0 < i_dtprev s' /\ i_dtprev s' / o_facr (b_opts b) < i_dt s'.
Proof. intros P. exact (@dp5_documented_limits P). Qed.
Print Assumptions C12_dp5_documented_limit_refuted.

Example C11_C12_ex : forall inf, 0 < inf ->
  let b := r_dp5 inf 1 0 1 in
  sane_opts (b_opts b) /\ o_facl (b_opts b) <= o_facr (b_opts b) /\ / o_facr (b_opts b) < o_facl (b_opts b) /\
  0 < b_dt b /\ b_t b < b_tfinal b /\
  exists fuel (s0 s : state inf unit) r, build alg b = Ok s0 /\
    reached alg None fuel 0 s0 s0 /\ rc (i_sol s0) = RContinue /\ step alg None fuel s0 = Ok (s, r).
Proof.
  intros inf H b. split; [now apply default_sane|]. split; [cbn; unfold rlit; lra|].
  split; [cbn; unfold rlit; lra|].
  split; [unfold b; rewrite r_dp5_dt; lra|]. split; [cbn; lra|]. now apply osc_first_step.
Qed.

(** C13. *)
Theorem C13_dp5_times :
  forall P inf (b : builder (RA inf) P) fuel k (s0 s : state inf P),
  sane_opts (b_opts b) -> 0 < b_dt b -> b_t b < b_tfinal b ->
  build alg b = Ok s0 -> reached alg None fuel k s0 s ->
  StronglySorted Rlt (ts (i_sol s)) /\ Forall (fun t => b_t b <= t <= b_tfinal b) (ts (i_sol s)).
Proof. intros P. exact (@dp5_times P). Qed.
Print Assumptions C13_dp5_times.

(** C14. *)
Theorem C14_dp5_success_at_end :
  forall P inf (b : builder (RA inf) P) fuel k (s0 s : state inf P),
  sane_opts (b_opts b) -> 0 < b_dt b -> b_t b < b_tfinal b ->
  build alg b = Ok s0 -> reached alg None fuel k s0 s -> rc (i_sol s) = RSuccess ->
  i_t s = b_tfinal b /\ last_opt (ts (i_sol s)) = Some (b_tfinal b).
Proof. intros P. exact (@dp5_success P). Qed.
Print Assumptions C14_dp5_success_at_end.

Example C14_ex : forall inf, 0 < inf ->
  let b := r_dp5 inf (1/100) 0 (1/1000000) in
  sane_opts (b_opts b) /\ 0 < b_dt b /\ b_t b < b_tfinal b /\
  exists (s0 s : state inf unit), build alg b = Ok s0 /\
  reached alg None 1 1 s0 s /\ rc (i_sol s) = RSuccess.
Proof.
  intros inf H b. split; [now apply default_sane|]. split; [unfold b; rewrite r_dp5_dt; lra|].
  split; [cbn; lra|]. now apply osc_success.
Qed.

(** C15 is false for every backward problem: if the first [step()] returns, it
    has recorded a time on the wrong side of [t0]. *)
Theorem C15_dp5_backward_refuted :
  forall P inf (b : builder (RA inf) P) fuel (s0 s : state inf P) r,
  sane_opts (b_opts b) -> 0 < b_dt b -> b_tfinal b < b_t b ->
  build alg b = Ok s0 -> step alg None fuel s0 = Ok (s, r) ->
  exists t1, ts (i_sol s) = [b_t b; t1] /\ b_t b < t1.
Proof. intros P. exact (@dp5_backward P). Qed.
Print Assumptions C15_dp5_backward_refuted.

Example C15_ex : forall inf, 0 < inf ->
  let b := r_dp5 inf (1/100) 1 0 in
  sane_opts (b_opts b) /\ 0 < b_dt b /\ b_tfinal b < b_t b /\
  exists (s0 s : state inf unit) r, build alg b = Ok s0 /\ step alg None 1 s0 = Ok (s, r).
Proof.
  intros inf H b. split; [now apply default_sane|]. split; [unfold b; rewrite r_dp5_dt; lra|].
  split; [cbn; lra|]. now apply osc_backward.
Qed.

(** C16. *)
Theorem C16_dp5_dtmax :
  forall P inf (b : builder (RA inf) P) fuel k (s0 s : state inf P),
  sane_opts (b_opts b) -> 0 < b_dt b -> b_t b < b_tfinal b ->
  build alg b = Ok s0 -> reached alg None fuel k s0 s ->
  Forall (fun g => g < 101/100 * o_dtmax (b_opts b)) (tl (gaps (ts (i_sol s)))) /\
  (forall g, hd_error (gaps (ts (i_sol s))) = Some g -> g < 101/100 * b_dt b).
Proof. intros P. exact (@dp5_dtmax P). Qed.
Print Assumptions C16_dp5_dtmax.

(** C16.  The literal claim is false: a first step ten times [dtmax]. *)
Theorem C16_dp5_literal_refuted :
  forall inf, 0 < inf -> exists (s0 s : state inf unit),
  let b := set_dtmax (1/10000000 : num (RA inf)) (r_dp5 inf (1/100) 0 1) in
  sane_opts (b_opts b) /\ build alg b = Ok s0 /\ reached alg None 1 1 s0 s /\
  hd_error (gaps (ts (i_sol s))) = Some (1/1000000) /\ 1/1000000 = 10 * o_dtmax (b_opts b).
Proof. intros inf _. exact (first_step_exceeds_dtmax inf). Qed.
Print Assumptions C16_dp5_literal_refuted.

(** C17. *)
Theorem C17_dp5_recorded_points :
  forall P inf (b : builder (RA inf) P) fuel k (s0 s : state inf P),
  overwrites (b_dudt b) -> b_u b <> [] -> 0 < o_abstol (b_opts b) -> 0 <= o_reltol (b_opts b) ->
  build alg b = Ok s0 -> steps_n alg None fuel k s0 = Ok s ->
  hd_error (points s) = Some (b_t b, b_u b) /\
  linked (error_test (b_dudt b) (b_params b) (o_abstol (b_opts b)) (o_reltol (b_opts b))) (points s).
Proof. intros P. exact (@dp5_every_point P). Qed.
Print Assumptions C17_dp5_recorded_points.

(** C20. *)
Theorem C20_dp5_rhs_inside_span :
  forall P inf (b : builder (RA inf) P) fuel k (s0 s : state inf P),
  sane_opts (b_opts b) -> 0 < b_dt b -> b_t b < b_tfinal b ->
  build alg b = Ok s0 -> reached alg None fuel k s0 s ->
  Forall (fun e => b_t b <= ev_time e <= b_tfinal b) (i_trace s).
Proof. intros P. exact (@dp5_span P). Qed.
Print Assumptions C20_dp5_rhs_inside_span.

Example C13_C16_C20_ex : forall inf, 0 < inf ->
  let b := r_dp5 inf 1 0 1 in
  sane_opts (b_opts b) /\ 0 < b_dt b /\ b_t b < b_tfinal b /\
  exists fuel k (s0 s : state inf unit), build alg b = Ok s0 /\ reached alg None fuel (S k) s0 s.
Proof.
  intros inf H b. split; [now apply default_sane|]. split; [unfold b; rewrite r_dp5_dt; lra|].
  split; [cbn; lra|]. now apply osc_reached.
Qed.

(** C21.  After a callback that replaced [u], the next step starts from the new
    [u] but uses, as first slope, the right-hand side at the point recorded
    before the callback ran. *)
Theorem C21_dp5_callback_first_slope :
  forall P inf (b : builder (RA inf) P) (g : state inf P -> list R) fuel k (s0 s s' : state inf P) r,
  let cb := Some (fun s : state inf P => s <| i_u := (g s : vec (RA inf)) |>) in
  let F := ode (b_dudt b) (b_params b) in
  overwrites (b_dudt b) ->
  build alg b = Ok s0 -> steps_n alg cb fuel k s0 = Ok s -> step alg cb fuel s = Ok (s', r) ->
  exists u_recorded u_next h,
    last_opt (us (i_sol s)) = Some u_recorded /\ last_opt (us (i_sol s')) = Some u_next /\
    i_t s' = i_t s + h /\
    u_next = combine_stages (i_u s) h dopri_b
      (slopes F (i_t s) (i_u s) h (tl dopri_rows) [F (i_t s) u_recorded]).
Proof. intros P. exact (@dp5_callback_stale P). Qed.
Print Assumptions C21_dp5_callback_first_slope.

(** C21 is false (in f64): the step after the callback differs from the step of
    an integrator built at the point the callback left. *)
Theorem C21_dp5_callback_restart_refuted : exists s0 s s2 f0 f1 r r',
  build dp5x (x_rej (x 1 10)) = Ok s0 /\ steps_n dp5x (Some x_jump) 10 1 s0 = Ok s /\
  step dp5x (Some x_jump) 10 s = Ok (s2, r) /\
  build dp5x ((x_rej (x 1 10)) <| b_u := i_u s |> <| b_t := i_t s |> <| b_dt := i_dt s |>) = Ok f0 /\
  step dp5x None 10 f0 = Ok (f1, r') /\
  i_t s2 = i_t f1 /\ last_opt (us (i_sol s2)) <> last_opt (us (i_sol f1)).
Proof. exact callback_stale_ex. Qed.
Print Assumptions C21_dp5_callback_restart_refuted.

(** C23.  Order conditions: order five for the propagated solution (and not
    six), order four for the embedded one (and not five); the abscissae are the
    row sums. *)
Theorem C23_dp5_order :
  (forall t, (order t <= 5)%nat -> condition dopri_rows dopri_b 1 t) /\
  (exists t, order t = 6%nat /\ ~ condition dopri_rows dopri_b 1 t) /\
  (forall t, (order t <= 4)%nat -> condition dopri_rows dopri_bhat 1 t) /\
  (exists t, order t = 5%nat /\ ~ condition dopri_rows dopri_bhat 1 t) /\
  Forall (fun row => fst row = wsum (snd row) (repeat 1 (length (snd row)))) dopri_rows.
Proof.
  exact (conj dopri_order5 (conj dopri_not_order6 (conj dopri_embedded4 (conj dopri_embedded_not5 dopri_row_sums)))).
Qed.
Print Assumptions C23_dp5_order.

(** C23.  On a linear system [u' = M u] every recorded transition is
    [u + h M u + ... + h^5/5! M^5 u + h^6/600 M^6 u]. *)
Theorem C23_dp5_linear_system :
  forall P inf (b : builder (RA inf) P) (M : nat -> nat -> R) fuel k (s0 s : state inf P),
  let n := length (b_u b) in
  (forall d u t i, (i < n)%nat -> length u = n ->
     b_dudt b d u t (b_params b) i = rsum n (fun j => M i j * comp u j)) ->
  overwrites (b_dudt b) ->
  build alg b = Ok s0 -> steps_n alg None fuel k s0 = Ok s ->
  linked (fun x y => exists h, fst y = fst x + h /\ forall i, (i < n)%nat ->
     comp (snd y) i = krylov n M [1; h; h^2/2; h^3/6; h^4/24; h^5/120; h^6/600] 0 (snd x) i) (points s).
Proof. intros P. exact (@dp5_linear_system P). Qed.
Print Assumptions C23_dp5_linear_system.

(** C24. *)
Theorem C24_dp5_dense_output :
  forall P inf (b : builder (RA inf) P) fuel k (s0 s : state inf P),
  overwrites (b_dudt b) -> o_dense (b_opts b) = true ->
  sane_opts (b_opts b) -> 0 < b_dt b -> b_t b < b_tfinal b ->
  build alg b = Ok s0 -> reached alg None fuel (S k) s0 s ->
  let h := i_dtprev s in
  let F := ode (b_dudt b) (b_params b) in
  0 < h /\ i_t s = i_tprev s + h /\
  dense_output s (i_tprev s) h = i_uprev s /\
  dense_output s (i_t s) h = i_u s /\
  (forall i, (i < length (b_u b))%nat ->
    derivable_pt_lim (fun t => comp (dense_output s t h) i) (i_tprev s) (comp (F (i_tprev s) (i_uprev s)) i) /\
    derivable_pt_lim (fun t => comp (dense_output s t h) i) (i_t s) (comp (F (i_t s) (i_u s)) i)) /\
  (forall t, dense_output s t h =
     combine_stages (i_uprev s) h (dopri_dense ((t - i_tprev s) / h))
       (slopes F (i_tprev s) (i_uprev s) h dopri_rows [])).
Proof. intros P. exact (@dp5_dense P). Qed.
Print Assumptions C24_dp5_dense_output.

(** C24.  The weights of the continuous extension satisfy the conditions of
    order four at every point of the step. *)
Theorem C24_dp5_dense_order :
  forall theta t, (order t <= 4)%nat -> condition dopri_rows (dopri_dense theta) theta t.
Proof. exact dopri_dense4. Qed.
Print Assumptions C24_dp5_dense_order.

(** C41. *)
Theorem C41_dp5_linear_invariants :
  forall P inf (b : builder (RA inf) P) (w : nat -> R) fuel k (s0 s : state inf P),
  let n := length (b_u b) in
  overwrites (b_dudt b) ->
  (forall d u t, length d = n -> length u = n ->
     rsum n (fun i => w i * b_dudt b d u t (b_params b) i) = 0) ->
  build alg b = Ok s0 -> steps_n alg None fuel k s0 = Ok s ->
  forall u, In u (us (i_sol s)) ->
    rsum n (fun i => w i * comp u i) = rsum n (fun i => w i * comp (b_u b) i).
Proof. intros P. exact (@dp5_linear_invariant P). Qed.
Print Assumptions C41_dp5_linear_invariants.

(** C42. *)
Theorem C42_dp5_quadrature :
  forall P inf (b : builder (RA inf) P) (a : nat -> nat -> R) fuel k (s0 s : state inf P),
  (forall d u t i, b_dudt b d u t (b_params b) i = poly4 (a i) t) ->
  overwrites (b_dudt b) ->
  build alg b = Ok s0 -> steps_n alg None fuel k s0 = Ok s ->
  forall t u, In (t, u) (points s) -> forall i, (i < length (b_u b))%nat ->
    comp u i = comp (b_u b) i + (poly4_int (a i) t - poly4_int (a i) (b_t b)).
Proof. intros P. exact (@dp5_quadrature P). Qed.
Print Assumptions C42_dp5_quadrature.

(** The oscillator is a linear system whose run over [0,1] exists (C17, C21,
    C23, C24). *)
Example C17_C23_ex : forall inf, 0 < inf ->
  let b := r_dp5 inf 1 0 1 in
  overwrites (b_dudt b) /\ b_u b <> [] /\ 0 < o_abstol (b_opts b) /\ 0 <= o_reltol (b_opts b) /\
  (forall d u t i, (i < 2)%nat -> length u = 2%nat ->
     b_dudt b d u t (b_params b) i =
     rsum 2 (fun j => (if Nat.eqb i j then 0 else if Nat.eqb i 0 then 1 else -1) * comp u j)) /\
  exists fuel k (s0 s : state inf unit), build alg b = Ok s0 /\ steps_n alg None fuel (S k) s0 = Ok s.
Proof.
  intros inf H b. split; [apply r_osc_overwrites|]. split; [discriminate|].
  split; [unfold b; rewrite r_dp5_atol; lra|]. split; [unfold b; rewrite r_dp5_rtol; lra|].
  split; [|now apply osc_steps].
  intros d u t i Hi _. destruct i as [|[|i]]; cbn; [lra|lra|].
  exfalso. apply (PeanoNat.Nat.nlt_0_r i). now do 2 apply PeanoNat.Nat.succ_lt_mono.
Qed.

(** A run with dense output of [u0' = t^2], [u1' = -t^2] (C24, C41, C42). *)
Example C24_C41_C42_ex : forall inf, 0 < inf ->
  let b := b_quad inf in
  overwrites (b_dudt b) /\
  (forall d u t i, b_dudt b d u t (b_params b) i =
     poly4 (fun j => if Nat.eqb j 2 then (if Nat.eqb i 0 then 1 else -1) else 0) t) /\
  (forall d u t, rsum 2 (fun i => 1 * b_dudt b d u t (b_params b) i) = 0) /\
  sane_opts (b_opts b) /\ 0 < b_dt b /\ b_t b < b_tfinal b /\ o_dense (b_opts b) = true /\
  exists fuel k (s0 s : state inf unit), build alg b = Ok s0 /\ reached alg None fuel (S k) s0 s.
Proof.
  intros inf H b. split; [apply r_quad_overwrites|]. split; [reflexivity|].
  split; [|now apply quad_reached].
  intros d u t. unfold rsum. cbn [seq map fold_right]. cbn [b_dudt b_quad b set_dense builder_default].
  change (b_dudt b) with (r_quad inf). unfold r_quad, poly4. cbn [Nat.eqb]. ring.
Qed.
