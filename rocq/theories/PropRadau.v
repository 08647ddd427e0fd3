(** Properties of Radau5 that hold in every arithmetic (in particular in f64
    with NaN and infinities). *)
From Coq Require Import ZArith List Bool Lia.
From RecordUpdate Require Import RecordSet.
From Verif Require Import Arith Vec Core Spec Linalg Radau RadauHist RadauSim RadauMore Examples RadauEx.
Import ListNotations RecordSetNotations.

(** C01.  After [build()] and [k] calls of [step()], whatever they returned. *)
Theorem C01_radau_recorded_solution :
  forall A P (b : builder A P) (cb : callback A P (radau_cache A)) fuel k s0 s,
  benign_callback cb ->
  build Radau5 b = Ok s0 -> steps_n Radau5 cb fuel k s0 = Ok s ->
  length (ts (i_sol s)) = length (us (i_sol s)) /\
  length (ts (i_sol s)) = S (accepts (i_stats s)) /\
  hd_error (ts (i_sol s)) = Some (b_t b) /\ hd_error (us (i_sol s)) = Some (b_u b) /\
  Forall (fun u => length u = length (b_u b)) (us (i_sol s)).
Proof. exact @radau_recorded_wf. Qed.
Print Assumptions C01_radau_recorded_solution.

Theorem C01_radau_history_only_grows :
  forall A P (cb : callback A P (radau_cache A)) fuel k s s',
  benign_callback cb -> steps_n Radau5 cb fuel k s = Ok s' ->
  extends (ts (i_sol s)) (ts (i_sol s')) /\ extends (us (i_sol s)) (us (i_sol s')).
Proof. exact @radau_history_extends. Qed.
Print Assumptions C01_radau_history_only_grows.

Theorem C01_radau_last_is_current :
  forall A P (b : builder A P) fuel k s0 s,
  build Radau5 b = Ok s0 -> steps_n Radau5 None fuel k s0 = Ok s ->
  last_opt (ts (i_sol s)) = Some (i_t s) /\ last_opt (us (i_sol s)) = Some (i_u s).
Proof. exact @radau_current_is_last. Qed.
Print Assumptions C01_radau_last_is_current.

(** C01.  One point per call that did not end in an error. *)
Theorem C01_radau_number_of_points :
  forall A P (b : builder A P) (cb : callback A P (radau_cache A)) fuel k s0 s,
  benign_callback cb -> build Radau5 b = Ok s0 -> reached Radau5 cb fuel k s0 s ->
  (rc (i_sol s) = RContinue \/ rc (i_sol s) = RSuccess -> length (ts (i_sol s)) = S k) /\
  (rc (i_sol s) <> RContinue -> rc (i_sol s) <> RSuccess -> length (ts (i_sol s)) = k).
Proof. exact @radau_points_count. Qed.
Print Assumptions C01_radau_number_of_points.

(** A run with four accepted and one rejected attempt meets the hypotheses of
    the theorems of this file about histories (C01, C06, C19, C45). *)
Example C01_radau_ex : benign_callback (@None (integ XG unit (radau_cache XG) -> _)) /\
  exists s0 s, build (@Radau5 XG unit) x_rad3 = Ok s0 /\ steps_n (@Radau5 XG unit) None 60 4 s0 = Ok s /\
  rc (i_sol s) = RContinue /\ accepts (i_stats s) = 4 /\ steps (i_stats s) = 5 /\
  rhs_calls (i_trace s) > function_evals (i_stats s) + 1 /\ jac_calls (i_trace s) = 2.
Proof. exact (conj no_callback_benign radau_run_ex). Qed.

(** C04.  Iterating over a Radau5 integrator that ends with [Success] drops the
    last recorded point; after an error it yields all of them. *)
Theorem C04_radau_iteration_partial :
  forall A P (b : builder A P) fuel fuel2 s0 s items,
  build Radau5 b = Ok s0 -> iter_collect Radau5 None fuel fuel2 s0 = Ok (s, items) ->
  (rc (i_sol s) = RSuccess -> points s = (b_t b, b_u b) :: items ++ [(i_t s, i_u s)]) /\
  (rc (i_sol s) <> RSuccess -> points s = (b_t b, b_u b) :: items).
Proof. exact @radau_iter_items. Qed.
Print Assumptions C04_radau_iteration_partial.

Example C04_radau_ex : exists s0 s items,
  build (@Radau5 XG unit) x_rad = Ok s0 /\ iter_collect (@Radau5 XG unit) None 60 100 s0 = Ok (s, items) /\
  length items = 1 /\ length (points s) = 3 /\ rc (i_sol s) = RSuccess.
Proof. exact radau_iter_ex. Qed.

(** C06. *)
Theorem C06_radau_return_codes :
  forall A P (b : builder A P) (cb : callback A P (radau_cache A)) fuel k s0 s,
  benign_callback cb -> build Radau5 b = Ok s0 -> steps_n Radau5 cb fuel k s0 = Ok s ->
  rc (i_sol s) = RContinue \/ rc (i_sol s) = RSuccess \/ rc (i_sol s) = RMaxIters \/
  rc (i_sol s) = RDtLessThanMin \/ rc (i_sol s) = RSingularMatrix.
Proof. exact @radau_retcodes. Qed.
Print Assumptions C06_radau_return_codes.

(** C08.  [step()] returns: [max_steps + max_newt_iter + 5] turns of each loop
    are enough from every state of every run, and more do not change the
    result. *)
Theorem C08_radau_step_returns :
  forall A P (b : builder A P) (cb : callback A P (radau_cache A)) fuel k s0 s,
  benign_callback cb -> b_u b <> [] -> build Radau5 b = Ok s0 -> steps_n Radau5 cb fuel k s0 = Ok s ->
  o_max_steps (b_opts b) + o_max_newt_iter (b_opts b) + 5 <= fuel ->
  exists s' r, step Radau5 cb fuel s = Ok (s', r) /\
    forall fuel', fuel <= fuel' -> step Radau5 cb fuel' s = Ok (s', r).
Proof. exact @radau_step_returns. Qed.
Print Assumptions C08_radau_step_returns.

(** C08.  [integrate()] returns, after at most [max_steps] calls (one if
    [max_steps] is 0), with a code other than [Continue]. *)
Theorem C08_radau_integrate_returns :
  forall A P (b : builder A P) (cb : callback A P (radau_cache A)) fuel fuel2 s0,
  benign_callback cb -> b_u b <> [] -> build Radau5 b = Ok s0 ->
  o_max_steps (b_opts b) + o_max_newt_iter (b_opts b) + 5 <= fuel ->
  max 1 (o_max_steps (b_opts b)) <= fuel2 ->
  exists s, integrate Radau5 cb fuel fuel2 s0 = Ok s /\ rc (i_sol s) <> RContinue /\
    steps (i_stats s) <= max 1 (o_max_steps (b_opts b)).
Proof. exact @radau_integrate_returns. Qed.
Print Assumptions C08_radau_integrate_returns.

(** C08.  [MaxIters] is reported exactly at the budget. *)
Theorem C08_radau_max_iters :
  forall A P (b : builder A P) (cb : callback A P (radau_cache A)) fuel fuel2 s0 s,
  benign_callback cb -> build Radau5 b = Ok s0 -> integrate Radau5 cb fuel fuel2 s0 = Ok s ->
  steps (i_stats s) <= max 1 (o_max_steps (b_opts b)) /\
  (rc (i_sol s) = RMaxIters -> steps (i_stats s) = max 1 (o_max_steps (b_opts b))).
Proof. exact @radau_final_steps. Qed.
Print Assumptions C08_radau_max_iters.

Example C08_radau_ex : exists s0 s,
  build (@Radau5 XG unit) (set_max_steps 3 x_rad3) = Ok s0 /\ integrate (@Radau5 XG unit) None 15 3 s0 = Ok s /\
  rc (i_sol s) = RMaxIters /\ steps (i_stats s) = 3.
Proof. exact radau_maxiters_ex. Qed.

(** C18, C22.  However many attempts a call rejects: either one point is
    recorded, reached from the point where the call started by a step of
    [dtprev], or (with an error code) nothing is touched. *)
Theorem C18_radau_one_point_per_call :
  forall A P (b : builder A P) fuel k s0 s s' r,
  build Radau5 b = Ok s0 -> continues Radau5 None fuel k s0 s -> step Radau5 None fuel s = Ok (s', r) ->
  ((rc (i_sol s') = RContinue \/ rc (i_sol s') = RSuccess) /\
   ts (i_sol s') = ts (i_sol s) ++ [i_t s'] /\ us (i_sol s') = us (i_sol s) ++ [i_u s'] /\
   i_tprev s' = i_t s /\ i_t s' = add A (i_tprev s') (i_dtprev s')) \/
  ((rc (i_sol s') = RMaxIters \/ rc (i_sol s') = RDtLessThanMin \/ rc (i_sol s') = RSingularMatrix) /\
   ts (i_sol s') = ts (i_sol s) /\ us (i_sol s') = us (i_sol s) /\
   i_t s' = i_t s /\ i_u s' = i_u s /\ i_tprev s' = i_tprev s).
Proof. exact @radau_call_outcome. Qed.
Print Assumptions C18_radau_one_point_per_call.

(** C19.  [function_evals] counts only the evaluations inside Newton's
    iteration and the error estimate: it misses the one of [build()] and
    [n + 1] for each finite-difference Jacobian; [jacobian_evals] stays 0. *)
Theorem C19_radau_counters_partial :
  forall A P (b : builder A P) (cb : callback A P (radau_cache A)) fuel k s0 s,
  benign_callback cb -> (forall x, i_dfdu (run_callback cb x) = i_dfdu x) ->
  build Radau5 b = Ok s0 -> steps_n Radau5 cb fuel k s0 = Ok s ->
  rhs_calls (i_trace s) = function_evals (i_stats s) + 1 +
    match b_dfdu b with Some _ => 0 | None => S (length (b_u b)) end * jac_calls (i_trace s) /\
  jacobian_evals (i_stats s) = 0.
Proof. exact @radau_counters. Qed.
Print Assumptions C19_radau_counters_partial.

Theorem C19_radau_function_evals_refuted :
  forall A P (b : builder A P) (cb : callback A P (radau_cache A)) fuel k s0 s,
  benign_callback cb -> (forall x, i_dfdu (run_callback cb x) = i_dfdu x) ->
  build Radau5 b = Ok s0 -> steps_n Radau5 cb fuel k s0 = Ok s ->
  function_evals (i_stats s) < rhs_calls (i_trace s).
Proof. exact @radau_evals_refuted. Qed.
Print Assumptions C19_radau_function_evals_refuted.

Theorem C19_radau_jacobian_evals_refuted :
  forall A P (b : builder A P) s0, build Radau5 b = Ok s0 ->
  jac_calls (i_trace s0) = 1 /\ jacobian_evals (i_stats s0) = 0.
Proof. exact @radau_build_jacobian. Qed.
Print Assumptions C19_radau_jacobian_evals_refuted.

(** C22.  For [tprev] and [t = tprev + dtprev] see
    [C18_radau_one_point_per_call]; [uprev] is never updated. *)
Theorem C22_radau_uprev_is_initial :
  forall A P (b : builder A P) fuel k s0 s,
  build Radau5 b = Ok s0 -> steps_n Radau5 None fuel k s0 = Ok s -> i_uprev s = b_u b.
Proof. exact @radau_uprev. Qed.
Print Assumptions C22_radau_uprev_is_initial.

Theorem C22_radau_uprev_refuted : exists s0 s s' r r',
  build (@Radau5 XG unit) x_rad3 = Ok s0 /\ step (@Radau5 XG unit) None 60 s0 = Ok (s, r) /\
  step (@Radau5 XG unit) None 60 s = Ok (s', r') /\ rc (i_sol s') = RContinue /\ i_uprev s' <> i_u s.
Proof. exact radau_uprev_ex. Qed.
Print Assumptions C22_radau_uprev_refuted.

(** C29. *)
Theorem C29_radau_no_panic :
  forall A P (b : builder A P) (cb : callback A P (radau_cache A)) fuel k s0,
  benign_callback cb -> b_u b <> [] -> build Radau5 b = Ok s0 ->
  steps_n Radau5 cb fuel k s0 <> Panic /\ integrate Radau5 cb fuel k s0 <> Panic.
Proof. exact @radau_never_panics. Qed.
Print Assumptions C29_radau_no_panic.

Theorem C29_radau_build_ok : forall A P (b : builder A P), exists s, build Radau5 b = Ok s.
Proof. exact @radau_build_ok. Qed.
Print Assumptions C29_radau_build_ok.

(** C29.  Every problem of dimension 0 panics in its first [step()]. *)
Theorem C29_radau_dimension_zero_refuted :
  forall A P (b : builder A P) (cb : callback A P (radau_cache A)) fuel s0,
  b_u b = [] -> build Radau5 b = Ok s0 -> step Radau5 cb (S fuel) s0 = Panic.
Proof. exact @radau_dim0. Qed.
Print Assumptions C29_radau_dimension_zero_refuted.

(** C34.  What [build()] does to the options: [reltol], [abstol] and a
    non-positive [fnewt] are replaced, everything else is kept. *)
Theorem C34_radau_options_after_build :
  forall A P (b : builder A P) s0, build Radau5 b = Ok s0 ->
  let o := b_opts b in let o' := i_opts s0 in
  o_reltol o' = mul A (lit A 1 10) (powf A (o_reltol o) (div A (lit A 2 1) (lit A 3 1))) /\
  o_abstol o' = mul A (o_reltol o') (div A (o_abstol o) (o_reltol o)) /\
  (leb A (o_fnewt o) n0 = false -> o_fnewt o' = o_fnewt o) /\
  (leb A (o_fnewt o) n0 = true ->
   o_fnewt o' = nmax A (div A (mul A (lit A 10 1) (eps A)) (o_reltol o')) (nmin A (lit A 3 100) (nsqrt A (o_reltol o')))) /\
  o' = o <| o_reltol := o_reltol o' |> <| o_abstol := o_abstol o' |> <| o_fnewt := o_fnewt o' |>.
Proof. exact @radau_build_opts. Qed.
Print Assumptions C34_radau_options_after_build.

(** C37.  A finished Radau5 integrator changes its code from [Success] to
    [DtLessThanMin] when stepped again. *)
Theorem C37_radau_finished_refuted : exists s0 s s' r,
  build (@Radau5 XG unit) x_rad = Ok s0 /\ integrate (@Radau5 XG unit) None 60 10 s0 = Ok s /\
  rc (i_sol s) = RSuccess /\ step (@Radau5 XG unit) None 60 s = Ok (s', r) /\ rc (i_sol s') = RDtLessThanMin.
Proof. exact radau_finished_ex. Qed.
Print Assumptions C37_radau_finished_refuted.

(** C39.  Neither [dtstart] nor [hess] has any influence on a Radau5 run. *)
Theorem C39_radau_dtstart_hess_ignored_refuted :
  forall A P (b : builder A P) v h fuel k s s',
  build Radau5 b = Ok s -> build Radau5 (set_dtstart v (set_hess h b)) = Ok s' ->
  same_outcome same_results (steps_n Radau5 None fuel k s) (steps_n Radau5 None fuel k s') /\
  same_outcome same_results (integrate Radau5 None fuel k s) (integrate Radau5 None fuel k s').
Proof. exact @radau_dtstart_hess. Qed.
Print Assumptions C39_radau_dtstart_hess_ignored_refuted.

(** C39.  All the inputs Radau5 ignores, at once. *)
Theorem C39_radau_ignored_inputs :
  forall A P (b b' : builder A P) fuel k s s',
  b' = b <| b_dfdt := b_dfdt b' |> <| b_opts := b_opts b' |> ->
  (let o := b_opts b in
   exists dense dtstart max_stiff hess beta,
   b_opts b' = o <| o_dense := dense |> <| o_dtstart := dtstart |> <| o_max_stiff := max_stiff |>
                 <| o_hess := hess |> <| o_beta := beta |>) ->
  build Radau5 b = Ok s -> build Radau5 b' = Ok s' ->
  same_outcome same_results (steps_n Radau5 None fuel k s) (steps_n Radau5 None fuel k s') /\
  same_outcome same_results (integrate Radau5 None fuel k s) (integrate Radau5 None fuel k s').
Proof. exact @radau_ignored_opts. Qed.
Print Assumptions C39_radau_ignored_inputs.

(** C40. *)
Theorem C40_radau_stiffness_and_dense_do_not_perturb :
  forall A P (b : builder A P) m d fuel k s s',
  build Radau5 b = Ok s -> build Radau5 (set_max_stiff m (set_dense d b)) = Ok s' ->
  same_outcome same_results (steps_n Radau5 None fuel k s) (steps_n Radau5 None fuel k s') /\
  same_outcome same_results (integrate Radau5 None fuel k s) (integrate Radau5 None fuel k s').
Proof. exact @radau_stiff_dense. Qed.
Print Assumptions C40_radau_stiffness_and_dense_do_not_perturb.

(** C44.  For right-hand sides that assign every component the results do not
    depend on what the buffers hold: presetting every buffer to anything
    changes nothing. *)
Theorem C44_radau_buffer_contents_do_not_matter :
  forall A P (b : builder A P) (preset : vec A -> vec A) fuel k s s',
  overwrites (b_dudt b) -> (forall d, length (preset d) = length d) ->
  build Radau5 b = Ok s -> build Radau5 (b <| b_dudt := fun d => b_dudt b (preset d) |>) = Ok s' ->
  same_outcome same_numbers (steps_n Radau5 None fuel k s) (steps_n Radau5 None fuel k s') /\
  same_outcome same_numbers (integrate Radau5 None fuel k s) (integrate Radau5 None fuel k s').
Proof. exact @radau_preset. Qed.
Print Assumptions C44_radau_buffer_contents_do_not_matter.

Example C44_radau_ex : overwrites (b_dudt x_rad3).
Proof. exact oscG_overwrites. Qed.

Theorem C44_radau_buffers_not_cleared_refuted :
  (forall u t n, call_rhs accG (zeros n) u t tt = call_rhs oneG (zeros n) u t tt) /\
  exists s a s' a',
  build (@Radau5 XG unit) (x_bufG oneG) = Ok s /\ build (@Radau5 XG unit) (x_bufG accG) = Ok a /\
  steps_n (@Radau5 XG unit) None 20 1 s = Ok s' /\ steps_n (@Radau5 XG unit) None 20 1 a = Ok a' /\
  i_u s' <> i_u a'.
Proof. exact (conj accG_oneG_fresh radau_buffers_ex). Qed.
Print Assumptions C44_radau_buffers_not_cleared_refuted.

(** C45. *)
Theorem C45_radau_problem_data_kept :
  forall A P (b : builder A P) fuel k s0 s,
  build Radau5 b = Ok s0 -> steps_n Radau5 None fuel k s0 = Ok s ->
  i_dudt s = b_dudt b /\ i_dfdu s = b_dfdu b /\ i_dfdt s = b_dfdt b /\ i_params s = b_params b /\
  i_tfinal s = b_tfinal b /\ i_opts s = i_opts s0 /\
  i_tdir s = copysign A n1 (sub A (b_tfinal b) (b_t b)).
Proof. exact @radau_frame_form. Qed.
Print Assumptions C45_radau_problem_data_kept.

(** C47.  One round of decompositions: it fails exactly when the real or the
    complex matrix [gamma/dt I - J] is found singular; a failure halves the
    step until the fifth, which sets the code. *)
Theorem C47_radau_one_decomposition :
  forall A P (s s' : integ A P (radau_cache A)) ok, perform_decompositions s = Ok (s', ok) ->
  (exists ier m ip, dec (length (e1 (i_cache s)))
       (msub (scaled_eye (length (e1 (i_cache s))) (div A rU1 (i_dt s))) (dfdu (i_cache s)))
       (ip1 (i_cache s)) = Ok (ier, m, ip) /\
   (ier <> 0 -> ok = false) /\
   (ier = 0 -> exists ier2 mr mi ip', decc (length (e2r (i_cache s)))
      (msub (scaled_eye (length (e2r (i_cache s))) (div A rALPHA (i_dt s))) (dfdu (i_cache s)))
      (scaled_eye (length (e2r (i_cache s))) (div A rBETA (i_dt s))) (ip2 (i_cache s)) = Ok (ier2, mr, mi, ip') /\
      (ok = true <-> ier2 = 0))) /\
  (ok = true -> nsing (i_cache s') = nsing (i_cache s) /\ i_dt s' = i_dt s /\ rc (i_sol s') = rc (i_sol s)) /\
  (ok = false -> nsing (i_cache s') = S (nsing (i_cache s)) /\
     (nsing (i_cache s') < 5 -> i_dt s' = mul A (i_dt s) (lit A 1 2) /\ rc (i_sol s') = rc (i_sol s)) /\
     (5 <= nsing (i_cache s') -> i_dt s' = i_dt s /\ rc (i_sol s') = RSingularMatrix)).
Proof. exact @radau_one_decomposition. Qed.
Print Assumptions C47_radau_one_decomposition.

(** C47.  Over a whole run, [SingularMatrix] is reported exactly when five
    rounds of decompositions have failed since [build()] ([run_failures] counts
    them call by call), and never more than five do. *)
Theorem C47_radau_singular_after_five :
  forall A P (b : builder A P) fuel k s0 s,
  build Radau5 b = Ok s0 -> reached Radau5 None fuel k s0 s ->
  run_failures fuel k s0 <= 5 /\ (rc (i_sol s) = RSingularMatrix <-> run_failures fuel k s0 = 5).
Proof. exact @radau_singular. Qed.
Print Assumptions C47_radau_singular_after_five.

Example C47_radau_ex : exists s0 s,
  build (@Radau5 XG unit) x_singG = Ok s0 /\ reached (@Radau5 XG unit) None 20 1 s0 s /\
  rc (i_sol s) = RSingularMatrix.
Proof. exact radau_singular_ex. Qed.
