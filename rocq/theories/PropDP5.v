(** Properties of DormandPrince5 that hold in every arithmetic (in particular
    in f64 with NaN and infinities). *)
From Coq Require Import ZArith List Bool Lia.
From RecordUpdate Require Import RecordSet.
From Verif Require Import Arith Vec Core Spec SpecBuf DP5 DP5Inv DP5Det DP5Iter DP5Preset Examples DP5Ex.
Import ListNotations RecordSetNotations.

(** C01.  After [build()] and [k] calls of [step()] (whatever they returned),
    with any callback that leaves the recorded solution alone. *)
Theorem C01_dp5_recorded_solution :
  forall A P (b : builder A P) (cb : callback A P (dp5_cache A)) fuel k s0 s,
  benign_callback cb ->
  build DormandPrince5 b = Ok s0 -> steps_n DormandPrince5 cb fuel k s0 = Ok s ->
  length (ts (i_sol s)) = length (us (i_sol s)) /\
  length (ts (i_sol s)) = S k /\
  hd_error (ts (i_sol s)) = Some (b_t b) /\ hd_error (us (i_sol s)) = Some (b_u b) /\
  Forall (fun u => length u = length (b_u b)) (us (i_sol s)).
Proof. exact @dp5_recorded_wf. Qed.
Print Assumptions C01_dp5_recorded_solution.

(** C01.  Earlier entries are never altered, removed or reordered. *)
Theorem C01_dp5_history_only_grows :
  forall A P (cb : callback A P (dp5_cache A)) fuel k s s',
  benign_callback cb -> steps_n DormandPrince5 cb fuel k s = Ok s' ->
  extends (ts (i_sol s)) (ts (i_sol s')) /\ extends (us (i_sol s)) (us (i_sol s')).
Proof. exact @dp5_history_extends. Qed.
Print Assumptions C01_dp5_history_only_grows.

(** C01.  Without a callback the last recorded point is the current one. *)
Theorem C01_dp5_last_is_current :
  forall A P (b : builder A P) fuel k s0 s,
  build DormandPrince5 b = Ok s0 -> steps_n DormandPrince5 None fuel k s0 = Ok s ->
  last_opt (ts (i_sol s)) = Some (i_t s) /\ last_opt (us (i_sol s)) = Some (i_u s).
Proof. exact @dp5_current_is_last. Qed.
Print Assumptions C01_dp5_last_is_current.

Example C01_ex : benign_callback (@None (integ XF unit (dp5_cache XF) -> _)) /\
  exists s0 s, build (@DormandPrince5 XF unit) x_dp5 = Ok s0 /\
    steps_n (@DormandPrince5 XF unit) None 10 3 s0 = Ok s /\ rc (i_sol s) = RContinue.
Proof. split; [exact no_callback_benign|exact dp5_three_steps]. Qed.

(** C06. *)
Theorem C06_dp5_return_codes :
  forall A P (b : builder A P) (cb : callback A P (dp5_cache A)) fuel k s0 s,
  benign_callback cb ->
  build DormandPrince5 b = Ok s0 -> steps_n DormandPrince5 cb fuel k s0 = Ok s ->
  rc (i_sol s) = RContinue \/ rc (i_sol s) = RSuccess \/ rc (i_sol s) = RMaxIters \/
  rc (i_sol s) = RDtLessThanMin.
Proof. exact @dp5_retcodes. Qed.
Print Assumptions C06_dp5_return_codes.

(** C07.  At most [max_steps] calls of [step()] return [Some]. *)
Theorem C07_dp5_budget :
  forall A P (b : builder A P) (cb : callback A P (dp5_cache A)) fuel k s0 s,
  benign_callback cb ->
  build DormandPrince5 b = Ok s0 -> continues DormandPrince5 cb fuel k s0 s ->
  k <= o_max_steps (b_opts b).
Proof. exact @dp5_budget. Qed.
Print Assumptions C07_dp5_budget.

(** C07.  A finished run accepted at most [max_steps + 1] steps, and exactly
    that many when it reports [MaxIters]. *)
Theorem C07_dp5_final_steps :
  forall A P (b : builder A P) (cb : callback A P (dp5_cache A)) fuel fuel2 s0 s,
  benign_callback cb ->
  build DormandPrince5 b = Ok s0 -> integrate DormandPrince5 cb fuel fuel2 s0 = Ok s ->
  steps (i_stats s) <= S (o_max_steps (b_opts b)) /\
  (rc (i_sol s) = RMaxIters -> steps (i_stats s) = S (o_max_steps (b_opts b))).
Proof. exact @dp5_final_steps. Qed.
Print Assumptions C07_dp5_final_steps.

(** C07.  [max_steps + 1] calls are always enough for [integrate()], unless an
    individual [step()] call does not return. *)
Theorem C07_dp5_integrate_ends :
  forall A P (b : builder A P) (cb : callback A P (dp5_cache A)) fuel s0,
  benign_callback cb -> build DormandPrince5 b = Ok s0 ->
  integrate DormandPrince5 cb fuel (S (o_max_steps (b_opts b))) s0 = OutOfFuel ->
  exists k s, continues DormandPrince5 cb fuel k s0 s /\ step DormandPrince5 cb fuel s = OutOfFuel.
Proof. exact @dp5_budget_outcome. Qed.
Print Assumptions C07_dp5_integrate_ends.

Example C07_ex : exists s0 s,
  build (@DormandPrince5 XF unit) (set_max_steps 1 x_dp5) = Ok s0 /\
  integrate (@DormandPrince5 XF unit) None 10 2 s0 = Ok s /\
  rc (i_sol s) = RMaxIters /\ steps (i_stats s) = 2.
Proof. exact dp5_maxiters_ex. Qed.

(** C18 (and C44: the scratch buffers do not matter either).  Two integrators
    at the same point with the same derivative there, but arbitrary and
    different step guesses, controller memory, flags, counters, histories,
    scratch buffers and options, whose [step()] calls end up accepting the
    same step size — after however many rejected attempts each — arrive at the
    same point. *)
Theorem C18_dp5_rejections_leave_no_trace :
  forall A P fuel fuel' (s a s' a' : integ A P (dp5_cache A)) r r',
  overwrites (i_dudt s) -> i_dudt a = i_dudt s -> i_params a = i_params s ->
  i_u a = i_u s -> i_t a = i_t s -> du (i_cache a) = du (i_cache s) ->
  step DormandPrince5 None fuel s = Ok (s', r) -> step DormandPrince5 None fuel' a = Ok (a', r') ->
  i_dtprev a' = i_dtprev s' ->
  i_t a' = i_t s' /\ i_u a' = i_u s' /\ du (i_cache a') = du (i_cache s') /\
  i_tprev a' = i_tprev s' /\ i_uprev a' = i_uprev s'.
Proof. exact @dp5_step_det. Qed.
Print Assumptions C18_dp5_rejections_leave_no_trace.

(** C18, C22.  However many attempts were rejected, the step starts at the
    point where the call started and exactly one point is recorded. *)
Theorem C18_dp5_one_point_per_call :
  forall A P fuel (s s' : integ A P (dp5_cache A)) r,
  step DormandPrince5 None fuel s = Ok (s', r) ->
  ts (i_sol s') = ts (i_sol s) ++ [i_t s'] /\ us (i_sol s') = us (i_sol s) ++ [i_u s'].
Proof. exact @DP5Iter.dp5_step_records. Qed.
Print Assumptions C18_dp5_one_point_per_call.

(** One call accepts at once, the other rejects twice first. *)
Example C18_ex : overwrites osc /\ exists s a s' a' r r',
  build (@DormandPrince5 XF unit) (x_rej (x 1 1)) = Ok s /\
  build (@DormandPrince5 XF unit) (x_rej (x 4 1)) = Ok a /\
  step (@DormandPrince5 XF unit) None 10 s = Ok (s', r) /\
  step (@DormandPrince5 XF unit) None 10 a = Ok (a', r') /\
  i_dtprev a' = i_dtprev s' /\
  function_evals (i_stats s') = 6 /\ function_evals (i_stats a') = 18.
Proof. split; [exact osc_overwrites|exact rejections_ex]. Qed.

(** C19.  What the counters of a DormandPrince5 run say.  [early] attempts were
    rejected before the first accepted step; they are not counted in
    [rejects]. *)
Theorem C19_dp5_counters_partial :
  forall A P (b : builder A P) (cb : callback A P (dp5_cache A)) fuel k s0 s,
  benign_callback cb ->
  build DormandPrince5 b = Ok s0 -> steps_n DormandPrince5 cb fuel k s0 = Ok s ->
  rhs_calls (i_trace s) = function_evals (i_stats s) + 1 /\
  jac_calls (i_trace s) = 0 /\
  steps (i_stats s) = k /\ accepts (i_stats s) = k /\
  jacobian_evals (i_stats s) = 0 /\ decompositions (i_stats s) = 0 /\ linear_solves (i_stats s) = 0 /\
  exists early, (k = 0 -> early = 0) /\
    function_evals (i_stats s) = 6 * (accepts (i_stats s) + rejects (i_stats s) + early).
Proof. exact @dp5_counters_form. Qed.
Print Assumptions C19_dp5_counters_partial.

(** C19.  [function_evals] is never the number of calls of [dudt]. *)
Theorem C19_dp5_function_evals_refuted :
  forall A P (b : builder A P) (cb : callback A P (dp5_cache A)) fuel k s0 s,
  benign_callback cb ->
  build DormandPrince5 b = Ok s0 -> steps_n DormandPrince5 cb fuel k s0 = Ok s ->
  function_evals (i_stats s) <> rhs_calls (i_trace s).
Proof. exact @dp5_evals_refuted. Qed.
Print Assumptions C19_dp5_function_evals_refuted.

(** C22.  The previous-point fields after a [step()] call. *)
Theorem C22_dp5_previous_point :
  forall A P fuel (s s' : integ A P (dp5_cache A)) r,
  step DormandPrince5 None fuel s = Ok (s', r) ->
  i_tprev s' = i_t s /\ i_uprev s' = i_u s /\ i_t s' = add A (i_tprev s') (i_dtprev s').
Proof. exact @dp5_prev_fields. Qed.
Print Assumptions C22_dp5_previous_point.

(** C29.  No panics when [max_stiff >= 1]. *)
Theorem C29_dp5_no_panic :
  forall A P (b : builder A P) (cb : callback A P (dp5_cache A)) fuel k s0,
  benign_callback cb -> o_max_stiff (b_opts b) <> 0 ->
  build DormandPrince5 b = Ok s0 ->
  steps_n DormandPrince5 cb fuel k s0 <> Panic /\ integrate DormandPrince5 cb fuel k s0 <> Panic.
Proof. exact @dp5_never_panics. Qed.
Print Assumptions C29_dp5_no_panic.

Theorem C29_dp5_build_ok : forall A P (b : builder A P), exists s, build DormandPrince5 b = Ok s.
Proof. exact @dp5_build_ok. Qed.
Print Assumptions C29_dp5_build_ok.

(** C29.  With [max_stiff = 0] no call of [step()] ever completes. *)
Theorem C29_dp5_max_stiff_zero_refuted :
  forall A P (cb : callback A P (dp5_cache A)) fuel s s' r,
  o_max_stiff (i_opts s) = 0 -> step DormandPrince5 cb fuel s <> Ok (s', r).
Proof. exact @dp5_max_stiff_zero. Qed.
Print Assumptions C29_dp5_max_stiff_zero_refuted.

Example C29_ex : exists s0,
  build (@DormandPrince5 XF unit) (set_max_stiff 0 x_dp5) = Ok s0 /\
  step (@DormandPrince5 XF unit) None 10 s0 = Panic.
Proof. exact max_stiff_zero_ex. Qed.

(** C39.  [dtstart] has no influence on any DormandPrince5 run. *)
Theorem C39_dp5_dtstart_ignored_refuted :
  forall A P (b : builder A P) v fuel k s s',
  build DormandPrince5 b = Ok s -> build DormandPrince5 (set_dtstart v b) = Ok s' ->
  same_outcome same_results (steps_n DormandPrince5 None fuel k s) (steps_n DormandPrince5 None fuel k s') /\
  same_outcome same_results (integrate DormandPrince5 None fuel k s) (integrate DormandPrince5 None fuel k s').
Proof. exact @dp5_dtstart. Qed.
Print Assumptions C39_dp5_dtstart_ignored_refuted.

(** C39.  More generally, DormandPrince5 reads only nine options and no
    Jacobian: problems that agree on these give the same runs. *)
Theorem C39_dp5_other_options_ignored :
  forall A P (b b' : builder A P) fuel k s s',
  b' = b <| b_dfdt := b_dfdt b' |> <| b_dfdu := b_dfdu b' |> <| b_opts := b_opts b' |> ->
  (o_reltol (b_opts b') = o_reltol (b_opts b) /\ o_abstol (b_opts b') = o_abstol (b_opts b) /\
   o_dtmax (b_opts b') = o_dtmax (b_opts b) /\ o_max_steps (b_opts b') = o_max_steps (b_opts b) /\
   o_safe (b_opts b') = o_safe (b_opts b) /\ o_facr (b_opts b') = o_facr (b_opts b) /\
   o_facl (b_opts b') = o_facl (b_opts b) /\ o_beta (b_opts b') = o_beta (b_opts b) /\
   o_max_stiff (b_opts b') = o_max_stiff (b_opts b)) ->
  build DormandPrince5 b = Ok s -> build DormandPrince5 b' = Ok s' ->
  same_outcome same_results (steps_n DormandPrince5 None fuel k s) (steps_n DormandPrince5 None fuel k s') /\
  same_outcome same_results (integrate DormandPrince5 None fuel k s) (integrate DormandPrince5 None fuel k s').
Proof. exact @dp5_ignored_opts. Qed.
Print Assumptions C39_dp5_other_options_ignored.

(** C40. *)
Theorem C40_dp5_stiffness_and_dense_do_not_perturb :
  forall A P (b : builder A P) m d fuel k s s',
  o_max_stiff (b_opts b) <> 0 -> m <> 0 ->
  build DormandPrince5 b = Ok s -> build DormandPrince5 (set_max_stiff m (set_dense d b)) = Ok s' ->
  same_outcome same_results (steps_n DormandPrince5 None fuel k s) (steps_n DormandPrince5 None fuel k s') /\
  same_outcome same_results (integrate DormandPrince5 None fuel k s) (integrate DormandPrince5 None fuel k s').
Proof. exact @dp5_stiff_dense. Qed.
Print Assumptions C40_dp5_stiffness_and_dense_do_not_perturb.

(** C44.  For right-hand sides that assign every component the results do not
    depend on what the buffers hold: presetting every buffer to anything
    changes nothing. *)
Theorem C44_dp5_buffer_contents_do_not_matter :
  forall A P (b : builder A P) (preset : vec A -> vec A) fuel k s s',
  overwrites (b_dudt b) -> (forall d, length (preset d) = length d) ->
  build DormandPrince5 b = Ok s -> build DormandPrince5 (b <| b_dudt := fun d => b_dudt b (preset d) |>) = Ok s' ->
  same_outcome same_but_closure (steps_n DormandPrince5 None fuel k s) (steps_n DormandPrince5 None fuel k s') /\
  same_outcome same_but_closure (integrate DormandPrince5 None fuel k s) (integrate DormandPrince5 None fuel k s').
Proof. exact @dp5_preset. Qed.
Print Assumptions C44_dp5_buffer_contents_do_not_matter.

Example C44_dp5_ex : overwrites (b_dudt (x_buf one_rhs)).
Proof. intros d d' u t p i _ _. reflexivity. Qed.

(** C44.  Two right-hand sides that write the same values into a fresh buffer
    can give different results, because the buffers are not cleared. *)
Theorem C44_dp5_buffers_not_cleared_refuted :
  (forall u t n, call_rhs acc_rhs (zeros n) u t tt = call_rhs one_rhs (zeros n) u t tt) /\
  exists s a s' a',
  build (@DormandPrince5 XF unit) (x_buf one_rhs) = Ok s /\
  build (@DormandPrince5 XF unit) (x_buf acc_rhs) = Ok a /\
  steps_n (@DormandPrince5 XF unit) None 10 2 s = Ok s' /\
  steps_n (@DormandPrince5 XF unit) None 10 2 a = Ok a' /\
  i_u s' <> i_u a'.
Proof. exact (conj acc_one_fresh buffers_ex). Qed.
Print Assumptions C44_dp5_buffers_not_cleared_refuted.

(** C45. *)
Theorem C45_dp5_problem_data_kept :
  forall A P (b : builder A P) fuel k s0 s,
  build DormandPrince5 b = Ok s0 -> steps_n DormandPrince5 None fuel k s0 = Ok s ->
  i_dudt s = b_dudt b /\ i_dfdu s = b_dfdu b /\ i_dfdt s = b_dfdt b /\ i_params s = b_params b /\
  i_tfinal s = b_tfinal b /\ i_opts s = b_opts b /\
  i_tdir s = copysign A n1 (sub A (b_tfinal b) (b_t b)).
Proof. exact @dp5_frame_form. Qed.
Print Assumptions C45_dp5_problem_data_kept.
