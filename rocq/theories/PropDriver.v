(** Properties of the algorithm-independent driver. *)
From Coq Require Import ZArith List Bool Lia.
From RecordUpdate Require Import RecordSet.
From Verif Require Import Arith Vec Core Spec DP5 Rodas Driver DP5Iter Examples DriverEx.
Import ListNotations RecordSetNotations.

(** C02.  [integrate()] returns state [s'] exactly when [s'] is reached by
    calling [step()] until it first returns [None] (any algorithm, callback,
    arithmetic; [fuel] bounds the number of calls). *)
Theorem C02_integrate_is_repeated_step :
  forall A P (al : algorithm A P) cb fstep fuel s s',
  integrate al cb fstep fuel s = Ok s' <->
  exists k s1, k < fuel /\ continues al cb fstep k s s1 /\ step al cb fstep s1 = Ok (s', None).
Proof. exact @integrate_split. Qed.
Print Assumptions C02_integrate_is_repeated_step.

(** C02.  Interrupting after [k] calls that returned [Some] and then calling
    [integrate()] is the same as calling [integrate()] at once. *)
Theorem C02_resume :
  forall A P (al : algorithm A P) cb fstep k s s1 fuel,
  continues al cb fstep k s s1 ->
  integrate al cb fstep (k + fuel) s = integrate al cb fstep fuel s1.
Proof. exact @continues_integrate. Qed.
Print Assumptions C02_resume.

(** C02.  [integrate()] only returns with a code other than [Continue], and
    allowing more calls does not change a result. *)
Theorem C02_returns_finished :
  forall A P (al : algorithm A P) cb fstep fuel s s',
  integrate al cb fstep fuel s = Ok s' ->
  rc (i_sol s') <> RContinue /\
  forall fuel', fuel <= fuel' -> integrate al cb fstep fuel' s = Ok s'.
Proof. exact @integrate_returns_finished. Qed.
Print Assumptions C02_returns_finished.

Example C02_ex : exists s0 s' s1 s2,
  build (@DormandPrince5 XF unit) x_dp5 = Ok s0 /\
  integrate (@DormandPrince5 XF unit) None 10 100 s0 = Ok s' /\
  continues (@DormandPrince5 XF unit) None 10 2 s0 s1 /\
  step (@DormandPrince5 XF unit) None 10 s1 = Ok (s2, Some 3).
Proof. exact dp5_run_ex. Qed.

(** C03. *)
Theorem C03_step_result :
  forall A P (al : algorithm A P) cb fuel s s' r,
  step al cb fuel s = Ok (s', r) ->
  (rc (i_sol s') = RContinue -> r = Some (steps (i_stats s'))) /\
  (rc (i_sol s') <> RContinue -> r = None).
Proof. exact @step_result. Qed.
Print Assumptions C03_step_result.

(** C04.  The items seen when iterating over a DormandPrince5 integrator are
    the recorded points without the initial one AND without the last one: the
    end point of the span is never yielded. *)
Theorem C04_iteration_drops_last_partial :
  forall A P (b : builder A P) fuel fuel2 s0 s items,
  build DormandPrince5 b = Ok s0 ->
  iter_collect DormandPrince5 None fuel fuel2 s0 = Ok (s, items) ->
  points s = (b_t b, b_u b) :: items ++ [(i_t s, i_u s)].
Proof. exact @dp5_iter_items. Qed.
Print Assumptions C04_iteration_drops_last_partial.

(** C04.  Every problem whose iteration ends is a counterexample to "iteration
    yields exactly the recorded points after the initial one". *)
Theorem C04_iteration_refuted :
  forall A P (b : builder A P) fuel fuel2 s0 s items,
  build DormandPrince5 b = Ok s0 ->
  iter_collect DormandPrince5 None fuel fuel2 s0 = Ok (s, items) ->
  items <> tl (points s).
Proof. exact @dp5_iter_not_all. Qed.
Print Assumptions C04_iteration_refuted.

Example C04_ex : exists s0 s items,
  build (@DormandPrince5 XF unit) x_dp5 = Ok s0 /\
  iter_collect (@DormandPrince5 XF unit) None 10 100 s0 = Ok (s, items) /\
  length items = 3 /\ length (points s) = 5 /\ rc (i_sol s) = RSuccess.
Proof. exact dp5_iter_ex. Qed.

(** C05.  A [for] loop over an [OdeSolution] sees the zip of times and states. *)
Theorem C05_solution_iteration :
  forall A (sol : solution A) fuel, length (ts sol) < fuel ->
  sol_iter_collect fuel (sol_into_iter sol) = combine (ts sol) (us sol).
Proof. exact @solution_iteration. Qed.
Print Assumptions C05_solution_iteration.

(** C05.  The [i]-th call of [next()] returns the [i]-th pair, and [None] from
    the end of the shorter list on. *)
Theorem C05_next_is_nth :
  forall A (lt : list (num A)) (lu : list (vec A)) k i, i < k ->
  nth i (sol_iter_calls k (mkSolIter lt lu)) None = nth_error (combine lt lu) i.
Proof. exact @solution_next_nth. Qed.
Print Assumptions C05_next_is_nth.

Example C05_ex :
  let sol := mkSol [x 1 1; x 2 1; x 3 1] [[x 4 1]; [x 5 1]] RSuccess in
  sol_iter_collect 4 (sol_into_iter sol) = [(x 1 1, [x 4 1]); (x 2 1, [x 5 1])] /\
  nth 2 (sol_iter_calls 4 (sol_into_iter sol)) None = None.
Proof. split; reflexivity. Qed.

(** C30.  Building with [Rodas] panics for every problem. *)
Theorem C30_rodas_refuted :
  forall A P (b : builder A P), build Rodas b = Panic.
Proof. exact @rodas_build_panics. Qed.
Print Assumptions C30_rodas_refuted.

(** C38.  Each setter sets exactly the field it names.  A setter is named by
    the field it must write; all other fields of the builder and the options
    keep their values. *)
Theorem C38_setters_set_their_field :
  forall A P (b : builder A P),
  (forall v, set_reltol v b = b <| b_opts := b_opts b <| o_reltol := v |> |>) /\
  (forall v, set_abstol v b = b <| b_opts := b_opts b <| o_abstol := v |> |>) /\
  (forall v, set_dense v b = b <| b_opts := b_opts b <| o_dense := v |> |>) /\
  (forall v, set_dtstart v b = b <| b_opts := b_opts b <| o_dtstart := v |> |>) /\
  (forall v, set_dtmax v b = b <| b_opts := b_opts b <| o_dtmax := v |> |>) /\
  (forall v, set_max_steps v b = b <| b_opts := b_opts b <| o_max_steps := v |> |>) /\
  (forall v, set_max_newt_iter v b = b <| b_opts := b_opts b <| o_max_newt_iter := v |> |>) /\
  (forall v, set_max_stiff v b = b <| b_opts := b_opts b <| o_max_stiff := v |> |>) /\
  (forall v, set_modern_pred v b = b <| b_opts := b_opts b <| o_modern_pred := v |> |>) /\
  (forall v, set_safe v b = b <| b_opts := b_opts b <| o_safe := v |> |>) /\
  (forall v, set_facr v b = b <| b_opts := b_opts b <| o_facr := v |> |>) /\
  (forall v, set_facl v b = b <| b_opts := b_opts b <| o_facl := v |> |>) /\
  (forall v, set_quot1 v b = b <| b_opts := b_opts b <| o_quot1 := v |> |>) /\
  (forall v, set_quot2 v b = b <| b_opts := b_opts b <| o_quot2 := v |> |>) /\
  (forall v, set_beta v b = b <| b_opts := b_opts b <| o_beta := v |> |>) /\
  (forall v, set_fnewt v b = b <| b_opts := b_opts b <| o_fnewt := v |> |>) /\
  (forall v, set_use_ext_col v b = b <| b_opts := b_opts b <| o_use_ext_col := v |> |>) /\
  (forall v, set_hess v b = b <| b_opts := b_opts b <| o_hess := v |> |>) /\
  (forall v, set_dfdu v b = b <| b_dfdu := Some v |>) /\
  (forall v, set_dfdt v b = b <| b_dfdt := Some v |>).
Proof. exact @setters_set. Qed.
Print Assumptions C38_setters_set_their_field.

(** C38.  Any two calls of setters of different options commute, and the last
    of two calls of one setter wins. *)
Theorem C38_setters_commute :
  forall A P (c1 c2 : setter_call A P) (b : builder A P),
  (setter_id c1 <> setter_id c2 -> call_setter c1 (call_setter c2 b) = call_setter c2 (call_setter c1 b)) /\
  (setter_id c1 = setter_id c2 -> call_setter c1 (call_setter c2 b) = call_setter c1 b).
Proof. exact @setters_laws. Qed.
Print Assumptions C38_setters_commute.
