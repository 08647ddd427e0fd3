(** C36, C35: what the recorded steps of Radau5 satisfy, in exact arithmetic
    ([inf] is the real that stands for [f64::INFINITY]).  [s] is the state
    before and [s'] the state after a call of [step()] that recorded a point. *)
From Coq Require Import ZArith List Bool Reals Lra.
From RecordUpdate Require Import RecordSet.
From Verif Require Import Arith Vec Core Spec SpecRK SpecLin SpecRadau SpecStage ArithR ArithF Jacobian Radau RadauEx RadauREx
  StageConst RadauStage RadauErr StageForms StageEx Examples RadauFacts.
Import ListNotations RecordSetNotations.
Local Open Scope R_scope.

(** ** C36: the stage equations *)
(** The coefficients used to state the equations are those of the three-stage
    Radau IIA method: [radau_ainv] is the inverse of [radau_a], the stages have
    order 3 and the quadrature has order 5. *)
Theorem C36_radau_coefficients :
  (forall k l, (k < 3)%nat -> (l < 3)%nat ->
     rsum 3 (fun m => radau_a k m * radau_ainv m l) = (if Nat.eqb k l then 1 else 0) /\
     rsum 3 (fun m => radau_ainv k m * radau_a m l) = (if Nat.eqb k l then 1 else 0)) /\
  (forall k m, (k < 3)%nat -> (m < 3)%nat ->
     rsum 3 (fun l => radau_a k l * radau_c l ^ m) = radau_c k ^ S m / INR (S m)) /\
  (forall m, (m < 5)%nat -> rsum 3 (fun l => radau_a 2 l * radau_c l ^ m) = 1 / INR (S m)).
Proof. exact (conj radau_ainv_inverse (conj radau_stage_order radau_order)). Qed.
Print Assumptions C36_radau_coefficients.

(** Every recorded step: there are stage increments [z] with [u' = u + z_2]
    whose equations are solved for the right-hand side linearised with [J] at
    the last points [y] at which it was evaluated, up to the accuracy of the
    tabulated constants.  [J] is a Jacobian at a recorded point and [h] the
    step for which matrices were last decomposed. *)
Theorem C36_radau_stage_equations :
  forall P inf (b : builder (RA inf) P) fuel k s0 s s' r,
  overwrites (b_dudt b) -> b_u b <> [] ->
  build Radau5 b = Ok s0 -> continues Radau5 None fuel k s0 s ->
  step Radau5 None fuel s = Ok (s', r) -> ts (i_sol s') <> ts (i_sol s) ->
  let n := length (b_u b) in
  exists h J (tau : nat -> R) (y z : nat -> list R),
    let F := fun k i => b_dudt b (zeros n) (y k) (tau k) (b_params b) i in
    matrix_step fuel s0 (S k) s' h /\ h <> 0 /\
    (exists t u, In (t, u) (points s) /\ jacobian_at s t u J) /\ square n J /\
    (forall k, (k < 3)%nat -> Rabs (tau k - (i_t s + radau_c k * (i_t s' - i_t s))) <= 1 / 10^15 * Rabs (i_t s' - i_t s)) /\
    (exists late early,
       i_trace s' = late ++ EvF (A:=RA inf) (tau 2%nat) (y 2%nat) :: EvF (A:=RA inf) (tau 1%nat) (y 1%nat)
                         :: EvF (A:=RA inf) (tau 0%nat) (y 0%nat) :: early /\
       Forall (fun e => ev_time e = i_t s \/ ev_time e = i_t s') late) /\
    (forall k, (k < 3)%nat -> length (y k) = n) /\
    (forall i, (i < n)%nat -> comp (i_u s') i = comp (i_u s) i + comp (z 2%nat) i) /\
    (blind n h J \/ forall i k, (i < n)%nat -> (k < 3)%nat ->
       Rabs (stage_defect n J h (i_u s) y z F i k) <= table_error n J h (i_u s) y z F i).
Proof. intros P inf. exact (@radau_stages inf P). Qed.
Print Assumptions C36_radau_stage_equations.

(** [h] is the length of the recorded step itself whenever the public counter
    of decompositions grew in that call. *)
Theorem C36_radau_own_step_size :
  forall P inf (b : builder (RA inf) P) fuel k s0 s s' r h,
  build Radau5 b = Ok s0 -> continues Radau5 None fuel k s0 s ->
  step Radau5 None fuel s = Ok (s', r) -> ts (i_sol s') <> ts (i_sol s) ->
  (decompositions (i_stats s) < decompositions (i_stats s'))%nat ->
  matrix_step fuel s0 (S k) s' h -> h = i_t s' - i_t s.
Proof. intros P inf. exact (@own_step_size P inf). Qed.
Print Assumptions C36_radau_own_step_size.

(** A linear problem with its own Jacobian: the collocation equations of the
    Radau IIA method. *)
Theorem C36_radau_linear_problems :
  forall P inf (b : builder (RA inf) P) (M : nat -> nat -> R) (c : nat -> R -> R) g fuel k s0 s s' r,
  let n := length (b_u b) in
  (forall d u t p i, b_dudt b d u t p i = rsum n (fun j => M i j * comp u j) + c i t) ->
  b_dfdu b = Some g -> (forall buf u t p i j, g buf u t p i j = M i j) ->
  b_u b <> [] -> build Radau5 b = Ok s0 -> continues Radau5 None fuel k s0 s ->
  step Radau5 None fuel s = Ok (s', r) -> ts (i_sol s') <> ts (i_sol s) ->
  exists h J (tau : nat -> R) (y z : nat -> list R),
    let F := fun k i => rsum n (fun j => M i j * comp (y k) j) + c i (tau k) in
    matrix_step fuel s0 (S k) s' h /\ h <> 0 /\
    (forall i j, (i < n)%nat -> (j < n)%nat -> entry J i j = M i j) /\
    (forall k, (k < 3)%nat -> Rabs (tau k - (i_t s + radau_c k * (i_t s' - i_t s))) <= 1 / 10^15 * Rabs (i_t s' - i_t s)) /\
    (exists late early,
       i_trace s' = late ++ EvF (A:=RA inf) (tau 2%nat) (y 2%nat) :: EvF (A:=RA inf) (tau 1%nat) (y 1%nat)
                         :: EvF (A:=RA inf) (tau 0%nat) (y 0%nat) :: early /\
       Forall (fun e => ev_time e = i_t s \/ ev_time e = i_t s') late) /\
    (forall i, (i < n)%nat -> comp (i_u s') i = comp (i_u s) i + comp (z 2%nat) i) /\
    (blind n h J \/ forall i k, (i < n)%nat -> (k < 3)%nat ->
       Rabs (rsum 3 (fun l => radau_ainv k l * comp (z l) i) / h
             - (rsum n (fun j => M i j * (comp (i_u s) j + comp (z k) j)) + c i (tau k)))
       <= table_error n J h (i_u s) y z F i).
Proof. intros P inf. exact (@radau_linear inf P). Qed.
Print Assumptions C36_radau_linear_problems.

(** A derivative that depends on time only is integrated with the Radau
    quadrature formula. *)
Theorem C36_radau_quadrature :
  forall P inf (b : builder (RA inf) P) (c : nat -> R -> R) g fuel k s0 s s' r,
  let n := length (b_u b) in
  (forall d u t p i, b_dudt b d u t p i = c i t) ->
  b_dfdu b = Some g -> (forall buf u t p i j, g buf u t p i j = 0) ->
  b_u b <> [] -> build Radau5 b = Ok s0 -> continues Radau5 None fuel k s0 s ->
  step Radau5 None fuel s = Ok (s', r) -> ts (i_sol s') <> ts (i_sol s) ->
  exists h (tau : nat -> R) (z : nat -> list R),
    matrix_step fuel s0 (S k) s' h /\ h <> 0 /\
    (forall k, (k < 3)%nat -> Rabs (tau k - (i_t s + radau_c k * (i_t s' - i_t s))) <= 1 / 10^15 * Rabs (i_t s' - i_t s)) /\
    (forall i, (i < n)%nat -> comp (i_u s') i = comp (i_u s) i + comp (z 2%nat) i) /\
    forall i k, (i < n)%nat -> (k < 3)%nat ->
      Rabs (comp (z k) i - h * rsum 3 (fun l => radau_a k l * c i (tau l)))
      <= 1 / 10^13 * abs3 (fun l => comp (z l) i) + 1 / 10^17 * Rabs h * abs3 (fun l => c i (tau l)).
Proof. intros P inf. exact (@radau_quadrature inf P). Qed.
Print Assumptions C36_radau_quadrature.

(** A run that meets the hypotheses of all of these, with the step for which
    matrices were decomposed and outside the exception ([n = 1]). *)
Example C36_ex : forall inf, let b := r_rest inf 0 1 1 in
  overwrites (b_dudt b) /\ b_u b <> [] /\ b_dfdu b = Some (zero_jac inf) /\
  (forall d u t p i, b_dudt b d u t p i = rsum 1 (fun j => 0 * comp u j) + 0) /\
  (forall d u t p i, b_dudt b d u t p i = 0) /\
  (forall buf u t p i j, zero_jac inf buf u t p i j = 0) /\
  (forall h J, ~ blind (length (b_u b)) h J) /\
  exists s0 s r, build Radau5 b = Ok s0 /\ continues Radau5 None 1 0 s0 s0 /\
    step Radau5 None 1 s0 = Ok (s, r) /\ ts (i_sol s) <> ts (i_sol s0) /\
    (decompositions (i_stats s0) < decompositions (i_stats s))%nat.
Proof. exact stage_ex. Qed.

(** [h] need not be the length of the recorded step: the last step may be
    stretched to reach [tfinal] after the decomposition of the step before it
    was kept.  Binary64, [u' = 1], [u(0) = 0], default options but [dtmax = 1]:
    the run ends with [Success] at 3.299643 with [u] below 3.299594. *)
Theorem C36_radau_own_step_size_refuted : exists s0 s,
  build radh x_late = Ok s0 /\ integrate radh None 60 50 s0 = Ok s /\
  rc (i_sol s) = RSuccess /\ feqb (i_t s) (w 3299643 1000000) = true /\
  fltb (at_ (i_u s) 0) (w 3299594 1000000) = true.
Proof. exact late_ex. Qed.
Print Assumptions C36_radau_own_step_size_refuted.

(** ** C35: the error test *)
(** With the tolerances [radau_atol], [radau_rtol] made from the requested ones,
    the root mean square of the filtered estimate [v], in units of the
    tolerance at the old point, is below 1; [z] are the increments of the
    stage equations above.  The estimate may be a second one, taken at
    [u + v1] when the first estimate [v1] is not below 1. *)
Theorem C35_radau_error_test :
  forall P inf (b : builder (RA inf) P) fuel k s0 s s' r,
  overwrites (b_dudt b) -> b_u b <> [] -> 0 < o_reltol (b_opts b) -> 0 < o_abstol (b_opts b) ->
  build Radau5 b = Ok s0 -> continues Radau5 None fuel k s0 s ->
  step Radau5 None fuel s = Ok (s', r) -> ts (i_sol s') <> ts (i_sol s) ->
  let n := length (b_u b) in
  let dt := i_t s' - i_t s in
  let rms := tol_rms n (radau_atol (o_abstol (b_opts b)) (o_reltol (b_opts b))) (radau_rtol (o_reltol (b_opts b))) (i_u s) in
  let f := fun y => b_dudt b (zeros n) y (i_t s) (b_params b) in
  exists h J (tau : nat -> R) (y z : nat -> list R),
    let F := fun k i => b_dudt b (zeros n) (y k) (tau k) (b_params b) i in
    matrix_step fuel s0 (S k) s' h /\ h <> 0 /\
    (exists t u, In (t, u) (points s) /\ jacobian_at s t u J) /\ square n J /\
    (forall k, (k < 3)%nat -> Rabs (tau k - (i_t s + radau_c k * dt)) <= 1 / 10^15 * Rabs dt) /\
    (forall i, (i < n)%nat -> comp (i_u s') i = comp (i_u s) i + comp (z 2%nat) i) /\
    (blind n h J \/
      (forall i k, (i < n)%nat -> (k < 3)%nat ->
        Rabs (stage_defect n J h (i_u s) y z F i k) <= table_error n J h (i_u s) y z F i) /\
      exists v, rms v < 1 /\
       (filtered_estimate n J h dt z (f (i_u s)) v \/
        exists v1 w, filtered_estimate n J h dt z (f (i_u s)) v1 /\ 1 <= rms v1 /\
          length w = n /\ (forall i, (i < n)%nat -> comp w i = comp (i_u s) i + comp v1 i) /\
          In (EvF (A:=RA inf) (i_t s) w) (i_trace s') /\
          filtered_estimate n J h dt z (f w) v)).
Proof. intros P inf. exact (@radau_error_test P inf). Qed.
Print Assumptions C35_radau_error_test.
Example C35_ex : forall inf, let b := r_rest inf 0 1 1 in
  overwrites (b_dudt b) /\ b_u b <> [] /\ 0 < o_reltol (b_opts b) /\ 0 < o_abstol (b_opts b) /\
  (forall h J, ~ blind (length (b_u b)) h J) /\
  exists s0 s r, build Radau5 b = Ok s0 /\ continues Radau5 None 1 0 s0 s0 /\
    step Radau5 None 1 s0 = Ok (s, r) /\ ts (i_sol s) <> ts (i_sol s0).
Proof. exact error_ex. Qed.

(** In binary64 an estimate that is not a number passes the test.  The
    derivative is [v] at time 0 and a million afterwards; from the same initial
    step 1, [v = 0] is cut down below a millionth while [v = NaN] is accepted at
    once. *)
Theorem C35_radau_error_test_nan_refuted : exists s0 s r a0 a q,
  build radh (x_jump fnan) = Ok s0 /\ step radh None 60 s0 = Ok (s, r) /\ rc (i_sol s) = RContinue /\
  feqb (i_t s) (w 1 1) = true /\
  build radh (x_jump (w 0 1)) = Ok a0 /\ step radh None 60 a0 = Ok (a, q) /\ rc (i_sol a) = RContinue /\
  fltb (i_t a) (w 1 1000000) = true.
Proof. exact jump_ex. Qed.
Print Assumptions C35_radau_error_test_nan_refuted.

(** ** C34: the working tolerances in exact arithmetic *)
(** Positive requested tolerances give positive working tolerances with the
    same ratio; the relative tolerance is kept exactly when it is 1/1000, and
    loosened exactly when it is smaller. *)
Theorem C34_radau_working_tolerances :
  forall P inf (b : builder (RA inf) P) s0,
  0 < o_reltol (b_opts b) -> 0 < o_abstol (b_opts b) -> build Radau5 b = Ok s0 ->
  let rtol := o_reltol (b_opts b) in let atol := o_abstol (b_opts b) in
  o_reltol (i_opts s0) = radau_rtol rtol /\ o_abstol (i_opts s0) = radau_atol atol rtol /\
  0 < radau_rtol rtol /\ 0 < radau_atol atol rtol /\
  radau_atol atol rtol / radau_rtol rtol = atol / rtol /\
  (radau_rtol rtol = rtol <-> rtol = 1 / 1000) /\
  (rtol < radau_rtol rtol <-> rtol < 1 / 1000).
Proof. intros P inf. exact (@working_tolerances P inf). Qed.
Print Assumptions C34_radau_working_tolerances.
Example C34_ex : forall inf, let b := r_rest inf 0 1 1 in
  0 < o_reltol (b_opts b) /\ 0 < o_abstol (b_opts b) /\ exists s0, build Radau5 b = Ok s0.
Proof. exact tols_ex. Qed.
