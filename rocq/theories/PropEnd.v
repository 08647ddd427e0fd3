(** Properties about the end of an integration: empty spans and calls of
    [step()] made after the end.  [inf] is the real that stands for
    [f64::INFINITY]; [points s] is the recorded list of (time, state) pairs. *)
From Coq Require Import ZArith List Bool Reals Lra.
From Flocq Require Import BinarySingleNaN.
From RecordUpdate Require Import RecordSet.
From Verif Require Import Arith Vec Core Spec SpecODE SpecRadau ArithR ArithF DP5 Radau RadauMore
  DP5Zero RadauZero DP5REx RadauEx RadauREx.
Import ListNotations RecordSetNotations.
Local Open Scope R_scope.

(** C48, DormandPrince5 (exact arithmetic).  An empty span is integrated: one
    call of [step()], Success, and the initial state recorded twice. *)
Theorem C48_dp5_empty_span :
  forall P inf (b : builder (RA inf) P) fuel,
  sane_opts (b_opts b) -> 0 < b_dt b -> b_t b = b_tfinal b ->
  0 < o_abstol (b_opts b) -> 0 <= o_reltol (b_opts b) -> o_max_stiff (b_opts b) <> 0%nat -> b_u b <> [] ->
  exists s0 s, build DormandPrince5 b = Ok s0 /\ integrate DormandPrince5 None (S fuel) 1 s0 = Ok s /\
    rc (i_sol s) = RSuccess /\ i_t s = b_t b /\ i_u s = b_u b /\
    points s = [(b_t b, b_u b); (b_t b, b_u b)].
Proof. intros P inf. exact (@dp5_empty_span P inf). Qed.
Print Assumptions C48_dp5_empty_span.
Example C48_dp5_ex : forall inf, 0 < inf -> let b := r_dp5 inf 1 0 0 in
  sane_opts (b_opts b) /\ 0 < b_dt b /\ b_t b = b_tfinal b /\
  0 < o_abstol (b_opts b) /\ 0 <= o_reltol (b_opts b) /\ o_max_stiff (b_opts b) <> 0%nat /\ b_u b <> [].
Proof.
  intros inf Hi b. split; [now apply default_sane|]. 
  split; [unfold b; rewrite r_dp5_dt; lra|]. split; [reflexivity|]. split; [unfold b; rewrite r_dp5_atol; lra|].
  split; [unfold b; rewrite r_dp5_rtol; lra|]. split; [apply r_dp5_stiff|]. discriminate.
Qed.

(** C48, Radau5.  No empty span is ever integrated: the code is never Success
    and nothing is recorded besides the initial point.  In exact arithmetic ... *)
Theorem C48_radau_empty_span_refuted :
  forall P inf (b : builder (RA inf) P) fuel,
  0 <= b_dt b -> b_t b = b_tfinal b -> b_u b <> [] ->
  (o_max_steps (b_opts b) + o_max_newt_iter (b_opts b) + 5 <= fuel)%nat ->
  exists s0 s, build Radau5 b = Ok s0 /\ integrate Radau5 None fuel 1 s0 = Ok s /\
    rc (i_sol s) <> RSuccess /\ points s = [(b_t b, b_u b)] /\
    (rc (i_sol s) = RDtLessThanMin \/ rc (i_sol s) = RSingularMatrix \/
     (rc (i_sol s) = RMaxIters /\ (o_max_steps (b_opts b) <= 1)%nat)).
Proof.
  intros P inf b fuel Hdt Ht Hu Hf.
  exact (empty_integrate b fuel Hu Hf (fun s0 s r => empty_step_R inf b fuel s0 s r Hdt Ht)).
Qed.
Print Assumptions C48_radau_empty_span_refuted.
(** ... and in binary64, whatever the library's [powf] and [powi] return. *)
Theorem C48_radau_f64_empty_span_refuted :
  forall P powf powi (b : builder (F64 powf powi) P) fuel,
  is_finite (b_t b) = true -> b_tfinal b = b_t b -> is_finite (b_dt b) = true -> fleb fzero (b_dt b) = true ->
  b_u b <> [] -> (o_max_steps (b_opts b) + o_max_newt_iter (b_opts b) + 5 <= fuel)%nat ->
  exists s0 s, build Radau5 b = Ok s0 /\ integrate Radau5 None fuel 1 s0 = Ok s /\
    rc (i_sol s) <> RSuccess /\ points s = [(b_t b, b_u b)] /\
    (rc (i_sol s) = RDtLessThanMin \/ rc (i_sol s) = RSingularMatrix \/
     (rc (i_sol s) = RMaxIters /\ (o_max_steps (b_opts b) <= 1)%nat)).
Proof.
  intros P powf powi b fuel Hf Ht Hfd Hdt Hu Hl.
  exact (empty_integrate b fuel Hu Hl (fun s0 s r => empty_step_F b fuel s0 s r Hf Ht Hfd Hdt)).
Qed.
Print Assumptions C48_radau_f64_empty_span_refuted.
Example C48_radau_ex : forall inf, let b := r_rest inf 1 1 1 in
  0 <= b_dt b /\ b_t b = b_tfinal b /\ b_u b <> [].
Proof. intros inf b. unfold b. rewrite r_rest_dt. split; [lra|]. split; [reflexivity|discriminate]. Qed.
Example C48_radau_f64_ex : let b := x_rad <| b_tfinal := y 0 1 |> in
  is_finite (b_t b : f64) = true /\ feqb (b_tfinal b) (b_t b) = true /\
  Bsign (b_tfinal b : f64) = Bsign (b_t b : f64) /\
  is_finite (b_dt b : f64) = true /\ fleb fzero (b_dt b) = true /\ b_u b <> [].
Proof. repeat split; try discriminate; vm_compute; reflexivity. Qed.
Example C48_radau_dt_less_than_min_ex : exists s0 s r,
  build radx (x_rad <| b_tfinal := y 0 1 |>) = Ok s0 /\ step radx None 60 s0 = Ok (s, r) /\
  rc (i_sol s) = RDtLessThanMin.
Proof. exact radau_empty_span_ex. Qed.

(** C37, DormandPrince5 (exact arithmetic).  Every further call on an integrator
    that has ended with Success appends one more copy of the last point. *)
Theorem C37_dp5_finished_refuted :
  forall P inf (b : builder (RA inf) P) fuel k j s0 s,
  sane_opts (b_opts b) -> 0 < b_dt b -> b_t b < b_tfinal b ->
  0 < o_abstol (b_opts b) -> 0 <= o_reltol (b_opts b) -> o_max_stiff (b_opts b) <> 0%nat -> b_u b <> [] ->
  build DormandPrince5 b = Ok s0 -> reached DormandPrince5 None fuel k s0 s -> rc (i_sol s) = RSuccess ->
  exists s', steps_n DormandPrince5 None (S fuel) j s = Ok s' /\ i_u s' = i_u s /\ rc (i_sol s') = RSuccess /\
    points s' = points s ++ repeat (b_tfinal b, i_u s) j.
Proof. intros P inf. exact (@dp5_after_end P inf). Qed.
Print Assumptions C37_dp5_finished_refuted.
Example C37_dp5_ex : forall inf, 0 < inf -> let b := r_dp5 inf (1/100) 0 (1/1000000) in
  sane_opts (b_opts b) /\ 0 < b_dt b /\ b_t b < b_tfinal b /\
  0 < o_abstol (b_opts b) /\ 0 <= o_reltol (b_opts b) /\ o_max_stiff (b_opts b) <> 0%nat /\ b_u b <> [] /\
  exists s0 s, build DormandPrince5 b = Ok s0 /\ reached DormandPrince5 None 1 1 s0 s /\ rc (i_sol s) = RSuccess.
Proof.
  intros inf Hi b. split; [now apply default_sane|]. 
  split; [unfold b; rewrite r_dp5_dt; lra|]. split; [cbn; lra|]. split; [unfold b; rewrite r_dp5_atol; lra|].
  split; [unfold b; rewrite r_dp5_rtol; lra|]. split; [apply r_dp5_stiff|].
  split; [discriminate|]. now apply osc_success.
Qed.

(** C37, Radau5 (exact arithmetic).  The history is left alone, and the code
    Success is lost: it becomes DtLessThanMin, unless the step limit is used up
    or one of the matrix factorizations of the call failed. *)
Theorem C37_radau_finished_general_refuted :
  forall P inf (b : builder (RA inf) P) fuel fuel2 k s0 s,
  radau_sane (b_opts b) -> 0 < b_dt b -> b_t b < b_tfinal b -> b_u b <> [] ->
  (o_max_steps (b_opts b) + o_max_newt_iter (b_opts b) + 5 <= fuel2)%nat -> (fuel <= fuel2)%nat ->
  build Radau5 b = Ok s0 -> reached Radau5 None fuel k s0 s -> rc (i_sol s) = RSuccess ->
  exists s' r, step Radau5 None fuel2 s = Ok (s', r) /\
    points s' = points s /\ i_t s' = i_t s /\ i_u s' = i_u s /\
    (rc (i_sol s') = RDtLessThanMin \/
     (rc (i_sol s') = RMaxIters /\ (o_max_steps (b_opts b) <= S (steps (i_stats s)))%nat) \/
     (0 < step_failures fuel2 s)%nat).
Proof. intros P inf. exact (@finished_radau P inf). Qed.
Print Assumptions C37_radau_finished_general_refuted.
Example C37_radau_general_ex : forall inf, let b := r_rest inf 0 (1/1000000) 1 in
  radau_sane (b_opts b) /\ 0 < b_dt b /\ b_t b < b_tfinal b /\ b_u b <> [] /\
  exists s0 s, build Radau5 b = Ok s0 /\ reached Radau5 None 1 1 s0 s /\ rc (i_sol s) = RSuccess.
Proof.
  intros inf b. split; [apply r_rest_sane; lra|]. split; [unfold b; rewrite r_rest_dt; lra|].
  split; [cbn; lra|]. split; [discriminate|].
  exact (rest_success inf).
Qed.
