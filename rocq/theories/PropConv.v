(** Convergence of DormandPrince5 in exact arithmetic.  The exact solution and
    the smoothness of the problem are described in [SpecConv.v]; [points s] is
    the list of recorded pairs (time, state), [gaps] the list of differences of
    consecutive times. *)
From Coq Require Import ZArith List Bool Reals Lra Lia.
From RecordUpdate Require Import RecordSet.
From Verif Require Import Arith Vec Core DP5 Spec SpecRK SpecODE SpecConv ArithR RKFacts DP5Num DP5Dense DP5RForms ConvDP5 ConvEx.
Import ListNotations RecordSetNotations.
Local Open Scope R_scope.
Notation state inf P := (integ (RA inf) P (dp5_cache (RA inf))).
Notation alg := (@DormandPrince5 _ _).

(** C58.  There are constants [K] and [H0] that depend on the problem only, such
    that for every choice of options and every run, if the steps taken so far
    are at most [H], then every recorded state is within [K H^5] of the exact
    solution. *)
Theorem C58_dp5_order_five :
  forall P inf (f : rhs (RA inf) P) (p : P) n t0 tf y,
  overwrites f -> smooth_problem n (ode f p) t0 tf y ->
  exists K H0, 0 <= K /\ 0 < H0 /\
  forall (b : builder (RA inf) P) fuel k (s0 s : state inf P) H,
  b_dudt b = f -> b_params b = p -> b_t b = t0 -> b_tfinal b = tf -> b_u b = y t0 -> b_u b <> [] ->
  sane_opts (b_opts b) -> 0 < o_abstol (b_opts b) -> 0 <= o_reltol (b_opts b) ->
  0 < b_dt b -> t0 < tf ->
  build alg b = Ok s0 -> reached alg None fuel k s0 s ->
  0 < H <= H0 -> Forall (fun g => g <= H) (gaps (ts (i_sol s))) ->
  forall t u, In (t, u) (points s) -> close n (K * H ^ 5) u (y t).
Proof. intros P inf. exact (@dp5_order_five P inf). Qed.
Print Assumptions C58_dp5_order_five.

(** C58.  Whatever accuracy [eps] is asked for, a small enough [dtmax] and
    initial step achieve it at every recorded point, whatever the tolerances and
    the other options. *)
Theorem C58_dp5_dtmax_controls_error :
  forall P inf (f : rhs (RA inf) P) (p : P) n t0 tf y eps,
  overwrites f -> smooth_problem n (ode f p) t0 tf y -> 0 < eps ->
  exists dtm, 0 < dtm /\
  forall (b : builder (RA inf) P) fuel k (s0 s : state inf P),
  b_dudt b = f -> b_params b = p -> b_t b = t0 -> b_tfinal b = tf -> b_u b = y t0 -> b_u b <> [] ->
  sane_opts (b_opts b) -> 0 < o_abstol (b_opts b) -> 0 <= o_reltol (b_opts b) ->
  0 < b_dt b -> t0 < tf -> b_dt b <= dtm -> o_dtmax (b_opts b) <= dtm ->
  build alg b = Ok s0 -> reached alg None fuel k s0 s ->
  forall t u, In (t, u) (points s) -> close n eps u (y t).
Proof. intros P inf. exact (@dp5_dtmax_controls_error P inf). Qed.
Print Assumptions C58_dp5_dtmax_controls_error.

(** C58.  The continuous extension of the last step has the same order at every
    time of the step, not only at its ends. *)
Theorem C58_dp5_dense_order_five :
  forall P inf (f : rhs (RA inf) P) (p : P) n t0 tf y,
  overwrites f -> smooth_problem n (ode f p) t0 tf y ->
  exists K H0, 0 <= K /\ 0 < H0 /\
  forall (b : builder (RA inf) P) fuel k (s0 s : state inf P) H,
  b_dudt b = f -> b_params b = p -> b_t b = t0 -> b_tfinal b = tf -> b_u b = y t0 -> b_u b <> [] ->
  sane_opts (b_opts b) -> 0 < o_abstol (b_opts b) -> 0 <= o_reltol (b_opts b) ->
  0 < b_dt b -> t0 < tf -> o_dense (b_opts b) = true ->
  build alg b = Ok s0 -> reached alg None fuel (S k) s0 s ->
  0 < H <= H0 -> Forall (fun g => g <= H) (gaps (ts (i_sol s))) ->
  forall t, i_tprev s <= t <= i_t s -> close n (K * H ^ 5) (dense_output s t (i_dtprev s)) (y t).
Proof. intros P inf. exact (@dp5_dense_order_five P inf). Qed.
Print Assumptions C58_dp5_dense_order_five.

(** The problem [u' = -u^2], [u(0) = 1], whose solution is [1/(1+t)], is smooth
    on [[0, 1]], and for every [h > 0] there is a run with steps of at most
    [1.01 h] that meets the hypotheses of the three theorems. *)
Example C58_ex : forall inf,
  overwrites (r_hyper inf) /\ smooth_problem 1 (ode (r_hyper inf) tt) 0 1 hyper /\
  forall h, 0 < h ->
  let b := b_hyper inf h in
  b_dudt b = r_hyper inf /\ b_params b = tt /\ b_t b = 0 /\ b_tfinal b = 1 /\ b_u b = hyper 0 /\ b_u b <> [] /\
  sane_opts (b_opts b) /\ 0 < o_abstol (b_opts b) /\ 0 <= o_reltol (b_opts b) /\
  b_dt b = h /\ o_dtmax (b_opts b) = h /\ o_dense (b_opts b) = true /\
  exists fuel k (s0 s : state inf unit), build alg b = Ok s0 /\ reached alg None fuel (S k) s0 s /\
    Forall (fun g => g <= 101/100 * h) (gaps (ts (i_sol s))).
Proof.
  intros inf. split; [apply r_hyper_overwrites|]. split; [apply hyper_smooth|].
  intros h Hh b. destruct (hyper_runs inf h Hh) as (E1 & E2 & E3).
  do 4 (split; [reflexivity|]). split; [exact E1|]. split; [discriminate|]. split; [exact E2|].
  split; [cbn; unfold rlit; lra|]. split; [cbn; unfold rlit; lra|]. do 3 (split; [reflexivity|]). exact E3.
Qed.
