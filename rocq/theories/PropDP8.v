(** C52: DormandPrince8 (src/dorm_prince/dp8.rs and dp8/stages.rs, not compiled
    into the crate), in exact arithmetic. *)
From Coq Require Import ZArith List Bool Reals Lra.
From Verif Require Import Arith Vec Core Spec SpecRK SpecODE SpecDP8 ArithR DP8 SpecDP8Code DP8RK DP8Ord DP8Cont.
Import ListNotations.
Local Open Scope R_scope.

(** With the slope at the current point in [du], the stages leave in [k5] the
    step of the DOP853 tableau.  They take 11 evaluations, at the stages of the
    tableau, in order. *)
Theorem C52_dp8_stages :
  forall P inf (f : rhs (RA inf) P) p (u : list R) (t h : R) (c : dp8_cache (RA inf)),
  overwrites f ->
  (forall v, In v [q_k2 c; q_k3 c; q_k4 c; q_k5 c; q_k6 c; q_k7 c; q_k8 c; q_k9 c; q_k10 c; q_unew c] -> length v = length u) ->
  q_du c = ode f p t u ->
  exists c' tr, dp8_compute_stages f p u t h c = Ok (c', 11%nat, tr) /\
    q_k5 c' = rk_step dp8_rows dp8_b (ode f p) t u h /\
    map (fun e => match e with EvF x y => Some (x, y) | EvJ _ _ => None end) tr =
      map (fun i => Some (t + fst (nth i dp8_rows (0, [])) * h,
             combine_stages u h (snd (nth i dp8_rows (0, []))) (firstn i (slopes (ode f p) t u h dp8_rows [])))) (seq 1 11).
Proof. intros P inf. exact (dp8_stages_rk inf). Qed.
Print Assumptions C52_dp8_stages.

Example C52_ex : forall inf (x y : R), let f : rhs (RA inf) unit := fun _ u _ _ i => match i with O => comp u 1 | _ => - comp u 0 end in
  let z := [0; 0] in let c := mkDP8Cache (RA inf) z z z z z z z z z z (ode f tt 0 [x; y]) : dp8_cache (RA inf) in
  overwrites f /\
  (forall v, In v [q_k2 c; q_k3 c; q_k4 c; q_k5 c; q_k6 c; q_k7 c; q_k8 c; q_k9 c; q_k10 c; q_unew c] -> length v = length [x; y]) /\
  q_du c = ode f tt 0 [x; y].
Proof.
  intros inf x y f z c. split; [intros d d' u t p i _ _; reflexivity|]. split; [|reflexivity].
  intros v H. cbn in H. repeat (destruct H as [<-|H]; [reflexivity|]). destruct H.
Qed.

(** The coefficients satisfy the conditions for order eight (all rooted trees
    with at most eight nodes) up to rounding, and not those for order nine.  The
    error weights vanish up to order five, and the third-order weights satisfy
    the conditions for order three. *)
Theorem C52_dp8_order : forall inf,
  (forall t, (order t <= 8)%nat -> Rabs (wsum dp8_b (weights dp8_rows t) - 1 / density t) <= 1 / 10 ^ 18) /\
  (exists t, order t = 9%nat /\ 1 / 10 ^ 6 <= Rabs (wsum dp8_b (weights dp8_rows t) - 1 / density t)) /\
  (forall t, (order t <= 5)%nat -> Rabs (wsum (code_err inf) (weights dp8_rows t)) <= 1 / 10 ^ 18) /\
  (forall t, (order t <= 3)%nat -> Rabs (wsum (code_bhh inf) (weights dp8_rows t) - 1 / density t) <= 1 / 10 ^ 18).
Proof. intros inf. exact (conj dp8_order8 (conj dp8_not9 (conj (code_err5 inf) (code_bhh3 inf)))). Qed.
Print Assumptions C52_dp8_order.

(** The continuous extension, with the slope at the new point and the three
    further stages, satisfies at every [theta] in [0,1] the conditions for order
    seven. *)
Theorem C52_dp8_dense : forall inf theta t, 0 <= theta <= 1 -> (order t <= 7)%nat ->
  Rabs (wsum (code_dense inf theta) (weights (code_full inf) t) - theta ^ order t / density t) <= 7 / 10 ^ 16.
Proof. exact dp8_dense7. Qed.
Print Assumptions C52_dp8_dense.

(** [c_i = sum_j a_ij], also for the further stages. *)
Theorem C52_dp8_row_sums : forall inf row, In row (code_full inf) -> Rabs (fst row - fold_right Rplus 0 (snd row)) <= 6 / 10 ^ 29.
Proof. exact code_row_sums. Qed.
Print Assumptions C52_dp8_row_sums.
