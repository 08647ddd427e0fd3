(** C55: the coefficients of Rodas, in exact arithmetic. *)
From Coq Require Import ZArith List Bool Reals Lra QArith Qreals.
From Verif Require Import Arith ArithR SpecRK SpecRos RodasConst SpecRodas RodasOrd.
Import ListNotations.
Local Open Scope R_scope.

(** C55.  The stages with [A..], [C..] and [GAMMA] define a Rosenbrock method
    that satisfies the order conditions of all rooted trees with at most four
    nodes up to the digits given, and not those of order five; the embedded
    result has order three; the method is stiffly accurate. *)
Theorem C55_rodas_order :
  forall inf G, let M := rodas inf in gamma_matrix M G ->
  (forall t, (order t <= 4)%nat -> Rabs (ros_sum M G (classical M G (rodas_m inf)) t - 1 / density t) <= 1 / 10 ^ 15) /\
  (exists t, order t = 5%nat /\ 1 / 1000 <= Rabs (ros_sum M G (classical M G (rodas_m inf)) t - 1 / density t)) /\
  (forall t, (order t <= 3)%nat -> Rabs (ros_sum M G (classical M G (rodas_hat inf)) t - 1 / density t) <= 1 / 10 ^ 15) /\
  (forall j, (j < 6)%nat -> classical M G (rodas_m inf) j = beta M G 5 j).
Proof.
  intros inf G M H.
  exact (conj (rodas_order4 inf G H) (conj (rodas_not5 inf G H) (conj (rodas_hat3 inf G H) (rodas_stiffly inf G H)))).
Qed.
Print Assumptions C55_rodas_order.

(** C55.  With [D21]..[D35] the continuous output satisfies the conditions of
    order three at every point of the step. *)
Theorem C55_rodas_continuous_output :
  forall inf G theta t, let M := rodas inf in gamma_matrix M G -> 0 <= theta <= 1 -> (order t <= 3)%nat ->
  Rabs (ros_sum M G (rodas_cont inf G theta) t - theta ^ order t / density t) <= 1 / 10 ^ 14.
Proof. intros inf G theta t M H. exact (rodas_dense3 inf G H theta t). Qed.
Print Assumptions C55_rodas_continuous_output.

(** C55.  [C2]..[C4] are the nodes, [D1]..[D4] the coefficients of the time
    derivative, and [BET2P]..[BET4P] the row sums of [beta] left of the diagonal. *)
Theorem C55_rodas_nodes :
  forall inf G i, let M := rodas inf in gamma_matrix M G -> (i < 6)%nat ->
  Rabs (rsum 6 (alpha M G i) - comp [0; @roC2 (RA inf); @roC3 (RA inf); @roC4 (RA inf); 1; 1] i) <= 1 / 10 ^ 15 /\
  Rabs (rsum 6 (G i) - comp [@roD1 (RA inf); @roD2 (RA inf); @roD3 (RA inf); @roD4 (RA inf); 0; 0] i) <= 1 / 10 ^ 15 /\
  ((i < 4)%nat -> Rabs (rsum i (beta M G i) - comp [0; @roBET2P (RA inf); @roBET3P (RA inf); @roBET4P (RA inf)] i) <= 1 / 10 ^ 15).
Proof. intros inf G i M H. exact (rodas_nodes inf G H i). Qed.
Print Assumptions C55_rodas_nodes.

(** There is such a matrix. *)
Example C55_ex : forall inf, gamma_matrix (rodas inf) (fun i j => Q2R (qat qG i j)).
Proof. exact gamma_exists. Qed.
