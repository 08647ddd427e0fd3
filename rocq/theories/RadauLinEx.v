(** Runs for [PropRadauLin]. *)
From Coq Require Import ZArith List Bool Lia Reals Lra.
From Verif Require Import Arith Vec Core Spec SpecRK SpecLin SpecStage ArithR RKFacts Jacobian Radau Driver RadauSafe RadauTerm RadauEx
  RadauREx RadauInv RadauHist RadauLin StageForms StageEx.
Import ListNotations.
Local Open Scope R_scope.

(** [u0' = u1 - u0], [u1' = u0 - u1] without a Jacobian. *)
Definition r_swap_rhs (inf : R) : rhs (RA inf) unit := fun _ u _ _ i =>
  match i with O => comp u 1 - comp u 0 | S O => comp u 0 - comp u 1 | _ => 0 end.
Definition r_swap (inf : R) : builder (RA inf) unit :=
  builder_default Radau5 (r_swap_rhs inf) ([1; 0] : list R) (0, 1) tt.

Lemma swap_ex inf : let b := r_swap inf in
  overwrites (b_dudt b) /\ b_u b <> [] /\ b_dfdu b = None /\
  (forall d u t, length d = 2%nat -> length u = 2%nat -> rsum 2 (fun i => 1 * b_dudt b d u t (b_params b) i) = 0) /\
  exists fuel fuel2 s0 s, build Radau5 b = Ok s0 /\ integrate Radau5 None fuel fuel2 s0 = Ok s /\ rc (i_sol s) <> RContinue.
Proof.
  intros b. split; [intros d d' u t p i _ _; reflexivity|]. split; [discriminate|]. split; [reflexivity|]. split.
  - intros d u t _ _. unfold rsum. cbn [seq map fold_right]. unfold b, r_swap. cbn [builder_default b_dudt r_swap_rhs].
    unfold r_swap_rhs. ring.
  - destruct (radau_build_ok b) as (s0 & Hb).
    destruct (radau_integrate_returns b None _ _ s0 no_callback_benign ltac:(discriminate) Hb (le_n _) (le_n _)) as (s & Hs & Hr & _).
    eexists _, _, s0, s. split; [exact Hb|]. split; [exact Hs|exact Hr].
Qed.
