(** Runs for [PropRadRef]. *)
From Coq Require Import ZArith List Bool Lia Reals Lra.
From Verif Require Import Arith Vec Core Spec SpecRK SpecODE SpecLin SpecStage SpecRadau SpecIRK ArithR RKFacts Jacobian JacFacts Radau Driver
  RadauEx RadauREx RadauLinEx RadauTerm SubEx RadauRef.
Import ListNotations.
Local Open Scope R_scope.

Notation jac_of b := (the_jacobian (b_dudt b) (b_dfdu b) (b_params b)).

Lemma swap_seeing inf h t u : 0 < h -> length u = 2%nat -> ~ blind 2 h (jac_of (r_swap inf) t u).
Proof.
  intros Hh Lu (_ & H). specialize (H 0%nat ltac:(lia)). cbn [Nat.eqb] in H.
  destruct u as [|x [|y [|]]]; try discriminate.
  unfold entry, vect in H. cbn [the_jacobian vect r_swap builder_default b_dfdu b_dudt b_params length seq map nth] in H.
  cbn [comp nth] in H. set (d := fd_step x) in H.
  assert (0 < d) as Hd by exact (fd_delta_pos (inf := inf) x).
  assert (0 < radau_gamma / h) as Hg by (apply Rdiv_lt_0_compat; [unfold radau_gamma; lra|exact Hh]).
  rewrite <- H in Hg. clear H. cbn in Hg. unfold r_swap_rhs in Hg. cbn in Hg.
  replace ((y + 0 - (x + d) - (y - x)) / d) with (-1) in Hg by (field; lra). lra.
Qed.

Lemma swap_reached inf : exists fuel k s0 s, build Radau5 (r_swap inf) = Ok s0 /\ reached Radau5 None fuel (S k) s0 s.
Proof.
  destruct (swap_ex inf) as (_ & _ & _ & _ & fuel & fuel2 & s0 & s & Hb & H & _).
  apply (integrate_split Radau5 None) in H as (k & s1 & _ & Hc & Hs).
  exists fuel, k, s0, s. split; [assumption|]. econstructor; eassumption.
Qed.
