(** Two calls of Radau5 with a callback that moves [u], in exact arithmetic. *)
From Coq Require Import ZArith List Bool Lia Reals Lra.
From RecordUpdate Require Import RecordSet.
From Verif Require Import Arith Vec Core Spec Jacobian Linalg Driver VecFacts DP5Facts DP5Inv LinFacts LinFactsC
  Radau RadauFacts RadauStep RadauInv RadauHist RadauSafe RadauKeep RadauJac ArithR SpecODE SpecRadau DP5Time RadauR RadauTime
  RadauRForms RadauREx RadauJump SpecStage StageForms.
Import ListNotations RecordSetNotations.
Local Open Scope R_scope.

Section Ex.
Context (inf : R).
Notation RI := (RA inf).
Notation state := (integ RI unit (radau_cache RI)).
Notation alg := (@Radau5 RI unit).

(** Adds one to every component. *)
Definition lift_u (s : state) : list R := map (Rplus 1) (i_u s).

Lemma lifted_two : exists (s0 s1 s2 : state) r, build alg (r_rest inf 0 1 1) = Ok s0 /\
  continues alg (jump inf lift_u) 1 1 s0 s1 /\ step alg (jump inf lift_u) 1 s1 = Ok (s2, r) /\
  ts (i_sol s2) <> ts (i_sol s1) /\ last_opt (us (i_sol s1)) <> Some (i_u s1).
Proof.
  destruct (rest_one inf 1 ltac:(lra)) as (s0 & s1 & Hb & H & E1 & E2 & E3 & E4 & E5 & E6 & E7 & E8 & E9 & E10).
  assert (reached alg None 1 1 s0 s1) as Hr by (econstructor; [constructor|exact H]).
  pose proof (r_rest_sane inf 0 1 1 ltac:(lra)) as Ho.
  assert (0 < b_dt (r_rest inf 0 1 1)) as Hdt by (rewrite r_rest_dt; lra).
  destruct (fwd_growth inf _ 1 0 s0 s0 s1 _ Ho Hdt ltac:(cbn; lra) Hb ltac:(constructor) E10 H E8) as (_ & Hg).
  cbv zeta in Hg. rewrite E2, E3 in Hg. change (b_tfinal (r_rest inf 0 1 1)) with 1 in Hg.
  change (o_facr (b_opts (r_rest inf 0 1 1))) with (rlit 1 8) in Hg.
  change (o_facl (b_opts (r_rest inf 0 1 1))) with (rlit 5 1) in Hg.
  change (o_dtmax (b_opts (r_rest inf 0 1 1))) with 1 in Hg.
  change (o_quot1 (b_opts (r_rest inf 0 1 1))) with (rlit 1 1) in Hg.
  assert (2/10000000 <= i_dt s1 <= 8/1000000) as Hs.
  { destruct Hg as [(Hg1 & Hg2)|((Hg1 & Hg2) & _)].
    - exfalso. pose proof (Rmin_l (1 / 1000000 / rlit 1 8) 1) as Hl. unfold rlit in *. rnorm. lra.
    - rewrite Rmin_left in Hg1 by (unfold rlit; lra). unfold rlit in *. rnorm. lra. }
  destruct (run_ready inf _ 1 1 s0 s1 Ho ltac:(left; split; [cbn; lra|exact Hdt]) Hb Hr E8) as (_ & _ & Ef & Ed).
  change (b_tfinal (r_rest inf 0 1 1)) with 1 in Ef, Ed. change (b_t (r_rest inf 0 1 1)) with 0 in Ed.
  destruct (Rlt_dec 1 0) as [|_]; [lra|].
  assert (length (i_u s1) = 1%nat) as L1 by apply E9.
  assert (exists q, us (i_sol s1) = q ++ [i_u s1]) as (q & Eus).
  { pose proof H as H'. apply step_radau_inv in H' as (x & Hx & Ex). cbn [run_callback] in Ex. subst x.
    apply radau_step_cases in Hx as [Ee|Ff].
    - exists (us (i_sol s0)). apply (rse_us _ _ Ee).
    - destruct (rsf_rc _ _ Ff E8).
    - exact (ju_reject _ _ _ (jumped_build inf _ s0 Hb)). }
  set (j := s1 <| i_u := (lift_u s1 : vec RI) |>).
  assert (rest inf j) as Hrj.
  { destruct E9 as [Q1 Q2 Q3 Q4 Q5 Q6 Q7 Q8 Q9 Q10]. constructor; try assumption.
    split; [|exact (proj2 Q3)]. change (length (map (Rplus 1) (i_u s1)) = 1%nat). rewrite map_length. exact L1. }
  assert (radau_clip j = j) as Ec.
  { destruct (radau_clip_cases inf j) as [(C & _)|(_ & C)]; [exfalso|exact C].
    change (i_t j) with (i_t s1) in C. change (i_dt j) with (i_dt s1) in C.
    change (i_tfinal j) with (i_tfinal s1) in C. change (i_tdir j) with (i_tdir s1) in C.
    rewrite Ef, Ed, E3 in C. rnorm. lra. }
  destruct (rest_step inf 0 j Hrj (or_intror E7)) as (s2 & r & H2 & Hd & _).
  - rewrite Ec. change (i_dt j) with (i_dt s1). rnorm. lra.
  - exact E6.
  - change (steps (i_stats j)) with (steps (i_stats s1)). change (i_opts j) with (i_opts s1). rewrite E5, E4, r_rest_max. lia.
  - rewrite Ec. change (i_t j) with (i_t s1). change (i_dt j) with (i_dt s1).
    rewrite E3, Rabs_right by lra. rewrite Rabs_right by (rnorm; lra).
    pose proof reps_small as Hp. revert Hp Hs. generalize reps. cbn. intros; nra.
  - rewrite Ec in Hd. apply step_radau_inv in H2 as (x & Hx & Ex). cbn [run_callback] in Ex. subst x.
    exists s0, j. do 2 eexists. split; [exact Hb|]. split; [|split; [|split]].
    + econstructor; [|constructor]. apply step_radau_inv in H as (x & Hx1 & Ex). cbn [run_callback] in Ex. subst x.
      unfold step. cbn [alg_step Radau5]. rewrite Hx1. cbn [bind run_callback jump]. fold j.
      change (rc (i_sol j)) with (rc (i_sol s1)). rewrite E8. reflexivity.
    + unfold step. cbn [alg_step Radau5]. rewrite Hx. reflexivity.
    + destruct Hd as [D1 D2 D3 D4 D5 D6 D7 D8 D9 D10].
      change (ts (i_sol s2) <> ts (i_sol j)). intros E. pose proof (eq_trans (eq_sym D4) E) as E'. apply (f_equal (@length _)) in E'.
      rewrite app_length in E'. cbn in E'. rlia.
    + change (i_sol j) with (i_sol s1). rewrite Eus, last_opt_app. change (i_u j) with (lift_u s1). unfold lift_u.
      destruct (i_u s1) as [|a [|? ?]]; try discriminate L1. cbn. intros E. injection E. cbn in *. lra.
Qed.
End Ex.
