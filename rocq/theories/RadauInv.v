(** Invariants of Radau5 runs in every arithmetic: history, counters, frame and
    termination. *)
From Coq Require Import ZArith List Bool Lia.
From RecordUpdate Require Import RecordSet.
From Verif Require Import Arith Vec Core Spec Jacobian Linalg Driver VecFacts DP5Facts DP5Inv LinFacts LinFactsC
  Radau RadauFacts RadauStep.
Import ListNotations RecordSetNotations.

Section RadauInv.
Context {A : arith} {P : Type}.
Notation state := (integ A P (radau_cache A)).
Notation alg := (@Radau5 A P).

(** ** The loop *)
(** Return codes a step may set without recording a point. *)
Definition soft_rc (r r' : retcode) : Prop :=
  r' = r \/ r' = RMaxIters \/ r' = RDtLessThanMin \/ r' = RSingularMatrix.

(** A sequence of phases, each of which records nothing or accepts. *)
Inductive moves : state -> state -> Prop :=
| mv_refl s : moves s s
| mv_quiet s s1 s2 : quiet s s1 -> (forall w, balance w s -> balance w s1) ->
    soft_rc (rc (i_sol s)) (rc (i_sol s1)) -> moves s1 s2 -> moves s s2
| mv_accept s s1 s2 : accepted s s1 -> moves s1 s2 -> moves s s2.

Lemma moves_trans a b c : moves a b -> moves b c -> moves a c.
Proof.
  induction 1 as [s|s s1 s2 Hq Hb Hr Hm IH|s s1 s2 Ha Hm IH]; intros H'; [assumption| |].
  - eapply mv_quiet; eauto.
  - eapply mv_accept; eauto.
Qed.

Lemma tried_moves s s1 : tried s s1 -> moves s s1.
Proof. intros []. eapply mv_quiet; [eassumption|assumption|left; assumption|constructor]. Qed.
Lemma took_moves s s' : took s s' -> moves s s'.
Proof.
  intros (s1 & H & _ & _ & _ & _ & Ha). eapply moves_trans; [apply tried_moves; exact H|].
  eapply mv_accept; [exact Ha|constructor].
Qed.
Lemma gave_up_moves s s' : gave_up s s' -> moves s s'.
Proof.
  intros (Hq & Hb & _ & H). eapply mv_quiet; [exact Hq|exact Hb| |constructor].
  unfold soft_rc. destruct H as [(H & _)|[(H & _)|[(H & _)|(H & _)]]]; auto.
Qed.

Lemma radau_attempt_moves fuel (s : state) r : radau_attempt fuel s = Ok r ->
  moves s (match r with inl x => x | inr x => x end).
Proof.
  intros H. apply radau_attempt_inv in H. destruct r as [s'|s'].
  - destruct H as [(H & _ & _)|(H & _)]; [apply tried_moves|apply took_moves]; assumption.
  - destruct H as [H|(H & _)]; [apply gave_up_moves|apply took_moves]; assumption.
Qed.

Lemma radau_loop_moves fi : forall fuel (s s' : state), radau_loop fi fuel s = Ok s' -> moves s s'.
Proof.
  induction fuel as [|fuel IH]; intros s s' H; [discriminate|]. cbn [radau_loop] in H.
  apply bind_ok in H as (r & H1 & H). apply radau_attempt_moves in H1. destruct r as [s1|s1].
  - eapply moves_trans; [exact H1|]. now apply IH.
  - inversion H; subst. exact H1.
Qed.

Lemma radau_clip_frame (s : state) : let s' := radau_clip s in
  quiet s s' /\ (forall w, balance w s -> balance w s') /\ i_sol s' = i_sol s /\ i_stats s' = i_stats s /\
  i_trace s' = i_trace s /\ i_cache s' = i_cache s <| last := last (i_cache s') |> /\
  ((i_dt s' = i_dt s /\ last (i_cache s') = last (i_cache s)) \/
   (i_dt s' = sub A (i_tfinal s) (i_t s) /\ last (i_cache s') = true)).
Proof.
  cbv zeta. unfold radau_clip. destruct (leb A _ _).
  - split; [constructor; [repeat split|repeat split|reflexivity..|cbn; lia|cbn; lia]|].
    split; [auto|]. repeat split. right. split; reflexivity.
  - split; [apply quiet_refl|]. split; [auto|]. repeat split; [|left; auto].
    apply radau_cache_ext; reflexivity.
Qed.

Lemma radau_step_moves fuel (s s' : state) : radau_step fuel s = Ok s' -> moves s s'.
Proof.
  unfold radau_step. intros H. apply radau_loop_moves in H.
  destruct (radau_clip_frame s) as (Hq & Hb & Hs & _).
  eapply mv_quiet; [exact Hq|exact Hb|left; now rewrite Hs|exact H].
Qed.

(** ** One [step()] call of a run that is not stepped on after an error *)
(** Zero or more rejected attempts. *)
Record waiting (s s' : state) : Prop := mkWait {
  wa_quiet : quiet s s';
  wa_bal : forall w, balance w s -> balance w s';
  wa_rc : rc (i_sol s') = rc (i_sol s);
  wa_max : s' = s \/ (steps (i_stats s) < steps (i_stats s') < o_max_steps (i_opts s) /\
                      reject (i_cache s') = true /\ last (i_cache s') = false) }.

Lemma waiting_refl s : waiting s s.
Proof. constructor; auto using quiet_refl. Qed.

Definition tidy (s : state) : Prop := last (i_cache s) = true -> reject (i_cache s) = false.

Lemma took_tidy s s' : tidy s -> took s s' -> reject (i_cache s') = false.
Proof.
  intros Ht (s1 & _ & Htry & _ & _ & _ & Ha). destruct (last (i_cache s1)) eqn:El.
  - destruct (ac_last _ _ Ha El) as (E & _). rewrite E.
    destruct Htry as [(_ & E1 & E2)|(_ & E1 & _)]; [|congruence]. rewrite E2. apply Ht. congruence.
  - destruct (ac_next _ _ Ha El) as (E & _). exact E.
Qed.

Lemma radau_loop_inv fi : forall fuel (s s' : state), tidy s -> radau_loop fi fuel s = Ok s' ->
  exists mid, waiting s mid /\ (gave_up mid s' \/ (took mid s' /\ reject (i_cache s') = false)).
Proof.
  induction fuel as [|fuel IH]; intros s s' Ht H; [discriminate|]. cbn [radau_loop] in H.
  apply bind_ok in H as (r & H1 & H). apply radau_attempt_inv in H1. destruct r as [s1|s1].
  - destruct H1 as [(Htr & Hr & Hl)|(Htk & Hr)].
    2: { rewrite (took_tidy _ _ Ht Htk) in Hr. discriminate. }
    assert (tidy s1) as Ht1 by (intros E; congruence).
    destruct (IH _ _ Ht1 H) as (mid & [Wq Wb Wr Wm] & Hend). exists mid. split; [|exact Hend].
    destruct Htr. constructor.
    + eapply quiet_trans; eassumption.
    + auto.
    + congruence.
    + right. assert (i_opts s1 = i_opts s) as Eo by (destruct (q_prob _ _ tr_quiet) as (_&_&_&_&_&_&E); exact E).
      destruct Wm as [->|(Wm & Wr' & Wl)].
      * split; [lia|]. auto.
      * rewrite Eo in Wm. split; [lia|]. auto.
  - exists s. split; [apply waiting_refl|]. inversion H; subst s1. exact H1.
Qed.

(** Everything a [step()] call that accepts does to the visible fields. *)
Record radau_step_effect (s s' : state) : Prop := mkRSE {
  rse_problem : problem_kept s s';
  rse_ts : ts (i_sol s') = ts (i_sol s) ++ [i_t s'];
  rse_us : us (i_sol s') = us (i_sol s) ++ [i_u s'];
  rse_tprev : i_tprev s' = i_t s;
  rse_uprev : i_uprev s' = i_uprev s;
  rse_t : i_t s' = add A (i_t s) (i_dtprev s');
  rse_lens : length (i_u s') = length (i_u s);
  rse_steps : steps (i_stats s) < steps (i_stats s') < o_max_steps (i_opts s);
  rse_accepts : accepts (i_stats s') = S (accepts (i_stats s));
  rse_jev : jacobian_evals (i_stats s') = jacobian_evals (i_stats s);
  rse_bal : forall w, balance w s -> balance w s';
  rse_rc : rc (i_sol s') = rc (i_sol s) \/ rc (i_sol s') = RSuccess;
  rse_reject : reject (i_cache s') = false }.

(** ... and one that does not. *)
Record radau_step_failure (s s' : state) : Prop := mkRSF {
  rsf_quiet : quiet s s';
  rsf_bal : forall w, balance w s -> balance w s';
  rsf_rc : rc (i_sol s') <> RContinue;
  rsf_reason : rc (i_sol s) = RContinue ->
    (rc (i_sol s') = RMaxIters /\ o_max_steps (i_opts s) <= steps (i_stats s')) \/
    (rc (i_sol s') = RDtLessThanMin /\ steps (i_stats s') < o_max_steps (i_opts s) /\
     leb A (mul A (lit A 1 10) (nabs A (i_dt s'))) (mul A (nabs A (i_t s')) (eps A)) = true) \/
    (rc (i_sol s') = RSingularMatrix /\ 5 <= nsing (i_cache s')) }.

Lemma radau_step_inv fuel (s s' : state) : reject (i_cache s) = false -> radau_step fuel s = Ok s' ->
  exists mid, waiting (radau_clip s) mid /\ (gave_up mid s' \/ (took mid s' /\ reject (i_cache s') = false)).
Proof.
  intros Hr H. unfold radau_step in H. apply radau_loop_inv in H; [exact H|].
  intros _. destruct (radau_clip_frame s) as (_ & _ & _ & _ & _ & E & _). rewrite E. exact Hr.
Qed.

Lemma same_problem_opts (s s' : state) : same_problem s s' -> i_opts s' = i_opts s.
Proof. intros (_&_&_&_&_&_&E); exact E. Qed.

Lemma radau_step_cases fuel (s s' : state) : reject (i_cache s) = false -> radau_step fuel s = Ok s' ->
  radau_step_effect s s' \/ radau_step_failure s s'.
Proof.
  intros Hr H. apply radau_step_inv in H as (mid & [Wq Wb Wr Wm] & H); [|exact Hr].
  destruct (radau_clip_frame s) as (Cq & Cb & Cs & Cst & _).
  revert Wq Wb Wr Wm Cq Cb Cs Cst. generalize (radau_clip s) as sc. intros.
  assert (quiet s mid) as Hq by (eapply quiet_trans; eassumption).
  assert (forall w, balance w s -> balance w mid) as Hb by auto.
  assert (rc (i_sol mid) = rc (i_sol s)) as Hrc by congruence.
  assert (i_opts mid = i_opts s) as Ho by exact (same_problem_opts _ _ (q_prob _ _ Hq)).
  clear Wq Wb Wr Wm Cq Cb Cs Cst sc.
  destruct H as [(G1 & G2 & _ & G3)|((s1 & [T1 T2 T3 T4 T5] & _ & _ & _ & _ & Ha) & Hr')].
  - right. assert (quiet s s') as Hq' by (eapply quiet_trans; eassumption).
    constructor; [assumption|auto| |].
    + destruct G3 as [(E & _)|[(E & _)|[(E & _)|(E & E' & _)]]]; congruence.
    + intros Ec. rewrite Ho in G3.
      destruct G3 as [(E & E1 & _)|[(E & E1 & _ & E2)|[(E & E1 & _)|(E & E' & _)]]]; auto 6. congruence.
  - left. assert (quiet s s1) as Hq1 by (eapply quiet_trans; eassumption).
    destruct Ha. destruct Hq1 as [Qp (Qu & Qt & Qup & Qtp & Qts & Qus) Qd Qa Qj Qs Qn].
    pose proof (q_steps _ _ Hq).
    constructor; try congruence.
    + exact (same_problem_trans _ _ _ Qp ac_prob).
    + rewrite ac_u, tab_length. congruence.
    + rewrite Ho in T4. lia.
    + auto.
    + destruct (last (i_cache s1)); [right; exact ac_rc|left; congruence].
Qed.

(** The public [step()]. *)
Lemma step_radau_inv (cb : callback A P (radau_cache A)) fuel (s s' : state) r :
  step alg cb fuel s = Ok (s', r) -> exists s1, radau_step fuel s = Ok s1 /\ s' = run_callback cb s1.
Proof.
  unfold step. intros H. apply bind_ok in H as (s1 & Hs & E). inversion E; subst.
  exists s1. split; [exact Hs|reflexivity].
Qed.
End RadauInv.
