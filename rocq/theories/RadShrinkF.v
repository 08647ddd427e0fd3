(** Forward Radau5 runs in binary64: rejected attempts shrink the step. *)
From Coq Require Import ZArith List Bool Lia Reals Lra Psatz.
From RecordUpdate Require Import RecordSet.
From Flocq Require Import Core BinarySingleNaN.
From Verif Require Import Arith Vec Core Spec Jacobian Linalg Driver VecFacts DP5Facts DP5Inv LinFacts LinFactsC
  Radau RadauFacts RadauStep RadauInv RadauHist RadauKeep ArithF FFacts FMono FOrder FReduce FStrict SpecF64 SpecF64R DP5Mono RadauMono
  DP5MaxF DP5RatioF RadRatioF.
Import ListNotations RecordSetNotations.
Local Open Scope R_scope.
Local Existing Instance prec_gt_0_53.
Local Existing Instance prec_lt_emax_53.

(** [k] reductions of a step size. *)
Definition shrinks (k : nat) (d d' : f64) : Prop :=
  fnn d' /\ B2R d' <= B2R d /\ (bpow radix2 (-1000) <= B2R d' -> B2R d' * (1003/1000) ^ k <= B2R d).
Lemma shrinks_0 d d' : fnn d' -> B2R d' <= B2R d -> shrinks 0 d d'.
Proof. intros H1 H2. split; [assumption|]. split; [assumption|]. intros _. rewrite pow_O. lra. Qed.
Lemma shrinks_S k d d1 d' : fnn d -> reduced d d1 -> shrinks k d1 d' -> shrinks (S k) d d'.
Proof.
  intros Hd Hr (H1 & H2 & H3). pose proof (reduced_le _ _ Hd Hr) as Hle. split; [assumption|]. split; [lra|].
  intros Hb. specialize (H3 Hb). destruct Hr as (_ & Hr).
  pose proof (rnd_shrink (B2R d) ltac:(lra)) as Sh.
  rewrite <- tech_pow_Rmult. apply Rle_trans with (B2R d1 * (1003/1000)); [|lra].
  replace (B2R d' * (1003 / 1000 * (1003 / 1000) ^ k)) with (B2R d' * (1003 / 1000) ^ k * (1003/1000)) by ring.
  apply Rmult_le_compat_r; lra.
Qed.

Section RadShrink.
Context (fpowf : f64 -> f64 -> f64) (fpowi : f64 -> Z -> f64) {P : Type}.
Notation A := (F64 fpowf fpowi).
Notation state := (integ A P (radau_cache A)).
Notation alg := (@Radau5 A P).
Notation ftrial := (ftrial fpowf fpowi).
Notation ends := (ends fpowf fpowi).

Lemma ftrial_reduced (s s1 s2 : state) : fnn (i_dt s) -> ftrial s s1 -> reduced (i_dt s1) (i_dt s2) -> reduced (i_dt s) (i_dt s2).
Proof.
  intros Hd [_ _ _ [(E & _)|(E & _)]] H; [now rewrite <- E|]. eapply reduced_trans; eassumption.
Qed.
Lemma ftrial_le (s s1 : state) : fnn (i_dt s) -> ftrial s s1 -> B2R (i_dt s1 : f64) <= B2R (i_dt s : f64).
Proof.
  intros Hd [_ _ _ [(E & _)|(E & _)]]; [rewrite E; lra|]. now apply reduced_le.
Qed.

(** The result of an attempt, with the count of attempts. *)
Definition cresult (s : state) (r : state + state) : Prop :=
  match r with
  | inl s' => (ftrial s s' /\ reduced (i_dt s) (i_dt s') /\ steps (i_stats s') = S (steps (i_stats s))) \/
      (exists s1, ftrial s s1 /\ accepted s1 s' /\ reject (i_cache s') = true)
  | inr s' => quiet s s' /\ ends s s' \/
      (exists s1, ftrial s s1 /\ accepted s1 s' /\ steps (i_stats s1) = S (steps (i_stats s)))
  end.
Lemma radau_attempt_c fi (s : state) r : radau_f64_sane (i_opts s) -> Bsign (cfac (i_cache s) : f64) = false ->
  fnn (i_dt s) -> radau_attempt fi s = Ok r -> cresult s r.
Proof.
  intros So Sc Hd H. apply radau_attempt_cases in H as (r1 & H1 & H).
  destruct r1 as [s1|s1].
  2: { subst r. left. destruct (decompose (i_cache s)); [|discriminate].
       apply decomp_loop_inv in H1. cbv zeta in H1. destruct H1 as (Hq & _ & _ & _ & _ & _ & _ & _ & Hrc).
       split; [assumption|]. intros Hc. destruct Hrc as [(E & _)|(E & E2 & _)]; [|congruence]. rewrite E. split; discriminate. }
  assert (ftrial s s1 /\ steps (i_stats s1) = steps (i_stats s)) as (Ht1 & Hst1).
  { destruct (decompose (i_cache s)).
    - split; [eapply decomp_ftrial; eassumption|]. apply decomp_loop_inv in H1. cbv zeta in H1. apply H1.
    - inversion H1; subst s1. split; [|reflexivity]. apply ftrial_same; try reflexivity. apply quiet_refl_f. }
  clear H1. cbv zeta in H.
  pose proof (ftrial_trans _ _ _ _ _ Hd Ht1 (count_ftrial _ _ s1)) as Ht. clear Ht1.
  assert (steps (i_stats (count_step s1)) = S (steps (i_stats s))) as Hst2 by (cbn; now rewrite Hst1).
  clear Hst1.
  revert H Ht Hst2. generalize (count_step s1) as s2. clear s1. intros s2 H Ht Hst.
  pose proof (ftrial_fnn _ _ _ _ Hd Ht) as Hd2.
  assert (radau_f64_sane (i_opts s2)) as So2 by (rewrite (quiet_opts_f _ _ _ _ (ft_quiet _ _ _ _ Ht)); exact So).
  assert (forall r0, quiet s (exit_with r0 s2)) as Hex.
  { intros r0. eapply quiet_trans; [apply Ht|apply exit_quiet]. }
  destruct H as [(_ & ->)|[(_ & _ & ->)|[(_ & _ & s3 & H & ->)|(_ & Hti & s3 & s4 & s5 & H2 & H3 & H4 & ->)]]].
  - left. split; [apply Hex|intros _; split; discriminate].
  - left. split; [apply Hex|intros _; split; discriminate].
  - left. pose proof (newton_fail_ftrial _ _ _ _ _ So2 Hd2 H) as Ht3.
    split; [eapply ftrial_trans; eassumption|].
    apply newton_inv in H as (_ & _ & _ & H). destruct (H eq_refl) as (Hf & _ & _ & fac & Hn & Hdt & _).
    split; [|rewrite <- Hst; apply Hf].
    eapply ftrial_reduced; [assumption|exact Ht|]. rewrite Hdt.
    destruct (newton_factor_f _ _ _ _ So2 Hn) as (Ff & Pf). now apply reduced_mul.
  - assert (steps (i_stats s3) = steps (i_stats s2)) as Hst3.
    { pose proof H2 as H5. apply newton_inv in H5 as (_ & _ & H5 & _). apply (H5 eq_refl). }
    assert (steps (i_stats (force_decompose s4)) = S (steps (i_stats s))) as Hst4.
    { transitivity (steps (i_stats s3)); [|congruence]. pose proof H3 as H5. apply error_estimate_inv in H5. apply H5. }
    apply newton_ok_ftrial in H2. apply estimate_ftrial in H3.
    pose proof (ftrial_trans _ _ _ _ _ Hd (ftrial_trans _ _ _ _ _ Hd (ftrial_trans _ _ _ _ _ Hd Ht H2) H3) (force_ftrial _ _ s4)) as Ht4.
    rewrite step_size_control_eq in H4.
    change (err (i_cache s4)) with (err (i_cache (force_decompose s4))) in H4.
    revert H4 Ht4 Hst4. generalize (force_decompose s4) as s6. clear Ht Hex H2 H3 Hd2 So2 Hti Hst Hst3. clear s2 s3 s4.
    intros s4 H4 Ht Hst.
    destruct (ltb A (err (i_cache s4)) n1) eqn:Ee.
    + assert (accepted s4 s5) as Ha by (apply radau_accept_inv; exact H4).
      destruct (reject (i_cache s5)) eqn:Er; right; exists s4; auto.
    + pose proof (quiet_opts_f _ _ _ _ (ft_quiet _ _ _ _ Ht)) as Eo.
      assert (reject (i_cache s5) = true /\ steps (i_stats s5) = steps (i_stats s4)) as (Er & Est).
      { pose proof H4 as H5. apply radau_reject_inv in H5. split; apply H5. }
      assert (radau_f64_sane (i_opts s4)) as So4 by now rewrite Eo.
      assert (Bsign (cfac (i_cache s4) : f64) = false) as Sc4 by (rewrite (ft_cfac _ _ _ _ Ht); assumption).
      pose proof (ftrial_fnn _ _ _ _ Hd Ht) as Hd4.
      rewrite Er. left. split; [eapply ftrial_trans; [assumption|exact Ht|]; eapply reject_ftrial; eassumption|].
      split; [|congruence]. eapply ftrial_reduced; [assumption|exact Ht|].
      pose proof (quot_reject_f _ _ s4 So4 Sc4 Ee) as Hq.
      apply radau_reject_inv in H4 as (_ & _ & _ & _ & _ & _ & _ & _ & _ & _ & _ & _ & Hf1 & Hf0 & _).
      destruct (first (i_cache s4)).
      * rewrite (Hf1 eq_refl). apply reduced_mul; [assumption|apply f_tenth..].
      * rewrite (Hf0 eq_refl). now apply reduced_div.
Qed.

Lemma radau_loop_c fi : forall fuel (s s' : state), radau_f64_sane (i_opts s) ->
  Bsign (cfac (i_cache s) : f64) = false -> fnn (i_dt s) -> ftidy fpowf fpowi s ->
  radau_loop fi fuel s = Ok s' ->
  quiet s s' /\ ends s s' \/
  exists k, steps (i_stats s') = (steps (i_stats s) + k + 1)%nat /\ shrinks k (i_dt s) (i_dtprev s').
Proof.
  induction fuel as [|fuel IH]; intros s s' So Sc Hd Ht H; [discriminate|]. cbn [radau_loop] in H.
  apply bind_ok in H as (r & H1 & H). apply radau_attempt_c in H1; [|assumption..].
  assert (forall s1, ftrial s s1 -> ftidy fpowf fpowi s1) as Hti.
  { intros s1 [_ _ _ [(_ & E1 & E2)|(_ & E1 & _)]]; unfold ftidy in *; rewrite E1; [|discriminate].
    rewrite E2. exact Ht. }
  destruct r as [s1|s1]; cbn [cresult] in H1.
  - destruct H1 as [(H1 & Hred & Hst)|(s2 & H1 & Ha & Hr)].
    + destruct (IH s1 s') as [(Hq & Hrc)|(k & Hk & Hs)]; try assumption.
      * now rewrite (quiet_opts_f _ _ _ _ (ft_quiet _ _ _ _ H1)).
      * now rewrite (ft_cfac _ _ _ _ H1).
      * apply Hred.
      * now apply Hti.
      * left. split; [eapply quiet_trans; [apply H1|exact Hq]|]. intros Hc. apply Hrc. rewrite (ft_rc _ _ _ _ H1). exact Hc.
      * right. exists (S k). split; [lia|]. eapply shrinks_S; eassumption.
    + exfalso. specialize (Hti _ H1). destruct (last (i_cache s2)) eqn:El.
      * destruct (ac_last _ _ Ha El) as (E & _). rewrite E, (Hti El) in Hr. discriminate.
      * destruct (ac_next _ _ Ha El) as (E & _). congruence.
  - inversion H; subst s'. destruct H1 as [H1|(s2 & H1 & Ha & Hst)]; [left; exact H1|]. right. exists O.
    rewrite (ac_steps _ _ Ha), (ac_dtprev _ _ Ha). split; [lia|].
    apply shrinks_0; [eapply ftrial_fnn; eassumption|now apply ftrial_le].
Qed.

(** C11 in binary64. *)
Lemma radau_f64_shrink (b : builder A P) fuel k0 (s0 s s' : state) r :
  radau_f64_forward b -> build alg b = Ok s0 -> reached alg None fuel k0 s0 s -> rc (i_sol s) = RContinue ->
  step alg None fuel s = Ok (s', r) -> rc (i_sol s') = RContinue \/ rc (i_sol s') = RSuccess ->
  exists k, steps (i_stats s') = (steps (i_stats s) + k + 1)%nat /\
    let trial := if fleb fzero (fsub (fadd (i_t s) (fmul (i_dt s) (f_lit 10001 10000))) (fmul (b_tfinal b) (f_lit 1 1)))
                 then fsub (b_tfinal b) (i_t s) else i_dt s in
    is_finite (i_dtprev s' : f64) = true /\ 0 <= B2R (i_dtprev s' : f64) <= B2R (trial : f64) /\
    (bpow radix2 (-1000) <= B2R (i_dtprev s' : f64) -> B2R (i_dtprev s' : f64) * (1003/1000) ^ k <= B2R (trial : f64)).
Proof.
  intros Hb H Hre Hc Hs Hc'. pose proof (r_runs _ _ _ _ _ _ _ Hb H Hre) as Hi.
  pose proof (r_ready _ _ b s Hb Hi Hc) as Rd.
  unfold step in Hs. apply bind_ok in Hs as (s3 & Hs & E). cbn [run_callback] in E.
  injection E as E _. subst s3. cbn [alg_step Radau5 Cache] in Hs. unfold radau_step in Hs.
  pose proof (clip_aims _ _ s Rd) as (Hn & _). destruct Rd as [So Sc Hd Ft Ff Hle Fs Hr Hdt].
  destruct (radau_clip_frame s) as (Cq & _ & Csol & Cst & _ & Cc & _). cbv zeta in *.
  assert (reject (i_cache (radau_clip s)) = false) as Cr by (rewrite Cc; exact Hr).
  assert (cfac (i_cache (radau_clip s)) = cfac (i_cache s)) as Ccf by (rewrite Cc; reflexivity).
  destruct (q_prob _ _ Cq) as (_&_&_&_&Cd&Cf&Co).
  apply radau_loop_c in Hs; [|now rewrite Co|now rewrite Ccf|exact Hn|intros _; exact Cr].
  destruct Hs as [(Hq & Hrc)|(k & Hk & (F & P0) & Hle2 & Hsh)].
  { exfalso. destruct Hrc as (Hn1 & Hn2); [now rewrite Csol|]. destruct Hc'; contradiction. }
  exists k. split; [rewrite Hk; f_equal; f_equal; now rewrite Cst|].
  set (trial := if fleb fzero _ then _ else _).
  assert (i_dt (radau_clip s) = trial) as Et.
  { unfold trial, radau_clip. rewrite Hd, <- f_lit_one, <- (rn_tfinal _ _ _ _ Hi).
    match goal with |- _ = (if ?c then _ else _) => change (leb A n0 _) with c; destruct c end; reflexivity. }
  rewrite <- Et. split; [exact F|]. split; [|exact Hsh]. split; [|exact Hle2].
  exact P0.
Qed.
End RadShrink.
