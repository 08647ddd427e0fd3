(** One Radau5 step in exact arithmetic: how the trial step shrinks, and when
    the user's functions are called. *)
From Coq Require Import ZArith List Bool Lia Reals Lra.
From RecordUpdate Require Import RecordSet.
From Verif Require Import Arith Vec Core Spec Jacobian Linalg Driver VecFacts DP5Facts LinFacts LinFactsC
  Radau RadauFacts RadauStep RadauInv RadauKeep ArithR SpecRadau.
Import ListNotations RecordSetNotations.
Local Open Scope R_scope.

Section RadauR.
Context {P : Type} (inf : R).
Notation RI := (RA inf).
Notation state := (integ RI P (radau_cache RI)).

(** ** Numbers *)
Lemma halve_R k (x : R) : halve (A := RI) k x = x * (1/2)^k.
Proof.
  revert x. induction k as [|k IH]; intros x; cbn [halve pow]; [lra|]. rewrite IH. rnorm. ring.
Qed.
Lemma half_pow k : 0 < (1/2)^k <= 1 /\ (k <> 0%nat -> (1/2)^k < 1).
Proof.
  induction k as [|k [IH _]]; cbn [pow]; [split; [lra|intros []; reflexivity]|]. split; [lra|intros _; lra].
Qed.

Lemma Rpower_le_1 q y : 1 <= q -> y <= 0 -> 0 < Rpower q y <= 1.
Proof.
  intros Hq Hy. unfold Rpower. split; [apply exp_pos|]. rewrite <- exp_0.
  assert (y * ln q <= 0) as [H|H].
  { assert (0 <= ln q) as H by (rewrite <- ln_1; destruct Hq as [Hq| <-];
      [left; apply ln_increasing; lra|right; reflexivity]). nra. }
  - left. now apply exp_increasing.
  - right. now rewrite H.
Qed.
Lemma Rpower_ge_1 q y : 1 <= q -> 0 <= y -> 1 <= Rpower q y.
Proof.
  intros Hq Hy. unfold Rpower. rewrite <- exp_0.
  assert (0 <= y * ln q) as [H|H].
  { assert (0 <= ln q) as H by (rewrite <- ln_1; destruct Hq as [Hq| <-];
      [left; apply ln_increasing; lra|right; reflexivity]). nra. }
  - left. now apply exp_increasing.
  - right. now rewrite <- H.
Qed.

Lemma newton_factor_R (fac : R) : newton_factor (A := RI) fac -> 0 < fac <= 8/10.
Proof.
  intros [->|(dyth & k & H1 & -> & Hk)]; rnorm; [lra|].
  apply Rleb_true in H1.
  set (q := Rmax (1 / 10000) (Rmin (20 / 1) dyth)) in *.
  assert (1 <= q) as Hq.
  { unfold q. eapply Rle_trans; [|apply Rmax_r]. apply Rmin_glb; lra. }
  rewrite rpow_pos by lra.
  assert (0 < IZR (Z.of_nat k)) as Hk' by (apply IZR_lt; lia).
  assert (0 < / IZR (Z.of_nat k)) as Hk2 by (apply Rinv_0_lt_compat; assumption).
  rewrite rdiv_ok by lra.
  assert (-1 / 1 / (IZR (Z.of_nat k) / 1) <= 0) as Hy.
  { replace (-1 / 1 / (IZR (Z.of_nat k) / 1)) with (- / IZR (Z.of_nat k)) by (field; lra). lra. }
  pose proof (Rpower_le_1 q _ Hq Hy). lra.
Qed.

(** ** The quotient *)
Lemma quot_range (s : state) : radau_sane (i_opts s) ->
  o_facr (i_opts s) <= radau_quot s <= o_facl (i_opts s).
Proof.
  intros [_ Hl Hr _ _]. unfold radau_quot. rnorm. split; [apply Rmax_l|].
  apply Rmax_lub; [lra|]. apply Rmin_l.
Qed.
Lemma quot_reject (s : state) : radau_sane (i_opts s) -> 0 < cfac (i_cache s) ->
  1 <= err (i_cache s) -> (0 < newt (i_cache s) + 2 * o_max_newt_iter (i_opts s))%nat ->
  Rmin (o_facl (i_opts s)) (/ o_safe (i_opts s)) <= radau_quot s.
Proof.
  intros [Hs Hl Hr _ _] Hc He Hn. unfold radau_quot. rnorm.
  eapply Rle_trans; [|apply Rmax_r]. apply Rmin_glb; [apply Rmin_l|]. eapply Rle_trans; [apply Rmin_r|].
  set (m := Z.of_nat _) in *. assert (1 <= IZR m) as Hm by (apply IZR_le; unfold m; lia).
  rewrite (rdiv_ok inf (cfac _)) by lra.
  set (fac := Rmin _ _).
  assert (0 < fac <= o_safe (i_opts s)) as Hf.
  { unfold fac. split; [|apply Rmin_l]. apply Rmin_glb_lt; [lra|]. apply Rdiv_lt_0_compat; lra. }
  rewrite rdiv_ok by lra. rewrite rpow_pos by lra.
  assert (1 <= Rpower (err (i_cache s)) (1/4)) as Hp by (apply Rpower_ge_1; lra).
  apply Rle_trans with (1 / fac); [|apply Rmult_le_compat_r; [left; apply Rinv_0_lt_compat; lra|assumption]].
  unfold Rdiv. rewrite Rmult_1_l. apply Rinv_le_contravar; lra.
Qed.

Lemma shrink_range (o : opts RI) : radau_sane o -> 8/10 <= radau_shrink o < 1.
Proof.
  intros [Hs Hl _ _ _]. unfold radau_shrink. split; [apply Rmax_l|].
  assert (/ o_facl o < 1) by (rewrite <- Rinv_1; apply Rinv_lt_contravar; lra).
  repeat apply Rmax_lub_lt; lra.
Qed.
Lemma inv_quot_reject (s : state) : radau_sane (i_opts s) -> 0 < cfac (i_cache s) ->
  1 <= err (i_cache s) -> (0 < newt (i_cache s) + 2 * o_max_newt_iter (i_opts s))%nat ->
  0 < / radau_quot s <= radau_shrink (i_opts s).
Proof.
  intros Ho Hc He Hn. pose proof (quot_reject s Ho Hc He Hn) as H. pose proof (quot_range s Ho) as (Hq & _).
  destruct Ho as [Hs Hl Hr _ _].
  split; [apply Rinv_0_lt_compat; lra|]. unfold radau_shrink.
  eapply Rle_trans; [|apply Rmax_r].
  assert (0 < / o_safe (i_opts s)) as Hi by (apply Rinv_0_lt_compat; lra).
  revert H. unfold Rmin. destruct (Rle_dec _ _) as [Hd|Hd]; intros H.
  - eapply Rle_trans; [|apply Rmax_r]. apply Rinv_le_contravar; [lra|assumption].
  - eapply Rle_trans; [|apply Rmax_l]. rewrite <- (Rinv_inv (o_safe (i_opts s))).
    apply Rinv_le_contravar; assumption.
Qed.

Lemma newton_max fuel (s s' : state) : newton fuel s = Ok (s', true) -> (0 < o_max_newt_iter (i_opts s))%nat.
Proof.
  unfold newton, guard. destruct (radau_shapes s); [|discriminate]. intros H.
  destruct fuel as [|fuel]; [discriminate|].
  match type of H with newton_loop _ _ ?x = _ =>
    assert (i_opts x = i_opts s /\ newt (i_cache x) = 0%nat) as (E1 & E2);
      [|revert H E1 E2; generalize x] end.
  { split; [|reflexivity]. unfold prepare_newton. destruct (_ || _); reflexivity. }
  intros x H E1 E2. rewrite newton_loop_S in H. rewrite E1, E2 in H.
  destruct (Nat.leb_spec (o_max_newt_iter (i_opts s)) 0) as [Hl|Hl]; [|assumption].
  apply newton_fail_inv in H as (H & _). discriminate.
Qed.

(** ** Trial steps *)
(** The event happened at a time of the step of length [d] from [t]. *)
Definition on_step (t d : R) (e : event RI) : Prop := exists m, 0 <= m <= 1 /\ ev_time e = t + m * d.
Definition evs_on (s s' : state) : Prop :=
  exists l, i_trace s' = l ++ i_trace s /\ Forall (on_step (i_t s) (i_dt s)) l.

Lemma on_step_at t d e : ev_time (A := RI) e = t -> on_step t d e.
Proof. intros H. exists 0. split; [lra|]. transitivity t; [exact H|rlra]. Qed.
Lemma on_step_shrink t d l e : 0 < l <= 1 -> on_step t (l * d) e -> on_step t d e.
Proof. intros Hl (m & Hm & E). exists (m * l). split; [nra|]. etransitivity; [exact E|]. rlra. Qed.

(** From [s] to [s1] the trial step is multiplied by [l], and cannot be the
    last one any more if it shrinks. *)
Definition shrunk (l : R) (s s1 : state) : Prop :=
  0 < l <= 1 /\ i_dt s1 = l * i_dt s /\
  (l = 1 /\ last (i_cache s1) = last (i_cache s) /\ reject (i_cache s1) = reject (i_cache s) \/
   l < 1 /\ last (i_cache s1) = false /\ reject (i_cache s1) = true).
Lemma shrunk_refl s : shrunk 1 s s.
Proof. split; [lra|]. split; [rlra|]. left. auto. Qed.
Lemma shrunk_trans l1 l2 a b c : shrunk l1 a b -> shrunk l2 b c -> shrunk (l2 * l1) a c.
Proof.
  intros (H1 & H2 & H3) (H4 & H5 & H6). split; [nra|]. split; [rewrite H5, H2; rlra|].
  destruct H6 as [(-> & H6 & H7)|(H6 & H7 & H8)].
  - destruct H3 as [(-> & H8 & H9)|(H8 & H9 & H10)].
    + left. split; [lra|]. split; congruence.
    + right. split; [nra|]. split; congruence.
  - right. split; [nra|]. auto.
Qed.

Record trial (l : R) (s s1 : state) : Prop := mkTrial {
  tl_quiet : quiet s s1;
  tl_shrunk : shrunk l s s1;
  tl_evs : evs_on s s1;
  tl_cfac : cfac (i_cache s1) = cfac (i_cache s);
  tl_rc : rc (i_sol s1) = rc (i_sol s);
  tl_dtopt : dtopt (i_cache s1) = dtopt (i_cache s) }.

Lemma trial_refl s : trial 1 s s.
Proof. constructor; [apply quiet_refl|apply shrunk_refl| |reflexivity..]. exists []. auto. Qed.
Lemma quiet_t (s s' : state) : quiet s s' -> i_t s' = i_t s.
Proof. intros H. destruct (q_point _ _ H) as (_ & E & _). exact E. Qed.
Lemma evs_on_trans l (a b c : state) : i_t b = i_t a -> 0 < l <= 1 -> i_dt b = l * i_dt a ->
  evs_on a b -> evs_on b c -> evs_on a c.
Proof.
  intros Et Hl Ed (l1 & H1 & H2) (l2 & H3 & H4). exists (l2 ++ l1). rewrite H3, H1, app_assoc.
  split; [reflexivity|]. apply Forall_app. split; [|assumption].
  eapply Forall_impl; [|exact H4]. intros e He. rewrite Et, Ed in He. eapply on_step_shrink; eassumption.
Qed.
Lemma trial_trans l1 l2 a b c : trial l1 a b -> trial l2 b c -> trial (l2 * l1) a c.
Proof.
  intros [q1 s1 e1 c1 r1 o1] [q2 s2 e2 c2 r2 o2]. constructor.
  - eapply quiet_trans; eassumption.
  - eapply shrunk_trans; eassumption.
  - destruct s1 as (Hl & Hd & _). eapply evs_on_trans; try eassumption. now apply quiet_t.
  - congruence.
  - congruence.
  - congruence.
Qed.
Lemma evs_at_on (s s' : state) : evs_at s s' -> evs_on s s'.
Proof.
  intros (l & H1 & H2). exists l. split; [assumption|]. eapply Forall_impl; [|exact H2].
  intros e. apply on_step_at.
Qed.
Lemma newton_on t d e : newton_times (A := RI) t d e -> on_step t d e.
Proof.
  intros [H|[H|[H|H]]].
  - now apply on_step_at.
  - exists (@rC1 RI). unfold rC1 in *. rnorm. split; [lra|exact H].
  - exists (@rC2 RI). unfold rC2 in *. rnorm. split; [lra|exact H].
  - exists 1. split; [lra|]. etransitivity; [exact H|]. rlra.
Qed.

Lemma decomp_trial fuel (s s1 : state) : decomp_loop fuel s = Ok (inl s1) -> exists l, trial l s s1.
Proof.
  intros H. pose proof (decomp_loop_steady _ _ _ H) as (Hc & _ & He).
  apply decomp_loop_inv in H. cbv zeta in H.
  destruct H as (Hq & _ & _ & _ & _ & Hdo & _ & Hrc & k & _ & Hk & Hk0 & Hk1).
  rewrite halve_R in Hk. destruct (half_pow k) as (H1 & H2). exists ((1/2)^k).
  constructor; [assumption| |now apply evs_at_on|assumption..].
  split; [assumption|]. split; [rewrite Hk; rlra|].
  destruct k as [|k].
  - left. split; [reflexivity|]. destruct (Hk0 eq_refl) as (_ & E1 & E2). auto.
  - right. split; [apply H2; discriminate|]. destruct Hk1 as (_ & E1 & E2 & _); [discriminate|]. auto.
Qed.

(** The error test of the attempt that was accepted. *)
Definition passes (s : state) : Prop := err (i_cache s) < 1.


Lemma trial_step (s s2 : state) : quiet s s2 -> i_dt s2 = i_dt s -> last (i_cache s2) = last (i_cache s) ->
  reject (i_cache s2) = reject (i_cache s) -> evs_on s s2 -> cfac (i_cache s2) = cfac (i_cache s) ->
  rc (i_sol s2) = rc (i_sol s) -> dtopt (i_cache s2) = dtopt (i_cache s) -> trial 1 s s2.
Proof.
  intros Hq Hd Hl Hr He Hc Hrc Hdo. constructor; try assumption.
  split; [lra|]. split; [rewrite Hd; rlra|]. left. auto.
Qed.
Lemma evs_on_same (s s' : state) : i_trace s' = i_trace s -> evs_on s s'.
Proof. intros E. exists []. rewrite E. auto. Qed.

Lemma newton_fail_trial fuel (s s' : state) : newton fuel s = Ok (s', false) -> exists l, l <= 8/10 /\ trial l s s'.
Proof.
  intros H. pose proof (newton_cfac _ _ _ _ H) as Hc.
  apply newton_inv in H as (_ & (l & H1 & H2) & _ & H3).
  destruct (H3 eq_refl) as (Hf & Hr & Hl & fac & Hn & Hd & _). apply newton_factor_R in Hn.
  exists fac. split; [lra|]. constructor; [apply Hf| | |assumption|apply Hf|apply Hf].
  - split; [lra|]. split; [rewrite Hd; rlra|]. right. split; [lra|]. auto.
  - exists l. split; [assumption|]. eapply Forall_impl; [|exact H2]. intros e. apply newton_on.
Qed.
Lemma newton_ok_trial fuel (s s' : state) : newton fuel s = Ok (s', true) -> trial 1 s s'.
Proof.
  intros H. pose proof (newton_cfac _ _ _ _ H) as Hc.
  apply newton_inv in H as (_ & (l & H1 & H2) & H3 & _). specialize (H3 eq_refl).
  apply trial_step; [apply H3|apply H3|apply H3|apply H3| |assumption|apply H3|apply H3].
  exists l. split; [assumption|]. eapply Forall_impl; [|exact H2]. intros e. apply newton_on.
Qed.
Lemma estimate_trial (s s' : state) : error_estimate s = Ok s' -> trial 1 s s'.
Proof.
  intros H. pose proof (estimate_cfac _ _ H) as Hc. apply error_estimate_inv in H. destruct H.
  apply trial_step; try assumption.
  - rewrite ef_cache. reflexivity.
  - rewrite ef_cache. reflexivity.
  - apply evs_at_on. exact ef_trace.
  - rewrite ef_cache. reflexivity.
Qed.
Lemma force_trial (s : state) : trial 1 s (force_decompose s).
Proof. apply trial_step; try reflexivity; [apply force_quiet|apply evs_on_same; reflexivity]. Qed.
Lemma count_trial (s : state) : trial 1 s (count_step s).
Proof. apply trial_step; try reflexivity; [apply count_step_quiet|apply evs_on_same; reflexivity]. Qed.

Lemma reject_trial (s s' : state) : radau_sane (i_opts s) -> 0 < cfac (i_cache s) ->
  1 <= err (i_cache s) -> (0 < o_max_newt_iter (i_opts s))%nat ->
  radau_reject (div RI (i_dt s) (radau_quot s)) s = Ok s' ->
  exists l, l <= radau_shrink (i_opts s) /\ trial l s s'.
Proof.
  intros Ho Hc He Hn H. pose proof (reject_cfac _ _ _ H) as Hc'.
  pose proof (inv_quot_reject s Ho Hc He ltac:(lia)) as Hq. pose proof (shrink_range _ Ho) as Hsh.
  pose proof (quot_range s Ho) as (Hq0 & _). pose proof (rs_facr _ Ho) as Hr0.
  apply radau_reject_inv in H as (Hqt & _ & _ & _ & Hrc & Hr & Hl & _ & Hdo & _ & _ & _ & Hf1 & Hf0 & Htr).
  assert (exists l, 0 < l <= radau_shrink (i_opts s) /\ i_dt s' = l * i_dt s) as (l & Hl1 & Hd).
  { destruct (first (i_cache s)).
    - exists (1/10). split; [lra|]. rewrite (Hf1 eq_refl). rlra.
    - exists (/ radau_quot s). split; [exact Hq|].
      rewrite (Hf0 eq_refl). rnorm. rewrite rdiv_ok by (intros E; lra). unfold Rdiv. apply Rmult_comm. }
  exists l. split; [lra|]. constructor; [assumption| |now apply evs_at_on|assumption..].
  split; [lra|]. split; [assumption|]. right. split; [lra|]. auto.
Qed.

Lemma quiet_opts (s s' : state) : quiet s s' -> i_opts s' = i_opts s.
Proof. intros H. apply same_problem_opts. apply H. Qed.

(** ** One attempt *)
Definition attempt_result (s : state) (r : state + state) : Prop :=
  match r with
  | inl s' => (exists l, l <= radau_shrink (i_opts s) /\ trial l s s' /\ steps (i_stats s') = S (steps (i_stats s))) \/
      (exists l s1, trial l s s1 /\ passes s1 /\ accepted s1 s' /\ reject (i_cache s') = true)
  | inr s' => quiet s s' /\ evs_on s s' \/
      (exists l s1, trial l s s1 /\ passes s1 /\ accepted s1 s' /\ steps (i_stats s1) = S (steps (i_stats s)))
  end.

Lemma trial_le l1 l2 q a b c d : trial l1 a b -> trial l2 c d -> l2 <= q -> l2 * l1 <= q.
Proof. intros [_ (H1 & _) _ _ _ _] [_ (H2 & _) _ _ _ _] H. nra. Qed.

Lemma radau_attempt_R fi (s : state) r : radau_sane (i_opts s) -> 0 < cfac (i_cache s) ->
  radau_attempt fi s = Ok r -> attempt_result s r.
Proof.
  intros Ho Hc H. pose proof (shrink_range _ Ho) as Hsh.
  apply radau_attempt_cases in H as (r1 & H1 & H).
  destruct r1 as [s1|s1].
  2: { subst r. left. destruct (decompose (i_cache s)); [|discriminate].
       pose proof (decomp_loop_steady _ _ _ H1) as (_ & _ & He). apply decomp_loop_inv in H1. cbv zeta in H1.
       split; [apply H1|now apply evs_at_on]. }
  assert (exists l, trial l s s1 /\ steps (i_stats s1) = steps (i_stats s)) as (l1 & Ht1 & Hst1).
  { destruct (decompose (i_cache s)).
    - destruct (decomp_trial _ _ _ H1) as (l & Hl). exists l. split; [assumption|].
      apply decomp_loop_inv in H1. cbv zeta in H1. apply H1.
    - inversion H1; subst s1. exists 1. split; [apply trial_refl|reflexivity]. }
  clear H1. cbv zeta in H.
  pose proof (trial_trans _ _ _ _ _ Ht1 (count_trial s1)) as Ht2. clear Ht1.
  assert (steps (i_stats (count_step s1)) = S (steps (i_stats s))) as Hst2 by (cbn; now rewrite Hst1).
  clear Hst1.
  revert H Ht2 Hst2. generalize (1 * l1). generalize (count_step s1) as s2. clear s1 l1. intros s2 l H Ht Hst.
  assert (forall r0, quiet s (exit_with r0 s2) /\ evs_on s (exit_with r0 s2)) as Hex.
  { intros r0. split; [eapply quiet_trans; [apply Ht|apply exit_quiet]|exact (tl_evs _ _ _ Ht)]. }
  destruct H as [(_ & ->)|[(_ & _ & ->)|[(_ & _ & s3 & H & ->)|(_ & _ & s3 & s4 & s5 & H2 & H3 & H4 & ->)]]].
  - left. apply Hex.
  - left. apply Hex.
  - left. assert (steps (i_stats s3) = steps (i_stats s2)) as Hst3.
    { apply newton_inv in H as (_ & _ & _ & H). apply (H eq_refl). }
    apply newton_fail_trial in H as (l3 & Hl3 & H). exists (l3 * l).
    split; [eapply (trial_le l l3); [eassumption..|lra]|].
    split; [eapply trial_trans; eassumption|congruence].
  - pose proof (newton_max _ _ _ H2) as Hn.
    assert (steps (i_stats s3) = steps (i_stats s2)) as Hst3.
    { apply newton_inv in H2 as (_ & _ & H2 & _). apply (H2 eq_refl). }
    assert (steps (i_stats (force_decompose s4)) = S (steps (i_stats s))) as Hst4.
    { transitivity (steps (i_stats s3)); [apply error_estimate_inv in H3; apply H3|congruence]. }
    apply newton_ok_trial in H2. apply estimate_trial in H3.
    pose proof (trial_trans _ _ _ _ _ (trial_trans _ _ _ _ _ (trial_trans _ _ _ _ _ Ht H2) H3) (force_trial s4)) as Ht4.
    rewrite (quiet_opts _ _ (tl_quiet _ _ _ Ht)) in Hn.
    replace (1 * (1 * (1 * l))) with l in Ht4 by ring.
    rewrite step_size_control_eq in H4.
    change (err (i_cache s4)) with (err (i_cache (force_decompose s4))) in H4.
    revert H4 Ht4 Hst4. generalize (force_decompose s4) as s6. clear Ht Hex H2 H3 Hst Hst3. clear s2 s3 s4.
    intros s4 H4 Ht Hst.
    rnorm. replace (1 / 1) with 1 in H4 by lra.
    destruct (Rltb (err (i_cache s4)) 1) eqn:Ee.
    + apply Rltb_true in Ee.
      assert (accepted s4 s5) as Ha by (apply radau_accept_inv; exact H4).
      destruct (reject (i_cache s5)) eqn:Er; right; exists l, s4; auto.
    + apply Rltb_false in Ee. pose proof (quiet_opts _ _ (tl_quiet _ _ _ Ht)) as Eo.
      assert (reject (i_cache s5) = true /\ steps (i_stats s5) = steps (i_stats s4)) as (Er & Est).
      { apply radau_reject_inv in H4. split; apply H4. }
      rewrite Er. left.
      apply reject_trial in H4 as (l4 & Hl4 & H4).
      * rewrite Eo in Hl4. exists (l4 * l). split; [eapply (trial_le l l4); eassumption|].
        split; [eapply trial_trans; eassumption|congruence].
      * now rewrite Eo.
      * rewrite (tl_cfac _ _ _ Ht). assumption.
      * assumption.
      * now rewrite Eo.
Qed.

(** ** The loop of one [step()] call *)
Lemma radau_loop_R fi : forall fuel (s s' : state), radau_sane (i_opts s) -> 0 < cfac (i_cache s) -> tidy s ->
  radau_loop fi fuel s = Ok s' ->
  quiet s s' /\ evs_on s s' \/
  exists l s1, trial l s s1 /\ passes s1 /\ accepted s1 s' /\ tidy s1 /\
    exists j, steps (i_stats s1) = (steps (i_stats s) + S j)%nat /\ l <= radau_shrink (i_opts s) ^ j.
Proof.
  induction fuel as [|fuel IH]; intros s s' Ho Hc Ht H; [discriminate|]. cbn [radau_loop] in H.
  apply bind_ok in H as (r & H1 & H). apply radau_attempt_R in H1; [|assumption|assumption].
  assert (forall l s1, trial l s s1 -> tidy s1) as Hti.
  { intros l s1 [_ (_ & _ & [(_ & E1 & E2)|(_ & E1 & _)]) _ _ _ _]; unfold tidy in *; rewrite E1; [|discriminate].
    rewrite E2. exact Ht. }
  destruct r as [s1|s1]; cbn [attempt_result] in H1.
  - destruct H1 as [(l & Hl & H1 & Hst)|(l & s2 & H1 & _ & Ha & Hr)].
    + pose proof (quiet_opts _ _ (tl_quiet _ _ _ H1)) as Eo.
      assert (radau_sane (i_opts s1)) as Ho1 by (rewrite Eo; exact Ho).
      assert (0 < cfac (i_cache s1)) as Hc1 by (rewrite (tl_cfac _ _ _ H1); exact Hc).
      destruct (IH s1 s' Ho1 Hc1 (Hti _ _ H1) H) as [(Hq & He)|(l2 & s2 & H2 & Hp & Ha & Ht2 & j & Hj & Hlj)].
      * left. split; [eapply quiet_trans; [apply H1|exact Hq]|].
        destruct (tl_shrunk _ _ _ H1) as (Hl1 & Hd & _).
        eapply evs_on_trans; [apply quiet_t; apply H1|exact Hl1|exact Hd|apply H1|exact He].
      * right. exists (l2 * l), s2. split; [eapply trial_trans; eassumption|]. split; [exact Hp|].
        split; [exact Ha|]. split; [exact Ht2|]. exists (S j). split; [lia|]. rewrite Eo in Hlj. cbn [pow].
        destruct (tl_shrunk _ _ _ H1) as (Hl1 & _). destruct (tl_shrunk _ _ _ H2) as (Hl2 & _).
        rewrite Rmult_comm. apply Rmult_le_compat; lra.
    + exfalso. specialize (Hti _ _ H1). destruct (last (i_cache s2)) eqn:El.
      * destruct (ac_last _ _ Ha El) as (E & _). rewrite E, (Hti El) in Hr. discriminate.
      * destruct (ac_next _ _ Ha El) as (E & _). congruence.
  - inversion H; subst s'. destruct H1 as [H1|(l & s2 & H1 & Hp & Ha & Hst)]; [left; exact H1|].
    right. exists l, s2. split; [exact H1|]. split; [exact Hp|]. split; [exact Ha|].
    split; [eapply Hti; exact H1|]. exists 0%nat. split; [rewrite Hst; lia|]. cbn [pow].
    destruct (tl_shrunk _ _ _ H1) as (Hl1 & _). lra.
Qed.
End RadauR.
