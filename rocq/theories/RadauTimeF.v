(** Forward Radau5 runs in binary64: where the right-hand side and the Jacobian
    are evaluated. *)
From Coq Require Import ZArith List Bool Lia Reals Lra Sorted.
From RecordUpdate Require Import RecordSet.
From Flocq Require Import Core BinarySingleNaN.
From Verif Require Import Arith Vec Core Spec Jacobian Linalg Driver VecFacts DP5Facts DP5Inv LinFacts LinFactsC
  Radau RadauFacts RadauStep RadauInv RadauHist RadauKeep ArithF FFacts FMono FOrder FReduce FStrict SpecF64 SpecF64R
  DP5Mono RadauMono SpecEval DP5TimeF.
Import ListNotations RecordSetNotations.
Local Open Scope R_scope.
Local Existing Instance prec_gt_0_53.
Local Existing Instance prec_lt_emax_53.

Lemma rc1_R : is_finite (f_lit 1550510257216822 10000000000000000) = true /\
  0 <= B2R (f_lit 1550510257216822 10000000000000000) <= 1.
Proof.
  edestruct (lit_R 1550510257216822 10000000000000000) as (H1 & H2); [vm_compute; reflexivity|].
  split; [exact H1|]. rewrite H2. unfold F2R. cbn. lra.
Qed.
Lemma rc2_R : is_finite (f_lit 6449489742783178 10000000000000000) = true /\
  0 <= B2R (f_lit 6449489742783178 10000000000000000) <= 1.
Proof.
  edestruct (lit_R 6449489742783178 10000000000000000) as (H1 & H2); [vm_compute; reflexivity|].
  split; [exact H1|]. rewrite H2. unfold F2R. cbn. lra.
Qed.

Section TimeF.
Context (fpowf : f64 -> f64 -> f64) (fpowi : f64 -> Z -> f64) {P : Type}.
Notation A := (F64 fpowf fpowi).
Notation state := (integ A P (radau_cache A)).
Notation alg := (@Radau5 A P).
Variables (t0 : f64) (U : R).
Hypothesis F0 : is_finite t0 = true.

Definition trin (s : state) : Prop := Forall (fun e : event A => inside t0 U (ev_time e)) (i_trace s).
(** A trial step that stays below [U]. *)
Definition near (s : state) : Prop :=
  is_finite (i_t s : f64) = true /\ B2R t0 <= B2R (i_t s : f64) /\ B2R (i_t s : f64) <= U /\ fnn (i_dt s) /\
  rnd64 (B2R (i_t s : f64) + B2R (i_dt s : f64)) <= U.

Lemma near_now (s : state) : near s -> inside t0 U (i_t s).
Proof. intros (Ft & H0 & HU & _). split; [now apply fleb_R|auto]. Qed.
Lemma near_end (s : state) : near s -> inside t0 U (fadd (i_t s) (i_dt s)).
Proof.
  intros (Ft & H0 & HU & (Fd & Pd) & Hr). apply (inside_add t0 (i_t s) (i_dt s)); auto. lra.
Qed.
Lemma near_times (s : state) e : near s -> newton_times (i_t s) (i_dt s) e -> inside t0 U (ev_time e).
Proof.
  intros H. pose proof (near_now _ H) as Hn. pose proof (near_end _ H) as He.
  destruct H as (Ft & H0 & HU & (Fd & Pd) & Hr). destruct rc1_R as (A1 & A2), rc2_R as (B1 & B2).
  intros [->|[->|[->| ->]]]; [exact Hn| | |exact He].
  - exact (inside_stage t0 (i_t s) (i_dt s) _ U F0 Ft H0 Fd Pd Hr A1 A2).
  - exact (inside_stage t0 (i_t s) (i_dt s) _ U F0 Ft H0 Fd Pd Hr B1 B2).
Qed.

Lemma trin_app (s s' : state) (Q : event A -> Prop) : (forall e, Q e -> inside t0 U (ev_time e)) ->
  (exists l, i_trace s' = l ++ i_trace s /\ Forall Q l) -> trin s -> trin s'.
Proof.
  intros HQ (l & E & Hl) H. unfold trin. rewrite E. apply Forall_app. split; [|exact H].
  eapply Forall_impl; [|exact Hl]. exact HQ.
Qed.
Lemma trin_at (s s' : state) : near s ->
  (exists l, i_trace s' = l ++ i_trace s /\ Forall (fun e => ev_time e = i_t s) l) -> trin s -> trin s'.
Proof.
  intros Hn. apply trin_app. intros e ->. now apply near_now.
Qed.

Lemma near_ftrial (s s1 : state) : near s -> ftrial _ _ s s1 -> near s1.
Proof.
  intros (Ft & H0 & HU & Hd & Hr) Ht. pose proof (ftrial_fnn _ _ _ _ Hd Ht) as Hd1.
  destruct Ht as [Hq _ _ Hdt]. destruct (q_point _ _ Hq) as (_&Et&_).
  unfold near. rewrite Et. repeat (split; [assumption|]).
  destruct Hdt as [(-> & _)|(E & _)]; [assumption|].
  apply Rle_trans with (2 := Hr). apply rnd_le. pose proof (reduced_le _ _ Hd E). lra.
Qed.

Lemma accepted_trin (s s' : state) : near s -> accepted s s' -> trin s -> trin s'.
Proof.
  intros Hn Ha H. pose proof (near_end _ Hn) as He.
  assert (i_t s' = fadd (i_t s) (i_dt s)) as Et by exact (ac_t _ _ Ha).
  destruct (last (i_cache s)) eqn:El.
  - destruct (ac_last _ _ Ha El) as (_ & _ & E & _). unfold trin. now rewrite E.
  - destruct (ac_next _ _ Ha El) as (_ & _ & _ & (l & E & Hl) & _). unfold trin. rewrite E.
    apply Forall_app. split.
    + eapply Forall_impl; [|exact Hl]. intros e Ee. cbv beta in Ee |- *. rewrite Ee, Et. exact He.
    + constructor; [|exact H]. cbn [ev_time]. rewrite Et. exact He.
Qed.

Lemma attempt_trin fi (s : state) r : radau_f64_sane (i_opts s) -> Bsign (cfac (i_cache s) : f64) = false ->
  near s -> trin s -> radau_attempt fi s = Ok r -> trin (match r with inl x => x | inr x => x end).
Proof.
  intros So Sc Hn Htr H. assert (fnn (i_dt s)) as Hd by apply Hn.
  apply radau_attempt_cases in H as (r1 & H1 & H).
  assert (trin (match r1 with inl x => x | inr x => x end)) as Htr1.
  { destruct (decompose (i_cache s)).
    - apply decomp_loop_steady in H1 as (_ & _ & H1). eapply trin_at; eassumption.
    - inversion H1; subst r1. exact Htr. }
  destruct r1 as [s1|s1]; [|subst r; exact Htr1].
  assert (ftrial _ _ s s1) as Ht1.
  { destruct (decompose (i_cache s)); [eapply decomp_ftrial; eassumption|].
    inversion H1; subst s1. apply ftrial_same; try reflexivity. apply quiet_refl_f. }
  clear H1. cbv zeta in H.
  pose proof (ftrial_trans _ _ _ _ _ Hd Ht1 (count_ftrial _ _ s1)) as Ht. clear Ht1.
  assert (trin (count_step s1)) as Htr2 by exact Htr1. clear Htr1.
  revert H Ht Htr2. generalize (count_step s1) as s2. clear s1. intros s2 H Ht Htr2.
  pose proof (near_ftrial _ _ Hn Ht) as Hn2.
  assert (radau_f64_sane (i_opts s2)) as So2 by (rewrite (quiet_opts_f _ _ _ _ (ft_quiet _ _ _ _ Ht)); exact So).
  destruct H as [(_ & ->)|[(_ & _ & ->)|[(_ & _ & s3 & H & ->)|(_ & Hti & s3 & s4 & s5 & H2 & H3 & H4 & ->)]]].
  - exact Htr2.
  - exact Htr2.
  - apply newton_inv in H as (_ & H & _). eapply trin_app; [|exact H|exact Htr2]. intros e He. eapply near_times; eassumption.
  - assert (trin s3) as Htr3.
    { apply newton_inv in H2 as (_ & H2 & _). eapply trin_app; [|exact H2|exact Htr2]. intros e He. eapply near_times; eassumption. }
    pose proof (near_ftrial _ _ Hn2 (newton_ok_ftrial _ _ _ _ _ H2)) as Hn3.
    pose proof (near_ftrial _ _ Hn3 (estimate_ftrial _ _ _ _ H3)) as Hn4.
    apply error_estimate_inv in H3. destruct H3 as [_ _ _ _ _ _ _ _ H3].
    pose proof (trin_at _ _ Hn3 H3 Htr3) as Htr4.
    rewrite step_size_control_eq in H4.
    assert (trin s5) as Htr5.
    { pose proof (near_ftrial _ _ Hn4 (force_ftrial _ _ s4)) as Hn6.
      assert (trin (force_decompose s4)) as Htr6 by exact Htr4.
      revert H4 Hn6 Htr6. change (err (i_cache s4)) with (err (i_cache (force_decompose s4))).
      generalize (force_decompose s4) as s6. intros s6 H4 Hn6 Htr6.
      destruct (ltb A _ n1).
      - eapply accepted_trin; [exact Hn6| |exact Htr6]. apply radau_accept_inv. exact H4.
      - apply radau_reject_inv in H4 as (_&_&_&_&_&_&_&_&_&_&_&_&_&_&H4). eapply trin_at; eassumption. }
    destruct (reject (i_cache s5)); exact Htr5.
Qed.

Lemma loop_trin fi : forall fuel (s s' : state), radau_f64_sane (i_opts s) ->
  Bsign (cfac (i_cache s) : f64) = false -> near s -> ftidy _ _ s -> trin s ->
  radau_loop fi fuel s = Ok s' -> trin s'.
Proof.
  induction fuel as [|fuel IH]; intros s s' So Sc Hn Ht Htr H; [discriminate|]. cbn [radau_loop] in H.
  assert (fnn (i_dt s)) as Hd by apply Hn.
  apply bind_ok in H as (r & H1 & H). pose proof (attempt_trin _ _ _ So Sc Hn Htr H1) as Htr1.
  apply radau_attempt_f in H1; [|assumption..].
  assert (forall s1, ftrial _ _ s s1 -> ftidy _ _ s1) as Hti.
  { intros s1 [_ _ _ [(_ & E1 & E2)|(_ & E1 & _)]]; unfold ftidy in *; rewrite E1; [|discriminate].
    rewrite E2. exact Ht. }
  destruct r as [s1|s1]; cbn [fresult] in H1.
  - destruct H1 as [H1|(s2 & H1 & _ & Ha & Hr)].
    + apply (IH s1 s'); try assumption.
      * now rewrite (quiet_opts_f _ _ _ _ (ft_quiet _ _ _ _ H1)).
      * now rewrite (ft_cfac _ _ _ _ H1).
      * eapply near_ftrial; eassumption.
      * now apply Hti.
    + exfalso. specialize (Hti _ H1). destruct (last (i_cache s2)) eqn:El.
      * destruct (ac_last _ _ Ha El) as (E & _). rewrite E, (Hti El) in Hr. discriminate.
      * destruct (ac_next _ _ Ha El) as (E & _). congruence.
  - inversion H; subst s'. exact Htr1.
Qed.

Lemma step_trin fuel (s s' : state) : rready _ _ s -> B2R t0 <= B2R (i_t s : f64) ->
  B2R (i_tfinal s : f64) + bpow radix2 (-52) * (B2R (i_tfinal s : f64) - B2R t0) <= U ->
  radau_step fuel s = Ok s' -> trin s -> trin s'.
Proof.
  intros Rd H0 HU H Htr. pose proof (clip_aims _ _ s Rd) as (Hn & Ha). destruct Rd as [So Sc Hd Ft Ff Hle Fs Hr Hdt].
  unfold radau_step in H.
  destruct (radau_clip_frame s) as (Cq & _ & Csol & _ & Ctr & Cc & _). cbv zeta in *.
  destruct (q_prob _ _ Cq) as (_&_&_&_&Cd&Cf&Co). destruct (q_point _ _ Cq) as (_&Ct&_).
  pose proof (bpow_gt_0 radix2 (-52)) as Pu.
  assert (B2R (i_tfinal s : f64) <= U) as HU1.
  { assert (0 <= bpow radix2 (-52) * (B2R (i_tfinal s : f64) - B2R t0)) by (apply Rmult_le_pos; lra). lra. }
  apply loop_trin in H.
  - exact H.
  - now rewrite Co.
  - rewrite Cc. exact Sc.
  - unfold near. rewrite Ct. split; [exact Ft|]. split; [exact H0|]. split; [lra|]. split; [exact Hn|].
    rewrite Ct, Cf in Ha. destruct Ha as [(_ & ->)|(_ & Ha)].
    + apply Rle_trans with (1 := end_near _ _ Ft Ff Hle Fs). apply Rle_trans with (2 := HU).
      apply Rplus_le_compat_l. apply Rmult_le_compat_l; lra.
    + lra.
  - intros _. rewrite Cc. exact Hr.
  - unfold trin. rewrite Ctr. exact Htr.
Qed.
End TimeF.

Section Runs.
Context (fpowf : f64 -> f64 -> f64) (fpowi : f64 -> Z -> f64) {P : Type}.
Notation A := (F64 fpowf fpowi).
Notation state := (integ A P (radau_cache A)).
Notation alg := (@Radau5 A P).
Notation up b := (B2R (b_tfinal b : f64) + bpow radix2 (-52) * (B2R (b_tfinal b : f64) - B2R (b_t b : f64))).

Lemma run_trin (b : builder A P) fuel (s s' : state) r : radau_f64_forward b -> r_run _ _ b s ->
  trin _ _ (b_t b) (up b) s -> rc (i_sol s) = RContinue -> step alg None fuel s = Ok (s', r) ->
  trin _ _ (b_t b) (up b) s'.
Proof.
  intros (_ & F0 & Ff & Hlt & Fs & _) [Io Ic If Id _ _ Ila Im _] Htr Hrc H.
  unfold step in H. apply bind_ok in H as (s1 & H & E). cbn [run_callback] in E.
  injection E as E _. subst s1. cbn [alg_step Radau5 Cache] in H.
  destruct Ila as (Ft & Ht); [congruence|]. destruct (Im Hrc) as (Hr & Hdt).
  assert (rready _ _ s) as Rd.
  { constructor; rewrite ?If; try assumption; [apply Ht| |now rewrite <- If]. now apply (span_finite (b_t b)). }
  eapply step_trin; [exact F0|exact Rd|apply Ht| |exact H|exact Htr]. rewrite If. apply Rle_refl.
Qed.

Lemma build_trin (b : builder A P) (s : state) : radau_f64_forward b -> build alg b = Ok s ->
  trin _ _ (b_t b) (up b) s.
Proof.
  intros (_ & F0 & Ff & Hlt & _) H. apply radau_build_inv in H. pose proof (rb_jac _ _ H) as (tr & Hj & Etr).
  apply jacobian_u_inv in Hj as (l & -> & Hl & _). apply fltb_R in Hlt; [|assumption..].
  assert (inside (b_t b) (up b) (b_t b)) as Hi.
  { split; [apply fleb_R; try assumption; lra|]. intros _. pose proof (bpow_gt_0 radix2 (-52)).
    assert (0 <= bpow radix2 (-52) * (B2R (b_tfinal b : f64) - B2R (b_t b : f64))) by (apply Rmult_le_pos; lra). lra. }
  unfold trin. rewrite Etr. apply Forall_app. split.
  - eapply Forall_impl; [|exact Hl]. intros e Ee. cbv beta in Ee |- *. rewrite Ee. exact Hi.
  - constructor; [exact Hi|constructor].
Qed.

(** C20 in binary64. *)
Lemma radau_f64_evals (b : builder A P) fuel k (s0 s : state) :
  radau_f64_forward b -> build alg b = Ok s0 -> reached alg None fuel k s0 s ->
  Forall (fun e : event A => fle (b_t b) (call_time e) /\
    (is_finite (call_time e : f64) = true ->
     B2R (call_time e : f64) <= B2R (b_tfinal b : f64) +
       bpow radix2 (-52) * (B2R (b_tfinal b : f64) - B2R (b_t b : f64)))) (i_trace s).
Proof.
  intros Hb H Hr. destruct (r_run_build _ _ b s0 Hb H) as [Hi Hrc].
  assert (r_run _ _ b s /\ trin _ _ (b_t b) (up b) s) as [_ Q]; [|exact Q].
  refine (reached_invariant alg None fuel (fun s => r_run _ _ b s /\ trin _ _ (b_t b) (up b) s) _ k s0 s Hr Hrc _).
  - intros s1 s2 r (R1 & R2) Hc Hs. split; [eapply r_run_step; eassumption|eapply run_trin; eassumption].
  - split; [exact Hi|]. now apply build_trin.
Qed.
End Runs.
