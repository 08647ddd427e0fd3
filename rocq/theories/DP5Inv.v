(** Invariants of DormandPrince5 runs in every arithmetic. *)
From Coq Require Import ZArith List Bool Lia.
From RecordUpdate Require Import RecordSet.
From Verif Require Import Arith Vec Core Driver VecFacts DP5 DP5Facts Spec.
Import ListNotations RecordSetNotations.

Lemma last_opt_snoc {X} (l : list X) x : last_opt (l ++ [x]) = Some x.
Proof.
  unfold last_opt. rewrite app_length. cbn [length].
  replace (length l + 1 - 1) with (length l) by lia.
  rewrite nth_error_app2 by lia. now rewrite Nat.sub_diag.
Qed.

Ltac open_effect E := destruct E as
  [se_problem0 se_ts0 se_us0 se_tprev0 se_uprev0 se_t0 se_lens0 se_steps0 se_accepts0 se_others0
   se_work0 se_rc0 se_reject0 se_max_stiff0 se_shapes0].

Section DP5Inv.
Context {A : arith} {P : Type}.
Notation state := (integ A P (dp5_cache A)).
Notation alg := (@DormandPrince5 A P).

(** Everything one [step()] does to the visible fields. *)
Record dp5_step_effect (s s' : state) : Prop := {
  se_problem : problem_kept s s';
  se_ts : ts (i_sol s') = ts (i_sol s) ++ [i_t s'];
  se_us : us (i_sol s') = us (i_sol s) ++ [i_u s'];
  se_tprev : i_tprev s' = i_t s;
  se_uprev : i_uprev s' = i_u s;
  se_t : i_t s' = add A (i_t s) (i_dtprev s');
  se_lens : length (i_u s') = length (i_u s);
  se_steps : steps (i_stats s') = S (steps (i_stats s));
  se_accepts : accepts (i_stats s') = S (accepts (i_stats s));
  se_others : jacobian_evals (i_stats s') = jacobian_evals (i_stats s) /\
              decompositions (i_stats s') = decompositions (i_stats s) /\
              linear_solves (i_stats s') = linear_solves (i_stats s);
  se_work : exists k l,
      function_evals (i_stats s') = function_evals (i_stats s) + 6 * (k + 1) /\
      rejects (i_stats s') = (if Nat.leb 1 (accepts (i_stats s))
                              then rejects (i_stats s) + k else rejects (i_stats s)) /\
      length l = 6 * (k + 1) /\ i_trace s' = l ++ i_trace s /\
      (forall e, In e l -> exists t u, e = EvF t u);
  se_rc : exists r, (r = rc (i_sol s) \/ r = RDtLessThanMin) /\
      rc (i_sol s') = if last (i_cache s') then RSuccess
                      else if Nat.ltb (o_max_steps (i_opts s)) (S (steps (i_stats s)))
                           then RMaxIters else r;
  se_reject : reject (i_cache s') = false;
  se_max_stiff : o_max_stiff (i_opts s) <> 0;
  se_shapes : dp5_shapes s = true /\ dp5_shapes s' = true }.

Lemma dp5_shapes_spec (s : state) :
  dp5_shapes s = true <->
  Forall (fun v => length v = length (i_u s))
    [i_uprev s; k2 (i_cache s); k3 (i_cache s); k4 (i_cache s); k5 (i_cache s); k6 (i_cache s);
     rcont1 (i_cache s); rcont2 (i_cache s); rcont3 (i_cache s); rcont4 (i_cache s);
     rcont5 (i_cache s); unew (i_cache s); du (i_cache s); dunew (i_cache s);
     uerr (i_cache s); ustiff (i_cache s)].
Proof. unfold dp5_shapes. apply forallb_shapes. Qed.

Lemma vadd_len (a b : vec A) n : length a = n -> length b = n -> length (vadd a b) = n.
Proof. intros; rewrite vadd_length; lia. Qed.
Lemma vsub_len (a b : vec A) n : length a = n -> length b = n -> length (vsub a b) = n.
Proof. intros; rewrite vsub_length; lia. Qed.
Lemma vscale_len x (a : vec A) n : length a = n -> length (vscale x a) = n.
Proof. intros; rewrite vscale_length; lia. Qed.

Lemma prepare_dense_lens (s : state) : dp5_shapes s = true ->
  let n := length (i_u s) in let c := i_cache (prepare_dense s) in
  length (rcont1 c) = n /\ length (rcont2 c) = n /\ length (rcont3 c) = n /\
  length (rcont4 c) = n /\ length (rcont5 c) = n.
Proof.
  intros Hs. apply dp5_shapes_spec in Hs.
  repeat match goal with H : Forall _ (_ :: _) |- _ => inversion_clear H end.
  cbn. repeat split; repeat (first [apply vadd_len|apply vsub_len|apply vscale_len]);
    first [assumption|reflexivity].
Qed.

Lemma accepted_shapes err (s s' : state) :
  dp5_shapes s = true -> accepted err s s' -> dp5_shapes s' = true.
Proof.
  intros Hs Ha. pose proof (prepare_dense_lens s Hs) as Hd. cbv zeta in Hd.
  destruct Ha as [acc_problem0 acc_u0 acc_uprev0 acc_t0 acc_tprev0 acc_dt0 acc_dtprev0 acc_sol0 acc_stats0 acc_trace0 acc_max_stiff0 acc_reject0 acc_last0 acc_facold0 acc_du0 acc_k7 acc_k8 acc_k9 acc_k10 acc_k11 acc_unew0 acc_dunew0 acc_uerr0 acc_ustiff0 acc_rcont0].
  cbv zeta in acc_rcont0.
  destruct acc_rcont0 as (R1&R2&R3&R4&R5).
  apply dp5_shapes_spec in Hs. apply dp5_shapes_spec.
  repeat match goal with H : Forall _ (_ :: _) |- _ => inversion_clear H end.
  rewrite acc_u0, acc_uprev0, acc_k7, acc_k8, acc_k9, acc_k10, acc_k11, acc_du0, acc_unew0,
    acc_dunew0, acc_uerr0, acc_ustiff0, R1, R2, R3, R4, R5.
  assert (length (unew (i_cache s)) = length (i_u s)) as Hu by assumption.
  rewrite Hu. destruct Hd as (D1'&D2'&D3'&D4'&D5').
  repeat apply Forall_cons; try apply Forall_nil; try assumption; try reflexivity;
    destruct (o_dense (i_opts s)); assumption.
Qed.

Lemma same_shapes_point (s s' : state) :
  i_u s' = i_u s -> i_uprev s' = i_uprev s -> (exists b, i_cache s' = i_cache s <| last := b |>) ->
  dp5_shapes s' = dp5_shapes s.
Proof. intros E1 E2 (b & E3). unfold dp5_shapes. rewrite E1, E2, E3. reflexivity. Qed.

Lemma dp5_step_effect_of fuel (s s' : state) :
  dp5_step fuel s = Ok s' -> dp5_step_effect s s'.
Proof.
  intros H. apply dp5_step_inv in H as (k & sk & sa & Hk & Hr & Ha & E).
  destruct (dp5_clip_frame s) as (Cp & Cpt & Csol & Cst & Ctr & Cdtp & Cc).
  pose proof (rejections_many _ _ _ Hr) as [Rp Rpt Rev Rst Rac Rre Rot (l1 & L1 & T1 & F1) Rrc Rl Rrj Rz Rdu Rfo Rsh].
  apply dp5_attempt_inv in Ha as (s1 & Hs & [(_ & Herr & Hacc)|(D & _)]); [|discriminate].
  pose proof (compute_stages_shapes _ _ Hs) as Hsh1.
  pose proof (stage_trace_events _ _ Hs) as (l2 & L2 & T2 & F2).
  pose proof (compute_stages_inv _ _ Hs) as (Hsh&Hp&Hpt&Hdt&Hdtp&Hsol&Hst&_&_&_&Hrej&Hlast&_&_&Hdu).
  assert (dp5_shapes sa = true) as Hsha by exact (accepted_shapes _ _ _ Hsh1 Hacc).
  pose proof (same_shapes_point s (dp5_clip s)) as Hcs.
  destruct Hacc as [acc_problem0 acc_u0 acc_uprev0 acc_t0 acc_tprev0 acc_dt0 acc_dtprev0 acc_sol0 acc_stats0 acc_trace0 acc_max_stiff0 acc_reject0 acc_last0 acc_facold0 acc_du0 acc_k7 acc_k8 acc_k9 acc_k10 acc_k11 acc_unew0 acc_dunew0 acc_uerr0 acc_ustiff0 acc_rcont0].
  pose proof (dp5_finish_frame sa) as (Fp&Fu&Ft&Fdt&Fup&Ftp&Fdtp&Fc&Ftr&Fst&Fts&Fus&Frc).
  clear Hk. subst s'. set (s' := dp5_finish sa) in *.
  assert (same_problem s s') as Hprob
    by exact (same_problem_trans _ _ _ Cp (same_problem_trans _ _ _ Rp
              (same_problem_trans _ _ _ Hp (same_problem_trans _ _ _ acc_problem0 Fp)))).
  assert (same_point s s1) as Hpoint
    by exact (same_point_trans _ _ _ Cpt (same_point_trans _ _ _ Rpt Hpt)).
  destruct Hpoint as (Pu&Pt&Pup&Ptp&Pts&Pus).
  assert (rc (i_sol s1) = rc (i_sol s) \/ rc (i_sol s1) = RDtLessThanMin) as Hrc.
  { rewrite Hsol. destruct Rrc as [R|R]; rewrite R; [rewrite Csol|]; auto. }
  constructor.
  - exact Hprob.
  - rewrite Fts, acc_sol0, Ft, Pts. reflexivity.
  - rewrite Fus, acc_sol0, Fu, Pus. reflexivity.
  - rewrite Ftp, acc_tprev0. assumption.
  - rewrite Fup, acc_uprev0. assumption.
  - rewrite Ft, Fdtp, acc_t0, acc_dtprev0, Pt. reflexivity.
  - rewrite Fu, acc_u0, <- Pu. apply dp5_shapes_spec in Hsh1.
    repeat match goal with H : Forall _ (_ :: _) |- _ => inversion_clear H end. assumption.
  - rewrite Fst. cbn. rewrite acc_stats0. cbn. rewrite Hst. cbn. congruence.
  - rewrite Fst. cbn. rewrite acc_stats0. cbn. rewrite Hst. cbn. congruence.
  - rewrite Fst. cbn. rewrite acc_stats0. cbn. rewrite Hst. cbn.
    destruct Rot as (?&?&?). rewrite <- Cst. repeat split; congruence.
  - exists k, (l2 ++ l1). rewrite Fst. cbn. rewrite acc_stats0. cbn. rewrite Hst. cbn.
    rewrite Cst in *.
    split; [lia|]. split; [assumption|]. split; [rewrite app_length; lia|].
    split; [rewrite Ftr, acc_trace0, T2, T1, Ctr, app_assoc; reflexivity|].
    intros e He. apply in_app_or in He as [He|He]; auto.
  - exists (rc (i_sol s1)). split; [assumption|]. rewrite Frc, Fc.
    destruct Fp as (_&_&_&_&_&_&Fo). destruct Hprob as (_&_&_&_&_&_&Ho).
    rewrite <- Fo, Ho, acc_stats0. cbn. rewrite Hst. cbn. rewrite Rst, Cst, acc_sol0. reflexivity.
  - rewrite Fc. assumption.
  - destruct Hp as (_&_&_&_&_&_&Ho1), Rp as (_&_&_&_&_&_&Ho2), Cp as (_&_&_&_&_&_&Ho3).
    rewrite <- Ho3, <- Ho2, <- Ho1. assumption.
  - split.
    + rewrite <- Hcs; [|apply Cpt|apply Cpt|assumption].
      destruct k as [|k].
      * rewrite (Rz eq_refl) in Hsh. exact Hsh.
      * inversion Hr; subst. apply dp5_attempt_rejected in H0. apply H0.
    + rewrite (same_shapes_point sa s'); [assumption|assumption|assumption|].
      exists (last (i_cache sa)). rewrite Fc. destruct (i_cache sa); reflexivity.
Qed.

(** The public [step()] with a callback. *)
Lemma step_dp5_inv (cb : callback A P (dp5_cache A)) fuel (s s' : state) r :
  step alg cb fuel s = Ok (s', r) ->
  exists s1, dp5_step_effect s s1 /\ s' = run_callback cb s1.
Proof.
  unfold step. intros H. apply bind_ok in H as (s1 & Hs & E). inversion E; subst.
  exists s1. split; [|reflexivity]. eapply dp5_step_effect_of. exact Hs.
Qed.

(** Invariants over histories of [step()] calls. *)
Lemma dp5_invariant (I : state -> Prop) (cb : callback A P (dp5_cache A)) fuel k (s s' : state) :
  (forall (a a' : state) r, I a -> step alg cb fuel a = Ok (a', r) -> I a') ->
  I s -> steps_n alg cb fuel k s = Ok s' -> I s'.
Proof. intros Hst Hi H. exact (steps_n_invariant alg cb fuel I Hst k s s' Hi H). Qed.

Lemma dp5_integrate_split (cb : callback A P (dp5_cache A)) fuel fuel2 (s s' : state) :
  integrate alg cb fuel fuel2 s = Ok s' ->
  exists k (s1 : state), k < fuel2 /\ continues alg cb fuel k s s1 /\ step alg cb fuel s1 = Ok (s', None).
Proof. intros H. apply (integrate_split alg cb) in H as (k & s1 & H). exists k, s1. exact H. Qed.

(** ** Build *)
Lemma dp5_build_inv (b : builder A P) (s : state) :
  build alg b = Ok s ->
  i_dudt s = b_dudt b /\ i_dfdt s = b_dfdt b /\ i_dfdu s = b_dfdu b /\
  i_params s = b_params b /\ i_u s = b_u b /\ i_t s = b_t b /\ i_dt s = b_dt b /\
  i_uprev s = b_u b /\ i_tprev s = b_t b /\ i_dtprev s = b_dt b /\
  i_tdir s = copysign A n1 (sub A (b_tfinal b) (b_t b)) /\ i_tfinal s = b_tfinal b /\
  i_opts s = b_opts b /\ i_stats s = stats_new /\
  i_sol s = mkSol [b_t b] [b_u b] RContinue /\ i_trace s = [EvF (b_t b) (b_u b)] /\
  reject (i_cache s) = false /\ last (i_cache s) = false /\ facold (i_cache s) = n0 /\
  du (i_cache s) = call_rhs (b_dudt b) (zeros (length (b_u b))) (b_u b) (b_t b) (b_params b) /\
  n_stiff (i_cache s) = 0 /\ dp5_shapes s = true.
Proof.
  unfold build. cbn. intros H. injection H as H. subst s. cbn.
  repeat split.
  unfold dp5_shapes. cbn. rewrite call_rhs_length, !zeros_length, !Nat.eqb_refl. reflexivity.
Qed.

Lemma dp5_build_ok (b : builder A P) : exists s, build alg b = Ok s.
Proof. unfold build. cbn. eauto. Qed.

(** ** C01 *)
Definition sol_wf (t0 : num A) (u0 : vec A) (s : state) : Prop :=
  length (ts (i_sol s)) = length (us (i_sol s)) /\
  length (ts (i_sol s)) = S (accepts (i_stats s)) /\
  length (ts (i_sol s)) = S (steps (i_stats s)) /\
  hd_error (ts (i_sol s)) = Some t0 /\ hd_error (us (i_sol s)) = Some u0 /\
  Forall (fun u => length u = length u0) (us (i_sol s)) /\ length (i_u s) = length u0.

Lemma hd_error_app {X} (l l' : list X) x : hd_error l = Some x -> hd_error (l ++ l') = Some x.
Proof. destruct l; simpl; congruence. Qed.

Lemma sol_wf_step t0 u0 (cb : callback A P (dp5_cache A)) fuel (s s' : state) r :
  benign_callback cb ->
  sol_wf t0 u0 s -> step alg cb fuel s = Ok (s', r) -> sol_wf t0 u0 s'.
Proof.
  intros Hcb (L1 & L2 & L2' & H1 & H2 & F & Lu) H.
  apply step_dp5_inv in H as (s1 & E & ->). open_effect E.
  unfold sol_wf. rewrite (bc_sol _ Hcb), (bc_stats _ Hcb), (bc_len_u _ Hcb).
  rewrite se_ts0, se_us0, se_accepts0, se_steps0, !app_length, se_lens0. cbn [length].
  repeat split; try lia; auto using hd_error_app.
  apply Forall_app. split; [assumption|]. constructor; [congruence|constructor].
Qed.

Lemma sol_wf_build (b : builder A P) (s : state) : build alg b = Ok s -> sol_wf (b_t b) (b_u b) s.
Proof.
  intros H. apply dp5_build_inv in H as (?&?&?&?&Eu&?&?&?&?&?&?&?&?&Est&Esol&_).
  unfold sol_wf. rewrite Est, Esol, Eu. cbn. repeat split; auto.
Qed.

Lemma dp5_recorded_wf (b : builder A P) (cb : callback A P (dp5_cache A)) fuel k (s0 s : state) :
  benign_callback cb ->
  build alg b = Ok s0 -> steps_n alg cb fuel k s0 = Ok s ->
  length (ts (i_sol s)) = length (us (i_sol s)) /\
  length (ts (i_sol s)) = S k /\
  hd_error (ts (i_sol s)) = Some (b_t b) /\ hd_error (us (i_sol s)) = Some (b_u b) /\
  Forall (fun u => length u = length (b_u b)) (us (i_sol s)).
Proof.
  intros Hcb Hb H.
  assert (forall k (s s' : state), sol_wf (b_t b) (b_u b) s -> steps_n alg cb fuel k s = Ok s' ->
            sol_wf (b_t b) (b_u b) s' /\ steps (i_stats s') = steps (i_stats s) + k) as Hgen.
  { clear -Hcb. induction k as [|k IH]; intros s s' Hw H; cbn [steps_n] in H.
    - inversion H; subst. split; [assumption|lia].
    - apply bind_ok in H as ([s1 r] & Hs & H).
      pose proof (sol_wf_step _ _ _ _ _ _ _ Hcb Hw Hs) as Hw1.
      destruct (IH _ _ Hw1 H) as [Hw2 E]. split; [assumption|].
      apply step_dp5_inv in Hs as (s2 & Ee & ->). rewrite (bc_stats _ Hcb) in E.
      open_effect Ee. lia. }
  destruct (Hgen _ _ _ (sol_wf_build _ _ Hb) H) as [(L1&L2&L3&H1&H2&F&_) Est].
  repeat split; try assumption. rewrite L3, Est.
  apply dp5_build_inv in Hb as (_&_&_&_&_&_&_&_&_&_&_&_&_&Est0&_). rewrite Est0. reflexivity.
Qed.

Lemma dp5_history_extends (cb : callback A P (dp5_cache A)) fuel k (s s' : state) :
  benign_callback cb -> steps_n alg cb fuel k s = Ok s' ->
  extends (ts (i_sol s)) (ts (i_sol s')) /\ extends (us (i_sol s)) (us (i_sol s')).
Proof.
  intros Hcb. revert s. induction k as [|k IH]; intros s H; cbn [steps_n] in H.
  - inversion H; subst. split; exists []; now rewrite app_nil_r.
  - apply bind_ok in H as ([s1 r] & Hs & H).
    apply step_dp5_inv in Hs as (s2 & E & ->). open_effect E.
    apply IH in H as [(l1 & E1) (l2 & E2)].
    rewrite (bc_sol _ Hcb) in E1, E2. rewrite se_ts0 in E1. rewrite se_us0 in E2.
    rewrite <- app_assoc in E1, E2. split; eexists; eassumption.
Qed.

Lemma dp5_current_is_last (b : builder A P) fuel k (s0 s : state) :
  build alg b = Ok s0 -> steps_n alg None fuel k s0 = Ok s ->
  last_opt (ts (i_sol s)) = Some (i_t s) /\ last_opt (us (i_sol s)) = Some (i_u s).
Proof.
  intros Hb H.
  assert (last_opt (ts (i_sol s0)) = Some (i_t s0) /\ last_opt (us (i_sol s0)) = Some (i_u s0)) as H0.
  { apply dp5_build_inv in Hb as (?&?&?&?&Eu&Et&?&?&?&?&?&?&?&Est&Esol&_).
    rewrite Esol, Eu, Et. split; reflexivity. }
  clear Hb. revert s0 H0 H.
  induction k as [|k IH]; intros s0 H0 H; cbn [steps_n] in H.
  - inversion H; subst. assumption.
  - apply bind_ok in H as ([s1 r] & Hs & H). apply IH in H; [assumption|].
    apply step_dp5_inv in Hs as (s2 & E & ->). open_effect E. cbn [run_callback].
    rewrite se_ts0, se_us0. split; apply last_opt_snoc.
Qed.

(** ** C06, C07, C19, C22, C45 *)
Definition rc_dp5 (r : retcode) : Prop :=
  r = RContinue \/ r = RSuccess \/ r = RMaxIters \/ r = RDtLessThanMin.

Lemma dp5_retcodes (b : builder A P) (cb : callback A P (dp5_cache A)) fuel k (s0 s : state) :
  benign_callback cb ->
  build alg b = Ok s0 -> steps_n alg cb fuel k s0 = Ok s -> rc_dp5 (rc (i_sol s)).
Proof.
  intros Hcb Hb H. eapply (dp5_invariant (fun s => rc_dp5 (rc (i_sol s)))); [| |exact H].
  - intros s1 s1' r Hi Hs. apply step_dp5_inv in Hs as (s2 & E & ->). rewrite (bc_sol _ Hcb).
    open_effect E. destruct se_rc0 as (r0 & Hr0 & E). rewrite E. unfold rc_dp5 in *.
    destruct (last _); [auto|]. destruct (Nat.ltb _ _); [auto|].
    destruct Hr0 as [->| ->]; auto.
  - apply dp5_build_inv in Hb as (?&?&?&?&Eu&Et&?&?&?&?&?&?&?&Est&Esol&_).
    rewrite Esol. left. reflexivity.
Qed.

Lemma dp5_step_some (cb : callback A P (dp5_cache A)) fuel (s s' : state) n :
  benign_callback cb -> step alg cb fuel s = Ok (s', Some n) ->
  rc (i_sol s') = RContinue /\ steps (i_stats s') = S (steps (i_stats s)) /\
  S (steps (i_stats s)) <= o_max_steps (i_opts s) /\ i_opts s' = i_opts s.
Proof.
  intros Hcb Hs.
  assert (rc (i_sol s') = RContinue) as Hr by exact (step_some_rc _ _ _ _ _ _ Hs).
  apply step_dp5_inv in Hs as (s3 & E & ->). open_effect E.
  rewrite (bc_sol _ Hcb) in Hr. rewrite (bc_sol _ Hcb), (bc_stats _ Hcb), (bc_opts _ Hcb).
  destruct se_problem0 as (_&_&_&_&_&_&Eo). repeat split; try assumption.
  destruct se_rc0 as (r0 & Hr0 & E). rewrite E in Hr.
  destruct (last (i_cache s3)); [discriminate|].
  destruct (Nat.ltb_spec (o_max_steps (i_opts s)) (S (steps (i_stats s)))); [discriminate|]. lia.
Qed.

Lemma dp5_continue_budget (cb : callback A P (dp5_cache A)) fuel k (s s' : state) :
  benign_callback cb ->
  continues alg cb fuel k s s' ->
  k = 0 \/ steps (i_stats s) + k <= o_max_steps (i_opts s).
Proof.
  intros Hcb. revert s. induction k as [|k IH]; intros s H; [left; reflexivity|right].
  inversion H as [|? ? s1 n ? Hs Hc]; subst.
  apply dp5_step_some in Hs as (Hr & Est & Hle & Eo); [|assumption].
  apply IH in Hc as [->|Hc]; [lia|]. rewrite Eo, Est in Hc. lia.
Qed.

Lemma dp5_continues_rc (cb : callback A P (dp5_cache A)) fuel k (s s' : state) :
  benign_callback cb ->
  continues alg cb fuel k s s' -> rc (i_sol s) = RContinue -> rc (i_sol s') = RContinue.
Proof.
  intros Hcb. revert s. induction k as [|k IH]; intros s H H0.
  - inversion H; subst; assumption.
  - inversion H as [|? ? s1 n ? Hs Hc]; subst. eapply IH; [exact Hc|].
    apply dp5_step_some in Hs as (Hr & _); assumption.
Qed.

Lemma dp5_budget (b : builder A P) (cb : callback A P (dp5_cache A)) fuel k (s0 s : state) :
  benign_callback cb ->
  build alg b = Ok s0 -> continues alg cb fuel k s0 s -> k <= o_max_steps (b_opts b).
Proof.
  intros Hcb Hb H. apply dp5_continue_budget in H; [|assumption].
  apply dp5_build_inv in Hb as (?&?&?&?&Eu&Et&?&?&?&?&?&?&Eo&Est&Esol&_).
  rewrite Eo, Est in H. cbn in H. lia.
Qed.

Lemma dp5_steps_count (b : builder A P) (cb : callback A P (dp5_cache A)) fuel k (s0 s : state) :
  benign_callback cb ->
  build alg b = Ok s0 -> steps_n alg cb fuel k s0 = Ok s -> steps (i_stats s) = k.
Proof.
  intros Hcb Hb H.
  pose proof (dp5_recorded_wf b cb fuel k s0 s Hcb Hb H) as (_ & L & _).
  assert (sol_wf (b_t b) (b_u b) s) as (_&_&L3&_).
  { eapply (dp5_invariant (sol_wf (b_t b) (b_u b))); [| |exact H].
    - intros; eapply sol_wf_step; eassumption.
    - now apply sol_wf_build. }
  lia.
Qed.

Lemma dp5_opts_kept (cb : callback A P (dp5_cache A)) fuel k (s s' : state) :
  benign_callback cb -> steps_n alg cb fuel k s = Ok s' -> i_opts s' = i_opts s.
Proof.
  intros Hcb H.
  eapply (dp5_invariant (fun x => i_opts x = i_opts s)); [|reflexivity|exact H].
  intros s1 s1' r Hi Hs. apply step_dp5_inv in Hs as (s2 & E & ->). rewrite (bc_opts _ Hcb).
  open_effect E. destruct se_problem0 as (_&_&_&_&_&_&Eo). congruence.
Qed.

(** A run that ends with [MaxIters] accepted exactly [max_steps + 1] steps; one
    that ends with [Success] at most as many. *)
Lemma dp5_final_steps (b : builder A P) (cb : callback A P (dp5_cache A)) fuel fuel2 (s0 s : state) :
  benign_callback cb ->
  build alg b = Ok s0 -> integrate alg cb fuel fuel2 s0 = Ok s ->
  steps (i_stats s) <= S (o_max_steps (b_opts b)) /\
  (rc (i_sol s) = RMaxIters -> steps (i_stats s) = S (o_max_steps (b_opts b))).
Proof.
  intros Hcb Hb H. apply dp5_integrate_split in H as (k & s1 & Hk & Hc & Hl).
  pose proof (dp5_budget _ _ _ _ _ _ Hcb Hb Hc) as Hbud.
  pose proof (continues_steps_n _ _ _ _ _ _ Hc) as Hn.
  pose proof (dp5_steps_count _ _ _ _ _ _ Hcb Hb Hn) as Hst.
  pose proof (dp5_opts_kept _ _ _ _ _ Hcb Hn) as Ho.
  assert (i_opts s0 = b_opts b) as Ho0
    by (apply dp5_build_inv in Hb as (?&?&?&?&Eu&Et&?&?&?&?&?&?&Eo&_); assumption).
  assert (rc (i_sol s1) = RContinue) as Hr1.
  { eapply dp5_continues_rc; [exact Hcb|exact Hc|].
    apply dp5_build_inv in Hb as (?&?&?&?&Eu&Et&?&?&?&?&?&?&?&Est&Esol&_). now rewrite Esol. }
  apply step_dp5_inv in Hl as (s2 & E & ->).
  rewrite (bc_stats _ Hcb), (bc_sol _ Hcb). open_effect E. split; [lia|].
  destruct se_rc0 as (r0 & Hr0 & Erc). rewrite Erc. destruct (last (i_cache s2)); [discriminate|].
  destruct (Nat.ltb_spec (o_max_steps (i_opts s1)) (S (steps (i_stats s1)))).
  - intros _. rewrite Ho, Ho0 in *. lia.
  - intros Hm. destruct Hr0 as [Hr0|Hr0]; rewrite Hr0 in Hm; [rewrite Hr1 in Hm|]; discriminate.
Qed.

(** Counters and the call trace. *)
Lemma rhs_calls_all_f (l : list (event A)) :
  (forall e, In e l -> exists t u, e = EvF t u) -> rhs_calls l = length l.
Proof.
  intros H. unfold rhs_calls. f_equal.
  induction l as [|e l IH]; [reflexivity|]. destruct (H e) as (t & u & ->); [now left|].
  cbn. f_equal. apply IH. intros e' He. apply H. now right.
Qed.
Lemma jac_calls_all_f (l : list (event A)) :
  (forall e, In e l -> exists t u, e = EvF t u) -> jac_calls l = 0.
Proof.
  intros H. unfold jac_calls.
  induction l as [|e l IH]; [reflexivity|]. destruct (H e) as (t & u & ->); [now left|].
  cbn. apply IH. intros e' He. apply H. now right.
Qed.
Lemma rhs_calls_app (l l' : list (event A)) : rhs_calls (l ++ l') = rhs_calls l + rhs_calls l'.
Proof. unfold rhs_calls. now rewrite filter_app, app_length. Qed.
Lemma jac_calls_app (l l' : list (event A)) : jac_calls (l ++ l') = jac_calls l + jac_calls l'.
Proof. unfold jac_calls. now rewrite filter_app, app_length. Qed.

Record counters_ok (s : state) : Prop := {
  co_evals : rhs_calls (i_trace s) = S (function_evals (i_stats s));
  co_jac : jac_calls (i_trace s) = 0;
  co_steps : steps (i_stats s) = accepts (i_stats s);
  co_zero : jacobian_evals (i_stats s) = 0 /\ decompositions (i_stats s) = 0 /\
            linear_solves (i_stats s) = 0;
  co_attempts : exists r0, function_evals (i_stats s) =
      6 * (accepts (i_stats s) + rejects (i_stats s) + r0) /\
      (accepts (i_stats s) = 0 -> r0 = 0 /\ rejects (i_stats s) = 0) }.

Lemma counters_build (b : builder A P) (s : state) : build alg b = Ok s -> counters_ok s.
Proof.
  intros H. apply dp5_build_inv in H as (?&?&?&?&Eu&Et&?&?&?&?&?&?&?&Est&Esol&Etr&_).
  constructor; rewrite ?Est, ?Etr; try reflexivity; auto.
  exists 0. split; auto.
Qed.

Lemma counters_step (cb : callback A P (dp5_cache A)) fuel (s s' : state) r :
  benign_callback cb -> counters_ok s -> step alg cb fuel s = Ok (s', r) -> counters_ok s'.
Proof.
  intros Hcb [Ce Cj Cs Cz (r0 & Ca & Cb)] H.
  apply step_dp5_inv in H as (s1 & E & ->). open_effect E.
  destruct se_work0 as (k & l & We & Wr & Wl & Wt & Wf).
  destruct se_others0 as (O1&O2&O3). destruct Cz as (Z1&Z2&Z3).
  constructor; rewrite ?(bc_stats _ Hcb), ?(bc_trace _ Hcb).
  - rewrite Wt, rhs_calls_app, rhs_calls_all_f by assumption. lia.
  - rewrite Wt, jac_calls_app, jac_calls_all_f by assumption. lia.
  - lia.
  - repeat split; congruence.
  - destruct (accepts (i_stats s)) as [|a] eqn:Ea.
    + exists (r0 + k). cbn [Nat.leb] in Wr. destruct (Cb eq_refl). split; [lia|]. lia.
    + exists r0. cbn [Nat.leb] in Wr. split; [lia|]. lia.
Qed.

Lemma dp5_counters (b : builder A P) (cb : callback A P (dp5_cache A)) fuel k (s0 s : state) :
  benign_callback cb ->
  build alg b = Ok s0 -> steps_n alg cb fuel k s0 = Ok s -> counters_ok s.
Proof.
  intros Hcb Hb H. eapply (dp5_invariant counters_ok); [| |exact H].
  - intros; eapply counters_step; eassumption.
  - eapply counters_build; eassumption.
Qed.

Lemma dp5_frame fuel k (s s' : state) :
  steps_n alg None fuel k s = Ok s' -> problem_kept s s'.
Proof.
  intros H. eapply (dp5_invariant (problem_kept s)); [| |exact H].
  - intros s1 s1' r Hi Hs. apply step_dp5_inv in Hs as (s2 & E & ->). cbn [run_callback].
    open_effect E. eapply same_problem_trans; eassumption.
  - repeat split.
Qed.

(** ** C29: no panics *)
Lemma dp5_attempt_no_panic (s : state) :
  dp5_shapes s = true -> o_max_stiff (i_opts s) <> 0 -> exists s' d, dp5_attempt s = Ok (s', d).
Proof.
  intros Hs Hm. unfold dp5_attempt. destruct (compute_stages_ok s Hs) as (s1 & E). rewrite E.
  cbn [bind]. unfold prepare_next_step.
  assert (o_max_stiff (i_opts s1) <> 0) as Hm1.
  { apply compute_stages_inv in E as (_&(_&_&_&_&_&_&Eo)&_). now rewrite Eo. }
  destruct (leb A (dp5_error s1) n1).
  - destruct (dp5_accept_ok (dp5_error s1) s1 Hm1) as (s2 & d & E2). rewrite E2. cbn [bind].
    destruct (negb _); [eauto|]. destruct (leb A _ _); eauto.
  - cbn [bind]. destruct (dp5_reject _ s1) as [s2 d]. cbn [bind].
    destruct (negb _); [eauto|]. destruct (leb A _ _); eauto.
Qed.

Lemma dp5_loop_no_panic : forall fuel (s : state),
  dp5_shapes s = true -> o_max_stiff (i_opts s) <> 0 -> dp5_loop fuel s <> Panic.
Proof.
  induction fuel as [|fuel IH]; intros s Hs Hm; [discriminate|].
  cbn [dp5_loop]. destruct (dp5_attempt_no_panic s Hs Hm) as (s1 & d & E). rewrite E. cbn [bind].
  destruct d; [discriminate|]. apply dp5_attempt_rejected in E. pose proof (atr_shapes _ _ E) as atr_shapes0. pose proof (atr_problem _ _ E) as atr_problem0.
  apply IH; [apply atr_shapes0|]. destruct atr_problem0 as (_&_&_&_&_&_&Eo). now rewrite Eo.
Qed.

Lemma dp5_step_no_panic (cb : callback A P (dp5_cache A)) fuel (s : state) :
  dp5_shapes s = true -> o_max_stiff (i_opts s) <> 0 -> step alg cb fuel s <> Panic.
Proof.
  intros Hs Hm. unfold step. cbn [alg_step DormandPrince5]. unfold dp5_step.
  destruct (dp5_clip_frame s) as (Cp & Cpt & _ & _ & _ & _ & Cc).
  assert (dp5_loop fuel (dp5_clip s) <> Panic) as Hl.
  { apply dp5_loop_no_panic.
    - rewrite (same_shapes_point s); [assumption|apply Cpt|apply Cpt|assumption].
    - destruct Cp as (_&_&_&_&_&_&Eo). now rewrite Eo. }
  destruct (dp5_loop fuel (dp5_clip s)); cbn; congruence.
Qed.

Definition safe_state (s : state) : Prop := dp5_shapes s = true /\ o_max_stiff (i_opts s) <> 0.

Lemma safe_state_step (cb : callback A P (dp5_cache A)) fuel (s s' : state) r :
  benign_callback cb -> step alg cb fuel s = Ok (s', r) -> safe_state s'.
Proof.
  intros Hcb H. apply step_dp5_inv in H as (s1 & E & ->). open_effect E. split.
  - destruct se_shapes0 as [_ Hs]. unfold dp5_shapes in *. cbn zeta in *.
    rewrite (bc_cache _ Hcb), (bc_len_u _ Hcb). rewrite forallb_shapes in *.
    inversion_clear Hs as [|? ? H1 H2]. constructor; [|assumption].
    now rewrite (bc_len_uprev _ Hcb).
  - rewrite (bc_opts _ Hcb). destruct se_problem0 as (_&_&_&_&_&_&Eo). congruence.
Qed.

Lemma dp5_never_panics (b : builder A P) (cb : callback A P (dp5_cache A)) fuel k (s0 : state) :
  benign_callback cb -> o_max_stiff (b_opts b) <> 0 ->
  build alg b = Ok s0 ->
  steps_n alg cb fuel k s0 <> Panic /\ integrate alg cb fuel k s0 <> Panic.
Proof.
  intros Hcb Hm Hb.
  assert (safe_state s0) as H0.
  { apply dp5_build_inv in Hb as (?&?&?&?&Eu&Et&?&?&?&?&?&?&Eo&Est&Esol&Etr&?&?&?&?&?&Hsh).
    split; [assumption|]. now rewrite Eo. }
  clear Hb. revert s0 H0. induction k as [|k IH]; intros s0 [Hs Hm0].
  - split; discriminate.
  - cbn [steps_n integrate].
    pose proof (dp5_step_no_panic cb fuel s0 Hs Hm0) as Hnp.
    destruct (step alg cb fuel s0) as [[s1 r]| |] eqn:E; cbn [bind]; [|congruence|split; congruence].
    assert (safe_state s1) as H1 by (eapply safe_state_step; eassumption).
    destruct (IH s1 H1) as [I1 I2]. split; [assumption|]. destruct r; [assumption|discriminate].
Qed.

(** With [max_stiff = 0] no [step()] call ever returns normally. *)
Lemma dp5_max_stiff_zero (cb : callback A P (dp5_cache A)) fuel (s s' : state) r :
  o_max_stiff (i_opts s) = 0 -> step alg cb fuel s <> Ok (s', r).
Proof.
  intros Hm H. apply step_dp5_inv in H as (s1 & E & ->). open_effect E. auto.
Qed.
End DP5Inv.
