(** Histories of Radau5 runs in every arithmetic: recorded solution, return
    codes, counters, budget, frame, absence of panics. *)
From Coq Require Import ZArith List Bool Lia.
From RecordUpdate Require Import RecordSet.
From Verif Require Import Arith Vec Core Spec Jacobian Linalg Driver VecFacts DP5Facts DP5Inv LinFacts LinFactsC
  Radau RadauFacts RadauStep RadauInv RadauTerm RadauSafe.
Import ListNotations RecordSetNotations.

Section RadauHist.
Context {A : arith} {P : Type}.
Notation state := (integ A P (radau_cache A)).
Notation alg := (@Radau5 A P).

(** ** Build *)
(** The options after [build()]. *)
Definition radau_opts (o : opts A) : opts A :=
  let o := radau_tols o in
  if leb A (o_fnewt o) n0
  then o <| o_fnewt := nmax A (div A (mul A (lit A 10 1) (eps A)) (o_reltol o))
                              (nmin A (lit A 3 100) (nsqrt A (o_reltol o))) |>
  else o.

Record radau_built (b : builder A P) (s : state) : Prop := mkRB {
  rb_prob : i_dudt s = b_dudt b /\ i_dfdt s = b_dfdt b /\ i_dfdu s = b_dfdu b /\ i_params s = b_params b /\
            i_tdir s = copysign A n1 (sub A (b_tfinal b) (b_t b)) /\ i_tfinal s = b_tfinal b /\
            i_opts s = radau_opts (b_opts b);
  rb_u : i_u s = b_u b; rb_t : i_t s = b_t b; rb_dt : i_dt s = b_dt b;
  rb_uprev : i_uprev s = b_u b; rb_tprev : i_tprev s = b_t b; rb_dtprev : i_dtprev s = b_dt b;
  rb_stats : i_stats s = stats_new;
  rb_sol : i_sol s = mkSol [b_t b] [b_u b] RContinue;
  rb_flags : caljac (i_cache s) = false /\ first (i_cache s) = true /\ last (i_cache s) = false /\
             reject (i_cache s) = false /\ decompose (i_cache s) = true /\ nsing (i_cache s) = 0 /\
             faccon (i_cache s) = n1 /\ dtopt (i_cache s) = b_dt b;
  rb_cfac : cfac (i_cache s) = mul A (o_safe (b_opts b)) (of_nat (1 + 2 * o_max_newt_iter (b_opts b)));
  rb_scal : scal (i_cache s) = radau_scal (radau_opts (b_opts b)) (b_u b);
  rb_u0 : u0 (i_cache s) = call_rhs (b_dudt b) (zeros (length (b_u b))) (b_u b) (b_t b) (b_params b);
  rb_jac : exists tr, jacobian_u (b_dudt b) (b_dfdu b) (zeros2 (length (b_u b)) (length (b_u b))) (b_u b) (b_t b)
              (b_params b) [EvF (b_t b) (b_u b)] = Ok (dfdu (i_cache s), tr) /\ i_trace s = tr;
  rb_bal : balance 1 s;
  rb_safe : ssafe (length (b_u b)) s }.

Lemma radau_opts_same (o : opts A) :
  o_reltol (radau_opts o) = o_reltol (radau_tols o) /\ o_abstol (radau_opts o) = o_abstol (radau_tols o).
Proof. unfold radau_opts. destruct (leb A _ _); split; reflexivity. Qed.


Lemma radau_build_ex (b : builder A P) : exists s : state, build alg b = Ok s /\ radau_built b s.
Proof.
  unfold build. cbn [alg_new_cache Radau5]. unfold radau_new_cache. cbv zeta. cbn [b_dudt b_dfdu b_u b_t b_params b_opts].
  destruct (jacobian_u_ok (b_dudt b) (b_dfdu b) (zeros2 (length (b_u b)) (length (b_u b))) (b_u b) (b_t b)
    (b_params b) [EvF (b_t b) (b_u b)] (zeros2_shaped _ _)) as (df & tr & E & Hdf).
  assert (radau_scal (radau_opts (b_opts b)) (b_u b) = radau_scal (radau_tols (b_opts b)) (b_u b)) as Hsc.
  { destruct (radau_opts_same (b_opts b)) as [E1 E2]. unfold radau_scal. now rewrite E1, E2. }
  pose proof (jacobian_u_inv _ _ _ _ _ _ _ _ _ E) as (l & El & _ & Er & Ej).
  match goal with |- context [bind (bind ?j _) _] => change j with
    (jacobian_u (b_dudt b) (b_dfdu b) (zeros2 (length (b_u b)) (length (b_u b))) (b_u b) (b_t b)
      (b_params b) [EvF (b_t b) (b_u b)]) end.
  rewrite E. cbn [bind]. eexists. split; [reflexivity|].
  constructor.
  - unfold radau_opts. cbn -[radau_tols].
    change (o_fnewt (radau_tols (b_opts b))) with (o_fnewt (b_opts b)).
    destruct (leb A (o_fnewt (b_opts b)) n0) eqn:Ef; repeat split.
  - cbn. destruct (leb A _ _); reflexivity.
  - cbn. destruct (leb A _ _); reflexivity.
  - cbn. destruct (leb A _ _); reflexivity.
  - cbn. destruct (leb A _ _); reflexivity.
  - cbn. destruct (leb A _ _); reflexivity.
  - cbn. destruct (leb A _ _); reflexivity.
  - reflexivity.
  - cbn. destruct (leb A _ _); reflexivity.
  - cbn. destruct (leb A _ _); repeat split.
  - reflexivity.
  - rewrite Hsc. reflexivity.
  - reflexivity.
  - exists tr. split; [exact E|reflexivity].
  - unfold balance. cbn -[Nat.mul]. subst tr. rewrite rhs_calls_app, jac_calls_app, Er, Ej.
    destruct (leb A _ _); cbn [b_dfdu b_u set]; change (rhs_calls [EvF (b_t b) (b_u b)]) with 1;
     change (jac_calls [EvF (b_t b) (b_u b)]) with 0; cbn; lia.
  - split; [destruct (leb A _ _); reflexivity|]. cbn -[Nat.mul].
    constructor; cbn -[Nat.mul call_rhs zeros radau_scal zeros2 repeat]; rewrite ?zeros_length, ?call_rhs_length, ?repeat_length, ?zeros_length;
      try reflexivity; try apply zeros2_shaped; try apply pivots_ok_zero; try assumption.
    + unfold call_rhs, tab. now rewrite map_length, seq_length, ?repeat_length.
    + unfold radau_scal. apply map_length.
Qed.

Lemma radau_build_inv (b : builder A P) (s : state) : build alg b = Ok s -> radau_built b s.
Proof. intros H. destruct (radau_build_ex b) as (s' & E & Hb). assert (s = s') as -> by congruence. exact Hb. Qed.
Lemma radau_build_ok (b : builder A P) : exists s : state, build alg b = Ok s.
Proof. destruct (radau_build_ex b) as (s' & E & _). eauto. Qed.

(** ** Recorded solution *)
Record sol_ok (t0 : num A) (u0 : vec A) (s : state) : Prop := mkSO {
  so_len : length (ts (i_sol s)) = length (us (i_sol s));
  so_acc : length (ts (i_sol s)) = S (accepts (i_stats s));
  so_t0 : hd_error (ts (i_sol s)) = Some t0; so_u0 : hd_error (us (i_sol s)) = Some u0;
  so_dim : Forall (fun u => length u = length u0) (us (i_sol s));
  so_u : length (i_u s) = length u0 }.

Lemma sol_ok_moves t0 u0 s s' : moves s s' -> sol_ok t0 u0 s -> sol_ok t0 u0 s'.
Proof.
  induction 1 as [s|s s1 s2 Hq Hb Hr Hm IH|s s1 s2 Ha Hm IH]; intros Hs; [assumption| |]; apply IH; destruct Hs.
  - destruct Hq as [_ (Qu & Qt & _ & _ & Qts & Qus) _ Qa _ _ _].
    constructor; rewrite ?Qts, ?Qus, ?Qu, ?Qa; assumption.
  - destruct Ha. assert (length (i_u s1) = length u0) as Hl by (rewrite ac_u, tab_length; assumption).
    constructor; rewrite ?ac_ts, ?ac_us, ?ac_accepts, ?app_length; cbn [length]; try lia; auto using hd_error_app.
    apply Forall_app. split; [assumption|]. constructor; [assumption|constructor].
Qed.

Lemma radau_recorded (b : builder A P) (cb : callback A P (radau_cache A)) fuel k (s0 s : state) :
  benign_callback cb -> build alg b = Ok s0 -> steps_n alg cb fuel k s0 = Ok s -> sol_ok (b_t b) (b_u b) s.
Proof.
  intros Hcb Hb H. apply (steps_n_invariant alg cb fuel (sol_ok (b_t b) (b_u b))) with (k := k) (s := s0); [| |exact H].
  - intros a a' r Ha Hs. apply step_radau_inv in Hs as (a1 & Hs & ->). apply radau_step_moves in Hs.
    apply (sol_ok_moves _ _ _ _ Hs) in Ha. destruct Ha.
    constructor; rewrite ?(bc_sol _ Hcb), ?(bc_stats _ Hcb), ?(bc_len_u _ Hcb); assumption.
  - apply radau_build_inv in Hb as [? Eu ? ? ? ? ? Es El]. constructor; rewrite ?El, ?Es, ?Eu; cbn; auto.
Qed.

Lemma extends_refl {X} (l : list X) : extends l l.
Proof. exists []. now rewrite app_nil_r. Qed.
Lemma extends_trans {X} (a b c : list X) : extends a b -> extends b c -> extends a c.
Proof. intros (x & ->) (y & ->). exists (x ++ y). now rewrite app_assoc. Qed.
Lemma moves_extends (s s' : state) : moves s s' ->
  extends (ts (i_sol s)) (ts (i_sol s')) /\ extends (us (i_sol s)) (us (i_sol s')).
Proof.
  induction 1 as [s|s s1 s2 Hq Hb Hr Hm IH|s s1 s2 Ha Hm IH]; [split; apply extends_refl| |].
  - destruct Hq as [_ (_ & _ & _ & _ & Qts & Qus) _ _ _ _ _]. rewrite Qts, Qus in IH. exact IH.
  - destruct Ha. destruct IH as [I1 I2]. split.
    + eapply extends_trans; [|exact I1]. rewrite ac_ts. eexists; reflexivity.
    + eapply extends_trans; [|exact I2]. rewrite ac_us. eexists; reflexivity.
Qed.

Lemma radau_history_extends (cb : callback A P (radau_cache A)) fuel k (s s' : state) :
  benign_callback cb -> steps_n alg cb fuel k s = Ok s' ->
  extends (ts (i_sol s)) (ts (i_sol s')) /\ extends (us (i_sol s)) (us (i_sol s')).
Proof.
  intros Hcb H. apply (steps_n_invariant alg cb fuel
    (fun x => extends (ts (i_sol s)) (ts (i_sol x)) /\ extends (us (i_sol s)) (us (i_sol x)))) with (k := k) (s := s);
    [|split; apply extends_refl|exact H].
  intros a a' r [H1 H2] Hs. apply step_radau_inv in Hs as (a1 & Hs & ->). apply radau_step_moves, moves_extends in Hs.
  rewrite (bc_sol _ Hcb). split; eapply extends_trans; try eassumption; apply Hs.
Qed.

Definition at_end (s : state) : Prop :=
  last_opt (ts (i_sol s)) = Some (i_t s) /\ last_opt (us (i_sol s)) = Some (i_u s).
Lemma moves_at_end (s s' : state) : moves s s' -> at_end s -> at_end s'.
Proof.
  unfold at_end. induction 1 as [x|x x1 x2 Hq _ _ Hm IH|x x1 x2 Ha Hm IH]; intros Hx; [assumption| |]; apply IH.
  - destruct Hq as [_ (Qu & Qt & _ & _ & Qts & Qus) _ _ _ _ _]. now rewrite Qts, Qus, Qu, Qt.
  - destruct Ha. rewrite ac_ts, ac_us, !last_opt_snoc. split; reflexivity.
Qed.
Lemma radau_current_is_last (b : builder A P) fuel k (s0 s : state) :
  build alg b = Ok s0 -> steps_n alg None fuel k s0 = Ok s ->
  last_opt (ts (i_sol s)) = Some (i_t s) /\ last_opt (us (i_sol s)) = Some (i_u s).
Proof.
  intros Hb H. change (at_end s). apply (steps_n_invariant alg None fuel at_end) with (k := k) (s := s0); [| |exact H].
  - intros a a' r Ha Hs. apply step_radau_inv in Hs as (a1 & Hs & ->). cbn [run_callback].
    apply radau_step_moves in Hs. eapply moves_at_end; eassumption.
  - apply radau_build_inv in Hb as [? Eu Et ? ? ? ? Es El]. unfold at_end. rewrite El, Eu, Et. split; reflexivity.
Qed.

(** ** Return codes *)
Definition rc_radau (r : retcode) : Prop :=
  r = RContinue \/ r = RSuccess \/ r = RMaxIters \/ r = RDtLessThanMin \/ r = RSingularMatrix.
Lemma moves_rc (s s' : state) : moves s s' -> rc_radau (rc (i_sol s)) -> rc_radau (rc (i_sol s')).
Proof.
  unfold rc_radau. induction 1 as [x|x x1 x2 _ _ Hr Hm IH|x x1 x2 Ha Hm IH]; intros Hx; [assumption| |]; apply IH.
  - unfold soft_rc in Hr. intuition congruence.
  - destruct Ha. rewrite ac_rc. destruct (last _); auto.
Qed.
Lemma radau_retcodes (b : builder A P) (cb : callback A P (radau_cache A)) fuel k (s0 s : state) :
  benign_callback cb -> build alg b = Ok s0 -> steps_n alg cb fuel k s0 = Ok s -> rc_radau (rc (i_sol s)).
Proof.
  intros Hcb Hb H. apply (steps_n_invariant alg cb fuel (fun x => rc_radau (rc (i_sol x)))) with (k := k) (s := s0); [| |exact H].
  - intros a a' r Ha Hs. apply step_radau_inv in Hs as (a1 & Hs & ->). rewrite (bc_sol _ Hcb).
    apply radau_step_moves in Hs. eapply moves_rc; eassumption.
  - apply radau_build_inv in Hb as [? ? ? ? ? ? ? ? El]. cbn [Cache Radau5]. rewrite El. left. reflexivity.
Qed.

(** ** Frame *)
Lemma same_problem_moves (s s' : state) : moves s s' -> same_problem s s' /\ i_uprev s' = i_uprev s.
Proof.
  induction 1 as [s|s s1 s2 Hq Hb Hr Hm IH|s s1 s2 Ha Hm IH]; [split; [apply same_problem_refl|reflexivity]| |];
    destruct IH as [I1 I2].
  - destruct Hq as [Qp (_ & _ & Qup & _) _ _ _ _ _]. split; [eapply same_problem_trans; eassumption|congruence].
  - destruct Ha. split; [eapply same_problem_trans; eassumption|congruence].
Qed.

Lemma radau_frame (b : builder A P) fuel k (s0 s : state) :
  build alg b = Ok s0 -> steps_n alg None fuel k s0 = Ok s ->
  i_dudt s = b_dudt b /\ i_dfdu s = b_dfdu b /\ i_dfdt s = b_dfdt b /\ i_params s = b_params b /\
  i_tfinal s = b_tfinal b /\ i_opts s = radau_opts (b_opts b) /\
  i_tdir s = copysign A n1 (sub A (b_tfinal b) (b_t b)) /\ i_uprev s = b_u b.
Proof.
  intros Hb H. assert (same_problem s0 s /\ i_uprev s = i_uprev s0) as [Hp Hu].
  { apply (steps_n_invariant alg None fuel (fun x => same_problem s0 x /\ i_uprev x = i_uprev s0)) with (k := k) (s := s0);
      [|split; [apply same_problem_refl|reflexivity]|exact H].
    intros a a' r [H1 H2] Hs. apply step_radau_inv in Hs as (a1 & Hs & ->). cbn [run_callback].
    apply radau_step_moves, same_problem_moves in Hs as [H3 H4]. split; [eapply same_problem_trans; eassumption|etransitivity; [exact H4|exact H2]]. }
  apply radau_build_inv in Hb as [(?&?&?&?&?&?&?) Eu Et ? Eup ? ? Es El].
  destruct Hp as (?&?&?&?&?&?&?). repeat split; congruence.
Qed.

(** ** Counters *)
Lemma moves_bal (s s' : state) w : moves s s' -> balance w s -> balance w s'.
Proof.
  induction 1 as [x|x x1 x2 _ Hb _ Hm IH|x x1 x2 Ha Hm IH]; intros Hx; [assumption| |]; apply IH; auto.
  now apply (ac_bal _ _ Ha).
Qed.
Lemma moves_jev (s s' : state) : moves s s' -> jacobian_evals (i_stats s') = jacobian_evals (i_stats s).
Proof.
  induction 1 as [x|x x1 x2 Hq Hb _ Hm IH|x x1 x2 Ha Hm IH]; [reflexivity| |].
  - rewrite IH. apply Hq.
  - rewrite IH. apply (ac_jev _ _ Ha).
Qed.
Lemma moves_len (s s' : state) : moves s s' -> length (i_u s') = length (i_u s).
Proof.
  induction 1 as [x|x x1 x2 Hq Hb _ Hm IH|x x1 x2 Ha Hm IH]; [reflexivity| |].
  - rewrite IH. destruct (q_point _ _ Hq) as (-> & _). reflexivity.
  - rewrite IH, (ac_u _ _ Ha), tab_length. reflexivity.
Qed.
Record counts (b : builder A P) (s : state) : Prop := mkCounts {
  co_bal : balance 1 s; co_jev : jacobian_evals (i_stats s) = 0;
  co_dfdu : i_dfdu s = b_dfdu b; co_len : length (i_u s) = length (b_u b) }.
Lemma radau_counts (b : builder A P) (cb : callback A P (radau_cache A)) fuel k (s0 s : state) :
  benign_callback cb -> (forall x, i_dfdu (run_callback cb x) = i_dfdu x) ->
  build alg b = Ok s0 -> steps_n alg cb fuel k s0 = Ok s -> counts b s.
Proof.
  intros Hcb Hj Hb H.
  apply (steps_n_invariant alg cb fuel (counts b)) with (k := k) (s := s0); [| |exact H].
  - intros a a' r [C1 C2 C3 C4] Hs. apply step_radau_inv in Hs as (a1 & Hs & ->). apply radau_step_moves in Hs.
    pose proof (moves_bal _ _ 1 Hs C1) as C1'. pose proof (moves_jev _ _ Hs) as C2'.
    pose proof (same_problem_moves _ _ Hs) as [(_&_&C3'&_) _].
    assert (length (i_u a1) = length (i_u a)) as C4'.
    { exact (moves_len _ _ Hs). }
    constructor.
    + unfold balance in *. now rewrite (bc_trace _ Hcb), (bc_stats _ Hcb), (bc_len_u _ Hcb), Hj.
    + rewrite (bc_stats _ Hcb). etransitivity; [exact C2'|exact C2].
    + rewrite Hj. etransitivity; [exact C3'|exact C3].
    + rewrite (bc_len_u _ Hcb). etransitivity; [exact C4'|exact C4].
  - apply radau_build_inv in Hb. destruct Hb. constructor; try assumption.
    + rewrite rb_stats0. reflexivity.
    + apply rb_prob0.
    + congruence.
Qed.

Lemma radau_counters (b : builder A P) (cb : callback A P (radau_cache A)) fuel k (s0 s : state) :
  benign_callback cb -> (forall x, i_dfdu (run_callback cb x) = i_dfdu x) ->
  build alg b = Ok s0 -> steps_n alg cb fuel k s0 = Ok s ->
  rhs_calls (i_trace s) = function_evals (i_stats s) + 1 +
    (match b_dfdu b with Some _ => 0 | None => S (length (b_u b)) end) * jac_calls (i_trace s) /\
  jacobian_evals (i_stats s) = 0.
Proof.
  intros Hcb Hj Hb H. destruct (radau_counts _ _ _ _ _ _ Hcb Hj Hb H) as [C1 C2 C3 C4].
  split; [|exact C2]. unfold balance, jac_cost in C1. rewrite C3, C4 in C1. exact C1.
Qed.

Lemma radau_evals_refuted (b : builder A P) (cb : callback A P (radau_cache A)) fuel k (s0 s : state) :
  benign_callback cb -> (forall x, i_dfdu (run_callback cb x) = i_dfdu x) ->
  build alg b = Ok s0 -> steps_n alg cb fuel k s0 = Ok s ->
  function_evals (i_stats s) < rhs_calls (i_trace s).
Proof.
  intros Hcb Hj Hb H. destruct (radau_counters _ _ _ _ _ _ Hcb Hj Hb H) as [E _]. rewrite E. lia.
Qed.

Lemma radau_build_jacobian (b : builder A P) (s0 : state) : build alg b = Ok s0 ->
  jac_calls (i_trace s0) = 1 /\ jacobian_evals (i_stats s0) = 0.
Proof.
  intros Hb. apply radau_build_inv in Hb. destruct Hb. destruct rb_jac0 as (tr & E & ->). rewrite rb_stats0.
  apply jacobian_u_inv in E as (l & -> & _ & _ & E). rewrite jac_calls_app, E. split; reflexivity.
Qed.

(** ** Runs that are not stepped on after their end *)
Lemma radau_continues_ready (b : builder A P) (cb : callback A P (radau_cache A)) fuel k (s0 s : state) :
  benign_callback cb -> build alg b = Ok s0 -> continues alg cb fuel k s0 s ->
  rc (i_sol s) = RContinue /\ reject (i_cache s) = false /\ accepts (i_stats s) = k /\
  i_opts s = radau_opts (b_opts b).
Proof.
  intros Hcb Hb H. apply radau_build_inv in Hb. destruct Hb.
  assert (rc (i_sol s0) = RContinue /\ reject (i_cache s0) = false /\ accepts (i_stats s0) = 0) as H0.
  { rewrite rb_sol0, rb_stats0. split; [reflexivity|]. split; [apply rb_flags0|reflexivity]. }
  assert (i_opts s0 = radau_opts (b_opts b)) as Ho by apply rb_prob0. rewrite <- Ho.
  destruct H0 as (H1 & H2 & H3). replace k with (0 + k) by lia. rewrite <- H3. clear -Hcb H H1 H2.
  revert s0 H H1 H2. induction k as [|k IH]; intros s0 H H1 H2; inversion H as [|? ? s1 n ? Hs Hc]; subst.
  - rewrite Nat.add_0_r. auto.
  - pose proof Hs as Hs'. apply step_radau_inv in Hs' as (s2 & Hs2 & E1).
    apply (radau_step_some _ _ _ _ _ Hcb) in Hs as (R1 & R2 & R3 & R4).
    destruct (IH _ Hc R1 R4) as (I1 & I2 & I3 & I4). split; [exact I1|]. split; [exact I2|].
    split; [|congruence]. rewrite I3.
    apply radau_step_cases in Hs2 as [Ee|Ff]; [| |exact H2].
    + rewrite E1, (bc_stats _ Hcb), (rse_accepts _ _ Ee). lia.
    + exfalso. apply (rsf_rc _ _ Ff). rewrite E1, (bc_sol _ Hcb) in R1. exact R1.
Qed.

(** What the last call of a run did. *)
Lemma radau_reached_cases (b : builder A P) (cb : callback A P (radau_cache A)) fuel k (s0 s s' : state) r :
  benign_callback cb -> build alg b = Ok s0 -> continues alg cb fuel k s0 s -> step alg cb fuel s = Ok (s', r) ->
  exists s1, s' = run_callback cb s1 /\
   ((radau_step_effect s s1 /\ (rc (i_sol s') = RContinue \/ rc (i_sol s') = RSuccess)) \/
    (radau_step_failure s s1 /\ (rc (i_sol s') = RMaxIters \/ rc (i_sol s') = RDtLessThanMin \/ rc (i_sol s') = RSingularMatrix))).
Proof.
  intros Hcb Hb Hc Hs. destruct (radau_continues_ready _ _ _ _ _ _ Hcb Hb Hc) as (R1 & R2 & R3 & R4).
  apply step_radau_inv in Hs as (s2 & Hs & ->). exists s2. split; [reflexivity|]. rewrite (bc_sol _ Hcb).
  apply radau_step_cases in Hs as [E|F]; [left|right|exact R2]; split; try assumption.
  - destruct (rse_rc _ _ E); [left; congruence|right; assumption].
  - destruct (rsf_reason _ _ F R1) as [(E & _)|[(E & _)|(E & _)]]; auto.
Qed.

Lemma radau_points_count (b : builder A P) (cb : callback A P (radau_cache A)) fuel k (s0 s : state) :
  benign_callback cb -> build alg b = Ok s0 -> reached alg cb fuel k s0 s ->
  (rc (i_sol s) = RContinue \/ rc (i_sol s) = RSuccess -> length (ts (i_sol s)) = S k) /\
  (rc (i_sol s) <> RContinue -> rc (i_sol s) <> RSuccess -> length (ts (i_sol s)) = k).
Proof.
  intros Hcb Hb H. pose proof (radau_recorded _ _ _ _ _ _ Hcb Hb (reached_steps_n _ _ _ _ _ _ H)) as Hso.
  rewrite (so_acc _ _ _ Hso). clear Hso. inversion H as [|k' ? s1 ? r Hc Hs]; subst.
  - apply radau_build_inv in Hb. destruct Hb. rewrite rb_sol0, rb_stats0. cbn. split; [reflexivity|congruence].
  - destruct (radau_continues_ready _ _ _ _ _ _ Hcb Hb Hc) as (_ & _ & E & _).
    destruct (radau_reached_cases _ _ _ _ _ _ _ _ Hcb Hb Hc Hs) as (s2 & -> & [(F & R)|(F & R)]);
      rewrite (bc_stats _ Hcb).
    + rewrite (rse_accepts _ _ F), E. split; [reflexivity|]. intros N1 N2. destruct R; contradiction.
    + rewrite (q_accepts _ _ (rsf_quiet _ _ F)), E. split; [|reflexivity].
      intros [N|N]; destruct R as [R|[R|R]]; congruence.
Qed.

(** *** Budget *)
Lemma radau_final_steps (b : builder A P) (cb : callback A P (radau_cache A)) fuel fuel2 (s0 s : state) :
  benign_callback cb -> build alg b = Ok s0 -> integrate alg cb fuel fuel2 s0 = Ok s ->
  steps (i_stats s) <= max 1 (o_max_steps (b_opts b)) /\
  (rc (i_sol s) = RMaxIters -> steps (i_stats s) = max 1 (o_max_steps (b_opts b))).
Proof.
  intros Hcb Hb H. apply (integrate_split alg cb) in H as (k & s1 & _ & Hc & Hs).
  cbn [Cache Radau5] in s1.
  destruct (radau_continues_ready _ _ _ _ _ _ Hcb Hb Hc) as (R1 & R2 & R3 & R4).
  assert (o_max_steps (i_opts s1) = o_max_steps (b_opts b)) as Ho
    by (rewrite R4; unfold radau_opts; destruct (leb A _ _); reflexivity).
  assert (steps (i_stats s1) = 0 \/ steps (i_stats s1) < o_max_steps (b_opts b)) as Hst.
  { destruct (radau_continues_budget _ _ _ _ _ Hcb Hc) as (E & [->|Hk]).
    - left. inversion Hc; subst. apply radau_build_inv in Hb. destruct Hb. rewrite rb_stats0. reflexivity.
    - right. rewrite <- E, Ho in Hk. lia. }
  apply step_radau_inv in Hs as (s2 & Hs & ->). rewrite (bc_stats _ Hcb), (bc_sol _ Hcb).
  apply radau_step_inv in Hs as (mid & [Wq Wb Wr Wm] & H); [|exact R2].
  destruct (radau_clip_frame s1) as (Cq & Cb & Cs & Cst & _).
  revert Wq Wb Wr Wm Cq Cb Cs Cst. generalize (radau_clip s1) as sc. intros.
  assert (o_max_steps (i_opts sc) = o_max_steps (b_opts b)) as Ho1
    by (rewrite <- Ho; f_equal; exact (same_problem_opts _ _ (q_prob _ _ Cq))).
  assert (o_max_steps (i_opts mid) = o_max_steps (b_opts b)) as Ho2
    by (rewrite <- Ho1; f_equal; exact (same_problem_opts _ _ (q_prob _ _ Wq))).
  assert (steps (i_stats mid) = 0 \/ steps (i_stats mid) < o_max_steps (b_opts b)) as Hst2.
  { destruct Wm as [->|(Wm & _)]; [rewrite Cst; exact Hst|right; lia]. }
  destruct H as [(G1 & _ & G2 & G3)|((s3 & [T1 T2 T3 T4 T5] & _ & _ & _ & _ & Ha) & Hr')].
  - rewrite Ho2 in G3. split; [lia|]. intros E.
    destruct G3 as [(_ & E1 & E2)|[(E1 & _)|[(E1 & _)|(E1 & E2 & _)]]]; try congruence. lia.
  - rewrite (ac_steps _ _ Ha), (ac_rc _ _ Ha). rewrite Ho2 in T4. split; [lia|].
    destruct (last (i_cache s3)); [discriminate|]. intros E. congruence.
Qed.

(** *** Iteration *)
Lemma radau_iter_items (b : builder A P) fuel fuel2 (s0 s : state) items :
  build alg b = Ok s0 -> iter_collect alg None fuel fuel2 s0 = Ok (s, items) ->
  (rc (i_sol s) = RSuccess -> points s = (b_t b, b_u b) :: items ++ [(i_t s, i_u s)]) /\
  (rc (i_sol s) <> RSuccess -> points s = (b_t b, b_u b) :: items).
Proof.
  intros Hb H.
  assert (exists s1 : state, step alg None fuel s1 = Ok (s, None) /\
     (rc (i_sol s1) = RContinue /\ reject (i_cache s1) = false) /\
     ts (i_sol s1) = ts (i_sol s0) ++ map fst items /\ us (i_sol s1) = us (i_sol s0) ++ map snd items) as Hs1.
  { assert (rc (i_sol s0) = RContinue /\ reject (i_cache s0) = false) as H0.
    { apply radau_build_inv in Hb. destruct Hb. rewrite rb_sol0. split; [reflexivity|apply rb_flags0]. }
    clear Hb. revert s0 items H H0. induction fuel2 as [|f IH]; intros s0 items H H0; [discriminate|].
    cbn [iter_collect] in H. unfold iter_next in H.
    apply bind_ok in H as ([s1 r] & Hs & H). apply bind_ok in Hs as ([s2 r2] & Hs & E). inversion E; subst; clear E.
    destruct r2 as [n|].
    - apply bind_ok in H as ([s3 l3] & Hc & E). inversion E; subst; clear E.
      pose proof (radau_step_some None _ _ _ _ no_callback_benign Hs) as (R1 & _ & _ & R4).
      apply step_radau_inv in Hs as (s2 & Hs & E). cbn [run_callback] in E. subst s2.
      apply radau_step_cases in Hs as [Ee|Ff]; [| |apply H0].
      2: { exfalso. apply (rsf_rc _ _ Ff). exact R1. }
      destruct (IH _ _ Hc (conj R1 R4)) as (s4 & I1 & I2 & I3 & I4). exists s4.
      split; [exact I1|]. split; [exact I2|]. rewrite I3, I4, (rse_ts _ _ Ee), (rse_us _ _ Ee). cbn [map fst snd].
      rewrite <- !app_assoc. split; reflexivity.
    - inversion H; subst. exists s0. cbn [map]. rewrite !app_nil_r. auto. }
  destruct Hs1 as (s1 & Hs & (R1 & R2) & Et & Eu).
  apply radau_build_inv in Hb. destruct Hb. rewrite rb_sol0 in Et, Eu. cbn [ts us app] in Et, Eu.
  pose proof (step_none_rc _ _ _ _ _ Hs) as Hn. cbn [Cache Radau5] in *.
  apply step_radau_inv in Hs as (s2 & Hs & E). cbn [run_callback] in E. subst s2. unfold points.
  assert (combine (map fst items) (map snd items) = items) as Hz.
  { clear. induction items as [|[a c] l IH]; cbn; congruence. }
  apply radau_step_cases in Hs as [Ee|Ff]; [| |exact R2].
  - assert (rc (i_sol s) = RSuccess) as Hr by (destruct (rse_rc _ _ Ee); congruence).
    split; [|congruence]. intros _. rewrite (rse_ts _ _ Ee), (rse_us _ _ Ee), Et, Eu. cbn [app combine]. f_equal.
    rewrite <- Hz at 3. clear. induction items as [|[a c] l IH]; cbn; congruence.
  - pose proof (rsf_reason _ _ Ff R1) as Hr. split.
    + intros E. destruct Hr as [(E1 & _)|[(E1 & _)|(E1 & _)]]; congruence.
    + intros _. destruct (q_point _ _ (rsf_quiet _ _ Ff)) as (_ & _ & _ & _ & Q1 & Q2).
      rewrite Q1, Q2, Et, Eu. cbn [combine]. f_equal. exact Hz.
Qed.

(** ** No panics *)
Lemma radau_safe_step n (cb : callback A P (radau_cache A)) fuel (s : state) :
  benign_callback cb -> 0 < n -> ssafe n s ->
  fine (fun r => ssafe n (fst r)) (step alg cb fuel s).
Proof.
  intros Hcb Hn Hs. unfold step. cbn [alg_step Radau5].
  apply (fine_bind (ssafe n)); [now apply radau_step_ok|].
  intros s1 [H1 H2]. cbn. split; [rewrite (bc_len_u _ Hcb)|rewrite (bc_cache _ Hcb)]; assumption.
Qed.
Lemma radau_never_panics (b : builder A P) (cb : callback A P (radau_cache A)) fuel k (s0 : state) :
  benign_callback cb -> b_u b <> [] -> build alg b = Ok s0 ->
  steps_n alg cb fuel k s0 <> Panic /\ integrate alg cb fuel k s0 <> Panic.
Proof.
  intros Hcb Hu Hb. apply radau_build_inv in Hb. destruct Hb.
  assert (0 < length (b_u b)) as Hn by (destruct (b_u b); [congruence|cbn; lia]).
  revert rb_safe0. generalize (length (b_u b)) Hn. clear -Hcb. intros n Hn.
  assert (forall k (s : state), ssafe n s -> fine (fun _ => True) (steps_n alg cb fuel k s)) as H1.
  { induction k0 as [|k0 IH]; intros s Hs; cbn [steps_n]; [exact I|].
    eapply fine_bind; [apply (radau_safe_step n); assumption|]. intros [s1 r] H1. apply IH. exact H1. }
  assert (forall k (s : state), ssafe n s -> fine (fun _ => True) (integrate alg cb fuel k s)) as H2.
  { induction k0 as [|k0 IH]; intros s Hs; cbn [integrate]; [exact I|].
    eapply fine_bind; [apply (radau_safe_step n); assumption|]. intros [s1 r] H2. destruct r; [apply IH; exact H2|exact I]. }
  intros Hs. specialize (H1 k _ Hs). specialize (H2 k _ Hs). split; intros E; rewrite E in *; assumption.
Qed.

Lemma radau_dim0 (b : builder A P) (cb : callback A P (radau_cache A)) fuel (s0 : state) :
  b_u b = [] -> build alg b = Ok s0 -> step alg cb (S fuel) s0 = Panic.
Proof.
  intros Hu Hb. apply radau_build_inv in Hb. destruct Hb.
  destruct (radau_clip_frame s0) as (Cq & _ & _ & _ & _ & Cc & _).
  assert (radau_attempt (S fuel) (radau_clip s0) = Panic) as H.
  { assert (ssafe 0 (radau_clip s0)) as Hs.
    { destruct rb_safe0 as [Lu Hc]. rewrite Hu in *. cbn in Lu, Hc. eapply ssafe_same; [split; eassumption| |].
      - destruct (q_point _ _ Cq) as (-> & _). reflexivity.
      - rewrite Cc. intros []; constructor; assumption. }
    assert (decompose (i_cache (radau_clip s0)) = true) as Hd by (rewrite Cc; apply rb_flags0).
    revert Hs Hd. generalize (radau_clip s0) as s. clear. intros s Hs Hd.
    unfold radau_attempt. rewrite Hd. cbn [decomp_loop].
    assert (perform_decompositions s = Panic) as ->; [|reflexivity].
    unfold perform_decompositions, guard. rewrite (csafe_shapes 0 s Hs). unfold decomp_real. cbn -[msub scaled_eye].
    rewrite (shaped_len 0) by apply Hs. reflexivity. }
  unfold step. cbn [alg_step Radau5]. unfold radau_step. cbn [radau_loop]. rewrite H. reflexivity.
Qed.
End RadauHist.
