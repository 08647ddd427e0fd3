(** The exact-arithmetic Radau5 results in the form of the property theorems. *)
From Coq Require Import ZArith List Bool Lia Reals Lra Sorted.
From RecordUpdate Require Import RecordSet.
From Verif Require Import Arith Vec Core Spec Jacobian Linalg Driver VecFacts DP5Facts DP5Inv LinFacts LinFactsC
  Radau RadauFacts RadauStep RadauInv RadauHist RadauKeep ArithR SpecODE SpecRadau DP5Time RadauR RadauTime.
Import ListNotations RecordSetNotations.
Local Open Scope R_scope.

Section Forms.
Context {P : Type} (inf : R).
Notation RI := (RA inf).
Notation state := (integ RI P (radau_cache RI)).
Notation alg := (@Radau5 RI P).

Lemma radau_opts_sane (o : opts RI) : radau_sane o -> radau_sane (radau_opts o).
Proof. intros []. unfold radau_opts, radau_tols. destruct (leb RI _ _); constructor; assumption. Qed.
Lemma radau_opts_fields (o : opts RI) :
  o_dtmax (radau_opts o) = o_dtmax o /\ o_quot1 (radau_opts o) = o_quot1 o /\ o_facl (radau_opts o) = o_facl o /\
  o_facr (radau_opts o) = o_facr o /\ o_safe (radau_opts o) = o_safe o.
Proof. unfold radau_opts, radau_tols. destruct (leb RI _ _); repeat split; reflexivity. Qed.

Lemma dir_of (b : builder RI P) (s : state) : radau_built b s ->
  i_tdir s = if Rlt_dec (b_tfinal b) (b_t b) then -1 else 1.
Proof.
  intros H. destruct (rb_prob _ _ H) as (_ & _ & _ & _ & -> & _). rnorm. unfold rcopysign.
  replace (1 / 1) with 1 by lra. rewrite Rabs_R1.
  destruct (Rlt_dec (b_tfinal b - b_t b) 0), (Rlt_dec (b_tfinal b) (b_t b)); lra.
Qed.

(** What a freshly built integrator looks like. *)
Record fresh (b : builder RI P) (s : state) : Prop := mkFresh {
  fr_opts : i_opts s = radau_opts (b_opts b);
  fr_tf : i_tfinal s = b_tfinal b;
  fr_dir : i_tdir s = if Rlt_dec (b_tfinal b) (b_t b) then -1 else 1;
  fr_t : i_t s = b_t b;
  fr_dt : i_dt s = b_dt b;
  fr_ts : ts (i_sol s) = [b_t b];
  fr_rc : rc (i_sol s) = RContinue;
  fr_sane : radau_sane (i_opts s);
  fr_cfac : 0 < cfac (i_cache s);
  fr_reject : reject (i_cache s) = false;
  fr_last : last (i_cache s) = false;
  fr_tr : Forall (fun e => ev_time e = b_t b) (i_trace s) }.

Lemma built_fresh (b : builder RI P) (s : state) : radau_sane (b_opts b) -> build alg b = Ok s -> fresh b s.
Proof.
  intros Ho H. apply radau_build_inv in H. pose proof (dir_of b s H) as Hd. destruct H.
  destruct rb_prob as (_ & _ & _ & _ & _ & Ef & Eo). destruct rb_flags as (_ & _ & El & Er & _).
  constructor; try assumption.
  - now rewrite rb_sol.
  - now rewrite rb_sol.
  - rewrite Eo. now apply radau_opts_sane.
  - rewrite rb_cfac. rnorm. destruct Ho as [Hs _ _ _ _]. apply Rmult_lt_0_compat; [apply Hs|].
    assert (0 < IZR (Z.of_nat (1 + 2 * o_max_newt_iter (b_opts b)))) by (apply IZR_lt; lia). lra.
  - destruct rb_jac as (tr & Hj & ->). apply jacobian_u_inv in Hj as (l & -> & Hl & _).
    apply Forall_app. split; [exact Hl|]. constructor; [reflexivity|constructor].
Qed.

(** Forward, or backward with the whole span tried at once. *)
Definition starts_well (b : builder RI P) : Prop :=
  (b_t b < b_tfinal b /\ 0 < b_dt b) \/
  (b_tfinal b < b_t b /\ 0 <= b_t b + 10001/10000 * b_dt b + b_tfinal b).

Lemma fresh_ready (b : builder RI P) (s : state) : starts_well b -> fresh b s ->
  ready inf s /\ between (i_tdir s) (i_t s) (i_t s) (i_tfinal s).
Proof.
  intros Hw []. unfold ready, between. rewrite fr_dir0, fr_t0, fr_dt0, fr_tf0.
  destruct Hw as [(H1 & H2)|(H1 & H2)]; destruct (Rlt_dec (b_tfinal b) (b_t b)) as [Hd|Hd];
    try (exfalso; rnorm; lra).
  - split; [right|rnorm; lra]. repeat (split; [assumption|]). left. auto.
  - split; [right|rnorm; lra]. repeat (split; [assumption|]). right. auto.
Qed.

Lemma radau_runs (b : builder RI P) fuel k (s0 s : state) :
  radau_sane (b_opts b) -> starts_well b -> build alg b = Ok s0 -> reached alg None fuel k s0 s ->
  fresh b s0 /\ exists l, rrun inf s0 s l.
Proof.
  intros Ho Hw Hb Hr. pose proof (built_fresh b s0 Ho Hb) as Hf. split; [exact Hf|].
  destruct (fresh_ready b s0 Hw Hf) as (H1 & H2). eapply rrun_reached; try eassumption. apply Hf.
Qed.

(** ** Forward *)
Section Forward.
Context (b : builder RI P) (Ho : radau_sane (b_opts b)) (Hdt : 0 < b_dt b) (Ht : b_t b < b_tfinal b).

Lemma fwd_well : starts_well b.
Proof. left. auto. Qed.
Lemma fwd_dir (s : state) : fresh b s -> i_tdir s = 1.
Proof. intros []. rewrite fr_dir0. destruct (Rlt_dec _ _); [lra|reflexivity]. Qed.

Lemma fwd_times fuel k (s0 s : state) : build alg b = Ok s0 -> reached alg None fuel k s0 s ->
  StronglySorted Rlt (ts (i_sol s)) /\ Forall (fun t => b_t b <= t <= b_tfinal b) (ts (i_sol s)).
Proof.
  intros Hb Hr. destruct (radau_runs b fuel k s0 s Ho fwd_well Hb Hr) as (Hf & l & Hrun).
  pose proof (fwd_dir _ Hf) as Hd. destruct Hf, Hrun. rewrite rr_ts, fr_ts0. rewrite Hd, fr_t0, fr_tf0 in *.
  change ([b_t b] ++ l) with (b_t b :: l). split.
  - clear -rr_sorted. induction rr_sorted as [|x l' H IH Hx]; constructor; [assumption|].
    eapply Forall_impl; [|exact Hx]. unfold before. intros; lra.
  - apply Forall_forall. intros x Hx. unfold between in rr_in. rewrite Forall_forall in rr_le.
    specialize (rr_le _ Hx). split; [|rnorm; lra].
    destruct Hx as [<-|Hx]; [lra|]. apply StronglySorted_inv in rr_sorted as (_ & Hs).
    rewrite Forall_forall in Hs. specialize (Hs _ Hx). unfold before in Hs. rnorm. lra.
Qed.

Lemma fwd_success fuel k (s0 s : state) : build alg b = Ok s0 -> reached alg None fuel k s0 s ->
  rc (i_sol s) = RSuccess -> i_t s = b_tfinal b /\ last_opt (ts (i_sol s)) = Some (b_tfinal b).
Proof.
  intros Hb Hr Hrc. destruct (radau_runs b fuel k s0 s Ho fwd_well Hb Hr) as (Hf & l & Hrun).
  destruct Hf, Hrun. specialize (rr_success Hrc). rewrite fr_tf0 in rr_success. split; [assumption|].
  rewrite rr_ts, fr_ts0. change ([b_t b] ++ l) with (b_t b :: l).
  destruct rr_snoc as (l' & E). rewrite fr_t0 in E.
  replace (b_t b :: l) with (l' ++ [i_t s]) by (symmetry; exact E).
  rewrite <- rr_success. apply last_opt_snoc.
Qed.

Lemma fwd_span fuel k (s0 s : state) : build alg b = Ok s0 -> reached alg None fuel k s0 s ->
  Forall (fun e => b_t b <= ev_time e <= b_tfinal b) (i_trace s).
Proof.
  intros Hb Hr. destruct (radau_runs b fuel k s0 s Ho fwd_well Hb Hr) as (Hf & l & Hrun).
  pose proof (fwd_dir _ Hf) as Hd. destruct Hf, Hrun. destruct rr_evs as (tr & -> & Htr).
  rewrite Hd, fr_t0, fr_tf0 in Htr. apply Forall_app. split.
  - eapply Forall_impl; [|exact Htr]. unfold between. cbn. intros; rnorm; lra.
  - eapply Forall_impl; [|exact fr_tr0]. cbn. intros e He. assert (ev_time e = b_t b) as -> by exact He.
    rnorm. lra.
Qed.

Lemma fwd_dtmax fuel k (s0 s : state) : build alg b = Ok s0 -> reached alg None fuel k s0 s ->
  Forall (fun g => g <= 10001/10000 * (o_dtmax (b_opts b) / o_quot1 (b_opts b))) (tl (gaps (ts (i_sol s)))) /\
  (forall g, hd_error (gaps (ts (i_sol s))) = Some g -> g <= 10001/10000 * b_dt b).
Proof.
  intros Hb Hr. destruct (radau_runs b fuel k s0 s Ho fwd_well Hb Hr) as (Hf & l & Hrun).
  pose proof (fwd_dir _ Hf) as Hd. destruct Hf, Hrun. rewrite rr_ts, fr_ts0.
  change ([b_t b] ++ l) with (b_t b :: l). rewrite Hd, fr_t0 in *. split.
  - specialize (rr_gaps eq_refl). unfold gap_limit in rr_gaps. rewrite fr_opts0 in rr_gaps.
    destruct (radau_opts_fields (b_opts b)) as (E1 & E2 & _). rewrite E1, E2 in rr_gaps. exact rr_gaps.
  - intros g Hg. specialize (rr_gap1 g Hg).
    pose proof (forward_trial inf s0 Hd ltac:(rewrite fr_dt0; assumption)) as H. rewrite fr_dt0 in H. rnorm. lra.
Qed.
End Forward.

(** ** One step of a run *)
Lemma run_ready (b : builder RI P) fuel k (s0 s : state) :
  radau_sane (b_opts b) -> starts_well b -> build alg b = Ok s0 -> reached alg None fuel k s0 s ->
  rc (i_sol s) = RContinue -> ready inf s /\ i_opts s = radau_opts (b_opts b) /\ i_tfinal s = b_tfinal b /\
    i_tdir s = if Rlt_dec (b_tfinal b) (b_t b) then -1 else 1.
Proof.
  intros Ho Hw Hb Hr Hrc. destruct (radau_runs b fuel k s0 s Ho Hw Hb Hr) as (Hf & l & Hrun).
  destruct Hf, Hrun. destruct rr_prob as (_ & _ & _ & _ & E1 & E2 & E3).
  split; [now apply rr_ready|]. rewrite E1, E2, E3. auto.
Qed.

(** A call of [step()] on a running integrator that records a point. *)
Lemma run_step (b : builder RI P) fuel k (s0 s s' : state) r :
  radau_sane (b_opts b) -> starts_well b -> build alg b = Ok s0 -> reached alg None fuel k s0 s ->
  rc (i_sol s) = RContinue -> step alg None fuel s = Ok (s', r) -> ts (i_sol s') <> ts (i_sol s) ->
  stepped inf s s'.
Proof.
  intros Ho Hw Hb Hr Hrc H Hts. destruct (run_ready b fuel k s0 s Ho Hw Hb Hr Hrc) as (Hrd & _).
  apply step_radau_inv in H as (s1 & H & ->). cbn [run_callback] in *.
  apply radau_step_R in H; [|assumption]. destruct H as [H|H]; [exact H|].
  destruct (q_point _ _ (sl_quiet _ _ _ H)) as (_ & _ & _ & _ & E & _). contradiction.
Qed.

Lemma fwd_shrink (b : builder RI P) fuel k (s0 s s' : state) r :
  radau_sane (b_opts b) -> 0 < b_dt b -> b_t b < b_tfinal b ->
  build alg b = Ok s0 -> reached alg None fuel k s0 s ->
  rc (i_sol s) = RContinue -> step alg None fuel s = Ok (s', r) -> ts (i_sol s') <> ts (i_sol s) ->
  exists j, steps (i_stats s') = (steps (i_stats s) + S j)%nat /\
    0 < i_dtprev s' <= radau_trial s * radau_shrink (b_opts b) ^ j.
Proof.
  intros Ho Hdt Ht Hb Hr Hrc H Hts.
  assert (starts_well b) as Hw by (left; auto).
  destruct (run_ready b fuel k s0 s Ho Hw Hb Hr Hrc) as (Hrd & Eo & Ef & Ed).
  pose proof (run_step b fuel k s0 s s' r Ho Hw Hb Hr Hrc H Hts) as [_ _ _ Sf _ (l & j & E & Hl & Hj) _ _ _].
  destruct (Rlt_dec _ _); [lra|]. rewrite Ed in Sf. pose proof (ready_trial_pos inf s Hrd) as Htp.
  rewrite Ed in Htp. exists j. split; [exact Hj|]. split; [lra|].
  assert (radau_shrink (i_opts s) = radau_shrink (b_opts b)) as Es.
  { rewrite Eo. unfold radau_shrink. destruct (radau_opts_fields (b_opts b)) as (_ & _ & -> & _ & ->). reflexivity. }
  rewrite Es in Hl. rewrite E. rnorm. nra.
Qed.

Lemma fwd_growth (b : builder RI P) fuel k (s0 s s' : state) r :
  radau_sane (b_opts b) -> 0 < b_dt b -> b_t b < b_tfinal b ->
  build alg b = Ok s0 -> reached alg None fuel k s0 s ->
  rc (i_sol s) = RContinue -> step alg None fuel s = Ok (s', r) -> rc (i_sol s') = RContinue ->
  let h := i_dtprev s' in let o := b_opts b in
  0 < h /\
  ((i_dt s' = b_tfinal b - i_t s' /\ i_dt s' <= Rmin (h / o_facr o) (o_dtmax o) / o_quot1 o) \/
   (Rmin (h / o_facl o) (o_dtmax o) <= i_dt s' <= h / o_facr o /\ i_dt s' <= o_dtmax o / o_quot1 o)).
Proof.
  intros Ho Hdt Ht Hb Hr Hrc H Hrc' h o.
  assert (starts_well b) as Hw by (left; auto).
  destruct (run_ready b fuel k s0 s Ho Hw Hb Hr Hrc) as (Hrd & Eo & Ef & Ed).
  assert (ts (i_sol s') <> ts (i_sol s)) as Hts.
  { pose proof H as H2. apply step_radau_inv in H2 as (s1 & H2 & E). cbn [run_callback] in E. subst s1.
    apply radau_step_cases in H2 as [H2|H2]; [| |now apply (ready_tidy inf)].
    - rewrite (rse_ts _ _ H2). intros E. apply (f_equal (@length _)) in E. rewrite app_length in E. cbn in E. rlia.
    - exfalso. now apply (rsf_rc _ _ H2). }
  pose proof (run_step b fuel k s0 s s' r Ho Hw Hb Hr Hrc H Hts) as [_ _ _ Sf _ _ _ _ Se].
  destruct (Rlt_dec _ _); [lra|]. rewrite Ed, Ef, Eo in *. rewrite Rmult_1_l in Sf.
  destruct Se as [(E & _)|(_ & _ & Hn)]; [congruence|].
  destruct (radau_opts_fields (b_opts b)) as (E1 & E2 & E3 & E4 & E5).
  unfold next_size in Hn. rewrite E1, E2, E3, E4 in Hn. fold h o in Hn, Sf.
  rewrite (Rabs_right h) in Hn by (left; exact Sf). rewrite !Rmult_1_l in Hn.
  split; [exact Sf|]. destruct Hn as [Hn|Hn]; [left; exact Hn|right]. tauto.
Qed.

(** ** Backward *)
Lemma bwd_times (b : builder RI P) fuel k (s0 s : state) :
  radau_sane (b_opts b) -> b_tfinal b < b_t b -> 0 <= b_t b + 10001/10000 * b_dt b + b_tfinal b ->
  build alg b = Ok s0 -> reached alg None fuel k s0 s ->
  StronglySorted Rgt (ts (i_sol s)) /\ Forall (fun t => b_tfinal b <= t <= b_t b) (ts (i_sol s)) /\
  (rc (i_sol s) = RSuccess -> i_t s = b_tfinal b) /\
  Forall (fun e => b_tfinal b <= ev_time e <= b_t b) (i_trace s).
Proof.
  intros Ho Ht Hc Hb Hr. destruct (radau_runs b fuel k s0 s Ho ltac:(right; auto) Hb Hr) as (Hf & l & Hrun).
  destruct Hf, Hrun. destruct (Rlt_dec _ _); [|lra].
  rewrite rr_ts, fr_ts0. rewrite fr_dir0, fr_t0, fr_tf0 in *.
  change ([b_t b] ++ l) with (b_t b :: l). split; [|split; [|split]].
  - clear -rr_sorted. induction rr_sorted as [|x l' H IH Hx]; constructor; [assumption|].
    eapply Forall_impl; [|exact Hx]. unfold before. intros; lra.
  - apply Forall_forall. intros x Hx. unfold between in rr_in. rewrite Forall_forall in rr_le.
    specialize (rr_le _ Hx). split; [rnorm; lra|].
    destruct Hx as [<-|Hx]; [lra|]. apply StronglySorted_inv in rr_sorted as (_ & Hs).
    rewrite Forall_forall in Hs. specialize (Hs _ Hx). unfold before in Hs. rnorm. lra.
  - exact rr_success.
  - destruct rr_evs as (tr & -> & Htr). apply Forall_app. split.
    + eapply Forall_impl; [|exact Htr]. unfold between. cbn. intros; rnorm; lra.
    + eapply Forall_impl; [|exact fr_tr0]. cbn. intros e He. assert (ev_time e = b_t b) as -> by exact He.
      rnorm. lra.
Qed.

(** The first step away from the end of the span. *)
Lemma bwd_first (b : builder RI P) fuel (s0 s : state) :
  b_tfinal b < b_t b -> 0 < b_dt b -> b_t b + 10001/10000 * b_dt b + b_tfinal b < 0 -> fresh b s0 ->
  radau_step fuel s0 = Ok s ->
  (rc (i_sol s) <> RContinue /\ rc (i_sol s) <> RSuccess /\ ts (i_sol s) = [b_t b] /\ i_t s = b_t b) \/
  (rc (i_sol s) = RContinue /\ ready inf s /\ i_tdir s = -1 /\ i_tfinal s = b_tfinal b /\
   ts (i_sol s) = [b_t b; i_t s] /\ b_t b < i_t s <= b_t b + b_dt b).
Proof.
  intros Ht Hdt Hc [Fo Ff Fd Ft Fdt Fts Frc Fs Fcf Fr Fl _] H.
  destruct (Rlt_dec (b_tfinal b) (b_t b)) as [_|]; [|lra].
  pose proof (radau_step_cases _ _ _ Fr H) as Hcases.
  pose proof (step_cfac _ _ _ H) as Ecf. unfold radau_step in H.
  destruct (radau_clip_cases inf s0) as [(C & _)|(_ & E)].
  { rewrite Fd, Ff, Ft, Fdt in C. rnorm. lra. }
  rewrite E in H. apply radau_loop_R in H; [|assumption|assumption|intros El; congruence].
  destruct H as [(Hq & _)|(l & s1 & Htl & _ & Ha & _ & _)].
  - left. destruct (q_point _ _ Hq) as (_ & Et & _ & _ & Ets & _). rewrite Ets, Et, Fts, Ft.
    destruct Hcases as [Hx|Hx].
    + exfalso. pose proof (rse_ts _ _ Hx) as Ex. rewrite Ets in Ex.
      apply (f_equal (@length _)) in Ex. rewrite app_length in Ex. cbn in Ex. rlia.
    + split; [apply Hx|]. split; [|auto].
      destruct (rsf_reason _ _ Hx Frc) as [(Ex & _)|[(Ex & _)|(Ex & _)]]; rewrite Ex; discriminate.
  - right. destruct Htl as [Tq (Tl & Td & Tc) _ Tcf Trc _].
    assert (last (i_cache s1) = false) as El by (destruct Tc as [(_ & -> & _)|(_ & -> & _)]; auto).
    pose proof (quiet_opts inf _ _ Tq) as Eo. pose proof (quiet_t inf _ _ Tq) as Et.
    destruct (q_prob _ _ Tq) as (_ & _ & _ & _ & Ed & Ef & _).
    destruct (q_point _ _ Tq) as (_ & _ & _ & _ & Ets & _).
    rewrite Fdt in Td. rewrite Fd in Ed. rewrite Ff in Ef. rewrite Ft in Et.
    assert (0 < i_dt s1 <= b_dt b) as Hpos by (rewrite Td; rnorm; nra).
    pose proof (ac_t _ _ Ha) as Eat. rewrite Et in Eat.
    pose proof (accepted_next inf s1 s ltac:(rewrite Eo; exact Fs) ltac:(right; exact Ed)
      ltac:(intros Ez; rnorm; lra) Ha El) as Hn.
    unfold next_ok in Hn. rewrite Eo, Ed, Ef, Et in Hn.
    destruct (ac_prob _ _ Ha) as (_ & _ & _ & _ & Ed' & Ef' & Eo').
    rewrite (ac_rc _ _ Ha), El, Trc, Frc. split; [reflexivity|]. split; [left|].
    + assert (0 < -1 * (b_tfinal b - i_t s)) as Hleft by (rewrite Eat; rnorm; lra).
      constructor.
      * now rewrite Eo', Eo.
      * now rewrite Ecf.
      * rewrite Ed', Ed. now right.
      * rewrite Ed', Ef', Ed, Ef. exact Hleft.
      * rewrite Ed', Ed. destruct Hn as [(_ & Hn & _)|(_ & Hn & _)].
        -- rewrite Hn. rewrite Eat in Hleft. exact Hleft.
        -- eapply Rlt_le_trans; [|exact Hn]. destruct Fs as [_ Hl1 _ _ Hm1].
           apply Rmin_glb_lt; [|exact Hm1]. apply Rdiv_lt_0_compat; [apply Rabs_pos_lt; intros Ez; rnorm; lra|lra].
      * intros E2. destruct Hn as [(_ & Hn & _)|(Hn & _)]; [|congruence]. rewrite Hn, Ef', Ef, Eat. rlra.
      * intros E2. destruct Hn as [(Hn & _ & _)|(_ & _ & _ & _ & Hn)]; [congruence|].
        rewrite Ed', Ef', Ed, Ef, Eat. exact Hn.
      * destruct (ac_next _ _ Ha El) as (E2 & _). exact E2.
    + rewrite Ed', Ef', (ac_ts _ _ Ha), Ets, Fts. repeat (split; [assumption || reflexivity|]).
      rewrite Eat. rnorm. lra.
Qed.

Lemma bwd_overshoot (b : builder RI P) fuel k (s0 s : state) :
  radau_sane (b_opts b) -> b_tfinal b < b_t b -> 0 < b_dt b ->
  b_t b + 10001/10000 * b_dt b + b_tfinal b < 0 ->
  build alg b = Ok s0 -> reached alg None fuel k s0 s ->
  (ts (i_sol s) = [b_t b] /\ rc (i_sol s) <> RSuccess) \/
  exists t1 l, ts (i_sol s) = b_t b :: t1 :: l /\ b_t b < t1 <= b_t b + b_dt b /\
    StronglySorted Rgt (t1 :: l) /\ Forall (fun t => b_tfinal b <= t) l /\
    (rc (i_sol s) = RSuccess -> i_t s = b_tfinal b).
Proof.
  intros Ho Ht Hdt Hc Hb Hr. pose proof (built_fresh b s0 Ho Hb) as Hf.
  set (I := fun x : state => x = s0 \/ (rc (i_sol x) <> RContinue /\ rc (i_sol x) <> RSuccess /\ ts (i_sol x) = [b_t b]) \/
    exists a l, rrun inf a x l /\ i_tdir a = -1 /\ i_tfinal a = b_tfinal b /\ ts (i_sol a) = [b_t b; i_t a] /\
       b_t b < i_t a <= b_t b + b_dt b).
  assert (I s) as Hi.
  { refine (reached_invariant alg None fuel I _ k s0 s Hr (fr_rc _ _ Hf) _); [|left; reflexivity].
    intros s1 s2 r Hi Hrc H. apply step_radau_inv in H as (s3 & H & ->). cbn [run_callback].
    destruct Hi as [->|[(Hn & _)|(a & l & Hi & H1 & H2 & H3 & H4)]]; [|contradiction|].
    - destruct (bwd_first b fuel s0 s3 Ht Hdt Hc Hf H) as [(H1 & H2 & H3 & _)|(H1 & H2 & H3 & H4 & H5 & H6)].
      + right. left. auto.
      + right. right. exists s3, []. split; [|auto]. apply rrun_start; try assumption.
        rewrite H3, H4. unfold between. rnorm. lra.
    - right. right. destruct (rrun_step inf a s1 s3 l fuel Hi Hrc H) as (l' & Hi'). exists a, l'. auto. }
  clear Hr. destruct Hi as [->|[(_ & H1 & H2)|(a & l & Hi & H1 & H2 & H3 & H4)]].
  - left. rewrite (fr_ts _ _ Hf), (fr_rc _ _ Hf). split; [reflexivity|discriminate].
  - left. auto.
  - right. exists (i_t a), l. destruct Hi. rewrite rr_ts, H3, H1, H2 in *. split; [reflexivity|].
    split; [assumption|]. split; [|split; [|exact rr_success]].
    + clear -rr_sorted. induction rr_sorted as [|x l' H IH Hx]; constructor; [assumption|].
      eapply Forall_impl; [|exact Hx]. unfold before. intros; lra.
    + inversion rr_le as [|? ? _ Hle]; subst. destruct rr_in as (_ & Hin).
      eapply Forall_impl; [|exact Hle]. cbn. intros; rnorm; lra.
Qed.
End Forms.
