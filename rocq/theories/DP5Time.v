(** Forward DormandPrince5 runs in exact arithmetic: recorded times, step
    lengths, evaluation times. *)
From Coq Require Import ZArith List Bool Lia Reals Lra Sorted.
From RecordUpdate Require Import RecordSet.
From Verif Require Import Arith Vec Core Driver VecFacts DP5 DP5Facts Spec DP5Inv ArithR SpecODE DP5R.
Import ListNotations RecordSetNotations.
Local Open Scope R_scope.

Lemma sorted_snoc (l : list R) m x :
  StronglySorted Rlt l -> Forall (fun y => y <= m) l -> m < x -> StronglySorted Rlt (l ++ [x]).
Proof.
  intros H. induction H as [|a l H IH Ha]; intros Hf Hx; cbn.
  - constructor; constructor.
  - inversion Hf; subst. constructor; [auto|].
    apply Forall_app. split; [assumption|]. constructor; [lra|constructor].
Qed.
Lemma Forall_snoc {X} (Q : X -> Prop) l x : Forall Q l -> Q x -> Forall Q (l ++ [x]).
Proof. intros. apply Forall_app. auto. Qed.

Lemma gaps_snoc (l : list R) a x : gaps ((l ++ [a]) ++ [x]) = gaps (l ++ [a]) ++ [x - a].
Proof.
  induction l as [|y l IH]; [reflexivity|].
  destruct l as [|z l]; [reflexivity|]. cbn in *. now rewrite IH.
Qed.

Section DP5Time.
Context {P : Type} (inf : R).
Notation RI := (RA inf).
Notation state := (integ RI P (dp5_cache RI)).
Notation alg := (@DormandPrince5 RI P).

(** ** Evaluation times of one attempt *)
Lemma stage_times (s s1 : state) t0 t1 :
  compute_stages s = Ok s1 -> 0 <= i_dt s -> t0 <= i_t s -> i_t s + i_dt s <= t1 ->
  Forall (fun e => t0 <= ev_time e <= t1) (i_trace s) ->
  Forall (fun e => t0 <= ev_time e <= t1) (i_trace s1).
Proof.
  intros H Hdt H0 H1 Hf. rewrite compute_stages_eq in H. destruct (dp5_shapes s); [|discriminate].
  injection H as H. subst s1. unfold with_stages, stage_vecs_of, stage_vecs.
  cbn [i_trace set sd_trace app].
  repeat apply Forall_cons; try assumption; cbn [ev_time]; unfold C2, C3, C4, C5; rnorm; lra.
Qed.

Lemma rejections_times k (s s' : state) t0 t1 :
  sane_opts (i_opts s) -> rejections k s s' -> 0 < i_dt s -> t0 <= i_t s -> i_t s + i_dt s <= t1 ->
  Forall (fun e => t0 <= ev_time e <= t1) (i_trace s) ->
  Forall (fun e => t0 <= ev_time e <= t1) (i_trace s').
Proof.
  intros Hso H. revert Hso. induction H as [s|k s s1 s2 Ha Hr IH]; intros Hso Hdt H0 H1 Hf; [assumption|].
  assert (rejections 1 s s1) as R1 by (econstructor; [exact Ha|constructor]).
  pose proof (rejections_dt inf 1 s s1 Hso R1 Hdt) as (D1 & D2). clear R1.
  pose proof (dp5_attempt_rejected _ _ Ha) as At.
  pose proof (atr_problem _ _ At) as Pb. pose proof (atr_point _ _ At) as Pt. clear At.
  assert (i_opts s1 = i_opts s) as Ho by apply Pb.
  assert (i_t s1 = i_t s) as Et by apply Pt.
  pose proof (qmax_range _ _ Hso) as Hq.
  assert (i_dt s * qmax inf (i_opts s) ^ 1 <= i_dt s) as Hle.
  { simpl. rewrite <- (Rmult_1_r (i_dt s)) at 2. apply Rmult_le_compat_l; lra. }
  apply IH.
  - now rewrite Ho.
  - assumption.
  - now rewrite Et.
  - rewrite Et. rnorm. lra.
  - apply dp5_attempt_inv in Ha as (s0 & Hs & [(D & _)|(_ & _ & Hrej)]); [discriminate|].
    rewrite (rej_trace _ _ _ Hrej). eapply stage_times; try eassumption. lra.
Qed.

Lemma fwd_step_times fuel (s s' : state) t0 :
  fwd inf s -> dp5_step fuel s = Ok s' -> t0 <= i_t s ->
  Forall (fun e => t0 <= ev_time e <= i_tfinal s) (i_trace s) ->
  Forall (fun e => t0 <= ev_time e <= i_tfinal s) (i_trace s').
Proof.
  intros Hf H H0 Htr. pose proof (clip_fwd inf s Hf) as (C1 & C2 & C3).
  destruct Hf as (Hso & _).
  apply dp5_step_inv in H as (k & sk & sa & Hk & Hrs & Ha & E).
  destruct (dp5_clip_frame s) as (Cp & Cpt & _ & _ & Ctr & _ & _).
  assert (i_opts (dp5_clip s) = i_opts s) as Co by apply Cp.
  assert (i_t (dp5_clip s) = i_t s) as Ct by apply Cpt.
  rewrite <- Co in Hso.
  pose proof (rejections_dt inf k _ _ Hso Hrs C1) as (R1 & R2).
  assert (i_dt (dp5_clip s) * qmax inf (i_opts (dp5_clip s)) ^ k <= i_dt (dp5_clip s)) as Hle.
  { pose proof (qmax_range _ _ Hso) as Hq.
    rewrite <- (Rmult_1_r (i_dt (dp5_clip s))) at 2. apply Rmult_le_compat_l; [lra|].
    rewrite <- (pow1 k). apply pow_incr. lra. }
  assert (i_t s + i_dt (dp5_clip s) <= i_tfinal s) as H1 by (destruct C3 as [(_&?)|(_&?)]; rnorm; lra).
  assert (Forall (fun e => t0 <= ev_time e <= i_tfinal s) (i_trace sk)) as Hsk.
  { eapply (rejections_times k (dp5_clip s) sk); try eassumption; rewrite ?Ct, ?Ctr; rnorm; try assumption; lra. }
  apply rejections_many in Hrs. pose proof (rm_point _ _ _ Hrs) as Rpt.
  assert (i_t sk = i_t s) as Et by (destruct Rpt as (_&->&_); assumption).
  apply dp5_attempt_inv in Ha as (s1 & Hs & [(_ & _ & Hacc)|(D & _)]); [|discriminate].
  pose proof (dp5_finish_frame sa) as (_&_&_&_&_&_&_&_&Ftr&_).
  subst s'. rewrite Ftr, (acc_trace _ _ _ Hacc).
  eapply stage_times; try eassumption; rewrite ?Et; rnorm; lra.
Qed.

(** ** Runs *)
Record run_inv (b : builder RI P) (s : state) : Prop := {
  ri_opts : i_opts s = b_opts b;
  ri_tfinal : i_tfinal s = b_tfinal b;
  ri_tdir : i_tdir s = 1;
  ri_sorted : StronglySorted Rlt (ts (i_sol s));
  ri_range : Forall (fun t => b_t b <= t <= i_t s) (ts (i_sol s));
  ri_snoc : exists l, ts (i_sol s) = l ++ [i_t s];
  ri_last : i_t s <= b_tfinal b;
  ri_first : b_t b <= i_t s;
  ri_gaps : exists g0 gs, (gaps (ts (i_sol s)) = [] /\ i_dt s = b_dt b \/
                           gaps (ts (i_sol s)) = g0 :: gs /\ i_dt s <= o_dtmax (b_opts b)) /\
     g0 < 101/100 * b_dt b /\ Forall (fun g => g < 101/100 * o_dtmax (b_opts b)) gs;
  ri_dt : 0 < i_dt s;
  ri_rc : rc (i_sol s) = RSuccess -> i_t s = b_tfinal b;
  ri_fwd : rc (i_sol s) = RContinue -> fwd inf s;
  ri_trace : Forall (fun e => b_t b <= ev_time e <= b_tfinal b) (i_trace s) }.

Lemma run_inv_step (b : builder RI P) fuel (s s' : state) r :
  sane_opts (b_opts b) ->
  run_inv b s -> rc (i_sol s) = RContinue -> step alg None fuel s = Ok (s', r) -> run_inv b s'.
Proof.
  intros Hso [Io If Id Is Ir (l & Il) Ila Ifi (g0 & gs & Ig & Ig0 & Igs) Idt Irc Ifw Itr] Hrc H.
  unfold step in H. apply bind_ok in H as (s1 & H & E). cbn [run_callback] in E.
  injection E as E _. subst s1. cbn [alg_step DormandPrince5 Cache] in H.
  specialize (Ifw Hrc).
  pose proof (fwd_step_of inf _ _ _ Ifw H) as [St Sdp Sdm Sl Srj].
  pose proof (fwd_step_times _ _ _ (b_t b) Ifw H Ifi ltac:(now rewrite If)) as Htr.
  pose proof (dp5_step_effect_of _ _ _ H) as Ef. open_effect Ef.
  destruct se_problem0 as (_&_&_&_&Pd&Pf&Po).
  constructor.
  - congruence.
  - congruence.
  - congruence.
  - rewrite se_ts0. apply sorted_snoc with (m := i_t s); [assumption| |lra].
    eapply Forall_impl; [|exact Ir]. cbn. intros; lra.
  - rewrite se_ts0. apply Forall_snoc.
    + eapply Forall_impl; [|exact Ir]. cbn. intros; lra.
    + lra.
  - eauto.
  - rewrite If in St. lra.
  - lra.
  - rewrite se_ts0, Il, gaps_snoc, se_t0. rewrite Io in *. rnorm.
    assert (forall a x : R, a + x - a = x) as Eg by (intros; ring). rewrite Eg.
    rewrite Il in Ig.
    destruct Ig as [(Ig & Ed)|(Ig & Ed)]; rewrite Ig.
    + exists (i_dtprev s'), []. cbn. split; [right; split; [reflexivity|apply Sdm]|].
      split; [|constructor]. rewrite <- Ed. rnorm. lra.
    + exists g0, (gs ++ [i_dtprev s']). cbn. split; [right; split; [reflexivity|apply Sdm]|].
      split; [assumption|]. apply Forall_snoc; [assumption|]. rnorm. lra.
  - lra.
  - intros E. rewrite <- If. apply Sl. destruct se_rc0 as (r0 & Hr0 & Er). rewrite E in Er.
    destruct (last (i_cache s')); [reflexivity|]. destruct (Nat.ltb _ _); [discriminate|].
    destruct Hr0 as [Hr0|Hr0]; congruence.
  - intros E. destruct se_rc0 as (r0 & Hr0 & Er). rewrite E in Er.
    unfold fwd. rewrite Po, Pd, Pf. split; [now rewrite Io|]. split; [assumption|].
    split; [lra|].
    destruct (last (i_cache s')) eqn:El; [discriminate|].
    split; [|auto]. destruct (proj2 St) as [?|Eq]; [assumption|].
    apply Sl in Eq. discriminate.
  - now rewrite If in Htr.
Qed.

Lemma run_inv_build (b : builder RI P) (s : state) :
  sane_opts (b_opts b) -> 0 < b_dt b -> b_t b < b_tfinal b ->
  build alg b = Ok s -> run_inv b s /\ rc (i_sol s) = RContinue.
Proof.
  intros Hso Hdt Ht H.
  unfold build in H. cbn [alg_new_cache DormandPrince5] in H. unfold dp5_new_cache in H.
  cbn [bind] in H. injection H as H. subst s. split; [|reflexivity].
  assert (rcopysign 1 (b_tfinal b - b_t b) = 1) as Ed.
  { unfold rcopysign. destruct (Rlt_dec _ _); [lra|]. now rewrite Rabs_R1. }
  assert (rlit 1 1 = 1) as E1 by (unfold rlit; lra).
  constructor; cbn [i_opts i_tfinal i_tdir i_sol i_t i_dt i_trace ts us rc i_cache]; try reflexivity.
  - rnorm. replace (1/1) with 1 by lra. exact Ed.
  - cbn. repeat constructor.
  - cbn. repeat constructor; lra.
  - exists []. reflexivity.
  - lra.
  - lra.
  - exists 0, []. cbn. split; [left; auto|]. split; [lra|constructor].
  - assumption.
  - discriminate.
  - intros _. unfold fwd. cbn. rnorm. replace (1/1) with 1 by lra. rewrite Ed. auto 10.
  - repeat constructor; cbn; lra.
Qed.

Theorem dp5_run (b : builder RI P) fuel k (s0 s : state) :
  sane_opts (b_opts b) -> 0 < b_dt b -> b_t b < b_tfinal b ->
  build alg b = Ok s0 -> reached alg None fuel k s0 s -> run_inv b s.
Proof.
  intros Hso Hdt Ht Hb Hr. destruct (run_inv_build b s0 Hso Hdt Ht Hb) as [Hi Hrc].
  refine (reached_invariant alg None fuel (run_inv b) _ k s0 s Hr Hrc Hi).
  intros s1 s2 r H1 H2 H3. eapply run_inv_step; eassumption.
Qed.
End DP5Time.
