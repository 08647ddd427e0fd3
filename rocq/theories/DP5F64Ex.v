(** Binary64 runs of the oscillator for PropF64Conv.v. *)
From Coq Require Import ZArith List Bool Lia Reals Lra.
From RecordUpdate Require Import RecordSet.
From Flocq Require Import Core BinarySingleNaN.
From Verif Require Import Arith Vec Core Driver VecFacts DP5 Spec SpecRK SpecODE SpecConv SpecF64 SpecF64Conv
  ArithF FFacts FOrder FErr DP5Mono DP5Round DP5F64Conv DP5F64Step F64Ex.
Import ListNotations RecordSetNotations.
Local Open Scope R_scope.

Definition zb : builder XZ unit := z_dp5 (f_lit 0 1) (f_lit 3 1000000).
Lemma zb_0 : B2R (f_lit 0 1) = 0.
Proof. reflexivity. Qed.
Lemma zb_1 : B2R (f_lit 1 1) = 1.
Proof. apply f_1. Qed.
Lemma zb_t : B2R (b_t zb : f64) = 0.
Proof. exact zb_0. Qed.
Lemma zb_tf : Rabs (B2R (b_tfinal zb : f64) - 3/1000000) <= 2 * u64.
Proof.
  destruct (lit_err 3 1000000 ltac:(reflexivity) ltac:(reflexivity)) as (_ & E).
  change (b_tfinal zb) with (f_lit 3 1000000). eapply Rle_trans; [exact E|]. rewrite Rabs_right by lra.
  pose proof u64_pos. nra.
Qed.
Lemma zb_finite : finite_vec (b_u zb).
Proof. constructor; [apply f_1|]. constructor; [reflexivity|constructor]. Qed.
Lemma zb_start : Rvec (b_u zb) = [1; 0].
Proof. change (Rvec (b_u zb)) with [B2R (f_lit 1 1); B2R (f_lit 0 1)]. rewrite zb_0, zb_1. reflexivity. Qed.
Lemma z_eval T y r : evaluates 2 oscZ tt osc 0 T y r 0.
Proof.
  intros buf u t i Lb Lu Fu Ft Ht _ Hi.
  assert (exists V, 2 <= V /\ box 2 V (Rvec u)) as (V & HV & HB).
  { exists (2 + Rabs (comp (Rvec u) 0) + Rabs (comp (Rvec u) 1)).
    pose proof (Rabs_pos (comp (Rvec u) 0)). pose proof (Rabs_pos (comp (Rvec u) 1)).
    split; [lra|]. split; [rewrite Rvec_length; exact Lu|]. intros [|[|j]] Hj; [lra|lra|lia]. }
  apply (tm_eval _ _ _ _ _ _ V V 1 0 0 (z_tame T V)); assumption.
Qed.

Lemma z_five : f64_forward zb /\ exists s0 s : integ XZ unit (dp5_cache XZ),
  build DormandPrince5 zb = Ok s0 /\ reached DormandPrince5 None 5 4 s0 s /\ length (ts (i_sol s)) = 5%nat.
Proof.
  destruct z_run_ex as (H & s0 & s & H1 & H2 & _ & H3). split; [exact H|]. exists s0, s. auto.
Qed.
Lemma z_gap (s0 s : integ XZ unit (dp5_cache XZ)) : build DormandPrince5 zb = Ok s0 -> reached DormandPrince5 None 5 4 s0 s ->
  forall a c : f64, In a (ts (i_sol s)) -> In c (ts (i_sol s)) -> B2R c - B2R a <= 35/10000000.
Proof.
  intros H1 H2 a c Ha Hc. pose proof zb_tf as Htf. apply Rabs_le_inv in Htf. pose proof u64_pos. pose proof u64_small.
  destruct z_five as (Hf & _).
  assert (forall t : f64, In t (ts (i_sol s)) -> is_finite t = true /\ B2R (b_t zb : f64) <= B2R t /\
    B2R t <= B2R (b_tfinal zb : f64) + 4 * u64 * 1) as X.
  { apply (run_times zpow (fun _ _ => f_lit 1 1) zb 5 4 s0 s 1 Hf H1 H2).
    - change (Rabs (B2R (b_t zb : f64)) <= 1). rewrite zb_t, Rabs_R0. lra.
    - change (Rabs (B2R (b_tfinal zb : f64)) <= 1). apply Rabs_le. lra.
    - change 1 with (bpow radix2 0). apply bpow_le. lia. }
  pose proof zb_t.
  destruct (X a Ha) as (_ & A1 & A2). destruct (X c Hc) as (_ & C1 & C2). lra.
Qed.
Lemma gaps_bound H (l : list R) : (forall a c, In a l -> In c l -> c - a <= H) -> Forall (fun g => g <= H) (gaps l).
Proof.
  induction l as [|x l IH]; intros Hl; [constructor|]. destruct l as [|z l]; [constructor|].
  cbn [gaps]. constructor; [apply Hl; [left|right; left]; reflexivity|]. apply IH. intros a c Ha Hc. apply Hl; right; assumption.
Qed.
Lemma z_conv_ex : smooth_problem 2 osc 0 1 osc_sol /\ time_lipschitz 2 osc 0 1 osc_sol /\
  b_dudt zb = oscZ /\ B2R (b_t zb : f64) = 0 /\ B2R (b_tfinal zb : f64) < 1 /\ f64_forward zb /\
  (forall r, evaluates 2 oscZ tt osc 0 1 osc_sol r 0) /\
  length (b_u zb) = 2%nat /\ finite_vec (b_u zb) /\ close 2 0 (Rvec (b_u zb)) (osc_sol 0) /\
  exists s0 s : integ XZ unit (dp5_cache XZ),
    build DormandPrince5 zb = Ok s0 /\ reached DormandPrince5 None 5 4 s0 s /\ length (ts (i_sol s)) = 5%nat /\
    Forall (fun g => g <= 35/10000000) (gaps (Rvec (ts (i_sol s)))) /\
    forall K, 0 <= K <= 250000 -> K * (35/10000000 + 0 + INR (length (ts (i_sol s))) * u64) <= 1.
Proof.
  pose proof zb_tf as Htf. apply Rabs_le_inv in Htf. pose proof u64_pos. pose proof u64_small.
  destruct z_five as (Hf & s0 & s & H1 & H2 & H3).
  split; [apply osc_smooth|]. split; [apply osc_time|]. split; [reflexivity|]. split; [exact zb_t|]. split; [lra|].
  split; [exact Hf|]. split; [intros r; apply z_eval|]. split; [reflexivity|]. split; [exact zb_finite|]. split.
  { rewrite zb_start. unfold osc_sol. rewrite cos_0, sin_0. intros [|[|i]] Hi; [| |lia]; unfold comp; cbn [nth];
    apply Rabs_le; lra. }
  exists s0, s. split; [exact H1|]. split; [exact H2|]. split; [exact H3|]. split.
  { apply gaps_bound. intros a c Ha Hc. unfold Rvec in *. apply in_map_iff in Ha as (fa & <- & Ha). apply in_map_iff in Hc as (fc & <- & Hc).
    apply (z_gap s0 s); assumption. }
  intros K HK. rewrite H3. cbn [INR]. nra.
Qed.
Lemma z_step_ex : let Tm := Rabs 0 + Rabs 1 in let W := 2 + 2 + 0 + 1 in
  tame 2 oscZ tt osc 0 1 2 2 1 0 0 /\ W <= bpow radix2 1000 /\ Tm <= bpow radix2 1000 /\
  1 * (1/100) <= 1 / 50 /\ 11/10 + 25 * (1/100) * (2 + 0) + 600 * u64 * W <= 2 /\
  b_dudt zb = oscZ /\ length (b_u zb) = 2%nat /\ B2R (b_t zb : f64) = 0 /\
  B2R (b_tfinal zb : f64) + 24 * u64 * (1 + Tm) <= 1 /\ f64_forward zb /\
  exists (s0 s : integ XZ unit (dp5_cache XZ)) t' u' l,
    build DormandPrince5 zb = Ok s0 /\ reached DormandPrince5 None 5 4 s0 s /\
    points s = (b_t zb, b_u zb) :: (t', u') :: l /\ finite_vec (b_u zb) /\ box 2 (11/10) (Rvec (b_u zb)) /\
    B2R (t' : f64) - B2R (b_t zb : f64) + 2 * u64 * (1 + Tm) <= 1/100.
Proof.
  pose proof zb_tf as Htf. apply Rabs_le_inv in Htf. pose proof u64_pos. pose proof u64_small.
  destruct z_five as (Hf & s0 & s & H1 & H2 & H3). cbv zeta. rewrite Rabs_R0, Rabs_R1.
  assert (bpow radix2 3 <= bpow radix2 1000) as Hb by (apply bpow_le; lia). change (bpow radix2 3) with 8 in Hb.
  split; [apply z_tame|]. split; [lra|]. split; [lra|]. split; [lra|]. split; [lra|]. split; [reflexivity|].
  split; [reflexivity|]. split; [exact zb_t|]. split; [lra|]. split; [exact Hf|].
  pose proof (finv_reached zpow (fun _ _ => f_lit 1 1) zb 5 4 s0 s Hf H1 H2) as [_ _ _ _ _ Il _ (l0 & Ifst) _].
  destruct l0 as [|(t' & u') l].
  { exfalso. apply (f_equal (@length _)) in Ifst. unfold points in Ifst. rewrite combine_length, <- Il, Nat.min_id in Ifst.
    assert (length (ts (i_sol s)) = 1%nat) as Z by exact Ifst. rewrite H3 in Z. discriminate. }
  assert (points s = (b_t zb, b_u zb) :: (t', u') :: l) as Ifst2 by exact Ifst.
  exists s0, s, t', u', l. split; [exact H1|]. split; [exact H2|]. split; [exact Ifst|]. split; [exact zb_finite|].
  split.
  { rewrite zb_start. split; [reflexivity|]. intros [|[|i]] Hi; [| |lia]; unfold comp; cbn [nth]; apply Rabs_le; lra. }
  assert (In (b_t zb, b_u zb) (points s) /\ In (t', u') (points s)) as (I1 & I2) by (rewrite Ifst2; split; [left|right; left]; reflexivity).
  unfold points in I1, I2. apply in_combine_l in I1, I2.
  pose proof (z_gap s0 s H1 H2 _ _ I1 I2). lra.
Qed.
