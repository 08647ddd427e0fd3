(** Forward DormandPrince5 runs in binary64: where the right-hand side is
    evaluated. *)
From Coq Require Import ZArith List Bool Lia Reals Lra Sorted.
From RecordUpdate Require Import RecordSet.
From Flocq Require Import Core BinarySingleNaN.
From Verif Require Import Arith Vec Core Driver VecFacts DP5 DP5Facts Spec DP5Inv ArithF FFacts FMono FOrder SpecF64 DP5Mono SpecEval.
Import ListNotations RecordSetNotations.
Local Open Scope R_scope.
Local Existing Instance prec_gt_0_53.
Local Existing Instance prec_lt_emax_53.

(** A fraction of a step, rounded, is not longer than the step. *)
Lemma fmul_frac (c d : f64) : is_finite c = true -> 0 <= B2R c <= 1 -> is_finite d = true -> 0 <= B2R d ->
  is_finite (fmul c d) = true /\ 0 <= B2R (fmul c d) <= B2R d.
Proof.
  intros Fc Pc Fd Pd. pose proof (Bmult_correct 53 1024 _ _ mode_NE c d) as M.
  change (round_mode mode_NE) with (Znearest (fun x => negb (Z.even x))) in M. fold (fmul c d) in M.
  assert (0 <= rnd64 (B2R c * B2R d)) as P1 by (apply rnd_ge_0; apply Rmult_le_pos; lra).
  assert (rnd64 (B2R c * B2R d) <= B2R d) as P2 by (apply rnd_le_f; nra).
  rewrite Rlt_bool_true in M.
  - destruct M as (M1 & M2 & _). rewrite M1, M2, Fc, Fd. auto.
  - rewrite Rabs_pos_eq by assumption. pose proof (f_lt_emax d). lra.
Qed.

(** Between [t0] and the real [U], if finite. *)
Definition inside (t0 : f64) (U : R) (x : f64) : Prop :=
  fle t0 x /\ (is_finite x = true -> B2R x <= U).

Lemma inside_add (t0 t d y : f64) U : is_finite t0 = true -> is_finite t = true -> B2R t0 <= B2R t ->
  is_finite d = true -> is_finite y = true -> 0 <= B2R y <= B2R d -> rnd64 (B2R t + B2R d) <= U ->
  inside t0 U (fadd t y).
Proof.
  intros F0 Ft H0 Fd Fy Hy HU. split.
  - apply (fle_trans t0 t); try assumption; [now apply fleb_R|].
    apply fadd_le; [assumption|]. apply fge_0. right. split; [assumption|]. apply Hy.
  - intros F. rewrite fadd_R by assumption. apply Rle_trans with (2 := HU). apply rnd_le. lra.
Qed.

Lemma inside_stage (t0 t d c : f64) U : is_finite t0 = true -> is_finite t = true -> B2R t0 <= B2R t ->
  is_finite d = true -> 0 <= B2R d -> rnd64 (B2R t + B2R d) <= U ->
  is_finite c = true -> 0 <= B2R c <= 1 -> inside t0 U (fadd t (fmul c d)).
Proof.
  intros F0 Ft H0 Fd Pd HU Fc Pc. destruct (fmul_frac c d Fc Pc Fd Pd) as (Q1 & Q2).
  now apply (inside_add t0 t d).
Qed.

Lemma c2_R : is_finite (f_lit 2 10) = true /\ 0 <= B2R (f_lit 2 10) <= 1.
Proof. edestruct (lit_R 2 10) as (H1 & H2); [vm_compute; reflexivity|]. split; [exact H1|]. rewrite H2. unfold F2R. cbn. lra. Qed.
Lemma c3_R : is_finite (f_lit 3 10) = true /\ 0 <= B2R (f_lit 3 10) <= 1.
Proof. edestruct (lit_R 3 10) as (H1 & H2); [vm_compute; reflexivity|]. split; [exact H1|]. rewrite H2. unfold F2R. cbn. lra. Qed.
Lemma c4_R : is_finite (f_lit 8 10) = true /\ 0 <= B2R (f_lit 8 10) <= 1.
Proof. edestruct (lit_R 8 10) as (H1 & H2); [vm_compute; reflexivity|]. split; [exact H1|]. rewrite H2. unfold F2R. cbn. lra. Qed.
Lemma c5_R : is_finite (f_lit 8 9) = true /\ 0 <= B2R (f_lit 8 9) <= 1.
Proof. edestruct (lit_R 8 9) as (H1 & H2); [vm_compute; reflexivity|]. split; [exact H1|]. rewrite H2. unfold F2R. cbn. lra. Qed.

(** [t + (tf - t)], rounded in a format without overflow, against [tf]. *)
Lemma end_near (t tf : f64) : is_finite t = true -> is_finite tf = true -> B2R t <= B2R tf ->
  is_finite (fsub tf t) = true ->
  rnd64 (B2R t + B2R (fsub tf t)) <= B2R tf + bpow radix2 (-52) * (B2R tf - B2R t).
Proof.
  intros Ft Ff Hle FD.
  pose proof (fsub_R tf t Ff Ft FD) as ED. set (D := fsub tf t) in *. clearbody D.
  destruct (diff_rounded t tf Ft Ff Hle) as (H1 & _). rewrite <- ED in H1.
  set (y := B2R t + B2R D).
  assert (Rabs (rnd64 y - y) <= Rabs (B2R tf - y)) as HN.
  { destruct (round_N_pt radix2 fexp64 (fun x => negb (Z.even x)) y) as (_ & HN). apply HN. apply f_format. }
  replace (bpow radix2 (-52)) with (2 * bpow radix2 (-53)) by (cbn; lra).
  set (b2 := bpow radix2 (-53)) in *. clearbody b2.
  replace (B2R D - (B2R tf - B2R t)) with (- (B2R tf - y)) in H1 by (unfold y; ring). rewrite Rabs_Ropp in H1.
  apply Rabs_le_inv in H1 as (H1 & H1').
  assert (Rabs (B2R tf - y) <= b2 * (B2R tf - B2R t)) as H2 by (apply Rabs_le; lra).
  assert (Rabs (rnd64 y - y) <= b2 * (B2R tf - B2R t)) as H3 by lra.
  apply Rabs_le_inv in H3. lra.
Qed.

Section TimeF.
Context (fpowf : f64 -> f64 -> f64) (fpowi : f64 -> Z -> f64) {P : Type}.
Notation A := (F64 fpowf fpowi).
Notation state := (integ A P (dp5_cache A)).
Notation alg := (@DormandPrince5 A P).
Notation all_inside t0 U s := (Forall (fun e : event A => inside t0 U (call_time e)) (i_trace s)).

Lemma stage_inside (s s1 : state) (t0 : f64) U :
  compute_stages s = Ok s1 -> is_finite t0 = true -> is_finite (i_t s : f64) = true ->
  B2R t0 <= B2R (i_t s : f64) -> is_finite (i_dt s : f64) = true -> 0 <= B2R (i_dt s : f64) ->
  rnd64 (B2R (i_t s : f64) + B2R (i_dt s : f64)) <= U ->
  all_inside t0 U s -> all_inside t0 U s1.
Proof.
  intros H F0 Ft H0 Fd Pd HU Hf. rewrite compute_stages_eq in H. destruct (dp5_shapes s); [|discriminate].
  injection H as H. subst s1. unfold with_stages, stage_vecs_of, stage_vecs.
  cbn [i_trace set sd_trace app].
  destruct c2_R as (? & ?), c3_R as (? & ?), c4_R as (? & ?), c5_R as (? & ?).
  apply Forall_cons; [|apply Forall_cons; [|apply Forall_cons; [|apply Forall_cons; [|apply Forall_cons; [|apply Forall_cons; [|assumption]]]]]];
    cbn [call_time].
  - apply (inside_add t0 (i_t s) (i_dt s)); auto. lra.
  - apply (inside_add t0 (i_t s) (i_dt s)); auto. lra.
  - apply (inside_stage t0 (i_t s) (i_dt s) (f_lit 8 9)); auto.
  - apply (inside_stage t0 (i_t s) (i_dt s) (f_lit 8 10)); auto.
  - apply (inside_stage t0 (i_t s) (i_dt s) (f_lit 3 10)); auto.
  - apply (inside_stage t0 (i_t s) (i_dt s) (f_lit 2 10)); auto.
Qed.

Lemma rejections_inside k (s s' : state) (t0 : f64) U :
  f64_sane (i_opts s) -> rejections k s s' -> is_finite t0 = true -> is_finite (i_t s : f64) = true ->
  B2R t0 <= B2R (i_t s : f64) -> is_finite (i_dt s : f64) = true -> 0 <= B2R (i_dt s : f64) ->
  rnd64 (B2R (i_t s : f64) + B2R (i_dt s : f64)) <= U ->
  all_inside t0 U s ->
  all_inside t0 U s' /\ i_t s' = i_t s /\ is_finite (i_dt s' : f64) = true /\ 0 <= B2R (i_dt s' : f64) /\
  rnd64 (B2R (i_t s : f64) + B2R (i_dt s' : f64)) <= U.
Proof.
  intros So H. revert So. induction H as [s|k s s1 s2 Ha Hr IH]; intros So F0 Ft H0 Fd Pd HU Hf; [repeat split; assumption|].
  destruct (attempt_dt _ _ _ _ So Ha) as (x & Hx & Ed).
  pose proof (dp5_attempt_rejected _ _ Ha) as At.
  destruct (atr_problem _ _ At) as (_&_&_&_&_&_&Eo). destruct (atr_point _ _ At) as (_&Et&_). clear At.
  destruct (fdiv_ge (i_dt s) x (1004/1000) Fd Pd ltac:(lra) Hx) as (Q1 & (Q2 & Q3) & Q4).
  destruct IH as (I1 & I2 & I3 & I4 & I5).
  - now rewrite Eo.
  - assumption.
  - now rewrite Et.
  - now rewrite Et.
  - rewrite Ed. exact Q1.
  - rewrite Ed. exact Q2.
  - rewrite Et, Ed. apply Rle_trans with (2 := HU). apply rnd_le.
    assert (B2R (fdiv (i_dt s) x) <= B2R (i_dt s : f64)) by lra. apply Rplus_le_compat_l. assumption.
  - apply dp5_attempt_inv in Ha as (s0 & Hs & [(D & _)|(_ & _ & Hrej)]); [discriminate|].
    rewrite (rej_trace _ _ _ Hrej). eapply stage_inside; eassumption.
  - rewrite Et in I2, I5. repeat split; assumption.
Qed.

Lemma step_inside fuel (s s' : state) (t0 : f64) :
  ready _ _ s -> dp5_step fuel s = Ok s' -> is_finite t0 = true -> B2R t0 <= B2R (i_t s : f64) ->
  let U := B2R (i_tfinal s : f64) + bpow radix2 (-52) * (B2R (i_tfinal s : f64) - B2R t0) in
  all_inside t0 U s -> all_inside t0 U s'.
Proof.
  intros [So Hd Ft Ff Hle Fs Hdt] H F0 H0 U Hf.
  apply dp5_step_inv in H as (k & sk & sa & _ & Hr & Ha & ->).
  destruct (dp5_clip_frame s) as ((_&_&_&_&C1&C2&C3) & (_&C4&_) & _ & _ & Ctr & _).
  assert (is_finite (i_dt (dp5_clip s) : f64) = true /\ 0 <= B2R (i_dt (dp5_clip s) : f64) /\
          rnd64 (B2R (i_t s : f64) + B2R (i_dt (dp5_clip s) : f64)) <= U) as (D1 & D2 & D3).
  { pose proof (bpow_gt_0 radix2 (-52)) as Pu.
    destruct (dp5_clip_cases s) as [(Hc & Ec)|(Hc & Ec)].
    - assert (i_dt (dp5_clip s) = fsub (i_tfinal s) (i_t s)) as Ed by (rewrite Ec; reflexivity).
      rewrite Ed. split; [exact Fs|]. split.
      + rewrite fsub_R by assumption. apply rnd_ge_0. lra.
      + apply Rle_trans with (1 := end_near _ _ Ft Ff Hle Fs). unfold U.
        apply Rplus_le_compat_l. apply Rmult_le_compat_l; lra.
    - rewrite Hd in Hc. destruct (uncut_step _ _ _ Ft Ff Hdt Hc) as (Q1 & Q2 & Q3).
      rewrite Ec. split; [exact Q1|]. split; [exact Q2|]. unfold U.
      assert (0 <= bpow radix2 (-52) * (B2R (i_tfinal s : f64) - B2R t0)) by (apply Rmult_le_pos; lra).
      lra. }
  destruct (rejections_inside k (dp5_clip s) sk t0 U) as (I1 & I2 & I3 & I4 & I5); rewrite ?C3, ?C4, ?Ctr; try assumption.
  rewrite C4 in I2, I5.
  apply dp5_attempt_inv in Ha as (s1 & Hs & [(_ & _ & Hacc)|(D & _)]); [|discriminate].
  pose proof (dp5_finish_frame sa) as (_&_&_&_&_&_&_&_&Ftr&_).
  rewrite Ftr, (acc_trace _ _ _ Hacc).
  eapply stage_inside; try eassumption; rewrite ?I2; assumption.
Qed.

Lemma run_inside (b : builder A P) fuel (s s' : state) r :
  let U := B2R (b_tfinal b : f64) + bpow radix2 (-52) * (B2R (b_tfinal b : f64) - B2R (b_t b : f64)) in
  f64_forward b -> f_run _ _ b s -> all_inside (b_t b : f64) U s -> rc (i_sol s) = RContinue ->
  step alg None fuel s = Ok (s', r) -> all_inside (b_t b : f64) U s'.
Proof.
  intros U (So & F0 & Ff & Hlt & Fs & _) [Io If Id Idt _ _ Ila _] R2 Hc Hs.
  unfold step in Hs. apply bind_ok in Hs as (s3 & Hs & E). cbn [run_callback] in E.
  injection E as E _. subst s3. cbn [alg_step DormandPrince5 Cache] in Hs.
  destruct Ila as (Hl & Ft & Ht); [congruence|].
  assert (ready _ _ s) as Rd.
  { constructor; rewrite ?Io, ?If; try assumption; [apply Ht|]. now apply (span_finite (b_t b)). }
  assert (U = B2R (i_tfinal s : f64) + bpow radix2 (-52) * (B2R (i_tfinal s : f64) - B2R (b_t b : f64))) as EU
    by (rewrite If; reflexivity).
  rewrite EU in R2 |- *. eapply step_inside; try eassumption. apply Ht.
Qed.

Lemma build_inside (b : builder A P) (s : state) :
  f64_forward b -> build alg b = Ok s ->
  all_inside (b_t b : f64) (B2R (b_tfinal b : f64) + bpow radix2 (-52) * (B2R (b_tfinal b : f64) - B2R (b_t b : f64))) s.
Proof.
  intros (_ & F0 & Ff & Hlt & _) H. apply dp5_build_inv in H as (_&_&_&_&_&_&_&_&_&_&_&_&_&_&_&Etr&_).
  rewrite Etr. constructor; [|constructor]. cbn [call_time].
  apply fltb_R in Hlt; [|assumption..]. split.
  - apply fleb_R; try assumption. lra.
  - intros _. pose proof (bpow_gt_0 radix2 (-52)).
    assert (0 <= bpow radix2 (-52) * (B2R (b_tfinal b : f64) - B2R (b_t b : f64))) by (apply Rmult_le_pos; lra). lra.
Qed.

(** C20 in binary64. *)
Lemma dp5_f64_evals (b : builder A P) fuel k (s0 s : state) :
  f64_forward b -> build alg b = Ok s0 -> reached alg None fuel k s0 s ->
  Forall (fun e : event A => fle (b_t b) (call_time e) /\
    (is_finite (call_time e : f64) = true ->
     B2R (call_time e : f64) <= B2R (b_tfinal b : f64) +
       bpow radix2 (-52) * (B2R (b_tfinal b : f64) - B2R (b_t b : f64)))) (i_trace s).
Proof.
  intros Hb H Hr. destruct (f_run_build _ _ b s0 Hb H) as [Hi Hrc].
  set (U := B2R (b_tfinal b : f64) + bpow radix2 (-52) * (B2R (b_tfinal b : f64) - B2R (b_t b : f64))).
  assert (f_run _ _ b s /\ all_inside (b_t b : f64) U s) as [_ Q]; [|exact Q].
  refine (reached_invariant alg None fuel (fun s => f_run _ _ b s /\ all_inside (b_t b : f64) U s) _ k s0 s Hr Hrc _).
  - intros s1 s2 r (R1 & R2) Hc Hs. split; [eapply f_run_step; eassumption|eapply run_inside; eassumption].
  - split; [exact Hi|]. now apply build_inside.
Qed.
End TimeF.
