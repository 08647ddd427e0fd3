(** DormandPrince5 in binary64 on a derivative with a NaN component (or on a
    problem of dimension zero): the retry loop never ends. *)
From Coq Require Import ZArith List Bool Lia.
From RecordUpdate Require Import RecordSet.
From Flocq Require Import BinarySingleNaN.
From Verif Require Import Arith Vec Core Driver VecFacts Spec DP5 DP5Facts DP5Inv ArithF.
Import ListNotations RecordSetNotations.

(** ** The cached first slope, in every arithmetic *)
Section Slope.
Context {A : arith} {P : Type}.
Notation state := (integ A P (dp5_cache A)).

Lemma call_rhs_buffer (f : rhs A P) d d' u t p :
  overwrites f -> length d = length d' -> call_rhs f d u t p = call_rhs f d' u t p.
Proof.
  intros Ho Hl. unfold call_rhs. rewrite <- Hl. apply tab_ext. intros i Hi. now apply Ho.
Qed.

Definition slope_cached (s : state) : Prop :=
  dp5_shapes s = true /\
  forall d, length d = length (i_u s) ->
  du (i_cache s) = call_rhs (i_dudt s) d (i_u s) (i_t s) (i_params s).

Lemma slope_build (b : builder A P) (s : state) :
  overwrites (b_dudt b) -> build (@DormandPrince5 A P) b = Ok s -> slope_cached s.
Proof.
  intros Ho H.
  apply dp5_build_inv in H as (E1&_&_&E2&E3&E4&_&_&_&_&_&_&_&_&_&_&_&_&_&E5&_&Sh).
  split; [assumption|]. intros d Hd. rewrite E5, E1, E2, E3, E4. apply call_rhs_buffer; [assumption|].
  rewrite zeros_length, Hd. now rewrite E3.
Qed.

Lemma slope_step fuel (s s' : state) r :
  overwrites (i_dudt s) -> slope_cached s -> step (@DormandPrince5 A P) None fuel s = Ok (s', r) ->
  slope_cached s'.
Proof.
  intros Ho [Sh0 H0] H. unfold step in H. apply bind_ok in H as (s1 & H & E). cbn in E.
  injection E as <- _. cbn [alg_step DormandPrince5] in H.
  apply dp5_step_inv in H as (k & sk & sa & _ & Hr & Ha & ->).
  destruct (dp5_clip_frame s) as ((C1&_&_&C2&_) & (C3&C4&C5&_) & _ & _ & _ & _ & bl & Cc).
  apply rejections_many in Hr. destruct (rm_problem _ _ _ Hr) as (R1&_&_&R2&_).
  destruct (rm_point _ _ _ Hr) as (R3&R4&_).
  apply dp5_attempt_inv in Ha as (s1 & Hs & [(_ & _ & Acc)|(D & _)]); [|discriminate].
  pose proof (compute_stages_inv _ _ Hs) as (Shk & (S1&_&_&S2&_) & (S3&S4&_) & S5 & _).
  pose proof (accepted_shapes _ _ _ (compute_stages_shapes _ _ Hs) Acc) as Sha.
  destruct (acc_problem _ _ _ Acc) as (A1&_&_&A2&_).
  destruct (dp5_finish_frame sa) as ((F1&_&_&F2&_)&F3&F4&_&Fup&_&_&Fc&_).
  assert (dp5_shapes (dp5_finish sa) = true) as Shf.
  { rewrite (same_shapes_point sa); [assumption|assumption|assumption|]. exists (last (i_cache sa)).
    rewrite Fc. destruct (i_cache sa); reflexivity. }
  split; [exact Shf|]. intros d Hd.
  assert (length (dunew (i_cache sk)) = length d) as Hl.
  { rewrite Hd, F3, (acc_u _ _ _ Acc).
    pose proof (compute_stages_shapes _ _ Hs) as Sh1. apply dp5_shapes_spec in Sh1, Shk.
    rewrite Forall_forall in Sh1, Shk.
    rewrite (Shk (dunew (i_cache sk))), (Sh1 (unew (i_cache s1))), S3 by (cbn; tauto). reflexivity. }
  rewrite Fc, F1, F2, F3, F4, A1, A2, (acc_du _ _ _ Acc), (acc_u _ _ _ Acc), (acc_t _ _ _ Acc).
  rewrite compute_stages_eq, Shk in Hs. injection Hs as <-. cbn.
  apply call_rhs_buffer; [rewrite R1, C1; assumption|assumption].
Qed.

Lemma slope_steps fuel k : forall (s s' : state),
  overwrites (i_dudt s) -> slope_cached s -> steps_n (@DormandPrince5 A P) None fuel k s = Ok s' ->
  slope_cached s'.
Proof.
  induction k as [|k IH]; intros s s' Ho Hc H; cbn [steps_n] in H.
  - now injection H as <-.
  - apply bind_ok in H as ([s1 r] & H1 & H). eapply (IH s1); [|eapply slope_step; eassumption|exact H].
    apply step_dp5_inv in H1 as (s2 & E & ->). destruct (se_problem _ _ E) as (E1&_). cbn [run_callback].
    now rewrite E1.
Qed.

(** The error estimate as a combination of the slopes (stages.rs:95-103). *)
Lemma uerr_form (s : state) : dp5_shapes s = true ->
  exists v3 v4 v5 v6 v7 : vec A,
  length v3 = length (i_u s) /\ length v4 = length (i_u s) /\ length v5 = length (i_u s) /\
  length v6 = length (i_u s) /\ length v7 = length (i_u s) /\ length (du (i_cache s)) = length (i_u s) /\
  uerr (i_cache (with_stages (stage_vecs_of s) s)) =
  vscale (i_dt s) (vadd (vadd (vadd (vadd (vadd (vscale E1 (du (i_cache s))) (vscale E3 v3))
                                                 (vscale E4 v4)) (vscale E5 v5))
                                     (vscale E6 v6)) (vscale E7 v7)).
Proof.
  intros Sh. apply dp5_shapes_spec in Sh. rewrite Forall_forall in Sh.
  eexists _, _, _, _, _. split; [|split; [|split; [|split; [|split; [|split; [|reflexivity]]]]]].
  all: rewrite ?call_rhs_length; apply Sh; cbn; tauto.
Qed.
End Slope.

(** ** NaN in, NaN out *)
Section Nan.
Context (fpowf : f64 -> f64 -> f64) (fpowi : f64 -> Z -> f64).
Notation A := (F64 fpowf fpowi).
Context {P : Type}.
Notation state := (integ A P (dp5_cache A)).

Lemma fadd_nan_l (y : f64) : fadd fnan y = fnan. Proof. now destruct y. Qed.
Lemma fadd_nan_r (y : f64) : fadd y fnan = fnan. Proof. now destruct y. Qed.
Lemma fmul_nan_r (y : f64) : fmul y fnan = fnan. Proof. now destruct y. Qed.
Lemma fdiv_nan_l (y : f64) : fdiv fnan y = fnan. Proof. now destruct y. Qed.

Lemma sum_loop_nan (g : nat -> num A) i acc : forall n, i < n -> g i = fnan -> sum_loop n g acc = fnan.
Proof.
  induction n as [|n IH]; intros Hi Hg; [lia|]. rewrite sum_loop_S.
  destruct (Nat.eq_dec i n) as [->|Hn].
  - etransitivity; [|apply fadd_nan_r]. change (add A) with fadd. f_equal. exact Hg.
  - etransitivity; [|apply fadd_nan_l]. change (add A) with fadd. f_equal. apply IH; [lia|assumption].
Qed.

Definition bad_slope (s : state) : Prop :=
  i_u s = [] \/ exists i, i < length (i_u s) /\ at_ (du (i_cache s)) i = fnan.

Lemma bad_error (s s1 : state) : bad_slope s -> compute_stages s = Ok s1 -> dp5_error s1 = fnan.
Proof.
  intros Hb Hs. pose proof (compute_stages_inv _ _ Hs) as (Sh & _ & (S3&_) & _).
  rewrite compute_stages_eq, Sh in Hs. injection Hs as <-.
  unfold dp5_error. rewrite S3. destruct Hb as [E|(i & Hi & Hn)].
  - rewrite E. cbn [length]. apply B2SF_inj. vm_compute. reflexivity.
  - assert (at_ (uerr (i_cache (with_stages (stage_vecs_of s) s))) i = fnan) as Hu.
    { destruct (uerr_form s Sh) as (v3&v4&v5&v6&v7&L3&L4&L5&L6&L7&Ld&->).
      rewrite vscale_at by (repeat (rewrite ?vadd_length, ?vscale_length); lia).
      rewrite !vadd_at by (repeat (rewrite ?vadd_length, ?vscale_length); lia).
      rewrite vscale_at by lia. change (add A) with fadd. change (mul A) with fmul.
      rewrite Hn. etransitivity; [|apply (fmul_nan_r (i_dt s))]. f_equal. }
    match goal with |- context [sum_loop ?n ?g ?a] =>
      replace (sum_loop n g a) with (fnan : num A)
        by (symmetry; apply sum_loop_nan with (i := i); [assumption|]; cbv beta zeta; rewrite Hu;
            change (div A) with fdiv; rewrite fdiv_nan_l; reflexivity) end.
    change (div A) with fdiv. rewrite fdiv_nan_l. reflexivity.
Qed.

Lemma bad_never_accepted : forall fuel (s : state), bad_slope s -> dp5_shapes s = true ->
  dp5_loop fuel s = OutOfFuel.
Proof.
  induction fuel as [|fuel IH]; intros s Hb Hs; [reflexivity|]. cbn [dp5_loop].
  assert (exists s', dp5_attempt s = Ok (s', false)) as (s' & Ha).
  { destruct (compute_stages_ok s Hs) as (s1 & E). pose proof (bad_error _ _ Hb E) as En.
    unfold dp5_attempt. rewrite E. cbn [bind]. rewrite En. unfold prepare_next_step.
    assert (leb A (fnan : num A) n1 = false) as -> by reflexivity. cbn [bind].
    assert (reject (i_cache (fst (dp5_reject (fnan : num A) s1))) = true) as Hr.
    { unfold dp5_reject. cbn. now destruct (accepts _). }
    destruct (dp5_reject _ s1) as [s2 d]. cbn [bind fst i_cache] in *. cbn. rewrite Hr. cbn [negb].
    destruct (fleb _ _); eauto. }
  rewrite Ha. cbn [bind]. apply dp5_attempt_rejected in Ha.
  destruct (atr_point _ _ Ha) as (Eu & _). apply IH; [|apply (atr_shapes _ _ Ha)].
  unfold bad_slope. now rewrite Eu, (atr_du _ _ Ha).
Qed.

Lemma bad_step (s : state) : bad_slope s -> dp5_shapes s = true ->
  forall cb fuel, step DormandPrince5 cb fuel s = OutOfFuel.
Proof.
  intros Hs Sh cb fuel. unfold step. cbn [alg_step DormandPrince5]. unfold dp5_step.
  destruct (dp5_clip_frame s) as (_ & (C3&_&C5&_) & _ & _ & _ & _ & bl & Cc).
  rewrite bad_never_accepted; [reflexivity| |].
  - unfold bad_slope. rewrite C3, Cc. exact Hs.
  - rewrite (same_shapes_point s); [assumption..|]. now exists bl.
Qed.

(** C09. *)
Lemma dp5_nan_never_returns (b : builder A P) fuel k (s0 s : state) i :
  overwrites (b_dudt b) -> build DormandPrince5 b = Ok s0 -> steps_n DormandPrince5 None fuel k s0 = Ok s ->
  i < length (i_u s) -> is_nan (b_dudt b (i_u s) (i_u s) (i_t s) (b_params b) i) = true ->
  forall cb fuel', step DormandPrince5 cb fuel' s = OutOfFuel.
Proof.
  intros Ho Hb Hk Hi Hn.
  assert (slope_cached s) as [Sh Hc].
  { eapply slope_steps; [|eapply slope_build; eassumption|eassumption].
    apply dp5_build_inv in Hb as (E1&_). now rewrite E1. }
  pose proof (dp5_frame _ _ _ _ Hk) as (F1&_&_&F2&_).
  apply dp5_build_inv in Hb as (E1&_&_&E2&E3&_).
  apply bad_step; [|assumption]. right. exists i. split; [assumption|].
  rewrite (Hc (i_u s) eq_refl), call_rhs_at by assumption.
  rewrite F1, F2, E1, E2. destruct (b_dudt b (i_u s) (i_u s) (i_t s) (b_params b) i); try discriminate.
  reflexivity.
Qed.

Lemma dp5_empty_never_returns (b : builder A P) (s0 : state) :
  b_u b = [] -> build DormandPrince5 b = Ok s0 -> forall cb fuel, step DormandPrince5 cb fuel s0 = OutOfFuel.
Proof.
  intros Eu Hb. apply dp5_build_inv in Hb as (_&_&_&_&E3&_&_&_&_&_&_&_&_&_&_&_&_&_&_&_&_&Sh).
  apply bad_step; [|assumption]. left. now rewrite E3.
Qed.
End Nan.

(** Concrete instance: u' = sqrt(u) on u0 = -1. *)
From Verif Require Import Examples.
Definition root_rhs : rhs XF unit := fun _ u _ _ i => nsqrt XF (at_ u i).
Definition x_root : builder XF unit :=
  builder_default (@DormandPrince5 XF unit) root_rhs [x (-1) 1] (x 0 1, x 1 1) tt.
Lemma nan_ex : overwrites (b_dudt x_root) /\ exists s0 : integ XF unit (dp5_cache XF),
  build (@DormandPrince5 XF unit) x_root = Ok s0 /\
  steps_n (@DormandPrince5 XF unit) None 1 0 s0 = Ok s0 /\ 0 < length (i_u s0) /\
  is_nan (b_dudt x_root (i_u s0) (i_u s0) (i_t s0) (b_params x_root) 0) = true.
Proof.
  split; [intros d d' u t p i _ _; reflexivity|].
  destruct (dp5_build_ok x_root) as (s0 & Hb). exists s0. split; [assumption|]. split; [reflexivity|].
  apply dp5_build_inv in Hb as (_&_&_&_&Eu&_). rewrite Eu. split; [cbn; lia|vm_compute; reflexivity].
Qed.
