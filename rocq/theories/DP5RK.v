(** DormandPrince5 in exact arithmetic takes Dormand-Prince 5(4) steps. *)
From Coq Require Import ZArith List Bool Lia Reals Lra.
From RecordUpdate Require Import RecordSet.
From Verif Require Import Arith Vec Core Driver VecFacts DP5 DP5Facts Spec SpecRK SpecODE RKFacts DP5Inv ArithR DP5R.
Import ListNotations RecordSetNotations.
Local Open Scope R_scope.

(** The user's right-hand side as a function of time and state (called with a
    zeroed buffer). *)
Lemma linked_snoc {X} (Q : X -> X -> Prop) l x y :
  linked Q (l ++ [x]) -> Q x y -> linked Q ((l ++ [x]) ++ [y]).
Proof.
  intros H Hxy l1 a c l2 E.
  destruct (rev l2) as [|z r] eqn:Er.
  - assert (l2 = []) as -> by (now rewrite <- (rev_involutive l2), Er).
    change (a :: c :: []) with ([a] ++ [c]) in E. rewrite app_assoc in E.
    apply app_inj_tail in E as [E Ec]. apply app_inj_tail in E as [_ Ea]. now subst.
  - assert (l2 = rev r ++ [z]) as -> by (rewrite <- (rev_involutive l2), Er; reflexivity).
    rewrite !app_comm_cons, app_assoc in E. apply app_inj_tail in E as [E _].
    eapply H. exact E.
Qed.
Lemma linked_one {X} (Q : X -> X -> Prop) x : linked Q [x].
Proof. intros l1 a c l2 E. destruct l1 as [|? [|? ?]]; discriminate. Qed.

Lemma combine_snoc {X Y} (a : list X) (b : list Y) x y :
  length a = length b -> combine (a ++ [x]) (b ++ [y]) = combine a b ++ [(x, y)].
Proof.
  revert b. induction a as [|z a IH]; intros [|w b] H; try discriminate; [reflexivity|].
  cbn. f_equal. apply IH. now injection H.
Qed.

Section DP5RK.
Context {P : Type} (inf : R).
Notation RI := (RA inf).
Notation state := (integ RI P (dp5_cache RI)).
Notation alg := (@DormandPrince5 RI P).

Lemma comp_at (u : vec RI) i : (i < length u)%nat -> comp u i = at_ u i.
Proof. intros H. unfold comp, at_. apply nth_indep. exact H. Qed.

Lemma call_ode (f : rhs RI P) p (b u : vec RI) t :
  overwrites f -> length b = length u -> call_rhs f b u t p = ode f p t u.
Proof.
  intros Ho Hl. unfold ode, call_rhs. rewrite zeros_length, Hl. apply tab_ext.
  intros i Hi. apply Ho; [rewrite zeros_length; exact Hl|rewrite Hl; exact Hi].
Qed.

Lemma ode_length (f : rhs RI P) p t u : length (ode f p t u) = length u.
Proof. unfold ode. now rewrite call_rhs_length, zeros_length. Qed.

Lemma vdiff_length a b : length (vdiff a b) = length a.
Proof. unfold vdiff. now rewrite map_length, seq_length. Qed.
Lemma vdiff_comp a b i : (i < length a)%nat -> comp (vdiff a b) i = comp a i - comp b i.
Proof. intros Hi. exact (tab_nth _ (fun i => comp a i - comp b i) i 0 Hi). Qed.

(** The stages of one attempt are those of the tableau, whatever vector is
    used as the first slope. *)
Lemma stages_from (f : rhs RI P) p (u : list R) (t h : R) (k1 b2 b3 b4 b5 b6 b7 : list R) :
  overwrites f -> length k1 = length u ->
  length b2 = length u -> length b3 = length u -> length b4 = length u ->
  length b5 = length u -> length b6 = length u -> length b7 = length u ->
  let F := ode f p in
  let v := stage_vecs f p u t h k1 b2 b3 b4 b5 b6 b7 in
  let ks := slopes F t u h (tl dopri_rows) [k1] in
  sd_unew v = combine_stages u h dopri_b ks /\
  sd_dunew v = F (t + h) (sd_unew v) /\
  sd_uerr v = vdiff (combine_stages u h dopri_b ks) (combine_stages u h dopri_bhat ks) /\
  ks = [k1; sd_k2 v; sd_k3 v; sd_k4 v; sd_k5 v; sd_k6 v; sd_dunew v].
Proof.
  intros Ho LF L2 L3 L4 L5 L6 L7 F v ks.
  destruct (ex_intro (fun n => @length R u = n) _ eq_refl) as [n Lu].
  rewrite Lu in LF, L2, L3, L4, L5, L6, L7.
  (* slopes of the tableau *)
  set (y2 := combine_stages u h [1/5] [k1]).
  set (K2 := F (t + 1/5*h) y2).
  set (y3 := combine_stages u h [3/40;9/40] [k1;K2]).
  set (K3 := F (t + 3/10*h) y3).
  set (y4 := combine_stages u h [44/45; -(56/15); 32/9] [k1;K2;K3]).
  set (K4 := F (t + 4/5*h) y4).
  set (y5 := combine_stages u h [19372/6561; -(25360/2187); 64448/6561; -(212/729)] [k1;K2;K3;K4]).
  set (K5 := F (t + 8/9*h) y5).
  set (y6 := combine_stages u h [9017/3168; -(355/33); 46732/5247; 49/176; -(5103/18656)] [k1;K2;K3;K4;K5]).
  set (K6 := F (t + 1*h) y6).
  set (y7 := combine_stages u h [35/384; 0; 500/1113; 125/192; -(2187/6784); 11/84] [k1;K2;K3;K4;K5;K6]).
  set (K7 := F (t + 1*h) y7).
  assert (ks = [k1;K2;K3;K4;K5;K6;K7]) as Esl by reflexivity.
  assert (length y2 = n) as Ly2 by (unfold y2; rewrite combine_stages_length; exact Lu).
  assert (length y3 = n) as Ly3 by (unfold y3; rewrite combine_stages_length; exact Lu).
  assert (length y4 = n) as Ly4 by (unfold y4; rewrite combine_stages_length; exact Lu).
  assert (length y5 = n) as Ly5 by (unfold y5; rewrite combine_stages_length; exact Lu).
  assert (length y6 = n) as Ly6 by (unfold y6; rewrite combine_stages_length; exact Lu).
  assert (length y7 = n) as Ly7 by (unfold y7; rewrite combine_stages_length; exact Lu).
  assert (length K2 = n) as LK2 by (unfold K2, F; now rewrite ode_length).
  assert (length K3 = n) as LK3 by (unfold K3, F; now rewrite ode_length).
  assert (length K4 = n) as LK4 by (unfold K4, F; now rewrite ode_length).
  assert (length K5 = n) as LK5 by (unfold K5, F; now rewrite ode_length).
  assert (length K6 = n) as LK6 by (unfold K6, F; now rewrite ode_length).
  assert (length K7 = n) as LK7 by (unfold K7, F; now rewrite ode_length).
  Ltac vlen := change (num (RA _)) with R in *; repeat first [rewrite vadd_length | rewrite vscale_length | rewrite vsub_length]; change (num (RA _)) with R in *;
               repeat match goal with H : length _ = ?n |- _ => rewrite H end; lia.
  Ltac vcomp n := apply vec_ext; [rewrite ?combine_stages_length; vlen|];
    let i := fresh "i" in let Hi := fresh "Hi" in intros i Hi;
    assert (i < n)%nat by (revert Hi; vlen);
    rewrite <- (comp_at (combine_stages _ _ _ _)) by (rewrite combine_stages_length; vlen);
    rewrite combine_stages_comp by vlen; cbn [map wsum];
    repeat first [rewrite vadd_at by vlen | rewrite vscale_at by vlen];
    rewrite ?comp_at by vlen.
  assert (forall x (w : vec RI) (b : vec RI), length b = n -> length w = n ->
            call_rhs f b w x p = F x w) as Ecall.
  { intros x w b Hb Hw. apply call_ode; [assumption|congruence]. }
  assert (@vadd RI u (@vscale RI (h * (@A21 RI)) k1) = y2) as E2.
  { unfold y2. vcomp n. unfold A21. rnorm. lra. }
  assert (@vadd RI u (@vscale RI h (@vadd RI (@vscale RI (@A31 RI) k1) (@vscale RI (@A32 RI) K2))) = y3) as E3.
  { unfold y3. vcomp n. unfold A31, A32. rnorm. lra. }
  assert (@vadd RI u (@vscale RI h (@vadd RI (@vadd RI (@vscale RI (@A41 RI) k1) (@vscale RI (@A42 RI) K2)) (@vscale RI (@A43 RI) K3))) = y4) as E4.
  { unfold y4. vcomp n. unfold A41, A42, A43. rnorm. lra. }
  assert (@vadd RI u (@vscale RI h (@vadd RI (@vadd RI (@vadd RI (@vscale RI (@A51 RI) k1) (@vscale RI (@A52 RI) K2)) (@vscale RI (@A53 RI) K3))
            (@vscale RI (@A54 RI) K4))) = y5) as E5.
  { unfold y5. vcomp n. unfold A51, A52, A53, A54. rnorm. lra. }
  assert (@vadd RI u (@vscale RI h (@vadd RI (@vadd RI (@vadd RI (@vadd RI (@vscale RI (@A61 RI) k1) (@vscale RI (@A62 RI) K2)) (@vscale RI (@A63 RI) K3))
            (@vscale RI (@A64 RI) K4)) (@vscale RI (@A65 RI) K5))) = y6) as E6.
  { unfold y6. vcomp n. unfold A61, A62, A63, A64, A65. rnorm. lra. }
  assert (@vadd RI u (@vscale RI h (@vadd RI (@vadd RI (@vadd RI (@vadd RI (@vscale RI (@A71 RI) k1) (@vscale RI (@A73 RI) K3)) (@vscale RI (@A74 RI) K4))
            (@vscale RI (@A75 RI) K5)) (@vscale RI (@A76 RI) K6))) = y7) as E7.
  { unfold y7. vcomp n. unfold A71, A73, A74, A75, A76. rnorm. lra. }
  assert (t + @C2 RI * h = t + 1/5*h) as T2 by (unfold C2; rnorm; lra).
  assert (t + @C3 RI * h = t + 3/10*h) as T3 by (unfold C3; rnorm; lra).
  assert (t + @C4 RI * h = t + 4/5*h) as T4 by (unfold C4; rnorm; lra).
  assert (t + @C5 RI * h = t + 8/9*h) as T5 by (unfold C5; rnorm; lra).
  assert (t + h = t + 1*h) as T6 by lra.
  assert (call_rhs f b2 y2 (t + 1/5*h) p = K2) as F2 by (apply Ecall; assumption).
  assert (call_rhs f b3 y3 (t + 3/10*h) p = K3) as F3 by (apply Ecall; assumption).
  assert (call_rhs f b4 y4 (t + 4/5*h) p = K4) as F4 by (apply Ecall; assumption).
  assert (call_rhs f b5 y5 (t + 8/9*h) p = K5) as F5 by (apply Ecall; assumption).
  assert (call_rhs f b6 y6 (t + 1*h) p = K6) as F6 by (apply Ecall; assumption).
  assert (call_rhs f b7 y7 (t + 1*h) p = K7) as F7 by (apply Ecall; assumption).
  assert (sd_k2 v = K2) as V2.
  { unfold v, stage_vecs; cbn [sd_k2]. rnorm. rewrite T2, E2. exact F2. }
  assert (sd_k3 v = K3) as V3.
  { unfold v, stage_vecs; cbn [sd_k3]. rnorm. rewrite T2, E2, F2, T3, E3. exact F3. }
  assert (sd_k4 v = K4) as V4.
  { unfold v, stage_vecs; cbn [sd_k4]. rnorm. rewrite T2, E2, F2, T3, E3, F3, T4, E4. exact F4. }
  assert (sd_k5 v = K5) as V5.
  { unfold v, stage_vecs; cbn [sd_k5]. rnorm.
    rewrite T2, E2, F2, T3, E3, F3, T4, E4, F4, T5, E5. exact F5. }
  assert (sd_k6 v = K6) as V6.
  { unfold v, stage_vecs; cbn [sd_k6]. rnorm.
    rewrite T2, E2, F2, T3, E3, F3, T4, E4, F4, T5, E5, F5, E6, T6. exact F6. }
  assert (sd_unew v = y7) as V7.
  { unfold v, stage_vecs; cbn [sd_unew]. rnorm.
    rewrite T2, E2, F2, T3, E3, F3, T4, E4, F4, T5, E5, F5, E6, T6, F6. exact E7. }
  assert (sd_dunew v = K7) as V8.
  { unfold v, stage_vecs; cbn [sd_dunew]. rnorm.
    rewrite T2, E2, F2, T3, E3, F3, T4, E4, F4, T5, E5, F5, E6, T6, F6, E7. exact F7. }
  assert (combine_stages u h dopri_b ks = y7) as R7.
  { rewrite Esl. unfold dopri_b, y7.
    apply nth_ext with (d := 0) (d' := 0); rewrite !combine_stages_length; [reflexivity|].
    intros i Hi. change (nth i ?x 0) with (comp x i). rewrite !combine_stages_comp by assumption.
    cbn [map wsum]. lra. }
  repeat split.
  - rewrite V7. now symmetry.
  - rewrite V8, V7, T6. reflexivity.
  - unfold v, stage_vecs; cbn [sd_uerr]. rnorm.
    rewrite T2, E2, F2, T3, E3, F3, T4, E4, F4, T5, E5, F5, E6, T6, F6, E7, F7.
    apply vec_ext.
    { unfold vdiff. rewrite map_length, seq_length, R7. vlen. }
    intros i Hi. assert (i < n)%nat as Hin by (revert Hi; vlen).
    rewrite <- (comp_at (vdiff _ _)) by (rewrite vdiff_length, R7; vlen).
    rewrite vdiff_comp by (rewrite R7; vlen).
    rewrite R7. rewrite Esl. unfold y7.
    rewrite !combine_stages_comp by vlen. unfold dopri_bhat. cbn [map wsum].
    repeat first [rewrite vadd_at by vlen | rewrite vscale_at by vlen].
    rewrite !comp_at by vlen. unfold E1, DP5.E3, DP5.E4, DP5.E5, DP5.E6, DP5.E7. rnorm. lra.
  - rewrite Esl, V2, V3, V4, V5, V6, V8. reflexivity.
Qed.

Lemma slopes_first (F : R -> list R -> list R) t u h :
  slopes F t u h dopri_rows [] = slopes F t u h (tl dopri_rows) [F t u].
Proof.
  unfold dopri_rows. cbn [slopes app tl].
  assert (combine_stages u h [] [] = u) as Eu.
  { apply nth_ext with (d := 0) (d' := 0); rewrite combine_stages_length; [reflexivity|].
    intros i Hi. change (nth i ?x 0) with (comp x i). rewrite combine_stages_comp by assumption.
    cbn. lra. }
  rewrite Eu. replace (t + 0 * h) with t by ring. reflexivity.
Qed.

Lemma stages_rk (f : rhs RI P) p (u : list R) (t h : R) (b2 b3 b4 b5 b6 b7 : list R) :
  overwrites f ->
  length b2 = length u -> length b3 = length u -> length b4 = length u ->
  length b5 = length u -> length b6 = length u -> length b7 = length u ->
  let F := ode f p in
  let v := stage_vecs f p u t h (F t u) b2 b3 b4 b5 b6 b7 in
  sd_unew v = rk_step dopri_rows dopri_b F t u h /\
  sd_dunew v = F (t + h) (sd_unew v) /\
  sd_uerr v = vdiff (rk_step dopri_rows dopri_b F t u h) (rk_step dopri_rows dopri_bhat F t u h) /\
  slopes F t u h dopri_rows [] =
    [F t u; sd_k2 v; sd_k3 v; sd_k4 v; sd_k5 v; sd_k6 v; sd_dunew v].
Proof.
  intros Ho L2 L3 L4 L5 L6 L7 F v. unfold rk_step. rewrite slopes_first.
  apply stages_from; try assumption. unfold F. now rewrite ode_length.
Qed.

(** The error measure of the code is the weighted RMS norm. *)
Lemma sum_loop_rsum n (g : nat -> num RI) : sum_loop n g (n0) = rsum n g.
Proof.
  assert (forall m k (a : R), fold_left (fun (s : num RI) i => add RI s (g i)) (seq k m) a
            = a + fold_right Rplus 0 (map g (seq k m))) as H.
  { induction m as [|m IH]; intros k a; cbn [seq fold_left fold_right map].
    - rnorm. lra.
    - rewrite IH. rnorm. lra. }
  unfold sum_loop, rsum. rewrite H. unfold n0. rnorm. lra.
Qed.

Lemma error_wrms (s : state) :
  length (i_u s) <> 0%nat -> length (unew (i_cache s)) = length (i_u s) ->
  length (uerr (i_cache s)) = length (i_u s) ->
  0 < o_abstol (i_opts s) -> 0 <= o_reltol (i_opts s) ->
  dp5_error s = wrms (o_abstol (i_opts s)) (o_reltol (i_opts s)) (i_u s) (unew (i_cache s)) (uerr (i_cache s)).
Proof.
  intros Hn Lu Le Ha Hr. unfold dp5_error, wrms.
  rewrite sum_loop_rsum. rnorm.
  assert (0 < INR (length (i_u s))) as Hi by (apply lt_0_INR; rlia).
  rewrite <- INR_IZR_INZ. replace (INR (length (i_u s)) / 1) with (INR (length (i_u s))) by field.
  rewrite rdiv_ok by rlra. do 2 f_equal. unfold rsum. f_equal. apply map_ext_in.
  intros i Hin. apply in_seq in Hin. rewrite !comp_at by rlia.
  set (sk := o_abstol (i_opts s) + _).
  assert (0 < sk) as Hsk.
  { subst sk. apply Rplus_lt_le_0_compat; [assumption|]. apply Rmult_le_pos; [assumption|].
    eapply Rle_trans; [apply Rabs_pos|apply Rmax_l]. }
  rewrite rdiv_ok by rlra. simpl. ring. rnorm. field.
Qed.

(** ** One [step()] *)
(** The derivative cached for the next first stage is the one at the current
    point. *)
Definition fsal (s : state) : Prop := du (i_cache s) = ode (i_dudt s) (i_params s) (i_t s) (i_u s).

Lemma dp5_step_from fuel (s s' : state) :
  overwrites (i_dudt s) -> dp5_step fuel s = Ok s' ->
  fsal s' /\
  i_t s' = i_t s + i_dtprev s' /\
  i_u s' = combine_stages (i_u s) (i_dtprev s') dopri_b
    (slopes (ode (i_dudt s) (i_params s)) (i_t s) (i_u s) (i_dtprev s') (tl dopri_rows) [du (i_cache s)]).
Proof.
  intros Ho H. unfold fsal in *.
  pose proof (dp5_step_effect_of _ _ _ H) as Ef. open_effect Ef.
  destruct se_problem0 as (Pf&_&_&Pp&_&_&Po).
  clear se_ts0 se_us0 se_tprev0 se_uprev0 se_steps0 se_accepts0 se_others0 se_work0 se_rc0 se_reject0 se_max_stiff0.
  apply dp5_step_inv in H as (k & sk & sa & Hk & Hrs & Ha & E).
  destruct (dp5_clip_frame s) as (Cp & Cpt & _ & _ & _ & _ & (cl & Cc)).
  apply rejections_many in Hrs.
  pose proof (rm_problem _ _ _ Hrs) as Rp. pose proof (rm_point _ _ _ Hrs) as Rpt.
  pose proof (rm_du _ _ _ Hrs) as Rdu. rewrite Cc in Rdu. cbn in Rdu. clear Hrs.
  apply dp5_attempt_inv in Ha as (s1 & Hs & [(_ & Herr & Hacc)|(D & _)]); [|discriminate].
  pose proof (compute_stages_inv _ _ Hs) as (Ssh&Sp&Spt&Sdt&_&_&_&_&_&_&_&_&_&_&_).
  rewrite compute_stages_eq, Ssh in Hs. injection Hs as Hs.
  assert (i_u sk = i_u s) as Eu by (destruct Rpt as (->&_); apply Cpt).
  assert (i_t sk = i_t s) as Et by (destruct Rpt as (_&->&_); apply Cpt).
  assert (i_dudt sk = i_dudt s) as Ed by (destruct Rp as (->&_); apply Cp).
  assert (i_params sk = i_params s) as Ep by (destruct Rp as (_&_&_&->&_); apply Cp).
  assert (i_opts sk = i_opts s) as Eo by (destruct Rp as (_&_&_&_&_&_&->); apply Cp).
  assert (i_opts s1 = i_opts s) as Eo1 by (destruct Sp as (_&_&_&_&_&_&->); assumption).
  assert (i_u s1 = i_u s) as Eu1 by (destruct Spt as (->&_); assumption).
  apply dp5_shapes_spec in Ssh.
  repeat match goal with H : Forall _ (_ :: _) |- _ => inversion_clear H end.
  pose proof (stages_from (i_dudt s) (i_params s) (i_u s) (i_t s) (i_dt sk) (du (i_cache sk))
    (k2 (i_cache sk)) (k3 (i_cache sk)) (k4 (i_cache sk)) (k5 (i_cache sk)) (k6 (i_cache sk))
    (dunew (i_cache sk)) Ho) as Hst.
  rewrite Eu in *. specialize (Hst ltac:(assumption) ltac:(assumption) ltac:(assumption)
    ltac:(assumption) ltac:(assumption) ltac:(assumption) ltac:(assumption)).
  cbv zeta in Hst. rewrite <- Rdu.
  set (v := stage_vecs _ _ _ _ _ _ _ _ _ _ _ _) in Hst.
  assert (stage_vecs_of sk = v) as Ev by (unfold stage_vecs_of, v; rewrite Ed, Ep, Eu, Et; reflexivity).
  rewrite Ev in Hs.
  assert (unew (i_cache s1) = sd_unew v) as U1 by (rewrite <- Hs; reflexivity).
  assert (dunew (i_cache s1) = sd_dunew v) as U2 by (rewrite <- Hs; reflexivity).
  assert (uerr (i_cache s1) = sd_uerr v) as U3 by (rewrite <- Hs; reflexivity).
  clear Hs. destruct Hst as (V1 & V2 & V3 & _).
  pose proof (dp5_finish_frame sa) as (Fp&Fu&Ft&_&_&_&Fdtp&Fc&_).
  destruct Hacc as [Ap Au _ At _ _ Adtp _ _ _ _ _ _ _ Adu _ _ _ _ _ _ _ _ _ _].
  subst s'. rewrite Fc, Ft, Fu, Fdtp, Au, At, Adtp, Adu in *. rewrite U1, U2, Sdt in *.
  destruct Spt as (_&Et1&_). rewrite Et in Et1. rewrite Et1 in *.
  split; [|split].
  - rewrite Pf, Pp, V2. reflexivity.
  - reflexivity.
  - rewrite V1. reflexivity.
Qed.

Lemma dp5_step_rk fuel (s s' : state) :
  overwrites (i_dudt s) -> fsal s -> dp5_step fuel s = Ok s' ->
  fsal s' /\
  i_t s' = i_t s + i_dtprev s' /\
  i_u s' = rk_step dopri_rows dopri_b (ode (i_dudt s) (i_params s)) (i_t s) (i_u s) (i_dtprev s') /\
  (length (i_u s) <> 0%nat -> 0 < o_abstol (i_opts s) -> 0 <= o_reltol (i_opts s) ->
   wrms (o_abstol (i_opts s)) (o_reltol (i_opts s)) (i_u s) (i_u s')
     (vdiff (i_u s') (rk_step dopri_rows dopri_bhat (ode (i_dudt s) (i_params s)) (i_t s) (i_u s) (i_dtprev s'))) <= 1).
Proof.
  intros Ho Hfs H. unfold fsal in *.
  pose proof (dp5_step_effect_of _ _ _ H) as Ef. open_effect Ef.
  destruct se_problem0 as (Pf&_&_&Pp&_&_&Po).
  clear se_ts0 se_us0 se_tprev0 se_uprev0 se_steps0 se_accepts0 se_others0 se_work0 se_rc0 se_reject0 se_max_stiff0.
  apply dp5_step_inv in H as (k & sk & sa & Hk & Hrs & Ha & E).
  destruct (dp5_clip_frame s) as (Cp & Cpt & _ & _ & _ & _ & (cl & Cc)).
  apply rejections_many in Hrs.
  pose proof (rm_problem _ _ _ Hrs) as Rp. pose proof (rm_point _ _ _ Hrs) as Rpt.
  pose proof (rm_du _ _ _ Hrs) as Rdu. rewrite Cc in Rdu. cbn in Rdu. clear Hrs.
  apply dp5_attempt_inv in Ha as (s1 & Hs & [(_ & Herr & Hacc)|(D & _)]); [|discriminate].
  pose proof (compute_stages_inv _ _ Hs) as (Ssh&Sp&Spt&Sdt&_&_&_&_&_&_&_&_&_&_&_).
  rewrite compute_stages_eq, Ssh in Hs. injection Hs as Hs.
  assert (i_u sk = i_u s) as Eu by (destruct Rpt as (->&_); apply Cpt).
  assert (i_t sk = i_t s) as Et by (destruct Rpt as (_&->&_); apply Cpt).
  assert (i_dudt sk = i_dudt s) as Ed by (destruct Rp as (->&_); apply Cp).
  assert (i_params sk = i_params s) as Ep by (destruct Rp as (_&_&_&->&_); apply Cp).
  assert (i_opts sk = i_opts s) as Eo by (destruct Rp as (_&_&_&_&_&_&->); apply Cp).
  assert (i_opts s1 = i_opts s) as Eo1 by (destruct Sp as (_&_&_&_&_&_&->); assumption).
  assert (i_u s1 = i_u s) as Eu1 by (destruct Spt as (->&_); assumption).
  apply dp5_shapes_spec in Ssh.
  repeat match goal with H : Forall _ (_ :: _) |- _ => inversion_clear H end.
  pose proof (stages_rk (i_dudt s) (i_params s) (i_u s) (i_t s) (i_dt sk)
    (k2 (i_cache sk)) (k3 (i_cache sk)) (k4 (i_cache sk)) (k5 (i_cache sk)) (k6 (i_cache sk))
    (dunew (i_cache sk)) Ho) as Hst.
  rewrite Eu in *. specialize (Hst ltac:(assumption) ltac:(assumption) ltac:(assumption)
    ltac:(assumption) ltac:(assumption) ltac:(assumption)).
  cbv zeta in Hst. rewrite <- Hfs, <- Rdu in Hst.
  set (v := stage_vecs _ _ _ _ _ _ _ _ _ _ _ _) in Hst.
  assert (stage_vecs_of sk = v) as Ev by (unfold stage_vecs_of, v; rewrite Ed, Ep, Eu, Et; reflexivity).
  rewrite Ev in Hs.
  assert (unew (i_cache s1) = sd_unew v) as U1 by (rewrite <- Hs; reflexivity).
  assert (dunew (i_cache s1) = sd_dunew v) as U2 by (rewrite <- Hs; reflexivity).
  assert (uerr (i_cache s1) = sd_uerr v) as U3 by (rewrite <- Hs; reflexivity).
  clear Hs. destruct Hst as (V1 & V2 & V3 & _).
  pose proof (dp5_finish_frame sa) as (Fp&Fu&Ft&_&_&_&Fdtp&Fc&_).
  destruct Hacc as [Ap Au _ At _ _ Adtp _ _ _ _ _ _ _ Adu _ _ _ _ _ _ _ _ _ _].
  subst s'. rewrite Fc, Ft, Fu, Fdtp, Au, At, Adtp, Adu in *. rewrite U1, U2, Sdt in *.
  destruct Spt as (_&Et1&_). rewrite Et in Et1. rewrite Et1 in *.
  split; [|split; [|split]].
  - rewrite Pf, Pp, V2. reflexivity.
  - reflexivity.
  - rewrite V1. reflexivity.
  - intros Hn Hab Hre. rewrite <- V1 in V3. rewrite V1 at 1. rewrite <- V1. rewrite <- V3.
    rewrite error_wrms in Herr.
    + rnorm. apply Rleb_true in Herr. rewrite Eo1, Eu1, U1, U3 in Herr. lra.
    + now rewrite Eu1.
    + rewrite Eu1, U1. exact se_lens0.
    + rewrite Eu1, U3, V3. unfold vdiff. rewrite map_length, seq_length. exact se_lens0.
    + now rewrite Eo1.
    + now rewrite Eo1.
Qed.

Record rk_inv (b : builder RI P) (s : state) : Prop := {
  rki_f : i_dudt s = b_dudt b;
  rki_p : i_params s = b_params b;
  rki_o : i_opts s = b_opts b;
  rki_n : length (i_u s) = length (b_u b);
  rki_fsal : fsal s;
  rki_len : length (ts (i_sol s)) = length (us (i_sol s));
  rki_snoc : exists l, points s = l ++ [(i_t s, i_u s)];
  rki_linked : linked (dopri_transition (b_dudt b) (b_params b)) (points s);
  rki_err : b_u b <> [] -> 0 < o_abstol (b_opts b) -> 0 <= o_reltol (b_opts b) ->
    linked (error_test (b_dudt b) (b_params b) (o_abstol (b_opts b)) (o_reltol (b_opts b))) (points s) }.

Lemma rk_inv_step (b : builder RI P) fuel (s s' : state) r :
  overwrites (b_dudt b) -> rk_inv b s -> step alg None fuel s = Ok (s', r) -> rk_inv b s'.
Proof.
  intros Ho [If Ip Io In Ifs Il (l & Isn) Ili Ie] H.
  unfold step in H. apply bind_ok in H as (s1 & H & E). cbn [run_callback] in E.
  injection E as E _. subst s1. cbn [alg_step DormandPrince5 Cache] in H.
  pose proof (dp5_step_rk fuel s s' ltac:(now rewrite If) Ifs H) as (Q1 & Q2 & Q3 & Q4).
  pose proof (dp5_step_effect_of _ _ _ H) as Ef. open_effect Ef.
  destruct se_problem0 as (Pf&_&_&Pp&_&_&Po).
  assert (points s' = points s ++ [(i_t s', i_u s')]) as Ept.
  { unfold points. rewrite se_ts0, se_us0. now apply combine_snoc. }
  rewrite If, Ip, Io in *.
  constructor; try congruence.
  - rewrite se_ts0, se_us0, !app_length. cbn. rlia.
  - eauto.
  - rewrite Ept, Isn. apply linked_snoc; [rewrite Isn in Ili; exact Ili|].
    exists (i_dtprev s'). cbn. auto.
  - intros Hn Ha Hr. rewrite Ept, Isn. apply linked_snoc; [specialize (Ie Hn Ha Hr); rewrite Isn in Ie; exact Ie|].
    exists (i_dtprev s'). cbn. split; [assumption|]. split; [assumption|].
    apply Q4; try assumption. rewrite In. destruct (b_u b); [contradiction|discriminate].
Qed.

Lemma rk_inv_build (b : builder RI P) (s : state) : build alg b = Ok s -> rk_inv b s.
Proof.
  intros H. unfold build in H. cbn [alg_new_cache DormandPrince5] in H. unfold dp5_new_cache in H.
  cbn [bind] in H. injection H as H. subst s. constructor; try reflexivity.
  - exists []. reflexivity.
  - apply linked_one.
  - intros _ _ _. apply linked_one.
Qed.

Theorem dp5_rk (b : builder RI P) fuel k (s0 s : state) :
  overwrites (b_dudt b) ->
  build alg b = Ok s0 -> steps_n alg None fuel k s0 = Ok s -> rk_inv b s.
Proof.
  intros Ho Hb. apply dp5_invariant.
  - intros a a' r Ha Hs. eapply rk_inv_step; eassumption.
  - now apply rk_inv_build.
Qed.
End DP5RK.
