(** DormandPrince5 over the reals: steps of length zero, i.e. empty spans and
    calls of [step()] after the end. *)
From Coq Require Import ZArith List Bool Lia Reals Lra.
From RecordUpdate Require Import RecordSet.
From Verif Require Import Arith Vec Core Spec DP5 SpecRK SpecODE ArithR Driver VecFacts RKFacts DP5Facts DP5Inv DP5R DP5RK DP5Time DP5RForms.
Import ListNotations RecordSetNotations.
Local Open Scope R_scope.

Section Zero.
Context {P : Type} {inf : R}.
Notation RI := (RA inf).
Notation state := (integ RI P (dp5_cache RI)).
Notation alg := (@DormandPrince5 RI P).

Lemma vadd_zero (u v : vec RI) : length v = length u -> vadd u (vscale (0 : num RI) v) = u.
Proof.
  intros H. apply vec_ext; [rewrite vadd_length, vscale_length, H; apply Nat.min_id|].
  intros i Hi. rewrite vadd_length, vscale_length, H, Nat.min_id in Hi.
  rewrite vadd_at by (rewrite ?vscale_length; cbn in *; lia). rewrite vscale_at by (cbn in *; lia).
  rnorm. lra.
Qed.

(** A state at which the next attempt has length zero. *)
Record at_rest (s : state) : Prop := {
  ar_shapes : dp5_shapes s = true;
  ar_stiff : o_max_stiff (i_opts s) <> 0%nat;
  ar_sane : sane_opts (i_opts s);
  ar_atol : 0 < o_abstol (i_opts s);
  ar_rtol : 0 <= o_reltol (i_opts s);
  ar_dim : length (i_u s) <> 0%nat;
  ar_t : i_t s = i_tfinal s;
  ar_tdir : i_tdir s = 1;
  ar_dt : 0 < i_dt s \/ (i_dt s = 0 /\ last (i_cache s) = true) }.

Lemma rest_clip (s : state) : at_rest s -> i_dt (dp5_clip s) = 0 /\ last (i_cache (dp5_clip s)) = true.
Proof.
  intros []. destruct (dp5_clip_cases s) as [(C & ->)|(C & ->)]; rnorm; rewrite ar_tdir0 in C.
  - cbn. rewrite ar_t0. split; [lra|reflexivity].
  - apply Rltb_false in C. destruct ar_dt0 as [H|[H1 H2]]; [rewrite ar_t0 in C; lra|auto].
Qed.

Lemma shapes_lengths (s : state) : dp5_shapes s = true ->
  length (i_uprev s) = length (i_u s) /\ length (k2 (i_cache s)) = length (i_u s) /\ length (k3 (i_cache s)) = length (i_u s) /\
  length (k4 (i_cache s)) = length (i_u s) /\ length (k5 (i_cache s)) = length (i_u s) /\ length (k6 (i_cache s)) = length (i_u s) /\
  length (dunew (i_cache s)) = length (i_u s) /\ length (du (i_cache s)) = length (i_u s).
Proof.
  unfold dp5_shapes. cbn [forallb]. rewrite !andb_true_iff, !Nat.eqb_eq. tauto.
Qed.

Lemma zero_stages (f : rhs RI P) p (u : vec RI) t (d b2 b3 b4 b5 b6 b7 : vec RI) :
  length d = length u -> length b2 = length u -> length b3 = length u -> length b4 = length u ->
  length b5 = length u -> length b6 = length u -> length b7 = length u ->
  let v := stage_vecs f p u t (0 : num RI) d b2 b3 b4 b5 b6 b7 in
  sd_unew v = u /\ length (sd_uerr v) = length u /\ forall i, (i < length u)%nat -> comp (sd_uerr v) i = 0.
Proof.
  intros H1 H2 H3 H4 H5 H6 H7 v. unfold v, stage_vecs. cbn [sd_unew sd_uerr].
  split; [|split].
  - apply vadd_zero. rewrite !vadd_length, !vscale_length, !call_rhs_length. cbn in *. lia.
  - rewrite vscale_length, !vadd_length, !vscale_length, !call_rhs_length. cbn in *. lia.
  - intros i Hi. rewrite comp_at by (rewrite vscale_length, !vadd_length, !vscale_length, !call_rhs_length; cbn in *; lia).
    rewrite vscale_at by (rewrite !vadd_length, !vscale_length, !call_rhs_length; cbn in *; lia).
    rnorm. lra.
Qed.

Lemma zero_attempt (s : state) : at_rest s -> i_dt s = 0 -> last (i_cache s) = true ->
  exists s', dp5_attempt s = Ok (s', true) /\ i_u s' = i_u s /\ i_t s' = i_t s /\ i_sol s' = i_sol s /\
    i_dt s' = 0 /\ last (i_cache s') = true /\ same_problem s s' /\ i_stats s' = i_stats s <| function_evals ::= fun k => (k + 6)%nat |> <| accepts ::= S |>.
Proof.
  intros Hr Hd Hl. destruct (dp5_attempt_no_panic s (ar_shapes _ Hr) (ar_stiff _ Hr)) as (s' & d & E).
  apply dp5_attempt_inv in E as E'. destruct E' as (s1 & Hs & Hc).
  destruct (shapes_lengths s (ar_shapes _ Hr)) as (L1 & L2 & L3 & L4 & L5 & L6 & L7 & L8).
  pose proof (zero_stages (i_dudt s) (i_params s) (i_u s) (i_t s) (du (i_cache s)) (k2 (i_cache s)) (k3 (i_cache s))
    (k4 (i_cache s)) (k5 (i_cache s)) (k6 (i_cache s)) (dunew (i_cache s)) L8 L2 L3 L4 L5 L6 L7) as (Z1 & Z2 & Z3).
  pose proof Hs as Hs0. rewrite compute_stages_eq, (ar_shapes _ Hr) in Hs0. injection Hs0 as Hs0.
  unfold stage_vecs_of in Hs0. rewrite Hd in Hs0.
  set (v := stage_vecs _ _ _ _ _ _ _ _ _ _ _ _) in *.
  assert (unew (i_cache s1) = i_u s /\ uerr (i_cache s1) = sd_uerr v) as (Eu & Ee).
  { rewrite <- Hs0. split; [exact Z1|reflexivity]. }
  clear Hs0. apply compute_stages_inv in Hs as (_&Sp&Spt&Sdt&_&Ssol&Sst&_&_&_&Srj&Sl&_).
  assert (i_u s1 = i_u s) as Su by apply Spt. assert (i_opts s1 = i_opts s) as So by apply Sp.
  assert (dp5_error s1 = 0) as Herr.
  { rewrite (error_wrms inf s1); rewrite ?Su, ?So, ?Eu, ?Ee; try apply Hr; try reflexivity; try exact Z2.
    unfold wrms. rewrite (rsum_ext _ _ (fun _ => 0)); [rewrite rsum_zero; unfold Rdiv; rewrite Rmult_0_l; apply sqrt_0|].
    intros i Hi. rewrite Z3 by exact Hi. unfold Rdiv. rewrite Rmult_0_l. lra. }
  destruct Hc as [(-> & _ & Ha)|(_ & Hle & _)].
  2:{ exfalso. rewrite Herr in Hle. cbn in Hle. apply Rleb_false in Hle. unfold rlit in Hle. lra. }
  exists s'. split; [exact E|]. destruct Ha. rewrite acc_u, acc_t, acc_dt, acc_sol, acc_last, acc_stats, Sst, Sdt, Hd.
  destruct Spt as (_ & St & _). split; [exact Eu|]. split; [rewrite St; rnorm; lra|]. split; [exact Ssol|].
  split; [|split; [congruence|split; [eapply same_problem_trans; eassumption|reflexivity]]].
  unfold dtnew_accept. rewrite Sdt, Hd. pose proof (fac_range inf (dp5_error s1) s1 ltac:(rewrite So; apply Hr)) as [Hf _].
  pose proof (ar_sane _ Hr) as [_ _ Hfr _ _ Hdm]. rewrite So in *.
  assert (0 < dp5_fac (dp5_error s1) s1) as Hp.
  { eapply Rlt_le_trans; [|exact Hf]. now apply Rinv_0_lt_compat. }
  rnorm. rewrite rdiv_ok by lra. unfold Rdiv. rewrite Rmult_0_l, Rabs_R0.
  destruct (Rltb _ _) eqn:C. { apply Rltb_true in C. lra. }
  rewrite Rabs_R0. destruct (reject _); [|reflexivity]. rewrite Rmin_left by lra. apply Rmult_0_r.
Qed.

Lemma rest_step fuel (s : state) : at_rest s ->
  exists s', step alg None (S fuel) s = Ok (s', None) /\ at_rest s' /\ i_u s' = i_u s /\ i_t s' = i_t s /\
    ts (i_sol s') = ts (i_sol s) ++ [i_t s] /\ us (i_sol s') = us (i_sol s) ++ [i_u s] /\
    rc (i_sol s') = RSuccess /\ i_opts s' = i_opts s.
Proof.
  intros Hr. destruct (rest_clip s Hr) as (C1 & C2).
  destruct (dp5_clip_frame s) as (Cp & Cpt & Csol & Cst & _ & _ & (bl & Cc)).
  assert (at_rest (dp5_clip s)) as Hrc.
  { destruct Hr. pose proof Cp as (_&_&_&_&Etd&Etf&Eo). destruct Cpt as (Eu&Et&Eup&_).
    constructor; rewrite ?Eo, ?Eu, ?Et, ?Etf, ?Etd; auto.
    unfold dp5_shapes in *. rewrite Eu, Eup, Cc. exact ar_shapes0. }
  destruct (zero_attempt _ Hrc C1 C2) as (s1 & E & Zu & Zt & Zs & Zd & Zl & Zp & Zst).
  destruct (dp5_finish_frame s1) as (Fp & Fu & Ft & Fdt & Fup & _ & _ & Fc & _ & Fst & Fts & Fus & Frc).
  rewrite Zl in Frc. rewrite Zs, Csol in Fts, Fus.
  destruct Cpt as (Eu & Et & _). rewrite Zt, Et in Fts. rewrite Zu, Eu in Fus.
  assert (dp5_shapes s1 = true) as Hsh1.
  { pose proof (dp5_attempt_inv _ _ _ E) as (s2 & Hs & [(_ & _ & Ha)|(D & _)]); [|discriminate].
    pose proof (compute_stages_shapes _ _ Hs) as Hs2. exact (accepted_shapes _ _ _ Hs2 Ha). }
  exists (dp5_finish s1). split.
  - unfold step. cbn [alg_step DormandPrince5 Cache]. unfold dp5_step. cbn [dp5_loop]. rewrite E. cbn [bind run_callback].
    cbn [Cache DormandPrince5] in *. rewrite Frc. reflexivity.
  - cbn [Cache DormandPrince5] in *.
    assert (same_problem (dp5_clip s) (dp5_finish s1)) as Hp by (eapply same_problem_trans; eassumption).
    destruct Hp as (_&_&_&_&Etd&Etf&Eo).
    split; [|rewrite Fu, Ft, Zu, Zt, Eu, Et, Fts, Fus, Frc; repeat split; auto; rewrite Eo; apply Cp].
    destruct Hrc. constructor; rewrite ?Eo, ?Fu, ?Zu, ?Ft, ?Zt, ?Etf, ?Etd, ?Fdt, ?Fc; auto.
    unfold dp5_shapes in *. rewrite Fu, Fup, Fc. exact Hsh1.
Qed.

Lemma rest_steps fuel k : forall (s : state), at_rest s ->
  exists s', steps_n alg None (S fuel) k s = Ok s' /\ i_u s' = i_u s /\ i_t s' = i_t s /\
    ts (i_sol s') = ts (i_sol s) ++ repeat (i_t s) k /\ us (i_sol s') = us (i_sol s) ++ repeat (i_u s) k /\
    (k <> 0%nat -> rc (i_sol s') = RSuccess) /\ (rc (i_sol s) = RSuccess -> rc (i_sol s') = RSuccess).
Proof.
  induction k as [|k IH]; intros s Hr; cbn [steps_n repeat].
  - exists s. rewrite !app_nil_r. repeat split; auto. congruence.
  - destruct (rest_step fuel s Hr) as (s1 & E & Hr1 & Eu & Et & Ets & Eus & Erc & _).
    destruct (IH s1 Hr1) as (s2 & E2 & Eu2 & Et2 & Ets2 & Eus2 & Erc2 & Erc3).
    exists s2. rewrite E. cbn [bind]. split; [exact E2|].
    cbn [Cache DormandPrince5] in *. rewrite Eu, Et in *. rewrite Ets, <- app_assoc in Ets2. rewrite Eus, <- app_assoc in Eus2.
    cbn [app] in *. repeat split; auto.
Qed.

Lemma dp5_shapes_run (b : builder RI P) fuel k (s0 s : state) :
  build alg b = Ok s0 -> steps_n alg None fuel k s0 = Ok s ->
  dp5_shapes s = true /\ length (i_u s) = length (b_u b).
Proof.
  intros Hb. apply (steps_n_invariant alg None fuel
    (fun s : state => dp5_shapes s = true /\ length (i_u s) = length (b_u b))).
  - intros a a' r (H1 & H2) Hs. apply step_dp5_inv in Hs as (s1 & E & ->). open_effect E. cbn [run_callback].
    split; [apply se_shapes0|]. etransitivity; [exact se_lens0|exact H2].
  - apply dp5_build_inv in Hb as (_&_&_&_&Eu&_&_&_&_&_&_&_&_&_&_&_&_&_&_&_&_&Hsh). split; [exact Hsh|].
    exact (f_equal (@length _) Eu).
Qed.

(** ** Empty spans *)
Lemma dp5_empty_span (b : builder RI P) fuel : sane_opts (b_opts b) -> 0 < b_dt b -> b_t b = b_tfinal b ->
  0 < o_abstol (b_opts b) -> 0 <= o_reltol (b_opts b) -> o_max_stiff (b_opts b) <> 0%nat -> b_u b <> [] ->
  exists s0 s, build alg b = Ok s0 /\ integrate alg None (S fuel) 1 s0 = Ok s /\
    rc (i_sol s) = RSuccess /\ i_t s = b_t b /\ i_u s = b_u b /\
    points s = [(b_t b, b_u b); (b_t b, b_u b)].
Proof.
  intros Hso Hdt Ht Ha Hr Hm Hu. destruct (dp5_build_ok b) as (s0 & Hb). exists s0.
  apply dp5_build_inv in Hb as Hb'.
  destruct Hb' as (Ef&_&_&Ep&Eu&Et&Edt&_&_&_&Edir&Etf&Eo&_&Esol&_&_&_&_&_&_&Hsh).
  assert (at_rest s0) as Hrest.
  { constructor; rewrite ?Eo, ?Eu, ?Et, ?Etf; auto.
    - destruct (b_u b); [congruence|discriminate].
    - rewrite Edir. rewrite Ht. cbn. unfold rcopysign. destruct (Rlt_dec _ _); [lra|]. unfold rlit.
      rewrite Rabs_right; lra.
    - left. rewrite Edt. exact Hdt. }
  destruct (rest_step fuel s0 Hrest) as (s & E & _ & E1 & E2 & E3 & E4 & E5 & _).
  exists s. split; [exact Hb|]. split; [cbn [integrate]; rewrite E; reflexivity|].
  cbn [Cache DormandPrince5] in *. rewrite Esol in E3, E4. cbn in E3, E4.
  unfold points. rewrite E1, E2, E3, E4, E5, Eu, Et. repeat split.
Qed.

(** ** Calls after the end *)
Lemma dp5_after_end (b : builder RI P) fuel k j (s0 s : state) :
  sane_opts (b_opts b) -> 0 < b_dt b -> b_t b < b_tfinal b ->
  0 < o_abstol (b_opts b) -> 0 <= o_reltol (b_opts b) -> o_max_stiff (b_opts b) <> 0%nat -> b_u b <> [] ->
  build alg b = Ok s0 -> reached alg None fuel k s0 s -> rc (i_sol s) = RSuccess ->
  exists s', steps_n alg None (S fuel) j s = Ok s' /\ i_u s' = i_u s /\ rc (i_sol s') = RSuccess /\
    points s' = points s ++ repeat (b_tfinal b, i_u s) j.
Proof.
  intros Hso Hdt Ht Ha Hr Hm Hu Hb Hre Hrc.
  pose proof (dp5_run inf b fuel k s0 s Hso Hdt Ht Hb Hre) as [].
  pose proof (reached_steps_n alg None _ _ _ _ Hre) as Hst.
  pose proof (dp5_recorded_wf b None fuel k s0 s no_callback_benign Hb Hst) as (W1 & _).
  assert (dp5_shapes s = true /\ length (i_u s) = length (b_u b)) as (Hsh & Hlu).
  { apply (dp5_shapes_run b fuel k s0 s Hb Hst). }
  assert (at_rest s) as Hrest.
  { constructor; rewrite ?ri_opts, ?ri_tfinal; auto.
    - cbn in Hlu |- *. rewrite Hlu. destruct (b_u b); [congruence|discriminate]. }
  destruct (rest_steps fuel j s Hrest) as (s' & E & E1 & E2 & E3 & E4 & _ & E5).
  exists s'. split; [exact E|]. split; [exact E1|]. split; [auto|].
  unfold points. cbn [Cache DormandPrince5] in *. rewrite E3, E4. specialize (ri_rc Hrc). rewrite ri_rc.
  clear - W1. revert W1. generalize (us (i_sol s)) as l'. generalize (ts (i_sol s)) as l.
  induction l as [|x l IH]; intros [|y l'] H; try discriminate.
  - cbn [app combine]. induction j as [|j IHj]; [reflexivity|]. cbn [repeat combine app]. f_equal. exact IHj.
  - cbn [app combine]. f_equal. apply IH. now injection H.
Qed.
End Zero.
