(** DormandPrince5 runs are the runs of the reference description SpecPI.v. *)
From Coq Require Import ZArith List Bool Reals Lra Lia.
From RecordUpdate Require Import RecordSet.
From Verif Require Import Arith Vec Core Driver Spec VecFacts DP5 DP5Facts DP5Inv ArithR SpecRK SpecODE SpecReach SpecPI
  DP5R DP5Time DP5RK DP5Term DP5Succ.
Import ListNotations.
Local Open Scope R_scope.

Section DP5Ref.
Context {P : Type} (inf : R).
Notation RI := (RA inf).
Notation state := (integ RI P (dp5_cache RI)).
Notation alg := (@DormandPrince5 RI P).

Lemma power_rpow x y : 0 <= x -> 0 <= y -> rpow inf x y = power x y.
Proof.
  intros Hx Hy. unfold rpow, power. destruct (Rlt_dec 0 x) as [H|H].
  - destruct (Req_EM_T x 0); [lra|reflexivity].
  - destruct (Req_EM_T x 0); [|lra]. destruct (Rlt_dec 0 y); destruct (Req_EM_T y 0); lra.
Qed.
Lemma power_nonneg x y : 0 <= power x y.
Proof.
  unfold power. destruct (Req_EM_T x 0); [destruct (Req_EM_T y 0); lra|]. left. apply exp_pos.
Qed.

Lemma fac11_power (err : R) (s : state) : sane_opts (i_opts s) -> 0 <= err ->
  dp5_fac11 (err : num RI) s = err_power (i_opts s) err.
Proof.
  intros Hso He. unfold dp5_fac11, err_power. rnorm. rewrite <- (expo1_control inf s Hso).
  apply power_rpow; [assumption|]. now apply expo1_nonneg.
Qed.

Lemma one_div x : 1 / 1 / x = 1 / x.
Proof. unfold Rdiv. rewrite Rinv_1. ring. Qed.

Lemma reject_size (err : R) (s : state) : sane_opts (i_opts s) -> 1 < err ->
  dtnew_reject (err : num RI) s = retry_size (i_opts s) err (i_dt s).
Proof.
  intros Hso He. pose proof (expo1_nonneg inf s Hso) as Hn.
  unfold dtnew_reject, retry_size. rewrite fac11_power by (assumption || lra). unfold dp5_fac1. rnorm.
  pose proof Hso as [Hs Hl _ _ _ _].
  rewrite (rdiv_ok inf _ (o_facl (i_opts s))) by lra. rewrite (rdiv_ok inf _ (o_safe (i_opts s))) by lra.
  rewrite one_div. apply rdiv_ok.
  assert (0 < 1 / o_facl (i_opts s)) as H1 by (apply Rdiv_lt_0_compat; lra).
  assert (0 < err_power (i_opts s) err / o_safe (i_opts s)) as H2.
  { apply Rdiv_lt_0_compat; [|lra]. unfold err_power, power. destruct (Req_EM_T err 0); [lra|]. apply exp_pos. }
  apply Rgt_not_eq. apply Rmin_glb_lt; assumption.
Qed.

Lemma fac_quotient (err : R) (s : state) :
  sane_opts (i_opts s) -> 0 <= err -> 0 <= facold (i_cache s) -> o_safe (i_opts s) <= o_facl (i_opts s) * inf ->
  dp5_fac (err : num RI) s = step_quotient (i_opts s) (facold (i_cache s)) err.
Proof.
  intros Hso He Hm Hinf. pose proof Hso as [Hs Hl Hr Hb _ _].
  unfold dp5_fac, step_quotient. rewrite fac11_power by assumption. unfold dp5_fac1, dp5_fac2. rnorm.
  rewrite power_rpow by assumption.
  rewrite (rdiv_ok inf _ (o_facl (i_opts s))), (rdiv_ok inf _ (o_facr (i_opts s))), (rdiv_ok inf _ (o_safe (i_opts s))) by lra.
  rewrite !one_div. f_equal. unfold rdiv.
  pose proof (power_nonneg err (control_exponent (o_beta (i_opts s)))) as Hp. fold (err_power (i_opts s) err) in Hp.
  destruct (Req_EM_T (power (facold (i_cache s)) (o_beta (i_opts s))) 0) as [E|E]; [|reflexivity].
  destruct (Rlt_dec (err_power (i_opts s) err) 0); [lra|].
  apply Rmin_left. revert Hs Hl Hinf. generalize (o_safe (i_opts s)) (o_facl (i_opts s)). clear.
  change (num RI) with R. intros sf fl Hs Hl Hinf.
  apply (Rmult_le_reg_r (fl * sf)); [nra|].
  replace (1 / fl * (fl * sf)) with sf by (field; lra).
  replace (inf / sf * (fl * sf)) with (fl * inf) by (field; lra).
  assumption.
Qed.

Lemma accept_size (err : R) (s : state) :
  sane_opts (i_opts s) -> 0 <= err -> 0 <= facold (i_cache s) -> o_safe (i_opts s) <= o_facl (i_opts s) * inf ->
  i_tdir s = 1 -> 0 < i_dt s ->
  dtnew_accept (err : num RI) s = next_size (i_opts s) (facold (i_cache s)) err (i_dt s) (reject (i_cache s)).
Proof.
  intros Hso He Hm Hinf Hd Hdt. unfold dtnew_accept, next_size.
  pose proof (fac_range inf err s Hso) as [Hf _]. rewrite fac_quotient in * by assumption.
  pose proof Hso as [Hs Hl Hr Hb _ Hdm].
  set (q := step_quotient _ _ _) in *. rnorm. rewrite Hd.
  assert (0 < q) as Hq by (eapply Rlt_le_trans; [apply Rinv_0_lt_compat; exact Hr|exact Hf]).
  rewrite rdiv_ok by lra.
  assert (0 < i_dt s / q) as Hpos by (apply Rdiv_lt_0_compat; assumption).
  assert ((if Rltb (o_dtmax (i_opts s)) (Rabs (i_dt s / q)) then 1 * o_dtmax (i_opts s) else i_dt s / q)
          = Rmin (i_dt s / q) (o_dtmax (i_opts s))) as ->.
  { rewrite Rabs_right by lra. unfold Rltb, Rmin. destruct (Rlt_dec _ _); destruct (Rle_dec _ _); lra. }
  assert (0 < Rmin (i_dt s / q) (o_dtmax (i_opts s))) by (apply Rmin_glb_lt; assumption).
  destruct (reject (i_cache s)); [|reflexivity].
  rewrite !Rabs_right by lra. ring.
Qed.

(** ** One attempt *)
Record ready (s : state) : Prop := {
  rd_ow : overwrites (i_dudt s);
  rd_fsal : fsal inf s;
  rd_shapes : dp5_shapes s = true;
  rd_dim : length (i_u s) <> 0%nat;
  rd_sane : sane_opts (i_opts s);
  rd_atol : 0 < o_abstol (i_opts s);
  rd_rtol : 0 <= o_reltol (i_opts s);
  rd_dt : 0 < i_dt s }.

Definition rF (s : state) := ode (i_dudt s) (i_params s).
Definition rerr (s : state) : R := try_error (rF s) (i_opts s) (i_t s) (i_u s) (i_dt s).

Lemma ready_error (s s1 : state) : ready s -> compute_stages s = Ok s1 -> dp5_error s1 = rerr s.
Proof. intros [] H. exact (attempt_rk inf s s1 rd_ow0 rd_fsal0 H rd_dim0 rd_atol0 rd_rtol0). Qed.
Lemma rerr_nonneg (s : state) : 0 <= rerr s.
Proof. unfold rerr, try_error, wrms. apply sqrt_pos. Qed.

Lemma ready_rejected (s s' : state) : ready s -> dp5_attempt s = Ok (s', false) ->
  1 < rerr s /\ i_dt s' = retry_size (i_opts s) (rerr s) (i_dt s) /\
  rc (i_sol s') = (if Rleb (i_dt s') (Rabs (i_t s) * / 2^52) then RDtLessThanMin else rc (i_sol s)) /\
  ready s' /\ i_dudt s' = i_dudt s /\ i_params s' = i_params s /\ i_opts s' = i_opts s /\
  i_t s' = i_t s /\ i_u s' = i_u s.
Proof.
  intros Hr E. assert (rejections 1 s s') as R1 by (econstructor; [exact E|constructor]).
  pose proof (rejections_dt inf 1 s s' (rd_sane _ Hr) R1 (rd_dt _ Hr)) as (D1 & _). clear R1.
  pose proof (dp5_attempt_rejected _ _ E) as At.
  pose proof (atr_problem _ _ At) as Pb. pose proof (atr_point _ _ At) as Pt.
  pose proof (atr_du _ _ At) as Hdu. pose proof (atr_shapes _ _ At) as [_ Hsh']. clear At.
  apply dp5_attempt_inv in E as (s1 & Hs & [(D & _)|(_ & Herr & Hrej)]); [discriminate|].
  pose proof (ready_error _ _ Hr Hs) as Er.
  apply compute_stages_inv in Hs as (_&Sp&Spt&Sdt&_&Ssol&_).
  assert (i_opts s1 = i_opts s) as O1 by apply Sp.
  assert (i_t s1 = i_t s) as T1 by apply Spt.
  assert (1 < rerr s) as H1.
  { rewrite Er in Herr. rnorm. apply Rleb_false in Herr. lra. }
  split; [exact H1|].
  split. { rewrite (rej_dt _ _ _ Hrej), Er. rewrite reject_size; [|rewrite O1; apply (rd_sane _ Hr)|exact H1].
    now rewrite O1, Sdt. }
  split. { rewrite (rej_rc_iff _ _ _ Hrej), T1, Ssol. rnorm. rewrite (Rabs_right (i_dt s')) by lra.
    replace (/ 2^52) with (/ 4503599627370496) by (f_equal; lra). reflexivity. }
  destruct Pb as (Ed & _ & _ & Ep & _ & _ & Eo). destruct Pt as (Eu & Et & _).
  split; [|auto]. destruct Hr as [R0 R2 R3 R4 R5 R6 R7 R8].
  constructor; unfold fsal in *; rewrite ?Ed, ?Ep, ?Eo, ?Eu, ?Et, ?Hdu; assumption.
Qed.

Lemma rejections_tries k (s sk : state) : rejections k s sk -> ready s ->
  try_error (rF s) (i_opts s) (i_t s) (i_u s) (i_dt sk) <= 1 ->
  ready sk /\ exists tiny, tries (rF s) (i_opts s) (i_t s) (i_u s) (i_dt s) k tiny (i_dt sk) /\
    rc (i_sol sk) = (if tiny then RDtLessThanMin else rc (i_sol s)).
Proof.
  induction 1 as [s|k s s1 s2 Ea Hr2 IH]; intros Hrd Hacc.
  - split; [assumption|]. exists false. split; [constructor; exact Hacc|reflexivity].
  - destruct (ready_rejected _ _ Hrd Ea) as (H1 & Hdt & Hrc & Hrd1 & Ed & Ep & Eo & Et & Eu).
    assert (rF s1 = rF s) as EF by (unfold rF; now rewrite Ed, Ep).
    rewrite EF, Eo, Et, Eu in IH. destruct (IH Hrd1 Hacc) as (Hrd2 & tiny & Ht & Hrc2).
    split; [exact Hrd2|]. exists (Rleb (i_dt s1) (Rabs (i_t s) * / 2^52) || tiny).
    split; [eapply tries_reject; [exact H1|exact Hdt|exact Ht]|].
    rewrite Hrc2, Hrc. destruct (Rleb _ _), tiny; reflexivity.
Qed.

(** ** One step *)
Definition tracks (b : builder RI P) (s : state) (x : pilot) : Prop :=
  good inf b s /\ shows s x /\ facold (i_cache s) = p_mem x /\ 0 <= p_mem x /\
  steps (i_stats s) = p_accepted x.

Lemma clip_ready (b : builder RI P) (s : state) :
  overwrites (b_dudt b) -> b_u b <> [] -> 0 < o_abstol (b_opts b) -> 0 <= o_reltol (b_opts b) ->
  good inf b s -> rc (i_sol s) = RContinue -> ready (dp5_clip s).
Proof.
  intros How Hu0 Ha Hr (Hri & Hrk & Hsh) Hrc.
  pose proof (ri_fwd _ _ _ Hri Hrc) as Hf. pose proof (clip_fwd inf s Hf) as (C1 & _).
  destruct (dp5_clip_frame s) as (Cp & Cpt & Csol & Cst & _ & _ & (cl & Cc)).
  destruct Cp as (Cd & _ & _ & Cpp & _ & _ & Co). destruct Cpt as (Cu & Ct & Cup & _).
  assert (i_dudt s = b_dudt b) as Ed by apply (rki_f _ _ _ Hrk).
  assert (i_opts s = b_opts b) as Eo by apply (ri_opts _ _ _ Hri).
  constructor; rewrite ?Cd, ?Co, ?Cu, ?Ed, ?Eo; try assumption.
  - unfold fsal. rewrite Cd, Cpp, Cu, Ct, Cc. exact (rki_fsal _ _ _ Hrk).
  - rewrite (same_shapes_point s); eauto.
  - rewrite (rki_n _ _ _ Hrk). intros Z. apply Hu0. now apply length_zero_iff_nil.
  - rewrite <- Eo. apply Hf.
Qed.

Lemma clip_near (s : state) : i_tdir s = 1 ->
  i_dt (dp5_clip s) = (if Rltb (i_tfinal s) (i_t s + 101/100 * i_dt s) then i_tfinal s - i_t s else i_dt s) /\
  (last (i_cache s) = false -> last (i_cache (dp5_clip s)) = Rltb (i_tfinal s) (i_t s + 101/100 * i_dt s)).
Proof.
  intros Hd. destruct (dp5_clip_cases s) as [(C & ->)|(C & ->)]; rnorm; rewrite Hd in C.
  - apply Rltb_true in C. assert (Rltb (i_tfinal s) (i_t s + 101/100 * i_dt s) = true) as -> by (apply Rltb_true; lra).
    cbn. auto.
  - apply Rltb_false in C. assert (Rltb (i_tfinal s) (i_t s + 101/100 * i_dt s) = false) as -> by (apply Rltb_false; lra).
    auto.
Qed.

Section Run.
Context (b : builder RI P).
Hypothesis Hso : sane_opts (b_opts b).
Hypothesis How : overwrites (b_dudt b).
Hypothesis Hu0 : b_u b <> [].
Hypothesis Ha : 0 < o_abstol (b_opts b).
Hypothesis Hr : 0 <= o_reltol (b_opts b).
Hypothesis Hinf : o_safe (b_opts b) <= o_facl (b_opts b) * inf.
Notation F := (ode (b_dudt b) (b_params b)).

Lemma tracks_step fuel (s s' : state) r x :
  tracks b s x -> rc (i_sol s) = RContinue -> step alg None fuel s = Ok (s', r) ->
  exists y, pi_step F (b_opts b) (b_tfinal b) x y /\ tracks b s' y.
Proof.
  intros (Hg & (X1 & X2 & X3 & X4 & X5 & X6) & Xm & Xm0 & Xs) Hrc H.
  pose proof (good_step inf b fuel s s' r Hso How Hg Hrc H) as Hg'.
  pose proof (clip_ready b s How Hu0 Ha Hr Hg Hrc) as Hrd.
  pose proof Hg as (Hri & Hrk & Hsh). pose proof (ri_fwd _ _ _ Hri Hrc) as Hf.
  pose proof (ri_tdir _ _ _ Hri) as Hd. pose proof (clip_near s Hd) as (Cdt & Clast).
  unfold step in H. apply bind_ok in H as (s1' & H & E). cbn [run_callback] in E.
  injection E as E _. subst s1'. cbn [alg_step DormandPrince5 Cache] in H.
  pose proof (dp5_step_rk inf fuel s s' ltac:(rewrite (rki_f _ _ _ Hrk); exact How) (rki_fsal _ _ _ Hrk) H)
    as (_ & Q2 & Q3 & _).
  apply dp5_step_inv in H as (k & sk & sa & Hk' & Hrs & Ha' & E).
  destruct (dp5_clip_frame s) as (Cp & Cpt & Csol & Cst & _ & _ & (cl & Cc)).
  pose proof (rejections_many _ _ _ Hrs) as Hrm.
  pose proof (rm_problem _ _ _ Hrm) as Rp. pose proof (rm_point _ _ _ Hrm) as Rpt.
  pose proof (rm_last _ _ _ Hrm) as Rl. pose proof (rm_zero _ _ _ Hrm) as Rz. pose proof (rm_reject _ _ _ Hrm) as Rj.
  pose proof (rm_facold _ _ _ Hrm) as Rfo. pose proof (rm_steps _ _ _ Hrm) as Rst.
  pose proof (rm_accepts _ _ _ Hrm) as Rac. pose proof (rm_rejects _ _ _ Hrm) as Rre.
  pose proof (rm_du _ _ _ Hrm) as Rdu. pose proof (rm_shapes _ _ _ Hrm (rd_shapes _ Hrd)) as Rsh. clear Hrm.
  assert (i_opts (dp5_clip s) = b_opts b) as Co by (destruct Cp as (_&_&_&_&_&_&->); apply (ri_opts _ _ _ Hri)).
  assert (i_t (dp5_clip s) = i_t s) as Ct by apply Cpt.
  assert (i_u (dp5_clip s) = i_u s) as Cu by apply Cpt.
  assert (i_dudt (dp5_clip s) = b_dudt b) as Cd by (destruct Cp as (->&_); apply (rki_f _ _ _ Hrk)).
  assert (i_params (dp5_clip s) = b_params b) as Cpp by (destruct Cp as (_&_&_&->&_); apply (rki_p _ _ _ Hrk)).
  assert (i_opts sk = b_opts b) as Ok0 by (destruct Rp as (_&_&_&_&_&_&->); exact Co).
  assert (i_t sk = i_t s) as Tk by (destruct Rpt as (_&->&_); exact Ct).
  assert (i_u sk = i_u s) as Uk by (destruct Rpt as (->&_); exact Cu).
  assert (i_tdir sk = 1) as Dk.
  { destruct Rp as (_&_&_&_&->&_&_). destruct Cp as (_&_&_&_&->&_&_). exact Hd. }
  assert (rF (dp5_clip s) = F) as EF by (unfold rF; now rewrite Cd, Cpp).
  assert (0 < i_dt sk) as Dpos.
  { apply (rejections_dt inf k (dp5_clip s) sk (rd_sane _ Hrd) Hrs (rd_dt _ Hrd)). }
  assert (ready sk) as Hrdk.
  { destruct Hrd as [R0 R2 R3 R4 R5 R6 R7 R8]. destruct Rp as (Pd&_&_&Pp&_&_&Po). destruct Rpt as (Pu&Pt&_).
    constructor; unfold fsal in *; rewrite ?Pd, ?Pp, ?Po, ?Pu, ?Pt, ?Rdu; assumption. }
  apply dp5_attempt_inv in Ha' as (s1 & Hs & [(_ & Herr & Hacc)|(D & _)]); [|discriminate].
  pose proof (ready_error _ _ Hrdk Hs) as Er.
  assert (rerr sk = try_error F (b_opts b) (i_t s) (i_u s) (i_dt sk)) as Er'.
  { unfold rerr. rewrite Ok0, Tk, Uk. f_equal. unfold rF. destruct Rp as (->&_&_&->&_). now rewrite Cd, Cpp. }
  assert (rerr sk <= 1) as Hle by (rewrite Er in Herr; rnorm; apply Rleb_true in Herr; lra).
  destruct (rejections_tries k _ _ Hrs Hrd) as (_ & tiny & Htr & Hrck).
  { rewrite EF, Co, Ct, Cu, <- Er'. exact Hle. }
  rewrite EF, Co, Ct, Cu, Cdt in Htr. rewrite Csol, Hrc in Hrck.
  apply compute_stages_inv in Hs as (_&Sp&Spt&Sdt&_&Ssol&Sst&_&_&_&Srj&Sl&Sfo&_).
  pose proof (dp5_finish_frame sa) as (Fp&Fu&Ft&Fdt&_&_&Fdp&Fc&_&Fst&_&_&Frc).
  destruct Hacc as [Ap _ _ At _ Adt Adp Asol Ast _ _ _ Al Afo _ _ _ _ _ _ _ _ _ _ _].
  assert (i_opts s1 = b_opts b) as O1 by (destruct Sp as (_&_&_&_&_&_&->); exact Ok0).
  assert (i_tdir s1 = 1) as D1 by (destruct Sp as (_&_&_&_&->&_&_); exact Dk).
  assert (facold (i_cache s1) = p_mem x) as Fo1 by (rewrite Sfo, Rfo, Cc; exact Xm).
  assert (i_opts sa = b_opts b) as Oa by (destruct Ap as (_&_&_&_&_&_&->); exact O1).
  assert (i_dtprev s' = i_dt sk) as Edp by (subst s'; now rewrite Fdp, Adp, Sdt).
  assert (reject (i_cache s1) = negb (k =? 0)%nat) as Ej.
  { rewrite Srj. destruct k as [|k]; [|now apply Rj]. rewrite (Rz eq_refl), Cc. cbn. apply Hf. }
  assert (last (i_cache s1) = near_end (b_tfinal b) x && (k =? 0)%nat) as El.
  { rewrite Sl. destruct k as [|k].
    - rewrite (Rz eq_refl), Clast by apply Hf. unfold near_end. rewrite <- X1, <- X3, (ri_tfinal _ _ _ Hri), andb_true_r. reflexivity.
    - rewrite (Rl ltac:(discriminate)), andb_false_r. reflexivity. }
  rewrite (ri_tfinal _ _ _ Hri), X1, X2, X3 in Htr.
  eexists. split.
  { exists k, tiny, (i_dt sk). split; [exact Htr|]. reflexivity. }
  rewrite X1, X2 in Er'.
  split; [exact Hg'|]. split.
  { unfold shows; cbn [p_t p_u p_h p_accepted p_rejected p_code].
    split; [rewrite Q2, Edp, X1; reflexivity|].
    split; [rewrite Q3, Edp, X1, X2, (rki_f _ _ _ Hrk), (rki_p _ _ _ Hrk); reflexivity|].
    split.
    { subst s'. rewrite Fdt, Adt, Er, <- Er'.
      rewrite accept_size; rewrite ?O1, ?Fo1, ?Sdt; try assumption; [|apply rerr_nonneg].
      now rewrite Ej. }
    subst s'. rewrite Fst, Ast. cbn. rewrite Sst. cbn. rewrite Rac, Rre, Cst.
    split; [now rewrite X4|]. split.
    { rewrite X4, X5. destruct (p_accepted x); cbn; lia. }
    rewrite Frc, Al, El. destruct (near_end _ _ && _); [reflexivity|].
    rewrite Oa, Ast. cbn. rewrite Sst. cbn. rewrite Rst, Cst, Xs, Asol, Ssol, Hrck. reflexivity. }
  cbn [p_mem p_accepted]. subst s'. rewrite Fc, Afo, Er, Er'. split; [rnorm; reflexivity|].
  split; [eapply Rle_trans; [|apply Rmax_r]; lra|].
  rewrite Fst, Ast. cbn. rewrite Sst. cbn. now rewrite Rst, Cst, Xs.
Qed.

Lemma tracks_build (s : state) : 0 < b_dt b -> b_t b < b_tfinal b -> build alg b = Ok s ->
  tracks b s (pilot_start (b_t b) (b_u b) (b_dt b)) /\ rc (i_sol s) = RContinue.
Proof.
  intros Hdt Ht H. destruct (good_build inf b s Hso Hdt Ht H) as (Hg & Hrc). split; [|exact Hrc].
  split; [exact Hg|].
  apply dp5_build_inv in H as (?&?&?&?&Eu&Et&Edt&?&?&?&?&?&Eo&Est&Esol&Etr&?&?&Efo&?&?&Hsh).
  unfold shows, pilot_start. cbn [p_t p_u p_h p_accepted p_rejected p_code p_mem].
  rewrite Est, Esol, Efo. repeat split; try assumption; rnorm; lra.
Qed.

Lemma tracks_continues fuel k (s s' : state) : continues alg None fuel k s s' ->
  forall j x0 x, pi_run F (b_opts b) (b_tfinal b) j x0 x -> tracks b s x -> rc (i_sol s) = RContinue ->
  exists y, pi_run F (b_opts b) (b_tfinal b) (j + k) x0 y /\ tracks b s' y /\ rc (i_sol s') = RContinue.
Proof.
  induction 1 as [s|k s s1 n s2 Hs Hc IH]; intros j x0 x Hx Ht Hrc.
  - rewrite Nat.add_0_r. eauto.
  - destruct (tracks_step fuel s s1 _ x Ht Hrc Hs) as (y & Hy & Hty).
    assert (rc (i_sol s1) = RContinue) as Hrc1.
    { unfold step in Hs. apply bind_ok in Hs as (s3 & _ & E). injection E as E1 E2. subst s1.
      unfold retcode_eqb in E2. destruct (rc _); try discriminate; reflexivity. }
    destruct (IH (S j) x0 y) as (z & Hz & Htz); [|assumption|assumption|].
    + eapply pi_run_S; [exact Hx| |exact Hy]. destruct Ht as (_ & (_&_&_&_&_&Q) & _). congruence.
    + exists z. now rewrite Nat.add_succ_r.
Qed.

Theorem dp5_reference fuel k (s0 s : state) :
  0 < b_dt b -> b_t b < b_tfinal b ->
  build alg b = Ok s0 -> reached alg None fuel k s0 s ->
  exists x, pi_run F (b_opts b) (b_tfinal b) k (pilot_start (b_t b) (b_u b) (b_dt b)) x /\ shows s x.
Proof.
  intros Hdt Ht Hb Hre. destruct (tracks_build s0 Hdt Ht Hb) as (Hk & Hrc).
  destruct Hre as [s|k s0 s1 s2 r Hc Hs].
  - exists (pilot_start (b_t b) (b_u b) (b_dt b)). split; [constructor|apply Hk].
  - destruct (tracks_continues fuel k _ _ Hc 0 _ _ (pi_run_0 _ _ _ _) Hk Hrc) as (y & Hy & Hty & Hrc1).
    destruct (tracks_step fuel s1 s2 r y Hty Hrc1 Hs) as (z & Hz & Htz).
    exists z. split; [|apply Htz]. eapply pi_run_S; [exact Hy| |exact Hz].
    destruct Hty as (_ & (_&_&_&_&_&Q) & _). congruence.
Qed.

(** ** Conversely *)
Hypothesis Hms : o_max_stiff (b_opts b) <> 0%nat.

Lemma tries_rejections t u h n tiny h' : tries F (b_opts b) t u h n tiny h' ->
  forall s : state, ready s -> i_dudt s = b_dudt b -> i_params s = b_params b -> i_opts s = b_opts b ->
  i_t s = t -> i_u s = u -> i_dt s = h ->
  exists sk sa, rejections n s sk /\ dp5_attempt sk = Ok (sa, true).
Proof.
  induction 1 as [h He|h h1 n tiny h' He Eh Ht IH]; intros s Hrd Ed Ep Eo Et Eu Edt.
  - destruct (dp5_attempt_no_panic s (rd_shapes _ Hrd) ltac:(now rewrite Eo)) as (s' & d & E).
    destruct d; [exists s, s'; split; [constructor|exact E]|exfalso].
    destruct (ready_rejected _ _ Hrd E) as (H1 & _). unfold rerr, rF in H1.
    rewrite Ed, Ep, Eo, Et, Eu, Edt in H1. lra.
  - destruct (dp5_attempt_no_panic s (rd_shapes _ Hrd) ltac:(now rewrite Eo)) as (s' & d & E).
    assert (rerr s = try_error F (b_opts b) t u h) as Er by (unfold rerr, rF; now rewrite Ed, Ep, Eo, Et, Eu, Edt).
    destruct d.
    + exfalso. apply dp5_attempt_inv in E as (s1 & Hs & [(_ & Herr & _)|(D & _)]); [|discriminate].
      rewrite (ready_error _ _ Hrd Hs), Er in Herr. rnorm. apply Rleb_true in Herr. lra.
    + destruct (ready_rejected _ _ Hrd E) as (_ & Hdt & _ & Hrd' & Ed' & Ep' & Eo' & Et' & Eu').
      assert (i_dt s' = h1) as Hdt' by (rewrite Hdt, Eo, Er, Edt; symmetry; exact Eh).
      destruct (IH s' Hrd') as (sk & sa & Hrs & Hat); [congruence..|].
      exists sk, sa. split; [econstructor; eassumption|exact Hat].
Qed.

Lemma pi_step_returns (s : state) x y : tracks b s x -> rc (i_sol s) = RContinue ->
  pi_step F (b_opts b) (b_tfinal b) x y ->
  exists fuel s' r, step alg None fuel s = Ok (s', r).
Proof.
  intros (Hg & (X1 & X2 & X3 & X4 & X5 & X6) & _) Hrc (n & tiny & h & Htr & _).
  pose proof (clip_ready b s How Hu0 Ha Hr Hg Hrc) as Hrd. pose proof Hg as (Hri & Hrk & Hsh).
  pose proof (clip_near s (ri_tdir _ _ _ Hri)) as (Cdt & _).
  destruct (dp5_clip_frame s) as (Cp & Cpt & _).
  destruct (tries_rejections _ _ _ _ _ _ Htr (dp5_clip s) Hrd) as (sk & sa & Hrs & Hat).
  - destruct Cp as (->&_). apply (rki_f _ _ _ Hrk).
  - destruct Cp as (_&_&_&->&_). apply (rki_p _ _ _ Hrk).
  - destruct Cp as (_&_&_&_&_&_&->). apply (ri_opts _ _ _ Hri).
  - destruct Cpt as (_&->&_). exact X1.
  - destruct Cpt as (->&_). exact X2.
  - rewrite Cdt. unfold near_end. now rewrite X1, X3, (ri_tfinal _ _ _ Hri).
  - exists (S n). unfold step. cbn [alg_step DormandPrince5 Cache].
    assert (dp5_step (S n) s = Ok (dp5_finish sa)) as ->.
    { apply dp5_step_inv. exists n, sk, sa. split; [lia|auto]. }
    cbn [bind run_callback]. eauto.
Qed.

Lemma tries_det t u h n tiny h' : tries F (b_opts b) t u h n tiny h' ->
  forall n2 tiny2 h2, tries F (b_opts b) t u h n2 tiny2 h2 -> n2 = n /\ tiny2 = tiny /\ h2 = h'.
Proof.
  induction 1 as [h He|h h1 n tiny h' He Eh Ht IH]; intros n2 tiny2 h2 H2;
    inversion H2 as [? He2|? h12 m tiny3 ? He2 Eh2 Ht2]; subst; try lra; auto.
  destruct (IH _ _ _ Ht2) as (-> & -> & ->). auto.
Qed.
Lemma pi_step_det x y z : pi_step F (b_opts b) (b_tfinal b) x y -> pi_step F (b_opts b) (b_tfinal b) x z -> y = z.
Proof.
  intros (n & tiny & h & H1 & ->) (n2 & tiny2 & h2 & H2 & ->).
  destruct (tries_det _ _ _ _ _ _ H1 _ _ _ H2) as (-> & -> & ->). reflexivity.
Qed.

Theorem dp5_reference_complete k (s0 : state) x :
  0 < b_dt b -> b_t b < b_tfinal b -> build alg b = Ok s0 ->
  pi_run F (b_opts b) (b_tfinal b) k (pilot_start (b_t b) (b_u b) (b_dt b)) x ->
  exists fuel s, reached alg None fuel k s0 s /\ shows s x.
Proof.
  intros Hdt Ht Hb Hx. destruct (tracks_build s0 Hdt Ht Hb) as (Hk & Hrc).
  assert (exists fuel s, reached alg None fuel k s0 s /\ tracks b s x /\
            (rc (i_sol s) = RContinue -> continues alg None fuel k s0 s)) as (fuel & s & H1 & H2 & _).
  { remember (pilot_start (b_t b) (b_u b) (b_dt b)) as x0 eqn:E0. revert E0.
    induction Hx as [x|k x y z Hy IH Hcy Hz]; intros E0.
    - subst x. exists 0%nat, s0. split; [constructor|]. split; [exact Hk|]. intros _. constructor.
    - subst x. destruct (IH Hk eq_refl) as (fuel & s & Hre & Hty & Hco).
      assert (rc (i_sol s) = RContinue) as Hrcs by (destruct Hty as (_ & (_&_&_&_&_&Q) & _); exact (eq_trans Q Hcy)).
      destruct (pi_step_returns s y z Hty Hrcs Hz) as (fuel2 & s' & r & Hs).
      destruct (tracks_step fuel2 s s' r y Hty Hrcs Hs) as (z' & Hz' & Htz).
      rewrite (pi_step_det _ _ _ Hz Hz').
      pose proof (continues_fuel_mono inf fuel (Nat.max fuel fuel2) k s0 s ltac:(lia) (Hco Hrcs)) as Hc2.
      pose proof (step_fuel_mono inf fuel2 (Nat.max fuel fuel2) s s' r ltac:(lia) Hs) as Hs2.
      exists (Nat.max fuel fuel2), s'. split; [econstructor; eassumption|]. split; [exact Htz|].
      intros Hrc'. unfold step in Hs2. apply bind_ok in Hs2 as (s3 & E3 & E). injection E as E1 E2. subst s'.
      eapply continues_snoc; [exact Hc2|]. unfold step. rewrite E3. cbn [bind run_callback Cache DormandPrince5] in *. rewrite Hrc'. reflexivity. }
  exists fuel, s. split; [exact H1|apply H2].
Qed.
End Run.
End DP5Ref.
