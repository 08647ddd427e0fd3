(** Lemmas in the exact form of PropDP5R.v. *)
From Coq Require Import ZArith List Bool Lia Reals Lra Sorted.
From RecordUpdate Require Import RecordSet.
From Verif Require Import Arith Vec Core Driver VecFacts DP5 DP5Facts Spec SpecRK SpecODE RKFacts DP5Inv
  ArithR DP5R DP5Time DP5RK DP5Num DP5Term.
Import ListNotations RecordSetNotations.
Local Open Scope R_scope.

Section Forms.
Context {P : Type} (inf : R).
Notation RI := (RA inf).
Notation state := (integ RI P (dp5_cache RI)).
Notation alg := (@DormandPrince5 RI P).

(** ** C11, C12: the step-size controller *)
Lemma rejections_dt_low k (s s' : state) :
  sane_opts (i_opts s) -> rejections k s s' -> 0 < i_dt s ->
  i_dt s * o_facl (i_opts s) ^ k <= i_dt s'.
Proof.
  intros Hso H. revert Hso. induction H as [s|k s s1 s2 Ha Hr IH]; intros Hso Hdt.
  - simpl. lra.
  - pose proof (dp5_attempt_rejected _ _ Ha) as At.
    pose proof (atr_problem _ _ At) as Pb.
    assert (i_opts s1 = i_opts s) as Ho by apply Pb. clear Pb At.
    apply dp5_attempt_inv in Ha as (s0 & Hs & [(D & _)|(_ & Herr & Hrej)]); [discriminate|].
    apply compute_stages_inv in Hs as (_&Hp&_&Hdt0&_).
    rnorm. apply Rleb_false in Herr.
    assert (i_opts s0 = i_opts s) as Ho0 by apply Hp.
    destruct (reject_ratio inf (dp5_error s0) s0) as (rho & Hrho & Erho); [now rewrite Ho0| lra |].
    rewrite (rej_dt _ _ _ Hrej) in IH. rewrite Erho, Hdt0, Ho, Ho0 in *.
    pose proof (so_facl _ Hso) as Hfl.
    eapply Rle_trans; [|apply IH; [exact Hso|apply Rmult_lt_0_compat; lra]].
    cbn [pow]. rewrite <- Rmult_assoc. apply Rmult_le_compat_r; [apply pow_le; lra|].
    apply Rmult_le_compat_l; lra.
Qed.

Lemma clip_trial (s : state) : i_tdir s = 1 -> i_dt (dp5_clip s) = trial_step s.
Proof.
  intros Hd. unfold trial_step.
  destruct (dp5_clip_cases s) as [(C & ->)|(C & ->)]; rnorm; rewrite Hd in C.
  - apply Rltb_true in C. destruct (Rlt_dec _ _); [reflexivity|lra].
  - apply Rltb_false in C. destruct (Rlt_dec _ _); [lra|reflexivity].
Qed.

Lemma step_alg (s s' : state) fuel r : step alg None fuel s = Ok (s', r) -> dp5_step fuel s = Ok s'.
Proof.
  intros H. unfold step in H. apply bind_ok in H as (s1 & H & E). cbn [run_callback] in E.
  injection E as E _. subst s1. exact H.
Qed.

Lemma dp5_shrink (b : builder RI P) fuel k0 (s0 s s' : state) r :
  sane_opts (b_opts b) -> 0 < b_dt b -> b_t b < b_tfinal b ->
  build alg b = Ok s0 -> reached alg None fuel k0 s0 s -> rc (i_sol s) = RContinue ->
  step alg None fuel s = Ok (s', r) ->
  exists k, function_evals (i_stats s') = (function_evals (i_stats s) + 6 * (k + 1))%nat /\
    trial_step s * o_facl (b_opts b) ^ k <= i_dtprev s'
      <= trial_step s * Rmax (o_safe (b_opts b)) (o_facl (b_opts b)) ^ k.
Proof.
  intros Hso Hdt Ht Hb Hre Hrc H.
  pose proof (dp5_run inf b fuel k0 s0 s Hso Hdt Ht Hb Hre) as [].
  specialize (ri_fwd Hrc). apply step_alg in H.
  pose proof (clip_fwd inf s ri_fwd) as (C1 & _).
  rewrite (clip_trial s) in C1 by assumption.
  apply dp5_step_inv in H as (k & sk & sa & Hk & Hrs & Ha & E).
  destruct (dp5_clip_frame s) as (Cp & Cpt & _ & _ & _ & Cs & _).
  assert (i_opts (dp5_clip s) = b_opts b) as Co by (rewrite <- ri_opts; apply Cp).
  assert (i_dt (dp5_clip s) = trial_step s) as Ec by now apply clip_trial.
  pose proof (rejections_dt inf k _ _ ltac:(now rewrite Co) Hrs ltac:(now rewrite Ec)) as (R1 & R2).
  pose proof (rejections_dt_low k _ _ ltac:(now rewrite Co) Hrs ltac:(now rewrite Ec)) as R3.
  apply rejections_many in Hrs.
  apply dp5_attempt_inv in Ha as (s1 & Hs & [(_ & Herr & Hacc)|(D & _)]); [|discriminate].
  apply compute_stages_inv in Hs as (_&_&_&Sdt&_&_&Sst&_).
  pose proof (dp5_finish_frame sa) as (_&_&_&_&_&_&Fdtp&_&_&Fst).
  exists k. subst s'. rewrite Fdtp, (acc_dtprev _ _ _ Hacc), Sdt. rewrite Co, Ec in *.
  split; [|split; assumption]. clear R1 R2 R3 Hk.
  destruct Fst as (Fst & _). rewrite Fst, (acc_stats _ _ _ Hacc), Sst.
  cbn [set accepts steps function_evals etaStats]. rewrite (rm_evals _ _ _ Hrs).
  destruct (dp5_clip_frame s) as (_ & _ & _ & Cs' & _). rewrite Cs'. cbn. lia.
Qed.

Lemma dp5_growth (b : builder RI P) fuel k0 (s0 s s' : state) r :
  sane_opts (b_opts b) -> o_facl (b_opts b) <= o_facr (b_opts b) ->
  0 < b_dt b -> b_t b < b_tfinal b ->
  build alg b = Ok s0 -> reached alg None fuel k0 s0 s -> rc (i_sol s) = RContinue ->
  step alg None fuel s = Ok (s', r) ->
  Rmin (o_facl (b_opts b) * i_dtprev s') (o_dtmax (b_opts b)) <= i_dt s'
    <= Rmin (o_facr (b_opts b) * i_dtprev s') (o_dtmax (b_opts b)).
Proof.
  intros Hso Hlr Hdt Ht Hb Hre Hrc H.
  pose proof (dp5_run inf b fuel k0 s0 s Hso Hdt Ht Hb Hre) as [].
  specialize (ri_fwd Hrc). apply step_alg in H.
  pose proof (clip_fwd inf s ri_fwd) as (C1 & _).
  apply dp5_step_inv in H as (k & sk & sa & Hk & Hrs & Ha & E).
  destruct (dp5_clip_frame s) as (Cp & _).
  assert (i_opts (dp5_clip s) = b_opts b) as Co by (rewrite <- ri_opts; apply Cp).
  pose proof (rejections_dt inf k _ _ ltac:(now rewrite Co) Hrs C1) as (R1 & _).
  apply rejections_many in Hrs. pose proof (rm_problem _ _ _ Hrs) as Rp.
  apply dp5_attempt_inv in Ha as (s1 & Hs & [(_ & Herr & Hacc)|(D & _)]); [|discriminate].
  apply compute_stages_inv in Hs as (_&Sp&_&Sdt&_).
  pose proof (dp5_finish_frame sa) as (_&_&_&Fdt&_&_&Fdtp&_).
  assert (i_opts s1 = b_opts b) as E2.
  { destruct Sp as (_&_&_&_&_&_&->). destruct Rp as (_&_&_&_&_&_&->). exact Co. }
  assert (i_tdir s1 = 1) as E3.
  { destruct Sp as (_&_&_&_&->&_&_). destruct Rp as (_&_&_&_&->&_&_).
    destruct Cp as (_&_&_&_&->&_&_). assumption. }
  subst s'. rewrite Fdt, Fdtp, (acc_dtprev _ _ _ Hacc), (acc_dt _ _ _ Hacc). rewrite <- Sdt in R1.
  clear Hk Hacc Rp Sp Cp C1 Hrs.
  pose proof (fac_range inf (dp5_error s1) s1 ltac:(now rewrite E2)) as [Hf1 Hf2].
  pose proof (accept_dt inf (dp5_error s1) s1 ltac:(now rewrite E2) E3 R1) as [_ _].
  unfold dtnew_accept. rnorm. rewrite E2, E3 in *.
  destruct Hso as [Hs Hl Hr _ _ Hm].
  assert (0 < / o_facr (b_opts b)) by (apply Rinv_0_lt_compat; lra).
  rewrite (Rmax_right (/ o_facr (b_opts b))) in Hf2 by (apply Rinv_le_contravar; lra).
  rewrite rdiv_ok by lra.
  set (fac := dp5_fac (dp5_error s1) s1) in *. clearbody fac.
  set (d := i_dt s1) in *. clearbody d.
  assert (o_facl (b_opts b) * d <= d / fac <= o_facr (b_opts b) * d) as Hq.
  { assert (o_facl (b_opts b) <= / fac).
    { rewrite <- (Rinv_inv (o_facl (b_opts b))). apply Rinv_le_contravar; lra. }
    assert (/ fac <= o_facr (b_opts b)).
    { rewrite <- (Rinv_inv (o_facr (b_opts b))). apply Rinv_le_contravar; lra. }
    unfold Rdiv. split; nra. }
  assert (0 < d / fac) as Hpos by (apply Rdiv_lt_0_compat; lra).
  set (q := d / fac) in *. clearbody q.
  set (fl := o_facl (b_opts b)) in *. set (fr := o_facr (b_opts b)) in *.
  assert (fl * d <= d) by nra.
  set (dm := o_dtmax (b_opts b)) in *. clearbody dm.
  rewrite (Rabs_right q) by lra. rewrite (Rabs_right d) by lra.
  assert (forall x, Rmin (fl * d) dm <= x <= Rmin (fr * d) dm ->
     forall c : bool, Rmin (fl * d) dm <= (if c then 1 * Rmin (Rabs x) d else x) <= Rmin (fr * d) dm) as Hx.
  { intros x0 Hx c. assert (0 < x0).
    { eapply Rlt_le_trans; [|apply Hx]. apply Rmin_glb_lt; [nra|lra]. }
    rewrite (Rabs_right x0) by lra. destruct c; [|assumption]. rewrite Rmult_1_l. split.
    - apply Rmin_glb; [lra|]. eapply Rle_trans; [apply Rmin_l|assumption].
    - eapply Rle_trans; [apply Rmin_l|]. lra. }
  apply Hx. destruct (Rltb dm q) eqn:E.
  - apply Rltb_true in E. rewrite Rmult_1_l. split; [apply Rmin_r|]. apply Rmin_glb; lra.
  - apply Rltb_false in E. split; [eapply Rle_trans; [apply Rmin_l|lra]|]. apply Rmin_glb; lra.
Qed.

(** The limits documented in src/ode/options.rs:24-27 are violated by every
    accepted step when [facl > 1/facr] (as in the defaults), unless [dtmax]
    intervenes. *)
Lemma dp5_documented_limits (b : builder RI P) fuel k0 (s0 s s' : state) r :
  sane_opts (b_opts b) -> o_facl (b_opts b) <= o_facr (b_opts b) ->
  / o_facr (b_opts b) < o_facl (b_opts b) ->
  0 < b_dt b -> b_t b < b_tfinal b ->
  build alg b = Ok s0 -> reached alg None fuel k0 s0 s -> rc (i_sol s) = RContinue ->
  step alg None fuel s = Ok (s', r) -> i_dtprev s' / o_facr (b_opts b) < o_dtmax (b_opts b) ->
  0 < i_dtprev s' /\ i_dtprev s' / o_facr (b_opts b) < i_dt s'.
Proof.
  intros Hso Hlr Hdoc Hdt Ht Hb Hre Hrc H Hm.
  pose proof (dp5_growth b fuel k0 s0 s s' r Hso Hlr Hdt Ht Hb Hre Hrc H) as [G _].
  pose proof (dp5_run inf b fuel k0 s0 s Hso Hdt Ht Hb Hre) as []. specialize (ri_fwd Hrc).
  apply step_alg in H. pose proof (fwd_step_of inf _ _ _ ri_fwd H) as [_ Hp _ _ _].
  split; [apply Hp|]. eapply Rlt_le_trans; [|exact G]. apply Rmin_glb_lt; [|assumption].
  unfold Rdiv. rewrite Rmult_comm. apply Rmult_lt_compat_r; [apply Hp|assumption].
Qed.

(** ** Times *)
Lemma dp5_times (b : builder RI P) fuel k (s0 s : state) :
  sane_opts (b_opts b) -> 0 < b_dt b -> b_t b < b_tfinal b ->
  build alg b = Ok s0 -> reached alg None fuel k s0 s ->
  StronglySorted Rlt (ts (i_sol s)) /\ Forall (fun t => b_t b <= t <= b_tfinal b) (ts (i_sol s)).
Proof.
  intros Hso Hdt Ht Hb Hr. pose proof (dp5_run inf b fuel k s0 s Hso Hdt Ht Hb Hr) as [].
  split; [assumption|]. eapply Forall_impl; [|exact ri_range]. cbn. intros. lra.
Qed.
Lemma dp5_success (b : builder RI P) fuel k (s0 s : state) :
  sane_opts (b_opts b) -> 0 < b_dt b -> b_t b < b_tfinal b ->
  build alg b = Ok s0 -> reached alg None fuel k s0 s -> rc (i_sol s) = RSuccess ->
  i_t s = b_tfinal b /\ last_opt (ts (i_sol s)) = Some (b_tfinal b).
Proof.
  intros Hso Hdt Ht Hb Hr Hs. pose proof (dp5_run inf b fuel k s0 s Hso Hdt Ht Hb Hr) as [].
  specialize (ri_rc Hs). split; [assumption|]. destruct ri_snoc as (l & ->). rewrite ri_rc. apply last_opt_snoc.
Qed.
Lemma dp5_dtmax (b : builder RI P) fuel k (s0 s : state) :
  sane_opts (b_opts b) -> 0 < b_dt b -> b_t b < b_tfinal b ->
  build alg b = Ok s0 -> reached alg None fuel k s0 s ->
  Forall (fun g => g < 101/100 * o_dtmax (b_opts b)) (tl (gaps (ts (i_sol s)))) /\
  (forall g, hd_error (gaps (ts (i_sol s))) = Some g -> g < 101/100 * b_dt b).
Proof.
  intros Hso Hdt Ht Hb Hr. pose proof (dp5_run inf b fuel k s0 s Hso Hdt Ht Hb Hr) as [].
  destruct ri_gaps as (g0 & gs & [(E & _)|(E & _)] & G0 & Gs); rewrite E; cbn.
  - split; [constructor|discriminate].
  - split; [assumption|]. intros g Eg. injection Eg as <-. assumption.
Qed.
Lemma dp5_span (b : builder RI P) fuel k (s0 s : state) :
  sane_opts (b_opts b) -> 0 < b_dt b -> b_t b < b_tfinal b ->
  build alg b = Ok s0 -> reached alg None fuel k s0 s ->
  Forall (fun e => b_t b <= ev_time e <= b_tfinal b) (i_trace s).
Proof.
  intros Hso Hdt Ht Hb Hr. pose proof (dp5_run inf b fuel k s0 s Hso Hdt Ht Hb Hr) as []. assumption.
Qed.

(** ** C15: backward integration *)
Lemma dp5_backward (b : builder RI P) fuel (s0 s : state) r :
  sane_opts (b_opts b) -> 0 < b_dt b -> b_tfinal b < b_t b ->
  build alg b = Ok s0 -> step alg None fuel s0 = Ok (s, r) ->
  exists t1, ts (i_sol s) = [b_t b; t1] /\ b_t b < t1.
Proof.
  intros Hso Hdt Ht Hb H. apply step_alg in H.
  pose proof (dp5_step_effect_of _ _ _ H) as Ef.
  pose proof (se_ts _ _ Ef) as Ets. pose proof (se_t _ _ Ef) as Et. clear Ef.
  apply dp5_build_inv in Hb as (?&?&?&?&Eu&Ebt&Edt&?&?&?&Edir&Etf&Eo&Est&Esol&Etr&?&?&?&?&?&Hsh).
  exists (i_t s). rewrite Ets, Esol. split; [reflexivity|]. rewrite Et, Ebt.
  apply dp5_step_inv in H as (k & sk & sa & Hk & Hrs & Ha & E).
  assert (dp5_clip s0 = s0) as Ec.
  { destruct (dp5_clip_cases s0) as [(C & _)|(_ & C)]; [|exact C]. exfalso.
    rewrite Edir, Ebt, Edt, Etf in C. rnorm. apply Rltb_true in C.
    unfold rcopysign in C. destruct (Rlt_dec _ _) as [_|Hn]; [|lra].
    replace (1/1) with 1 in C by lra. rewrite Rabs_R1 in C. lra. }
  rewrite Ec in Hrs.
  pose proof (rejections_dt inf k _ _ ltac:(now rewrite Eo) Hrs ltac:(now rewrite Edt)) as (R1 & _).
  apply dp5_attempt_inv in Ha as (s1 & Hs & [(_ & Herr & Hacc)|(D & _)]); [|discriminate].
  apply compute_stages_inv in Hs as (_&_&_&Sdt&_).
  pose proof (dp5_finish_frame sa) as (_&_&_&_&_&_&Fdtp&_).
  subst s. rewrite Fdtp, (acc_dtprev _ _ _ Hacc), Sdt. rnorm. lra.
Qed.

(** ** C17 *)
Lemma dp5_every_point (b : builder RI P) fuel k (s0 s : state) :
  overwrites (b_dudt b) -> b_u b <> [] -> 0 < o_abstol (b_opts b) -> 0 <= o_reltol (b_opts b) ->
  build alg b = Ok s0 -> steps_n alg None fuel k s0 = Ok s ->
  hd_error (points s) = Some (b_t b, b_u b) /\
  linked (error_test (b_dudt b) (b_params b) (o_abstol (b_opts b)) (o_reltol (b_opts b))) (points s).
Proof.
  intros Ho Hn Ha Hr Hb H. destruct (points_head inf b fuel k s0 s Hb H) as (l & El).
  destruct (dp5_rk inf b fuel k s0 s Ho Hb H). split; [now rewrite El|auto].
Qed.

(** ** C21: a callback that replaces [u] *)
Definition stale (b : builder RI P) (s : state) : Prop :=
  i_dudt s = b_dudt b /\ i_params s = b_params b /\
  exists l ul, us (i_sol s) = l ++ [ul] /\ du (i_cache s) = ode (b_dudt b) (b_params b) (i_t s) ul.

Lemma stale_step (b : builder RI P) (g : state -> list R) fuel (s s' : state) r :
  overwrites (b_dudt b) -> stale b s ->
  step alg (Some (fun s : state => s <| i_u := (g s : vec RI) |>)) fuel s = Ok (s', r) ->
  stale b s' /\
  exists ul un h, last_opt (us (i_sol s)) = Some ul /\ last_opt (us (i_sol s')) = Some un /\
    i_t s' = i_t s + h /\
    un = combine_stages (i_u s) h dopri_b
           (slopes (ode (b_dudt b) (b_params b)) (i_t s) (i_u s) h (tl dopri_rows)
              [ode (b_dudt b) (b_params b) (i_t s) ul]).
Proof.
  intros Ho (Hf & Hp & l & ul & Hl & Hdu) H.
  unfold step in H. apply bind_ok in H as (s1 & H & E).
  injection E as E _. cbn [alg_step DormandPrince5 Cache] in *.
  assert (i_t s' = i_t s1) as Et by (subst s'; reflexivity).
  assert (us (i_sol s') = us (i_sol s1)) as Eus by (subst s'; reflexivity).
  assert (du (i_cache s') = du (i_cache s1)) as Edu by (subst s'; reflexivity).
  assert (i_dudt s' = i_dudt s1) as Ef by (subst s'; reflexivity).
  assert (i_params s' = i_params s1) as Ep by (subst s'; reflexivity).
  clear E.
  pose proof (dp5_step_from inf fuel s s1 ltac:(now rewrite Hf) H) as (Q1 & Q2 & Q3).
  pose proof (dp5_step_effect_of _ _ _ H) as Eff.
  pose proof (se_us _ _ Eff) as Q4. pose proof (se_problem _ _ Eff) as (Pf&_&_&Pp&_). clear Eff.
  split.
  - split; [congruence|]. split; [congruence|].
    exists (us (i_sol s)), (i_u s1). split; [congruence|].
    rewrite Edu, Et. unfold fsal in Q1. rewrite Q1, Pf, Pp, Hf, Hp. reflexivity.
  - exists ul, (i_u s1), (i_dtprev s1). split; [rewrite Hl; apply last_opt_snoc|].
    split; [rewrite Eus, Q4; apply last_opt_snoc|]. split; [rewrite Et; exact Q2|].
    rewrite Q3, Hf, Hp, Hdu. reflexivity.
Qed.

Lemma dp5_callback_stale (b : builder RI P) (g : state -> list R) fuel k (s0 s s' : state) r :
  let cb := Some (fun s : state => s <| i_u := (g s : vec RI) |>) in
  let F := ode (b_dudt b) (b_params b) in
  overwrites (b_dudt b) ->
  build alg b = Ok s0 -> steps_n alg cb fuel k s0 = Ok s -> step alg cb fuel s = Ok (s', r) ->
  exists u_recorded u_next h,
    last_opt (us (i_sol s)) = Some u_recorded /\ last_opt (us (i_sol s')) = Some u_next /\
    i_t s' = i_t s + h /\
    u_next = combine_stages (i_u s) h dopri_b
      (slopes F (i_t s) (i_u s) h (tl dopri_rows) [F (i_t s) u_recorded]).
Proof.
  intros cb F Ho Hb Hs H.
  assert (stale b s) as Hst.
  { refine (dp5_invariant (stale b) cb fuel k s0 s _ _ Hs).
    - intros a a' r' Ha Hst. eapply stale_step; eassumption.
    - apply dp5_build_inv in Hb as (?&?&?&?&Eu&Ebt&?&?&?&?&?&?&?&?&Esol&?&?&?&?&Edu&?&?).
      cbn [Cache DormandPrince5] in *. split; [assumption|]. split; [assumption|]. exists [], (b_u b). rewrite Esol. split; [reflexivity|].
      rewrite Edu, Ebt. reflexivity. }
  exact (proj2 (stale_step b g fuel s s' r Ho Hst H)).
Qed.

End Forms.
