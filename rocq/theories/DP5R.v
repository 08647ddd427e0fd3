(** DormandPrince5 in exact arithmetic: step-size control and time. *)
From Coq Require Import ZArith List Bool Lia Reals Lra.
From RecordUpdate Require Import RecordSet.
From Verif Require Import Arith Vec Core Driver VecFacts DP5 DP5Facts Spec DP5Inv ArithR SpecODE.
Import ListNotations RecordSetNotations.
Local Open Scope R_scope.

Lemma rpower_beta b : 0 < b -> b * b * b <= 1/5 * (1/5) * (1/5) * (1/5) -> Rpower b (75/100) <= 2/10.
Proof.
  intros Hb H.
  assert (b*b*b = Rpower b 3) as E.
  { replace 3 with (INR 3) by (simpl; lra). rewrite Rpower_pow by assumption. simpl. ring. }
  assert (Rpower (b*b*b) (1/4) <= Rpower (1/5 * (1/5) * (1/5) * (1/5)) (1/4)) as L.
  { apply Rle_Rpower_l; [lra|]. split; [|assumption]. repeat apply Rmult_lt_0_compat; assumption. }
  rewrite E in L. rewrite Rpower_mult in L. replace (3 * (1/4)) with (75/100) in L by lra.
  replace (1/5 * (1/5) * (1/5) * (1/5)) with (Rpower (1/5) 4) in L.
  2:{ replace 4 with (INR 4) at 1 by (simpl; lra). rewrite Rpower_pow by lra. simpl. lra. }
  rewrite Rpower_mult in L. replace (4 * (1/4)) with 1 in L by lra.
  rewrite Rpower_1 in L by lra. lra.
Qed.

Section DP5R.
Context {P : Type} (inf : R).
Notation RI := (RA inf).
Notation state := (integ RI P (dp5_cache RI)).
Notation alg := (@DormandPrince5 RI P).

Lemma expo1_nonneg (s : state) : sane_opts (i_opts s) -> 0 <= dp5_expo1 s.
Proof.
  intros [_ _ _ Hb Hb3 _]. unfold dp5_expo1. rnorm.
  unfold rpow. destruct (Rlt_dec 0 (o_beta (i_opts s))) as [H|H].
  - apply rpower_beta in Hb3; [|assumption]. rnorm. lra.
  - destruct (Req_EM_T (o_beta (i_opts s)) 0); [|lra].
    destruct (Rlt_dec 0 (75/100)); lra.
Qed.

Lemma rpower_ge_1 x y : 1 < x -> 0 <= y -> 1 <= Rpower x y.
Proof.
  intros Hx Hy. destruct Hy as [Hy|<-]; [|rewrite Rpower_O by lra; lra].
  left. unfold Rpower. rewrite <- exp_0. apply exp_increasing.
  apply Rmult_lt_0_compat; [assumption|]. rewrite <- ln_1. apply ln_increasing; lra.
Qed.

(** Shrink factor of a rejected attempt. *)
Lemma reject_ratio (err : num RI) (s : state) :
  sane_opts (i_opts s) -> 1 < err ->
  exists rho, o_facl (i_opts s) <= rho <= Rmax (o_safe (i_opts s)) (o_facl (i_opts s)) /\
    dtnew_reject err s = i_dt s * rho.
Proof.
  intros Hso Herr. pose proof (expo1_nonneg s Hso) as He.
  destruct Hso as [Hs Hl Hr _ _ _].
  unfold dtnew_reject, dp5_fac1, dp5_fac11. rnorm.
  set (e := dp5_expo1 s) in *. clearbody e.
  set (fl := o_facl (i_opts s)) in *. set (sf := o_safe (i_opts s)) in *.
  rewrite rpow_pos by lra. set (p := Rpower err e).
  assert (1 <= p) as Hp by (apply rpower_ge_1; assumption). clearbody p.
  rewrite (rdiv_ok inf _ fl) by lra. rewrite (rdiv_ok inf _ sf) by lra.
  assert (1/1/fl = /fl) as -> by (field; lra).
  assert (/ sf <= p / sf) as Hp2.
  { unfold Rdiv. rewrite <- (Rmult_1_l (/ sf)) at 1. apply Rmult_le_compat_r; [|assumption].
    left. apply Rinv_0_lt_compat; lra. }
  set (q := p / sf) in *. clearbody q.
  assert (0 < / fl) by (apply Rinv_0_lt_compat; lra).
  assert (0 < / sf) by (apply Rinv_0_lt_compat; lra).
  exists (/ Rmin (/ fl) q).
  unfold Rmin. destruct (Rle_dec (/fl) q) as [H1|H1].
  - rewrite Rinv_inv. rewrite rdiv_ok by lra. repeat split; [lra|apply Rmax_r|].
    field. lra.
  - rewrite rdiv_ok by lra. repeat split.
    + rewrite <- (Rinv_inv fl). apply Rinv_le_contravar; lra.
    + apply Rle_trans with sf; [|apply Rmax_l]. rewrite <- (Rinv_inv sf). apply Rinv_le_contravar; lra.
Qed.

(** Growth/shrink factor of an accepted attempt, before the [dtmax] limit. *)
Lemma fac_range (err : num RI) (s : state) :
  sane_opts (i_opts s) ->
  / o_facr (i_opts s) <= dp5_fac err s <= Rmax (/ o_facr (i_opts s)) (/ o_facl (i_opts s)).
Proof.
  intros [Hs Hl Hr _ _ _]. unfold dp5_fac, dp5_fac2, dp5_fac1. rnorm.
  rewrite (rdiv_ok inf _ (o_facl (i_opts s))) by lra. rewrite (rdiv_ok inf _ (o_facr (i_opts s))) by lra.
  assert (1/1/o_facl (i_opts s) = / o_facl (i_opts s)) as -> by (field; lra).
  assert (1/1/o_facr (i_opts s) = / o_facr (i_opts s)) as -> by (field; lra).
  match goal with |- context [Rmin _ ?x] => set (y := x) end. clearbody y.
  split; [apply Rmax_l|]. apply Rmax_case_strong; intros; [apply Rmax_l|].
  apply Rle_trans with (/ o_facl (i_opts s)); [apply Rmin_l|apply Rmax_r].
Qed.

Lemma accept_dt (err : num RI) (s : state) :
  sane_opts (i_opts s) -> i_tdir s = 1 -> 0 < i_dt s ->
  0 < dtnew_accept err s <= o_dtmax (i_opts s) /\
  (reject (i_cache s) = true -> dtnew_accept err s <= i_dt s).
Proof.
  intros Hso Hd Hdt. pose proof (fac_range err s Hso) as [Hf _].
  destruct Hso as [Hs Hl Hr _ _ Hm]. unfold dtnew_accept. rnorm. rewrite Hd.
  assert (0 < / o_facr (i_opts s)) by (apply Rinv_0_lt_compat; lra).
  rewrite rdiv_ok by lra.
  assert (0 < i_dt s / dp5_fac err s) as Hq by (apply Rdiv_lt_0_compat; lra).
  set (q := i_dt s / dp5_fac err s) in *. clearbody q.
  rewrite (Rabs_right q) by lra. rewrite (Rabs_right (i_dt s)) by lra.
  set (d := if Rltb (o_dtmax (i_opts s)) q then 1 * o_dtmax (i_opts s) else q).
  assert (0 < d <= o_dtmax (i_opts s)) as Hd2.
  { subst d. destruct (Rltb _ q) eqn:E; [lra|]. apply Rltb_false in E. lra. }
  clearbody d. rewrite (Rabs_right d) by lra.
  destruct (reject (i_cache s)).
  - unfold Rmin. destruct (Rle_dec d (i_dt s)); split; intros; try split; lra.
  - split; [lra|discriminate].
Qed.

(** ** One retry loop, forward in time *)
Definition qmax (o : opts RI) : R := Rmax (o_safe o) (o_facl o).
Lemma qmax_range o : sane_opts o -> 0 < qmax o < 1.
Proof.
  intros [Hs Hl _ _ _ _]. unfold qmax. unfold Rmax. destruct (Rle_dec _ _); lra.
Qed.

Lemma rejections_dt k (s s' : state) :
  sane_opts (i_opts s) -> rejections k s s' -> 0 < i_dt s ->
  0 < i_dt s' /\ i_dt s' <= i_dt s * qmax (i_opts s) ^ k.
Proof.
  intros Hso H. revert Hso. induction H as [s|k s s1 s2 Ha Hr IH]; intros Hso Hdt.
  - simpl. lra.
  - pose proof (dp5_attempt_rejected _ _ Ha) as At.
    pose proof (atr_problem _ _ At) as Pb.
    assert (i_opts s1 = i_opts s) as Ho by apply Pb. clear Pb At.
    apply dp5_attempt_inv in Ha as (s0 & Hs & [(D & _)|(_ & Herr & Hrej)]); [discriminate|].
    apply compute_stages_inv in Hs as (_&Hp&_&Hdt0&_).
    rnorm. apply Rleb_false in Herr.
    assert (i_opts s0 = i_opts s) as Ho0 by apply Hp.
    destruct (reject_ratio (dp5_error s0) s0) as (rho & Hrho & Erho); [now rewrite Ho0| lra |].
    rewrite (rej_dt _ _ _ Hrej) in IH. rewrite Erho, Hdt0, Ho, Ho0 in *.
    fold (qmax (i_opts s)) in Hrho. pose proof (qmax_range _ Hso) as Hq.
    pose proof (so_facl _ Hso) as Hfl.
    destruct (IH Hso) as [I1 I2].
    { apply Rmult_lt_0_compat; lra. }
    split; [assumption|]. eapply Rle_trans; [exact I2|]. simpl.
    rewrite <- Rmult_assoc. apply Rmult_le_compat_r; [apply pow_le; lra|].
    apply Rmult_le_compat_l; lra.
Qed.

(** ** The time invariant while a forward run goes on *)
Definition fwd (s : state) : Prop :=
  sane_opts (i_opts s) /\ i_tdir s = 1 /\ 0 < i_dt s /\ i_t s < i_tfinal s /\
  last (i_cache s) = false /\ reject (i_cache s) = false.

Lemma clip_fwd (s : state) : fwd s ->
  0 < i_dt (dp5_clip s) /\ i_dt (dp5_clip s) < 101/100 * i_dt s /\
  ((last (i_cache (dp5_clip s)) = true /\ i_t s + i_dt (dp5_clip s) = i_tfinal s) \/
   (last (i_cache (dp5_clip s)) = false /\ i_t s + i_dt (dp5_clip s) < i_tfinal s)).
Proof.
  intros (Hso & Hd & Hdt & Ht & Hl & Hr).
  destruct (dp5_clip_cases s) as [(C & ->)|(C & ->)]; rnorm; rewrite Hd in C.
  - apply Rltb_true in C. cbn. split; [lra|]. split; [lra|]. left. split; [reflexivity|lra].
  - apply Rltb_false in C. split; [lra|]. split; [lra|]. right. split; [assumption|lra].
Qed.

(** A [step()] of a forward run. *)
Record fwd_step (s s' : state) : Prop := {
  fs_t : i_t s < i_t s' <= i_tfinal s;
  fs_dtprev : 0 < i_dtprev s' < 101/100 * i_dt s;
  fs_dtmax : 0 < i_dt s' <= o_dtmax (i_opts s);
  fs_last : last (i_cache s') = true <-> i_t s' = i_tfinal s;
  fs_reject : reject (i_cache s') = false }.

Lemma fwd_step_of fuel (s s' : state) : fwd s -> dp5_step fuel s = Ok s' -> fwd_step s s'.
Proof.
  intros Hf H. pose proof (clip_fwd s Hf) as (C1 & C2 & C3). destruct Hf as (Hso & Hd & Hdt & Ht & Hl & Hr).
  apply dp5_step_inv in H as (k & sk & sa & Hk & Hrs & Ha & E).
  destruct (dp5_clip_frame s) as (Cp & Cpt & _ & _ & _ & _ & _).
  assert (i_opts (dp5_clip s) = i_opts s) as Co by apply Cp.
  pose proof (rejections_dt k _ _ ltac:(now rewrite Co) Hrs C1) as (R1 & R2).
  apply rejections_many in Hrs.
  pose proof (rm_problem _ _ _ Hrs) as Rp. pose proof (rm_point _ _ _ Hrs) as Rpt.
  pose proof (rm_last _ _ _ Hrs) as Rl. pose proof (rm_zero _ _ _ Hrs) as Rz.
  apply dp5_attempt_inv in Ha as (s1 & Hs & [(_ & Herr & Hacc)|(D & _)]); [|discriminate].
  apply compute_stages_inv in Hs as (_&Sp&Spt&Sdt&_&_&_&_&_&_&_&Sl&_).
  pose proof (dp5_finish_frame sa) as (Fp&Fu&Ft&Fdt&Fup&Ftp&Fdtp&Fc&_).
  destruct Hacc as [Ap _ _ At Atp Adt Adtp _ _ _ _ Arj Al _ _ _ _ _ _ _ _ _ _ _ _].
  assert (i_t s1 = i_t s) as E1.
  { destruct Spt as (_&->&_). destruct Rpt as (_&->&_). destruct Cpt as (_&->&_). reflexivity. }
  assert (i_opts s1 = i_opts s) as E2.
  { destruct Sp as (_&_&_&_&_&_&->). destruct Rp as (_&_&_&_&_&_&->). exact Co. }
  assert (i_tdir s1 = 1) as E3.
  { destruct Sp as (_&_&_&_&->&_&_). destruct Rp as (_&_&_&_&->&_&_).
    destruct Cp as (_&_&_&_&->&_&_). assumption. }
  pose proof (accept_dt (dp5_error s1) s1 ltac:(now rewrite E2) E3 ltac:(now rewrite Sdt)) as (A1 & A2).
  rewrite Sdt in *. rewrite E2 in *.
  subst s'. clear Hk. rnorm.
  pose proof (qmax_range _ Hso) as Hq. rewrite Co in R2.
  assert (k = 0%nat /\ i_dt sk = i_dt (dp5_clip s) \/ k <> 0%nat /\ i_dt sk < i_dt (dp5_clip s)) as Hk.
  { destruct k as [|k]; [left; now rewrite (Rz eq_refl)|right]. split; [discriminate|].
    eapply Rle_lt_trans; [exact R2|]. rewrite <- (Rmult_1_r (i_dt (dp5_clip s))) at 2.
    apply Rmult_lt_compat_l; [assumption|]. simpl.
    apply Rle_lt_trans with (qmax (i_opts s) * 1); [|lra].
    apply Rmult_le_compat_l; [lra|]. rewrite <- (pow1 k). apply pow_incr. lra. }
  constructor.
  - rewrite Ft, At, E1. destruct Hk as [(?&?)|(?&?)], C3 as [(?&?)|(?&?)]; lra.
  - rewrite Fdtp, Adtp. destruct Hk as [(?&?)|(?&?)]; lra.
  - rewrite Fdt, Adt. lra.
  - rewrite Fc, Al, Sl, Ft, At, E1. destruct Hk as [(Kz&Kd)|(Kn&Kd)].
    + rewrite (Rz Kz). destruct C3 as [(L&T)|(L&T)]; rewrite L; split; intros; try lra; try discriminate; reflexivity.
    + rewrite (Rl Kn). destruct C3 as [(L&T)|(L&T)]; split; intros; try lra; discriminate.
  - rewrite Fc. assumption.
Qed.

End DP5R.
