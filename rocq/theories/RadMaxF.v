(** Forward Radau5 runs in binary64: [dtmax] bounds the steps. *)
From Coq Require Import ZArith List Bool Lia Reals Lra Psatz.
From RecordUpdate Require Import RecordSet.
From Flocq Require Import Core BinarySingleNaN Plus_error Relative.
From Verif Require Import Arith Vec Core Spec Jacobian Linalg Driver VecFacts DP5Facts DP5Inv LinFacts LinFactsC
  Radau RadauFacts RadauStep RadauInv RadauHist RadauKeep ArithF FFacts FMono FOrder FReduce FStrict SpecF64 SpecF64R DP5Mono RadauMono
  DP5MaxF DP5RatioF RadRatioF RadShrinkF.
Import ListNotations RecordSetNotations.
Local Open Scope R_scope.
Local Existing Instance prec_gt_0_53.
Local Existing Instance prec_lt_emax_53.

(** ** Rounding to nearest *)
Lemma rnd_nearest (g : f64) x : Rabs (rnd64 x - x) <= Rabs (B2R g - x).
Proof.
  pose proof (round_N_pt radix2 (SpecFloat.fexp 53 1024) (fun x => negb (Z.even x)) x) as (_ & H).
  apply H. apply f_format.
Qed.
(** The relative error of a sum. *)
Lemma rnd_sum (x y : f64) : Rabs (rnd64 (B2R x + B2R y) - (B2R x + B2R y)) <= bpow radix2 (-53) * Rabs (B2R x + B2R y).
Proof.
  destruct (FLT_plus_error_N_ex radix2 (-1074) 53 (fun x => negb (Z.even x)) (B2R x) (B2R y) (f_format x) (f_format y)) as (e & He & E).
  change (rnd64 (B2R x + B2R y) = (B2R x + B2R y) * (1 + e)) in E. rewrite E.
  replace ((B2R x + B2R y) * (1 + e) - (B2R x + B2R y)) with (e * (B2R x + B2R y)) by ring.
  rewrite Rabs_mult. apply Rmult_le_compat_r; [apply Rabs_pos|]. apply Rle_trans with (1 := He).
  apply Rle_trans with (1 := u_rod1pu_ro_le_u_ro radix2 53). unfold u_ro. cbn. lra.
Qed.

(** Reaching a time [tf] with a rounded sum. *)
Lemma reach_rnd (t y tf : f64) : is_finite t = true -> is_finite y = true -> is_finite tf = true -> 0 <= B2R y ->
  fleb tf (fadd t y) = true -> B2R tf <= rnd64 (B2R t + B2R y).
Proof.
  intros Ft Fy Ff Py H. pose proof (Bplus_correct 53 1024 _ _ mode_NE t y Ft Fy) as M.
  change (round_mode mode_NE) with (Znearest (fun x => negb (Z.even x))) in M. fold (fadd t y) in M.
  destruct (Rlt_bool_spec (Rabs (rnd64 (B2R t + B2R y))) (bpow radix2 1024)) as [Hlt|Hge].
  - destruct M as (M1 & M2 & _).
    apply fleb_R in H; try assumption. rewrite M1 in H. exact H.
  - pose proof (f_lt_emax tf). pose proof (f_gt_emax t).
    assert (B2R t <= rnd64 (B2R t + B2R y)) by (apply rnd_ge_f; lra).
    apply Rle_trans with (bpow radix2 1024); [lra|].
    unfold Rabs in Hge. destruct (Rcase_abs _); lra.
Qed.
(** A time that a step size reaches up to rounding is not much further away,
    unless the distance is a rounding error of the time. *)
Definition visible (t d : f64) : Prop := Rabs (B2R t) * bpow radix2 (-52) <= 101/1000 * B2R d.
Lemma reach_near (t y tf : f64) : is_finite t = true -> is_finite y = true -> is_finite tf = true -> 0 <= B2R y ->
  B2R t <= B2R tf -> is_finite (fsub tf t) = true -> visible t (fsub tf t) -> fleb tf (fadd t y) = true -> B2R (fsub tf t) <= 1055/1000 * B2R y.
Proof.
  intros Ft Fy Ff Py Hle Fs Hv H. apply reach_rnd in H; try assumption. unfold visible in Hv.
  assert (B2R (fsub tf t) = rnd64 (B2R tf - B2R t)) as Eh by now apply fsub_R.
  destruct (Rle_or_lt (B2R tf) (B2R t + B2R y)) as [Hr|Hr].
  { rewrite Eh. apply Rle_trans with (B2R y); [apply rnd_le_f; lra|lra]. }
  pose proof (rnd_sum t y) as N. apply Rabs_le_inv in N.
  pose proof (Rabs_triang (B2R t) (B2R y)) as T. rewrite (Rabs_pos_eq _ Py) in T.
  assert (exists nt : f64, B2R nt = - B2R t) as (nt & Ent) by (exists (Bopp t); apply B2R_Bopp).
  pose proof (rnd_sum tf nt) as N2. rewrite Ent in N2. replace (B2R tf + - B2R t) with (B2R tf - B2R t) in N2 by ring.
  rewrite <- Eh in N2. apply Rabs_le_inv in N2. rewrite (Rabs_pos_eq (B2R tf - B2R t)) in N2 by lra.
  assert (bpow radix2 (-52) = 2 * bpow radix2 (-53)) as E2.
  { change 2 with (bpow radix2 1). rewrite <- bpow_plus. reflexivity. }
  rewrite E2 in Hv. clear E2 Eh.
  assert (0 < bpow radix2 (-53) <= 1/1000000) as Hb.
  { split; [apply bpow_gt_0|]. change (bpow radix2 (-53)) with (/ IZR (2 ^ 53)). cbn. lra. }
  set (e := bpow radix2 (-53)) in *. clearbody e. set (h := B2R (fsub tf t)) in *. clearbody h.
  assert (e * Rabs (B2R t + B2R y) <= e * Rabs (B2R t) + e * B2R y) as B1 by nra.
  assert (e * B2R y <= 1/1000000 * B2R y) as B2 by nra.
  assert (e * (B2R tf - B2R t) <= 1/1000000 * (B2R tf - B2R t)) as B3 by nra.
  lra.
Qed.
Lemma visible_of (t d : f64) : is_finite t = true -> fnn d ->
  fleb (fmul (f_lit 1 10) (fabs d)) (fmul (fabs t) feps) = false -> visible t d.
Proof.
  intros Ft (Fd & Pd) H.
  assert (is_finite (f_lit 1 10) = true /\ 0 <= B2R (f_lit 1 10) <= 101/1000) as (F10 & P10).
  { assert (B2SF (f_lit 1 10) = SpecFloat.S754_finite false 7205759403792794 (-56)) as E by (vm_compute; reflexivity).
    destruct (lit_R _ _ _ _ _ E) as (H1 & H2). split; [assumption|]. rewrite H2. unfold F2R. cbn. lra. }
  destruct feps_R as (Fe & Ee).
  destruct (fabs_R d Fd) as (Fad & Ead). destruct (fabs_R t Ft) as (Fat & Eat).
  rewrite (Rabs_pos_eq _ Pd) in Ead.
  assert (bpow radix2 (-52) <= 1) as B1 by (cbn; lra). pose proof (bpow_gt_0 radix2 (-52)) as B0.
  destruct (fmul_small_l (f_lit 1 10) (fabs d)) as (F1 & E1); try assumption; [lra|lra|].
  destruct (fmul_small (fabs t) feps) as (F2 & E2); try assumption; [rewrite Eat; apply Rabs_pos|lra|].
  unfold visible. destruct (Rle_or_lt (Rabs (B2R t) * bpow radix2 (-52)) (101/1000 * B2R d)) as [|Hlt]; [assumption|]. exfalso.
  assert (B2R (fmul (f_lit 1 10) (fabs d)) <= B2R (fmul (fabs t) feps)) as Hle.
  { rewrite E1, E2, Ead, Eat, Ee. apply rnd_le. nra. }
  apply fleb_R in Hle; try assumption. congruence.
Qed.
Lemma lit_10001_10000 : is_finite (f_lit 10001 10000) = true /\ 1 <= B2R (f_lit 10001 10000) <= 100011/100000.
Proof.
  assert (B2SF (f_lit 10001 10000) = SpecFloat.S754_finite false 4504049987333233 (-52)) as E by (vm_compute; reflexivity).
  destruct (lit_R _ _ _ _ _ E) as (H1 & H2). split; [assumption|]. rewrite H2. unfold F2R. cbn. lra.
Qed.

(** A step cut to the rest of the span. *)
Lemma cut_near (t tf d : f64) : is_finite t = true -> is_finite tf = true -> fnn d ->
  B2R t <= B2R tf -> is_finite (fsub tf t) = true -> visible t (fsub tf t) ->
  fleb fzero (fsub (fadd t (fmul d (f_lit 10001 10000))) (fmul tf (f_of_Z 1))) = true ->
  B2R (fsub tf t) <= 106/100 * B2R d.
Proof.
  intros Ft Ff (Fd & Pd) Hle Fs Hv H. destruct lit_10001_10000 as (L1 & L2).
  assert (fleb tf (fadd t (fmul d (f_lit 10001 10000))) = true) as H'.
  { apply sub_not_neg; [assumption|]. rewrite (fmul_1_r tf) in H by assumption.
    apply fge_0 in H as [E|(F & Q)]; [rewrite E; reflexivity|]. rewrite fmul_1_r by assumption. apply fge_0. right. auto. }
  clear H. set (q := f_lit 10001 10000) in *. clearbody q.
  pose proof (rnd_nearest d (B2R d * B2R q)) as N. apply Rabs_le_inv in N.
  replace (Rabs (B2R d - B2R d * B2R q)) with (B2R d * B2R q - B2R d) in N by (rewrite Rabs_left1; nra).
  assert (rnd64 (B2R d * B2R q) <= 100025/100000 * B2R d) as Ny by nra.
  pose proof (Bmult_correct 53 1024 _ _ mode_NE d q) as M.
  change (round_mode mode_NE) with (Znearest (fun x => negb (Z.even x))) in M. fold (fmul d q) in M.
  assert (0 <= rnd64 (B2R d * B2R q)) as Py by (apply rnd_ge_0; nra).
  destruct (Rlt_bool_spec (Rabs (rnd64 (B2R d * B2R q))) (bpow radix2 1024)) as [Hlt|Hge].
  - destruct M as (M1 & M2 & _).
    assert (B2R (fmul d q) = rnd64 (B2R d * B2R q)) as M1' by exact M1.
    rewrite Fd, L1 in M2. apply reach_near in H'; try assumption; rewrite ?M1'; try assumption. rewrite M1' in H'. lra.
  - rewrite (Rabs_pos_eq _ Py) in Hge. pose proof (f_lt_emax (fsub tf t)). lra.
Qed.
(** A quotient grows with the dividend. *)
Lemma fdiv_mono (d m q : f64) : is_finite d = true -> is_finite m = true -> 0 <= B2R d <= B2R m -> 0 < B2R q -> is_finite (fdiv m q) = true ->
  is_finite (fdiv d q) = true /\ 0 <= B2R (fdiv d q) <= B2R (fdiv m q).
Proof.
  intros Fd Fm Hdm Pq Fq.
  pose proof (Bdiv_correct 53 1024 _ _ mode_NE m q ltac:(lra)) as M. change (round_mode mode_NE) with (Znearest (fun x => negb (Z.even x))) in M.
  fold (fdiv m q) in M.
  pose proof (Bdiv_correct 53 1024 _ _ mode_NE d q ltac:(lra)) as D. change (round_mode mode_NE) with (Znearest (fun x => negb (Z.even x))) in D.
  fold (fdiv d q) in D.
  assert (0 < / B2R q) as Pi by now apply Rinv_0_lt_compat.
  assert (rnd64 (B2R d / B2R q) <= rnd64 (B2R m / B2R q)) as Hle by (apply rnd_le; unfold Rdiv; apply Rmult_le_compat_r; lra).
  assert (0 <= rnd64 (B2R d / B2R q)) as P0 by (apply rnd_ge_0; unfold Rdiv; apply Rmult_le_pos; lra).
  destruct (Rlt_bool_spec (Rabs (rnd64 (B2R m / B2R q))) (bpow radix2 1024)) as [Hlt|Hge].
  - destruct M as (M1 & _).
    rewrite Rlt_bool_true in D.
    + destruct D as (D1 & D2 & _). split; [congruence|]. rewrite M1, D1. split; assumption.
    + change (Rabs (rnd64 (B2R d / B2R q)) < bpow radix2 1024). rewrite Rabs_pos_eq in * by lra. lra.
  - exfalso. destruct (fdiv m q); discriminate.
Qed.

Section RadMax.
Context (fpowf : f64 -> f64 -> f64) (fpowi : f64 -> Z -> f64) {P : Type}.
Notation A := (F64 fpowf fpowi).
Notation state := (integ A P (radau_cache A)).
Notation alg := (@Radau5 A P).

Lemma next_max (s : state) : radau_f64_sane (i_opts s) -> i_tdir s = f_of_Z 1 -> fnn (i_dt s) ->
  fleb (RadauStep.next_dt s) (o_dtmax (i_opts s)) = true.
Proof.
  intros So Hd Hn. pose proof (proposed_ge _ _ s So Hn) as H0.
  assert (fge 0 (o_dtmax (i_opts s))) as Hm by (apply fge_0; apply So).
  unfold RadauStep.next_dt, limited_dt. rewrite Hd. change (mul A) with fmul. change (nmin A) with fmin. change (nabs A) with fabs.
  set (p := proposed_dt s) in *. clearbody p. change (num A) with f64 in *. set (m := o_dtmax (i_opts s)) in *. clearbody m.
  assert (fge 0 (fabs p)) as Gp by now apply fabs_ge.
  assert (fge 0 (fmin (fabs p) m)) as Gm by now apply fmin_ge0.
  assert (fge 0 (fmul (f_of_Z 1) (fmin (fabs p) m))) as G1 by now apply fmul_one_l.
  assert (fleb (fmul (f_of_Z 1) (fmin (fabs p) m)) m = true) as D2.
  { apply (fle_trans0 _ (fmin (fabs p) m)); [assumption|now apply fmul_1_l_le|now apply fmin_le_r]. }
  set (d1 := fmul (f_of_Z 1) (fmin (fabs p) m)) in *. clearbody d1.
  destruct (reject (i_cache s)); [|assumption].
  assert (fge 0 (i_dt s)) as Gd by (right; exact Hn).
  assert (fge 0 (fabs d1)) as Gd1 by now apply fabs_ge.
  assert (fge 0 (fabs (i_dt s))) as G2 by now apply fabs_ge.
  assert (fge 0 (fmin (fabs d1) (fabs (i_dt s)))) as G3 by now apply fmin_ge0.
  assert (fge 0 (fmul (f_of_Z 1) (fmin (fabs d1) (fabs (i_dt s))))) as G4 by now apply fmul_one_l.
  apply (fle_trans0 _ d1); [assumption| |assumption].
  apply (fle_trans0 _ (fmin (fabs d1) (fabs (i_dt s)))); [assumption|now apply fmul_1_l_le|].
  apply (fle_trans0 _ (fabs d1)); [assumption|now apply fmin_le_l|now apply fabs_id].
Qed.

(** The next step size is at most [m], or both it and the rest of the span are
    within the bound, or it is the rest of the span, which is within the bound
    if it is visible. *)
Definition within_at (m q t tf d : f64) : Prop :=
  B2R d <= B2R m \/ (B2R d <= 106/100 * B2R q /\ B2R (fsub tf t) <= 106/100 * B2R q) \/
  (d = fsub tf t /\ (visible t d -> B2R d <= 106/100 * B2R q)).
Definition within (m q : f64) (s : state) : Prop :=
  fnn (i_dt s) /\ within_at m q (i_t s) (i_tfinal s) (i_dt s).

Lemma step_max_r fuel (m q : f64) (s s' : state) : rready _ _ s -> radau_step fuel s = Ok s' ->
  is_finite m = true -> fle (o_dtmax (i_opts s)) m -> fltb fzero (o_quot1 (i_opts s)) = true -> is_finite (o_quot1 (i_opts s) : f64) = true ->
  q = fdiv m (o_quot1 (i_opts s)) -> is_finite q = true -> B2R m <= B2R q -> within m q s ->
  rc (i_sol s) = RContinue ->
  quiet s s' /\ ends fpowf fpowi s s' \/
  exists h : f64, fnn h /\ B2R h <= 106/100 * B2R q /\ i_t s' = fadd (i_t s) h /\ ts (i_sol s') = ts (i_sol s) ++ [i_t s'] /\
    (is_finite (i_t s' : f64) = true -> B2R (i_t s' : f64) <= B2R (i_tfinal s : f64) -> rc (i_sol s') = RContinue -> within m q s').
Proof.
  intros Rd H Fm Hm Pq1 Fq1 Eq Fq Hmq (Wn & W) Hc.
  pose proof (clip_aims _ _ s Rd) as (Hn & _). destruct Rd as [So Sc Hd Ft Ff Hle Fs Hr Hdt].
  assert (0 <= B2R q) as Pq.
  { destruct (Rle_or_lt 0 (B2R m)) as [Pm|Pm]; [lra|]. exfalso.
    assert (fge 0 (o_dtmax (i_opts s))) as G by (apply fge_0; apply So).
    apply fle_cases in Hm as [E|(_ & _ & Hm)]; [|lra|assumption]. rewrite E in Fm. discriminate. }
  unfold radau_step in H.
  assert (within_at m q (i_t s) (i_tfinal s) (i_dt (radau_clip s))) as K.
  { unfold radau_clip. destruct (leb A _ _) eqn:E; [|exact W].
    change (within_at m q (i_t s) (i_tfinal s) (fsub (i_tfinal s) (i_t s))). right.
    destruct W as [W|[(_ & W)|(W1 & W2)]].
    - right. split; [reflexivity|]. intros Hv. rewrite Hd in E.
      pose proof (cut_near (i_t s) (i_tfinal s) (i_dt s) Ft Ff Wn Hle Fs Hv E) as C. lra.
    - left. split; exact W.
    - right. split; [reflexivity|]. rewrite <- W1. exact W2. }
  destruct (radau_clip_frame s) as (Cq & _ & Csol & _ & _ & Cc & _). cbv zeta in *.
  assert (reject (i_cache (radau_clip s)) = false) as Cr by (rewrite Cc; exact Hr).
  assert (cfac (i_cache (radau_clip s)) = cfac (i_cache s)) as Ccf by (rewrite Cc; reflexivity).
  revert H Hn K Cq Csol Cr Ccf. generalize (radau_clip s) as sc. clear Hdt Cc. intros.
  destruct (q_prob _ _ Cq) as (_&_&_&_&Cd&Cf&Co).
  apply radau_loop_f in H; [|now rewrite Co|now rewrite Ccf|exact Hn|intros _; exact Cr].
  destruct H as [(Hq & Hrc)|(s1 & Ht & Htn & Ha)].
  { left. split; [eapply quiet_trans; eassumption|]. intros _. apply Hrc. now rewrite Csol. }
  right. exists (i_dt s1).
  pose proof (ftrial_fnn _ _ _ _ Hn Ht) as Hn1. pose proof (ftrial_le _ _ _ _ Hn Ht) as Hl1.
  pose proof (quiet_trans _ _ _ Cq (ft_quiet _ _ _ _ Ht)) as Q1.
  destruct (q_prob _ _ Q1) as (_&_&_&_&Ed&Ef&Eo). destruct (q_point _ _ Q1) as (_&Et&_&_&Ets&_).
  pose proof (ac_t _ _ Ha) as Eat. rewrite Et in Eat. change (add A) with fadd in Eat.
  assert (B2R (i_dt s1 : f64) <= 106/100 * B2R q /\
    (B2R (i_dt s1 : f64) <= B2R m \/ B2R (fsub (i_tfinal s) (i_t s)) <= 106/100 * B2R q)) as (K1 & K2).
  { unfold tiny_dt in Htn. rewrite Et in Htn. apply visible_of in Htn; [|assumption..].
    destruct K as [K|[(K1 & K2)|(K1 & K2)]].
    - split; [|left]; lra.
    - split; [|right]; lra.
    - assert (B2R (i_dt sc : f64) <= 106/100 * B2R q) as Q by (apply K2; unfold visible in *; lra).
      split; [lra|]. right. rewrite <- K1. exact Q. }
  split; [exact Hn1|]. split; [exact K1|]. split; [exact Eat|]. split; [rewrite (ac_ts _ _ Ha), Ets; reflexivity|].
  intros Ft' Hle' Hc'.
  destruct (last (i_cache s1)) eqn:El; [rewrite (ac_rc _ _ Ha), El in Hc'; discriminate|].
  destruct (ac_prob _ _ Ha) as (_&_&_&_&_&Ef'&_). 
  assert (B2R (i_t s : f64) <= B2R (i_t s' : f64)) as Hup.
  { apply fleb_R; [assumption..|]. rewrite Eat. apply fadd_le; [assumption|]. apply fge_0. right. exact Hn1. }
  assert (is_finite (fsub (i_tfinal s) (i_t s')) = true) as Fs' by (apply (span_finite (i_t s)); try assumption; split; assumption).
  assert (B2R (fsub (i_tfinal s) (i_t s')) <= B2R (fsub (i_tfinal s) (i_t s))) as Hrest.
  { rewrite !fsub_R by assumption. apply rnd_le. lra. }
  pose proof (next_max s1 ltac:(now rewrite Eo) ltac:(now rewrite Ed) Hn1) as N. rewrite Eo in N.
  pose proof (next_ge _ _ s1 ltac:(now rewrite Eo) ltac:(now rewrite Ed) Hn1) as N0.
  assert (fnn (RadauStep.next_dt s1) /\ B2R (RadauStep.next_dt s1 : f64) <= B2R m) as (Nn & Nm).
  { pose proof (fle_trans0 _ _ _ N0 N Hm) as N1. apply fle_cases in N1 as [E|(F1 & _ & N1)]; [rewrite E in Fm; discriminate| |assumption].
    split; [split; [assumption|lra]|lra]. }
  destruct (ac_next _ _ Ha El) as (_ & _ & _ & _ & Hend & Hmore). cbv zeta in Hend, Hmore.
  unfold within. rewrite Ef', Ef.
  destruct (leb A n0 _) eqn:Er.
  - destruct (Hend eq_refl) as (E & _). rewrite E, Ef. clear Hend Hmore.
    split; [split; [exact Fs'|]; change (sub A) with fsub; rewrite fsub_R by assumption; apply rnd_ge_0; lra|].
    right. right. split; [reflexivity|]. intros Hv. change (sub A) with fsub in Hv |- *.
    rewrite Ed, Hd, Ef, Eo in Er. apply sub_not_neg in Er; [|assumption].
    apply fltb_fpos in Pq1.
    assert (0 < B2R (o_quot1 (i_opts s) : f64)) as Pq2.
    { destruct Pq1 as [Z|(_ & Z)]; [rewrite Z in Fq1; discriminate|exact Z]. }
    rewrite Eq in Fq. destruct (fdiv_mono _ _ _ (proj1 Nn) Fm (conj (proj2 Nn) Nm) Pq2 Fq) as (D1 & D2).
    apply reach_near in Er; try assumption; [|apply D2]. rewrite <- Eq in D2.
    change (div A (RadauStep.next_dt s1) (o_quot1 (i_opts s))) with (fdiv (RadauStep.next_dt s1) (o_quot1 (i_opts s))) in Er. lra.
  - destruct (Hmore eq_refl) as (_ & [(E & _)|(E & _)]); rewrite E; clear Hend Hmore.
    + split; [exact Hn1|]. destruct K2 as [K2|K2]; [left; exact K2|right; left; split; [exact K1|lra]].
    + split; [exact Nn|left; exact Nm].
Qed.
(** ** Runs *)
Definition gaps_within (q : f64) (l : list f64) : Prop :=
  forall l1 t t' l2, l = l1 ++ t :: t' :: l2 ->
  exists h : f64, fle fzero h /\ B2R h <= 106/100 * B2R q /\ t' = fadd t h.
Definition max_run_r (b : builder A P) (m q : f64) (s : state) : Prop :=
  (r_run _ _ b s /\ i_opts s = radau_opts (b_opts b)) /\ gaps_within q (ts (i_sol s)) /\
  (rc (i_sol s) = RContinue -> within m q s).
Lemma radau_opts_max (o : opts A) : o_dtmax (radau_opts o) = o_dtmax o /\ o_quot1 (radau_opts o) = o_quot1 o.
Proof. unfold radau_opts. destruct (leb A _ _); split; reflexivity. Qed.

(** C16 in binary64. *)
Lemma radau_f64_dtmax (b : builder A P) (m : f64) fuel k (s0 s : state) :
  radau_f64_forward b -> is_finite m = true -> fle (b_dt b) m -> fle (o_dtmax (b_opts b)) m ->
  fltb fzero (o_quot1 (b_opts b)) = true -> fle (o_quot1 (b_opts b)) (f_lit 1 1) -> is_finite (fdiv m (o_quot1 (b_opts b))) = true ->
  build alg b = Ok s0 -> reached alg None fuel k s0 s ->
  forall l1 t t' l2, ts (i_sol s) = l1 ++ t :: t' :: l2 ->
  exists h : f64, fle fzero h /\ B2R h <= 106/100 * B2R (fdiv m (o_quot1 (b_opts b))) /\ t' = fadd t h.
Proof.
  intros Hb Fm Hdm Hmm Pq Hq1 Fq H Hr. destruct (r_run_build _ _ b s0 Hb H) as [Hi Hrc].
  pose proof Hb as (So & F0 & Ff & Hlt & Fs & Hdt).
  destruct (radau_opts_max (b_opts b)) as (Em & Eq). set (q := fdiv m (o_quot1 (b_opts b))) in *.
  destruct f_1 as (F1 & E1).
  assert (is_finite (o_quot1 (b_opts b) : f64) = true /\ 0 < B2R (o_quot1 (b_opts b) : f64) <= 1) as (Fq1 & Pq1).
  { apply fltb_fpos in Pq. pose proof (fpos_ge _ Pq) as G. pose proof (fle_cases _ _ G Hq1) as [E|(F & _ & Q)]; [rewrite E in F1; discriminate|].
    split; [assumption|]. destruct Pq as [Z|(_ & Z)]; [rewrite Z in F; discriminate|]. lra. }
  assert (fnn (b_dt b) /\ B2R (b_dt b : f64) <= B2R m) as (Nd & Ndm).
  { apply fge_0 in Hdt. pose proof (fle_cases _ _ Hdt Hdm) as [E|(F & _ & Q)]; [rewrite E in Fm; discriminate|].
    split; [split; [assumption|lra]|lra]. }
  assert (B2R m <= B2R q) as Hmq.
  { assert (fleb m q = true) as Q; [|now apply fleb_R in Q].
    assert (fge 0 m) as Gm by (right; split; [assumption|]; destruct Nd; lra).
    apply (fle_trans0 _ (fdiv m (f_lit 1 1))); [assumption|now apply fdiv_1|].
    apply fdiv_anti; try assumption; [destruct Nd; lra|]. right. split; [assumption|apply Pq1]. }
  assert (max_run_r b m q s) as (_ & Q & _); [|exact Q].
  pose proof (r_runs_opts _ _ b fuel O s0 s0 Hb H ltac:(constructor)) as Ho.
  refine (reached_invariant alg None fuel (max_run_r b m q) _ k s0 s Hr Hrc _).
  2: { split; [exact Ho|].
       apply radau_build_inv in H. destruct H as [_ _ Et Ed _ _ _ _ Esol _ _ _ _ _ _ _]. split.
       - rewrite Esol. intros l1 t t' l2 E. destruct l1 as [|? [|]]; discriminate.
       - intros _. split; rewrite Ed; [exact Nd|left; exact Ndm]. }
  clear s H Hr Hrc Hi Ho s0 k. intros s s' r ((Hi & Eo) & Hg & Hw) Hc Hs.
  pose proof (r_run_step _ _ b fuel s s' r Hb Hi Hc Hs) as Hi'.
  pose proof (r_ready _ _ b s Hb Hi Hc) as Rd.
  unfold step in Hs. apply bind_ok in Hs as (s3 & Hs & E). cbn [run_callback] in E.
  injection E as E _. subst s3. cbn [alg_step Radau5 Cache] in Hs.
  assert (i_opts s' = radau_opts (b_opts b)) as Eo'.
  { destruct (r_step_of _ _ _ _ _ Rd Hs) as [(Hq & _)|[Rp _ _ _ _]].
    + destruct (q_prob _ _ Hq) as (_&_&_&_&_&_&E). etransitivity; [exact E|exact Eo].
    + destruct Rp as (_&_&_&_&_&_&E). etransitivity; [exact E|exact Eo]. }
  split; [split; [exact Hi'|exact Eo']|].
  apply (step_max_r _ m q) in Hs; try assumption; rewrite ?Eo, ?Em, ?Eq; try assumption; try reflexivity; [|now apply Hw].
  destruct Hs as [(Hq & He)|(h & Hn & Hh & Et & Ets & Hw')].
  - destruct (q_point _ _ Hq) as (_&_&_&_&Ets&_). rewrite Ets. split; [exact Hg|].
    intros Hc'. destruct (He Hc) as (N & _). contradiction.
  - destruct (rn_list _ _ _ _ Hi) as (l & Il & _). split.
    + rewrite Ets, Il. rewrite Il in Hg. intros l1 t t' l2 E.
      destruct l2 as [|z l2 _] using rev_ind.
      * change (l1 ++ [t; t']) with (l1 ++ [t] ++ [t']) in E. rewrite app_assoc in E.
        apply app_inj_tail in E as (E & Et'). apply app_inj_tail in E as (E & Et2). exists h.
        split; [apply fge_0; right; exact Hn|]. split; [exact Hh|]. rewrite <- Et', <- Et2. exact Et.
      * replace (l1 ++ t :: t' :: l2 ++ [z]) with ((l1 ++ t :: t' :: l2) ++ [z]) in E by (rewrite <- app_assoc; reflexivity).
        apply app_inj_tail in E as (E & _). eapply Hg. exact E.
    + intros Hc'. destruct (rn_last _ _ _ _ Hi') as (Ft' & Ht'); [congruence|].
      apply Hw'; [exact Ft'| |exact Hc']. rewrite (rn_tfinal _ _ _ _ Hi). apply Ht'.
Qed.
End RadMax.
