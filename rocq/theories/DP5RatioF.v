(** Forward DormandPrince5 runs in binary64: how much the step size may change. *)
From Coq Require Import ZArith List Bool Lia Reals Lra Psatz.
From RecordUpdate Require Import RecordSet.
From Flocq Require Import Core BinarySingleNaN Relative.
From Verif Require Import Arith Vec Core Driver VecFacts DP5 DP5Facts Spec DP5Inv ArithF FFacts FMono FOrder SpecF64 DP5Mono DP5MaxF.
Import ListNotations RecordSetNotations.
Local Open Scope R_scope.
Local Existing Instance prec_gt_0_53.
Local Existing Instance prec_lt_emax_53.

Lemma fltb_fleb (x y : f64) : fltb x y = true -> fleb x y = true.
Proof.
  intros H. destruct x as [sx|sx| |sx mx ex Hx], y as [sy|sy| |sy my ey Hy];
    try destruct sx; try destruct sy; try discriminate; try reflexivity.
  all: apply fltb_R in H; [|reflexivity..]; apply fleb_R; [reflexivity..|lra].
Qed.
Lemma fleb_refl (x : f64) : is_nan x = false -> fleb x x = true.
Proof. destruct x as [[]|[]| |s m e H]; intros E; try discriminate; try reflexivity. apply fleb_R; [reflexivity..|lra]. Qed.

Lemma fdiv_finite_R (d x : f64) : is_finite d = true -> is_finite x = true -> 0 < B2R x -> is_finite (fdiv d x) = true ->
  B2R (fdiv d x) = rnd64 (B2R d / B2R x).
Proof.
  intros Fd Fx Px F. pose proof (Bdiv_correct 53 1024 _ _ mode_NE d x ltac:(lra)) as M.
  change (round_mode mode_NE) with (Znearest (fun x => negb (Z.even x))) in M. fold (fdiv d x) in M.
  destruct (Rlt_bool _ _); [apply M|]. exfalso.
  destruct (fdiv d x) as [s|s| |s m e He]; try discriminate; cbn in M; destruct (xorb (Bsign d) (Bsign x)); discriminate.
Qed.

(** A larger divisor gives a smaller quotient. *)
Lemma fdiv_anti (d a b : f64) : is_finite d = true -> 0 <= B2R d -> fpos a -> fleb a b = true ->
  fleb (fdiv d b) (fdiv d a) = true.
Proof.
  intros Fd Pd Ha H. pose proof (fdiv_ge0 d a Fd Pd Ha) as Ga.
  destruct (fle_cases a b (fpos_ge _ Ha) H) as [->|(Fa & Fb & Pa & Pb)].
  - assert (is_finite (fdiv d finf) = true /\ B2R (fdiv d finf) = 0) as (E1 & E2).
    { destruct d as [s|s| |s m e He]; try discriminate; destruct s; split; reflexivity. }
    destruct Ga as [->|(F & Q)]; [apply fle_finf; right; split; [exact E1|lra]|]. apply fleb_R; try assumption. lra.
  - assert (0 < B2R a) as P0 by (destruct Ha as [->|(_ & Q)]; [discriminate|exact Q]).
    assert (fge 0 (fdiv d b)) as Gb by (apply fdiv_ge0; try assumption; right; split; [assumption|lra]).
    destruct Ga as [->|(F & Q)]; [now apply fle_finf|].
    pose proof (fdiv_finite_R d a Fd Fa P0 F) as Ea.
    assert (rnd64 (B2R d / B2R b) <= rnd64 (B2R d / B2R a)) as Hm.
    { apply rnd_le. apply Rmult_le_compat_l; [assumption|]. apply Rinv_le; lra. }
    assert (0 <= rnd64 (B2R d / B2R b)) as P1.
    { apply rnd_ge_0. apply Rmult_le_pos; [assumption|]. left. apply Rinv_0_lt_compat. lra. }
    pose proof (Bdiv_correct 53 1024 _ _ mode_NE d b ltac:(lra)) as M.
    change (round_mode mode_NE) with (Znearest (fun x => negb (Z.even x))) in M. fold (fdiv d b) in M.
    rewrite Rlt_bool_true in M.
    + destruct M as (M1 & M2 & _). rewrite Fd in M2. apply fleb_R; [exact M2|exact F|]. rewrite M1, Ea. exact Hm.
    + rewrite Rabs_pos_eq by assumption. pose proof (f_lt_emax (fdiv d a)). lra.
Qed.

Lemma fmin_le_r (a y : f64) : fge 0 a -> fge 0 y -> fleb (fmin a y) y = true.
Proof.
  intros Ha Hy. unfold fmin. rewrite (fge_not_nan _ _ Ha), (fge_not_nan _ _ Hy).
  destruct (fltb y a) eqn:E; [apply fleb_refl; now apply (fge_not_nan 0)|]. now apply fle_of_not_lt.
Qed.
Lemma fmin_glb (c a y : f64) : fge 0 a -> fge 0 y -> fleb c a = true -> fleb c y = true -> fleb c (fmin a y) = true.
Proof.
  intros Ha Hy H1 H2. unfold fmin. rewrite (fge_not_nan _ _ Ha), (fge_not_nan _ _ Hy). now destruct (fltb y a).
Qed.

(** Whatever [x] is, a NaN included. *)
Lemma clamp (a b x : f64) : fpos a -> fleb a b = true ->
  fleb a (fmax a (fmin b x)) = true /\ fleb (fmax a (fmin b x)) b = true.
Proof.
  intros Ha H.
  assert (fge 0 b) as Hb.
  { destruct (fle_cases a b (fpos_ge _ Ha) H) as [->|(_ & F & P0 & P1)]; [now left|right; split; [exact F|lra]]. }
  pose proof (fge_not_nan _ _ Hb) as Nb. pose proof (fge_not_nan _ _ (fpos_ge _ Ha)) as Na.
  assert (fleb (fmin b x) b = true) as Hm.
  { unfold fmin. rewrite Nb. destruct (is_nan x); [now apply fleb_refl|].
    destruct (fltb x b) eqn:E; [now apply fltb_fleb|now apply fleb_refl]. }
  unfold fmax. rewrite Na. destruct (is_nan (fmin b x)) eqn:Nm.
  { split; [now apply fleb_refl|exact H]. }
  destruct (fltb a (fmin b x)) eqn:E; [split; [now apply fltb_fleb|exact Hm]|split; [now apply fleb_refl|exact H]].
Qed.

Lemma fmul_1_l_ge (x : f64) : fge 0 x -> fleb x (fmul (f_of_Z 1) x) = true.
Proof.
  destruct f_one as (E1 & E2 & _). intros [->|(Fx & Px)]; [rewrite (fmul_finf _ E2) by lra; reflexivity|].
  pose proof (Bmult_correct 53 1024 _ _ mode_NE (f_of_Z 1) x) as M.
  change (round_mode mode_NE) with (Znearest (fun x => negb (Z.even x))) in M. fold (fmul (f_of_Z 1) x) in M.
  rewrite E1, Rmult_1_l in M. change (round radix2 (SpecFloat.fexp 53 1024)) with (round radix2 fexp64) in M.
  fold (rnd64 (B2R x)) in M. rewrite rnd_id in M. rewrite Rlt_bool_true in M.
  - destruct M as (M1 & M2 & _). rewrite E2, Fx in M2. apply fleb_R; [exact Fx|exact M2|]. rewrite M1. lra.
  - apply Rabs_def1; [apply f_lt_emax|apply f_gt_emax].
Qed.

(** Away from underflow a quotient by at least 1.004 is a little smaller. *)
Lemma rnd_shrink d : bpow radix2 (-1000) <= d -> rnd64 (d / (1004/1000)) * (1003/1000) <= d.
Proof.
  intros H. pose proof (bpow_gt_0 radix2 (-1000)) as P0.
  assert (bpow radix2 (-1001) * 2 = bpow radix2 (-1000)) as E2.
  { change 2 with (bpow radix2 1). rewrite <- bpow_plus. reflexivity. }
  assert (bpow radix2 (-1001) <= d / (1004/1000)) as Hx by (unfold Rdiv; lra).
  set (x := d / (1004/1000)) in *.
  assert (bpow radix2 (-1022) <= Rabs x) as Hn.
  { rewrite Rabs_pos_eq by (pose proof (bpow_gt_0 radix2 (-1001)); lra). apply Rle_trans with (2 := Hx). apply bpow_le. lia. }
  pose proof (relative_error_N_FLT radix2 (-1074) 53 ltac:(reflexivity) (fun x => negb (Z.even x)) x Hn) as R.
  change (Rabs (rnd64 x - x) <= / 2 * bpow radix2 (-53 + 1) * Rabs x) in R.
  rewrite Rabs_pos_eq with (x := x) in R by (pose proof (bpow_gt_0 radix2 (-1001)); lra).
  assert (bpow radix2 (-53 + 1) <= 1 / 1000000) as Hb.
  { change (bpow radix2 (-53 + 1)) with (/ IZR (2 ^ 52)). cbn. lra. }
  apply Rabs_le_inv in R. pose proof (bpow_gt_0 radix2 (-53 + 1)).
  assert (0 < x) as Px by (pose proof (bpow_gt_0 radix2 (-1001)); lra).
  assert (/ 2 * bpow radix2 (-53 + 1) * x <= / 2000000 * x) by (apply Rmult_le_compat_r; lra).
  assert (d = x * (1004/1000)) as Ed by (unfold x; field). clearbody x. lra.
Qed.

Section RatioF.
Context (fpowf : f64 -> f64 -> f64) (fpowi : f64 -> Z -> f64) {P : Type}.
Notation A := (F64 fpowf fpowi).
Notation state := (integ A P (dp5_cache A)).
Notation alg := (@DormandPrince5 A P).

Lemma fac2_pos (s : state) : f64_sane (i_opts s) -> fpos (dp5_fac2 (A := A) s).
Proof.
  intros (_ & _ & _ & _ & R1 & R2 & _). destruct f_1 as (F1 & E1). destruct (fltb_fpos _ R1) as [E|(Fr & Pr)].
  { exfalso. rewrite E in R2. discriminate. }
  set (c := Bldexp mode_NE (f_of_Z 1) (-1024) : f64).
  assert (is_finite c = true /\ B2R c = bpow radix2 (-1024)) as (Fc & Ec).
  { assert (B2SF c = SpecFloat.S754_finite false 1125899906842624 (-1074)) as E by (vm_compute; reflexivity).
    split; [destruct c; try discriminate; reflexivity|].
    rewrite <- SF2R_B2SF, E. cbn [SF2R cond_Zopp]. unfold F2R. cbn [Fnum Fexp].
    change (IZR 1125899906842624) with (bpow radix2 50). rewrite <- bpow_plus. reflexivity. }
  assert (fge (bpow radix2 (-1024)) (dp5_fac2 (A := A) s)) as H.
  { rewrite <- Ec. apply (fdiv_lower _ _ _ 1 (bpow radix2 1024)); try assumption; try lra.
    - split; [assumption|]. left. apply f_lt_emax.
    - rewrite Ec. unfold Rdiv. rewrite <- bpow_opp. rewrite Rmult_1_l. apply Rle_refl.
    - change (fge 1 (f_lit 1 1)); right. rewrite E1. split; [assumption|lra]. }
  apply fge_pos with (2 := H). apply bpow_gt_0.
Qed.

Lemma fac1_ge (s : state) : f64_sane (i_opts s) -> fge 1 (dp5_fac1 (A := A) s).
Proof.
  intros (_ & _ & L1 & L2 & _). destruct f_1 as (F1 & E1). destruct lit_99_100 as (F99 & P99).
  destruct (fltb_fpos _ L1) as [E|(Fl & Pl)].
  { exfalso. rewrite E in L2. destruct (f_lit 99 100) as [[]|[]| |[]]; discriminate. }
  apply fleb_R in L2; try assumption.
  rewrite <- E1. apply (fdiv_lower _ _ _ 1 1); try assumption; try lra.
  change (fge 1 (f_lit 1 1)); right. rewrite E1. split; [assumption|lra].
Qed.

Lemma fac2_le_fac1 (s : state) : f64_sane (i_opts s) -> fleb (o_facl (i_opts s)) (o_facr (i_opts s)) = true ->
  fleb (dp5_fac2 (A := A) s) (dp5_fac1 s) = true.
Proof.
  intros (_ & _ & L1 & _) H. destruct f_1 as (F1 & E1). apply (fdiv_anti (f_lit 1 1)); try assumption; [rewrite E1; lra|].
  now apply fltb_fpos.
Qed.

(** The step size proposed after an accepted step of size [h]. *)
Lemma next_dt_ratio (s : state) err : f64_sane (i_opts s) -> fleb (o_facl (i_opts s)) (o_facr (i_opts s)) = true ->
  i_tdir s = f_of_Z 1 -> is_finite (i_dt s : f64) = true -> 0 <= B2R (i_dt s : f64) ->
  fleb (dtnew_accept (A := A) err s) (fdiv (i_dt s) (dp5_fac2 s)) = true /\
  fleb (fmin (fdiv (i_dt s) (dp5_fac1 s)) (o_dtmax (i_opts s))) (dtnew_accept (A := A) err s) = true.
Proof.
  intros So Hlr Hd Fd Pd. pose proof (fac2_pos s So) as P2. pose proof (fac1_ge s So) as P1.
  pose proof (fac2_le_fac1 s So Hlr) as H21. pose proof (accept_factor _ _ s err So) as Hf.
  destruct So as (_&_&_&_&_&_&Hm&_). apply fge_0 in Hm.
  assert (fleb (dp5_fac2 s) (dp5_fac err s) = true /\ fleb (dp5_fac err s) (dp5_fac1 s) = true) as (C1 & C2) by now apply clamp.
  unfold dtnew_accept. cbv zeta. set (fac := dp5_fac err s) in *. clearbody fac.
  set (f1 := dp5_fac1 s) in *. set (f2 := dp5_fac2 s) in *. clearbody f1 f2. change (num A) with f64 in *.
  assert (fge 0 (fdiv (i_dt s) fac)) as H0 by now apply fdiv_ge0.
  assert (fge 0 (fdiv (i_dt s) f1)) as Hlo.
  { apply fdiv_ge0; try assumption. apply fge_pos with (2 := P1). lra. }
  assert (fleb (fdiv (i_dt s) fac) (fdiv (i_dt s) f2) = true) as B1 by now apply fdiv_anti.
  assert (fleb (fdiv (i_dt s) f1) (fdiv (i_dt s) fac) = true) as B2 by now apply fdiv_anti.
  assert (fleb (fdiv (i_dt s) f1) (i_dt s) = true) as B3.
  { destruct (fdiv_ge (i_dt s) f1 1 Fd Pd ltac:(lra) P1) as (Q1 & Q2 & Q3). apply fleb_R; try assumption. lra. }
  change (div A (i_dt s) fac) with (fdiv (i_dt s) fac).
  set (d0 := fdiv (i_dt s) fac) in *. set (hi := fdiv (i_dt s) f2) in *. set (lo := fdiv (i_dt s) f1) in *. clearbody d0 hi lo.
  set (low := fmin lo (o_dtmax (i_opts s))).
  assert (fge 0 low) as Glow by now apply fmin_ge0.
  set (d1 := if ltb A (o_dtmax (i_opts s)) (nabs A d0) then _ else d0).
  assert (fge 0 d1 /\ fleb d1 hi = true /\ fleb low d1 = true) as (D1 & D2 & D3).
  { unfold d1. destruct (ltb A _ _) eqn:E.
    - rewrite Hd. change (mul A) with fmul. split; [now apply fmul_one_l|]. split.
      + apply (fle_trans0 _ (o_dtmax (i_opts s))); [now apply fmul_one_l|now apply fmul_1_l_le|].
        apply (fle_trans0 _ (fabs d0)); [assumption|now apply fltb_fleb|].
        apply (fle_trans0 _ d0); [now apply fabs_ge|now apply fabs_id|exact B1].
      + apply (fle_trans0 _ (o_dtmax (i_opts s))); [assumption|now apply fmin_le_r|now apply fmul_1_l_ge].
    - split; [assumption|]. split; [exact B1|].
      apply (fle_trans0 _ lo); [assumption|now apply fmin_le_l|exact B2]. }
  clearbody d1. destruct (reject (i_cache s)); [|now split].
  rewrite Hd. change (mul A) with fmul. change (nmin A) with fmin. change (nabs A) with fabs.
  assert (fge 0 (fabs d1)) as G1 by now apply fabs_ge.
  assert (fge 0 (i_dt s)) as Gd by (right; auto).
  assert (fge 0 (fabs (i_dt s))) as G2 by now apply fabs_ge.
  assert (fge 0 (fmin (fabs d1) (fabs (i_dt s)))) as G3 by now apply fmin_ge0.
  split.
  - apply (fle_trans0 _ (fmin (fabs d1) (fabs (i_dt s)))); [now apply fmul_one_l|now apply fmul_1_l_le|].
    apply (fle_trans0 _ (fabs d1)); [assumption|now apply fmin_le_l|].
    apply (fle_trans0 _ d1); try assumption. now apply fabs_id.
  - apply (fle_trans0 _ (fmin (fabs d1) (fabs (i_dt s)))); [assumption| |now apply fmul_1_l_ge].
    apply fmin_glb; try assumption.
    + apply (fle_trans0 _ d1); try assumption. now apply fabs_id.
    + apply (fle_trans0 _ lo); [assumption|now apply fmin_le_l|].
      apply (fle_trans0 _ (i_dt s)); [assumption|assumption|now apply fabs_id].
Qed.

(** Rejections shrink the step. *)
Lemma rejections_shrink k (s s' : state) : f64_sane (i_opts s) -> rejections k s s' ->
  is_finite (i_dt s : f64) = true -> 0 <= B2R (i_dt s : f64) ->
  bpow radix2 (-1000) <= B2R (i_dt s' : f64) -> B2R (i_dt s' : f64) * (1003/1000) ^ k <= B2R (i_dt s : f64).
Proof.
  intros So H. revert So. induction H as [s|k s s1 s2 Ha Hr IH]; intros So F0 P0 Hb; [rewrite pow_O; lra|].
  destruct (attempt_dt _ _ _ _ So Ha) as (x & Hx & Ed).
  apply dp5_attempt_rejected in Ha. destruct (atr_problem _ _ Ha) as (_&_&_&_&_&_&Eo).
  destruct (fdiv_ge (i_dt s) x (1004/1000) F0 P0 ltac:(lra) Hx) as (Q1 & (Q2 & Q3) & Q4).
  assert (f64_sane (i_opts s1)) as So1 by now rewrite Eo.
  assert (is_finite (i_dt s1 : f64) = true) as F1 by (rewrite Ed; exact Q1).
  assert (0 <= B2R (i_dt s1 : f64)) as P1 by (rewrite Ed; exact Q2).
  specialize (IH So1 F1 P1 Hb).
  destruct (rejections_dt _ _ k _ _ So1 Hr F1 P1) as (_ & R2).
  assert (B2R (i_dt s1 : f64) <= rnd64 (B2R (i_dt s : f64) / (1004/1000))) as E1 by (rewrite Ed; exact Q3).
  pose proof (rnd_shrink (B2R (i_dt s : f64)) ltac:(lra)) as Sh.
  rewrite <- tech_pow_Rmult. 
  apply Rle_trans with (B2R (i_dt s1 : f64) * (1003/1000)); [|lra].
  replace (B2R (i_dt s2 : f64) * (1003 / 1000 * (1003 / 1000) ^ k)) with (B2R (i_dt s2 : f64) * (1003 / 1000) ^ k * (1003/1000)) by ring.
  apply Rmult_le_compat_r; lra.
Qed.

(** One call of [step()]. *)
Lemma step_ratio fuel (s s' : state) : ready _ _ s -> dp5_step fuel s = Ok s' ->
  (exists k, function_evals (i_stats s') = (function_evals (i_stats s) + 6 * (k + 1))%nat /\
    let trial := if fltb fzero (fmul (fsub (fadd (i_t s) (fmul (f_lit 101 100) (i_dt s))) (i_tfinal s)) (i_tdir s))
                 then fsub (i_tfinal s) (i_t s) else i_dt s in
    is_finite (i_dtprev s' : f64) = true /\ 0 <= B2R (i_dtprev s' : f64) <= B2R (trial : f64) /\
    (bpow radix2 (-1000) <= B2R (i_dtprev s' : f64) -> B2R (i_dtprev s' : f64) * (1003/1000) ^ k <= B2R (trial : f64))) /\
  (fleb (o_facl (i_opts s)) (o_facr (i_opts s)) = true ->
    let h := i_dtprev s' in
    fleb (i_dt s') (fdiv h (fdiv (f_lit 1 1) (o_facr (i_opts s)))) = true /\ fleb (i_dt s') (o_dtmax (i_opts s)) = true /\
    fleb (fmin (fdiv h (fdiv (f_lit 1 1) (o_facl (i_opts s)))) (o_dtmax (i_opts s))) (i_dt s') = true).
Proof.
  intros [So Hd Ft Ff Hle Fs Hdt] H.
  apply dp5_step_inv in H as (k & sk & sa & _ & Hr & Ha & ->).
  destruct (dp5_clip_frame s) as ((_&_&_&_&C1&C2&C3) & (_&C4&_) & _ & Cst & _).
  set (trial := if fltb fzero _ then _ else _).
  assert (is_finite (i_dt (dp5_clip s) : f64) = true /\ 0 <= B2R (i_dt (dp5_clip s) : f64) /\ i_dt (dp5_clip s) = trial) as (D1 & D2 & D3).
  { destruct (dp5_clip_cases s) as [(Hc & Ec)|(Hc & Ec)].
    - assert (i_dt (dp5_clip s) = fsub (i_tfinal s) (i_t s)) as Ed by (rewrite Ec; reflexivity).
      rewrite Ed. split; [exact Fs|]. split.
      + rewrite fsub_R by assumption. apply rnd_ge_0. lra.
      + symmetry. unfold trial. match goal with |- (if ?c then _ else _) = _ => change c with (ltb A n0 (mul A (sub A (add A (i_t s) (mul A (lit A 101 100) (i_dt s))) (i_tfinal s)) (i_tdir s))) end.
        rewrite Hc. reflexivity.
    - pose proof Hc as Hc'. rewrite Hd in Hc. destruct (uncut_step _ _ _ Ft Ff Hdt Hc) as (Q1 & Q2 & Q3).
      rewrite Ec. split; [exact Q1|]. split; [exact Q2|].
      symmetry. unfold trial. match goal with |- (if ?c then _ else _) = _ => change c with (ltb A n0 (mul A (sub A (add A (i_t s) (mul A (lit A 101 100) (i_dt s))) (i_tfinal s)) (i_tdir s))) end.
      rewrite Hc'. reflexivity. }
  assert (f64_sane (i_opts (dp5_clip s))) as Soc by now rewrite C3.
  destruct (rejections_dt _ _ k _ _ Soc Hr D1 D2) as (K1 & K2).
  pose proof (rejections_shrink k _ _ Soc Hr D1 D2) as K3. rewrite D3 in K2, K3. clearbody trial.
  pose proof (rejections_many _ _ _ Hr) as Rm.
  destruct (rm_problem _ _ _ Rm) as (_&_&_&_&R1&R2&R3). 
  apply dp5_attempt_inv in Ha as (s1 & Hs & [(_ & _ & Acc)|(D & _)]); [|discriminate].
  pose proof (compute_stages_inv _ _ Hs) as (_ & (_&_&_&_&S1&S2&S3) & _ & S5 & _ & _ & Sst & _).
  pose proof (dp5_finish_frame sa) as (_ & _ & F1 & F2 & _ & _ & F4 & F3 & _ & Fst).
  assert (i_dtprev (dp5_finish sa) = i_dt sk) as Eh by (rewrite F4, (acc_dtprev _ _ _ Acc); exact S5).
  split.
  - exists k. split.
    + destruct Fst as (Fst & _). rewrite Fst, (acc_stats _ _ _ Acc), Sst.
      cbn [set accepts steps function_evals etaStats]. rewrite (rm_evals _ _ _ Rm), Cst. cbn. lia.
    + cbv zeta. rewrite Eh. split; [exact K1|]. split; [exact K2|exact K3].
  - intros Hlr. cbv zeta. rewrite Eh, F2, (acc_dt _ _ _ Acc).
    assert (i_opts s1 = i_opts s) as Eo by (rewrite S3, R3; exact C3).
    assert (i_tdir s1 = f_of_Z 1) as Et by (rewrite S1, R1, C1; exact Hd).
    assert (f64_sane (i_opts s1)) as So1 by now rewrite Eo.
    assert (is_finite (i_dt s1 : f64) = true /\ 0 <= B2R (i_dt s1 : f64)) as (G1 & G2) by (rewrite S5; split; [exact K1|apply K2]).
    pose proof (next_dt_ratio s1 (dp5_error s1) So1 ltac:(now rewrite Eo) Et G1 G2) as (N1 & N2).
    pose proof (next_dt_max _ _ s1 (dp5_error s1) So1 Et G1 G2) as N3.
    unfold dp5_fac1, dp5_fac2 in N1, N2. rewrite S5, Eo in N1, N2. rewrite Eo in N3. auto.
Qed.

(** C11 and C12 in binary64. *)
Lemma dp5_f64_ratio (b : builder A P) fuel k (s0 s s' : state) r :
  f64_forward b -> build alg b = Ok s0 -> reached alg None fuel k s0 s -> rc (i_sol s) = RContinue ->
  step alg None fuel s = Ok (s', r) ->
  (exists k, function_evals (i_stats s') = (function_evals (i_stats s) + 6 * (k + 1))%nat /\
    let trial := if fltb fzero (fmul (fsub (fadd (i_t s) (fmul (f_lit 101 100) (i_dt s))) (b_tfinal b)) (f_lit 1 1))
                 then fsub (b_tfinal b) (i_t s) else i_dt s in
    is_finite (i_dtprev s' : f64) = true /\ 0 <= B2R (i_dtprev s' : f64) <= B2R (trial : f64) /\
    (bpow radix2 (-1000) <= B2R (i_dtprev s' : f64) -> B2R (i_dtprev s' : f64) * (1003/1000) ^ k <= B2R (trial : f64))) /\
  (fle (o_facl (b_opts b)) (o_facr (b_opts b)) ->
    let h := i_dtprev s' in
    fle (i_dt s') (fdiv h (fdiv (f_lit 1 1) (o_facr (b_opts b)))) /\ fle (i_dt s') (o_dtmax (b_opts b)) /\
    fle (fmin (fdiv h (fdiv (f_lit 1 1) (o_facl (b_opts b)))) (o_dtmax (b_opts b))) (i_dt s')).
Proof.
  intros Hb H Hre Hc Hs. destruct (f_run_build _ _ b s0 Hb H) as [Hi Hrc].
  assert (f_run _ _ b s) as [Io If Id Idt (l & Il & _ & _) _ Ila _].
  { refine (reached_invariant alg None fuel (fun s => f_run _ _ b s) _ k s0 s Hre Hrc Hi).
    intros s1 s2 r1 R1 Hc1 Hs1. eapply f_run_step; eassumption. }
  destruct Hb as (So & F0 & Ff & Hlt & Fs & _).
  unfold step in Hs. apply bind_ok in Hs as (s3 & Hs & E). cbn [run_callback] in E.
  injection E as E _. subst s3. cbn [alg_step DormandPrince5 Cache] in Hs.
  destruct Ila as (Hl & Ft & Ht); [congruence|].
  assert (ready _ _ s) as Rd.
  { constructor; rewrite ?Io, ?If; try assumption; [apply Ht|]. now apply (span_finite (b_t b)). }
  pose proof (step_ratio fuel s s' Rd Hs) as (Q1 & Q2). rewrite If, Id, <- f_lit_one in Q1. rewrite Io in Q2.
  split; [exact Q1|exact Q2].
Qed.

Lemma dp5_f64_shrink (b : builder A P) fuel k0 (s0 s s' : state) r :
  f64_forward b -> build alg b = Ok s0 -> reached alg None fuel k0 s0 s -> rc (i_sol s) = RContinue ->
  step alg None fuel s = Ok (s', r) ->
  exists k, function_evals (i_stats s') = (function_evals (i_stats s) + 6 * (k + 1))%nat /\
    let trial := if fltb fzero (fmul (fsub (fadd (i_t s) (fmul (f_lit 101 100) (i_dt s))) (b_tfinal b)) (f_lit 1 1))
                 then fsub (b_tfinal b) (i_t s) else i_dt s in
    is_finite (i_dtprev s' : f64) = true /\ 0 <= B2R (i_dtprev s' : f64) <= B2R (trial : f64) /\
    (bpow radix2 (-1000) <= B2R (i_dtprev s' : f64) -> B2R (i_dtprev s' : f64) * (1003/1000) ^ k <= B2R (trial : f64)).
Proof. intros H1 H2 H3 H4 H5. exact (proj1 (dp5_f64_ratio b fuel k0 s0 s s' r H1 H2 H3 H4 H5)). Qed.

Lemma dp5_f64_limits (b : builder A P) fuel k0 (s0 s s' : state) r :
  f64_forward b -> fle (o_facl (b_opts b)) (o_facr (b_opts b)) ->
  build alg b = Ok s0 -> reached alg None fuel k0 s0 s -> rc (i_sol s) = RContinue ->
  step alg None fuel s = Ok (s', r) ->
  let h := i_dtprev s' in
  fle (i_dt s') (fdiv h (fdiv (f_lit 1 1) (o_facr (b_opts b)))) /\ fle (i_dt s') (o_dtmax (b_opts b)) /\
  fle (fmin (fdiv h (fdiv (f_lit 1 1) (o_facl (b_opts b)))) (o_dtmax (b_opts b))) (i_dt s').
Proof. intros H1 Hl H2 H3 H4 H5. exact (proj2 (dp5_f64_ratio b fuel k0 s0 s s' r H1 H2 H3 H4 H5) Hl). Qed.
End RatioF.
