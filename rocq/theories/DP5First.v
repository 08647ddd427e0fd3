(** The step size after the first accepted DormandPrince5 step, in binary64. *)
From Coq Require Import ZArith List Bool Lia Reals Lra.
From RecordUpdate Require Import RecordSet.
From Flocq Require Import Core BinarySingleNaN.
From Verif Require Import Arith Vec Core Driver VecFacts DP5 DP5Facts Spec DP5Inv ArithF FFacts FMono FOrder SpecF64 DP5Mono.
Import ListNotations RecordSetNotations.
Local Open Scope R_scope.
Local Existing Instance prec_gt_0_53.
Local Existing Instance prec_lt_emax_53.

Lemma fsqrt_ge0 (x : f64) : fsqrt x = fnan \/ fge 0 (fsqrt x).
Proof.
  pose proof (Bsqrt_correct 53 1024 _ _ mode_NE x) as (H1 & H2 & _). fold (fsqrt x) in H1, H2.
  change (round_mode mode_NE) with (Znearest (fun x => negb (Z.even x))) in H1.
  assert (0 <= B2R (fsqrt x)) as Hp by (rewrite H1; apply rnd_ge_0, sqrt_pos).
  destruct x as [s|s| |s m e He].
  - right. right. split; [exact H2|exact Hp].
  - destruct s; [left; reflexivity|right; left; reflexivity].
  - left; reflexivity.
  - destruct s; [left|right; right].
    + reflexivity.
    + split; [exact H2|exact Hp].
Qed.

Lemma fdiv_zero_r (y : f64) : y = fnan \/ fge 0 y -> fdiv y fzero = fnan \/ fdiv y fzero = finf.
Proof.
  intros [->|[->|(F & H)]]; [left; reflexivity|right; reflexivity|].
  destruct y as [s|s| |s m e He]; try discriminate; [left; reflexivity|].
  destruct s; [|right; reflexivity]. exfalso. cbn in H.
  assert (F2R (Float radix2 (Z.neg m) e) < 0) by now apply F2R_lt_0. lra.
Qed.

Lemma finf_div (s : f64) : is_finite s = true -> 0 < B2R s -> fdiv finf s = finf.
Proof.
  intros F H. pose proof (fsign_ge0 s F H) as Sg.
  destruct s as [?|?| |? m e He]; try discriminate; cbn in *; [lra|now subst].
Qed.

Lemma fltb_finf (x : f64) : is_finite x = true -> fltb x finf = true.
Proof. destruct x as [[]|[]| |[] m e Hm]; intros H; try discriminate; reflexivity. Qed.

(** Division by a larger number. *)
Lemma fdiv_anti (a b : f64) : is_finite a = true -> is_finite b = true -> 0 < B2R a <= B2R b ->
  fdiv (f_lit 1 1) a = finf \/
  (is_finite (fdiv (f_lit 1 1) a) = true /\ is_finite (fdiv (f_lit 1 1) b) = true /\
   B2R (fdiv (f_lit 1 1) b) <= B2R (fdiv (f_lit 1 1) a)).
Proof.
  intros Fa Fb (Pa & Hab). destruct f_1 as (F1 & E1).
  pose proof (fsign_ge0 (f_lit 1 1) F1 ltac:(lra)) as S1.
  pose proof (fsign_ge0 a Fa Pa) as Sa.
  pose proof (Bdiv_correct 53 1024 _ _ mode_NE (f_lit 1 1) a ltac:(lra)) as Ha.
  pose proof (Bdiv_correct 53 1024 _ _ mode_NE (f_lit 1 1) b ltac:(lra)) as Hb.
  change (round_mode mode_NE) with (Znearest (fun x => negb (Z.even x))) in Ha, Hb.
  fold (fdiv (f_lit 1 1) a) in Ha. fold (fdiv (f_lit 1 1) b) in Hb. rewrite E1 in Ha, Hb.
  assert (0 <= rnd64 (1 / B2R b) <= rnd64 (1 / B2R a)) as Hr.
  { split; [apply rnd_ge_0; apply Rmult_le_pos; [lra|left; apply Rinv_0_lt_compat; lra]|].
    apply rnd_le. apply Rmult_le_compat_l; [lra|]. apply Rinv_le; lra. }
  destruct (Rlt_bool_spec (Rabs (rnd64 (1 / B2R a))) (bpow radix2 1024)) as [H|H].
  - right. rewrite Rabs_pos_eq in H by lra.
    rewrite Rlt_bool_true in Hb by (rewrite Rabs_pos_eq; lra).
    destruct Ha as (A1 & A2 & _), Hb as (B1 & B2 & _). rewrite F1 in A2, B2.
    split; [assumption|]. split; [assumption|]. rewrite A1, B1. apply Hr.
  - left. apply finf_of. rewrite Ha, S1, Sa. reflexivity.
Qed.

Section First.
Context (fpowf : f64 -> f64 -> f64) (fpowi : f64 -> Z -> f64) {P : Type}.
Notation A := (F64 fpowf fpowi).
Notation state := (integ A P (dp5_cache A)).
Notation alg := (@DormandPrince5 A P).

Lemma first_fac (s : state) err : f64_sane (i_opts s) -> pow_at_zero (i_opts s) ->
  fleb (o_facl (i_opts s)) (o_facr (i_opts s)) = true -> facold (i_cache s) = fzero ->
  fleb err (f_lit 1 1) = true -> err = fnan \/ fge 0 err ->
  dp5_fac (A := A) err s = fdiv (f_lit 1 1) (o_facl (i_opts s)).
Proof.
  intros (S1 & S2 & L1 & L2 & R1 & R2 & _) (Z0 & Zp) Hlr Hf He He0.
  destruct lit_99_100 as (F99 & P99).
  destruct (fltb_finite_pos _ _ S1 S2 F99) as (Fs & Ps).
  destruct (fltb_finite_pos _ _ L1 L2 F99) as (Fl & Pl).
  destruct (fltb_fpos _ R1) as [E|(Fr & Pr)]; [rewrite E in R2; discriminate|].
  assert (fge 0 err) as Hge by (destruct He0 as [->|?]; [discriminate|assumption]).
  unfold dp5_fac. rewrite Hf. 
  assert (div A (div A (dp5_fac11 (A := A) err s) (powf A fzero (o_beta (i_opts s)))) (o_safe (i_opts s)) = fnan \/
          div A (div A (dp5_fac11 (A := A) err s) (powf A fzero (o_beta (i_opts s)))) (o_safe (i_opts s)) = finf) as Hq.
  { cbn [powf F64]. rewrite Z0. cbn [div F64].
    assert (dp5_fac11 (A := A) err s = fnan \/ fge 0 (dp5_fac11 (A := A) err s)) as Hn.
    { destruct (Zp err) as [E|E]; [now apply fge_0|left; exact E|right; apply fge_0; exact E]. }
    destruct (fdiv_zero_r _ Hn) as [E|E]; rewrite E; [left; apply fdiv_nan|right; now apply finf_div]. }
  set (q := div A (div A _ _) _) in *. clearbody q.
  assert (fge 0 (dp5_fac1 s)) as H1.
  { apply (fdiv_ge0 (f_lit 1 1)); [apply f_1|destruct f_1 as (_ & ->); lra|right; split; [assumption|apply Pl]]. }
  assert (fmin (dp5_fac1 s) q = dp5_fac1 s) as E1.
  { unfold fmin. rewrite (fge_not_nan _ _ H1). destruct Hq as [-> | ->]; [reflexivity|]. cbn [is_nan].
    destruct (dp5_fac1 s) as [[]|[]| |[] m e Hm]; reflexivity. }
  change (fmax (dp5_fac2 s) (fmin (dp5_fac1 s) q) = dp5_fac1 s). rewrite E1.
  assert (B2R (o_facl (i_opts s) : f64) <= B2R (o_facr (i_opts s) : f64)) as Hle by now apply fleb_R.
  assert (fge 0 (dp5_fac2 s)) as H2.
  { apply (fdiv_ge0 (f_lit 1 1)); [apply f_1|destruct f_1 as (_ & ->); lra|right; auto]. }
  unfold fmax. rewrite (fge_not_nan _ _ H2), (fge_not_nan _ _ H1).
  destruct (fdiv_anti _ _ Fl Fr (conj (proj1 Pl) Hle)) as [E|(Q1 & Q2 & Q3)].
  - change (dp5_fac1 s = finf) in E. rewrite E. destruct H2 as [E2|(F2 & _)]; [now rewrite E2|].
    now rewrite fltb_finf.
  - change (is_finite (dp5_fac1 s) = true) in Q1. change (is_finite (dp5_fac2 s) = true) in Q2.
    change (B2R (dp5_fac2 s) <= B2R (dp5_fac1 s)) in Q3.
    destruct (fltb (dp5_fac2 s) (dp5_fac1 s)) eqn:E; [reflexivity|].
    assert (B2R (dp5_fac2 s) = B2R (dp5_fac1 s)) as Eq.
    { apply Rle_antisym; [assumption|]. apply Rnot_lt_le. intros Hlt. apply fltb_R in Hlt; [|assumption..].
      rewrite E in Hlt. discriminate. }
    assert (fpos (dp5_fac1 s)) as Hp1.
    { apply fge_pos with (c := 1); [lra|]. destruct lit_1005_1000 as (F5 & P5).
      apply fge_weaken with (B2R (f_lit 1005 1000)); [|lra].
      destruct f_1 as (F1 & E1'). apply (fdiv_lower _ _ _ 1 (991/1000)); try assumption; try lra.
      change (fge 1 (f_lit 1 1)). right. rewrite E1'. split; [assumption|lra]. }
    assert (0 < B2R (dp5_fac1 s)) as P1.
    { destruct Hp1 as [E0|(_ & ?)]; [rewrite E0 in Q1; discriminate|assumption]. }
    apply f_eq; [assumption..|]. rewrite !fsign_ge0; try assumption; [reflexivity|]. now rewrite Eq.
Qed.

(** C43. *)
Lemma dp5_first_step (b : builder A P) fuel (s0 s : state) r :
  f64_forward b -> pow_at_zero (b_opts b) -> fleb (o_facl (b_opts b)) (o_facr (b_opts b)) = true ->
  build alg b = Ok s0 -> step alg None fuel s0 = Ok (s, r) ->
  let d := fdiv (i_dtprev s) (fdiv (f_lit 1 1) (o_facl (b_opts b))) in
  fleb d (o_dtmax (b_opts b)) = true ->
  feqb (i_dt s) d = true /\ fle (i_dt s) (i_dtprev s).
Proof.
  intros Hb Hz Hlr H0 H d Hd.
  destruct (f_run_build _ _ b s0 Hb H0) as [Ir Hrc].
  pose proof H0 as Hb0. apply dp5_build_inv in Hb0 as (_&_&_&_&_&_&_&_&_&_&_&_&_&_&_&_&_&_&Efo&_).
  destruct Ir as [Io If Id Idt _ _ Ila _]. destruct Ila as (Hl & Ft & Ht); [congruence|].
  destruct Hb as (So & F0 & Ff & Hlt & Fs & _).
  unfold step in H. apply bind_ok in H as (s9 & H & E). cbn [run_callback] in E.
  injection E as E _. subst s9. cbn [alg_step DormandPrince5 Cache] in H.
  assert (ready fpowf fpowi s0) as Rd.
  { constructor; rewrite ?Io, ?If; try assumption; [apply Ht|]. now apply (span_finite (b_t b)). }
  apply dp5_step_inv in H as (k & sk & sa & _ & Hr & Ha & ->).
  destruct (dp5_clip_frame s0) as ((_&_&_&_&C1&C2&C3) & (_&C4&_) & _&_&_&_&bl&Cc).
  pose proof (rejections_many _ _ _ Hr) as Rm.
  destruct (rm_problem _ _ _ Rm) as (_&_&_&_&R1&R2&R3). destruct (rm_point _ _ _ Rm) as (_&R4&_).
  apply dp5_attempt_inv in Ha as (s1 & Hs & [(_ & Herr & Acc)|(D & _)]); [|discriminate].
  pose proof (compute_stages_inv _ _ Hs) as (_ & (_&_&_&_&S1&S2&S3) & (_&S4&_) & S5 & _ & _ & _ & _ & _ & _ & S7 & S6 & S8 & _).
  destruct (dp5_finish_frame sa) as (_ & _ & F1 & F2 & _ & _ & Fp & F3 & _).
  assert (i_opts s1 = b_opts b) as Eo by (rewrite S3, R3, C3; exact Io).
  assert (facold (i_cache s1) = fzero) as Hfo.
  { rewrite S8, (rm_facold _ _ _ Rm), Cc. cbn. rewrite Efo. apply B2SF_inj. vm_compute. reflexivity. }
  assert (is_finite (i_dt sk : f64) = true /\ 0 <= B2R (i_dt sk : f64)) as (Fk & Pk).
  { destruct (dp5_clip_cases s0) as [(Hc & Ec)|(Hc & Ec)].
    - assert (i_dt (dp5_clip s0) = fsub (i_tfinal s0) (i_t s0)) as Ed by (rewrite Ec; reflexivity).
      destruct k as [|k].
      + rewrite (rm_zero _ _ _ Rm eq_refl), Ed. destruct Rd as [_ _ Q1 Q2 Q3 Q4 _].
        split; [exact Q4|]. rewrite fsub_R by assumption. apply rnd_ge_0. lra.
      + destruct Rd as [_ _ Q1 Q2 Q3 Q4 _].
        assert (short fpowf fpowi sk) as (X1 & X2 & _); [|auto].
        eapply cut_short; [|exact Hr|..]; rewrite ?C3, ?C4, ?C2, ?Ed, ?Io; auto.
    - assert (short fpowf fpowi sk) as (X1 & X2 & _); [|auto].
      eapply short_rejected; [|exact Hr|]; [now rewrite C3, Io|]. unfold short. rewrite C4, C2, Ec.
      destruct Rd as [_ Q0 Q1 Q2 Q3 Q4 Q5]. apply uncut_step; try assumption. rewrite Q0 in Hc. exact Hc. }
  assert (i_dtprev (dp5_finish sa) = i_dt sk) as Edp by (rewrite Fp, (acc_dtprev _ _ _ Acc), S5; reflexivity).
  assert (dp5_fac (A := A) (dp5_error s1) s1 = fdiv (f_lit 1 1) (o_facl (b_opts b))) as Ef.
  { rewrite <- Eo. apply first_fac; rewrite ?Eo; try assumption. apply fsqrt_ge0. }
  destruct lit_99_100 as (F99 & P99). destruct f_1 as (G1 & E1).
  destruct So as (_ & _ & L1 & L2 & _).
  destruct (fltb_finite_pos _ _ L1 L2 F99) as (Fl & Pl).
  assert (fge 1 (fdiv (f_lit 1 1) (o_facl (b_opts b)))) as Hx.
  { destruct lit_1005_1000 as (F5 & P5). apply fge_weaken with (B2R (f_lit 1005 1000)); [|lra].
    apply (fdiv_lower _ _ _ 1 (991/1000)); try assumption; try lra.
    right. rewrite E1. split; [assumption|lra]. }
  unfold d in *. clear d. rewrite Edp in *. rewrite F2, (acc_dt _ _ _ Acc).
  destruct (fdiv_ge (i_dt sk) _ 1 Fk Pk ltac:(lra) Hx) as (D1 & D2 & D3).
  rewrite <- Ef in *. set (x := dp5_fac (dp5_error s1) s1 : f64) in *.
  set (d := fdiv (i_dt sk) x) in *.
  assert (B2R d <= B2R (i_dt sk : f64)) as D4 by lra.
  unfold dtnew_accept. rewrite S5, Eo. change (dp5_fac (dp5_error s1) s1) with x.
  change (div A (i_dt sk) x) with d. cbv zeta.
  assert (i_tdir s1 = f_of_Z 1) as Etd by (rewrite S1, R1, C1; exact Id). rewrite Etd.
  assert (fabs d = d \/ B2R d = 0) as Hab.
  { destruct (Req_dec (B2R d) 0) as [?|Hn]; [now right|left]. apply f_eq; unfold fabs.
    - now rewrite is_finite_Babs.
    - assumption.
    - rewrite B2R_Babs. apply Rabs_pos_eq. lra.
    - rewrite Bsign_Babs by now apply finite_not_nan. symmetry. apply fsign_ge0; [assumption|lra]. }
  assert (is_finite (fabs d) = true /\ B2R (fabs d) = B2R d) as (A1 & A2).
  { unfold fabs. rewrite is_finite_Babs, B2R_Babs. split; [assumption|apply Rabs_pos_eq; lra]. }
  assert (ltb A (o_dtmax (b_opts b)) (nabs A d) = false) as ->.
  { change (fltb (o_dtmax (b_opts b)) (fabs d) = false).
    apply fleb_fge in Hd; [|assumption]. destruct Hd as [-> |(Fm & Hm)].
    - clear. destruct (fabs d) as [[]|[]| |[] ? ? ?]; reflexivity.
    - apply not_true_iff_false. intros Hlt'. apply fltb_R in Hlt'; [|assumption..]. lra. }
  assert (forall y : f64, is_finite y = true -> B2R y = B2R d -> feqb y d = true /\ fle y (i_dt sk)) as Hfin.
  { intros y Fy Ey. split; [|apply fleb_R; try assumption; lra].
    unfold feqb. rewrite Beqb_correct by assumption. apply Req_bool_true. exact Ey. }
  destruct (reject (i_cache s1)); [|apply Hfin; [assumption|reflexivity]].
  assert (is_finite (fabs (i_dt sk)) = true /\ B2R (fabs (i_dt sk)) = B2R (i_dt sk : f64)) as (A3 & A4).
  { unfold fabs. rewrite is_finite_Babs, B2R_Babs. split; [assumption|apply Rabs_pos_eq; lra]. }
  assert (is_finite (fmin (fabs d) (fabs (i_dt sk))) = true /\ B2R (fmin (fabs d) (fabs (i_dt sk))) = B2R d) as (M1 & M2).
  { unfold fmin. rewrite !finite_not_nan by assumption.
    destruct (fltb (fabs (i_dt sk)) (fabs d)) eqn:E; [|auto]. apply fltb_R in E; [|assumption..]. lra. }
  change (feqb (fmul (f_of_Z 1) (fmin (fabs d) (fabs (i_dt sk)))) d = true /\
          fle (fmul (f_of_Z 1) (fmin (fabs d) (fabs (i_dt sk)))) (i_dt sk)).
  destruct f_one as (O1 & O2 & _).
  pose proof (Bmult_correct 53 1024 _ _ mode_NE (f_of_Z 1) (fmin (fabs d) (fabs (i_dt sk)))) as Hm.
  change (round_mode mode_NE) with (Znearest (fun x => negb (Z.even x))) in Hm.
  rewrite O1, Rmult_1_l, M2, rnd_id in Hm.
  rewrite Rlt_bool_true in Hm by apply abs_B2R_lt_emax. destruct Hm as (Q1 & Q2 & _).
  apply Hfin; [unfold fmul; rewrite Q2, O2, M1; reflexivity|exact Q1].
Qed.
End First.
