(** In binary64 a step that is not too small compared with the time moves it. *)
From Coq Require Import ZArith Bool Reals Lra Lia Psatz.
From Flocq Require Import Core BinarySingleNaN FLT Ulp.
From Verif Require Import Arith ArithF FFacts FMono FOrder FReduce.
Local Open Scope R_scope.
Local Existing Instance prec_gt_0_53.
Local Existing Instance prec_lt_emax_53.

Definition feps : f64 := Bldexp mode_NE (f_of_Z 1) (-52).
Lemma feps_R : is_finite feps = true /\ B2R feps = bpow radix2 (-52).
Proof.
  assert (B2SF feps = SpecFloat.S754_finite false 4503599627370496 (-104)) as E by (vm_compute; reflexivity).
  split; [destruct feps; try discriminate; reflexivity|].
  rewrite <- SF2R_B2SF, E. cbn [SF2R cond_Zopp]. unfold F2R. cbn [Fnum Fexp].
  change (IZR 4503599627370496) with (bpow radix2 52). rewrite <- bpow_plus. reflexivity.
Qed.
Lemma f_tenth_R : is_finite (f_lit 1 10) = true /\ 0 < B2R (f_lit 1 10) <= 2/10.
Proof.
  assert (B2SF (f_lit 1 10) = SpecFloat.S754_finite false 7205759403792794 (-56)) as E by (vm_compute; reflexivity).
  destruct (lit_R _ _ _ _ _ E) as (H1 & H2). split; [assumption|]. rewrite H2. unfold F2R. cbn. lra.
Qed.
Lemma fabs_R (x : f64) : is_finite x = true -> is_finite (fabs x) = true /\ B2R (fabs x) = Rabs (B2R x).
Proof. intros H. split; [unfold fabs; now rewrite is_finite_Babs|apply B2R_Babs]. Qed.
(** A product by a factor of at most 1 does not overflow. *)
Lemma fmul_small (x y : f64) : is_finite x = true -> is_finite y = true -> 0 <= B2R x -> 0 <= B2R y <= 1 ->
  is_finite (fmul x y) = true /\ B2R (fmul x y) = rnd64 (B2R x * B2R y).
Proof.
  intros Fx Fy Px Py. pose proof (Bmult_correct 53 1024 _ _ mode_NE x y) as M.
  change (round_mode mode_NE) with (Znearest (fun x => negb (Z.even x))) in M.
  assert (0 <= rnd64 (B2R x * B2R y)) as P1 by (apply rnd_ge_0; nra).
  assert (rnd64 (B2R x * B2R y) <= B2R x) as P2 by (apply rnd_le_f; nra).
  rewrite Rlt_bool_true in M.
  - destruct M as (H1 & H2 & _). unfold fmul. rewrite H1, H2, Fx, Fy. auto.
  - rewrite Rabs_pos_eq by assumption. pose proof (f_lt_emax x). lra.
Qed.
Lemma fmul_small_l (x y : f64) : is_finite x = true -> is_finite y = true -> 0 <= B2R x <= 1 -> 0 <= B2R y ->
  is_finite (fmul x y) = true /\ B2R (fmul x y) = rnd64 (B2R x * B2R y).
Proof.
  intros Fx Fy Px Py. pose proof (Bmult_correct 53 1024 _ _ mode_NE x y) as M.
  change (round_mode mode_NE) with (Znearest (fun x => negb (Z.even x))) in M.
  assert (0 <= rnd64 (B2R x * B2R y)) as P1 by (apply rnd_ge_0; nra).
  assert (rnd64 (B2R x * B2R y) <= B2R y) as P2 by (apply rnd_le_f; nra).
  rewrite Rlt_bool_true in M.
  - destruct M as (H1 & H2 & _). unfold fmul. rewrite H1, H2, Fx, Fy. auto.
  - rewrite Rabs_pos_eq by assumption. pose proof (f_lt_emax y). lra.
Qed.
Lemma ulp_le (t : f64) d : format64 d -> 0 < d -> Rabs (B2R t) * bpow radix2 (-52) <= d ->
  ulp radix2 fexp64 (B2R t) <= d.
Proof.
  intros Fd Pd H. destruct (Rle_or_lt (bpow radix2 (-1022)) (Rabs (B2R t))) as [Hn|Hs].
  - apply Rle_trans with (2 := H).
    exact (ulp_FLT_le radix2 (-1074) 53 (B2R t) Hn).
  - change (ulp radix2 (FLT_exp (-1074) 53) (B2R t) <= d).
    rewrite ulp_FLT_small.
    + apply generic_format_ge_bpow with (3 := Fd); [|assumption].
      intros e. unfold SpecFloat.fexp, SpecFloat.emin. lia.
    + exact prec_gt_0_53.
    + apply Rlt_trans with (1 := Hs). apply bpow_lt. lia.
Qed.
Lemma rnd_moves (t d : f64) : is_finite d = true -> 0 < B2R d -> Rabs (B2R t) * bpow radix2 (-52) <= B2R d ->
  B2R t < rnd64 (B2R t + B2R d).
Proof.
  intros Fd Pd H. destruct (Req_dec (B2R t) 0) as [E|E].
  - rewrite E, Rplus_0_l, rnd_id. exact Pd.
  - pose proof (ulp_le t (B2R d) (f_format d) Pd H) as Hu.
    apply Rlt_le_trans with (succ radix2 fexp64 (B2R t)); [now apply succ_gt_id|].
    apply round_ge_generic; [exact _|exact _|apply generic_format_succ; [exact _|apply f_format]|].
    apply Rle_trans with (B2R t + ulp radix2 fexp64 (B2R t)); [|lra]. apply succ_le_plus_ulp; exact _.
Qed.

Lemma step_moves (t d : f64) : is_finite t = true -> fnn d ->
  fleb (fmul (f_lit 1 10) (fabs d)) (fmul (fabs t) feps) = false -> fltb t (fadd t d) = true.
Proof.
  intros Ft (Fd & Pd) H.
  destruct f_tenth_R as (F10 & P10). destruct feps_R as (Fe & Ee).
  destruct (fabs_R d Fd) as (Fad & Ead). destruct (fabs_R t Ft) as (Fat & Eat).
  rewrite (Rabs_pos_eq _ Pd) in Ead.
  assert (bpow radix2 (-52) <= 1) as B1 by (cbn; lra). pose proof (bpow_gt_0 radix2 (-52)) as B0.
  destruct (fmul_small_l (f_lit 1 10) (fabs d)) as (F1 & E1); try assumption; [lra|lra|].
  destruct (fmul_small (fabs t) feps) as (F2 & E2); try assumption; [rewrite Eat; apply Rabs_pos|lra|].
  assert (B2R (fmul (fabs t) feps) < B2R (fmul (f_lit 1 10) (fabs d))) as Hlt.
  { destruct (Rle_or_lt (B2R (fmul (f_lit 1 10) (fabs d))) (B2R (fmul (fabs t) feps))) as [Hle|]; [|assumption].
    apply fleb_R in Hle; try assumption. congruence. }
  rewrite E1, E2, Ead, Eat, Ee in Hlt.
  assert (Rabs (B2R t) * bpow radix2 (-52) < B2R (f_lit 1 10) * B2R d) as Hx.
  { destruct (Rlt_or_le (Rabs (B2R t) * bpow radix2 (-52)) (B2R (f_lit 1 10) * B2R d)) as [|Hle]; [assumption|].
    apply rnd_le in Hle. lra. }
  pose proof (Rabs_pos (B2R t)) as Pt.
  assert (0 <= Rabs (B2R t) * bpow radix2 (-52)) as Pq by nra.
  assert (0 < B2R d) as Pd' by nra.
  assert (Rabs (B2R t) * bpow radix2 (-52) <= B2R d) as Hd by nra.
  pose proof (rnd_moves t d Fd Pd' Hd) as Hm.
  assert (fge (B2R t) (fadd t d)) as [E|(Fz & Pz)].
  { apply fleb_fge; [assumption|]. apply fadd_le; [assumption|]. apply fge_0. right. auto. }
  - rewrite E. clear -Ft. destruct t as [?|[]| |[] ? ? ?]; try discriminate; reflexivity.
  - apply fltb_R; try assumption. rewrite fadd_R by assumption. exact Hm.
Qed.
