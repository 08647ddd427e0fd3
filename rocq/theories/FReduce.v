(** Step sizes that shrink, in binary64: a product with a factor below 0.9 or a
    quotient by a factor above 1.004. *)
From Coq Require Import ZArith Bool Reals Lra Lia Psatz.
From Flocq Require Import Core BinarySingleNaN Relative.
From Verif Require Import Arith ArithF FFacts FMono FOrder.
Local Open Scope R_scope.
Local Existing Instance prec_gt_0_53.
Local Existing Instance prec_lt_emax_53.

(** A finite number that is not negative. *)
Definition fnn (d : f64) : Prop := is_finite d = true /\ 0 <= B2R d.
Definition reduced (d d' : f64) : Prop := fnn d' /\ B2R d' <= rnd64 (B2R d / (1004/1000)).

Lemma reduced_le d d' : fnn d -> reduced d d' -> B2R d' <= B2R d.
Proof.
  intros (_ & Pd) (_ & H). apply Rle_trans with (1 := H). apply rnd_le_f. lra.
Qed.
Lemma reduced_trans a b c : fnn a -> reduced a b -> reduced b c -> reduced a c.
Proof.
  intros Ha Hab Hbc. split; [apply Hbc|]. apply Rle_trans with (B2R b); [|apply Hab].
  apply reduced_le with (2 := Hbc). apply Hab.
Qed.
Lemma reduced_div d x : fnn d -> fge (1004/1000) x -> reduced d (fdiv d x).
Proof.
  intros (Fd & Pd) Hx. destruct (fdiv_ge d x (1004/1000) Fd Pd ltac:(lra) Hx) as (Q1 & (Q2 & Q3) & _).
  split; [split; assumption|assumption].
Qed.
Lemma reduced_mul d f : fnn d -> is_finite f = true -> 0 <= B2R f <= 9/10 -> reduced d (fmul d f).
Proof.
  intros (Fd & Pd) Ff Hf.
  pose proof (Bmult_correct 53 1024 _ _ mode_NE d f) as M.
  change (round_mode mode_NE) with (Znearest (fun x => negb (Z.even x))) in M.
  assert (0 <= B2R d * B2R f <= B2R d / (1004/1000)) as Hq by nra.
  assert (0 <= rnd64 (B2R d * B2R f)) as P1 by (apply rnd_ge_0; lra).
  assert (rnd64 (B2R d * B2R f) <= rnd64 (B2R d / (1004/1000))) as P2 by (apply rnd_le; lra).
  assert (rnd64 (B2R d / (1004/1000)) <= B2R d) as P3 by (apply rnd_le_f; lra).
  rewrite Rlt_bool_true in M.
  - destruct M as (H1 & H2 & _). unfold reduced, fnn, fmul. rewrite H1, H2, Fd, Ff. repeat split; assumption.
  - rewrite Rabs_pos_eq by assumption. pose proof (f_lt_emax d). lra.
Qed.

(** What was to end at [tf] ends before it once it is reduced. *)
Lemma cut_reduced (t tf d : f64) : is_finite t = true -> is_finite tf = true -> B2R t <= B2R tf ->
  is_finite (fsub tf t) = true -> reduced (fsub tf t) d -> rnd64 (B2R t + B2R d) <= B2R tf.
Proof.
  intros Ft Ff Hle FD ((Fd & Pd) & Q3).
  pose proof (fsub_R tf t Ff Ft FD) as ED. set (D := fsub tf t) in *. clearbody D.
  destruct (diff_rounded t tf Ft Ff Hle) as (H1 & H2). set (r := B2R tf - B2R t) in *.
  assert (0 <= r) as Pr by (unfold r; lra).
  assert (0 <= B2R D) as PD by (rewrite ED; now apply rnd_ge_0).
  assert (rnd64 (B2R D / (1004/1000)) <= B2R D) as Q4 by (apply rnd_le_f; lra).
  apply rnd_le_f.
  assert (B2R d <= r); [|unfold r in *; lra].
  destruct (Rle_or_lt r (bpow radix2 (-1021))) as [Hs|Hs].
  - rewrite H2 in ED by assumption. lra.
  - apply Rle_trans with (1 := Q3).
    destruct (error_N_FLT radix2 (-1074) 53 eq_refl (fun x => negb (Z.even x)) (B2R D / (1004/1000))) as (e & h & He & Hh & _ & E).
    change (round radix2 (FLT_exp (-1074) 53) (Znearest (fun x => negb (Z.even x))) (B2R D / (1004/1000)))
      with (rnd64 (B2R D / (1004/1000))) in E.
    rewrite E. rewrite <- ED in H1. apply Rabs_le_inv in H1, He, Hh.
    change (- (53) + 1)%Z with (-52)%Z in He.
    assert (bpow radix2 (-52) <= 1/100000) as B1 by (cbn; lra).
    assert (bpow radix2 (-53) <= 1/100000) as B2 by (cbn; lra).
    assert (bpow radix2 (-1074) <= 1/100000 * bpow radix2 (-1021)) as B3.
    { replace (bpow radix2 (-1074)) with (bpow radix2 (-53) * bpow radix2 (-1021)) by (rewrite <- bpow_plus; reflexivity).
      apply Rmult_le_compat_r; [apply bpow_ge_0|lra]. }
    set (b1 := bpow radix2 (-52)) in *. set (b2 := bpow radix2 (-53)) in *.
    set (b3 := bpow radix2 (-1074)) in *. set (b4 := bpow radix2 (-1021)) in *. clearbody b1 b2 b3 b4 r.
    assert (B2R D <= r * (1 + 1/100000)) by nra.
    assert (B2R D / (1004/1000) * (1 + e) <= B2R D / (1004/1000) * (1 + 1/100000)).
    { apply Rmult_le_compat_l; [lra|lra]. }
    lra.
Qed.
Lemma short_reduced (t tf d d' : f64) : fnn d -> rnd64 (B2R t + B2R d) <= B2R tf -> reduced d d' ->
  rnd64 (B2R t + B2R d') <= B2R tf.
Proof.
  intros Hd H Hr. apply Rle_trans with (2 := H). apply rnd_le. pose proof (reduced_le _ _ Hd Hr). lra.
Qed.

(** ** Signs *)
Lemma sign_norm m e : (0 <= m)%Z -> Bsign (binary_normalize 53 1024 eq_refl eq_refl mode_NE m e false) = false.
Proof.
  intros Hm. pose proof (binary_normalize_correct 53 1024 eq_refl eq_refl mode_NE m e false) as H.
  assert (0 <= F2R (Float radix2 m e)) as Pm by (apply F2R_ge_0; exact Hm).
  cbv zeta in H. destruct (Rlt_bool _ _).
  - destruct H as (_ & _ & H). rewrite H. destruct (Rcompare_spec (F2R (Float radix2 m e)) 0); try reflexivity. lra.
  - rewrite Rlt_bool_false in H by exact Pm.
    set (x := binary_normalize _ _ _ _ _ _ _ _) in *. clearbody x. destruct x; try discriminate H; now inversion H.
Qed.
Lemma sign_mul (x y : f64) : Bsign x = false -> Bsign y = false -> Bsign (fmul x y) = false.
Proof.
  intros Hx Hy. destruct (is_nan (fmul x y)) eqn:En; [destruct (fmul x y); try discriminate; reflexivity|].
  destruct x as [sx|sx| |sx mx ex Ex], y as [sy|sy| |sy my ey Ey];
    try (cbn in *; subst; reflexivity).
  pose proof (Bmult_correct 53 1024 _ _ mode_NE (B754_finite sx mx ex Ex) (B754_finite sy my ey Ey)) as M.
  destruct (Rlt_bool _ _).
  - destruct M as (_ & _ & M). unfold fmul in *. rewrite M by exact En. rewrite Hx, Hy. reflexivity.
  - unfold fmul in *. rewrite Hx, Hy in M. revert M. generalize (Bmult mode_NE (B754_finite sx mx ex Ex : f64) (B754_finite sy my ey Ey)).
    intros z M. destruct z; try discriminate M; now inversion M.
Qed.
Lemma sign_div (x y : f64) : Bsign x = false -> Bsign y = false -> Bsign (fdiv x y) = false.
Proof.
  intros Hx Hy. destruct (is_nan (fdiv x y)) eqn:En; [destruct (fdiv x y); try discriminate; reflexivity|].
  destruct x as [sx|sx| |sx mx ex Ex], y as [sy|sy| |sy my ey Ey];
    try (cbn in *; subst; reflexivity).
  pose proof (Bdiv_correct 53 1024 _ _ mode_NE (B754_finite sx mx ex Ex) (B754_finite sy my ey Ey)) as M.
  assert (B2R (B754_finite sy my ey Ey : f64) <> 0) as Hn.
  { cbn. destruct sy; [discriminate|]. apply Rgt_not_eq. now apply F2R_gt_0. }
  specialize (M Hn).
  destruct (Rlt_bool _ _).
  - destruct M as (_ & _ & M). unfold fdiv in *. rewrite M by exact En. rewrite Hx, Hy. reflexivity.
  - unfold fdiv in *. rewrite Hx, Hy in M. revert M. generalize (Bdiv mode_NE (B754_finite sx mx ex Ex : f64) (B754_finite sy my ey Ey)).
    intros z M. destruct z; try discriminate M; now inversion M.
Qed.
Lemma sign_nat k : Bsign (f_lit (Z.of_nat k) 1) = false.
Proof.
  unfold f_lit. destruct (_ && _)%bool.
  - apply sign_div; apply sign_norm; lia.
  - unfold lit_big. cbv zeta. apply sign_norm. destruct (Z.ltb_spec (Z.of_nat k) 0); [lia|].
    match goal with |- (0 <= 2 * ?q + (if ?c then 0 else 1))%Z =>
      assert (0 <= q)%Z; [|destruct c; lia] end.
    apply Z.div_pos; [|lia]. apply Z.mul_nonneg_nonneg; [lia|]. apply Z.pow_nonneg. lia.
Qed.
Lemma sign_pos (x : f64) : fltb fzero x = true -> Bsign x = false.
Proof. destruct x as [s|[]| |[] m e E]; try discriminate; try reflexivity. Qed.

(** Something at least 1, over the smaller of a safety factor below 0.991 and
    any number that is not negative. *)
Lemma fdiv_safety (y safe q c : f64) : is_finite safe = true -> 0 < B2R safe <= 991/1000 -> Bsign q = false ->
  is_finite c = true -> B2R c <= 1 / (991/1000) -> fge 1 y -> fge (B2R c) (fdiv y (fmin safe q)).
Proof.
  intros Fs Ps Sq Fc Hc Hy.
  assert (fge (B2R c) (fdiv y safe)) as H0 by (apply (fdiv_lower _ _ _ 1 (991/1000)); try assumption; lra).
  unfold fmin. rewrite (finite_not_nan _ Fs). destruct (is_nan q) eqn:En; [exact H0|].
  destruct (fltb q safe) eqn:El; [|exact H0].
  assert (is_finite q = true) as Fq.
  { destruct q as [s|[]| |s m e E]; try reflexivity; try discriminate.
    destruct safe as [?|[]| |? ? ? ?]; discriminate. }
  apply fltb_R in El; [|assumption..].
  destruct q as [s|s| |s m e E]; try discriminate.
  - cbn in Sq. subst s. left. destruct Hy as [->|(Fy & Py)]; [reflexivity|].
    destruct y as [s|s| |s m e E]; try discriminate; cbn in Py; [lra|].
    destruct s; [|reflexivity]. exfalso. assert (F2R (Float radix2 (Z.neg m) e) < 0) by (now apply F2R_lt_0). cbn in *. lra.
  - cbn in Sq. subst s. apply (fdiv_lower _ _ _ 1 (991/1000)); try assumption; try lra.
    split; [|lra]. cbn. now apply F2R_gt_0.
Qed.
