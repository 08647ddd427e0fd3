(** Facts about IEEE-754 binary64 used by the f64 theorems. *)
From Coq Require Import ZArith Bool Lia Reals Lra Psatz.
From Flocq Require Import Core BinarySingleNaN Sterbenz.
From Verif Require Import Arith ArithF.
Local Open Scope R_scope.

Local Existing Instance prec_gt_0_53.
Local Existing Instance prec_lt_emax_53.
Notation fexp64 := (SpecFloat.fexp 53 1024).
Notation rnd64 := (round radix2 fexp64 (Znearest (fun x => negb (Z.even x)))).
Notation format64 := (generic_format radix2 fexp64).

Global Instance fexp64_valid : Valid_exp fexp64.
Proof. apply (fexp_correct 53 1024). exact eq_refl. Qed.
Global Instance fexp64_monotone : Monotone_exp fexp64.
Proof. apply (fexp_monotone 53 1024). Qed.

Lemma f_format (x : f64) : format64 (B2R x).
Proof. apply generic_format_B2R. Qed.

Lemma fadd_correct (x y : f64) : is_finite x = true -> is_finite y = true ->
  Rabs (rnd64 (B2R x + B2R y)) < bpow radix2 1024 ->
  B2R (fadd x y) = rnd64 (B2R x + B2R y) /\ is_finite (fadd x y) = true.
Proof.
  intros Hx Hy Hb. pose proof (Bplus_correct 53 1024 _ _ mode_NE x y Hx Hy) as H.
  rewrite Rlt_bool_true in H by exact Hb. unfold fadd. tauto.
Qed.

Lemma fzero_of (x : f64) : is_finite x = true -> B2R x = 0 -> Bsign x = false -> x = fzero.
Proof.
  intros Hf H0 Hs. destruct x as [s|s| |s m e He]; try discriminate.
  - cbn in Hs. now subst.
  - exfalso. cbn in H0. pose proof (F2R_neq_0 radix2 (Float radix2 (cond_Zopp s (Zpos m)) e)) as Hn.
    apply Hn; [|exact H0]. cbn. now destruct s.
Qed.

Lemma fsub_self (x : f64) : is_finite x = true -> fsub x x = fzero.
Proof.
  intros Hx. pose proof (Bminus_correct 53 1024 _ _ mode_NE x x Hx Hx) as H.
  rewrite Rminus_eq_0 in H. rewrite round_0 in H by apply valid_rnd_round_mode. rewrite Rabs_R0 in H.
  rewrite Rlt_bool_true in H by apply bpow_gt_0. destruct H as (H1 & H2 & H3).
  apply fzero_of; [exact H2|exact H1|]. unfold fsub. rewrite H3. rewrite Rcompare_Eq by reflexivity.
  now destruct (Bsign x).
Qed.

Lemma fdiv_zero (y : f64) : is_finite_strict y = true -> Bsign y = false -> fdiv fzero y = fzero.
Proof. destruct y as [s|s| |s m e He]; cbn; try discriminate. intros _ ->. reflexivity. Qed.

Lemma fltb_R (x y : f64) : is_finite x = true -> is_finite y = true -> fltb x y = true <-> B2R x < B2R y.
Proof.
  intros Hx Hy. unfold fltb. rewrite Bltb_correct by assumption.
  destruct (Rlt_bool_spec (B2R x) (B2R y)); split; try easy; intros; lra.
Qed.
Lemma fleb_R (x y : f64) : is_finite x = true -> is_finite y = true -> fleb x y = true <-> B2R x <= B2R y.
Proof.
  intros Hx Hy. unfold fleb. rewrite Bleb_correct by assumption.
  destruct (Rle_bool_spec (B2R x) (B2R y)); split; try easy; intros; lra.
Qed.

(** ** Absorbed increments *)
Lemma format_multiple x : format64 x -> bpow radix2 19 <= Rabs x -> exists k, x = IZR k * bpow radix2 (-33).
Proof.
  intros Hx Hm. pose proof (mag_ge_bpow radix2 x 20 Hm) as Hmag.
  assert (-33 <= cexp radix2 fexp64 x)%Z as Hc.
  { unfold cexp, SpecFloat.fexp. lia. }
  unfold generic_format in Hx. set (m := Ztrunc _) in Hx. set (e := cexp radix2 fexp64 x) in *.
  exists (m * 2 ^ (e + 33))%Z. rewrite Hx at 1. unfold F2R. cbn [Fnum Fexp].
  rewrite mult_IZR. rewrite (IZR_Zpower radix2) by lia. rewrite Rmult_assoc, <- bpow_plus. do 2 f_equal. lia.
Qed.

Lemma absorbed x d : format64 x -> x < - bpow radix2 19 -> 0 <= d < bpow radix2 (-34) -> rnd64 (x + d) = x.
Proof.
  intros Hx Hb Hd.
  assert (format64 (- bpow radix2 19)) as Hf19.
  { apply generic_format_opp. apply generic_format_bpow. cbn. lia. }
  pose proof (bpow_gt_0 radix2 19) as H19.
  assert (x < succ radix2 fexp64 x) as Hs1 by (apply succ_gt_id; lra).
  assert (succ radix2 fexp64 x <= - bpow radix2 19) as Hs2 by (apply succ_le_lt; auto; typeclasses eauto).
  assert (format64 (succ radix2 fexp64 x)) as Hsf by (apply generic_format_succ; auto; typeclasses eauto).
  destruct (format_multiple x Hx) as (k & Hk). { rewrite Rabs_left; lra. }
  destruct (format_multiple _ Hsf) as (k' & Hk'). { rewrite Rabs_left; lra. }
  pose proof (bpow_gt_0 radix2 (-33)) as H33.
  assert (bpow radix2 (-33) = 2 * bpow radix2 (-34)) as E.
  { change 2 with (bpow radix2 1). rewrite <- bpow_plus. reflexivity. }
  assert (k < k')%Z as Hkk.
  { apply lt_IZR. apply (Rmult_lt_reg_r (bpow radix2 (-33))); [exact H33|]. rewrite <- Hk, <- Hk'. exact Hs1. }
  assert (x + bpow radix2 (-33) <= succ radix2 fexp64 x) as Hgap.
  { rewrite Hk'. rewrite Hk at 1. replace (IZR k * bpow radix2 (-33) + bpow radix2 (-33)) with (IZR (k + 1) * bpow radix2 (-33))
      by (rewrite plus_IZR; ring). apply Rmult_le_compat_r; [lra|]. apply IZR_le. lia. }
  apply Rle_antisym.
  - apply round_N_le_midp; [typeclasses eauto|exact Hx|]. lra.
  - rewrite <- (round_generic radix2 fexp64 (Znearest (fun z => negb (Z.even z))) x Hx) at 1.
    apply round_le; [typeclasses eauto..|]. lra.
Qed.

Lemma f64_absorbed (x d : f64) : is_finite x = true -> is_finite d = true ->
  B2R x < - bpow radix2 19 -> 0 <= B2R d < bpow radix2 (-34) -> fadd x d = x.
Proof.
  intros Hx Hd Hb Hdd. pose proof (absorbed (B2R x) (B2R d) (f_format x) Hb Hdd) as E.
  destruct (fadd_correct x d Hx Hd) as (H1 & H2).
  { rewrite E. apply abs_B2R_lt_emax. }
  rewrite E in H1. pose proof (bpow_gt_0 radix2 19) as H19.
  assert (forall y : f64, is_finite y = true -> B2R y <> 0 -> is_finite_strict y = true) as Hst.
  { intros [s|s| |s m e He]; cbn; try easy. }
  apply B2R_inj; [apply Hst|apply Hst|]; auto; try lra.
Qed.

Definition fpositive (y : f64) : bool :=
  match y with B754_infinity s | B754_finite s _ _ _ => negb s | _ => false end.
Lemma fdiv_zero_pos (y : f64) : fpositive y = true -> fdiv fzero y = fzero.
Proof. destruct y as [s|s| |s m e He]; cbn; try discriminate; destruct s; try discriminate; reflexivity. Qed.
Lemma fpositive_R (y : f64) : is_finite y = true -> fpositive y = true <-> 0 < B2R y.
Proof.
  destruct y as [s|s| |s m e He]; cbn; intros; try discriminate; [split; [discriminate|lra]|].
  destruct s; cbn; split; intros H0; try discriminate; try reflexivity.
  - exfalso. assert (F2R (Float radix2 (Z.neg m) e) < 0) by now apply F2R_lt_0. lra.
  - now apply F2R_gt_0.
Qed.

(** A product of two floats of moderate size from below is positive. *)
Lemma fmul_positive (x y : f64) a b : is_finite x = true -> fpositive x = true ->
  bpow radix2 a <= B2R x -> fpositive y = true -> (is_finite y = true -> bpow radix2 b <= B2R y) ->
  (-1074 <= a + b)%Z -> fpositive (fmul x y) = true.
Proof.
  intros Hx Hp Ha Hyp Hb Hab. destruct (is_finite y) eqn:Hy.
  - pose proof (Bmult_correct 53 1024 _ _ mode_NE x y) as H. specialize (Hb eq_refl).
    assert (bpow radix2 (a + b) <= B2R x * B2R y) as Hge.
    { rewrite bpow_plus. apply Rmult_le_compat; auto; apply bpow_ge_0. }
    assert (bpow radix2 (a + b) <= round radix2 fexp64 (round_mode mode_NE) (B2R x * B2R y)) as Hr.
    { apply round_ge_generic; try exact Hge; try typeclasses eauto; try apply valid_rnd_round_mode.
      apply generic_format_bpow. unfold SpecFloat.fexp. cbn. lia. }
    pose proof (bpow_gt_0 radix2 (a + b)) as H0.
    destruct (Rlt_bool_spec (Rabs (round radix2 fexp64 (round_mode mode_NE) (B2R x * B2R y))) (bpow radix2 1024)) as [Hlt|Hge2].
    + destruct H as (H1 & H2 & _). apply fpositive_R; [unfold fmul; rewrite H2, Hx, Hy; reflexivity|]. unfold fmul. rewrite H1. lra.
    + unfold fmul. destruct x as [sx|sx| |sx mx ex Hex]; try discriminate. destruct y as [sy|sy| |sy my ey Hey]; try discriminate.
      cbn in Hp, Hyp. destruct sx, sy; try discriminate.
      destruct (Bmult _ _ _) as [s|s| |s m e He]; cbn in H; try discriminate; inversion H; reflexivity.
  - destruct y as [sy|sy| |sy my ey Hey]; try discriminate. cbn in Hyp. destruct sy; try discriminate.
    destruct x as [sx|sx| |sx mx ex Hex]; try discriminate. cbn in Hp. destruct sx; try discriminate. reflexivity.
Qed.
