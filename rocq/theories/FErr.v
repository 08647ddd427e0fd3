(** Rounding errors of binary64 operations. *)
From Coq Require Import ZArith Bool Reals Lra Lia Psatz.
From Flocq Require Import Core BinarySingleNaN Relative.
From Verif Require Import Arith ArithF SpecF64Conv FFacts FMono FOrder.
Local Open Scope R_scope.
Local Existing Instance prec_gt_0_53.
Local Existing Instance prec_lt_emax_53.

Lemma u64_pos : 0 < u64. Proof. apply bpow_gt_0. Qed.
Lemma u64_small : u64 <= 1 / 1000000000000.
Proof. unfold u64. cbn. lra. Qed.

Lemma rnd_err x : Rabs (rnd64 x - x) <= u64 * (Rabs x + 1).
Proof.
  destruct (error_N_FLT radix2 (-1074) 53 ltac:(reflexivity) (fun x => negb (Z.even x)) x) as (ep & et & H1 & H2 & _ & H4).
  change (FLT_exp (-1074) 53) with fexp64 in H4. rewrite H4.
  replace (x * (1 + ep) + et - x) with (x * ep + et) by ring.
  eapply Rle_trans; [apply Rabs_triang|]. rewrite Rabs_mult, Rmult_plus_distr_l, Rmult_1_r, Rmult_comm.
  apply Rplus_le_compat.
  - apply Rmult_le_compat_r; [apply Rabs_pos|]. eapply Rle_trans; [exact H1|].
    right. unfold u64. rewrite bpow_plus. change (bpow radix2 1) with 2. change (- (53))%Z with (-53)%Z. field.
  - eapply Rle_trans; [exact H2|]. apply Rle_trans with (bpow radix2 (-1074)).
    + pose proof (bpow_gt_0 radix2 (-1074)). lra.
    + apply bpow_le. lia.
Qed.

Definition big : R := bpow radix2 1020.
Lemma big_pos : 1 <= big. Proof. change 1 with (bpow radix2 0). apply bpow_le. lia. Qed.
Lemma rnd_fits x : Rabs x <= big -> Rabs (rnd64 x) < bpow radix2 1024.
Proof.
  intros H. pose proof (rnd_err x) as E. pose proof u64_pos. pose proof u64_small. pose proof big_pos. pose proof (Rabs_pos x).
  assert (Rabs (rnd64 x) <= Rabs x + u64 * (Rabs x + 1)).
  { replace (rnd64 x) with (x + (rnd64 x - x)) by ring. eapply Rle_trans; [apply Rabs_triang|]. lra. }
  assert (bpow radix2 1024 = 16 * big) as ->.
  { unfold big. change 1024%Z with (4 + 1020)%Z. rewrite bpow_plus. reflexivity. }
  nra.
Qed.

Lemma fadd_err (x y : f64) : is_finite x = true -> is_finite y = true -> Rabs (B2R x + B2R y) <= big ->
  is_finite (fadd x y) = true /\ Rabs (B2R (fadd x y) - (B2R x + B2R y)) <= u64 * (Rabs (B2R x + B2R y) + 1).
Proof.
  intros Fx Fy H. destruct (fadd_correct x y Fx Fy (rnd_fits _ H)) as (E & F).
  split; [exact F|]. rewrite E. apply rnd_err.
Qed.
Lemma fmul_correct (x y : f64) : is_finite x = true -> is_finite y = true ->
  Rabs (rnd64 (B2R x * B2R y)) < bpow radix2 1024 ->
  B2R (fmul x y) = rnd64 (B2R x * B2R y) /\ is_finite (fmul x y) = true.
Proof.
  intros Fx Fy H. pose proof (Bmult_correct 53 1024 eq_refl eq_refl mode_NE x y) as C.
  cbn [round_mode] in C. rewrite Rlt_bool_true in C by exact H. destruct C as (C1 & C2 & _).
  split; [exact C1|]. etransitivity; [exact C2|]. rewrite Fx, Fy. reflexivity.
Qed.
Lemma fmul_err (x y : f64) : is_finite x = true -> is_finite y = true -> Rabs (B2R x * B2R y) <= big ->
  is_finite (fmul x y) = true /\ Rabs (B2R (fmul x y) - B2R x * B2R y) <= u64 * (Rabs (B2R x * B2R y) + 1).
Proof.
  intros Fx Fy H. destruct (fmul_correct x y Fx Fy (rnd_fits _ H)) as (E & F).
  split; [exact F|]. rewrite E. apply rnd_err.
Qed.

(** Literals. *)
Lemma f_of_Z_R z : (Z.abs z < 2 ^ 53)%Z -> B2R (f_of_Z z) = IZR z /\ is_finite (f_of_Z z) = true.
Proof.
  intros Hz. pose proof (binary_normalize_correct 53 1024 eq_refl eq_refl mode_NE z 0 false) as C.
  cbn [round_mode] in C.
  assert (F2R (Float radix2 z 0) = IZR z) as EF by (unfold F2R; cbn; ring).
  assert (generic_format radix2 fexp64 (IZR z)) as G.
  { rewrite <- EF. apply generic_format_F2R. intros Hn. unfold cexp. rewrite mag_F2R by exact Hn.
    change fexp64 with (FLT_exp (-1074) 53). unfold FLT_exp. pose proof (mag_le_Zpower radix2 z 53 Hn) as M.
    assert (mag radix2 (IZR z) <= 53)%Z by (apply M; exact Hz). lia. }
  rewrite EF, round_generic in C by (try exact G; apply rnd64_valid || auto with typeclass_instances).
  rewrite Rlt_bool_true in C.
  - destruct C as (C1 & C2 & _). split; assumption.
  - apply Rlt_trans with (bpow radix2 53); [|apply bpow_lt; lia].
    rewrite <- abs_IZR. change (bpow radix2 53) with (IZR (2 ^ 53)). apply IZR_lt. exact Hz.
Qed.
Lemma lit_err z d : (Z.abs z < 2 ^ 53)%Z -> (Zpos d < 2 ^ 53)%Z -> 
  is_finite (f_lit z d) = true /\ Rabs (B2R (f_lit z d) - IZR z / IZR (Zpos d)) <= u64 * (Rabs (IZR z / IZR (Zpos d)) + 1).
Proof.
  intros Hz Hd. unfold f_lit. rewrite (proj2 (Z.ltb_lt _ _) Hz), (proj2 (Z.ltb_lt _ _) Hd). cbn [andb].
  destruct (f_of_Z_R z Hz) as (E1 & F1). destruct (f_of_Z_R (Zpos d) Hd) as (E2 & F2).
  assert (1 <= IZR (Zpos d)) as Hd1 by (apply IZR_le; lia).
  pose proof (Bdiv_correct 53 1024 eq_refl eq_refl mode_NE (f_of_Z z) (f_of_Z (Zpos d))) as C.
  cbn [round_mode] in C. rewrite E1, E2 in C. specialize (C ltac:(lra)).
  rewrite Rlt_bool_true in C.
  - destruct C as (C1 & C2 & _). split; [etransitivity; [exact C2|exact F1]|].
    assert (B2R (fdiv (f_of_Z z) (f_of_Z (Zpos d))) = rnd64 (IZR z / IZR (Zpos d))) as E by exact C1.
    rewrite E. apply rnd_err.
  - apply rnd_fits. apply Rle_trans with (bpow radix2 53); [|apply bpow_le; lia].
    unfold Rdiv. rewrite Rabs_mult, Rabs_inv, (Rabs_right (IZR (Zpos d))) by lra.
    apply Rle_trans with (Rabs (IZR z) * 1).
    + apply Rmult_le_compat_l; [apply Rabs_pos|]. rewrite <- Rinv_1. apply Rinv_le; lra.
    + rewrite Rmult_1_r, <- abs_IZR. change (bpow radix2 53) with (IZR (2 ^ 53)). apply IZR_le. lia.
Qed.

(** Linear combinations with coefficients of moderate size. *)
Section Approx.
Context (W : R).
Hypothesis HW : 1 <= W.
Hypothesis HW2 : W <= bpow radix2 1005.

Definition approx (c : R) (x : f64) (X : R) : Prop := is_finite x = true /\ Rabs (B2R x - X) <= c * u64 * W.
Definition coef (a : f64) (x : R) : Prop := is_finite a = true /\ Rabs x <= 12 /\ Rabs (B2R a - x) <= 30 * u64.

Lemma W_big c : 0 <= c <= 1000 -> c * W <= big.
Proof.
  intros Hc. apply Rle_trans with (bpow radix2 10 * bpow radix2 1005).
  - change (bpow radix2 10) with 1024. apply Rmult_le_compat; lra.
  - rewrite <- bpow_plus. apply bpow_le. lia.
Qed.
Lemma uW c : 0 <= c <= 1000 -> 0 <= c * u64 * W <= 1 / 1000 * W.
Proof.
  intros Hc. pose proof u64_pos. pose proof u64_small.
  assert (0 <= c * u64 <= 1 / 1000) by nra.
  split; [apply Rmult_le_pos; lra|apply Rmult_le_compat_r; lra].
Qed.
Lemma Rabs_near x y d : Rabs (x - y) <= d -> Rabs x <= Rabs y + d.
Proof. intros H. replace x with (y + (x - y)) by ring. eapply Rle_trans; [apply Rabs_triang|]. lra. Qed.
Lemma Rabs_chain x y z a b : Rabs (x - y) <= a -> Rabs (y - z) <= b -> Rabs (x - z) <= a + b.
Proof. intros H1 H2. replace (x - z) with ((x - y) + (y - z)) by ring. eapply Rle_trans; [apply Rabs_triang|]. lra. Qed.

Lemma ap_first a x (k : f64) : coef a x -> is_finite k = true -> Rabs (B2R k) <= W -> approx 50 (fmul a k) (x * B2R k).
Proof.
  intros (Fa & Bx & Ea) Fk Bk. pose proof u64_pos. pose proof u64_small.
  pose proof (Rabs_near _ _ _ Ea) as Ba. assert (Rabs (B2R a) <= 1201 / 100) by lra.
  assert (Rabs (B2R a * B2R k) <= 1201 / 100 * W).
  { rewrite Rabs_mult. apply Rmult_le_compat; try apply Rabs_pos; lra. }
  destruct (fmul_err a k Fa Fk) as (F & E).
  { eapply Rle_trans; [eassumption|]. apply W_big. lra. }
  split; [exact F|]. apply Rle_trans with (u64 * (1301 / 100 * W) + 30 * u64 * W).
  - eapply Rabs_chain.
    + eapply Rle_trans; [exact E|]. apply Rmult_le_compat_l; lra.
    + rewrite <- Rmult_minus_distr_r, Rabs_mult. apply Rmult_le_compat; try apply Rabs_pos; lra.
  - assert (0 <= u64 * W) by (apply Rmult_le_pos; lra). lra.
Qed.

Lemma ap_term b c s S a x (k : f64) : 0 <= b <= 100 -> 0 <= c <= 800 -> Rabs S <= b * W -> approx c s S ->
  coef a x -> is_finite k = true -> Rabs (B2R k) <= W ->
  approx (c + b + 70) (fadd s (fmul a k)) (S + x * B2R k).
Proof.
  intros Hb Hc HS (Fs & Es) Ca Fk Bk. pose proof u64_pos.
  destruct (ap_first a x k Ca Fk Bk) as (Fm & Em). destruct Ca as (_ & Bx & _).
  assert (Rabs (x * B2R k) <= 12 * W) by (rewrite Rabs_mult; apply Rmult_le_compat; try apply Rabs_pos; lra).
  assert (Rabs ((B2R s + B2R (fmul a k)) - (S + x * B2R k)) <= (c + 50) * u64 * W) as E1.
  { replace (_ - _) with ((B2R s - S) + (B2R (fmul a k) - x * B2R k)) by ring.
    eapply Rle_trans; [apply Rabs_triang|]. lra. }
  pose proof (uW (c + 50) ltac:(lra)).
  assert (Rabs (B2R s + B2R (fmul a k)) <= (b + 13) * W).
  { pose proof (Rabs_near _ _ _ E1). pose proof (Rabs_triang S (x * B2R k)). lra. }
  destruct (fadd_err s (fmul a k) Fs Fm) as (F & E).
  { eapply Rle_trans; [eassumption|]. apply W_big. lra. }
  split; [exact F|]. apply Rle_trans with (u64 * ((b + 14) * W) + (c + 50) * u64 * W).
  - eapply Rabs_chain; [|exact E1]. eapply Rle_trans; [exact E|]. apply Rmult_le_compat_l; lra.
  - assert (0 <= u64 * W) by (apply Rmult_le_pos; lra). nra.
Qed.

Lemma ap_scale (h s : f64) S : is_finite h = true -> 0 <= B2R h <= 1 -> Rabs S <= 60 * W -> approx 450 s S ->
  approx 520 (fmul h s) (B2R h * S).
Proof.
  intros Fh Bh HS (Fs & Es). pose proof u64_pos. pose proof (uW 450 ltac:(lra)).
  assert (Rabs (B2R s) <= 61 * W) by (pose proof (Rabs_near _ _ _ Es); lra).
  assert (Rabs (B2R h * B2R s) <= 61 * W).
  { rewrite Rabs_mult, (Rabs_right (B2R h)) by lra. rewrite <- (Rmult_1_l (61 * W)).
    apply Rmult_le_compat; try apply Rabs_pos; lra. }
  destruct (fmul_err h s Fh Fs) as (F & E).
  { eapply Rle_trans; [eassumption|]. apply W_big. lra. }
  split; [exact F|]. apply Rle_trans with (u64 * (62 * W) + 450 * u64 * W).
  - eapply Rabs_chain.
    + eapply Rle_trans; [exact E|]. apply Rmult_le_compat_l; lra.
    + rewrite <- Rmult_minus_distr_l, Rabs_mult, (Rabs_right (B2R h)) by lra. rewrite <- (Rmult_1_l (450 * u64 * W)).
      apply Rmult_le_compat; try apply Rabs_pos; lra.
  - assert (0 <= u64 * W) by (apply Rmult_le_pos; lra). lra.
Qed.

Lemma ap_add (u x : f64) X : is_finite u = true -> Rabs (B2R u) <= W -> Rabs X <= 60 * W -> approx 520 x X ->
  approx 600 (fadd u x) (B2R u + X).
Proof.
  intros Fu Bu HX (Fx & Ex). pose proof u64_pos. pose proof (uW 520 ltac:(lra)).
  assert (Rabs ((B2R u + B2R x) - (B2R u + X)) <= 520 * u64 * W) as E1.
  { replace (_ - _) with (B2R x - X) by ring. exact Ex. }
  assert (Rabs (B2R u + B2R x) <= 62 * W).
  { pose proof (Rabs_near _ _ _ E1). pose proof (Rabs_triang (B2R u) X). lra. }
  destruct (fadd_err u x Fu Fx) as (F & E).
  { eapply Rle_trans; [eassumption|]. apply W_big. lra. }
  split; [exact F|]. apply Rle_trans with (u64 * (63 * W) + 520 * u64 * W).
  - eapply Rabs_chain; [|exact E1]. eapply Rle_trans; [exact E|]. apply Rmult_le_compat_l; lra.
  - assert (0 <= u64 * W) by (apply Rmult_le_pos; lra). lra.
Qed.
Lemma ap_le c c' x X : c <= c' -> approx c x X -> approx c' x X.
Proof.
  intros Hc (F & E). split; [exact F|]. eapply Rle_trans; [exact E|]. pose proof u64_pos.
  apply Rmult_le_compat_r; [lra|]. apply Rmult_le_compat_r; lra.
Qed.

Lemma lit_coef z d : (Z.abs z < 2 ^ 53)%Z -> (Zpos d < 2 ^ 53)%Z -> Rabs (IZR z / IZR (Zpos d)) <= 12 ->
  coef (f_lit z d) (IZR z / IZR (Zpos d)).
Proof.
  intros Hz Hd Hb. destruct (lit_err z d Hz Hd) as (F & E). pose proof u64_pos.
  split; [exact F|]. split; [exact Hb|]. eapply Rle_trans; [exact E|]. rewrite Rmult_comm.
  apply Rmult_le_compat_r; lra.
Qed.
Lemma neg_coef a x : coef a x -> coef (fopp a) (- x).
Proof.
  intros (F & B & E). split; [destruct a; try discriminate; reflexivity|]. split; [rewrite Rabs_Ropp; exact B|].
  unfold fopp. rewrite B2R_Bopp. replace (- B2R a - - x) with (- (B2R a - x)) by ring. rewrite Rabs_Ropp. exact E.
Qed.
(** Accumulated combination. *)
Definition lin (b c : R) (s : f64) (S : R) : Prop := Rabs S <= b * W /\ approx c s S.
Definition fits (k : f64) : Prop := is_finite k = true /\ Rabs (B2R k) <= W.
Lemma lin_1 a x k : coef a x -> fits k -> lin 12 50 (fmul a k) (x * B2R k).
Proof.
  intros Ca (Fk & Bk). split; [|apply ap_first; assumption]. destruct Ca as (_ & Bx & _).
  rewrite Rabs_mult. apply Rmult_le_compat; try apply Rabs_pos; lra.
Qed.
Lemma lin_S b c s S a x k : lin b c s S -> 0 <= b <= 100 -> 0 <= c <= 800 -> coef a x -> fits k ->
  lin (b + 12) (c + b + 70) (fadd s (fmul a k)) (S + x * B2R k).
Proof.
  intros (Bs & As) Hb Hc Ca (Fk & Bk). split; [|apply ap_term; assumption]. destruct Ca as (_ & Bx & _).
  eapply Rle_trans; [apply Rabs_triang|]. rewrite Rmult_plus_distr_r. apply Rplus_le_compat; [exact Bs|].
  rewrite Rabs_mult. apply Rmult_le_compat; try apply Rabs_pos; lra.
Qed.
Lemma lin_end b c s S (u h : f64) : lin b c s S -> b <= 60 -> c <= 450 -> fits u -> is_finite h = true -> 0 <= B2R h <= 1 ->
  approx 600 (fadd u (fmul h s)) (B2R u + B2R h * S).
Proof.
  intros (Bs & As) Hb Hc (Fu & Bu) Fh Bh.
  assert (Rabs S <= 60 * W) by (eapply Rle_trans; [exact Bs|]; apply Rmult_le_compat_r; lra).
  apply ap_add; try assumption.
  - rewrite Rabs_mult, (Rabs_right (B2R h)) by lra. rewrite <- (Rmult_1_l (60 * W)).
    apply Rmult_le_compat; try apply Rabs_pos; lra.
  - apply ap_scale; try assumption. apply ap_le with c; assumption.
Qed.
(** Scaled coefficient. *)
Lemma scaled_coef (h : f64) a x : is_finite h = true -> 0 <= B2R h <= 1 -> is_finite a = true -> Rabs x <= 1 ->
  Rabs (B2R a - x) <= 2 * u64 -> coef (fmul h a) (B2R h * x).
Proof.
  intros Fh Bh Fa Bx Ea. pose proof u64_pos. pose proof u64_small.
  pose proof (Rabs_near _ _ _ Ea).
  assert (Rabs (B2R h * B2R a) <= 2).
  { rewrite Rabs_mult, (Rabs_right (B2R h)) by lra. rewrite <- (Rmult_1_l 2). apply Rmult_le_compat; try apply Rabs_pos; lra. }
  destruct (fmul_err h a Fh Fa) as (F & E).
  { eapply Rle_trans; [eassumption|]. apply Rle_trans with (2 * W); [lra|apply W_big; lra]. }
  split; [exact F|]. split.
  - rewrite Rabs_mult, (Rabs_right (B2R h)) by lra. apply Rle_trans with (1 * 1); [|lra]. apply Rmult_le_compat; try apply Rabs_pos; lra.
  - apply Rle_trans with (u64 * 3 + 1 * (2 * u64)); [|lra]. eapply Rabs_chain.
    + eapply Rle_trans; [exact E|]. apply Rmult_le_compat_l; lra.
    + rewrite <- Rmult_minus_distr_l, Rabs_mult, (Rabs_right (B2R h)) by lra. apply Rmult_le_compat; try apply Rabs_pos; lra.
Qed.
End Approx.
