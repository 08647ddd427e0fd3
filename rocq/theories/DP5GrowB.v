(** Where the stability polynomial of the Dormand-Prince formula is at most 1. *)
From Coq Require Import Reals List Lia Lra.
From Coquelicot Require Import Coquelicot.
From Verif Require Import SpecGrow DP5Mode.
Local Open Scope R_scope.

Lemma cmod_le_1 x y : x ^ 2 + y ^ 2 <= 1 -> Cmod (x, y) <= 1.
Proof. intros H. unfold Cmod. cbn [fst snd]. rewrite <- sqrt_1. apply sqrt_le_1_alt. exact H. Qed.

(** Real arguments. *)
Definition gq (x : R) : R := -1 + x/2 - x^2/6 + x^3/24 - x^4/120 + x^5/600.
Lemma gre_real x : gre (- x) 0 = 1 + x * gq x.
Proof. unfold gre, gq. field. Qed.
Lemma gim_real x : gim (- x) 0 = 0.
Proof. unfold gim. field. Qed.
Lemma gq_mono x y : x <= y -> gq x <= gq y.
Proof.
  intros Hxy. destruct (Req_dec x y) as [->|Hne]; [lra|].
  destruct (MVT_cor2 gq (fun x => 1/2 - x/3 + x^2/8 - x^3/30 + x^4/120) x y) as (w & Hw & _); [lra| |].
  - intros w _. apply is_derive_Reals. unfold gq. auto_derive; [exact I|]. field.
  - assert (0 <= 1/2 - w/3 + w^2/8 - w^3/30 + w^4/120).
    { replace (1/2 - w/3 + w^2/8 - w^3/30 + w^4/120) with (1/120 * (w^2 - 2*w + 3)^2 + (5/120) * (w - 14/5)^2 * 1 + (1/2 - 9/120 - 5/120*(196/25)) + (- 1/3 + 12/120 + 28/120) * w + (1/8 - 10/120 - 5/120) * w^2) by field.
      assert (0 <= (w^2 - 2*w + 3)^2) by apply pow2_ge_0. assert (0 <= (w - 14/5)^2) by apply pow2_ge_0. lra. }
    assert (0 <= (1/2 - w/3 + w^2/8 - w^3/30 + w^4/120) * (y - x)) by (apply Rmult_le_pos; lra). lra.
Qed.
Lemma gre_lower x : -1 < 1 + x * gq x.
Proof.
  unfold gq.
  assert (0 <= x^4 * (x - 5/2)^2) by (apply Rmult_le_pos; [replace (x^4) with ((x^2)^2) by ring; apply pow2_ge_0|apply pow2_ge_0]).
  assert (0 <= x^2 * (x - 8/3)^2) by (apply Rmult_le_pos; apply pow2_ge_0).
  assert (0 <= (x - 9/5)^2) by apply pow2_ge_0.
  replace (1 + x * (-1 + x / 2 - x ^ 2 / 6 + x ^ 3 / 24 - x ^ 4 / 120 + x ^ 5 / 600)) with
    (-1 + 1/600 * (x^4 * (x - 5/2)^2) + 1/32 * (x^2 * (x - 8/3)^2) + 5/18 * (x - 9/5)^2 + (2 - 5/18 * (81/25))) by field. lra.
Qed.
Lemma growth_real_small x : 0 <= x <= 33/10 -> Cmod (dopri_growth (- x, 0)) <= 1.
Proof.
  intros Hx. rewrite growth_pair, gim_real, gre_real. apply cmod_le_1.
  pose proof (gre_lower x). pose proof (gq_mono x (33/10) ltac:(lra)) as M.
  assert (gq (33/10) <= 0) by (unfold gq; lra). assert (x * gq x <= 0) by nra.
  set (r := 1 + x * gq x) in *. assert (-1 < r <= 1) by (unfold r in *; lra). clearbody r. nra.
Qed.
Lemma growth_real_large x : 331/100 <= x -> 1 < Cmod (dopri_growth (- x, 0)).
Proof.
  intros Hx. rewrite growth_pair, gim_real, gre_real.
  pose proof (gq_mono (331/100) x Hx) as M. assert (0 < gq (331/100)) by (unfold gq; lra).
  assert (0 < x * gq x) by nra. unfold Cmod. cbn [fst snd]. rewrite <- sqrt_1 at 1. apply sqrt_lt_1_alt.
  set (r := x * gq x) in *. clearbody r. nra.
Qed.

(** A rectangle at the origin. *)
Lemma pow_le_x x k : 0 <= x <= 1 -> 0 <= x ^ S k <= x.
Proof.
  intros Hx. split; [apply pow_le; lra|]. cbn [pow]. assert (x ^ k <= 1) by (rewrite <- (pow1 k); apply pow_incr; lra).
  assert (0 <= x ^ k) by (apply pow_le; lra). nra.
Qed.
Lemma mono_le x Y i j : 0 <= x <= 1 -> 0 <= Y <= 1 -> 0 <= x ^ S i * Y ^ S j <= x.
Proof.
  intros Hx HY. pose proof (pow_le_x x i Hx). pose proof (pow_le_x Y j HY).
  set (p := x ^ S i) in *. set (q := Y ^ S j) in *. clearbody p q. split; nra.
Qed.
Definition grest (x Y : R) : R :=
  - (1/120) * (x^4*Y^1) - 1/300 * (x^5*Y^1) + 7/1200 * (x^6*Y^1) - 1/360 * (x^7*Y^1) + 11/14400 * (x^8*Y^1) - 1/7200 * (x^9*Y^1) + 1/60000 * (x^10*Y^1)
  + 1/120 * (x^2*Y^2) + 1/60 * (x^3*Y^2) - 1/160 * (x^4*Y^2) - 1/1200 * (x^5*Y^2) + 7/7200 * (x^6*Y^2) - 1/3600 * (x^7*Y^2) + 1/24000 * (x^8*Y^2)
  - 1/180 * (x^1*Y^3) - 19/3600 * (x^2*Y^3) + 1/600 * (x^3*Y^3) + 1/2400 * (x^4*Y^3) - 1/3600 * (x^5*Y^3) + 1/18000 * (x^6*Y^3)
  + 7/7200 * (x^1*Y^4) - 1/14400 * (x^2*Y^4) - 1/7200 * (x^3*Y^4) + 1/24000 * (x^4*Y^4)
  - 1/36000 * (x^1*Y^5) + 1/60000 * (x^2*Y^5).
Definition gaxis (x : R) : R :=
  - 2 + 2*x - 4/3*x^2 + 2/3*x^3 - 4/15*x^4 + 161/1800*x^5 - 23/900*x^6 + 89/14400*x^7 - 1/800*x^8 + 1/4800*x^9 - 1/36000*x^10 + 1/360000*x^11.
Definition gimag (Y : R) : R := - (1/1800) + 1/1600*Y - 1/14400*Y^2 + 1/360000*Y^3.
Lemma growth_square x y : gre (- x) y ^ 2 + gim (- x) y ^ 2 = 1 + x * gaxis x + (y^2)^3 * gimag (y^2) + grest x (y^2).
Proof. unfold gre, gim, gaxis, gimag, grest. field. Qed.
Lemma grest_le x Y : 0 <= x <= 1 -> 0 <= Y <= 1 -> grest x Y <= x / 10.
Proof.
  intros Hx HY. assert (forall i j, 0 <= x ^ S i * Y ^ S j <= x) as M by (intros; now apply mono_le). unfold grest.
  pose proof (M 3 0)%nat. pose proof (M 4 0)%nat. pose proof (M 5 0)%nat. pose proof (M 6 0)%nat. pose proof (M 7 0)%nat. pose proof (M 8 0)%nat. pose proof (M 9 0)%nat.
  pose proof (M 1 1)%nat. pose proof (M 2 1)%nat. pose proof (M 3 1)%nat. pose proof (M 4 1)%nat. pose proof (M 5 1)%nat. pose proof (M 6 1)%nat. pose proof (M 7 1)%nat.
  pose proof (M 0 2)%nat. pose proof (M 1 2)%nat. pose proof (M 2 2)%nat. pose proof (M 3 2)%nat. pose proof (M 4 2)%nat. pose proof (M 5 2)%nat.
  pose proof (M 0 3)%nat. pose proof (M 1 3)%nat. pose proof (M 2 3)%nat. pose proof (M 3 3)%nat.
  pose proof (M 0 4)%nat. pose proof (M 1 4)%nat. clear M. lra.
Qed.
Lemma gaxis_le x : 0 <= x <= 1 -> gaxis x <= - (1/2).
Proof.
  intros Hx.
  assert (forall k, 0 <= x ^ S k <= x ^ k) as M.
  { intros k. assert (0 <= x ^ k) by (apply pow_le; lra). cbn [pow]. split; nra. }
  unfold gaxis.
  pose proof (M 2)%nat. pose proof (M 3)%nat. pose proof (M 4)%nat. pose proof (M 5)%nat. pose proof (M 6)%nat. pose proof (M 7)%nat. pose proof (M 8)%nat. pose proof (M 9)%nat. pose proof (M 10)%nat. clear M.
  assert (-2 + 2 * x - 2/3 * x^2 <= -2/3) by nra. lra.
Qed.
Lemma gimag_le Y : 0 <= Y <= 81/100 -> gimag Y <= 0.
Proof. intros H. unfold gimag. assert (0 <= Y^2 <= 1) by nra. assert (Y^3 <= Y^2) by nra. lra. Qed.
Lemma growth_box x y : 0 <= x <= 1 -> Rabs y <= 9/10 -> Cmod (dopri_growth (- x, y)) <= 1.
Proof.
  intros Hx Hy. rewrite growth_pair. apply cmod_le_1. rewrite growth_square.
  assert (0 <= y ^ 2 <= 81/100) as HY.
  { split; [apply pow2_ge_0|]. rewrite <- (pow2_abs y). pose proof (Rabs_pos y). nra. }
  pose proof (gaxis_le x Hx). pose proof (grest_le x (y^2) Hx ltac:(lra)). pose proof (gimag_le (y^2) HY).
  assert (0 <= (y^2)^3) by (apply pow_le; lra).
  assert (x * gaxis x <= x * - (1/2)) by (apply Rmult_le_compat_l; lra).
  assert ((y^2)^3 * gimag (y^2) <= 0) by (set (w := (y^2)^3) in *; clearbody w; nra). lra.
Qed.
