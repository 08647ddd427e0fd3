(** Radau5 accepts every step when steps are small. *)
From Coq Require Import Reals List Lia Lra Arith Bool ZArith.
From RecordUpdate Require Import RecordSet.
From Verif Require Import Arith Vec Core ArithR SpecRK SpecODE SpecLin SpecRadau SpecStage SpecIRK SpecConv RKFacts BigO ConvGlobal RadauStage RadauRef RadRefDet RadConvLocal RadConvRun.
Import ListNotations RecordSetNotations.
Local Open Scope R_scope.

Section Lin.
Context (n : nat) (BJ : R) (J : list (list R)) (h : R).
Hypothesis HBJ : 0 <= BJ.
Hypothesis HJ : jac_small n BJ J.
Hypothesis Hh : 0 < h.
Hypothesis Hs : h * (INR n * BJ) <= / 2.

Lemma abs_sum_pos (v : nat -> R) : 0 <= rsum n (fun j => Rabs (v j)).
Proof. rewrite <- (rsum_zero n). apply rsum_le. intros. apply Rabs_pos. Qed.
Lemma filtered_bound (v : nat -> R) (Q : R) :
  (forall i, (i < n)%nat -> Rabs (radau_gamma / h * v i - rsum n (fun j => entry J i j * v j)) <= Q) ->
  rsum n (fun j => Rabs (v j)) <= h * (INR n * Q).
Proof.
  intros Hq. set (s := rsum n (fun j => Rabs (v j))).
  assert (0 <= s) as Hs0 by apply abs_sum_pos.
  assert (forall i, (i < n)%nat -> radau_gamma * Rabs (v i) <= h * (Q + BJ * s)) as H1.
  { intros i Hi. specialize (Hq i Hi). pose proof (mat_abs n J BJ v HJ i Hi) as Hm. fold s in Hm.
    set (r := rsum n _) in *.
    assert (radau_gamma * v i = h * ((radau_gamma / h * v i - r) + r)) as Ev by (field; lra).
    replace (radau_gamma * Rabs (v i)) with (Rabs (radau_gamma * v i)).
    2:{ rewrite Rabs_mult, (Rabs_pos_eq radau_gamma) by (unfold radau_gamma; lra). reflexivity. }
    rewrite Ev, Rabs_mult, (Rabs_pos_eq h) by lra. apply Rmult_le_compat_l; [lra|].
    eapply Rle_trans; [apply Rabs_triang|]. lra. }
  assert (radau_gamma * s <= INR n * (h * (Q + BJ * s))) as H2.
  { unfold s at 1. rewrite <- rsum_scale, <- rsum_const. now apply rsum_le. }
  assert (h * (INR n * BJ) * s <= / 2 * s) by (apply Rmult_le_compat_r; assumption).
  assert (2 * s <= radau_gamma * s) by (apply Rmult_le_compat_r; [assumption|unfold radau_gamma; lra]). lra.
Qed.

Lemma small_regular : regular n h J.
Proof.
  split.
  - intros (x & (i & Hi & Hx) & _ & Hz). apply Hx.
    assert (rsum n (fun j => Rabs (comp x j)) <= h * (INR n * 0)) as Hb.
    { apply (filtered_bound (comp x) 0). intros k Hk. specialize (Hz k Hk). rewrite shifted_sum, comp_zeros in Hz by exact Hk.
      rewrite Hz, Rabs_R0. lra. }
    pose proof (rsum_term n (fun j => Rabs (comp x j)) i Hi ltac:(intros; apply Rabs_pos)) as Ht. cbv beta in Ht.
    pose proof (Rabs_pos (comp x i)). assert (Rabs (comp x i) = 0) as E by lra. destruct (Req_dec (comp x i) 0) as [E0|E0]; [exact E0|].
    now apply Rabs_no_R0 in E0.
  - intros (x & w & (i & Hi & Hx) & _ & _ & Hz).
    set (sx := rsum n (fun j => Rabs (comp x j))). set (sw := rsum n (fun j => Rabs (comp w j))).
    assert (0 <= sx /\ 0 <= sw) as (Hx0 & Hw0) by (split; apply abs_sum_pos).
    assert (forall k, (k < n)%nat -> Rabs (comp x k) + Rabs (comp w k) <= h * (BJ * (sx + sw))) as H1.
    { intros k Hk. destruct (Hz k Hk) as (Z1 & Z2). rewrite comp_zeros in Z1, Z2.
      rewrite rsum_minus in Z1. rewrite rsum_plus in Z2. rewrite shifted_sum in Z1, Z2 by exact Hk. rewrite diagonal_sum in Z1, Z2 by exact Hk.
      pose proof (mat_abs n J BJ (comp x) HJ k Hk) as Mx. pose proof (mat_abs n J BJ (comp w) HJ k Hk) as Mw. fold sx in Mx. fold sw in Mw.
      set (rx := rsum n (fun j => entry J k j * comp x j)) in *. set (rw := rsum n (fun j => entry J k j * comp w j)) in *.
      pose proof (solved_bound h 0 rx rw 0 (comp x k) (comp w k) Hh) as Hb. rewrite !Rabs_R0 in Hb.
      assert (radau_gamma * (0 / h) = 0) as E0 by (unfold Rdiv; ring).
      assert (rad_alpha * (comp x k / h) - rad_beta * (comp w k / h) = rx) as E1 by (unfold Rdiv in *; lra).
      assert (rad_beta * (comp x k / h) + rad_alpha * (comp w k / h) = rw) as E2 by (unfold Rdiv in *; lra).
      specialize (Hb E0 E1 E2). assert (h * (Rabs rx + Rabs rw) <= h * (BJ * (sx + sw))) by (apply Rmult_le_compat_l; lra). lra. }
    assert (sx + sw <= INR n * (h * (BJ * (sx + sw)))) as H2.
    { unfold sx at 1, sw at 1. rewrite <- rsum_plus, <- rsum_const. now apply rsum_le. }
    assert (h * (INR n * BJ) * (sx + sw) <= / 2 * (sx + sw)) by (apply Rmult_le_compat_r; lra).
    assert (sx + sw <= 0) as H3 by lra.
    pose proof (H1 i Hi) as H4. assert (sx + sw = 0) as H5 by lra. rewrite H5 in H4.
    pose proof (Rabs_pos (comp x i)). pose proof (Rabs_pos (comp w i)).
    destruct Hx as [Hx|Hx]; apply Rabs_no_R0 in Hx; apply Hx; lra.
Qed.
End Lin.

(** The estimate is of the size of the step. *)
Lemma radau_e_bound z0 z1 z2 a : Rabs z0 <= a -> Rabs z1 <= a -> Rabs z2 <= a ->
  Rabs (radau_e 0 * z0 + radau_e 1 * z1 + radau_e 2 * z2) <= 15 * a.
Proof.
  intros H0 H1 H2. assert (2 <= sqrt 6 <= 3) as Hq.
  { split; [rewrite <- (sqrt_pow2 2) by lra|rewrite <- (sqrt_pow2 3) by lra]; apply sqrt_le_1_alt; lra. }
  unfold radau_e. set (q := sqrt 6) in *. clearbody q. pose proof (Rabs_pos z0) as Ha.
  assert (forall c z b, Rabs c <= b -> Rabs z <= a -> Rabs (c * z) <= b * a) as Hm.
  { intros c z b Hc Hz. rewrite Rabs_mult. apply Rmult_le_compat; try apply Rabs_pos; assumption. }
  pose proof (Hm (- (13 + 7 * q) / 3) z0 (34/3) ltac:(apply Rabs_le; lra) H0) as M0.
  pose proof (Hm ((-13 + 7 * q) / 3) z1 (8/3) ltac:(apply Rabs_le; lra) H1) as M1.
  pose proof (Hm (- (1 / 3)) z2 (1/3) ltac:(apply Rabs_le; lra) H2) as M2.
  eapply Rle_trans; [apply Rabs_triang|]. eapply Rle_trans; [apply Rplus_le_compat_r; apply Rabs_triang|]. lra.
Qed.
Lemma tol_rms_bound n at' rt u v a : (0 < n)%nat -> 0 < at' -> 0 <= rt -> 0 <= a ->
  (forall i, (i < n)%nat -> Rabs (comp v i) <= a) -> tol_rms n at' rt u v <= a / at'.
Proof.
  intros Hn Hat Hrt Ha Hv. unfold tol_rms.
  assert (0 <= a / at') as Hq by (apply Rmult_le_pos; [exact Ha|]; left; now apply Rinv_0_lt_compat).
  rewrite <- (sqrt_pow2 (a / at') Hq). apply sqrt_le_1_alt.
  assert (0 < INR n) by (apply lt_0_INR; lia). apply Rmult_le_reg_r with (INR n); [assumption|].
  unfold Rdiv at 1. rewrite Rmult_assoc, Rinv_l, Rmult_1_r by lra.
  rewrite (Rmult_comm _ (INR n)), <- rsum_const. apply rsum_le. intros i Hi.
  rewrite <- (pow2_abs (comp v i / _)). apply pow_incr. split; [apply Rabs_pos|].
  assert (0 <= rt * Rabs (comp u i)) by (apply Rmult_le_pos; [assumption|apply Rabs_pos]).
  unfold Rdiv. rewrite Rabs_mult, (Rabs_right (/ (at' + _))) by (left; apply Rinv_0_lt_compat; lra).
  apply Rmult_le_compat; [apply Rabs_pos|left; apply Rinv_0_lt_compat; lra|now apply Hv|apply Rinv_le_contravar; lra].
Qed.

Lemma newton_upper {inf : R} (o : opts (RA inf)) n f t u h m k e0 q th c w z r : newton_from n f o t u h m k e0 q th c w z r ->
  match r with Converged k' _ _ _ => (k' <= iters o)%nat | Failed _ _ _ _ => True end.
Proof. intros H. induction H; try exact I; [lia|assumption]. Qed.

(** Step sizes do not shrink. *)
Lemma root4 x s : 0 < x -> 0 < s -> x <= s ^ 4 -> Rpower x (1/4) <= s.
Proof.
  intros Hx Hs H. apply Rle_trans with (Rpower (s ^ 4) (1/4)); [apply Rle_Rpower_l; lra|].
  rewrite <- (Rpower_pow 4 s Hs), Rpower_mult. cbn [INR]. replace ((1 + 1 + 1 + 1) * (1/4)) with 1 by field.
  rewrite Rpower_1 by exact Hs. lra.
Qed.
Section Pred.
Context {inf : R} (o : opts (RA inf)).
Hypothesis Hsane : radau_sane o.
Hypothesis Hit : (0 < iters o)%nat.
Lemma clamp_le1 q : q <= 1 -> clamp o q <= 1.
Proof. intros Hq. destruct Hsane as [_ _ Hf _ _]. apply Rmax_lub; [lra|]. eapply Rle_trans; [apply Rmin_r|exact Hq]. Qed.
Lemma quotient_le1 e k : 0 < e <= (o_safe o / 2) ^ 4 -> (k <= iters o)%nat -> quotient o e k <= 1.
Proof.
  intros He Hk. apply clamp_le1. destruct Hsane as [(S1 & S2) _ _ _ _].
  pose proof (root4 e (o_safe o / 2) (proj1 He) ltac:(lra) (proj2 He)) as Hr.
  set (d := Rmin _ _).
  assert (o_safe o / 2 <= d) as Hd.
  { apply Rmin_glb; [lra|]. set (N := iters o) in *.
    assert (0 < INR (k + 2 * N)) as H1 by (apply lt_0_INR; lia).
    apply Rmult_le_reg_r with (INR (k + 2 * N)); [exact H1|]. unfold Rdiv at 2. rewrite (Rmult_assoc _ (/ _)), Rinv_l by lra.
    assert (INR (k + 2 * N) <= 2 * INR (1 + 2 * N)) as H2.
    { change 2 with (INR 2). rewrite <- mult_INR. apply le_INR. lia. }
    assert (o_safe o / 2 * INR (k + 2 * N) <= o_safe o / 2 * (2 * INR (1 + 2 * N))) by (apply Rmult_le_compat_l; lra). lra. }
  apply Rmult_le_reg_r with d; [lra|]. unfold Rdiv. rewrite Rmult_assoc, Rinv_l by lra. lra.
Qed.
Lemma predicted_le1 x e k : 0 < e <= (o_safe o / 2) ^ 4 -> (k <= iters o)%nat -> 0 < p_h x ->
  (accepts (p_stats x) <> 0%nat -> o_modern_pred o = true -> 0 <= p_hacc x <= p_h x /\ 1/100 <= p_eacc x) ->
  predicted o x e k <= 1.
Proof.
  intros He Hk Hh Ha. pose proof (quotient_le1 e k He Hk) as Hq. unfold predicted.
  destruct (o_modern_pred o) eqn:Em; [|exact Hq]. destruct (first_step x) eqn:Ef; [exact Hq|]. cbn [andb negb].
  unfold first_step in Ef. apply Nat.eqb_neq in Ef. destruct (Ha Ef eq_refl) as (A1 & A2).
  apply Rmax_lub; [exact Hq|]. apply clamp_le1. destruct Hsane as [(S1 & S2) _ _ _ _].
  assert (10 * e <= o_safe o ^ 2) as H1.
  { set (s := o_safe o) in *. assert (s ^ 2 <= 1) as Hs2 by nra. assert (0 <= s ^ 2) by nra.
    replace ((s / 2) ^ 4) with (s ^ 2 * s ^ 2 / 16) in He by field. nra. }
  assert (0 < e ^ 2 / p_eacc x) as H2. { apply Rdiv_lt_0_compat; [apply pow_lt; lra|lra]. }
  assert (e ^ 2 / p_eacc x <= o_safe o ^ 4) as H3.
  { apply Rmult_le_reg_r with (p_eacc x); [lra|]. unfold Rdiv. rewrite Rmult_assoc, Rinv_l, Rmult_1_r by lra.
    assert ((10 * e) ^ 2 <= (o_safe o ^ 2) ^ 2) as H4 by (apply pow_incr; lra).
    assert (0 <= o_safe o ^ 4) as H5 by (apply pow_le; lra).
    replace ((o_safe o ^ 2) ^ 2) with (o_safe o ^ 4) in H4 by ring.
    assert (o_safe o ^ 4 * (1/100) <= o_safe o ^ 4 * p_eacc x) by (apply Rmult_le_compat_l; assumption). lra. }
  pose proof (root4 _ (o_safe o) H2 S1 H3) as Hr.
  assert (0 < Rpower (e ^ 2 / p_eacc x) (1/4)) as Hp by apply exp_pos. set (r := Rpower _ _) in *.
  assert (0 <= p_hacc x / p_h x <= 1) as Hd.
  { split; [apply Rmult_le_pos; [lra|left; now apply Rinv_0_lt_compat]|].
    apply Rmult_le_reg_r with (p_h x); [exact Hh|]. unfold Rdiv. rewrite Rmult_assoc, Rinv_l by lra. lra. }
  set (d := p_hacc x / p_h x) in *. apply Rmult_le_reg_r with (o_safe o); [exact S1|].
  unfold Rdiv. rewrite Rmult_assoc, Rinv_l by lra. nra.
Qed.
End Pred.

Section Run.
Context {inf : R} (n : nat) (f : R -> list R -> list R) (Jac : R -> list R -> list (list R)) (o : opts (RA inf))
        (t0 tf : R) (y : R -> list R) (L B M BJ : R).
Hypothesis HL0 : 0 <= L.
Hypothesis HB0 : 0 <= B.
Hypothesis HM0 : 0 <= M.
Hypothesis HBJ : 0 <= BJ.
Hypothesis Hlen : forall t, length (y t) = n.
Hypothesis Hsol : forall i t, (i < n)%nat -> t0 <= t <= tf ->
    derivable_pt_lim (fun s => comp (y s) i) t (comp (f t (y t)) i).
Hypothesis Hslope : forall s t, t0 <= s <= tf -> t0 <= t <= tf ->
    close n (B * Rabs (s - t)) (f s (y s)) (f t (y t)).
Hypothesis Hlip : forall t u v d,
    t0 <= t <= tf -> length u = n -> length v = n -> close n d u v -> close n (L * d) (f t u) (f t v).
Hypothesis HM : forall t i, t0 <= t <= tf -> (i < n)%nat -> Rabs (comp (f t (y t)) i) <= M.
Hypothesis HJac : forall t u, t0 <= t <= tf -> length u = n -> jac_small n BJ (Jac t u).
Hypothesis Hn : (0 < n)%nat.
Hypothesis Hsane : radau_sane o.
Hypothesis Hatol : 0 < atol o.
Hypothesis Hrtol : 0 <= rtol o.
Notation Cw := (cst_w n L B M BJ).
Notation A := (cst_A n o L B M BJ).
Notation C2 := (cst_2 n L B M BJ A).
Notation Cd := (cst_d n L B M BJ A).
Context (H : R) (E : R -> R).
Hypothesis HH : 0 < H.
Hypothesis HS1 : 10001/10000 * H <= 1.
Hypothesis HS2 : A * (10001/10000 * H) <= 1.
Hypothesis HS3 : 10001/10000 * H * (INR n * BJ) <= / 2.
Hypothesis HE0 : forall t, t0 <= t -> 0 <= E t.
Hypothesis HEm : forall s t, t0 <= s -> s <= t -> E s <= E t.
Hypothesis HEs : forall t h, t0 <= t -> 0 < h <= H -> t + h <= tf ->
  E t + h * (/ 10 ^ 16 * M + 6 * L * E t + C2 * (h * (1 + E t))) + B * h ^ 2 <= E (t + h).
Hypothesis HN : 99 * (Cd * (10001/10000 * H * (1 + E tf)) / atol o) <= newton_tol o.
(** What is new. *)
Context (h0 : R).
Hypothesis Hh0 : 0 < h0.
Hypothesis Hit : (0 < iters o)%nat.
Hypothesis Hsafe : 1/100 <= o_safe o.
Hypothesis HD : 10001/10000 * (o_dtmax o / o_quot1 o) <= H.
Definition cst_Q : R := M + L * E tf + 15 * (Cw * (1 + E tf)).
Hypothesis HQ : H * (INR n * cst_Q) / atol o <= (o_safe o / 2) ^ 4.
Hypothesis Hbudget : tf - t0 <= (INR (o_max_steps o) - 1) * h0.
Hypothesis Heps : Rmax (Rabs t0) (Rabs tf) * / IZR (2 ^ 52) < h0 / 100000.
Notation inv := (inv n o t0 tf y L B M BJ H E).
Notation btw := (btw n o t0 tf y L B M BJ H E).
Notation mok := (mok n o BJ H).

Definition steady (x : rpilot) : Prop :=
  accepts (p_stats x) <> 0%nat -> o_modern_pred o = true -> 0 <= p_hacc x <= p_h x /\ 1/100 <= p_eacc x.
Record pre (x : rpilot) : Prop := {
  a_inv : inv x;
  a_again : p_again x = false;
  a_code : p_code x = RContinue;
  a_h : h0 / 10000 <= p_h x <= H;
  a_go : p_last x = false -> h0 <= p_h x <= o_dtmax o /\ p_t x + p_h x * (10001/10000) < tf /\ steady x;
  a_time : INR (steps (p_stats x)) * h0 <= p_t x - t0 }.
Record smooth (x : rpilot) : Prop := {
  s_btw : btw x;
  s_again : p_again x = false;
  s_code : p_code x = RContinue;
  s_left : h0 / 10000 <= tf - p_t x;
  s_end : p_last x = true -> p_h x <= o_dtmax o / o_quot1 o;
  s_go : p_last x = false -> h0 <= p_h x <= o_dtmax o /\ steady x;
  s_time : INR (steps (p_stats x)) * h0 <= p_t x - t0 }.

Lemma dtmax_H : o_dtmax o <= o_dtmax o / o_quot1 o.
Proof.
  destruct Hsane as [_ _ _ Hq Hd]. assert (1 <= / o_quot1 o) by (rewrite <- Rinv_1; apply Rinv_le_contravar; lra). unfold Rdiv. nra.
Qed.
Lemma aimed_pre x : smooth x -> pre (aimed tf x).
Proof.
  intros [W W1 W2 W3 W4 W5 W6]. pose proof (aimed_inv n o t0 tf y L B M BJ Hsane H E x W) as V.
  pose proof dtmax_H as HdH. destruct Hsane as [_ _ _ _ Hd].
  unfold aimed in *. destruct (Rle_dec tf (p_t x + p_h x * (10001/10000))) as [Hle|Hgt].
  - constructor; [exact V|exact W1|exact W2| | |exact W6]; cbn; [|discriminate].
    split; [exact W3|]. destruct (p_last x); [specialize (W4 eq_refl)|destruct (W5 eq_refl) as (W5' & _)]; lra.
  - assert (p_last x = false) as El. { destruct (p_last x) eqn:El; [|reflexivity]. pose proof (w_last _ _ _ _ _ _ _ _ _ _ _ _ W El). pose proof (w_t _ _ _ _ _ _ _ _ _ _ _ _ W). lra. }
    destruct (W5 El) as (W7 & W8). constructor; [exact V|exact W1|exact W2|lra| |exact W6].
    intros _. split; [exact W7|]. split; [lra|exact W8].
Qed.
Lemma matrices_pre x x' r : matrices n Jac x x' r -> pre x -> pre x' /\ exists m, r = Some m /\ mok x' m.
Proof.
  intros Hm V. pose proof (matrices_inv n Jac o t0 tf y L B M BJ HJac H E _ _ _ Hm (a_inv x V)) as (V' & _ & _ & K).
  assert (regular n (p_h x) (p_jac x)) as Hreg.
  { apply (small_regular n BJ); [exact (v_jac _ _ _ _ _ _ _ _ _ _ _ _ (a_inv x V))|exact (v_h _ _ _ _ _ _ _ _ _ _ _ _ (a_inv x V))|].
    eapply Rle_trans; [|exact HS3]. apply Rmult_le_compat_r; [apply Rmult_le_pos; [apply pos_INR|exact HBJ]|].
    pose proof (a_h x V). lra. }
  destruct Hm as [x m Em|x Em R|x Em R S|x x' r Em R S G]; try (exfalso; apply R; exact Hreg).
  - split; [exact V|]. exists m. split; [reflexivity|exact K].
  - split; [|eexists; split; [reflexivity|exact K]]. destruct V as [V1 V2 V3 V4 V5 V6]. constructor; assumption.
Qed.
Lemma not_tiny x : inv x -> h0 / 10000 <= p_h x -> ~ tiny x.
Proof.
  intros V Hh Ht. unfold tiny in Ht. pose proof (v_t _ _ _ _ _ _ _ _ _ _ _ _ V) as Hv.
  assert (Rabs (p_t x) <= Rmax (Rabs t0) (Rabs tf)) as Ha.
  { destruct (Rle_dec 0 (p_t x)) as [Hp|Hp].
    - eapply Rle_trans; [|apply Rmax_r]. rewrite !Rabs_pos_eq by lra. lra.
    - eapply Rle_trans; [|apply Rmax_l]. rewrite !Rabs_left1 by lra. lra. }
  assert (0 < / IZR (2 ^ 52)) by (apply Rinv_0_lt_compat, IZR_lt; lia).
  assert (Rabs (p_t x) * / IZR (2 ^ 52) <= Rmax (Rabs t0) (Rabs tf) * / IZR (2 ^ 52)) by (apply Rmult_le_compat_r; lra). lra.
Qed.
Lemma newton_works x m r : inv x -> mok x m -> p_h x <= H -> newton_result n f o x m r ->
  match r with
  | Converged _ _ _ z => settled n f y L B M BJ A (p_t x) (p_h x) (E (p_t x)) m z
  | Failed _ _ _ _ => False end.
Proof.
  intros V K Hh Hr. pose proof K as (K1 & K2 & K3 & K4 & _).
  set (x' := x <| p_mat := Some m |>).
  assert (inv x') as V'.
  { destruct V as [V1 V2 V3 V4 V5 V6 V7 V8 V9 V10]. constructor; cbn; try assumption.
    intros m' [= <-]. repeat split; try assumption; lra. }
  assert (mok x' m) as K'.
  { repeat split; try assumption; try (cbn; lra). right. split; [cbn; lra|exact Hit]. }
  pose proof (newton_ok n f o t0 tf y L B M BJ HL0 HB0 HM0 HBJ Hlen Hsol Hslope Hlip HM Hn Hatol Hrtol H E HS1 HS2 HS3 HE0 HEm HN x' m r V' K' ltac:(cbn; lra) Hr) as G.
  destruct r; [exact G|discriminate G].
Qed.
Lemma estimate_small x m z e k : inv x -> mok x m -> p_h x <= H ->
  settled n f y L B M BJ A (p_t x) (p_h x) (E (p_t x)) m z -> estimate n f o x m z e k -> 0 < e <= (o_safe o / 2) ^ 4.
Proof.
  intros V K Hh (Z1 & _) (v & (Hv & Hf) & He). pose proof K as (K1 & K2 & K3 & K4 & _).
  pose proof (v_t _ _ _ _ _ _ _ _ _ _ _ _ V) as Ht. pose proof (v_h _ _ _ _ _ _ _ _ _ _ _ _ V) as Hh'.
  assert (E (p_t x) <= E tf) as HEt by (apply HEm; lra). pose proof (HE0 (p_t x) ltac:(lra)) as HE1.
  assert (0 <= Cw) as HCw by (now apply Cw_pos).
  assert (forall i, (i < n)%nat -> Rabs (radau_gamma / fst m * comp v i - rsum n (fun j => entry (snd m) i j * comp v j)) <= cst_Q) as Hr.
  { intros i Hi. rewrite (Hf i Hi).
    pose proof (radau_e_bound _ _ _ _ (Z1 0%nat i Hi) (Z1 1%nat i Hi) (Z1 2%nat i Hi)) as Hz.
    set (s := radau_e 0 * _ + _ + _) in *.
    assert (Rabs (s / p_h x) <= 15 * (Cw * (1 + E tf))) as H1.
    { unfold Rdiv. rewrite Rabs_mult, (Rabs_pos_eq (/ p_h x)) by (left; now apply Rinv_0_lt_compat).
      apply Rmult_le_reg_r with (p_h x); [exact Hh'|]. rewrite Rmult_assoc, Rinv_l, Rmult_1_r by lra.
      eapply Rle_trans; [exact Hz|].
      assert (Cw * (p_h x * (1 + E (p_t x))) <= Cw * (p_h x * (1 + E tf))) by (apply Rmult_le_compat_l; [exact HCw|]; apply Rmult_le_compat_l; lra). lra. }
    pose proof (Hlip (p_t x) (p_u x) (y (p_t x)) (E (p_t x)) Ht (v_len _ _ _ _ _ _ _ _ _ _ _ _ V) (Hlen _) (v_close _ _ _ _ _ _ _ _ _ _ _ _ V) i Hi) as H2.
    pose proof (HM (p_t x) i Ht Hi) as H3.
    assert (L * E (p_t x) <= L * E tf) by (apply Rmult_le_compat_l; lra).
    unfold cst_Q. eapply Rle_trans; [apply Rabs_triang|].
    replace (comp (f (p_t x) (p_u x)) i) with ((comp (f (p_t x) (p_u x)) i - comp (f (p_t x) (y (p_t x))) i) + comp (f (p_t x) (y (p_t x))) i) by ring.
    eapply Rle_trans; [apply Rplus_le_compat_r; apply Rabs_triang|]. lra. }
  assert (0 <= cst_Q) as HQ0.
  { eapply Rle_trans; [apply Rabs_pos|apply (Hr 0%nat Hn)]. }
  assert (rsum n (fun j => Rabs (comp v j)) <= fst m * (INR n * cst_Q)) as Hsum.
  { apply (filtered_bound n BJ (snd m) (fst m) K4 (proj1 K1)); [|exact Hr].
    eapply Rle_trans; [|exact HS3]. apply Rmult_le_compat_r; [apply Rmult_le_pos; [apply pos_INR|exact HBJ]|]. lra. }
  assert (fst m * (INR n * cst_Q) <= H * (INR n * cst_Q)) as Hmh.
  { apply Rmult_le_compat_r; [apply Rmult_le_pos; [apply pos_INR|exact HQ0]|lra]. }
  assert (tol_rms n (atol o) (rtol o) (p_u x) v <= (o_safe o / 2) ^ 4) as Hrms.
  { eapply Rle_trans; [|exact HQ]. apply tol_rms_bound; try assumption.
    - apply Rmult_le_pos; [lra|]. apply Rmult_le_pos; [apply pos_INR|exact HQ0].
    - intros i Hi. eapply Rle_trans; [apply (rsum_term n (fun j => Rabs (comp v j)) i Hi); intros; apply Rabs_pos|]. lra. }
  assert (1 / 10000000000 <= (o_safe o / 2) ^ 4) as Hfl.
  { apply Rle_trans with ((1 / 200) ^ 4); [lra|]. apply pow_incr. lra. }
  assert ((o_safe o / 2) ^ 4 < 1) as Hlt.
  { destruct Hsane as [(S1 & S2) _ _ _ _]. apply Rle_lt_trans with ((1/2) ^ 4); [apply pow_incr; lra|lra]. }
  set (nv := Rmax _ _) in He.
  assert (0 < nv <= (o_safe o / 2) ^ 4) as Hnv.
  { unfold nv. split; [eapply Rlt_le_trans; [|apply Rmax_r]; lra|]. now apply Rmax_lub. }
  cbv zeta in He. fold nv in He.
  destruct (Rlt_dec nv 1) as [_|Hc]; [|exfalso; apply Hc; lra]. destruct He as (-> & _). exact Hnv.
Qed.
Lemma accept_smooth x m z e th k : inv x -> mok x m -> p_again x = false -> p_code x = RContinue -> h0 / 10000 <= p_h x <= H ->
  (p_last x = false -> h0 <= p_h x <= o_dtmax o /\ p_t x + p_h x * (10001/10000) < tf /\ steady x) ->
  INR (steps (p_stats x)) * h0 <= p_t x - t0 + h0 ->
  settled n f y L B M BJ A (p_t x) (p_h x) (E (p_t x)) m z -> 0 < e <= (o_safe o / 2) ^ 4 -> (k <= iters o)%nat ->
  let x' := accept n Jac o tf x m z e th k in
  p_code x' = RSuccess /\ p_t x' = tf \/ smooth x'.
Proof.
  intros V K Ha Hc Hh Hgo Htime Z He Hk x'.
  pose proof (accept_fine n f Jac o t0 tf y L B M BJ HL0 HB0 HM0 HBJ Hsol Hslope HM HJac Hsane H E HH HS1 HS2 HS3 HEm HEs x m z e th k V K (proj2 Hh) Hit Z) as (G & _).
  fold x' in G. revert G. unfold x', accept. cbv zeta. rewrite Ha. destruct (p_last x) eqn:El.
  - intros _. left. cbn. split; [reflexivity|]. pose proof (v_last _ _ _ _ _ _ _ _ _ _ _ _ V El). lra.
  - destruct (Hgo eq_refl) as (G1 & G2 & G3). intros G. right. pose proof Hsane as [_ _ _ Hq Hd].
    pose proof (predicted_le1 o Hsane Hit x e k He Hk (v_h _ _ _ _ _ _ _ _ _ _ _ _ V) G3) as Hp1.
    pose proof (predicted_facr o x e k) as Hp2. destruct Hsane as [_ _ Hf _ _].
    set (h1 := Rmin (p_h x / predicted o x e k) (o_dtmax o)) in *.
    assert (p_h x <= h1 <= o_dtmax o) as Hh1.
    { split; [|apply Rmin_r]. apply Rmin_glb; [|lra]. apply Rmult_le_reg_r with (predicted o x e k); [lra|].
      unfold Rdiv. rewrite Rmult_assoc, Rinv_l by lra. nra. }
    assert (INR (S (accepts (p_stats x))) <> 0) as _ by (apply not_0_INR; lia).
    assert (1/100 <= Rmax (1/100) e) as Hmx by apply Rmax_l.
    assert (h1 / o_quot1 o <= o_dtmax o / o_quot1 o) as Hhq.
    { unfold Rdiv. apply Rmult_le_compat_r; [left; apply Rinv_0_lt_compat; lra|lra]. }
    destruct (Rle_dec tf (p_t x + p_h x + h1 / o_quot1 o)) as [Hle|Hgt].
    + constructor; cbn; try exact Hc; try reflexivity; try lra; try discriminate. apply G. exact Hc.
    + destruct (andb _ _).
      * constructor; cbn; try exact Hc; try reflexivity; try lra; try (rewrite El; discriminate).
        -- apply G. exact Hc.
        -- intros _. split; [exact G1|]. intros _ Em. cbn. rewrite Em. lra.
      * constructor; cbn; try exact Hc; try reflexivity; try lra; try (rewrite El; discriminate).
        -- apply G. exact Hc.
        -- intros _. split; [lra|]. intros _ Em. cbn. rewrite Em. lra.
Qed.
Lemma attempt_pre x x' b : attempt n f Jac o tf x x' b -> pre x ->
  b = true /\ (p_code x' = RSuccess /\ p_t x' = tf \/ smooth x').
Proof.
  intros Ha V. destruct Ha as [x' Hm|x' m Hm x2 Hs|x' m Hm x2 _ Ht|x' m k c factor nj Hm x2 _ _ Hr|x' m k th c z e fe Hm x2 _ _ Hr He x3];
    destruct (matrices_pre _ _ _ Hm V) as ([V1 V2 V3 V4 V5 V6] & m' & Em & K); [discriminate Em| | | |]; injection Em as <-.
  - exfalso. assert (p_t x' < tf) as Htf.
    { pose proof (v_h _ _ _ _ _ _ _ _ _ _ _ _ V1). destruct (p_last x') eqn:El;
      [pose proof (v_last _ _ _ _ _ _ _ _ _ _ _ _ V1 El)|pose proof (v_in _ _ _ _ _ _ _ _ _ _ _ _ V1 El)]; lra. }
    cbn in Hs. apply le_INR in Hs. rewrite S_INR in Hs.
    assert ((INR (o_max_steps o) - 1) * h0 <= INR (steps (p_stats x')) * h0) by (apply Rmult_le_compat_r; lra). lra.
  - exfalso. exact (not_tiny x' V1 (proj1 V4) Ht).
  - exfalso. refine (newton_works x2 m (Failed k c factor nj) _ K (proj2 V4) Hr).
    destruct V1 as [U1 U2 U3 U4 U5 U6 U7 U8 U9 U10]; constructor; cbn; assumption.
  - assert (inv x2) as W2 by (destruct V1 as [U1 U2 U3 U4 U5 U6 U7 U8 U9 U10]; constructor; cbn; assumption).
    pose proof (newton_works x2 m _ W2 K (proj2 V4) Hr) as Z. cbn in Z.
    pose proof (estimate_small x2 m z e fe W2 K (proj2 V4) Z He) as He'.
    destruct Hr as (q & Hr). pose proof (newton_upper _ _ _ _ _ _ _ _ _ _ _ _ _ _ _ Hr) as Hk. cbn in Hk.
    pose proof (newton_conv _ _ _ _ _ _ _ _ _ _ _ _ _ _ _ Hr (proj2 (Rpower_conv _ (v_conv _ _ _ _ _ _ _ _ _ _ _ _ W2)))) as Hcv. cbn in Hcv.
    assert (inv x3) as W3 by (destruct W2 as [U1 U2 U3 U4 U5 U6 U7 U8 U9 U10]; constructor; cbn; assumption).
    assert (e < 1) as Hlt.
    { destruct Hsane as [(S1 & S2) _ _ _ _]. apply Rle_lt_trans with ((o_safe o / 2) ^ 4); [apply He'|].
      apply Rle_lt_trans with ((1/2) ^ 4); [apply pow_incr; lra|lra]. }
    destruct (Rlt_dec e 1) as [_|Hc]; [|contradiction]. split; [reflexivity|].
    apply accept_smooth; try assumption. cbn [x3 x2]. 
    change (INR (S (steps (p_stats x'))) * h0 <= p_t x' - t0 + h0). rewrite S_INR. lra.
Qed.
Lemma step_smooth x x' : rad_step n f Jac o tf x x' -> smooth x -> p_code x' = RSuccess /\ p_t x' = tf \/ smooth x'.
Proof.
  intros Hs W. pose proof (aimed_pre x W) as V. inversion Hs as [? ? Ha|? x1 ? Ha _]; subst.
  - now apply (attempt_pre _ _ _ Ha V).
  - destruct (attempt_pre _ _ _ Ha V) as (E0 & _). discriminate E0.
Qed.
Lemma run_smooth k x x' : rad_run n f Jac o tf k x x' -> smooth x -> p_code x' = RSuccess /\ p_t x' = tf \/ smooth x'.
Proof.
  induction 1 as [x|k x x1 x' _ IH Hc Hs]; intros W; [now right|].
  destruct (IH W) as [(C & _)|W1]; [congruence|]. exact (step_smooth _ _ Hs W1).
Qed.
End Run.
