(** A quadrature problem on which Radau5 sees nothing, whatever the tolerances. *)
From Coq Require Import ZArith List Bool Lia Reals Lra.
From RecordUpdate Require Import RecordSet.
From Verif Require Import Arith Vec Core Driver Radau Spec SpecRK SpecODE SpecLin SpecStage SpecRadau SpecReach SpecConv SpecIRK SpecTol ArithR
  DefaultFacts RadauRef RadRefDet TolEx.
Import ListNotations RecordSetNotations.
Local Open Scope R_scope.

Lemma quarter_power : Rpower (1 / 10000000000) (1/4) <= 1/100.
Proof.
  apply Rle_trans with (Rpower ((1/100) ^ 4) (1/4)); [apply Rle_Rpower_l; lra|].
  rewrite <- Rpower_pow by lra. rewrite Rpower_mult. replace (INR 4 * (1/4)) with 1 by (cbn; lra). rewrite Rpower_1; lra.
Qed.
Lemma quarter_power' : Rpower ((1 / 10000000000) ^ 2 / (1/100)) (1/4) <= 1/100.
Proof. eapply Rle_trans; [|exact quarter_power]. apply Rle_Rpower_l; lra. Qed.

Section Run.
Context (inf : R) (Hinf : 10 <= inf).
Notation RI := (RA inf).
Context (f : R -> R).
Notation F := (ode (quadrature (inf := inf) f) tt).
Notation Jac := (the_jacobian (quadrature (inf := inf) f) None tt).
Context (o : opts RI).
Hypothesis (Hsa : o_safe o = 9/10) (Hfl : o_facl o = 5) (Hfr : o_facr o = 1/8) (Hq1 : o_quot1 o = 1) (Hq2 : o_quot2 o = 12/10)
  (Hdm : o_dtmax o = inf) (Hms : o_max_steps o = Z.to_nat 100000) (Hni : o_max_newt_iter o = 7%nat) (Hmp : o_modern_pred o = true)
  (Hfn : o_fnewt o = 0) (Hth : o_theta o = 1/1000).

Definition rnodes (x : R * R) : list R := map (fun c => fst x + c * snd x) [0; rad_c 0; rad_c 1; 1].
Definition z0 : three := mk3 [0] [0] [0].
Lemma F_0 t u : length u = 1%nat -> f t = 0 -> F t u = [0].
Proof. intros Hu Hf. rewrite quadrature_ode by exact Hu. now rewrite Hf. Qed.
Lemma Jac_0 t : Jac t [0] = [[0]].
Proof.
  unfold the_jacobian. cbn [length seq map]. unfold vect. cbn [seq map]. rewrite !quadrature_ode by reflexivity.
  unfold comp. cbn [nth]. do 2 f_equal. unfold Rdiv. rewrite Rminus_eq_0. ring.
Qed.
Lemma one_sum g : rsum 1 g = g 0%nat.
Proof. unfold rsum. cbn. ring. Qed.
Lemma regular_0 h : 0 < h -> regular 1 h [[0]].
Proof.
  intros Hh. split.
  - intros (x & (i & Hi & Hx) & _ & E). specialize (E 0%nat ltac:(lia)). rewrite one_sum in E. unfold entry in E. cbn in E.
    replace i with 0%nat in Hx by lia. unfold comp in *. cbn in E. rewrite Rminus_0_r in E. apply Rmult_integral in E.
    destruct E as [E|E]; [|contradiction]. assert (0 < radau_gamma / h); [|lra]. apply Rdiv_lt_0_compat; [unfold radau_gamma; lra|exact Hh].
  - intros (xr & xi & (i & Hi & Hx) & E). replace i with 0%nat in Hx by lia. destruct E as (_ & _ & E).
    specialize (E 0%nat ltac:(lia)). rewrite !one_sum in E. unfold entry in E. cbn in E. unfold comp in *. cbn in E. rewrite !Rminus_0_r in E.
    set (a := rad_alpha / h) in *. set (b := rad_beta / h) in *. set (p := nth 0 xr 0) in *. set (q := nth 0 xi 0) in *.
    assert (0 < a) as Ha by (apply Rdiv_lt_0_compat; [unfold rad_alpha; lra|exact Hh]).
    destruct E as (E1 & E2).
    assert ((a * a + b * b) * (p * p + q * q) = 0) as Z.
    { replace ((a * a + b * b) * (p * p + q * q)) with ((a * p - b * q) * (a * p - b * q) + (b * p + a * q) * (b * p + a * q)) by ring.
      first [rewrite E1, E2; ring | nra]. }
    apply Rmult_integral in Z. assert (0 < a * a) by nra. pose proof (Rle_0_sqr b) as Hb. unfold Rsqr in Hb. destruct Z as [Z|Z]; [lra|].
    pose proof (Rle_0_sqr p) as Hp. pose proof (Rle_0_sqr q) as Hq. unfold Rsqr in Hp, Hq.
    assert (p * p = 0) as P0 by lra. assert (q * q = 0) as Q0 by lra. apply Rmult_integral in P0, Q0. intuition lra.
Qed.

(** Where the run is after [k] steps that saw nothing. *)
Definition blank (k : nat) (x : rpilot) : Prop :=
  p_u x = [0] /\ p_jac x = [[0]] /\ p_mat x = None /\ p_again x = false /\ p_code x = RContinue /\
  (steps (p_stats x) = k)%nat /\ 1/1000000 <= p_h x <= 1 /\ 0 <= p_t x <= 1 /\
  (first_step x = false -> p_z x = z0 /\ 0 < p_hacc x <= p_h x /\ p_eacc x = 1/100).

Lemma guess_0 k x : blank k x -> guess 1 o x = z0.
Proof.
  intros (_ & _ & _ & _ & _ & _ & _ & _ & H). unfold guess. destruct (first_step x); [reflexivity|]. destruct (H eq_refl) as (-> & _).
  destruct (negb (o_use_ext_col o)); [reflexivity|]. cbn [orb]. unfold stages, vect, colloc, z0, comp. cbn [seq map st1 st2 st3 nth].
  f_equal; f_equal; unfold Rdiv; ring.
Qed.
Lemma mixed_0 M k i : mixed M z0 k i = 0.
Proof. unfold mixed, rsum, pick, z0, comp. cbn [seq map fold_right st1 st2 st3]. destruct i as [|[|i]]; cbn [nth]; ring. Qed.
Lemma stages_0 g : (forall k i, g k i = 0) -> stages 1 g = z0.
Proof. intros H. unfold stages, vect. cbn [seq map]. now rewrite !H. Qed.
Lemma tol_pos : 0 <= newton_tol o.
Proof.
  unfold newton_tol. rewrite Hfn. destruct (Rle_dec 0 0) as [_|]; [|lra]. eapply Rle_trans; [|apply Rmax_r]. apply Rmin_glb; [lra|apply sqrt_pos].
Qed.
Lemma norm_0 u : increment_norm 1 o u z0 = 0.
Proof.
  unfold increment_norm. rewrite one_sum. unfold z0, comp. cbn [st1 st2 st3 nth]. unfold Rdiv. rewrite !Rmult_0_l. rewrite pow_i by lia.
  rewrite !Rplus_0_r, Rmult_0_l. apply sqrt_0.
Qed.
Lemma newton_0 k x : blank k x -> (forall c, In c (rnodes (p_t x, p_h x)) -> f c = 0) ->
  newton_result 1 F o x (p_h x, [[0]]) (Converged 1 (1/1000) (Rpower (Rmax (p_conv x) (/ IZR (2 ^ 52))) (8/10)) z0).
Proof.
  intros Hb Hf. pose proof Hb as (Hu & _ & _ & _ & _ & _ & Hh & _). exists 0. rewrite (guess_0 k x Hb), Hth, Rabs_right by lra.
  rewrite (stages_0 (mixed rad_TI z0)) by (intros; apply mixed_0).
  replace (Converged 1 _ _ z0) with (Converged 1 (1/1000) (Rpower (Rmax (p_conv x) (/ IZR (2 ^ 52))) (8/10))
    (stages 1 (mixed rad_T (stages 1 (fun k i => comp (pick z0 k) i + comp (pick z0 k) i))))).
  2:{ f_equal. rewrite (stages_0 (fun k i => comp (pick z0 k) i + comp (pick z0 k) i)).
      - apply stages_0. intros; apply mixed_0.
      - intros [|[|k']] [|[|i]]; cbn; ring. }
  apply nf_done with (q' := 0).
  - unfold iters. rewrite Hni. lia.
  - unfold increment. rewrite Hu. unfold vect. cbn [seq map].
    assert (forall c w, In c [rad_c 0; rad_c 1; rad_c 2] -> length w = 1%nat -> F (p_t x + c * p_h x) w = [0]) as Z.
    { intros c w Hc Hw. apply F_0; [exact Hw|]. apply Hf. unfold rnodes. cbn [fst snd]. apply (in_map (fun c => p_t x + c * p_h x)).
      cbn in Hc |- *. intuition. }
    rewrite !Z by (cbn; auto 10). split; [intros [|[|k']]; reflexivity|]. intros i Hi. replace i with 0%nat by lia.
    rewrite !one_sum. change (mk3 [0] [0] [0]) with z0. rewrite !mixed_0. unfold z0, pick, comp, entry. cbn. unfold Rdiv. repeat split; ring.
  - reflexivity.
  - rewrite norm_0, Rmult_0_r. exact tol_pos.
Qed.
Lemma estimate_0 k x : blank k x -> f (p_t x) = 0 -> estimate 1 F o x (p_h x, [[0]]) z0 (1/10000000000) 0.
Proof.
  intros (Hu & _) Hf. exists [0]. rewrite Hu, F_0 by (reflexivity || exact Hf). split.
  - split; [reflexivity|]. intros i Hi. replace i with 0%nat by lia. rewrite one_sum. unfold z0, pick, comp, entry. cbn. unfold Rdiv. ring.
  - assert (tol_rms 1 (atol o) (rtol o) [0] [0] = 0) as ->.
    { unfold tol_rms. rewrite one_sum. unfold comp. cbn [nth]. unfold Rdiv. rewrite Rmult_0_l, pow_i by lia. rewrite Rmult_0_l. apply sqrt_0. }
    rewrite Rmax_right by lra. destruct (Rlt_dec (1 / 10000000000) 1); [auto|lra].
Qed.
Lemma clamp_low q : q <= 1/8 -> SpecIRK.clamp o q = 1/8.
Proof. intros H. unfold SpecIRK.clamp. rewrite Hfl, Hfr, Rmin_right by lra. apply Rmax_left. exact H. Qed.
Lemma quotient_0 : quotient o (1/10000000000) 1 = 1/8.
Proof.
  unfold quotient, iters. rewrite Hsa, Hni. apply clamp_low. pose proof quarter_power.
  replace (Rmin (9/10) (9/10 * INR (1 + 2 * 7) / INR (1 + 2 * 7))) with (9/10).
  - lra.
  - replace (9/10 * INR (1 + 2 * 7) / INR (1 + 2 * 7)) with (9/10) by (field; apply not_0_INR; lia). rewrite Rmin_left; lra.
Qed.
Lemma predicted_0 k x : blank k x -> predicted o x (1/10000000000) 1 = 1/8.
Proof.
  intros (_ & _ & _ & _ & _ & _ & Hh & _ & H). unfold predicted. rewrite Hmp. destruct (first_step x); [apply quotient_0|].
  destruct (H eq_refl) as (_ & Ha & He). cbn [andb negb]. rewrite quotient_0, clamp_low; [apply Rmax_left; lra|].
  rewrite Hsa, He. pose proof quarter_power' as Q. set (q := Rpower _ _) in *.
  assert (0 <= q) by (unfold q, Rpower; left; apply exp_pos).
  assert (0 <= p_hacc x / p_h x <= 1) as Hr.
  { split; [apply Rlt_le, Rdiv_lt_0_compat; lra|]. apply Rmult_le_reg_r with (p_h x); [lra|]. unfold Rdiv. rewrite Rmult_assoc, Rinv_l by lra. lra. }
  set (r := p_hacc x / p_h x) in *. assert (r * q <= 1/100) by nra. lra.
Qed.

(** One step that sees nothing. *)
Lemma not_tiny k x : blank k x -> ~ tiny x.
Proof.
  intros (_ & _ & _ & _ & _ & _ & Hh & Ht & _) T. unfold tiny in T. rewrite Rabs_right in T by lra.
  assert (/ IZR (2 ^ 52) <= 1/100000000) by (cbn; lra). nra.
Qed.
Lemma blank_attempt k x : blank k x -> (k < 100)%nat -> (forall c, In c (rnodes (p_t x, p_h x)) -> f c = 0) ->
  exists x', attempts 1 F Jac o 1 x (accept 1 Jac o 1 x' (p_h x, [[0]]) z0 (1/10000000000) (1/1000) 1) /\ blank (S k) x' /\
    p_t x' = p_t x /\ p_h x' = p_h x /\ p_last x' = p_last x.
Proof.
  intros Hb Hk Hf. pose proof Hb as (Hu & Hj & Hm & Ha & Hc & Hs & Hh & Ht & Hz).
  set (y := x <| p_stats; decompositions ::= S |> <| p_stats; steps ::= S |>).
  assert (blank (S k) y) as By.
  { unfold blank, y, first_step in *. cbn in *. rewrite Hs. auto 20. }
  set (c := Rpower (Rmax (p_conv x) (/ IZR (2 ^ 52))) (8/10)).
  exists (y <| p_conv := c |> <| p_stats; function_evals ::= fun c => (c + 3 * 1 + 0)%nat |> <| p_stats; linear_solves ::= fun l => (l + 1)%nat |>).
  split; [|split; [exact By|split; [reflexivity|split; reflexivity]]].
  pose proof (at_error 1 F Jac o 1 x (x <| p_stats; decompositions ::= S |>) (p_h x, p_jac x) 1 (1/1000) c z0 (1/10000000000) 0) as At.
  apply att_over. destruct (Rlt_dec (1/10000000000) 1) as [_|]; [|lra]. rewrite Hj in At. apply At.
  - rewrite <- Hj. apply mat_new; [exact Hm|]. rewrite Hj. apply regular_0. lra.
  - rewrite Hms. cbn. rewrite Hs. lia.
  - exact (not_tiny _ _ By).
  - exact (newton_0 _ y By Hf).
  - apply (estimate_0 _ y By). change (p_t y) with (p_t x). apply Hf. unfold rnodes. cbn [map fst snd]. left. ring.
Qed.
Lemma blank_mid k x : blank k x -> (k < 100)%nat -> p_last x = false -> (forall c, In c (rnodes (p_t x, p_h x)) -> f c = 0) ->
  p_t x + p_h x + 8 * p_h x < 1 ->
  exists y, rad_step 1 F Jac o 1 x y /\ blank (S k) y /\ p_last y = false /\ p_t y = p_t x + p_h x /\ p_h y = 8 * p_h x.
Proof.
  intros Hb Hk Hl Hf Hn. destruct (blank_attempt k x Hb Hk Hf) as (x' & At & Bx & Et & Eh & El).
  pose proof Hb as (_ & _ & _ & _ & _ & _ & Hh & Ht & _).
  exists (accept 1 Jac o 1 x' (p_h x, [[0]]) z0 (1 / 10000000000) (1 / 1000) 1). split.
  { unfold rad_step, aimed. destruct (Rle_dec 1 (p_t x + p_h x * (10001 / 10000))); [lra|]. exact At. }
  pose proof Bx as (Hu & Hj & Hm & Ha & Hc & Hs & Hh' & Ht' & Hz).
  unfold accept. rewrite El, Hl, Ha, (predicted_0 _ x' Bx), Hq1, Hq2, Hth, Hdm, Hmp, Et, Eh.
  replace (p_h x / (1/8)) with (8 * p_h x) by field. rewrite (Rmin_left (8 * p_h x) inf) by lra.
  replace (8 * p_h x / 1) with (8 * p_h x) by field.
  destruct (Rle_dec 1 (p_t x + p_h x + 8 * p_h x)); [lra|].
  replace (8 * p_h x / p_h x) with 8 by (field; lra).
  assert (Rleb 8 (12/10) = false) as ->. { unfold Rleb. destruct (Rle_dec 8 (12/10)); [lra|reflexivity]. } rewrite andb_false_r.
  destruct (Rlt_dec (1/1000) (1/1000)); [lra|]. cbn. split; [|repeat split; exact El || (rewrite El; exact Hl)].
  unfold blank. cbn. rewrite Hu. unfold vect, comp, z0. cbn. repeat split; try assumption; try lra.
  - now rewrite Rplus_0_r.
  - unfold Rmax. destruct (Rle_dec (1/100) (1/10000000000)); lra.
Qed.
Lemma blank_turn k x : blank k x -> (k < 100)%nat -> p_last x = false -> (forall c, In c (rnodes (p_t x, p_h x)) -> f c = 0) ->
  p_t x + p_h x * (10001/10000) < 1 -> 1 <= p_t x + p_h x + 8 * p_h x -> p_h x <= 1 - (p_t x + p_h x) ->
  exists y, rad_step 1 F Jac o 1 x y /\ blank (S k) y /\ p_t y = p_t x + p_h x /\ p_h y = 1 - (p_t x + p_h x).
Proof.
  intros Hb Hk Hl Hf Hn Hn' Hgr. destruct (blank_attempt k x Hb Hk Hf) as (x' & At & Bx & Et & Eh & El).
  pose proof Hb as (_ & _ & _ & _ & _ & _ & Hh & Ht & _).
  exists (accept 1 Jac o 1 x' (p_h x, [[0]]) z0 (1 / 10000000000) (1 / 1000) 1). split.
  { unfold rad_step, aimed. destruct (Rle_dec 1 (p_t x + p_h x * (10001 / 10000))); [lra|]. exact At. }
  pose proof Bx as (Hu & Hj & Hm & Ha & Hc & Hs & Hh' & Ht' & Hz).
  unfold accept. rewrite El, Hl, Ha, (predicted_0 _ x' Bx), Hq1, Hth, Hdm, Hmp, Et, Eh.
  replace (p_h x / (1/8)) with (8 * p_h x) by field. rewrite (Rmin_left (8 * p_h x) inf) by lra.
  replace (8 * p_h x / 1) with (8 * p_h x) by field.
  destruct (Rle_dec 1 (p_t x + p_h x + 8 * p_h x)); [|lra].
  destruct (Rlt_dec (1/1000) (1/1000)); [lra|]. cbn. split; [|split; reflexivity].
  unfold blank. cbn. rewrite Hu. unfold vect, comp, z0. cbn. repeat split; try assumption; try lra.
  - now rewrite Rplus_0_r.
  - unfold Rmax. destruct (Rle_dec (1/100) (1/10000000000)); lra.
Qed.
Lemma blank_last k x : blank k x -> (k < 100)%nat -> p_h x = 1 - p_t x -> (forall c, In c (rnodes (p_t x, p_h x)) -> f c = 0) ->
  exists y, rad_step 1 F Jac o 1 x y /\ p_t y = 1 /\ p_u y = [0] /\ p_code y = RSuccess.
Proof.
  intros Hb Hk He Hf. pose proof Hb as (_ & _ & _ & _ & _ & _ & Hh & Ht & _).
  assert (aimed 1 x = x <| p_h := 1 - p_t x |> <| p_last := true |>) as Ea.
  { unfold aimed. destruct (Rle_dec 1 (p_t x + p_h x * (10001 / 10000))); [reflexivity|lra]. }
  destruct (blank_attempt k (x <| p_h := 1 - p_t x |> <| p_last := true |>)) as (x' & At & Bx & Et & Eh & El).
  { unfold blank, first_step in *. cbn. rewrite <- He. exact Hb. } { exact Hk. } { cbn. rewrite <- He. exact Hf. }
  eexists. split; [unfold rad_step; rewrite Ea; exact At|].
  pose proof Bx as (Hu & _). unfold accept. rewrite El, Et, Eh. cbn. rewrite Hu. unfold vect, comp. cbn.
  split; [ring|]. split; [now rewrite Rplus_0_r|reflexivity].
Qed.

Definition rlegs : list (R * R) :=
  [(0, 1/1000000); (1/1000000, 8/1000000); (9/1000000, 64/1000000); (73/1000000, 512/1000000); (585/1000000, 4096/1000000);
   (4681/1000000, 32768/1000000); (37449/1000000, 262144/1000000); (299593/1000000, 1 - 299593/1000000)].
Definition all_rnodes : list R := flat_map rnodes rlegs.
Hypothesis (Hf : forall c, In c all_rnodes -> f c = 0).
Lemma leg_rnodes t h : In (t, h) rlegs -> forall x, p_t x = t -> p_h x = h -> forall c, In c (rnodes (p_t x, p_h x)) -> f c = 0.
Proof. intros Hx x -> -> c Hc. apply Hf. unfold all_rnodes. apply in_flat_map. exists (t, h). split; assumption. Qed.
Lemma blank_run : exists y, rad_run 1 F Jac o 1 8 (rad_start Jac 0 [0] (1/1000000)) y /\ p_t y = 1 /\ p_u y = [0] /\ p_code y = RSuccess.
Proof.
  set (x0 := rad_start Jac 0 [0] (1/1000000)).
  assert (blank 0 x0) as B0.
  { unfold blank, x0, rad_start, first_step. cbn -[the_jacobian]. rewrite Jac_0. repeat split; try lra; discriminate. }
  assert (forall k x t h t' h', blank k x /\ p_last x = false /\ p_t x = t /\ p_h x = h -> (k < 100)%nat -> In (t, h) rlegs -> t + h + 8 * h < 1 ->
    t' = t + h -> h' = 8 * h ->
    exists y, rad_step 1 F Jac o 1 x y /\ blank (S k) y /\ p_last y = false /\ p_t y = t' /\ p_h y = h') as Mid.
  { intros k x t h t' h' (Hb & Hl & Et & Eh) Hk Hin Hn -> ->. subst t h. apply blank_mid; try assumption. now apply (leg_rnodes _ _ Hin). }
  assert (forall k x, blank k x -> p_code x = RContinue) as Co by (intros k x H; apply H).
  destruct (Mid 0%nat x0 0 (1/1000000) (1/1000000) (8/1000000)) as (x1 & R1 & S1); [split; [exact B0|repeat split]|lia|cbn; auto 20|lra|lra|lra|].
  destruct (Mid 1%nat x1 (1/1000000) (8/1000000) (9/1000000) (64/1000000)) as (x2 & R2 & S2); [assumption|lia|cbn; auto 20|lra|lra|lra|].
  destruct (Mid 2%nat x2 (9/1000000) (64/1000000) (73/1000000) (512/1000000)) as (x3 & R3 & S3); [assumption|lia|cbn; auto 20|lra|lra|lra|].
  destruct (Mid 3%nat x3 (73/1000000) (512/1000000) (585/1000000) (4096/1000000)) as (x4 & R4 & S4); [assumption|lia|cbn; auto 20|lra|lra|lra|].
  destruct (Mid 4%nat x4 (585/1000000) (4096/1000000) (4681/1000000) (32768/1000000)) as (x5 & R5 & S5); [assumption|lia|cbn; auto 20|lra|lra|lra|].
  destruct (Mid 5%nat x5 (4681/1000000) (32768/1000000) (37449/1000000) (262144/1000000)) as (x6 & R6 & S6); [assumption|lia|cbn; auto 20|lra|lra|lra|].
  destruct S6 as (B6 & L6 & T6 & H6).
  destruct (blank_turn 6 x6 B6) as (x7 & R7 & B7 & T7 & H7); [lia|exact L6|apply (leg_rnodes (37449/1000000) (262144/1000000)); [cbn; auto 20|exact T6|exact H6]|lra|lra|lra|].
  assert (p_t x7 = 299593/1000000) as T7' by lra. assert (p_h x7 = 1 - 299593/1000000) as H7' by lra.
  destruct (blank_last 7 x7 B7) as (y & Ry & Hy); [lia|lra|apply (leg_rnodes (299593/1000000) (1 - 299593/1000000)); [cbn; auto 20|exact T7'|exact H7']|].
  exists y. split; [|exact Hy].
  eapply rad_run_S; [|eapply Co; exact B7|exact Ry].
  eapply rad_run_S; [|eapply Co; exact B6|exact R7].
  eapply rad_run_S; [|eapply Co; exact (proj1 S5)|exact R6].
  eapply rad_run_S; [|eapply Co; exact (proj1 S4)|exact R5].
  eapply rad_run_S; [|eapply Co; exact (proj1 S3)|exact R4].
  eapply rad_run_S; [|eapply Co; exact (proj1 S2)|exact R3].
  eapply rad_run_S; [|eapply Co; exact (proj1 S1)|exact R2].
  eapply rad_run_S; [|eapply Co; exact B0|exact R1].
  apply rad_run_0.
Qed.
End Run.

(** The problem. *)
Definition rblind_total : R := pev (pint (proots all_rnodes)) 1.
Definition rblind_rate (M : R) : list R := pscale (M / rblind_total) (proots all_rnodes).
Definition rblind_area (M : R) : list R := pscale (M / rblind_total) (pint (proots all_rnodes)).
Lemma half_not_rnode : ~ In (1/2) all_rnodes.
Proof.
  unfold all_rnodes, rlegs. cbn [flat_map rnodes map app fst snd]. unfold rad_c. cbn [In]. intros H.
  repeat (destruct H as [H|H]; [lra|]). exact H.
Qed.
Lemma rblind_total_pos : 0 < rblind_total.
Proof. apply (area_pos all_rnodes (1/2)); [lra|exact half_not_rnode]. Qed.
Lemma rblind_area_ev M t : derivable_pt_lim (pev (rblind_area M)) t (pev (rblind_rate M) t).
Proof.
  unfold rblind_area, rblind_rate. rewrite pscale_ev.
  apply (derivable_pt_lim_ext (fun s => M / rblind_total * pev (pint (proots all_rnodes)) s)); [intros s; now rewrite pscale_ev|].
  apply (derivable_pt_lim_scal (pev (pint (proots all_rnodes)))). apply pint_ev.
Qed.
Lemma rblind_area_0 M : pev (rblind_area M) 0 = 0.
Proof. unfold rblind_area. rewrite pscale_ev, pint_0. ring. Qed.
Lemma rblind_area_1 M : pev (rblind_area M) 1 = M.
Proof. unfold rblind_area. rewrite pscale_ev. fold rblind_total. field. pose proof rblind_total_pos. lra. Qed.
Lemma rblind_node M c : In c all_rnodes -> pev (rblind_rate M) c = 0.
Proof. intros H. unfold rblind_rate. rewrite pscale_ev, proots_in by exact H. ring. Qed.

Opaque rblind_rate.
Lemma rblind_integration M inf (rtol atol : R) : 10 <= inf -> 0 < rtol -> 0 < atol ->
  let b := set_reltol (A := RA inf) rtol (set_abstol (A := RA inf) atol (builder_default Radau5 (quadrature (pev (rblind_rate M))) ([0] : list R) (0, 1) tt)) in
  exists fuel s0 s, build Radau5 b = Ok s0 /\
    (forall m, (8 <= m)%nat -> integrate Radau5 None fuel m s0 = Ok s) /\
    rc (i_sol s) = RSuccess /\ i_t s = 1 /\ i_u s = [0].
Proof.
  intros Hi Hr Ha b.
  assert (radau_sane (b_opts b)) as Hso.
  { constructor; cbn; unfold n1; cbn; unfold rlit; lra. }
  assert (overwrites (b_dudt b)) as Hw by exact (quadrature_overwrites inf (pev (rblind_rate M))).
  destruct (blank_run inf ltac:(lra) (pev (rblind_rate M)) (b_opts b)) as (y & Hy & Ht & Hu & Hc);
    [try (reflexivity || (cbn; unfold n1, n0; cbn; unfold rlit; lra))..|exact (rblind_node M)|].
  destruct (build Radau5 b) as [s0| |] eqn:Hb; [|discriminate Hb|discriminate Hb].
  set (fuel := (o_max_steps (b_opts b) + o_max_newt_iter (b_opts b) + 5)%nat).
  destruct (radau_reference_complete b Hw I) with (k := 8%nat) (s0 := s0) (x := y) (fuel := fuel) as (s & Hre & (S1 & S2 & _ & _ & S5)).
  - discriminate.
  - exact Hr.
  - exact Ha.
  - exact Hso.
  - intros h t u _ _ (H2 & _). cbn in H2. lia.
  - cbn. unfold rlit. lra.
  - cbn. lra.
  - exact Hb.
  - replace (b_dt b) with (1/1000000) by (cbn; unfold rlit; lra). exact Hy.
  - apply le_n.
  - exists fuel, s0, s. split; [reflexivity|]. rewrite S1, S2, S5, Ht, Hu, Hc.
    split; [|auto]. apply reached_integrates with (k := 8%nat); [exact Hre|lia|]. rewrite S5, Hc. discriminate.
Qed.
Lemma rblind_refutes M : exists a y : list R,
  pev y 0 = 0 /\ pev y 1 = M /\
  forall inf, 10 <= inf ->
  smooth_problem 1 (ode (quadrature (inf := inf) (pev a)) tt) 0 1 (fun t => [pev y t]) /\
  forall reltol abstol : R, 0 < reltol -> 0 < abstol ->
  let b := set_reltol (A := RA inf) reltol (set_abstol (A := RA inf) abstol
             (builder_default Radau5 (quadrature (pev a)) ([0] : list R) (0, 1) tt)) in
  exists fuel s0 s, build Radau5 b = Ok s0 /\
    (forall m, (8 <= m)%nat -> integrate Radau5 None fuel m s0 = Ok s) /\
    rc (i_sol s) = RSuccess /\ i_t s = 1 /\ i_u s = [0].
Proof.
  exists (rblind_rate M), (rblind_area M). split; [exact (rblind_area_0 M)|]. split; [exact (rblind_area_1 M)|]. intros inf Hi.
  split; [apply quadrature_smooth; [lra|lra|exact (rblind_area_ev M)]|]. intros rt at' Hr Ha. exact (rblind_integration M inf rt at' Hi Hr Ha).
Qed.
Lemma rblind_ex : exists a y : list R,
  pev y 0 = 0 /\ pev y 1 = 1000 /\ derivable_pt_lim (pev y) (1/2) (pev a (1/2)) /\
  let b := set_reltol (A := RA 10) (1 / 10^12) (set_abstol (A := RA 10) (1 / 10^12)
             (builder_default Radau5 (quadrature (pev a)) ([0] : list R) (0, 1) tt)) in
  exists fuel s0 s, build Radau5 b = Ok s0 /\ integrate Radau5 None fuel 8 s0 = Ok s /\
    rc (i_sol s) = RSuccess /\ i_t s = 1 /\ i_u s = [0].
Proof.
  exists (rblind_rate 1000), (rblind_area 1000). split; [apply rblind_area_0|]. split; [apply rblind_area_1|]. split; [apply rblind_area_ev|].
  destruct (rblind_integration 1000 10 (1 / 10^12) (1 / 10^12)) as (fuel & s0 & s & H1 & H2 & H3); [lra|lra|lra|].
  exists fuel, s0, s. split; [exact H1|]. split; [apply H2; lia|exact H3].
Qed.
