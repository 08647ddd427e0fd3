(** A problem that meets the hypotheses of the theorem of DP5Succ.v:
    u' = 1 / (1 + u^2) with the default options. *)
From Coq Require Import ZArith List Bool Lia Reals Lra.
From Verif Require Import Arith Vec Core Driver VecFacts DP5 DP5Facts Spec SpecRK SpecODE SpecReach RKFacts DP5Inv
  ArithR DP5R DP5RK DP5Num DP5Term DP5RForms DP5Succ.
Import ListNotations.
Local Open Scope R_scope.

Lemma rpower_lt_1 x y : 0 < x < 1 -> 0 < y -> Rpower x y < 1.
Proof.
  intros Hx Hy. unfold Rpower. rewrite <- exp_0. apply exp_increasing.
  assert (ln x < 0) by (rewrite <- ln_1; apply ln_increasing; lra). nra.
Qed.
Lemma no_shrink_exists {inf} (o : opts (RA inf)) :
  0 < o_safe o < 1 -> 0 <= o_beta o -> 1 <= o_facr o -> 0 < control_exponent (o_beta o) ->
  exists kappa, no_shrink_error o kappa.
Proof.
  intros Hs Hb Hf He. unfold no_shrink_error. set (e := control_exponent (o_beta o)) in *. rnorm.
  generalize dependent (o_beta o). intros be Hb e He. generalize dependent (o_safe o). intros sf Hs.
  set (x := sf * Rpower (1/10000) be).
  assert (0 < Rpower (1/10000) be <= 1) as Hp.
  { split; [apply rpower_pos|]. destruct Hb as [Hb|Hb].
    - left. apply rpower_lt_1; [lra|assumption].
    - rewrite <- Hb. rewrite Rpower_O by lra. lra. }
  assert (0 < x < 1) as Hx by (unfold x; nra).
  exists (Rpower x (/ e)). split; [|split; [exact Hf|]].
  - split; [apply rpower_pos|]. left. apply rpower_lt_1; [assumption|]. now apply Rinv_0_lt_compat.
  - rewrite Rpower_mult, Rinv_l by lra. rewrite Rpower_1 by lra. unfold x. lra.
Qed.

Section Ex.
Context (inf : R).
Hypothesis Hinf : 0 < inf.
Notation RI := (RA inf).
Notation alg := (@DormandPrince5 RI unit).

Definition r_bell : rhs RI unit := fun _ u _ _ _ => / (1 + comp u 0 * comp u 0).
Lemma r_bell_overwrites : overwrites r_bell.
Proof. intros d d' u t p i _ _. reflexivity. Qed.
Definition r_bell_dp5 (tf : R) : builder RI unit := builder_default alg r_bell ([0] : list R) (0, tf) tt.
Lemma bell_bounded tf : bounded_rhs r_bell tt 1 0 tf 1.
Proof.
  intros t v i _ Hv Hi. rewrite ode_comp by (rewrite Hv; exact Hi). unfold r_bell.
  assert (0 <= comp v 0 * comp v 0) by (fold (Rsqr (comp v 0)); apply Rle_0_sqr).
  rewrite Rabs_right by (apply Rle_ge; left; apply Rinv_0_lt_compat; lra).
  rewrite <- Rinv_1 at 2. apply Rinv_le_contravar; lra.
Qed.

Lemma default_control : 0 < control_exponent (4/100).
Proof.
  unfold control_exponent. destruct (Req_EM_T (4/100) 0); [lra|].
  assert (Rpower (4/100) (3/4) <= Rpower (1/20) (3/4)) as H by (apply Rle_Rpower_l; lra).
  assert (Rpower (1/20) (3/4) < 1/5); [|lra]. clear H.
  apply Rnot_le_lt. intros H. assert (Rpower (1/5) 4 <= Rpower (Rpower (1/20) (3/4)) 4) as H2 by (apply Rle_Rpower_l; lra). clear H. rename H2 into H.
  rewrite Rpower_mult in H. replace (3/4*4) with (INR 3) in H by (cbn; lra).
  replace 4 with (INR 4) in H by (cbn; lra). rewrite !Rpower_pow in H by lra. cbn in H. lra.
Qed.

Lemma bell_ex : exists tf kappa h, 0 < tf /\
  let b := r_bell_dp5 tf in
  sane_opts (b_opts b) /\ overwrites (b_dudt b) /\ 0 < o_abstol (b_opts b) /\ 0 <= o_reltol (b_opts b) /\
  o_max_stiff (b_opts b) <> 0%nat /\ b_u b <> [] /\ 0 < b_dt b /\ b_t b < b_tfinal b /\
  bounded_rhs (b_dudt b) (b_params b) (length (b_u b)) (b_t b) (b_tfinal b) 1 /\
  no_shrink_error (b_opts b) kappa /\ 0 < h /\ h * 1 <= kappa * o_abstol (b_opts b) /\
  eps RI * Rmax (Rabs (b_t b)) (Rabs (b_tfinal b)) < o_facl (b_opts b) * h /\
  b_tfinal b - b_t b <= INR (o_max_steps (b_opts b)) * least_step (b_opts b) (b_dt b) h.
Proof.
  set (o := b_opts (r_bell_dp5 1)).
  assert (o_beta o = 4/100) as Eb by reflexivity. assert (o_facr o = 10/1) as Er by reflexivity.
  assert (o_safe o = 9/10) as Es by reflexivity.
  destruct (no_shrink_exists o) as (kappa & Hk).
  { rewrite Es. lra. } { rewrite Eb. lra. } { rewrite Er. lra. } { rewrite Eb. apply default_control. }
  set (h := kappa * (1/10000000)). assert (0 < h) as Hh by (unfold h; destruct Hk as (Hk & _); lra).
  set (m := least_step o (1/1000000) h).
  assert (0 < m <= 2/10 * (2/10 * h)) as Hm.
  { unfold m, least_step. change (o_dtmax o) with inf. change (o_facl o) with (2/10).
    split.
    - apply Rmin_glb_lt; [exact Hinf|]. apply Rmult_lt_0_compat; [lra|]. apply Rmin_glb_lt; lra.
    - eapply Rle_trans; [apply Rmin_r|]. apply Rmult_le_compat_l; [lra|apply Rmin_r]. }
  set (N := o_max_steps o). assert (INR N = 100000) as HN.
  { unfold N, o, r_bell_dp5. cbn [b_opts builder_default alg_default_opts DormandPrince5 dp5_default_opts o_max_steps].
    change (INR (Z.to_nat 100000) = 100000). rewrite INR_IZR_INZ, Z2Nat.id by lia. reflexivity. }
  exists (INR N * m), kappa, h. rewrite HN. split; [lra|]. intros b.
  split; [constructor; cbn; unfold rlit; lra|]. split; [apply r_bell_overwrites|].
  split; [cbn; unfold rlit; lra|]. split; [cbn; unfold rlit; lra|]. split; [cbn; lia|].
  split; [discriminate|]. split; [cbn; unfold rlit; lra|]. split; [cbn; lra|].
  split; [apply bell_bounded|]. split; [exact Hk|]. split; [exact Hh|].
  split; [change (o_abstol (b_opts b)) with (1/10000000); unfold h; lra|].
  split.
  - change (b_t b) with 0. change (b_tfinal b) with (100000 * m). change (o_facl (b_opts b)) with (2/10).
    change (eps RI) with (/ 4503599627370496). rewrite Rabs_R0, (Rabs_right (100000 * m)) by lra.
    rewrite Rmax_right by lra. lra.
  - change (b_t b) with 0. change (b_tfinal b) with (100000 * m). change (b_dt b) with (1/1000000).
    change (least_step (b_opts b) (1/1000000) h) with m. change (o_max_steps (b_opts b)) with N. rewrite HN. lra.
Qed.
End Ex.
