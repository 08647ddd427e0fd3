(** DormandPrince5 on linear systems: growth of modes along a run. *)
From Coq Require Import Reals List Lia Lra ZArith Sorting.
From Coquelicot Require Import Complex.
From Verif Require Import Arith Vec Core Driver DP5 DP5Facts DP5Inv Spec SpecRK SpecODE SpecLin SpecReach SpecMode SpecGrow SpecPI ArithR RKFacts DP5R DP5RK DP5RForms DP5Num DP5Dense
  ConvDP5 DP5F64Conv DP5Ref DP5Mode DP5GrowB.
Import ListNotations.
Local Open Scope R_scope.

Section Run.
Context {P : Type} {inf : R}.
Notation RI := (RA inf).
Notation state := (integ RI P (dp5_cache RI)).
Notation alg := (@DormandPrince5 RI P).

Lemma nth_points (s : state) j t u : nth_error (points s) j = Some (t, u) -> In u (us (i_sol s)).
Proof. intros H. apply nth_error_In in H. unfold points in H. apply in_combine_r in H. exact H. Qed.

Lemma mode_factor (b : builder RI P) J e p q a c :
  let n := length (b_u b) in
  overwrites (b_dudt b) -> linear_system n (ode (b_dudt b) (b_params b)) J e -> left_eigenvector n J p q a c ->
  forall fuel k (s0 s : state), build alg b = Ok s0 -> reached alg None fuel k s0 s ->
  forall j t u t' u', nth_error (points s) j = Some (t, u) -> nth_error (points s) (S j) = Some (t', u') ->
  let h := t' - t in
  mode n p q e u' = Cmod (dopri_growth (h * a, h * c)) * mode n p q e u.
Proof.
  intros n Ho Hl He fuel k s0 s Hb Hre j t u t' u' H1 H2 h.
  pose proof (rk_inv_reached inf b fuel k s0 s Ho Hb Hre) as [_ _ _ _ _ _ _ Hli _].
  destruct (linked_nth _ _ _ _ _ Hli H1 H2) as (h' & Et & Eu). cbn [fst snd] in Et, Eu.
  replace h' with h in Eu by (unfold h; lra).
  destruct (dp5_recorded_wf b None fuel k s0 s (no_callback_benign) Hb (reached_steps_n alg None fuel k s0 s Hre)) as (_ & _ & _ & _ & HF).
  rewrite Forall_forall in HF. rewrite Eu. apply (step_mode n J e p q a c He _ Hl). exact (HF u (nth_points s j t u H1)).
Qed.

Lemma small_steps_safe (b : builder RI P) J e p q a c :
  let n := length (b_u b) in
  overwrites (b_dudt b) -> linear_system n (ode (b_dudt b) (b_params b)) J e -> left_eigenvector n J p q a c ->
  forall fuel k (s0 s : state), build alg b = Ok s0 -> reached alg None fuel k s0 s ->
  forall j t u t' u', nth_error (points s) j = Some (t, u) -> nth_error (points s) (S j) = Some (t', u') ->
  let h := t' - t in
  -1 <= h * a <= 0 -> Rabs (h * c) <= 9/10 -> mode n p q e u' <= mode n p q e u.
Proof.
  intros n Ho Hl He fuel k s0 s Hb Hre j t u t' u' H1 H2 h Ha Hc. subst n.
  rewrite (mode_factor b J e p q a c Ho Hl He fuel k s0 s Hb Hre j t u t' u' H1 H2). fold h.
  pose proof (growth_box (- (h * a)) (h * c) ltac:(lra) Hc) as G. rewrite Ropp_involutive in G.
  assert (0 <= mode (length (b_u b)) p q e u) by apply sqrt_pos. nra.
Qed.
Lemma real_modes (b : builder RI P) J e p q a :
  let n := length (b_u b) in
  overwrites (b_dudt b) -> linear_system n (ode (b_dudt b) (b_params b)) J e -> left_eigenvector n J p q a 0 ->
  forall fuel k (s0 s : state), build alg b = Ok s0 -> reached alg None fuel k s0 s ->
  forall j t u t' u', nth_error (points s) j = Some (t, u) -> nth_error (points s) (S j) = Some (t', u') ->
  let h := t' - t in
  (-33/10 <= h * a <= 0 -> mode n p q e u' <= mode n p q e u) /\
  (h * a <= -331/100 -> 0 < mode n p q e u -> mode n p q e u < mode n p q e u').
Proof.
  intros n Ho Hl He fuel k s0 s Hb Hre j t u t' u' H1 H2 h. subst n.
  rewrite (mode_factor b J e p q a 0 Ho Hl He fuel k s0 s Hb Hre j t u t' u' H1 H2). fold h. rewrite Rmult_0_r.
  assert (0 <= mode (length (b_u b)) p q e u) by apply sqrt_pos. split.
  - intros Ha. pose proof (growth_real_small (- (h * a)) ltac:(lra)) as G. rewrite Ropp_involutive in G. nra.
  - intros Ha Hm. pose proof (growth_real_large (- (h * a)) ltac:(lra)) as G. rewrite Ropp_involutive in G. nra.
Qed.

Lemma dtmax_modes (b : builder RI P) J e p q a c :
  let n := length (b_u b) in
  let H := 101/100 * Rmax (b_dt b) (o_dtmax (b_opts b)) in
  overwrites (b_dudt b) -> sane_opts (b_opts b) -> 0 < b_dt b -> b_t b < b_tfinal b ->
  linear_system n (ode (b_dudt b) (b_params b)) J e -> left_eigenvector n J p q a c ->
  a <= 0 -> H * Rabs a <= 1 -> H * Rabs c <= 9/10 ->
  forall fuel k (s0 s : state), build alg b = Ok s0 -> reached alg None fuel k s0 s ->
  forall t u, In (t, u) (points s) -> mode n p q e u <= mode n p q e (b_u b).
Proof.
  intros n H Ho Hso Hdt Ht Hl He Ha HHa HHc fuel k s0 s Hb Hre t u Hin.
  assert (forall j t u, nth_error (points s) j = Some (t, u) -> mode n p q e u <= mode n p q e (b_u b)) as Q.
  { destruct (dp5_times inf b fuel k s0 s Hso Hdt Ht Hb Hre) as (Hsort & _).
    destruct (dp5_dtmax inf b fuel k s0 s Hso Hdt Ht Hb Hre) as (G1 & G2).
    pose proof (dp5_recorded_wf b None fuel k s0 s (no_callback_benign) Hb (reached_steps_n alg None fuel k s0 s Hre)) as (W1 & _ & _ & W4 & _).
    assert (map fst (points s) = ts (i_sol s)) as Hmap by (apply combine_fst; exact W1).
    assert (Forall (fun g => g <= H) (gaps (ts (i_sol s)))) as Hg.
    { pose proof (Rmax_l (b_dt b) (o_dtmax (b_opts b))). pose proof (Rmax_r (b_dt b) (o_dtmax (b_opts b))).
      destruct (gaps (ts (i_sol s))) as [|g0 gs]; [constructor|]. cbn [tl hd_error] in *. unfold H. constructor.
      - specialize (G2 g0 eq_refl). lra.
      - eapply Forall_impl; [|exact G1]. intros g Hg. cbv beta in Hg. lra. }
    intros j. induction j as [|j IH]; intros t1 u1 H1.
    - unfold points in H1. destruct (ts (i_sol s)) as [|t2 l]; [discriminate|]. destruct (us (i_sol s)) as [|u2 l']; [discriminate|].
      cbn in H1, W4. injection H1 as _ <-. injection W4 as ->. apply Rle_refl.
    - destruct (nth_error (points s) j) as [(t0, u0)|] eqn:H0.
      2:{ apply nth_error_None in H0. assert (nth_error (points s) (S j) <> None) as N by (rewrite H1; discriminate). apply nth_error_Some in N. lia. }
      eapply Rle_trans; [|exact (IH t0 u0 eq_refl)].
      assert (nth_error (ts (i_sol s)) j = Some t0) as T0 by (rewrite <- Hmap; exact (map_nth_error fst j (points s) H0)).
      assert (nth_error (ts (i_sol s)) (S j) = Some t1) as T1 by (rewrite <- Hmap; exact (map_nth_error fst (S j) (points s) H1)).
      pose proof (gaps_nth H _ _ _ _ Hg T0 T1) as Gap.
      assert (t0 < t1) as Hpos.
      { clear - Hsort T0 T1. revert j T0 T1. induction Hsort as [|x l Hs IH Hf]; intros j T0 T1; [destruct j; discriminate|].
        destruct j as [|j]; [|exact (IH j T0 T1)]. cbn in T0, T1. injection T0 as <-.
        rewrite Forall_forall in Hf || idtac. destruct l as [|w l]; [discriminate|]. cbn in T1. injection T1 as <-.
        first [inversion Hf; assumption | apply Hf; now left]. }
      apply (small_steps_safe b J e p q a c Ho Hl He fuel k s0 s Hb Hre j t0 u0 t1 u1 H0 H1).
      + rewrite (Rabs_left1 a) in HHa by exact Ha. split; [|nra].
        assert ((t1 - t0) * - a <= H * - a) by (apply Rmult_le_compat_r; lra). lra.
      + rewrite Rabs_mult, (Rabs_right (t1 - t0)) by lra.
        assert ((t1 - t0) * Rabs c <= H * Rabs c) by (apply Rmult_le_compat_r; [apply Rabs_pos|lra]). lra. }
  destruct (In_nth_error _ _ Hin) as (j & Hj). exact (Q j t u Hj).
Qed.
End Run.
