(** A problem with a known solution for Radau5: two cells exchanging their
    contents, [u0' = u1 - u0], [u1' = u0 - u1] from [(1, 0)]. *)
From Coq Require Import List Reals Lra Lia Sorted.
From RecordUpdate Require Import RecordSet.
From Verif Require Import Arith Vec Core Driver Radau Spec SpecRK SpecODE SpecLin SpecRadau SpecReach SpecStage SpecIRK SpecConv ArithR RKFacts
  Jacobian JacFacts RadauEx RadauREx RadauLinEx RadauTerm RadauRForms SubEx RadauRef RadRefEx RadConv DP5Num RadauHist.
Import ListNotations RecordSetNotations.
Local Open Scope R_scope.

Definition mixing (t : R) : list R := [(1 + exp (- 2 * t)) / 2; (1 - exp (- 2 * t)) / 2].
Definition b_mix (inf h : R) : builder (RA inf) unit := set_dtmax (h : num (RA inf)) (r_swap inf) <| b_dt := (h : num (RA inf)) |>.

Lemma exp_close s t : 0 <= s -> s <= t -> 0 <= exp (- 2 * s) - exp (- 2 * t) <= 2 * (t - s).
Proof.
  intros Hs Ht.
  assert (exp (- 2 * t) = exp (- 2 * s) * exp (- 2 * (t - s))) as E by (rewrite <- exp_plus; f_equal; ring).
  assert (0 < exp (- 2 * s) <= 1) as H1.
  { split; [apply exp_pos|]. rewrite <- exp_0. destruct (Rle_lt_or_eq_dec 0 s Hs) as [H| <-]; [left; apply exp_increasing; lra|right; f_equal; lra]. }
  assert (0 < exp (- 2 * (t - s)) <= 1) as H2.
  { split; [apply exp_pos|]. rewrite <- exp_0. destruct (Rle_lt_or_eq_dec 0 (t - s) ltac:(lra)) as [H|H]; [left; apply exp_increasing; lra|right; f_equal; lra]. }
  assert (1 - 2 * (t - s) <= exp (- 2 * (t - s))) as H3.
  { destruct (Req_dec (t - s) 0) as [->|Hn]; [replace (- 2 * 0) with 0 by ring; rewrite exp_0; lra|].
    pose proof (exp_ineq1 (- 2 * (t - s)) ltac:(lra)). lra. }
  rewrite E. replace (exp (- 2 * s) - exp (- 2 * s) * exp (- 2 * (t - s))) with (exp (- 2 * s) * (1 - exp (- 2 * (t - s)))) by ring.
  split; [apply Rmult_le_pos; lra|]. nra.
Qed.
Lemma exp_near s t : 0 <= s -> 0 <= t -> Rabs (exp (- 2 * s) - exp (- 2 * t)) <= 2 * Rabs (s - t).
Proof.
  intros Hs Ht. destruct (Rle_lt_dec s t) as [H|H].
  - pose proof (exp_close s t Hs H). rewrite Rabs_pos_eq by lra. rewrite Rabs_minus_sym, Rabs_pos_eq by lra. lra.
  - pose proof (exp_close t s Ht ltac:(lra)). rewrite Rabs_minus_sym, Rabs_pos_eq by lra. rewrite Rabs_pos_eq by lra. lra.
Qed.
Lemma exp_deriv t : derivable_pt_lim (fun s => exp (- 2 * s)) t (- 2 * exp (- 2 * t)).
Proof.
  replace (- 2 * exp (- 2 * t)) with (exp (- 2 * t) * (- 2 * 1)) by ring.
  apply (derivable_pt_lim_comp (fun s => - 2 * s) exp t); [|apply derivable_pt_lim_exp].
  apply (derivable_pt_lim_scal id (- 2) t 1). apply derivable_pt_lim_id.
Qed.

Lemma all_gaps_le (l : list R) d d' : d' <= d -> Forall (fun g => g <= d) (tl l) -> (forall g, hd_error l = Some g -> g <= d') ->
  Forall (fun g => g <= d) l.
Proof.
  intros Hd G1 G2. destruct l as [|g0 gs]; [constructor|]. cbn [tl hd_error] in *.
  constructor; [specialize (G2 g0 eq_refl); lra|exact G1].
Qed.

Section Ex.
Context (inf : R).
Notation RI := (RA inf).
Notation alg := (@Radau5 RI unit).
Notation f := (r_swap_rhs inf).

Lemma swap_ode t u : length u = 2%nat ->
  comp (ode f tt t u) 0 = comp u 1 - comp u 0 /\ comp (ode f tt t u) 1 = comp u 0 - comp u 1.
Proof. intros Hu. rewrite !ode_comp by (rewrite Hu; lia). split; reflexivity. Qed.
Lemma two i : (i < 2)%nat -> i = 0%nat \/ i = 1%nat.
Proof. lia. Qed.

Lemma mixing_problem : lipschitz_problem 2 (ode f tt) 0 1 mixing.
Proof.
  constructor.
  - reflexivity.
  - intros i t Hi _. destruct (swap_ode t (mixing t) eq_refl) as (E0 & E1).
    assert (forall c, derivable_pt_lim (fun s => (1 + c * exp (- 2 * s)) / 2) t (- c * exp (- 2 * t))) as Hd.
    { intros c. pose proof (derivable_pt_lim_plus (fct_cte (1 / 2)) (mult_real_fct (c / 2) (fun s => exp (- 2 * s))) t 0 _
        (derivable_pt_lim_const _ _) (derivable_pt_lim_scal _ (c / 2) t _ (exp_deriv t))) as H.
      replace (- c * exp (- 2 * t)) with (0 + c / 2 * (- 2 * exp (- 2 * t))) by field.
      eapply derivable_pt_lim_ext; [|exact H]. intros s. unfold plus_fct, fct_cte, mult_real_fct. field. }
    destruct (two i Hi) as [-> | ->].
    + rewrite E0. cbn. replace ((1 - exp (- 2 * t)) / 2 - (1 + exp (- 2 * t)) / 2) with (Ropp 1 * exp (- 2 * t)) by (field_simplify; lra).
      eapply derivable_pt_lim_ext; [|apply (Hd 1)]. intros s. cbn. field.
    + rewrite E1. cbn. replace ((1 + exp (- 2 * t)) / 2 - (1 - exp (- 2 * t)) / 2) with (Ropp (-1) * exp (- 2 * t)) by (field_simplify; lra).
      eapply derivable_pt_lim_ext; [|apply (Hd (-1))]. intros s. cbn. field.
  - exists 2. intros s t Hs Ht i Hi. pose proof (exp_near s t ltac:(lra) ltac:(lra)) as Hn.
    destruct (swap_ode s (mixing s) eq_refl) as (E0 & E1). destruct (swap_ode t (mixing t) eq_refl) as (G0 & G1).
    destruct (two i Hi) as [-> | ->]; [rewrite E0, G0|rewrite E1, G1]; cbn [comp mixing nth].
    + match goal with |- Rabs ?e <= _ => replace e with (- (exp (- 2 * s) - exp (- 2 * t))) by field end. rewrite Rabs_Ropp. exact Hn.
    + match goal with |- Rabs ?e <= _ => replace e with (exp (- 2 * s) - exp (- 2 * t)) by field end. exact Hn.
  - exists 2. intros t u v d _ Hu Hv Hc i Hi.
    destruct (swap_ode t u Hu) as (E0 & E1). destruct (swap_ode t v Hv) as (G0 & G1).
    pose proof (Hc 0%nat ltac:(lia)) as C0. pose proof (Hc 1%nat ltac:(lia)) as C1.
    assert (forall a c, Rabs a <= d -> Rabs c <= d -> Rabs (a - c) <= 2 * d) as Ht.
    { intros a c H1 H2. unfold Rminus. eapply Rle_trans; [apply Rabs_triang|]. rewrite Rabs_Ropp. lra. }
    destruct (two i Hi) as [-> | ->]; [rewrite E0, G0|rewrite E1, G1].
    + replace (comp u 1 - comp u 0 - (comp v 1 - comp v 0)) with ((comp u 1 - comp v 1) - (comp u 0 - comp v 0)) by ring. now apply Ht.
    + replace (comp u 0 - comp u 1 - (comp v 0 - comp v 1)) with ((comp u 0 - comp v 0) - (comp u 1 - comp v 1)) by ring. now apply Ht.
Qed.
Lemma mixing_jacobian : jacobian_bounded 2 (the_jacobian f None tt) 0 1.
Proof.
  exists 1. intros t u _ Lu i j Hi Hj.
  destruct u as [|x [|z [|]]]; try discriminate.
  assert (0 < fd_step x) as Hx by exact (fd_delta_pos (inf := inf) x).
  assert (0 < fd_step z) as Hz by exact (fd_delta_pos (inf := inf) z).
  unfold entry, the_jacobian, vect. cbn [length seq map].
  destruct (two i Hi) as [-> | ->], (two j Hj) as [-> | ->]; cbn [nth comp Nat.eqb];
    cbn; unfold r_swap_rhs; cbn;
    match goal with |- Rabs (?a / ?d) <= 1 =>
      first [replace (a / d) with 1 by (field; lra); rewrite Rabs_R1 | replace (a / d) with (-1) by (field; lra); rewrite Rabs_left by lra] end; lra.
Qed.
Lemma some_run (b : builder RI unit) : b_u b <> [] -> radau_sane (b_opts b) -> 0 < b_dt b -> b_t b < b_tfinal b ->
  b_dt b <= o_dtmax (b_opts b) ->
  exists fuel k s0 s, build alg b = Ok s0 /\ reached alg None fuel (S k) s0 s /\
    Forall (fun g => g <= 10001/10000 * (o_dtmax (b_opts b) / o_quot1 (b_opts b))) (gaps (ts (i_sol s))).
Proof.
  intros Hu Hs Hdt Ht Hm. destruct (radau_build_ok b) as (s0 & Hb).
  destruct (radau_integrate_returns b None _ _ s0 no_callback_benign Hu Hb (le_n _) (le_n _)) as (s & H & Hr & _).
  apply (integrate_split Radau5 None) in H as (k & s1 & _ & Hc & Hst).
  eexists _, k, s0, s. split; [exact Hb|]. assert (reached alg None _ (S k) s0 s) as Hre by (econstructor; eassumption).
  split; [exact Hre|].
  destruct (fwd_dtmax inf b Hs Hdt Ht _ (S k) s0 s Hb Hre) as (G1 & G2).
  refine (all_gaps_le _ _ _ _ G1 G2). destruct Hs as [_ _ _ Hq _].
  assert (b_dt b <= o_dtmax (b_opts b) / o_quot1 (b_opts b)); [|lra].
  assert (1 <= / o_quot1 (b_opts b)) by (rewrite <- Rinv_1; apply Rinv_le_contravar; lra). unfold Rdiv. nra.
Qed.
Lemma sane_dtmax (o : opts RI) d : radau_sane o -> 0 < d -> radau_sane (o <| o_dtmax := (d : num RI) |>).
Proof. intros [H1 H2 H3 H4 H5] Hd. constructor; assumption. Qed.
Lemma run_with (b : builder RI unit) h : b_u b <> [] -> radau_sane (b_opts b) -> b_t b < b_tfinal b -> 0 < h ->
  exists fuel k s0 s, build alg (set_dtmax (h : num RI) b <| b_dt := (h : num RI) |>) = Ok s0 /\ reached alg None fuel (S k) s0 s /\
    Forall (fun g => g <= 10001/10000 * (h / o_quot1 (b_opts b))) (gaps (ts (i_sol s))).
Proof.
  intros Hu Hs Ht Hh. set (b' := set_dtmax _ b <| b_dt := _ |>).
  assert (b_opts b' = b_opts b <| o_dtmax := (h : num RI) |>) as Eo by reflexivity.
  assert (o_dtmax (b_opts b') = h) as E1 by (rewrite Eo; reflexivity).
  assert (o_quot1 (b_opts b') = o_quot1 (b_opts b)) as E2 by (rewrite Eo; reflexivity).
  assert (radau_sane (b_opts b')) as Hs' by (rewrite Eo; now apply sane_dtmax).
  assert (b_dt b' = h) as E3 by reflexivity. assert (b_t b' = b_t b) as E4 by reflexivity.
  assert (b_tfinal b' = b_tfinal b) as E5 by reflexivity. assert (b_u b' = b_u b) as E6 by reflexivity. clearbody b'.
  destruct (some_run b') as (fuel & k & s0 & s & H1 & H2 & H3); [rewrite E6; exact Hu|exact Hs'|rewrite E3; exact Hh|rewrite E4, E5; exact Ht|right; congruence|].
  exists fuel, k, s0, s. split; [exact H1|]. split; [exact H2|]. rewrite E1, E2 in H3. exact H3.
Qed.
Lemma swap_sane : 0 < inf -> radau_sane (b_opts (r_swap inf)).
Proof. intros Hinf. exact (def_sane inf Hinf (r_swap_rhs inf) [1; 0]). Qed.
Lemma mix_runs h : 0 < inf -> 0 < h ->
  exists fuel k s0 s, build alg (b_mix inf h) = Ok s0 /\ reached alg None fuel (S k) s0 s /\
    Forall (fun g => g <= 10001/10000 * (h / o_quot1 (b_opts (r_swap inf)))) (gaps (ts (i_sol s))).
Proof.
  intros Hinf Hh. apply (run_with (r_swap inf) h); [discriminate|exact (swap_sane Hinf)|cbn; lra|exact Hh].
Qed.
End Ex.
