(** A nonlinear problem with a known solution, [u' = -u^2], [u(0) = 1], whose
    solution is [1 / (1 + t)]. *)
From Coq Require Import List Reals Lra Lia Sorted.
From RecordUpdate Require Import RecordSet.
From Verif Require Import Arith Vec Core Driver VecFacts DP5 DP5Facts Spec SpecRK SpecODE SpecConv RKFacts DP5Inv
  ArithR DP5R DP5Time DP5RK DP5Num DP5Term DP5RForms DP5Ex DP5REx BigO ConvLocal ConvGlobal ConvDP5.
Import ListNotations RecordSetNotations.
Local Open Scope R_scope.

Definition hyper (t : R) : list R := [/ (1 + t)].
Definition hD (m : nat) (t : R) : R := (-1) ^ m * INR (fact m) * / (1 + t) ^ S m.
Lemma hD_deriv m t : 0 <= t -> derivable_pt_lim (hD m) t (hD (S m) t).
Proof.
  intros Ht. assert (forall k, (1 + t) ^ k <> 0) as Hn by (intros; apply pow_nonzero; lra).
  assert (derivable_pt_lim (fun x => (1 + x) ^ S m) t (INR (S m) * (1 + t) ^ m)) as Hg.
  { apply (shift_deriv (fun x => x ^ S m) 1 t). apply (derivable_pt_lim_pow (1 + t) (S m)). }
  pose proof (derivable_pt_lim_div (fct_cte ((-1) ^ m * INR (fact m))) (fun x => (1 + x) ^ S m) t 0 _
                (derivable_pt_lim_const _ _) Hg (Hn (S m))) as Hd.
  replace (hD (S m) t) with ((0 * (1 + t) ^ S m - INR (S m) * (1 + t) ^ m * fct_cte ((-1) ^ m * INR (fact m)) t) / Rsqr ((1 + t) ^ S m)); [exact Hd|].
  unfold hD, fct_cte, Rsqr. rewrite fact_simpl, mult_INR. cbn [pow]. field. split; [apply Hn|lra].
Qed.

Lemma all_gaps (l : list R) d : Forall (fun g => g < d) (tl l) -> (forall g, hd_error l = Some g -> g < d) ->
  Forall (fun g => g <= d) l.
Proof.
  intros G1 G2. destruct l as [|g0 gs]; [constructor|]. cbn [tl hd_error] in *.
  constructor; [specialize (G2 g0 eq_refl); lra|]. eapply Forall_impl; [|exact G1]. intros g Hg. cbv beta in Hg. lra.
Qed.

Section Ex.
Context (inf : R).
Notation RI := (RA inf).
Notation state := (integ RI unit (dp5_cache RI)).
Notation alg := (@DormandPrince5 RI unit).

Definition r_hyper : rhs RI unit := fun _ u _ _ _ => - (comp u 0) ^ 2.
Lemma r_hyper_overwrites : overwrites r_hyper.
Proof. intros d d' u t p i _ _. reflexivity. Qed.
Lemma hyper_ode t u : length u = 1%nat -> comp (ode r_hyper tt t u) 0 = - (comp u 0) ^ 2.
Proof. intros Hu. rewrite ode_comp by (rewrite Hu; lia). reflexivity. Qed.

Lemma inv_range t : 0 <= t -> 0 < / (1 + t) <= 1.
Proof.
  intros Ht. split; [apply Rinv_0_lt_compat; lra|]. rewrite <- Rinv_1 at 2. apply Rinv_le_contravar; lra.
Qed.
Lemma hD_bound m t : (m <= 6)%nat -> 0 <= t -> Rabs (hD m t) <= 720.
Proof.
  intros Hm Ht. unfold hD. rewrite !Rabs_mult, pow_1_abs, Rmult_1_l.
  rewrite (Rabs_right (INR (fact m))) by (apply Rle_ge, pos_INR).
  rewrite <- pow_inv. rewrite (Rabs_right (_ ^ _)) by (apply Rle_ge, pow_le; pose proof (inv_range t Ht); lra).
  assert ((/ (1 + t)) ^ S m <= 1) by (apply Rle_trans with (1 ^ S m); [apply pow_incr; pose proof (inv_range t Ht); lra|rewrite pow1; lra]).
  assert (0 <= (/ (1 + t)) ^ S m) by (apply pow_le; pose proof (inv_range t Ht); lra).
  assert (INR (fact m) <= 720).
  { change 720 with (INR 720) || replace 720 with (INR (fact 6)) by (cbn; lra). apply le_INR. apply fact_le. exact Hm. }
  pose proof (pos_INR (fact m)). nra.
Qed.

Lemma hyper_smooth : smooth_problem 1 (ode r_hyper tt) 0 1 hyper.
Proof.
  assert (forall t u d, close 1 d u (hyper t) <-> Rabs (comp u 0 - / (1 + t)) <= d) as Hcl.
  { intros t u d. split; [intros H; apply (H 0%nat); lia|]. intros H i Hi. assert (i = 0)%nat as -> by lia. exact H. }
  constructor.
  - reflexivity.
  - exists (fun m i t => match i with 0%nat => hD m t | _ => comp (hyper t) i end), 720.
    split; [|split; [|split]].
    + intros [|i] t; [|reflexivity]. unfold hD, hyper, comp. cbn [nth]. cbn [pow fact INR].
      rewrite !Rmult_1_r, Rmult_1_l. reflexivity.
    + intros i t Hi Ht. assert (i = 0)%nat as -> by lia. rewrite hyper_ode by reflexivity.
      unfold hD, hyper, comp. cbn [nth pow fact Nat.mul Nat.add INR]. field. lra.
    + intros m i t _ Hi Ht. assert (i = 0)%nat as -> by lia. apply hD_deriv. lra.
    + intros m i t Hm Hi Ht. assert (i = 0)%nat as -> by lia. apply hD_bound; [exact Hm|lra].
  - exists 1, 4. split; [lra|]. intros t u v d Ht Hu Hv Cu Cv Cd i Hi. assert (i = 0)%nat as -> by lia.
    rewrite !hyper_ode by assumption. apply Hcl in Cu. apply Hcl in Cv. specialize (Cd 0%nat ltac:(lia)).
    pose proof (inv_range t ltac:(lra)) as Hy.
    set (a := comp u 0) in *. set (c := comp v 0) in *. set (w := / (1 + t)) in *.
    replace (- a ^ 2 - - c ^ 2) with (- (a + c) * (a - c)) by ring. rewrite Rabs_mult, Rabs_Ropp.
    apply Rmult_le_compat; try apply Rabs_pos; [|exact Cd].
    clear - Cu Cv Hy. unfold Rabs in *. repeat destruct (Rcase_abs _); lra.
  - exists (fun _ _ t => -2 * hD 0 t), (fun _ _ t => -2 * hD 1 t), (fun _ _ t => -2 * hD 2 t), 1, 1440.
    split; [lra|]. split.
    + intros t v d Ht Hv Hd Cv i Hi. assert (i = 0)%nat as -> by lia.
      rewrite !hyper_ode by (exact Hv || reflexivity). apply Hcl in Cv. unfold rsum. cbn [seq map fold_right].
      unfold hyper. change (comp [/ (1 + t)] 0) with (/ (1 + t)).
      replace (hD 0 t) with (/ (1 + t)) by (unfold hD; cbn [pow fact INR]; rewrite !Rmult_1_r, Rmult_1_l; reflexivity).
      set (a := comp v 0) in *. set (w := / (1 + t)) in *.
      replace (_ - _) with (- (a - w) ^ 2) by ring. rewrite Rabs_Ropp, <- RPow_abs.
      assert (Rabs (a - w) ^ 2 <= d ^ 2) by (apply pow_incr; split; [apply Rabs_pos|exact Cv]).
      assert (0 <= d ^ 2) by apply pow2_ge_0. lra.
    + intros i k t _ _ Ht.
      split; [apply (derivable_pt_lim_scal (hD 0)); apply hD_deriv; lra|].
      split; [apply (derivable_pt_lim_scal (hD 1)); apply hD_deriv; lra|].
      assert (forall m, (m <= 6)%nat -> Rabs (-2 * hD m t) <= 1440) as Hb.
      { intros m Hm. rewrite Rabs_mult. replace (Rabs (-2)) with 2 by (rewrite Rabs_left; lra).
        pose proof (hD_bound m t Hm ltac:(lra)). lra. }
      split; [apply Hb; lia|]. split; apply Hb; lia.
Qed.

(** The integrator with step sizes capped at [h] and dense output. *)
Definition b_hyper (h : R) : builder RI unit :=
  set_dense true (set_dtmax (h : num RI) (builder_default alg r_hyper ([1] : list R) (0, 1) tt)) <| b_dt := (h : num RI) |>.

Lemma hyper_runs h : 0 < h ->
  b_u (b_hyper h) = hyper 0 /\ sane_opts (b_opts (b_hyper h)) /\
  exists fuel k (s0 s : state), build alg (b_hyper h) = Ok s0 /\ reached alg None fuel (S k) s0 s /\
    Forall (fun g => g <= 101/100 * h) (gaps (ts (i_sol s))).
Proof.
  intros Hh. split; [unfold hyper; cbn; f_equal; field|].
  assert (sane_opts (b_opts (b_hyper h))) as Hso by (constructor; cbn; unfold rlit; lra).
  split; [exact Hso|].
  destruct (dp5_build_ok (b_hyper h)) as (s0 & Hb).
  destruct (dp5_integrate_ends inf (b_hyper h) s0) as (fuel & s & H); try assumption.
  - apply r_hyper_overwrites.
  - cbn; lra.
  - cbn; unfold rlit; lra.
  - cbn; unfold rlit; lra.
  - cbn; lia.
  - discriminate.
  - intros t u Ht Hu. exists ((Rabs (comp u 0) + 1) ^ 2), 1. split; [apply pow2_ge_0|]. split; [lra|].
    intros t' v _ [Hv Hw] i Hi. change (length (b_u (b_hyper h))) with 1%nat in *. assert (i = 0)%nat as -> by lia.
    specialize (Hw 0%nat ltac:(lia)). change (b_dudt (b_hyper h)) with r_hyper. change (b_params (b_hyper h)) with tt.
    rewrite hyper_ode by exact Hv. rewrite Rabs_Ropp, <- RPow_abs. apply pow_incr. split; [apply Rabs_pos|].
    pose proof (Rabs_triang (comp v 0 - comp u 0) (comp u 0)) as T.
    replace (comp v 0 - comp u 0 + comp u 0) with (comp v 0) in T by lra. lra.
  - exists fuel. apply (integrate_split alg None) in H as (k & s1 & _ & Hc & Hs).
    exists k, s0, s. split; [assumption|]. assert (reached alg None fuel (S k) s0 s) as Hre by (econstructor; eassumption).
    split; [exact Hre|].
    destruct (dp5_dtmax inf (b_hyper h) fuel (S k) s0 s Hso) as (G1 & G2); try assumption; try (cbn; lra).
    change (o_dtmax (b_opts (b_hyper h))) with h in G1. change (b_dt (b_hyper h)) with h in G2.
    exact (all_gaps _ _ G1 G2).
Qed.
End Ex.
