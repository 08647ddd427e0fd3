(** Concrete problems in exact arithmetic that meet the hypotheses of the
    theorems of PropDP5R.v, and counterexamples. *)
From Coq Require Import ZArith List Bool Lia Reals Lra Sorted.
From RecordUpdate Require Import RecordSet.
From Verif Require Import Arith Vec Core Driver VecFacts DP5 DP5Facts Spec SpecRK SpecODE RKFacts DP5Inv
  ArithR DP5R DP5Time DP5RK DP5Num DP5Term DP5RForms.
Import ListNotations RecordSetNotations.
Local Open Scope R_scope.

Section Ex.
Context (inf : R).
Hypothesis Hinf : 0 < inf.
Notation RI := (RA inf).
Notation state := (integ RI unit (dp5_cache RI)).
Notation alg := (@DormandPrince5 RI unit).

(** u0' = u1, u1' = -u0 *)
Definition r_osc : rhs RI unit := fun _ u _ _ i =>
  match i with O => comp u 1 | _ => - comp u 0 end.
Lemma r_osc_overwrites : overwrites r_osc.
Proof. intros d d' u t p i _ _. reflexivity. Qed.

(** The default integrator for the oscillator, with the defaults and from [t0] to [tf]. *)
Definition r_dp5 (x t0 tf : R) : builder RI unit :=
  builder_default alg r_osc ([x; 0] : list R) (t0, tf) tt.

Lemma default_sane x t0 tf : sane_opts (b_opts (r_dp5 x t0 tf)).
Proof. constructor; cbn; unfold rlit; lra. Qed.

Lemma r_dp5_dt x t0 tf : b_dt (r_dp5 x t0 tf) = 1 / 1000000.
Proof. reflexivity. Qed.
Lemma r_dp5_atol x t0 tf : o_abstol (b_opts (r_dp5 x t0 tf)) = 1 / 10000000.
Proof. reflexivity. Qed.
Lemma r_dp5_rtol x t0 tf : o_reltol (b_opts (r_dp5 x t0 tf)) = 1 / 1000.
Proof. reflexivity. Qed.
Lemma r_dp5_stiff x t0 tf : o_max_stiff (b_opts (r_dp5 x t0 tf)) <> 0%nat.
Proof. cbn. lia. Qed.

Lemma osc_near t tf u r : 0 <= r -> length u = 2%nat ->
  bounded_near r_osc tt 2 tf t u (Rabs (comp u 0) + Rabs (comp u 1) + r) r.
Proof.
  intros Hr Hu t' v _ [Hv Hw] i Hi.
  assert (forall j, (j < 2)%nat -> Rabs (comp v j) <= Rabs (comp u j) + r) as H.
  { intros j Hj. specialize (Hw j Hj). pose proof (Rabs_triang (comp v j - comp u j) (comp u j)) as T.
    replace (comp v j - comp u j + comp u j) with (comp v j) in T by lra. lra. }
  pose proof (H 0%nat ltac:(lia)). pose proof (H 1%nat ltac:(lia)).
  pose proof (Rabs_pos (comp u 0)). pose proof (Rabs_pos (comp u 1)).
  rewrite ode_comp by (rewrite Hv; exact Hi). unfold r_osc. destruct i; [lra|].
  rewrite Rabs_Ropp. lra.
Qed.

Lemma osc_locally_bounded x t0 tf :
  locally_bounded r_osc tt (length (b_u (r_dp5 x t0 tf))) t0 tf.
Proof.
  intros t u _ Hu. exists (Rabs (comp u 0) + Rabs (comp u 1) + 1), 1.
  pose proof (Rabs_pos (comp u 0)). pose proof (Rabs_pos (comp u 1)).
  split; [lra|]. split; [lra|]. apply osc_near; [lra|exact Hu].
Qed.

(** The default integration of the oscillator over [0,1] returns. *)
Lemma osc_runs : exists fuel (s0 s : state), build alg (r_dp5 1 0 1) = Ok s0 /\
  integrate alg None fuel (S (o_max_steps (b_opts (r_dp5 1 0 1)))) s0 = Ok s.
Proof.
  destruct (dp5_build_ok (r_dp5 1 0 1)) as (s0 & Hb).
  destruct (dp5_integrate_ends inf (r_dp5 1 0 1) s0) as (fuel & s & H); try assumption.
  - apply default_sane.
  - apply r_osc_overwrites.
  - rewrite r_dp5_dt; lra.
  - cbn; lra.
  - rewrite r_dp5_atol; lra.
  - rewrite r_dp5_rtol; lra.
  - apply r_dp5_stiff.
  - discriminate.
  - apply osc_locally_bounded.
  - eauto.
Qed.

Lemma osc_reached : exists fuel k (s0 s : state), build alg (r_dp5 1 0 1) = Ok s0 /\
  reached alg None fuel (S k) s0 s.
Proof.
  destruct osc_runs as (fuel & s0 & s & Hb & H). exists fuel.
  apply (integrate_split alg None) in H as (k & s1 & _ & Hc & Hs).
  exists k, s0, s. split; [assumption|]. econstructor; eassumption.
Qed.
Lemma osc_steps : exists fuel k (s0 s : state), build alg (r_dp5 1 0 1) = Ok s0 /\
  steps_n alg None fuel (S k) s0 = Ok s.
Proof.
  destruct osc_reached as (fuel & k & s0 & s & Hb & H). exists fuel, k, s0, s. split; [assumption|].
  now apply (reached_steps_n alg None).
Qed.

(** Dense output on; a right-hand side with a linear invariant that is also a
    quadrature: u0' = t^2, u1' = -t^2. *)
Definition r_quad : rhs RI unit := fun _ _ t _ i => poly4 (fun j => if Nat.eqb j 2 then (if Nat.eqb i 0 then 1 else -1) else 0) t.
Definition b_quad : builder RI unit :=
  set_dense true (builder_default alg r_quad ([1; 0] : list R) (0, 1) tt).
Lemma r_quad_overwrites : overwrites r_quad.
Proof. intros d d' u t p i _ _. reflexivity. Qed.

Lemma quad_reached : sane_opts (b_opts b_quad) /\ 0 < b_dt b_quad /\ b_t b_quad < b_tfinal b_quad /\
  o_dense (b_opts b_quad) = true /\
  exists fuel k (s0 s : state), build alg b_quad = Ok s0 /\ reached alg None fuel (S k) s0 s.
Proof.
  assert (sane_opts (b_opts b_quad)) as Hso by (constructor; cbn; unfold rlit; lra).
  split; [exact Hso|]. split; [cbn; unfold rlit; lra|]. split; [cbn; lra|]. split; [reflexivity|].
  destruct (dp5_build_ok b_quad) as (s0 & Hb).
  destruct (dp5_integrate_ends inf b_quad s0) as (fuel & s & H); try assumption.
  - apply r_quad_overwrites.
  - cbn; unfold rlit; lra.
  - cbn; lra.
  - cbn; unfold rlit; lra.
  - cbn; unfold rlit; lra.
  - cbn; lia.
  - discriminate.
  - intros t u Ht Hu. exists 1, 1. split; [lra|]. split; [lra|].
    intros t' v [Ht1 Ht2] [Hv _] i Hi. cbn [b_t b_tfinal b_quad set_dense builder_default fst snd] in Ht.
    rewrite ode_comp by (rewrite Hv; exact Hi). cbn [b_dudt b_quad set_dense builder_default].
    assert (0 <= t' <= 1) as H'.
    { split; [apply Rle_trans with t; [apply Ht|assumption]|]. eapply Rle_trans; [exact Ht2|]. apply Rmin_l. }
    change (b_dudt b_quad) with r_quad.
    unfold r_quad, poly4. cbn [Nat.eqb]. destruct (Nat.eqb i 0); apply Rabs_le; cbn [pow]; nra.
  - exists fuel. apply (integrate_split alg None) in H as (k & s1 & _ & Hc & Hs).
    exists k, s0, s. split; [assumption|]. econstructor; eassumption.
Qed.

(** The first step of that run, as a step from a state that is not finished. *)
Lemma osc_first_step : exists fuel (s0 s : state) r, build alg (r_dp5 1 0 1) = Ok s0 /\
  reached alg None fuel 0 s0 s0 /\ rc (i_sol s0) = RContinue /\ step alg None fuel s0 = Ok (s, r).
Proof.
  destruct osc_runs as (fuel & s0 & s & Hb & H). exists fuel, s0.
  assert (exists s' r, step alg None fuel s0 = Ok (s', r)) as (s' & r & E).
  { apply (integrate_split alg None) in H as (k & s1 & _ & Hc & Hs).
    destruct Hc; eauto. }
  exists s', r. split; [assumption|]. split; [constructor|]. split; [|assumption].
  apply dp5_build_inv in Hb as (_&_&_&_&_&_&_&_&_&_&_&_&_&_&->&_). reflexivity.
Qed.

(** One attempt of the default step for the oscillator starting at [1/100] is
    accepted. *)
Lemma osc_small (s : state) : i_dudt s = r_osc -> i_params s = tt -> fsal inf s -> dp5_shapes s = true ->
  i_u s = [1/100; 0] -> sane_opts (i_opts s) -> o_abstol (i_opts s) = 1/10000000 ->
  0 <= o_reltol (i_opts s) -> o_max_stiff (i_opts s) <> 0%nat ->
  i_dt s = 1/1000000 ->
  exists s', dp5_loop 1 s = Ok s'.
Proof.
  intros Ef Ep Hfs Hsh Eu Hso Ea Hre Hms Ed.
  apply (loop_returns inf 2 (i_t s + i_dt s) (2/100) (1/100)); [lra| |..];
    try (rewrite Ed, ?Ea; cbn [pow]; lra).
  unfold retry_inv. rewrite Ef, Ep, Eu, Ea.
  split; [apply r_osc_overwrites|]. split; [assumption|]. split; [assumption|].
  split; [reflexivity|]. split; [lia|]. split; [assumption|].
  split; [lra|]. split; [assumption|]. split; [assumption|]. split; [rewrite Ed; lra|]. split; [right; reflexivity|].
  pose proof (osc_near (i_t s) (i_t s + i_dt s) ([1/100;0] : list R) (1/100) ltac:(lra) eq_refl) as H.
  cbn [comp nth] in H. rewrite Rabs_R0, (Rabs_right (1/100)) in H by lra.
  replace (1/100 + 0 + 1/100) with (2/100) in H by lra. exact H.
Qed.

(** A run that ends with Success: the span is exactly the first step. *)
Lemma osc_success : exists (s0 s : state), build alg (r_dp5 (1/100) 0 (1/1000000)) = Ok s0 /\
  reached alg None 1 1 s0 s /\ rc (i_sol s) = RSuccess.
Proof.
  set (b := r_dp5 (1/100) 0 (1/1000000)).
  destruct (dp5_build_ok b) as (s0 & Hb). exists s0.
  pose proof Hb as Hb'.
  apply dp5_build_inv in Hb' as (Ef&?&?&Ep&Eu&Et&Edt&?&?&?&Edir&Etf&Eo&?&?&?&?&?&?&Edu&?&Hsh).
  set (sc := s0 <| i_dt := sub RI (i_tfinal s0) (i_t s0) |> <| i_cache; last := true |>).
  assert (dp5_clip s0 = sc) as Ec.
  { destruct (dp5_clip_cases s0) as [(_ & C)|(C & _)]; [exact C|exfalso].
    rewrite Edir, Et, Edt, Etf in C. unfold b in C. cbn in C. apply Rltb_false in C.
    unfold rlit, rcopysign in C.
    destruct (Rlt_dec _ _) as [Hn|_]; [lra|]. replace (1/1) with 1 in C by lra. rewrite Rabs_R1 in C. lra. }
  assert (i_opts sc = b_opts b) as Eoc by exact Eo.
  destruct (osc_small sc) as (sl & El).
  - exact Ef.
  - exact Ep.
  - unfold fsal, sc. cbn. rewrite Edu, Ef, Ep, Et, Eu. reflexivity.
  - rewrite <- Ec. destruct (dp5_clip_frame s0) as (_ & Cpt & _ & _ & _ & _ & (cl & Cc)).
    destruct Cpt as (Cu & Ct & Cup & _). rewrite (same_shapes_point s0); eauto.
  - exact Eu.
  - rewrite Eoc. apply default_sane.
  - rewrite Eoc. apply r_dp5_atol.
  - rewrite Eoc. unfold b. rewrite r_dp5_rtol; lra.
  - rewrite Eoc. apply r_dp5_stiff.
  - unfold sc. cbn. rewrite Etf, Et. cbn. lra.
  - exists (dp5_finish sl). split; [exact Hb|].
    assert (dp5_step 1 s0 = Ok (dp5_finish sl)) as Es.
    { unfold dp5_step. rewrite Ec, El. reflexivity. }
    split.
    + assert (exists r, step alg None 1 s0 = Ok (dp5_finish sl, r)) as (r & Hs).
      { unfold step. cbn [alg_step DormandPrince5 Cache]. rewrite Es. cbn [bind run_callback]. eauto. }
      econstructor; [constructor|exact Hs].
    + cbn [dp5_loop] in El. apply bind_ok in El as ([s1 d] & Ha & E).
      destruct d; [|discriminate]. injection E as ->.
      apply dp5_attempt_inv in Ha as (s2 & Hs & [(_ & _ & Hacc)|(D & _)]); [|discriminate].
      apply compute_stages_inv in Hs as (_&_&_&_&_&_&_&_&_&_&_&Hl&_).
      pose proof (dp5_finish_frame sl) as (_&_&_&_&_&_&_&_&_&_&_&_&->).
      rewrite (acc_last _ _ _ Hacc), Hl. reflexivity.
Qed.

(** A backward problem whose first step returns. *)
Lemma osc_backward : exists (s0 s : state) r, build alg (r_dp5 (1/100) 1 0) = Ok s0 /\
  step alg None 1 s0 = Ok (s, r).
Proof.
  set (b := r_dp5 (1/100) 1 0).
  destruct (dp5_build_ok b) as (s0 & Hb). exists s0.
  pose proof Hb as Hb'.
  apply dp5_build_inv in Hb' as (Ef&?&?&Ep&Eu&Et&Edt&?&?&?&Edir&Etf&Eo&?&?&?&?&?&?&Edu&?&Hsh).
  assert (dp5_clip s0 = s0) as Ec.
  { destruct (dp5_clip_cases s0) as [(C & _)|(_ & C)]; [|exact C]. exfalso.
    rewrite Edir, Et, Edt, Etf in C. unfold b in C. cbn in C. apply Rltb_true in C.
    unfold rlit, rcopysign in C.
    destruct (Rlt_dec _ _) as [_|Hn]; [|lra]. replace (1/1) with 1 in C by lra. rewrite Rabs_R1 in C. lra. }
  destruct (osc_small s0) as (sl & El); try assumption; rewrite ?Eo;
    [|apply default_sane|apply r_dp5_atol|unfold b; rewrite r_dp5_rtol; lra|apply r_dp5_stiff|].
  - unfold fsal. rewrite Edu, Ef, Ep, Et, Eu. reflexivity.
  - assert (exists r, step alg None 1 s0 = Ok (dp5_finish sl, r)) as (r & Hs).
    { unfold step. cbn [alg_step DormandPrince5 Cache]. unfold dp5_step. rewrite Ec, El. cbn [bind run_callback]. eauto. }
    exists (dp5_finish sl), r. auto.
Qed.

(** A first step ten times longer than [dtmax]. *)
Lemma first_step_exceeds_dtmax : exists (s0 s : state),
  let b := set_dtmax (1/10000000 : num RI) (r_dp5 (1/100) 0 1) in
  sane_opts (b_opts b) /\ build alg b = Ok s0 /\ reached alg None 1 1 s0 s /\
  hd_error (gaps (ts (i_sol s))) = Some (1/1000000) /\ 1/1000000 = 10 * o_dtmax (b_opts b).
Proof.
  set (b := set_dtmax (1/10000000 : num RI) (r_dp5 (1/100) 0 1)).
  destruct (dp5_build_ok b) as (s0 & Hb). exists s0.
  pose proof Hb as Hb'.
  apply dp5_build_inv in Hb' as (Ef&?&?&Ep&Eu&Et&Edt&?&?&?&Edir&Etf&Eo&?&Esol&?&?&?&?&Edu&?&Hsh).
  assert (dp5_clip s0 = s0) as Ec.
  { destruct (dp5_clip_cases s0) as [(C & _)|(_ & C)]; [|exact C]. exfalso.
    rewrite Edir, Et, Edt, Etf in C. unfold b in C. cbn in C. apply Rltb_true in C.
    unfold rlit, rcopysign in C.
    destruct (Rlt_dec _ _) as [Hn|_]; [lra|]. replace (1/1) with 1 in C by lra. rewrite Rabs_R1 in C. lra. }
  destruct (osc_small s0) as (sl & El); try assumption.
  - unfold fsal. rewrite Edu, Ef, Ep, Et, Eu. reflexivity.
  - rewrite Eo. constructor; cbn; unfold rlit; lra.
  - rewrite Eo. reflexivity.
  - rewrite Eo. cbn. unfold rlit. lra.
  - rewrite Eo. cbn. lia.
  - exists (dp5_finish sl). split; [constructor; cbn; unfold rlit; lra|]. split; [exact Hb|].
    assert (exists r, step alg None 1 s0 = Ok (dp5_finish sl, r)) as (r & Hs).
    { unfold step. cbn [alg_step DormandPrince5 Cache]. unfold dp5_step. rewrite Ec, El. cbn [bind run_callback]. eauto. }
    split; [econstructor; [constructor|exact Hs]|]. split; [|cbn; lra].
    cbn [dp5_loop] in El. apply bind_ok in El as ([s1 d] & Ha & E).
    destruct d; [|discriminate]. injection E as ->.
    apply dp5_attempt_inv in Ha as (s2 & Hs2 & [(_ & _ & Hacc)|(D & _)]); [|discriminate].
    apply compute_stages_inv in Hs2 as (_&_&Spt&Sdt&_&Ssol&_).
    pose proof (dp5_finish_frame sl) as (_&_&_&_&_&_&_&_&_&_&->&_).
    rewrite (acc_sol _ _ _ Hacc), Ssol, Esol, (acc_t _ _ _ Hacc), Sdt, Edt.
    destruct Spt as (_&->&_). rewrite Et. cbn. f_equal. unfold rlit. lra.
Qed.

(** ** C11 fails for large [beta] *)
Definition r_jump : rhs RI unit := fun _ _ t _ _ => if Req_EM_T t 0 then 32 else 0.
Definition b_jump : builder RI unit :=
  (set_beta (1 : num RI) (set_abstol (1 : num RI) (set_reltol (0 : num RI)
    (builder_default alg r_jump ([0] : list R) (0, 1000000) tt))))
  <| b_dt := (57600/71 : num RI) |>.

Lemma beta_rejected_step_grows : exists (s0 s1 : state),
  build alg b_jump = Ok s0 /\ trial_step s0 = i_dt s0 /\ i_dt s0 = 57600/71 /\
  dp5_attempt s0 = Ok (s1, false) /\ i_dt s1 = 72/5 * i_dt s0.
Proof.
  destruct (dp5_build_ok b_jump) as (s0 & Hb).
  apply dp5_build_inv in Hb as Hb'.
  destruct Hb' as (Ef&?&?&Ep&Eu&Et&Edt&?&?&?&Edir&Etf&Eo&?&?&?&?&?&?&Edu&?&Hsh).
  assert (i_dt s0 = 57600/71) as Ed by exact Edt.
  assert (i_t s0 = 0) as Et0 by exact Et.
  destruct (dp5_attempt_no_panic s0 Hsh) as (s1 & d & E); [rewrite Eo; cbn; lia|].
  exists s0, s1. split; [exact Hb|]. cbn [Cache DormandPrince5] in *.
  assert (overwrites (i_dudt s0)) as Ho by (cbn [Cache DormandPrince5] in *; rewrite Ef; intros ? ? ? ? ? ? _ _; reflexivity).
  assert (fsal inf s0) as Hfs by (unfold fsal; rewrite Edu, Ef, Ep, Et, Eu; reflexivity).
  split; [|split; [exact Ed|]].
  { unfold trial_step. rewrite Etf. destruct (Rlt_dec _ _) as [Hl|_]; [|reflexivity].
    rewrite Ed, Et0 in Hl. cbn in Hl. lra. }
  apply dp5_attempt_inv in E as E'. destruct E' as (s2 & Hs & Hc).
  assert (dp5_error s2 = 32) as Herr.
  { rewrite (attempt_rk inf s0 s2 Ho Hfs Hs); rewrite ?Eu, ?Eo; try (cbn; lia); try (cbn; lra).
    rewrite Ed, Et0, Ef, Ep.
    assert (forall t u, ode r_jump tt t u = map (fun _ => if Req_EM_T t 0 then 32 else 0) (seq 0 (length u))) as Ho'.
    { intros t u. unfold ode, call_rhs. rewrite zeros_length. reflexivity. }
    change (b_dudt b_jump) with r_jump. change (b_params b_jump) with tt. change (b_u b_jump) with [0].
    unfold wrms, vdiff, rk_step, dopri_rows. cbn [slopes app]. rewrite !Ho', !combine_stages_length.
    cbn [length seq map].
    destruct (Req_EM_T (0 + 0 * _) 0) as [_|Hn]; [|exfalso; apply Hn; lra].
    repeat match goal with |- context [Req_EM_T (0 + ?c * ?h) 0] =>
      destruct (Req_EM_T (0 + c * h) 0) as [Hx|_]; [exfalso; lra|] end.
    unfold combine_stages, rsum. cbn [length seq map fold_right comp nth dopri_b dopri_bhat wsum INR].
    change (o_abstol (b_opts b_jump)) with 1. change (o_reltol (b_opts b_jump)) with 0.
    match goal with |- sqrt ?e = 32 => replace e with (32 * 32) by field end.
    apply sqrt_square. lra. }
  destruct Hc as [(_ & Hle & _)|(-> & _ & Hrej)].
  { exfalso. rewrite Herr in Hle. cbn in Hle. apply Rleb_true in Hle. unfold rlit in Hle. lra. }
  split; [exact E|]. rewrite (rej_dt _ _ _ Hrej), Herr.
  apply compute_stages_inv in Hs as (_&Sp&_&Sdt&_).
  unfold dtnew_reject, dp5_fac11, dp5_expo1, dp5_fac1. rewrite Sdt, Ed.
  destruct Sp as (_&_&_&_&_&_&->). rewrite Eo. cbn. unfold rlit.
  rewrite (rpow_pos inf 1) by lra. rewrite rpow_pos by lra.
  assert (Rpower 1 (75/100) = 1) as -> by (unfold Rpower; rewrite ln_1, Rmult_0_r; apply exp_0).
  assert (Rpower 32 (2/10 - 1) = /16) as ->.
  { assert (32 = Rpower 2 5) as ->.
    { replace 5 with (INR 5) by (cbn; lra). rewrite Rpower_pow by lra. cbn. lra. }
    rewrite Rpower_mult. replace (5 * (2/10 - 1)) with (- INR 4) by (cbn; lra).
    rewrite Rpower_Ropp, Rpower_pow by lra. f_equal. cbn. lra. }
  rewrite (rdiv_ok inf (1 / 1)), (rdiv_ok inf (/ 16)) by lra. rewrite Rmin_right by lra. rewrite rdiv_ok by lra. field.
Qed.
End Ex.
