(** Runs for [PropGrow]. *)
From Coq Require Import Reals List Lia Lra ZArith Bool.
From Coquelicot Require Import Complex.
From Verif Require Import Arith Vec Core Driver DP5 DP5Inv Spec SpecRK SpecODE SpecLin SpecReach SpecMode SpecGrow SpecPI ArithR RKFacts DP5Facts DP5Num DP5Term DP5REx DP5RK DP5Ref DP5RForms DP5Dense
  DP5Mode DP5GrowB DP5Grow.
Import ListNotations.
Local Open Scope R_scope.

Section Ex.
Context (inf : R).
Hypothesis Hinf : 5 <= inf.
Notation RI := (RA inf).
Notation alg := (@DormandPrince5 RI unit).
Definition decay_rhs (lam : R) : rhs RI unit := fun _ u _ _ _ => - lam * comp u 0.
(** [u' = - 10^7 u], [u(0) = 1] on [0, 1] with the absolute tolerance 10^6. *)
Definition r_decay : builder RI unit :=
  set_abstol (A := RI) 1000000 (builder_default alg (decay_rhs 10000000) ([1] : list R) (0, 1) tt).
Definition decay_J (i j : nat) : R := - 10000000.
Definition one_p (i : nat) : R := 1.
Definition zero_q (i : nat) : R := 0.
Lemma decay_overwrites lam : overwrites (decay_rhs lam).
Proof. intros d d' u t p i _ _. reflexivity. Qed.
Lemma decay_ode t x : ode (decay_rhs 10000000) tt t [x] = [- 10000000 * x].
Proof. reflexivity. Qed.
Lemma decay_linear : linear_system 1 (ode (b_dudt r_decay) (b_params r_decay)) decay_J [0].
Proof.
  intros t u i Hu Hi. destruct u as [|x [|y u]]; try discriminate. destruct i as [|i]; [|lia].
  change (ode (b_dudt r_decay) (b_params r_decay) t [x]) with [- 10000000 * x]. unfold rsum, decay_J, comp. cbn [map seq fold_right nth]. ring.
Qed.
Lemma decay_eigen : left_eigenvector 1 decay_J one_p zero_q (-10000000) 0.
Proof. intros j Hj. unfold rsum, decay_J, one_p, zero_q. cbn [map seq fold_right]. split; ring. Qed.
Lemma decay_mode x : mode 1 one_p zero_q [0] [x] = Rabs x.
Proof.
  unfold mode, rsum, one_p, zero_q, comp. cbn [map seq fold_right nth]. rewrite <- sqrt_Rsqr_abs. f_equal. unfold Rsqr. ring.
Qed.
Lemma decay_sane : sane_opts (b_opts r_decay).
Proof. constructor; cbn; unfold rlit; lra. Qed.
Notation F := (ode (decay_rhs 10000000) tt).
Lemma decay_step b : rk_step dopri_rows b F 0 [1] (1/1000000) =
  [1 + 1/1000000 * wsum b (map (fun k => comp k 0) (slopes F 0 [1] (1/1000000) dopri_rows []))].
Proof. reflexivity. Qed.
Lemma decay_slopes : map (fun k => comp k 0) (slopes F 0 [1] (1/1000000) dopri_rows []) =
  [-10000000; 10000000; -25000000; 1350000000; 5705510000000/729; 233490000000/11; -33730000000/3].
Proof.
  unfold dopri_rows. cbn [slopes app]. unfold combine_stages. cbn [length seq map]. rewrite !decay_ode.
  unfold comp. cbn [nth map wsum].
  repeat (apply (f_equal2 (@cons R)); [lra|]). reflexivity.
Qed.
Lemma decay_point : try_point F 0 [1] (1/1000000) = [3373/3].
Proof. unfold try_point. rewrite decay_step, decay_slopes. unfold dopri_b. cbn [wsum]. apply (f_equal2 (@cons R)); [lra|reflexivity]. Qed.
Lemma decay_error : try_error F (b_opts r_decay) 0 [1] (1/1000000) <= 1.
Proof.
  unfold try_error. rewrite decay_point, decay_step, decay_slopes. unfold dopri_bhat. cbn [wsum].
  replace (o_abstol (b_opts r_decay)) with 1000000 by reflexivity.
  replace (o_reltol (b_opts r_decay)) with (1/1000) by (cbn; unfold rlit; lra).
  unfold wrms, vdiff, rsum, comp. cbn [length seq map fold_right nth INR]. rewrite Rplus_0_r. match goal with |- sqrt (?x / 1) <= 1 => replace (x / 1) with x by (generalize x; intros w; field) end.
  apply Rle_trans with (sqrt 1); [apply sqrt_le_1_alt|rewrite sqrt_1; apply Rle_refl].
  match goal with |- (?n / ?d) ^ 2 <= 1 => assert (0 <= n / d <= 1) as B end.
  { rewrite (Rabs_right (3373/3)), (Rabs_right 1), Rmax_right by lra. split; [|lra]. apply Rmult_le_pos; [lra|]. left. apply Rinv_0_lt_compat. lra. }
  match goal with |- ?x ^ 2 <= 1 => set (w := x) in * end. clearbody w. nra.
Qed.
Lemma decay_run : exists fuel s0 s, build alg r_decay = Ok s0 /\ reached alg None fuel 1 s0 s /\ points s = [(0, [1]); (1/1000000, [3373/3])].
Proof.
  destruct (build alg r_decay) as [s0| |] eqn:Hb; [|discriminate Hb|discriminate Hb].
  assert (near_end 1 (pilot_start 0 [1] (1/1000000)) = false) as Ne.
  { unfold near_end, pilot_start, Rltb. cbn [p_t p_h]. destruct (Rlt_dec 1 (0 + 101/100 * (1/1000000))); [lra|reflexivity]. }
  destruct (dp5_reference_complete inf r_decay decay_sane (decay_overwrites 10000000)) with (k := 1%nat) (s0 := s0)
    (x := {| p_t := 0 + 1/1000000; p_u := try_point F 0 [1] (1/1000000);
             p_h := next_size (b_opts r_decay) 0 (try_error F (b_opts r_decay) 0 [1] (1/1000000)) (1/1000000) (negb (0 =? 0)%nat);
             p_mem := Rmax (try_error F (b_opts r_decay) 0 [1] (1/1000000)) (1/10000);
             p_accepted := 1; p_rejected := 0;
             p_code := if (o_max_steps (b_opts r_decay) <? 1)%nat then RMaxIters else RContinue |}) as (fuel & s & Hre & S1 & S2 & _).
  - discriminate.
  - change (0 < 1000000). lra.
  - cbn. unfold rlit. lra.
  - cbn. unfold rlit. lra.
  - change (Z.to_nat 1000 <> 0%nat). lia.
  - cbn. unfold rlit. lra.
  - cbn. lra.
  - exact Hb.
  - eapply pi_run_S; [apply pi_run_0|reflexivity|]. exists 0%nat, false, (1/1000000).
    replace (b_dt r_decay) with (1/1000000) by (cbn; unfold rlit; lra).
    change (b_t r_decay) with 0. change (b_u r_decay) with [1]. change (b_tfinal r_decay) with 1. rewrite Ne.
    cbn [p_t p_u p_h p_mem p_accepted p_rejected pilot_start].
    split; [apply tries_accept; exact decay_error|]. reflexivity.
  - exists fuel, s0, s. split; [reflexivity|]. split; [exact Hre|]. cbn [p_t p_u] in S1, S2. rewrite decay_point in S2.
    pose proof (dp5_recorded_wf r_decay None fuel 1 s0 s no_callback_benign Hb (reached_steps_n alg None fuel 1 s0 s Hre)) as (W1 & W2 & W3 & W4 & _).
    pose proof (rk_inv_reached inf r_decay fuel 1 s0 s (decay_overwrites 10000000) Hb Hre) as [_ _ _ _ _ _ (l & Hsn) _ _].
    assert (exists T U, ts (i_sol s) = T /\ us (i_sol s) = U) as (T & U & ET & EU) by eauto.
    assert (length T = length U) as V1 by (rewrite <- ET, <- EU; exact W1).
    assert (length T = 2%nat) as V2 by (rewrite <- ET; exact W2).
    assert (hd_error T = Some 0) as V3 by (rewrite <- ET; exact W3).
    assert (hd_error U = Some [1]) as V4 by (rewrite <- EU; exact W4).
    assert (points s = combine T U) as EP by (rewrite <- ET, <- EU; reflexivity).
    assert (combine T U = l ++ [(i_t s, i_u s)]) as Vs by (rewrite <- EP; exact Hsn).
    rewrite EP. clear EP W1 W2 W3 W4 Hsn ET EU.
    destruct T as [|x1 [|x2 [|x3 xs]]]; try discriminate V2.
    destruct U as [|u1 [|u2 [|u3 us']]]; try discriminate V1.
    cbn in V3, V4. injection V3 as ->. injection V4 as ->. cbn [combine] in *.
    destruct l as [|y1 [|y2 [|y3 l]]]; try discriminate Vs. cbn in Vs. injection Vs as _ E1 E2.
    assert (x2 = 1/1000000) as -> by (rewrite E1; refine (eq_trans S1 _); change (0 + 1/1000000 = 1/1000000 :> R); ring).
    assert (u2 = [3373/3]) as -> by (rewrite E2; exact S2). reflexivity.
Qed.
Lemma decay_grows : exists (b : builder RI unit) J e p q a,
  let n := length (b_u b) in
  overwrites (b_dudt b) /\ sane_opts (b_opts b) /\ 0 < b_dt b /\ b_t b < b_tfinal b /\
  linear_system n (ode (b_dudt b) (b_params b)) J e /\ left_eigenvector n J p q a 0 /\ a < 0 /\
  exists fuel s0 s t u, build alg b = Ok s0 /\ reached alg None fuel 1 s0 s /\ In (t, u) (points s) /\
    1000 * mode n p q e (b_u b) < mode n p q e u.
Proof.
  exists r_decay, decay_J, [0], one_p, zero_q, (-10000000). intros n.
  split; [exact (decay_overwrites 10000000)|]. split; [exact decay_sane|]. split; [cbn; unfold rlit; lra|]. split; [cbn; lra|].
  split; [exact decay_linear|]. split; [exact decay_eigen|]. split; [lra|].
  destruct decay_run as (fuel & s0 & s & Hb & Hre & Hp). exists fuel, s0, s, (1/1000000), [3373/3].
  split; [exact Hb|]. split; [exact Hre|]. split; [rewrite Hp; right; now left|].
  change n with 1%nat. change (b_u r_decay) with [1]. rewrite !decay_mode, !Rabs_right by lra. lra.
Qed.

(** The harmonic oscillator with steps of at most 1/2. *)
Definition r_swing : builder RI unit := set_dtmax (A := RI) (1/2) (r_dp5 inf 1 0 1).
Definition swing_J (i j : nat) : R := match i, j with O, S O => 1 | S O, O => -1 | _, _ => 0 end.
Definition swing_p (i : nat) : R := match i with O => 1 | _ => 0 end.
Definition swing_q (i : nat) : R := match i with S O => 1 | _ => 0 end.
Lemma swing_ex :
  let b := r_swing in let n := length (b_u b) in
  let H := 101/100 * Rmax (b_dt b) (o_dtmax (b_opts b)) in
  overwrites (b_dudt b) /\ sane_opts (b_opts b) /\ 0 < b_dt b /\ b_t b < b_tfinal b /\
  linear_system n (ode (b_dudt b) (b_params b)) swing_J [0; 0] /\ left_eigenvector n swing_J swing_p swing_q 0 (-1) /\
  H * Rabs 0 <= 1 /\ H * Rabs (-1) <= 9/10 /\ mode n swing_p swing_q [0; 0] (b_u b) = 1 /\
  exists fuel k s0 s, build alg b = Ok s0 /\ reached alg None fuel (S k) s0 s.
Proof.
  intros b n H.
  assert (overwrites (b_dudt b)) as Ho by apply r_osc_overwrites.
  assert (sane_opts (b_opts b)) as Hso by (constructor; cbn; unfold rlit; lra).
  assert (0 < b_dt b) as Hdt by (cbn; unfold rlit; lra). assert (b_t b < b_tfinal b) as Ht by (cbn; lra).
  assert (H = 101/200) as EH.
  { unfold H. change (o_dtmax (b_opts b)) with (1/2). change (b_dt b) with (1/1000000). rewrite Rmax_right by lra. lra. }
  split; [exact Ho|]. split; [exact Hso|]. split; [exact Hdt|]. split; [exact Ht|]. split.
  { intros t u i Hu Hi. change n with 2%nat in *. change (b_dudt b) with (r_osc inf). rewrite ode_comp by (rewrite Hu; exact Hi). unfold rsum, r_osc.
    destruct i as [|[|i]]; [| |lia]; cbn; ring. }
  split. { intros j Hj. change n with 2%nat in *. unfold rsum. destruct j as [|[|j]]; [| |lia]; cbn; split; ring. }
  rewrite EH, Rabs_R0, Rabs_left by lra. split; [lra|]. split; [lra|]. split.
  { change n with 2%nat. unfold mode, rsum. cbn. match goal with |- sqrt ?x = 1 => replace x with 1 by ring end. exact sqrt_1. }
  destruct (dp5_build_ok b) as (s0 & Hb).
  destruct (dp5_integrate_ends inf b s0) as (fuel & s & Hi); try assumption.
  - cbn. unfold rlit. lra.
  - cbn. unfold rlit. lra.
  - change (Z.to_nat 1000 <> 0%nat). lia.
  - discriminate.
  - intros t u _ Hu. exists (Rabs (comp u 0) + Rabs (comp u 1) + 1), 1.
    pose proof (Rabs_pos (comp u 0)). pose proof (Rabs_pos (comp u 1)).
    split; [lra|]. split; [lra|]. apply (osc_near inf); [lra|exact Hu].
  - apply (integrate_split alg None) in Hi as (k & s1 & _ & Hc & Hs).
    exists fuel, k, s0, s. split; [exact Hb|]. econstructor; eassumption.
Qed.
End Ex.
