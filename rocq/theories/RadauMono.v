(** Forward Radau5 runs in binary64: the recorded times never decrease, and
    where the last one is. *)
From Coq Require Import ZArith List Bool Lia Reals Lra Sorted.
From RecordUpdate Require Import RecordSet.
From Flocq Require Import Core BinarySingleNaN.
From Verif Require Import Arith Vec Core Spec Jacobian Linalg Driver VecFacts DP5Facts DP5Inv LinFacts LinFactsC
  Radau RadauFacts RadauStep RadauInv RadauHist RadauKeep ArithF FFacts FMono FOrder FReduce FStrict SpecF64 SpecF64R DP5Mono.
Import ListNotations RecordSetNotations.
Local Open Scope R_scope.
Local Existing Instance prec_gt_0_53.
Local Existing Instance prec_lt_emax_53.

Section RMono.
Context (fpowf : f64 -> f64 -> f64) (fpowi : f64 -> Z -> f64) {P : Type}.
Notation A := (F64 fpowf fpowi).
Notation state := (integ A P (radau_cache A)).
Notation alg := (@Radau5 A P).

(** ** Factors *)
Lemma f_half : is_finite (f_lit 1 2) = true /\ 0 <= B2R (f_lit 1 2) <= 9/10.
Proof.
  assert (B2SF (f_lit 1 2) = SpecFloat.S754_finite false 4503599627370496 (-53)) as E by (vm_compute; reflexivity).
  destruct (lit_R _ _ _ _ _ E) as (H1 & H2). split; [assumption|]. rewrite H2. unfold F2R. cbn. lra.
Qed.
Lemma f_tenth : is_finite (f_lit 1 10) = true /\ 0 <= B2R (f_lit 1 10) <= 9/10.
Proof.
  assert (B2SF (f_lit 1 10) = SpecFloat.S754_finite false 7205759403792794 (-56)) as E by (vm_compute; reflexivity).
  destruct (lit_R _ _ _ _ _ E) as (H1 & H2). split; [assumption|]. rewrite H2. unfold F2R. cbn. lra.
Qed.
Lemma f_eight_tenths : is_finite (f_lit 8 10) = true /\ 0 < B2R (f_lit 8 10) <= 9/10.
Proof.
  assert (B2SF (f_lit 8 10) = SpecFloat.S754_finite false 7205759403792794 (-53)) as E by (vm_compute; reflexivity).
  destruct (lit_R _ _ _ _ _ E) as (H1 & H2). split; [assumption|]. rewrite H2. unfold F2R. cbn. lra.
Qed.
Lemma f_20 : is_finite (f_lit 20 1) = true /\ B2R (f_lit 20 1) = 20.
Proof.
  assert (B2SF (f_lit 20 1) = SpecFloat.S754_finite false 5629499534213120 (-48)) as E by (vm_compute; reflexivity).
  destruct (lit_R _ _ _ _ _ E) as (H1 & H2). split; [assumption|]. rewrite H2. unfold F2R. cbn. lra.
Qed.
Lemma f_10000th : is_finite (f_lit 1 10000) = true /\ 0 < B2R (f_lit 1 10000) < 1.
Proof.
  assert (B2SF (f_lit 1 10000) = SpecFloat.S754_finite false 7378697629483821 (-66)) as E by (vm_compute; reflexivity).
  destruct (lit_R _ _ _ _ _ E) as (H1 & H2). split; [assumption|]. rewrite H2. unfold F2R. cbn. lra.
Qed.
Lemma f_10001 : is_finite (f_lit 10001 10000) = true /\ 1 <= B2R (f_lit 10001 10000).
Proof.
  assert (B2SF (f_lit 10001 10000) = SpecFloat.S754_finite false 4504049987333233 (-52)) as E by (vm_compute; reflexivity).
  destruct (lit_R _ _ _ _ _ E) as (H1 & H2). split; [assumption|]. rewrite H2. unfold F2R. cbn. lra.
Qed.

(** The argument of the power in the Newton reduction factor. *)
Lemma newton_arg (q : f64) : fleb (f_lit 1 1) q = true ->
  let x := fmax (f_lit 1 10000) (fmin (f_lit 20 1) q) in
  fleb (f_lit 1 1) x = true /\ fleb x (f_lit 20 1) = true.
Proof.
  intros Hq x. destruct f_1 as (F1 & E1). destruct f_20 as (F20 & E20). destruct f_10000th as (Fs & Es).
  assert (fge 1 (fmin (f_lit 20 1) q) /\ is_finite (fmin (f_lit 20 1) q) = true /\ B2R (fmin (f_lit 20 1) q) <= 20)
    as (H1 & H2 & H3).
  { apply fleb_fge in Hq; [|assumption]. rewrite E1 in Hq.
    assert (fge 1 (f_lit 20 1)) as H20 by (right; split; [assumption|lra]).
    split; [apply fmin_ge; auto|]. unfold fmin.
    rewrite (finite_not_nan _ F20), (fge_not_nan _ _ Hq). destruct (fltb q (f_lit 20 1)) eqn:E.
    - destruct Hq as [->|(Fq & Pq)]; [exfalso; vm_compute in E; discriminate|].
      apply fltb_R in E; [|assumption..]. split; [assumption|lra].
    - split; [assumption|lra]. }
  set (y := fmin (f_lit 20 1) q) in *. clearbody y. destruct H1 as [->|(_ & H1)]; [discriminate|].
  assert (x = y) as ->.
  { unfold x, fmax. rewrite (finite_not_nan _ Fs), (finite_not_nan _ H2).
    replace (fltb (f_lit 1 10000) y) with true; [reflexivity|]. symmetry. apply fltb_R; try assumption. lra. }
  split; apply fleb_R; try assumption; lra.
Qed.

Lemma newton_factor_f (o : opts A) (fac : f64) : radau_f64_sane o -> newton_factor (A := A) fac ->
  is_finite fac = true /\ 0 <= B2R fac <= 9/10.
Proof.
  intros (_&_&_&_&_&_&_&Hp) [->|(dyth & k & H1 & -> & Hk)]; [exact f_half|].
  destruct (newton_arg dyth H1) as (X1 & X2).
  destruct (Hp _ k X1 X2 Hk) as (P1 & P2). cbv zeta in P1, P2.
  match goal with |- is_finite (mul A ?l (powf A ?a ?e)) = _ /\ _ =>
    change (is_finite (fmul (f_lit 8 10) (fpowf a e)) = true /\ 0 <= B2R (fmul (f_lit 8 10) (fpowf a e)) <= 9/10);
    change (fpowf a e) with (fpowf (fmax (f_lit 1 10000) (fmin (f_lit 20 1) dyth)) (fdiv (f_lit (-1) 1) (f_lit (Z.of_nat k) 1)))
  end.
  set (q := fpowf _ _) in *. clearbody q.
  destruct f_1 as (F1 & E1). destruct f_eight_tenths as (F8 & E8).
  apply fge_0 in P1. destruct P1 as [->|(Fq & Pq)]; [exfalso; vm_compute in P2; discriminate|].
  apply fleb_R in P2; [|assumption..]. rewrite E1 in P2.
  pose proof (Bmult_correct 53 1024 _ _ mode_NE (f_lit 8 10) q) as M.
  change (round_mode mode_NE) with (Znearest (fun x => negb (Z.even x))) in M.
  fold (fmul (f_lit 8 10) q) in M.
  assert (0 <= B2R (f_lit 8 10) * B2R q <= B2R (f_lit 8 10)) as Hm by nra.
  assert (0 <= rnd64 (B2R (f_lit 8 10) * B2R q)) as P1 by (apply rnd_ge_0; lra).
  assert (rnd64 (B2R (f_lit 8 10) * B2R q) <= B2R (f_lit 8 10)) as P3 by (apply rnd_le_f; lra).
  rewrite Rlt_bool_true in M.
  - destruct M as (M1 & M2 & _). rewrite M1, M2, F8, Fq. split; [reflexivity|]. lra.
  - rewrite Rabs_pos_eq by assumption. pose proof (f_lt_emax (f_lit 8 10)). lra.
Qed.

(** The quotient of a rejected step, and of any step. *)
Lemma quot_reject_f (s : state) : radau_f64_sane (i_opts s) -> Bsign (cfac (i_cache s) : f64) = false ->
  fltb (err (i_cache s)) (f_lit 1 1) = false -> fge (1004/1000) (radau_quot s).
Proof.
  intros (S1 & S2 & L1 & R1 & R2 & _ & Hp & _) Sc He.
  destruct lit_99_100 as (F99 & P99). destruct lit_1005_1000 as (F5 & P5). destruct f_1 as (F1 & E1).
  destruct (fltb_finite_pos _ _ S1 S2 F99) as (Fs & Ps).
  unfold radau_quot. cbv zeta.
  match goal with |- fge _ (nmax A ?a ?x) => assert (fge (1004/1000) x) as Hx; [|set (X := x) in *; clearbody X] end.
  - change (fge (1004/1000) (fmin (o_facl (i_opts s))
      (fdiv (fpowf (err (i_cache s)) (f_lit 1 4)) (fmin (o_safe (i_opts s))
        (fdiv (cfac (i_cache s)) (f_lit (Z.of_nat (newt (i_cache s) + 2 * o_max_newt_iter (i_opts s))) 1)))))).
    apply fmin_ge.
    + apply fge_weaken with (B2R (f_lit 1005 1000)); [|lra]. apply fleb_fge; assumption.
    + destruct (Hp _ He) as [E|E].
      * left. rewrite E. apply fdiv_nan.
      * right. apply fge_weaken with (B2R (f_lit 1005 1000)); [|lra].
        apply fdiv_safety; try assumption; try lra.
        -- apply sign_div; [exact Sc|apply sign_nat].
        -- rewrite <- E1. apply fleb_fge; assumption.
  - change (fge (1004/1000) (fmax (o_facr (i_opts s)) X)). unfold fmax.
    pose proof (fltb_fpos _ R1) as Rp. apply fpos_ge in Rp.
    rewrite (fge_not_nan _ _ Rp), (fge_not_nan _ _ Hx).
    destruct (fltb (o_facr (i_opts s)) X) eqn:El; [assumption|].
    destruct Rp as [E|(Fr & Pr)]; [rewrite E in R2; discriminate|].
    destruct Hx as [->|(Fx & Px)].
    + exfalso. revert El R2. generalize (o_facr (i_opts s) : f64). intros y. destruct y as [?|[]| |[] ? ? ?]; cbn; discriminate.
    + right. split; [assumption|]. destruct (Rle_or_lt (B2R X) (B2R (o_facr (i_opts s) : f64))) as [H|H]; [lra|].
      exfalso. apply fltb_R in H; try assumption. congruence.
Qed.
Lemma quot_pos (s : state) : radau_f64_sane (i_opts s) -> fpos (radau_quot s).
Proof. intros (_ & _ & _ & R1 & _). unfold radau_quot. cbv zeta. apply fmax_pos. now apply fltb_fpos. Qed.

(** ** Trial steps *)
Record ftrial (s s1 : state) : Prop := mkFT {
  ft_quiet : quiet s s1;
  ft_cfac : cfac (i_cache s1) = cfac (i_cache s);
  ft_rc : rc (i_sol s1) = rc (i_sol s);
  ft_dt : (i_dt s1 = i_dt s /\ last (i_cache s1) = last (i_cache s) /\ reject (i_cache s1) = reject (i_cache s)) \/
          (reduced (i_dt s) (i_dt s1) /\ last (i_cache s1) = false /\ reject (i_cache s1) = true) }.
Lemma quiet_refl_f (s : state) : quiet s s.
Proof. constructor; try reflexivity; try (repeat split; reflexivity); try lia. Qed.
Lemma ftrial_fnn (s s1 : state) : fnn (i_dt s) -> ftrial s s1 -> fnn (i_dt s1).
Proof. intros H [_ _ _ [(-> & _)|((R & _) & _)]]; assumption. Qed.
Lemma ftrial_trans (a b c : state) : fnn (i_dt a) -> ftrial a b -> ftrial b c -> ftrial a c.
Proof.
  intros Ha [Q1 C1 R1 D1] [Q2 C2 R2 D2]. constructor; [eapply quiet_trans; eassumption|congruence|congruence|].
  destruct D1 as [(E1 & E2 & E3)|(E1 & E2 & E3)], D2 as [(F1 & F2 & F3)|(F1 & F2 & F3)].
  - left. repeat split; congruence.
  - right. rewrite E1 in F1. auto.
  - right. rewrite F1. split; [assumption|]. split; congruence.
  - right. split; [|auto]. eapply reduced_trans; eassumption.
Qed.
Lemma ftrial_same (s s1 : state) : quiet s s1 -> cfac (i_cache s1) = cfac (i_cache s) -> rc (i_sol s1) = rc (i_sol s) ->
  i_dt s1 = i_dt s -> last (i_cache s1) = last (i_cache s) -> reject (i_cache s1) = reject (i_cache s) -> ftrial s s1.
Proof. intros. constructor; auto. Qed.

Lemma halve_f k : forall d : f64, fnn d -> k <> O -> reduced d (halve (A := A) k d).
Proof.
  destruct f_half as (F & E).
  assert (forall k (d d' : f64), fnn d -> reduced d d' -> reduced d (halve (A := A) k d')) as H.
  { clear k. induction k as [|k IH]; intros d d' Hd Hr; [assumption|]. cbn [halve]. apply IH; [assumption|].
    eapply reduced_trans; [assumption|exact Hr|]. apply reduced_mul; [apply Hr|assumption..]. }
  intros d Hd Hk. destruct k as [|k]; [congruence|]. cbn [halve]. apply H; [assumption|]. now apply reduced_mul.
Qed.
Lemma decomp_ftrial fuel (s s1 : state) : fnn (i_dt s) -> decomp_loop fuel s = Ok (inl s1) -> ftrial s s1.
Proof.
  intros Hd H. pose proof (decomp_loop_steady _ _ _ H) as (Hc & _ & _).
  apply decomp_loop_inv in H. cbv zeta in H.
  destruct H as (Hq & _ & _ & _ & _ & _ & _ & Hrc & k & _ & Hk & Hk0 & Hk1).
  constructor; try assumption. destruct k as [|k].
  - left. destruct (Hk0 eq_refl) as (_ & E1 & E2). auto.
  - right. destruct Hk1 as (_ & E1 & E2 & _); [discriminate|]. rewrite Hk. split; [|auto].
    apply halve_f; [assumption|discriminate].
Qed.
Lemma newton_fail_ftrial fuel (s s' : state) : radau_f64_sane (i_opts s) -> fnn (i_dt s) ->
  newton fuel s = Ok (s', false) -> ftrial s s'.
Proof.
  intros So Hd H. pose proof (newton_cfac _ _ _ _ H) as Hc.
  apply newton_inv in H as (_ & _ & _ & H3).
  destruct (H3 eq_refl) as (Hf & Hr & Hl & fac & Hn & Hdt & _).
  destruct (newton_factor_f _ _ So Hn) as (Ff & Pf).
  constructor; [apply Hf|assumption|apply Hf|]. right. rewrite Hdt. split; [|auto]. now apply reduced_mul.
Qed.
Lemma newton_ok_ftrial fuel (s s' : state) : newton fuel s = Ok (s', true) -> ftrial s s'.
Proof.
  intros H. pose proof (newton_cfac _ _ _ _ H) as Hc.
  apply newton_inv in H as (_ & _ & H3 & _). specialize (H3 eq_refl).
  apply ftrial_same; [apply H3|assumption|apply H3|apply H3|apply H3|apply H3].
Qed.
Lemma estimate_ftrial (s s' : state) : error_estimate s = Ok s' -> ftrial s s'.
Proof.
  intros H. pose proof (estimate_cfac _ _ H) as Hc. apply error_estimate_inv in H. destruct H.
  apply ftrial_same; try assumption; rewrite ef_cache; reflexivity.
Qed.
Lemma force_ftrial (s : state) : ftrial s (force_decompose s).
Proof. apply ftrial_same; try reflexivity. apply force_quiet. Qed.
Lemma count_ftrial (s : state) : ftrial s (count_step s).
Proof. apply ftrial_same; try reflexivity. apply count_step_quiet. Qed.
Lemma reject_ftrial (s s' : state) : radau_f64_sane (i_opts s) -> Bsign (cfac (i_cache s) : f64) = false ->
  fnn (i_dt s) -> fltb (err (i_cache s)) (f_lit 1 1) = false ->
  radau_reject (div A (i_dt s) (radau_quot s)) s = Ok s' -> ftrial s s'.
Proof.
  intros So Sc Hd He H. pose proof (reject_cfac _ _ _ H) as Hc'.
  pose proof (quot_reject_f s So Sc He) as Hq.
  apply radau_reject_inv in H as (Hqt & _ & _ & _ & Hrc & Hr & Hl & _ & Hdo & _ & _ & _ & Hf1 & Hf0 & Htr).
  constructor; try assumption. right. split; [|auto]. destruct (first (i_cache s)).
  - rewrite (Hf1 eq_refl). apply reduced_mul; [assumption|apply f_tenth..].
  - rewrite (Hf0 eq_refl). now apply reduced_div.
Qed.
Lemma quiet_opts_f (s s' : state) : quiet s s' -> i_opts s' = i_opts s.
Proof. intros H. apply (q_prob _ _ H). Qed.

Lemma same_dt fuel (s s1 s2 : state) : newton fuel s = Ok (s1, true) -> error_estimate s1 = Ok s2 ->
  i_dt s2 = i_dt s /\ i_t s2 = i_t s.
Proof.
  intros H1 H2. apply newton_inv in H1 as (_ & _ & H1 & _). specialize (H1 eq_refl).
  pose proof (estimate_ftrial _ _ H2) as Ht. apply error_estimate_inv in H2.
  assert (quiet s s1) as Q by apply H1. pose proof (ft_quiet _ _ Ht) as Q2.
  split.
  - transitivity (i_dt s1); [apply H2|apply H1].
  - destruct (q_point _ _ Q) as (_ & E1 & _). destruct (q_point _ _ Q2) as (_ & E2 & _). congruence.
Qed.
Definition ends (s s' : state) : Prop :=
  rc (i_sol s) = RContinue -> rc (i_sol s') <> RContinue /\ rc (i_sol s') <> RSuccess.
Definition fresult (s : state) (r : state + state) : Prop :=
  match r with
  | inl s' => ftrial s s' \/ (exists s1, ftrial s s1 /\ tiny_dt s1 = false /\ accepted s1 s' /\ reject (i_cache s') = true)
  | inr s' => quiet s s' /\ ends s s' \/ (exists s1, ftrial s s1 /\ tiny_dt s1 = false /\ accepted s1 s')
  end.
Lemma radau_attempt_f fi (s : state) r : radau_f64_sane (i_opts s) -> Bsign (cfac (i_cache s) : f64) = false ->
  fnn (i_dt s) -> radau_attempt fi s = Ok r -> fresult s r.
Proof.
  intros So Sc Hd H. apply radau_attempt_cases in H as (r1 & H1 & H).
  destruct r1 as [s1|s1].
  2: { subst r. left. destruct (decompose (i_cache s)); [|discriminate].
       apply decomp_loop_inv in H1. cbv zeta in H1. destruct H1 as (Hq & _ & _ & _ & _ & _ & _ & _ & Hrc).
       split; [assumption|]. intros Hc. destruct Hrc as [(E & _)|(E & E2 & _)]; [|congruence]. rewrite E. split; discriminate. }
  assert (ftrial s s1) as Ht1.
  { destruct (decompose (i_cache s)); [eapply decomp_ftrial; eassumption|].
    inversion H1; subst s1. apply ftrial_same; try reflexivity. apply quiet_refl_f. }
  clear H1. cbv zeta in H.
  pose proof (ftrial_trans _ _ _ Hd Ht1 (count_ftrial s1)) as Ht. clear Ht1.
  revert H Ht. generalize (count_step s1) as s2. clear s1. intros s2 H Ht.
  pose proof (ftrial_fnn _ _ Hd Ht) as Hd2.
  assert (radau_f64_sane (i_opts s2)) as So2 by (rewrite (quiet_opts_f _ _ (ft_quiet _ _ Ht)); exact So).
  assert (forall r0, quiet s (exit_with r0 s2)) as Hex.
  { intros r0. eapply quiet_trans; [apply Ht|apply exit_quiet]. }
  destruct H as [(_ & ->)|[(_ & _ & ->)|[(_ & _ & s3 & H & ->)|(_ & Hti & s3 & s4 & s5 & H2 & H3 & H4 & ->)]]].
  - left. split; [apply Hex|intros _; split; discriminate].
  - left. split; [apply Hex|intros _; split; discriminate].
  - left. eapply ftrial_trans; [assumption|exact Ht|]. eapply newton_fail_ftrial; eassumption.
  - assert (tiny_dt (force_decompose s4) = false) as Htiny.
    { rewrite <- Hti. unfold tiny_dt. pose proof (same_dt _ _ _ _ H2 H3) as (E1 & E2).
      change (i_dt (force_decompose s4)) with (i_dt s4). change (i_t (force_decompose s4)) with (i_t s4).
      now rewrite E1, E2. }
    apply newton_ok_ftrial in H2. apply estimate_ftrial in H3.
    pose proof (ftrial_trans _ _ _ Hd (ftrial_trans _ _ _ Hd (ftrial_trans _ _ _ Hd Ht H2) H3) (force_ftrial s4)) as Ht4.
    rewrite step_size_control_eq in H4.
    change (err (i_cache s4)) with (err (i_cache (force_decompose s4))) in H4.
    revert H4 Ht4 Htiny. generalize (force_decompose s4) as s6. clear Ht Hex H2 H3 Hd2 So2 Hti. clear s2 s3 s4.
    intros s4 H4 Ht Htiny.
    destruct (ltb A (err (i_cache s4)) n1) eqn:Ee.
    + assert (accepted s4 s5) as Ha by (apply radau_accept_inv; exact H4).
      destruct (reject (i_cache s5)) eqn:Er; right; exists s4; auto.
    + pose proof (quiet_opts_f _ _ (ft_quiet _ _ Ht)) as Eo.
      assert (reject (i_cache s5) = true) as Er by (apply radau_reject_inv in H4; apply H4).
      rewrite Er. left. eapply ftrial_trans; [assumption|exact Ht|].
      eapply reject_ftrial; [..|exact H4].
      * now rewrite Eo.
      * rewrite (ft_cfac _ _ Ht). assumption.
      * eapply ftrial_fnn; eassumption.
      * exact Ee.
Qed.

(** ** The loop *)
Definition ftidy (s : state) : Prop := last (i_cache s) = true -> reject (i_cache s) = false.
Lemma radau_loop_f fi : forall fuel (s s' : state), radau_f64_sane (i_opts s) ->
  Bsign (cfac (i_cache s) : f64) = false -> fnn (i_dt s) -> ftidy s ->
  radau_loop fi fuel s = Ok s' ->
  quiet s s' /\ ends s s' \/ exists s1, ftrial s s1 /\ tiny_dt s1 = false /\ accepted s1 s'.
Proof.
  induction fuel as [|fuel IH]; intros s s' So Sc Hd Ht H; [discriminate|]. cbn [radau_loop] in H.
  apply bind_ok in H as (r & H1 & H). apply radau_attempt_f in H1; [|assumption..].
  assert (forall s1, ftrial s s1 -> ftidy s1) as Hti.
  { intros s1 [_ _ _ [(_ & E1 & E2)|(_ & E1 & _)]]; unfold ftidy in *; rewrite E1; [|discriminate].
    rewrite E2. exact Ht. }
  destruct r as [s1|s1]; cbn [fresult] in H1.
  - destruct H1 as [H1|(s2 & H1 & _ & Ha & Hr)].
    + destruct (IH s1 s') as [(Hq & Hrc)|(s2 & H2 & Htn & Ha)]; try assumption.
      * now rewrite (quiet_opts_f _ _ (ft_quiet _ _ H1)).
      * now rewrite (ft_cfac _ _ H1).
      * eapply ftrial_fnn; eassumption.
      * now apply Hti.
      * left. split; [eapply quiet_trans; [apply H1|exact Hq]|]. intros Hc. apply Hrc. rewrite (ft_rc _ _ H1). exact Hc.
      * right. exists s2. split; [eapply ftrial_trans; eassumption|auto].
    + exfalso. specialize (Hti _ H1). destruct (last (i_cache s2)) eqn:El.
      * destruct (ac_last _ _ Ha El) as (E & _). rewrite E, (Hti El) in Hr. discriminate.
      * destruct (ac_next _ _ Ha El) as (E & _). congruence.
  - inversion H; subst s'. exact H1.
Qed.

(** ** The next step size *)
Lemma fdir_ge (s : state) (x : f64) : i_tdir s = f_of_Z 1 -> fge 0 x -> fge 0 (mul A (i_tdir s) x).
Proof. intros -> H. apply (fmul_one_l x H). Qed.
Lemma proposed_ge (s : state) : radau_f64_sane (i_opts s) -> fnn (i_dt s) -> fge 0 (proposed_dt s).
Proof.
  intros So (Fd & Pd). unfold proposed_dt. cbv zeta. destruct (_ && _).
  - apply fdiv_ge0; try assumption. apply fmax_pos. now apply quot_pos.
  - apply fdiv_ge0; try assumption. now apply quot_pos.
Qed.
Lemma limited_ge (s : state) : radau_f64_sane (i_opts s) -> i_tdir s = f_of_Z 1 -> fnn (i_dt s) -> fge 0 (limited_dt s).
Proof.
  intros So Hdir Hd. unfold limited_dt. apply fdir_ge; [assumption|]. apply fmin_ge0.
  - apply fabs_ge. now apply proposed_ge.
  - apply fge_0. apply So.
Qed.
Lemma next_ge (s : state) : radau_f64_sane (i_opts s) -> i_tdir s = f_of_Z 1 -> fnn (i_dt s) -> fge 0 (RadauStep.next_dt s).
Proof.
  intros So Hdir Hd. pose proof (limited_ge s So Hdir Hd) as H. unfold RadauStep.next_dt.
  destruct (reject (i_cache s)); [|assumption]. apply fdir_ge; [assumption|].
  apply fmin_ge0; apply fabs_ge; [assumption|]. right. exact Hd.
Qed.

(** The test that decides whether the first trial step is cut. *)
Lemma radau_uncut (t tf d : f64) : is_finite t = true -> is_finite tf = true -> fge 0 d ->
  fleb fzero (fsub (fadd t (fmul d (f_lit 10001 10000))) (fmul tf (f_of_Z 1))) = false ->
  fnn d /\ rnd64 (B2R t + B2R d) <= B2R tf.
Proof.
  intros Ft Ff Hd H. destruct f_10001 as (L1 & L2). rewrite fmul_1_r in H by assumption.
  set (q := f_lit 10001 10000) in *. clearbody q.
  assert (fleb fzero (fsub finf tf) = true) as Hinf by (rewrite fsub_finf by assumption; reflexivity).
  pose proof (fadd_finf t Ft) as Hadd.
  destruct Hd as [->|(Fd & Pd)].
  { exfalso. assert (fmul finf q = finf) as E.
    { pose proof (fsign_ge0 q L1 ltac:(lra)) as Sg. destruct q as [?|?| |[] m e He]; try discriminate; cbn in L2; try lra; reflexivity. }
    rewrite E, Hadd, Hinf in H. discriminate. }
  split; [split; assumption|].
  assert (fge 0 (fmul d q)) as [E|(Fy & Py)].
  { apply fge_0. apply fmul_ge0_r; try assumption; [lra|]. apply fge_0. right. auto. }
  { exfalso. rewrite E, Hadd, Hinf in H. discriminate. }
  assert (B2R d <= B2R (fmul d q)) as Hy.
  { pose proof (Bmult_correct 53 1024 _ _ mode_NE d q) as M.
    change (round_mode mode_NE) with (Znearest (fun x => negb (Z.even x))) in M.
    fold (fmul d q) in M. destruct (Rlt_bool _ _).
    - destruct M as (-> & _). apply rnd_ge_f. nra.
    - exfalso. destruct (fmul d q); discriminate. }
  set (y := fmul d q) in *. clearbody y.
  assert (fge (B2R t) (fadd t y)) as [E|(Fz & Pz)].
  { apply fleb_fge; [assumption|]. apply fadd_le; [assumption|]. apply fge_0. right. auto. }
  { exfalso. rewrite E, Hinf in H. discriminate. }
  assert (B2R (fadd t y) <= B2R tf) as Hz.
  { destruct (Rle_or_lt (B2R (fadd t y)) (B2R tf)) as [Hle|Hlt]; [assumption|]. exfalso.
    rewrite fsub_ge0 in H; [discriminate|assumption|]. apply fleb_R; try assumption. lra. }
  rewrite fadd_R in Hz by assumption. apply Rle_trans with (2 := Hz). apply rnd_le. lra.
Qed.

(** ** One step *)
(** The trial step is the rest of the span, or does not go beyond it. *)
Definition aims (s : state) : Prop :=
  fnn (i_dt s) /\
  ((last (i_cache s) = true /\ i_dt s = fsub (i_tfinal s) (i_t s)) \/
   (last (i_cache s) = false /\ rnd64 (B2R (i_t s : f64) + B2R (i_dt s : f64)) <= B2R (i_tfinal s : f64))).

Record rready (s : state) : Prop := mkRd {
  rd_sane : radau_f64_sane (i_opts s);
  rd_cfac : Bsign (cfac (i_cache s) : f64) = false;
  rd_dir : i_tdir s = f_of_Z 1;
  rd_t : is_finite (i_t s : f64) = true;
  rd_tf : is_finite (i_tfinal s : f64) = true;
  rd_le : B2R (i_t s : f64) <= B2R (i_tfinal s : f64);
  rd_span : is_finite (fsub (i_tfinal s) (i_t s)) = true;
  rd_rej : reject (i_cache s) = false;
  rd_dt : (last (i_cache s) = true /\ i_dt s = fsub (i_tfinal s) (i_t s)) \/
          (last (i_cache s) = false /\ fge 0 (i_dt s)) }.

Lemma clip_aims (s : state) : rready s -> aims (radau_clip s).
Proof.
  intros [So Sc Hd Ft Ff Hle Fs Hr Hdt]. unfold radau_clip.
  assert (fnn (fsub (i_tfinal s) (i_t s))) as Hn.
  { split; [assumption|]. rewrite fsub_R by assumption. apply rnd_ge_0. lra. }
  destruct (leb A _ _) eqn:E.
  - split; [exact Hn|]. left. split; reflexivity.
  - destruct Hdt as [(Hl & Hdt)|(Hl & Hdt)].
    + split; [|left; auto]. rewrite Hdt. exact Hn.
    + rewrite Hd in E. destruct (radau_uncut _ _ _ Ft Ff Hdt E) as (H1 & H2). split; [assumption|]. right. auto.
Qed.
Lemma aims_ftrial (s s1 : state) : is_finite (i_t s : f64) = true -> is_finite (i_tfinal s : f64) = true ->
  B2R (i_t s : f64) <= B2R (i_tfinal s : f64) -> is_finite (fsub (i_tfinal s) (i_t s)) = true ->
  aims s -> ftrial s s1 -> aims s1.
Proof.
  intros Ft Ff Hle Fs (Hn & Ha) Ht. pose proof (ftrial_fnn _ _ Hn Ht) as Hn1.
  destruct Ht as [Hq _ _ Hdt]. destruct (q_prob _ _ Hq) as (_&_&_&_&_&Ef&_). destruct (q_point _ _ Hq) as (_&Et&_).
  split; [assumption|]. rewrite Et, Ef. destruct Hdt as [(E1 & E2 & _)|(E1 & E2 & _)].
  - rewrite E1, E2. exact Ha.
  - right. split; [assumption|]. destruct Ha as [(_ & Hd)|(_ & Hd)].
    + rewrite Hd in E1. apply cut_reduced; assumption.
    + exact (short_reduced _ _ _ _ Hn Hd E1).
Qed.

(** A [step()] call either ends the run without a point or records one. *)
Record r_step (s s' : state) : Prop := mkRS {
  rs_prob : same_problem s s';
  rs_ts : ts (i_sol s') = ts (i_sol s) ++ [i_t s'];
  rs_tprev : i_tprev s' = i_t s;
  rs_up : fltb (i_t s) (i_t s') = true;
  rs_end : (rc (i_sol s') = RSuccess /\ i_t s' = fadd (i_t s) (fsub (i_tfinal s) (i_t s))) \/
           (rc (i_sol s') = rc (i_sol s) /\ is_finite (i_t s' : f64) = true /\
            B2R (i_t s : f64) <= B2R (i_t s' : f64) <= B2R (i_tfinal s : f64) /\
            reject (i_cache s') = false /\
            ((last (i_cache s') = true /\ i_dt s' = fsub (i_tfinal s) (i_t s')) \/
             (last (i_cache s') = false /\ fge 0 (i_dt s')))) }.
Lemma r_step_of fuel (s s' : state) : rready s -> radau_step fuel s = Ok s' ->
  quiet s s' /\ ends s s' \/ r_step s s'.
Proof.
  intros Rd H. pose proof (clip_aims s Rd) as Hai. destruct Rd as [So Sc Hd Ft Ff Hle Fs Hr Hdt].
  unfold radau_step in H.
  destruct (radau_clip_frame s) as (Cq & _ & Csol & _ & _ & Cc & _). cbv zeta in *.
  assert (reject (i_cache (radau_clip s)) = false) as Cr by (rewrite Cc; exact Hr).
  assert (cfac (i_cache (radau_clip s)) = cfac (i_cache s)) as Ccf by (rewrite Cc; reflexivity).
  revert H Hai Cq Csol Cr Ccf. generalize (radau_clip s) as sc. clear Hdt. intros.
  destruct (q_prob _ _ Cq) as (_&_&_&_&Cd&Cf&Co). destruct (q_point _ _ Cq) as (_&Ct&_).
  apply radau_loop_f in H; [|now rewrite Co|now rewrite Ccf|apply Hai|intros _; exact Cr].
  destruct H as [(Hq & Hrc)|(s1 & Ht & Htn & Ha)].
  { left. split; [eapply quiet_trans; eassumption|]. intros Hc. apply Hrc. rewrite Csol. exact Hc. }
  right.
  assert (aims s1) as (Hn & Hm) by (eapply aims_ftrial; [..|exact Hai|exact Ht]; rewrite ?Ct, ?Cf; assumption).
  pose proof (quiet_trans _ _ _ Cq (ft_quiet _ _ Ht)) as Q1.
  pose proof (ft_rc _ _ Ht) as Erc. rewrite Csol in Erc. clear Ht Hai Cq Csol Cr Ccf Cd Cf Co Ct sc.
  destruct (q_prob _ _ Q1) as (_&_&_&_&Ed&Ef&Eo). destruct (q_point _ _ Q1) as (_&Et&_&_&Ets&_).
  pose proof (ac_t _ _ Ha) as Eat. rewrite Et in Eat.
  rewrite Et, Ef in Hm.
  assert (fge 0 (i_dt s1)) as Hge by (right; exact Hn).
  constructor.
  - eapply same_problem_trans; [apply Q1|apply Ha].
  - rewrite (ac_ts _ _ Ha), Ets. reflexivity.
  - rewrite (ac_tprev _ _ Ha). exact Et.
  - rewrite Eat. apply step_moves; [assumption|assumption|]. unfold tiny_dt in Htn. rewrite Et in Htn. exact Htn.
  - destruct Hm as [(El & Hm)|(El & Hm)].
    + left. rewrite (ac_rc _ _ Ha), El. split; [reflexivity|]. rewrite Eat, Hm. reflexivity.
    + right. rewrite (ac_rc _ _ Ha), El. split; [assumption|].
      destruct (fadd_below (i_t s) (i_dt s1) (i_tfinal s) Ft (proj1 Hn) (proj2 Hn) Hm) as (Q2 & _ & Q3).
      destruct (ac_next _ _ Ha El) as (Er & _ & _ & _ & Hend & Hmore). cbv zeta in Hend, Hmore.
      rewrite Eat. split; [exact Q2|]. split; [exact Q3|]. split; [exact Er|].
      destruct (leb A n0 _).
      * left. destruct (Hend eq_refl) as (E1 & E2 & _). rewrite Eat, Ef in E1. auto.
      * right. destruct (Hmore eq_refl) as (E1 & [(E2 & _)|(E2 & _)]); split; try assumption; rewrite E2; [assumption|].
        apply next_ge; [now rewrite Eo|now rewrite Ed|assumption].
Qed.

Lemma flt_snoc (l : list f64) m x :
  StronglySorted flt (l ++ [m]) -> Forall (fun y => fltb y x = true) (l ++ [m]) -> StronglySorted flt ((l ++ [m]) ++ [x]).
Proof.
  intros H Hf. induction H as [|a l' H IH Ha]; cbn.
  - constructor; constructor.
  - inversion Hf; subst. constructor; [auto|]. apply Forall_app. split; [assumption|]. constructor; [assumption|constructor].
Qed.
Lemma flt_trans (a b c : f64) : is_finite a = true -> is_finite b = true ->
  fltb a b = true -> fltb b c = true -> fltb a c = true.
Proof.
  intros Fa Fb H1 H2. apply fltb_R in H1; [|assumption..].
  destruct (is_finite c) eqn:Fc.
  - apply fltb_R in H2; [|assumption..]. apply fltb_R; try assumption. lra.
  - clear H1. destruct c as [?|[]| |? ? ? ?]; try discriminate Fc.
    + exfalso. revert H2 Fb. clear. destruct b as [?|[]| |[] ? ? ?]; discriminate.
    + revert Fa. clear. destruct a as [?|[]| |[] ? ? ?]; try discriminate; reflexivity.
    + exfalso. revert H2. clear. destruct b as [?|[]| |[] ? ? ?]; discriminate.
Qed.

(** ** Runs *)
Record r_run (b : builder A P) (s : state) : Prop := {
  rn_opts : radau_f64_sane (i_opts s);
  rn_cfac : Bsign (cfac (i_cache s) : f64) = false;
  rn_tfinal : i_tfinal s = b_tfinal b;
  rn_tdir : i_tdir s = f_of_Z 1;
  rn_list : exists l, ts (i_sol s) = l ++ [i_t s] /\
    Forall (fun t : f64 => is_finite t = true /\ B2R (b_t b : f64) <= B2R t <= B2R (b_tfinal b : f64)) l /\
    Forall (fun t : f64 => fltb t (i_t s) = true) l;
  rn_sorted : StronglySorted flt (ts (i_sol s));
  rn_last : rc (i_sol s) <> RSuccess ->
    is_finite (i_t s : f64) = true /\ B2R (b_t b : f64) <= B2R (i_t s : f64) <= B2R (b_tfinal b : f64);
  rn_more : rc (i_sol s) = RContinue -> reject (i_cache s) = false /\
    ((last (i_cache s) = true /\ i_dt s = fsub (i_tfinal s) (i_t s)) \/
     (last (i_cache s) = false /\ fge 0 (i_dt s)));
  rn_end : rc (i_sol s) = RSuccess ->
    is_finite (i_tprev s : f64) = true /\ B2R (b_t b : f64) <= B2R (i_tprev s : f64) <= B2R (b_tfinal b : f64) /\
    (exists l, ts (i_sol s) = l ++ [i_tprev s; i_t s]) /\
    i_t s = fadd (i_tprev s) (fsub (b_tfinal b) (i_tprev s)) }.

Lemma radau_opts_sane (o : opts A) : radau_f64_sane o -> radau_f64_sane (radau_opts o).
Proof. unfold radau_opts. destruct (leb A _ _); exact (fun H => H). Qed.

Lemma r_run_build (b : builder A P) (s : state) : radau_f64_forward b -> build alg b = Ok s ->
  r_run b s /\ rc (i_sol s) = RContinue.
Proof.
  intros (So & F0 & Ff & Hle & Fs & Hdt) H.
  apply radau_build_inv in H. destruct H as [(_&_&_&_&Edir&Etf&Eo) _ Et Ed _ _ _ _ Esol (_&_&El&Er&_) Ec _ _ _ _ _].
  apply fltb_R in Hle; [|assumption..].
  split; [|rewrite Esol; reflexivity].
  constructor.
  - rewrite Eo. now apply radau_opts_sane.
  - rewrite Ec. apply sign_mul; [|apply sign_nat]. apply sign_pos. apply So.
  - assumption.
  - rewrite Edir. change (fcopysign (f_lit 1 1) (fsub (b_tfinal b) (b_t b)) = f_of_Z 1).
    rewrite f_lit_one. unfold fcopysign. destruct f_one as (_ & _ & ->).
    pose proof (fsub_pos _ _ Ff F0 Hle) as [Q|(_ & Q)].
    + rewrite Q in Fs. discriminate.
    + rewrite (fsign_ge0 _ Fs Q). reflexivity.
  - exists []. rewrite Esol, Et. cbn. auto.
  - rewrite Esol. cbn. constructor; constructor.
  - intros _. rewrite Et. split; [assumption|]. lra.
  - intros _. split; [assumption|]. right. rewrite Ed. split; [assumption|]. now apply fge_0.
  - rewrite Esol. discriminate.
Qed.

Lemma r_run_step (b : builder A P) fuel (s s' : state) r : radau_f64_forward b ->
  r_run b s -> rc (i_sol s) = RContinue -> step alg None fuel s = Ok (s', r) -> r_run b s'.
Proof.
  intros (_ & F0 & Ff & Hlt & Fs & _) [Io Ic If Id (l & Il & Ifin & Ile) Is Ila Im Ien] Hrc H.
  unfold step in H. apply bind_ok in H as (s1 & H & E). cbn [run_callback] in E.
  injection E as E _. subst s1. cbn [alg_step Radau5 Cache] in H.
  destruct Ila as (Ft & Ht); [congruence|]. destruct (Im Hrc) as (Hr & Hdt).
  assert (rready s) as Rd.
  { constructor; rewrite ?If; try assumption; [apply Ht| |now rewrite <- If]. now apply (span_finite (b_t b)). }
  pose proof (step_cfac _ _ _ H) as Ec.
  destruct (r_step_of _ _ _ Rd H) as [(Hq & Hnc)|[Rp Rts Rtp Rup Ren]].
  - destruct (q_prob _ _ Hq) as (_&_&_&_&Ed&Ef&Eo). destruct (q_point _ _ Hq) as (_&Et&_&Etp&Ets&_).
    destruct (Hnc Hrc) as (N1 & N2). constructor.
    + now rewrite Eo.
    + now rewrite Ec.
    + congruence.
    + congruence.
    + exists l. rewrite Ets, Et. auto.
    + now rewrite Ets.
    + intros _. rewrite Et. auto.
    + intros; congruence.
    + intros; congruence.
  - destruct Rp as (_&_&_&_&Ed&Ef&Eo).
    assert (Forall (fun t : f64 => fltb t (i_t s') = true) (l ++ [i_t s])) as Hall.
    { apply Forall_app. split; [|constructor; [exact Rup|constructor]].
      apply Forall_forall. intros t Hin. rewrite Forall_forall in Ifin, Ile.
      destruct (Ifin t Hin) as (F & _). apply (flt_trans t (i_t s)); auto. }
    constructor.
    + now rewrite Eo.
    + now rewrite Ec.
    + congruence.
    + congruence.
    + exists (l ++ [i_t s]). rewrite Rts, Il. split; [reflexivity|]. split; [|exact Hall].
      apply Forall_app. split; [assumption|]. constructor; [auto|constructor].
    + rewrite Rts, Il. apply flt_snoc; [|exact Hall]. rewrite Il in Is. exact Is.
    + intros Hn. destruct Ren as [(E & _)|(_ & F & Hb & _)]; [congruence|].
      split; [assumption|]. rewrite If in Hb. lra.
    + intros Hn. destruct Ren as [(E & _)|(_ & _ & _ & R1 & R2)]; [congruence|].
      split; [assumption|]. rewrite Ef. exact R2.
    + intros Hs. destruct Ren as [(E & Et)|(E & _)]; [|congruence].
      rewrite Rtp. split; [assumption|]. split; [lra|].
      split; [exists l; rewrite Rts, Il, <- app_assoc; reflexivity|]. rewrite <- If. exact Et.
Qed.

Lemma r_runs (b : builder A P) fuel k (s0 s : state) :
  radau_f64_forward b -> build alg b = Ok s0 -> reached alg None fuel k s0 s -> r_run b s.
Proof.
  intros Hb H Hr. destruct (r_run_build b s0 Hb H) as [Hi Hrc].
  refine (reached_invariant alg None fuel (r_run b) _ k s0 s Hr Hrc Hi).
  intros s1 s2 r H1 H2 H3. eapply r_run_step; eassumption.
Qed.

(** C46. *)
Lemma radau_f64_times (b : builder A P) fuel k (s0 s : state) :
  radau_f64_forward b -> build alg b = Ok s0 -> reached alg None fuel k s0 s ->
  StronglySorted flt (ts (i_sol s)) /\
  Forall (fun t : f64 => fle (b_t b) t /\ fle t (b_tfinal b)) (removelast (ts (i_sol s))) /\
  (rc (i_sol s) <> RSuccess -> fle (i_t s) (b_tfinal b)).
Proof.
  intros Hb H Hr. pose proof (r_runs _ _ _ _ _ Hb H Hr) as [_ _ If Id (l & Il & Ifin & Ile) Is Ila _ Ien].
  destruct Hb as (_ & F0 & Ff & _). split; [assumption|]. split.
  - rewrite Il, removelast_last. eapply Forall_impl; [|exact Ifin]. cbn. intros t (F & Hr1 & Hr2).
    split; apply fleb_R; assumption.
  - intros Hn. destruct (Ila Hn) as (F & Hr1 & Hr2). apply fleb_R; assumption.
Qed.

End RMono.
