(** Radau5 runs in exact arithmetic: recorded times, step lengths, evaluation
    times. *)
From Coq Require Import ZArith List Bool Lia Reals Lra Sorted.
From RecordUpdate Require Import RecordSet.
From Verif Require Import Arith Vec Core Spec Jacobian Linalg Driver VecFacts DP5Facts DP5Inv LinFacts LinFactsC
  Radau RadauFacts RadauStep RadauInv RadauHist RadauKeep ArithR SpecODE SpecRadau DP5Time RadauR.
Import ListNotations RecordSetNotations.
Local Open Scope R_scope.

Section RadauTime.
Context {P : Type} (inf : R).
Notation RI := (RA inf).
Notation state := (integ RI P (radau_cache RI)).
Notation alg := (@Radau5 RI P).

(** ** The next step size *)
Definition dirn (d : R) : Prop := d = 1 \/ d = -1.
Lemma dir_abs d x : dirn d -> Rabs (d * x) = Rabs x.
Proof.
  intros [-> | ->]; [now rewrite Rmult_1_l|].
  replace (-1 * x) with (- x) by ring. apply Rabs_Ropp.
Qed.
Lemma dir_sq d x : dirn d -> d * (d * x) = x.
Proof. intros [-> | ->]; ring. Qed.

(** The quotient the next step size is computed with. *)
Lemma proposed_range (s : state) : radau_sane (i_opts s) -> i_dt s <> 0 ->
  Rabs (i_dt s) / o_facl (i_opts s) <= Rabs (proposed_dt s) <= Rabs (i_dt s) / o_facr (i_opts s).
Proof.
  intros Ho Hd. pose proof (quot_range inf s Ho) as Hq. destruct Ho as [_ Hl Hr _ _].
  assert (forall q, o_facr (i_opts s) <= q <= o_facl (i_opts s) ->
    Rabs (i_dt s) / o_facl (i_opts s) <= Rabs (rdiv inf (i_dt s) q) <= Rabs (i_dt s) / o_facr (i_opts s)) as H.
  { intros q H. rewrite rdiv_ok by lra. unfold Rdiv. rewrite Rabs_mult, (Rabs_right (/ q)) by (left; apply Rinv_0_lt_compat; lra).
    pose proof (Rabs_pos (i_dt s)).
    split; apply Rmult_le_compat_l; try assumption; apply Rinv_le_contravar; lra. }
  unfold proposed_dt. rnorm. destruct (_ && _); apply H.
  - split.
    + eapply Rle_trans; [apply Hq|apply Rmax_l].
    + apply Rmax_lub; [apply Hq|]. apply Rmax_lub; [lra|apply Rmin_l].
  - exact Hq.
Qed.

Lemma next_range (s : state) : radau_sane (i_opts s) -> dirn (i_tdir s) -> i_dt s <> 0 ->
  Rmin (Rabs (i_dt s) / o_facl (i_opts s)) (o_dtmax (i_opts s)) <= i_tdir s * next_dt s /\
  i_tdir s * next_dt s <= Rabs (i_dt s) / o_facr (i_opts s) /\
  i_tdir s * next_dt s <= o_dtmax (i_opts s).
Proof.
  intros Ho Hd Hdt. pose proof (proposed_range s Ho Hdt) as Hp. destruct Ho as [_ Hl Hr _ Hm].
  assert (0 < Rabs (i_dt s)) as Ha by now apply Rabs_pos_lt.
  set (m := Rmin (Rabs (proposed_dt s)) (o_dtmax (i_opts s))).
  assert (0 < Rabs (i_dt s) / o_facl (i_opts s)) as Hx by (apply Rdiv_lt_0_compat; lra).
  assert (0 < m) as Hm0 by (apply Rmin_glb_lt; lra).
  assert (limited_dt s = i_tdir s * m) as El by reflexivity.
  assert (Rabs (limited_dt s) = m) as Em by (rewrite El, dir_abs by assumption; apply Rabs_right; lra).
  assert (m <= Rabs (proposed_dt s)) as M1 by apply Rmin_l.
  assert (m <= o_dtmax (i_opts s)) as M2 by apply Rmin_r.
  assert (Rmin (Rabs (i_dt s) / o_facl (i_opts s)) (o_dtmax (i_opts s)) <= m) as M3.
  { apply Rmin_glb; [eapply Rle_trans; [apply Rmin_l|lra]|apply Rmin_r]. }
  assert (Rmin (Rabs (i_dt s) / o_facl (i_opts s)) (o_dtmax (i_opts s)) <= Rabs (i_dt s)) as M4.
  { eapply Rle_trans; [apply Rmin_l|]. apply Rmult_le_reg_r with (o_facl (i_opts s)); [lra|].
    unfold Rdiv. rewrite Rmult_assoc, Rinv_l by lra. nra. }
  assert (exists k, next_dt s = i_tdir s * k /\ Rmin m (Rabs (i_dt s)) <= k <= m) as (k & -> & Hk).
  { unfold next_dt. destruct (reject (i_cache s)).
    - exists (Rmin m (Rabs (i_dt s))). rnorm. rewrite Em. split; [reflexivity|]. split; [lra|apply Rmin_l].
    - exists m. split; [exact El|]. split; [apply Rmin_l|lra]. }
  rnorm. rewrite dir_sq by assumption.
  split; [|lra]. eapply Rle_trans; [|apply Hk]. now apply Rmin_glb.
Qed.

(** ** States whose trial step stays inside the span *)
Record fits (s : state) : Prop := mkFits {
  fi_sane : radau_sane (i_opts s);
  fi_cfac : 0 < cfac (i_cache s);
  fi_dir : dirn (i_tdir s);
  fi_left : 0 < i_tdir s * (i_tfinal s - i_t s);
  fi_dt : 0 < i_tdir s * i_dt s;
  fi_last : last (i_cache s) = true -> i_t s + i_dt s = i_tfinal s;
  fi_more : last (i_cache s) = false -> 0 < i_tdir s * (i_tfinal s - i_t s - i_dt s);
  fi_tidy : reject (i_cache s) = false }.

(** The first trial step of a [step()] call. *)
Lemma radau_clip_cases (s : state) :
  (i_tfinal s * i_tdir s <= i_t s + 10001/10000 * i_dt s /\ i_dt (radau_clip s) = i_tfinal s - i_t s /\
   last (i_cache (radau_clip s)) = true) \/
  (i_t s + 10001/10000 * i_dt s < i_tfinal s * i_tdir s /\ radau_clip s = s).
Proof.
  unfold radau_clip. rnorm. destruct (Rleb _ _) eqn:E.
  - apply Rleb_true in E. left. split; [lra|]. split; reflexivity.
  - apply Rleb_false in E. right. split; [lra|reflexivity].
Qed.
Lemma clip_is_trial (s : state) : i_dt (radau_clip s) = radau_trial s.
Proof.
  unfold radau_trial. destruct (radau_clip_cases s) as [(C & E & _)|(C & E)]; destruct (Rle_dec _ _); try lra.
  now rewrite E.
Qed.

(** A state from which the next call starts a step inside the span. *)
Definition ready (s : state) : Prop :=
  fits s \/
  (radau_sane (i_opts s) /\ 0 < cfac (i_cache s) /\ reject (i_cache s) = false /\ last (i_cache s) = false /\
   ((i_tdir s = 1 /\ 0 < i_dt s /\ i_t s < i_tfinal s) \/
    (i_tdir s = -1 /\ i_tfinal s < i_t s /\ 0 <= i_t s + 10001/10000 * i_dt s + i_tfinal s))).

Lemma clip_fits (s : state) : ready s -> fits (radau_clip s).
Proof.
  intros Hr. pose proof (radau_clip_frame s) as (Cq & _ & _ & _ & _ & Cc & _).
  pose proof (quiet_opts inf _ _ Cq) as Eo. pose proof (quiet_t inf _ _ Cq) as Et.
  destruct (q_prob _ _ Cq) as (_ & _ & _ & _ & Ed & Ef & _).
  assert (cfac (i_cache (radau_clip s)) = cfac (i_cache s)) as Ec by (rewrite Cc; reflexivity).
  assert (reject (i_cache (radau_clip s)) = reject (i_cache s)) as Er by (rewrite Cc; reflexivity).
  destruct (radau_clip_cases s) as [(C & E1 & E2)|(C & E)].
  - destruct Hr as [[F1 F2 F3 F4 F5 F6 F7 F8]|(H1 & H2 & H3 & H4 & H5)].
    + constructor; rewrite ?Eo, ?Ec, ?Ed, ?Ef, ?Et, ?E1, ?E2, ?Er; rnorm; try assumption; try discriminate.
      intros _. lra.
    + assert (dirn (i_tdir s) /\ 0 < i_tdir s * (i_tfinal s - i_t s)) as (D1 & D2).
      { destruct H5 as [(-> & H5)|(-> & H5)]; (split; [first [left; reflexivity|right; reflexivity]|lra]). }
      constructor; rewrite ?Eo, ?Ec, ?Ed, ?Ef, ?Et, ?E1, ?E2, ?Er; rnorm; try assumption; try discriminate.
      intros _. lra.
  - rewrite E in *. destruct Hr as [F|(H1 & H2 & H3 & H4 & H5)]; [assumption|].
    destruct H5 as [(Hd & H5 & H6)|(Hd & H5 & H6)].
    + rewrite Hd in *.
      constructor; rewrite ?Hd; rnorm; try assumption; try (now left); try lra.
      intros; congruence.
    + exfalso. rewrite Hd in *. lra.
Qed.

(** Shrinking a trial step that fits. *)
Lemma trial_fits l (s s1 : state) : fits s -> trial inf l s s1 ->
  radau_sane (i_opts s1) /\ 0 < cfac (i_cache s1) /\ dirn (i_tdir s1) /\
  0 < i_tdir s1 * i_dt s1 /\
  (last (i_cache s1) = true -> i_t s1 + i_dt s1 = i_tfinal s1) /\
  (last (i_cache s1) = false -> 0 < i_tdir s1 * (i_tfinal s1 - i_t s1 - i_dt s1)).
Proof.
  intros [F1 F2 F3 F4 F5 F6 F7 F8] [Tq (Tl & Td & Tc) _ Tf _].
  rewrite (quiet_opts inf _ _ Tq), (quiet_t inf _ _ Tq), Tf, Td.
  destruct (q_prob _ _ Tq) as (_ & _ & _ & _ & -> & -> & _).
  split; [assumption|]. split; [assumption|]. split; [assumption|]. rnorm.
  split; [nra|]. destruct Tc as [(-> & -> & _)|(Tc & -> & _)].
  - split; intros E; [specialize (F6 E); rnorm; lra|specialize (F7 E); rnorm].
    replace (i_tfinal s - i_t s - 1 * i_dt s) with (i_tfinal s - i_t s - i_dt s) by lra. assumption.
  - split; [discriminate|]. intros _.
    assert (0 <= i_tdir s * (i_tfinal s - i_t s - i_dt s)) as H.
    { destruct (last (i_cache s)); [|left; auto]. specialize (F6 eq_refl). rnorm.
      replace (i_tfinal s - i_t s - i_dt s) with 0 by lra. lra. }
    rnorm. replace (i_tdir s * (i_tfinal s - i_t s - l * i_dt s))
      with (i_tdir s * (i_tfinal s - i_t s - i_dt s) + (1 - l) * (i_tdir s * i_dt s)) by lra.
    assert (0 < (1 - l) * (i_tdir s * i_dt s)) by (apply Rmult_lt_0_compat; lra). lra.
Qed.

(** ** An accepted step *)
(** [d] is the step size that accepted attempt [s] leaves for the next call. *)
Definition next_ok (s : state) (d : R) (lst : bool) : Prop :=
  let o := i_opts s in
  (lst = true /\ d = i_tfinal s - (i_t s + i_dt s) /\
   i_tdir s * d <= Rmin (Rabs (i_dt s) / o_facr o) (o_dtmax o) / o_quot1 o) \/
  (lst = false /\ Rmin (Rabs (i_dt s) / o_facl o) (o_dtmax o) <= i_tdir s * d /\
   i_tdir s * d <= Rabs (i_dt s) / o_facr o /\ i_tdir s * d <= o_dtmax o / o_quot1 o /\
   0 < i_tdir s * (i_tfinal s - (i_t s + i_dt s) - d)).

Lemma accepted_next (s s' : state) : radau_sane (i_opts s) -> dirn (i_tdir s) ->
  i_dt s <> 0 -> accepted s s' -> last (i_cache s) = false ->
  next_ok s (i_dt s') (last (i_cache s')).
Proof.
  intros Ho Hd Hdt Ha El. pose proof (next_range s Ho Hd Hdt) as (N1 & N2 & N3).
  pose proof (ac_t _ _ Ha) as Et.
  destruct (ac_next _ _ Ha El) as (_ & _ & _ & _ & R1 & R2). destruct Ho as [_ Hl Hr Hq Hm].
  rewrite Et in R1, R2. unfold next_ok. rnorm.
  assert (0 < Rabs (i_dt s)) as Hpos by now apply Rabs_pos_lt.
  assert (0 < / o_quot1 (i_opts s)) as Hiq by (apply Rinv_0_lt_compat; lra).
  assert (1 <= / o_quot1 (i_opts s)) as Hiq1.
  { rewrite <- Rinv_1. apply Rinv_le_contravar; lra. }
  rewrite rdiv_ok in R1, R2 by (intros E; lra).
  match type of R1 with ?c = true -> _ => destruct c eqn:Ec end.
  - destruct (R1 eq_refl) as (E1 & E2 & _). left. split; [assumption|]. split; [assumption|].
    rewrite E1. apply Rleb_true in Ec.
    assert (i_tdir s * (i_tfinal s - (i_t s + i_dt s)) <= i_tdir s * next_dt s / o_quot1 (i_opts s)) as H.
    { unfold Rdiv in *. rnorm.
      replace (i_tdir s * next_dt s * / o_quot1 (i_opts s)) with (next_dt s * / o_quot1 (i_opts s) * i_tdir s) by lra.
      lra. }
    eapply Rle_trans; [exact H|]. apply Rmult_le_compat_r; [lra|]. now apply Rmin_glb.
  - destruct (R2 eq_refl) as (E1 & E2). right. split; [assumption|]. apply Rleb_false in Ec.
    assert (i_tdir s * next_dt s / o_quot1 (i_opts s) < i_tdir s * (i_tfinal s - (i_t s + i_dt s))) as H.
    { unfold Rdiv in *. rnorm.
      replace (i_tdir s * next_dt s * / o_quot1 (i_opts s)) with (next_dt s * / o_quot1 (i_opts s) * i_tdir s) by lra.
      lra. }
    assert (0 < i_tdir s * next_dt s) as Hn.
    { eapply Rlt_le_trans; [|exact N1]. apply Rmin_glb_lt; [apply Rdiv_lt_0_compat; lra|assumption]. }
    assert (i_tdir s * next_dt s <= i_tdir s * next_dt s / o_quot1 (i_opts s)) as Hn1 by (unfold Rdiv; nra).
    assert (o_dtmax (i_opts s) <= o_dtmax (i_opts s) / o_quot1 (i_opts s)) as Hm1 by (unfold Rdiv; nra).
    destruct E2 as [(E2 & _ & _ & _ & Q1 & _)|(E2 & _)].
    + rewrite E2. apply Rleb_true in Q1. rewrite rdiv_ok in Q1 by assumption.
      (* the kept step: [quot1 |dt| <= |next_dt|] *)
      assert (i_tdir s * i_dt s <= Rabs (i_dt s)) as Ha1.
      { destruct Hd as [-> | ->]; [rewrite Rmult_1_l; apply Rle_abs|].
        replace (-1 * i_dt s) with (- i_dt s) by lra. rewrite <- Rabs_Ropp. apply Rle_abs. }
      assert (Rabs (i_dt s) * o_quot1 (i_opts s) <= Rabs (next_dt s) /\ i_tdir s * i_dt s = Rabs (i_dt s)) as (Hk & Hs).
      { assert (0 < next_dt s / i_dt s) as Hp by lra.
        assert (Rabs (next_dt s) = next_dt s / i_dt s * Rabs (i_dt s)) as Ek.
        { rewrite <- (Rabs_right (next_dt s / i_dt s)) by lra. rewrite <- Rabs_mult. f_equal.
          unfold Rdiv. rewrite Rmult_assoc, Rinv_l by assumption. lra. }
        split; [rewrite Ek; nra|].
        assert (0 < i_tdir s * i_dt s) as Hpp.
        { assert (next_dt s = next_dt s / i_dt s * i_dt s) as En
            by (unfold Rdiv; rewrite Rmult_assoc, Rinv_l by assumption; lra).
          rewrite En in Hn. destruct Hd as [Hd|Hd]; rewrite Hd in *; nra. }
        rewrite <- (dir_abs (i_tdir s)) by assumption. symmetry. apply Rabs_right. lra. }
      assert (Rabs (next_dt s) = i_tdir s * next_dt s) as Ea.
      { rewrite <- (dir_abs (i_tdir s)) by assumption. apply Rabs_right. lra. }
      rewrite Ea in Hk.
      assert (Rabs (i_dt s) <= i_tdir s * next_dt s / o_quot1 (i_opts s)) as Hk2.
      { apply Rmult_le_reg_r with (o_quot1 (i_opts s)); [lra|]. unfold Rdiv. rewrite Rmult_assoc, Rinv_l by lra. lra. }
      rewrite Hs. split; [|split; [|split]].
      * eapply Rle_trans; [apply Rmin_l|]. unfold Rdiv. rewrite <- (Rmult_1_r (Rabs (i_dt s))) at 2.
        apply Rmult_le_compat_l; [lra|]. rewrite <- Rinv_1. apply Rinv_le_contravar; lra.
      * unfold Rdiv. rewrite <- (Rmult_1_r (Rabs (i_dt s))) at 1.
        apply Rmult_le_compat_l; [lra|]. rewrite <- Rinv_1. apply Rinv_le_contravar; lra.
      * eapply Rle_trans; [exact Hk2|]. apply Rmult_le_compat_r; [lra|assumption].
      * lra.
    + rewrite E2. split; [assumption|]. split; [assumption|]. split; lra.
Qed.

(** The step size left for the next call, after a step of length [h] that ended
    at [t]: what remains of the span, or a size within the limits. *)
Definition next_size (o : opts RI) (d tf t h dt : R) : Prop :=
  (dt = tf - t /\ d * dt <= Rmin (Rabs h / o_facr o) (o_dtmax o) / o_quot1 o) \/
  (Rmin (Rabs h / o_facl o) (o_dtmax o) <= d * dt /\
   d * dt <= Rabs h / o_facr o /\ d * dt <= o_dtmax o / o_quot1 o).

Definition between (d a x b : R) : Prop := d * a <= d * x /\ d * x <= d * b.

(** A [step()] call that records a point. *)
Record stepped (s s' : state) : Prop := mkStepped {
  st_prob : same_problem s s';
  st_ts : ts (i_sol s') = ts (i_sol s) ++ [i_t s'];
  st_t : i_t s' = i_t s + i_dtprev s';
  st_fwd : 0 < i_tdir s * i_dtprev s';
  st_in : 0 <= i_tdir s * (i_tfinal s - i_t s');
  st_shrink : exists l j, i_dtprev s' = l * radau_trial s /\ 0 < l <= radau_shrink (i_opts s) ^ j /\
     steps (i_stats s') = (steps (i_stats s) + S j)%nat;
  st_cfac : cfac (i_cache s') = cfac (i_cache s);
  st_evs : exists l, i_trace s' = l ++ i_trace s /\
     Forall (fun e => between (i_tdir s) (i_t s) (ev_time e) (i_tfinal s)) l;
  st_end : (rc (i_sol s') = RSuccess /\ i_t s' = i_tfinal s) \/
     (rc (i_sol s') = rc (i_sol s) /\ fits s' /\
      next_size (i_opts s) (i_tdir s) (i_tfinal s) (i_t s') (i_dtprev s') (i_dt s'));
  st_dtopt : i_tdir s = 1 -> 0 < dtopt (i_cache s) ->
     0 < dtopt (i_cache s') /\ (rc (i_sol s) <> RSuccess -> rc (i_sol s') = RSuccess -> 0 < i_dt s') }.
(** ... and one that does not. *)
Record stalled (s s' : state) : Prop := mkStalled {
  sl_quiet : quiet s s';
  sl_cfac : cfac (i_cache s') = cfac (i_cache s);
  sl_evs : exists l, i_trace s' = l ++ i_trace s /\
     Forall (fun e => between (i_tdir s) (i_t s) (ev_time e) (i_tfinal s)) l }.

Lemma fits_on (s : state) e : fits s -> on_step inf (i_t s) (i_dt s) e ->
  between (i_tdir s) (i_t s) (ev_time e) (i_tfinal s).
Proof.
  intros [_ _ _ _ F5 F6 F7 _] (m & Hm & E).
  assert (ev_time e = i_t s + m * i_dt s) as E' by exact E. unfold between. rewrite E'.
  assert (0 <= i_tdir s * (i_tfinal s - i_t s - i_dt s)) as H.
  { destruct (last (i_cache s)); [|left; auto]. specialize (F6 eq_refl). rnorm.
    replace (i_tfinal s - i_t s - i_dt s) with 0 by lra. lra. }
  rnorm. assert (0 <= m * (i_tdir s * i_dt s) <= i_tdir s * i_dt s) by nra. lra.
Qed.

Lemma fits_evs (s s' : state) : fits s -> evs_on inf s s' ->
  exists l, i_trace s' = l ++ i_trace s /\
     Forall (fun e => between (i_tdir s) (i_t s) (ev_time e) (i_tfinal s)) l.
Proof.
  intros Hf (l & H1 & H2). exists l. split; [assumption|]. eapply Forall_impl; [|exact H2].
  intros e. now apply fits_on.
Qed.

Lemma ready_tidy (s : state) : ready s -> reject (i_cache s) = false.
Proof. intros [[]|H]; [assumption|apply H]. Qed.

(** The clipped state differs from [s] in [dt] and [last] only. *)
Lemma clip_frame_R (s : state) :
  quiet s (radau_clip s) /\ i_opts (radau_clip s) = i_opts s /\ i_t (radau_clip s) = i_t s /\
  i_tdir (radau_clip s) = i_tdir s /\ i_tfinal (radau_clip s) = i_tfinal s /\
  cfac (i_cache (radau_clip s)) = cfac (i_cache s) /\ reject (i_cache (radau_clip s)) = reject (i_cache s) /\
  i_trace (radau_clip s) = i_trace s /\ steps (i_stats (radau_clip s)) = steps (i_stats s) /\
  rc (i_sol (radau_clip s)) = rc (i_sol s).
Proof.
  pose proof (radau_clip_frame s) as (Cq & _ & Cs & Cst & Ctr & Cc & _).
  destruct (q_prob _ _ Cq) as (_ & _ & _ & _ & Ed & Ef & _).
  split; [exact Cq|]. split; [now apply (quiet_opts inf)|]. split; [now apply (quiet_t inf)|].
  split; [exact Ed|]. split; [exact Ef|]. split; [rewrite Cc; reflexivity|].
  split; [rewrite Cc; reflexivity|]. split; [exact Ctr|]. rewrite Cs, Cst. auto.
Qed.

Lemma radau_step_R fuel (s s' : state) : ready s -> radau_step fuel s = Ok s' ->
  stepped s s' \/ stalled s s'.
Proof.
  intros Hr H. pose proof (step_cfac _ _ _ H) as Hcf.
  pose proof (clip_fits s Hr) as Hf. pose proof (ready_tidy s Hr) as Hrj. unfold radau_step in H.
  pose proof (clip_is_trial s) as Htr.
  destruct (clip_frame_R s) as (Cq & Co & Ct & Cd & Cf & Cc & Cr & Ctr & Cst & Crc).
  assert (dtopt (i_cache (radau_clip s)) = dtopt (i_cache s)) as Cdo.
  { destruct (radau_clip_frame s) as (_ & _ & _ & _ & _ & -> & _). reflexivity. }
  revert H Hf Htr Cq Co Ct Cd Cf Cc Cr Ctr Cst Crc Cdo. generalize (radau_clip s) as sc. intros.
  rewrite Hrj in Cr.
  assert (tidy sc) as Ht by (intros _; exact Cr).
  apply radau_loop_R in H; [|apply Hf|apply Hf|exact Ht].
  destruct H as [(Hq & He)|(l & s1 & Htl & _ & Ha & _ & j & Hj & Hl)].
  - right. constructor; [eapply quiet_trans; eassumption|exact Hcf|].
    apply fits_evs in He; [|assumption]. rewrite Cd, Ct, Cf, Ctr in He. exact He.
  - left. pose proof (trial_fits l sc s1 Hf Htl) as (S1 & S2 & S3 & S4 & S5 & S6).
    destruct Htl as [Tq (Tl & Td & Tc) Te Tcf Trc Tdo].
    assert (quiet s s1) as Hq1 by (eapply quiet_trans; eassumption).
    pose proof (quiet_opts inf _ _ Hq1) as Eo. pose proof (quiet_t inf _ _ Hq1) as Et.
    destruct (q_prob _ _ Hq1) as (_ & _ & _ & _ & Ed & Ef & _).
    destruct (q_point _ _ Hq1) as (_ & _ & _ & _ & Ets & _).
    pose proof (ac_dtprev _ _ Ha) as Edp. pose proof (ac_t _ _ Ha) as Eat.
    rewrite Eo, Ed, Et, Ef in *.
    assert (0 <= i_tdir s * (i_tfinal s - i_t s')) as Hin.
    { rewrite Eat. rnorm. replace (i_tfinal s - (i_t s + i_dt s1)) with (i_tfinal s - i_t s - i_dt s1) by lra.
      destruct (last (i_cache s1)); [|left; auto]. specialize (S5 eq_refl). rnorm.
      replace (i_tfinal s - i_t s - i_dt s1) with 0 by lra. lra. }
    assert (i_dt s1 <> 0) as Hnz.
    { intros E. rnorm. rewrite E in S4. lra. }
    constructor.
    + eapply same_problem_trans; [apply Hq1|apply Ha].
    + rewrite (ac_ts _ _ Ha). now rewrite Ets.
    + rewrite Edp. exact Eat.
    + rewrite Edp. exact S4.
    + exact Hin.
    + exists l, j. rewrite <- Htr, Edp, <- Co. split; [exact Td|]. split; [lra|].
      rewrite (ac_steps _ _ Ha), Hj. now rewrite Cst.
    + exact Hcf.
    + destruct Te as (le & He1 & He2).
      assert (Forall (fun e => between (i_tdir s) (i_t s) (ev_time e) (i_tfinal s)) le) as Hle.
      { eapply Forall_impl; [|exact He2]. intros e He. apply fits_on in He; [|assumption].
        now rewrite Cd, Ct, Cf in He. }
      assert (between (i_tdir s) (i_t s) (i_t s') (i_tfinal s)) as Hbt.
      { split; [|rnorm; lra]. rewrite Eat. rnorm. lra. }
      destruct (last (i_cache s1)) eqn:El.
      * destruct (ac_last _ _ Ha El) as (_ & _ & E & _). exists le. rewrite E, He1, Ctr. auto.
      * destruct (ac_next _ _ Ha El) as (_ & _ & _ & (l2 & E & Hl2) & _).
        exists (l2 ++ EvF (i_t s') (i_u s') :: le). rewrite E, He1, Ctr, <- app_assoc. split; [reflexivity|].
        apply Forall_app. split; [|constructor; [exact Hbt|exact Hle]].
        eapply Forall_impl; [|exact Hl2]. intros e He.
        assert (ev_time e = i_t s') as -> by exact He. exact Hbt.
    + destruct (last (i_cache s1)) eqn:El.
      * left. rewrite (ac_rc _ _ Ha), El. split; [reflexivity|]. rewrite Eat. exact (S5 eq_refl).
      * right. rewrite (ac_rc _ _ Ha), El.
        pose proof (accepted_next s1 s' ltac:(rewrite Eo; exact S1) ltac:(rewrite Ed; exact S3) Hnz Ha El) as Hn.
        unfold next_ok in Hn. rewrite Eo, Ed, Ef, Et in Hn.
        assert (rc (i_sol s1) = rc (i_sol s)) as Erc by congruence.
        split; [exact Erc|]. split.
        -- destruct (ac_prob _ _ Ha) as (_ & _ & _ & _ & Ed' & Ef' & Eo').
           specialize (S6 eq_refl).
           constructor.
           ++ rewrite Eo', Eo. exact S1.
           ++ rewrite Hcf, <- Cc, <- Tcf. exact S2.
           ++ rewrite Ed', Ed. exact S3.
           ++ rewrite Ed', Ef', Ed, Ef, Eat. rnorm.
              replace (i_tfinal s - (i_t s + i_dt s1)) with (i_tfinal s - i_t s - i_dt s1) by lra. exact S6.
           ++ rewrite Ed', Ed. destruct Hn as [(_ & Hn & _)|(_ & Hn & _)].
              ** rewrite Hn. rnorm.
                 replace (i_tfinal s - (i_t s + i_dt s1)) with (i_tfinal s - i_t s - i_dt s1) by lra. exact S6.
              ** eapply Rlt_le_trans; [|exact Hn]. destruct S1 as [_ Hl1 _ _ Hm1].
                 apply Rmin_glb_lt; [|exact Hm1]. apply Rdiv_lt_0_compat; [now apply Rabs_pos_lt|lra].
           ++ intros E. destruct Hn as [(_ & Hn & _)|(Hn & _)]; [|congruence]. rewrite Hn, Ef', Ef, Eat. rlra.
           ++ intros E. destruct Hn as [(Hn & _ & _)|(_ & _ & _ & _ & Hn)]; [congruence|].
              rewrite Ed', Ef', Ed, Ef, Eat. exact Hn.
           ++ destruct (ac_next _ _ Ha El) as (E & _). exact E.
        -- unfold next_size. rewrite Edp, Eat. destruct Hn as [(_ & Hn)|(_ & Hn)]; [left; exact Hn|].
           right. tauto.
    + intros Hd1 Hdo. rewrite <- Cdo, <- Tdo in Hdo. destruct (last (i_cache s1)) eqn:El.
      * destruct (ac_last _ _ Ha El) as (_ & E1 & _ & _ & E2 & _). rewrite E1, E2. auto.
      * destruct (ac_next _ _ Ha El) as (_ & E1 & _).
        pose proof (proposed_range s1 ltac:(rewrite Eo; exact S1) Hnz) as (Hp & _).
        split.
        -- rewrite E1. unfold limited_dt. rewrite Ed, Hd1 in *. rnorm. apply Rmin_glb_lt; [lra|].
           rewrite Rmult_1_l. rewrite Eo in *. destruct S1 as [_ Hl1 _ _ Hm1]. apply Rmin_glb_lt; [|exact Hm1].
           eapply Rlt_le_trans; [|exact Hp]. apply Rdiv_lt_0_compat; [now apply Rabs_pos_lt|lra].
        -- rewrite (ac_rc _ _ Ha), El, Trc, Crc. intros; congruence.
Qed.

(** ** Runs *)
Lemma sorted_before d (l : list R) m x :
  StronglySorted (before d) l -> Forall (fun y => d * y <= d * m) l -> d * m < d * x ->
  StronglySorted (before d) (l ++ [x]).
Proof.
  intros H. induction H as [|a l H IH Ha]; intros Hf Hx; cbn.
  - constructor; constructor.
  - inversion Hf; subst. constructor; [auto|].
    apply Forall_app. split; [assumption|]. constructor; [unfold before; lra|constructor].
Qed.

Definition gap_limit (o : opts RI) : R := 10001/10000 * (o_dtmax o / o_quot1 o).

(** A run from the state [a]: the times recorded since are [l]. *)
Record rrun (a s : state) (l : list R) : Prop := mkRR {
  rr_prob : same_problem a s;
  rr_ts : ts (i_sol s) = ts (i_sol a) ++ l;
  rr_sorted : StronglySorted (before (i_tdir a)) (i_t a :: l);
  rr_le : Forall (fun t => i_tdir a * t <= i_tdir a * i_t s) (i_t a :: l);
  rr_snoc : exists l', i_t a :: l = l' ++ [i_t s];
  rr_in : between (i_tdir a) (i_t a) (i_t s) (i_tfinal a);
  rr_success : rc (i_sol s) = RSuccess -> i_t s = i_tfinal a;
  rr_ready : rc (i_sol s) = RContinue -> ready s /\ (l = [] -> s = a) /\
     (l <> [] -> i_tdir a * i_dt s <= o_dtmax (i_opts a) / o_quot1 (i_opts a));
  rr_evs : exists tr, i_trace s = tr ++ i_trace a /\
     Forall (fun e => between (i_tdir a) (i_t a) (ev_time e) (i_tfinal a)) tr;
  rr_dtopt : i_tdir a = 1 -> 0 < dtopt (i_cache a) ->
     (rc (i_sol s) = RContinue -> 0 < dtopt (i_cache s)) /\ (rc (i_sol s) = RSuccess -> 0 < i_dt s);
  rr_gap1 : forall g, hd_error (gaps (i_t a :: l)) = Some g -> i_tdir a * g <= i_tdir a * radau_trial a;
  rr_gaps : i_tdir a = 1 -> Forall (fun g => g <= gap_limit (i_opts a)) (tl (gaps (i_t a :: l))) }.

Lemma rrun_start (a : state) : rc (i_sol a) = RContinue -> ready a ->
  between (i_tdir a) (i_t a) (i_t a) (i_tfinal a) -> rrun a a [].
Proof.
  intros Hrc Hr Hb. constructor; try assumption.
  - apply same_problem_refl.
  - now rewrite app_nil_r.
  - repeat constructor.
  - constructor; [lra|constructor].
  - exists []. reflexivity.
  - rewrite Hrc. discriminate.
  - split; [assumption|]. split; [reflexivity|]. intros []; reflexivity.
  - exists []. split; [reflexivity|constructor].
  - intros _ H. split; [intros _; exact H|]. rewrite Hrc. discriminate.
  - discriminate.
  - constructor.
Qed.

Lemma forward_trial (s : state) : i_tdir s = 1 -> 0 < i_dt s -> radau_trial s <= 10001/10000 * i_dt s.
Proof. intros Hd Hp. unfold radau_trial. rewrite Hd. destruct (Rle_dec _ _); rnorm; lra. Qed.
Lemma ready_dt (s : state) : ready s -> i_tdir s = 1 -> 0 < i_dt s.
Proof.
  intros [[_ _ _ _ F _ _ _]|(_ & _ & _ & _ & [(_ & H & _)|(H & _)])] Hd.
  - rewrite Hd in F. rnorm. lra.
  - assumption.
  - rewrite Hd in H. lra.
Qed.
Lemma ready_trial_pos (s : state) : ready s -> 0 < i_tdir s * radau_trial s.
Proof.
  intros H. apply clip_fits in H. destruct H. rewrite clip_is_trial in fi_dt0.
  destruct (clip_frame_R s) as (_ & _ & _ & E & _). now rewrite E in fi_dt0.
Qed.

Lemma rrun_step (a s s' : state) l fuel : rrun a s l -> rc (i_sol s) = RContinue ->
  radau_step fuel s = Ok s' -> exists l', rrun a s' l'.
Proof.
  intros [Ip Its Iso Ile (lp & Isn) Iin Isu Ird (tr & Itr & Iev) Ido Ig1 Ig] Hrc H.
  destruct (Ird Hrc) as (Hr & Hnil & Hdt).
  assert (rejf : reject (i_cache s) = false) by now apply ready_tidy.
  destruct Ip as (Ip1 & Ip2 & Ip3 & Ip4 & Ed & Ef & Eo).
  pose proof (ready_trial_pos s Hr) as Htp.
  pose proof (radau_step_cases _ _ _ rejf H) as Hc.
  apply radau_step_R in H; [|assumption]. destruct H as [[Sp St Stt Sf Si Ssh Scf Sev Sen Sdo]|[Lq Lcf Lev]].
  - exists (l ++ [i_t s']). rewrite Ed, Ef, Eo in *.
    destruct Iin as (Iin1 & Iin2).
    assert (i_tdir a * i_t s < i_tdir a * i_t s') as Hlt by (rewrite Stt; rnorm; lra).
    assert (Forall (fun t => i_tdir a * t <= i_tdir a * i_t s') (i_t a :: l ++ [i_t s'])) as Hle.
    { change (i_t a :: l ++ [i_t s']) with ((i_t a :: l) ++ [i_t s']). apply Forall_app. split.
      - eapply Forall_impl; [|exact Ile]. cbn. intros; lra.
      - constructor; [lra|constructor]. }
    assert (gaps (i_t a :: l ++ [i_t s']) = gaps (i_t a :: l) ++ [i_dtprev s']) as Hg.
    { change (i_t a :: l ++ [i_t s']) with ((i_t a :: l) ++ [i_t s']). rewrite Isn.
      change (num RI) with R. rewrite gaps_snoc. f_equal. f_equal. rewrite Stt. rnorm. lra. }
    destruct Ssh as (la & j & Es & Hla & Hst).
    assert (la <= 1) as Hla1.
    { assert (radau_sane (i_opts s)) as Hs by (destruct Hr as [[]|Hr]; [assumption|apply Hr]).
      pose proof (shrink_range inf _ Hs) as Hsh. rewrite Eo in Hsh.
      assert (radau_shrink (i_opts a) ^ j <= 1); [|lra]. rewrite <- (pow1 j). apply pow_incr. lra. }
    assert (i_tdir a * i_dtprev s' <= i_tdir a * radau_trial s) as Hgt.
    { rewrite Es. rnorm. nra. }
    constructor.
    + refine (same_problem_trans a s s' _ Sp). repeat split; assumption.
    + rewrite St, Its, app_assoc. reflexivity.
    + change (i_t a :: l ++ [i_t s']) with ((i_t a :: l) ++ [i_t s']).
      eapply sorted_before; eassumption.
    + exact Hle.
    + exists (i_t a :: l). reflexivity.
    + split; rnorm; lra.
    + intros E. destruct Sen as [(_ & E1)|(E1 & _)]; [exact E1|]. congruence.
    + intros E. destruct Sen as [(E1 & _)|(_ & Hf & Hn)]; [congruence|].
      split; [left; exact Hf|]. split; [intros E2; destruct l; discriminate|].
      intros _.
      assert (radau_sane (i_opts a)) as [_ Hs2 Hs3 Hs4 Hs5]
        by (rewrite <- Eo; destruct Hr as [[]|Hr]; [assumption|apply Hr]).
      destruct Hn as [(_ & Hn)|(_ & _ & Hn)]; [|exact Hn].
      eapply Rle_trans; [exact Hn|]. apply Rmult_le_compat_r; [left; apply Rinv_0_lt_compat; lra|].
      apply Rmin_r.
    + destruct Sev as (le & Hle1 & Hle2). exists (le ++ tr). rewrite Hle1, Itr, app_assoc.
      split; [reflexivity|]. apply Forall_app. split; [|assumption].
      eapply Forall_impl; [|exact Hle2]. cbn. unfold between. intros; rnorm; lra.
    + intros Hd1 Hd0. destruct (Ido Hd1 Hd0) as (Hdo & _). destruct (Sdo Hd1 (Hdo Hrc)) as (Sdo1 & Sdo2).
      split; [intros _; exact Sdo1|]. apply Sdo2. rewrite Hrc. discriminate.
    + rewrite Hg. destruct l as [|x l].
      * rewrite (Hnil eq_refl) in *. cbn. intros g E. injection E as <-. exact Hgt.
      * cbn. cbn in Ig1. exact Ig1.
    + intros Hd1. rewrite Hg. destruct l as [|x l]; [constructor|].
      change (gaps (i_t a :: x :: l)) with ((x - i_t a) :: gaps (x :: l)).
      cbn [app tl]. apply Forall_app. split; [exact (Ig Hd1)|]. constructor; [|constructor].
      pose proof (ready_dt s Hr ltac:(congruence)) as Hdp.
      pose proof (forward_trial s ltac:(congruence) Hdp) as Hft.
      specialize (Hdt ltac:(discriminate)). rewrite Hd1 in *. unfold gap_limit. rnorm. lra.
  - exists l.
    destruct (q_point _ _ Lq) as (_ & Et & _ & _ & Ets & _).
    assert (rc (i_sol s') <> RContinue /\ rc (i_sol s') <> RSuccess) as (Hn1 & Hn2).
    { destruct Hc as [Hc|Hc].
      - exfalso. pose proof (rse_ts _ _ Hc) as E. rewrite Ets in E.
        apply (f_equal (@length _)) in E. rewrite app_length in E. cbn in E. rlia.
      - split; [apply Hc|]. destruct (rsf_reason _ _ Hc Hrc) as [(E & _)|[(E & _)|(E & _)]]; rewrite E; discriminate. }
    constructor; try assumption.
    + eapply same_problem_trans; [|apply Lq]. repeat split; assumption.
    + now rewrite Ets.
    + now rewrite Et.
    + exists lp. now rewrite Et.
    + now rewrite Et.
    + contradiction.
    + contradiction.
    + destruct Lev as (le & Hle1 & Hle2). exists (le ++ tr). rewrite Hle1, Itr, app_assoc.
      split; [reflexivity|]. apply Forall_app. split; [|assumption].
      rewrite Ed, Ef in Hle2. destruct Iin as (Iin1 & Iin2).
      eapply Forall_impl; [|exact Hle2]. cbn. unfold between. intros; rnorm; lra.
    + intros _ _. split; intros E; congruence.
Qed.

Lemma rrun_reached (a s : state) fuel k : rc (i_sol a) = RContinue -> ready a ->
  between (i_tdir a) (i_t a) (i_t a) (i_tfinal a) -> reached alg None fuel k a s -> exists l, rrun a s l.
Proof.
  intros Hrc Hr Hb H.
  refine (reached_invariant alg None fuel (fun x : state => exists l, rrun a x l) _ k a s H Hrc _).
  - intros s1 s2 r (l & Hi) H1 H2. apply step_radau_inv in H2 as (s3 & H2 & ->). cbn [run_callback].
    eapply rrun_step; eassumption.
  - exists []. now apply rrun_start.
Qed.
End RadauTime.
