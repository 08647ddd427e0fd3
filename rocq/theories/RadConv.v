(** Radau5 runs converge. *)
From Coq Require Import Reals List Lia Lra Arith Bool.
From RecordUpdate Require Import RecordSet.
From Verif Require Import Arith Vec Core Driver Radau RadauInv Spec SpecRK SpecODE SpecLin SpecRadau SpecReach SpecStage SpecIRK SpecConv ArithR
  RKFacts DP5RK RadauHist  RadauEx RadauRForms RadauRef RadRefDet BigO ConvGlobal ConvDP5 RadConvLocal RadConvRun.
Import ListNotations RecordSetNotations.
Local Open Scope R_scope.

Lemma continues_last {A P} (al : algorithm A P) cb fuel k s s2 : continues al cb fuel (S k) s s2 ->
  exists s1 r, continues al cb fuel k s s1 /\ step al cb fuel s1 = Ok (s2, Some r).
Proof.
  revert s. induction k as [|k IH]; intros s H; inversion H; subst.
  - match goal with Hc : continues _ _ _ 0 _ _ |- _ => inversion Hc; subst end.
    do 2 eexists. split; [constructor|eassumption].
  - match goal with Hc : continues _ _ _ (S k) ?s1 _ |- _ => destruct (IH s1 Hc) as (s3 & r3 & G1 & G2) end.
    exists s3, r3. split; [|exact G2]. econstructor; eassumption.
Qed.
Lemma continues_reached {A P} (al : algorithm A P) cb fuel k s s2 : continues al cb fuel k s s2 -> reached al cb fuel k s s2.
Proof.
  destruct k as [|k]; intros H; [inversion H; subst; constructor|].
  destruct (continues_last _ _ _ _ _ _ H) as (s1 & r & H1 & H2). econstructor; eassumption.
Qed.
Lemma gaps_app (l1 l2 : list R) x : In x (gaps l1) -> In x (gaps (l1 ++ l2)).
Proof.
  induction l1 as [|a l1 IH]; [intros []|]. destruct l1 as [|c l1]; [intros []|].
  cbn [app gaps] in *. intros [H|H]; [now left|right; now apply IH].
Qed.

(** ** A majorant of the error *)
Section Majorant.
Context (L B M C2 H d t0 tf : R) (HL : 0 <= L) (HB : 0 <= B) (HM : 0 <= M) (HC : 0 <= C2) (HH : 0 < H <= 1) (Hd : 0 <= d).
Definition rate : R := 6 * L + C2 + M + B + 1.
Definition major (t : R) : R := (H + d) * (exp (rate * (t - t0)) - 1).
Lemma rate_pos : 1 <= rate.
Proof. unfold rate. lra. Qed.
Lemma exp_ge x : 0 <= x -> 1 + x <= exp x.
Proof. intros [Hx| <-]; [left; apply exp_ineq1; lra|rewrite exp_0; lra]. Qed.
Lemma major_0 t : t0 <= t -> 0 <= major t.
Proof.
  intros Ht. pose proof rate_pos. unfold major. apply Rmult_le_pos; [lra|].
  assert (0 <= rate * (t - t0)) by (apply Rmult_le_pos; lra). pose proof (exp_ge _ H1). lra.
Qed.
Lemma major_mono s t : t0 <= s -> s <= t -> major s <= major t.
Proof.
  intros Hs Ht. pose proof rate_pos. unfold major. apply Rmult_le_compat_l; [lra|].
  assert (rate * (s - t0) <= rate * (t - t0)) as [Hx| ->] by (apply Rmult_le_compat_l; lra); [|lra].
  pose proof (exp_increasing _ _ Hx). lra.
Qed.
Lemma major_step t h : t0 <= t -> 0 < h <= H ->
  major t + h * (d * M + 6 * L * major t + C2 * (h * (1 + major t))) + B * h ^ 2 <= major (t + h).
Proof.
  intros Ht Hh. pose proof rate_pos as HR. pose proof (major_0 t Ht) as HE.
  assert (major (t + h) = major t + (major t + (H + d)) * (exp (rate * h) - 1)) as E.
  { unfold major. replace (rate * (t + h - t0)) with (rate * (t - t0) + rate * h) by ring. rewrite exp_plus. ring. }
  rewrite E. assert (0 <= rate * h) as Hrh by (apply Rmult_le_pos; lra). pose proof (exp_ge _ Hrh) as He.
  set (e := major t) in *. clearbody e.
  assert ((e + (H + d)) * (rate * h) <= (e + (H + d)) * (exp (rate * h) - 1)) as H1 by (apply Rmult_le_compat_l; lra).
  assert (h * (d * M + 6 * L * e + C2 * (h * (1 + e))) + B * h ^ 2 <= h * ((e + (H + d)) * rate)) as H2; [|lra].
  replace (h * (d * M + 6 * L * e + C2 * (h * (1 + e))) + B * h ^ 2) with (h * (d * M + 6 * L * e + C2 * (h * (1 + e)) + B * h)) by ring.
  apply Rmult_le_compat_l; [lra|].
  assert (C2 * (h * (1 + e)) <= C2 * (H + e)) as H3.
  { apply Rmult_le_compat_l; [exact HC|]. assert (h * e <= 1 * e) by (apply Rmult_le_compat_r; lra). lra. }
  assert (B * h <= B * H) as H4 by (apply Rmult_le_compat_l; lra).
  unfold rate.
  assert (0 <= L * (H + d) /\ 0 <= C2 * d /\ 0 <= M * H /\ 0 <= M * e /\ 0 <= B * d /\ 0 <= B * e) as (?&?&?&?&?&?).
  { repeat split; apply Rmult_le_pos; lra. }
  lra.
Qed.
End Majorant.

Section Bound.
Context {P : Type} {inf : R} (b : builder (RA inf) P).
Notation n := (length (b_u b)).
Notation F := (ode (b_dudt b) (b_params b)).
Notation Jac := (the_jacobian (b_dudt b) (b_dfdu b) (b_params b)).
Notation o := (b_opts b).
Notation tf := (b_tfinal b).
Notation t0 := (b_t b).
Notation alg := (@Radau5 (RA inf) P).
Notation state := (integ (RA inf) P (radau_cache (RA inf))).
Notation start := (rad_start Jac (b_t b) (b_u b) (b_dt b)).
Hypothesis How : overwrites (b_dudt b).
Hypothesis Hgj : jac_overwrites (b_dfdu b).
Hypothesis Hu0 : b_u b <> [].
Hypothesis Hr : 0 < o_reltol o.
Hypothesis Ha : 0 < o_abstol o.
Hypothesis Hsane : radau_sane o.
Hypothesis Hblind : forall h t u, 0 < h -> length u = n -> ~ blind n h (Jac t u).
Hypothesis Hdt : 0 < b_dt b.
Hypothesis Ht : t0 < tf.
Context (y : R -> list R) (L B M BJ : R).
Hypothesis Hy0 : b_u b = y t0.
Hypothesis HL0 : 0 <= L.
Hypothesis HB0 : 0 <= B.
Hypothesis HM0 : 0 <= M.
Hypothesis HBJ : 0 <= BJ.
Hypothesis Hlen : forall t, length (y t) = n.
Hypothesis Hsol : forall i t, (i < n)%nat -> t0 <= t <= tf ->
    derivable_pt_lim (fun s => comp (y s) i) t (comp (F t (y t)) i).
Hypothesis Hslope : forall s t, t0 <= s <= tf -> t0 <= t <= tf ->
    close n (B * Rabs (s - t)) (F s (y s)) (F t (y t)).
Hypothesis Hlip : forall t u v d,
    t0 <= t <= tf -> length u = n -> length v = n -> close n d u v -> close n (L * d) (F t u) (F t v).
Hypothesis HM : forall t i, t0 <= t <= tf -> (i < n)%nat -> Rabs (comp (F t (y t)) i) <= M.
Hypothesis HJac : forall t u, t0 <= t <= tf -> length u = n -> jac_small n BJ (Jac t u).

Notation A := (cst_A n o L B M BJ).
Notation C2 := (cst_2 n L B M BJ A).
Notation Cd := (cst_d n L B M BJ A).
Context (H : R).
Notation E := (major L B M C2 H (/ 10 ^ 16) t0).
Hypothesis HH : 0 < H.
Hypothesis HS1 : 10001/10000 * H <= 1.
Hypothesis HS2 : A * (10001/10000 * H) <= 1.
Hypothesis HS3 : 10001/10000 * H * (INR n * BJ) <= / 2.
Hypothesis HN : 99 * (Cd * (10001/10000 * H * (1 + E tf)) / atol o) <= newton_tol o.

Lemma n_pos : (0 < n)%nat.
Proof. destruct (b_u b); [contradiction|cbn; lia]. Qed.
Lemma rtol_pos : 0 < rtol o.
Proof. unfold rtol, radau_rtol. assert (0 < Rpower (o_reltol o) (2 / 3)) by apply exp_pos. lra. Qed.
Lemma atol_pos : 0 < atol o.
Proof. unfold atol, radau_atol. apply Rmult_lt_0_compat; [exact rtol_pos|]. now apply Rdiv_lt_0_compat. Qed.
Lemma C2_pos : 0 <= C2.
Proof.
  pose proof (cst_A_w n o L B M BJ HL0 HB0 HM0 HBJ) as HA. pose proof (Cw_pos n L B M BJ HL0 HB0 HM0 HBJ) as Hw.
  unfold cst_2, cst_d. pose proof (pos_INR n) as Hn.
  assert (0 <= L * A) by (apply Rmult_le_pos; lra). assert (0 <= L * M) by (apply Rmult_le_pos; lra).
  assert (0 <= INR n * A) by (apply Rmult_le_pos; lra).
  assert (0 <= BJ * (cst_w n L B M BJ + 3 * INR n * A)) by (apply Rmult_le_pos; lra). lra.
Qed.
Lemma start_btw : btw n o t0 tf y L B M BJ H E start.
Proof.
  constructor; cbn; try lra; try discriminate; try reflexivity.
  - intros i Hi. replace (comp (b_u b) i - comp (y t0) i) with 0 by (rewrite <- Hy0; ring); rewrite Rabs_R0. apply major_0; try assumption; try lra; exact C2_pos.
  - apply HJac; [lra|reflexivity].
  - intros C. now destruct C.
Qed.

Definition good (s : state) : Prop :=
  (exists l, ts (i_sol s) = l ++ [i_t s]) /\ length (ts (i_sol s)) = length (us (i_sol s)) /\
  (forall t u, In (t, u) (points s) -> close n (E tf + H * M) u (y t)) /\ Forall (fun g => g <= H) (gaps (ts (i_sol s))).
Lemma delta_pos : 0 <= / 10 ^ 16.
Proof. left. apply Rinv_0_lt_compat. apply pow_lt. lra. Qed.

Lemma next_good fuel k (s0 s s' : state) r : build alg b = Ok s0 -> continues alg None fuel k s0 s ->
  step alg None fuel s = Ok (s', r) -> Forall (fun g => g <= H) (gaps (ts (i_sol s'))) ->
  (Forall (fun g => g <= H) (gaps (ts (i_sol s))) -> good s /\
   exists x, rad_run n F Jac o tf k start x /\ rad_shows s x /\ btw n o t0 tf y L B M BJ H E x) ->
  (forall t u, In (t, u) (points s') -> close n (E tf + H * M) u (y t)) /\
  (rc (i_sol s') = RContinue -> good s' /\ exists x', rad_run n F Jac o tf (S k) start x' /\ rad_shows s' x' /\ btw n o t0 tf y L B M BJ H E x').
Proof.
  intros Hb Hc Hs Hg HI.
  destruct (radau_reference inf b How Hgj Hu0 Hr Ha Hsane Hblind fuel (S k) s0 s' Hdt Ht Hb) as (x' & Hx' & Hsh); [econstructor; eassumption|].
  destruct (radau_call_outcome b fuel k s0 s s' r Hb Hc Hs) as [(O1 & O2 & O3 & O4 & O5)|(O1 & O2 & O3 & O4 & O5 & O6)].
  - assert (Forall (fun g => g <= H) (gaps (ts (i_sol s)))) as Hg0.
    { rewrite Forall_forall in *. intros g Hin. apply Hg. rewrite O2. now apply gaps_app. }
    destruct (HI Hg0) as (((l & G1) & G2 & G3 & G4) & x & Hx & Hshx & W).
    inversion Hx' as [|k' x0 x1 x2 Hx1 Hcx1 Hst]; subst.
    assert (x = x1) as <- by (eapply rad_run_det; [exact Hx|apply start_sound|exact Hx1]).
    assert (p_t x' - p_t x <= H) as Hgap.
    { destruct Hsh as (<- & _), Hshx as (<- & _). rewrite Forall_forall in Hg. apply Hg. rewrite O2, G1, <- app_assoc. apply gaps_linked. }
    destruct (step_fine n F Jac o t0 tf y L B M BJ HL0 HB0 HM0 HBJ Hlen Hsol Hslope Hlip HM HJac n_pos Hsane atol_pos (Rlt_le _ _ rtol_pos)
      H E HH HS1 HS2 HS3) with (x := x) (x' := x') as (F1 & F2 & F3); try assumption.
    { intros t Htt. apply major_0; try assumption; try lra; exact C2_pos. }
    { intros t t' H1 H2. apply major_mono; try assumption; try lra; exact C2_pos. }
    { intros t h H1 H2 H3. apply major_step; try assumption; try lra; exact C2_pos. }
    assert (points s' = points s ++ [(i_t s', i_u s')]) as Ep.
    { unfold points. rewrite O2, O3. now apply combine_snoc. }
    assert (forall t u, In (t, u) (points s') -> close n (E tf + H * M) u (y t)) as Hall.
    { intros t u Hin. rewrite Ep in Hin. apply in_app_or in Hin as [Hin|[[= <- <-]|[]]]; [now apply G3|].
      pose proof Hsh as (St & Su & _). rewrite St, Su. apply (close_le n (E (p_t x') + H * M)); [|exact F2].
      apply Rplus_le_compat_r. apply major_mono; try assumption; try lra; exact C2_pos. }
    split; [exact Hall|]. intros Hrc. split.
    + split; [now exists (ts (i_sol s))|]. split; [|split; [exact Hall|exact Hg]].
      rewrite O2, O3, !app_length, G2. reflexivity.
    + exists x'. split; [exact Hx'|]. split; [exact Hsh|]. apply F1. pose proof Hsh as (_ & _ & _ & _ & Sc). now rewrite <- Sc.
  - rewrite O2 in Hg. destruct (HI Hg) as ((_ & _ & G3 & _) & _).
    split; [|intros E0; destruct O1 as [O1|[O1|O1]]; rewrite O1 in E0; discriminate E0].
    unfold points in *. rewrite O2, O3. exact G3.
Qed.
Lemma continues_good fuel k : forall (s0 s : state), build alg b = Ok s0 -> continues alg None fuel k s0 s ->
  Forall (fun g => g <= H) (gaps (ts (i_sol s))) -> good s /\
  exists x, rad_run n F Jac o tf k start x /\ rad_shows s x /\ btw n o t0 tf y L B M BJ H E x.
Proof.
  induction k as [|k IH]; intros s0 s Hb Hc Hg.
  - inversion Hc; subst.
    destruct (radau_reference inf b How Hgj Hu0 Hr Ha Hsane Hblind fuel 0 s s Hdt Ht Hb) as (x & Hx & Hsh); [constructor|].
    inversion Hx; subst. split.
    + apply radau_build_inv in Hb. destruct Hsh as (St & _). unfold good, points.
      assert (ts (i_sol s) = [t0]) as Ets by (rewrite (rb_sol _ _ Hb); reflexivity).
      assert (us (i_sol s) = [b_u b]) as Eus by (rewrite (rb_sol _ _ Hb); reflexivity).
      rewrite St, Ets, Eus. cbn [p_t rad_start combine length gaps].
      split; [now exists []|]. split; [reflexivity|]. split; [|constructor].
      intros t u [[= <- <-]|[]]. apply (close_le n (E t0)); [|exact (w_close _ _ _ _ _ _ _ _ _ _ _ _ start_btw)].
      assert (E t0 <= E tf) by (apply major_mono; try assumption; try lra; exact C2_pos).
      assert (0 <= H * M) by (apply Rmult_le_pos; lra). lra.
    + eexists. split; [constructor|]. split; [exact Hsh|exact start_btw].
  - destruct (continues_last _ _ _ _ _ _ Hc) as (s1 & r & Hc1 & Hs1).
    destruct (next_good fuel k s0 s1 s (Some r) Hb Hc1 Hs1 Hg (IH s0 s1 Hb Hc1)) as (_ & G).
    apply G. exact (step_some_rc _ _ _ _ _ _ Hs1).
Qed.
Lemma reached_close fuel k (s0 s : state) : build alg b = Ok s0 -> reached alg None fuel k s0 s ->
  Forall (fun g => g <= H) (gaps (ts (i_sol s))) -> forall t u, In (t, u) (points s) -> close n (E tf + H * M) u (y t).
Proof.
  intros Hb Hre Hg. inversion Hre as [|k' s' s1 s2 r Hc Hs]; subst.
  - destruct (continues_good fuel 0 s s Hb ltac:(constructor) Hg) as ((_ & _ & G & _) & _). exact G.
  - destruct (next_good fuel k' s0 s1 s r Hb Hc Hs Hg (continues_good fuel k' s0 s1 Hb Hc)) as (G & _). exact G.
Qed.
End Bound.

(** ** The problem and the options come first *)
Section Final.
Context {P : Type} {inf : R}.
Notation RI := (RA inf).
Notation state := (integ RI P (radau_cache RI)).
Notation alg := (@Radau5 RI P).

Lemma close_wide n L d u v : (0 < n)%nat -> close n d u v -> L * d <= Rmax L 0 * d.
Proof.
  intros Hn Hc. pose proof (Hc 0%nat Hn) as H0. pose proof (Rabs_pos (comp u 0 - comp v 0)). apply Rmult_le_compat_r; [lra|apply Rmax_l].
Qed.
Lemma slope_bound n (F : R -> list R -> list R) (y : R -> list R) t0 tf B : 0 <= B -> t0 <= tf ->
  (forall s t, t0 <= s <= tf -> t0 <= t <= tf -> close n (B * Rabs (s - t)) (F s (y s)) (F t (y t))) ->
  exists M, 0 <= M /\ forall t i, t0 <= t <= tf -> (i < n)%nat -> Rabs (comp (F t (y t)) i) <= M.
Proof.
  intros HB Ht Hs. exists (rsum n (fun i => Rabs (comp (F t0 (y t0)) i)) + B * (tf - t0)).
  assert (forall i, (i < n)%nat -> Rabs (comp (F t0 (y t0)) i) <= rsum n (fun i => Rabs (comp (F t0 (y t0)) i))) as Hi.
  { intros i Hi. apply (rsum_term n (fun i => Rabs (comp (F t0 (y t0)) i)) i); [exact Hi|intros j _; apply Rabs_pos]. }
  assert (0 <= B * (tf - t0)) by (apply Rmult_le_pos; lra).
  split.
  - destruct n as [|n]; [cbn; lra|]. pose proof (Hi 0%nat ltac:(lia)). pose proof (Rabs_pos (comp (F t0 (y t0)) 0)). lra.
  - intros t i Htt Hin. pose proof (Hs t t0 Htt ltac:(lra) i Hin) as Hc. pose proof (Hi i Hin) as H1.
    rewrite (Rabs_pos_eq (t - t0)) in Hc by lra.
    assert (B * (t - t0) <= B * (tf - t0)) by (apply Rmult_le_compat_l; lra).
    replace (comp (F t (y t)) i) with ((comp (F t (y t)) i - comp (F t0 (y t0)) i) + comp (F t0 (y t0)) i) by ring.
    eapply Rle_trans; [apply Rabs_triang|]. lra.
Qed.
Lemma newton_tol_pos (o : opts RI) : 0 < newton_tol o.
Proof.
  unfold newton_tol. destruct (Rle_dec _ _) as [_|Hn]; [|lra].
  eapply Rlt_le_trans; [|apply Rmax_r]. apply Rmin_glb_lt; [lra|]. apply sqrt_lt_R0.
  unfold rtol, radau_rtol. assert (0 < Rpower (o_reltol o) (2 / 3)) by apply exp_pos. lra.
Qed.

Lemma radau_converges (f : rhs RI P) (g : option (jac RI P)) (p : P) n t0 tf y (o : opts RI) :
  overwrites f -> jac_overwrites g -> lipschitz_problem n (ode f p) t0 tf y ->
  jacobian_bounded n (the_jacobian f g p) t0 tf ->
  (forall h t u, 0 < h -> length u = n -> ~ blind n h (the_jacobian f g p t u)) ->
  0 < o_reltol o -> 0 < o_abstol o -> radau_sane o -> t0 < tf ->
  exists K H0, 0 <= K /\ 0 < H0 /\
  forall (b : builder RI P) dtm fuel k (s0 s : state) H,
  b_dudt b = f -> b_dfdu b = g -> b_params b = p -> b_t b = t0 -> b_tfinal b = tf -> b_u b = y t0 -> b_u b <> [] ->
  b_opts b = o <| o_dtmax := dtm |> -> 0 < dtm -> 0 < b_dt b ->
  build alg b = Ok s0 -> reached alg None fuel k s0 s ->
  0 < H <= H0 -> Forall (fun g => g <= H) (gaps (ts (i_sol s))) ->
  forall t u, In (t, u) (points s) -> close n (K * (H + / 10 ^ 16)) u (y t).
Proof.
  intros Hf Hg [P1 P2 (B0 & P3) (L0 & P4)] (BJ0 & HJ) Hbl Hr Ha Hs Ht.
  destruct n as [|n'].
  { exists 0, 1. split; [lra|]. split; [lra|]. intros b dtm fuel k s0 s H _ _ _ _ _ Eu Hne.
    exfalso. apply Hne. rewrite Eu. apply length_zero_iff_nil. apply P1. }
  set (n := S n') in *. assert (0 < n)%nat as Hn by (unfold n; lia).
  set (L := Rmax L0 0). set (B := Rmax B0 0). set (BJ := Rmax BJ0 0).
  assert (0 <= L /\ 0 <= B /\ 0 <= BJ) as (HL & HB & HBJ) by (repeat split; apply Rmax_r).
  assert (forall s t, t0 <= s <= tf -> t0 <= t <= tf -> close n (B * Rabs (s - t)) (ode f p s (y s)) (ode f p t (y t))) as P3'.
  { intros a c Ha1 Hc1. apply (close_le n (B0 * Rabs (a - c))); [|now apply P3]. apply Rmult_le_compat_r; [apply Rabs_pos|apply Rmax_l]. }
  assert (forall t u v d, t0 <= t <= tf -> length u = n -> length v = n -> close n d u v -> close n (L * d) (ode f p t u) (ode f p t v)) as P4'.
  { intros t u v d H1 H2 H3 H4. apply (close_le n (L0 * d)); [eapply close_wide; eassumption|now apply P4]. }
  assert (forall t u, t0 <= t <= tf -> length u = n -> jac_small n BJ (the_jacobian f g p t u)) as HJ'.
  { intros t u H1 H2 i j Hi Hj. eapply Rle_trans; [now apply HJ|apply Rmax_l]. }
  destruct (slope_bound n (ode f p) y t0 tf B HB ltac:(lra) P3') as (M & HM0 & HM).
  set (A := cst_A n o L B M BJ). set (C2 := cst_2 n L B M BJ A). set (Cd := cst_d n L B M BJ A).
  assert (cst_w n L B M BJ <= A) as HA by (now apply cst_A_w). assert (0 <= cst_w n L B M BJ) as Hw by (now apply Cw_pos).
  pose proof (pos_INR n) as Hni.
  assert (0 <= Cd) as HCd. { unfold Cd, cst_d. assert (0 <= INR n * A) by (apply Rmult_le_pos; lra). lra. }
  assert (0 <= C2) as HC2.
  { unfold C2, cst_2. fold Cd. assert (0 <= L * A) by (apply Rmult_le_pos; lra). assert (0 <= L * M) by (apply Rmult_le_pos; lra).
    assert (0 <= BJ * Cd) by (apply Rmult_le_pos; lra). lra. }
  set (X := exp (rate L B M C2 * (tf - t0))).
  assert (1 <= X) as HX.
  { unfold X. assert (0 <= rate L B M C2 * (tf - t0)) as H1 by (apply Rmult_le_pos; unfold rate; lra). pose proof (exp_ge _ H1). lra. }
  pose proof (newton_tol_pos o) as Hnt.
  assert (0 < rtol o) as Hrt. { unfold rtol, radau_rtol. assert (0 < Rpower (o_reltol o) (2 / 3)) by apply exp_pos. lra. }
  assert (0 < atol o) as Hat. { unfold atol, radau_atol. apply Rmult_lt_0_compat; [exact Hrt|]. now apply Rdiv_lt_0_compat. }
  assert (0 <= INR n * BJ) as HnB by (now apply Rmult_le_pos).
  set (q1 := / (2 * (A + 1))). set (q2 := / (4 * (INR n * BJ + 1))). set (q3 := newton_tol o * atol o / (200 * (Cd + 1) * X)).
  assert (0 < q1) as Hq1 by (apply Rinv_0_lt_compat; lra). assert (0 < q2) as Hq2 by (apply Rinv_0_lt_compat; lra).
  assert (0 < 200 * (Cd + 1) * X) as HCX by (apply Rmult_lt_0_compat; lra).
  assert (0 < q3) as Hq3 by (apply Rdiv_lt_0_compat; [now apply Rmult_lt_0_compat|exact HCX]).
  exists (X + M), (Rmin (Rmin (/2) q1) (Rmin q2 q3)). split; [lra|]. split; [repeat apply Rmin_pos; lra|].
  intros b dtm fuel k s0 s H Ef Eg Ep Et Etf Eu Hne Eo Hdtm Hdt Hb Hre HH Hgaps.
  assert (H <= /2 /\ H <= q1 /\ H <= q2 /\ H <= q3) as (H1 & H2 & H3 & H4).
  { pose proof (Rmin_l (Rmin (/2) q1) (Rmin q2 q3)). pose proof (Rmin_r (Rmin (/2) q1) (Rmin q2 q3)).
    pose proof (Rmin_l (/2) q1). pose proof (Rmin_r (/2) q1). pose proof (Rmin_l q2 q3). pose proof (Rmin_r q2 q3). lra. }
  assert (length (b_u b) = n) as En by (rewrite Eu; apply P1).
  assert (0 < / 10 ^ 16 <= 1) as Hd by lra.
  assert (major L B M C2 H (/ 10 ^ 16) t0 tf = (H + / 10 ^ 16) * (X - 1)) as EE by reflexivity.
  intros t u Hin.
  apply (close_le n (major L B M C2 H (/ 10 ^ 16) t0 tf + H * M)).
  { rewrite EE. assert (0 <= / 10 ^ 16 * M) by (apply Rmult_le_pos; lra). lra. }
  clear HJ P3 P4. revert t u Hin. rewrite <- Ef, <- Eg, <- Ep in *.
  destruct Hs as [Hs1 Hs2 Hs3 Hs4 Hs5].
  pose proof (reached_close b) as G.
  rewrite En, Eo, Et, Etf in G.
  refine (G Hf Hg Hne Hr Ha _ Hbl Hdt Ht y L B M BJ Eu HL HB HM0 HBJ P1 P2 P3' P4' HM HJ' H _ _ _ _ _ fuel k s0 s Hb Hre Hgaps).
  - constructor; assumption.
  - lra.
  - lra.
  - change (cst_A n (o <| o_dtmax := dtm |>) L B M BJ) with A.
    apply Rle_trans with (A * (10001/10000 * q1)); [apply Rmult_le_compat_l; lra|].
    unfold q1. apply Rmult_le_reg_r with (2 * (A + 1)); [lra|].
    replace (A * (10001 / 10000 * / (2 * (A + 1))) * (2 * (A + 1))) with (A * (10001/10000)) by (field; lra). lra.
  - apply Rle_trans with (10001/10000 * q2 * (INR n * BJ)); [apply Rmult_le_compat_r; lra|].
    unfold q2. apply Rmult_le_reg_r with (4 * (INR n * BJ + 1)); [lra|].
    replace (10001 / 10000 * / (4 * (INR n * BJ + 1)) * (INR n * BJ) * (4 * (INR n * BJ + 1))) with (10001/10000 * (INR n * BJ)) by (field; lra). lra.
  - change (cst_A n (o <| o_dtmax := dtm |>) L B M BJ) with A. fold C2 Cd.
    change (atol (o <| o_dtmax := dtm |>)) with (atol o). change (newton_tol (o <| o_dtmax := dtm |>)) with (newton_tol o).
    rewrite EE.
    assert (1 + (H + / 10 ^ 16) * (X - 1) <= 2 * X) as HE.
    { assert ((H + / 10 ^ 16) * (X - 1) <= 1 * (X - 1)) by (apply Rmult_le_compat_r; lra). lra. }
    assert (0 <= 1 + (H + / 10 ^ 16) * (X - 1)) as HE0.
    { assert (0 <= (H + / 10 ^ 16) * (X - 1)) by (apply Rmult_le_pos; lra). lra. }
    set (Y := 1 + (H + / 10 ^ 16) * (X - 1)) in *.
    apply Rmult_le_reg_r with (atol o); [exact Hat|].
    replace (99 * (Cd * (10001 / 10000 * H * Y) / atol o) * atol o) with (99 * (10001/10000) * (Cd * (H * Y))) by (field; lra).
    apply Rle_trans with (q3 * (200 * (Cd + 1) * X)); [|right; unfold q3; field; lra].
    assert (Cd * (H * Y) <= (Cd + 1) * (q3 * (2 * X))) as H5.
    { apply Rmult_le_compat; try lra; [apply Rmult_le_pos; lra|]. apply Rmult_le_compat; lra. }
    replace (q3 * (200 * (Cd + 1) * X)) with (100 * ((Cd + 1) * (q3 * (2 * X)))) by ring.
    assert (0 <= Cd * (H * Y)) by (apply Rmult_le_pos; [lra|apply Rmult_le_pos; lra]). lra.
Qed.

Lemma radau_dtmax_controls_error (f : rhs RI P) (g : option (jac RI P)) (p : P) n t0 tf y (o : opts RI) :
  overwrites f -> jac_overwrites g -> lipschitz_problem n (ode f p) t0 tf y ->
  jacobian_bounded n (the_jacobian f g p) t0 tf ->
  (forall h t u, 0 < h -> length u = n -> ~ blind n h (the_jacobian f g p t u)) ->
  0 < o_reltol o -> 0 < o_abstol o -> radau_sane o -> t0 < tf ->
  exists K, forall eps, 0 < eps -> exists dt0, 0 < dt0 /\
  forall (b : builder RI P) dtm fuel k (s0 s : state),
  b_dudt b = f -> b_dfdu b = g -> b_params b = p -> b_t b = t0 -> b_tfinal b = tf -> b_u b = y t0 -> b_u b <> [] ->
  b_opts b = o <| o_dtmax := dtm |> -> 0 < dtm <= dt0 -> 0 < b_dt b <= dt0 ->
  build alg b = Ok s0 -> reached alg None fuel k s0 s ->
  forall t u, In (t, u) (points s) -> close n (eps + K / 10 ^ 16) u (y t).
Proof.
  intros Hf Hg Hp Hj Hbl Hr Ha Hs Ht.
  destruct (radau_converges f g p n t0 tf y o Hf Hg Hp Hj Hbl Hr Ha Hs Ht) as (K & H0 & HK & HH0 & G).
  exists K. intros eps He. pose proof Hs as [Hs1 Hs2 Hs3 Hs4 Hs5].
  set (H := Rmin H0 (eps / (K + 1))).
  assert (0 < eps / (K + 1)) as Hek by (apply Rdiv_lt_0_compat; lra).
  assert (0 < H) as HH by (apply Rmin_pos; lra). pose proof (Rmin_l H0 (eps / (K + 1))) as HH1. pose proof (Rmin_r H0 (eps / (K + 1))) as HH2. fold H in HH1, HH2.
  set (c := H / (10001/10000)). assert (0 < c) as Hc by (apply Rdiv_lt_0_compat; lra).
  assert (c * o_quot1 o <= c * 1) as Hcq by (apply Rmult_le_compat_l; lra).
  exists (c * o_quot1 o). split; [apply Rmult_lt_0_compat; lra|].
  intros b dtm fuel k s0 s Ef Eg Ep Et Etf Eu Hne Eo Hdtm Hdt Hb Hre t u Hin.
  assert (radau_sane (b_opts b)) as Hsb by (rewrite Eo; constructor; cbn; try assumption; lra).
  assert (b_t b < b_tfinal b) as Hlt' by (now rewrite Et, Etf).
  destruct (fwd_dtmax inf b Hsb (proj1 Hdt) Hlt' fuel k s0 s Hb Hre) as (G1 & G2).
  assert (Forall (fun g => g <= H) (gaps (ts (i_sol s)))) as Hgaps.
  { assert (10001/10000 * c = H) as Ec by (unfold c; field).
    destruct (gaps (ts (i_sol s))) as [|g0 gs]; [constructor|]. cbn [tl hd_error] in *.
    constructor; [specialize (G2 g0 eq_refl); lra|].
    eapply Forall_impl; [|exact G1]. intros g1 Hg1. cbv beta in Hg1. rewrite Eo in Hg1. cbn in Hg1.
    assert (dtm / o_quot1 o <= c).
    { apply Rmult_le_reg_r with (o_quot1 o); [lra|]. unfold Rdiv. rewrite Rmult_assoc, Rinv_l by lra. lra. }
    lra. }
  apply (close_le n (K * (H + / 10 ^ 16))).
  - assert (K * H <= eps).
    { apply Rle_trans with ((K + 1) * (eps / (K + 1))); [|right; field; lra]. apply Rmult_le_compat; lra. }
    unfold Rdiv. lra.
  - eapply (G b dtm fuel k s0 s H); try eassumption; lra.
Qed.
End Final.
