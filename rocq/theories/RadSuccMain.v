(** Radau5 integrations with small steps succeed. *)
From Coq Require Import Reals List Lia Lra Arith Bool ZArith.
From RecordUpdate Require Import RecordSet.
From Verif Require Import Arith Vec Core Driver Radau RadauInv Spec SpecRK SpecODE SpecLin SpecRadau SpecReach SpecStage SpecIRK SpecConv ArithR
  RKFacts DP5RK RadauHist RadauEx RadauRForms RadauLinEx RadauRef RadRefDet BigO ConvGlobal ConvDP5 RadConvLocal RadConvRun RadConv RadConvEx RadSucc.
Import ListNotations RecordSetNotations.
Local Open Scope R_scope.

Lemma last_in_combine {X Y} (a : list X) (c : list Y) x y :
  last_opt a = Some x -> last_opt c = Some y -> length a = length c -> In (x, y) (combine a c).
Proof.
  unfold last_opt. intros Ha Hc Hl. rewrite <- Hl in Hc. set (i := (length a - 1)%nat) in *. clearbody i.
  revert c i Ha Hc Hl. induction a as [|a0 a IH]; intros [|c0 c] i Ha Hc Hl; try discriminate; [destruct i; discriminate|].
  destruct i; cbn in *; [left; congruence|right; apply (IH c i); congruence].
Qed.

Section Bound.
Context {P : Type} {inf : R} (b : builder (RA inf) P).
Notation n := (length (b_u b)).
Notation F := (ode (b_dudt b) (b_params b)).
Notation Jac := (the_jacobian (b_dudt b) (b_dfdu b) (b_params b)).
Notation o := (b_opts b).
Notation tf := (b_tfinal b).
Notation t0 := (b_t b).
Notation alg := (@Radau5 (RA inf) P).
Notation state := (integ (RA inf) P (radau_cache (RA inf))).
Notation start := (rad_start Jac (b_t b) (b_u b) (b_dt b)).
Hypothesis How : overwrites (b_dudt b).
Hypothesis Hgj : jac_overwrites (b_dfdu b).
Hypothesis Hu0 : b_u b <> [].
Hypothesis Hr : 0 < o_reltol o.
Hypothesis Ha : 0 < o_abstol o.
Hypothesis Hsane : radau_sane o.
Hypothesis Hblind : forall h t u, 0 < h -> length u = n -> ~ blind n h (Jac t u).
Hypothesis Hdt : 0 < b_dt b.
Hypothesis Ht : t0 < tf.
Context (y : R -> list R) (L B M BJ : R).
Hypothesis Hy0 : b_u b = y t0.
Hypothesis HL0 : 0 <= L.
Hypothesis HB0 : 0 <= B.
Hypothesis HM0 : 0 <= M.
Hypothesis HBJ : 0 <= BJ.
Hypothesis Hlen : forall t, length (y t) = n.
Hypothesis Hsol : forall i t, (i < n)%nat -> t0 <= t <= tf ->
    derivable_pt_lim (fun s => comp (y s) i) t (comp (F t (y t)) i).
Hypothesis Hslope : forall s t, t0 <= s <= tf -> t0 <= t <= tf ->
    close n (B * Rabs (s - t)) (F s (y s)) (F t (y t)).
Hypothesis Hlip : forall t u v d,
    t0 <= t <= tf -> length u = n -> length v = n -> close n d u v -> close n (L * d) (F t u) (F t v).
Hypothesis HM : forall t i, t0 <= t <= tf -> (i < n)%nat -> Rabs (comp (F t (y t)) i) <= M.
Hypothesis HJac : forall t u, t0 <= t <= tf -> length u = n -> jac_small n BJ (Jac t u).
Notation A := (cst_A n o L B M BJ).
Notation C2 := (cst_2 n L B M BJ A).
Notation Cd := (cst_d n L B M BJ A).
Context (H : R).
Notation E := (major L B M C2 H (/ 10 ^ 16) t0).
Hypothesis HH : 0 < H.
Hypothesis HS1 : 10001/10000 * H <= 1.
Hypothesis HS2 : A * (10001/10000 * H) <= 1.
Hypothesis HS3 : 10001/10000 * H * (INR n * BJ) <= / 2.
Hypothesis HN : 99 * (Cd * (10001/10000 * H * (1 + E tf)) / atol o) <= newton_tol o.
Hypothesis Hit : (0 < iters o)%nat.
Hypothesis Hsafe : 1/100 <= o_safe o.
Hypothesis HD : 10001/10000 * (o_dtmax o / o_quot1 o) <= H.
Hypothesis Hd0 : b_dt b <= o_dtmax o.
Hypothesis Hd1 : o_dtmax o <= tf - t0.
Hypothesis HQ : H * (INR n * cst_Q n tf L B M BJ E) / atol o <= (o_safe o / 2) ^ 4.
Hypothesis Hbudget : tf - t0 <= (INR (o_max_steps o) - 1) * b_dt b.
Hypothesis Heps : Rmax (Rabs t0) (Rabs tf) * / IZR (2 ^ 52) < b_dt b / 100000.

Lemma len_pos : (0 < n)%nat.
Proof. destruct (b_u b); [now destruct Hu0|cbn; lia]. Qed.
Lemma rt_pos : 0 < rtol o.
Proof. unfold rtol, radau_rtol. assert (0 < Rpower (o_reltol o) (2 / 3)) by apply exp_pos. lra. Qed.
Lemma at_pos : 0 < atol o.
Proof. unfold atol, radau_atol. apply Rmult_lt_0_compat; [exact rt_pos|]. now apply Rdiv_lt_0_compat. Qed.
Lemma start_smooth : smooth n o t0 tf y L B M BJ H E (b_dt b) start.
Proof.
  constructor.
  - apply start_btw; try assumption; try lra.
  - reflexivity.
  - reflexivity.
  - cbn. lra.
  - discriminate.
  - intros _. split; [cbn; lra|]. intros C. now destruct C.
  - cbn. lra.
Qed.

Lemma succeeds (s0 : state) fuel fuel2 : build alg b = Ok s0 ->
  (o_max_steps o + o_max_newt_iter o + 5 <= fuel)%nat -> (max 1 (o_max_steps o) <= fuel2)%nat ->
  exists s, integrate alg None fuel fuel2 s0 = Ok s /\ rc (i_sol s) = RSuccess /\ i_t s = tf /\
    In (tf, i_u s) (points s) /\ forall t u, In (t, u) (points s) -> close n (E tf + H * M) u (y t).
Proof.
  intros Hb Hf Hf2.
  destruct (radau_integrate_reference b How Hgj Hu0 Hr Ha Hsane Hblind Hdt Ht s0 fuel fuel2 Hb Hf Hf2) as (s & k & x & Hi & Hx & Hsh & Hc & _).
  assert (0 <= C2) as HC2 by (now apply C2_pos).
  assert (p_code x = RSuccess /\ p_t x = tf) as (Hx1 & Hx2).
  { assert (0 <= / 10 ^ 16) as Hdl by lra.
    destruct (run_smooth n F Jac o t0 tf y L B M BJ HL0 HB0 HM0 HBJ Hlen Hsol Hslope Hlip HM HJac len_pos Hsane
      at_pos (Rlt_le _ _ rt_pos) H E HH HS1 HS2 HS3) with (h0 := b_dt b) (k := k) (x := start) (x' := x) as [G|G]; try assumption.
    - intros t Htt. apply major_0; try assumption; lra.
    - intros t t' H1 H2. apply major_mono; try assumption; lra.
    - intros t h H1 H2 H3. apply major_step; try assumption; lra.
    - exact start_smooth.
    - exfalso. apply Hc. exact (s_code _ _ _ _ _ _ _ _ _ _ _ _ _ G). }
  destruct Hsh as (S1 & S2 & S3 & S4 & S5).
  exists s. split; [exact Hi|]. split; [exact (eq_trans S5 Hx1)|]. split; [exact (eq_trans S1 Hx2)|].
  apply (integrate_split alg None) in Hi as (k' & s1 & _ & Hcn & Hst).
  assert (reached alg None fuel (S k') s0 s) as Hre by (econstructor; eassumption).
  split.
  { destruct (radau_recorded_wf b None fuel (S k') s0 s no_callback_benign Hb (reached_steps_n _ _ _ _ _ _ Hre)) as (W1 & _).
    destruct (radau_current_is_last b fuel (S k') s0 s Hb (reached_steps_n _ _ _ _ _ _ Hre)) as (W2 & W3).
    pose proof (last_in_combine _ _ _ _ W2 W3 W1) as W4. unfold points. replace (tf) with (i_t s) by exact (eq_trans S1 Hx2). exact W4. }
  apply (reached_close b How Hgj Hu0 Hr Ha Hsane Hblind Hdt Ht y L B M BJ Hy0 HL0 HB0 HM0 HBJ Hlen Hsol Hslope Hlip HM HJac H HH HS1 HS2 HS3 HN
    fuel (S k') s0 s Hb Hre).
  destruct (fwd_dtmax inf b Hsane Hdt Ht fuel (S k') s0 s Hb Hre) as (G1 & G2).
  pose proof (dtmax_H o Hsane) as Hdq.
  apply (Forall_impl _ (P := fun g => g <= 10001/10000 * (o_dtmax o / o_quot1 o))); [intros g Hg; lra|].
  refine (all_gaps_le _ _ _ _ G1 G2). lra.
Qed.
End Bound.

Section Final.
Context {P : Type} {inf : R}.
Notation RI := (RA inf).
Notation state := (integ RI P (radau_cache RI)).
Notation alg := (@Radau5 RI P).

Lemma radau_succeeds (f : rhs RI P) (g : option (jac RI P)) (p : P) n t0 T y (o : opts RI) :
  overwrites f -> jac_overwrites g -> lipschitz_problem n (ode f p) t0 T y ->
  jacobian_bounded n (the_jacobian f g p) t0 T ->
  (forall h t u, 0 < h -> length u = n -> ~ blind n h (the_jacobian f g p t u)) ->
  0 < o_reltol o -> 0 < o_abstol o -> radau_sane o -> 1/100 <= o_safe o -> (0 < o_max_newt_iter o)%nat -> t0 < T ->
  exists K H0, 0 <= K /\ 0 < H0 /\
  forall (b : builder RI P) dtm N (s0 : state) fuel fuel2,
  b_dudt b = f -> b_dfdu b = g -> b_params b = p -> b_t b = t0 -> t0 < b_tfinal b <= T -> b_u b = y t0 -> b_u b <> [] ->
  b_opts b = o <| o_dtmax := dtm |> <| o_max_steps := N |> ->
  0 < b_dt b <= dtm -> dtm <= H0 -> dtm <= b_tfinal b - t0 ->
  (b_tfinal b - t0) / b_dt b + 1 <= INR N ->
  Rmax (Rabs t0) (Rabs (b_tfinal b)) / IZR (2 ^ 52) < b_dt b / 100000 ->
  build alg b = Ok s0 -> (N + o_max_newt_iter o + 5 <= fuel)%nat -> (max 1 N <= fuel2)%nat ->
  exists s, integrate alg None fuel fuel2 s0 = Ok s /\ rc (i_sol s) = RSuccess /\ i_t s = b_tfinal b /\
    In (b_tfinal b, i_u s) (points s) /\
    forall t u, In (t, u) (points s) -> close n (K * (dtm + / 10 ^ 16)) u (y t).
Proof.
  intros Hf Hg [P1 P2 (B0 & P3) (L0 & P4)] (BJ0 & HJ) Hbl Hr Ha Hs Hsafe Hit Ht.
  destruct n as [|n'].
  { exists 0, 1. split; [lra|]. split; [lra|]. intros b dtm N s0 fuel fuel2 _ _ _ _ _ Eu Hne.
    exfalso. apply Hne. rewrite Eu. apply length_zero_iff_nil. apply P1. }
  set (n := S n') in *. assert (0 < n)%nat as Hn by (unfold n; lia).
  set (L := Rmax L0 0). set (B := Rmax B0 0). set (BJ := Rmax BJ0 0).
  assert (0 <= L /\ 0 <= B /\ 0 <= BJ) as (HL & HB & HBJ) by (repeat split; apply Rmax_r).
  assert (forall s t, t0 <= s <= T -> t0 <= t <= T -> close n (B * Rabs (s - t)) (ode f p s (y s)) (ode f p t (y t))) as P3'.
  { intros a c Ha1 Hc1. apply (close_le n (B0 * Rabs (a - c))); [|now apply P3]. apply Rmult_le_compat_r; [apply Rabs_pos|apply Rmax_l]. }
  assert (forall t u v d, t0 <= t <= T -> length u = n -> length v = n -> close n d u v -> close n (L * d) (ode f p t u) (ode f p t v)) as P4'.
  { intros t u v d H1 H2 H3 H4. apply (close_le n (L0 * d)); [eapply close_wide; eassumption|now apply P4]. }
  assert (forall t u, t0 <= t <= T -> length u = n -> jac_small n BJ (the_jacobian f g p t u)) as HJ'.
  { intros t u H1 H2 i j Hi Hj. eapply Rle_trans; [now apply HJ|apply Rmax_l]. }
  destruct (slope_bound n (ode f p) y t0 T B HB ltac:(lra) P3') as (M & HM0 & HM).
  set (A := cst_A n o L B M BJ). set (C2 := cst_2 n L B M BJ A). set (Cd := cst_d n L B M BJ A). set (Cw := cst_w n L B M BJ).
  assert (Cw <= A) as HA by (now apply cst_A_w). assert (0 <= Cw) as Hw by (now apply Cw_pos).
  pose proof (pos_INR n) as Hni.
  assert (0 <= Cd) as HCd. { unfold Cd, cst_d. fold Cw. assert (0 <= INR n * A) by (apply Rmult_le_pos; lra). lra. }
  assert (0 <= C2) as HC2.
  { unfold C2, cst_2. fold Cd. assert (0 <= L * A) by (apply Rmult_le_pos; lra). assert (0 <= L * M) by (apply Rmult_le_pos; lra).
    assert (0 <= BJ * Cd) by (apply Rmult_le_pos; lra). lra. }
  set (X := exp (rate L B M C2 * (T - t0))).
  assert (1 <= X) as HX.
  { unfold X. assert (0 <= rate L B M C2 * (T - t0)) as H1 by (apply Rmult_le_pos; unfold rate; lra). pose proof (exp_ge _ H1). lra. }
  pose proof (newton_tol_pos o) as Hnt.
  assert (0 < rtol o) as Hrt. { unfold rtol, radau_rtol. assert (0 < Rpower (o_reltol o) (2 / 3)) by apply exp_pos. lra. }
  assert (0 < atol o) as Hat. { unfold atol, radau_atol. apply Rmult_lt_0_compat; [exact Hrt|]. now apply Rdiv_lt_0_compat. }
  assert (0 <= INR n * BJ) as HnB by (now apply Rmult_le_pos).
  set (Qm := INR n * (M + L * X + 15 * (Cw * (1 + X)))).
  assert (0 <= Qm) as HQm.
  { unfold Qm. apply Rmult_le_pos; [exact Hni|]. assert (0 <= L * X) by (apply Rmult_le_pos; lra). assert (0 <= Cw * (1 + X)) by (apply Rmult_le_pos; lra). lra. }
  assert (0 < (o_safe o / 2) ^ 4) as Hsf by (apply pow_lt; lra).
  set (q1 := / (2 * (A + 1))). set (q2 := / (4 * (INR n * BJ + 1))). set (q3 := newton_tol o * atol o / (200 * (Cd + 1) * X)).
  set (q4 := (o_safe o / 2) ^ 4 * atol o / (Qm + 1)).
  assert (0 < q1) as Hq1 by (apply Rinv_0_lt_compat; lra). assert (0 < q2) as Hq2 by (apply Rinv_0_lt_compat; lra).
  assert (0 < 200 * (Cd + 1) * X) as HCX by (apply Rmult_lt_0_compat; lra).
  assert (0 < q3) as Hq3 by (apply Rdiv_lt_0_compat; [now apply Rmult_lt_0_compat|exact HCX]).
  assert (0 < q4) as Hq4 by (apply Rdiv_lt_0_compat; [now apply Rmult_lt_0_compat|lra]).
  set (q := Rmin (Rmin (/2) q4) (Rmin q1 (Rmin q2 q3))).
  assert (0 < q) as Hq0 by (repeat apply Rmin_pos; lra).
  destruct Hs as [Hs1 Hs2 Hs3 Hs4 Hs5].
  assert (1 <= / o_quot1 o) as Hqi by (rewrite <- Rinv_1; apply Rinv_le_contravar; lra).
  exists ((X + M) * (2 * / o_quot1 o)), (q * o_quot1 o / 2).
  split; [apply Rmult_le_pos; lra|]. split; [apply Rdiv_lt_0_compat; [now apply Rmult_lt_0_compat|lra]|].
  intros b dtm N s0 fuel fuel2 Ef Eg Ep Et Htf Eu Hne Eo Hdt Hdm Hspan Hbud Heps Hb Hfu Hfu2.
  set (H := 10001/10000 * (dtm / o_quot1 o)).
  assert (0 < dtm / o_quot1 o) as Hdq by (apply Rdiv_lt_0_compat; lra).
  assert (H <= q) as HHq.
  { unfold H. assert (dtm / o_quot1 o <= q / 2); [|lra]. apply Rmult_le_reg_r with (o_quot1 o); [lra|].
    unfold Rdiv at 1. rewrite Rmult_assoc, Rinv_l by lra. lra. }
  assert (0 < H) as HH by (unfold H; lra).
  assert (H <= /2 /\ H <= q1 /\ H <= q2 /\ H <= q3 /\ H <= q4) as (H1 & H2 & H3 & H4 & H5).
  { unfold q in HHq. pose proof (Rmin_l (Rmin (/2) q4) (Rmin q1 (Rmin q2 q3))). pose proof (Rmin_r (Rmin (/2) q4) (Rmin q1 (Rmin q2 q3))).
    pose proof (Rmin_l (/2) q4). pose proof (Rmin_r (/2) q4). pose proof (Rmin_l q1 (Rmin q2 q3)). pose proof (Rmin_r q1 (Rmin q2 q3)).
    pose proof (Rmin_l q2 q3). pose proof (Rmin_r q2 q3). lra. }
  assert (length (b_u b) = n) as En by (rewrite Eu; apply P1).
  set (tf := b_tfinal b) in *.
  assert (0 < / 10 ^ 16 <= / 2) as Hd by lra.
  set (X' := exp (rate L B M C2 * (tf - t0))).
  assert (1 <= X' <= X) as HX'.
  { unfold X', X. split.
    - assert (0 <= rate L B M C2 * (tf - t0)) as G1 by (apply Rmult_le_pos; unfold rate; lra). pose proof (exp_ge _ G1). lra.
    - assert (rate L B M C2 * (tf - t0) <= rate L B M C2 * (T - t0)) as [G1|G1] by (apply Rmult_le_compat_l; [unfold rate|]; lra);
        [left; now apply exp_increasing|right; now f_equal]. }
  assert (major L B M C2 H (/ 10 ^ 16) t0 tf = (H + / 10 ^ 16) * (X' - 1)) as EE by reflexivity.
  assert (0 <= (H + / 10 ^ 16) * (X' - 1) <= X - 1) as HEX.
  { split; [apply Rmult_le_pos; lra|]. assert ((H + / 10 ^ 16) * (X' - 1) <= 1 * (X' - 1)) by (apply Rmult_le_compat_r; lra). lra. }
  assert ((H + / 10 ^ 16) * (X' - 1) + H * M <= (X + M) * (2 * / o_quot1 o) * (dtm + / 10 ^ 16)) as Hbound.
  { assert (H <= 2 * / o_quot1 o * dtm) as G1.
    { assert (dtm / o_quot1 o = / o_quot1 o * dtm) as G1 by (unfold Rdiv; ring). unfold H. rewrite G1 in *. lra. }
    assert (H + / 10 ^ 16 <= 2 * / o_quot1 o * (dtm + / 10 ^ 16)) as G2.
    { assert (1 * / 10 ^ 16 <= / o_quot1 o * / 10 ^ 16) by (apply Rmult_le_compat_r; lra). lra. }
    set (w := 2 * / o_quot1 o * (dtm + / 10 ^ 16)) in *.
    replace ((X + M) * (2 * / o_quot1 o) * (dtm + / 10 ^ 16)) with ((X + M) * w) by (unfold w; ring).
    assert ((H + / 10 ^ 16) * (X' - 1) <= w * X) by (apply Rmult_le_compat; lra).
    assert (H * M <= w * M) by (apply Rmult_le_compat_r; lra). lra. }
  pose proof (succeeds b) as G. rewrite En, Eo, Et in G. fold tf in G. rewrite Ef, Eg, Ep in G.
  destruct (G Hf Hg Hne Hr Ha) with (y := y) (L := L) (B := B) (M := M) (BJ := BJ) (H := H) (s0 := s0) (fuel := fuel) (fuel2 := fuel2)
    as (s & S1 & S2 & S3 & S0 & S4); clear G; try assumption; try lra.
  - constructor; cbn; try assumption; lra.
  - intros i t Hi Htt. apply P2; [exact Hi|lra].
  - intros a c Ha1 Hc1. apply P3'; lra.
  - intros t u v d Htt. apply P4'. lra.
  - intros t i Htt. apply HM. lra.
  - intros t u Htt. apply HJ'. lra.
  - change (cst_A n _ L B M BJ) with A.
    apply Rle_trans with (A * (10001/10000 * q1)); [apply Rmult_le_compat_l; lra|].
    unfold q1. apply Rmult_le_reg_r with (2 * (A + 1)); [lra|].
    replace (A * (10001 / 10000 * / (2 * (A + 1))) * (2 * (A + 1))) with (A * (10001/10000)) by (field; lra). lra.
  - apply Rle_trans with (10001/10000 * q2 * (INR n * BJ)); [apply Rmult_le_compat_r; lra|].
    unfold q2. apply Rmult_le_reg_r with (4 * (INR n * BJ + 1)); [lra|].
    replace (10001 / 10000 * / (4 * (INR n * BJ + 1)) * (INR n * BJ) * (4 * (INR n * BJ + 1))) with (10001/10000 * (INR n * BJ)) by (field; lra). lra.
  - change (cst_A n _ L B M BJ) with A. fold C2 Cd.
    change (atol _) with (atol o). change (newton_tol _) with (newton_tol o).
    rewrite EE. set (Y := 1 + (H + / 10 ^ 16) * (X' - 1)) in *. assert (0 <= Y <= 2 * X) as HY by (unfold Y; lra).
    apply Rmult_le_reg_r with (atol o); [exact Hat|].
    replace (99 * (Cd * (10001 / 10000 * H * Y) / atol o) * atol o) with (99 * (10001/10000) * (Cd * (H * Y))) by (field; lra).
    apply Rle_trans with (q3 * (200 * (Cd + 1) * X)); [|right; unfold q3; field; lra].
    assert (Cd * (H * Y) <= (Cd + 1) * (q3 * (2 * X))) as G5.
    { apply Rmult_le_compat; try lra; [apply Rmult_le_pos; lra|]. apply Rmult_le_compat; lra. }
    replace (q3 * (200 * (Cd + 1) * X)) with (100 * ((Cd + 1) * (q3 * (2 * X)))) by ring.
    assert (0 <= Cd * (H * Y)) by (apply Rmult_le_pos; [lra|apply Rmult_le_pos; lra]). lra.
  - cbn. unfold H. lra.
  - cbn. lra.
  - unfold cst_Q. change (cst_A n _ L B M BJ) with A. fold C2. change (atol _) with (atol o). rewrite EE. fold Cw.
    set (Y := (H + / 10 ^ 16) * (X' - 1)) in *.
    assert (INR n * (M + L * Y + 15 * (Cw * (1 + Y))) <= Qm) as G1.
    { unfold Qm. apply Rmult_le_compat_l; [exact Hni|].
      assert (L * Y <= L * X) by (apply Rmult_le_compat_l; lra). assert (Cw * (1 + Y) <= Cw * (1 + X)) by (apply Rmult_le_compat_l; lra). lra. }
    assert (0 <= INR n * (M + L * Y + 15 * (Cw * (1 + Y)))) as G0.
    { apply Rmult_le_pos; [exact Hni|]. assert (0 <= L * Y) by (apply Rmult_le_pos; lra). assert (0 <= Cw * (1 + Y)) by (apply Rmult_le_pos; lra). lra. }
    apply Rmult_le_reg_r with (atol o); [exact Hat|]. unfold Rdiv at 1. rewrite Rmult_assoc, Rinv_l, Rmult_1_r by lra.
    apply Rle_trans with (q4 * (Qm + 1)); [apply Rmult_le_compat; lra|]. right. unfold q4. cbn. field. lra.
  - cbn. apply Rmult_le_reg_r with (/ b_dt b); [apply Rinv_0_lt_compat; lra|].
    rewrite Rmult_assoc, Rinv_r, Rmult_1_r by lra. unfold Rdiv in Hbud. lra.
  - exists s. split; [exact S1|]. split; [exact S2|]. split; [exact S3|]. split; [exact S0|]. intros t u Hin.
    apply (close_le n (major L B M C2 H (/ 10 ^ 16) t0 tf + H * M)); [|exact (S4 t u Hin)]. rewrite EE. exact Hbound.
Qed.
End Final.

(** Two cells exchanging their contents, on a short span. *)
Section Ex.
Context (inf : R).
Notation RI := (RA inf).
Definition b_short (tf : R) : builder RI unit :=
  (r_swap inf) <| b_opts := b_opts (r_swap inf) <| o_dtmax := ((tf / 10) : num RI) |> <| o_max_steps := 12%nat |> |>
               <| b_tfinal := (tf : num RI) |> <| b_dt := ((tf / 10) : num RI) |>.
Lemma short_ex H0 : 0 < H0 -> exists tf, 0 < tf <= 1 /\
  let b := b_short tf in let dtm := tf / 10 in
  b_dudt b = r_swap_rhs inf /\ b_dfdu b = None /\ b_params b = tt /\ b_t b = 0 /\ b_tfinal b = tf /\ b_u b = mixing 0 /\ b_u b <> [] /\
  b_opts b = b_opts (r_swap inf) <| o_dtmax := dtm |> <| o_max_steps := 12%nat |> /\
  0 < b_dt b <= dtm /\ dtm <= H0 /\ dtm <= b_tfinal b - 0 /\
  (b_tfinal b - 0) / b_dt b + 1 <= INR 12 /\
  Rmax (Rabs 0) (Rabs (b_tfinal b)) / IZR (2 ^ 52) < b_dt b / 100000 /\
  exists s0, build Radau5 b = Ok s0.
Proof.
  intros HH0. exists (Rmin H0 1). pose proof (Rmin_l H0 1) as H1. pose proof (Rmin_r H0 1) as H2.
  assert (0 < Rmin H0 1) as H3 by (apply Rmin_pos; lra). set (tf := Rmin H0 1) in *. clearbody tf.
  split; [lra|]. intros b dtm. destruct (radau_build_ok b) as (s0 & Hb).
  assert (b_tfinal b = tf) as E1 by reflexivity. assert (b_dt b = tf / 10) as E2 by reflexivity.
  do 5 (split; [reflexivity|]).
  split; [unfold mixing; cbn; rewrite Rmult_0_r, exp_0; f_equal; [field|f_equal; field]|].
  split; [discriminate|]. split; [reflexivity|]. rewrite E1, E2. unfold dtm.
  split; [lra|]. split; [lra|]. split; [lra|]. split.
  { replace ((tf - 0) / (tf / 10)) with 10 by (field; lra). cbn [INR]. lra. }
  split; [|now exists s0].
  rewrite Rabs_R0, Rabs_pos_eq, Rmax_right by lra.
  assert (10000000 <= IZR (2 ^ 52)) as H4 by (apply IZR_le; lia).
  apply Rmult_lt_reg_r with (IZR (2 ^ 52)); [lra|]. unfold Rdiv at 1. rewrite Rmult_assoc, Rinv_l by lra.
  assert (tf * 10000000 <= tf * IZR (2 ^ 52)) by (apply Rmult_le_compat_l; lra). lra.
Qed.
End Ex.
