(** DormandPrince5 runs converge with order five. *)
From Coq Require Import List Reals Lra Lia Sorted.
From RecordUpdate Require Import RecordSet.
From Verif Require Import Arith Vec Core Driver VecFacts DP5 DP5Facts Spec SpecRK SpecODE SpecConv RKFacts DP5Inv
  ArithR DP5R DP5Time DP5RK DP5Num DP5Term DP5RForms DP5Ex DP5Dense DP5REx BigO ConvLocal ConvGlobal.
Import ListNotations RecordSetNotations.
Local Open Scope R_scope.

Lemma gaps_linked (l1 : list R) a c l2 : In (c - a) (gaps (l1 ++ a :: c :: l2)).
Proof.
  induction l1 as [|x l1 IH]; [now left|].
  destruct l1 as [|z l1]; cbn [app gaps] in *; now right.
Qed.
Lemma combine_fst {X Z} (a : list X) (b : list Z) : length a = length b -> map fst (combine a b) = a.
Proof.
  revert b. induction a as [|x a IH]; intros [|z b] E; try discriminate E; [reflexivity|].
  cbn. f_equal. apply IH. now injection E.
Qed.

Section Run.
Context {P : Type} {inf : R}.
Notation RI := (RA inf).
Notation state := (integ RI P (dp5_cache RI)).
Notation alg := (@DormandPrince5 RI P).

Lemma dp5_order_five (f : rhs RI P) (p : P) n t0 tf y :
  overwrites f -> smooth_problem n (ode f p) t0 tf y ->
  exists K H0, 0 <= K /\ 0 < H0 /\
  forall (b : builder RI P) fuel k (s0 s : state) H,
  b_dudt b = f -> b_params b = p -> b_t b = t0 -> b_tfinal b = tf -> b_u b = y t0 -> b_u b <> [] ->
  sane_opts (b_opts b) -> 0 < o_abstol (b_opts b) -> 0 <= o_reltol (b_opts b) ->
  0 < b_dt b -> t0 < tf ->
  build alg b = Ok s0 -> reached alg None fuel k s0 s ->
  0 < H <= H0 -> Forall (fun g => g <= H) (gaps (ts (i_sol s))) ->
  forall t u, In (t, u) (points s) -> close n (K * H ^ 5) u (y t).
Proof.
  intros Ho SP. destruct (global_order5 n (ode f p) t0 tf y SP) as (K & H0 & HK & HH0 & G).
  exists K, H0. split; [exact HK|]. split; [exact HH0|].
  intros b fuel k s0 s H Ef Ep Et Etf Eu Hne Hso Ha Hr Hdt Hlt Hb Hre HH Hg.
  assert (b_t b < b_tfinal b) as Hlt' by (now rewrite Et, Etf).
  destruct (dp5_times inf b fuel k s0 s Hso Hdt Hlt' Hb Hre) as (Hsort & Hin).
  pose proof (reached_steps_n alg None fuel k s0 s Hre) as Hst.
  destruct (dp5_every_point inf b fuel k s0 s) as (Hhd & Hl); try assumption; [now rewrite Ef|].
  rewrite Ef, Ep in Hl. rewrite Et, Eu in Hhd.
  assert (map fst (points s) = ts (i_sol s)) as Hmap.
  { apply combine_fst. eapply (dp5_recorded_wf b None); [apply no_callback_benign|exact Hb|exact Hst]. }
  apply (G (points s) H HH Hhd).
  intros l1 x z l2 E. destruct (Hl l1 x z l2 E) as (h & E1 & E2 & _).
  replace h with (fst z - fst x) in E2 by lra. split; [exact E2|].
  assert (ts (i_sol s) = map fst l1 ++ fst x :: fst z :: map fst l2) as Ets.
  { rewrite <- Hmap, E, map_app. reflexivity. }
  split; [split|].
  - rewrite Ets in Hsort. clear - Hsort. induction (map fst l1) as [|a l IH]; cbn [app] in Hsort.
    + inversion Hsort as [|? ? _ Hf]; subst. inversion Hf; subst. lra.
    + inversion Hsort; auto.
  - rewrite Forall_forall in Hg. apply Hg. rewrite Ets. apply gaps_linked.
  - rewrite Forall_forall in Hin. rewrite <- Etf. apply Hin. rewrite Ets. apply in_or_app. right. right. now left.
Qed.

Lemma dp5_dtmax_controls_error (f : rhs RI P) (p : P) n t0 tf y eps :
  overwrites f -> smooth_problem n (ode f p) t0 tf y -> 0 < eps ->
  exists dtm, 0 < dtm /\
  forall (b : builder RI P) fuel k (s0 s : state),
  b_dudt b = f -> b_params b = p -> b_t b = t0 -> b_tfinal b = tf -> b_u b = y t0 -> b_u b <> [] ->
  sane_opts (b_opts b) -> 0 < o_abstol (b_opts b) -> 0 <= o_reltol (b_opts b) ->
  0 < b_dt b -> t0 < tf -> b_dt b <= dtm -> o_dtmax (b_opts b) <= dtm ->
  build alg b = Ok s0 -> reached alg None fuel k s0 s ->
  forall t u, In (t, u) (points s) -> close n eps u (y t).
Proof.
  intros Ho SP He. destruct (dp5_order_five f p n t0 tf y Ho SP) as (K & H0 & HK & HH0 & G).
  set (H := Rmin (Rmin H0 1) (eps / (K + 1))).
  assert (0 < eps / (K + 1)) as Hek by (apply Rdiv_lt_0_compat; lra).
  assert (0 < H <= H0 /\ H <= 1 /\ H <= eps / (K + 1)) as (HH & HH1 & HH2).
  { unfold H. pose proof (Rmin_l (Rmin H0 1) (eps / (K + 1))). pose proof (Rmin_r (Rmin H0 1) (eps / (K + 1))).
    pose proof (Rmin_l H0 1). pose proof (Rmin_r H0 1).
    split; [split; [repeat apply Rmin_pos; lra|lra]|]. lra. }
  exists (H / (101/100)). split; [apply Rdiv_lt_0_compat; lra|].
  intros b fuel k s0 s Ef Ep Et Etf Eu Hne Hso Ha Hr Hdt Hlt Hd1 Hd2 Hb Hre t u Hin.
  assert (b_t b < b_tfinal b) as Hlt' by (now rewrite Et, Etf).
  destruct (dp5_dtmax inf b fuel k s0 s Hso Hdt Hlt' Hb Hre) as (G1 & G2).
  assert (Forall (fun g => g <= H) (gaps (ts (i_sol s)))) as Hg.
  { destruct (gaps (ts (i_sol s))) as [|g0 gs]; [constructor|]. cbn [tl hd_error] in *.
    constructor.
    - specialize (G2 g0 eq_refl). assert (101/100 * b_dt b <= 101/100 * (H / (101/100))) by (apply Rmult_le_compat_l; lra). lra.
    - eapply Forall_impl; [|exact G1]. intros g Hg. cbv beta in Hg.
      assert (101/100 * o_dtmax (b_opts b) <= 101/100 * (H / (101/100))) by (apply Rmult_le_compat_l; lra). lra. }
  apply (close_le n (K * H ^ 5)); [|eapply (G b fuel k s0 s H); eassumption].
  apply Rle_trans with (K * H).
  - apply Rmult_le_compat_l; [exact HK|].
    assert (H ^ 4 <= 1) by (rewrite <- (pow1 4); apply pow_incr; lra). cbn [pow] in *. nra.
  - apply Rle_trans with ((K + 1) * (eps / (K + 1))); [|right; field; lra]. apply Rmult_le_compat; lra.
Qed.
End Run.

Section RunDense.
Context {P : Type} {inf : R}.
Notation RI := (RA inf).
Notation state := (integ RI P (dp5_cache RI)).
Notation alg := (@DormandPrince5 RI P).

Lemma prev_recorded (b : builder RI P) fuel k (s0 s : state) :
  overwrites (b_dudt b) -> build alg b = Ok s0 -> reached alg None fuel (S k) s0 s ->
  (exists l, points s = l ++ [(i_tprev s, i_uprev s); (i_t s, i_u s)]) /\ length (i_uprev s) = length (b_u b).
Proof.
  intros Ho Hb Hre. inversion Hre as [|k' s' s1 s2 r Hc Hs]; subst.
  pose proof (continues_steps_n alg None fuel k s0 s1 Hc) as Hst.
  pose proof (dp5_rk inf b fuel k s0 s1 Ho Hb Hst) as [_ _ _ Hn _ Hl (l & Hsn) _ _].
  unfold step in Hs. apply bind_ok in Hs as (s2 & H & E). cbn [run_callback] in E.
  injection E as E _. subst s2. cbn [alg_step DormandPrince5 Cache] in H.
  pose proof (dp5_step_effect_of _ _ _ H) as Ef.
  rewrite (se_tprev _ _ Ef), (se_uprev _ _ Ef). split; [|exact Hn].
  exists l. unfold points. rewrite (se_ts _ _ Ef), (se_us _ _ Ef), combine_snoc by exact Hl.
  transitivity ((l ++ [(i_t s1, i_u s1)]) ++ [(i_t s, i_u s)]); [|now rewrite <- app_assoc].
  exact (f_equal (fun z => z ++ [(i_t s, i_u s)]) Hsn).
Qed.

Lemma dp5_dense_order_five (f : rhs RI P) (p : P) n t0 tf y :
  overwrites f -> smooth_problem n (ode f p) t0 tf y ->
  exists K H0, 0 <= K /\ 0 < H0 /\
  forall (b : builder RI P) fuel k (s0 s : state) H,
  b_dudt b = f -> b_params b = p -> b_t b = t0 -> b_tfinal b = tf -> b_u b = y t0 -> b_u b <> [] ->
  sane_opts (b_opts b) -> 0 < o_abstol (b_opts b) -> 0 <= o_reltol (b_opts b) ->
  0 < b_dt b -> t0 < tf -> o_dense (b_opts b) = true ->
  build alg b = Ok s0 -> reached alg None fuel (S k) s0 s ->
  0 < H <= H0 -> Forall (fun g => g <= H) (gaps (ts (i_sol s))) ->
  forall t, i_tprev s <= t <= i_t s -> close n (K * H ^ 5) (dense_output s t (i_dtprev s)) (y t).
Proof.
  intros Ho SP. destruct (dp5_order_five f p n t0 tf y Ho SP) as (K & H0 & HK & HH0 & G).
  destruct (dense_step n (ode f p) t0 tf y SP) as (Lam & C & Hs & rs & HLam & HC & HHs & Hrs & HD).
  assert (0 < rs / (K + 1)) as Hrk by (apply Rdiv_lt_0_compat; lra).
  exists (Lam * K + C), (Rmin (Rmin H0 Hs) (rs / (K + 1))).
  pose proof (Rmin_l (Rmin H0 Hs) (rs / (K + 1))). pose proof (Rmin_r (Rmin H0 Hs) (rs / (K + 1))).
  pose proof (Rmin_l H0 Hs). pose proof (Rmin_r H0 Hs).
  split; [assert (0 <= Lam * K) by (apply Rmult_le_pos; lra); lra|]. split; [repeat apply Rmin_pos; lra|].
  intros b fuel k s0 s h0 Ef Ep Et Etf Eu Hne Hso Ha Hr Hdt Hlt Hde Hb Hre HH Hg t Hin.
  assert (b_t b < b_tfinal b) as Hlt' by (now rewrite Et, Etf).
  assert (overwrites (b_dudt b)) as Ho' by (now rewrite Ef).
  destruct (dp5_dense inf b fuel k s0 s Ho' Hde Hso Hdt Hlt' Hb Hre) as (Dh & Dt & _ & _ & _ & Dd).
  destruct (prev_recorded b fuel k s0 s Ho' Hb Hre) as ((l & Pl) & Plen).
  assert (In (i_tprev s, i_uprev s) (points s)) as Pin by (rewrite Pl; apply in_or_app; right; now left).
  rewrite Dd, Ef, Ep. assert (length (i_uprev s) = n) as Hul by (rewrite Plen, Eu; exact (sp_length _ _ _ _ _ SP t0)).
  pose proof (G b fuel (S k) s0 s h0 Ef Ep Et Etf Eu Hne Hso Ha Hr Hdt Hlt Hb Hre ltac:(lra) Hg _ _ Pin) as Hc.
  destruct (dp5_times inf b fuel (S k) s0 s Hso Hdt Hlt' Hb Hre) as (_ & Hspan).
  assert (length (ts (i_sol s)) = length (us (i_sol s))) as Hlen.
  { eapply (dp5_recorded_wf b None); [apply no_callback_benign|exact Hb|]. apply (reached_steps_n alg None fuel (S k) s0 s Hre). }
  rewrite Forall_forall in Hspan, Hg.
  assert (ts (i_sol s) = map fst l ++ [i_tprev s; i_t s]) as Ets.
  { rewrite <- (combine_fst _ _ Hlen). change (combine (ts (i_sol s)) (us (i_sol s))) with (points s).
    rewrite Pl, map_app. reflexivity. }
  assert (i_t s - i_tprev s <= h0) as Hgap by (apply Hg; rewrite Ets; apply gaps_linked).
  assert (b_t b <= i_tprev s <= b_tfinal b) as Hp1 by (apply Hspan; rewrite Ets; apply in_or_app; right; now left).
  assert (b_t b <= i_t s <= b_tfinal b) as Hp2 by (apply Hspan; rewrite Ets; apply in_or_app; right; right; now left).
  rewrite Et, Etf in Hp1, Hp2.
  set (h := i_dtprev s) in *. set (x := (t - i_tprev s) / h).
  assert (t = i_tprev s + x * h) as Ex by (unfold x; field; lra).
  assert (0 <= x <= 1) as Hx.
  { split; [apply Rmult_le_pos; [lra|left; apply Rinv_0_lt_compat; lra]|].
    apply Rmult_le_reg_r with h; [lra|]. unfold x. replace ((t - i_tprev s) / h * h) with (t - i_tprev s) by (field; lra). lra. }
  assert (0 <= h0 ^ 5) by (apply pow_le; lra).
  assert (h0 ^ 5 <= h0). { assert (h0 ^ 4 <= 1) by (rewrite <- (pow1 4); apply pow_incr; lra). cbn [pow] in *. nra. }
  assert (K * h0 ^ 5 <= rs) as Hd.
  { apply Rle_trans with ((K + 1) * (rs / (K + 1))); [|right; field; lra]. apply Rmult_le_compat; lra. }
  replace (y t) with (y (i_tprev s + x * h)) by (now rewrite <- Ex).
  apply (close_le n (Lam * (K * h0 ^ 5) + C * h ^ 5)).
  { assert (h ^ 5 <= h0 ^ 5) by (apply pow_incr; lra).
    assert (C * h ^ 5 <= C * h0 ^ 5) by (apply Rmult_le_compat_l; assumption). lra. }
  apply HD; try assumption; try lra.
  split; [apply Rmult_le_pos; assumption|exact Hd].
Qed.
End RunDense.
