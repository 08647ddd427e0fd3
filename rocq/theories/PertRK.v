(** Dormand-Prince steps with perturbed stages: the effect of rounding errors
    and of errors in the right-hand side. *)
From Coq Require Import Reals List Lia Lra.
From Verif Require Import SpecRK SpecConv SpecF64Conv BigO ConvLocal ConvGlobal.
Import ListNotations.
Local Open Scope R_scope.

Section Pert.
Context (n : nat) (f : R -> list R -> list R) (t0 tf : R) (y : R -> list R).
Hypothesis SP : smooth_problem n f t0 tf y.
Hypothesis TL : time_lipschitz n f t0 tf y.

(** The solution is Lipschitz. *)
Lemma sol_lip : exists B, 0 <= B /\ forall s t, t0 <= s <= tf -> t0 <= t <= tf -> close n (B * Rabs (s - t)) (y s) (y t).
Proof.
  destruct SP as [Hlen (D & B & HD0 & HD1 & HDd & HDb) _ _].
  exists (Rabs B). split; [apply Rabs_pos|].
  assert (forall t s i, t0 <= t -> 0 <= s -> t + s <= tf -> (i < n)%nat -> Rabs (comp (y (t + s)) i - comp (y t) i) <= Rabs B * s) as Hf.
  { intros t s i H1 H2 H3 Hi.
    pose proof (taylor_bound (fun m => D m i) (Rabs B) t0 tf t 1 (Rabs_pos B) H1) as T.
    assert (forall m x, (m < 1)%nat -> t0 <= x <= tf -> derivable_pt_lim (D m i) x (D (S m) i x)) as A1 by (intros m x Hm Hx; apply HDd; auto; lia).
    assert (forall x, t0 <= x <= tf -> Rabs (D 1%nat i x) <= Rabs B) as A2.
    { intros x Hx. apply Rle_trans with B; [apply HDb; auto; lia|apply Rle_abs]. }
    specialize (T A1 A2 s ltac:(lra)). cbn [taylor] in T. rewrite !HD0 in T.
    replace (s ^ 0 / INR (fact 0) * comp (y t) i) with (comp (y t) i) in T by (cbn; field).
    rewrite Rplus_0_l, pow_1 in T. exact T. }
  intros s t Hs Ht i Hi. destruct (Rle_or_lt t s) as [H|H].
  - rewrite (Rabs_right (s - t)) by lra. replace s with (t + (s - t)) at 1 by ring. apply Hf; auto; lra.
  - rewrite Rabs_minus_sym, (Rabs_left (s - t)) by lra. replace t with (s + (t - s)) at 1 by ring.
    replace (- (s - t)) with (t - s) by ring. apply Hf; auto; lra.
Qed.

Lemma in_span0 t h c : t0 <= t -> 0 <= h -> t + h <= tf -> 0 <= c <= 1 -> t0 <= t + c * h <= tf.
Proof. intros. assert (0 <= c * h <= h) by (split; [apply Rmult_le_pos; lra|]; nra). lra. Qed.

(** The stages of a short step from near the solution are near the solution. *)
Lemma Y_near rr : 0 < rr -> exists Hs rs, 0 < Hs <= 1 /\ 0 < rs /\
  forall t h u d, t0 <= t -> 0 <= h <= Hs -> t + h <= tf -> length u = n -> 0 <= d <= rs -> close n d u (y t) ->
  forall j, (j < 7)%nat -> close n rr (Y f u t h j) (y (t + dc j * h)).
Proof.
  intros Hrr.
  destruct (stable n f t0 tf y SP 7 ltac:(lia)) as (P & Hs & rs & HP & HHs & Hrs & ST).
  assert (exists A, 0 <= A /\ forall j, (j < 7)%nat -> asum j (da j) <= A) as (A & HA & HAj).
  { exists (rsum 7 (fun j => asum j (da j))). split.
    - pose proof (rsum_abs 7 (fun j => asum j (da j))) as X. pose proof (Rabs_pos (rsum 7 (fun j => asum j (da j)))).
      assert (rsum 7 (fun i => Rabs (asum i (da i))) = rsum 7 (fun i => asum i (da i))) as E.
      { apply rsum_ext. intros i _. apply Rabs_right. apply Rle_ge, asum_pos. }
      lra.
    - intros j Hj. sums. pose proof (asum_pos 0 (da 0)). pose proof (asum_pos 1 (da 1)). pose proof (asum_pos 2 (da 2)).
      pose proof (asum_pos 3 (da 3)). pose proof (asum_pos 4 (da 4)). pose proof (asum_pos 5 (da 5)). pose proof (asum_pos 6 (da 6)).
      do 7 (destruct j as [|j]; [lra|]). lia. }
  assert (exists H2, 0 < H2 <= 1 /\ forall j, (j < 7)%nat -> forall t h i, t0 <= t -> 0 < h <= H2 -> t + h <= tf -> (i < n)%nat ->
    Rabs (comp (Y f (y t) t h j) i - comp (y (t + dc j * h)) i) <= rr / 2) as (H2 & HH2 & HE).
  { destruct SP as [Hlen (D & B & HD0 & HD1 & HDd & HDb) (r & L & Hr & HL) _].
    assert (forall m, (m <= 7)%nat -> exists H2, 0 < H2 <= 1 /\ forall j, (j < m)%nat -> forall t h i, t0 <= t -> 0 < h <= H2 -> t + h <= tf -> (i < n)%nat ->
      Rabs (comp (Y f (y t) t h j) i - comp (y (t + dc j * h)) i) <= rr / 2) as Hm.
    { induction m as [|m IH]; intros Hm; [exists 1; split; [lra|intros; lia]|].
      destruct IH as (H2 & HH2 & IH); [lia|].
      pose proof (E_O2 n f t0 tf y Hlen D B HD0 HD1 HDd HDb r L Hr HL m ltac:(lia)) as HE.
      destruct (O_bound n t0 tf 1 _ (rr / 2) ltac:(lra) HE) as (H3 & HH3 & Hb).
      exists (Rmin H2 H3). pose proof (Rmin_l H2 H3). pose proof (Rmin_r H2 H3).
      split; [split; [apply Rmin_pos; lra|lra]|]. intros j Hj t h i Ht Hh Hf Hi.
      destruct (Nat.eq_dec j m) as [->|Hn]; [|apply IH; auto; try lia; lra].
      pose proof (Hb t h i Ht ltac:(lra) Hf Hi) as Hbi. unfold E in Hbi. rewrite HD0 in Hbi. exact Hbi. }
    apply (Hm 7%nat). lia. }
  set (Q := 1 + A * P).
  assert (0 <= A * P) by (apply Rmult_le_pos; lra).
  assert (1 <= Q) by (unfold Q; lra).
  assert (0 < rr / (2 * Q)) by (apply Rdiv_lt_0_compat; lra).
  exists (Rmin Hs H2), (Rmin rs (rr / (2 * Q))).
  pose proof (Rmin_l Hs H2). pose proof (Rmin_r Hs H2).
  pose proof (Rmin_l rs (rr / (2 * Q))). pose proof (Rmin_r rs (rr / (2 * Q))).
  split; [split; [apply Rmin_pos; lra|lra]|]. split; [apply Rmin_pos; lra|].
  pose proof (sp_length _ _ _ _ _ SP) as Hlen.
  intros t h u d Ht Hh Hf Hu Hd Hc j Hj.
  assert (Q * d <= rr / 2) as HQd.
  { apply Rle_trans with (Q * (rr / (2 * Q))); [apply Rmult_le_compat_l; lra|]. right. field. lra. }
  assert (d <= rr / 2) by nra.
  destruct (Req_dec h 0) as [->|Hh0].
  { intros i Hi. rewrite Y_comp by (rewrite ?Hu; lia). rewrite Rmult_0_l, Rmult_0_r, !Rplus_0_r.
    specialize (Hc i Hi). lra. }
  specialize (ST t h u d Ht ltac:(lra) Hf Hu ltac:(lra) Hc).
  apply (close_le n (rr / 2 + rr / 2)); [lra|].
  apply (close_trans n _ _ _ (Y f (y t) t h j)); [|intros i Hi; apply HE; auto; lra].
  apply (close_le n (Q * d)); [exact HQd|].
  intros i Hi. rewrite !Y_comp by (rewrite ?Hu, ?Hlen; lia).
  replace (_ - _) with ((comp u i - comp (y t) i) +
     h * (rsum j (fun l => da j l * comp (K f u t h l) i) - rsum j (fun l => da j l * comp (K f (y t) t h l) i))) by ring.
  eapply Rle_trans; [apply Rabs_triang|]. rewrite Rabs_mult, (Rabs_right h) by lra.
  pose proof (wdiff j (da j) (fun l => comp (K f u t h l) i) (fun l => comp (K f (y t) t h l) i) (P * d)
                (fun l Hl => ST l ltac:(lia) i Hi)) as W.
  specialize (Hc i Hi). unfold Q. specialize (HAj j Hj). pose proof (asum_pos j (da j)).
  assert (0 <= P * d) by (apply Rmult_le_pos; lra).
  assert (asum j (da j) * (P * d) <= A * (P * d)) by (apply Rmult_le_compat_r; lra).
  assert (0 <= A * (P * d)) by (apply Rmult_le_pos; lra).
  match type of W with ?a <= _ => assert (h * a <= 1 * (A * (P * d))) end.
  { apply Rmult_le_compat; try lra. apply Rabs_pos. }
  nra.
Qed.

(** Perturbed stages: [k l], [yy l] and [tt l] are the computed slopes, points
    and times; [G l] is whatever else is known of [k l] once it is bounded. *)
Context (M : R).
Hypothesis HM : forall t i, t0 <= t <= tf -> (i < n)%nat -> Rabs (comp (f t (y t)) i) <= M.

Record pert_stages (rr t h e ea : R) (u : list R) (k yy : nat -> list R) (tt : nat -> R) (G : nat -> Prop) : Prop := {
  ps_shape : forall l, (l < 7)%nat -> length (yy l) = n /\ t0 <= tt l <= tf /\ Rabs (tt l - (t + dc l * h)) <= e;
  ps_point : forall l, (l < 7)%nat -> (forall m, (m < l)%nat -> G m) -> forall i, (i < n)%nat ->
    Rabs (comp (yy l) i - (comp u i + h * rsum l (fun m => da l m * comp (k m) i))) <= ea;
  ps_slope : forall l, (l < 7)%nat -> (forall m, (m < l)%nat -> G m) -> close n rr (yy l) (y (tt l)) ->
    close n e (k l) (f (tt l) (yy l)) /\ ((forall i, (i < n)%nat -> Rabs (comp (k l) i) <= M + 2) -> G l) }.

Lemma pert : exists rr Hs rs, 0 < rr /\ 0 < Hs <= 1 /\ 0 < rs /\
  forall j, (j <= 7)%nat -> exists Q es, 1 <= Q /\ 0 < es <= 1 /\
  forall t h u d e ea k yy tt G, t0 <= t -> 0 <= h <= Hs -> t + h <= tf -> length u = n -> 0 <= d <= rs ->
  close n d u (y t) -> 0 <= ea <= e -> e <= es -> pert_stages rr t h e ea u k yy tt G ->
  forall l, (l < j)%nat -> G l /\ close n (Q * e) (k l) (K f u t h l) /\ close n (ea + h * (Q * e)) (yy l) (Y f u t h l).
Proof.
  destruct (sp_lipschitz _ _ _ _ _ SP) as (r & L & Hr & HL).
  destruct TL as (rt & Lt & Hrt & HLt).
  destruct sol_lip as (B & HB & Hsl).
  pose proof (Rabs_pos L) as HLp. pose proof (Rle_abs L) as HLa.
  pose proof (Rabs_pos Lt) as HLtp. pose proof (Rle_abs Lt) as HLta.
  set (rr0 := Rmin (Rmin r rt) (1 / (Rabs L + 1))).
  assert (0 < 1 / (Rabs L + 1)) as Hl1 by (apply Rdiv_lt_0_compat; lra).
  assert (0 < rr0) as Hrr by (repeat apply Rmin_pos; lra).
  assert (rr0 <= r /\ rr0 <= rt /\ rr0 <= 1 / (Rabs L + 1)) as (Rr & Rrt & Rl).
  { unfold rr0. pose proof (Rmin_l (Rmin r rt) (1 / (Rabs L + 1))). pose proof (Rmin_r (Rmin r rt) (1 / (Rabs L + 1))).
    pose proof (Rmin_l r rt). pose proof (Rmin_r r rt). lra. }
  assert (Rabs L * rr0 <= 1) as HLr.
  { apply Rle_trans with ((Rabs L + 1) * (1 / (Rabs L + 1))); [|right; field; lra]. apply Rmult_le_compat; lra. }
  clearbody rr0.
  destruct (Y_near (rr0 / 2) ltac:(lra)) as (Hs & rs & HHs & Hrs & HY).
  exists rr0, Hs, rs. split; [exact Hrr|]. split; [exact HHs|]. split; [exact Hrs|].
  induction j as [|j IH]; intros Hj.
  { exists 1, 1. split; [lra|]. split; [lra|]. intros; lia. }
  destruct IH as (Q & es & HQ & Hes & IH); [lia|].
  pose proof (asum_pos j (da j)) as HA.
  set (Q1 := asum j (da j) * Q). assert (0 <= Q1) as HQ1 by (unfold Q1; apply Rmult_le_pos; lra).
  set (Q' := Q + Q1 + 1 + Rabs Lt + Rabs L * (1 + Q1)).
  assert (0 <= Rabs L * (1 + Q1)) by (apply Rmult_le_pos; lra).
  set (e1 := rr0 / (4 * (1 + Q1))). set (e2 := rr0 / (4 * (B + 1))).
  assert (0 < e1) by (unfold e1; apply Rdiv_lt_0_compat; lra).
  assert (0 < e2) by (unfold e2; apply Rdiv_lt_0_compat; lra).
  exists Q', (Rmin es (Rmin e1 e2)).
  pose proof (Rmin_l es (Rmin e1 e2)). pose proof (Rmin_r es (Rmin e1 e2)).
  pose proof (Rmin_l e1 e2). pose proof (Rmin_r e1 e2).
  assert (0 < Rmin es (Rmin e1 e2)) by (repeat apply Rmin_pos; lra).
  split; [unfold Q'; lra|]. split; [lra|].
  intros t h u d e ea k yy tt G Ht Hh Hf Hu Hd Hc Hea Hes' HP l Hl.
  specialize (IH t h u d e ea k yy tt G Ht Hh Hf Hu Hd Hc Hea ltac:(lra) HP).
  assert (0 <= e) as He by lra.
  assert (0 <= Q * e) by (apply Rmult_le_pos; lra).
  destruct (Nat.eq_dec l j) as [->|Hn].
  2:{ destruct (IH l ltac:(lia)) as (I1 & I2 & I3). split; [exact I1|].
      assert (Q * e <= Q' * e) by (apply Rmult_le_compat_r; [exact He|unfold Q'; lra]).
      split; [eapply close_le; [|exact I2]; assumption|].
      eapply close_le; [|exact I3]. apply Rplus_le_compat_l, Rmult_le_compat_l; lra. }
  destruct HP as [P1 P2 P3].
  assert (forall m, (m < j)%nat -> G m) as HG by (intros m Hm; apply IH; assumption).
  destruct (P1 j ltac:(lia)) as (L1 & L2 & L3).
  assert (close n (ea + h * (Q1 * e)) (yy j) (Y f u t h j)) as HYj.
  { intros i Hi. rewrite Y_comp by (rewrite ?Hu; lia).
    pose proof (P2 j ltac:(lia) HG i Hi) as X.
    pose proof (wdiff j (da j) (fun m => comp (k m) i) (fun m => comp (K f u t h m) i) (Q * e)
                  (fun m Hm => proj1 (proj2 (IH m Hm)) i Hi)) as W.
    replace (comp (yy j) i - _) with ((comp (yy j) i - (comp u i + h * rsum j (fun m => da j m * comp (k m) i))) +
       h * (rsum j (fun m => da j m * comp (k m) i) - rsum j (fun m => da j m * comp (K f u t h m) i))) by ring.
    eapply Rle_trans; [apply Rabs_triang|]. rewrite Rabs_mult, (Rabs_right h) by lra.
    apply Rplus_le_compat; [exact X|]. apply Rmult_le_compat_l; [lra|]. unfold Q1. lra. }
  assert (close n ((1 + Q1) * e) (yy j) (Y f u t h j)) as HYj'.
  { eapply close_le; [|exact HYj]. assert (0 <= Q1 * e) by (apply Rmult_le_pos; lra). nra. }
  assert ((1 + Q1) * e <= rr0 / 4) as Hq1.
  { apply Rle_trans with ((1 + Q1) * e1); [apply Rmult_le_compat_l; lra|]. right. unfold e1. field. lra. }
  assert (B * e <= rr0 / 4) as Hq2.
  { apply Rle_trans with ((B + 1) * e2); [apply Rmult_le_compat; lra|]. right. unfold e2. field. lra. }
  set (tc := t + dc j * h) in *.
  assert (t0 <= tc <= tf) as Htc by (apply in_span0; try lra; apply dc_range).
  pose proof (HY t h u d Ht Hh Hf Hu Hd Hc j ltac:(lia)) as Hnear. fold tc in Hnear.
  assert (close n (3 / 4 * rr0) (yy j) (y tc)) as N1.
  { apply (close_le n ((1 + Q1) * e + rr0 / 2)); [lra|]. eapply close_trans; eassumption. }
  assert (close n rr0 (yy j) (y (tt j))) as N2.
  { apply (close_le n (3 / 4 * rr0 + B * Rabs (tc - tt j))).
    - rewrite Rabs_minus_sym. assert (B * Rabs (tt j - tc) <= B * e) by (apply Rmult_le_compat_l; lra). lra.
    - eapply close_trans; [exact N1|]. apply Hsl; assumption. }
  destruct (P3 j ltac:(lia) HG N2) as (S1 & S2).
  pose proof (sp_length _ _ _ _ _ SP) as Hlen.
  assert (close n (L * rr0) (f (tt j) (yy j)) (f (tt j) (y (tt j)))) as Hbd.
  { apply HL; auto; try (eapply close_le; [|exact N2]; lra).
    intros i Hi. rewrite Rminus_eq_0, Rabs_R0. lra. }
  assert (G j) as HGj.
  { apply S2. intros i Hi. specialize (S1 i Hi). specialize (Hbd i Hi). pose proof (HM (tt j) i L2 Hi) as Hm.
    assert (L * rr0 <= 1) by (apply Rle_trans with (Rabs L * rr0); [apply Rmult_le_compat_r; lra|exact HLr]).
    replace (comp (k j) i) with ((comp (k j) i - comp (f (tt j) (yy j)) i) +
      ((comp (f (tt j) (yy j)) i - comp (f (tt j) (y (tt j))) i) + comp (f (tt j) (y (tt j))) i)) by ring.
    eapply Rle_trans; [apply Rabs_triang|].
    assert (e <= 1) by lra.
    match goal with |- _ + Rabs ?x <= _ => assert (Rabs x <= L * rr0 + M) end.
    { eapply Rle_trans; [apply Rabs_triang|]. lra. }
    lra. }
  split; [exact HGj|]. split.
  - rewrite K_Y by lia. fold tc.
    apply (close_le n (e + (Rabs Lt * e + Rabs L * ((1 + Q1) * e)))); [unfold Q'; nra|].
    eapply close_trans; [exact S1|].
    apply (close_trans n _ _ _ (f tc (yy j))).
    + eapply close_le; [|apply (HLt (tt j) tc (yy j)); auto].
      * apply Rle_trans with (Rabs Lt * Rabs (tt j - tc)); [apply Rmult_le_compat_r; [apply Rabs_pos|exact HLta]|].
        apply Rmult_le_compat_l; lra.
      * eapply close_le; [|exact N2]. lra.
      * eapply close_le; [|exact N1]. lra.
    + eapply close_le; [|apply (HL tc (yy j) (Y f u t h j) ((1 + Q1) * e)); auto].
      * apply Rmult_le_compat_r; [|exact HLa]. apply Rmult_le_pos; lra.
      * now rewrite Y_length.
      * eapply close_le; [|exact N1]. lra.
      * eapply close_le; [|exact Hnear]. lra.
  - eapply close_le; [|exact HYj]. apply Rplus_le_compat_l, Rmult_le_compat_l; [lra|].
    apply Rmult_le_compat_r; [exact He|unfold Q'; lra].
Qed.

(** One step with perturbed stages, as a step of the solution. *)
Lemma pert_step : exists rr Hs rs es Lam C, 0 < rr /\ 0 < Hs <= 1 /\ 0 < rs /\ 0 < es <= 1 /\ 0 < Lam /\ 0 <= C /\
  forall t h u d e ea k yy tt G, t0 <= t -> 0 <= h <= Hs -> t + h <= tf -> length u = n -> 0 <= d <= rs ->
  close n d u (y t) -> 0 <= ea <= e -> e <= es -> pert_stages rr t h e ea u k yy tt G ->
  close n ((1 + Lam * h) * d + h * (C * (h ^ 5 + e)) + ea) (yy 6%nat) (y (t + h)) /\ (forall l, (l < 7)%nat -> G l).
Proof.
  destruct pert as (rr & Hs & rs & Hrr & HHs & Hrs & HP).
  destruct (HP 7%nat ltac:(lia)) as (Q & es & HQ & Hes & HP7). clear HP.
  destruct (one_step n f t0 tf y SP) as (Lam & C & Hs' & rs' & HLam & HC & HHs' & Hrs' & HS).
  exists rr, (Rmin Hs Hs'), (Rmin rs rs'), es, Lam, (C + Q).
  pose proof (Rmin_l Hs Hs'). pose proof (Rmin_r Hs Hs'). pose proof (Rmin_l rs rs'). pose proof (Rmin_r rs rs').
  split; [exact Hrr|]. split; [split; [apply Rmin_pos; lra|lra]|]. split; [apply Rmin_pos; lra|]. split; [exact Hes|].
  split; [exact HLam|]. split; [lra|].
  intros t h u d e ea k yy tt G Ht Hh Hf Hu Hd Hc Hea He HPs.
  specialize (HP7 t h u d e ea k yy tt G Ht ltac:(lra) Hf Hu ltac:(lra) Hc Hea He HPs).
  split; [|intros l Hl; apply HP7; exact Hl].
  destruct (HP7 6%nat ltac:(lia)) as (_ & _ & HY). clear HP7.
  assert (forall i, (i < n)%nat -> comp (Y f u t h 6) i = comp (rk_step dopri_rows dopri_b f t u h) i) as E6.
  { intros i Hi. rewrite Y_comp, step_comp6 by (rewrite ?Hu; lia). reflexivity. }
  assert (0 <= h ^ 5) by (apply pow_le; lra).
  assert (0 <= h * (C * h ^ 5)) by (repeat apply Rmult_le_pos; lra).
  apply (close_le n ((ea + h * (Q * e)) + ((1 + Lam * h) * d + C * h ^ 6))).
  { assert (0 <= h * (C * e)) by (repeat apply Rmult_le_pos; lra). assert (0 <= h * (Q * h ^ 5)) by (repeat apply Rmult_le_pos; lra).
    replace (C * h ^ 6) with (h * (C * h ^ 5)) by ring. nra. }
  apply (close_trans n _ _ _ (rk_step dopri_rows dopri_b f t u h)).
  { intros i Hi. rewrite <- E6 by exact Hi. apply HY; exact Hi. }
  destruct (Req_dec h 0) as [->|Hh0].
  - intros i Hi. rewrite step_comp6 by (rewrite Hu; exact Hi). rewrite Rmult_0_l, !Rplus_0_r.
    specialize (Hc i Hi). replace (_ * d + _) with d by ring. exact Hc.
  - apply HS; try assumption; lra.
Qed.
End Pert.

(** Accumulation of errors over a chain of steps; [ok] is whatever else is kept. *)
Lemma accumulate {X} n (y : R -> list R) Lam a c e0 eta t0 tf rs (pts : list X) (tm : X -> R) (st : X -> list R) (ok : X -> Prop) :
  0 < Lam -> 0 <= a -> 0 <= c -> 0 <= e0 -> 0 <= eta ->
  let N := INR (length pts) in let sp := tf - t0 + N * eta in
  let bound := exp (Lam * sp) * (e0 + sp * a + N * c) in
  bound <= rs ->
  (forall x, nth_error pts 0 = Some x -> tm x = t0 /\ ok x /\ close n e0 (st x) (y t0)) ->
  (forall j x z, nth_error pts j = Some x -> nth_error pts (S j) = Some z ->
     exists h, 0 <= h /\ h <= tm z - tm x + eta /\
     forall d, 0 <= d <= rs -> ok x -> close n d (st x) (y (tm x)) ->
       ok z /\ close n ((1 + Lam * h) * d + h * a + c) (st z) (y (tm z))) ->
  (forall j x, nth_error pts j = Some x -> tm x <= tf) ->
  forall j x, nth_error pts j = Some x -> ok x /\ close n bound (st x) (y (tm x)).
Proof.
  intros HLam Ha Hc He0 Heta N SS bound Hb H0 Hst Htf.
  assert (forall j x s, nth_error pts j = Some x -> 0 <= s <= tm x - t0 + INR j * eta ->
      exp (Lam * s) * (e0 + s * a + INR j * c) <= bound) as Hle.
  { intros j x s Ej Hs. pose proof (Htf j x Ej).
    assert (INR j <= N) as HjN.
    { apply le_INR. apply Nat.lt_le_incl. apply nth_error_Some. congruence. }
    assert (INR j * eta <= N * eta) by (apply Rmult_le_compat_r; assumption).
    assert (s <= SS) by (unfold SS; lra).
    assert (INR j * c <= N * c) by (apply Rmult_le_compat_r; assumption).
    assert (s * a <= SS * a) by (apply Rmult_le_compat_r; assumption).
    pose proof (pos_INR j). assert (0 <= INR j * c) by (apply Rmult_le_pos; assumption).
    assert (0 <= s * a) by (apply Rmult_le_pos; lra).
    unfold bound. apply Rmult_le_compat; [left; apply exp_pos|lra| |lra].
    destruct (Rle_lt_or_eq_dec s SS ltac:(assumption)) as [Hlt| ->]; [|lra].
    left. apply exp_increasing. apply Rmult_lt_compat_l; lra. }
  assert (forall j x, nth_error pts j = Some x -> ok x /\ exists s, 0 <= s <= tm x - t0 + INR j * eta /\
     close n (exp (Lam * s) * (e0 + s * a + INR j * c)) (st x) (y (tm x))) as Hall.
  { induction j as [|j IH]; intros z Ej.
    - destruct (H0 z Ej) as (-> & Hk & Hcl). split; [exact Hk|]. exists 0. split; [cbn; lra|].
      eapply close_le; [|exact Hcl]. rewrite Rmult_0_r, exp_0. cbn. lra.
    - destruct (nth_error pts j) as [x|] eqn:E1.
      2:{ apply nth_error_None in E1. assert (nth_error pts (S j) <> None) as Z by congruence. apply nth_error_Some in Z. lia. }
      destruct (IH x eq_refl) as (Hk & s & Hs & Hcl).
      destruct (Hst j x z E1 Ej) as (h & Hh & Hh2 & Hstep).
      pose proof (pos_INR j). assert (0 <= INR j * c) by (apply Rmult_le_pos; assumption).
      assert (0 <= s * a) by (apply Rmult_le_pos; lra).
      set (d := exp (Lam * s) * (e0 + s * a + INR j * c)) in *.
      assert (0 <= d) by (unfold d; apply Rmult_le_pos; [left; apply exp_pos|lra]).
      pose proof (Hle j x s E1 Hs) as Hd. fold d in Hd.
      destruct (Hstep d ltac:(lra) Hk Hcl) as (Hk' & Hcl').
      split; [exact Hk'|]. exists (s + h). rewrite S_INR. split; [lra|].
      eapply close_le; [|exact Hcl'].
      assert (1 + Lam * h <= exp (Lam * h)) as Z by (apply exp_bound; apply Rmult_le_pos; lra).
      assert ((1 + Lam * h) * d <= exp (Lam * h) * d) by (apply Rmult_le_compat_r; assumption).
      replace (exp (Lam * (s + h)) * (e0 + (s + h) * a + (INR j + 1) * c))
        with (exp (Lam * h) * d + exp (Lam * (s + h)) * (h * a + c))
        by (unfold d; rewrite (Rmult_plus_distr_l Lam s h), exp_plus; ring).
      assert (1 <= exp (Lam * (s + h))) as Z2.
      { pose proof (exp_bound (Lam * (s + h))) as Z'. assert (0 <= Lam * (s + h)) by (apply Rmult_le_pos; lra). lra. }
      assert (0 <= h * a) by (apply Rmult_le_pos; lra). nra. }
  intros j x Ej. destruct (Hall j x Ej) as (Hk & s & Hs & Hcl). split; [exact Hk|].
  eapply close_le; [|exact Hcl]. apply (Hle j x s Ej Hs).
Qed.
