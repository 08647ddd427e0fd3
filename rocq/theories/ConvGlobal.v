(** Global convergence of order five of Dormand-Prince steps along a smooth
    solution. *)
From Coq Require Import Reals List Lia Lra.
From Verif Require Import SpecRK SpecConv BigO ConvLocal.
Import ListNotations.
Local Open Scope R_scope.

Lemma close_le n d d' u v : d <= d' -> close n d u v -> close n d' u v.
Proof. intros Hd H i Hi. specialize (H i Hi). lra. Qed.
Lemma close_trans n d d' u v w : close n d u v -> close n d' v w -> close n (d + d') u w.
Proof.
  intros H1 H2 i Hi. specialize (H1 i Hi). specialize (H2 i Hi).
  replace (comp u i - comp w i) with ((comp u i - comp v i) + (comp v i - comp w i)) by ring.
  eapply Rle_trans; [apply Rabs_triang|]. lra.
Qed.

Section Global.
Context (n : nat) (f : R -> list R -> list R) (t0 tf : R) (y : R -> list R).
Hypothesis SP : smooth_problem n f t0 tf y.

Definition asum (j : nat) (w : nat -> R) : R := rsum j (fun l => Rabs (w l)).
Lemma asum_pos j w : 0 <= asum j w.
Proof. unfold asum. induction j; [cbn; lra|]. rewrite rsum_S. pose proof (Rabs_pos (w j)). lra. Qed.
Lemma wdiff j (w : nat -> R) (a b : nat -> R) M : (forall l, (l < j)%nat -> Rabs (a l - b l) <= M) ->
  Rabs (rsum j (fun l => w l * a l) - rsum j (fun l => w l * b l)) <= asum j w * M.
Proof.
  intros H. unfold asum. induction j; [cbn; rewrite Rminus_0_r, Rabs_R0; lra|]. rewrite !rsum_S.
  replace (rsum j (fun l => w l * a l) + w j * a j - (rsum j (fun l => w l * b l) + w j * b j))
    with ((rsum j (fun l => w l * a l) - rsum j (fun l => w l * b l)) + w j * (a j - b j)) by ring.
  eapply Rle_trans; [apply Rabs_triang|]. rewrite Rmult_plus_distr_r. apply Rplus_le_compat.
  - apply IHj. intros; apply H; lia.
  - rewrite Rabs_mult. apply Rmult_le_compat_l; [apply Rabs_pos|apply H; lia].
Qed.

(** Stages from a perturbed starting point. *)
Lemma stable j : (j <= 7)%nat -> exists P Hs rs, 1 <= P /\ 0 < Hs <= 1 /\ 0 < rs /\
  forall t h u d, t0 <= t -> 0 < h <= Hs -> t + h <= tf -> length u = n -> 0 <= d <= rs -> close n d u (y t) ->
  forall l, (l < j)%nat -> close n (P * d) (K f u t h l) (K f (y t) t h l).
Proof.
  destruct SP as [Hlen (D & B & HD0 & HD1 & HDd & HDb) (r & L & Hr & HL) _].
  induction j as [|j IH]; intros Hj.
  - exists 1, 1, 1. split; [lra|]. split; [lra|]. split; [lra|]. intros; lia.
  - destruct IH as (P & Hs & rs & HP & HHs & Hrs & IH); [lia|].
    pose proof (E_O2 n f t0 tf y Hlen D B HD0 HD1 HDd HDb r L Hr HL j ltac:(lia)) as HE.
    destruct (O_bound n t0 tf 1 _ (r / 2) ltac:(lra) HE) as (H2 & HH2 & Hb).
    pose proof (asum_pos j (da j)) as HA.
    set (Q := 1 + asum j (da j) * P).
    assert (1 <= Q) as HQ by (unfold Q; assert (0 <= asum j (da j) * P) by (apply Rmult_le_pos; lra); lra).
    pose proof (Rabs_pos L) as HLp. pose proof (Rle_abs L) as HLa.
    set (P' := P + Rabs L * Q).
    assert (0 <= Rabs L * Q) by (apply Rmult_le_pos; lra).
    assert (0 < r / (2 * Q)) by (apply Rdiv_lt_0_compat; lra).
    exists P', (Rmin Hs H2), (Rmin rs (r / (2 * Q))).
    assert (Rmin Hs H2 <= Hs) by apply Rmin_l. assert (Rmin Hs H2 <= H2) by apply Rmin_r.
    assert (Rmin rs (r / (2 * Q)) <= rs) by apply Rmin_l.
    assert (Rmin rs (r / (2 * Q)) <= r / (2 * Q)) by apply Rmin_r.
    split; [unfold P'; lra|]. split; [split; [apply Rmin_pos; lra|lra]|]. split; [apply Rmin_pos; lra|].
    intros t h u d Ht Hh Hf Hu Hd Hc l Hl.
    specialize (IH t h u d Ht ltac:(lra) Hf Hu ltac:(lra) Hc).
    destruct (Nat.eq_dec l j) as [->|Hn].
    2:{ apply (close_le n (P * d)); [unfold P'; nra|]. apply IH. lia. }
    assert (close n (Q * d) (Y f u t h j) (Y f (y t) t h j)) as HY.
    { intros i Hi. rewrite !Y_comp by (rewrite ?Hu, ?Hlen; lia).
      replace (_ - _) with ((comp u i - comp (y t) i) +
         h * (rsum j (fun l => da j l * comp (K f u t h l) i) - rsum j (fun l => da j l * comp (K f (y t) t h l) i))) by ring.
      eapply Rle_trans; [apply Rabs_triang|]. rewrite Rabs_mult, (Rabs_right h) by lra.
      pose proof (wdiff j (da j) (fun l => comp (K f u t h l) i) (fun l => comp (K f (y t) t h l) i) (P * d)
                    (fun l Hl => IH l Hl i Hi)) as W.
      specialize (Hc i Hi). unfold Q.
      assert (0 <= asum j (da j) * (P * d)) by (repeat apply Rmult_le_pos; lra).
      match type of W with ?a <= _ => assert (h * a <= 1 * (asum j (da j) * (P * d))) end.
      { apply Rmult_le_compat; try lra. apply Rabs_pos. }
      nra. }
    assert (t0 <= t + dc j * h <= tf) as Hs' by (apply in_span; try lra; apply dc_range).
    assert (close n (r / 2) (Y f (y t) t h j) (y (t + dc j * h))) as HYy.
    { intros i Hi. pose proof (Hb t h i Ht ltac:(lra) Hf Hi) as Hbi. unfold E in Hbi. rewrite HD0 in Hbi. exact Hbi. }
    assert (Q * d <= r / 2).
    { apply Rle_trans with (Q * (r / (2 * Q))); [apply Rmult_le_compat_l; lra|]. right. field. lra. }
    rewrite !K_Y by lia.
    apply (close_le n (L * (Q * d))).
    { unfold P'. assert (L * (Q * d) <= Rabs L * (Q * d)) by (apply Rmult_le_compat_r; [nra|assumption]). nra. }
    apply HL; try assumption.
    + now rewrite Y_length.
    + rewrite Y_length. apply Hlen.
    + apply (close_le n (Q * d + r / 2)); [lra|]. eapply close_trans; eassumption.
    + apply (close_le n (r / 2)); [lra|exact HYy].
Qed.

(** One step. *)
Lemma one_step : exists Lam C Hs rs, 0 < Lam /\ 0 <= C /\ 0 < Hs <= 1 /\ 0 < rs /\
  forall t h u d, t0 <= t -> 0 < h <= Hs -> t + h <= tf -> length u = n -> 0 <= d <= rs -> close n d u (y t) ->
  close n ((1 + Lam * h) * d + C * h ^ 6) (rk_step dopri_rows dopri_b f t u h) (y (t + h)).
Proof.
  destruct (stable 6 ltac:(lia)) as (P & Hs & rs & HP & HHs & Hrs & HS).
  assert (bigO n t0 tf 6 (fun t h i => comp (rk_step dopri_rows dopri_b f t (y t) h) i - comp (y (t + h)) i)) as HO.
  { destruct SP as [Hlen (D & B & HD0 & HD1 & HDd & HDb) (r & L & Hr & HL) (J & J1 & J2 & r' & BJ & Hr' & HJ & HJd)].
    exact (local_order6 n f t0 tf y Hlen D B HD0 HD1 HDd HDb r L Hr HL J J1 J2 r' BJ Hr' HJ HJd). }
  destruct HO as (C & H & HC & HH & HO).
  pose proof (asum_pos 6 db) as HA.
  exists (1 + asum 6 db * P), C, (Rmin Hs H), rs.
  assert (0 <= asum 6 db * P) by (apply Rmult_le_pos; lra).
  assert (Rmin Hs H <= Hs) by apply Rmin_l. assert (Rmin Hs H <= H) by apply Rmin_r.
  split; [lra|]. split; [exact HC|]. split; [split; [apply Rmin_pos; lra|lra]|]. split; [exact Hrs|].
  intros t h u d Ht Hh Hf Hu Hd Hc.
  specialize (HS t h u d Ht ltac:(lra) Hf Hu Hd Hc).
  apply (close_trans n _ _ _ (rk_step dopri_rows dopri_b f t (y t) h)).
  - intros i Hi. pose proof (sp_length _ _ _ _ _ SP t) as Hlen. rewrite !step_comp6 by lia.
    replace (_ - _) with ((comp u i - comp (y t) i) +
       h * (rsum 6 (fun l => db l * comp (K f u t h l) i) - rsum 6 (fun l => db l * comp (K f (y t) t h l) i))) by ring.
    eapply Rle_trans; [apply Rabs_triang|]. rewrite Rabs_mult, (Rabs_right h) by lra.
    pose proof (wdiff 6 db (fun l => comp (K f u t h l) i) (fun l => comp (K f (y t) t h l) i) (P * d)
                  (fun l Hl => HS l Hl i Hi)) as W.
    specialize (Hc i Hi).
    match type of W with ?a <= _ => assert (h * a <= h * (asum 6 db * (P * d))) by (apply Rmult_le_compat_l; lra) end.
    assert (0 <= h * d) by (apply Rmult_le_pos; lra). nra.
  - intros i Hi. apply HO; lra || assumption.
Qed.

Lemma exp_bound x : 0 <= x -> 1 + x <= exp x.
Proof. intros [Hx|<-]; [left; apply exp_ineq1; lra|rewrite exp_0; lra]. Qed.

(** A chain of steps no longer than [H]. *)
Lemma global_order5 : exists K H0, 0 <= K /\ 0 < H0 /\
  forall (pts : list (R * list R)) H, 0 < H <= H0 ->
  hd_error pts = Some (t0, y t0) ->
  linked (fun x z => snd z = rk_step dopri_rows dopri_b f (fst x) (snd x) (fst z - fst x) /\
                     0 < fst z - fst x <= H /\ fst z <= tf) pts ->
  forall t u, In (t, u) pts -> close n (K * H ^ 5) u (y t).
Proof.
  destruct one_step as (Lam & C & Hs & rs & HLam & HC & HHs & Hrs & HS).
  set (W := exp (Lam * (tf - t0))).
  set (K := C / Lam * W).
  assert (0 < W) as HW0 by apply exp_pos.
  assert (0 <= C / Lam) as HCL by (apply Rmult_le_pos; [lra|]; left; now apply Rinv_0_lt_compat).
  assert (0 <= K) as HK0 by (unfold K; apply Rmult_le_pos; lra).
  assert (0 < rs / (K + 1)) as Hrk by (apply Rdiv_lt_0_compat; lra).
  exists K, (Rmin Hs (rs / (K + 1))). split; [assumption|]. split; [apply Rmin_pos; lra|].
  intros pts H HH Hhd Hl.
  assert (Rmin Hs (rs / (K + 1)) <= Hs) by apply Rmin_l.
  assert (Rmin Hs (rs / (K + 1)) <= rs / (K + 1)) by apply Rmin_r.
  assert (forall l1 x l2, pts = l1 ++ x :: l2 -> 
    t0 <= fst x /\ (l1 = [] \/ fst x <= tf /\ 0 < H) /\ length (snd x) = n /\
    close n (C / Lam * H ^ 5 * (exp (Lam * (fst x - t0)) - 1)) (snd x) (y (fst x))) as Hall.
  { intros l1. induction l1 as [|w l1 IH] using rev_ind; intros x l2 E.
    - rewrite E in Hhd. cbn in Hhd. injection Hhd as ->. cbn [fst snd].
      split; [lra|]. split; [now left|]. split; [apply (sp_length _ _ _ _ _ SP)|].
      intros i Hi. replace (t0 - t0) with 0 by ring. rewrite Rmult_0_r, exp_0. replace (_ - comp _ _) with 0 by ring. rewrite Rabs_R0. lra.
    - rewrite <- app_assoc in E. cbn [app] in E.
      destruct (IH w (x :: l2) E) as (I1 & I2 & I3 & I4).
      destruct (Hl l1 w x l2 E) as (E1 & E2 & E3).
      set (h := fst x - fst w) in *.
      assert (fst x = fst w + h) as Ex by (unfold h; ring).
      split; [lra|]. split; [right; lra|]. split.
      { rewrite E1. unfold rk_step, combine_stages. now rewrite map_length, seq_length. }
      assert (0 <= H ^ 5) by (apply pow_le; lra).
      set (d := C / Lam * H ^ 5 * (exp (Lam * (fst w - t0)) - 1)) in *.
      assert (1 <= exp (Lam * (fst w - t0))) as He1.
      { pose proof (exp_bound (Lam * (fst w - t0))) as X. assert (0 <= Lam * (fst w - t0)) by (apply Rmult_le_pos; lra). lra. }
      assert (0 <= C / Lam * H ^ 5) by (apply Rmult_le_pos; assumption).
      assert (0 <= d) as Hd0 by (unfold d; apply Rmult_le_pos; lra).
      assert (exp (Lam * (fst w - t0)) <= W) as HeW.
      { unfold W. destruct (Rle_lt_or_eq_dec (fst w) tf ltac:(lra)) as [Hlt| ->]; [left; apply exp_increasing; apply Rmult_lt_compat_l; lra|lra]. }
      assert (d <= rs) as Hdr.
      { apply Rle_trans with (K * H).
        - apply Rle_trans with (C / Lam * H ^ 5 * W); [unfold d; apply Rmult_le_compat_l; lra|].
          unfold K. assert (H ^ 5 <= H). { assert (H ^ 4 <= 1) by (rewrite <- (pow1 4); apply pow_incr; lra). cbn [pow] in *. nra. }
          assert (0 <= C / Lam * W) by (apply Rmult_le_pos; lra). nra.
        - apply Rle_trans with ((K + 1) * (rs / (K + 1))); [|right; field; lra].
          apply Rmult_le_compat; lra. }
      specialize (HS (fst w) h (snd w) d I1 ltac:(lra) ltac:(lra) I3 ltac:(lra) I4).
      rewrite <- Ex in HS. rewrite E1. apply (close_le _ _ _ _ _ ) with (2 := HS).
      assert (1 + Lam * h <= exp (Lam * h)) as He by (apply exp_bound; apply Rmult_le_pos; lra).
      replace (Lam * (fst x - t0)) with (Lam * h + Lam * (fst w - t0)) by (unfold h; ring).
      rewrite exp_plus. unfold d.
      assert (h ^ 6 <= h * H ^ 5) as Hh6.
      { cbn [pow]. assert (h ^ 5 <= H ^ 5) by (apply pow_incr; lra). cbn [pow] in *. nra. }
      assert (C * h ^ 6 <= C / Lam * H ^ 5 * (Lam * h)) as Hc6.
      { apply Rle_trans with (C * (h * H ^ 5)); [apply Rmult_le_compat_l; lra|]. right. field. lra. }
      set (X := exp (Lam * (fst w - t0))) in *. set (Z := C / Lam * H ^ 5) in *.
      assert (Z * ((1 + Lam * h) * X) <= Z * (exp (Lam * h) * X)) by (apply Rmult_le_compat_l; [assumption|]; apply Rmult_le_compat_r; lra).
      nra. }
  intros t u Hin. apply in_split in Hin as (l1 & l2 & E).
  destruct (Hall l1 (t, u) l2 E) as (I1 & I2 & I3 & I4). cbn [fst snd] in *.
  apply (close_le _ _ _ _ _) with (2 := I4).
  assert (0 <= H ^ 5) by (apply pow_le; lra).
  assert (exp (Lam * (t - t0)) - 1 <= W) as HW.
  { destruct I2 as [->|[I2 _]].
    - rewrite E in Hhd. injection Hhd as -> _. replace (t0 - t0) with 0 by ring. rewrite Rmult_0_r, exp_0. lra.
    - assert (exp (Lam * (t - t0)) <= W); [|lra]. unfold W.
      destruct (Rle_lt_or_eq_dec t tf I2) as [Hlt| ->]; [left; apply exp_increasing; apply Rmult_lt_compat_l; lra|lra]. }
  unfold K. replace (C / Lam * W * H ^ 5) with (C / Lam * H ^ 5 * W) by ring.
  apply Rmult_le_compat_l; [apply Rmult_le_pos; assumption|exact HW].
Qed.
End Global.

Section DenseGlobal.
Context (n : nat) (f : R -> list R -> list R) (t0 tf : R) (y : R -> list R).
Hypothesis SP : smooth_problem n f t0 tf y.

(** The continuous extension from a perturbed starting point. *)
Lemma dense_step : exists Lam C Hs rs, 0 < Lam /\ 0 <= C /\ 0 < Hs <= 1 /\ 0 < rs /\
  forall t h x u d, t0 <= t -> 0 < h <= Hs -> t + h <= tf -> 0 <= x <= 1 -> length u = n -> 0 <= d <= rs -> close n d u (y t) ->
  close n (Lam * d + C * h ^ 5) (combine_stages u h (dopri_dense x) (slopes f t u h dopri_rows [])) (y (t + x * h)).
Proof.
  destruct (stable n f t0 tf y SP 7 ltac:(lia)) as (P & Hs & rs & HP & HHs & Hrs & HS).
  assert (exists C H, 0 <= C /\ 0 < H <= 1 /\
    forall t h x i, t0 <= t -> 0 < h <= H -> t + h <= tf -> 0 <= x <= 1 -> (i < n)%nat ->
    Rabs (comp (combine_stages (y t) h (dopri_dense x) (slopes f t (y t) h dopri_rows [])) i - comp (y (t + x * h)) i)
    <= C * h ^ 5) as (C & H & HC & HH & HO).
  { destruct SP as [Hlen (D & B & HD0 & HD1 & HDd & HDb) (r & L & Hr & HL) (J & J1 & J2 & r' & BJ & Hr' & HJ & HJd)].
    exact (dense_order5 n f t0 tf y Hlen D B HD0 HD1 HDd HDb r L Hr HL J J1 J2 r' BJ Hr' HJ HJd). }
  set (A := rsum 7 (fun j => rsum 4 (fun m => Rabs (dw m j)))).
  assert (0 <= A) as HA.
  { unfold A. replace 0 with (rsum 7 (fun _ => 0)) by (sums; ring). apply rsum_le. intros.
    replace 0 with (rsum 4 (fun _ => 0)) by (sums; ring). apply rsum_le. intros. apply Rabs_pos. }
  assert (0 <= A * P) as HAP by (apply Rmult_le_pos; lra).
  exists (1 + A * P), C, (Rmin Hs H), rs.
  assert (Rmin Hs H <= Hs) by apply Rmin_l. assert (Rmin Hs H <= H) by apply Rmin_r.
  split; [lra|]. split; [exact HC|]. split; [split; [apply Rmin_pos; lra|lra]|]. split; [exact Hrs|].
  intros t h x u d Ht Hh Hf Hx Hu Hd Hc.
  specialize (HS t h u d Ht ltac:(lra) Hf Hu Hd Hc).
  apply (close_trans n _ _ _ (combine_stages (y t) h (dopri_dense x) (slopes f t (y t) h dopri_rows []))).
  - intros i Hi. pose proof (sp_length _ _ _ _ _ SP t) as Hlen. rewrite !dense_comp by lia.
    replace (_ - _) with ((comp u i - comp (y t) i) +
       h * (rsum 7 (fun l => dbt x l * comp (K f u t h l) i) - rsum 7 (fun l => dbt x l * comp (K f (y t) t h l) i))) by ring.
    eapply Rle_trans; [apply Rabs_triang|]. rewrite Rabs_mult, (Rabs_right h) by lra.
    pose proof (wdiff 7 (dbt x) (fun l => comp (K f u t h l) i) (fun l => comp (K f (y t) t h l) i) (P * d)
                  (fun l Hl => HS l Hl i Hi)) as W.
    assert (asum 7 (dbt x) <= A) as HA'.
    { unfold asum, A. apply rsum_le. intros j _. unfold dbt. eapply Rle_trans; [apply rsum_abs|]. apply rsum_le.
      intros m _. rewrite Rabs_mult. pose proof (dp_range m x Hx). rewrite (Rabs_right (dp m x)) by lra.
      pose proof (Rabs_pos (dw m j)). nra. }
    specialize (Hc i Hi). pose proof (asum_pos 7 (dbt x)).
    assert (0 <= P * d) by (apply Rmult_le_pos; lra).
    assert (asum 7 (dbt x) * (P * d) <= A * (P * d)) by (apply Rmult_le_compat_r; assumption).
    match type of W with ?a <= _ => assert (h * a <= 1 * (A * (P * d))) end.
    { apply Rmult_le_compat; try lra. apply Rabs_pos. }
    nra.
  - intros i Hi. apply HO; lra || assumption.
Qed.
End DenseGlobal.
