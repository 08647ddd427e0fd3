(** Consequences of the Dormand-Prince tableau, and facts about every explicit
    Runge-Kutta method. *)
From Coq Require Import Reals List Lia Lra.
From Verif Require Import SpecRK.
Import ListNotations.
Local Open Scope R_scope.

Ltac enum_tree H :=
  repeat match type of H with
  | context [order ?t] => is_var t; destruct t as [?l]; cbn in H
  | context [fold_right _ _ ?l] => is_var l; destruct l; cbn in H; try (exfalso; lia)
  end.

Ltac weigh := unfold condition; cbn -[IZR pow]; cbn [pow]; lra.

Lemma dopri_order5 t : (order t <= 5)%nat -> condition dopri_rows dopri_b 1 t.
Proof. intros H. enum_tree H; weigh. Qed.
Lemma dopri_embedded4 t : (order t <= 4)%nat -> condition dopri_rows dopri_bhat 1 t.
Proof. intros H. enum_tree H; weigh. Qed.

(** Not more. *)
Definition bushy (n : nat) : tree :=
  Node (repeat (Node []) n).
Lemma dopri_not_order6 : exists t, order t = 6%nat /\ ~ condition dopri_rows dopri_b 1 t.
Proof. exists (bushy 5). split; [reflexivity|]. unfold condition. cbn -[IZR pow]. cbn [pow]. lra. Qed.
Lemma dopri_embedded_not5 : exists t, order t = 5%nat /\ ~ condition dopri_rows dopri_bhat 1 t.
Proof. exists (bushy 4). split; [reflexivity|]. unfold condition. cbn -[IZR pow]. cbn [pow]. lra. Qed.

(** Row sums: [c_i = sum_j a_ij]. *)
Lemma dopri_row_sums : Forall (fun row => fst row = wsum (snd row) (repeat 1 (length (snd row)))) dopri_rows.
Proof. unfold dopri_rows. repeat constructor; cbn; lra. Qed.

Lemma dopri_dense4 theta t : (order t <= 4)%nat -> condition dopri_rows (dopri_dense theta) theta t.
Proof.
  intros H. enum_tree H; unfold condition, dopri_dense, dense_weight, comp, dopri_d; cbn -[IZR pow]; cbn [pow]; field.
Qed.

Ltac listeq := repeat (match goal with |- _ :: _ = _ :: _ => apply (f_equal2 cons); [lra|] end); reflexivity.
Lemma dopri_dense_0 : dopri_dense 0 = repeat 0 7.
Proof. unfold dopri_dense, dense_weight. cbn [map seq repeat]. listeq. Qed.
Lemma dopri_dense_1 : dopri_dense 1 = dopri_b.
Proof. unfold dopri_dense, dense_weight, comp. cbn -[IZR]. unfold dopri_b. listeq. Qed.

(** ** Every explicit Runge-Kutta method *)
Lemma rsum_S n g : rsum (S n) g = rsum n g + g n.
Proof.
  unfold rsum. rewrite seq_S, map_app, fold_right_app. cbn.
  generalize (map g (seq 0 n)). induction l; cbn; lra.
Qed.
Lemma rsum_ext n g h : (forall i, (i < n)%nat -> g i = h i) -> rsum n g = rsum n h.
Proof.
  intros H. unfold rsum. f_equal. apply map_ext_in. intros i Hi. apply in_seq in Hi. apply H. lia.
Qed.
Lemma rsum_plus n g h : rsum n (fun i => g i + h i) = rsum n g + rsum n h.
Proof. induction n; rewrite ?rsum_S; [unfold rsum; cbn; lra|]. rewrite IHn. lra. Qed.
Lemma rsum_scale n c g : rsum n (fun i => c * g i) = c * rsum n g.
Proof. induction n; rewrite ?rsum_S; [unfold rsum; cbn; lra|]. rewrite IHn. lra. Qed.
Lemma rsum_zero n : rsum n (fun _ => 0) = 0.
Proof. induction n; rewrite ?rsum_S; [reflexivity|lra]. Qed.
Lemma rsum_le n g h : (forall i, (i < n)%nat -> g i <= h i) -> rsum n g <= rsum n h.
Proof.
  induction n; intros H; rewrite ?rsum_S; [unfold rsum; cbn; lra|].
  apply Rplus_le_compat; [apply IHn; intros; apply H; lia|apply H; lia].
Qed.
Lemma rsum_const n c : rsum n (fun _ => c) = INR n * c.
Proof. induction n; [unfold rsum; cbn; lra|]. rewrite rsum_S, IHn, S_INR. lra. Qed.

Lemma combine_stages_length u h ws ks : length (combine_stages u h ws ks) = length u.
Proof. unfold combine_stages. now rewrite map_length, seq_length. Qed.
Lemma combine_stages_comp u h ws ks i : (i < length u)%nat ->
  comp (combine_stages u h ws ks) i = comp u i + h * wsum ws (map (fun k => comp k i) ks).
Proof.
  intros Hi. unfold combine_stages, comp at 1.
  rewrite nth_indep with (d' := (fun i => comp u i + h * wsum ws (map (fun k => comp k i) ks)) 0%nat)
    by (rewrite map_length, seq_length; assumption).
  rewrite (map_nth (fun i => comp u i + h * wsum ws (map (fun k => comp k i) ks))).
  rewrite seq_nth by assumption. reflexivity.
Qed.

Section Invariants.
Variables (f : R -> list R -> list R) (w : nat -> R) (n : nat).
Hypothesis f_len : forall t u, length u = n -> length (f t u) = n.
Hypothesis f_inv : forall t u, length u = n -> rsum n (fun i => w i * comp (f t u) i) = 0.

Lemma slopes_invariant t u h rows : length u = n -> forall ks,
  Forall (fun k => length k = n /\ rsum n (fun i => w i * comp k i) = 0) ks ->
  Forall (fun k => length k = n /\ rsum n (fun i => w i * comp k i) = 0) (slopes f t u h rows ks).
Proof.
  intros Hu. induction rows as [|(c,a) rows IH]; intros ks Hk; cbn [slopes]; [assumption|].
  apply IH. apply Forall_app. split; [assumption|]. constructor; [|constructor].
  split; [apply f_len|apply f_inv]; now rewrite combine_stages_length.
Qed.

Lemma wsum_invariant ws ks :
  Forall (fun k => length k = n /\ rsum n (fun i => w i * comp k i) = 0) ks ->
  rsum n (fun i => w i * wsum ws (map (fun k => comp k i) ks)) = 0.
Proof.
  intros H. revert ws. induction H as [|k ks (Hk & H0) H IH]; intros ws.
  - transitivity (rsum n (fun _ => 0)); [apply rsum_ext|apply rsum_zero]. intros. destruct ws; cbn; lra.
  - destruct ws as [|x ws]; cbn [wsum map].
    + transitivity (rsum n (fun _ => 0)); [apply rsum_ext|apply rsum_zero]. intros. lra.
    + rewrite (rsum_ext _ _ (fun i => x * (w i * comp k i) + w i * wsum ws (map (fun k => comp k i) ks)))
        by (intros; lra).
      rewrite rsum_plus, rsum_scale, H0, IH. lra.
Qed.

(** A linear functional that vanishes on the right-hand side is conserved. *)
Lemma rk_step_invariant rows b t u h : length u = n ->
  rsum n (fun i => w i * comp (rk_step rows b f t u h) i) = rsum n (fun i => w i * comp u i).
Proof.
  intros Hu. unfold rk_step.
  rewrite (rsum_ext _ _ (fun i => w i * comp u i +
     h * (w i * wsum b (map (fun k => comp k i) (slopes f t u h rows []))))).
  - rewrite rsum_plus, rsum_scale, wsum_invariant; [lra|].
    apply slopes_invariant; [assumption|constructor].
  - intros i Hi. rewrite combine_stages_comp by lia. lra.
Qed.
End Invariants.

(** ** Right-hand sides depending on time only *)
Lemma slopes_quad (f : R -> list R -> list R) (g : R -> list R) t u h rows ks :
  (forall t u', length u' = length u -> f t u' = g t) ->
  slopes f t u h rows ks = ks ++ map (fun row => g (t + fst row * h)) rows.
Proof.
  intros Hf. revert ks. induction rows as [|(c,a) rows IH]; intros ks; cbn [slopes map fst].
  - now rewrite app_nil_r.
  - rewrite IH, Hf by apply combine_stages_length. now rewrite <- app_assoc.
Qed.

Lemma dopri_quadrature (f : R -> list R -> list R) (a : nat -> nat -> R) t u h i :
  (forall t u', length u' = length u -> f t u' = map (fun i => poly4 (a i) t) (seq 0 (length u))) ->
  (i < length u)%nat ->
  comp (rk_step dopri_rows dopri_b f t u h) i - comp u i = poly4_int (a i) (t + h) - poly4_int (a i) t.
Proof.
  intros Hf Hi. unfold rk_step.
  rewrite (slopes_quad f (fun t => map (fun i => poly4 (a i) t) (seq 0 (length u)))) by assumption.
  rewrite combine_stages_comp by assumption. cbn [app].
  assert (forall x, comp (map (fun i => poly4 (a i) x) (seq 0 (length u))) i = poly4 (a i) x) as Hc.
  { intros x. unfold comp. rewrite nth_indep with (d' := (fun i => poly4 (a i) x) 0%nat)
      by (rewrite map_length, seq_length; assumption).
    rewrite (map_nth (fun i => poly4 (a i) x)). now rewrite seq_nth. }
  rewrite map_map. cbn [map dopri_rows dopri_b wsum fst]. rewrite !Hc.
  unfold poly4, poly4_int. field.
Qed.

(** ** Linear constant-coefficient systems *)
Section Linear.
Variables (n : nat) (M : nat -> nat -> R).
Notation mv := (SpecRK.mv n M).
Notation mpow := (SpecRK.mpow n M).
Notation krylov := (SpecRK.krylov n M).

Lemma mv_length u : length (mv u) = n.
Proof. unfold SpecRK.mv. now rewrite map_length, seq_length. Qed.
Lemma mv_comp u i : (i < n)%nat -> comp (mv u) i = rsum n (fun j => M i j * comp u j).
Proof.
  intros Hi. unfold SpecRK.mv, comp at 1.
  rewrite nth_indep with (d' := (fun i => rsum n (fun j => M i j * comp u j)) 0%nat)
      by (rewrite map_length, seq_length; assumption).
  rewrite (map_nth (fun i => rsum n (fun j => M i j * comp u j))). now rewrite seq_nth.
Qed.
Lemma mpow_length k u : length u = n -> length (mpow k u) = n.
Proof. destruct k; intros; [assumption|apply mv_length]. Qed.

Lemma krylov_mv cs k u v i : (i < n)%nat ->
  (forall j, (j < n)%nat -> comp v j = krylov cs k u j) ->
  comp (mv v) i = krylov cs (S k) u i.
Proof.
  intros Hi Hv. rewrite mv_comp by assumption.
  rewrite (rsum_ext _ _ (fun j => M i j * krylov cs k u j)) by (intros; rewrite Hv by assumption; reflexivity).
  clear Hv v. revert k. induction cs as [|c cs IH]; intros k; cbn [SpecRK.krylov].
  - transitivity (rsum n (fun _ => 0)); [apply rsum_ext|apply rsum_zero]. intros. lra.
  - rewrite <- IH. cbn [SpecRK.mpow]. rewrite mv_comp by assumption.
    rewrite (rsum_ext _ _ (fun j => c * (M i j * comp (mpow k u) j) + M i j * krylov cs (S k) u j))
      by (intros; lra).
    rewrite rsum_plus, rsum_scale. reflexivity.
Qed.

Lemma dopri_linear (f : R -> list R -> list R) t u h i :
  (forall t u, f t u = mv u) -> length u = n -> (i < n)%nat ->
  comp (rk_step dopri_rows dopri_b f t u h) i =
  krylov [1; h; h^2/2; h^3/6; h^4/24; h^5/120; h^6/600] 0 u i.
Proof.
  intros Hf Hu Hi. unfold rk_step, dopri_rows. cbn [slopes app]. rewrite !Hf.
  set (y1 := combine_stages u h [] []).
  assert (forall j, (j < n)%nat -> comp y1 j = krylov [1] 0 u j) as Y1.
  { intros j Hj. unfold y1. rewrite combine_stages_comp by lia. cbn [map wsum SpecRK.krylov SpecRK.mpow]. lra. }
  assert (forall j, (j < n)%nat -> comp (mv y1) j = krylov [1] 1 u j) as K1
    by (intros; now apply krylov_mv).
  set (y2 := combine_stages u h [1/5] [mv y1]).
  assert (forall j, (j < n)%nat -> comp y2 j = krylov [1; h/5] 0 u j) as Y2.
  { intros j Hj. unfold y2. rewrite combine_stages_comp by lia. cbn [map wsum]. rewrite K1 by lia. cbn [SpecRK.krylov SpecRK.mpow]. field. }
  assert (forall j, (j < n)%nat -> comp (mv y2) j = krylov [1; h/5] 1 u j) as K2
    by (intros; now apply krylov_mv).
  set (y3 := combine_stages u h [3/40; 9/40] [mv y1; mv y2]).
  assert (forall j, (j < n)%nat -> comp y3 j = krylov [1; h*(3/10); h^2*(9/200)] 0 u j) as Y3.
  { intros j Hj. unfold y3. rewrite combine_stages_comp by lia. cbn [map wsum]. rewrite K1, K2 by lia. cbn [SpecRK.krylov SpecRK.mpow]. field. }
  assert (forall j, (j < n)%nat -> comp (mv y3) j = krylov [1; h*(3/10); h^2*(9/200)] 1 u j) as K3
    by (intros; now apply krylov_mv).
  set (y4 := combine_stages u h [44/45; -(56/15); 32/9] [mv y1; mv y2; mv y3]).
  set (c4 := [1; h*(4/5); h^2*(-(56/15)*(1/5) + 32/9*(3/10)); h^3*(32/9*(9/200))]).
  assert (forall j, (j < n)%nat -> comp y4 j = krylov c4 0 u j) as Y4.
  { intros j Hj. unfold y4, c4. rewrite combine_stages_comp by lia. cbn [map wsum]. rewrite K1, K2, K3 by lia. cbn [SpecRK.krylov SpecRK.mpow]. field. }
  assert (forall j, (j < n)%nat -> comp (mv y4) j = krylov c4 1 u j) as K4
    by (intros; now apply krylov_mv).
  set (y5 := combine_stages u h [19372/6561; -(25360/2187); 64448/6561; -(212/729)] [mv y1; mv y2; mv y3; mv y4]).
  set (c5 := [1; h*(8/9);
     h^2*(-(25360/2187)*(1/5) + 64448/6561*(3/10) - 212/729*(4/5));
     h^3*(64448/6561*(9/200) - 212/729*(-(56/15)*(1/5) + 32/9*(3/10)));
     h^4*(-(212/729)*(32/9*(9/200)))]).
  assert (forall j, (j < n)%nat -> comp y5 j = krylov c5 0 u j) as Y5.
  { intros j Hj. unfold y5, c5. rewrite combine_stages_comp by lia. cbn [map wsum]. rewrite K1, K2, K3, K4 by lia.
    unfold c4. cbn [SpecRK.krylov SpecRK.mpow]. field. }
  assert (forall j, (j < n)%nat -> comp (mv y5) j = krylov c5 1 u j) as K5
    by (intros; now apply krylov_mv).
  set (y6 := combine_stages u h [9017/3168; -(355/33); 46732/5247; 49/176; -(5103/18656)] [mv y1; mv y2; mv y3; mv y4; mv y5]).
  set (x52 := -(25360/2187)*(1/5) + 64448/6561*(3/10) - 212/729*(4/5)).
  set (x53 := 64448/6561*(9/200) - 212/729*(-(56/15)*(1/5) + 32/9*(3/10))).
  set (x54 := -(212/729)*(32/9*(9/200))).
  set (c6 := [1; h;
     h^2*(-(355/33)*(1/5) + 46732/5247*(3/10) + 49/176*(4/5) - 5103/18656*(8/9));
     h^3*(46732/5247*(9/200) + 49/176*(-(56/15)*(1/5) + 32/9*(3/10)) - 5103/18656*x52);
     h^4*(49/176*(32/9*(9/200)) - 5103/18656*x53);
     h^5*(-(5103/18656)*x54)]).
  assert (forall j, (j < n)%nat -> comp y6 j = krylov c6 0 u j) as Y6.
  { intros j Hj. unfold y6, c6, x52, x53, x54. rewrite combine_stages_comp by lia. cbn [map wsum]. rewrite K1, K2, K3, K4, K5 by lia.
    unfold c4, c5. cbn [SpecRK.krylov SpecRK.mpow]. field. }
  assert (forall j, (j < n)%nat -> comp (mv y6) j = krylov c6 1 u j) as K6
    by (intros; now apply krylov_mv).
  rewrite combine_stages_comp by lia. unfold dopri_b. cbn [map wsum].
  rewrite K1, K3, K4, K5, K6 by lia.
  unfold c4, c5, c6, x52, x53, x54. cbn [SpecRK.krylov SpecRK.mpow]. field.
Qed.
End Linear.
