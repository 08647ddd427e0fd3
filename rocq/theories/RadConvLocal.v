(** One step of the reference description of Radau5 along a solution: whatever
    the Newton iteration accepts is consistent of first order. *)
From Coq Require Import Reals List Lia Lra Arith.
From Verif Require Import Arith Vec Core ArithR SpecRK SpecODE SpecLin SpecRadau SpecStage SpecIRK SpecConv RKFacts BigO ConvGlobal RadauRef.
Import ListNotations.
Local Open Scope R_scope.

(** All components of the three vectors are at most [a]. *)
Definition bnd (n : nat) (a : R) (z : three) : Prop :=
  forall k i, (i < n)%nat -> Rabs (comp (pick z k) i) <= a.
Lemma bnd_le n a b z : a <= b -> bnd n a z -> bnd n b z.
Proof. intros H B k i Hi. specialize (B k i Hi). lra. Qed.
Lemma pick_stages n g k i : (i < n)%nat -> comp (pick (stages n g) k) i = g (match k with O => O | 1%nat => 1%nat | _ => 2%nat end) i.
Proof. intros Hi. destruct k as [|[|k]]; cbn [pick stages st1 st2 st3]; now rewrite comp_vect. Qed.
Lemma rsum3 g : rsum 3 g = g 0%nat + g 1%nat + g 2%nat.
Proof. unfold rsum. cbn. ring. Qed.
Ltac absd := unfold Rabs in *; repeat destruct (Rcase_abs _); lra.

(** [w'] from the right-hand sides of the linear systems. *)
Lemma solved hm r0 r1 r2 w0 w1 w2 : 0 < hm ->
  radau_gamma * (w0 / hm) = r0 -> rad_alpha * (w1 / hm) - rad_beta * (w2 / hm) = r1 ->
  rad_beta * (w1 / hm) + rad_alpha * (w2 / hm) = r2 ->
  let D := rad_alpha ^ 2 + rad_beta ^ 2 in
  w0 = hm * (r0 / radau_gamma) /\ w1 = hm * ((rad_alpha * r1 + rad_beta * r2) / D) /\
  w2 = hm * ((rad_alpha * r2 - rad_beta * r1) / D).
Proof.
  intros Hh <- <- <- D. unfold D, radau_gamma, rad_alpha, rad_beta. repeat split; field; lra.
Qed.
Lemma solved_bound hm r0 r1 r2 w0 w1 w2 : 0 < hm ->
  radau_gamma * (w0 / hm) = r0 -> rad_alpha * (w1 / hm) - rad_beta * (w2 / hm) = r1 ->
  rad_beta * (w1 / hm) + rad_alpha * (w2 / hm) = r2 ->
  Rabs w0 + Rabs w1 + Rabs w2 <= hm * (Rabs r0 + Rabs r1 + Rabs r2).
Proof.
  intros Hh E0 E1 E2. destruct (solved hm r0 r1 r2 w0 w1 w2 Hh E0 E1 E2) as (-> & -> & ->).
  rewrite !Rabs_mult, !(Rabs_right hm) by lra. rewrite <- !Rmult_plus_distr_l. apply Rmult_le_compat_l; [lra|].
  assert (Rabs (r0 / radau_gamma) <= Rabs r0) by (unfold radau_gamma; absd).
  assert (Rabs ((rad_alpha * r1 + rad_beta * r2) / (rad_alpha ^ 2 + rad_beta ^ 2)) <= (Rabs r1 + Rabs r2) / 2)
    by (unfold rad_alpha, rad_beta; absd).
  assert (Rabs ((rad_alpha * r2 - rad_beta * r1) / (rad_alpha ^ 2 + rad_beta ^ 2)) <= (Rabs r1 + Rabs r2) / 2)
    by (unfold rad_alpha, rad_beta; absd).
  lra.
Qed.
(** The weights of the new point sum to one up to rounding. *)
Lemma weight_sum phi : Rabs (rad_T 2 0 * (rsum 3 (rad_TI 0) * phi / radau_gamma) +
    (rad_alpha * (rsum 3 (rad_TI 1) * phi) + rad_beta * (rsum 3 (rad_TI 2) * phi)) / (rad_alpha ^ 2 + rad_beta ^ 2) - phi)
  <= / 10 ^ 16 * Rabs phi.
Proof.
  rewrite !rsum3. unfold rad_T, rad_TI, radau_gamma, rad_alpha, rad_beta.
  match goal with |- Rabs ?e <= _ => match e with context [phi] => idtac end end.
  replace (/ 10 ^ 16) with (1 / 10000000000000000) by field.
  absd.
Qed.
Lemma TI_bound a b c A k : Rabs a <= A -> Rabs b <= A -> Rabs c <= A ->
  Rabs (rad_TI k 0 * a + rad_TI k 1 * b + rad_TI k 2 * c) <= 6 * A.
Proof. intros Ha Hb Hc. destruct k as [|[|[|k]]]; unfold rad_TI; absd. Qed.
Lemma T_bound a b c k : Rabs (rad_T k 0 * a + rad_T k 1 * b + rad_T k 2 * c) <= Rabs a + Rabs b + Rabs c.
Proof. destruct k as [|[|[|k]]]; unfold rad_T; absd. Qed.

Lemma rsum_abs_le n g : Rabs (rsum n g) <= rsum n (fun i => Rabs (g i)).
Proof.
  induction n as [|n IH]; [unfold rsum; cbn; rewrite Rabs_R0; lra|].
  rewrite !rsum_S. eapply Rle_trans; [apply Rabs_triang|]. lra.
Qed.
Lemma rsum_term n g i : (i < n)%nat -> (forall j, (j < n)%nat -> 0 <= g j) -> g i <= rsum n g.
Proof.
  induction n as [|n IH]; intros Hi Hg; [lia|]. rewrite rsum_S.
  assert (0 <= rsum n g). { rewrite <- (rsum_zero n). apply rsum_le. intros j Hj. apply Hg. lia. }
  destruct (Nat.eq_dec i n) as [->|Hn]; [specialize (Hg n); assert (0 <= g n) by (apply Hg; lia); lra|].
  assert (g i <= rsum n g) by (apply IH; [lia|intros j Hj; apply Hg; lia]). assert (0 <= g n) by (apply Hg; lia). lra.
Qed.
Lemma mat_abs n J B (v : nat -> R) : (forall i j, (i < n)%nat -> (j < n)%nat -> Rabs (entry J i j) <= B) ->
  forall i, (i < n)%nat -> Rabs (rsum n (fun j => entry J i j * v j)) <= B * rsum n (fun j => Rabs (v j)).
Proof.
  intros HB i Hi. eapply Rle_trans; [apply rsum_abs_le|]. rewrite <- rsum_scale. apply rsum_le. intros j Hj.
  rewrite Rabs_mult. apply Rmult_le_compat_r; [apply Rabs_pos|]. now apply HB.
Qed.

Section Increment.
Context (n : nat) (F : R -> list R -> list R).
Definition stage_slopes (t : R) (u : list R) (h : R) (z : three) : three :=
  mk3 (F (t + rad_c 0 * h) (vect n (fun i => comp u i + comp (st1 z) i)))
      (F (t + rad_c 1 * h) (vect n (fun i => comp u i + comp (st2 z) i)))
      (F (t + rad_c 2 * h) (vect n (fun i => comp u i + comp (st3 z) i))).
Definition new_w (w d : three) : three := stages n (fun k i => comp (pick w k) i + comp (pick d k) i).

Context (t : R) (u : list R) (h : R) (m : R * list (list R)) (w z d : three) (BJ Fb Wb : R).
Hypothesis Hinc : increment n F t u h m w z d.
Hypothesis Hm : 0 < fst m.
Hypothesis HBJ : 0 <= BJ.
Hypothesis HJ : forall i j, (i < n)%nat -> (j < n)%nat -> Rabs (entry (snd m) i j) <= BJ.
Hypothesis Hsmall : fst m * (INR n * BJ) <= / 2.
Hypothesis HW : bnd n Wb w.

Let f := stage_slopes t u h z.
Let Jd k i := rsum n (fun j => entry (snd m) i j * comp (pick d k) j).
Let r k i := mixed rad_TI f k i + Jd k i.
Let s k := rsum n (fun j => Rabs (comp (pick d k) j)).
Let X := rsum n (fun i => Rabs (comp (pick w 0) i + comp (pick d 0) i) + Rabs (comp (pick w 1) i + comp (pick d 1) i)
                          + Rabs (comp (pick w 2) i + comp (pick d 2) i)).

Lemma inc_solved i : (i < n)%nat ->
  radau_gamma * ((comp (pick w 0) i + comp (pick d 0) i) / fst m) = r 0%nat i /\
  rad_alpha * ((comp (pick w 1) i + comp (pick d 1) i) / fst m)
    - rad_beta * ((comp (pick w 2) i + comp (pick d 2) i) / fst m) = r 1%nat i /\
  rad_beta * ((comp (pick w 1) i + comp (pick d 1) i) / fst m)
    + rad_alpha * ((comp (pick w 2) i + comp (pick d 2) i) / fst m) = r 2%nat i.
Proof.
  intros Hi. destruct Hinc as (_ & H). destruct (H i Hi) as (E0 & E1 & E2).
  unfold r, Jd, f, stage_slopes. cbn [pick st1 st2 st3] in *. repeat split; lra.
Qed.
Lemma Jd_bound k i : (i < n)%nat -> Rabs (Jd k i) <= BJ * s k.
Proof. intros Hi. exact (mat_abs n (snd m) BJ (fun j => comp (pick d k) j) HJ i Hi). Qed.
Lemma s_pos k : 0 <= s k.
Proof. unfold s. rewrite <- (rsum_zero n). apply rsum_le. intros. apply Rabs_pos. Qed.
Lemma s_bound : s 0%nat + s 1%nat + s 2%nat <= X + 3 * (INR n * Wb).
Proof.
  unfold s, X. rewrite <- !rsum_plus.
  replace (3 * (INR n * Wb)) with (rsum n (fun _ => 3 * Wb)) by (rewrite rsum_const; ring).
  rewrite <- rsum_plus. apply rsum_le. intros i Hi.
  pose proof (HW 0%nat i Hi). pose proof (HW 1%nat i Hi). pose proof (HW 2%nat i Hi). absd.
Qed.
Lemma X_bound : bnd n Fb f -> X <= 2 * fst m * (18 * (INR n * Fb) + 3 * (INR n * (INR n * BJ) * Wb)).
Proof.
  intros HF.
  assert (X <= fst m * (18 * (INR n * Fb) + INR n * BJ * (s 0%nat + s 1%nat + s 2%nat))) as H1.
  { replace (fst m * _) with (rsum n (fun _ => fst m * (18 * Fb + BJ * (s 0%nat + s 1%nat + s 2%nat)))) by (rewrite rsum_const; ring).
    unfold X. apply rsum_le. intros i Hi. destruct (inc_solved i Hi) as (E0 & E1 & E2).
    eapply Rle_trans; [exact (solved_bound (fst m) _ _ _ _ _ _ Hm E0 E1 E2)|]. apply Rmult_le_compat_l; [lra|].
    assert (forall k, Rabs (r k i) <= 6 * Fb + BJ * s k) as Hr.
    { intros k. unfold r. eapply Rle_trans; [apply Rabs_triang|].
      pose proof (Jd_bound k i Hi). unfold mixed. rewrite rsum3.
      pose proof (TI_bound (comp (pick f 0) i) (comp (pick f 1) i) (comp (pick f 2) i) Fb k (HF 0%nat i Hi) (HF 1%nat i Hi) (HF 2%nat i Hi)). lra. }
    pose proof (Hr 0%nat). pose proof (Hr 1%nat). pose proof (Hr 2%nat). lra. }
  pose proof s_bound as H2.
  assert (0 <= X). { unfold X. rewrite <- (rsum_zero n). apply rsum_le. intros i _.
    pose proof (Rabs_pos (comp (pick w 0) i + comp (pick d 0) i)). pose proof (Rabs_pos (comp (pick w 1) i + comp (pick d 1) i)).
    pose proof (Rabs_pos (comp (pick w 2) i + comp (pick d 2) i)). lra. }
  assert (fst m * (INR n * BJ) * (s 0%nat + s 1%nat + s 2%nat) <= fst m * (INR n * BJ) * (X + 3 * (INR n * Wb))).
  { apply Rmult_le_compat_l; [|exact H2]. repeat apply Rmult_le_pos; try lra. apply pos_INR. }
  assert (fst m * (INR n * BJ) * X <= / 2 * X) by (apply Rmult_le_compat_r; assumption).
  lra.
Qed.
Lemma X_term i : (i < n)%nat -> Rabs (comp (pick w 0) i + comp (pick d 0) i) + Rabs (comp (pick w 1) i + comp (pick d 1) i)
                          + Rabs (comp (pick w 2) i + comp (pick d 2) i) <= X.
Proof.
  intros Hi. unfold X.
  apply (rsum_term n (fun i => Rabs (comp (pick w 0) i + comp (pick d 0) i) + Rabs (comp (pick w 1) i + comp (pick d 1) i)
                          + Rabs (comp (pick w 2) i + comp (pick d 2) i)) i Hi).
  intros j _. pose proof (Rabs_pos (comp (pick w 0) j + comp (pick d 0) j)). pose proof (Rabs_pos (comp (pick w 1) j + comp (pick d 1) j)).
    pose proof (Rabs_pos (comp (pick w 2) j + comp (pick d 2) j)). lra.
Qed.

(** The new iterates. *)
Lemma inc_bound : bnd n Fb f ->
  let Xb := 2 * fst m * (18 * (INR n * Fb) + 3 * (INR n * (INR n * BJ) * Wb)) in
  bnd n Xb (new_w w d) /\ bnd n Xb (stages n (mixed rad_T (new_w w d))) /\ bnd n (Xb + 3 * (INR n * Wb)) d.
Proof.
  intros HF Xb. pose proof (X_bound HF) as HX. fold Xb in HX.
  assert (forall i, (i < n)%nat -> _) as HT by exact X_term.
  split; [|split].
  - intros k i Hi. unfold new_w. rewrite pick_stages by exact Hi. specialize (HT i Hi).
    pose proof (Rabs_pos (comp (pick w 0) i + comp (pick d 0) i)). pose proof (Rabs_pos (comp (pick w 1) i + comp (pick d 1) i)).
    pose proof (Rabs_pos (comp (pick w 2) i + comp (pick d 2) i)). destruct k as [|[|k]]; lra.
  - intros k i Hi. rewrite pick_stages by exact Hi. unfold mixed. rewrite rsum3. unfold new_w. rewrite !pick_stages by exact Hi.
    eapply Rle_trans; [apply T_bound|]. specialize (HT i Hi). lra.
  - intros k i Hi. pose proof s_bound as HS. pose proof (s_pos 0%nat). pose proof (s_pos 1%nat). pose proof (s_pos 2%nat).
    assert (Rabs (comp (pick d k) i) <= s k) as H3.
    { apply (rsum_term n (fun j => Rabs (comp (pick d k) j)) i Hi). intros. apply Rabs_pos. }
    destruct k as [|[|k]]; [lra|lra|]. change (s (S (S k))) with (s 2%nat) in H3. lra.
Qed.

(** The new last stage, compared with a step along [phi]. *)
Lemma inc_third (phi : nat -> R) Psi : bnd n Fb f -> 
  (forall k i, (i < n)%nat -> Rabs (comp (pick f k) i - phi i) <= Psi) ->
  let Xb := 2 * fst m * (18 * (INR n * Fb) + 3 * (INR n * (INR n * BJ) * Wb)) in
  forall i, (i < n)%nat ->
  Rabs (comp (st3 (stages n (mixed rad_T (new_w w d)))) i - fst m * phi i)
  <= fst m * (/ 10 ^ 16 * Rabs (phi i) + 6 * Psi + BJ * (Xb + 3 * (INR n * Wb))).
Proof.
  intros HF HP Xb i Hi. pose proof (X_bound HF) as HX. fold Xb in HX. pose proof s_bound as HS.
  destruct (inc_solved i Hi) as (E0 & E1 & E2).
  destruct (solved (fst m) _ _ _ _ _ _ Hm E0 E1 E2) as (W0 & W1 & W2).
  change (st3 (stages n (mixed rad_T (new_w w d)))) with (pick (stages n (mixed rad_T (new_w w d))) 2).
  rewrite pick_stages by exact Hi. unfold mixed. rewrite rsum3. unfold new_w. rewrite !pick_stages by exact Hi.
  rewrite W0, W1. change (rad_T 2 1) with 1. change (rad_T 2 2) with 0. clear W0 W1 W2.
  set (q k := rad_TI k 0 * (comp (pick f 0) i - phi i) + rad_TI k 1 * (comp (pick f 1) i - phi i)
              + rad_TI k 2 * (comp (pick f 2) i - phi i) + Jd k i).
  assert (forall k, r k i = rsum 3 (rad_TI k) * phi i + q k) as Er.
  { intros k. unfold r, q, mixed. rewrite !rsum3. ring. }
  assert (forall k, Rabs (q k) <= 6 * Psi + BJ * s k) as Hq.
  { intros k. unfold q. eapply Rle_trans; [apply Rabs_triang|]. pose proof (Jd_bound k i Hi).
    pose proof (TI_bound _ _ _ Psi k (HP 0%nat i Hi) (HP 1%nat i Hi) (HP 2%nat i Hi)). lra. }
  rewrite !Er. pose proof (weight_sum (phi i)) as HK.
  set (D := rad_alpha ^ 2 + rad_beta ^ 2) in *. assert (D <> 0) as HD by (unfold D, rad_alpha, rad_beta; lra).
  match goal with |- Rabs ?e <= _ => replace e with (fst m *
    ((rad_T 2 0 * (rsum 3 (rad_TI 0) * phi i / radau_gamma) +
    (rad_alpha * (rsum 3 (rad_TI 1) * phi i) + rad_beta * (rsum 3 (rad_TI 2) * phi i)) / D - phi i)
     + (rad_T 2 0 * (q 0%nat / radau_gamma) + (rad_alpha * q 1%nat + rad_beta * q 2%nat) / D))) end.
  2:{ field; split; try exact HD; unfold radau_gamma; lra. }
  rewrite Rabs_mult, (Rabs_right (fst m)) by lra. apply Rmult_le_compat_l; [lra|].
  eapply Rle_trans; [apply Rabs_triang|].
  assert (Rabs (rad_T 2 0 * (q 0%nat / radau_gamma) + (rad_alpha * q 1%nat + rad_beta * q 2%nat) / D)
          <= 3/10 * Rabs (q 0%nat) + 2/10 * Rabs (q 1%nat) + 2/10 * Rabs (q 2%nat)) as Hc.
  { unfold rad_T, radau_gamma, D, rad_alpha, rad_beta. clear. absd. }
  pose proof (Hq 0%nat). pose proof (Hq 1%nat). pose proof (Hq 2%nat).
  pose proof (s_pos 0%nat). pose proof (s_pos 1%nat). pose proof (s_pos 2%nat).
  assert (BJ * (s 0%nat + s 1%nat + s 2%nat) <= BJ * (Xb + 3 * (INR n * Wb))) by (apply Rmult_le_compat_l; lra).
  assert (0 <= BJ * s 0%nat /\ 0 <= BJ * s 1%nat /\ 0 <= BJ * s 2%nat) as (? & ? & ?) by (repeat split; now apply Rmult_le_pos).
  assert (0 <= Psi) by (eapply Rle_trans; [apply Rabs_pos|apply (HP 0%nat i Hi)]).
  lra.
Qed.
End Increment.

Section Step.
Context (n : nat) (f : R -> list R -> list R) (t0 tf : R) (y : R -> list R) (L B M BJ : R).
Hypothesis HL0 : 0 <= L.
Hypothesis HB0 : 0 <= B.
Hypothesis HM0 : 0 <= M.
Hypothesis HBJ : 0 <= BJ.
Hypothesis Hlen : forall t, length (y t) = n.
Hypothesis Hsol : forall i t, (i < n)%nat -> t0 <= t <= tf ->
    derivable_pt_lim (fun s => comp (y s) i) t (comp (f t (y t)) i).
Hypothesis Hslope : forall s t, t0 <= s <= tf -> t0 <= t <= tf ->
    close n (B * Rabs (s - t)) (f s (y s)) (f t (y t)).
Hypothesis Hlip : forall t u v d,
    t0 <= t <= tf -> length u = n -> length v = n -> close n d u v -> close n (L * d) (f t u) (f t v).
Hypothesis HM : forall t i, t0 <= t <= tf -> (i < n)%nat -> Rabs (comp (f t (y t)) i) <= M.

Lemma sol_inc t s i : t0 <= t -> 0 <= s -> t + s <= tf -> (i < n)%nat ->
  Rabs (comp (y (t + s)) i - comp (y t) i) <= M * s.
Proof.
  intros Ht Hs Hts Hi. replace (M * s) with (M * s ^ (1 + 0)) by (cbn; ring).
  apply (mvt_bound (fun x => comp (y (t + x)) i - comp (y t) i) (fun x => comp (f (t + x) (y (t + x))) i) s M 0 HM0); try lra.
  - rewrite Rplus_0_r. ring.
  - intros x Hx. replace (comp (f (t + x) (y (t + x))) i) with (comp (f (t + x) (y (t + x))) i - 0) by ring.
    apply (derivable_pt_lim_minus (fun x => comp (y (t + x)) i) (fun _ => comp (y t) i)); [|apply derivable_pt_lim_const].
    apply (shift_deriv (fun s => comp (y s) i)). apply Hsol; [exact Hi|lra].
  - intros x Hx. cbn [pow]. rewrite Rmult_1_r. apply HM; [lra|exact Hi].
Qed.
Lemma sol_taylor t s i : t0 <= t -> 0 <= s -> t + s <= tf -> (i < n)%nat ->
  Rabs (comp (y (t + s)) i - comp (y t) i - s * comp (f t (y t)) i) <= B * s ^ 2.
Proof.
  intros Ht Hs Hts Hi. set (ph := comp (f t (y t)) i).
  apply (mvt_bound (fun x => comp (y (t + x)) i - comp (y t) i - x * ph) (fun x => comp (f (t + x) (y (t + x))) i - ph) s B 1 HB0); try lra.
  - rewrite Rplus_0_r. ring.
  - intros x Hx.
    apply (derivable_pt_lim_minus (fun x => comp (y (t + x)) i - comp (y t) i) (fun x => x * ph)).
    + replace (comp (f (t + x) (y (t + x))) i) with (comp (f (t + x) (y (t + x))) i - 0) by ring.
      apply (derivable_pt_lim_minus (fun x => comp (y (t + x)) i) (fun _ => comp (y t) i)); [|apply derivable_pt_lim_const].
      apply (shift_deriv (fun s => comp (y s) i)). apply Hsol; [exact Hi|lra].
    + pose proof (derivable_pt_lim_mult (fun x => x) (fun _ => ph) x 1 0 (derivable_pt_lim_id x) (derivable_pt_lim_const ph x)) as X.
      cbv beta in X. replace (1 * ph + x * 0) with ph in X by ring. exact X.
  - intros x Hx. cbn [pow]. rewrite Rmult_1_r.
    pose proof (Hslope (t + x) t ltac:(lra) ltac:(lra) i Hi) as H.
    replace (t + x - t) with x in H by ring. rewrite (Rabs_right x) in H by lra. exact H.
Qed.

Lemma slopes_near t h u e Z z : t0 <= t -> 0 < h -> t + h <= tf -> length u = n -> close n e u (y t) -> bnd n Z z ->
  forall k i, (i < n)%nat ->
  Rabs (comp (pick (stage_slopes n f t u h z) k) i - comp (f t (y t)) i) <= L * (e + Z + h * M) + B * h.
Proof.
  intros Ht Hh Hth Hu He HZ k i Hi.
  assert (forall c (v : list R), 0 <= c <= 1 -> (forall j, (j < n)%nat -> Rabs (comp v j) <= Z) ->
    Rabs (comp (f (t + c * h) (vect n (fun i => comp u i + comp v i))) i - comp (f t (y t)) i)
    <= L * (e + Z + h * M) + B * h) as H.
  { intros c v Hc Hv. assert (0 <= c * h <= h) as Hch by (split; [apply Rmult_le_pos; lra|]; nra).
    assert (close n (e + Z + h * M) (vect n (fun i => comp u i + comp v i)) (y (t + c * h))) as Hcl.
    { intros j Hj. rewrite comp_vect by exact Hj. specialize (He j Hj). specialize (Hv j Hj).
      pose proof (sol_inc t (c * h) j Ht ltac:(lra) ltac:(lra) Hj) as Hy.
      assert (M * (c * h) <= h * M) by (rewrite (Rmult_comm h M); apply Rmult_le_compat_l; lra).
      clear - He Hv Hy H. absd. }
    pose proof (Hlip (t + c * h) _ _ _ ltac:(lra) (vect_length n _) (Hlen _) Hcl i Hi) as H1.
    pose proof (Hslope (t + c * h) t ltac:(lra) ltac:(lra) i Hi) as H2.
    replace (t + c * h - t) with (c * h) in H2 by ring. rewrite (Rabs_right (c * h)) in H2 by lra.
    assert (B * (c * h) <= B * h) by (apply Rmult_le_compat_l; lra).
    clear - H1 H2 H. absd. }
  assert (forall k, 0 <= rad_c k <= 1) as Hc by (intros [|[|]]; unfold rad_c; lra).
  destruct k as [|[|k]]; cbn [pick stage_slopes st1 st2 st3]; (apply H; [apply Hc|]); intros j Hj.
  - exact (HZ 0%nat j Hj).
  - exact (HZ 1%nat j Hj).
  - exact (HZ 2%nat j Hj).
Qed.

Definition cst_F : R := M + 2 * L + L * M + B.
Definition cst_w : R := 2 * (18 * (INR n * cst_F) + 3 * (INR n * (INR n * BJ))).
Lemma cst_F_pos : 0 <= cst_F.
Proof. unfold cst_F. assert (0 <= L * M) by now apply Rmult_le_pos. lra. Qed.
Lemma cst_w_pos : 0 <= cst_w.
Proof.
  unfold cst_w. pose proof cst_F_pos. pose proof (pos_INR n).
  assert (0 <= INR n * cst_F) by now apply Rmult_le_pos.
  assert (0 <= INR n * (INR n * BJ)) by (repeat apply Rmult_le_pos; assumption). lra.
Qed.

Section Pass.
Context (A : R).
Hypothesis HA : cst_w <= A.
Definition cst_d : R := cst_w + 3 * (INR n * A).
Definition cst_2 : R := 6 * (L * A + L * M + B) + BJ * cst_d.
Context (t : R) (u : list R) (h e : R) (m : R * list (list R)).
Let g := 1 + e.
Hypothesis Ht : t0 <= t.
Hypothesis Hh : 0 < h <= 1.
Hypothesis Hth : t + h <= tf.
Hypothesis Hm : 0 < fst m <= h.
Hypothesis HJ : forall i j, (i < n)%nat -> (j < n)%nat -> Rabs (entry (snd m) i j) <= BJ.
Hypothesis Hu : length u = n.
Hypothesis He0 : 0 <= e.
Hypothesis He : close n e u (y t).
Hypothesis Hs1 : A * h <= 1.
Hypothesis Hs2 : h * (INR n * BJ) <= / 2.

Definition settled (z : three) : Prop :=
  bnd n (cst_w * (h * g)) z /\
  forall i, (i < n)%nat -> Rabs (comp (st3 z) i - fst m * comp (f t (y t)) i)
    <= h * (/ 10 ^ 16 * M + 6 * L * e + cst_2 * (h * g)).

Lemma pass_local w z d : bnd n (A * (h * g)) w -> bnd n (A * (h * g)) z -> increment n f t u h m w z d ->
  bnd n (cst_w * (h * g)) (new_w n w d) /\ bnd n (cst_d * (h * g)) d /\
  settled (stages n (mixed rad_T (new_w n w d))).
Proof.
  intros Hw Hz Hinc. pose proof cst_F_pos as HF0. pose proof cst_w_pos as Hw0. pose proof (pos_INR n) as Hn.
  assert (0 < g) as Hg by (unfold g; lra). assert (0 <= h * g) as Hhg by (apply Rmult_le_pos; lra).
  assert (A * (h * g) <= g) as HAg by (rewrite <- Rmult_assoc; rewrite <- (Rmult_1_l g) at 2; apply Rmult_le_compat_r; lra).
  assert (0 <= A * (h * g)) as HAg0 by (apply Rmult_le_pos; lra).
  set (Psi := L * (e + A * (h * g) + h * M) + B * h).
  assert (forall k i, (i < n)%nat -> Rabs (comp (pick (stage_slopes n f t u h z) k) i - comp (f t (y t)) i) <= Psi) as HP.
  { intros k i Hi. apply slopes_near; try assumption; lra. }
  assert (Psi <= L * e + h * ((L * A + L * M + B) * g)) as HPsi.
  { unfold Psi. assert (0 <= L * M) by now apply Rmult_le_pos.
    assert (0 <= h * (L * M + B) * e) by (repeat apply Rmult_le_pos; lra). unfold g. nra. }
  assert (Psi + M <= cst_F * g) as HFb.
  { unfold Psi, cst_F. assert (L * (A * (h * g)) <= L * g) by (apply Rmult_le_compat_l; lra).
    assert (h * M <= 1 * M) by (apply Rmult_le_compat_r; lra). assert (L * (h * M) <= L * (1 * M)) by (apply Rmult_le_compat_l; lra).
    assert (B * h <= B * 1) by (apply Rmult_le_compat_l; lra). unfold g in *.
    assert (0 <= L * M) by now apply Rmult_le_pos. assert (0 <= M * e) by (apply Rmult_le_pos; lra).
    assert (0 <= L * e) by (apply Rmult_le_pos; lra). assert (0 <= L * M * e) by (apply Rmult_le_pos; lra).
    assert (0 <= B * e) by (apply Rmult_le_pos; lra). lra. }
  assert (bnd n (cst_F * g) (stage_slopes n f t u h z)) as HF.
  { intros k i Hi. specialize (HP k i Hi). pose proof (HM t i ltac:(lra) Hi) as Hm'. clear - HP Hm' HFb. absd. }
  assert (fst m * (INR n * BJ) <= / 2) as Hs2'.
  { eapply Rle_trans; [|exact Hs2]. apply Rmult_le_compat_r; [apply Rmult_le_pos; lra|lra]. }
  set (Xb := 2 * fst m * (18 * (INR n * (cst_F * g)) + 3 * (INR n * (INR n * BJ) * (A * (h * g))))).
  assert (Xb <= cst_w * (h * g)) as HX.
  { apply Rle_trans with (2 * h * (18 * (INR n * (cst_F * g)) + 3 * (INR n * (INR n * BJ) * g))).
    - unfold Xb. apply Rmult_le_compat; try lra.
      + apply Rplus_le_le_0_compat; repeat apply Rmult_le_pos; lra || assumption.
      + apply Rplus_le_compat_l. apply Rmult_le_compat_l; [lra|]. apply Rmult_le_compat_l; [|lra]. repeat apply Rmult_le_pos; lra.
    - right. unfold cst_w. ring. }
  destruct (inc_bound n f t u h m w z d BJ (cst_F * g) (A * (h * g)) Hinc ltac:(lra) HBJ HJ Hs2' Hw HF) as (B1 & B2 & B3).
  fold Xb in B1, B2, B3.
  assert (Xb + 3 * (INR n * (A * (h * g))) <= cst_d * (h * g)) as HXd by (unfold cst_d; lra).
  split; [apply (bnd_le n Xb); assumption|]. split; [eapply bnd_le; eassumption|]. split; [apply (bnd_le n Xb); assumption|].
  intros i Hi.
  pose proof (inc_third n f t u h m w z d BJ (cst_F * g) (A * (h * g)) Hinc ltac:(lra) HBJ HJ Hs2' Hw (fun i => comp (f t (y t)) i) Psi HF HP i Hi) as H3.
  fold Xb in H3. eapply Rle_trans; [exact H3|]. pose proof (HM t i ltac:(lra) Hi) as Hphi.
  assert (/ 10 ^ 16 * Rabs (comp (f t (y t)) i) <= / 10 ^ 16 * M).
  { apply Rmult_le_compat_l; [|exact Hphi]. left. apply Rinv_0_lt_compat. apply pow_lt. lra. }
  assert (BJ * (Xb + 3 * (INR n * (A * (h * g)))) <= BJ * (cst_d * (h * g))) by (apply Rmult_le_compat_l; assumption).
  apply Rmult_le_compat; try lra.
  - assert (0 <= / 10 ^ 16 * Rabs (comp (f t (y t)) i)).
    { apply Rmult_le_pos; [left; apply Rinv_0_lt_compat; apply pow_lt; lra|apply Rabs_pos]. }
    assert (0 <= Psi) by (eapply Rle_trans; [apply Rabs_pos|apply (HP 0%nat i Hi)]).
    assert (0 <= BJ * (Xb + 3 * (INR n * (A * (h * g))))).
    { apply Rmult_le_pos; [assumption|]. eapply Rle_trans; [apply Rabs_pos|apply (B3 0%nat i Hi)]. }
    lra.
  - unfold cst_2. lra.
Qed.

Context {inf : R} (o : opts (RA inf)).
Lemma newton_local k e0 q th c w z r : newton_from n f o t u h m k e0 q th c w z r ->
  bnd n (A * (h * g)) w -> bnd n (A * (h * g)) z ->
  match r with Converged _ _ _ z' => settled z' | Failed _ _ _ _ => True end.
Proof.
  intros H. induction H as [| |k e0 q th c w z d q' th' c' Hk Hi Hj Hn|k e0 q th c w z d q' th' c' r Hk Hi Hj Hn Hf IH];
    intros Bw Bz; try exact I.
  - apply (pass_local w z d Bw Bz Hi).
  - destruct (pass_local w z d Bw Bz Hi) as (B1 & B2 & B3 & _).
    assert (cst_w * (h * g) <= A * (h * g)) as Hle.
    { apply Rmult_le_compat_r; [|exact HA]. apply Rmult_le_pos; [lra|]. unfold g. lra. }
    apply IH; apply (bnd_le n (cst_w * (h * g))); assumption.
Qed.

(** With a small step the first pass ends the iteration. *)
Lemma newton_first e0 q th c w z r : newton_from n f o t u h m 0 e0 q th c w z r ->
  bnd n (A * (h * g)) w -> bnd n (A * (h * g)) z -> (0 < n)%nat -> (0 < iters o)%nat -> 0 <= c <= 99 -> 0 < atol o -> 0 <= rtol o ->
  99 * (cst_d * (h * g) / atol o) <= newton_tol o ->
  match r with Converged _ _ _ _ => True | Failed _ _ _ _ => False end.
Proof.
  intros H Bw Bz Hn Hit Hc Hat Hrt Hsmall.
  assert (forall d, increment n f t u h m w z d -> c * increment_norm n o u d <= newton_tol o) as Hno.
  { intros d Hd. destruct (pass_local w z d Bw Bz Hd) as (_ & B2 & _).
    eapply Rle_trans; [|exact Hsmall]. apply Rmult_le_compat; try lra; [apply sqrt_pos|].
    unfold increment_norm. set (a := cst_d * (h * g)) in *.
    assert (0 <= a) as Ha0 by (eapply Rle_trans; [apply Rabs_pos|apply (B2 0%nat 0%nat Hn)]).
    assert (0 <= a / atol o) as Hq by (apply Rmult_le_pos; [exact Ha0|]; left; now apply Rinv_0_lt_compat).
    rewrite <- (sqrt_pow2 (a / atol o) Hq). apply sqrt_le_1_alt.
    assert (0 < INR (3 * n)) by (apply lt_0_INR; lia).
    apply Rmult_le_reg_r with (INR (3 * n)); [assumption|].
    replace (_ / INR (3 * n) * INR (3 * n)) with (rsum n (fun i => (comp (st1 d) i / weight o u i) ^ 2 + (comp (st2 d) i / weight o u i) ^ 2
                         + (comp (st3 d) i / weight o u i) ^ 2)) by (field; lra).
    apply Rle_trans with (rsum n (fun _ => 3 * (a / atol o) ^ 2)).
    2:{ rewrite rsum_const, mult_INR. right. cbn [INR]. ring. }
    apply rsum_le. intros i Hi.
    assert (forall v, Rabs v <= a -> (v / weight o u i) ^ 2 <= (a / atol o) ^ 2) as Hv.
    { intros v Hv. rewrite <- (pow2_abs (v / weight o u i)). apply pow_incr. split; [apply Rabs_pos|].
      assert (atol o <= weight o u i) as Hwt by (unfold weight; assert (0 <= rtol o * Rabs (comp u i)) by (apply Rmult_le_pos; [assumption|apply Rabs_pos]); lra).
      unfold Rdiv. rewrite Rabs_mult, (Rabs_right (/ weight o u i)) by (left; apply Rinv_0_lt_compat; lra).
      apply Rmult_le_compat; [apply Rabs_pos|left; apply Rinv_0_lt_compat; lra|exact Hv|apply Rinv_le_contravar; lra]. }
    pose proof (Hv _ (B2 0%nat i Hi)). pose proof (Hv _ (B2 1%nat i Hi)). pose proof (Hv _ (B2 2%nat i Hi)).
    cbn [pick] in *. lra. }
  inversion H as [? ? ? ? ? ? ? Hl|? ? ? ? ? ? ? d c' factor b Hk Hd Hj|? ? ? ? ? ? ? d q' th' c' Hk Hd Hj Hdn|? ? ? ? ? ? ? d q' th' c' r' Hk Hd Hj Hdn Hf]; subst; try exact I.
  - lia.
  - unfold judge in Hj. cbn in Hj. discriminate Hj.
  - exfalso. unfold judge in Hj. cbn in Hj. injection Hj as <- <- <-. specialize (Hno d Hd). lra.
Qed.
End Pass.
End Step.

(** The contraction factor kept for the next iteration. *)
Lemma newton_conv {inf : R} (o : opts (RA inf)) n f t u h m k e0 q th c w z r : newton_from n f o t u h m k e0 q th c w z r ->
  c <= 99 -> match r with Converged _ _ c' _ => c' <= 99 | Failed _ c' _ _ => c' <= 99 end.
Proof.
  assert (forall k e e0 q th c, c <= 99 -> match judge o k e e0 q th c with Go _ _ c' => c' <= 99 | Stop c' _ _ => c' <= 99 end) as Hj.
  { intros k' e e0' q' th' c' Hc. unfold judge. destruct (andb _ _); [|exact Hc]. cbv zeta.
    destruct (Rlt_dec _ _) as [Hlt|]; [|exact Hc].
    match type of Hlt with ?x < _ => set (a := x) in * end.
    assert (a / (1 - a) <= 99). { apply Rmult_le_reg_r with (1 - a); [lra|]. unfold Rdiv. rewrite Rmult_assoc, Rinv_l by lra. lra. }
    destruct (Rle_dec _ _); assumption. }
  intros H. induction H as [|k e0 q th c w z d c' factor b Hk Hi Hjd|k e0 q th c w z d q' th' c' Hk Hi Hjd Hn|k e0 q th c w z d q' th' c' r Hk Hi Hjd Hn Hf IH];
    intros Hc; try exact Hc.
  - pose proof (Hj (S k) (increment_norm n o u d) e0 q th c Hc) as X. now rewrite Hjd in X.
  - pose proof (Hj (S k) (increment_norm n o u d) e0 q th c Hc) as X. now rewrite Hjd in X.
  - pose proof (Hj (S k) (increment_norm n o u d) e0 q th c Hc) as X. rewrite Hjd in X. now apply IH.
Qed.
