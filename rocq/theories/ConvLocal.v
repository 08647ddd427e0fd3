(** The local error of a Dormand-Prince step from a point of the exact solution
    is of order six. *)
From Coq Require Import Reals List Lia Lra.
From Verif Require Import SpecRK SpecConv BigO.
Import ListNotations.
Local Open Scope R_scope.

Lemma rsum_S n g : rsum (S n) g = rsum n g + g n.
Proof.
  unfold rsum. rewrite seq_S, map_app, fold_right_app. cbn [map fold_right Nat.add].
  rewrite Rplus_0_r. generalize (map g (seq 0 n)). intros l. induction l; cbn; [ring|rewrite IHl; ring].
Qed.
Lemma rsum_0 g : rsum 0 g = 0.
Proof. reflexivity. Qed.
Ltac sums := repeat rewrite rsum_S; rewrite ?rsum_0.
Lemma rsum_ext n g g' : (forall i, (i < n)%nat -> g i = g' i) -> rsum n g = rsum n g'.
Proof. intros H. induction n; [reflexivity|]. rewrite !rsum_S, IHn, H by (intros; try apply H; lia). reflexivity. Qed.
Lemma rsum_plus n g g' : rsum n (fun i => g i + g' i) = rsum n g + rsum n g'.
Proof. induction n; [cbn; ring|]. rewrite !rsum_S, IHn. ring. Qed.
Lemma rsum_scal n a g : rsum n (fun i => a * g i) = a * rsum n g.
Proof. induction n; [cbn; ring|]. rewrite !rsum_S, IHn. ring. Qed.
Lemma rsum_swap n m (g : nat -> nat -> R) : rsum n (fun i => rsum m (fun j => g j i)) = rsum m (fun j => rsum n (fun i => g j i)).
Proof.
  induction m.
  - rewrite rsum_0. rewrite (rsum_ext n _ (fun _ => 0 * 0)) by (intros; cbn; ring). rewrite rsum_scal. ring.
  - rewrite rsum_S, <- IHm, <- rsum_plus. apply rsum_ext. intros. now rewrite rsum_S.
Qed.
Lemma rsum_abs n g : Rabs (rsum n g) <= rsum n (fun i => Rabs (g i)).
Proof.
  induction n; [cbn; rewrite Rabs_R0; lra|]. rewrite !rsum_S. eapply Rle_trans; [apply Rabs_triang|]. lra.
Qed.
Lemma rsum_le n g g' : (forall i, (i < n)%nat -> g i <= g' i) -> rsum n g <= rsum n g'.
Proof.
  intros H. induction n; [cbn; lra|]. rewrite !rsum_S.
  apply Rplus_le_compat; [apply IHn; intros; apply H; lia|apply H; lia].
Qed.

(** ** The tableau as functions *)
Definition dc (j : nat) : R := fst (nth j dopri_rows (0, [])).
Definition da (j l : nat) : R := comp (snd (nth j dopri_rows (0, []))) l.
Definition db (j : nat) : R := comp dopri_b j.

Lemma dc_range j : 0 <= dc j <= 1.
Proof. unfold dc. do 7 (destruct j as [|j]; [cbn; lra|]). destruct j; cbn; lra. Qed.

Section Stages.
Context (f : R -> list R -> list R).

Definition K (u : list R) (t h : R) (j : nat) : list R := nth j (slopes f t u h dopri_rows []) [].
Definition Y (u : list R) (t h : R) (j : nat) : list R :=
  combine_stages u h (snd (nth j dopri_rows (0, []))) (firstn j (slopes f t u h dopri_rows [])).

Lemma K_Y u t h j : (j < 7)%nat -> K u t h j = f (t + dc j * h) (Y u t h j).
Proof. intros Hj. do 7 (destruct j as [|j]; [reflexivity|]). lia. Qed.
Lemma Y_length u t h j : length (Y u t h j) = length u.
Proof. unfold Y, combine_stages. now rewrite map_length, seq_length. Qed.
Lemma combine_comp u h w ks i : (i < length u)%nat ->
  comp (combine_stages u h w ks) i = comp u i + h * wsum w (map (fun k => comp k i) ks).
Proof.
  intros Hi. unfold combine_stages, comp at 1. 
  rewrite (nth_indep _ 0 (comp u 0 + h * wsum w (map (fun k => comp k 0) ks))) by (now rewrite map_length, seq_length).
  rewrite (map_nth (fun i => comp u i + h * wsum w (map (fun k => comp k i) ks)) (seq 0 (length u)) 0%nat i).
  rewrite seq_nth by exact Hi. reflexivity.
Qed.
Lemma rsum_hd m g : rsum (S m) g = g 0%nat + rsum m (fun l => g (S l)).
Proof. unfold rsum. cbn [seq map fold_right]. now rewrite <- seq_shift, map_map. Qed.
Lemma wsum_rsum (w : list R) (ks : list (list R)) i : 
  wsum w (map (fun k => comp k i) (firstn (length w) ks)) = rsum (length w) (fun l => comp w l * comp (nth l ks []) i).
Proof.
  revert ks. induction w as [|x w IH]; intros ks; [reflexivity|].
  cbn [length]. rewrite rsum_hd. destruct ks as [|k ks].
  - cbn [firstn map wsum]. rewrite (rsum_ext _ _ (fun _ => 0)).
    + rewrite <- (rsum_ext (length w) (fun l => 0 * 0)) by (intros; ring). rewrite rsum_scal. cbn [nth]. unfold comp at 2.
      destruct i; cbn; ring.
    + intros l _. cbn [nth]. unfold comp at 2. destruct i; cbn; ring.
  - cbn [firstn map wsum]. rewrite IH. reflexivity.
Qed.
Lemma row_length j : (j < 7)%nat -> length (snd (nth j dopri_rows (0, []))) = j.
Proof. intros Hj. do 7 (destruct j as [|j]; [reflexivity|]). lia. Qed.
Lemma Y_comp u t h j i : (i < length u)%nat -> (j < 7)%nat ->
  comp (Y u t h j) i = comp u i + h * rsum j (fun l => da j l * comp (K u t h l) i).
Proof.
  intros Hi Hj. unfold Y. rewrite combine_comp by exact Hi. f_equal. f_equal.
  rewrite <- (row_length j Hj) at 2 3. rewrite wsum_rsum. now rewrite (row_length j Hj).
Qed.
Lemma step_comp u t h i : (i < length u)%nat ->
  comp (rk_step dopri_rows dopri_b f t u h) i = comp u i + h * rsum 7 (fun l => db l * comp (K u t h l) i).
Proof.
  intros Hi. unfold rk_step. rewrite combine_comp by exact Hi. reflexivity.
Qed.
Lemma step_comp6 u t h i : (i < length u)%nat ->
  comp (rk_step dopri_rows dopri_b f t u h) i = comp u i + h * rsum 6 (fun l => db l * comp (K u t h l) i).
Proof.
  intros Hi. rewrite step_comp by exact Hi. rewrite rsum_S. change (db 6) with 0. f_equal. ring.
Qed.
(** The continuous extension: its weights in four polynomials of [theta] that
    stay between 0 and 1. *)
Definition dw (m j : nat) : R :=
  match m with
  | 0%nat => db j
  | 1%nat => (if Nat.eqb j 0 then 1 else 0) - db j
  | 2%nat => 2 * db j - (if Nat.eqb j 0 then 1 else 0) - (if Nat.eqb j 6 then 1 else 0)
  | _ => comp dopri_d j
  end.
Definition dp (m : nat) (x : R) : R :=
  match m with
  | 0%nat => x
  | 1%nat => x * (1 - x)
  | 2%nat => x ^ 2 * (1 - x)
  | _ => x ^ 2 * (1 - x) ^ 2
  end.
Lemma dp_range m x : 0 <= x <= 1 -> 0 <= dp m x <= 1.
Proof.
  intros Hx. assert (0 <= x * (1 - x) <= 1) as H1 by nra. 
  unfold dp. destruct m as [|[|[|m]]].
  - lra.
  - lra.
  - cbn [pow]. nra.
  - replace (x ^ 2 * (1 - x) ^ 2) with ((x * (1 - x)) * (x * (1 - x))) by ring. nra.
Qed.
Definition dbt (x : R) (j : nat) : R := rsum 4 (fun m => dp m x * dw m j).
Lemma dense_comp u t h x i : (i < length u)%nat ->
  comp (combine_stages u h (dopri_dense x) (slopes f t u h dopri_rows [])) i
  = comp u i + h * rsum 7 (fun l => dbt x l * comp (K u t h l) i).
Proof.
  intros Hi. rewrite combine_comp by exact Hi. f_equal. f_equal.
  transitivity (rsum 7 (fun l => comp (dopri_dense x) l * comp (K u t h l) i)); [reflexivity|].
  apply rsum_ext. intros l Hl. f_equal. unfold dbt, dopri_dense.
  assert (forall a, (a < 7)%nat -> comp (map (fun i0 => dense_weight x (comp dopri_b i0) (comp dopri_d i0)
     (if Nat.eqb i0 0 then 1 else 0) (if Nat.eqb i0 6 then 1 else 0)) (seq 0 7)) a =
     dense_weight x (db a) (comp dopri_d a) (if Nat.eqb a 0 then 1 else 0) (if Nat.eqb a 6 then 1 else 0)) as ->.
  { intros a Ha. do 7 (destruct a as [|a]; [reflexivity|]). lia. }
  2:{ exact Hl. }
  unfold dense_weight. sums. unfold dp, dw. ring.
Qed.
End Stages.

(** ** The local error *)
Section Local.
Context (n : nat) (f : R -> list R -> list R) (t0 tf : R) (y : R -> list R).
Context (Hlen : forall t, length (y t) = n).
Context (D : nat -> nat -> R -> R) (B : R).
Hypothesis HD0 : forall i t, D 0%nat i t = comp (y t) i.
Hypothesis HD1 : forall i t, (i < n)%nat -> t0 <= t <= tf -> D 1%nat i t = comp (f t (y t)) i.
Hypothesis HDd : forall m i t, (m <= 5)%nat -> (i < n)%nat -> t0 <= t <= tf -> derivable_pt_lim (D m i) t (D (S m) i t).
Hypothesis HDb : forall m i t, (m <= 6)%nat -> (i < n)%nat -> t0 <= t <= tf -> Rabs (D m i t) <= B.
Context (r L : R).
Hypothesis Hr : 0 < r.
Hypothesis HL : forall t u v d,
    t0 <= t <= tf -> length u = n -> length v = n ->
    close n r u (y t) -> close n r v (y t) -> close n d u v -> close n (L * d) (f t u) (f t v).
Context (J J1 J2 : nat -> nat -> R -> R) (r' BJ : R).
Hypothesis Hr' : 0 < r'.
Hypothesis HJ : forall t v d, t0 <= t <= tf -> length v = n -> 0 <= d <= r' -> close n d v (y t) ->
       forall i, (i < n)%nat ->
       Rabs (comp (f t v) i - comp (f t (y t)) i
             - rsum n (fun k => J i k t * (comp v k - comp (y t) k))) <= BJ * d ^ 2.
Hypothesis HJd : forall i k t, (i < n)%nat -> (k < n)%nat -> t0 <= t <= tf ->
       derivable_pt_lim (J i k) t (J1 i k t) /\ derivable_pt_lim (J1 i k) t (J2 i k t) /\
       Rabs (J i k t) <= BJ /\ Rabs (J1 i k t) <= BJ /\ Rabs (J2 i k t) <= BJ.
Notation O := (bigO n t0 tf).

Lemma in_span t h c : t0 <= t -> 0 < h -> t + h <= tf -> 0 <= c <= 1 -> t0 <= t + c * h <= tf.
Proof. intros. nra. Qed.

Lemma O_taylor m p c : (m + p <= 6)%nat -> 0 <= c <= 1 ->
  O p (fun t h i => D m i (t + c * h) - taylor p (fun q => D (m + q)%nat i t) (c * h)).
Proof.
  intros Hm Hc. exists (Rabs B), 1. split; [apply Rabs_pos|]. split; [lra|].
  intros t h i Ht Hh Hf Hi.
  pose proof (taylor_bound (fun q => D (m + q)%nat i) (Rabs B) t0 tf t p (Rabs_pos B) Ht) as T.
  replace (D m i) with (D (m + 0)%nat i) by (f_equal; lia).
  eapply Rle_trans; [apply T|].
  - intros q x Hq Hx. replace (m + S q)%nat with (S (m + q)) by lia. apply HDd; [lia|assumption|assumption].
  - intros x Hx. eapply Rle_trans; [apply HDb; [lia|assumption|assumption]|]. apply Rle_abs.
  - nra.
  - apply Rmult_le_compat_l; [apply Rabs_pos|]. apply pow_incr. nra.
Qed.

(** [E j]: error of the stage; [Dl j]: error of the slope; [rho j]: defect of the
    exact solution in the equation of the stage. *)
Definition E (j : nat) : fam := fun t h i => comp (Y f (y t) t h j) i - D 0%nat i (t + dc j * h).
Definition Dl (j : nat) : fam := fun t h i => comp (K f (y t) t h j) i - D 1%nat i (t + dc j * h).
Definition rho (j : nat) : fam := fun t h i =>
  D 0%nat i (t + dc j * h) - D 0%nat i t - h * rsum j (fun l => da j l * D 1%nat i (t + dc l * h)).

Lemma E_eq j t h i : (i < n)%nat -> (j < 7)%nat ->
  E j t h i = h * rsum j (fun l => da j l * Dl l t h i) - rho j t h i.
Proof.
  intros Hi Hj. unfold E, rho, Dl. rewrite Y_comp by (rewrite ?Hlen; assumption).
  rewrite <- HD0.
  rewrite (rsum_ext j (fun l => da j l * (comp (K f (y t) t h l) i - D 1%nat i (t + dc l * h)))
             (fun l => da j l * comp (K f (y t) t h l) i + (-1) * (da j l * D 1%nat i (t + dc l * h)))) by (intros; ring).
  rewrite rsum_plus, rsum_scal. ring.
Qed.

Lemma Dl_lip j k : (j < 7)%nat -> O (S k) (E j) -> O (S k) (Dl j).
Proof.
  intros Hj HE. destruct (O_bound n t0 tf k (E j) r Hr HE) as (H1 & HH1 & Hb).
  destruct HE as (C & H & HC & HH & HO). exists (Rabs L * C), (Rmin H H1).
  assert (Rmin H H1 <= H) by apply Rmin_l. assert (Rmin H H1 <= H1) by apply Rmin_r.
  split; [apply Rmult_le_pos; [apply Rabs_pos|assumption]|]. split; [split; [apply Rmin_pos; lra|lra]|].
  intros t h i Ht Hh Hf Hi. unfold Dl.
  assert (t0 <= t + dc j * h <= tf) as Hs by (apply in_span; try lra; apply dc_range).
  rewrite HD1 by assumption. rewrite K_Y by assumption.
  apply Rle_trans with (L * (C * h ^ S k)).
  - apply HL; try assumption.
    + now rewrite Y_length.
    + apply Hlen.
    + intros q Hq. rewrite <- HD0. apply (Hb t h q); try assumption; lra.
    + intros q Hq. replace (comp _ _ - comp _ _) with 0 by ring. rewrite Rabs_R0. lra.
    + intros q Hq. rewrite <- HD0. apply (HO t h q); try assumption; lra.
  - rewrite Rmult_assoc. apply Rmult_le_compat_r; [|apply Rle_abs].
    apply Rmult_le_pos; [assumption|]. apply pow_le; lra.
Qed.

(** [J] along the solution, applied to a vector. *)
Definition app (M : nat -> nat -> R -> R) (F : fam) : fam := fun t h i => rsum n (fun k => M i k t * F t h k).
Lemma O_app M k F : (M = J \/ M = J1) -> O k F -> O k (app M F).
Proof.
  intros HM HF. apply (O_mat n t0 tf k (fun i j t _ => M i j t) F); [|exact HF].
  exists BJ. intros t h i j ? ? ? Hi Hj. destruct (HJd i j t Hi Hj ltac:(lra)) as (_ & _ & ? & ? & _).
  destruct HM; subst; assumption.
Qed.
Lemma app_lin M (F G : fam) a c t h i : app M (fun t h i => a * F t h i + c * G t h i) t h i = a * app M F t h i + c * app M G t h i.
Proof.
  unfold app. rewrite <- !rsum_scal, <- rsum_plus. apply rsum_ext. intros; ring.
Qed.

Lemma Dl_jac j k : (j < 7)%nat -> O (S k) (E j) ->
  O (2 * S k) (fun t h i => Dl j t h i - rsum n (fun q => J i q (t + dc j * h) * E j t h q)).
Proof.
  intros Hj HE. destruct (O_bound n t0 tf k (fun t h i => E j t h i) r' Hr' HE) as (H1 & HH1 & Hb).
  destruct HE as (C & H & HC & HH & HO).
  (* make C h^k <= r' *)
  set (H2 := Rmin (Rmin H H1) (r' / (C + 1))).
  assert (0 < r' / (C + 1)) by (apply Rdiv_lt_0_compat; lra).
  assert (H2 <= H /\ H2 <= r' / (C + 1) /\ 0 < H2) as (L1 & L2 & L3).
  { unfold H2. pose proof (Rmin_l (Rmin H H1) (r' / (C + 1))). pose proof (Rmin_r (Rmin H H1) (r' / (C + 1))).
    pose proof (Rmin_l H H1). split; [lra|]. split; [lra|]. repeat apply Rmin_pos; lra. }
  exists (Rabs BJ * C ^ 2), H2. split; [apply Rmult_le_pos; [apply Rabs_pos|apply pow_le; assumption]|].
  split; [lra|].
  intros t h i Ht Hh Hf Hi. unfold Dl.
  assert (t0 <= t + dc j * h <= tf) as Hs by (apply in_span; try lra; apply dc_range).
  rewrite HD1 by assumption. rewrite K_Y by assumption.
  rewrite (rsum_ext n _ (fun q => J i q (t + dc j * h) * (comp (Y f (y t) t h j) q - comp (y (t + dc j * h)) q)))
    by (intros q Hq; unfold E; now rewrite HD0).
  assert (0 < h ^ S k) by (apply pow_lt; lra).
  apply Rle_trans with (BJ * (C * h ^ S k) ^ 2).
  - apply HJ; try assumption.
    + now rewrite Y_length.
    + split; [apply Rmult_le_pos; lra|].
      assert (h ^ k <= 1). { rewrite <- (pow1 k). apply pow_incr. lra. }
      assert (0 <= h ^ k) by (apply pow_le; lra). cbn [pow].
      apply Rle_trans with ((C + 1) * (r' / (C + 1))); [|right; field; lra].
      apply Rmult_le_compat; try lra; [apply Rmult_le_pos; lra|]. nra.
    + intros q Hq. rewrite <- HD0. apply (HO t h q); try assumption; lra.
  - replace (2 * S k)%nat with (S k + S k)%nat by lia. rewrite pow_add.
    replace (Rabs BJ * C ^ 2 * (h ^ S k * h ^ S k)) with (Rabs BJ * (C * h ^ S k) ^ 2) by ring.
    apply Rmult_le_compat_r; [apply pow2_ge_0|apply Rle_abs].
Qed.

(** The Jacobian at the time of the stage, expanded at the start of the step. *)
Lemma Dl_jac0 j k : (j < 7)%nat -> O k (E j) ->
  O (S (S k)) (fun t h i => rsum n (fun q => J i q (t + dc j * h) * E j t h q)
                            - (app J (E j) t h i + dc j * h * app J1 (E j) t h i)).
Proof.
  intros Hj HE.
  apply (O_ext n t0 tf _ _ (fun t h i => h ^ 2 * rsum n (fun q => 
      ((J i q (t + dc j * h) - J i q t - dc j * h * J1 i q t) / h ^ 2) * E j t h q))).
  - intros t h i Ht Hh Hf Hi. unfold app. rewrite <- !rsum_scal.
    rewrite <- (rsum_plus n (fun q => J i q t * E j t h q)).
    match goal with |- rsum n ?a - rsum n ?b = rsum n ?c => 
      replace (rsum n a - rsum n b) with (rsum n a + (-1) * rsum n b) by ring end.
    rewrite <- rsum_scal, <- rsum_plus. apply rsum_ext. intros q Hq. field. lra.
  - change (S (S k)) with (2 + k)%nat. apply O_pow.
    apply (O_mat n t0 tf k (fun i q t h => (J i q (t + dc j * h) - J i q t - dc j * h * J1 i q t) / h ^ 2) (E j)); [|exact HE].
    exists (Rabs BJ). intros t h i q Ht Hh Hf Hi Hq.
    pose proof (dc_range j) as Hc.
    pose proof (taylor_bound (fun m => match m with 0%nat => J i q | 1%nat => J1 i q | _ => J2 i q end)
                  (Rabs BJ) t0 tf t 2 (Rabs_pos BJ) Ht) as T.
    specialize (T ltac:(intros m x Hm Hx; destruct (HJd i q x Hi Hq Hx) as (a1 & a2 & _); destruct m as [|[|m]]; [assumption|assumption|lia])
                  ltac:(intros x Hx; destruct (HJd i q x Hi Hq Hx) as (_ & _ & _ & _ & a); eapply Rle_trans; [exact a|apply Rle_abs])
                  (dc j * h) ltac:(nra)).
    cbn [taylor pow fact Nat.mul Nat.add INR] in T.
    unfold Rdiv. rewrite Rabs_mult, (Rabs_right (/ h ^ 2)).
    2:{ apply Rle_ge, Rlt_le, Rinv_0_lt_compat. apply pow_lt; lra. }
    assert (0 < h ^ 2) by (apply pow_lt; lra).
    apply Rmult_le_reg_r with (h ^ 2); [assumption|]. rewrite Rmult_assoc, Rinv_l, Rmult_1_r by lra.
    eapply Rle_trans; [|eapply Rle_trans; [exact T|]].
    + right. f_equal. field.
    + apply Rmult_le_compat_l; [apply Rabs_pos|]. apply (pow_incr _ h 2). nra.
Qed.

(** Defects of the exact solution. *)
Definition bracket (p j : nat) : fam := fun t h i =>
  taylor (S p) (fun q => D q i t) (dc j * h) - D 0%nat i t
  - h * rsum j (fun l => da j l * taylor p (fun q => D (S q) i t) (dc l * h)).
Lemma rho_bracket p j : (p <= 5)%nat -> O (S p) (fun t h i => rho j t h i - bracket p j t h i).
Proof.
  intros Hp.
  apply (O_ext n t0 tf _ _ (fun t h i =>
     (D 0%nat i (t + dc j * h) - taylor (S p) (fun q => D (0 + q)%nat i t) (dc j * h))
     - h * rsum j (fun l => da j l * (D 1%nat i (t + dc l * h) - taylor p (fun q => D (1 + q)%nat i t) (dc l * h))))).
  - intros t h i _ _ _ _. unfold rho, bracket.
    rewrite (rsum_ext j (fun l => da j l * (D 1%nat i (t + dc l * h) - taylor p (fun q => D (1 + q)%nat i t) (dc l * h)))
       (fun l => da j l * D 1%nat i (t + dc l * h) + (-1) * (da j l * taylor p (fun q => D (S q) i t) (dc l * h)))) by (intros; cbn [Nat.add]; ring).
    rewrite rsum_plus, rsum_scal. cbn [Nat.add]. ring.
  - apply O_sub.
    + apply (O_taylor 0 (S p)); [lia|apply dc_range].
    + apply O_h. apply (O_rsum n t0 tf p j (fun l t h i => da j l * (D 1%nat i (t + dc l * h) - taylor p (fun q => D (1 + q)%nat i t) (dc l * h)))).
      intros l _. apply O_scal. apply (O_taylor 1 p); [lia|apply dc_range].
Qed.

Ltac tab := unfold bracket; sums; unfold da, db, dc, comp; cbn [nth fst snd dopri_rows dopri_b taylor fact Nat.mul Nat.add INR pow].
Lemma bracket1 j t h i : (j < 7)%nat -> bracket 1 j t h i = 0.
Proof. intros Hj. do 7 (destruct j as [|j]; [tab; field|]). lia. Qed.
Lemma bracket2 j t h i : (j < 7)%nat -> j <> 1%nat -> bracket 2 j t h i = 0.
Proof. intros Hj Hn. do 7 (destruct j as [|j]; [try lia; tab; field|]). lia. Qed.
Lemma bracket5 t h i : bracket 5 6 t h i = 0.
Proof. tab. field. Qed.

Lemma rho_O2 j : (j < 7)%nat -> O 2 (rho j).
Proof.
  intros Hj. apply (O_ext n t0 tf _ _ (fun t h i => rho j t h i - bracket 1 j t h i)).
  - intros. rewrite bracket1 by exact Hj. ring.
  - apply (rho_bracket 1); lia.
Qed.
Lemma rho_O3 j : (j < 7)%nat -> j <> 1%nat -> O 3 (rho j).
Proof.
  intros Hj Hn. apply (O_ext n t0 tf _ _ (fun t h i => rho j t h i - bracket 2 j t h i)).
  - intros. rewrite bracket2 by assumption. ring.
  - apply (rho_bracket 2); lia.
Qed.
Lemma rho6 : O 6 (rho 6).
Proof.
  apply (O_ext n t0 tf _ _ (fun t h i => rho 6 t h i - bracket 5 6 t h i)).
  - intros. rewrite bracket5. ring.
  - apply (rho_bracket 5); lia.
Qed.

(** Errors of stages and slopes. *)
Lemma O_E_of j k : (j < 7)%nat -> (forall l, (l < j)%nat -> O k (fun t h i => da j l * Dl l t h i)) -> O (S k) (rho j) -> O (S k) (E j).
Proof.
  intros Hj HD Hrho.
  apply (O_ext n t0 tf _ _ (fun t h i => h * rsum j (fun l => da j l * Dl l t h i) - rho j t h i)).
  - intros. apply E_eq; assumption.
  - apply O_sub; [|exact Hrho]. apply O_h.
    apply (O_rsum n t0 tf k j (fun l t h i => da j l * Dl l t h i)). exact HD.
Qed.
Lemma E_O2 j : (j < 7)%nat -> O 2 (E j).
Proof.
  induction j as [j IH] using (well_founded_induction Wf_nat.lt_wf). intros Hj.
  apply O_E_of; [exact Hj| |now apply rho_O2].
  intros l Hl. apply O_scal. apply (O_less n t0 tf 2 1); [lia|]. apply (Dl_lip l 1); [lia|]. apply IH; lia.
Qed.
Lemma Dl_O2 j : (j < 7)%nat -> O 2 (Dl j).
Proof. intros Hj. apply (Dl_lip j 1 Hj). now apply E_O2. Qed.
Lemma E_O3 j : (j < 7)%nat -> j <> 1%nat -> O 3 (E j).
Proof.
  intros Hj Hn. apply O_E_of; [exact Hj| |now apply rho_O3].
  intros l Hl. apply O_scal. apply Dl_O2; lia.
Qed.
Lemma Dl_O3 j : (j < 7)%nat -> j <> 1%nat -> O 3 (Dl j).
Proof. intros Hj Hn. apply (Dl_lip j 2 Hj). now apply E_O3. Qed.

(** Slope errors of the stages other than the second, to fifth order. *)
Lemma Dl_lin j : (j < 7)%nat -> j <> 1%nat ->
  O 5 (fun t h i => Dl j t h i - (app J (E j) t h i + dc j * h * app J1 (E j) t h i)).
Proof.
  intros Hj Hn.
  apply (O_ext n t0 tf _ _ (fun t h i =>
     (Dl j t h i - rsum n (fun q => J i q (t + dc j * h) * E j t h q))
     + (rsum n (fun q => J i q (t + dc j * h) * E j t h q) - (app J (E j) t h i + dc j * h * app J1 (E j) t h i)))).
  - intros; ring.
  - apply O_add.
    + apply (O_less n t0 tf (2 * 3) 5); [lia|]. apply (Dl_jac j 2 Hj). now apply E_O3.
    + apply (Dl_jac0 j 3 Hj). now apply E_O3.
Qed.

(** A combination of the stage errors that annihilates the leading terms. *)
Definition rcoef (j : nat) : R := dc j ^ 3 / 6 - rsum j (fun l => da j l * (dc l ^ 2 / 2)).
Lemma bracket3 j t h i : (j < 7)%nat -> j <> 1%nat -> bracket 3 j t h i = rcoef j * (h ^ 3 * D 3%nat i t).
Proof. intros Hj Hn. unfold rcoef. do 7 (destruct j as [|j]; [try lia; tab; field|]). lia. Qed.

Lemma E_lead j : (j < 7)%nat -> j <> 1%nat ->
  O 4 (fun t h i => E j t h i - (da j 1 * (h * Dl 1 t h i) - rcoef j * (h ^ 3 * D 3%nat i t))).
Proof.
  intros Hj Hn.
  apply (O_ext n t0 tf _ _ (fun t h i => h * rsum j (fun l => (if Nat.eqb l 1 then 0 else da j l) * Dl l t h i)
       - (rho j t h i - bracket 3 j t h i))).
  - intros t h i _ _ _ Hi. rewrite (E_eq j) by (assumption || lia). rewrite bracket3 by (assumption || lia).
    do 7 (destruct j as [|j]; [try lia; sums; cbn [Nat.eqb]; try (change (da 0 1) with 0); ring|]). lia.
  - apply O_sub; [|apply (rho_bracket 3); lia]. apply O_h.
    apply (O_rsum n t0 tf 3 j (fun l t h i => (if Nat.eqb l 1 then 0 else da j l) * Dl l t h i)).
    intros l Hl. destruct (Nat.eqb_spec l 1).
    + apply (O_ext n t0 tf _ _ (fun _ _ _ => 0)); [intros; ring|apply O_zero].
    + apply O_scal. apply Dl_O3; lia.
Qed.

Lemma E_comb m (w : nat -> R) : (m <= 7)%nat -> w 1%nat = 0 ->
  rsum m (fun j => w j * da j 1) = 0 -> rsum m (fun j => w j * rcoef j) = 0 ->
  O 4 (fun t h i => rsum m (fun j => w j * E j t h i)).
Proof.
  intros Hm W1 Wa Wr.
  apply (O_ext n t0 tf _ _ (fun t h i => rsum m (fun j => w j * 
     (if Nat.eqb j 1 then 0 else E j t h i - (da j 1 * (h * Dl 1 t h i) - rcoef j * (h ^ 3 * D 3%nat i t)))))).
  - intros t h i _ _ _ _.
    transitivity (rsum m (fun j => w j * (if Nat.eqb j 1 then 0 else E j t h i - (da j 1 * (h * Dl 1 t h i) - rcoef j * (h ^ 3 * D 3%nat i t))))
       + ((h * Dl 1 t h i) * rsum m (fun j => w j * da j 1) + (- (h ^ 3 * D 3%nat i t)) * rsum m (fun j => w j * rcoef j))).
    + rewrite <- !rsum_scal, <- !rsum_plus. apply rsum_ext. intros j _.
      destruct (Nat.eqb_spec j 1) as [->|_]; [rewrite W1; ring|ring].
    + rewrite Wa, Wr. ring.
  - apply (O_rsum n t0 tf 4 m (fun j t h i => w j * 
     (if Nat.eqb j 1 then 0 else E j t h i - (da j 1 * (h * Dl 1 t h i) - rcoef j * (h ^ 3 * D 3%nat i t))))).
    intros j Hj. apply O_scal. destruct (Nat.eqb_spec j 1); [apply O_zero|]. apply E_lead; [lia|assumption].
Qed.

Ltac num := unfold rcoef; sums; unfold da, db, dc, comp; cbn [nth fst snd dopri_rows dopri_b]; lra.
Lemma comb_b : O 4 (fun t h i => rsum 6 (fun j => db j * E j t h i)).
Proof. apply E_comb; [lia|num..]. Qed.
Lemma comb_bc : O 4 (fun t h i => rsum 6 (fun j => (db j * dc j) * E j t h i)).
Proof. apply E_comb; [lia|num..]. Qed.

(** [sum_j b_j a_jl = b_l (1 - c_l)] *)
Lemma colsum l : (l < 6)%nat -> rsum 6 (fun j => db j * (if Nat.ltb l j then da j l else 0)) = db l * (1 - dc l).
Proof. intros Hl. do 6 (destruct l as [|l]; [sums; cbn [Nat.ltb Nat.leb]; num|]). lia. Qed.

(** Slope errors combined with weights that vanish for the second stage, to the
    order of the combination of the stage errors. *)
Lemma Dl_comb m (w : nat -> R) k : (m <= 7)%nat -> w 1%nat = 0 -> (k <= 5)%nat ->
  O k (fun t h i => rsum m (fun j => w j * E j t h i)) ->
  O (k - 1) (fun t h i => rsum m (fun j => (w j * dc j) * E j t h i)) ->
  O k (fun t h i => rsum m (fun j => w j * Dl j t h i)).
Proof.
  intros Hm W1 Hk H0 H1.
  apply (O_ext n t0 tf _ _ (fun t h i => 
    rsum m (fun j => w j * (if Nat.eqb j 1 then 0 else Dl j t h i - (app J (E j) t h i + dc j * h * app J1 (E j) t h i)))
    + (app J (fun t h i => rsum m (fun j => w j * E j t h i)) t h i
       + h * app J1 (fun t h i => rsum m (fun j => (w j * dc j) * E j t h i)) t h i))).
  - intros t h i _ _ _ _.
    assert (forall M g, app M (fun t h i => rsum m (fun j => g j * E j t h i)) t h i = rsum m (fun j => g j * app M (E j) t h i)) as Hl.
    { intros M g. unfold app. rewrite (rsum_ext n _ (fun q => rsum m (fun j => g j * (M i q t * E j t h q)))).
      - rewrite rsum_swap. apply rsum_ext. intros j _. now rewrite rsum_scal.
      - intros q _. rewrite <- rsum_scal. apply rsum_ext. intros; ring. }
    rewrite !Hl. rewrite <- rsum_scal, <- !rsum_plus. apply rsum_ext. intros j _.
    destruct (Nat.eqb_spec j 1) as [->|_]; [rewrite W1; ring|ring].
  - apply O_add; [|apply O_add].
    + apply (O_rsum n t0 tf k m (fun j t h i => w j * (if Nat.eqb j 1 then 0 else Dl j t h i - (app J (E j) t h i + dc j * h * app J1 (E j) t h i)))).
      intros j Hj. apply O_scal. destruct (Nat.eqb_spec j 1); [apply O_zero|].
      apply (O_less n t0 tf 5 k); [lia|]. apply Dl_lin; [lia|assumption].
    + apply (O_app J); [now left|exact H0].
    + apply (O_less n t0 tf (S (k - 1)) k); [lia|].
      apply (O_h n t0 tf (k - 1) (fun t h i => app J1 (fun t h i => rsum m (fun j => w j * dc j * E j t h i)) t h i)).
      apply (O_app J1); [now right|exact H1].
Qed.

Lemma Dl_bc : O 4 (fun t h i => rsum 6 (fun j => (db j * (1 - dc j)) * Dl j t h i)).
Proof.
  apply (Dl_comb 6 (fun j => db j * (1 - dc j))); [lia|num|lia| |].
  - apply (O_ext n t0 tf _ _ (fun t h i => rsum 6 (fun j => db j * E j t h i) - rsum 6 (fun j => (db j * dc j) * E j t h i))).
    + intros. sums. ring.
    + apply O_sub; [apply comb_b|apply comb_bc].
  - apply (O_rsum n t0 tf 3 6 (fun j t h i => (db j * (1 - dc j) * dc j) * E j t h i)).
    intros j Hj. destruct (Nat.eq_dec j 1) as [->|Hn].
    + apply (O_ext n t0 tf _ _ (fun _ _ _ => 0)); [|apply O_zero]. intros. change (db 1) with 0. ring.
    + apply O_scal. apply E_O3; [lia|assumption].
Qed.

Lemma rho_b : O 5 (fun t h i => rsum 6 (fun j => db j * rho j t h i)).
Proof.
  apply (O_ext n t0 tf _ _ (fun t h i => rsum 6 (fun j => db j * (rho j t h i - bracket 4 j t h i)))).
  - intros t h i _ _ _ _.
    transitivity (rsum 6 (fun j => db j * (rho j t h i - bracket 4 j t h i)) + rsum 6 (fun j => db j * bracket 4 j t h i)).
    + generalize (fun j => bracket 4 j t h i). intros g. sums. ring.
    + assert (rsum 6 (fun j => db j * bracket 4 j t h i) = 0) as ->; [|ring].
      tab. field.
  - apply (O_rsum n t0 tf 5 6 (fun j t h i => db j * (rho j t h i - bracket 4 j t h i))).
    intros j Hj. apply O_scal. apply (rho_bracket 4); lia.
Qed.

Lemma comb_b5 : O 5 (fun t h i => rsum 6 (fun j => db j * E j t h i)).
Proof.
  apply (O_ext n t0 tf _ _ (fun t h i => h * rsum 6 (fun j => (db j * (1 - dc j)) * Dl j t h i)
       - rsum 6 (fun j => db j * rho j t h i))).
  - intros t h i _ _ _ Hi.
    rewrite (rsum_ext 6 (fun j => db j * E j t h i) (fun j => db j * (h * rsum j (fun l => da j l * Dl l t h i) - rho j t h i)))
      by (intros j Hj; rewrite E_eq by (assumption || lia); reflexivity).
    rewrite (rsum_ext 6 (fun j => db j * (1 - dc j) * Dl j t h i)
       (fun l => rsum 6 (fun j => db j * (if Nat.ltb l j then da j l else 0)) * Dl l t h i))
      by (intros l Hl; rewrite colsum by exact Hl; reflexivity).
    sums. cbn [Nat.ltb Nat.leb]. ring.
  - apply O_sub; [apply O_h, Dl_bc|apply rho_b].
Qed.

Lemma Dl_b : O 5 (fun t h i => rsum 6 (fun j => db j * Dl j t h i)).
Proof. apply Dl_comb; [lia|reflexivity|lia|apply comb_b5|apply comb_bc]. Qed.

Lemma local_order6 : O 6 (fun t h i => comp (rk_step dopri_rows dopri_b f t (y t) h) i - comp (y (t + h)) i).
Proof.
  apply (O_ext n t0 tf _ _ (fun t h i => h * rsum 6 (fun j => db j * Dl j t h i) - rho 6 t h i)).
  - intros t h i _ _ _ Hi. rewrite step_comp6 by (now rewrite Hlen).
    transitivity (E 6 t h i).
    + unfold E. rewrite Y_comp by (rewrite ?Hlen; lia). change (dc 6) with 1. rewrite Rmult_1_l, HD0. reflexivity.
    + rewrite E_eq by (assumption || lia). reflexivity.
  - apply O_sub; [apply O_h, Dl_b|apply rho6].
Qed.

(** ** The continuous extension *)
Lemma Dl_dense m : (m < 4)%nat -> O 4 (fun t h i => rsum 7 (fun j => dw m j * Dl j t h i)).
Proof.
  intros Hm. apply (Dl_comb 7 (dw m)).
  - lia.
  - do 4 (destruct m as [|m]; [unfold dw, dopri_d; cbn [Nat.eqb]; num|]). lia.
  - lia.
  - apply E_comb; [lia| | |]; do 4 (destruct m as [|m]; [unfold dw, dopri_d; sums; cbn [Nat.eqb]; num|]); lia.
  - apply (O_rsum n t0 tf 3 7 (fun j t h i => (dw m j * dc j) * E j t h i)).
    intros j Hj. destruct (Nat.eq_dec j 1) as [->|Hn].
    + apply (O_ext n t0 tf _ _ (fun _ _ _ => 0)); [|apply O_zero]. intros.
      assert (dw m 1 = 0) as ->; [|ring]. do 4 (destruct m as [|m]; [unfold dw, dopri_d; cbn [Nat.eqb]; num|]). lia.
    + apply O_scal. apply E_O3; [lia|assumption].
Qed.

Lemma dense_order5 : exists C H, 0 <= C /\ 0 < H <= 1 /\
  forall t h x i, t0 <= t -> 0 < h <= H -> t + h <= tf -> 0 <= x <= 1 -> (i < n)%nat ->
  Rabs (comp (combine_stages (y t) h (dopri_dense x) (slopes f t (y t) h dopri_rows [])) i - comp (y (t + x * h)) i)
  <= C * h ^ 5.
Proof.
  assert (forall m, (m < 4)%nat -> O 5 (fun t h i => h * rsum 7 (fun j => dw m j *
     (Dl j t h i + (D 1%nat i (t + dc j * h) - taylor 4 (fun q => D (1 + q)%nat i t) (dc j * h)))))) as HG.
  { intros m Hm. apply (O_h n t0 tf 4).
    apply (O_ext n t0 tf _ _ (fun t h i => rsum 7 (fun j => dw m j * Dl j t h i) +
       rsum 7 (fun j => dw m j * (D 1%nat i (t + dc j * h) - taylor 4 (fun q => D (1 + q)%nat i t) (dc j * h))))).
    - intros. rewrite <- rsum_plus. apply rsum_ext. intros; ring.
    - apply O_add; [now apply Dl_dense|].
      apply (O_rsum n t0 tf 4 7 (fun j t h i => dw m j * (D 1%nat i (t + dc j * h) - taylor 4 (fun q => D (1 + q)%nat i t) (dc j * h)))).
      intros j Hj. apply O_scal. apply (O_taylor 1 4); [lia|apply dc_range]. }
  set (G := fun m => (fun t h i => h * rsum 7 (fun j => dw m j *
     (Dl j t h i + (D 1%nat i (t + dc j * h) - taylor 4 (fun q => D (1 + q)%nat i t) (dc j * h)))) : R)) in *.
  assert (exists C H, 0 <= C /\ 0 < H <= 1 /\ forall m t h i, (m < 4)%nat -> t0 <= t -> 0 < h <= H -> t + h <= tf -> (i < n)%nat ->
     Rabs (G m t h i) <= C * h ^ 5) as (C & H & HC & HH & HGb).
  { destruct (HG 0%nat ltac:(lia)) as (C0 & h0 & ? & ? & B0). destruct (HG 1%nat ltac:(lia)) as (C1 & h1 & ? & ? & B1).
    destruct (HG 2%nat ltac:(lia)) as (C2 & h2 & ? & ? & B2). destruct (HG 3%nat ltac:(lia)) as (C3 & h3 & ? & ? & B3).
    exists (C0 + C1 + C2 + C3), (Rmin (Rmin h0 h1) (Rmin h2 h3)).
    pose proof (Rmin_l (Rmin h0 h1) (Rmin h2 h3)). pose proof (Rmin_r (Rmin h0 h1) (Rmin h2 h3)).
    pose proof (Rmin_l h0 h1). pose proof (Rmin_r h0 h1). pose proof (Rmin_l h2 h3). pose proof (Rmin_r h2 h3).
    split; [lra|]. split; [split; [repeat apply Rmin_pos; lra|lra]|].
    intros m t h i Hm Ht Hh Hf Hi. assert (0 <= h ^ 5) by (apply pow_le; lra).
    destruct m as [|[|[|[|m]]]]; [| | | |lia];
      [specialize (B0 t h i Ht ltac:(lra) Hf Hi); clear B1 B2 B3
      |specialize (B1 t h i Ht ltac:(lra) Hf Hi); clear B0 B2 B3
      |specialize (B2 t h i Ht ltac:(lra) Hf Hi); clear B0 B1 B3
      |specialize (B3 t h i Ht ltac:(lra) Hf Hi); clear B0 B1 B2];
      match goal with B : Rabs _ <= _ |- _ => eapply Rle_trans; [exact B|] end; nra. }
  exists (4 * C + Rabs B), H. pose proof (Rabs_pos B) as HB.
  split; [lra|]. split; [exact HH|].
  intros t h x i Ht Hh Hf Hx Hi.
  rewrite dense_comp by (now rewrite Hlen).
  pose proof (taylor_bound (fun q => D q i) (Rabs B) t0 tf t 5 HB Ht) as T.
  specialize (T ltac:(intros m z Hm Hz; apply HDd; [lia|assumption|assumption])
                ltac:(intros z Hz; eapply Rle_trans; [apply HDb; [lia|assumption|assumption]|apply Rle_abs])
                (x * h) ltac:(nra)).
  cbv beta in T.
  assert (Rabs B * (x * h) ^ 5 <= Rabs B * h ^ 5) as T' by (apply Rmult_le_compat_l; [exact HB|]; apply pow_incr; nra).
  rewrite <- !HD0.
  replace (_ - _) with (rsum 4 (fun m => dp m x * G m t h i)
     - (D 0%nat i (t + x * h) - taylor 5 (fun q => D q i t) (x * h))).
  - unfold Rminus at 1. eapply Rle_trans; [apply Rabs_triang|]. rewrite Rabs_Ropp.
    assert (Rabs (rsum 4 (fun m => dp m x * G m t h i)) <= 4 * (C * h ^ 5)) as HS.
    { eapply Rle_trans; [apply rsum_abs|]. apply Rle_trans with (rsum 4 (fun _ => C * h ^ 5)); [|sums; lra].
      apply rsum_le. intros m Hm. rewrite Rabs_mult. pose proof (dp_range m x Hx).
      rewrite (Rabs_right (dp m x)) by lra. specialize (HGb m t h i Hm Ht Hh Hf Hi).
      pose proof (Rabs_pos (G m t h i)). nra. }
    lra.
  - assert (taylor 5 (fun q => D q i t) (x * h) = D 0%nat i t + h * rsum 7 (fun j => dbt x j * taylor 4 (fun q => D (1 + q)%nat i t) (dc j * h))) as ->.
    { unfold dbt, dw. sums. unfold dp, dc, db, dopri_d, comp.
      cbn [Nat.eqb nth fst snd dopri_rows dopri_b taylor fact Nat.mul Nat.add INR pow]. field. }
    unfold G, dbt.
    rewrite (rsum_ext 7 (fun l => rsum 4 (fun m => dp m x * dw m l) * comp (K f (y t) t h l) i)
       (fun l => rsum 4 (fun m => dp m x * dw m l) * Dl l t h i + rsum 4 (fun m => dp m x * dw m l) * D 1%nat i (t + dc l * h))).
    2:{ intros l _. unfold Dl. ring. }
    set (Tl := fun j => taylor 4 (fun q => D (1 + q)%nat i t) (dc j * h)).
    set (D1 := fun j => D 1%nat i (t + dc j * h)).
    change (rsum 4 (fun m => dp m x * (h * rsum 7 (fun j => dw m j * (Dl j t h i + (D1 j - Tl j)))))
      - (D 0%nat i (t + x * h) - (D 0%nat i t + h * rsum 7 (fun j => rsum 4 (fun m => dp m x * dw m j) * Tl j)))
      = D 0%nat i t + h * rsum 7 (fun l => rsum 4 (fun m => dp m x * dw m l) * Dl l t h i + rsum 4 (fun m => dp m x * dw m l) * D1 l)
        - D 0%nat i (t + x * h)).
    clearbody Tl D1. generalize (fun j => Dl j t h i). intros dl. unfold rsum. cbn [seq map fold_right]. ring.
Qed.
End Local.
