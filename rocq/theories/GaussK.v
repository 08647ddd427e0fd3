(** Gaussian elimination with row exchanges over a commutative field, on
    matrices given as functions of the indices.  The compact storage is that of
    src/linalg/dec.rs: the multipliers replace the eliminated entries and are
    not exchanged later. *)
From Coq Require Import List Lia Bool Arith Ring.
From Verif Require Import LinFacts.

Section Gauss.
Context {K : Type} (k0 k1 : K) (kadd kmul ksub : K -> K -> K) (kopp kinv : K -> K).
Context (Kth : ring_theory k0 k1 kadd kmul ksub kopp eq).
Context (kinv_r : forall x, x <> k0 -> kmul x (kinv x) = k1) (k10 : k1 <> k0).
Add Ring Kring : Kth.
Local Infix "+" := kadd. Local Infix "*" := kmul. Local Notation "- x" := (kopp x).
Local Notation "0" := k0. Local Notation "1" := k1.

Fixpoint ksum (n : nat) (f : nat -> K) : K :=
  match n with O => 0 | S n => ksum n f + f n end.

Lemma ksum_ext n f g : (forall j, j < n -> f j = g j) -> ksum n f = ksum n g.
Proof. induction n as [|n IH]; intros H; cbn; [reflexivity|]. rewrite IH, H; auto. Qed.
Lemma ksum_0 n : ksum n (fun _ => 0) = 0.
Proof. induction n as [|n IH]; cbn; [reflexivity|]. rewrite IH. ring. Qed.
Lemma ksum_all0 n f : (forall j, j < n -> f j = 0) -> ksum n f = 0.
Proof. intros H. rewrite (ksum_ext n f (fun _ => 0) H). apply ksum_0. Qed.
Lemma ksum_add n f g : ksum n (fun j => f j + g j) = ksum n f + ksum n g.
Proof. induction n as [|n IH]; cbn; [ring|]. rewrite IH. ring. Qed.
Lemma ksum_scale n c f : ksum n (fun j => c * f j) = c * ksum n f.
Proof. induction n as [|n IH]; cbn; [ring|]. rewrite IH. ring. Qed.
Lemma ksum_one n c k : k < n -> ksum n (fun j => if Nat.eqb j k then c else 0) = c.
Proof.
  induction n as [|n IH]; intros H; [lia|]. cbn. destruct (Nat.eqb_spec n k) as [->|Hne].
  - rewrite ksum_all0; [ring|]. intros j Hj. nbool; reflexivity.
  - rewrite IH by lia. ring.
Qed.

Lemma no_zero_div x y : x <> 0 -> x * y = 0 -> y = 0.
Proof.
  intros Hx H. replace y with (kinv x * (x * y)); [rewrite H; ring|].
  replace (kinv x * (x * y)) with ((x * kinv x) * y) by ring. rewrite kinv_r by exact Hx. ring.
Qed.

(** ** One stage *)
Definition row (a : nat -> nat -> K) (n i : nat) (x : nat -> K) : K := ksum n (fun j => a i j * x j).
Definition solves (n : nat) (a : nat -> nat -> K) (x b : nat -> K) : Prop :=
  forall i, i < n -> row a n i x = b i.

(** The matrix meant by the compact storage after [k] stages. *)
Definition msk (k : nat) (a : nat -> nat -> K) (i j : nat) : K :=
  if Nat.ltb j k && Nat.ltb j i then 0 else a i j.

Record stage (n k m : nat) (a a' : nat -> nat -> K) : Prop := mkStage {
  sg_m : k <= m < n;
  sg_t : a m k <> 0;
  sg_lt : forall i j, i < n -> j < k -> a' i j = a i j;
  sg_eq : forall i, i < n -> a' i k =
    if Nat.ltb k i then a (swp k m i) k * - (kinv (a m k)) else a (swp k m i) k;
  sg_gt : forall i j, i < n -> k < j < n -> a' i j =
    if Nat.ltb k i then a (swp k m i) j + a (swp k m i) k * - (kinv (a m k)) * a m j
    else a (swp k m i) j }.

Definition fwd (k m : nat) (a : nat -> nat -> K) (b : nat -> K) (i : nat) : K :=
  if Nat.ltb k i then b (swp k m i) + a i k * b m else b (swp k m i).

Lemma swp_lt k m n i : k < n -> m < n -> i < n -> swp k m i < n.
Proof. unfold swp. nbool. Qed.
Lemma swp_swp k m i : swp k m (swp k m i) = i.
Proof.
  unfold swp. destruct (Nat.eqb_spec i k) as [->|H1].
  - destruct (Nat.eqb_spec m k) as [->|]; [reflexivity|]. now rewrite Nat.eqb_refl.
  - destruct (Nat.eqb_spec i m) as [->|H2]; [now rewrite Nat.eqb_refl|].
    now rewrite (proj2 (Nat.eqb_neq i k) H1), (proj2 (Nat.eqb_neq i m) H2).
Qed.
Lemma swp_below k m i : k <= m -> i < k -> swp k m i = i.
Proof. unfold swp. nbool. Qed.
Lemma swp_above k m i : k <= m -> k <= i -> k <= swp k m i.
Proof. unfold swp. nbool. Qed.

Lemma stage_entry n k m a a' i j : stage n k m a a' -> i < n -> j < n ->
  msk (S k) a' i j = if Nat.ltb k i then msk k a (swp k m i) j + a' i k * msk k a m j
                     else msk k a (swp k m i) j.
Proof.
  intros [[Hm1 Hm2] Ht Hlt Heq Hgt] Hi Hj. assert (k < n) as Hk by lia. unfold msk.
  destruct (Nat.lt_trichotomy j k) as [Hjk|[->|Hjk]].
  - rewrite (proj2 (Nat.ltb_lt j (S k))) by lia. rewrite (proj2 (Nat.ltb_lt j k)) by lia. cbn [andb].
    rewrite (proj2 (Nat.ltb_lt j m)) by lia.
    destruct (Nat.ltb_spec k i) as [Hki|Hki].
    + pose proof (swp_above k m i Hm1 ltac:(lia)). rewrite !(proj2 (Nat.ltb_lt j _)) by lia. ring.
    + destruct (Nat.eq_dec i k) as [->|Hne].
      * pose proof (swp_above k m k Hm1 ltac:(lia)). rewrite !(proj2 (Nat.ltb_lt j _)) by lia. ring.
      * rewrite swp_below by lia. destruct (Nat.ltb j i); [reflexivity|]. now apply Hlt.
  - rewrite (proj2 (Nat.ltb_lt k (S k))) by lia. rewrite Nat.ltb_irrefl. cbn [andb].
    rewrite Heq by exact Hi. destruct (Nat.ltb_spec k i) as [Hki|Hki]; [|reflexivity].
    replace (a (swp k m i) k + a (swp k m i) k * - kinv (a m k) * a m k)
      with (a (swp k m i) k + - (a (swp k m i) k * (a m k * kinv (a m k)))) by ring.
    rewrite kinv_r by exact Ht. ring.
  - rewrite (proj2 (Nat.ltb_ge j (S k))) by lia. rewrite (proj2 (Nat.ltb_ge j k)) by lia. cbn [andb].
    rewrite Hgt by lia. destruct (Nat.ltb_spec k i) as [Hki|Hki]; [|reflexivity].
    rewrite Heq by exact Hi. rewrite (proj2 (Nat.ltb_lt k i)) by lia. ring.
Qed.

Lemma stage_row n k m a a' x i : stage n k m a a' -> i < n ->
  row (msk (S k) a') n i x =
    if Nat.ltb k i then row (msk k a) n (swp k m i) x + a' i k * row (msk k a) n m x
    else row (msk k a) n (swp k m i) x.
Proof.
  intros H Hi. unfold row. destruct (Nat.ltb k i) eqn:E.
  - rewrite <- ksum_scale, <- ksum_add. apply ksum_ext. intros j Hj.
    rewrite (stage_entry n k m a a') by assumption. rewrite E. ring.
  - apply ksum_ext. intros j Hj. rewrite (stage_entry n k m a a') by assumption. now rewrite E.
Qed.

Lemma stage_equiv n k m a a' x b : stage n k m a a' ->
  solves n (msk k a) x b <-> solves n (msk (S k) a') x (fwd k m a' b).
Proof.
  intros H. pose proof (sg_m _ _ _ _ _ H) as Hm. assert (k < n) as Hk by lia. split; intros Hs i Hi.
  - rewrite (stage_row n k m a a') by assumption. unfold fwd.
    rewrite (Hs (swp k m i)) by (apply swp_lt; lia). rewrite (Hs m) by lia. reflexivity.
  - assert (row (msk k a) n m x = b m) as Em.
    { pose proof (Hs k Hk) as E. rewrite (stage_row n k m a a') in E by assumption.
      unfold fwd in E. rewrite Nat.ltb_irrefl in E. unfold swp in E. rewrite Nat.eqb_refl in E. exact E. }
    pose proof (Hs (swp k m i) ltac:(apply swp_lt; lia)) as E.
    rewrite (stage_row n k m a a') in E by (auto; apply swp_lt; lia). unfold fwd in E.
    rewrite swp_swp, Em in E. destruct (Nat.ltb k (swp k m i)); [|exact E].
    replace (row (msk k a) n i x) with ((row (msk k a) n i x + a' (swp k m i) k * b m) + - (a' (swp k m i) k * b m)) by ring.
    rewrite E. ring.
Qed.

(** ** All stages *)
Inductive gauss (n : nat) (p : nat -> nat) : nat -> (nat -> nat -> K) -> (nat -> nat -> K) -> Prop :=
| gauss_0 a : gauss n p 0 a a
| gauss_S k a a1 a2 : gauss n p k a a1 -> stage n k (p k) a1 a2 -> gauss n p (S k) a a2.

Fixpoint fwds (p : nat -> nat) (l : nat -> nat -> K) (k : nat) (b : nat -> K) : nat -> K :=
  match k with O => b | S k => fwd k (p k) l (fwds p l k b) end.

(** The multipliers [l] below the diagonal in the first [k] columns. *)
Lemma fwd_ext n k m l l' b b' : k < n -> m < n -> (forall i, i < n -> k < i -> l i k = l' i k) ->
  (forall i, i < n -> b i = b' i) -> forall i, i < n -> fwd k m l b i = fwd k m l' b' i.
Proof.
  intros Hk Hm Hl Hb i Hi. unfold fwd. rewrite !Hb by (auto using swp_lt).
  destruct (Nat.ltb_spec k i); [|reflexivity]. now rewrite Hl.
Qed.

Lemma fwds_ext n p l l' k b : (forall j, j < k -> p j < n) -> k <= n ->
  (forall i j, i < n -> j < k -> j < i -> l i j = l' i j) ->
  forall i, i < n -> fwds p l k b i = fwds p l' k b i.
Proof.
  induction k as [|k IH]; intros Hp Hk Hl i Hi; [reflexivity|]. cbn [fwds].
  apply (fwd_ext n); auto; try lia. intros q Hq. apply IH; auto; lia.
Qed.

Lemma gauss_p n p k a a' : gauss n p k a a' -> k <= n /\ forall j, j < k -> j <= p j < n.
Proof.
  induction 1 as [|k a a1 a2 _ (IH1 & IH2) Hs]; [split; intros; lia|].
  pose proof (sg_m _ _ _ _ _ Hs). split; [lia|]. intros j Hj.
  destruct (Nat.eq_dec j k) as [->|]; [lia|]. apply IH2. lia.
Qed.

Lemma gauss_pivots n p k a a' : gauss n p k a a' -> forall i, i < k -> a' i i <> 0.
Proof.
  induction 1 as [|k a a1 a2 _ IH Hs]; intros i Hi; [lia|]. destruct Hs as [Hm Ht Hlt Heq Hgt].
  destruct (Nat.eq_dec i k) as [->|Hne].
  - rewrite Heq by lia. rewrite Nat.ltb_irrefl. unfold swp. now rewrite Nat.eqb_refl.
  - rewrite Hlt by lia. apply IH. lia.
Qed.

Lemma gauss_equiv n p k a a' x b : gauss n p k a a' ->
  solves n a x b <-> solves n (msk k a') x (fwds p a' k b).
Proof.
  induction 1 as [a|k a a1 a2 Hg IH Hs].
  - cbn [fwds]. unfold solves, row, msk. split; intros H i Hi; rewrite <- (H i Hi); apply ksum_ext; intros j _;
      destruct (Nat.ltb_spec j 0); try lia; reflexivity.
  - rewrite IH. rewrite (stage_equiv n k (p k) a1 a2) by exact Hs. cbn [fwds].
    pose proof (gauss_p _ _ _ _ _ Hg) as (_ & Hp). pose proof (sg_m _ _ _ _ _ Hs) as Hm.
    assert (forall i, i < n -> fwd k (p k) a2 (fwds p a1 k b) i = fwd k (p k) a2 (fwds p a2 k b) i) as E.
    { apply fwd_ext; auto; try lia. apply (fwds_ext n); try lia.
      - intros j Hj. apply Hp in Hj. lia.
      - intros i j Hi Hj Hji. symmetry. apply (sg_lt _ _ _ _ _ Hs); lia. }
    unfold solves. split; intros H i Hi; [rewrite <- E|rewrite E]; auto.
Qed.

(** ** Upper triangular systems *)
Definition upper (n : nat) (u : nat -> nat -> K) : Prop := forall i j, i < n -> j < i -> u i j = 0.

(** Back substitution has treated the columns from [c] on. *)
Definition binv (n : nat) (u : nat -> nat -> K) (b : nat -> K) (c : nat) (y : nat -> K) : Prop :=
  forall i, i < n -> (if Nat.ltb i c then y i else 0) + ksum n (fun j => if Nat.leb c j then u i j * y j else 0) = b i.

Definition bstep (u : nat -> nat -> K) (c : nat) (y : nat -> K) (i : nat) : K :=
  let x := y c * kinv (u c c) in
  if Nat.eqb i c then x else if Nat.ltb i c then y i + u i c * - x else y i.

Lemma binv_start n u b y : (forall i, i < n -> y i = b i) -> binv n u b n y.
Proof.
  intros H i Hi. rewrite (proj2 (Nat.ltb_lt i n) Hi), H by exact Hi. rewrite ksum_all0; [ring|].
  intros j Hj. now rewrite (proj2 (Nat.leb_gt n j)) by lia.
Qed.

Lemma binv_step n u b c y y' : upper n u -> c < n -> u c c <> 0 -> binv n u b (S c) y ->
  (forall i, i < n -> y' i = bstep u c y i) -> binv n u b c y'.
Proof.
  intros Hu Hc Hd Hb Hy i Hi. specialize (Hb i Hi).
  assert (ksum n (fun j => if Nat.leb c j then u i j * y' j else 0) =
          ksum n (fun j => if Nat.leb (S c) j then u i j * y j else 0) + u i c * (y c * kinv (u c c))) as ->.
  { rewrite <- (ksum_one n (u i c * (y c * kinv (u c c))) c Hc). rewrite <- ksum_add. apply ksum_ext. intros j Hj.
    rewrite Hy by exact Hj. unfold bstep. nbool; ring. }
  rewrite <- Hb. clear Hb. rewrite !Hy by exact Hi. unfold bstep.
  destruct (Nat.lt_trichotomy i c) as [H|[->|H]].
  - rewrite (proj2 (Nat.ltb_lt i c)) by lia. rewrite (proj2 (Nat.ltb_lt i (S c))) by lia.
    rewrite (proj2 (Nat.eqb_neq i c)) by lia. ring.
  - rewrite Nat.ltb_irrefl, (proj2 (Nat.ltb_lt c (S c))) by lia.
    replace (u c c * (y c * kinv (u c c))) with ((u c c * kinv (u c c)) * y c) by ring. rewrite kinv_r by exact Hd. ring.
  - rewrite (proj2 (Nat.ltb_ge i c)) by lia. rewrite (proj2 (Nat.ltb_ge i (S c))) by lia.
    rewrite (Hu i c) by lia. ring.
Qed.

Lemma binv_end n u b y : binv n u b 0 y -> solves n u y b.
Proof.
  intros H i Hi. specialize (H i Hi). rewrite (proj2 (Nat.ltb_ge i 0)) in H by lia.
  rewrite <- H. cbn [Nat.leb]. unfold row. ring.
Qed.

Lemma upper_solvable n u b : upper n u -> (forall i, i < n -> u i i <> 0) -> exists y, solves n u y b.
Proof.
  intros Hu Hd. assert (forall q, q <= n -> exists y, binv n u b (n - q) y) as H.
  { induction q as [|q IH]; intros Hq.
    - exists b. replace (n - 0) with n by lia. now apply binv_start.
    - destruct (IH ltac:(lia)) as (y & Hy). exists (bstep u (n - S q) y).
      apply (binv_step n u b (n - S q) y); auto; try lia; [apply Hd; lia|].
      now replace (S (n - S q)) with (n - q) by lia. }
  destruct (H n (le_n n)) as (y & Hy). exists y. apply binv_end. now replace 0%nat with (n - n) by lia.
Qed.

Lemma upper_unique n u x y b : upper n u -> (forall i, i < n -> u i i <> 0) ->
  solves n u x b -> solves n u y b -> forall i, i < n -> x i = y i.
Proof.
  intros Hu Hd Hx Hy.
  assert (forall q i, i < n -> n - q <= i -> x i = y i) as H; [|intros i Hi; apply (H n i Hi); lia].
  induction q as [|q IH]; intros i Hi Hq; [lia|].
  destruct (le_lt_dec (n - q) i) as [Hle|Hlt]; [now apply IH|].
  assert (u i i * (x i + - y i) = 0) as E.
  { replace 0 with (b i + - b i) by ring. rewrite <- (Hx i Hi) at 1. rewrite <- (Hy i Hi). unfold row.
    replace (- ksum n (fun j => u i j * y j)) with (ksum n (fun j => (- (1)) * (u i j * y j)))
      by (rewrite ksum_scale; ring).
    rewrite <- ksum_add. rewrite <- (ksum_one n (u i i * (x i + - y i)) i Hi). apply ksum_ext. intros j Hj.
    destruct (Nat.eqb_spec j i) as [->|Hne]; [ring|].
    destruct (le_lt_dec i j) as [Hij|Hij]; [|rewrite (Hu i j) by lia; ring].
    rewrite (IH j) by lia. ring. }
  apply no_zero_div in E; [|now apply Hd].
  replace (x i) with ((x i + - y i) + y i) by ring. rewrite E. ring.
Qed.

(** ** Singular matrices *)
Definition singular (n : nat) (a : nat -> nat -> K) : Prop :=
  exists x, (exists i, i < n /\ x i <> 0) /\ solves n a x (fun _ => 0).

Lemma fwd_zero k m l i : fwd k m l (fun _ => 0) i = 0.
Proof. unfold fwd. destruct (Nat.ltb k i); ring. Qed.
Lemma fwds_zero p l k : forall i, fwds p l k (fun _ => 0) i = 0.
Proof.
  induction k as [|k IH]; intros i; [reflexivity|]. cbn [fwds]. unfold fwd. rewrite !IH. destruct (Nat.ltb k i); ring.
Qed.

(** A stage finds no pivot. *)
Lemma gauss_singular n p k a a' : gauss n p k a a' -> k < n ->
  (forall i, k <= i < n -> a' i k = 0) -> singular n a.
Proof.
  intros Hg Hk Hcol.
  set (M := msk k a').
  set (U := fun i j => if Nat.ltb j k then M i j else if Nat.eqb i j then 1 else 0).
  set (c := fun i => if Nat.ltb i k then - M i k else if Nat.eqb i k then 1 else 0).
  assert (forall i j, i < n -> j < i -> j < k -> M i j = 0) as HM.
  { intros i j Hi Hj Hjk. unfold M, msk. rewrite (proj2 (Nat.ltb_lt j k) Hjk), (proj2 (Nat.ltb_lt j i) Hj). reflexivity. }
  destruct (upper_solvable n U c) as (y & Hy).
  - intros i j Hi Hj. unfold U. destruct (Nat.ltb_spec j k); [apply HM; lia|].
    rewrite (proj2 (Nat.eqb_neq i j)) by lia. reflexivity.
  - intros i Hi. unfold U. rewrite Nat.eqb_refl. destruct (Nat.ltb_spec i k); [|exact k10].
    unfold M, msk. rewrite Nat.ltb_irrefl, andb_false_r. now apply (gauss_pivots _ _ _ _ _ Hg).
  - assert (forall i, k <= i < n -> y i = c i) as Hhi.
    { intros i Hi. rewrite <- (Hy i) by lia. unfold row.
      transitivity (ksum n (fun j => if Nat.eqb j i then y i else 0)); [symmetry; apply ksum_one; lia|].
      apply ksum_ext. intros j Hj. unfold U. destruct (Nat.ltb_spec j k) as [Hjk|Hjk].
      - rewrite (proj2 (Nat.eqb_neq j i)) by lia. rewrite HM by lia. ring.
      - destruct (Nat.eqb_spec i j) as [->|Hne]; [rewrite Nat.eqb_refl; ring|].
        rewrite (proj2 (Nat.eqb_neq j i)) by lia. ring. }
    assert (y k = 1) as Hyk.
    { rewrite Hhi by lia. unfold c. rewrite Nat.ltb_irrefl, Nat.eqb_refl. reflexivity. }
    exists y. split; [exists k; split; [exact Hk|rewrite Hyk; exact k10]|].
    apply (gauss_equiv n p k a a' y _ Hg). intros i Hi. rewrite fwds_zero. fold M. unfold row.
    assert (ksum n (fun j => M i j * y j) =
      ksum n (fun j => (if Nat.ltb j k then M i j * y j else 0) + (if Nat.eqb j k then M i k else 0))) as ->.
    { apply ksum_ext. intros j Hj. destruct (Nat.ltb_spec j k) as [Hjk|Hjk].
      - rewrite (proj2 (Nat.eqb_neq j k)) by lia. ring.
      - destruct (Nat.eqb_spec j k) as [->|Hne]; [rewrite Hyk; ring|].
        rewrite Hhi by lia. unfold c. rewrite (proj2 (Nat.ltb_ge j k)), (proj2 (Nat.eqb_neq j k)) by lia. ring. }
    rewrite ksum_add, ksum_one by exact Hk.
    destruct (le_lt_dec k i) as [Hki|Hki].
    + rewrite ksum_all0.
      * unfold M, msk. rewrite Nat.ltb_irrefl. cbn [andb]. rewrite Hcol by lia. ring.
      * intros j Hj. destruct (Nat.ltb_spec j k); [|reflexivity]. rewrite HM by lia. ring.
    + assert (ksum n (fun j => if Nat.ltb j k then M i j * y j else 0) = - M i k) as ->; [|ring].
      pose proof (Hy i Hi) as E. unfold c in E. rewrite (proj2 (Nat.ltb_lt i k) Hki) in E. rewrite <- E.
      apply ksum_ext. intros j Hj. unfold U. destruct (Nat.ltb_spec j k); [reflexivity|].
      rewrite (proj2 (Nat.eqb_neq i j)) by lia. ring.
Qed.

(** All stages done, last pivot nonzero. *)
Lemma full_upper n p a a' : gauss n p (n - 1) a a' -> upper n (msk (n - 1) a').
Proof.
  intros _ i j Hi Hj. unfold msk. rewrite (proj2 (Nat.ltb_lt j (n - 1))), (proj2 (Nat.ltb_lt j i)) by lia. reflexivity.
Qed.
Lemma full_diag n p a a' : gauss n p (n - 1) a a' -> a' (n - 1)%nat (n - 1)%nat <> 0 ->
  forall i, i < n -> msk (n - 1) a' i i <> 0.
Proof.
  intros Hg Hl i Hi. unfold msk. rewrite Nat.ltb_irrefl, andb_false_r.
  destruct (Nat.eq_dec i (n - 1)) as [->|]; [exact Hl|]. apply (gauss_pivots _ _ _ _ _ Hg). lia.
Qed.

Lemma full_solution n p a a' b : gauss n p (n - 1) a a' -> a' (n - 1)%nat (n - 1)%nat <> 0 ->
  (exists x, solves n a x b) /\
  (forall x y, solves n a x b -> solves n a y b -> forall i, i < n -> x i = y i).
Proof.
  intros Hg Hl. pose proof (full_upper _ _ _ _ Hg) as Hu. pose proof (full_diag _ _ _ _ Hg Hl) as Hd. split.
  - destruct (upper_solvable n _ (fwds p a' (n - 1) b) Hu Hd) as (y & Hy). exists y.
    now apply (gauss_equiv n p (n - 1) a a').
  - intros x y Hx Hy. apply (upper_unique n (msk (n - 1) a') x y (fwds p a' (n - 1) b)); auto;
      now apply (gauss_equiv n p (n - 1) a a').
Qed.

Lemma full_nonsingular n p a a' : gauss n p (n - 1) a a' -> a' (n - 1)%nat (n - 1)%nat <> 0 -> ~ singular n a.
Proof.
  intros Hg Hl (x & (i & Hi & Hx) & Hs). apply Hx.
  destruct (full_solution n p a a' (fun _ => 0) Hg Hl) as (_ & Hun).
  apply (Hun x (fun _ => 0) Hs); [|exact Hi]. intros q Hq. unfold row. apply ksum_all0. intros; ring.
Qed.

(** The substitutions of [sol] applied to a full elimination solve the
    original system. *)
Lemma full_solves n p a a' b y : gauss n p (n - 1) a a' ->
  solves n (msk (n - 1) a') y (fwds p a' (n - 1) b) -> solves n a y b.
Proof. intros Hg. apply (gauss_equiv n p (n - 1) a a'). exact Hg. Qed.
End Gauss.
