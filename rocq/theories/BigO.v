(** Quantities of order [h^k], uniformly in the starting time, and Taylor's
    formula in this form. *)
From Coq Require Import Reals List Lia Lra.
From Verif Require Import SpecRK.
Import ListNotations.
Local Open Scope R_scope.

Section bigO.
Context (n : nat) (t0 tf : R).
Definition fam := R -> R -> nat -> R.
Definition bigO (k : nat) (F : fam) : Prop := exists C H, 0 <= C /\ 0 < H <= 1 /\
  forall t h i, t0 <= t -> 0 < h <= H -> t + h <= tf -> (i < n)%nat -> Rabs (F t h i) <= C * h ^ k.

Lemma O_ext k (F G : fam) : (forall t h i, t0 <= t -> 0 < h -> t + h <= tf -> (i < n)%nat -> F t h i = G t h i) ->
  bigO k G -> bigO k F.
Proof.
  intros E (C & H & HC & HH & HO). exists C, H. split; [exact HC|]. split; [exact HH|].
  intros t h i ? ? ? ?. rewrite E by (assumption || lra). now apply HO.
Qed.
Lemma O_zero k : bigO k (fun _ _ _ => 0).
Proof.
  exists 0, 1. split; [lra|]. split; [lra|]. intros. rewrite Rabs_R0. lra.
Qed.
Lemma O_add k (F G : fam) : bigO k F -> bigO k G -> bigO k (fun t h i => F t h i + G t h i).
Proof.
  intros (C & H & HC & HH & HO) (C' & H' & HC' & HH' & HO'). exists (C + C'), (Rmin H H').
  assert (Rmin H H' <= H) by apply Rmin_l. assert (Rmin H H' <= H') by apply Rmin_r.
  split; [lra|]. split; [split; [apply Rmin_pos; lra|lra]|].
  intros t h i Ht Hh Hf Hi. eapply Rle_trans; [apply Rabs_triang|].
  specialize (HO t h i Ht ltac:(lra) Hf Hi). specialize (HO' t h i Ht ltac:(lra) Hf Hi). lra.
Qed.
Lemma O_scal k a (F : fam) : bigO k F -> bigO k (fun t h i => a * F t h i).
Proof.
  intros (C & H & HC & HH & HO). exists (Rabs a * C), H.
  pose proof (Rabs_pos a). split; [now apply Rmult_le_pos|]. split; [exact HH|].
  intros t h i Ht Hh Hf Hi. rewrite Rabs_mult, Rmult_assoc. apply Rmult_le_compat_l; [assumption|]. now apply HO.
Qed.
Lemma O_opp k (F : fam) : bigO k F -> bigO k (fun t h i => - F t h i).
Proof. intros HO. apply (O_ext k _ (fun t h i => (-1) * F t h i)); [intros; ring|]. now apply O_scal. Qed.
Lemma O_sub k (F G : fam) : bigO k F -> bigO k G -> bigO k (fun t h i => F t h i - G t h i).
Proof. intros HF HG. apply (O_add k F (fun t h i => - G t h i)); [exact HF|]. now apply O_opp. Qed.
Lemma O_h k (F : fam) : bigO k F -> bigO (S k) (fun t h i => h * F t h i).
Proof.
  intros (C & H & HC & HH & HO). exists C, H. split; [exact HC|]. split; [exact HH|].
  intros t h i Ht Hh Hf Hi. rewrite Rabs_mult, (Rabs_right h) by lra. cbn [pow].
  specialize (HO t h i Ht Hh Hf Hi). replace (C * (h * h^k)) with (h * (C * h^k)) by ring.
  apply Rmult_le_compat_l; lra.
Qed.
Lemma O_pow q k (F : fam) : bigO k F -> bigO (q + k) (fun t h i => h ^ q * F t h i).
Proof.
  intros HF. induction q; cbn [Nat.add].
  - apply (O_ext k _ F); [intros; cbn; ring|exact HF].
  - apply (O_ext _ _ (fun t h i => h * (h ^ q * F t h i))); [intros; cbn [pow]; ring|]. now apply O_h.
Qed.
Lemma O_less k m (F : fam) : (m <= k)%nat -> bigO k F -> bigO m F.
Proof.
  intros Hm (C & H & HC & HH & HO). exists C, H. split; [exact HC|]. split; [exact HH|].
  intros t h i Ht Hh Hf Hi. eapply Rle_trans; [now apply HO|]. apply Rmult_le_compat_l; [assumption|].
  replace k with (m + (k - m))%nat by lia. rewrite pow_add.
  assert (h ^ (k - m) <= 1). { rewrite <- (pow1 (k - m)). apply pow_incr. lra. }
  assert (0 <= h ^ m) by (apply pow_le; lra). nra.
Qed.
Lemma O_rsum k j (F : nat -> fam) : (forall l, (l < j)%nat -> bigO k (F l)) ->
  bigO k (fun t h i => rsum j (fun l => F l t h i)).
Proof.
  intros HF. unfold rsum. assert (forall l, In l (seq 0 j) -> bigO k (F l)) as HF'.
  { intros l Hl. apply HF. apply in_seq in Hl. lia. }
  clear HF. induction (seq 0 j) as [|a l IH]; cbn [map fold_right].
  - apply O_zero.
  - apply (O_add k (F a) (fun t h i => fold_right Rplus 0 (map (fun l0 => F l0 t h i) l))).
    + apply HF'. now left.
    + apply IH. intros; apply HF'. now right.
Qed.
(** A matrix with bounded entries applied to a vector. *)
Lemma O_mat k (A : nat -> nat -> R -> R -> R) (F : fam) :
  (exists B, forall t h i j, t0 <= t -> 0 < h -> t + h <= tf -> (i < n)%nat -> (j < n)%nat -> Rabs (A i j t h) <= B) ->
  bigO k F -> bigO k (fun t h i => rsum n (fun j => A i j t h * F t h j)).
Proof.
  intros (B & HB) (C & H & HC & HH & HO). exists (INR n * (Rabs B * C)), H.
  pose proof (Rabs_pos B). pose proof (pos_INR n).
  assert (0 <= Rabs B * C) by now apply Rmult_le_pos.
  split; [now apply Rmult_le_pos|]. split; [exact HH|].
  intros t h i Ht Hh Hf Hi. unfold rsum.
  assert (forall j, In j (seq 0 n) -> Rabs (A i j t h * F t h j) <= Rabs B * C * h ^ k) as Hj.
  { intros j Hj. apply in_seq in Hj. rewrite Rabs_mult, Rmult_assoc.
    apply Rmult_le_compat; try apply Rabs_pos.
    - eapply Rle_trans; [apply (HB t h i j); lra || lia|]. apply Rle_abs.
    - apply HO; lra || lia. }
  rewrite Rmult_assoc. replace (INR n) with (INR (length (seq 0 n))) by (now rewrite seq_length).
  clear - Hj. induction (seq 0 n) as [|a l IH].
  - cbn. rewrite Rabs_R0. lra.
  - cbn [map fold_right length]. rewrite S_INR. eapply Rle_trans; [apply Rabs_triang|].
    rewrite Rmult_plus_distr_r, Rmult_1_l, Rplus_comm.
    apply Rplus_le_compat; [apply IH; intros; apply Hj; now right|apply Hj; now left].
Qed.
Lemma O_bound k (F : fam) eps : 0 < eps -> bigO (S k) F -> exists H, 0 < H <= 1 /\
  forall t h i, t0 <= t -> 0 < h <= H -> t + h <= tf -> (i < n)%nat -> Rabs (F t h i) <= eps.
Proof.
  intros He (C & H & HC & HH & HO). exists (Rmin H (eps / (C + 1))).
  assert (0 < eps / (C + 1)) by (apply Rdiv_lt_0_compat; lra).
  assert (Rmin H (eps / (C + 1)) <= H) by apply Rmin_l.
  assert (Rmin H (eps / (C + 1)) <= eps / (C + 1)) by apply Rmin_r.
  split; [split; [apply Rmin_pos; lra|lra]|].
  intros t h i Ht Hh Hf Hi. eapply Rle_trans; [apply HO; lra || assumption|].
  cbn [pow]. assert (h ^ k <= 1). { rewrite <- (pow1 k). apply pow_incr. lra. }
  assert (0 <= h ^ k) by (apply pow_le; lra).
  assert (h * h ^ k <= eps / (C + 1)) by nra.
  apply Rle_trans with (C * (eps / (C + 1))); [apply Rmult_le_compat_l; lra|].
  apply Rle_trans with ((C + 1) * (eps / (C + 1))); [nra|]. right. field. lra.
Qed.
End bigO.

(** ** Taylor's formula *)
Fixpoint taylor (p : nat) (d : nat -> R) (s : R) : R :=
  match p with
  | 0%nat => 0
  | S p' => taylor p' d s + s ^ p' / INR (fact p') * d p'
  end.

Lemma taylor_0 p d : taylor (S p) d 0 = d 0%nat.
Proof.
  induction p; [cbn; field|]. cbn [taylor] in *. rewrite IHp. cbn [pow]. unfold Rdiv. ring.
Qed.
Lemma taylor_deriv p d s : derivable_pt_lim (taylor (S p) d) s (taylor p (fun q => d (S q)) s).
Proof.
  induction p.
  - cbn [taylor]. apply (derivable_pt_lim_ext (fun _ => d 0%nat)).
    + intros; cbn; field.
    + apply derivable_pt_lim_const.
  - change (taylor (S (S p)) d) with (fun x => taylor (S p) d x + x ^ S p / INR (fact (S p)) * d (S p)).
    change (taylor (S p) (fun q => d (S q)) s) with (taylor p (fun q => d (S q)) s + s ^ p / INR (fact p) * d (S p)).
    apply derivable_pt_lim_plus; [exact IHp|].
    apply (derivable_pt_lim_ext (fun x => (d (S p) / INR (fact (S p))) * x ^ S p)).
    + intros z. field. apply INR_fact_neq_0.
    + replace (s ^ p / INR (fact p) * d (S p)) with ((d (S p) / INR (fact (S p))) * (INR (S p) * s ^ p)).
      * apply derivable_pt_lim_scal. replace p with (pred (S p)) at 2 by reflexivity. apply derivable_pt_lim_pow.
      * rewrite fact_simpl, mult_INR. field. split; [apply INR_fact_neq_0|]. rewrite S_INR. pose proof (pos_INR p). lra.
Qed.

Lemma shift_deriv (g : R -> R) t s l : derivable_pt_lim g (t + s) l -> derivable_pt_lim (fun x => g (t + x)) s l.
Proof.
  intros H. replace l with (l * 1) by ring. apply (derivable_pt_lim_comp (fun x => t + x) g s 1 l); [|exact H].
  replace 1 with (0 + 1) by ring. apply derivable_pt_lim_plus; [apply derivable_pt_lim_const|apply derivable_pt_lim_id].
Qed.

Lemma mvt_bound (g g' : R -> R) S C p : 0 <= C -> g 0 = 0 ->
  (forall s, 0 <= s <= S -> derivable_pt_lim g s (g' s)) ->
  (forall s, 0 <= s <= S -> Rabs (g' s) <= C * s ^ p) ->
  forall s, 0 <= s <= S -> Rabs (g s) <= C * s ^ (1 + p).
Proof.
  intros HC H0 Hd Hb s Hs. destruct (Req_dec s 0) as [->|Hn].
  - rewrite H0, Rabs_R0. cbn. lra.
  - destruct (MVT_cor2 g g' 0 s) as (x & Hx & Hx'); [lra|intros; apply Hd; lra|].
    rewrite H0, !Rminus_0_r in Hx. rewrite Hx, Rabs_mult, (Rabs_right s) by lra.
    specialize (Hb x ltac:(lra)).
    assert (x ^ p <= s ^ p) by (apply pow_incr; lra).
    cbn [Nat.add pow]. replace (C * (s * s ^ p)) with (C * s ^ p * s) by ring.
    apply Rmult_le_compat_r; [lra|]. eapply Rle_trans; [exact Hb|]. now apply Rmult_le_compat_l.
Qed.

Lemma taylor_bound (D : nat -> R -> R) (B t0 tf t : R) p : 0 <= B -> t0 <= t ->
  (forall m x, (m < p)%nat -> t0 <= x <= tf -> derivable_pt_lim (D m) x (D (S m) x)) ->
  (forall x, t0 <= x <= tf -> Rabs (D p x) <= B) ->
  forall s, 0 <= s <= tf - t -> Rabs (D 0%nat (t + s) - taylor p (fun q => D q t) s) <= B * s ^ p.
Proof.
  intros HB Ht. revert D. induction p as [|p IH]; intros D Hd Hb s Hs.
  - cbn [taylor pow]. rewrite Rminus_0_r, Rmult_1_r. apply Hb. lra.
  - apply (mvt_bound (fun s => D 0%nat (t + s) - taylor (S p) (fun q => D q t) s)
             (fun s => D 1%nat (t + s) - taylor p (fun q => D (S q) t) s) (tf - t) B p); try assumption.
    + rewrite taylor_0, Rplus_0_r. ring.
    + intros x Hx. apply derivable_pt_lim_minus.
      * apply shift_deriv. apply Hd; [lia|lra].
      * apply (taylor_deriv p (fun q => D q t)).
    + intros x Hx. apply (IH (fun m => D (S m))); try assumption.
      intros m z Hm Hz. apply Hd; [lia|exact Hz].
Qed.
