(** The references of SpecPI.v and SpecIRK.v do not depend on units and labels. *)
From Coq Require Import ZArith List Bool Lia Reals Lra Permutation.
From RecordUpdate Require Import RecordSet.
From Verif Require Import Arith Vec Core ArithR SpecRK SpecODE SpecReach RKFacts SpecLin SpecIRK SpecUnits RadauRef.
Import ListNotations RecordSetNotations.
Local Open Scope R_scope.

Section Units.
Context (n : nat) (sg si : nat -> nat) (c tau : R).
Hypothesis Hsg : renumbers n sg si.
Hypothesis Hc : c <> 0.
Hypothesis Htau : 0 < tau.
Notation conv := (converted n c sg).

Lemma sg_lt i : (i < n)%nat -> (sg i < n)%nat. Proof. intros H. now apply Hsg. Qed.
Lemma sg_perm : Permutation (map sg (seq 0 n)) (seq 0 n).
Proof.
  apply NoDup_Permutation_bis.
  - apply (NoDup_map_inv si). rewrite map_map. rewrite (map_ext_in _ (fun i => i)); [rewrite map_id; apply seq_NoDup|].
    intros i Hi. apply in_seq in Hi. apply Hsg. lia.
  - rewrite map_length. lia.
  - intros x Hx. apply in_map_iff in Hx as (i & <- & Hi). apply in_seq in Hi. apply in_seq. pose proof (sg_lt i ltac:(lia)). lia.
Qed.
Lemma rsum_sg g : rsum n (fun i => g (sg i)) = rsum n g.
Proof.
  unfold rsum. rewrite <- (map_map sg g).
  assert (forall l l', Permutation l l' -> fold_right Rplus 0 (map g l) = fold_right Rplus 0 (map g l')) as H.
  { induction 1 as [|x l l' _ IH|x y l|l1 l2 l3 _ IH1 _ IH2]; cbn; lra. }
  apply H, sg_perm.
Qed.
Lemma sg_eqb i j : (i < n)%nat -> (j < n)%nat -> Nat.eqb (sg i) (sg j) = Nat.eqb i j.
Proof.
  intros Hi Hj. destruct (Nat.eqb_spec i j) as [->|N]; [apply Nat.eqb_refl|]. apply Nat.eqb_neq. intros E. apply N.
  destruct (Hsg i Hi) as (_ & _ & A & _), (Hsg j Hj) as (_ & _ & B & _). rewrite <- A, <- B. now rewrite E.
Qed.
Lemma conv_length d u : length (converted n d sg u) = n.
Proof. unfold converted. now rewrite map_length, seq_length. Qed.
Lemma conv_comp d u i : (i < n)%nat -> comp (converted n d sg u) i = d * comp u (sg i).
Proof. intros H. exact (comp_vect n (fun i => d * comp u (sg i)) i H). Qed.
Lemma conv_zero d u i : (n <= i)%nat -> comp (converted n d sg u) i = 0.
Proof. intros H. unfold comp. apply nth_overflow. now rewrite conv_length. Qed.
Lemma conv_ext d u v : (forall i, (i < n)%nat -> comp u i = comp v i) -> converted n d sg u = converted n d sg v.
Proof. intros H. apply vect_ext. intros i Hi. f_equal. apply H. now apply sg_lt. Qed.
Lemma conv_vect d g : converted n d sg (vect n g) = vect n (fun i => d * g (sg i)).
Proof. apply vect_ext. intros i Hi. rewrite comp_vect by (now apply sg_lt). reflexivity. Qed.

(** Homogeneous functions. *)
Lemma Rmin_scale k x y : 0 < k -> Rmin (k * x) (k * y) = k * Rmin x y.
Proof. intros H. unfold Rmin. destruct (Rle_dec (k * x) (k * y)), (Rle_dec x y); try reflexivity; exfalso; nra. Qed.
Lemma Rmax_scale k x y : 0 < k -> Rmax (k * x) (k * y) = k * Rmax x y.
Proof. intros H. unfold Rmax. destruct (Rle_dec (k * x) (k * y)), (Rle_dec x y); try reflexivity; exfalso; nra. Qed.
Lemma sq_scale k x y : k <> 0 -> (k * x / (Rabs k * y)) ^ 2 = (x / y) ^ 2.
Proof.
  intros H. unfold Rdiv. rewrite Rinv_mult. pose proof (Rabs_no_R0 k H) as H0.
  transitivity ((k * k) * (/ Rabs k * / Rabs k) * (x * / y) ^ 2); [ring|].
  replace (k * k) with (Rabs k * Rabs k) by (unfold Rabs; destruct (Rcase_abs k); ring).
  replace (Rabs k * Rabs k * (/ Rabs k * / Rabs k)) with 1 by (now field). ring.
Qed.
Lemma Rabs_scale k x : 0 < k -> Rabs (k * x) = k * Rabs x.
Proof. intros H. rewrite Rabs_mult, (Rabs_pos_eq k) by lra. reflexivity. Qed.
Lemma Rleb_scale k x y : 0 < k -> Rleb (k * x) (k * y) = Rleb x y.
Proof. intros H. unfold Rleb. destruct (Rle_dec (k * x) (k * y)), (Rle_dec x y); try reflexivity; exfalso; nra. Qed.
Lemma Rltb_scale k x y : 0 < k -> Rltb (k * x) (k * y) = Rltb x y.
Proof. intros H. unfold Rltb. destruct (Rlt_dec (k * x) (k * y)), (Rlt_dec x y); try reflexivity; exfalso; nra. Qed.
Lemma div_scale k x y : k <> 0 -> (k * x) / (k * y) = x / y.
Proof. intros H. unfold Rdiv. rewrite Rinv_mult. transitivity (k * / k * (x * / y)); [ring|]. rewrite Rinv_r by exact H. ring. Qed.
Lemma div_scale2 k l x y : k * x / (l * y) = k / l * (x / y).
Proof. unfold Rdiv. rewrite Rinv_mult. ring. Qed.
End Units.
