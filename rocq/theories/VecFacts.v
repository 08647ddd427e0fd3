(** Facts about the list-based vectors of Vec.v. *)
From Coq Require Import ZArith List Bool Lia.
From Verif Require Import Arith Vec Core Driver.
Import ListNotations.

Lemma tab_length {X} n (g : nat -> X) : length (tab n g) = n.
Proof. unfold tab. now rewrite map_length, seq_length. Qed.
Lemma tab_nth {X} n (g : nat -> X) i d : i < n -> nth i (tab n g) d = g i.
Proof.
  intros Hi. unfold tab. rewrite nth_indep with (d' := g 0) by (rewrite map_length, seq_length; lia).
  rewrite map_nth. rewrite seq_nth by lia. reflexivity.
Qed.
Lemma tab_ext {X} n (g h : nat -> X) : (forall i, i < n -> g i = h i) -> tab n g = tab n h.
Proof. intros H. apply map_ext_in. intros i Hi. apply in_seq in Hi. apply H. lia. Qed.
Lemma tab_nth_id {X} (l : list X) d : tab (length l) (fun i => nth i l d) = l.
Proof.
  apply nth_ext with (d := d) (d' := d); rewrite tab_length; [reflexivity|].
  intros i Hi. now rewrite tab_nth.
Qed.
Lemma tab_nth_error {X} n (g : nat -> X) i : i < n -> nth_error (tab n g) i = Some (g i).
Proof.
  intros Hi. unfold tab. rewrite nth_error_map.
  rewrite nth_error_nth' with (d := 0) by (rewrite seq_length; lia).
  rewrite seq_nth by lia. reflexivity.
Qed.

Lemma upd_length {X} (l : list X) i x : length (upd l i x) = length l.
Proof. revert i. induction l as [|y l IH]; intros [|i]; simpl; auto. Qed.
Lemma upd_nth {X} (l : list X) i j x d :
  i < length l -> nth j (upd l i x) d = if Nat.eqb j i then x else nth j l d.
Proof.
  revert i j. induction l as [|y l IH]; intros [|i] [|j] Hi; simpl in *; try lia; auto.
  rewrite IH by lia. reflexivity.
Qed.
Lemma upd_out {X} (l : list X) i x : length l <= i -> upd l i x = l.
Proof. revert i. induction l as [|y l IH]; intros [|i] Hi; simpl in *; try lia; auto. f_equal; apply IH; lia. Qed.

Lemma vget_ok {X} (l : list X) i d : i < length l -> vget l i = Ok (nth i l d).
Proof. intros Hi. unfold vget. now rewrite nth_error_nth' with (d := d). Qed.
Lemma vset_ok {X} (l : list X) i x : i < length l -> vset l i x = Ok (upd l i x).
Proof. intros Hi. unfold vset. now rewrite (proj2 (Nat.ltb_lt _ _) Hi). Qed.
Lemma vget_inv {X} (l : list X) i x : vget l i = Ok x -> i < length l /\ forall d, nth i l d = x.
Proof.
  unfold vget. destruct (nth_error l i) eqn:E; intros H; inversion H; subst.
  split; [apply nth_error_Some; congruence|]. intros d. now apply nth_error_nth.
Qed.
Lemma vset_inv {X} (l l' : list X) i x : vset l i x = Ok l' -> i < length l /\ l' = upd l i x.
Proof.
  unfold vset. destruct (Nat.ltb_spec i (length l)); intros E; inversion E; auto.
Qed.

Section VecFacts.
Context {A : arith}.

Lemma zeros_length n : length (@zeros A n) = n.
Proof. apply repeat_length. Qed.
Lemma map2_length f (a b : vec A) : length (map2 f a b) = Nat.min (length a) (length b).
Proof. unfold map2. now rewrite map_length, combine_length. Qed.
Lemma vadd_length (a b : vec A) : length (vadd a b) = Nat.min (length a) (length b).
Proof. apply map2_length. Qed.
Lemma vsub_length (a b : vec A) : length (vsub a b) = Nat.min (length a) (length b).
Proof. apply map2_length. Qed.
Lemma vscale_length s (a : vec A) : length (vscale s a) = length a.
Proof. apply map_length. Qed.

Lemma map2_nth f (a b : vec A) i d :
  i < length a -> i < length b -> nth i (map2 f a b) d = f (nth i a d) (nth i b d).
Proof.
  revert b i. induction a as [|x a IH]; intros [|y b] [|i] Ha Hb; simpl in *; try lia; auto.
  apply IH; lia.
Qed.
Lemma vadd_at (a b : vec A) i : i < length a -> i < length b ->
  at_ (vadd a b) i = add A (at_ a i) (at_ b i).
Proof. apply map2_nth. Qed.
Lemma vsub_at (a b : vec A) i : i < length a -> i < length b ->
  at_ (vsub a b) i = sub A (at_ a i) (at_ b i).
Proof. apply map2_nth. Qed.
Lemma vscale_at s (a : vec A) i : i < length a -> at_ (vscale s a) i = mul A s (at_ a i).
Proof.
  intros Hi. unfold at_, vscale. rewrite nth_indep with (d' := mul A s n0) by now rewrite map_length.
  apply map_nth.
Qed.

Lemma call_rhs_length {P} (f : rhs A P) b u t p : length (call_rhs f b u t p) = length b.
Proof. apply tab_length. Qed.
Lemma call_rhs_at {P} (f : rhs A P) b u t p i :
  i < length b -> at_ (call_rhs f b u t p) i = f b u t p i.
Proof. apply tab_nth. Qed.

Lemma vec_ext (a b : vec A) : length a = length b ->
  (forall i, i < length a -> at_ a i = at_ b i) -> a = b.
Proof. intros H1 H2. apply nth_ext with (d := n0) (d' := n0); assumption. Qed.

Lemma sum_loop_ext n (g h : nat -> num A) acc :
  (forall i, i < n -> g i = h i) -> sum_loop n g acc = sum_loop n h acc.
Proof.
  intros H. unfold sum_loop. assert (forall i, In i (seq 0 n) -> g i = h i) as H'.
  { intros i Hi. apply in_seq in Hi. apply H; lia. }
  clear H. revert acc. induction (seq 0 n) as [|i l IH]; intros acc; simpl; [reflexivity|].
  rewrite H' by now left. apply IH. intros j Hj. apply H'. now right.
Qed.

Lemma sum_loop_S n (g : nat -> num A) acc :
  sum_loop (S n) g acc = add A (sum_loop n g acc) (g n).
Proof. unfold sum_loop. rewrite seq_S, fold_left_app. reflexivity. Qed.

Lemma is_shape_spec r c (m : mat A) :
  is_shape r c m = true <-> length m = r /\ forall row, In row m -> length row = c.
Proof.
  unfold is_shape. rewrite andb_true_iff, Nat.eqb_eq, forallb_forall. split; intros [H1 H2]; split; auto.
  - intros row Hr. now apply Nat.eqb_eq, H2.
  - intros row Hr. now apply Nat.eqb_eq, H2.
Qed.
End VecFacts.

(** Loops: [for_range] with an invariant. *)
Lemma for_range_ind {S} lo hi (body : nat -> S -> res S) (I : nat -> S -> Prop) s :
  I lo s ->
  (forall i s, lo <= i < hi -> I i s -> exists s', body i s = Ok s' /\ I (Datatypes.S i) s') ->
  lo <= hi ->
  exists s', for_range lo hi body s = Ok s' /\ I hi s'.
Proof.
  intros H0 Hb Hle. unfold for_range.
  remember (hi - lo) as n eqn:En. revert lo s En Hle H0 Hb.
  induction n as [|n IH]; intros lo s En Hle H0 Hb.
  - assert (hi = lo) by lia. subst. simpl. eauto.
  - simpl. destruct (Hb lo s) as (s1 & E & H1); [lia|assumption|]. rewrite E. simpl.
    apply IH; [lia|lia|assumption|]. intros i s2 Hi. apply Hb. lia.
Qed.
(** When [hi < lo] the loop does nothing. *)
Lemma for_range_empty {S} lo hi (body : nat -> S -> res S) s :
  hi <= lo -> for_range lo hi body s = Ok s.
Proof. intros H. unfold for_range. replace (hi - lo) with 0 by lia. reflexivity. Qed.

Lemma for_range_S {S} lo hi (body : nat -> S -> res S) s :
  lo < hi -> for_range lo hi body s = bind (body lo s) (for_range (Datatypes.S lo) hi body).
Proof.
  intros H. unfold for_range. replace (hi - lo) with (Datatypes.S (hi - Datatypes.S lo)) by lia.
  reflexivity.
Qed.
