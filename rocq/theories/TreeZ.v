(** Order conditions of a method with decimal coefficients, decided by integer
    arithmetic: enumeration of the rooted trees and their elementary weights. *)
From Coq Require Import ZArith List Bool Reals Lra Lia.
From Verif Require Import SpecRK.
Import ListNotations.

Lemma tree_rect' (Q : tree -> Prop) : (forall l, Forall Q l -> Q (Node l)) -> forall t, Q t.
Proof.
  intros H. fix rec 1. intros [l]. apply H. induction l as [|t l IH]; constructor; [apply rec|exact IH].
Qed.

Definition size (l : list tree) : nat := fold_right (fun t n => order t + n)%nat O l.

(** ** Elementary weights in integers: coefficients are multiples of [1/B] *)
Local Open Scope Z_scope.
Fixpoint wsumZ (ws xs : list Z) : Z :=
  match ws, xs with w :: ws', x :: xs' => w * x + wsumZ ws' xs' | _, _ => 0 end.
Fixpoint weightsZ (rows : list (list Z)) (t : tree) : list Z :=
  match t with
  | Node l => map (fun row => fold_right (fun t x => wsumZ row (weightsZ rows t) * x) 1 l) rows
  end.
Fixpoint densityZ (t : tree) : Z :=
  match t with Node l => Z.of_nat (order (Node l)) * fold_right (fun t x => densityZ t * x) 1 l end.

(** ** All trees, level by level *)
(** For the forests [l] of each size: the weights and the density of [Node l]
    (the density without the factor for the root), and the inner sums. *)
Definition entry : Type := list Z * list Z * Z.
Definition mk_entry (rows : list (list Z)) (v : list Z) (d : Z) : entry := (v, map (fun row => wsumZ row v) rows, d).
Fixpoint pmul (a b : list Z) : list Z :=
  match a, b with x :: a, y :: b => x * y :: pmul a b | _, _ => [] end.
Definition level (rows : list (list Z)) (L : list (list entry)) (m : nat) : list entry :=
  flat_map (fun k => flat_map (fun e => let '(_, s, d) := e in
    map (fun e' => let '(v', _, d') := e' in mk_entry rows (pmul s v') (Z.of_nat (S k) * d * d')) (nth (m - k) L [])) (nth k L [])) (seq 0 (S m)).
Fixpoint levels (rows : list (list Z)) (n : nat) : list (list entry) :=
  match n with
  | O => [[mk_entry rows (map (fun _ => 1) rows) 1]]
  | S m => let L := levels rows m in L ++ [level rows L m]
  end.
Definition fdens (l : list tree) : Z := fold_right (fun t x => densityZ t * x) 1 l.

Lemma levels_length rows n : length (levels rows n) = S n.
Proof. induction n as [|n IH]; cbn [levels]; [reflexivity|]. rewrite app_length, IH. cbn. lia. Qed.
Lemma levels_prefix rows n : forall k, (k <= n)%nat -> nth k (levels rows (S n)) [] = nth k (levels rows n) [].
Proof. intros k Hk. cbn [levels]. rewrite app_nth1; [reflexivity|]. rewrite levels_length. lia. Qed.
Lemma levels_complete rows n : forall l, (size l <= n)%nat ->
  In (mk_entry rows (weightsZ rows (Node l)) (fdens l)) (nth (size l) (levels rows n) []).
Proof.
  induction n as [|m IH]; intros l Hl.
  - destruct l as [|[s] l]; [now left|cbn in Hl; lia].
  - destruct (Nat.eq_dec (size l) (S m)) as [E|E].
    + rewrite E. cbn [levels]. rewrite app_nth2 by (rewrite levels_length; lia). rewrite levels_length, Nat.sub_diag. cbn [nth].
      destruct l as [|[s] l]; [discriminate|]. cbn [size fold_right order] in E.
      change (fold_right _ 0%nat s) with (size s) in E. change (fold_right _ 0%nat l) with (size l) in E.
      apply in_flat_map. exists (size s). split; [apply in_seq; lia|].
      apply in_flat_map. exists (mk_entry rows (weightsZ rows (Node s)) (fdens s)). split; [apply IH; lia|].
      unfold mk_entry at 1. cbv iota beta. apply in_map_iff. exists (mk_entry rows (weightsZ rows (Node l)) (fdens l)). split.
      * change (mk_entry rows (pmul (map (fun row => wsumZ row (weightsZ rows (Node s))) rows) (weightsZ rows (Node l)))
          (Z.of_nat (S (size s)) * fdens s * fdens l) = mk_entry rows (weightsZ rows (Node (Node s :: l))) (fdens (Node s :: l))).
        f_equal. change (weightsZ rows (Node l)) with (map (fun row => fold_right (fun t x => wsumZ row (weightsZ rows t) * x) 1 l) rows).
        assert (forall (g h : list Z -> Z) r, pmul (map g r) (map h r) = map (fun x => g x * h x) r) as Hp
          by (intros g h r; induction r as [|x r IHr]; cbn; [reflexivity|now rewrite IHr]).
        rewrite Hp. reflexivity.
      * replace (m - size s)%nat with (size l) by lia. apply IH. lia.
    + rewrite levels_prefix by lia. apply IH. lia.
Qed.

Section Scale.
Variable B : Z.
Hypothesis HB : 0 < B.
Local Notation down k := (fun z => IZR z / IZR (B ^ Z.of_nat k))%R.

Lemma pow_pos k : 0 < B ^ Z.of_nat k.
Proof. apply Z.pow_pos_nonneg; lia. Qed.
Lemma pow_nz k : (IZR (B ^ Z.of_nat k) <> 0)%R.
Proof. apply not_0_IZR. pose proof (pow_pos k). lia. Qed.
Lemma pow_add k m : B ^ Z.of_nat (k + m) = B ^ Z.of_nat k * B ^ Z.of_nat m.
Proof. rewrite Nat2Z.inj_add. apply Z.pow_add_r; lia. Qed.

Lemma wsum_down k m zs ws : wsum (map (down k) ws) (map (down m) zs) = down (k + m)%nat (wsumZ ws zs).
Proof.
  revert zs. induction ws as [|w ws IH]; intros [|z zs]; cbn [map wsum wsumZ]; try (unfold Rdiv; ring).
  rewrite IH, pow_add, plus_IZR, !mult_IZR. field. split; apply pow_nz.
Qed.

Lemma weights_down (rows : list (R * list R)) zrows t :
  map snd rows = map (map (down 1)) zrows -> weights rows t = map (down (order t - 1)) (weightsZ zrows t).
Proof.
  intros E. revert t. apply tree_rect'. intros l Hl. cbn [weights weightsZ order].
  change (fold_right _ 0%nat l) with (size l). rewrite Nat.sub_1_r. cbn [Nat.pred].
  assert (forall zr, fold_right (fun t x => wsum (map (down 1) zr) (weights rows t) * x)%R 1%R l =
    down (size l) (fold_right (fun t x => wsumZ zr (weightsZ zrows t) * x) 1 l)) as H.
  { intros zr. induction Hl as [|t l Ht Hl IH]; cbn [fold_right size]; [cbn; field|].
    rewrite IH, Ht, wsum_down. change (fold_right _ 0%nat l) with (size l).
    replace (1 + (order t - 1))%nat with (order t) by (destruct t; cbn; lia).
    rewrite pow_add, !mult_IZR. field. split; apply pow_nz. }
  rewrite map_map, <- (map_map snd (fun a => fold_right (fun t x => wsum a (weights rows t) * x)%R 1%R l)), E, map_map.
  apply map_ext. exact H.
Qed.

Lemma density_Z t : density t = IZR (densityZ t).
Proof.
  revert t. apply tree_rect'. intros l Hl. cbn [density densityZ]. rewrite mult_IZR, INR_IZR_INZ. f_equal.
  induction Hl as [|t l Ht Hl IH]; cbn [fold_right]; [reflexivity|]. now rewrite mult_IZR, Ht, IH.
Qed.
Lemma densityZ_pos t : 0 < densityZ t.
Proof.
  revert t. apply tree_rect'. intros l Hl. cbn [densityZ]. apply Z.mul_pos_pos; [cbn; lia|].
  induction Hl as [|t l Ht Hl IH]; cbn [fold_right]; [lia|]. now apply Z.mul_pos_pos.
Qed.

(** The residual of the condition of a tree of order [n] is at most [en / ed]. *)
Definition residual_le (zb : list Z) (en ed : Z) (n : nat) (e : entry) : bool :=
  let '(v, _, d') := e in
  let d := Z.of_nat n * d' in let M := B ^ Z.of_nat n in
  Z.abs (wsumZ zb v * d - M) * ed <=? en * (M * d).
(** The same for weights that should sum to nothing. *)
Definition defect_le (zb : list Z) (en ed : Z) (n : nat) (e : entry) : bool :=
  let '(v, _, _) := e in Z.abs (wsumZ zb v) * ed <=? en * B ^ Z.of_nat n.
Definition all_levels (f : nat -> entry -> bool) (L : list (list entry)) : bool :=
  forallb (fun k => forallb (f (S k)) (nth k L [])) (seq 0 (length L)).
Lemma all_levels_sound f zrows n t : all_levels f (levels zrows n) = true -> (order t <= S n)%nat ->
  f (order t) (mk_entry zrows (weightsZ zrows t) (match t with Node l => fdens l end)) = true.
Proof.
  intros H Ht. unfold all_levels in H. rewrite levels_length in H. destruct t as [l]. cbn [order] in Ht |- *.
  change (fold_right _ 0%nat l) with (size l) in *. rewrite forallb_forall in H.
  specialize (H (size l) ltac:(apply in_seq; lia)). rewrite forallb_forall in H. apply H. apply levels_complete. lia.
Qed.
Lemma residual_sound rows zrows zb en ed n t : 0 < ed ->
  map snd rows = map (map (down 1)) zrows -> all_levels (residual_le zb en ed) (levels zrows n) = true -> (order t <= S n)%nat ->
  (Rabs (wsum (map (down 1) zb) (weights rows t) - 1 / density t) <= IZR en / IZR ed)%R.
Proof.
  intros He E H Ht. apply (all_levels_sound _ _ _ t) in H; [|exact Ht]. unfold residual_le, mk_entry in H. apply Z.leb_le in H.
  replace (Z.of_nat (order t) * _) with (densityZ t) in H by (destruct t; reflexivity).
  rewrite (weights_down rows zrows t E), wsum_down, density_Z.
  replace (1 + (order t - 1))%nat with (order t) by (destruct t; cbn; lia).
  set (w := wsumZ _ _) in *. pose proof (densityZ_pos t) as Hd. set (d := densityZ t) in *.
  pose proof (pow_pos (order t)) as HM. set (M := B ^ Z.of_nat (order t)) in *. clearbody w d M.
  apply IZR_le in H. rewrite !mult_IZR, abs_IZR, minus_IZR, mult_IZR in H.
  apply IZR_lt in He. apply IZR_lt in Hd. apply IZR_lt in HM.
  replace (IZR w / IZR M - 1 / IZR d)%R with ((IZR w * IZR d - IZR M) * / (IZR M * IZR d))%R by (field; lra).
  rewrite Rabs_mult, (Rabs_pos_eq (/ _)) by (left; apply Rinv_0_lt_compat, Rmult_lt_0_compat; assumption).
  apply Rmult_le_reg_r with (IZR ed * (IZR M * IZR d))%R; [repeat apply Rmult_lt_0_compat; assumption|].
  replace (Rabs (IZR w * IZR d - IZR M) * / (IZR M * IZR d) * (IZR ed * (IZR M * IZR d)))%R
    with (Rabs (IZR w * IZR d - IZR M) * IZR ed)%R by (field; lra).
  replace (IZR en / IZR ed * (IZR ed * (IZR M * IZR d)))%R with (IZR en * (IZR M * IZR d))%R by (field; lra). exact H.
Qed.
Lemma defect_sound rows zrows zb en ed n t : 0 < ed ->
  map snd rows = map (map (down 1)) zrows -> all_levels (defect_le zb en ed) (levels zrows n) = true -> (order t <= S n)%nat ->
  (Rabs (wsum (map (down 1) zb) (weights rows t)) <= IZR en / IZR ed)%R.
Proof.
  intros He E H Ht. apply (all_levels_sound _ _ _ t) in H; [|exact Ht]. unfold defect_le, mk_entry in H. apply Z.leb_le in H.
  rewrite (weights_down rows zrows t E), wsum_down.
  replace (1 + (order t - 1))%nat with (order t) by (destruct t; cbn; lia).
  set (w := wsumZ _ _) in *. pose proof (pow_pos (order t)) as HM. set (M := B ^ Z.of_nat (order t)) in *. clearbody w M.
  apply IZR_le in H. rewrite !mult_IZR, abs_IZR in H. apply IZR_lt in He. apply IZR_lt in HM.
  unfold Rdiv at 1. rewrite Rabs_mult, (Rabs_pos_eq (/ _)) by (left; apply Rinv_0_lt_compat; lra).
  apply Rmult_le_reg_r with (IZR ed * IZR M)%R; [nra|].
  replace (Rabs (IZR w) * / IZR M * (IZR ed * IZR M))%R with (Rabs (IZR w) * IZR ed)%R by (field; lra).
  replace (IZR en / IZR ed * (IZR ed * IZR M))%R with (IZR en * IZR M)%R by (field; lra). exact H.
Qed.
End Scale.
