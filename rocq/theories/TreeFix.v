(** Order conditions of a method with decimal coefficients, decided by fixed
    point arithmetic with [s] fractional bits: rooted trees up to the order of
    subtrees, and bounds on the accumulated rounding errors. *)
From Coq Require Import ZArith List Bool Reals Lra Lia Permutation Psatz.
From Verif Require Import SpecRK SpecDP8 TreeZ.
Import ListNotations.

(** ** Trees with sorted subtrees *)
Fixpoint enc (t : tree) (acc : positive) : positive :=
  match t with Node l => xI (fold_right enc (xO acc) l) end.
Definition leT (a b : tree) : bool := Pos.leb (enc a 1) (enc b 1).
Lemma leT_total a b : leT a b = false -> leT b a = true.
Proof. unfold leT. intros H. apply Pos.leb_gt in H. apply Pos.leb_le. lia. Qed.
Definition headok (t : tree) (l : list tree) : bool := match l with [] => true | t' :: _ => leT t' t end.
Fixpoint sortedl (l : list tree) : bool := match l with [] => true | t :: l => headok t l && sortedl l end.
Fixpoint csorted (t : tree) : bool := match t with Node l => forallb csorted l && sortedl l end.
Fixpoint insert (x : tree) (l : list tree) : list tree :=
  match l with [] => [x] | y :: l' => if leT y x then x :: l else y :: insert x l' end.
Definition isort (l : list tree) : list tree := fold_right insert [] l.
Fixpoint canon (t : tree) : tree := match t with Node l => Node (isort (map canon l)) end.

Lemma insert_perm x l : Permutation (x :: l) (insert x l).
Proof.
  induction l as [|y l IH]; cbn; [reflexivity|]. destruct (leT y x); [reflexivity|].
  transitivity (y :: x :: l); [constructor|now constructor].
Qed.
Lemma insert_sorted x l : sortedl l = true -> sortedl (insert x l) = true.
Proof.
  induction l as [|y l IH]; intros H; cbn; [reflexivity|]. destruct (leT y x) eqn:E.
  - cbn [sortedl headok]. now rewrite E.
  - cbn [sortedl] in *. apply andb_true_iff in H as (H1 & H2). rewrite (IH H2), andb_true_r.
    destruct l as [|z l]; cbn in *; [now apply leT_total|]. destruct (leT z x); cbn; [now apply leT_total|exact H1].
Qed.
Lemma isort_perm l : Permutation l (isort l).
Proof. induction l as [|x l IH]; cbn; [reflexivity|]. rewrite <- insert_perm. now constructor. Qed.
Lemma isort_sorted l : sortedl (isort l) = true.
Proof. induction l as [|x l IH]; cbn; [reflexivity|]. now apply insert_sorted. Qed.
Lemma canon_sorted t : csorted (canon t) = true.
Proof.
  revert t. apply tree_rect'. intros l H. cbn. rewrite isort_sorted, andb_true_r. apply forallb_forall. intros t Ht.
  apply (Permutation_in _ (Permutation_sym (isort_perm _))) in Ht. apply in_map_iff in Ht as (t' & <- & Ht').
  rewrite Forall_forall in H. now apply H.
Qed.

Lemma fold_perm {X Y} (f : X -> Y -> Y) (z : Y) l l' : (forall a b y, f a (f b y) = f b (f a y)) ->
  Permutation l l' -> fold_right f z l = fold_right f z l'.
Proof. intros Hf. induction 1; cbn; congruence. Qed.
Lemma fold_map_ext {X Y} (f : X -> Y -> Y) (z : Y) (g : X -> X) l : (forall x y, In x l -> f (g x) y = f x y) ->
  fold_right f z (map g l) = fold_right f z l.
Proof. intros H. induction l as [|x l IH]; cbn; [reflexivity|]. rewrite H by now left. f_equal. apply IH. intros; apply H. now right. Qed.
Lemma canon_order t : order (canon t) = order t.
Proof.
  revert t. apply tree_rect'. intros l H. cbn [canon order]. f_equal. rewrite Forall_forall in H.
  rewrite <- (fold_perm _ _ (map canon l)) by (intros; lia || apply isort_perm).
  apply fold_map_ext. intros x y Hx. now rewrite H.
Qed.
Lemma canon_density t : density (canon t) = density t.
Proof.
  revert t. apply tree_rect'. intros l H. change (density (canon (Node l))) with (INR (order (canon (Node l))) * fold_right (fun t x => density t * x)%R 1%R (isort (map canon l)))%R.
  rewrite canon_order. cbn [density]. f_equal. rewrite Forall_forall in H.
  rewrite <- (fold_perm _ _ (map canon l)) by (intros; ring || apply isort_perm).
  apply fold_map_ext. intros x y Hx. now rewrite H.
Qed.
Lemma canon_weights rows t : weights rows (canon t) = weights rows t.
Proof.
  revert t. apply tree_rect'. intros l H. cbn [canon weights]. apply map_ext. intros row. rewrite Forall_forall in H.
  rewrite <- (fold_perm _ _ (map canon l)) by (intros; ring || apply isort_perm).
  apply fold_map_ext. intros x y Hx. now rewrite H.
Qed.

(** ** Fixed point arithmetic *)
Local Open Scope Z_scope.
Section Fix.
Variables (s rb : Z).   (* fractional bits; bound for the absolute row sums *)
Hypothesis Hs : 0 <= s.
Definition one : Z := 2 ^ s.
Definition down (x : Z) : Z := Z.shiftr x s.
Definition inner (row v : list Z) : Z := down (wsumZ row v).
Fixpoint pm (a b : list Z) : list Z :=
  match a, b with x :: a, y :: b => down (x * y) :: pm a b | _, _ => [] end.
Fixpoint aw (rows : list (list Z)) (t : tree) : list Z :=
  match t with Node l => map (fun row => fold_right (fun t z => down (inner row (aw rows t) * z)) one l) rows end.
(** Errors, in units of the last bit. *)
Variable len : Z.       (* number of stages *)
Definition inner_err (e : Z) : Z := rb * e + 3 * len + 1.
Fixpoint ae (t : tree) : Z :=
  match t with Node l => fold_right (fun t e => 3 * inner_err (ae t) + 2 * e + 1) 0 l end.

(** ** All sorted forests, level by level *)
Definition ent : Type := list tree * (list Z * list Z).
Definition mk_ent (rows : list (list Z)) (l : list tree) (v : list Z) : ent := (l, (v, map (fun row => inner row v) rows)).
Definition flevel (rows : list (list Z)) (L : list (list ent)) (m : nat) : list ent :=
  flat_map (fun k => flat_map (fun e => let '(f, (_, i)) := e in
    flat_map (fun e' => let '(l, (v, _)) := e' in
      if headok (Node f) l then [mk_ent rows (Node f :: l) (pm i v)] else []) (nth (m - k) L [])) (nth k L [])) (seq 0 (S m)).
Fixpoint flevels (rows : list (list Z)) (n : nat) : list (list ent) :=
  match n with
  | O => [[mk_ent rows [] (map (fun _ => one) rows)]]
  | S m => let L := flevels rows m in L ++ [flevel rows L m]
  end.
Lemma flevels_length rows n : length (flevels rows n) = S n.
Proof. induction n as [|n IH]; cbn [flevels]; [reflexivity|]. rewrite app_length, IH. cbn. lia. Qed.
Lemma flevels_prefix rows n : forall k, (k <= n)%nat -> nth k (flevels rows (S n)) [] = nth k (flevels rows n) [].
Proof. intros k Hk. cbn [flevels]. rewrite app_nth1; [reflexivity|]. rewrite flevels_length. lia. Qed.
Lemma flevels_complete rows n : forall l, csorted (Node l) = true -> (size l <= n)%nat ->
  In (mk_ent rows l (aw rows (Node l))) (nth (size l) (flevels rows n) []).
Proof.
  induction n as [|m IH]; intros l Hc Hl.
  - destruct l as [|[f] l]; [now left|cbn in Hl; lia].
  - destruct (Nat.eq_dec (size l) (S m)) as [E|E].
    + rewrite E. cbn [flevels]. rewrite app_nth2 by (rewrite flevels_length; lia). rewrite flevels_length, Nat.sub_diag. cbn [nth].
      destruct l as [|[f] l]; [discriminate|]. cbn [size fold_right order] in E.
      change (fold_right _ 0%nat f) with (size f) in E. change (fold_right _ 0%nat l) with (size l) in E.
      assert (csorted (Node f) = true /\ csorted (Node l) = true /\ headok (Node f) l = true) as (Hf & Hl' & Hh).
      { cbn [csorted forallb sortedl] in Hc |- *. apply andb_true_iff in Hc as (H1 & H2). apply andb_true_iff in H1 as (H0 & H1).
        apply andb_true_iff in H2 as (H2 & H3). rewrite H1, H3. auto. }
      apply in_flat_map. exists (size f). split; [apply in_seq; lia|].
      apply in_flat_map. exists (mk_ent rows f (aw rows (Node f))). split; [apply IH; [exact Hf|lia]|].
      unfold mk_ent at 1. cbv iota beta. apply in_flat_map. exists (mk_ent rows l (aw rows (Node l))). split.
      * replace (m - size f)%nat with (size l) by lia. apply IH; [exact Hl'|lia].
      * unfold mk_ent at 1. cbv iota beta. rewrite Hh. left. unfold mk_ent.
        assert (forall (g h : list Z -> Z) r, pm (map g r) (map h r) = map (fun x => down (g x * h x)) r) as Hp
          by (intros g h r; induction r as [|x r IHr]; cbn; [reflexivity|now rewrite IHr]).
        change (aw rows (Node l)) with (map (fun row => fold_right (fun t z => down (inner row (aw rows t) * z)) one l) rows).
        rewrite Hp. reflexivity.
    + rewrite flevels_prefix by lia. apply IH; [exact Hc|lia].
Qed.

(** ** Rounding errors *)
Lemma Rabs_bounds x y : (Rabs x <= y)%R -> (- y <= x <= y)%R.
Proof. unfold Rabs. destruct (Rcase_abs x); lra. Qed.
Local Notation S := (IZR one).
Definition near (e : Z) (x : R) (z : Z) : Prop := (Rabs (x * S - IZR z) <= IZR e)%R.
Lemma one_pos : 0 < one. Proof. apply Z.pow_pos_nonneg; lia. Qed.
Lemma down_range x : (IZR x / S - 1 < IZR (down x) <= IZR x / S)%R.
Proof.
  pose proof one_pos as H1. unfold down. rewrite Z.shiftr_div_pow2 by exact Hs. fold one.
  pose proof (Z.div_mod x one ltac:(lia)) as Hd. pose proof (Z.mod_pos_bound x one H1) as (Hr0 & Hr1).
  set (q := x / one) in *. set (r := x mod one) in *. clearbody q r. rewrite Hd, plus_IZR, mult_IZR.
  apply IZR_lt in H1. apply IZR_le in Hr0. apply IZR_lt in Hr1. set (T := S) in *. clearbody T.
  replace ((T * IZR q + IZR r) / T)%R with (IZR q + IZR r / T)%R by (field; lra).
  assert (0 <= IZR r / T < 1)%R; [|lra]. split; [apply Rmult_le_pos; [lra|left; now apply Rinv_0_lt_compat]|].
  apply Rmult_lt_reg_r with T; [lra|]. replace (IZR r / T * T)%R with (IZR r) by (field; lra). lra.
Qed.
Definition small (z : Z) : bool := Z.abs z <=? 2 * one.
Lemma small_R z : small z = true -> (Rabs (IZR z) <= 2 * S)%R.
Proof. intros H. apply Z.leb_le in H. apply IZR_le in H. now rewrite abs_IZR, mult_IZR in H. Qed.

Lemma near_mul ex ey x y p q : near ex x p -> near ey y q -> small p = true -> small q = true -> ey <= one ->
  near (3 * ex + 2 * ey + 1) (x * y) (down (p * q)).
Proof.
  unfold near. intros Hx Hy Hp Hq He. apply small_R in Hp. apply small_R in Hq. apply IZR_le in He.
  pose proof one_pos as H1. apply IZR_lt in H1. pose proof (down_range (p * q)) as Hd. rewrite mult_IZR in Hd.
  rewrite !plus_IZR, !mult_IZR. set (T := S) in *. clearbody T.
  set (d := IZR (down (p * q))) in *. clearbody d. set (P := IZR p) in *. set (Q := IZR q) in *. clearbody P Q.
  set (a := IZR ex) in *. set (b := IZR ey) in *. clearbody a b.
  assert (Rabs (y * T) <= 3 * T)%R as HyT.
  { replace (y * T)%R with ((y * T - Q) + Q)%R by ring. eapply Rle_trans; [apply Rabs_triang|]. lra. }
  assert (Rabs (x * y * T - P * Q / T) <= 3 * a + 2 * b)%R as H.
  { replace (x * y * T - P * Q / T)%R with (((x * T - P) * (y * T) + P * (y * T - Q)) / T)%R by (field; lra).
    unfold Rdiv. rewrite Rabs_mult, (Rabs_pos_eq (/ T)) by (left; apply Rinv_0_lt_compat; lra).
    apply Rmult_le_reg_r with T; [lra|]. rewrite Rmult_assoc, Rinv_l, Rmult_1_r by lra.
    eapply Rle_trans; [apply Rabs_triang|]. rewrite (Rabs_mult (x * T - P)), (Rabs_mult P).
    pose proof (Rabs_pos (x * T - P)). pose proof (Rabs_pos (y * T - Q)). pose proof (Rabs_pos P). pose proof (Rabs_pos (y * T)).
    assert (Rabs (x * T - P) * Rabs (y * T) <= a * (3 * T))%R by (apply Rmult_le_compat; lra).
    assert (Rabs P * Rabs (y * T - Q) <= 2 * T * b)%R by (apply Rmult_le_compat; lra). lra. }
  apply Rabs_le. apply Rabs_bounds in H. lra.
Qed.

Definition sumabs (l : list Z) : Z := fold_right (fun z x => Z.abs z + x) 0 l.
Lemma near_sum e a A Phi v : Forall2 (near 1) a A -> Forall2 (near e) Phi v -> forallb small v = true -> 0 <= e <= one ->
  (Rabs (wsum a Phi * S * S - IZR (wsumZ A v)) <= IZR (sumabs A) * IZR e + 3 * INR (length A) * S)%R.
Proof.
  intros Ha. revert Phi v. pose proof one_pos as H1. apply IZR_lt in H1.
  induction Ha as [|x X a A Hx Ha IH]; intros Phi v HP Hsm He.
  - cbn. rewrite Rmult_0_l, Rmult_0_l, Rminus_0_r, Rabs_R0. lra.
  - assert (0 <= IZR e <= S)%R as He' by (split; apply IZR_le; lia).
    assert (0 <= IZR (sumabs A) * IZR e)%R as Hpos.
    { apply Rmult_le_pos; [|lra]. apply IZR_le. clear. induction A; cbn; [lia|]. fold (sumabs A) in *. lia. }
    assert (0 <= INR (length A))%R by apply pos_INR.
    destruct HP as [|y Y Phi v Hy HP].
    + cbn [wsum wsumZ]. rewrite Rmult_0_l, Rmult_0_l, Rminus_0_r, Rabs_R0. cbn [length sumabs fold_right]. fold (sumabs A).
      rewrite plus_IZR, abs_IZR, S_INR. pose proof (Rabs_pos (IZR X)). nra.
    + cbn [forallb] in Hsm. apply andb_true_iff in Hsm as (HY & Hsm). apply small_R in HY. specialize (IH Phi v HP Hsm He).
      cbn [wsum wsumZ length sumabs fold_right]. fold (sumabs A). rewrite !plus_IZR, mult_IZR, abs_IZR, S_INR.
      unfold near in Hx, Hy. set (T := S) in *. clearbody T. set (XX := IZR X) in *. set (YY := IZR Y) in *. set (ee := IZR e) in *. clearbody XX YY ee.
      assert (Rabs (y * T) <= 3 * T)%R as HyT.
      { replace (y * T)%R with ((y * T - YY) + YY)%R by ring. eapply Rle_trans; [apply Rabs_triang|]. lra. }
      assert (Rabs (x * y * T * T - XX * YY) <= Rabs XX * ee + 3 * T)%R as Hxy.
      { replace (x * y * T * T - XX * YY)%R with ((x * T - XX) * (y * T) + XX * (y * T - YY))%R by ring.
        eapply Rle_trans; [apply Rabs_triang|]. rewrite (Rabs_mult (x * T - XX)), (Rabs_mult XX).
        pose proof (Rabs_pos (x * T - XX)). pose proof (Rabs_pos (y * T - YY)). pose proof (Rabs_pos XX). pose proof (Rabs_pos (y * T)).
        assert (Rabs (x * T - XX) * Rabs (y * T) <= 1 * (3 * T))%R by (apply Rmult_le_compat; lra).
        assert (Rabs XX * Rabs (y * T - YY) <= Rabs XX * ee)%R by (apply Rmult_le_compat_l; lra). lra. }
      replace ((x * y + wsum a Phi) * T * T - (XX * YY + IZR (wsumZ A v)))%R
        with ((x * y * T * T - XX * YY) + (wsum a Phi * T * T - IZR (wsumZ A v)))%R by ring.
      eapply Rle_trans; [apply Rabs_triang|]. lra.
Qed.
Lemma near_inner r e a A Phi v : Forall2 (near 1) a A -> Forall2 (near e) Phi v -> forallb small v = true -> 0 <= e <= one ->
  sumabs A <= r * one -> Z.of_nat (length A) <= len -> near (r * e + 3 * len + 1) (wsum a Phi) (inner A v).
Proof.
  intros Ha HP Hsm He Hr Hl. pose proof (near_sum e a A Phi v Ha HP Hsm He) as H. unfold near, inner.
  pose proof (down_range (wsumZ A v)) as Hd. pose proof one_pos as H1. apply IZR_lt in H1.
  apply IZR_le in Hr. rewrite mult_IZR in Hr. apply IZR_le in Hl. rewrite <- INR_IZR_INZ in Hl.
  rewrite !plus_IZR, !mult_IZR. assert (0 <= IZR e)%R as He' by (apply IZR_le; lia).
  set (T := S) in *. clearbody T. set (w := wsum a Phi) in *. set (z := IZR (wsumZ A v)) in *. clearbody w z.
  set (d := IZR (down (wsumZ A v))) in *. clearbody d.
  assert (Rabs (w * T - z / T) <= IZR r * IZR e + 3 * IZR len)%R as H2.
  { replace (w * T - z / T)%R with ((w * T * T - z) / T)%R by (field; lra).
    unfold Rdiv. rewrite Rabs_mult, (Rabs_pos_eq (/ T)) by (left; apply Rinv_0_lt_compat; lra).
    apply Rmult_le_reg_r with T; [lra|]. rewrite Rmult_assoc, Rinv_l, Rmult_1_r by lra.
    eapply Rle_trans; [exact H|].
    assert (IZR (sumabs A) * IZR e <= IZR r * T * IZR e)%R by (apply Rmult_le_compat_r; assumption).
    assert (3 * INR (length A) * T <= 3 * IZR len * T)%R by (apply Rmult_le_compat_r; lra). lra. }
  apply Rabs_le. apply Rabs_bounds in H2. lra.
Qed.

(** ** The checks *)
Definition row_ok (A : list Z) : bool := (sumabs A <=? rb * one) && (Z.of_nat (length A) <=? len).
Definition ent_ok (last : bool) (e : ent) : bool :=
  let '(l, (v, i)) := e in
  (ae (Node l) <=? one) && forallb small v && (last || forallb small i).
Definition levels_okL (rows : list (list Z)) (n : nat) (L : list (list ent)) : bool :=
  forallb row_ok rows && forallb (fun k => forallb (ent_ok (Nat.eqb k n)) (nth k L [])) (seq 0 (Datatypes.S n)).
Definition levels_ok (rows : list (list Z)) (n : nat) : bool := levels_okL rows n (flevels rows n).

Section Sound.
Variables (rows : list (R * list R)) (zrows : list (list Z)) (n : nat).
Hypothesis Hrows : Forall2 (fun r A => Forall2 (near 1) (snd r) A) rows zrows.
Hypothesis Hlen : 0 <= len.
Hypothesis Hrb : 0 <= rb.
Hypothesis Hok : levels_ok zrows n = true.
Lemma ae_nonneg t : 0 <= ae t.
Proof.
  revert t. apply tree_rect'. intros l H. cbn [ae]. induction H as [|t l Ht Hl IH]; cbn [fold_right]; [lia|].
  set (y := fold_right _ 0 l) in *. clearbody y. unfold inner_err. pose proof (Z.mul_nonneg_nonneg rb (ae t) Hrb Ht). lia.
Qed.
Lemma ent_of l : csorted (Node l) = true -> (size l <= n)%nat ->
  ae (Node l) <= one /\ forallb small (aw zrows (Node l)) = true /\
  ((size l < n)%nat -> forallb small (map (fun row => inner row (aw zrows (Node l))) zrows) = true).
Proof.
  intros Hc Hl. pose proof (flevels_complete zrows n l Hc Hl) as HI.
  apply andb_true_iff in Hok as (_ & Hk). rewrite forallb_forall in Hk. specialize (Hk (size l) ltac:(apply in_seq; lia)).
  rewrite forallb_forall in Hk. specialize (Hk _ HI). unfold ent_ok, mk_ent in Hk.
  apply andb_true_iff in Hk as (Hk & H3). apply andb_true_iff in Hk as (H1 & H2). apply Z.leb_le in H1.
  split; [exact H1|]. split; [exact H2|]. intros Hlt. replace (Nat.eqb (size l) n) with false in H3 by (symmetry; apply Nat.eqb_neq; lia). exact H3.
Qed.
Lemma forallb_map {X Y} (f : Y -> bool) (g : X -> Y) l x : forallb f (map g l) = true -> In x l -> f (g x) = true.
Proof. intros H Hx. rewrite forallb_forall in H. apply H. now apply in_map. Qed.
Lemma csorted_tail t l : csorted (Node (t :: l)) = true -> csorted t = true /\ csorted (Node l) = true.
Proof.
  intros H. cbn [csorted forallb sortedl] in *. apply andb_true_iff in H as (H1 & H2). apply andb_true_iff in H1 as (H0 & H1).
  apply andb_true_iff in H2 as (_ & H3). rewrite H1, H3. auto.
Qed.
Lemma Forall2_maps {X X' Y Y'} (P : X -> Y -> Prop) (Q : X' -> Y' -> Prop) f g rr zr : Forall2 P rr zr ->
  (forall r A, In A zr -> P r A -> Q (f r) (g A)) -> Forall2 Q (map f rr) (map g zr).
Proof.
  induction 1 as [|r A rr zr Hra Hr IHr]; intros H; cbn [map]; constructor.
  - apply H; [now left|exact Hra].
  - apply IHr. intros B C HB. apply H. now right.
Qed.
Lemma aw_near t : csorted t = true -> (order t <= Datatypes.S n)%nat -> Forall2 (near (ae t)) (weights rows t) (aw zrows t).
Proof.
  revert t. apply (tree_rect' (fun t => csorted t = true -> (order t <= Datatypes.S n)%nat -> Forall2 (near (ae t)) (weights rows t) (aw zrows t))).
  intros l IH Hc Ho. cbn [order] in Ho. change (fold_right _ 0%nat l) with (size l) in Ho.
  assert (forall (r : R * list R) A, In A zrows -> Forall2 (near 1) (snd r) A ->
    near (ae (Node l)) (fold_right (fun t x => wsum (snd r) (weights rows t) * x) 1 l)%R
      (fold_right (fun t z => down (inner A (aw zrows t) * z)) one l)) as H.
  { intros r A HA Hr. assert (row_ok A = true) as HrA.
    { apply andb_true_iff in Hok as (Hk & _). rewrite forallb_forall in Hk. now apply Hk. }
    apply andb_true_iff in HrA as (Hsum & Hln). apply Z.leb_le in Hsum. apply Z.leb_le in Hln.
    assert ((size l <= n)%nat) as Hsz by lia. clear Ho.
    induction IH as [|t l Ht Hl IHl].
    - cbn. unfold near. cbn. replace (1 * S - S)%R with 0%R by ring. rewrite Rabs_R0. apply IZR_le. lia.
    - destruct (csorted_tail _ _ Hc) as (Hct & Hcl). cbn [size fold_right] in Hsz. change (fold_right _ 0%nat l) with (size l) in Hsz.
      assert (1 <= order t)%nat as Hot by (destruct t; cbn; lia).
      specialize (IHl Hcl ltac:(lia)). specialize (Ht Hct ltac:(lia)).
      destruct t as [f]. cbn [order] in Hsz. change (fold_right _ 0%nat f) with (size f) in Hsz.
      destruct (ent_of f Hct ltac:(lia)) as (E1 & E2 & E3). specialize (E3 ltac:(lia)).
      destruct (ent_of l Hcl ltac:(lia)) as (L1 & L2 & _).
      cbn [fold_right ae].
      change (fold_right (fun t e => 3 * inner_err (ae t) + 2 * e + 1) 0 l) with (ae (Node l)).
      change (fold_right (fun t e => 3 * inner_err (ae t) + 2 * e + 1) 0 f) with (ae (Node f)).
      apply near_mul.
      + apply near_inner; try assumption. split; [apply ae_nonneg|exact E1].
      + exact IHl.
      + exact (forallb_map small (fun row => inner row (aw zrows (Node f))) zrows A E3 HA).
      + exact (forallb_map small (fun row => fold_right (fun t z => down (inner row (aw zrows t) * z)) one l) zrows A L2 HA).
      + exact L1. }
  cbn [weights aw]. exact (Forall2_maps _ _ _ _ _ _ Hrows H).
Qed.
End Sound.

(** ** Order conditions *)
(** The linear functional [b] of the elementary weights of every tree is
    within [en/ed] of [tgt (order t) / density t]. *)
Definition final_le (rf : Z) (zb : list Z) (tgt : nat -> Z) (en ed : Z) (e : ent) : bool :=
  let '(l, (v, _)) := e in
  let d := densityZ (Node l) in
  (Z.abs (inner zb v * d - tgt (order (Node l)) * one) + (rf * ae (Node l) + 3 * len + 1) * d) * ed <=? en * one * d.
Definition finals_ok (rf : Z) (zb : list Z) (tgt : nat -> Z) (en ed : Z) (L : list (list ent)) : bool :=
  (sumabs zb <=? rf * one) && (Z.of_nat (length zb) <=? len) && forallb (forallb (final_le rf zb tgt en ed)) L.
Lemma final_sound rows zrows n b zb rf tgt en ed : Forall2 (fun r A => Forall2 (near 1) (snd r) A) rows zrows ->
  0 <= len -> 0 <= rb -> 0 < ed -> levels_ok zrows n = true -> Forall2 (near 1) b zb -> finals_ok rf zb tgt en ed (flevels zrows n) = true ->
  forall t, (order t <= Datatypes.S n)%nat -> (Rabs (wsum b (weights rows t) - IZR (tgt (order t)) / density t) <= IZR en / IZR ed)%R.
Proof.
  intros Hrows Hlen Hrb Hed Hok Hb Hf t Ho. rewrite <- canon_order, <- canon_density, <- (canon_weights rows).
  rewrite <- canon_order in Ho. pose proof (canon_sorted t) as Hc. set (t' := canon t) in *. clearbody t'. clear t. rename t' into t.
  pose proof (aw_near rows zrows n Hrows Hlen Hrb Hok t Hc Ho) as Hw.
  destruct t as [l]. assert ((size l <= n)%nat) as Hl by (cbn [order] in Ho; change (fold_right _ 0%nat l) with (size l) in Ho; lia).
  destruct (ent_of zrows n Hok l Hc Hl) as (E1 & E2 & _).
  apply andb_true_iff in Hf as (Hf & Hf3). apply andb_true_iff in Hf as (Hf1 & Hf2). apply Z.leb_le in Hf1. apply Z.leb_le in Hf2.
  assert (near (rf * ae (Node l) + 3 * len + 1) (wsum b (weights rows (Node l))) (inner zb (aw zrows (Node l)))) as HN.
  { apply near_inner; try assumption. split; [now apply ae_nonneg|exact E1]. }
  rewrite forallb_forall in Hf3. specialize (Hf3 (nth (size l) (flevels zrows n) []) ltac:(apply nth_In; rewrite flevels_length; lia)).
  rewrite forallb_forall in Hf3. specialize (Hf3 _ (flevels_complete zrows n l Hc Hl)). unfold mk_ent, final_le in Hf3.
  apply Z.leb_le in Hf3. rewrite density_Z. pose proof (densityZ_pos (Node l)) as Hd.
  set (w := inner zb (aw zrows (Node l))) in *. set (d := densityZ (Node l)) in *. set (er := rf * ae (Node l) + 3 * len + 1) in *.
  set (g := tgt (order (Node l))) in *. set (x := wsum b (weights rows (Node l))) in *. clearbody w d er g x.
  apply IZR_le in Hf3. rewrite !mult_IZR, plus_IZR, abs_IZR, minus_IZR, !mult_IZR in Hf3. unfold near in HN.
  apply IZR_lt in Hd. apply IZR_lt in Hed. pose proof one_pos as H1. apply IZR_lt in H1.
  set (T := S) in *. clearbody T. set (W := IZR w) in *. set (D := IZR d) in *. set (G := IZR g) in *. set (E := IZR er) in *. clearbody W D G E.
  assert (Rabs (x - G / D) * (T * D) <= Rabs (W * D - G * T) + E * D)%R as H.
  { rewrite <- (Rabs_pos_eq (T * D)) by nra. rewrite <- Rabs_mult.
    replace ((x - G / D) * (T * D))%R with ((W * D - G * T) + (x * T - W) * D)%R by (field; lra).
    eapply Rle_trans; [apply Rabs_triang|]. apply Rplus_le_compat_l. rewrite Rabs_mult, (Rabs_pos_eq D) by lra.
    apply Rmult_le_compat_r; lra. }
  apply Rmult_le_reg_r with (T * D * IZR ed)%R; [apply Rmult_lt_0_compat; [nra|lra]|].
  replace (IZR en / IZR ed * (T * D * IZR ed))%R with (IZR en * T * D)%R by (field; lra).
  eapply Rle_trans; [|exact Hf3]. rewrite <- Rmult_assoc. apply Rmult_le_compat_r; lra.
Qed.
(** Rounding decimal fractions. *)
Definition fixZ (q : frac) : Z := fst q * one / snd q.
Lemma fixZ_near q : 0 < snd q -> near 1 (fracR q) (fixZ q).
Proof.
  intros Hq. unfold near, fracR, fixZ. pose proof one_pos as H1.
  pose proof (Z.div_mod (fst q * one) (snd q) ltac:(lia)) as Hd. pose proof (Z.mod_pos_bound (fst q * one) (snd q) Hq) as (Hr0 & Hr1).
  set (k := fst q * one / snd q) in *. set (r := (fst q * one) mod snd q) in *. clearbody k r.
  apply (f_equal IZR) in Hd. rewrite plus_IZR, !mult_IZR in Hd. apply IZR_le in Hr0. apply IZR_lt in Hr1. apply IZR_lt in Hq.
  set (T := S) in *. clearbody T. set (Q := IZR (snd q)) in *. clearbody Q.
  replace (IZR (fst q) / Q * T - IZR k)%R with (IZR r / Q)%R.
  - apply Rabs_le. split.
    + apply Rle_trans with 0%R; [lra|]. apply Rmult_le_pos; [lra|left; now apply Rinv_0_lt_compat].
    + apply Rmult_le_reg_r with Q; [lra|]. unfold Rdiv. rewrite Rmult_assoc, Rinv_l by lra. lra.
  - replace (IZR (fst q) / Q * T)%R with (IZR (fst q) * T / Q)%R by (field; lra). rewrite Hd. field. lra.
Qed.
Lemma fixZ_list l : forallb (fun q => 0 <? snd q) l = true -> Forall2 (near 1) (map fracR l) (map fixZ l).
Proof.
  induction l as [|q l IH]; cbn [forallb map]; [constructor|]. intros H. apply andb_true_iff in H as (Hq & H). apply Z.ltb_lt in Hq.
  constructor; [now apply fixZ_near|now apply IH].
Qed.
Lemma fixZ_rows (tab : list (frac * list frac)) : forallb (fun r => forallb (fun q => 0 <? snd q) (snd r)) tab = true ->
  Forall2 (fun r A => Forall2 (near 1) (snd r) A) (tableR tab) (map (fun r => map fixZ (snd r)) tab).
Proof.
  induction tab as [|r tab IH]; cbn [forallb map tableR]; [constructor|]. intros H. apply andb_true_iff in H as (Hr & H).
  constructor; [cbn [snd]; now apply fixZ_list|now apply IH].
Qed.
End Fix.
