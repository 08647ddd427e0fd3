(** Facts about Linalg.v that hold in every arithmetic: the routines never
    panic on arrays of the right shapes, and what each loop writes. *)
From Coq Require Import ZArith List Bool Lia.
From Verif Require Import Arith Vec Core Linalg Driver VecFacts.
Import ListNotations.

Ltac nbool :=
  repeat match goal with
  | |- context [Nat.eqb ?x ?y] => destruct (Nat.eqb_spec x y)
  | |- context [Nat.leb ?x ?y] => destruct (Nat.leb_spec x y)
  | |- context [Nat.ltb ?x ?y] => destruct (Nat.ltb_spec x y)
  end; cbn [andb orb negb]; subst; try lia.

(** The row permutation exchanging [k] and [m]. *)
Definition swp (k m i : nat) : nat := if Nat.eqb i k then m else if Nat.eqb i m then k else i.

Lemma usub_ok n k : k <= n -> usub n k = Ok (n - k).
Proof. intros H. unfold usub. now rewrite (proj2 (Nat.leb_le _ _) H). Qed.

Lemma for_range_ret_ind {S R} lo hi (body : nat -> S -> res (S + R))
    (I : nat -> S -> Prop) (Q : R -> Prop) s :
  I lo s -> lo <= hi ->
  (forall i s, lo <= i < hi -> I i s ->
     (exists s', body i s = Ok (inl s') /\ I (Datatypes.S i) s') \/
     (exists r, body i s = Ok (inr r) /\ Q r)) ->
  (exists s', for_range_ret lo hi body s = Ok (inl s') /\ I hi s') \/
  (exists r, for_range_ret lo hi body s = Ok (inr r) /\ Q r).
Proof.
  intros H0 Hle Hb. unfold for_range_ret.
  remember (hi - lo) as n eqn:En. revert lo s En Hle H0 Hb.
  induction n as [|n IH]; intros lo s En Hle H0 Hb.
  - assert (hi = lo) by lia. subst. simpl. eauto.
  - simpl. destruct (Hb lo s) as [(s1 & E & H1)|(r & E & H1)]; [lia|assumption| |].
    + rewrite E. simpl. apply IH; [lia|lia|assumption|]. intros i s2 Hi. apply Hb. lia.
    + rewrite E. simpl. eauto.
Qed.

Section LinFacts.
Context {A : arith}.
Implicit Types a : mat A.

Definition shaped (r c : nat) a : Prop := is_shape r c a = true.

Lemma shaped_row r c a i : shaped r c a -> i < r -> length (nth i a []) = c.
Proof.
  intros H Hi. apply is_shape_spec in H. destruct H as [H1 H2].
  apply H2, nth_In. lia.
Qed.
Lemma shaped_rows r c a : shaped r c a -> length a = r.
Proof. intros H. apply is_shape_spec in H. tauto. Qed.

Lemma mget_ok r c a i j : shaped r c a -> i < r -> j < c -> mget a i j = Ok (at2 a i j).
Proof.
  intros H Hi Hj. unfold mget, at2.
  rewrite (vget_ok a i []) by (rewrite (shaped_rows _ _ _ H); lia). cbn [bind].
  apply vget_ok. rewrite (shaped_row _ _ _ _ H Hi). lia.
Qed.

Lemma mset_ok r c a i j x : shaped r c a -> i < r -> j < c ->
  exists a', mset a i j x = Ok a' /\ shaped r c a' /\
    forall i' j', at2 a' i' j' = if Nat.eqb i' i && Nat.eqb j' j then x else at2 a i' j'.
Proof.
  intros H Hi Hj. pose proof (shaped_rows _ _ _ H) as Hr.
  pose proof (shaped_row _ _ _ _ H Hi) as Hc.
  unfold mset. rewrite (vget_ok a i []) by lia. cbn [bind].
  rewrite vset_ok by lia. cbn [bind]. rewrite vset_ok by lia.
  eexists. split; [reflexivity|]. split.
  - apply is_shape_spec. rewrite upd_length. split; [assumption|].
    intros row Hrow. apply (In_nth _ _ []) in Hrow. destruct Hrow as (q & Hq & <-).
    rewrite upd_length in Hq. rewrite upd_nth by lia.
    destruct (Nat.eqb q i); [now rewrite upd_length|].
    apply (shaped_row _ _ _ _ H). lia.
  - intros i' j'. unfold at2. rewrite upd_nth by lia.
    destruct (Nat.eqb_spec i' i) as [->|]; cbn [andb]; [|reflexivity].
    rewrite upd_nth by lia. reflexivity.
Qed.

(** Extensionality on a shape. *)
Lemma mat_ext r c a b : shaped r c a -> shaped r c b ->
  (forall i j, i < r -> j < c -> at2 a i j = at2 b i j) -> a = b.
Proof.
  intros Ha Hb H. apply nth_ext with (d := []) (d' := []).
  - rewrite (shaped_rows _ _ _ Ha). symmetry. exact (shaped_rows _ _ _ Hb).
  - intros i Hi. rewrite (shaped_rows _ _ _ Ha) in Hi.
    apply nth_ext with (d := n0) (d' := n0).
    + rewrite (shaped_row _ _ _ _ Ha Hi). symmetry. exact (shaped_row _ _ _ _ Hb Hi).
    + intros j Hj. rewrite (shaped_row _ _ _ _ Ha Hi) in Hj. now apply H.
Qed.

Lemma tab2_shaped r c (g : nat -> nat -> num A) : shaped r c (tab r (fun i => tab c (g i))).
Proof.
  apply is_shape_spec. rewrite tab_length. split; [reflexivity|].
  intros row Hrow. unfold tab in Hrow at 1. apply in_map_iff in Hrow.
  destruct Hrow as (i & <- & _). apply tab_length.
Qed.
Lemma tab2_at r c (g : nat -> nat -> num A) i j : i < r -> j < c ->
  at2 (tab r (fun i => tab c (g i))) i j = g i j.
Proof. intros Hi Hj. unfold at2. rewrite tab_nth by assumption. now rewrite tab_nth. Qed.

Lemma zeros2_shaped r c : shaped r c (@zeros2 A r c).
Proof.
  apply is_shape_spec. unfold zeros2. rewrite repeat_length. split; [reflexivity|].
  intros row Hrow. apply repeat_spec in Hrow. subst. apply zeros_length.
Qed.

(** ** Pivots *)
(** The entries of the pivot array that the solves read are row indices. *)
Definition pivots_ok (n : nat) (ip : list Z) : Prop :=
  forall k, k < n - 1 -> (0 <= nth k ip 0%Z < Z.of_nat n)%Z.

Lemma pivots_ok_zero n : pivots_ok n (repeat 0%Z n).
Proof.
  intros k Hk. assert (nth k (repeat 0%Z n) 0%Z = 0%Z) as ->; [|lia].
  clear. revert k. induction n as [|n IH]; intros [|k]; simpl; auto.
Qed.
Lemma pivots_ok_last n ip z : pivots_ok n ip -> length ip = n -> 0 < n -> pivots_ok n (upd ip (n - 1) z).
Proof.
  intros H Hl Hn k Hk. rewrite upd_nth by lia.
  destruct (Nat.eqb_spec k (n - 1)); [lia|]. now apply H.
Qed.
Lemma pivots_ok_set n ip k m : pivots_ok n ip -> length ip = n -> k < n -> m < n ->
  pivots_ok n (upd ip k (Z.of_nat m)).
Proof.
  intros H Hl Hk Hm j Hj. rewrite upd_nth by lia. destruct (Nat.eqb_spec j k); [lia|now apply H].
Qed.

Lemma pivot_search_ok n a k lo hi : shaped n n a -> k < n -> k < lo -> lo <= hi -> hi <= n ->
  exists m, pivot_search a k lo hi = Ok m /\ (m = k \/ lo <= m < hi).
Proof.
  intros Ha Hk Hlo Hlh Hhi. unfold pivot_search.
  destruct (for_range_ind lo hi (fun i m =>
    bind (mget a i k) (fun x => bind (mget a m k) (fun y =>
    Ok (if ltb A (nabs A y) (nabs A x) then i else m))))
    (fun i m => m = k \/ lo <= m < i) k) as (m & E & H).
  - now left.
  - intros i m Hi Hm. rewrite (mget_ok n n) by (auto; lia).
    rewrite (mget_ok n n) by (auto; lia). cbn [bind]. eexists. split; [reflexivity|].
    destruct (ltb A _ _); lia.
  - exact Hlh.
  - eauto.
Qed.

Lemma flip_sign_ok n ip : length ip = n -> 0 < n -> exists ip', flip_sign n ip = Ok ip' /\
  length ip' = n /\ (forall k, k < n - 1 -> nth k ip' 0%Z = nth k ip 0%Z).
Proof.
  intros Hl Hn. unfold flip_sign. rewrite usub_ok by lia. cbn [bind].
  rewrite (vget_ok ip (n - 1) 0%Z) by lia. cbn [bind]. rewrite vset_ok by lia.
  eexists. split; [reflexivity|]. rewrite upd_length. split; [assumption|].
  intros k Hk. rewrite upd_nth by lia. destruct (Nat.eqb_spec k (n - 1)); [lia|reflexivity].
Qed.

(** ** The loops of [dec] *)
Lemma scale_col_ok r c a k lo hi t : shaped r c a -> k < c -> lo <= hi -> hi <= r ->
  exists a', scale_col k lo hi t a = Ok a' /\ shaped r c a' /\
    forall i j, at2 a' i j =
      if Nat.eqb j k && (Nat.leb lo i && Nat.ltb i hi) then mul A (at2 a i k) (opp A t) else at2 a i j.
Proof.
  intros Ha Hk Hlh Hhi. unfold scale_col.
  destruct (for_range_ind lo hi (fun i a =>
      bind (mget a i k) (fun x => mset a i k (mul A x (opp A t))))
    (fun q a' => shaped r c a' /\ forall i j, at2 a' i j =
      if Nat.eqb j k && (Nat.leb lo i && Nat.ltb i q) then mul A (at2 a i k) (opp A t) else at2 a i j) a)
    as (a' & E & H).
  - split; [assumption|]. intros i j. nbool; reflexivity.
  - intros q b Hq [Hb Hv]. rewrite (mget_ok r c) by (auto; lia). cbn [bind].
    destruct (mset_ok r c b q k (mul A (at2 b q k) (opp A t))) as (b' & E & Hb' & Hv'); [auto|lia|lia|].
    exists b'. split; [exact E|]. split; [assumption|]. intros i j. rewrite Hv', !Hv.
    nbool; reflexivity.
  - exact Hlh.
  - exists a'. tauto.
Qed.

Lemma axpy_col_ok r c a k j lo hi t : shaped r c a -> k < c -> j < c -> k <> j -> lo <= hi -> hi <= r ->
  exists a', axpy_col k j lo hi t a = Ok a' /\ shaped r c a' /\
    forall i j', at2 a' i j' =
      if Nat.eqb j' j && (Nat.leb lo i && Nat.ltb i hi)
      then add A (at2 a i j) (mul A (at2 a i k) t) else at2 a i j'.
Proof.
  intros Ha Hk Hj Hkj Hlh Hhi. unfold axpy_col.
  destruct (for_range_ind lo hi (fun i a =>
      bind (mget a i j) (fun x => bind (mget a i k) (fun y => mset a i j (add A x (mul A y t)))))
    (fun q a' => shaped r c a' /\ forall i j', at2 a' i j' =
      if Nat.eqb j' j && (Nat.leb lo i && Nat.ltb i q)
      then add A (at2 a i j) (mul A (at2 a i k) t) else at2 a i j') a)
    as (a' & E & H).
  - split; [assumption|]. intros i j'. nbool; reflexivity.
  - intros q b Hq [Hb Hv]. rewrite (mget_ok r c) by (auto; lia). cbn [bind].
    rewrite (mget_ok r c) by (auto; lia). cbn [bind].
    destruct (mset_ok r c b q j (add A (at2 b q j) (mul A (at2 b q k) t))) as (b' & E & Hb' & Hv');
      [auto|lia|lia|].
    exists b'. split; [exact E|]. split; [assumption|]. intros i j'. rewrite Hv', !Hv.
    nbool; reflexivity.
  - exact Hlh.
  - exists a'. tauto.
Qed.

(** Column [j] after the exchange of rows [k] and [m] and the elimination with
    the multipliers in column [k]. *)
Definition elim_entry (a : nat -> nat -> num A) (k m lo hi i j : nat) : num A :=
  let t := a m j in
  if Nat.leb lo i && Nat.ltb i hi && negb (eqb A t n0)
  then add A (a (swp k m i) j) (mul A (a i k) t) else a (swp k m i) j.

Lemma elim_col_ok n a k m lo hi j : shaped n n a -> k < n -> m < n -> j < n -> k < j ->
  k < lo -> lo <= hi -> hi <= n ->
  exists a', elim_col k m lo hi j a = Ok a' /\ shaped n n a' /\
    forall i j', at2 a' i j' = if Nat.eqb j' j then elim_entry (at2 a) k m lo hi i j else at2 a i j'.
Proof.
  intros Ha Hk Hm Hj Hkj Hlo Hlh Hhi. unfold elim_col.
  rewrite (mget_ok n n) by (auto; lia). cbn [bind].
  rewrite (mget_ok n n) by (auto; lia). cbn [bind].
  destruct (mset_ok n n a m j (at2 a k j)) as (a1 & E1 & Ha1 & Hv1); [auto|lia|lia|].
  rewrite E1. cbn [bind].
  destruct (mset_ok n n a1 k j (at2 a m j)) as (a2 & E2 & Ha2 & Hv2); [auto|lia|lia|].
  rewrite E2. cbn [bind].
  destruct (eqb A (at2 a m j) n0) eqn:Et; cbn [negb].
  - exists a2. split; [reflexivity|]. split; [assumption|]. intros i j'. unfold elim_entry, swp.
    rewrite Et. cbn [negb]. rewrite andb_false_r. rewrite Hv2, Hv1. nbool; try reflexivity.
  - destruct (axpy_col_ok n n a2 k j lo hi (at2 a m j)) as (a3 & E3 & Ha3 & Hv3); auto; try lia.
    exists a3. split; [exact E3|]. split; [assumption|]. intros i j'. unfold elim_entry, swp.
    rewrite Et. cbn [negb]. rewrite andb_true_r. rewrite Hv3, !Hv2, !Hv1. nbool; try reflexivity.
Qed.

Lemma elim_cols_ok n a k m lo hi : shaped n n a -> k < n -> m < n -> k < lo -> lo <= hi -> hi <= n ->
  exists a', for_range (S k) n (elim_col k m lo hi) a = Ok a' /\ shaped n n a' /\
    forall i j, at2 a' i j =
      if Nat.ltb k j && Nat.ltb j n then elim_entry (at2 a) k m lo hi i j else at2 a i j.
Proof.
  intros Ha Hk Hm Hlo Hlh Hhi.
  destruct (for_range_ind (S k) n (elim_col k m lo hi)
    (fun q a' => shaped n n a' /\ forall i j, at2 a' i j =
      if Nat.ltb k j && Nat.ltb j q then elim_entry (at2 a) k m lo hi i j else at2 a i j) a)
    as (a' & E & H).
  - split; [assumption|]. intros i j. nbool; reflexivity.
  - intros q b Hq [Hb Hv].
    destruct (elim_col_ok n b k m lo hi q) as (b' & E & Hb' & Hv'); auto; try lia.
    exists b'. split; [exact E|]. split; [assumption|]. intros i j. rewrite Hv'.
    assert (elim_entry (at2 b) k m lo hi i q = elim_entry (at2 a) k m lo hi i q) as ->.
    { unfold elim_entry. rewrite !Hv. replace (Nat.ltb q q) with false by (symmetry; apply Nat.ltb_irrefl).
      rewrite Nat.ltb_irrefl. cbn [andb]. rewrite andb_false_r. reflexivity. }
    rewrite Hv. clear - Hq. nbool; reflexivity.
  - lia.
  - exists a'. tauto.
Qed.

(** What one round of the outer loop of [dec]/[dech] does. *)
Lemma dec_stage_ok n na k a ip :
  shaped n n a -> length ip = n -> S k < n -> S k <= na -> na <= n ->
  exists m, pivot_search a k (S k) na = Ok m /\ (m = k \/ S k <= m < na) /\
  let t := at2 a m k in
  exists ip', length ip' = n /\
    (forall q, q < n - 1 -> nth q ip' 0%Z = if Nat.eqb q k then Z.of_nat m else nth q ip 0%Z) /\
  ((eqb A t n0 = true /\ exists a',
      dec_stage n na k (a, ip) = Ok (inr (k, a', ip')) /\ shaped n n a') \/
   (eqb A t n0 = false /\ exists a',
      dec_stage n na k (a, ip) = Ok (inl (a', ip')) /\ shaped n n a' /\
      (forall i j, i < n -> j < n -> at2 a' i j =
         if Nat.ltb j k then at2 a i j
         else if Nat.eqb j k
              then if Nat.ltb k i then mul A (at2 a (swp k m i) k) (opp A (div A n1 t))
                   else at2 a (swp k m i) k
              else let tj := at2 a m j in
                   if Nat.ltb k i && Nat.ltb i na && negb (eqb A tj n0)
                   then add A (at2 a (swp k m i) j)
                          (mul A (mul A (at2 a (swp k m i) k) (opp A (div A n1 t))) tj)
                   else at2 a (swp k m i) j))).
Proof.
  intros Ha Hl Hk Hna Hnan.
  destruct (pivot_search_ok n a k (S k) na) as (m & Em & Hm); auto; try lia.
  exists m. split; [exact Em|]. split; [exact Hm|]. cbv zeta.
  assert (m < n) as Hmn by lia.
  unfold dec_stage. rewrite Em. cbn [bind].
  rewrite vset_ok by lia. cbn [bind].
  rewrite (mget_ok n n a m k) by (auto; lia). cbn [bind].
  set (ip1 := upd ip k (Z.of_nat m)).
  assert (length ip1 = n) as Hl1 by (unfold ip1; now rewrite upd_length).
  assert (forall q, nth q ip1 0%Z = if Nat.eqb q k then Z.of_nat m else nth q ip 0%Z) as Hip1.
  { intros q. unfold ip1. rewrite upd_nth by lia. reflexivity. }
  (* the exchange in column k *)
  assert (exists a1 ip2, (if negb (Nat.eqb m k)
     then bind (flip_sign n ip1) (fun ip => bind (mget a k k) (fun akk =>
          bind (mset a m k akk) (fun a' => bind (mset a' k k (at2 a m k)) (fun a => Ok (a, ip)))))
     else Ok (a, ip1)) = Ok (a1, ip2) /\ shaped n n a1 /\ length ip2 = n /\
     (forall q, q < n - 1 -> nth q ip2 0%Z = nth q ip1 0%Z) /\
     (forall i j, at2 a1 i j = if Nat.eqb j k then at2 a (swp k m i) k else at2 a i j))
    as (a1 & ip2 & E1 & Ha1 & Hl2 & Hip2 & Hv1).
  { destruct (Nat.eqb_spec m k) as [->|Hmk]; cbn [negb].
    - exists a, ip1. split; [reflexivity|]. split; [assumption|]. split; [assumption|].
      split; [auto|]. intros i j. unfold swp. nbool; reflexivity.
    - destruct (flip_sign_ok n ip1) as (ip2 & E2 & Hl2 & Hip2); [assumption|lia|].
      rewrite E2. cbn [bind]. rewrite (mget_ok n n a k k) by (auto; lia). cbn [bind].
      destruct (mset_ok n n a m k (at2 a k k)) as (b1 & F1 & Hb1 & Hw1); [auto|lia|lia|].
      rewrite F1. cbn [bind].
      destruct (mset_ok n n b1 k k (at2 a m k)) as (b2 & F2 & Hb2 & Hw2); [auto|lia|lia|].
      rewrite F2. cbn [bind]. exists b2, ip2. split; [reflexivity|]. split; [assumption|].
      split; [assumption|]. split; [assumption|]. intros i j. rewrite Hw2, Hw1. unfold swp.
      nbool; reflexivity. }
  rewrite E1. cbn [bind].
  assert (forall q, q < n - 1 -> nth q ip2 0%Z = if Nat.eqb q k then Z.of_nat m else nth q ip 0%Z) as Hip.
  { intros q Hq. rewrite Hip2, Hip1 by assumption. reflexivity. }
  destruct (eqb A (at2 a m k) n0) eqn:Et.
  - rewrite usub_ok by lia. cbn [bind]. rewrite vset_ok by lia. cbn [bind].
    exists (upd ip2 (n - 1) 0%Z). rewrite upd_length. split; [assumption|]. split.
    { intros q Hq. rewrite upd_nth by lia. destruct (Nat.eqb_spec q (n - 1)); [lia|]. now apply Hip. }
    left. split; [reflexivity|]. eauto.
  - exists ip2. split; [assumption|]. split; [assumption|]. right. split; [reflexivity|].
    destruct (scale_col_ok n n a1 k (S k) n (div A n1 (at2 a m k))) as (a2 & E2 & Ha2 & Hv2);
      [auto|lia|lia|lia|].
    rewrite E2. cbn [bind].
    destruct (elim_cols_ok n a2 k m (S k) na) as (a3 & E3 & Ha3 & Hv3); auto; try lia.
    rewrite E3. cbn [bind]. exists a3. split; [reflexivity|]. split; [assumption|].
    intros i j Hi Hj. rewrite Hv3. cbv zeta.
    destruct (Nat.ltb_spec j k) as [Hjk|Hjk].
    + rewrite (proj2 (Nat.ltb_ge k j)) by lia. cbn [andb]. rewrite Hv2, !Hv1.
      rewrite (proj2 (Nat.eqb_neq j k)) by lia. reflexivity.
    + destruct (Nat.eqb_spec j k) as [->|Hne].
      * rewrite Nat.ltb_irrefl. cbn [andb]. rewrite Hv2, !Hv1, Nat.eqb_refl. cbn [andb].
        replace (Nat.leb (S k) i && Nat.ltb i n) with (Nat.ltb k i) by (clear - Hi; nbool).
        reflexivity.
      * rewrite (proj2 (Nat.ltb_lt k j)) by lia. rewrite (proj2 (Nat.ltb_lt j n)) by lia.
        cbn [andb]. unfold elim_entry. cbv zeta.
        assert (forall i, at2 a2 i j = at2 a i j) as Hj2.
        { intros q. rewrite Hv2, !Hv1. rewrite (proj2 (Nat.eqb_neq j k)) by lia. reflexivity. }
        rewrite !Hj2. change (Nat.leb (S k) i) with (Nat.ltb k i).
        destruct (Nat.ltb k i && Nat.ltb i na) eqn:Ei; cbn [andb]; [|reflexivity].
        apply andb_prop in Ei. destruct Ei as [Ei1 Ei2].
        assert (at2 a2 i k = mul A (at2 a (swp k m i) k) (opp A (div A n1 (at2 a m k)))) as ->.
        { rewrite Hv2, !Hv1, Nat.eqb_refl. change (Nat.leb (S k) i) with (Nat.ltb k i).
          rewrite Ei1, (proj2 (Nat.ltb_lt i n) Hi). reflexivity. }
        reflexivity.
Qed.

Lemma dec_last_ok n a ip : shaped n n a -> length ip = n -> 0 < n -> pivots_ok n ip ->
  exists ier ip', dec_last n a ip = Ok (ier, a, ip') /\ length ip' = n /\ pivots_ok n ip' /\
    (forall q, q < n - 1 -> nth q ip' 0%Z = nth q ip 0%Z) /\
    (ier = 0 <-> eqb A (at2 a (n - 1) (n - 1)) n0 = false).
Proof.
  intros Ha Hl Hn Hp. unfold dec_last. rewrite usub_ok by lia. cbn [bind].
  rewrite (mget_ok n n) by (auto; lia). cbn [bind].
  destruct (eqb A _ _).
  - rewrite vset_ok by lia. cbn [bind]. exists n, (upd ip (n - 1) 0%Z). rewrite upd_length.
    split; [reflexivity|]. split; [assumption|]. split; [now apply pivots_ok_last|]. split.
    + intros q Hq. rewrite upd_nth by lia. destruct (Nat.eqb_spec q (n - 1)); [lia|reflexivity].
    + split; [lia|discriminate].
  - exists 0, ip. split; [reflexivity|]. split; [assumption|]. split; [assumption|].
    split; [reflexivity|]. tauto.
Qed.

(** [dec] and [dech] never panic on an [n] by [n] matrix, [n >= 1]. *)
Lemma dec_with_ok n (na : nat -> nat) a ip :
  0 < n -> shaped n n a -> length ip = n -> pivots_ok n ip ->
  (forall k, S k < n -> S k <= na k <= n) ->
  exists ier a' ip',
    (let* n1 := usub n 1 in
     let* ip := vset ip n1 1%Z in
     let* r := for_range_ret 0 n1 (fun k => dec_stage n (na k) k) (a, ip) in
     match r with
     | inl (a, ip) => dec_last n a ip
     | inr x => Ok x
     end) = Ok (ier, a', ip') /\ shaped n n a' /\ length ip' = n /\ pivots_ok n ip'.
Proof.
  intros Hn Ha Hl Hp Hna. rewrite usub_ok by lia. cbn [bind]. rewrite vset_ok by lia. cbn [bind].
  destruct (for_range_ret_ind 0 (n - 1) (fun k => dec_stage n (na k) k)
    (fun k st => shaped n n (fst st) /\ length (snd st) = n /\ pivots_ok n (snd st))
    (fun r => shaped n n (snd (fst r)) /\ length (snd r) = n /\ pivots_ok n (snd r))
    (a, upd ip (n - 1) 1%Z)) as [([a' ip'] & E & H1 & H2 & H3)|([[ier a'] ip'] & E & H1 & H2 & H3)].
  - cbn. rewrite upd_length. split; [assumption|]. split; [assumption|]. now apply pivots_ok_last.
  - lia.
  - intros k [b jp] Hk (Hb & Hlj & Hpj). cbn [fst snd] in *.
    destruct (dec_stage_ok n (na k) k b jp) as (m & Em & Hm & ip' & Hl' & Hip' & H); auto;
      try (specialize (Hna k); lia).
    assert (m < n) as Hmn by (specialize (Hna k); lia).
    assert (pivots_ok n ip') as Hp'.
    { intros q Hq. rewrite Hip' by assumption. destruct (Nat.eqb_spec q k); [lia|]. now apply Hpj. }
    destruct H as [(Et & a' & E & Ha')|(Et & a' & E & Ha' & _)]; rewrite E.
    + right. eexists. split; [reflexivity|]. cbn [fst snd]. auto.
    + left. eexists. split; [reflexivity|]. cbn [fst snd]. auto.
  - rewrite E. cbn [bind fst snd] in *.
    destruct (dec_last_ok n a' ip') as (ier & ip2 & E2 & Hl2 & Hp2 & _); auto.
    rewrite E2. eauto 8.
  - rewrite E. cbn [bind fst snd] in *. eauto 8.
Qed.

Lemma dec_ok n a ip : 0 < n -> shaped n n a -> length ip = n -> pivots_ok n ip ->
  exists ier a' ip', dec n a ip = Ok (ier, a', ip') /\ shaped n n a' /\ length ip' = n /\ pivots_ok n ip'.
Proof.
  intros Hn Ha Hl Hp. apply (dec_with_ok n (fun _ => n) a ip); auto; lia.
Qed.

(** ** [sol] *)
Lemma axpy_vec_ok r c a k lo hi t (b : vec A) : shaped r c a -> k < c -> lo <= hi -> hi <= r ->
  hi <= length b -> exists b', axpy_vec a k lo hi t b = Ok b' /\ length b' = length b /\
    forall i, at_ b' i = if Nat.leb lo i && Nat.ltb i hi
                         then add A (at_ b i) (mul A (at2 a i k) t) else at_ b i.
Proof.
  intros Ha Hk Hlh Hhi Hb. unfold axpy_vec.
  destruct (for_range_ind lo hi (fun i b =>
      bind (vget b i) (fun x => bind (mget a i k) (fun y => vset b i (add A x (mul A y t)))))
    (fun q b' => length b' = length b /\ forall i, at_ b' i = if Nat.leb lo i && Nat.ltb i q
                         then add A (at_ b i) (mul A (at2 a i k) t) else at_ b i) b)
    as (b' & E & H).
  - split; [reflexivity|]. intros i. nbool; reflexivity.
  - intros q b1 Hq [Hl1 Hv]. rewrite (vget_ok b1 q n0) by lia. cbn [bind].
    rewrite (mget_ok r c) by (auto; lia). cbn [bind]. rewrite vset_ok by lia.
    eexists. split; [reflexivity|]. rewrite upd_length. split; [assumption|].
    intros i. unfold at_. rewrite upd_nth by lia. fold (at_ b1 i) (at_ b1 q). rewrite !Hv.
    unfold at_. nbool; reflexivity.
  - exact Hlh.
  - eauto.
Qed.

Lemma zidx_ok z n : (0 <= z < Z.of_nat n)%Z -> exists m, zidx z = Ok m /\ m < n /\ z = Z.of_nat m.
Proof.
  intros H. unfold zidx. rewrite (proj2 (Z.leb_le 0 z)) by lia. exists (Z.to_nat z).
  split; [reflexivity|]. lia.
Qed.

Lemma fwd_step_ok n a ip hi k m (b : vec A) : shaped n n a -> n <= length b -> length ip = n ->
  k < n -> m < n -> nth k ip 0%Z = Z.of_nat m -> S k <= hi -> hi <= n ->
  exists b', fwd_step a ip hi k b = Ok b' /\ length b' = length b /\
    forall i, at_ b' i = if Nat.ltb k i && Nat.ltb i hi
                         then add A (at_ b (swp k m i)) (mul A (at2 a i k) (at_ b m))
                         else at_ b (swp k m i).
Proof.
  intros Ha Hb Hl Hk Hm Hip Hhi Hhn. unfold fwd_step.
  rewrite (vget_ok ip k 0%Z) by lia. cbn [bind]. rewrite Hip.
  destruct (zidx_ok (Z.of_nat m) n) as (m' & Em & _ & Hm'); [lia|]. rewrite Em. cbn [bind].
  assert (m' = m) as -> by lia. clear Hm' Em.
  rewrite (vget_ok b m n0) by lia. cbn [bind]. rewrite (vget_ok b k n0) by lia. cbn [bind].
  rewrite vset_ok by lia. cbn [bind]. rewrite vset_ok by (rewrite upd_length; lia). cbn [bind].
  destruct (axpy_vec_ok n n a k (S k) hi (nth m b n0) (upd (upd b m (nth k b n0)) k (nth m b n0)))
    as (b' & E & Hlb & Hv); auto; try lia.
  { rewrite !upd_length. lia. }
  rewrite !upd_length in Hlb. exists b'. split; [exact E|]. split; [lia|].
  intros i. rewrite Hv. unfold at_. rewrite !upd_nth by (rewrite ?upd_length; lia).
  unfold swp. nbool; reflexivity.
Qed.

Lemma bwd_step_ok n a k (b : vec A) : shaped n n a -> n <= length b -> S k < n ->
  let kb := n - k - 1 in
  exists b', bwd_step n a k b = Ok b' /\ length b' = length b /\
    forall i, at_ b' i =
      let x := div A (at_ b kb) (at2 a kb kb) in
      if Nat.eqb i kb then x
      else if Nat.ltb i kb then add A (at_ b i) (mul A (at2 a i kb) (opp A x)) else at_ b i.
Proof.
  intros Ha Hb Hk kb. unfold bwd_step. rewrite usub_ok by lia. cbn [bind].
  rewrite usub_ok by lia. cbn [bind]. replace (S (n - k - 2)) with kb by lia.
  assert (kb < n) by lia.
  rewrite (vget_ok b kb n0) by lia. cbn [bind]. rewrite (mget_ok n n) by (auto; lia). cbn [bind].
  rewrite vset_ok by lia. cbn [bind]. rewrite (vget_ok _ kb n0) by (rewrite upd_length; lia). cbn [bind].
  rewrite upd_nth by lia. rewrite Nat.eqb_refl.
  replace (n - k - 2 + 1) with kb by lia.
  destruct (axpy_vec_ok n n a kb 0 kb (opp A (div A (nth kb b n0) (at2 a kb kb)))
     (upd b kb (div A (nth kb b n0) (at2 a kb kb)))) as (b' & E & Hlb & Hv); auto; try lia.
  { rewrite upd_length. lia. }
  rewrite upd_length in Hlb. exists b'. split; [exact E|]. split; [lia|].
  intros i. rewrite Hv. cbv zeta. unfold at_. rewrite !upd_nth by lia.
  nbool; reflexivity.
Qed.

Lemma sol_with_ok n (na : nat -> nat) a (b : vec A) ip :
  0 < n -> shaped n n a -> n <= length b -> length ip = n -> pivots_ok n ip ->
  (forall k, S k < n -> S k <= na k <= n) ->
  exists b',
  (let* b :=
    (if negb (Nat.eqb n 1)
     then let* nm1 := usub n 1 in
          let* b := for_range 0 nm1 (fun k => fwd_step a ip (na k) k) b in
          for_range 0 nm1 (bwd_step n a) b
     else Ok b) in
  final_div a b) = Ok b' /\ length b' = length b.
Proof.
  intros Hn Ha Hb Hl Hp Hna.
  assert (exists b1, (if negb (Nat.eqb n 1)
     then let* nm1 := usub n 1 in
          let* b := for_range 0 nm1 (fun k => fwd_step a ip (na k) k) b in
          for_range 0 nm1 (bwd_step n a) b
     else Ok b) = Ok b1 /\ length b1 = length b) as (b1 & E1 & Hb1).
  { destruct (negb (Nat.eqb n 1)); [|eauto]. rewrite usub_ok by lia. cbn [bind].
    destruct (for_range_ind 0 (n - 1) (fun k => fwd_step a ip (na k) k)
      (fun _ b' => length b' = length b) b) as (b1 & E1 & Hb1).
    - reflexivity.
    - intros k c Hk Hc. destruct (zidx_ok (nth k ip 0%Z) n) as (m & _ & Hm & Em); [apply Hp; lia|].
      destruct (fwd_step_ok n a ip (na k) k m c) as (c' & E & Hc' & _); auto; try lia;
        specialize (Hna k); try lia.
      exists c'. split; [exact E|congruence].
    - lia.
    - rewrite E1. cbn [bind].
      destruct (for_range_ind 0 (n - 1) (bwd_step n a) (fun _ b' => length b' = length b) b1) as (b2 & E2 & Hb2);
        [assumption| |lia|eauto].
      intros k c Hk Hc. destruct (bwd_step_ok n a k c) as (c' & E & Hc' & _); auto; try lia.
      exists c'. split; [exact E|congruence]. }
  rewrite E1. cbn [bind]. unfold final_div. rewrite (vget_ok b1 0 n0) by lia. cbn [bind].
  rewrite (mget_ok n n) by (auto; lia). cbn [bind]. rewrite vset_ok by lia.
  eexists. split; [reflexivity|]. now rewrite upd_length.
Qed.

Lemma sol_ok n a (b : vec A) ip :
  0 < n -> shaped n n a -> n <= length b -> length ip = n -> pivots_ok n ip ->
  exists b', sol n a b ip = Ok b' /\ length b' = length b.
Proof. intros Hn Ha Hb Hl Hp. apply (sol_with_ok n (fun _ => n) a b ip); auto; lia. Qed.

End LinFacts.
