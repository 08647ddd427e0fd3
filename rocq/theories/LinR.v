(** [dec], [sol], [dech] and [solh] in exact arithmetic. *)
From Coq Require Import ZArith List Bool Lia Reals Lra.
From Verif Require Import Arith Vec Core Linalg VecFacts LinFacts ArithR SpecRK RKFacts SpecLin GaussK.
Import ListNotations.
Local Open Scope R_scope.

Section LinR.
Context (inf : R).
Notation RI := (RA inf).
Notation mat := (mat RI).
Notation vec := (vec RI).
Notation gaussR := (@gauss R 0 Rplus Rmult Ropp Rinv).
Notation stageR := (@stage R 0 Rplus Rmult Ropp Rinv).
Notation solvesR := (@solves R 0 Rplus Rmult).
Notation singularR := (@singular R 0 Rplus Rmult).

Lemma Rring : ring_theory 0 1 Rplus Rmult Rminus Ropp eq.
Proof. constructor; intros; ring. Qed.
Lemma Rinv_ok (x : R) : x <> 0 -> x * / x = 1.
Proof. apply Rinv_r. Qed.

Lemma n0_R : (@n0 RI : R) = 0.
Proof. unfold n0. cbn. unfold rlit. lra. Qed.
Lemma n1_R : (@n1 RI : R) = 1.
Proof. unfold n1. cbn. unfold rlit. lra. Qed.

Lemma eqb_true_R (x : R) : eqb RI x n0 = true -> x = 0.
Proof. intros H. apply Reqb_true in H. etransitivity; [exact H|exact n0_R]. Qed.
Lemma eqb_false_R (x : R) : eqb RI x n0 = false -> x <> 0.
Proof. intros H. apply Reqb_false in H. intros ->. apply H. symmetry. exact n0_R. Qed.
Lemma inv_R (x : R) : x <> 0 -> (div RI n1 x : R) = / x.
Proof. intros H. cbn [RI RA div]. rewrite rdiv_ok by exact H. unfold n1. cbn. unfold rlit. field. exact H. Qed.

(** ** Pivot search *)
Lemma pivot_search_max n (a : mat) k lo hi m : shaped n n a -> (k < n)%nat -> (k < lo)%nat -> (lo <= hi)%nat -> (hi <= n)%nat ->
  pivot_search a k lo hi = Ok m ->
  Rabs (at2 a k k) <= Rabs (at2 a m k) /\ forall i, (lo <= i < hi)%nat -> Rabs (at2 a i k) <= Rabs (at2 a m k).
Proof.
  intros Ha Hk Hlo Hlh Hhi H. unfold pivot_search in H.
  match type of H with for_range lo hi ?g k = _ => destruct (for_range_ind lo hi g
    (fun i m => (m = k \/ lo <= m < i)%nat /\ Rabs (at2 a k k) <= Rabs (at2 a m k) /\
       forall q, (lo <= q < i)%nat -> Rabs (at2 a q k) <= Rabs (at2 a m k)) k) as (m' & E & H0) end.
  - split; [now left|]. split; [apply Rle_refl|]. intros q Hq. lia.
  - intros i m1 Hi (Hm & H1 & H2). rewrite (mget_ok n n) by (auto; lia). cbn [bind].
    rewrite (mget_ok n n) by (auto; lia). cbn [bind]. eexists. split; [reflexivity|].
    destruct (ltb RI _ _) eqn:E; cbn in E.
    + apply Rltb_true in E. split; [lia|]. split; [cbn in *; lra|]. intros q Hq.
      destruct (Nat.eq_dec q i) as [->|]; [apply Rle_refl|]. specialize (H2 q ltac:(lia)). cbn in *; lra.
    + apply Rltb_false in E. split; [lia|]. split; [exact H1|]. intros q Hq.
      destruct (Nat.eq_dec q i) as [->|]; [exact E|]. apply H2. lia.
  - exact Hlh.
  - assert (m' = m) as -> by congruence. tauto.
Qed.

(** ** One stage *)
Definition banded (n lb : nat) (a : nat -> nat -> R) : Prop :=
  forall i j, (i < n)%nat -> (j < n)%nat -> (j + lb < i)%nat -> a i j = 0.

Lemma dec_stage_R n lb k (a : mat) ip :
  shaped n n a -> length ip = n -> (S k < n)%nat -> banded n lb (at2 a) ->
  exists m ip', (k <= m < n)%nat /\ length ip' = n /\
    (forall q, (q < n - 1)%nat -> nth q ip' 0%Z = if Nat.eqb q k then Z.of_nat m else nth q ip 0%Z) /\
    (((forall i, (k <= i < n)%nat -> at2 a i k = 0) /\ exists a',
       dec_stage n (Nat.min n (lb + k + 1)) k (a, ip) = Ok (inr (k, a', ip')) /\ shaped n n a') \/
     (exists a', dec_stage n (Nat.min n (lb + k + 1)) k (a, ip) = Ok (inl (a', ip')) /\ shaped n n a' /\
       stageR n k m (at2 a) (at2 a') /\ banded n lb (at2 a'))).
Proof.
  intros Ha Hl Hk Hb. set (na := Nat.min n (lb + k + 1)).
  destruct (dec_stage_ok n na k a ip Ha Hl Hk ltac:(lia) ltac:(lia)) as (m & Em & Hm & ip' & Hl' & Hip & H).
  exists m, ip'. split; [lia|]. split; [exact Hl'|]. split; [exact Hip|].
  pose proof (pivot_search_max n a k (S k) na m Ha ltac:(lia) ltac:(lia) ltac:(lia) ltac:(lia) Em) as (Mk & Mi).
  destruct H as [(Et & a' & E & Ha')|(Et & a' & E & Ha' & Hv)].
  - left. apply eqb_true_R in Et. split; [|eauto].
    intros i Hi. rewrite Et, Rabs_R0 in *. 
    destruct (Nat.eq_dec i k) as [->|Hne]; [|destruct (le_lt_dec na i) as [Hge|Hlt]].
    + destruct (Req_dec (at2 a k k) 0) as [|Hn]; [assumption|]. apply Rabs_pos_lt in Hn. cbn in *. lra.
    + apply Hb; lia.
    + specialize (Mi i ltac:(lia)). destruct (Req_dec (at2 a i k) 0) as [|Hn]; [assumption|].
      apply Rabs_pos_lt in Hn. cbn in *. lra.
  - right. apply eqb_false_R in Et. exists a'. split; [exact E|]. split; [exact Ha'|].
    assert (forall i, (k < i)%nat -> (i < n)%nat -> (na <= i)%nat -> at2 a (swp k m i) k = 0) as Hout.
    { intros i H1 H2 H3. assert (swp k m i = i) as -> by (unfold swp; nbool). apply Hb; lia. }
    assert (forall x : R, mul RI x (opp RI (div RI n1 (at2 a m k))) = x * - / at2 a m k) as Hmul.
    { intros x. rewrite inv_R by exact Et. reflexivity. }
    assert (stageR n k m (at2 a) (at2 a')) as Hst.
    { constructor.
      - lia.
      - exact Et.
      - intros i j Hi Hj. rewrite Hv by lia. now rewrite (proj2 (Nat.ltb_lt j k) Hj).
      - intros i Hi. rewrite Hv by lia. rewrite Nat.ltb_irrefl, Nat.eqb_refl.
        destruct (Nat.ltb k i); [apply Hmul|reflexivity].
      - intros i j Hi Hj. rewrite Hv by lia. rewrite (proj2 (Nat.ltb_ge j k)) by lia.
        rewrite (proj2 (Nat.eqb_neq j k)) by lia. cbv zeta.
        destruct (Nat.ltb_spec k i) as [Hki|Hki]; cbn [andb]; [|reflexivity].
        destruct (Nat.ltb_spec i na) as [Hin|Hin]; cbn [andb].
        + destruct (eqb RI (at2 a m j) n0) eqn:Ej; cbn [negb].
          * apply eqb_true_R in Ej. rewrite Ej. cbn. lra.
          * rewrite Hmul. reflexivity.
        + rewrite (Hout i) by lia. cbn. lra. }
    split; [exact Hst|]. intros i j Hi Hj Hij. destruct Hst as [_ _ Hlt Heq Hgt].
    destruct (Nat.lt_trichotomy j k) as [Hjk|[->|Hjk]].
    + rewrite Hlt by lia. apply Hb; lia.
    + rewrite Heq by lia. rewrite (proj2 (Nat.ltb_lt k i)) by lia. rewrite Hout by lia. cbn. lra.
    + rewrite Hgt by lia. rewrite (proj2 (Nat.ltb_lt k i)) by lia. rewrite (Hout i) by lia.
      assert (swp k m i = i) as -> by (unfold swp; nbool). rewrite (Hb i j) by lia. cbn. lra.
Qed.

(** ** The whole decomposition *)
Definition pivots (n k : nat) (p : nat -> nat) (ip : list Z) : Prop :=
  forall q, (q < k)%nat -> (q < n - 1)%nat -> nth q ip 0%Z = Z.of_nat (p q) /\ (p q < n)%nat.

Lemma gauss_ext n (p p' : nat -> nat) k a a' : (forall q, (q < k)%nat -> p q = p' q) ->
  gaussR n p k a a' -> gaussR n p' k a a'.
Proof.
  intros H G. induction G as [|k a a1 a2 _ IH Hs]; [constructor|].
  econstructor; [apply IH; intros q Hq; apply H; lia|]. rewrite <- H by lia. exact Hs.
Qed.

Lemma dech_R n lb (a : mat) ip : (0 < n)%nat -> shaped n n a -> length ip = n -> banded n lb (at2 a) ->
  exists ier a' ip', dech n a lb ip = Ok (ier, a', ip') /\ shaped n n a' /\ length ip' = n /\
  exists p k ak,
   ((ier = k /\ (k < n - 1)%nat /\ gaussR n p k (at2 a) ak /\ forall i, (k <= i < n)%nat -> ak i k = 0) \/
    (gaussR n p (n - 1) (at2 a) (at2 a') /\ pivots n (n - 1) p ip' /\ banded n lb (at2 a') /\
     ((ier = O /\ at2 a' (n - 1) (n - 1) <> 0) \/ (ier = n /\ at2 a' (n - 1) (n - 1) = 0)))).
Proof.
  intros Hn Ha Hl Hb. unfold dech. rewrite usub_ok by lia. cbn [bind]. rewrite vset_ok by lia. cbn [bind].
  set (Q := fun r : nat * mat * list Z => shaped n n (snd (fst r)) /\ length (snd r) = n /\
     exists p ak, (fst (fst r) < n - 1)%nat /\ gaussR n p (fst (fst r)) (at2 a) ak /\
       forall i, (fst (fst r) <= i < n)%nat -> ak i (fst (fst r)) = 0).
  set (I := fun (k : nat) (st : mat * list Z) => shaped n n (fst st) /\ length (snd st) = n /\
     banded n lb (at2 (fst st)) /\
     exists p, gaussR n p k (at2 a) (at2 (fst st)) /\ pivots n k p (snd st)).
  destruct (for_range_ret_ind 0 (n - 1) (fun k => dec_stage n (Nat.min n (lb + k + 1)) k) I Q (a, upd ip (n - 1) 1%Z))
    as [([a' ip'] & E & H1 & H2 & H3 & p & H4 & H5)|([[ier a'] ip'] & E & H1 & H2 & p & ak & H3 & H4 & H5)].
  - split; [exact Ha|]. split; [cbn; now rewrite upd_length|]. split; [exact Hb|].
    exists (fun _ => O). split; [constructor|]. intros q Hq. lia.
  - lia.
  - intros k [b jp] Hk (Hsb & Hlj & Hbb & p & Hg & Hp). cbn [fst snd] in *.
    destruct (dec_stage_R n lb k b jp) as (m & ip' & Hm & Hl' & Hip & H); auto; try lia.
    destruct H as [(Hz & a' & E & Ha')|(a' & E & Ha' & Hst & Hb')]; rewrite E.
    + right. eexists. split; [reflexivity|]. unfold Q. cbn [fst snd].
      split; [exact Ha'|]. split; [exact Hl'|]. exists p, (at2 b). split; [lia|]. split; assumption.
    + left. eexists. split; [reflexivity|]. unfold I. cbn [fst snd]. split; [exact Ha'|]. split; [exact Hl'|].
      split; [exact Hb'|]. exists (fun q => if Nat.eqb q k then m else p q). split.
      * econstructor.
        -- apply (gauss_ext n p); [|exact Hg]. intros q Hq. now rewrite (proj2 (Nat.eqb_neq q k)) by lia.
        -- rewrite Nat.eqb_refl. exact Hst.
      * intros q Hq Hq2. rewrite Hip by lia. destruct (Nat.eqb_spec q k) as [->|Hne].
        -- split; [reflexivity|lia].
        -- apply Hp; lia.
  - rewrite E. cbn [bind fst snd] in *. unfold dec_last. rewrite usub_ok by lia. cbn [bind].
    rewrite (mget_ok n n) by (auto; lia). cbn [bind].
    destruct (eqb RI _ _) eqn:Ez.
    + rewrite vset_ok by lia. cbn [bind]. exists n, a', (upd ip' (n - 1) 0%Z).
      split; [reflexivity|]. split; [exact H1|]. split; [now rewrite upd_length|].
      exists p, O, (at2 a). right. split; [exact H4|]. split.
      { intros q Hq Hq2. rewrite upd_nth by lia. rewrite (proj2 (Nat.eqb_neq q (n - 1))) by lia. now apply H5. }
      split; [exact H3|]. right. split; [reflexivity|]. now apply eqb_true_R in Ez.
    + exists O, a', ip'. split; [reflexivity|]. split; [exact H1|]. split; [exact H2|].
      exists p, O, (at2 a). right. split; [exact H4|]. split; [exact H5|].
      split; [exact H3|]. left. split; [reflexivity|]. now apply eqb_false_R in Ez.
  - rewrite E. cbn [bind fst snd] in *. exists ier, a', ip'. split; [reflexivity|]. split; [exact H1|]. split; [exact H2|].
    exists p, ier, ak. left. auto.
Qed.

Lemma min_full n lb k : (n <= lb)%nat -> Nat.min n (lb + k + 1) = n.
Proof. lia. Qed.
Lemma bind_ext {X Y} (e : res X) (f g : X -> res Y) : (forall x, f x = g x) -> bind e f = bind e g.
Proof. intros H. destruct e; [apply H|reflexivity..]. Qed.
Lemma for_range_ret_ext {S T} lo hi (f g : nat -> S -> res (S + T)) s :
  (forall k s, f k s = g k s) -> for_range_ret lo hi f s = for_range_ret lo hi g s.
Proof.
  intros H. unfold for_range_ret. generalize (seq lo (hi - lo)) as l. intros l. revert s.
  induction l as [|k l IH]; intros s; [reflexivity|]. cbn [for_list_ret]. rewrite H. apply bind_ext.
  intros [s'|r]; [apply IH|reflexivity].
Qed.
Lemma for_range_ext {S} lo hi (f g : nat -> S -> res S) s :
  (forall k s, f k s = g k s) -> for_range lo hi f s = for_range lo hi g s.
Proof.
  intros H. unfold for_range. generalize (seq lo (hi - lo)) as l. intros l. revert s.
  induction l as [|k l IH]; intros s; [reflexivity|]. cbn [for_list]. rewrite H. apply bind_ext. apply IH.
Qed.
Lemma dec_dech n (a : mat) ip : dec n a ip = dech n a n ip.
Proof.
  unfold dec, dech. apply bind_ext. intros m. apply bind_ext. intros jp. f_equal.
  apply for_range_ret_ext. intros k s. now rewrite min_full by lia.
Qed.

(** ** The substitutions *)
Lemma solh_R n lb (a a' : mat) (p : nat -> nat) (b : vec) ip :
  (0 < n)%nat -> shaped n n a' -> length ip = n -> (n <= length b)%nat ->
  gaussR n p (n - 1) (at2 a) (at2 a') -> pivots n (n - 1) p ip -> banded n lb (at2 a') ->
  at2 a' (n - 1) (n - 1) <> 0 ->
  exists x, solh n a' lb b ip = Ok x /\ length x = length b /\ solvesR n (at2 a) (at_ x) (at_ b).
Proof.
  intros Hn Ha Hl Hlb Hg Hp Hb Hz.
  assert (exists b1, (if negb (Nat.eqb n 1)
     then let* nm1 := usub n 1 in
          let* b := for_range 0 nm1 (fun k => fwd_step a' ip (Nat.min n (lb + k + 1)) k) b in
          for_range 0 nm1 (bwd_step n a') b
     else Ok b) = Ok b1 /\ length b1 = length b /\
     @binv R 0 Rplus Rmult n (msk 0 (n - 1) (at2 a')) (fwds Rplus Rmult p (at2 a') (n - 1) (at_ b)) 1 (at_ b1))
     as (b1 & E1 & L1 & B1).
  { assert (forall l, length l = length b -> (forall i, (i < n)%nat -> at_ l i = fwds Rplus Rmult p (at2 a') (n - 1) (at_ b) i) ->
      exists b1, for_range 0 (n - 1) (bwd_step n a') l = Ok b1 /\ length b1 = length b /\
       @binv R 0 Rplus Rmult n (msk 0 (n - 1) (at2 a')) (fwds Rplus Rmult p (at2 a') (n - 1) (at_ b)) 1 (at_ b1)) as Hbwd.
    { intros l Hll Hf.
      destruct (for_range_ind 0 (n - 1) (bwd_step n a') (fun q y => length y = length b /\
         @binv R 0 Rplus Rmult n (msk 0 (n - 1) (at2 a')) (fwds Rplus Rmult p (at2 a') (n - 1) (at_ b)) (n - q) (at_ y)) l)
        as (b1 & E & L & B).
      - split; [exact Hll|]. replace (n - 0)%nat with n by lia. now apply (binv_start 0 1 Rplus Rmult Rminus Ropp Rring).
      - intros q y Hq (Ly & By). destruct (bwd_step_ok n a' q y Ha ltac:(lia) ltac:(lia)) as (y' & E & Ly' & Hv).
        exists y'. split; [exact E|]. split; [congruence|].
        apply (binv_step 0 1 Rplus Rmult Rminus Ropp Rinv Rring Rinv_ok n _ _ (n - S q) (at_ y)).
        + now apply (full_upper 0 Rplus Rmult Ropp Rinv n p (at2 a)).
        + lia.
        + apply (full_diag 0 Rplus Rmult Ropp Rinv n p (at2 a)); auto; lia.
        + now replace (S (n - S q)) with (n - q)%nat by lia.
        + intros i Hi. rewrite Hv. unfold bstep. cbv zeta. replace (n - q - 1)%nat with (n - S q)%nat by lia.
          assert (msk 0 (n - 1) (at2 a') (n - S q) (n - S q) = at2 a' (n - S q) (n - S q)) as Ed
            by (unfold msk; now rewrite Nat.ltb_irrefl, andb_false_r).
          assert (at2 a' (n - S q) (n - S q) <> 0) as Hd.
          { rewrite <- Ed. apply (full_diag 0 Rplus Rmult Ropp Rinv n p (at2 a)); auto; lia. }
          rewrite Ed. cbn [RI div mul add opp]. rewrite rdiv_ok by exact Hd.
          destruct (Nat.eqb i (n - S q)); [reflexivity|].
          destruct (Nat.ltb_spec i (n - S q)) as [Hlt|]; [|reflexivity].
          assert (msk 0 (n - 1) (at2 a') i (n - S q) = at2 a' i (n - S q)) as ->; [|reflexivity].
          unfold msk. rewrite (proj2 (Nat.ltb_ge (n - S q) i)) by lia. now rewrite andb_false_r.
      - lia.
      - exists b1. split; [exact E|]. split; [exact L|]. now replace 1%nat with (n - (n - 1))%nat at 3 by lia. }
    destruct (Nat.eqb_spec n 1) as [->|Hn1]; cbn [negb].
    - destruct (Hbwd b eq_refl) as (b1 & E & H).
      + intros i Hi. reflexivity.
      + cbn in E. injection E as <-. exists b. split; [reflexivity|exact H].
    - rewrite usub_ok by lia. cbn [bind].
      destruct (for_range_ind 0 (n - 1) (fun k => fwd_step a' ip (Nat.min n (lb + k + 1)) k)
        (fun q y => length y = length b /\ forall i, (i < n)%nat -> at_ y i = fwds Rplus Rmult p (at2 a') q (at_ b) i) b)
        as (l & E & Ll & Hf).
      + split; reflexivity.
      + intros q y Hq (Ly & Hy). destruct (Hp q ltac:(lia) ltac:(lia)) as (Ep & Lp).
        pose proof (proj2 (gauss_p 0 Rplus Rmult Ropp Rinv n p _ _ _ Hg) q ltac:(lia)) as Hpq.
        destruct (fwd_step_ok n a' ip (Nat.min n (lb + q + 1)) q (p q) y) as (y' & E & Ly' & Hv); auto; try lia.
        exists y'. split; [exact E|]. split; [congruence|]. intros i Hi. rewrite Hv. cbn [fwds]. unfold fwd.
        rewrite !Hy by (try lia; apply swp_lt; lia).
        destruct (Nat.ltb_spec q i) as [Hqi|]; cbn [andb]; [|reflexivity].
        destruct (Nat.ltb_spec i (Nat.min n (lb + q + 1))) as [|Hge]; [reflexivity|].
        rewrite (Hb i q) by lia. cbn. lra.
      + lia.
      + rewrite E. cbn [bind]. apply Hbwd; assumption. }
  unfold solh. rewrite E1. cbn [bind]. unfold final_div. rewrite (vget_ok b1 0 n0) by lia. cbn [bind].
  rewrite (mget_ok n n) by (auto; lia). cbn [bind]. rewrite vset_ok by lia.
  eexists. split; [reflexivity|]. split; [now rewrite upd_length|].
  apply (full_solves 0 1 Rplus Rmult Rminus Ropp Rinv Rring Rinv_ok n p (at2 a) (at2 a') (at_ b)); [exact Hg|].
  apply (binv_end 0 1 Rplus Rmult Rminus Ropp Rring).
  apply (binv_step 0 1 Rplus Rmult Rminus Ropp Rinv Rring Rinv_ok n _ _ 0 (at_ b1)).
  - now apply (full_upper 0 Rplus Rmult Ropp Rinv n p (at2 a)).
  - lia.
  - apply (full_diag 0 Rplus Rmult Ropp Rinv n p (at2 a)); auto; lia.
  - exact B1.
  - intros i Hi. unfold at_. rewrite upd_nth by lia. unfold bstep. cbv zeta.
    assert (msk 0 (n - 1) (at2 a') 0 0 = at2 a' 0 0) as Ed by (unfold msk; now rewrite Nat.ltb_irrefl, andb_false_r).
    assert (at2 a' 0 0 <> 0) as Hd.
    { rewrite <- Ed. apply (full_diag 0 Rplus Rmult Ropp Rinv n p (at2 a)); auto; lia. }
    rewrite Ed. destruct (Nat.eqb_spec i 0) as [->|Hne].
    + cbn [RI div]. rewrite rdiv_ok by exact Hd. reflexivity.
    + now rewrite (proj2 (Nat.ltb_ge i 0)) by lia.
Qed.

Lemma sol_solh n (a : mat) (b : vec) ip : sol n a b ip = solh n a n b ip.
Proof.
  unfold sol, solh. f_equal. destruct (negb (Nat.eqb n 1)); [|reflexivity]. apply bind_ext. intros m. f_equal.
  apply for_range_ext. intros k s. now rewrite min_full by lia.
Qed.
End LinR.
