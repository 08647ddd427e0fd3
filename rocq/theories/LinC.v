(** [decc], [solc] and [dechc] in exact arithmetic: complex numbers are pairs of
    reals. *)
From Coq Require Import ZArith List Bool Lia Reals Lra.
From Verif Require Import Arith Vec Core Linalg VecFacts LinFacts LinFactsC ArithR SpecRK RKFacts SpecLin GaussK LinR.
Import ListNotations.
Local Open Scope R_scope.

Definition C2 : Type := (R * R)%type.
Definition c0 : C2 := (0, 0).
Definition c1 : C2 := (1, 0).
Definition cadd (x y : C2) : C2 := (fst x + fst y, snd x + snd y).
Definition cmul (x y : C2) : C2 := (fst x * fst y - snd x * snd y, snd x * fst y + fst x * snd y).
Definition copp (x : C2) : C2 := (- fst x, - snd x).
Definition csub (x y : C2) : C2 := (fst x - fst y, snd x - snd y).
Definition cnorm2 (x : C2) : R := fst x * fst x + snd x * snd x.
Definition cinv (x : C2) : C2 := (fst x / cnorm2 x, - snd x / cnorm2 x).

Lemma c2_eq (x y : C2) : fst x = fst y -> snd x = snd y -> x = y.
Proof. destruct x, y; cbn. now intros -> ->. Qed.
Lemma Cring : ring_theory c0 c1 cadd cmul csub copp eq.
Proof. constructor; intros; apply c2_eq; cbn; ring. Qed.
Lemma cnorm2_pos x : x <> c0 -> cnorm2 x <> 0.
Proof.
  intros H E. apply H. unfold cnorm2 in E. apply c2_eq; cbn; nra.
Qed.
Lemma Cinv_ok (x : C2) : x <> c0 -> cmul x (cinv x) = c1.
Proof.
  intros H. pose proof (cnorm2_pos x H) as Hn. unfold cnorm2 in Hn.
  apply c2_eq; unfold cinv, cnorm2; cbn; field; exact Hn.
Qed.

Section LinC.
Context (inf : R).
Notation RI := (RA inf).
Notation mat := (mat RI).
Notation vec := (vec RI).
Notation gaussC := (@gauss C2 c0 cadd cmul copp cinv).
Notation stageC := (@stage C2 c0 cadd cmul copp cinv).
Notation solvesC := (@solves C2 c0 cadd cmul).
Notation cat2 := (@cat2 RI).
Notation cat1 := (@cat1 RI).

Lemma c_zero_true (x : C2) : @c_zero RI x = true -> x = c0.
Proof.
  unfold c_zero, cmag. intros H. apply eqb_true_R in H. cbn in H.
  pose proof (Rabs_pos (fst x)). pose proof (Rabs_pos (snd x)).
  apply c2_eq; cbn; destruct (Req_dec (fst x) 0), (Req_dec (snd x) 0); auto;
    repeat match goal with K : _ <> 0 |- _ => apply Rabs_pos_lt in K end; lra.
Qed.
Lemma c_zero_false (x : C2) : @c_zero RI x = false -> x <> c0.
Proof.
  unfold c_zero, cmag. intros H ->. apply eqb_false_R in H. apply H. cbn. rewrite Rabs_R0. lra.
Qed.
Lemma c_inv_R (x : C2) : x <> c0 -> (@c_inv RI x : C2) = cinv x.
Proof.
  intros H. pose proof (cnorm2_pos x H) as Hn. unfold cnorm2 in Hn.
  unfold c_inv. cbn [RI RA div mul add opp]. rewrite !rdiv_ok by exact Hn. reflexivity.
Qed.
Lemma c_div_R (x d : C2) : d <> c0 -> (@c_div RI x d : C2) = cmul x (cinv d).
Proof.
  intros H. pose proof (cnorm2_pos d H) as Hn. unfold cnorm2 in Hn.
  unfold c_div. cbn [RI RA div mul add sub opp]. rewrite !rdiv_ok by exact Hn.
  apply c2_eq; unfold cinv, cnorm2; cbn; field; exact Hn.
Qed.
Lemma c_prod_R (x t : C2) : (@c_prod RI x t : C2) = cmul x t.
Proof.
  destruct x as [xr xi], t as [tr ti]. unfold c_prod, cprod. cbn [fst snd].
  destruct (eqb RI ti n0) eqn:E1; [|destruct (eqb RI tr n0) eqn:E2].
  - apply eqb_true_R in E1. subst ti. apply c2_eq; cbn; ring.
  - apply eqb_true_R in E2. subst tr. apply c2_eq; cbn; ring.
  - reflexivity.
Qed.

Definition cm (x : C2) : R := Rabs (fst x) + Rabs (snd x).
Lemma cm_0 x : cm x <= 0 -> x = c0.
Proof.
  unfold cm. intros H. pose proof (Rabs_pos (fst x)). pose proof (Rabs_pos (snd x)).
  apply c2_eq; cbn; destruct (Req_dec (fst x) 0), (Req_dec (snd x) 0); auto;
    repeat match goal with K : _ <> 0 |- _ => apply Rabs_pos_lt in K end; lra.
Qed.

Lemma pivot_search_c_max n (ar ai : mat) k lo hi m : shaped n n ar -> shaped n n ai -> (k < n)%nat ->
  (k < lo)%nat -> (lo <= hi)%nat -> (hi <= n)%nat ->
  pivot_search_c ar ai k lo hi = Ok m ->
  cm (cat2 ar ai k k) <= cm (cat2 ar ai m k) /\ forall i, (lo <= i < hi)%nat -> cm (cat2 ar ai i k) <= cm (cat2 ar ai m k).
Proof.
  intros Hr Hi Hk Hlo Hlh Hhi H. unfold pivot_search_c in H.
  match type of H with for_range lo hi ?g k = _ => destruct (for_range_ind lo hi g
    (fun i m => (m = k \/ lo <= m < i)%nat /\ cm (cat2 ar ai k k) <= cm (cat2 ar ai m k) /\
       forall q, (lo <= q < i)%nat -> cm (cat2 ar ai q k) <= cm (cat2 ar ai m k)) k) as (m' & E & H0) end.
  - split; [now left|]. split; [apply Rle_refl|]. intros q Hq. lia.
  - intros i m1 Hi1 (Hm & H1 & H2). rewrite !(mget_ok n n) by (auto; lia). cbn [bind].
    eexists. split; [reflexivity|]. unfold cmag.
    destruct (ltb RI _ _) eqn:E; cbn in E.
    + apply Rltb_true in E. change (cm (cat2 ar ai m1 k) < cm (cat2 ar ai i k)) in E.
      split; [lia|]. split; [lra|]. intros q Hq.
      destruct (Nat.eq_dec q i) as [->|]; [apply Rle_refl|]. specialize (H2 q ltac:(lia)). lra.
    + apply Rltb_false in E. change (cm (cat2 ar ai i k) <= cm (cat2 ar ai m1 k)) in E.
      split; [lia|]. split; [exact H1|]. intros q Hq.
      destruct (Nat.eq_dec q i) as [->|]; [exact E|]. apply H2. lia.
  - exact Hlh.
  - assert (m' = m) as -> by congruence. tauto.
Qed.

Definition bandedC (n lb : nat) (a : nat -> nat -> C2) : Prop :=
  forall i j, (i < n)%nat -> (j < n)%nat -> (j + lb < i)%nat -> a i j = c0.

Ltac ceq := apply c2_eq; cbn; lra.

Lemma decc_stage_C n lb k (ar ai : mat) ip :
  shaped n n ar -> shaped n n ai -> length ip = n -> (S k < n)%nat -> bandedC n lb (cat2 ar ai) ->
  exists m ip', (k <= m < n)%nat /\ length ip' = n /\
    (forall q, (q < n - 1)%nat -> nth q ip' 0%Z = if Nat.eqb q k then Z.of_nat m else nth q ip 0%Z) /\
    (((forall i, (k <= i < n)%nat -> cat2 ar ai i k = c0) /\ exists ar' ai',
       decc_stage n (Nat.min n (lb + k + 1)) (Nat.min n (lb + k + 1)) k (ar, ai, ip) = Ok (inr (k, ar', ai', ip')) /\
       shaped n n ar' /\ shaped n n ai') \/
     (exists ar' ai', decc_stage n (Nat.min n (lb + k + 1)) (Nat.min n (lb + k + 1)) k (ar, ai, ip) = Ok (inl (ar', ai', ip')) /\
       shaped n n ar' /\ shaped n n ai' /\
       stageC n k m (cat2 ar ai) (cat2 ar' ai') /\ bandedC n lb (cat2 ar' ai'))).
Proof.
  intros Hr Hi Hl Hk Hb. set (na := Nat.min n (lb + k + 1)).
  destruct (decc_stage_ok n na na k ar ai ip Hr Hi Hl Hk ltac:(lia) ltac:(lia) ltac:(lia) ltac:(lia))
    as (m & Em & Hm & ip' & Hl' & Hip & H).
  exists m, ip'. split; [lia|]. split; [exact Hl'|]. split; [exact Hip|].
  pose proof (pivot_search_c_max n ar ai k (S k) na m Hr Hi ltac:(lia) ltac:(lia) ltac:(lia) ltac:(lia) Em) as (Mk & Mi).
  destruct H as [(Et & ar' & ai' & E & Hr' & Hi')|(Et & ar' & ai' & E & Hr' & Hi' & Hv)].
  - left. apply c_zero_true in Et. split; [|eauto].
    assert (cm (cat2 ar ai m k) = 0) as Hcm.
    { etransitivity; [exact (f_equal cm Et)|]. unfold cm. cbn. rewrite Rabs_R0. lra. }
    intros i Hii. apply cm_0. rewrite <- Hcm.
    destruct (Nat.eq_dec i k) as [->|Hne]; [exact Mk|destruct (le_lt_dec na i) as [Hge|Hlt]].
    + rewrite (Hb i k) by lia. unfold cm at 1. cbn. rewrite Rabs_R0, Hcm. lra.
    + apply Mi. lia.
  - right. apply c_zero_false in Et. exists ar', ai'. split; [exact E|]. split; [exact Hr'|]. split; [exact Hi'|].
    assert (forall i, (k < i)%nat -> (i < n)%nat -> (na <= i)%nat -> cat2 ar ai (swp k m i) k = c0) as Hout.
    { intros i H1 H2 H3. assert (swp k m i = i) as -> by (unfold swp; nbool). apply Hb; lia. }
    assert (forall x : C2, (@c_opp RI (@c_mul RI x (@c_inv RI (cat2 ar ai m k))) : C2) = cmul x (copp (cinv (cat2 ar ai m k)))) as Hmul.
    { intros x. rewrite c_inv_R by exact Et. ceq. }
    assert (stageC n k m (cat2 ar ai) (cat2 ar' ai')) as Hst.
    { constructor.
      - lia.
      - exact Et.
      - intros i j Hii Hj. rewrite Hv by lia. now rewrite (proj2 (Nat.ltb_lt j k) Hj).
      - intros i Hii. rewrite Hv by lia. rewrite Nat.ltb_irrefl, Nat.eqb_refl.
        destruct (Nat.ltb_spec k i) as [Hki|Hki]; cbn [andb]; [|reflexivity].
        destruct (Nat.ltb_spec i na) as [Hin|Hin]; [apply Hmul|].
        rewrite (Hout i) by lia. ceq.
      - intros i j Hii Hj. rewrite Hv by lia. rewrite (proj2 (Nat.ltb_ge j k)) by lia.
        rewrite (proj2 (Nat.eqb_neq j k)) by lia. cbv zeta.
        destruct (Nat.ltb_spec k i) as [Hki|Hki]; cbn [andb]; [|reflexivity].
        destruct (Nat.ltb_spec i na) as [Hin|Hin]; cbn [andb].
        + destruct (c_zero (cat2 ar ai m j)) eqn:Ej; cbn [negb].
          * apply c_zero_true in Ej. rewrite Ej. ceq.
          * rewrite Hmul, c_prod_R. reflexivity.
        + rewrite (Hout i) by lia. ceq. }
    split; [exact Hst|]. intros i j Hii Hj Hij. destruct Hst as [_ _ Hlt Heq Hgt].
    destruct (Nat.lt_trichotomy j k) as [Hjk|[->|Hjk]].
    + rewrite Hlt by lia. apply Hb; lia.
    + rewrite Heq by lia. rewrite (proj2 (Nat.ltb_lt k i)) by lia. rewrite Hout by lia. ceq.
    + rewrite Hgt by lia. rewrite (proj2 (Nat.ltb_lt k i)) by lia. rewrite (Hout i) by lia.
      assert (swp k m i = i) as -> by (unfold swp; nbool). rewrite (Hb i j) by lia. ceq.
Qed.

Lemma gauss_extC n (p p' : nat -> nat) k a a' : (forall q, (q < k)%nat -> p q = p' q) ->
  gaussC n p k a a' -> gaussC n p' k a a'.
Proof.
  intros H G. induction G as [|k a a1 a2 _ IH Hs]; [constructor|].
  econstructor; [apply IH; intros q Hq; apply H; lia|]. rewrite <- H by lia. exact Hs.
Qed.

Lemma dechc_C n lb (ar ai : mat) ip : (0 < n)%nat -> (0 < lb)%nat -> shaped n n ar -> shaped n n ai ->
  length ip = n -> bandedC n lb (cat2 ar ai) ->
  exists ier ar' ai' ip', dechc n ar ai lb ip = Ok (ier, ar', ai', ip') /\
  shaped n n ar' /\ shaped n n ai' /\ length ip' = n /\
  exists p k ak,
   ((ier = k /\ (k < n - 1)%nat /\ gaussC n p k (cat2 ar ai) ak /\ forall i, (k <= i < n)%nat -> ak i k = c0) \/
    (gaussC n p (n - 1) (cat2 ar ai) (cat2 ar' ai') /\ pivots n (n - 1) p ip' /\ bandedC n lb (cat2 ar' ai') /\
     ((ier = O /\ cat2 ar' ai' (n - 1)%nat (n - 1)%nat <> c0) \/ (ier = n /\ cat2 ar' ai' (n - 1)%nat (n - 1)%nat = c0)))).
Proof.
  intros Hn Hlb Hr Hi Hl Hb. unfold dechc. rewrite usub_ok by lia. cbn [bind]. rewrite vset_ok by lia. cbn [bind].
  rewrite (proj2 (Nat.eqb_neq lb 0)) by lia. cbn [negb]. cbv zeta.
  set (Q := fun r : nat * mat * mat * list Z => shaped n n (snd (fst (fst r))) /\ shaped n n (snd (fst r)) /\ length (snd r) = n /\
     exists p ak, (fst (fst (fst r)) < n - 1)%nat /\ gaussC n p (fst (fst (fst r))) (cat2 ar ai) ak /\
       forall i, (fst (fst (fst r)) <= i < n)%nat -> ak i (fst (fst (fst r))) = c0).
  set (I := fun (k : nat) (st : mat * mat * list Z) => shaped n n (fst (fst st)) /\ shaped n n (snd (fst st)) /\ length (snd st) = n /\
     bandedC n lb (cat2 (fst (fst st)) (snd (fst st))) /\
     exists p, gaussC n p k (cat2 ar ai) (cat2 (fst (fst st)) (snd (fst st))) /\ pivots n k p (snd st)).
  destruct (for_range_ret_ind 0 (n - 1) (fun k => decc_stage n (Nat.min n (lb + k + 1)) (Nat.min n (lb + k + 1)) k) I Q (ar, ai, upd ip (n - 1) 1%Z))
    as [([[ar' ai'] ip'] & E & H1 & H1' & H2 & H3 & p & H4 & H5)|([[[ier ar'] ai'] ip'] & E & H1 & H1' & H2 & p & ak & H3 & H4 & H5)].
  - split; [exact Hr|]. split; [exact Hi|]. split; [cbn; now rewrite upd_length|]. split; [exact Hb|].
    exists (fun _ => O). split; [constructor|]. intros q Hq. lia.
  - lia.
  - intros k [[b c] jp] Hk (Hsb & Hsc & Hlj & Hbb & p & Hg & Hp). cbn [fst snd] in *.
    destruct (decc_stage_C n lb k b c jp) as (m & ip' & Hm & Hl' & Hip & H); auto; try lia.
    destruct H as [(Hz & a' & b' & E & Ha' & Hc')|(a' & b' & E & Ha' & Hc' & Hst & Hb')]; rewrite E.
    + right. eexists. split; [reflexivity|]. unfold Q. cbn [fst snd].
      split; [exact Ha'|]. split; [exact Hc'|]. split; [exact Hl'|]. exists p, (cat2 b c). split; [lia|]. split; assumption.
    + left. eexists. split; [reflexivity|]. unfold I. cbn [fst snd]. split; [exact Ha'|]. split; [exact Hc'|]. split; [exact Hl'|].
      split; [exact Hb'|]. exists (fun q => if Nat.eqb q k then m else p q). split.
      * econstructor.
        -- apply (gauss_extC n p); [|exact Hg]. intros q Hq. now rewrite (proj2 (Nat.eqb_neq q k)) by lia.
        -- rewrite Nat.eqb_refl. exact Hst.
      * intros q Hq Hq2. rewrite Hip by lia. destruct (Nat.eqb_spec q k) as [->|Hne].
        -- split; [reflexivity|lia].
        -- apply Hp; lia.
  - rewrite E. cbn [bind fst snd] in *. unfold decc_last. rewrite usub_ok by lia. cbn [bind].
    rewrite !(mget_ok n n) by (auto; lia). cbn [bind].
    destruct (eqb RI _ _) eqn:Ez.
    + rewrite vset_ok by lia. cbn [bind]. exists n, ar', ai', (upd ip' (n - 1) 0%Z).
      split; [reflexivity|]. split; [exact H1|]. split; [exact H1'|]. split; [now rewrite upd_length|].
      exists p, O, (cat2 ar ai). right. split; [exact H4|]. split.
      { intros q Hq Hq2. rewrite upd_nth by lia. rewrite (proj2 (Nat.eqb_neq q (n - 1))) by lia. now apply H5. }
      split; [exact H3|]. right. split; [reflexivity|]. apply (c_zero_true (cat2 ar' ai' (n - 1)%nat (n - 1)%nat)). exact Ez.
    + exists O, ar', ai', ip'. split; [reflexivity|]. split; [exact H1|]. split; [exact H1'|]. split; [exact H2|].
      exists p, O, (cat2 ar ai). right. split; [exact H4|]. split; [exact H5|].
      split; [exact H3|]. left. split; [reflexivity|]. apply (c_zero_false (cat2 ar' ai' (n - 1)%nat (n - 1)%nat)). exact Ez.
  - rewrite E. cbn [bind fst snd] in *. exists ier, ar', ai', ip'. split; [reflexivity|]. split; [exact H1|]. split; [exact H1'|]. split; [exact H2|].
    exists p, ier, ak. left. auto.
Qed.

Lemma decc_dechc n (ar ai : mat) ip : (0 < n)%nat -> decc n ar ai ip = dechc n ar ai n ip.
Proof.
  intros Hn. unfold decc, dechc. rewrite (proj2 (Nat.eqb_neq n 0)) by lia. cbn [negb].
  apply bind_ext. intros m. apply bind_ext. intros jp. f_equal.
  apply for_range_ret_ext. intros k s. cbv zeta. now rewrite min_full by lia.
Qed.

Lemma solc_C n (a : nat -> nat -> C2) (ar ai : mat) (p : nat -> nat) (br bi : vec) ip :
  (0 < n)%nat -> shaped n n ar -> shaped n n ai -> length ip = n -> (n <= length br)%nat -> (n <= length bi)%nat ->
  gaussC n p (n - 1) a (cat2 ar ai) -> pivots n (n - 1) p ip ->
  cat2 ar ai (n - 1)%nat (n - 1)%nat <> c0 ->
  exists xr xi, solc n ar ai br bi ip = Ok (xr, xi) /\ length xr = length br /\ length xi = length bi /\
    solvesC n a (cat1 xr xi) (cat1 br bi).
Proof.
  intros Hn Hr Hi Hl Hlr Hli Hg Hp Hz.
  set (M := msk c0 (n - 1) (cat2 ar ai)). set (F := fwds cadd cmul p (cat2 ar ai) (n - 1) (cat1 br bi)).
  pose proof (full_upper c0 cadd cmul copp cinv n p a _ Hg) as HU.
  assert (forall i, (i < n)%nat -> M i i <> c0) as HD.
  { intros i Hii. apply (full_diag c0 cadd cmul copp cinv n p a); auto; lia. }
  assert (forall i, M i i = cat2 ar ai i i) as HMd.
  { intros i. unfold M, msk. now rewrite Nat.ltb_irrefl, andb_false_r. }
  assert (exists b1 d1, (if negb (Nat.eqb n 1)
     then let* nm1 := usub n 1 in
          let* st := for_range 0 nm1 (fwd_step_c ar ai ip n) (br, bi) in
          for_range 0 nm1 (bwd_step_c n ar ai (fun km1 => km1 + 1)%nat) st
     else Ok (br, bi)) = Ok (b1, d1) /\ length b1 = length br /\ length d1 = length bi /\
     @binv C2 c0 cadd cmul n M F 1 (cat1 b1 d1))
     as (b1 & d1 & E1 & L1 & L1' & B1).
  { assert (forall l l', length l = length br -> length l' = length bi -> (forall i, (i < n)%nat -> cat1 l l' i = F i) ->
      exists b1 d1, for_range 0 (n - 1) (bwd_step_c n ar ai (fun km1 => km1 + 1)%nat) (l, l') = Ok (b1, d1) /\
       length b1 = length br /\ length d1 = length bi /\
       @binv C2 c0 cadd cmul n M F 1 (cat1 b1 d1)) as Hbwd.
    { intros l l' Hll Hll' Hf.
      destruct (for_range_ind 0 (n - 1) (bwd_step_c n ar ai (fun km1 => km1 + 1)%nat)
         (fun q y => length (fst y) = length br /\ length (snd y) = length bi /\
         @binv C2 c0 cadd cmul n M F (n - q) (cat1 (fst y) (snd y))) (l, l'))
        as ([b1 d1] & E & L & L' & B).
      - split; [exact Hll|]. split; [exact Hll'|]. replace (n - 0)%nat with n by lia.
        now apply (binv_start c0 c1 cadd cmul csub copp Cring).
      - intros q [y z] Hq (Ly & Lz & By). cbn [fst snd] in *.
        destruct (bwd_step_c_ok n ar ai (fun km1 => km1 + 1)%nat q y z Hr Hi ltac:(lia) ltac:(lia) ltac:(lia) ltac:(cbn; lia))
          as (y' & z' & E & Ly' & Lz' & Hv).
        exists (y', z'). split; [exact E|]. cbn [fst snd]. split; [congruence|]. split; [congruence|].
        apply (binv_step c0 c1 cadd cmul csub copp cinv Cring Cinv_ok n M F (n - S q) (cat1 y z)).
        + exact HU.
        + lia.
        + apply HD. lia.
        + now replace (S (n - S q)) with (n - q)%nat by lia.
        + intros i Hii. rewrite Hv. unfold bstep. cbv zeta. replace (n - q - 1)%nat with (n - S q)%nat by lia.
          replace (n - q - 2 + 1)%nat with (n - S q)%nat by lia.
          rewrite HMd. rewrite c_div_R by (rewrite <- HMd; apply HD; lia).
          destruct (Nat.eqb i (n - S q)); [reflexivity|].
          destruct (Nat.ltb_spec i (n - S q)) as [Hlt|]; [|reflexivity].
          assert (M i (n - S q)%nat = cat2 ar ai i (n - S q)) as ->.
          { unfold M, msk. rewrite (proj2 (Nat.ltb_ge (n - S q) i)) by lia. now rewrite andb_false_r. }
          reflexivity.
      - lia.
      - exists b1, d1. split; [exact E|]. split; [exact L|]. split; [exact L'|]. now replace 1%nat with (n - (n - 1))%nat at 1 by lia. }
    destruct (Nat.eqb_spec n 1) as [->|Hn1]; cbn [negb].
    - destruct (Hbwd br bi eq_refl eq_refl) as (b1 & d1 & E & H).
      + intros i Hii. reflexivity.
      + cbn in E. injection E as <- <-. exists br, bi. split; [reflexivity|exact H].
    - rewrite usub_ok by lia. cbn [bind].
      destruct (for_range_ind 0 (n - 1) (fwd_step_c ar ai ip n)
        (fun q y => length (fst y) = length br /\ length (snd y) = length bi /\
          forall i, (i < n)%nat -> cat1 (fst y) (snd y) i = fwds cadd cmul p (cat2 ar ai) q (cat1 br bi) i) (br, bi))
        as ([l l'] & E & Ll & Ll' & Hf).
      + split; [reflexivity|]. split; reflexivity.
      + intros q [y z] Hq (Ly & Lz & Hy). cbn [fst snd] in *. destruct (Hp q ltac:(lia) ltac:(lia)) as (Ep & Lp).
        pose proof (proj2 (gauss_p c0 cadd cmul copp cinv n p _ _ _ Hg) q ltac:(lia)) as Hpq.
        destruct (fwd_step_c_ok n ar ai ip n q (p q) y z) as (y' & z' & E & Ly' & Lz' & Hv); auto; try lia.
        exists (y', z'). split; [exact E|]. cbn [fst snd]. split; [congruence|]. split; [congruence|].
        intros i Hii. rewrite Hv. cbn [fwds]. unfold fwd.
        rewrite !Hy by (try lia; apply swp_lt; lia).
        rewrite (proj2 (Nat.ltb_lt i n)) by lia. rewrite andb_true_r. reflexivity.
      + lia.
      + rewrite E. cbn [bind fst snd] in *. apply Hbwd; assumption. }
  unfold solc. rewrite E1. cbn [bind].
  destruct (cdiv_at_ok n ar ai 0 0 b1 d1) as (xr & xi & E & Lx & Lx' & Hv); auto; try lia.
  exists xr, xi. split; [exact E|]. split; [congruence|]. split; [congruence|].
  apply (full_solves c0 c1 cadd cmul csub copp cinv Cring Cinv_ok n p a (cat2 ar ai) (cat1 br bi)); [exact Hg|].
  apply (binv_end c0 c1 cadd cmul csub copp Cring).
  apply (binv_step c0 c1 cadd cmul csub copp cinv Cring Cinv_ok n M F 0 (cat1 b1 d1)).
  - exact HU.
  - lia.
  - apply HD. lia.
  - exact B1.
  - intros i Hii. rewrite Hv. unfold bstep. cbv zeta. rewrite HMd.
    rewrite c_div_R by (rewrite <- HMd; apply HD; lia).
    destruct (Nat.eqb_spec i 0) as [->|Hne]; [reflexivity|].
    now rewrite (proj2 (Nat.ltb_ge i 0)) by lia.
Qed.
End LinC.
