(** Facts about the complex routines of Linalg.v that hold in every
    arithmetic; a complex matrix is a pair of real ones. *)
From Coq Require Import ZArith List Bool Lia.
From Verif Require Import Arith Vec Core Linalg Driver VecFacts LinFacts.
Import ListNotations.

Section LinFactsC.
Context {A : arith}.
Implicit Types ar ai : mat A.
Local Open Scope num_scope.

Definition cnum : Type := num A * num A.
Definition cat2 (ar ai : mat A) (i j : nat) : cnum := (at2 ar i j, at2 ai i j).
Definition cat1 (br bi : vec A) (i : nat) : cnum := (at_ br i, at_ bi i).
Definition c_add (x y : cnum) : cnum := (fst x + fst y, snd x + snd y).
(** As the code computes a product: [prodr = xr tr - xi ti], [prodi = xi tr + xr ti]. *)
Definition c_mul (x t : cnum) : cnum :=
  (fst x * fst t - snd x * snd t, snd x * fst t + fst x * snd t).
Definition c_opp (x : cnum) : cnum := (- fst x, - snd x).
Definition c_zero (x : cnum) : bool := cmag (fst x) (snd x) =? n0.
(** [1/t] as the code computes it. *)
Definition c_inv (t : cnum) : cnum :=
  let den := fst t * fst t + snd t * snd t in (fst t / den, (- snd t) / den).
(** [x/d] as the solves compute it. *)
Definition c_div (x d : cnum) : cnum :=
  let den := fst d * fst d + snd d * snd d in
  ((fst x * fst d + snd x * snd d) / den, (snd x * fst d - fst x * snd d) / den).
Definition c_prod (x t : cnum) : cnum := cprod (fst x) (snd x) (fst t) (snd t).

Lemma pivot_search_c_ok n ar ai k lo hi : shaped n n ar -> shaped n n ai ->
  k < n -> k < lo -> lo <= hi -> hi <= n ->
  exists m, pivot_search_c ar ai k lo hi = Ok m /\ (m = k \/ lo <= m < hi).
Proof.
  intros Hr Hi Hk Hlo Hlh Hhi. unfold pivot_search_c.
  match goal with |- context [for_range lo hi ?g k] =>
    destruct (for_range_ind lo hi g (fun i m => m = k \/ lo <= m < i) k) as (m & E & H) end.
  - now left.
  - intros i m Hq Hm. rewrite !(mget_ok n n) by (auto; lia). cbn [bind].
    eexists. split; [reflexivity|]. destruct (ltb A _ _); lia.
  - exact Hlh.
  - eauto.
Qed.

Lemma scale_col_c_ok n ar ai k lo hi tr ti : shaped n n ar -> shaped n n ai ->
  k < n -> lo <= hi -> hi <= n ->
  exists ar' ai', scale_col_c k lo hi tr ti (ar, ai) = Ok (ar', ai') /\
    shaped n n ar' /\ shaped n n ai' /\
    forall i j, cat2 ar' ai' i j =
      if Nat.eqb j k && (Nat.leb lo i && Nat.ltb i hi) then c_opp (c_mul (cat2 ar ai i k) (tr, ti))
      else cat2 ar ai i j.
Proof.
  intros Hr Hi Hk Hlh Hhi. unfold scale_col_c.
  match goal with |- context [for_range lo hi ?g _] =>
    destruct (for_range_ind lo hi g
     (fun q st => shaped n n (fst st) /\ shaped n n (snd st) /\
      forall i j, cat2 (fst st) (snd st) i j =
      if Nat.eqb j k && (Nat.leb lo i && Nat.ltb i q) then c_opp (c_mul (cat2 ar ai i k) (tr, ti))
      else cat2 ar ai i j) (ar, ai)) as ([ar' ai'] & E & H1 & H2 & H3) end.
  - cbn [fst snd]. split; [assumption|]. split; [assumption|]. intros i j. nbool; reflexivity.
  - intros q [br bi] Hq (Hbr & Hbi & Hv). cbn [fst snd] in *.
    rewrite !(mget_ok n n) by (auto; lia). cbn [bind].
    match goal with |- context [mset br q k ?x] =>
      destruct (mset_ok n n br q k x) as (br' & Er & Hbr' & Hvr'); [auto|lia|lia|] end.
    match goal with |- context [mset bi q k ?x] =>
      destruct (mset_ok n n bi q k x) as (bi' & Ei & Hbi' & Hvi'); [auto|lia|lia|] end.
    rewrite Er. cbn [bind]. rewrite Ei. cbn [bind]. exists (br', bi').
    split; [reflexivity|]. cbn [fst snd]. split; [assumption|]. split; [assumption|].
    intros i j. unfold cat2. rewrite Hvr', Hvi'. fold (cat2 br bi i j).
    assert (cat2 br bi q k = cat2 ar ai q k) as Eq.
    { rewrite Hv. clear. nbool; reflexivity. }
    unfold cat2 in Eq. injection Eq as Eq1 Eq2. rewrite Eq1, Eq2.
    assert (cat2 br bi i j = (at2 br i j, at2 bi i j)) as Eij by reflexivity.
    destruct (Nat.eqb_spec i q) as [->|Hiq]; [destruct (Nat.eqb_spec j k) as [->|Hjk]|]; cbn [andb].
    + rewrite (proj2 (Nat.leb_le lo q)) by lia. rewrite (proj2 (Nat.ltb_lt q (S q))) by lia. reflexivity.
    + rewrite <- Eij, Hv. rewrite (proj2 (Nat.eqb_neq j k) Hjk). reflexivity.
    + rewrite <- Eij, Hv. replace (Nat.ltb i (S q)) with (Nat.ltb i q) by (clear - Hiq; nbool). reflexivity.
  - exact Hlh.
  - exists ar', ai'. auto.
Qed.

Lemma axpy_col_c_ok n ar ai k j lo hi tr ti : shaped n n ar -> shaped n n ai ->
  k < n -> j < n -> k <> j -> lo <= hi -> hi <= n ->
  exists ar' ai', axpy_col_c k j lo hi tr ti (ar, ai) = Ok (ar', ai') /\
    shaped n n ar' /\ shaped n n ai' /\
    forall i j', cat2 ar' ai' i j' =
      if Nat.eqb j' j && (Nat.leb lo i && Nat.ltb i hi)
      then c_add (cat2 ar ai i j) (c_prod (cat2 ar ai i k) (tr, ti)) else cat2 ar ai i j'.
Proof.
  intros Hr Hi Hk Hj Hkj Hlh Hhi. unfold axpy_col_c.
  match goal with |- context [for_range lo hi ?g _] =>
    destruct (for_range_ind lo hi g
     (fun q st => shaped n n (fst st) /\ shaped n n (snd st) /\
      forall i j', cat2 (fst st) (snd st) i j' =
      if Nat.eqb j' j && (Nat.leb lo i && Nat.ltb i q)
      then c_add (cat2 ar ai i j) (c_prod (cat2 ar ai i k) (tr, ti)) else cat2 ar ai i j') (ar, ai))
      as ([ar' ai'] & E & H1 & H2 & H3) end.
  - cbn [fst snd]. split; [assumption|]. split; [assumption|]. intros i j'. nbool; reflexivity.
  - intros q [br bi] Hq (Hbr & Hbi & Hv). cbn [fst snd] in *.
    rewrite !(mget_ok n n) by (auto; lia). cbn [bind].
    assert (cat2 br bi q k = cat2 ar ai q k) as Eq.
    { rewrite Hv. clear - Hkj. nbool; reflexivity. }
    assert (cat2 br bi q j = cat2 ar ai q j) as Eq'.
    { rewrite Hv. clear. nbool; reflexivity. }
    unfold cat2 in Eq, Eq'. injection Eq as Eq1 Eq2. injection Eq' as Eq3 Eq4.
    rewrite Eq1, Eq2. 
    destruct (cprod (at2 ar q k) (at2 ai q k) tr ti) as [pr pi] eqn:Ep.
    rewrite ?(mget_ok n n) by (auto; lia). cbn [bind]. rewrite Eq3, ?Eq4.
    match goal with |- context [mset br q j ?x] =>
      destruct (mset_ok n n br q j x) as (br' & Er & Hbr' & Hvr'); [auto|lia|lia|] end.
    rewrite Er. cbn [bind]. rewrite ?(mget_ok n n) by (auto; lia). cbn [bind]. rewrite ?Eq4.
    match goal with |- context [mset bi q j ?x] =>
      destruct (mset_ok n n bi q j x) as (bi' & Ei & Hbi' & Hvi'); [auto|lia|lia|] end.
    rewrite Ei. cbn [bind]. exists (br', bi').
    split; [reflexivity|]. cbn [fst snd]. split; [assumption|]. split; [assumption|].
    intros i j'. unfold cat2. rewrite Hvr', Hvi'.
    assert (cat2 br bi i j' = (at2 br i j', at2 bi i j')) as Eij by reflexivity.
    destruct (Nat.eqb_spec i q) as [->|Hiq]; [destruct (Nat.eqb_spec j' j) as [->|Hjk]|]; cbn [andb].
    + rewrite (proj2 (Nat.leb_le lo q)) by lia. rewrite (proj2 (Nat.ltb_lt q (S q))) by lia.
      cbn [andb]. unfold c_add, c_prod. cbn [fst snd]. rewrite Ep. reflexivity.
    + rewrite <- Eij, Hv. rewrite (proj2 (Nat.eqb_neq j' j) Hjk). reflexivity.
    + rewrite <- Eij, Hv. replace (Nat.ltb i (S q)) with (Nat.ltb i q) by (clear - Hiq; nbool). reflexivity.
  - exact Hlh.
  - exists ar', ai'. auto.
Qed.

(** Exchange of two entries of a column, as the complex code does it. *)
Lemma swap_col_ok n (a : mat A) k m j : shaped n n a -> k < n -> m < n -> j < n ->
  exists a1 a2, mset a m j (at2 a k j) = Ok a1 /\ shaped n n a1 /\
    mset a1 k j (at2 a m j) = Ok a2 /\ shaped n n a2 /\
    forall i j', at2 a2 i j' = if Nat.eqb j' j then at2 a (swp k m i) j else at2 a i j'.
Proof.
  intros Ha Hk Hm Hj.
  destruct (mset_ok n n a m j (at2 a k j)) as (a1 & E1 & Ha1 & Hv1); [auto|lia|lia|].
  destruct (mset_ok n n a1 k j (at2 a m j)) as (a2 & E2 & Ha2 & Hv2); [auto|lia|lia|].
  exists a1, a2. repeat split; auto. intros i j'. rewrite Hv2, Hv1. unfold swp. nbool; reflexivity.
Qed.

Definition elim_entry_c (a : nat -> nat -> cnum) (k m lo hi i j : nat) : cnum :=
  let t := a m j in
  if Nat.leb lo i && Nat.ltb i hi && negb (c_zero t)
  then c_add (a (swp k m i) j) (c_prod (a i k) t) else a (swp k m i) j.

Lemma elim_col_c_ok n ar ai k m lo hi j : shaped n n ar -> shaped n n ai ->
  k < n -> m < n -> j < n -> k < j -> k < lo -> lo <= hi -> hi <= n ->
  exists ar' ai', elim_col_c k m lo hi j (ar, ai) = Ok (ar', ai') /\
    shaped n n ar' /\ shaped n n ai' /\
    forall i j', cat2 ar' ai' i j' =
      if Nat.eqb j' j then elim_entry_c (cat2 ar ai) k m lo hi i j else cat2 ar ai i j'.
Proof.
  intros Hr Hi Hk Hm Hj Hkj Hlo Hlh Hhi. unfold elim_col_c.
  rewrite !(mget_ok n n) by (auto; lia). cbn [bind].
  destruct (swap_col_ok n ar k m j) as (r1 & r2 & E1 & S1 & E2 & S2 & Vr); auto.
  destruct (swap_col_ok n ai k m j) as (i1 & i2 & F1 & T1 & F2 & T2 & Vi); auto.
  rewrite E1. cbn [bind]. rewrite F1. cbn [bind]. rewrite E2. cbn [bind]. rewrite F2. cbn [bind].
  destruct (eqb A (cmag (at2 ar m j) (at2 ai m j)) n0) eqn:Et.
  - exists r2, i2. split; [reflexivity|]. split; [assumption|]. split; [assumption|].
    intros i j'. unfold elim_entry_c, c_zero. cbn [cat2 fst snd]. rewrite Et. cbn [negb].
    rewrite andb_false_r. unfold cat2. rewrite Vr, Vi. destruct (Nat.eqb j' j); reflexivity.
  - destruct (axpy_col_c_ok n r2 i2 k j lo hi (at2 ar m j) (at2 ai m j)) as (r3 & i3 & E3 & S3 & T3 & V3);
      auto; try lia.
    exists r3, i3. split; [exact E3|]. split; [assumption|]. split; [assumption|].
    intros i j'. rewrite V3. unfold elim_entry_c, c_zero. cbn [cat2 fst snd]. rewrite Et. cbn [negb].
    rewrite andb_true_r. unfold cat2. rewrite !Vr, !Vi. rewrite Nat.eqb_refl.
    rewrite (proj2 (Nat.eqb_neq k j)) by lia.
    destruct (Nat.eqb j' j); cbn [andb]; reflexivity.
Qed.

Lemma elim_cols_c_ok n ar ai k m lo hi : shaped n n ar -> shaped n n ai ->
  k < n -> m < n -> k < lo -> lo <= hi -> hi <= n ->
  exists ar' ai', for_range (S k) n (elim_col_c k m lo hi) (ar, ai) = Ok (ar', ai') /\
    shaped n n ar' /\ shaped n n ai' /\
    forall i j, cat2 ar' ai' i j =
      if Nat.ltb k j && Nat.ltb j n then elim_entry_c (cat2 ar ai) k m lo hi i j else cat2 ar ai i j.
Proof.
  intros Hr Hi Hk Hm Hlo Hlh Hhi.
  destruct (for_range_ind (S k) n (elim_col_c k m lo hi)
    (fun q st => shaped n n (fst st) /\ shaped n n (snd st) /\
     forall i j, cat2 (fst st) (snd st) i j =
      if Nat.ltb k j && Nat.ltb j q then elim_entry_c (cat2 ar ai) k m lo hi i j else cat2 ar ai i j)
    (ar, ai)) as ([ar' ai'] & E & H1 & H2 & H3).
  - cbn [fst snd]. split; [assumption|]. split; [assumption|]. intros i j. nbool; reflexivity.
  - intros q [br bi] Hq (Hbr & Hbi & Hv). cbn [fst snd] in *.
    destruct (elim_col_c_ok n br bi k m lo hi q) as (br' & bi' & E & Hbr' & Hbi' & Hv'); auto; try lia.
    exists (br', bi'). split; [exact E|]. cbn [fst snd]. split; [assumption|]. split; [assumption|].
    intros i j. rewrite Hv'.
    assert (elim_entry_c (cat2 br bi) k m lo hi i q = elim_entry_c (cat2 ar ai) k m lo hi i q) as ->.
    { unfold elim_entry_c. rewrite !Hv.
      rewrite !Nat.ltb_irrefl. cbn [andb]. rewrite andb_false_r. reflexivity. }
    rewrite Hv. clear - Hq. nbool; reflexivity.
  - lia.
  - exists ar', ai'. auto.
Qed.

Lemma decc_stage_ok n nsc na k ar ai ip :
  shaped n n ar -> shaped n n ai -> length ip = n -> S k < n ->
  S k <= na -> na <= n -> na <= nsc -> nsc <= n ->
  exists m, pivot_search_c ar ai k (S k) na = Ok m /\ (m = k \/ S k <= m < na) /\
  let t := cat2 ar ai m k in
  exists ip', length ip' = n /\
    (forall q, q < n - 1 -> nth q ip' 0%Z = if Nat.eqb q k then Z.of_nat m else nth q ip 0%Z) /\
  ((c_zero t = true /\ exists ar' ai',
      decc_stage n nsc na k (ar, ai, ip) = Ok (inr (k, ar', ai', ip')) /\
      shaped n n ar' /\ shaped n n ai') \/
   (c_zero t = false /\ exists ar' ai',
      decc_stage n nsc na k (ar, ai, ip) = Ok (inl (ar', ai', ip')) /\
      shaped n n ar' /\ shaped n n ai' /\
      (forall i j, i < n -> j < n -> cat2 ar' ai' i j =
         if Nat.ltb j k then cat2 ar ai i j
         else if Nat.eqb j k
              then if Nat.ltb k i && Nat.ltb i nsc
                   then c_opp (c_mul (cat2 ar ai (swp k m i) k) (c_inv t))
                   else cat2 ar ai (swp k m i) k
              else let tj := cat2 ar ai m j in
                   if Nat.ltb k i && Nat.ltb i na && negb (c_zero tj)
                   then c_add (cat2 ar ai (swp k m i) j)
                          (c_prod (c_opp (c_mul (cat2 ar ai (swp k m i) k) (c_inv t))) tj)
                   else cat2 ar ai (swp k m i) j))).
Proof.
  intros Hr Hi Hl Hk Hna Hnan Hsc Hscn.
  destruct (pivot_search_c_ok n ar ai k (S k) na) as (m & Em & Hm); auto; try lia.
  exists m. split; [exact Em|]. split; [exact Hm|]. cbv zeta.
  assert (m < n) as Hmn by lia.
  unfold decc_stage. rewrite Em. cbn [bind].
  rewrite vset_ok by lia. cbn [bind].
  rewrite !(mget_ok n n _ m k) by (auto; lia). cbn [bind].
  set (ip1 := upd ip k (Z.of_nat m)).
  assert (length ip1 = n) as Hl1 by (unfold ip1; now rewrite upd_length).
  assert (forall q, nth q ip1 0%Z = if Nat.eqb q k then Z.of_nat m else nth q ip 0%Z) as Hip1.
  { intros q. unfold ip1. rewrite upd_nth by lia. reflexivity. }
  assert (exists r2 i2 ip2, (if negb (Nat.eqb m k)
     then let* ip := flip_sign n ip1 in
          let* xr := mget ar k k in let* ar' := mset ar m k xr in
          let* xi := mget ai k k in let* ai' := mset ai m k xi in
          let* ar' := mset ar' k k (at2 ar m k) in
          let* ai' := mset ai' k k (at2 ai m k) in
          Ok (ar', ai', ip)
     else Ok (ar, ai, ip1)) = Ok (r2, i2, ip2) /\ shaped n n r2 /\ shaped n n i2 /\ length ip2 = n /\
     (forall q, q < n - 1 -> nth q ip2 0%Z = nth q ip1 0%Z) /\
     (forall i j, cat2 r2 i2 i j = if Nat.eqb j k then cat2 ar ai (swp k m i) k else cat2 ar ai i j))
    as (r2 & i2 & ip2 & E1 & Hr2 & Hi2 & Hl2 & Hip2 & Hv1).
  { destruct (Nat.eqb_spec m k) as [->|Hmk]; cbn [negb].
    - exists ar, ai, ip1. split; [reflexivity|]. split; [assumption|]. split; [assumption|].
      split; [assumption|]. split; [auto|]. intros i j. unfold swp. nbool; reflexivity.
    - destruct (flip_sign_ok n ip1) as (ip2 & E2 & Hl2 & Hip2); [assumption|lia|].
      rewrite E2. cbn [bind]. rewrite !(mget_ok n n _ k k) by (auto; lia). cbn [bind].
      destruct (swap_col_ok n ar k m k) as (q1 & q2 & F1 & S1 & F2 & S2 & Vr); auto; try lia.
      destruct (swap_col_ok n ai k m k) as (p1 & p2 & G1 & T1 & G2 & T2 & Vi); auto; try lia.
      rewrite F1. cbn [bind]. rewrite G1. cbn [bind]. rewrite F2. cbn [bind]. rewrite G2. cbn [bind].
      exists q2, p2, ip2. split; [reflexivity|]. split; [assumption|]. split; [assumption|].
      split; [assumption|]. split; [assumption|]. intros i j. unfold cat2. rewrite Vr, Vi.
      destruct (Nat.eqb j k); reflexivity. }
  rewrite E1. cbn [bind].
  assert (forall q, q < n - 1 -> nth q ip2 0%Z = if Nat.eqb q k then Z.of_nat m else nth q ip 0%Z) as Hip.
  { intros q Hq. rewrite Hip2, Hip1 by assumption. reflexivity. }
  unfold c_zero at 1 2. cbn [cat2 fst snd].
  destruct (eqb A (cmag (at2 ar m k) (at2 ai m k)) n0) eqn:Et.
  - rewrite usub_ok by lia. cbn [bind]. rewrite vset_ok by lia. cbn [bind].
    exists (upd ip2 (n - 1) 0%Z). rewrite upd_length. split; [assumption|]. split.
    { intros q Hq. rewrite upd_nth by lia. destruct (Nat.eqb_spec q (n - 1)); [lia|]. now apply Hip. }
    left. split; [reflexivity|]. eauto.
  - exists ip2. split; [assumption|]. split; [assumption|]. right. split; [reflexivity|].
    match goal with |- context [scale_col_c k (S k) nsc ?tr ?ti _] =>
    destruct (scale_col_c_ok n r2 i2 k (S k) nsc tr ti) as (r3 & i3 & E2 & Hr3 & Hi3 & Hv2);
      [auto|auto|lia|lia|lia|] end.
    rewrite E2. cbn [bind].
    destruct (elim_cols_c_ok n r3 i3 k m (S k) na) as (r4 & i4 & E3 & Hr4 & Hi4 & Hv3); auto; try lia.
    rewrite E3. cbn [bind]. exists r4, i4. split; [reflexivity|]. split; [assumption|].
    split; [assumption|].
    intros i j Hii Hj. rewrite Hv3. cbv zeta.
    change (at2 ar m k / (at2 ar m k * at2 ar m k + at2 ai m k * at2 ai m k),
            (- at2 ai m k) / (at2 ar m k * at2 ar m k + at2 ai m k * at2 ai m k))
      with (c_inv (cat2 ar ai m k)) in Hv2.
    destruct (Nat.ltb_spec j k) as [Hjk|Hjk].
    + rewrite (proj2 (Nat.ltb_ge k j)) by lia. cbn [andb]. rewrite Hv2, !Hv1.
      rewrite (proj2 (Nat.eqb_neq j k)) by lia. reflexivity.
    + destruct (Nat.eqb_spec j k) as [->|Hne].
      * rewrite Nat.ltb_irrefl. cbn [andb]. rewrite Hv2, !Hv1, Nat.eqb_refl. cbn [andb].
        change (Nat.leb (S k) i) with (Nat.ltb k i). reflexivity.
      * rewrite (proj2 (Nat.ltb_lt k j)) by lia. rewrite (proj2 (Nat.ltb_lt j n)) by lia.
        cbn [andb]. unfold elim_entry_c. cbv zeta.
        assert (forall i, cat2 r3 i3 i j = cat2 ar ai i j) as Hj2.
        { intros q. rewrite Hv2, !Hv1. rewrite (proj2 (Nat.eqb_neq j k)) by lia. reflexivity. }
        rewrite !Hj2. change (Nat.leb (S k) i) with (Nat.ltb k i).
        destruct (Nat.ltb k i && Nat.ltb i na) eqn:Ei; cbn [andb]; [|reflexivity].
        apply andb_prop in Ei. destruct Ei as [Ei1 Ei2].
        assert (cat2 r3 i3 i k = c_opp (c_mul (cat2 ar ai (swp k m i) k) (c_inv (cat2 ar ai m k)))) as ->.
        { rewrite Hv2, !Hv1, Nat.eqb_refl. change (Nat.leb (S k) i) with (Nat.ltb k i).
          rewrite Ei1. apply Nat.ltb_lt in Ei2. rewrite (proj2 (Nat.ltb_lt i nsc)) by lia. reflexivity. }
        reflexivity.
Qed.

Lemma decc_last_ok n ar ai ip : shaped n n ar -> shaped n n ai -> length ip = n -> 0 < n ->
  pivots_ok n ip ->
  exists ier ip', decc_last n ar ai ip = Ok (ier, ar, ai, ip') /\ length ip' = n /\ pivots_ok n ip' /\
    (forall q, q < n - 1 -> nth q ip' 0%Z = nth q ip 0%Z) /\
    (ier = 0%nat <-> c_zero (cat2 ar ai (n - 1) (n - 1)) = false).
Proof.
  intros Hr Hi Hl Hn Hp. unfold decc_last. rewrite usub_ok by lia. cbn [bind].
  rewrite !(mget_ok n n) by (auto; lia). cbn [bind]. unfold c_zero, cat2. cbn [fst snd].
  destruct (eqb A _ _).
  - rewrite vset_ok by lia. cbn [bind]. exists n, (upd ip (n - 1) 0%Z). rewrite upd_length.
    split; [reflexivity|]. split; [assumption|]. split; [now apply pivots_ok_last|]. split.
    + intros q Hq. rewrite upd_nth by lia. destruct (Nat.eqb_spec q (n - 1)); [lia|reflexivity].
    + split; [lia|discriminate].
  - exists 0%nat, ip. split; [reflexivity|]. split; [assumption|]. split; [assumption|].
    split; [reflexivity|]. tauto.
Qed.

Lemma decc_ok n ar ai ip :
  0 < n -> shaped n n ar -> shaped n n ai -> length ip = n -> pivots_ok n ip ->
  exists ier ar' ai' ip', decc n ar ai ip = Ok (ier, ar', ai', ip') /\
    shaped n n ar' /\ shaped n n ai' /\ length ip' = n /\ pivots_ok n ip'.
Proof.
  intros Hn Hr Hi Hl Hp. unfold decc. rewrite usub_ok by lia. cbn [bind].
  rewrite vset_ok by lia. cbn [bind].
  destruct (for_range_ret_ind 0 (n - 1) (fun k => decc_stage n n n k)
    (fun k st => shaped n n (fst (fst st)) /\ shaped n n (snd (fst st)) /\
                 length (snd st) = n /\ pivots_ok n (snd st))
    (fun r => shaped n n (snd (fst (fst r))) /\ shaped n n (snd (fst r)) /\
              length (snd r) = n /\ pivots_ok n (snd r))
    (ar, ai, upd ip (n - 1) 1%Z))
    as [([[r' i'] ip'] & E & H0 & H1 & H2 & H3)|([[[ier r'] i'] ip'] & E & H0 & H1 & H2 & H3)].
  - cbn. rewrite upd_length. split; [assumption|]. split; [assumption|]. split; [assumption|].
    now apply pivots_ok_last.
  - lia.
  - intros k [[br bi] jp] Hk (Hbr & Hbi & Hlj & Hpj). cbn [fst snd] in *.
    destruct (decc_stage_ok n n n k br bi jp) as (m & Em & Hm & ip' & Hl' & Hip' & H); auto; try lia.
    assert (m < n) as Hmn by lia.
    assert (pivots_ok n ip') as Hp'.
    { intros q Hq. rewrite Hip' by assumption. destruct (Nat.eqb_spec q k); [lia|]. now apply Hpj. }
    destruct H as [(Et & r' & i' & E & H1 & H2)|(Et & r' & i' & E & H1 & H2 & _)]; rewrite E.
    + right. eexists. split; [reflexivity|]. cbn [fst snd]. auto.
    + left. eexists. split; [reflexivity|]. cbn [fst snd]. auto.
  - rewrite E. cbn [bind fst snd] in *.
    destruct (decc_last_ok n r' i' ip') as (ier & ip2 & E2 & Hl2 & Hp2 & _); auto.
    rewrite E2. eauto 10.
  - rewrite E. cbn [bind fst snd] in *. eauto 10.
Qed.

(** ** [solc] *)
Lemma axpy_vec_c_ok n ar ai k lo hi tr ti (br bi : vec A) : shaped n n ar -> shaped n n ai ->
  k < n -> lo <= hi -> hi <= n -> hi <= length br -> hi <= length bi ->
  exists br' bi', axpy_vec_c ar ai k lo hi tr ti (br, bi) = Ok (br', bi') /\
    length br' = length br /\ length bi' = length bi /\
    forall i, cat1 br' bi' i = if Nat.leb lo i && Nat.ltb i hi
      then c_add (cat1 br bi i) (c_mul (cat2 ar ai i k) (tr, ti)) else cat1 br bi i.
Proof.
  intros Hr Hi Hk Hlh Hhi Hbr Hbi. unfold axpy_vec_c.
  match goal with |- context [for_range lo hi ?g _] =>
    destruct (for_range_ind lo hi g
     (fun q st => length (fst st) = length br /\ length (snd st) = length bi /\
      forall i, cat1 (fst st) (snd st) i = if Nat.leb lo i && Nat.ltb i q
      then c_add (cat1 br bi i) (c_mul (cat2 ar ai i k) (tr, ti)) else cat1 br bi i) (br, bi))
     as ([br' bi'] & E & H1 & H2 & H3) end.
  - cbn [fst snd]. split; [reflexivity|]. split; [reflexivity|]. intros i. nbool; reflexivity.
  - intros q [cr ci] Hq (Hlr & Hli & Hv). cbn [fst snd] in *.
    rewrite !(mget_ok n n) by (auto; lia). cbn [bind].
    rewrite (vget_ok cr q n0) by lia. cbn [bind]. rewrite vset_ok by lia. cbn [bind].
    rewrite (vget_ok ci q n0) by lia. cbn [bind]. rewrite vset_ok by lia. cbn [bind].
    eexists. split; [reflexivity|]. cbn [fst snd]. rewrite !upd_length.
    split; [assumption|]. split; [assumption|].
    intros i. unfold cat1, at_. rewrite !upd_nth by lia.
    assert (cat1 cr ci q = cat1 br bi q) as Eq.
    { rewrite Hv. clear. nbool; reflexivity. }
    assert (cat1 cr ci i = (nth i cr n0, nth i ci n0)) as Ei by reflexivity.
    unfold cat1, at_ in Eq. injection Eq as Eq1 Eq2. rewrite Eq1, Eq2.
    destruct (Nat.eqb_spec i q) as [->|Hiq].
    + rewrite (proj2 (Nat.leb_le lo q)) by lia. rewrite (proj2 (Nat.ltb_lt q (S q))) by lia. reflexivity.
    + rewrite <- Ei, Hv. replace (Nat.ltb i (S q)) with (Nat.ltb i q) by (clear - Hiq; nbool). reflexivity.
  - exact Hlh.
  - exists br', bi'. auto.
Qed.

Lemma fwd_step_c_ok n ar ai ip hi k m (br bi : vec A) : shaped n n ar -> shaped n n ai ->
  n <= length br -> n <= length bi -> length ip = n ->
  k < n -> m < n -> nth k ip 0%Z = Z.of_nat m -> S k <= hi -> hi <= n ->
  exists br' bi', fwd_step_c ar ai ip hi k (br, bi) = Ok (br', bi') /\
    length br' = length br /\ length bi' = length bi /\
    forall i, cat1 br' bi' i = if Nat.ltb k i && Nat.ltb i hi
       then c_add (cat1 br bi (swp k m i)) (c_mul (cat2 ar ai i k) (cat1 br bi m))
       else cat1 br bi (swp k m i).
Proof.
  intros Hr Hi Hbr Hbi Hl Hk Hm Hip Hhi Hhn. unfold fwd_step_c.
  rewrite (vget_ok ip k 0%Z) by lia. cbn [bind]. rewrite Hip.
  destruct (zidx_ok (Z.of_nat m) n) as (m' & Em & _ & Hm'); [lia|]. rewrite Em. cbn [bind].
  assert (m' = m) as -> by lia. clear Hm' Em.
  rewrite (vget_ok br m n0) by lia. cbn [bind]. rewrite (vget_ok bi m n0) by lia. cbn [bind].
  rewrite (vget_ok br k n0) by lia. cbn [bind]. rewrite vset_ok by lia. cbn [bind].
  rewrite (vget_ok bi k n0) by lia. cbn [bind]. rewrite vset_ok by lia. cbn [bind].
  rewrite vset_ok by (rewrite upd_length; lia). cbn [bind].
  rewrite vset_ok by (rewrite upd_length; lia). cbn [bind].
  match goal with |- context [axpy_vec_c _ _ _ _ _ ?tr ?ti (?x, ?y)] =>
    destruct (axpy_vec_c_ok n ar ai k (S k) hi tr ti x y) as (br' & bi' & E & H1 & H2 & Hv) end;
    auto; try lia; try (rewrite !upd_length; lia).
  rewrite !upd_length in H1, H2. exists br', bi'. split; [exact E|]. split; [lia|]. split; [lia|].
  intros i. rewrite Hv. unfold cat1, at_. rewrite !upd_nth by (rewrite ?upd_length; lia).
  change (Nat.leb (S k) i) with (Nat.ltb k i).
  unfold swp. nbool; reflexivity.
Qed.

Lemma cdiv_at_ok n ar ai r kb (br bi : vec A) : shaped n n ar -> shaped n n ai ->
  r < n -> kb < length br -> kb < length bi ->
  exists br' bi', cdiv_at ar ai r r kb (br, bi) = Ok (br', bi') /\
    length br' = length br /\ length bi' = length bi /\
    forall i, cat1 br' bi' i = if Nat.eqb i kb then c_div (cat1 br bi kb) (cat2 ar ai r r)
                               else cat1 br bi i.
Proof.
  intros Hr Hi Hrn Hbr Hbi. unfold cdiv_at.
  rewrite !(mget_ok n n) by (auto; lia). cbn [bind].
  rewrite (vget_ok br kb n0) by lia. cbn [bind]. rewrite (vget_ok bi kb n0) by lia. cbn [bind].
  rewrite vset_ok by lia. cbn [bind]. rewrite vset_ok by lia. cbn [bind].
  eexists _, _. split; [reflexivity|]. rewrite !upd_length. split; [reflexivity|]. split; [reflexivity|].
  intros i. unfold cat1, at_. rewrite !upd_nth by lia. destruct (Nat.eqb i kb); reflexivity.
Qed.

Lemma bwd_step_c_ok n ar ai (hi : nat -> nat) k (br bi : vec A) : shaped n n ar -> shaped n n ai ->
  n <= length br -> n <= length bi -> S k < n ->
  let kb := (n - k - 1)%nat in hi (n - k - 2)%nat <= kb ->
  exists br' bi', bwd_step_c n ar ai hi k (br, bi) = Ok (br', bi') /\
    length br' = length br /\ length bi' = length bi /\
    forall i, cat1 br' bi' i =
      let x := c_div (cat1 br bi kb) (cat2 ar ai kb kb) in
      if Nat.eqb i kb then x
      else if Nat.ltb i (hi (n - k - 2)%nat) then c_add (cat1 br bi i) (c_mul (cat2 ar ai i kb) (c_opp x))
      else cat1 br bi i.
Proof.
  intros Hr Hi Hbr Hbi Hk kb Hhi. unfold bwd_step_c. rewrite usub_ok by lia. cbn [bind].
  rewrite usub_ok by lia. cbn [bind]. replace (S (n - k - 2)%nat) with kb by lia.
  destruct (cdiv_at_ok n ar ai kb kb br bi) as (cr & ci & E1 & Hlr & Hli & Hv1); auto; try lia.
  rewrite E1. cbn [bind].
  rewrite (vget_ok cr kb n0) by lia. cbn [bind]. rewrite (vget_ok ci kb n0) by lia. cbn [bind].
  match goal with |- context [axpy_vec_c _ _ _ _ _ ?tr ?ti (?x, ?y)] =>
    destruct (axpy_vec_c_ok n ar ai kb 0 (hi (n - k - 2)%nat) tr ti x y) as (br' & bi' & E & H1 & H2 & Hv) end;
    auto; try lia.
  exists br', bi'. split; [exact E|]. split; [lia|]. split; [lia|].
  intros i. rewrite Hv. rewrite !Hv1. cbv zeta.
  change (opp A (nth kb cr n0), opp A (nth kb ci n0)) with (c_opp (cat1 cr ci kb)).
  rewrite Hv1. rewrite Nat.eqb_refl. change (Nat.leb 0 i) with true. cbn [andb].
  destruct (Nat.eqb_spec i kb) as [->|Hne]; [|reflexivity].
  rewrite (proj2 (Nat.ltb_ge kb (hi (n - k - 2)%nat))) by lia. reflexivity.
Qed.

Lemma solc_ok n ar ai (br bi : vec A) ip :
  0 < n -> shaped n n ar -> shaped n n ai -> n <= length br -> n <= length bi ->
  length ip = n -> pivots_ok n ip ->
  exists br' bi', solc n ar ai br bi ip = Ok (br', bi') /\
    length br' = length br /\ length bi' = length bi.
Proof.
  intros Hn Hr Hi Hbr Hbi Hl Hp. unfold solc.
  match goal with |- context [bind ?e _] =>
    assert (exists st, e = Ok st /\ length (fst st) = length br /\ length (snd st) = length bi)
      as ([cr ci] & E1 & Hc1 & Hc2) end.
  { destruct (negb (Nat.eqb n 1)); [|eexists; split; [reflexivity|auto]].
    rewrite usub_ok by lia. cbn [bind].
    destruct (for_range_ind 0 (n - 1) (fwd_step_c ar ai ip n)
      (fun _ st => length (fst st) = length br /\ length (snd st) = length bi) (br, bi))
      as ([cr ci] & E1 & Hc).
    - auto.
    - intros k [cr ci] Hk [Hc1 Hc2]. cbn [fst snd] in *.
      destruct (zidx_ok (nth k ip 0%Z) n) as (m & _ & Hm & Em); [apply Hp; lia|].
      destruct (fwd_step_c_ok n ar ai ip n k m cr ci) as (cr' & ci' & E & H1 & H2 & _); auto; try lia.
      exists (cr', ci'). split; [exact E|]. cbn [fst snd]. split; congruence.
    - lia.
    - rewrite E1. cbn [bind].
      destruct (for_range_ind 0 (n - 1) (bwd_step_c n ar ai (fun km1 => (km1 + 1)%nat))
       (fun _ st => length (fst st) = length br /\ length (snd st) = length bi) (cr, ci))
        as ([dr di] & E2 & Hd); [exact Hc| |lia|eexists; split; [exact E2|exact Hd]].
      intros k [er ei] Hk [He1 He2]. cbn [fst snd] in *.
      destruct (bwd_step_c_ok n ar ai (fun km1 => (km1 + 1)%nat) k er ei) as (cr' & ci' & E & H1 & H2 & _);
        auto; try lia.
      exists (cr', ci'). split; [exact E|]. cbn [fst snd]. split; congruence. }
  rewrite E1. cbn [bind fst snd] in *.
  destruct (cdiv_at_ok n ar ai 0 0 cr ci) as (cr' & ci' & E & H1 & H2 & _); auto; try lia.
  exists cr', ci'. split; [exact E|]. split; congruence.
Qed.

End LinFactsC.
