(** The banded routines: what they do solve (upper triangular matrices that fit
    in the band), and what they do not. *)
From Coq Require Import ZArith List Bool Lia Reals Lra.
From Verif Require Import Arith Vec Core Linalg LinalgBand VecFacts LinFacts LinFactsC ArithR SpecRK RKFacts SpecLin GaussK
  LinR LinSpec LinBad SpecBand.
Import ListNotations.

(** ** Panics and skipped work, in every arithmetic *)
Lemma solb_diagonal_panics {A : arith} n (a : mat A) (b : vec A) ip : solb n a 0 0 b ip = Panic.
Proof. reflexivity. Qed.
Lemma solbc_diagonal_panics {A : arith} n (ar ai : mat A) (br bi : vec A) ip : solbc n ar ai 0 0 br bi ip = Panic.
Proof. reflexivity. Qed.
Lemma solbc_one {A : arith} (ar ai : mat A) lb ub (br bi : vec A) ip : 0 < lb + ub ->
  solbc 1 ar ai lb ub br bi ip = Ok (br, bi).
Proof. intros H. unfold solbc. cbv zeta. rewrite usub_ok by lia. reflexivity. Qed.

Lemma solbc_panics {A : arith} n (ar ai : mat A) lb ub (br bi : vec A) ip x :
  lb + ub + 1 < n -> solbc n ar ai lb ub br bi ip <> Ok x.
Proof.
  intros Hn H. unfold solbc in H. cbv zeta in H.
  destruct (usub (lb + ub) 1) as [mdm| |]; [|discriminate..]. cbn [bind] in H.
  rewrite (usub_ok n 1) in H by lia. cbn [bind] in H.
  rewrite (proj2 (Nat.eqb_neq n 1)) in H by lia. cbn [negb] in H.
  match type of H with bind ?e _ = _ => destruct e as [b1| |]; [|discriminate..] end. cbn [bind] in H.
  match type of H with bind (for_range 0 (n - 1) ?g b1) _ = _ =>
    assert (forall y, for_range 0 (n - 1) g b1 <> Ok y) as Hno end.
  { intros y Hy. unfold for_range in Hy. replace (n - 1 - 0)%nat with (S (n - 2)) in Hy by lia. cbn [seq for_list] in Hy.
    rewrite (usub_ok n 0) in Hy by lia. cbn [bind] in Hy. rewrite (usub_ok (n - 0) 1) in Hy by lia. cbn [bind] in Hy.
    destruct (cdiv_at ar ai (lb + ub) (n - 0 - 1) (n - 0 - 1) b1) as [[cr ci]| |]; [|discriminate..]. cbn [bind] in Hy.
    destruct (vget cr (n - 0 - 1)) as [v| |]; [|discriminate..]. cbn [bind] in Hy.
    destruct (vget ci (n - 0 - 1)) as [v2| |]; [|discriminate..]. cbn [bind] in Hy.
    unfold usub at 1 in Hy. rewrite (proj2 (Nat.leb_gt (n - 0 - 1) (lb + ub))) in Hy by lia. discriminate. }
  match type of H with bind ?e _ = _ => destruct e as [y| |] eqn:E; [|discriminate..] end.
  now apply (Hno y).
Qed.

(** ** Upper triangular band matrices, [lb = 0] *)
Section Upper.
Context {A : arith}.

(** Entry [(i,j)] of the matrix, [i <= j <= i + ub]. *)
Definition ub_at (ub : nat) (a : mat A) (i j : nat) : num A := at2 a (ub + i - j) j.

Definition solb_bwd (n : nat) (a : mat A) (ub : nat) (k : nat) (b : vec A) : res (vec A) :=
  bind (usub n k) (fun nk => bind (usub nk 1) (fun kb => bind (vget b kb) (fun x => bind (mget a ub kb) (fun d =>
  bind (vset b kb (div A x d)) (fun b => bind (vget b kb) (fun x => bind (usub ub kb) (fun kmd =>
  for_range (Nat.max 0 kmd) (ub - 1 + 1) (fun i b => bind (usub i kmd) (fun imd => bind (vget b imd) (fun x0 =>
    bind (mget a i kb) (fun y => vset b imd (add A x0 (mul A y (opp A x))))))) b))))))).

Lemma solb_bwd_ok n ub a k (b : vec A) : 0 < ub -> n <= S ub -> shaped (S ub) n a -> n <= length b -> k < n ->
  let kb := n - k - 1 in
  exists b', solb_bwd n a ub k b = Ok b' /\ length b' = length b /\
    forall i, at_ b' i =
      let x := div A (at_ b kb) (ub_at ub a kb kb) in
      if Nat.eqb i kb then x
      else if Nat.ltb i kb then add A (at_ b i) (mul A (ub_at ub a i kb) (opp A x)) else at_ b i.
Proof.
  intros Hub Hn Ha Hb Hk kb. unfold solb_bwd. rewrite usub_ok by lia. cbn [bind].
  rewrite usub_ok by lia. cbn [bind]. change (n - k - 1) with kb.
  assert (kb < n) by lia.
  rewrite (vget_ok b kb n0) by lia. cbn [bind]. rewrite (mget_ok (S ub) n) by (auto; lia). cbn [bind].
  rewrite vset_ok by lia. cbn [bind]. rewrite (vget_ok _ kb n0) by (rewrite upd_length; lia). cbn [bind].
  rewrite upd_nth by lia. rewrite Nat.eqb_refl. rewrite usub_ok by lia. cbn [bind].
  rewrite Nat.max_0_l. replace (ub - 1 + 1) with ub by lia.
  set (x := div A (nth kb b n0) (at2 a ub kb)).
  destruct (for_range_ind (ub - kb) ub (fun i b => bind (usub i (ub - kb)) (fun imd => bind (vget b imd) (fun x0 =>
      bind (mget a i kb) (fun y => vset b imd (add A x0 (mul A y (opp A x)))))))
    (fun q b' => length b' = length b /\ forall i, at_ b' i =
      if Nat.eqb i kb then x
      else if Nat.ltb i (q - (ub - kb)) then add A (at_ b i) (mul A (ub_at ub a i kb) (opp A x)) else at_ b i)
    (upd b kb x)) as (b' & E & L & Hv).
  - rewrite upd_length. split; [reflexivity|]. intros i. unfold at_. rewrite upd_nth by lia.
    rewrite Nat.sub_diag. destruct (Nat.eqb i kb); reflexivity.
  - intros q y Hq (Ly & Hy). rewrite usub_ok by lia. cbn [bind].
    rewrite (vget_ok y _ n0) by lia. cbn [bind]. rewrite (mget_ok (S ub) n) by (auto; lia). cbn [bind].
    rewrite vset_ok by lia. eexists. split; [reflexivity|]. rewrite upd_length. split; [exact Ly|].
    intros i. unfold at_ at 1. rewrite upd_nth by lia. fold (at_ y (q - (ub - kb))). fold (at_ y i).
    destruct (Nat.eqb_spec i (q - (ub - kb))) as [->|Hne].
    + rewrite (proj2 (Nat.eqb_neq _ kb)) by lia. rewrite (proj2 (Nat.ltb_lt _ _)) by lia.
      rewrite Hy. rewrite (proj2 (Nat.eqb_neq _ kb)) by lia. rewrite Nat.ltb_irrefl.
      unfold ub_at. replace (ub + (q - (ub - kb)) - kb) with q by lia. reflexivity.
    + rewrite Hy. destruct (Nat.eqb i kb); [reflexivity|].
      destruct (Nat.ltb_spec i (q - (ub - kb))); destruct (Nat.ltb_spec i (S q - (ub - kb))); try lia; reflexivity.
  - lia.
  - exists b'. split; [exact E|]. split; [exact L|]. intros i. rewrite Hv. cbv zeta.
    replace (ub - (ub - kb)) with kb by lia. assert (ub_at ub a kb kb = at2 a ub kb) as -> by (unfold ub_at; now replace (ub + kb - kb) with ub by lia).
    reflexivity.
Qed.
End Upper.

Local Open Scope R_scope.
Section LinBand.
Context (inf : R).
Notation RI := (RA inf).

Lemma solb_upper n ub (a : mat RI) (b : vec RI) ip :
  (0 < ub)%nat -> (0 < n <= S ub)%nat -> shaped (S ub) n a -> length b = n ->
  (forall j, (j < n)%nat -> at2 a ub j <> 0) ->
  exists x, solb n a 0 ub b ip = Ok x /\ length x = n /\
    @solves R 0 Rplus Rmult n (fun i j => if Nat.leb i j then ub_at ub a i j else 0) (at_ x) (at_ b).
Proof.
  intros Hub Hn Ha Hb Hd. set (u := fun i j => if Nat.leb i j then ub_at ub a i j else 0).
  assert (@upper R 0 n u) as Hu.
  { intros i j Hi Hj. unfold u. now rewrite (proj2 (Nat.leb_gt i j)) by lia. }
  assert (forall j, u j j = at2 a ub j) as Hdd.
  { intros j. unfold u, ub_at. rewrite Nat.leb_refl. now replace (ub + j - j)%nat with ub by lia. }
  assert (forall q, (q <= n)%nat -> exists y, for_range 0 q (solb_bwd n a ub) b = Ok y /\ length y = n /\
    @binv R 0 Rplus Rmult n u (at_ b) (n - q) (at_ y)) as Hq.
  { intros q Hq. destruct (for_range_ind 0 q (solb_bwd n a ub) (fun q y => length y = n /\
      @binv R 0 Rplus Rmult n u (at_ b) (n - q) (at_ y)) b) as (y & E & L & B).
    - split; [assumption|]. replace (n - 0)%nat with n by lia. now apply (binv_start 0 1 Rplus Rmult Rminus Ropp Rring).
    - intros k y Hk (Ly & By). destruct (solb_bwd_ok n ub a k y) as (y' & E & Ly' & Hv); try assumption; try lia.
      exists y'. split; [exact E|]. split; [congruence|].
      apply (binv_step 0 1 Rplus Rmult Rminus Ropp Rinv Rring Rinv_ok n _ _ (n - S k) (at_ y)).
      + exact Hu.
      + lia.
      + rewrite Hdd. apply Hd. lia.
      + now replace (S (n - S k)) with (n - k)%nat by lia.
      + intros i Hi. rewrite Hv. unfold bstep. cbv zeta. rewrite Hdd.
        replace (n - k - 1)%nat with (n - S k)%nat by lia.
        assert (ub_at ub a (n - S k) (n - S k) = at2 a ub (n - S k)) as ->
          by (unfold ub_at; now replace (ub + (n - S k) - (n - S k))%nat with ub by lia).
        cbn [RI div mul add opp]. rewrite rdiv_ok by (apply Hd; lia).
        destruct (Nat.eqb i (n - S k)); [reflexivity|].
        destruct (Nat.ltb_spec i (n - S k)) as [Hlt|]; [|reflexivity].
        unfold u. rewrite (proj2 (Nat.leb_le i (n - S k))) by lia. reflexivity.
    - lia.
    - exists y. auto. }
  unfold solb. cbv zeta. cbn [plus]. rewrite usub_ok by lia. cbn [bind]. rewrite usub_ok by lia. cbn [bind].
  assert (exists y, (if negb (Nat.eqb n 1) then for_range 0 (n - 1) (solb_bwd n a ub) b else Ok b) = Ok y /\ length y = n /\
    @binv R 0 Rplus Rmult n u (at_ b) 1 (at_ y)) as (y & E & L & B).
  { destruct (Nat.eqb_spec n 1) as [->|Hne]; cbn [negb].
    - exists b. split; [reflexivity|]. split; [assumption|]. now apply (binv_start 0 1 Rplus Rmult Rminus Ropp Rring).
    - destruct (Hq (n - 1)%nat ltac:(lia)) as (y & E & L & B). exists y. split; [exact E|]. split; [exact L|].
      now replace (n - (n - 1))%nat with 1%nat in B by lia. }
  cbn [negb Nat.eqb bind].
  match goal with |- context [bind ?e _] =>
    change e with (if negb (Nat.eqb n 1) then for_range 0 (n - 1) (solb_bwd n a ub) b else Ok b) end.
  rewrite E. cbn [bind]. rewrite (vget_ok y 0 n0) by lia. cbn [bind].
  rewrite (mget_ok (S ub) n) by (auto; lia). cbn [bind]. rewrite vset_ok by lia.
  eexists. split; [reflexivity|]. split; [now rewrite upd_length|].
  apply (binv_end 0 1 Rplus Rmult Rminus Ropp Rring n u).
  apply (binv_step 0 1 Rplus Rmult Rminus Ropp Rinv Rring Rinv_ok n u _ 0 (at_ y)); [exact Hu|lia|rewrite Hdd; apply Hd; lia|exact B|].
  intros i Hi. unfold at_ at 1. rewrite upd_nth by lia. unfold bstep. cbv zeta. rewrite Hdd.
  destruct (Nat.eqb_spec i 0) as [->|Hne].
  - cbn [RI div]. rewrite rdiv_ok by (apply Hd; lia). reflexivity.
  - now rewrite (proj2 (Nat.ltb_ge i 0)) by lia.
Qed.

Lemma storage_shaped n ub (ab : list (list R)) : band_storage n 0 ub ab -> @shaped RI (S ub) n ab.
Proof.
  intros (H1 & H2). unfold shaped, is_shape. apply andb_true_intro. split; [apply Nat.eqb_eq; cbn in *; lia|].
  apply forallb_forall. intros r Hr. apply Nat.eqb_eq. now apply H2.
Qed.
Lemma storage_at2 n ub (ab : list (list R)) i j : band_storage n 0 ub ab -> (i <= ub)%nat -> (j < n)%nat ->
  (@at2 RI ab i j : R) = entry ab i j.
Proof.
  intros (H1 & H2) Hi Hj. unfold at2, entry. apply nth_indep.
  assert (length (nth i ab []) = n) as E; [|cbn in *; lia]. apply H2. apply nth_In. cbn in *. lia.
Qed.

Lemma decb_solb_upper n ub ab ip :
  (0 < ub)%nat -> (0 < n <= ub + 1)%nat -> band_storage n 0 ub ab -> length ip = n ->
  (forall i, (i < n)%nat -> band_entry 0 ub ab i i <> 0) ->
  exists ip', @decb RI n ab 0 ub ip = Ok (O, ab, ip') /\
    forall b, length b = n -> exists x, @solb RI n ab 0 ub b ip' = Ok x /\
      band_solution n 0 ub ab x b /\ forall y, band_solution n 0 ub ab y b -> y = x.
Proof.
  intros Hub Hn Hs Hip Hd.
  assert (forall j, (j < n)%nat -> band_entry 0 ub ab j j = entry ab ub j) as Hdd.
  { intros j Hj. unfold band_entry. rewrite (proj2 (Nat.leb_le j (j + 0))), (proj2 (Nat.leb_le j (j + ub))) by lia.
    cbn [andb]. now replace (0 + ub + j - j)%nat with ub by lia. }
  assert (forall j, (j < n)%nat -> (@at2 RI ab ub j : R) <> 0) as Hd2.
  { intros j Hj. rewrite (storage_at2 n ub) by (auto; lia). rewrite <- Hdd by assumption. now apply Hd. }
  pose proof (storage_shaped n ub ab Hs) as Hsh.
  exists (upd ip (n - 1) 1%Z). split.
  - unfold decb. rewrite usub_ok by lia. cbn [bind]. rewrite vset_ok by lia. cbn [bind].
    rewrite andb_false_r. cbn [bind]. rewrite Nat.add_0_r. rewrite (mget_ok (S ub) n) by (auto; lia). cbn [bind].
    destruct (eqb RI (at2 ab ub (n - 1)) n0) eqn:E; [|reflexivity]. exfalso.
    apply eqb_true_R in E. apply (Hd2 (n - 1)%nat); [lia|exact E].
  - intros b Hb. destruct (solb_upper n ub ab b (upd ip (n - 1) 1%Z)) as (x & E & L & S); try assumption; try lia.
    exists x. split; [exact E|].
    match type of S with solves _ _ _ _ ?f _ _ => set (u := f) in S end.
    assert (forall i j, (i < n)%nat -> (j < n)%nat -> u i j = band_entry 0 ub ab i j) as Hu.
    { intros i j Hi Hj. unfold u, band_entry. rewrite Nat.add_0_r, (proj2 (Nat.leb_le j (i + ub))) by lia.
      rewrite andb_true_r. destruct (Nat.leb_spec i j); [|reflexivity]. unfold ub_at.
      rewrite (storage_at2 n ub) by (auto; lia). reflexivity. }
    assert (forall y : list R, length y = n -> @solves R 0 Rplus Rmult n u (@at_ RI y) (@at_ RI b) <-> band_solution n 0 ub ab y b) as Hsol.
    { intros y Hy. unfold solves, band_solution. split.
      - intros H. split; [exact Hy|]. intros i Hi. specialize (H i Hi). unfold row in H. rewrite ksum_rsum in H.
        rewrite (at_comp inf b) in H by (cbn in *; lia). rewrite <- H. apply rsum_ext. intros j Hj.
        rewrite Hu by assumption. rewrite (at_comp inf y) by (cbn in *; lia). reflexivity.
      - intros (_ & H) i Hi. specialize (H i Hi). unfold row. rewrite ksum_rsum.
        rewrite (at_comp inf b) by (cbn in *; lia). rewrite <- H. apply rsum_ext. intros j Hj.
        rewrite Hu by assumption. rewrite (at_comp inf y) by (cbn in *; lia). reflexivity. }
    split; [now apply Hsol|]. intros y Hy. assert (length y = n) as Ly by apply Hy.
    apply Hsol in Hy; [|exact Ly].
    apply nth_ext with (d := 0) (d' := 0); [cbn in *; lia|]. intros i Hi.
    assert (@at_ RI y i = @at_ RI x i) as Hxy.
    { apply (upper_unique 0 1 Rplus Rmult Rminus Ropp Rinv Rring Rinv_ok n u _ _ (@at_ RI b)); auto; [| |cbn in *; lia].
      - intros p q Hp Hq. unfold u. now rewrite (proj2 (Nat.leb_gt p q)) by lia.
      - intros p Hp. rewrite Hu, Hdd by assumption. rewrite <- Hdd by assumption. now apply Hd. }
    rewrite (at_comp inf y), (at_comp inf x) in Hxy by (cbn in *; lia). exact Hxy.
Qed.

(** *** [decbc] eliminates nothing when [lb = 1], and scales nothing *)
Ltac rabs :=
  repeat match goal with
  | |- context [Rabs ?x] =>
     first [rewrite (Rabs_pos_eq x) by lra | rewrite (Rabs_left x) by lra]
  end.
Ltac rcase :=
  rabs;
  match goal with
  | |- context [Rlt_dec ?a ?b] =>
      lazymatch constr:((a, b)) with context [if _ then _ else _] => fail | _ => idtac end;
      destruct (Rlt_dec a b); first [exfalso; lra|idtac]
  | |- context [Req_EM_T ?a ?b] =>
      lazymatch constr:((a, b)) with context [if _ then _ else _] => fail | _ => idtac end;
      destruct (Req_EM_T a b); first [exfalso; lra|idtac]
  end.
Ltac rden :=
  repeat match goal with
  | |- context [?x / (?a + ?b)] => first [replace (a + b) with 1 by lra | replace (a + b) with 4 by lra]
  end.
Ltac rcomp := repeat (cbn; unfold cmag, cprod; cbn; unfold Rltb, Reqb, rdiv, rlit; cbn; rden; rcase); cbn; rden.

Definition b_zero : list (list R) := [[0; 0]; [0; 0]; [0; 0]; [0; 0]].
Lemma bandc_run :
  match @decbc RI 2 b_ab b_zero 1 1 [0%Z; 0%Z] with
  | Ok (code, ar', ai', ip') => code = O /\
      match @solbc RI 2 ar' ai' 1 1 [2; 3] [0; 0] ip' with
      | Ok (xr, xi) => nth 1 xr 0 = 5 / 2 /\ nth 1 xi 0 = 0
      | _ => False
      end
  | _ => False
  end.
Proof. unfold b_ab, b_zero. rcomp. split; [reflexivity|]. split; lra. Qed.
Lemma bandc_sing_run :
  match @decbc RI 2 bs_ab b_zero 1 1 [0%Z; 0%Z] with Ok (code, ar', ai', ip') => code = O | _ => False end.
Proof. unfold bs_ab, b_zero. rcomp. reflexivity. Qed.

Lemma bandc_solution xr xi : band_csolution 2 1 1 b_ab b_zero xr xi [2; 3] [0; 0] -> comp xr 1 = 1.
Proof.
  intros (_ & _ & H). destruct (H O ltac:(lia)) as (H1 & _). destruct (H 1%nat ltac:(lia)) as (H2 & _).
  unfold rsum, comp in *. cbn in *. lra.
Qed.
Lemma bandc_has : band_csolution 2 1 1 b_ab b_zero [1; 1] [0; 0] [2; 3] [0; 0].
Proof.
  split; [reflexivity|]. split; [reflexivity|]. intros i Hi. destruct i as [|[|i]]; [| |lia]; cbn; split; lra.
Qed.
Lemma decbc_solbc_refuted :
  exists ar ai br bi ip code ar' ai' ip' xr xi,
    @decbc RI 2 ar ai 1 1 ip = Ok (code, ar', ai', ip') /\ code = O /\
    @solbc RI 2 ar' ai' 1 1 br bi ip' = Ok (xr, xi) /\
    ~ band_csolution 2 1 1 ar ai xr xi br bi /\ band_csolution 2 1 1 ar ai [1; 1] [0; 0] br bi.
Proof.
  pose proof bandc_run as H.
  destruct (@decbc RI 2 b_ab b_zero 1 1 [0%Z; 0%Z]) as [[[[code ar'] ai'] ip']| |] eqn:E; [|easy..].
  destruct H as (Hc & H).
  destruct (@solbc RI 2 ar' ai' 1 1 [2; 3] [0; 0] ip') as [[xr xi]| |] eqn:E2; [|easy..].
  exists b_ab, b_zero, [2; 3], [0; 0], [0%Z; 0%Z], code, ar', ai', ip', xr, xi.
  split; [exact E|]. split; [exact Hc|]. split; [exact E2|]. split; [|exact bandc_has].
  intros Hs. apply bandc_solution in Hs. unfold comp in Hs. cbn in *. lra.
Qed.
Lemma decbc_singular_refuted :
  exists ar ai ip code ar' ai' ip',
    @decbc RI 2 ar ai 1 1 ip = Ok (code, ar', ai', ip') /\ code = O /\
    (exists xr xi, (exists i, (i < 2)%nat /\ comp xr i <> 0) /\
       band_csolution 2 1 1 ar ai xr xi (repeat 0 2) (repeat 0 2)).
Proof.
  pose proof bandc_sing_run as H.
  destruct (@decbc RI 2 bs_ab b_zero 1 1 [0%Z; 0%Z]) as [[[[code ar'] ai'] ip']| |] eqn:E; [|easy..].
  exists bs_ab, b_zero, [0%Z; 0%Z], code, ar', ai', ip'. split; [exact E|]. split; [exact H|].
  exists [1; -1], [0; 0]. split; [exists O; split; [lia|cbn; lra]|].
  split; [reflexivity|]. split; [reflexivity|]. intros i Hi. destruct i as [|[|i]]; [| |lia]; cbn; split; lra.
Qed.

(** [decb] with [lb = 0] looks at the last diagonal entry only. *)
Lemma decb_upper_singular_refuted :
  exists ab ip ip', band_storage 2 0 1 ab /\
    @decb RI 2 ab 0 1 ip = Ok (O, ab, ip') /\ band_singular 2 0 1 ab.
Proof.
  exists [[0; 0]; [0; 1]], [0%Z; 0%Z], [0%Z; 1%Z]. split; [|split].
  - split; [reflexivity|]. intros r [<-|[<-|[]]]; reflexivity.
  - rcomp. reflexivity.
  - exists [1; 0]. split; [exists O; split; [lia|cbn; lra]|].
    split; [reflexivity|]. intros i Hi. destruct i as [|[|i]]; [| |lia]; cbn; lra.
Qed.

Lemma upper_ex : band_storage 2 0 1 [[0; 5]; [2; 3]] /\
  forall i, (i < 2)%nat -> band_entry 0 1 [[0; 5]; [2; 3]] i i <> 0.
Proof.
  split; [split; [reflexivity|]; intros r [<-|[<-|[]]]; reflexivity|].
  intros [|[|i]] Hi; [| |lia]; cbn; lra.
Qed.
End LinBand.
