(** The linear solvers against the specification of SpecLin.v. *)
From Coq Require Import ZArith List Bool Lia Reals Lra.
From Verif Require Import Arith Vec Core Linalg VecFacts LinFacts LinFactsC ArithR SpecRK RKFacts SpecLin GaussK LinR LinC.
Import ListNotations.
Local Open Scope R_scope.

Section LinSpec.
Context (inf : R).
Notation RI := (RA inf).
Notation mat := (mat RI).
Notation vec := (vec RI).

Lemma square_shaped n (a : mat) : square n a -> shaped n n a.
Proof.
  intros (H1 & H2). unfold shaped, is_shape. apply andb_true_intro. split; [now apply Nat.eqb_eq|].
  apply forallb_forall. intros r Hr. apply Nat.eqb_eq. now apply H2.
Qed.

Lemma at2_entry n (a : mat) i j : square n a -> (i < n)%nat -> (j < n)%nat -> (at2 a i j : R) = entry a i j.
Proof.
  intros (H1 & H2) Hi Hj. unfold at2, entry. apply nth_indep.
  assert (length (nth i a []) = n) as E; [|cbn in *; lia]. apply H2. apply nth_In. cbn in *. lia.
Qed.
Lemma at_comp (x : vec) i : (i < length x)%nat -> (at_ x i : R) = comp x i.
Proof. intros H. unfold at_, comp. now apply nth_indep. Qed.

Lemma ksum_rsum n g : @ksum R 0 Rplus n g = rsum n g.
Proof. induction n as [|n IH]; [reflexivity|]. rewrite rsum_S. cbn [ksum]. now rewrite IH. Qed.
Lemma ksum_C n g : @ksum C2 c0 cadd n g = (rsum n (fun j => fst (g j)), rsum n (fun j => snd (g j))).
Proof. induction n as [|n IH]; [reflexivity|]. rewrite !rsum_S. cbn [ksum]. now rewrite IH. Qed.

Notation solvesR := (@solves R 0 Rplus Rmult).
Notation solvesC := (@solves C2 c0 cadd cmul).

Lemma row_R n (a : mat) (f : nat -> R) (x : list R) i : square n a -> (i < n)%nat ->
  (forall j, (j < n)%nat -> f j = comp x j) ->
  @row R 0 Rplus Rmult (at2 a) n i f = rsum n (fun j => entry a i j * comp x j).
Proof.
  intros Ha Hi Hf. unfold row. etransitivity; [apply ksum_rsum|]. apply rsum_ext. intros j Hj.
  rewrite Hf by exact Hj. now rewrite (at2_entry n a) by auto.
Qed.

Lemma solution_solves n (a : mat) (x b : vec) : square n a -> length x = n -> length b = n ->
  solvesR n (at2 a) (at_ x) (at_ b) <-> solution n a x b.
Proof.
  intros Ha Hx Hb. unfold solves, solution. split.
  - intros H. split; [exact Hx|]. intros i Hi.
    rewrite <- (row_R n a (at_ x) x i Ha Hi) by (intros; apply at_comp; lia).
    rewrite H by exact Hi. apply at_comp. lia.
  - intros (_ & H) i Hi. rewrite (row_R n a (at_ x) x i Ha Hi) by (intros; apply at_comp; lia).
    rewrite H by exact Hi. symmetry. apply at_comp. lia.
Qed.

Lemma comp_map n (f : nat -> R) i : (i < n)%nat -> comp (map f (seq 0 n)) i = f i.
Proof.
  intros H. unfold comp. rewrite (nth_indep _ 0 (f O)) by (rewrite map_length, seq_length; lia).
  rewrite map_nth, seq_nth by lia. reflexivity.
Qed.
Lemma comp_repeat n i : comp (repeat 0 n) i = 0.
Proof. unfold comp. apply nth_repeat. Qed.

Lemma singular_spec n (a : mat) : square n a -> @singular R 0 Rplus Rmult n (at2 a) <-> singular_matrix n a.
Proof.
  intros Ha. split.
  - intros (f & (i & Hi & Hf) & Hs). exists (map f (seq 0 n)). split.
    + exists i. split; [exact Hi|]. now rewrite comp_map.
    + split; [now rewrite map_length, seq_length|]. intros q Hq.
      rewrite <- (row_R n a f _ q Ha Hq) by (intros; symmetry; now apply comp_map).
      rewrite Hs by exact Hq. now rewrite comp_repeat.
  - intros (x & (i & Hi & Hx) & (Hl & Hs)). exists (comp x). split; [eauto|].
    intros q Hq. rewrite (row_R n a (comp x) x q Ha Hq) by reflexivity. rewrite Hs by exact Hq. apply comp_repeat.
Qed.

Lemma gauss_first {K} k0 kadd kmul kopp kinv n p k a a' : @gauss K k0 kadd kmul kopp kinv n p (S k) a a' ->
  exists m, (m < n)%nat /\ a m O <> k0.
Proof.
  intros G. remember (S k) as q eqn:Eq. revert k Eq. induction G as [|q a a1 a2 G IH Hs]; intros k Eq; [discriminate|].
  destruct q as [|q]; [|now apply (IH q)]. inversion G; subst. destruct Hs as [Hm Ht _ _ _]. exists (p O). split; [lia|exact Ht].
Qed.

Lemma gauss_none {K} k0 kadd kmul kopp kinv n p a a' : @gauss K k0 kadd kmul kopp kinv n p 0 a a' -> a' = a.
Proof. intros G. now inversion G. Qed.

Theorem dech_spec n lb (a : mat) ip : (0 < n)%nat -> square n a -> length ip = n -> lower_band n lb a ->
  exists code a' ip', dech n a lb ip = Ok (code, a', ip') /\
    (code <> O -> singular_matrix n a) /\
    ((2 <= n)%nat -> zero_column n a 0 -> code = O) /\
    (code = O -> ((2 <= n)%nat /\ zero_column n a 0) \/
       (~ singular_matrix n a /\
        forall b, length b = n -> exists x, solh n a' lb b ip' = Ok x /\ solution n a x b /\
          forall y, solution n a y b -> y = x)).
Proof.
  intros Hn Ha Hl Hb. pose proof (square_shaped n a Ha) as Hs.
  assert (banded n lb (at2 a)) as Hb'.
  { intros i j Hi Hj Hij. rewrite (at2_entry n a) by auto. now apply Hb. }
  destruct (dech_R inf n lb a ip Hn Hs Hl Hb') as (code & a' & ip' & E & Hs' & Hl' & p & k & ak & H).
  exists code, a', ip'. split; [exact E|].
  destruct H as [(-> & Hk & Hg & Hz)|(Hg & Hp & Hb2 & H)].
  - split; [|split].
    + intros _. apply singular_spec; [exact Ha|].
      apply (gauss_singular 0 1 Rplus Rmult Rminus Ropp Rinv Rring Rinv_ok R1_neq_R0 n p k _ ak); auto; lia.
    + intros _ Hc. destruct k as [|k]; [reflexivity|]. apply gauss_first in Hg. destruct Hg as (m & Hm & Hne).
      exfalso. apply Hne. rewrite (at2_entry n a) by (auto; lia). now apply Hc.
    + intros ->. left. split; [lia|]. apply gauss_none in Hg. subst ak. intros i Hi.
      rewrite <- (at2_entry n a) by (auto; lia). apply Hz. lia.
  - split; [|split].
    + intros Hc. destruct H as [(H & _)|(_ & H)]; [easy|]. apply singular_spec; [exact Ha|].
      apply (gauss_singular 0 1 Rplus Rmult Rminus Ropp Rinv Rring Rinv_ok R1_neq_R0 n p (n - 1) _ (at2 a')); auto; try lia.
      intros i Hi. now replace i with (n - 1)%nat by lia.
    + intros H2 Hc. exfalso. replace (n - 1)%nat with (S (n - 2)) in Hg by lia.
      apply gauss_first in Hg. destruct Hg as (m & Hm & Hne).
      apply Hne. rewrite (at2_entry n a) by (auto; lia). now apply Hc.
    + intros Hc. destruct H as [(_ & Hd)|(H & _)]; [|lia]. right. split.
      * intros Hsing. apply singular_spec in Hsing; [|exact Ha].
        now apply (full_nonsingular 0 1 Rplus Rmult Rminus Ropp Rinv Rring Rinv_ok n p (at2 a) (at2 a')).
      * intros b Hbl. destruct (solh_R inf n lb a a' p b ip') as (x & Ex & Lx & Hx); auto; try (cbn in *; lia).
        assert (length x = n) as Hxn by (cbn in *; lia).
        exists x. split; [exact Ex|]. apply solution_solves in Hx; auto. split; [exact Hx|].
        intros y Hy. assert (length y = n) as Hyl by apply Hy.
        apply (nth_ext _ _ 0 0); [cbn in *; lia|]. intros i Hi.
        pose proof (proj2 (solution_solves n a y b Ha Hyl Hbl) Hy) as Hy'.
        pose proof (proj2 (solution_solves n a x b Ha Hxn Hbl) Hx) as Hx'.
        destruct (full_solution 0 1 Rplus Rmult Rminus Ropp Rinv Rring Rinv_ok n p (at2 a) (at2 a') (at_ b) Hg Hd) as (_ & Hu).
        specialize (Hu (at_ y) (at_ x) Hy' Hx' i ltac:(cbn in *; lia)).
        rewrite !at_comp in Hu by (cbn in *; lia). exact Hu.
Qed.

(** ** Complex *)
Lemma cat2_entry n (ar ai : mat) i j : square n ar -> square n ai -> (i < n)%nat -> (j < n)%nat ->
  (@cat2 RI ar ai i j : C2) = (entry ar i j, entry ai i j).
Proof. intros Hr Hi H1 H2. unfold cat2. rewrite <- (at2_entry n ar), <- (at2_entry n ai) by auto. reflexivity. Qed.

Lemma row_C n (ar ai : mat) (f : nat -> C2) (xr xi : list R) i : square n ar -> square n ai -> (i < n)%nat ->
  (forall j, (j < n)%nat -> f j = (comp xr j, comp xi j)) ->
  @row C2 c0 cadd cmul (@cat2 RI ar ai) n i f =
   (rsum n (fun j => entry ar i j * comp xr j - entry ai i j * comp xi j),
    rsum n (fun j => entry ar i j * comp xi j + entry ai i j * comp xr j)).
Proof.
  intros Hr Hi Hii Hf. unfold row. etransitivity; [apply ksum_C|]. f_equal; apply rsum_ext; intros j Hj;
    rewrite Hf by exact Hj; rewrite (cat2_entry n ar ai) by auto; cbn; ring.
Qed.

Lemma csolution_solves n (ar ai : mat) (xr xi br bi : vec) : square n ar -> square n ai ->
  length xr = n -> length xi = n -> length br = n -> length bi = n ->
  solvesC n (@cat2 RI ar ai) (@cat1 RI xr xi) (@cat1 RI br bi) <-> csolution n ar ai xr xi br bi.
Proof.
  intros Hr Hi Hx Hy Hb Hc.
  assert (forall (u v : vec) j, length u = n -> length v = n -> (j < n)%nat -> (@cat1 RI u v j : C2) = (comp u j, comp v j)) as Hcat.
  { intros u v j Hu Hv Hj. unfold cat1. rewrite <- (at_comp u), <- (at_comp v) by (cbn in *; lia). reflexivity. }
  unfold solves, csolution. split.
  - intros H. split; [exact Hx|]. split; [exact Hy|]. intros i Hii. specialize (H i Hii).
    rewrite (row_C n ar ai _ xr xi i Hr Hi Hii) in H by (intros; now apply Hcat).
    rewrite Hcat in H by auto. injection H as H1 H2. split; assumption.
  - intros (_ & _ & H) i Hii. destruct (H i Hii) as (H1 & H2).
    rewrite (row_C n ar ai _ xr xi i Hr Hi Hii) by (intros; now apply Hcat).
    rewrite Hcat by auto. now rewrite H1, H2.
Qed.

Lemma csingular_spec n (ar ai : mat) : square n ar -> square n ai ->
  @singular C2 c0 cadd cmul n (@cat2 RI ar ai) <-> csingular_matrix n ar ai.
Proof.
  intros Hr Hi. split.
  - intros (f & (i & Hii & Hf) & Hs). exists (map (fun j => fst (f j)) (seq 0 n)), (map (fun j => snd (f j)) (seq 0 n)). split.
    + exists i. split; [exact Hii|]. rewrite !comp_map by exact Hii.
      destruct (Req_dec (fst (f i)) 0) as [E|E]; [|now left]. right. intros E2. apply Hf. now apply c2_eq.
    + split; [now rewrite map_length, seq_length|]. split; [now rewrite map_length, seq_length|]. intros q Hq.
      pose proof (Hs q Hq) as H. rewrite (row_C n ar ai f (map (fun j => fst (f j)) (seq 0 n)) (map (fun j => snd (f j)) (seq 0 n)) q Hr Hi Hq) in H.
      * rewrite comp_repeat. injection H as H1 H2. split; assumption.
      * intros j Hj. rewrite !comp_map by exact Hj. now destruct (f j).
  - intros (xr & xi & (i & Hii & Hx) & (Hl & Hl2 & Hs)). exists (fun j => (comp xr j, comp xi j)). split.
    + exists i. split; [exact Hii|]. intros E. injection E as E1 E2. tauto.
    + intros q Hq. rewrite (row_C n ar ai _ xr xi q Hr Hi Hq) by reflexivity.
      destruct (Hs q Hq) as (H1 & H2). rewrite H1, H2, comp_repeat. reflexivity.
Qed.

Lemma c1_neq_c0 : c1 <> c0.
Proof. intros E. injection E as E. lra. Qed.

Theorem dechc_spec n lb (ar ai : mat) ip : (0 < n)%nat -> (0 < lb)%nat -> square n ar -> square n ai ->
  length ip = n -> lower_band n lb ar -> lower_band n lb ai ->
  exists code ar' ai' ip', dechc n ar ai lb ip = Ok (code, ar', ai', ip') /\
    (code <> O -> csingular_matrix n ar ai) /\
    ((2 <= n)%nat -> zero_column n ar 0 -> zero_column n ai 0 -> code = O) /\
    (code = O -> ((2 <= n)%nat /\ zero_column n ar 0 /\ zero_column n ai 0) \/
       (~ csingular_matrix n ar ai /\
        forall br bi, length br = n -> length bi = n ->
          exists xr xi, solc n ar' ai' br bi ip' = Ok (xr, xi) /\ csolution n ar ai xr xi br bi /\
          forall yr yi, csolution n ar ai yr yi br bi -> yr = xr /\ yi = xi)).
Proof.
  intros Hn Hlb Har Hai Hl Hb Hbi. pose proof (square_shaped n ar Har) as Hs. pose proof (square_shaped n ai Hai) as Hsi.
  assert (bandedC n lb (@cat2 RI ar ai)) as Hb'.
  { intros i j Hi Hj Hij. rewrite (cat2_entry n ar ai) by auto. rewrite Hb, Hbi by auto. reflexivity. }
  destruct (dechc_C inf n lb ar ai ip Hn Hlb Hs Hsi Hl Hb') as (code & ar' & ai' & ip' & E & Hs' & Hsi' & Hl' & p & k & ak & H).
  exists code, ar', ai', ip'. split; [exact E|].
  destruct H as [(-> & Hk & Hg & Hz)|(Hg & Hp & Hb2 & H)].
  - split; [|split].
    + intros _. apply csingular_spec; [exact Har|exact Hai|].
      apply (gauss_singular c0 c1 cadd cmul csub copp cinv Cring Cinv_ok c1_neq_c0 n p k _ ak); auto; lia.
    + intros _ Hc Hc2. destruct k as [|k]; [reflexivity|]. apply gauss_first in Hg. destruct Hg as (m & Hm & Hne).
      exfalso. apply Hne. rewrite (cat2_entry n ar ai) by (auto; lia). rewrite Hc, Hc2 by auto. reflexivity.
    + intros ->. left. split; [lia|]. apply gauss_none in Hg. subst ak.
      assert (forall i, (i < n)%nat -> entry ar i 0 = 0 /\ entry ai i 0 = 0) as HH.
      { intros i Hi. pose proof (Hz i ltac:(lia)) as H. rewrite (cat2_entry n ar ai) in H by auto.
        injection H as H1 H2. split; assumption. }
      split; intros i Hi; now apply HH.
  - split; [|split].
    + intros Hc. destruct H as [(H & _)|(_ & H)]; [easy|]. apply csingular_spec; [exact Har|exact Hai|].
      apply (gauss_singular c0 c1 cadd cmul csub copp cinv Cring Cinv_ok c1_neq_c0 n p (n - 1) _ (@cat2 RI ar' ai')); auto; try lia.
      intros i Hi. now replace i with (n - 1)%nat by lia.
    + intros H2 Hc Hc2. exfalso. replace (n - 1)%nat with (S (n - 2)) in Hg by lia.
      apply gauss_first in Hg. destruct Hg as (m & Hm & Hne).
      apply Hne. rewrite (cat2_entry n ar ai) by (auto; lia). rewrite Hc, Hc2 by auto. reflexivity.
    + intros Hc. destruct H as [(_ & Hd)|(H & _)]; [|lia]. right. split.
      * intros Hsing. apply csingular_spec in Hsing; [|exact Har|exact Hai].
        now apply (full_nonsingular c0 c1 cadd cmul csub copp cinv Cring Cinv_ok n p (@cat2 RI ar ai) (@cat2 RI ar' ai')).
      * intros br bi Hbl Hbil. destruct (solc_C inf n (@cat2 RI ar ai) ar' ai' p br bi ip') as (xr & xi & Ex & Lx & Lxi & Hx);
          auto; try (cbn in *; lia).
        assert (length xr = n) as Hxn by (cbn in *; lia). assert (length xi = n) as Hxin by (cbn in *; lia).
        exists xr, xi. split; [exact Ex|]. apply csolution_solves in Hx; auto. split; [exact Hx|].
        intros yr yi Hy. assert (length yr = n) as Hyl by apply Hy. assert (length yi = n) as Hyil by apply Hy.
        pose proof (proj2 (csolution_solves n ar ai yr yi br bi Har Hai Hyl Hyil Hbl Hbil) Hy) as Hy'.
        pose proof (proj2 (csolution_solves n ar ai xr xi br bi Har Hai Hxn Hxin Hbl Hbil) Hx) as Hx'.
        destruct (full_solution c0 c1 cadd cmul csub copp cinv Cring Cinv_ok n p (@cat2 RI ar ai) (@cat2 RI ar' ai') (@cat1 RI br bi) Hg Hd) as (_ & Hu).
        assert (forall i, (i < n)%nat -> comp yr i = comp xr i /\ comp yi i = comp xi i) as HH.
        { intros i Hi. specialize (Hu (@cat1 RI yr yi) (@cat1 RI xr xi) Hy' Hx' i Hi). unfold cat1 in Hu.
          injection Hu as H1 H2. rewrite !at_comp in H1 by (cbn in *; lia). rewrite !at_comp in H2 by (cbn in *; lia).
          split; assumption. }
        split; (apply (nth_ext _ _ 0 0); [cbn in *; lia|]); intros i Hi; apply HH; cbn in *; lia.
Qed.
End LinSpec.
