(** Invariant subspaces of Radau5 runs, in exact arithmetic. *)
From Coq Require Import ZArith List Bool Lia Reals Lra.
From RecordUpdate Require Import RecordSet.
From Verif Require Import Arith Vec Core Spec Jacobian JacFacts Linalg Driver VecFacts DP5Facts DP5Inv DP5Det LinFacts LinFactsC
  Radau RadauFacts RadauStep RadauSafe RadauInv RadauHist RadauKeep RadauJac ArithR SpecRK RKFacts SpecLin LinSpec LinThm
  SpecRadau RadauR RadauDense SpecStage StageConst RadauTail RadauSolve RadauStage SpecSub Subspace RadauLin RadauFwd.
Import ListNotations RecordSetNotations.
Local Open Scope R_scope.

Section Sub.
Context {n : nat} {V : (nat -> R) -> Prop} (HV : subspace n V).
Lemma sub_scale a x : V x -> V (fun i => a * x i).
Proof.
  intros H. apply (sub_ext _ _ HV) with (x := fun i => a * x i + (fun _ => 0) i); [intros; cbn; ring|].
  apply (sub_comb _ _ HV); [exact H|apply (sub_zero _ _ HV)].
Qed.
Lemma sub_plus x y : V x -> V y -> V (fun i => x i + y i).
Proof.
  intros H H'. apply (sub_ext _ _ HV) with (x := fun i => 1 * x i + y i); [intros; ring|]. now apply (sub_comb _ _ HV).
Qed.
Lemma sub_lin a b x y : V x -> V y -> V (fun i => a * x i + b * y i).
Proof. intros H H'. apply (sub_comb _ _ HV); [exact H|now apply sub_scale]. Qed.
Lemma sub_lin3 a b c x y z : V x -> V y -> V z -> V (fun i => a * x i + b * y i + c * z i).
Proof. intros H H' H''. apply sub_plus; [now apply sub_lin|now apply sub_scale]. Qed.
Lemma sub_d3 a (x : nat -> nat -> R) : (forall k, (k < 3)%nat -> V (x k)) -> V (fun i => d3 a (fun k => x k i)).
Proof. intros H. unfold d3. apply sub_lin3; apply H; lia. Qed.
End Sub.

Section SubR.
Context {inf : R} {P : Type}.
Notation RI := (RA inf).
Notation state := (integ RI P (radau_cache RI)).
Notation alg := (@Radau5 RI P).

Lemma nonsingular_real n h (J : mat RI) (c : radau_cache RI) : (0 < n)%nat -> h <> 0 -> factors n h J c -> ~ blind n h J ->
  forall x : nat -> R, (forall i, (i < n)%nat -> radau_gamma / h * x i - jmul n J x i = 0) -> forall i, (i < n)%nat -> x i = 0.
Proof.
  intros Hn Hh [HJ _ _ _ (ip0 & Hl & Hd) _] Hb x Hx i Hi.
  assert (div RI rU1 h = radau_gamma / h) as Eg by (cbn [div RA]; rewrite rdiv_ok by exact Hh; reflexivity).
  rewrite Eg in Hd. set (M := msub _ _) in *.
  assert (square n M) as HM by (apply (shaped_square inf), msub_shaped; [apply scaled_eye_shaped|exact HJ]).
  destruct (dec_sol_thm inf n M ip0 Hn HM Hl) as (code & a' & ip' & E & Hc & _).
  cbn [num RA] in *. rewrite Hd in E. assert (code = 0%nat) as -> by congruence. clear E.
  destruct (proj1 Hc eq_refl) as [Hr|(H2 & Hz)].
  - destruct (Req_dec (x i) 0) as [|Hne]; [assumption|]. exfalso. apply Hr. exists (tab n x). split.
    + exists i. split; [exact Hi|]. rewrite comp_tab by exact Hi. exact Hne.
    + split; [apply tab_length|]. intros q Hq. unfold M. rewrite (row_sum inf) by assumption. rewrite comp_tab by exact Hq.
      unfold comp at 2. rewrite nth_repeat. rewrite <- (Hx q Hq). f_equal. unfold jmul. apply rsum_ext. intros j Hj.
      now rewrite comp_tab.
  - exfalso. apply Hb. split; [exact H2|]. intros q Hq. specialize (Hz q Hq). unfold M in Hz.
    rewrite (matrix_entry inf) in Hz by (try assumption; lia). destruct (Nat.eqb q 0); lra.
Qed.

Lemma nonsingular_cplx n h (J : mat RI) (c : radau_cache RI) : (0 < n)%nat -> h <> 0 -> factors n h J c ->
  forall x y : nat -> R, (forall i, (i < n)%nat -> @rALPHA RI / h * x i - jmul n J x i - @rBETA RI / h * y i = 0 /\
                                                   @rALPHA RI / h * y i - jmul n J y i + @rBETA RI / h * x i = 0) ->
  forall i, (i < n)%nat -> x i = 0 /\ y i = 0.
Proof.
  intros Hn Hh [HJ _ _ _ _ (ip0 & Hl & Hd)] x y Hxy i Hi.
  assert (div RI rALPHA h = @rALPHA RI / h) as Ea by (cbn [div RA]; now rewrite rdiv_ok).
  assert (div RI rBETA h = @rBETA RI / h) as Eb by (cbn [div RA]; now rewrite rdiv_ok).
  rewrite Ea, Eb in Hd. set (M := msub _ _) in *. set (B := scaled_eye (A:=RI) n (@rBETA RI / h)) in *.
  assert (square n M) as HM by (apply (shaped_square inf), msub_shaped; [apply scaled_eye_shaped|exact HJ]).
  assert (square n B) as HB by (apply (shaped_square inf), scaled_eye_shaped).
  destruct (decc_solc_thm inf n M B ip0 Hn HM HB Hl) as (code & ar' & ai' & ip' & E & Hc & _).
  cbn [num RA] in *. rewrite Hd in E. assert (code = 0%nat) as -> by congruence. clear E.
  destruct (proj1 Hc eq_refl) as [Hr|(H2 & _ & Hz)].
  - destruct (Req_dec (x i) 0) as [Ex|Ex], (Req_dec (y i) 0) as [Ey|Ey]; [auto|exfalso..].
    all: apply Hr; exists (tab n x), (tab n y); split;
      [exists i; split; [exact Hi|]; rewrite !comp_tab by exact Hi; tauto|].
    all: split; [apply tab_length|]; split; [apply tab_length|]; intros q Hq; unfold M, B;
      rewrite (rsum_minus n), rsum_plus, !(row_sum inf), !(eye_sum inf) by assumption;
      assert (comp (repeat 0 n) q = 0) as Ez by (unfold comp; apply nth_repeat);
      cbn [num RA] in *; rewrite ?Ez, !comp_tab by exact Hq;
      rewrite !(rsum_ext n (fun j => entry J q j * comp (tab n x) j) (fun j => entry J q j * x j)) by (intros; now rewrite comp_tab);
      rewrite !(rsum_ext n (fun j => entry J q j * comp (tab n y) j) (fun j => entry J q j * y j)) by (intros; now rewrite comp_tab);
      exact (Hxy q Hq).
  - exfalso. specialize (Hz 0%nat Hn). unfold B in Hz. rewrite (eye_entry inf) in Hz by lia. cbn [Nat.eqb] in Hz.
    assert (@rBETA RI <> 0) as Hb by (unfold rBETA; cbn [lit RA]; unfold rlit; lra).
    unfold Rdiv in Hz. apply Rmult_integral in Hz as [Hz|Hz]; [contradiction|]. now apply Rinv_neq_0_compat in Hh.
Qed.

Section Fixed.
Context {n : nat} {V : (nat -> R) -> Prop} (Hn : (0 < n)%nat) (HV : subspace n V).

Lemma jmul_ext (J : mat RI) x y i : (forall j, (j < n)%nat -> x j = y j) -> jmul n J x i = jmul n J y i.
Proof. intros H. apply rsum_ext. intros j Hj. now rewrite H. Qed.
Lemma jmul_lin (J : mat RI) a x y i : jmul n J (fun i => a * x i + y i) i = a * jmul n J x i + jmul n J y i.
Proof. unfold jmul. rewrite <- rsum_scale, <- rsum_plus. apply rsum_ext. intros. ring. Qed.
Lemma jmul_zero (J : mat RI) i : jmul n J (fun _ => 0) i = 0.
Proof. unfold jmul. rewrite (rsum_ext n _ (fun _ => 0)) by (intros; ring). apply rsum_zero. Qed.

Lemma real_sub h (J : mat RI) (c : radau_cache RI) : h <> 0 -> factors n h J c -> ~ blind n h J ->
  (forall x, V x -> V (jmul n J x)) ->
  forall x, V (fun i => radau_gamma / h * x i - jmul n J x i) -> V x.
Proof.
  intros Hh Hf Hb HJ x Hx.
  apply (krylov n (fun x i => radau_gamma / h * x i - jmul n J x i)) with (V := V); auto.
  - intros a y z i Hi. rewrite jmul_lin. ring.
  - intros i Hi. rewrite jmul_zero. ring.
  - intros y Hy. eapply nonsingular_real; eassumption.
  - intros y Hy. apply (sub_ext _ _ HV) with (x := fun i => radau_gamma / h * y i + -1 * jmul n J y i); [intros; ring|].
    apply (sub_lin HV); auto.
Qed.

Lemma cplx_sub h (J : mat RI) (c : radau_cache RI) : h <> 0 -> factors n h J c ->
  (forall x, V x -> V (jmul n J x)) ->
  forall x y, V (fun i => @rALPHA RI / h * x i - jmul n J x i - @rBETA RI / h * y i) ->
              V (fun i => @rALPHA RI / h * y i - jmul n J y i + @rBETA RI / h * x i) -> V x /\ V y.
Proof.
  intros Hh Hf HJ x y. set (a := @rALPHA RI / h). set (b := @rBETA RI / h). intros Hx Hy.
  set (lo := fun z : nat -> R => z). set (hi := fun (z : nat -> R) i => z (n + i)%nat).
  set (L := fun z i => if Nat.ltb i n then a * lo z i - jmul n J (lo z) i - b * hi z i
                       else a * hi z (i - n)%nat - jmul n J (hi z) (i - n) + b * lo z (i - n)%nat).
  set (V2 := fun z => V (lo z) /\ V (hi z)).
  assert (forall z i, (i < n)%nat -> L z i = a * lo z i - jmul n J (lo z) i - b * hi z i) as Llo.
  { intros z i Hi. unfold L. now rewrite (proj2 (Nat.ltb_lt i n) Hi). }
  assert (forall z i, L z (n + i)%nat = a * hi z i - jmul n J (hi z) i + b * lo z i) as Lhi.
  { intros z i. unfold L. replace (n + i - n)%nat with i by lia.
    destruct (Nat.ltb_spec (n + i) n); [lia|]. reflexivity. }
  assert (forall i, (i < n + n)%nat -> (i < n)%nat \/ exists j, (j < n)%nat /\ i = (n + j)%nat) as split2.
  { intros i Hi. destruct (Nat.lt_ge_cases i n); [now left|right]. exists (i - n)%nat. lia. }
  assert (subspace (n + n) V2) as HV2.
  { constructor.
    - intros p q E (H1 & H2). split; [eapply (sub_ext _ _ HV); [|exact H1]|eapply (sub_ext _ _ HV); [|exact H2]]; intros i Hi; apply E; lia.
    - split; apply (sub_zero _ _ HV).
    - intros s p q (H1 & H2) (H3 & H4). split; [now apply (sub_comb _ _ HV)|].
      exact (sub_comb _ _ HV s _ _ H2 H4). }
  assert (V2 (fun i => if Nat.ltb i n then x i else y (i - n)%nat)) as (G1 & G2).
  { apply (krylov (n + n) L) with (V := V2); auto.
    - intros s p q i Hi. apply split2 in Hi as [Hi|(j & Hj & ->)]; [rewrite !Llo by exact Hi|rewrite !Lhi].
      + unfold lo, hi. rewrite jmul_lin. ring.
      + unfold lo. change (hi (fun i => s * p i + q i)) with (fun i => s * hi p i + hi q i). rewrite jmul_lin. ring.
    - intros i Hi. apply split2 in Hi as [Hi|(j & Hj & ->)]; [rewrite !Llo by exact Hi|rewrite !Lhi].
      + unfold lo, hi. rewrite jmul_zero. ring.
      + unfold lo. change (hi (fun _ => 0)) with (fun _ : nat => 0). rewrite jmul_zero. ring.
    - intros p Hp.
      assert (forall i, (i < n)%nat -> lo p i = 0 /\ hi p i = 0) as Hz.
      { apply (nonsingular_cplx n h J c Hn Hh Hf (lo p) (hi p)). intros i Hi. split.
        - rewrite <- (Hp i) by lia. now rewrite Llo.
        - rewrite <- (Hp (n + i)%nat) by lia. now rewrite Lhi. }
      intros i Hi. apply split2 in Hi as [Hi|(j & Hj & ->)]; [apply (proj1 (Hz i Hi))|apply (proj2 (Hz j Hj))].
    - intros p (H1 & H2). split.
      + apply (sub_ext _ _ HV) with (x := fun i => a * lo p i + -1 * jmul n J (lo p) i + - b * hi p i).
        * intros i Hi. unfold lo at 3. rewrite Llo by exact Hi. ring.
        * apply (sub_lin3 HV); auto.
      + apply (sub_ext _ _ HV) with (x := fun i => a * hi p i + -1 * jmul n J (hi p) i + b * lo p i).
        * intros i Hi. unfold hi at 3. rewrite Lhi. ring.
        * apply (sub_lin3 HV); auto.
    - set (z := fun i => if Nat.ltb i n then x i else y (i - n)%nat).
      assert (forall i, (i < n)%nat -> lo z i = x i) as E1 by (intros i Hi; unfold lo, z; now rewrite (proj2 (Nat.ltb_lt i n) Hi)).
      assert (forall i, hi z i = y i) as E2.
      { intros i. unfold hi, z. replace (n + i - n)%nat with i by lia. destruct (Nat.ltb_spec (n + i) n); [lia|]. reflexivity. }
      split.
      + eapply (sub_ext _ _ HV); [|exact Hx]. intros i Hi. unfold lo at 1. rewrite Llo by exact Hi.
        rewrite E1, E2 by exact Hi. now rewrite (jmul_ext J (lo z) x) by exact E1.
      + eapply (sub_ext _ _ HV); [|exact Hy]. intros i Hi. unfold hi at 1. rewrite Lhi.
        rewrite E1, E2 by exact Hi. now rewrite (jmul_ext J (hi z) y) by (intros; apply E2). }
  split; [eapply (sub_ext _ _ HV); [|exact G1]|eapply (sub_ext _ _ HV); [|exact G2]]; intros i Hi; unfold lo, hi; cbn beta.
  - now rewrite (proj2 (Nat.ltb_lt i n) Hi).
  - replace (n + i - n)%nat with i by lia. destruct (Nat.ltb_spec (n + i) n); [lia|]. reflexivity.
Qed.

(** *** Newton iterations stay in the subspace *)
Definition zsub (s : state) : Prop := forall k, (k < 3)%nat -> V (comp (zz (i_cache s) k)).
Definition fsub (s : state) : Prop := forall k, (k < 3)%nat -> V (comp (ff (i_cache s) k)).
(** The blocks of the collocation polynomial behind the first. *)
Definition csub (c : radau_cache RI) : Prop :=
  forall k, (k < 3)%nat -> V (fun i => at_ (skipn n (cont c)) (i + k * n)%nat).

Lemma nth_skip {X} m i (l : list X) d : nth (i + m) l d = nth i (skipn m l) d.
Proof.
  revert l. induction m as [|m IH]; intros l; [now rewrite Nat.add_0_r|].
  destruct l as [|x l]; cbn [skipn].
  - destruct (i + S m)%nat, i; reflexivity.
  - rewrite Nat.add_succ_r. cbn [nth]. apply IH.
Qed.

Lemma zz3 (s : state) k : (3 <= k)%nat -> zz (i_cache s) k = zz (i_cache s) 2.
Proof. destruct k as [|[|k]]; try lia; reflexivity. Qed.

Lemma prepare_sub (s : state) : ssafe n s -> csub (i_cache s) -> zsub (prepare_newton s) /\ fsub (prepare_newton s).
Proof.
  intros Hs Hc. pose proof (proj1 Hs) as Hu. unfold prepare_newton. rewrite Hu. destruct (_ || _)%bool.
  - split; intros k Hk; apply (sub_ext _ _ HV) with (x := fun _ => 0); try apply (sub_zero _ _ HV);
      intros i Hi; symmetry; destruct k as [|[|[|k]]]; try lia; apply comp_zeros.
  - set (c3q := div RI _ _). set (c1q := mul RI rC1 _). set (c2q := mul RI rC2 _).
    set (ak1 := fun i => at_ (cont (i_cache s)) (i + n)%nat).
    set (ak2 := fun i => at_ (cont (i_cache s)) (i + 2 * n)%nat).
    set (ak3 := fun i => at_ (cont (i_cache s)) (i + 3 * n)%nat).
    assert (V ak1 /\ V ak2 /\ V ak3) as (V1 & V2 & V3).
    { split; [|split]; [eapply (sub_ext _ _ HV); [|exact (Hc 0%nat ltac:(lia))]|eapply (sub_ext _ _ HV); [|exact (Hc 1%nat ltac:(lia))]
        |eapply (sub_ext _ _ HV); [|exact (Hc 2%nat ltac:(lia))]]; intros i Hi; unfold ak1, ak2, ak3, at_; rewrite <- nth_skip; f_equal; lia. }
    set (pl := fun q i => mul RI (fma RI (fma RI (ak3 i) (sub RI q rC1M1) (ak2 i)) (sub RI q rC2M1) (ak1 i)) q).
    assert (forall q, V (pl q)) as HP.
    { intros q. apply (sub_ext _ _ HV) with
        (x := fun i => (q - @rC1M1 RI) * (q - @rC2M1 RI) * q * ak3 i + (q - @rC2M1 RI) * q * ak2 i + q * ak1 i).
      - intros i Hi. unfold pl. cbn [mul fma sub RA]. unfold rfma. ring.
      - apply (sub_lin3 HV); assumption. }
    assert (forall g : nat -> R, V g -> V (comp (tab n g))) as Htab.
    { intros g Hg. eapply (sub_ext _ _ HV); [|exact Hg]. intros i Hi. symmetry. now apply comp_tab. }
    assert (forall a b d, V (fun i => add RI (add RI (mul RI a (at_ (tab n (pl c1q)) i)) (mul RI b (at_ (tab n (pl c2q)) i)))
                                        (mul RI d (at_ (tab n (pl c3q)) i)))) as HL.
    { intros a b d. apply (sub_ext _ _ HV) with (x := fun i => a * pl c1q i + b * pl c2q i + d * pl c3q i).
      - intros i Hi. rewrite !at_tab by exact Hi. reflexivity.
      - apply (sub_lin3 HV); apply HP. }
    split; intros [|[|[|k]]] Hk; try lia; apply Htab; first [apply HP|apply HL].
Qed.

Lemma update_sub (y : state) : ssafe n y -> zsub y -> fsub y -> zsub (newton_update y) /\ fsub (newton_update y).
Proof.
  intros Hs Hz Hf.
  assert (fsub (newton_update y)) as Hf'.
  { intros k Hk. apply (sub_ext _ _ HV) with (x := fun i => comp (ff (i_cache y) k) i + comp (zz (i_cache y) k) i).
    - intros i Hi. symmetry. apply (update_R inf n y i Hs Hi).
    - apply (sub_plus HV); auto. }
  split; [|exact Hf']. intros k Hk.
  apply (sub_ext _ _ HV) with (x := fun i => d3 (cT inf k) (fun l => comp (ff (i_cache (newton_update y)) l) i)).
  - intros i Hi. symmetry. now apply (update_R inf n y i Hs Hi).
  - now apply (sub_d3 HV).
Qed.

(** The right-hand side and the matrices respect the subspace. *)
Definition rhs_sub (v : list R) (s : state) : Prop := forall d u t, length d = n -> length u = n -> in_coset V v u ->
  V (i_dudt s d u t (i_params s)).

Lemma pass_sub v h (J : mat RI) (x y : state) : h <> 0 -> ssafe n x -> factors n h J (i_cache x) -> ~ blind n h J ->
  (forall z, V z -> V (jmul n J z)) -> rhs_sub v x -> in_coset V v (i_u x) -> newton_pass x = Ok y ->
  zsub x -> fsub x -> zsub y /\ fsub y.
Proof.
  intros Hh Hx Hfx Hnb HJ Hr Hu Hp Zx Fx.
  pose proof (newton_pass_safe n x y Hn Hx Hp) as Hy.
  pose proof (newton_pass_eq n x y Hx Hp) as (Ff & _).
  assert (fsub y) as Fy by (intros k Hk; rewrite Ff; auto). split; [|exact Fy].
  destruct (pass_solved inf n h J x y Hn Hh Hx Hy Hfx Hp) as [Hb|Hs]; [contradiction|].
  assert (forall k, (k < 3)%nat -> V (comp (stage_rhs x k))) as HF.
  { intros k Hk. pose proof (ssafe_zz inf n x k Hx) as Lz.
    eapply (sub_ext _ _ HV); [|apply (Hr (zz (i_cache x) k) (stage_point x k) (stage_time x k))].
    - intros i Hi. unfold stage_rhs. rewrite <- (at_comp inf) by (rewrite call_rhs_length; cbn in *; lia).
      rewrite call_rhs_at by (cbn in *; lia). reflexivity.
    - exact Lz.
    - unfold stage_point. rewrite tab_length. apply Hx.
    - apply (sub_ext _ _ HV) with (x := fun i => (comp (i_u x) i - comp v i) + comp (zz (i_cache x) k) i).
      + intros i Hi. unfold stage_point. rewrite (proj1 Hx), comp_tab by exact Hi. cbn [add RA].
        pose proof (proj1 Hx) as Lu. rewrite !(at_comp inf) by (cbn in *; lia). ring.
      + apply (sub_plus HV); [exact Hu|auto]. }
  assert (forall m, (m < 3)%nat -> V (fun i => d3 (cTI inf m) (fun k => comp (stage_rhs x k) i))) as HD.
  { intros m Hm. apply (sub_d3 HV). exact HF. }
  set (g := radau_gamma / h). set (a := @rALPHA RI / h). set (b := @rBETA RI / h).
  assert (V (comp (zz (i_cache y) 0))) as Z0.
  { apply (real_sub h J (i_cache x) Hh Hfx Hnb HJ).
    apply (sub_ext _ _ HV) with (x := fun i => - g * comp (ff (i_cache x) 0) i + d3 (cTI inf 0) (fun k => comp (stage_rhs x k) i)).
    - intros i Hi. rewrite <- (Hs i 0%nat Hi) by lia. unfold lam, jmul, g. change (@rU1 RI) with radau_gamma. field. exact Hh.
    - apply (sub_comb _ _ HV); [apply Fx; lia|apply HD; lia]. }
  assert (V (comp (zz (i_cache y) 1)) /\ V (comp (zz (i_cache y) 2))) as (Z1 & Z2).
  { apply (cplx_sub h J (i_cache x) Hh Hfx HJ).
    - apply (sub_ext _ _ HV) with (x := fun i => - a * comp (ff (i_cache x) 1) i + (b * comp (ff (i_cache x) 2) i + d3 (cTI inf 1) (fun k => comp (stage_rhs x k) i))).
      + intros i Hi. rewrite <- (Hs i 1%nat Hi) by lia. unfold lam, jmul, a, b. field. exact Hh.
      + apply (sub_comb _ _ HV); [apply Fx; lia|]. apply (sub_comb _ _ HV); [apply Fx; lia|apply HD; lia].
    - apply (sub_ext _ _ HV) with (x := fun i => - a * comp (ff (i_cache x) 2) i + (- b * comp (ff (i_cache x) 1) i + d3 (cTI inf 2) (fun k => comp (stage_rhs x k) i))).
      + intros i Hi. rewrite <- (Hs i 2%nat Hi) by lia. unfold lam, jmul, a, b. field. exact Hh.
      + apply (sub_comb _ _ HV); [apply Fx; lia|]. apply (sub_comb _ _ HV); [apply Fx; lia|apply HD; lia]. }
  intros [|[|[|k]]] Hk; try lia; assumption.
Qed.

Lemma still_rhs v (s s' : state) : newton_still s s' -> rhs_sub v s -> rhs_sub v s'.
Proof.
  intros H. pose proof (q_prob _ _ (nf_quiet _ _ (ns_frame _ _ H))) as (Ed & _ & _ & Ep & _).
  unfold rhs_sub. now rewrite Ed, Ep.
Qed.

Lemma loop_sub v h (J : mat RI) : h <> 0 -> ~ blind n h J -> (forall z, V z -> V (jmul n J z)) ->
  forall fuel d (x s' : state), ssafe n x -> factors n h J (i_cache x) -> rhs_sub v x -> in_coset V v (i_u x) ->
  zsub x -> fsub x -> newton_loop fuel d x = Ok (s', true) -> zsub s' /\ fsub s'.
Proof.
  intros Hh Hnb HJ. induction fuel as [|fuel IH]; intros d x s' Hx Hfx Hr Hu Zx Fx H; [discriminate|].
  rewrite newton_loop_S in H. destruct (Nat.leb _ _).
  { apply newton_fail_inv in H as (E & _). discriminate. }
  apply bind_ok in H as (y & Hp & H). cbv zeta in H.
  apply bind_ok in H as ([z r] & Hc & H).
  pose proof (newton_pass_safe n x y Hn Hx Hp) as Hsy.
  pose proof (newton_check_safe n _ _ _ _ _ Hsy Hc) as Hsz.
  apply newton_check_inv in Hc as (C1 & C2 & _ & C3 & C4 & C5 & C6 & C7 & C8 & C9 & Hf & _).
  destruct r as [out|].
  { destruct (Hf _ eq_refl) as (fac & b & _ & F). inversion H; subst out.
    apply newton_fail_inv in F as (E & _). discriminate. }
  destruct (pass_sub v h J x y Hh Hx Hfx Hnb HJ Hr Hu Hp Zx Fx) as (Zy & Fy).
  assert (newton_still x z) as Hst.
  { apply newton_pass_inv in Hp as (Hp & _). eapply newton_still_trans; [exact Hp|exact C1]. }
  assert (zsub z /\ fsub z) as (Zz & Fz).
  { assert (forall k, zz (i_cache z) k = zz (i_cache y) k) as Ezz by (intros [|[|k]]; assumption).
    assert (forall k, ff (i_cache z) k = ff (i_cache y) k) as Eff by (intros [|[|k]]; assumption).
    split; intros k Hk; rewrite ?Ezz, ?Eff; auto. }
  pose proof (update_sub z Hsz Zz Fz) as (Zw & Fw).
  destruct (leb RI _ _) eqn:El.
  - assert (s' = newton_update z) as -> by (inversion H; reflexivity). auto.
  - assert (newton_still x (newton_update z)) as Hsw by (eapply newton_still_trans; [exact Hst|apply newton_update_still]).
    apply (IH _ (newton_update z) s') in H; auto.
    + now apply newton_update_safe.
    + eapply nf_factors; [apply Hsw|exact Hfx].
    + eapply still_rhs; eassumption.
    + pose proof (q_point _ _ (nf_quiet _ _ (ns_frame _ _ Hsw))) as (Eu & _). rewrite Eu. exact Hu.
Qed.

Lemma newton_sub v h (J : mat RI) fuel (s s' : state) : h <> 0 -> ~ blind n h J -> (forall z, V z -> V (jmul n J z)) ->
  ssafe n s -> factors n h J (i_cache s) -> rhs_sub v s -> in_coset V v (i_u s) -> csub (i_cache s) ->
  newton fuel s = Ok (s', true) -> zsub s'.
Proof.
  intros Hh Hnb HJ Hs Hfs Hr Hu Hc. unfold newton, guard. destruct (radau_shapes s); [|discriminate]. cbv zeta. intros H.
  pose proof (prepare_newton_still s) as Hst. pose proof (prepare_safe n s Hs) as Hsp.
  pose proof (prepare_sub s Hs Hc) as (Zp & Fp).
  match type of H with newton_loop _ _ ?w = _ => set (x := w) in * end.
  assert (newton_still s x) as Hsx by (eapply newton_still_trans; [exact Hst|apply newton_start_still]).
  assert (ssafe n x /\ zsub x /\ fsub x) as (Sx & Zx & Fx).
  { unfold x. clear H Hst Hsx x. revert Hsp Zp Fp. generalize (prepare_newton s) as q. intros q Hq Zq Fq. split; [|split].
    - eapply ssafe_same; [exact Hq|reflexivity|]. intros []. constructor; assumption.
    - intros k Hk. specialize (Zq k Hk). destruct k as [|[|k]]; exact Zq.
    - intros k Hk. specialize (Fq k Hk). destruct k as [|[|k]]; exact Fq. }
  clearbody x. apply (loop_sub v h J Hh Hnb HJ) in H as (Hz & _); auto.
  - eapply nf_factors; [apply Hsx|exact Hfs].
  - eapply still_rhs; eassumption.
  - pose proof (q_point _ _ (nf_quiet _ _ (ns_frame _ _ Hsx))) as (Eu & _). rewrite Eu. exact Hu.
Qed.

(** *** Accepting a step *)
Lemma cont_sub (c : radau_cache RI) : csafe n c -> (forall k, (k < 3)%nat -> V (comp (zz c k))) ->
  csub (c <| cont := radau_cont n c |>).
Proof.
  intros Hc Hz. assert (length (firstn n (cont c)) = n) as Lf by (rewrite firstn_length, (cs_cont _ _ Hc); lia).
  unfold csub. cbn [cont set]. unfold radau_cont. cbv zeta.
  match goal with |- context [tab n ?a ++ tab n ?b ++ tab n ?d] => set (g1 := a); set (g2 := b); set (g3 := d) end.
  assert (skipn n (firstn n (cont c) ++ tab n g1 ++ tab n g2 ++ tab n g3) = tab n g1 ++ tab n g2 ++ tab n g3) as E.
  { rewrite skipn_app, Lf, Nat.sub_diag, (skipn_all2 (firstn n (cont c))) by (cbn in *; lia). reflexivity. }
  assert (V g1 /\ V g2 /\ V g3) as (V1 & V2 & V3).
  { pose proof (cs_z1 _ _ Hc) as L1. pose proof (cs_z2 _ _ Hc) as L2. pose proof (cs_z3 _ _ Hc) as L3.
    pose proof (Hz 0%nat ltac:(lia)) as W0. pose proof (Hz 1%nat ltac:(lia)) as W1. pose proof (Hz 2%nat ltac:(lia)) as W2. cbn [zz] in *.
    assert (@rC2M1 RI <> 0 /\ @rC1MC2 RI <> 0 /\ @rC1 RI <> 0 /\ @rC2 RI <> 0 /\ @rC1M1 RI <> 0) as (K1 & K2 & K3 & K4 & K5)
      by (unfold rC2M1, rC1MC2, rC1, rC2, rC1M1; cbn [lit RA]; unfold rlit; repeat split; lra).
    assert (V (fun i => (at_ (z1 c) i : R)) /\ V (fun i => (at_ (z2 c) i : R)) /\ V (fun i => (at_ (z3 c) i : R))) as (U1 & U2 & U3).
    { split; [|split]; [eapply (sub_ext _ _ HV); [|exact W0]|eapply (sub_ext _ _ HV); [|exact W1]|eapply (sub_ext _ _ HV); [|exact W2]];
        intros i Hi; symmetry; apply (at_comp inf); cbn in *; lia. }
    assert (V g1) as G1.
    { apply (sub_ext _ _ HV) with (x := fun i => / @rC2M1 RI * at_ (z2 c) i + - / @rC2M1 RI * at_ (z3 c) i).
      - intros i Hi. unfold g1. cbn [sub div RA]. rewrite rdiv_ok by assumption. field. assumption.
      - now apply (sub_lin HV). }
    assert (V g2) as G2.
    { apply (sub_ext _ _ HV) with (x := fun i => / (@rC1MC2 RI * @rC1M1 RI) * at_ (z1 c) i + - / (@rC1MC2 RI * @rC1M1 RI) * at_ (z2 c) i + - / @rC1M1 RI * g1 i).
      - intros i Hi. unfold g2. fold (g1 i). cbn [sub div RA]. rewrite !rdiv_ok by assumption. field. auto.
      - now apply (sub_lin3 HV). }
    split; [exact G1|]. split; [exact G2|].
    apply (sub_ext _ _ HV) with (x := fun i => 1 * g2 i + (- / (@rC1MC2 RI * @rC2 RI) + / (@rC1 RI * @rC2 RI)) * at_ (z1 c) i + / (@rC1MC2 RI * @rC2 RI) * at_ (z2 c) i).
    - intros i Hi. unfold g3. fold (g2 i). cbn [sub div RA]. rewrite !rdiv_ok by assumption. field. auto.
    - now apply (sub_lin3 HV). }
  assert (forall k, (k < 3)%nat -> exists g, V g /\ forall i, (i < n)%nat ->
     at_ (tab n g1 ++ tab n g2 ++ tab n g3) (i + k * n) = g i) as HB.
  { intros k Hk. unfold at_. destruct k as [|[|[|k]]]; try lia; [exists g1|exists g2|exists g3]; (split; [assumption|]); intros i Hi.
    - rewrite app_nth1 by (rewrite tab_length; lia). replace (i + 0 * n)%nat with i by lia. now apply at_tab.
    - rewrite app_nth2, tab_length by (rewrite tab_length; lia). replace (i + 1 * n - n)%nat with i by lia.
      rewrite app_nth1 by (rewrite tab_length; lia). now apply at_tab.
    - rewrite app_nth2, tab_length by (rewrite tab_length; lia). rewrite app_nth2, tab_length by (rewrite tab_length; lia).
      replace (i + 2 * n - n - n)%nat with i by lia. now apply at_tab. }
  intros k Hk. destruct (HB k Hk) as (g & Vg & Eg). eapply (sub_ext _ _ HV); [|exact Vg].
  intros i Hi. cbn beta. rewrite <- Eg by exact Hi. symmetry. exact (f_equal (fun l => at_ l (i + k * n)%nat) E).
Qed.

Lemma final_sub v fuel (s s' : state) h J (sm s3 s4 : state) : final_attempt n fuel s s' h J sm s3 s4 -> h <> 0 ->
  ~ blind n h J -> (forall z, V z -> V (jmul n J z)) -> ssafe n s -> rhs_sub v s -> in_coset V v (i_u s) -> csub (i_cache s) ->
  in_coset V v (i_u s') /\ csub (i_cache s').
Proof.
  intros [Fq _ _ _ Ft Fsf Ff _ Fn Fe _ Fa] Hh Hnb HJ Hs Hr Hu Hc.
  pose proof (q_point _ _ Fq) as (Eu & _). pose proof (q_prob _ _ Fq) as (Ed & _ & _ & Ep & _).
  assert (csub (i_cache sm)) as Hcm.
  { intros k Hk. specialize (Hc k Hk). unfold tk in Ft. eapply (sub_ext _ _ HV); [|exact Hc]. intros i Hi. cbn beta.
    exact (f_equal (fun l => at_ l (i + k * n)%nat) (eq_sym Ft)). }
  assert (zsub s3) as Z3.
  { apply (newton_sub v h J fuel sm s3 Hh Hnb HJ Fsf Ff); auto.
    - unfold rhs_sub. rewrite Ed, Ep. exact Hr.
    - rewrite Eu. exact Hu. }
  pose proof Fn as Fn'. apply newton_inv in Fn' as (_ & _ & N & _). specialize (N eq_refl).
  pose proof (error_estimate_inv _ _ Fe) as E. pose proof (radau_accept_inv _ _ Fa) as Ac.
  pose proof (q_point _ _ (nf_quiet _ _ (ns_frame _ _ N))) as (Eu3 & _).
  pose proof (q_point _ _ (ef_quiet _ _ E)) as (Eu4 & _).
  assert (ssafe n s3) as S3.
  { destruct (newton_last n fuel sm s3 Hn Fsf Fn) as (x & yy & zz0 & [_ _ _ _ _ Hz L6 _]).
    rewrite L6. apply newton_update_safe. rewrite <- (proj1 Fsf). exact Hz. }
  assert (ssafe n s4) as S4.
  { destruct (error_estimate_ok n s3 Hn S3) as (q & Eq & Sq). cbn [Cache Radau5] in *. rewrite Fe in Eq. inversion Eq; subst. exact Sq. }
  assert (forall k, zz (i_cache s4) k = zz (i_cache s3) k) as Ez.
  { rewrite (ef_cache _ _ E). intros [|[|k]]; reflexivity. }
  pose proof (proj1 S4) as L4. split.
  - apply (sub_ext _ _ HV) with (x := fun i => (comp (i_u s) i - comp v i) + comp (zz (i_cache s3) 2) i).
    + intros i Hi. rewrite (ac_u _ _ Ac). change (i_u (force_decompose s4)) with (i_u s4).
      change (z3 (i_cache (force_decompose s4))) with (zz (i_cache s4) 2). rewrite Ez.
      rewrite L4, comp_tab by exact Hi. cbn [add RA]. rewrite Eu4, Eu3, Eu.
      pose proof (ssafe_zz inf n s3 2 S3) as Lz. pose proof (proj1 Hs) as Lu.
      rewrite !(at_comp inf) by (cbn in *; lia). ring.
    + apply (sub_plus HV); [exact Hu|apply Z3; lia].
  - assert (csub (i_cache s4 <| cont := radau_cont n (i_cache s4) |>)) as H.
    { apply cont_sub; [apply S4|]. intros k Hk. rewrite Ez. now apply Z3. }
    pose proof (ac_cont _ _ Ac) as Hcc. change (i_u (force_decompose s4)) with (i_u s4) in Hcc. rewrite L4 in Hcc.
    change (radau_cont n (i_cache (force_decompose s4))) with (radau_cont n (i_cache s4)) in Hcc.
    assert (skipn n (cont (i_cache s')) = skipn n (radau_cont n (i_cache s4))) as Et.
    { rewrite Hcc. destruct (o_dense _); [apply set_head_tail|reflexivity]. }
    intros k Hk. specialize (H k Hk). eapply (sub_ext _ _ HV); [|exact H]. intros i Hi. cbn beta.
    exact (f_equal (fun l => at_ l (i + k * n)%nat) (eq_sym Et)).
Qed.
End Fixed.

Lemma new_cont (b : builder RI P) (s : state) : build alg b = Ok s ->
  cont (i_cache s) = zeros (4 * length (b_u b)).
Proof.
  unfold build. cbn [alg_new_cache Radau5]. intros H. apply bind_ok in H as (((b' & c) & tr) & H & E).
  assert (cont (i_cache s) = cont c) as ->.
  { exact (f_equal (fun r => match r with Ok p => cont (i_cache p) | _ => cont c end) (eq_sym E)). }
  unfold radau_new_cache in H. cbv zeta in H. apply bind_ok in H as ((df & tr') & _ & H).
  apply (f_equal (fun r => match r with Ok p => cont (snd (fst p)) | _ => cont c end)) in H. symmetry. exact H.
Qed.

Lemma radau_subspace (b : builder RI P) V fuel k (s0 s : state) :
  let n := length (b_u b) in
  b_u b <> [] -> subspace n V ->
  (forall d u t, length d = n -> length u = n -> in_coset V (b_u b) u -> V (b_dudt b d u t (b_params b))) ->
  (forall t u J, length u = n -> in_coset V (b_u b) u -> square n J -> jacobian_at s0 t u J ->
     (forall x, V x -> V (jmul n J x)) /\ forall h, usable_step b h -> ~ blind n h J) ->
  build alg b = Ok s0 -> reached alg None fuel k s0 s ->
  forall u, In u (us (i_sol s)) -> in_coset V (b_u b) u.
Proof.
  intros n Hu HV Hf HJ Hb Hr.
  assert (0 < n)%nat as Hn by (unfold n; destruct (b_u b); [congruence|cbn; lia]).
  set (Q := fun s : state => (forall u, In u (us (i_sol s)) -> in_coset V (b_u b) u) /\ in_coset V (b_u b) (i_u s)).
  set (C := fun s : state => @csub n V (i_cache s)).
  assert (forall k s s' r, continues alg None fuel k s0 s -> Q s /\ C s -> step alg None fuel s = Ok (s', r) ->
    Q s' /\ (rc (i_sol s') = RContinue -> C s')) as Hstep.
  { clear k s Hr. intros k s s' r Hc ((Q1 & Q2) & HC) Hs.
    destruct (run_stored b fuel s0 Hu Hb k s Hc) as (_ & Hss & _ & h0 & J0 & Hd).
    assert (armed (length (b_u b)) h0 J0 s) as Ha by (split; [exact Hss|]; destruct Hd as [Hd|(Hd & _)]; auto).
    destruct (radau_one_point inf b fuel k s0 s s' r Hu Hb Hc Hs) as [(E1 & E2 & E3)|(E1 & E2)].
    - split; [unfold Q; cbn [Cache Radau5] in *; rewrite E2, E3; auto|]. intros Erc. exfalso.
      destruct (call_recorded b fuel k s0 s s' r h0 J0 Hu Hb Hc Ha Hs) as [(_ & Hx)|(_ & Ee)]; [contradiction|].
      pose proof (rse_ts _ _ Ee) as Et. cbn [Cache Radau5] in *. rewrite E1 in Et.
      symmetry in Et. apply (f_equal (@length _)) in Et. rewrite app_length in Et. cbn in Et. lia.
    - destruct (recorded_final b fuel k s0 s s' r Hu Hb Hc Hs) as (h & J & sm & s3 & s4 & Hfin & Hm & Hnt & (t & u & Hin & Hj) & _ & _).
      { cbn [Cache Radau5] in *. rewrite E1. intros E. apply (f_equal (@length _)) in E. rewrite app_length in E. cbn in E. lia. }
      fold n in Hfin, Hss. apply not_tiny_R in Hnt.
      assert (usable_step b h) as Hus.
      { split; [exact Hnt|]. intros Ho H1 H2. apply (fwd_recorded_matrix inf b fuel s0 Ho H1 H2 Hu Hb k s s' r h Hc Hs); [|exact Hm].
        cbn [Cache Radau5] in *. rewrite E1. intros E. apply (f_equal (@length _)) in E. rewrite app_length in E. cbn in E. lia. }
      pose proof (continues_steps_n alg None fuel k s0 s Hc) as Hst.
      destruct (radau_frame b fuel k s0 s Hb Hst) as (Pf & Pg & _ & Pp & _).
      destruct (radau_frame b fuel 0 s0 s0 Hb eq_refl) as (Pf0 & Pg0 & _ & Pp0 & _).
      pose proof (radau_recorded b None fuel k s0 s no_callback_benign Hb Hst) as [_ _ _ _ Hdim _].
      assert (square n J) as Hsq by exact (shaped_square inf _ _ (fa_shape _ _ _ _ (fi_fac _ _ _ _ _ _ _ _ _ Hfin))).
      assert (In u (us (i_sol s))) as Hiu by exact (in_combine_r _ _ _ _ Hin).
      assert (length u = n) as Lu by exact (proj1 (Forall_forall _ _) Hdim u Hiu).
      cbn [Cache Radau5] in *.
      assert (jacobian_at s0 t u J) as Hj0.
      { destruct Hj as (df & tr & tr' & E). exists df, tr, tr'. now rewrite Pf0, Pg0, Pp0, <- Pf, <- Pg, <- Pp. }
      destruct (HJ t u J Lu (Q1 u Hiu) Hsq Hj0) as (HJV & Hnb).
      destruct (final_sub Hn HV (b_u b) fuel s s' h J sm s3 s4 Hfin Hnt (Hnb h Hus) HJV Hss) as (G1 & G2); auto.
      { unfold rhs_sub. rewrite Pf, Pp. exact Hf. }
      split; [|intros _; exact G2]. split; [|exact G1].
      intros w Hw. rewrite E2 in Hw. apply in_app_or in Hw as [Hw|[<-|[]]]; auto. }
  assert (Q s0 /\ C s0) as Q0.
  { pose proof (radau_build_inv _ _ Hb) as B. pose proof (rb_sol _ _ B) as E5. pose proof (rb_u _ _ B) as E7.
    assert (in_coset V (b_u b) (b_u b)) as H0.
    { apply (sub_ext _ _ HV) with (x := fun _ => 0); [intros; ring|apply (sub_zero _ _ HV)]. }
    split.
    - unfold Q. cbn [Cache Radau5] in *. rewrite E5, E7. split; [|exact H0]. intros u [<-|[]]. exact H0.
    - unfold C, csub. pose proof (new_cont b s0 Hb) as Ec. intros k0 Hk0.
      apply (sub_ext _ _ HV) with (x := fun _ => 0); [|apply (sub_zero _ _ HV)]. intros i Hi. cbn [Cache Radau5] in *. rewrite Ec.
      unfold at_. rewrite <- nth_skip. unfold zeros. rewrite nth_repeat. rnorm. lra. }
  assert (forall k s, continues alg None fuel k s0 s -> Q s /\ C s) as Hcont.
  { apply (continues_back fuel s0 (fun _ s => Q s /\ C s)); [exact Q0|]. intros k1 x x' m Hc Hq Hs.
    destruct (Hstep k1 x x' (Some m) Hc Hq Hs) as (G1 & G2). split; [exact G1|]. apply G2. eapply step_some_rc. exact Hs. }
  destruct Hr as [x|k1 x x1 x2 r Hc Hs]; [apply Q0|]. eapply Hstep; [exact Hc| |exact Hs]. eapply Hcont. exact Hc.
Qed.

(** *** Components held at their initial values *)
Definition held (n : nat) (F : nat -> Prop) (x : nat -> R) : Prop := forall i, (i < n)%nat -> F i -> x i = 0.
Lemma held_subspace n (F : nat -> Prop) : subspace n (held n F).
Proof.
  constructor.
  - intros x y E H i Hi HF. rewrite <- E by exact Hi. now apply H.
  - intros i _ _. reflexivity.
  - intros a x y Hx Hy i Hi HF. rewrite (Hx i Hi HF), (Hy i Hi HF). ring.
Qed.

Lemma moved_comp (u : vec RI) j i : (j < length u)%nat -> (i < length u)%nat -> i <> j -> comp (moved u j) i = comp u i.
Proof.
  intros Hj Hi Hne. rewrite <- !(at_comp inf) by (rewrite ?moved_length; assumption). unfold moved.
  unfold at_. rewrite upd_nth by exact Hj. destruct (Nat.eqb_spec i j); [contradiction|reflexivity].
Qed.

Lemma held_jac n (F : nat -> Prop) (v : list R) (s : state) t u J : overwrites (i_dudt s) -> length u = n -> square n J -> jac_of s t u J ->
  (forall d u t i, length d = n -> length u = n -> (forall j, (j < n)%nat -> F j -> comp u j = comp v j) -> (i < n)%nat -> F i ->
     i_dudt s d u t (i_params s) i = 0) ->
  match i_dfdu s with
  | None => True
  | Some g => forall buf u t i j, (forall j, (j < n)%nat -> F j -> comp u j = comp v j) -> (i < n)%nat -> F i -> (j < n)%nat -> ~ F j ->
      g buf u t (i_params s) i j = 0
  end ->
  (forall j, (j < n)%nat -> F j -> comp u j = comp v j) ->
  forall i j, (i < n)%nat -> F i -> (j < n)%nat -> ~ F j -> entry J i j = 0.
Proof.
  intros How Hu HJ (df & tr & tr' & E) Hw Hg Huv i j Hi HFi Hj HFj. destruct (i_dfdu s) as [g|].
  - cbn [jacobian_u] in E. assert (J = call_jac g df u t (i_params s)) as -> by congruence.
    rewrite <- (Hg df u t i j Huv Hi HFi Hj HFj). now apply (call_jac_entry inf _ _ _ _ _ n).
  - assert (shaped n n df) as Hdf by (eapply lens_shaped; [eapply jac_lens; exact E|apply is_shape_spec; exact HJ]).
    rewrite <- Hu in Hdf. destruct (jacobian_fd (i_dudt s) df u t (i_params s) tr How Hdf) as (df' & E' & S' & H').
    cbn [num RA] in *. rewrite E in E'. assert (J = df') as -> by congruence. rewrite Hu in *.
    rewrite <- (at2_entry inf n) by assumption. rewrite H' by assumption.
    rewrite !call_rhs_at by (rewrite zeros_length; exact Hi). cbn [div sub RA].
    rewrite rdiv_ok by (apply Rgt_not_eq, fd_delta_pos).
    rewrite !Hw; try (unfold Rdiv; ring); auto using zeros_length.
    + rewrite moved_length. exact Hu.
    + intros q Hq HFq. rewrite moved_comp by (cbn in *; try lia; intros ->; contradiction). auto.
Qed.

Lemma radau_held (b : builder RI P) (F : nat -> Prop) fuel k (s0 s : state) :
  (forall i, {F i} + {~ F i}) ->
  let n := length (b_u b) in
  let frozen u := forall i, (i < n)%nat -> F i -> comp u i = comp (b_u b) i in
  overwrites (b_dudt b) -> b_u b <> [] ->
  (forall d u t i, length d = n -> length u = n -> frozen u -> (i < n)%nat -> F i -> b_dudt b d u t (b_params b) i = 0) ->
  match b_dfdu b with
  | None => True
  | Some g => forall buf u t i j, frozen u -> (i < n)%nat -> F i -> (j < n)%nat -> ~ F j -> g buf u t (b_params b) i j = 0
  end ->
  (forall t u J h, length u = n -> frozen u -> square n J -> jacobian_at s0 t u J -> usable_step b h -> ~ blind n h J) ->
  build alg b = Ok s0 -> reached alg None fuel k s0 s ->
  forall u, In u (us (i_sol s)) -> frozen u.
Proof.
  intros dec n frozen How Hu Hf Hg Hbl Hb Hr u Hin.
  assert (forall u, in_coset (held n F) (b_u b) u -> frozen u) as Hfr.
  { intros w Hw i Hi HF. specialize (Hw i Hi HF). cbn beta in Hw. lra. }
  apply Hfr. revert u Hin.
  eapply (radau_subspace b (held n F) fuel k s0 s Hu (held_subspace n F)); [| |exact Hb|exact Hr].
  - intros d u t Ld Lu Hc i Hi HF. apply Hf; auto.
  - intros t u J Lu Hc HJ Hj. split.
    2: { intros h Hh. apply (Hbl t u J h Lu (Hfr u Hc) HJ Hj Hh). }
    destruct (radau_frame b fuel 0 s0 s0 Hb eq_refl) as (Pf0 & Pg0 & _ & Pp0 & _). cbn [Cache Radau5] in *.
    assert (forall i j, (i < n)%nat -> F i -> (j < n)%nat -> ~ F j -> entry J i j = 0) as HZ.
    { apply (held_jac n F (b_u b) s0 t u J); rewrite ?Pf0, ?Pg0, ?Pp0; auto. exact (Hfr u Hc). }
    intros x Hx i Hi HF. unfold jmul. rewrite (rsum_ext n _ (fun _ => 0)); [apply rsum_zero|].
    intros j Hj'. destruct (dec j) as [Fj|Fj].
    + rewrite (Hx j Hj' Fj). ring.
    + rewrite HZ by assumption. ring.
Qed.

Lemma radau_equilibrium (b : builder RI P) fuel k (s0 s : state) :
  let n := length (b_u b) in
  overwrites (b_dudt b) -> b_u b <> [] ->
  (forall d t i, length d = n -> (i < n)%nat -> b_dudt b d (b_u b) t (b_params b) i = 0) ->
  (forall t J h, square n J -> jacobian_at s0 t (b_u b) J -> usable_step b h -> ~ blind n h J) ->
  build alg b = Ok s0 -> reached alg None fuel k s0 s ->
  forall u, In u (us (i_sol s)) -> u = b_u b.
Proof.
  intros n How Hu Hf Hbl Hb Hr u Hin.
  assert (forall w : list R, length w = n -> (forall i, (i < n)%nat -> True -> comp w i = comp (b_u b) i) -> w = b_u b) as Hext.
  { intros w Lw Hw. apply nth_ext with (d := 0) (d' := 0); [exact Lw|]. intros i Hi. apply Hw; [cbn in *; lia|exact I]. }
  assert (length u = n) as Lu.
  { pose proof (radau_recorded b None fuel k s0 s no_callback_benign Hb (reached_steps_n _ _ _ _ _ _ Hr)) as [_ _ _ _ Hdim _].
    exact (proj1 (Forall_forall _ _) Hdim u Hin). }
  apply Hext; [exact Lu|]. revert u Hin Lu. intros u Hin _.
  refine (radau_held b (fun _ => True) fuel k s0 s (fun _ => left I) How Hu _ _ _ Hb Hr u Hin).
  - intros d w t i Ld Lw Hw Hi _. rewrite (Hext w Lw Hw). now apply Hf.
  - destruct (b_dfdu b) as [g|]; [|exact I]. intros buf w t i j0 _ _ _ _ Hno. now destruct Hno.
  - intros t w J h Lw Hw. rewrite (Hext w Lw Hw). apply Hbl.
Qed.
End SubR.
