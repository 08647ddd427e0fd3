(** The stage equations behind every recorded step of Radau5, in exact
    arithmetic. *)
From Coq Require Import ZArith List Bool Lia Reals Lra.
From RecordUpdate Require Import RecordSet.
From Verif Require Import Arith Vec Core Spec Jacobian Linalg Driver VecFacts DP5Facts DP5Inv DP5Det LinFacts LinFactsC
  Radau RadauFacts RadauStep RadauSafe RadauInv RadauHist RadauKeep RadauJac ArithR SpecRK RKFacts SpecLin LinSpec LinThm
  SpecRadau RadauR RadauDense SpecStage StageConst RadauSolve.
Import ListNotations RecordSetNotations.

Section PassA.
Context {A : arith} {P : Type}.
Notation state := (integ A P (radau_cache A)).

Definition zz (c : radau_cache A) (k : nat) : vec A := match k with O => z1 c | S O => z2 c | _ => z3 c end.
Definition ff (c : radau_cache A) (k : nat) : vec A := match k with O => f1 c | S O => f2 c | _ => f3 c end.
Definition stage_time (s : state) (k : nat) : num A :=
  add A (i_t s) (match k with O => mul A rC1 (i_dt s) | S O => mul A rC2 (i_dt s) | _ => i_dt s end).
Definition stage_point (s : state) (k : nat) : vec A :=
  tab (length (i_u s)) (fun i => add A (at_ (i_u s) i) (at_ (zz (i_cache s) k) i)).
Definition stage_rhs (s : state) (k : nat) : vec A :=
  call_rhs (i_dudt s) (zz (i_cache s) k) (stage_point s k) (stage_time s k) (i_params s).
Definition lin (a b d : num A) (g : nat -> vec A) (i : nat) : num A :=
  add A (add A (mul A a (at_ (g 0) i)) (mul A b (at_ (g 1) i))) (mul A d (at_ (g 2) i)).

Lemma at_tab n (g : nat -> num A) i : i < n -> at_ (tab n g) i = g i.
Proof. apply tab_nth. Qed.

Lemma linear_solve_eq n (w y : state) : length (e1 (i_cache w)) = n -> linear_solve w = Ok y ->
  let c := i_cache w in
  (forall k, ff (i_cache y) k = ff c k) /\
  sol n (e1 c) (tab n (fun i => sub A (at_ (z1 c) i) (mul A (at_ (f1 c) i) (fac1 c)))) (ip1 c)
    = Ok (z1 (i_cache y)) /\
  solc n (e2r c) (e2i c)
    (tab n (fun i => sub A (add A (at_ (z2 c) i) (mul A (opp A (at_ (f2 c) i)) (alphn c)))
                           (mul A (opp A (at_ (f3 c) i)) (betan c))))
    (tab n (fun i => add A (add A (at_ (z3 c) i) (mul A (opp A (at_ (f3 c) i)) (alphn c)))
                           (mul A (opp A (at_ (f2 c) i)) (betan c))))
    (ip2 c) = Ok (z2 (i_cache y), z3 (i_cache y)).
Proof.
  intros Hn. cbv zeta. unfold linear_solve. rewrite Hn. intros H. apply bind_ok in H as (x1 & H1 & H).
  apply bind_ok in H as ([x2 x3] & H2 & H3). inversion H3; subst y; clear H3.
  split; [intros [|[|k]]; reflexivity|]. split; [exact H1|exact H2].
Qed.
Lemma newton_transform_eq n (w : state) : length (i_u w) = n ->
  z1 (i_cache (newton_transform w)) = tab n (lin rTI11 rTI12 rTI13 (zz (i_cache w))) /\
  z2 (i_cache (newton_transform w)) = tab n (lin rTI21 rTI22 rTI23 (zz (i_cache w))) /\
  z3 (i_cache (newton_transform w)) = tab n (lin rTI31 rTI32 rTI33 (zz (i_cache w))) /\
  (let c := i_cache (newton_transform w) in let c' := i_cache w in
   (forall k, ff c k = ff c' k) /\ fac1 c = fac1 c' /\ alphn c = alphn c' /\ betan c = betan c' /\
   e1 c = e1 c' /\ ip1 c = ip1 c' /\ e2r c = e2r c' /\ e2i c = e2i c' /\ ip2 c = ip2 c') /\
  i_trace (newton_transform w) = i_trace w.
Proof. intros <-. repeat split. Qed.
Lemma newton_rhs_eq (x : state) :
  (forall k, zz (i_cache (newton_rhs x)) k = stage_rhs x k) /\
  (let c := i_cache (newton_rhs x) in let c' := i_cache x in
   (forall k, ff c k = ff c' k) /\ fac1 c = fac1 c' /\ alphn c = alphn c' /\ betan c = betan c' /\
   e1 c = e1 c' /\ ip1 c = ip1 c' /\ e2r c = e2r c' /\ e2i c = e2i c' /\ ip2 c = ip2 c') /\
  i_u (newton_rhs x) = i_u x /\
  i_trace (newton_rhs x) = EvF (stage_time x 2) (stage_point x 2) :: EvF (stage_time x 1) (stage_point x 1)
              :: EvF (stage_time x 0) (stage_point x 0) :: i_trace x.
Proof. repeat split; intros [|[|k]]; reflexivity. Qed.

Definition same_factors (c' c : radau_cache A) : Prop :=
   (forall k, ff c k = ff c' k) /\ fac1 c = fac1 c' /\ alphn c = alphn c' /\ betan c = betan c' /\
   e1 c = e1 c' /\ ip1 c = ip1 c' /\ e2r c = e2r c' /\ e2i c = e2i c' /\ ip2 c = ip2 c'.
Lemma pass_glue n (x w v s1 : state) :
  length (e1 (i_cache x)) = n ->
  (forall k, zz (i_cache w) k = stage_rhs x k) -> same_factors (i_cache x) (i_cache w) ->
  i_trace w = EvF (stage_time x 2) (stage_point x 2) :: EvF (stage_time x 1) (stage_point x 1)
              :: EvF (stage_time x 0) (stage_point x 0) :: i_trace x ->
  z1 (i_cache v) = tab n (lin rTI11 rTI12 rTI13 (zz (i_cache w))) ->
  z2 (i_cache v) = tab n (lin rTI21 rTI22 rTI23 (zz (i_cache w))) ->
  z3 (i_cache v) = tab n (lin rTI31 rTI32 rTI33 (zz (i_cache w))) ->
  same_factors (i_cache w) (i_cache v) -> i_trace v = i_trace w ->
  linear_solve v = Ok s1 ->
  let c := i_cache x in
  (forall k, ff (i_cache s1) k = ff c k) /\
  sol n (e1 c) (tab n (fun i => sub A (lin rTI11 rTI12 rTI13 (stage_rhs x) i) (mul A (at_ (f1 c) i) (fac1 c)))) (ip1 c)
    = Ok (z1 (i_cache s1)) /\
  solc n (e2r c) (e2i c)
    (tab n (fun i => sub A (add A (lin rTI21 rTI22 rTI23 (stage_rhs x) i) (mul A (opp A (at_ (f2 c) i)) (alphn c)))
                           (mul A (opp A (at_ (f3 c) i)) (betan c))))
    (tab n (fun i => add A (add A (lin rTI31 rTI32 rTI33 (stage_rhs x) i) (mul A (opp A (at_ (f3 c) i)) (alphn c)))
                           (mul A (opp A (at_ (f2 c) i)) (betan c))))
    (ip2 c) = Ok (z2 (i_cache s1), z3 (i_cache s1)) /\
  i_trace s1 = EvF (stage_time x 2) (stage_point x 2) :: EvF (stage_time x 1) (stage_point x 1)
              :: EvF (stage_time x 0) (stage_point x 0) :: i_trace x.
Proof.
  intros Le R1 (R2 & R3 & R4 & R5 & R6 & R7 & R8 & R9 & R10) R12 T1 T2 T3 (S2 & S3 & S4 & S5 & S6 & S7 & S8 & S9 & S10) S12 H.
  cbv zeta.
  assert (length (e1 (i_cache v)) = n) as Lv by (rewrite S6, R6; exact Le).
  pose proof (linear_solve_trace _ _ H) as [Ht _].
  pose proof (linear_solve_eq n v s1 Lv H) as (L1 & L2 & L3). clear H.
  assert (forall k, ff (i_cache v) k = ff (i_cache x) k) as Hf by (intros k; rewrite S2; apply R2).
  pose proof (Hf 0) as F1. pose proof (Hf 1) as F2. pose proof (Hf 2) as F3. cbn [ff] in F1, F2, F3.
  rewrite T1, F1, S3, R3, S6, R6, S7, R7 in L2.
  rewrite T2, T3, F2, F3, S4, R4, S5, R5, S8, R8, S9, R9, S10, R10 in L3.
  assert (forall a b d i, lin a b d (zz (i_cache w)) i = lin a b d (stage_rhs x) i) as Hl.
  { intros. unfold lin. rewrite !R1. reflexivity. }
  split; [|split; [|split]].
  - intros k. rewrite <- Hf, <- L1. reflexivity.
  - etransitivity; [|exact L2]. f_equal. apply tab_ext. intros i Hi. now rewrite at_tab, Hl by exact Hi.
  - etransitivity; [|exact L3]. f_equal; apply tab_ext; intros i Hi; now rewrite at_tab, Hl by exact Hi.
  - now rewrite Ht, S12.
Qed.

Lemma newton_pass_split (x y : state) : newton_pass x = Ok y ->
  exists s1, linear_solve (newton_transform (newton_rhs x)) = Ok s1 /\
    y = s1 <| i_stats; linear_solves ::= S |> <| i_cache; newt ::= S |>.
Proof.
  unfold newton_pass. generalize (linear_solve (newton_transform (newton_rhs x))). intros r H.
  apply bind_ok in H as (s1 & H & E). exists s1. split; [exact H|]. congruence.
Qed.

Lemma newton_pass_eq n (x y : state) : ssafe n x -> newton_pass x = Ok y ->
  let c := i_cache x in
  (forall k, ff (i_cache y) k = ff c k) /\
  sol n (e1 c) (tab n (fun i => sub A (lin rTI11 rTI12 rTI13 (stage_rhs x) i) (mul A (at_ (f1 c) i) (fac1 c)))) (ip1 c)
    = Ok (z1 (i_cache y)) /\
  solc n (e2r c) (e2i c)
    (tab n (fun i => sub A (add A (lin rTI21 rTI22 rTI23 (stage_rhs x) i) (mul A (opp A (at_ (f2 c) i)) (alphn c)))
                           (mul A (opp A (at_ (f3 c) i)) (betan c))))
    (tab n (fun i => add A (add A (lin rTI31 rTI32 rTI33 (stage_rhs x) i) (mul A (opp A (at_ (f3 c) i)) (alphn c)))
                           (mul A (opp A (at_ (f2 c) i)) (betan c))))
    (ip2 c) = Ok (z2 (i_cache y), z3 (i_cache y)) /\
  i_trace y = EvF (stage_time x 2) (stage_point x 2) :: EvF (stage_time x 1) (stage_point x 1)
              :: EvF (stage_time x 0) (stage_point x 0) :: i_trace x.
Proof.
  intros [Hu Hc] H. apply newton_pass_split in H as (s1 & H & E).
  pose proof (shaped_len _ _ (cs_e1 _ _ Hc)) as Le.
  pose proof (newton_rhs_eq x) as (R1 & R2 & R11 & R12).
  assert (length (i_u (newton_rhs x)) = n) as Lw by (rewrite R11; exact Hu).
  pose proof (newton_transform_eq n (newton_rhs x) Lw) as (T1 & T2 & T3 & S2 & S12).
  pose proof (pass_glue n x (newton_rhs x) (newton_transform (newton_rhs x)) s1 Le R1 R2 R12 T1 T2 T3 S2 S12 H) as G.
  clear - G E. subst y. exact G.
Qed.

Lemma prepare_eq n (s : state) : length (i_u s) = n ->
  let c := i_cache (prepare_newton s) in
  (forall k, zz c k = zeros n /\ ff c k = zeros n) \/
  (f1 c = tab n (lin rTI11 rTI12 rTI13 (zz c)) /\ f2 c = tab n (lin rTI21 rTI22 rTI23 (zz c)) /\
   f3 c = tab n (lin rTI31 rTI32 rTI33 (zz c))).
Proof.
  intros <-. unfold prepare_newton. destruct (_ || _)%bool; [left; intros [|[|k]]; split; reflexivity|right].
  repeat split.
Qed.
Lemma update_eq n (y : state) : length (i_u y) = n ->
  let c := i_cache (newton_update y) in
  (forall k, ff c k = tab n (fun i => add A (at_ (ff (i_cache y) k) i) (at_ (zz (i_cache y) k) i))) /\
  z1 c = tab n (lin rT11 rT12 rT13 (ff c)) /\ z2 c = tab n (lin rT21 rT22 rT23 (ff c)) /\
  z3 c = tab n (fun i => add A (mul A rT31 (at_ (f1 c) i)) (at_ (f2 c) i)).
Proof. intros <-. split; [intros [|[|k]]; reflexivity|]. repeat split. Qed.
End PassA.

Local Open Scope R_scope.

Section StageR.
Variable inf : R.
Context {P : Type}.
Notation RI := (RA inf).
Notation state := (integ RI P (radau_cache RI)).
Notation alg := (@Radau5 RI P).

Lemma rsum_delta n (g : nat -> R) i : (i < n)%nat -> rsum n (fun j => if Nat.eqb i j then g j else 0) = g i.
Proof.
  induction n as [|n IH]; intros Hi; [lia|]. rewrite rsum_S. destruct (Nat.eq_dec i n) as [->|Ne].
  - rewrite Nat.eqb_refl. rewrite (rsum_ext n _ (fun _ => 0)), rsum_zero; [ring|].
    intros j Hj. destruct (Nat.eqb_spec n j); [lia|reflexivity].
  - rewrite IH by lia. destruct (Nat.eqb_spec i n); [lia|ring].
Qed.
Lemma rsum_minus n g h : rsum n (fun i => g i - h i) = rsum n g - rsum n h.
Proof.
  rewrite (rsum_ext n _ (fun i => g i + (-1) * h i)) by (intros; ring). rewrite rsum_plus, rsum_scale. ring.
Qed.

Lemma shaped_square n (a : mat RI) : shaped n n a -> square n a.
Proof. intros H. apply is_shape_spec in H. exact H. Qed.

Lemma eye_entry n (x : R) i j : (i < n)%nat -> (j < n)%nat ->
  entry (scaled_eye (A:=RI) n x) i j = if Nat.eqb i j then x else 0.
Proof.
  intros Hi Hj. rewrite <- (at2_entry inf n) by (try assumption; apply shaped_square, scaled_eye_shaped).
  unfold scaled_eye. rewrite tab2_at by assumption. rnorm. destruct (Nat.eqb i j); lra.
Qed.
Lemma msub_at n (a b : mat RI) i j : shaped n n a -> shaped n n b -> (i < n)%nat -> (j < n)%nat ->
  at2 (msub a b) i j = sub RI (at2 a i j) (at2 b i j).
Proof.
  intros Ha Hb Hi Hj. unfold msub, at2.
  pose proof (shaped_rows _ _ _ Ha) as La. pose proof (shaped_rows _ _ _ Hb) as Lb.
  rewrite nth_indep with (d' := (fun p : vec RI * vec RI => vsub (fst p) (snd p)) ([], []))
    by (rewrite map_length, combine_length; cbn in *; lia).
  rewrite (map_nth (fun p : vec RI * vec RI => vsub (fst p) (snd p))).
  rewrite combine_nth by (cbn in *; lia). cbn [fst snd].
  apply vsub_at; [rewrite (shaped_row n n a i)|rewrite (shaped_row n n b i)]; auto.
Qed.
Lemma matrix_entry n (x : R) (J : mat RI) i j : shaped n n J -> (i < n)%nat -> (j < n)%nat ->
  entry (msub (scaled_eye (A:=RI) n x) J) i j = (if Nat.eqb i j then x else 0) - entry J i j.
Proof.
  intros HJ Hi Hj. pose proof (scaled_eye_shaped (A:=RI) n x) as He.
  rewrite <- (at2_entry inf n) by (try assumption; now apply shaped_square, msub_shaped).
  rewrite (msub_at n) by assumption. rewrite <- (eye_entry n x i j Hi Hj).
  rewrite <- (at2_entry inf n _ i j (shaped_square _ _ HJ) Hi Hj).
  rewrite <- (at2_entry inf n _ i j (shaped_square _ _ He) Hi Hj). reflexivity.
Qed.

Lemma not_blind_regular n h (J : mat RI) ip0 e ip : (0 < n)%nat -> shaped n n J -> h <> 0 -> length ip0 = n ->
  dec n (msub (scaled_eye n (div RI rU1 h)) J) ip0 = Ok (0%nat, e, ip) ->
  blind n h J \/ forall v : vec RI, length v = n -> exists x : vec RI, sol n e v ip = Ok x /\
     solution n (msub (scaled_eye (A:=RI) n (radau_gamma / h)) J) x v.
Proof.
  intros Hn HJ Hh Hl Hd.
  assert (div RI rU1 h = radau_gamma / h) as Eg.
  { cbn [div RA]. rewrite rdiv_ok by exact Hh. reflexivity. }
  rewrite Eg in Hd. set (M := msub _ _) in *.
  assert (square n M) as HM by (apply shaped_square, msub_shaped; [apply scaled_eye_shaped|exact HJ]).
  destruct (dec_sol_thm inf n M ip0 Hn HM Hl) as (code & a' & ip' & E & Hc & Hs).
  cbn [num RA] in *. rewrite Hd in E. inversion E; subst code a' ip'. clear E.
  destruct (proj1 Hc eq_refl) as [Hr|(H2 & Hz)].
  - right. intros v Hv. destruct (Hs Hr v Hv) as (x & Hx & Sx & _). eauto.
  - left. split; [exact H2|]. intros i Hi. specialize (Hz i Hi). unfold M in Hz.
    rewrite matrix_entry in Hz by (try assumption; lia). destruct (Nat.eqb i 0); lra.
Qed.

Lemma complex_regular n h (J : mat RI) ip0 er ei ip : (0 < n)%nat -> shaped n n J -> h <> 0 -> length ip0 = n ->
  decc n (msub (scaled_eye n (div RI rALPHA h)) J) (scaled_eye n (div RI rBETA h)) ip0 = Ok (0%nat, er, ei, ip) ->
  forall v w : vec RI, length v = n -> length w = n -> exists x y : vec RI, solc n er ei v w ip = Ok (x, y) /\
     csolution n (msub (scaled_eye (A:=RI) n (@rALPHA RI / h)) J) (scaled_eye (A:=RI) n (@rBETA RI / h)) x y v w.
Proof.
  intros Hn HJ Hh Hl Hd v w Hv Hw.
  assert (div RI rALPHA h = @rALPHA RI / h) as Ea by (cbn [div RA]; now rewrite rdiv_ok).
  assert (div RI rBETA h = @rBETA RI / h) as Eb by (cbn [div RA]; now rewrite rdiv_ok).
  rewrite Ea, Eb in Hd. set (M := msub _ _) in *. set (B := scaled_eye (A:=RI) n (@rBETA RI / h)) in *.
  assert (square n M) as HM by (apply shaped_square, msub_shaped; [apply scaled_eye_shaped|exact HJ]).
  assert (square n B) as HB by (apply shaped_square, scaled_eye_shaped).
  destruct (decc_solc_thm inf n M B ip0 Hn HM HB Hl) as (code & ar' & ai' & ip' & E & Hc & Hs).
  cbn [num RA] in *. rewrite Hd in E. inversion E; subst code ar' ai' ip'. clear E.
  destruct (proj1 Hc eq_refl) as [Hr|(H2 & _ & Hz)].
  - destruct (Hs Hr v w Hv Hw) as (x & y & Hx & Sx & _). eauto.
  - exfalso. specialize (Hz 0%nat Hn). unfold B in Hz. rewrite eye_entry in Hz by lia. cbn [Nat.eqb] in Hz.
    assert (@rBETA RI <> 0) as Hb by (unfold rBETA; cbn [lit RA]; unfold rlit; lra).
    unfold Rdiv in Hz. apply Rmult_integral in Hz as [Hz|Hz]; [contradiction|]. now apply Rinv_neq_0_compat in Hh.
Qed.

Lemma row_sum n x (J : mat RI) (v : list R) i : shaped n n J -> (i < n)%nat ->
  rsum n (fun j => entry (msub (scaled_eye (A:=RI) n x) J) i j * comp v j)
  = x * comp v i - rsum n (fun j => entry J i j * comp v j).
Proof.
  intros HJ Hi.
  rewrite (rsum_ext n _ (fun j => (if Nat.eqb i j then x * comp v j else 0) - entry J i j * comp v j)).
  - rewrite rsum_minus, (rsum_delta n (fun j => x * comp v j)) by exact Hi. reflexivity.
  - intros j Hj. rewrite matrix_entry by assumption. destruct (Nat.eqb i j); ring.
Qed.
Lemma eye_sum n x (v : list R) i : (i < n)%nat ->
  rsum n (fun j => entry (scaled_eye (A:=RI) n x) i j * comp v j) = x * comp v i.
Proof.
  intros Hi. rewrite (rsum_ext n _ (fun j => if Nat.eqb i j then x * comp v j else 0)).
  - apply (rsum_delta n (fun j => x * comp v j)). exact Hi.
  - intros j Hj. rewrite eye_entry by assumption. destruct (Nat.eqb i j); ring.
Qed.

Lemma lin_d3 m (g : nat -> vec RI) i : (m < 3)%nat -> (forall k, (k < 3)%nat -> (i < length (g k))%nat) ->
  lin (cTI inf m 0) (cTI inf m 1) (cTI inf m 2) g i = d3 (cTI inf m) (fun k => comp (g k) i).
Proof.
  intros Hm Hg. unfold lin, d3. cbn [add mul RA]. rewrite !(at_comp inf) by (apply Hg; lia). reflexivity.
Qed.

Lemma ssafe_zz n (s : state) k : ssafe n s -> length (zz (i_cache s) k) = n.
Proof. intros [_ H]. destruct H, k as [|[|k]]; assumption. Qed.
Lemma ssafe_ff n (s : state) k : ssafe n s -> length (ff (i_cache s) k) = n.
Proof. intros [_ H]. destruct H, k as [|[|k]]; assumption. Qed.

(** One Newton pass, in the transformed variables. *)
Lemma pass_solved n h (J : mat RI) (x y : state) : (0 < n)%nat -> h <> 0 -> ssafe n x -> ssafe n y ->
  factors n h J (i_cache x) -> newton_pass x = Ok y ->
  blind n h J \/
  forall i m, (i < n)%nat -> (m < 3)%nat ->
    lam inf (fun k => (comp (ff (i_cache x) k) i + comp (zz (i_cache y) k) i) / h) m
    - rsum n (fun j => entry J i j * comp (zz (i_cache y) m) j)
    = d3 (cTI inf m) (fun k => comp (stage_rhs x k) i).
Proof.
  intros Hn Hh Hx Hy Hf Hp. pose proof (newton_pass_eq n x y Hx Hp) as (_ & H1 & H2 & _).
  destruct Hf as [HJ F1 F2 F3 (ip0 & Hl & Hd) (ip0' & Hl' & Hd')].
  destruct (not_blind_regular n h J ip0 _ _ Hn HJ Hh Hl Hd) as [Hb|Hr]; [left; exact Hb|right].
  pose proof (complex_regular n h J ip0' _ _ _ Hn HJ Hh Hl' Hd') as Hc.
  assert (fac1 (i_cache x) = radau_gamma / h) as G1 by (rewrite F1; cbn [div RA]; now rewrite rdiv_ok).
  assert (alphn (i_cache x) = @rALPHA RI / h) as G2 by (rewrite F2; cbn [div RA]; now rewrite rdiv_ok).
  assert (betan (i_cache x) = @rBETA RI / h) as G3 by (rewrite F3; cbn [div RA]; now rewrite rdiv_ok).
  match type of H1 with sol _ _ ?v _ = _ => set (v1 := v) in *; destruct (Hr v1) as (X & EX & _ & SX);
     [apply tab_length|] end.
  assert (X = z1 (i_cache y)) as -> by (cbn [num RA] in *; congruence).
  match type of H2 with solc _ _ _ ?v ?w _ = _ => set (v2 := v) in *; set (v3 := w) in *;
     destruct (Hc v2 v3) as (X2 & X3 & EX2 & _ & _ & SX2); [apply tab_length|apply tab_length|] end.
  assert (X2 = z2 (i_cache y) /\ X3 = z3 (i_cache y)) as (-> & ->).
  { cbn [num RA] in *. rewrite H2 in EX2. inversion EX2. split; reflexivity. }
  assert (forall k i, (i < n)%nat -> (i < length (stage_rhs x k))%nat) as Hlr.
  { intros k i Hi. unfold stage_rhs. rewrite call_rhs_length, (ssafe_zz n) by exact Hx. exact Hi. }
  pose proof (ssafe_ff n x 0 Hx) as L0. pose proof (ssafe_ff n x 1 Hx) as L1. pose proof (ssafe_ff n x 2 Hx) as L2.
  cbn [ff] in L0, L1, L2.
  assert (forall k g i, length (g : vec RI) = n -> (i < n)%nat -> at_ g i = k -> comp g i = k) as Hcomp.
  { intros k g i Lg Hi E. rewrite <- E. symmetry. apply at_comp. cbn in *. lia. }
  intros i m Hi Hm. specialize (SX i Hi). destruct (SX2 i Hi) as (SXr & SXi).
  rewrite row_sum in SX by assumption.
  rewrite rsum_minus, row_sum, eye_sum in SXr by assumption.
  rewrite rsum_plus, row_sum, eye_sum in SXi by assumption.
  unfold v1 in SX. unfold v2 in SXr. unfold v3 in SXi.
  rewrite (Hcomp _ _ i (tab_length _ _) Hi (at_tab _ _ _ Hi)) in SX.
  rewrite (Hcomp _ _ i (tab_length _ _) Hi (at_tab _ _ _ Hi)) in SXr.
  rewrite (Hcomp _ _ i (tab_length _ _) Hi (at_tab _ _ _ Hi)) in SXi.
  rewrite (lin_d3 0) in SX by (auto; lia). rewrite (lin_d3 1) in SXr by (auto; lia). rewrite (lin_d3 2) in SXi by (auto; lia).
  rewrite G1 in SX. rewrite G2, G3 in SXr, SXi. cbn [add sub mul opp RA] in SX, SXr, SXi.
  rewrite (at_comp inf) in SX by (cbn in *; lia).
  rewrite !(at_comp inf) in SXr by (cbn in *; lia). rewrite !(at_comp inf) in SXi by (cbn in *; lia).
  destruct m as [|[|[|m]]]; try lia; unfold lam; cbn [ff zz].
  - change (@rU1 RI) with radau_gamma.
    match type of SX with ?a - ?s = ?d - ?e => assert (E : d = a - s + e) by lra end. rewrite E. field. exact Hh.
  - match type of SXr with ?a - ?s - ?b = ?d + ?e - ?f => assert (E : d = a - s - b - e + f) by lra end.
    rewrite E. field. exact Hh.
  - match type of SXi with ?a - ?s + ?b = ?d + ?e + ?f => assert (E : d = a - s + b - e - f) by lra end.
    rewrite E. field. exact Hh.
Qed.

Lemma lin_d3' m (g : nat -> vec RI) i : (m < 2)%nat -> (forall k, (k < 3)%nat -> (i < length (g k))%nat) ->
  lin (cT inf m 0) (cT inf m 1) (cT inf m 2) g i = d3 (cT inf m) (fun k => comp (g k) i).
Proof.
  intros Hm Hg. unfold lin, d3. cbn [add mul RA]. rewrite !(at_comp inf) by (apply Hg; lia). reflexivity.
Qed.
Lemma comp_tab n (g : nat -> R) i : (i < n)%nat -> comp (tab n g) i = g i.
Proof. intros Hi. unfold comp. now apply tab_nth. Qed.

Lemma comp_zeros n i : comp (@zeros RI n) i = 0.
Proof.
  revert i. induction n as [|n IH]; intros [|i]; try reflexivity.
  - change (@n0 RI = 0). rnorm. lra.
  - apply IH.
Qed.

Lemma update_R n (y : state) i : ssafe n y -> (i < n)%nat ->
  let c := i_cache (newton_update y) in
  (forall k, comp (ff c k) i = comp (ff (i_cache y) k) i + comp (zz (i_cache y) k) i) /\
  forall k, (k < 3)%nat -> comp (zz c k) i = d3 (cT inf k) (fun l => comp (ff c l) i).
Proof.
  intros Hy Hi. pose proof (proj1 Hy) as Hu. pose proof (update_eq n y Hu) as (Hf & H1 & H2 & H3). cbv zeta.
  assert (forall k, length (ff (i_cache (newton_update y)) k) = n) as Lf by (intros k; rewrite Hf; apply tab_length).
  split.
  - intros k. rewrite Hf. rewrite (comp_tab n _ i Hi). cbn [add RA].
    pose proof (ssafe_ff n y k Hy). pose proof (ssafe_zz n y k Hy).
    rewrite !(at_comp inf) by (cbn in *; lia). reflexivity.
  - assert (forall k, (k < 3)%nat -> (i < length (ff (i_cache (newton_update y)) k))%nat) as Li
      by (intros k _; rewrite Lf; exact Hi).
    set (c := i_cache (newton_update y)) in *. clearbody c. intros k Hk.
    destruct k as [|[|[|k]]]; try lia; cbn [zz].
    + rewrite H1, (comp_tab n _ i Hi). apply (lin_d3' 0); auto.
    + rewrite H2, (comp_tab n _ i Hi). apply (lin_d3' 1); auto.
    + rewrite H3, (comp_tab n _ i Hi). cbn [add mul RA]. unfold d3. cbn [cT ff].
      rewrite !(at_comp inf); [ring|apply (Li 1%nat); lia|apply (Li 0%nat); lia].
Qed.

Lemma start_R n (s x : state) i k : ssafe n s -> pass_start s x -> ssafe n x -> (i < n)%nat -> (k < 3)%nat ->
  Rabs (d3 (cT inf k) (fun l => comp (ff (i_cache x) l) i) - comp (zz (i_cache x) k) i)
  <= 1 / 10^18 * abs3 (fun l => comp (zz (i_cache x) l) i).
Proof.
  intros Hs Hp Hx Hi Hk.
  assert (0 <= 1 / 10^18 * abs3 (fun l => comp (zz (i_cache x) l) i)) as Hpos.
  { unfold abs3. pose proof (Rabs_pos (comp (zz (i_cache x) 0) i)). pose proof (Rabs_pos (comp (zz (i_cache x) 1) i)).
    pose proof (Rabs_pos (comp (zz (i_cache x) 2) i)). lra. }
  destruct Hp as [(fc & th & E)|(y & -> & Hy)].
  - assert (forall l, zz (i_cache x) l = zz (i_cache (prepare_newton s)) l /\
                      ff (i_cache x) l = ff (i_cache (prepare_newton s)) l) as Ez.
    { intros l. rewrite E. split; destruct l as [|[|l]]; reflexivity. }
    clear E. pose proof (fun l => proj1 (Ez l)) as Ez1. pose proof (fun l => proj2 (Ez l)) as Ef. clear Ez.
    assert (forall l, length (zz (i_cache x) l) = n) as Lz by (intros; now apply ssafe_zz).
    destruct (prepare_eq n s (proj1 Hs)) as [Hz|(H1 & H2 & H3)].
    + assert (forall l, comp (zz (i_cache x) l) i = 0 /\ comp (ff (i_cache x) l) i = 0) as H0.
      { intros l. rewrite Ez1, Ef, (proj1 (Hz l)), (proj2 (Hz l)). split; apply comp_zeros. }
      match goal with |- Rabs ?e <= _ => assert (e = 0) as -> end.
      { unfold d3. rewrite (proj1 (H0 k)), !(fun l => proj2 (H0 l)). ring. }
      rewrite Rabs_R0. exact Hpos.
    + assert (forall l, (l < 3)%nat -> comp (ff (i_cache x) l) i = d3 (cTI inf l) (fun m => comp (zz (i_cache x) m) i)) as Hl.
      { intros l Hl. rewrite Ef.
        assert (forall m, (m < 3)%nat -> (i < length (zz (i_cache (prepare_newton s)) m))%nat) as Li
          by (intros m _; rewrite <- Ez1, Lz; exact Hi).
        unfold d3 at 1. rewrite !Ez1.
        destruct l as [|[|[|l]]]; try lia; cbn [ff]; [rewrite H1|rewrite H2|rewrite H3]; rewrite (comp_tab n _ i Hi);
          [apply (lin_d3 0)|apply (lin_d3 1)|apply (lin_d3 2)]; auto. }
      unfold d3 at 1. rewrite !Hl by lia. exact (T_TI inf (fun m => comp (zz (i_cache x) m) i) k Hk).
  - destruct (update_R n y i) as (_ & H); [|exact Hi|].
    + rewrite (proj1 Hs) in Hy. exact Hy.
    + rewrite <- H by exact Hk. unfold Rminus. rewrite Rplus_opp_r, Rabs_R0. exact Hpos.
Qed.

Lemma rsum_abs n g : Rabs (rsum n g) <= rsum n (fun j => Rabs (g j)).
Proof.
  induction n as [|n IH]; [unfold rsum; cbn; rewrite Rabs_R0; lra|]. rewrite !rsum_S.
  eapply Rle_trans; [apply Rabs_triang|]. lra.
Qed.
Lemma abs3_scale c x : abs3 (fun l => c * x l) = Rabs c * abs3 x.
Proof. unfold abs3. rewrite !Rabs_mult. ring. Qed.
Lemma abs3_ext x y : (forall k, (k < 3)%nat -> x k = y k) -> abs3 x = abs3 y.
Proof. intros H. unfold abs3. rewrite !H by lia. reflexivity. Qed.
Lemma d3_ext c x y : (forall k, (k < 3)%nat -> x k = y k) -> d3 c x = d3 c y.
Proof. intros H. unfold d3. rewrite !H by lia. reflexivity. Qed.
Lemma lam_ext x y m : (forall k, (k < 3)%nat -> x k = y k) -> lam inf x m = lam inf y m.
Proof. intros H. unfold lam. rewrite !H by lia. reflexivity. Qed.

Lemma newton_stages n fuel h (J : mat RI) (sm s3 : state) : (0 < n)%nat -> h <> 0 -> ssafe n sm ->
  factors n h J (i_cache sm) -> overwrites (i_dudt sm) -> newton fuel sm = Ok (s3, true) ->
  let F y k i := i_dudt sm (zeros n) (y k) (stage_time sm k) (i_params sm) i in
  exists y : nat -> list R,
    (exists early, i_trace s3 = EvF (A:=RI) (stage_time sm 2) (y 2%nat) :: EvF (A:=RI) (stage_time sm 1) (y 1%nat)
                    :: EvF (A:=RI) (stage_time sm 0) (y 0%nat) :: early) /\
    (forall k, length (y k) = n) /\
    (blind n h J \/ forall i k, (i < n)%nat -> (k < 3)%nat ->
       Rabs (stage_defect n J h (i_u sm) y (zz (i_cache s3)) (F y) i k)
       <= table_error n J h (i_u sm) y (zz (i_cache s3)) (F y) i).
Proof.
  intros Hn Hh Hsm Hfac How Hnw F.
  destruct (newton_last n fuel sm s3 Hn Hsm Hnw) as (x & y & z & [L1 L2 L3 L4 (L5 & L5t & Z1 & Z2 & Z3 & G1 & G2 & G3 & _) Hz L6 _]).
  pose proof (proj1 Hsm) as Hu. rewrite Hu in L3, Hz.
  pose proof (newton_pass_safe n x y Hn L3 L4) as Hy.
  pose proof (newton_pass_eq n x y L3 L4) as (Ff & _ & _ & Tr).
  pose proof (ns_frame _ _ L2) as Nf. pose proof (q_point _ _ (nf_quiet _ _ Nf)) as (Eu & Et & _).
  pose proof (q_prob _ _ (nf_quiet _ _ Nf)) as (Ed & _ & _ & Ep & _). pose proof (ns_dt _ _ L2) as Edt.
  assert (forall k, stage_time x k = stage_time sm k) as Est.
  { intros k. unfold stage_time. rewrite Et, Edt. reflexivity. }
  assert (factors n h J (i_cache x)) as Hfx.
  { destruct Nf. eapply factors_same; [..|exact Hfac]; assumption. }
  exists (stage_point x). split; [|split].
  - exists (i_trace x). rewrite L6. change (i_trace (newton_update z)) with (i_trace z). rewrite L5t, Tr.
    rewrite !Est. reflexivity.
  - intros k. unfold stage_point. rewrite tab_length. exact (proj1 L3).
  - destruct (pass_solved n h J x y Hn Hh L3 Hy Hfx L4) as [Hb|Hw]; [left; exact Hb|right].
    assert (forall k, zz (i_cache z) k = zz (i_cache y) k) as Ezz by (intros [|[|k]]; assumption).
    assert (forall k, ff (i_cache z) k = ff (i_cache x) k) as Eff.
    { intros k. rewrite <- Ff. destruct k as [|[|k]]; assumption. }
    intros i k Hi Hk.
    (* the new iterates *)
    assert (forall j, (j < n)%nat ->
       (forall l, comp (ff (i_cache s3) l) j = comp (ff (i_cache x) l) j + comp (zz (i_cache y) l) j) /\
       forall l, (l < 3)%nat -> comp (zz (i_cache s3) l) j = d3 (cT inf l) (fun m => comp (ff (i_cache s3) m) j)) as Hupd.
    { intros j Hj. destruct (update_R n z j Hz Hj) as (U1 & U2). rewrite L6. split; [|exact U2].
      intros l. rewrite <- Eff, <- Ezz. apply U1. }
    (* the points of evaluation *)
    assert (forall l j, (j < n)%nat -> comp (stage_point x l) j - comp (i_u sm) j = comp (zz (i_cache x) l) j) as Hpt.
    { intros l j Hj. unfold stage_point. rewrite (proj1 L3), comp_tab by exact Hj. cbn [add RA].
      pose proof (ssafe_zz n x l L3). rewrite !(at_comp inf) by (rewrite ?Eu; cbn in *; lia). rewrite Eu. lra. }
    assert (forall l, F (stage_point x) l i = comp (stage_rhs x l) i) as HF.
    { intros l. unfold F, stage_rhs. pose proof (ssafe_zz n x l L3) as Lz. rewrite Ed, Ep, Est.
      rewrite <- (at_comp inf) by (rewrite call_rhs_length; cbn in *; lia). rewrite call_rhs_at by (cbn in *; lia).
      apply How; [rewrite zeros_length; cbn in *; lia|rewrite zeros_length; exact Hi]. }
    set (V := fun l => comp (ff (i_cache s3) l) i / h).
    set (X := fun m => rsum n (fun j => entry J i j * comp (zz (i_cache y) m) j)).
    assert (forall m, (m < 3)%nat -> lam inf V m - X m = d3 (cTI inf m) (fun l => F (stage_point x) l i)) as Heq.
    { intros m Hm. rewrite (d3_ext _ _ (fun l => comp (stage_rhs x l) i)) by (intros; apply HF).
      rewrite <- (Hw i m Hi Hm). unfold X. f_equal. apply lam_ext. intros l _. unfold V.
      rewrite (proj1 (Hupd i Hi)). reflexivity. }
    pose proof (stage_scalar inf V _ X k Hk Heq) as Hmain.
    assert (forall m, (m < 3)%nat -> d3 (cT inf m) V = comp (zz (i_cache s3) m) i / h) as HV.
    { intros m Hm. rewrite (proj2 (Hupd i Hi)) by exact Hm. unfold d3, V. field. exact Hh. }
    rewrite (d3_ext _ _ _ HV) in Hmain.
    rewrite (abs3_ext _ (fun m => / h * comp (zz (i_cache s3) m) i)) in Hmain
      by (intros m Hm; rewrite HV by exact Hm; field; exact Hh).
    rewrite abs3_scale in Hmain.
    set (E := rsum n (fun j => entry J i j * (d3 (cT inf k) (fun l => comp (ff (i_cache x) l) j) - comp (zz (i_cache x) k) j))).
    assert (rsum n (fun j => entry J i j * (comp (i_u sm) j + comp (zz (i_cache s3) k) j - comp (stage_point x k) j))
            = d3 (cT inf k) X + E) as HE.
    { unfold d3, X, E. rewrite <- !rsum_scale, <- !rsum_plus. apply rsum_ext. intros j Hj.
      replace (comp (i_u sm) j + _ - _) with (comp (zz (i_cache s3) k) j - comp (zz (i_cache x) k) j)
        by (rewrite <- (Hpt k j Hj); ring).
      destruct (Hupd j Hj) as (U1 & U2). rewrite U2 by exact Hk. unfold d3. rewrite !U1. ring. }
    assert (Rabs E <= 1 / 10^18 * rsum n (fun j => Rabs (entry J i j) * abs3 (fun l => comp (stage_point x l) j - comp (i_u sm) j))) as HEb.
    { unfold E. eapply Rle_trans; [apply rsum_abs|]. rewrite <- rsum_scale. apply rsum_le. intros j Hj.
      rewrite Rabs_mult. pose proof (start_R n sm x j k Hsm L1 L3 Hj Hk) as Hst.
      rewrite (abs3_ext _ (fun l => comp (zz (i_cache x) l) j)) by (intros; now apply Hpt).
      pose proof (Rabs_pos (entry J i j)).
      replace (1 / 10^18 * (Rabs (entry J i j) * abs3 (fun l => comp (zz (i_cache x) l) j)))
        with (Rabs (entry J i j) * (1 / 10^18 * abs3 (fun l => comp (zz (i_cache x) l) j))) by ring.
      apply Rmult_le_compat_l; assumption. }
    unfold stage_defect, table_error. rewrite HE.
    assert (Rabs (/ h) * abs3 (fun m => comp (zz (i_cache s3) m) i) = abs3 (fun l => comp (zz (i_cache s3) l) i) / Rabs h) as Hab.
    { rewrite Rabs_inv. unfold Rdiv. ring. }
    rewrite Hab in Hmain.
    replace (_ / h - _ - _) with
      ((d3 (radau_ainv k) (fun k0 => comp (zz (i_cache s3) k0) i / h) - F (stage_point x) k i - d3 (cT inf k) X) - E)
      by (unfold d3; field; exact Hh).
    eapply Rle_trans; [apply Rabs_triang|]. rewrite Rabs_Ropp. lra.
Qed.

(** *** Recorded steps *)
Lemma accepted_trace (s s' : state) : accepted s s' ->
  exists l, i_trace s' = l ++ i_trace s /\ Forall (fun e => ev_time e = i_t s') l.
Proof.
  intros Ha. destruct (last (i_cache s)) eqn:El.
  - exists []. split; [apply (ac_last _ _ Ha El)|constructor].
  - destruct (ac_next _ _ Ha El) as (_ & _ & _ & (l & Hl & Fl) & _).
    exists (l ++ [EvF (i_t s') (i_u s')]). split; [now rewrite <- app_assoc|].
    apply Forall_app. split; [exact Fl|]. repeat constructor.
Qed.

Lemma not_tiny_R (h : R) : not_tiny (A:=RI) h -> h <> 0.
Proof.
  intros (t & H) ->. cbn [leb mul nabs eps RA] in H. apply Rleb_false in H. rewrite Rabs_R0, Rmult_0_r in H.
  pose proof (Rabs_pos t). assert (0 < reps) by (unfold reps; apply Rinv_0_lt_compat, IZR_lt; reflexivity).
  assert (0 <= Rabs t * reps) by (apply Rmult_le_pos; lra). lra.
Qed.

Lemma matrix_step_new fuel (s0 s s' : state) k r h : continues alg None fuel k s0 s ->
  step alg None fuel s = Ok (s', r) -> (decompositions (i_stats s) < decompositions (i_stats s'))%nat ->
  matrix_step fuel s0 (S k) s' h -> h = i_dtprev s'.
Proof.
  intros Hc Hs Hd Hm. inversion Hm as [k0 x x' r' Hc' Hs' Hd'|k0 x x' r' h' Hc' Hm' Hs' Hd']; subst; [reflexivity|].
  apply continues_steps_n in Hc, Hc'. cbn [Cache Radau5] in *.
  assert (x = s) as -> by congruence. lia.
Qed.

(** The equations of a recorded step; [z] are the stage increments in the cache
    at the end of the Newton iteration. *)
Lemma final_stages (b : builder RI P) fuel k (s0 s s' : state) h J (sm s3 s4 : state) :
  overwrites (b_dudt b) -> b_u b <> [] -> build alg b = Ok s0 -> continues alg None fuel k s0 s ->
  let n := length (b_u b) in
  final_attempt n fuel s s' h J sm s3 s4 -> h <> 0 -> ssafe n s ->
  let z := zz (i_cache s3) in
  exists (tau : nat -> R) (y : nat -> list R),
    let F := fun k i => b_dudt b (zeros n) (y k) (tau k) (b_params b) i in
    (forall k, (k < 3)%nat -> Rabs (tau k - (i_t s + radau_c k * (i_t s' - i_t s))) <= 1 / 10^15 * Rabs (i_t s' - i_t s)) /\
    (exists late early,
       i_trace s' = late ++ EvF (A:=RI) (tau 2%nat) (y 2%nat) :: EvF (A:=RI) (tau 1%nat) (y 1%nat) :: EvF (A:=RI) (tau 0%nat) (y 0%nat) :: early /\
       Forall (fun e => ev_time e = i_t s \/ ev_time e = i_t s') late) /\
    (forall k, (k < 3)%nat -> length (y k) = n) /\
    (forall i, (i < n)%nat -> comp (i_u s') i = comp (i_u s) i + comp (z 2%nat) i) /\
    (blind n h J \/ forall i k, (i < n)%nat -> (k < 3)%nat ->
       Rabs (stage_defect n J h (i_u s) y z F i k) <= table_error n J h (i_u s) y z F i) /\
    i_t s' - i_t s = i_dt s3 /\ ssafe n s3 /\ factors n h J (i_cache s3).
Proof.
  intros How Hu Hb Hc n Hf Hnt Hss z.
  assert (0 < n)%nat as Hn by (unfold n; destruct (b_u b); [congruence|cbn; lia]).
  destruct Hf as [Fq _ _ _ _ Fsf Ff _ Fn Fe _ Fa].
  pose proof (continues_steps_n alg None fuel k s0 s Hc) as Hst.
  destruct (radau_frame b fuel k s0 s Hb Hst) as (Pf & _ & _ & Pp & _).
  pose proof (q_point _ _ Fq) as (Eu & Et & _). pose proof (q_prob _ _ Fq) as (Ed & _ & _ & Ep & _).
  destruct (newton_stages n fuel h J sm s3 Hn Hnt Fsf Ff) as (y & (early & Htr) & Ly & Hst3); [|exact Fn|].
  { rewrite Ed, Pf. exact How. }
  pose proof Fn as Fn'. apply newton_inv in Fn' as (_ & _ & N & _). specialize (N eq_refl).
  pose proof (error_estimate_inv _ _ Fe) as E. pose proof (radau_accept_inv _ _ Fa) as Ac.
  pose proof (q_point _ _ (nf_quiet _ _ (ns_frame _ _ N))) as (Eu3 & Et3 & _).
  pose proof (q_point _ _ (ef_quiet _ _ E)) as (Eu4 & Et4 & _).
  assert (i_t s' - i_t s = i_dt sm) as Edt.
  { rewrite (ac_t _ _ Ac). cbn [add RA]. change (i_t (force_decompose s4)) with (i_t s4).
    change (i_dt (force_decompose s4)) with (i_dt s4). rewrite (ef_dt _ _ E), (ns_dt _ _ N), Et4, Et3, Et. lra. }
  assert (ssafe n s3) as S3.
  { destruct (newton_last n fuel sm s3 Hn Fsf Fn) as (x & yy & zz0 & [_ _ _ _ _ Hz L6 _]).
    rewrite L6. apply newton_update_safe. rewrite <- (proj1 Fsf). exact Hz. }
  exists (stage_time sm), y. cbv zeta.
  split; [|split; [|split; [intros; apply Ly|split; [|split; [|split; [|split; [exact S3|]]]]]]].
  - intros l Hl. rewrite Edt. unfold stage_time. rewrite Et. cbn [add mul RA].
    assert (Rabs (@rC1 RI - node1) <= 1 / 10^15 /\ Rabs (@rC2 RI - node2) <= 1 / 10^15) as (B1 & B2).
    { pose proof sqrt6_lo. pose proof sqrt6_hi. unfold rC1, rC2, node1, node2. cbn [lit RA]. unfold rlit.
      set (q := sqrt 6) in *. split; apply Rabs_le; split; lra. }
    pose proof (Rabs_pos (i_dt sm)).
    destruct l as [|[|[|l]]]; try lia; unfold radau_c.
    + replace (i_t s + @rC1 RI * i_dt sm - (i_t s + node1 * i_dt sm)) with ((@rC1 RI - node1) * i_dt sm) by ring.
      rewrite Rabs_mult. apply Rmult_le_compat_r; assumption.
    + replace (i_t s + @rC2 RI * i_dt sm - (i_t s + node2 * i_dt sm)) with ((@rC2 RI - node2) * i_dt sm) by ring.
      rewrite Rabs_mult. apply Rmult_le_compat_r; assumption.
    + replace (i_t s + i_dt sm - (i_t s + 1 * i_dt sm)) with 0 by ring. rewrite Rabs_R0. lra.
  - destruct (ef_trace _ _ E) as (l1 & T1 & F1). destruct (accepted_trace _ _ Ac) as (l2 & T2 & F2).
    exists (l2 ++ l1), early. split.
    + etransitivity; [exact T2|]. change (i_trace (force_decompose s4)) with (i_trace s4). rewrite T1, Htr, <- app_assoc.
      reflexivity.
    + apply Forall_app. split.
      * eapply Forall_impl; [|exact F2]. intros e He. now right.
      * eapply Forall_impl; [|exact F1]. intros e He. left. rewrite He, Et3. exact Et.
  - intros i Hi. rewrite (ac_u _ _ Ac). change (i_u (force_decompose s4)) with (i_u s4).
    change (i_cache (force_decompose s4)) with (i_cache s4 <| decompose := true |>).
    assert (length (i_u s4) = n) as L4 by (rewrite Eu4, Eu3, Eu; apply Hss).
    rewrite L4, comp_tab by exact Hi. cbn [add RA].
    assert (z3 (i_cache s4) = zz (i_cache s3) 2) as Ez by (rewrite (ef_cache _ _ E); reflexivity).
    change (z3 (i_cache s4 <| decompose := true |>)) with (z3 (i_cache s4)). rewrite Ez, Eu4, Eu3, Eu.
    rewrite !(at_comp inf); [reflexivity| |].
    + pose proof (ssafe_zz n s3 2 S3). cbn in *. lia.
    + destruct Hss as (Lu & _). cbn in *. lia.
  - rewrite Ed, Ep, Pf, Pp, Eu in Hst3. exact Hst3.
  - rewrite Edt. symmetry. apply (ns_dt _ _ N).
  - eapply nf_factors; [apply N|exact Ff].
Qed.

Lemma radau_stages (b : builder RI P) fuel k (s0 s s' : state) r :
  overwrites (b_dudt b) -> b_u b <> [] -> build alg b = Ok s0 -> continues alg None fuel k s0 s ->
  step alg None fuel s = Ok (s', r) -> ts (i_sol s') <> ts (i_sol s) ->
  let n := length (b_u b) in
  exists h J (tau : nat -> R) (y z : nat -> list R),
    let F := fun k i => b_dudt b (zeros n) (y k) (tau k) (b_params b) i in
    matrix_step fuel s0 (S k) s' h /\ h <> 0 /\
    (exists t u, In (t, u) (points s) /\ jacobian_at s t u J) /\ square n J /\
    (forall k, (k < 3)%nat -> Rabs (tau k - (i_t s + radau_c k * (i_t s' - i_t s))) <= 1 / 10^15 * Rabs (i_t s' - i_t s)) /\
    (exists late early,
       i_trace s' = late ++ EvF (A:=RI) (tau 2%nat) (y 2%nat) :: EvF (A:=RI) (tau 1%nat) (y 1%nat) :: EvF (A:=RI) (tau 0%nat) (y 0%nat) :: early /\
       Forall (fun e => ev_time e = i_t s \/ ev_time e = i_t s') late) /\
    (forall k, (k < 3)%nat -> length (y k) = n) /\
    (forall i, (i < n)%nat -> comp (i_u s') i = comp (i_u s) i + comp (z 2%nat) i) /\
    (blind n h J \/ forall i k, (i < n)%nat -> (k < 3)%nat ->
       Rabs (stage_defect n J h (i_u s) y z F i k) <= table_error n J h (i_u s) y z F i).
Proof.
  intros How Hu Hb Hc Hs Hts n.
  destruct (recorded_final b fuel k s0 s s' r Hu Hb Hc Hs Hts) as (h & J & sm & s3 & s4 & Hf & Hm & Hnt & Hj & Hss & _).
  fold n in Hf, Hss. apply not_tiny_R in Hnt.
  pose proof (final_stages b fuel k s0 s s' h J sm s3 s4 How Hu Hb Hc Hf Hnt Hss) as (tau & y & H1 & H2 & H3 & H4 & H5 & _).
  exists h, J, tau, y, (zz (i_cache s3)). cbv zeta in *. split; [exact Hm|]. split; [exact Hnt|]. split; [exact Hj|].
  split; [apply shaped_square, (fa_shape _ _ _ _ (fi_fac _ _ _ _ _ _ _ _ _ Hf))|]. auto 10.
Qed.

(** *** Problems linear in [u] with their Jacobian supplied *)
Lemma call_jac_entry (g : jac RI P) (buf : mat RI) u t p n i j : square n (call_jac g buf u t p) ->
  (i < n)%nat -> (j < n)%nat -> entry (call_jac g buf u t p) i j = g buf u t p i j.
Proof.
  intros Hs Hi Hj. pose proof Hs as (Hl & Hr).
  assert (length buf = n) as Lb.
  { unfold call_jac in Hl. rewrite map_length, combine_length, seq_length in Hl. cbn in *. lia. }
  assert (nth i (call_jac g buf u t p) [] = tab (length (nth i buf [])) (g buf u t p i)) as E.
  { unfold call_jac. set (h := fun ir : nat * list (num RI) => tab (length (snd ir)) (g buf u t p (fst ir))).
    rewrite nth_indep with (d' := h (0%nat, [])) by (rewrite map_length, combine_length, seq_length; cbn in *; lia).
    rewrite (map_nth h). rewrite combine_nth by apply seq_length. unfold h. cbn [fst snd].
    rewrite seq_nth by (cbn in *; lia). reflexivity. }
  assert (length (nth i (call_jac g buf u t p) []) = n) as Ln.
  { apply Hr. apply nth_In. cbn in *. lia. }
  rewrite E, tab_length in Ln. unfold entry.
  transitivity (nth j (tab (length (nth i buf [])) (g buf u t p i)) 0); [exact (f_equal (fun l => nth j l 0) E)|].
  apply tab_nth. cbn in *. lia.
Qed.

Lemma radau_linear (b : builder RI P) (M : nat -> nat -> R) (c : nat -> R -> R) g fuel k (s0 s s' : state) r :
  let n := length (b_u b) in
  (forall d u t p i, b_dudt b d u t p i = rsum n (fun j => M i j * comp u j) + c i t) ->
  b_dfdu b = Some g -> (forall buf u t p i j, g buf u t p i j = M i j) ->
  b_u b <> [] -> build alg b = Ok s0 -> continues alg None fuel k s0 s ->
  step alg None fuel s = Ok (s', r) -> ts (i_sol s') <> ts (i_sol s) ->
  exists h J (tau : nat -> R) (y z : nat -> list R),
    let F := fun k i => rsum n (fun j => M i j * comp (y k) j) + c i (tau k) in
    matrix_step fuel s0 (S k) s' h /\ h <> 0 /\
    (forall i j, (i < n)%nat -> (j < n)%nat -> entry J i j = M i j) /\
    (forall k, (k < 3)%nat -> Rabs (tau k - (i_t s + radau_c k * (i_t s' - i_t s))) <= 1 / 10^15 * Rabs (i_t s' - i_t s)) /\
    (exists late early,
       i_trace s' = late ++ EvF (A:=RI) (tau 2%nat) (y 2%nat) :: EvF (A:=RI) (tau 1%nat) (y 1%nat) :: EvF (A:=RI) (tau 0%nat) (y 0%nat) :: early /\
       Forall (fun e => ev_time e = i_t s \/ ev_time e = i_t s') late) /\
    (forall i, (i < n)%nat -> comp (i_u s') i = comp (i_u s) i + comp (z 2%nat) i) /\
    (blind n h J \/ forall i k, (i < n)%nat -> (k < 3)%nat ->
       Rabs (rsum 3 (fun l => radau_ainv k l * comp (z l) i) / h
             - (rsum n (fun j => M i j * (comp (i_u s) j + comp (z k) j)) + c i (tau k)))
       <= table_error n J h (i_u s) y z F i).
Proof.
  intros n Hf Hg Hgm Hu Hb Hc Hs Hts.
  assert (overwrites (b_dudt b)) as How.
  { intros d d' u t p i _ _. rewrite !Hf. reflexivity. }
  destruct (radau_stages b fuel k s0 s s' r How Hu Hb Hc Hs Hts)
    as (h & J & tau & y & z & Hm & Hh & (t & u & Hin & Hj) & Hsq & Htau & Htr & Ly & Hz & Heq). fold n in Hsq, Ly, Hz, Heq.
  exists h, J, tau, y, z. cbv zeta in *. split; [exact Hm|]. split; [exact Hh|].
  assert (forall i j, (i < n)%nat -> (j < n)%nat -> entry J i j = M i j) as HJ.
  { intros i j Hi Hj'. destruct Hj as (buf & tr & tr' & Hj).
    pose proof (continues_steps_n alg None fuel k s0 s Hc) as Hst.
    destruct (radau_frame b fuel k s0 s Hb Hst) as (_ & Pg & _). cbn [Cache Radau5] in *. rewrite Pg, Hg in Hj.
    cbn [jacobian_u] in Hj. inversion Hj as [[E1 E2]]. subst J. rewrite (call_jac_entry g _ _ _ _ n) by assumption. apply Hgm. }
  split; [exact HJ|]. split; [exact Htau|]. split; [exact Htr|]. split; [exact Hz|].
  destruct Heq as [Hbl|Heq]; [left; exact Hbl|right]. intros i l Hi Hl. specialize (Heq i l Hi Hl).
  assert (forall k i, b_dudt b (zeros n) (y k) (tau k) (b_params b) i = rsum n (fun j => M i j * comp (y k) j) + c i (tau k)) as HF
    by (intros; apply Hf).
  unfold table_error in *. rewrite (abs3_ext _ _ (fun k _ => HF k i)) in Heq.
  eapply Rle_trans; [|exact Heq]. right. f_equal. unfold stage_defect. rewrite HF.
  rewrite (rsum_ext n (fun j => entry J i j * _) (fun j => M i j * (comp (i_u s) j + comp (z l) j) - M i j * comp (y l) j)).
  2: { intros j Hjn. rewrite HJ by assumption. ring. }
  rewrite rsum_minus. unfold rsum at 1. cbn [seq map fold_right]. lra.
Qed.

(** Right-hand sides that depend on time only: the step is the Radau quadrature
    formula. *)
Lemma radau_quadrature (b : builder RI P) (c : nat -> R -> R) g fuel k (s0 s s' : state) r :
  let n := length (b_u b) in
  (forall d u t p i, b_dudt b d u t p i = c i t) ->
  b_dfdu b = Some g -> (forall buf u t p i j, g buf u t p i j = 0) ->
  b_u b <> [] -> build alg b = Ok s0 -> continues alg None fuel k s0 s ->
  step alg None fuel s = Ok (s', r) -> ts (i_sol s') <> ts (i_sol s) ->
  exists h (tau : nat -> R) (z : nat -> list R),
    matrix_step fuel s0 (S k) s' h /\ h <> 0 /\
    (forall k, (k < 3)%nat -> Rabs (tau k - (i_t s + radau_c k * (i_t s' - i_t s))) <= 1 / 10^15 * Rabs (i_t s' - i_t s)) /\
    (forall i, (i < n)%nat -> comp (i_u s') i = comp (i_u s) i + comp (z 2%nat) i) /\
    forall i k, (i < n)%nat -> (k < 3)%nat ->
      Rabs (comp (z k) i - h * rsum 3 (fun l => radau_a k l * c i (tau l)))
      <= 1 / 10^13 * abs3 (fun l => comp (z l) i) + 1 / 10^17 * Rabs h * abs3 (fun l => c i (tau l)).
Proof.
  intros n Hf Hg Hg0 Hu Hb Hc Hs Hts.
  destruct (radau_linear b (fun _ _ => 0) c g fuel k s0 s s' r) as
    (h & J & tau & y & z & Hm & Hh & HJ & Htau & _ & Hz & Heq); auto.
  { intros. rewrite Hf, (rsum_ext _ _ (fun _ => 0)) by (intros; ring). rewrite rsum_zero. symmetry. apply Rplus_0_l. }
  fold n in HJ, Hz, Heq. cbv zeta in *. exists h, tau, z. split; [exact Hm|]. split; [exact Hh|]. split; [exact Htau|]. split; [exact Hz|].
  assert (0 < n)%nat as Hn by (unfold n; destruct (b_u b); [congruence|cbn; lia]).
  destruct Heq as [(_ & Hbl)|Heq].
  { exfalso. specialize (Hbl 0%nat Hn). rewrite HJ in Hbl by exact Hn. cbn [Nat.eqb] in Hbl. symmetry in Hbl.
    unfold radau_gamma, Rdiv in Hbl. apply Rmult_integral in Hbl as [Hbl|Hbl]; [lra|]. now apply Rinv_neq_0_compat in Hh. }
  intros i l Hi Hl.
  set (Z := fun m => comp (z m) i) in *. set (C := fun m => c i (tau m)) in *.
  assert (forall m, (m < 3)%nat -> Rabs (rsum 3 (fun l => radau_ainv m l * Z l) / h - C m)
            <= 1 / 10^14 * (abs3 Z / Rabs h) + 1 / 10^18 * abs3 C) as Hb3.
  { intros m Hm3. specialize (Heq i m Hi Hm3). unfold table_error in Heq.
    rewrite (rsum_ext n (fun j => 0 * _) (fun _ => 0)) in Heq by (intros; ring). rewrite rsum_zero, Rplus_0_l in Heq.
    rewrite (abs3_ext (fun k => rsum n (fun j => 0 * comp (y k) j) + c i (tau k)) C) in Heq.
    2: { intros q _. rewrite (rsum_ext n _ (fun _ => 0)) by (intros; ring). rewrite rsum_zero. apply Rplus_0_l. }
    rewrite (rsum_ext n (fun j => Rabs (entry J i j) * _) (fun _ => 0)) in Heq.
    2: { intros j Hj. rewrite HJ, Rabs_R0 by assumption. ring. }
    rewrite rsum_zero in Heq. fold Z in Heq. fold (C m) in Heq. rewrite Rmult_0_r, Rplus_0_r in Heq. exact Heq. }
  clear Heq. set (D := fun m => rsum 3 (fun l => radau_ainv m l * Z l) / h - C m) in *.
  set (e := 1 / 10^14 * (abs3 Z / Rabs h) + 1 / 10^18 * abs3 C) in *.
  assert (Z l - h * rsum 3 (fun m => radau_a l m * C m) = h * rsum 3 (fun m => radau_a l m * D m)) as E.
  { assert (forall m, C m = rsum 3 (fun q => radau_ainv m q * Z q) / h - D m) as EC by (intros; unfold D; ring).
    rewrite (rsum_ext 3 (fun m => radau_a l m * C m)
      (fun m => / h * (radau_a l m * rsum 3 (fun q => radau_ainv m q * Z q)) - radau_a l m * D m))
      by (intros; rewrite EC; field; exact Hh).
    rewrite rsum_minus, rsum_scale.
    assert (rsum 3 (fun m => radau_a l m * rsum 3 (fun q => radau_ainv m q * Z q)) = Z l) as ->; [|field; exact Hh].
    pose proof (fun q Hq => proj1 (radau_ainv_inverse l q Hl Hq)) as I.
    pose proof (I 0%nat ltac:(lia)) as I0. pose proof (I 1%nat ltac:(lia)) as I1. pose proof (I 2%nat ltac:(lia)) as I2.
    unfold rsum in *. cbn [seq map fold_right] in *.
    set (a0 := radau_a l 0) in *. set (a1 := radau_a l 1) in *. set (a2 := radau_a l 2) in *.
    transitivity ((a0 * radau_ainv 0 0 + (a1 * radau_ainv 1 0 + (a2 * radau_ainv 2 0 + 0))) * Z 0%nat
                + (a0 * radau_ainv 0 1 + (a1 * radau_ainv 1 1 + (a2 * radau_ainv 2 1 + 0))) * Z 1%nat
                + (a0 * radau_ainv 0 2 + (a1 * radau_ainv 1 2 + (a2 * radau_ainv 2 2 + 0))) * Z 2%nat); [ring|].
    rewrite I0, I1, I2. destruct l as [|[|[|l]]]; try lia; cbn [Nat.eqb]; ring. }
  change (Rabs (Z l - h * rsum 3 (fun m => radau_a l m * C m)) <= 1 / 10^13 * abs3 Z + 1 / 10^17 * Rabs h * abs3 C).
  rewrite E, Rabs_mult.
  assert (0 <= e) as He by (pose proof (Hb3 0%nat ltac:(lia)); pose proof (Rabs_pos (D 0%nat)); unfold D in *; lra).
  assert (Rabs (rsum 3 (fun m => radau_a l m * D m)) <= 2 * e) as HD.
  { eapply Rle_trans; [apply rsum_abs|].
    assert (forall m, (m < 3)%nat -> Rabs (radau_a l m) <= 6 / 10) as Ha.
    { intros m Hm3. pose proof sqrt6_lo. pose proof sqrt6_hi. unfold radau_a. set (q := sqrt 6) in *.
      destruct l as [|[|[|l]]]; try lia; destruct m as [|[|[|m]]]; try lia; apply Rabs_le; split; lra. }
    eapply Rle_trans; [apply (rsum_le 3 _ (fun _ => 6/10 * e))|].
    - intros m Hm3. rewrite Rabs_mult. apply Rmult_le_compat; try apply Rabs_pos; [now apply Ha|now apply Hb3].
    - rewrite rsum_const. cbn [INR]. lra. }
  pose proof (Rabs_pos h). assert (0 < Rabs h) as Hhp by (now apply Rabs_pos_lt).
  eapply Rle_trans; [apply Rmult_le_compat_l; [apply Rabs_pos|exact HD]|].
  unfold e. replace (Rabs h * (2 * (1 / 10^14 * (abs3 Z / Rabs h) + 1 / 10^18 * abs3 C)))
    with (2 / 10^14 * abs3 Z + 2 / 10^18 * (Rabs h * abs3 C)) by (field; lra).
  assert (0 <= abs3 Z) as P1 by (unfold abs3; pose proof (Rabs_pos (Z 0%nat)); pose proof (Rabs_pos (Z 1%nat)); pose proof (Rabs_pos (Z 2%nat)); lra).
  assert (0 <= abs3 C) as P2 by (unfold abs3; pose proof (Rabs_pos (C 0%nat)); pose proof (Rabs_pos (C 1%nat)); pose proof (Rabs_pos (C 2%nat)); lra).
  assert (0 <= Rabs h * abs3 C) as P3 by (apply Rmult_le_pos; lra).
  nra.
Qed.
End StageR.
