(** A concrete Radau5 integration in exact arithmetic: the scalar equation
    [u' = 0] with its (zero) analytic Jacobian.  Every attempt is accepted. *)
From Coq Require Import ZArith List Bool Lia Reals Lra Sorted.
From RecordUpdate Require Import RecordSet.
From Verif Require Import Arith Vec Core Spec Jacobian Linalg Driver VecFacts DP5Facts DP5Inv LinFacts LinFactsC
  Radau RadauFacts RadauStep RadauInv RadauHist RadauSafe RadauKeep RadauJac ArithR SpecODE SpecRadau DP5Time RadauR RadauTime RadauRForms.
Import ListNotations RecordSetNotations.
Local Open Scope R_scope.

Section Ex.
Context (inf : R).
Notation RI := (RA inf).
Notation state := (integ RI unit (radau_cache RI)).
Notation alg := (@Radau5 RI unit).

Definition zero_rhs : rhs RI unit := fun _ _ _ _ _ => (0 : R).
Definition zero_jac : jac RI unit := fun _ _ _ _ _ _ => (0 : R).

(** The state of the integration of [u' = 0]. *)
Record rest (s : state) : Prop := mkRest {
  re_f : i_dudt s = zero_rhs;
  re_g : i_dfdu s = Some zero_jac;
  re_safe : ssafe 1 s;
  re_u0 : u0 (i_cache s) = [0 : R];
  re_J : dfdu (i_cache s) = [[0 : R]];
  re_cont : exists a, cont (i_cache s) = [a; 0; 0; 0];
  re_scal : 0 < at_ (scal (i_cache s)) 0;
  re_tols : 0 < o_abstol (i_opts s) /\ 0 <= o_reltol (i_opts s);
  re_fnewt : 0 <= o_fnewt (i_opts s);
  re_newt : (1 <= o_max_newt_iter (i_opts s))%nat }.

(** The factorisations are usable. *)
Definition factored (s : state) : Prop :=
  exists x p q, e1 (i_cache s) = [[x]] /\ e2r (i_cache s) = [[p]] /\ e2i (i_cache s) = [[q]] /\
    x <> 0 /\ p * p + q * q <> 0.

Lemma len1 {X} (l : list X) : length l = 1%nat -> exists x, l = [x].
Proof. destruct l as [|x [|y l]]; try discriminate. intros _. now exists x. Qed.
Lemma shaped1 (m : mat RI) : shaped 1 1 m -> exists x, m = [[x]].
Proof.
  intros H. apply is_shape_spec in H as (H & Hr). apply len1 in H as (r & ->).
  specialize (Hr r (or_introl eq_refl)). apply len1 in Hr as (x & ->). now exists x.
Qed.

Lemma dec1 (x : R) z : x <> 0 -> dec (A := RI) 1 [[x]] [z] = Ok (0%nat, [[x]], [1%Z]).
Proof.
  intros H. unfold dec, dec_last. cbn. unfold n0. cbn. destruct (Reqb _ _) eqn:E; [|reflexivity].
  apply Reqb_true in E. unfold rlit in E. exfalso. lra.
Qed.
Lemma decc1 (p q : R) z : p * p + q * q <> 0 -> decc (A := RI) 1 [[p]] [[q]] [z] = Ok (0%nat, [[p]], [[q]], [1%Z]).
Proof.
  intros H. unfold decc, decc_last. cbn. unfold n0, cmag. cbn. destruct (Reqb _ _) eqn:E; [|reflexivity].
  apply Reqb_true in E. unfold rlit in E. exfalso. apply H.
  assert (p = 0) as -> by (destruct (Req_dec p 0); [auto|]; pose proof (Rabs_pos_lt p); pose proof (Rabs_pos q); lra).
  assert (q = 0) as -> by (destruct (Req_dec q 0); [auto|]; pose proof (Rabs_pos_lt q); pose proof (Rabs_pos 0); lra).
  lra.
Qed.

(** [s'] has the same problem data as [s]. *)
Definition keeps (s s' : state) : Prop :=
  i_dudt s' = i_dudt s /\ i_dfdu s' = i_dfdu s /\ i_opts s' = i_opts s /\ u0 (i_cache s') = u0 (i_cache s) /\
  dfdu (i_cache s') = dfdu (i_cache s) /\ scal (i_cache s') = scal (i_cache s) /\ skipn 1 (cont (i_cache s')) = skipn 1 (cont (i_cache s)).
Lemma keeps_rest (s s' : state) : keeps s s' -> ssafe 1 s' -> rest s -> rest s'.
Proof.
  intros (E1 & E2 & E3 & E4 & E5 & E7 & E6) Hs []. constructor; try congruence.
  destruct re_cont0 as (a & Ec). rewrite Ec in E6. destruct Hs as (_ & Hc). pose proof (cs_cont _ _ Hc) as Hl.
  destruct (cont (i_cache s')) as [|y l]; [discriminate|]. exists y. f_equal. exact E6.
Qed.
Lemma keeps_trans (a b c : state) : keeps a b -> keeps b c -> keeps a c.
Proof. intros (E1 & E2 & E3 & E4 & E5 & E6 & E7) (F1 & F2 & F3 & F4 & F5 & F6 & F7). repeat split; congruence. Qed.

Lemma quot_nz (a d : R) : a <> 0 -> d <> 0 -> a / d <> 0.
Proof. intros H1 H2. unfold Rdiv. apply Rmult_integral_contrapositive_currified; [exact H1|now apply Rinv_neq_0_compat]. Qed.
Lemma rU1_nz : (rU1 : num RI) <> 0.
Proof. unfold rU1. cbn. unfold rlit. lra. Qed.
Lemma rALPHA_nz : (rALPHA : num RI) <> 0.
Proof. unfold rALPHA. cbn. unfold rlit. lra. Qed.

Lemma rest_perform (s : state) : rest s -> i_dt s <> 0 ->
  exists s', perform_decompositions s = Ok (s', true) /\ rest s' /\ factored s'.
Proof.
  intros Hr Hdt. cut (exists s', perform_decompositions s = Ok (s', true) /\ keeps s s' /\ factored s').
  { intros (s' & H1 & H2 & H3). exists s'. split; [exact H1|]. split; [|exact H3].
    apply (keeps_rest s); [exact H2| |exact Hr].
    destruct (perform_ok 1 s ltac:(lia) (re_safe _ Hr)) as (s2 & ok & H4 & H5). rewrite H1 in H4.
    assert (s' = s2) as -> by congruence. exact H5. }
  destruct Hr. destruct re_safe0 as [Hu Hc]. pose proof (csafe_shapes 1 s (conj Hu Hc)) as Hsh.
  unfold perform_decompositions. rewrite Hsh. cbn [guard]. cbv zeta.
  destruct (shaped1 _ (cs_e1 _ _ Hc)) as (x & E1). destruct (shaped1 _ (cs_e2r _ _ Hc)) as (p & E2).
  destruct (len1 _ (cs_ip1 _ _ Hc)) as (z1' & Ez1). destruct (len1 _ (cs_ip2 _ _ Hc)) as (z2' & Ez2).
  set (s1 := s <|i_cache; fac1 := _|> <|i_cache; alphn := _|> <|i_cache; betan := _|>).
  assert (decomp_real s1 = Ok (s1 <| i_cache; e1 := [[(rU1 (A := RI) : R) / i_dt s]] |> <| i_cache; ip1 := [1%Z] |>, 0%nat)) as ->.
  { unfold decomp_real. cbv zeta.
    assert (e1 (i_cache s1) = [[x]]) as -> by exact E1. assert (ip1 (i_cache s1) = [z1']) as -> by exact Ez1.
    assert (dfdu (i_cache s1) = [[0]]) as -> by exact re_J0.
    assert (msub (scaled_eye (length [[x]]) (fac1 (i_cache s1))) [[0]] = [[(rU1 (A := RI) : R) / i_dt s]]) as ->.
    { cbn. unfold n0, n1. cbn. unfold rlit. rewrite rdiv_ok by exact Hdt. do 2 f_equal.
      generalize (rU1 (A := RI)). cbn. intros. lra. }
    cbn [length]. rewrite dec1; [reflexivity|]. apply quot_nz; [apply rU1_nz|exact Hdt]. }
  cbn [bind Nat.eqb].
  set (s2 := s1 <|i_cache; e1 := _|> <|i_cache; ip1 := _|>).
  set (al := (rALPHA (A := RI) : R) / i_dt s). set (be := (rBETA (A := RI) : R) / i_dt s).
  assert (al <> 0) as Hal by (apply quot_nz; [apply rALPHA_nz|exact Hdt]).
  assert (decomp_complex s2 = Ok (s2 <| i_cache; e2r := [[al]] |> <| i_cache; e2i := [[be]] |> <| i_cache; ip2 := [1%Z] |>, 0%nat)) as ->.
  { unfold decomp_complex. cbv zeta.
    assert (e2r (i_cache s2) = [[p]]) as -> by exact E2. assert (ip2 (i_cache s2) = [z2']) as -> by exact Ez2.
    assert (dfdu (i_cache s2) = [[0]]) as -> by exact re_J0.
    assert (msub (scaled_eye (length [[p]]) (alphn (i_cache s2))) [[0]] = [[al]]) as ->.
    { cbn. unfold n0, n1, al. cbn. unfold rlit. rewrite rdiv_ok by exact Hdt. do 2 f_equal.
      generalize (rALPHA (A := RI)). cbn. intros. lra. }
    assert (scaled_eye (length [[p]]) (betan (i_cache s2)) = [[be]]) as ->.
    { cbn. unfold n0, n1, be. cbn. unfold rlit. rewrite rdiv_ok by exact Hdt. do 2 f_equal.
      generalize (rBETA (A := RI)). cbn. intros. lra. }
    cbn [length]. rewrite decc1; [reflexivity|]. nra. }
  cbn [bind Nat.eqb]. eexists. split; [reflexivity|]. split.
  - repeat split.
  - exists ((rU1 (A := RI) : R) / i_dt s), al, be. repeat split; [|nra]. apply quot_nz; [apply rU1_nz|exact Hdt].
Qed.

Lemma sol1 (x b : R) l ip : x <> 0 -> sol (A := RI) 1 [[x]] (b :: l) ip = Ok (b / x :: l).
Proof. intros H. unfold sol. cbn. now rewrite rdiv_ok. Qed.
Lemma solc1 (p q : R) ip : p * p + q * q <> 0 -> solc (A := RI) 1 [[p]] [[q]] [0] [0] ip = Ok ([0], [0]).
Proof. intros H. unfold solc. cbn. rewrite !rdiv_ok by exact H. do 2 f_equal; f_equal; field; exact H. Qed.

Definition still (s : state) : Prop :=
  let c := i_cache s in
  z1 c = [0 : R] /\ z2 c = [0 : R] /\ z3 c = [0 : R] /\ f1 c = [0 : R] /\ f2 c = [0 : R] /\ f3 c = [0 : R].

Lemma list1 (x : R) : x = 0 -> [x] = [0].
Proof. now intros ->. Qed.
Ltac zero := apply list1; cbn; unfold n0; cbn; unfold rlit, rfma; lra.

Lemma prepare_still (s : state) : rest s -> still (prepare_newton s) /\ keeps s (prepare_newton s) /\
  e1 (i_cache (prepare_newton s)) = e1 (i_cache s) /\ e2r (i_cache (prepare_newton s)) = e2r (i_cache s) /\
  e2i (i_cache (prepare_newton s)) = e2i (i_cache s) /\ cont (i_cache (prepare_newton s)) = cont (i_cache s).
Proof.
  intros []. destruct re_safe0 as [Hu _]. destruct re_cont0 as (a & Ec). unfold prepare_newton, still. rewrite Hu, Ec. cbv zeta.
  destruct (_ || _); (split; [|repeat split; try reflexivity; exact Ec]);
    cbn -[rC1 rC2 rC1M1 rC2M1 rTI11 rTI12 rTI13 rTI21 rTI22 rTI23 rTI31 rTI32 rTI33];
    unfold n0; cbn -[rC1 rC2 rC1M1 rC2M1 rTI11 rTI12 rTI13 rTI21 rTI22 rTI23 rTI31 rTI32 rTI33]; unfold rlit, rfma;
    repeat split; apply list1.
  all: try lra.
  all: repeat match goal with |- context [rC1] => generalize (rC1 (A := RI)) | |- context [rC2] => generalize (rC2 (A := RI)) 
     end; intros; lra.
Qed.

Definition same_e (s s' : state) : Prop :=
  e1 (i_cache s') = e1 (i_cache s) /\ e2r (i_cache s') = e2r (i_cache s) /\ e2i (i_cache s') = e2i (i_cache s).
Lemma same_e_factored (s s' : state) : same_e s s' -> factored s -> factored s'.
Proof. intros (E1 & E2 & E3) (x & p & q & H1 & H2 & H3 & H). exists x, p, q. repeat split; try congruence; apply H. Qed.

Lemma rhs_still (s : state) : rest s -> still s ->
  let s' := newton_transform (newton_rhs s) in still s' /\ keeps s s' /\ same_e s s'.
Proof.
  intros [] (E1 & E2 & E3 & E4 & E5 & E6) s'. destruct re_safe0 as [Hu _]. destruct re_cont0 as (a & Ec).
  assert (i_u (newton_rhs s) = i_u s) as Eu by reflexivity.
  assert (z1 (i_cache (newton_rhs s)) = [0] /\ z2 (i_cache (newton_rhs s)) = [0] /\ z3 (i_cache (newton_rhs s)) = [0])
    as (F1 & F2 & F3).
  { unfold newton_rhs. rewrite re_f0, E1, E2, E3. repeat split. }
  split; [|split; [|repeat split]].
  - unfold still, s', newton_transform. rewrite Eu, Hu, F1, F2, F3. cbv zeta.
    cbn -[rTI11 rTI12 rTI13 rTI21 rTI22 rTI23 rTI31 rTI32 rTI33]. rewrite E4, E5, E6. repeat split; apply list1; lra.
  - unfold keeps, s'. repeat split. unfold newton_transform, newton_rhs. rewrite Hu, Ec. reflexivity.
Qed.

Lemma solve_still (s : state) : factored s -> still s ->
  exists s', linear_solve s = Ok s' /\ still s' /\ keeps s s' /\ same_e s s' /\ i_u s' = i_u s.
Proof.
  intros (x & p & q & H1 & H2 & H3 & Hx & Hpq) (E1 & E2 & E3 & E4 & E5 & E6).
  unfold linear_solve. cbv zeta. rewrite H1, H2, H3, E1, E2, E3, E4, E5, E6. cbn [length].
  match goal with |- context [sol 1 _ ?v _] => assert (v = [0]) as -> end.
  { cbn. apply list1. generalize (fac1 (i_cache s)). cbn. intros; lra. }
  match goal with |- context [solc 1 _ _ ?v ?w _] => assert (v = [0]) as ->; [|assert (w = [0]) as ->] end.
  { cbn. apply list1. generalize (alphn (i_cache s)) (betan (i_cache s)). cbn. intros; lra. }
  { cbn. apply list1. generalize (alphn (i_cache s)) (betan (i_cache s)). cbn. intros; lra. }
  rewrite sol1 by exact Hx. cbn [bind]. rewrite solc1 by exact Hpq. cbn [bind].
  eexists. split; [reflexivity|]. split; [|repeat split].
  unfold still. cbn. rewrite E4, E5, E6. repeat split. apply list1. field. exact Hx.
Qed.

Lemma norm_still (s : state) : length (i_u s) = 1%nat -> length (scal (i_cache s)) = 1%nat ->
  at_ (scal (i_cache s)) 0 <> 0 -> still s -> newton_norm s = 0.
Proof.
  intros Hu Hsc Hnz (E1 & E2 & E3 & _). unfold newton_norm. rewrite Hu, E1, E2, E3. cbv zeta.
  unfold sum_loop. cbn [seq fold_left]. unfold at_ in *. cbn [nth]. revert Hnz. generalize (nth 0 (scal (i_cache s)) n0) as sc.
  intros sc Hnz. unfold n0, of_nat. cbn. unfold rlit. rewrite !rdiv_ok by (exact Hnz || lra).
  replace (0 / sc) with 0 by (field; exact Hnz).
  match goal with |- sqrt ?e = 0 => replace e with 0 end; [apply sqrt_0|]. simpl. lra.
Qed.

Lemma update_still (s : state) : length (i_u s) = 1%nat -> still s ->
  still (newton_update s) /\ keeps s (newton_update s) /\ same_e s (newton_update s).
Proof.
  intros Hu (E1 & E2 & E3 & E4 & E5 & E6). split; [|repeat split].
  unfold still, newton_update. rewrite Hu, E1, E2, E3, E4, E5, E6. cbv zeta.
  cbn -[rT11 rT12 rT13 rT21 rT22 rT23 rT31]. repeat split; apply list1; lra.
Qed.

Lemma rest_newton fuel (s : state) : rest s -> factored s ->
  exists s', newton (S fuel) s = Ok (s', true) /\ rest s' /\ factored s' /\ still s'.
Proof.
  intros Hr Hf. cut (exists s', newton (S fuel) s = Ok (s', true) /\ keeps s s' /\ same_e s s' /\ still s').
  { intros (s' & H1 & H2 & H3 & H4). exists s'. split; [exact H1|].
    split; [|split; [exact (same_e_factored _ _ H3 Hf)|exact H4]].
    apply (keeps_rest s); [exact H2| |exact Hr].
    pose proof (newton_ok 1 (S fuel) s ltac:(lia) (re_safe _ Hr)) as H5. rewrite H1 in H5. exact H5. }
  unfold newton. rewrite (csafe_shapes 1 s (re_safe _ Hr)). cbn [guard]. cbv zeta.
  destruct (prepare_still s Hr) as (P1 & P2 & P3 & P4 & P5 & P6).
  pose proof (prepare_safe 1 s (re_safe _ Hr)) as P7.
  set (s1 := prepare_newton s) in *. clearbody s1.
  match goal with |- context [newton_loop _ _ ?x] => set (s2 := x) end.
  assert (rest s2) as R2.
  { apply (keeps_rest s1); [repeat split| |apply (keeps_rest s); assumption].
    eapply ssafe_same; [exact P7|reflexivity|]. intros H; destruct H; constructor; assumption. }
  assert (still s2) as T2 by exact P1.
  assert (keeps s s2 /\ same_e s s2) as (K2 & E2) by (split; [exact P2|repeat split; assumption]).
  assert (newt (i_cache s2) = 0%nat) as N2 by reflexivity.
  clearbody s2. clear P1 P2 P3 P4 P5 P6 P7 s1.
  cbn [newton_loop]. rewrite N2. pose proof (re_newt _ R2) as Hn.
  destruct (Nat.leb_spec (o_max_newt_iter (i_opts s2)) 0) as [Hb|_]; [lia|].
  destruct (rhs_still s2 R2 T2) as (T3 & K3 & E3).
  assert (i_u (newton_transform (newton_rhs s2)) = i_u s2) as U3 by reflexivity.
  assert (newt (i_cache (newton_transform (newton_rhs s2))) = newt (i_cache s2)) as N3 by reflexivity.
  revert T3 K3 E3 U3 N3. cbv zeta. generalize (newton_transform (newton_rhs s2)) as s3. intros.
  pose proof (same_e_factored _ _ E3 (same_e_factored _ _ E2 Hf)) as F3.
  destruct (solve_still s3 F3 T3) as (s4 & H4 & T4 & K4 & E4 & U4).
  assert (newt (i_cache s4) = newt (i_cache s3)) as N4.
  { clear -H4. unfold linear_solve in H4. cbv zeta in H4. apply bind_ok in H4 as (? & _ & H4).
    apply bind_ok in H4 as ([? ?] & _ & H4). inversion H4. reflexivity. }
  rewrite H4. cbn [bind].
  set (s5 := s4 <| i_stats; linear_solves ::= S |> <| i_cache; newt ::= S |>).
  assert (still s5) as T5 by exact T4. assert (keeps s s5) as K5.
  { eapply keeps_trans; [exact K2|]. eapply keeps_trans; [exact K3|]. exact K4. }
  assert (same_e s s5) as E5.
  { destruct E2 as (?&?&?), E3 as (?&?&?), E4 as (?&?&?). repeat split; cbn; congruence. }
  assert (newt (i_cache s5) = 1%nat) as N5 by (change (S (newt (i_cache s4)) = 1%nat); congruence).
  assert (i_u s5 = i_u s2) as U5 by (change (i_u s4 = i_u s2); congruence).
  clearbody s5. clear H4 T4 K4 E4 U4 N4 s4.
  assert (length (i_u s5) = 1%nat) as L5 by (rewrite U5; apply R2).
  assert (newton_norm s5 = 0) as Hd.
  { destruct K5 as (_ & _ & _ & _ & _ & Ec & _). apply norm_still; try assumption; rewrite Ec.
    - apply (re_safe _ Hr).
    - pose proof (re_scal _ Hr). lra. }
  unfold newton_check. cbv zeta. rewrite N5. cbn [Nat.ltb Nat.leb andb bind].
  destruct (update_still s5 L5 T5) as (T6 & K6 & E6).
  revert T6 K6 E6. generalize (newton_update s5) as s6. intros.
  rewrite Hd. exists s6.
  assert (keeps s s6) as K by (eapply keeps_trans; eassumption).
  assert (leb RI (mul RI (faccon (i_cache s6)) 0) (o_fnewt (i_opts s6)) = true) as ->.
  { cbn. apply Rleb_true. destruct K as (_ & _ & Eo & _). rewrite Eo. pose proof (re_fnewt _ Hr).
    generalize (faccon (i_cache s6)). cbn. intros. lra. }
  split; [reflexivity|]. split; [exact K|]. split; [|exact T6].
  destruct E5 as (?&?&?), E6 as (?&?&?). repeat split; congruence.
Qed.

Lemma rest_estimate (s : state) : rest s -> factored s -> still s ->
  exists s', error_estimate s = Ok s' /\ rest s' /\ factored s' /\ still s' /\ err (i_cache s') = 1 / 10000000000.
Proof.
  intros Hr Hf Ht.
  cut (exists s', error_estimate s = Ok s' /\ keeps s s' /\ same_e s s' /\ still s' /\ err (i_cache s') = 1 / 10000000000).
  { intros (s' & H1 & H2 & H3 & H4 & H5). exists s'. split; [exact H1|]. split; [|split; [exact (same_e_factored _ _ H3 Hf)|auto]].
    apply (keeps_rest s); [exact H2| |exact Hr].
    destruct (error_estimate_ok 1 s ltac:(lia) (re_safe _ Hr)) as (s2 & H6 & H7). rewrite H1 in H6.
    assert (s' = s2) as -> by congruence. exact H7. }
  destruct Hf as (x & p & q & H1 & H2 & H3 & Hx & _). destruct Ht as (E1 & E2 & E3 & E4 & E5 & E6).
  destruct Hr. destruct re_cont0 as (a & Ec).
  unfold error_estimate. cbv zeta. rewrite H1, E1, E2, E3. cbn [length].
  match goal with |- context [tab 1 (fun i => ?h1 * at_ [0] i + ?h2 * at_ [0] i + ?h3 * at_ [0] i)%num] => 
    assert (tab 1 (fun i => h1 * at_ [0] i + h2 * at_ [0] i + h3 * at_ [0] i)%num = [0]) as EF end.
  { generalize (rdiv inf). intros. unfold tab. cbn. apply list1. lra. }
  rewrite EF. rewrite re_u1, Ec.
  match goal with |- context [sol 1 _ ?v _] => assert (v = [0; 0; 0; 0]) as -> end.
  { unfold set_head. cbn. f_equal. lra. }
  rewrite sol1 by exact Hx. cbn [bind]. replace (0 / x) with 0 by (field; exact Hx).
  assert (est_norm 1 [0; 0; 0; 0] (scal (i_cache s)) = 1 / 10000000000) as En.
  { unfold est_norm, sum_loop. cbn [seq fold_left]. revert re_scal0. unfold at_. cbn [nth].
    generalize (nth 0 (scal (i_cache s)) n0). intros y Hy. unfold n0, of_nat. cbn. cbn in Hy. unfold rlit.
    rewrite !rdiv_ok by lra. replace (0 / y) with 0 by (field; lra).
    match goal with |- Rmax (sqrt ?e) _ = _ => replace e with 0 by (simpl; lra) end.
    rewrite sqrt_0. apply Rmax_right. lra. }
  rewrite En. assert (ltb RI (1 / 10000000000) n1 = true) as ->.
  { cbn. unfold n1. cbn. apply Rltb_true. unfold rlit. lra. }
  eexists. split; [reflexivity|]. split; [|split; [|split]].
  - repeat split. cbn. now rewrite Ec.
  - repeat split.
  - unfold still. cbn. auto 7.
  - reflexivity.
Qed.

(** What one attempt does: it is accepted at once. *)
Record rested (s s' : state) : Prop := mkRested {
  rd_t : i_t s' = i_t s + i_dt s;
  rd_u : i_u s' = i_u s;
  rd_dtprev : i_dtprev s' = i_dt s;
  rd_ts : ts (i_sol s') = ts (i_sol s) ++ [i_t s + i_dt s];
  rd_steps : steps (i_stats s') = S (steps (i_stats s));
  rd_rc : rc (i_sol s') = if last (i_cache s) then RSuccess else rc (i_sol s);
  rd_reject : reject (i_cache s') = false;
  rd_factored : factored s';
  rd_prob : same_problem s s';
  rd_rest : last (i_cache s) = false -> rest s' }.

Lemma jac_zero (s : state) t u m : i_dfdu s = Some zero_jac -> jac_of s t u m -> shaped 1 1 m -> m = [[0 : R]].
Proof.
  intros Hg (df & tr & tr' & H) Hsh. rewrite Hg in H. cbn [jacobian_u] in H.
  assert (call_jac zero_jac df u t (i_params s) = m) as Hm
    by exact (f_equal (fun r => match r with Ok p => fst p | _ => m end) H).
  destruct (shaped1 _ Hsh) as (x & ->). destruct df as [|r [|r' df]]; try discriminate.
  destruct r as [|y [|y' r]]; cbn in Hm; try discriminate. inversion Hm. reflexivity.
Qed.

Lemma cont_zero (s : state) : still s -> exists a b c, radau_cont 1 (i_cache s) = firstn 1 (cont (i_cache s)) ++ [a; b; c]
  /\ a = 0 /\ b = 0 /\ c = 0.
Proof.
  intros (E1 & E2 & E3 & _). unfold radau_cont. rewrite E1, E2, E3. cbv zeta.
  assert (forall k : num RI, k <> 0 -> rdiv inf (0 - 0) k = 0) as D0.
  { intros k Hk. rewrite rdiv_ok by exact Hk. field. exact Hk. }
  assert ((rC2M1 : num RI) <> 0 /\ (rC1MC2 : num RI) <> 0 /\ (rC1 : num RI) <> 0 /\ (rC2 : num RI) <> 0 /\ (rC1M1 : num RI) <> 0)
    as (N1 & N2 & N3 & N4 & N5).
  { repeat split; cbn; unfold rlit; lra. }
  cbn -[rC2M1 rC1MC2 rC1 rC2 rC1M1 firstn app].
  rewrite (D0 _ N1), (D0 _ N2), (D0 _ N5).
  assert (rdiv inf 0 rC1 = 0) as -> by (rewrite rdiv_ok by exact N3; field; exact N3).
  rewrite (D0 _ N4). exists 0, 0, (0 - 0). repeat split. lra.
Qed.

Lemma rest_attempt fuel (s : state) : rest s -> decompose (i_cache s) = true \/ factored s -> i_dt s <> 0 ->
  reject (i_cache s) = false -> (S (steps (i_stats s)) < o_max_steps (i_opts s))%nat ->
  Rabs (i_t s) * reps < 1/10 * Rabs (i_dt s) ->
  exists s', radau_attempt (S fuel) s = Ok (inr s') /\ rested s s'.
Proof.
  intros Hr Hf Hdt Hrj Hst Htiny.
  (* decompositions *)
  assert (exists s1, (if decompose (i_cache s) then decomp_loop (S fuel) s else Ok (inl s)) = Ok (inl s1) /\
    rest s1 /\ factored s1 /\ quiet s s1 /\ i_dt s1 = i_dt s /\ reject (i_cache s1) = false /\
    last (i_cache s1) = last (i_cache s) /\ steps (i_stats s1) = steps (i_stats s) /\ rc (i_sol s1) = rc (i_sol s))
    as (s1 & H1 & R1 & F1 & Q1 & D1 & J1 & L1 & S1 & C1).
  { destruct (decompose (i_cache s)) eqn:Ed.
    - destruct (rest_perform s Hr Hdt) as (s1 & H1 & R1 & F1). exists s1. cbn [decomp_loop]. rewrite H1. cbn [bind].
      apply perform_decompositions_inv in H1 as (Q & _ & H2 & _ & _ & _ & _ & [(_ & _ & H3 & H4 & _ & H5 & H6)|(H3 & _)]);
        [|discriminate]. repeat (split; [assumption || congruence || reflexivity|]). assumption.
    - destruct Hf as [Hf|Hf]; [discriminate|]. exists s. repeat (split; [assumption || reflexivity || apply quiet_refl|]).
      reflexivity. }
  unfold radau_attempt. rewrite H1. cbn [bind]. cbv zeta. fold (count_step s1).
  assert (rest (count_step s1)) as R2 by (destruct R1; constructor; assumption).
  assert (factored (count_step s1)) as F2 by exact F1.
  assert (quiet s (count_step s1)) as Q2 by (eapply quiet_trans; [exact Q1|apply count_step_quiet]).
  assert (i_dt (count_step s1) = i_dt s) as D2 by exact D1.
  assert (reject (i_cache (count_step s1)) = false) as J2 by exact J1.
  assert (last (i_cache (count_step s1)) = last (i_cache s)) as L2 by exact L1.
  assert (steps (i_stats (count_step s1)) = S (steps (i_stats s))) as S2 by (cbn; congruence).
  assert (rc (i_sol (count_step s1)) = rc (i_sol s)) as C2 by exact C1.
  clear H1 R1 F1 Q1 D1 J1 L1 S1 C1. revert R2 F2 Q2 D2 J2 L2 S2 C2. generalize (count_step s1) as s2. intros s2. intros.
  destruct (q_prob _ _ Q2) as (P1 & P2 & P3 & P4 & P5 & P6 & P7).
  destruct (q_point _ _ Q2) as (T1 & T2 & T3 & T4 & T5 & T6).
  rewrite P7, S2. destruct (Nat.leb_spec (o_max_steps (i_opts s)) (S (steps (i_stats s)))) as [Hm|_]; [lia|].
  rewrite D2, T2.
  assert (leb RI (mul RI (lit RI 1 10) (nabs RI (i_dt s))) (mul RI (nabs RI (i_t s)) (eps RI)) = false) as ->.
  { cbn. apply Rleb_false. unfold rlit. exact Htiny. }
  (* Newton *)
  destruct (rest_newton fuel s2 R2 F2) as (s3 & H3 & R3 & F3 & T3'). rewrite H3. cbn [bind negb].
  apply newton_inv in H3 as (_ & _ & H3 & _). specialize (H3 eq_refl).
  destruct (rest_estimate s3 R3 F3 T3') as (s4 & H4 & R4 & F4 & T4' & E4). rewrite H4. cbn [bind].
  apply error_estimate_inv in H4.
  pose proof (quiet_trans _ _ _ Q2 (quiet_trans _ _ _ (nf_quiet _ _ (ns_frame _ _ H3)) (ef_quiet _ _ H4))) as Q4.
  assert (i_dt s4 = i_dt s) as D4 by (rewrite (ef_dt _ _ H4), (ns_dt _ _ H3); exact D2).
  assert (reject (i_cache s4) = false) as J4.
  { rewrite (ef_cache _ _ H4). transitivity (reject (i_cache s3)); [reflexivity|]. now rewrite (ns_reject _ _ H3). }
  assert (last (i_cache s4) = last (i_cache s)) as L4.
  { rewrite (ef_cache _ _ H4). transitivity (last (i_cache s3)); [reflexivity|]. now rewrite (ns_last _ _ H3). }
  assert (steps (i_stats s4) = S (steps (i_stats s))) as S4.
  { rewrite (ef_steps _ _ H4), (nf_steps _ _ (ns_frame _ _ H3)). exact S2. }
  assert (rc (i_sol s4) = rc (i_sol s)) as C4.
  { rewrite (ef_rc _ _ H4), (nf_rc _ _ (ns_frame _ _ H3)). exact C2. }
  clear H3 H4 R3 F3 T3' R2 F2 Q2 D2 J2 L2 S2 C2 P1 P2 P3 P4 P5 P6 P7 T1 T2 T3 T4 T5 T6 s2 s3 s1.
  (* acceptance *)
  destruct (control_ok 1 s4 (re_safe _ R4)) as (s5 & H5 & Hsafe). rewrite H5. cbn [bind].
  rewrite step_size_control_eq in H5.
  assert (ltb RI (err (i_cache s4)) n1 = true) as Hlt.
  { rewrite E4. cbn. apply Rltb_true. unfold n1. cbn. unfold rlit. lra. }
  rewrite Hlt in H5. pose proof (radau_accept_inv _ _ H5) as Ha. apply accept_ja in H5.
  assert (rest (force_decompose s4)) as R5 by (destruct R4; constructor; try assumption;
    apply (ssafe_same 1 s4); [assumption|reflexivity|]; intros H; destruct H; constructor; assumption).
  assert (still (force_decompose s4)) as T5 by exact T4'.
  assert (factored (force_decompose s4)) as F5 by exact F4.
  assert (quiet s (force_decompose s4)) as Q5.
  { eapply quiet_trans; [exact Q4|]. constructor; [repeat split|repeat split|reflexivity..|cbn; lia|cbn; lia]. }
  assert (i_dt (force_decompose s4) = i_dt s) as D5 by exact D4.
  assert (reject (i_cache (force_decompose s4)) = false) as J5 by exact J4.
  assert (last (i_cache (force_decompose s4)) = last (i_cache s)) as L5 by exact L4.
  assert (steps (i_stats (force_decompose s4)) = S (steps (i_stats s))) as S5 by exact S4.
  assert (rc (i_sol (force_decompose s4)) = rc (i_sol s)) as C5 by exact C4.
  clear R4 T4' F4 Q4 D4 J4 L4 S4 C4 E4 Hlt. revert R5 T5 F5 Q5 D5 J5 L5 S5 C5 Ha H5.
  generalize (force_decompose s4) as y. clear s4. intros y. intros.
  destruct (q_prob _ _ Q5) as (P1 & P2 & P3 & P4 & P5 & P6 & P7).
  destruct (q_point _ _ Q5) as (U1 & U2 & U3 & U4 & U5 & U6).
  assert (reject (i_cache s5) = false) as J6.
  { destruct (last (i_cache y)) eqn:El.
    - destruct (ac_last _ _ Ha El) as (E & _). congruence.
    - destruct (ac_next _ _ Ha El) as (E & _). exact E. }
  rewrite J6. cbn [negb]. exists s5. split; [reflexivity|].
  destruct (re_safe _ R5) as (Hlu & Hcy).
  assert (i_u s5 = i_u s) as Eu.
  { rewrite (ac_u _ _ Ha), Hlu. destruct T5 as (_ & _ & -> & _). cbn. rewrite <- U1.
    destruct (len1 _ Hlu) as (x & ->). cbn. f_equal. lra. }
  constructor.
  - rewrite (ac_t _ _ Ha), U2, D5. reflexivity.
  - exact Eu.
  - rewrite (ac_dtprev _ _ Ha). exact D5.
  - rewrite (ac_ts _ _ Ha), (ac_t _ _ Ha), U5, U2, D5. reflexivity.
  - rewrite (ac_steps _ _ Ha). exact S5.
  - rewrite (ac_rc _ _ Ha), L5, C5. reflexivity.
  - exact J6.
  - eapply same_e_factored; [|exact F5]. destruct (ac_keep _ _ Ha) as (_ & _ & K1 & K2 & K3 & _). repeat split; assumption.
  - exact (same_problem_trans _ _ _ (q_prob _ _ Q5) (ac_prob _ _ Ha)).
  - intros El. rewrite <- L5 in El. destruct (ac_next _ _ Ha El) as (_ & _ & Eu0 & _).
    destruct (ac_prob _ _ Ha) as (G1 & G2 & G3 & G4 & G5 & G6 & G7). destruct R5.
    constructor; try congruence; try (rewrite G7; assumption).
    + rewrite Eu0, re_f0, re_u1. reflexivity.
    + destruct (ja_jac _ _ H5) as [E|E]; [congruence|].
      eapply jac_zero; [exact re_g0|exact E|]. destruct Hsafe as (_ & Hs). exact (cs_dfdu _ _ Hs).
    + rewrite (ac_cont _ _ Ha), Hlu. destruct (cont_zero y T5) as (a & b & c & -> & -> & -> & ->).
      destruct re_cont0 as (w & ->). destruct (o_dense (i_opts y)); eexists; reflexivity.
    + rewrite (ac_scal _ _ Ha), Eu, <- U1. destruct (len1 _ Hlu) as (x & ->). unfold radau_scal. cbn.
      destruct re_tols0 as (Ht1 & Ht2). pose proof (Rabs_pos x). cbn in Ht1, Ht2. nra.
Qed.

(** The builder: [u' = 0], [u = 1], defaults except for the Jacobian and [dtmax]. *)
Definition r_rest (t0 tf dtmax : R) : builder RI unit :=
  set_dtmax dtmax (set_dfdu zero_jac (builder_default alg zero_rhs ([1] : list R) (t0, tf) tt)).

Lemma r_rest_dt t0 tf m : b_dt (r_rest t0 tf m) = 1 / 1000000.
Proof. reflexivity. Qed.
Lemma r_rest_sane t0 tf m : 0 < m -> radau_sane (b_opts (r_rest t0 tf m)).
Proof. intros H. constructor; cbn; unfold n1; cbn; unfold rlit; try lra. Qed.
Lemma r_rest_max t0 tf m : o_max_steps (radau_opts (b_opts (r_rest t0 tf m))) = Z.to_nat 100000.
Proof. unfold radau_opts. destruct (leb RI _ _); reflexivity. Qed.

Lemma tols_pos (o : opts RI) : 0 < o_reltol o -> 0 < o_abstol o ->
  0 < o_reltol (radau_opts o) /\ 0 < o_abstol (radau_opts o) /\ 0 <= o_fnewt (radau_opts o).
Proof.
  intros Hr Ha. destruct (radau_opts_same o) as (-> & ->).
  assert (0 < o_reltol (radau_tols o)) as H1.
  { cbn. unfold rlit. rewrite rpow_pos by exact Hr. pose proof (exp_pos (rdiv inf (2 / 1) (3 / 1) * ln (o_reltol o))).
    unfold Rpower. lra. }
  assert (0 < o_abstol (radau_tols o)) as H2.
  { change (0 < o_reltol (radau_tols o) * rdiv inf (o_abstol o) (o_reltol o)). rewrite rdiv_ok by (cbn in *; lra).
    apply Rmult_lt_0_compat; [exact H1|]. now apply Rdiv_lt_0_compat. }
  split; [exact H1|]. split; [exact H2|]. unfold radau_opts. cbv zeta. destruct (leb RI _ _) eqn:E.
  - change (0 <= Rmax (rdiv inf (rlit 10 1 * reps) (o_reltol (radau_tols o)))
      (Rmin (rlit 3 100) (sqrt (o_reltol (radau_tols o))))).
    eapply Rle_trans; [|apply Rmax_r]. apply Rmin_glb; [unfold rlit; lra|apply sqrt_pos].
  - cbn in E. apply Rleb_false in E. unfold n0 in E. cbn in E. unfold rlit in E. cbn. lra.
Qed.

Lemma build_cont (b : builder RI unit) (s : state) : build alg b = Ok s ->
  cont (i_cache s) = zeros (4 * length (b_u b)).
Proof.
  unfold build. cbn [alg_new_cache Radau5]. intros H. apply bind_ok in H as (((b' & c) & tr) & H & E).
  assert (cont (i_cache s) = cont c) as ->.
  { exact (f_equal (fun r => match r with Ok p => cont (i_cache p) | _ => cont c end) (eq_sym E)). }
  unfold radau_new_cache in H. cbv zeta in H. apply bind_ok in H as ((df & tr') & _ & H).
  apply (f_equal (fun r => match r with Ok p => cont (snd (fst p)) | _ => cont c end)) in H. symmetry. exact H.
Qed.

Lemma rest_start t0 tf m (s : state) : build alg (r_rest t0 tf m) = Ok s -> rest s.
Proof.
  intros Hb. pose proof (build_cont _ _ Hb) as Hc. apply radau_build_inv in Hb.
  destruct (rb_prob _ _ Hb) as (E1 & _ & E2 & _ & _ & _ & E3).
  destruct (tols_pos (b_opts (r_rest t0 tf m))) as (H1 & H2 & H3); [cbn; unfold rlit; lra..|].
  constructor.
  - exact E1.
  - exact E2.
  - exact (rb_safe _ _ Hb).
  - rewrite (rb_u0 _ _ Hb). unfold call_rhs, tab, zero_rhs. cbn. reflexivity.
  - destruct (rb_jac _ _ Hb) as (tr & Hj & _).
    apply (f_equal (fun r => match r with Ok p => fst p | _ => [[0 : R]] end)) in Hj. symmetry. exact Hj.
  - rewrite Hc. exists 0. cbn. unfold n0. cbn. unfold rlit. replace (0 / 1) with 0 by lra. reflexivity.
  - rewrite (rb_scal _ _ Hb). change (0 < o_abstol (radau_opts (b_opts (r_rest t0 tf m))) + o_reltol (radau_opts (b_opts (r_rest t0 tf m))) * Rabs 1).
    rewrite Rabs_R1. lra.
  - rewrite E3. lra.
  - rewrite E3. exact H3.
  - rewrite E3. unfold radau_opts. destruct (leb RI _ _); cbn; lia.
Qed.

Lemma clip_rest (s : state) : rest s -> rest (radau_clip s).
Proof.
  intros []. unfold radau_clip. destruct (leb RI _ _); constructor; try assumption.
  apply (ssafe_same 1 s); [assumption|reflexivity|]; intros H; destruct H; constructor; assumption.
Qed.
Lemma clip_factored (s : state) : decompose (i_cache s) = true \/ factored s ->
  decompose (i_cache (radau_clip s)) = true \/ factored (radau_clip s).
Proof. unfold radau_clip. destruct (leb RI _ _); auto. Qed.

(** A call of [step()] accepts its first attempt. *)
Lemma rest_step fuel (s : state) : rest s -> decompose (i_cache s) = true \/ factored s ->
  let c := radau_clip s in
  i_dt c <> 0 -> reject (i_cache s) = false -> (S (steps (i_stats s)) < o_max_steps (i_opts s))%nat ->
  Rabs (i_t s) * reps < 1/10 * Rabs (i_dt c) ->
  exists s' r, step alg None (S fuel) s = Ok (s', r) /\ rested c s' /\
    (rc (i_sol s') = RContinue -> r = Some (steps (i_stats s'))).
Proof.
  intros Hr Hf c Hdt Hrj Hst Htiny.
  destruct (radau_clip_frame s) as (Q & _ & Es & Est & _ & Ec & _). fold c in Q, Es, Est, Ec.
  destruct (q_prob _ _ Q) as (_ & _ & _ & _ & _ & _ & Eo). destruct (q_point _ _ Q) as (_ & Et & _).
  destruct (rest_attempt fuel c) as (s' & H & Hd).
  - now apply clip_rest.
  - now apply clip_factored.
  - exact Hdt.
  - rewrite Ec. exact Hrj.
  - rewrite Est, Eo. exact Hst.
  - rewrite Et. exact Htiny.
  - exists s'. eexists. split; [|split; [exact Hd|]]; [|shelve].
    unfold step. cbn [alg_step Radau5]. unfold radau_step. cbn [radau_loop]. fold c.
    assert (radau_attempt (S fuel) c = Ok (inr s')) as E by exact H. rewrite E. reflexivity.
    Unshelve. cbn [run_callback]. intros ->. reflexivity.
Qed.

(** The first call of [step()]. *)
Lemma rest_first fuel t0 tf m (s0 : state) : 0 < m -> t0 <> tf -> Rabs t0 * reps < 1/10 * Rmin (1/1000000) (Rabs (tf - t0)) ->
  build alg (r_rest t0 tf m) = Ok s0 ->
  let h := if Rle_dec 0 (t0 + 10001/10000 * (1/1000000) - tf * (if Rlt_dec tf t0 then -1 else 1)) then tf - t0 else 1/1000000 in
  exists s1 r, step alg None (S fuel) s0 = Ok (s1, r) /\ ts (i_sol s1) = [t0; t0 + h] /\ i_dtprev s1 = h /\
   i_t s1 = t0 + h /\ i_opts s1 = radau_opts (b_opts (r_rest t0 tf m)) /\ steps (i_stats s1) = 1%nat /\
   reject (i_cache s1) = false /\ factored s1 /\
   (if Rle_dec 0 (t0 + 10001/10000 * (1/1000000) - tf * (if Rlt_dec tf t0 then -1 else 1))
    then rc (i_sol s1) = RSuccess else rc (i_sol s1) = RContinue /\ r = Some 1%nat /\ rest s1).
Proof.
  intros Hm Hne Htiny Hb h. pose proof (rest_start _ _ _ _ Hb) as Hr.
  pose proof (built_fresh inf _ _ (r_rest_sane t0 tf m Hm) Hb) as F. destruct F as [Fo Ff Fd Ft Fdt Fts Frc Fs Fcf Fr Fl Ftr].
  pose proof (radau_build_inv _ _ Hb) as B. destruct (rb_flags _ _ B) as (_ & _ & _ & _ & Fde & _).
  assert (i_dt (radau_clip s0) = h /\ last (i_cache (radau_clip s0)) =
    if Rle_dec 0 (t0 + 10001/10000 * (1/1000000) - tf * (if Rlt_dec tf t0 then -1 else 1)) then true else false) as (Eh & El).
  { destruct (radau_clip_cases inf s0) as [(C & E1 & E2)|(C & E)].
    - rewrite Ft, Fdt, Ff, Fd, r_rest_dt in C. cbn in C. unfold h. destruct (Rle_dec _ _) as [H|H].
      + rewrite E1, E2, Ft, Ff. split; reflexivity.
      + exfalso. apply H. clear H. destruct (Rlt_dec tf t0); rnorm; lra.
    - rewrite Ft, Fdt, Ff, Fd, r_rest_dt in C. cbn in C. rewrite E, Fdt, Fl. unfold h. destruct (Rle_dec _ _) as [H|H].
      + exfalso. destruct (Rlt_dec tf t0); rnorm; lra.
      + split; reflexivity. }
  assert (h <> 0 /\ Rabs t0 * reps < 1/10 * Rabs h) as (Hh & Ht).
  { unfold h. destruct (Rle_dec _ _).
    - split; [lra|]. eapply Rlt_le_trans; [exact Htiny|]. pose proof (Rmin_r (1/1000000) (Rabs (tf - t0))). lra.
    - split; [lra|]. rewrite (Rabs_right (1/1000000)) by lra. eapply Rlt_le_trans; [exact Htiny|].
      pose proof (Rmin_l (1/1000000) (Rabs (tf - t0))). lra. }
  pose proof (rb_stats _ _ B) as Est.
  destruct (rest_step fuel s0 Hr (or_introl Fde)) as (s1 & r & H & Hd & Er).
  - now rewrite Eh.
  - exact Fr.
  - rewrite Est, Fo, r_rest_max. cbn [stats_new steps]. lia.
  - rewrite Ft, Eh. exact Ht.
  - exists s1, r. split; [exact H|].
    destruct (radau_clip_frame s0) as (Q & _ & Es & Est' & _ & _ & _).
    destruct (q_prob _ _ Q) as (_ & _ & _ & _ & _ & _ & Eo). destruct (q_point _ _ Q) as (_ & Et & _).
    destruct Hd as [D1 D2 D3 D4 D5 D6 D7 D8 D9 D10]. rewrite Et, Ft, Eh in D1, D4. rewrite Es, Fts in D4.
    rewrite Est', Est in D5. rewrite Eh in D3. rewrite Es, Frc, El in D6. rewrite El in D10.
    split; [exact D4|]. split; [exact D3|]. split; [exact D1|].
    split; [destruct D9 as (_ & _ & _ & _ & _ & _ & D9); etransitivity; [exact D9|]; etransitivity; [exact Eo|exact Fo]|].
    split; [exact D5|]. split; [exact D7|]. split; [exact D8|].
    destruct (Rle_dec _ _); [exact D6|]. split; [exact D6|]. split; [|now apply D10].
    exact (eq_trans (Er D6) (f_equal Some D5)).
Qed.

Lemma reps_small : 0 < reps <= 1/1000000000.
Proof. unfold reps. change (2 ^ 52)%Z with 4503599627370496%Z. lra. Qed.

(** The span is exactly the first step. *)
Lemma rest_success : exists (s0 s : state), build alg (r_rest 0 (1/1000000) 1) = Ok s0 /\
  reached alg None 1 1 s0 s /\ rc (i_sol s) = RSuccess.
Proof.
  destruct (radau_build_ok (r_rest 0 (1/1000000) 1)) as (s0 & Hb). exists s0.
  destruct (rest_first 0 0 (1/1000000) 1 s0) as (s1 & r & H & Hx); [lra|lra| |exact Hb|].
  - rewrite Rabs_R0. rewrite Rabs_right by lra. replace (1/1000000 - 0) with (1/1000000) by lra.
    rewrite Rmin_left by lra. lra.
  - exists s1. split; [exact Hb|]. split; [econstructor; [constructor|exact H]|].
    destruct Hx as (_ & _ & _ & _ & _ & _ & _ & Hx). destruct (Rle_dec _ _) as [_|Hn]; [exact Hx|].
    exfalso. apply Hn. destruct (Rlt_dec _ _); lra.
Qed.

(** The first of many steps, which may be longer than [dtmax]. *)
Lemma rest_one m : 0 < m -> exists (s0 s : state), build alg (r_rest 0 1 m) = Ok s0 /\
  step alg None 1 s0 = Ok (s, Some 1%nat) /\ ts (i_sol s) = [0; 1/1000000] /\ i_dtprev s = 1/1000000 /\
  i_t s = 1/1000000 /\ i_opts s = radau_opts (b_opts (r_rest 0 1 m)) /\ steps (i_stats s) = 1%nat /\
  reject (i_cache s) = false /\ factored s /\ rc (i_sol s) = RContinue /\ rest s /\ rc (i_sol s0) = RContinue.
Proof.
  intros Hm. destruct (radau_build_ok (r_rest 0 1 m)) as (s0 & Hb). exists s0.
  destruct (rest_first 0 0 1 m s0) as (s1 & r & H & Hx); [lra|lra| |exact Hb|].
  - rewrite Rabs_R0. rewrite Rabs_right by lra. rewrite Rmin_left by lra. lra.
  - cbv zeta in Hx. exists s1. split; [exact Hb|].
    destruct (Rlt_dec 1 0) as [|_]; [lra|].
    destruct (Rle_dec _ _) as [Hn|_]; [exfalso; lra|].
    destruct Hx as (H1 & H2 & H3 & H4 & H5 & H6 & H7 & H8 & H9 & H10).
    rewrite H9 in H. split; [exact H|]. rewrite Rplus_0_l in *.
    repeat (split; [assumption|]). exact (f_equal rc (rb_sol _ _ (radau_build_inv _ _ Hb))).
Qed.

Lemma rest_two : exists (s0 s1 s2 : state) r, build alg (r_rest 0 1 1) = Ok s0 /\
  reached alg None 1 1 s0 s1 /\ rc (i_sol s1) = RContinue /\
  step alg None 1 s1 = Ok (s2, r) /\ ts (i_sol s2) <> ts (i_sol s1) /\ rc (i_sol s2) = RContinue.
Proof.
  destruct (rest_one 1 ltac:(lra)) as (s0 & s1 & Hb & H & E1 & E2 & E3 & E4 & E5 & E6 & E7 & E8 & E9 & E10).
  assert (reached alg None 1 1 s0 s1) as Hr by (econstructor; [constructor|exact H]).
  pose proof (r_rest_sane 0 1 1 ltac:(lra)) as Ho.
  assert (0 < b_dt (r_rest 0 1 1)) as Hdt by (rewrite r_rest_dt; lra).
  destruct (fwd_growth inf _ 1 0 s0 s0 s1 _ Ho Hdt ltac:(cbn; lra) Hb ltac:(constructor) E10 H E8) as (_ & Hg).
  cbv zeta in Hg. rewrite E2, E3 in Hg. change (b_tfinal (r_rest 0 1 1)) with 1 in Hg.
  change (o_facr (b_opts (r_rest 0 1 1))) with (rlit 1 8) in Hg.
  change (o_facl (b_opts (r_rest 0 1 1))) with (rlit 5 1) in Hg.
  change (o_dtmax (b_opts (r_rest 0 1 1))) with 1 in Hg.
  change (o_quot1 (b_opts (r_rest 0 1 1))) with (rlit 1 1) in Hg.
  assert (2/10000000 <= i_dt s1 <= 8/1000000) as Hs.
  { destruct Hg as [(Hg1 & Hg2)|((Hg1 & Hg2) & _)].
    - exfalso. pose proof (Rmin_l (1 / 1000000 / rlit 1 8) 1) as Hl. unfold rlit in *. rnorm. lra.
    - rewrite Rmin_left in Hg1 by (unfold rlit; lra). unfold rlit in *. rnorm. lra. }
  destruct (run_ready inf _ 1 1 s0 s1 Ho ltac:(left; split; [cbn; lra|exact Hdt]) Hb Hr E8) as (_ & _ & Ef & Ed).
  change (b_tfinal (r_rest 0 1 1)) with 1 in Ef, Ed. change (b_t (r_rest 0 1 1)) with 0 in Ed.
  destruct (Rlt_dec 1 0) as [|_]; [lra|].
  assert (radau_clip s1 = s1) as Ec.
  { destruct (radau_clip_cases inf s1) as [(C & _)|(_ & C)]; [exfalso|exact C].
    rewrite Ef, Ed, E3 in C. rnorm. lra. }
  destruct (rest_step 0 s1 E9 (or_intror E7)) as (s2 & r & H2 & Hd & _).
  - rewrite Ec. rnorm. lra.
  - exact E6.
  - rewrite E5, E4, r_rest_max. lia.
  - rewrite Ec, E3, Rabs_right by lra. rewrite Rabs_right by (rnorm; lra).
    pose proof reps_small as Hp. revert Hp Hs. generalize reps. cbn. intros; nra.
  - exists s0, s1, s2, r. split; [exact Hb|]. split; [exact Hr|]. split; [exact E8|]. split; [exact H2|].
    rewrite Ec in Hd. destruct Hd as [D1 D2 D3 D4 D5 D6 D7 D8 D9 D10]. split.
    + intros E. pose proof (eq_trans (eq_sym D4) E) as E'. apply (f_equal (@length _)) in E'.
      rewrite app_length in E'. cbn in E'. rlia.
    + etransitivity; [exact D6|].
      assert (last (i_cache s1) = false) as ->; [|exact E8].
      destruct (last (i_cache s1)) eqn:El; [|reflexivity].
      exfalso. destruct (run_ready inf _ 1 1 s0 s1 Ho ltac:(left; split; [cbn; lra|exact Hdt]) Hb Hr E8) as (Hrd & _).
      destruct Hrd as [Hrd|(_ & _ & _ & Hrd & _)]; [|congruence].
      destruct Hrd as [_ _ _ _ _ Hl _ _]. specialize (Hl El). rewrite Ef, E3 in Hl. rnorm. lra.
Qed.

(** Backward over a span for which the end-of-span test works. *)
Lemma rest_back : exists (s0 s : state), build alg (r_rest 1 0 1) = Ok s0 /\
  reached alg None 1 1 s0 s /\ rc (i_sol s) = RSuccess /\ ts (i_sol s) = [1; 0].
Proof.
  destruct (radau_build_ok (r_rest 1 0 1)) as (s0 & Hb). exists s0.
  destruct (rest_first 0 1 0 1 s0) as (s1 & r & H & Hx); [lra|lra| |exact Hb|].
  - rewrite Rabs_R1. rewrite Rabs_left by lra. rewrite Rmin_left by lra. pose proof reps_small. lra.
  - cbv zeta in Hx. exists s1. split; [exact Hb|]. split; [econstructor; [constructor|exact H]|].
    destruct (Rlt_dec 0 1) as [_|]; [|lra]. destruct (Rle_dec _ _) as [_|Hn]; [|exfalso; lra].
    destruct Hx as (Hx & _ & _ & _ & _ & _ & _ & Hy). split; [exact Hy|].
    etransitivity; [exact Hx|]. do 2 f_equal. lra.
Qed.

(** Backward over a span for which it does not. *)
Lemma rest_away : exists (s0 s : state), build alg (r_rest (-1) (-2) 1) = Ok s0 /\
  reached alg None 1 1 s0 s /\ ts (i_sol s) = [-1; -1 + 1/1000000].
Proof.
  destruct (radau_build_ok (r_rest (-1) (-2) 1)) as (s0 & Hb). exists s0.
  destruct (rest_first 0 (-1) (-2) 1 s0) as (s1 & r & H & Hx); [lra|lra| |exact Hb|].
  - rewrite !Rabs_left by lra. rewrite Rmin_left by lra. pose proof reps_small. lra.
  - cbv zeta in Hx. exists s1. split; [exact Hb|]. split; [econstructor; [constructor|exact H]|].
    destruct (Rlt_dec (-2) (-1)) as [_|]; [|lra]. destruct (Rle_dec _ _) as [Hn|_]; [exfalso; lra|].
    destruct Hx as (Hx & _). exact Hx.
Qed.

Lemma rest_exceeds_dtmax : let b := r_rest 0 1 (1/10000000) in
  exists (s0 s : state), radau_sane (b_opts b) /\ build alg b = Ok s0 /\ reached alg None 1 1 s0 s /\
  gaps (ts (i_sol s)) = [1/1000000] /\ 1/1000000 = 10 * o_dtmax (b_opts b).
Proof.
  intros b. destruct (rest_one (1/10000000) ltac:(lra)) as (s0 & s & Hb & H & E & _). exists s0, s.
  split; [apply r_rest_sane; lra|]. split; [exact Hb|]. split; [econstructor; [constructor|exact H]|].
  split; [|cbn; lra]. etransitivity; [exact (f_equal gaps E)|]. cbn. f_equal. lra.
Qed.

Lemma rest_reached2 : exists (s0 s : state), build alg (r_rest 0 1 1) = Ok s0 /\ reached alg None 1 2 s0 s.
Proof.
  destruct rest_two as (s0 & s1 & s2 & r & Hb & Hr & Hc & H & _). exists s0, s2. split; [exact Hb|].
  inversion Hr as [|k a b c r' Hc' Hs]; subst. inversion Hc'; subst. assert (exists n, r' = Some n) as (n & ->);
    [|econstructor; [econstructor; [exact Hs|constructor]|exact H]].
  unfold step in Hs. apply bind_ok in Hs as (x & _ & Hs).
  pose proof (f_equal (fun q => match q with Ok p => fst p | _ => s1 end) Hs) as E1. cbn in E1.
  pose proof (f_equal (fun q => match q with Ok p => snd p | _ => r' end) Hs) as E2. cbn [snd] in E2.
  cbn [run_callback] in *. rewrite <- E2. exists (steps (i_stats x)).
  assert (rc (i_sol x) = RContinue) as ->; [|reflexivity]. rewrite <- Hc. f_equal. f_equal. exact E1.
Qed.
End Ex.
