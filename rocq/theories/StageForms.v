(** Corollaries of the Radau5 step equations in the form of the properties,
    and a run that meets their hypotheses. *)
From Coq Require Import ZArith List Bool Lia Reals Lra.
From RecordUpdate Require Import RecordSet.
From Verif Require Import Arith Vec Core Spec SpecRK SpecLin SpecRadau SpecStage ArithR Jacobian Radau Driver RKFacts DP5Facts DP5Inv LinFacts
  RadauFacts RadauStep RadauInv RadauTerm RadauSafe RadauHist RadauEx RadauREx StageConst RadauSolve RadauStage RadauErr.
Import ListNotations RecordSetNotations.
Local Open Scope R_scope.

Section Forms.
Context {P : Type} (inf : R).
Notation RI := (RA inf).
Notation state := (integ RI P (radau_cache RI)).
Notation alg := (@Radau5 RI P).

Lemma own_step_size (b : builder RI P) fuel k (s0 s s' : state) r h :
  build alg b = Ok s0 -> continues alg None fuel k s0 s ->
  step alg None fuel s = Ok (s', r) -> ts (i_sol s') <> ts (i_sol s) ->
  (decompositions (i_stats s) < decompositions (i_stats s'))%nat ->
  matrix_step fuel s0 (S k) s' h -> h = i_t s' - i_t s.
Proof.
  intros Hb Hc Hs Hts Hd Hm. pose proof (matrix_step_new inf fuel s0 s s' k r h Hc Hs Hd Hm) as ->.
  destruct (radau_call_outcome b fuel k s0 s s' r Hb Hc Hs) as [(_ & _ & _ & E1 & E2)|(_ & E & _)]; [|contradiction].
  rewrite E2, E1. cbn [add RA]. lra.
Qed.

Lemma working_tolerances (b : builder RI P) (s0 : state) :
  0 < o_reltol (b_opts b) -> 0 < o_abstol (b_opts b) -> build alg b = Ok s0 ->
  let rtol := o_reltol (b_opts b) in let atol := o_abstol (b_opts b) in
  o_reltol (i_opts s0) = radau_rtol rtol /\ o_abstol (i_opts s0) = radau_atol atol rtol /\
  0 < radau_rtol rtol /\ 0 < radau_atol atol rtol /\
  radau_atol atol rtol / radau_rtol rtol = atol / rtol /\
  (radau_rtol rtol = rtol <-> rtol = 1 / 1000) /\
  (rtol < radau_rtol rtol <-> rtol < 1 / 1000).
Proof.
  intros Hr Ha Hb rtol atol. apply radau_build_inv in Hb. destruct (rb_prob _ _ Hb) as (_ & _ & _ & _ & _ & _ & E).
  destruct (tols_R inf (b_opts b) Hr Ha) as (T1 & T2 & T3 & T4). fold rtol atol in T1, T2, T3, T4, Hr, Ha.
  rewrite E. split; [exact T1|]. split; [exact T2|]. split; [exact T3|]. split; [exact T4|].
  split; [unfold radau_atol; field; split; lra|].
  (* rtol = x^3 with x = rtol^(1/3) *)
  set (x := Rpower rtol (1 / 3)).
  assert (0 < x) as Hx by (unfold x, Rpower; apply exp_pos).
  assert (rtol = x * x * x) as E3.
  { unfold x. rewrite <- !Rpower_plus. replace (1/3 + 1/3 + 1/3) with 1 by lra. now rewrite Rpower_1. }
  assert (radau_rtol rtol = 1 / 10 * (x * x)) as E2.
  { unfold radau_rtol, x. rewrite <- Rpower_plus. do 2 f_equal. lra. }
  rewrite E2. clearbody x. clear - Hx E3. change (num RI) with R in *. rewrite E3. clear E3.
  assert (0 < x * x) by nra. split; split; intros G.
  - assert (x * x * (1 / 10 - x) = 0) as G' by lra. apply Rmult_integral in G' as [G'|G']; [lra|].
    replace x with (1/10) by lra. lra.
  - assert (x = 1 / 10) as ->; [|lra]. destruct (Rtotal_order x (1/10)) as [L|[L|L]]; [nra|exact L|nra].
  - assert (x < 1/10) by nra. nra.
  - assert (x < 1 / 10) by (destruct (Rlt_le_dec x (1/10)); [assumption|nra]). nra.
Qed.
End Forms.

Lemma stage_ex : forall inf, let b := r_rest inf 0 1 1 in
  overwrites (b_dudt b) /\ b_u b <> [] /\ b_dfdu b = Some (zero_jac inf) /\
  (forall d u t p i, b_dudt b d u t p i = rsum 1 (fun j => 0 * comp u j) + 0) /\
  (forall d u t p i, b_dudt b d u t p i = 0) /\
  (forall buf u t p i j, zero_jac inf buf u t p i j = 0) /\
  (forall h J, ~ blind (length (b_u b)) h J) /\
  exists s0 s r, build Radau5 b = Ok s0 /\ continues Radau5 None 1 0 s0 s0 /\
    step Radau5 None 1 s0 = Ok (s, r) /\ ts (i_sol s) <> ts (i_sol s0) /\
    (decompositions (i_stats s0) < decompositions (i_stats s))%nat.
Proof.
  intros inf b. split; [intros ? ? ? ? ? ? ? ?; reflexivity|]. split; [discriminate|]. split; [reflexivity|].
  split; [intros; unfold rsum; cbn; change (num (RA inf)) with R; unfold zero_rhs; lra|]. split; [reflexivity|]. split; [reflexivity|].
  split; [intros h J (H & _); cbn in H; lia|].
  destruct (rest_one inf 1 ltac:(lra)) as (s0 & s & Hb & H & E1 & E2 & E3 & E4 & E5 & E6 & E7 & E8 & E9 & E10).
  exists s0, s, (Some 1%nat). split; [exact Hb|]. split; [constructor|]. split; [exact H|].
  assert (ts (i_sol s) <> ts (i_sol s0)) as Hne.
  { assert (ts (i_sol s0) = [0]) as T by (apply radau_build_inv in Hb; rewrite (rb_sol _ _ Hb); reflexivity).
    intros E. apply (f_equal (@length _)) in E. rewrite E1, T in E. discriminate E. }
  split; [exact Hne|].
  destruct (recorded_final b 1 0 s0 s0 s _ ltac:(discriminate) Hb (cont_0 _ _ _ _) H Hne) as (h & J & _ & _ & _ & _ & Hm & _).
  inversion Hm as [k0 x x' r' Hc' Hs' Hd'|k0 x x' r' h' Hc' Hm' Hs' Hd']; subst; [|inversion Hm'].
  inversion Hc'; subst. exact Hd'.
Qed.
Lemma error_ex : forall inf, let b := r_rest inf 0 1 1 in
  overwrites (b_dudt b) /\ b_u b <> [] /\ 0 < o_reltol (b_opts b) /\ 0 < o_abstol (b_opts b) /\
  (forall h J, ~ blind (length (b_u b)) h J) /\
  exists s0 s r, build Radau5 b = Ok s0 /\ continues Radau5 None 1 0 s0 s0 /\
    step Radau5 None 1 s0 = Ok (s, r) /\ ts (i_sol s) <> ts (i_sol s0).
Proof.
  intros inf b. destruct (stage_ex inf) as (H1 & H2 & _ & _ & _ & _ & H3 & s0 & s & r & H4 & H5 & H6 & H7 & _).
  split; [exact H1|]. split; [exact H2|]. split; [cbn; unfold rlit; lra|]. split; [cbn; unfold rlit; lra|].
  split; [exact H3|]. exists s0, s, r. auto.
Qed.
Lemma tols_ex : forall inf, let b := r_rest inf 0 1 1 in
  0 < o_reltol (b_opts b) /\ 0 < o_abstol (b_opts b) /\ exists s0, build Radau5 b = Ok s0.
Proof. intros inf b. destruct (error_ex inf) as (_ & _ & H1 & H2 & _ & s0 & _ & _ & H & _). eauto. Qed.
