(** Radau5: fuel independence and the count of failed decompositions. *)
From Coq Require Import ZArith List Bool Lia.
From RecordUpdate Require Import RecordSet.
From Verif Require Import Arith Vec Core Spec Jacobian Linalg Driver VecFacts DP5Facts DP5Inv LinFacts LinFactsC
  Radau RadauFacts RadauStep RadauInv RadauTerm RadauSafe RadauHist RadauSim.
Import ListNotations RecordSetNotations.

(** ** Counting failed decompositions, independently of the code's own counter *)
Section Failures.
Context {A : arith} {P : Type}.
Notation state := (integ A P (radau_cache A)).

(** Failed rounds of decompositions in one run of the decomposition loop. *)
Fixpoint decomp_failures (fuel : nat) (s : state) : nat :=
  match fuel with
  | O => 0
  | S f => match perform_decompositions s with
           | Ok (s', false) => S (if retcode_eqb (rc (i_sol s')) RContinue then decomp_failures f s' else 0)
           | _ => 0
           end
  end.
(** ... in one [step()] call ... *)
Fixpoint loop_failures (fi fuel : nat) (s : state) : nat :=
  match fuel with
  | O => 0
  | S f => (if decompose (i_cache s) then decomp_failures fi s else 0) +
           match radau_attempt fi s with Ok (inl s') => loop_failures fi f s' | _ => 0 end
  end.
Definition step_failures (fuel : nat) (s : state) : nat := loop_failures fuel fuel (radau_clip s).
(** ... and in [k] calls. *)
Fixpoint run_failures (fuel k : nat) (s : state) : nat :=
  match k with
  | O => 0
  | S k => step_failures fuel s +
           match step (@Radau5 A P) None fuel s with Ok (s', _) => run_failures fuel k s' | _ => 0 end
  end.
End Failures.

Section RadauMore.
Context {A : arith} {P : Type}.
Notation state := (integ A P (radau_cache A)).
Notation alg := (@Radau5 A P).

(** ** More fuel never changes a finished result *)
Lemma decomp_loop_mono : forall fuel fuel' (s : state), fuel <= fuel' -> res_le (decomp_loop fuel s) (decomp_loop fuel' s).
Proof.
  induction fuel as [|fuel IH]; intros fuel' s H; [left; reflexivity|]. destruct fuel' as [|fuel']; [lia|].
  cbn [decomp_loop]. apply res_le_bind; [apply res_le_refl|]. intros [s1 [|]]; [apply res_le_refl|].
  destruct (negb _); [apply res_le_refl|]. apply IH. lia.
Qed.
Lemma newton_loop_mono : forall fuel fuel' d (s : state), fuel <= fuel' ->
  res_le (newton_loop fuel d s) (newton_loop fuel' d s).
Proof.
  induction fuel as [|fuel IH]; intros fuel' d s H; [left; reflexivity|]. destruct fuel' as [|fuel']; [lia|].
  rewrite !newton_loop_S. destruct (Nat.leb _ _); [apply res_le_refl|].
  apply res_le_bind; [apply res_le_refl|]. intros s1. cbv zeta. apply res_le_bind; [apply res_le_refl|].
  intros [s2 [r|]]; [apply res_le_refl|]. destruct (leb A _ _); [apply res_le_refl|]. apply IH. lia.
Qed.
Lemma radau_attempt_mono fuel fuel' (s : state) : fuel <= fuel' ->
  res_le (radau_attempt fuel s) (radau_attempt fuel' s).
Proof.
  intros H. unfold radau_attempt. apply res_le_bind.
  { destruct (decompose _); [apply decomp_loop_mono; exact H|apply res_le_refl]. }
  intros [s1|s1]; [|apply res_le_refl]. cbv zeta. destruct (Nat.leb _ _); [apply res_le_refl|].
  destruct (leb A _ _); [apply res_le_refl|]. apply res_le_bind; [|intros; apply res_le_refl].
  unfold newton, guard. destruct (radau_shapes _); [|apply res_le_refl]. apply newton_loop_mono. exact H.
Qed.
Lemma radau_loop_mono fi fi' : fi <= fi' -> forall fuel fuel' (s : state), fuel <= fuel' ->
  res_le (radau_loop fi fuel s) (radau_loop fi' fuel' s).
Proof.
  intros Hi. induction fuel as [|fuel IH]; intros fuel' s H; [left; reflexivity|]. destruct fuel' as [|fuel']; [lia|].
  cbn [radau_loop]. apply res_le_bind; [apply radau_attempt_mono; exact Hi|].
  intros [s1|s1]; [apply IH; lia|apply res_le_refl].
Qed.
Lemma radau_step_mono (cb : callback A P (radau_cache A)) fuel fuel' (s : state) : fuel <= fuel' ->
  res_le (step alg cb fuel s) (step alg cb fuel' s).
Proof.
  intros H. unfold step. cbn [alg_step Radau5]. apply res_le_bind; [|intros; apply res_le_refl].
  unfold radau_step. apply radau_loop_mono; exact H.
Qed.
(** From the budget on, the outcome of a call does not depend on the fuel. *)
Lemma radau_step_total (cb : callback A P (radau_cache A)) fuel fuel' (s : state) :
  step_budget (i_opts s) <= fuel -> fuel <= fuel' ->
  step alg cb fuel s <> OutOfFuel /\ step alg cb fuel' s = step alg cb fuel s.
Proof.
  intros H1 H2. pose proof (radau_step_fuel cb fuel s H1) as Hf. split; [exact Hf|].
  destruct (radau_step_mono cb fuel fuel' s H2) as [E|E]; [contradiction|congruence].
Qed.

(** ** The failure counter *)
Lemma decomp_count : forall fuel (s : state) r, decomp_loop fuel s = Ok r ->
  nsing (i_cache (either r)) = nsing (i_cache s) + decomp_failures fuel s.
Proof.
  induction fuel as [|fuel IH]; intros s r H; [discriminate|]. cbn [decomp_loop decomp_failures] in *.
  apply bind_ok in H as ([s1 ok] & H1 & H). rewrite H1.
  apply perform_decompositions_inv in H1 as (_ & _ & _ & _ & _ & _ & _ & Hcase). destruct ok.
  - destruct Hcase as [(_ & E & _)|(E & _)]; [|discriminate]. inversion H; subst. cbn. lia.
  - destruct Hcase as [(E & _)|(_ & E & _)]; [discriminate|].
    destruct (retcode_eqb (rc (i_sol s1)) RContinue); cbn [negb] in H.
    + apply IH in H. lia.
    + inversion H; subst. cbn [either]. lia.
Qed.

Lemma attempt_count fi (s : state) r : radau_attempt fi s = Ok r ->
  nsing (i_cache (either r)) = nsing (i_cache s) + (if decompose (i_cache s) then decomp_failures fi s else 0).
Proof.
  intros H. apply radau_attempt_cases in H as (r1 & H1 & H).
  assert (nsing (i_cache (either r1)) = nsing (i_cache s) + (if decompose (i_cache s) then decomp_failures fi s else 0)) as <-.
  { destruct (decompose (i_cache s)); [now apply decomp_count|]. inversion H1; subst. cbn. lia. }
  destruct r1 as [s1|s1]; [|subst r; reflexivity]. cbn [either].
  cbv zeta in H. change (nsing (i_cache s1)) with (nsing (i_cache (count_step s1))). revert H.
  generalize (count_step s1) as s2. intros s2 H.
  destruct H as [(Hm & ->)|[(Hm & Ht & ->)|[(Hm & Ht & s3 & H & ->)|(Hm & Ht & s3 & s4 & s5 & G1 & G2 & G3 & ->)]]]; try reflexivity.
  - apply newton_inv in H as (_ & _ & _ & Hf). destruct (Hf eq_refl) as (F & _). apply (nf_nsing _ _ F).
  - apply newton_inv in G1 as (_ & _ & Hs & _). specialize (Hs eq_refl).
    apply error_estimate_inv in G2. transitivity (nsing (i_cache s5)); [destruct (reject _); reflexivity|].
    transitivity (nsing (i_cache s4)); [|rewrite (ef_nsing _ _ G2); apply (nf_nsing _ _ (ns_frame _ _ Hs))].
    rewrite step_size_control_eq in G3. destruct (ltb A _ _).
    + apply radau_accept_inv in G3. apply (ac_nsing _ _ G3).
    + apply radau_reject_inv in G3 as (_ & _ & _ & E & _). exact E.
Qed.

Lemma loop_count fi : forall fuel (s s' : state), radau_loop fi fuel s = Ok s' ->
  nsing (i_cache s') = nsing (i_cache s) + loop_failures fi fuel s.
Proof.
  induction fuel as [|fuel IH]; intros s s' H; [discriminate|]. cbn [radau_loop loop_failures] in *.
  apply bind_ok in H as (r & H1 & H). rewrite H1. apply attempt_count in H1. destruct r as [s1|s1]; cbn [either] in H1.
  - apply IH in H. lia.
  - inversion H; subst. lia.
Qed.

Lemma step_count fuel (s s' : state) : radau_step fuel s = Ok s' ->
  nsing (i_cache s') = nsing (i_cache s) + step_failures fuel s.
Proof.
  intros H. apply loop_count in H. destruct (radau_clip_frame s) as (_ & _ & _ & _ & _ & E & _).
  rewrite E in H. exact H.
Qed.

Lemma run_count fuel : forall k (s s' : state), steps_n alg None fuel k s = Ok s' ->
  nsing (i_cache s') = nsing (i_cache s) + run_failures fuel k s.
Proof.
  induction k as [|k IH]; intros s s' H; cbn [steps_n run_failures] in *.
  - inversion H; subst. lia.
  - apply bind_ok in H as ([s1 r] & H1 & H). rewrite H1.
    pose proof (IH s1 s' H) as E. apply step_radau_inv in H1 as (s2 & H1 & E2). cbn [run_callback] in E2. subst s2.
    apply step_count in H1. lia.
Qed.

(** Below the limit no code is changed; at the limit the code is set. *)
Definition nlimit (s : state) : Prop :=
  (nsing (i_cache s) < 5 /\ rc (i_sol s) <> RSingularMatrix) \/
  (nsing (i_cache s) = 5 /\ rc (i_sol s) = RSingularMatrix).
Definition nbelow (s : state) : Prop := nsing (i_cache s) < 5 /\ rc (i_sol s) <> RSingularMatrix.

Lemma decomp_limit : forall fuel (s : state) r, nbelow s -> decomp_loop fuel s = Ok r ->
  match r with inl s' => nbelow s' | inr s' => nlimit s' end.
Proof.
  induction fuel as [|fuel IH]; intros s r [Hn Hc] H; [discriminate|]. cbn [decomp_loop] in H.
  apply bind_ok in H as ([s1 ok] & H1 & H).
  apply perform_decompositions_inv in H1 as (_ & _ & _ & _ & _ & _ & _ & Hcase). destruct ok.
  - destruct Hcase as [(_ & E & E2 & _)|(E & _)]; [|discriminate]. inversion H; subst. split; [lia|congruence].
  - destruct Hcase as [(E & _)|(_ & E & Hcase)]; [discriminate|].
    destruct (retcode_eqb (rc (i_sol s1)) RContinue) eqn:Er; cbn [negb] in H.
    + apply retcode_eqb_eq in Er. apply IH in H; [exact H|]. destruct Hcase as [(H5 & H2 & _)|(_ & H2 & _)]; [|congruence].
      split; [lia|congruence].
    + inversion H; subst. destruct Hcase as [(H5 & H2 & _)|(H5 & H2 & _)]; [left|right]; (split; [lia|congruence]).
Qed.

Lemma attempt_limit fi (s : state) r : nbelow s -> radau_attempt fi s = Ok r ->
  match r with inl s' => nbelow s' | inr s' => nlimit s' end.
Proof.
  intros Hn H. apply radau_attempt_cases in H as (r1 & H1 & H).
  assert (match r1 with inl s' => nbelow s' | inr s' => nlimit s' end) as HD.
  { destruct (decompose (i_cache s)); [now apply (decomp_limit fi s)|]. inversion H1; subst. exact Hn. }
  destruct r1 as [s1|s1]; [|subst r; exact HD].
  cbv zeta in H. change (nbelow (count_step s1)) in HD. revert H HD.
  generalize (count_step s1) as s2. clear. intros s2 H [Hn Hc].
  destruct H as [(Hm & ->)|[(Hm & Ht & ->)|[(Hm & Ht & s3 & H & ->)|(Hm & Ht & s3 & s4 & s5 & G1 & G2 & G3 & ->)]]].
  - left. split; [exact Hn|discriminate].
  - left. split; [exact Hn|discriminate].
  - apply newton_inv in H as (_ & _ & _ & Hf). destruct (Hf eq_refl) as (F & _).
    split; [rewrite (nf_nsing _ _ F); exact Hn|rewrite (nf_rc _ _ F); exact Hc].
  - apply newton_inv in G1 as (_ & _ & Hs & _). specialize (Hs eq_refl).
    apply error_estimate_inv in G2.
    assert (nbelow s4) as [Hn4 Hc4].
    { split; [rewrite (ef_nsing _ _ G2), (nf_nsing _ _ (ns_frame _ _ Hs)); exact Hn|
        rewrite (ef_rc _ _ G2), (nf_rc _ _ (ns_frame _ _ Hs)); exact Hc]. }
    assert (nbelow s5) as H5.
    { rewrite step_size_control_eq in G3. destruct (ltb A _ _).
      - apply radau_accept_inv in G3. pose proof (ac_rc _ _ G3) as Er. split; [rewrite (ac_nsing _ _ G3); exact Hn4|].
        rewrite Er. destruct (last _); [discriminate|exact Hc4].
      - apply radau_reject_inv in G3 as (_ & _ & _ & E & E' & _). split; [rewrite E; exact Hn4|rewrite E'; exact Hc4]. }
    destruct (reject _); [exact H5|left; exact H5].
Qed.

Lemma loop_limit fi : forall fuel (s s' : state), nbelow s -> radau_loop fi fuel s = Ok s' -> nlimit s'.
Proof.
  induction fuel as [|fuel IH]; intros s s' Hn H; [discriminate|]. cbn [radau_loop] in H.
  apply bind_ok in H as (r & H1 & H). apply attempt_limit in H1; [|exact Hn]. destruct r as [s1|s1].
  - eapply IH; eassumption.
  - inversion H; subst. exact H1.
Qed.
Lemma step_limit fuel (s s' : state) r : nbelow s -> step alg None fuel s = Ok (s', r) -> nlimit s'.
Proof.
  intros [Hn Hc] H. apply step_radau_inv in H as (s2 & H1 & E2). cbn [run_callback] in E2. subst s2.
  apply loop_limit in H1; [exact H1|].
  destruct (radau_clip_frame s) as (_ & _ & Es & _ & _ & E & _). split; [rewrite E; exact Hn|rewrite Es; exact Hc].
Qed.

(** SingularMatrix is reported exactly when five decompositions have failed
    since [build()]. *)
Lemma radau_singular (b : builder A P) fuel k (s0 s : state) :
  build alg b = Ok s0 -> reached alg None fuel k s0 s ->
  run_failures fuel k s0 <= 5 /\ (rc (i_sol s) = RSingularMatrix <-> run_failures fuel k s0 = 5).
Proof.
  intros Hb H. pose proof (radau_build_inv _ _ Hb) as Hbi.
  assert (nsing (i_cache s0) = 0) as E0 by apply (rb_flags _ _ Hbi).
  assert (nbelow s0) as H0 by (split; [lia|rewrite (rb_sol _ _ Hbi); discriminate]).
  assert (nlimit s) as HL.
  { inversion H as [|k' ? s1 ? r Hc Hs]; subst; [left; exact H0|].
    apply (step_limit fuel s1 s r); [|exact Hs].
    clear Hs. revert H0. clear -Hc. induction Hc as [x|j x x1 n x2 Hs Hc IH]; intros H0; [exact H0|].
    apply IH. assert (rc (i_sol (x1 : state)) = RContinue) as Er by exact (step_some_rc _ _ _ _ _ _ Hs).
    apply step_limit in Hs; [|exact H0].
    destruct Hs as [Hs|[_ Hs]]; [exact Hs|]. exfalso. cbn [Cache Radau5] in *. congruence. }
  apply reached_steps_n in H. apply run_count in H. rewrite E0 in H. cbn in H. rewrite <- H.
  destruct HL as [[H1 H2]|[H1 H2]]; (split; [lia|]); split; intros; try congruence; lia.
Qed.

(** ** A step of length zero *)
Lemma decomp_zero : forall fuel (s : state) r, mul A (i_dt s) (lit A 1 2) = i_dt s -> decomp_loop fuel s = Ok r ->
  i_dt (either r) = i_dt s /\ quiet s (either r) /\ steps (i_stats (either r)) = steps (i_stats s) /\
  match r with
  | inl _ => True
  | inr s' => 0 < decomp_failures fuel s /\
      (rc (i_sol s') = RSingularMatrix \/ (rc (i_sol s') = rc (i_sol s) /\ rc (i_sol s) <> RContinue))
  end.
Proof.
  induction fuel as [|fuel IH]; intros s r Hz H; [discriminate|]. cbn [decomp_loop decomp_failures] in *.
  apply bind_ok in H as ([s1 ok] & H1 & H). rewrite H1.
  apply perform_decompositions_inv in H1 as (Hq & _ & Hst & _ & _ & _ & _ & Hcase). destruct ok.
  - destruct Hcase as [(_ & _ & _ & E & _)|(E & _)]; [|discriminate]. inversion H; subst. cbn [either]. auto.
  - destruct Hcase as [(E & _)|(_ & _ & Hcase)]; [discriminate|].
    assert (i_dt s1 = i_dt s) as Ez by (destruct Hcase as [(_ & _ & E & _)|(_ & _ & E & _)]; congruence).
    destruct (retcode_eqb (rc (i_sol s1)) RContinue) eqn:Er; cbn [negb] in H.
    + apply retcode_eqb_eq in Er. destruct Hcase as [(_ & Hrc & _)|(_ & Hrc & _)]; [|congruence].
      apply IH in H as (G1 & G2 & G3 & G4); [|congruence].
      split; [congruence|]. split; [eapply quiet_trans; eassumption|]. split; [congruence|].
      destruct r as [s2|s2]; [exact I|]. destruct G4 as (G4 & G5). split; [lia|].
      destruct G5 as [G5|(G5 & G6)]; [auto|]. right. split; congruence.
    + inversion H; subst. cbn [either]. split; [exact Ez|]. split; [exact Hq|]. split; [exact Hst|]. split; [lia|].
      destruct Hcase as [(_ & Hrc & _)|(_ & Hrc & _)]; [right|left; exact Hrc].
      split; [exact Hrc|]. intros Ec. rewrite Hrc, Ec in Er. discriminate.
Qed.

Lemma radau_zero_step fuel (s s' : state) r :
  let z := i_dt (radau_clip s) in
  mul A z (lit A 1 2) = z ->
  leb A (mul A (lit A 1 10) (nabs A z)) (mul A (nabs A (i_t s)) (eps A)) = true ->
  step alg None fuel s = Ok (s', r) ->
  (i_t s' = i_t s /\ i_u s' = i_u s /\ ts (i_sol s') = ts (i_sol s) /\ us (i_sol s') = us (i_sol s)) /\
  (rc (i_sol s') = RDtLessThanMin \/
   (rc (i_sol s') = RMaxIters /\ o_max_steps (i_opts s) <= S (steps (i_stats s))) \/
   (0 < step_failures fuel s /\
    (rc (i_sol s') = RSingularMatrix \/ (rc (i_sol s') = rc (i_sol s) /\ rc (i_sol s) <> RContinue)))).
Proof.
  intros z Hz Ht H. apply step_radau_inv in H as (s2 & H & E). cbn [run_callback] in E. subst s2.
  destruct (radau_clip_frame s) as (Cq & _ & Cs & Cst & _). unfold z in Hz, Ht. clear z.
  unfold radau_step, step_failures in *. revert H Hz Ht Cq Cs Cst. generalize (radau_clip s) as sc. intros.
  destruct fuel as [|fuel]; [discriminate|]. cbn [radau_loop loop_failures] in *.
  apply bind_ok in H as (r1 & H1 & H). rewrite H1.
  apply radau_attempt_cases in H1 as (r2 & H1 & H2).
  assert (i_dt (either r2) = i_dt sc /\ quiet sc (either r2) /\ steps (i_stats (either r2)) = steps (i_stats sc) /\
    match r2 with
    | inl _ => True
    | inr s' => 0 < (if decompose (i_cache sc) then decomp_failures (S fuel) sc else 0) /\
        (rc (i_sol s') = RSingularMatrix \/ (rc (i_sol s') = rc (i_sol sc) /\ rc (i_sol sc) <> RContinue))
    end) as (D1 & D2 & D3 & D4).
  { destruct (decompose (i_cache sc)); [now apply decomp_zero|]. inversion H1; subst. cbn [either]. auto using quiet_refl. }
  assert (quiet s (either r2)) as [_ (Qu & Qt & _ & _ & Qts & Qus) _ _ _ _ _] by (eapply quiet_trans; eassumption).
  pose proof (same_problem_opts _ _ (q_prob _ _ D2)) as O1. pose proof (same_problem_opts _ _ (q_prob _ _ Cq)) as O2.
  destruct r2 as [s1|s1]; cbn [either] in *.
  - cbv zeta in H2.
    assert (tiny_dt (count_step s1) = true) as Hti.
    { unfold tiny_dt. change (i_dt (count_step s1)) with (i_dt s1). change (i_t (count_step s1)) with (i_t s1).
      rewrite D1, Qt. exact Ht. }
    destruct H2 as [(Hm & ->)|[(Hm & _ & ->)|[(_ & E & _)|(_ & E & _)]]]; [| |congruence|congruence].
    + inversion H; subst s'. split; [cbn; auto|]. right. left. split; [reflexivity|].
      change (steps (i_stats (count_step s1))) with (S (steps (i_stats s1))) in Hm.
      change (i_opts (count_step s1)) with (i_opts s1) in Hm. rewrite O1, O2, D3, Cst in Hm. exact Hm.
    + inversion H; subst s'. split; [cbn; auto|]. left. reflexivity.
  - subst r1. inversion H; subst s1. split; [auto|]. right. right. destruct D4 as (D4 & D5). split; [lia|].
    rewrite Cs in D5. exact D5.
Qed.
End RadauMore.
