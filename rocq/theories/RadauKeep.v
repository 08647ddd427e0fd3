(** What a Radau5 attempt leaves alone besides what [quiet] says, and when the
    decompositions call user code; in every arithmetic. *)
From Coq Require Import ZArith List Bool Lia.
From RecordUpdate Require Import RecordSet.
From Verif Require Import Arith Vec Core Spec Jacobian Linalg Driver VecFacts DP5Facts LinFacts LinFactsC
  Radau RadauFacts RadauStep.
Import ListNotations RecordSetNotations.

Section RadauKeep.
Context {A : arith} {P : Type}.
Notation state := (integ A P (radau_cache A)).

Definition evs_at (s s' : state) : Prop :=
  exists l, i_trace s' = l ++ i_trace s /\ Forall (fun e => ev_time e = i_t s) l.
(** The safety factor [cfac] is kept and user code is called at the current time only. *)
Definition steady (s s' : state) : Prop :=
  cfac (i_cache s') = cfac (i_cache s) /\ i_t s' = i_t s /\ evs_at s s'.

Lemma steady_refl s : steady s s.
Proof. split; [reflexivity|]. split; [reflexivity|]. exists []. auto. Qed.
Lemma steady_trans a b c : steady a b -> steady b c -> steady a c.
Proof.
  intros (H1 & H2 & l1 & H3 & H4) (H5 & H6 & l2 & H7 & H8). split; [congruence|]. split; [congruence|].
  exists (l2 ++ l1). rewrite H7, H3, app_assoc. split; [reflexivity|]. apply Forall_app.
  rewrite H2 in H8. auto.
Qed.
Lemma steady_same (s s' : state) :
  cfac (i_cache s') = cfac (i_cache s) -> i_t s' = i_t s -> i_trace s' = i_trace s -> steady s s'.
Proof. intros H1 H2 H3. split; [assumption|]. split; [assumption|]. exists []. rewrite H3. auto. Qed.

Lemma refresh_steady (s s' : state) : refresh_jac s = Ok s' -> steady s s'.
Proof.
  intros H. apply refresh_jac_inv in H as (df & l & -> & Hl & _).
  split; [reflexivity|]. split; [reflexivity|]. exists l. split; [reflexivity|assumption].
Qed.

Lemma decomp_failed_steady (s s' : state) ok : decomp_failed s = Ok (s', ok) -> steady s s'.
Proof.
  unfold decomp_failed. intros H.
  match type of H with (if ?c then _ else _) = _ => destruct c end.
  - inversion H; subst. apply steady_same; reflexivity.
  - apply bind_ok in H as (s1 & H & E). inversion E; subst s1 ok; clear E.
    match type of H with (if ?c then refresh_jac ?x else _) = _ =>
      assert (steady s x) as Hs by (apply steady_same; reflexivity); destruct c end.
    + eapply steady_trans; [exact Hs|]. now apply refresh_steady.
    + inversion H; subst. exact Hs.
Qed.

Lemma perform_steady (s s' : state) ok : perform_decompositions s = Ok (s', ok) -> steady s s'.
Proof.
  unfold perform_decompositions, guard. destruct (radau_shapes s); [|discriminate].
  intros H. apply bind_ok in H as ([s1 ier] & H1 & H).
  apply decomp_real_inv in H1 as (a & ip & E1).
  assert (steady s s1) as Hs1 by (rewrite E1; apply steady_same; reflexivity).
  destruct (Nat.eqb ier 0).
  - apply bind_ok in H as ([s2 ier2] & H2 & H).
    apply decomp_complex_inv in H2 as (ar & ai & ip' & E2).
    assert (steady s s2) as Hs2 by (eapply steady_trans; [exact Hs1|rewrite E2; apply steady_same; reflexivity]).
    destruct (Nat.eqb ier2 0).
    + inversion H; subst s2 ok. exact Hs2.
    + eapply steady_trans; [exact Hs2|]. eapply decomp_failed_steady; eassumption.
  - eapply steady_trans; [exact Hs1|]. eapply decomp_failed_steady; eassumption.
Qed.

Lemma decomp_loop_steady : forall fuel (s : state) r, decomp_loop fuel s = Ok r ->
  steady s (match r with inl x => x | inr x => x end).
Proof.
  induction fuel as [|fuel IH]; intros s r H; [discriminate|]. cbn [decomp_loop] in H.
  apply bind_ok in H as ([s1 ok] & H1 & H). apply perform_steady in H1.
  destruct ok; [inversion H; subst; assumption|].
  destruct (negb _); [inversion H; subst; assumption|].
  eapply steady_trans; [exact H1|]. now apply IH.
Qed.

Lemma reject_cfac dtnew (s s' : state) : radau_reject dtnew s = Ok s' ->
  cfac (i_cache s') = cfac (i_cache s).
Proof.
  unfold radau_reject. cbv zeta. intros H.
  match type of H with (if ?c then refresh_jac ?x else _) = _ =>
    assert (cfac (i_cache x) = cfac (i_cache s)) as E end.
  { destruct (first _), (Nat.leb _ _); reflexivity. }
  match type of H with (if ?c then refresh_jac ?x else _) = _ => destruct c end.
  - apply refresh_steady in H as (H & _). congruence.
  - inversion H; subst. assumption.
Qed.

Lemma accept_finish_cfac (s s' : state) : accept_finish s = Ok s' -> cfac (i_cache s') = cfac (i_cache s).
Proof.
  unfold accept_finish. cbv zeta. intros H.
  match type of H with (if ?c then _ else _) = _ => destruct c end.
  - apply refresh_steady in H as (H & _). exact H.
  - inversion H; subst. reflexivity.
Qed.
Lemma accept_next_cfac dtnew (s s' : state) : accept_next dtnew s = Ok s' ->
  cfac (i_cache s') = cfac (i_cache s).
Proof.
  unfold accept_next. cbv zeta. intros H.
  match type of H with (if ?c then _ else _) = _ => destruct c end;
    [apply accept_finish_cfac in H; exact H|].
  match type of H with (if ?c then _ else _) = _ => destruct c end;
    [|apply accept_finish_cfac in H; exact H].
  apply (f_equal (fun r => match r with Ok p => cfac (i_cache p) | _ => cfac (i_cache s') end)) in H.
  symmetry. exact H.
Qed.
Lemma cfac_count (s : state) : cfac (i_cache (accept_count s)) = cfac (i_cache s).
Proof. reflexivity. Qed.
Lemma cfac_mem (s : state) : cfac (i_cache (gustafsson_mem s)) = cfac (i_cache s).
Proof. unfold gustafsson_mem. destruct (o_modern_pred (i_opts s)); reflexivity. Qed.
Lemma cfac_advance (s : state) : cfac (i_cache (accept_advance s)) = cfac (i_cache s).
Proof. reflexivity. Qed.
Lemma cfac_dense (s : state) : cfac (i_cache (accept_dense s)) = cfac (i_cache s).
Proof. unfold accept_dense. destruct (o_dense (i_opts s)); reflexivity. Qed.
Lemma cfac_record (s : state) : cfac (i_cache (accept_record s)) = cfac (i_cache s).
Proof. reflexivity. Qed.
Lemma cfac_done (s : state) : cfac (i_cache (accept_done s)) = cfac (i_cache s).
Proof. reflexivity. Qed.
Lemma cfac_eval (s : state) : cfac (i_cache (accept_eval s)) = cfac (i_cache s).
Proof. reflexivity. Qed.
Lemma accept_cfac dtnew quot (s s' : state) : radau_accept dtnew quot s = Ok s' ->
  cfac (i_cache s') = cfac (i_cache s).
Proof.
  unfold radau_accept. cbv zeta. intros H.
  rewrite <- (cfac_count s), <- (cfac_mem (accept_count s)), <- (cfac_advance (gustafsson_mem _)),
    <- (cfac_dense (accept_advance _)), <- (cfac_record (accept_dense _)).
  revert H. generalize (accept_record (accept_dense (accept_advance (gustafsson_mem (accept_count s))))) as y.
  generalize (gustafsson_dt dtnew quot (accept_count s)) as d. clear. intros d y H.
  destruct (last (i_cache y)).
  - apply (f_equal (fun r => match r with Ok p => cfac (i_cache p) | _ => cfac (i_cache s') end)) in H.
    rewrite <- (cfac_done y). symmetry. exact H.
  - apply accept_next_cfac in H. rewrite H. apply cfac_eval.
Qed.

Lemma control_cfac (s s' : state) : step_size_control s = Ok s' -> cfac (i_cache s') = cfac (i_cache s).
Proof.
  rewrite step_size_control_eq. destruct (ltb A _ _); intros H.
  - apply accept_cfac in H. exact H.
  - apply reject_cfac in H. exact H.
Qed.
Lemma newton_cfac fuel (s s' : state) ok : newton fuel s = Ok (s', ok) ->
  cfac (i_cache s') = cfac (i_cache s).
Proof.
  intros H. apply newton_inv in H as (_ & _ & H1 & H2). destruct ok.
  - apply (nf_cfac _ _ (ns_frame _ _ (H1 eq_refl))).
  - destruct (H2 eq_refl) as (H & _). apply (nf_cfac _ _ H).
Qed.
Lemma estimate_cfac (s s' : state) : error_estimate s = Ok s' -> cfac (i_cache s') = cfac (i_cache s).
Proof. intros H. apply error_estimate_inv in H. rewrite (ef_cache _ _ H). reflexivity. Qed.

Lemma attempt_cfac fuel (s : state) r : radau_attempt fuel s = Ok r ->
  cfac (i_cache (match r with inl x => x | inr x => x end)) = cfac (i_cache s).
Proof.
  intros H. apply radau_attempt_cases in H as (r1 & H1 & H).
  assert (cfac (i_cache (match r1 with inl x => x | inr x => x end)) = cfac (i_cache s)) as E.
  { destruct (decompose (i_cache s)).
    - apply decomp_loop_steady in H1 as (H1 & _). exact H1.
    - inversion H1. reflexivity. }
  destruct r1 as [s1|s1]; [|subst r; exact E]. cbv zeta in H.
  assert (cfac (i_cache (count_step s1)) = cfac (i_cache s)) as E2 by exact E.
  revert H E2. generalize (count_step s1) as s2. intros s2 H E2.
  destruct H as [(_ & ->)|[(_ & _ & ->)|[(_ & _ & s3 & H & ->)|(_ & _ & s3 & s4 & s5 & H2 & H3 & H4 & ->)]]];
    try exact E2.
  - apply newton_cfac in H. congruence.
  - apply newton_cfac in H2. apply estimate_cfac in H3. apply control_cfac in H4.
    destruct (reject (i_cache s5)); congruence.
Qed.
Lemma loop_cfac fi : forall fuel (s s' : state), radau_loop fi fuel s = Ok s' ->
  cfac (i_cache s') = cfac (i_cache s).
Proof.
  induction fuel as [|fuel IH]; intros s s' H; [discriminate|]. cbn [radau_loop] in H.
  apply bind_ok in H as (r & H1 & H). apply attempt_cfac in H1.
  destruct r as [s1|s1]; [apply IH in H|inversion H; subst]; congruence.
Qed.
Lemma step_cfac fuel (s s' : state) : radau_step fuel s = Ok s' -> cfac (i_cache s') = cfac (i_cache s).
Proof.
  unfold radau_step. intros H. apply loop_cfac in H. rewrite H. unfold radau_clip.
  destruct (leb A _ _); reflexivity.
Qed.
End RadauKeep.
