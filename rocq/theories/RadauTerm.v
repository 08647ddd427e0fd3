(** Termination of Radau5 in every arithmetic. *)
From Coq Require Import ZArith List Bool Lia.
From RecordUpdate Require Import RecordSet.
From Verif Require Import Arith Vec Core Spec Jacobian Linalg Driver VecFacts DP5Facts DP5Inv LinFacts LinFactsC
  Radau RadauFacts RadauStep RadauInv.
Import ListNotations RecordSetNotations.

(** Computations that contain no unbounded loop. *)
Definition nofuel {X} (r : res X) : Prop := r <> OutOfFuel.

Lemma nofuel_ok {X} (x : X) : nofuel (Ok x). Proof. discriminate. Qed.
Lemma nofuel_panic {X} : nofuel (@Panic X). Proof. discriminate. Qed.
Lemma nofuel_bind {X Y} (r : res X) (k : X -> res Y) :
  nofuel r -> (forall x, nofuel (k x)) -> nofuel (bind r k).
Proof. intros H Hk. destruct r; cbn; [apply Hk|discriminate|destruct (H eq_refl)]. Qed.
Lemma nofuel_guard {X} b (r : res X) : nofuel r -> nofuel (guard b r).
Proof. destruct b; [auto|discriminate]. Qed.
Lemma nofuel_usub a b : nofuel (usub a b).
Proof. unfold usub. destruct (Nat.leb b a); discriminate. Qed.
Lemma nofuel_vget {X} (v : list X) i : nofuel (vget v i).
Proof. unfold vget. destruct (nth_error v i); discriminate. Qed.
Lemma nofuel_vset {X} (v : list X) i x : nofuel (vset v i x).
Proof. unfold vset. destruct (Nat.ltb i (length v)); discriminate. Qed.
Lemma nofuel_zidx z : nofuel (zidx z).
Proof. unfold zidx. destruct (Z.leb 0 z); discriminate. Qed.
Lemma nofuel_for {S} lo hi (body : nat -> S -> res S) s :
  (forall i s, nofuel (body i s)) -> nofuel (for_range lo hi body s).
Proof.
  intros H. unfold for_range. generalize (seq lo (hi - lo)) as l. intros l. revert s.
  induction l as [|i l IH]; intros s; cbn; [discriminate|]. apply nofuel_bind; auto.
Qed.
Lemma nofuel_for_ret {S R} lo hi (body : nat -> S -> res (S + R)) s :
  (forall i s, nofuel (body i s)) -> nofuel (for_range_ret lo hi body s).
Proof.
  intros H. unfold for_range_ret. generalize (seq lo (hi - lo)) as l. intros l. revert s.
  induction l as [|i l IH]; intros s; cbn; [discriminate|]. apply nofuel_bind; [auto|].
  intros [s'|r]; [apply IH|discriminate].
Qed.
Lemma nofuel_mget {A : arith} (m : mat A) i j : nofuel (mget m i j).
Proof. unfold mget. apply nofuel_bind; intros; apply nofuel_vget. Qed.
Lemma nofuel_mset {A : arith} (m : mat A) i j x : nofuel (mset m i j x).
Proof.
  unfold mset. apply nofuel_bind; [apply nofuel_vget|]. intros. apply nofuel_bind; intros; apply nofuel_vset.
Qed.

Ltac nofuel_tac := repeat first
  [ apply nofuel_ok | apply nofuel_panic | apply nofuel_usub | apply nofuel_vget | apply nofuel_vset
  | apply nofuel_zidx | apply nofuel_mget | apply nofuel_mset | apply nofuel_guard
  | apply nofuel_for; intros ? ? | apply nofuel_for_ret; intros ? ?
  | apply nofuel_bind; [|intros ?]
  | match goal with |- nofuel (if ?b then _ else _) => destruct b end
  | match goal with |- nofuel (match ?x with inl _ => _ | inr _ => _ end) => destruct x end
  | match goal with |- nofuel (let '(_, _) := ?x in _) => destruct x end ].

Section NoFuel.
Context {A : arith} {P : Type}.
Notation state := (integ A P (radau_cache A)).
Notation alg := (@Radau5 A P).

Lemma nofuel_dec n (a : mat A) ip : nofuel (dec n a ip).
Proof. unfold dec, dec_last, dec_stage, pivot_search, flip_sign, scale_col, elim_col, axpy_col. nofuel_tac. Qed.
Lemma nofuel_decc n (ar ai : mat A) ip : nofuel (decc n ar ai ip).
Proof.
  unfold decc, decc_last, decc_stage, pivot_search_c, flip_sign, scale_col_c, elim_col_c, axpy_col_c. nofuel_tac.
Qed.
Lemma nofuel_sol n (a : mat A) b ip : nofuel (sol n a b ip).
Proof. unfold sol, final_div, fwd_step, bwd_step, axpy_vec. nofuel_tac. Qed.
Lemma nofuel_solc n (ar ai : mat A) br bi ip : nofuel (solc n ar ai br bi ip).
Proof. unfold solc, fwd_step_c, bwd_step_c, axpy_vec_c, cdiv_at. nofuel_tac. Qed.
Lemma nofuel_jacobian_u (f : rhs A P) g df u t p tr : nofuel (jacobian_u f g df u t p tr).
Proof. unfold jacobian_u, fd_column. destruct g; nofuel_tac. Qed.
Lemma nofuel_refresh (s : state) : nofuel (refresh_jac s).
Proof. unfold refresh_jac. apply nofuel_bind; [apply nofuel_jacobian_u|]. intros [? ?]. nofuel_tac. Qed.
Lemma nofuel_perform (s : state) : nofuel (perform_decompositions s).
Proof.
  assert (forall x : state, nofuel (decomp_failed x)) as Hf.
  { intros x. unfold decomp_failed. cbv zeta. destruct (Nat.leb 5 _); [apply nofuel_ok|].
    apply nofuel_bind; [|intros; apply nofuel_ok]. destruct (negb _); [apply nofuel_refresh|apply nofuel_ok]. }
  unfold perform_decompositions. apply nofuel_guard. apply nofuel_bind.
  { unfold decomp_real. apply nofuel_bind; [apply nofuel_dec|]. intros [[? ?] ?]. apply nofuel_ok. }
  intros [s1 ier]. destruct (Nat.eqb ier 0); [|apply Hf]. apply nofuel_bind.
  { unfold decomp_complex. apply nofuel_bind; [apply nofuel_decc|]. intros [[[? ?] ?] ?]. apply nofuel_ok. }
  intros [s2 ier']. destruct (Nat.eqb ier' 0); [apply nofuel_ok|apply Hf].
Qed.
Lemma nofuel_error_estimate (s : state) : nofuel (error_estimate s).
Proof.
  unfold error_estimate. cbv zeta. apply nofuel_bind; [apply nofuel_sol|]. intros cn.
  destruct (ltb A _ n1); [apply nofuel_ok|]. destruct (_ || _); [|apply nofuel_ok].
  apply nofuel_bind; [apply nofuel_sol|]. intros. apply nofuel_ok.
Qed.
Lemma nofuel_accept_finish (s : state) : nofuel (accept_finish s).
Proof. unfold accept_finish. cbv zeta. destruct (ltb A _ _); [apply nofuel_refresh|apply nofuel_ok]. Qed.
Lemma nofuel_control (s : state) : nofuel (step_size_control s).
Proof.
  rewrite step_size_control_eq. destruct (ltb A _ n1).
  - rewrite radau_accept_eq. destruct (last _); [apply nofuel_ok|].
    unfold accept_next. cbv zeta. destruct (leb A n0 _); [apply nofuel_accept_finish|].
    destruct (_ && _ && _); [apply nofuel_ok|apply nofuel_accept_finish].
  - unfold radau_reject. cbv zeta. destruct (negb _); [apply nofuel_refresh|apply nofuel_ok].
Qed.

(** At most five decompositions can fail. *)
Lemma decomp_loop_fuel : forall fuel (s : state),
  1 <= fuel -> 5 <= nsing (i_cache s) + fuel -> nofuel (decomp_loop fuel s).
Proof.
  induction fuel as [|fuel IH]; intros s Hf H; [lia|]. cbn [decomp_loop].
  pose proof (nofuel_perform s) as Hn.
  destruct (perform_decompositions s) as [[s1 ok]| |] eqn:E; cbn [bind]; try discriminate; [|congruence].
  destruct ok; [discriminate|]. destruct (retcode_eqb (rc (i_sol s1)) RContinue) eqn:Er; [|discriminate].
  cbn [negb]. apply retcode_eqb_eq in Er.
  apply perform_decompositions_inv in E as (_ & _ & _ & _ & _ & _ & _ & [(E & _)|(_ & En & Hc)]); [discriminate|].
  destruct Hc as [(Hc & _)|(_ & Hc & _)]; [|congruence]. apply IH; lia.
Qed.

Lemma newton_loop_fuel : forall fuel dynold (s : state),
  1 <= fuel -> o_max_newt_iter (i_opts s) < newt (i_cache s) + fuel -> nofuel (newton_loop fuel dynold s).
Proof.
  assert (forall fac b (s : state), nofuel (newton_fail fac b s)) as Hfail.
  { intros fac b s. unfold newton_fail. cbv zeta. apply nofuel_bind; [|intros; apply nofuel_ok].
    destruct b; [apply nofuel_refresh|apply nofuel_ok]. }
  induction fuel as [|fuel IH]; intros dynold s Hf H; [lia|].
  rewrite newton_loop_S. destruct (Nat.leb_spec (o_max_newt_iter (i_opts s)) (newt (i_cache s))) as [Hm|Hm].
  { apply Hfail. }
  assert (nofuel (newton_pass s)) as Hp.
  { unfold newton_pass. apply nofuel_bind; [|intros; apply nofuel_ok]. unfold linear_solve. cbv zeta.
    apply nofuel_bind; [apply nofuel_sol|]. intros x1. apply nofuel_bind; [apply nofuel_solc|].
    intros [x2 x3]. apply nofuel_ok. }
  destruct (newton_pass s) as [s1| |] eqn:E; cbn [bind]; try congruence; try discriminate.
  apply newton_pass_inv in E as (Hs1 & Hn1 & _). cbv zeta.
  assert (forall d d' (x : state), nofuel (newton_check d d' x)) as Hck.
  { intros d d' x. unfold newton_check. cbv zeta. destruct (_ && _); [|apply nofuel_ok].
    destruct (ltb A _ _); [destruct (leb A _ _)|]; try apply nofuel_ok;
      (apply nofuel_bind; [apply Hfail|intros; apply nofuel_ok]). }
  specialize (Hck (newton_norm s1) dynold s1).
  destruct (newton_check (newton_norm s1) dynold s1) as [[s2 r]| |] eqn:Ec; cbn [bind]; try congruence; try discriminate.
  apply newton_check_inv in Ec as (Hs2 & _ & Hn2 & _).
  destruct r as [out|]; [discriminate|].
  destruct (leb A _ _); [discriminate|]. apply IH; [lia|].
  assert (newt (i_cache (newton_update s2)) = newt (i_cache s2)) as -> by reflexivity.
  assert (i_opts (newton_update s2) = i_opts s) as ->.
  { transitivity (i_opts s2); [reflexivity|].
    pose proof (newton_still_trans _ _ _ Hs1 Hs2) as [[[Hp' _ _ _ _ _ _]]]. exact (same_problem_opts _ _ Hp'). }
  lia.
Qed.

Lemma newton_fuel fuel (s : state) : o_max_newt_iter (i_opts s) < fuel -> nofuel (newton fuel s).
Proof.
  intros H. unfold newton. apply nofuel_guard. cbv zeta. apply newton_loop_fuel; [lia|].
  unfold prepare_newton. destruct (_ || _); cbn; lia.
Qed.

Lemma radau_attempt_fuel fuel (s : state) :
  5 <= fuel -> o_max_newt_iter (i_opts s) < fuel -> nofuel (radau_attempt fuel s).
Proof.
  intros Hf Hn. unfold radau_attempt.
  assert (nofuel (if decompose (i_cache s) then decomp_loop fuel s else Ok (inl s))) as Hd.
  { destruct (decompose (i_cache s)); [apply decomp_loop_fuel; lia|apply nofuel_ok]. }
  destruct (if decompose (i_cache s) then decomp_loop fuel s else Ok (inl s)) as [r1| |] eqn:E; cbn [bind];
    try congruence; try discriminate.
  destruct r1 as [s1|s1]; [|discriminate]. cbv zeta. fold (count_step s1).
  assert (i_opts (count_step s1) = i_opts s) as Ho.
  { transitivity (i_opts s1); [reflexivity|]. destruct (decompose (i_cache s)).
    - apply decomp_loop_inv in E as (E & _). exact (same_problem_opts _ _ (q_prob _ _ E)).
    - inversion E. reflexivity. }
  revert Ho. generalize (count_step s1) as s2. intros s2 Ho.
  destruct (Nat.leb _ _); [discriminate|]. destruct (leb A _ _); [discriminate|].
  apply nofuel_bind; [apply newton_fuel; congruence|]. intros [s3 ok]. destruct ok; cbn [negb]; [|discriminate].
  apply nofuel_bind; [apply nofuel_error_estimate|]. intros s4.
  apply nofuel_bind; [apply nofuel_control|]. intros s5. destruct (negb _); discriminate.
Qed.

Lemma radau_loop_fuel fi : forall fuel (s : state),
  5 <= fi -> o_max_newt_iter (i_opts s) < fi -> 1 <= fuel ->
  o_max_steps (i_opts s) <= steps (i_stats s) + fuel -> nofuel (radau_loop fi fuel s).
Proof.
  induction fuel as [|fuel IH]; intros s H5 Hn H1 Hm; [lia|]. cbn [radau_loop].
  pose proof (radau_attempt_fuel fi s H5 Hn) as Ha.
  destruct (radau_attempt fi s) as [r| |] eqn:E; cbn [bind]; try congruence; try discriminate.
  destruct r as [s1|s1]; [|discriminate]. apply radau_attempt_inv in E.
  assert (i_opts s1 = i_opts s /\ S (steps (i_stats s)) <= steps (i_stats s1) /\
          S (steps (i_stats s)) < o_max_steps (i_opts s)) as (Ho & Hs & Hlt).
  { destruct E as [([Tq _ Ts Tm _] & _)|((s2 & [Tq _ Ts Tm _] & _ & _ & _ & _ & Ha2) & _)].
    - split; [exact (same_problem_opts _ _ (q_prob _ _ Tq))|]. lia.
    - split; [rewrite (same_problem_opts _ _ (ac_prob _ _ Ha2)); exact (same_problem_opts _ _ (q_prob _ _ Tq))|].
      rewrite (ac_steps _ _ Ha2). lia. }
  apply IH; rewrite ?Ho; lia.
Qed.

(** Enough fuel for the loops inside one [step()] call. *)
Definition step_budget (o : opts A) : nat := o_max_steps o + o_max_newt_iter o + 5.

Lemma radau_step_fuel (cb : callback A P (radau_cache A)) fuel (s : state) :
  step_budget (i_opts s) <= fuel -> step alg cb fuel s <> OutOfFuel.
Proof.
  intros H. unfold step_budget in H.
  assert (nofuel (radau_step fuel s)) as Hs.
  { unfold radau_step. destruct (radau_clip_frame s) as (Cq & _ & _ & Cst & _).
    pose proof (same_problem_opts _ _ (q_prob _ _ Cq)) as Ho.
    apply radau_loop_fuel; rewrite ?Ho; lia. }
  unfold step. cbn [alg_step Radau5]. destruct (radau_step fuel s); cbn [bind]; try discriminate. congruence.
Qed.

(** A step that leaves the code at [Continue] has used up at least one unit of
    [max_steps]. *)
Lemma radau_loop_some fi : forall fuel (s s' : state), radau_loop fi fuel s = Ok s' ->
  rc (i_sol s') = RContinue ->
  steps (i_stats s) < steps (i_stats s') < o_max_steps (i_opts s) /\ i_opts s' = i_opts s /\
  reject (i_cache s') = false.
Proof.
  induction fuel as [|fuel IH]; intros s s' H Hc; [discriminate|]. cbn [radau_loop] in H.
  apply bind_ok in H as (r & H1 & H). apply radau_attempt_inv in H1. destruct r as [s1|s1].
  - destruct (IH _ _ H Hc) as (Hs & Ho & Hr).
    destruct H1 as [([Tq _ Ts Tm _] & _)|((s2 & [Tq _ Ts Tm _] & _ & _ & _ & _ & Ha2) & _)].
    + pose proof (same_problem_opts _ _ (q_prob _ _ Tq)) as Ho1. rewrite Ho1 in *.
      split; [lia|]. auto.
    + pose proof (same_problem_opts _ _ (q_prob _ _ Tq)) as Ho1.
      pose proof (same_problem_opts _ _ (ac_prob _ _ Ha2)) as Ho2. rewrite Ho2, Ho1 in *.
      rewrite (ac_steps _ _ Ha2) in Hs. split; [lia|]. auto.
  - inversion H; subst s1; clear H.
    destruct H1 as [(_ & _ & _ & G)|((s2 & [Tq _ Ts Tm _] & _ & _ & _ & _ & Ha2) & Hr)].
    + exfalso. destruct G as [(E & _)|[(E & _)|[(E & _)|(E & E' & _)]]]; congruence.
    + pose proof (same_problem_opts _ _ (q_prob _ _ Tq)) as Ho1.
      pose proof (same_problem_opts _ _ (ac_prob _ _ Ha2)) as Ho2.
      rewrite (ac_steps _ _ Ha2). split; [lia|]. split; [congruence|exact Hr].
Qed.

Lemma radau_step_some (cb : callback A P (radau_cache A)) fuel (s s' : state) n :
  benign_callback cb -> step alg cb fuel s = Ok (s', Some n) ->
  rc (i_sol s') = RContinue /\ steps (i_stats s) < steps (i_stats s') < o_max_steps (i_opts s) /\
  i_opts s' = i_opts s /\ reject (i_cache s') = false.
Proof.
  intros Hcb H. pose proof (step_some_rc _ _ _ _ _ _ H) as Hc.
  apply step_radau_inv in H as (s1 & H & ->). rewrite (bc_sol _ Hcb) in *.
  rewrite (bc_stats _ Hcb), (bc_opts _ Hcb), (bc_cache _ Hcb). split; [exact Hc|].
  unfold radau_step in H. apply radau_loop_some in H; [|exact Hc].
  destruct (radau_clip_frame s) as (Cq & _ & _ & Cst & _).
  rewrite (same_problem_opts _ _ (q_prob _ _ Cq)), Cst in H. exact H.
Qed.

Lemma radau_continues_budget (cb : callback A P (radau_cache A)) fuel k (s s' : state) :
  benign_callback cb -> continues alg cb fuel k s s' ->
  i_opts s' = i_opts s /\ (k = 0 \/ steps (i_stats s) + k <= steps (i_stats s') < o_max_steps (i_opts s)).
Proof.
  intros Hcb. revert s. induction k as [|k IH]; intros s H; inversion H as [|? ? s1 n ? Hs Hc]; subst.
  - auto.
  - apply radau_step_some in Hs as (_ & Hlt & Ho & _); [|assumption].
    apply IH in Hc as (Ho' & Hc). split; [congruence|]. right. rewrite Ho in *.
    destruct Hc as [->|Hc]; [|lia].
    inversion H as [|? ? s2 n2 ? Hs2 Hc2]; subst. inversion Hc2; subst.
    apply radau_step_some in Hs2 as (_ & Hlt2 & _); [lia|assumption].
Qed.

Lemma radau_integrate_fuel (cb : callback A P (radau_cache A)) fuel fuel2 : benign_callback cb ->
  forall (s : state), step_budget (i_opts s) <= fuel -> 1 <= fuel2 ->
  o_max_steps (i_opts s) <= steps (i_stats s) + fuel2 ->
  integrate alg cb fuel fuel2 s <> OutOfFuel.
Proof.
  intros Hcb. induction fuel2 as [|fuel2 IH]; intros s Hf H1 Hm; [lia|]. cbn [integrate].
  pose proof (radau_step_fuel cb fuel s Hf) as Hs.
  destruct (step alg cb fuel s) as [[s1 r]| |] eqn:E; cbn [bind]; try congruence.
  destruct r as [n|]; [|discriminate].
  apply radau_step_some in E as (_ & Hlt & Ho & _); [|assumption].
  apply IH; rewrite ?Ho; [assumption|lia|lia].
Qed.
End NoFuel.
