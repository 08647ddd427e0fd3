(** Where the Jacobian held by a Radau5 integrator comes from; in every
    arithmetic. *)
From Coq Require Import ZArith List Bool Lia.
From RecordUpdate Require Import RecordSet.
From Verif Require Import Arith Vec Core Spec Jacobian Linalg Driver VecFacts DP5Facts DP5Inv LinFacts LinFactsC
  Radau RadauFacts RadauStep RadauInv RadauSafe RadauHist.
Import ListNotations RecordSetNotations.

Section RadauJac.
Context {A : arith} {P : Type}.
Notation state := (integ A P (radau_cache A)).
Notation alg := (@Radau5 A P).

(** [m] is what the Jacobian routine computes at [(t, u)]. *)
Definition jac_of (s : state) (t : num A) (u : vec A) (m : mat A) : Prop :=
  exists df tr tr', jacobian_u (i_dudt s) (i_dfdu s) df u t (i_params s) tr = Ok (m, tr').

(** Same problem, same point, and the Jacobian is unchanged or was computed here. *)
Record jk (s s' : state) : Prop := mkJK {
  jk_prob : i_dudt s' = i_dudt s /\ i_dfdu s' = i_dfdu s /\ i_params s' = i_params s;
  jk_point : i_t s' = i_t s /\ i_u s' = i_u s /\ accepts (i_stats s') = accepts (i_stats s);
  jk_jac : dfdu (i_cache s') = dfdu (i_cache s) \/ jac_of s (i_t s) (i_u s) (dfdu (i_cache s')) }.

Lemma jac_of_same (s s' : state) t u m : i_dudt s' = i_dudt s /\ i_dfdu s' = i_dfdu s /\ i_params s' = i_params s ->
  jac_of s' t u m -> jac_of s t u m.
Proof. intros (E1 & E2 & E3). unfold jac_of. now rewrite E1, E2, E3. Qed.

Lemma jk_refl s : jk s s.
Proof. constructor; auto. Qed.
Lemma jk_trans a b c : jk a b -> jk b c -> jk a c.
Proof.
  intros [P1 (T1 & U1 & A1) J1] [P2 (T2 & U2 & A2) J2]. constructor.
  - destruct P1 as (?&?&?), P2 as (?&?&?). repeat split; congruence.
  - repeat split; congruence.
  - destruct J2 as [->|J2]; [exact J1|right]. apply (jac_of_same a b) in J2; [|exact P1]. now rewrite T1, U1 in J2.
Qed.
Lemma jk_same (s s' : state) : i_dudt s' = i_dudt s -> i_dfdu s' = i_dfdu s -> i_params s' = i_params s ->
  i_t s' = i_t s -> i_u s' = i_u s -> accepts (i_stats s') = accepts (i_stats s) ->
  dfdu (i_cache s') = dfdu (i_cache s) -> jk s s'.
Proof. intros. constructor; auto. Qed.
Ltac jk_same := apply jk_same; reflexivity.

Lemma refresh_jk (s s' : state) : refresh_jac s = Ok s' -> jk s s'.
Proof.
  unfold refresh_jac. intros H. apply bind_ok in H as ([df tr] & H & E). inversion E; subst; clear E.
  constructor; [repeat split|repeat split|]. right. exists (dfdu (i_cache s)), (i_trace s), tr. exact H.
Qed.

Lemma decomp_failed_jk (s s' : state) ok : decomp_failed s = Ok (s', ok) -> jk s s'.
Proof.
  unfold decomp_failed. intros H.
  match type of H with (if ?c then _ else _) = _ => destruct c end.
  - inversion H; subst. jk_same.
  - apply bind_ok in H as (s1 & H & E). inversion E; subst s1 ok; clear E.
    match type of H with (if ?c then refresh_jac ?x else _) = _ =>
      assert (jk s x) as Hs by jk_same; destruct c end.
    + eapply jk_trans; [exact Hs|]. now apply refresh_jk.
    + inversion H; subst. exact Hs.
Qed.

Lemma perform_jk (s s' : state) ok : perform_decompositions s = Ok (s', ok) -> jk s s'.
Proof.
  unfold perform_decompositions, guard. destruct (radau_shapes s); [|discriminate].
  intros H. apply bind_ok in H as ([s1 ier] & H1 & H).
  apply decomp_real_inv in H1 as (a & ip & E1).
  assert (jk s s1) as Hs1 by (rewrite E1; jk_same).
  destruct (Nat.eqb ier 0).
  - apply bind_ok in H as ([s2 ier2] & H2 & H).
    apply decomp_complex_inv in H2 as (ar & ai & ip' & E2).
    assert (jk s s2) as Hs2 by (eapply jk_trans; [exact Hs1|rewrite E2; jk_same]).
    destruct (Nat.eqb ier2 0).
    + assert (s' = s2 <| i_stats; decompositions ::= S |>) as ->
        by (symmetry; exact (f_equal (fun r => match r with Ok p => fst p | _ => s' end) H)).
      eapply jk_trans; [exact Hs2|jk_same].
    + eapply jk_trans; [exact Hs2|]. eapply decomp_failed_jk; eassumption.
  - eapply jk_trans; [exact Hs1|]. eapply decomp_failed_jk; eassumption.
Qed.

Lemma decomp_loop_jk : forall fuel (s : state) r, decomp_loop fuel s = Ok r ->
  jk s (match r with inl x => x | inr x => x end).
Proof.
  induction fuel as [|fuel IH]; intros s r H; [discriminate|]. cbn [decomp_loop] in H.
  apply bind_ok in H as ([s1 ok] & H1 & H). apply perform_jk in H1.
  destruct ok; [inversion H; subst; assumption|].
  destruct (negb _); [inversion H; subst; assumption|].
  eapply jk_trans; [exact H1|]. now apply IH.
Qed.

Lemma still_jk (s s' : state) : newton_still s s' -> jk s s'.
Proof.
  intros H. pose proof (nf_quiet _ _ (ns_frame _ _ H)) as Q. destruct (q_prob _ _ Q) as (E1 & E2 & E3 & E4 & _).
  destruct (q_point _ _ Q) as (E5 & E6 & _). constructor; auto using q_accepts. left. apply (ns_dfdu _ _ H).
Qed.
Lemma newton_fail_jk fac b (s s' : state) ok : newton_fail fac b s = Ok (s', ok) -> jk s s'.
Proof.
  unfold newton_fail. intros H. apply bind_ok in H as (s1 & H & E). inversion E; subst s1 ok; clear E.
  match type of H with (if ?c then refresh_jac ?x else _) = _ =>
    assert (jk s x) as Hs by jk_same; destruct c end.
  - eapply jk_trans; [exact Hs|]. now apply refresh_jk.
  - inversion H; subst. exact Hs.
Qed.
Lemma newton_loop_jk : forall fuel d (s s' : state) ok, newton_loop fuel d s = Ok (s', ok) -> jk s s'.
Proof.
  induction fuel as [|fuel IH]; intros d s s' ok H; [discriminate|].
  rewrite newton_loop_S in H. destruct (Nat.leb _ _); [now apply newton_fail_jk in H|].
  apply bind_ok in H as (s1 & Hp & H). cbv zeta in H.
  apply newton_pass_inv in Hp as (Hs1 & _).
  apply bind_ok in H as ([s2 r] & Hc & H).
  apply newton_check_inv in Hc as (Hs2 & Ht2 & _ & _ & _ & _ & _ & _ & _ & _ & Hc & _).
  pose proof (still_jk _ _ (newton_still_trans _ _ _ Hs1 Hs2)) as Hs02.
  destruct r as [out|].
  - inversion H; subst out; clear H. destruct (Hc _ eq_refl) as (fac & b & Hfac & Hf).
    eapply jk_trans; [exact Hs02|]. now apply newton_fail_jk in Hf.
  - pose proof (jk_trans _ _ _ Hs02 (still_jk _ _ (newton_update_still s2))) as Hs3.
    revert H Hs3. cbv zeta. generalize (newton_update s2) as s3. intros s3 H Hs3. destruct (leb A _ _).
    + inversion H; subst. exact Hs3.
    + eapply jk_trans; [exact Hs3|]. eapply IH; exact H.
Qed.
Lemma newton_jk fuel (s s' : state) ok : newton fuel s = Ok (s', ok) -> jk s s'.
Proof.
  unfold newton, guard. destruct (radau_shapes s); [|discriminate]. intros H.
  match type of H with newton_loop _ _ ?x = _ => assert (newton_still s x) as Hs end.
  { eapply newton_still_trans; [apply prepare_newton_still|]. apply newton_start_still. }
  eapply jk_trans; [apply still_jk; exact Hs|]. eapply newton_loop_jk; exact H.
Qed.
Lemma estimate_jk (s s' : state) : error_estimate s = Ok s' -> jk s s'.
Proof.
  intros H. apply error_estimate_inv in H. destruct (q_prob _ _ (ef_quiet _ _ H)) as (E1 & E2 & E3 & E4 & _).
  destruct (q_point _ _ (ef_quiet _ _ H)) as (E5 & E6 & _). pose proof (q_accepts _ _ (ef_quiet _ _ H)).
  constructor; auto. left.
  rewrite (ef_cache _ _ H). reflexivity.
Qed.
Lemma reject_jk dtnew (s s' : state) : radau_reject dtnew s = Ok s' -> jk s s'.
Proof.
  unfold radau_reject. cbv zeta. intros H.
  match type of H with (if ?c then refresh_jac ?x else _) = _ => assert (jk s x) as E end.
  { destruct (first _), (Nat.leb _ _); jk_same. }
  match type of H with (if ?c then refresh_jac ?x else _) = _ => destruct c end.
  - eapply jk_trans; [exact E|]. now apply refresh_jk.
  - inversion H; subst. assumption.
Qed.

(** Acceptance moves the point; the Jacobian is unchanged or computed at the new point. *)
Record ja (s s' : state) : Prop := mkJA {
  ja_prob : i_dudt s' = i_dudt s /\ i_dfdu s' = i_dfdu s /\ i_params s' = i_params s;
  ja_jac : dfdu (i_cache s') = dfdu (i_cache s) \/ jac_of s (i_t s') (i_u s') (dfdu (i_cache s')) }.

Lemma accept_finish_jk (s s' : state) : accept_finish s = Ok s' -> jk s s'.
Proof.
  unfold accept_finish. cbv zeta. intros H.
  match type of H with (if ?c then _ else Ok ?x) = _ => assert (jk s x) as E by jk_same; destruct c end.
  - eapply jk_trans; [exact E|]. now apply refresh_jk.
  - inversion H; subst. exact E.
Qed.
Lemma accept_next_jk dtnew (s s' : state) : accept_next dtnew s = Ok s' -> jk s s'.
Proof.
  unfold accept_next. cbv zeta. intros H.
  match type of H with (if ?c then accept_finish ?x else _) = _ => assert (jk s x) as E by jk_same; destruct c end;
    [eapply jk_trans; [exact E|]; now apply accept_finish_jk|].
  match type of H with (if ?c then Ok ?x else accept_finish ?y) = _ =>
    assert (jk s x) as E1 by jk_same; assert (jk s y) as E2 by jk_same; destruct c end.
  - assert (s' = _) as -> by (symmetry; exact (f_equal (fun r => match r with Ok p => p | _ => s' end) H)). exact E1.
  - eapply jk_trans; [exact E2|]. now apply accept_finish_jk.
Qed.
Definition same_jac (s s' : state) : Prop :=
  i_dudt s' = i_dudt s /\ i_dfdu s' = i_dfdu s /\ i_params s' = i_params s /\ dfdu (i_cache s') = dfdu (i_cache s).
Lemma same_jac_trans a b c : same_jac a b -> same_jac b c -> same_jac a c.
Proof. intros (?&?&?&?) (?&?&?&?). repeat split; congruence. Qed.
Lemma mem_same_jac (s : state) : same_jac s (gustafsson_mem s).
Proof. unfold gustafsson_mem. destruct (o_modern_pred (i_opts s)); repeat split. Qed.
Lemma dense_same_jac (s : state) : same_jac s (accept_dense s).
Proof. unfold accept_dense. destruct (o_dense (i_opts s)); repeat split. Qed.
Lemma count_same_jac (s : state) : same_jac s (accept_count s).
Proof. repeat split. Qed.
Lemma advance_same_jac (s : state) : same_jac s (accept_advance s).
Proof. repeat split. Qed.
Lemma record_same_jac (s : state) : same_jac s (accept_record s).
Proof. repeat split. Qed.
Lemma eval_same_jac (s : state) : same_jac s (accept_eval s).
Proof. repeat split. Qed.
Lemma done_same_jac (s : state) : same_jac s (accept_done s).
Proof. repeat split. Qed.
Lemma accept_ja dtnew quot (s s' : state) : radau_accept dtnew quot s = Ok s' -> ja s s'.
Proof.
  unfold radau_accept. cbv zeta. intros H.
  assert (same_jac s (accept_record (accept_dense (accept_advance (gustafsson_mem (accept_count s)))))) as Hj.
  { eapply same_jac_trans; [apply count_same_jac|]. eapply same_jac_trans; [apply mem_same_jac|].
    eapply same_jac_trans; [apply advance_same_jac|]. eapply same_jac_trans; [apply dense_same_jac|].
    apply record_same_jac. }
  revert H Hj. generalize (accept_record (accept_dense (accept_advance (gustafsson_mem (accept_count s))))) as y.
  generalize (gustafsson_dt dtnew quot (accept_count s)) as d. intros d y H Hj.
  destruct (last (i_cache y)).
  - assert (s' = accept_done y) as -> by (symmetry; exact (f_equal (fun r => match r with Ok p => p | _ => s' end) H)).
    destruct (same_jac_trans _ _ _ Hj (done_same_jac y)) as (E1 & E2 & E3 & E4). constructor; auto.
  - apply accept_next_jk in H. pose proof (same_jac_trans _ _ _ Hj (eval_same_jac y)) as Hy.
    revert H Hy. generalize (accept_eval y) as z. intros z [Hp (Ht & Hu & _) Hjac] (E1 & E2 & E3 & E4). constructor.
    + destruct Hp as (F1 & F2 & F3). repeat split; congruence.
    + destruct Hjac as [F|F]; [left; congruence|right]. rewrite Ht, Hu. eapply jac_of_same; [|exact F]. auto.
Qed.

(** A step: the Jacobian afterwards is the one before, or was computed at the
    point before or after the step. *)
Record jstep (s s' : state) : Prop := mkJS {
  js_prob : i_dudt s' = i_dudt s /\ i_dfdu s' = i_dfdu s /\ i_params s' = i_params s;
  js_jac : dfdu (i_cache s') = dfdu (i_cache s) \/ jac_of s (i_t s) (i_u s) (dfdu (i_cache s')) \/
           jac_of s (i_t s') (i_u s') (dfdu (i_cache s')) }.

Lemma jk_jstep (a b : state) : jk a b -> jstep a b.
Proof. intros [H1 _ H2]. constructor; [exact H1|tauto]. Qed.
Lemma jk_ja (a b c : state) : jk a b -> ja b c -> jstep a c.
Proof.
  intros [H1 (Ht & Hu & _) H2] [H3 H4]. constructor.
  - destruct H1 as (?&?&?), H3 as (?&?&?). repeat split; congruence.
  - destruct H4 as [E|H4]; [rewrite E; tauto|]. right. right. now apply (jac_of_same a b).
Qed.

Lemma attempt_jstep fuel (s : state) r : radau_attempt fuel s = Ok r ->
  (exists x, r = inl x /\ (jk s x \/ accepts (i_stats x) = S (accepts (i_stats s)))) \/ (exists x, r = inr x /\ jstep s x).
Proof.
  intros H. apply radau_attempt_cases in H as (r1 & H1 & H).
  assert (jk s (match r1 with inl x => x | inr x => x end)) as E.
  { destruct (decompose (i_cache s)).
    - now apply decomp_loop_jk in H1.
    - inversion H1. apply jk_refl. }
  destruct r1 as [s1|s1]; [|subst r; right; eexists; split; [reflexivity|now apply jk_jstep]]. cbv zeta in H.
  assert (jk s (count_step s1)) as E2 by (eapply jk_trans; [exact E|jk_same]).
  revert H E2. generalize (count_step s1) as s2. intros s2 H E2.
  destruct H as [(_ & ->)|[(_ & _ & ->)|[(_ & _ & s3 & H & ->)|(_ & _ & s3 & s4 & s5 & H2 & H3 & H4 & ->)]]].
  - right. eexists; split; [reflexivity|]. apply jk_jstep. eapply jk_trans; [exact E2|jk_same].
  - right. eexists; split; [reflexivity|]. apply jk_jstep. eapply jk_trans; [exact E2|jk_same].
  - left. eexists; split; [reflexivity|]. left. eapply jk_trans; [exact E2|]. eapply newton_jk; exact H.
  - apply newton_jk in H2. apply estimate_jk in H3.
    pose proof (jk_trans _ _ _ E2 (jk_trans _ _ _ H2 H3)) as E4. clear E2 H2 H3 E H1.
    rewrite step_size_control_eq in H4.
    assert (jk s (force_decompose s4)) as E5 by (eapply jk_trans; [exact E4|jk_same]).
    destruct (ltb A _ _).
    + pose proof (radau_accept_inv _ _ H4) as Ha. apply accept_ja in H4.
      pose proof (jk_ja _ _ _ E5 H4) as Hj.
      destruct (reject (i_cache s5)).
      * left. eexists; split; [reflexivity|]. right. rewrite (ac_accepts _ _ Ha). destruct (jk_point _ _ E5) as (_ & _ & ->). reflexivity.
      * right. eexists; split; [reflexivity|]. exact Hj.
    + apply reject_jk in H4. pose proof (jk_trans _ _ _ E5 H4) as Hj. destruct (reject (i_cache s5)).
      * left. eauto.
      * right. eexists; split; [reflexivity|]. now apply jk_jstep.
Qed.

Lemma jk_jstep_trans (a b c : state) : jk a b -> jstep b c -> jstep a c.
Proof.
  intros [H1 (Ht & Hu & _) H2] [H3 H4]. constructor.
  - destruct H1 as (?&?&?), H3 as (?&?&?). repeat split; congruence.
  - destruct H4 as [E|[H4|H4]]; [rewrite E; tauto| |].
    + right. left. rewrite Ht, Hu in H4. now apply (jac_of_same a b).
    + right. right. now apply (jac_of_same a b).
Qed.
Lemma loop_jstep fi : forall fuel (s s' : state), tidy s -> radau_loop fi fuel s = Ok s' -> jstep s s'.
Proof.
  induction fuel as [|fuel IH]; intros s s' Ht H; [discriminate|]. cbn [radau_loop] in H.
  apply bind_ok in H as (r & H1 & H). pose proof (attempt_jstep _ _ _ H1) as Hj. apply radau_attempt_inv in H1.
  destruct Hj as [(x & -> & Hj)|(x & -> & Hj)].
  - destruct H1 as [(Htr & Hr & Hl)|(Htk & Hr)].
    2: { rewrite (took_tidy _ _ Ht Htk) in Hr. discriminate. }
    assert (tidy x) as Ht1 by (intros E; congruence).
    destruct Hj as [Hj|Hj].
    + eapply jk_jstep_trans; [exact Hj|]. now apply IH.
    + destruct Htr. rewrite (q_accepts _ _ tr_quiet) in Hj. lia.
  - inversion H; subst. exact Hj.
Qed.
Lemma step_jstep fuel (s s' : state) : reject (i_cache s) = false -> radau_step fuel s = Ok s' -> jstep s s'.
Proof.
  intros Hr H. unfold radau_step in H. apply loop_jstep in H.
  - eapply jk_jstep_trans; [|exact H]. unfold radau_clip. destruct (leb A _ _); jk_same.
  - intros _. destruct (radau_clip_frame s) as (_ & _ & _ & _ & _ & E & _). rewrite E. exact Hr.
Qed.

(** The Jacobian held after any number of steps was computed at a recorded point. *)
Definition jac_recorded (b : builder A P) (s : state) : Prop :=
  (i_dudt s = b_dudt b /\ i_dfdu s = b_dfdu b /\ i_params s = b_params b) /\
  exists t u, In (t, u) (combine (ts (i_sol s)) (us (i_sol s))) /\ jac_of s t u (dfdu (i_cache s)).

Lemma combine_snoc {X Y} (l : list X) (m : list Y) x y : length l = length m ->
  combine (l ++ [x]) (m ++ [y]) = combine l m ++ [(x, y)].
Proof.
  revert m. induction l as [|a l IH]; intros [|c m] H; try discriminate; [reflexivity|].
  cbn. f_equal. apply IH. now inversion H.
Qed.

Lemma radau_jac_recorded (b : builder A P) fuel k (s0 s : state) :
  build alg b = Ok s0 -> reached alg None fuel k s0 s -> jac_recorded b s.
Proof.
  intros Hb Hr. pose proof (radau_build_inv _ _ Hb) as B.
  set (I := fun x : state => jac_recorded b x /\ length (ts (i_sol x)) = length (us (i_sol x)) /\
     (rc (i_sol x) = RContinue -> reject (i_cache x) = false /\
        In (i_t x, i_u x) (combine (ts (i_sol x)) (us (i_sol x))))).
  cut (I s); [intros (H & _); exact H|].
  refine (reached_invariant alg None fuel I _ k s0 s Hr _ _).
  - intros s1 s2 r (((Ep1 & Ep2 & Ep3) & t & u & Hin & Hj) & Hlen & Hnow) Hrc H.
    destruct (Hnow Hrc) as (Hrej & Hcur). clear Hnow.
    apply step_radau_inv in H as (s3 & H & ->). cbn [run_callback].
    pose proof (step_jstep _ _ _ Hrej H) as [(Es1 & Es2 & Es3) Hjac].
    assert (i_dudt s3 = b_dudt b /\ i_dfdu s3 = b_dfdu b /\ i_params s3 = b_params b) as Ep by (repeat split; etransitivity; eassumption).
    assert (i_dudt s1 = i_dudt s3 /\ i_dfdu s1 = i_dfdu s3 /\ i_params s1 = i_params s3) as Ep' by (repeat split; symmetry; assumption).
    apply radau_step_cases in H as [H|H]; [| |exact Hrej].
    + unfold I, jac_recorded. rewrite (rse_ts _ _ H), (rse_us _ _ H), combine_snoc, !app_length by exact Hlen. rewrite Hlen.
      split; [split; [exact Ep|]|split; [reflexivity|]].
      * destruct Hjac as [->|[Hn|Hn]].
        -- exists t, u. split; [apply in_or_app; now left|]. now apply (jac_of_same s3 s1).
        -- exists (i_t s1), (i_u s1). split; [apply in_or_app; now left|]. now apply (jac_of_same s3 s1).
        -- exists (i_t s3), (i_u s3). split; [apply in_or_app; right; now left|]. now apply (jac_of_same s3 s1).
      * intros _. split; [exact (rse_reject _ _ H)|]. apply in_or_app. right. now left.
    + destruct (q_point _ _ (rsf_quiet _ _ H)) as (Eu & Et & _ & _ & Ets & Eus).
      unfold I, jac_recorded. rewrite Ets, Eus. split; [split; [exact Ep|]|split; [exact Hlen|]].
      * destruct Hjac as [->|[Hn|Hn]].
        -- exists t, u. split; [exact Hin|]. now apply (jac_of_same s3 s1).
        -- exists (i_t s1), (i_u s1). split; [exact Hcur|]. now apply (jac_of_same s3 s1).
        -- exists (i_t s1), (i_u s1). rewrite Et, Eu in Hn. split; [exact Hcur|]. now apply (jac_of_same s3 s1).
      * intros E. now apply (rsf_rc _ _ H) in E.
  - exact (f_equal rc (rb_sol _ _ B)).
  - unfold I, jac_recorded, jac_of. destruct (rb_prob _ _ B) as (E1 & _ & E2 & E3 & _).
    destruct (rb_flags _ _ B) as (_ & _ & _ & E4 & _). pose proof (rb_sol _ _ B) as E5. pose proof (rb_t _ _ B) as E6. pose proof (rb_u _ _ B) as E7.
    cbn [Cache Radau5] in *. rewrite E5, E6, E7. cbn.
    split; [split; [auto|]|split; [reflexivity|intros _; auto]].
    exists (b_t b), (b_u b). split; [now left|]. destruct (rb_jac _ _ B) as (tr & Hj & _). rewrite E1, E2, E3. eauto.
Qed.

(** With a user Jacobian, entry by entry. *)
Lemma radau_user_jacobian (b : builder A P) g fuel k (s0 s : state) :
  build alg b = Ok s0 -> b_u b <> [] -> b_dfdu b = Some g -> reached alg None fuel k s0 s ->
  exists t u df, In (t, u) (combine (ts (i_sol s)) (us (i_sol s))) /\
    forall i j, i < length (b_u b) -> j < length (b_u b) ->
      at2 (dfdu (i_cache s)) i j = g df u t (b_params b) i j.
Proof.
  intros Hb Hu Hg Hr. destruct (radau_jac_recorded b fuel k s0 s Hb Hr) as ((E1 & E2 & E3) & t & u & Hin & df & tr & tr' & Hj).
  rewrite E2, E3, Hg in Hj. cbn [jacobian_u] in Hj. assert (call_jac g df u t (b_params b) = dfdu (i_cache s)) as Hm
    by exact (f_equal (fun r => match r with Ok p => fst p | _ => dfdu (i_cache s) end) Hj).
  exists t, u, df. split; [exact Hin|].
  assert (ssafe (length (b_u b)) s) as (_ & Hc).
  { pose proof (radau_build_inv _ _ Hb) as B. apply (fun H => reached_invariant alg None fuel (ssafe (length (b_u b))) H k s0 s Hr).
    - intros s1 s2 r Hs _ H.
      assert (0 < length (b_u b)) as Hn by (destruct (b_u b); [congruence|cbn; lia]).
      pose proof (radau_safe_step (length (b_u b)) None fuel s1 no_callback_benign Hn Hs) as F.
      cbn [Cache Radau5] in *. rewrite H in F. exact F.
    - exact (f_equal rc (rb_sol _ _ B)).
    - exact (rb_safe _ _ B). }
  pose proof (cs_dfdu _ _ Hc) as Hsh. rewrite <- Hm in Hsh |- *. clear Hc Hm Hj.
  apply is_shape_spec in Hsh as (H1 & H2). intros i j Hi Hj. unfold call_jac in *.
  rewrite map_length, combine_length, seq_length, Nat.min_id in H1.
  unfold at2. set (h := fun ir : nat * list (num A) => tab (length (snd ir)) (g df u t (b_params b) (fst ir))) in *.
  assert (nth i (map h (combine (seq 0 (length df)) df)) [] = h (i, nth i df [])) as ->.
  { rewrite (nth_indep _ [] (h (0, []))) by (rewrite map_length, combine_length, seq_length; lia).
    rewrite map_nth. f_equal. rewrite combine_nth by now rewrite seq_length. now rewrite seq_nth by lia. }
  assert (length (nth i df []) = length (b_u b)) as Hl.
  { rewrite <- (H2 (h (i, nth i df []))); [unfold h; now rewrite tab_length|].
    apply in_map_iff. exists (i, nth i df []). split; [reflexivity|].
    replace (i, nth i df []) with (nth i (combine (seq 0 (length df)) df) (0, [])).
    - apply nth_In. rewrite combine_length, seq_length. lia.
    - rewrite combine_nth by now rewrite seq_length. now rewrite seq_nth by lia. }
  unfold h. cbn [fst snd]. rewrite Hl. unfold tab.
  rewrite (nth_indep _ n0 (g df u t (b_params b) i 0)) by (rewrite map_length, seq_length; exact Hj).
  rewrite map_nth, seq_nth by exact Hj. reflexivity.
Qed.

Lemma user_jacobian_call (f : rhs A P) g df u t p tr m tr' :
  jacobian_u f (Some g) df u t p tr = Ok (m, tr') ->
  tr' = EvJ t u :: tr /\
  forall i j r, nth_error df i = Some r -> j < length r -> at2 m i j = g df u t p i j.
Proof.
  cbn [jacobian_u]. intros H. inversion H; subst; clear H. split; [reflexivity|].
  intros i j r Hr Hj. unfold call_jac, at2.
  assert (i < length df) as Hi by (apply nth_error_Some; rewrite Hr; discriminate).
  set (h := fun ir : nat * list (num A) => tab (length (snd ir)) (g df u t p (fst ir))).
  assert (nth i (map h (combine (seq 0 (length df)) df)) [] = h (i, nth i df [])) as ->.
  { rewrite (nth_indep _ [] (h (0, []))) by (rewrite map_length, combine_length, seq_length; lia).
    rewrite map_nth. f_equal. rewrite combine_nth by now rewrite seq_length. now rewrite seq_nth by lia. }
  assert (nth i df [] = r) as E by (apply nth_error_nth; exact Hr).
  unfold h. cbn [fst snd]. rewrite E. unfold tab.
  rewrite (nth_indep _ n0 (g df u t p i 0)) by (rewrite map_length, seq_length; exact Hj).
  rewrite map_nth, seq_nth by exact Hj. reflexivity.
Qed.
End RadauJac.
