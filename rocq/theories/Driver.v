(** Facts about the algorithm-independent driver (Core.v). *)
From Coq Require Import ZArith List Bool Lia.
From RecordUpdate Require Import RecordSet.
From Verif Require Import Arith Vec Core Spec.
Import ListNotations RecordSetNotations.

(** ** The outcome monad *)
Lemma bind_ok {X Y} (r : res X) (k : X -> res Y) y :
  bind r k = Ok y -> exists x, r = Ok x /\ k x = Ok y.
Proof. destruct r; simpl; intros H; try discriminate; eauto. Qed.

(** Information order on outcomes: running out of fuel may become anything. *)
Definition res_le {X} (a b : res X) : Prop := a = OutOfFuel \/ a = b.

Lemma res_le_refl {X} (a : res X) : res_le a a.
Proof. right; reflexivity. Qed.
Lemma res_le_ok {X} (a b : res X) x : res_le a b -> a = Ok x -> b = Ok x.
Proof. intros [H|H] E; congruence. Qed.
Lemma res_le_bind {X Y} (a b : res X) (f g : X -> res Y) :
  res_le a b -> (forall x, res_le (f x) (g x)) -> res_le (bind a f) (bind b g).
Proof.
  intros [H|H] Hf; subst; simpl; [left; reflexivity|].
  destruct b; simpl; auto using res_le_refl.
Qed.

Lemma retcode_eqb_eq a b : retcode_eqb a b = true <-> a = b.
Proof. destruct a, b; simpl; split; congruence. Qed.
Lemma retcode_eqb_neq a b : retcode_eqb a b = false <-> a <> b.
Proof. destruct a, b; simpl; split; congruence. Qed.

(** ** Solution iterators *)
Section SolIter.
Context {A : arith}.

Lemma sol_iter_collect_combine : forall (lt : list (num A)) (lu : list (vec A)) fuel,
  length lt < fuel -> sol_iter_collect fuel (mkSolIter lt lu) = combine lt lu.
Proof.
  induction lt as [|t lt IH]; intros lu fuel Hf.
  - destruct fuel as [|fuel]; [simpl in Hf; lia|]. simpl. destruct lu; reflexivity.
  - destruct fuel as [|fuel]; [simpl in Hf; lia|].
    destruct lu as [|u lu]; [reflexivity|].
    simpl in *. f_equal. apply IH. lia.
Qed.

(** [k] calls of [next], collecting what they return. *)
Fixpoint sol_iter_calls (k : nat) (it : @sol_iter A) : list (option (num A * vec A)) :=
  match k with
  | O => []
  | S k' => let (it', r) := sol_iter_next it in r :: sol_iter_calls k' it'
  end.

Lemma sol_iter_calls_nth : forall k (lt : list (num A)) (lu : list (vec A)) i,
  i < k ->
  nth i (sol_iter_calls k (mkSolIter lt lu)) None = nth_error (combine lt lu) i.
Proof.
  induction k as [|k IH]; intros lt lu i Hi; [lia|].
  destruct lt as [|t lt]; destruct lu as [|u lu]; destruct i as [|i]; simpl; try reflexivity;
    rewrite IH by lia; destruct i; simpl; try reflexivity; try (destruct lt; reflexivity).
Qed.
End SolIter.

(** ** The driver loop *)
Section Driver.
Context {A : arith} {P : Type} (al : algorithm A P) (cb : callback A P (Cache al)).
Notation state := (integ A P (Cache al)).
Notation continues := (continues al cb).

Lemma step_spec fuel s s' r :
  step al cb fuel s = Ok (s', r) ->
  r = (if retcode_eqb (rc (i_sol s')) RContinue then Some (steps (i_stats s')) else None).
Proof. unfold step; intros H. apply bind_ok in H as (s1 & _ & H). inversion H; reflexivity. Qed.

Lemma step_some_rc fuel s s' n : step al cb fuel s = Ok (s', Some n) -> rc (i_sol s') = RContinue.
Proof.
  intros H. apply step_spec in H. destruct (retcode_eqb (rc (i_sol s')) RContinue) eqn:E; [|discriminate].
  now apply retcode_eqb_eq.
Qed.
Lemma step_none_rc fuel s s' : step al cb fuel s = Ok (s', None) -> rc (i_sol s') <> RContinue.
Proof.
  intros H. apply step_spec in H. destruct (retcode_eqb (rc (i_sol s')) RContinue) eqn:E; [discriminate|].
  now apply retcode_eqb_neq.
Qed.

Lemma integrate_finished fstep : forall fuel s s',
  integrate al cb fstep fuel s = Ok s' -> rc (i_sol s') <> RContinue.
Proof.
  induction fuel as [|fuel IH]; intros s s' H; [discriminate|].
  cbn [integrate] in H. apply bind_ok in H as ([s1 r] & Hs & H).
  pose proof (step_spec _ _ _ _ Hs) as Hr.
  destruct (retcode_eqb (rc (i_sol s1)) RContinue) eqn:E; subst r.
  - eapply IH; eassumption.
  - inversion H; subst. now apply retcode_eqb_neq.
Qed.

(** More calls allowed never changes a finished result. *)
Lemma integrate_mono fstep : forall fuel fuel' s,
  fuel <= fuel' -> res_le (integrate al cb fstep fuel s) (integrate al cb fstep fuel' s).
Proof.
  induction fuel as [|fuel IH]; intros fuel' s Hle; [left; reflexivity|].
  destruct fuel' as [|fuel']; [lia|]. cbn [integrate].
  apply res_le_bind; [apply res_le_refl|]. intros [s1 [n|]]; [apply IH; lia|apply res_le_refl].
Qed.

Lemma integrate_split fstep : forall fuel s s',
  integrate al cb fstep fuel s = Ok s' <->
  exists k s1, k < fuel /\ continues fstep k s s1 /\ step al cb fstep s1 = Ok (s', None).
Proof.
  induction fuel as [|fuel IH]; intros s s'; split.
  - discriminate.
  - intros (k & s1 & Hk & _); lia.
  - cbn [integrate]. intros H. apply bind_ok in H as ([s1 r] & Hs & H). destruct r as [n|].
    + apply IH in H as (k & s2 & Hk & Hc & Hl). exists (S k), s2.
      split; [lia|]. split; [econstructor; eassumption|assumption].
    + inversion H; subst. exists 0, s. split; [lia|]. split; [constructor|assumption].
  - intros (k & s1 & Hk & Hc & Hl). cbn [integrate]. inversion Hc; subst.
    + rewrite Hl; reflexivity.
    + rewrite H; cbn [bind]. apply IH. exists k0, s1. split; [lia|auto].
Qed.

Lemma continues_steps_n fstep k s s' :
  continues fstep k s s' -> steps_n al cb fstep k s = Ok s'.
Proof. induction 1 as [|k s s1 n s2 Hs Hc IH]; cbn [steps_n]; [reflexivity|]. rewrite Hs; exact IH. Qed.

Lemma continues_integrate fstep k s s1 fuel :
  continues fstep k s s1 ->
  integrate al cb fstep (k + fuel) s = integrate al cb fstep fuel s1.
Proof.
  induction 1 as [|k s s1 n s2 Hs Hc IH]; [reflexivity|].
  cbn [Nat.add integrate]. rewrite Hs. exact IH.
Qed.

Lemma steps_n_app fstep : forall j k s,
  steps_n al cb fstep (j + k) s = bind (steps_n al cb fstep j s) (steps_n al cb fstep k).
Proof.
  induction j as [|j IH]; intros k s; [reflexivity|].
  cbn [Nat.add steps_n]. destruct (step al cb fstep s) as [[s1 r]| |]; cbn [bind]; auto.
Qed.

Lemma steps_n_invariant fstep (I : state -> Prop) :
  (forall s s' r, I s -> step al cb fstep s = Ok (s', r) -> I s') ->
  forall k s s', I s -> steps_n al cb fstep k s = Ok s' -> I s'.
Proof.
  intros Hstep. induction k as [|k IH]; intros s s' Hi H; cbn [steps_n] in H.
  - inversion H; subst; assumption.
  - apply bind_ok in H as ([s1 r] & Hs & H). eauto.
Qed.

Lemma integrate_steps_n fstep fuel s s' :
  integrate al cb fstep fuel s = Ok s' ->
  exists k, k < fuel /\ steps_n al cb fstep (S k) s = Ok s'.
Proof.
  intros H. apply integrate_split in H as (k & s1 & Hk & Hc & Hs).
  exists k. split; [assumption|].
  replace (S k) with (k + 1) by lia. rewrite steps_n_app, (continues_steps_n _ _ _ _ Hc).
  cbn [bind steps_n]. rewrite Hs. reflexivity.
Qed.

(** What iteration sees. *)
Lemma iter_collect_split fstep : forall fuel s s' l,
  iter_collect al cb fstep fuel s = Ok (s', l) ->
  integrate al cb fstep fuel s = Ok s'.
Proof.
  induction fuel as [|fuel IH]; intros s s' l H; [discriminate|].
  cbn [iter_collect integrate] in *. unfold iter_next in H.
  apply bind_ok in H as ([s1 r] & Hs & H).
  apply bind_ok in Hs as ([s2 r2] & Hs & E). inversion E; subst; clear E. rewrite Hs.
  cbn [bind]. destruct r2 as [n|].
  - apply bind_ok in H as ([s3 l3] & Hc & E). inversion E; subst. eapply IH; eassumption.
  - inversion H; reflexivity.
Qed.

Lemma integrate_iter fstep : forall fuel s s',
  integrate al cb fstep fuel s = Ok s' ->
  exists l, iter_collect al cb fstep fuel s = Ok (s', l).
Proof.
  induction fuel as [|fuel IH]; intros s s' H; [discriminate|].
  cbn [iter_collect integrate] in *. unfold iter_next.
  apply bind_ok in H as ([s1 r] & Hs & H). rewrite Hs. cbn [bind]. destruct r as [n|].
  - apply IH in H as (l & H). rewrite H. cbn [bind]. eauto.
  - inversion H; subst. eauto.
Qed.

(** If every [Some]-returning call records exactly the current point at the
    end of the solution, the items seen are the points recorded by those
    calls. *)
Lemma iter_collect_points fstep (I : state -> Prop) :
  (forall s s' r, I s -> step al cb fstep s = Ok (s', r) -> I s') ->
  (forall s s' n, I s -> step al cb fstep s = Ok (s', Some n) ->
     ts (i_sol s') = ts (i_sol s) ++ [i_t s'] /\ us (i_sol s') = us (i_sol s) ++ [i_u s']) ->
  forall fuel s s' l, I s ->
  iter_collect al cb fstep fuel s = Ok (s', l) ->
  exists s1, step al cb fstep s1 = Ok (s', None) /\ I s1 /\
    ts (i_sol s1) = ts (i_sol s) ++ map fst l /\ us (i_sol s1) = us (i_sol s) ++ map snd l.
Proof.
  intros Hpres Hrec. induction fuel as [|fuel IH]; intros s s' l Hi H; [discriminate|].
  cbn [iter_collect] in H. unfold iter_next in H.
  apply bind_ok in H as ([s1 r] & Hs & H).
  apply bind_ok in Hs as ([s2 r2] & Hs & E). inversion E; subst; clear E.
  destruct r2 as [n|].
  - apply bind_ok in H as ([s3 l3] & Hc & E). inversion E; subst; clear E.
    destruct (Hrec _ _ _ Hi Hs) as [Et Eu].
    apply IH in Hc as (s4 & H4 & Hi4 & Et4 & Eu4); [|eauto].
    exists s4. rewrite Et4, Eu4, Et, Eu. cbn [map fst snd].
    rewrite <- !app_assoc. auto.
  - inversion H; subst. exists s. cbn [map]. rewrite !app_nil_r. auto.
Qed.

(** Invariants of runs. *)
Lemma continues_invariant fstep (I : state -> Prop) :
  (forall s s' r, I s -> rc (i_sol s) = RContinue -> step al cb fstep s = Ok (s', r) -> I s') ->
  forall k s s', continues fstep k s s' -> rc (i_sol s) = RContinue -> I s ->
  I s' /\ rc (i_sol s') = RContinue.
Proof.
  intros Hst k s s' H. induction H as [s|k s s1 n s2 Hs Hc IH]; intros Hrc Hi; [auto|].
  apply IH.
  - eapply step_some_rc; eassumption.
  - eapply Hst; eassumption.
Qed.

Lemma reached_invariant fstep (I : state -> Prop) :
  (forall s s' r, I s -> rc (i_sol s) = RContinue -> step al cb fstep s = Ok (s', r) -> I s') ->
  forall k s s', reached al cb fstep k s s' -> rc (i_sol s) = RContinue -> I s -> I s'.
Proof.
  intros Hst k s s' H Hrc Hi. destruct H as [s|k s s1 s2 r Hc Hs]; [assumption|].
  destruct (continues_invariant fstep I Hst _ _ _ Hc Hrc Hi) as [H1 H2]. eapply Hst; eassumption.
Qed.

Lemma integrate_reached fstep fuel s s' :
  integrate al cb fstep fuel s = Ok s' -> exists k, reached al cb fstep k s s'.
Proof.
  intros H. apply integrate_split in H as (k & s1 & _ & Hc & Hs).
  exists (S k). econstructor; eassumption.
Qed.

Lemma reached_steps_n fstep k s s' :
  reached al cb fstep k s s' -> steps_n al cb fstep k s = Ok s'.
Proof.
  intros H. destruct H as [s|k s s1 s2 r Hc Hs]; [reflexivity|].
  replace (S k) with (k + 1) by lia. rewrite steps_n_app, (continues_steps_n _ _ _ _ Hc).
  cbn [bind steps_n]. rewrite Hs. reflexivity.
Qed.
End Driver.
