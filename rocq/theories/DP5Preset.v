(** DormandPrince5: the contents of the output buffers do not matter to
    right-hand sides that assign every component. *)
From Coq Require Import ZArith List Bool Lia.
From RecordUpdate Require Import RecordSet.
From Verif Require Import Arith Vec Core Spec SpecBuf DP5.
Import ListNotations RecordSetNotations.

Section Preset.
Context {A : arith} {P : Type}.
Notation state := (integ A P (dp5_cache A)).
Notation alg := (@DormandPrince5 A P).
Variables (f : rhs A P) (preset : vec A -> vec A).
Hypothesis Hf : overwrites f.
Hypothesis Hp : forall d, length (preset d) = length d.
Let g : rhs A P := fun d => f (preset d).
Definition with_g (s : state) : state := s <| i_dudt := g |>.

Lemma call_g d u t p : call_rhs g d u t p = call_rhs f d u t p.
Proof.
  unfold call_rhs, tab. apply map_ext_in. intros i Hi. apply in_seq in Hi. unfold g.
  apply Hf; [apply Hp|rewrite Hp; lia].
Qed.
Definition map_res {X Y} (h : X -> Y) (r : res X) : res Y := match r with Ok x => Ok (h x) | Panic => Panic | OutOfFuel => OutOfFuel end.

Lemma stages_g (s : state) : i_dudt s = f -> compute_stages (with_g s) = map_res with_g (compute_stages s).
Proof.
  intros E. unfold compute_stages. change (dp5_shapes (with_g s)) with (dp5_shapes s). destruct (dp5_shapes s); cbn [guard]; [|reflexivity].
  change (i_dudt (with_g s)) with g. change (i_cache (with_g s)) with (i_cache s). change (i_t (with_g s)) with (i_t s).
  change (i_dt (with_g s)) with (i_dt s). change (i_u (with_g s)) with (i_u s). change (i_params (with_g s)) with (i_params s).
  rewrite E. cbv zeta. rewrite !call_g. reflexivity.
Qed.
Lemma stages_f (s s' : state) : compute_stages s = Ok s' -> i_dudt s' = i_dudt s.
Proof. unfold compute_stages. destruct (dp5_shapes s); cbn [guard]; [|discriminate]. cbv zeta. intros H. injection H as <-. reflexivity. Qed.
Lemma stiff_g (s : state) : stiffness (with_g s) = with_g (stiffness s).
Proof.
  unfold stiffness. change (i_cache (with_g s)) with (i_cache s). change (i_u (with_g s)) with (i_u s). change (i_dt (with_g s)) with (i_dt s).
  cbv zeta. reflexivity.
Qed.
Lemma dense_g (s : state) : prepare_dense (with_g s) = with_g (prepare_dense s). Proof. reflexivity. Qed.
Lemma if_g (b : bool) (x y : state) : (if b then with_g x else with_g y) = with_g (if b then x else y). Proof. now destruct b. Qed.
Lemma accept_g e (s : state) : dp5_accept e (with_g s) = map_res (fun x => (with_g (fst x), snd x)) (dp5_accept e s).
Proof.
  unfold dp5_accept. cbv zeta.
  change (i_dt (with_g s) / dp5_fac e (with_g s))%num with (i_dt s / dp5_fac e s)%num. set (dn := (i_dt s / dp5_fac e s)%num). clearbody dn.
  change (with_g s <| i_cache; facold := nmax A e (lit A 1 10000) |> <| i_stats; accepts ::= S |>)
    with (with_g (s <| i_cache; facold := nmax A e (lit A 1 10000) |> <| i_stats; accepts ::= S |>)).
  set (x := s <| i_cache; facold := nmax A e (lit A 1 10000) |> <| i_stats; accepts ::= S |>). clearbody x. clear s.
  rewrite stiff_g, if_g. change (i_opts (with_g x)) with (i_opts x). change (i_stats (with_g x)) with (i_stats x).
  change (i_cache (with_g x)) with (i_cache x).
  destruct (negb (Nat.eqb (o_max_stiff (i_opts x)) 0)); cbn [guard map_res]; [|reflexivity].
  match goal with |- context [with_g (if ?b then stiffness x else x)] => set (y := if b then stiffness x else x) end. clearbody y. rewrite dense_g, if_g. change (i_opts (with_g y)) with (i_opts y).
  set (z := if o_dense (i_opts y) then prepare_dense y else y). clearbody z. reflexivity.
Qed.
Lemma prepare_g e (s : state) : prepare_next_step e (with_g s) = map_res with_g (prepare_next_step e s).
Proof.
  unfold prepare_next_step. destruct (leb A e n1).
  - rewrite accept_g. destruct (dp5_accept e s) as [[s' d]| |]; reflexivity.
  - unfold dp5_reject. cbn. destruct (accepts (i_stats s)); reflexivity.
Qed.
Lemma prepare_f e (s s' : state) : prepare_next_step e s = Ok s' -> i_dudt s' = i_dudt s.
Proof.
  unfold prepare_next_step. destruct (leb A e n1).
  - unfold dp5_accept. cbv zeta. destruct (negb _); cbn [guard bind]; [|discriminate]. intros H. injection H as <-.
    destruct (Nat.eqb _ 0 || _); destruct (o_dense _); reflexivity.
  - unfold dp5_reject. cbn. intros H. injection H as <-. destruct (accepts (i_stats s)); reflexivity.
Qed.
Lemma attempt_g (s : state) : i_dudt s = f -> dp5_attempt (with_g s) = map_res (fun x => (with_g (fst x), snd x)) (dp5_attempt s).
Proof.
  intros E. unfold dp5_attempt. rewrite (stages_g s E). destruct (compute_stages s) as [s1| |]; cbn [map_res bind]; try reflexivity.
  change (dp5_error (with_g s1)) with (dp5_error s1). rewrite prepare_g.
  destruct (prepare_next_step (dp5_error s1) s1) as [s2| |]; cbn [map_res bind]; try reflexivity.
  change (reject (i_cache (with_g s2))) with (reject (i_cache s2)). destruct (negb (reject (i_cache s2))); [reflexivity|].
  change (i_dt (with_g s2)) with (i_dt s2). change (i_t (with_g s2)) with (i_t s2).
  destruct (leb A _ _); reflexivity.
Qed.
Lemma attempt_f (s s' : state) d : dp5_attempt s = Ok (s', d) -> i_dudt s' = i_dudt s.
Proof.
  unfold dp5_attempt. destruct (compute_stages s) as [s1| |] eqn:E1; cbn [bind]; try discriminate. apply stages_f in E1.
  destruct (prepare_next_step (dp5_error s1) s1) as [s2| |] eqn:E2; cbn [bind]; try discriminate. apply prepare_f in E2.
  destruct (negb (reject (i_cache s2))); [|destruct (leb A _ _)]; intros H; injection H as <- _; cbn; congruence.
Qed.
Lemma loop_g fuel : forall s : state, i_dudt s = f -> dp5_loop fuel (with_g s) = map_res with_g (dp5_loop fuel s) /\
  (forall s', dp5_loop fuel s = Ok s' -> i_dudt s' = f).
Proof.
  induction fuel as [|k IH]; intros s E; cbn [dp5_loop]; [split; [reflexivity|discriminate]|].
  rewrite (attempt_g s E). destruct (dp5_attempt s) as [[s1 d]| |] eqn:E1; cbn [map_res bind fst snd]; try (split; [reflexivity|discriminate]).
  apply attempt_f in E1. rewrite E in E1. destruct d; [|apply IH, E1]. split; [reflexivity|]. intros s' H. now injection H as <-.
Qed.
Lemma step_g fuel (s : state) : i_dudt s = f -> dp5_step fuel (with_g s) = map_res with_g (dp5_step fuel s) /\
  (forall s', dp5_step fuel s = Ok s' -> i_dudt s' = f).
Proof.
  intros E. unfold dp5_step.
  assert (dp5_clip (with_g s) = with_g (dp5_clip s)) as ->.
  { unfold dp5_clip. cbn. destruct (ltb A _ _); reflexivity. }
  assert (i_dudt (dp5_clip s) = f) as E1 by (unfold dp5_clip; destruct (ltb A _ _); exact E).
  destruct (loop_g fuel (dp5_clip s) E1) as (H1 & H2). rewrite H1.
  destruct (dp5_loop fuel (dp5_clip s)) as [s2| |]; cbn [map_res bind]; try (split; [reflexivity|discriminate]).
  specialize (H2 _ eq_refl). split.
  - f_equal. destruct s2 as [f0 ft fu p u t dt up tp dtp dir tf o [fe je st ac re de so] [ts0 us0 r0] c tr]. unfold dp5_finish, with_g.
    cbn -[Nat.ltb]. destruct (Nat.ltb (o_max_steps o) (S fe)); cbn -[Nat.ltb]; destruct (last c); reflexivity.
  - intros s' H. injection H as <-. rewrite <- H2. clear. destruct s2 as [f0 ft fu p u t dt up tp dtp dir tf o [fe je st ac re de so] [ts0 us0 r0] c tr].
    unfold dp5_finish. cbn -[Nat.ltb]. destruct (Nat.ltb (o_max_steps o) (S fe)); cbn -[Nat.ltb]; destruct (last c); reflexivity.
Qed.
Lemma call_step_g fuel (s : state) : i_dudt s = f ->
  step alg None fuel (with_g s) = map_res (fun x => (with_g (fst x), snd x)) (step alg None fuel s) /\
  (forall s' r, step alg None fuel s = Ok (s', r) -> i_dudt s' = f).
Proof.
  intros E. unfold step. cbn [alg_step DormandPrince5 run_callback Cache]. destruct (step_g fuel s E) as (H1 & H2). rewrite H1.
  destruct (dp5_step fuel s) as [s1| |]; cbn [map_res bind]; (split; [reflexivity|]); try discriminate.
  intros s' r H. injection H as <- _. now apply H2.
Qed.
Lemma steps_g fuel k : forall s : state, i_dudt s = f -> steps_n alg None fuel k (with_g s) = map_res with_g (steps_n alg None fuel k s).
Proof.
  induction k as [|k IH]; intros s E; cbn [steps_n]; [reflexivity|]. destruct (call_step_g fuel s E) as (H1 & H2).
  refine (eq_trans (f_equal (fun r => let* (s', _) := r in steps_n alg None fuel k s') H1) _). revert H2. generalize (step alg None fuel s).
  intros [[s1 r]| |] H2; cbn [map_res bind fst snd]; try reflexivity. apply IH. now apply (H2 s1 r).
Qed.
Lemma integrate_g fuel k : forall s : state, i_dudt s = f -> integrate alg None fuel k (with_g s) = map_res with_g (integrate alg None fuel k s).
Proof.
  induction k as [|k IH]; intros s E; cbn [integrate]; [reflexivity|]. destruct (call_step_g fuel s E) as (H1 & H2).
  refine (eq_trans (f_equal (fun r => let* (s', o) := r in match o with Some _ => integrate alg None fuel k s' | None => Ok s' end) H1) _).
  revert H2. generalize (step alg None fuel s).
  intros [[s1 r]| |] H2; cbn [map_res bind fst snd]; try reflexivity. destruct r as [n|]; [|reflexivity]. apply IH. now apply (H2 s1 (Some n)).
Qed.
End Preset.

Theorem dp5_preset {A P} (b : builder A P) (preset : vec A -> vec A) fuel k (s s' : integ A P (dp5_cache A)) :
  overwrites (b_dudt b) -> (forall d, length (preset d) = length d) ->
  build DormandPrince5 b = Ok s -> build DormandPrince5 (b <| b_dudt := fun d => b_dudt b (preset d) |>) = Ok s' ->
  same_outcome same_but_closure (steps_n DormandPrince5 None fuel k s) (steps_n DormandPrince5 None fuel k s') /\
  same_outcome same_but_closure (integrate DormandPrince5 None fuel k s) (integrate DormandPrince5 None fuel k s').
Proof.
  intros Hf Hp Hb Hb'.
  assert (i_dudt s = b_dudt b) as E by (injection Hb as <-; reflexivity).
  assert (s' = with_g (b_dudt b) preset s) as ->.
  { injection Hb as <-. injection Hb' as <-. unfold with_g. cbn. rewrite (call_g (b_dudt b) preset Hf Hp). reflexivity. }
  rewrite (steps_g (b_dudt b) preset Hf Hp fuel k s E), (integrate_g (b_dudt b) preset Hf Hp fuel k s E).
  split; [destruct (steps_n _ _ _ _ _)|destruct (integrate _ _ _ _ _)]; cbn; try exact I; reflexivity.
Qed.
