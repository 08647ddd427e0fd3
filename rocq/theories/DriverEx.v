(** Remaining lemmas about the driver, and concrete runs for PropDriver.v. *)
From Coq Require Import ZArith List Bool Lia.
From RecordUpdate Require Import RecordSet.
From Verif Require Import Arith Vec Core Spec DP5 Rodas Driver DP5Iter Examples.
Import ListNotations RecordSetNotations.

Lemma integrate_returns_finished : forall A P (al : algorithm A P) cb fstep fuel s s',
  integrate al cb fstep fuel s = Ok s' ->
  rc (i_sol s') <> RContinue /\
  forall fuel', fuel <= fuel' -> integrate al cb fstep fuel' s = Ok s'.
Proof.
  intros A P al cb fstep fuel s s' H. split.
  - eapply integrate_finished; eassumption.
  - intros fuel' Hle. eapply res_le_ok; [apply (integrate_mono al cb fstep); eassumption|assumption].
Qed.

Lemma step_result : forall A P (al : algorithm A P) cb fuel s s' r,
  step al cb fuel s = Ok (s', r) ->
  (rc (i_sol s') = RContinue -> r = Some (steps (i_stats s'))) /\
  (rc (i_sol s') <> RContinue -> r = None).
Proof.
  intros A P al cb fuel s s' r H. apply step_spec in H. subst r. split; intros H.
  - apply retcode_eqb_eq in H. now rewrite H.
  - apply retcode_eqb_neq in H. now rewrite H.
Qed.

Lemma dp5_iter_not_all : forall A P (b : builder A P) fuel fuel2 s0 s items,
  build DormandPrince5 b = Ok s0 ->
  iter_collect DormandPrince5 None fuel fuel2 s0 = Ok (s, items) ->
  items <> tl (points s).
Proof.
  intros A P b fuel fuel2 s0 s items Hb H.
  pose proof (dp5_iter_items _ _ _ _ _ _ Hb H) as Ei. cbn [Cache DormandPrince5] in *.
  rewrite Ei. cbn [tl].
  intros E. apply (f_equal (@length _)) in E. rewrite app_length in E. cbn in E. lia.
Qed.

Lemma solution_iteration : forall A (sol : solution A) fuel, length (ts sol) < fuel ->
  sol_iter_collect fuel (sol_into_iter sol) = combine (ts sol) (us sol).
Proof. intros A [lt lu r] fuel H. now apply sol_iter_collect_combine. Qed.

Lemma solution_next_nth : forall A (lt : list (num A)) (lu : list (vec A)) k i, i < k ->
  nth i (sol_iter_calls k (mkSolIter lt lu)) None = nth_error (combine lt lu) i.
Proof. intros. now apply sol_iter_calls_nth. Qed.

Lemma rodas_build_panics : forall A P (b : builder A P), build Rodas b = Panic.
Proof. reflexivity. Qed.

Lemma setters_set : forall A P (b : builder A P),
  (forall v, set_reltol v b = b <| b_opts := b_opts b <| o_reltol := v |> |>) /\
  (forall v, set_abstol v b = b <| b_opts := b_opts b <| o_abstol := v |> |>) /\
  (forall v, set_dense v b = b <| b_opts := b_opts b <| o_dense := v |> |>) /\
  (forall v, set_dtstart v b = b <| b_opts := b_opts b <| o_dtstart := v |> |>) /\
  (forall v, set_dtmax v b = b <| b_opts := b_opts b <| o_dtmax := v |> |>) /\
  (forall v, set_max_steps v b = b <| b_opts := b_opts b <| o_max_steps := v |> |>) /\
  (forall v, set_max_newt_iter v b = b <| b_opts := b_opts b <| o_max_newt_iter := v |> |>) /\
  (forall v, set_max_stiff v b = b <| b_opts := b_opts b <| o_max_stiff := v |> |>) /\
  (forall v, set_modern_pred v b = b <| b_opts := b_opts b <| o_modern_pred := v |> |>) /\
  (forall v, set_safe v b = b <| b_opts := b_opts b <| o_safe := v |> |>) /\
  (forall v, set_facr v b = b <| b_opts := b_opts b <| o_facr := v |> |>) /\
  (forall v, set_facl v b = b <| b_opts := b_opts b <| o_facl := v |> |>) /\
  (forall v, set_quot1 v b = b <| b_opts := b_opts b <| o_quot1 := v |> |>) /\
  (forall v, set_quot2 v b = b <| b_opts := b_opts b <| o_quot2 := v |> |>) /\
  (forall v, set_beta v b = b <| b_opts := b_opts b <| o_beta := v |> |>) /\
  (forall v, set_fnewt v b = b <| b_opts := b_opts b <| o_fnewt := v |> |>) /\
  (forall v, set_use_ext_col v b = b <| b_opts := b_opts b <| o_use_ext_col := v |> |>) /\
  (forall v, set_hess v b = b <| b_opts := b_opts b <| o_hess := v |> |>) /\
  (forall v, set_dfdu v b = b <| b_dfdu := Some v |>) /\
  (forall v, set_dfdt v b = b <| b_dfdt := Some v |>).
Proof. intros. repeat split; reflexivity. Qed.

(** A call of one of the builder's setters. *)
Inductive setter_call (A : arith) (P : Type) :=
| CRelTol (v : num A) | CAbsTol (v : num A) | CDense (v : bool) | CDtStart (v : num A)
| CDtMax (v : num A) | CMaxSteps (v : nat) | CMaxNewt (v : nat) | CMaxStiff (v : nat)
| CModern (v : bool) | CSafe (v : num A) | CFacR (v : num A) | CFacL (v : num A)
| CQuot1 (v : num A) | CQuot2 (v : num A) | CBeta (v : num A) | CFNewt (v : num A)
| CExtCol (v : bool) | CHess (v : bool) | CDfdu (v : jac A P) | CDfdt (v : rhs A P).
Arguments CRelTol {A P}. Arguments CAbsTol {A P}. Arguments CDense {A P}. Arguments CDtStart {A P}.
Arguments CDtMax {A P}. Arguments CMaxSteps {A P}. Arguments CMaxNewt {A P}. Arguments CMaxStiff {A P}.
Arguments CModern {A P}. Arguments CSafe {A P}. Arguments CFacR {A P}. Arguments CFacL {A P}.
Arguments CQuot1 {A P}. Arguments CQuot2 {A P}. Arguments CBeta {A P}. Arguments CFNewt {A P}.
Arguments CExtCol {A P}. Arguments CHess {A P}. Arguments CDfdu {A P}. Arguments CDfdt {A P}.

Definition setter_id {A P} (c : setter_call A P) : nat :=
  match c with
  | CRelTol _ => 0 | CAbsTol _ => 1 | CDense _ => 2 | CDtStart _ => 3 | CDtMax _ => 4
  | CMaxSteps _ => 5 | CMaxNewt _ => 6 | CMaxStiff _ => 7 | CModern _ => 8 | CSafe _ => 9
  | CFacR _ => 10 | CFacL _ => 11 | CQuot1 _ => 12 | CQuot2 _ => 13 | CBeta _ => 14
  | CFNewt _ => 15 | CExtCol _ => 16 | CHess _ => 17 | CDfdu _ => 18 | CDfdt _ => 19
  end.
Definition call_setter {A P} (c : setter_call A P) (b : builder A P) : builder A P :=
  match c with
  | CRelTol v => set_reltol v b | CAbsTol v => set_abstol v b | CDense v => set_dense v b
  | CDtStart v => set_dtstart v b | CDtMax v => set_dtmax v b | CMaxSteps v => set_max_steps v b
  | CMaxNewt v => set_max_newt_iter v b | CMaxStiff v => set_max_stiff v b
  | CModern v => set_modern_pred v b | CSafe v => set_safe v b | CFacR v => set_facr v b
  | CFacL v => set_facl v b | CQuot1 v => set_quot1 v b | CQuot2 v => set_quot2 v b
  | CBeta v => set_beta v b | CFNewt v => set_fnewt v b | CExtCol v => set_use_ext_col v b
  | CHess v => set_hess v b | CDfdu v => set_dfdu v b | CDfdt v => set_dfdt v b
  end.

Lemma setters_laws : forall A P (c1 c2 : setter_call A P) (b : builder A P),
  (setter_id c1 <> setter_id c2 -> call_setter c1 (call_setter c2 b) = call_setter c2 (call_setter c1 b)) /\
  (setter_id c1 = setter_id c2 -> call_setter c1 (call_setter c2 b) = call_setter c1 b).
Proof.
  intros A P c1 c2 b.
  destruct c1, c2; cbn [setter_id]; (split; intros H; [try (exfalso; apply H; reflexivity); reflexivity
                                                      |try discriminate H; reflexivity]).
Qed.

(** ** Concrete runs *)
Definition dp5x := @DormandPrince5 XF unit.
Lemma dp5_run_ex : exists s0 s' s1 s2,
  build (@DormandPrince5 XF unit) x_dp5 = Ok s0 /\
  integrate (@DormandPrince5 XF unit) None 10 100 s0 = Ok s' /\
  continues (@DormandPrince5 XF unit) None 10 2 s0 s1 /\
  step (@DormandPrince5 XF unit) None 10 s1 = Ok (s2, Some 3).
Proof.
  assert (match build dp5x x_dp5 with
          | Ok s0 => is_ok (integrate dp5x None 10 100 s0) &&
            match step dp5x None 10 s0 with
            | Ok (a, Some _) => match step dp5x None 10 a with
              | Ok (b, Some _) => match step dp5x None 10 b with
                | Ok (c, Some 3) => true | _ => false end
              | _ => false end
            | _ => false end
          | _ => false end = true) as H by (vm_compute; reflexivity).
  destruct (build dp5x x_dp5) as [s0| |] eqn:E0; try discriminate H.
  apply andb_true_iff in H as [H1 H2]. apply is_ok_ex in H1 as (s' & H1).
  destruct (step dp5x None 10 s0) as [[a [na|]]| |] eqn:Ea; try discriminate H2.
  destruct (step dp5x None 10 a) as [[b [nb|]]| |] eqn:Eb; try discriminate H2.
  destruct (step dp5x None 10 b) as [[c [nc|]]| |] eqn:Ec; try discriminate H2.
  destruct nc as [|[|[|[|nc]]]]; try discriminate H2.
  exists s0, s', b, c. repeat split; try assumption.
  econstructor; [exact Ea|]. econstructor; [exact Eb|]. constructor.
Qed.

Lemma dp5_iter_ex : exists s0 s items,
  build (@DormandPrince5 XF unit) x_dp5 = Ok s0 /\
  iter_collect (@DormandPrince5 XF unit) None 10 100 s0 = Ok (s, items) /\
  length items = 3 /\ length (points s) = 5 /\ rc (i_sol s) = RSuccess.
Proof.
  assert (match build dp5x x_dp5 with
          | Ok s0 => match iter_collect dp5x None 10 100 s0 with
            | Ok (s, items) => Nat.eqb (length items) 3 && Nat.eqb (length (points s)) 5 &&
                               retcode_eqb (rc (i_sol s)) RSuccess
            | _ => false end
          | _ => false end = true) as H by (vm_compute; reflexivity).
  destruct (build dp5x x_dp5) as [s0| |] eqn:E0; try discriminate H.
  destruct (iter_collect dp5x None 10 100 s0) as [[s items]| |] eqn:E; try discriminate H.
  apply andb_true_iff in H as [H H3]. apply andb_true_iff in H as [H1 H2].
  exists s0, s, items. repeat split; try assumption; try (now apply Nat.eqb_eq).
  now apply retcode_eqb_eq.
Qed.
