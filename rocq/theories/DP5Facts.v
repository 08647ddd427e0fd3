(** Facts about DP5.v that hold in every arithmetic. *)
From Coq Require Import ZArith List Bool Lia.
From RecordUpdate Require Import RecordSet.
From Verif Require Import Arith Vec Core Driver VecFacts DP5.
Import ListNotations RecordSetNotations.

Section DP5Facts.
Context {A : arith} {P : Type}.
Notation state := (integ A P (dp5_cache A)).
Notation builder := (builder A P).

(** Problem data that a run must never change. *)
Definition same_problem {C} (s s' : integ A P C) : Prop :=
  i_dudt s' = i_dudt s /\ i_dfdt s' = i_dfdt s /\ i_dfdu s' = i_dfdu s /\
  i_params s' = i_params s /\ i_tdir s' = i_tdir s /\ i_tfinal s' = i_tfinal s /\
  i_opts s' = i_opts s.
Lemma same_problem_refl {C} (s : integ A P C) : same_problem s s.
Proof. repeat split. Qed.
Lemma same_problem_trans {C} (a b c : integ A P C) :
  same_problem a b -> same_problem b c -> same_problem a c.
Proof. intros (?&?&?&?&?&?&?) (?&?&?&?&?&?&?). repeat split; congruence. Qed.

(** What an attempt works on: everything visible except step size and
    counters. *)
Definition same_point {C} (s s' : integ A P C) : Prop :=
  i_u s' = i_u s /\ i_t s' = i_t s /\ i_uprev s' = i_uprev s /\ i_tprev s' = i_tprev s /\
  ts (i_sol s') = ts (i_sol s) /\ us (i_sol s') = us (i_sol s).
Lemma same_point_refl {C} (s : integ A P C) : same_point s s.
Proof. repeat split. Qed.
Lemma same_point_trans {C} (a b c : integ A P C) :
  same_point a b -> same_point b c -> same_point a c.
Proof. intros (?&?&?&?&?&?) (?&?&?&?&?&?). repeat split; congruence. Qed.

(** Extensionality of the two records. *)
Lemma integ_ext (a b : integ A P (dp5_cache A)) :
  i_dudt a = i_dudt b ->
  i_dfdt a = i_dfdt b ->
  i_dfdu a = i_dfdu b ->
  i_params a = i_params b ->
  i_u a = i_u b ->
  i_t a = i_t b ->
  i_dt a = i_dt b ->
  i_uprev a = i_uprev b ->
  i_tprev a = i_tprev b ->
  i_dtprev a = i_dtprev b ->
  i_tdir a = i_tdir b ->
  i_tfinal a = i_tfinal b ->
  i_opts a = i_opts b ->
  i_stats a = i_stats b ->
  i_sol a = i_sol b ->
  i_cache a = i_cache b ->
  i_trace a = i_trace b -> a = b.
Proof. destruct a, b. cbn. intros. subst. reflexivity. Qed.
Lemma cache_ext (a b : dp5_cache A) :
  n_stiff a = n_stiff b ->
  n_nonstiff a = n_nonstiff b ->
  reject a = reject b ->
  last a = last b ->
  facold a = facold b ->
  dtlamb a = dtlamb b ->
  k2 a = k2 b ->
  k3 a = k3 b ->
  k4 a = k4 b ->
  k5 a = k5 b ->
  k6 a = k6 b ->
  rcont1 a = rcont1 b ->
  rcont2 a = rcont2 b ->
  rcont3 a = rcont3 b ->
  rcont4 a = rcont4 b ->
  rcont5 a = rcont5 b ->
  unew a = unew b ->
  du a = du b ->
  dunew a = dunew b ->
  uerr a = uerr b ->
  ustiff a = ustiff b -> a = b.
Proof. destruct a, b. cbn. intros. subst. reflexivity. Qed.

(** ** Stages *)
(** The evaluations and vectors of one attempt, as a function of exactly the
    data they depend on; [b2] ... [b7] are the old contents of the output
    buffers. *)
Record stage_data := mkStageData {
  sd_k2 : vec A; sd_k3 : vec A; sd_k4 : vec A; sd_k5 : vec A; sd_k6 : vec A;
  sd_ustiff : vec A; sd_unew : vec A; sd_dunew : vec A; sd_uerr : vec A;
  sd_trace : list (event A) }.

Definition stage_vecs (f : rhs A P) (p : P) (u : vec A) (t dt : num A) (du : vec A)
    (b2 b3 b4 b5 b6 b7 : vec A) : stage_data :=
  let y2 := vadd u (vscale (mul A dt A21) du) in
  let t2 := add A t (mul A C2 dt) in
  let k2' := call_rhs f b2 y2 t2 p in
  let y3 := vadd u (vscale dt (vadd (vscale A31 du) (vscale A32 k2'))) in
  let t3 := add A t (mul A C3 dt) in
  let k3' := call_rhs f b3 y3 t3 p in
  let y4 := vadd u (vscale dt (vadd (vadd (vscale A41 du) (vscale A42 k2'))
                                    (vscale A43 k3'))) in
  let t4 := add A t (mul A C4 dt) in
  let k4' := call_rhs f b4 y4 t4 p in
  let y5 := vadd u (vscale dt (vadd (vadd (vadd (vscale A51 du) (vscale A52 k2'))
                                          (vscale A53 k3')) (vscale A54 k4'))) in
  let t5 := add A t (mul A C5 dt) in
  let k5' := call_rhs f b5 y5 t5 p in
  let y6 := vadd u (vscale dt (vadd (vadd (vadd (vadd (vscale A61 du) (vscale A62 k2'))
                                                (vscale A63 k3')) (vscale A64 k4'))
                                    (vscale A65 k5'))) in
  let tph := add A t dt in
  let k6' := call_rhs f b6 y6 tph p in
  let y7 := vadd u (vscale dt (vadd (vadd (vadd (vadd (vscale A71 du) (vscale A73 k3'))
                                                (vscale A74 k4')) (vscale A75 k5'))
                                    (vscale A76 k6'))) in
  let dunew' := call_rhs f b7 y7 tph p in
  let uerr' := vscale dt (vadd (vadd (vadd (vadd (vadd (vscale E1 du) (vscale E3 k3'))
                                                 (vscale E4 k4')) (vscale E5 k5'))
                                     (vscale E6 k6')) (vscale E7 dunew')) in
  mkStageData k2' k3' k4' k5' k6' y6 y7 dunew' uerr'
    [EvF tph y7; EvF tph y6; EvF t5 y5; EvF t4 y4; EvF t3 y3; EvF t2 y2].

Definition stage_vecs_of (s : state) : stage_data :=
  stage_vecs (i_dudt s) (i_params s) (i_u s) (i_t s) (i_dt s) (du (i_cache s))
    (k2 (i_cache s)) (k3 (i_cache s)) (k4 (i_cache s)) (k5 (i_cache s)) (k6 (i_cache s))
    (dunew (i_cache s)).

Definition with_stages (v : stage_data) (s : state) : state :=
  s <| i_cache := i_cache s <| k2 := sd_k2 v |> <| k3 := sd_k3 v |> <| k4 := sd_k4 v |>
         <| k5 := sd_k5 v |> <| k6 := sd_k6 v |> <| ustiff := sd_ustiff v |>
         <| unew := sd_unew v |> <| dunew := sd_dunew v |> <| uerr := sd_uerr v |> |>
    <| i_stats; function_evals ::= fun k => (k + 6)%nat |>
    <| i_trace ::= fun tr => sd_trace v ++ tr |>.

Lemma compute_stages_eq (s : state) :
  compute_stages s = if dp5_shapes s then Ok (with_stages (stage_vecs_of s) s) else Panic.
Proof. unfold compute_stages, guard. destruct (dp5_shapes s); reflexivity. Qed.

Lemma compute_stages_inv (s s1 : state) :
  compute_stages s = Ok s1 ->
  dp5_shapes s = true /\
  same_problem s s1 /\ same_point s s1 /\ i_dt s1 = i_dt s /\ i_dtprev s1 = i_dtprev s /\
  i_sol s1 = i_sol s /\
  i_stats s1 = i_stats s <| function_evals ::= fun k => (k + 6)%nat |> /\
  (exists t2 y2 t3 y3 t4 y4 t5 y5 y6,
     i_trace s1 = EvF (add A (i_t s) (i_dt s)) (unew (i_cache s1))
                  :: EvF (add A (i_t s) (i_dt s)) y6 :: EvF t5 y5 :: EvF t4 y4
                  :: EvF t3 y3 :: EvF t2 y2 :: i_trace s) /\
  n_stiff (i_cache s1) = n_stiff (i_cache s) /\
  n_nonstiff (i_cache s1) = n_nonstiff (i_cache s) /\
  reject (i_cache s1) = reject (i_cache s) /\ last (i_cache s1) = last (i_cache s) /\
  facold (i_cache s1) = facold (i_cache s) /\ dtlamb (i_cache s1) = dtlamb (i_cache s) /\
  du (i_cache s1) = du (i_cache s).
Proof.
  unfold compute_stages, guard. destruct (dp5_shapes s) eqn:Hs; [|discriminate].
  intros H. inversion H; subst; clear H. cbn.
  repeat split. repeat eexists.
Qed.

Lemma forallb_shapes n (l : list (vec A)) :
  forallb (fun v => Nat.eqb (length v) n) l = true <-> Forall (fun v => length v = n) l.
Proof.
  rewrite forallb_forall, Forall_forall. split; intros H v Hv; apply Nat.eqb_eq; auto.
Qed.

Lemma compute_stages_shapes (s s1 : state) :
  compute_stages s = Ok s1 -> dp5_shapes s1 = true.
Proof.
  unfold compute_stages, guard. destruct (dp5_shapes s) eqn:Hs; [|discriminate].
  intros H. inversion H; subst; clear H.
  unfold dp5_shapes in *. cbn in *.
  repeat match goal with
  | H : _ && _ = true |- _ => apply andb_true_iff in H as [? ?]
  | H : Nat.eqb _ _ = true |- _ => apply Nat.eqb_eq in H
  end.
  repeat (rewrite ?vadd_length, ?vscale_length, ?call_rhs_length).
  repeat match goal with H : length _ = length _ |- _ => rewrite H end.
  rewrite ?Nat.min_id, ?Nat.eqb_refl. reflexivity.
Qed.

Lemma compute_stages_ok (s : state) :
  dp5_shapes s = true -> exists s1, compute_stages s = Ok s1.
Proof. intros H. unfold compute_stages, guard. rewrite H. eauto. Qed.

(** ** Accepting and rejecting *)

(** Next step size after an accepted attempt (prepare.rs:23-24, 70-75). *)
Definition dtnew_accept (err : num A) (s : state) : num A :=
  let d := div A (i_dt s) (dp5_fac err s) in
  let d := if ltb A (o_dtmax (i_opts s)) (nabs A d)
           then mul A (i_tdir s) (o_dtmax (i_opts s)) else d in
  if reject (i_cache s)
  then mul A (i_tdir s) (nmin A (nabs A d) (nabs A (i_dt s))) else d.
(** ... and after a rejected one (prepare.rs:80). *)
Definition dtnew_reject (err : num A) (s : state) : num A :=
  div A (i_dt s) (nmin A (dp5_fac1 s) (div A (dp5_fac11 err s) (o_safe (i_opts s)))).

(** All fields after an accepted attempt, [s] being the state with the stages. *)
Record accepted (err : num A) (s s' : state) : Prop := {
  acc_problem : same_problem s s';
  acc_u : i_u s' = unew (i_cache s);
  acc_uprev : i_uprev s' = i_u s;
  acc_t : i_t s' = add A (i_t s) (i_dt s);
  acc_tprev : i_tprev s' = i_t s;
  acc_dt : i_dt s' = dtnew_accept err s;
  acc_dtprev : i_dtprev s' = i_dt s;
  acc_sol : i_sol s' = i_sol s;
  acc_stats : i_stats s' = i_stats s <| accepts ::= S |>;
  acc_trace : i_trace s' = i_trace s;
  acc_max_stiff : o_max_stiff (i_opts s) <> 0;
  acc_reject : reject (i_cache s') = false;
  acc_last : last (i_cache s') = last (i_cache s);
  acc_facold : facold (i_cache s') = nmax A err (lit A 1 10000);
  acc_du : du (i_cache s') = dunew (i_cache s);
  acc_k2 : k2 (i_cache s') = k2 (i_cache s);
  acc_k3 : k3 (i_cache s') = k3 (i_cache s);
  acc_k4 : k4 (i_cache s') = k4 (i_cache s);
  acc_k5 : k5 (i_cache s') = k5 (i_cache s);
  acc_k6 : k6 (i_cache s') = k6 (i_cache s);
  acc_unew : unew (i_cache s') = unew (i_cache s);
  acc_dunew : dunew (i_cache s') = dunew (i_cache s);
  acc_uerr : uerr (i_cache s') = uerr (i_cache s);
  acc_ustiff : ustiff (i_cache s') = ustiff (i_cache s);
  acc_rcont :
    let c := if o_dense (i_opts s) then i_cache (prepare_dense s) else i_cache s in
    rcont1 (i_cache s') = rcont1 c /\ rcont2 (i_cache s') = rcont2 c /\
    rcont3 (i_cache s') = rcont3 c /\ rcont4 (i_cache s') = rcont4 c /\
    rcont5 (i_cache s') = rcont5 c }.

Lemma stiffness_frame (s : state) :
  exists a b d, stiffness s =
    s <| i_cache; n_stiff := a |> <| i_cache; n_nonstiff := b |> <| i_cache; dtlamb := d |>.
Proof.
  unfold stiffness. set (n1' := ltb A (lit A 325 100) _). destruct n1'.
  - repeat eexists.
  - set (d := if ltb A n0 _ then _ else dtlamb _). cbn.
    destruct (n_nonstiff (i_cache s)) as [|[|[|[|[|[|?]]]]]]; repeat eexists.
Qed.

Lemma dp5_accept_inv err (s s' : state) dtn :
  dp5_accept err s = Ok (s', dtn) ->
  accepted err s (s' <| i_dtprev := i_dt s' |> <| i_dt := dtn |>).
Proof.
  unfold dp5_accept, guard. cbn.
  destruct (Nat.eqb (o_max_stiff (i_opts s)) 0) eqn:Hm; [discriminate|].
  apply Nat.eqb_neq in Hm. cbn [negb].
  intros H. injection H as Hs Hd. subst s' dtn.
  (* isolate the stiffness update *)
  match goal with |- context [if ?c then stiffness ?x else ?x] =>
    set (st := if c then stiffness x else x);
    assert (exists a b d, st = x <| i_cache; n_stiff := a |> <| i_cache; n_nonstiff := b |>
                                 <| i_cache; dtlamb := d |>) as (a & b & d & E)
  end.
  { subst st. destruct (_ || _).
    - apply stiffness_frame.
    - destruct s as [? ? ? ? ? ? ? ? ? ? ? ? ? ? ? c ?]. destruct c.
      do 3 eexists. cbn. reflexivity. }
  rewrite E. clearbody st. clear E.
  cbn. destruct (o_dense (i_opts s)) eqn:Hden; constructor; cbn; rewrite ?Hden; auto;
    try (repeat split; reflexivity).
Qed.

Lemma dp5_accept_ok err (s : state) :
  o_max_stiff (i_opts s) <> 0 -> exists s' dtn, dp5_accept err s = Ok (s', dtn).
Proof.
  intros H. unfold dp5_accept, guard. cbn. apply Nat.eqb_neq in H. rewrite H. cbn. eauto.
Qed.
Lemma dp5_accept_panic err (s : state) :
  o_max_stiff (i_opts s) = 0 -> dp5_accept err s = Panic.
Proof. intros H. unfold dp5_accept, guard. cbn. rewrite H. reflexivity. Qed.

Record rejected (err : num A) (s s' : state) : Prop := {
  rej_problem : same_problem s s';
  rej_point : same_point s s';
  rej_dt : i_dt s' = dtnew_reject err s;
  rej_dtprev : i_dtprev s' = i_dt s;
  rej_rc : rc (i_sol s') = rc (i_sol s) \/ rc (i_sol s') = RDtLessThanMin;
  rej_rc_iff : rc (i_sol s') =
    if leb A (nabs A (i_dt s')) (mul A (nabs A (i_t s)) (eps A))
    then RDtLessThanMin else rc (i_sol s);
  rej_stats : i_stats s' =
    if Nat.leb 1 (accepts (i_stats s)) then i_stats s <| rejects ::= S |> else i_stats s;
  rej_trace : i_trace s' = i_trace s;
  rej_reject : reject (i_cache s') = true;
  rej_last : last (i_cache s') = false;
  rej_cache : i_cache s' = i_cache s <| reject := true |> <| last := false |> }.

(** ** One attempt *)
Lemma dp5_attempt_inv (s s' : state) done :
  dp5_attempt s = Ok (s', done) ->
  exists s1, compute_stages s = Ok s1 /\
    ((done = true /\ leb A (dp5_error s1) n1 = true /\ accepted (dp5_error s1) s1 s') \/
     (done = false /\ leb A (dp5_error s1) n1 = false /\ rejected (dp5_error s1) s1 s')).
Proof.
  unfold dp5_attempt. intros H. apply bind_ok in H as (s1 & Hs & H).
  exists s1. split; [assumption|].
  set (err := dp5_error s1) in *. clearbody err.
  unfold prepare_next_step in H. apply bind_ok in H as (s2 & H2 & H).
  destruct (leb A err n1) eqn:Herr.
  - left. apply bind_ok in H2 as ([s3 dtn] & Ha & E).
    apply dp5_accept_inv in Ha. injection E as E. rewrite E in Ha.
    rewrite (acc_reject _ _ _ Ha) in H. cbn [negb] in H. injection H as E1 E2. subst s' done.
    auto.
  - right. cbn [bind] in H2. injection H2 as H2. subst s2.
    assert (reject (i_cache (let (s',dtnew) := dp5_reject err s1 in
              s' <| i_dtprev := i_dt s' |> <| i_dt := dtnew |>)) = true) as Hr.
    { unfold dp5_reject. cbn. destruct (accepts (i_stats s1)); reflexivity. }
    cbn in H. 
    destruct (accepts (i_stats s1)) as [|na] eqn:Hacc; cbn in H.
    + destruct (leb A (nabs A (div A (i_dt s1) _)) (mul A (nabs A (i_t s1)) (eps A))) eqn:Hd;
        injection H as E1 E2; subst s' done; split; [reflexivity|split; [reflexivity|]| reflexivity
        | split; [reflexivity|]]; constructor; cbn; rewrite ?Hacc; unfold dtnew_reject; cbn; rewrite ?Hd;
        try reflexivity; try (now left); try (now right); repeat split; auto.
    + destruct (leb A (nabs A (div A (i_dt s1) _)) (mul A (nabs A (i_t s1)) (eps A))) eqn:Hd;
        injection H as E1 E2; subst s' done; split; [reflexivity|split; [reflexivity|]| reflexivity
        | split; [reflexivity|]]; constructor; cbn; rewrite ?Hacc; unfold dtnew_reject; cbn; rewrite ?Hd;
        try reflexivity; try (now left); try (now right); repeat split; auto.
Qed.

(** ** The retry loop *)
Inductive rejections : nat -> state -> state -> Prop :=
| rejs_0 s : rejections 0 s s
| rejs_S k s s1 s2 :
    dp5_attempt s = Ok (s1, false) -> rejections k s1 s2 -> rejections (S k) s s2.

Lemma dp5_loop_inv : forall fuel (s s' : state),
  dp5_loop fuel s = Ok s' <->
  exists k sk, k < fuel /\ rejections k s sk /\ dp5_attempt sk = Ok (s', true).
Proof.
  induction fuel as [|fuel IH]; intros s s'; split.
  - discriminate.
  - intros (k & sk & Hk & _); lia.
  - cbn [dp5_loop]. intros H. apply bind_ok in H as ([s1 d] & Ha & H). destruct d.
    + inversion H; subst. exists 0, s. split; [lia|]. split; [constructor|assumption].
    + apply IH in H as (k & sk & Hk & Hr & Hl). exists (S k), sk.
      split; [lia|]. split; [econstructor; eassumption|assumption].
  - intros (k & sk & Hk & Hr & Hl). cbn [dp5_loop]. inversion Hr; subst.
    + rewrite Hl. reflexivity.
    + rewrite H. cbn [bind]. apply IH. exists k0, sk. split; [lia|auto].
Qed.

Lemma dp5_loop_mono : forall fuel fuel' (s : state),
  fuel <= fuel' -> res_le (dp5_loop fuel s) (dp5_loop fuel' s).
Proof.
  induction fuel as [|fuel IH]; intros fuel' s Hle; [left; reflexivity|].
  destruct fuel' as [|fuel']; [lia|]. cbn [dp5_loop].
  apply res_le_bind; [apply res_le_refl|]. intros [s1 [|]]; [apply res_le_refl|apply IH; lia].
Qed.

(** ** The clip and the bookkeeping after the loop *)
Lemma dp5_clip_cases (s : state) :
  (ltb A n0 (mul A (sub A (add A (i_t s) (mul A (lit A 101 100) (i_dt s))) (i_tfinal s)) (i_tdir s)) = true /\
   dp5_clip s = s <| i_dt := sub A (i_tfinal s) (i_t s) |> <| i_cache; last := true |>) \/
  (ltb A n0 (mul A (sub A (add A (i_t s) (mul A (lit A 101 100) (i_dt s))) (i_tfinal s)) (i_tdir s)) = false /\
   dp5_clip s = s).
Proof. unfold dp5_clip. destruct (ltb A n0 _); auto. Qed.

Lemma dp5_clip_frame (s : state) :
  same_problem s (dp5_clip s) /\ same_point s (dp5_clip s) /\ i_sol (dp5_clip s) = i_sol s /\
  i_stats (dp5_clip s) = i_stats s /\ i_trace (dp5_clip s) = i_trace s /\
  i_dtprev (dp5_clip s) = i_dtprev s /\
  exists b, i_cache (dp5_clip s) = i_cache s <| last := b |>.
Proof.
  destruct (dp5_clip_cases s) as [[_ E]|[_ E]]; rewrite E.
  - repeat split. exists true. reflexivity.
  - repeat split. exists (last (i_cache s)). destruct (i_cache s); reflexivity.
Qed.

Lemma dp5_finish_frame (s : state) :
  same_problem s (dp5_finish s) /\
  i_u (dp5_finish s) = i_u s /\ i_t (dp5_finish s) = i_t s /\ i_dt (dp5_finish s) = i_dt s /\
  i_uprev (dp5_finish s) = i_uprev s /\ i_tprev (dp5_finish s) = i_tprev s /\
  i_dtprev (dp5_finish s) = i_dtprev s /\ i_cache (dp5_finish s) = i_cache s /\
  i_trace (dp5_finish s) = i_trace s /\
  i_stats (dp5_finish s) = i_stats s <| steps ::= S |> /\
  ts (i_sol (dp5_finish s)) = ts (i_sol s) ++ [i_t s] /\
  us (i_sol (dp5_finish s)) = us (i_sol s) ++ [i_u s] /\
  rc (i_sol (dp5_finish s)) =
    if last (i_cache s) then RSuccess
    else if Nat.ltb (o_max_steps (i_opts s)) (S (steps (i_stats s))) then RMaxIters
    else rc (i_sol s).
Proof.
  unfold dp5_finish. cbn -[Nat.ltb].
  destruct (Nat.ltb (o_max_steps (i_opts s)) (S (steps (i_stats s)))); cbn -[Nat.ltb];
    destruct (last (i_cache s)); cbn -[Nat.ltb]; repeat split.
Qed.

(** ** One [step()]: [k] rejected attempts, then an accepted one. *)
Lemma dp5_step_inv fuel (s s' : state) :
  dp5_step fuel s = Ok s' <->
  exists k sk sa, k < fuel /\ rejections k (dp5_clip s) sk /\
    dp5_attempt sk = Ok (sa, true) /\ s' = dp5_finish sa.
Proof.
  unfold dp5_step. split.
  - intros H. apply bind_ok in H as (sa & Hl & E).
    apply dp5_loop_inv in Hl as (k & sk & Hk & Hr & Ha). inversion E; subst. eauto 8.
  - intros (k & sk & sa & Hk & Hr & Ha & E). subst.
    assert (dp5_loop fuel (dp5_clip s) = Ok sa) as -> by (apply dp5_loop_inv; eauto).
    reflexivity.
Qed.

Lemma dp5_step_mono fuel fuel' (s : state) :
  fuel <= fuel' -> res_le (dp5_step fuel s) (dp5_step fuel' s).
Proof.
  intros H. unfold dp5_step. apply res_le_bind; [now apply dp5_loop_mono|].
  intros x. apply res_le_refl.
Qed.

(** A rejected attempt, relative to its start. *)
Record attempt_rejected (s s' : state) : Prop := {
  atr_problem : same_problem s s';
  atr_point : same_point s s';
  atr_evals : function_evals (i_stats s') = function_evals (i_stats s) + 6;
  atr_steps : steps (i_stats s') = steps (i_stats s);
  atr_accepts : accepts (i_stats s') = accepts (i_stats s);
  atr_rejects : rejects (i_stats s') =
    (if Nat.leb 1 (accepts (i_stats s)) then S (rejects (i_stats s)) else rejects (i_stats s));
  atr_others : jacobian_evals (i_stats s') = jacobian_evals (i_stats s) /\
               decompositions (i_stats s') = decompositions (i_stats s) /\
               linear_solves (i_stats s') = linear_solves (i_stats s);
  atr_trace : exists l, length l = 6 /\ i_trace s' = l ++ i_trace s /\
                        forall e, In e l -> exists t u, e = EvF t u;
  atr_rc : rc (i_sol s') = rc (i_sol s) \/ rc (i_sol s') = RDtLessThanMin;
  atr_last : last (i_cache s') = false;
  atr_reject : reject (i_cache s') = true;
  atr_du : du (i_cache s') = du (i_cache s);
  atr_facold : facold (i_cache s') = facold (i_cache s);
  atr_shapes : dp5_shapes s = true /\ dp5_shapes s' = true }.

Lemma stage_trace_events (s s1 : state) :
  compute_stages s = Ok s1 ->
  exists l, length l = 6 /\ i_trace s1 = l ++ i_trace s /\
            forall e, In e l -> exists t u, e = EvF t u.
Proof.
  intros H. apply compute_stages_inv in H
    as (_&_&_&_&_&_&_&(t2&y2&t3&y3&t4&y4&t5&y5&y6&Et)&_).
  rewrite Et. eexists [_;_;_;_;_;_]. split; [reflexivity|]. split; [reflexivity|].
  intros e He. cbn in He. repeat (destruct He as [<-|He]; [eauto|]). destruct He.
Qed.

Lemma dp5_attempt_rejected (s s' : state) :
  dp5_attempt s = Ok (s', false) -> attempt_rejected s s'.
Proof.
  intros H. apply dp5_attempt_inv in H as (s1 & Hs & [(D & _)|(_ & _ & Hr)]); [discriminate|].
  pose proof (compute_stages_shapes _ _ Hs) as Hsh1.
  pose proof (stage_trace_events _ _ Hs) as Htr.
  pose proof (compute_stages_inv _ _ Hs)
    as (Hsh&Hp&Hpt&Hdt&Hdtp&Hsol&Hst&_&_&_&_&_&Hfo&_&Hdu).
  destruct Hr as [Rp Rpt Rdt Rdtp Rrc Rrci Rst Rtr Rrej Rl Rc].
  constructor.
  - eapply same_problem_trans; eassumption.
  - eapply same_point_trans; eassumption.
  - rewrite Rst, Hst. cbn. destruct (accepts (i_stats s)) eqn:Ea; cbn; rewrite ?Ea; reflexivity.
  - rewrite Rst, Hst. cbn. destruct (accepts (i_stats s)) eqn:Ea; cbn; rewrite ?Ea; reflexivity.
  - rewrite Rst, Hst. cbn. destruct (accepts (i_stats s)) eqn:Ea; cbn; rewrite ?Ea; reflexivity.
  - rewrite Rst, Hst. cbn. destruct (accepts (i_stats s)) eqn:Ea; cbn; rewrite ?Ea; reflexivity.
  - rewrite Rst, Hst. cbn. destruct (accepts (i_stats s)) eqn:Ea; cbn; auto.
  - rewrite Rtr. exact Htr.
  - rewrite Hsol in Rrc. exact Rrc.
  - assumption.
  - assumption.
  - rewrite Rc. cbn. assumption.
  - rewrite Rc. cbn. assumption.
  - split; [assumption|]. unfold dp5_shapes in *. destruct Rpt as (Eu&_&Eup&_).
    rewrite Eu, Eup, Rc. cbn in *. exact Hsh1.
Qed.

Lemma rejections_ind_inv (R : state -> Prop) :
  (forall s s', R s -> dp5_attempt s = Ok (s', false) -> R s') ->
  forall k s s', rejections k s s' -> R s -> R s'.
Proof. intros Hst k s s' H. induction H; eauto. Qed.

(** [k] rejected attempts, relative to their start. *)
Record rejected_many (k : nat) (s s' : state) : Prop := {
  rm_problem : same_problem s s';
  rm_point : same_point s s';
  rm_evals : function_evals (i_stats s') = function_evals (i_stats s) + 6 * k;
  rm_steps : steps (i_stats s') = steps (i_stats s);
  rm_accepts : accepts (i_stats s') = accepts (i_stats s);
  rm_rejects : rejects (i_stats s') =
    (if Nat.leb 1 (accepts (i_stats s)) then rejects (i_stats s) + k else rejects (i_stats s));
  rm_others : jacobian_evals (i_stats s') = jacobian_evals (i_stats s) /\
              decompositions (i_stats s') = decompositions (i_stats s) /\
              linear_solves (i_stats s') = linear_solves (i_stats s);
  rm_trace : exists l, length l = 6 * k /\ i_trace s' = l ++ i_trace s /\
                       forall e, In e l -> exists t u, e = EvF t u;
  rm_rc : rc (i_sol s') = rc (i_sol s) \/ rc (i_sol s') = RDtLessThanMin;
  rm_last : k <> 0 -> last (i_cache s') = false;
  rm_reject : k <> 0 -> reject (i_cache s') = true;
  rm_zero : k = 0 -> s' = s;
  rm_du : du (i_cache s') = du (i_cache s);
  rm_facold : facold (i_cache s') = facold (i_cache s);
  rm_shapes : dp5_shapes s = true -> dp5_shapes s' = true }.

Lemma rejections_many k (s s' : state) : rejections k s s' -> rejected_many k s s'.
Proof.
  induction 1 as [s|k s s1 s2 Ha Hr IH].
  - constructor; try (repeat split; fail); auto; try lia.
    + destruct (Nat.leb 1 _); lia.
    + exists []. repeat split. intros e [].
  - apply dp5_attempt_rejected in Ha.
    destruct Ha as [Ap Apt Aev Ast Aac Are Aot (l1 & L1 & T1 & F1) Arc Al Arj Adu Afo [Ash0 Ash]].
    destruct IH as [Bp Bpt Bev Bst Bac Bre Bot (l2 & L2 & T2 & F2) Brc Bl Brj Bz Bdu Bfo Bsh].
    constructor.
    + eapply same_problem_trans; eassumption.
    + eapply same_point_trans; eassumption.
    + lia.
    + congruence.
    + congruence.
    + rewrite Bre, Are, Aac. destruct (Nat.leb 1 _); lia.
    + destruct Aot as (?&?&?), Bot as (?&?&?). repeat split; congruence.
    + exists (l2 ++ l1). rewrite app_length, T2, T1, app_assoc. split; [lia|]. split; [reflexivity|].
      intros e He. apply in_app_or in He as [He|He]; auto.
    + destruct Brc as [B|B]; [|auto]. rewrite B. exact Arc.
    + intros _. destruct k as [|k]; [rewrite (Bz eq_refl); assumption|]. apply Bl; lia.
    + intros _. destruct k as [|k]; [rewrite (Bz eq_refl); assumption|]. apply Brj; lia.
    + discriminate.
    + congruence.
    + congruence.
    + auto.
Qed.
End DP5Facts.
Ltac state_eq := apply integ_ext; cbn; try reflexivity.
Ltac cache_eq := apply cache_ext; cbn; try reflexivity.
