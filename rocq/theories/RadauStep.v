(** One Radau5 step, in every arithmetic: the accepted attempt, the loop, and
    termination. *)
From Coq Require Import ZArith List Bool Lia.
From RecordUpdate Require Import RecordSet.
From Verif Require Import Arith Vec Core Spec Jacobian Linalg Driver VecFacts DP5Facts LinFacts LinFactsC
  Radau RadauFacts.
Import ListNotations RecordSetNotations.

Section RadauStep.
Context {A : arith} {P : Type}.
Notation state := (integ A P (radau_cache A)).

(** The step size proposed after an accepted attempt, before the [dtmax] and
    rejection limits (step_size_control.rs:12-39). *)
Definition proposed_dt (s : state) : num A :=
  let o := i_opts s in let c := i_cache s in
  let quot := radau_quot s in
  if o_modern_pred o && Nat.ltb 1 (S (accepts (i_stats s))) then
    let facgus := div A (mul A (div A (dtacc c) (i_dt s))
                          (powf A (div A (powi A (err c) 2) (erracc c)) (lit A 1 4))) (o_safe o) in
    div A (i_dt s) (nmax A quot (nmax A (o_facr o) (nmin A (o_facl o) facgus)))
  else div A (i_dt s) quot.
(** ... and after them. *)
Definition limited_dt (s : state) : num A :=
  mul A (i_tdir s) (nmin A (nabs A (proposed_dt s)) (o_dtmax (i_opts s))).
Definition next_dt (s : state) : num A :=
  if reject (i_cache s)
  then mul A (i_tdir s) (nmin A (nabs A (limited_dt s)) (nabs A (i_dt s))) else limited_dt s.

(** An accepted attempt takes [s] (the state after the error estimate) to [s']. *)
Record accepted (s s' : state) : Prop := mkAcc {
  ac_prob : same_problem s s';
  ac_t : i_t s' = add A (i_t s) (i_dt s);
  ac_u : i_u s' = tab (length (i_u s)) (fun i => add A (at_ (i_u s) i) (at_ (z3 (i_cache s)) i));
  ac_tprev : i_tprev s' = i_t s;
  ac_dtprev : i_dtprev s' = i_dt s;
  ac_uprev : i_uprev s' = i_uprev s;
  ac_ts : ts (i_sol s') = ts (i_sol s) ++ [i_t s'];
  ac_us : us (i_sol s') = us (i_sol s) ++ [i_u s'];
  ac_rc : rc (i_sol s') = if last (i_cache s) then RSuccess else rc (i_sol s);
  ac_accepts : accepts (i_stats s') = S (accepts (i_stats s));
  ac_steps : steps (i_stats s') = steps (i_stats s);
  ac_jev : jacobian_evals (i_stats s') = jacobian_evals (i_stats s);
  ac_rejects : rejects (i_stats s') = rejects (i_stats s);
  ac_nsing : nsing (i_cache s') = nsing (i_cache s);
  ac_first : first (i_cache s') = false;
  ac_caljac : caljac (i_cache s') = false;
  ac_scal : scal (i_cache s') = radau_scal (i_opts s) (i_u s');
  ac_cont : cont (i_cache s') =
     if o_dense (i_opts s) then set_head (length (i_u s)) (at_ (i_u s')) (radau_cont (length (i_u s)) (i_cache s))
     else radau_cont (length (i_u s)) (i_cache s);
  ac_keep : ip1 (i_cache s') = ip1 (i_cache s) /\ ip2 (i_cache s') = ip2 (i_cache s) /\
            e1 (i_cache s') = e1 (i_cache s) /\ e2r (i_cache s') = e2r (i_cache s) /\
            e2i (i_cache s') = e2i (i_cache s) /\
            z1 (i_cache s') = z1 (i_cache s) /\ z2 (i_cache s') = z2 (i_cache s) /\
            z3 (i_cache s') = z3 (i_cache s) /\ f1 (i_cache s') = f1 (i_cache s) /\
            f2 (i_cache s') = f2 (i_cache s) /\ f3 (i_cache s') = f3 (i_cache s) /\
            fac1 (i_cache s') = fac1 (i_cache s) /\ alphn (i_cache s') = alphn (i_cache s) /\
            betan (i_cache s') = betan (i_cache s);
  ac_bal : forall w, balance w s -> balance w s';
  ac_last : last (i_cache s) = true ->
     reject (i_cache s') = reject (i_cache s) /\ i_dt s' = dtopt (i_cache s) /\
     i_trace s' = i_trace s /\ last (i_cache s') = true /\ dtopt (i_cache s') = dtopt (i_cache s) /\
     u0 (i_cache s') = u0 (i_cache s) /\ dfdu (i_cache s') = dfdu (i_cache s) /\
     decompose (i_cache s') = decompose (i_cache s);
  ac_next : last (i_cache s) = false ->
     reject (i_cache s') = false /\ dtopt (i_cache s') = nmin A (i_dt s) (limited_dt s) /\
     u0 (i_cache s') = call_rhs (i_dudt s) (u0 (i_cache s)) (i_u s') (i_t s') (i_params s) /\
     (exists l, i_trace s' = l ++ EvF (i_t s') (i_u s') :: i_trace s /\
        Forall (fun e => ev_time e = i_t s') l) /\
     let reaches_end := leb A n0 (mul A (sub A (add A (i_t s') (div A (next_dt s) (o_quot1 (i_opts s))))
                                    (i_tfinal s)) (i_tdir s)) in
     (reaches_end = true -> i_dt s' = sub A (i_tfinal s) (i_t s') /\ last (i_cache s') = true /\
        decompose (i_cache s') = decompose (i_cache s)) /\
     (reaches_end = false -> last (i_cache s') = false /\
        ((i_dt s' = i_dt s /\ decompose (i_cache s') = false /\ dfdu (i_cache s') = dfdu (i_cache s) /\
          i_trace s' = EvF (i_t s') (i_u s') :: i_trace s /\
          leb A (o_quot1 (i_opts s)) (div A (next_dt s) (i_dt s)) = true /\
          leb A (div A (next_dt s) (i_dt s)) (o_quot2 (i_opts s)) = true) \/
         (i_dt s' = next_dt s /\ decompose (i_cache s') = decompose (i_cache s)))) }.


(** Which record fields the pieces of [radau_accept] change. *)
Lemma gustafsson_mem_frame (s : state) :
  let s' := gustafsson_mem s in
  s' = s <| i_cache := i_cache s <| dtacc := dtacc (i_cache s') |> <| erracc := erracc (i_cache s') |> |>.
Proof.
  cbv zeta. unfold gustafsson_mem. destruct (o_modern_pred (i_opts s)); destruct s; cbn; [reflexivity|].
  destruct i_cache; reflexivity.
Qed.

Lemma accept_dense_frame (s : state) :
  accept_dense s = s <| i_cache := i_cache s <| cont := cont (i_cache (accept_dense s)) |> |>.
Proof.
  unfold accept_dense. destruct (o_dense (i_opts s)); destruct s; cbn; [reflexivity|].
  destruct i_cache; reflexivity.
Qed.

Lemma gustafsson_dt_count (s : state) :
  gustafsson_dt (div A (i_dt s) (radau_quot s)) (radau_quot s) (accept_count s) = proposed_dt s.
Proof. reflexivity. Qed.

(** The state after recording the new point. *)
Definition accept_core (s : state) : state :=
  accept_record (accept_dense (accept_advance (gustafsson_mem (accept_count s)))).

Record core_frame (s s' : state) : Prop := mkCF {
  cf_prob : same_problem s s';
  cf_t : i_t s' = add A (i_t s) (i_dt s);
  cf_u : i_u s' = tab (length (i_u s)) (fun i => add A (at_ (i_u s) i) (at_ (z3 (i_cache s)) i));
  cf_tprev : i_tprev s' = i_t s;
  cf_dtprev : i_dtprev s' = i_dt s;
  cf_dt : i_dt s' = i_dt s;
  cf_uprev : i_uprev s' = i_uprev s;
  cf_ts : ts (i_sol s') = ts (i_sol s) ++ [i_t s'];
  cf_us : us (i_sol s') = us (i_sol s) ++ [i_u s'];
  cf_rc : rc (i_sol s') = rc (i_sol s);
  cf_stats : i_stats s' = i_stats s <| accepts ::= S |>;
  cf_trace : i_trace s' = i_trace s;
  cf_cont : cont (i_cache s') =
     if o_dense (i_opts s) then set_head (length (i_u s)) (at_ (i_u s')) (radau_cont (length (i_u s)) (i_cache s))
     else radau_cont (length (i_u s)) (i_cache s);
  cf_scal : scal (i_cache s') = radau_scal (i_opts s) (i_u s');
  cf_cache : i_cache s' = i_cache s <| first := false |> <| caljac := false |>
     <| dtacc := dtacc (i_cache s') |> <| erracc := erracc (i_cache s') |>
     <| cont := cont (i_cache s') |> <| scal := scal (i_cache s') |> }.

Lemma accept_count_frame (s : state) :
  accept_count s = s <| i_cache := i_cache s <| first := false |> |> <| i_stats := i_stats s <| accepts ::= S |> |>.
Proof. reflexivity. Qed.

Lemma accept_core_frame (s : state) : core_frame s (accept_core s).
Proof.
  unfold accept_core. rewrite accept_count_frame.
  set (s1 := s <| i_cache := _ |> <| i_stats := _ |>).
  rewrite (gustafsson_mem_frame s1). cbv zeta.
  generalize (dtacc (i_cache (gustafsson_mem s1))) as da.
  generalize (erracc (i_cache (gustafsson_mem s1))) as ea. intros ea da.
  unfold s1. clear s1.
  set (s2 := (_ <| i_cache := _ |>)).
  assert (accept_advance s2 =
    s <| i_tprev := i_t s |> <| i_dtprev := i_dt s |> <| i_t := add A (i_t s) (i_dt s) |>
      <| i_u := tab (length (i_u s)) (fun i => add A (at_ (i_u s) i) (at_ (z3 (i_cache s)) i)) |>
      <| i_stats := i_stats s <| accepts ::= S |> |>
      <| i_cache := i_cache s <| first := false |> <| dtacc := da |> <| erracc := ea |>
         <| cont := radau_cont (length (i_u s)) (i_cache s) |>
         <| scal := radau_scal (i_opts s)
              (tab (length (i_u s)) (fun i => add A (at_ (i_u s) i) (at_ (z3 (i_cache s)) i))) |> |>) as E.
  { reflexivity. }
  rewrite E. clear E s2.
  remember (radau_cont (length (i_u s)) (i_cache s)) as rc0 eqn:Erc.
  unfold accept_dense. destruct (o_dense (i_opts s)) eqn:Ed; cbn -[radau_scal tab set_head Nat.add app]; rewrite Ed.
  - constructor; try reflexivity.
    + repeat split.
    + cbn. rewrite Ed, tab_length, Erc. reflexivity.
  - constructor; try reflexivity.
    + repeat split.
    + cbn. rewrite Ed, Erc. reflexivity.
Qed.

(** What the last phase leaves alone. *)
Record next_frame (s s' : state) : Prop := mkNxF {
  nx_prob : same_problem s s';
  nx_point : same_point s s';
  nx_dtprev : i_dtprev s' = i_dtprev s;
  nx_stats : i_stats s' = i_stats s;
  nx_rc : rc (i_sol s') = rc (i_sol s);
  nx_bal : forall w, balance w s -> balance w s';
  nx_cache : i_cache s' = i_cache s <| dtopt := dtopt (i_cache s') |> <| reject := reject (i_cache s') |>
     <| last := last (i_cache s') |> <| dtfac := dtfac (i_cache s') |>
     <| decompose := decompose (i_cache s') |> <| dfdu := dfdu (i_cache s') |>;
  nx_trace : exists l, i_trace s' = l ++ i_trace s /\ Forall (fun e => ev_time e = i_t s) l }.

Lemma refresh_next_frame (s s' : state) : refresh_jac s = Ok s' ->
  next_frame s s' /\ i_dt s' = i_dt s /\ dtopt (i_cache s') = dtopt (i_cache s) /\
  reject (i_cache s') = reject (i_cache s) /\ last (i_cache s') = last (i_cache s) /\
  decompose (i_cache s') = decompose (i_cache s).
Proof.
  intros H. pose proof (fun w => refresh_jac_balance w _ _ H) as Hb.
  apply refresh_jac_inv in H as (df & l & -> & Hl & _). split; [|repeat split].
  constructor; try reflexivity; try exact Hb; [repeat split|repeat split|].
  exists l. split; [reflexivity|exact Hl].
Qed.

Lemma next_frame_trans a b c : next_frame a b -> next_frame b c -> next_frame a c.
Proof.
  intros [] []. constructor; try congruence; auto.
  - eapply same_problem_trans; eassumption.
  - eapply same_point_trans; eassumption.
  - rewrite nx_cache1, nx_cache0. apply radau_cache_ext; reflexivity.
  - destruct nx_trace0 as (l & E & H). destruct nx_trace1 as (l' & E' & H').
    exists (l' ++ l). rewrite E', E, app_assoc. split; [reflexivity|]. apply Forall_app. split; [|exact H].
    destruct nx_point0 as (_ & Et & _). rewrite Et in H'. exact H'.
Qed.

Lemma accept_finish_inv (s s' : state) : accept_finish s = Ok s' ->
  next_frame s s' /\ i_dt s' = i_dt s /\ dtopt (i_cache s') = dtopt (i_cache s) /\
  reject (i_cache s') = reject (i_cache s) /\ last (i_cache s') = last (i_cache s) /\
  decompose (i_cache s') = decompose (i_cache s).
Proof.
  unfold accept_finish. cbv zeta. set (s1 := s <| i_cache; dtfac := _ |>).
  assert (next_frame s s1 /\ i_dt s1 = i_dt s /\ dtopt (i_cache s1) = dtopt (i_cache s) /\
    reject (i_cache s1) = reject (i_cache s) /\ last (i_cache s1) = last (i_cache s) /\
    decompose (i_cache s1) = decompose (i_cache s)) as (F & E1 & E2 & E3 & E4 & E5).
  { unfold s1. split; [|repeat split]. constructor; try reflexivity; [repeat split|repeat split|auto|].
    exists []. auto. }
  destruct (ltb A _ _); intros H.
  - apply refresh_next_frame in H as (F' & E). split; [eapply next_frame_trans; eassumption|].
    destruct E as (? & ? & ? & ? & ?). repeat split; congruence.
  - inversion H; subst s'. auto 10.
Qed.

Lemma accept_next_inv dtnew (s s' : state) : accept_next dtnew s = Ok s' ->
  let lim := mul A (i_tdir s) (nmin A (nabs A dtnew) (o_dtmax (i_opts s))) in
  let nxt := if reject (i_cache s) then mul A (i_tdir s) (nmin A (nabs A lim) (nabs A (i_dt s))) else lim in
  let reaches_end := leb A n0 (mul A (sub A (add A (i_t s) (div A nxt (o_quot1 (i_opts s))))
                                    (i_tfinal s)) (i_tdir s)) in
  next_frame s s' /\ dtopt (i_cache s') = nmin A (i_dt s) lim /\ reject (i_cache s') = false /\
  (reaches_end = true -> i_dt s' = sub A (i_tfinal s) (i_t s) /\ last (i_cache s') = true /\
        decompose (i_cache s') = decompose (i_cache s)) /\
  (reaches_end = false -> last (i_cache s') = last (i_cache s) /\
        ((i_dt s' = i_dt s /\ decompose (i_cache s') = false /\ dfdu (i_cache s') = dfdu (i_cache s) /\
          i_trace s' = i_trace s /\ leb A (o_quot1 (i_opts s)) (div A nxt (i_dt s)) = true /\
          leb A (div A nxt (i_dt s)) (o_quot2 (i_opts s)) = true) \/
         (i_dt s' = nxt /\ decompose (i_cache s') = decompose (i_cache s)))).
Proof.
  unfold accept_next. cbv zeta.
  set (lim := mul A (i_tdir s) (nmin A (nabs A dtnew) (o_dtmax (i_opts s)))).
  set (s1 := s <| i_cache; dtopt := _ |>).
  change (i_tdir s1) with (i_tdir s). change (i_dt s1) with (i_dt s).
  change (reject (i_cache s1)) with (reject (i_cache s)).
  set (nxt := if reject (i_cache s) then _ else _).
  set (s2 := s1 <| i_cache; reject := false |>).
  assert (next_frame s s2 /\ dtopt (i_cache s2) = nmin A (i_dt s) lim /\ reject (i_cache s2) = false /\
    i_dt s2 = i_dt s /\ last (i_cache s2) = last (i_cache s) /\ decompose (i_cache s2) = decompose (i_cache s) /\
    dfdu (i_cache s2) = dfdu (i_cache s) /\ i_trace s2 = i_trace s)
    as (F2 & D2 & R2 & T2 & L2 & C2 & J2 & Tr2).
  { unfold s2, s1. split; [|repeat split]. constructor; try reflexivity; [repeat split|repeat split|auto|].
    exists []. auto. }
  change (i_t s2) with (i_t s). change (i_opts s2) with (i_opts s). change (i_tfinal s2) with (i_tfinal s).
  change (i_tdir s2) with (i_tdir s). rewrite T2.
  clearbody s2 nxt lim. clear s1. intros H.
  destruct (leb A n0 _) eqn:El.
  - match type of H with accept_finish ?x = _ => set (s3 := x) in H end.
    assert (next_frame s2 s3 /\ dtopt (i_cache s3) = dtopt (i_cache s2) /\
      reject (i_cache s3) = reject (i_cache s2) /\ last (i_cache s3) = true /\
      i_dt s3 = sub A (i_tfinal s) (i_t s) /\ decompose (i_cache s3) = decompose (i_cache s2))
      as (F3 & D3 & R3 & L3 & T3 & C3).
    { unfold s3. split; [|repeat split]. constructor; try reflexivity; [repeat split|repeat split|auto|].
      exists []. auto. }
    clearbody s3. apply accept_finish_inv in H as (F4 & E1 & E2 & E3 & E4 & E5).
    split; [eapply next_frame_trans; [eassumption|]; eapply next_frame_trans; eassumption|].
    split; [congruence|]. split; [congruence|]. split; [|discriminate]. intros _. repeat split; congruence.
  - set (s3 := s2 <| i_cache; dtfac := _ |>) in H.
    assert (next_frame s2 s3 /\ dtopt (i_cache s3) = dtopt (i_cache s2) /\
      reject (i_cache s3) = reject (i_cache s2) /\ last (i_cache s3) = last (i_cache s2) /\
      i_dt s3 = i_dt s2 /\ decompose (i_cache s3) = decompose (i_cache s2) /\
      dfdu (i_cache s3) = dfdu (i_cache s2) /\ i_trace s3 = i_trace s2 /\ i_opts s3 = i_opts s)
      as (F3 & D3 & R3 & L3 & T3 & C3 & J3 & Tr3 & O3).
    { unfold s3. split; [|repeat split]. 
      - constructor; try reflexivity; [repeat split|repeat split|auto|]. exists []. auto.
      - destruct F2 as [(_ & _ & _ & _ & _ & _ & Ho)]. exact Ho. }
    clearbody s3.
    destruct (leb A (theta (i_cache s3)) _ && leb A (o_quot1 (i_opts s3)) _ && _) eqn:Eq.
    + apply andb_prop in Eq as [Eq Eq3]. apply andb_prop in Eq as [_ Eq2]. rewrite O3 in Eq2, Eq3.
      set (s4 := s3 <| i_cache; decompose := false |>) in H.
      assert (next_frame s3 s4 /\ dtopt (i_cache s4) = dtopt (i_cache s3) /\
        reject (i_cache s4) = reject (i_cache s3) /\ last (i_cache s4) = last (i_cache s3) /\
        i_dt s4 = i_dt s3 /\ decompose (i_cache s4) = false /\
        dfdu (i_cache s4) = dfdu (i_cache s3) /\ i_trace s4 = i_trace s3)
        as (F4 & D4 & R4 & L4 & T4 & C4 & J4 & Tr4).
      { unfold s4. split; [|repeat split]. constructor; try reflexivity; [repeat split|repeat split|auto|].
        exists []. auto. }
      clearbody s4. inversion H; subst s'; clear H.
      split; [eapply next_frame_trans; [eassumption|]; eapply next_frame_trans; eassumption|].
      split; [congruence|]. split; [congruence|]. split; [discriminate|]. intros _.
      split; [congruence|]. left. repeat split; try congruence.
    + match type of H with accept_finish ?x = _ => set (s4 := x) in H end.
      assert (next_frame s3 s4 /\ dtopt (i_cache s4) = dtopt (i_cache s3) /\
        reject (i_cache s4) = reject (i_cache s3) /\ last (i_cache s4) = last (i_cache s3) /\
        i_dt s4 = nxt /\ decompose (i_cache s4) = decompose (i_cache s3))
        as (F4 & D4 & R4 & L4 & T4 & C4).
      { unfold s4. split; [|repeat split].
        constructor; try reflexivity; [repeat split|repeat split|auto|apply radau_cache_ext; reflexivity|].
        exists []. auto. }
      clearbody s4. apply accept_finish_inv in H as (F5 & E1 & E2 & E3 & E4 & E5).
      split; [eapply next_frame_trans; [eassumption|]; eapply next_frame_trans; [eassumption|];
              eapply next_frame_trans; eassumption|].
      split; [congruence|]. split; [congruence|]. split; [discriminate|]. intros _.
      split; [congruence|]. right. split; congruence.
Qed.

Lemma radau_accept_eq (s : state) :
  radau_accept (div A (i_dt s) (radau_quot s)) (radau_quot s) s =
  if last (i_cache (accept_core s)) then Ok (accept_done (accept_core s))
  else accept_next (proposed_dt s) (accept_eval (accept_core s)).
Proof. reflexivity. Qed.

Lemma accept_done_inv (s : state) :
  let s' := accept_done s in
  same_problem s s' /\ i_t s' = i_t s /\ i_u s' = i_u s /\ i_tprev s' = i_tprev s /\
  i_dtprev s' = i_dtprev s /\ i_uprev s' = i_uprev s /\ ts (i_sol s') = ts (i_sol s) /\
  us (i_sol s') = us (i_sol s) /\ rc (i_sol s') = RSuccess /\ i_stats s' = i_stats s /\
  i_cache s' = i_cache s /\ i_trace s' = i_trace s /\ i_dt s' = dtopt (i_cache s).
Proof. repeat split. Qed.

Lemma accept_eval_inv (s : state) :
  let s' := accept_eval s in
  same_problem s s' /\ i_t s' = i_t s /\ i_u s' = i_u s /\ i_tprev s' = i_tprev s /\
  i_dtprev s' = i_dtprev s /\ i_uprev s' = i_uprev s /\ i_sol s' = i_sol s /\
  accepts (i_stats s') = accepts (i_stats s) /\ steps (i_stats s') = steps (i_stats s) /\
  jacobian_evals (i_stats s') = jacobian_evals (i_stats s) /\
  rejects (i_stats s') = rejects (i_stats s) /\
  i_cache s' = i_cache s <| u0 := u0 (i_cache s') |> /\
  u0 (i_cache s') = call_rhs (i_dudt s) (u0 (i_cache s)) (i_u s) (i_t s) (i_params s) /\
  i_trace s' = EvF (i_t s) (i_u s) :: i_trace s /\ i_dt s' = i_dt s /\
  function_evals (i_stats s') = function_evals (i_stats s) + 1.
Proof. repeat split. Qed.

Lemma balance_same w (s s' : state) :
  i_trace s' = i_trace s -> function_evals (i_stats s') = function_evals (i_stats s) ->
  i_dfdu s' = i_dfdu s -> length (i_u s') = length (i_u s) -> balance w s -> balance w s'.
Proof. unfold balance. intros -> -> -> -> H. exact H. Qed.

Lemma next_keep (c c' : radau_cache A) :
  c' = c <| dtopt := dtopt c' |> <| reject := reject c' |> <| last := last c' |> <| dtfac := dtfac c' |>
          <| decompose := decompose c' |> <| dfdu := dfdu c' |> ->
nsing c' = nsing c /\ first c' = first c /\ caljac c' = caljac c /\ scal c' = scal c /\ cont c' = cont c /\ ip1 c' = ip1 c /\ ip2 c' = ip2 c /\ e1 c' = e1 c /\ e2r c' = e2r c /\ e2i c' = e2i c /\ z1 c' = z1 c /\ z2 c' = z2 c /\ z3 c' = z3 c /\ f1 c' = f1 c /\ f2 c' = f2 c /\ f3 c' = f3 c /\ fac1 c' = fac1 c /\ alphn c' = alphn c /\ betan c' = betan c /\ u0 c' = u0 c.
Proof.
  generalize (dtopt c') as a1, (reject c') as a2, (last c') as a3, (dtfac c') as a4, (decompose c') as a5,
    (dfdu c') as a6. intros a1 a2 a3 a4 a5 a6 ->. repeat split.
Qed.
Lemma eval_keep (c c' : radau_cache A) v : c' = c <| u0 := v |> ->
nsing c' = nsing c /\ first c' = first c /\ caljac c' = caljac c /\ scal c' = scal c /\ cont c' = cont c /\ ip1 c' = ip1 c /\ ip2 c' = ip2 c /\ e1 c' = e1 c /\ e2r c' = e2r c /\ e2i c' = e2i c /\ z1 c' = z1 c /\ z2 c' = z2 c /\ z3 c' = z3 c /\ f1 c' = f1 c /\ f2 c' = f2 c /\ f3 c' = f3 c /\ fac1 c' = fac1 c /\ alphn c' = alphn c /\ betan c' = betan c.
Proof. intros ->. repeat split. Qed.

Lemma accepted_intro (s s1 s' : state) : core_frame s s1 ->
  (if last (i_cache s1) then Ok (accept_done s1)
   else accept_next (proposed_dt s) (accept_eval s1)) = Ok s' -> accepted s s'.
Proof.
  intros Hc.
  assert (forall w, balance w s -> balance w s1) as Hbal.
  { intros w. apply balance_same.
    - exact (cf_trace _ _ Hc).
    - rewrite (cf_stats _ _ Hc). reflexivity.
    - destruct (cf_prob _ _ Hc) as (_ & _ & E & _). exact E.
    - rewrite (cf_u _ _ Hc). apply tab_length. }
  destruct Hc as [Hp Ht Hu Htp Hdp Hdt Hup Hts Hus Hrc Hst Htr Hcn Hsc Hca].
  assert (last (i_cache s1) = last (i_cache s)) as El by (rewrite Hca; reflexivity).
  assert (reject (i_cache s1) = reject (i_cache s)) as Er by (rewrite Hca; reflexivity).
  assert (dtopt (i_cache s1) = dtopt (i_cache s)) as Edo by (rewrite Hca; reflexivity).
  assert (decompose (i_cache s1) = decompose (i_cache s)) as Edc by (rewrite Hca; reflexivity).
  assert (u0 (i_cache s1) = u0 (i_cache s)) as Eu0 by (rewrite Hca; reflexivity).
  assert (dfdu (i_cache s1) = dfdu (i_cache s)) as Edf by (rewrite Hca; reflexivity).
  assert (nsing (i_cache s1) = nsing (i_cache s)) as Ens by (rewrite Hca; reflexivity).
  assert (first (i_cache s1) = false) as Efi by (rewrite Hca; reflexivity).
  assert (caljac (i_cache s1) = false) as Ecj by (rewrite Hca; reflexivity).
  assert (ip1 (i_cache s1) = ip1 (i_cache s) /\ ip2 (i_cache s1) = ip2 (i_cache s) /\
            e1 (i_cache s1) = e1 (i_cache s) /\ e2r (i_cache s1) = e2r (i_cache s) /\
            e2i (i_cache s1) = e2i (i_cache s) /\
            z1 (i_cache s1) = z1 (i_cache s) /\ z2 (i_cache s1) = z2 (i_cache s) /\
            z3 (i_cache s1) = z3 (i_cache s) /\ f1 (i_cache s1) = f1 (i_cache s) /\
            f2 (i_cache s1) = f2 (i_cache s) /\ f3 (i_cache s1) = f3 (i_cache s) /\
            fac1 (i_cache s1) = fac1 (i_cache s) /\ alphn (i_cache s1) = alphn (i_cache s) /\
            betan (i_cache s1) = betan (i_cache s)) as Ekeep by (rewrite Hca; repeat split).
  clear Hca. destruct (last (i_cache s1)) eqn:El1.
  - intros H. pose proof (accept_done_inv s1) as Hd. cbv zeta in Hd.
    assert (accept_done s1 = s') as H' by congruence. rewrite H' in Hd. clear H H'.
    destruct Hd as (Gp & Gt & Gu & Gtp & Gdp & Gup & Gts & Gus & Grc & Gst & Gca & Gtr & Gdt).
    constructor; try congruence.
    + exact (same_problem_trans _ _ _ Hp Gp).
    + rewrite <- El. exact Grc.
    + rewrite Gst, Hst. reflexivity.
    + rewrite Gst, Hst. reflexivity.
    + rewrite Gst, Hst. reflexivity.
    + rewrite Gst, Hst. reflexivity.
    + rewrite Gca, Gu. exact Hcn.
    + intros w Hw. apply Hbal in Hw. revert Hw. apply balance_same; try congruence.
      destruct Gp as (_ & _ & E & _). exact E.
    + intros _. repeat split; congruence.
  - intros H. pose proof (accept_eval_inv s1) as Hd. cbv zeta in Hd.
    assert (forall w, balance w s1 -> balance w (accept_eval s1)) as Hb2.
    { intros w Hw. unfold balance in *. 
      destruct Hd as (Gp & Gt & Gu & Gtp & Gdp & Gup & Gso & Ga & Gs & Gj & Gr & Gca & Gu0 & Gtr & Gdt & Gf).
      destruct Gp as (_ & _ & E & _).
      rewrite Gtr, rhs_calls_cons, jac_calls_cons, Gf, E, Gu. lia. }
    revert Hd Hb2 H. generalize (accept_eval s1) as s2. intros s2 Hd Hb2 H.
    destruct Hd as (Gp & Gt & Gu & Gtp & Gdp & Gup & Gso & Ga & Gs & Gj & Gr & Gca & Gu0 & Gtr & Gdt & Gf).
    apply accept_next_inv in H. cbv zeta in H.
    destruct H as (F & Do & Rj & Hend & Hcon).
    assert (same_problem s s2) as Hp2 by (eapply same_problem_trans; eassumption).
    pose proof Hp2 as (Q1 & _ & Q2 & Q3 & Q4 & Q5 & Q6).
    destruct F as [Fp Fpt Fdp Fst Frc Fb Fca (l & Fl & Fll)].
    pose proof Fpt as (Pu & Pt & Ptp & Pup & Pts & Pus).
    rewrite Q4, Q5, Q6, Gdt, Hdt in *.
    assert (reject (i_cache s2) = reject (i_cache s1) /\ decompose (i_cache s2) = decompose (i_cache s1) /\
      dfdu (i_cache s2) = dfdu (i_cache s1) /\ last (i_cache s2) = last (i_cache s1)) as (I1 & I2 & I3 & I4)
      by (rewrite Gca; repeat split).
    pose proof (next_keep _ _ Fca) as J. pose proof (eval_keep _ _ _ Gca) as K. clear Fca Gca.
    destruct J as (J1 & J2 & J3 & J4 & J5 & J6 & J7 & J8 & J9 & J10 & J11 & J12 & J13 & J14 & J15 & J16 & J17 & J18 & J19 & J20).
    destruct K as (K1 & K2 & K3 & K4 & K5 & K6 & K7 & K8 & K9 & K10 & K11 & K12 & K13 & K14 & K15 & K16 & K17 & K18 & K19).
    rewrite I1, Er in *. rewrite I2, Edc in *. rewrite I3, Edf in *. rewrite I4, El1 in *.
    constructor; try congruence.
    + exact (same_problem_trans _ _ _ Hp2 Fp).
    + rewrite <- El. congruence.
    + rewrite Fst, Ga, Hst. reflexivity.
    + rewrite Fst, Gs, Hst. reflexivity.
    + rewrite Fst, Gj, Hst. reflexivity.
    + rewrite Fst, Gr, Hst. reflexivity.
    + rewrite J5, K5, Pu, Gu. exact Hcn.
    + intros w Hw. auto.
    + intros _. split; [exact Rj|]. split; [exact Do|].
      split; [rewrite J20, Gu0; destruct Hp as (-> & _ & _ & -> & _); congruence|].
      split.
      { exists l. rewrite Fl, Gtr, Pt, Pu, Gt, Gu. split; [rewrite <- Htr; reflexivity|].
        rewrite <- Gt. exact Fll. }
      cbv zeta. unfold next_dt, limited_dt. rewrite Pt. rewrite Gt in *.
      split; intros E.
      * destruct (Hend E) as (E1 & E2 & E3). auto.
      * destruct (Hcon E) as (E1 & E2). split; [exact E1|].
        destruct E2 as [(E2 & E3 & E4 & E5 & E6 & E7)|(E2 & E3)]; [left|right; auto].
        repeat (split; [first [assumption|congruence]|]). assumption.
Qed.

Lemma radau_accept_inv (s s' : state) :
  radau_accept (div A (i_dt s) (radau_quot s)) (radau_quot s) s = Ok s' -> accepted s s'.
Proof. rewrite radau_accept_eq. apply accepted_intro. apply accept_core_frame. Qed.

(** ** One turn of the loop *)
Definition count_step (s : state) : state := s <| i_stats; steps ::= S |>.
Definition exit_with (r : retcode) (s : state) : state := s <| i_sol; rc := r |>.
Definition tiny_dt (s : state) : bool :=
  leb A (mul A (lit A 1 10) (nabs A (i_dt s))) (mul A (nabs A (i_t s)) (eps A)).
Definition force_decompose (s : state) : state := s <| i_cache; decompose := true |>.

Lemma step_size_control_eq (s : state) :
  step_size_control s =
  if ltb A (err (i_cache s)) n1
  then radau_accept (div A (i_dt (force_decompose s)) (radau_quot (force_decompose s)))
         (radau_quot (force_decompose s)) (force_decompose s)
  else radau_reject (div A (i_dt (force_decompose s)) (radau_quot (force_decompose s))) (force_decompose s).
Proof. reflexivity. Qed.

Lemma radau_attempt_cases fuel (s : state) r : radau_attempt fuel s = Ok r ->
  exists r1, (if decompose (i_cache s) then decomp_loop fuel s else Ok (inl s)) = Ok r1 /\
  match r1 with
  | inr s1 => r = inr s1
  | inl s1 => let s2 := count_step s1 in
     (o_max_steps (i_opts s2) <= steps (i_stats s2) /\ r = inr (exit_with RMaxIters s2)) \/
     (steps (i_stats s2) < o_max_steps (i_opts s2) /\ tiny_dt s2 = true /\
        r = inr (exit_with RDtLessThanMin s2)) \/
     (steps (i_stats s2) < o_max_steps (i_opts s2) /\ tiny_dt s2 = false /\
        exists s3, newton fuel s2 = Ok (s3, false) /\ r = inl s3) \/
     (steps (i_stats s2) < o_max_steps (i_opts s2) /\ tiny_dt s2 = false /\
        exists s3 s4 s5, newton fuel s2 = Ok (s3, true) /\ error_estimate s3 = Ok s4 /\
          step_size_control s4 = Ok s5 /\ r = if reject (i_cache s5) then inl s5 else inr s5)
  end.
Proof.
  unfold radau_attempt. intros H. apply bind_ok in H as (r1 & H1 & H). exists r1. split; [exact H1|].
  destruct r1 as [s1|s1]; [|inversion H; reflexivity]. cbv zeta.
  fold (count_step s1) in H. generalize dependent (count_step s1). clear. intros s2 H.
  destruct (Nat.leb_spec (o_max_steps (i_opts s2)) (steps (i_stats s2))) as [Hm|Hm].
  { left. split; [exact Hm|]. inversion H. reflexivity. }
  right. fold (tiny_dt s2) in H. destruct (tiny_dt s2) eqn:Et.
  { left. split; [exact Hm|]. split; [reflexivity|]. inversion H. reflexivity. }
  right. apply bind_ok in H as ([s3 ok] & H2 & H). destruct ok; cbn [negb] in H.
  - right. apply bind_ok in H as (s4 & H3 & H). apply bind_ok in H as (s5 & H4 & H).
    split; [exact Hm|]. split; [reflexivity|]. exists s3, s4, s5. split; [exact H2|]. split; [exact H3|].
    split; [exact H4|]. destruct (reject (i_cache s5)); inversion H; reflexivity.
  - left. split; [exact Hm|]. split; [reflexivity|]. exists s3. split; [exact H2|]. inversion H. reflexivity.
Qed.

Lemma count_step_quiet (s : state) : quiet s (count_step s).
Proof. constructor; [repeat split|repeat split|reflexivity..|cbn; lia|cbn; lia]. Qed.
Lemma exit_quiet r (s : state) : quiet s (exit_with r s).
Proof. constructor; [repeat split|repeat split|reflexivity..|cbn; lia|cbn; lia]. Qed.
Lemma count_step_bal w (s : state) : balance w s -> balance w (count_step s).
Proof. intros H; exact H. Qed.
Lemma exit_bal w r (s : state) : balance w s -> balance w (exit_with r s).
Proof. intros H; exact H. Qed.
Lemma force_quiet (s : state) : quiet s (force_decompose s).
Proof. constructor; [repeat split|repeat split|reflexivity..|cbn; lia|cbn; lia]. Qed.
Lemma force_bal w (s : state) : balance w s -> balance w (force_decompose s).
Proof. intros H; exact H. Qed.

(** The step size may be halved before the attempt proper. *)
Definition same_try (s s1 : state) : Prop :=
  (i_dt s1 = i_dt s /\ last (i_cache s1) = last (i_cache s) /\ reject (i_cache s1) = reject (i_cache s)) \/
  (reject (i_cache s1) = true /\ last (i_cache s1) = false /\ exists k, i_dt s1 = halve k (i_dt s)).

Record tried (s s1 : state) : Prop := mkTried {
  tr_quiet : quiet s s1;
  tr_bal : forall w, balance w s -> balance w s1;
  tr_steps : steps (i_stats s1) = S (steps (i_stats s));
  tr_max : steps (i_stats s1) < o_max_steps (i_opts s);
  tr_rc : rc (i_sol s1) = rc (i_sol s) }.

(** An attempt that was rejected: the step goes on. *)
Definition retried (s s' : state) : Prop :=
  tried s s' /\ reject (i_cache s') = true /\ last (i_cache s') = false.
(** An attempt that was accepted. *)
Definition took (s s' : state) : Prop :=
  exists s1, tried s s1 /\ same_try s s1 /\ ltb A (err (i_cache s1)) n1 = true /\
    decompose (i_cache s1) = true /\ rejects (i_stats s1) = rejects (i_stats s) /\ accepted s1 s'.
(** The step ends without a new point. *)
Definition gave_up (s s' : state) : Prop :=
  quiet s s' /\ (forall w, balance w s -> balance w s') /\
  steps (i_stats s') <= S (steps (i_stats s)) /\
  ((rc (i_sol s') = RMaxIters /\ o_max_steps (i_opts s) <= steps (i_stats s') /\
      steps (i_stats s') = S (steps (i_stats s))) \/
   (rc (i_sol s') = RDtLessThanMin /\ steps (i_stats s') < o_max_steps (i_opts s) /\
      steps (i_stats s') = S (steps (i_stats s)) /\
      leb A (mul A (lit A 1 10) (nabs A (i_dt s'))) (mul A (nabs A (i_t s')) (eps A)) = true) \/
   (rc (i_sol s') = RSingularMatrix /\ 5 <= nsing (i_cache s') /\ nsing (i_cache s) < nsing (i_cache s')) \/
   (rc (i_sol s') = rc (i_sol s) /\ rc (i_sol s) <> RContinue /\ nsing (i_cache s) < nsing (i_cache s'))).

Lemma radau_attempt_inv fuel (s : state) r : radau_attempt fuel s = Ok r ->
  match r with
  | inr s' => gave_up s s' \/ (took s s' /\ reject (i_cache s') = false)
  | inl s' => retried s s' \/ (took s s' /\ reject (i_cache s') = true)
  end.
Proof.
  intros H. apply radau_attempt_cases in H as (r1 & H1 & H).
  assert (match r1 with
    | inr s1 => quiet s s1 /\ (forall w, balance w s -> balance w s1) /\
        steps (i_stats s1) = steps (i_stats s) /\ nsing (i_cache s) < nsing (i_cache s1) /\
        ((rc (i_sol s1) = RSingularMatrix /\ 5 <= nsing (i_cache s1)) \/
         (rc (i_sol s1) = rc (i_sol s) /\ rc (i_sol s) <> RContinue))
    | inl s1 => quiet s s1 /\ (forall w, balance w s -> balance w s1) /\
        steps (i_stats s1) = steps (i_stats s) /\ rejects (i_stats s1) = rejects (i_stats s) /\
        rc (i_sol s1) = rc (i_sol s) /\ same_try s s1
    end) as HD.
  { destruct (decompose (i_cache s)).
    - apply decomp_loop_inv in H1. cbv zeta in H1.
      destruct H1 as (Hq & Hb & Hs & Hr & _ & _ & _ & H1). destruct r1 as [s1|s1].
      + destruct H1 as (Hrc & k & _ & Hk & Hk0 & Hk1). repeat (split; [assumption|]).
        destruct k as [|k].
        * left. destruct Hk0 as (_ & E1 & E2); [reflexivity|]. auto.
        * right. destruct Hk1 as (_ & E1 & E2 & _); [discriminate|]. split; [exact E1|]. split; [exact E2|].
          exists (S k). exact Hk.
      + destruct H1 as (Hn & H1). repeat (split; [assumption|]).
        destruct H1 as [H1|(H1 & H2 & _)]; auto.
    - inversion H1; subst r1. split; [apply quiet_refl|]. split; [auto|]. repeat (split; [reflexivity|]).
      left. auto. }
  clear H1. destruct r1 as [s1|s1].
  2: { subst r. left. destruct HD as (Hq & Hb & Hs & Hn & [[H1 H2]|[H1 H2]]);
       (split; [assumption|]; split; [assumption|]; split; [lia|]); auto 10. }
  destruct HD as (Hq & Hb & Hs & Hr & Hrc & Htry).
  assert (i_opts s1 = i_opts s) as Ho by (destruct (q_prob _ _ Hq) as (_ & _ & _ & _ & _ & _ & E); exact E).
  cbv zeta in H.
  assert (quiet s (count_step s1)) as Hq2 by (eapply quiet_trans; [exact Hq|apply count_step_quiet]).
  assert (forall w, balance w s -> balance w (count_step s1)) as Hb2 by (intros w Hw; apply count_step_bal; auto).
  assert (steps (i_stats (count_step s1)) = S (steps (i_stats s))) as Hs2 by (cbn; lia).
  assert (i_opts (count_step s1) = i_opts s) as Ho2 by exact Ho.
  assert (rc (i_sol (count_step s1)) = rc (i_sol s)) as Hrc2 by exact Hrc.
  assert (rejects (i_stats (count_step s1)) = rejects (i_stats s)) as Hr2 by exact Hr.
  assert (same_try s (count_step s1)) as Htry2 by exact Htry.
  revert H Hq2 Hb2 Hs2 Ho2 Hrc2 Hr2 Htry2. generalize (count_step s1) as s2. clear.
  intros s2 H Hq Hb Hs Ho Hrc Hr Htry. rewrite Ho in H.
  destruct H as [(Hm & ->)|[(Hm & Ht & ->)|[(Hm & Ht & s3 & H & ->)|(Hm & Ht & s3 & s4 & s5 & H1 & H2 & H3 & ->)]]].
  - left. split; [eapply quiet_trans; [exact Hq|apply exit_quiet]|]. split; [intros w Hw; apply exit_bal; auto|].
    split; [cbn; lia|]. left. repeat split; cbn; lia.
  - left. split; [eapply quiet_trans; [exact Hq|apply exit_quiet]|]. split; [intros w Hw; apply exit_bal; auto|].
    split; [cbn; lia|]. right. left. repeat split; try (cbn; lia). exact Ht.
  - left. apply newton_inv in H as (_ & _ & _ & H). destruct (H eq_refl) as (F & H1 & H2 & _).
    split; [|auto]. destruct F. constructor.
    + eapply quiet_trans; eassumption.
    + auto.
    + congruence.
    + rewrite nf_steps. exact Hm.
    + congruence.
  - apply newton_inv in H1 as (_ & _ & H1 & _). specialize (H1 eq_refl). destruct H1 as [F E1 E2 E3 _ _].
    assert (quiet s s3) as Hq3 by (eapply quiet_trans; [exact Hq|exact (nf_quiet _ _ F)]).
    assert (forall w, balance w s -> balance w s3) as Hb3 by (intros w Hw; apply (nf_bal _ _ F); auto).
    assert (steps (i_stats s3) = S (steps (i_stats s)) /\ rejects (i_stats s3) = rejects (i_stats s) /\
      rc (i_sol s3) = rc (i_sol s)) as (Hs3 & Hr3 & Hrc3).
    { destruct F. repeat split; congruence. }
    assert (same_try s s3) as Htry3.
    { destruct Htry as [(X1 & X2 & X3)|(X1 & X2 & k & X3)]; [left|right]; repeat split; try congruence.
      exists k. congruence. }
    assert (steps (i_stats s3) < o_max_steps (i_opts s)) as Hm3 by lia.
    clear F E1 E2 E3 Ht Hq Hb Hs Ho Hrc Hr Htry Hm.
    apply error_estimate_inv in H2 as [Fq Fb Fs Fr Fn Frc Fdt Fca _].
    assert (last (i_cache s4) = last (i_cache s3) /\ reject (i_cache s4) = reject (i_cache s3)) as (L4 & R4)
      by (rewrite Fca; split; reflexivity).
    clear Fca.
    rewrite step_size_control_eq in H3.
    assert (quiet s4 (force_decompose s4) /\ (forall w, balance w s4 -> balance w (force_decompose s4)) /\
      i_dt (force_decompose s4) = i_dt s4 /\ last (i_cache (force_decompose s4)) = last (i_cache s4) /\
      reject (i_cache (force_decompose s4)) = reject (i_cache s4) /\
      err (i_cache (force_decompose s4)) = err (i_cache s4) /\
      decompose (i_cache (force_decompose s4)) = true /\ i_stats (force_decompose s4) = i_stats s4 /\
      rc (i_sol (force_decompose s4)) = rc (i_sol s4))
      as (G1 & G2 & G3 & G4 & G5 & G6 & G7 & G8 & G9).
    { split; [apply force_quiet|]. split; [intros w; apply force_bal|]. repeat split. }
    revert H3 G1 G2 G3 G4 G5 G6 G7 G8 G9. generalize (force_decompose s4) as s4'. intros.
    assert (tried s s4') as Htr.
    { constructor.
      - eapply quiet_trans; [exact Hq3|]. eapply quiet_trans; [exact Fq|exact G1].
      - auto.
      - rewrite G8. congruence.
      - rewrite G8, Fs. exact Hm3.
      - congruence. }
    rewrite <- G6 in H3. destruct (ltb A (err (i_cache s4')) n1) eqn:Ee.
    + apply radau_accept_inv in H3.
      assert (took s s5) as Htk.
      { exists s4'. split; [exact Htr|]. split.
        { destruct Htry3 as [(X1 & X2 & X3)|(X1 & X2 & k & X3)]; [left|right]; repeat split; try congruence.
          exists k. congruence. }
        split; [exact Ee|]. split; [exact G7|]. split; [rewrite G8; congruence|exact H3]. }
      destruct (reject (i_cache s5)) eqn:Erj; right; auto.
    + apply radau_reject_inv in H3 as (Q1 & Q2 & Q3 & _ & Q4 & Q5 & Q6 & _).
      rewrite Q5. left. split; [|auto]. destruct Htr. constructor.
      * eapply quiet_trans; eassumption.
      * auto.
      * congruence.
      * rewrite Q3. assumption.
      * congruence.
Qed.
End RadauStep.
