(** Radau5: the shapes in which the properties are stated, and concrete runs
    in binary64. *)
From Coq Require Import ZArith List Bool Lia.
From RecordUpdate Require Import RecordSet.
From Verif Require Import Arith Vec Core Spec Jacobian Linalg ArithF Driver VecFacts DP5 DP5Facts DP5Inv LinFacts LinFactsC
  Radau RadauFacts RadauStep RadauInv RadauTerm RadauSafe RadauHist RadauSim RadauMore Examples.
Import ListNotations RecordSetNotations.

Section Forms.
Context {A : arith} {P : Type}.
Notation state := (integ A P (radau_cache A)).
Notation alg := (@Radau5 A P).

Lemma radau_recorded_wf (b : builder A P) (cb : callback A P (radau_cache A)) fuel k (s0 s : state) :
  benign_callback cb -> build alg b = Ok s0 -> steps_n alg cb fuel k s0 = Ok s ->
  length (ts (i_sol s)) = length (us (i_sol s)) /\
  length (ts (i_sol s)) = S (accepts (i_stats s)) /\
  hd_error (ts (i_sol s)) = Some (b_t b) /\ hd_error (us (i_sol s)) = Some (b_u b) /\
  Forall (fun u => length u = length (b_u b)) (us (i_sol s)).
Proof. intros Hcb Hb H. destruct (radau_recorded _ _ _ _ _ _ Hcb Hb H). repeat split; assumption. Qed.

Lemma radau_call_outcome (b : builder A P) fuel k (s0 s s' : state) r :
  build alg b = Ok s0 -> continues alg None fuel k s0 s -> step alg None fuel s = Ok (s', r) ->
  ((rc (i_sol s') = RContinue \/ rc (i_sol s') = RSuccess) /\
   ts (i_sol s') = ts (i_sol s) ++ [i_t s'] /\ us (i_sol s') = us (i_sol s) ++ [i_u s'] /\
   i_tprev s' = i_t s /\ i_t s' = add A (i_tprev s') (i_dtprev s')) \/
  ((rc (i_sol s') = RMaxIters \/ rc (i_sol s') = RDtLessThanMin \/ rc (i_sol s') = RSingularMatrix) /\
   ts (i_sol s') = ts (i_sol s) /\ us (i_sol s') = us (i_sol s) /\
   i_t s' = i_t s /\ i_u s' = i_u s /\ i_tprev s' = i_tprev s).
Proof.
  intros Hb Hc Hs.
  destruct (radau_continues_ready _ _ _ _ _ _ no_callback_benign Hb Hc) as (R1 & _).
  destruct (radau_reached_cases b None fuel k s0 s s' r no_callback_benign Hb Hc Hs) as (s1 & E & H).
  cbn [run_callback] in E. subst s1. destruct H as [(F & Hr)|(F & _)].
  - left. split; [exact Hr|]. destruct F. repeat split; try assumption. congruence.
  - right. destruct F as [[_ (Eu & Et & _ & Etp & Ets & Eus) _ _ _ _ _] _ _ Hrs].
    specialize (Hrs R1). split; [destruct Hrs as [(?&_)|[(?&_)|(?&_)]]; auto|]. repeat split; assumption.
Qed.

Lemma radau_opts_limits (o : opts A) :
  o_max_steps (radau_opts o) = o_max_steps o /\ o_max_newt_iter (radau_opts o) = o_max_newt_iter o.
Proof. unfold radau_opts. destruct (leb A _ _); split; reflexivity. Qed.

Lemma radau_step_returns (b : builder A P) (cb : callback A P (radau_cache A)) fuel k (s0 s : state) :
  benign_callback cb -> b_u b <> [] -> build alg b = Ok s0 -> steps_n alg cb fuel k s0 = Ok s ->
  o_max_steps (b_opts b) + o_max_newt_iter (b_opts b) + 5 <= fuel ->
  exists s' r, step alg cb fuel s = Ok (s', r) /\
    forall fuel', fuel <= fuel' -> step alg cb fuel' s = Ok (s', r).
Proof.
  intros Hcb Hu Hb H Hf. pose proof (radau_build_inv _ _ Hb) as Hbi.
  assert (0 < length (b_u b)) as Hn by (destruct (b_u b); [congruence|cbn; lia]).
  set (n := length (b_u b)) in *.
  assert (ssafe n s /\ i_opts s = radau_opts (b_opts b)) as [Hsafe Ho].
  { apply (steps_n_invariant alg cb fuel (fun x => ssafe n x /\ i_opts x = radau_opts (b_opts b))) with (k := k) (s := s0); [| |exact H].
    - intros x x' r [Hx1 Hx2] Hs. split.
      + pose proof (radau_safe_step n cb fuel x Hcb Hn Hx1) as Hfine. cbn [Cache Radau5] in *. rewrite Hs in Hfine. exact Hfine.
      + apply step_radau_inv in Hs as (x1 & Hs & ->). rewrite (bc_opts _ Hcb).
        apply radau_step_moves, same_problem_moves in Hs as [Hs _]. rewrite (same_problem_opts _ _ Hs). exact Hx2.
    - split; [exact (rb_safe _ _ Hbi)|apply (rb_prob _ _ Hbi)]. }
  destruct (radau_opts_limits (b_opts b)) as [E1 E2].
  assert (step_budget (i_opts s) <= fuel) as Hf' by (rewrite Ho; unfold step_budget; lia).
  pose proof (radau_step_fuel cb fuel s Hf') as Hno.
  pose proof (radau_safe_step n cb fuel s Hcb Hn Hsafe) as Hfine.
  destruct (step alg cb fuel s) as [[s' r]| |] eqn:E; [|destruct Hfine|congruence].
  exists s', r. split; [reflexivity|]. intros fuel' Hl.
  destruct (radau_step_mono cb fuel fuel' s Hl) as [E'|E']; congruence.
Qed.

Lemma radau_integrate_returns (b : builder A P) (cb : callback A P (radau_cache A)) fuel fuel2 (s0 : state) :
  benign_callback cb -> b_u b <> [] -> build alg b = Ok s0 ->
  o_max_steps (b_opts b) + o_max_newt_iter (b_opts b) + 5 <= fuel ->
  max 1 (o_max_steps (b_opts b)) <= fuel2 ->
  exists s, integrate alg cb fuel fuel2 s0 = Ok s /\ rc (i_sol s) <> RContinue /\
    steps (i_stats s) <= max 1 (o_max_steps (b_opts b)).
Proof.
  intros Hcb Hu Hb Hf Hf2. pose proof (radau_build_inv _ _ Hb) as Hbi.
  assert (i_opts s0 = radau_opts (b_opts b)) as Ho by apply (rb_prob _ _ Hbi).
  destruct (radau_opts_limits (b_opts b)) as [E1 E2].
  assert (integrate alg cb fuel fuel2 s0 <> OutOfFuel) as H1.
  { apply radau_integrate_fuel; [exact Hcb|rewrite Ho; unfold step_budget; lia|lia|].
    rewrite Ho, (rb_stats _ _ Hbi). cbn. lia. }
  destruct (radau_never_panics b cb fuel fuel2 s0 Hcb Hu Hb) as [_ H2].
  destruct (integrate alg cb fuel fuel2 s0) as [s| |] eqn:E; [|congruence|congruence].
  exists s. split; [reflexivity|]. split.
  - exact (integrate_finished _ _ _ _ _ _ E).
  - apply (radau_final_steps b cb fuel fuel2 s0 s Hcb Hb E).
Qed.

Lemma radau_frame_form (b : builder A P) fuel k (s0 s : state) :
  build alg b = Ok s0 -> steps_n alg None fuel k s0 = Ok s ->
  i_dudt s = b_dudt b /\ i_dfdu s = b_dfdu b /\ i_dfdt s = b_dfdt b /\ i_params s = b_params b /\
  i_tfinal s = b_tfinal b /\ i_opts s = i_opts s0 /\
  i_tdir s = copysign A n1 (sub A (b_tfinal b) (b_t b)).
Proof.
  intros Hb H. destruct (radau_frame b fuel k s0 s Hb H) as (?&?&?&?&?&Ho&?&?).
  assert (i_opts s0 = radau_opts (b_opts b)) as Ho0 by (apply radau_build_inv in Hb; apply (rb_prob _ _ Hb)).
  repeat split; try assumption. congruence.
Qed.

Lemma radau_uprev (b : builder A P) fuel k (s0 s : state) :
  build alg b = Ok s0 -> steps_n alg None fuel k s0 = Ok s -> i_uprev s = b_u b.
Proof. intros Hb H. apply (radau_frame b fuel k s0 s Hb H). Qed.

(** What [build()] does to the options. *)
Lemma radau_build_opts (b : builder A P) (s0 : state) : build alg b = Ok s0 ->
  let o := b_opts b in let o' := i_opts s0 in
  o_reltol o' = mul A (lit A 1 10) (powf A (o_reltol o) (div A (lit A 2 1) (lit A 3 1))) /\
  o_abstol o' = mul A (o_reltol o') (div A (o_abstol o) (o_reltol o)) /\
  (leb A (o_fnewt o) n0 = false -> o_fnewt o' = o_fnewt o) /\
  (leb A (o_fnewt o) n0 = true ->
   o_fnewt o' = nmax A (div A (mul A (lit A 10 1) (eps A)) (o_reltol o')) (nmin A (lit A 3 100) (nsqrt A (o_reltol o')))) /\
  o' = o <| o_reltol := o_reltol o' |> <| o_abstol := o_abstol o' |> <| o_fnewt := o_fnewt o' |>.
Proof.
  intros Hb o o'. apply radau_build_inv in Hb.
  assert (o' = radau_opts o) as -> by apply (rb_prob _ _ Hb). clear. unfold radau_opts.
  change (o_fnewt (radau_tols o)) with (o_fnewt o).
  destruct (leb A (o_fnewt o) n0) eqn:E; repeat split; try discriminate; destruct o; reflexivity.
Qed.

Lemma radau_ignored_opts (b b' : builder A P) fuel k (s s' : state) :
  b' = b <| b_dfdt := b_dfdt b' |> <| b_opts := b_opts b' |> ->
  (let o := b_opts b in
   exists dense dtstart max_stiff hess beta,
   b_opts b' = o <| o_dense := dense |> <| o_dtstart := dtstart |> <| o_max_stiff := max_stiff |>
                 <| o_hess := hess |> <| o_beta := beta |>) ->
  build alg b = Ok s -> build alg b' = Ok s' ->
  same_outcome same_results (steps_n alg None fuel k s) (steps_n alg None fuel k s') /\
  same_outcome same_results (integrate alg None fuel k s) (integrate alg None fuel k s').
Proof.
  intros E (v1 & v2 & v3 & v4 & v5 & Eo) Hb Hb'.
  pose proof (f_equal b_dudt E) as F1. pose proof (f_equal b_params E) as F2.
  pose proof (f_equal b_u E) as F3. pose proof (f_equal b_t E) as F4.
  pose proof (f_equal b_dt E) as F5. pose proof (f_equal b_tfinal E) as F6. pose proof (f_equal b_dfdu E) as F7.
  cbn in F1, F2, F3, F4, F5, F6, F7. clear E.
  apply (radau_ignored b b'); try assumption.
  constructor; rewrite Eo; reflexivity.
Qed.

Lemma radau_dtstart_hess (b : builder A P) v h fuel k (s s' : state) :
  build alg b = Ok s -> build alg (set_dtstart v (set_hess h b)) = Ok s' ->
  same_outcome same_results (steps_n alg None fuel k s) (steps_n alg None fuel k s') /\
  same_outcome same_results (integrate alg None fuel k s) (integrate alg None fuel k s').
Proof.
  intros Hb Hb'. apply (radau_ignored b (set_dtstart v (set_hess h b))); try reflexivity; try assumption.
  constructor; reflexivity.
Qed.
Lemma radau_stiff_dense (b : builder A P) m d fuel k (s s' : state) :
  build alg b = Ok s -> build alg (set_max_stiff m (set_dense d b)) = Ok s' ->
  same_outcome same_results (steps_n alg None fuel k s) (steps_n alg None fuel k s') /\
  same_outcome same_results (integrate alg None fuel k s) (integrate alg None fuel k s').
Proof.
  intros Hb Hb'. apply (radau_ignored b (set_max_stiff m (set_dense d b))); try reflexivity; try assumption.
  constructor; reflexivity.
Qed.

(** The buffer handed to the closure preset to anything. *)
Lemma radau_preset (b : builder A P) (preset : vec A -> vec A) fuel k (s s' : state) :
  overwrites (b_dudt b) -> (forall d, length (preset d) = length d) ->
  build alg b = Ok s -> build alg (b <| b_dudt := fun d => b_dudt b (preset d) |>) = Ok s' ->
  same_outcome same_numbers (steps_n alg None fuel k s) (steps_n alg None fuel k s') /\
  same_outcome same_numbers (integrate alg None fuel k s) (integrate alg None fuel k s').
Proof.
  intros Hf Hp. apply radau_same_closure. intros d u t p. unfold call_rhs, tab. apply map_ext_in. intros i Hi.
  apply in_seq in Hi. apply Hf; rewrite Hp; [reflexivity|lia].
Qed.

Lemma decomp_real_out (s s1 : state) ier : decomp_real s = Ok (s1, ier) ->
  exists m ip, dec (length (e1 (i_cache s))) (msub (scaled_eye (length (e1 (i_cache s))) (fac1 (i_cache s))) (dfdu (i_cache s)))
    (ip1 (i_cache s)) = Ok (ier, m, ip) /\ dfdu (i_cache s1) = dfdu (i_cache s) /\
    e2r (i_cache s1) = e2r (i_cache s) /\ ip2 (i_cache s1) = ip2 (i_cache s) /\
    alphn (i_cache s1) = alphn (i_cache s) /\ betan (i_cache s1) = betan (i_cache s).
Proof.
  unfold decomp_real. cbv zeta. destruct (dec _ _ _) as [[[i m] ip]| |]; cbn [bind]; try discriminate.
  intros H. inversion H; subst. exists m, ip. repeat split.
Qed.
Lemma decomp_complex_out (s s1 : state) ier : decomp_complex s = Ok (s1, ier) ->
  exists mr mi ip, decc (length (e2r (i_cache s)))
      (msub (scaled_eye (length (e2r (i_cache s))) (alphn (i_cache s))) (dfdu (i_cache s)))
      (scaled_eye (length (e2r (i_cache s))) (betan (i_cache s))) (ip2 (i_cache s)) = Ok (ier, mr, mi, ip).
Proof.
  unfold decomp_complex. cbv zeta. destruct (decc _ _ _ _) as [[[[i mr] mi] ip]| |]; cbn [bind]; try discriminate.
  intros H. inversion H; subst. exists mr, mi, ip. reflexivity.
Qed.

(** One round of decompositions. *)
Lemma radau_one_decomposition (s s' : state) ok : perform_decompositions s = Ok (s', ok) ->
  (exists ier m ip, dec (length (e1 (i_cache s))) (msub (scaled_eye (length (e1 (i_cache s))) (div A rU1 (i_dt s))) (dfdu (i_cache s)))
     (ip1 (i_cache s)) = Ok (ier, m, ip) /\
   (ier <> 0 -> ok = false) /\
   (ier = 0 -> exists ier2 mr mi ip', decc (length (e2r (i_cache s)))
      (msub (scaled_eye (length (e2r (i_cache s))) (div A rALPHA (i_dt s))) (dfdu (i_cache s)))
      (scaled_eye (length (e2r (i_cache s))) (div A rBETA (i_dt s))) (ip2 (i_cache s)) = Ok (ier2, mr, mi, ip') /\
      (ok = true <-> ier2 = 0))) /\
  (ok = true -> nsing (i_cache s') = nsing (i_cache s) /\ i_dt s' = i_dt s /\ rc (i_sol s') = rc (i_sol s)) /\
  (ok = false -> nsing (i_cache s') = S (nsing (i_cache s)) /\
     (nsing (i_cache s') < 5 -> i_dt s' = mul A (i_dt s) (lit A 1 2) /\ rc (i_sol s') = rc (i_sol s)) /\
     (5 <= nsing (i_cache s') -> i_dt s' = i_dt s /\ rc (i_sol s') = RSingularMatrix)).
Proof.
  intros H. split.
  - unfold perform_decompositions, guard in H. destruct (radau_shapes s); [|discriminate]. revert H.
    match goal with |- context [decomp_real ?x] => set (s1 := x) end. intros H.
    assert (e1 (i_cache s1) = e1 (i_cache s)) as E1 by reflexivity.
    assert (ip1 (i_cache s1) = ip1 (i_cache s)) as E2 by reflexivity.
    assert (fac1 (i_cache s1) = div A rU1 (i_dt s)) as E3 by reflexivity.
    assert (dfdu (i_cache s1) = dfdu (i_cache s)) as E4 by reflexivity.
    assert (e2r (i_cache s1) = e2r (i_cache s)) as E5 by reflexivity.
    assert (ip2 (i_cache s1) = ip2 (i_cache s)) as E6 by reflexivity.
    assert (alphn (i_cache s1) = div A rALPHA (i_dt s)) as E7 by reflexivity.
    assert (betan (i_cache s1) = div A rBETA (i_dt s)) as E8 by reflexivity.
    clearbody s1. apply bind_ok in H as ([s2 ier] & H1 & H).
    apply decomp_real_out in H1 as (m & ip & H1 & F4 & F5 & F6 & F7 & F8).
    rewrite E1, E2, E3, E4 in H1. rewrite E4 in F4. rewrite E5 in F5. rewrite E6 in F6. rewrite E7 in F7. rewrite E8 in F8.
    exists ier, m, ip. split; [exact H1|].
    destruct (Nat.eqb_spec ier 0) as [->|Hne].
    + split; [contradiction|]. intros _.
      apply bind_ok in H as ([s3 ier2] & H2 & H). apply decomp_complex_out in H2 as (mr & mi & ip' & H2).
      rewrite F4, F5, F6, F7, F8 in H2. exists ier2, mr, mi, ip'. split; [exact H2|].
      destruct (Nat.eqb_spec ier2 0) as [->|Hne].
      * apply (f_equal (fun r => match r with Ok p => snd p | _ => true end)) in H. cbn [snd] in H. subst ok. tauto.
      * apply decomp_failed_inv in H as (E & _). split; [congruence|contradiction].
    + split; [|contradiction]. intros _. now apply decomp_failed_inv in H as (E & _).
  - apply perform_decompositions_inv in H as (_ & _ & _ & _ & _ & _ & _ & H).
    destruct H as [(-> & ? & ? & ? & _)|(-> & ? & H)].
    + split; [auto|discriminate].
    + split; [discriminate|]. intros _. split; [assumption|]. destruct H as [(? & ? & ? & _)|(? & ? & ? & _)].
      * split; [auto|lia].
      * split; [lia|auto].
Qed.
End Forms.

(** ** Concrete runs *)
(** An oracle under which Newton's iteration converges: [powi] by repeated
    multiplication, [powf a b] is [a^(1/4)] for every [b]. *)
Definition rpow (a : f64) (k : Z) : f64 := Nat.iter (Z.to_nat k) (fun r => mul XF r a) (f_lit 1 1).
Definition rroot (a _ : f64) : f64 := nsqrt XF (nsqrt XF a).
Definition XG : arith := F64 rroot rpow.
Definition y (n : Z) (d : positive) : num XG := lit XG n d.
Definition oscG : rhs XG unit := fun _ u _ _ i => match i with O => at_ u 1 | _ => opp XG (at_ u 0) end.
Notation radx := (@Radau5 XG unit).
Definition x_rad : builder XG unit := builder_default radx oscG [y 1 1; y 0 1] (y 0 1, y 3 1000000) tt.
(** The same over [0,3] with initial step 1/2. *)
Definition x_rad3 : builder XG unit := x_rad <| b_tfinal := y 3 1 |> <| b_dt := y 1 2 |>.

Definition runs {A : arith} {P} (al : algorithm A P) (b : builder A P) fuel k (Q : integ A P (Cache al) -> bool) : bool :=
  match build al b with
  | Ok s0 => match steps_n al None fuel k s0 with Ok s => Q s | _ => false end
  | _ => false end.
Lemma runs_ex {A : arith} {P} (al : algorithm A P) (b : builder A P) fuel k Q :
  runs al b fuel k Q = true ->
  exists s0 s, build al b = Ok s0 /\ steps_n al None fuel k s0 = Ok s /\ Q s = true.
Proof.
  unfold runs. destruct (build al b) as [s0| |]; try discriminate.
  destruct (steps_n al None fuel k s0) as [s| |] eqn:E; try discriminate. intros H. exists s0, s. auto.
Qed.
Definition rc_is {A : arith} {P C} (r : retcode) (s : integ A P C) : bool := retcode_eqb (rc (i_sol s)) r.
Lemma rc_is_eq {A : arith} {P C} r (s : integ A P C) : rc_is r s = true -> rc (i_sol s) = r.
Proof. apply retcode_eqb_eq. Qed.

Lemma radau_run_ex : exists s0 s, build radx x_rad3 = Ok s0 /\ steps_n radx None 60 4 s0 = Ok s /\
  rc (i_sol s) = RContinue /\ accepts (i_stats s) = 4 /\ steps (i_stats s) = 5 /\
  rhs_calls (i_trace s) > function_evals (i_stats s) + 1 /\ jac_calls (i_trace s) = 2.
Proof.
  destruct (runs_ex radx x_rad3 60 4 (fun s => rc_is RContinue s && Nat.eqb (accepts (i_stats s)) 4 &&
    Nat.eqb (steps (i_stats s)) 5 && Nat.ltb (function_evals (i_stats s) + 1) (rhs_calls (i_trace s)) &&
    Nat.eqb (jac_calls (i_trace s)) 2)) as (s0 & s & H0 & H & HQ); [vm_compute; reflexivity|].
  apply andb_true_iff in HQ as [HQ H5]. apply andb_true_iff in HQ as [HQ H4]. apply andb_true_iff in HQ as [HQ H3].
  apply andb_true_iff in HQ as [H1 H2]. exists s0, s. repeat split; try assumption.
  - now apply rc_is_eq.
  - now apply Nat.eqb_eq.
  - now apply Nat.eqb_eq.
  - apply Nat.ltb_lt in H4. exact H4.
  - now apply Nat.eqb_eq.
Qed.

(** Iterating over the whole run. *)
Lemma radau_iter_ex : exists s0 s items,
  build radx x_rad = Ok s0 /\ iter_collect radx None 60 100 s0 = Ok (s, items) /\
  length items = 1 /\ length (points s) = 3 /\ rc (i_sol s) = RSuccess.
Proof.
  assert (match build radx x_rad with
          | Ok s0 => match iter_collect radx None 60 100 s0 with
            | Ok (s, items) => Nat.eqb (length items) 1 && Nat.eqb (length (points s)) 3 && rc_is RSuccess s | _ => false end
          | _ => false end = true) as H by (vm_compute; reflexivity).
  destruct (build radx x_rad) as [s0| |] eqn:E0; try discriminate H.
  destruct (iter_collect radx None 60 100 s0) as [[s items]| |] eqn:E; try discriminate H.
  apply andb_true_iff in H as [H H3]. apply andb_true_iff in H as [H1 H2].
  exists s0, s, items. repeat split; try assumption; try now apply Nat.eqb_eq. now apply rc_is_eq.
Qed.

(** A run that ends in [MaxIters]. *)
Lemma radau_maxiters_ex : exists s0 s,
  build radx (set_max_steps 3 x_rad3) = Ok s0 /\ integrate radx None 15 3 s0 = Ok s /\
  rc (i_sol s) = RMaxIters /\ steps (i_stats s) = 3.
Proof.
  assert (match build radx (set_max_steps 3 x_rad3) with
          | Ok s0 => match integrate radx None 15 3 s0 with
            | Ok s => rc_is RMaxIters s && Nat.eqb (steps (i_stats s)) 3 | _ => false end
          | _ => false end = true) as H by (vm_compute; reflexivity).
  destruct (build radx (set_max_steps 3 x_rad3)) as [s0| |] eqn:E0; try discriminate H.
  destruct (integrate radx None 15 3 s0) as [s| |] eqn:E; try discriminate H.
  apply andb_true_iff in H as [H1 H2]. exists s0, s. repeat split; try assumption.
  - now apply rc_is_eq.
  - now apply Nat.eqb_eq.
Qed.

(** [uprev] is not the state before the last call. *)
Lemma radau_uprev_ex : exists s0 s s' r r',
  build radx x_rad3 = Ok s0 /\ step radx None 60 s0 = Ok (s, r) /\ step radx None 60 s = Ok (s', r') /\
  rc (i_sol s') = RContinue /\ i_uprev s' <> i_u s.
Proof.
  assert (match build radx x_rad3 with
          | Ok s0 => match step radx None 60 s0 with
            | Ok (s, _) => match step radx None 60 s with
              | Ok (s', _) => rc_is RContinue s' && negb (f_same (at_ (A := XG) (i_uprev s') 0) (at_ (A := XG) (i_u s) 0)) | _ => false end | _ => false end
          | _ => false end = true) as H by (vm_compute; reflexivity).
  destruct (build radx x_rad3) as [s0| |] eqn:E0; try discriminate H.
  destruct (step radx None 60 s0) as [[s r]| |] eqn:E; try discriminate H.
  destruct (step radx None 60 s) as [[s' r']| |] eqn:E'; try discriminate H.
  apply andb_true_iff in H as [H1 H2]. exists s0, s, s', r, r'. repeat split; try assumption.
  - now apply rc_is_eq.
  - intros Eu. rewrite Eu in H2. revert H2. generalize (at_ (A := XG) (i_u s) 0). intros v.
    assert (f_same v v = true) as ->; [|discriminate].
    destruct v as [b|b| |b m e h]; cbn; rewrite ?Bool.eqb_reflx, ?Pos.eqb_refl, ?Z.eqb_refl; reflexivity.
Qed.

(** Accumulating right-hand sides. *)
Definition accG : rhs XG unit := fun d _ _ _ i => add XG (at_ d i) (y 1 1).
Definition oneG : rhs XG unit := fun _ _ _ _ _ => y 1 1.
Definition x_bufG (f : rhs XG unit) : builder XG unit := builder_default radx f [y 0 1] (y 0 1, y 1 1000) tt.
Lemma accG_oneG_fresh : forall u t n, call_rhs accG (zeros n) u t tt = call_rhs oneG (zeros n) u t tt.
Proof.
  intros u t n. unfold call_rhs, tab. rewrite zeros_length. apply map_ext_in.
  intros i Hi. apply in_seq in Hi. unfold accG, oneG.
  assert (at_ (zeros n : vec XG) i = n0) as ->.
  { unfold at_, zeros. generalize n i. clear. induction n as [|n IH]; intros [|i]; cbn; auto. }
  apply (BinarySingleNaN.B2SF_inj 53 1024). vm_compute. reflexivity.
Qed.
Lemma radau_buffers_ex : exists s a s' a',
  build radx (x_bufG oneG) = Ok s /\ build radx (x_bufG accG) = Ok a /\
  steps_n radx None 20 1 s = Ok s' /\ steps_n radx None 20 1 a = Ok a' /\ i_u s' <> i_u a'.
Proof.
  assert (match build radx (x_bufG oneG), build radx (x_bufG accG) with
          | Ok s, Ok a => match steps_n radx None 20 1 s, steps_n radx None 20 1 a with
             | Ok s', Ok a' => negb (f_same (at_ (A := XG) (i_u s') 0) (at_ (A := XG) (i_u a') 0)) | _, _ => false end
          | _, _ => false end = true) as H by (vm_compute; reflexivity).
  destruct (build radx (x_bufG oneG)) as [s| |] eqn:E0; try discriminate H.
  destruct (build radx (x_bufG accG)) as [a| |] eqn:E1; try discriminate H.
  destruct (steps_n radx None 20 1 s) as [s'| |] eqn:E2; try discriminate H.
  destruct (steps_n radx None 20 1 a) as [a'| |] eqn:E3; try discriminate H.
  exists s, a, s', a'. repeat split; try assumption. intros Eu. rewrite Eu in H. revert H.
  generalize (at_ (A := XG) (i_u a') 0). intros v.
  assert (f_same v v = true) as ->; [|discriminate].
  destruct v as [b|b| |b m e h]; cbn; rewrite ?Bool.eqb_reflx, ?Pos.eqb_refl, ?Z.eqb_refl; reflexivity.
Qed.

(** A right-hand side whose user Jacobian hits the singular iteration matrix
    at each of the five halved steps. *)
Definition singG : jac XG unit := fun d _ _ _ _ _ =>
  if eqb XG (at_ (nth 0 d []) 0) n0 then div XG rU1 (y 1 1000000) else mul XG (y 2 1) (at_ (nth 0 d []) 0).
Definition x_singG : builder XG unit := x_bufG oneG <| b_dfdu := Some singG |>.
Lemma radau_singular_ex : exists s0 s,
  build radx x_singG = Ok s0 /\ reached radx None 20 1 s0 s /\ rc (i_sol s) = RSingularMatrix.
Proof.
  destruct (runs_ex radx x_singG 20 1 (rc_is RSingularMatrix)) as (s0 & s & H0 & H & HQ); [vm_compute; reflexivity|].
  exists s0, s. split; [exact H0|]. split; [|now apply rc_is_eq].
  cbn [steps_n] in H. apply bind_ok in H as ([s1 r] & H & E). inversion E; subst s1.
  eapply reached_S; [apply cont_0|exact H].
Qed.

(** A finished integrator is not left alone. *)
Lemma radau_finished_ex : exists s0 s s' r,
  build radx x_rad = Ok s0 /\ integrate radx None 60 10 s0 = Ok s /\ rc (i_sol s) = RSuccess /\
  step radx None 60 s = Ok (s', r) /\ rc (i_sol s') = RDtLessThanMin.
Proof.
  assert (match build radx x_rad with
          | Ok s0 => match integrate radx None 60 10 s0 with
            | Ok s => match step radx None 60 s with Ok (s', _) => rc_is RSuccess s && rc_is RDtLessThanMin s' | _ => false end
            | _ => false end
          | _ => false end = true) as H by (vm_compute; reflexivity).
  destruct (build radx x_rad) as [s0| |] eqn:E0; try discriminate H.
  destruct (integrate radx None 60 10 s0) as [s| |] eqn:E; try discriminate H.
  destruct (step radx None 60 s) as [[s' r]| |] eqn:E'; try discriminate H.
  apply andb_true_iff in H as [H1 H2]. exists s0, s, s', r. repeat split; try assumption; now apply rc_is_eq.
Qed.

(** A Radau5 run over an empty span. *)
Lemma radau_empty_span_ex : exists s0 s r,
  build radx (x_rad <| b_tfinal := y 0 1 |>) = Ok s0 /\ step radx None 60 s0 = Ok (s, r) /\
  rc (i_sol s) = RDtLessThanMin.
Proof.
  assert (match build radx (x_rad <| b_tfinal := y 0 1 |>) with
          | Ok s0 => match step radx None 60 s0 with Ok (s, _) => rc_is RDtLessThanMin s | _ => false end
          | _ => false end = true) as H by (vm_compute; reflexivity).
  destruct (build radx (x_rad <| b_tfinal := y 0 1 |>)) as [s0| |] eqn:E0; try discriminate H.
  destruct (step radx None 60 s0) as [[s r]| |] eqn:E; try discriminate H.
  exists s0, s, r. repeat split; try assumption; now apply rc_is_eq.
Qed.
Lemma oscG_overwrites : overwrites oscG.
Proof. intros d d' u t p i _ _. reflexivity. Qed.
