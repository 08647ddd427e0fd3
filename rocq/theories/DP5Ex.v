(** Lemmas in the exact form of PropDP5.v, and concrete runs. *)
From Coq Require Import ZArith List Bool Lia.
From RecordUpdate Require Import RecordSet.
From Verif Require Import Arith Vec Core Spec DP5 Driver VecFacts DP5Facts DP5Inv DP5Det Examples ArithF.
Import ListNotations RecordSetNotations.

Section Forms.
Context {A : arith} {P : Type}.
Notation state := (integ A P (dp5_cache A)).
Notation alg := (@DormandPrince5 A P).

Lemma dp5_budget_outcome (b : builder A P) (cb : callback A P (dp5_cache A)) fuel (s0 : state) :
  benign_callback cb -> build alg b = Ok s0 ->
  integrate alg cb fuel (S (o_max_steps (b_opts b))) s0 = OutOfFuel ->
  exists k (s : state), continues alg cb fuel k s0 s /\ step alg cb fuel s = OutOfFuel.
Proof.
  intros Hcb Hb H.
  assert (forall n (s : state), integrate alg cb fuel n s = OutOfFuel ->
    (exists k (s1 : state), continues alg cb fuel k s s1 /\ step alg cb fuel s1 = OutOfFuel) \/
    (exists s1 : state, continues alg cb fuel n s s1)) as Hg.
  { clear. induction n as [|n IH]; intros s H.
    - right. exists s. constructor.
    - cbn [integrate] in H. destruct (step alg cb fuel s) as [[s1 [m|]]| |] eqn:E; cbn [bind] in H;
        try discriminate.
      + apply IH in H as [(k & s2 & Hc & Hs)|(s2 & Hc)].
        * left. exists (S k), s2. split; [econstructor; eassumption|assumption].
        * right. exists s2. econstructor; eassumption.
      + left. exists 0, s. split; [constructor|assumption]. }
  apply Hg in H as [H|(s1 & Hc)]; [exact H|].
  pose proof (dp5_budget _ _ _ _ _ _ Hcb Hb Hc). lia.
Qed.

Lemma dp5_prev_fields fuel (s s' : state) r :
  step alg None fuel s = Ok (s', r) ->
  i_tprev s' = i_t s /\ i_uprev s' = i_u s /\ i_t s' = add A (i_tprev s') (i_dtprev s').
Proof.
  intros H. apply step_dp5_inv in H as (s1 & E & H). cbn [run_callback] in H. subst s1.
  open_effect E. repeat split; congruence.
Qed.

Lemma dp5_counters_form (b : builder A P) (cb : callback A P (dp5_cache A)) fuel k (s0 s : state) :
  benign_callback cb -> build alg b = Ok s0 -> steps_n alg cb fuel k s0 = Ok s ->
  rhs_calls (i_trace s) = function_evals (i_stats s) + 1 /\
  jac_calls (i_trace s) = 0 /\
  steps (i_stats s) = k /\ accepts (i_stats s) = k /\
  jacobian_evals (i_stats s) = 0 /\ decompositions (i_stats s) = 0 /\ linear_solves (i_stats s) = 0 /\
  exists early, (k = 0 -> early = 0) /\
    function_evals (i_stats s) = 6 * (accepts (i_stats s) + rejects (i_stats s) + early).
Proof.
  intros Hcb Hb H. pose proof (dp5_counters _ _ _ _ _ _ Hcb Hb H) as [Ce Cj Cs (Z1&Z2&Z3) (r0 & Ca & Cb)].
  pose proof (dp5_steps_count _ _ _ _ _ _ Hcb Hb H) as Hk.
  repeat split; try assumption; try lia.
  exists r0. split; [|assumption]. intros E. apply Cb. lia.
Qed.

Lemma dp5_evals_refuted (b : builder A P) (cb : callback A P (dp5_cache A)) fuel k (s0 s : state) :
  benign_callback cb -> build alg b = Ok s0 -> steps_n alg cb fuel k s0 = Ok s ->
  function_evals (i_stats s) <> rhs_calls (i_trace s).
Proof.
  intros Hcb Hb H. pose proof (dp5_counters_form _ _ _ _ _ _ Hcb Hb H) as (E & _). lia.
Qed.

Lemma dp5_frame_form (b : builder A P) fuel k (s0 s : state) :
  build alg b = Ok s0 -> steps_n alg None fuel k s0 = Ok s ->
  i_dudt s = b_dudt b /\ i_dfdu s = b_dfdu b /\ i_dfdt s = b_dfdt b /\ i_params s = b_params b /\
  i_tfinal s = b_tfinal b /\ i_opts s = b_opts b /\
  i_tdir s = copysign A n1 (sub A (b_tfinal b) (b_t b)).
Proof.
  intros Hb H. apply dp5_frame in H as (E1&E2&E3&E4&E5&E6&E7).
  apply dp5_build_inv in Hb as (?&?&?&?&_&_&_&_&_&_&?&?&?&_). repeat split; congruence.
Qed.

Lemma dp5_ignored_opts (b b' : builder A P) fuel k (s s' : state) :
  b' = b <| b_dfdt := b_dfdt b' |> <| b_dfdu := b_dfdu b' |> <| b_opts := b_opts b' |> ->
  (o_reltol (b_opts b') = o_reltol (b_opts b) /\ o_abstol (b_opts b') = o_abstol (b_opts b) /\
   o_dtmax (b_opts b') = o_dtmax (b_opts b) /\ o_max_steps (b_opts b') = o_max_steps (b_opts b) /\
   o_safe (b_opts b') = o_safe (b_opts b) /\ o_facr (b_opts b') = o_facr (b_opts b) /\
   o_facl (b_opts b') = o_facl (b_opts b) /\ o_beta (b_opts b') = o_beta (b_opts b) /\
   o_max_stiff (b_opts b') = o_max_stiff (b_opts b)) ->
  build alg b = Ok s -> build alg b' = Ok s' ->
  same_outcome same_results (steps_n alg None fuel k s) (steps_n alg None fuel k s') /\
  same_outcome same_results (integrate alg None fuel k s) (integrate alg None fuel k s').
Proof.
  intros E (?&?&?&?&?&?&?&?&Em) Hb Hb'.
  pose proof (f_equal b_dudt E) as F1. pose proof (f_equal b_params E) as F2.
  pose proof (f_equal b_u E) as F3. pose proof (f_equal b_t E) as F4.
  pose proof (f_equal b_dt E) as F5. pose proof (f_equal b_tfinal E) as F6.
  cbn in F1, F2, F3, F4, F5, F6. clear E.
  apply (dp5_ignored b b'); try assumption.
  constructor; try assumption. rewrite Em. tauto.
Qed.

Lemma dp5_stiff_dense (b : builder A P) m d fuel k (s s' : state) :
  o_max_stiff (b_opts b) <> 0 -> m <> 0 ->
  build alg b = Ok s -> build alg (set_max_stiff m (set_dense d b)) = Ok s' ->
  same_outcome same_results (steps_n alg None fuel k s) (steps_n alg None fuel k s') /\
  same_outcome same_results (integrate alg None fuel k s) (integrate alg None fuel k s').
Proof.
  intros Hm Hm' Hb Hb'.
  assert (opts_agree (b_opts b) (b_opts (set_max_stiff m (set_dense d b)))) as Ho.
  2:{ apply (dp5_ignored b (set_max_stiff m (set_dense d b))); try reflexivity; assumption. }
  constructor; try reflexivity. unfold set_max_stiff, set_dense. cbn. split; intros; contradiction.
Qed.

Lemma dp5_dtstart (b : builder A P) v fuel k (s s' : state) :
  build alg b = Ok s -> build alg (set_dtstart v b) = Ok s' ->
  same_outcome same_results (steps_n alg None fuel k s) (steps_n alg None fuel k s') /\
  same_outcome same_results (integrate alg None fuel k s) (integrate alg None fuel k s').
Proof.
  intros Hb Hb'. apply (dp5_ignored_opts b (set_dtstart v b)); try assumption; repeat split.
Qed.
End Forms.

(** ** Concrete runs *)
Notation dp5x := (@DormandPrince5 XF unit).

Lemma dp5_three_steps : exists s0 s,
  build dp5x x_dp5 = Ok s0 /\ steps_n dp5x None 10 3 s0 = Ok s /\ rc (i_sol s) = RContinue.
Proof.
  assert (match build dp5x x_dp5 with
          | Ok s0 => match steps_n dp5x None 10 3 s0 with
            | Ok s => retcode_eqb (rc (i_sol s)) RContinue | _ => false end
          | _ => false end = true) as H by (vm_compute; reflexivity).
  destruct (build dp5x x_dp5) as [s0| |] eqn:E0; try discriminate H.
  destruct (steps_n dp5x None 10 3 s0) as [s| |] eqn:E; try discriminate H.
  exists s0, s. repeat split; try assumption. now apply retcode_eqb_eq.
Qed.

(** A run that hits the step budget: [max_steps = 1]. *)
Lemma dp5_maxiters_ex : exists s0 s,
  build dp5x (set_max_steps 1 x_dp5) = Ok s0 /\
  integrate dp5x None 10 2 s0 = Ok s /\ rc (i_sol s) = RMaxIters /\ steps (i_stats s) = 2.
Proof.
  assert (match build dp5x (set_max_steps 1 x_dp5) with
          | Ok s0 => match integrate dp5x None 10 2 s0 with
            | Ok s => retcode_eqb (rc (i_sol s)) RMaxIters && Nat.eqb (steps (i_stats s)) 2 | _ => false end
          | _ => false end = true) as H by (vm_compute; reflexivity).
  destruct (build dp5x (set_max_steps 1 x_dp5)) as [s0| |] eqn:E0; try discriminate H.
  destruct (integrate dp5x None 10 2 s0) as [s| |] eqn:E; try discriminate H.
  apply andb_true_iff in H as [H1 H2].
  exists s0, s. repeat split; try assumption; [now apply retcode_eqb_eq|now apply Nat.eqb_eq].
Qed.

(** A right-hand side that adds to its output buffer. *)
Definition acc_rhs : rhs XF unit := fun d _ _ _ i => add XF (at_ d i) (x 1 1).
Definition one_rhs : rhs XF unit := fun _ _ _ _ _ => x 1 1.
Definition x_buf (f : rhs XF unit) : builder XF unit :=
  builder_default dp5x f [x 0 1] (x 0 1, x 3 1000000) tt.

(** [acc_rhs] and [one_rhs] write the same into a fresh (zero) buffer. *)
Lemma acc_one_fresh : forall u t n, call_rhs acc_rhs (zeros n) u t tt = call_rhs one_rhs (zeros n) u t tt.
Proof.
  intros u t n. unfold call_rhs, tab. rewrite zeros_length. apply map_ext_in.
  intros i Hi. apply in_seq in Hi. unfold acc_rhs, one_rhs.
  assert (at_ (zeros n : vec XF) i = n0) as ->.
  { unfold at_, zeros. generalize n i. clear. induction n as [|n IH]; intros [|i]; cbn; auto. }
  apply (BinarySingleNaN.B2SF_inj 53 1024). vm_compute. reflexivity.
Qed.

Lemma buffers_ex : exists s a s' a',
  build dp5x (x_buf one_rhs) = Ok s /\ build dp5x (x_buf acc_rhs) = Ok a /\
  steps_n dp5x None 10 2 s = Ok s' /\ steps_n dp5x None 10 2 a = Ok a' /\
  i_u s' <> i_u a'.
Proof.
  assert (match build dp5x (x_buf one_rhs), build dp5x (x_buf acc_rhs) with
          | Ok s, Ok a => match steps_n dp5x None 10 2 s, steps_n dp5x None 10 2 a with
            | Ok s', Ok a' => feqb (at_ (i_u s') 0) (at_ (i_u s') 0) && negb (feqb (at_ (i_u s') 0) (at_ (i_u a') 0))
            | _, _ => false end
          | _, _ => false end = true) as H by (vm_compute; reflexivity).
  destruct (build dp5x (x_buf one_rhs)) as [s| |] eqn:E0; try discriminate H.
  destruct (build dp5x (x_buf acc_rhs)) as [a| |] eqn:E1; try discriminate H.
  destruct (steps_n dp5x None 10 2 s) as [s'| |] eqn:E2; try discriminate H.
  destruct (steps_n dp5x None 10 2 a) as [a'| |] eqn:E3; try discriminate H.
  exists s, a, s', a'. repeat split; try assumption.
  intros E. cbn [Cache DormandPrince5] in *. rewrite <- E in H.
  apply andb_true_iff in H as [H1 H2]. rewrite H1 in H2. discriminate H2.
Qed.

(** [max_stiff = 0]: the first accepted attempt panics. *)
Lemma max_stiff_zero_ex : exists s0,
  build dp5x (set_max_stiff 0 x_dp5) = Ok s0 /\ step dp5x None 10 s0 = Panic.
Proof.
  assert (match build dp5x (set_max_stiff 0 x_dp5) with
          | Ok s0 => match step dp5x None 10 s0 with Panic => true | _ => false end
          | _ => false end = true) as H by (vm_compute; reflexivity).
  destruct (build dp5x (set_max_stiff 0 x_dp5)) as [s0| |] eqn:E0; try discriminate H.
  destruct (step dp5x None 10 s0) as [s| |] eqn:E; try discriminate H. eauto.
Qed.

(** Two integrators at the same point whose calls reject a different number of
    attempts. *)
Definition x_rej (dt : num XF) : builder XF unit :=
  set_safe (x 1 2) (set_reltol (x 1 1000)
    (builder_default dp5x osc [x 1 1; x 0 1] (x 0 1, x 100 1) tt)) <| b_dt := dt |>.

Lemma rejections_ex : exists s a s' a' r r',
  build dp5x (x_rej (x 1 1)) = Ok s /\ build dp5x (x_rej (x 4 1)) = Ok a /\
  step dp5x None 10 s = Ok (s', r) /\ step dp5x None 10 a = Ok (a', r') /\
  i_dtprev a' = i_dtprev s' /\
  function_evals (i_stats s') = 6 /\ function_evals (i_stats a') = 18.
Proof.
  assert (match build dp5x (x_rej (x 1 1)), build dp5x (x_rej (x 4 1)) with
          | Ok s, Ok a => match step dp5x None 10 s, step dp5x None 10 a with
            | Ok (s',_), Ok (a',_) => f_same (i_dtprev a') (i_dtprev s') &&
                Nat.eqb (function_evals (i_stats s')) 6 && Nat.eqb (function_evals (i_stats a')) 18
            | _, _ => false end
          | _, _ => false end = true) as H by (vm_compute; reflexivity).
  destruct (build dp5x (x_rej (x 1 1))) as [s| |] eqn:E0; try discriminate H.
  destruct (build dp5x (x_rej (x 4 1))) as [a| |] eqn:E1; try discriminate H.
  destruct (step dp5x None 10 s) as [[s' r]| |] eqn:E2; try discriminate H.
  destruct (step dp5x None 10 a) as [[a' r']| |] eqn:E3; try discriminate H.
  apply andb_true_iff in H as [H H3]. apply andb_true_iff in H as [H1 H2].
  exists s, a, s', a', r, r'. repeat split; try assumption.
  - now apply f_same_eq.
  - now apply Nat.eqb_eq.
  - now apply Nat.eqb_eq.
Qed.
Lemma osc_overwrites : overwrites osc.
Proof. intros d d' u t p [|i] _ _; reflexivity. Qed.

(** A callback that replaces [u]: the next step differs from the first step of
    an integrator built at the replaced point. *)
Definition x_jump (s : integ XF unit (dp5_cache XF)) : integ XF unit (dp5_cache XF) :=
  s <| i_u := [x 5 1; x 5 1] |>.
Lemma callback_stale_ex : exists s0 s s2 f0 f1 r r',
  build dp5x (x_rej (x 1 10)) = Ok s0 /\ steps_n dp5x (Some x_jump) 10 1 s0 = Ok s /\
  step dp5x (Some x_jump) 10 s = Ok (s2, r) /\
  build dp5x ((x_rej (x 1 10)) <| b_u := i_u s |> <| b_t := i_t s |> <| b_dt := i_dt s |>) = Ok f0 /\
  step dp5x None 10 f0 = Ok (f1, r') /\
  i_t s2 = i_t f1 /\ last_opt (us (i_sol s2)) <> last_opt (us (i_sol f1)).
Proof.
  assert (match build dp5x (x_rej (x 1 10)) with
   | Ok s0 => match steps_n dp5x (Some x_jump) 10 1 s0 with
     | Ok s => match step dp5x (Some x_jump) 10 s,
                 build dp5x ((x_rej (x 1 10)) <| b_u := i_u s |> <| b_t := i_t s |> <| b_dt := i_dt s |>) with
       | Ok (s2,_), Ok f0 => match step dp5x None 10 f0 with
          | Ok (f1,_) => f_same (i_t s2) (i_t f1) &&
             match last_opt (us (i_sol s2)), last_opt (us (i_sol f1)) with
             | Some (a :: _), Some (c :: _) => negb (f_same a c)
             | _, _ => false end
          | _ => false end
       | _, _ => false end
     | _ => false end
   | _ => false end = true) as H by (vm_compute; reflexivity).
  destruct (build dp5x (x_rej (x 1 10))) as [s0| |] eqn:E0; try discriminate H.
  destruct (steps_n dp5x (Some x_jump) 10 1 s0) as [s| |] eqn:E1; try discriminate H.
  destruct (step dp5x (Some x_jump) 10 s) as [[s2 r]| |] eqn:E2; try discriminate H.
  destruct (build dp5x (_ <| b_dt := i_dt s |>)) as [f0| |] eqn:E3; try discriminate H.
  destruct (step dp5x None 10 f0) as [[f1 r']| |] eqn:E4; try discriminate H.
  apply andb_true_iff in H as [H1 H2]. apply f_same_eq in H1.
  exists s0, s, s2, f0, f1, r, r'. do 6 (split; [assumption || reflexivity|]).
  intros E. rewrite E in H2. destruct (last_opt (us (i_sol f1))) as [[|a w]|]; try discriminate H2.
  assert (f_same a a = true) as Es.
  { clear. destruct a; cbn; rewrite ?Bool.eqb_reflx, ?Pos.eqb_refl, ?Z.eqb_refl; reflexivity. }
  rewrite Es in H2. discriminate H2.
Qed.
