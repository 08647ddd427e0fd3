(** Callbacks that replace the state: Radau5 (C21). *)
From Coq Require Import ZArith List Bool Reals Lra.
From RecordUpdate Require Import RecordSet.
From Verif Require Import Arith Vec Core Spec Jacobian Linalg ArithF ArithR Radau SpecRK SpecLin SpecRadau SpecStage
  Examples RadauEx StageEx RadauREx RadauJump RadJumpEx RadJumpF StageForms.
Import ListNotations RecordSetNotations.
Local Open Scope R_scope.
Notation state inf P := (integ (RA inf) P (radau_cache (RA inf))).

(** After a callback that replaced [u], the recorded step solves the stage
    equations from the new [u].  Its error is tested against the point recorded
    before the callback ran: the tolerances are those at [u_recorded], and the
    estimate [v] (or the first of two) contains the derivative there. *)
Theorem C21_radau_callback_error_test :
  forall P inf (b : builder (RA inf) P) (g : state inf P -> list R) fuel k (s0 s s' : state inf P) r,
  let cb := Some (fun s : state inf P => s <| i_u := (g s : vec (RA inf)) |>) in
  overwrites (b_dudt b) -> b_u b <> [] -> 0 < o_reltol (b_opts b) -> 0 < o_abstol (b_opts b) ->
  (forall x, length (g x) = length (i_u x)) ->
  build Radau5 b = Ok s0 -> continues Radau5 cb fuel k s0 s ->
  step Radau5 cb fuel s = Ok (s', r) -> ts (i_sol s') <> ts (i_sol s) ->
  let n := length (b_u b) in
  let dt := i_t s' - i_t s in
  exists u_recorded u_next,
  let rms := tol_rms n (radau_atol (o_abstol (b_opts b)) (o_reltol (b_opts b))) (radau_rtol (o_reltol (b_opts b))) u_recorded in
  let f := fun y => b_dudt b (zeros n) y (i_t s) (b_params b) in
  last_opt (us (i_sol s)) = Some u_recorded /\ length u_recorded = n /\ us (i_sol s') = us (i_sol s) ++ [u_next] /\
  exists h J (tau : nat -> R) (y z : nat -> list R),
    let F := fun k i => b_dudt b (zeros n) (y k) (tau k) (b_params b) i in
    h <> 0 /\ square n J /\
    (forall k, (k < 3)%nat -> Rabs (tau k - (i_t s + radau_c k * dt)) <= 1 / 10^15 * Rabs dt) /\
    (forall i, (i < n)%nat -> comp u_next i = comp (i_u s) i + comp (z 2%nat) i) /\
    (blind n h J \/
      (forall i k, (i < n)%nat -> (k < 3)%nat ->
        Rabs (stage_defect n J h (i_u s) y z F i k) <= table_error n J h (i_u s) y z F i) /\
      exists v, rms v < 1 /\
       (filtered_estimate n J h dt z (f u_recorded) v \/
        exists v1 w, filtered_estimate n J h dt z (f u_recorded) v1 /\ 1 <= rms v1 /\
          length w = n /\ (forall i, (i < n)%nat -> comp w i = comp (i_u s) i + comp v1 i) /\
          In (EvF (A:=RA inf) (i_t s) w) (i_trace s') /\
          filtered_estimate n J h dt z (f w) v)).
Proof. intros P inf. exact (@radau_jump_test P inf). Qed.
Print Assumptions C21_radau_callback_error_test.
Example C21_radau_ex : forall inf, let b := r_rest inf 0 1 1 in
  let g := fun s : state inf unit => map (Rplus 1) (i_u s) in
  let cb := Some (fun s : state inf unit => s <| i_u := (g s : vec (RA inf)) |>) in
  overwrites (b_dudt b) /\ b_u b <> [] /\ 0 < o_reltol (b_opts b) /\ 0 < o_abstol (b_opts b) /\
  (forall x, length (g x) = length (i_u x)) /\ (forall h J, ~ blind (length (b_u b)) h J) /\
  exists s0 s s' r, build Radau5 b = Ok s0 /\ continues Radau5 cb 1 1 s0 s /\ step Radau5 cb 1 s = Ok (s', r) /\
    ts (i_sol s') <> ts (i_sol s) /\ last_opt (us (i_sol s)) <> Some (i_u s).
Proof.
  intros inf b g cb. destruct (error_ex inf) as (H1 & H2 & H3 & H4 & H5 & _).
  repeat (split; [assumption|]). split; [intros x; apply map_length|]. split; [exact H5|]. exact (lifted_two inf).
Qed.

(** C21 is false for Radau5 (in binary64): [u' = -u], a callback sets [u] to 50.
    An integrator built at that point with the same next step takes it at once
    and passes 0.08; the running one rejects it and stops before 0.05. *)
Theorem C21_radau_callback_restart_refuted : exists s0 s s2 f0 f1 m r r',
  build radh (x_decay (w 1 1) (w 0 1) (w 1 100)) = Ok s0 /\ step radh (Some x_raise) 60 s0 = Ok (s, Some m) /\
  step radh (Some x_raise) 60 s = Ok (s2, r) /\ rc (i_sol s2) = RContinue /\
  build radh (x_decay (w 50 1) (i_t s) (i_dt s)) = Ok f0 /\
  step radh None 60 f0 = Ok (f1, r') /\ rc (i_sol f1) = RContinue /\
  steps (i_stats f1) = 1%nat /\ (1 + steps (i_stats s) < steps (i_stats s2))%nat /\
  fltb (i_t s2) (w 5 100) = true /\ fltb (w 8 100) (i_t f1) = true.
Proof. exact radau_restart_ex. Qed.
Print Assumptions C21_radau_callback_restart_refuted.
