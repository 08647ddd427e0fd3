(** Binary64 runs of Radau5 in which the step equations are not those of the
    recorded step, or the error test sees no error. *)
From Coq Require Import ZArith List Bool Lia.
From RecordUpdate Require Import RecordSet.
From Verif Require Import Arith Vec Core Spec Jacobian Linalg ArithF Driver DP5 Radau Examples RadauEx.
Import ListNotations RecordSetNotations.

(** An oracle closer to the powers Radau5 takes: [a^(1/4)] for the step-size
    controller, [(1/1000)^(2/3) = 1/100] for the default tolerance, and
    [a^(3/4)] in place of [a^(4/5)] in the Newton iteration. *)
Definition hroot (a b : f64) : f64 :=
  if feqb b (f_lit 1 4) then nsqrt XF (nsqrt XF a)
  else if feqb a (f_lit 1 1000) && feqb b (fdiv (f_lit 2 1) (f_lit 3 1)) then f_lit 1 100
  else fmul (nsqrt XF a) (nsqrt XF (nsqrt XF a)).
Definition XH : arith := F64 hroot rpow.
Definition w (n : Z) (d : positive) : num XH := lit XH n d.
Notation radh := (@Radau5 XH unit).
Definition zjH : jac XH unit := fun _ _ _ _ _ _ => w 0 1.
Definition oneH : rhs XH unit := fun _ _ _ _ _ => w 1 1.

(** [u' = 1], [u(0) = 0] with its Jacobian and [dtmax = 1]. *)
Definition x_late : builder XH unit :=
  set_dtmax (w 1 1) (set_dfdu zjH (builder_default radh oneH [w 0 1] (w 0 1, w 3299643 1000000) tt)).
Lemma late_ex : exists s0 s, build radh x_late = Ok s0 /\ integrate radh None 60 50 s0 = Ok s /\
  rc (i_sol s) = RSuccess /\ feqb (i_t s) (w 3299643 1000000) = true /\
  fltb (at_ (i_u s) 0) (w 3299594 1000000) = true.
Proof.
  assert (match build radh x_late with
          | Ok s0 => match integrate radh None 60 50 s0 with
            | Ok s => rc_is RSuccess s && feqb (i_t s) (w 3299643 1000000) &&
                      fltb (at_ (i_u s) 0) (w 3299594 1000000) | _ => false end
          | _ => false end = true) as H by (vm_compute; reflexivity).
  destruct (build radh x_late) as [s0| |] eqn:E0; try discriminate H.
  destruct (integrate radh None 60 50 s0) as [s| |] eqn:E; try discriminate H.
  apply andb_true_iff in H as [H H3]. apply andb_true_iff in H as [H1 H2].
  exists s0, s. repeat split; try assumption. now apply rc_is_eq.
Qed.

(** The derivative is [v] at time 0 and a million later. *)
Definition jumpH (v : f64) : rhs XH unit := fun _ _ t _ _ => if leb XH t (w 0 1) then v else w 1000000 1.
Definition x_jump (v : f64) : builder XH unit :=
  set_dfdu zjH (builder_default radh (jumpH v) [w 0 1] (w 0 1, w 3 1) tt) <| b_dt := w 1 1 |>.
Lemma jump_ex : exists s0 s r a0 a q,
  build radh (x_jump fnan) = Ok s0 /\ step radh None 60 s0 = Ok (s, r) /\ rc (i_sol s) = RContinue /\
  feqb (i_t s) (w 1 1) = true /\
  build radh (x_jump (w 0 1)) = Ok a0 /\ step radh None 60 a0 = Ok (a, q) /\ rc (i_sol a) = RContinue /\
  fltb (i_t a) (w 1 1000000) = true.
Proof.
  assert (match build radh (x_jump fnan), build radh (x_jump (w 0 1)) with
          | Ok s0, Ok a0 => match step radh None 60 s0, step radh None 60 a0 with
            | Ok (s, _), Ok (a, _) => rc_is RContinue s && feqb (i_t s) (w 1 1) && rc_is RContinue a && fltb (i_t a) (w 1 1000000)
            | _, _ => false end
          | _, _ => false end = true) as H by (vm_compute; reflexivity).
  destruct (build radh (x_jump fnan)) as [s0| |] eqn:E0; try discriminate H.
  destruct (build radh (x_jump (w 0 1))) as [a0| |] eqn:E0'; try discriminate H.
  destruct (step radh None 60 s0) as [[s r]| |] eqn:E; try discriminate H.
  destruct (step radh None 60 a0) as [[a q]| |] eqn:E'; try discriminate H.
  apply andb_true_iff in H as [H H4]. apply andb_true_iff in H as [H H3]. apply andb_true_iff in H as [H1 H2].
  exists s0, s, r, a0, a, q. repeat split; try assumption; now apply rc_is_eq.
Qed.
