(** A callback that replaces [u] and the error test of Radau5, in binary64. *)
From Coq Require Import ZArith List Bool Lia.
From RecordUpdate Require Import RecordSet.
From Verif Require Import Arith Vec Core Spec Jacobian Linalg ArithF Driver DP5 Radau Examples RadauEx StageEx.
Import ListNotations RecordSetNotations.

(** [u' = -u], [u(0) = 1] over [0, 1], with its Jacobian and an initial step of
    [1/100]; a callback that sets [u] to fifty. *)
Definition decayH : rhs XH unit := fun _ u _ _ i => sub XH (w 0 1) (at_ u i).
Definition decay_jac : jac XH unit := fun _ _ _ _ _ _ => sub XH (w 0 1) (w 1 1).
Definition x_decay (u t dt : num XH) : builder XH unit :=
  set_dfdu decay_jac (builder_default radh decayH [u] (t, w 1 1) tt) <| b_dt := dt |>.
Definition x_raise (s : integ XH unit (radau_cache XH)) : integ XH unit (radau_cache XH) := s <| i_u := [w 50 1] |>.
Lemma radau_restart_ex : exists s0 s s2 f0 f1 m r r',
  build radh (x_decay (w 1 1) (w 0 1) (w 1 100)) = Ok s0 /\ step radh (Some x_raise) 60 s0 = Ok (s, Some m) /\
  step radh (Some x_raise) 60 s = Ok (s2, r) /\ rc (i_sol s2) = RContinue /\
  build radh (x_decay (w 50 1) (i_t s) (i_dt s)) = Ok f0 /\
  step radh None 60 f0 = Ok (f1, r') /\ rc (i_sol f1) = RContinue /\
  steps (i_stats f1) = 1 /\ 1 + steps (i_stats s) < steps (i_stats s2) /\ fltb (i_t s2) (w 5 100) = true /\ fltb (w 8 100) (i_t f1) = true.
Proof.
  assert (match build radh (x_decay (w 1 1) (w 0 1) (w 1 100)) with
   | Ok s0 => match step radh (Some x_raise) 60 s0 with
     | Ok (s, Some _) => match step radh (Some x_raise) 60 s, build radh (x_decay (w 50 1) (i_t s) (i_dt s)) with
       | Ok (s2,_), Ok f0 => match step radh None 60 f0 with
          | Ok (f1,_) => rc_is RContinue s2 && rc_is RContinue f1 && Nat.eqb (steps (i_stats f1)) 1 &&
              Nat.ltb (1 + steps (i_stats s)) (steps (i_stats s2)) && fltb (i_t s2) (w 5 100) && fltb (w 8 100) (i_t f1)
          | _ => false end
       | _, _ => false end
     | _ => false end
   | _ => false end = true) as H by (vm_compute; reflexivity).
  destruct (build radh (x_decay (w 1 1) _ _)) as [s0| |] eqn:E0; try discriminate H.
  destruct (step radh (Some x_raise) 60 s0) as [[s [m|]]| |] eqn:E1; try discriminate H.
  destruct (step radh (Some x_raise) 60 s) as [[s2 r]| |] eqn:E2; try discriminate H.
  destruct (build radh (x_decay (w 50 1) (i_t s) (i_dt s))) as [f0| |] eqn:E3; try discriminate H.
  destruct (step radh None 60 f0) as [[f1 r']| |] eqn:E4; try discriminate H.
  apply andb_true_iff in H as [H H6]. apply andb_true_iff in H as [H H5]. apply andb_true_iff in H as [H H4].
  apply andb_true_iff in H as [H H3]. apply andb_true_iff in H as [H1 H2].
  exists s0, s, s2, f0, f1, m, r, r'. repeat split; try assumption; try (now apply rc_is_eq).
  - now apply Nat.eqb_eq.
  - now apply Nat.ltb_lt.
Qed.
