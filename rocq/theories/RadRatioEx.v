(** A Radau5 call in binary64 with a rejected attempt. *)
From Coq Require Import ZArith List Bool Lia Reals.
From Flocq Require Import BinarySingleNaN.
From Verif Require Import Arith Vec Core Driver Spec Radau ArithF Examples F64Ex SpecF64 SpecF64R RadauMonoEx.

Lemma v_reject_ex : let b := v_rad (f_lit 3 1) (f_lit 1 2) in
  radau_f64_forward b /\ fle (o_facr (b_opts b)) (o_facl (b_opts b)) /\ fle (o_facr (b_opts b)) (f_lit 1 1) /\
  exists (s0 s : integ XV unit (radau_cache XV)) r,
  build Radau5 b = Ok s0 /\ reached Radau5 None 60 0 s0 s0 /\ rc (i_sol s0) = RContinue /\
  step Radau5 None 60 s0 = Ok (s, r) /\ rc (i_sol s) = RContinue /\
  steps (i_stats s0) + 2 <= steps (i_stats s) /\ fltb (f_lit 1 100) (i_dtprev s) = true.
Proof.
  intros b. split; [apply v_forward; vm_compute; reflexivity|].
  split; [vm_compute; reflexivity|]. split; [vm_compute; reflexivity|].
  assert (match build radv b with
          | Ok s0 => match step radv None 60 s0 with
            | Ok (s, _) => retcode_eqb (rc (i_sol s0)) RContinue && retcode_eqb (rc (i_sol s)) RContinue &&
                Nat.leb (steps (i_stats s0) + 2) (steps (i_stats s)) && fltb (f_lit 1 100) (i_dtprev s)
            | _ => false end
          | _ => false end = true) as H by (vm_compute; reflexivity).
  destruct (build radv b) as [s0| |]; try discriminate H.
  destruct (step radv None 60 s0) as [[s r]| |] eqn:E; try discriminate H.
  apply andb_true_iff in H as [H H4]. apply andb_true_iff in H as [H H3]. apply andb_true_iff in H as [H1 H2].
  exists s0, s, r. split; [reflexivity|]. split; [constructor|]. split; [now apply retcode_eq|]. split; [exact E|].
  split; [now apply retcode_eq|]. split; [now apply Nat.leb_le|exact H4].
Qed.
