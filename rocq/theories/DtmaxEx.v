(** A DormandPrince5 run in binary64 whose recorded times are further apart than
    1.01 [dtmax]. *)
From Coq Require Import ZArith List Bool Lia Reals.
From RecordUpdate Require Import RecordSet.
From Flocq Require Import BinarySingleNaN.
From Verif Require Import Arith Vec Core Driver DP5 Spec ArithF Examples F64Ex SpecF64.
Import ListNotations RecordSetNotations.

(** The oscillator from 8e9 to 8e9 + 1 with [dtmax] 8e-7; [facl] keeps the
    second step from being much smaller than the first. *)
Definition z_coarse : builder XZ unit :=
  set_facl (f_lit 9 10 : num XZ) (set_dtmax (f_lit 8 10000000 : num XZ) (z_dp5 (f_lit 8000000000 1) (f_lit 8000000001 1))).

Lemma z_coarse_forward : f64_forward z_coarse.
Proof.
  split; [|repeat (split; [vm_compute; reflexivity|]); vm_compute; reflexivity].
  do 7 (split; [vm_compute; reflexivity|]). intros err He q. right. unfold q, zpow.
  destruct err as [s|s| |s m e Hm]; try (vm_compute; reflexivity). exfalso. destruct s; vm_compute in He; discriminate.
Qed.

Lemma z_gap_ex : f64_forward z_coarse /\ exists s0 s : integ XZ unit (dp5_cache XZ),
  build DormandPrince5 z_coarse = Ok s0 /\ reached DormandPrince5 None 5 2 s0 s /\
  exists t0 t t' : f64, ts (i_sol s) = [t0; t; t'] /\
  fltb (fmul (f_lit 101 100) (o_dtmax (b_opts z_coarse))) (fsub t' t) = true.
Proof.
  split; [apply z_coarse_forward|].
  destruct (arrives_ex (@DormandPrince5 XZ unit) z_coarse 5 1
    (fun s => match ts (i_sol s) with
       [_; t; t'] => fltb (fmul (f_lit 101 100) (o_dtmax (b_opts z_coarse))) (fsub t' t) | _ => false end))
    as (s0 & s & H1 & H2 & H3).
  { vm_compute. reflexivity. }
  exists s0, s. split; [exact H1|]. split; [exact H2|].
  destruct (ts (i_sol s)) as [|t0 [|t [|t' [|? ?]]]] eqn:E; try discriminate. exists t0, t, t'. split; [exact E|exact H3].
Qed.
