(** From -0.999e-6 to -1e-30 in binary64, both algorithms: the right-hand side is called at time 0. *)
From Coq Require Import ZArith List Bool Reals.
From RecordUpdate Require Import RecordSet.
From Flocq Require Import BinarySingleNaN.
From Verif Require Import Arith Vec Core Driver DP5 Spec ArithF SpecF64 SpecF64R SpecEval Examples F64Ex Radau RadauEx RadauMonoEx.
Import ListNotations RecordSetNotations.

Lemma z_eval_beyond_ex :
  let b := z_dp5 (f_lit (-999) 1000000000) (fdiv (f_lit (-1) 1000000000000000) (f_lit 1000000000000000 1)) in
  f64_forward b /\ exists s0 s : integ XZ unit (dp5_cache XZ),
  build DormandPrince5 b = Ok s0 /\ reached DormandPrince5 None 5 1 s0 s /\
  exists e : event XZ, In e (i_trace s) /\ fltb (b_tfinal b) (call_time e) = true.
Proof.
  intros b. split; [apply z_forward; vm_compute; reflexivity|].
  destruct (arrives_ex (@DormandPrince5 XZ unit) b 5 0
    (fun s => existsb (fun e : event XZ => fltb (b_tfinal b) (call_time e)) (i_trace s))) as (s0 & s & H1 & H2 & H3).
  { vm_compute. reflexivity. }
  exists s0, s. split; [exact H1|]. split; [exact H2|]. apply existsb_exists in H3. exact H3.
Qed.

(** The same span for Radau5. *)
Definition v_radspan (t0 tf : f64) : builder XV unit := v_rad tf (f_lit 1 1000000) <| b_t := (t0 : num XV) |>.
Lemma v_eval_beyond_ex :
  let b := v_radspan (f_lit (-999) 1000000000) (fdiv (f_lit (-1) 1000000000000000) (f_lit 1000000000000000 1)) in
  radau_f64_forward b /\ exists s0 s : integ XV unit (radau_cache XV),
  build Radau5 b = Ok s0 /\ reached Radau5 None 60 1 s0 s /\
  exists e : event XV, In e (i_trace s) /\ fltb (b_tfinal b) (call_time e) = true.
Proof.
  intros b. split.
  { split; [exact (vpow_sane _ _)|]. repeat split; vm_compute; reflexivity. }
  destruct (arrives_ex radv b 60 0
    (fun s => existsb (fun e : event XV => fltb (b_tfinal b) (call_time e)) (i_trace s))) as (s0 & s & H1 & H2 & H3).
  { vm_compute. reflexivity. }
  exists s0, s. split; [exact H1|]. split; [exact H2|]. apply existsb_exists in H3. exact H3.
Qed.
