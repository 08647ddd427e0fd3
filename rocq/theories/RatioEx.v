(** A DormandPrince5 run in binary64 with rejected attempts. *)
From Coq Require Import ZArith List Bool Lia Reals.
From RecordUpdate Require Import RecordSet.
From Flocq Require Import BinarySingleNaN.
From Verif Require Import Arith Vec Core Driver DP5 Spec ArithF Examples F64Ex SpecF64.
Import ListNotations RecordSetNotations.

(** The power functions: [powf] as in F64Ex.v, [powi x 2] is [x * x]. *)
Definition XQ : arith := F64 zpow (fun x _ => fmul x x).
Definition oscQ : rhs XQ unit := fun _ u _ _ i => match i with O => at_ u 1 | _ => opp XQ (at_ u 0) end.

(** The oscillator over [0, 10] with an initial step of 2. *)
Definition z_long : builder XQ unit :=
  builder_default (@DormandPrince5 XQ unit) oscQ [lit XQ 1 1; lit XQ 0 1] (lit XQ 0 1, lit XQ 10 1) tt
    <| b_dt := (f_lit 2 1 : num XQ) |>.

Lemma z_long_ex : f64_forward z_long /\ fle (o_facl (b_opts z_long)) (o_facr (b_opts z_long)) /\
  exists (s0 s : integ XQ unit (dp5_cache XQ)) r,
  build DormandPrince5 z_long = Ok s0 /\ reached DormandPrince5 None 20 0 s0 s0 /\ rc (i_sol s0) = RContinue /\
  step DormandPrince5 None 20 s0 = Ok (s, r) /\ 12 <= function_evals (i_stats s) /\ fltb (f_lit 1 10) (i_dtprev s) = true.
Proof.
  split.
  { split; [|repeat (split; [vm_compute; reflexivity|]); vm_compute; reflexivity].
    do 7 (split; [vm_compute; reflexivity|]). intros err He q. right. unfold q, zpow.
    destruct err as [s|s| |s m e Hm]; try (vm_compute; reflexivity). exfalso. destruct s; vm_compute in He; discriminate. }
  split; [vm_compute; reflexivity|].
  assert (match build (@DormandPrince5 XQ unit) z_long with
          | Ok s0 => match step (@DormandPrince5 XQ unit) None 20 s0 with
            | Ok (s, _) => retcode_eqb (rc (i_sol s0)) RContinue && Nat.leb 12 (function_evals (i_stats s)) && fltb (f_lit 1 10) (i_dtprev s)
            | _ => false end
          | _ => false end = true) as H by (vm_compute; reflexivity).
  destruct (build DormandPrince5 z_long) as [s0| |]; try discriminate H.
  destruct (step DormandPrince5 None 20 s0) as [[s r]| |] eqn:E; try discriminate H.
  apply andb_true_iff in H as [H H3]. apply andb_true_iff in H as [H1 H2].
  exists s0, s, r. split; [reflexivity|]. split; [constructor|]. split; [now apply retcode_eq|]. split; [exact E|].
  split; [now apply Nat.leb_le|exact H3].
Qed.
