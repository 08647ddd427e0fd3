(** A Radau5 run in binary64 held at [dtmax]. *)
From Coq Require Import ZArith List Bool Lia Reals.
From RecordUpdate Require Import RecordSet.
From Flocq Require Import BinarySingleNaN.
From Verif Require Import Arith Vec Core Driver Spec Radau ArithF Examples F64Ex SpecF64 SpecF64R RadauMonoEx.
Import ListNotations RecordSetNotations.

(** The oscillator over [0, 3], first step 1/2, [dtmax] 1/4. *)
Definition v_max : builder XV unit := v_rad (f_lit 3 1) (f_lit 1 2) <| b_opts; o_dtmax := (f_lit 1 4 : num XV) |>.

Lemma sane_dtmax (b : builder XV unit) (d : num XV) : radau_f64_sane (b_opts b) -> fleb fzero d = true ->
  radau_f64_sane (b_opts (b <| b_opts; o_dtmax := d |>)).
Proof.
  intros (H1 & H2 & H3 & H4 & H5 & _ & H7 & H8) Hd. exact (conj H1 (conj H2 (conj H3 (conj H4 (conj H5 (conj Hd (conj H7 H8))))))).
Qed.
Lemma v_max_forward : radau_f64_forward v_max.
Proof.
  split; [apply sane_dtmax; [apply vpow_sane|vm_compute; reflexivity]|].
  repeat (split; [vm_compute; reflexivity|]). vm_compute. reflexivity.
Qed.
Lemma v_max_ex : let m := f_lit 1 2 in
  radau_f64_forward v_max /\ is_finite m = true /\ fle (b_dt v_max) m /\ fle (o_dtmax (b_opts v_max)) m /\
  fltb fzero (o_quot1 (b_opts v_max)) = true /\ fle (o_quot1 (b_opts v_max)) (f_lit 1 1) /\
  is_finite (fdiv m (o_quot1 (b_opts v_max))) = true /\
  exists s0 s : integ XV unit (radau_cache XV),
  build Radau5 v_max = Ok s0 /\ reached Radau5 None 60 4 s0 s /\ rc (i_sol s) = RContinue /\
  length (ts (i_sol s)) = 5%nat /\ feqb (i_dtprev s) (f_lit 1 4) = true.
Proof.
  intros m. split; [exact v_max_forward|]. do 6 (split; [vm_compute; reflexivity|]).
  destruct (arrives_ex radv v_max 60 3
    (fun s => retcode_eqb (rc (i_sol s)) RContinue && Nat.eqb (length (ts (i_sol s))) 5 && feqb (i_dtprev s) (f_lit 1 4)))
    as (s0 & s & H1 & H2 & H3).
  { vm_compute. reflexivity. }
  apply andb_true_iff in H3 as [H3 H5]. apply andb_true_iff in H3 as [H3 H4]. apply Nat.eqb_eq in H4.
  exists s0, s. split; [exact H1|]. split; [exact H2|]. split; [exact (retcode_eq _ _ H3)|]. auto.
Qed.
