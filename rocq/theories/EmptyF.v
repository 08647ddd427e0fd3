(** Empty spans in binary64: DormandPrince5 does not notice the end when the
    first step is too small to change the time. *)
From Coq Require Import ZArith List Bool Lia Reals.
From RecordUpdate Require Import RecordSet.
From Flocq Require Import Core BinarySingleNaN.
From Verif Require Import Arith Vec Core Driver VecFacts DP5 DP5Facts Spec DP5Inv ArithF FFacts SpecF64 Examples F64Ex.
Import ListNotations RecordSetNotations.

Section EmptyF.
Context (fpowf : f64 -> f64 -> f64) (fpowi : f64 -> Z -> f64) {P : Type}.
Notation A := (F64 fpowf fpowi).
Notation state := (integ A P (dp5_cache A)).
Notation alg := (@DormandPrince5 A P).

Lemma fmul_zero_copysign (x : f64) : is_nan x = false -> fltb fzero (fmul fzero (fcopysign (f_lit 1 1) x)) = false.
Proof. intros _. unfold fcopysign. destruct (Bool.eqb _ _); vm_compute; reflexivity. Qed.

Lemma dp5_f64_empty (b : builder A P) fuel (s0 s : state) r :
  is_finite (b_t b : f64) = true -> b_tfinal b = b_t b ->
  fadd (b_t b) (fmul (f_lit 101 100) (b_dt b)) = b_t b ->
  build alg b = Ok s0 -> step alg None fuel s0 = Ok (s, r) -> rc (i_sol s) <> RSuccess.
Proof.
  intros Ft Etf Ead H Hs.
  apply dp5_build_inv in H as (_&_&_&_&_&Et&Ed&_&_&_&Edir&Ef&_&_&Esol&_&_&El&_).
  unfold step in Hs. apply bind_ok in Hs as (s1 & H & E). cbn [run_callback] in E.
  injection E as E _. subst s1. cbn [alg_step DormandPrince5 Cache] in H.
  assert (last (i_cache s) = false) as Hl.
  { apply dp5_step_inv in H as (k & sk & sa & _ & Hr & Ha & ->).
    pose proof (rejections_many _ _ _ Hr) as Rm.
    apply dp5_attempt_inv in Ha as (s1 & Hs & [(_ & _ & Acc)|(D & _)]); [|discriminate].
    pose proof (compute_stages_inv _ _ Hs) as (_ & _ & _ & _ & _ & _ & _ & _ & _ & _ & _ & S6 & _).
    destruct (dp5_finish_frame sa) as (_ & _ & _ & _ & _ & _ & _ & F3 & _).
    rewrite F3, (acc_last _ _ _ Acc), S6.
    destruct k as [|k]; [|apply (rm_last _ _ _ Rm); discriminate].
    rewrite (rm_zero _ _ _ Rm eq_refl).
    destruct (dp5_clip_cases s0) as [(Hc & _)|(_ & ->)]; [|exact El]. exfalso.
    rewrite Et, Ed, Ef, Edir, Etf in Hc.
    assert (fltb fzero (fmul (fsub (fadd (b_t b) (fmul (f_lit 101 100) (b_dt b))) (b_t b))
              (fcopysign (f_lit 1 1) (fsub (b_t b) (b_t b)))) = true) as Hc' by exact Hc.
    rewrite Ead, fsub_self in Hc' by assumption.
    rewrite fmul_zero_copysign in Hc' by reflexivity. discriminate. }
  pose proof (dp5_step_effect_of _ _ _ H) as Ef'. open_effect Ef'.
  destruct se_rc0 as (r0 & Hr0 & ->). rewrite Hl. destruct (Nat.ltb _ _); [discriminate|].
  rewrite Esol in Hr0. cbn [rc] in Hr0. destruct Hr0 as [Hr0|Hr0]; rewrite Hr0; discriminate.
Qed.
End EmptyF.

(** From 1e12 to 1e12: three steps later the time is the same, the state is not. *)
Lemma z_empty_ex :
  let b := z_dp5 (f_lit 1000000000000 1) (f_lit 1000000000000 1) in
  is_finite (b_t b : f64) = true /\ b_tfinal b = b_t b /\
  fadd (b_t b) (fmul (f_lit 101 100) (b_dt b)) = b_t b /\
  exists s0 s : integ XZ unit (dp5_cache XZ),
  build DormandPrince5 b = Ok s0 /\ reached DormandPrince5 None 5 3 s0 s /\ rc (i_sol s) = RContinue /\
  fltb (at_ (i_u s) 0) (at_ (b_u b) 0) = true.
Proof.
  intros b. split; [vm_compute; reflexivity|]. split; [reflexivity|].
  split; [apply f_same_eq; vm_compute; reflexivity|].
  destruct (arrives_ex (@DormandPrince5 XZ unit) b 5 2
    (fun s => retcode_eqb (rc (i_sol s)) RContinue && fltb (at_ (i_u s) 0) (at_ (b_u b) 0))) as (s0 & s & H1 & H2 & H3).
  { vm_compute. reflexivity. }
  apply andb_true_iff in H3 as [H3 H4].
  exists s0, s. split; [exact H1|]. split; [exact H2|]. split; [exact (retcode_eq _ _ H3)|exact H4].
Qed.
