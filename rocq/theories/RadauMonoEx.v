(** A binary64 Radau5 run for PropF64R.v. *)
From Coq Require Import ZArith List Bool Lia Reals Lra Sorted.
From RecordUpdate Require Import RecordSet.
From Flocq Require Import Core BinarySingleNaN.
From Verif Require Import Arith Vec Core Driver VecFacts Spec ArithF FFacts FMono FOrder FReduce DP5Mono Examples SpecF64
  SpecF64R Radau RadauEx F64Ex.
Import ListNotations RecordSetNotations.
Local Open Scope R_scope.
Local Existing Instance prec_gt_0_53.
Local Existing Instance prec_lt_emax_53.

(** A power function for Radau5's exponents: the fourth root, inverted for
    negative exponents. *)
Definition root4 (a : f64) : f64 := fsqrt (fsqrt a).
Definition vpow (a y : f64) : f64 := if fltb fzero y then root4 a else fdiv (f_lit 1 1) (root4 a).
Definition XV : arith := F64 vpow rpow.
Definition oscV : rhs XV unit := fun _ u _ _ i => match i with O => at_ u 1 | _ => opp XV (at_ u 0) end.
Notation radv := (@Radau5 XV unit).
(** From 0 to [tf] with first step [dt]. *)
Definition v_rad (tf dt : f64) : builder XV unit :=
  builder_default radv oscV [lit XV 1 1; lit XV 0 1] (lit XV 0 1, tf : num XV) tt <| b_dt := dt : num XV |>.

Lemma fsqrt_ge1 (x : f64) : fge 1 x -> fge 1 (fsqrt x).
Proof.
  intros [->|(Fx & Px)]; [left; reflexivity|].
  pose proof (Bsqrt_correct 53 1024 _ _ mode_NE x) as (H1 & H2 & _).
  change (round_mode mode_NE) with (Znearest (fun x => negb (Z.even x))) in H1.
  right. unfold fsqrt. rewrite H1, H2. split.
  - destruct x as [?|?| |[] m e E]; try discriminate; try reflexivity.
    exfalso. cbn in Px. assert (F2R (Float radix2 (Z.neg m) e) < 0) by (now apply F2R_lt_0). lra.
  - destruct f_1 as (F1 & E1). rewrite <- E1. apply rnd_ge_f. rewrite E1. rewrite <- sqrt_1. apply sqrt_le_1_alt. exact Px.
Qed.
Lemma root4_ge1 (x : f64) : fge 1 x -> fge 1 (root4 x).
Proof. intros H. unfold root4. now apply fsqrt_ge1, fsqrt_ge1. Qed.
Lemma fsqrt_neg (x : f64) : Bsign x = true -> is_finite_strict x = true -> fsqrt x = fnan.
Proof. destruct x as [?|?| |[] m e E]; try discriminate. reflexivity. Qed.

Lemma neg_exponent (y : f64) : Bsign y = false -> fltb fzero (fdiv (f_lit (-1) 1) y) = false.
Proof.
  intros Hy. destruct y as [s|s| |s m e E]; try (cbn in Hy; subst s); [reflexivity|reflexivity|reflexivity|].
  set (a := f_lit (-1) 1).
  assert (Bsign a = true) as Ha by (vm_compute; reflexivity). clearbody a.
  destruct (fltb fzero (fdiv a (B754_finite false m e E))) eqn:Ef; [|reflexivity]. exfalso.
  apply sign_pos in Ef as Es.
  assert (is_nan (fdiv a (B754_finite false m e E)) = false) as En.
  { destruct (fdiv a _); try reflexivity. discriminate Ef. }
  pose proof (Bdiv_correct 53 1024 _ _ mode_NE a (B754_finite false m e E)) as M.
  assert (B2R (B754_finite false m e E : f64) <> 0) as Hn by (cbn; apply Rgt_not_eq; now apply F2R_gt_0).
  specialize (M Hn). destruct (Rlt_bool _ _).
  - destruct M as (_ & _ & M). unfold fdiv in *. rewrite M, Ha in Es by exact En. discriminate.
  - unfold fdiv in *. rewrite Ha in M. revert M Es. generalize (Bdiv mode_NE a (B754_finite false m e E)).
    intros z M Es. destruct z; try discriminate M. cbn in Es. subst. discriminate M.
Qed.

Lemma vpow_sane tf dt : radau_f64_sane (b_opts (v_rad tf dt)).
Proof.
  destruct f_1 as (F1 & E1).
  do 6 (split; [vm_compute; reflexivity|]). split.
  - intros err He. unfold vpow. replace (fltb fzero (f_lit 1 4)) with true by (symmetry; vm_compute; reflexivity).
    destruct err as [s|[]| |[] m e E].
    + exfalso. destruct s; vm_compute in He; discriminate.
    + left. reflexivity.
    + right. reflexivity.
    + left. reflexivity.
    + left. reflexivity.
    + right. apply fge_fleb; [assumption|]. rewrite E1. apply root4_ge1. right. split; [reflexivity|].
      destruct (Rle_or_lt 1 (B2R (B754_finite false m e E : f64))) as [H|H]; [assumption|].
      rewrite <- E1 in H. apply fltb_R in H; [|reflexivity|assumption]. congruence.
  - intros x k H1 H2 Hk q. unfold q, vpow. rewrite neg_exponent by apply sign_nat.
    apply fleb_fge in H1; [|assumption]. rewrite E1 in H1. apply root4_ge1 in H1.
    destruct (fdiv_ge (f_lit 1 1) (root4 x) 1 F1 ltac:(lra) ltac:(lra) H1) as (Q1 & (Q2 & Q3) & Q4).
    split; apply fleb_R; try assumption; try reflexivity; try exact Q2; lra.
Qed.

Lemma v_forward tf dt : is_finite tf = true -> fltb (f_lit 0 1) tf = true -> is_finite (fsub tf (f_lit 0 1)) = true ->
  fleb fzero dt = true -> radau_f64_forward (v_rad tf dt).
Proof.
  intros H1 H2 H3 H4. split; [apply vpow_sane|]. split; [vm_compute; reflexivity|]. auto.
Qed.

(** Four steps and a rejection on [0, 3]. *)
Lemma v_run_ex : radau_f64_forward (v_rad (f_lit 3 1) (f_lit 1 2)) /\
  exists s0 s : integ XV unit (radau_cache XV),
  build Radau5 (v_rad (f_lit 3 1) (f_lit 1 2)) = Ok s0 /\
  reached Radau5 None 60 3 s0 s /\ rc (i_sol s) = RContinue /\ length (ts (i_sol s)) = 4%nat /\
  (accepts (i_stats s) < steps (i_stats s))%nat.
Proof.
  split; [apply v_forward; vm_compute; reflexivity|].
  destruct (arrives_ex radv (v_rad (f_lit 3 1) (f_lit 1 2)) 60 2
    (fun s => retcode_eqb (rc (i_sol s)) RContinue && Nat.eqb (length (ts (i_sol s))) 4 &&
       Nat.ltb (accepts (i_stats s)) (steps (i_stats s)))) as (s0 & s & H1 & H2 & H3).
  { vm_compute. reflexivity. }
  apply andb_true_iff in H3 as [H3 H5]. apply andb_true_iff in H3 as [H3 H4].
  apply Nat.eqb_eq in H4. apply Nat.ltb_lt in H5. exists s0, s.
  split; [exact H1|]. split; [exact H2|]. split; [exact (retcode_eq _ _ H3)|]. auto.
Qed.
