(** Order facts about binary64: addition of a non-negative number never goes
    down, differences of ordered numbers are not negative. *)
From Coq Require Import ZArith Bool Reals Lra Lia.
From Flocq Require Import Core BinarySingleNaN.
From Verif Require Import Arith ArithF FFacts.
Local Open Scope R_scope.
Local Existing Instance prec_gt_0_53.
Local Existing Instance prec_lt_emax_53.

Global Instance rnd64_valid : Valid_rnd (Znearest (fun x => negb (Z.even x))).
Proof. apply valid_rnd_N. Qed.

(** [x >= 0]: a zero, a positive finite number or infinity. *)
Lemma fge0_cases (x : f64) : fleb fzero x = true <-> x = finf \/ (is_finite x = true /\ 0 <= B2R x).
Proof.
  destruct x as [s|s| |s m e He].
  - split; [intros _; right; cbn; split; [reflexivity|lra]|]. intros _. destruct s; reflexivity.
  - destruct s; split; intros H; try discriminate.
    + destruct H as [H|[H _]]; discriminate.
    + left. reflexivity.
    + reflexivity.
  - split; [discriminate|]. intros [H|[H _]]; discriminate.
  - assert (is_finite (B754_finite s m e He : f64) = true) as Hf by reflexivity.
    split.
    + intros H. right. split; [reflexivity|]. now apply fleb_R in H.
    + intros [H|[_ H]]; [discriminate|]. apply fleb_R; [reflexivity|exact Hf|]. exact H.
Qed.

Lemma finf_of (x : f64) : B2SF x = SpecFloat.S754_infinity false -> x = finf.
Proof. destruct x as [s|s| |s m e He]; cbn; intros H; try discriminate. now injection H as ->. Qed.

Lemma rnd_ge_0 x : 0 <= x -> 0 <= rnd64 x.
Proof.
  intros H. rewrite <- (round_0 radix2 fexp64 (Znearest (fun x => negb (Z.even x)))).
  now apply round_le; try typeclasses eauto.
Qed.

Lemma fsign_ge0 (x : f64) : is_finite x = true -> 0 < B2R x -> Bsign x = false.
Proof.
  destruct x as [s|s| |s m e He]; cbn; intros Hf H; try discriminate; [lra|].
  destruct s; cbn in *; [|reflexivity]. exfalso.
  assert (F2R (Float radix2 (Z.neg m) e) < 0) by now apply F2R_lt_0. lra.
Qed.

Lemma fmul_ge0 (x y : f64) : is_finite x = true -> is_finite y = true -> 0 < B2R x ->
  fleb fzero y = true -> fleb fzero (fmul x y) = true.
Proof.
  intros Hx Hy Px Py. apply fge0_cases in Py as [->|(_ & Py)]; [discriminate|].
  pose proof (Bmult_correct 53 1024 _ _ mode_NE x y) as H. apply fge0_cases.
  destruct (Rlt_bool _ _) eqn:E.
  - right. destruct H as (H1 & H2 & _). rewrite Hx, Hy in H2. split; [exact H2|].
    unfold fmul. rewrite H1. apply rnd_ge_0. nra.
  - left. apply finf_of. unfold fmul. rewrite H.
    destruct (Req_dec (B2R y) 0) as [E0|E0].
    + rewrite E0, Rmult_0_r, round_0, Rabs_R0 in E by typeclasses eauto.
      rewrite Rlt_bool_true in E by apply bpow_gt_0. discriminate.
    + rewrite (fsign_ge0 x), (fsign_ge0 y) by (try assumption; lra). reflexivity.
Qed.

Lemma fmul_ge0_r (y x : f64) : is_finite y = true -> is_finite x = true -> 0 < B2R x ->
  fleb fzero y = true -> fleb fzero (fmul y x) = true.
Proof.
  intros Hy Hx Px Py. apply fge0_cases in Py as [->|(_ & Py)]; [discriminate|].
  pose proof (Bmult_correct 53 1024 _ _ mode_NE y x) as H. apply fge0_cases.
  destruct (Rlt_bool _ _) eqn:E.
  - right. destruct H as (H1 & H2 & _). rewrite Hx, Hy in H2. split; [exact H2|].
    unfold fmul. rewrite H1. apply rnd_ge_0. nra.
  - left. apply finf_of. unfold fmul. rewrite H.
    destruct (Req_dec (B2R y) 0) as [E0|E0].
    + rewrite E0, Rmult_0_l, round_0, Rabs_R0 in E by typeclasses eauto.
      rewrite Rlt_bool_true in E by apply bpow_gt_0. discriminate.
    + rewrite (fsign_ge0 x), (fsign_ge0 y) by (try assumption; lra). reflexivity.
Qed.

Lemma fadd_le (t d : f64) : is_finite t = true -> fleb fzero d = true -> fleb t (fadd t d) = true.
Proof.
  intros Ht Hd. apply fge0_cases in Hd as [->|(Fd & Pd)].
  - destruct t as [s|s| |s m e He]; try discriminate; destruct s; reflexivity.
  - pose proof (Bplus_correct 53 1024 _ _ mode_NE t d Ht Fd) as H. fold (fadd t d) in H.
    destruct (Rlt_bool _ _) eqn:E.
    + destruct H as (H1 & H2 & _). apply fleb_R; [exact Ht|exact H2|]. rewrite H1.
      rewrite <- (round_generic radix2 fexp64 (Znearest (fun x => negb (Z.even x))) (B2R t) (f_format t)).
      rewrite (round_generic radix2 fexp64 (Znearest (fun x => negb (Z.even x))) (B2R t) (f_format t)) at 2.
      apply round_le; [typeclasses eauto..|lra].
    + destruct H as (H1 & H2).
      (* overflow: both operands have the same sign, and it is plus *)
      destruct (Bsign t) eqn:St.
      * exfalso. 
        assert (B2R t <= 0) as Nt.
        { destruct t as [s|s| |s m e He]; try discriminate; cbn in St |- *; [lra|]. subst s.
          left. now apply F2R_lt_0. }
        assert (B2R d <= 0) as Nd.
        { destruct d as [s|s| |s m e He]; try discriminate; cbn in H2 |- *; [lra|]. subst s.
          left. now apply F2R_lt_0. }
        replace (B2R t + B2R d) with (B2R t) in E by lra.
        change (round_mode mode_NE) with (Znearest (fun x => negb (Z.even x))) in E.
        rewrite (round_generic radix2 fexp64 _ (B2R t) (f_format t)) in E.
        rewrite Rlt_bool_true in E by apply abs_B2R_lt_emax. discriminate.
      * rewrite (finf_of (fadd t d) H1). destruct t as [s|s| |s m e He]; try discriminate; destruct s; reflexivity.
Qed.

Lemma fsub_ge0 (a t : f64) : is_finite t = true -> fleb t a = true -> fleb fzero (fsub a t) = true.
Proof.
  intros Ht Ha. destruct (is_finite a) eqn:Fa.
  - apply fleb_R in Ha; [|assumption..].
    pose proof (Bminus_correct 53 1024 _ _ mode_NE a t Fa Ht) as H. fold (fsub a t) in H. apply fge0_cases.
    destruct (Rlt_bool _ _) eqn:E.
    + right. destruct H as (H1 & H2 & _). split; [exact H2|]. rewrite H1. apply rnd_ge_0. lra.
    + left. destruct H as (H1 & H2). apply finf_of. rewrite H1.
      destruct (Bsign a) eqn:Sa; [|reflexivity]. exfalso. symmetry in H2. apply negb_true_iff in H2.
      assert (B2R a <= 0) as Na.
      { destruct a as [s|s| |s m e He]; try discriminate; cbn in Sa |- *; [lra|]. subst s.
        left. now apply F2R_lt_0. }
      assert (0 <= B2R t) as Nt.
      { destruct t as [s|s| |s m e He]; try discriminate; cbn in H2 |- *; [lra|]. subst s.
        left. now apply F2R_gt_0. }
      replace (B2R a - B2R t) with 0 in E by lra. rewrite round_0, Rabs_R0 in E by typeclasses eauto.
      rewrite Rlt_bool_true in E by apply bpow_gt_0. discriminate.
  - destruct a as [s|s| |s m e He]; try discriminate.
    + destruct s.
      * destruct t as [s|s| |s m e He]; try discriminate; destruct s; discriminate.
      * destruct t as [s|s| |s m e He]; try discriminate; destruct s; reflexivity.
    + destruct t as [s|s| |s m e He]; discriminate.
Qed.

Lemma f_eq (x y : f64) : is_finite x = true -> is_finite y = true -> B2R x = B2R y -> Bsign x = Bsign y -> x = y.
Proof. apply B2R_Bsign_inj. Qed.

Lemma f_one : B2R (f_of_Z 1) = 1 /\ is_finite (f_of_Z 1) = true /\ Bsign (f_of_Z 1) = false.
Proof.
  split; [|vm_compute; auto]. rewrite <- SF2R_B2SF.
  assert (B2SF (f_of_Z 1) = SpecFloat.S754_finite false 4503599627370496 (-52)) as -> by (vm_compute; reflexivity).
  cbn. unfold F2R. cbn. lra.
Qed.
Lemma f_lit_one : f_lit 1 1 = f_of_Z 1.
Proof.
  apply f_eq; vm_compute; reflexivity.
Qed.

Lemma fmul_1_r (x : f64) : is_finite x = true -> fmul x (f_of_Z 1) = x.
Proof.
  intros Hx. destruct f_one as (E1 & E2 & E3). pose proof (Bmult_correct 53 1024 _ _ mode_NE x (f_of_Z 1)) as H.
  rewrite E1, Rmult_1_r in H. change (round_mode mode_NE) with (Znearest (fun x => negb (Z.even x))) in H.
  rewrite (round_generic radix2 fexp64 _ (B2R x) (f_format x)) in H.
  rewrite Rlt_bool_true in H by apply abs_B2R_lt_emax. destruct H as (H1 & H2 & H3).
  rewrite Hx, E2 in H2. unfold fmul. apply f_eq; [exact H2|exact Hx|exact H1|].
  rewrite H3; [rewrite E3; apply xorb_false_r|]. destruct (Bmult mode_NE x (f_of_Z 1)); try reflexivity. discriminate.
Qed.

Lemma fabs_ge0 (x : f64) : is_finite x = true -> fleb fzero (fabs x) = true.
Proof.
  intros H. apply fge0_cases. right. unfold fabs. rewrite is_finite_Babs, B2R_Babs. split; [exact H|apply Rabs_pos].
Qed.
