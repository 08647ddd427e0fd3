(** The last recorded time of a successful Radau5 run, in every arithmetic and in
    binary64. *)
From Coq Require Import ZArith List Bool Lia Reals Lra.
From RecordUpdate Require Import RecordSet.
From Flocq Require Import Core Sterbenz Plus_error Relative BinarySingleNaN.
From Verif Require Import Arith Vec Core Spec Jacobian Linalg Driver VecFacts DP5Facts DP5Inv LinFacts LinFactsC
  Radau RadauFacts RadauStep RadauInv RadauHist ArithF FFacts FOrder SpecF64.
Import ListNotations RecordSetNotations.

Section RadauEnd.
Context {A : arith} {P : Type}.
Notation state := (integ A P (radau_cache A)).
Notation alg := (@Radau5 A P).

(** A trial step marked as the last one ends at [t + (tfinal - t)]. *)
Definition aimed (s : state) : Prop :=
  last (i_cache s) = true -> i_dt s = sub A (i_tfinal s) (i_t s).

Lemma clip_aimed (s : state) : aimed s -> aimed (radau_clip s).
Proof.
  intros H E. destruct (radau_clip_frame s) as (Cq & _ & _ & _ & _ & _ & C).
  destruct (q_prob _ _ Cq) as (_ & _ & _ & _ & _ & Ef & _). destruct (q_point _ _ Cq) as (_ & Et & _).
  rewrite Ef, Et. destruct C as [(C1 & C2)|(C1 & C2)]; [|exact C1].
  rewrite C1. apply H. congruence.
Qed.

Lemma accepted_aimed (s s' : state) : accepted s s' -> last (i_cache s) = false -> aimed s'.
Proof.
  intros Ha El E. destruct (ac_next _ _ Ha El) as (_ & _ & _ & _ & R1 & R2).
  match type of R1 with ?c = true -> _ => destruct c end.
  - destruct (R1 eq_refl) as (E1 & _). rewrite E1.
    destruct (ac_prob _ _ Ha) as (_ & _ & _ & _ & _ & Ef & _). now rewrite Ef.
  - destruct (R2 eq_refl) as (E1 & _). congruence.
Qed.

Lemma radau_step_end fuel (s s' : state) : reject (i_cache s) = false -> aimed s -> rc (i_sol s) = RContinue ->
  radau_step fuel s = Ok s' ->
  (rc (i_sol s') = RContinue -> aimed s') /\
  (rc (i_sol s') = RSuccess ->
     i_t s' = add A (i_t s) (sub A (i_tfinal s) (i_t s)) /\ i_tprev s' = i_t s /\
     ts (i_sol s') = ts (i_sol s) ++ [i_t s']).
Proof.
  intros Hr Hi Hrc H. pose proof (radau_step_cases _ _ _ Hr H) as Hc.
  apply radau_step_inv in H as (mid & [Wq Wb Wr Wm] & H); [|exact Hr].
  pose proof (clip_aimed s Hi) as Hcl. destruct (radau_clip_frame s) as (Cq & _ & Cs & _).
  revert Wq Wb Wr Wm Cq Cs Hcl. generalize (radau_clip s) as sc. intros.
  destruct H as [(_ & _ & _ & G)|((s1 & Htr & Hst & _ & _ & _ & Ha) & _)].
  { rewrite Wr, Cs, Hrc in G. destruct G as [(E & _)|[(E & _)|[(E & _)|(E & E' & _)]]]; try (rewrite E; split; discriminate).
    now exfalso. }
  assert (rc (i_sol s1) = RContinue) as E1 by (rewrite (tr_rc _ _ Htr), Wr, Cs; exact Hrc).
  assert (quiet s s1) as Hq by (eapply quiet_trans; [exact Cq|eapply quiet_trans; [exact Wq|apply Htr]]).
  destruct (q_point _ _ Hq) as (_ & Et & _ & _ & Ets & _).
  destruct (q_prob _ _ Hq) as (_ & _ & _ & _ & _ & Ef & _).
  pose proof (ac_rc _ _ Ha) as Er. destruct (last (i_cache s1)) eqn:El.
  - split; [rewrite Er; discriminate|]. intros _.
    rewrite (ac_t _ _ Ha), (ac_tprev _ _ Ha), (ac_ts _ _ Ha), Ets, (ac_t _ _ Ha), Et.
    enough (i_dt s1 = sub A (i_tfinal s) (i_t s)) as -> by auto.
    destruct Hst as [(H1 & H2 & _)|(_ & H2 & _)]; [|congruence].
    destruct Wm as [->|(_ & _ & E)]; [|congruence].
    destruct (q_prob _ _ Cq) as (_ & _ & _ & _ & _ & Ef' & _). destruct (q_point _ _ Cq) as (_ & Et' & _).
    rewrite H1. unfold aimed in Hcl. rewrite Ef', Et' in Hcl. apply Hcl. congruence.
  - split.
    + intros _. eapply accepted_aimed; eassumption.
    + rewrite Er, E1. discriminate.
Qed.

Record radau_end_inv (b : builder A P) (s : state) : Prop := mkREnd {
  re_tf : i_tfinal s = b_tfinal b;
  re_ts : exists l, ts (i_sol s) = l ++ [i_t s];
  re_go : rc (i_sol s) = RContinue -> reject (i_cache s) = false /\ aimed s;
  re_end : rc (i_sol s) = RSuccess ->
     (exists l, ts (i_sol s) = l ++ [i_tprev s; i_t s]) /\
     i_t s = add A (i_tprev s) (sub A (b_tfinal b) (i_tprev s)) }.

Lemma radau_build_end b (s0 : state) : build alg b = Ok s0 ->
  radau_end_inv b s0 /\ rc (i_sol s0) = RContinue.
Proof.
  intros H. destruct (radau_build_ex b) as (s & E & Hb). rewrite H in E. injection E as <-. destruct Hb.
  assert (rc (i_sol s0) = RContinue) as Hrc by (rewrite rb_sol; reflexivity).
  split; [|exact Hrc]. constructor.
  - apply rb_prob.
  - exists []. rewrite rb_sol, rb_t. reflexivity.
  - intros _. split; [apply rb_flags|]. intros E. destruct rb_flags as (_ & _ & E' & _). congruence.
  - rewrite Hrc. discriminate.
Qed.

Lemma radau_end (b : builder A P) fuel k (s0 s : state) :
  build alg b = Ok s0 -> reached alg None fuel k s0 s -> radau_end_inv b s.
Proof.
  intros Hb Hr. destruct (radau_build_end _ _ Hb) as (Hi & Hrc).
  refine (reached_invariant alg None fuel (radau_end_inv b) _ k s0 s Hr Hrc Hi).
  intros s1 s2 r [I1 (l & I2) I3 I4] Hc H. apply step_radau_inv in H as (s3 & H & ->). cbn [run_callback].
  destruct (I3 Hc) as (Hrj & Ha).
  destruct (radau_step_end _ _ _ Hrj Ha Hc H) as (E1 & E2).
  destruct (radau_step_cases _ _ _ Hrj H) as [[Ep Ets _ _ _ _ _ _ _ _ _ Erc Erj]|[Fq _ Frc Frs]].
  - destruct Ep as (_ & _ & _ & _ & _ & Ef & _). constructor.
    + now rewrite Ef.
    + eauto.
    + auto.
    + intros E. destruct (E2 E) as (E3 & E4 & E5). rewrite E4, <- I1. split; [|exact E3].
      exists l. rewrite E5, I2, <- app_assoc. reflexivity.
  - destruct (q_prob _ _ Fq) as (_ & _ & _ & _ & _ & Ef & _). destruct (q_point _ _ Fq) as (_ & Et & _ & _ & Ets & _).
    constructor.
    + now rewrite Ef.
    + exists l. now rewrite Ets, Et.
    + intros E. contradiction.
    + intros E. destruct (Frs Hc) as [(F & _)|[(F & _)|(F & _)]]; congruence.
Qed.
End RadauEnd.

(** ** binary64 *)
Local Open Scope R_scope.
Local Existing Instance prec_gt_0_53. Local Existing Instance prec_lt_emax_53.

Lemma diff_rounded_any (t tf : f64) :
  let r := B2R tf - B2R t in Rabs (rnd64 r - r) <= bpow radix2 (-53) * Rabs r.
Proof.
  intros r. destruct (FLT_plus_error_N_ex radix2 (-1074) 53 (fun x => negb (Z.even x)) (B2R tf) (- B2R t)) as (e & He & E);
    [exact (f_format tf)|apply generic_format_opp, (f_format t)|].
  change (B2R tf + - B2R t) with r in E.
  change (round radix2 (FLT_exp (-1074) 53) (Znearest (fun x => negb (Z.even x))) r) with (rnd64 r) in E.
  rewrite E. replace (r * (1 + e) - r) with (e * r) by ring. rewrite Rabs_mult.
  apply Rmult_le_compat_r; [apply Rabs_pos|]. apply Rle_trans with (1 := He).
  assert (u_ro radix2 53 = bpow radix2 (-53)) as -> by (unfold u_ro; cbn; lra).
  pose proof (bpow_gt_0 radix2 (-53)) as Pu. set (u := bpow radix2 (-53)) in *. clearbody u.
  apply Rmult_le_reg_r with (1 + u); [lra|]. unfold Rdiv. rewrite Rmult_assoc, Rinv_l by lra. nra.
Qed.

Lemma end_distance_any (t tf : f64) : is_finite t = true -> is_finite tf = true ->
  is_finite (fsub tf t) = true -> is_finite (fadd t (fsub tf t)) = true ->
  Rabs (B2R (fadd t (fsub tf t)) - B2R tf) <= bpow radix2 (-52) * Rabs (B2R tf - B2R t).
Proof.
  intros Ft Ff FD FE. rewrite (fadd_R t) by assumption.
  pose proof (fsub_R tf t Ff Ft FD) as ED. set (D := fsub tf t) in *. clearbody D.
  pose proof (diff_rounded_any t tf) as H1. cbv zeta in H1. rewrite <- ED in H1.
  set (y := B2R t + B2R D).
  assert (Rabs (rnd64 y - y) <= Rabs (B2R tf - y)) as HN.
  { destruct (round_N_pt radix2 fexp64 (fun x => negb (Z.even x)) y) as (_ & HN). apply HN. apply f_format. }
  replace (bpow radix2 (-52)) with (2 * bpow radix2 (-53)) by (cbn; lra).
  set (b2 := bpow radix2 (-53)) in *. clearbody b2.
  replace (B2R D - (B2R tf - B2R t)) with (- (B2R tf - y)) in H1 by (unfold y; ring). rewrite Rabs_Ropp in H1.
  replace (rnd64 y - B2R tf) with ((rnd64 y - y) + - (B2R tf - y)) by ring.
  apply Rle_trans with (1 := Rabs_triang _ _). rewrite Rabs_Ropp. lra.
Qed.

Lemma end_exact_any (t tf : f64) : is_finite t = true -> is_finite tf = true ->
  within_two (B2R t) (B2R tf) ->
  is_finite (fadd t (fsub tf t)) = true /\ B2R (fadd t (fsub tf t)) = B2R tf.
Proof.
  intros Ft Ff Hs.
  assert (format64 (B2R tf - B2R t)) as Fm.
  { destruct Hs as [Hs|Hs].
    - apply sterbenz; try typeclasses eauto; try apply f_format. lra.
    - replace (B2R tf - B2R t) with (- B2R t - - B2R tf) by ring.
      apply sterbenz; try typeclasses eauto; try (apply generic_format_opp, f_format). lra. }
  assert (is_finite (fsub tf t) = true) as FD.
  { pose proof (Bminus_correct 53 1024 _ _ mode_NE tf t Ff Ft) as M.
    change (round_mode mode_NE) with (Znearest (fun x => negb (Z.even x))) in M.
    change (SpecFloat.fexp 53 1024) with fexp64 in M.
    rewrite (round_generic radix2 fexp64 _ _ Fm) in M. rewrite Rlt_bool_true in M.
    - apply M.
    - apply Rle_lt_trans with (Rmax (Rabs (B2R tf)) (Rabs (B2R t))).
      + unfold Rmax. destruct (Rle_dec _ _) as [Hm|Hm]; destruct Hs as [(Ha & Hb)|(Ha & Hb)].
        * rewrite (Rabs_pos_eq (B2R t)) by lra. apply Rabs_le. lra.
        * rewrite (Rabs_left1 (B2R t)) by lra. apply Rabs_le. lra.
        * rewrite (Rabs_pos_eq (B2R tf)) by lra. apply Rabs_le. lra.
        * rewrite (Rabs_left1 (B2R tf)) by lra. apply Rabs_le. lra.
      + apply Rmax_lub_lt; apply abs_B2R_lt_emax. }
  pose proof (fsub_R tf t Ff Ft FD) as ED. set (D := fsub tf t) in *. clearbody D.
  rewrite (round_generic radix2 fexp64 _ _ Fm) in ED.
  assert (rnd64 (B2R t + B2R D) = B2R tf) as E.
  { replace (B2R t + B2R D) with (B2R tf) by lra. apply rnd_id. }
  destruct (fadd_correct t D Ft) as (E1 & E2).
  - destruct D as [s|s| |s m e He]; try discriminate; reflexivity.
  - rewrite E. apply abs_B2R_lt_emax.
  - rewrite E1. auto.
Qed.

Lemma fadd_finite_l (a b : f64) : is_finite (fadd a b) = true -> is_finite a = true /\ is_finite b = true.
Proof. destruct a as [[]|[]| |[] ma ea Ha], b as [[]|[]| |[] mb eb Hb]; cbn; auto. Qed.
Lemma fsub_finite_l (a b : f64) : is_finite (fsub a b) = true -> is_finite a = true /\ is_finite b = true.
Proof. destruct a as [[]|[]| |[] ma ea Ha], b as [[]|[]| |[] mb eb Hb]; cbn; auto. Qed.

Lemma radau_f64_success fpowf fpowi P (b : builder (F64 fpowf fpowi) P) fuel k
    (s0 s : integ (F64 fpowf fpowi) P (radau_cache (F64 fpowf fpowi))) :
  build Radau5 b = Ok s0 -> reached Radau5 None fuel k s0 s -> rc (i_sol s) = RSuccess ->
  let t := i_tprev s in let tf := b_tfinal b in
  (exists l, ts (i_sol s) = l ++ [t; i_t s]) /\ i_t s = fadd t (fsub tf t) /\
  (is_finite (i_t s : f64) = true ->
     Rabs (B2R (i_t s : f64) - B2R (tf : f64)) <= bpow radix2 (-52) * Rabs (B2R (tf : f64) - B2R (t : f64))) /\
  (is_finite (t : f64) = true -> is_finite (tf : f64) = true -> within_two (B2R (t : f64)) (B2R (tf : f64)) ->
     feqb (i_t s) tf = true).
Proof.
  intros Hb Hr Hs t tf. destruct (re_end _ _ (radau_end b fuel k s0 s Hb Hr) Hs) as (H1 & H2).
  split; [exact H1|]. split; [exact H2|]. rewrite H2.
  change (add (F64 fpowf fpowi)) with fadd. change (sub (F64 fpowf fpowi)) with fsub.
  fold t tf. clearbody t tf. split.
  - intros F. destruct (fadd_finite_l _ _ F) as (F1 & F2). destruct (fsub_finite_l _ _ F2) as (F3 & _).
    now apply end_distance_any.
  - intros F1 F2 Hw. destruct (end_exact_any t tf F1 F2 Hw) as (E1 & E2).
    unfold feqb. rewrite Beqb_correct by assumption. rewrite E2. apply Req_bool_true. reflexivity.
Qed.
