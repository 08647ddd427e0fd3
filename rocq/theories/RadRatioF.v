(** Forward Radau5 runs in binary64: how much the step size may change. *)
From Coq Require Import ZArith List Bool Lia Reals Lra Psatz.
From RecordUpdate Require Import RecordSet.
From Flocq Require Import Core BinarySingleNaN Plus_error.
From Verif Require Import Arith Vec Core Spec Jacobian Linalg Driver VecFacts DP5Facts DP5Inv LinFacts LinFactsC
  Radau RadauFacts RadauStep RadauInv RadauHist RadauKeep ArithF FFacts FMono FOrder FReduce FStrict SpecF64 SpecF64R DP5Mono RadauMono
  DP5MaxF DP5RatioF.
Import ListNotations RecordSetNotations.
Local Open Scope R_scope.
Local Existing Instance prec_gt_0_53.
Local Existing Instance prec_lt_emax_53.

(** A difference that is not negative. *)
Lemma sub_not_neg (x tf : f64) : is_finite tf = true -> fleb fzero (fmul (fsub x tf) (f_of_Z 1)) = true -> fleb tf x = true.
Proof.
  intros Ff H. destruct (is_finite x) eqn:Fx.
  - destruct (Rle_or_lt (B2R tf) (B2R x)) as [Hle|Hlt]; [now apply fleb_R|]. exfalso.
    pose proof (Bminus_correct 53 1024 _ _ mode_NE x tf Fx Ff) as M.
    change (round_mode mode_NE) with (Znearest (fun x => negb (Z.even x))) in M. fold (fsub x tf) in M.
    destruct (Rlt_bool _ _).
    + destruct M as (M1 & M2 & _). rewrite fmul_1_r in H by assumption. apply fge_0 in H as [E|(_ & H)]; [rewrite E in M2; discriminate|].
      rewrite M1 in H. change (0 <= rnd64 (B2R x - B2R tf)) in H.
      assert (rnd64 (B2R x - B2R tf) <= 0) by (change 0 with (B2R fzero); apply rnd_le_f; cbn; lra).
      assert (rnd64 (B2R x - B2R tf) <> 0); [|lra]. unfold Rminus.
      apply round_plus_neq_0; try typeclasses eauto; try apply f_format; [|lra].
      apply generic_format_opp, f_format.
    + destruct M as (M1 & M2).
      assert (Bsign x = true) as Sx.
      { destruct (Bsign x) eqn:E; [reflexivity|]. exfalso. symmetry in M2. apply negb_false_iff in M2.
        assert (0 <= B2R x). { destruct x as [?|?| |[] m e He]; try discriminate; cbn in E |- *; try lra. apply F2R_ge_0. cbn. lia. }
        assert (B2R tf <= 0). { destruct tf as [?|?| |[] m e He]; try discriminate; cbn in M2 |- *; try lra. apply F2R_le_0. cbn. lia. }
        lra. }
      rewrite Sx in M1. destruct (fsub x tf) as [?|[]| |? ? ? ?]; try discriminate.
  - destruct x as [?|[]| |? ? ? ?]; try discriminate.
    + exfalso. destruct tf as [?|?| |? ? ? ?]; discriminate.
    + destruct tf as [?|?| |[] ? ? ?]; try discriminate; reflexivity.
Qed.

Lemma fdiv_1 (d : f64) : is_finite d = true -> fleb d (fdiv d (f_lit 1 1)) = true.
Proof.
  intros Fd. destruct f_1 as (F1 & E1).
  pose proof (Bdiv_correct 53 1024 _ _ mode_NE d (f_lit 1 1)) as M. rewrite E1 in M. specialize (M ltac:(lra)).
  replace (B2R d / 1) with (B2R d) in M by lra. rewrite round_generic in M; [|typeclasses eauto|apply f_format].
  rewrite Rlt_bool_true in M by apply abs_B2R_lt_emax. destruct M as (M1 & M2 & _). fold (fdiv d (f_lit 1 1)) in M1, M2.
  apply fleb_R; [assumption|congruence|]. lra.
Qed.

Section RadRatio.
Context (fpowf : f64 -> f64 -> f64) (fpowi : f64 -> Z -> f64) {P : Type}.
Notation A := (F64 fpowf fpowi).
Notation state := (integ A P (radau_cache A)).
Notation alg := (@Radau5 A P).

Lemma facl_ge1 (o : opts A) : radau_f64_sane o -> fge 1 (o_facl o).
Proof.
  intros (_ & _ & L & _). destruct lit_1005_1000 as (L1 & L2 & L3). generalize dependent (f_lit 1005 1000). intros c L L1 L2 L3.
  apply fge_weaken with (B2R c); [now apply fleb_fge|lra].
Qed.

(** The step size proposed after an accepted step. *)
Lemma proposed_ratio (s : state) : radau_f64_sane (i_opts s) -> fleb (o_facr (i_opts s)) (o_facl (i_opts s)) = true -> fnn (i_dt s) ->
  fleb (proposed_dt s) (fdiv (i_dt s) (o_facr (i_opts s))) = true /\ fleb (fdiv (i_dt s) (o_facl (i_opts s))) (proposed_dt s) = true.
Proof.
  intros So Hlr (Fd & Pd).
  assert (fpos (o_facr (i_opts s))) as Pr by (apply fltb_fpos; apply So).
  assert (forall q, fpos q -> fleb (o_facr (i_opts s)) q = true -> fleb q (o_facl (i_opts s)) = true ->
    fleb (fdiv (i_dt s) q) (fdiv (i_dt s) (o_facr (i_opts s))) = true /\ fleb (fdiv (i_dt s) (o_facl (i_opts s))) (fdiv (i_dt s) q) = true) as G.
  { intros q Hq H1 H2. split; now apply fdiv_anti. }
  pose proof (quot_pos _ _ s So) as Pq.
  assert (fleb (o_facr (i_opts s)) (radau_quot s) = true /\ fleb (radau_quot s) (o_facl (i_opts s)) = true) as (C1 & C2) by now apply clamp.
  unfold proposed_dt. cbv zeta. destruct (_ && _).
  - set (g := nmax A (o_facr (i_opts s)) _).
    assert (fpos g /\ fleb (o_facr (i_opts s)) g = true /\ fleb g (o_facl (i_opts s)) = true) as (G0 & G1 & G2).
    { split; [now apply fmax_pos|]. now apply clamp. }
    clearbody g. change (nmax A (radau_quot s) g) with (fmax (radau_quot s) g).
    set (q := radau_quot s) in *. clearbody q. change (num A) with f64 in *.
    assert (fmax q g = q \/ fmax q g = g) as [E|E] by (unfold fmax; repeat match goal with |- context [if ?c then _ else _] => destruct c end; auto).
    + rewrite E. now apply G.
    + rewrite E. now apply G.
  - now apply G.
Qed.
Lemma next_ratio (s : state) : radau_f64_sane (i_opts s) -> fleb (o_facr (i_opts s)) (o_facl (i_opts s)) = true ->
  i_tdir s = f_of_Z 1 -> fnn (i_dt s) ->
  fleb (RadauStep.next_dt s) (fdiv (i_dt s) (o_facr (i_opts s))) = true /\ fleb (RadauStep.next_dt s) (o_dtmax (i_opts s)) = true /\
  fleb (fmin (fdiv (i_dt s) (o_facl (i_opts s))) (o_dtmax (i_opts s))) (RadauStep.next_dt s) = true.
Proof.
  intros So Hlr Hd Hn. pose proof (proposed_ratio s So Hlr Hn) as (B1 & B2). pose proof (proposed_ge _ _ s So Hn) as H0.
  pose proof Hn as (Fd & Pd).
  assert (fge 0 (o_dtmax (i_opts s))) as Hm by (apply fge_0; apply So).
  pose proof (facl_ge1 _ So) as Pl.
  assert (fge 0 (fdiv (i_dt s) (o_facl (i_opts s)))) as Hlo by (apply fdiv_ge0; try assumption; apply fge_pos with (2 := Pl); lra).
  assert (fleb (fdiv (i_dt s) (o_facl (i_opts s))) (i_dt s) = true) as B3.
  { destruct (fdiv_ge (i_dt s) (o_facl (i_opts s)) 1 Fd Pd ltac:(lra) Pl) as (Q1 & Q2 & Q3). apply fleb_R; try assumption. lra. }
  unfold RadauStep.next_dt, limited_dt. rewrite Hd. change (mul A) with fmul. change (nmin A) with fmin. change (nabs A) with fabs.
  set (p := proposed_dt s) in *. set (hi := fdiv (i_dt s) (o_facr (i_opts s))) in *. set (lo := fdiv (i_dt s) (o_facl (i_opts s))) in *.
  clearbody p hi lo. change (num A) with f64 in *. set (m := o_dtmax (i_opts s)) in *. clearbody m.
  set (low := fmin lo m). assert (fge 0 low) as Glow by now apply fmin_ge0.
  assert (fge 0 (fabs p)) as Gp by now apply fabs_ge.
  assert (fge 0 (fmin (fabs p) m)) as Gm by now apply fmin_ge0.
  assert (fge 0 (fmul (f_of_Z 1) (fmin (fabs p) m))) as G1 by now apply fmul_one_l.
  assert (fleb (fmul (f_of_Z 1) (fmin (fabs p) m)) hi = true /\ fleb (fmul (f_of_Z 1) (fmin (fabs p) m)) m = true /\
          fleb low (fmul (f_of_Z 1) (fmin (fabs p) m)) = true) as (D1 & D2 & D3).
  { split; [|split].
    - apply (fle_trans0 _ (fmin (fabs p) m)); [assumption|now apply fmul_1_l_le|].
      apply (fle_trans0 _ (fabs p)); [assumption|now apply fmin_le_l|].
      apply (fle_trans0 _ p); [assumption|now apply fabs_id|exact B1].
    - apply (fle_trans0 _ (fmin (fabs p) m)); [assumption|now apply fmul_1_l_le|now apply fmin_le_r].
    - apply (fle_trans0 _ (fmin (fabs p) m)); [assumption| |now apply fmul_1_l_ge]. apply fmin_glb; try assumption.
      + apply (fle_trans0 _ lo); [assumption|now apply fmin_le_l|]. apply (fle_trans0 _ p); [assumption|exact B2|now apply fabs_id].
      + now apply fmin_le_r. }
  set (d1 := fmul (f_of_Z 1) (fmin (fabs p) m)) in *. clearbody d1.
  destruct (reject (i_cache s)); [|auto].
  assert (fge 0 (i_dt s)) as Gd by (right; exact Hn).
  assert (fge 0 (fabs d1)) as Gd1 by now apply fabs_ge.
  assert (fge 0 (fabs (i_dt s))) as G2 by now apply fabs_ge.
  assert (fge 0 (fmin (fabs d1) (fabs (i_dt s)))) as G3 by now apply fmin_ge0.
  assert (fge 0 (fmul (f_of_Z 1) (fmin (fabs d1) (fabs (i_dt s))))) as G4 by now apply fmul_one_l.
  assert (fleb (fmul (f_of_Z 1) (fmin (fabs d1) (fabs (i_dt s)))) d1 = true) as Le.
  { apply (fle_trans0 _ (fmin (fabs d1) (fabs (i_dt s)))); [assumption|now apply fmul_1_l_le|].
    apply (fle_trans0 _ (fabs d1)); [assumption|now apply fmin_le_l|now apply fabs_id]. }
  split; [|split].
  - now apply (fle_trans0 _ d1).
  - now apply (fle_trans0 _ d1).
  - apply (fle_trans0 _ (fmin (fabs d1) (fabs (i_dt s)))); [assumption| |now apply fmul_1_l_ge].
    apply fmin_glb; try assumption.
    + apply (fle_trans0 _ d1); try assumption. now apply fabs_id.
    + apply (fle_trans0 _ lo); [assumption|now apply fmin_le_l|].
      apply (fle_trans0 _ (i_dt s)); [assumption|assumption|now apply fabs_id].
Qed.
(** ** One step *)
Definition ratio_next (o : opts A) (tf : f64) (s' : state) : Prop :=
  let h := i_dtprev s' in
  (i_dt s' = fsub tf (i_t s') /\ exists d : f64, SpecF64.fle d (fdiv h (o_facr o)) /\ SpecF64.fle d (o_dtmax o) /\
     SpecF64.fle (fmin (fdiv h (o_facl o)) (o_dtmax o)) d /\ SpecF64.fle tf (fadd (i_t s') (fdiv d (o_quot1 o)))) \/
  (SpecF64.fle (fmin (fdiv h (o_facl o)) (o_dtmax o)) (i_dt s') /\ SpecF64.fle (i_dt s') (fdiv h (o_facr o)) /\
   (i_dt s' = h \/ SpecF64.fle (i_dt s') (o_dtmax o))).
Lemma accepted_ratio (s1 s' : state) : radau_f64_sane (i_opts s1) -> fleb (o_facr (i_opts s1)) (o_facl (i_opts s1)) = true ->
  fleb (o_facr (i_opts s1)) (f_lit 1 1) = true -> i_tdir s1 = f_of_Z 1 -> is_finite (i_tfinal s1 : f64) = true ->
  fnn (i_dt s1) -> last (i_cache s1) = false -> accepted s1 s' -> ratio_next (i_opts s1) (i_tfinal s1) s'.
Proof.
  intros So Hlr Hr1 Hd Ff Hn El Ha. pose proof (next_ratio s1 So Hlr Hd Hn) as (N1 & N2 & N3).
  destruct (ac_next _ _ Ha El) as (_ & _ & _ & _ & Hend & Hmore). cbv zeta in Hend, Hmore.
  unfold ratio_next. rewrite (ac_dtprev _ _ Ha). cbv zeta.
  destruct (leb A n0 _) eqn:Er.
  - left. destruct (Hend eq_refl) as (E & _). split; [exact E|]. exists (RadauStep.next_dt s1).
    split; [exact N1|]. split; [exact N2|]. split; [exact N3|]. rewrite Hd in Er. apply sub_not_neg in Er; assumption.
  - right. destruct (Hmore eq_refl) as (_ & [(E & _)|(E & _)]); rewrite E; [|auto].
    clear Hend Hmore. pose proof Hn as (Fd & Pd).
    assert (fge 0 (fdiv (i_dt s1) (o_facl (i_opts s1))) /\ fleb (fdiv (i_dt s1) (o_facl (i_opts s1))) (i_dt s1) = true) as (G & B).
    { pose proof (facl_ge1 _ So) as Pl.
      destruct (fdiv_ge (i_dt s1) (o_facl (i_opts s1)) 1 Fd Pd ltac:(lra) Pl) as (Q1 & Q2 & Q3).
      split; [right; split; [exact Q1|lra]|]. apply fleb_R; try assumption. lra. }
    split; [|split; [|now left]].
    + apply (fle_trans0 _ (fdiv (i_dt s1) (o_facl (i_opts s1)))); [|apply fmin_le_l; try assumption|exact B];
        try (apply fmin_ge0; [assumption|]); apply fge_0; apply So.
    + apply (fle_trans0 _ (fdiv (i_dt s1) (f_lit 1 1))); [right; exact Hn| |].
      * now apply fdiv_1.
      * apply fdiv_anti; try assumption. apply fltb_fpos, So.
Qed.
Lemma r_ready (b : builder A P) (s : state) : radau_f64_forward b -> r_run _ _ b s -> rc (i_sol s) = RContinue -> rready _ _ s.
Proof.
  intros (_ & F0 & Ff & Hlt & Fs & _) [Io Ic If Id _ _ Ila Im _] Hrc.
  destruct Ila as (Ft & Ht); [congruence|]. destruct (Im Hrc) as (Hr & Hdt).
  constructor; rewrite ?If; try assumption; [apply Ht| |now rewrite <- If]. now apply (span_finite (b_t b)).
Qed.

Lemma step_ratio_r fuel (s s' : state) : rready _ _ s -> fleb (o_facr (i_opts s)) (o_facl (i_opts s)) = true ->
  fleb (o_facr (i_opts s)) (f_lit 1 1) = true -> radau_step fuel s = Ok s' ->
  rc (i_sol s) = RContinue -> rc (i_sol s') = RContinue -> ratio_next (i_opts s) (i_tfinal s) s'.
Proof.
  intros Rd Hlr Hr1 H Hc Hc'. pose proof (clip_aims _ _ s Rd) as Hai. destruct Rd as [So Sc Hd Ft Ff Hle Fs Hr Hdt].
  unfold radau_step in H.
  destruct (radau_clip_frame s) as (Cq & _ & Csol & _ & _ & Cc & _). cbv zeta in *.
  assert (reject (i_cache (radau_clip s)) = false) as Cr by (rewrite Cc; exact Hr).
  assert (cfac (i_cache (radau_clip s)) = cfac (i_cache s)) as Ccf by (rewrite Cc; reflexivity).
  revert H Hai Cq Csol Cr Ccf. generalize (radau_clip s) as sc. clear Hdt. intros.
  destruct (q_prob _ _ Cq) as (_&_&_&_&Cd&Cf&Co). destruct (q_point _ _ Cq) as (_&Ct&_).
  apply radau_loop_f in H; [|now rewrite Co|now rewrite Ccf|apply Hai|intros _; exact Cr].
  destruct H as [(Hq & Hrc)|(s1 & Ht & Htn & Ha)].
  { exfalso. destruct Hrc as (Hn & _); [now rewrite Csol|]. exact (Hn Hc'). }
  assert (fnn (i_dt s1)) as Hn by (eapply ftrial_fnn; [|exact Ht]; apply Hai).
  pose proof (quiet_trans _ _ _ Cq (ft_quiet _ _ _ _ Ht)) as Q1.
  destruct (q_prob _ _ Q1) as (_&_&_&_&Ed&Ef&Eo).
  destruct (last (i_cache s1)) eqn:El; [rewrite (ac_rc _ _ Ha), El in Hc'; discriminate|].
  rewrite <- Eo, <- Ef. apply accepted_ratio; rewrite ?Eo, ?Ed, ?Ef; assumption.
Qed.

Lemma radau_opts_ratio (o : opts A) (tf : f64) (s' : state) : ratio_next (radau_opts o) tf s' -> ratio_next o tf s'.
Proof. unfold radau_opts. destruct (leb A _ _); exact (fun H => H). Qed.
Lemma radau_opts_fac (o : opts A) : o_facr (radau_opts o) = o_facr o /\ o_facl (radau_opts o) = o_facl o.
Proof. unfold radau_opts. destruct (leb A _ _); split; reflexivity. Qed.

(** The run invariant of RadauMono.v, and the options. *)
Lemma r_runs_opts (b : builder A P) fuel k (s0 s : state) :
  radau_f64_forward b -> build alg b = Ok s0 -> reached alg None fuel k s0 s ->
  r_run _ _ b s /\ i_opts s = radau_opts (b_opts b).
Proof.
  intros Hb H Hr. destruct (r_run_build _ _ b s0 Hb H) as [Hi Hrc].
  refine (reached_invariant alg None fuel (fun s => r_run _ _ b s /\ i_opts s = radau_opts (b_opts b)) _ k s0 s Hr Hrc _).
  - intros s1 s2 r (H1 & H1') H2 H3. split; [eapply r_run_step; eassumption|].
    unfold step in H3. apply bind_ok in H3 as (s3 & H3 & E). cbn [run_callback] in E.
    injection E as E _. subst s3. cbn [alg_step Radau5 Cache] in H3.
    pose proof (r_ready b s1 Hb H1 H2) as Rd.
    destruct (r_step_of _ _ _ _ _ Rd H3) as [(Hq & _)|[Rp _ _ _ _]].
    + destruct (q_prob _ _ Hq) as (_&_&_&_&_&_&Eo). etransitivity; [exact Eo|exact H1'].
    + destruct Rp as (_&_&_&_&_&_&Eo). etransitivity; [exact Eo|exact H1'].
  - split; [assumption|]. apply radau_build_inv in H. destruct H as [(_&_&_&_&_&_&Eo) _ _ _ _ _ _ _ _ _ _ _ _ _ _ _]. exact Eo.
Qed.

(** C12 in binary64. *)
Lemma radau_f64_limits (b : builder A P) fuel k (s0 s s' : state) r :
  radau_f64_forward b -> SpecF64.fle (o_facr (b_opts b)) (o_facl (b_opts b)) -> SpecF64.fle (o_facr (b_opts b)) (f_lit 1 1) ->
  build alg b = Ok s0 -> reached alg None fuel k s0 s -> rc (i_sol s) = RContinue ->
  step alg None fuel s = Ok (s', r) -> rc (i_sol s') = RContinue ->
  let h := i_dtprev s' in let facl := o_facl (b_opts b) in let facr := o_facr (b_opts b) in let dtmax := o_dtmax (b_opts b) in
  (i_dt s' = fsub (b_tfinal b) (i_t s') /\
   exists d : f64, SpecF64.fle d (fdiv h facr) /\ SpecF64.fle d dtmax /\ SpecF64.fle (fmin (fdiv h facl) dtmax) d /\
     SpecF64.fle (b_tfinal b) (fadd (i_t s') (fdiv d (o_quot1 (b_opts b))))) \/
  (SpecF64.fle (fmin (fdiv h facl) dtmax) (i_dt s') /\ SpecF64.fle (i_dt s') (fdiv h facr) /\
   (i_dt s' = h \/ SpecF64.fle (i_dt s') dtmax)).
Proof.
  intros Hb Hlr Hr1 H Hre Hc Hs Hc'. pose proof (r_runs_opts _ _ _ _ _ Hb H Hre) as (Hi & Eo).
  pose proof (r_ready b s Hb Hi Hc) as Rd.
  unfold step in Hs. apply bind_ok in Hs as (s3 & Hs & E). cbn [run_callback] in E.
  injection E as E _. subst s3. cbn [alg_step Radau5 Cache] in Hs.
  destruct (radau_opts_fac (b_opts b)) as (E1 & E2).
  apply step_ratio_r in Hs; try assumption; try (rewrite Eo, ?E1, ?E2; assumption).
  rewrite Eo, (rn_tfinal _ _ _ _ Hi) in Hs. apply radau_opts_ratio in Hs. exact Hs.
Qed.
End RadRatio.
