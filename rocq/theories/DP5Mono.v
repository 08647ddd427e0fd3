(** Forward DormandPrince5 runs in binary64: the recorded times never decrease,
    and where the last one is. *)
From Coq Require Import ZArith List Bool Lia Reals Lra Sorted.
From RecordUpdate Require Import RecordSet.
From Flocq Require Import Core BinarySingleNaN.
From Verif Require Import Arith Vec Core Driver VecFacts DP5 DP5Facts Spec DP5Inv ArithF FFacts FMono FOrder SpecF64.
Import ListNotations RecordSetNotations.
Local Open Scope R_scope.
Local Existing Instance prec_gt_0_53.
Local Existing Instance prec_lt_emax_53.

Section Mono.
Context (fpowf : f64 -> f64 -> f64) (fpowi : f64 -> Z -> f64) {P : Type}.
Notation A := (F64 fpowf fpowi).
Notation state := (integ A P (dp5_cache A)).
Notation alg := (@DormandPrince5 A P).

Lemma f_1 : is_finite (f_lit 1 1) = true /\ B2R (f_lit 1 1) = 1.
Proof. rewrite f_lit_one. destruct f_one as (H1 & H2 & _). auto. Qed.

Lemma fltb_finite_pos (x y : f64) : fltb fzero x = true -> fleb x y = true -> is_finite y = true ->
  is_finite x = true /\ 0 < B2R x <= B2R y.
Proof.
  intros H1 H2 Fy. destruct (fltb_fpos _ H1) as [->|(Fx & Px)].
  - exfalso. destruct y as [[]|s| |[] m e He]; discriminate.
  - split; [assumption|]. split; [assumption|]. now apply fleb_R.
Qed.

(** Factors of a rejected step. *)
Lemma reject_factor (s : state) err : f64_sane (i_opts s) -> fleb err (f_lit 1 1) = false ->
  fge (1004/1000) (fmin (dp5_fac1 s) (fdiv (dp5_fac11 (A := A) err s) (o_safe (i_opts s)))).
Proof.
  intros (S1 & S2 & L1 & L2 & _ & _ & _ & Hp) He.
  destruct lit_99_100 as (F99 & P99). destruct lit_1005_1000 as (F5 & P5). destruct f_1 as (F1 & E1).
  destruct (fltb_finite_pos _ _ S1 S2 F99) as (Fs & Ps).
  destruct (fltb_finite_pos _ _ L1 L2 F99) as (Fl & Pl).
  assert (1006/1000 <= 1 / (991/1000)) as Hq by lra.
  apply fmin_ge.
  - apply fge_weaken with (B2R (f_lit 1005 1000)); [|lra].
    apply (fdiv_lower _ _ _ 1 (991/1000)); try assumption; try lra. change (fge 1 (f_lit 1 1)); right. rewrite E1. split; [assumption|lra].
  - destruct (Hp err He) as [E|E].
    + left. unfold dp5_fac11, dp5_expo1. etransitivity; [|apply (fdiv_nan (o_safe (i_opts s)))].
      f_equal. exact E.
    + right. apply fge_weaken with (B2R (f_lit 1005 1000)); [|lra].
      apply (fdiv_lower _ _ _ 1 (991/1000)); try assumption; try lra.
      rewrite <- E1. apply fleb_fge; [assumption|exact E].
Qed.

(** Factor after an accepted step. *)
Lemma accept_factor (s : state) err : f64_sane (i_opts s) -> fpos (dp5_fac (A := A) err s).
Proof.
  intros (_ & _ & _ & _ & R1 & R2 & _). unfold dp5_fac. apply fmax_pos.
  destruct f_1 as (F1 & E1). destruct (fltb_fpos _ R1) as [E|(Fr & Pr)].
  { exfalso. rewrite E in R2. discriminate. }
  assert (fge (bpow radix2 (-1024)) (dp5_fac2 s)) as H.
  { set (c := Bldexp mode_NE (f_of_Z 1) (-1024) : f64).
    assert (is_finite c = true /\ B2R c = bpow radix2 (-1024)) as (Fc & Ec).
    { assert (B2SF c = SpecFloat.S754_finite false 1125899906842624 (-1074)) as E by (vm_compute; reflexivity).
      split; [destruct c; try discriminate; reflexivity|].
      rewrite <- SF2R_B2SF, E. cbn [SF2R cond_Zopp]. unfold F2R. cbn [Fnum Fexp].
      change (IZR 1125899906842624) with (bpow radix2 50). rewrite <- bpow_plus. reflexivity. }
    rewrite <- Ec. apply (fdiv_lower _ _ _ 1 (bpow radix2 1024)); try assumption; try lra.
    - split; [assumption|]. left. apply f_lt_emax.
    - rewrite Ec. unfold Rdiv. rewrite <- bpow_opp. rewrite Rmult_1_l. apply Rle_refl.
    - change (fge 1 (f_lit 1 1)); right. rewrite E1. split; [assumption|lra]. }
  apply fge_pos with (2 := H). apply bpow_gt_0.
Qed.

Lemma fabs_ge (x : f64) : fge 0 x -> fge 0 (fabs x).
Proof. intros [->|(H1 & H2)]; [now left|]. apply fge_0. now apply fabs_ge0. Qed.
Lemma fmul_one_l (x : f64) : fge 0 x -> fge 0 (fmul (f_of_Z 1) x).
Proof.
  destruct f_one as (E1 & E2 & _). intros [->|(H1 & H2)]; [left; apply fmul_finf; [assumption|lra]|].
  apply fge_0. apply fmul_ge0; try assumption; [lra|]. apply fge_0. right. auto.
Qed.
Lemma fmin_ge0 (a y : f64) : fge 0 a -> fge 0 y -> fge 0 (fmin a y).
Proof. intros Ha Hy. apply fmin_ge; auto. Qed.

Lemma next_dt (s : state) err : f64_sane (i_opts s) -> i_tdir s = f_of_Z 1 ->
  is_finite (i_dt s : f64) = true -> 0 <= B2R (i_dt s : f64) -> fge 0 (dtnew_accept (A := A) err s).
Proof.
  intros So Hd Fd Pd. pose proof (accept_factor s err So) as Hf. destruct So as (_&_&_&_&_&_&Hm&_).
  apply fge_0 in Hm. unfold dtnew_accept. cbv zeta.
  set (fac := dp5_fac err s) in *. clearbody fac.
  assert (fge 0 (div A (i_dt s) fac)) as H0 by now apply fdiv_ge0.
  set (d0 := div A (i_dt s) fac) in *. clearbody d0.
  set (d1 := if ltb A (o_dtmax (i_opts s)) (nabs A d0) then _ else d0).
  assert (fge 0 d1) as H1.
  { unfold d1. destruct (ltb A _ _); [|assumption]. rewrite Hd. now apply fmul_one_l. }
  clearbody d1.
  destruct (reject (i_cache s)); [|assumption]. rewrite Hd. apply fmul_one_l. apply fmin_ge0; apply fabs_ge; [assumption|].
  right. auto.
Qed.

(** ** Rejections *)
Definition short (s : state) : Prop :=
  is_finite (i_dt s : f64) = true /\ 0 <= B2R (i_dt s : f64) /\
  rnd64 (B2R (i_t s : f64) + B2R (i_dt s : f64)) <= B2R (i_tfinal s : f64).

Lemma attempt_dt (s s' : state) : f64_sane (i_opts s) -> dp5_attempt s = Ok (s', false) ->
  exists x, fge (1004/1000) x /\ i_dt s' = fdiv (i_dt s) x.
Proof.
  intros So H. apply dp5_attempt_inv in H as (s1 & Hs & [(D & _)|(_ & He & Rj)]); [discriminate|].
  pose proof (compute_stages_inv _ _ Hs) as (_ & (_&_&_&_&_&_&Eo) & _ & Ed & _).
  rewrite (rej_dt _ _ _ Rj). unfold dtnew_reject. rewrite Ed.
  eexists. split; [|reflexivity]. apply reject_factor; [now rewrite Eo|exact He].
Qed.

Lemma short_rejected k (s s' : state) : f64_sane (i_opts s) -> rejections k s s' -> short s -> short s'.
Proof.
  intros So H. revert So. induction H as [s|k s s1 s2 Ha Hr IH]; intros So Hs; [assumption|].
  destruct (attempt_dt _ _ So Ha) as (x & Hx & Ed).
  apply dp5_attempt_rejected in Ha. destruct (atr_problem _ _ Ha) as (_&_&_&_&_&Ef&Eo).
  destruct (atr_point _ _ Ha) as (_&Et&_). apply IH; [now rewrite Eo|].
  destruct Hs as (H1 & H2 & H3). unfold short. rewrite Et, Ef, Ed.
  destruct (fdiv_ge (i_dt s) x (1004/1000) H1 H2 ltac:(lra) Hx) as (Q1 & (Q2 & Q3) & Q4).
  split; [exact Q1|]. split; [exact Q2|]. apply Rle_trans with (2 := H3). apply rnd_le. lra.
Qed.

Lemma cut_short k (s s' : state) : f64_sane (i_opts s) -> rejections (S k) s s' ->
  is_finite (i_t s : f64) = true -> is_finite (i_tfinal s : f64) = true ->
  B2R (i_t s : f64) <= B2R (i_tfinal s : f64) ->
  i_dt s = fsub (i_tfinal s) (i_t s) -> is_finite (i_dt s : f64) = true -> short s'.
Proof.
  intros So H Ft Ff Hle Ed Fd. inversion H as [|? ? s1 ? Ha Hr]; subst.
  destruct (attempt_dt _ _ So Ha) as (x & Hx & Ed1).
  apply dp5_attempt_rejected in Ha. destruct (atr_problem _ _ Ha) as (_&_&_&_&_&Ef&Eo).
  destruct (atr_point _ _ Ha) as (_&Et&_). eapply short_rejected; [now rewrite Eo|exact Hr|].
  unfold short. rewrite Et, Ef, Ed1, Ed. rewrite Ed in Fd. now apply cut_rejected.
Qed.

(** ** One step *)
Record ready (s : state) : Prop := {
  rd_sane : f64_sane (i_opts s);
  rd_dir : i_tdir s = f_of_Z 1;
  rd_t : is_finite (i_t s : f64) = true;
  rd_tf : is_finite (i_tfinal s : f64) = true;
  rd_le : B2R (i_t s : f64) <= B2R (i_tfinal s : f64);
  rd_span : is_finite (fsub (i_tfinal s) (i_t s)) = true;
  rd_dt : fge 0 (i_dt s) }.

Record f_step (s s' : state) : Prop := {
  fs_up : fleb (i_t s) (i_t s') = true;
  fs_dt : fge 0 (i_dt s');
  fs_end : (last (i_cache s') = true /\ i_t s' = fadd (i_t s) (fsub (i_tfinal s) (i_t s))) \/
           (last (i_cache s') = false /\ is_finite (i_t s' : f64) = true /\
            B2R (i_t s : f64) <= B2R (i_t s' : f64) <= B2R (i_tfinal s : f64));
  fs_len : is_finite (i_dtprev s' : f64) = true /\ 0 <= B2R (i_dtprev s' : f64) }.

Lemma f_step_of fuel (s s' : state) : ready s -> last (i_cache s) = false ->
  dp5_step fuel s = Ok s' -> f_step s s'.
Proof.
  intros [So Hd Ft Ff Hle Fs Hdt] Hl H.
  apply dp5_step_inv in H as (k & sk & sa & _ & Hr & Ha & ->).
  destruct (dp5_clip_frame s) as ((_&_&_&_&C1&C2&C3) & (_&C4&_) & _).
  pose proof (rejections_many _ _ _ Hr) as Rm.
  destruct (rm_problem _ _ _ Rm) as (_&_&_&_&R1&R2&R3). destruct (rm_point _ _ _ Rm) as (_&R4&_).
  apply dp5_attempt_inv in Ha as (s1 & Hs & [(_ & _ & Acc)|(D & _)]); [|discriminate].
  pose proof (compute_stages_inv _ _ Hs) as (_ & (_&_&_&_&S1&S2&S3) & (_&S4&_) & S5 & _ & _ & _ & _ & _ & _ & _ & S6 & _).
  destruct (dp5_finish_frame sa) as (_ & _ & F1 & F2 & _ & _ & F4 & F3 & _).
  assert (forall d : f64, i_dt sk = d -> is_finite d = true -> 0 <= B2R d -> fge 0 (i_dt (dp5_finish sa))) as Hnext.
  { intros d Ed Fd Pd. rewrite F2, (acc_dt _ _ _ Acc). apply next_dt.
    - rewrite S3, R3, C3. assumption.
    - rewrite S1, R1, C1. assumption.
    - rewrite S5, Ed. assumption.
    - rewrite S5, Ed. assumption. }
  assert (i_t (dp5_finish sa) = fadd (i_t s) (i_dt sk)) as Et.
  { rewrite F1, (acc_t _ _ _ Acc), S4, S5, R4, C4. reflexivity. }
  assert (i_dtprev (dp5_finish sa) = i_dt sk) as Ep.
  { rewrite F4, (acc_dtprev _ _ _ Acc), S5. reflexivity. }
  assert (last (i_cache (dp5_finish sa)) = last (i_cache sk)) as El.
  { rewrite F3, (acc_last _ _ _ Acc), S6. reflexivity. }
  assert (short sk -> last (i_cache sk) = false -> f_step s (dp5_finish sa)) as Hshort.
  { intros (H1 & H2 & H3) Hlk. rewrite R4, R2, C4, C2 in H3.
    destruct (fadd_below (i_t s) (i_dt sk) (i_tfinal s) Ft H1 H2 H3) as (Q1 & Q2 & Q3).
    constructor.
    - rewrite Et. apply fadd_le; [assumption|]. apply fge_0. right. auto.
    - eapply Hnext; [reflexivity|assumption..].
    - right. rewrite El, Et. auto.
    - rewrite Ep. auto. }
  destruct (dp5_clip_cases s) as [(Hc & Ec)|(Hc & Ec)].
  - destruct k as [|k].
    + pose proof (rm_zero _ _ _ Rm eq_refl) as ->.
      assert (i_dt (dp5_clip s) = fsub (i_tfinal s) (i_t s)) as Ed by (rewrite Ec; reflexivity).
      assert (0 <= B2R (fsub (i_tfinal s) (i_t s))) as Pd.
      { rewrite fsub_R by assumption. apply rnd_ge_0. lra. }
      constructor.
      * rewrite Et, Ed. apply fadd_le; [assumption|]. apply fge_0. right. auto.
      * eapply Hnext; [exact Ed|assumption..].
      * left. rewrite El, Et, Ed. split; [rewrite Ec; reflexivity|reflexivity].
      * rewrite Ep, Ed. auto.
    + apply Hshort; [|apply (rm_last _ _ _ Rm); discriminate].
      assert (i_dt (dp5_clip s) = fsub (i_tfinal s) (i_t s)) as Ed by (rewrite Ec; reflexivity).
      eapply cut_short; [now rewrite C3|exact Hr|..]; rewrite ?C4, ?C2, ?Ed; auto.
  - apply Hshort.
    + eapply short_rejected; [now rewrite C3|exact Hr|]. unfold short. rewrite C4, C2, Ec.
      apply uncut_step; try assumption. rewrite Hd in Hc. exact Hc.
    + destruct k as [|k]; [|apply (rm_last _ _ _ Rm); discriminate].
      rewrite (rm_zero _ _ _ Rm eq_refl), Ec. assumption.
Qed.

(** ** Runs *)
Record f_run (b : builder A P) (s : state) : Prop := {
  fr_opts : i_opts s = b_opts b;
  fr_tfinal : i_tfinal s = b_tfinal b;
  fr_tdir : i_tdir s = f_of_Z 1;
  fr_dt : fge 0 (i_dt s);
  fr_list : exists l, ts (i_sol s) = l ++ [i_t s] /\
    Forall (fun t : f64 => is_finite t = true /\ B2R (b_t b : f64) <= B2R t <= B2R (b_tfinal b : f64)) l /\
    Forall (fun t : f64 => fleb t (i_t s) = true) l;
  fr_sorted : StronglySorted fle (ts (i_sol s));
  fr_last : rc (i_sol s) <> RSuccess ->
    last (i_cache s) = false /\ is_finite (i_t s : f64) = true /\
    B2R (b_t b : f64) <= B2R (i_t s : f64) <= B2R (b_tfinal b : f64);
  fr_end : rc (i_sol s) = RSuccess ->
    is_finite (i_tprev s : f64) = true /\ B2R (b_t b : f64) <= B2R (i_tprev s : f64) <= B2R (b_tfinal b : f64) /\
    (exists l, ts (i_sol s) = l ++ [i_tprev s; i_t s]) /\
    i_t s = fadd (i_tprev s) (fsub (b_tfinal b) (i_tprev s)) }.

Lemma fle_snoc (l : list f64) m x :
  StronglySorted fle (l ++ [m]) -> Forall (fun y => fleb y x = true) (l ++ [m]) -> StronglySorted fle ((l ++ [m]) ++ [x]).
Proof.
  intros H Hf. induction H as [|a l' H IH Ha]; cbn.
  - constructor; constructor.
  - inversion Hf; subst. constructor; [auto|]. apply Forall_app. split; [assumption|]. constructor; [assumption|constructor].
Qed.

Lemma fle_trans (a b c : f64) : is_finite a = true -> is_finite b = true ->
  fleb a b = true -> fleb b c = true -> fleb a c = true.
Proof.
  intros Fa Fb H1 H2. apply fge_fleb; [assumption|]. apply fleb_fge in H2; [|assumption].
  apply fge_weaken with (1 := H2). now apply fleb_R.
Qed.

(** The remaining span only gets shorter. *)
Lemma span_finite (t0 t tf : f64) : is_finite t0 = true -> is_finite t = true -> is_finite tf = true ->
  B2R t0 <= B2R t <= B2R tf -> is_finite (fsub tf t0) = true -> is_finite (fsub tf t) = true.
Proof.
  intros F0 Ft Ff Hr Fs. pose proof (fsub_R tf t0 Ff F0 Fs) as E0.
  pose proof (Bminus_correct 53 1024 _ _ mode_NE tf t Ff Ft) as H. fold (fsub tf t) in H.
  change (round_mode mode_NE) with (Znearest (fun x => negb (Z.even x))) in H.
  rewrite Rlt_bool_true in H; [apply H|].
  assert (0 <= rnd64 (B2R tf - B2R t)) as P1 by (apply rnd_ge_0; lra).
  rewrite Rabs_pos_eq by assumption. apply Rle_lt_trans with (B2R (fsub tf t0)); [|apply f_lt_emax].
  rewrite E0. apply rnd_le. lra.
Qed.

Lemma f_run_build (b : builder A P) (s : state) : f64_forward b -> build alg b = Ok s ->
  f_run b s /\ rc (i_sol s) = RContinue.
Proof.
  intros (So & F0 & Ff & Hle & Fs & Hdt) H.
  apply dp5_build_inv in H as (_&_&_&_&_&Et&Ed&_&_&_&Edir&Etf&Eo&_&Esol&_&_&El&_).
  apply fltb_R in Hle; [|assumption..].
  split; [|rewrite Esol; reflexivity].
  constructor.
  - assumption.
  - assumption.
  - rewrite Edir. change (fcopysign (f_lit 1 1) (fsub (b_tfinal b) (b_t b)) = f_of_Z 1).
    rewrite f_lit_one. unfold fcopysign. destruct f_one as (_ & _ & ->).
    pose proof (fsub_pos _ _ Ff F0 Hle) as [Q|(_ & Q)].
    + rewrite Q in Fs. discriminate.
    + rewrite (fsign_ge0 _ Fs Q). reflexivity.
  - rewrite Ed. now apply fge_0.
  - exists []. rewrite Esol, Et. cbn. auto.
  - rewrite Esol. cbn. constructor; constructor.
  - intros _. rewrite Et. split; [assumption|]. split; [assumption|]. lra.
  - rewrite Esol. discriminate.
Qed.

Lemma f_run_step (b : builder A P) fuel (s s' : state) r : f64_forward b ->
  f_run b s -> rc (i_sol s) = RContinue -> step alg None fuel s = Ok (s', r) -> f_run b s'.
Proof.
  intros (So & F0 & Ff & Hlt & Fs & _) [Io If Id Idt (l & Il & Ifin & Ile) Is Ila Ien] Hrc H.
  unfold step in H. apply bind_ok in H as (s1 & H & E). cbn [run_callback] in E.
  injection E as E _. subst s1. cbn [alg_step DormandPrince5 Cache] in H.
  destruct Ila as (Hl & Ft & Ht); [congruence|].
  assert (ready s) as Rd.
  { constructor; rewrite ?Io, ?If; try assumption; [apply Ht|]. now apply (span_finite (b_t b)). }
  pose proof (f_step_of _ _ _ Rd Hl H) as [Up Dt En _].
  pose proof (dp5_step_effect_of _ _ _ H) as Ef. open_effect Ef.
  destruct se_problem0 as (_&_&_&_&Pd&Pf&Po).
  assert (last (i_cache s') = true <-> rc (i_sol s') = RSuccess) as Hls.
  { destruct se_rc0 as (r0 & Hr0 & ->). destruct (last (i_cache s')); [tauto|]. split; [discriminate|].
    destruct (Nat.ltb _ _); [discriminate|]. destruct Hr0 as [Hr0|Hr0]; congruence. }
  assert (Forall (fun t : f64 => fleb t (i_t s') = true) (l ++ [i_t s])) as Hall.
  { apply Forall_app. split; [|constructor; [exact Up|constructor]].
    apply Forall_forall. intros t Hin. rewrite Forall_forall in Ifin, Ile.
    destruct (Ifin t Hin) as (F & _). apply (fle_trans t (i_t s)); auto. }
  constructor.
  - congruence.
  - congruence.
  - congruence.
  - exact Dt.
  - exists (l ++ [i_t s]). rewrite se_ts0, Il. split; [reflexivity|]. split; [|exact Hall].
    apply Forall_app. split; [assumption|]. constructor; [auto|constructor].
  - rewrite se_ts0, Il. apply fle_snoc; [|exact Hall]. rewrite Il in Is. exact Is.
  - intros Hn. destruct En as [(E & _)|(E & F & Hr)]; [tauto|].
    split; [assumption|]. split; [assumption|]. rewrite If in Hr. lra.
  - intros Hs. destruct En as [(E & Et)|(E & _)]; [|rewrite <- Hls in Hs; congruence].
    rewrite se_tprev0. split; [assumption|]. split; [lra|].
    split; [exists l; rewrite se_ts0, Il, <- app_assoc; reflexivity|]. rewrite <- If. exact Et.
Qed.

Lemma f_runs (b : builder A P) fuel k (s0 s : state) :
  f64_forward b -> build alg b = Ok s0 -> reached alg None fuel k s0 s -> f_run b s.
Proof.
  intros Hb H Hr. destruct (f_run_build b s0 Hb H) as [Hi Hrc].
  refine (reached_invariant alg None fuel (f_run b) _ k s0 s Hr Hrc Hi).
  intros s1 s2 r H1 H2 H3. eapply f_run_step; eassumption.
Qed.

(** C46. *)
Lemma dp5_f64_times (b : builder A P) fuel k (s0 s : state) :
  f64_forward b -> build alg b = Ok s0 -> reached alg None fuel k s0 s ->
  StronglySorted fle (ts (i_sol s)) /\
  Forall (fun t : f64 => fle (b_t b) t /\ fle t (b_tfinal b)) (removelast (ts (i_sol s))) /\
  (rc (i_sol s) <> RSuccess -> fle (i_t s) (b_tfinal b)).
Proof.
  intros Hb H Hr. pose proof (f_runs _ _ _ _ _ Hb H Hr) as [Io If Id Idt (l & Il & Ifin & Ile) Is Ila Ien].
  destruct Hb as (_ & F0 & Ff & _). split; [assumption|]. split.
  - rewrite Il, removelast_last. eapply Forall_impl; [|exact Ifin]. cbn. intros t (F & Hr1 & Hr2).
    split; apply fleb_R; assumption.
  - intros Hn. destruct (Ila Hn) as (_ & F & Hr1 & Hr2). apply fleb_R; assumption.
Qed.

(** C14 in binary64. *)
Lemma dp5_f64_success (b : builder A P) fuel k (s0 s : state) :
  f64_forward b -> build alg b = Ok s0 -> reached alg None fuel k s0 s -> rc (i_sol s) = RSuccess ->
  let t := i_tprev s in let tf := b_tfinal b in
  (exists l, ts (i_sol s) = l ++ [t; i_t s]) /\ fle (b_t b) t /\ fle t tf /\
  i_t s = fadd t (fsub tf t) /\
  (is_finite (i_t s : f64) = true ->
     Rabs (B2R (i_t s : f64) - B2R (tf : f64)) <= bpow radix2 (-52) * (B2R (tf : f64) - B2R (t : f64))) /\
  (B2R (tf : f64) <= 2 * B2R (t : f64) \/ 2 * B2R (tf : f64) <= B2R (t : f64) ->
     feqb (i_t s) tf = true).
Proof.
  intros Hb H Hr Hs t tf. pose proof (f_runs _ _ _ _ _ Hb H Hr) as [Io If Id Idt Il Is Ila Ien].
  destruct Hb as (_ & F0 & Ff & _ & Fs & _). destruct (Ien Hs) as (Ft & Ht & Hl & Et).
  fold t in Ft, Ht, Hl, Et. fold tf in Ff, Ht, Et, Fs.
  assert (is_finite (fsub tf t) = true) as Fd by now apply (span_finite (b_t b)).
  split; [exact Hl|]. split; [apply fleb_R; try assumption; apply Ht|].
  split; [apply fleb_R; try assumption; apply Ht|]. split; [exact Et|]. split.
  - intros F. rewrite Et in F |- *. apply end_distance; try assumption. apply Ht.
  - intros Hx. destruct (end_exact t tf Ft Ff ltac:(apply Ht) Fd Hx) as (E1 & E2). rewrite Et.
    unfold feqb. rewrite Beqb_correct by assumption. apply Req_bool_true. exact E2.
Qed.
End Mono.
