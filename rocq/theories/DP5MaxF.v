(** Forward DormandPrince5 runs in binary64: how long the steps are. *)
From Coq Require Import ZArith List Bool Lia Reals Lra Sorted.
From RecordUpdate Require Import RecordSet.
From Flocq Require Import Core BinarySingleNaN.
From Verif Require Import Arith Vec Core Driver VecFacts DP5 DP5Facts Spec DP5Inv ArithF FFacts FMono FOrder SpecF64 DP5Mono.
Import ListNotations RecordSetNotations.
Local Open Scope R_scope.
Local Existing Instance prec_gt_0_53.
Local Existing Instance prec_lt_emax_53.

(** [t'] is [t] plus a number between 0 and [m], the sum rounded. *)
Definition step_within (m t t' : f64) : Prop := exists h, fle fzero h /\ fle h m /\ t' = fadd t h.

Lemma fle_finf (x : f64) : fge 0 x -> fleb x finf = true.
Proof. intros [->|(H & _)]; [reflexivity|]. destruct x as [[]| | |[]]; try discriminate; reflexivity. Qed.

Lemma fle_cases (a b : f64) : fge 0 a -> fleb a b = true ->
  (b = finf) \/ (is_finite a = true /\ is_finite b = true /\ 0 <= B2R a <= B2R b).
Proof.
  intros [->|(Fa & Pa)] H.
  - left. destruct b as [[]|[]| |[]]; try discriminate; reflexivity.
  - destruct b as [s|s| |s m e He].
    + right. split; [assumption|]. split; [reflexivity|]. split; [assumption|]. now apply fleb_R.
    + left. destruct s; [|reflexivity]. destruct a as [[]|[]| |[]]; discriminate.
    + destruct a as [[]|[]| |[]]; discriminate.
    + right. split; [assumption|]. split; [reflexivity|]. split; [assumption|]. now apply fleb_R.
Qed.

Lemma fle_trans0 (a b c : f64) : fge 0 a -> fleb a b = true -> fleb b c = true -> fleb a c = true.
Proof.
  intros Ha H1 H2. destruct (fle_cases a b Ha H1) as [->|(Fa & Fb & Pa & Pb)].
  - destruct c as [[]|[]| |[]]; try discriminate. now apply fle_finf.
  - now apply (fle_trans a b).
Qed.

Lemma fmul_nonneg (c x : f64) : is_finite c = true -> 0 < B2R c -> fge 0 x -> fge 0 (fmul c x).
Proof.
  intros Fc Pc [->|(Fx & Px)]; [left; now apply fmul_finf|].
  apply fge_0. apply fmul_ge0; try assumption. apply fge_0. right. auto.
Qed.

Lemma fmul_finite_R (c x : f64) : is_finite c = true -> is_finite x = true -> is_finite (fmul c x) = true ->
  B2R (fmul c x) = rnd64 (B2R c * B2R x).
Proof.
  intros Fc Fx F. pose proof (Bmult_correct 53 1024 _ _ mode_NE c x) as M.
  change (round_mode mode_NE) with (Znearest (fun x => negb (Z.even x))) in M. fold (fmul c x) in M.
  destruct (Rlt_bool _ _); [apply M|]. exfalso. 
  destruct (fmul c x) as [s|s| |s m e He]; try discriminate;
    cbn in M; destruct (xorb (Bsign c) (Bsign x)); discriminate.
Qed.

Lemma fmul_mono (c a b : f64) : is_finite c = true -> 0 < B2R c -> fge 0 a -> fleb a b = true ->
  fleb (fmul c a) (fmul c b) = true.
Proof.
  intros Fc Pc Ha H. pose proof (fmul_nonneg c a Fc Pc Ha) as Ga.
  destruct (fle_cases a b Ha H) as [->|(Fa & Fb & Pa & Pb)].
  - rewrite (fmul_finf c Fc Pc). now apply fle_finf.
  - assert (fge 0 (fmul c b)) as [->|(Fm & _)] by (apply fmul_nonneg; try assumption; right; split; [assumption|lra]).
    + now apply fle_finf.
    + pose proof (fmul_finite_R c b Fc Fb Fm) as Eb.
      assert (rnd64 (B2R c * B2R a) <= rnd64 (B2R c * B2R b)) as Hm by (apply rnd_le; nra).
      pose proof (Bmult_correct 53 1024 _ _ mode_NE c a) as M.
      change (round_mode mode_NE) with (Znearest (fun x => negb (Z.even x))) in M. fold (fmul c a) in M.
      assert (0 <= rnd64 (B2R c * B2R a)) as P1 by (apply rnd_ge_0; apply Rmult_le_pos; lra).
      pose proof (f_lt_emax (fmul c b)) as Lb.
      rewrite Rlt_bool_true in M.
      * destruct M as (M1 & M2 & _). rewrite Fc, Fa in M2. apply fleb_R; [exact M2|exact Fm|].
        rewrite M1, Eb. exact Hm.
      * rewrite Rabs_pos_eq by assumption. lra.
Qed.

Lemma fmul_101_ge (x : f64) : fge 0 x -> fleb x (fmul (f_lit 101 100) x) = true.
Proof.
  destruct lit_101_100 as (F & P). intros [->|(Fx & Px)]; [rewrite (fmul_finf _ F) by lra; reflexivity|].
  assert (fge 0 (fmul (f_lit 101 100) x)) as [->|(Fm & Pm)] by (apply fmul_nonneg; try assumption; [lra|right; auto]).
  - apply fle_finf. right. auto.
  - apply fleb_R; try assumption. rewrite fmul_finite_R by assumption. apply rnd_ge_f. nra.
Qed.

(** When a step is cut at [tf], the distance to [tf] is at most 1.01 times the
    step proposed. *)
Lemma cut_within (t tf d : f64) : is_finite t = true -> is_finite tf = true -> B2R t <= B2R tf ->
  is_finite (fsub tf t) = true -> fge 0 d ->
  fltb fzero (fmul (fsub (fadd t (fmul (f_lit 101 100) d)) tf) (f_of_Z 1)) = true ->
  fleb (fsub tf t) (fmul (f_lit 101 100) d) = true.
Proof.
  intros Ft Ff Hle Fs Hd H. destruct lit_101_100 as (F & P).
  assert (0 <= B2R (fsub tf t)) as Pd by (rewrite fsub_R by assumption; apply rnd_ge_0; lra).
  pose proof (fmul_nonneg _ d F ltac:(lra) Hd) as Hx.
  set (x := fmul (f_lit 101 100) d) in *. clearbody x.
  destruct Hx as [->|(Fx & Px)]; [apply fle_finf; right; auto|].
  apply fleb_R; try assumption. rewrite fsub_R by assumption. apply rnd_le_f.
  destruct (Rle_or_lt (B2R tf - B2R t) (B2R x)) as [Q|Q]; [exact Q|]. exfalso.
  assert (rnd64 (B2R t + B2R x) <= B2R tf) as Hr by (apply rnd_le_f; lra).
  destruct (fadd_below t x tf Ft Fx Px Hr) as (Fy & Ey & Hy).
  set (y := fadd t x) in *. clearbody y.
  pose proof (span_finite t y tf Ft Fy Ff Hy Fs) as Fty.
  pose proof (fsub_R tf y Ff Fy Fty) as Ety.
  pose proof (Bminus_correct 53 1024 _ _ mode_NE y tf Fy Ff) as M. fold (fsub y tf) in M.
  change (round_mode mode_NE) with (Znearest (fun x => negb (Z.even x))) in M.
  assert (rnd64 (B2R y - B2R tf) = - rnd64 (B2R tf - B2R y)) as Eo.
  { replace (B2R y - B2R tf) with (- (B2R tf - B2R y)) by ring. 
    apply round_NE_opp. }
  rewrite Rlt_bool_true in M.
  - destruct M as (M1 & M2 & _). rewrite (fmul_1_r _ M2) in H.
    apply fltb_R in H; [|reflexivity|exact M2]. rewrite M1 in H.
    assert (0 <= rnd64 (B2R tf - B2R y)) by (apply rnd_ge_0; lra).
    change (0 < rnd64 (B2R y - B2R tf)) in H. lra.
  - fold (fsub y tf). rewrite Eo, Rabs_Ropp, <- Ety. apply Rabs_def1; [apply f_lt_emax|apply f_gt_emax].
Qed.

Section MaxF.
Context (fpowf : f64 -> f64 -> f64) (fpowi : f64 -> Z -> f64) {P : Type}.
Notation A := (F64 fpowf fpowi).
Notation state := (integ A P (dp5_cache A)).
Notation alg := (@DormandPrince5 A P).

Lemma fabs_id (x : f64) : fge 0 x -> fleb (fabs x) x = true /\ fleb x (fabs x) = true.
Proof.
  intros [->|(Fx & Px)]; [split; reflexivity|].
  assert (is_finite (fabs x) = true) as Fa by (unfold fabs; rewrite is_finite_Babs; exact Fx).
  assert (B2R (fabs x) = B2R x) as Ea by (unfold fabs; rewrite B2R_Babs; apply Rabs_pos_eq; exact Px).
  split; apply fleb_R; try assumption; rewrite Ea; lra.
Qed.

Lemma fmul_1_l_le (x : f64) : fge 0 x -> fleb (fmul (f_of_Z 1) x) x = true.
Proof.
  destruct f_one as (E1 & E2 & _). intros Hx. pose proof (fmul_nonneg _ x E2 ltac:(lra) Hx) as Hm.
  destruct Hx as [->|(Fx & Px)]; [rewrite (fmul_finf _ E2) by lra; reflexivity|].
  pose proof (Bmult_correct 53 1024 _ _ mode_NE (f_of_Z 1) x) as M.
  change (round_mode mode_NE) with (Znearest (fun x => negb (Z.even x))) in M. fold (fmul (f_of_Z 1) x) in M.
  rewrite E1, Rmult_1_l in M. change (round radix2 (SpecFloat.fexp 53 1024)) with (round radix2 fexp64) in M.
  fold (rnd64 (B2R x)) in M. rewrite rnd_id in M. rewrite Rlt_bool_true in M.
  - destruct M as (M1 & M2 & _). rewrite E2, Fx in M2. apply fleb_R; [exact M2|exact Fx|]. rewrite M1. lra.
  - apply Rabs_def1; [apply f_lt_emax|apply f_gt_emax].
Qed.

Lemma fle_of_not_lt (m x : f64) : fge 0 m -> fge 0 x -> fltb m x = false -> fleb x m = true.
Proof.
  intros [->|(Fm & Pm)] Hx H; [now apply fle_finf|].
  destruct Hx as [->|(Fx & Px)].
  - destruct m as [[]|[]| |[]]; discriminate.
  - apply fleb_R; try assumption. destruct (Rle_or_lt (B2R x) (B2R m)) as [Q|Q]; [exact Q|].
    exfalso. assert (fltb m x = true) as E by (apply fltb_R; assumption). congruence.
Qed.

Lemma fmin_le_l (a y : f64) : fge 0 a -> fge 0 y -> fleb (fmin a y) a = true.
Proof.
  intros Ha Hy. unfold fmin. rewrite (fge_not_nan _ _ Ha), (fge_not_nan _ _ Hy).
  destruct (fltb y a) eqn:E.
  - destruct y as [[]|[]| |[] my ey Hye]; destruct a as [[]|[]| |[] ma ea Hae]; try discriminate; try reflexivity.
    all: apply fltb_R in E; [|reflexivity..]; apply fleb_R; [reflexivity..|]; lra.
  - destruct Ha as [->|(Fa & Pa)]; [reflexivity|]. apply fleb_R; try assumption. lra.
Qed.

(** The step size proposed after an accepted step is at most [dtmax]. *)
Lemma next_dt_max (s : state) err : f64_sane (i_opts s) -> i_tdir s = f_of_Z 1 ->
  is_finite (i_dt s : f64) = true -> 0 <= B2R (i_dt s : f64) ->
  fleb (dtnew_accept (A := A) err s) (o_dtmax (i_opts s)) = true.
Proof.
  intros So Hd Fd Pd. pose proof (accept_factor _ _ s err So) as Hf. destruct So as (_&_&_&_&_&_&Hm&_).
  apply fge_0 in Hm. unfold dtnew_accept. cbv zeta.
  set (fac := dp5_fac err s) in *. clearbody fac.
  assert (fge 0 (div A (i_dt s) fac)) as H0 by now apply fdiv_ge0.
  set (d0 := div A (i_dt s) fac) in *. clearbody d0.
  set (d1 := if ltb A (o_dtmax (i_opts s)) (nabs A d0) then _ else d0).
  assert (fge 0 d1 /\ fleb d1 (o_dtmax (i_opts s)) = true) as (H1 & H2).
  { unfold d1. destruct (ltb A _ _) eqn:E.
    - rewrite Hd. split; [now apply fmul_one_l|now apply fmul_1_l_le].
    - split; [assumption|]. destruct (fabs_id d0 H0) as (_ & Q).
      apply (fle_trans0 d0 (fabs d0)); try assumption.
      apply fle_of_not_lt; [assumption| |exact E]. now apply fabs_ge. }
  clearbody d1.
  destruct (reject (i_cache s)); [|assumption]. rewrite Hd.
  assert (fge 0 (fabs d1)) as G1 by now apply fabs_ge.
  assert (fge 0 (fabs (i_dt s))) as G2 by (apply fabs_ge; right; auto).
  assert (fge 0 (fmin (fabs d1) (fabs (i_dt s)))) as G3 by now apply fmin_ge0.
  apply (fle_trans0 _ (fmin (fabs d1) (fabs (i_dt s)))); [now apply fmul_one_l|now apply fmul_1_l_le|].
  apply (fle_trans0 _ (fabs d1)); [assumption|now apply fmin_le_l|].
  apply (fle_trans0 _ d1); try assumption. now apply fabs_id.
Qed.

Lemma rejections_dt k (s s' : state) : f64_sane (i_opts s) -> rejections k s s' ->
  is_finite (i_dt s : f64) = true -> 0 <= B2R (i_dt s : f64) ->
  is_finite (i_dt s' : f64) = true /\ 0 <= B2R (i_dt s' : f64) <= B2R (i_dt s : f64).
Proof.
  intros So H. revert So. induction H as [s|k s s1 s2 Ha Hr IH]; intros So F0 P0; [split; [assumption|lra]|].
  destruct (attempt_dt _ _ _ _ So Ha) as (x & Hx & Ed).
  apply dp5_attempt_rejected in Ha. destruct (atr_problem _ _ Ha) as (_&_&_&_&_&_&Eo).
  destruct (fdiv_ge (i_dt s) x (1004/1000) F0 P0 ltac:(lra) Hx) as (Q1 & (Q2 & Q3) & Q4).
  destruct IH as (I1 & I2); [now rewrite Eo|rewrite Ed; exact Q1|rewrite Ed; exact Q2|].
  split; [exact I1|]. rewrite Ed in I2. 
  assert (B2R (fdiv (i_dt s) x) <= B2R (i_dt s : f64)) by lra. 
  change (div A) with fdiv in *. split; [apply I2|]. apply Rle_trans with (1 := proj2 I2). assumption.
Qed.

(** One step: its length, and the step size proposed for the next. *)
Lemma step_max fuel (s s' : state) (m : f64) :
  ready _ _ s -> dp5_step fuel s = Ok s' -> fleb (i_dt s) m = true ->
  step_within (fmul (f_lit 101 100) m) (i_t s) (i_t s') /\ fleb (i_dt s') (o_dtmax (i_opts s)) = true.
Proof.
  intros [So Hd Ft Ff Hle Fs Hdt] H Hm.
  apply dp5_step_inv in H as (k & sk & sa & _ & Hr & Ha & ->).
  destruct (dp5_clip_frame s) as ((_&_&_&_&C1&C2&C3) & (_&C4&_) & _).
  destruct lit_101_100 as (F101 & P101).
  assert (is_finite (i_dt (dp5_clip s) : f64) = true /\ 0 <= B2R (i_dt (dp5_clip s) : f64) /\
          fleb (i_dt (dp5_clip s)) (fmul (f_lit 101 100) (i_dt s)) = true) as (D1 & D2 & D3).
  { destruct (dp5_clip_cases s) as [(Hc & Ec)|(Hc & Ec)].
    - assert (i_dt (dp5_clip s) = fsub (i_tfinal s) (i_t s)) as Ed by (rewrite Ec; reflexivity).
      rewrite Ed. split; [exact Fs|]. split.
      + rewrite fsub_R by assumption. apply rnd_ge_0. lra.
      + rewrite Hd in Hc. now apply cut_within.
    - rewrite Hd in Hc. destruct (uncut_step _ _ _ Ft Ff Hdt Hc) as (Q1 & Q2 & Q3).
      rewrite Ec. split; [exact Q1|]. split; [exact Q2|]. now apply fmul_101_ge. }
  destruct (rejections_dt k _ _ ltac:(now rewrite C3) Hr D1 D2) as (K1 & K2).
  pose proof (rejections_many _ _ _ Hr) as Rm.
  destruct (rm_problem _ _ _ Rm) as (_&_&_&_&R1&R2&R3). destruct (rm_point _ _ _ Rm) as (_&R4&_).
  apply dp5_attempt_inv in Ha as (s1 & Hs & [(_ & _ & Acc)|(D & _)]); [|discriminate].
  pose proof (compute_stages_inv _ _ Hs) as (_ & (_&_&_&_&S1&S2&S3) & (_&S4&_) & S5 & _ & _ & _ & _ & _ & _ & _ & S6 & _).
  destruct (dp5_finish_frame sa) as (_ & _ & F1 & F2 & _ & _ & F4 & F3 & _).
  split.
  - exists (i_dt sk). split; [apply fge_0; right; split; [exact K1|apply K2]|]. split.
    + apply (fle_trans (i_dt sk) (i_dt (dp5_clip s))); [exact K1|exact D1|apply fleb_R; [exact K1|exact D1|apply K2]|].
      assert (fge 0 (i_dt (dp5_clip s))) as G by (right; auto).
      apply (fle_trans0 _ (fmul (f_lit 101 100) (i_dt s))); [exact G|exact D3|].
      apply fmul_mono; [assumption|lra|assumption|exact Hm].
    + rewrite F1, (acc_t _ _ _ Acc), S4, S5, R4, C4. reflexivity.
  - rewrite F2, (acc_dt _ _ _ Acc). rewrite <- C3, <- R3, <- S3. apply next_dt_max.
    + rewrite S3, R3, C3. assumption.
    + rewrite S1, R1, C1. assumption.
    + rewrite S5. assumption.
    + rewrite S5. apply K2.
Qed.

(** The bound on the step after the points [l]: the initial step size for the
    first step, [dtmax] for the others. *)
Definition step_limit (b : builder A P) (l : list f64) : f64 :=
  match l with [] => b_dt b | _ => o_dtmax (b_opts b) end.

Record max_run (b : builder A P) (s : state) : Prop := {
  mr_gaps : forall l1 t t' l2, ts (i_sol s) = l1 ++ t :: t' :: l2 ->
    step_within (fmul (f_lit 101 100) (step_limit b l1)) t t';
  mr_dt : fleb (i_dt s) (step_limit b (removelast (ts (i_sol s)))) = true }.

Lemma max_run_step (b : builder A P) fuel (s s' : state) r : f64_forward b ->
  f_run _ _ b s -> max_run b s -> rc (i_sol s) = RContinue -> step alg None fuel s = Ok (s', r) -> max_run b s'.
Proof.
  intros (So & F0 & Ff & Hlt & Fs & _) [Io If Id Idt (l & Il & _ & _) _ Ila _] [Mg Md] Hc Hs.
  unfold step in Hs. apply bind_ok in Hs as (s3 & Hs & E). cbn [run_callback] in E.
  injection E as E _. subst s3. cbn [alg_step DormandPrince5 Cache] in Hs.
  destruct Ila as (Hl & Ft & Ht); [congruence|].
  assert (ready _ _ s) as Rd.
  { constructor; rewrite ?Io, ?If; try assumption; [apply Ht|]. now apply (span_finite (b_t b)). }
  pose proof (step_max fuel s s' _ Rd Hs Md) as (W & D). rewrite Il, removelast_last in W. rewrite Io in D.
  pose proof (dp5_step_effect_of _ _ _ Hs) as Ef. open_effect Ef.
  rewrite Il in se_ts0, Mg. clear - W D se_ts0 Mg.
  constructor.
  - intros l1 t t' l2 E. rewrite se_ts0 in E.
    destruct l2 as [|z l2 _] using rev_ind.
    + change (l1 ++ [t; t']) with (l1 ++ [t] ++ [t']) in E. rewrite app_assoc in E.
      apply app_inj_tail in E as (E & Et'). apply app_inj_tail in E as (E & Et). subst. exact W.
    + replace (l1 ++ t :: t' :: l2 ++ [z]) with ((l1 ++ t :: t' :: l2) ++ [z]) in E by (rewrite <- app_assoc; reflexivity).
      apply app_inj_tail in E as (E & _). eapply Mg. exact E.
  - rewrite se_ts0, removelast_last. destruct (l ++ [i_t s]) as [|x l'] eqn:E; [destruct l; discriminate|exact D].
Qed.

Lemma max_run_build (b : builder A P) (s : state) : f64_forward b -> build alg b = Ok s -> max_run b s.
Proof.
  intros (_ & _ & _ & _ & _ & Hdt) H.
  apply dp5_build_inv in H as (_&_&_&_&_&Et&Ed&_&_&_&_&_&_&_&Esol&_).
  constructor; rewrite Esol; cbn [ts].
  - intros l1 t t' l2 E. destruct l1 as [|? [|]]; discriminate.
  - cbn [removelast step_limit]. rewrite Ed. apply fge_0 in Hdt. destruct Hdt as [E|(F & _)].
    + rewrite E. reflexivity.
    + apply fleb_R; try assumption. lra.
Qed.

(** C16 in binary64. *)
Lemma dp5_f64_dtmax (b : builder A P) fuel k (s0 s : state) :
  f64_forward b -> build alg b = Ok s0 -> reached alg None fuel k s0 s ->
  forall l1 t t' l2, ts (i_sol s) = l1 ++ t :: t' :: l2 ->
  exists h, fle fzero h /\ fle h (fmul (f_lit 101 100) (match l1 with [] => b_dt b | _ => o_dtmax (b_opts b) end)) /\
    t' = fadd t h.
Proof.
  intros Hb H Hr. destruct (f_run_build _ _ b s0 Hb H) as [Hi Hrc].
  assert (f_run _ _ b s /\ max_run b s) as [_ [Q _]]; [|exact Q].
  refine (reached_invariant alg None fuel (fun s => f_run _ _ b s /\ max_run b s) _ k s0 s Hr Hrc _).
  - intros s1 s2 r (R1 & R2) Hc Hs. split; [eapply f_run_step; eassumption|eapply max_run_step; eassumption].
  - split; [exact Hi|]. now apply max_run_build.
Qed.
End MaxF.
