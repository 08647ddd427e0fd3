(** One DormandPrince5 step in binary64, with explicit constants. *)
From Coq Require Import ZArith List Bool Lia Reals Lra Sorted.
From RecordUpdate Require Import RecordSet.
From Flocq Require Import Core BinarySingleNaN.
From Verif Require Import Arith Vec Core Driver VecFacts DP5 DP5Facts Spec SpecRK SpecODE SpecConv SpecF64 SpecF64Conv
  RKFacts DP5Inv DP5RK ArithF FFacts FMono FOrder FErr DP5Mono ConvLocal ConvGlobal PertRK DP5Round DP5F64Conv F64Ex.
Import ListNotations RecordSetNotations.
Local Open Scope R_scope.
Local Existing Instance prec_gt_0_53.
Local Existing Instance prec_lt_emax_53.

Lemma row_weight l : (l < 7)%nat -> asum l (da l) <= 25.
Proof.
  intros Hl. unfold asum, rsum, da, comp, dopri_rows.
  destruct l as [|[|[|[|[|[|[|l]]]]]]]; cbn [map seq fold_right nth snd]; try lia;
  repeat first [rewrite Rabs_Ropp | rewrite Rabs_R0 | rewrite Rabs_right by lra]; lra.
Qed.
Lemma last_weight : asum 6 (da 6) <= 2.
Proof.
  unfold asum, rsum, da, comp, dopri_rows; cbn [map seq fold_right nth snd];
  repeat first [rewrite Rabs_Ropp | rewrite Rabs_R0 | rewrite Rabs_right by lra]; lra.
Qed.
Lemma weighted j (w a : nat -> R) M : (forall l, (l < j)%nat -> Rabs (a l) <= M) -> Rabs (rsum j (fun l => w l * a l)) <= asum j w * M.
Proof.
  intros H. pose proof (wdiff j w a (fun _ => 0) M) as X. 
  replace (rsum j (fun l => w l * a l)) with (rsum j (fun l => w l * a l) - rsum j (fun l => w l * 0)).
  - apply X. intros l Hl. rewrite Rminus_0_r. apply H. exact Hl.
  - replace (rsum j (fun l => w l * 0)) with 0; [ring|]. clear. induction j; [reflexivity|]. rewrite rsum_S, <- IHj. ring.
Qed.
Lemma Y6_rk f u t h i : (i < length u)%nat -> comp (Y f u t h 6) i = comp (rk_step dopri_rows dopri_b f t u h) i.
Proof.
  intros Hi. rewrite Y_comp by (try exact Hi; lia). rewrite step_comp6 by exact Hi. reflexivity.
Qed.

Section Step.
Context (fpowf : f64 -> f64 -> f64) (fpowi : f64 -> Z -> f64) {P : Type}.
Notation A := (F64 fpowf fpowi).
Context (f : rhs A P) (p : P) (n : nat) (F : R -> list R -> list R) (t0 T V M L Lt d : R).
Hypothesis TM : tame n f p F t0 T V M L Lt d.
Context (u : list f64) (t dt : f64) (b1 b2 b3 b4 b5 b6 b7 : list f64).
Hypothesis Lu : length u = n.
Hypothesis Lb : forall l, length (bf b1 b2 b3 b4 b5 b6 b7 l) = n.
Hypothesis Ft : is_finite t = true.
Hypothesis Fdt : is_finite dt = true.
Hypothesis Fu : finite_vec u.
Context (U W Tm : R).
Hypothesis HU : box n U (Rvec u).
Hypothesis HM : 0 <= M. Hypothesis Hd : 0 <= d. Hypothesis HL : 0 <= L. Hypothesis HLt : 0 <= Lt. Hypothesis HV : 0 <= V.
Hypothesis EW : W = V + M + d + 1.
Hypothesis HW2 : W <= bpow radix2 1005.
Hypothesis HT : Rabs (B2R t) <= Tm.
Hypothesis HT2 : Tm <= bpow radix2 1005.
Notation h := (B2R dt).
Notation ea := (600 * u64 * W).
Hypothesis Hdt : 0 <= h <= 1.
Hypothesis HLh : L * h <= 1 / 50.
Hypothesis Hroom : U + 25 * h * (M + d) + ea <= V.
Hypothesis Ht0 : t0 <= B2R t.
Hypothesis HtT : B2R t + h + et Tm <= T.
Notation q := (d + L * ea + Lt * et Tm).
Notation kf := (kf fpowf fpowi f p u t dt b1 b2 b3 b4 b5 b6 b7).
Notation yf := (yf fpowf fpowi f p u t dt b1 b2 b3 b4 b5 b6).
Notation tf_ := (tf_ fpowf fpowi t dt).

Lemma step_stages l : (l < 7)%nat ->
  good fpowf fpowi f p n u t dt b1 b2 b3 b4 b5 b6 b7 W l /\
  (forall i, (i < n)%nat -> Rabs (comp (Rvec (kf l)) i) <= M + d) /\
  (forall i, (i < n)%nat -> Rabs (comp (K F (Rvec u) (B2R t) h l) i) <= M) /\
  close n (2 * q) (Rvec (kf l)) (K F (Rvec u) (B2R t) h l) /\
  close n (ea + h * (asum l (da l) * (2 * q))) (Rvec (yf l)) (Y F (Rvec u) (B2R t) h l) /\
  finite_vec (yf l).
Proof.
  pose proof u64_pos as Hu.
  assert (1 <= W) as HW by lra.
  assert (0 <= ea) as Hea by (repeat apply Rmult_le_pos; lra).
  assert (0 <= et Tm) as Het by (unfold et; pose proof (Rabs_pos (B2R t)); repeat apply Rmult_le_pos; lra).
  assert (0 <= L * ea) by (apply Rmult_le_pos; lra). assert (0 <= Lt * et Tm) by (apply Rmult_le_pos; lra).
  assert (forall i, (i < n)%nat -> fits W (@at_ A u i)) as Hfit.
  { intros i Hi. split; [apply finite_at; [exact Fu|rewrite Lu; exact Hi]|].
    rewrite <- (comp_Rvec fpowf fpowi). destruct HU as (_ & Q). specialize (Q i Hi).
    assert (0 <= 25 * h * (M + d)) by (repeat apply Rmult_le_pos; lra). lra. }
  assert (forall l, (l < 7)%nat -> t0 <= B2R (tf_ l) <= T /\ t0 <= B2R t + dc l * h <= T) as Hspan.
  { intros l' Hl. destruct (rounded_times fpowf fpowi n u t dt Lu W HW HW2 Ft Fdt Hdt Tm HT HT2 l' Hl) as (F1 & F2 & F3). apply Rabs_le_inv in F3.
    pose proof (dc_range l'). assert (0 <= dc l' * h <= 1 * h) by (split; [apply Rmult_le_pos; lra|apply Rmult_le_compat_r; lra]). lra. }
  induction l as [l IH] using (well_founded_induction lt_wf). intros Hl.
  assert (forall m, (m < l)%nat -> good fpowf fpowi f p n u t dt b1 b2 b3 b4 b5 b6 b7 W m) as HG.
  { intros m Hm. apply IH; lia. }
  pose proof (rounded_points fpowf fpowi f p n u t dt b1 b2 b3 b4 b5 b6 b7 Lu Lb W HW HW2 Fdt Hdt Hfit l Hl HG) as RP.
  destruct (rounded_times fpowf fpowi n u t dt Lu W HW HW2 Ft Fdt Hdt Tm HT HT2 l Hl) as (F1 & _ & F3).
  pose proof (row_weight l Hl) as HA. pose proof (asum_pos l (da l)) as HA0.
  assert (forall i, (i < n)%nat -> Rabs (comp (Rvec (yf l)) i - (comp (Rvec u) i + h * rsum l (fun m => da l m * comp (Rvec (kf m)) i))) <= ea) as Hpt.
  { intros i Hi. destruct (RP i Hi) as (_ & E). rewrite !(comp_Rvec fpowf fpowi).
    erewrite (rsum_ext l (fun m => da l m * comp (Rvec (kf m)) i)); [exact E|].
    intros m Hm. cbn beta. rewrite (comp_Rvec fpowf fpowi). reflexivity. }
  assert (length (yf l) = n) as Ly' by exact (Ly fpowf fpowi f p n u t dt b1 b2 b3 b4 b5 b6 b7 Lu Lb l).
  assert (finite_vec (yf l)) as Fy.
  { apply (finite_at fpowf fpowi). intros i Hi. rewrite Ly' in Hi. apply (RP i Hi). }
  assert (forall i B (g : nat -> R), (i < n)%nat -> 0 <= B -> (forall m, (m < l)%nat -> Rabs (g m) <= B) ->
     Rabs (comp (Rvec u) i + h * rsum l (fun m => da l m * g m)) <= U + 25 * h * B) as Hsize.
  { intros i B g Hi HB Hg. eapply Rle_trans; [apply Rabs_triang|]. apply Rplus_le_compat; [apply HU; exact Hi|].
    rewrite Rabs_mult, (Rabs_right h) by lra. rewrite (Rmult_comm 25), Rmult_assoc. apply Rmult_le_compat_l; [lra|].
    eapply Rle_trans; [apply weighted; exact Hg|]. apply Rmult_le_compat_r; lra. }
  assert (box n V (Rvec (yf l))) as By.
  { split; [rewrite Rvec_length; exact Ly'|]. intros i Hi. specialize (Hpt i Hi). apply Rabs_near in Hpt.
    pose proof (Hsize i (M + d) (fun m => comp (Rvec (kf m)) i) Hi ltac:(lra) (fun m Hm => proj1 (proj2 (IH m Hm ltac:(lia))) i Hi)). lra. }
  assert (box n V (Y F (Rvec u) (B2R t) h l)) as BY.
  { split; [rewrite Y_length, Rvec_length; exact Lu|]. intros i Hi. rewrite Y_comp by (rewrite ?Rvec_length, ?Lu; lia).
    pose proof (Hsize i M (fun m => comp (K F (Rvec u) (B2R t) h m) i) Hi ltac:(lra) (fun m Hm => proj1 (proj2 (proj2 (IH m Hm ltac:(lia)))) i Hi)).
    assert (25 * h * M <= 25 * h * (M + d)) by (apply Rmult_le_compat_l; lra). lra. }
  assert (close n (ea + h * (asum l (da l) * (2 * q))) (Rvec (yf l)) (Y F (Rvec u) (B2R t) h l)) as HYl.
  { intros i Hi. rewrite Y_comp by (rewrite ?Rvec_length, ?Lu; lia).
    pose proof (wdiff l (da l) (fun m => comp (Rvec (kf m)) i) (fun m => comp (K F (Rvec u) (B2R t) h m) i) (2 * q)
                  (fun m Hm => proj1 (proj2 (proj2 (proj2 (IH m Hm ltac:(lia))))) i Hi)) as Wd.
    eapply Rle_trans; [eapply Rabs_chain; [exact (Hpt i Hi)|]|].
    - replace (_ - _) with (h * (rsum l (fun m => da l m * comp (Rvec (kf m)) i) - rsum l (fun m => da l m * comp (K F (Rvec u) (B2R t) h m) i))) by ring.
      rewrite Rabs_mult, (Rabs_right h) by lra. apply Rmult_le_compat_l; [lra|exact Wd].
    - lra. }
  destruct (Hspan l Hl) as (Sp1 & Sp2).
  assert (forall i, (i < n)%nat -> is_finite (@at_ A (kf l) i : f64) = true /\
              Rabs (comp (Rvec (kf l)) i - comp (F (B2R (tf_ l)) (Rvec (yf l))) i) <= d) as Hk.
  { intros i Hi. rewrite (comp_Rvec fpowf fpowi), kf_call.
    assert (@at_ A (@call_rhs A P f (bf b1 b2 b3 b4 b5 b6 b7 l) (yf l) (tf_ l) p) i = f (bf b1 b2 b3 b4 b5 b6 b7 l) (yf l) (tf_ l) p i) as ->.
    { apply (@call_rhs_at A). change (i < @length f64 (bf b1 b2 b3 b4 b5 b6 b7 l))%nat. rewrite Lb. exact Hi. }
    apply (tm_eval _ _ _ _ _ _ _ _ _ _ _ TM); try assumption. apply Lb. }
  assert (forall i, (i < n)%nat -> Rabs (comp (Rvec (kf l)) i) <= M + d) as Hkb.
  { intros i Hi. destruct (Hk i Hi) as (_ & E). apply Rabs_near in E.
    pose proof (tm_bound _ _ _ _ _ _ _ _ _ _ _ TM (B2R (tf_ l)) (Rvec (yf l)) i Sp1 By Hi). lra. }
  split; [|split; [|split; [|split; [|split]]]].
  - intros i Hi. split; [apply Hk; exact Hi|]. rewrite <- (comp_Rvec fpowf fpowi). specialize (Hkb i Hi). lra.
  - exact Hkb.
  - intros i Hi. rewrite K_Y by exact Hl. apply (tm_bound _ _ _ _ _ _ _ _ _ _ _ TM); assumption.
  - rewrite K_Y by exact Hl.
    apply (close_le n (d + (Lt * et Tm + L * (ea + h * (asum l (da l) * (2 * q)))))).
    + assert (L * (h * (asum l (da l) * (2 * q))) <= q); [|lra].
      replace (L * (h * (asum l (da l) * (2 * q)))) with ((L * h) * (2 * asum l (da l)) * q) by ring.
      rewrite <- (Rmult_1_l q) at 2. apply Rmult_le_compat_r; [lra|].
      assert (0 <= L * h) by (apply Rmult_le_pos; lra). nra.
    + apply (close_trans n _ _ _ (F (B2R (tf_ l)) (Rvec (yf l)))); [intros i Hi; apply Hk; exact Hi|].
      apply (close_trans n _ _ _ (F (B2R t + dc l * h) (Rvec (yf l)))).
      * apply (close_le n (Lt * Rabs (B2R (tf_ l) - (B2R t + dc l * h)))); [apply Rmult_le_compat_l; assumption|].
        apply (tm_time _ _ _ _ _ _ _ _ _ _ _ TM); assumption.
      * apply (tm_state _ _ _ _ _ _ _ _ _ _ _ TM); assumption.
  - exact HYl.
  - exact Fy.
Qed.

Lemma step_explicit : finite_vec (yf 6) /\
  close n (ea + 4 * h * q) (Rvec (yf 6)) (rk_step dopri_rows dopri_b F (B2R t) (Rvec u) h).
Proof.
  destruct (step_stages 6 ltac:(lia)) as (_ & _ & _ & _ & Hc & Hf). split; [exact Hf|].
  intros i Hi. rewrite <- Y6_rk by (rewrite Rvec_length, Lu; exact Hi). eapply Rle_trans; [apply Hc; exact Hi|].
  apply Rplus_le_compat_l. replace (4 * h * q) with (h * (4 * q)) by ring. apply Rmult_le_compat_l; [lra|].
  pose proof u64_pos. assert (0 <= et Tm) by (unfold et; pose proof (Rabs_pos (B2R t)); repeat apply Rmult_le_pos; lra).
  assert (0 <= L * ea) by (repeat apply Rmult_le_pos; lra). assert (0 <= Lt * et Tm) by (apply Rmult_le_pos; lra).
  pose proof last_weight. nra.
Qed.
End Step.

Theorem dp5_f64_step_error fpowf fpowi P (f : rhs (F64 fpowf fpowi) P) (p : P) n F t0 T V M L Lt d U H
    (b : builder (F64 fpowf fpowi) P) fuel k (s0 s : integ (F64 fpowf fpowi) P (dp5_cache (F64 fpowf fpowi))) :
  let Tm := Rabs t0 + Rabs T in let W := V + M + d + 1 in
  tame n f p F t0 T V M L Lt d ->
  0 <= V -> 0 <= M -> 0 <= L -> 0 <= Lt -> 0 <= d -> W <= bpow radix2 1000 -> Tm <= bpow radix2 1000 ->
  H <= 1 -> L * H <= 1 / 50 -> U + 25 * H * (M + d) + 600 * u64 * W <= V ->
  b_dudt b = f -> b_params b = p -> length (b_u b) = n -> B2R (b_t b : f64) = t0 ->
  B2R (b_tfinal b : f64) + 24 * u64 * (1 + Tm) <= T ->
  f64_forward b -> build DormandPrince5 b = Ok s0 -> reached DormandPrince5 None fuel k s0 s ->
  linked (fun x z : f64 * list f64 =>
    finite_vec (snd x) -> box n U (Rvec (snd x)) -> B2R (fst z) - B2R (fst x) + 2 * u64 * (1 + Tm) <= H ->
    finite_vec (snd z) /\
    exists h, 0 <= h <= H /\ Rabs (B2R (fst z) - (B2R (fst x) + h)) <= 2 * u64 * (1 + Tm) /\
      close n (600 * u64 * W + 4 * h * (d + L * (600 * u64 * W) + Lt * (8 * u64 * (1 + Tm)))) (Rvec (snd z))
        (rk_step dopri_rows dopri_b F (B2R (fst x)) (Rvec (snd x)) h)) (points s).
Proof.
  intros Tm W TM HV HM HL HLt Hd HW HT HH HLH Hroom Ef Ep Lu E0 ET Hb Hbd Hre.
  pose proof (finv_reached _ _ b fuel k s0 s Hb Hbd Hre) as [Ir If Ip In_ _ Il (lz & Isn) (l0 & Ifst) Ilk].
  rewrite Ef, Ep, Lu in *. pose proof u64_pos as Hu. pose proof (Rabs_pos t0). pose proof (Rabs_pos T).
  assert (0 <= Tm) as HTm by (unfold Tm; lra).
  assert (0 <= u64 * Tm) as HuT by (apply Rmult_le_pos; lra).
  assert (t0 <= B2R (b_tfinal b : f64)) as Htf.
  { destruct Hb as (_ & F0 & Ff & Hlt & _). apply fltb_R in Hlt; [|assumption..]. rewrite E0 in Hlt. lra. }
  assert (forall z, t0 <= z <= T -> Rabs z <= Tm) as Hin.
  { intros z Hz. unfold Tm. apply Rabs_le. pose proof (Rle_abs (- t0)). pose proof (Rle_abs T). rewrite Rabs_Ropp in *. lra. }
  intros l1 (t & u) (t' & u') l2 Epts Fu HU Hgap. cbn [fst snd] in *.
  assert (nth_error (points s) (length l1) = Some (t, u)) as Hx1 by (rewrite Epts, nth_error_app2, Nat.sub_diag by lia; reflexivity).
  assert (nth_error (points s) (S (length l1)) = Some (t', u')) as Hx2.
  { rewrite Epts, nth_error_app2 by lia. replace (S (length l1) - length l1)%nat with 1%nat by lia. reflexivity. }
  assert (forall tz : f64, In tz (ts (i_sol s)) -> is_finite tz = true /\ t0 <= B2R tz <= B2R (b_tfinal b : f64) + 4 * u64 * Tm) as Htimes.
  { intros tz Hz. destruct (run_times _ _ b fuel k s0 s Tm Hb Hbd Hre) with (t := tz) as (Q1 & Q2 & Q3); try assumption.
    - rewrite E0. apply Hin. lra.
    - apply Hin. lra.
    - rewrite E0 in Q2. auto. }
  destruct (Htimes t) as (Ft & Bt). { apply (nth_error_In _ (length l1)). apply combine_nth_inv in Hx1. apply Hx1. }
  destruct (Htimes t') as (Ft' & Bt'). { apply (nth_error_In _ (S (length l1))). apply combine_nth_inv in Hx2. apply Hx2. }
  destruct (Ilk _ _ _ _ Epts) as (dt & b1 & b2 & b3 & b4 & b5 & b6 & b7 & Lb & Fdt & Pdt & Et' & Eu').
  cbn [fst snd] in Et', Eu'.
  assert (Rabs (B2R t' - (B2R t + B2R dt)) <= 2 * u64 * (1 + Tm)) as Hrt.
  { rewrite Et'. apply rounded_time; try assumption; rewrite <- Et'; [exact Ft'|]. apply Hin. lra. }
  pose proof (Rabs_le_inv _ _ Hrt) as Hrt2.
  assert (0 <= B2R dt <= H) as Hdt by lra.
  assert (bpow radix2 1000 <= bpow radix2 1005) as Hb1005 by (apply bpow_le; lia).
  assert (length u = n) as Lu'. { destruct HU as (Q & _). rewrite Rvec_length in Q. exact Q. }
  assert (forall l, length (bf b1 b2 b3 b4 b5 b6 b7 l) = n) as Lbf.
  { repeat match goal with HF : Forall _ (_ :: _) |- _ => apply Forall_cons_iff in HF as (? & HF) end.
    intros l. do 7 (destruct l as [|l]; [assumption|]). assumption. }
  assert (L * B2R dt <= L * H) by (apply Rmult_le_compat_l; lra).
  assert (25 * B2R dt * (M + d) <= 25 * H * (M + d)) by (apply Rmult_le_compat_r; lra).
  destruct (step_explicit fpowf fpowi f p n F t0 T V M L Lt d TM u t dt b1 b2 b3 b4 b5 b6 b7 Lu' Lbf Ft Fdt Fu U W Tm HU HM Hd HL HLt HV
    eq_refl ltac:(lra) ltac:(apply Hin; lra) ltac:(lra) ltac:(lra) ltac:(lra) ltac:(fold W; lra) ltac:(lra) ltac:(unfold et; lra)) as (X1 & X2).
  cbn [yf] in X1, X2. rewrite <- Eu' in X1, X2. split; [exact X1|].
  exists (B2R dt). split; [exact Hdt|]. split; [exact Hrt|]. exact X2.
Qed.

(** ** The oscillator [u' = v], [v' = -u] *)
Definition osc (t : R) (u : list R) : list R := [comp u 1; - comp u 0].
Definition osc_sol (t : R) : list R := [cos t; - sin t].
Lemma osc_0 t u : comp (osc t u) 0 = comp u 1. Proof. reflexivity. Qed.
Lemma osc_1 t u : comp (osc t u) 1 = - comp u 0. Proof. reflexivity. Qed.

Lemma z_tame T V : tame 2 oscZ tt osc 0 T V V 1 0 0.
Proof.
  constructor.
  - intros t u i _ (_ & HB) Hi. destruct i as [|[|i]]; [| |lia]; rewrite ?osc_0, ?osc_1.
    + apply HB. lia.
    + rewrite Rabs_Ropp. apply HB. lia.
  - intros t u v e _ _ _ Hc i Hi. rewrite Rmult_1_l. destruct i as [|[|i]]; [| |lia]; rewrite ?osc_0, ?osc_1.
    + apply Hc. lia.
    + replace (- comp u 0 - - comp v 0) with (- (comp u 0 - comp v 0)) by ring. rewrite Rabs_Ropp. apply Hc. lia.
  - intros s t u _ _ _ i Hi. unfold osc. rewrite Rminus_eq_0, Rabs_R0, Rmult_0_l. lra.
  - intros buf u t i _ Fu (Lu & _) Ft _ Hi. rewrite Rvec_length in Lu.
    assert (forall j, (j < 2)%nat -> is_finite (@at_ XZ u j : f64) = true) as Fj.
    { intros j Hj. apply (finite_at zpow (fun _ _ => f_lit 1 1)); [exact Fu|rewrite Lu; exact Hj]. }
    destruct i as [|[|i]]; [| |lia]; rewrite ?osc_0, ?osc_1.
    + split; [apply Fj; lia|]. rewrite (comp_Rvec zpow (fun _ _ => f_lit 1 1)).
      change (oscZ buf u t tt 0%nat) with (@at_ XZ u 1). rewrite Rminus_eq_0, Rabs_R0. lra.
    + change (oscZ buf u t tt 1%nat) with (fopp (@at_ XZ u 0)). split.
      * unfold fopp. rewrite is_finite_Bopp. apply Fj. lia.
      * unfold fopp. rewrite B2R_Bopp, (comp_Rvec zpow (fun _ _ => f_lit 1 1)).
        assert (forall r, Rabs (- r - - r) <= 0) as Z by (intros r; rewrite Rminus_eq_0, Rabs_R0; lra). apply Z.
Qed.

Definition trig (m : nat) (t : R) : R := match m with 0 | 4 => cos t | 1 | 5 => - sin t | 2 | 6 => - cos t | _ => sin t end%nat.
Lemma trig_der m t : (m <= 6)%nat -> derivable_pt_lim (trig m) t (trig (S m) t).
Proof.
  intros Hm.
  assert (derivable_pt_lim (fun t => - sin t) t (- cos t)) by (apply (derivable_pt_lim_opp sin), derivable_pt_lim_sin).
  assert (derivable_pt_lim (fun t => - cos t) t (sin t)).
  { rewrite <- (Ropp_involutive (sin t)). apply (derivable_pt_lim_opp cos), derivable_pt_lim_cos. }
  do 7 (destruct m as [|m]; [first [assumption | apply derivable_pt_lim_cos | apply derivable_pt_lim_sin]|]). lia.
Qed.
Lemma trig_le m t : Rabs (trig m t) <= 1.
Proof.
  pose proof (SIN_bound t). pose proof (COS_bound t). apply Rabs_le.
  do 7 (destruct m as [|m]; [cbn; lra|]). cbn. lra.
Qed.
Lemma osc_smooth T : smooth_problem 2 osc 0 T osc_sol.
Proof.
  constructor.
  - reflexivity.
  - exists (fun m i t => match i with O => trig m t | 1%nat => trig (S m) t | _ => 0 end), 1.
    split; [intros [|[|i]] t; [reflexivity|reflexivity|destruct i; reflexivity]|]. split; [|split].
    + intros [|[|i]] t Hi _; [reflexivity|reflexivity|lia].
    + intros m [|[|i]] t Hm Hi _; [| |lia]; apply trig_der; lia.
    + intros m [|[|i]] t Hm Hi _; [| |lia]; apply trig_le.
  - exists 1, 1. split; [lra|]. intros t u v d _ _ _ _ _ Hc i Hi. rewrite Rmult_1_l.
    destruct i as [|[|i]]; [| |lia]; rewrite ?osc_0, ?osc_1.
    + apply Hc. lia.
    + replace (- comp u 0 - - comp v 0) with (- (comp u 0 - comp v 0)) by ring. rewrite Rabs_Ropp. apply Hc. lia.
  - exists (fun i k _ => match i, k with O, 1%nat => 1 | 1%nat, O => -1 | _, _ => 0 end), (fun _ _ _ => 0), (fun _ _ _ => 0), 1, 1.
    split; [lra|]. split.
    + intros t v d _ _ Hd _ i Hi. assert (0 <= d ^ 2) by (apply pow_le; lra).
      destruct i as [|[|i]]; [| |lia]; unfold rsum, osc, comp; cbn [map seq fold_right nth];
      match goal with |- Rabs ?a <= _ => replace a with 0 by ring end; rewrite Rabs_R0; lra.
    + intros i k t _ _ _. split; [apply derivable_pt_lim_const|]. split; [apply derivable_pt_lim_const|].
      rewrite Rabs_R0. split; [|lra]. apply Rabs_le. destruct i as [|[|i]], k as [|[|k]]; lra.
Qed.
Lemma osc_time T : time_lipschitz 2 osc 0 T osc_sol.
Proof.
  exists 1, 0. split; [lra|]. intros s t u _ _ _ _ _ i _. unfold osc. rewrite Rminus_eq_0, Rabs_R0, Rmult_0_l. lra.
Qed.
