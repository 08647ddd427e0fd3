(** DormandPrince5 in exact arithmetic: integrations of bounded right-hand sides
    reach the end of the span. *)
From Coq Require Import ZArith List Bool Lia Reals Lra.
From Verif Require Import Arith Vec Core Driver VecFacts DP5 DP5Facts Spec SpecRK SpecODE SpecReach RKFacts DP5Inv
  ArithR DP5R DP5Time DP5RK DP5Term.
Import ListNotations.
Local Open Scope R_scope.

Lemma wrms_le c atol rtol u v d : 0 <= c -> u <> [] -> 0 < atol -> 0 <= rtol ->
  (forall i, (i < length u)%nat -> Rabs (comp d i) <= c * atol) -> wrms atol rtol u v d <= c.
Proof.
  intros Hc Hu Ha Hr Hd. unfold wrms. rewrite <- (sqrt_square c) by assumption. apply sqrt_le_1_alt.
  assert (0 < INR (length u)) as Hn by (apply lt_0_INR; destruct u; [contradiction|cbn; lia]).
  apply Rmult_le_reg_r with (INR (length u)); [assumption|].
  unfold Rdiv at 1. rewrite Rmult_assoc, Rinv_l, Rmult_1_r by lra.
  rewrite (Rmult_comm (c * c)). rewrite <- rsum_const. apply rsum_le. intros i Hi.
  specialize (Hd i Hi). set (w := atol + _).
  assert (atol <= w) as Hw.
  { unfold w. assert (0 <= rtol * Rmax (Rabs (comp u i)) (Rabs (comp v i))); [|lra].
    apply Rmult_le_pos; [assumption|]. eapply Rle_trans; [apply Rabs_pos|apply Rmax_l]. }
  clearbody w. set (x := comp d i) in *. clearbody x.
  assert (Rabs (x / w) <= c) as H1.
  { unfold Rdiv. rewrite Rabs_mult, (Rabs_right (/ w)).
    - apply Rmult_le_reg_r with w; [lra|]. rewrite Rmult_assoc, Rinv_l by lra.
      assert (c * atol <= c * w) by (apply Rmult_le_compat_l; lra). lra.
    - left. apply Rinv_0_lt_compat. lra. }
  pose proof (Rle_abs (x / w)). pose proof (Rle_abs (- (x / w))) as H2. rewrite Rabs_Ropp in H2. nra.
Qed.

Lemma rpower_pos x y : 0 < Rpower x y.
Proof. apply exp_pos. Qed.

Section DP5Succ.
Context {P : Type} (inf : R).
Notation RI := (RA inf).
Notation state := (integ RI P (dp5_cache RI)).
Notation alg := (@DormandPrince5 RI P).

Lemma expo1_control (s : state) : sane_opts (i_opts s) -> dp5_expo1 s = control_exponent (o_beta (i_opts s)).
Proof.
  intros [_ _ _ Hb _ _]. unfold dp5_expo1, control_exponent. rnorm.
  unfold rpow. destruct (Rlt_dec 0 (o_beta (i_opts s))) as [H|H].
  - destruct (Req_EM_T (o_beta (i_opts s)) 0); [lra|]. replace (75/100) with (3/4) by lra. lra.
  - destruct (Req_EM_T (o_beta (i_opts s)) 0); [|lra].
    destruct (Rlt_dec 0 (75/100)); lra.
Qed.

(** After a small error the step is not shrunk. *)
Lemma fac_small (err : num RI) kappa (s : state) :
  sane_opts (i_opts s) -> no_shrink_error (i_opts s) kappa ->
  1/10000 <= facold (i_cache s) -> 0 <= err <= kappa ->
  0 < dp5_fac err s <= 1.
Proof.
  intros Hso (Hk & Hfr & Hp) Hfo Herr. pose proof (fac_range inf err s Hso) as [Hf _].
  pose proof (expo1_control s Hso) as He. pose proof (expo1_nonneg inf s Hso) as Hnn.
  destruct Hso as [Hs Hl Hr Hb _ _].
  assert (0 < / o_facr (i_opts s)) by (apply Rinv_0_lt_compat; lra).
  split; [lra|]. clear Hf. unfold dp5_fac, dp5_fac2, dp5_fac1, dp5_fac11. rewrite He in *. rnorm.
  set (e := control_exponent (o_beta (i_opts s))) in *. clearbody e. clear He.
  set (sf := o_safe (i_opts s)) in *. set (be := o_beta (i_opts s)) in *.
  set (fo := facold (i_cache s)) in *.
  rewrite (rdiv_ok inf _ (o_facr _)) by lra. rewrite (rpow_pos inf fo) by lra.
  pose proof (rpower_pos fo be) as Hq. rewrite (rdiv_ok inf _ (Rpower fo be)) by lra.
  rewrite (rdiv_ok inf _ sf) by lra.
  assert (Rpower (1/10000) be <= Rpower fo be) as Hfb by (apply Rle_Rpower_l; lra).
  assert (rpow inf err e <= sf * Rpower fo be) as Hpw.
  { apply Rle_trans with (sf * Rpower (1/10000) be); [|apply Rmult_le_compat_l; lra].
    eapply Rle_trans; [|exact Hp]. unfold rpow. destruct (Rlt_dec 0 err) as [H0|H0].
    - apply Rle_Rpower_l; lra.
    - destruct (Req_EM_T err 0); [|lra]. destruct (Rlt_dec 0 e) as [H1|H1]; [left; apply rpower_pos|].
      assert (e = 0) as -> by lra. rewrite Rpower_O by lra. destruct (Req_EM_T 0 0); lra. }
  apply Rmax_lub.
  - replace (1/1/o_facr (i_opts s)) with (/ o_facr (i_opts s)) by (field; lra).
    rewrite <- Rinv_1. apply Rinv_le_contravar; lra.
  - eapply Rle_trans; [apply Rmin_r|]. apply Rmult_le_reg_r with sf; [lra|]. unfold Rdiv at 1.
    rewrite Rmult_assoc, Rinv_l by lra. apply Rmult_le_reg_r with (Rpower fo be); [lra|].
    rewrite Rmult_1_r. unfold Rdiv. rewrite Rmult_assoc, Rinv_l by lra. lra.
Qed.

(** Lower bounds for the step that follows an accepted one. *)
Lemma accept_lower (err : num RI) (s : state) q :
  sane_opts (i_opts s) -> i_tdir s = 1 -> 0 < i_dt s -> 0 < q <= 1 -> 0 < dp5_fac err s <= / q ->
  Rmin (o_dtmax (i_opts s)) (q * i_dt s) <= dtnew_accept err s.
Proof.
  intros Hso Hd Hdt Hq Hf. destruct Hso as [Hs Hl Hr _ _ Hm]. unfold dtnew_accept. rnorm. rewrite Hd.
  rewrite rdiv_ok by lra.
  assert (q * i_dt s <= i_dt s / dp5_fac err s) as Hlow.
  { unfold Rdiv. rewrite (Rmult_comm q). apply Rmult_le_compat_l; [lra|].
    rewrite <- (Rinv_inv q). apply Rinv_le_contravar; lra. }
  assert (0 < q * i_dt s) as H0 by (apply Rmult_lt_0_compat; lra).
  set (d0 := i_dt s / dp5_fac err s) in *. clearbody d0.
  rewrite (Rabs_right d0) by lra. rewrite (Rabs_right (i_dt s)) by lra.
  set (d := if Rltb (o_dtmax (i_opts s)) d0 then 1 * o_dtmax (i_opts s) else d0).
  assert (Rmin (o_dtmax (i_opts s)) (q * i_dt s) <= d /\ 0 < d) as (Hd2 & Hd3).
  { subst d. destruct (Rltb _ d0) eqn:E.
    - split; [|lra]. eapply Rle_trans; [apply Rmin_l|lra].
    - split; [|lra]. eapply Rle_trans; [apply Rmin_r|assumption]. }
  clearbody d. rewrite (Rabs_right d) by lra.
  destruct (reject (i_cache s)); [|assumption].
  rewrite Rmult_1_l. apply Rmin_glb; [assumption|]. eapply Rle_trans; [apply Rmin_r|].
  rewrite <- (Rmult_1_l (i_dt s)) at 2. apply Rmult_le_compat_r; lra.
Qed.

(** ** One retry loop *)
Section Bounded.
Context (b : builder RI P) (M kappa h : R).
Hypothesis Hso : sane_opts (b_opts b).
Hypothesis How : overwrites (b_dudt b).
Hypothesis Ha : 0 < o_abstol (b_opts b).
Hypothesis Hr : 0 <= o_reltol (b_opts b).
Hypothesis Hms : o_max_stiff (b_opts b) <> 0%nat.
Hypothesis Hu0 : b_u b <> [].
Hypothesis Hdt0 : 0 < b_dt b.
Hypothesis Ht0 : b_t b < b_tfinal b.
Hypothesis HM : 0 <= M.
Hypothesis HB : bounded_rhs (b_dudt b) (b_params b) (length (b_u b)) (b_t b) (b_tfinal b) M.
Hypothesis Hk : no_shrink_error (b_opts b) kappa.
Hypothesis Hh : 0 < h.
Hypothesis HhM : h * M <= kappa * o_abstol (b_opts b).
Hypothesis Heps : eps RI * Rmax (Rabs (b_t b)) (Rabs (b_tfinal b)) < o_facl (b_opts b) * h.

Definition rad : R := 1 + 25 * (M + 1) * (b_tfinal b - b_t b + 1).

Lemma near t u : b_t b <= t -> length u = length (b_u b) ->
  bounded_near (b_dudt b) (b_params b) (length (b_u b)) (b_tfinal b) t u M rad.
Proof.
  intros Ht Hu t' v Ht' Hv i Hi. apply HB; [|apply Hv|assumption].
  destruct Ht' as (H1 & H2). pose proof (Rmin_l (b_tfinal b) (t + rad)). lra.
Qed.

(** The error of an attempt of length [x] is at most [x M / abstol]. *)
Lemma attempt_error (s s1 : state) :
  retry_inv inf (length (b_u b)) (b_tfinal b) M rad s -> i_opts s = b_opts b -> b_t b <= i_t s ->
  compute_stages s = Ok s1 -> 0 <= dp5_error s1 /\ (i_dt s <= h -> dp5_error s1 <= kappa).
Proof.
  intros (Ho & Hfs & Hsh & Hu & Hn & Hso' & Ha' & Hr' & Hm & Hdt & Htf & Hb) Eo Ht Hs.
  rewrite (attempt_rk inf s s1 Ho Hfs Hs) by (try assumption; rewrite Hu; assumption).
  split; [unfold wrms; apply sqrt_pos|]. intros Hle. destruct Hk as (Hk1 & _). apply wrms_le.
  - lra.
  - intros Z. apply Hn. rewrite <- Hu, Z. reflexivity.
  - assumption.
  - assumption.
  - intros i Hi. rewrite Eo. eapply Rle_trans; [apply (dopri_diff_bound _ (length (b_u b)) M rad); try assumption|].
    + rnorm. lra.
    + unfold rad. assert (0 <= i_dt s * M) by (apply Rmult_le_pos; rnorm; lra).
      assert (i_dt s <= b_tfinal b - b_t b) by (rnorm; lra). rnorm. nra.
    + intros t' v Ht' Hv. split; [rewrite ode_length; apply Hv|]. intros j Hj. apply Hb; [|assumption|assumption].
      split; [lra|]. apply Rmin_glb; [rnorm; lra|].
      assert (i_dt s <= rad) as Hdr; [|rnorm; lra]. unfold rad. assert (i_dt s <= b_tfinal b - b_t b) by (rnorm; lra). rnorm. nra.
    + rewrite <- Hu. exact Hi.
    + eapply Rle_trans; [|exact HhM]. apply Rmult_le_compat_r; rnorm; lra.
Qed.

Lemma reject_lower (s s' : state) :
  retry_inv inf (length (b_u b)) (b_tfinal b) M rad s -> i_opts s = b_opts b -> b_t b <= i_t s <= b_tfinal b ->
  dp5_attempt s = Ok (s', false) ->
  h < i_dt s /\ o_facl (b_opts b) * h < i_dt s' /\ rc (i_sol s') = rc (i_sol s).
Proof.
  intros Hi Eo Ht E. pose proof Hi as (Ho & Hfs & Hsh & Hu & Hn & Hso' & Ha' & Hr' & Hm & Hdt & Htf & Hb).
  pose proof E as E'. apply dp5_attempt_inv in E as (s1 & Hs & [(D & _)|(_ & Herr & Hrej)]); [discriminate|].
  pose proof (attempt_error s s1 Hi Eo (proj1 Ht) Hs) as (Er0 & Er1).
  apply compute_stages_inv in Hs as (_&Hp&Hpt&Hdt0'&_&Hsol&_).
  rnorm. apply Rleb_false in Herr. replace (1/1) with 1 in Herr by lra.
  assert (i_opts s1 = i_opts s) as Ho1 by apply Hp.
  assert (h < i_dt s) as Hlt.
  { apply Rnot_le_lt. intros Hle. specialize (Er1 Hle). destruct Hk as (Hk1 & _). lra. }
  split; [exact Hlt|].
  destruct (reject_ratio inf (dp5_error s1) s1) as (rho & Hrho & Erho); [now rewrite Ho1|lra|].
  assert (i_dt s' = i_dt s * rho) as Ed by (rewrite (rej_dt _ _ _ Hrej), Erho, Hdt0'; reflexivity).
  rewrite Ho1, Eo in Hrho. pose proof (so_facl _ Hso) as Hfl.
  assert (o_facl (b_opts b) * h < i_dt s') as Hl.
  { rewrite Ed. apply Rlt_le_trans with (o_facl (b_opts b) * i_dt s); [apply Rmult_lt_compat_l; lra|].
    rewrite Rmult_comm. apply Rmult_le_compat_l; lra. }
  split; [exact Hl|]. rewrite (rej_rc_iff _ _ _ Hrej), Hsol.
  assert (i_t s1 = i_t s) as Et by apply Hpt. rewrite Et. rnorm.
  destruct (Rleb (Rabs (i_dt s')) _) eqn:E1; [|reflexivity]. exfalso. apply Rleb_true in E1.
  assert (0 <= o_facl (b_opts b) * h) by (apply Rmult_le_pos; lra).
  rewrite Rabs_right in E1 by lra.
  assert (Rabs (i_t s) <= Rmax (Rabs (b_t b)) (Rabs (b_tfinal b))) as Hmx.
  { destruct (Rle_dec 0 (i_t s)).
    - eapply Rle_trans; [|apply Rmax_r]. rewrite !Rabs_right by lra. lra.
    - eapply Rle_trans; [|apply Rmax_l]. rewrite !Rabs_left by lra. lra. }
  assert (0 < / IZR (2 ^ 52)) by (apply Rinv_0_lt_compat, IZR_lt; reflexivity).
  assert (Rabs (i_t s) * / IZR (2 ^ 52) <= / IZR (2^52) * Rmax (Rabs (b_t b)) (Rabs (b_tfinal b))); [|lra].
  rewrite Rmult_comm. apply Rmult_le_compat_l; lra.
Qed.

Lemma rejections_lower k (s s' : state) : rejections k s s' ->
  retry_inv inf (length (b_u b)) (b_tfinal b) M rad s -> i_opts s = b_opts b -> b_t b <= i_t s <= b_tfinal b ->
  retry_inv inf (length (b_u b)) (b_tfinal b) M rad s' /\ rc (i_sol s') = rc (i_sol s) /\
  (k = 0%nat \/ o_facl (b_opts b) * h < i_dt s').
Proof.
  induction 1 as [s|k s s1 s2 Ea Hr2 IH]; intros Hi Eo Ht; [auto|].
  pose proof (retry_inv_rejected inf _ _ _ _ s s1 Hi Ea) as (Hi1 & _ & Eo1).
  destruct (reject_lower s s1 Hi Eo Ht Ea) as (_ & Hl & Hrc).
  apply dp5_attempt_rejected in Ea. pose proof (atr_point _ _ Ea) as Pt.
  assert (i_t s1 = i_t s) as Et by apply Pt.
  destruct IH as (I1 & I2 & I3); [assumption|congruence|now rewrite Et|].
  split; [exact I1|]. split; [congruence|]. right. destruct I3 as [->|I3]; [|exact I3].
  inversion Hr2; subst. exact Hl.
Qed.

(** ** One [step()] *)
Notation lo0 := (Rmin (b_dt b) (o_facl (b_opts b) * h)).
Notation hmin := (least_step (b_opts b) (b_dt b) h).

Definition low (s : state) : Prop :=
  (facold (i_cache s) = 0 /\ lo0 <= i_dt s) \/ (1/10000 <= facold (i_cache s) /\ hmin <= i_dt s).

Lemma lo_facts : 0 < hmin /\ hmin <= lo0 /\ 0 < lo0 /\ lo0 <= o_facl (b_opts b) * h /\
  hmin <= o_dtmax (b_opts b) /\ hmin <= o_facl (b_opts b) * lo0.
Proof.
  pose proof (so_facl _ Hso) as Hfl. pose proof (so_dtmax _ Hso) as Hdm.
  assert (0 < o_facl (b_opts b) * h) by (apply Rmult_lt_0_compat; lra).
  assert (0 < lo0) as Hlo0 by (apply Rmin_glb_lt; lra).
  assert (0 < o_facl (b_opts b) * lo0) by (apply Rmult_lt_0_compat; lra).
  assert (o_facl (b_opts b) * lo0 <= lo0) as Hlo1.
  { rewrite <- (Rmult_1_l lo0) at 2. apply Rmult_le_compat_r; lra. }
  unfold least_step.
  repeat split; try assumption.
  - apply Rmin_glb_lt; assumption.
  - eapply Rle_trans; [apply Rmin_r|assumption].
  - apply Rmin_r.
  - apply Rmin_l.
  - apply Rmin_r.
Qed.

Lemma low_step fuel (s s' : state) r :
  good inf b s -> rc (i_sol s) = RContinue -> low s -> step alg None fuel s = Ok (s', r) ->
  rc (i_sol s') = RSuccess \/
  (low s' /\ i_t s + hmin <= i_t s' /\
   rc (i_sol s') = if Nat.ltb (o_max_steps (b_opts b)) (S (steps (i_stats s))) then RMaxIters else RContinue).
Proof.
  intros (Hri & Hrk & Hsh) Hrc Hlow H.
  pose proof lo_facts as (L1 & L2 & L3 & L4 & L5 & L6).
  pose proof (so_facl _ Hso) as Hfl.
  unfold step in H. apply bind_ok in H as (s1' & H & E). cbn [run_callback] in E.
  injection E as E _. subst s1'. cbn [alg_step DormandPrince5 Cache] in H.
  pose proof (ri_fwd _ _ _ Hri Hrc) as Hf.
  pose proof (clip_fwd inf s Hf) as (C1 & C2 & C3).
  apply dp5_step_inv in H as (k & sk & sa & Hk' & Hrs & Ha' & E).
  destruct (dp5_clip_frame s) as (Cp & Cpt & Csol & Cst & _ & _ & (cl & Cc)).
  assert (i_opts (dp5_clip s) = b_opts b) as Co by (destruct Cp as (_&_&_&_&_&_&->); apply (ri_opts _ _ _ Hri)).
  assert (i_t (dp5_clip s) = i_t s) as Ct by apply Cpt.
  assert (i_dudt s = b_dudt b) as Ed by apply (rki_f _ _ _ Hrk).
  assert (i_params s = b_params b) as Ep by apply (rki_p _ _ _ Hrk).
  assert (length (i_u s) = length (b_u b)) as Eu by apply (rki_n _ _ _ Hrk).
  assert (i_tfinal s = b_tfinal b) as Etf by apply (ri_tfinal _ _ _ Hri).
  assert (b_t b <= i_t s <= b_tfinal b) as Ht by (split; [apply (ri_first _ _ _ Hri)|apply (ri_last _ _ _ Hri)]).
  assert (retry_inv inf (length (b_u b)) (b_tfinal b) M rad (dp5_clip s)) as Hi0.
  { unfold retry_inv. rewrite Co, Ct. destruct Cp as (Cd & _ & _ & Cpp & _). destruct Cpt as (Cu & _ & Cup & _).
    rewrite Cd, Cpp, Cu, Ed, Ep, Eu. split; [assumption|].
    split; [unfold fsal; rewrite Cd, Cpp, Cu, Ct, Cc; exact (rki_fsal _ _ _ Hrk)|].
    split; [rewrite (same_shapes_point s); eauto|].
    split; [reflexivity|]. split; [intros Z; apply Hu0; now apply length_zero_iff_nil|].
    repeat (split; [assumption|]). split; [|apply near; [lra|assumption]].
    rewrite <- Etf. destruct C3 as [(_ & ?)|(_ & ?)]; rnorm; lra. }
  destruct (rejections_lower k _ _ Hrs Hi0 Co ltac:(now rewrite Ct)) as (Hi1 & Rrc & Rlow).
  pose proof (rejections_many _ _ _ Hrs) as Hrm.
  pose proof (rm_problem _ _ _ Hrm) as Rp. pose proof (rm_point _ _ _ Hrm) as Rpt.
  pose proof (rm_last _ _ _ Hrm) as Rl. pose proof (rm_zero _ _ _ Hrm) as Rz.
  pose proof (rm_facold _ _ _ Hrm) as Rfo. pose proof (rm_steps _ _ _ Hrm) as Rst. clear Hrm Hrs.
  assert (i_opts sk = b_opts b) as Ok0 by (destruct Rp as (_&_&_&_&_&_&->); exact Co).
  assert (i_t sk = i_t s) as Tk by (destruct Rpt as (_&->&_); exact Ct).
  assert (i_tdir sk = 1) as Dk.
  { destruct Rp as (_&_&_&_&->&_&_). destruct Cp as (_&_&_&_&->&_&_). apply Hf. }
  apply dp5_attempt_inv in Ha' as (s1 & Hs & [(_ & Herr & Hacc)|(D & _)]); [|discriminate].
  pose proof (attempt_error sk s1 Hi1 Ok0 ltac:(rewrite Tk; lra) Hs) as (Er0 & Er1).
  pose proof Hi1 as (_&_&_&_&_&_&_&_&_&Hdk&_).
  apply compute_stages_inv in Hs as (_&Sp&Spt&Sdt&_&Ssol&Sst&_&_&_&_&Sl&Sfo&_).
  pose proof (dp5_finish_frame sa) as (Fp&Fu&Ft&Fdt&_&_&_&Fc&_&Fst&_&_&Frc).
  destruct Hacc as [Ap _ _ At _ Adt _ Asol Ast _ _ _ Al Afo _ _ _ _ _ _ _ _ _ _ _].
  assert (i_opts s1 = b_opts b) as O1 by (destruct Sp as (_&_&_&_&_&_&->); exact Ok0).
  assert (i_tdir s1 = 1) as D1 by (destruct Sp as (_&_&_&_&->&_&_); exact Dk).
  assert (i_t s1 = i_t s) as T1 by (destruct Spt as (_&->&_); exact Tk).
  assert (facold (i_cache s1) = facold (i_cache s)) as Fo1 by (rewrite Sfo, Rfo, Cc; reflexivity).
  assert (1/10000 <= facold (i_cache s')) as Fo'.
  { subst s'. rewrite Fc, Afo. rnorm. apply Rmax_r. }
  (* the accepted step, unless it is the last one *)
  assert (last (i_cache s') = false -> Rmin (i_dt s) (o_facl (b_opts b) * h) <= i_dt sk) as Hstep.
  { subst s'. rewrite Fc, Al, Sl. intros Hl. destruct k as [|k].
    - rewrite (Rz eq_refl) in *. destruct (dp5_clip_cases s) as [(_ & E2)|(_ & E2)]; rewrite E2 in *.
      + cbn in Hl. discriminate.
      + apply Rmin_l.
    - destruct Rlow as [Rlow|Rlow]; [discriminate|]. eapply Rle_trans; [apply Rmin_r|]. rnorm. lra. }
  assert (hmin <= i_dt s) as Hmin by (destruct Hlow as [(_ & ?)|(_ & ?)]; rnorm; lra).
  assert (low s' \/ last (i_cache s') = true) as Hlow'.
  { destruct (last (i_cache s')) eqn:El; [now right|left]. specialize (Hstep eq_refl). right.
    split; [exact Fo'|]. subst s'. rewrite Fdt, Adt.
    assert (sane_opts (i_opts s1)) as Hso1 by now rewrite O1.
    assert (no_shrink_error (i_opts s1) kappa) as Hk1 by now rewrite O1.
    assert (hmin <= o_dtmax (i_opts s1)) as L5' by now rewrite O1.
    assert (0 < i_dt s1) as Hd1 by (rewrite Sdt; exact Hdk).
    assert (0 < dp5_fac (dp5_error s1) s1 <= / o_facl (b_opts b)) as Hfr.
    { pose proof (fac_range inf (dp5_error s1) s1 Hso1) as (F1 & F2). rewrite O1 in *.
      pose proof (so_facr _ Hso) as Hfr. destruct Hk as (_ & Hfr1 & _).
      assert (0 < / o_facr (b_opts b)) by (apply Rinv_0_lt_compat; lra).
      split; [lra|]. eapply Rle_trans; [exact F2|]. apply Rmax_lub; [|lra].
      apply Rinv_le_contravar; lra. }
    assert (Rmin (o_dtmax (i_opts s1)) (o_facl (b_opts b) * i_dt s1) <= dtnew_accept (dp5_error s1) s1) as Hany.
    { apply accept_lower; try assumption. lra. }
    rewrite Sdt in *. destruct Hlow as [(Z & Hd)|(Z & Hd)].
    - eapply Rle_trans; [|exact Hany]. apply Rmin_glb; [exact L5'|].
      eapply Rle_trans; [exact L6|]. apply Rmult_le_compat_l; [lra|].
      eapply Rle_trans; [|exact Hstep]. apply Rmin_glb; rnorm; lra.
    - destruct (Rle_lt_dec (i_dt sk) h) as [Hs1|Hs1].
      + eapply Rle_trans; [|apply (accept_lower (dp5_error s1) s1 1); try assumption; [now rewrite Sdt|lra|]].
        * apply Rmin_glb; [exact L5'|]. rewrite Sdt, Rmult_1_l. eapply Rle_trans; [|exact Hstep].
          apply Rmin_glb; rnorm; lra.
        * rewrite Rinv_1. apply (fac_small _ kappa); try assumption; [now rewrite Fo1|]. split; [exact Er0|].
          apply Er1. exact Hs1.
      + eapply Rle_trans; [|exact Hany]. apply Rmin_glb; [exact L5'|].
        eapply Rle_trans; [exact L2|]. eapply Rle_trans; [exact L4|]. apply Rmult_le_compat_l; rnorm; lra. }
  assert (last (i_cache s') = false -> i_t s + hmin <= i_t s') as Hadv.
  { intros El. specialize (Hstep El). subst s'. rewrite Ft, At, T1, Sdt. rnorm.
    assert (hmin <= Rmin (i_dt s) (o_facl (b_opts b) * h)) by (apply Rmin_glb; lra). lra. }
  assert (rc (i_sol s') = (if last (i_cache s') then RSuccess
      else if Nat.ltb (o_max_steps (b_opts b)) (S (steps (i_stats s))) then RMaxIters else RContinue)) as Hrc'.
  { subst s'. rewrite Frc, Fc. assert (i_opts sa = b_opts b) as Oa by (destruct Ap as (_&_&_&_&_&_&->); exact O1).
    rewrite Oa, Asol, Ast. cbn. rewrite Sst. cbn. rewrite Rst, Cst, Ssol, Rrc, Csol, Hrc. reflexivity. }
  rewrite Hrc'. destruct (last (i_cache s')) eqn:El; [now left|right].
  destruct Hlow' as [Hl|?]; [|discriminate]. auto.
Qed.

(** ** Runs *)
Lemma low_build (s : state) : build alg b = Ok s -> low s.
Proof.
  intros H. apply dp5_build_inv in H as (?&?&?&?&Eu&Et&Edt&?&?&?&?&?&Eo&Est&Esol&Etr&?&?&Efo&?&?&Hsh).
  left. rewrite Efo, Edt. split; [rnorm; lra|]. apply Rmin_l.
Qed.

Definition track (s : state) : Prop :=
  good inf b s /\ low s /\ b_t b + INR (steps (i_stats s)) * hmin <= i_t s.

Lemma track_step fuel (s s' : state) r :
  track s -> rc (i_sol s) = RContinue -> step alg None fuel s = Ok (s', r) ->
  rc (i_sol s') = RSuccess \/
  (track s' /\ rc (i_sol s') = if Nat.ltb (o_max_steps (b_opts b)) (S (steps (i_stats s))) then RMaxIters else RContinue).
Proof.
  intros (Hg & Hl & Ht) Hrc H.
  destruct (low_step fuel s s' r Hg Hrc Hl H) as [Hs|(H1 & H2 & H3)]; [now left|right].
  split; [|exact H3]. split; [eapply good_step; eassumption|]. split; [exact H1|].
  assert (steps (i_stats s') = S (steps (i_stats s))) as ->.
  { apply step_dp5_inv in H as (s2 & E & ->). open_effect E. exact se_steps0. }
  rewrite S_INR. rnorm. lra.
Qed.

Lemma last_step fuel (s1 s : state) :
  track s1 -> rc (i_sol s1) = RContinue -> b_tfinal b - b_t b <= INR (o_max_steps (b_opts b)) * hmin ->
  good inf b s -> step alg None fuel s1 = Ok (s, None) -> rc (i_sol s) = RSuccess.
Proof.
  intros Ht1 Hrc1 Hmax Hg Hlast.
  destruct (track_step fuel s1 s None Ht1 Hrc1 Hlast) as [Hs|(Hs & Er)]; [exact Hs|exfalso].
  pose proof (step_none_rc alg None _ _ _ Hlast) as Hne.
  assert (steps (i_stats s) = S (steps (i_stats s1))) as Est.
  { apply step_dp5_inv in Hlast as (s2 & E & ->). open_effect E. exact se_steps0. }
  destruct (Nat.ltb_spec (o_max_steps (b_opts b)) (S (steps (i_stats s1)))) as [Hlt|Hlt]; [|contradiction].
  destruct Hs as (_ & Hl & Hadv). rewrite Est, S_INR in Hadv.
  destruct lo_facts as (Hpos & _).
  assert (INR (o_max_steps (b_opts b)) <= INR (steps (i_stats s1))) as Hn by (apply le_INR; lia).
  assert (INR (o_max_steps (b_opts b)) * hmin <= INR (steps (i_stats s1)) * hmin) by (apply Rmult_le_compat_r; lra).
  destruct Hg as (Hri & _). pose proof (ri_last _ _ _ Hri). lra.
Qed.

Theorem dp5_succeeds (s0 : state) :
  b_tfinal b - b_t b <= INR (o_max_steps (b_opts b)) * hmin ->
  build alg b = Ok s0 ->
  exists fuel s, integrate alg None fuel (S (o_max_steps (b_opts b))) s0 = Ok s /\
    rc (i_sol s) = RSuccess /\ i_t s = b_tfinal b.
Proof.
  intros Hmax Hb.
  destruct (dp5_integrate_ends inf b s0) as (fuel & s & E); try assumption.
  { intros t u Ht Hu. exists M, rad. split; [exact HM|]. split; [unfold rad; nra|]. apply near; [lra|exact Hu]. }
  exists fuel, s. split; [exact E|].
  destruct (good_build inf b s0 Hso Hdt0 Ht0 Hb) as (Hg0 & Hrc0).
  assert (track s0) as Ht00.
  { split; [exact Hg0|]. split; [now apply low_build|].
    apply dp5_build_inv in Hb as (?&?&?&?&Eu&Et&Edt&?&?&?&?&?&Eo&Est&_). rewrite Est, Et. cbn. lra. }
  apply (dp5_integrate_split None) in E as (k & s1 & _ & Hc & Hlast).
  destruct (continues_invariant alg None fuel (fun a => rc (i_sol a) = RSuccess \/ track a)) with (k := k) (s := s0) (s' := s1)
    as (Ht1 & Hrc1); [|exact Hc|exact Hrc0|now right|].
  { intros a a' r [Ha1|Ha1] Ha2 Ha3; [congruence|].
    destruct (track_step fuel a a' r Ha1 Ha2 Ha3) as [Hs|(Hs & _)]; [now left|now right]. }
  destruct Ht1 as [Ht1|Ht1]; [congruence|].
  assert (good inf b s) as Hg by (eapply good_step; [assumption|assumption|apply Ht1|exact Hrc1|exact Hlast]).
  pose proof (last_step fuel s1 s Ht1 Hrc1 Hmax Hg Hlast) as Hsucc.
  split; [exact Hsucc|]. destruct Hg as (Hri & _). exact (ri_rc _ _ _ Hri Hsucc).
Qed.
End Bounded.
End DP5Succ.
