(** DormandPrince5 in binary64 converges with order five up to rounding. *)
From Coq Require Import ZArith List Bool Lia Reals Lra Sorted.
From RecordUpdate Require Import RecordSet.
From Flocq Require Import Core BinarySingleNaN.
From Verif Require Import Arith Vec Core Driver VecFacts DP5 DP5Facts Spec SpecRK SpecODE SpecConv SpecF64 SpecF64Conv
  RKFacts DP5Inv DP5RK ArithF FFacts FMono FOrder FErr DP5Mono ConvLocal ConvGlobal PertRK DP5Round.
Import ListNotations RecordSetNotations.
Local Open Scope R_scope.
Local Existing Instance prec_gt_0_53.
Local Existing Instance prec_lt_emax_53.

Section Run.
Context (fpowf : f64 -> f64 -> f64) (fpowi : f64 -> Z -> f64) {P : Type}.
Notation A := (F64 fpowf fpowi).
Notation state := (integ A P (dp5_cache A)).
Notation alg := (@DormandPrince5 A P).

(** One accepted step between recorded points. *)
Definition fstep (f : rhs A P) (p : P) (n : nat) (x z : f64 * list f64) : Prop :=
  exists dt b1 b2 b3 b4 b5 b6 b7,
    Forall (fun b : list f64 => length b = n) [b1; b2; b3; b4; b5; b6; b7] /\
    is_finite dt = true /\ 0 <= B2R dt /\ fst z = fadd (fst x) dt /\
    snd z = y7 fpowf fpowi f p (snd x) (fst x) dt b1 b2 b3 b4 b5 b6.

Definition ffsal (n : nat) (s : state) : Prop := exists b : list f64, length b = n /\
  du (i_cache s) = @call_rhs A P (i_dudt s) b (i_u s) (i_t s) (i_params s).

Lemma fstep_of fuel n (s s' : state) : ready fpowf fpowi s -> last (i_cache s) = false -> length (i_u s) = n -> ffsal n s ->
  dp5_step fuel s = Ok s' ->
  ffsal n s' /\ length (i_u s') = n /\ fstep (i_dudt s) (i_params s) n (i_t s, i_u s) (i_t s', i_u s').
Proof.
  intros Rd Hl Hn (b1 & Lb1 & Hdu) H.
  destruct (fs_len _ _ _ _ (f_step_of _ _ _ _ _ Rd Hl H)) as (Fd & Pd).
  pose proof (dp5_step_effect_of _ _ _ H) as Ef. open_effect Ef.
  destruct se_problem0 as (Pf&_&_&Pp&_&_&Po).
  clear se_ts0 se_us0 se_tprev0 se_uprev0 se_steps0 se_accepts0 se_others0 se_work0 se_rc0 se_reject0 se_max_stiff0.
  apply dp5_step_inv in H as (k & sk & sa & Hk & Hrs & Ha & E).
  destruct (dp5_clip_frame s) as (Cp & Cpt & _ & _ & _ & _ & (cl & Cc)).
  apply rejections_many in Hrs.
  pose proof (rm_problem _ _ _ Hrs) as Rp. pose proof (rm_point _ _ _ Hrs) as Rpt.
  pose proof (rm_du _ _ _ Hrs) as Rdu. rewrite Cc in Rdu. cbn in Rdu. clear Hrs.
  apply dp5_attempt_inv in Ha as (s1 & Hs & [(_ & Herr & Hacc)|(D & _)]); [|discriminate].
  pose proof (compute_stages_inv _ _ Hs) as (Ssh&Sp&Spt&Sdt&_&_&_&_&_&_&_&_&_&_&_).
  rewrite compute_stages_eq, Ssh in Hs. injection Hs as Hs.
  assert (i_u sk = i_u s) as Eu by (destruct Rpt as (->&_); apply Cpt).
  assert (i_t sk = i_t s) as Et by (destruct Rpt as (_&->&_); apply Cpt).
  assert (i_dudt sk = i_dudt s) as Ed by (destruct Rp as (->&_); apply Cp).
  assert (i_params sk = i_params s) as Ep by (destruct Rp as (_&_&_&->&_); apply Cp).
  apply dp5_shapes_spec in Ssh. rewrite Eu in Ssh.
  apply (Forall_impl (fun v : list f64 => @length f64 v = n)) in Ssh; [|intros v Hv; exact (eq_trans Hv Hn)].
  repeat match goal with H : Forall _ (_ :: _) |- _ => apply Forall_cons_iff in H as (? & H) end. clear Ssh.
  set (v := stage_vecs (i_dudt s) (i_params s) (i_u s) (i_t s) (i_dt sk) (kk1 fpowf fpowi (i_dudt s) (i_params s) (i_u s) (i_t s) b1)
     (k2 (i_cache sk)) (k3 (i_cache sk)) (k4 (i_cache sk)) (k5 (i_cache sk)) (k6 (i_cache sk)) (dunew (i_cache sk))).
  assert (stage_vecs_of sk = v) as Ev by (unfold stage_vecs_of, v; rewrite Ed, Ep, Eu, Et, Rdu, Hdu; reflexivity).
  rewrite Ev in Hs.
  assert (unew (i_cache s1) = sd_unew v) as U1 by (rewrite <- Hs; reflexivity).
  assert (dunew (i_cache s1) = sd_dunew v) as U2 by (rewrite <- Hs; reflexivity). clear Hs.
  pose proof (dp5_finish_frame sa) as (Fp&Fu&Ftt&_&_&_&Fdtp&Fc&_).
  destruct Hacc as [Ap Au _ At _ _ Adtp _ _ _ _ _ _ _ Adu _ _ _ _ _ _ _ _ _ _].
  assert (i_u s' = sd_unew v) as Eu' by (rewrite E, Fu, Au; exact U1).
  assert (i_dtprev s' = i_dt sk) as Edt by (rewrite E, Fdtp, Adtp; exact Sdt).
  assert (du (i_cache s') = sd_dunew v) as Edu by (rewrite E, Fc, Adu; exact U2).
  split; [|split].
  - exists (dunew (i_cache sk)). split; [assumption|]. rewrite Edu, Pf, Pp, Eu', se_t0, Edt. reflexivity.
  - etransitivity; [exact se_lens0|exact Hn].
  - exists (i_dtprev s'), b1, (k2 (i_cache sk)), (k3 (i_cache sk)), (k4 (i_cache sk)), (k5 (i_cache sk)), (k6 (i_cache sk)), (dunew (i_cache sk)).
    split; [repeat (apply Forall_cons; [assumption|]); constructor|]. split; [exact Fd|]. split; [exact Pd|]. split; [exact se_t0|].
    cbn [fst snd]. rewrite Eu', Edt. reflexivity.
Qed.

Record finv (b : builder A P) (s : state) : Prop := {
  fi_run : f_run fpowf fpowi b s;
  fi_f : i_dudt s = b_dudt b;
  fi_p : i_params s = b_params b;
  fi_n : length (i_u s) = length (b_u b);
  fi_fsal : ffsal (length (b_u b)) s;
  fi_len : length (ts (i_sol s)) = length (us (i_sol s));
  fi_snoc : exists l, points s = l ++ [(i_t s, i_u s)];
  fi_first : exists l, points s = (b_t b, b_u b) :: l;
  fi_linked : linked (fstep (b_dudt b) (b_params b) (length (b_u b))) (points s) }.

Lemma finv_step (b : builder A P) fuel (s s' : state) r : f64_forward b ->
  finv b s -> rc (i_sol s) = RContinue -> step alg None fuel s = Ok (s', r) -> finv b s'.
Proof.
  intros Hb [Ir If Ip In Ifs Il (l & Isn) (l0 & Ifst) Ilk] Hrc H.
  pose proof (f_run_step _ _ b fuel s s' r Hb Ir Hrc H) as Ir'.
  unfold step in H. apply bind_ok in H as (s1 & H & E). cbn [run_callback] in E.
  injection E as E _. subst s1. cbn [alg_step DormandPrince5 Cache] in H.
  destruct (fr_last _ _ _ _ Ir) as (Hl & Ft & Ht); [congruence|].
  destruct Hb as (So & F0 & Ff & Hlt & Fs & _).
  assert (ready fpowf fpowi s) as Rd.
  { constructor; rewrite ?(fr_opts _ _ _ _ Ir), ?(fr_tfinal _ _ _ _ Ir); try assumption; [exact (fr_tdir _ _ _ _ Ir)|apply Ht| |exact (fr_dt _ _ _ _ Ir)].
    now apply (span_finite (b_t b)). }
  destruct (fstep_of fuel _ s s' Rd Hl In Ifs H) as (Fs' & Ln & St).
  pose proof (dp5_step_effect_of _ _ _ H) as Ef. open_effect Ef.
  destruct se_problem0 as (Pf&_&_&Pp&_&_&Po).
  assert (points s' = points s ++ [(i_t s', i_u s')]) as Ept.
  { unfold points. rewrite se_ts0, se_us0. apply combine_snoc. exact Il. }
  constructor; try assumption; try congruence.
  - rewrite se_ts0, se_us0, !app_length, Il. reflexivity.
  - exists (points s). exact Ept.
  - exists (l0 ++ [(i_t s', i_u s')]). rewrite Ept, Ifst. reflexivity.
  - rewrite Ept, Isn. apply linked_snoc; [rewrite Isn in Ilk; exact Ilk|]. rewrite <- If, <- Ip. exact St.
Qed.

Lemma finv_build (b : builder A P) (s : state) : f64_forward b -> build alg b = Ok s -> finv b s.
Proof.
  intros Hb H. pose proof (f_run_build _ _ b s Hb H) as (Ir & _).
  unfold build in H. cbn [alg_new_cache DormandPrince5] in H. unfold dp5_new_cache in H.
  cbn [bind] in H. injection H as H. subst s. constructor; try reflexivity.
  - exact Ir.
  - exists (@zeros A (length (b_u b))). split; [apply (@zeros_length A)|]. reflexivity.
  - exists []. reflexivity.
  - exists []. reflexivity.
  - apply linked_one.
Qed.

Lemma finv_reached (b : builder A P) fuel k (s0 s : state) :
  f64_forward b -> build alg b = Ok s0 -> reached alg None fuel k s0 s -> finv b s.
Proof.
  intros Hb H Hr. destruct (f_run_build _ _ b s0 Hb H) as [_ Hrc].
  refine (reached_invariant alg None fuel (finv b) _ k s0 s Hr Hrc (finv_build b s0 Hb H)).
  intros s1 s2 r H1 H2 H3. eapply finv_step; eassumption.
Qed.

Lemma rounded_time (t dt : f64) Tm : is_finite t = true -> is_finite dt = true -> is_finite (fadd t dt) = true ->
  Rabs (B2R (fadd t dt)) <= Tm -> Rabs (B2R (fadd t dt) - (B2R t + B2R dt)) <= 2 * u64 * (1 + Tm).
Proof.
  intros F1 F2 F3 HB. pose proof u64_pos. pose proof u64_small. rewrite fadd_R in * by assumption.
  set (x := B2R t + B2R dt) in *. clearbody x. pose proof (rnd_err x) as E.
  pose proof (Rabs_pos x). pose proof (Rabs_pos (rnd64 x)).
  assert (Rabs x <= Tm + u64 * (Rabs x + 1)) as B1.
  { apply Rle_trans with (Rabs (rnd64 x) + Rabs (rnd64 x - x)); [|lra].
    replace x with (rnd64 x - (rnd64 x - x)) at 1 by ring. unfold Rminus at 1.
    eapply Rle_trans; [apply Rabs_triang|]. rewrite Rabs_Ropp. lra. }
  assert (u64 * (Rabs x + 1) <= 1 / 4 * (Rabs x + 1)) by (apply Rmult_le_compat_r; lra).
  assert (Rabs x <= 2 * Tm + 1) by lra.
  eapply Rle_trans; [exact E|]. rewrite (Rmult_comm 2), Rmult_assoc. apply Rmult_le_compat_l; lra.
Qed.

(** Recorded times. *)
Lemma run_times (b : builder A P) fuel k (s0 s : state) Tm :
  f64_forward b -> build alg b = Ok s0 -> reached alg None fuel k s0 s ->
  Rabs (B2R (b_t b : f64)) <= Tm -> Rabs (B2R (b_tfinal b : f64)) <= Tm -> Tm <= bpow radix2 1000 ->
  forall t : f64, In t (ts (i_sol s)) -> is_finite t = true /\ B2R (b_t b : f64) <= B2R t /\
    B2R t <= B2R (b_tfinal b : f64) + 4 * u64 * Tm.
Proof.
  intros Hb H Hr H0 H1 H2. pose proof (f_runs _ _ b fuel k s0 s Hb H Hr) as Ir.
  pose proof (dp5_f64_success _ _ b fuel k s0 s Hb H Hr) as Suc.
  destruct Hb as (_ & F0 & Ff & Hlt & Fs & _). apply fltb_R in Hlt; [|assumption..].
  pose proof u64_pos. pose proof (Rabs_pos (B2R (b_t b : f64))).
  assert (0 <= u64 * Tm) by (apply Rmult_le_pos; lra).
  destruct (fr_list _ _ _ _ Ir) as (l & El & Hl & _). intros t Ht. rewrite El in Ht.
  apply in_app_iff in Ht as [Ht|[<-|[]]].
  { rewrite Forall_forall in Hl. destruct (Hl t Ht) as (Q1 & Q2). split; [exact Q1|]. lra. }
  assert (rc (i_sol s) <> RSuccess \/ rc (i_sol s) = RSuccess) as [Hn|Hs] by (destruct (rc (i_sol s)); (now right) || (left; discriminate)).
  { destruct (fr_last _ _ _ _ Ir Hn) as (_ & Q1 & Q2). split; [exact Q1|]. lra. }
  destruct (fr_end _ _ _ _ Ir Hs) as (Q1 & Q2 & _ & Q4).
  destruct (Suc Hs) as (_ & _ & _ & _ & Bd & _).
  assert (is_finite (fsub (b_tfinal b) (i_tprev s)) = true) as Fs' by now apply (span_finite (b_t b)).
  pose proof (fsub_R _ _ Ff Q1 Fs') as ED.
  apply Rabs_le_inv in H0. apply Rabs_le_inv in H1.
  assert (1 <= bpow radix2 1000) as Hb1 by (change 1 with (bpow radix2 0); apply bpow_le; lia).
  assert (0 <= rnd64 (B2R (b_tfinal b : f64) - B2R (i_tprev s : f64)) <= 5 * bpow radix2 1000) as HD.
  { split; [apply rnd_ge_0; lra|]. pose proof (rnd_err (B2R (b_tfinal b : f64) - B2R (i_tprev s : f64))) as E.
    rewrite (Rabs_right (B2R (b_tfinal b : f64) - B2R (i_tprev s : f64))) in E by lra. apply Rabs_le_inv in E.
    pose proof u64_small.
    assert (u64 * (B2R (b_tfinal b : f64) - B2R (i_tprev s : f64) + 1) <= 1 * (2 * Tm + 1)) by (apply Rmult_le_compat; lra). lra. }
  assert (is_finite (i_t s : f64) = true) as Fi.
  { rewrite Q4. refine (proj1 (fadd_err _ _ Q1 Fs' _)). rewrite ED.
    apply Rle_trans with (6 * bpow radix2 1000).
    - apply Rabs_le. lra.
    - unfold big. change 1020%Z with (20 + 1000)%Z. rewrite (bpow_plus radix2 20 1000).
      apply Rmult_le_compat_r; [lra|]. change (bpow radix2 20) with 1048576. lra. }
  specialize (Bd Fi). cbv zeta in Bd. apply Rabs_le_inv in Bd.
  assert (bpow radix2 (-52) = 2 * u64) as E52.
  { unfold u64. change (-52)%Z with (1 + -53)%Z. rewrite bpow_plus. reflexivity. }
  rewrite E52 in Bd. pose proof u64_small.
  set (D := B2R (b_tfinal b : f64) - B2R (i_tprev s : f64)) in *.
  assert (2 * u64 * D <= 1 * D) by (apply Rmult_le_compat_r; unfold D; lra).
  assert (2 * u64 * D <= 2 * u64 * (2 * Tm)) by (apply Rmult_le_compat_l; unfold D; lra).
  split; [exact Fi|]. unfold D in *. lra.
Qed.
End Run.

Lemma linked_nth {X} (Q : X -> X -> Prop) l j x z : linked Q l -> nth_error l j = Some x -> nth_error l (S j) = Some z -> Q x z.
Proof.
  intros H H1 H2. destruct (nth_error_split _ _ H1) as (l1 & l2 & E & Hl).
  rewrite E, nth_error_app2 in H2 by lia. replace (S j - length l1)%nat with 1%nat in H2 by lia. cbn in H2.
  destruct l2 as [|w l2]; [discriminate|]. cbn in H2. injection H2 as ->. exact (H l1 x z l2 E).
Qed.
Lemma gaps_nth H l j a b : Forall (fun g => g <= H) (gaps l) -> nth_error l j = Some a -> nth_error l (S j) = Some b -> b - a <= H.
Proof.
  revert j. induction l as [|x l IH]; intros j Hf H1 H2; [destruct j; discriminate|].
  destruct l as [|z l]; [destruct j as [|[|j]]; discriminate|].
  cbn [gaps] in Hf. apply Forall_cons_iff in Hf as (G & Hf).
  destruct j as [|j]; [cbn in H1, H2; injection H1 as ->; injection H2 as ->; exact G|].
  apply (IH j); assumption.
Qed.
Lemma combine_nth_inv {X Y} (a : list X) (b : list Y) j x y : nth_error (combine a b) j = Some (x, y) -> nth_error a j = Some x /\ nth_error b j = Some y.
Proof.
  revert b j. induction a as [|u a IH]; intros [|v b] [|j] H; try discriminate; cbn in *.
  - now injection H as -> ->.
  - apply IH. exact H.
Qed.
Lemma pow5_split x y : 0 <= x -> 0 <= y <= 1 -> (x + y) ^ 5 <= 32 * (x ^ 5 + y).
Proof.
  intros Hx Hy. pose proof (pow_le x 5 Hx). pose proof (pow_le y 5 ltac:(lra)).
  assert (y ^ 5 <= y).
  { replace (y ^ 5) with (y * y ^ 4) by ring. rewrite <- (Rmult_1_r y) at 3. apply Rmult_le_compat_l; [lra|].
    rewrite <- (pow1 4). apply pow_incr. lra. }
  destruct (Rle_dec x y).
  - apply Rle_trans with ((2 * y) ^ 5); [apply pow_incr; lra|]. rewrite Rpow_mult_distr. lra.
  - apply Rle_trans with ((2 * x) ^ 5); [apply pow_incr; lra|]. rewrite Rpow_mult_distr. lra.
Qed.
Lemma div_nonneg a b : 0 <= a -> 0 < b -> 0 <= a / b.
Proof. intros Ha Hb. apply Rmult_le_pos; [exact Ha|]. left. now apply Rinv_0_lt_compat. Qed.
(** [K * x <= 1] makes everything that [K] dominates small. *)
Lemma small K a b x : 0 < b -> 0 <= x -> a / b <= K -> K * x <= 1 -> a * x <= b.
Proof.
  intros Hb Hx HK H. replace (a * x) with (a / b * x * b) by (field; lra).
  rewrite <- (Rmult_1_l b) at 3. apply Rmult_le_compat_r; [lra|].
  apply Rle_trans with (K * x); [apply Rmult_le_compat_r; assumption|exact H].
Qed.

Theorem dp5_f64_converges n (F : R -> list R -> list R) t0 tf T y :
  tf < T -> smooth_problem n F t0 T y -> time_lipschitz n F t0 T y ->
  exists K r, 0 < K /\ 0 < r /\
  forall fpowf fpowi P (f : rhs (F64 fpowf fpowi) P) (p : P) (b : builder (F64 fpowf fpowi) P) fuel k
    (s0 s : integ (F64 fpowf fpowi) P (dp5_cache (F64 fpowf fpowi))) H d,
  b_dudt b = f -> b_params b = p -> B2R (b_t b : f64) = t0 -> B2R (b_tfinal b : f64) = tf ->
  f64_forward b -> evaluates n f p F t0 T y r d ->
  length (b_u b) = n -> finite_vec (b_u b) -> close n d (Rvec (b_u b)) (y t0) ->
  build DormandPrince5 b = Ok s0 -> reached DormandPrince5 None fuel k s0 s ->
  let N := INR (length (ts (i_sol s))) in
  0 <= H -> 0 <= d -> Forall (fun g => g <= H) (gaps (Rvec (ts (i_sol s)))) ->
  K * (H + d + N * u64) <= 1 ->
  forall t u, In (t, u) (points s) -> finite_vec u /\ close n (K * (H ^ 5 + d + N * u64)) (Rvec u) (y (B2R (t : f64))).
Proof.
  intros HtT SP TL.
  destruct (sp_solution _ _ _ _ _ SP) as (D & B & D0 & D1 & _ & DB).
  assert (forall t i, t0 <= t <= T -> (i < n)%nat -> Rabs (comp (F t (y t)) i) <= Rabs B) as HM.
  { intros t i Ht Hi. rewrite <- D1 by assumption. eapply Rle_trans; [apply DB; try assumption; lia|apply Rle_abs]. }
  assert (forall t i, t0 <= t <= T -> (i < n)%nat -> Rabs (comp (y t) i) <= Rabs B) as Hy.
  { intros t i Ht Hi. rewrite <- D0. eapply Rle_trans; [apply DB; try assumption; lia|apply Rle_abs]. }
  clear D D0 D1 DB.
  destruct (pert_step n F t0 T y SP TL (Rabs B) HM) as (rr & Hs & rs & es & Lam & C & Hrr & HHs & Hrs & Hes & HLam & HC & HP).
  destruct (sol_lip n F t0 T y SP) as (BL & HBL & Hsl).
  pose proof (Rabs_pos B) as HB.
  set (Tm := Rabs t0 + Rabs T). pose proof (Rabs_pos t0) as Ht0. pose proof (Rabs_pos T) as HT0.
  assert (0 <= Tm) as HTm by (unfold Tm; lra).
  set (W := Rabs B + 3). assert (3 <= W) as HW by (unfold W; lra).
  set (ce := 8 * (1 + Tm)). assert (8 <= ce) as Hce by (unfold ce; lra).
  set (ca := 600 * W). assert (1800 <= ca) as Hca by (unfold ca; lra).
  set (S1 := Rabs (T - t0) + 1). assert (1 <= S1) as HS1 by (unfold S1; pose proof (Rabs_pos (T - t0)); lra).
  set (E1 := exp (Lam * S1)). assert (0 < E1) as HE1 by apply exp_pos.
  set (rs' := Rmin rs 1). assert (0 < rs') as Hrs' by (apply Rmin_pos; lra).
  assert (rs' <= rs /\ rs' <= 1) as (Hr1 & Hr2) by (unfold rs'; split; [apply Rmin_l|apply Rmin_r]).
  assert (0 <= S1 * C) as HSC by (apply Rmult_le_pos; lra).
  assert (0 <= BL * ce) as HBc by (apply Rmult_le_pos; lra).
  set (K0 := E1 * (1 + S1 * C * (32 + (33 * ce + ca) + 1) + (ca + BL * ce))).
  assert (0 <= S1 * C * (32 + (33 * ce + ca) + 1)) as HSC2 by (apply Rmult_le_pos; lra).
  assert (0 <= K0) as HK0 by (unfold K0; apply Rmult_le_pos; lra).
  set (k1 := (1 + ce) / Hs). set (k2 := (1 + ce + ca) / es). set (k3 := 4 * ce / (T - tf)). set (k4 := K0 / rs').
  assert (0 <= k1) as Hk1 by (unfold k1; apply div_nonneg; lra).
  assert (0 <= k2) as Hk2 by (unfold k2; apply div_nonneg; lra).
  assert (0 <= k3) as Hk3 by (unfold k3; apply div_nonneg; lra).
  assert (0 <= k4) as Hk4 by (unfold k4; apply div_nonneg; lra).
  exists (K0 + k1 + k2 + k3 + k4 + ce + 1), rr.
  split; [lra|]. split; [exact Hrr|].
  set (KK := K0 + k1 + k2 + k3 + k4 + ce + 1).
  intros fpowf fpowi P f p b fuel k s0 s H d Ef Ep E0 Ett Hb Hev Lu Fu Hcl Hbd Hre N HH Hd Hg Hsm.
  pose proof (finv_reached _ _ b fuel k s0 s Hb Hbd Hre) as [Ir If Ip In_ _ Il (lz & Isn) (l0 & Ifst) Ilk].
  rewrite Ef, Ep, Lu in *.
  pose proof u64_pos as Hu. pose proof u64_small as Hu2.
  assert (length (points s) = length (ts (i_sol s))) as Lpts.
  { unfold points. rewrite combine_length, <- Il, Nat.min_id. reflexivity. }
  assert (1 <= N) as HN.
  { unfold N. rewrite <- Lpts, Ifst. cbn [length]. rewrite S_INR. pose proof (pos_INR (length l0)). lra. }
  set (x := H + d + N * u64) in *.
  assert (u64 <= N * u64) as HNu by (rewrite <- (Rmult_1_l u64) at 1; apply Rmult_le_compat_r; lra).
  assert (0 <= x) as Hx by (unfold x; lra).
  assert ((1 + ce) * x <= Hs) as X1 by (apply (small KK); try lra; unfold KK; fold k1; lra).
  assert ((1 + ce + ca) * x <= es) as X2 by (apply (small KK); try lra; unfold KK; fold k2; lra).
  assert (4 * ce * x <= T - tf) as X3 by (apply (small KK); try lra; unfold KK; fold k3; lra).
  assert (K0 * x <= rs') as X4 by (apply (small KK); try lra; unfold KK; fold k4; lra).
  assert (ce * x <= 1) as X5 by (apply (small KK); try lra; unfold KK; lra).
  assert (ce * u64 <= ce * x) as U1 by (apply Rmult_le_compat_l; unfold x; lra).
  assert (ca * u64 <= ca * x) as U2 by (apply Rmult_le_compat_l; unfold x; lra).
  assert (0 <= ce * u64) by (apply Rmult_le_pos; lra). assert (0 <= ca * u64) by (apply Rmult_le_pos; lra).
  assert (0 <= ce * x) by (apply Rmult_le_pos; lra). assert (0 <= ca * x) by (apply Rmult_le_pos; lra).
  assert (H <= x /\ d <= x) as (HHx & Hdx) by (unfold x; lra).
  assert (W <= bpow radix2 53) as HW53.
  { assert (W * u64 <= 1) as Z by (unfold ca in *; lra). apply (Rmult_le_reg_r u64); [exact Hu|]. unfold u64 at 2.
    rewrite <- bpow_plus. exact Z. }
  assert (Tm <= bpow radix2 53) as HT53.
  { assert (Tm * u64 <= 1) as Z by (unfold ce in *; lra). apply (Rmult_le_reg_r u64); [exact Hu|]. unfold u64 at 2.
    rewrite <- bpow_plus. exact Z. }
  assert (W <= bpow radix2 1005) as HW2 by (eapply Rle_trans; [exact HW53|]; apply bpow_le; lia).
  assert (bpow radix2 53 <= bpow radix2 1000) as Hb1000 by (apply bpow_le; lia).
  assert (bpow radix2 53 <= bpow radix2 1005) as Hb1005 by (apply bpow_le; lia).
  assert (t0 <= tf) as Htf.
  { destruct Hb as (_ & F0 & Ff & Hlt & _). apply fltb_R in Hlt; [|assumption..]. rewrite E0, Ett in Hlt. lra. }
  assert (forall z, t0 <= z <= T -> Rabs z <= Tm) as Hin.
  { intros z Hz. unfold Tm. apply Rabs_le. pose proof (Rle_abs (- t0)). pose proof (Rle_abs T). rewrite Rabs_Ropp in *. lra. }
  assert (forall tz : f64, In tz (ts (i_sol s)) -> is_finite tz = true /\ t0 <= B2R tz <= tf + ce * u64) as Htimes.
  { intros tz Hz. destruct (run_times _ _ b fuel k s0 s Tm Hb Hbd Hre) with (t := tz) as (Q1 & Q2 & Q3); try assumption.
    - rewrite E0. apply Hin. lra.
    - rewrite Ett. apply Hin. lra.
    - lra.
    - rewrite E0 in Q2. rewrite Ett in Q3. split; [exact Q1|]. split; [exact Q2|].
      assert (4 * u64 * Tm <= ce * u64); [|lra]. unfold ce. assert (0 <= u64 * Tm) by (apply Rmult_le_pos; lra). lra. }
  set (e := d + ce * u64 + ca * u64). set (ea := ca * u64).
  set (a := C * ((H + ce * u64) ^ 5 + e)). set (c := ea + BL * (ce * u64)).
  assert (0 <= (H + ce * u64) ^ 5) as Hp5 by (apply pow_le; lra).
  assert (0 <= a) as Ha by (unfold a, e; apply Rmult_le_pos; lra).
  assert (0 <= BL * (ce * u64)) as HBc2 by (apply Rmult_le_pos; lra).
  assert (0 <= c) as Hc by (unfold c, ea; lra).
  set (bound := exp (Lam * (T - t0 + N * (ce * u64))) * (d + (T - t0 + N * (ce * u64)) * a + N * c)).
  assert (N * (ce * u64) <= 1) as HNc.
  { replace (N * (ce * u64)) with (ce * (N * u64)) by ring. apply Rle_trans with (ce * x); [|exact X5].
    apply Rmult_le_compat_l; unfold x; lra. }
  assert (0 <= N * (ce * u64)) by (apply Rmult_le_pos; lra).
  assert (0 <= H ^ 5) as HH5 by (apply pow_le; lra).
  assert (bound <= K0 * (H ^ 5 + d + N * u64)) as Hbound.
  { unfold bound.
    assert (T - t0 + N * (ce * u64) <= S1) as Hsp by (unfold S1; pose proof (Rle_abs (T - t0)); lra).
    assert (0 <= T - t0 + N * (ce * u64)) as Hsp0 by lra.
    set (sp := T - t0 + N * (ce * u64)) in *. clearbody sp.
    assert (exp (Lam * sp) <= E1) as HeE.
    { unfold E1. destruct (Rle_lt_or_eq_dec _ _ Hsp) as [Hlt| ->]; [|lra]. left. apply exp_increasing. apply Rmult_lt_compat_l; lra. }
    unfold K0. rewrite Rmult_assoc. assert (0 <= N * c) by (apply Rmult_le_pos; lra). assert (0 <= sp * a) by (apply Rmult_le_pos; lra).
    apply Rmult_le_compat; [left; apply exp_pos|lra|exact HeE|].
    assert ((H + ce * u64) ^ 5 <= 32 * (H ^ 5 + ce * u64)) as P5 by (apply pow5_split; lra).
    assert (a <= C * (32 * (H ^ 5 + ce * u64) + e)) as Ha2 by (unfold a; apply Rmult_le_compat_l; lra).
    set (q := H ^ 5 + d + N * u64).
    assert (32 * (H ^ 5 + ce * u64) + e <= (32 + (33 * ce + ca) + 1) * q) as Hq.
    { unfold e, q. assert (ce * u64 <= ce * (N * u64)) by (apply Rmult_le_compat_l; lra).
      assert (ca * u64 <= ca * (N * u64)) by (apply Rmult_le_compat_l; lra).
      assert (0 <= (33 * ce + ca) * H ^ 5) by (apply Rmult_le_pos; lra).
      assert (0 <= (33 * ce + ca) * d) by (apply Rmult_le_pos; lra). lra. }
    assert (C * (32 * (H ^ 5 + ce * u64) + e) <= C * ((32 + (33 * ce + ca) + 1) * q)) by (apply Rmult_le_compat_l; lra).
    assert (sp * a <= S1 * (C * ((32 + (33 * ce + ca) + 1) * q))) by (apply Rmult_le_compat; lra).
    assert (N * c <= (ca + BL * ce) * q).
    { replace (N * c) with ((ca + BL * ce) * (N * u64)) by (unfold c, ea; ring). apply Rmult_le_compat_l; [lra|]. unfold q; lra. }
    assert (d <= q) by (unfold q; lra). lra. }
  assert (H ^ 5 <= H) as H5H.
  { assert (H <= 1) by (assert (ce * H <= 1) by (apply Rle_trans with (ce * x); [apply Rmult_le_compat_l; lra|exact X5]); nra).
    replace (H ^ 5) with (H * H ^ 4) by ring. rewrite <- (Rmult_1_r H) at 3. apply Rmult_le_compat_l; [lra|].
    rewrite <- (pow1 4). apply pow_incr. lra. }
  assert (bound <= rs') as Hbr.
  { eapply Rle_trans; [exact Hbound|]. apply Rle_trans with (K0 * x); [|exact X4]. apply Rmult_le_compat_l; [lra|unfold x; lra]. }
  pose (ok := fun z : f64 * list f64 => length (snd z) = n /\ finite_vec (snd z)).
  pose proof (accumulate n y Lam a c d (ce * u64) t0 T rs' (points s) (fun z => B2R (fst z)) (fun z => Rvec (snd z)) ok
    HLam Ha Hc Hd ltac:(lra)) as ACC.
  cbv zeta in ACC. rewrite Lpts in ACC. fold N in ACC. fold bound in ACC. specialize (ACC Hbr).
  assert (forall j z, nth_error (points s) j = Some z -> nth_error (ts (i_sol s)) j = Some (fst z)) as Hts.
  { intros j (tz & uz) Hz. apply combine_nth_inv in Hz. apply Hz. }
  intros t u Htu. apply In_nth_error in Htu as (j & Hj).
  destruct (ACC) with (j := j) (x := (t, u)) as (Ok1 & Cl1); [| | |exact Hj|].
  - intros z Hz. rewrite Ifst in Hz. cbn in Hz. injection Hz as <-. cbn [fst snd]. split; [exact E0|]. split; [split; assumption|exact Hcl].
  - clear j Hj t u ACC. intros j (t & u) (t' & u') Hx1 Hx2. cbn [fst snd].
    pose proof (Hts _ _ Hx1) as Hx1t. pose proof (Hts _ _ Hx2) as Hx2t. cbn [fst] in Hx1t, Hx2t.
    destruct (Htimes t (nth_error_In _ _ Hx1t)) as (Ft & Bt). destruct (Htimes t' (nth_error_In _ _ Hx2t)) as (Ft' & Bt').
    destruct (linked_nth _ _ _ _ _ Ilk Hx1 Hx2) as (dt & b1 & b2 & b3 & b4 & b5 & b6 & b7 & Lb & Fdt & Pdt & Et' & Eu').
    cbn [fst snd] in Et', Eu'.
    assert (B2R t' - B2R t <= H) as Hgap.
    { apply (gaps_nth H (Rvec (ts (i_sol s))) j); [exact Hg| |].
      - exact (map_nth_error (@B2R 53 1024) j _ Hx1t).
      - exact (map_nth_error (@B2R 53 1024) (S j) _ Hx2t). }
    assert (Rabs (B2R t' - (B2R t + B2R dt)) <= 2 * u64 * (1 + Tm)) as Hrt.
    { rewrite Et'. apply rounded_time; try assumption; rewrite <- Et'; [exact Ft'|]. apply Hin. lra. }
    assert (2 * u64 * (1 + Tm) <= ce * u64) by (unfold ce; assert (0 <= u64 * (1 + Tm)) by (apply Rmult_le_pos; lra); lra).
    pose proof (Rabs_le_inv _ _ Hrt) as Hrt2.
    exists (B2R dt). split; [exact Pdt|]. split; [lra|].
    intros dd Hdd (Lu' & Fu') Hcl'. cbn [fst snd] in *.
    assert (B2R dt <= H + ce * u64) as Hdt by lra.
    assert (B2R dt <= Hs) by lra.
    assert (B2R t + B2R dt + ce * u64 <= T) by lra.
    assert (forall i, (i < n)%nat -> fits W (@at_ (F64 fpowf fpowi) u i)) as Hfit.
    { intros i Hi. split; [apply finite_at; [exact Fu'|rewrite Lu'; exact Hi]|].
      rewrite <- (comp_Rvec fpowf fpowi). specialize (Hcl' i Hi). apply Rabs_near in Hcl'.
      specialize (Hy (B2R t) i ltac:(lra) Hi). unfold W. lra. }
    assert (forall l, length (bf b1 b2 b3 b4 b5 b6 b7 l) = n) as Lbf.
    { repeat match goal with HF : Forall _ (_ :: _) |- _ => apply Forall_cons_iff in HF as (? & HF) end.
      intros l. do 7 (destruct l as [|l]; [assumption|]). assumption. }
    pose proof (rounded_stages fpowf fpowi f p n u t dt b1 b2 b3 b4 b5 b6 b7 Lu' Lbf W ltac:(lra) HW2 Ft Fdt ltac:(lra) Hfit Tm
      ltac:(apply Hin; lra) ltac:(lra) F t0 T y (Rabs B) rr d e ea Hev ltac:(unfold W; lra)) as RS.
    assert (et Tm = ce * u64) as Eet by (unfold et, ce; ring). rewrite Eet in RS.
    specialize (RS ltac:(unfold e; lra) ltac:(unfold e; lra) ltac:(unfold ea, ca; lra) ltac:(lra) ltac:(lra)).
    destruct (HP (B2R t) (B2R dt) (Rvec u) dd e ea _ _ _ _ ltac:(lra) ltac:(lra) ltac:(lra)
                ltac:(rewrite Rvec_length; exact Lu') ltac:(lra) Hcl' ltac:(unfold e, ea; lra) ltac:(unfold e; lra) RS) as (C6 & G6).
    cbn beta in C6. change (yf fpowf fpowi f p u t dt b1 b2 b3 b4 b5 b6 6) with (y7 fpowf fpowi f p u t dt b1 b2 b3 b4 b5 b6) in C6.
    rewrite <- Eu' in C6.
    split; [split|].
    + cbn [snd]. rewrite Eu'. exact (Ly fpowf fpowi f p n u t dt b1 b2 b3 b4 b5 b6 b7 Lu' Lbf 6).
    + apply (finite_at fpowf fpowi). intros i Hi. cbn [snd] in *. rewrite Eu' in *.
      refine (proj1 (rounded_points fpowf fpowi f p n u t dt b1 b2 b3 b4 b5 b6 b7 Lu' Lbf W ltac:(lra) HW2 Fdt ltac:(lra) Hfit 6 ltac:(lia) _ i _)).
      * intros m Hm. apply G6. lia.
      * rewrite (Ly fpowf fpowi f p n u t dt b1 b2 b3 b4 b5 b6 b7 Lu' Lbf 6) in Hi || idtac. 
        assert (length (y7 fpowf fpowi f p u t dt b1 b2 b3 b4 b5 b6) = n) as Ly7 by exact (Ly fpowf fpowi f p n u t dt b1 b2 b3 b4 b5 b6 b7 Lu' Lbf 6).
        lia.
    + apply (close_le n (((1 + Lam * B2R dt) * dd + B2R dt * (C * (B2R dt ^ 5 + e)) + ea) + BL * (ce * u64))).
      * unfold c. assert (B2R dt ^ 5 <= (H + ce * u64) ^ 5) by (apply pow_incr; lra).
        assert (B2R dt * (C * (B2R dt ^ 5 + e)) <= B2R dt * a); [|lra].
        unfold a. apply Rmult_le_compat_l; [lra|]. apply Rmult_le_compat_l; lra.
      * apply (close_trans n _ _ _ (y (B2R t + B2R dt))); [exact C6|].
        apply (close_le n (BL * Rabs (B2R t + B2R dt - B2R t'))).
        { apply Rmult_le_compat_l; [exact HBL|]. rewrite Rabs_minus_sym. lra. }
        apply Hsl; lra.
  - intros i (tz & uz) Hz. destruct (Htimes tz (nth_error_In _ _ (Hts _ _ Hz))) as (_ & Q). cbn [fst]. lra.
  - cbn [fst snd] in *. split; [apply Ok1|]. eapply close_le; [|exact Cl1]. eapply Rle_trans; [exact Hbound|].
    apply Rmult_le_compat_r; [lra|]. unfold KK. lra.
Qed.
