(** Termination of DormandPrince5 in exact arithmetic (C10). *)
From Coq Require Import ZArith List Bool Lia Reals Lra.
From Verif Require Import Arith Vec Core Driver VecFacts DP5 DP5Facts Spec SpecRK SpecODE RKFacts DP5Inv
  ArithR DP5R DP5Time DP5RK.
Import ListNotations.
Local Open Scope R_scope.

(** ** Bounds for Runge-Kutta steps *)
Definition abs_sum (ws : list R) : R := fold_right (fun w x => Rabs w + x) 0 ws.
Lemma abs_sum_nonneg ws : 0 <= abs_sum ws.
Proof. induction ws as [|w ws IH]; cbn [abs_sum fold_right]; [lra|]. fold (abs_sum ws). pose proof (Rabs_pos w). lra. Qed.

Lemma wsum_bound M ws xs : 0 <= M -> Forall (fun x => Rabs x <= M) xs -> Rabs (wsum ws xs) <= abs_sum ws * M.
Proof.
  intros HM. revert xs. induction ws as [|w ws IH]; intros xs Hx; cbn [wsum abs_sum fold_right].
  - rewrite Rabs_R0. lra.
  - fold (abs_sum ws). destruct xs as [|x xs].
    + rewrite Rabs_R0. apply Rmult_le_pos; [|assumption].
      pose proof (abs_sum_nonneg ws). pose proof (Rabs_pos w). lra.
    + inversion_clear Hx as [|? ? H1 H2]. eapply Rle_trans; [apply Rabs_triang|].
      rewrite Rmult_plus_distr_r. apply Rplus_le_compat; [|auto].
      rewrite Rabs_mult. apply Rmult_le_compat_l; [apply Rabs_pos|assumption].
Qed.

Definition bounded (n : nat) (M : R) (v : list R) : Prop :=
  length v = n /\ forall i, (i < n)%nat -> Rabs (comp v i) <= M.

Lemma combine_within n M r u h a ks :
  0 <= M -> 0 <= h -> length u = n -> Forall (bounded n M) ks ->
  h * (abs_sum a * M) <= r -> within n r u (combine_stages u h a ks).
Proof.
  intros HM Hh Hu Hk Hr. split; [rewrite combine_stages_length; exact Hu|]. intros i Hi.
  rewrite combine_stages_comp by lia.
  match goal with |- Rabs ?x <= _ => replace x with (h * wsum a (map (fun k => comp k i) ks)) by ring end.
  rewrite Rabs_mult, (Rabs_right h) by lra. eapply Rle_trans; [|exact Hr].
  apply Rmult_le_compat_l; [assumption|]. apply wsum_bound; [assumption|].
  rewrite Forall_map. eapply Forall_impl; [|exact Hk]. intros k [_ H]. auto.
Qed.

Lemma slopes_bounded (F : R -> list R -> list R) n M r t u h rows :
  0 <= M -> 0 <= h -> length u = n ->
  (forall t' v, t <= t' <= t + h -> within n r u v -> bounded n M (F t' v)) ->
  Forall (fun row => 0 <= fst row <= 1 /\ h * (abs_sum (snd row) * M) <= r) rows ->
  forall ks, Forall (bounded n M) ks -> Forall (bounded n M) (slopes F t u h rows ks).
Proof.
  intros HM Hh Hu HF Hrows. induction Hrows as [|[c a] rows [Hc Ha] Hrows IH]; intros ks Hk; cbn [slopes]; [assumption|].
  apply IH. apply Forall_app. split; [assumption|]. constructor; [|constructor].
  cbn [fst snd] in *. apply HF.
  - assert (0 <= c * h) by (apply Rmult_le_pos; lra).
    assert (c * h <= 1 * h) by (apply Rmult_le_compat_r; lra). lra.
  - exact (combine_within n M r u h a ks HM Hh Hu Hk Ha).
Qed.

Lemma dopri_rows_bound M h r : 0 <= M -> 0 <= h -> 25 * h * M <= r ->
  Forall (fun row => 0 <= fst row <= 1 /\ h * (abs_sum (snd row) * M) <= r) dopri_rows.
Proof.
  intros HM Hh Hr. assert (0 <= h * M) by (apply Rmult_le_pos; assumption).
  unfold dopri_rows. repeat (constructor; [cbn [fst snd abs_sum fold_right]; split; [lra|]|]); [..|constructor];
  rewrite ?Rabs_Ropp; rewrite ?Rabs_R0; repeat match goal with |- context [Rabs ?x] => rewrite (Rabs_right x) by lra end; nra.
Qed.

(** Both formulas of the pair differ by at most [h * M]. *)
Lemma dopri_diff_bound (F : R -> list R -> list R) n M r t u h i :
  0 <= M -> 0 <= h -> length u = n -> 25 * h * M <= r ->
  (forall t' v, t <= t' <= t + h -> within n r u v -> bounded n M (F t' v)) ->
  (i < n)%nat ->
  Rabs (comp (vdiff (rk_step dopri_rows dopri_b F t u h) (rk_step dopri_rows dopri_bhat F t u h)) i) <= h * M.
Proof.
  intros HM Hh Hu Hr HF Hi.
  pose proof (slopes_bounded F n M r t u h dopri_rows HM Hh Hu HF (dopri_rows_bound M h r HM Hh Hr) [] (Forall_nil _)) as Hs.
  rewrite vdiff_comp by (unfold rk_step; rewrite combine_stages_length; lia).
  unfold rk_step. rewrite !combine_stages_comp by lia.
  assert (exists k1 k2 k3 k4 k5 k6 k7, slopes F t u h dopri_rows [] = [k1;k2;k3;k4;k5;k6;k7]) as (k1&k2&k3&k4&k5&k6&k7&E).
  { do 7 eexists. reflexivity. }
  rewrite E in *. repeat match goal with H : Forall _ (_ :: _) |- _ => inversion_clear H end.
  repeat match goal with H : bounded n M ?k |- _ => destruct H as [_ H]; specialize (H i Hi) end.
  cbn [map]. unfold dopri_b, dopri_bhat.
  match goal with |- Rabs ?x <= _ =>
    replace x with (h * wsum [71/57600; 0; -(71/16695); 71/1920; -(17253/339200); 22/525; -(1/40)]
      [comp k1 i; comp k2 i; comp k3 i; comp k4 i; comp k5 i; comp k6 i; comp k7 i])
    by (cbn [wsum]; field) end.
  rewrite Rabs_mult, (Rabs_right h) by lra. apply Rmult_le_compat_l; [assumption|].
  eapply Rle_trans; [apply (wsum_bound M)|].
  - assumption.
  - repeat (apply Forall_cons; [assumption|]). apply Forall_nil.
  - cbn [abs_sum fold_right]. rewrite ?Rabs_Ropp; rewrite ?Rabs_R0;
      repeat match goal with |- context [Rabs ?x] => rewrite (Rabs_right x) by lra end. nra.
Qed.

Lemma rsum_le n f g : (forall i, (i < n)%nat -> f i <= g i) -> rsum n f <= rsum n g.
Proof.
  induction n as [|n IH]; intros H; [unfold rsum; cbn; lra|].
  rewrite !rsum_S. apply Rplus_le_compat; [apply IH; intros; apply H; lia|apply H; lia].
Qed.
Lemma rsum_const n c : rsum n (fun _ => c) = INR n * c.
Proof.
  induction n as [|n IH]; [unfold rsum; cbn; lra|]. rewrite rsum_S, IH, S_INR. lra.
Qed.

Lemma wrms_le_1 atol rtol u v d : u <> [] -> 0 < atol -> 0 <= rtol ->
  (forall i, (i < length u)%nat -> Rabs (comp d i) <= atol) -> wrms atol rtol u v d <= 1.
Proof.
  intros Hu Ha Hr Hd. unfold wrms. rewrite <- sqrt_1. apply sqrt_le_1_alt.
  assert (0 < INR (length u)) as Hn by (apply lt_0_INR; destruct u; [contradiction|cbn; lia]).
  apply Rmult_le_reg_r with (INR (length u)); [assumption|].
  unfold Rdiv at 1. rewrite Rmult_assoc, Rinv_l, Rmult_1_r, Rmult_1_l by lra.
  rewrite <- (Rmult_1_r (INR (length u))). rewrite <- rsum_const. apply rsum_le. intros i Hi.
  specialize (Hd i Hi). set (w := atol + _).
  assert (atol <= w) as Hw.
  { unfold w. assert (0 <= rtol * Rmax (Rabs (comp u i)) (Rabs (comp v i))); [|lra].
    apply Rmult_le_pos; [assumption|]. eapply Rle_trans; [apply Rabs_pos|apply Rmax_l]. }
  clearbody w. set (x := comp d i) in *. clearbody x.
  assert (Rabs (x / w) <= 1) as H1.
  { unfold Rdiv. rewrite Rabs_mult, (Rabs_right (/ w)).
    - apply Rmult_le_reg_r with w; [lra|]. rewrite Rmult_assoc, Rinv_l by lra. lra.
    - left. apply Rinv_0_lt_compat. lra. }
  pose proof (Rle_abs (x / w)). pose proof (Rle_abs (- (x / w))) as H2. rewrite Rabs_Ropp in H2. nra.
Qed.

Section DP5Term.
Context {P : Type} (inf : R).
Notation RI := (RA inf).
Notation state := (integ RI P (dp5_cache RI)).
Notation alg := (@DormandPrince5 RI P).

(** One attempt computes the two formulas of the pair. *)
Lemma attempt_rk (s s1 : state) :
  overwrites (i_dudt s) -> fsal inf s -> compute_stages s = Ok s1 ->
  length (i_u s) <> 0%nat -> 0 < o_abstol (i_opts s) -> 0 <= o_reltol (i_opts s) ->
  let F := ode (i_dudt s) (i_params s) in
  let u' := rk_step dopri_rows dopri_b F (i_t s) (i_u s) (i_dt s) in
  dp5_error s1 = wrms (o_abstol (i_opts s)) (o_reltol (i_opts s)) (i_u s) u'
     (vdiff u' (rk_step dopri_rows dopri_bhat F (i_t s) (i_u s) (i_dt s))).
Proof.
  intros Ho Hfs Hs Hn Ha Hr F u'. unfold fsal in Hfs.
  pose proof (compute_stages_inv _ _ Hs) as (Ssh&Sp&Spt&Sdt&_&_&_&_&_&_&_&_&_&_&_).
  rewrite compute_stages_eq, Ssh in Hs. injection Hs as Hs.
  assert (i_opts s1 = i_opts s) as Eo1 by apply Sp.
  assert (i_u s1 = i_u s) as Eu1 by apply Spt.
  apply dp5_shapes_spec in Ssh.
  repeat match goal with H : Forall _ (_ :: _) |- _ => inversion_clear H end.
  pose proof (stages_rk inf (i_dudt s) (i_params s) (i_u s) (i_t s) (i_dt s)
    (k2 (i_cache s)) (k3 (i_cache s)) (k4 (i_cache s)) (k5 (i_cache s)) (k6 (i_cache s))
    (dunew (i_cache s)) Ho) as Hst.
  specialize (Hst ltac:(assumption) ltac:(assumption) ltac:(assumption)
    ltac:(assumption) ltac:(assumption) ltac:(assumption)).
  cbv zeta in Hst. rewrite <- Hfs in Hst.
  set (v := stage_vecs _ _ _ _ _ _ _ _ _ _ _ _) in Hst.
  assert (stage_vecs_of s = v) as Ev by reflexivity.
  rewrite Ev in Hs.
  assert (unew (i_cache s1) = sd_unew v) as U1 by (rewrite <- Hs; reflexivity).
  assert (uerr (i_cache s1) = sd_uerr v) as U3 by (rewrite <- Hs; reflexivity).
  clear Hs. destruct Hst as (V1 & _ & V3 & _).
  assert (length (unew (i_cache s1)) = length (i_u s1)) as L1.
  { rewrite U1, V1, Eu1. unfold rk_step. apply combine_stages_length. }
  assert (length (uerr (i_cache s1)) = length (i_u s1)) as L2.
  { rewrite U3, V3, Eu1, vdiff_length. unfold rk_step. apply combine_stages_length. }
  rewrite error_wrms; rewrite ?Eo1, ?Eu1 in *; try assumption.
  rewrite U1, U3, V1, V3. reflexivity.
Qed.

Definition retry_inv (n : nat) (tf M r : R) (s : state) : Prop :=
  overwrites (i_dudt s) /\ fsal inf s /\ dp5_shapes s = true /\ length (i_u s) = n /\ n <> 0%nat /\
  sane_opts (i_opts s) /\ 0 < o_abstol (i_opts s) /\ 0 <= o_reltol (i_opts s) /\
  o_max_stiff (i_opts s) <> 0%nat /\ 0 < i_dt s /\ i_t s + i_dt s <= tf /\
  bounded_near (i_dudt s) (i_params s) n tf (i_t s) (i_u s) M r.

Lemma small_step_accepted n tf M r (s : state) :
  retry_inv n tf M r s -> 0 <= M -> i_dt s <= r -> 25 * i_dt s * M <= r ->
  i_dt s * M <= o_abstol (i_opts s) -> exists s', dp5_attempt s = Ok (s', true).
Proof.
  intros (Ho & Hfs & Hsh & Hu & Hn & Hso & Ha & Hr & Hm & Hdt & Htf & Hb) HM Hdr H25 HaM.
  destruct (dp5_attempt_no_panic s Hsh Hm) as (s' & d & E). destruct d; [eauto|exfalso].
  apply dp5_attempt_inv in E as (s1 & Hs & [(D & _)|(_ & Herr & _)]); [discriminate|].
  rewrite (attempt_rk s s1 Ho Hfs Hs) in Herr; try assumption; [|now rewrite Hu].
  rnorm. apply Rleb_false in Herr. apply Rlt_not_le in Herr. apply Herr. clear Herr.
  replace (1/1) with 1 by lra. apply wrms_le_1; try assumption.
  - intros Z. rewrite Z in Hu. cbn in Hu. lia.
  - intros i Hi. eapply Rle_trans; [|exact HaM].
    apply (dopri_diff_bound _ n M r); try assumption.
    + lra.
    + intros t' v Ht' Hv. split; [rewrite ode_length; apply Hv|].
      intros j Hj. apply Hb; [|assumption|assumption].
      split; [lra|]. apply Rmin_glb; lra.
    + rewrite <- Hu. exact Hi.
Qed.

Lemma retry_inv_rejected n tf M r (s s' : state) :
  retry_inv n tf M r s -> dp5_attempt s = Ok (s', false) ->
  retry_inv n tf M r s' /\ i_dt s' <= i_dt s * qmax inf (i_opts s) /\ i_opts s' = i_opts s.
Proof.
  intros (Ho & Hfs & Hsh & Hu & Hn & Hso & Ha & Hr & Hm & Hdt & Htf & Hb) E.
  assert (rejections 1 s s') as R1 by (econstructor; [exact E|constructor]).
  pose proof (rejections_dt inf 1 s s' Hso R1 Hdt) as (D1 & D2). clear R1. rewrite pow_1 in D2.
  pose proof (dp5_attempt_rejected _ _ E) as At.
  pose proof (atr_problem _ _ At) as Pb. pose proof (atr_point _ _ At) as Pt.
  pose proof (atr_du _ _ At) as Hdu. pose proof (atr_shapes _ _ At) as [_ Hsh']. clear At E.
  destruct Pb as (Ed & _ & _ & Ep & _ & _ & Eo). destruct Pt as (Eu & Et & _).
  pose proof (qmax_range inf _ Hso) as Hq.
  assert (i_dt s * qmax inf (i_opts s) <= i_dt s * 1) as Hle by (apply Rmult_le_compat_l; lra).
  split; [|auto]. unfold retry_inv, fsal in *. rewrite Ed, Ep, Eo, Eu, Et, Hdu.
  repeat (split; [assumption|]). split; [rnorm; lra|assumption].
Qed.

Lemma loop_returns n tf M r : 0 <= M -> forall N (s : state),
  retry_inv n tf M r s ->
  let h := i_dt s * qmax inf (i_opts s) ^ N in
  h <= r -> 25 * h * M <= r -> h * M <= o_abstol (i_opts s) ->
  exists s', dp5_loop (S N) s = Ok s'.
Proof.
  intros HM. induction N as [|N IH]; intros s Hi h H1 H2 H3.
  - unfold h in *. cbn [pow] in *. rewrite Rmult_1_r in *.
    destruct (small_step_accepted n tf M r s Hi HM H1 H2 H3) as (s' & E).
    exists s'. cbn [dp5_loop]. now rewrite E.
  - pose proof Hi as (_ & _ & Hsh & _ & _ & Hso & _ & _ & Hm & Hdt & _).
    destruct (dp5_attempt_no_panic s Hsh Hm) as (s1 & d & E).
    change (dp5_loop (S (S N)) s) with (bind (dp5_attempt s) (fun '(s', done) => if done : bool then Ok s' else dp5_loop (S N) s')).
    rewrite E. cbn [bind]. destruct d; [eauto|].
    destruct (retry_inv_rejected n tf M r s s1 Hi E) as (Hi1 & Hd1 & Ho1).
    pose proof (qmax_range inf _ Hso) as Hq.
    pose proof Hi1 as (_ & _ & _ & _ & _ & _ & _ & _ & _ & Hdt1 & _).
    assert (i_dt s1 * qmax inf (i_opts s1) ^ N <= h) as Hh.
    { unfold h. rewrite Ho1. cbn [pow]. rewrite <- Rmult_assoc. apply Rmult_le_compat_r; [apply pow_le; lra|assumption]. }
    assert (0 < i_dt s1 * qmax inf (i_opts s1) ^ N) as Hp.
    { rewrite Ho1. apply Rmult_lt_0_compat; [assumption|]. apply pow_lt. lra. }
    apply IH; [exact Hi1| |..].
    + lra.
    + eapply Rle_trans; [|exact H2]. apply Rmult_le_compat_r; lra.
    + rewrite Ho1 at 2. eapply Rle_trans; [|exact H3]. apply Rmult_le_compat_r; lra.
Qed.

(** ** One [step()] *)
Lemma step_returns n M r N (s : state) :
  fwd inf s -> overwrites (i_dudt s) -> fsal inf s -> dp5_shapes s = true -> length (i_u s) = n -> n <> 0%nat ->
  0 < o_abstol (i_opts s) -> 0 <= o_reltol (i_opts s) -> o_max_stiff (i_opts s) <> 0%nat ->
  bounded_near (i_dudt s) (i_params s) n (i_tfinal s) (i_t s) (i_u s) M r -> 0 <= M ->
  let h := 101/100 * i_dt s * qmax inf (i_opts s) ^ N in
  h <= r -> 25 * h * M <= r -> h * M <= o_abstol (i_opts s) ->
  exists s', dp5_step (S N) s = Ok s'.
Proof.
  intros Hf Ho Hfs Hsh Hu Hn Ha Hr Hm Hb HM h H1 H2 H3.
  pose proof (clip_fwd inf s Hf) as (C1 & C2 & C3). destruct Hf as (Hso & _).
  destruct (dp5_clip_frame s) as (Cp & Cpt & _ & _ & _ & _ & (cl & Cc)).
  destruct Cp as (Ed & _ & _ & Ep & _ & _ & Eo). destruct Cpt as (Eu & Et & Eup & _).
  pose proof (qmax_range inf _ Hso) as Hq.
  assert (0 < qmax inf (i_opts s) ^ N) as Hqn by (apply pow_lt; lra).
  assert (i_dt (dp5_clip s) * qmax inf (i_opts s) ^ N <= h) as Hh.
  { unfold h. apply Rmult_le_compat_r; lra. }
  assert (0 < i_dt (dp5_clip s) * qmax inf (i_opts s) ^ N) as Hp by (apply Rmult_lt_0_compat; lra).
  destruct (loop_returns n (i_tfinal s) M r HM N (dp5_clip s)) as (s' & E).
  - unfold retry_inv. rewrite Ed, Ep, Eo, Eu, Et. split; [assumption|].
    split; [unfold fsal; rewrite Ed, Ep, Eu, Et, Cc; exact Hfs|].
    split; [rewrite (same_shapes_point s); eauto|].
    repeat (split; [assumption|]). split; [|assumption].
    destruct C3 as [(_ & ?)|(_ & ?)]; rnorm; lra.
  - rewrite Eo. lra.
  - rewrite Eo. eapply Rle_trans; [|exact H2]. apply Rmult_le_compat_r; lra.
  - rewrite Eo. eapply Rle_trans; [|exact H3]. apply Rmult_le_compat_r; lra.
  - exists (dp5_finish s'). unfold dp5_step. rewrite E. reflexivity.
Qed.

(** ** Runs *)
Definition good (b : builder RI P) (s : state) : Prop :=
  run_inv inf b s /\ rk_inv inf b s /\ dp5_shapes s = true.

Lemma good_step (b : builder RI P) fuel (s s' : state) r :
  sane_opts (b_opts b) -> overwrites (b_dudt b) ->
  good b s -> rc (i_sol s) = RContinue -> step alg None fuel s = Ok (s', r) -> good b s'.
Proof.
  intros Hso Ho (H1 & H2 & H3) Hrc H. split; [eapply run_inv_step; eassumption|].
  split; [eapply rk_inv_step; eassumption|].
  eapply (safe_state_step None) in H; [apply H|]. exact no_callback_benign.
Qed.

Lemma good_build (b : builder RI P) (s : state) :
  sane_opts (b_opts b) -> 0 < b_dt b -> b_t b < b_tfinal b ->
  build alg b = Ok s -> good b s /\ rc (i_sol s) = RContinue.
Proof.
  intros Hso Hdt Ht H. destruct (run_inv_build inf b s Hso Hdt Ht H) as [H1 H2].
  split; [|exact H2]. split; [exact H1|]. split; [now apply rk_inv_build|].
  apply dp5_build_inv in H as (?&?&?&?&Eu&Et&?&?&?&?&?&?&Eo&Est&Esol&Etr&?&?&?&?&?&Hsh). assumption.
Qed.

Lemma good_reached (b : builder RI P) fuel k (s0 s : state) :
  sane_opts (b_opts b) -> overwrites (b_dudt b) -> 0 < b_dt b -> b_t b < b_tfinal b ->
  build alg b = Ok s0 -> reached alg None fuel k s0 s -> good b s.
Proof.
  intros Hso Ho Hdt Ht Hb Hr. destruct (good_build b s0 Hso Hdt Ht Hb) as [Hi Hrc].
  refine (reached_invariant alg None fuel (good b) _ k s0 s Hr Hrc Hi).
  intros s1 s2 r H1 H2 H3. eapply good_step; eassumption.
Qed.

Lemma good_step_returns (b : builder RI P) (s : state) M r N :
  overwrites (b_dudt b) -> 0 < o_abstol (b_opts b) -> 0 <= o_reltol (b_opts b) ->
  o_max_stiff (b_opts b) <> 0%nat -> b_u b <> [] ->
  good b s -> rc (i_sol s) = RContinue ->
  bounded_near (b_dudt b) (b_params b) (length (b_u b)) (b_tfinal b) (i_t s) (i_u s) M r -> 0 <= M ->
  let h := 101/100 * i_dt s * qmax inf (b_opts b) ^ N in
  h <= r -> 25 * h * M <= r -> h * M <= o_abstol (b_opts b) ->
  exists s' r, step alg None (S N) s = Ok (s', r).
Proof.
  intros Ho Ha Hr Hm Hn ([] & [] & Hsh) Hrc Hb HM h H1 H2 H3.
  destruct (step_returns (length (b_u b)) M r N s) as (s' & E); rewrite ?ri_opts, ?ri_tfinal, ?rki_f, ?rki_p; auto.
  - intros Z. apply Hn. now apply length_zero_iff_nil.
  - unfold step. cbn [alg_step DormandPrince5 Cache]. rewrite E. cbn [bind run_callback]. eauto.
Qed.

Theorem dp5_step_returns (b : builder RI P) fuel k (s0 s : state) M r N :
  sane_opts (b_opts b) -> overwrites (b_dudt b) -> 0 < b_dt b -> b_t b < b_tfinal b ->
  0 < o_abstol (b_opts b) -> 0 <= o_reltol (b_opts b) -> o_max_stiff (b_opts b) <> 0%nat -> b_u b <> [] ->
  build alg b = Ok s0 -> reached alg None fuel k s0 s -> rc (i_sol s) = RContinue ->
  bounded_near (b_dudt b) (b_params b) (length (b_u b)) (b_tfinal b) (i_t s) (i_u s) M r -> 0 <= M ->
  let h := 101/100 * i_dt s * Rmax (o_safe (b_opts b)) (o_facl (b_opts b)) ^ N in
  h <= r -> 25 * h * M <= r -> h * M <= o_abstol (b_opts b) ->
  exists s' r, step alg None (S N) s = Ok (s', r).
Proof.
  intros Hso Ho Hdt Ht Ha Hr Hm Hn Hb Hre. eapply good_step_returns; try eassumption.
  eapply good_reached; eassumption.
Qed.

(** Enough retries make the step as small as desired. *)
Lemma small_power q x e : 0 < q < 1 -> 0 < e -> exists N, x * q ^ N <= e.
Proof.
  intros Hq He. destruct (Rle_lt_dec x 0) as [Hx|Hx].
  - exists 0%nat. cbn. lra.
  - destruct (pow_lt_1_zero q) with (y := e / x) as (N & HN).
    + rewrite Rabs_right; lra.
    + now apply Rdiv_lt_0_compat.
    + exists N. specialize (HN N (le_n N)). rewrite Rabs_right in HN by (apply Rle_ge, pow_le; lra).
      apply Rmult_lt_compat_l with (r := x) in HN; [|assumption].
      replace (x * (e / x)) with e in HN by (field; lra). lra.
Qed.

Lemma good_step_ends (b : builder RI P) (s : state) :
  sane_opts (b_opts b) ->
  overwrites (b_dudt b) -> 0 < o_abstol (b_opts b) -> 0 <= o_reltol (b_opts b) ->
  o_max_stiff (b_opts b) <> 0%nat -> b_u b <> [] ->
  locally_bounded (b_dudt b) (b_params b) (length (b_u b)) (b_t b) (b_tfinal b) ->
  good b s -> rc (i_sol s) = RContinue ->
  exists N s' r, step alg None N s = Ok (s', r).
Proof.
  intros Hso Ho Ha Hr Hm Hn Hlb Hg Hrc.
  assert (b_t b <= i_t s <= b_tfinal b) as Ht by (destruct Hg as ([] & _); split; assumption).
  assert (length (i_u s) = length (b_u b)) as Hu by (destruct Hg as (_ & [] & _); assumption).
  destruct (Hlb (i_t s) (i_u s) Ht Hu) as (M & r & HM & Hrp & Hb).
  pose proof (qmax_range inf _ Hso) as Hq.
  set (e := Rmin r (Rmin (r / (25 * (M + 1))) (o_abstol (b_opts b) / (M + 1)))).
  assert (0 < e) as He.
  { unfold e. repeat apply Rmin_glb_lt; try assumption; apply Rdiv_lt_0_compat; rnorm; lra. }
  destruct (small_power (qmax inf (b_opts b)) (101/100 * i_dt s) e Hq He) as (N & HN).
  assert (0 < i_dt s) as Hdt by (destruct Hg as ([] & _); assumption).
  assert (0 <= 101/100 * i_dt s * qmax inf (b_opts b) ^ N) as Hnn.
  { apply Rmult_le_pos; [lra|]. apply pow_le. lra. }
  exists (S N). eapply (good_step_returns b s M r N); try eassumption.
  - eapply Rle_trans; [exact HN|]. apply Rmin_l.
  - assert (e <= r / (25 * (M + 1))) as E1 by (eapply Rle_trans; [apply Rmin_r|apply Rmin_l]).
    set (h := _ * _ ^ N) in *. clearbody h.
    assert (h * (25 * (M + 1)) <= r) as E2.
    { apply Rle_trans with (r / (25 * (M+1)) * (25 * (M+1))); [apply Rmult_le_compat_r; lra|].
      right. field. lra. }
    nra.
  - assert (e <= o_abstol (b_opts b) / (M + 1)) as E1 by (eapply Rle_trans; [apply Rmin_r|apply Rmin_r]).
    set (h := _ * _ ^ N) in *. clearbody h.
    assert (h * (M + 1) <= o_abstol (b_opts b)) as E2.
    { apply Rle_trans with (o_abstol (b_opts b) / (M+1) * (M+1)); [apply Rmult_le_compat_r; lra|].
      right. field. lra. }
    rnorm. nra.
Qed.

Lemma step_fuel_mono fuel fuel' (s s' : state) r : (fuel <= fuel')%nat ->
  step alg None fuel s = Ok (s', r) -> step alg None fuel' s = Ok (s', r).
Proof.
  intros Hle H. unfold step in *. cbn [alg_step DormandPrince5 Cache] in *.
  destruct (dp5_step_mono fuel fuel' s Hle) as [E|E]; [rewrite E in H; discriminate|].
  rewrite <- E. exact H.
Qed.

Lemma continues_fuel_mono fuel fuel' k (s s' : state) : (fuel <= fuel')%nat ->
  continues alg None fuel k s s' -> continues alg None fuel' k s s'.
Proof.
  intros Hle H. induction H as [s|k s s1 n s2 Hs Hc IH]; [constructor|].
  econstructor; [|exact IH]. eapply step_fuel_mono; eassumption.
Qed.

Lemma continues_snoc fuel k (s s1 s2 : state) n :
  continues alg None fuel k s s1 -> step alg None fuel s1 = Ok (s2, Some n) ->
  continues alg None fuel (S k) s s2.
Proof.
  intros H. induction H as [s|k s s1 n' s3 Hs Hc IH]; intros H2.
  - econstructor; [exact H2|constructor].
  - econstructor; [exact Hs|auto].
Qed.

Theorem dp5_integrate_ends (b : builder RI P) (s0 : state) :
  sane_opts (b_opts b) -> overwrites (b_dudt b) -> 0 < b_dt b -> b_t b < b_tfinal b ->
  0 < o_abstol (b_opts b) -> 0 <= o_reltol (b_opts b) -> o_max_stiff (b_opts b) <> 0%nat -> b_u b <> [] ->
  locally_bounded (b_dudt b) (b_params b) (length (b_u b)) (b_t b) (b_tfinal b) ->
  build alg b = Ok s0 ->
  exists fuel s, integrate alg None fuel (S (o_max_steps (b_opts b))) s0 = Ok s.
Proof.
  intros Hso Ho Hdt Ht Ha Hr Hm Hn Hlb Hb.
  destruct (good_build b s0 Hso Hdt Ht Hb) as [Hg0 Hrc0].
  assert (forall j, (exists fuel k (s1 s : state), (k < j)%nat /\ continues alg None fuel k s0 s1 /\
                       step alg None fuel s1 = Ok (s, None)) \/
                    (exists fuel (s1 : state), continues alg None fuel j s0 s1)) as Hj.
  { induction j as [|j [(fuel & k & s1 & s & Hk & Hc & Hs)|(fuel & s1 & Hc)]].
    - right. exists 0%nat, s0. constructor.
    - left. exists fuel, k, s1, s. split; [lia|]. split; assumption.
    - destruct (continues_invariant alg None fuel (good b)
         (fun s1 s2 r H1 H2 H3 => good_step b fuel s1 s2 r Hso Ho H1 H2 H3) _ _ _ Hc Hrc0 Hg0) as [Hg Hrc].
      destruct (good_step_ends b s1 Hso Ho Ha Hr Hm Hn Hlb Hg Hrc) as (N & s' & r & Hs).
      pose proof (continues_fuel_mono fuel (Nat.max fuel N) j s0 s1 ltac:(lia) Hc) as Hc'.
      pose proof (step_fuel_mono N (Nat.max fuel N) s1 s' r ltac:(lia) Hs) as Hs'.
      destruct r as [n|].
      + right. exists (Nat.max fuel N), s'. eapply continues_snoc; eassumption.
      + left. exists (Nat.max fuel N), j, s1, s'. split; [lia|]. split; assumption. }
  destruct (Hj (S (o_max_steps (b_opts b)))) as [(fuel & k & s1 & s & Hk & Hc & Hs)|(fuel & s1 & Hc)].
  - exists fuel, s. apply (integrate_split alg None). exists k, s1. split; [exact Hk|]. split; assumption.
  - apply (dp5_budget b None fuel _ s0 s1 no_callback_benign Hb) in Hc. lia.
Qed.
End DP5Term.
