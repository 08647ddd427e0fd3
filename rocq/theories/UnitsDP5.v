(** The reference of SpecPI.v, and with it every DormandPrince5 run, does not
    depend on units and labels. *)
From Coq Require Import ZArith List Bool Lia Reals Lra.
From RecordUpdate Require Import RecordSet.
From Verif Require Import Arith Vec Core Driver DP5 Spec ArithR SpecRK SpecODE SpecReach RKFacts SpecLin SpecPI SpecUnits RadauRef Units DP5Ref.
Import ListNotations RecordSetNotations.
Local Open Scope R_scope.
Notation p_t := SpecPI.p_t.
Notation p_u := SpecPI.p_u.
Notation p_h := SpecPI.p_h.
Notation p_code := SpecPI.p_code.

Section DP5.
Context {inf : R} (n : nat) (sg si : nat -> nat) (c tau : R).
Hypothesis Hsg : renumbers n sg si.
Hypothesis Hc : c <> 0.
Hypothesis Htau : 0 < tau.
Context (F F' : R -> list R -> list R) (o : opts (RA inf)) (tf : R).
Hypothesis HF : same_ode n c tau sg F F'.
Definition opts_in : opts (RA inf) := o <| o_abstol := Rabs c * o_abstol o |> <| o_dtmax := tau * o_dtmax o |>.
Notation o' := opts_in.
Notation conv := (converted n c sg).
Notation conv' := (converted n (c / tau) sg).

Lemma combine_length u h ws ks : length (combine_stages u h ws ks) = length u.
Proof. unfold combine_stages. now rewrite map_length, seq_length. Qed.
Lemma wsum_conv ws ks i : (i < n)%nat ->
  wsum ws (map (fun k => comp k i) (map conv' ks)) = c / tau * wsum ws (map (fun k => comp k (sg i)) ks).
Proof.
  intros Hi. revert ks. induction ws as [|w ws IH]; intros [|k ks]; cbn [wsum map]; try ring.
  rewrite IH, (conv_comp n sg) by exact Hi. ring.
Qed.
Lemma combine_conv u h ws ks : length u = n ->
  combine_stages (conv u) (tau * h) ws (map conv' ks) = conv (combine_stages u h ws ks).
Proof.
  intros Hu. unfold combine_stages. rewrite (conv_length n), Hu.
  symmetry. etransitivity; [exact (conv_vect n sg si Hsg c _)|]. symmetry.
  apply vect_ext. intros i Hi. rewrite wsum_conv, (conv_comp n sg) by exact Hi. field. lra.
Qed.
Lemma slopes_conv t u h rows : length u = n -> forall ks,
  slopes F' (tau * t) (conv u) (tau * h) rows (map conv' ks) = map conv' (slopes F t u h rows ks).
Proof.
  intros Hu. induction rows as [|[r a] rows IH]; intros ks; cbn [slopes]; [reflexivity|].
  rewrite combine_conv by exact Hu. replace (tau * t + r * (tau * h)) with (tau * (t + r * h)) by ring.
  rewrite HF by (now rewrite combine_length). rewrite <- IH, map_app. reflexivity.
Qed.
Lemma rk_conv rows b t u h : length u = n -> rk_step rows b F' (tau * t) (conv u) (tau * h) = conv (rk_step rows b F t u h).
Proof. intros Hu. unfold rk_step. pose proof (slopes_conv t u h rows Hu []) as E. cbn [map] in E. rewrite E. now apply combine_conv. Qed.
Lemma vdiff_conv a b : length a = n -> vdiff (conv a) (conv b) = conv (vdiff a b).
Proof.
  intros Ha. unfold vdiff. rewrite (conv_length n), Ha.
  symmetry. etransitivity; [exact (conv_vect n sg si Hsg c _)|]. symmetry. apply vect_ext. intros i Hi.
  rewrite !(conv_comp n sg) by exact Hi. ring.
Qed.
Lemma wrms_conv a r u v d : length u = n -> wrms (Rabs c * a) r (conv u) (conv v) (conv d) = wrms a r u v d.
Proof.
  intros Hu. unfold wrms. rewrite (conv_length n), Hu. f_equal. f_equal.
  rewrite <- (rsum_sg n sg si Hsg (fun i => (comp d i / (a + r * Rmax (Rabs (comp u i)) (Rabs (comp v i)))) ^ 2)).
  apply rsum_ext. intros i Hi. rewrite !(conv_comp n sg) by exact Hi.
  rewrite !Rabs_mult, Rmax_scale by (now apply Rabs_pos_lt).
  rewrite <- (sq_scale c (comp d (sg i))) by exact Hc. f_equal. f_equal. ring.
Qed.
Lemma point_conv t u h : length u = n -> try_point F' (tau * t) (conv u) (tau * h) = conv (try_point F t u h).
Proof. intros Hu. now apply rk_conv. Qed.
Lemma error_conv t u h : length u = n -> try_error F' o' (tau * t) (conv u) (tau * h) = try_error F o t u h.
Proof.
  intros Hu. unfold try_error. rewrite point_conv, rk_conv by exact Hu.
  rewrite vdiff_conv by (unfold try_point, rk_step; now rewrite combine_length).
  now apply wrms_conv.
Qed.
Lemma retry_conv e h : retry_size o' e (tau * h) = tau * retry_size o e h.
Proof. unfold retry_size. change (err_power o' e) with (err_power o e). cbn [o_facl o_safe opts_in set]. unfold Rdiv. ring. Qed.
Lemma next_conv m e h r : next_size o' m e (tau * h) r = tau * next_size o m e h r.
Proof.
  unfold next_size. change (step_quotient o' m e) with (step_quotient o m e). change (o_dtmax o') with (tau * o_dtmax o).
  replace (tau * h / step_quotient o m e) with (tau * (h / step_quotient o m e)) by (unfold Rdiv; ring).
  rewrite Rmin_scale by exact Htau. destruct r; [now apply Rmin_scale|reflexivity].
Qed.
Lemma tries_conv t u h k ti h1 : length u = n -> tries F o t u h k ti h1 ->
  tries F' o' (tau * t) (conv u) (tau * h) k ti (tau * h1).
Proof.
  intros Hu. induction 1 as [h H|h h1 k ti h' H E Ht IH].
  - constructor. now rewrite error_conv.
  - replace (Rleb h1 (Rabs t * / 2^52)) with (Rleb (tau * h1) (Rabs (tau * t) * / 2^52)).
    + eapply tries_reject; [rewrite error_conv by exact Hu; exact H| |exact IH].
      rewrite error_conv, retry_conv by exact Hu. now rewrite E.
    + rewrite Rabs_scale by exact Htau. rewrite Rmult_assoc. now apply Rleb_scale.
Qed.

Definition image (x : pilot) : pilot :=
  mkPilot (tau * p_t x) (conv (p_u x)) (tau * p_h x) (p_mem x) (p_accepted x) (p_rejected x) (p_code x).
Lemma near_conv x : near_end (tau * tf) (image x) = near_end tf x.
Proof. unfold near_end, image. cbn. replace (tau * p_t x + _ * (tau * p_h x)) with (tau * (p_t x + 101/100 * p_h x)) by ring. now apply Rltb_scale. Qed.
Lemma step_length x y : length (p_u x) = n -> pi_step F o tf x y -> length (p_u y) = n.
Proof. intros Hu (k & ti & h & _ & ->). cbn. unfold try_point, rk_step. now rewrite combine_length. Qed.
Lemma step_conv x y : length (p_u x) = n -> pi_step F o tf x y -> pi_step F' o' (tau * tf) (image x) (image y).
Proof.
  intros Hu (k & ti & h & Ht & E). exists k, ti, (tau * h). rewrite near_conv. split.
  - apply tries_conv in Ht; [|exact Hu]. cbn [image p_t p_u p_h].
    replace (if near_end tf x then tau * tf - tau * p_t x else tau * p_h x)
      with (tau * (if near_end tf x then tf - p_t x else p_h x)) by (destruct (near_end tf x); ring). exact Ht.
  - rewrite E. cbn -[near_end next_size try_error try_point Nat.ltb Nat.eqb Rmax]. rewrite error_conv, point_conv, next_conv by exact Hu.
    unfold image; cbn -[near_end next_size try_error try_point Nat.ltb Nat.eqb Rmax]. f_equal. ring.
Qed.
Lemma run_conv k x y : length (p_u x) = n -> pi_run F o tf k x y ->
  length (p_u y) = n /\ pi_run F' o' (tau * tf) k (image x) (image y).
Proof.
  intros Hu. induction 1 as [x|k x y z Hy IH Hcy Hz]; [split; [exact Hu|constructor]|].
  destruct (IH Hu) as (H1 & H2). split; [now apply (step_length y)|].
  eapply pi_run_S; [exact H2|exact Hcy|]. now apply step_conv.
Qed.
End DP5.

Theorem dp5_units {P P'} inf (b : builder (RA inf) P) (b' : builder (RA inf) P') sg si c tau :
  renumbers (length (b_u b)) sg si -> c <> 0 -> 0 < tau -> same_problem_in c tau sg b b' ->
  overwrites (b_dudt b) -> overwrites (b_dudt b') -> b_u b <> [] ->
  sane_opts (b_opts b) -> 0 < o_abstol (b_opts b) -> 0 <= o_reltol (b_opts b) ->
  o_safe (b_opts b) <= o_facl (b_opts b) * inf -> o_max_stiff (b_opts b) <> 0%nat ->
  0 < b_dt b -> b_t b < b_tfinal b ->
  forall fuel k s0 s s0', build (@DormandPrince5 _ _) b = Ok s0 -> build (@DormandPrince5 _ _) b' = Ok s0' ->
  reached (@DormandPrince5 _ _) None fuel k s0 s ->
  exists fuel' s', reached (@DormandPrince5 _ _) None fuel' k s0' s' /\ same_view (length (b_u b)) c tau sg s s'.
Proof.
  intros Hsg Hc Htau [Hode Hu Ht Htf Hdt Ho] Hw Hw' Hne Hso Ha Hr Hinf Hst Hd Hlt fuel k s0 s s0' Hb Hb' Hre.
  destruct (dp5_reference inf b Hso Hw Hne Ha Hr Hinf fuel k s0 s Hd Hlt Hb Hre) as (x & Hx & (S1 & S2 & S3 & S4 & S5 & S6)).
  destruct (run_conv (length (b_u b)) sg si c tau Hsg Hc Htau _ _ (b_opts b) (b_tfinal b) Hode k (pilot_start (b_t b) (b_u b) (b_dt b)) x eq_refl Hx) as (_ & Hy).
  replace (image (length (b_u b)) sg c tau (pilot_start (b_t b) (b_u b) (b_dt b)))
    with (pilot_start (b_t b') (b_u b') (b_dt b')) in Hy by (rewrite Hu, Ht, Hdt; reflexivity).
  unfold opts_in in Hy. rewrite <- Ho in Hy. rewrite <- Htf in Hy.
  assert (sane_opts (b_opts b')) as Hso'.
  { rewrite Ho. destruct Hso as [q1 q2 q3 q4 q5 q6]. constructor; cbn; try assumption. now apply Rmult_lt_0_compat. }
  destruct (dp5_reference_complete inf b' Hso' Hw') with (k := k) (s0 := s0') (x := image (length (b_u b)) sg c tau x)
    as (fuel' & s' & Hre' & (T1 & T2 & T3 & T4 & T5 & T6)); try assumption.
  - rewrite Hu. intros E. apply (f_equal (@length R)) in E. rewrite (conv_length (length (b_u b))) in E. destruct (b_u b); [now apply Hne|discriminate].
  - rewrite Ho. cbn. apply Rmult_lt_0_compat; [now apply Rabs_pos_lt|exact Ha].
  - rewrite Ho. exact Hr.
  - rewrite Ho. exact Hinf.
  - rewrite Ho. exact Hst.
  - rewrite Hdt. now apply Rmult_lt_0_compat.
  - rewrite Ht, Htf. now apply Rmult_lt_compat_l.
  - exists fuel', s'. split; [exact Hre'|]. split; [exact (eq_trans T1 (f_equal (Rmult tau) (eq_sym S1)))|].
    split; [exact (eq_trans T2 (f_equal (converted (length (b_u b)) c sg) (eq_sym S2)))|].
    split; [exact (eq_trans T3 (f_equal (Rmult tau) (eq_sym S3)))|].
    split; [exact (eq_trans T4 (eq_sym S4))|]. split; [exact (eq_trans T5 (eq_sym S5))|exact (eq_trans T6 (eq_sym S6))].
Qed.
