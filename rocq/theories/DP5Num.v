(** Numerical consequences for whole DormandPrince5 runs in exact arithmetic. *)
From Coq Require Import ZArith List Bool Lia Reals Lra.
From RecordUpdate Require Import RecordSet.
From Verif Require Import Arith Vec Core Driver VecFacts DP5 DP5Facts Spec SpecRK SpecODE RKFacts DP5Inv
  ArithR DP5R DP5RK.
Import ListNotations RecordSetNotations.
Local Open Scope R_scope.

Lemma linked_forall {X} (Q : X -> X -> Prop) (I : X -> Prop) x l :
  linked Q (x :: l) -> I x -> (forall a c, Q a c -> I a -> I c) -> Forall I (x :: l).
Proof.
  intros H Hx Hs. revert x H Hx. induction l as [|y l IH]; intros x H Hx; constructor; auto.
  apply IH.
  - intros l1 a c l2 E. apply (H (x :: l1) a c l2). now rewrite E.
  - apply (Hs x y); [|assumption]. apply (H [] x y l). reflexivity.
Qed.

Section DP5Num.
Context {P : Type} (inf : R).
Notation RI := (RA inf).
Notation state := (integ RI P (dp5_cache RI)).
Notation alg := (@DormandPrince5 RI P).

Lemma points_head (b : builder RI P) fuel k (s0 s : state) :
  build alg b = Ok s0 -> steps_n alg None fuel k s0 = Ok s ->
  exists l, points s = (b_t b, b_u b) :: l.
Proof.
  intros Hb Hs.
  destruct (dp5_recorded_wf b None fuel k s0 s no_callback_benign Hb Hs) as (_ & _ & H1 & H2 & _).
  unfold points. destruct (ts (i_sol s)) as [|t l]; [discriminate|].
  destruct (us (i_sol s)) as [|u l']; [discriminate|]. cbn in *.
  injection H1 as ->. injection H2 as ->. eauto.
Qed.

Lemma ode_comp (f : rhs RI P) p t (u : list R) i : (i < length u)%nat ->
  comp (ode f p t u) i = f (zeros (length u)) u t p i.
Proof.
  intros Hi. rewrite (comp_at inf); [|rewrite ode_length; exact Hi].
  unfold ode. apply call_rhs_at. rewrite zeros_length. exact Hi.
Qed.

(** C41 *)
Lemma dp5_linear_invariant (b : builder RI P) (w : nat -> R) fuel k (s0 s : state) :
  let n := length (b_u b) in
  overwrites (b_dudt b) ->
  (forall d u t, length d = n -> length u = n ->
     rsum n (fun i => w i * b_dudt b d u t (b_params b) i) = 0) ->
  build alg b = Ok s0 -> steps_n alg None fuel k s0 = Ok s ->
  forall u, In u (us (i_sol s)) ->
    rsum n (fun i => w i * comp u i) = rsum n (fun i => w i * comp (b_u b) i).
Proof.
  intros n Ho Hw Hb Hs. pose proof (dp5_rk inf b fuel k s0 s Ho Hb Hs) as Hi.
  destruct (points_head b fuel k s0 s Hb Hs) as (l & El).
  pose proof (rki_linked _ _ _ Hi) as Hl. rewrite El in Hl.
  assert (forall t u, length u = n -> length (ode (b_dudt b) (b_params b) t u) = n) as F1.
  { intros t u Hu. rewrite ode_length. exact Hu. }
  assert (forall t u, length u = n -> rsum n (fun i => w i * comp (ode (b_dudt b) (b_params b) t u) i) = 0) as F2.
  { intros t u Hu. rewrite <- (Hw (zeros (length u)) u t); [|rewrite zeros_length; exact Hu|exact Hu].
    apply rsum_ext. intros i Hin. rewrite ode_comp by (rewrite Hu; exact Hin). reflexivity. }
  assert (Forall (fun x : R * list R => length (snd x) = n /\
    rsum n (fun i => w i * comp (snd x) i) = rsum n (fun i => w i * comp (b_u b) i)) (points s)) as Hf.
  { rewrite El. eapply linked_forall; [exact Hl|split; reflexivity|].
    intros x y (h & _ & Ey) (Lx & Ex). rewrite Ey. split.
    - unfold rk_step. rewrite combine_stages_length. exact Lx.
    - rewrite (rk_step_invariant _ w n F1 F2) by exact Lx. exact Ex. }
  rewrite Forall_forall in Hf.
  intros u Hu.
  apply In_nth_error in Hu as (m & Hm).
  assert (exists t, In (t, u) (points s)) as (t & Ht).
  { assert (m < length (ts (i_sol s)))%nat as Hlt.
    { rewrite (rki_len _ _ _ Hi). apply nth_error_Some. congruence. }
    apply nth_error_Some in Hlt. destruct (nth_error (ts (i_sol s)) m) as [t|] eqn:Et; [|congruence].
    exists t. apply nth_error_In with (n := m). unfold points.
    clear -Hm Et. revert Hm Et. generalize (us (i_sol s)). generalize (ts (i_sol s)). revert m.
    induction m; intros [|x l] [|y l']; cbn; intros; try discriminate; [congruence|auto]. }
  apply (Hf (t, u)). exact Ht.
Qed.

(** C42 *)
Lemma dp5_quadrature (b : builder RI P) (a : nat -> nat -> R) fuel k (s0 s : state) :
  (forall d u t i, b_dudt b d u t (b_params b) i = poly4 (a i) t) ->
  overwrites (b_dudt b) ->
  build alg b = Ok s0 -> steps_n alg None fuel k s0 = Ok s ->
  forall t u, In (t, u) (points s) -> forall i, (i < length (b_u b))%nat ->
    comp u i = comp (b_u b) i + (poly4_int (a i) t - poly4_int (a i) (b_t b)).
Proof.
  intros Hp Ho Hb Hs. pose proof (dp5_rk inf b fuel k s0 s Ho Hb Hs) as Hi.
  destruct (points_head b fuel k s0 s Hb Hs) as (l & El).
  pose proof (rki_linked _ _ _ Hi) as Hl. rewrite El in Hl.
  assert (forall t u, ode (b_dudt b) (b_params b) t u = map (fun i => poly4 (a i) t) (seq 0 (length u))) as F1.
  { intros t u. unfold ode, call_rhs. rewrite zeros_length. apply tab_ext. intros i _. apply Hp. }
  assert (Forall (fun x : R * list R => length (snd x) = length (b_u b) /\
    forall i, (i < length (b_u b))%nat ->
      comp (snd x) i = comp (b_u b) i + (poly4_int (a i) (fst x) - poly4_int (a i) (b_t b))) (points s)) as Hf.
  { rewrite El. eapply linked_forall; [exact Hl| |].
    - split; [reflexivity|]. intros. cbn [fst snd]. rnorm. lra.
    - intros x y (h & Et & Ey) (Lx & Ex). rewrite Ey, Et. split.
      + unfold rk_step. rewrite combine_stages_length. exact Lx.
      + intros i Hlt. specialize (Ex i Hlt).
        assert (i < length (snd x))%nat as Hlx by (rewrite Lx; exact Hlt).
        pose proof (dopri_quadrature (ode (b_dudt b) (b_params b)) a (fst x) (snd x) h i
          ltac:(intros t' u' Hu'; rewrite F1, Hu'; reflexivity) Hlx) as Q.
        cbn [fst snd] in *. rlra. }
  rewrite Forall_forall in Hf. intros t u Hin. apply (Hf (t, u)). exact Hin.
Qed.

(** Linear systems. *)
Lemma dp5_linear_system (b : builder RI P) (M : nat -> nat -> R) fuel k (s0 s : state) :
  let n := length (b_u b) in
  (forall d u t i, (i < n)%nat -> length u = n -> b_dudt b d u t (b_params b) i = rsum n (fun j => M i j * comp u j)) ->
  overwrites (b_dudt b) ->
  build alg b = Ok s0 -> steps_n alg None fuel k s0 = Ok s ->
  linked (fun x y => exists h, fst y = fst x + h /\ forall i, (i < n)%nat ->
     comp (snd y) i = krylov n M [1; h; h^2/2; h^3/6; h^4/24; h^5/120; h^6/600] 0 (snd x) i) (points s).
Proof.
  intros n Hf Ho Hb Hs. pose proof (dp5_rk inf b fuel k s0 s Ho Hb Hs) as Hi.
  destruct (points_head b fuel k s0 s Hb Hs) as (l & El).
  pose proof (rki_linked _ _ _ Hi) as Hl.
  assert (Forall (fun x : R * list R => length (snd x) = n) (points s)) as Hlen'.
  { rewrite El in *. eapply linked_forall; [exact Hl|reflexivity|].
    intros x y (h & _ & E) Lx. rewrite E. unfold rk_step. rewrite combine_stages_length. exact Lx. }
  intros l1 x y l2 E. destruct (Hl l1 x y l2 E) as (h & Et & Ey). exists h. split; [exact Et|].
  intros i Hlt. rewrite Ey.
  assert (length (snd x) = n) as Lx.
  { rewrite Forall_forall in Hlen'. apply Hlen'. rewrite E. apply in_or_app. right. left. reflexivity. }
  rewrite <- (dopri_linear n M (fun _ u => mv n M u) (fst x) (snd x) h i (fun _ _ => eq_refl) Lx Hlt).
  f_equal. unfold rk_step.
  assert (forall rows ks, slopes (ode (b_dudt b) (b_params b)) (fst x) (snd x) h rows ks =
            slopes (fun _ u => mv n M u) (fst x) (snd x) h rows ks) as Es.
  { induction rows as [|(c,a0) rows IH]; intros ks; cbn [slopes]; [reflexivity|].
    rewrite <- IH. do 3 f_equal.
    set (v := combine_stages _ _ _ _). assert (length v = n) as Lv by (unfold v; rewrite combine_stages_length; exact Lx).
    unfold ode, call_rhs. rewrite zeros_length. change (num RI) with R in *. rewrite Lv.
    unfold mv. apply tab_ext. intros j Hj. apply Hf; assumption. }
  now rewrite Es.
Qed.

(** ** Dense output *)
Lemma vadd_len n (a c : vec RI) : length a = n -> length c = n -> length (vadd a c) = n.
Proof. intros. rewrite vadd_length. lia. Qed.
Lemma vsub_len n (a c : vec RI) : length a = n -> length c = n -> length (vsub a c) = n.
Proof. intros. rewrite vsub_length. lia. Qed.
Lemma vscale_len n x (a : vec RI) : length a = n -> length (vscale x a) = n.
Proof. intros. now rewrite vscale_length. Qed.
Lemma vadd_comp n (a c : vec RI) i : length a = n -> length c = n -> (i < n)%nat ->
  comp (vadd a c) i = comp a i + comp c i.
Proof.
  intros. rewrite !(comp_at inf) by (rewrite ?vadd_length; lia). apply vadd_at; lia.
Qed.
Lemma vsub_comp n (a c : vec RI) i : length a = n -> length c = n -> (i < n)%nat ->
  comp (vsub a c) i = comp a i - comp c i.
Proof.
  intros. rewrite !(comp_at inf) by (rewrite ?vsub_length; lia). apply vsub_at; lia.
Qed.
Lemma vscale_comp n (x : R) (a : vec RI) i : length a = n -> (i < n)%nat ->
  comp (vscale x a) i = x * comp a i.
Proof.
  intros. rewrite !(comp_at inf) by (rewrite ?vscale_length; lia). apply vscale_at; lia.
Qed.
Ltac vlen := repeat first [assumption | reflexivity | apply vadd_len | apply vsub_len | apply vscale_len].

Lemma dense_eq (u k1 K2 K3 K4 K5 K6 K7 : list R) (h t tp : R) :
  h <> 0 -> length k1 = length u -> length K3 = length u -> length K4 = length u ->
  length K5 = length u -> length K6 = length u -> length K7 = length u ->
  let th := @div RI (@sub RI t tp) h in
  let ub : vec RI := combine_stages u h dopri_b [k1; K2; K3; K4; K5; K6; K7] in
  let d := @vsub RI ub u in
  let bs := @vsub RI (@vscale RI h k1) d in
  @vadd RI u (@vscale RI th (@vadd RI d (@vscale RI (@sub RI n1 th)
    (@vadd RI bs (@vscale RI th (@vadd RI (@vsub RI (@vsub RI d (@vscale RI h K7)) bs)
      (@vscale RI (@sub RI n1 th) (@vscale RI h (@vadd RI (@vadd RI (@vadd RI (@vadd RI (@vadd RI
         (@vscale RI D1 k1) (@vscale RI D3 K3)) (@vscale RI D4 K4)) (@vscale RI D5 K5))
         (@vscale RI D6 K6)) (@vscale RI D7 K7))))))))))
  = combine_stages u h (dopri_dense ((t - tp) / h)) [k1; K2; K3; K4; K5; K6; K7].
Proof.
  intros Hnz L1 L3 L4 L5 L6 L7 th ub d bs.
  assert (th = (t - tp) / h) as Eth by (unfold th; rnorm; apply rdiv_ok; assumption).
  rewrite <- Eth. clearbody th. clear Eth.
  assert (length ub = length u) as Lub by (unfold ub; now rewrite combine_stages_length).
  assert (length d = length u) as Ld by (apply vsub_len; auto).
  assert (length bs = length u) as Lbs by (apply vsub_len; auto; apply vscale_len; auto).
  apply (nth_ext _ _ 0 0); [rewrite combine_stages_length; vlen|].
  intros i Hi.
  assert (i < length u)%nat as Hu by (eapply Nat.lt_le_trans; [exact Hi|apply Nat.eq_le_incl; vlen]). clear Hi.
  match goal with |- nth i ?x 0 = nth i ?y 0 => change (comp x i = comp y i) end.
  rewrite combine_stages_comp by exact Hu. unfold dopri_dense. cbn [map seq wsum Nat.eqb].
  repeat first [rewrite (vadd_comp (length u)) by vlen | rewrite (vscale_comp (length u)) by vlen
    | unfold bs, d; rewrite (vsub_comp (length u)) by vlen].
  unfold ub. rewrite combine_stages_comp by exact Hu.
  unfold dopri_b, dopri_d. cbn [map wsum].
  generalize (comp u i) (comp k1 i) (comp K2 i) (comp K3 i) (comp K4 i) (comp K5 i) (comp K6 i) (comp K7 i).
  intros. unfold dense_weight, comp. cbn [nth]. unfold D1, D3, D4, D5, D6, D7. rnorm. field.
Qed.

Lemma dp5_step_dense fuel (s s' : state) :
  overwrites (i_dudt s) -> fsal inf s -> dp5_step fuel s = Ok s' -> o_dense (i_opts s) = true ->
  forall t, i_dtprev s' <> 0 ->
  dense_output s' t (i_dtprev s') =
    combine_stages (i_u s) (i_dtprev s') (dopri_dense ((t - i_t s) / i_dtprev s'))
      (slopes (ode (i_dudt s) (i_params s)) (i_t s) (i_u s) (i_dtprev s') dopri_rows []).
Proof.
  intros Ho Hfs H Hden t Hnz. unfold fsal in *.
  pose proof (dp5_step_effect_of _ _ _ H) as Ef. open_effect Ef.
  clear se_problem0 se_ts0 se_us0 se_uprev0 se_steps0 se_accepts0 se_others0 se_work0 se_rc0 se_reject0 se_max_stiff0.
  apply dp5_step_inv in H as (k & sk & sa & Hk & Hrs & Ha & E).
  destruct (dp5_clip_frame s) as (Cp & Cpt & _ & _ & _ & _ & (cl & Cc)).
  apply rejections_many in Hrs.
  pose proof (rm_problem _ _ _ Hrs) as Rp. pose proof (rm_point _ _ _ Hrs) as Rpt.
  pose proof (rm_du _ _ _ Hrs) as Rdu. rewrite Cc in Rdu. cbn in Rdu. clear Hrs.
  apply dp5_attempt_inv in Ha as (s1 & Hs & [(_ & Herr & Hacc)|(D & _)]); [|discriminate].
  pose proof (compute_stages_inv _ _ Hs) as (Ssh&Sp&Spt&Sdt&_&_&_&_&_&_&_&_&_&_&Sdu).
  rewrite compute_stages_eq, Ssh in Hs. injection Hs as Hs.
  assert (i_u sk = i_u s) as Eu by (destruct Rpt as (->&_); apply Cpt).
  assert (i_t sk = i_t s) as Et by (destruct Rpt as (_&->&_); apply Cpt).
  assert (i_dudt sk = i_dudt s) as Ed by (destruct Rp as (->&_); apply Cp).
  assert (i_params sk = i_params s) as Ep by (destruct Rp as (_&_&_&->&_); apply Cp).
  assert (i_opts sk = i_opts s) as Eo by (destruct Rp as (_&_&_&_&_&_&->); apply Cp).
  assert (i_opts s1 = i_opts s) as Eo1 by (destruct Sp as (_&_&_&_&_&_&->); assumption).
  assert (i_u s1 = i_u s) as Eu1 by (destruct Spt as (->&_); assumption).
  apply dp5_shapes_spec in Ssh.
  repeat match goal with H : Forall _ (_ :: _) |- _ => inversion_clear H end.
  pose proof (stages_rk inf (i_dudt s) (i_params s) (i_u s) (i_t s) (i_dt sk)
    (k2 (i_cache sk)) (k3 (i_cache sk)) (k4 (i_cache sk)) (k5 (i_cache sk)) (k6 (i_cache sk))
    (dunew (i_cache sk)) Ho) as Hst.
  rewrite Eu in *. specialize (Hst ltac:(assumption) ltac:(assumption) ltac:(assumption)
    ltac:(assumption) ltac:(assumption) ltac:(assumption)).
  cbv zeta in Hst. rewrite <- Hfs, <- Rdu in Hst.
  set (v := stage_vecs _ _ _ _ _ _ _ _ _ _ _ _) in Hst.
  assert (stage_vecs_of sk = v) as Ev by (unfold stage_vecs_of, v; rewrite Ed, Ep, Eu, Et; reflexivity).
  rewrite Ev in Hs.
  assert (unew (i_cache s1) = sd_unew v) as U1 by (rewrite <- Hs; reflexivity).
  assert (dunew (i_cache s1) = sd_dunew v) as U2 by (rewrite <- Hs; reflexivity).
  assert (k3 (i_cache s1) = sd_k3 v) as U3 by (rewrite <- Hs; reflexivity).
  assert (k4 (i_cache s1) = sd_k4 v) as U4 by (rewrite <- Hs; reflexivity).
  assert (k5 (i_cache s1) = sd_k5 v) as U5 by (rewrite <- Hs; reflexivity).
  assert (k6 (i_cache s1) = sd_k6 v) as U6 by (rewrite <- Hs; reflexivity).
  clear Hs. destruct Hst as (V1 & V2 & _ & V4).
  assert (length (sd_k3 v) = length (i_u s)) as L3
    by (unfold v, stage_vecs; cbn [sd_k3]; rewrite call_rhs_length; assumption).
  assert (length (sd_k4 v) = length (i_u s)) as L4
    by (unfold v, stage_vecs; cbn [sd_k4]; rewrite call_rhs_length; assumption).
  assert (length (sd_k5 v) = length (i_u s)) as L5
    by (unfold v, stage_vecs; cbn [sd_k5]; rewrite call_rhs_length; assumption).
  assert (length (sd_k6 v) = length (i_u s)) as L6
    by (unfold v, stage_vecs; cbn [sd_k6]; rewrite call_rhs_length; assumption).
  assert (length (sd_dunew v) = length (i_u s)) as L7
    by (unfold v, stage_vecs; cbn [sd_dunew]; rewrite call_rhs_length; assumption).
  assert (length (du (i_cache sk)) = length (i_u s)) as L1 by assumption.
  pose proof (dp5_finish_frame sa) as (Fp&Fu&Ft&_&_&Ftp&Fdtp&Fc&_).
  destruct Hacc as [Ap Au _ At Atp _ Adtp _ _ _ _ _ _ _ Adu _ _ _ _ _ _ _ _ _ Arc].
  rewrite Eo1, Hden in Arc. cbv zeta in Arc. destruct Arc as (Q1&Q2&Q3&Q4&Q5).
  destruct Spt as (_&Et1&_). rewrite Et in Et1.
  unfold dense_output. subst s'. rewrite Ftp, Atp, Fdtp, Adtp, Fc, Et1, Q1, Q2, Q3, Q4, Q5 in *.
  unfold prepare_dense. cbn [i_cache set rcont1 rcont2 rcont3 rcont4 rcont5].
  rewrite U1, U2, U3, U4, U5, U6, Eu1, Sdu.
  rewrite Sdt in *. rewrite V1.
  unfold rk_step. rewrite V4 in *. rewrite Hfs in Rdu. rewrite <- Rdu in *.
  set (h := i_dt sk) in *. set (k1 := du (i_cache sk)) in *.
  set (K2 := sd_k2 v) in *. set (K3 := sd_k3 v) in *. set (K4 := sd_k4 v) in *.
  set (K5 := sd_k5 v) in *. set (K6 := sd_k6 v) in *. set (K7 := sd_dunew v) in *.
  set (u := i_u s) in *.
  apply dense_eq; assumption.
Qed.
End DP5Num.
