(** Radau5 with a callback that replaces [u] after every call: the step is taken
    from the replaced point, its error is tested against the recorded one. *)
From Coq Require Import ZArith List Bool Lia Reals Lra.
From RecordUpdate Require Import RecordSet.
From Verif Require Import Arith Vec Core Spec Jacobian Linalg Driver VecFacts DP5Facts DP5Inv DP5Det LinFacts LinFactsC
  Radau RadauFacts RadauStep RadauSafe RadauInv RadauHist RadauKeep RadauJac ArithR SpecRK RKFacts DP5RK SpecLin LinSpec LinThm
  SpecRadau RadauR RadauDense RadauSim SpecStage StageConst RadauTail RadauSolve RadauStage RadauErr.
Import ListNotations RecordSetNotations.

Section Jump.
Context {P : Type} (inf : R).
Notation RI := (RA inf).
Notation state := (integ RI P (radau_cache RI)).
Notation alg := (@Radau5 RI P).
Local Open Scope R_scope.

Lemma last_opt_app {X} (l : list X) x : last_opt (l ++ [x]) = Some x.
Proof. unfold last_opt. rewrite app_length. cbn. rewrite Nat.add_sub. now rewrite nth_error_app2, Nat.sub_diag by lia. Qed.

(** [u0] and [scal] belong to the recorded point [ur]. *)
Definition judged (s : state) (ur : vec RI) : Prop :=
  (exists d, length d = length ur /\ u0 (i_cache s) = call_rhs (i_dudt s) d ur (i_t s) (i_params s)) /\
  scal (i_cache s) = radau_scal (i_opts s) ur.

Record jumped (b : builder RI P) (s : state) : Prop := mkJumped {
  ju_safe : ssafe (length (b_u b)) s;
  ju_reject : reject (i_cache s) = false;
  ju_f : i_dudt s = b_dudt b;
  ju_p : i_params s = b_params b;
  ju_o : i_opts s = radau_opts (b_opts b);
  ju_rec : exists ur, last_opt (us (i_sol s)) = Some ur /\ length ur = length (b_u b) /\ judged s ur;
  ju_fac : exists h J, decompose (i_cache s) = true \/ factors (length (b_u b)) h J (i_cache s) /\ not_tiny (A:=RI) h }.

Lemma jumped_build (b : builder RI P) (s0 : state) : build alg b = Ok s0 -> jumped b s0.
Proof.
  intros Hb. pose proof (radau_build_inv _ _ Hb) as B. pose proof (rb_flags _ _ B) as Fl.
  pose proof (rb_sol _ _ B) as E5. pose proof (rb_t _ _ B) as E6. pose proof (rb_u _ _ B) as E7.
  destruct (rb_prob _ _ B) as (P1 & P1' & P1'' & P2 & P3 & P4 & P5). pose proof (rb_u0 _ _ B) as U. pose proof (rb_scal _ _ B) as Sc.
  cbn [Cache Radau5] in *.
  destruct (radau_continues_ready b None 0 0 s0 s0 no_callback_benign Hb ltac:(constructor)) as (_ & R2 & _).
  constructor; try assumption.
  - apply (rb_safe _ _ B).
  - exists (b_u b). split; [rewrite E5; reflexivity|]. split; [reflexivity|]. split.
    + exists (zeros (length (b_u b))). split; [apply zeros_length|]. rewrite U, P1, P2, E6. reflexivity.
    + rewrite Sc, P5. reflexivity.
  - destruct Fl as (_ & _ & _ & _ & D & _). exists 0, []. now left.
Qed.

(** The attempt behind a recorded point. *)
Lemma jumped_took (b : builder RI P) fuel (s s' : state) : b_u b <> [] -> jumped b s -> radau_step fuel s = Ok s' ->
  quiet s s' /\ rc (i_sol s') <> RContinue \/
  radau_step_effect s s' /\ exists h J sm s3 s4, final_attempt (length (b_u b)) fuel s s' h J sm s3 s4 /\ not_tiny (A:=RI) h /\
    factors (length (b_u b)) h J (i_cache s').
Proof.
  intros Hu [Hs Hr _ _ _ _ (h0 & J0 & Hd)] H.
  assert (0 < length (b_u b))%nat as Hn by (destruct (b_u b); [congruence|cbn; lia]).
  assert (armed (length (b_u b)) h0 J0 s) as Ha by (split; [exact Hs|]; destruct Hd as [Hd|(Hd & _)]; auto).
  pose proof (step_final _ h0 J0 fuel s s' Hn Ha Hr H) as Hf.
  apply radau_step_cases in H as [Ee|Ff]; [right|left; split; [exact (rsf_quiet _ _ Ff)|exact (rsf_rc _ _ Ff)]|exact Hr].
  split; [exact Ee|]. destruct Hf as [Hq|(h & J & sm & s3 & s4 & F & HF)].
  { exfalso. destruct (q_point _ _ Hq) as (_ & _ & _ & _ & E & _).
    pose proof (rse_ts _ _ Ee) as E2. rewrite E in E2. symmetry in E2. apply (f_equal (@length _)) in E2. rewrite app_length in E2. cbn in E2. lia. }
  exists h, J, sm, s3, s4. split; [exact F|].
  destruct F as [Fq Fu Fs Fj _ Fsf Ff Fd Fn Fe Fr Fa].
  pose proof Fn as Fn'. apply newton_inv in Fn' as (_ & _ & N & _). specialize (N eq_refl).
  pose proof (radau_accept_inv _ _ Fa) as Ac. split.
  - destruct HF as [(D & -> & ->)|(Ed & D & -> & ->)]; [exists (i_t sm); exact Fd|].
    destruct Hd as [Hd|(_ & Hd)]; [congruence|exact Hd].
  - eapply accepted_factors; [exact Ac|].
    assert (factors (length (b_u b)) h J (i_cache s4)) as G.
    { eapply est_factors; [exact Fe|]. eapply nf_factors; [apply N|exact Ff]. }
    revert G. apply factors_same; reflexivity.
Qed.

Lemma jumped_step (b : builder RI P) fuel (s s1 : state) u' : b_u b <> [] -> jumped b s ->
  radau_step fuel s = Ok s1 -> rc (i_sol s1) = RContinue -> length u' = length (i_u s1) ->
  jumped b (s1 <| i_u := u' |>).
Proof.
  intros Hu Hj H Hrc Lu. destruct (jumped_took b fuel s s1 Hu Hj H) as [(_ & Hx)|(Ee & h & J & sm & s3 & s4 & F & Nt & Fac)]; [contradiction|].
  assert (0 < length (b_u b))%nat as Hn by (destruct (b_u b); [congruence|cbn; lia]).
  destruct Hj as [Hs Hr Pf Pp Po _ _].
  pose proof (radau_step_ok (length (b_u b)) fuel s Hn Hs) as Ok1. rewrite H in Ok1. cbn in Ok1.
  destruct (rse_problem _ _ Ee) as (Q1 & Q1' & Q1'' & Q2 & Q3 & Q4 & Q5).
  constructor.
  - split; [change (length u' = length (b_u b)); rewrite Lu; apply Ok1|exact (proj2 Ok1)].
  - exact (rse_reject _ _ Ee).
  - etransitivity; [exact Q1|exact Pf].
  - etransitivity; [exact Q2|exact Pp].
  - etransitivity; [exact Q5|exact Po].
  - exists (i_u s1). split; [change (last_opt (us (i_sol s1)) = Some (i_u s1)); rewrite (rse_us _ _ Ee); apply last_opt_app|].
    split; [apply Ok1|]. change (judged s1 (i_u s1)).
    destruct F as [Fq FIU Fs Fj F5 Fsf Ff Fd fi_newton fi_est Fr fi_acc]. pose proof (radau_accept_inv _ _ fi_acc) as Ac.
    destruct (ac_prob _ _ Ac) as (P1 & _ & _ & P2 & _ & _ & P3).
    split; [|rewrite (ac_scal _ _ Ac), P3; reflexivity].
    destruct (last (i_cache (force_decompose s4))) eqn:El.
    { exfalso. pose proof (ac_rc _ _ Ac) as E. rewrite El in E. cbn [Cache Radau5] in *. congruence. }
    destruct (ac_next _ _ Ac El) as (_ & _ & U & _). exists (u0 (i_cache (force_decompose s4))).
    split; [|cbn [Cache Radau5] in *; rewrite U, P1, P2; reflexivity].
    change (u0 (i_cache (force_decompose s4))) with (u0 (i_cache s4)).
    destruct (estimate_kp _ _ fi_est) as (K1 & _). destruct (newton_kp _ _ _ _ fi_newton) as (K2 & _).
    rewrite K1, K2, FIU. destruct Hs as (_ & Cs). rewrite (cs_u0 _ _ Cs). symmetry. apply Ok1.
  - exists h, J. right. split; [exact Fac|exact Nt].
Qed.

(** A callback that replaces [u] by [g] of the integrator. *)
Definition jump (g : state -> list R) : callback RI P (radau_cache RI) := Some (fun s => s <| i_u := g s |>).

Lemma jumped_run (b : builder RI P) g fuel (Hg : forall s, length (g s) = length (i_u s)) : b_u b <> [] ->
  forall k (s s' : state), continues alg (jump g) fuel k s s' -> jumped b s -> jumped b s'.
Proof.
  intros Hu k s s' H. induction H as [s|k s s1 n s2 Hs Hc IH]; intros Hj; [exact Hj|]. apply IH.
  pose proof (step_some_rc _ _ _ _ _ _ Hs) as Hrc.
  apply step_radau_inv in Hs as (x & Hx & ->). cbn [run_callback jump] in *.
  eapply jumped_step; [exact Hu|exact Hj|exact Hx|exact Hrc|apply Hg].
Qed.

Lemma final_stages_at (b : builder RI P) fuel (s s' : state) h J (sm s3 s4 : state) :
  overwrites (b_dudt b) -> (0 < length (b_u b))%nat -> i_dudt s = b_dudt b -> i_params s = b_params b ->
  let n := length (b_u b) in
  final_attempt n fuel s s' h J sm s3 s4 -> h <> 0 -> ssafe n s ->
  let z := zz (i_cache s3) in
  exists (tau : nat -> R) (y : nat -> list R),
    let F := fun k i => b_dudt b (zeros n) (y k) (tau k) (b_params b) i in
    (forall k, (k < 3)%nat -> Rabs (tau k - (i_t s + radau_c k * (i_t s' - i_t s))) <= 1 / 10^15 * Rabs (i_t s' - i_t s)) /\
    (exists late early,
       i_trace s' = late ++ EvF (A:=RI) (tau 2%nat) (y 2%nat) :: EvF (A:=RI) (tau 1%nat) (y 1%nat) :: EvF (A:=RI) (tau 0%nat) (y 0%nat) :: early /\
       Forall (fun e => ev_time e = i_t s \/ ev_time e = i_t s') late) /\
    (forall k, (k < 3)%nat -> length (y k) = n) /\
    (forall i, (i < n)%nat -> comp (i_u s') i = comp (i_u s) i + comp (z 2%nat) i) /\
    (blind n h J \/ forall i k, (i < n)%nat -> (k < 3)%nat ->
       Rabs (stage_defect n J h (i_u s) y z F i k) <= table_error n J h (i_u s) y z F i) /\
    i_t s' - i_t s = i_dt s3 /\ ssafe n s3 /\ factors n h J (i_cache s3).
Proof.
  intros How Hn Pf Pp n Hf Hnt Hss z.
  destruct Hf as [Fq _ _ _ _ Fsf Ff _ Fn Fe _ Fa].
  pose proof (q_point _ _ Fq) as (Eu & Et & _). pose proof (q_prob _ _ Fq) as (Ed & _ & _ & Ep & _).
  destruct (newton_stages inf n fuel h J sm s3 Hn Hnt Fsf Ff) as (y & (early & Htr) & Ly & Hst3); [|exact Fn|].
  { rewrite Ed, Pf. exact How. }
  pose proof Fn as Fn'. apply newton_inv in Fn' as (_ & _ & N & _). specialize (N eq_refl).
  pose proof (error_estimate_inv _ _ Fe) as E. pose proof (radau_accept_inv _ _ Fa) as Ac.
  pose proof (q_point _ _ (nf_quiet _ _ (ns_frame _ _ N))) as (Eu3 & Et3 & _).
  pose proof (q_point _ _ (ef_quiet _ _ E)) as (Eu4 & Et4 & _).
  assert (i_t s' - i_t s = i_dt sm) as Edt.
  { rewrite (ac_t _ _ Ac). cbn [add RA]. change (i_t (force_decompose s4)) with (i_t s4).
    change (i_dt (force_decompose s4)) with (i_dt s4). rewrite (ef_dt _ _ E), (ns_dt _ _ N), Et4, Et3, Et. lra. }
  assert (ssafe n s3) as S3.
  { destruct (newton_last n fuel sm s3 Hn Fsf Fn) as (x & yy & zz0 & [_ _ _ _ _ Hz L6 _]).
    rewrite L6. apply newton_update_safe. rewrite <- (proj1 Fsf). exact Hz. }
  exists (stage_time sm), y. cbv zeta.
  split; [|split; [|split; [intros; apply Ly|split; [|split; [|split; [|split; [exact S3|]]]]]]].
  - intros l Hl. rewrite Edt. unfold stage_time. rewrite Et. cbn [add mul RA].
    assert (Rabs (@rC1 RI - node1) <= 1 / 10^15 /\ Rabs (@rC2 RI - node2) <= 1 / 10^15) as (B1 & B2).
    { pose proof sqrt6_lo. pose proof sqrt6_hi. unfold rC1, rC2, node1, node2. cbn [lit RA]. unfold rlit.
      set (q := sqrt 6) in *. split; apply Rabs_le; split; lra. }
    pose proof (Rabs_pos (i_dt sm)).
    destruct l as [|[|[|l]]]; try lia; unfold radau_c.
    + replace (i_t s + @rC1 RI * i_dt sm - (i_t s + node1 * i_dt sm)) with ((@rC1 RI - node1) * i_dt sm) by ring.
      rewrite Rabs_mult. apply Rmult_le_compat_r; assumption.
    + replace (i_t s + @rC2 RI * i_dt sm - (i_t s + node2 * i_dt sm)) with ((@rC2 RI - node2) * i_dt sm) by ring.
      rewrite Rabs_mult. apply Rmult_le_compat_r; assumption.
    + replace (i_t s + i_dt sm - (i_t s + 1 * i_dt sm)) with 0 by ring. rewrite Rabs_R0. lra.
  - destruct (ef_trace _ _ E) as (l1 & T1 & F1). destruct (accepted_trace inf _ _ Ac) as (l2 & T2 & F2).
    exists (l2 ++ l1), early. split.
    + etransitivity; [exact T2|]. change (i_trace (force_decompose s4)) with (i_trace s4). rewrite T1, Htr, <- app_assoc.
      reflexivity.
    + apply Forall_app. split.
      * eapply Forall_impl; [|exact F2]. intros e He. now right.
      * eapply Forall_impl; [|exact F1]. intros e He. left. rewrite He, Et3. exact Et.
  - intros i Hi. rewrite (ac_u _ _ Ac). change (i_u (force_decompose s4)) with (i_u s4).
    change (i_cache (force_decompose s4)) with (i_cache s4 <| decompose := true |>).
    assert (length (i_u s4) = n) as L4 by (rewrite Eu4, Eu3, Eu; apply Hss).
    rewrite L4, comp_tab by exact Hi. cbn [add RA].
    assert (z3 (i_cache s4) = zz (i_cache s3) 2) as Ez by (rewrite (ef_cache _ _ E); reflexivity).
    change (z3 (i_cache s4 <| decompose := true |>)) with (z3 (i_cache s4)). rewrite Ez, Eu4, Eu3, Eu.
    rewrite !(at_comp inf); [reflexivity| |].
    + pose proof (ssafe_zz inf n s3 2 S3). cbn in *. lia.
    + destruct Hss as (Lu & _). cbn in *. lia.
  - rewrite Ed, Ep, Pf, Pp, Eu in Hst3. exact Hst3.
  - rewrite Edt. symmetry. apply (ns_dt _ _ N).
  - eapply nf_factors; [apply N|exact Ff].
Qed.

Lemma jump_error_test0 (b : builder RI P) fuel (s s' : state) ur h J (sm s3 s4 : state) :
  overwrites (b_dudt b) -> 0 < o_reltol (b_opts b) -> 0 < o_abstol (b_opts b) ->
  i_dudt s = b_dudt b -> i_params s = b_params b -> i_opts s = radau_opts (b_opts b) ->
  let n := length (b_u b) in (0 < n)%nat -> length ur = n -> judged s ur -> ssafe n s ->
  final_attempt n fuel s s' h J sm s3 s4 -> h <> 0 ->
  let dt := i_t s' - i_t s in
  let rms := tol_rms n (radau_atol (o_abstol (b_opts b)) (o_reltol (b_opts b))) (radau_rtol (o_reltol (b_opts b))) ur in
  let f := fun y => b_dudt b (zeros n) y (i_t s) (b_params b) in
  exists h J (tau : nat -> R) (y z : nat -> list R),
    let F := fun k i => b_dudt b (zeros n) (y k) (tau k) (b_params b) i in
    h <> 0 /\ square n J /\
    (forall k, (k < 3)%nat -> Rabs (tau k - (i_t s + radau_c k * dt)) <= 1 / 10^15 * Rabs dt) /\
    (forall i, (i < n)%nat -> comp (i_u s') i = comp (i_u s) i + comp (z 2%nat) i) /\
    (blind n h J \/
      (forall i k, (i < n)%nat -> (k < 3)%nat ->
        Rabs (stage_defect n J h (i_u s) y z F i k) <= table_error n J h (i_u s) y z F i) /\
      exists v, rms v < 1 /\
       (filtered_estimate n J h dt z (f ur) v \/
        exists v1 w, filtered_estimate n J h dt z (f ur) v1 /\ 1 <= rms v1 /\
          length w = n /\ (forall i, (i < n)%nat -> comp w i = comp (i_u s) i + comp v1 i) /\
          In (EvF (A:=RI) (i_t s) w) (i_trace s') /\
          filtered_estimate n J h dt z (f w) v)).
Proof.
  intros How Hr Ha Pf Pp Po n Hn Lur ((d & Ld & Hd) & Hsc) Hss Hf Hnt dt rms f.
  pose proof (final_stages_at b fuel s s' h J sm s3 s4 How Hn Pf Pp Hf Hnt Hss) as (tau & y & H1 & H2 & H3 & H4 & H5 & Hdt & S3 & F3).
  fold n in H3, H4, H5, S3, F3. fold dt in H1, Hdt.
  pose proof (shaped_square inf _ _ (fa_shape _ _ _ _ (fi_fac _ _ _ _ _ _ _ _ _ Hf))) as Hsq.
  destruct Hf as [Fq Fu0 Fsc Fjk _ Fsf Ff Ftd Fn Fe Fer Fa].
  pose proof Fn as Fn'. apply newton_inv in Fn' as (_ & _ & N & _). specialize (N eq_refl).
  pose proof (q_point _ _ Fq) as (Eu & Et & _). pose proof (q_prob _ _ Fq) as (Ed & _ & _ & Ep & _).
  pose proof (q_point _ _ (nf_quiet _ _ (ns_frame _ _ N))) as (Eu3 & Et3 & _).
  pose proof (q_prob _ _ (nf_quiet _ _ (ns_frame _ _ N))) as (Ed3 & _ & _ & Ep3 & _).
  pose proof (nf_u0 _ _ (ns_frame _ _ N)) as Eu0. pose proof (nf_scal _ _ (ns_frame _ _ N)) as Esc.
  destruct (tols_R inf (b_opts b) Hr Ha) as (T1 & T2 & T3 & T4).
  pose proof (proj1 Hss) as Lu.
  assert (forall i, (i < n)%nat -> comp (scal (i_cache s3)) i
     = radau_atol (o_abstol (b_opts b)) (o_reltol (b_opts b)) + radau_rtol (o_reltol (b_opts b)) * Rabs (comp ur i)) as Hscal.
  { intros i Hi. rewrite Esc, Fsc, Hsc, (scal_R inf) by (cbn in *; lia). rewrite Po, T1, T2. reflexivity. }
  assert (forall i, (i < n)%nat -> comp (u0 (i_cache s3)) i = f ur i) as Hu0.
  { intros i Hi. rewrite Eu0, Fu0, Hd. unfold call_rhs. rewrite comp_tab by (cbn in *; lia). rewrite Pf, Pp. unfold f.
    apply How; [unfold zeros; rewrite repeat_length|]; cbn in *; lia. }
  assert (i_dt s3 <> 0) as Hdt0.
  { rewrite (ns_dt _ _ N). apply (not_tiny_R inf). exists (i_t sm). exact Ftd. }
  destruct (estimate_R inf n h J s3 s4) as [Hbl|(v & Hv & Hest)]; auto.
  { rewrite Ed3, Ed, Pf. exact How. }
  { intros i Hi. rewrite Hscal by exact Hi. pose proof (Rabs_pos (comp ur i)).
    assert (0 <= radau_rtol (o_reltol (b_opts b)) * Rabs (comp ur i)) by (apply Rmult_le_pos; lra). lra. }
  { exists h, J, tau, y, (zz (i_cache s3)). cbv zeta in *. auto 10. }
  exists h, J, tau, y, (zz (i_cache s3)). cbv zeta in *. 
  split; [exact Hnt|]. split; [exact Hsq|]. split; [exact H1|]. split; [exact H4|].
  destruct H5 as [Hbl|H5]; [left; exact Hbl|right]. split; [exact H5|].
  assert (forall w, sqrt (rsum n (fun i => (comp w i / comp (scal (i_cache s3)) i) ^ 2) / INR n) = rms w) as Hrms.
  { intros w. unfold rms, tol_rms. do 2 f_equal. apply rsum_ext. intros i Hi. rewrite Hscal by exact Hi. reflexivity. }
  assert (forall w, filtered_estimate n J h (i_dt s3) (zz (i_cache s3)) (comp (u0 (i_cache s3))) w ->
            filtered_estimate n J h dt (zz (i_cache s3)) (f ur) w) as Hfe.
  { intros w (W1 & W2). split; [exact W1|]. intros i Hi. rewrite W2, Hu0, Hdt by exact Hi. reflexivity. }
  exists v. rewrite <- Hrms. split; [exact Hv|]. destruct Hest as [Hest|(_ & v1 & w & W1 & W2 & W3 & W4 & W5 & W6)]; [left; auto|right].
  exists v1, w. split; [auto|]. rewrite <- Hrms. split; [exact W2|]. split; [exact W3|]. split; [|split].
  - intros i Hi. rewrite W4 by exact Hi. rewrite Eu3, Eu. reflexivity.
  - destruct (accepted_trace inf _ _ (radau_accept_inv _ _ Fa)) as (l2 & T & _). rewrite T.
    apply in_or_app. right. change (i_trace (force_decompose s4)) with (i_trace s4). rewrite W5. left. rewrite Et3, Et. reflexivity.
  - rewrite Ed3, Ed, Pf, Ep3, Ep, Pp, Et3, Et, <- Hdt in W6. exact W6.
Qed.

Lemma radau_jump_test (b : builder RI P) g fuel k (s0 s s' : state) r :
  overwrites (b_dudt b) -> b_u b <> [] -> 0 < o_reltol (b_opts b) -> 0 < o_abstol (b_opts b) ->
  (forall x, length (g x) = length (i_u x)) ->
  build alg b = Ok s0 -> continues alg (jump g) fuel k s0 s ->
  step alg (jump g) fuel s = Ok (s', r) -> ts (i_sol s') <> ts (i_sol s) ->
  let n := length (b_u b) in
  let dt := i_t s' - i_t s in
  exists u_rec u_next,
  let rms := tol_rms n (radau_atol (o_abstol (b_opts b)) (o_reltol (b_opts b))) (radau_rtol (o_reltol (b_opts b))) u_rec in
  let f := fun y => b_dudt b (zeros n) y (i_t s) (b_params b) in
  last_opt (us (i_sol s)) = Some u_rec /\ length u_rec = n /\ us (i_sol s') = us (i_sol s) ++ [u_next] /\
  exists h J (tau : nat -> R) (y z : nat -> list R),
    let F := fun k i => b_dudt b (zeros n) (y k) (tau k) (b_params b) i in
    h <> 0 /\ square n J /\
    (forall k, (k < 3)%nat -> Rabs (tau k - (i_t s + radau_c k * dt)) <= 1 / 10^15 * Rabs dt) /\
    (forall i, (i < n)%nat -> comp u_next i = comp (i_u s) i + comp (z 2%nat) i) /\
    (blind n h J \/
      (forall i k, (i < n)%nat -> (k < 3)%nat ->
        Rabs (stage_defect n J h (i_u s) y z F i k) <= table_error n J h (i_u s) y z F i) /\
      exists v, rms v < 1 /\
       (filtered_estimate n J h dt z (f u_rec) v \/
        exists v1 w, filtered_estimate n J h dt z (f u_rec) v1 /\ 1 <= rms v1 /\
          length w = n /\ (forall i, (i < n)%nat -> comp w i = comp (i_u s) i + comp v1 i) /\
          In (EvF (A:=RI) (i_t s) w) (i_trace s') /\
          filtered_estimate n J h dt z (f w) v)).
Proof.
  intros How Hu Hr Ha Hg Hb Hc Hs Hts n dt.
  assert (0 < n)%nat as Hn by (unfold n; destruct (b_u b); [congruence|cbn; lia]).
  pose proof (jumped_run b g fuel Hg Hu k s0 s Hc (jumped_build b s0 Hb)) as Hj.
  apply step_radau_inv in Hs as (s1 & H & E). cbn [run_callback jump] in E.
  assert (i_t s' = i_t s1 /\ i_sol s' = i_sol s1 /\ i_trace s' = i_trace s1) as (Et & Es & Etr) by (rewrite E; auto).
  destruct (jumped_took b fuel s s1 Hu Hj H) as [(Hq & _)|(Ee & h & J & sm & s3 & s4 & F & Nt & Fac)].
  { exfalso. apply Hts. rewrite Es. destruct (q_point _ _ Hq) as (_ & _ & _ & _ & E2 & _). exact E2. }
  destruct Hj as [Hss _ Pf Pp Po (ur & L1 & L2 & L3) _].
  exists ur, (i_u s1). split; [exact L1|]. split; [exact L2|]. split; [rewrite Es; apply (rse_us _ _ Ee)|].
  unfold dt. rewrite Et, Etr. apply (not_tiny_R inf) in Nt.
  exact (jump_error_test0 b fuel s s1 ur h J sm s3 s4 How Hr Ha Pf Pp Po Hn L2 L3 Hss F Nt).
Qed.
End Jump.
