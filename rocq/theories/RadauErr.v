(** The error test behind every recorded step of Radau5, in exact arithmetic. *)
From Coq Require Import ZArith List Bool Lia Reals Lra.
From RecordUpdate Require Import RecordSet.
From Verif Require Import Arith Vec Core Spec Jacobian Linalg Driver VecFacts DP5Facts DP5Inv DP5Det LinFacts LinFactsC
  Radau RadauFacts RadauStep RadauSafe RadauInv RadauHist RadauKeep RadauJac ArithR SpecRK RKFacts DP5RK SpecLin LinSpec LinThm
  SpecRadau RadauR RadauDense RadauSim SpecStage StageConst RadauTail RadauSolve RadauStage.
Import ListNotations RecordSetNotations.

Section ErrR.
Context {P : Type} (inf : R).
Notation RI := (RA inf).
Notation state := (integ RI P (radau_cache RI)).
Notation alg := (@Radau5 RI P).
Local Open Scope R_scope.

Lemma est_norm_R n (x w sc : vec RI) : (0 < n)%nat -> length x = n -> length sc = n ->
  (forall i, (i < n)%nat -> comp sc i <> 0) ->
  est_norm n (x ++ w) sc = Rmax (sqrt (rsum n (fun i => (comp x i / comp sc i) ^ 2) / INR n)) (1 / 10000000000).
Proof.
  intros Hn Lx Ls Hs. unfold est_norm. rewrite sum_loop_rsum.
  cbn [nmax nsqrt lit div RA of_nat]. unfold of_nat. cbn [lit RA]. unfold rlit at 1. rewrite <- INR_IZR_INZ.
  assert (0 < INR n) as Hi by (apply lt_0_INR; lia).
  rewrite rdiv_ok by lra. replace (INR n / 1) with (INR n) by field. unfold rlit. f_equal. do 2 f_equal.
  unfold rsum. f_equal. apply map_ext_in. intros i Hin. apply in_seq in Hin.
  assert (at_ (x ++ w) i = comp x i) as ->.
  { unfold at_, comp. rewrite app_nth1 by (cbn in *; lia). apply (at_comp inf). cbn in *; lia. }
  rewrite (at_comp inf) by (cbn in *; lia). cbn [powi RA]. rewrite rdiv_ok by (apply Hs; lia).
  simpl. ring.
Qed.

Lemma est_f2_R n dt (s : state) i : dt <> 0 -> ssafe n s -> (i < n)%nat ->
  comp (est_f2 n dt (i_cache s)) i
  = (radau_e 0 * comp (zz (i_cache s) 0) i + radau_e 1 * comp (zz (i_cache s) 1) i + radau_e 2 * comp (zz (i_cache s) 2) i) / dt.
Proof.
  intros Hd Hs Hi. unfold est_f2. cbv zeta. rewrite comp_tab by exact Hi.
  pose proof (ssafe_zz inf n s 0 Hs) as L0. pose proof (ssafe_zz inf n s 1 Hs) as L1. pose proof (ssafe_zz inf n s 2 Hs) as L2.
  cbn [zz] in *. rewrite !(at_comp inf) by (cbn in *; lia).
  cbn [add mul opp div lit nsqrt RA]. unfold rlit. replace (6 / 1) with 6 by field.
  rewrite !rdiv_ok by (replace (3 / 1) with 3 by field; intros E; apply Rmult_integral in E as [E|E]; lra).
  unfold radau_e. cbv zeta. field. exact Hd.
Qed.

Lemma solved n h dt (J : mat RI) (s : state) (g : nat -> R) (v w : vec RI) : (0 < n)%nat -> h <> 0 -> dt <> 0 -> ssafe n s ->
  factors n h J (i_cache s) ->
  (forall i, (i < n)%nat -> comp v i = g i + comp (est_f2 n dt (i_cache s)) i) -> length v = n ->
  blind n h J \/ exists x, sol n (e1 (i_cache s)) (v ++ w) (ip1 (i_cache s)) = Ok (x ++ w) /\
    filtered_estimate n J h dt (zz (i_cache s)) g x.
Proof.
  intros Hn Hh Hd Hs Hf Hv Lv. destruct Hf as [HJ F1 F2 F3 (ip0 & Hl & Hdec) _].
  destruct (not_blind_regular inf n h J ip0 _ _ Hn HJ Hh Hl Hdec) as [Hb|Hr]; [left; exact Hb|right].
  destruct (Hr v Lv) as (x & Ex & Lx & Sx). exists x. split; [now apply sol_app|]. split; [exact Lx|].
  intros i Hi. specialize (Sx i Hi). rewrite (row_sum inf) in Sx by assumption. rewrite Sx, Hv, est_f2_R by assumption. reflexivity.
Qed.

Lemma estimate_R n h (J : mat RI) (s s' : state) : (0 < n)%nat -> h <> 0 -> i_dt s <> 0 -> ssafe n s ->
  factors n h J (i_cache s) -> overwrites (i_dudt s) -> (forall i, (i < n)%nat -> comp (scal (i_cache s)) i <> 0) ->
  error_estimate s = Ok s' -> ltb RI (err (i_cache s')) n1 = true ->
  let rms v := sqrt (rsum n (fun i => (comp v i / comp (scal (i_cache s)) i) ^ 2) / INR n) in
  let z := zz (i_cache s) in
  blind n h J \/
  exists v, rms v < 1 /\
    (filtered_estimate n J h (i_dt s) z (comp (u0 (i_cache s))) v \/
     first (i_cache s) || reject (i_cache s) = true /\
     exists v1 y, filtered_estimate n J h (i_dt s) z (comp (u0 (i_cache s))) v1 /\ 1 <= rms v1 /\
       length y = n /\ (forall i, (i < n)%nat -> comp y i = comp (i_u s) i + comp v1 i) /\
       i_trace s' = EvF (A:=RI) (i_t s) y :: i_trace s /\
       filtered_estimate n J h (i_dt s) z (i_dudt s (zeros n) y (i_t s) (i_params s)) v).
Proof.
  intros Hn Hh Hdt Hs Hf How Hsc H Herr rms z. rewrite error_estimate_eq in H. cbv zeta in H.
  destruct Hs as [Lu Hc]. assert (length (e1 (i_cache s)) = n) as Le by (apply shaped_len, Hc).
  rewrite Le in H. set (F2 := est_f2 n (i_dt s) (i_cache s)) in *.
  assert (length F2 = n) as LF by apply tab_length.
  set (v0 := tab n (fun i => add RI (at_ F2 i) (at_ (u0 (i_cache s)) i))) in *.
  assert (forall x w, length x = n -> est_norm n (x ++ w) (scal (i_cache s)) = Rmax (rms x) (1 / 10000000000)) as Hnorm.
  { intros x w Lx. apply est_norm_R; auto. apply Hc. }
  destruct (solved n h (i_dt s) J s (comp (u0 (i_cache s))) v0 (skipn n (cont (i_cache s)))) as [Hb|(x & Ex & Sx)]; auto.
  { now split. }
  { intros i Hi. unfold v0. rewrite comp_tab by exact Hi. pose proof (cs_u0 _ _ Hc) as L0.
    rewrite !(at_comp inf) by (cbn in *; lia). cbn [add RA]. fold F2. apply Rplus_comm. }
  { apply tab_length. }
  change (set_head n _ (cont (i_cache s))) with (v0 ++ skipn n (cont (i_cache s))) in H.
  match type of H with bind ?r _ = _ => assert (r = Ok (x ++ skipn n (cont (i_cache s)) : vec RI)) as E by exact Ex end.
  rewrite E in H. cbn [bind] in H. clear E. unfold est_tail in H. cbv zeta in H.
  rewrite (Hnorm x _ (proj1 Sx)) in H.
  assert (forall r, ltb RI (Rmax r (1 / 10000000000)) n1 = true <-> r < 1) as Hlt.
  { intros r. cbn [ltb RA]. rewrite Rltb_true. unfold n1. cbn [lit RA]. unfold rlit.
    replace (1 / 1) with 1 by field. split; intros G.
    - eapply Rle_lt_trans; [apply Rmax_l|exact G].
    - apply Rmax_lub_lt; lra. }
  destruct (ltb RI (Rmax (rms x) _) n1) eqn:E1.
  { right. exists x. split; [now apply Hlt|left; exact Sx]. }
  assert (1 <= rms x) as Hge.
  { apply Rnot_lt_le. intros G. apply Hlt in G. congruence. }
  destruct (first _ || reject _) eqn:Efr.
  2: { inversion H; subst s'. exfalso. cbn in Herr. cbn in E1. congruence. }
  apply bind_ok in H as (cn2 & E2 & H). inversion H; subst s'. clear H.
  set (w := skipn n (cont (i_cache s))) in *.
  set (y := tab n (fun i => add RI (at_ (i_u s) i) (at_ (x ++ w) i))) in *.
  set (F1 := call_rhs (i_dudt s) (f1 (i_cache s)) y (i_t s) (i_params s)) in *.
  assert (length F1 = n) as LF1 by (unfold F1; rewrite call_rhs_length; apply Hc).
  assert (skipn n (x ++ w) = w) as Esk.
  { destruct Sx as (Lx & _). change (num RI) with R. rewrite skipn_app, Lx, Nat.sub_diag, skipn_all2 by lia. reflexivity. }
  destruct (solved n h (i_dt s) J s (i_dudt s (zeros n) y (i_t s) (i_params s))
      (tab n (fun i => add RI (at_ F1 i) (at_ F2 i))) w) as [Hb|(x2 & Ex2 & Sx2)]; auto.
  { now split. }
  { intros i Hi. rewrite comp_tab by exact Hi. rewrite !(at_comp inf) by (cbn in *; lia). cbn [add RA]. fold F2. f_equal.
    unfold F1, call_rhs. rewrite comp_tab by (rewrite (cs_f1 _ _ Hc); exact Hi). apply How.
    - unfold zeros. rewrite repeat_length. apply Hc.
    - rewrite (cs_f1 _ _ Hc). exact Hi. }
  { apply tab_length. }
  match type of E2 with ?r = _ => assert (r = Ok (x2 ++ w : vec RI)) as E3 end.
  { etransitivity; [|exact Ex2]. unfold set_head. f_equal. f_equal. exact Esk. }
  assert (cn2 = x2 ++ w) as -> by (cbn [num RA] in *; congruence).
  right. exists x2. split.
  - cbn in Herr. rewrite <- Hlt. rewrite <- (Hnorm x2 w) by apply Sx2. exact Herr.
  - right. split; [reflexivity|]. exists x, y. split; [exact Sx|]. split; [exact Hge|]. split; [apply tab_length|].
    split; [|split; [reflexivity|exact Sx2]].
    intros i Hi. unfold y. rewrite comp_tab by exact Hi. cbn [add RA]. rewrite (at_comp inf) by (cbn in *; lia). f_equal.
    rewrite (at_comp inf) by (destruct Sx as (Lx & _); rewrite app_length; cbn in *; lia).
    unfold comp. apply app_nth1. destruct Sx as (Lx & _). rewrite Lx. exact Hi.
Qed.

Lemma tols_R (o : opts RI) : 0 < o_reltol o -> 0 < o_abstol o ->
  o_reltol (radau_opts o) = radau_rtol (o_reltol o) /\ o_abstol (radau_opts o) = radau_atol (o_abstol o) (o_reltol o) /\
  0 < radau_rtol (o_reltol o) /\ 0 < radau_atol (o_abstol o) (o_reltol o).
Proof.
  intros Hr Ha. destruct (radau_opts_same o) as (-> & ->).
  assert (o_reltol (radau_tols o) = radau_rtol (o_reltol o)) as E1.
  { cbn. unfold rlit, radau_rtol. rewrite rpow_pos by exact Hr. rewrite rdiv_ok by lra. do 2 f_equal. lra. }
  assert (0 < radau_rtol (o_reltol o)) as Hp by (unfold radau_rtol, Rpower; pose proof (exp_pos (2 / 3 * ln (o_reltol o))); lra).
  split; [exact E1|]. split; [|split; [exact Hp|]].
  - change (o_reltol (radau_tols o) * rdiv inf (o_abstol o) (o_reltol o) = radau_atol (o_abstol o) (o_reltol o)).
    rewrite E1, rdiv_ok by lra. unfold radau_atol. reflexivity.
  - unfold radau_atol. apply Rmult_lt_0_compat; [exact Hp|]. now apply Rdiv_lt_0_compat.
Qed.

Lemma scal_R (o : opts RI) (u : vec RI) i : (i < length u)%nat ->
  comp (radau_scal o u) i = o_abstol o + o_reltol o * Rabs (comp u i).
Proof.
  intros Hi. unfold radau_scal, comp. 
  rewrite nth_indep with (d' := (fun x => add RI (o_abstol o) (mul RI (o_reltol o) (nabs RI x))) 0) by (rewrite map_length; exact Hi).
  rewrite (map_nth (fun x => add RI (o_abstol o) (mul RI (o_reltol o) (nabs RI x)))). reflexivity.
Qed.

Lemma radau_error_test (b : builder RI P) fuel k (s0 s s' : state) r :
  overwrites (b_dudt b) -> b_u b <> [] -> 0 < o_reltol (b_opts b) -> 0 < o_abstol (b_opts b) ->
  build alg b = Ok s0 -> continues alg None fuel k s0 s ->
  step alg None fuel s = Ok (s', r) -> ts (i_sol s') <> ts (i_sol s) ->
  let n := length (b_u b) in
  let dt := i_t s' - i_t s in
  let rms := tol_rms n (radau_atol (o_abstol (b_opts b)) (o_reltol (b_opts b))) (radau_rtol (o_reltol (b_opts b))) (i_u s) in
  let f := fun y => b_dudt b (zeros n) y (i_t s) (b_params b) in
  exists h J (tau : nat -> R) (y z : nat -> list R),
    let F := fun k i => b_dudt b (zeros n) (y k) (tau k) (b_params b) i in
    matrix_step fuel s0 (S k) s' h /\ h <> 0 /\
    (exists t u, In (t, u) (points s) /\ jacobian_at s t u J) /\ square n J /\
    (forall k, (k < 3)%nat -> Rabs (tau k - (i_t s + radau_c k * dt)) <= 1 / 10^15 * Rabs dt) /\
    (forall i, (i < n)%nat -> comp (i_u s') i = comp (i_u s) i + comp (z 2%nat) i) /\
    (blind n h J \/
      (forall i k, (i < n)%nat -> (k < 3)%nat ->
        Rabs (stage_defect n J h (i_u s) y z F i k) <= table_error n J h (i_u s) y z F i) /\
      exists v, rms v < 1 /\
       (filtered_estimate n J h dt z (f (i_u s)) v \/
        exists v1 w, filtered_estimate n J h dt z (f (i_u s)) v1 /\ 1 <= rms v1 /\
          length w = n /\ (forall i, (i < n)%nat -> comp w i = comp (i_u s) i + comp v1 i) /\
          In (EvF (A:=RI) (i_t s) w) (i_trace s') /\
          filtered_estimate n J h dt z (f w) v)).
Proof.
  intros How Hu Hr Ha Hb Hc Hs Hts n dt rms f.
  assert (0 < n)%nat as Hn by (unfold n; destruct (b_u b); [congruence|cbn; lia]).
  destruct (recorded_final b fuel k s0 s s' r Hu Hb Hc Hs Hts) as (h & J & sm & s3 & s4 & Hf & Hm & Hnt & Hj & Hss & Hfr).
  fold n in Hf, Hss. apply not_tiny_R in Hnt.
  pose proof (final_stages inf b fuel k s0 s s' h J sm s3 s4 How Hu Hb Hc Hf Hnt Hss) as (tau & y & H1 & H2 & H3 & H4 & H5 & Hdt & S3 & F3).
  fold n in H3, H4, H5, S3, F3. fold dt in H1, Hdt.
  pose proof (shaped_square inf _ _ (fa_shape _ _ _ _ (fi_fac _ _ _ _ _ _ _ _ _ Hf))) as Hsq.
  destruct Hf as [Fq Fu0 Fsc Fjk _ Fsf Ff Ftd Fn Fe Fer Fa].
  pose proof Fn as Fn'. apply newton_inv in Fn' as (_ & _ & N & _). specialize (N eq_refl).
  pose proof (continues_steps_n alg None fuel k s0 s Hc) as Hst.
  destruct (radau_frame b fuel k s0 s Hb Hst) as (Pf & _ & _ & Pp & _ & Po & _).
  pose proof (q_point _ _ Fq) as (Eu & Et & _). pose proof (q_prob _ _ Fq) as (Ed & _ & _ & Ep & _).
  pose proof (q_point _ _ (nf_quiet _ _ (ns_frame _ _ N))) as (Eu3 & Et3 & _).
  pose proof (q_prob _ _ (nf_quiet _ _ (ns_frame _ _ N))) as (Ed3 & _ & _ & Ep3 & _).
  pose proof (nf_u0 _ _ (ns_frame _ _ N)) as Eu0. pose proof (nf_scal _ _ (ns_frame _ _ N)) as Esc.
  destruct Hfr as ((d & Ld & Hd) & Hsc).
  destruct (tols_R (b_opts b) Hr Ha) as (T1 & T2 & T3 & T4).
  pose proof (proj1 Hss) as Lu.
  assert (forall i, (i < n)%nat -> comp (scal (i_cache s3)) i
     = radau_atol (o_abstol (b_opts b)) (o_reltol (b_opts b)) + radau_rtol (o_reltol (b_opts b)) * Rabs (comp (i_u s) i)) as Hscal.
  { intros i Hi. rewrite Esc, Fsc, Hsc, scal_R by (cbn in *; lia). rewrite Po, T1, T2. reflexivity. }
  assert (forall i, (i < n)%nat -> comp (u0 (i_cache s3)) i = f (i_u s) i) as Hu0.
  { intros i Hi. rewrite Eu0, Fu0, Hd. unfold call_rhs. rewrite comp_tab by (cbn in *; lia). rewrite Pf, Pp. unfold f.
    apply How; [unfold zeros; rewrite repeat_length|]; cbn in *; lia. }
  assert (i_dt s3 <> 0) as Hdt0.
  { rewrite (ns_dt _ _ N). apply (not_tiny_R inf). exists (i_t sm). exact Ftd. }
  destruct (estimate_R n h J s3 s4) as [Hbl|(v & Hv & Hest)]; auto.
  { rewrite Ed3, Ed, Pf. exact How. }
  { intros i Hi. rewrite Hscal by exact Hi. pose proof (Rabs_pos (comp (i_u s) i)).
    assert (0 <= radau_rtol (o_reltol (b_opts b)) * Rabs (comp (i_u s) i)) by (apply Rmult_le_pos; lra). lra. }
  { exists h, J, tau, y, (zz (i_cache s3)). cbv zeta in *. auto 10. }
  exists h, J, tau, y, (zz (i_cache s3)). cbv zeta in *. 
  split; [exact Hm|]. split; [exact Hnt|]. split; [exact Hj|]. split; [exact Hsq|]. split; [exact H1|]. split; [exact H4|].
  destruct H5 as [Hbl|H5]; [left; exact Hbl|right]. split; [exact H5|].
  assert (forall w, sqrt (rsum n (fun i => (comp w i / comp (scal (i_cache s3)) i) ^ 2) / INR n) = rms w) as Hrms.
  { intros w. unfold rms, tol_rms. do 2 f_equal. apply rsum_ext. intros i Hi. rewrite Hscal by exact Hi. reflexivity. }
  assert (forall w, filtered_estimate n J h (i_dt s3) (zz (i_cache s3)) (comp (u0 (i_cache s3))) w ->
            filtered_estimate n J h dt (zz (i_cache s3)) (f (i_u s)) w) as Hfe.
  { intros w (W1 & W2). split; [exact W1|]. intros i Hi. rewrite W2, Hu0, Hdt by exact Hi. reflexivity. }
  exists v. rewrite <- Hrms. split; [exact Hv|]. destruct Hest as [Hest|(_ & v1 & w & W1 & W2 & W3 & W4 & W5 & W6)]; [left; auto|right].
  exists v1, w. split; [auto|]. rewrite <- Hrms. split; [exact W2|]. split; [exact W3|]. split; [|split].
  - intros i Hi. rewrite W4 by exact Hi. rewrite Eu3, Eu. reflexivity.
  - destruct (accepted_trace inf _ _ (radau_accept_inv _ _ Fa)) as (l2 & T & _). rewrite T.
    apply in_or_app. right. change (i_trace (force_decompose s4)) with (i_trace s4). rewrite W5. left. rewrite Et3, Et. reflexivity.
  - rewrite Ed3, Ed, Pf, Ep3, Ep, Pp, Et3, Et, <- Hdt in W6. exact W6.
Qed.
End ErrR.
