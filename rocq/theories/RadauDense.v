(** The accepted attempt behind every recorded point of Radau5, and the dense
    output after it. *)
From Coq Require Import ZArith List Bool Lia Reals Lra.
From RecordUpdate Require Import RecordSet.
From Verif Require Import Arith Vec Core Spec Jacobian Linalg Driver VecFacts DP5Facts DP5Inv LinFacts LinFactsC
  Radau RadauFacts RadauStep RadauSafe RadauInv RadauHist RadauKeep ArithR SpecRadau RadauR ArithF RadauEx RadauREx.
Import ListNotations RecordSetNotations.

Section Took.
Context {A : arith} {P : Type}.
Notation state := (integ A P (radau_cache A)).
Notation alg := (@Radau5 A P).

Lemma radau_ssafe (b : builder A P) fuel k (s0 s : state) :
  b_u b <> [] -> build alg b = Ok s0 -> steps_n alg None fuel k s0 = Ok s -> ssafe (length (b_u b)) s.
Proof.
  intros Hu Hb H. pose proof (radau_build_inv _ _ Hb) as Hbi.
  assert (0 < length (b_u b)) as Hn by (destruct (b_u b); [congruence|cbn; lia]).
  apply (steps_n_invariant alg None fuel (fun x => ssafe (length (b_u b)) x)) with (k := k) (s := s0); [| |exact H].
  - intros x x' r Hx Hs. pose proof (radau_safe_step _ None fuel x no_callback_benign Hn Hx) as Hf.
    cbn [Cache Radau5] in *. rewrite Hs in Hf. exact Hf.
  - exact (rb_safe _ _ Hbi).
Qed.

(** A call that recorded a point: the attempt that was accepted. *)
Lemma recorded_took (b : builder A P) fuel k (s0 s s' : state) r :
  build alg b = Ok s0 -> reached alg None fuel k s0 s -> rc (i_sol s) = RContinue ->
  step alg None fuel s = Ok (s', r) -> ts (i_sol s') <> ts (i_sol s) ->
  exists s1, quiet s s1 /\ ltb A (err (i_cache s1)) n1 = true /\ accepted s1 s' /\
             i_opts s1 = radau_opts (b_opts b).
Proof.
  intros Hb Hr Hrc H Hts.
  assert (reject (i_cache s) = false /\ i_opts s = radau_opts (b_opts b)) as (Hrj & Ho).
  { inversion Hr as [|k' x y z r' Hc Hs]; subst.
    - apply radau_build_inv in Hb. split; [apply (rb_flags _ _ Hb)|apply (rb_prob _ _ Hb)].
    - destruct (radau_continues_ready b None fuel _ s0 _ no_callback_benign Hb Hc) as (R1 & R2 & _ & R4).
      apply step_radau_inv in Hs as (x & Hs & Ex). cbn [run_callback] in Ex.
      apply radau_step_cases in Hs as [Ee|Ff]; [| |exact R2].
      + subst x. split; [apply Ee|]. rewrite <- R4. apply same_problem_opts. apply Ee.
      + exfalso. subst x. apply (rsf_rc _ _ Ff). exact Hrc. }
  apply step_radau_inv in H as (x & H & Ex). cbn [run_callback] in Ex. subst x.
  apply radau_step_inv in H as (mid & [Wq _ _ _] & H); [|exact Hrj].
  destruct (radau_clip_frame s) as (Cq & _).
  assert (quiet s mid) as Hq by (eapply quiet_trans; eassumption).
  destruct H as [(G1 & _)|((s1 & [T1 _ _ _ _] & _ & He & _ & _ & Ha) & _)].
  - exfalso. apply Hts. destruct (q_point _ _ (quiet_trans _ _ _ Hq G1)) as (_ & _ & _ & _ & E & _). exact E.
  - exists s1. assert (quiet s s1) as Hq1 by (eapply quiet_trans; eassumption).
    split; [exact Hq1|]. split; [exact He|]. split; [exact Ha|].
    rewrite <- Ho. apply same_problem_opts. apply Hq1.
Qed.
End Took.

Section Dense.
Context {A : arith} {P : Type}.
Notation state := (integ A P (radau_cache A)).
Notation alg := (@Radau5 A P).

(** The coefficients stored by an accepted step, component by component. *)
Definition dk1 (c : radau_cache A) i := div A (sub A (at_ (z2 c) i) (at_ (z3 c) i)) rC2M1.
Definition dak (c : radau_cache A) i := div A (sub A (at_ (z1 c) i) (at_ (z2 c) i)) rC1MC2.
Definition dk2 (c : radau_cache A) i := div A (sub A (dak c i) (dk1 c i)) rC1M1.
Definition dk3 (c : radau_cache A) i :=
  sub A (dk2 c i) (div A (sub A (dak c i) (div A (at_ (z1 c) i) rC1)) rC2).

Lemma cont_shape n g (c : radau_cache A) : length (set_head n g (radau_cont n c)) = 4 * n ->
  set_head n g (radau_cont n c) = tab n g ++ tab n (dk1 c) ++ tab n (dk2 c) ++ tab n (dk3 c).
Proof.
  intros H. unfold set_head, radau_cont in *. rewrite app_length, skipn_length, !app_length, !tab_length in H.
  f_equal. rewrite skipn_app. rewrite (skipn_all2 (firstn n (cont c))) by (rewrite firstn_length; lia).
  assert (n = length (firstn n (cont c))) as E by lia. rewrite <- E, Nat.sub_diag. reflexivity.
Qed.

Lemma block_at n (a b : vec A) i : length a = n -> i < n -> at_ (firstn n (a ++ b)) i = at_ a i.
Proof.
  intros Ha Hi. unfold at_. rewrite firstn_app. subst n. rewrite firstn_all, Nat.sub_diag, firstn_O, app_nil_r. reflexivity.
Qed.
Lemma block_len n (a b : vec A) : length a = n -> length (firstn n (a ++ b)) = n.
Proof. intros H. rewrite firstn_length, app_length. lia. Qed.
Lemma skip_block n k (a b : vec A) : length a = n -> skipn (S k * n) (a ++ b) = skipn (k * n) b.
Proof.
  intros H. replace (S k * n) with (length a + k * n) by (cbn; lia). rewrite skipn_app.
  rewrite skipn_all2 by lia. cbn [app]. f_equal. lia.
Qed.

(** The interpolation parameter and the polynomial the code evaluates. *)
Definition dense_at (k0 k1 k2 k3 sg : num A) : num A :=
  let sq6 := nsqrt A (lit A 6 1) in
  let c1m1 := sub A (div A (sub A (lit A 4 1) sq6) (lit A 10 1)) n1 in
  let c2m1 := sub A (div A (add A (lit A 4 1) sq6) (lit A 10 1)) n1 in
  add A (mul A sg (add A (mul A (sub A sg c2m1) (add A (mul A (sub A sg c1m1) k3) (mul A sg k2))) k1)) k0.

Lemma dense_components (s : state) n g (c : radau_cache A) x i :
  length (i_u s) = n -> i < n ->
  cont (i_cache s) = tab n g ++ tab n (dk1 c) ++ tab n (dk2 c) ++ tab n (dk3 c) ->
  length (radau_dense_output x s) = n /\
  at_ (radau_dense_output x s) i =
  dense_at (g i) (dk1 c i) (dk2 c i) (dk3 c i) (div A (sub A x (i_t s)) (i_dtprev s)).
Proof.
  intros Hu Hi Hc. unfold radau_dense_output. rewrite Hu, Hc.
  assert (forall k, length (tab n k : vec A) = n) as Ht by (intros; apply tab_length).
  rewrite !skip_block by apply Ht. cbn [Nat.mul skipn].
  pose proof (block_len n (tab n g) (tab n (dk1 c) ++ tab n (dk2 c) ++ tab n (dk3 c)) (Ht _)) as L0.
  pose proof (block_len n (tab n (dk1 c)) (tab n (dk2 c) ++ tab n (dk3 c)) (Ht _)) as L1.
  pose proof (block_len n (tab n (dk2 c)) (tab n (dk3 c)) (Ht _)) as L2.
  pose proof (block_len n (tab n (dk3 c)) [] (Ht _)) as L3. rewrite app_nil_r in L3.
  assert (forall (k : nat -> num A) (r : vec A), at_ (firstn n (tab n k ++ r)) i = k i) as Hat.
  { intros k r. rewrite block_at by auto. unfold at_. now apply tab_nth. }
  pose proof (Hat (dk3 c) []) as Hat3. rewrite app_nil_r in Hat3.
  split.
  - rewrite !vadd_length, !vscale_length, !vadd_length, !vscale_length, !vadd_length, !vscale_length. rewrite L0, L1, L2, L3. lia.
  - rewrite vadd_at, vscale_at, vadd_at, vscale_at, vadd_at, !vscale_at;
      rewrite ?vadd_length, ?vscale_length, ?vadd_length, ?vscale_length, ?vadd_length, ?vscale_length, ?L0, ?L1, ?L2, ?L3; try lia.
    rewrite !Hat, Hat3. reflexivity.
Qed.

(** After a call that recorded a point with [dense] on. *)
Lemma recorded_dense (b : builder A P) fuel k (s0 s s' : state) r x i :
  b_u b <> [] -> o_dense (b_opts b) = true ->
  build alg b = Ok s0 -> reached alg None fuel k s0 s -> rc (i_sol s) = RContinue ->
  step alg None fuel s = Ok (s', r) -> ts (i_sol s') <> ts (i_sol s) -> i < length (b_u b) ->
  length (i_u s') = length (b_u b) /\ length (radau_dense_output x s') = length (b_u b) /\
  at_ (radau_dense_output x s') i =
    dense_at (at_ (i_u s') i) (dk1 (i_cache s') i) (dk2 (i_cache s') i) (dk3 (i_cache s') i)
      (div A (sub A x (i_t s')) (i_dtprev s')) /\
  at_ (i_u s') i = add A (at_ (i_u s) i) (at_ (z3 (i_cache s')) i) /\
  i_t s' = add A (i_t s) (i_dtprev s').
Proof.
  intros Hu Hd Hb Hr Hrc H Hts Hi.
  destruct (recorded_took b fuel k s0 s s' r Hb Hr Hrc H Hts) as (s1 & Hq & _ & Ha & Ho).
  assert (steps_n alg None fuel (k + 1) s0 = Ok s') as Hn.
  { apply reached_steps_n in Hr. rewrite steps_n_app. cbn [Cache Radau5] in *. rewrite Hr. cbn [bind steps_n].
    rewrite H. reflexivity. }
  pose proof (radau_ssafe b fuel _ s0 s' Hu Hb Hn) as (Lu & Cs).
  destruct (q_point _ _ Hq) as (Eu & Et & _).
  pose proof (ac_cont _ _ Ha) as Hc. rewrite Ho in Hc.
  assert (o_dense (radau_opts (b_opts b)) = true) as Hd'.
  { unfold radau_opts, radau_tols. destruct (leb A _ _); exact Hd. }
  rewrite Hd' in Hc.
  assert (length (i_u s1) = length (b_u b)) as L1.
  { rewrite <- Lu, (ac_u _ _ Ha), tab_length. reflexivity. }
  rewrite L1 in Hc. pose proof (cs_cont _ _ Cs) as Lc. rewrite Hc in Lc. rewrite cont_shape in Hc by exact Lc.
  destruct (ac_keep _ _ Ha) as (_&_&_&_&_&Ez1&Ez2&Ez3&_).
  assert (forall j, dk1 (i_cache s') j = dk1 (i_cache s1) j /\ dk2 (i_cache s') j = dk2 (i_cache s1) j /\
    dk3 (i_cache s') j = dk3 (i_cache s1) j) as Hk.
  { intros j. unfold dk3, dk2, dak, dk1. rewrite Ez1, Ez2, Ez3. auto. }
  destruct (Hk i) as (K1 & K2 & K3). split; [exact Lu|]. split; [|split; [|split]].
  - eapply (dense_components s' _ _ (i_cache s1)); [exact Lu|exact Hi|exact Hc].
  - etransitivity; [eapply (dense_components s' _ _ (i_cache s1)); [exact Lu|exact Hi|exact Hc]|].
    rewrite K1, K2, K3. reflexivity.
  - rewrite (ac_u _ _ Ha), L1, Ez3, Eu. unfold at_ at 1. now rewrite tab_nth by exact Hi.
  - rewrite (ac_t _ _ Ha), (ac_dtprev _ _ Ha), Et. reflexivity.
Qed.
End Dense.

Section DenseR.
Local Open Scope R_scope.
Variable inf : R.
Context {P : Type}.
Notation RI := (RA inf).
Notation state := (integ RI P (radau_cache RI)).
Notation alg := (@Radau5 RI P).

Lemma sqrt6_sq : sqrt 6 * sqrt 6 = 6. Proof. apply sqrt_sqrt. lra. Qed.
Lemma sqrt6_low : 2449489742783178 / 1000000000000000 <= sqrt 6.
Proof. apply Rsqr_incr_0_var; [|apply sqrt_pos]. rewrite Rsqr_sqrt by lra. unfold Rsqr. lra. Qed.
Lemma sqrt6_high : sqrt 6 <= 2449489742783178 / 1000000000000000 + 1 / 10000000000000000.
Proof. apply Rsqr_incr_0_var; [|lra]. rewrite Rsqr_sqrt by lra. unfold Rsqr. lra. Qed.

Lemma bend_lin z1 z2 z3 : bend z1 z2 z3 =
  ((z1 - z2) * (- (5 / 6) * sqrt 6) + (z2 - z3) * ((sqrt 6 + 6) / 3)) * (- ((6 - sqrt 6) / 3)).
Proof.
  unfold bend, node1, node2. pose proof sqrt6_sq. pose proof sqrt6_low. pose proof sqrt6_high.
  set (q := sqrt 6) in *.
  assert (/ ((4 - q) / 10 - (4 + q) / 10) = - (5 / 6) * q) as E1.
  { apply Rmult_eq_reg_l with ((4 - q) / 10 - (4 + q) / 10); [|lra]. rewrite Rinv_r by lra. nra. }
  assert (/ ((4 + q) / 10 - 1) = - ((q + 6) / 3)) as E2.
  { apply Rmult_eq_reg_l with ((4 + q) / 10 - 1); [|lra]. rewrite Rinv_r by lra. nra. }
  assert (/ ((4 - q) / 10 - 1) = - ((6 - q) / 3)) as E3.
  { apply Rmult_eq_reg_l with ((4 - q) / 10 - 1); [|lra]. rewrite Rinv_r by lra. nra. }
  assert (forall a, a / ((4 - q) / 10 - (4 + q) / 10) = a * (- (5 / 6) * q)) as F1 by (intros; unfold Rdiv at 1; now rewrite E1).
  assert (forall a, a / ((4 + q) / 10 - 1) = a * - ((q + 6) / 3)) as F2 by (intros; unfold Rdiv at 1; now rewrite E2).
  assert (forall a, a / ((4 - q) / 10 - 1) = a * - ((6 - q) / 3)) as F3 by (intros; unfold Rdiv at 1; now rewrite E3).
  rewrite F1, F2, F3. ring.
Qed.

Lemma lin3 a1 a2 a3 e z1 z2 z3 : Rabs a1 <= e -> Rabs a2 <= e -> Rabs a3 <= e ->
  Rabs (a1 * z1 + a2 * z2 + a3 * z3) <= e * (Rabs z1 + Rabs z2 + Rabs z3).
Proof.
  intros H1 H2 H3. eapply Rle_trans; [apply Rabs_triang|].
  eapply Rle_trans; [apply Rplus_le_compat_r, Rabs_triang|]. rewrite !Rabs_mult.
  pose proof (Rabs_pos z1). pose proof (Rabs_pos z2). pose proof (Rabs_pos z3). nra.
Qed.

(** The interpolant at the old point. *)
Lemma dense_old k0 (z1 z2 z3 : R) :
  let C1 := 1550510257216822 / 10000000000000000 in let C2 := 6449489742783178 / 10000000000000000 in
  let C1M1 := - 8449489742783178 / 10000000000000000 in let C2M1 := - 3550510257216822 / 10000000000000000 in
  let C1MC2 := - 4898979485566356 / 10000000000000000 in
  let k1 := (z2 - z3) / C2M1 in let ak := (z1 - z2) / C1MC2 in
  let k2 := (ak - k1) / C1M1 in let k3 := k2 - (ak - z1 / C1) / C2 in
  let q := sqrt 6 in
  Rabs ((-1) * ((-1 - ((4 + q) / 10 - 1)) * ((-1 - ((4 - q) / 10 - 1)) * k3 + (-1) * k2) + k1) + k0
        - (k0 - z3 - 2 * node2 * bend z1 z2 z3)) <= 1 / 100000000000000 * (Rabs z1 + Rabs z2 + Rabs z3).
Proof.
  intros. rewrite bend_lin. unfold node2. pose proof sqrt6_sq as Hq. pose proof sqrt6_low as Hl. pose proof sqrt6_high as Hh.
  fold q in Hq, Hl, Hh |- *.
  assert (forall z, q * q * z = 6 * z) as Hqz by (intros; rewrite Hq; ring).
  assert (forall z, - (1 / 10000000000000000 * Rabs z) <= (q - 2449489742783178 / 1000000000000000) * z <= 1 / 10000000000000000 * Rabs z) as Hw.
  { intros z. unfold Rabs. destruct (Rcase_abs z); split; nra. }
  assert (forall z, - Rabs z <= z <= Rabs z) as Ha by (intros z; unfold Rabs; destruct (Rcase_abs z); lra).
  assert (forall a, a / C1MC2 = a * (- (10000000000000000 / 4898979485566356))) as F1 by (intros; unfold C1MC2; field).
  assert (forall a, a / C2M1 = a * (- (10000000000000000 / 3550510257216822))) as F2 by (intros; unfold C2M1; field).
  assert (forall a, a / C1M1 = a * (- (10000000000000000 / 8449489742783178))) as F3 by (intros; unfold C1M1; field).
  assert (forall a, a / C1 = a * (10000000000000000 / 1550510257216822)) as F4 by (intros; unfold C1; field).
  assert (forall a, a / C2 = a * (10000000000000000 / 6449489742783178)) as F5 by (intros; unfold C2; field).
  unfold k3, k2, ak, k1. rewrite !F1, !F2, !F3, !F4, !F5.
  pose proof (Hqz z1). pose proof (Hqz z2). pose proof (Hqz z3).
  pose proof (Hw z1). pose proof (Hw z2). pose proof (Hw z3).
  pose proof (Ha z1). pose proof (Ha z2). pose proof (Ha z3).
  assert (q * q * q * z1 = 6 * q * z1) by (rewrite Hq; ring).
  assert (q * q * q * z2 = 6 * q * z2) by (rewrite Hq; ring).
  assert (q * q * q * z3 = 6 * q * z3) by (rewrite Hq; ring).
  clear - H H0 H1 H2 H3 H4 H5 H6 H7 H8 H9 H10.
  apply Rabs_le. split; lra.
Qed.

Lemma dense_at_R (k0 k1 k2 k3 sg : num RI) : dense_at k0 k1 k2 k3 sg =
  sg * ((sg - ((4 + sqrt 6) / 10 - 1)) * ((sg - ((4 - sqrt 6) / 10 - 1)) * k3 + sg * k2) + k1) + k0.
Proof.
  unfold dense_at. rnorm. rewrite !rdiv_ok by lra.
  replace (6 / 1) with 6 by lra. replace (4 / 1) with 4 by lra. replace (10 / 1) with 10 by lra.
  replace (1 / 1) with 1 by lra. reflexivity.
Qed.
Lemma dk_R (c : radau_cache RI) i :
  let a1 := at_ (z1 c) i in let a2 := at_ (z2 c) i in let a3 := at_ (z3 c) i in
  let C1 := 1550510257216822 / 10000000000000000 in let C2 := 6449489742783178 / 10000000000000000 in
  let C1M1 := - 8449489742783178 / 10000000000000000 in let C2M1 := - 3550510257216822 / 10000000000000000 in
  let C1MC2 := - 4898979485566356 / 10000000000000000 in
  let k1 := (a2 - a3) / C2M1 in let ak := (a1 - a2) / C1MC2 in
  let k2 := (ak - k1) / C1M1 in let k3 := k2 - (ak - a1 / C1) / C2 in
  dk1 c i = k1 /\ dk2 c i = k2 /\ dk3 c i = k3.
Proof.
  intros. unfold dk3, dk2, dak, dk1, rC1, rC2, rC1M1, rC2M1, rC1MC2. fold a1 a2 a3. rnorm.
  rewrite !rdiv_ok by lra. repeat split.
Qed.

Section Rec.
Variables (b : builder RI P) (fuel k : nat) (s0 s s' : state) (r : option nat).
Hypothesis (Hu : b_u b <> []) (Hd : o_dense (b_opts b) = true) (Hb : build alg b = Ok s0)
  (Hr : reached alg None fuel k s0 s) (Hrc : rc (i_sol s) = RContinue)
  (H : step alg None fuel s = Ok (s', r)) (Hts : ts (i_sol s') <> ts (i_sol s)) (Ht : i_t s' <> i_t s).

Lemma sg_at c : sub RI (i_t s + c * (i_t s' - i_t s)) (i_t s') / i_dtprev s' = c - 1.
Proof.
  destruct (recorded_dense b fuel k s0 s s' r 0 0 Hu Hd Hb Hr Hrc H Hts) as (_ & _ & _ & _ & Et);
    [destruct (b_u b); [congruence|cbn; lia]|].
  change (i_t s' = i_t s + i_dtprev s') in Et.
  assert (i_dtprev s' <> 0) by (intros E; apply Ht; rewrite Et, E; lra).
  change (sub RI) with Rminus. field_simplify_eq; [|assumption]. rewrite Et. ring.
Qed.
Lemma dt_ne : i_dtprev s' <> 0.
Proof.
  destruct (recorded_dense b fuel k s0 s s' r 0 0 Hu Hd Hb Hr Hrc H Hts) as (_ & _ & _ & _ & Et);
    [destruct (b_u b); [congruence|cbn; lia]|].
  change (i_t s' = i_t s + i_dtprev s') in Et. intros E; apply Ht; rewrite Et, E; lra.
Qed.

Lemma dense_frac c i : (i < length (b_u b))%nat ->
  at_ (radau_dense_output (i_t s + c * (i_t s' - i_t s)) s') i =
  dense_at (at_ (i_u s') i) (dk1 (i_cache s') i) (dk2 (i_cache s') i) (dk3 (i_cache s') i) (c - 1) /\
  at_ (i_u s') i = at_ (i_u s) i + at_ (z3 (i_cache s')) i.
Proof.
  intros Hi. set (x := i_t s + c * (i_t s' - i_t s)).
  destruct (recorded_dense b fuel k s0 s s' r x i Hu Hd Hb Hr Hrc H Hts Hi) as (_ & _ & E1 & E2 & _).
  split; [|exact E2]. rewrite E1. f_equal. unfold x. rewrite <- (sg_at c). apply rdiv_ok. apply dt_ne.
Qed.

Lemma dense_new : radau_dense_output (i_t s') s' = i_u s'.
Proof.
  assert (forall i, (i < length (b_u b))%nat -> length (i_u s') = length (b_u b) /\
    length (radau_dense_output (i_t s') s') = length (b_u b) /\
    at_ (radau_dense_output (i_t s') s') i = at_ (i_u s') i) as Hi.
  { intros i Hi. destruct (recorded_dense b fuel k s0 s s' r (i_t s') i Hu Hd Hb Hr Hrc H Hts Hi) as (L1 & L2 & _).
    split; [exact L1|]. split; [exact L2|].
    replace (i_t s') with (i_t s + 1 * (i_t s' - i_t s)) at 1 by (change (num RI) with R; lra).
    rewrite (proj1 (dense_frac 1 i Hi)), dense_at_R. change (num RI) with R. lra. }
  assert (0 < length (b_u b))%nat as H0 by (destruct (b_u b); [congruence|cbn; lia]).
  destruct (Hi _ H0) as (L1 & L2 & _). apply nth_ext with n0 n0; [congruence|].
  intros i Hl. rewrite L2 in Hl. apply (Hi i Hl).
Qed.

Lemma dense_second i : (i < length (b_u b))%nat ->
  Rabs (at_ (radau_dense_output (i_t s + node2 * (i_t s' - i_t s)) s') i - (at_ (i_u s) i + at_ (z2 (i_cache s')) i)) <=
  1 / 1000000000000000 * Rabs (at_ (z2 (i_cache s')) i - at_ (z3 (i_cache s')) i).
Proof.
  intros Hi. destruct (dense_frac node2 i Hi) as (-> & ->). rewrite dense_at_R. unfold node2.
  destruct (dk_R (i_cache s') i) as (-> & _).
  set (k2 := dk2 _ _). set (k3 := dk3 _ _). set (u := at_ (i_u s) i).
  set (a := at_ (z2 (i_cache s')) i). set (c := at_ (z3 (i_cache s')) i).
  pose proof sqrt6_low as Hl. pose proof sqrt6_high as Hh. set (q := sqrt 6) in *.
  change (num RI) with R in *. clearbody u a c q k2 k3. clear - Hl Hh.
  replace (_ - (u + a)) with ((q - 2449489742783178 / 1000000000000000) * - (1000000000000000 / 3550510257216822) * (a - c)) by field.
  rewrite Rabs_mult. apply Rmult_le_compat_r; [apply Rabs_pos|]. apply Rabs_le. split; lra.
Qed.

Lemma dense_old_point i : (i < length (b_u b))%nat ->
  let a1 := at_ (z1 (i_cache s')) i in let a2 := at_ (z2 (i_cache s')) i in let a3 := at_ (z3 (i_cache s')) i in
  Rabs (at_ (radau_dense_output (i_t s) s') i - (at_ (i_u s) i - 2 * node2 * bend a1 a2 a3)) <=
  1 / 100000000000000 * (Rabs a1 + Rabs a2 + Rabs a3).
Proof.
  intros Hi a1 a2 a3. destruct (dense_frac 0 i Hi) as (E & Eu).
  replace (i_t s + 0 * (i_t s' - i_t s)) with (i_t s) in E by (change (num RI) with R; lra).
  rewrite E, dense_at_R. destruct (dk_R (i_cache s') i) as (-> & -> & ->). fold a1 a2 a3 in Eu |- *.
  pose proof (dense_old (at_ (i_u s') i) a1 a2 a3) as Hd'. cbv zeta in Hd' |- *.
  replace (at_ (i_u s) i) with (at_ (i_u s') i - a3) by (rewrite Eu; change (num RI) with R; lra).
  replace (0 - 1) with (-1) by lra. exact Hd'.
Qed.
End Rec.
End DenseR.

(** A binary64 run: harmonic oscillator, one step of length 1/10. *)
Definition x_dense : builder XG unit := x_rad3 <| b_dt := y 1 10 |> <| b_opts; o_dense := true |>.
Lemma dense_ex : exists s0 s r,
  build radx x_dense = Ok s0 /\ step radx None 60 s0 = Ok (s, r) /\ rc (i_sol s) = RContinue /\
  feqb (at_ (i_u s0) 0) (y 1 1) = true /\ fltb (y 1005 1000) (at_ (radau_dense_output (i_t s0) s) 0) = true.
Proof.
  assert (match build radx x_dense with
          | Ok s0 => match step radx None 60 s0 with
            | Ok (s, _) => rc_is RContinue s && feqb (at_ (i_u s0) 0) (y 1 1) &&
                           fltb (y 1005 1000) (at_ (radau_dense_output (i_t s0) s) 0)
            | _ => false end
          | _ => false end = true) as H by (vm_compute; reflexivity).
  destruct (build radx x_dense) as [s0| |] eqn:E0; try discriminate H.
  destruct (step radx None 60 s0) as [[s r]| |] eqn:E; try discriminate H.
  apply andb_true_iff in H as [H H3]. apply andb_true_iff in H as [H1 H2].
  exists s0, s, r. repeat split; try assumption; now apply rc_is_eq.
Qed.

(** Turning [dense] on changes nothing else. *)
Lemma dense_on {A : arith} {P} (b0 : builder A P) fuel k (s s' : integ A P (radau_cache A)) :
  build Radau5 b0 = Ok s -> build Radau5 (set_dense true b0) = Ok s' ->
  same_outcome same_results (steps_n (@Radau5 A P) None fuel k s) (steps_n (@Radau5 A P) None fuel k s').
Proof.
  intros H H'. refine (proj1 (radau_ignored_opts b0 (set_dense true b0) fuel k s s' _ _ H H')).
  - destruct b0; reflexivity.
  - set (o := b_opts b0). exists true, (o_dtstart o), (o_max_stiff o), (o_hess o), (o_beta o).
    change (b_opts (set_dense true b0)) with (o <| o_dense := true |>). destruct o; reflexivity.
Qed.

(** An exact-arithmetic run with [dense] on. *)
Section RestDense.
Variable inf : R.
Notation alg := (@Radau5 (RA inf) unit).
Lemma rest_dense : let b := set_dense true (r_rest inf 0 1 1) in
  exists s0 s r, build alg b = Ok s0 /\ reached alg None 1 0 s0 s0 /\ rc (i_sol s0) = RContinue /\
    step alg None 1 s0 = Ok (s, r) /\ ts (i_sol s) <> ts (i_sol s0) /\ i_t s <> i_t s0.
Proof.
  intros b. destruct (rest_one inf 1 ltac:(lra)) as (s0 & s1 & Hb & H & E1 & E2 & E3 & _ & _ & _ & _ & _ & _ & E10).
  destruct (radau_build_ok b) as (t0 & Hb'). exists t0.
  pose proof (dense_on (r_rest inf 0 1 1) 1 1 s0 t0 Hb Hb') as Hs.
  assert (same_results s0 t0) as Hs0 by exact (dense_on (r_rest inf 0 1 1) 1 0 s0 t0 Hb Hb').
  cbn [steps_n] in Hs. cbn [Cache Radau5] in *. rewrite H in Hs. cbn [bind same_outcome] in Hs.
  match type of Hs with match bind ?st _ with _ => _ end => destruct st as [[s r]| |] eqn:E end; cbn [bind same_outcome] in Hs; try contradiction.
  exists s, r. destruct Hs as (_ & Ht & _ & _ & _ & _ & Hsol & _). destruct Hs0 as (_ & Ht0 & _ & _ & _ & _ & Hsol0 & _).
  pose proof (radau_build_inv _ _ Hb) as B.
  assert (i_t s0 = 0%R) as Z0 by exact (rb_t _ _ B).
  split; [exact Hb'|]. split; [constructor|]. split; [rewrite Hsol0; exact E10|]. split; [reflexivity|]. split.
  - rewrite Hsol, Hsol0. intros E'. apply (f_equal (@length _)) in E'. cbn [Cache Radau5] in *. rewrite E1 in E'.
    rewrite (f_equal ts (rb_sol _ _ B)) in E'. cbn in E'. discriminate.
  - rewrite Ht, Ht0, E3, Z0. change (num (RA inf)) with R. lra.
Qed.
End RestDense.
