(** Runs of the reference description of Radau5 stay close to the solution. *)
From Coq Require Import Reals List Lia Lra Arith Bool.
From RecordUpdate Require Import RecordSet.
From Verif Require Import Arith Vec Core ArithR SpecRK SpecODE SpecLin SpecRadau SpecStage SpecIRK SpecConv RKFacts BigO ConvGlobal RadauRef RadConvLocal.
Import ListNotations RecordSetNotations.
Local Open Scope R_scope.

(** The continued polynomial. *)
Lemma colloc_bound n a z i s : (i < n)%nat -> 0 <= a -> bnd n a z -> 0 <= s ->
  Rabs (colloc z i (1 + s) - comp (st3 z) i) <= 60 * a * (s * (1 + s) ^ 2).
Proof.
  intros Hi Ha Hb Hs. pose proof (Hb 0%nat i Hi) as H1. pose proof (Hb 1%nat i Hi) as H2. pose proof (Hb 2%nat i Hi) as H3.
  cbn [pick] in *. unfold colloc. cbv zeta.
  set (z1 := comp (st1 z) i) in *. set (z2 := comp (st2 z) i) in *. set (z3 := comp (st3 z) i) in *. clearbody z1 z2 z3.
  set (P := s * (1 + s) ^ 2). set (Q := s * (1 + s)).
  assert (s <= Q) by (unfold Q; nra). assert (Q <= P) by (unfold Q, P; nra).
  set (a1 := rad_c 0). set (b1 := rad_c 1).
  set (l1 := (P - b1 * Q) / (a1 * (a1 - b1) * (a1 - 1))).
  set (l2 := (P - a1 * Q) / (b1 * (b1 - a1) * (b1 - 1))).
  set (l3 := (P + Q + s - (a1 + b1) * (Q + s) + a1 * b1 * s) / ((1 - a1) * (1 - b1))).
  assert (0 <= P) as HP by lra.
  assert (Rabs l1 <= 20 * P) as L1 by (unfold l1, a1, b1, rad_c; absd).
  assert (Rabs l2 <= 20 * P) as L2 by (unfold l2, a1, b1, rad_c; absd).
  assert (Rabs l3 <= 20 * P) as L3 by (unfold l3, a1, b1, rad_c; absd).
  match goal with |- Rabs ?e <= _ => replace e with (z1 * l1 + z2 * l2 + z3 * l3) end.
  2:{ unfold l1, l2, l3, P, Q, a1, b1, rad_c. field. }
  assert (forall v l, Rabs v <= a -> Rabs l <= 20 * P -> Rabs (v * l) <= a * (20 * P)) as Hv.
  { intros v l Hv Hl. rewrite Rabs_mult. apply Rmult_le_compat; try apply Rabs_pos; assumption. }
  pose proof (Hv _ _ H1 L1). pose proof (Hv _ _ H2 L2). pose proof (Hv _ _ H3 L3).
  eapply Rle_trans; [apply Rabs_triang|]. eapply Rle_trans; [apply Rplus_le_compat_r; apply Rabs_triang|]. lra.
Qed.

Lemma newton_passes {inf : R} (o : opts (RA inf)) n f t u h m k e0 q th c w z r : newton_from n f o t u h m k e0 q th c w z r ->
  match r with Converged k' _ _ _ => (1 <= k')%nat /\ (0 < iters o)%nat | Failed _ _ _ _ => True end.
Proof. intros H. induction H; try exact I; [split; lia|assumption]. Qed.
Lemma Rpower_conv c : c <= 99 -> 0 <= Rpower (Rmax c (/ IZR (2 ^ 52))) (8/10) <= 99.
Proof.
  intros Hc. split; [left; apply exp_pos|]. set (x := Rmax _ _).
  assert (0 < / IZR (2 ^ 52) <= 1) as He.
  { assert (1 <= IZR (2 ^ 52)) by (apply IZR_le; lia). split; [apply Rinv_0_lt_compat; lra|].
    rewrite <- Rinv_1. apply Rinv_le_contravar; lra. }
  assert (0 < x <= 99) as Hx by (unfold x; split; [eapply Rlt_le_trans; [|apply Rmax_r]; lra|apply Rmax_lub; lra]).
  apply Rle_trans with (Rpower 99 (8/10)).
  - unfold Rpower. destruct (Rle_lt_or_eq_dec x 99 ltac:(lra)) as [Hlt| ->]; [|lra].
    left. apply exp_increasing. apply Rmult_lt_compat_l; [lra|]. apply ln_increasing; lra.
  - rewrite <- (Rpower_1 99) at 2 by lra. apply Rle_Rpower; lra.
Qed.

Lemma judge_factor {inf : R} (o : opts (RA inf)) k e e0 q th c c' factor nj : judge o k e e0 q th c = Stop c' factor nj -> 0 < factor < 1.
Proof.
  unfold judge. destruct (_ && _); [|discriminate]. cbv zeta.
  match goal with |- context [if ?a then _ else _] => match type of a with {_ < 99/100} + {_} => destruct a end end;
    [|intros [= _ <- _]; lra].
  match goal with |- context [Rle_dec 1 ?s] => set (slow := s); destruct (Rle_dec 1 slow) as [Hs|Hs] end; [|discriminate].
  intros [= _ <- _].
  set (y := Rmax (1/10000) (Rmin 20 slow)).
  assert (1 <= y) as Hy by (eapply Rle_trans; [|apply Rmax_r]; apply Rmin_glb; lra).
  set (a := INR (4 + iters o - 1 - k)).
  assert (-1 / a <= 0) as Hx.
  { assert (0 <= a) as Ha' by apply pos_INR. destruct (Req_dec a 0) as [->|Hn].
    - unfold Rdiv. rewrite Rinv_0. lra.
    - assert (0 < / a) by (apply Rinv_0_lt_compat; lra). unfold Rdiv. nra. }
  assert (Rpower y (-1 / a) <= 1).
  { unfold Rpower. rewrite <- exp_0. destruct (Req_dec (-1 / a * ln y) 0) as [->|Hn]; [apply Rle_refl|].
    left. apply exp_increasing. assert (0 <= ln y) by (rewrite <- ln_1; destruct Hy as [Hy| <-]; [left; apply ln_increasing; lra|apply Rle_refl]). nra. }
  change (0 < 8 / 10 * Rpower y (-1 / a) < 1). assert (0 < Rpower y (-1 / a)) by apply exp_pos. lra.
Qed.
Lemma newton_factor {inf : R} (o : opts (RA inf)) n f t u h m k e0 q th c w z r : newton_from n f o t u h m k e0 q th c w z r ->
  match r with Failed _ _ factor _ => 0 < factor < 1 | _ => True end.
Proof. intros H. induction H; try exact I; try assumption; [lra|]. eapply judge_factor. eassumption. Qed.
Lemma quotient_refuse {inf : R} (o : opts (RA inf)) e k : radau_sane o -> 1 <= e -> (1 <= k)%nat -> 1 < quotient o e k.
Proof.
  intros Hsane He Hk. unfold quotient, clamp. destruct Hsane as [(S1 & S2) Hl Hf _ _].
  eapply Rlt_le_trans; [|apply Rmax_r]. apply Rmin_glb_lt; [exact Hl|].
  set (d := Rmin _ _).
  assert (0 < d) as Hd.
  { unfold d. apply Rmin_glb_lt; [exact S1|]. apply Rdiv_lt_0_compat; [apply Rmult_lt_0_compat; [exact S1|]|]; apply lt_0_INR; lia. }
  assert (d < 1) as Hd1 by (eapply Rle_lt_trans; [apply Rmin_l|exact S2]).
  assert (1 <= Rpower e (1/4)) as Hp.
  { apply (Rle_trans _ (Rpower e 0)); [rewrite Rpower_O by lra; apply Rle_refl|]. destruct He as [He| <-].
    - left. apply Rpower_lt; lra.
    - unfold Rpower. rewrite ln_1, !Rmult_0_r. apply Rle_refl. }
  apply (Rmult_lt_reg_r d); [exact Hd|]. unfold Rdiv. rewrite Rmult_assoc, Rinv_l by lra. lra.
Qed.

Section Run.
Context {inf : R} (n : nat) (f : R -> list R -> list R) (Jac : R -> list R -> list (list R)) (o : opts (RA inf))
        (t0 tf : R) (y : R -> list R) (L B M BJ : R).
Hypothesis HL0 : 0 <= L.
Hypothesis HB0 : 0 <= B.
Hypothesis HM0 : 0 <= M.
Hypothesis HBJ : 0 <= BJ.
Hypothesis Hlen : forall t, length (y t) = n.
Hypothesis Hsol : forall i t, (i < n)%nat -> t0 <= t <= tf ->
    derivable_pt_lim (fun s => comp (y s) i) t (comp (f t (y t)) i).
Hypothesis Hslope : forall s t, t0 <= s <= tf -> t0 <= t <= tf ->
    close n (B * Rabs (s - t)) (f s (y s)) (f t (y t)).
Hypothesis Hlip : forall t u v d,
    t0 <= t <= tf -> length u = n -> length v = n -> close n d u v -> close n (L * d) (f t u) (f t v).
Hypothesis HM : forall t i, t0 <= t <= tf -> (i < n)%nat -> Rabs (comp (f t (y t)) i) <= M.
Definition jac_small (J : list (list R)) : Prop := forall i j, (i < n)%nat -> (j < n)%nat -> Rabs (entry J i j) <= BJ.
Hypothesis HJac : forall t u, t0 <= t <= tf -> length u = n -> jac_small (Jac t u).
Hypothesis Hn : (0 < n)%nat.
Hypothesis Hsane : radau_sane o.
Hypothesis Hatol : 0 < atol o.
Hypothesis Hrtol : 0 <= rtol o.

Notation Cw := (cst_w n L B M BJ).
Definition rho1 : R := / o_facr o / o_quot1 o.
Definition rho : R := 10001/10000 * rho1.
Definition cst_g : R := 60 * (1 + rho) ^ 2 * Cw.
Definition cst_A : R := Cw + 6 * cst_g.
Notation C2 := (cst_2 n L B M BJ cst_A).
Notation Cd := (cst_d n L B M BJ cst_A).

Context (H : R) (E : R -> R).
Hypothesis HH : 0 < H.
Hypothesis HS1 : 10001/10000 * H <= 1.
Hypothesis HS2 : cst_A * (10001/10000 * H) <= 1.
Hypothesis HS3 : 10001/10000 * H * (INR n * BJ) <= / 2.
Hypothesis HE0 : forall t, t0 <= t -> 0 <= E t.
Hypothesis HEm : forall s t, t0 <= s -> s <= t -> E s <= E t.
Hypothesis HEs : forall t h, t0 <= t -> 0 < h <= H -> t + h <= tf ->
  E t + h * (/ 10 ^ 16 * M + 6 * L * E t + C2 * (h * (1 + E t))) + B * h ^ 2 <= E (t + h).
Hypothesis HN : 99 * (Cd * (10001/10000 * H * (1 + E tf)) / atol o) <= newton_tol o.

Lemma rho1_1 : 1 <= rho1.
Proof.
  destruct Hsane as [_ _ Hf Hq _]. unfold rho1.
  assert (1 <= / o_facr o) by (rewrite <- Rinv_1; apply Rinv_le_contravar; lra).
  assert (1 <= / o_quot1 o) by (rewrite <- Rinv_1; apply Rinv_le_contravar; lra). unfold Rdiv. nra.
Qed.
Lemma Cw_pos : 0 <= Cw.
Proof. now apply cst_w_pos. Qed.
Lemma cst_g_pos : 0 <= cst_g.
Proof. unfold cst_g. pose proof Cw_pos. apply Rmult_le_pos; [|assumption]. apply Rmult_le_pos; [lra|apply pow2_ge_0]. Qed.
Lemma cst_A_w : Cw <= cst_A.
Proof. unfold cst_A. pose proof cst_g_pos. lra. Qed.

(** What is true of the reference while a step is being tried. *)
Record inv (x : rpilot) : Prop := {
  v_len : length (p_u x) = n;
  v_t : t0 <= p_t x <= tf;
  v_close : close n (E (p_t x)) (p_u x) (y (p_t x));
  v_jac : jac_small (p_jac x);
  v_conv : p_conv x <= 99;
  v_h : 0 < p_h x;
  v_last : p_last x = true -> p_h x = tf - p_t x;
  v_in : p_last x = false -> p_t x + p_h x < tf;
  v_prev : accepts (p_stats x) <> 0%nat ->
    0 < p_hprev x /\ bnd n (Cw * (p_hprev x * (1 + E (p_t x)))) (p_z x) /\ p_h x <= rho * p_hprev x;
  v_mat : forall m, p_mat x = Some m -> 0 < fst m <= p_h x /\ p_h x <= 10001/10000 * fst m /\ fst m <= H /\
    (p_last x = true \/ fst m = p_h x) /\ jac_small (snd m) /\ (0 < iters o)%nat }.
(** And between steps. *)
Record btw (x : rpilot) : Prop := {
  w_len : length (p_u x) = n;
  w_t : t0 <= p_t x < tf;
  w_close : close n (E (p_t x)) (p_u x) (y (p_t x));
  w_jac : jac_small (p_jac x);
  w_conv : p_conv x <= 99;
  w_h : 0 < p_h x;
  w_last : p_last x = true -> p_h x = tf - p_t x;
  w_prev : accepts (p_stats x) <> 0%nat ->
    0 < p_hprev x /\ bnd n (Cw * (p_hprev x * (1 + E (p_t x)))) (p_z x) /\ p_h x <= rho1 * p_hprev x;
  w_mat : forall m, p_mat x = Some m -> fst m = p_h x /\ p_h x <= H /\ p_t x + p_h x < tf /\
    jac_small (snd m) /\ (0 < iters o)%nat }.

Lemma aimed_inv x : btw x -> inv (aimed tf x).
Proof.
  intros [W1 W2 W3 W4 W5 W6 W7 W8 W9]. unfold aimed. pose proof rho1_1 as Hr.
  destruct (Rle_dec tf (p_t x + p_h x * (10001/10000))) as [Hle|Hgt].
  - constructor; cbn; try assumption; try lra; try discriminate.
    + intros Ha. destruct (W8 Ha) as (A1 & A2 & A3). split; [exact A1|]. split; [exact A2|].
      unfold rho. nra.
    + intros m Em. destruct (W9 m Em) as (A1 & A2 & A3 & A4 & A5). rewrite A1. repeat split; try lra; try assumption; try (now left).
  - assert (p_last x = false) as El. { destruct (p_last x); [|reflexivity]. specialize (W7 eq_refl). exfalso. apply Hgt. lra. }
    constructor; cbn; try assumption; try lra; try (now rewrite El).
    + intros Ha. destruct (W8 Ha) as (A1 & A2 & A3). split; [exact A1|]. split; [exact A2|].
      unfold rho. assert (0 <= rho1 * p_hprev x) by (apply Rmult_le_pos; lra). lra.
    + intros m Em. destruct (W9 m Em) as (A1 & A2 & A3 & A4 & A5). rewrite A1. repeat split; try lra; try assumption; try (now right).
Qed.

(** The matrices used. *)
Definition mok (x : rpilot) (m : R * list (list R)) : Prop :=
  0 < fst m <= p_h x /\ p_h x <= 10001/10000 * fst m /\ (p_last x = true \/ fst m = p_h x) /\ jac_small (snd m) /\
  (p_mat x = None \/ p_h x <= 10001/10000 * H /\ (0 < iters o)%nat).
Lemma matrices_inv x x' r : matrices n Jac x x' r -> inv x ->
  inv x' /\ p_t x' = p_t x /\ p_u x' = p_u x /\ match r with Some m => mok x' m | None => p_code x' <> RContinue end.
Proof.
  induction 1 as [x m Em|x Em R|x Em R S|x x' r Em R S _ IH]; intros V.
  - destruct (v_mat x V m Em) as (A1 & A2 & A3 & A4 & A5 & A6). split; [exact V|]. split; [reflexivity|]. split; [reflexivity|].
    split; [exact A1|]. split; [exact A2|]. split; [exact A4|]. split; [exact A5|]. right. split; [lra|exact A6].
  - destruct V as [V1 V2 V3 V4 V5 V6 V7 V8 V9 V10]. split; [constructor; cbn; assumption|]. split; [reflexivity|]. split; [reflexivity|].
    unfold mok. cbn. split; [lra|]. split; [lra|]. split; [now right|]. split; [exact V4|]. now left.
  - destruct V as [V1 V2 V3 V4 V5 V6 V7 V8 V9 V10]. split; [constructor; cbn; assumption|]. split; [reflexivity|]. split; [reflexivity|].
    discriminate.
  - destruct V as [V1 V2 V3 V4 V5 V6 V7 V8 V9 V10].
    assert (p_t x + p_h x <= tf) as Hin by (destruct (p_last x); [specialize (V7 eq_refl); lra|specialize (V8 eq_refl); lra]).
    apply IH. constructor; cbn; try assumption; try lra; try discriminate.
    + now apply HJac.
    + intros Ha. destruct (V9 Ha) as (A1 & A2 & A3). repeat split; try assumption. lra.
    + rewrite Em. discriminate.
Qed.

Lemma guess_bound x : inv x -> bnd n (cst_g * (p_h x * (1 + E (p_t x)))) (guess n o x).
Proof.
  intros V. pose proof (v_h x V) as Hh. pose proof (HE0 (p_t x) ltac:(apply (v_t x V))) as HE.
  assert (0 <= p_h x * (1 + E (p_t x))) as Hhg by (apply Rmult_le_pos; lra). pose proof cst_g_pos as Hg0. pose proof Cw_pos as Hw0.
  unfold guess. destruct (first_step x || negb (o_use_ext_col o)) eqn:Ef.
  - intros k i Hi. rewrite pick_stages by exact Hi. rewrite Rabs_R0. now apply Rmult_le_pos.
  - apply orb_false_iff in Ef as (Ef & _). unfold first_step in Ef. apply Nat.eqb_neq in Ef.
    destruct (v_prev x V Ef) as (A1 & A2 & A3). intros k i Hi. rewrite pick_stages by exact Hi.
    assert (forall j, 0 <= rad_c j <= 1) as Hc by (intros [|[|j]]; unfold rad_c; lra).
    set (k' := match k with O => O | 1%nat => 1%nat | _ => 2%nat end).
    set (q := p_h x / p_hprev x). assert (p_h x = q * p_hprev x) as Eq by (unfold q; field; lra).
    assert (0 < q) as Hq by (unfold q; now apply Rdiv_lt_0_compat).
    assert (q <= rho) as Hqr by (apply Rmult_le_reg_r with (p_hprev x); [lra|]; lra).
    assert (0 <= rad_c k' * q <= q) as Hcq by (specialize (Hc k'); nra).
    assert (0 <= Cw * (p_hprev x * (1 + E (p_t x)))) as Ha0 by (apply Rmult_le_pos; [exact Hw0|]; apply Rmult_le_pos; lra).
    eapply Rle_trans; [apply (colloc_bound n (Cw * (p_hprev x * (1 + E (p_t x)))) (p_z x) i (rad_c k' * q) Hi Ha0 A2 (proj1 Hcq))|].
    unfold cst_g. rewrite Eq.
    assert (rad_c k' * q * (1 + rad_c k' * q) ^ 2 <= q * (1 + rho) ^ 2) as HP.
    { apply Rmult_le_compat; try lra; [apply pow2_ge_0|]. apply pow_incr. lra. }
    replace (60 * (1 + rho) ^ 2 * Cw * (q * p_hprev x * (1 + E (p_t x))))
      with (60 * (Cw * (p_hprev x * (1 + E (p_t x)))) * (q * (1 + rho) ^ 2)) by ring.
    apply Rmult_le_compat_l; [lra|exact HP].
Qed.
Lemma guess_start x : inv x -> bnd n (cst_A * (p_h x * (1 + E (p_t x)))) (guess n o x) /\
  bnd n (cst_A * (p_h x * (1 + E (p_t x)))) (stages n (mixed rad_TI (guess n o x))).
Proof.
  intros V. pose proof (guess_bound x V) as G. pose proof (v_h x V) as Hh. pose proof (HE0 (p_t x) ltac:(apply (v_t x V))) as HE.
  assert (0 <= p_h x * (1 + E (p_t x))) as Hhg by (apply Rmult_le_pos; lra). pose proof cst_g_pos as Hg0. pose proof Cw_pos as Hw0.
  assert (0 <= cst_g * (p_h x * (1 + E (p_t x))) /\ 0 <= Cw * (p_h x * (1 + E (p_t x)))) as (G0 & G1) by (split; now apply Rmult_le_pos).
  split.
  - apply (bnd_le n (cst_g * (p_h x * (1 + E (p_t x))))); [unfold cst_A; lra|exact G].
  - intros k i Hi. rewrite pick_stages by exact Hi. unfold mixed. rewrite rsum3.
    eapply Rle_trans; [apply TI_bound; [exact (G 0%nat i Hi)|exact (G 1%nat i Hi)|exact (G 2%nat i Hi)]|]. unfold cst_A. lra.
Qed.

(** A step that is not too long. *)
Lemma small_step x m : inv x -> mok x m -> p_h x <= 10001/10000 * H ->
  t0 <= p_t x /\ 0 < p_h x <= 1 /\ p_t x + p_h x <= tf /\ cst_A * p_h x <= 1 /\ p_h x * (INR n * BJ) <= / 2.
Proof.
  intros V K Hh. pose proof (v_h x V). pose proof (v_t x V). pose proof Cw_pos. pose proof cst_A_w.
  split; [lra|]. split; [lra|]. split.
  { destruct (p_last x) eqn:El; [pose proof (v_last x V El); lra|pose proof (v_in x V El); lra]. }
  split.
  - eapply Rle_trans; [|exact HS2]. apply Rmult_le_compat_l; lra.
  - eapply Rle_trans; [|exact HS3]. apply Rmult_le_compat_r; [|lra]. apply Rmult_le_pos; [apply pos_INR|lra].
Qed.
Lemma newton_ok x m r : inv x -> mok x m -> p_h x <= 10001/10000 * H -> newton_result n f o x m r ->
  match r with
  | Converged _ _ _ z => settled n f y L B M BJ cst_A (p_t x) (p_h x) (E (p_t x)) m z
  | Failed _ _ _ _ => p_mat x = None end.
Proof.
  intros V K Hh (q & Hr). destruct (small_step x m V K Hh) as (S1 & S2 & S3 & S4 & S5).
  destruct (guess_start x V) as (G1 & G2). destruct K as (K1 & K2 & K3 & K4 & K5).
  pose proof (HE0 (p_t x) S1) as HE.
  pose proof (newton_local n f t0 tf y L B M BJ HL0 HB0 HM0 HBJ Hlen Hsol Hslope Hlip HM cst_A cst_A_w (p_t x) (p_u x) (p_h x)
    (E (p_t x)) m S1 S2 S3 K1 K4 (v_len x V) HE (v_close x V) S4 S5 o _ _ _ _ _ _ _ _ Hr G2 G1) as HL.
  destruct r as [k th c z|k c factor nj]; [exact HL|]. destruct K5 as [K5|[_ K5]]; [exact K5|]. exfalso.
  refine (newton_first n f t0 tf y L B M BJ HL0 HB0 HM0 HBJ Hlen Hsol Hslope Hlip HM cst_A cst_A_w (p_t x) (p_u x) (p_h x)
    (E (p_t x)) m S1 S2 S3 K1 K4 (v_len x V) HE (v_close x V) S4 S5 o _ _ _ _ _ _ _ Hr G2 G1 Hn K5 _ Hatol Hrtol _).
  - apply Rpower_conv. apply (v_conv x V).
  - eapply Rle_trans; [|exact HN]. apply Rmult_le_compat_l; [lra|]. unfold Rdiv. apply Rmult_le_compat_r; [left; now apply Rinv_0_lt_compat|].
    apply Rmult_le_compat_l.
    { unfold cst_d. pose proof Cw_pos. pose proof cst_A_w. pose proof (pos_INR n).
      assert (0 <= INR n * cst_A) by (apply Rmult_le_pos; lra). lra. }
    assert (E (p_t x) <= E tf) by (apply HEm; [exact S1|apply (v_t x V)]). apply Rmult_le_compat; lra.
Qed.
(** The error after a step. *)
Lemma step_close x m z : inv x -> mok x m -> p_h x <= H ->
  settled n f y L B M BJ cst_A (p_t x) (p_h x) (E (p_t x)) m z ->
  let u' := vect n (fun i => comp (p_u x) i + comp (st3 z) i) in
  close n (E (p_t x + p_h x) + H * M) u' (y (p_t x + p_h x)) /\
  (p_last x = false -> close n (E (p_t x + p_h x)) u' (y (p_t x + p_h x))).
Proof.
  intros V K Hh (Z1 & Z2) u'. destruct (small_step x m V K ltac:(lra)) as (S1 & S2 & S3 & S4 & S5).
  destruct K as (K1 & K2 & K3 & K4 & K5).
  pose proof (HEs (p_t x) (p_h x) S1 ltac:(lra) S3) as HS.
  assert (forall i, (i < n)%nat -> Rabs (comp u' i - comp (y (p_t x + p_h x)) i) <= E (p_t x + p_h x) + (p_h x - fst m) * M) as Hmain.
  { intros i Hi. unfold u'. rewrite comp_vect by exact Hi.
    pose proof (v_close x V i Hi) as Hc. pose proof (Z2 i Hi) as Hz.
    pose proof (sol_taylor n f t0 tf y B HB0 Hsol Hslope (p_t x) (p_h x) i S1 ltac:(lra) S3 Hi) as Ht.
    pose proof (HM (p_t x) i ltac:(lra) Hi) as HMi.
    set (ph := comp (f (p_t x) (y (p_t x))) i) in *.
    assert (Rabs ((p_h x - fst m) * ph) <= (p_h x - fst m) * M) as Hx.
    { rewrite Rabs_mult, (Rabs_pos_eq (p_h x - fst m)) by lra. apply Rmult_le_compat_l; lra. }
    match goal with |- Rabs ?e <= _ => replace e with ((comp (p_u x) i - comp (y (p_t x)) i) + (comp (st3 z) i - fst m * ph)
      + (- ((p_h x - fst m) * ph)) + (- (comp (y (p_t x + p_h x)) i - comp (y (p_t x)) i - p_h x * ph))) by ring end.
    eapply Rle_trans; [apply Rabs_triang|]. eapply Rle_trans; [apply Rplus_le_compat_r; apply Rabs_triang|].
    eapply Rle_trans; [apply Rplus_le_compat_r, Rplus_le_compat_r; apply Rabs_triang|]. rewrite !Rabs_Ropp. lra. }
  split.
  - intros i Hi. eapply Rle_trans; [apply Hmain; exact Hi|]. apply Rplus_le_compat_l. apply Rmult_le_compat_r; lra.
  - intros El i Hi. eapply Rle_trans; [apply Hmain; exact Hi|]. destruct K3 as [K3|K3]; [congruence|]. rewrite K3. lra.
Qed.

Definition fine (x : rpilot) : Prop :=
  (p_code x = RContinue -> btw x) /\ close n (E (p_t x) + H * M) (p_u x) (y (p_t x)) /\ t0 <= p_t x <= tf.
Lemma inv_fine x : inv x -> p_code x <> RContinue -> fine x.
Proof.
  intros V Hc. split; [intros E0; now destruct Hc|]. split; [|apply (v_t x V)].
  intros i Hi. eapply Rle_trans; [apply (v_close x V i Hi)|]. assert (0 <= H * M) by (apply Rmult_le_pos; lra). lra.
Qed.
Lemma inv_stats x k1 k2 k3 : inv x -> inv (x <| p_stats; steps ::= k1 |> <| p_stats; function_evals ::= k2 |> <| p_stats; linear_solves ::= k3 |>).
Proof. intros [V1 V2 V3 V4 V5 V6 V7 V8 V9 V10]. constructor; cbn; assumption. Qed.

Lemma predicted_facr x e k : o_facr o <= predicted o x e k.
Proof.
  assert (forall q, o_facr o <= clamp o q) as Hc by (intros q; apply Rmax_l).
  unfold predicted. destruct (_ && _); [|apply Hc]. eapply Rle_trans; [|apply Rmax_l]. apply Hc.
Qed.
Lemma accept_fine x m z e th k : inv x -> mok x m -> p_h x <= H -> (0 < iters o)%nat ->
  settled n f y L B M BJ cst_A (p_t x) (p_h x) (E (p_t x)) m z -> fine (accept n Jac o tf x m z e th k).
Proof.
  intros V K Hh Hit Z. pose proof (step_close x m z V K Hh Z) as Hc. cbv zeta in Hc.
  destruct (small_step x m V K ltac:(lra)) as (S1 & S2 & S3 & S4 & S5).
  unfold accept. cbv zeta. destruct (p_last x) eqn:El.
  - split; [discriminate|]. cbn. split; [apply Hc|]. lra.
  - pose proof (v_in x V El) as Hlt. destruct Hc as (Hc1 & Hc2). specialize (Hc2 eq_refl).
    assert (t0 <= p_t x + p_h x <= tf) as Ht' by lra. assert (p_t x <= p_t x + p_h x) as Htt by lra.
    set (t' := p_t x + p_h x) in *. set (u' := vect n _) in *.
    set (h1 := Rmin (p_h x / predicted o x e k) (o_dtmax o)).
    set (h' := if p_again x then Rmin h1 (p_h x) else h1).
    set (jac := if Rlt_dec (o_theta o) th then Jac t' u' else p_jac x).
    assert (jac_small jac) as Hj. { unfold jac. destruct (Rlt_dec _ _); [apply HJac; [assumption|apply vect_length]|apply (v_jac x V)]. }
    destruct Hsane as [Hs1 Hs2 Hf Hq Hd]. pose proof (predicted_facr x e k) as Hp.
    assert (0 < h1 <= p_h x / o_facr o) as Hh1.
    { split.
      - unfold h1. apply Rmin_glb_lt; [apply Rdiv_lt_0_compat; lra|exact Hd].
      - eapply Rle_trans; [apply Rmin_l|]. unfold Rdiv. apply Rmult_le_compat_l; [lra|]. apply Rinv_le_contravar; lra. }
    assert (0 < h' <= p_h x / o_facr o) as Hh'.
    { unfold h'. destruct (p_again x); [|exact Hh1]. split; [apply Rmin_glb_lt; lra|]. eapply Rle_trans; [apply Rmin_l|lra]. }
    assert (h' / o_quot1 o <= rho1 * p_h x) as Hr.
    { unfold rho1, Rdiv. replace (/ o_facr o * / o_quot1 o * p_h x) with (p_h x / o_facr o * / o_quot1 o) by (unfold Rdiv; ring).
      apply Rmult_le_compat_r; [left; apply Rinv_0_lt_compat; lra|lra]. }
    assert (h' <= h' / o_quot1 o) as Hq1.
    { assert (1 <= / o_quot1 o) by (rewrite <- Rinv_1; apply Rinv_le_contravar; lra). unfold Rdiv. nra. }
    pose proof rho1_1 as Hr1.
    assert (bnd n (Cw * (p_h x * (1 + E t'))) z) as Hz.
    { apply (bnd_le n (Cw * (p_h x * (1 + E (p_t x))))); [|apply Z]. apply Rmult_le_compat_l; [apply Cw_pos|].
      apply Rmult_le_compat_l; [lra|]. assert (E (p_t x) <= E t') by (apply HEm; assumption). lra. }
    destruct (Rle_dec tf (t' + h' / o_quot1 o)) as [Hle|Hgt].
    + split; [intros _|cbn; split; [exact Hc1|lra]].
      constructor; cbn; try assumption; try lra; try discriminate; try apply vect_length; try apply (v_conv x V).
      intros _. split; [lra|]. split; [exact Hz|]. lra.
    + destruct (andb _ _) eqn:Ek.
      * apply andb_true_iff in Ek as (Ek & _). apply andb_true_iff in Ek as (_ & Ek).
        assert (o_quot1 o <= h' / p_h x) as Hkq. { unfold Rleb in Ek. destruct (Rle_dec (o_quot1 o) (h' / p_h x)); [assumption|discriminate]. }
        assert (p_h x <= h' / o_quot1 o) as Hph.
        { apply Rmult_le_reg_r with (o_quot1 o); [lra|]. unfold Rdiv. rewrite (Rmult_assoc h'), Rinv_l by lra.
          apply Rmult_le_compat_r with (r := p_h x) in Hkq; [|lra]. unfold Rdiv in Hkq. rewrite Rmult_assoc, Rinv_l in Hkq by lra. lra. }
        destruct K as (K1 & K2 & K3 & K4 & K5). destruct K3 as [K3|K3]; [congruence|].
        split; [intros _|cbn; split; [exact Hc1|lra]].
        constructor; cbn; try assumption; try lra; try discriminate; try apply vect_length; try apply (v_conv x V); try apply (v_jac x V).
        -- rewrite El. discriminate.
        -- intros _. split; [lra|]. split; [exact Hz|]. nra.
        -- intros m' [= <-]. split; [exact K3|]. split; [exact Hh|]. split; [lra|]. split; [exact K4|exact Hit].
      * split; [intros _|cbn; split; [exact Hc1|lra]].
        constructor; cbn; try assumption; try lra; try discriminate; try apply vect_length; try apply (v_conv x V).
        -- rewrite El. discriminate.
        -- intros _. split; [lra|]. split; [exact Hz|]. lra.
Qed.
Lemma attempt_fine x x' b : attempt n f Jac o tf x x' b -> inv x ->
  if b then p_t x' - p_t x <= H -> fine x' else inv x' /\ p_t x' = p_t x.
Proof.
  intros Ha V. destruct Ha as [x' Hm|x' m Hm x2 _|x' m Hm x2 _ _|x' m k c factor nj Hm x2 _ _ Hr|x' m k th c z e fe Hm x2 _ _ Hr He x3].
  - destruct (matrices_inv _ _ _ Hm V) as (V' & _ & _ & Hc). intros _. now apply inv_fine.
  - destruct (matrices_inv _ _ _ Hm V) as (V' & _). destruct V' as [V1 V2 V3 V4 V5 V6 V7 V8 V9 V10].
    intros _. apply inv_fine; [constructor; cbn; assumption|discriminate].
  - destruct (matrices_inv _ _ _ Hm V) as (V' & _). destruct V' as [V1 V2 V3 V4 V5 V6 V7 V8 V9 V10].
    intros _. apply inv_fine; [constructor; cbn; assumption|discriminate].
  - destruct (matrices_inv _ _ _ Hm V) as (V' & Et & Eu & K).
    assert (p_mat x2 = None) as Em.
    { destruct K as (K1 & K2 & K3 & K4 & [K5|[K5 K6]]) eqn:EK; [exact K5|].
      assert (inv x2) as V2 by (destruct V' as [V1 V2 V3 V4 V5 V6 V7 V8 V9 V10]; constructor; cbn; assumption).
      exact (newton_ok x2 m _ V2 K K5 Hr). }
    destruct Hr as (q & Hr). pose proof (newton_factor _ _ _ _ _ _ _ _ _ _ _ _ _ _ _ Hr) as Hf. cbn in Hf.
    pose proof (newton_conv _ _ _ _ _ _ _ _ _ _ _ _ _ _ _ Hr) as Hcv. cbn in Hcv.
    destruct V' as [V1 V2 V3 V4 V5 V6 V7 V8 V9 V10]. cbn in *.
    specialize (Hcv (proj2 (Rpower_conv _ V5))).
    assert (0 < p_h x' * factor < p_h x') as Hs by nra.
    split; [|exact Et]. constructor; cbn; try assumption; try lra; try discriminate.
    + destruct nj; [now apply HJac|assumption].
    + intros _. destruct (p_last x'); [specialize (V7 eq_refl); lra|specialize (V8 eq_refl); lra].
    + intros Ha. destruct (V9 Ha) as (A1 & A2 & A3). repeat split; try assumption. lra.
    + rewrite Em. discriminate.
  - destruct (matrices_inv _ _ _ Hm V) as (V' & Et & Eu & K).
    assert (inv x2) as V2 by (destruct V' as [V1 V2 V3 V4 V5 V6 V7 V8 V9 V10]; constructor; cbn; assumption).
    pose proof Hr as Hr0. destruct Hr0 as (q & Hr0).
    pose proof (newton_passes _ _ _ _ _ _ _ _ _ _ _ _ _ _ _ Hr0) as (Hk & Hit).
    pose proof (newton_conv _ _ _ _ _ _ _ _ _ _ _ _ _ _ _ Hr0 (proj2 (Rpower_conv _ (v_conv x2 V2)))) as Hcv. cbn in Hcv.
    assert (inv x3) as V3 by (destruct V2 as [V1 V2 V3 V4 V5 V6 V7 V8 V9 V10]; constructor; cbn; assumption).
    destruct (Rlt_dec e 1) as [Hlt|Hge].
    + intros Hg. assert (p_h x3 <= H) as Hh.
      { revert Hg. unfold accept. cbv zeta. destruct (p_last x3); [|destruct (Rle_dec _ _); [|destruct (andb _ _)]]; cbn; rewrite Et; lra. }
      apply accept_fine; try assumption. exact (newton_ok x2 m _ V2 K ltac:(cbn in *; lra) Hr).
    + pose proof (quotient_refuse o e k Hsane ltac:(lra) Hk) as Hq.
      assert (0 < (if first_step x3 then p_h x3 / 10 else p_h x3 / quotient o e k) < p_h x3) as Hs.
      { pose proof (v_h x3 V3) as Hh. destruct (first_step x3); [lra|]. split; [apply Rdiv_lt_0_compat; lra|].
        apply Rmult_lt_reg_r with (quotient o e k); [lra|]. unfold Rdiv. rewrite Rmult_assoc, Rinv_l by lra. nra. }
      unfold refuse. set (h' := if first_step x3 then _ else _) in *. clearbody h'.
      assert (accepts (p_stats x3) = accepts (p_stats x')) as Ea by reflexivity.
      destruct V3 as [W1 W2 W3 W4 W5 W6 W7 W8 W9 W10]. split; [|exact Et].
      assert (p_t x3 + h' < tf) as Hin by (destruct (p_last x3); [specialize (W7 eq_refl); lra|specialize (W8 eq_refl); lra]).
      constructor; cbn; try assumption; try lra; try discriminate.
      * now apply HJac.
      * intros _. exact Hin.
      * intros Ha. destruct (W9 Ha) as (A1 & A2 & A3). repeat split; try assumption. cbn in A3, Hs |- *. lra.
Qed.
Lemma attempts_fine x x' : attempts n f Jac o tf x x' -> inv x -> p_t x' - p_t x <= H -> fine x'.
Proof.
  induction 1 as [x x' Ha|x x1 x' Ha _ IH]; intros V Hg; [exact (attempt_fine _ _ _ Ha V Hg)|].
  destruct (attempt_fine _ _ _ Ha V) as (V1 & Et). apply IH; [exact V1|]. rewrite Et. exact Hg.
Qed.
Lemma aimed_t x : p_t (aimed tf x) = p_t x.
Proof. unfold aimed. now destruct (Rle_dec _ _). Qed.
Lemma step_fine x x' : rad_step n f Jac o tf x x' -> btw x -> p_t x' - p_t x <= H -> fine x'.
Proof.
  intros Hs W Hg. apply (attempts_fine (aimed tf x)); [exact Hs|now apply aimed_inv|]. rewrite aimed_t. exact Hg.
Qed.
End Run.
