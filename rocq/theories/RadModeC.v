(** One step of Radau5 on a single mode [x' = mu x]: complex arithmetic. *)
From Coq Require Import ZArith Reals Lra Lia Arith.
From Coquelicot Require Import Complex.
From Verif Require Import SpecRK SpecRadau SpecStage SpecIRK RadConvLocal.
Local Open Scope R_scope.

Lemma Cmod_sq z : Cmod z ^ 2 = fst z ^ 2 + snd z ^ 2.
Proof. unfold Cmod. apply pow2_sqrt. assert (0 <= fst z ^ 2) by apply pow2_ge_0. assert (0 <= snd z ^ 2) by apply pow2_ge_0. lra. Qed.
Lemma le_sq x y : 0 <= y -> x ^ 2 <= y ^ 2 -> x <= y.
Proof. intros Hy H. destruct (Rle_lt_dec x y); [assumption|]. exfalso. nra. Qed.

Section Step.
Context (z : C) (Hz : fst z <= 0).
Notation g := radau_gamma.
Notation al := rad_alpha.
Notation be := rad_beta.

Lemma near_real : Cmod z <= 2 * Cmod (g - z)%C.
Proof.
  apply le_sq; [pose proof (Cmod_ge_0 (g - z)%C); lra|]. rewrite Rpow_mult_distr, !Cmod_sq. destruct z as (r, t). cbn in *.
  unfold radau_gamma. nra.
Qed.
Lemma near_complex s : s = be \/ s = - be -> Cmod z <= 2 * Cmod ((al, s) - z)%C.
Proof.
  intros Hs. apply le_sq; [pose proof (Cmod_ge_0 ((al, s) - z)%C); lra|]. rewrite Rpow_mult_distr, !Cmod_sq. destruct z as (r, t). cbn in *.
  assert (s * s = be * be) as E by (destruct Hs as [-> | ->]; ring).
  assert (0 <= (3 * t - 4 * s) * (3 * t - 4 * s)) by apply Rle_0_sqr.
  assert (be * be = rad_beta * rad_beta) as E1 by reflexivity.
  unfold rad_alpha. unfold rad_beta in E, E1 at 2. nra.
Qed.
Lemma scaled_bound k w y : (k * w = z * (w + y))%C -> Cmod z <= 2 * Cmod (k - z)%C -> k <> z -> Cmod w <= 2 * Cmod y.
Proof.
  intros E H Hk. assert ((k - z) * w = z * y)%C as E1 by (replace ((k - z) * w)%C with (k * w - z * w)%C by ring; rewrite E; ring).
  assert (0 < Cmod (k - z)%C) as Hp.
  { apply Cmod_gt_0. intros E0. apply Hk. replace k with ((k - z) + z)%C by ring. rewrite E0. ring. }
  apply (f_equal Cmod) in E1. rewrite !Cmod_mult in E1. pose proof (Cmod_ge_0 y).
  apply Rmult_le_reg_l with (Cmod (k - z)%C); [exact Hp|]. rewrite E1. nra.
Qed.
Lemma g_z : RtoC g <> z.
Proof. intros E. rewrite <- E in Hz. cbn in Hz. unfold radau_gamma in Hz. lra. Qed.
Lemma al_z s : (al, s) <> z.
Proof. intros E. rewrite <- E in Hz. cbn in Hz. unfold rad_alpha in Hz. lra. Qed.

(** The transformed stages, from the right-hand sides. *)
Definition stage_eqs (w0 w1 w2 y0 y1 y2 : C) : Prop :=
  (g * w0 = z * (w0 + y0))%C /\ (al * w1 - be * w2 = z * (w1 + y1))%C /\ (be * w1 + al * w2 = z * (w2 + y2))%C.
Lemma half_sum a b c : Cmod (a + b)%C <= c -> Cmod (a - b)%C <= c -> Cmod a <= c /\ Cmod b <= c.
Proof.
  intros H1 H2. split.
  - assert (2 * Cmod a <= 2 * c); [|lra].
    replace (2 * Cmod a) with (Cmod ((a + b) + (a - b))%C).
    + eapply Rle_trans; [apply Cmod_triangle|]. lra.
    + replace ((a + b) + (a - b))%C with (RtoC 2 * a)%C by (unfold RtoC; destruct a, b; cbv [Cplus Cminus Copp Cmult fst snd]; f_equal; ring).
      rewrite Cmod_mult, Cmod_R, Rabs_pos_eq by lra. reflexivity.
  - assert (2 * Cmod b <= 2 * c); [|lra].
    replace (2 * Cmod b) with (Cmod ((a + b) - (a - b))%C).
    + eapply Rle_trans; [apply Cmod_triangle|]. rewrite Cmod_opp. lra.
    + replace ((a + b) - (a - b))%C with (RtoC 2 * b)%C by (unfold RtoC; destruct a, b; cbv [Cplus Cminus Copp Cmult fst snd]; f_equal; ring).
      rewrite Cmod_mult, Cmod_R, Rabs_pos_eq by lra. reflexivity.
Qed.
Lemma Cmod_Ci w : Cmod (Ci * w)%C = Cmod w.
Proof.
  rewrite Cmod_mult. replace (Cmod Ci) with 1; [ring|].
  unfold Cmod, Ci. cbn. replace (0 * (0 * 1) + 1 * (1 * 1)) with 1 by ring. now rewrite sqrt_1.
Qed.
Lemma stage_bound w0 w1 w2 y0 y1 y2 : stage_eqs w0 w1 w2 y0 y1 y2 ->
  Cmod w0 <= 2 * Cmod y0 /\ Cmod w1 <= 2 * (Cmod y1 + Cmod y2) /\ Cmod w2 <= 2 * (Cmod y1 + Cmod y2).
Proof.
  intros (E0 & E1 & E2). split; [exact (scaled_bound _ _ _ E0 near_real g_z)|].
  assert (Cmod (w1 + Ci * w2)%C <= 2 * Cmod (y1 + Ci * y2)%C) as B1.
  { apply (scaled_bound (al, be)); [|apply near_complex; now left|apply al_z].
    replace ((al, be) * (w1 + Ci * w2))%C with ((al * w1 - be * w2) + Ci * (be * w1 + al * w2))%C
      by (destruct w1, w2; unfold Ci, RtoC; cbv [Cplus Cminus Copp Cmult fst snd]; f_equal; ring).
    rewrite E1, E2. ring. }
  assert (Cmod (w1 - Ci * w2)%C <= 2 * Cmod (y1 - Ci * y2)%C) as B2.
  { apply (scaled_bound (al, (- be)%R)); [|apply near_complex; now right|apply al_z].
    replace ((al, (- be)%R) * (w1 - Ci * w2))%C with ((al * w1 - be * w2) - Ci * (be * w1 + al * w2))%C
      by (destruct w1, w2; unfold Ci, RtoC; cbv [Cplus Cminus Copp Cmult fst snd]; f_equal; ring).
    rewrite E1, E2. ring. }
  assert (Cmod (y1 + Ci * y2)%C <= Cmod y1 + Cmod y2) as T1 by (eapply Rle_trans; [apply Cmod_triangle|]; rewrite Cmod_Ci; lra).
  assert (Cmod (y1 - Ci * y2)%C <= Cmod y1 + Cmod y2) as T2 by (eapply Rle_trans; [apply Cmod_triangle|]; rewrite Cmod_opp, Cmod_Ci; lra).
  rewrite <- (Cmod_Ci w2). apply half_sum; lra.
Qed.

(** ** The stability function *)
Definition ti (k : nat) : R := rsum 3 (rad_TI k).
Definition dd0 : R := g * (al ^ 2 + be ^ 2).
Definition dd1 : R := - (2 * al * g + (al ^ 2 + be ^ 2)).
Definition dd2 : R := g + 2 * al.
Definition nn1 : R := dd1 + rad_T 2 0 * ti 0 * (al ^ 2 + be ^ 2) + (al * ti 1 + be * ti 2) * g.
Definition nn2 : R := dd2 - 2 * al * (rad_T 2 0 * ti 0) - ti 1 * g - (al * ti 1 + be * ti 2).
Definition nn3 : R := - 1 + rad_T 2 0 * ti 0 + ti 1.
Definition Dz : C := (dd0 + dd1 * z + dd2 * (z * z) - z * z * z)%C.
Definition Nz : C := (dd0 + nn1 * z + nn2 * (z * z) + nn3 * (z * z * z))%C.

Definition real_sq (c0 c1 c2 c3 r q : R) : R :=
  (c0 - c1 * r + c2 * (r ^ 2 - q) + c3 * (3 * r * q - r ^ 3)) ^ 2 + q * (c1 - 2 * c2 * r + c3 * (3 * r ^ 2 - q)) ^ 2.
Lemma Cmod_poly (c0 c1 c2 c3 : R) : Cmod (c0 + c1 * z + c2 * (z * z) + c3 * (z * z * z))%C ^ 2 =
  real_sq c0 c1 c2 c3 (- fst z) (snd z ^ 2).
Proof.
  rewrite Cmod_sq. destruct z as (r, t). unfold RtoC, real_sq. cbv [Cplus Cmult fst snd]. ring.
Qed.
Lemma Dz_sq : Cmod Dz ^ 2 = real_sq dd0 dd1 dd2 (-1) (- fst z) (snd z ^ 2).
Proof.
  rewrite <- Cmod_poly. f_equal. f_equal. unfold Dz. replace (RtoC (-1)) with (- RtoC 1)%C by (unfold RtoC, Copp; cbn; f_equal; ring). ring.
Qed.
Lemma Nz_sq : Cmod Nz ^ 2 = real_sq dd0 nn1 nn2 nn3 (- fst z) (snd z ^ 2).
Proof. apply Cmod_poly. Qed.
Ltac coefs := unfold nn1, nn2, nn3, dd0, dd1, dd2, ti; rewrite ?rsum3; unfold rad_T, rad_TI, radau_gamma, rad_alpha, rad_beta.
(** Coefficients of [real_sq] in powers of [r] and [q]. *)
Definition co (c0 c1 c2 c3 : R) (i j : nat) : R :=
  match i, j with
  | 0%nat, 0%nat => c0 * c0
  | 0%nat, 1%nat => 0 - 2 * c0 * c2 + c1 * c1
  | 0%nat, 2%nat => 0 - 2 * c1 * c3 + c2 * c2
  | 0%nat, 3%nat => c3 * c3
  | 1%nat, 0%nat => 0 - 2 * c0 * c1
  | 1%nat, 1%nat => 6 * c0 * c3 - 2 * c1 * c2
  | 1%nat, 2%nat => 0 - 2 * c2 * c3
  | 2%nat, 0%nat => 2 * c0 * c2 + c1 * c1
  | 2%nat, 1%nat => 2 * c2 * c2
  | 2%nat, 2%nat => 3 * c3 * c3
  | 3%nat, 0%nat => 0 - 2 * c0 * c3 - 2 * c1 * c2
  | 3%nat, 1%nat => 0 - 4 * c2 * c3
  | 4%nat, 0%nat => 2 * c1 * c3 + c2 * c2
  | 4%nat, 1%nat => 3 * c3 * c3
  | 5%nat, 0%nat => 0 - 2 * c2 * c3
  | 6%nat, 0%nat => c3 * c3
  | _, _ => 0 end.
Lemma real_sq_co c0 c1 c2 c3 r q : real_sq c0 c1 c2 c3 r q =
  co c0 c1 c2 c3 0 0 * (r ^ 0 * q ^ 0) + co c0 c1 c2 c3 0 1 * (r ^ 0 * q ^ 1) + co c0 c1 c2 c3 0 2 * (r ^ 0 * q ^ 2) + co c0 c1 c2 c3 0 3 * (r ^ 0 * q ^ 3) + co c0 c1 c2 c3 1 0 * (r ^ 1 * q ^ 0) + co c0 c1 c2 c3 1 1 * (r ^ 1 * q ^ 1) + co c0 c1 c2 c3 1 2 * (r ^ 1 * q ^ 2) + co c0 c1 c2 c3 2 0 * (r ^ 2 * q ^ 0) + co c0 c1 c2 c3 2 1 * (r ^ 2 * q ^ 1) + co c0 c1 c2 c3 2 2 * (r ^ 2 * q ^ 2) + co c0 c1 c2 c3 3 0 * (r ^ 3 * q ^ 0) + co c0 c1 c2 c3 3 1 * (r ^ 3 * q ^ 1) + co c0 c1 c2 c3 4 0 * (r ^ 4 * q ^ 0) + co c0 c1 c2 c3 4 1 * (r ^ 4 * q ^ 1) + co c0 c1 c2 c3 5 0 * (r ^ 5 * q ^ 0) + co c0 c1 c2 c3 6 0 * (r ^ 6 * q ^ 0).
Proof. unfold real_sq, co. ring. Qed.
(** The coefficients as integers over 10^70. *)
Definition zc (c0 c1 c2 c3 : Z) (i j : nat) : Z :=
  (match i, j with
  | 0%nat, 0%nat => c0 * c0
  | 0%nat, 1%nat => 0 - 2 * c0 * c2 + c1 * c1
  | 0%nat, 2%nat => 0 - 2 * c1 * c3 + c2 * c2
  | 0%nat, 3%nat => c3 * c3
  | 1%nat, 0%nat => 0 - 2 * c0 * c1
  | 1%nat, 1%nat => 6 * c0 * c3 - 2 * c1 * c2
  | 1%nat, 2%nat => 0 - 2 * c2 * c3
  | 2%nat, 0%nat => 2 * c0 * c2 + c1 * c1
  | 2%nat, 1%nat => 2 * c2 * c2
  | 2%nat, 2%nat => 3 * c3 * c3
  | 3%nat, 0%nat => 0 - 2 * c0 * c3 - 2 * c1 * c2
  | 3%nat, 1%nat => 0 - 4 * c2 * c3
  | 4%nat, 0%nat => 2 * c1 * c3 + c2 * c2
  | 4%nat, 1%nat => 3 * c3 * c3
  | 5%nat, 0%nat => 0 - 2 * c2 * c3
  | 6%nat, 0%nat => c3 * c3
  | _, _ => 0 end)%Z.
Lemma zc_co c0 c1 c2 c3 s i j : s <> 0 ->
  co (IZR c0 / s) (IZR c1 / s) (IZR c2 / s) (IZR c3 / s) i j = IZR (zc c0 c1 c2 c3 i j) / (s * s).
Proof.
  intros Hs. destruct i as [|[|[|[|[|[|[|i]]]]]]], j as [|[|[|[|j]]]]; unfold co, zc;
    rewrite ?minus_IZR, ?plus_IZR, ?mult_IZR, ?minus_IZR, ?mult_IZR; field; exact Hs.
Qed.
Definition zp : Z := 100000.
Definition zG : Z := 3637834252744496.
Definition zA : Z := 2681082873627752.
Definition zB : Z := 3050430199247411.
Definition zT : Z := 96604818261509293619.
Definition zt0 : Z := 520654968181484009173.
Definition zt1 : Z := -402977785781241666242.
Definition zt2 : Z := 147301511008159362828.
Definition zS : Z := (zp ^ 14)%Z.
Definition zD0 : Z := (zG * (zA * zA + zB * zB) * zp ^ 5)%Z.
Definition zD1 : Z := (- (2 * zA * zG + (zA * zA + zB * zB)) * zp ^ 8)%Z.
Definition zD2 : Z := ((zG + 2 * zA) * zp ^ 11)%Z.
Definition zN1 : Z := (zD1 + zT * zt0 * (zA * zA + zB * zB) + (zA * zt1 + zB * zt2) * zG * zp ^ 4)%Z.
Definition zN2 : Z := (zD2 - 2 * zA * zT * zt0 * zp ^ 3 - zt1 * zG * zp ^ 7 - (zA * zt1 + zB * zt2) * zp ^ 7)%Z.
Definition zN3 : Z := (- zp ^ 14 + zT * zt0 * zp ^ 6 + zt1 * zp ^ 10)%Z.
Lemma z_vals : let s := IZR zS in s <> 0 /\ dd0 = IZR zD0 / s /\ dd1 = IZR zD1 / s /\ dd2 = IZR zD2 / s /\ -1 = IZR (- zS) / s /\
  nn1 = IZR zN1 / s /\ nn2 = IZR zN2 / s /\ nn3 = IZR zN3 / s.
Proof.
  assert (IZR zp <> 0) as Hp by (apply IZR_neq; discriminate).
  assert (g = IZR zG / IZR zp ^ 3) as Eg by (unfold radau_gamma, zG, zp; lra).
  assert (al = IZR zA / IZR zp ^ 3) as Ea by (unfold rad_alpha, zA, zp; lra).
  assert (be = IZR zB / IZR zp ^ 3) as Eb by (unfold rad_beta, zB, zp; lra).
  assert (rad_T 2 0 = IZR zT / IZR zp ^ 4) as ET by (unfold rad_T, zT, zp; lra).
  assert (ti 0 = IZR zt0 / IZR zp ^ 4) as E0 by (unfold ti; rewrite rsum3; unfold rad_TI, zt0, zp; lra).
  assert (ti 1 = IZR zt1 / IZR zp ^ 4) as E1 by (unfold ti; rewrite rsum3; unfold rad_TI, zt1, zp; lra).
  assert (ti 2 = IZR zt2 / IZR zp ^ 4) as E2 by (unfold ti; rewrite rsum3; unfold rad_TI, zt2, zp; lra).
  assert (IZR zS = IZR zp ^ 14) as Es by (symmetry; exact (pow_IZR zp 14)).
  unfold nn1, nn2, nn3, dd0, dd1, dd2. rewrite Eg, Ea, Eb, ET, E0, E1, E2. clear Eg Ea Eb ET E0 E1 E2.
  unfold zN1, zN2, zN3, zD0, zD1, zD2. rewrite Es.
  change (zp ^ 3)%Z with (zp ^ Z.of_nat 3)%Z. change (zp ^ 4)%Z with (zp ^ Z.of_nat 4)%Z. change (zp ^ 5)%Z with (zp ^ Z.of_nat 5)%Z.
  change (zp ^ 6)%Z with (zp ^ Z.of_nat 6)%Z. change (zp ^ 7)%Z with (zp ^ Z.of_nat 7)%Z. change (zp ^ 8)%Z with (zp ^ Z.of_nat 8)%Z.
  change (zp ^ 10)%Z with (zp ^ Z.of_nat 10)%Z. change (zp ^ 11)%Z with (zp ^ Z.of_nat 11)%Z. change (zp ^ 14)%Z with (zp ^ Z.of_nat 14)%Z.
  rewrite (opp_IZR zS), Es.
  rewrite ?opp_IZR, ?minus_IZR, ?plus_IZR, ?mult_IZR, ?minus_IZR, ?opp_IZR, ?plus_IZR, ?mult_IZR, ?opp_IZR, ?plus_IZR, ?mult_IZR, <- ?pow_IZR.
  generalize dependent (IZR zp). intros p Hp _.
  generalize (IZR zG) (IZR zA) (IZR zB) (IZR zT) (IZR zt0) (IZR zt1) (IZR zt2). intros gg aa bb tt t0 t1 t2.
  cbv zeta. split; [apply pow_nonzero; exact Hp|]. repeat split; field; exact Hp.
Qed.
Definition cN : nat -> nat -> Z := zc zD0 zN1 zN2 zN3.
Definition cD : nat -> nat -> Z := zc zD0 zD1 zD2 (- zS).
Lemma cN_co i j : co dd0 nn1 nn2 nn3 i j = IZR (cN i j) / (IZR zS * IZR zS).
Proof. destruct z_vals as (Hs & -> & _ & _ & _ & -> & -> & ->). exact (zc_co _ _ _ _ _ i j Hs). Qed.
Lemma cD_co i j : co dd0 dd1 dd2 (-1) i j = IZR (cD i j) / (IZR zS * IZR zS).
Proof. destruct z_vals as (Hs & -> & -> & -> & -> & _). exact (zc_co _ _ _ _ _ i j Hs). Qed.
Lemma zle (n m : Z) (x : Z) k : (0 < k)%Z -> 0 < IZR x -> (k * n <= m)%Z -> IZR n / IZR x <= / IZR k * (IZR m / IZR x).
Proof.
  intros Hk Hx H. apply IZR_le in H. rewrite mult_IZR in H. apply (IZR_lt 0) in Hk.
  replace (/ IZR k * (IZR m / IZR x)) with (IZR m * / IZR k * / IZR x) by (field; lra).
  apply Rmult_le_compat_r; [apply Rlt_le, Rinv_0_lt_compat; exact Hx|].
  apply Rmult_le_reg_r with (IZR k); [exact Hk|]. rewrite Rmult_assoc, Rinv_l by lra. lra.
Qed.
Lemma stable_poly r q : 0 <= r -> 0 <= q ->
  real_sq dd0 nn1 nn2 nn3 r q <= (1 + / 10 ^ 14) * real_sq dd0 dd1 dd2 (-1) r q.
Proof.
  intros Hr Hq.
  assert (forall i j, 0 <= r ^ i * q ^ j) as M by (intros i j; apply Rmult_le_pos; now apply pow_le).
  assert (forall n m, (10 ^ 14 * n <= (10 ^ 14 + 1) * m)%Z -> IZR n / (IZR zS * IZR zS) <= (1 + / 10 ^ 14) * (IZR m / (IZR zS * IZR zS))) as Z.
  { intros n m H. rewrite <- mult_IZR. replace (1 + / 10 ^ 14) with (/ IZR (10 ^ 14) * IZR (10 ^ 14 + 1)).
    - rewrite Rmult_assoc. replace (IZR (10 ^ 14 + 1) * (IZR m / IZR (zS * zS))) with (IZR ((10 ^ 14 + 1) * m) / IZR (zS * zS)).
      + apply zle; [reflexivity|apply (IZR_lt 0); reflexivity|exact H].
      + rewrite mult_IZR. unfold Rdiv. ring.
    - change (10 ^ 14 + 1)%Z with 100000000000001%Z. change (10 ^ 14)%Z with 100000000000000%Z. lra. }
  rewrite !real_sq_co, !Rmult_plus_distr_l, <- !Rmult_assoc, !cN_co, !cD_co.
  repeat apply Rplus_le_compat; rewrite !Rmult_assoc, <- (Rmult_assoc (1 + _)); apply Rmult_le_compat_r; try apply M; apply Z;
    apply Z.leb_le; reflexivity.
Qed.
Lemma damped_gen (a b : nat -> nat -> R) e r q : (forall i j, 0 <= r ^ i * q ^ j) ->
  0 <= 25 * b 0%nat 0%nat + e * (0) ->
  a 0%nat 0%nat <= 25 * b 0%nat 1%nat + e * (b 0%nat 0%nat) ->
  a 0%nat 1%nat <= 25 * b 0%nat 2%nat + e * (b 0%nat 1%nat) ->
  a 0%nat 2%nat <= 25 * b 0%nat 3%nat + e * (b 0%nat 2%nat) ->
  a 0%nat 3%nat <= 0 + e * (b 0%nat 3%nat) ->
  0 <= 25 * b 1%nat 0%nat + e * (0) ->
  a 1%nat 0%nat <= 25 * b 1%nat 1%nat + e * (b 1%nat 0%nat) ->
  a 1%nat 1%nat <= 25 * b 1%nat 2%nat + e * (b 1%nat 1%nat) ->
  a 1%nat 2%nat <= 0 + e * (b 1%nat 2%nat) ->
  a 0%nat 0%nat <= 25 * b 2%nat 0%nat + e * (b 0%nat 0%nat) ->
  a 0%nat 1%nat + a 2%nat 0%nat <= 25 * b 2%nat 1%nat + e * (b 0%nat 1%nat + b 2%nat 0%nat) ->
  a 0%nat 2%nat + a 2%nat 1%nat <= 25 * b 2%nat 2%nat + e * (b 0%nat 2%nat + b 2%nat 1%nat) ->
  a 0%nat 3%nat + a 2%nat 2%nat <= 0 + e * (b 0%nat 3%nat + b 2%nat 2%nat) ->
  a 1%nat 0%nat <= 25 * b 3%nat 0%nat + e * (b 1%nat 0%nat) ->
  a 1%nat 1%nat + a 3%nat 0%nat <= 25 * b 3%nat 1%nat + e * (b 1%nat 1%nat + b 3%nat 0%nat) ->
  a 1%nat 2%nat + a 3%nat 1%nat <= 0 + e * (b 1%nat 2%nat + b 3%nat 1%nat) ->
  a 2%nat 0%nat <= 25 * b 4%nat 0%nat + e * (b 2%nat 0%nat) ->
  a 2%nat 1%nat + a 4%nat 0%nat <= 25 * b 4%nat 1%nat + e * (b 2%nat 1%nat + b 4%nat 0%nat) ->
  a 2%nat 2%nat + a 4%nat 1%nat <= 0 + e * (b 2%nat 2%nat + b 4%nat 1%nat) ->
  a 3%nat 0%nat <= 25 * b 5%nat 0%nat + e * (b 3%nat 0%nat) ->
  a 3%nat 1%nat + a 5%nat 0%nat <= 0 + e * (b 3%nat 1%nat + b 5%nat 0%nat) ->
  a 4%nat 0%nat <= 25 * b 6%nat 0%nat + e * (b 4%nat 0%nat) ->
  a 4%nat 1%nat + a 6%nat 0%nat <= 0 + e * (b 4%nat 1%nat + b 6%nat 0%nat) ->
  a 5%nat 0%nat <= 0 + e * (b 5%nat 0%nat) ->
  a 6%nat 0%nat <= 0 + e * (b 6%nat 0%nat) ->
  (r ^ 2 + q) * (a 0%nat 0%nat * (r ^ 0 * q ^ 0) + a 0%nat 1%nat * (r ^ 0 * q ^ 1) + a 0%nat 2%nat * (r ^ 0 * q ^ 2) + a 0%nat 3%nat * (r ^ 0 * q ^ 3) + a 1%nat 0%nat * (r ^ 1 * q ^ 0) + a 1%nat 1%nat * (r ^ 1 * q ^ 1) + a 1%nat 2%nat * (r ^ 1 * q ^ 2) + a 2%nat 0%nat * (r ^ 2 * q ^ 0) + a 2%nat 1%nat * (r ^ 2 * q ^ 1) + a 2%nat 2%nat * (r ^ 2 * q ^ 2) + a 3%nat 0%nat * (r ^ 3 * q ^ 0) + a 3%nat 1%nat * (r ^ 3 * q ^ 1) + a 4%nat 0%nat * (r ^ 4 * q ^ 0) + a 4%nat 1%nat * (r ^ 4 * q ^ 1) + a 5%nat 0%nat * (r ^ 5 * q ^ 0) + a 6%nat 0%nat * (r ^ 6 * q ^ 0)) <=
  (25 + e * (r ^ 2 + q)) * (b 0%nat 0%nat * (r ^ 0 * q ^ 0) + b 0%nat 1%nat * (r ^ 0 * q ^ 1) + b 0%nat 2%nat * (r ^ 0 * q ^ 2) + b 0%nat 3%nat * (r ^ 0 * q ^ 3) + b 1%nat 0%nat * (r ^ 1 * q ^ 0) + b 1%nat 1%nat * (r ^ 1 * q ^ 1) + b 1%nat 2%nat * (r ^ 1 * q ^ 2) + b 2%nat 0%nat * (r ^ 2 * q ^ 0) + b 2%nat 1%nat * (r ^ 2 * q ^ 1) + b 2%nat 2%nat * (r ^ 2 * q ^ 2) + b 3%nat 0%nat * (r ^ 3 * q ^ 0) + b 3%nat 1%nat * (r ^ 3 * q ^ 1) + b 4%nat 0%nat * (r ^ 4 * q ^ 0) + b 4%nat 1%nat * (r ^ 4 * q ^ 1) + b 5%nat 0%nat * (r ^ 5 * q ^ 0) + b 6%nat 0%nat * (r ^ 6 * q ^ 0)).
Proof.
  intros M H0 H1 H2 H3 H4 H5 H6 H7 H8 H9 H10 H11 H12 H13 H14 H15 H16 H17 H18 H19 H20 H21 H22 H23 H24.
  apply (Rmult_le_compat_r (r ^ 0 * q ^ 0)) in H0; [|apply M].
  apply (Rmult_le_compat_r (r ^ 0 * q ^ 1)) in H1; [|apply M].
  apply (Rmult_le_compat_r (r ^ 0 * q ^ 2)) in H2; [|apply M].
  apply (Rmult_le_compat_r (r ^ 0 * q ^ 3)) in H3; [|apply M].
  apply (Rmult_le_compat_r (r ^ 0 * q ^ 4)) in H4; [|apply M].
  apply (Rmult_le_compat_r (r ^ 1 * q ^ 0)) in H5; [|apply M].
  apply (Rmult_le_compat_r (r ^ 1 * q ^ 1)) in H6; [|apply M].
  apply (Rmult_le_compat_r (r ^ 1 * q ^ 2)) in H7; [|apply M].
  apply (Rmult_le_compat_r (r ^ 1 * q ^ 3)) in H8; [|apply M].
  apply (Rmult_le_compat_r (r ^ 2 * q ^ 0)) in H9; [|apply M].
  apply (Rmult_le_compat_r (r ^ 2 * q ^ 1)) in H10; [|apply M].
  apply (Rmult_le_compat_r (r ^ 2 * q ^ 2)) in H11; [|apply M].
  apply (Rmult_le_compat_r (r ^ 2 * q ^ 3)) in H12; [|apply M].
  apply (Rmult_le_compat_r (r ^ 3 * q ^ 0)) in H13; [|apply M].
  apply (Rmult_le_compat_r (r ^ 3 * q ^ 1)) in H14; [|apply M].
  apply (Rmult_le_compat_r (r ^ 3 * q ^ 2)) in H15; [|apply M].
  apply (Rmult_le_compat_r (r ^ 4 * q ^ 0)) in H16; [|apply M].
  apply (Rmult_le_compat_r (r ^ 4 * q ^ 1)) in H17; [|apply M].
  apply (Rmult_le_compat_r (r ^ 4 * q ^ 2)) in H18; [|apply M].
  apply (Rmult_le_compat_r (r ^ 5 * q ^ 0)) in H19; [|apply M].
  apply (Rmult_le_compat_r (r ^ 5 * q ^ 1)) in H20; [|apply M].
  apply (Rmult_le_compat_r (r ^ 6 * q ^ 0)) in H21; [|apply M].
  apply (Rmult_le_compat_r (r ^ 6 * q ^ 1)) in H22; [|apply M].
  apply (Rmult_le_compat_r (r ^ 7 * q ^ 0)) in H23; [|apply M].
  apply (Rmult_le_compat_r (r ^ 8 * q ^ 0)) in H24; [|apply M].
  match goal with |- ?x <= ?y => replace x with ((0) * (r ^ 0 * q ^ 0) + (a 0%nat 0%nat) * (r ^ 0 * q ^ 1) + (a 0%nat 1%nat) * (r ^ 0 * q ^ 2) + (a 0%nat 2%nat) * (r ^ 0 * q ^ 3) + (a 0%nat 3%nat) * (r ^ 0 * q ^ 4) + (0) * (r ^ 1 * q ^ 0) + (a 1%nat 0%nat) * (r ^ 1 * q ^ 1) + (a 1%nat 1%nat) * (r ^ 1 * q ^ 2) + (a 1%nat 2%nat) * (r ^ 1 * q ^ 3) + (a 0%nat 0%nat) * (r ^ 2 * q ^ 0) + (a 0%nat 1%nat + a 2%nat 0%nat) * (r ^ 2 * q ^ 1) + (a 0%nat 2%nat + a 2%nat 1%nat) * (r ^ 2 * q ^ 2) + (a 0%nat 3%nat + a 2%nat 2%nat) * (r ^ 2 * q ^ 3) + (a 1%nat 0%nat) * (r ^ 3 * q ^ 0) + (a 1%nat 1%nat + a 3%nat 0%nat) * (r ^ 3 * q ^ 1) + (a 1%nat 2%nat + a 3%nat 1%nat) * (r ^ 3 * q ^ 2) + (a 2%nat 0%nat) * (r ^ 4 * q ^ 0) + (a 2%nat 1%nat + a 4%nat 0%nat) * (r ^ 4 * q ^ 1) + (a 2%nat 2%nat + a 4%nat 1%nat) * (r ^ 4 * q ^ 2) + (a 3%nat 0%nat) * (r ^ 5 * q ^ 0) + (a 3%nat 1%nat + a 5%nat 0%nat) * (r ^ 5 * q ^ 1) + (a 4%nat 0%nat) * (r ^ 6 * q ^ 0) + (a 4%nat 1%nat + a 6%nat 0%nat) * (r ^ 6 * q ^ 1) + (a 5%nat 0%nat) * (r ^ 7 * q ^ 0) + (a 6%nat 0%nat) * (r ^ 8 * q ^ 0)) by ring; replace y with ((25 * b 0%nat 0%nat + e * (0)) * (r ^ 0 * q ^ 0) + (25 * b 0%nat 1%nat + e * (b 0%nat 0%nat)) * (r ^ 0 * q ^ 1) + (25 * b 0%nat 2%nat + e * (b 0%nat 1%nat)) * (r ^ 0 * q ^ 2) + (25 * b 0%nat 3%nat + e * (b 0%nat 2%nat)) * (r ^ 0 * q ^ 3) + (0 + e * (b 0%nat 3%nat)) * (r ^ 0 * q ^ 4) + (25 * b 1%nat 0%nat + e * (0)) * (r ^ 1 * q ^ 0) + (25 * b 1%nat 1%nat + e * (b 1%nat 0%nat)) * (r ^ 1 * q ^ 1) + (25 * b 1%nat 2%nat + e * (b 1%nat 1%nat)) * (r ^ 1 * q ^ 2) + (0 + e * (b 1%nat 2%nat)) * (r ^ 1 * q ^ 3) + (25 * b 2%nat 0%nat + e * (b 0%nat 0%nat)) * (r ^ 2 * q ^ 0) + (25 * b 2%nat 1%nat + e * (b 0%nat 1%nat + b 2%nat 0%nat)) * (r ^ 2 * q ^ 1) + (25 * b 2%nat 2%nat + e * (b 0%nat 2%nat + b 2%nat 1%nat)) * (r ^ 2 * q ^ 2) + (0 + e * (b 0%nat 3%nat + b 2%nat 2%nat)) * (r ^ 2 * q ^ 3) + (25 * b 3%nat 0%nat + e * (b 1%nat 0%nat)) * (r ^ 3 * q ^ 0) + (25 * b 3%nat 1%nat + e * (b 1%nat 1%nat + b 3%nat 0%nat)) * (r ^ 3 * q ^ 1) + (0 + e * (b 1%nat 2%nat + b 3%nat 1%nat)) * (r ^ 3 * q ^ 2) + (25 * b 4%nat 0%nat + e * (b 2%nat 0%nat)) * (r ^ 4 * q ^ 0) + (25 * b 4%nat 1%nat + e * (b 2%nat 1%nat + b 4%nat 0%nat)) * (r ^ 4 * q ^ 1) + (0 + e * (b 2%nat 2%nat + b 4%nat 1%nat)) * (r ^ 4 * q ^ 2) + (25 * b 5%nat 0%nat + e * (b 3%nat 0%nat)) * (r ^ 5 * q ^ 0) + (0 + e * (b 3%nat 1%nat + b 5%nat 0%nat)) * (r ^ 5 * q ^ 1) + (25 * b 6%nat 0%nat + e * (b 4%nat 0%nat)) * (r ^ 6 * q ^ 0) + (0 + e * (b 4%nat 1%nat + b 6%nat 0%nat)) * (r ^ 6 * q ^ 1) + (0 + e * (b 5%nat 0%nat)) * (r ^ 7 * q ^ 0) + (0 + e * (b 6%nat 0%nat)) * (r ^ 8 * q ^ 0)) by ring end.
  repeat apply Rplus_le_compat; assumption.
Qed.
Lemma damped_poly r q : 0 <= r -> 0 <= q ->
  (r ^ 2 + q) * real_sq dd0 nn1 nn2 nn3 r q <= (25 + / 10 ^ 30 * (r ^ 2 + q)) * real_sq dd0 dd1 dd2 (-1) r q.
Proof.
  intros Hr Hq.
  assert (forall i j, 0 <= r ^ i * q ^ j) as M by (intros i j; apply Rmult_le_pos; now apply pow_le).
  set (S := IZR zS * IZR zS).
  assert (forall n m k, (10 ^ 30 * n <= 10 ^ 30 * 25 * m + k)%Z -> IZR n / S <= 25 * (IZR m / S) + / 10 ^ 30 * (IZR k / S)) as Z.
  { intros n m k H. unfold S. rewrite <- mult_IZR.
    replace (25 * (IZR m / IZR (zS * zS)) + / 10 ^ 30 * (IZR k / IZR (zS * zS)))
      with (/ IZR (10 ^ 30) * (IZR (10 ^ 30 * 25 * m + k) / IZR (zS * zS))).
    - apply zle; [reflexivity|apply (IZR_lt 0); reflexivity|exact H].
    - rewrite plus_IZR, (mult_IZR (10 ^ 30 * 25) m), (mult_IZR (10 ^ 30) 25). rewrite <- (pow_IZR 10 30 : 10 ^ 30 = IZR (10 ^ 30)).
      assert (10 ^ 30 <> 0) by (apply pow_nonzero; lra). assert (IZR (zS * zS) <> 0) by (apply IZR_neq; discriminate).
      generalize dependent (10 ^ 30). generalize dependent (IZR (zS * zS)). intros y Hy x Hx. field. split; assumption. }
  assert (forall n k, (10 ^ 30 * n <= k)%Z -> IZR n / S <= 0 + / 10 ^ 30 * (IZR k / S)) as Z0.
  { intros n k H. eapply Rle_trans; [apply (Z n 0%Z k); lia|]. unfold Rdiv. rewrite Rmult_0_l, Rmult_0_r. apply Rle_refl. }
  assert (forall m k, IZR m / S + IZR k / S = IZR (m + k) / S) as P by (intros m k; rewrite plus_IZR; unfold Rdiv; ring).
  assert (0 = IZR 0 / S) as O by (unfold Rdiv; ring).
  rewrite !real_sq_co. apply (damped_gen (co dd0 nn1 nn2 nn3) (co dd0 dd1 dd2 (-1)) (/ 10 ^ 30) r q M); clear M Hr Hq;
    rewrite ?cN_co, ?cD_co; fold S; rewrite ?P;
    first [apply Z0; apply Z.leb_le; reflexivity
          |apply Z; apply Z.leb_le; reflexivity
          |rewrite O at 1; rewrite O at 2; apply Z; apply Z.leb_le; reflexivity].
Qed.

(** ** One step *)
Definition Bz : C := ((al - z) * (al - z) + be * be)%C.
Lemma Dz_prod : Dz = ((g - z) * Bz)%C.
Proof. unfold Dz, Bz, dd0, dd1, dd2. destruct z as (r, t). unfold RtoC. cbv [Cplus Cminus Copp Cmult fst snd]. f_equal; ring. Qed.
Lemma gz_0 : (g - z)%C <> RtoC 0.
Proof. intros E. apply (f_equal fst) in E. destruct z as (r, t). cbn in E, Hz. unfold radau_gamma in E. lra. Qed.
Lemma Bz_0 : Bz <> RtoC 0.
Proof.
  intros E. destruct z as (r, t) eqn:Ez. unfold Bz in E. rewrite Ez in E. cbn in Hz.
  pose proof (f_equal fst E) as E1. pose proof (f_equal snd E) as E2. unfold RtoC in E1, E2. cbv [Cplus Cminus Copp Cmult fst snd] in E1, E2.
  assert ((al - r) * t = 0) as E3 by lra. assert (al - r > 0) by (unfold rad_alpha; lra).
  assert (t = 0) as -> by (apply Rmult_integral in E3 as [E3|E3]; lra).
  unfold rad_beta in E1. nra.
Qed.
Definition xnew (x w0 w1 : C) : C := (x + rad_T 2 0 * w0 + w1)%C.
Lemma exact_step x w0 w1 w2 : stage_eqs w0 w1 w2 (ti 0 * x)%C (ti 1 * x)%C (ti 2 * x)%C -> (Dz * xnew x w0 w1 = Nz * x)%C.
Proof.
  intros (E0 & E1 & E2).
  assert ((g - z) * w0 = z * (ti 0 * x))%C as F0.
  { replace ((g - z) * w0)%C with (g * w0 - z * w0)%C by ring. rewrite E0. ring. }
  assert (Bz * w1 = z * ((al - z) * (ti 1 * x) + be * (ti 2 * x)))%C as F1.
  { replace (Bz * w1)%C with ((al - z) * (al * w1 - be * w2 - z * w1) + be * (be * w1 + al * w2 - z * w2))%C by (unfold Bz; ring).
    rewrite E1, E2. ring. }
  unfold xnew. rewrite Dz_prod.
  replace ((g - z) * Bz * (x + rad_T 2 0 * w0 + w1))%C
    with ((g - z) * Bz * x + rad_T 2 0 * Bz * ((g - z) * w0) + (g - z) * (Bz * w1))%C by ring.
  rewrite F0, F1. unfold Nz, Bz, nn1, nn2, nn3, dd0, dd1, dd2.
  destruct z as (r, t), x as (u, v). generalize (rad_T 2 0) (ti 0) (ti 1) (ti 2). intros T0 t0 t1 t2. unfold RtoC.
  cbv [Cplus Cminus Copp Cmult fst snd]. f_equal; ring.
Qed.
Lemma Dz_0 : 0 < Cmod Dz.
Proof. apply Cmod_gt_0. rewrite Dz_prod. apply Cmult_neq_0; [exact gz_0|exact Bz_0]. Qed.
Lemma exact_bounds x w0 w1 w2 : stage_eqs w0 w1 w2 (ti 0 * x)%C (ti 1 * x)%C (ti 2 * x)%C ->
  Cmod (xnew x w0 w1) <= (1 + / 10 ^ 14) * Cmod x /\ Cmod z * Cmod (xnew x w0 w1) <= (5 + / 10 ^ 15 * Cmod z) * Cmod x.
Proof.
  intros H. pose proof (f_equal Cmod (exact_step _ _ _ _ H)) as E. rewrite !Cmod_mult in E.
  set (X' := Cmod (xnew x w0 w1)) in *. set (X := Cmod x) in *. set (D := Cmod Dz) in *.
  assert (0 <= X') by apply Cmod_ge_0. assert (0 <= X) as HX by apply Cmod_ge_0. assert (0 <= Cmod Nz) by apply Cmod_ge_0.
  assert (0 <= Cmod z) as HZ by apply Cmod_ge_0. assert (0 < D) as HD by exact Dz_0.
  assert (0 <= - fst z) as Hr by lra. assert (0 <= snd z ^ 2) as Hq by apply pow2_ge_0.
  pose proof (stable_poly _ _ Hr Hq) as S1. pose proof (damped_poly _ _ Hr Hq) as S2.
  rewrite <- Nz_sq, <- Dz_sq in S1, S2. fold D in S1, S2.
  replace ((- fst z) ^ 2 + snd z ^ 2) with (Cmod z ^ 2) in S2 by (rewrite Cmod_sq; ring).
  split.
  - apply le_sq; [apply Rmult_le_pos; lra|].
    apply Rmult_le_reg_l with (D ^ 2); [apply pow_lt; exact HD|].
    replace (D ^ 2 * X' ^ 2) with ((D * X') ^ 2) by ring. rewrite E.
    replace ((Cmod Nz * X) ^ 2) with (Cmod Nz ^ 2 * X ^ 2) by ring.
    apply Rle_trans with ((1 + / 10 ^ 14) * D ^ 2 * X ^ 2); [apply Rmult_le_compat_r; [apply pow2_ge_0|exact S1]|].
    rewrite Rpow_mult_distr. replace (D ^ 2 * ((1 + / 10 ^ 14) ^ 2 * X ^ 2)) with ((1 + / 10 ^ 14) ^ 2 * D ^ 2 * X ^ 2) by ring.
    apply Rmult_le_compat_r; [apply pow2_ge_0|]. apply Rmult_le_compat_r; [apply pow2_ge_0|]. lra.
  - apply le_sq; [apply Rmult_le_pos; [|exact HX]; assert (0 <= / 10 ^ 15 * Cmod z) by (apply Rmult_le_pos; lra); lra|].
    apply Rmult_le_reg_l with (D ^ 2); [apply pow_lt; exact HD|].
    replace (D ^ 2 * (Cmod z * X') ^ 2) with (Cmod z ^ 2 * (D * X') ^ 2) by ring. rewrite E.
    replace (Cmod z ^ 2 * (Cmod Nz * X) ^ 2) with (Cmod z ^ 2 * Cmod Nz ^ 2 * X ^ 2) by ring.
    apply Rle_trans with ((25 + / 10 ^ 30 * Cmod z ^ 2) * D ^ 2 * X ^ 2); [apply Rmult_le_compat_r; [apply pow2_ge_0|exact S2]|].
    replace (D ^ 2 * ((5 + / 10 ^ 15 * Cmod z) * X) ^ 2) with ((5 + / 10 ^ 15 * Cmod z) ^ 2 * D ^ 2 * X ^ 2) by ring.
    apply Rmult_le_compat_r; [apply pow2_ge_0|]. apply Rmult_le_compat_r; [apply pow2_ge_0|]. clear - HZ. lra.
Qed.
Lemma stage_exists y0 y1 y2 : exists w0 w1 w2, stage_eqs w0 w1 w2 y0 y1 y2.
Proof.
  pose proof gz_0 as G. pose proof Bz_0 as B.
  exists (z * y0 / (g - z))%C, (z * ((al - z) * y1 + be * y2) / Bz)%C, (z * ((al - z) * y2 - be * y1) / Bz)%C.
  unfold stage_eqs. unfold Bz in *. repeat split; field; assumption.
Qed.
Lemma stage_minus w0 w1 w2 y0 y1 y2 v0 v1 v2 x0 x1 x2 : stage_eqs w0 w1 w2 y0 y1 y2 -> stage_eqs v0 v1 v2 x0 x1 x2 ->
  stage_eqs (w0 - v0)%C (w1 - v1)%C (w2 - v2)%C (y0 - x0)%C (y1 - x1)%C (y2 - x2)%C.
Proof.
  intros (A0 & A1 & A2) (B0 & B1 & B2). repeat split.
  - replace (g * (w0 - v0))%C with (g * w0 - g * v0)%C by ring. rewrite A0, B0. ring.
  - replace (al * (w1 - v1) - be * (w2 - v2))%C with ((al * w1 - be * w2) - (al * v1 - be * v2))%C by ring. rewrite A1, B1. ring.
  - replace (be * (w1 - v1) + al * (w2 - v2))%C with ((be * w1 + al * w2) - (be * v1 + al * v2))%C by ring. rewrite A2, B2. ring.
Qed.
Lemma step_bounds x d0 d1 d2 w0 w1 w2 : stage_eqs w0 w1 w2 (ti 0 * x + d0)%C (ti 1 * x + d1)%C (ti 2 * x + d2)%C ->
  Cmod d0 <= / 10 ^ 17 * Cmod x -> Cmod d1 <= / 10 ^ 17 * Cmod x -> Cmod d2 <= / 10 ^ 17 * Cmod x ->
  Cmod (xnew x w0 w1) <= (1 + / 10 ^ 13) * Cmod x /\ Cmod z * Cmod (xnew x w0 w1) <= (5 + / 10 ^ 13 * Cmod z) * Cmod x /\
  Cmod w0 <= 20 * Cmod x /\ Cmod w1 <= 20 * Cmod x /\ Cmod w2 <= 20 * Cmod x.
Proof.
  intros H H0 H1 H2. destruct (stage_exists (ti 0 * x)%C (ti 1 * x)%C (ti 2 * x)%C) as (v0 & v1 & v2 & V).
  destruct (exact_bounds x v0 v1 v2 V) as (X1 & X2).
  pose proof (stage_bound _ _ _ _ _ _ (stage_minus _ _ _ _ _ _ _ _ _ _ _ _ H V)) as (B0 & B1 & B2).
  replace (ti 0 * x + d0 - ti 0 * x)%C with d0 in B0 by ring.
  replace (ti 1 * x + d1 - ti 1 * x)%C with d1 in B1, B2 by ring. replace (ti 2 * x + d2 - ti 2 * x)%C with d2 in B1, B2 by ring.
  pose proof (stage_bound _ _ _ _ _ _ H) as (C0 & C1 & C2).
  pose proof (Cmod_ge_0 x) as HX. pose proof (Cmod_ge_0 z) as HZ.
  assert (forall k d, (k < 3)%nat -> Cmod d <= / 10 ^ 17 * Cmod x -> Cmod (ti k * x + d)%C <= 6 * Cmod x) as Y.
  { intros k d Hk Hd. eapply Rle_trans; [apply Cmod_triangle|]. rewrite Cmod_mult, Cmod_R.
    assert (Rabs (ti k) <= 53/10) as Ht.
    { destruct k as [|[|[|k]]]; [| | |exfalso; lia]; unfold ti; rewrite rsum3; unfold rad_TI; apply Rabs_le; split; lra. }
    apply Rmult_le_compat_r with (r := Cmod x) in Ht; [|exact HX]. lra. }
  pose proof (Y 0%nat d0 ltac:(lia) H0) as Y0.
  assert (Cmod (ti 1 * x + d1)%C + Cmod (ti 2 * x + d2)%C <= 6 * Cmod x) as Y12.
  { eapply Rle_trans; [apply Rplus_le_compat; apply Cmod_triangle|]. rewrite !Cmod_mult, !Cmod_R.
    assert (Rabs (ti 1) + Rabs (ti 2) <= 56/10) as Ht.
    { replace (56/10) with (41/10 + 15/10) by field. apply Rplus_le_compat; unfold ti; rewrite rsum3; unfold rad_TI; apply Rabs_le; split; lra. }
    apply Rmult_le_compat_r with (r := Cmod x) in Ht; [|exact HX]. lra. }
  assert (xnew x w0 w1 = xnew x v0 v1 + (rad_T 2 0 * (w0 - v0) + (w1 - v1)))%C as En by (unfold xnew; ring).
  assert (Cmod (xnew x w0 w1) <= Cmod (xnew x v0 v1) + / 10 ^ 16 * Cmod x) as Hn.
  { rewrite En. eapply Rle_trans; [apply Cmod_triangle|]. apply Rplus_le_compat_l. eapply Rle_trans; [apply Cmod_triangle|].
    rewrite Cmod_mult, Cmod_R. assert (Rabs (rad_T 2 0) <= 1) as HT by (unfold rad_T; apply Rabs_le; split; lra).
    apply Rmult_le_compat_r with (r := Cmod (w0 - v0)%C) in HT; [|apply Cmod_ge_0]. lra. }
  split; [lra|]. split; [|lra].
  apply Rmult_le_compat_l with (r := Cmod z) in Hn; [|exact HZ].
  assert (0 <= Cmod z * Cmod x) by (now apply Rmult_le_pos). lra.
Qed.
End Step.
(** The two tables are inverse to each other up to the digits. *)
Lemma TI_T k w0 w1 w2 c : (k < 3)%nat -> Cmod w0 <= c -> Cmod w1 <= c -> Cmod w2 <= c ->
  let Z l := (rad_T l 0 * w0 + rad_T l 1 * w1 + rad_T l 2 * w2)%C in
  Cmod (rad_TI k 0 * Z 0%nat + rad_TI k 1 * Z 1%nat + rad_TI k 2 * Z 2%nat - match k with O => w0 | 1%nat => w1 | _ => w2 end)%C <= / 10 ^ 19 * c.
Proof.
  intros Hk H0 H1 H2 Z.
  set (e j := rsum 3 (fun l => rad_TI k l * rad_T l j) - (if Nat.eqb k j then 1 else 0)).
  assert (forall j, (j < 3)%nat -> Rabs (e j) <= / 10 ^ 19 / 3) as He.
  { intros j Hj. unfold e. rewrite rsum3. destruct k as [|[|[|k]]]; [| | |exfalso; lia]; (destruct j as [|[|[|j]]]; [| | |exfalso; lia]);
      unfold rad_TI, rad_T; cbn [Nat.eqb]; apply Rabs_le; split; lra. }
  match goal with |- Cmod ?v <= _ => replace v with (e 0%nat * w0 + e 1%nat * w1 + e 2%nat * w2)%C end.
  - assert (forall j w, (j < 3)%nat -> Cmod w <= c -> Cmod (e j * w)%C <= / 10 ^ 19 / 3 * c) as Hj.
    { intros j w Hj Hw. rewrite Cmod_mult, Cmod_R. apply Rmult_le_compat; [apply Rabs_pos|apply Cmod_ge_0|now apply He|exact Hw]. }
    pose proof (Hj 0%nat w0 ltac:(lia) H0). pose proof (Hj 1%nat w1 ltac:(lia) H1). pose proof (Hj 2%nat w2 ltac:(lia) H2).
    eapply Rle_trans; [apply Cmod_triangle|]. eapply Rle_trans; [apply Rplus_le_compat_r; apply Cmod_triangle|]. lra.
  - unfold Z, e. rewrite !rsum3. destruct w0 as (a0, b0), w1 as (a1, b1), w2 as (a2, b2).
    destruct k as [|[|[|k]]]; [| | |exfalso; lia]; cbn [Nat.eqb]; unfold RtoC; cbv [Cplus Cminus Copp Cmult fst snd]; f_equal; ring.
Qed.
