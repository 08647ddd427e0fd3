(** The tabulated constants of src/radau/constants.rs against the Radau IIA
    coefficients. *)
From Coq Require Import ZArith List Reals Lra Lia.
From Verif Require Import Arith Vec Core ArithR SpecRK SpecRadau SpecStage Radau RadauDense.
Import ListNotations.
Local Open Scope R_scope.

Lemma sqrt6_lo : 24494897427831780981 / 10000000000000000000 <= sqrt 6.
Proof. apply Rsqr_incr_0_var; [|apply sqrt_pos]. rewrite Rsqr_sqrt by lra. unfold Rsqr. lra. Qed.
Lemma sqrt6_hi : sqrt 6 <= 24494897427831780982 / 10000000000000000000.
Proof. apply Rsqr_incr_0_var; [|lra]. rewrite Rsqr_sqrt by lra. unfold Rsqr. lra. Qed.

(** [radau_ainv] is the inverse of [radau_a]. *)
Lemma radau_ainv_inverse : forall k l, (k < 3)%nat -> (l < 3)%nat ->
  rsum 3 (fun m => radau_a k m * radau_ainv m l) = (if Nat.eqb k l then 1 else 0) /\
  rsum 3 (fun m => radau_ainv k m * radau_a m l) = (if Nat.eqb k l then 1 else 0).
Proof.
  intros k l Hk Hl. pose proof sqrt6_sq as Hq. set (q := sqrt 6) in *.
  destruct k as [|[|[|k]]]; try lia; destruct l as [|[|[|l]]]; try lia;
    unfold rsum, radau_a, radau_ainv; fold q; cbn [seq map fold_right Nat.eqb]; split; nra.
Qed.
(** The rows of [radau_a] sum to the nodes. *)
Lemma radau_a_nodes : forall k, (k < 3)%nat -> rsum 3 (radau_a k) = radau_c k.
Proof.
  intros k Hk. destruct k as [|[|[|k]]]; try lia;
    unfold rsum, radau_a, radau_c, node1, node2; set (q := sqrt 6); cbn [seq map fold_right]; lra.
Qed.

Section Tab.
Variable inf : R.
Notation RI := (RA inf).
Definition cT (k l : nat) : R :=
  match k, l with
  | O, O => @rT11 RI | O, S O => @rT12 RI | O, S (S O) => @rT13 RI
  | S O, O => @rT21 RI | S O, S O => @rT22 RI | S O, S (S O) => @rT23 RI
  | S (S O), O => @rT31 RI | S (S O), S O => 1 | S (S O), S (S O) => 0
  | _, _ => 0 end.
Definition cTI (k l : nat) : R :=
  match k, l with
  | O, O => @rTI11 RI | O, S O => @rTI12 RI | O, S (S O) => @rTI13 RI
  | S O, O => @rTI21 RI | S O, S O => @rTI22 RI | S O, S (S O) => @rTI23 RI
  | S (S O), O => @rTI31 RI | S (S O), S O => @rTI32 RI | S (S O), S (S O) => @rTI33 RI
  | _, _ => 0 end.
Definition d3 (c : nat -> R) (x : nat -> R) : R := c 0%nat * x 0%nat + c 1%nat * x 1%nat + c 2%nat * x 2%nat.

Lemma d3_bound c e x : (forall l, (l < 3)%nat -> Rabs (c l) <= e) -> Rabs (d3 c x) <= e * abs3 x.
Proof. intros H. unfold d3, abs3. apply lin3; apply H; lia. Qed.

Ltac consts := unfold cT, cTI, rT11, rT12, rT13, rT21, rT22, rT23, rT31, rTI11, rTI12, rTI13, rTI21, rTI22, rTI23,
  rTI31, rTI32, rTI33, rC1, rC2, rALPHA, rBETA, rU1 in *; cbn [lit RA] in *; unfold rlit in *.

Definition lam (V : nat -> R) (k : nat) : R :=
  match k with
  | O => @rU1 RI * V O | S O => @rALPHA RI * V 1%nat - @rBETA RI * V 2%nat
  | _ => @rBETA RI * V 1%nat + @rALPHA RI * V 2%nat end.

(** [T TI = 1 + O(1e-18)], both ways. *)
Lemma T_TI x k : (k < 3)%nat -> Rabs (d3 (cT k) (fun m => d3 (cTI m) x) - x k) <= 1 / 10^18 * abs3 x.
Proof.
  intros Hk.
  set (e := fun l => d3 (cT k) (fun m => cTI m l) - (if Nat.eqb k l then 1 else 0)).
  replace (_ - x k) with (d3 e x).
  2: { unfold e, d3. destruct k as [|[|[|k]]]; try lia; cbn [Nat.eqb]; ring. }
  apply d3_bound. intros l Hl. unfold e, d3.
  destruct k as [|[|[|k]]]; try lia; destruct l as [|[|[|l]]]; try lia; cbn [Nat.eqb]; consts; apply Rabs_le; split; lra.
Qed.
Lemma TI_T x k : (k < 3)%nat -> Rabs (d3 (cTI k) (fun m => d3 (cT m) x) - x k) <= 1 / 10^17 * abs3 x.
Proof.
  intros Hk.
  set (e := fun l => d3 (cTI k) (fun m => cT m l) - (if Nat.eqb k l then 1 else 0)).
  replace (_ - x k) with (d3 e x).
  2: { unfold e, d3. destruct k as [|[|[|k]]]; try lia; cbn [Nat.eqb]; ring. }
  apply d3_bound. intros l Hl. unfold e, d3.
  destruct k as [|[|[|k]]]; try lia; destruct l as [|[|[|l]]]; try lia; cbn [Nat.eqb]; consts; apply Rabs_le; split; lra.
Qed.

(** [A^-1 T = T Lambda + O(1e-15)]. *)
Lemma Ainv_T V k : (k < 3)%nat ->
  Rabs (d3 (radau_ainv k) (fun m => d3 (cT m) V) - d3 (cT k) (lam V)) <= 1 / 10^15 * abs3 V.
Proof.
  intros Hk.
  set (e := fun l => d3 (radau_ainv k) (fun m => cT m l) - d3 (cT k) (lam (fun j => if Nat.eqb j l then 1 else 0))).
  replace (_ - _) with (d3 e V).
  2: { unfold e, d3, lam. cbn [Nat.eqb]. destruct k as [|[|[|k]]]; try lia; ring. }
  apply d3_bound. intros l Hl. unfold e, d3, lam. pose proof sqrt6_lo. pose proof sqrt6_hi.
  destruct k as [|[|[|k]]]; try lia; destruct l as [|[|[|l]]]; try lia; cbn [Nat.eqb]; unfold radau_ainv;
    set (q := sqrt 6) in *; consts; apply Rabs_le; split; lra.
Qed.

Lemma V_bound V : abs3 V <= 10 * abs3 (fun m => d3 (cT m) V).
Proof.
  set (Z := fun m => d3 (cT m) V).
  assert (forall k, (k < 3)%nat -> Rabs (V k) <= Rabs (d3 (cTI k) Z) + 1 / 10^17 * abs3 V) as H.
  { intros k Hk. pose proof (TI_T V k Hk) as H. fold Z in H.
    replace (V k) with (d3 (cTI k) Z - (d3 (cTI k) Z - V k)) at 1 by ring.
    eapply Rle_trans; [apply Rabs_triang|]. rewrite Rabs_Ropp. lra. }
  pose proof (H 0%nat ltac:(lia)) as H0. pose proof (H 1%nat ltac:(lia)) as H1. pose proof (H 2%nat ltac:(lia)) as H2.
  assert (forall k, (k < 3)%nat -> Rabs (d3 (cTI k) Z) <= Rabs (cTI k 0) * Rabs (Z 0%nat) + Rabs (cTI k 1) * Rabs (Z 1%nat) + Rabs (cTI k 2) * Rabs (Z 2%nat)) as G.
  { intros k _. unfold d3. eapply Rle_trans; [apply Rabs_triang|]. rewrite <- !Rabs_mult. apply Rplus_le_compat_r. apply Rabs_triang. }
  pose proof (G 0%nat ltac:(lia)) as G0. pose proof (G 1%nat ltac:(lia)) as G1. pose proof (G 2%nat ltac:(lia)) as G2.
  assert (forall k l, Rabs (cTI k l) = Rabs (cTI k l)) as _ by reflexivity.
  assert (Rabs (cTI 0 0) <= 44/10 /\ Rabs (cTI 0 1) <= 4/10 /\ Rabs (cTI 0 2) <= 6/10 /\
          Rabs (cTI 1 0) <= 42/10 /\ Rabs (cTI 1 1) <= 4/10 /\ Rabs (cTI 1 2) <= 6/10 /\
          Rabs (cTI 2 0) <= 6/10 /\ Rabs (cTI 2 1) <= 27/10 /\ Rabs (cTI 2 2) <= 6/10) as (B1&B2&B3&B4&B5&B6&B7&B8&B9).
  { repeat split; consts; apply Rabs_le; split; lra. }
  unfold abs3 in *. pose proof (Rabs_pos (Z 0%nat)). pose proof (Rabs_pos (Z 1%nat)). pose proof (Rabs_pos (Z 2%nat)).
  pose proof (Rabs_pos (V 0%nat)). pose proof (Rabs_pos (V 1%nat)). pose proof (Rabs_pos (V 2%nat)).
  nra.
Qed.

(** One component of the stage equations. *)
Lemma stage_scalar V F X k : (k < 3)%nat -> (forall m, (m < 3)%nat -> lam V m - X m = d3 (cTI m) F) ->
  Rabs (d3 (radau_ainv k) (fun m => d3 (cT m) V) - F k - d3 (cT k) X) <=
  1 / 10^14 * abs3 (fun m => d3 (cT m) V) + 1 / 10^18 * abs3 F.
Proof.
  intros Hk H.
  assert (d3 (cT k) X = d3 (cT k) (lam V) - d3 (cT k) (fun m => d3 (cTI m) F)) as E.
  { unfold d3 at 1 2 3. rewrite <- !H by lia. ring. }
  rewrite E. pose proof (Ainv_T V k Hk) as H1. pose proof (T_TI F k Hk) as H2. pose proof (V_bound V) as H3.
  replace (_ - F k - _) with ((d3 (radau_ainv k) (fun m => d3 (cT m) V) - d3 (cT k) (lam V))
     + (d3 (cT k) (fun m => d3 (cTI m) F) - F k)) by ring.
  eapply Rle_trans; [apply Rabs_triang|]. lra.
Qed.
End Tab.

(** ** Order conditions *)
Lemma radau_stage_order : forall k m, (k < 3)%nat -> (m < 3)%nat ->
  rsum 3 (fun l => radau_a k l * radau_c l ^ m) = radau_c k ^ S m / INR (S m).
Proof.
  intros k m Hk Hm. pose proof sqrt6_sq as Hq. set (q := sqrt 6) in *.
  assert (q*q*q = 6*q) as Hq3 by (rewrite Hq; ring). assert (q*q*q*q = 36) as Hq4 by (rewrite Hq3; rewrite Rmult_assoc, Hq; ring).
  assert (q*q*q*q*q = 36 * q) as Hq5 by (rewrite Hq4; ring).
  assert (forall x, x ^ 2 = x * x) as H2 by (intros; ring). assert (forall x, x ^ 3 = x * (x * x)) as H3 by (intros; ring).
  destruct k as [|[|[|k]]]; try lia; destruct m as [|[|[|m]]]; try lia;
    unfold rsum, radau_a, radau_c, node1, node2; fold q; cbn [seq map fold_right];
    rewrite ?pow_O, ?pow_1, ?H2, ?H3; simpl INR; lra.
Qed.
Lemma radau_order : forall m, (m < 5)%nat ->
  rsum 3 (fun l => radau_a 2 l * radau_c l ^ m) = 1 / INR (S m).
Proof.
  intros m Hm. pose proof sqrt6_sq as Hq. set (q := sqrt 6) in *.
  assert (q*q*q = 6*q) as Hq3 by (rewrite Hq; ring). assert (q*q*q*q = 36) as Hq4 by (rewrite Hq3; rewrite Rmult_assoc, Hq; ring).
  assert (q*q*q*q*q = 36 * q) as Hq5 by (rewrite Hq4; ring).
  assert (forall x, x ^ 2 = x * x) as H2 by (intros; ring). assert (forall x, x ^ 3 = x * (x * x)) as H3 by (intros; ring).
  assert (forall x, x ^ 4 = (x * x) * (x * x)) as H4 by (intros; ring).
  assert (((4 - q) / 10) * ((4 - q) / 10) = (22 - 8 * q) / 100) as E1 by nra.
  assert (((4 + q) / 10) * ((4 + q) / 10) = (22 + 8 * q) / 100) as E2 by nra.
  destruct m as [|[|[|[|[|m]]]]]; try lia;
    unfold rsum, radau_a, radau_c, node1, node2; fold q; cbn [seq map fold_right];
    rewrite ?pow_O, ?pow_1, ?H2, ?H3, ?H4, ?E1, ?E2; simpl INR; lra.
Qed.
