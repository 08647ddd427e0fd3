(** The DOP853 coefficients satisfy the order conditions up to their last
    digits. *)
From Coq Require Import ZArith List Bool Reals Lra Lia.
From Verif Require Import SpecRK SpecDP8 TreeZ TreeFix.
Import ListNotations.
Local Open Scope Z_scope.

Definition B32 : Z := 10 ^ 32.
Definition toZ (q : frac) : Z := fst q * (B32 / snd q).
Definition fits (q : frac) : bool := (0 <? snd q) && (B32 mod snd q =? 0).
Lemma toZ_ok q : fits q = true -> fracR q = (IZR (toZ q) / IZR (B32 ^ Z.of_nat 1))%R.
Proof.
  intros H. apply andb_true_iff in H as [H1 H2]. apply Z.ltb_lt in H1. apply Z.eqb_eq in H2.
  unfold fracR, toZ. change (Z.of_nat 1) with 1. rewrite Z.pow_1_r.
  assert (IZR B32 = IZR (snd q) * IZR (B32 / snd q))%R as E.
  { rewrite <- mult_IZR. f_equal. pose proof (Z.div_mod B32 (snd q)). lia. }
  assert (0 < IZR B32)%R by (apply IZR_lt; reflexivity).
  apply IZR_lt in H1. rewrite E, mult_IZR. field. split; [|lra]. intros Z. rewrite Z in E. lra.
Qed.
Lemma toZ_list l : forallb fits l = true -> map fracR l = map (fun z => IZR z / IZR (B32 ^ Z.of_nat 1))%R (map toZ l).
Proof.
  intros H. rewrite map_map. apply map_ext_in. intros q Hq. apply toZ_ok. rewrite forallb_forall in H. now apply H.
Qed.
Definition zrows : list (list Z) := map (fun r => map toZ (snd r)) dp8_table.
Lemma dp8_zrows : map snd dp8_rows = map (map (fun z => IZR z / IZR (B32 ^ Z.of_nat 1))%R) zrows.
Proof.
  unfold dp8_rows, tableR, zrows. rewrite !map_map. cbn [snd].
  assert (forallb (fun r => forallb fits (snd r)) dp8_table = true) as H by (vm_compute; reflexivity).
  apply map_ext_in. intros r Hr. rewrite forallb_forall in H. specialize (H _ Hr). now apply toZ_list.
Qed.

(** Fixed point with 128 fractional bits; the absolute row sums are below 110. *)
Definition xrows : list (list Z) := map (fun r => map (fixZ 128) (snd r)) dp8_table.
Lemma dp8_xrows : Forall2 (fun r A => Forall2 (near 128 1) (snd r) A) dp8_rows xrows.
Proof. apply fixZ_rows; [lia|reflexivity]. Qed.
Definition dp8_check (n : nat) (b : list frac) (tgt : nat -> Z) (ed : Z) : bool :=
  let Z := xrows in let zb := map (fixZ 128) b in let L := flevels 128 Z n in
  levels_okL 128 110 12 Z n L && finals_ok 128 110 12 100 zb tgt 1 ed L.
Lemma dp8_check_sound n b tgt ed : 0 < ed -> forallb (fun q => 0 <? snd q) b = true -> dp8_check n b tgt ed = true ->
  forall t, (order t <= S n)%nat -> (Rabs (wsum (map fracR b) (weights dp8_rows t) - IZR (tgt (order t)) / density t) <= 1 / IZR ed)%R.
Proof.
  intros He Hb H. unfold dp8_check in H. cbv zeta in H. apply andb_true_iff in H as (H1 & H2).
  apply (final_sound 128 110 ltac:(lia) 12 dp8_rows xrows n (map fracR b) (map (fixZ 128) b) 100 tgt 1 ed dp8_xrows);
    [lia|lia|exact He|exact H1|apply fixZ_list; [lia|exact Hb]|exact H2].
Qed.
Lemma dp8_order8 t : (order t <= 8)%nat -> (Rabs (wsum dp8_b (weights dp8_rows t) - 1 / density t) <= 1 / 10 ^ 18)%R.
Proof.
  intros H. rewrite (pow_IZR 10 18).
  apply (dp8_check_sound 7 dp8_weights (fun _ => 1) (10 ^ 18)); [reflexivity|reflexivity|vm_compute; reflexivity|exact H].
Qed.
Lemma dp8_err5 t : (order t <= 5)%nat -> (Rabs (wsum (map fracR dp8_err) (weights dp8_rows t)) <= 1 / 10 ^ 18)%R.
Proof.
  intros H. rewrite (pow_IZR 10 18).
  replace (wsum (map fracR dp8_err) (weights dp8_rows t)) with (wsum (map fracR dp8_err) (weights dp8_rows t) - IZR 0 / density t)%R by (unfold Rdiv; ring).
  apply (dp8_check_sound 4 dp8_err (fun _ => 0) (10 ^ 18)); [reflexivity|reflexivity|vm_compute; reflexivity|exact H].
Qed.
Lemma dp8_bhh3 t : (order t <= 3)%nat -> (Rabs (wsum (map fracR dp8_bhh) (weights dp8_rows t) - 1 / density t) <= 1 / 10 ^ 18)%R.
Proof.
  intros H. rewrite (pow_IZR 10 18).
  apply (dp8_check_sound 2 dp8_bhh (fun _ => 1) (10 ^ 18)); [reflexivity|reflexivity|vm_compute; reflexivity|exact H].
Qed.
(** Not of order 9: the condition of the bush with eight leaves fails already
    in the sixth decimal. *)
Lemma dp8_not9 : exists t, order t = 9%nat /\ (1 / 10 ^ 6 <= Rabs (wsum dp8_b (weights dp8_rows t) - 1 / density t))%R.
Proof.
  exists (Node (repeat (Node []) 8)). split; [reflexivity|].
  assert (B32 ^ Z.of_nat (order (Node (repeat (Node []) 8))) <=
    Z.abs (wsumZ (map toZ dp8_weights) (weightsZ zrows (Node (repeat (Node []) 8))) * densityZ (Node (repeat (Node []) 8))
      - B32 ^ Z.of_nat (order (Node (repeat (Node []) 8)))) * (10 ^ 5)) as H by (vm_compute; discriminate).
  set (t := Node (repeat (Node []) 8)) in *. unfold dp8_b. rewrite toZ_list by (vm_compute; reflexivity).
  rewrite (weights_down B32 ltac:(reflexivity) dp8_rows zrows t dp8_zrows), (wsum_down B32 ltac:(reflexivity)), density_Z.
  change (1 + (order t - 1))%nat with (order t).
  set (w := wsumZ _ _) in *. assert (densityZ t = 9) as E by reflexivity. rewrite E in *.
  assert (0 < B32 ^ Z.of_nat (order t)) as HM by reflexivity.
  set (M := B32 ^ Z.of_nat (order t)) in *. clearbody w M. clear t E.
  apply IZR_le in H. rewrite mult_IZR, abs_IZR, minus_IZR, mult_IZR in H. apply IZR_lt in HM.
  replace (IZR w / IZR M - 1 / 9)%R with ((IZR w * 9 - IZR M) * / (IZR M * 9))%R by (field; lra).
  rewrite Rabs_mult, (Rabs_pos_eq (/ _)) by (left; apply Rinv_0_lt_compat; lra).
  apply Rmult_le_reg_r with (10 ^ 6 * (IZR M * 9))%R; [lra|].
  replace (Rabs (IZR w * 9 - IZR M) * / (IZR M * 9) * (10 ^ 6 * (IZR M * 9)))%R with (Rabs (IZR w * 9 - IZR M) * 10 ^ 6)%R by (field; lra).
  replace (1 / 10 ^ 6 * (10 ^ 6 * (IZR M * 9)))%R with (IZR M * 9)%R by (field; lra).
  change (IZR (10 ^ 5)) with 100000%R in H. lra.
Qed.

(** Row sums. *)
Definition fitsx (q : frac) : bool := (0 <? snd q) && ((10 ^ 33) mod snd q =? 0).
Definition toZx (q : frac) : Z := fst q * (10 ^ 33 / snd q).
Lemma toZx_ok q : fitsx q = true -> fracR q = (IZR (toZx q) / IZR (10 ^ 33))%R.
Proof.
  intros H. apply andb_true_iff in H as [H1 H2]. apply Z.ltb_lt in H1. apply Z.eqb_eq in H2.
  unfold fracR, toZx. set (T := 10 ^ 33) in *. assert (0 < T) as HT by reflexivity. clearbody T.
  assert (IZR T = IZR (snd q) * IZR (T / snd q))%R as E.
  { rewrite <- mult_IZR. f_equal. pose proof (Z.div_mod T (snd q)). lia. }
  apply IZR_lt in HT. apply IZR_lt in H1. rewrite E, mult_IZR. field. split; [|lra]. intros Z. rewrite Z in E. lra.
Qed.
Definition rsum_ok (r : frac * list frac) : bool :=
  fitsx (fst r) && forallb fitsx (snd r) &&
  (Z.abs (toZx (fst r) - fold_right Z.add 0 (map toZx (snd r))) * 10 ^ 29 <=? 6 * 10 ^ 33).
Lemma rsum_sound r : rsum_ok r = true ->
  (Rabs (fracR (fst r) - fold_right Rplus 0%R (map fracR (snd r))) <= 6 / 10 ^ 29)%R.
Proof.
  intros H. apply andb_true_iff in H as [H H3]. apply andb_true_iff in H as [H1 H2]. apply Z.leb_le in H3.
  rewrite (toZx_ok _ H1).
  assert (fold_right Rplus 0%R (map fracR (snd r)) = IZR (fold_right Z.add 0%Z (map toZx (snd r))) / IZR (10 ^ 33))%R as ->.
  { generalize (snd r), H2. clear. intros l. induction l as [|q l IH]; intros H; cbn [map fold_right] in *; [unfold Rdiv; ring|].
    cbn [forallb] in H. apply andb_true_iff in H as [Hq Hl]. rewrite (toZx_ok _ Hq), (IH Hl), plus_IZR. unfold Rdiv. ring. }
  rewrite (pow_IZR 10 29). change (10 ^ Z.of_nat 29) with (10 ^ 29).
  assert (0 < 10 ^ 33) as HT by reflexivity. assert (0 < 10 ^ 29) as HU by reflexivity.
  set (T := 10 ^ 33) in *. set (U := 10 ^ 29) in *. set (a := toZx _) in *. set (b := fold_right _ _ _) in *. clearbody T U a b.
  apply IZR_le in H3. rewrite !mult_IZR, abs_IZR, minus_IZR in H3. apply IZR_lt in HT. apply IZR_lt in HU.
  replace (IZR a / IZR T - IZR b / IZR T)%R with ((IZR a - IZR b) * / IZR T)%R by (field; lra).
  rewrite Rabs_mult, (Rabs_pos_eq (/ _)) by (left; apply Rinv_0_lt_compat; lra).
  apply Rmult_le_reg_r with (IZR T * IZR U)%R; [now apply Rmult_lt_0_compat|].
  replace (Rabs (IZR a - IZR b) * / IZR T * (IZR T * IZR U))%R with (Rabs (IZR a - IZR b) * IZR U)%R by (field; lra).
  replace (6 / IZR U * (IZR T * IZR U))%R with (6 * IZR T)%R by (field; lra). exact H3.
Qed.
