(** The continuous extension of DOP853 has order seven up to the digits given. *)
From Coq Require Import ZArith List Bool Reals Lra Lia.
From Verif Require Import Arith ArithR SpecRK SpecDP8 SpecDP8Code DP8 TreeZ TreeFix DP8Ord.
Import ListNotations.
Local Open Scope Z_scope.

Definition full_table : list (frac * list frac) := dp8_table ++ [((1, 1), dp8_weights)] ++ dp8_extra.
Definition dp8_d4 : list frac := [((-84289382761090128651353491142), 10^28); (0, 1); (0, 1); (0, 1); (0, 1); (56671495351937776962531783590, 10^29); ((-30689499459498916912797304727), 10^28); (23846676565120698287728149680, 10^28); (21170345824450282767155149946, 10^28); ((-87139158377797299206789907490), 10^29); (22404374302607882758541771650, 10^28); (63157877876946881815570249290, 10^29); ((-88990336451333310820698117400), 10^30); (18148505520854727256656404962, 10^27); ((-91946323924783554000451984436), 10^28); ((-44360363875948939664310572000), 10^28)].
Definition dp8_d5 : list frac := [(10427508642579134603413151009, 10^27); (0, 1); (0, 1); (0, 1); (0, 1); (24228349177525818288430175319, 10^26); (16520045171727028198505394887, 10^26); ((-37454675472269020279518312152), 10^26); ((-22113666853125306036270938578), 10^27); (77334326684722638389603898808, 10^28); ((-30674084731089398182061213626), 10^27); ((-93321305264302278729567221706), 10^28); (15697238121770843886131091075, 10^27); ((-31139403219565177677282850411), 10^27); ((-93529243588444783865713862664), 10^28); (35816841486394083752465898540, 10^27)].
Definition dp8_d6 : list frac := [(19985053242002433820987653617, 10^27); (0, 1); (0, 1); (0, 1); (0, 1); ((-38703730874935176555105901742), 10^26); ((-18917813819516756882830838328), 10^26); (52780815920542364900561016686, 10^26); ((-11573902539959630126141871134), 10^27); (68812326946963000169666922661, 10^28); ((-10006050966910838403183860980), 10^28); (77771377980534432092869265740, 10^29); ((-27782057523535084065932004339), 10^28); ((-60196695231264120758267380846), 10^27); (84320405506677161018159903784, 10^27); (11992291136182789328035130030, 10^27)].
Definition dp8_d7 : list frac := [((-25693933462703749003312586129), 10^27); (0, 1); (0, 1); (0, 1); (0, 1); ((-15418974869023643374053993627), 10^26); ((-23152937917604549567536039109), 10^26); (35763911791061412378285349910, 10^26); (93405324183624310003907691704, 10^27); ((-37458323136451633156875139351), 10^27); (10409964950896230045147246184, 10^26); (29840293426660503123344363579, 10^27); ((-43533456590011143754432175058), 10^27); (96324553959188282948394950600, 10^27); ((-39177261675615439165231486172), 10^27); ((-14972683625798562581422125276), 10^26)].
Section Link.
Variable inf : R.
Lemma full_link : code_full inf = tableR full_table.
Proof.
  unfold full_table, tableR. rewrite map_app. unfold code_full, dp8_rows, tableR. f_equal.
  assert (fracR (0, 1) = 0%R) as E0 by (unfold fracR; cbn; lra). assert (fracR (1, 1) = 1%R) as E1 by (unfold fracR; cbn; lra).
  unfold dp8_extra. cbn [map app fst snd]. rewrite E0, E1. reflexivity.
Qed.
Lemma d_link k : code_d inf k = map fracR (match k with 4%nat => dp8_d4 | 5%nat => dp8_d5 | 6%nat => dp8_d6 | _ => dp8_d7 end).
Proof.
  assert (fracR (0, 1) = 0%R) as E0 by (unfold fracR; cbn; lra).
  destruct k as [|[|[|[|[|[|[|k]]]]]]]; unfold code_d, dp8_d4, dp8_d5, dp8_d6, dp8_d7; cbn [map]; rewrite E0; reflexivity.
Qed.
Lemma err_link : code_err inf = map fracR dp8_err.
Proof. assert (fracR (0, 1) = 0%R) as E0 by (unfold fracR; cbn; lra). unfold code_err, dp8_err. cbn [map]. rewrite E0. reflexivity. Qed.
Lemma bhh_link : code_bhh inf = map fracR dp8_bhh.
Proof. assert (fracR (0, 1) = 0%R) as E0 by (unfold fracR; cbn; lra). unfold code_bhh, dp8_bhh. cbn [map]. rewrite E0. reflexivity. Qed.
End Link.

(** ** Order seven *)
(** The seven terms of the continuous extension. *)
Definition term (m i : nat) : R :=
  let b := comp dp8_b i in let first := if Nat.eqb i 0 then 1%R else 0%R in let last := if Nat.eqb i 12 then 1%R else 0%R in
  match m with
  | 0%nat => b | 1%nat => (first - b)%R | 2%nat => (2 * b - first - last)%R
  | 3%nat => comp (map fracR dp8_d4) i | 4%nat => comp (map fracR dp8_d5) i
  | 5%nat => comp (map fracR dp8_d6) i | _ => comp (map fracR dp8_d7) i
  end.
Definition fterm (m i : nat) : frac :=
  let q := nth i dp8_weights (0, 1) in let first := if Nat.eqb i 0 then 1 else 0 in let last := if Nat.eqb i 12 then 1 else 0 in
  match m with
  | 0%nat => q | 1%nat => (first * snd q - fst q, snd q) | 2%nat => (2 * fst q - (first + last) * snd q, snd q)
  | 3%nat => nth i dp8_d4 (0, 1) | 4%nat => nth i dp8_d5 (0, 1) | 5%nat => nth i dp8_d6 (0, 1) | _ => nth i dp8_d7 (0, 1)
  end.
Lemma comp_frac l i : comp (map fracR l) i = fracR (nth i l (0, 1)).
Proof. unfold comp. assert (0%R = fracR (0, 1)) as -> by (unfold fracR; cbn [fst snd]; lra). apply map_nth. Qed.
Lemma weights_den i : 0 < snd (nth i dp8_weights (0, 1)).
Proof.
  assert (forallb (fun q => 0 <? snd q) dp8_weights = true) as H by reflexivity. rewrite forallb_forall in H.
  destruct (Nat.lt_ge_cases i (length dp8_weights)) as [Hi|Hi]; [|rewrite nth_overflow by exact Hi; reflexivity].
  apply Z.ltb_lt, H, nth_In, Hi.
Qed.
Lemma term_frac m i : term m i = fracR (fterm m i).
Proof.
  unfold term, fterm. cbv zeta. unfold dp8_b. rewrite !comp_frac. pose proof (weights_den i) as Hd. apply IZR_lt in Hd.
  destruct m as [|[|[|[|[|[|m]]]]]]; try reflexivity; unfold fracR; cbn [fst snd]; set (q := nth i dp8_weights (0, 1)) in *; clearbody q;
    rewrite minus_IZR, ?mult_IZR, ?plus_IZR; destruct (Nat.eqb i 0), (Nat.eqb i 12); field; lra.
Qed.
Lemma term_list m : map (term m) (seq 0 16) = map fracR (map (fterm m) (seq 0 16)).
Proof. rewrite map_map. apply map_ext. apply term_frac. Qed.

(** [theta ^ n] in the same basis. *)
Definition target (m n : nat) : Z :=
  nth m (nth n [[]; [1]; [1;-1]; [1;-1;-1]; [1;-1;-2;1]; [1;-1;-3;2;1]; [1;-1;-4;3;3;-1]; [1;-1;-5;4;6;-3;-1]] []) 0.
Definition basis (th : R) (m : nat) : R :=
  match m with
  | 0%nat => th | 1%nat => th * (1 - th) | 2%nat => th * (1 - th) * th | 3%nat => th * (1 - th) * th * (1 - th)
  | 4%nat => th * (1 - th) * th * (1 - th) * th | 5%nat => th * (1 - th) * th * (1 - th) * th * (1 - th)
  | _ => th * (1 - th) * th * (1 - th) * th * (1 - th) * th
  end%R.
Definition combo (p g : nat -> R) : R := (p 0%nat * g 0%nat + (p 1%nat * g 1%nat + (p 2%nat * g 2%nat + (p 3%nat * g 3%nat + (p 4%nat * g 4%nat + (p 5%nat * g 5%nat + p 6%nat * g 6%nat))))))%R.
Lemma power_basis th n : (1 <= n <= 7)%nat -> (th ^ n = combo (basis th) (fun m => IZR (target m n)))%R.
Proof.
  intros H. do 8 (destruct n as [|n]; [try lia; unfold combo, basis, target; cbn [nth pow]; ring|]). lia.
Qed.
Lemma wsum_combo p (g : nat -> nat -> R) l xs :
  wsum (map (fun i => combo p (fun m => g m i)) l) xs = combo p (fun m => wsum (map (g m) l) xs).
Proof.
  unfold combo. revert xs. induction l as [|i l IH]; intros [|x xs]; cbn [map wsum]; try ring. rewrite IH. ring.
Qed.
Lemma basis_range th m : (0 <= th <= 1 -> 0 <= basis th m <= 1)%R.
Proof.
  intros H. assert (forall a b, 0 <= a <= 1 -> 0 <= b <= 1 -> 0 <= a * b <= 1)%R as Hm by (intros; nra).
  destruct m as [|[|[|[|[|[|m]]]]]]; cbn [basis]; repeat apply Hm; lra.
Qed.
Definition xfull : list (list Z) := map (fun r => map (fixZ 128) (snd r)) full_table.
Definition xterm (m : nat) : list frac := map (fterm m) (seq 0 16).
Lemma full_xrows : Forall2 (fun r A => Forall2 (near 128 1) (snd r) A) (tableR full_table) xfull.
Proof. apply fixZ_rows; [lia|reflexivity]. Qed.
Definition term_ok (L : list (list ent)) (m : nat) : bool :=
  let q := xterm m in forallb (fun q => 0 <? snd q) q && finals_ok 128 300 16 2000 (map (fixZ 128) q) (target m) 1 (10 ^ 16) L.
Definition dense_check (n : nat) : bool :=
  let Z := xfull in let L := flevels 128 Z n in levels_okL 128 300 16 Z n L && forallb (term_ok L) (seq 0 7).
Lemma dense_checked : dense_check 6 = true.
Proof. vm_compute. reflexivity. Qed.
Lemma dense_sound n : dense_check n = true -> forall m t, (m < 7)%nat -> (order t <= S n)%nat ->
  (Rabs (wsum (map (term m) (seq 0 16)) (weights (tableR full_table) t) - IZR (target m (order t)) / density t) <= 1 / IZR (10 ^ 16))%R.
Proof.
  intros C m t Hm Ht. unfold dense_check in C. cbv zeta in C. apply andb_true_iff in C as (C1 & C2).
  rewrite forallb_forall in C2. specialize (C2 m ltac:(apply in_seq; lia)). apply andb_true_iff in C2 as (C2 & C3).
  rewrite term_list. fold (xterm m).
  apply (final_sound 128 300 ltac:(lia) 16 (tableR full_table) xfull n (map fracR (xterm m)) (map (fixZ 128) (xterm m)) 2000 (target m) 1 (10 ^ 16) full_xrows);
    [lia|lia|reflexivity|exact C1|apply fixZ_list; [lia|exact C2]|exact C3|exact Ht].
Qed.
Lemma terms_ok m t : (m < 7)%nat -> (order t <= 7)%nat ->
  (Rabs (wsum (map (term m) (seq 0 16)) (weights (tableR full_table) t) - IZR (target m (order t)) / density t) <= 1 / IZR (10 ^ 16))%R.
Proof. exact (dense_sound 6 dense_checked m t). Qed.
Theorem dp8_dense7 inf th t : (0 <= th <= 1 -> (order t <= 7)%nat ->
  Rabs (wsum (code_dense inf th) (weights (code_full inf) t) - th ^ order t / density t) <= 7 / 10 ^ 16)%R.
Proof.
  intros Hth Ht. rewrite full_link.
  assert (code_dense inf th = map (fun i => combo (basis th) (fun m => term m i)) (seq 0 16)) as ->.
  { unfold code_dense. apply map_ext. intros i. rewrite !d_link. unfold combo, term, basis. cbv zeta. ring. }
  rewrite wsum_combo, power_basis by (destruct t; cbn [order] in *; lia).
  assert (forall m, (m < 7)%nat -> (Rabs (basis th m * (wsum (map (term m) (seq 0 16)) (weights (tableR full_table) t) - IZR (target m (order t)) / density t)) <= 1 / IZR (10 ^ 16)))%R as H.
  { intros m Hm. pose proof (terms_ok m t Hm Ht) as H1. pose proof (basis_range th m Hth). rewrite Rabs_mult, (Rabs_pos_eq (basis th m)) by lra.
    pose proof (Rabs_pos (wsum (map (term m) (seq 0 16)) (weights (tableR full_table) t) - IZR (target m (order t)) / density t)). nra. }
  pose proof (H 0%nat ltac:(lia)) as H0. pose proof (H 1%nat ltac:(lia)) as H1. pose proof (H 2%nat ltac:(lia)) as H2. pose proof (H 3%nat ltac:(lia)) as H3.
  pose proof (H 4%nat ltac:(lia)) as H4. pose proof (H 5%nat ltac:(lia)) as H5. pose proof (H 6%nat ltac:(lia)) as H6. clear H.
  rewrite (pow_IZR 10 16). change (10 ^ Z.of_nat 16) with (10 ^ 16). set (e := IZR (10 ^ 16)) in *.
  replace (7 / e)%R with (1 / e + (1 / e + (1 / e + (1 / e + (1 / e + (1 / e + 1 / e))))))%R by (unfold Rdiv; ring).
  unfold combo.
  match goal with |- (Rabs ?x <= _)%R => replace x with
    (basis th 0 * (wsum (map (term 0) (seq 0 16)) (weights (tableR full_table) t) - IZR (target 0 (order t)) / density t) +
    (basis th 1 * (wsum (map (term 1) (seq 0 16)) (weights (tableR full_table) t) - IZR (target 1 (order t)) / density t) +
    (basis th 2 * (wsum (map (term 2) (seq 0 16)) (weights (tableR full_table) t) - IZR (target 2 (order t)) / density t) +
    (basis th 3 * (wsum (map (term 3) (seq 0 16)) (weights (tableR full_table) t) - IZR (target 3 (order t)) / density t) +
    (basis th 4 * (wsum (map (term 4) (seq 0 16)) (weights (tableR full_table) t) - IZR (target 4 (order t)) / density t) +
    (basis th 5 * (wsum (map (term 5) (seq 0 16)) (weights (tableR full_table) t) - IZR (target 5 (order t)) / density t) +
     basis th 6 * (wsum (map (term 6) (seq 0 16)) (weights (tableR full_table) t) - IZR (target 6 (order t)) / density t)))))))%R by (unfold Rdiv; ring) end.
  repeat (eapply Rle_trans; [apply Rabs_triang|]; apply Rplus_le_compat; [assumption|]). assumption.
Qed.
Lemma code_err5 inf t : (order t <= 5)%nat -> (Rabs (wsum (code_err inf) (weights dp8_rows t)) <= 1 / 10 ^ 18)%R.
Proof. rewrite err_link. apply dp8_err5. Qed.
Lemma code_bhh3 inf t : (order t <= 3)%nat -> (Rabs (wsum (code_bhh inf) (weights dp8_rows t) - 1 / density t) <= 1 / 10 ^ 18)%R.
Proof. rewrite bhh_link. apply dp8_bhh3. Qed.
Lemma code_row_sums inf row : In row (code_full inf) -> (Rabs (fst row - fold_right Rplus 0 (snd row)) <= 6 / 10 ^ 29)%R.
Proof.
  rewrite full_link. intros H. apply in_map_iff in H as (r & <- & Hr). cbn [fst snd]. apply rsum_sound.
  assert (forallb rsum_ok full_table = true) as C by (vm_compute; reflexivity).
  rewrite forallb_forall in C. now apply C.
Qed.
