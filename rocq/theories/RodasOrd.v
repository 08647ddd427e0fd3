(** The Rodas coefficients satisfy the order conditions up to their last
    digits. *)
From Coq Require Import ZArith QArith Qreals List Bool Reals Lra Lia.
From Verif Require Import Arith ArithR SpecRK RKFacts SpecRos RodasConst SpecRodas RadauLin TreeZ.
Import ListNotations.

(** *** The same over the rationals *)
Local Open Scope Q_scope.
Definition q4 : list Q := [(1221224509226641 # 1000000000000000); (6019134481288629 # 1000000000000000); (1253708332932087 # 100000000000000); (-687886036105895 # 1000000000000000)].
Definition qa : list (list Q) := [[]; [(1544 # 1000)]; [(9466785280815826 # 10000000000000000); (2557011698983284 # 10000000000000000)]; [(3314825187068521 # 1000000000000000); (2896124015972201 # 1000000000000000); (9986419139977817 # 10000000000000000)]; q4; q4 ++ [1]].
Definition qc : list (list Q) := [[]; [(-56688 # 10000)]; [(-2430093356833875 # 1000000000000000); (-2063599157091915 # 10000000000000000)]; [(-1073529058151375 # 10000000000000000); (-9594562251023355 # 1000000000000000); (-2047028614809616 # 100000000000000)]; [(7496443313967647 # 1000000000000000); (-1024680431464352 # 100000000000000); (-3399990352819905 # 100000000000000); (117089089320616 # 10000000000000)]; [(8083246795921522 # 1000000000000000); (-7981132988064893 # 1000000000000000); (-3152159432874371 # 100000000000000); (1631930543123136 # 100000000000000); (-6058818238834054 # 1000000000000000)]].
Definition qd2 : list Q := [(1012623508344586 # 100000000000000); (-7487995877610167 # 1000000000000000); (-3480091861555747 # 100000000000000); (-7992771707568823 # 1000000000000000); (1025137723295662 # 1000000000000000)].
Definition qd3 : list Q := [(-6762803392801253 # 10000000000000000); (6087714651680015 # 1000000000000000); (1643084320892478 # 100000000000000); (2476722511418386 # 100000000000000); (-6594389125716872 # 1000000000000000)].
Definition qcomp (l : list Q) (j : nat) : Q := nth j l 0.
Definition qat (m : list (list Q)) (i j : nat) : Q := qcomp (nth i m []) j.
Definition qsum (n : nat) (f : nat -> Q) : Q := Qred (fold_right (fun i x => f i + x) 0 (seq 0 n)).
Definition qgi (i k : nat) : Q := (if Nat.eqb i k then 4 else 0) - qat qc i k.
(** Rows of the inverse of [1/gamma - c], which is lower triangular. *)
Fixpoint qrows (n : nat) : list (list Q) :=
  match n with
  | O => []
  | S n => let R := qrows n in
      R ++ [map (fun j => Qred (((if Nat.eqb n j then 1 else 0) - qsum n (fun k => qgi n k * qat R k j)) / 4)) (seq 0 6)]
  end.
Definition qG : list (list Q) := Eval vm_compute in qrows 6.
Definition qtab (f : nat -> nat -> Q) : list (list Q) := map (fun i => map (fun j => Qred (f i j)) (seq 0 6)) (seq 0 6).
Definition qalpha : list (list Q) := Eval vm_compute in qtab (fun i j => qsum 6 (fun k => qat qa i k * qat qG k j)).
Definition qbeta : list (list Q) := Eval vm_compute in qtab (fun i j => qat qalpha i j + qat qG i j).
Definition qclass (m : list Q) : list Q := map (fun j => qsum 6 (fun k => qcomp m k * qat qG k j)) (seq 0 6).
Fixpoint qweight (t : tree) (i : nat) : Q :=
  match t with
  | Node [] => 1
  | Node [t1] => qsum 6 (fun j => qat qbeta i j * qweight t1 j)
  | Node l => fold_right (fun t x => Qred (qsum 6 (fun j => qat qalpha i j * qweight t j) * x)) 1 l
  end.
Definition qros (b : list Q) (t : tree) : Q := qsum 6 (fun i => qcomp b i * qweight t i).

Lemma Q2R_red x : Q2R (Qred x) = Q2R x.
Proof. apply Qeq_eqR, Qred_correct. Qed.
Lemma Q2R_0 : Q2R 0 = 0%R. Proof. unfold Q2R. cbn. lra. Qed.
Lemma Q2R_1 : Q2R 1 = 1%R. Proof. unfold Q2R. cbn. lra. Qed.
Lemma qsum_R n f : Q2R (qsum n f) = rsum n (fun i => Q2R (f i)).
Proof.
  unfold qsum, rsum. rewrite Q2R_red. induction (seq 0 n) as [|i l IH]; cbn; [apply Q2R_0|].
  now rewrite Q2R_plus, IH.
Qed.
Lemma qcomp_R l j : comp (map Q2R l) j = Q2R (qcomp l j).
Proof. unfold comp, qcomp. rewrite <- Q2R_0 at 1. apply map_nth. Qed.
Lemma qat_R m i j : at_row (map (map Q2R) m) i j = Q2R (qat m i j).
Proof.
  unfold at_row, qat. change (@nil R) with (map Q2R []). rewrite (map_nth (map Q2R)). apply qcomp_R.
Qed.
Lemma qtab_at f i j : (i < 6)%nat -> (j < 6)%nat -> Q2R (qat (qtab f) i j) = Q2R (f i j).
Proof.
  intros Hi Hj. unfold qat, qtab, qcomp.
  rewrite (nth_indep _ _ (map (fun j => Qred (f 0%nat j)) (seq 0 6))) by (rewrite map_length, seq_length; exact Hi).
  rewrite (map_nth (fun i => map (fun j => Qred (f i j)) (seq 0 6))), seq_nth by exact Hi.
  rewrite (nth_indep _ _ (Qred (f (0 + i)%nat 0%nat))) by (rewrite map_length, seq_length; exact Hj).
  rewrite (map_nth (fun j => Qred (f (0 + i)%nat j))), seq_nth by exact Hj. apply Q2R_red.
Qed.

Section Sound.
Variable inf : R.
Notation M := (rodas inf).
Lemma lit_R n d : @lit (RA inf) n d = Q2R (n # d). Proof. reflexivity. Qed.
Lemma qa_R : ro_a M = map (map Q2R) qa.
Proof. cbn [map qa q4 app]. rewrite Q2R_1. reflexivity. Qed.
Lemma qc_R : ro_c M = map (map Q2R) qc. Proof. reflexivity. Qed.
Lemma gamma_R : (1 / ro_gamma M)%R = Q2R 4.
Proof. cbn. unfold roGAMMA. cbn. unfold rlit, Q2R. cbn. lra. Qed.
Lemma gi_R i k : ((if Nat.eqb i k then 1 / ro_gamma M else 0) - at_row (ro_c M) i k)%R = Q2R (qgi i k).
Proof. unfold qgi. rewrite Q2R_minus, qc_R, qat_R, gamma_R. destruct (Nat.eqb i k); [reflexivity|now rewrite Q2R_0]. Qed.

(** [qG] is the inverse from both sides. *)
Definition inverse_check : bool :=
  forallb (fun i => forallb (fun j =>
    Qeq_bool (qsum 6 (fun k => qat qG i k * qgi k j)) (if Nat.eqb i j then 1 else 0) &&
    Qeq_bool (qsum 6 (fun k => qgi i k * qat qG k j)) (if Nat.eqb i j then 1 else 0)) (seq 0 6)) (seq 0 6).
Lemma inverse_ok i j : (i < 6)%nat -> (j < 6)%nat ->
  rsum 6 (fun k => Q2R (qat qG i k) * Q2R (qgi k j))%R = (if Nat.eqb i j then 1 else 0)%R /\
  rsum 6 (fun k => Q2R (qgi i k) * Q2R (qat qG k j))%R = (if Nat.eqb i j then 1 else 0)%R.
Proof.
  intros Hi Hj. assert (inverse_check = true) as H by (vm_compute; reflexivity).
  unfold inverse_check in H. rewrite forallb_forall in H. specialize (H i ltac:(apply in_seq; lia)).
  rewrite forallb_forall in H. specialize (H j ltac:(apply in_seq; lia)). apply andb_true_iff in H as (H1 & H2).
  apply Qeq_bool_iff, Qeq_eqR in H1. apply Qeq_bool_iff, Qeq_eqR in H2. rewrite qsum_R in H1, H2.
  split.
  - rewrite (rsum_ext 6 _ (fun k => Q2R (qat qG i k * qgi k j))) by (intros k _; now rewrite Q2R_mult).
    rewrite H1. destruct (Nat.eqb i j); [apply Q2R_1|apply Q2R_0].
  - rewrite (rsum_ext 6 _ (fun k => Q2R (qgi i k * qat qG k j))) by (intros k _; now rewrite Q2R_mult).
    rewrite H2. destruct (Nat.eqb i j); [apply Q2R_1|apply Q2R_0].
Qed.
Lemma gamma_exists : gamma_matrix M (fun i j => Q2R (qat qG i j)).
Proof.
  intros i j Hi Hj. rewrite (rsum_ext (ro_stages M) _ (fun k => Q2R (qgi i k) * Q2R (qat qG k j))%R) by (intros k _; now rewrite gi_R).
  now apply inverse_ok.
Qed.
Lemma rsum_pick n (g : nat -> R) i : (i < n)%nat -> rsum n (fun k => (if Nat.eqb i k then 1 else 0) * g k)%R = g i.
Proof.
  intros Hi. rewrite <- (RadauStage.rsum_delta n g i Hi). apply rsum_ext. intros k _. destruct (Nat.eqb i k); lra.
Qed.
Lemma gamma_unique G : gamma_matrix M G -> forall i j, (i < 6)%nat -> (j < 6)%nat -> G i j = Q2R (qat qG i j).
Proof.
  intros H i j Hi Hj.
  rewrite <- (rsum_pick 6 (fun k => G k j) i Hi).
  rewrite (rsum_ext 6 _ (fun k => rsum 6 (fun l => Q2R (qat qG i l) * Q2R (qgi l k) * G k j)%R)).
  2:{ intros k Hk. rewrite <- (proj1 (inverse_ok i k Hi Hk)). rewrite Rmult_comm, <- rsum_scale. apply rsum_ext. intros l _. ring. }
  rewrite rsum_swap.
  rewrite (rsum_ext 6 _ (fun l => (if Nat.eqb j l then 1 else 0) * Q2R (qat qG i l))%R); [now apply rsum_pick|].
  intros l Hl. rewrite (Nat.eqb_sym j l), <- (H l j Hl Hj), Rmult_comm, <- rsum_scale. cbn [ro_stages rodas].
  apply rsum_ext. intros k _. rewrite gi_R. ring.
Qed.

Variable G : nat -> nat -> R.
Hypothesis HG : gamma_matrix M G.
Lemma alpha_R i j : (i < 6)%nat -> (j < 6)%nat -> alpha M G i j = Q2R (qat qalpha i j).
Proof.
  intros Hi Hj. change qalpha with (qtab (fun i j => qsum 6 (fun k => qat qa i k * qat qG k j))).
  rewrite qtab_at by assumption. rewrite qsum_R. unfold alpha. apply rsum_ext. intros k Hk.
  now rewrite Q2R_mult, qa_R, qat_R, (gamma_unique G HG) by assumption.
Qed.
Lemma beta_R i j : (i < 6)%nat -> (j < 6)%nat -> beta M G i j = Q2R (qat qbeta i j).
Proof.
  intros Hi Hj. change qbeta with (qtab (fun i j => qat qalpha i j + qat qG i j)).
  rewrite qtab_at by assumption. unfold beta. now rewrite Q2R_plus, alpha_R, (gamma_unique G HG) by assumption.
Qed.
Lemma class_R m j : (j < 6)%nat -> classical M G (map Q2R m) j = Q2R (qcomp (qclass m) j).
Proof.
  intros Hj. unfold classical, qclass, qcomp at 1.
  rewrite (nth_indep _ _ (qsum 6 (fun k => qcomp m k * qat qG k 0))) by (rewrite map_length, seq_length; exact Hj).
  rewrite (map_nth (fun j => qsum 6 (fun k => qcomp m k * qat qG k j))), seq_nth by exact Hj. rewrite qsum_R.
  apply rsum_ext. intros k Hk. now rewrite Q2R_mult, qcomp_R, (gamma_unique G HG) by assumption.
Qed.
Lemma weight_R : forall t i, (i < 6)%nat -> ros_weight M G t i = Q2R (qweight t i).
Proof.
  induction t as [l IH] using TreeZ.tree_rect'. intros i Hi.
  assert (forall A B, (forall j, (j < 6)%nat -> A i j = Q2R (B i j)) -> forall t, In t l ->
    rsum 6 (fun j => A i j * ros_weight M G t j)%R = Q2R (qsum 6 (fun j => B i j * qweight t j))) as Hs.
  { intros A B HAB t Ht. rewrite qsum_R. apply rsum_ext. intros j Hj. rewrite Q2R_mult, HAB by exact Hj. f_equal.
    rewrite Forall_forall in IH. now apply IH. }
  destruct l as [|t1 [|t2 l]]; cbn [ros_weight qweight].
  - now rewrite Q2R_1.
  - apply (Hs _ (qat qbeta)); [intros j Hj; now apply beta_R|now left].
  - remember (t1 :: t2 :: l) as l' eqn:E. clear E IH t1 t2 l.
    induction l' as [|t l' IH]; cbn [fold_right]; [now rewrite Q2R_1|].
    rewrite Q2R_red, Q2R_mult, IH by (intros; eapply Hs; [eassumption|now right]). f_equal.
    apply (Hs _ (qat qalpha)); [intros j Hj; now apply alpha_R|now left].
Qed.
Lemma ros_R b q t : (forall j, (j < 6)%nat -> b j = Q2R (qcomp q j)) -> ros_sum M G b t = Q2R (qros q t).
Proof.
  intros H. unfold ros_sum, qros. rewrite qsum_R. apply rsum_ext. intros i Hi.
  now rewrite Q2R_mult, H, weight_R by assumption.
Qed.

(** *** Trees *)
Definition leaf := Node [].
Definition small_trees : list tree :=
  [leaf; Node [leaf]; Node [leaf; leaf]; Node [Node [leaf]]; Node [leaf; leaf; leaf]; Node [leaf; Node [leaf]];
   Node [Node [leaf]; leaf]; Node [Node [leaf; leaf]]; Node [Node [Node [leaf]]]].
Lemma small_complete t : (order t <= 4)%nat -> In t small_trees.
Proof.
  intros H. unfold small_trees, leaf.
  destruct t as [l].
  repeat match goal with
    | l : list tree |- _ => destruct l as [|[?] ?]; cbn [order fold_right] in H; try (exfalso; lia)
    end.
  all: cbn; tauto.
Qed.

(** Residual of the condition of [t] for a result at [theta = 1] or for the
    coefficient of [theta ^ k] in a continuous output. *)
Definition close (q r e : Q) : bool := Qle_bool (q - r) e && Qle_bool (r - q) e.
Lemma close_R q r e : close q r e = true -> (Rabs (Q2R q - Q2R r) <= Q2R e)%R.
Proof.
  intros H. apply andb_true_iff in H as (H1 & H2). apply Qle_bool_iff, Qle_Rle in H1. apply Qle_bool_iff, Qle_Rle in H2.
  rewrite Q2R_minus in H1, H2. apply Rabs_le. lra.
Qed.
Definition qdens (t : tree) : Q := / inject_Z (densityZ t).
Lemma qdens_R t : (1 / density t)%R = Q2R (qdens t).
Proof.
  unfold qdens. rewrite density_Z, Q2R_inv.
  - unfold Q2R, inject_Z. cbn [Qnum Qden]. rewrite Rinv_1, Rmult_1_r. unfold Rdiv. now rewrite Rmult_1_l.
  - pose proof (densityZ_pos t). unfold Qeq, inject_Z. cbn. lia.
Qed.
Lemma eps_R n : Q2R (1 # n) = (1 / IZR (Zpos n))%R.
Proof. unfold Q2R. cbn. lra. Qed.

Definition qm : list Q := q4 ++ [1; 1].
Definition qhat : list Q := q4 ++ [1].
Lemma m_R : rodas_m inf = map Q2R qm. Proof. cbn [map qm q4 app]. rewrite Q2R_1. reflexivity. Qed.
Lemma hat_R : rodas_hat inf = map Q2R qhat. Proof. cbn [map qhat q4 app]. rewrite Q2R_1. reflexivity. Qed.

Lemma rodas_order4 t : (order t <= 4)%nat ->
  (Rabs (ros_sum M G (classical M G (rodas_m inf)) t - 1 / density t) <= 1 / 10 ^ 15)%R.
Proof.
  intros Ht. rewrite m_R, (ros_R _ (qclass qm)) by (intros j Hj; now apply class_R). rewrite qdens_R.
  assert (forallb (fun t => close (qros (qclass qm) t) (qdens t) (1 # 10 ^ 15)) small_trees = true) as H by (vm_compute; reflexivity).
  rewrite forallb_forall in H. specialize (H t (small_complete t Ht)). apply close_R in H. rewrite eps_R in H.
  rewrite pow_IZR. exact H.
Qed.
Lemma small3_complete t : (order t <= 3)%nat -> In t (firstn 4 small_trees).
Proof.
  intros H. unfold small_trees, leaf.
  destruct t as [l].
  repeat match goal with
    | l : list tree |- _ => destruct l as [|[?] ?]; cbn [order fold_right] in H; try (exfalso; lia)
    end.
  all: cbn; tauto.
Qed.
Lemma rodas_hat3 t : (order t <= 3)%nat ->
  (Rabs (ros_sum M G (classical M G (rodas_hat inf)) t - 1 / density t) <= 1 / 10 ^ 15)%R.
Proof.
  intros Ht. rewrite hat_R, (ros_R _ (qclass qhat)) by (intros j Hj; now apply class_R). rewrite qdens_R.
  assert (forallb (fun t => close (qros (qclass qhat) t) (qdens t) (1 # 10 ^ 15)) (firstn 4 small_trees) = true) as H by (vm_compute; reflexivity).
  rewrite forallb_forall in H. specialize (H t (small3_complete t Ht)). apply close_R in H. rewrite eps_R in H.
  rewrite pow_IZR. exact H.
Qed.
Lemma rodas_stiffly j : (j < 6)%nat -> classical M G (rodas_m inf) j = beta M G 5 j.
Proof.
  intros Hj. rewrite m_R, class_R, beta_R by (try lia; exact Hj).
  assert (forallb (fun j => Qeq_bool (qcomp (qclass qm) j) (qat qbeta 5 j)) (seq 0 6) = true) as H by (vm_compute; reflexivity).
  rewrite forallb_forall in H. specialize (H j ltac:(apply in_seq; lia)). now apply Qeq_bool_iff, Qeq_eqR in H.
Qed.

Lemma rodas_dense3 theta t : (0 <= theta <= 1)%R -> (order t <= 3)%nat ->
  (Rabs (ros_sum M G (rodas_cont inf G theta) t - theta ^ order t / density t) <= 1 / 10 ^ 14)%R.
Proof.
  intros Hth Ht.
  assert (ros_sum M G (rodas_cont inf G theta) t =
    theta * (ros_sum M G (classical M G (rodas_m inf)) t
             + (1 - theta) * (ros_sum M G (classical M G (rodas_d2 inf)) t + theta * ros_sum M G (classical M G (rodas_d3 inf)) t)))%R as ->.
  { unfold ros_sum. rewrite <- !rsum_scale, <- rsum_plus, <- rsum_scale, <- rsum_plus, <- rsum_scale.
    apply rsum_ext. intros i _. unfold rodas_cont. ring. }
  change (rodas_d2 inf) with (map Q2R qd2). change (rodas_d3 inf) with (map Q2R qd3).
  rewrite m_R, (ros_R _ (qclass qm)), (ros_R _ (qclass qd2)), (ros_R _ (qclass qd3)) by (intros j Hj; now apply class_R).
  replace (theta ^ order t / density t)%R with (theta ^ order t * (1 / density t))%R by (unfold Rdiv; ring). rewrite qdens_R.
  assert (forallb (fun t =>
     let a := qros (qclass qm) t in let b := qros (qclass qd2) t in let c := qros (qclass qd3) t in let d := qdens t in
     let k := order t in
     close (a + b) (if Nat.eqb k 1 then d else 0) (3 # 10 ^ 15) &&
     close (c - b) (if Nat.eqb k 2 then d else 0) (3 # 10 ^ 15) &&
     close (- c) (if Nat.eqb k 3 then d else 0) (3 # 10 ^ 15)) (firstn 4 small_trees) = true) as H by (vm_compute; reflexivity).
  rewrite forallb_forall in H. specialize (H t (small3_complete t Ht)). cbv zeta in H.
  set (a := qros (qclass qm) t) in *. set (b := qros (qclass qd2) t) in *. set (c := qros (qclass qd3) t) in *. set (d := qdens t) in *.
  clearbody a b c d.
  apply andb_true_iff in H as (H & H3). apply andb_true_iff in H as (H1 & H2).
  apply close_R in H1. apply close_R in H2. apply close_R in H3.
  rewrite Q2R_plus in H1. rewrite Q2R_minus in H2. rewrite Q2R_opp in H3.
  assert (Q2R (3 # 10 ^ 15) = 3 / 10 ^ 15)%R as E by (unfold Q2R; cbn [Qnum Qden]; rewrite pow_IZR; reflexivity).
  rewrite E in H1, H2, H3. clear E.
  assert (order t = 1 \/ order t = 2 \/ order t = 3)%nat as K by (destruct t; cbn [order] in *; lia).
  set (e := (3 / 10 ^ 15)%R) in *. assert (3 * e <= 1 / 10 ^ 14)%R as He by (unfold e; lra). 
  assert (forall x y z : R, Rabs x <= e -> Rabs y <= e -> Rabs z <= e ->
    Rabs (theta * x + theta ^ 2 * y + theta ^ 3 * z) <= 3 * e)%R as T.
  { clear - Hth. intros x y z Hx Hy Hz.
    assert (0 <= theta ^ 2 <= 1)%R by nra. assert (0 <= theta ^ 3 <= 1)%R by (cbn; nra).
    assert (forall w v, 0 <= w <= 1 -> Rabs v <= e -> Rabs (w * v) <= e)%R as U.
    { intros w v Hw Hv. rewrite Rabs_mult, (Rabs_right w) by lra. pose proof (Rabs_pos v). nra. }
    pose proof (U _ _ Hth Hx). pose proof (U _ _ H Hy). pose proof (U _ _ H0 Hz).
    eapply Rle_trans; [apply Rabs_triang|]. eapply Rle_trans; [apply Rplus_le_compat_r, Rabs_triang|]. lra. }
  specialize (T _ _ _ H1 H2 H3). eapply Rle_trans; [|exact He]. eapply Rle_trans; [|exact T]. right. f_equal.
  destruct K as [->|[->| ->]]; cbn [Nat.eqb]; rewrite ?Q2R_0; ring.
Qed.

(** Nodes and row sums given as separate constants. *)
Lemma rodas_nodes i : (i < 6)%nat ->
  (Rabs (rsum 6 (alpha M G i) - comp [0; @roC2 (RA inf); @roC3 (RA inf); @roC4 (RA inf); 1; 1] i) <= 1 / 10 ^ 15 /\
   Rabs (rsum 6 (G i) - comp [@roD1 (RA inf); @roD2 (RA inf); @roD3 (RA inf); @roD4 (RA inf); 0; 0] i) <= 1 / 10 ^ 15 /\
   ((i < 4)%nat -> Rabs (rsum i (beta M G i) - comp [0; @roBET2P (RA inf); @roBET3P (RA inf); @roBET4P (RA inf)] i) <= 1 / 10 ^ 15))%R.
Proof.
  intros Hi.
  set (l1 := [0; 386 # 1000; 21 # 100; 63 # 100; 1; 1]).
  set (l2 := [25 # 100; -1043 # 10000; 1035 # 10000; -3620000000000023 # 10 ^ 17; 0; 0]).
  set (l3 := [0; 317 # 10000; 635 # 10000; 3438 # 10000]).
  assert (forallb (fun i => close (qsum 6 (qat qalpha i)) (qcomp l1 i) (1 # 10 ^ 15) &&
    close (qsum 6 (qat qG i)) (qcomp l2 i) (1 # 10 ^ 15) &&
    (if Nat.ltb i 4 then close (qsum i (qat qbeta i)) (qcomp l3 i) (1 # 10 ^ 15) else true)) (seq 0 6) = true) as H
    by (vm_compute; reflexivity).
  rewrite forallb_forall in H. specialize (H i ltac:(apply in_seq; lia)).
  apply andb_true_iff in H as (H & H3). apply andb_true_iff in H as (H1 & H2).
  apply close_R in H1. apply close_R in H2. rewrite <- qcomp_R, qsum_R, eps_R in H1, H2.
  rewrite (rsum_ext 6 (alpha M G i) (fun j => Q2R (qat qalpha i j))) by (intros j Hj; now apply alpha_R).
  rewrite (rsum_ext 6 (G i) (fun j => Q2R (qat qG i j))) by (intros j Hj; now apply (gamma_unique G HG)).
  rewrite pow_IZR.
  split; [|split].
  - unfold l1 in H1. cbn [map] in H1. rewrite Q2R_0, Q2R_1 in H1. exact H1.
  - unfold l2 in H2. cbn [map] in H2. rewrite Q2R_0 in H2. exact H2.
  - intros H4. destruct (Nat.ltb_spec i 4) as [_|]; [|lia].
    apply close_R in H3. rewrite <- qcomp_R, qsum_R, eps_R in H3.
    rewrite (rsum_ext i (beta M G i) (fun j => Q2R (qat qbeta i j))) by (intros j Hj; apply beta_R; lia).
    unfold l3 in H3. cbn [map] in H3. rewrite Q2R_0 in H3. exact H3.
Qed.

(** Not of order 5. *)
Lemma rodas_not5 : exists t, order t = 5%nat /\
  (1 / 1000 <= Rabs (ros_sum M G (classical M G (rodas_m inf)) t - 1 / density t))%R.
Proof.
  exists (Node [leaf; Node [leaf; leaf]]). split; [reflexivity|].
  rewrite m_R, (ros_R _ (qclass qm)) by (intros j Hj; now apply class_R). rewrite qdens_R, <- Q2R_minus.
  assert (Qle_bool (1 # 1000) (qros (qclass qm) (Node [leaf; Node [leaf; leaf]]) - qdens (Node [leaf; Node [leaf; leaf]])) = true) as H
    by (vm_compute; reflexivity).
  apply Qle_bool_iff, Qle_Rle in H. rewrite eps_R in H. eapply Rle_trans; [exact H|]. apply Rle_abs.
Qed.
End Sound.
