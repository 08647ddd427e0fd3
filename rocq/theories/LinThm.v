(** The statements of PropLin.v. *)
From Coq Require Import ZArith List Bool Lia Reals Lra.
From Verif Require Import Arith Vec Core Linalg VecFacts ArithR SpecRK RKFacts SpecLin LinFacts LinR LinC LinSpec LinBad.
Import ListNotations.
Local Open Scope R_scope.

Lemma zero_column_singular n a : (0 < n)%nat -> zero_column n a 0 -> singular_matrix n a.
Proof.
  intros Hn Hz. exists (1 :: repeat 0 (n - 1)). split.
  - exists O. split; [exact Hn|]. cbn. lra.
  - split; [cbn; rewrite repeat_length; lia|]. intros i Hi. rewrite comp_repeat.
    rewrite (rsum_ext n _ (fun _ => 0)); [apply rsum_zero|]. intros j Hj.
    destruct j as [|j]; [rewrite Hz by exact Hi; ring|].
    unfold comp. cbn. rewrite nth_repeat. ring.
Qed.
Lemma czero_column_singular n ar ai : (0 < n)%nat -> zero_column n ar 0 -> zero_column n ai 0 -> csingular_matrix n ar ai.
Proof.
  intros Hn Hz Hz2. exists (1 :: repeat 0 (n - 1)), (repeat 0 n). split.
  - exists O. split; [exact Hn|]. left. cbn. lra.
  - split; [cbn; rewrite repeat_length; lia|]. split; [apply repeat_length|]. intros i Hi. rewrite comp_repeat.
    split; (rewrite (rsum_ext n _ (fun _ => 0)); [apply rsum_zero|]); intros j Hj; rewrite comp_repeat;
    (destruct j as [|j]; [rewrite Hz, Hz2 by exact Hi; ring|]);
    unfold comp; cbn; rewrite nth_repeat; ring.
Qed.

Lemma dech_solh_thm (inf : R) n lb a ip :
  (0 < n)%nat -> square n a -> length ip = n -> lower_band n lb a ->
  exists code a' ip', @dech (RA inf) n a lb ip = Ok (code, a', ip') /\
    (code = O <-> ~ singular_matrix n a \/ ((2 <= n)%nat /\ zero_column n a 0)) /\
    (~ singular_matrix n a -> forall b, length b = n ->
       exists x, @solh (RA inf) n a' lb b ip' = Ok x /\ solution n a x b /\
         forall y, solution n a y b -> y = x).
Proof.
  intros Hn Ha Hl Hb. destruct (dech_spec inf n lb a ip Hn Ha Hl Hb) as (code & a' & ip' & E & H1 & H2 & H3).
  exists code, a', ip'. split; [exact E|].
  assert (~ singular_matrix n a -> code = O) as H4.
  { intros Hs. destruct (Nat.eq_dec code 0) as [|Hc]; [assumption|]. elim Hs. now apply H1. }
  split; [split|].
  - intros Hc. destruct (H3 Hc) as [H|[H _]]; tauto.
  - intros [H|[H H']]; auto.
  - intros Hs. destruct (H3 (H4 Hs)) as [[H H']|[_ H]]; [|exact H].
    elim Hs. now apply zero_column_singular.
Qed.
Lemma dec_sol_thm (inf : R) n a ip :
  (0 < n)%nat -> square n a -> length ip = n ->
  exists code a' ip', @dec (RA inf) n a ip = Ok (code, a', ip') /\
    (code = O <-> ~ singular_matrix n a \/ ((2 <= n)%nat /\ zero_column n a 0)) /\
    (~ singular_matrix n a -> forall b, length b = n ->
       exists x, @sol (RA inf) n a' b ip' = Ok x /\ solution n a x b /\
         forall y, solution n a y b -> y = x).
Proof.
  intros Hn Ha Hl. destruct (dech_solh_thm inf n n a ip Hn Ha Hl) as (code & a' & ip' & E & H1 & H2).
  { intros i j Hi Hj Hij. lia. }
  exists code, a', ip'. split; [exact (eq_trans (dec_dech inf n a ip) E)|]. split; [exact H1|].
  intros Hs b Hb. destruct (H2 Hs b Hb) as (x & Ex & H). exists x. split; [|exact H].
  exact (eq_trans (sol_solh inf n a' b ip') Ex).
Qed.
Lemma dec_zero_column (inf : R) n a ip :
  (2 <= n)%nat -> square n a -> length ip = n -> zero_column n a 0 ->
  singular_matrix n a /\ exists a' ip', @dec (RA inf) n a ip = Ok (O, a', ip').
Proof.
  intros Hn Ha Hl Hz. split; [apply zero_column_singular; auto; lia|].
  destruct (dec_sol_thm inf n a ip ltac:(lia) Ha Hl) as (code & a' & ip' & E & H & _).
  assert (code = O) as -> by (apply H; tauto). eauto.
Qed.

Lemma dechc_solc_thm (inf : R) n lb ar ai ip :
  (0 < n)%nat -> (0 < lb)%nat -> square n ar -> square n ai -> length ip = n ->
  lower_band n lb ar -> lower_band n lb ai ->
  exists code ar' ai' ip', @dechc (RA inf) n ar ai lb ip = Ok (code, ar', ai', ip') /\
    (code = O <-> ~ csingular_matrix n ar ai \/ ((2 <= n)%nat /\ zero_column n ar 0 /\ zero_column n ai 0)) /\
    (~ csingular_matrix n ar ai -> forall br bi, length br = n -> length bi = n ->
       exists xr xi, @solc (RA inf) n ar' ai' br bi ip' = Ok (xr, xi) /\
         csolution n ar ai xr xi br bi /\
         forall yr yi, csolution n ar ai yr yi br bi -> yr = xr /\ yi = xi).
Proof.
  intros Hn Hlb Ha Hai Hl Hb Hbi.
  destruct (dechc_spec inf n lb ar ai ip Hn Hlb Ha Hai Hl Hb Hbi) as (code & ar' & ai' & ip' & E & H1 & H2 & H3).
  exists code, ar', ai', ip'. split; [exact E|].
  assert (~ csingular_matrix n ar ai -> code = O) as H4.
  { intros Hs. destruct (Nat.eq_dec code 0) as [|Hc]; [assumption|]. elim Hs. now apply H1. }
  split; [split|].
  - intros Hc. destruct (H3 Hc) as [H|[H _]]; tauto.
  - intros [H|(H & H' & H'')]; auto.
  - intros Hs. destruct (H3 (H4 Hs)) as [(H & H' & H'')|[_ H]]; [|exact H].
    elim Hs. now apply czero_column_singular.
Qed.
Lemma decc_solc_thm (inf : R) n ar ai ip :
  (0 < n)%nat -> square n ar -> square n ai -> length ip = n ->
  exists code ar' ai' ip', @decc (RA inf) n ar ai ip = Ok (code, ar', ai', ip') /\
    (code = O <-> ~ csingular_matrix n ar ai \/ ((2 <= n)%nat /\ zero_column n ar 0 /\ zero_column n ai 0)) /\
    (~ csingular_matrix n ar ai -> forall br bi, length br = n -> length bi = n ->
       exists xr xi, @solc (RA inf) n ar' ai' br bi ip' = Ok (xr, xi) /\
         csolution n ar ai xr xi br bi /\
         forall yr yi, csolution n ar ai yr yi br bi -> yr = xr /\ yi = xi).
Proof.
  intros Hn Ha Hai Hl. destruct (dechc_solc_thm inf n n ar ai ip Hn Hn Ha Hai Hl) as (code & ar' & ai' & ip' & E & H1 & H2).
  { intros i j Hi Hj Hij. lia. }
  { intros i j Hi Hj Hij. lia. }
  exists code, ar', ai', ip'. split; [exact (eq_trans (decc_dechc inf n ar ai ip Hn) E)|]. split; [exact H1|exact H2].
Qed.
Lemma decc_zero_column (inf : R) n ar ai ip :
  (2 <= n)%nat -> square n ar -> square n ai -> length ip = n -> zero_column n ar 0 -> zero_column n ai 0 ->
  csingular_matrix n ar ai /\ exists ar' ai' ip', @decc (RA inf) n ar ai ip = Ok (O, ar', ai', ip').
Proof.
  intros Hn Ha Hai Hl Hz Hz2. split; [apply czero_column_singular; auto; lia|].
  destruct (decc_solc_thm inf n ar ai ip ltac:(lia) Ha Hai Hl) as (code & ar' & ai' & ip' & E & H & _).
  assert (code = O) as -> by (apply H; tauto). eauto.
Qed.

(** ** Non-vacuity *)
Ltac sq := split; [reflexivity|]; intros r Hr; cbn in Hr; intuition (subst; reflexivity).
Ltac two H i := destruct i as [|[|i]]; [| |lia]; cbn in H.

Lemma dec_ex : square 2 [[0; 2]; [1; 1]] /\ ~ singular_matrix 2 [[0; 2]; [1; 1]] /\
  square 2 [[0; 2]; [0; 1]] /\ zero_column 2 [[0; 2]; [0; 1]] 0.
Proof.
  split; [sq|]. split; [|split; [sq|]].
  - intros (x & (i & Hi & Hx) & (Hl & H)).
    pose proof (H O ltac:(lia)) as H0. pose proof (H 1%nat ltac:(lia)) as H1. apply Hx.
    unfold rsum, comp in *. cbn in H0, H1. destruct i as [|[|i]]; [| |lia]; cbn; lra.
  - intros i Hi. destruct i as [|[|i]]; [reflexivity..|lia].
Qed.
Lemma decc_ex : square 2 [[0; 1]; [0; 0]] /\ square 2 [[0; 0]; [1; 0]] /\
  ~ csingular_matrix 2 [[0; 1]; [0; 0]] [[0; 0]; [1; 0]].
Proof.
  split; [sq|]. split; [sq|].
  intros (x & y & (i & Hi & Hx) & (Hl & Hl2 & H)).
  destruct (H O ltac:(lia)) as (H0 & H0'). destruct (H 1%nat ltac:(lia)) as (H1 & H1').
  unfold rsum, comp in *. cbn in H0, H1, H0', H1'. destruct i as [|[|i]]; [| |lia]; cbn in Hx; lra.
Qed.
Lemma dech_ex : square 3 [[1; 2; 3]; [4; 5; 6]; [0; 7; 9]] /\ lower_band 3 1 [[1; 2; 3]; [4; 5; 6]; [0; 7; 9]] /\
  ~ singular_matrix 3 [[1; 2; 3]; [4; 5; 6]; [0; 7; 9]].
Proof.
  split; [sq|]. split.
  - intros i j Hi Hj Hij. assert (i = 2%nat /\ j = O) as [-> ->] by lia. reflexivity.
  - intros (x & (i & Hi & Hx) & (Hl & H)).
    pose proof (H O ltac:(lia)) as H0. pose proof (H 1%nat ltac:(lia)) as H1. pose proof (H 2%nat ltac:(lia)) as H2. apply Hx.
    unfold rsum, comp in *. cbn in H0, H1, H2. destruct i as [|[|[|i]]]; [| | |lia]; cbn; lra.
Qed.

(** ** Refutations *)
Ltac band := intros i j Hi Hj Hij; destruct i as [|[|i]]; [| |lia]; (destruct j as [|[|j]]; [| |lia]); try lia; reflexivity.
Lemma solhc_refuted (inf : R) :
  exists ar ai br bi ip code ar' ai' ip' xr xi,
    square 2 ar /\ square 2 ai /\ lower_band 2 1 ar /\ lower_band 2 1 ai /\
    length br = 2%nat /\ length bi = 2%nat /\
    @dechc (RA inf) 2 ar ai 1 ip = Ok (code, ar', ai', ip') /\ code = O /\
    @solhc (RA inf) 2 ar' ai' 1 br bi ip' = Ok (xr, xi) /\
    ~ csolution 2 ar ai xr xi br bi /\ csolution 2 ar ai [0; 1] [0; 0] br bi.
Proof.
  pose proof (solhc_run inf) as H.
  destruct (@dechc (RA inf) 2 s_ar s_ai 1 [0%Z; 0%Z]) as [[[[code ar'] ai'] ip']| |] eqn:E; [|easy..].
  destruct H as (Hc & H).
  destruct (@solhc (RA inf) 2 ar' ai' 1 [1; 1] [0; 0] ip') as [[xr xi]| |] eqn:E2; [|easy..].
  exists s_ar, s_ai, [1; 1], [0; 0], [0%Z; 0%Z], code, ar', ai', ip', xr, xi.
  split; [sq|]. split; [sq|]. split; [band|]. split; [band|]. split; [reflexivity|]. split; [reflexivity|].
  split; [exact E|]. split; [exact Hc|]. split; [exact E2|]. split.
  - intros Hs. apply s_solution in Hs. unfold comp in Hs. destruct H as (H & _). cbn in *. lra.
  - split; [reflexivity|]. split; [reflexivity|]. intros i Hi.
    destruct i as [|[|i]]; [| |lia]; cbn; split; lra.
Qed.
Lemma dechc_diag_refuted (inf : R) :
  exists ar ai ip code ar' ai' ip',
    square 2 ar /\ square 2 ai /\ lower_band 2 0 ar /\ lower_band 2 0 ai /\
    @dechc (RA inf) 2 ar ai 0 ip = Ok (code, ar', ai', ip') /\ code = O /\
    csingular_matrix 2 ar ai.
Proof.
  pose proof (dechc_diag_run inf) as H.
  destruct (@dechc (RA inf) 2 z_ar s_ai 0 [0%Z; 0%Z]) as [[[[code ar'] ai'] ip']| |] eqn:E; [|easy..].
  exists z_ar, s_ai, [0%Z; 0%Z], code, ar', ai', ip'.
  split; [sq|]. split; [sq|]. split; [band|]. split; [band|]. split; [exact E|]. split; [exact H|exact z_singular].
Qed.
Lemma decb_solb_refuted (inf : R) :
  exists ab b ip code ab' ip' x,
    @decb (RA inf) 2 ab 1 1 ip = Ok (code, ab', ip') /\ code = O /\
    @solb (RA inf) 2 ab' 1 1 b ip' = Ok x /\
    ~ band_solution 2 1 1 ab x b /\ band_solution 2 1 1 ab [1; 1] b.
Proof.
  pose proof (band_run inf) as H.
  destruct (@decb (RA inf) 2 b_ab 1 1 [0%Z; 0%Z]) as [[[code ab'] ip']| |] eqn:E; [|easy..].
  destruct H as (Hc & H).
  destruct (@solb (RA inf) 2 ab' 1 1 [2; 3] ip') as [x| |] eqn:E2; [|easy..].
  exists b_ab, [2; 3], [0%Z; 0%Z], code, ab', ip', x.
  split; [exact E|]. split; [exact Hc|]. split; [exact E2|]. split; [|exact b_has].
  intros Hs. apply b_solution in Hs. unfold comp in Hs. cbn in *. lra.
Qed.
Lemma decb_singular_refuted (inf : R) :
  exists ab ip code ab' ip',
    @decb (RA inf) 2 ab 1 1 ip = Ok (code, ab', ip') /\ code = O /\ band_singular 2 1 1 ab.
Proof.
  pose proof (band_sing_run inf) as H.
  destruct (@decb (RA inf) 2 bs_ab 1 1 [0%Z; 0%Z]) as [[[code ab'] ip']| |] eqn:E; [|easy..].
  exists bs_ab, [0%Z; 0%Z], code, ab', ip'. split; [exact E|]. split; [exact H|exact bs_singular].
Qed.
Lemma elmhes_refuted (inf : R) :
  exists a inter h inter', square 3 a /\
    @elmhes (RA inf) 3 0 3 a inter = Ok (h, inter') /\ ~ similar 3 (entry a) (hess_part h).
Proof.
  pose proof (elmhes_run inf) as H.
  destruct (@elmhes (RA inf) 3 0 3 e_a [0%Z; 0%Z; 0%Z]) as [[h inter']| |] eqn:E; [|easy..].
  exists e_a, [0%Z; 0%Z; 0%Z], h, inter'. split; [sq|]. split; [exact E|].
  intros Hs. apply similar_trace3 in Hs. unfold hess_part in Hs. cbn [Nat.leb Nat.add] in Hs.
  destruct H as (H1 & H2 & H3). rewrite H1, H2, H3 in Hs. cbn in Hs. lra.
Qed.
