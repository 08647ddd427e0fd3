(** Problems for [PropSub]. *)
From Coq Require Import ZArith List Bool Lia Reals Lra.
From Verif Require Import Arith Vec Core Spec SpecRK SpecLin SpecODE SpecStage SpecRadau SpecSub ArithR RKFacts VecFacts DP5Facts Jacobian JacFacts Radau Driver
  RadauSafe RadauTerm RadauEx RadauREx RadauInv RadauHist RadauJac RadauStage RadauLin StageForms StageEx LinFacts LinSpec RadauSub DP5 DP5Inv DP5Term DP5REx RadauLinEx.
Import ListNotations.
Local Open Scope R_scope.

Section Ex.
Variable inf : R.
Hypothesis Hinf : 0 < inf.

(** A decaying species and one that only grows from itself and is absent at the start. *)
Definition r_absent_rhs : rhs (RA inf) unit := fun _ u _ _ i =>
  match i with O => - comp u 0 | S O => comp u 0 * comp u 1 | _ => 0 end.
Definition r_absent : builder (RA inf) unit :=
  builder_default Radau5 r_absent_rhs ([1; 0] : list R) (0, 1) tt.
(** An oscillator at rest. *)
Definition r_still_rhs : rhs (RA inf) unit := fun _ u _ _ i =>
  match i with O => comp u 1 | S O => - comp u 0 | _ => 0 end.
Definition r_still : builder (RA inf) unit :=
  builder_default Radau5 r_still_rhs ([0; 0] : list R) (0, 1) tt.

Lemma two_blind (b : builder (RA inf) unit) s0 t u J h : overwrites (b_dudt b) -> b_dfdu b = None -> length (b_u b) = 2%nat ->
  length u = 2%nat -> square 2 J -> build Radau5 b = Ok s0 -> jacobian_at s0 t u J -> blind 2 h J ->
  let d := fd_delta (A:=RA inf) (comp u 0) in
  0 < d /\ forall i, (i < 2)%nat ->
    (b_dudt b (zeros 2) [comp u 0 + d; comp u 1] t (b_params b) i - b_dudt b (zeros 2) [comp u 0; comp u 1] t (b_params b) i) / d
    = if Nat.eqb i 0 then radau_gamma / h else 0.
Proof.
  intros How Hn Lb Lu HJ Hb (df & tr & tr' & E) (_ & Hbl) d.
  destruct (radau_frame b 0 0 s0 s0 Hb eq_refl) as (Pf & Pg & _ & Pp & _). cbn [Cache Radau5] in *.
  rewrite Pf, Pg, Pp, Hn in E.
  assert (shaped (A:=RA inf) 2 2 df) as Hdf by (eapply lens_shaped; [eapply jac_lens; exact E|apply is_shape_spec; exact HJ]).
  pose proof Lu as Lu'. destruct u as [|x [|y [|z u]]]; try discriminate.
  destruct (jacobian_fd (b_dudt b) df [x; y] t (b_params b) tr How Hdf) as (df' & E' & S' & H').
  cbn [num RA] in *. rewrite E in E'. assert (J = df') as -> by congruence.
  split; [apply fd_delta_pos|]. intros i Hi. rewrite <- (Hbl i Hi). rewrite <- (at2_entry inf 2) by (try assumption; lia).
  rewrite H' by (cbn; lia). rewrite !call_rhs_at by (rewrite zeros_length; exact Hi). cbn [div sub RA].
  rewrite rdiv_ok by (apply Rgt_not_eq, fd_delta_pos). reflexivity.
Qed.

Lemma def_sane f u : radau_sane (b_opts (builder_default (A:=RA inf) Radau5 f u (0, 1) tt)).
Proof. constructor; cbn; unfold n1; cbn; unfold rlit; try lra. Qed.

Lemma absent_ex : let b := r_absent in
  overwrites (b_dudt b) /\ b_u b <> [] /\ b_dfdu b = None /\
  (forall d u t, length d = 2%nat -> length u = 2%nat -> comp u 1 = comp (b_u b) 1 -> b_dudt b d u t (b_params b) 1%nat = 0) /\
  (forall s0 t u J h, build Radau5 b = Ok s0 -> length u = 2%nat -> comp u 1 = comp (b_u b) 1 -> square 2 J ->
     jacobian_at s0 t u J -> usable_step b h -> ~ blind 2 h J) /\
  exists fuel fuel2 s0 s, build Radau5 b = Ok s0 /\ integrate Radau5 None fuel fuel2 s0 = Ok s /\ rc (i_sol s) <> RContinue.
Proof.
  intros b. split; [intros d d' u t p i _ _; reflexivity|]. split; [discriminate|]. split; [reflexivity|]. split; [|split].
  - intros d u t _ _ Hu. cbn in Hu. unfold b. cbn. unfold r_absent_rhs. rewrite Hu. ring.
  - intros s0 t u J h Hb Lu Hu HJ Hj (Hh & Hp) Hbl.
    assert (0 < h) as Hpos by (apply Hp; [apply def_sane|cbn; unfold rlit; lra|cbn; lra]).
    destruct (two_blind b s0 t u J h) as (Hd & H); auto; [intros d d' w q p i _ _; reflexivity|].
    specialize (H 0%nat ltac:(lia)). set (d := fd_delta _) in *. clearbody d. cbn in H. unfold r_absent_rhs in H. cbn in H.
    replace ((- (comp u 0 + d) - - comp u 0) / d) with (-1) in H by (field; lra).
    assert (0 < radau_gamma / h); [|lra]. apply Rdiv_lt_0_compat; [unfold radau_gamma; lra|exact Hpos].
  - destruct (radau_build_ok b) as (s0 & Hb).
    destruct (radau_integrate_returns b None _ _ s0 no_callback_benign ltac:(discriminate) Hb (le_n _) (le_n _)) as (s & Hs & Hr & _).
    eexists _, _, s0, s. split; [exact Hb|]. split; [exact Hs|exact Hr].
Qed.

Lemma still_ex : let b := r_still in
  overwrites (b_dudt b) /\ b_u b <> [] /\
  (forall d t i, length d = 2%nat -> (i < 2)%nat -> b_dudt b d (b_u b) t (b_params b) i = 0) /\
  (forall s0 t J h, build Radau5 b = Ok s0 -> square 2 J -> jacobian_at s0 t (b_u b) J -> usable_step b h -> ~ blind 2 h J) /\
  exists fuel fuel2 s0 s, build Radau5 b = Ok s0 /\ integrate Radau5 None fuel fuel2 s0 = Ok s /\ rc (i_sol s) <> RContinue.
Proof.
  intros b. split; [intros d d' u t p i _ _; reflexivity|]. split; [discriminate|]. split; [|split].
  - intros d t i _ Hi. destruct i as [|[|i]]; try lia; unfold b; cbn; unfold comp; cbn; ring.
  - intros s0 t J h Hb HJ Hj Hh Hbl.
    destruct (two_blind b s0 t (b_u b) J h) as (Hd & H); auto; [intros d d' w q p i _ _; reflexivity|].
    specialize (H 1%nat ltac:(lia)). set (d := fd_delta _) in *. clearbody d. cbn in H. unfold r_still_rhs in H. cbn in H.
    replace ((- (0 + d) - - 0) / d) with (-1) in H by (field; lra). lra.
  - destruct (radau_build_ok b) as (s0 & Hb).
    destruct (radau_integrate_returns b None _ _ s0 no_callback_benign ltac:(discriminate) Hb (le_n _) (le_n _)) as (s & Hs & Hr & _).
    eexists _, _, s0, s. split; [exact Hb|]. split; [exact Hs|exact Hr].
Qed.

(** Opposite changes in two components: the line [x0 + x1 = 0]. *)
Definition line (x : nat -> R) : Prop := x 0%nat + x 1%nat = 0.
Lemma line_ex : let b := b_quad inf in
  subspace 2 line /\ overwrites (b_dudt b) /\
  (forall d u t, length d = 2%nat -> length u = 2%nat -> in_coset line (b_u b) u -> line (b_dudt b d u t (b_params b))) /\
  exists fuel k s0 s, build DormandPrince5 b = Ok s0 /\ reached DormandPrince5 None fuel (S k) s0 s.
Proof.
  intros b. split; [|split; [apply r_quad_overwrites|split]].
  - constructor; unfold line.
    + intros x y E H. rewrite <- !E by lia. exact H.
    + ring.
    + intros a x y Hx Hy. replace (a * x 0%nat + y 0%nat + (a * x 1%nat + y 1%nat)) with (a * (x 0%nat + x 1%nat) + (y 0%nat + y 1%nat)) by ring.
      rewrite Hx, Hy. ring.
  - intros d u t _ _ _. unfold line. change (b_dudt b) with (r_quad inf). unfold r_quad, poly4. cbn [Nat.eqb]. ring.
  - destruct (quad_reached inf Hinf) as (_ & _ & _ & _ & H). exact H.
Qed.
(** The same line for Radau5 and an exchange between two components. *)
Lemma swap_line_ex : let b := r_swap inf in
  b_u b <> [] /\ subspace 2 line /\
  (forall d u t, length d = 2%nat -> length u = 2%nat -> in_coset line (b_u b) u -> line (b_dudt b d u t (b_params b))) /\
  (forall s0 t u J, build Radau5 b = Ok s0 -> length u = 2%nat -> square 2 J -> jacobian_at s0 t u J ->
     (forall x, line x -> line (jmul 2 J x)) /\ forall h, usable_step b h -> ~ blind 2 h J) /\
  exists fuel fuel2 s0 s, build Radau5 b = Ok s0 /\ integrate Radau5 None fuel fuel2 s0 = Ok s /\ rc (i_sol s) <> RContinue.
Proof.
  intros b. split; [discriminate|]. split; [apply line_ex|]. split; [|split].
  - intros d u t _ _ _. unfold line, b, r_swap. cbn [builder_default b_dudt]. unfold r_swap_rhs. ring.
  - intros s0 t u J Hb Lu HJ Hj. split.
    + destruct Hj as (df & tr & tr' & E).
      destruct (radau_frame b 0 0 s0 s0 Hb eq_refl) as (Pf & Pg & _ & Pp & _). cbn [Cache Radau5] in *.
      assert (b_dfdu b = None) as Hn by reflexivity. rewrite Pf, Pg, Pp, Hn in E.
      assert (shaped (A:=RA inf) 2 2 df) as Hdf by (eapply lens_shaped; [eapply jac_lens; exact E|apply is_shape_spec; exact HJ]).
      destruct u as [|x [|y [|z u]]]; try discriminate.
      destruct (jacobian_fd (b_dudt b) df [x; y] t (b_params b) tr ltac:(intros d d' w q p i _ _; reflexivity) Hdf) as (df' & E' & S' & H').
      cbn [num RA] in *. rewrite E in E'. assert (J = df') as -> by congruence.
      intros v Hv. unfold line, jmul, rsum in *. cbn [seq map fold_right].
      assert (forall j, (j < 2)%nat -> entry df' 0 j + entry df' 1 j = 0) as Hc.
      { intros j Hj. rewrite <- !(at2_entry inf 2) by (try assumption; lia). rewrite !H' by (cbn; lia).
        rewrite !call_rhs_at by (rewrite zeros_length; cbn; lia). cbn [div sub RA].
        rewrite !rdiv_ok by (apply Rgt_not_eq, fd_delta_pos). unfold b, r_swap. cbn [builder_default b_dudt]. unfold r_swap_rhs.
        match goal with |- ?p / ?d + ?q / ?d = 0 => replace q with (- p) by ring; unfold Rdiv; ring end. }
      pose proof (Hc 0%nat ltac:(lia)). pose proof (Hc 1%nat ltac:(lia)).
      replace (entry df' 1 0) with (- entry df' 0 0) by lra. replace (entry df' 1 1) with (- entry df' 0 1) by lra. ring.
    + intros h _ Hbl.
      destruct (two_blind b s0 t u J h) as (Hd & H); auto; [intros d d' w q p i _ _; reflexivity|].
      specialize (H 1%nat ltac:(lia)). set (d := fd_delta _) in *. clearbody d. cbn in H. unfold r_swap_rhs in H. cbn in H.
      replace ((comp u 0 + d - comp u 1 - (comp u 0 - comp u 1)) / d) with 1 in H by (field; lra). lra.
  - apply swap_ex.
Qed.

(** The oscillator at rest with DormandPrince5. *)
Lemma d_still_ex : let b := r_dp5 inf 0 0 1 in
  overwrites (b_dudt b) /\
  (forall d t i, length d = 2%nat -> (i < 2)%nat -> b_dudt b d (b_u b) t (b_params b) i = 0) /\
  exists fuel fuel2 s0 s, build DormandPrince5 b = Ok s0 /\ integrate DormandPrince5 None fuel fuel2 s0 = Ok s.
Proof.
  intros b. split; [apply r_osc_overwrites|]. split.
  - intros d t i _ Hi. destruct i as [|[|i]]; try lia; unfold b; cbn; unfold comp; cbn; ring.
  - destruct (dp5_build_ok b) as (s0 & Hb).
    destruct (dp5_integrate_ends inf b s0) as (fuel & s & H); try assumption.
    + now apply default_sane.
    + apply r_osc_overwrites.
    + unfold b. rewrite r_dp5_dt; lra.
    + cbn; lra.
    + unfold b. rewrite r_dp5_atol; lra.
    + unfold b. rewrite r_dp5_rtol; lra.
    + apply r_dp5_stiff.
    + discriminate.
    + apply osc_locally_bounded.
    + eexists _, _, _, _. split; [exact Hb|exact H].
Qed.
End Ex.
