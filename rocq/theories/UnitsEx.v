(** Problems in two systems of units for [PropUnits]. *)
From Coq Require Import ZArith List Bool Lia Reals Lra.
From RecordUpdate Require Import RecordSet.
From Verif Require Import Arith Vec Core Driver Spec DP5 Radau SpecRK SpecODE SpecLin SpecStage SpecIRK SpecUnits ArithR RKFacts JacFacts DP5REx
  RadauEx RadauREx RadauLinEx RadauRef RadRefEx UnitsRad.
Import ListNotations RecordSetNotations.
Local Open Scope R_scope.

(** Exchanging the two labels. *)
Definition exch (i : nat) : nat := match i with O => 1%nat | S O => O | _ => i end.
Lemma exch_renumbers : renumbers 2 exch exch.
Proof. intros [|[|i]] Hi; cbn; lia. Qed.

Section Ex.
Context (inf : R).
(** The oscillator of DP5REx.v with its components exchanged and measured in
    units of -1/2, and with a time unit of 1/3: [v0' = -v1/3], [v1' = v0/3]. *)
Definition osc_units_rhs : rhs (RA inf) unit := fun _ u _ _ i =>
  match i with O => - comp u 1 / 3 | _ => comp u 0 / 3 end.
Definition osc_units : builder (RA inf) unit :=
  let b := r_dp5 inf 1 0 1 in
  b <| b_dudt := osc_units_rhs |> <| b_u := ([0; -2] : list R) |> <| b_dt := 3 * b_dt b |> <| b_tfinal := (3 : R) |>
    <| b_opts := b_opts b <| o_abstol := 2 * o_abstol (b_opts b) |> <| o_dtmax := 3 * o_dtmax (b_opts b) |> |>.
Lemma osc_units_same : same_problem_in (-2) 3 exch (r_dp5 inf 1 0 1) osc_units.
Proof.
  constructor.
  - intros t u Hu. destruct u as [|x [|y [|]]]; try discriminate. unfold converted, ode.
    cbn. unfold osc_units_rhs, r_osc. cbn. repeat (f_equal; try field).
  - cbn. unfold converted. cbn. unfold comp; cbn. repeat (f_equal; try ring).
  - cbn. ring.
  - cbn. ring.
  - reflexivity.
  - unfold osc_units. cbn [b_opts set]. replace (Rabs (-2)) with 2 by (rewrite Rabs_left; lra). reflexivity.
Qed.

(** The linear exchange of RadauLinEx.v with its components exchanged and with a
    time unit of 1/2. *)
Definition swap_units_rhs : rhs (RA inf) unit := fun _ u _ _ i =>
  match i with O => (comp u 1 - comp u 0) / 2 | S O => (comp u 0 - comp u 1) / 2 | _ => 0 end.
Definition swap_units : builder (RA inf) unit :=
  let b := r_swap inf in
  b <| b_dudt := swap_units_rhs |> <| b_u := ([0; 1] : list R) |> <| b_dt := 2 * b_dt b |> <| b_tfinal := (2 : R) |>
    <| b_opts := b_opts b <| o_abstol := Rabs 1 * o_abstol (b_opts b) |> <| o_dtmax := 2 * o_dtmax (b_opts b) |> |>.
Lemma swap_units_same : same_problem_in 1 2 exch (r_swap inf) swap_units.
Proof.
  constructor.
  - intros t u Hu. destruct u as [|x [|y [|]]]; try discriminate. unfold converted, ode.
    cbn. unfold swap_units_rhs, r_swap_rhs. cbn. repeat (f_equal; try field).
  - cbn. unfold converted. cbn. unfold comp; cbn. repeat (f_equal; try ring).
  - cbn. ring.
  - cbn. ring.
  - reflexivity.
  - reflexivity.
Qed.
Lemma swap_units_seeing h t u : 0 < h -> length u = 2%nat -> ~ blind 2 h (jac_of swap_units t u).
Proof.
  intros Hh Lu (_ & H). specialize (H 0%nat ltac:(lia)). cbn [Nat.eqb] in H.
  destruct u as [|x [|y [|]]]; try discriminate.
  unfold entry, vect in H. cbn [the_jacobian vect swap_units r_swap builder_default b_dfdu b_dudt b_params length seq map nth set] in H.
  cbn [comp nth] in H. set (d := fd_step x) in H.
  assert (0 < d) as Hd by exact (fd_delta_pos (inf := inf) x).
  assert (0 < radau_gamma / h) as Hg by (apply Rdiv_lt_0_compat; [unfold radau_gamma; lra|exact Hh]).
  rewrite <- H in Hg. clear H. cbn in Hg. unfold swap_units_rhs in Hg. cbn in Hg.
  replace (((y + 0 - (x + d)) / 2 - (y - x) / 2) / d) with (-1/2) in Hg by (field; lra). lra.
Qed.
End Ex.
