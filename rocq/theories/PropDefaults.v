(** C56: what a user gets who sets no option. *)
From Coq Require Import ZArith List Bool Reals Lra.
From Verif Require Import Arith Vec Core Spec SpecRK SpecODE SpecReach SpecRadau ArithR DP5 Radau Rodas DP5R DP5REx DP5Term RadauEx DefaultFacts.
Import ListNotations.
Local Open Scope R_scope.

(** C56.  DormandPrince5 *)
Theorem C56_dp5_defaults :
  forall P inf (f : rhs (RA inf) P) u t0 t1 p,
  let b := builder_default DormandPrince5 f u (t0, t1) p in let o := b_opts b in
  b_dt b = 1 / 1000000 /\ b_dfdu b = None /\
  o_reltol o = 1 / 1000 /\ o_abstol o = 1 / 10000000 /\ o_dense o = false /\ o_dtmax o = inf /\
  o_max_steps o = Z.to_nat 100000 /\ o_max_stiff o = Z.to_nat 1000 /\
  o_safe o = 9 / 10 /\ o_facl o = 2 / 10 /\ o_facr o = 10 /\ o_beta o = 4 / 100 /\ (0 < inf -> sane_opts o).
Proof.
  intros P inf f u t0 t1 p b o. repeat (split; [try reflexivity; cbn; unfold n1, n0; cbn; unfold rlit; lra|]).
  exact (dp5_default_sane inf).
Qed.
Print Assumptions C56_dp5_defaults.

(** C56.  Radau5 *)
Theorem C56_radau_defaults :
  forall P inf (f : rhs (RA inf) P) u t0 t1 p,
  let b := builder_default Radau5 f u (t0, t1) p in let o := b_opts b in
  b_dt b = 1 / 1000000 /\ b_dfdu b = None /\
  o_reltol o = 1 / 1000 /\ o_abstol o = 1 / 10000000 /\ o_dense o = false /\ o_dtmax o = inf /\
  o_max_steps o = Z.to_nat 100000 /\ o_max_newt_iter o = 7%nat /\ o_modern_pred o = true /\ o_use_ext_col o = true /\
  o_safe o = 9 / 10 /\ o_facl o = 5 /\ o_facr o = 1 / 8 /\ o_quot1 o = 1 /\ o_quot2 o = 12 / 10 /\
  o_fnewt o = 0 /\ o_theta o = 1 / 1000 /\ (0 < inf -> radau_sane o).
Proof.
  intros P inf f u t0 t1 p b o. repeat (split; [try reflexivity; cbn; unfold n1, n0; cbn; unfold rlit; lra|]).
  exact (radau_default_sane inf).
Qed.
Print Assumptions C56_radau_defaults.

(** C56.  With them every forward integration of a locally bounded right-hand
    side by DormandPrince5 returns. *)
Theorem C56_dp5_defaults_return :
  forall P inf (f : rhs (RA inf) P) u t0 t1 p (s0 : integ (RA inf) P (dp5_cache (RA inf))),
  0 < inf -> overwrites f -> u <> [] -> t0 < t1 -> locally_bounded f p (length u) t0 t1 ->
  build DormandPrince5 (builder_default DormandPrince5 f u (t0, t1) p) = Ok s0 ->
  exists fuel s, integrate DormandPrince5 None fuel (S (Z.to_nat 100000)) s0 = Ok s.
Proof. intros P inf. exact (dp5_default_ends inf). Qed.
Print Assumptions C56_dp5_defaults_return.

Example C56_ex : forall inf, 0 < inf ->
  overwrites (r_osc inf) /\ locally_bounded (r_osc inf) tt 2 0 1 /\
  exists s0, build DormandPrince5 (builder_default DormandPrince5 (r_osc inf) ([1; 0] : list R) (0, 1) tt) = Ok s0.
Proof.
  intros inf Hi. split; [apply r_osc_overwrites|]. split; [exact (osc_locally_bounded inf 1 0 1)|]. apply DP5Inv.dp5_build_ok.
Qed.
