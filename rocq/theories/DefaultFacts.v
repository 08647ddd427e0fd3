(** Facts about the default options. *)
From Coq Require Import ZArith List Bool Lia Reals Lra.
From Verif Require Import Arith Vec Core Spec SpecRK SpecODE SpecReach SpecRadau ArithR DP5 Radau Rodas DP5R DP5Term Driver RadauEx RadauInv.
Import ListNotations.
Local Open Scope R_scope.

Section Defaults.
Context {P : Type} (inf : R).
Notation RI := (RA inf).
Lemma dp5_default_sane : 0 < inf -> sane_opts (@dp5_default_opts RI).
Proof. intros H. constructor; cbn; unfold rlit; lra. Qed.
Lemma radau_default_sane : 0 < inf -> radau_sane (@radau_default_opts RI).
Proof. intros H. constructor; cbn; unfold n1; cbn; unfold rlit; lra. Qed.

Lemma dp5_default_ends (f : rhs RI P) u t0 t1 p (s0 : integ RI P (dp5_cache RI)) :
  0 < inf -> overwrites f -> u <> [] -> t0 < t1 -> locally_bounded f p (length u) t0 t1 ->
  build DormandPrince5 (builder_default DormandPrince5 f u (t0, t1) p) = Ok s0 ->
  exists fuel s, integrate DormandPrince5 None fuel (S (Z.to_nat 100000)) s0 = Ok s.
Proof.
  intros Hi Hf Hu Ht Hl Hb.
  apply (dp5_integrate_ends inf (builder_default DormandPrince5 f u (t0, t1) p) s0).
  - exact (dp5_default_sane Hi).
  - exact Hf.
  - cbn. unfold rlit. lra.
  - exact Ht.
  - cbn. unfold rlit. lra.
  - cbn. unfold rlit. lra.
  - change (Z.to_nat 1000 <> 0%nat). lia.
  - exact Hu.
  - exact Hl.
  - exact Hb.
Qed.
End Defaults.
