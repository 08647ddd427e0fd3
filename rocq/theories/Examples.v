(** Concrete problems, in binary64, used to show that the hypotheses of the
    property theorems are met by real runs.  [powf]/[powi] are replaced by the
    constant 1 (any oracle is allowed). *)
From Coq Require Import ZArith List Bool.
From Flocq Require Import BinarySingleNaN.
From Verif Require Import Arith Vec Core DP5 Radau ArithF.
Import ListNotations.

Definition XF : arith := F64 (fun _ _ => f_lit 1 1) (fun _ _ => f_lit 1 1).
Definition x (n : Z) (d : positive) : num XF := lit XF n d.

(** u0' = u1, u1' = -u0 *)
Definition osc : rhs XF unit := fun _ u _ _ i =>
  match i with O => at_ u 1 | _ => opp XF (at_ u 0) end.

Definition x_dp5 : builder XF unit :=
  builder_default (@DormandPrince5 XF unit) osc [x 1 1; x 0 1] (x 0 1, x 3 1000000) tt.

Definition the {X} (r : res X) (d : X) : X := match r with Ok x => x | _ => d end.
Definition is_ok {X} (r : res X) : bool := match r with Ok _ => true | _ => false end.
Lemma is_ok_ex {X} (r : res X) : is_ok r = true -> exists x, r = Ok x.
Proof. destruct r; [eauto|discriminate|discriminate]. Qed.


(** Decidable equality of floats (as data, so that proofs inside them are not
    evaluated). *)
Definition f_same (x y : f64) : bool :=
  match x, y with
  | B754_zero s, B754_zero s' => Bool.eqb s s'
  | B754_infinity s, B754_infinity s' => Bool.eqb s s'
  | B754_nan, B754_nan => true
  | B754_finite s m e _, B754_finite s' m' e' _ => Bool.eqb s s' && Pos.eqb m m' && Z.eqb e e'
  | _, _ => false
  end.
Lemma f_same_eq a b : f_same a b = true -> a = b.
Proof.
  intros H. apply B2SF_inj. destruct a, b; try discriminate H; cbn in H |- *.
  - apply Bool.eqb_prop in H. now subst.
  - apply Bool.eqb_prop in H. now subst.
  - reflexivity.
  - apply andb_true_iff in H as [H H3]. apply andb_true_iff in H as [H1 H2].
    apply Bool.eqb_prop in H1. apply Pos.eqb_eq in H2. apply Z.eqb_eq in H3. now subst.
Qed.
