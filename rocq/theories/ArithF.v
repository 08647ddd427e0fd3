(** IEEE-754 binary64 (Rust's [f64]) as an instance of [arith], from Flocq's
    [BinarySingleNaN] (all NaNs identified: the code never looks at a NaN's
    payload; the sign of a NaN, which only [copysign] could reveal, is lost and
    taken to be positive).

    [powf] and [powi] are libm functions whose results IEEE-754 does not fix:
    they are parameters, and theorems over [F64 powf powi] hold for every
    choice unless they say what they need of them. *)
From Coq Require Import ZArith Bool.
From Flocq Require Import Core BinarySingleNaN.
From Verif Require Import Arith.

Local Instance prec_gt_0_53 : Prec_gt_0 53 := eq_refl.
Local Instance prec_lt_emax_53 : Prec_lt_emax 53 1024 := eq_refl.

Definition f64 := binary_float 53 1024.

(** Round-to-nearest-even operations. *)
Definition fadd : f64 -> f64 -> f64 := Bplus mode_NE.
Definition fsub : f64 -> f64 -> f64 := Bminus mode_NE.
Definition fmul : f64 -> f64 -> f64 := Bmult mode_NE.
Definition fdiv : f64 -> f64 -> f64 := Bdiv mode_NE.
Definition fsqrt : f64 -> f64 := Bsqrt mode_NE.
Definition ffma : f64 -> f64 -> f64 -> f64 := Bfma mode_NE.
Definition fopp : f64 -> f64 := Bopp.
Definition fabs : f64 -> f64 := Babs.

Definition fltb : f64 -> f64 -> bool := Bltb.
Definition fleb : f64 -> f64 -> bool := Bleb.
Definition feqb : f64 -> f64 -> bool := Beqb.

Definition fnan : f64 := B754_nan.
Definition finf : f64 := B754_infinity false.
Definition fzero : f64 := B754_zero false.

(** [f64::max]/[f64::min]: the other operand when one is NaN. *)
Definition fmax (x y : f64) : f64 :=
  if is_nan x then y else if is_nan y then x else if fltb x y then y else x.
Definition fmin (x y : f64) : f64 :=
  if is_nan x then y else if is_nan y then x else if fltb y x then y else x.

(** [f64::copysign] *)
Definition fcopysign (x y : f64) : f64 :=
  if Bool.eqb (Bsign x) (Bsign y) then x else fopp x.

(** An integer, rounded. *)
Definition f_of_Z (z : Z) : f64 := binary_normalize 53 1024 eq_refl eq_refl mode_NE z 0 false.

(** The literal [n/d], rounded once.  When [n] and [d] are both below [2^53]
    this is the division of two exact floats; otherwise the quotient is
    computed from [floor(|n| * 2^k / d)] with a sticky bit. *)
Definition lit_big (n : Z) (d : positive) : f64 :=
  let a := Z.abs n in
  let k := (Z.max 0 (Z.log2 (Zpos d) - Z.log2 a + 60))%Z in
  let q := (a * 2 ^ k / Zpos d)%Z in
  let r := (a * 2 ^ k mod Zpos d)%Z in
  let m := (2 * q + (if (r =? 0)%Z then 0 else 1))%Z in
  binary_normalize 53 1024 eq_refl eq_refl mode_NE
    (if (n <? 0)%Z then - m else m)%Z (- k - 1) false.

Definition f_lit (n : Z) (d : positive) : f64 :=
  if ((Z.abs n <? 2 ^ 53) && (Zpos d <? 2 ^ 53))%bool%Z
  then fdiv (f_of_Z n) (f_of_Z (Zpos d))
  else lit_big n d.

Definition F64 (fpowf : f64 -> f64 -> f64) (fpowi : f64 -> Z -> f64) : arith := {|
  num := f64;
  add := fadd; sub := fsub; mul := fmul; div := fdiv; opp := fopp;
  nabs := fabs; nsqrt := fsqrt; fma := ffma;
  powf := fpowf; powi := fpowi;
  nmax := fmax; nmin := fmin; copysign := fcopysign;
  ltb := fltb; leb := fleb; eqb := feqb;
  lit := f_lit;
  eps := Bldexp mode_NE (f_of_Z 1) (-52);
  infty := finf |}.
