(** Exact real arithmetic as an instance of [arith].

    The theorems stated over [RA inf] speak about the algorithm the code
    implements, with rounding removed.  Choices where the reals and [f64]
    differ:
      - [f64::INFINITY] is an arbitrary real [inf] (used by the code only as the
        default of [dtmax]);
      - [x / 0] is [inf] or [-inf] by the sign of [x] ([0/0], NaN in [f64], is
        [inf]); theorems whose truth could depend on it assume the divisor
        non-zero;
      - [powf x y] is [exp (y ln x)] for [x > 0] and follows C99 at [x = 0]; for
        [x < 0] (NaN in [f64] unless [y] is an integer) it is [0] and never used
        by a theorem;
      - [sqrt] of a negative number is [0] (NaN in [f64]);
      - [copysign x 0] is [|x|]: the reals have no negative zero. *)
From Coq Require Import Reals ZArith Lra Lia.
From Verif Require Import Arith.
Local Open Scope R_scope.

Definition Rltb (x y : R) : bool := if Rlt_dec x y then true else false.
Definition Rleb (x y : R) : bool := if Rle_dec x y then true else false.
Definition Reqb (x y : R) : bool := if Req_EM_T x y then true else false.

Definition rdiv (inf x y : R) : R :=
  if Req_EM_T y 0 then (if Rlt_dec x 0 then - inf else inf) else x / y.

Definition rpow (inf x y : R) : R :=
  if Rlt_dec 0 x then Rpower x y
  else if Req_EM_T x 0
       then (if Rlt_dec 0 y then 0 else if Req_EM_T y 0 then 1 else inf)
       else 0.

Definition rcopysign (x y : R) : R := if Rlt_dec y 0 then - Rabs x else Rabs x.
Definition rfma (x y z : R) : R := x * y + z.
Definition rlit (n : Z) (d : positive) : R := IZR n / IZR (Zpos d).
Definition reps : R := / IZR (2 ^ 52).

Definition RA (inf : R) : arith := {|
  num := R;
  add := Rplus; sub := Rminus; mul := Rmult; div := rdiv inf; opp := Ropp;
  nabs := Rabs; nsqrt := sqrt; fma := rfma;
  powf := rpow inf; powi := powerRZ;
  nmax := Rmax; nmin := Rmin;
  copysign := rcopysign;
  ltb := Rltb; leb := Rleb; eqb := Reqb;
  lit := rlit;
  eps := reps;
  infty := inf |}.

Lemma Rltb_true x y : Rltb x y = true <-> x < y.
Proof. unfold Rltb; destruct (Rlt_dec x y); split; easy. Qed.
Lemma Rltb_false x y : Rltb x y = false <-> y <= x.
Proof. unfold Rltb; destruct (Rlt_dec x y); split; try easy; lra. Qed.
Lemma Rleb_true x y : Rleb x y = true <-> x <= y.
Proof. unfold Rleb; destruct (Rle_dec x y); split; easy. Qed.
Lemma Rleb_false x y : Rleb x y = false <-> y < x.
Proof. unfold Rleb; destruct (Rle_dec x y); split; try easy; lra. Qed.
Lemma Reqb_true x y : Reqb x y = true <-> x = y.
Proof. unfold Reqb; destruct (Req_EM_T x y); split; easy. Qed.
Lemma Reqb_false x y : Reqb x y = false <-> x <> y.
Proof. unfold Reqb; destruct (Req_EM_T x y); split; easy. Qed.

Lemma rdiv_ok inf x y : y <> 0 -> rdiv inf x y = x / y.
Proof. unfold rdiv; destruct (Req_EM_T y 0); easy. Qed.
Lemma rpow_pos inf x y : 0 < x -> rpow inf x y = Rpower x y.
Proof. unfold rpow; destruct (Rlt_dec 0 x); easy. Qed.

(** Lets Coq see a real number as a [num (RA inf)]. *)
Canonical Structure RA.

(** Unfold the operations of [RA inf]. *)
Ltac rnorm := cbn [RA num add sub mul div opp nabs nsqrt fma powf powi nmax nmin copysign ltb leb
                   eqb lit eps infty] in *;
  unfold n0, n1, of_nat in *;
  cbn [RA num add sub mul div opp nabs nsqrt fma powf powi nmax nmin copysign ltb leb
                   eqb lit eps infty] in *;
  unfold rlit, rfma, reps in *;
  change (num (RA _)) with R in *.
Ltac rlia := change (num (RA _)) with R in *; lia.
Ltac rlra := rnorm; lra.
