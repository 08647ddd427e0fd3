(** Vocabulary for the exact-arithmetic properties of Radau5 runs. *)
From Coq Require Import List Reals.
From Verif Require Import Arith Core ArithR.
Local Open Scope R_scope.

(** Ranges of the options under which the step-size controller of Radau5
    behaves.  They hold for the defaults (when [dtmax] is positive). *)
Record radau_sane {inf} (o : opts (RA inf)) : Prop := {
  rs_safe : 0 < o_safe o < 1;
  rs_facl : 1 < o_facl o;
  rs_facr : 0 < o_facr o <= 1;
  rs_quot1 : 0 < o_quot1 o <= 1;
  rs_dtmax : 0 < o_dtmax o }.

(** [x] comes strictly before [y] for an observer moving in direction [d]
    (1 or -1). *)
Definition before (d x y : R) : Prop := d * x < d * y.

(** The largest factor by which a failed attempt leaves the trial step: 0.8
    after a failed Newton iteration, [safe] or [1/facl] after a failed error
    test. *)
Definition radau_shrink {inf} (o : opts (RA inf)) : R :=
  Rmax (8/10) (Rmax (o_safe o) (/ o_facl o)).

(** The step a call of [step()] tries first.  The code compares
    [t + 1.0001 dt] with [tfinal * tdir]; forward, that is [tfinal]. *)
Definition radau_trial {inf P C} (s : integ (RA inf) P C) : R :=
  if Rle_dec (i_tfinal s * i_tdir s) (i_t s + 10001/10000 * i_dt s)
  then i_tfinal s - i_t s else i_dt s.

(** The nodes of the three-stage Radau IIA method are [c1], [c2] and 1. *)
Definition node1 : R := (4 - sqrt 6) / 10.
Definition node2 : R := (4 + sqrt 6) / 10.
(** Second divided difference at [node1], [node2], 1 of the polynomial through
    the values [z1], [z2], [z3] at these nodes. *)
Definition bend (z1 z2 z3 : R) : R :=
  ((z1 - z2) / (node1 - node2) - (z2 - z3) / (node2 - 1)) / (node1 - 1).
