(** How the method RODAS (Hairer-Wanner, Solving ODEs II, appendix) uses the
    constants of RodasConst.v. *)
From Coq Require Import List Reals.
From Verif Require Import Arith ArithR SpecRK SpecRos RodasConst.
Import ListNotations.

Section Tab.
Variable inf : R.
Notation RI := (RA inf).
(** Stage 6 uses the embedded result, to which the last stage is added. *)
Definition rodas_first4 : list R := [@roA51 RI; @roA52 RI; @roA53 RI; @roA54 RI].
Definition rodas : rosenbrock := mkRos 6 (@roGAMMA RI)
  [ []; [@roA21 RI]; [@roA31 RI; @roA32 RI]; [@roA41 RI; @roA42 RI; @roA43 RI]; rodas_first4; rodas_first4 ++ [1%R] ]
  [ []; [@roC21 RI]; [@roC31 RI; @roC32 RI]; [@roC41 RI; @roC42 RI; @roC43 RI];
    [@roC51 RI; @roC52 RI; @roC53 RI; @roC54 RI]; [@roC61 RI; @roC62 RI; @roC63 RI; @roC64 RI; @roC65 RI] ].
Definition rodas_m : list R := rodas_first4 ++ [1%R; 1%R].
Definition rodas_hat : list R := rodas_first4 ++ [1%R].
Definition rodas_d2 : list R := [@roD21 RI; @roD22 RI; @roD23 RI; @roD24 RI; @roD25 RI].
Definition rodas_d3 : list R := [@roD31 RI; @roD32 RI; @roD33 RI; @roD34 RI; @roD35 RI].
(** The continuous output
    [u0 + theta (u1 - u0 + (1 - theta) (d2 + theta d3))]. *)
Definition rodas_cont (G : nat -> nat -> R) (theta : R) (j : nat) : R :=
  (theta * (classical rodas G (rodas_m) j
            + (1 - theta) * (classical rodas G (rodas_d2) j + theta * classical rodas G (rodas_d3) j)))%R.
End Tab.
