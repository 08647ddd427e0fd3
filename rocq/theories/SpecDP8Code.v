(** The constants of src/dorm_prince/dp8.rs that no function reads, arranged as
    the method they belong to (DOP853; Hairer, Norsett, Wanner, II.5 and II.6):
    error weights, and the continuous extension with its three further stages. *)
From Coq Require Import ZArith List Reals.
From Verif Require Import Arith ArithR SpecRK SpecDP8 DP8.
Import ListNotations.
Local Open Scope R_scope.

Section Code.
Variable inf : R.
(** Weights of the fifth-order error estimate, and of the third-order result. *)
Definition code_err : list R := [@dp8_er1 (RA inf); 0; 0; 0; 0; @dp8_er6 (RA inf); @dp8_er7 (RA inf); @dp8_er8 (RA inf); @dp8_er9 (RA inf); @dp8_er10 (RA inf); @dp8_er11 (RA inf); @dp8_er12 (RA inf)].
Definition code_bhh : list R := [@dp8_bhh1 (RA inf); 0; 0; 0; 0; 0; 0; 0; @dp8_bhh2 (RA inf); 0; 0; @dp8_bhh3 (RA inf)].
(** The twelve stages, the slope at the new point, and the three further stages. *)
Definition code_full : tableau := dp8_rows ++
  [ (1, dp8_b);
    (@dp8_c14 (RA inf), [@dp8_a141 (RA inf); 0; 0; 0; 0; 0; @dp8_a147 (RA inf); @dp8_a148 (RA inf); @dp8_a149 (RA inf); @dp8_a1410 (RA inf); @dp8_a1411 (RA inf); @dp8_a1412 (RA inf); @dp8_a1413 (RA inf)]);
    (@dp8_c15 (RA inf), [@dp8_a151 (RA inf); 0; 0; 0; 0; @dp8_a156 (RA inf); @dp8_a157 (RA inf); @dp8_a158 (RA inf); 0; 0; @dp8_a1511 (RA inf); @dp8_a1512 (RA inf); @dp8_a1513 (RA inf); @dp8_a1514 (RA inf)]);
    (@dp8_c16 (RA inf), [@dp8_a161 (RA inf); 0; 0; 0; 0; @dp8_a166 (RA inf); @dp8_a167 (RA inf); @dp8_a168 (RA inf); @dp8_a169 (RA inf); 0; 0; 0; @dp8_a1613 (RA inf); @dp8_a1614 (RA inf); @dp8_a1615 (RA inf)]) ].
Definition code_d (k : nat) : list R :=
  match k with
  | 4%nat => [@dp8_d41 (RA inf); 0; 0; 0; 0; @dp8_d46 (RA inf); @dp8_d47 (RA inf); @dp8_d48 (RA inf); @dp8_d49 (RA inf); @dp8_d410 (RA inf); @dp8_d411 (RA inf); @dp8_d412 (RA inf); @dp8_d413 (RA inf); @dp8_d414 (RA inf); @dp8_d415 (RA inf); @dp8_d416 (RA inf)]
  | 5%nat => [@dp8_d51 (RA inf); 0; 0; 0; 0; @dp8_d56 (RA inf); @dp8_d57 (RA inf); @dp8_d58 (RA inf); @dp8_d59 (RA inf); @dp8_d510 (RA inf); @dp8_d511 (RA inf); @dp8_d512 (RA inf); @dp8_d513 (RA inf); @dp8_d514 (RA inf); @dp8_d515 (RA inf); @dp8_d516 (RA inf)]
  | 6%nat => [@dp8_d61 (RA inf); 0; 0; 0; 0; @dp8_d66 (RA inf); @dp8_d67 (RA inf); @dp8_d68 (RA inf); @dp8_d69 (RA inf); @dp8_d610 (RA inf); @dp8_d611 (RA inf); @dp8_d612 (RA inf); @dp8_d613 (RA inf); @dp8_d614 (RA inf); @dp8_d615 (RA inf); @dp8_d616 (RA inf)]
  | _ => [@dp8_d71 (RA inf); 0; 0; 0; 0; @dp8_d76 (RA inf); @dp8_d77 (RA inf); @dp8_d78 (RA inf); @dp8_d79 (RA inf); @dp8_d710 (RA inf); @dp8_d711 (RA inf); @dp8_d712 (RA inf); @dp8_d713 (RA inf); @dp8_d714 (RA inf); @dp8_d715 (RA inf); @dp8_d716 (RA inf)]
  end.
(** Weight of stage [i] at [theta]: Hermite interpolation corrected in four
    further terms. *)
Definition code_dense (theta : R) : list R :=
  map (fun i =>
    let b := comp dp8_b i in let first := if Nat.eqb i 0 then 1 else 0 in let last := if Nat.eqb i 12 then 1 else 0 in
    theta * (b + (1 - theta) * (first - b + theta * (2 * b - first - last + (1 - theta) *
      (comp (code_d 4) i + theta * (comp (code_d 5) i + (1 - theta) * (comp (code_d 6) i + theta * comp (code_d 7) i)))))))
    (seq 0 16).
End Code.
