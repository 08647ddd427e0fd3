(** Band storage with the right number of rows and columns, and complex band
    systems. *)
From Coq Require Import List Reals.
From Verif Require Import SpecRK SpecLin.
Import ListNotations.
Local Open Scope R_scope.

Definition band_storage (n lb ub : nat) (ab : list (list R)) : Prop :=
  length ab = (2 * lb + ub + 1)%nat /\ forall r, In r ab -> length r = n.

Definition band_csolution (n lb ub : nat) (ar ai : list (list R)) (xr xi br bi : list R) : Prop :=
  length xr = n /\ length xi = n /\
  forall i, (i < n)%nat ->
    rsum n (fun j => band_entry lb ub ar i j * comp xr j - band_entry lb ub ai i j * comp xi j) = comp br i /\
    rsum n (fun j => band_entry lb ub ar i j * comp xi j + band_entry lb ub ai i j * comp xr j) = comp bi i.
