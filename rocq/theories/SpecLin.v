(** Linear systems over the reals and the complex numbers, for the statements
    about src/linalg.  A matrix is a list of rows; a complex matrix or vector is
    given by its real and imaginary parts. *)
From Coq Require Import List Reals.
From Verif Require Import SpecRK.
Import ListNotations.
Local Open Scope R_scope.

Definition square (n : nat) (a : list (list R)) : Prop :=
  length a = n /\ forall r, In r a -> length r = n.
Definition entry (a : list (list R)) (i j : nat) : R := nth j (nth i a []) 0.

(** [a x = b] *)
Definition solution (n : nat) (a : list (list R)) (x b : list R) : Prop :=
  length x = n /\ forall i, (i < n)%nat -> rsum n (fun j => entry a i j * comp x j) = comp b i.

(** [a x = 0] for some nonzero [x] *)
Definition singular_matrix (n : nat) (a : list (list R)) : Prop :=
  exists x, (exists i, (i < n)%nat /\ comp x i <> 0) /\ solution n a x (repeat 0 n).

Definition zero_column (n : nat) (a : list (list R)) (j : nat) : Prop :=
  forall i, (i < n)%nat -> entry a i j = 0.

(** Zero below the [lb]-th subdiagonal ([lb = 1]: upper Hessenberg). *)
Definition lower_band (n lb : nat) (a : list (list R)) : Prop :=
  forall i j, (i < n)%nat -> (j < n)%nat -> (j + lb < i)%nat -> entry a i j = 0.

(** [(ar + i ai) (xr + i xi) = br + i bi] *)
Definition csolution (n : nat) (ar ai : list (list R)) (xr xi br bi : list R) : Prop :=
  length xr = n /\ length xi = n /\
  forall i, (i < n)%nat ->
    rsum n (fun j => entry ar i j * comp xr j - entry ai i j * comp xi j) = comp br i /\
    rsum n (fun j => entry ar i j * comp xi j + entry ai i j * comp xr j) = comp bi i.

Definition csingular_matrix (n : nat) (ar ai : list (list R)) : Prop :=
  exists xr xi, (exists i, (i < n)%nat /\ (comp xr i <> 0 \/ comp xi i <> 0)) /\
    csolution n ar ai xr xi (repeat 0 n) (repeat 0 n).

(** Band storage of LAPACK type: entry [(i,j)] of the matrix is kept in row
    [lb + ub + i - j], column [j]; [lb] extra rows on top. *)
Definition band_entry (lb ub : nat) (ab : list (list R)) (i j : nat) : R :=
  if (Nat.leb i (j + lb) && Nat.leb j (i + ub))%bool then entry ab (lb + ub + i - j) j else 0.
Definition band_solution (n lb ub : nat) (ab : list (list R)) (x b : list R) : Prop :=
  length x = n /\
  forall i, (i < n)%nat -> rsum n (fun j => band_entry lb ub ab i j * comp x j) = comp b i.
Definition band_singular (n lb ub : nat) (ab : list (list R)) : Prop :=
  exists x, (exists i, (i < n)%nat /\ comp x i <> 0) /\ band_solution n lb ub ab x (repeat 0 n).

(** The upper Hessenberg part of a matrix, and similarity. *)
Definition hess_part (a : list (list R)) (i j : nat) : R := if Nat.leb i (j + 1) then entry a i j else 0.
Definition matmul (n : nat) (p q : nat -> nat -> R) (i j : nat) : R := rsum n (fun k => p i k * q k j).
Definition similar (n : nat) (a h : nat -> nat -> R) : Prop :=
  exists p q,
    (forall i j, (i < n)%nat -> (j < n)%nat -> matmul n p q i j = if Nat.eqb i j then 1 else 0) /\
    (forall i j, (i < n)%nat -> (j < n)%nat -> matmul n q p i j = if Nat.eqb i j then 1 else 0) /\
    (forall i j, (i < n)%nat -> (j < n)%nat -> h i j = matmul n (matmul n q a) p i j).
