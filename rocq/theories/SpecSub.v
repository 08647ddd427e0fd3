(** Vocabulary for the statements about invariant subspaces. *)
From Coq Require Import List Reals.
From Verif Require Import Core ArithR SpecRK SpecLin SpecRadau.
Local Open Scope R_scope.

(** A linear subspace of R^n; vectors are functions of the index, of which only
    the first [n] values matter. *)
Record subspace (n : nat) (V : (nat -> R) -> Prop) : Prop := mkSub {
  sub_ext : forall x y, (forall i, (i < n)%nat -> x i = y i) -> V x -> V y;
  sub_zero : V (fun _ => 0);
  sub_comb : forall a x y, V x -> V y -> V (fun i => a * x i + y i) }.

(** [u] lies in the affine space through [u0] in the directions [V]. *)
Definition in_coset (V : (nat -> R) -> Prop) (u0 u : list R) : Prop := V (fun i => comp u i - comp u0 i).

(** The matrix [J] applied to [x]. *)
Definition jmul (n : nat) (J : list (list R)) (x : nat -> R) (i : nat) : R := rsum n (fun j => entry J i j * x j).

(** Step sizes a run of [b] may use: not zero, and positive if the run goes
    forwards with sane options. *)
Definition usable_step {P inf} (b : builder (RA inf) P) (h : R) : Prop :=
  h <> 0 /\ (radau_sane (b_opts b) -> 0 < b_dt b -> b_t b < b_tfinal b -> 0 < h).
