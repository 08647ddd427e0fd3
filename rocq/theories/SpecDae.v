(** What a problem builder was told, with the documented defaults. *)
From Coq Require Import List Arith.
From Verif Require Import Arith Vec Dae.

Section S.
Context {A : arith} {T : Type}.
Implicit Type b : dae_builder A T.
Definition given (o : option nat) (default v : nat) : Prop := match o with Some x => v = x | None => v = default end.
Definition sys_size b : nat := length (d_uinit b).
(** The numbers of variables of index 1, 2 and 3: "Sum must be equal to size of the system". *)
Definition indices_ok b : Prop := forall i1 i2 i3,
  given (d_nind1 b) (sys_size b) i1 -> given (d_nind2 b) 0 i2 -> given (d_nind3 b) 0 i3 -> i1 + i2 + i3 = sys_size b.
End S.

(** The calls a user chains between [default] and [build], and the last value
    they give for a quantity. *)
Inductive dae_call {A : arith} :=
| WithMass (m : list (vec A)) | NumIndex1 (v : nat) | NumIndex2 (v : nat) | NumIndex3 (v : nat)
| SecondOrder (m1 m2 : nat) | JacBandwidths (lower upper : nat) | MassBandwidths (lower upper : nat).
Arguments dae_call A : clear implicits.
Definition dae_calls {A T} (l : list (dae_call A)) (b : dae_builder A T) : dae_builder A T :=
  fold_left (fun b c => match c with
    | WithMass m => dae_with_mass m b | NumIndex1 v => dae_num_index1 v b | NumIndex2 v => dae_num_index2 v b
    | NumIndex3 v => dae_num_index3 v b | SecondOrder m1 m2 => dae_second_order (m1, m2) b
    | JacBandwidths l u => dae_jac_bandwidths (l, u) b | MassBandwidths l u => dae_mass_bandwidths (l, u) b end) l b.
Definition last_told {X Y} (sel : X -> option Y) (l : list X) : option Y :=
  fold_left (fun o c => match sel c with Some v => Some v | None => o end) l None.
