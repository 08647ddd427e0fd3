(** Model of src/dae/problem.rs.  The file is not compiled into the crate:
    lib.rs does not declare [dae], and it imports a trait [OdeFunction] that
    does not exist. *)
From Coq Require Import List Arith Bool.
From RecordUpdate Require Import RecordSet.
From Verif Require Import Arith Vec.
Import ListNotations RecordSetNotations.

(** src/dae/problem.rs:4-8 *)
Inductive dae_err :=
| InvalidIndexPars (a b c : nat)
| Invalid2ndOrderPars (m1 m2 : nat)
| InvlaidMassBw (jl ju ml mu : nat).

Section Dae.
Context {A : arith} {T : Type}.

(** src/dae/problem.rs:39-68 *)
Record dae_problem := mkDaeProblem {
  p_func : T; p_mass : option (list (vec A)); p_uinit : vec A; p_tspan : num A * num A;
  p_nind1 : nat; p_nind2 : nat; p_nind3 : nat; p_m1 : nat; p_m2 : nat;
  p_jac_ubw : nat; p_jac_lbw : nat; p_mm_ubw : nat; p_mm_lbw : nat }.

(** src/dae/problem.rs:70-98 *)
Record dae_builder := mkDaeBuilder {
  d_func : T; d_mass : option (list (vec A)); d_uinit : vec A; d_tspan : num A * num A;
  d_nind1 : option nat; d_nind2 : option nat; d_nind3 : option nat;
  d_m1 : option nat; d_m2 : option nat;
  d_jac_ubw : option nat; d_jac_lbw : option nat; d_mm_ubw : option nat; d_mm_lbw : option nat }.
#[export] Instance etaDae : Settable dae_builder := settable! mkDaeBuilder
  <d_func; d_mass; d_uinit; d_tspan; d_nind1; d_nind2; d_nind3; d_m1; d_m2; d_jac_ubw; d_jac_lbw; d_mm_ubw; d_mm_lbw>.

(** src/dae/problem.rs:100-116 *)
Definition dae_default (f : T) (u : vec A) (ts : num A * num A) : dae_builder :=
  mkDaeBuilder f None u ts None None None None None None None None None.
(** src/dae/problem.rs:118-121 *)
Definition dae_with_mass (m : list (vec A)) (b : dae_builder) : dae_builder := b <| d_mass := Some m |>.
(** src/dae/problem.rs:125-142 *)
Definition dae_num_index1 (v : nat) (b : dae_builder) : dae_builder := b <| d_nind1 := Some v |>.
Definition dae_num_index2 (v : nat) (b : dae_builder) : dae_builder := b <| d_nind2 := Some v |>.
Definition dae_num_index3 (v : nat) (b : dae_builder) : dae_builder := b <| d_nind3 := Some v |>.
(** src/dae/problem.rs:146-150 *)
Definition dae_second_order (v : nat * nat) (b : dae_builder) : dae_builder :=
  b <| d_m1 := Some (fst v) |> <| d_m2 := Some (snd v) |>.
(** src/dae/problem.rs:152-156, (lower, upper) *)
Definition dae_jac_bandwidths (v : nat * nat) (b : dae_builder) : dae_builder :=
  b <| d_jac_lbw := Some (fst v) |> <| d_jac_ubw := Some (snd v) |>.
(** src/dae/problem.rs:158-162 *)
Definition dae_mass_bandwidths (v : nat * nat) (b : dae_builder) : dae_builder :=
  b <| d_mm_lbw := Some (fst v) |> <| d_mm_ubw := Some (snd v) |>.

Definition unwrap_or (o : option nat) (d : nat) : nat := match o with Some v => v | None => d end.

(** src/dae/problem.rs:164-223.  [n - m1] below zero is a panic. *)
Definition dae_build (b : dae_builder) : res (dae_problem + dae_err) :=
  let n := length (d_uinit b) in
  (* 165-173 *)
  let nind1 := unwrap_or (d_nind1 b) n in
  let nind2 := unwrap_or (d_nind2 b) 0 in
  let nind3 := unwrap_or (d_nind3 b) 0 in
  if negb (nind1 + nind2 + nind3 =? n) then Ok (inr (InvalidIndexPars nind1 nind2 nind3)) else
  (* 175-184 *)
  let m1 := unwrap_or (d_m1 b) 0 in
  let m2 := unwrap_or (d_m1 b) 0 in
  let m2 := if m1 =? 0 then n else if m2 =? 0 then m1 else m2 in
  if n <? m1 + m2 then Ok (inr (Invalid2ndOrderPars m1 m2)) else
  (* 186-190 *)
  let jac_ubw := unwrap_or (d_jac_ubw b) n in
  let jac_lbw := unwrap_or (d_jac_lbw b) n in
  let mm_ubw := unwrap_or (d_mm_ubw b) n in
  let mm_lbw := unwrap_or (d_mm_lbw b) n in
  (* 192-198 *)
  if n <? m1 then Panic else
  let nm1 := n - m1 in
  let jband := jac_lbw <? nm1 in
  let jac_ubw := if negb jband then nm1 else jac_ubw in
  let jac_lbw := if negb jband then nm1 else jac_lbw in
  (* 200-206 *)
  if (match d_mass b with Some _ => true | None => false end) && ((jac_lbw <? mm_lbw) || (jac_ubw <? mm_ubw))
  then Ok (inr (InvlaidMassBw jac_lbw jac_ubw mm_lbw mm_ubw)) else
  (* 208-222 *)
  Ok (inl (mkDaeProblem (d_func b) (d_mass b) (d_uinit b) (d_tspan b) nind1 nind2 nind3 m1 m2 jac_ubw jac_lbw mm_ubw mm_lbw)).
End Dae.
Arguments dae_problem A T : clear implicits.
Arguments dae_builder A T : clear implicits.
