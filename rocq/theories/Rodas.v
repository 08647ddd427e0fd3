(** Model of src/rodas/algorithm.rs (the rest of src/rodas is constants and
    files not compiled into the crate). *)
From Coq Require Import ZArith List Bool.
From RecordUpdate Require Import RecordSet.
From Verif Require Import Arith Vec Core.
Import ListNotations RecordSetNotations.

Section Rodas.
Context {A : arith} {P : Type}.

(** src/rodas/algorithm.rs:8-18 *)
Definition rodas_default_opts : opts A :=
  opts_new <| o_reltol := lit A 1 1000 |> <| o_abstol := lit A 1 10000000 |>
           <| o_safe := lit A 9 10 |> <| o_facr := lit A 1 6 |> <| o_facl := lit A 5 1 |>
           <| o_max_steps := Z.to_nat 100000 |> <| o_modern_pred := true |>.

(** src/rodas/algorithm.rs:19-24: both are [unimplemented!()]. *)
Definition Rodas : algorithm A P := {|
  Cache := unit;
  alg_default_opts := rodas_default_opts;
  alg_new_cache := fun _ => Panic;
  alg_step := fun _ _ => Panic |}.
End Rodas.
