(** Model of src/ode/jacobian.rs. *)
From Coq Require Import ZArith List Bool.
From Verif Require Import Arith Vec Core.
Import ListNotations.

Section Jac.
Context {A : arith} {P : Type}.
Local Open Scope num_scope.

(** The finite-difference increment for component value [usafe],
    src/ode/jacobian.rs:24 *)
Definition fd_delta (usafe : num A) : num A :=
  nsqrt A (eps A * nmax A usafe (lit A 1 100000)).

(** One round of the loop src/ode/jacobian.rs:22-31: perturb component [i],
    evaluate, write column [i] of [df], restore.  Loop state: [df], [utemp],
    [du1] and the ghost trace.  [du0], [du1], [utemp] have the length of [u]
    by construction (lines 17-19). *)
Definition fd_column (f : rhs A P) (t : num A) (p : P) (n : nat) (du0 : vec A) (i : nat)
    (st : mat A * vec A * vec A * list (event A))
    : res (mat A * vec A * vec A * list (event A)) :=
  let '(df, utemp, du1, tr) := st in
  let* usafe := vget utemp i in
  let del := fd_delta usafe in
  let* utemp1 := vset utemp i (usafe + del) in
  let du1' := call_rhs f du1 utemp1 t p in
  let* df' := for_range 0 n (fun j df =>
      let* a := vget du1' j in
      let* b := vget du0 j in
      mset df j i ((a - b) / del)) df in
  let* utemp2 := vset utemp1 i usafe in
  Ok (df', utemp2, du1', EvF t utemp1 :: tr).

(** src/ode/jacobian.rs:3-34.  The result is the new contents of [df] (and the
    ghost trace, extended). *)
Definition jacobian_u (f : rhs A P) (dfdu : option (jac A P)) (df : mat A)
    (u : vec A) (t : num A) (p : P) (tr : list (event A))
    : res (mat A * list (event A)) :=
  match dfdu with
  | Some g => Ok (call_jac g df u t p, EvJ t u :: tr)
  | None =>
      let n := length u in
      let du0 := call_rhs f (zeros n) u t p in
      let* (df', _, _, tr') :=
        for_range 0 n (fd_column f t p n du0)
          (df, u, zeros n, EvF t u :: EvJ t u :: tr) in
      Ok (df', tr')
  end.

(** src/ode/jacobian.rs:36-57 (not called from anywhere in the crate). *)
Definition jacobian_t (f : rhs A P) (dfdt : option (rhs A P)) (df : vec A)
    (u : vec A) (t : num A) (p : P) : res (vec A) :=
  match dfdt with
  | Some g => Ok (call_rhs g df u t p)
  | None =>
      let du := call_rhs f (zeros (length u)) u t p in
      let df1 := call_rhs f df u t p in
      let dt := eps A * nmax A t (lit A 1 100000) in
      guard (Nat.eqb (length df) (length u))
        (Ok (map (fun x => x / dt) (vsub df1 du)))
  end.

End Jac.
