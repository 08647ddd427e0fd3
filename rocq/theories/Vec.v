(** Vectors and matrices (ndarray's [Array1]/[Array2]) as lists. *)
From Coq Require Import ZArith List Bool.
From Verif Require Import Arith.
Import ListNotations.

(** Element [i] of a list with [i] overwritten; identity out of range. *)
Fixpoint upd {X} (l : list X) (i : nat) (x : X) : list X :=
  match l, i with
  | [], _ => []
  | _ :: l', O => x :: l'
  | y :: l', S i' => y :: upd l' i' x
  end.

(** [tab n g] = the array [[g 0; ...; g (n-1)]]. *)
Definition tab {X} (n : nat) (g : nat -> X) : list X := map g (seq 0 n).

(** Checked indexing [v[i]] and [v[i] = x]: ndarray panics out of bounds. *)
Definition vget {X} (v : list X) (i : nat) : res X :=
  match nth_error v i with Some x => Ok x | None => Panic end.
Definition vset {X} (v : list X) (i : nat) (x : X) : res (list X) :=
  if Nat.ltb i (length v) then Ok (upd v i x) else Panic.

Section Vec.
Context {A : arith}.
Local Open Scope num_scope.

Definition vec := list (num A).
Definition mat := list (list (num A)).   (* list of rows *)

Definition zeros (n : nat) : vec := repeat n0 n.
Definition zeros2 (r c : nat) : mat := repeat (zeros c) r.

(** Unchecked read, used only under a shape guard (or a proved bound). *)
Definition at_ (v : vec) (i : nat) : num A := nth i v n0.
Definition at2 (m : mat) (i j : nat) : num A := nth j (nth i m []) n0.

(** ndarray's elementwise [&a + &b], [&a - &b] and [s * &a] on equal shapes. *)
Definition map2 (f : num A -> num A -> num A) (a b : vec) : vec :=
  map (fun p => f (fst p) (snd p)) (combine a b).
Definition vadd (a b : vec) : vec := map2 (add A) a b.
Definition vsub (a b : vec) : vec := map2 (sub A) a b.
Definition vscale (s : num A) (a : vec) : vec := map (mul A s) a.

(** Checked 2-d indexing [m[[i,j]]] and [m[[i,j]] = x]. *)
Definition mget (m : mat) (i j : nat) : res (num A) :=
  let* row := vget m i in vget row j.
Definition mset (m : mat) (i j : nat) (x : num A) : res mat :=
  let* row := vget m i in
  let* row' := vset row j x in
  vset m i row'.

(** Shape test: [m] has [r] rows of [c] columns. *)
Definition is_shape (r c : nat) (m : mat) : bool :=
  Nat.eqb (length m) r && forallb (fun row => Nat.eqb (length row) c) m.

(** [for i in 0..n { acc += g(i) }] starting from [acc]. *)
Definition sum_loop (n : nat) (g : nat -> num A) (acc : num A) : num A :=
  fold_left (fun s i => s + g i) (seq 0 n) acc.

End Vec.
Arguments vec A : clear implicits.
Arguments mat A : clear implicits.
