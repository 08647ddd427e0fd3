(** Vocabulary of C44: what a right-hand side finds in its output buffer. *)
From RecordUpdate Require Import RecordSet.
From Verif Require Import Arith Core.
Import RecordSetNotations.

(** Two integrators that agree in every field but the closure [dudt]. *)
Definition same_but_closure {A P C} (s s' : integ A P C) : Prop := s' = s <| i_dudt := i_dudt s' |>.
