(** Vocabulary: when a recorded call of a user function happened. *)
From Verif Require Import Arith Vec Core.

Definition call_time {A : arith} (e : event A) : num A := match e with EvF t _ => t | EvJ t _ => t end.
