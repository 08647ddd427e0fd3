(** Radau5 run times in binary64 (properties.jsonl C46).  [fpowf] and [fpowi]
    are the libm power functions: any functions with what [radau_f64_sane] asks. *)
From Coq Require Import ZArith List Bool Reals Sorted.
From Flocq Require Import Core BinarySingleNaN.
From Verif Require Import Arith Vec Core Driver Spec Radau ArithF SpecF64 SpecF64R RadauMono RadauMonoEx.

(** C46.  The recorded times of a forward Radau5 run increase strictly (a step
    too small to move the time ends the run instead), all but the last lie in
    the span, and so does the last unless the run ended in Success. *)
Theorem C46_radau_f64_times :
  forall fpowf fpowi P (b : builder (F64 fpowf fpowi) P) fuel k
    (s0 s : integ (F64 fpowf fpowi) P (radau_cache (F64 fpowf fpowi))),
  radau_f64_forward b -> build Radau5 b = Ok s0 -> reached Radau5 None fuel k s0 s ->
  StronglySorted flt (ts (i_sol s)) /\
  Forall (fun t : f64 => fle (b_t b) t /\ fle t (b_tfinal b)) (removelast (ts (i_sol s))) /\
  (rc (i_sol s) <> RSuccess -> fle (i_t s) (b_tfinal b)).
Proof. exact @radau_f64_times. Qed.
Print Assumptions C46_radau_f64_times.

Example C46_radau_ex : radau_f64_forward (v_rad (f_lit 3 1) (f_lit 1 2)) /\
  exists s0 s : integ XV unit (radau_cache XV),
  build Radau5 (v_rad (f_lit 3 1) (f_lit 1 2)) = Ok s0 /\
  reached Radau5 None 60 3 s0 s /\ rc (i_sol s) = RContinue /\ length (ts (i_sol s)) = 4%nat /\
  (accepts (i_stats s) < steps (i_stats s))%nat.
Proof. exact v_run_ex. Qed.
