(** Model of the algorithm-independent part of the crate:
    src/ode/{code,options,statistics,solution,integrator,algorithm}.rs *)
From Coq Require Import ZArith List Bool.
From RecordUpdate Require Import RecordSet.
From Verif Require Import Arith Vec.
Import ListNotations RecordSetNotations.

(** src/ode/code.rs:1-10 *)
Inductive retcode :=
| RContinue | RSuccess | RMaxIters | RDtLessThanMin | RStiff | RSingularMatrix | RFailure.

(** derived [PartialEq], src/ode/code.rs:1 *)
Definition retcode_eqb (a b : retcode) : bool :=
  match a, b with
  | RContinue, RContinue | RSuccess, RSuccess | RMaxIters, RMaxIters
  | RDtLessThanMin, RDtLessThanMin | RStiff, RStiff
  | RSingularMatrix, RSingularMatrix | RFailure, RFailure => true
  | _, _ => false
  end.

(** src/ode/statistics.rs:3-18.  [usize] counters as [nat] (no wrap-around). *)
Record stats := mkStats {
  steps : nat; function_evals : nat; jacobian_evals : nat; decompositions : nat;
  linear_solves : nat; accepts : nat; rejects : nat }.
#[export] Instance etaStats : Settable _ := settable! mkStats
  <steps; function_evals; jacobian_evals; decompositions; linear_solves; accepts; rejects>.
(** src/ode/statistics.rs:21-32 *)
Definition stats_new : stats := mkStats 0 0 0 0 0 0 0.

Section Core.
Context {A : arith}.
Local Open Scope num_scope.

(** src/ode/options.rs:3-45 *)
Record opts := mkOpts {
  o_reltol : num A; o_abstol : num A; o_dense : bool; o_dtstart : num A;
  o_dtmax : num A; o_max_steps : nat; o_max_newt_iter : nat; o_max_stiff : nat;
  o_modern_pred : bool; o_safe : num A; o_facr : num A; o_facl : num A;
  o_quot1 : num A; o_quot2 : num A; o_beta : num A; o_fnewt : num A;
  o_use_ext_col : bool; o_hess : bool; o_theta : num A }.
#[export] Instance etaOpts : Settable _ := settable! mkOpts
  <o_reltol; o_abstol; o_dense; o_dtstart; o_dtmax; o_max_steps; o_max_newt_iter;
   o_max_stiff; o_modern_pred; o_safe; o_facr; o_facl; o_quot1; o_quot2; o_beta;
   o_fnewt; o_use_ext_col; o_hess; o_theta>.

(** src/ode/options.rs:48-70.  [max_steps = 100000] is written through [Z] so
    that no large unary numeral appears in the source. *)
Definition opts_new : opts := {|
  o_reltol := lit A 1 1000; o_abstol := lit A 1 10000000; o_dense := false;
  o_dtstart := lit A 1 1000000; o_dtmax := infty A;
  o_max_steps := Z.to_nat 100000; o_max_newt_iter := 7; o_max_stiff := Z.to_nat 1000;
  o_modern_pred := true; o_safe := lit A 9 10; o_facr := n0; o_facl := n0;
  o_quot1 := n0; o_quot2 := n0; o_beta := n0; o_fnewt := n0;
  o_use_ext_col := true; o_hess := false; o_theta := n0 |}.

(** src/ode/solution.rs:5-9 *)
Record solution := mkSol { ts : list (num A); us : list (vec A); rc : retcode }.
#[export] Instance etaSol : Settable _ := settable! mkSol <ts; us; rc>.
(** src/ode/solution.rs:12-18 *)
Definition sol_new : solution := mkSol [] [] RContinue.

(** src/ode/solution.rs:21-36 (consuming) and 52-67 (borrowing): both iterators
    hold one cursor into [ts] and one into [us]; a cursor is the list still to
    be read. *)
Record sol_iter := mkSolIter { iter_t : list (num A); iter_u : list (vec A) }.
Definition sol_into_iter (s : solution) : sol_iter := mkSolIter (ts s) (us s).

(** [std::vec::IntoIter::next] / [std::slice::Iter::next] *)
Definition cursor_next {X} (l : list X) : list X * option X :=
  match l with [] => ([], None) | x :: l' => (l', Some x) end.

(** src/ode/solution.rs:41-49 and 72-80 *)
Definition sol_iter_next (it : sol_iter) : sol_iter * option (num A * vec A) :=
  let (lt, t) := cursor_next (iter_t it) in
  let (lu, u) := cursor_next (iter_u it) in
  (mkSolIter lt lu,
   match t, u with Some t', Some u' => Some (t', u') | _, _ => None end).

(** A [for] loop over that iterator: keep calling [next] until it says [None].
    Fuel [S (length ts)] is always enough (each call shortens the cursor). *)
Fixpoint sol_iter_collect (fuel : nat) (it : sol_iter) : list (num A * vec A) :=
  match fuel with
  | O => []
  | S f => match sol_iter_next it with
           | (it', Some x) => x :: sol_iter_collect f it'
           | (_, None) => []
           end
  end.

(** Ghost trace, not part of the Rust state: every evaluation of the user's
    right-hand side ([EvF]) and every Jacobian computation ([EvJ]) in order,
    most recent first. *)
Inductive event := EvF (t : num A) (u : vec A) | EvJ (t : num A) (u : vec A).

Context {P : Type}.

(** [&dyn Fn(ArrayViewMut1<f64>, ArrayView1<f64>, f64, &Params)]
    (src/ode/integrator.rs:34): receives the current contents of the output
    buffer, the state, the time and the parameters and says what each output
    entry becomes.  The output keeps its length by construction, as with
    [ArrayViewMut1].  Simplification: the closure is a pure function (no
    interior mutability) and does not panic. *)
Definition rhs := vec A -> vec A -> num A -> P -> nat -> num A.
(** [&dyn Fn(ArrayViewMut2<f64>, ArrayView1<f64>, f64, &Params)] (line 38). *)
Definition jac := mat A -> vec A -> num A -> P -> nat -> nat -> num A.

Definition call_rhs (f : rhs) (du u : vec A) (t : num A) (p : P) : vec A :=
  tab (length du) (f du u t p).
Definition call_jac (f : jac) (df : mat A) (u : vec A) (t : num A) (p : P) : mat A :=
  map (fun ir => tab (length (snd ir)) (f df u t p (fst ir)))
      (combine (seq 0 (length df)) df).

(** src/ode/integrator.rs:72-95.  The callback field is an argument of the
    driver below (its type mentions the integrator itself). *)
Record builder := mkBuilder {
  b_dudt : rhs; b_dfdt : option rhs; b_dfdu : option jac; b_params : P;
  b_u : vec A; b_t : num A; b_dt : num A; b_tfinal : num A; b_opts : opts }.
#[export] Instance etaBuilder : Settable _ := settable! mkBuilder
  <b_dudt; b_dfdt; b_dfdu; b_params; b_u; b_t; b_dt; b_tfinal; b_opts>.

(** src/ode/integrator.rs:32-69, [C] is [Alg::Cache]; the [alg] field is a unit
    struct and is dropped; [i_trace] is ghost. *)
Record integ {C : Type} := mkInteg {
  i_dudt : rhs; i_dfdt : option rhs; i_dfdu : option jac; i_params : P;
  i_u : vec A; i_t : num A; i_dt : num A;
  i_uprev : vec A; i_tprev : num A; i_dtprev : num A;
  i_tdir : num A; i_tfinal : num A;
  i_opts : opts; i_stats : stats; i_sol : solution; i_cache : C;
  i_trace : list event }.
Arguments integ C : clear implicits.
#[export] Instance etaInteg {C} : Settable (integ C) := settable! (@mkInteg C)
  <i_dudt; i_dfdt; i_dfdu; i_params; i_u; i_t; i_dt; i_uprev; i_tprev; i_dtprev;
   i_tdir; i_tfinal; i_opts; i_stats; i_sol; i_cache; i_trace>.

(** src/ode/algorithm.rs:11-24.  [alg_new_cache] receives the builder mutably,
    so it returns it, together with the ghost events it caused.  [alg_step]
    takes fuel for the loops inside [step]. *)
Record algorithm := mkAlg {
  Cache : Type;
  alg_default_opts : opts;
  alg_new_cache : builder -> res (builder * Cache * list event);
  alg_step : nat -> integ Cache -> res (integ Cache) }.

(** src/ode/integrator.rs:98-118 *)
Definition builder_default (al : algorithm) (dudt : rhs) (uinit : vec A)
    (tspan : num A * num A) (params : P) : builder := {|
  b_dudt := dudt; b_dfdt := None; b_dfdu := None; b_params := params;
  b_u := uinit; b_t := fst tspan; b_dt := lit A 1 1000000; b_tfinal := snd tspan;
  b_opts := alg_default_opts al |}.

(** The builder's setters, src/ode/integrator.rs:119-204. *)
Definition set_dfdu (j : jac) (b : builder) : builder := b <| b_dfdu := Some j |>.
Definition set_dfdt (j : rhs) (b : builder) : builder := b <| b_dfdt := Some j |>.
Definition set_reltol (v : num A) (b : builder) := b <| b_opts; o_reltol := v |>.
Definition set_abstol (v : num A) (b : builder) := b <| b_opts; o_abstol := v |>.
Definition set_dense (v : bool) (b : builder) := b <| b_opts; o_dense := v |>.
Definition set_dtstart (v : num A) (b : builder) := b <| b_opts; o_dtstart := v |>.
Definition set_dtmax (v : num A) (b : builder) := b <| b_opts; o_dtmax := v |>.
Definition set_max_steps (v : nat) (b : builder) := b <| b_opts; o_max_steps := v |>.
Definition set_max_newt_iter (v : nat) (b : builder) := b <| b_opts; o_max_newt_iter := v |>.
Definition set_max_stiff (v : nat) (b : builder) := b <| b_opts; o_max_stiff := v |>.
Definition set_modern_pred (v : bool) (b : builder) := b <| b_opts; o_modern_pred := v |>.
Definition set_safe (v : num A) (b : builder) := b <| b_opts; o_safe := v |>.
Definition set_facr (v : num A) (b : builder) := b <| b_opts; o_facr := v |>.
Definition set_facl (v : num A) (b : builder) := b <| b_opts; o_facl := v |>.
Definition set_quot1 (v : num A) (b : builder) := b <| b_opts; o_quot1 := v |>.
Definition set_quot2 (v : num A) (b : builder) := b <| b_opts; o_quot2 := v |>.
Definition set_beta (v : num A) (b : builder) := b <| b_opts; o_beta := v |>.
Definition set_fnewt (v : num A) (b : builder) := b <| b_opts; o_fnewt := v |>.
Definition set_use_ext_col (v : bool) (b : builder) := b <| b_opts; o_use_ext_col := v |>.
Definition set_hess (v : bool) (b : builder) := b <| b_opts; o_hess := v |>.

(** src/ode/integrator.rs:209-236 *)
Definition build (al : algorithm) (b0 : builder) : res (integ (Cache al)) :=
  let* (b, cache, tr) := alg_new_cache al b0 in
  Ok {| i_dudt := b_dudt b; i_dfdt := b_dfdt b; i_dfdu := b_dfdu b;
        i_params := b_params b;
        i_u := b_u b; i_t := b_t b; i_dt := b_dt b;
        i_uprev := b_u b; i_tprev := b_t b; i_dtprev := b_dt b;
        i_tdir := copysign A n1 (b_tfinal b - b_t b);
        i_tfinal := b_tfinal b; i_opts := b_opts b; i_stats := stats_new;
        i_sol := {| ts := ts sol_new ++ [b_t b]; us := us sol_new ++ [b_u b];
                    rc := rc sol_new |};
        i_cache := cache; i_trace := tr |}.

(** [callback: Option<&dyn Fn(&mut Self)>] (src/ode/integrator.rs:66): an
    arbitrary transformation of the integrator.  Simplifications: it is a pure
    function and does not replace the [callback] field itself. *)
Definition callback (C : Type) := option (integ C -> integ C).
Definition run_callback {C} (cb : callback C) (s : integ C) : integ C :=
  match cb with Some f => f s | None => s end.

(** src/ode/integrator.rs:242-253 *)
Definition step (al : algorithm) (cb : callback (Cache al)) (fuel : nat)
    (s : integ (Cache al)) : res (integ (Cache al) * option nat) :=
  let* s1 := alg_step al fuel s in
  let s2 := run_callback cb s1 in
  Ok (s2, if retcode_eqb (rc (i_sol s2)) RContinue
          then Some (steps (i_stats s2)) else None).

(** src/ode/integrator.rs:255-257: [while let Some(_) = self.step() {}].
    [fuel] bounds the number of calls, [fstep] the loops inside each call. *)
Fixpoint integrate (al : algorithm) (cb : callback (Cache al)) (fstep fuel : nat)
    (s : integ (Cache al)) : res (integ (Cache al)) :=
  match fuel with
  | O => OutOfFuel
  | S f =>
      let* (s', r) := step al cb fstep s in
      match r with
      | Some _ => integrate al cb fstep f s'
      | None => Ok s'
      end
  end.

(** src/ode/integrator.rs:302-308 (consuming iterator) and 353-359 (borrowing). *)
Definition iter_next (al : algorithm) (cb : callback (Cache al)) (fstep : nat)
    (s : integ (Cache al)) : res (integ (Cache al) * option (num A * vec A)) :=
  let* (s', r) := step al cb fstep s in
  Ok (s', match r with Some _ => Some (i_t s', i_u s') | None => None end).

(** [for (t,u) in integrator { .. }] : the items the loop body sees. *)
Fixpoint iter_collect (al : algorithm) (cb : callback (Cache al)) (fstep fuel : nat)
    (s : integ (Cache al)) : res (integ (Cache al) * list (num A * vec A)) :=
  match fuel with
  | O => OutOfFuel
  | S f =>
      let* (s', r) := iter_next al cb fstep s in
      match r with
      | Some x => let* (s'', l) := iter_collect al cb fstep f s' in Ok (s'', x :: l)
      | None => Ok (s', [])
      end
  end.

(** [k] successive calls of the public [step], whatever they return: the
    histories over which the invariants below range. *)
Fixpoint steps_n (al : algorithm) (cb : callback (Cache al)) (fstep k : nat)
    (s : integ (Cache al)) : res (integ (Cache al)) :=
  match k with
  | O => Ok s
  | S k' => let* (s', _) := step al cb fstep s in steps_n al cb fstep k' s'
  end.

End Core.
Arguments opts A : clear implicits.
Arguments solution A : clear implicits.
Arguments event A : clear implicits.
Arguments rhs A P : clear implicits.
Arguments jac A P : clear implicits.
Arguments builder A P : clear implicits.
Arguments integ A P C : clear implicits.
Arguments algorithm A P : clear implicits.
Arguments callback A P C : clear implicits.
