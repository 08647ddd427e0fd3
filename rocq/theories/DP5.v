(** Model of src/dorm_prince/dp5/{algorithm,cache,constants,dense,error,prepare,stages}.rs *)
From Coq Require Import ZArith List Bool.
From RecordUpdate Require Import RecordSet.
From Verif Require Import Arith Vec Core.
Import ListNotations RecordSetNotations.

Section Consts.
Context {A : arith}.
(** src/dorm_prince/dp5/constants.rs:5-8.  A constant written [a / b] in the
    source is the single rounding of the ratio of two exactly representable
    integers, which is what [lit A a b] denotes. *)
Definition C2 := lit A 2 10.
Definition C3 := lit A 3 10.
Definition C4 := lit A 8 10.
Definition C5 := lit A 8 9.
(** constants.rs:10-24 *)
Definition A21 := lit A 2 10.
Definition A31 := lit A 3 40.
Definition A32 := lit A 9 40.
Definition A41 := lit A 44 45.
Definition A42 := lit A (-56) 15.
Definition A43 := lit A 32 9.
Definition A51 := lit A 19372 6561.
Definition A52 := lit A (-25360) 2187.
Definition A53 := lit A 64448 6561.
Definition A54 := lit A (-212) 729.
Definition A61 := lit A 9017 3168.
Definition A62 := lit A (-355) 33.
Definition A63 := lit A 46732 5247.
Definition A64 := lit A 49 176.
Definition A65 := lit A (-5103) 18656.
(** constants.rs:26-30 *)
Definition A71 := lit A 35 384.
Definition A73 := lit A 500 1113.
Definition A74 := lit A 125 192.
Definition A75 := lit A (-2187) 6784.
Definition A76 := lit A 11 84.
(** constants.rs:32-37 *)
Definition E1 := lit A 71 57600.
Definition E3 := lit A (-71) 16695.
Definition E4 := lit A 71 1920.
Definition E5 := lit A (-17253) 339200.
Definition E6 := lit A 22 525.
Definition E7 := lit A (-1) 40.
(** constants.rs:39-44 *)
Definition D1 := lit A (-12715105075) 11282082432.
Definition D3 := lit A 87487479700 32700410799.
Definition D4 := lit A (-10690763975) 1880347072.
Definition D5 := lit A 701980252875 199316789632.
Definition D6 := lit A (-1453857185) 822651844.
Definition D7 := lit A 69997945 29380423.
End Consts.

(** src/dorm_prince/dp5/cache.rs:3-25 *)
Record dp5_cache {A : arith} := mkDP5Cache {
  n_stiff : nat; n_nonstiff : nat; reject : bool; last : bool;
  facold : num A; dtlamb : num A;
  k2 : vec A; k3 : vec A; k4 : vec A; k5 : vec A; k6 : vec A;
  rcont1 : vec A; rcont2 : vec A; rcont3 : vec A; rcont4 : vec A; rcont5 : vec A;
  unew : vec A; du : vec A; dunew : vec A; uerr : vec A; ustiff : vec A }.
Arguments dp5_cache A : clear implicits.
#[export] Instance etaDP5Cache {A} : Settable (dp5_cache A) := settable! (@mkDP5Cache A)
  <n_stiff; n_nonstiff; reject; last; facold; dtlamb; k2; k3; k4; k5; k6;
   rcont1; rcont2; rcont3; rcont4; rcont5; unew; du; dunew; uerr; ustiff>.

Section DP5.
Context {A : arith} {P : Type}.
Local Open Scope num_scope.
Notation state := (integ A P (dp5_cache A)).

(** src/dorm_prince/dp5/algorithm.rs:9-19 *)
Definition dp5_default_opts : opts A :=
  opts_new <| o_reltol := lit A 1 1000 |> <| o_abstol := lit A 1 10000000 |>
           <| o_beta := lit A 4 100 |> <| o_facr := lit A 10 1 |> <| o_facl := lit A 2 10 |>
           <| o_max_stiff := Z.to_nat 1000 |> <| o_max_steps := Z.to_nat 100000 |>.

(** src/dorm_prince/dp5/algorithm.rs:20-54 *)
Definition dp5_new_cache (b : builder A P)
    : res (builder A P * dp5_cache A * list (event A)) :=
  let n := length (b_u b) in
  let du0 := call_rhs (b_dudt b) (zeros n) (b_u b) (b_t b) (b_params b) in
  Ok (b,
      {| n_stiff := 0; n_nonstiff := 0; reject := false; last := false;
         facold := n0; dtlamb := n0;
         k2 := zeros n; k3 := zeros n; k4 := zeros n; k5 := zeros n; k6 := zeros n;
         rcont1 := zeros n; rcont2 := zeros n; rcont3 := zeros n; rcont4 := zeros n;
         rcont5 := zeros n; unew := zeros n; du := du0; dunew := zeros n;
         uerr := zeros n; ustiff := zeros n |},
      [EvF (b_t b) (b_u b)]).

(** The shapes on which ndarray's elementwise operators and [assign] do not
    panic.  Simplification: ndarray would also accept broadcastable length-1
    operands; the model treats every shape mismatch as a panic.  A mismatch can
    only come from a callback that replaces [u]/[uprev] by an array of another
    length. *)
Definition dp5_shapes (s : state) : bool :=
  let n := length (i_u s) in
  let c := i_cache s in
  forallb (fun v => Nat.eqb (length v) n)
    [i_uprev s; k2 c; k3 c; k4 c; k5 c; k6 c; rcont1 c; rcont2 c; rcont3 c; rcont4 c;
     rcont5 c; unew c; du c; dunew c; uerr c; ustiff c].

(** src/dorm_prince/dp5/stages.rs:7-106 *)
Definition compute_stages (s : state) : res state :=
  guard (dp5_shapes s) (
  let c := i_cache s in
  let t := i_t s in let dt := i_dt s in let u := i_u s in
  let f := i_dudt s in let p := i_params s in
  let du := du c in
  (* 8-16 *)
  let y2 := vadd u (vscale (dt * A21) du) in
  let t2 := t + C2 * dt in
  let k2' := call_rhs f (k2 c) y2 t2 p in
  (* 18-29 *)
  let y3 := vadd u (vscale dt (vadd (vscale A31 du) (vscale A32 k2'))) in
  let t3 := t + C3 * dt in
  let k3' := call_rhs f (k3 c) y3 t3 p in
  (* 31-43 *)
  let y4 := vadd u (vscale dt (vadd (vadd (vscale A41 du) (vscale A42 k2'))
                                    (vscale A43 k3'))) in
  let t4 := t + C4 * dt in
  let k4' := call_rhs f (k4 c) y4 t4 p in
  (* 45-58 *)
  let y5 := vadd u (vscale dt (vadd (vadd (vadd (vscale A51 du) (vscale A52 k2'))
                                          (vscale A53 k3')) (vscale A54 k4'))) in
  let t5 := t + C5 * dt in
  let k5' := call_rhs f (k5 c) y5 t5 p in
  (* 60-68 *)
  let y6 := vadd u (vscale dt (vadd (vadd (vadd (vadd (vscale A61 du) (vscale A62 k2'))
                                                (vscale A63 k3')) (vscale A64 k4'))
                                    (vscale A65 k5'))) in
  (* 70-76 *)
  let tph := t + dt in
  let k6' := call_rhs f (k6 c) y6 tph p in
  (* 78-86 *)
  let y7 := vadd u (vscale dt (vadd (vadd (vadd (vadd (vscale A71 du) (vscale A73 k3'))
                                                (vscale A74 k4')) (vscale A75 k5'))
                                    (vscale A76 k6'))) in
  (* 88-93 *)
  let dunew' := call_rhs f (dunew c) y7 tph p in
  (* 95-103 *)
  let uerr' := vscale dt (vadd (vadd (vadd (vadd (vadd (vscale E1 du) (vscale E3 k3'))
                                                 (vscale E4 k4')) (vscale E5 k5'))
                                     (vscale E6 k6')) (vscale E7 dunew')) in
  Ok (s <| i_cache := c <| k2 := k2' |> <| k3 := k3' |> <| k4 := k4' |> <| k5 := k5' |>
                        <| k6 := k6' |> <| ustiff := y6 |> <| unew := y7 |>
                        <| dunew := dunew' |> <| uerr := uerr' |> |>
        (* 105 *)
        <| i_stats; function_evals ::= fun k => (k + 6)%nat |>
        <| i_trace ::= fun tr => EvF tph y7 :: EvF tph y6 :: EvF t5 y5 :: EvF t4 y4
                                 :: EvF t3 y3 :: EvF t2 y2 :: tr |>)).

(** src/dorm_prince/dp5/error.rs:6-17 *)
Definition dp5_error (s : state) : num A :=
  let n := length (i_u s) in
  let err := sum_loop n (fun i =>
      let sk := o_abstol (i_opts s) + o_reltol (i_opts s)
                  * nmax A (nabs A (at_ (i_u s) i)) (nabs A (at_ (unew (i_cache s)) i)) in
      let sqr := at_ (uerr (i_cache s)) i / sk in
      sqr * sqr) n0 in
  nsqrt A (err / of_nat n).

(** src/dorm_prince/dp5/dense.rs:8-32 *)
Definition prepare_dense (s : state) : state :=
  let c := i_cache s in
  let dt := i_dt s in
  let r1 := i_u s in
  let r2 := vsub (unew c) (i_u s) in
  let r3 := vsub (vscale dt (du c)) r2 in
  let r4 := vsub (vsub r2 (vscale dt (dunew c))) r3 in
  let r5 := vscale dt (vadd (vadd (vadd (vadd (vadd (vscale D1 (du c)) (vscale D3 (k3 c)))
                                              (vscale D4 (k4 c))) (vscale D5 (k5 c)))
                                  (vscale D6 (k6 c))) (vscale D7 (dunew c))) in
  s <| i_cache := c <| rcont1 := r1 |> <| rcont2 := r2 |> <| rcont3 := r3 |>
                    <| rcont4 := r4 |> <| rcont5 := r5 |> |>.

(** src/dorm_prince/dp5/dense.rs:35-50 *)
Definition dense_output (s : state) (t dt : num A) : vec A :=
  let c := i_cache s in
  let sg := (t - i_tprev s) / dt in
  let s1 := n1 - sg in
  vadd (rcont1 c)
       (vscale sg (vadd (rcont2 c)
          (vscale s1 (vadd (rcont3 c)
             (vscale sg (vadd (rcont4 c) (vscale s1 (rcont5 c)))))))).

(** Stiffness test of src/dorm_prince/dp5/prepare.rs:36-58 (the body of the
    [if]). *)
Definition stiffness (s : state) : state :=
  let c := i_cache s in
  let n := length (i_u s) in
  let stnum := sum_loop n (fun i => let sqr := at_ (k2 c) i - at_ (k6 c) i in sqr * sqr) n0 in
  let stden := sum_loop n (fun i => let sqr := at_ (unew c) i - at_ (ustiff c) i in sqr * sqr) n0 in
  let dtl := if stden >? n0 then i_dt s * nsqrt A (stnum / stden) else dtlamb c in
  let c := c <| dtlamb := dtl |> in
  let c := if dtl >? lit A 325 100
           then c <| n_nonstiff := 0%nat |> <| n_stiff ::= S |>
           else let c := c <| n_nonstiff ::= S |> in
                if Nat.eqb (n_nonstiff c) 6 then c <| n_stiff := 0%nat |> else c in
  s <| i_cache := c |>.

(** The factors of src/dorm_prince/dp5/prepare.rs:11-23. *)
Definition dp5_expo1 (s : state) : num A :=
  lit A 2 10 - powf A (o_beta (i_opts s)) (lit A 75 100).
Definition dp5_fac1 (s : state) : num A := n1 / o_facl (i_opts s).
Definition dp5_fac2 (s : state) : num A := n1 / o_facr (i_opts s).
Definition dp5_fac11 (t_err : num A) (s : state) : num A := powf A t_err (dp5_expo1 s).
Definition dp5_fac (t_err : num A) (s : state) : num A :=
  let fac := dp5_fac11 t_err s / powf A (facold (i_cache s)) (o_beta (i_opts s)) in
  nmax A (dp5_fac2 s) (nmin A (dp5_fac1 s) (fac / o_safe (i_opts s))).

(** Accepted branch, src/dorm_prince/dp5/prepare.rs:26-77, up to but excluding
    the assignments of [dtprev]/[dt] at 88-89; returns the new state and the
    final [dtnew]. *)
Definition dp5_accept (t_err : num A) (s : state) : res (state * num A) :=
  let dtnew := i_dt s / dp5_fac t_err s in
  let s := s <| i_cache; facold := nmax A t_err (lit A 1 10000) |>
             <| i_stats; accepts ::= S |> in
  (* 33: [accepts % max_stiff] panics when [max_stiff == 0] *)
  guard (negb (Nat.eqb (o_max_stiff (i_opts s)) 0)) (
  let s := if Nat.eqb (Nat.modulo (accepts (i_stats s)) (o_max_stiff (i_opts s))) 0
              || Nat.ltb 0 (n_stiff (i_cache s))
           then stiffness s else s in
  let s := if o_dense (i_opts s) then prepare_dense s else s in
  let s := s <| i_cache; du := dunew (i_cache s) |>
             <| i_uprev := i_u s |> <| i_u := unew (i_cache s) |>
             <| i_tprev := i_t s |> <| i_t := i_t s + i_dt s |> in
  let dtnew := if nabs A dtnew >? o_dtmax (i_opts s)
               then i_tdir s * o_dtmax (i_opts s) else dtnew in
  let dtnew := if reject (i_cache s)
               then i_tdir s * nmin A (nabs A dtnew) (nabs A (i_dt s)) else dtnew in
  Ok (s <| i_cache; reject := false |>, dtnew)).

(** Rejected branch, src/dorm_prince/dp5/prepare.rs:78-86. *)
Definition dp5_reject (t_err : num A) (s : state) : state * num A :=
  let dtnew := i_dt s / nmin A (dp5_fac1 s) (dp5_fac11 t_err s / o_safe (i_opts s)) in
  let s := s <| i_cache; reject := true |> in
  let s := if Nat.leb 1 (accepts (i_stats s)) then s <| i_stats; rejects ::= S |> else s in
  (s <| i_cache; last := false |>, dtnew).

(** src/dorm_prince/dp5/prepare.rs:7-90 *)
Definition prepare_next_step (t_err : num A) (s : state) : res state :=
  let* (s', dtnew) := (if t_err <=? n1 then dp5_accept t_err s else Ok (dp5_reject t_err s)) in
  Ok (s' <| i_dtprev := i_dt s' |> <| i_dt := dtnew |>).

(** One turn of the loop src/dorm_prince/dp5/algorithm.rs:65-75: the boolean
    says whether the loop is left. *)
Definition dp5_attempt (s : state) : res (state * bool) :=
  let* s := compute_stages s in
  let err := dp5_error s in
  let* s := prepare_next_step err s in
  if negb (reject (i_cache s)) then Ok (s, true)
  else if nabs A (i_dt s) <=? nabs A (i_t s) * eps A
       then Ok (s <| i_sol; rc := RDtLessThanMin |>, false)
       else Ok (s, false).

Fixpoint dp5_loop (fuel : nat) (s : state) : res state :=
  match fuel with
  | O => OutOfFuel
  | S f => let* (s', done) := dp5_attempt s in
           if done then Ok s' else dp5_loop f s'
  end.

(** src/dorm_prince/dp5/algorithm.rs:61-64 *)
Definition dp5_clip (s : state) : state :=
  if (i_t s + lit A 101 100 * i_dt s - i_tfinal s) * i_tdir s >? n0
  then s <| i_dt := i_tfinal s - i_t s |> <| i_cache; last := true |>
  else s.

(** src/dorm_prince/dp5/algorithm.rs:77-86 *)
Definition dp5_finish (s : state) : state :=
  let s := s <| i_stats; steps ::= S |>
             <| i_sol; ts ::= fun l => l ++ [i_t s] |>
             <| i_sol; us ::= fun l => l ++ [i_u s] |> in
  let s := if Nat.ltb (o_max_steps (i_opts s)) (steps (i_stats s))
           then s <| i_sol; rc := RMaxIters |> else s in
  if last (i_cache s) then s <| i_sol; rc := RSuccess |> else s.

(** src/dorm_prince/dp5/algorithm.rs:57-87 *)
Definition dp5_step (fuel : nat) (s : state) : res state :=
  let* s := dp5_loop fuel (dp5_clip s) in
  Ok (dp5_finish s).

(** The unit struct [DormandPrince5] (src/dorm_prince/dp5.rs:9) with its
    [OdeAlgorithm] implementation. *)
Definition DormandPrince5 : algorithm A P := {|
  Cache := dp5_cache A;
  alg_default_opts := dp5_default_opts;
  alg_new_cache := dp5_new_cache;
  alg_step := dp5_step |}.

End DP5.
