(** The textbook description of what a Radau5 run does, independent of the code:
    the three-stage Radau IIA method, its simplified Newton iteration in
    transformed variables, the embedded error estimate, and the step-size
    controllers (Hairer-Wanner, Solving ODEs II, section IV.8).  Linear systems
    are described by their solutions and matrices by being singular or not; there
    are no decompositions here. *)
From Coq Require Import List Reals Bool Arith ZArith.
From RecordUpdate Require Import RecordSet.
From Verif Require Import Arith Vec Core ArithR SpecRK SpecODE SpecLin SpecRadau SpecStage.
Import ListNotations RecordSetNotations.
Local Open Scope R_scope.

(** The vector with the components [g 0], ..., [g (n-1)]. *)
Definition vect (n : nat) (g : nat -> R) : list R := map g (seq 0 n).

(** *** Coefficients, with the digits used *)
Definition rad_c (k : nat) : R :=
  match k with O => 1550510257216822 / 10000000000000000 | 1%nat => 6449489742783178 / 10000000000000000 | _ => 1 end.
(** The eigenvalues of the inverse of the coefficient matrix are [radau_gamma]
    and [rad_alpha +- i rad_beta]. *)
Definition rad_alpha : R := 2681082873627752 / 1000000000000000.
Definition rad_beta : R := 3050430199247411 / 1000000000000000.
(** The columns of [rad_T] span the eigenspaces; [rad_TI] is its inverse. *)
Definition rad_T (k l : nat) : R :=
  match k, l with
  | O, O => 91232394870892942792 / 1000000000000000000000
  | O, 1%nat => -14125529502095420843 / 100000000000000000000
  | O, 2%nat => -30029194105147424492 / 1000000000000000000000
  | 1%nat, O => 24171793270710701896 / 100000000000000000000
  | 1%nat, 1%nat => 20412935229379993199 / 100000000000000000000
  | 1%nat, 2%nat => 38294211275726193779 / 100000000000000000000
  | 2%nat, O => 96604818261509293619 / 100000000000000000000
  | 2%nat, 1%nat => 1
  | _, _ => 0 end.
Definition rad_TI (k l : nat) : R :=
  match k, l with
  | O, O => 43255798900631553510 / 10000000000000000000
  | O, 1%nat => 33919925181580986954 / 100000000000000000000
  | O, 2%nat => 54177053993587487119 / 100000000000000000000
  | 1%nat, O => -41787185915519047273 / 10000000000000000000
  | 1%nat, 1%nat => -32768282076106238708 / 100000000000000000000
  | 1%nat, 2%nat => 47662355450055045196 / 100000000000000000000
  | 2%nat, O => -50287263494578687595 / 100000000000000000000
  | 2%nat, 1%nat => 25719269498556054292 / 10000000000000000000
  | 2%nat, 2%nat => -59603920482822492497 / 100000000000000000000
  | _, _ => 0 end.

(** One vector for each of the three stages. *)
Record three := mk3 { st1 : list R; st2 : list R; st3 : list R }.
Definition pick (z : three) (k : nat) : list R := match k with O => st1 z | 1%nat => st2 z | _ => st3 z end.
Definition stages (n : nat) (g : nat -> nat -> R) : three :=
  mk3 (vect n (g 0%nat)) (vect n (g 1%nat)) (vect n (g 2%nat)).
(** [(M z)_k], a matrix over the stages applied to [z], component [i]. *)
Definition mixed (M : nat -> nat -> R) (z : three) (k i : nat) : R :=
  rsum 3 (fun l => M k l * comp (pick z l) i).

(** Component [i] at [theta] of the cubic polynomial that is 0 at 0 and has the
    values [z] at the nodes. *)
Definition colloc (z : three) (i : nat) (theta : R) : R :=
  let a := rad_c 0 in let b := rad_c 1 in
    comp (st1 z) i * (theta * (theta - b) * (theta - 1) / (a * (a - b) * (a - 1)))
  + comp (st2 z) i * (theta * (theta - a) * (theta - 1) / (b * (b - a) * (b - 1)))
  + comp (st3 z) i * (theta * (theta - a) * (theta - b) / ((1 - a) * (1 - b))).

(** *** The iteration matrices [c - J] *)
Definition shifted (n : nat) (c : R) (J : list (list R)) : list (list R) :=
  map (fun i => vect n (fun j => (if Nat.eqb i j then c else 0) - entry J i j)) (seq 0 n).
Definition diagonal (n : nat) (c : R) : list (list R) :=
  map (fun i => vect n (fun j => if Nat.eqb i j then c else 0)) (seq 0 n).
(** The real and the complex matrix for step size [h] are regular. *)
Definition regular (n : nat) (h : R) (J : list (list R)) : Prop :=
  ~ singular_matrix n (shifted n (radau_gamma / h) J) /\
  ~ csingular_matrix n (shifted n (rad_alpha / h) J) (diagonal n (rad_beta / h)).

(** *** The Jacobian: the user's, or forward differences *)
Definition fd_step (x : R) : R := sqrt (/ IZR (2 ^ 52) * Rmax x (1 / 100000)).
Definition the_jacobian {inf P} (f : rhs (RA inf) P) (g : option (jac (RA inf) P)) (p : P) (t : R) (u : list R)
    : list (list R) :=
  let n := length u in
  let F := ode f p t in
  map (fun i => vect n (fun j =>
    match g with
    | Some g => g (zeros2 n n) u t p i j
    | None =>
        let d := fd_step (comp u j) in
        (comp (F (vect n (fun l => comp u l + (if Nat.eqb l j then d else 0)))) i - comp (F u) i) / d
    end)) (seq 0 n).

(** *** The state of the reference *)
Record rpilot := mkRP {
  p_t : R; p_u : list R;                       (* the current point *)
  p_h : R;                                     (* the step size to try next *)
  p_jac : list (list R);                       (* the Jacobian in store *)
  p_mat : option (R * list (list R));          (* iteration matrices to go on with: step size and Jacobian *)
  p_last : bool;                               (* the step to try ends at [tfinal] *)
  p_again : bool;                              (* the last attempt failed *)
  p_conv : R;                                  (* [theta/(1-theta)] of the last Newton iteration *)
  p_hprev : R; p_z : three;                    (* last step and its increments *)
  p_hacc : R; p_eacc : R;                      (* the same for the predictive controller, with its error *)
  p_hopt : R;                                  (* the step size left behind at the end *)
  p_singular : nat;
  p_stats : stats;
  p_code : retcode }.
#[export] Instance etaRpilot : Settable _ := settable! mkRP
  <p_t; p_u; p_h; p_jac; p_mat; p_last; p_again; p_conv; p_hprev; p_z; p_hacc; p_eacc; p_hopt;
   p_singular; p_stats; p_code>.

Section Ref.
Context {inf : R} (n : nat) (F : R -> list R -> list R) (Jac : R -> list R -> list (list R))
        (o : opts (RA inf)) (tf : R).

(** Working tolerances: [radau_rtol], [radau_atol]; for the Newton iteration: *)
Definition rtol : R := radau_rtol (o_reltol o).
Definition atol : R := radau_atol (o_abstol o) (o_reltol o).
Definition newton_tol : R :=
  if Rle_dec (o_fnewt o) 0 then Rmax (10 * / IZR (2 ^ 52) / rtol) (Rmin (3/100) (sqrt rtol)) else o_fnewt o.
Definition weight (u : list R) (i : nat) : R := atol + rtol * Rabs (comp u i).
Definition iters : nat := o_max_newt_iter o.
Definition first_step (x : rpilot) : bool := (accepts (p_stats x) =? 0)%nat.

(** *** Newton iteration *)
(** The increment [d] of the transformed stages [w]; [z] are the stages, [m] the
    matrices. *)
Definition increment (t : R) (u : list R) (h : R) (m : R * list (list R)) (w z d : three) : Prop :=
  let f := mk3 (F (t + rad_c 0 * h) (vect n (fun i => comp u i + comp (st1 z) i)))
               (F (t + rad_c 1 * h) (vect n (fun i => comp u i + comp (st2 z) i)))
               (F (t + rad_c 2 * h) (vect n (fun i => comp u i + comp (st3 z) i))) in
  let J d i := rsum n (fun j => entry (snd m) i j * comp d j) in
  let s k i := (comp (pick w k) i + comp (pick d k) i) / fst m in
  (forall k, length (pick d k) = n) /\
  forall i, (i < n)%nat ->
    radau_gamma * s 0%nat i - J (st1 d) i = mixed rad_TI f 0 i /\
    rad_alpha * s 1%nat i - rad_beta * s 2%nat i - J (st2 d) i = mixed rad_TI f 1 i /\
    rad_beta * s 1%nat i + rad_alpha * s 2%nat i - J (st3 d) i = mixed rad_TI f 2 i.

Definition increment_norm (u : list R) (d : three) : R :=
  sqrt (rsum n (fun i => (comp (st1 d) i / weight u i) ^ 2 + (comp (st2 d) i / weight u i) ^ 2
                         + (comp (st3 d) i / weight u i) ^ 2) / INR (3 * n)).

(** After pass [k], with an increment of norm [e] after one of norm [e0]: go on,
    or stop with a factor for the step size and (or not) a new Jacobian.  [q] is
    the last contraction rate, [th] their geometric mean, [c] is [th/(1-th)]. *)
Inductive verdict := Go (q th c : R) | Stop (c factor : R) (new_jac : bool).
Definition judge (k : nat) (e e0 q th c : R) : verdict :=
  if (1 <? k)%nat && (k <? iters)%nat then
    let q' := e / e0 in
    let th' := if (k =? 2)%nat then q' else sqrt (q' * q) in
    if Rlt_dec th' (99/100) then
      let c' := th' / (1 - th') in
      let slow := c' * e * th' ^ (iters - 1 - k) / newton_tol in
      if Rle_dec 1 slow
      then Stop c' (8/10 * Rpower (Rmax (1/10000) (Rmin 20 slow)) (-1 / INR (4 + iters - 1 - k))) false
      else Go q' th' c'
    else Stop c (1/2) true
  else Go q th c.

Inductive result :=
| Converged (k : nat) (th c : R) (z : three)
| Failed (k : nat) (c factor : R) (new_jac : bool).

Inductive newton_from (t : R) (u : list R) (h : R) (m : R * list (list R))
    : nat -> R -> R -> R -> R -> three -> three -> result -> Prop :=
| nf_limit k e0 q th c w z : (iters <= k)%nat ->
    newton_from t u h m k e0 q th c w z (Failed k c (1/2) true)
| nf_stop k e0 q th c w z d c' factor b : (k < iters)%nat -> increment t u h m w z d ->
    judge (S k) (increment_norm u d) e0 q th c = Stop c' factor b ->
    newton_from t u h m k e0 q th c w z (Failed (S k) c' factor b)
| nf_done k e0 q th c w z d q' th' c' : (k < iters)%nat -> increment t u h m w z d ->
    judge (S k) (increment_norm u d) e0 q th c = Go q' th' c' ->
    c' * increment_norm u d <= newton_tol ->
    newton_from t u h m k e0 q th c w z
      (Converged (S k) th' c' (stages n (mixed rad_T (stages n (fun k i => comp (pick w k) i + comp (pick d k) i)))))
| nf_more k e0 q th c w z d q' th' c' r : (k < iters)%nat -> increment t u h m w z d ->
    judge (S k) (increment_norm u d) e0 q th c = Go q' th' c' ->
    newton_tol < c' * increment_norm u d ->
    (let w' := stages n (fun k i => comp (pick w k) i + comp (pick d k) i) in
     newton_from t u h m (S k) (Rmax (increment_norm u d) (/ IZR (2 ^ 52))) q' th' c' w' (stages n (mixed rad_T w')) r) ->
    newton_from t u h m k e0 q th c w z r.

(** Stage values to start from: the polynomial of the last step continued. *)
Definition guess (x : rpilot) : three :=
  if first_step x || negb (o_use_ext_col o) then stages n (fun _ _ => 0)
  else stages n (fun k i => colloc (p_z x) i (1 + rad_c k * (p_h x / p_hprev x)) - comp (st3 (p_z x)) i).
Definition newton_result (x : rpilot) (m : R * list (list R)) (r : result) : Prop :=
  exists q, newton_from (p_t x) (p_u x) (p_h x) m 0 0 q (Rabs (o_theta o))
    (Rpower (Rmax (p_conv x) (/ IZR (2 ^ 52))) (8/10)) (stages n (mixed rad_TI (guess x))) (guess x) r.

(** *** Error estimate *)
(** The estimate is [e]; [k] evaluations were needed for it. *)
Definition estimate (x : rpilot) (m : R * list (list R)) (z : three) (e : R) (k : nat) : Prop :=
  let filtered := filtered_estimate n (snd m) (fst m) (p_h x) (pick z) in
  let norm v := Rmax (tol_rms n atol rtol (p_u x) v) (1 / 10000000000) in
  exists v, filtered (comp (F (p_t x) (p_u x))) v /\
    if Rlt_dec (norm v) 1 then e = norm v /\ k = 0%nat
    else if first_step x || p_again x then
      exists v', filtered (comp (F (p_t x) (vect n (fun i => comp (p_u x) i + comp v i)))) v' /\ e = norm v' /\ k = 1%nat
    else e = norm v /\ k = 0%nat.

(** *** Step size control *)
(** Quotient of old and new step size from the error [e] after [k] passes. *)
Definition clamp (q : R) : R := Rmax (o_facr o) (Rmin (o_facl o) q).
Definition quotient (e : R) (k : nat) : R :=
  clamp (Rpower e (1/4) / Rmin (o_safe o) (o_safe o * INR (1 + 2 * iters) / INR (k + 2 * iters))).
(** The predictive controller, from the second accepted step on. *)
Definition predicted (x : rpilot) (e : R) (k : nat) : R :=
  if o_modern_pred o && negb (first_step x)
  then Rmax (quotient e k) (clamp (p_hacc x / p_h x * Rpower (e ^ 2 / p_eacc x) (1/4) / o_safe o))
  else quotient e k.

(** An accepted step with increments [z], error [e], contraction rate [th], [k]
    passes and matrices [m]. *)
Definition accept (x : rpilot) (m : R * list (list R)) (z : three) (e th : R) (k : nat) : rpilot :=
  let t' := p_t x + p_h x in
  let u' := vect n (fun i => comp (p_u x) i + comp (st3 z) i) in
  let y := x <| p_t := t' |> <| p_u := u' |> <| p_hprev := p_h x |> <| p_z := z |> <| p_mat := None |>
             <| p_hacc := if o_modern_pred o then p_h x else p_hacc x |>
             <| p_eacc := if o_modern_pred o then Rmax (1/100) e else p_eacc x |>
             <| p_stats; accepts ::= S |> in
  if p_last x then y <| p_h := p_hopt x |> <| p_code := RSuccess |>
  else
    let h1 := Rmin (p_h x / predicted x e k) (o_dtmax o) in
    let h' := if p_again x then Rmin h1 (p_h x) else h1 in
    let y := y <| p_hopt := Rmin (p_h x) h1 |> <| p_again := false |>
               <| p_stats; function_evals ::= fun c => (c + 1)%nat |> in
    let jac := if Rlt_dec (o_theta o) th then Jac t' u' else p_jac x in
    if Rle_dec tf (t' + h' / o_quot1 o)
    then y <| p_h := tf - t' |> <| p_last := true |> <| p_jac := jac |>
    else if Rleb th (o_theta o) && Rleb (o_quot1 o) (h' / p_h x) && Rleb (h' / p_h x) (o_quot2 o)
    then y <| p_mat := Some m |>
    else y <| p_h := h' |> <| p_jac := jac |>.

Definition refuse (x : rpilot) (e : R) (k : nat) : rpilot :=
  x <| p_h := if first_step x then p_h x / 10 else p_h x / quotient e k |>
    <| p_jac := Jac (p_t x) (p_u x) |> <| p_mat := None |> <| p_last := false |> <| p_again := true |>
    <| p_stats; rejects ::= fun c => if first_step x then c else S c |>.

(** *** One attempt *)
(** Matrices are made for the step size and the Jacobian in store, unless those
    of the last step are to be used again.  The step is halved when they are
    singular; the fifth time in a run, the run ends. *)
Inductive matrices : rpilot -> rpilot -> option (R * list (list R)) -> Prop :=
| mat_kept x m : p_mat x = Some m -> matrices x x (Some m)
| mat_new x : p_mat x = None -> regular n (p_h x) (p_jac x) ->
    matrices x (x <| p_stats; decompositions ::= S |>) (Some (p_h x, p_jac x))
| mat_end x : p_mat x = None -> ~ regular n (p_h x) (p_jac x) -> (4 <= p_singular x)%nat ->
    matrices x (x <| p_singular ::= S |> <| p_code := RSingularMatrix |>) None
| mat_halve x y r : p_mat x = None -> ~ regular n (p_h x) (p_jac x) -> (p_singular x < 4)%nat ->
    matrices (x <| p_singular ::= S |> <| p_h := p_h x / 2 |> <| p_jac := Jac (p_t x) (p_u x) |>
                <| p_last := false |> <| p_again := true |>) y r ->
    matrices x y r.

Definition tiny (x : rpilot) : Prop := 1/10 * p_h x <= Rabs (p_t x) * / IZR (2 ^ 52).

(** [true]: the step is over. *)
Inductive attempt (x : rpilot) : rpilot -> bool -> Prop :=
| at_singular y : matrices x y None -> attempt x y true
| at_budget y m : matrices x y (Some m) ->
    let y := y <| p_stats; steps ::= S |> in
    (o_max_steps o <= steps (p_stats y))%nat -> attempt x (y <| p_code := RMaxIters |>) true
| at_tiny y m : matrices x y (Some m) ->
    let y := y <| p_stats; steps ::= S |> in
    (steps (p_stats y) < o_max_steps o)%nat -> tiny y -> attempt x (y <| p_code := RDtLessThanMin |>) true
| at_newton y m k c factor b : matrices x y (Some m) ->
    let y := y <| p_stats; steps ::= S |> in
    (steps (p_stats y) < o_max_steps o)%nat -> ~ tiny y -> newton_result y m (Failed k c factor b) ->
    attempt x (y <| p_h := p_h y * factor |> <| p_conv := c |> <| p_last := false |> <| p_again := true |>
                 <| p_jac := if b then Jac (p_t y) (p_u y) else p_jac y |>
                 <| p_stats; function_evals ::= fun f => (f + 3 * k)%nat |>
                 <| p_stats; linear_solves ::= fun l => (l + k)%nat |>) false
| at_error y m k th c z e f : matrices x y (Some m) ->
    let y := y <| p_stats; steps ::= S |> in
    (steps (p_stats y) < o_max_steps o)%nat -> ~ tiny y -> newton_result y m (Converged k th c z) ->
    estimate y m z e f ->
    let y := y <| p_conv := c |> <| p_stats; function_evals ::= fun c => (c + 3 * k + f)%nat |>
               <| p_stats; linear_solves ::= fun l => (l + k)%nat |> in
    attempt x (if Rlt_dec e 1 then accept y m z e th k else refuse y e k) (if Rlt_dec e 1 then true else false).

Inductive attempts : rpilot -> rpilot -> Prop :=
| att_over x y : attempt x y true -> attempts x y
| att_again x y z : attempt x y false -> attempts y z -> attempts x z.

(** One step.  When less than 1.0001 times the step size is left of the span,
    that is tried first. *)
Definition aimed (x : rpilot) : rpilot :=
  if Rle_dec tf (p_t x + p_h x * (10001/10000)) then x <| p_h := tf - p_t x |> <| p_last := true |> else x.
Definition rad_step (x y : rpilot) : Prop := attempts (aimed x) y.

(** [k] steps, none of which is made after the end. *)
Inductive rad_run : nat -> rpilot -> rpilot -> Prop :=
| rad_run_0 x : rad_run 0 x x
| rad_run_S k x y z : rad_run k x y -> p_code y = RContinue -> rad_step y z -> rad_run (S k) x z.

Definition rad_start (t0 : R) (u0 : list R) (h0 : R) : rpilot := {|
  p_t := t0; p_u := u0; p_h := h0; p_jac := Jac t0 u0; p_mat := None; p_last := false; p_again := false;
  p_conv := 1; p_hprev := h0; p_z := mk3 [] [] []; p_hacc := 0; p_eacc := 0; p_hopt := h0;
  p_singular := 0; p_stats := stats_new; p_code := RContinue |}.
End Ref.

(** What a state of the integrator shows. *)
Definition rad_shows {inf P C} (s : integ (RA inf) P C) (x : rpilot) : Prop :=
  i_t s = p_t x /\ i_u s = p_u x /\ i_dt s = p_h x /\ i_stats s = p_stats x /\ rc (i_sol s) = p_code x.

(** A Jacobian that assigns every entry. *)
Definition jac_overwrites {inf P} (g : option (jac (RA inf) P)) : Prop :=
  match g with
  | None => True
  | Some g => forall buf buf' u t p i j, g buf u t p i j = g buf' u t p i j
  end.
