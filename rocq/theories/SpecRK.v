(** Textbook definitions, independent of the model of the code: explicit
    Runge-Kutta methods given by their Butcher tableau, weighted error norms,
    rooted trees and order conditions, and the Dormand-Prince 5(4) tableau. *)
From Coq Require Import Reals List Arith.
Import ListNotations.
Local Open Scope R_scope.

(** ** Vectors as lists of reals *)
Definition comp (u : list R) (i : nat) : R := nth i u 0.
Definition rsum (n : nat) (g : nat -> R) : R := fold_right Rplus 0 (map g (seq 0 n)).
(** [w_1 x_1 + w_2 x_2 + ...] *)
Fixpoint wsum (ws xs : list R) : R :=
  match ws, xs with
  | w :: ws', x :: xs' => w * x + wsum ws' xs'
  | _, _ => 0
  end.
(** [u + h * (w_1 k_1 + w_2 k_2 + ...)] *)
Definition combine_stages (u : list R) (h : R) (ws : list R) (ks : list (list R)) : list R :=
  map (fun i => comp u i + h * wsum ws (map (fun k => comp k i) ks)) (seq 0 (length u)).

(** ** Explicit Runge-Kutta methods *)
(** One row [(c_i, [a_i1; ...; a_i(i-1)])] per stage. *)
Definition tableau := list (R * list R).
(** The slopes [k_1, k_2, ...] of a step of size [h] from [(t, u)] for
    [u' = f t u]; [ks] are the slopes already known. *)
Fixpoint slopes (f : R -> list R -> list R) (t : R) (u : list R) (h : R)
    (rows : tableau) (ks : list (list R)) : list (list R) :=
  match rows with
  | [] => ks
  | (c, a) :: rows' =>
      slopes f t u h rows' (ks ++ [f (t + c * h) (combine_stages u h a ks)])
  end.
Definition rk_step (rows : tableau) (b : list R) (f : R -> list R -> list R)
    (t : R) (u : list R) (h : R) : list R :=
  combine_stages u h b (slopes f t u h rows []).

(** Weighted root-mean-square norm of a difference [d] between two
    approximations of a step from [u] to [v]. *)
Definition wrms (atol rtol : R) (u v d : list R) : R :=
  sqrt (rsum (length u) (fun i =>
          (comp d i / (atol + rtol * Rmax (Rabs (comp u i)) (Rabs (comp v i)))) ^ 2)
        / INR (length u)).
Definition vdiff (a b : list R) : list R :=
  map (fun i => comp a i - comp b i) (seq 0 (length a)).

(** Dormand & Prince (1980), RK5(4)7M. *)
Definition dopri_rows : tableau :=
  [ (0, []);
    (1/5, [1/5]);
    (3/10, [3/40; 9/40]);
    (4/5, [44/45; -(56/15); 32/9]);
    (8/9, [19372/6561; -(25360/2187); 64448/6561; -(212/729)]);
    (1, [9017/3168; -(355/33); 46732/5247; 49/176; -(5103/18656)]);
    (1, [35/384; 0; 500/1113; 125/192; -(2187/6784); 11/84]) ].
(** Fifth-order weights (the propagated solution) and fourth-order weights. *)
Definition dopri_b : list R := [35/384; 0; 500/1113; 125/192; -(2187/6784); 11/84; 0].
Definition dopri_bhat : list R :=
  [5179/57600; 0; 7571/16695; 393/640; -(92097/339200); 187/2100; 1/40].

(** ** Order conditions (Butcher) *)
Inductive tree := Node (children : list tree).
(** Number of nodes. *)
Fixpoint order (t : tree) : nat :=
  match t with Node l => S (fold_right (fun t n => order t + n)%nat O l) end.
(** Density: [order t * product of the densities of the subtrees]. *)
Fixpoint density (t : tree) : R :=
  match t with Node l => INR (order (Node l)) * fold_right (fun t x => density t * x) 1 l end.
(** The vector of elementary weights: stage [i] of [Node [t1;...;tm]] is
    [prod_k (sum_j a_ij * weight_j t_k)]. *)
Fixpoint weights (rows : tableau) (t : tree) : list R :=
  match t with
  | Node l => map (fun row => fold_right (fun t x => wsum (snd row) (weights rows t) * x) 1 l) rows
  end.
(** The method with weights [b] satisfies the order condition of [t], the
    step being scaled to end at [theta] (1 for the method itself). *)
Definition condition (rows : tableau) (b : list R) (theta : R) (t : tree) : Prop :=
  wsum b (weights rows t) = theta ^ order t / density t.

(** Weights of the continuous extension at [theta] in [0,1]: Hermite
    interpolation of the two end points and slopes, corrected by the
    coefficients [d] (Hairer, Norsett, Wanner, II.6). *)
Definition dopri_d : list R :=
  [-(12715105075/11282082432); 0; 87487479700/32700410799; -(10690763975/1880347072);
   701980252875/199316789632; -(1453857185/822651844); 69997945/29380423].
Definition dense_weight (theta b d first last : R) : R :=
  theta * (b + (1 - theta) * (first - b + theta * (2 * b - first - last + (1 - theta) * d))).
Definition dopri_dense (theta : R) : list R :=
  map (fun i => dense_weight theta (comp dopri_b i) (comp dopri_d i)
                  (if Nat.eqb i 0 then 1 else 0) (if Nat.eqb i 6 then 1 else 0)) (seq 0 7).

(** [Q] holds between any two consecutive elements of [l]. *)
Definition linked {X} (Q : X -> X -> Prop) (l : list X) : Prop :=
  forall l1 x y l2, l = l1 ++ x :: y :: l2 -> Q x y.

(** Polynomials of degree at most 4, [a0 + a1 t + ... + a4 t^4], and their
    antiderivative. *)
Definition poly4 (a : nat -> R) (t : R) : R := a 0%nat + a 1%nat*t + a 2%nat*t^2 + a 3%nat*t^3 + a 4%nat*t^4.
Definition poly4_int (a : nat -> R) (t : R) : R :=
  a 0%nat*t + a 1%nat*t^2/2 + a 2%nat*t^3/3 + a 3%nat*t^4/4 + a 4%nat*t^5/5.

(** [M u], [M^k u], and component [i] of [c_0 M^k u + c_1 M^(k+1) u + ...], for
    the [n] by [n] matrix [M]. *)
Definition mv (n : nat) (M : nat -> nat -> R) (u : list R) : list R :=
  map (fun i => rsum n (fun j => M i j * comp u j)) (seq 0 n).
Fixpoint mpow (n : nat) (M : nat -> nat -> R) (k : nat) (u : list R) : list R :=
  match k with O => u | S k => mv n M (mpow n M k u) end.
Fixpoint krylov (n : nat) (M : nat -> nat -> R) (cs : list R) (k : nat) (u : list R) (i : nat) : R :=
  match cs with [] => 0 | c :: cs' => c * comp (mpow n M k u) i + krylov n M cs' (S k) u i end.
