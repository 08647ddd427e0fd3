(** Successful integrations with Radau5 in exact arithmetic (C60).  The exact
    solution is described in [SpecConv.v]; [points s] is the list of recorded
    pairs (time, state); [the_jacobian] is the user's Jacobian or the forward
    differences used instead ([SpecIRK.v]). *)
From Coq Require Import ZArith List Bool Reals Lra Lia.
From RecordUpdate Require Import RecordSet.
From Verif Require Import Arith Vec Core Radau Spec SpecRK SpecODE SpecLin SpecStage SpecRadau SpecIRK SpecConv ArithR
  RadauLinEx RadauRef RadRefEx RadConvEx RadSuccMain.
Import ListNotations RecordSetNotations.
Local Open Scope R_scope.
Notation state inf P := (integ (RA inf) P (radau_cache (RA inf))).
Notation alg := (@Radau5 _ _).

(** C60.  Let the problem be Lipschitz on [[t0, T]].  Whatever the tolerances and
    the other options (safety factor at least 1/100, at least one Newton pass),
    there are [K] and [H0] such that every call of [integrate()] up to a time in
    [(t0, T]], with [0 < dt <= dtmax <= H0] and a budget of [(tf - t0)/dt + 1]
    steps, returns with code [Success] at [tf] and with errors of at most
    [K (dtmax + 10^-16)] in all recorded points.  The last hypothesis keeps [dt]
    above the smallest step size the code allows. *)
Theorem C60_radau_integrate_succeeds :
  forall P inf (f : rhs (RA inf) P) (g : option (jac (RA inf) P)) (p : P) n t0 T y (o : opts (RA inf)),
  overwrites f -> jac_overwrites g -> lipschitz_problem n (ode f p) t0 T y ->
  jacobian_bounded n (the_jacobian f g p) t0 T ->
  (forall h t u, 0 < h -> length u = n -> ~ blind n h (the_jacobian f g p t u)) ->
  0 < o_reltol o -> 0 < o_abstol o -> radau_sane o -> 1/100 <= o_safe o -> (0 < o_max_newt_iter o)%nat -> t0 < T ->
  exists K H0, 0 <= K /\ 0 < H0 /\
  forall (b : builder (RA inf) P) dtm N (s0 : state inf P) fuel fuel2,
  b_dudt b = f -> b_dfdu b = g -> b_params b = p -> b_t b = t0 -> t0 < b_tfinal b <= T -> b_u b = y t0 -> b_u b <> [] ->
  b_opts b = o <| o_dtmax := dtm |> <| o_max_steps := N |> ->
  0 < b_dt b <= dtm -> dtm <= H0 -> dtm <= b_tfinal b - t0 ->
  (b_tfinal b - t0) / b_dt b + 1 <= INR N ->
  Rmax (Rabs t0) (Rabs (b_tfinal b)) / IZR (2 ^ 52) < b_dt b / 100000 ->
  build alg b = Ok s0 -> (N + o_max_newt_iter o + 5 <= fuel)%nat -> (max 1 N <= fuel2)%nat ->
  exists s, integrate alg None fuel fuel2 s0 = Ok s /\ rc (i_sol s) = RSuccess /\ i_t s = b_tfinal b /\
    In (b_tfinal b, i_u s) (points s) /\
    forall t u, In (t, u) (points s) -> close n (K * (dtm + / 10 ^ 16)) u (y t).
Proof. intros P inf. exact (@radau_succeeds P inf). Qed.
Print Assumptions C60_radau_integrate_succeeds.

(** Two cells that exchange their contents, [u0' = u1 - u0], [u1' = u0 - u1] from
    [(1, 0)], with the default options and no Jacobian given: whatever [H0] is,
    ten steps up to a small enough time meet the hypotheses. *)
Example C60_ex : forall inf, 0 < inf ->
  let f := r_swap_rhs inf in let o := b_opts (r_swap inf) in
  overwrites f /\ jac_overwrites (P := unit) (inf := inf) None /\ lipschitz_problem 2 (ode f tt) 0 1 mixing /\
  jacobian_bounded 2 (the_jacobian f None tt) 0 1 /\
  (forall h t u, 0 < h -> length u = 2%nat -> ~ blind 2 h (the_jacobian f None tt t u)) /\
  0 < o_reltol o /\ 0 < o_abstol o /\ radau_sane o /\ 1/100 <= o_safe o /\ (0 < o_max_newt_iter o)%nat /\
  forall H0, 0 < H0 -> exists tf, 0 < tf <= 1 /\
  let b := b_short inf tf in let dtm := tf / 10 in
  b_dudt b = f /\ b_dfdu b = None /\ b_params b = tt /\ b_t b = 0 /\ b_tfinal b = tf /\ b_u b = mixing 0 /\ b_u b <> [] /\
  b_opts b = o <| o_dtmax := dtm |> <| o_max_steps := 12%nat |> /\
  0 < b_dt b <= dtm /\ dtm <= H0 /\ dtm <= b_tfinal b - 0 /\
  (b_tfinal b - 0) / b_dt b + 1 <= INR 12 /\
  Rmax (Rabs 0) (Rabs (b_tfinal b)) / IZR (2 ^ 52) < b_dt b / 100000 /\
  exists s0, build alg b = Ok s0.
Proof.
  intros inf Hinf f o. split; [intros d d' u t p i _ _; reflexivity|]. split; [exact I|].
  split; [apply mixing_problem|]. split; [apply mixing_jacobian|]. split; [exact (swap_seeing inf)|].
  split; [cbn; unfold rlit; lra|]. split; [cbn; unfold rlit; lra|].
  split; [exact (swap_sane inf Hinf)|]. split; [cbn; unfold rlit; lra|]. split; [cbn; lia|]. exact (short_ex inf).
Qed.
