(** Convergence of Radau5 in exact arithmetic.  The exact solution is described
    in [SpecConv.v]; [points s] is the list of recorded pairs (time, state),
    [gaps] the list of differences of consecutive times; [the_jacobian] is the
    user's Jacobian or the forward differences used instead ([SpecIRK.v]). *)
From Coq Require Import ZArith List Bool Reals Lra Lia.
From RecordUpdate Require Import RecordSet.
From Verif Require Import Arith Vec Core Radau Spec SpecRK SpecODE SpecLin SpecStage SpecRadau SpecIRK SpecConv ArithR
  RadauLinEx RadauRef RadRefEx RadConv RadConvEx.
Import ListNotations RecordSetNotations.
Local Open Scope R_scope.
Notation state inf P := (integ (RA inf) P (radau_cache (RA inf))).
Notation alg := (@Radau5 _ _).

(** C59.  Whatever the tolerances and the other options, there are constants [K]
    and [H0] such that for every run, if the steps taken so far are at most [H],
    every recorded state is within [K (H + 10^-16)] of the exact solution.  The
    second term is due to the coefficients, of which the code has 16 digits. *)
Theorem C59_radau_converges :
  forall P inf (f : rhs (RA inf) P) (g : option (jac (RA inf) P)) (p : P) n t0 tf y (o : opts (RA inf)),
  overwrites f -> jac_overwrites g -> lipschitz_problem n (ode f p) t0 tf y ->
  jacobian_bounded n (the_jacobian f g p) t0 tf ->
  (forall h t u, 0 < h -> length u = n -> ~ blind n h (the_jacobian f g p t u)) ->
  0 < o_reltol o -> 0 < o_abstol o -> radau_sane o -> t0 < tf ->
  exists K H0, 0 <= K /\ 0 < H0 /\
  forall (b : builder (RA inf) P) dtm fuel k (s0 s : state inf P) H,
  b_dudt b = f -> b_dfdu b = g -> b_params b = p -> b_t b = t0 -> b_tfinal b = tf -> b_u b = y t0 -> b_u b <> [] ->
  b_opts b = o <| o_dtmax := dtm |> -> 0 < dtm -> 0 < b_dt b ->
  build alg b = Ok s0 -> reached alg None fuel k s0 s ->
  0 < H <= H0 -> Forall (fun g => g <= H) (gaps (ts (i_sol s))) ->
  forall t u, In (t, u) (points s) -> close n (K * (H + / 10 ^ 16)) u (y t).
Proof. intros P inf. exact (@radau_converges P inf). Qed.
Print Assumptions C59_radau_converges.

(** C59.  Whatever accuracy [eps] is asked for, a small enough [dtmax] and
    initial step achieve it at every recorded point, up to the digits of the
    coefficients. *)
Theorem C59_radau_dtmax_controls_error :
  forall P inf (f : rhs (RA inf) P) (g : option (jac (RA inf) P)) (p : P) n t0 tf y (o : opts (RA inf)),
  overwrites f -> jac_overwrites g -> lipschitz_problem n (ode f p) t0 tf y ->
  jacobian_bounded n (the_jacobian f g p) t0 tf ->
  (forall h t u, 0 < h -> length u = n -> ~ blind n h (the_jacobian f g p t u)) ->
  0 < o_reltol o -> 0 < o_abstol o -> radau_sane o -> t0 < tf ->
  exists K, forall eps, 0 < eps -> exists dt0, 0 < dt0 /\
  forall (b : builder (RA inf) P) dtm fuel k (s0 s : state inf P),
  b_dudt b = f -> b_dfdu b = g -> b_params b = p -> b_t b = t0 -> b_tfinal b = tf -> b_u b = y t0 -> b_u b <> [] ->
  b_opts b = o <| o_dtmax := dtm |> -> 0 < dtm <= dt0 -> 0 < b_dt b <= dt0 ->
  build alg b = Ok s0 -> reached alg None fuel k s0 s ->
  forall t u, In (t, u) (points s) -> close n (eps + K / 10 ^ 16) u (y t).
Proof. intros P inf. exact (@radau_dtmax_controls_error P inf). Qed.
Print Assumptions C59_radau_dtmax_controls_error.

(** Two cells that exchange their contents, [u0' = u1 - u0], [u1' = u0 - u1] from
    [(1, 0)], with the default options and no Jacobian given; for every [h > 0]
    there is a run with [dtmax] and initial step [h] that meets the hypotheses of
    both theorems. *)
Example C59_ex : forall inf, 0 < inf ->
  let f := r_swap_rhs inf in let o := b_opts (r_swap inf) in
  overwrites f /\ jac_overwrites (P := unit) (inf := inf) None /\ lipschitz_problem 2 (ode f tt) 0 1 mixing /\
  jacobian_bounded 2 (the_jacobian f None tt) 0 1 /\
  (forall h t u, 0 < h -> length u = 2%nat -> ~ blind 2 h (the_jacobian f None tt t u)) /\
  0 < o_reltol o /\ 0 < o_abstol o /\ radau_sane o /\
  forall h, 0 < h ->
  let b := b_mix inf h in
  b_dudt b = f /\ b_dfdu b = None /\ b_params b = tt /\ b_t b = 0 /\ b_tfinal b = 1 /\ b_u b = mixing 0 /\ b_u b <> [] /\
  b_opts b = o <| o_dtmax := h |> /\ b_dt b = h /\
  exists fuel k s0 s, build alg b = Ok s0 /\ reached alg None fuel (S k) s0 s /\
    Forall (fun g => g <= 10001/10000 * (h / o_quot1 o)) (gaps (ts (i_sol s))).
Proof.
  intros inf Hinf f o. split; [intros d d' u t p i _ _; reflexivity|]. split; [exact I|].
  split; [apply mixing_problem|]. split; [apply mixing_jacobian|]. split; [exact (swap_seeing inf)|].
  split; [cbn; unfold rlit; lra|]. split; [cbn; unfold rlit; lra|].
  split; [exact (swap_sane inf Hinf)|].
  intros h Hh b. do 5 (split; [reflexivity|]).
  split; [unfold mixing; cbn; rewrite Rmult_0_r, exp_0; f_equal; [field|f_equal; field]|].
  split; [discriminate|]. do 2 (split; [reflexivity|]). exact (mix_runs inf h Hinf Hh).
Qed.
