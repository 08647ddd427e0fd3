(** C51: the problem builder of src/dae/problem.rs (not compiled into the crate). *)
From Coq Require Import List Arith Bool.
From Verif Require Import Arith Vec Dae SpecDae DaeFacts.
Import ListNotations.

(** [build] never panics. *)
Theorem C51_dae_build_returns :
  forall A T (b : dae_builder A T), exists r, dae_build b = Ok r.
Proof. intros A T. exact dae_no_panic. Qed.
Print Assumptions C51_dae_build_returns.

(** The builder holds what the last call for each quantity said, bandwidths in
    the order lower, upper. *)
Theorem C51_dae_builder_calls :
  forall A T (f : T) u ts (l : list (dae_call A)),
  let b := dae_calls l (dae_default f u ts) in
  d_func b = f /\ d_uinit b = u /\ d_tspan b = ts /\
  d_mass b = last_told (fun c => match c with WithMass m => Some m | _ => None end) l /\
  d_nind1 b = last_told (fun c => match c with NumIndex1 v => Some v | _ => None end) l /\
  d_nind2 b = last_told (fun c => match c with NumIndex2 v => Some v | _ => None end) l /\
  d_nind3 b = last_told (fun c => match c with NumIndex3 v => Some v | _ => None end) l /\
  d_m1 b = last_told (fun c => match c with SecondOrder v _ => Some v | _ => None end) l /\
  d_m2 b = last_told (fun c => match c with SecondOrder _ v => Some v | _ => None end) l /\
  d_jac_lbw b = last_told (fun c => match c with JacBandwidths v _ => Some v | _ => None end) l /\
  d_jac_ubw b = last_told (fun c => match c with JacBandwidths _ v => Some v | _ => None end) l /\
  d_mm_lbw b = last_told (fun c => match c with MassBandwidths v _ => Some v | _ => None end) l /\
  d_mm_ubw b = last_told (fun c => match c with MassBandwidths _ v => Some v | _ => None end) l.
Proof. intros A T. exact dae_calls_told. Qed.
Print Assumptions C51_dae_builder_calls.

(** It accepts exactly the builders whose index counts sum to the size of the
    system, whose [m1] is at most half of it, and whose mass matrix, if any, has
    bandwidths that are not larger than the Jacobian's (of the part that is not
    of the form [u[i]' = u[i+m2]], full unless the lower bandwidth is smaller). *)
Theorem C51_dae_build_accepts :
  forall A T (b : dae_builder A T), (exists p, dae_build b = Ok (inl p)) <->
  (indices_ok b /\ (forall m1, given (d_m1 b) 0 m1 -> 2 * m1 <= sys_size b) /\
   (d_mass b = None \/ forall m1 jl ju ml mu, given (d_m1 b) 0 m1 ->
      given (d_jac_lbw b) (sys_size b) jl -> given (d_jac_ubw b) (sys_size b) ju ->
      given (d_mm_lbw b) (sys_size b) ml -> given (d_mm_ubw b) (sys_size b) mu ->
      if jl <? sys_size b - m1 then ml <= jl /\ mu <= ju else ml <= sys_size b - m1 /\ mu <= sys_size b - m1)).
Proof. intros A T. exact dae_accepts. Qed.
Print Assumptions C51_dae_build_accepts.

(** The problem keeps what was given and is consistent. *)
Theorem C51_dae_problem :
  forall A T (b : dae_builder A T) p, dae_build b = Ok (inl p) ->
  (p_func p = d_func b /\ p_mass p = d_mass b /\ p_uinit p = d_uinit b /\ p_tspan p = d_tspan b) /\
  (given (d_nind1 b) (sys_size b) (p_nind1 p) /\ given (d_nind2 b) 0 (p_nind2 p) /\ given (d_nind3 b) 0 (p_nind3 p) /\
   p_nind1 p + p_nind2 p + p_nind3 p = sys_size b) /\
  (given (d_m1 b) 0 (p_m1 p) /\ p_m1 p + p_m2 p <= sys_size b) /\
  (p_jac_lbw p <= sys_size b - p_m1 p /\
   forall l u, d_jac_lbw b = Some l -> d_jac_ubw b = Some u -> l < sys_size b - p_m1 p -> p_jac_lbw p = l /\ p_jac_ubw p = u) /\
  (given (d_mm_lbw b) (sys_size b) (p_mm_lbw p) /\ given (d_mm_ubw b) (sys_size b) (p_mm_ubw p) /\
   (p_mass p <> None -> p_mm_lbw p <= p_jac_lbw p /\ p_mm_ubw p <= p_jac_ubw p)).
Proof. intros A T. exact dae_problem_ok. Qed.
Print Assumptions C51_dae_problem.

Example C51_calls_ex : forall A (z : num A),
  let b := dae_calls [JacBandwidths 1 2; NumIndex1 3; JacBandwidths 0 2] (dae_default tt [z; z; z] (z, z)) in
  d_jac_lbw b = Some 0 /\ d_jac_ubw b = Some 2 /\ d_nind1 b = Some 3 /\ d_mm_lbw b = None.
Proof. repeat split. Qed.

(** Four equations in second-order form with a banded Jacobian and a diagonal mass matrix. *)
Example C51_ex : forall A (z : num A), exists p,
  dae_build (dae_mass_bandwidths (0, 0) (dae_jac_bandwidths (1, 1) (dae_second_order (2, 2)
    (dae_num_index2 1 (dae_num_index1 3 (dae_with_mass [] (dae_default tt [z; z; z; z] (z, z)))))))) = Ok (inl p) /\
  p_nind1 p = 3 /\ p_nind2 p = 1 /\ p_nind3 p = 0 /\ p_m1 p = 2 /\ p_m2 p = 2 /\ p_jac_lbw p = 1 /\ p_jac_ubw p = 1.
Proof. intros A z. eexists. split; [vm_compute; reflexivity|]. vm_compute. repeat split. Qed.

(** "[m1] and [m2] are defined such that u'[i] = u[i+m2] for i = 1,...,m1": the
    second number has no effect, and (2,1) is refused for a system of size 3. *)
Theorem C51_dae_second_order_params_refuted :
  forall A T,
  (forall (b : dae_builder A T) m1 m2 m2', dae_build (dae_second_order (m1, m2) b) = dae_build (dae_second_order (m1, m2') b)) /\
  (forall (f : T) ts, exists u : vec A, length u = 3 /\
     dae_build (dae_second_order (2, 1) (dae_default f u ts)) = Ok (inr (Invalid2ndOrderPars 2 2))).
Proof. intros A T. exact (conj dae_m2_ignored dae_second_order_rejected). Qed.
Print Assumptions C51_dae_second_order_params_refuted.

(** A mass matrix whose bandwidths are not given (a full one) is refused for
    every second-order problem. *)
Theorem C51_dae_full_mass_refuted :
  forall A T (b : dae_builder A T) m1, d_mass b <> None -> d_m1 b = Some m1 -> m1 <> 0 -> d_mm_lbw b = None ->
  exists e, dae_build b = Ok (inr e).
Proof. intros A T. exact dae_mass_second_order. Qed.
Print Assumptions C51_dae_full_mass_refuted.
