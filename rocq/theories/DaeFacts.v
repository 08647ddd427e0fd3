(** Facts about the problem builder of src/dae/problem.rs. *)
From Coq Require Import List Arith Bool Lia.
From Verif Require Import Arith Vec Dae SpecDae.
Import ListNotations.

Section F.
Context {A : arith} {T : Type}.
Notation builder := (dae_builder A T).
Notation problem := (dae_problem A T).
Implicit Type b : builder.

Lemma given_unwrap o d v : given o d v <-> v = unwrap_or o d.
Proof. destruct o; reflexivity. Qed.
Lemma indices_iff b : indices_ok b <->
  unwrap_or (d_nind1 b) (sys_size b) + unwrap_or (d_nind2 b) 0 + unwrap_or (d_nind3 b) 0 = sys_size b.
Proof.
  unfold indices_ok. split.
  - intros H. apply H; now apply given_unwrap.
  - intros H i1 i2 i3 ?%given_unwrap ?%given_unwrap ?%given_unwrap. now subst.
Qed.

(** The three outcomes. *)
Lemma dae_build_cases b : let n := sys_size b in let m1 := unwrap_or (d_m1 b) 0 in
  let band := unwrap_or (d_jac_lbw b) n <? n - m1 in
  let jl := if band then unwrap_or (d_jac_lbw b) n else n - m1 in
  let ju := if band then unwrap_or (d_jac_ubw b) n else n - m1 in
  let ml := unwrap_or (d_mm_lbw b) n in let mu := unwrap_or (d_mm_ubw b) n in
  (~ indices_ok b /\ exists i1 i2 i3, dae_build b = Ok (inr (InvalidIndexPars i1 i2 i3)) /\ i1 + i2 + i3 <> n) \/
  (indices_ok b /\ n < 2 * m1 /\ dae_build b = Ok (inr (Invalid2ndOrderPars m1 m1))) \/
  (indices_ok b /\ 2 * m1 <= n /\ d_mass b <> None /\ (jl < ml \/ ju < mu) /\ dae_build b = Ok (inr (InvlaidMassBw jl ju ml mu))) \/
  (indices_ok b /\ 2 * m1 <= n /\ (d_mass b = None \/ ml <= jl /\ mu <= ju) /\ exists p, dae_build b = Ok (inl p) /\
     p_func p = d_func b /\ p_mass p = d_mass b /\ p_uinit p = d_uinit b /\ p_tspan p = d_tspan b /\
     given (d_nind1 b) n (p_nind1 p) /\ given (d_nind2 b) 0 (p_nind2 p) /\ given (d_nind3 b) 0 (p_nind3 p) /\
     p_m1 p = m1 /\ p_m2 p = (if m1 =? 0 then n else m1) /\
     p_jac_lbw p = jl /\ p_jac_ubw p = ju /\ p_mm_lbw p = ml /\ p_mm_ubw p = mu).
Proof.
  intros n m1 band jl ju ml mu. pose proof (indices_iff b) as HI. fold n in HI.
  unfold dae_build. fold n. change (length (d_uinit b)) with n. fold m1.
  destruct (Nat.eqb_spec (unwrap_or (d_nind1 b) n + unwrap_or (d_nind2 b) 0 + unwrap_or (d_nind3 b) 0) n) as [E|E]; cbn [negb].
  2:{ left. split; [tauto|]. eexists _, _, _. split; [reflexivity|exact E]. }
  right. apply HI in E. fold ml mu.
  set (m2 := if m1 =? 0 then n else _).
  assert (m2 = if m1 =? 0 then n else m1) as Em2.
  { unfold m2. destruct (m1 =? 0) eqn:E1; reflexivity. }
  destruct (Nat.ltb_spec n (m1 + m2)) as [H|H].
  { left. split; [exact E|]. rewrite Em2 in H |- *. destruct (Nat.eqb_spec m1 0) as [E1|E1]; [lia|]. split; [lia|reflexivity]. }
  assert (2 * m1 <= n) as H2 by (rewrite Em2 in H; destruct (Nat.eqb_spec m1 0); lia).
  right. destruct (Nat.ltb_spec n m1) as [H3|H3]; [lia|]. fold band.
  replace (if negb band then n - m1 else unwrap_or (d_jac_lbw b) n) with jl by (unfold jl; now destruct band).
  replace (if negb band then n - m1 else unwrap_or (d_jac_ubw b) n) with ju by (unfold ju; now destruct band).
  destruct (d_mass b) as [m|] eqn:Em; cbn [andb].
  - destruct (Nat.ltb_spec jl ml) as [L|L]; cbn [orb].
    { left. repeat (split; [first [assumption|discriminate|tauto]|]). reflexivity. }
    destruct (Nat.ltb_spec ju mu) as [L2|L2].
    { left. repeat (split; [first [assumption|discriminate|tauto]|]). reflexivity. }
    right. split; [exact E|]. split; [exact H2|]. split; [tauto|]. eexists. split; [reflexivity|]. cbn.
    rewrite !given_unwrap. repeat split. exact Em2.
  - right. split; [exact E|]. split; [exact H2|]. split; [tauto|]. eexists. split; [reflexivity|]. cbn.
    rewrite !given_unwrap. repeat split. exact Em2.
Qed.

Lemma dae_accepts b : (exists p, dae_build b = Ok (inl p)) <->
  (indices_ok b /\ (forall m1, given (d_m1 b) 0 m1 -> 2 * m1 <= sys_size b) /\
   (d_mass b = None \/ forall m1 jl ju ml mu, given (d_m1 b) 0 m1 ->
      given (d_jac_lbw b) (sys_size b) jl -> given (d_jac_ubw b) (sys_size b) ju ->
      given (d_mm_lbw b) (sys_size b) ml -> given (d_mm_ubw b) (sys_size b) mu ->
      if jl <? sys_size b - m1 then ml <= jl /\ mu <= ju else ml <= sys_size b - m1 /\ mu <= sys_size b - m1)).
Proof.
  split.
  - intros (p & H). destruct (dae_build_cases b) as [(_ & i1 & i2 & i3 & E & _)|[(_ & _ & E)|[(_ & _ & _ & _ & E)|(H1 & H2 & H3 & _)]]];
      try (rewrite E in H; discriminate). split; [exact H1|]. split; [intros m1 ->%given_unwrap; exact H2|].
    destruct H3 as [H3|H3]; [now left|]. right.
    intros m1 jl ju ml mu ->%given_unwrap ->%given_unwrap ->%given_unwrap ->%given_unwrap ->%given_unwrap.
    destruct (_ <? _); exact H3.
  - intros (H1 & H2 & H3). specialize (H2 _ (proj2 (given_unwrap _ _ _) eq_refl)).
    destruct (dae_build_cases b) as [(N & _)|[(_ & N & _)|[(_ & _ & N & N2 & _)|(_ & _ & _ & p & E & _)]]]; [tauto|lia| |eauto].
    destruct H3 as [H3|H3]; [tauto|]. exfalso.
    specialize (H3 _ _ _ _ _ (proj2 (given_unwrap _ _ _) eq_refl) (proj2 (given_unwrap _ _ _) eq_refl) (proj2 (given_unwrap _ _ _) eq_refl)
      (proj2 (given_unwrap _ _ _) eq_refl) (proj2 (given_unwrap _ _ _) eq_refl)).
    destruct (_ <? _); lia.
Qed.
Lemma dae_no_panic b : exists r, dae_build b = Ok r.
Proof.
  destruct (dae_build_cases b) as [(_ & i1 & i2 & i3 & E & _)|[(_ & _ & E)|[(_ & _ & _ & _ & E)|(_ & _ & _ & p & E & _)]]]; eauto.
Qed.
Lemma dae_problem_ok b p : dae_build b = Ok (inl p) ->
  (p_func p = d_func b /\ p_mass p = d_mass b /\ p_uinit p = d_uinit b /\ p_tspan p = d_tspan b) /\
  (given (d_nind1 b) (sys_size b) (p_nind1 p) /\ given (d_nind2 b) 0 (p_nind2 p) /\ given (d_nind3 b) 0 (p_nind3 p) /\
   p_nind1 p + p_nind2 p + p_nind3 p = sys_size b) /\
  (given (d_m1 b) 0 (p_m1 p) /\ p_m1 p + p_m2 p <= sys_size b) /\
  (p_jac_lbw p <= sys_size b - p_m1 p /\
   forall l u, d_jac_lbw b = Some l -> d_jac_ubw b = Some u -> l < sys_size b - p_m1 p -> p_jac_lbw p = l /\ p_jac_ubw p = u) /\
  (given (d_mm_lbw b) (sys_size b) (p_mm_lbw p) /\ given (d_mm_ubw b) (sys_size b) (p_mm_ubw p) /\
   (p_mass p <> None -> p_mm_lbw p <= p_jac_lbw p /\ p_mm_ubw p <= p_jac_ubw p)).
Proof.
  intros H. destruct (dae_build_cases b) as [(_ & i1 & i2 & i3 & E & _)|[(_ & _ & E)|[(_ & _ & _ & _ & E)|(H1 & H2 & H3 & p' & E & H4)]]];
    rewrite E in H; try discriminate. injection H as ->.
  destruct H4 as (F1 & F2 & F3 & F4 & G1 & G2 & G3 & M1 & M2 & J1 & J2 & Q1 & Q2).
  split; [auto|]. split; [repeat (split; [assumption|]); now apply H1|].
  split; [split; [apply given_unwrap; exact M1|rewrite M1, M2; destruct (Nat.eqb_spec (unwrap_or (d_m1 b) 0) 0); lia]|].
  rewrite J1, J2, Q1, Q2, M1, F2, !given_unwrap. split.
  - split; [destruct (Nat.ltb_spec (unwrap_or (d_jac_lbw b) (sys_size b)) (sys_size b - unwrap_or (d_m1 b) 0)); lia|].
    intros l u -> -> Hl. cbn [unwrap_or]. apply Nat.ltb_lt in Hl. rewrite Hl. auto.
  - split; [reflexivity|]. split; [reflexivity|]. intros Hm. tauto.
Qed.

(** The second parameter of [second_order_params] has no effect. *)
Lemma dae_m2_ignored b m1 m2 m2' : dae_build (dae_second_order (m1, m2) b) = dae_build (dae_second_order (m1, m2') b).
Proof. reflexivity. Qed.
Lemma dae_second_order_rejected (f : T) ts : exists u : vec A,
  length u = 3 /\ dae_build (dae_second_order (2, 1) (dae_default f u ts)) = Ok (inr (Invalid2ndOrderPars 2 2)).
Proof. exists [n0; n0; n0]. split; reflexivity. Qed.

(** A mass matrix with the default bandwidths is never accepted for a second-order problem. *)
Lemma dae_mass_second_order b m1 : d_mass b <> None -> d_m1 b = Some m1 -> m1 <> 0 -> d_mm_lbw b = None ->
  exists e, dae_build b = Ok (inr e).
Proof.
  intros Hm H1 Hz Hb.
  destruct (dae_build_cases b) as [(_ & i1 & i2 & i3 & E & _)|[(_ & _ & E)|[(_ & _ & _ & _ & E)|(_ & H2 & H3 & p & E & _)]]]; eauto.
  exfalso. rewrite H1, Hb in *. cbn [unwrap_or] in *. destruct H3 as [H3|[H3 _]]; [tauto|].
  destruct (Nat.ltb_spec (unwrap_or (d_jac_lbw b) (sys_size b)) (sys_size b - m1)); lia.
Qed.
End F.

Lemma dae_calls_told {A T} (f : T) u ts (l : list (dae_call A)) :
  let b := dae_calls l (dae_default f u ts) in
  d_func b = f /\ d_uinit b = u /\ d_tspan b = ts /\
  d_mass b = last_told (fun c => match c with WithMass m => Some m | _ => None end) l /\
  d_nind1 b = last_told (fun c => match c with NumIndex1 v => Some v | _ => None end) l /\
  d_nind2 b = last_told (fun c => match c with NumIndex2 v => Some v | _ => None end) l /\
  d_nind3 b = last_told (fun c => match c with NumIndex3 v => Some v | _ => None end) l /\
  d_m1 b = last_told (fun c => match c with SecondOrder v _ => Some v | _ => None end) l /\
  d_m2 b = last_told (fun c => match c with SecondOrder _ v => Some v | _ => None end) l /\
  d_jac_lbw b = last_told (fun c => match c with JacBandwidths v _ => Some v | _ => None end) l /\
  d_jac_ubw b = last_told (fun c => match c with JacBandwidths _ v => Some v | _ => None end) l /\
  d_mm_lbw b = last_told (fun c => match c with MassBandwidths v _ => Some v | _ => None end) l /\
  d_mm_ubw b = last_told (fun c => match c with MassBandwidths _ v => Some v | _ => None end) l.
Proof.
  induction l as [|c l IH] using rev_ind; [cbn; repeat split|].
  unfold dae_calls, last_told in *. rewrite !fold_left_app. cbn [fold_left].
  destruct IH as (I1 & I2 & I3 & I4 & I5 & I6 & I7 & I8 & I9 & I10 & I11 & I12 & I13).
  destruct c; cbn; repeat split; assumption || reflexivity.
Qed.
