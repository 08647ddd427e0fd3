(** The modes of a linear system in the recorded solution. *)
From Coq Require Import Reals List Lia Lra Arith Bool.
From RecordUpdate Require Import RecordSet.
From Verif Require Import Arith Vec Core Driver Radau RadauInv Spec SpecRK SpecODE SpecLin SpecRadau SpecReach SpecStage SpecIRK SpecConv SpecMode ArithR
  RKFacts DP5RK DP5Num RadauLin RadauHist RadauSafe RadauTerm RadauEx RadauREx RadauRForms RadauRef RadRefDet RadauStage Jacobian JacFacts RadConvLocal RadConvRun RadConv SubEx RadMode.
Import ListNotations RecordSetNotations.
Local Open Scope R_scope.

Lemma nth_map_seq {X} (f : nat -> X) n i d : (i < n)%nat -> nth i (map f (seq 0 n)) d = f i.
Proof.
  intros Hi. rewrite (nth_indep _ d (f 0%nat)) by (now rewrite map_length, seq_length).
  rewrite map_nth, seq_nth by exact Hi. reflexivity.
Qed.
(** Forward differences are exact for linear systems. *)
Lemma fd_exact {inf P} (f : rhs (RA inf) P) (g : option (jac (RA inf) P)) (p : P) n J e : linear_system n (ode f p) J e ->
  g = None \/ (forall t u, length u = n -> is_J n J (the_jacobian f g p t u)) ->
  forall t u, length u = n -> is_J n J (the_jacobian f g p t u).
Proof.
  intros Hlin [->|H] t u Hu; [|now apply H]. intros i j Hi Hj.
  unfold entry, the_jacobian. rewrite Hu.
  rewrite nth_map_seq by exact Hi.
  match goal with |- nth j (vect n ?g) 0 = _ => change (comp (vect n g) j = J i j) end.
  rewrite comp_vect by exact Hj.
  assert (0 < fd_step (comp u j)) as Hd by exact (fd_delta_pos (inf := inf) (comp u j)).
  set (d := fd_step (comp u j)) in *. clearbody d.
  rewrite !Hlin by (try apply vect_length; assumption). rewrite <- rsum_minus.
  rewrite (RKFacts.rsum_ext n _ (fun l => if Nat.eqb j l then J i l * d else 0)).
  2:{ intros l Hl. rewrite comp_vect by exact Hl. rewrite (Nat.eqb_sym j l). destruct (Nat.eqb l j); ring. }
  rewrite rsum_delta by exact Hj. field. lra.
Qed.

Section Main.
Context {P : Type} {inf : R} (b : builder (RA inf) P).
Context (J : nat -> nat -> R) (e : list R) (p q : nat -> R) (a c : R).
Notation n := (length (b_u b)).
Notation F := (ode (b_dudt b) (b_params b)).
Notation Jac := (the_jacobian (b_dudt b) (b_dfdu b) (b_params b)).
Notation o := (b_opts b).
Notation tf := (b_tfinal b).
Notation t0 := (b_t b).
Notation alg := (@Radau5 (RA inf) P).
Notation state := (integ (RA inf) P (radau_cache (RA inf))).
Notation start := (rad_start Jac (b_t b) (b_u b) (b_dt b)).
Hypothesis How : overwrites (b_dudt b).
Hypothesis Hgj : jac_overwrites (b_dfdu b).
Hypothesis Hu0 : b_u b <> [].
Hypothesis Hr : 0 < o_reltol o.
Hypothesis Hat : 0 < o_abstol o.
Hypothesis Hsane : radau_sane o.
Hypothesis Hdt : 0 < b_dt b.
Hypothesis Ht : t0 < tf.
Hypothesis Hlin : linear_system n F J e.
Hypothesis Hjac : b_dfdu b = None \/ (forall t u, length u = n -> is_J n J (Jac t u)).
Hypothesis Hcol : (forall i, (0 < i < n)%nat -> J i 0%nat = 0) -> J 0%nat 0%nat <= 0.
Hypothesis Heig : left_eigenvector n J p q a c.
Hypothesis Ha : a <= 0.

Lemma exact_jac : forall t u, length u = n -> is_J n J (Jac t u).
Proof. exact (fd_exact _ _ _ _ _ _ Hlin Hjac). Qed.
Lemma seeing : forall h t u, 0 < h -> length u = n -> ~ blind n h (Jac t u).
Proof.
  intros h t u Hh Hu (Hn & H). pose proof (exact_jac t u Hu) as HJ.
  assert (0 < radau_gamma / h) as Hg by (apply Rdiv_lt_0_compat; [unfold radau_gamma; lra|exact Hh]).
  assert (J 0%nat 0%nat <= 0) as H0.
  { apply Hcol. intros i Hi. rewrite <- HJ by lia. rewrite H by lia. destruct (Nat.eqb_spec i 0); [lia|reflexivity]. }
  rewrite <- HJ in H0 by lia. rewrite H in H0 by lia. cbn [Nat.eqb] in H0. lra.
Qed.
Lemma start_btw : btw n J tf start.
Proof. constructor; cbn; try lra; try discriminate; try reflexivity. apply exact_jac. reflexivity. Qed.

(** Consecutive recorded points. *)
Definition linked (l : list (R * list R)) : Prop :=
  forall j t u t' u', nth_error l j = Some (t, u) -> nth_error l (S j) = Some (t', u') -> t < t' /\ decays n e p q a c (t' - t) u u'.
Lemma linked_snoc l t u t' u' : linked (l ++ [(t, u)]) -> t < t' -> decays n e p q a c (t' - t) u u' -> linked ((l ++ [(t, u)]) ++ [(t', u')]).
Proof.
  intros HL Ht' HD j s v s' v' H1 H2.
  assert (S j < length ((l ++ [(t, u)]) ++ [(t', u')]))%nat as Hj by (apply nth_error_Some; congruence).
  rewrite !app_length in Hj. cbn in Hj.
  destruct (Nat.eq_dec j (length l)) as [->|Hne].
  - rewrite nth_error_app1 in H1 by (rewrite app_length; cbn; lia). rewrite nth_error_app2, Nat.sub_diag in H1 by lia. injection H1 as <- <-.
    rewrite nth_error_app2 in H2 by (rewrite app_length; cbn; lia). 
    match type of H2 with nth_error _ ?k = _ => replace k with 0%nat in H2 by (rewrite app_length; cbn [length]; lia) end.
    cbn in H2. injection H2 as <- <-. now split.
  - rewrite nth_error_app1 in H1 by (rewrite app_length; cbn; lia). rewrite nth_error_app1 in H2 by (rewrite app_length; cbn; lia).
    exact (HL _ _ _ _ _ H1 H2).
Qed.
Definition good (s : state) : Prop :=
  length (ts (i_sol s)) = length (us (i_sol s)) /\ (exists l, points s = l ++ [(i_t s, i_u s)]) /\
  nth_error (points s) 0 = Some (t0, b_u b) /\ linked (points s).
Lemma next_good fuel k (s0 s s' : state) r : build alg b = Ok s0 -> continues alg None fuel k s0 s ->
  step alg None fuel s = Ok (s', r) -> good s ->
  (exists x, rad_run n F Jac o tf k start x /\ rad_shows s x /\ btw n J tf x) ->
  (nth_error (points s') 0 = Some (t0, b_u b) /\ linked (points s')) /\
  (rc (i_sol s') = RContinue -> good s' /\ exists x', rad_run n F Jac o tf (S k) start x' /\ rad_shows s' x' /\ btw n J tf x').
Proof.
  intros Hb Hc Hs (G1 & (l & G2) & G3 & G4) (x & Hx & Hshx & HB).
  destruct (radau_reference inf b How Hgj Hu0 Hr Hat Hsane seeing fuel (S k) s0 s' Hdt Ht Hb) as (x' & Hx' & Hsh); [econstructor; eassumption|].
  destruct (radau_call_outcome b fuel k s0 s s' r Hb Hc Hs) as [(O1 & O2 & O3 & O4 & O5)|(O1 & O2 & O3 & O4 & O5 & O6)].
  - inversion Hx' as [|k' x0 x1 x2 Hx1 Hcx1 Hst]; subst.
    assert (x = x1) as <- by (eapply rad_run_det; [exact Hx|apply start_sound|exact Hx1]).
    pose proof Hsh as (St & Su & _ & _ & Sc). pose proof Hshx as (St0 & Su0 & _).
    destruct (step_moved n J e p q a c Heig Ha F o Hlin Jac tf exact_jac Hsane x x' Hst HB) as [(M1 & M2 & M3)|(M1 & M2)].
    2:{ exfalso. destruct O1 as [O1|O1]; rewrite O1 in Sc; [now apply M1|now apply M2]. }
    assert (points s' = points s ++ [(i_t s', i_u s')]) as Ep by (unfold points; rewrite O2, O3; now apply DP5RK.combine_snoc).
    assert (nth_error (points s') 0 = Some (t0, b_u b)) as H0.
    { rewrite Ep. rewrite nth_error_app1; [exact G3|]. rewrite G2, app_length. cbn. lia. }
    assert (linked (points s')) as HL.
    { rewrite Ep, G2. rewrite G2 in G4. rewrite <- St, <- Su, <- St0, <- Su0 in *. apply linked_snoc; [exact G4| |exact M3].
      change (i_t s < i_t s'). lra. }
    split; [split; assumption|]. intros Hrc. split.
    + split; [rewrite O2, O3, !app_length, G1; reflexivity|]. split; [now exists (points s)|]. split; assumption.
    + exists x'. split; [exact Hx'|]. split; [exact Hsh|]. apply M1. now rewrite <- Sc.
  - split; [|intros E0; destruct O1 as [O1|[O1|O1]]; rewrite O1 in E0; discriminate E0].
    unfold points in *. rewrite O2, O3. split; assumption.
Qed.
Lemma continues_good fuel k : forall (s0 s : state), build alg b = Ok s0 -> continues alg None fuel k s0 s ->
  good s /\ exists x, rad_run n F Jac o tf k start x /\ rad_shows s x /\ btw n J tf x.
Proof.
  induction k as [|k IH]; intros s0 s Hb Hc.
  - inversion Hc; subst.
    destruct (radau_reference inf b How Hgj Hu0 Hr Hat Hsane seeing fuel 0 s s Hdt Ht Hb) as (x & Hx & Hsh); [constructor|].
    inversion Hx; subst. split.
    + apply radau_build_inv in Hb. destruct Hsh as (St & Su & _). unfold good, points.
      assert (ts (i_sol s) = [t0]) as Ets by (rewrite (rb_sol _ _ Hb); reflexivity).
      assert (us (i_sol s) = [b_u b]) as Eus by (rewrite (rb_sol _ _ Hb); reflexivity).
      rewrite St, Su, Ets, Eus. cbn [p_t p_u rad_start combine length].
      split; [reflexivity|]. split; [now exists []|]. split; [reflexivity|].
      intros [|j] t u t' u' H1 H2; [discriminate|destruct j; discriminate].
    + eexists. split; [constructor|]. split; [exact Hsh|exact start_btw].
  - destruct (continues_last _ _ _ _ _ _ Hc) as (s1 & r & Hc1 & Hs1).
    destruct (IH s0 s1 Hb Hc1) as (G & X).
    destruct (next_good fuel k s0 s1 s (Some r) Hb Hc1 Hs1 G X) as (_ & G').
    apply G'. exact (step_some_rc _ _ _ _ _ _ Hs1).
Qed.
Lemma reached_linked fuel k (s0 s : state) : build alg b = Ok s0 -> reached alg None fuel k s0 s ->
  nth_error (points s) 0 = Some (t0, b_u b) /\ linked (points s).
Proof.
  intros Hb Hre. inversion Hre as [|k' s' s1 s2 r Hc Hs]; subst.
  - destruct (continues_good fuel 0 s s Hb ltac:(constructor)) as ((_ & _ & G1 & G2) & _). now split.
  - destruct (continues_good fuel k' s0 s1 Hb Hc) as (G & X). exact (proj1 (next_good fuel k' s0 s1 s r Hb Hc Hs G X)).
Qed.
Lemma modes_stable fuel k (s0 s : state) : build alg b = Ok s0 -> reached alg None fuel k s0 s ->
  forall j t u, nth_error (points s) j = Some (t, u) -> mode n p q e u <= (1 + / 10 ^ 13) ^ j * mode n p q e (b_u b).
Proof.
  intros Hb Hre. destruct (reached_linked fuel k s0 s Hb Hre) as (H0 & HL).
  induction j as [|j IH]; intros t u Hj.
  - change (@eq (option (R * list R)) (nth_error (points s) 0) (Some (t, u))) in Hj. rewrite H0 in Hj. injection Hj as _ <-. cbn [pow]. lra.
  - destruct (nth_error (points s) j) as [(t1, u1)|] eqn:E1.
    2:{ apply nth_error_None in E1. assert (nth_error (points s) (S j) <> None) as Hx by congruence. apply nth_error_Some in Hx. lia. }
    specialize (IH t1 u1 eq_refl). destruct (HL _ _ _ _ _ E1 Hj) as (_ & D1 & _).
    eapply Rle_trans; [exact D1|]. cbn [pow]. rewrite Rmult_assoc. apply Rmult_le_compat_l; [|exact IH].
    assert (0 < / 10 ^ 13) by (apply Rinv_0_lt_compat, pow_lt; lra). lra.
Qed.
Lemma modes_damped fuel k (s0 s : state) : build alg b = Ok s0 -> reached alg None fuel k s0 s ->
  forall j t u t' u', nth_error (points s) j = Some (t, u) -> nth_error (points s) (S j) = Some (t', u') ->
  let D := (t' - t) * sqrt (a ^ 2 + c ^ 2) in 0 < D -> mode n p q e u' <= (6 / D + / 10 ^ 13) * mode n p q e u.
Proof.
  intros Hb Hre j t u t' u' H1 H2 D HD. destruct (reached_linked fuel k s0 s Hb Hre) as (_ & HL).
  destruct (HL _ _ _ _ _ H1 H2) as (_ & _ & D2). fold D in D2.
  apply Rmult_le_reg_l with D; [exact HD|]. eapply Rle_trans; [exact D2|]. right. field. lra.
Qed.
End Main.

(** A damped oscillator, [u0' = - u0 - 10 u1], [u1' = 10 u0 - u1]; no Jacobian is
    given. *)
Definition r_osc_rhs (inf : R) : rhs (RA inf) unit := fun _ u _ _ i =>
  match i with O => - comp u 0 - 10 * comp u 1 | S O => 10 * comp u 0 - comp u 1 | _ => 0 end.
Definition r_osc (inf : R) : builder (RA inf) unit :=
  builder_default Radau5 (r_osc_rhs inf) ([1; 0] : list R) (0, 1) tt.
Definition osc_J (i j : nat) : R := match i, j with O, O => -1 | O, S O => -10 | S O, O => 10 | S O, S O => -1 | _, _ => 0 end.
Definition osc_p (i : nat) : R := match i with O => 1 | _ => 0 end.
Definition osc_q (i : nat) : R := match i with S O => 1 | _ => 0 end.
Lemma osc_linear inf : linear_system 2 (ode (r_osc_rhs inf) tt) osc_J [0; 0].
Proof.
  intros t u i Hu Hi. rewrite ode_comp by (rewrite Hu; exact Hi). unfold rsum, r_osc_rhs.
  destruct i as [|[|i]]; [| |lia]; cbn; ring.
Qed.
Lemma osc_eigen : left_eigenvector 2 osc_J osc_p osc_q (-1) 10.
Proof. intros j Hj. unfold rsum. destruct j as [|[|j]]; [| |lia]; cbn; split; ring. Qed.
Lemma osc_reached inf : exists fuel k s0 s, build Radau5 (r_osc inf) = Ok s0 /\ reached Radau5 None fuel (S k) s0 s.
Proof.
  destruct (radau_build_ok (r_osc inf)) as (s0 & Hb).
  destruct (radau_integrate_returns (r_osc inf) None _ _ s0 no_callback_benign ltac:(discriminate) Hb (le_n _) (le_n _)) as (s & H & _).
  apply (integrate_split Radau5 None) in H as (k & s1 & _ & Hc & Hs).
  eexists _, k, s0, s. split; [exact Hb|]. econstructor; eassumption.
Qed.
