(** Invariant subspaces of DormandPrince5 runs, in exact arithmetic. *)
From Coq Require Import ZArith List Bool Lia Reals Lra.
From Verif Require Import Arith Vec Core Driver VecFacts DP5 DP5Facts Spec SpecRK SpecODE RKFacts DP5Inv
  ArithR DP5R DP5RK DP5Num SpecLin SpecRadau SpecSub Subspace RadauSub.
Import ListNotations.
Local Open Scope R_scope.

Section Step.
Context {n : nat} {V : (nat -> R) -> Prop} (HV : subspace n V).
Variables (f : R -> list R -> list R) (v : list R).
Hypothesis f_sub : forall t u, length u = n -> in_coset V v u -> V (comp (f t u)).

Lemma wsum_sub ws ks : Forall (fun k => V (comp k)) ks -> V (fun i => wsum ws (map (fun k => comp k i) ks)).
Proof.
  intros H. revert ws. induction H as [|k ks Hk H IH]; intros [|x ws]; cbn [wsum map]; try apply (sub_zero _ _ HV).
  now apply (sub_comb _ _ HV).
Qed.
Lemma stages_sub u h ws ks : length u = n -> in_coset V v u -> Forall (fun k => V (comp k)) ks -> in_coset V v (combine_stages u h ws ks).
Proof.
  intros Lu Hu Hk.
  apply (sub_ext _ _ HV) with (x := fun i => h * wsum ws (map (fun k => comp k i) ks) + (comp u i - comp v i)).
  - intros i Hi. rewrite combine_stages_comp by lia. ring.
  - apply (sub_comb _ _ HV); [now apply wsum_sub|exact Hu].
Qed.
Lemma slopes_sub t u h rows : length u = n -> in_coset V v u -> forall ks,
  Forall (fun k => V (comp k)) ks -> Forall (fun k => V (comp k)) (slopes f t u h rows ks).
Proof.
  intros Lu Hu. induction rows as [|(c,a) rows IH]; intros ks Hk; cbn [slopes]; [assumption|].
  apply IH. apply Forall_app. split; [assumption|]. constructor; [|constructor].
  apply f_sub; [now rewrite combine_stages_length|now apply stages_sub].
Qed.
Lemma rk_step_sub rows bb t u h : length u = n -> in_coset V v u -> in_coset V v (rk_step rows bb f t u h).
Proof. intros Lu Hu. unfold rk_step. apply stages_sub; auto. now apply slopes_sub. Qed.
End Step.

Section DP5Sub.
Context {P : Type} (inf : R).
Notation RI := (RA inf).
Notation state := (integ RI P (dp5_cache RI)).
Notation alg := (@DormandPrince5 RI P).

Lemma dp5_subspace (b : builder RI P) V fuel k (s0 s : state) :
  let n := length (b_u b) in
  overwrites (b_dudt b) -> subspace n V ->
  (forall d u t, length d = n -> length u = n -> in_coset V (b_u b) u -> V (b_dudt b d u t (b_params b))) ->
  build alg b = Ok s0 -> steps_n alg None fuel k s0 = Ok s ->
  forall u, In u (us (i_sol s)) -> in_coset V (b_u b) u.
Proof.
  intros n Ho HV Hw Hb Hs. pose proof (dp5_rk inf b fuel k s0 s Ho Hb Hs) as Hi.
  destruct (points_head inf b fuel k s0 s Hb Hs) as (l & El).
  pose proof (rki_linked _ _ _ Hi) as Hl. rewrite El in Hl.
  assert (forall t u, length u = n -> in_coset V (b_u b) u -> V (comp (ode (b_dudt b) (b_params b) t u))) as F2.
  { intros t u Hu Hc. eapply (sub_ext _ _ HV); [|apply (Hw (zeros (length u)) u t); [rewrite zeros_length; exact Hu|exact Hu|exact Hc]].
    intros i Hin. rewrite ode_comp by (rewrite Hu; exact Hin). reflexivity. }
  assert (Forall (fun x : R * list R => length (snd x) = n /\ in_coset V (b_u b) (snd x)) (points s)) as Hf.
  { rewrite El. eapply linked_forall; [exact Hl|split; [reflexivity|]|].
    - apply (sub_ext _ _ HV) with (x := fun _ => 0); [intros; cbn [snd]; ring|apply (sub_zero _ _ HV)].
    - intros x y (h & _ & Ey) (Lx & Ex). rewrite Ey. split.
      + unfold rk_step. rewrite combine_stages_length. exact Lx.
      + now apply (rk_step_sub HV). }
  rewrite Forall_forall in Hf.
  intros u Hu.
  apply In_nth_error in Hu as (m & Hm).
  assert (exists t, In (t, u) (points s)) as (t & Ht).
  { assert (m < length (ts (i_sol s)))%nat as Hlt.
    { rewrite (rki_len _ _ _ Hi). apply nth_error_Some. congruence. }
    apply nth_error_Some in Hlt. destruct (nth_error (ts (i_sol s)) m) as [t|] eqn:Et; [|congruence].
    exists t. apply nth_error_In with (n := m). unfold points.
    clear -Hm Et. revert Hm Et. generalize (us (i_sol s)). generalize (ts (i_sol s)). revert m.
    induction m; intros [|x l] [|y l']; cbn; intros; try discriminate; [congruence|auto]. }
  apply (Hf (t, u)). exact Ht.
Qed.

Lemma dp5_equilibrium (b : builder RI P) fuel k (s0 s : state) :
  let n := length (b_u b) in
  overwrites (b_dudt b) ->
  (forall d t i, length d = n -> (i < n)%nat -> b_dudt b d (b_u b) t (b_params b) i = 0) ->
  build alg b = Ok s0 -> steps_n alg None fuel k s0 = Ok s ->
  forall u, In u (us (i_sol s)) -> u = b_u b.
Proof.
  intros n Ho Hf Hb Hs u Hin.
  assert (length u = n) as Lu.
  { destruct (dp5_recorded_wf b None fuel k s0 s no_callback_benign Hb Hs) as (_ & _ & _ & _ & Hd).
    exact (proj1 (Forall_forall _ _) Hd u Hin). }
  assert (forall w : list R, length w = n -> in_coset (held n (fun _ => True)) (b_u b) w -> w = b_u b) as Hext.
  { intros w Lw Hw. apply nth_ext with (d := 0) (d' := 0); [exact Lw|]. intros i Hi.
    assert (i < n)%nat as Hi' by (rewrite <- Lw; exact Hi).
    specialize (Hw i Hi' I). unfold comp in Hw. lra. }
  apply Hext; [exact Lu|].
  refine (dp5_subspace b _ fuel k s0 s Ho (held_subspace n _) _ Hb Hs u Hin).
  intros d w t Ld Lw Hw i Hi _. rewrite (Hext w Lw Hw). now apply Hf.
Qed.
End DP5Sub.
