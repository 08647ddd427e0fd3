(** What a DormandPrince5 run does not depend on. *)
From Coq Require Import ZArith List Bool Lia.
From RecordUpdate Require Import RecordSet.
From Verif Require Import Arith Vec Core Driver VecFacts DP5 DP5Facts Spec DP5Inv.
Import ListNotations RecordSetNotations.

Section DP5Det.
Context {A : arith} {P : Type}.
Notation state := (integ A P (dp5_cache A)).
Notation alg := (@DormandPrince5 A P).

(** The options DormandPrince5 reads, except [max_stiff] and [dense]. *)
Record opts_agree (o o' : opts A) : Prop := {
  oa_reltol : o_reltol o' = o_reltol o;
  oa_abstol : o_abstol o' = o_abstol o;
  oa_dtmax : o_dtmax o' = o_dtmax o;
  oa_max_steps : o_max_steps o' = o_max_steps o;
  oa_safe : o_safe o' = o_safe o;
  oa_facr : o_facr o' = o_facr o;
  oa_facl : o_facl o' = o_facl o;
  oa_beta : o_beta o' = o_beta o;
  oa_stiff : o_max_stiff o' = 0 <-> o_max_stiff o = 0 }.

(** [c'] is [c] with other stiffness counters and dense-output vectors. *)
Definition cache_agree (c c' : dp5_cache A) : Prop :=
  exists ns nn dl r1 r2 r3 r4 r5,
    c' = c <| n_stiff := ns |> <| n_nonstiff := nn |> <| dtlamb := dl |>
           <| rcont1 := r1 |> <| rcont2 := r2 |> <| rcont3 := r3 |> <| rcont4 := r4 |>
           <| rcont5 := r5 |>.

Definition sim (s s' : state) : Prop :=
  exists o c jt ju, s' = s <| i_opts := o |> <| i_cache := c |> <| i_dfdt := jt |> <| i_dfdu := ju |> /\
    opts_agree (i_opts s) o /\ cache_agree (i_cache s) c /\
    dp5_shapes s = true /\ dp5_shapes s' = true.

Lemma sim_intro (s s' : state) :
  same_results s s' -> opts_agree (i_opts s) (i_opts s') -> cache_agree (i_cache s) (i_cache s') ->
  dp5_shapes s = true -> dp5_shapes s' = true -> sim s s'.
Proof.
  intros (?&?&?&?&?&?&?&?&?&?&?&?&?) Ho Hc Hs1 Hs2.
  exists (i_opts s'), (i_cache s'), (i_dfdt s'), (i_dfdu s').
  split; [|auto]. apply integ_ext; cbn; first [assumption|reflexivity].
Qed.

Lemma sim_results s s' : sim s s' -> same_results s s'.
Proof. intros (o & c & jt & ju & -> & _). repeat split. Qed.

Lemma sim_stages s s' : sim s s' ->
  exists s1 s1', compute_stages s = Ok s1 /\ compute_stages s' = Ok s1' /\ sim s1 s1'.
Proof.
  intros (o & c & jt & ju & E & Ho & Hc & Hs & Hs').
  destruct (compute_stages_ok s Hs) as (s1 & E1). destruct (compute_stages_ok s' Hs') as (s1' & E1').
  exists s1, s1'. split; [assumption|]. split; [assumption|].
  pose proof (compute_stages_shapes _ _ E1) as Sh. pose proof (compute_stages_shapes _ _ E1') as Sh'.
  rewrite compute_stages_eq, Hs in E1. rewrite compute_stages_eq, Hs' in E1'.
  assert (stage_vecs_of s' = stage_vecs_of s) as Ev.
  { destruct Hc as (ns & nn & dl & r1 & r2 & r3 & r4 & r5 & ->). subst s'. reflexivity. }
  rewrite Ev in E1'. set (v := stage_vecs_of s) in *. clearbody v.
  injection E1 as E1. injection E1' as E1'.
  exists o, (i_cache s1'), jt, ju.
  split; [|split; [|split; [|split]]]; try assumption.
  - rewrite <- E1', <- E1, E. state_eq.
  - rewrite <- E1. exact Ho.
  - destruct Hc as (ns & nn & dl & r1 & r2 & r3 & r4 & r5 & ->). rewrite <- E1', <- E1, E.
    exists ns, nn, dl, r1, r2, r3, r4, r5. cache_eq.
Qed.

Lemma sim_error s s' : sim s s' -> dp5_error s' = dp5_error s.
Proof.
  intros (o & c & jt & ju & -> & Ho & (ns & nn & dl & r1 & r2 & r3 & r4 & r5 & ->) & _).
  unfold dp5_error. cbn. now rewrite (oa_abstol _ _ Ho), (oa_reltol _ _ Ho).
Qed.

Lemma sim_fac err s s' : sim s s' -> dp5_fac err s' = dp5_fac err s /\
  dp5_fac1 s' = dp5_fac1 s /\ dp5_fac11 err s' = dp5_fac11 err s.
Proof.
  intros (o & c & jt & ju & -> & Ho & (ns & nn & dl & r1 & r2 & r3 & r4 & r5 & ->) & _).
  unfold dp5_fac, dp5_fac1, dp5_fac2, dp5_fac11, dp5_expo1. cbn.
  rewrite (oa_safe _ _ Ho), (oa_facr _ _ Ho), (oa_facl _ _ Ho), (oa_beta _ _ Ho). auto.
Qed.

Lemma sim_accepted err (s s' sa sa' : state) :
  sim s s' -> accepted err s sa -> accepted err s' sa' -> sim sa sa'.
Proof.
  intros Hsim I1 I2.
  destruct (sim_fac err _ _ Hsim) as (F & _).
  destruct Hsim as (o & c & jt & ju & E & Ho & Hc & Hs & Hs').
  pose proof (accepted_shapes _ _ _ Hs I1) as S1. pose proof (accepted_shapes _ _ _ Hs' I2) as S2.
  assert (dtnew_accept err s' = dtnew_accept err s) as ED.
  { unfold dtnew_accept. rewrite F. destruct Hc as (ns & nn & dl & r1 & r2 & r3 & r4 & r5 & ->).
    subst s'. cbn. now rewrite (oa_dtmax _ _ Ho). }
  destruct I1 as [(p1&p2&p3&p4&p5&p6&p7) Au Aup At Atp Adt Adtp Aso Ast Atr _ Arj Ala Afo Adu A2 A3 A4 A5 A6 Aun Adn Aue Aus _].
  destruct I2 as [(q1&q2&q3&q4&q5&q6&q7) Bu Bup Bt Btp Bdt Bdtp Bso Bst Btr _ Brj Bla Bfo Bdu B2 B3 B4 B5 B6 Bun Bdn Bue Bus _].
  exists o, (i_cache sa'), jt, ju.
  destruct Hc as (ns & nn & dl & r1 & r2 & r3 & r4 & r5 & ->).
  subst s'. cbn in q1, q2, q3, q4, q5, q6, q7, Bu, Bup, Bt, Btp, Bdtp, Bso, Bst, Btr, Bla, Bdu,
    B2, B3, B4, B5, B6, Bun, Bdn, Bue, Bus.
  split; [|split; [|split; [|split]]]; try assumption.
  - apply integ_ext; cbn.
    + now rewrite q1, p1.
    + assumption.
    + assumption.
    + now rewrite q4, p4.
    + now rewrite Bu, Au.
    + now rewrite Bt, At.
    + now rewrite Bdt, Adt.
    + now rewrite Bup, Aup.
    + now rewrite Btp, Atp.
    + now rewrite Bdtp, Adtp.
    + now rewrite q5, p5.
    + now rewrite q6, p6.
    + assumption.
    + now rewrite Bst, Ast.
    + now rewrite Bso, Aso.
    + reflexivity.
    + now rewrite Btr, Atr.
  - now rewrite p7.
  - exists (n_stiff (i_cache sa')), (n_nonstiff (i_cache sa')), (dtlamb (i_cache sa')),
      (rcont1 (i_cache sa')), (rcont2 (i_cache sa')), (rcont3 (i_cache sa')),
      (rcont4 (i_cache sa')), (rcont5 (i_cache sa')).
    apply cache_ext; cbn; try reflexivity.
    + now rewrite Brj, Arj.
    + now rewrite Bla, Ala.
    + now rewrite Bfo, Afo.
    + now rewrite B2, A2.
    + now rewrite B3, A3.
    + now rewrite B4, A4.
    + now rewrite B5, A5.
    + now rewrite B6, A6.
    + now rewrite Bun, Aun.
    + now rewrite Bdu, Adu.
    + now rewrite Bdn, Adn.
    + now rewrite Bue, Aue.
    + now rewrite Bus, Aus.
Qed.

Lemma sim_rejected err (s s' sa sa' : state) :
  sim s s' -> rejected err s sa -> rejected err s' sa' -> sim sa sa'.
Proof.
  intros Hsim R1 R2.
  destruct (sim_fac err _ _ Hsim) as (_ & F1 & F11).
  destruct Hsim as (o & c & jt & ju & E & Ho & Hc & Hs & Hs').
  assert (dtnew_reject err s' = dtnew_reject err s) as ED.
  { unfold dtnew_reject. rewrite F1, F11. subst s'. cbn. now rewrite (oa_safe _ _ Ho). }
  assert (forall (x y : state), dp5_shapes x = true -> rejected err x y -> dp5_shapes y = true) as Hsh.
  { intros x y Hx [_ (Pu&_&Pup&_) _ _ _ _ _ _ _ _ Pc]. unfold dp5_shapes. rewrite Pu, Pup, Pc.
    exact Hx. }
  pose proof (Hsh _ _ Hs R1) as S1. pose proof (Hsh _ _ Hs' R2) as S2. clear Hsh.
  destruct R1 as [(p1&p2&p3&p4&p5&p6&p7) (Au&At&Aup&Atp&Ats&Aus) Adt Adtp _ Arc Ast Atr _ _ Ac].
  destruct R2 as [(q1&q2&q3&q4&q5&q6&q7) (Bu&Bt&Bup&Btp&Bts&Bus) Bdt Bdtp _ Brc Bst Btr _ _ Bc].
  destruct Hc as (ns & nn & dl & r1 & r2 & r3 & r4 & r5 & ->).
  exists o, (i_cache sa'), jt, ju.
  subst s'. cbn in q1, q2, q3, q4, q5, q6, q7, Bu, Bup, Bt, Btp, Bdtp, Bts, Bus, Bst, Btr.
  split; [|split; [|split; [|split]]]; try assumption.
  - assert (i_sol sa' = i_sol sa) as Esol.
    { destruct (i_sol sa') as [x1 x2 x3], (i_sol sa) as [y1 y2 y3] eqn:Ey. cbn in *.
      rewrite Bts, Bus, Brc, Ats, Aus, Arc, Bdt, Adt, ED. reflexivity. }
    apply integ_ext; cbn.
    + now rewrite q1, p1.
    + assumption.
    + assumption.
    + now rewrite q4, p4.
    + now rewrite Bu, Au.
    + now rewrite Bt, At.
    + now rewrite Bdt, Adt.
    + now rewrite Bup, Aup.
    + now rewrite Btp, Atp.
    + now rewrite Bdtp, Adtp.
    + now rewrite q5, p5.
    + now rewrite q6, p6.
    + assumption.
    + now rewrite Bst, Ast.
    + exact Esol.
    + reflexivity.
    + now rewrite Btr, Atr.
  - now rewrite p7.
  - rewrite Bc, Ac. cbn. exists ns, nn, dl, r1, r2, r3, r4, r5. cache_eq.
Qed.

Lemma attempt_cases (s s1 : state) :
  compute_stages s = Ok s1 ->
  (leb A (dp5_error s1) n1 = true /\ o_max_stiff (i_opts s1) = 0 /\ dp5_attempt s = Panic) \/
  (leb A (dp5_error s1) n1 = true /\ o_max_stiff (i_opts s1) <> 0 /\
   exists s', dp5_attempt s = Ok (s', true) /\ accepted (dp5_error s1) s1 s') \/
  (leb A (dp5_error s1) n1 = false /\
   exists s', dp5_attempt s = Ok (s', false) /\ rejected (dp5_error s1) s1 s').
Proof.
  intros Hs. destruct (leb A (dp5_error s1) n1) eqn:Herr.
  - destruct (Nat.eq_dec (o_max_stiff (i_opts s1)) 0) as [Hz|Hz].
    + left. repeat split; try assumption. unfold dp5_attempt, prepare_next_step.
      rewrite Hs. cbn [bind]. rewrite Herr, dp5_accept_panic by assumption. reflexivity.
    + right; left. repeat split; try assumption.
      destruct (dp5_accept_ok (dp5_error s1) s1 Hz) as (s2 & d & A1).
      pose proof (dp5_accept_inv _ _ _ _ A1) as I1.
      eexists. split; [|exact I1].
      unfold dp5_attempt, prepare_next_step. rewrite Hs. cbn [bind]. rewrite Herr, A1. cbn [bind].
      rewrite (acc_reject _ _ _ I1). reflexivity.
  - right; right. split; [reflexivity|].
    assert (exists s' d, dp5_attempt s = Ok (s', d)) as (s' & d & E).
    { unfold dp5_attempt, prepare_next_step. rewrite Hs. cbn [bind]. rewrite Herr. clear Herr.
      destruct (dp5_reject _ s1) as [s2 d]. cbn [bind].
      destruct (negb _); [do 2 eexists; reflexivity|].
      destruct (leb A _ _); do 2 eexists; reflexivity. }
    destruct (dp5_attempt_inv _ _ _ E) as (s1' & Hs' & [(-> & H1 & _)|(-> & H1 & H2)]).
    + assert (s1' = s1) as -> by congruence. congruence.
    + assert (s1' = s1) as -> by congruence. exists s'. split; assumption.
Qed.

Lemma sim_attempt s s' : sim s s' ->
  same_outcome (fun a b => sim (fst a) (fst b) /\ snd a = snd b) (dp5_attempt s) (dp5_attempt s').
Proof.
  intros Hsim. destruct (sim_stages _ _ Hsim) as (s1 & s1' & E1 & E1' & H1).
  pose proof (attempt_cases _ _ E1) as C. pose proof (attempt_cases _ _ E1') as C'.
  rewrite (sim_error _ _ H1) in C'.
  assert (o_max_stiff (i_opts s1') = 0 <-> o_max_stiff (i_opts s1) = 0) as Hms.
  { destruct H1 as (o & c & jt & ju & -> & Ho & _). apply Ho. }
  destruct C as [(L & M & ->)|[(L & M & sa & -> & Ia)|(L & sa & -> & Ra)]];
  destruct C' as [(L' & M' & ->)|[(L' & M' & sa' & -> & Ia')|(L' & sa' & -> & Ra')]];
    try (exfalso; tauto); try congruence; cbn [same_outcome fst snd].
  - exact I.
  - split; [|reflexivity]. exact (sim_accepted _ _ _ _ _ H1 Ia Ia').
  - split; [|reflexivity]. exact (sim_rejected _ _ _ _ _ H1 Ra Ra').
Qed.

Lemma sim_loop : forall fuel s s', sim s s' ->
  same_outcome sim (dp5_loop fuel s) (dp5_loop fuel s').
Proof.
  induction fuel as [|fuel IH]; intros s s' Hsim; [exact I|]. cbn [dp5_loop].
  pose proof (sim_attempt _ _ Hsim) as H.
  destruct (dp5_attempt s) as [[s1 d]| |], (dp5_attempt s') as [[s1' d']| |]; try destruct H; cbn [bind]; try exact I.
  cbn [fst snd] in *. subst d'. destruct d; [assumption|auto].
Qed.

Lemma sim_opts s s' : sim s s' -> opts_agree (i_opts s) (i_opts s').
Proof. intros (o & c & jt & ju & -> & Ho & _). exact Ho. Qed.
Lemma sim_cache s s' : sim s s' -> cache_agree (i_cache s) (i_cache s').
Proof. intros (o & c & jt & ju & -> & _ & Hc & _). exact Hc. Qed.
Lemma sim_shapes s s' : sim s s' -> dp5_shapes s = true /\ dp5_shapes s' = true.
Proof. intros (o & c & jt & ju & _ & _ & _ & H). exact H. Qed.

Lemma cache_agree_last b c c' : cache_agree c c' -> cache_agree (c <| last := b |>) (c' <| last := b |>).
Proof.
  intros (ns & nn & dl & r1 & r2 & r3 & r4 & r5 & ->).
  exists ns, nn, dl, r1, r2, r3, r4, r5. cache_eq.
Qed.

Lemma sim_clip s s' : sim s s' -> sim (dp5_clip s) (dp5_clip s').
Proof.
  intros H. pose proof (sim_results _ _ H) as (E1&E2&E3&E4&E5&E6&E7&E8&E9&E10&E11&E12&E13).
  pose proof (dp5_clip_cases s) as Hc. pose proof (dp5_clip_cases s') as Hc'.
  rewrite E2, E3, E10, E11 in Hc'.
  destruct (sim_shapes _ _ H) as [Hs Hs'].
  destruct Hc as [[L ->]|[L ->]], Hc' as [[L' ->]|[L' ->]]; try congruence; try assumption.
  apply sim_intro.
  - unfold same_results. cbn. repeat split; assumption.
  - cbn. apply sim_opts, H.
  - cbn. apply cache_agree_last, sim_cache, H.
  - rewrite (same_shapes_point s); [exact Hs|reflexivity|reflexivity|exists true; reflexivity].
  - rewrite (same_shapes_point s'); [exact Hs'|reflexivity|reflexivity|exists true; reflexivity].
Qed.

Lemma cache_agree_flags c c' : cache_agree c c' -> last c' = last c /\ reject c' = reject c.
Proof. intros (ns & nn & dl & r1 & r2 & r3 & r4 & r5 & ->). auto. Qed.

Lemma finish_shapes (s : state) : dp5_shapes (dp5_finish s) = dp5_shapes s.
Proof.
  destruct (dp5_finish_frame s) as (_&Fu&_&_&Fup&_&_&Fc&_). unfold dp5_shapes.
  now rewrite Fu, Fup, Fc.
Qed.

Lemma sim_finish s s' : sim s s' -> sim (dp5_finish s) (dp5_finish s').
Proof.
  intros H. pose proof (sim_results _ _ H) as (E1&E2&E3&E4&E5&E6&E7&E8&E9&E10&E11&E12&E13).
  pose proof (sim_opts _ _ H) as Ho. destruct (sim_shapes _ _ H) as [Hs Hs'].
  destruct (cache_agree_flags _ _ (sim_cache _ _ H)) as [El _].
  pose proof (dp5_finish_frame s) as ((P1&_&_&P4&P5&P6&P7)&Fu&Ft&Fdt&Fup&Ftp&Fdtp&Fc&Ftr&Fst&Fts&Fus&Frc).
  pose proof (dp5_finish_frame s') as ((Q1&_&_&Q4&Q5&Q6&Q7)&Gu&Gt&Gdt&Gup&Gtp&Gdtp&Gc&Gtr&Gst&Gts&Gus&Grc).
  apply sim_intro.
  - assert (i_sol (dp5_finish s') = i_sol (dp5_finish s)) as Esol.
    { rewrite E7, E2 in Gts. rewrite E7, E1 in Gus. rewrite El, (oa_max_steps _ _ Ho), E8, E7 in Grc.
      destruct (i_sol (dp5_finish s')) as [x1 x2 x3], (i_sol (dp5_finish s)) as [y1 y2 y3].
      cbn [ts us rc] in *. congruence. }
    rewrite E8 in Gst. repeat split; congruence.
  - rewrite P7, Q7. exact Ho.
  - rewrite Fc, Gc. apply sim_cache, H.
  - now rewrite finish_shapes.
  - now rewrite finish_shapes.
Qed.

Lemma sim_step fuel (s s' : state) : sim s s' ->
  same_outcome (fun a b => sim (fst a) (fst b) /\ snd a = snd b)
    (step alg None fuel s) (step alg None fuel s').
Proof.
  intros H. unfold step. cbn [alg_step DormandPrince5]. unfold dp5_step.
  pose proof (sim_loop fuel _ _ (sim_clip _ _ H)) as Hl.
  destruct (dp5_loop fuel (dp5_clip s)) as [a| |], (dp5_loop fuel (dp5_clip s')) as [b| |];
    cbn [same_outcome] in Hl; try contradiction; cbn [bind]; try exact I.
  pose proof (sim_finish _ _ Hl) as Hf. cbn [run_callback same_outcome fst snd].
  split; [assumption|]. apply sim_results in Hf as (_&_&_&_&_&_&Es&Et&_).
  cbn [Cache DormandPrince5]. now rewrite Es, Et.
Qed.

Lemma sim_steps_n fuel : forall k (s s' : state), sim s s' ->
  same_outcome sim (steps_n alg None fuel k s) (steps_n alg None fuel k s').
Proof.
  induction k as [|k IH]; intros s s' H; [exact H|]. cbn [steps_n].
  pose proof (sim_step fuel _ _ H) as Hs.
  destruct (step alg None fuel s) as [[a r]| |], (step alg None fuel s') as [[b r']| |];
    try destruct Hs; cbn [bind]; try exact I. apply IH. assumption.
Qed.

Lemma sim_integrate fuel : forall k (s s' : state), sim s s' ->
  same_outcome sim (integrate alg None fuel k s) (integrate alg None fuel k s').
Proof.
  induction k as [|k IH]; intros s s' H; [exact I|]. cbn [integrate].
  pose proof (sim_step fuel _ _ H) as Hs.
  destruct (step alg None fuel s) as [[a r]| |], (step alg None fuel s') as [[b r']| |];
    cbn [same_outcome] in Hs; try contradiction; cbn [bind]; try exact I.
  cbn [snd fst] in *. destruct Hs as [Hs Hr]. subst r'. destruct r as [n|]; [apply IH; assumption|assumption].
Qed.

Lemma same_outcome_impl {X} (R R' : X -> X -> Prop) r r' :
  (forall x y, R x y -> R' x y) -> same_outcome R r r' -> same_outcome R' r r'.
Proof. destruct r, r'; simpl; auto. Qed.

Lemma sim_build (b b' : builder A P) (s s' : state) :
  b_dudt b' = b_dudt b -> b_params b' = b_params b -> b_u b' = b_u b -> b_t b' = b_t b ->
  b_dt b' = b_dt b -> b_tfinal b' = b_tfinal b -> opts_agree (b_opts b) (b_opts b') ->
  build alg b = Ok s -> build alg b' = Ok s' -> sim s s'.
Proof.
  intros E1 E2 E3 E4 E5 E6 Ho H H'.
  pose proof (proj2 (proj2 (proj2 (proj2 (proj2 (proj2 (proj2 (proj2 (proj2 (proj2 (proj2 (proj2 (proj2
    (proj2 (proj2 (proj2 (proj2 (proj2 (proj2 (proj2 (proj2 (dp5_build_inv _ _ H)))))))))))))))))))))) as Hs.
  pose proof (proj2 (proj2 (proj2 (proj2 (proj2 (proj2 (proj2 (proj2 (proj2 (proj2 (proj2 (proj2 (proj2
    (proj2 (proj2 (proj2 (proj2 (proj2 (proj2 (proj2 (proj2 (dp5_build_inv _ _ H')))))))))))))))))))))) as Hs'.
  unfold build in H, H'. cbn in H, H'. injection H as H. injection H' as H'.
  exists (b_opts b'), (i_cache s), (b_dfdt b'), (b_dfdu b').
  split; [|split; [|split; [|split]]]; try assumption.
  - rewrite <- H, <- H'. cbn. rewrite E1, E2, E3, E4, E5, E6. reflexivity.
  - rewrite <- H. exact Ho.
  - destruct (i_cache s) as [a1 a2 a3 a4 a5 a6 a7 a8 a9 a10 a11 b1 b2 b3 b4 b5 a12 a13 a14 a15 a16].
    exists a1, a2, a6, b1, b2, b3, b4, b5. reflexivity.
Qed.

(** Two problems that differ only in what DormandPrince5 ignores give the same
    runs. *)
Lemma dp5_ignored (b b' : builder A P) fuel k (s s' : state) :
  b_dudt b' = b_dudt b -> b_params b' = b_params b -> b_u b' = b_u b -> b_t b' = b_t b ->
  b_dt b' = b_dt b -> b_tfinal b' = b_tfinal b -> opts_agree (b_opts b) (b_opts b') ->
  build alg b = Ok s -> build alg b' = Ok s' ->
  same_outcome same_results (steps_n alg None fuel k s) (steps_n alg None fuel k s') /\
  same_outcome same_results (integrate alg None fuel k s) (integrate alg None fuel k s').
Proof.
  intros E1 E2 E3 E4 E5 E6 Ho H H'.
  pose proof (sim_build _ _ _ _ E1 E2 E3 E4 E5 E6 Ho H H') as Hsim.
  split; (eapply same_outcome_impl; [exact sim_results|]); [apply sim_steps_n|apply sim_integrate]; assumption.
Qed.

(** ** Rejected attempts and output buffers leave no trace *)
Lemma call_rhs_overwrites (f : rhs A P) d d' u t p :
  overwrites f -> length d = length d' -> call_rhs f d u t p = call_rhs f d' u t p.
Proof.
  intros Hf Hl. unfold call_rhs, tab. rewrite <- Hl. apply map_ext_in.
  intros i Hi. apply in_seq in Hi. apply Hf; [assumption|lia].
Qed.

Lemma compute_stages_det (s a s1 a1 : state) :
  compute_stages s = Ok s1 -> compute_stages a = Ok a1 ->
  overwrites (i_dudt s) -> i_dudt a = i_dudt s -> i_params a = i_params s ->
  i_u a = i_u s -> i_t a = i_t s -> i_dt a = i_dt s -> du (i_cache a) = du (i_cache s) ->
  unew (i_cache a1) = unew (i_cache s1) /\ dunew (i_cache a1) = dunew (i_cache s1) /\
  uerr (i_cache a1) = uerr (i_cache s1) /\ ustiff (i_cache a1) = ustiff (i_cache s1) /\
  k2 (i_cache a1) = k2 (i_cache s1) /\ k3 (i_cache a1) = k3 (i_cache s1) /\
  k4 (i_cache a1) = k4 (i_cache s1) /\ k5 (i_cache a1) = k5 (i_cache s1) /\
  k6 (i_cache a1) = k6 (i_cache s1).
Proof.
  unfold compute_stages, guard.
  destruct (dp5_shapes s) eqn:Hs; [|discriminate]. destruct (dp5_shapes a) eqn:Ha; [|discriminate].
  apply dp5_shapes_spec in Hs. apply dp5_shapes_spec in Ha.
  intros E1 E2 Hf Ef Ep Eu Et Edt Edu.
  assert (forall x y : vec A, length x = length (i_u a) -> length y = length (i_u s) ->
            forall u t, call_rhs (i_dudt s) x u t (i_params s) = call_rhs (i_dudt s) y u t (i_params s)) as Hc.
  { intros x y Hx Hy u t. apply call_rhs_overwrites; [assumption|congruence]. }
  repeat match goal with H : Forall _ (_ :: _) |- _ => inversion_clear H end.
  injection E1 as <-. injection E2 as <-. cbn.
  rewrite Ef, Ep, Eu, Et, Edt, Edu.
  rewrite !(Hc (k2 (i_cache a)) (k2 (i_cache s))) by assumption.
  rewrite !(Hc (k3 (i_cache a)) (k3 (i_cache s))) by assumption.
  rewrite !(Hc (k4 (i_cache a)) (k4 (i_cache s))) by assumption.
  rewrite !(Hc (k5 (i_cache a)) (k5 (i_cache s))) by assumption.
  rewrite !(Hc (k6 (i_cache a)) (k6 (i_cache s))) by assumption.
  rewrite !(Hc (dunew (i_cache a)) (dunew (i_cache s))) by assumption.
  repeat split.
Qed.

(** Two integrators at the same point, with whatever step guesses, controller
    memory, flags and scratch buffers: if their [step()] calls accept the same
    step size, they arrive at the same point. *)
Lemma dp5_step_det fuel fuel' (s a s' a' : state) r r' :
  overwrites (i_dudt s) -> i_dudt a = i_dudt s -> i_params a = i_params s ->
  i_u a = i_u s -> i_t a = i_t s -> du (i_cache a) = du (i_cache s) ->
  step alg None fuel s = Ok (s', r) -> step alg None fuel' a = Ok (a', r') ->
  i_dtprev a' = i_dtprev s' ->
  i_t a' = i_t s' /\ i_u a' = i_u s' /\ du (i_cache a') = du (i_cache s') /\
  i_tprev a' = i_tprev s' /\ i_uprev a' = i_uprev s'.
Proof.
  intros Hf Ef Ep Eu Et Edu Hs Ha Eh.
  assert (forall fuel (s s' : state) r, step alg None fuel s = Ok (s', r) ->
    exists s0 s1, compute_stages s0 = Ok s1 /\ i_dudt s0 = i_dudt s /\ i_params s0 = i_params s /\
      i_u s0 = i_u s /\ i_t s0 = i_t s /\ i_dt s0 = i_dtprev s' /\ du (i_cache s0) = du (i_cache s) /\
      i_u s' = unew (i_cache s1) /\ du (i_cache s') = dunew (i_cache s1)) as Hx.
  { clear. intros fuel s s' r H. unfold step in H. apply bind_ok in H as (s1 & H & E).
    cbn [run_callback] in E. assert (s1 = s') as -> by congruence. clear E.
    cbn [alg_step DormandPrince5] in H.
    apply dp5_step_inv in H as (k & sk & sa & _ & Hr & Ha & E).
    destruct (dp5_clip_frame s) as (Cp & Cpt & _ & _ & _ & _ & (bl & Cc)).
    pose proof (rejections_many _ _ _ Hr) as Hm.
    apply dp5_attempt_inv in Ha as (s1 & Hst & [(_ & _ & Hacc)|(D & _)]); [|discriminate].
    pose proof (same_problem_trans _ _ _ Cp (rm_problem _ _ _ Hm)) as (P1&_&_&P2&_).
    pose proof (same_point_trans _ _ _ Cpt (rm_point _ _ _ Hm)) as (Q1&Q2&_).
    exists sk, s1. split; [assumption|].
    pose proof (dp5_finish_frame sa) as (_&Fu&_&_&_&_&Fd&Fc&_). rewrite <- E in Fu, Fd, Fc.
    apply compute_stages_inv in Hst as (_&_&_&Hdt&_).
    repeat split; try assumption.
    - rewrite Fd, (acc_dtprev _ _ _ Hacc). symmetry; assumption.
    - rewrite (rm_du _ _ _ Hm), Cc. reflexivity.
    - rewrite Fu. apply (acc_u _ _ _ Hacc).
    - rewrite Fc. apply (acc_du _ _ _ Hacc). }
  pose proof (Hx _ _ _ _ Hs) as (s0 & s1 & Cs & B1 & B2 & B3 & B4 & B5 & B6 & B7 & B8).
  pose proof (Hx _ _ _ _ Ha) as (a0 & a1 & Ca & D1 & D2 & D3 & D4 & D5 & D6 & D7 & D8).
  clear Hx.
  assert (overwrites (i_dudt s0)) as Hf0 by (rewrite B1; exact Hf).
  destruct (compute_stages_det s0 a0 s1 a1 Cs Ca Hf0) as (G1 & G2 & _); try congruence.
  apply step_dp5_inv in Hs as (s2 & Es & E). cbn [run_callback] in E. subst s2.
  apply step_dp5_inv in Ha as (a2 & Ea & E). cbn [run_callback] in E. subst a2.
  destruct Es as [_ _ _ Stp Sup St _ _ _ _ _ _ _ _ _], Ea as [_ _ _ Atp Aup At _ _ _ _ _ _ _ _ _].
  repeat split; congruence.
Qed.
End DP5Det.
