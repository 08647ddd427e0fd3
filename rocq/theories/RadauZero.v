(** Radau5 [step()] calls of length zero: empty spans and finished integrators.
    In exact arithmetic and, for empty spans, in binary64. *)
From Coq Require Import ZArith List Bool Lia Reals Lra Sorted.
From RecordUpdate Require Import RecordSet.
From Flocq Require Import Core BinarySingleNaN.
From Verif Require Import Arith Vec Core Spec Jacobian Linalg Driver VecFacts DP5Facts DP5Inv LinFacts LinFactsC
  Radau RadauFacts RadauStep RadauInv RadauHist RadauKeep RadauTerm RadauMore ArithR ArithF FFacts FMono SpecODE SpecRadau
  DP5Time JacFacts RadauR RadauTime RadauRForms RadauEx.
Import ListNotations RecordSetNotations.
Local Open Scope R_scope.

(** How a call whose trial step has length zero ends: the history is left alone. *)
Record stuck {A P} (fuel : nat) (s s' : integ A P (radau_cache A)) : Prop := mkStuck {
  sk_t : i_t s' = i_t s;
  sk_u : i_u s' = i_u s;
  sk_ts : ts (i_sol s') = ts (i_sol s);
  sk_us : us (i_sol s') = us (i_sol s);
  sk_rc : rc (i_sol s') = RDtLessThanMin \/
    (rc (i_sol s') = RMaxIters /\ (o_max_steps (i_opts s) <= S (steps (i_stats s)))%nat) \/
    ((0 < step_failures fuel s)%nat /\
     (rc (i_sol s') = RSingularMatrix \/ (rc (i_sol s') = rc (i_sol s) /\ rc (i_sol s) <> RContinue))) }.

Section ZeroR.
Context {P : Type} (inf : R).
Notation RI := (RA inf).
Notation state := (integ RI P (radau_cache RI)).
Notation alg := (@Radau5 RI P).

(** At the end of a forward span any positive step size is cut to zero. *)
Lemma zero_step_R fuel (s s' : state) r : i_tdir s = 1 -> i_t s = i_tfinal s -> 0 <= i_dt s ->
  step alg None fuel s = Ok (s', r) -> stuck fuel s s'.
Proof.
  intros Hd Ht Hdt H.
  assert (i_dt (radau_clip s) = 0) as Hz.
  { destruct (radau_clip_cases inf s) as [(_ & -> & _)|(C & _)]; rnorm; [rewrite Ht; lra|].
    rewrite Hd, Ht in C. rnorm. lra. }
  apply radau_zero_step in H as ((H1 & H2 & H3 & H4) & H5).
  - constructor; assumption.
  - rewrite Hz. rnorm. lra.
  - rewrite Hz. rnorm. apply Rleb_true. rewrite Rabs_R0, Rmult_0_r.
    apply Rmult_le_pos; [apply Rabs_pos|]. left. apply (reps_pos).
Qed.

Lemma finished_step (b : builder RI P) fuel fuel2 k (s0 s s' : state) r :
  radau_sane (b_opts b) -> 0 < b_dt b -> b_t b < b_tfinal b ->
  build alg b = Ok s0 -> reached alg None fuel k s0 s -> rc (i_sol s) = RSuccess ->
  step alg None fuel2 s = Ok (s', r) -> stuck fuel2 s s'.
Proof.
  intros Ho Hdt Ht Hb Hr Hrc H.
  assert (starts_well inf b) as Hw by (left; auto).
  destruct (radau_runs inf b fuel k s0 s Ho Hw Hb Hr) as (Hf & l & Hrun).
  assert (i_tdir s0 = 1) as Hd0 by (rewrite (fr_dir _ _ _ Hf); destruct (Rlt_dec _ _); [lra|reflexivity]).
  assert (dtopt (i_cache s0) = b_dt b) as Hdo.
  { apply radau_build_inv in Hb. apply (rb_flags _ _ Hb). }
  destruct (rr_prob _ _ _ _ Hrun) as (_ & _ & _ & _ & E1 & E2 & E3).
  destruct (rr_dtopt _ _ _ _ Hrun Hd0) as (_ & Hp); [rewrite Hdo; exact Hdt|].
  eapply zero_step_R; [rewrite E1; exact Hd0| |left; apply Hp; exact Hrc|exact H].
  rewrite E2. now apply (rr_success _ _ _ _ Hrun).
Qed.

Lemma empty_step_R (b : builder RI P) fuel (s0 s : state) r :
  0 <= b_dt b -> b_t b = b_tfinal b -> build alg b = Ok s0 ->
  step alg None fuel s0 = Ok (s, r) -> stuck fuel s0 s.
Proof.
  intros Hdt Ht Hb H. apply radau_build_inv in Hb.
  eapply zero_step_R; [| | |exact H].
  - rewrite (dir_of inf b s0 Hb). destruct (Rlt_dec _ _); [lra|reflexivity].
  - destruct (rb_prob _ _ Hb) as (_ & _ & _ & _ & _ & -> & _). rewrite (rb_t _ _ Hb). exact Ht.
  - rewrite (rb_dt _ _ Hb). exact Hdt.
Qed.
End ZeroR.

(** ** Empty spans in binary64 *)
Section ZeroF.
Context {P : Type} {powf : f64 -> f64 -> f64} {powi : f64 -> Z -> f64}.
Notation FI := (F64 powf powi).
Notation state := (integ FI P (radau_cache FI)).
Notation alg := (@Radau5 FI P).

Lemma lit_10001 : is_finite (f_lit 10001 10000) = true /\ 0 < B2R (f_lit 10001 10000).
Proof.
  split; [vm_compute; reflexivity|]. apply fpositive_R; vm_compute; reflexivity.
Qed.
Lemma eps_pos : is_finite (eps FI) = true /\ 0 < B2R (eps FI).
Proof. split; [vm_compute; reflexivity|]. apply fpositive_R; vm_compute; reflexivity. Qed.

Lemma zero_step_F fuel (s s' : state) r : i_tdir s = f_of_Z 1 -> i_t s = i_tfinal s -> is_finite (i_t s) = true ->
  is_finite (i_dt s) = true -> fleb fzero (i_dt s) = true ->
  step alg None fuel s = Ok (s', r) -> stuck fuel s s'.
Proof.
  intros Hd Ht Hf Hfd Hdt H.
  assert (i_dt (radau_clip s) = fzero) as Hz.
  { unfold radau_clip. rewrite Hd, <- Ht. cbn [mul add sub leb FI F64 lit].
    rewrite fmul_1_r by assumption.
    assert (fleb fzero (fsub (fadd (i_t s) (fmul (i_dt s) (f_lit 10001 10000))) (i_t s)) = true) as E.
    { apply fsub_ge0; [assumption|]. apply fadd_le; [assumption|].
      destruct lit_10001 as (L1 & L2). apply fmul_ge0_r; assumption. }
    change (@n0 FI) with fzero.
    rewrite E. cbn. now apply fsub_self. }
  apply radau_zero_step in H as ((H1 & H2 & H3 & H4) & H5).
  - constructor; assumption.
  - rewrite Hz. cbn [mul FI F64 lit]. apply f_eq; vm_compute; reflexivity.
  - rewrite Hz. cbn [mul FI F64 lit leb nabs].
    replace (fmul (f_lit 1 10) (fabs fzero)) with fzero by (apply f_eq; vm_compute; reflexivity).
    destruct eps_pos as (E1 & E2). apply fmul_ge0_r; try assumption; [now rewrite <- Hf; apply is_finite_Babs|].
    now apply fabs_ge0.
Qed.

Lemma empty_step_F (b : builder FI P) fuel (s0 s : state) r :
  is_finite (b_t b) = true -> b_tfinal b = b_t b -> is_finite (b_dt b) = true -> fleb fzero (b_dt b) = true ->
  build alg b = Ok s0 -> step alg None fuel s0 = Ok (s, r) -> stuck fuel s0 s.
Proof.
  intros Hf Ht Hfd Hdt Hb H. apply radau_build_inv in Hb.
  destruct (rb_prob _ _ Hb) as (_ & _ & _ & _ & Ed & Et & _).
  eapply zero_step_F; [| | | | |exact H].
  - rewrite Ed, Ht. cbn [copysign sub FI F64]. rewrite fsub_self by assumption. apply f_eq; vm_compute; reflexivity.
  - rewrite Et, (rb_t _ _ Hb). congruence.
  - now rewrite (rb_t _ _ Hb).
  - now rewrite (rb_dt _ _ Hb).
  - now rewrite (rb_dt _ _ Hb).
Qed.
End ZeroF.

(** ** What [integrate] makes of it *)
Lemma empty_integrate {A P} (b : builder A P) fuel :
  b_u b <> [] -> (o_max_steps (b_opts b) + o_max_newt_iter (b_opts b) + 5 <= fuel)%nat ->
  (forall s0 s r, build (@Radau5 A P) b = Ok s0 -> step (@Radau5 A P) None fuel s0 = Ok (s, r) -> stuck fuel s0 s) ->
  exists s0 s, build (@Radau5 A P) b = Ok s0 /\ integrate (@Radau5 A P) None fuel 1 s0 = Ok s /\
    rc (i_sol s) <> RSuccess /\ points s = [(b_t b, b_u b)] /\
    (rc (i_sol s) = RDtLessThanMin \/ rc (i_sol s) = RSingularMatrix \/
     (rc (i_sol s) = RMaxIters /\ (o_max_steps (b_opts b) <= 1)%nat)).
Proof.
  intros Hu Hf Hs. destruct (radau_build_ok b) as (s0 & Hb). exists s0.
  destruct (radau_step_returns b None fuel 0 s0 s0 no_callback_benign Hu Hb eq_refl Hf) as (s & r & H & _).
  pose proof (Hs s0 s r Hb H) as [K1 K2 K3 K4 K5]. exists s. split; [exact Hb|].
  apply radau_build_inv in Hb as Hbi. pose proof (rb_sol _ _ Hbi) as Es. rewrite Es in K3, K4, K5. cbn in K3, K4, K5.
  destruct (rb_prob _ _ Hbi) as (_ & _ & _ & _ & _ & _ & Eo). rewrite Eo, (rb_stats _ _ Hbi) in K5. cbn in K5.
  destruct (radau_opts_limits (b_opts b)) as (E1 & _). rewrite E1 in K5.
  assert (rc (i_sol s) = RDtLessThanMin \/ rc (i_sol s) = RSingularMatrix \/
     (rc (i_sol s) = RMaxIters /\ (o_max_steps (b_opts b) <= 1)%nat)) as Hrc by tauto.
  assert (r = None) as Er.
  { unfold step in H. apply bind_ok in H as (x & _ & H). injection H as H1 H2. rewrite <- H2. cbn [run_callback] in *.
    rewrite H1. transitivity (if retcode_eqb (rc (i_sol s)) RContinue then Some (steps (i_stats s)) else None); [reflexivity|].
    destruct Hrc as [->|[->|(-> & _)]]; reflexivity. }
  split; [|split; [|split; [|exact Hrc]]].
  - cbn [integrate]. cbn [Cache Radau5] in *. rewrite H. cbn [bind]. now rewrite Er.
  - destruct Hrc as [->|[->|(-> & _)]]; discriminate.
  - etransitivity; [exact (f_equal2 (@combine _ _) K3 K4)|reflexivity].
Qed.

Lemma finished_radau {P inf} (b : builder (RA inf) P) fuel fuel2 k (s0 s : integ (RA inf) P (radau_cache (RA inf))) :
  radau_sane (b_opts b) -> 0 < b_dt b -> b_t b < b_tfinal b -> b_u b <> [] ->
  (o_max_steps (b_opts b) + o_max_newt_iter (b_opts b) + 5 <= fuel2)%nat -> (fuel <= fuel2)%nat ->
  build (@Radau5 (RA inf) P) b = Ok s0 -> reached (@Radau5 (RA inf) P) None fuel k s0 s -> rc (i_sol s) = RSuccess ->
  exists s' r, step (@Radau5 (RA inf) P) None fuel2 s = Ok (s', r) /\
    points s' = points s /\ i_t s' = i_t s /\ i_u s' = i_u s /\
    (rc (i_sol s') = RDtLessThanMin \/
     (rc (i_sol s') = RMaxIters /\ (o_max_steps (b_opts b) <= S (steps (i_stats s)))%nat) \/
     (0 < step_failures fuel2 s)%nat).
Proof.
  intros Ho Hdt Ht Hu Hf Hff Hb Hr Hrc.
  assert (steps_n (@Radau5 (RA inf) P) None fuel2 k s0 = Ok s) as Hn.
  { apply reached_steps_n in Hr. revert Hr. generalize s0. clear -Hff. induction k as [|k IH]; intros x H; [exact H|].
    cbn [steps_n] in *. apply bind_ok in H as ([y r] & H & H1).
    destruct (radau_step_mono None fuel fuel2 x Hff) as [E|E]; cbn [Cache Radau5] in *; [congruence|].
    rewrite <- E, H. cbn [bind]. now apply IH. }
  destruct (radau_step_returns b None fuel2 k s0 s no_callback_benign Hu Hb Hn Hf) as (s' & r & H & _).
  exists s', r. split; [exact H|].
  pose proof (finished_step inf b fuel fuel2 k s0 s s' r Ho Hdt Ht Hb Hr Hrc H) as [K1 K2 K3 K4 K5].
  split; [exact (f_equal2 (@combine _ _) K3 K4)|]. split; [exact K1|]. split; [exact K2|].
  assert (o_max_steps (i_opts s) = o_max_steps (b_opts b)) as Eo.
  { apply reached_steps_n in Hr.
    destruct (radau_frame_form b fuel k s0 s Hb Hr) as (_&_&_&_&_&E&_).
    transitivity (o_max_steps (i_opts s0)); [exact (f_equal _ E)|].
    apply radau_build_inv in Hb. destruct (rb_prob _ _ Hb) as (_ & _ & _ & _ & _ & _ & Eo).
    transitivity (o_max_steps (radau_opts (b_opts b))); [exact (f_equal _ Eo)|]. apply radau_opts_limits. }
  cbn [Cache Radau5] in *. rewrite Eo in K5. destruct K5 as [K5|[K5|(K5 & _)]]; auto.
Qed.
