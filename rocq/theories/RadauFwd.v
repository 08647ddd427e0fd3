(** The step sizes behind the iteration matrices of forward runs are positive. *)
From Coq Require Import ZArith List Bool Lia Reals Lra Sorted.
From RecordUpdate Require Import RecordSet.
From Verif Require Import Arith Vec Core Spec Jacobian Linalg Driver VecFacts DP5Facts DP5Inv
  Radau RadauFacts RadauStep RadauSafe RadauInv RadauHist RadauKeep RadauJac ArithR SpecRK RKFacts SpecLin
  SpecRadau RadauR RadauRForms SpecStage StageConst RadauTail RadauSolve RadauStage RadauLin.
Import ListNotations RecordSetNotations.
Local Open Scope R_scope.

Section Fwd.
Context {P : Type} (inf : R).
Notation RI := (RA inf).
Notation state := (integ RI P (radau_cache RI)).
Notation alg := (@Radau5 RI P).

Lemma sorted_last (l : list R) a c : StronglySorted Rlt ((l ++ [a]) ++ [c]) -> a < c.
Proof.
  induction l as [|x l IH]; cbn; intros H; apply StronglySorted_inv in H as (H1 & H2).
  - inversion H2; assumption.
  - now apply IH.
Qed.

Context (b : builder RI P) (fuel : nat) (s0 : state).
Hypothesis (Hso : radau_sane (b_opts b)) (Hdt : 0 < b_dt b) (Ht : b_t b < b_tfinal b) (Hu : b_u b <> []) (Hb : build alg b = Ok s0).

Lemma fwd_dtprev k (s s' : state) r : continues alg None fuel k s0 s -> step alg None fuel s = Ok (s', r) ->
  ts (i_sol s') <> ts (i_sol s) -> 0 < i_dtprev s'.
Proof.
  intros Hc Hs Hne.
  destruct (run_stored b fuel s0 Hu Hb k s Hc) as ((l & q & E1 & _) & Hss & _ & h0 & J0 & Hd).
  assert (armed (length (b_u b)) h0 J0 s) as Ha by (split; [exact Hss|]; destruct Hd as [Hd|(Hd & _)]; auto).
  destruct (call_recorded b fuel k s0 s s' r h0 J0 Hu Hb Hc Ha Hs) as [(Hq & _)|(_ & Ee)].
  { exfalso. destruct (q_point _ _ Hq) as (_ & _ & _ & _ & E & _). contradiction. }
  assert (reached alg None fuel (S k) s0 s') as Hr by (econstructor; eassumption).
  destruct (fwd_times inf b Hso Hdt Ht fuel (S k) s0 s' Hb Hr) as (Hst & _).
  pose proof (rse_ts _ _ Ee) as E2. cbn [Cache Radau5] in *. rewrite E2, E1 in Hst. apply sorted_last in Hst.
  pose proof (rse_t _ _ Ee) as E3. rewrite E3 in Hst. cbn [add RA] in Hst. lra.
Qed.

Lemma fwd_matrix k (s : state) h : matrix_step fuel s0 k s h -> rc (i_sol s) = RContinue -> 0 < h.
Proof.
  induction 1 as [k x x' r Hc Hs Hd|k x x' r h Hc Hm IH Hs Hd]; intros Hrc.
  - apply (fwd_dtprev k x x' r Hc Hs). intros E.
    destruct (run_stored b fuel s0 Hu Hb k x Hc) as (_ & Hss & _ & h0 & J0 & Hst).
    assert (armed (length (b_u b)) h0 J0 x) as Ha by (split; [exact Hss|]; destruct Hst as [Hst|(Hst & _)]; auto).
    destruct (call_recorded b fuel k s0 x x' r h0 J0 Hu Hb Hc Ha Hs) as [(_ & Hx)|(_ & Ee)]; [contradiction|].
    pose proof (rse_ts _ _ Ee) as E2. cbn [Cache Radau5] in *. rewrite E in E2.
    symmetry in E2. apply (f_equal (@length _)) in E2. rewrite app_length in E2. cbn in E2. lia.
  - apply IH. apply (radau_continues_ready b None fuel k s0 x no_callback_benign Hb Hc).
Qed.

Lemma fwd_recorded_matrix k (s s' : state) r h : continues alg None fuel k s0 s -> step alg None fuel s = Ok (s', r) ->
  ts (i_sol s') <> ts (i_sol s) -> matrix_step fuel s0 (S k) s' h -> 0 < h.
Proof.
  intros Hc Hs Hne Hm. inversion Hm as [k0 x x' r' Hc' Hs' Hd'|k0 x x' r' h' Hc' Hm' Hs' Hd']; subst.
  - exact (fwd_dtprev k s s' r Hc Hs Hne).
  - apply (fwd_matrix k x h Hm'). apply (radau_continues_ready b None fuel k s0 x no_callback_benign Hb Hc').
Qed.
End Fwd.
