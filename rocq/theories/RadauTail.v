(** The entries of the collocation polynomial behind the first [n] survive
    everything but acceptance.  Every arithmetic. *)
From Coq Require Import ZArith List Bool Lia.
From RecordUpdate Require Import RecordSet.
From Verif Require Import Arith Vec Core Spec Jacobian Linalg Driver VecFacts DP5Facts DP5Inv LinFacts LinFactsC
  Radau RadauFacts RadauStep RadauSafe RadauInv RadauHist RadauKeep RadauJac RadauDense.
Import ListNotations RecordSetNotations.

(** [sol] only looks at the first [n] entries of its right-hand side. *)
Section Prefix.
Context {A : arith}.
Definition grows {X} (w : list X) (r r' : res (list X)) : Prop := forall c, r = Ok c -> r' = Ok (c ++ w).

Lemma vget_app {X} (b w : list X) i x : vget b i = Ok x -> vget (b ++ w) i = Ok x.
Proof.
  unfold vget. destruct (nth_error b i) eqn:E; [|discriminate].
  rewrite nth_error_app1 by (apply nth_error_Some; congruence). now rewrite E.
Qed.
Lemma upd_app {X} (b w : list X) i x : i < length b -> upd (b ++ w) i x = upd b i x ++ w.
Proof. revert i. induction b as [|y b IH]; intros [|i] H; cbn in *; try lia; [reflexivity|]. rewrite IH by lia. reflexivity. Qed.
Lemma vset_app {X} (b w c : list X) i x : vset b i x = Ok c -> vset (b ++ w) i x = Ok (c ++ w).
Proof.
  unfold vset. destruct (Nat.ltb_spec i (length b)); [|discriminate]. intros E. inversion E; subst.
  rewrite app_length. destruct (Nat.ltb_spec i (length b + length w)); [|lia]. rewrite upd_app by assumption. reflexivity.
Qed.
Lemma for_range_app (w : vec A) lo hi (body : nat -> vec A -> res (vec A)) (b c : vec A) :
  (forall i x y, body i x = Ok y -> body i (x ++ w : vec A) = Ok (y ++ w : vec A)) ->
  for_range lo hi body b = Ok c -> for_range lo hi body (b ++ w : vec A) = Ok (c ++ w : vec A).
Proof.
  intros Hb. unfold for_range. generalize (seq lo (hi - lo)). intros l. revert b.
  induction l as [|i l IH]; intros b H; cbn [for_list] in *; [congruence|].
  apply bind_ok in H as (x & H1 & H). rewrite (Hb _ _ _ H1). cbn [bind]. now apply IH.
Qed.
Lemma axpy_app a k lo hi t (b c w : vec A) : axpy_vec a k lo hi t b = Ok c -> axpy_vec a k lo hi t (b ++ w) = Ok (c ++ w).
Proof.
  unfold axpy_vec. apply for_range_app. intros i x y H. apply bind_ok in H as (x1 & H1 & H).
  apply bind_ok in H as (x2 & H2 & H). rewrite (vget_app _ _ _ _ H1). cbn [bind]. rewrite H2. cbn [bind].
  now apply vset_app.
Qed.
Lemma sol_app n a (b c w : vec A) ip : sol n a b ip = Ok c -> sol n a (b ++ w) ip = Ok (c ++ w).
Proof.
  unfold sol. intros H. apply bind_ok in H as (b1 & H1 & H).
  match goal with |- bind ?X _ = _ => assert (X = Ok (b1 ++ w)) as E0 end.
  { destruct (negb _); [|inversion H1; reflexivity]. apply bind_ok in H1 as (nm1 & E & H1). rewrite E. cbn [bind].
    apply bind_ok in H1 as (b2 & E2 & H1).
    rewrite (for_range_app w 0 nm1 (fwd_step a ip n) b b2).
    - cbn [bind]. revert H1. apply for_range_app. intros i x y G. unfold bwd_step in *.
      apply bind_ok in G as (nk & G1 & G). rewrite G1. cbn [bind].
      apply bind_ok in G as (km & G2 & G). rewrite G2. cbn [bind].
      apply bind_ok in G as (x1 & G3 & G). rewrite (vget_app _ _ _ _ G3). cbn [bind].
      apply bind_ok in G as (d & G4 & G). rewrite G4. cbn [bind].
      apply bind_ok in G as (x2 & G5 & G). rewrite (vset_app _ _ _ _ _ G5). cbn [bind].
      apply bind_ok in G as (x3 & G6 & G). rewrite (vget_app _ _ _ _ G6). cbn [bind].
      now apply axpy_app.
    - intros i x y G. unfold fwd_step in *.
      apply bind_ok in G as (z & G1 & G). rewrite G1. cbn [bind].
      apply bind_ok in G as (m & G2 & G). rewrite G2. cbn [bind].
      apply bind_ok in G as (x1 & G3 & G). rewrite (vget_app _ _ _ _ G3). cbn [bind].
      apply bind_ok in G as (x2 & G4 & G). rewrite (vget_app _ _ _ _ G4). cbn [bind].
      apply bind_ok in G as (x3 & G5 & G). rewrite (vset_app _ _ _ _ _ G5). cbn [bind].
      apply bind_ok in G as (x4 & G6 & G). rewrite (vset_app _ _ _ _ _ G6). cbn [bind].
      now apply axpy_app.
    - exact E2. }
  rewrite E0. cbn [bind]. unfold final_div in *.
  apply bind_ok in H as (x1 & G3 & H). rewrite (vget_app _ _ _ _ G3). cbn [bind].
  apply bind_ok in H as (d & G4 & H). rewrite G4. cbn [bind]. now apply vset_app.
Qed.
End Prefix.

Section Tail.
Context {A : arith} {P : Type}.
Notation state := (integ A P (radau_cache A)).

Definition tk (n : nat) (s s' : state) : Prop := skipn n (cont (i_cache s')) = skipn n (cont (i_cache s)).
Lemma tk_trans n a b c : tk n a b -> tk n b c -> tk n a c.
Proof. unfold tk. congruence. Qed.

Lemma set_head_tail n (g : nat -> num A) v : skipn n (set_head n g v) = skipn n v.
Proof.
  unfold set_head. rewrite skipn_app, tab_length, Nat.sub_diag, skipn_all2 by (rewrite tab_length; lia). reflexivity.
Qed.
Lemma sol_tail n a (b c : vec A) ip : 0 < n -> shaped n n a -> n <= length b -> length ip = n -> pivots_ok n ip ->
  sol n a b ip = Ok c -> skipn n c = skipn n b.
Proof.
  intros Hn Ha Hb Hl Hp H. rewrite <- (firstn_skipn n b) in H.
  destruct (LinFacts.sol_ok n a (firstn n b) ip) as (x & E & L); auto.
  { rewrite firstn_length. lia. }
  rewrite (sol_app _ _ _ _ _ _ E) in H. inversion H; subst c.
  rewrite firstn_length, Nat.min_l in L by lia.
  rewrite skipn_app, L, Nat.sub_diag, skipn_all2 by lia. reflexivity.
Qed.

Lemma refresh_tk n (s s' : state) : refresh_jac s = Ok s' -> tk n s s'.
Proof. intros H. apply refresh_jac_inv in H as (df & l & -> & _). reflexivity. Qed.
Lemma decomp_failed_tk n (s s' : state) ok : decomp_failed s = Ok (s', ok) -> tk n s s'.
Proof.
  unfold decomp_failed. intros H.
  match type of H with (if ?c then _ else _) = _ => destruct c end.
  - inversion H; subst. reflexivity.
  - apply bind_ok in H as (s1 & H & E). inversion E; subst s1 ok; clear E.
    match type of H with (if ?c then refresh_jac ?x else _) = _ =>
      assert (tk n s x) as Hs by reflexivity; destruct c end.
    + eapply tk_trans; [exact Hs|]. now apply refresh_tk.
    + inversion H; subst. exact Hs.
Qed.
Lemma perform_tk n (s s' : state) ok : perform_decompositions s = Ok (s', ok) -> tk n s s'.
Proof.
  unfold perform_decompositions, guard. destruct (radau_shapes s); [|discriminate].
  intros H. apply bind_ok in H as ([s1 ier] & H1 & H).
  unfold decomp_real in H1. apply bind_ok in H1 as ([[k1 a] ip] & D1 & E).
  assert (s1 = _) as E1 by (inversion E; auto). clear E.
  destruct (Nat.eqb ier 0).
  - apply bind_ok in H as ([s2 ier2] & H2 & H).
    unfold decomp_complex in H2. apply bind_ok in H2 as ([[[k2 ar] ai] ip'] & D2 & E).
    assert (s2 = _) as E2 by (inversion E; auto). clear E.
    destruct (Nat.eqb ier2 0).
    + inversion H; subst s' ok; clear H. rewrite E2, E1. reflexivity.
    + apply (decomp_failed_tk n) in H. eapply tk_trans; [|exact H]. rewrite E2, E1. reflexivity.
  - apply (decomp_failed_tk n) in H. eapply tk_trans; [|exact H]. rewrite E1. reflexivity.
Qed.
Lemma decomp_loop_tk n : forall fuel (s : state) r, decomp_loop fuel s = Ok r ->
  tk n s (match r with inl x => x | inr x => x end).
Proof.
  induction fuel as [|fuel IH]; intros s r H; [discriminate|]. cbn [decomp_loop] in H.
  apply bind_ok in H as ([s1 ok] & H1 & H). apply (perform_tk n) in H1.
  destruct ok; [inversion H; subst; exact H1|].
  destruct (negb _); [inversion H; subst; exact H1|].
  eapply tk_trans; [exact H1|]. now apply IH.
Qed.

Lemma linear_solve_cont (s s' : state) : linear_solve s = Ok s' -> cont (i_cache s') = cont (i_cache s).
Proof.
  unfold linear_solve. intros H. apply bind_ok in H as (x1 & _ & H).
  apply bind_ok in H as ([x2 x3] & _ & E). inversion E; subst. reflexivity.
Qed.
Lemma newton_rhs_tk (s : state) : tk (length (i_u s)) s (newton_transform (newton_rhs s)).
Proof.
  unfold tk. change (cont (i_cache (newton_transform (newton_rhs s)))) with
    (tab (length (i_u s)) (fun i => add A (at_ (i_u s) i) (at_ (z3 (i_cache s)) i)) ++ skipn (length (i_u s)) (cont (i_cache s))).
  rewrite skipn_app, tab_length, Nat.sub_diag, skipn_all2 by (rewrite tab_length; lia). reflexivity.
Qed.
Lemma newton_pass_tk (s s' : state) : newton_pass s = Ok s' -> tk (length (i_u s)) s s'.
Proof.
  unfold newton_pass. intros H. apply bind_ok in H as (s1 & H & E). pose proof (newton_rhs_tk s) as Hk.
  apply linear_solve_cont in H. revert H Hk. generalize (newton_transform (newton_rhs s)) as y. intros y H Hk.
  inversion E; subst s'. unfold tk in *. transitivity (skipn (length (i_u s)) (cont (i_cache s1))); [reflexivity|].
  now rewrite H.
Qed.
Lemma newton_fail_tk n fac b (s s' : state) ok : newton_fail fac b s = Ok (s', ok) -> tk n s s'.
Proof.
  unfold newton_fail. intros H. apply bind_ok in H as (s1 & H & E). inversion E; subst s1 ok; clear E.
  match type of H with (if ?c then refresh_jac ?x else _) = _ =>
    assert (tk n s x) as Hs by reflexivity; destruct c end.
  - eapply tk_trans; [exact Hs|]. now apply refresh_tk.
  - inversion H; subst. exact Hs.
Qed.
Lemma newton_loop_tk n : forall fuel d (s s' : state) ok, length (i_u s) = n -> newton_loop fuel d s = Ok (s', ok) -> tk n s s'.
Proof.
  induction fuel as [|fuel IH]; intros d s s' ok Hn H; [discriminate|].
  rewrite newton_loop_S in H. destruct (Nat.leb _ _); [now apply (newton_fail_tk n) in H|].
  apply bind_ok in H as (s1 & Hp & H). cbv zeta in H.
  pose proof (newton_pass_tk _ _ Hp) as Hk. rewrite Hn in Hk. apply newton_pass_inv in Hp as (Hs1 & _).
  apply bind_ok in H as ([s2 r] & Hc & H).
  apply newton_check_inv in Hc as (Hs2 & Ht2 & _ & _ & _ & _ & _ & _ & _ & Hcn & Hc & _).
  assert (tk n s s2) as H12 by (unfold tk in *; congruence).
  destruct r as [out|].
  - inversion H; subst out; clear H. destruct (Hc _ eq_refl) as (fac & b & Hfac & Hf).
    eapply tk_trans; [exact H12|]. now apply (newton_fail_tk n) in Hf.
  - assert (tk n s (newton_update s2) /\ length (i_u (newton_update s2)) = n) as (H3 & L3).
    { split; [exact H12|]. change (i_u (newton_update s2)) with (i_u s2).
      rewrite (proj1 (q_point _ _ (nf_quiet _ _ (ns_frame _ _ Hs2)))), (proj1 (q_point _ _ (nf_quiet _ _ (ns_frame _ _ Hs1)))).
      exact Hn. }
    revert H H3 L3. generalize (newton_update s2) as s3. intros s3 H H3 L3. destruct (leb A _ _).
    + inversion H; subst. exact H3.
    + eapply tk_trans; [exact H3|]. eapply IH; [exact L3|exact H].
Qed.
Lemma newton_tk n fuel (s s' : state) ok : length (i_u s) = n -> newton fuel s = Ok (s', ok) -> tk n s s'.
Proof.
  unfold newton, guard. destruct (radau_shapes s); [|discriminate]. intros Hn H. cbv zeta in H.
  assert (cont (i_cache (prepare_newton s)) = cont (i_cache s) /\ i_u (prepare_newton s) = i_u s) as (E1 & E2).
  { unfold prepare_newton. destruct (_ || _); split; reflexivity. }
  revert H E1 E2. generalize (prepare_newton s) as x. intros x H E1 E2.
  apply (newton_loop_tk n) in H; [|change (length (i_u x) = n); congruence].
  unfold tk in *. rewrite H. change (skipn n (cont (i_cache x)) = skipn n (cont (i_cache s))). now rewrite E1.
Qed.
Lemma estimate_tk n (s s' : state) : 0 < n -> ssafe n s -> error_estimate s = Ok s' -> tk n s s'.
Proof.
  intros Hn [Hu Hc]. unfold error_estimate. cbv zeta. rewrite (shaped_len n) by apply Hc. intros H.
  assert (forall g (v : vec A), length v = 4 * n -> length (set_head n g v) = 4 * n) as Hsh.
  { intros g v Hv. unfold set_head. rewrite app_length, tab_length, skipn_length. lia. }
  apply bind_ok in H as (x1 & E1 & H).
  assert (forall b c, length b = 4 * n -> sol n (e1 (i_cache s)) b (ip1 (i_cache s)) = Ok c -> skipn n c = skipn n b /\ length c = 4 * n) as Hsol.
  { intros b c Hb Hs. split; [eapply sol_tail; [..|exact Hs]; try apply Hc; try assumption; lia|].
    destruct (LinFacts.sol_ok n (e1 (i_cache s)) b (ip1 (i_cache s))) as (c' & Ec & Lc); try apply Hc; try assumption; [lia|].
    rewrite Hs in Ec. inversion Ec; subst c'. lia. }
  apply Hsol in E1 as (T1 & L1); [|apply Hsh, Hc]. rewrite set_head_tail in T1.
  destruct (ltb A _ n1).
  { inversion H; subst. exact T1. }
  destruct (_ || _); [|inversion H; subst; exact T1].
  apply bind_ok in H as (x2 & E2 & H). apply Hsol in E2 as (T2 & L2); [|apply Hsh, L1]. rewrite set_head_tail in T2.
  clear Hu. inversion H; subst s'. unfold tk. transitivity (skipn n x2); [reflexivity|]. congruence.
Qed.
Lemma reject_tk n dtnew (s s' : state) : radau_reject dtnew s = Ok s' -> tk n s s'.
Proof.
  unfold radau_reject. cbv zeta. intros H.
  match type of H with (if ?c then refresh_jac ?x else _) = _ => assert (tk n s x) as E end.
  { destruct (first _), (Nat.leb _ _); reflexivity. }
  match type of H with (if ?c then refresh_jac ?x else _) = _ => destruct c end.
  - eapply tk_trans; [exact E|]. now apply refresh_tk.
  - inversion H; subst. exact E.
Qed.
End Tail.
