(** The reference of SpecIRK.v is deterministic: at most one state after [k]
    steps. *)
From Coq Require Import ZArith List Bool Lia Reals Lra.
From RecordUpdate Require Import RecordSet.
From Verif Require Import Arith Vec Core ArithR SpecRK SpecODE RKFacts SpecLin SpecRadau SpecStage RadauStage
  Spec Driver Radau RadauSolve RadauEx RadauRef SpecIRK.
Import ListNotations RecordSetNotations.
Local Open Scope R_scope.

Lemma comp_ext n (v w : list R) : length v = n -> length w = n ->
  (forall i, (i < n)%nat -> comp v i = comp w i) -> v = w.
Proof.
  intros Hv Hw H. rewrite <- (vect_comp n v Hv), <- (vect_comp n w Hw). now apply vect_ext.
Qed.
Lemma comp_zeros n i : comp (repeat 0 n) i = 0.
Proof. unfold comp. destruct (nth_in_or_default i (repeat 0 n) 0) as [H|H]; [exact (repeat_spec n 0 _ H)|exact H]. Qed.

Section Solve.
Context (n : nat) (J : list (list R)).
Lemma shifted_sum c x i : (i < n)%nat ->
  rsum n (fun j => entry (shifted n c J) i j * x j) = c * x i - rsum n (fun j => entry J i j * x j).
Proof.
  intros Hi. rewrite (rsum_ext n _ (fun j => (if Nat.eqb i j then c * x j else 0) - entry J i j * x j)).
  - rewrite rsum_minus, rsum_delta by exact Hi. reflexivity.
  - intros j Hj. unfold shifted.
    rewrite (entry_vect n (fun i j => (if Nat.eqb i j then c else 0) - entry J i j)) by assumption.
    destruct (Nat.eqb i j); ring.
Qed.
Lemma diagonal_sum c x i : (i < n)%nat ->
  rsum n (fun j => entry (diagonal n c) i j * x j) = c * x i.
Proof.
  intros Hi. rewrite (rsum_ext n _ (fun j => if Nat.eqb i j then c * x j else 0)).
  - now rewrite rsum_delta by exact Hi.
  - intros j Hj. unfold diagonal.
    rewrite (entry_vect n (fun i j => if Nat.eqb i j then c else 0)) by assumption.
    destruct (Nat.eqb i j); ring.
Qed.
Lemma diff_sum (x y : list R) i :
  rsum n (fun j => entry J i j * comp (vect n (fun j => comp x j - comp y j)) j)
  = rsum n (fun j => entry J i j * comp x j) - rsum n (fun j => entry J i j * comp y j).
Proof.
  rewrite <- rsum_minus. apply rsum_ext. intros j Hj. rewrite comp_vect by exact Hj. ring.
Qed.

Lemma real_unique c (x y : list R) : ~ singular_matrix n (shifted n c J) ->
  (forall i, (i < n)%nat -> c * comp x i - rsum n (fun j => entry J i j * comp x j)
                          = c * comp y i - rsum n (fun j => entry J i j * comp y j)) ->
  forall i, (i < n)%nat -> comp x i = comp y i.
Proof.
  intros Hr H i Hi. destruct (Req_dec (comp x i) (comp y i)) as [E|E]; [exact E|exfalso].
  apply Hr. exists (vect n (fun j => comp x j - comp y j)). split.
  - exists i. split; [exact Hi|]. rewrite comp_vect by exact Hi. lra.
  - split; [apply vect_length|]. intros k Hk. rewrite (shifted_sum c (comp (vect n (fun j => comp x j - comp y j)))) by exact Hk.
    rewrite diff_sum, comp_zeros, comp_vect by exact Hk. specialize (H k Hk). lra.
Qed.
Lemma cplx_unique a b (x y x' y' : list R) : ~ csingular_matrix n (shifted n a J) (diagonal n b) ->
  (forall i, (i < n)%nat -> a * comp x i - b * comp y i - rsum n (fun j => entry J i j * comp x j)
                          = a * comp x' i - b * comp y' i - rsum n (fun j => entry J i j * comp x' j)) ->
  (forall i, (i < n)%nat -> b * comp x i + a * comp y i - rsum n (fun j => entry J i j * comp y j)
                          = b * comp x' i + a * comp y' i - rsum n (fun j => entry J i j * comp y' j)) ->
  forall i, (i < n)%nat -> comp x i = comp x' i /\ comp y i = comp y' i.
Proof.
  intros Hr H1 H2 i Hi.
  destruct (Req_dec (comp x i) (comp x' i)) as [E1|E1], (Req_dec (comp y i) (comp y' i)) as [E2|E2];
    [now split|exfalso..].
  all: apply Hr; exists (vect n (fun j => comp x j - comp x' j)), (vect n (fun j => comp y j - comp y' j)); split;
    [exists i; split; [exact Hi|]; rewrite !comp_vect by exact Hi; (left; lra) || (right; lra)|].
  all: split; [apply vect_length|split; [apply vect_length|]]; intros k Hk.
  all: rewrite rsum_minus, rsum_plus, !(shifted_sum a (comp _)), !(diagonal_sum b (comp _)), !diff_sum, !comp_zeros, !comp_vect by exact Hk.
  all: specialize (H1 k Hk); specialize (H2 k Hk); lra.
Qed.
End Solve.

Section Det.
Context {inf : R} (n : nat) (F : R -> list R -> list R) (Jac : R -> list R -> list (list R)) (o : opts (RA inf)) (tf : R).

Lemma increment_det t u h m w z d d' : regular n (fst m) (snd m) ->
  increment n F t u h m w z d -> increment n F t u h m w z d' -> d = d'.
Proof.
  intros (R1 & R2) (L & H) (L' & H'). destruct m as (hm & J). cbn [fst snd] in *.
  assert (st1 d = st1 d') as E1.
  { apply (comp_ext n); [exact (L 0%nat)|exact (L' 0%nat)|]. apply (real_unique n J (radau_gamma / hm)); [exact R1|].
    intros i Hi. destruct (H i Hi) as (X & _). destruct (H' i Hi) as (Y & _). rewrite <- Y in X. clear - X. cbn [pick] in X.
    unfold Rdiv in *. lra. }
  assert (forall i, (i < n)%nat -> comp (st2 d) i = comp (st2 d') i /\ comp (st3 d) i = comp (st3 d') i) as E.
  { apply (cplx_unique n J (rad_alpha / hm) (rad_beta / hm)); [exact R2| |].
    - intros i Hi. destruct (H i Hi) as (_ & X & _). destruct (H' i Hi) as (_ & Y & _). rewrite <- Y in X. clear - X. cbn [pick] in X.
      unfold Rdiv in *. lra.
    - intros i Hi. destruct (H i Hi) as (_ & _ & X). destruct (H' i Hi) as (_ & _ & Y). rewrite <- Y in X. clear - X. cbn [pick] in X.
      unfold Rdiv in *. lra. }
  destruct d as [d1 d2 d3], d' as [d1' d2' d3']. cbn [st1 st2 st3] in *. f_equal; [exact E1| |].
  - apply (comp_ext n); [exact (L 1%nat)|exact (L' 1%nat)|]. intros i Hi. apply E, Hi.
  - apply (comp_ext n); [exact (L 2%nat)|exact (L' 2%nat)|]. intros i Hi. apply E, Hi.
Qed.

(** The last contraction rate is not used before it is set. *)
Definition unused (k : nat) (q q' : R) : Prop := q = q' \/ (k <= 1)%nat \/ (iters o <= S k)%nat.
Lemma judge_det k e e0 q q2 th c : unused k q q2 ->
  match judge o (S k) e e0 q th c, judge o (S k) e e0 q2 th c with
  | Go x th' c', Go x2 th2 c2 => unused (S k) x x2 /\ th' = th2 /\ c' = c2
  | Stop c' f b, Stop c2 f2 b2 => c' = c2 /\ f = f2 /\ b = b2
  | _, _ => False
  end.
Proof.
  intros H. unfold judge.
  destruct ((1 <? S k)%nat && (S k <? iters o)%nat) eqn:E.
  - apply andb_prop in E as (E1 & E2). apply Nat.ltb_lt in E1, E2.
    assert ((if (S k =? 2)%nat then e / e0 else sqrt (e / e0 * q)) = (if (S k =? 2)%nat then e / e0 else sqrt (e / e0 * q2))) as ->.
    { destruct H as [->|[H|H]]; [reflexivity| |lia]. assert (k = 1%nat) as -> by lia. reflexivity. }
    destruct (Rlt_dec _ _); [|now repeat split]. destruct (Rle_dec _ _); [now repeat split|].
    repeat split. now left.
  - repeat split. destruct H as [->|[H|H]]; [now left| |right; right; lia].
    apply andb_false_iff in E as [E|E]; [right; left|right; right]; apply Nat.ltb_ge in E; lia.
Qed.

Lemma newton_det t u h m : regular n (fst m) (snd m) -> forall k e0 q th c w z r,
  newton_from n F o t u h m k e0 q th c w z r -> forall q2 r2, unused k q q2 ->
  newton_from n F o t u h m k e0 q2 th c w z r2 -> r = r2.
Proof.
  intros Hm. induction 1 as [k e0 q th c w z Hk|k e0 q th c w z d c' f b Hk Hd Hj|k e0 q th c w z d q' th' c' Hk Hd Hj He|
    k e0 q th c w z d q' th' c' r Hk Hd Hj He Hn IH]; intros q2 r2 Hq H2.
  - inversion H2; subst; try lia. reflexivity.
  - inversion H2 as [|? ? ? ? ? ? ? d2 ? ? ? ? Hd2 Hj2|? ? ? ? ? ? ? d2 ? ? ? ? Hd2 Hj2|? ? ? ? ? ? ? d2 ? ? ? ? ? Hd2 Hj2]; subst; try lia.
    all: assert (d2 = d) as -> by (eapply increment_det; eassumption).
    all: pose proof (judge_det k (increment_norm n o u d) e0 q q2 th c Hq) as X; rewrite Hj, Hj2 in X.
    + destruct X as (-> & -> & ->). reflexivity.
    + destruct X.
    + destruct X.
  - inversion H2 as [|? ? ? ? ? ? ? d2 ? ? ? ? Hd2 Hj2|? ? ? ? ? ? ? d2 ? ? ? ? Hd2 Hj2|? ? ? ? ? ? ? d2 ? ? ? ? ? Hd2 Hj2]; subst; try lia.
    all: assert (d2 = d) as -> by (eapply increment_det; eassumption).
    all: pose proof (judge_det k (increment_norm n o u d) e0 q q2 th c Hq) as X; rewrite Hj, Hj2 in X.
    + destruct X.
    + destruct X as (_ & -> & ->). reflexivity.
    + destruct X as (_ & -> & ->). lra.
  - inversion H2 as [|? ? ? ? ? ? ? d2 ? ? ? ? Hd2 Hj2|? ? ? ? ? ? ? d2 ? ? ? ? Hd2 Hj2|? ? ? ? ? ? ? d2 ? ? ? ? ? Hd2 Hj2 He2 Hn2]; subst; try lia.
    all: assert (d2 = d) as -> by (eapply increment_det; eassumption).
    all: pose proof (judge_det k (increment_norm n o u d) e0 q q2 th c Hq) as X; rewrite Hj, Hj2 in X.
    + destruct X.
    + destruct X as (_ & -> & ->). lra.
    + destruct X as (Y & -> & ->). eapply IH; [exact Y|exact Hn2].
Qed.
Lemma newton_result_det x m r r2 : regular n (fst m) (snd m) ->
  newton_result n F o x m r -> newton_result n F o x m r2 -> r = r2.
Proof.
  intros Hm (q & H) (q2 & H2). eapply newton_det; [exact Hm|exact H| |exact H2]. right. left. lia.
Qed.

Lemma filtered_det J h dt z g v v' : ~ singular_matrix n (shifted n (radau_gamma / h) J) ->
  filtered_estimate n J h dt z g v -> filtered_estimate n J h dt z g v' -> v = v'.
Proof.
  intros Hr (L & H) (L' & H'). apply (comp_ext n); [exact L|exact L'|]. apply (real_unique n J (radau_gamma / h)); [exact Hr|].
  intros i Hi. rewrite (H i Hi), (H' i Hi). reflexivity.
Qed.
Lemma estimate_det x m z e k e' k' : regular n (fst m) (snd m) ->
  estimate n F o x m z e k -> estimate n F o x m z e' k' -> e = e' /\ k = k'.
Proof.
  intros (Hm & _) (v & Hv & H) (v' & Hv' & H').
  assert (v' = v) as -> by (eapply filtered_det; eassumption).
  destruct (Rlt_dec _ _); [destruct H, H'; now subst|].
  destruct (_ || _); [|destruct H, H'; now subst].
  destruct H as (w & Hw & -> & ->), H' as (w' & Hw' & -> & ->).
  assert (w' = w) as -> by (eapply filtered_det; eassumption). now split.
Qed.

Lemma matrices_det x y r y' r' : matrices n Jac x y r -> matrices n Jac x y' r' -> y = y' /\ r = r'.
Proof.
  intros H. revert y' r'. induction H as [x m Hm|x Hm Hr|x Hm Hr Hs|x y r Hm Hr Hs H IH]; intros y' r' H'.
  all: inversion H' as [? m' Hm'|? Hm' Hr'|? Hm' Hr' Hs'|? ? ? Hm' Hr' Hs' H2]; subst; try congruence; try contradiction; try lia.
  - split; congruence.
  - now split.
  - now split.
  - now apply IH.
Qed.
Definition sound (x : rpilot) : Prop := forall m, p_mat x = Some m -> regular n (fst m) (snd m).
Lemma matrices_sound x y r : matrices n Jac x y r -> sound x ->
  sound y /\ match r with Some m => regular n (fst m) (snd m) | None => True end.
Proof.
  induction 1 as [x m Hm|x Hm Hr|x Hm Hr Hs|x y r Hm Hr Hs H IH]; intros Hx.
  - split; [exact Hx|exact (Hx m Hm)].
  - split; [exact Hx|exact Hr].
  - split; [exact Hx|exact I].
  - apply IH. exact Hx.
Qed.

Lemma attempt_det x y b y' b' : sound x -> attempt n F Jac o tf x y b -> attempt n F Jac o tf x y' b' -> y = y' /\ b = b'.
Proof.
  intros Hx H H'. unfold sound in Hx.
  destruct H as [y H|y m H y1 Hs|y m H y1 Hs Ht|y m k c f b H y1 Hs Ht Hn|y m k th c z e f H y1 Hs Ht Hn He y2];
  destruct H' as [w G|w m' G w1 Gs|w m' G w1 Gs Gt|w m' k' c' f' b' G w1 Gs Gt Gn|w m' k' th' c' z' e' f' G w1 Gs Gt Gn Ge w2].
  all: destruct (matrices_det _ _ _ _ _ H G) as (Ey & Em); try discriminate Em; destruct (matrices_sound _ _ _ H Hx) as (_ & Hr);
    try (injection Em as <-); subst w;
    repeat match goal with v := _ |- _ => subst v end.
  all: try (exfalso; lia).
  all: try contradiction.
  all: try (now split).
  - pose proof (newton_result_det _ _ _ _ Hr Hn Gn) as X. injection X as <- <- <- <-. now split.
  - discriminate (newton_result_det _ _ _ _ Hr Hn Gn).
  - discriminate (newton_result_det _ _ _ _ Hr Hn Gn).
  - pose proof (newton_result_det _ _ _ _ Hr Hn Gn) as X. injection X as <- <- <- <-.
    destruct (estimate_det _ _ _ _ _ _ _ Hr He Ge) as (<- & <-). now split.
Qed.
Lemma accept_sound x m z e th k : sound x -> regular n (fst m) (snd m) -> sound (accept n Jac o tf x m z e th k).
Proof.
  intros Hx Hm m'. unfold accept. cbv zeta. destruct (p_last x); [discriminate|].
  destruct (Rle_dec _ _); [discriminate|]. destruct (_ && _); [|discriminate].
  cbn [p_mat set]. intros E. injection E as <-. exact Hm.
Qed.
Lemma attempt_sound x y b : sound x -> attempt n F Jac o tf x y b -> sound y.
Proof.
  intros Hx H. destruct H as [y H|y m H y1 Hs|y m H y1 Hs Ht|y m k c f b H y1 Hs Ht Hn|y m k th c z e f H y1 Hs Ht Hn He y2].
  all: destruct (matrices_sound _ _ _ H Hx) as (Hy & Hr).
  1-4: exact Hy.
  destruct (Rlt_dec e 1); [apply accept_sound; [exact Hy|exact Hr]|]. intros m'. discriminate.
Qed.
Lemma attempts_det x y : attempts n F Jac o tf x y -> sound x -> sound y /\ forall y', attempts n F Jac o tf x y' -> y = y'.
Proof.
  induction 1 as [x y H|x y z H H2 IH]; intros Hx.
  - split; [exact (attempt_sound _ _ _ Hx H)|]. intros y' H'.
    destruct H' as [x y' H'|x y' z' H' _]; destruct (attempt_det _ _ _ _ _ Hx H H') as (E & B); [exact E|discriminate].
  - destruct IH as (Hz & Hd); [exact (attempt_sound _ _ _ Hx H)|]. split; [exact Hz|]. intros y' H'.
    destruct H' as [x y' H'|x y' z' H' H3]; destruct (attempt_det _ _ _ _ _ Hx H H') as (E & B); [discriminate|].
    subst y'. now apply Hd.
Qed.
Lemma aimed_sound x : sound x -> sound (aimed tf x).
Proof. intros H. unfold aimed. destruct (Rle_dec _ _); exact H. Qed.

Theorem rad_run_det k x y : rad_run n F Jac o tf k x y -> sound x ->
  sound y /\ forall y', rad_run n F Jac o tf k x y' -> y = y'.
Proof.
  induction 1 as [x|k x y z H IH Hc Hs]; intros Hx.
  - split; [exact Hx|]. intros y' H'. now inversion H'.
  - destruct (IH Hx) as (Hy & Hd). destruct (attempts_det _ _ Hs (aimed_sound _ Hy)) as (Hz & Hd2).
    split; [exact Hz|]. intros z' H'. inversion H' as [|? ? y' ? H2 Hc' Hs']; subst.
    apply Hd in H2. subst y'. now apply Hd2.
Qed.
End Det.

(** A run goes as far as the reference. *)
Section Complete.
Context {inf : R} {P : Type} (b : builder (RA inf) P).
Notation n := (length (b_u b)).
Notation F := (ode (b_dudt b) (b_params b)).
Notation Jac := (the_jacobian (b_dudt b) (b_dfdu b) (b_params b)).
Notation alg := (@Radau5 (RA inf) P).
Notation start := (rad_start Jac (b_t b) (b_u b) (b_dt b)).
Hypothesis How : overwrites (b_dudt b).
Hypothesis Hgj : jac_overwrites (b_dfdu b).
Hypothesis Hu0 : b_u b <> [].
Hypothesis Hr : 0 < o_reltol (b_opts b).
Hypothesis Ha : 0 < o_abstol (b_opts b).
Hypothesis Hsane : radau_sane (b_opts b).
Hypothesis Hblind : forall h t u, 0 < h -> length u = n -> ~ blind n h (Jac t u).
Hypothesis Hdt : 0 < b_dt b.
Hypothesis Ht : b_t b < b_tfinal b.

Lemma start_sound : sound n start.
Proof. intros m. discriminate. Qed.

Theorem radau_reference_complete k (s0 : integ (RA inf) P (radau_cache (RA inf))) x :
  build alg b = Ok s0 -> rad_run n F Jac (b_opts b) (b_tfinal b) k start x ->
  forall fuel, (o_max_steps (b_opts b) + o_max_newt_iter (b_opts b) + 5 <= fuel)%nat ->
  exists s, reached alg None fuel k s0 s /\ rad_shows s x.
Proof.
  intros Hb Hx fuel Hf.
  assert (forall k x, rad_run n F Jac (b_opts b) (b_tfinal b) k start x -> p_code x = RContinue ->
    exists s, continues alg None fuel k s0 s) as G.
  { clear k x Hx. induction k as [|k IH]; intros x Hx Hc.
    - exists s0. constructor.
    - inversion Hx as [|? ? y ? Hy Hcy Hs]; subst. destruct (IH y Hy Hcy) as (s & Hs1).
      destruct (radau_step_returns b None fuel k s0 s no_callback_benign Hu0 Hb) as (s' & r & E & _); [now apply continues_steps_n|exact Hf|].
      exists s'. 
      destruct (radau_reference inf b How Hgj Hu0 Hr Ha Hsane Hblind fuel (S k) s0 s' Hdt Ht Hb) as (x' & Hx' & Hsh); [econstructor; eassumption|].
      assert (x = x') as <- by (eapply rad_run_det; [exact Hx|exact start_sound|exact Hx']).
      pose proof (step_spec _ _ _ _ _ _ E) as Er. destruct Hsh as (_ & _ & _ & _ & Hrc). cbn [Cache Radau5] in *. rewrite Hrc, Hc in Er. cbn in Er. subst r.
      eapply continues_snoc; eassumption. }
  inversion Hx as [|k' ? y ? Hy Hcy Hs]; subst.
  - exists s0. split; [constructor|].
    destruct (radau_reference inf b How Hgj Hu0 Hr Ha Hsane Hblind fuel 0 s0 s0 Hdt Ht Hb) as (x' & Hx' & Hsh); [constructor|].
    inversion Hx'; subst. exact Hsh.
  - destruct (G _ _ Hy Hcy) as (s & Hs1).
    destruct (radau_step_returns b None fuel k' s0 s no_callback_benign Hu0 Hb) as (s' & r & E & _); [now apply continues_steps_n|exact Hf|].
    exists s'. assert (reached alg None fuel (S k') s0 s') as Hre by (econstructor; eassumption). split; [exact Hre|].
    destruct (radau_reference inf b How Hgj Hu0 Hr Ha Hsane Hblind fuel (S k') s0 s' Hdt Ht Hb Hre) as (x' & Hx' & Hsh).
    assert (x = x') as <- by (eapply rad_run_det; [exact Hx|exact start_sound|exact Hx']). exact Hsh.
Qed.

Lemma rad_run_prefix k x y : rad_run n F Jac (b_opts b) (b_tfinal b) k x y -> forall j, (j < k)%nat ->
  exists z, rad_run n F Jac (b_opts b) (b_tfinal b) j x z /\ p_code z = RContinue.
Proof.
  induction 1 as [x|k x y z H IH Hc Hs]; intros j Hj; [lia|].
  destruct (Nat.eq_dec j k) as [->|Hne]; [now exists y|]. apply IH. lia.
Qed.

Theorem radau_integrate_reference (s0 : integ (RA inf) P (radau_cache (RA inf))) fuel fuel2 :
  build alg b = Ok s0 ->
  (o_max_steps (b_opts b) + o_max_newt_iter (b_opts b) + 5 <= fuel)%nat -> (max 1 (o_max_steps (b_opts b)) <= fuel2)%nat ->
  exists s k x, integrate alg None fuel fuel2 s0 = Ok s /\ rad_run n F Jac (b_opts b) (b_tfinal b) k start x /\
    rad_shows s x /\ p_code x <> RContinue /\
    forall k' x', rad_run n F Jac (b_opts b) (b_tfinal b) k' start x' -> p_code x' <> RContinue -> k' = k /\ x' = x.
Proof.
  intros Hb Hf Hf2.
  destruct (radau_integrate_returns b None fuel fuel2 s0 no_callback_benign Hu0 Hb Hf Hf2) as (s & Hi & Hrc & _).
  pose proof Hi as Hi2. apply (integrate_split alg None) in Hi2 as (k & s1 & _ & Hc & Hs).
  assert (reached alg None fuel (S k) s0 s) as Hre by (econstructor; eassumption).
  destruct (radau_reference inf b How Hgj Hu0 Hr Ha Hsane Hblind fuel (S k) s0 s Hdt Ht Hb Hre) as (x & Hx & Hsh).
  exists s, (S k), x. split; [exact Hi|]. split; [exact Hx|]. split; [exact Hsh|].
  assert (p_code x <> RContinue) as Hcx by (destruct Hsh as (_ & _ & _ & _ & E); intros X; apply Hrc; exact (eq_trans E X)).
  split; [exact Hcx|]. intros k' x' Hx' Hc'.
  assert (forall j k x x', rad_run n F Jac (b_opts b) (b_tfinal b) j start x -> rad_run n F Jac (b_opts b) (b_tfinal b) k start x' ->
    p_code x <> RContinue -> (k <= j)%nat) as G.
  { intros j i y y' Hy Hy' Hcy. destruct (Nat.le_gt_cases i j) as [|Hl]; [assumption|exfalso].
    destruct (rad_run_prefix _ _ _ Hy' j Hl) as (z & Hz & Hcz). apply Hcy.
    rewrite (proj2 (rad_run_det n F Jac (b_opts b) (b_tfinal b) _ _ _ Hy start_sound) z Hz). exact Hcz. }
  assert (k' = S k) as ->.
  { pose proof (G _ _ _ _ Hx Hx' Hcx). pose proof (G _ _ _ _ Hx' Hx Hc'). lia. }
  split; [reflexivity|]. exact (proj2 (rad_run_det n F Jac (b_opts b) (b_tfinal b) _ _ _ Hx' start_sound) x Hx).
Qed.
End Complete.
