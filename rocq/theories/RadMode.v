(** Radau5 on linear systems: no mode that does not grow in the exact solution
    grows in a run. *)
From Coq Require Import Reals List Lia Lra Arith Bool.
From Coquelicot Require Import Complex.
From RecordUpdate Require Import RecordSet.
From Verif Require Import Arith Vec Core Driver Radau RadauInv Spec SpecRK SpecODE SpecLin SpecRadau SpecReach SpecStage SpecIRK SpecConv SpecMode ArithR
  RKFacts DP5RK DP5Num RadauLin RadauHist RadauEx RadauRForms RadauRef RadRefDet BigO ConvGlobal ConvDP5 JacFacts RadConvLocal RadConvRun RadConv RadModeC.
Import ListNotations RecordSetNotations.
Local Open Scope R_scope.

Section Modes.
Context (n : nat) (J : nat -> nat -> R) (e : list R) (p q : nat -> R) (a c : R).
Hypothesis Heig : left_eigenvector n J p q a c.
Hypothesis Ha : a <= 0.

(** The functional. *)
Definition lf (g : nat -> R) : C := (rsum n (fun i => p i * g i), rsum n (fun i => q i * g i)).
Definition mu : C := (a, c).
Lemma lf_ext g g' : (forall i, (i < n)%nat -> g i = g' i) -> lf g = lf g'.
Proof. intros H. unfold lf. f_equal; apply RKFacts.rsum_ext; intros i Hi; now rewrite H. Qed.
Lemma lf_plus g g' : lf (fun i => g i + g' i) = (lf g + lf g')%C.
Proof.
  unfold lf. cbv [Cplus fst snd]. f_equal; rewrite <- RKFacts.rsum_plus; apply RKFacts.rsum_ext; intros i _; ring.
Qed.
Lemma lf_scale k g : lf (fun i => k * g i) = (k * lf g)%C.
Proof.
  unfold lf. unfold RtoC. cbv [Cmult fst snd].
  rewrite (RKFacts.rsum_ext n (fun i => p i * (k * g i)) (fun i => k * (p i * g i))) by (intros; ring).
  rewrite (RKFacts.rsum_ext n (fun i => q i * (k * g i)) (fun i => k * (q i * g i))) by (intros; ring).
  rewrite !rsum_scale. f_equal; ring.
Qed.
Lemma lf_J v : lf (fun i => rsum n (fun j => J i j * v j)) = (mu * lf v)%C.
Proof.
  assert (forall r, rsum n (fun i => r i * rsum n (fun j => J i j * v j)) = rsum n (fun j => rsum n (fun i => r i * J i j) * v j)) as Hr.
  { intros r. rewrite (RKFacts.rsum_ext n _ (fun i => rsum n (fun j => r i * J i j * v j))).
    2:{ intros i _. rewrite <- rsum_scale. apply RKFacts.rsum_ext. intros j _. ring. }
    rewrite rsum_swap. apply RKFacts.rsum_ext. intros j _.
    rewrite (RKFacts.rsum_ext n _ (fun i => v j * (r i * J i j))) by (intros; ring). rewrite rsum_scale. ring. }
  unfold lf, mu. cbv [Cmult fst snd]. rewrite !Hr.
  rewrite (RKFacts.rsum_ext n (fun j => rsum n (fun i => p i * J i j) * v j) (fun j => a * (p j * v j) + (- c) * (q j * v j))).
  2:{ intros j Hj. rewrite (proj1 (Heig j Hj)). ring. }
  rewrite (RKFacts.rsum_ext n (fun j => rsum n (fun i => q i * J i j) * v j) (fun j => a * (q j * v j) + c * (p j * v j))).
  2:{ intros j Hj. rewrite (proj2 (Heig j Hj)). ring. }
  rewrite !RKFacts.rsum_plus, !rsum_scale. f_equal; ring.
Qed.

Definition is_J (A : list (list R)) : Prop := forall i j, (i < n)%nat -> (j < n)%nat -> entry A i j = J i j.
Context {inf : R} (F : R -> list R -> list R) (o : opts (RA inf)).
Hypothesis Hlin : linear_system n F J e.

Definition dev (u : list R) : C := lf (fun i => comp u i - comp e i).
Lemma dev_mode u : Cmod (dev u) = mode n p q e u.
Proof. reflexivity. Qed.
Definition W (w : three) (k : nat) : C := lf (comp (pick w k)).
Definition defect (w z : three) (k : nat) : C := (rad_TI k 0 * W z 0 + rad_TI k 1 * W z 1 + rad_TI k 2 * W z 2 - W w k)%C.
Lemma lf_stage u z l t : length u = n -> (l < 3)%nat ->
  lf (comp (F t (vect n (fun i => comp u i + comp (pick z l) i)))) = (mu * (dev u + W z l))%C.
Proof.
  intros Hu Hl. unfold dev, W. rewrite <- lf_plus, <- lf_J. apply lf_ext. intros i Hi.
  rewrite (Hlin _ _ _ (vect_length _ _) Hi). apply RKFacts.rsum_ext. intros j Hj. rewrite comp_vect by exact Hj. ring.
Qed.
Lemma lf_three k0 k1 k2 g0 g1 g2 : lf (fun i => k0 * g0 i + k1 * g1 i + k2 * g2 i) = (k0 * lf g0 + k1 * lf g1 + k2 * lf g2)%C.
Proof. rewrite (lf_plus (fun i => k0 * g0 i + k1 * g1 i)), (lf_plus (fun i => k0 * g0 i)), !lf_scale. reflexivity. Qed.

Lemma lf_sol k0 k1 k2 hm w d0 d1 J' (g : nat -> R) : hm <> 0 ->
  (forall i, (i < n)%nat -> k0 * (w i / hm) + k1 * (d0 i / hm) - rsum n (fun j => J' i j * d1 j) = g i) ->
  (forall i j, (i < n)%nat -> (j < n)%nat -> J' i j = J i j) -> k2 = hm ->
  (k0 * lf w + k1 * lf d0 = hm * (mu * lf d1 + lf g))%C.
Proof.
  intros Hh H HJ _. rewrite <- lf_J, <- lf_plus, <- !lf_scale, <- lf_plus. apply lf_ext. intros i Hi.
  rewrite <- (H i Hi). rewrite (RKFacts.rsum_ext n (fun j => J' i j * d1 j) (fun j => J i j * d1 j)) by (intros j Hj; now rewrite HJ).
  field. exact Hh.
Qed.

Lemma increment_stage t u h m w z d : increment n F t u h m w z d -> length u = n -> 0 < fst m -> is_J (snd m) ->
  stage_eqs (RtoC (fst m) * mu)%C (W w 0 + W d 0)%C (W w 1 + W d 1)%C (W w 2 + W d 2)%C
    (ti 0 * dev u + defect w z 0)%C (ti 1 * dev u + defect w z 1)%C (ti 2 * dev u + defect w z 2)%C.
Proof.
  intros (Hd & H) Hu Hm HJ. cbv zeta in H.
  set (f := mk3 _ _ _) in H.
  assert (forall l, (l < 3)%nat -> lf (comp (pick f l)) = (mu * (dev u + W z l))%C) as Hf.
  { intros [|[|[|l]]] Hl; [| | |lia]; cbn [pick f st1 st2 st3]; [exact (lf_stage u z 0 _ Hu Hl)|exact (lf_stage u z 1 _ Hu Hl)|exact (lf_stage u z 2 _ Hu Hl)]. }
  assert (forall k, lf (mixed rad_TI f k) = (mu * (ti k * dev u + (rad_TI k 0 * W z 0 + rad_TI k 1 * W z 1 + rad_TI k 2 * W z 2)))%C) as Hx.
  { intros k. rewrite (lf_ext (mixed rad_TI f k) (fun i => rad_TI k 0 * comp (pick f 0) i + rad_TI k 1 * comp (pick f 1) i + rad_TI k 2 * comp (pick f 2) i)).
    2:{ intros i _. unfold mixed. now rewrite rsum3. }
    rewrite lf_three, !Hf by lia. unfold ti. rewrite rsum3, !RtoC_plus. ring. }
  assert (fst m <> 0) as Hm0 by lra.
  assert (forall k i, (comp (pick w k) i + comp (pick d k) i) / fst m = comp (pick w k) i / fst m + comp (pick d k) i / fst m) as Es by (intros; field; exact Hm0).
  repeat split.
  - pose proof (lf_sol radau_gamma 0 (fst m) (fst m) (fun i => comp (pick w 0) i + comp (pick d 0) i) (fun _ => 0) (comp (st1 d)) (entry (snd m)) (mixed rad_TI f 0) Hm0) as E.
    rewrite lf_plus in E. fold (W w 0) (W d 0) in E. change (lf (comp (st1 d))) with (W d 0) in E. rewrite Hx in E.
    assert (radau_gamma * (W w 0 + W d 0) = fst m * (mu * W d 0 + mu * (ti 0 * dev u + (rad_TI 0 0 * W z 0 + rad_TI 0 1 * W z 1 + rad_TI 0 2 * W z 2))))%C as E'.
    { rewrite <- E; [ring| |exact HJ|reflexivity]. intros i Hi. rewrite <- (proj1 (H i Hi)). field. exact Hm0. }
    rewrite E'. unfold defect. ring.
  - pose proof (lf_sol rad_alpha (- rad_beta) (fst m) (fst m) (fun i => comp (pick w 1) i + comp (pick d 1) i) (fun i => comp (pick w 2) i + comp (pick d 2) i)
      (comp (st2 d)) (entry (snd m)) (mixed rad_TI f 1) Hm0) as E.
    rewrite !lf_plus in E. fold (W w 1) (W d 1) (W w 2) (W d 2) in E. change (lf (comp (st2 d))) with (W d 1) in E. rewrite Hx in E.
    assert (rad_alpha * (W w 1 + W d 1) - rad_beta * (W w 2 + W d 2) =
      fst m * (mu * W d 1 + mu * (ti 1 * dev u + (rad_TI 1 0 * W z 0 + rad_TI 1 1 * W z 1 + rad_TI 1 2 * W z 2))))%C as E'.
    { rewrite <- E; [rewrite RtoC_opp; ring| |exact HJ|reflexivity]. intros i Hi. rewrite <- (proj1 (proj2 (H i Hi))). field. exact Hm0. }
    rewrite E'. unfold defect. ring.
  - pose proof (lf_sol rad_beta rad_alpha (fst m) (fst m) (fun i => comp (pick w 1) i + comp (pick d 1) i) (fun i => comp (pick w 2) i + comp (pick d 2) i)
      (comp (st3 d)) (entry (snd m)) (mixed rad_TI f 2) Hm0) as E.
    rewrite !lf_plus in E. fold (W w 1) (W d 1) (W w 2) (W d 2) in E. change (lf (comp (st3 d))) with (W d 2) in E. rewrite Hx in E.
    assert (rad_beta * (W w 1 + W d 1) + rad_alpha * (W w 2 + W d 2) =
      fst m * (mu * W d 2 + mu * (ti 2 * dev u + (rad_TI 2 0 * W z 0 + rad_TI 2 1 * W z 1 + rad_TI 2 2 * W z 2))))%C as E'.
    { rewrite <- E; [ring| |exact HJ|reflexivity]. intros i Hi. rewrite <- (proj2 (proj2 (H i Hi))). field. exact Hm0. }
    rewrite E'. unfold defect. ring.
Qed.

(** What the Newton iteration accepts. *)
Definition grows (z : C) (x x' : C) : Prop :=
  Cmod x' <= (1 + / 10 ^ 13) * Cmod x /\ Cmod z * Cmod x' <= (5 + / 10 ^ 13 * Cmod z) * Cmod x.
Definition small_defect (u : list R) (w z : three) : Prop := forall k, (k < 3)%nat -> Cmod (defect w z k) <= / 10 ^ 17 * Cmod (dev u).
Lemma W_stages g k : (k < 3)%nat -> W (stages n g) k = lf (g k).
Proof. intros Hk. unfold W. apply lf_ext. intros i Hi. rewrite pick_stages by exact Hi. destruct k as [|[|[|k]]]; [reflexivity..|lia]. Qed.
Lemma W_mixed M w k : (k < 3)%nat -> W (stages n (mixed M w)) k = (M k 0%nat * W w 0 + M k 1%nat * W w 1 + M k 2%nat * W w 2)%C.
Proof.
  intros Hk. rewrite W_stages by exact Hk. unfold W. rewrite <- lf_three. apply lf_ext. intros i _. unfold mixed. now rewrite rsum3.
Qed.
Lemma newton_modes t u h m : length u = n -> 0 < fst m -> is_J (snd m) ->
  forall k e0 qq th cc w z r, newton_from n F o t u h m k e0 qq th cc w z r -> small_defect u w z ->
  match r with
  | Converged _ _ _ z' => grows (RtoC (fst m) * mu)%C (dev u) (dev u + W z' 2)%C
  | Failed _ _ _ _ => True end.
Proof.
  intros Hu Hm HJ k e0 qq th cc w z r H.
  assert (fst (RtoC (fst m) * mu)%C <= 0) as Hz by (unfold mu; cbn; nra).
  assert (forall w z d, increment n F t u h m w z d -> small_defect u w z ->
    let w' := stages n (fun k i => comp (pick w k) i + comp (pick d k) i) in
    small_defect u w' (stages n (mixed rad_T w')) /\
    grows (RtoC (fst m) * mu)%C (dev u) (dev u + W (stages n (mixed rad_T w')) 2)%C) as Hpass.
  { intros w1 z1 d Hi Hd w'.
    pose proof (increment_stage t u h m w1 z1 d Hi Hu Hm HJ) as E.
    destruct (step_bounds _ Hz _ _ _ _ _ _ _ E (Hd 0%nat ltac:(lia)) (Hd 1%nat ltac:(lia)) (Hd 2%nat ltac:(lia))) as (B1 & B2 & B3 & B4 & B5).
    assert (forall l, (l < 3)%nat -> W w' l = (W w1 l + W d l)%C) as Hw.
    { intros l Hl. unfold w'. rewrite W_stages by exact Hl. unfold W. now rewrite <- lf_plus. }
    split.
    - intros l Hl. unfold defect. rewrite !W_mixed by lia.
      eapply Rle_trans; [|apply Rle_trans with (/ 10 ^ 19 * (20 * Cmod (dev u))); [apply Rle_refl|pose proof (Cmod_ge_0 (dev u)); lra]].
      rewrite <- (Hw 0%nat) in B3 by lia. rewrite <- (Hw 1%nat) in B4 by lia. rewrite <- (Hw 2%nat) in B5 by lia.
      pose proof (TI_T l (W w' 0) (W w' 1) (W w' 2) (20 * Cmod (dev u)) Hl B3 B4 B5) as HT. cbv zeta in HT.
      destruct l as [|[|[|l]]]; [exact HT..|lia].
    - rewrite W_mixed by lia. unfold grows.
      replace (dev u + (rad_T 2 0 * W w' 0 + rad_T 2 1 * W w' 1 + rad_T 2 2 * W w' 2))%C with (xnew (dev u) (W w1 0 + W d 0)%C (W w1 1 + W d 1)%C); [split; assumption|].
      rewrite !Hw by lia. unfold xnew. replace (RtoC (rad_T 2 1)) with (RtoC 1) by reflexivity. replace (RtoC (rad_T 2 2)) with (RtoC 0) by reflexivity. ring. }
  induction H as [| |k e0 qq th cc w z d q' th' c' Hk Hi Hj Hc|k e0 qq th cc w z d q' th' c' r Hk Hi Hj Hc Hn IH]; intros Hd; try exact I.
  - apply (Hpass _ _ _ Hi Hd).
  - apply IH. apply (Hpass _ _ _ Hi Hd).
Qed.
Lemma guess_defect u g : small_defect u (stages n (mixed rad_TI g)) g.
Proof.
  intros k Hk. unfold defect. rewrite W_mixed by exact Hk.
  match goal with |- Cmod ?v <= _ => replace v with (RtoC 0) by ring end. rewrite Cmod_0.
  apply Rmult_le_pos; [left; apply Rinv_0_lt_compat, pow_lt; lra|apply Cmod_ge_0].
Qed.
Lemma newton_grows x m k th cc z : length (p_u x) = n -> 0 < fst m -> is_J (snd m) ->
  newton_result n F o x m (Converged k th cc z) ->
  grows (RtoC (fst m) * mu)%C (dev (p_u x)) (dev (vect n (fun i => comp (p_u x) i + comp (st3 z) i))).
Proof.
  intros Hu Hm HJ (qq & H). pose proof (newton_modes _ _ _ _ Hu Hm HJ _ _ _ _ _ _ _ _ H (guess_defect _ _)) as G. cbn in G.
  replace (dev (vect n (fun i => comp (p_u x) i + comp (st3 z) i))) with (dev (p_u x) + W z 2)%C; [exact G|].
  unfold dev, W. rewrite <- lf_plus. apply lf_ext. intros i Hi. rewrite comp_vect by exact Hi. cbn [pick]. ring.
Qed.

(** ** The run *)
Context (Jac : R -> list R -> list (list R)) (tf : R).
Hypothesis HJac : forall t u, length u = n -> is_J (Jac t u).
Hypothesis Hsane : radau_sane o.

Record inv (x : rpilot) : Prop := {
  v_len : length (p_u x) = n;
  v_jac : is_J (p_jac x);
  v_h : 0 < p_h x;
  v_last : p_last x = true -> p_h x = tf - p_t x;
  v_in : p_last x = false -> p_t x + p_h x < tf;
  v_mat : forall m, p_mat x = Some m -> 0 < fst m /\ (p_last x = false -> p_h x <= fst m) /\ p_h x <= 10001/10000 * fst m /\ is_J (snd m) }.
Record btw (x : rpilot) : Prop := {
  w_len : length (p_u x) = n;
  w_jac : is_J (p_jac x);
  w_t : p_t x < tf;
  w_h : 0 < p_h x;
  w_last : p_last x = true -> p_h x = tf - p_t x;
  w_mat : forall m, p_mat x = Some m -> p_h x <= fst m /\ is_J (snd m) }.
Lemma aimed_inv x : btw x -> inv (aimed tf x).
Proof.
  intros [W1 W2 W3 W4 W5 W6]. unfold aimed.
  destruct (Rle_dec tf (p_t x + p_h x * (10001/10000))) as [Hle|Hgt].
  - constructor; cbn; try assumption; try lra; try discriminate.
    intros m Em. destruct (W6 m Em) as (A1 & A2). repeat split; try assumption; try lra; discriminate.
  - assert (p_last x = false) as El. { destruct (p_last x); [|reflexivity]. specialize (W5 eq_refl). exfalso. apply Hgt. lra. }
    constructor; cbn; try assumption; try lra; try (now rewrite El).
    intros m Em. destruct (W6 m Em) as (A1 & A2). repeat split; try assumption; lra.
Qed.
Definition mok (x : rpilot) (m : R * list (list R)) : Prop :=
  0 < fst m /\ (p_last x = false -> p_h x <= fst m) /\ p_h x <= 10001/10000 * fst m /\ is_J (snd m).
Lemma matrices_inv x x' r : matrices n Jac x x' r -> inv x ->
  inv x' /\ p_t x' = p_t x /\ p_u x' = p_u x /\
  match r with Some m => mok x' m | None => p_code x' = RSingularMatrix end.
Proof.
  induction 1 as [x m Em|x Em R|x Em R S|x x' r Em R S _ IH]; intros V.
  - split; [exact V|]. split; [reflexivity|]. split; [reflexivity|]. exact (v_mat x V m Em).
  - destruct V as [V1 V2 V3 V4 V5 V6]. split; [constructor; cbn; assumption|]. split; [reflexivity|]. split; [reflexivity|].
    unfold mok. cbn. split; [lra|]. split; [lra|]. split; [lra|]. exact V2.
  - destruct V as [V1 V2 V3 V4 V5 V6]. split; [constructor; cbn; assumption|]. split; [reflexivity|]. split; reflexivity.
  - destruct V as [V1 V2 V3 V4 V5 V6].
    assert (p_t x + p_h x <= tf) as Hin by (destruct (p_last x); [specialize (V4 eq_refl); lra|specialize (V5 eq_refl); lra]).
    apply IH. constructor; cbn; try assumption; try lra; try discriminate.
    + now apply HJac.
    + rewrite Em. discriminate.
Qed.
Lemma judge_factor8 k ee e0 qq th cc c' factor nj : judge o k ee e0 qq th cc = Stop c' factor nj -> 0 < factor <= 8/10.
Proof.
  unfold judge. destruct (_ && _); [|discriminate]. cbv zeta.
  match goal with |- context [if ?a then _ else _] => match type of a with {_ < 99/100} + {_} => destruct a end end;
    [|intros [= _ <- _]; lra].
  match goal with |- context [Rle_dec 1 ?s] => set (slow := s); destruct (Rle_dec 1 slow) as [Hs|Hs] end; [|discriminate].
  intros [= _ <- _].
  set (y := Rmax (1/10000) (Rmin 20 slow)).
  assert (1 <= y) as Hy by (eapply Rle_trans; [|apply Rmax_r]; apply Rmin_glb; lra).
  set (b := INR (4 + iters o - 1 - k)).
  assert (-1 / b <= 0) as Hx.
  { assert (0 <= b) as Ha' by apply pos_INR. destruct (Req_dec b 0) as [->|Hn].
    - unfold Rdiv. rewrite Rinv_0. lra.
    - assert (0 < / b) by (apply Rinv_0_lt_compat; lra). unfold Rdiv. nra. }
  assert (Rpower y (-1 / b) <= 1).
  { unfold Rpower. rewrite <- exp_0. destruct (Req_dec (-1 / b * ln y) 0) as [->|Hn]; [apply Rle_refl|].
    left. apply exp_increasing. assert (0 <= ln y) by (rewrite <- ln_1; destruct Hy as [Hy| <-]; [left; apply ln_increasing; lra|apply Rle_refl]). nra. }
  change (0 < 8 / 10 * Rpower y (-1 / b) <= 8/10). assert (0 < Rpower y (-1 / b)) by apply exp_pos. lra.
Qed.
Lemma newton_factor8 t u h m k e0 qq th cc w z r : newton_from n F o t u h m k e0 qq th cc w z r ->
  match r with Failed _ _ factor _ => 0 < factor <= 8/10 | _ => True end.
Proof. intros H. induction H; try exact I; try assumption; [lra|]. eapply judge_factor8. eassumption. Qed.

(** One step, from one recorded point to the next. *)
Definition decays (h : R) (u u' : list R) : Prop :=
  mode n p q e u' <= (1 + / 10 ^ 13) * mode n p q e u /\
  h * sqrt (a ^ 2 + c ^ 2) * mode n p q e u' <= (6 + / 10 ^ 13 * (h * sqrt (a ^ 2 + c ^ 2))) * mode n p q e u.
Lemma grows_decays h hm u u' : 0 < h -> h <= 10001/10000 * hm -> grows (RtoC hm * mu)%C (dev u) (dev u') -> decays h u u'.
Proof.
  intros Hh Hhm (G1 & G2). rewrite !dev_mode in *. split; [exact G1|].
  set (X' := mode n p q e u') in *. set (X := mode n p q e u) in *.
  assert (0 <= X') by apply sqrt_pos. assert (0 <= X) by apply sqrt_pos.
  rewrite Cmod_mult, Cmod_R, Rabs_pos_eq in G2 by lra. change (Cmod mu) with (sqrt (a ^ 2 + c ^ 2)) in G2.
  set (M := sqrt (a ^ 2 + c ^ 2)) in *. assert (0 <= M) as HM by apply sqrt_pos.
  destruct (Req_dec M 0) as [E0|Hn]; [rewrite E0; lra|].
  assert (0 < h * M) as HhM by (apply Rmult_lt_0_compat; lra).
  assert (0 < hm * M) as HzM by (apply Rmult_lt_0_compat; lra).
  set (z := hm * M) in *. set (y := h * M) in *.
  assert (y <= 10001/10000 * z) as Hyz by (unfold y, z; replace (10001/10000 * (hm * M)) with (10001/10000 * hm * M) by ring; apply Rmult_le_compat_r; lra).
  apply Rmult_le_reg_l with z; [exact HzM|].
  apply Rmult_le_compat_l with (r := y) in G2; [|lra].
  assert (y * X <= 10001/10000 * z * X) by (apply Rmult_le_compat_r; lra).
  replace (z * (y * X')) with (y * (z * X')) by ring. eapply Rle_trans; [exact G2|].
  replace (y * ((5 + / 10 ^ 13 * z) * X)) with (5 * (y * X) + / 10 ^ 13 * (z * y * X)) by ring.
  replace (z * ((6 + / 10 ^ 13 * y) * X)) with (6 * (z * X) + / 10 ^ 13 * (z * y * X)) by ring.
  apply Rplus_le_compat_r. assert (0 <= z * X) by (apply Rmult_le_pos; lra). lra.
Qed.
Definition moved (x x' : rpilot) : Prop :=
  (p_code x' = RContinue -> btw x') /\ 0 < p_t x' - p_t x /\ decays (p_t x' - p_t x) (p_u x) (p_u x').
Definition stuck (x' : rpilot) : Prop := p_code x' <> RContinue /\ p_code x' <> RSuccess.
Lemma accept_moved x m z ee th k cc : inv x -> mok x m -> newton_result n F o x m (Converged k th cc z) ->
  forall k1 k2, moved x (accept n Jac o tf (x <| p_conv := cc |> <| p_stats; function_evals ::= k1 |> <| p_stats; linear_solves ::= k2 |>) m z ee th k).
Proof.
  intros V (M1 & M2 & M3 & M4) Hr k1 k2. pose proof (newton_grows x m _ _ _ _ (v_len x V) M1 M4 Hr) as G.
  pose proof (grows_decays (p_h x) (fst m) _ _ (v_h x V) M3 G) as D. pose proof (v_h x V) as Hh.
  unfold accept. cbv zeta. set (x0 := x <| p_conv := cc |> <| p_stats; function_evals ::= k1 |> <| p_stats; linear_solves ::= k2 |>).
  change (p_last x0) with (p_last x). change (p_t x0) with (p_t x). change (p_u x0) with (p_u x). change (p_h x0) with (p_h x).
  change (p_again x0) with (p_again x). change (p_jac x0) with (p_jac x).
  set (u' := vect n (fun i => comp (p_u x) i + comp (st3 z) i)) in *.
  destruct (p_last x) eqn:El.
  - split; [discriminate|]. cbn. replace (p_t x + p_h x - p_t x) with (p_h x) by ring. split; [exact Hh|exact D].
  - pose proof (v_in x V El) as Hlt.
    set (t' := p_t x + p_h x) in *.
    set (h1 := Rmin (p_h x / predicted o x0 ee k) (o_dtmax o)).
    set (h' := if p_again x then Rmin h1 (p_h x) else h1).
    set (jac := if Rlt_dec (o_theta o) th then Jac t' u' else p_jac x).
    assert (is_J jac) as Hj. { unfold jac. destruct (Rlt_dec _ _); [apply HJac; apply vect_length|apply (v_jac x V)]. }
    destruct Hsane as [Hs1 Hs2 Hf Hq Hd]. pose proof (predicted_facr o x0 ee k) as Hp.
    assert (0 < h1) as Hh1 by (unfold h1; apply Rmin_glb_lt; [apply Rdiv_lt_0_compat; lra|exact Hd]).
    assert (0 < h') as Hh' by (unfold h'; destruct (p_again x); [apply Rmin_glb_lt; lra|exact Hh1]).
    assert (forall x', p_t x' = t' -> p_u x' = u' -> (p_code x' = RContinue -> btw x') -> moved x x') as Hmv.
    { intros x' Et Eu Hb. split; [exact Hb|]. rewrite Et, Eu. unfold t'. replace (p_t x + p_h x - p_t x) with (p_h x) by ring. split; [exact Hh|exact D]. }
    destruct (Rle_dec tf (t' + h' / o_quot1 o)) as [Hle|Hgt].
    + apply Hmv; [reflexivity..|]. intros _. constructor; cbn; try assumption; try lra; try discriminate; try apply vect_length.
    + destruct (andb _ _) eqn:Ek.
      * apply Hmv; [reflexivity..|]. intros _. constructor; cbn; try assumption; try lra; try discriminate; try apply vect_length; try apply (v_jac x V).
        -- change (p_last x = true -> p_h x = tf - t'). rewrite El. discriminate.
        -- intros m' [= <-]. split; [now apply M2|exact M4].
      * apply Hmv; [reflexivity..|]. intros _. constructor; cbn; try assumption; try lra; try discriminate; try apply vect_length.
        change (p_last x = true -> h' = tf - t'). rewrite El. discriminate.
Qed.
Lemma attempt_moved x x' b : attempt n F Jac o tf x x' b -> inv x ->
  if b then moved x x' \/ stuck x' else inv x' /\ p_t x' = p_t x /\ p_u x' = p_u x.
Proof.
  intros At V. destruct At as [x' Hm|x' m Hm x2 _|x' m Hm x2 _ _|x' m k cc factor nj Hm x2 _ _ Hr|x' m k th cc z ee fe Hm x2 _ _ Hr He x3].
  - destruct (matrices_inv _ _ _ Hm V) as (V' & _ & _ & Hc). right. unfold stuck. rewrite Hc. now split.
  - right. now split.
  - right. now split.
  - destruct (matrices_inv _ _ _ Hm V) as (V' & Et & Eu & K).
    destruct Hr as (qq & Hr). pose proof (newton_factor8 _ _ _ _ _ _ _ _ _ _ _ _ Hr) as Hf. cbn in Hf.
    destruct V' as [V1 V2 V3 V4 V5 V6]. cbn in *.
    assert (0 < p_h x' * factor <= 8/10 * p_h x') as Hs by nra.
    split; [|split; [exact Et|exact Eu]]. constructor; cbn; try assumption; try lra; try discriminate.
    + destruct nj; [now apply HJac|assumption].
    + intros _. destruct (p_last x'); [specialize (V4 eq_refl); lra|specialize (V5 eq_refl); lra].
    + intros m' Em. destruct (V6 m' Em) as (A1 & A2 & A3 & A4). repeat split; try assumption; try lra.
  - destruct (matrices_inv _ _ _ Hm V) as (V' & Et & Eu & K).
    assert (inv x2) as V2 by (destruct V' as [V1 V2 V3 V4 V5 V6]; constructor; cbn; assumption).
    pose proof Hr as (qq & Hr0).
    pose proof (newton_passes _ _ _ _ _ _ _ _ _ _ _ _ _ _ _ Hr0) as (Hk & Hit).
    destruct (Rlt_dec ee 1) as [Hlt|Hge].
    + left. pose proof (accept_moved x2 m z ee th k cc V2 K Hr (fun c0 => (c0 + 3 * k + fe)%nat) (fun l => (l + k)%nat)) as A.
      destruct A as (A1 & A2 & A3). split; [exact A1|]. cbn [p_t p_u] in A2, A3.
      change (p_t x2) with (p_t x') in A2, A3. change (p_u x2) with (p_u x') in A3. rewrite <- Et, <- Eu. split; [exact A2|exact A3].
    + assert (inv x3) as V3 by (destruct V2 as [V1 V2 V3 V4 V5 V6]; constructor; cbn; assumption).
      pose proof (quotient_refuse o ee k Hsane ltac:(lra) Hk) as Hq.
      assert (0 < (if first_step x3 then p_h x3 / 10 else p_h x3 / quotient o ee k) < p_h x3) as Hs.
      { pose proof (v_h x3 V3) as Hh. destruct (first_step x3); [lra|]. split; [apply Rdiv_lt_0_compat; lra|].
        apply Rmult_lt_reg_r with (quotient o ee k); [lra|]. unfold Rdiv. rewrite Rmult_assoc, Rinv_l by lra. nra. }
      unfold refuse. set (h' := if first_step x3 then _ else _) in *. clearbody h'.
      destruct V3 as [W1 W2 W3 W4 W5 W6]. split; [|split; [exact Et|exact Eu]].
      assert (p_t x3 + h' < tf) as Hin by (destruct (p_last x3); [specialize (W4 eq_refl); lra|specialize (W5 eq_refl); lra]).
      constructor; cbn; try assumption; try lra; try discriminate.
      * now apply HJac.
      * intros _. exact Hin.
Qed.
Lemma attempts_moved x x' : attempts n F Jac o tf x x' -> inv x -> moved x x' \/ stuck x'.
Proof.
  induction 1 as [x x' At|x x1 x' At _ IH]; intros V; [exact (attempt_moved _ _ _ At V)|].
  destruct (attempt_moved _ _ _ At V) as (V1 & Et & Eu). specialize (IH V1). unfold moved in *. rewrite Et, Eu in IH. exact IH.
Qed.
Lemma step_moved x x' : rad_step n F Jac o tf x x' -> btw x -> moved x x' \/ stuck x'.
Proof.
  intros Hs B. pose proof (attempts_moved _ _ Hs (aimed_inv _ B)) as H. unfold moved in *.
  assert (p_t (aimed tf x) = p_t x /\ p_u (aimed tf x) = p_u x) as (Et & Eu) by (unfold aimed; now destruct (Rle_dec _ _)).
  rewrite Et, Eu in H. exact H.
Qed.
End Modes.
