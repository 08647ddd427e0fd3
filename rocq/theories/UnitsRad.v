(** The reference of SpecIRK.v, and with it every Radau5 run, does not depend on
    units and labels. *)
From Coq Require Import ZArith List Bool Lia Reals Lra.
From RecordUpdate Require Import RecordSet.
From Verif Require Import Arith Vec Core Driver Radau Spec ArithR SpecRK SpecODE SpecReach RKFacts SpecLin SpecRadau SpecStage SpecIRK
  SpecUnits RadauRef RadRefDet RadauStage Units.
Import ListNotations RecordSetNotations.
Local Open Scope R_scope.

Section Rad.
Context {inf : R} (n : nat) (sg si : nat -> nat) (c tau : R).
Hypothesis Hsg : renumbers n sg si.
Hypothesis Hc : c <> 0.
Hypothesis Htau : 0 < tau.
Context (F F' : R -> list R -> list R) (Jac Jac' : R -> list R -> list (list R)) (o : opts (RA inf)) (tf : R).
Definition convM (J : list (list R)) : list (list R) := map (fun i => vect n (fun j => entry J (sg i) (sg j) / tau)) (seq 0 n).
Hypothesis HF : same_ode n c tau sg F F'.
Hypothesis HJ : forall t u, length u = n -> Jac' (tau * t) (converted n c sg u) = convM (Jac t u).
Definition ropts_in : opts (RA inf) := o <| o_abstol := Rabs c * o_abstol o |> <| o_dtmax := tau * o_dtmax o |>.
Notation o' := ropts_in.
Notation conv := (converted n c sg).
Notation conv' := (converted n (c / tau) sg).
Definition conv3 (z : three) : three := mk3 (conv (st1 z)) (conv (st2 z)) (conv (st3 z)).
Definition convm (m : R * list (list R)) : R * list (list R) := (tau * fst m, convM (snd m)).

Lemma pick_conv z k : pick (conv3 z) k = conv (pick z k).
Proof. now destruct k as [|[|k]]. Qed.
Lemma vect_conv d g h : (forall i, (i < n)%nat -> h i = d * g (sg i)) -> vect n h = converted n d sg (vect n g).
Proof. intros H. rewrite (conv_vect n sg si Hsg). now apply vect_ext. Qed.
Lemma stages_conv g h : (forall k i, (i < n)%nat -> h k i = c * g k (sg i)) -> stages n h = conv3 (stages n g).
Proof. intros H. unfold stages, conv3. cbn. f_equal; apply vect_conv; auto. Qed.
Lemma mixed_conv M z k i : (i < n)%nat -> mixed M (conv3 z) k i = c * mixed M z k (sg i).
Proof.
  intros Hi. unfold mixed. rewrite <- rsum_scale. apply rsum_ext. intros l _. rewrite pick_conv, (conv_comp n sg) by exact Hi. ring.
Qed.
Lemma entry_conv J i j : (i < n)%nat -> (j < n)%nat -> entry (convM J) i j = entry J (sg i) (sg j) / tau.
Proof. intros Hi Hj. exact (entry_vect n (fun i j => entry J (sg i) (sg j) / tau) i j Hi Hj). Qed.
Lemma Jsum_conv J d i : (i < n)%nat ->
  rsum n (fun j => entry (convM J) i j * comp (conv d) j) = c / tau * rsum n (fun j => entry J (sg i) j * comp d j).
Proof.
  intros Hi. rewrite <- (rsum_sg n sg si Hsg (fun j => entry J (sg i) j * comp d j)), <- rsum_scale. apply rsum_ext.
  intros j Hj. rewrite entry_conv, (conv_comp n sg) by assumption. field. lra.
Qed.

(** *** Regular matrices *)
Definition back (x : list R) : list R := vect n (fun i => comp x (si i)).
Lemma back_comp x i : (i < n)%nat -> comp (back x) (sg i) = comp x i.
Proof. intros Hi. unfold back. rewrite comp_vect by (now apply (sg_lt n sg si)). f_equal. now apply Hsg. Qed.
Lemma back_sum J x i : (i < n)%nat ->
  rsum n (fun j => entry J (sg i) j * comp (back x) j) = tau * rsum n (fun j => entry (convM J) i j * comp x j).
Proof.
  intros Hi. rewrite <- (rsum_sg n sg si Hsg (fun j => entry J (sg i) j * comp (back x) j)), <- rsum_scale. apply rsum_ext.
  intros j Hj. rewrite entry_conv, back_comp by assumption. field. lra.
Qed.
Lemma all_sg (Q : nat -> Prop) : (forall i, (i < n)%nat -> Q (sg i)) -> forall i, (i < n)%nat -> Q i.
Proof. intros H i Hi. destruct (Hsg i Hi) as (_ & L & _ & E). rewrite <- E. now apply H. Qed.
Lemma regular_conv h J : regular n (tau * h) (convM J) <-> regular n h J.
Proof.
  assert (forall g, g / (tau * h) = / tau * (g / h)) as Eg by (intros g; unfold Rdiv; rewrite Rinv_mult; ring).
  assert (singular_matrix n (shifted n (radau_gamma / (tau * h)) (convM J)) <-> singular_matrix n (shifted n (radau_gamma / h) J)) as H1.
  { split.
    - intros (x & (i & Hi & Hx) & Hl & He). exists (back x). split.
      + exists (sg i). split; [now apply (sg_lt n sg si)|]. now rewrite back_comp.
      + split; [apply vect_length|]. apply all_sg. intros k Hk. specialize (He k Hk).
        rewrite RadRefDet.comp_zeros in He. rewrite RadRefDet.comp_zeros. rewrite shifted_sum in He by exact Hk. rewrite shifted_sum by (now apply (sg_lt n sg si)).
        rewrite back_sum, back_comp by exact Hk. rewrite Eg in He. apply (Rmult_eq_reg_l (/ tau)); [|apply Rinv_neq_0_compat; lra].
        rewrite Rmult_0_r, <- He. generalize (radau_gamma / h). intros g. field. lra.
    - intros (x & (i & Hi & Hx) & Hl & He). exists (conv x). split.
      + exists (si i). destruct (Hsg i Hi) as (_ & L & _ & E). split; [exact L|]. rewrite (conv_comp n sg) by exact L. rewrite E. now apply Rmult_integral_contrapositive_currified.
      + split; [apply conv_length|]. intros k Hk. rewrite RadRefDet.comp_zeros. rewrite shifted_sum by exact Hk. rewrite Jsum_conv, (conv_comp n sg), Eg by exact Hk.
        specialize (He (sg k) (sg_lt n sg si Hsg k Hk)). rewrite RadRefDet.comp_zeros, shifted_sum in He by (now apply (sg_lt n sg si)).
        transitivity (c / tau * (radau_gamma / h * comp x (sg k) - rsum n (fun j => entry J (sg k) j * comp x j))); [unfold Rdiv; ring|]. rewrite He. ring. }
  assert (forall al be x y i, (i < n)%nat -> forall J,
     rsum n (fun j => entry (shifted n al J) i j * comp x j - entry (diagonal n be) i j * comp y j)
     = al * comp x i - rsum n (fun j => entry J i j * comp x j) - be * comp y i) as S1.
  { intros al be x y i Hi J0. now rewrite rsum_minus, shifted_sum, diagonal_sum. }
  assert (forall al be x y i, (i < n)%nat -> forall J,
     rsum n (fun j => entry (shifted n al J) i j * comp y j + entry (diagonal n be) i j * comp x j)
     = al * comp y i - rsum n (fun j => entry J i j * comp y j) + be * comp x i) as S2.
  { intros al be x y i Hi J0. now rewrite rsum_plus, shifted_sum, diagonal_sum. }
  assert (csingular_matrix n (shifted n (rad_alpha / (tau * h)) (convM J)) (diagonal n (rad_beta / (tau * h)))
      <-> csingular_matrix n (shifted n (rad_alpha / h) J) (diagonal n (rad_beta / h))) as H2.
  { split.
    - intros (x & y & (i & Hi & Hx) & Hl & Hl' & He). exists (back x), (back y). split.
      + exists (sg i). split; [now apply (sg_lt n sg si)|]. now rewrite !back_comp.
      + split; [apply vect_length|]. split; [apply vect_length|]. apply all_sg. intros k Hk. specialize (He k Hk).
        rewrite RadRefDet.comp_zeros, S1, S2 in He by exact Hk. rewrite RadRefDet.comp_zeros, S1, S2 by (now apply (sg_lt n sg si)).
        rewrite !back_sum, !back_comp by exact Hk. rewrite !Eg in He. destruct He as (E1 & E2).
        assert (/ tau <> 0) by (apply Rinv_neq_0_compat; lra).
        split; apply (Rmult_eq_reg_l (/ tau)); try assumption; rewrite Rmult_0_r; [rewrite <- E1|rewrite <- E2]; generalize (rad_alpha / h) (rad_beta / h); intros ga gb; field; lra.
    - intros (x & y & (i & Hi & Hx) & Hl & Hl' & He). exists (conv x), (conv y). split.
      + exists (si i). destruct (Hsg i Hi) as (_ & L & _ & E). split; [exact L|]. rewrite !(conv_comp n sg) by exact L. rewrite E. destruct Hx as [Hx|Hx]; [left|right]; now apply Rmult_integral_contrapositive_currified.
      + split; [apply conv_length|]. split; [apply conv_length|]. intros k Hk. rewrite RadRefDet.comp_zeros. rewrite S1, S2 by exact Hk.
        rewrite !Jsum_conv, !(conv_comp n sg), !Eg by exact Hk.
        specialize (He (sg k) (sg_lt n sg si Hsg k Hk)). rewrite RadRefDet.comp_zeros, S1, S2 in He by (now apply (sg_lt n sg si)). destruct He as (E1 & E2).
        split.
        * transitivity (c / tau * (rad_alpha / h * comp x (sg k) - rsum n (fun j => entry J (sg k) j * comp x j) - rad_beta / h * comp y (sg k))); [unfold Rdiv; ring|]. rewrite E1. ring.
        * transitivity (c / tau * (rad_alpha / h * comp y (sg k) - rsum n (fun j => entry J (sg k) j * comp y j) + rad_beta / h * comp x (sg k))); [unfold Rdiv; ring|]. rewrite E2. ring. }
  unfold regular. now rewrite H1, H2.
Qed.

(** *** Newton iteration *)
Lemma F_conv t h r u z : 
  F' (tau * t + r * (tau * h)) (vect n (fun i => comp (conv u) i + comp (conv z) i)) = conv' (F (t + r * h) (vect n (fun i => comp u i + comp z i))).
Proof.
  rewrite (vect_conv c (fun i => comp u i + comp z i)) by (intros i Hi; rewrite !(conv_comp n sg) by exact Hi; ring).
  replace (tau * t + r * (tau * h)) with (tau * (t + r * h)) by ring. apply HF, vect_length.
Qed.
Lemma mixed_conv' M f1 f2 f3 k i : (i < n)%nat ->
  mixed M (mk3 (conv' f1) (conv' f2) (conv' f3)) k i = c / tau * mixed M (mk3 f1 f2 f3) k (sg i).
Proof.
  intros Hi. unfold mixed. rewrite <- rsum_scale. apply rsum_ext. intros l _.
  destruct l as [|[|l]]; cbn [pick st1 st2 st3]; rewrite (conv_comp n sg) by exact Hi; ring.
Qed.
Lemma increment_conv t u h m w z d : increment n F t u h m w z d ->
  increment n F' (tau * t) (conv u) (tau * h) (convm m) (conv3 w) (conv3 z) (conv3 d).
Proof.
  intros (Hl & He). split; [intros k; rewrite pick_conv; apply conv_length|].
  intros i Hi. specialize (He (sg i) (sg_lt n sg si Hsg i Hi)). cbv zeta in *.
  cbn [conv3 st1 st2 st3 convm fst snd]. rewrite !F_conv, !Jsum_conv, !mixed_conv' by exact Hi.
  destruct He as (E1 & E2 & E3). rewrite <- E1, <- E2, <- E3. cbn [pick conv3 st1 st2 st3].
  rewrite !(conv_comp n sg) by exact Hi.
  assert (forall a b, (c * a + c * b) / (tau * fst m) = c / tau * ((a + b) / fst m)) as Q
    by (intros a b; rewrite <- Rmult_plus_distr_l; apply div_scale2).
  rewrite !Q. repeat split; ring.
Qed.
Lemma weight_conv u i : (i < n)%nat -> weight o' (conv u) i = Rabs c * weight o u (sg i).
Proof.
  intros Hi. unfold weight. rewrite (conv_comp n sg), Rabs_mult by assumption. change (rtol o') with (rtol o).
  replace (atol o') with (Rabs c * atol o); [ring|]. unfold atol, radau_atol, ropts_in. cbn. unfold Rdiv. ring.
Qed.
Lemma norm_conv u d : increment_norm n o' (conv u) (conv3 d) = increment_norm n o u d.
Proof.
  unfold increment_norm. f_equal. f_equal.
  rewrite <- (rsum_sg n sg si Hsg (fun i => (comp (st1 d) i / weight o u i) ^ 2 + (comp (st2 d) i / weight o u i) ^ 2
                         + (comp (st3 d) i / weight o u i) ^ 2)).
  apply rsum_ext. intros i Hi. cbn [conv3 st1 st2 st3]. rewrite weight_conv, !(conv_comp n sg), !sq_scale by assumption. reflexivity.
Qed.
Definition convr (r : result) : result :=
  match r with Converged k th q z => Converged k th q (conv3 z) | Failed k q f b => Failed k q f b end.
Lemma sum3_conv w d : stages n (fun k i => comp (pick (conv3 w) k) i + comp (pick (conv3 d) k) i)
  = conv3 (stages n (fun k i => comp (pick w k) i + comp (pick d k) i)).
Proof. apply stages_conv. intros k i Hi. rewrite !pick_conv, !(conv_comp n sg) by exact Hi. ring. Qed.
Lemma mix3_conv M z : stages n (mixed M (conv3 z)) = conv3 (stages n (mixed M z)).
Proof. apply stages_conv. intros k i Hi. now apply mixed_conv. Qed.
Lemma newton_conv t u h m k e0 q th a w z r : newton_from n F o t u h m k e0 q th a w z r ->
  newton_from n F' o' (tau * t) (conv u) (tau * h) (convm m) k e0 q th a (conv3 w) (conv3 z) (convr r).
Proof.
  induction 1 as [k e0 q th a w z Hk|k e0 q th a w z d a' f b Hk Hd Hj|k e0 q th a w z d q' th' a' Hk Hd Hj Hn|k e0 q th a w z d q' th' a' r Hk Hd Hj Hn Hr IH].
  - apply nf_limit. exact Hk.
  - eapply nf_stop; [exact Hk|apply increment_conv; exact Hd|]. rewrite norm_conv. exact Hj.
  - cbn [convr]. rewrite <- mix3_conv, <- sum3_conv. eapply nf_done; [exact Hk|apply increment_conv; exact Hd| |].
    + rewrite norm_conv. exact Hj.
    + rewrite norm_conv. exact Hn.
  - cbv zeta in IH. eapply nf_more; [exact Hk|apply increment_conv; exact Hd| | |].
    + rewrite norm_conv. exact Hj.
    + rewrite norm_conv. exact Hn.
    + cbv zeta. rewrite sum3_conv, mix3_conv, norm_conv. exact IH.
Qed.

(** *** States *)
Definition rimage (x : rpilot) : rpilot := {|
  p_t := tau * p_t x; p_u := conv (p_u x); p_h := tau * p_h x; p_jac := convM (p_jac x);
  p_mat := match p_mat x with Some m => Some (convm m) | None => None end;
  p_last := p_last x; p_again := p_again x; p_conv := p_conv x; p_hprev := tau * p_hprev x;
  p_z := if first_step x then p_z x else conv3 (p_z x);
  p_hacc := tau * p_hacc x; p_eacc := p_eacc x; p_hopt := tau * p_hopt x; p_singular := p_singular x;
  p_stats := p_stats x; p_code := p_code x |}.

Lemma colloc_conv z i th : (i < n)%nat -> colloc (conv3 z) i th = c * colloc z (sg i) th.
Proof. intros Hi. unfold colloc. cbv zeta. cbn [conv3 st1 st2 st3]. rewrite !(conv_comp n sg) by exact Hi. ring. Qed.
Lemma guess_conv x : guess n o' (rimage x) = conv3 (guess n o x).
Proof.
  unfold guess. change (first_step (rimage x)) with (first_step x). change (o_use_ext_col o') with (o_use_ext_col o).
  destruct (first_step x) eqn:E; cbn [orb].
  - apply stages_conv. intros. ring.
  - destruct (negb (o_use_ext_col o)); apply stages_conv; [intros; ring|]. intros k i Hi. cbn [rimage p_z p_h p_hprev]. rewrite E.
    rewrite colloc_conv by exact Hi. cbn [conv3 st3]. rewrite (conv_comp n sg), div_scale by (exact Hi || lra). ring.
Qed.
Lemma nresult_conv x m r : newton_result n F o x m r -> newton_result n F' o' (rimage x) (convm m) (convr r).
Proof.
  intros (q & H). exists q. apply newton_conv in H. rewrite guess_conv, mix3_conv. exact H.
Qed.
Lemma filtered_conv J h dt z g g' v : filtered_estimate n J h dt z g v -> (forall i, (i < n)%nat -> g' i = c / tau * g (sg i)) ->
  filtered_estimate n (convM J) (tau * h) (tau * dt) (fun k => conv (z k)) g' (conv v).
Proof.
  intros (Hl & He) Hg. split; [apply conv_length|]. intros i Hi. specialize (He (sg i) (sg_lt n sg si Hsg i Hi)).
  rewrite Jsum_conv, !(conv_comp n sg), Hg by exact Hi.
  transitivity (c / tau * (radau_gamma / h * comp v (sg i) - rsum n (fun j => entry J (sg i) j * comp v j))).
  - unfold Rdiv. rewrite Rinv_mult. ring.
  - rewrite He. unfold Rdiv. rewrite Rinv_mult. ring.
Qed.
Lemma tolrms_conv u v : tol_rms n (atol o') (rtol o') (conv u) (conv v) = tol_rms n (atol o) (rtol o) u v.
Proof.
  unfold tol_rms. f_equal. f_equal. rewrite <- (rsum_sg n sg si Hsg (fun i => (comp v i / (atol o + rtol o * Rabs (comp u i))) ^ 2)).
  apply rsum_ext. intros i Hi. change (atol o' + rtol o' * Rabs (comp (conv u) i)) with (weight o' (conv u) i).
  rewrite weight_conv, (conv_comp n sg), sq_scale by assumption. reflexivity.
Qed.
Lemma filtered_pick J h dt z g v : filtered_estimate n J h dt (fun k => conv (pick z k)) g v -> filtered_estimate n J h dt (pick (conv3 z)) g v.
Proof. intros H. exact H. Qed.
Lemma estimate_conv x m z e k : length (p_u x) = n -> estimate n F o x m z e k ->
  estimate n F' o' (rimage x) (convm m) (conv3 z) e k.
Proof.
  intros Hu (v & Hv & H). exists (conv v). cbv zeta. cbn [rimage p_t p_u p_h p_again convm fst snd].
  change (first_step (rimage x)) with (first_step x). rewrite tolrms_conv. split.
  - apply filtered_pick. eapply filtered_conv; [exact Hv|]. intros i Hi. rewrite HF by exact Hu. now rewrite (conv_comp n sg).
  - destruct (Rlt_dec _ 1); [exact H|]. destruct (first_step x || p_again x); [|exact H].
    destruct H as (v' & Hv' & -> & ->). exists (conv v'). rewrite tolrms_conv. split; [|auto].
    apply filtered_pick. eapply filtered_conv; [exact Hv'|]. intros i Hi.
    rewrite (vect_conv c (fun i => comp (p_u x) i + comp v i)) by (intros j Hj; rewrite !(conv_comp n sg) by exact Hj; ring).
    rewrite HF by apply vect_length. now rewrite (conv_comp n sg).
Qed.
Lemma predicted_conv x e k : predicted o' (rimage x) e k = predicted o x e k.
Proof.
  unfold predicted. cbn [rimage p_hacc p_h p_eacc]. rewrite div_scale by lra. reflexivity.
Qed.

(** Equality of two states from equality of their fields. *)
Lemma rp_eq (x y : rpilot) : p_t x = p_t y -> p_u x = p_u y -> p_h x = p_h y -> p_jac x = p_jac y -> p_mat x = p_mat y ->
  p_last x = p_last y -> p_again x = p_again y -> p_conv x = p_conv y -> p_hprev x = p_hprev y -> p_z x = p_z y ->
  p_hacc x = p_hacc y -> p_eacc x = p_eacc y -> p_hopt x = p_hopt y -> p_singular x = p_singular y ->
  p_stats x = p_stats y -> p_code x = p_code y -> x = y.
Proof. destruct x, y; cbn; intros; subst; reflexivity. Qed.
Lemma Rle_dec_scale {X} a b (p q : X) : (if Rle_dec (tau * a) (tau * b) then p else q) = if Rle_dec a b then p else q.
Proof. destruct (Rle_dec (tau * a) (tau * b)), (Rle_dec a b); try reflexivity; exfalso; nra. Qed.

Lemma accept_conv x m z e th k : length (p_u x) = n ->
  rimage (accept n Jac o tf x m z e th k) = accept n Jac' o' (tau * tf) (rimage x) (convm m) (conv3 z) e th k.
Proof.
  intros Hu. unfold accept. cbv zeta. rewrite predicted_conv.
  change (p_last (rimage x)) with (p_last x). change (p_again (rimage x)) with (p_again x).
  change (p_t (rimage x)) with (tau * p_t x). change (p_h (rimage x)) with (tau * p_h x).
  change (p_u (rimage x)) with (conv (p_u x)). change (o_dtmax o') with (tau * o_dtmax o).
  change (o_quot1 o') with (o_quot1 o). change (o_quot2 o') with (o_quot2 o). change (o_theta o') with (o_theta o).
  replace (tau * p_t x + tau * p_h x) with (tau * (p_t x + p_h x)) by ring.
  replace (tau * p_h x / predicted o x e k) with (tau * (p_h x / predicted o x e k)) by (unfold Rdiv; ring).
  rewrite !Rmin_scale by exact Htau.
  set (h1 := Rmin (p_h x / predicted o x e k) (o_dtmax o)).
  replace (if p_again x then tau * Rmin h1 (p_h x) else tau * h1) with (tau * (if p_again x then Rmin h1 (p_h x) else h1)) by (now destruct (p_again x)).
  set (h' := if p_again x then Rmin h1 (p_h x) else h1).
  assert (vect n (fun i => comp (conv (p_u x)) i + comp (st3 (conv3 z)) i) = conv (vect n (fun i => comp (p_u x) i + comp (st3 z) i))) as EV.
  { apply vect_conv. intros i Hi. cbn [conv3 st3]. rewrite !(conv_comp n sg) by exact Hi. ring. }
  rewrite EV. rewrite HJ by apply vect_length.
  replace (tau * (p_t x + p_h x) + tau * h' / o_quot1 o) with (tau * (p_t x + p_h x + h' / o_quot1 o)) by (unfold Rdiv; ring).
  rewrite Rle_dec_scale, div_scale by lra.
  destruct (p_last x) eqn:El.
  - apply rp_eq; try reflexivity; cbn; try (destruct (o_modern_pred o); reflexivity).
  - destruct (Rle_dec tf _).
    + apply rp_eq; try reflexivity; cbn; try (destruct (o_modern_pred o); reflexivity); try ring.
      destruct (Rlt_dec (o_theta o) th); reflexivity.
    + destruct (Rleb th (o_theta o) && Rleb (o_quot1 o) (h' / p_h x) && Rleb (h' / p_h x) (o_quot2 o)).
      * apply rp_eq; try reflexivity; cbn; try (destruct (o_modern_pred o); reflexivity).
      * apply rp_eq; try reflexivity; cbn; try (destruct (o_modern_pred o); reflexivity).
        destruct (Rlt_dec (o_theta o) th); reflexivity.
Qed.
Lemma refuse_conv x e k : length (p_u x) = n -> rimage (refuse Jac o x e k) = refuse Jac' o' (rimage x) e k.
Proof.
  intros Hu. unfold refuse. change (first_step (rimage x)) with (first_step x). change (quotient o' e k) with (quotient o e k).
  apply rp_eq; try reflexivity; cbn.
  - destruct (first_step x); unfold Rdiv; ring.
  - now rewrite HJ.
Qed.

(** *** Attempts and runs *)
Lemma matrices_point x y r : matrices n Jac x y r -> p_u y = p_u x.
Proof. induction 1; [reflexivity..|]. exact IHmatrices. Qed.
Lemma matrices_conv x y r : length (p_u x) = n -> matrices n Jac x y r ->
  matrices n Jac' (rimage x) (rimage y) (match r with Some m => Some (convm m) | None => None end).
Proof.
  intros Hu. induction 1 as [x m Hm|x Hm Hr|x Hm Hr Hs|x y r Hm Hr Hs Hy IH].
  - apply mat_kept. cbn. now rewrite Hm.
  - assert (p_mat (rimage x) = None) as Hm' by (cbn; now rewrite Hm).
    replace (rimage (x <| p_stats; decompositions ::= S |>)) with (rimage x <| p_stats; decompositions ::= S |>)
      by (apply rp_eq; reflexivity).
    apply (mat_new n Jac' (rimage x) Hm'). cbn. now apply regular_conv.
  - replace (rimage (x <| p_singular ::= S |> <| p_code := RSingularMatrix |>)) with (rimage x <| p_singular ::= S |> <| p_code := RSingularMatrix |>)
      by (apply rp_eq; reflexivity).
    apply mat_end; [cbn; now rewrite Hm| |exact Hs]. cbn. now rewrite regular_conv.
  - apply mat_halve; [cbn; now rewrite Hm|cbn; now rewrite regular_conv|exact Hs|].
    specialize (IH Hu).
    match type of IH with matrices _ _ ?a _ _ => match goal with |- matrices _ _ ?b _ _ => replace b with a; [exact IH|] end end.
    apply rp_eq; try reflexivity; cbn.
    + unfold Rdiv. ring.
    + now rewrite HJ.
Qed.
Lemma tiny_conv x : tiny (rimage x) <-> tiny x.
Proof.
  unfold tiny. cbn [rimage p_t p_h]. rewrite Rabs_scale by exact Htau.
  pose proof (Rinv_0_lt_compat (IZR (2 ^ 52)) ltac:(apply IZR_lt; reflexivity)). split; intros H0; nra.
Qed.
Lemma attempt_length x y b : length (p_u x) = n -> attempt n F Jac o tf x y b -> length (p_u y) = n.
Proof.
  intros Hu H. destruct H as [y H|y m H y0 _|y m H y0 _ _|y m k a f b H y0 _ _ _|y m k th a z e f H y0 _ _ _ _ y1];
    apply matrices_point in H; try (cbn; now rewrite H).
  destruct (Rlt_dec e 1); [|cbn; now rewrite H].
  unfold accept. cbv zeta. destruct (p_last y1); [cbn; apply vect_length|].
  destruct (Rle_dec tf _); [cbn; apply vect_length|].
  destruct (_ && _); cbn; apply vect_length.
Qed.
Lemma attempt_conv x y b : length (p_u x) = n -> attempt n F Jac o tf x y b ->
  attempt n F' Jac' o' (tau * tf) (rimage x) (rimage y) b.
Proof.
  intros Hu H. destruct H as [y H|y m H y0 Hs|y m H y0 Hs Ht|y m k a f b H y0 Hs Ht Hn|y m k th a z e f H y0 Hs Ht Hn He y1];
    pose proof (matrices_point _ _ _ H) as Eu; apply matrices_conv in H; try exact Hu; cbn [fst snd] in H.
  - now apply at_singular.
  - exact (at_budget n F' Jac' o' (tau * tf) (rimage x) (rimage y) (convm m) H Hs).
  - refine (at_tiny n F' Jac' o' (tau * tf) (rimage x) (rimage y) (convm m) H Hs _). apply (tiny_conv y0). exact Ht.
  - pose proof (at_newton n F' Jac' o' (tau * tf) (rimage x) (rimage y) (convm m) k a f b H Hs) as Q.
    cbv zeta in Q. specialize (Q (fun t => Ht (proj1 (tiny_conv y0) t)) (nresult_conv y0 m _ Hn)).
    match goal with |- attempt _ _ _ _ _ _ ?p _ => match type of Q with attempt _ _ _ _ _ _ ?q _ => replace p with q; [exact Q|] end end.
    clear Q. apply rp_eq; try reflexivity; cbn.
    + ring.
    + destruct b; [rewrite HJ by (rewrite Eu; exact Hu)|]; reflexivity.
  - assert (length (p_u y0) = n) as Hu0 by (cbn; now rewrite Eu).
    pose proof (at_error n F' Jac' o' (tau * tf) (rimage x) (rimage y) (convm m) k th a (conv3 z) e f H Hs) as Q.
    cbv zeta in Q. specialize (Q (fun t => Ht (proj1 (tiny_conv y0) t)) (nresult_conv y0 m _ Hn) (estimate_conv y0 m z e f Hu0 He)).
    assert (length (p_u y1) = n) as Hu1 by exact Hu0.
    match goal with |- attempt _ _ _ _ _ _ ?p _ => match type of Q with attempt _ _ _ _ _ _ ?q _ => replace p with q; [exact Q|] end end.
    clear Q. destruct (Rlt_dec e 1).
    + rewrite accept_conv by exact Hu1. reflexivity.
    + rewrite refuse_conv by exact Hu1. reflexivity.
Qed.
Lemma attempts_conv x y : attempts n F Jac o tf x y -> length (p_u x) = n ->
  length (p_u y) = n /\ attempts n F' Jac' o' (tau * tf) (rimage x) (rimage y).
Proof.
  induction 1 as [x y H|x y z H Hy IH]; intros Hu.
  - split; [now apply attempt_length in H|]. apply att_over. now apply attempt_conv.
  - destruct IH as (H1 & H2); [now apply attempt_length in H|]. split; [exact H1|].
    eapply att_again; [now apply attempt_conv; [exact Hu|exact H]|exact H2].
Qed.
Lemma aimed_conv x : rimage (aimed tf x) = aimed (tau * tf) (rimage x).
Proof.
  unfold aimed. cbn [rimage p_t p_h].
  replace (tau * p_t x + tau * p_h x * (10001/10000)) with (tau * (p_t x + p_h x * (10001/10000))) by ring.
  rewrite Rle_dec_scale. destruct (Rle_dec tf _); [|reflexivity]. apply rp_eq; try reflexivity. cbn. ring.
Qed.
Lemma aimed_length x : p_u (aimed tf x) = p_u x.
Proof. unfold aimed. now destruct (Rle_dec tf _). Qed.
Lemma rrun_conv k x y : length (p_u x) = n -> rad_run n F Jac o tf k x y ->
  length (p_u y) = n /\ rad_run n F' Jac' o' (tau * tf) k (rimage x) (rimage y).
Proof.
  intros Hu. induction 1 as [x|k x y z Hy IH Hcy Hz]; [split; [exact Hu|constructor]|].
  destruct (IH Hu) as (H1 & H2). apply attempts_conv in Hz as (H3 & H4); [|now rewrite aimed_length].
  split; [exact H3|]. eapply rad_run_S; [exact H2|exact Hcy|]. unfold rad_step. rewrite <- aimed_conv. exact H4.
Qed.
Lemma start_conv t0 u0 h0 : length u0 = n ->
  rimage (rad_start Jac t0 u0 h0) = rad_start Jac' (tau * t0) (conv u0) (tau * h0).
Proof. intros Hu. apply rp_eq; try reflexivity; cbn; [now rewrite HJ|ring]. Qed.
End Rad.

Lemma the_jacobian_conv {P P'} inf n sg si c tau (f : rhs (RA inf) P) g p (f' : rhs (RA inf) P') g' p' :
  renumbers n sg si -> same_jacobian n c tau sg (the_jacobian f g p) (the_jacobian f' g' p') ->
  forall t u, length u = n -> the_jacobian f' g' p' (tau * t) (converted n c sg u) = convM n sg tau (the_jacobian f g p t u).
Proof.
  intros Hsg H t u Hu. unfold convM.
  assert (forall i j, (i < n)%nat -> (j < n)%nat ->
    entry (the_jacobian f' g' p' (tau * t) (converted n c sg u)) i j = entry (the_jacobian f g p t u) (sg i) (sg j) / tau) as E
    by (intros i j Hi Hj; now apply H).
  revert E. unfold the_jacobian at 1 3. rewrite (conv_length n). intros E.
  apply map_ext_in. intros i Hi. apply in_seq in Hi. apply vect_ext. intros j Hj.
  rewrite <- (E i j) by (assumption || lia). symmetry. exact (entry_vect n _ i j ltac:(lia) Hj).
Qed.

Theorem radau_units {P P'} inf (b : builder (RA inf) P) (b' : builder (RA inf) P') sg si c tau :
  let n := length (b_u b) in
  let Jac := the_jacobian (b_dudt b) (b_dfdu b) (b_params b) in
  let Jac' := the_jacobian (b_dudt b') (b_dfdu b') (b_params b') in
  renumbers n sg si -> c <> 0 -> 0 < tau -> same_problem_in c tau sg b b' -> same_jacobian n c tau sg Jac Jac' ->
  overwrites (b_dudt b) -> overwrites (b_dudt b') -> jac_overwrites (b_dfdu b) -> jac_overwrites (b_dfdu b') -> b_u b <> [] ->
  0 < o_reltol (b_opts b) -> 0 < o_abstol (b_opts b) -> radau_sane (b_opts b) ->
  (forall h t u, 0 < h -> length u = n -> ~ blind n h (Jac t u) /\ ~ blind n h (Jac' t u)) ->
  0 < b_dt b -> b_t b < b_tfinal b ->
  forall fuel k s0 s s0', build (@Radau5 _ _) b = Ok s0 -> build (@Radau5 _ _) b' = Ok s0' ->
  reached (@Radau5 _ _) None fuel k s0 s ->
  forall fuel', (o_max_steps (b_opts b) + o_max_newt_iter (b_opts b) + 5 <= fuel')%nat ->
  exists s', reached (@Radau5 _ _) None fuel' k s0' s' /\ same_view n c tau sg s s' /\ i_stats s' = i_stats s.
Proof.
  intros n Jac Jac' Hsg Hc Htau [Hode Hu Ht Htf Hdt Ho] HJ Hw Hw' Hj Hj' Hne Hr Ha Hso Hbl Hd Hlt fuel k s0 s s0' Hb Hb' Hre fuel' Hfuel.
  destruct (radau_reference inf b Hw Hj Hne Hr Ha Hso) with (fuel := fuel) (k := k) (s0 := s0) (s := s)
    as (x & Hx & (S1 & S2 & S3 & S4 & S5)); try assumption.
  { intros h t u Hh Hl. exact (proj1 (Hbl h t u Hh Hl)). }
  fold n Jac in Hx.
  pose proof (the_jacobian_conv inf n sg si c tau (b_dudt b) (b_dfdu b) (b_params b) (b_dudt b') (b_dfdu b') (b_params b') Hsg HJ) as HJe.
  fold Jac Jac' in HJe.
  destruct (rrun_conv n sg si c tau Hsg Hc Htau _ _ Jac Jac' (b_opts b) (b_tfinal b) Hode HJe k (rad_start Jac (b_t b) (b_u b) (b_dt b)) x eq_refl Hx) as (_ & Hy).
  rewrite (start_conv n sg c tau Jac Jac' HJe) in Hy by reflexivity.
  unfold ropts_in in Hy. rewrite <- Ho, <- Htf, <- Ht, <- Hdt in Hy. unfold n in Hy at 2. rewrite <- Hu in Hy.
  assert (length (b_u b') = n) as Hn by (rewrite Hu; apply conv_length).
  assert (radau_sane (b_opts b')) as Hso'.
  { rewrite Ho. destruct Hso as [q1 q2 q3 q4 q5]. constructor; cbn; try assumption. now apply Rmult_lt_0_compat. }
  destruct (radau_reference_complete b' Hw' Hj') with (k := k) (s0 := s0') (x := rimage n sg c tau x) (fuel := fuel')
    as (s' & Hre' & (T1 & T2 & T3 & T4 & T5)); try assumption.
  - intros E. rewrite E in Hn. destruct (b_u b); [now apply Hne|discriminate].
  - rewrite Ho. exact Hr.
  - rewrite Ho. cbn. apply Rmult_lt_0_compat; [now apply Rabs_pos_lt|exact Ha].
  - intros h t u Hh Hl. rewrite Hn in *. exact (proj2 (Hbl h t u Hh Hl)).
  - rewrite Hdt. now apply Rmult_lt_0_compat.
  - rewrite Ht, Htf. now apply Rmult_lt_compat_l.
  - rewrite Hn. exact Hy.
  - rewrite Ho. exact Hfuel.
  - exists s'. split; [exact Hre'|].
    assert (i_stats s' = i_stats s) as ES by exact (eq_trans T4 (eq_sym S4)).
    split; [|exact ES].
    split; [exact (eq_trans T1 (f_equal (Rmult tau) (eq_sym S1)))|].
    split; [exact (eq_trans T2 (f_equal (converted n c sg) (eq_sym S2)))|].
    split; [exact (eq_trans T3 (f_equal (Rmult tau) (eq_sym S3)))|].
    split; [exact (f_equal accepts ES)|]. split; [exact (f_equal rejects ES)|exact (eq_trans T5 (eq_sym S5))].
Qed.

(** Forward differences know the unit of time and the labels, but not the unit
    of the state. *)
Lemma fd_same_jacobian {P P'} inf n sg si tau (f : rhs (RA inf) P) p (f' : rhs (RA inf) P') p' :
  renumbers n sg si -> 0 < tau -> same_ode n 1 tau sg (ode f p) (ode f' p') ->
  same_jacobian n 1 tau sg (the_jacobian f None p) (the_jacobian f' None p').
Proof.
  intros Hsg Htau HF t u i j Hu Hi Hj. unfold the_jacobian. rewrite (conv_length n), Hu.
  rewrite !entry_vect by (try apply (sg_lt n sg si Hsg); assumption).
  rewrite (conv_comp n sg), Rmult_1_l by exact Hj. set (d := fd_step (comp u (sg j))).
  rewrite (vect_conv n sg si Hsg 1 (fun l => comp u l + (if Nat.eqb l (sg j) then d else 0))).
  - rewrite !HF by (apply vect_length || exact Hu). rewrite !(conv_comp n sg) by exact Hi. unfold Rdiv. ring.
  - intros l Hl. rewrite (conv_comp n sg) by exact Hl. rewrite (sg_eqb n sg si Hsg) by assumption. ring.
Qed.
