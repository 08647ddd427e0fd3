(** Dense output of DormandPrince5 over whole runs (C24). *)
From Coq Require Import ZArith List Bool Lia Reals Lra.
From Coquelicot Require Import Coquelicot.
From Verif Require Import Arith Vec Core Driver VecFacts DP5 DP5Facts Spec SpecRK SpecODE RKFacts DP5Inv
  ArithR DP5R DP5Time DP5RK DP5Num.
Import ListNotations.
Local Open Scope R_scope.

Lemma dense_slope (c h tp k1 k2 k3 k4 k5 k6 k7 : R) : h <> 0 ->
  let D := fun t => c + h * wsum (dopri_dense ((t - tp) / h)) [k1;k2;k3;k4;k5;k6;k7] in
  derivable_pt_lim D tp k1 /\ derivable_pt_lim D (tp + h) k7.
Proof.
  intros Hh D. unfold D. unfold dopri_dense. cbn [map seq wsum Nat.eqb]. unfold dense_weight, comp.
  unfold dopri_b, dopri_d. cbn [nth].
  split; apply is_derive_Reals; auto_derive; auto; field; assumption.
Qed.

Section DP5Dense.
Context {P : Type} (inf : R).
Notation RI := (RA inf).
Notation state := (integ RI P (dp5_cache RI)).
Notation alg := (@DormandPrince5 RI P).

(** The continuous output belongs to the last step. *)
Definition dense_ok (b : builder RI P) (s : state) : Prop :=
  i_dtprev s <> 0 ->
  i_t s = i_tprev s + i_dtprev s /\ length (i_uprev s) = length (b_u b) /\
  i_u s = rk_step dopri_rows dopri_b (ode (b_dudt b) (b_params b)) (i_tprev s) (i_uprev s) (i_dtprev s) /\
  forall t, dense_output s t (i_dtprev s) =
    combine_stages (i_uprev s) (i_dtprev s) (dopri_dense ((t - i_tprev s) / i_dtprev s))
      (slopes (ode (b_dudt b) (b_params b)) (i_tprev s) (i_uprev s) (i_dtprev s) dopri_rows []).

Lemma dense_ok_step (b : builder RI P) fuel (s s' : state) r :
  overwrites (b_dudt b) -> o_dense (b_opts b) = true -> rk_inv inf b s ->
  step alg None fuel s = Ok (s', r) -> dense_ok b s'.
Proof.
  intros Ho Hd Hi H Hnz. pose proof Hi as [If Ip Io In Ifs Il _ _ _].
  unfold step in H. apply bind_ok in H as (s1 & H & E). cbn [run_callback] in E.
  injection E as E _. subst s1. cbn [alg_step DormandPrince5 Cache] in H.
  pose proof (dp5_step_rk inf fuel s s' ltac:(now rewrite If) Ifs H) as (_ & Q2 & Q3 & _).
  pose proof (dp5_step_dense inf fuel s s' ltac:(now rewrite If) Ifs H ltac:(now rewrite Io)) as Q.
  pose proof (dp5_step_effect_of _ _ _ H) as Ef. open_effect Ef.
  rewrite If, Ip in *. rewrite se_uprev0, se_tprev0. repeat split; auto.
Qed.

Lemma rk_inv_reached (b : builder RI P) fuel k (s0 s : state) :
  overwrites (b_dudt b) -> build alg b = Ok s0 -> reached alg None fuel k s0 s -> rk_inv inf b s.
Proof. intros Ho Hb Hr. eapply dp5_rk; eauto. exact (reached_steps_n alg None _ _ _ _ Hr). Qed.

Lemma dense_ok_reached (b : builder RI P) fuel k (s0 s : state) :
  overwrites (b_dudt b) -> o_dense (b_opts b) = true -> build alg b = Ok s0 ->
  reached alg None fuel (S k) s0 s -> dense_ok b s.
Proof.
  intros Ho Hd Hb Hr. inversion Hr as [|k' s' s1 s2 r Hc Hs]; subst.
  eapply dense_ok_step; eauto. eapply dp5_rk; eauto. exact (continues_steps_n alg None _ _ _ _ Hc).
Qed.

Theorem dp5_dense (b : builder RI P) fuel k (s0 s : state) :
  overwrites (b_dudt b) -> o_dense (b_opts b) = true ->
  sane_opts (b_opts b) -> 0 < b_dt b -> b_t b < b_tfinal b ->
  build alg b = Ok s0 -> reached alg None fuel (S k) s0 s ->
  let h := i_dtprev s in
  let F := ode (b_dudt b) (b_params b) in
  0 < h /\ i_t s = i_tprev s + h /\
  dense_output s (i_tprev s) h = i_uprev s /\
  dense_output s (i_t s) h = i_u s /\
  (forall i, (i < length (b_u b))%nat ->
    derivable_pt_lim (fun t => comp (dense_output s t h) i) (i_tprev s) (comp (F (i_tprev s) (i_uprev s)) i) /\
    derivable_pt_lim (fun t => comp (dense_output s t h) i) (i_t s) (comp (F (i_t s) (i_u s)) i)) /\
  (forall t, dense_output s t h =
     combine_stages (i_uprev s) h (dopri_dense ((t - i_tprev s) / h))
       (slopes F (i_tprev s) (i_uprev s) h dopri_rows [])).
Proof.
  intros Ho Hd Hso Hdt Ht Hb Hr h F.
  pose proof (dense_ok_reached b fuel k s0 s Ho Hd Hb Hr) as D.
  assert (0 < h) as Hh.
  { inversion Hr as [|k' s' s1 s2 r Hc Hs]; subst.
    destruct (run_inv_build inf b s0 Hso Hdt Ht Hb) as [Hi Hrc].
    destruct (continues_invariant alg None fuel (run_inv inf b)
       (fun s1 s2 r H1 H2 H3 => run_inv_step inf b fuel s1 s2 r Hso H1 H2 H3) _ _ _ Hc Hrc Hi) as [H1 H2].
    destruct H1. specialize (ri_fwd H2).
    unfold step in Hs. apply bind_ok in Hs as (s1' & H & E). cbn [run_callback] in E.
    injection E as E _. subst s1'. cbn [alg_step DormandPrince5 Cache] in H.
    destruct (fwd_step_of inf _ _ _ ri_fwd H). unfold h. apply fs_dtprev. }
  assert (h <> 0) as Hnz by lra. destruct (D Hnz) as (D1 & D2 & D3 & D4). fold h F in D1, D3, D4.
  change (num RI) with R in *.
  split; [exact Hh|]. split; [exact D1|].
  assert (forall i x ks, (i < length (b_u b))%nat -> comp (combine_stages (i_uprev s) h x ks) i =
     comp (i_uprev s) i + h * wsum x (map (fun k => comp k i) ks)) as Hc.
  { intros. apply combine_stages_comp. rewrite D2. assumption. }
  split; [|split; [|split; [|exact D4]]].
  - rewrite D4. replace ((i_tprev s - i_tprev s) / h) with 0 by (field; exact Hnz).
    apply (nth_ext _ _ 0 0); [apply combine_stages_length|]. intros i Hi.
    rewrite combine_stages_length, D2 in Hi.
    change (comp (combine_stages (i_uprev s) h (dopri_dense 0)
      (slopes F (i_tprev s) (i_uprev s) h dopri_rows [])) i = comp (i_uprev s) i).
    rewrite Hc by exact Hi. cbn [slopes dopri_rows app map].
    rewrite dopri_dense_0. cbn [repeat wsum]. rlra.
  - rewrite D4. replace ((i_t s - i_tprev s) / h) with 1 by (rewrite D1; field; exact Hnz).
    rewrite dopri_dense_1. symmetry. exact D3.
  - intros i Hi.
    assert (forall t, comp (dense_output s t h) i = comp (i_uprev s) i +
      h * wsum (dopri_dense ((t - i_tprev s) / h)) (map (fun k => comp k i)
             (slopes F (i_tprev s) (i_uprev s) h dopri_rows []))) as E.
    { intros t. rewrite D4. apply Hc. exact Hi. }
    revert E D3. unfold rk_step. cbn [slopes dopri_rows app map]. 
    set (k1 := F (i_tprev s + 0 * h) _). set (k2 := F (i_tprev s + 1/5 * h) _).
    set (k3 := F (i_tprev s + 3/10 * h) _). set (k4 := F (i_tprev s + 4/5 * h) _).
    set (k5 := F (i_tprev s + 8/9 * h) _).
    set (k6 := F (i_tprev s + 1 * h) (combine_stages _ _ [9017 / 3168; - (355 / 33); 46732 / 5247; 49 / 176; - (5103 / 18656)] _)).
    set (k7 := F (i_tprev s + 1 * h) _). intros E D3.
    destruct (dense_slope (comp (i_uprev s) i) h (i_tprev s) (comp k1 i) (comp k2 i) (comp k3 i)
      (comp k4 i) (comp k5 i) (comp k6 i) (comp k7 i) Hnz) as [S1 S2].
    assert (k1 = F (i_tprev s) (i_uprev s)) as E1.
    { unfold k1. f_equal; [ring|]. apply (nth_ext _ _ 0 0); [apply combine_stages_length|].
      intros j Hj. rewrite combine_stages_length, D2 in Hj.
      change (comp (combine_stages (i_uprev s) h [] []) j = comp (i_uprev s) j).
      rewrite Hc by exact Hj. cbn [wsum]. lra. }
    assert (k7 = F (i_t s) (i_u s)) as E7.
    { unfold k7. f_equal; [rewrite D1; ring|]. rewrite D3.
      apply (nth_ext _ _ 0 0); [now rewrite !combine_stages_length|].
      intros j Hj. rewrite combine_stages_length, D2 in Hj.
      change (comp (combine_stages (i_uprev s) h [35/384; 0; 500/1113; 125/192; -(2187/6784); 11/84] [k1;k2;k3;k4;k5;k6]) j
        = comp (combine_stages (i_uprev s) h dopri_b [k1;k2;k3;k4;k5;k6;k7]) j).
      rewrite !Hc by exact Hj. unfold dopri_b. cbn [map wsum]. lra. }
    rewrite <- E1, <- E7, D1. split.
    + intros eps He. destruct (S1 eps He) as (dl & Hdl). exists dl. intros x Hx Hx'.
      rewrite !E. exact (Hdl x Hx Hx').
    + intros eps He. destruct (S2 eps He) as (dl & Hdl). exists dl. intros x Hx Hx'.
      rewrite !E. exact (Hdl x Hx Hx').
Qed.
End DP5Dense.
