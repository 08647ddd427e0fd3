(** A quadrature problem on which DormandPrince5 sees nothing, whatever the
    tolerances. *)
From Coq Require Import ZArith List Bool Lia Reals Lra.
From RecordUpdate Require Import RecordSet.
From Coquelicot Require Import Coquelicot.
From Verif Require Import Arith Vec Core Driver Spec SpecRK SpecODE SpecReach SpecConv SpecPI SpecTol ArithR DP5 DefaultFacts DP5Ref SuccEx.
Import ListNotations RecordSetNotations.
Local Open Scope R_scope.

Notation pev := polynomial.
Fixpoint padd (a b : list R) : list R :=
  match a, b with [], _ => b | _, [] => a | x :: a', y :: b' => (x + y) :: padd a' b' end.
Lemma padd_ev a b t : pev (padd a b) t = pev a t + pev b t.
Proof.
  revert b. induction a as [|x a IH]; intros [|y b]; cbn [padd]; unfold pev in *; cbn [fold_right]; try ring.
  rewrite IH. ring.
Qed.
Definition pscale (c : R) (a : list R) : list R := map (Rmult c) a.
Lemma pscale_ev c a t : pev (pscale c a) t = c * pev a t.
Proof. induction a as [|x a IH]; unfold pev, pscale in *; cbn [map fold_right]; [ring|]. rewrite IH. ring. Qed.
Definition proot (r : R) (a : list R) : list R := padd (0 :: a) (pscale (- r) a).
Lemma proot_ev r a t : pev (proot r a) t = (t - r) * pev a t.
Proof. unfold proot. rewrite padd_ev, pscale_ev. unfold pev at 1. cbn [fold_right]. fold (pev a t). ring. Qed.
Fixpoint pder (a : list R) : list R := match a with [] => [] | _ :: a' => padd a' (0 :: pder a') end.
Lemma pder_ev a t : derivable_pt_lim (pev a) t (pev (pder a) t).
Proof.
  induction a as [|x a IH].
  - apply (derivable_pt_lim_const 0).
  - cbn [pder]. rewrite padd_ev. change (pev (0 :: pder a) t) with (0 + t * pev (pder a) t).
    change (pev (x :: a)) with (fun t => x + t * pev a t).
    replace (pev a t + (0 + t * pev (pder a) t)) with (0 + (1 * pev a t + t * pev (pder a) t)) by ring.
    apply (derivable_pt_lim_plus (fun _ => x) (fun t => t * pev a t)); [apply derivable_pt_lim_const|].
    apply (derivable_pt_lim_mult (fun t => t) (pev a)); [apply derivable_pt_lim_id|exact IH].
Qed.
Fixpoint pbound (a : list R) : R := match a with [] => 0 | x :: a' => Rabs x + pbound a' end.
Lemma pbound_pos a : 0 <= pbound a.
Proof. induction a as [|x a IH]; cbn; [lra|]. pose proof (Rabs_pos x). lra. Qed.
Lemma pbound_ev a t : 0 <= t <= 1 -> Rabs (pev a t) <= pbound a.
Proof.
  intros Ht. induction a as [|x a IH]; cbn [pbound]; [unfold pev; cbn; rewrite Rabs_R0; lra|].
  change (pev (x :: a) t) with (x + t * pev a t). eapply Rle_trans; [apply Rabs_triang|]. apply Rplus_le_compat_l.
  rewrite Rabs_mult, (Rabs_right t) by lra. pose proof (Rabs_pos (pev a t)). nra.
Qed.
Fixpoint pint_from (k : nat) (a : list R) : list R := match a with [] => [] | x :: a' => x / INR k :: pint_from (S k) a' end.
Lemma pint_from_ev a k t : derivable_pt_lim (fun t => t ^ S k * pev (pint_from (S k) a) t) t (t ^ k * pev a t).
Proof.
  revert k. induction a as [|x a IH]; intros k.
  - apply (derivable_pt_lim_ext (fun _ => 0)); [intros s; unfold pev; cbn; ring|].
    replace (t ^ k * pev [] t) with 0 by (unfold pev; cbn; ring). apply derivable_pt_lim_const.
  - apply (derivable_pt_lim_ext (fun s => x / INR (S k) * s ^ S k + s ^ S (S k) * pev (pint_from (S (S k)) a) s)).
    { intros s. cbn [pint_from]. change (pev (?h :: ?l) s) with (h + s * pev l s). cbn [pow]. ring. }
    replace (t ^ k * pev (x :: a) t) with (x / INR (S k) * (INR (S k) * t ^ pred (S k)) + t ^ S k * pev a t).
    + apply (derivable_pt_lim_plus (fun s => x / INR (S k) * s ^ S k) (fun s => s ^ S (S k) * pev (pint_from (S (S k)) a) s)); [|apply IH].
      apply (derivable_pt_lim_scal (fun s => s ^ S k)). apply derivable_pt_lim_pow.
    + change (pev (x :: a) t) with (x + t * pev a t). cbn [pred]. cbn [pow]. field. apply not_0_INR. lia.
Qed.
Definition pint (a : list R) : list R := 0 :: pint_from 1 a.
Lemma pint_ev a t : derivable_pt_lim (pev (pint a)) t (pev a t).
Proof.
  replace (pev a t) with (t ^ 0 * pev a t) by (cbn; ring).
  apply (derivable_pt_lim_ext (fun t => t ^ 1 * pev (pint_from 1 a) t)); [|apply pint_from_ev].
  intros s. change (pev (pint a) s) with (0 + s * pev (pint_from 1 a) s). cbn. ring.
Qed.
Lemma pint_0 a : pev (pint a) 0 = 0.
Proof. change (pev (pint a) 0) with (0 + 0 * pev (pint_from 1 a) 0). ring. Qed.

(** Double roots at given points. *)
Definition proots (l : list R) : list R := fold_right (fun r a => proot r (proot r a)) [1] l.
Lemma proots_cons r l t : pev (proots (r :: l)) t = (t - r) * ((t - r) * pev (proots l) t).
Proof. cbn [proots fold_right]. rewrite !proot_ev. reflexivity. Qed.
Lemma proots_pos l t : 0 <= pev (proots l) t.
Proof.
  induction l as [|r l IH]; [unfold pev; cbn; lra|]. rewrite proots_cons, <- Rmult_assoc.
  apply Rmult_le_pos; [apply Rle_0_sqr|exact IH].
Qed.
Lemma proots_in l t : In t l -> pev (proots l) t = 0.
Proof.
  induction l as [|r l IH]; intros H; [destruct H|]. rewrite proots_cons. destruct H as [->|H]; [ring|]. rewrite IH by exact H. ring.
Qed.
Lemma proots_out l t : ~ In t l -> pev (proots l) t <> 0.
Proof.
  induction l as [|r l IH]; intros H; [unfold pev; cbn; lra|]. rewrite proots_cons.
  assert (t - r <> 0) by (intros E; apply H; left; lra).
  apply Rmult_integral_contrapositive_currified; [assumption|].
  apply Rmult_integral_contrapositive_currified; [assumption|]. apply IH. intros Hin. apply H. now right.
Qed.
Lemma area_pos l x : 0 < x < 1 -> ~ In x l -> 0 < pev (pint (proots l)) 1.
Proof.
  intros Hx Hn. set (Y := pev (pint (proots l))).
  assert (forall a b, a <= b -> Y a <= Y b) as Mono.
  { intros a b Hab. destruct (Req_dec a b) as [->|Hne]; [lra|].
    destruct (MVT_cor2 Y (pev (proots l)) a b) as (c & Hc & _); [lra|intros c _; apply pint_ev|].
    pose proof (proots_pos l c). nra. }
  assert (Y 0 = 0) as Y0 by apply pint_0.
  destruct (Rle_lt_or_eq_dec 0 (Y 1)) as [|E]; [rewrite <- Y0; apply Mono; lra|assumption|]. exfalso.
  apply (proots_out l x Hn). assert (forall t, 0 <= t <= 1 -> Y t = 0) as Z.
  { intros t Ht. pose proof (Mono 0 t). pose proof (Mono t 1). lra. }
  assert (is_derive Y x (pev (proots l) x)) as D1 by (apply is_derive_Reals, pint_ev).
  assert (is_derive Y x 0) as D2.
  { apply (is_derive_ext_loc (fun _ => 0)); [|apply (is_derive_const 0 x)].
    assert (0 < Rmin x (1 - x)) as Hp by (apply Rmin_pos; lra).
    exists (mkposreal _ Hp). intros t Ht. symmetry. apply Z.
    assert (Rabs (t - x) < Rmin x (1 - x)) as B by exact Ht. apply Rabs_def2 in B.
    pose proof (Rmin_l x (1 - x)). pose proof (Rmin_r x (1 - x)). lra. }
  apply is_derive_unique in D1, D2. congruence.
Qed.

Section Run.
Context (inf : R) (Hinf : 10 <= inf).
Notation RI := (RA inf).
Context (f : R -> R).
Notation F := (ode (quadrature (inf := inf) f) tt).

Definition nodes (x : R * R) : list R := map (fun c => fst x + c * snd x) [0; 1/5; 3/10; 4/5; 8/9; 1].
Lemma F_0 t u : length u = 1%nat -> f t = 0 -> F t u = [0].
Proof. intros Hu Hf. unfold ode, call_rhs, quadrature, zeros. rewrite Hu. cbn. rewrite Hf. reflexivity. Qed.
Lemma blind_step b t h : (forall c, In c (nodes (t, h)) -> f c = 0) -> (length b <= 7)%nat -> rk_step dopri_rows b F t [0] h = [0].
Proof.
  intros H Hb. unfold rk_step, dopri_rows. cbn [slopes app].
  assert (forall c w, In c [0; 1/5; 3/10; 4/5; 8/9; 1] -> length w = 1%nat -> F (t + c * h) w = [0]) as Z.
  { intros c w Hc Hw. apply F_0; [exact Hw|]. apply H. unfold nodes. apply (in_map (fun c => t + c * h)). exact Hc. }
  rewrite !Z by (cbn; auto 10).
  unfold combine_stages. cbn [length seq map]. f_equal. unfold comp. cbn [nth].
  destruct b as [|b1 [|b2 [|b3 [|b4 [|b5 [|b6 [|b7 [|b8 b]]]]]]]]; cbn [wsum]; ring.
Qed.

Context (o : opts RI).
Hypothesis (Hfl : o_facl o = 2/10) (Hfr : o_facr o = 10) (Hbe : o_beta o = 4/100) (Hdm : o_dtmax o = inf) (Hms : o_max_steps o = Z.to_nat 100000).
Lemma blind_error t h : (forall c, In c (nodes (t, h)) -> f c = 0) -> try_error F o t [0] h = 0.
Proof.
  intros H. unfold try_error, try_point. rewrite !blind_step by (exact H || (cbn; lia)).
  unfold wrms, vdiff, rsum, comp. cbn [length seq map fold_right nth].
  replace (0 - 0) with 0 by ring. unfold Rdiv at 2. rewrite Rmult_0_l. rewrite pow_i by lia. rewrite Rplus_0_r. unfold Rdiv. rewrite Rmult_0_l. apply sqrt_0.
Qed.
Lemma next_first h : 0 < h <= 1 -> next_size o 0 0 h false = h / 5.
Proof.
  intros Hh. assert (power 0 (4/100) = 0) as P0.
  { unfold power. destruct (Req_EM_T 0 0) as [_|N]; [|lra]. destruct (Req_EM_T (4/100) 0) as [E|_]; [lra|reflexivity]. }
  unfold next_size, step_quotient. rewrite Hbe, Hfl, Hfr, Hdm, P0.
  destruct (Req_EM_T 0 0) as [_|N]; [|lra]. rewrite Rmax_right by lra.
  replace (h / (1 / (2 / 10))) with (h / 5) by field. apply Rmin_left. lra.
Qed.
Lemma next_later h : 0 < h <= 1 -> next_size o (1/10000) 0 h false = 10 * h.
Proof.
  intros Hh. unfold next_size, step_quotient. rewrite Hbe, Hfl, Hfr, Hdm.
  destruct (Req_EM_T (power (1/10000) (4/100)) 0) as [E|N].
  { exfalso. unfold power in E. destruct (Req_EM_T (1/10000) 0) as [|_]; [lra|]. unfold Rpower in E. pose proof (exp_pos (4/100 * ln (1/10000))). lra. }
  assert (err_power o 0 = 0) as ->.
  { unfold err_power. rewrite Hbe. unfold power. destruct (Req_EM_T 0 0) as [_|]; [|lra].
    pose proof default_control as DC. destruct (Req_EM_T (control_exponent (4/100)) 0) as [|_]; [lra|reflexivity]. }
  replace (0 / power (1 / 10000) (4 / 100) / o_safe o) with 0 by (unfold Rdiv; ring).
  rewrite (Rmin_right (1 / (2 / 10)) 0) by lra. rewrite Rmax_left by lra.
  replace (h / (1/10)) with (10 * h) by field. apply Rmin_left. lra.
Qed.

(** A step in the middle of the span, and the last one. *)
Lemma blind_mid t h m n r t' h' : (forall c, In c (nodes (t, h)) -> f c = 0) -> 0 < h <= 1 -> t + 101/100 * h <= 1 -> (n < 100)%nat ->
  t' = t + h -> (m = 0 /\ h' = h / 5 \/ m = 1/10000 /\ h' = 10 * h) ->
  pi_step F o 1 (mkPilot t [0] h m n r RContinue) (mkPilot t' [0] h' (1/10000) (S n) r RContinue).
Proof.
  intros H Hh Hn Hlt -> Hm.
  assert (near_end 1 (mkPilot t [0] h m n r RContinue) = false) as Ne.
  { unfold near_end, Rltb. cbn [p_t p_h]. destruct (Rlt_dec 1 (t + 101/100 * h)); [lra|reflexivity]. }
  exists 0%nat, false, h. cbn [p_t p_u p_h p_mem p_accepted p_rejected]. rewrite Ne. split.
  { apply tries_accept. rewrite blind_error by exact H. lra. }
  cbv zeta. rewrite blind_error by exact H. unfold try_point. rewrite blind_step by (exact H || (cbn; lia)).
  rewrite Hms. replace (Z.to_nat 100000 <? S n)%nat with false by (symmetry; apply Nat.ltb_ge; lia).
  cbn [andb negb Nat.eqb]. f_equal.
  - destruct Hm as [(-> & ->)|(-> & ->)]; symmetry; [apply next_first|apply next_later]; exact Hh.
  - symmetry. apply Rmax_right. lra.
  - destruct (n =? 0)%nat; lia.
Qed.
Lemma blind_last t h n r : (forall c, In c (nodes (t, 1 - t)) -> f c = 0) -> 1 < t + 101/100 * h ->
  exists y, pi_step F o 1 (mkPilot t [0] h (1/10000) n r RContinue) y /\ p_t y = 1 /\ p_u y = [0] /\ p_code y = RSuccess.
Proof.
  intros H Hn.
  assert (near_end 1 (mkPilot t [0] h (1/10000) n r RContinue) = true) as Ne.
  { unfold near_end, Rltb. cbn [p_t p_h]. destruct (Rlt_dec 1 (t + 101/100 * h)); [reflexivity|lra]. }
  eexists. split.
  - exists 0%nat, false, (1 - t). cbn [p_t p_u p_h p_mem p_accepted p_rejected]. rewrite Ne. split.
    { apply tries_accept. rewrite blind_error by exact H. lra. }
    reflexivity.
  - cbn [p_t p_u p_code]. unfold try_point. rewrite blind_step by (exact H || (cbn; lia)). cbn [andb Nat.eqb].
    split; [ring|]. split; reflexivity.
Qed.

(** The steps of the run on [0, 1]. *)
Definition legs : list (R * R) :=
  [(0, 1/1000000); (1/1000000, 2/10000000); (12/10000000, 2/1000000); (32/10000000, 2/100000); (232/10000000, 2/10000);
   (2232/10000000, 2/1000); (22232/10000000, 2/100); (222232/10000000, 2/10); (2222232/10000000, 1 - 2222232/10000000)].
Definition all_nodes : list R := flat_map nodes legs.
Hypothesis (Hf : forall c, In c all_nodes -> f c = 0).
Lemma leg_nodes x : In x legs -> forall c, In c (nodes x) -> f c = 0.
Proof. intros Hx c Hc. apply Hf. unfold all_nodes. apply in_flat_map. exists x. split; assumption. Qed.
Lemma blind_run : exists y, pi_run F o 1 9 (pilot_start 0 [0] (1/1000000)) y /\ p_t y = 1 /\ p_u y = [0] /\ p_code y = RSuccess.
Proof.
  destruct (blind_last (2222232/10000000) 2 8 0) as (y & Hy & Ht & Hu & Hc).
  { apply leg_nodes. unfold legs. do 8 right. left. reflexivity. } { lra. }
  exists y. split; [|auto].
  eapply pi_run_S with (y := mkPilot (2222232/10000000) [0] 2 (1/10000) 8 0 RContinue); [|reflexivity|exact Hy].
  eapply pi_run_S with (y := mkPilot (222232/10000000) [0] (2/10) (1/10000) 7 0 RContinue); [|reflexivity|apply blind_mid; [apply leg_nodes; unfold legs; do 7 right; left; reflexivity|lra|lra|lia|lra|right; split; lra]].
  eapply pi_run_S with (y := mkPilot (22232/10000000) [0] (2/100) (1/10000) 6 0 RContinue); [|reflexivity|apply blind_mid; [apply leg_nodes; unfold legs; do 6 right; left; reflexivity|lra|lra|lia|lra|right; split; lra]].
  eapply pi_run_S with (y := mkPilot (2232/10000000) [0] (2/1000) (1/10000) 5 0 RContinue); [|reflexivity|apply blind_mid; [apply leg_nodes; unfold legs; do 5 right; left; reflexivity|lra|lra|lia|lra|right; split; lra]].
  eapply pi_run_S with (y := mkPilot (232/10000000) [0] (2/10000) (1/10000) 4 0 RContinue); [|reflexivity|apply blind_mid; [apply leg_nodes; unfold legs; do 4 right; left; reflexivity|lra|lra|lia|lra|right; split; lra]].
  eapply pi_run_S with (y := mkPilot (32/10000000) [0] (2/100000) (1/10000) 3 0 RContinue); [|reflexivity|apply blind_mid; [apply leg_nodes; unfold legs; do 3 right; left; reflexivity|lra|lra|lia|lra|right; split; lra]].
  eapply pi_run_S with (y := mkPilot (12/10000000) [0] (2/1000000) (1/10000) 2 0 RContinue); [|reflexivity|apply blind_mid; [apply leg_nodes; unfold legs; do 2 right; left; reflexivity|lra|lra|lia|lra|right; split; lra]].
  eapply pi_run_S with (y := mkPilot (1/1000000) [0] (2/10000000) (1/10000) 1 0 RContinue); [|reflexivity|apply blind_mid; [apply leg_nodes; unfold legs; do 1 right; left; reflexivity|lra|lra|lia|lra|right; split; lra]].
  eapply pi_run_S; [apply pi_run_0|reflexivity|apply blind_mid; [apply leg_nodes; unfold legs; left; reflexivity|lra|lra|lia|lra|left; split; lra]].
Qed.
End Run.

(** The problem. *)
Definition blind_total : R := pev (pint (proots all_nodes)) 1.
Definition blind_rate (M : R) : list R := pscale (M / blind_total) (proots all_nodes).
Definition blind_area (M : R) : list R := pscale (M / blind_total) (pint (proots all_nodes)).
Lemma half_not_node : ~ In (1/2) all_nodes.
Proof.
  unfold all_nodes, legs. cbn [flat_map nodes map app fst snd]. cbn [In]. intros H.
  repeat (destruct H as [H|H]; [lra|]). exact H.
Qed.
Lemma blind_total_pos : 0 < blind_total.
Proof. apply (area_pos all_nodes (1/2)); [lra|exact half_not_node]. Qed.
Lemma blind_area_ev M t : derivable_pt_lim (pev (blind_area M)) t (pev (blind_rate M) t).
Proof.
  unfold blind_area, blind_rate. rewrite pscale_ev.
  apply (derivable_pt_lim_ext (fun s => M / blind_total * pev (pint (proots all_nodes)) s)); [intros s; now rewrite pscale_ev|].
  apply (derivable_pt_lim_scal (pev (pint (proots all_nodes)))). apply pint_ev.
Qed.
Lemma blind_area_0 M : pev (blind_area M) 0 = 0.
Proof. unfold blind_area. rewrite pscale_ev, pint_0. ring. Qed.
Lemma blind_area_1 M : pev (blind_area M) 1 = M.
Proof. unfold blind_area. rewrite pscale_ev. fold blind_total. field. pose proof blind_total_pos. lra. Qed.
Lemma blind_node M c : In c all_nodes -> pev (blind_rate M) c = 0.
Proof. intros H. unfold blind_rate. rewrite pscale_ev, proots_in by exact H. ring. Qed.

Lemma quadrature_ode inf g t (u : list R) : length u = 1%nat -> ode (quadrature (inf := inf) g) tt t u = [g t].
Proof. intros Hu. unfold ode, call_rhs, quadrature, zeros. rewrite Hu. reflexivity. Qed.
Lemma quadrature_overwrites inf g : overwrites (quadrature (inf := inf) g).
Proof. intros d d' u t p i _ _. reflexivity. Qed.
Lemma quadrature_smooth inf (a y : list R) (t0 tf : R) : 0 <= t0 -> tf <= 1 -> (forall t, derivable_pt_lim (pev y) t (pev a t)) ->
  smooth_problem 1 (ode (quadrature (inf := inf) (pev a)) tt) t0 tf (fun t => [pev y t]).
Proof.
  intros H0 H1 Hd. set (d := fun m => nat_rect (fun _ => list R) a (fun _ => pder) m).
  set (D := fun (m i : nat) t => match i with O => match m with O => pev y t | S m' => pev (d m') t end | _ => 0 end).
  set (B := pbound y + (pbound (d 0%nat) + (pbound (d 1%nat) + (pbound (d 2%nat) + (pbound (d 3%nat) + (pbound (d 4%nat) + pbound (d 5%nat))))))).

  assert (forall t u, length u = 1%nat -> ode (quadrature (inf := inf) (pev a)) tt t u = [pev a t]) as E
    by (intros t u Hu; apply quadrature_ode; exact Hu).
  constructor.
  - reflexivity.
  - exists D, B. split; [intros [|[|i]] t; reflexivity|]. split.
    { intros [|i] t Hi Ht; [|lia]. rewrite E by reflexivity. reflexivity. } split.
    + intros m [|i] t Hm Hi Ht; [|lia]. destruct m as [|m]; [exact (Hd t)|]. exact (pder_ev (d m) t).
    + intros m [|i] t Hm Hi Ht; [|lia]. assert (0 <= t <= 1) as Ht' by lra.
      pose proof (pbound_pos y). pose proof (pbound_pos (d 0%nat)). pose proof (pbound_pos (d 1%nat)). pose proof (pbound_pos (d 2%nat)).
      pose proof (pbound_pos (d 3%nat)). pose proof (pbound_pos (d 4%nat)). pose proof (pbound_pos (d 5%nat)).
      destruct m as [|[|[|[|[|[|[|m]]]]]]]; [..|lia]; unfold D, B;
        (eapply Rle_trans; [apply pbound_ev; exact Ht'|lra]).
  - exists 1, 0. split; [lra|]. intros t u v e Ht Hu Hv _ _ _. rewrite !E by assumption. intros i Hi.
    rewrite Rminus_eq_0, Rabs_R0. lra.
  - exists (fun _ _ _ => 0), (fun _ _ _ => 0), (fun _ _ _ => 0), 1, 0. split; [lra|]. split.
    + intros t v e Ht Hv _ _ i Hi. rewrite !E by (assumption || reflexivity). rewrite Rminus_eq_0.
      unfold rsum. cbn [seq map fold_right]. rewrite Rmult_0_l, Rplus_0_r, Rminus_0_r, Rabs_R0. lra.
    + intros i k t _ _ _. rewrite Rabs_R0. repeat split; try lra; apply derivable_pt_lim_const.
Qed.

Lemma reached_integrates {A P} (al : algorithm A P) cb fuel k s0 s : reached al cb fuel k s0 s -> k <> 0%nat -> rc (i_sol s) <> RContinue ->
  forall m, (k <= m)%nat -> integrate al cb fuel m s0 = Ok s.
Proof.
  intros H Hk Hr m Hm. inversion H as [|j x s1 s2 r Hc Hs]; subst; [congruence|]. apply integrate_split.
  exists j, s1. split; [lia|]. split; [exact Hc|]. pose proof (step_spec _ _ _ _ _ _ Hs) as E. subst r.
  destruct (retcode_eqb (rc (i_sol s)) RContinue) eqn:Eb; [apply retcode_eqb_eq in Eb; contradiction|exact Hs].
Qed.

Opaque blind_rate.
Lemma blind_integration M inf (rtol atol : R) : 10 <= inf -> 0 <= rtol -> 0 < atol ->
  let b := set_reltol (A := RA inf) rtol (set_abstol (A := RA inf) atol (builder_default DormandPrince5 (quadrature (pev (blind_rate M))) ([0] : list R) (0, 1) tt)) in
  exists fuel s0 s, build DormandPrince5 b = Ok s0 /\
    (forall m, (9 <= m)%nat -> integrate DormandPrince5 None fuel m s0 = Ok s) /\
    rc (i_sol s) = RSuccess /\ i_t s = 1 /\ i_u s = [0].
Proof.
  intros Hi Hr Ha b.
  assert (sane_opts (b_opts b)) as Hso by (constructor; cbn; unfold rlit; lra).
  assert (overwrites (b_dudt b)) as Hw by exact (quadrature_overwrites inf (pev (blind_rate M))).
  destruct (blind_run inf ltac:(lra) (pev (blind_rate M)) (b_opts b)) as (y & Hy & Ht & Hu & Hc).
  { cbn. unfold rlit. lra. } { cbn. unfold rlit. lra. } { cbn. unfold rlit. lra. } { reflexivity. } { reflexivity. }
  { exact (blind_node M). }
  destruct (build DormandPrince5 b) as [s0| |] eqn:Hb; [|discriminate Hb|discriminate Hb].
  destruct (dp5_reference_complete inf b Hso Hw) with (k := 9%nat) (s0 := s0) (x := y) as (fuel & s & Hre & (S1 & S2 & _ & _ & _ & S6)).
  - discriminate.
  - exact Ha.
  - exact Hr.
  - cbn. unfold rlit. lra.
  - change (Z.to_nat 1000 <> 0%nat). lia.
  - cbn. unfold rlit. lra.
  - cbn. lra.
  - exact Hb.
  - replace (b_dt b) with (1/1000000) by (cbn; unfold rlit; lra). exact Hy.
  - exists fuel, s0, s. split; [reflexivity|]. rewrite S1, S2, S6, Ht, Hu, Hc.
    split; [|auto]. apply reached_integrates with (k := 9%nat); [exact Hre|lia|]. rewrite S6, Hc. discriminate.
Qed.
Lemma blind_refutes M : exists a y : list R,
  pev y 0 = 0 /\ pev y 1 = M /\
  forall inf, 10 <= inf ->
  smooth_problem 1 (ode (quadrature (inf := inf) (pev a)) tt) 0 1 (fun t => [pev y t]) /\
  forall reltol abstol : R, 0 <= reltol -> 0 < abstol ->
  let b := set_reltol (A := RA inf) reltol (set_abstol (A := RA inf) abstol
             (builder_default DormandPrince5 (quadrature (pev a)) ([0] : list R) (0, 1) tt)) in
  exists fuel s0 s, build DormandPrince5 b = Ok s0 /\
    (forall m, (9 <= m)%nat -> integrate DormandPrince5 None fuel m s0 = Ok s) /\
    rc (i_sol s) = RSuccess /\ i_t s = 1 /\ i_u s = [0].
Proof.
  exists (blind_rate M), (blind_area M). split; [exact (blind_area_0 M)|]. split; [exact (blind_area_1 M)|]. intros inf Hi.
  split; [apply quadrature_smooth; [lra|lra|exact (blind_area_ev M)]|]. intros rt at' Hr Ha. exact (blind_integration M inf rt at' Hi Hr Ha).
Qed.
Lemma blind_ex : exists a y : list R,
  pev y 0 = 0 /\ pev y 1 = 1000 /\ derivable_pt_lim (pev y) (1/2) (pev a (1/2)) /\
  let b := set_reltol (A := RA 10) (1 / 10^12) (set_abstol (A := RA 10) (1 / 10^12)
             (builder_default DormandPrince5 (quadrature (pev a)) ([0] : list R) (0, 1) tt)) in
  exists fuel s0 s, build DormandPrince5 b = Ok s0 /\ integrate DormandPrince5 None fuel 9 s0 = Ok s /\
    rc (i_sol s) = RSuccess /\ i_t s = 1 /\ i_u s = [0].
Proof.
  exists (blind_rate 1000), (blind_area 1000). split; [apply blind_area_0|]. split; [apply blind_area_1|]. split; [apply blind_area_ev|].
  destruct (blind_integration 1000 10 (1 / 10^12) (1 / 10^12)) as (fuel & s0 & s & H1 & H2 & H3); [lra|lra|lra|].
  exists fuel, s0, s. split; [exact H1|]. split; [apply H2; lia|exact H3].
Qed.
