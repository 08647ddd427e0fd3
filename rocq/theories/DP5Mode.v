(** DormandPrince5 on linear systems: what one step does to a mode. *)
From Coq Require Import Reals List Lia Lra Arith Bool.
From Coquelicot Require Import Complex.
From Verif Require Import Arith Vec Core Driver DP5 Spec SpecRK SpecODE SpecLin SpecMode SpecGrow ArithR RKFacts DP5RK RadMode.
Import ListNotations.
Local Open Scope R_scope.

(** The polynomial in real coordinates. *)
Definition gre (x y : R) : R :=
  1 + x + (x^2 - y^2)/2 + (x^3 - 3*x*y^2)/6 + (x^4 - 6*x^2*y^2 + y^4)/24 + (x^5 - 10*x^3*y^2 + 5*x*y^4)/120
  + (x^6 - 15*x^4*y^2 + 15*x^2*y^4 - y^6)/600.
Definition gim (x y : R) : R :=
  y + x*y + (3*x^2*y - y^3)/6 + (x^3*y - x*y^3)/6 + (5*x^4*y - 10*x^2*y^3 + y^5)/120 + (6*x^5*y - 20*x^3*y^3 + 6*x*y^5)/600.
Lemma growth_pair x y : dopri_growth (x, y) = (gre x y, gim x y).
Proof.
  assert (forall k : R, k <> 0 -> / RtoC k = RtoC (/ k))%C as I by (intros k Hk; symmetry; apply RtoC_inv; exact Hk).
  unfold dopri_growth, Cdiv. rewrite !I by lra. unfold gre, gim, RtoC. cbn [cpow]. cbv [Cplus Cmult fst snd RtoC]. f_equal; field.
Qed.

Section Modes.
Context (n : nat) (J : nat -> nat -> R) (e : list R) (p q : nat -> R) (a c : R).
Hypothesis Heig : left_eigenvector n J p q a c.
Context (F : R -> list R -> list R).
Hypothesis Hlin : linear_system n F J e.
Notation lf := (lf n p q).
Notation dev := (dev n e p q).
Notation mu := (mu a c).

Fixpoint csum (ws : list R) (zs : list C) : C := match ws, zs with w :: ws', z :: zs' => (w * z + csum ws' zs')%C | _, _ => RtoC 0 end.
Lemma lf_0 : lf (fun _ => 0) = RtoC 0.
Proof.
  unfold RadMode.lf, RtoC. f_equal; rewrite (RKFacts.rsum_ext n _ (fun i => 0 * 0)) by (intros; ring); rewrite rsum_scale; ring.
Qed.
Lemma lf_wsum ws ks : lf (fun i => wsum ws (map (fun k => comp k i) ks)) = csum ws (map (fun k => lf (comp k)) ks).
Proof.
  revert ks. induction ws as [|w ws IH]; intros [|k ks]; cbn [wsum map csum]; try apply lf_0.
  rewrite (lf_plus n p q (fun i => w * comp k i)), lf_scale, IH. reflexivity.
Qed.
Lemma combine_dev u h ws ks : length u = n -> dev (combine_stages u h ws ks) = (dev u + h * csum ws (map (fun k => lf (comp k)) ks))%C.
Proof.
  intros Hu. unfold RadMode.dev. rewrite <- lf_wsum, <- lf_scale, <- lf_plus. apply lf_ext. intros i Hi.
  unfold combine_stages. rewrite Hu. unfold comp at 1. rewrite (nth_indep _ 0 (comp u 0 + h * wsum ws (map (fun k => comp k 0) ks))) by (rewrite map_length, seq_length; exact Hi).
  rewrite (map_nth (fun i => comp u i + h * wsum ws (map (fun k => comp k i) ks))), seq_nth by exact Hi. rewrite Nat.add_0_l. ring.
Qed.
Lemma slope_lf t u : length u = n -> lf (comp (F t u)) = (mu * dev u)%C.
Proof.
  intros Hu. unfold RadMode.dev. rewrite <- (lf_J n J p q a c Heig). apply lf_ext. intros i Hi. apply Hlin; assumption.
Qed.
Lemma stage_lf t u h ws ks : length u = n ->
  lf (comp (F t (combine_stages u h ws ks))) = (mu * (dev u + h * csum ws (map (fun k => lf (comp k)) ks)))%C.
Proof.
  intros Hu. rewrite slope_lf by (unfold combine_stages; rewrite map_length, seq_length; exact Hu). rewrite combine_dev by exact Hu. reflexivity.
Qed.

(** Every slope is [mu] times the deviation times a polynomial in [h mu]. *)
Definition cev (l : list R) (z : C) : C := fold_right (fun k r => (RtoC k + z * r)%C) (RtoC 0) l.
Fixpoint cadd (l m : list R) : list R := match l, m with [], _ => m | _, [] => l | x :: l', y :: m' => (x + y) :: cadd l' m' end.
Fixpoint ccomb (ws : list R) (ls : list (list R)) : list R :=
  match ws, ls with w :: ws', l :: ls' => cadd (map (Rmult w) l) (ccomb ws' ls') | _, _ => [] end.
Lemma cadd_ev l m z : cev (cadd l m) z = (cev l z + cev m z)%C.
Proof.
  revert m. induction l as [|x l IH]; intros [|y m]; cbn [cadd]; unfold cev in *; cbn [fold_right]; try ring.
  rewrite IH, RtoC_plus. ring.
Qed.
Lemma cscale_ev k l z : cev (map (Rmult k) l) z = (k * cev l z)%C.
Proof. induction l as [|x l IH]; unfold cev in *; cbn [map fold_right]; [ring|]. rewrite IH, RtoC_mult. ring. Qed.
Lemma ccomb_ev D z ws ls : csum ws (map (fun l => (mu * D * cev l z)%C) ls) = (mu * D * cev (ccomb ws ls) z)%C.
Proof.
  revert ls. induction ws as [|w ws IH]; intros [|l ls]; cbn [csum map ccomb]; try (unfold cev; cbn; ring).
  rewrite IH, cadd_ev, cscale_ev. ring.
Qed.
Definition polys := fold_left (fun ls row => ls ++ [1 :: ccomb (snd row) ls]) dopri_rows [].
Lemma slopes_ev t u (h : R) rows ks ls : length u = n ->
  map (fun k => lf (comp k)) ks = map (fun l => (mu * dev u * cev l (h * mu))%C) ls ->
  map (fun k => lf (comp k)) (slopes F t u h rows ks) =
  map (fun l => (mu * dev u * cev l (h * mu))%C) (fold_left (fun ls row => ls ++ [1 :: ccomb (snd row) ls]) rows ls).
Proof.
  intros Hu. revert ks ls. induction rows as [|(cc & aa) rows IH]; intros ks ls H; cbn [slopes fold_left]; [exact H|].
  apply IH. rewrite !map_app, H. f_equal. cbn [map snd]. f_equal. rewrite stage_lf by exact Hu. rewrite H, ccomb_ev.
  change (cev (1 :: ccomb aa ls) (h * mu)%C) with (RtoC 1 + h * mu * cev (ccomb aa ls) (h * mu))%C. ring.
Qed.
Lemma growth_ev z : dopri_growth z = cev [1; 1; 1/2; 1/6; 1/24; 1/120; 1/600] z.
Proof.
  assert (forall k : R, k <> 0 -> / RtoC k = RtoC (1 / k))%C as I by (intros k Hk; rewrite <- RtoC_inv by exact Hk; f_equal; field; exact Hk).
  unfold dopri_growth, Cdiv. rewrite !I by lra. unfold cev. cbn [fold_right cpow]. ring.
Qed.
Lemma growth_list : 1 :: ccomb dopri_b polys = [1; 1; 1/2; 1/6; 1/24; 1/120; 1/600; 0].
Proof. unfold polys, dopri_b, dopri_rows. cbn [fold_left app snd ccomb map cadd]. repeat (apply (f_equal2 (@cons R)); [lra|]). reflexivity. Qed.
Lemma step_dev t u (h : R) : length u = n -> dev (rk_step dopri_rows dopri_b F t u h) = (dopri_growth (h * mu) * dev u)%C.
Proof.
  intros Hu. unfold rk_step. rewrite combine_dev by exact Hu.
  rewrite (slopes_ev t u h dopri_rows [] []) by (exact Hu || reflexivity). fold polys. rewrite ccomb_ev, growth_ev.
  transitivity (dev u * cev (1 :: ccomb dopri_b polys) (h * mu))%C.
  - change (cev (1 :: ccomb dopri_b polys) (h * mu)%C) with (RtoC 1 + h * mu * cev (ccomb dopri_b polys) (h * mu))%C. ring.
  - rewrite growth_list. unfold cev. cbn [fold_right]. ring.
Qed.
Lemma step_mode t u h : length u = n ->
  mode n p q e (rk_step dopri_rows dopri_b F t u h) = Cmod (dopri_growth (h * a, h * c)) * mode n p q e u.
Proof.
  intros Hu. rewrite <- !dev_mode, step_dev by exact Hu. rewrite Cmod_mult. f_equal. f_equal. f_equal.
  unfold RadMode.mu. cbv [Cmult RtoC fst snd]. f_equal; ring.
Qed.
End Modes.
