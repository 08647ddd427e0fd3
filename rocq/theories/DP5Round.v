(** DormandPrince5 steps in binary64 are Dormand-Prince steps up to rounding. *)
From Coq Require Import ZArith List Bool Lia Reals Lra.
From RecordUpdate Require Import RecordSet.
From Flocq Require Import Core BinarySingleNaN.
From Verif Require Import Arith Vec Core Driver VecFacts DP5 DP5Facts Spec SpecRK SpecODE SpecConv SpecF64 SpecF64Conv
  RKFacts DP5Inv ArithF FFacts FMono FOrder FErr DP5Mono ConvLocal PertRK.
Import ListNotations RecordSetNotations.
Local Open Scope R_scope.
Local Existing Instance prec_gt_0_53.
Local Existing Instance prec_lt_emax_53.

Section Stage.
Context (fpowf : f64 -> f64 -> f64) (fpowi : f64 -> Z -> f64) {P : Type}.
Notation A := (F64 fpowf fpowi).
Notation fat u i := (@at_ A u i).

Lemma comp_Rvec (u : list f64) i : comp (Rvec u) i = B2R (fat u i : f64).
Proof. exact (map_nth (@B2R 53 1024) u (@n0 A) i). Qed.
Lemma Rvec_length u : length (Rvec u) = length u.
Proof. apply map_length. Qed.
Lemma finite_at (u : list f64) : finite_vec u <-> forall i, (i < length u)%nat -> is_finite (fat u i : f64) = true.
Proof.
  unfold finite_vec. split.
  - intros H i Hi. rewrite Forall_forall in H. apply H. apply nth_In. exact Hi.
  - intros H. apply Forall_forall. intros x Hx. destruct (In_nth u x (fat u 0) Hx) as (i & Hi & <-).
    rewrite (nth_indep u _ (@n0 A)) by exact Hi. apply H. exact Hi.
Qed.

Context (f : rhs A P) (p : P) (n : nat) (u : list f64) (t dt : f64) (b1 b2 b3 b4 b5 b6 b7 : list f64).
Definition kk1 : list f64 := @call_rhs A P f b1 u t p.
Definition y2 : list f64 := @vadd A u (@vscale A (fmul dt (@A21 A)) kk1).
Definition t2 : f64 := fadd t (fmul (@C2 A) dt).
Definition kk2 : list f64 := @call_rhs A P f b2 y2 t2 p.
Definition y3 : list f64 := @vadd A u (@vscale A dt (@vadd A (@vscale A (@A31 A) kk1) (@vscale A (@A32 A) kk2))).
Definition t3 : f64 := fadd t (fmul (@C3 A) dt).
Definition kk3 : list f64 := @call_rhs A P f b3 y3 t3 p.
Definition y4 : list f64 := @vadd A u (@vscale A dt (@vadd A (@vadd A (@vscale A (@A41 A) kk1) (@vscale A (@A42 A) kk2)) (@vscale A (@A43 A) kk3))).
Definition t4 : f64 := fadd t (fmul (@C4 A) dt).
Definition kk4 : list f64 := @call_rhs A P f b4 y4 t4 p.
Definition y5 : list f64 := @vadd A u (@vscale A dt (@vadd A (@vadd A (@vadd A (@vscale A (@A51 A) kk1) (@vscale A (@A52 A) kk2)) (@vscale A (@A53 A) kk3)) (@vscale A (@A54 A) kk4))).
Definition t5 : f64 := fadd t (fmul (@C5 A) dt).
Definition kk5 : list f64 := @call_rhs A P f b5 y5 t5 p.
Definition y6 : list f64 := @vadd A u (@vscale A dt (@vadd A (@vadd A (@vadd A (@vadd A (@vscale A (@A61 A) kk1) (@vscale A (@A62 A) kk2)) (@vscale A (@A63 A) kk3)) (@vscale A (@A64 A) kk4)) (@vscale A (@A65 A) kk5))).
Definition tph : f64 := fadd t dt.
Definition kk6 : list f64 := @call_rhs A P f b6 y6 tph p.
Definition y7 : list f64 := @vadd A u (@vscale A dt (@vadd A (@vadd A (@vadd A (@vadd A (@vscale A (@A71 A) kk1) (@vscale A (@A73 A) kk3)) (@vscale A (@A74 A) kk4)) (@vscale A (@A75 A) kk5)) (@vscale A (@A76 A) kk6))).
Definition kk7 : list f64 := @call_rhs A P f b7 y7 tph p.
Lemma unew_y7 : sd_unew (@stage_vecs A P f p u t dt kk1 b2 b3 b4 b5 b6 b7) = y7.
Proof. reflexivity. Qed.
Lemma dunew_kk7 : sd_dunew (@stage_vecs A P f p u t dt kk1 b2 b3 b4 b5 b6 b7) = kk7.
Proof. reflexivity. Qed.

Definition kf (l : nat) : list f64 := match l with 0 => kk1 | 1 => kk2 | 2 => kk3 | 3 => kk4 | 4 => kk5 | 5 => kk6 | _ => kk7 end.
Definition yf (l : nat) : list f64 := match l with 0 => u | 1 => y2 | 2 => y3 | 3 => y4 | 4 => y5 | 5 => y6 | _ => y7 end.
Definition tf_ (l : nat) : f64 := match l with 0 => t | 1 => t2 | 2 => t3 | 3 => t4 | 4 => t5 | _ => tph end.
Definition bf (l : nat) : list f64 := match l with 0 => b1 | 1 => b2 | 2 => b3 | 3 => b4 | 4 => b5 | 5 => b6 | _ => b7 end.
Lemma kf_call l : kf l = @call_rhs A P f (bf l) (yf l) (tf_ l) p.
Proof. do 7 (destruct l as [|l]; [reflexivity|]). reflexivity. Qed.

Hypothesis Lu : length u = n.
Hypothesis Lb : forall l, length (bf l) = n.
Lemma Lk l : length (kf l) = n.
Proof. rewrite kf_call. etransitivity; [apply (@call_rhs_length A)|apply Lb]. Qed.

Context (W : R).
Hypothesis HW : 1 <= W.
Hypothesis HW2 : W <= bpow radix2 1005.
Hypothesis Ft : is_finite t = true.
Hypothesis Fdt : is_finite dt = true.
Hypothesis Hdt : 0 <= B2R dt <= 1.
Hypothesis Hu : forall i, (i < n)%nat -> fits W (fat u i).

Definition good (l : nat) : Prop := forall i, (i < n)%nat -> fits W (fat (kf l) i).

Ltac kl := pose proof (Lk 0); pose proof (Lk 1); pose proof (Lk 2); pose proof (Lk 3); pose proof (Lk 4); pose proof (Lk 5); pose proof (Lk 6);
  cbn [kf] in *.
Lemma vaddl (a b : list f64) : length a = n -> length b = n -> @length f64 (@vadd A a b) = n.
Proof. intros H1 H2. etransitivity; [apply (@vadd_length A)|]. change (Nat.min (@length f64 a) (@length f64 b) = n). lia. Qed.
Lemma vscl c (a : list f64) : length a = n -> @length f64 (@vscale A c a) = n.
Proof. intros H1. etransitivity; [apply (@vscale_length A)|]. exact H1. Qed.
Ltac flen := repeat first [assumption | apply vaddl | apply vscl].
Lemma vadda (a b : list f64) i : length a = n -> length b = n -> (i < n)%nat -> fat (@vadd A a b) i = fadd (fat a i) (fat b i).
Proof. intros H1 H2 Hi. apply (@vadd_at A); [change (i < @length f64 a)%nat|change (i < @length f64 b)%nat]; lia. Qed.
Lemma vsca c (a : list f64) i : length a = n -> (i < n)%nat -> fat (@vscale A c a) i = fmul c (fat a i).
Proof. intros H1 Hi. apply (@vscale_at A); change (i < @length f64 a)%nat; lia. Qed.
Lemma Ly l : length (yf l) = n.
Proof. kl. do 7 (destruct l as [|l]; [unfold yf, y2, y3, y4, y5, y6, y7; flen|]). unfold yf, y7. flen. Qed.

Lemma rounded_points l : (l < 7)%nat -> (forall m, (m < l)%nat -> good m) -> forall i, (i < n)%nat ->
  is_finite (fat (yf l) i : f64) = true /\
  Rabs (B2R (fat (yf l) i : f64) - (B2R (fat u i : f64) + B2R dt * rsum l (fun m => da l m * B2R (fat (kf m) i : f64)))) <= 600 * u64 * W.
Proof.
  intros Hl HG i Hi. kl. pose proof (Hu i Hi) as Ui. pose proof u64_pos.
  assert (0 <= 600 * u64 * W) by (apply Rmult_le_pos; lra).
  assert (forall m, (m < l)%nat -> fits W (fat (kf m) i)) as HK by (intros m Hm; apply HG; assumption). clear HG.
  Ltac pt := cbn [yf]; unfold y2, y3, y4, y5, y6, y7;
    repeat first [rewrite vadda by (assumption || flen) | rewrite vsca by (assumption || flen)].
  Ltac fin X U :=
    let X1 := fresh in let X2 := fresh in
    destruct (lin_end _ ltac:(eassumption) ltac:(eassumption) _ _ _ _ _ _ X ltac:(lra) ltac:(lra) U ltac:(eassumption) ltac:(eassumption)) as (X1 & X2);
    split; [exact X1|]; unfold rsum; cbn [map seq fold_right kf]; unfold da, comp, dopri_rows; cbn [nth snd];
    match goal with |- Rabs ?a <= _ => match type of X2 with Rabs (?b - (?u0 + ?h0 * ?s0)) <= _ =>
      replace a with (b - (u0 + h0 * s0)); [exact X2|] end end;
    match goal with |- _ - (_ + _ * ?a) = _ - (_ + _ * ?b) => replace b with a by lra end; reflexivity.
  destruct l as [|[|[|[|[|[|[|l]]]]]]]; [| | | | | | |lia].
  - cbn [yf]. split; [apply Ui|]. unfold rsum; cbn [map seq fold_right]. rewrite Rmult_0_r, Rplus_0_r, Rminus_eq_0, Rabs_R0. assumption.
  - pt. pose proof (HK 0%nat ltac:(lia)) as K1. cbn [kf] in K1.
    assert (coef (fmul dt (@A21 A)) (B2R dt * (IZR 2 / IZR 10))) as Ca.
    { destruct (lit_err 2 10 ltac:(reflexivity) ltac:(reflexivity)) as (F & E). eapply scaled_coef; try eassumption.
      - apply Rabs_le. lra.
      - eapply Rle_trans; [exact E|]. rewrite Rabs_right by lra. nra. }
    destruct (lin_1 W HW HW2 _ _ _ Ca K1) as (Bs & As).
    assert (approx W 600 (fadd (fat u i) (fmul (fmul dt (@A21 A)) (fat kk1 i))) (B2R (fat u i : f64) + B2R dt * (IZR 2 / IZR 10) * B2R (fat kk1 i : f64))) as (X1 & X2).
    { apply ap_add; try assumption; try apply Ui; [lra|]. eapply ap_le; [assumption| |exact As]. lra. }
    split; [exact X1|]. unfold rsum; cbn [map seq fold_right kf]. unfold da, comp, dopri_rows; cbn [nth snd].
    match goal with |- Rabs ?a <= _ => match type of X2 with Rabs ?b <= _ => replace a with b by (cbn [add mul F64]; lra) end end. exact X2.
  - pt.
    pose proof (HK 0%nat ltac:(lia)) as K0. cbn [kf] in K0.
    pose proof (lin_1 W HW HW2 _ _ _ (lit_coef 3 40 ltac:(reflexivity) ltac:(reflexivity) ltac:(apply Rabs_le; lra)) K0) as X0.
    pose proof (HK 1%nat ltac:(lia)) as K1. cbn [kf] in K1.
    pose proof (lin_S W HW HW2 _ _ _ _ _ _ _ X0 ltac:(lra) ltac:(lra) (lit_coef 9 40 ltac:(reflexivity) ltac:(reflexivity) ltac:(apply Rabs_le; lra)) K1) as X1.
    fin X1 Ui.
  - pt.
    pose proof (HK 0%nat ltac:(lia)) as K0. cbn [kf] in K0.
    pose proof (lin_1 W HW HW2 _ _ _ (lit_coef 44 45 ltac:(reflexivity) ltac:(reflexivity) ltac:(apply Rabs_le; lra)) K0) as X0.
    pose proof (HK 1%nat ltac:(lia)) as K1. cbn [kf] in K1.
    pose proof (lin_S W HW HW2 _ _ _ _ _ _ _ X0 ltac:(lra) ltac:(lra) (lit_coef (-56) 15 ltac:(reflexivity) ltac:(reflexivity) ltac:(apply Rabs_le; lra)) K1) as X1.
    pose proof (HK 2%nat ltac:(lia)) as K2. cbn [kf] in K2.
    pose proof (lin_S W HW HW2 _ _ _ _ _ _ _ X1 ltac:(lra) ltac:(lra) (lit_coef 32 9 ltac:(reflexivity) ltac:(reflexivity) ltac:(apply Rabs_le; lra)) K2) as X2.
    fin X2 Ui.
  - pt.
    pose proof (HK 0%nat ltac:(lia)) as K0. cbn [kf] in K0.
    pose proof (lin_1 W HW HW2 _ _ _ (lit_coef 19372 6561 ltac:(reflexivity) ltac:(reflexivity) ltac:(apply Rabs_le; lra)) K0) as X0.
    pose proof (HK 1%nat ltac:(lia)) as K1. cbn [kf] in K1.
    pose proof (lin_S W HW HW2 _ _ _ _ _ _ _ X0 ltac:(lra) ltac:(lra) (lit_coef (-25360) 2187 ltac:(reflexivity) ltac:(reflexivity) ltac:(apply Rabs_le; lra)) K1) as X1.
    pose proof (HK 2%nat ltac:(lia)) as K2. cbn [kf] in K2.
    pose proof (lin_S W HW HW2 _ _ _ _ _ _ _ X1 ltac:(lra) ltac:(lra) (lit_coef 64448 6561 ltac:(reflexivity) ltac:(reflexivity) ltac:(apply Rabs_le; lra)) K2) as X2.
    pose proof (HK 3%nat ltac:(lia)) as K3. cbn [kf] in K3.
    pose proof (lin_S W HW HW2 _ _ _ _ _ _ _ X2 ltac:(lra) ltac:(lra) (lit_coef (-212) 729 ltac:(reflexivity) ltac:(reflexivity) ltac:(apply Rabs_le; lra)) K3) as X3.
    fin X3 Ui.
  - pt.
    pose proof (HK 0%nat ltac:(lia)) as K0. cbn [kf] in K0.
    pose proof (lin_1 W HW HW2 _ _ _ (lit_coef 9017 3168 ltac:(reflexivity) ltac:(reflexivity) ltac:(apply Rabs_le; lra)) K0) as X0.
    pose proof (HK 1%nat ltac:(lia)) as K1. cbn [kf] in K1.
    pose proof (lin_S W HW HW2 _ _ _ _ _ _ _ X0 ltac:(lra) ltac:(lra) (lit_coef (-355) 33 ltac:(reflexivity) ltac:(reflexivity) ltac:(apply Rabs_le; lra)) K1) as X1.
    pose proof (HK 2%nat ltac:(lia)) as K2. cbn [kf] in K2.
    pose proof (lin_S W HW HW2 _ _ _ _ _ _ _ X1 ltac:(lra) ltac:(lra) (lit_coef 46732 5247 ltac:(reflexivity) ltac:(reflexivity) ltac:(apply Rabs_le; lra)) K2) as X2.
    pose proof (HK 3%nat ltac:(lia)) as K3. cbn [kf] in K3.
    pose proof (lin_S W HW HW2 _ _ _ _ _ _ _ X2 ltac:(lra) ltac:(lra) (lit_coef 49 176 ltac:(reflexivity) ltac:(reflexivity) ltac:(apply Rabs_le; lra)) K3) as X3.
    pose proof (HK 4%nat ltac:(lia)) as K4. cbn [kf] in K4.
    pose proof (lin_S W HW HW2 _ _ _ _ _ _ _ X3 ltac:(lra) ltac:(lra) (lit_coef (-5103) 18656 ltac:(reflexivity) ltac:(reflexivity) ltac:(apply Rabs_le; lra)) K4) as X4.
    fin X4 Ui.
  - pt.
    pose proof (HK 0%nat ltac:(lia)) as K0. cbn [kf] in K0.
    pose proof (lin_1 W HW HW2 _ _ _ (lit_coef 35 384 ltac:(reflexivity) ltac:(reflexivity) ltac:(apply Rabs_le; lra)) K0) as X0.
    pose proof (HK 2%nat ltac:(lia)) as K2. cbn [kf] in K2.
    pose proof (lin_S W HW HW2 _ _ _ _ _ _ _ X0 ltac:(lra) ltac:(lra) (lit_coef 500 1113 ltac:(reflexivity) ltac:(reflexivity) ltac:(apply Rabs_le; lra)) K2) as X1.
    pose proof (HK 3%nat ltac:(lia)) as K3. cbn [kf] in K3.
    pose proof (lin_S W HW HW2 _ _ _ _ _ _ _ X1 ltac:(lra) ltac:(lra) (lit_coef 125 192 ltac:(reflexivity) ltac:(reflexivity) ltac:(apply Rabs_le; lra)) K3) as X2.
    pose proof (HK 4%nat ltac:(lia)) as K4. cbn [kf] in K4.
    pose proof (lin_S W HW HW2 _ _ _ _ _ _ _ X2 ltac:(lra) ltac:(lra) (lit_coef (-2187) 6784 ltac:(reflexivity) ltac:(reflexivity) ltac:(apply Rabs_le; lra)) K4) as X3.
    pose proof (HK 5%nat ltac:(lia)) as K5. cbn [kf] in K5.
    pose proof (lin_S W HW HW2 _ _ _ _ _ _ _ X3 ltac:(lra) ltac:(lra) (lit_coef 11 84 ltac:(reflexivity) ltac:(reflexivity) ltac:(apply Rabs_le; lra)) K5) as X4.
    fin X4 Ui.
Qed.

(** Stage times. *)
Context (Tm : R).
Hypothesis HT : Rabs (B2R t) <= Tm.
Hypothesis HT2 : Tm <= bpow radix2 1005.
Definition et : R := 8 * u64 * (1 + Tm).

Lemma Tm_pos : 0 <= Tm. Proof. pose proof (Rabs_pos (B2R t)). lra. Qed.
Lemma plus_rounded (x : f64) X : is_finite x = true -> 0 <= B2R x <= 2 -> Rabs (B2R x - X) <= 5 * u64 ->
  is_finite (fadd t x) = true /\ B2R t <= B2R (fadd t x) /\ Rabs (B2R (fadd t x) - (B2R t + X)) <= et.
Proof.
  intros Fx Bx Ex. pose proof u64_pos. pose proof Tm_pos.
  assert (Rabs (B2R t + B2R x) <= Tm + 2).
  { eapply Rle_trans; [apply Rabs_triang|]. rewrite (Rabs_right (B2R x)) by lra. lra. }
  assert (Tm + 2 <= big).
  { unfold big. apply Rle_trans with (bpow radix2 1005 + bpow radix2 1005).
    - apply Rplus_le_compat; [exact HT2|]. change 2 with (bpow radix2 1). apply bpow_le. lia.
    - replace (bpow radix2 1005 + bpow radix2 1005) with (bpow radix2 1006); [apply bpow_le; lia|].
      change 1006%Z with (1 + 1005)%Z. rewrite bpow_plus. change (bpow radix2 1) with 2. ring. }
  destruct (fadd_err t x Ft Fx ltac:(lra)) as (F & E).
  split; [exact F|]. split.
  - destruct (fadd_correct t x Ft Fx) as (Q & _); [apply rnd_fits; lra|]. rewrite Q. apply rnd_ge_f. lra.
  - apply Rle_trans with (u64 * (Tm + 3) + 5 * u64).
    + eapply Rabs_chain; [eapply Rle_trans; [exact E|]; apply Rmult_le_compat_l; lra|].
      replace (_ - _) with (B2R x - X) by ring. exact Ex.
    + unfold et. assert (0 <= u64 * Tm) by (apply Rmult_le_pos; lra). lra.
Qed.
Lemma c_rounded z d : (Z.abs z < 2 ^ 53)%Z -> (Zpos d < 2 ^ 53)%Z -> 1/5 <= IZR z / IZR (Zpos d) <= 1 ->
  let x := fmul (f_lit z d) dt in
  is_finite x = true /\ 0 <= B2R x <= 2 /\ Rabs (B2R x - IZR z / IZR (Zpos d) * B2R dt) <= 5 * u64.
Proof.
  intros Hz Hd Hc x. pose proof u64_pos. pose proof u64_small.
  destruct (lit_err z d Hz Hd) as (F & E). set (c := IZR z / IZR (Zpos d)) in *. clearbody c.
  rewrite (Rabs_right c) in E by lra.
  assert (Rabs (B2R (f_lit z d) - c) <= 2 * u64) as E' by (eapply Rle_trans; [exact E|]; nra). clear E.
  pose proof (Rabs_le_inv _ _ E') as B.
  assert (0 <= B2R (f_lit z d) * B2R dt <= 1001/1000).
  { split; [apply Rmult_le_pos; lra|]. rewrite <- (Rmult_1_r (1001/1000)). apply Rmult_le_compat; lra. }
  assert (Rabs (B2R (f_lit z d) * B2R dt) <= big) as Bb by (rewrite Rabs_right by lra; pose proof (W_big W HW HW2 2 ltac:(lra)); lra).
  destruct (fmul_err (f_lit z d) dt F Fdt Bb) as (Fx & Ex). fold x in Fx, Ex.
  rewrite (Rabs_right (_ * _)) in Ex by lra.
  split; [exact Fx|].
  assert (Rabs (B2R x - c * B2R dt) <= 5 * u64) as E2.
  { apply Rle_trans with (u64 * (1001/1000 + 1) + 2 * u64 * 1); [|lra]. eapply Rabs_chain.
    - eapply Rle_trans; [exact Ex|]. apply Rmult_le_compat_l; lra.
    - rewrite <- Rmult_minus_distr_r, Rabs_mult. apply Rmult_le_compat; try apply Rabs_pos; [exact E'|].
      rewrite Rabs_right; lra. }
  split; [|exact E2]. split.
  - destruct (fmul_correct (f_lit z d) dt F Fdt (rnd_fits _ Bb)) as (Q & _). fold x in Q. rewrite Q. apply rnd_ge_0. lra.
  - apply Rabs_le_inv in Ex. assert (u64 * (1001/1000 + 1) <= 1/2) by lra.
    assert (u64 * (B2R (f_lit z d) * B2R dt + 1) <= u64 * (1001/1000 + 1)) by (apply Rmult_le_compat_l; lra). lra.
Qed.

Lemma rounded_times l : (l < 7)%nat ->
  is_finite (tf_ l) = true /\ B2R t <= B2R (tf_ l) /\ Rabs (B2R (tf_ l) - (B2R t + dc l * B2R dt)) <= et.
Proof.
  intros Hl. pose proof u64_pos. pose proof Tm_pos.
  Ltac cst z d c := let F := fresh in let B := fresh in let E := fresh in
    destruct (c_rounded z d ltac:(reflexivity) ltac:(reflexivity) ltac:(lra)) as (F & B & E);
    cbn [tf_]; unfold dc, dopri_rows; cbn [nth fst];
    replace c with (IZR z / IZR (Zpos d)) by lra; exact (plus_rounded _ _ F B E).
  Ltac full := cbn [tf_]; unfold dc, dopri_rows; cbn [nth fst]; unfold tph; rewrite Rmult_1_l; apply plus_rounded; 
    [assumption|lra|rewrite Rminus_eq_0, Rabs_R0; lra].
  destruct l as [|[|[|[|[|[|[|l]]]]]]]; [|cst 2%Z 10%positive (1/5)|cst 3%Z 10%positive (3/10)|cst 8%Z 10%positive (4/5)|cst 8%Z 9%positive (8/9)|full|full|lia].
  cbn [tf_]. split; [assumption|]. split; [lra|]. unfold dc, dopri_rows; cbn [nth fst].
  rewrite Rmult_0_l, Rplus_0_r, Rminus_eq_0, Rabs_R0. unfold et. apply Rmult_le_pos; lra.
Qed.

Lemma rounded_stages F t0 tf y M rr d e ea :
  evaluates n f p F t0 tf y rr d -> M + 2 <= W -> et <= e -> d <= e -> 600 * u64 * W <= ea ->
  t0 <= B2R t -> B2R t + B2R dt + et <= tf ->
  pert_stages n F t0 tf y M rr (B2R t) (B2R dt) e ea (Rvec u) (fun l => Rvec (kf l)) (fun l => Rvec (yf l)) (fun l => B2R (tf_ l)) good.
Proof.
  intros Hev HM He Hd Hea Ht0 Htf.
  assert (forall l, (l < 7)%nat -> t0 <= B2R (tf_ l) <= tf) as Hspan.
  { intros l Hl. destruct (rounded_times l Hl) as (F1 & F2 & F3). apply Rabs_le_inv in F3.
    pose proof (dc_range l). assert (dc l * B2R dt <= 1 * B2R dt) by (apply Rmult_le_compat_r; lra). lra. }
  constructor.
  - intros l Hl. destruct (rounded_times l Hl) as (F1 & F2 & F3). rewrite Rvec_length. split; [apply Ly|].
    split; [apply Hspan; exact Hl|]. lra.
  - intros l Hl HG i Hi. destruct (rounded_points l Hl HG i Hi) as (_ & E). rewrite !comp_Rvec.
    erewrite (rsum_ext l (fun m => da l m * comp (Rvec (kf m)) i)); [eapply Rle_trans; [exact E|exact Hea]|].
    intros m Hm. cbn beta. rewrite comp_Rvec. reflexivity.
  - intros l Hl HG Hc.
    assert (finite_vec (yf l)) as Fy.
    { apply finite_at. intros i Hi. rewrite Ly in Hi. apply (rounded_points l Hl HG i Hi). }
    assert (forall i, (i < n)%nat -> is_finite (fat (kf l) i : f64) = true /\
              Rabs (comp (Rvec (kf l)) i - comp (F (B2R (tf_ l)) (Rvec (yf l))) i) <= d) as Hk.
    { intros i Hi. rewrite comp_Rvec, kf_call.
      assert (fat (@call_rhs A P f (bf l) (yf l) (tf_ l) p) i = f (bf l) (yf l) (tf_ l) p i) as ->.
      { apply (@call_rhs_at A). change (i < @length f64 (bf l))%nat. rewrite Lb. exact Hi. }
      apply Hev; try assumption; [apply Lb|apply Ly|apply rounded_times; exact Hl|apply Hspan; exact Hl]. }
    split.
    + intros i Hi. destruct (Hk i Hi). lra.
    + intros HB i Hi. destruct (Hk i Hi) as (F1 & _). split; [exact F1|]. rewrite <- comp_Rvec. specialize (HB i Hi). lra.
Qed.
End Stage.
