(** Order facts about binary64 used for the recorded times in f64: quotients,
    minima and maxima of step-size factors, and the distance between
    [t + (tfinal - t)] and [tfinal]. *)
From Coq Require Import ZArith Bool Reals Lra Lia Psatz.
From Flocq Require Import Core BinarySingleNaN Relative Plus_error Sterbenz.
From Verif Require Import Arith ArithF FFacts FMono.
Local Open Scope R_scope.
Local Existing Instance prec_gt_0_53.
Local Existing Instance prec_lt_emax_53.

Global Instance fexp64_not_FTZ : Exp_not_FTZ fexp64.
Proof. change (Exp_not_FTZ (FLT_exp (-1074) 53)). apply monotone_exp_not_FTZ; [apply FLT_exp_valid; reflexivity|apply FLT_exp_monotone]. Qed.

(** [x] is at least the real [c], infinity included. *)
Definition fge (c : R) (x : f64) : Prop := x = finf \/ (is_finite x = true /\ c <= B2R x).
Definition fpos (x : f64) : Prop := x = finf \/ (is_finite x = true /\ 0 < B2R x).

Lemma fge_0 x : fleb fzero x = true <-> fge 0 x.
Proof. apply fge0_cases. Qed.
Lemma fge_weaken a b x : fge a x -> b <= a -> fge b x.
Proof. intros [->|(H1 & H2)] H; [now left|right; split; [assumption|lra]]. Qed.
Lemma fge_pos c x : 0 < c -> fge c x -> fpos x.
Proof. intros Hc [->|(H1 & H2)]; [now left|right; split; [assumption|lra]]. Qed.
Lemma fpos_ge x : fpos x -> fge 0 x.
Proof. intros [->|(H1 & H2)]; [now left|right; split; [assumption|lra]]. Qed.

Lemma finite_not_nan (x : f64) : is_finite x = true -> is_nan x = false.
Proof. now destruct x. Qed.
Lemma fge_not_nan c x : fge c x -> is_nan x = false.
Proof. intros [->|(H & _)]; [reflexivity|now apply finite_not_nan]. Qed.

Lemma fleb_fge (a x : f64) : is_finite a = true -> fleb a x = true -> fge (B2R a) x.
Proof.
  intros Ha H. destruct (is_finite x) eqn:Fx.
  - right. split; [assumption|]. now apply fleb_R.
  - left. destruct x as [s|s| |s m e He]; try discriminate.
    + destruct s; [|reflexivity]. exfalso. destruct a as [[]|s| |[] m e He]; discriminate.
    + exfalso. destruct a as [[]|s| |[] m e He]; discriminate.
Qed.
Lemma fge_fleb (a x : f64) : is_finite a = true -> fge (B2R a) x -> fleb a x = true.
Proof.
  intros Ha [->|(H1 & H2)].
  - destruct a as [s|s| |s m e He]; try discriminate; destruct s; reflexivity.
  - now apply fleb_R.
Qed.
Lemma fltb_fpos (x : f64) : fltb fzero x = true -> fpos x.
Proof.
  intros H. destruct (is_finite x) eqn:Fx.
  - right. split; [assumption|]. apply fltb_R in H; [exact H|reflexivity|assumption].
  - left. destruct x as [s|s| |s m e He]; try discriminate; destruct s; try discriminate; reflexivity.
Qed.

Lemma fsign_le0 (x : f64) : is_finite x = true -> 0 < B2R x -> Bsign x = false.
Proof. apply fsign_ge0. Qed.

Lemma rnd_le x y : x <= y -> rnd64 x <= rnd64 y.
Proof. intros H. apply round_le; try typeclasses eauto. exact H. Qed.
Lemma rnd_id (x : f64) : rnd64 (B2R x) = B2R x.
Proof. apply round_generic; [typeclasses eauto|apply f_format]. Qed.
Lemma rnd_ge_f (x : f64) y : B2R x <= y -> B2R x <= rnd64 y.
Proof. intros H. rewrite <- (rnd_id x). now apply rnd_le. Qed.
Lemma rnd_le_f (x : f64) y : y <= B2R x -> rnd64 y <= B2R x.
Proof. intros H. rewrite <- (rnd_id x). now apply rnd_le. Qed.
Lemma f_lt_emax (x : f64) : B2R x < bpow radix2 1024.
Proof. pose proof (abs_B2R_lt_emax 53 1024 x) as H. apply Rabs_def2 in H. lra. Qed.
Lemma f_gt_emax (x : f64) : - bpow radix2 1024 < B2R x.
Proof. pose proof (abs_B2R_lt_emax 53 1024 x) as H. apply Rabs_def2 in H. lra. Qed.

(** ** Division by a factor *)
Lemma fdiv_ge (d x : f64) c : is_finite d = true -> 0 <= B2R d -> 1 <= c -> fge c x ->
  is_finite (fdiv d x) = true /\ 0 <= B2R (fdiv d x) <= rnd64 (B2R d / c) /\ rnd64 (B2R d / c) <= B2R d.
Proof.
  intros Hd Pd Hc Hx.
  assert (0 <= B2R d / c <= B2R d) as Hq.
  { split; [apply Rmult_le_pos; [assumption|left; apply Rinv_0_lt_compat; lra]|].
    apply Rmult_le_reg_r with c; [lra|]. unfold Rdiv. rewrite Rmult_assoc, Rinv_l by lra. nra. }
  assert (rnd64 (B2R d / c) <= B2R d) as Hr by (apply rnd_le_f; lra).
  destruct Hx as [->|(Fx & Px)].
  - assert (is_finite (fdiv d finf) = true /\ B2R (fdiv d finf) = 0) as (E1 & E2).
    { destruct d as [s|s| |s m e He]; try discriminate; destruct s; split; reflexivity. }
    split; [exact E1|]. rewrite E2. split; [|exact Hr]. split; [lra|]. apply rnd_ge_0. lra.
  - assert (0 <= B2R d / B2R x <= B2R d / c) as Hx.
    { split; [apply Rmult_le_pos; [assumption|left; apply Rinv_0_lt_compat; lra]|].
      apply Rmult_le_compat_l; [assumption|]. apply Rinv_le; lra. }
    pose proof (Bdiv_correct 53 1024 _ _ mode_NE d x) as H.
    change (round_mode mode_NE) with (Znearest (fun x => negb (Z.even x))) in H.
    assert (0 <= rnd64 (B2R d / B2R x)) as P1 by (apply rnd_ge_0; lra).
    assert (rnd64 (B2R d / B2R x) <= rnd64 (B2R d / c)) as P2 by (apply rnd_le; lra).
    rewrite Rlt_bool_true in H.
    + destruct H as (H1 & H2 & _); [lra|]. unfold fdiv. rewrite H2, H1. repeat split; assumption.
    + rewrite Rabs_pos_eq by assumption. pose proof (f_lt_emax d). lra.
Qed.

Lemma fdiv_ge0 (d x : f64) : is_finite d = true -> 0 <= B2R d -> fpos x -> fge 0 (fdiv d x).
Proof.
  intros Hd Pd [->|(Fx & Px)].
  - right. destruct d as [s|s| |s m e He]; try discriminate; destruct s; split; try reflexivity; cbn; lra.
  - assert (0 <= B2R d / B2R x) as Hx by (apply Rmult_le_pos; [assumption|left; apply Rinv_0_lt_compat; lra]).
    pose proof (Bdiv_correct 53 1024 _ _ mode_NE d x) as H.
    change (round_mode mode_NE) with (Znearest (fun x => negb (Z.even x))) in H.
    destruct (Rlt_bool _ _) eqn:E; (specialize (H ltac:(lra))).
    + right. destruct H as (H1 & H2 & _). unfold fdiv. rewrite H1, H2. split; [assumption|now apply rnd_ge_0].
    + left. apply finf_of. unfold fdiv. rewrite H. rewrite (fsign_ge0 x) by assumption.
      destruct (Req_dec (B2R d) 0) as [E0|E0].
      * exfalso. rewrite E0 in E. unfold Rdiv in E. rewrite Rmult_0_l, round_0, Rabs_R0 in E by typeclasses eauto.
        rewrite Rlt_bool_true in E by apply bpow_gt_0. discriminate.
      * rewrite (fsign_ge0 d) by (try assumption; lra). reflexivity.
Qed.

(** A quotient of something at least [a] by something at most [b]. *)
Lemma fdiv_lower (y s c : f64) a b : is_finite c = true -> is_finite s = true -> 0 < B2R s <= b -> 0 < a ->
  B2R c <= a / b -> fge a y -> fge (B2R c) (fdiv y s).
Proof.
  intros Fc Fs (Ps & Hs) Ha Hc [->|(Fy & Py)].
  - left. pose proof (fsign_ge0 s Fs Ps) as Sg.
    destruct s as [?|?| |? m e He]; try discriminate; cbn in Sg, Ps |- *; try lra. now subst.
  - assert (a / b <= B2R y / B2R s) as Hq.
    { apply Rmult_le_compat; [lra|left; apply Rinv_0_lt_compat; lra|assumption|]. apply Rinv_le; lra. }
    pose proof (Bdiv_correct 53 1024 _ _ mode_NE y s) as H.
    change (round_mode mode_NE) with (Znearest (fun x => negb (Z.even x))) in H.
    destruct (Rlt_bool _ _) eqn:E; (specialize (H ltac:(lra))).
    + right. destruct H as (H1 & H2 & _). unfold fdiv. rewrite H1, H2. split; [assumption|].
      apply rnd_ge_f. lra.
    + left. apply finf_of. unfold fdiv. rewrite H. rewrite (fsign_ge0 s) by assumption.
      rewrite (fsign_ge0 y) by (try assumption; lra). reflexivity.
Qed.

Lemma fdiv_nan (y : f64) : fdiv fnan y = fnan. Proof. now destruct y. Qed.

(** ** Minima and maxima *)
Lemma fmin_ge c (a y : f64) : fge c a -> y = fnan \/ fge c y -> fge c (fmin a y).
Proof.
  intros Ha Hy. unfold fmin. rewrite (fge_not_nan _ _ Ha). destruct Hy as [->|Hy]; [exact Ha|].
  rewrite (fge_not_nan _ _ Hy). destruct (fltb y a); assumption.
Qed.
Lemma fltb_not_pos (a y : f64) : fpos a -> fltb a y = true -> fpos y.
Proof.
  intros [->|(Fa & Pa)] H.
  - destruct y as [s|s| |s m e He]; try destruct s; discriminate.
  - destruct (is_finite y) eqn:Fy.
    + right. split; [assumption|]. apply fltb_R in H; [lra|assumption..].
    + left. destruct y as [s|s| |s m e He]; try discriminate.
      * destruct s; [|reflexivity]. exfalso. destruct a as [[]|s| |[] m e He]; discriminate.
      * exfalso. destruct a as [[]|s| |[] m e He]; discriminate.
Qed.
Lemma fmax_pos (a y : f64) : fpos a -> fpos (fmax a y).
Proof.
  intros Ha. unfold fmax. rewrite (fge_not_nan 0 a) by now apply fpos_ge.
  destruct (is_nan y); [assumption|]. destruct (fltb a y) eqn:E; [|assumption]. now apply (fltb_not_pos a).
Qed.

(** ** Literals *)
Lemma lit_R n d s m e : B2SF (f_lit n d) = SpecFloat.S754_finite s m e ->
  is_finite (f_lit n d) = true /\ B2R (f_lit n d) = F2R (Float radix2 (cond_Zopp s (Zpos m)) e).
Proof.
  intros H. split; [|rewrite <- SF2R_B2SF, H; reflexivity].
  destruct (f_lit n d); try discriminate. reflexivity.
Qed.
Lemma lit_101_100 : is_finite (f_lit 101 100) = true /\ 1 <= B2R (f_lit 101 100).
Proof.
  edestruct (lit_R 101 100) as (H1 & H2); [vm_compute; reflexivity|]. split; [exact H1|]. rewrite H2.
  unfold F2R. cbn. lra.
Qed.
Lemma lit_99_100 : is_finite (f_lit 99 100) = true /\ 0 < B2R (f_lit 99 100) <= 991/1000.
Proof.
  edestruct (lit_R 99 100) as (H1 & H2); [vm_compute; reflexivity|]. split; [exact H1|]. rewrite H2.
  unfold F2R. cbn. lra.
Qed.
Lemma lit_1005_1000 : is_finite (f_lit 1005 1000) = true /\ 1004/1000 <= B2R (f_lit 1005 1000) <= 1006/1000.
Proof.
  edestruct (lit_R 1005 1000) as (H1 & H2); [vm_compute; reflexivity|]. split; [exact H1|]. rewrite H2.
  unfold F2R. cbn. lra.
Qed.

(** ** Sums and differences *)
Lemma fsub_R (x y : f64) : is_finite x = true -> is_finite y = true -> is_finite (fsub x y) = true ->
  B2R (fsub x y) = rnd64 (B2R x - B2R y).
Proof.
  intros Hx Hy Hf. pose proof (Bminus_correct 53 1024 _ _ mode_NE x y Hx Hy) as H. fold (fsub x y) in H.
  destruct (Rlt_bool _ _) eqn:E; [apply H|]. exfalso. destruct H as (H & _).
  destruct (fsub x y); try discriminate.
Qed.
Lemma fadd_R (x y : f64) : is_finite x = true -> is_finite y = true -> is_finite (fadd x y) = true ->
  B2R (fadd x y) = rnd64 (B2R x + B2R y).
Proof.
  intros Hx Hy Hf. pose proof (Bplus_correct 53 1024 _ _ mode_NE x y Hx Hy) as H. fold (fadd x y) in H.
  destruct (Rlt_bool _ _) eqn:E; [apply H|]. exfalso. destruct H as (H & _).
  destruct (fadd x y); try discriminate.
Qed.

(** Adding [d >= 0] to [t] without exceeding the number [a]. *)
Lemma fadd_below (t d a : f64) : is_finite t = true -> is_finite d = true ->
  0 <= B2R d -> rnd64 (B2R t + B2R d) <= B2R a ->
  is_finite (fadd t d) = true /\ B2R (fadd t d) = rnd64 (B2R t + B2R d) /\ B2R t <= B2R (fadd t d) <= B2R a.
Proof.
  intros Ft Fd Pd Ha.
  assert (B2R t <= rnd64 (B2R t + B2R d)) as Hl by (apply rnd_ge_f; lra).
  pose proof (f_lt_emax a). pose proof (f_gt_emax t).
  destruct (fadd_correct t d Ft Fd) as (E1 & E2); [apply Rabs_def1; lra|].
  rewrite E1. auto.
Qed.

(** A difference is rounded to a number of the right sign. *)
Lemma fsub_pos (x y : f64) : is_finite x = true -> is_finite y = true -> B2R y < B2R x -> fpos (fsub x y).
Proof.
  intros Hx Hy Hlt. assert (fge 0 (fsub x y)) as [H|(H1 & H2)].
  { apply fge_0. apply fsub_ge0; [assumption|]. apply fleb_R; [assumption..|lra]. }
  - now left.
  - right. split; [assumption|]. rewrite (fsub_R x y) in * by assumption.
    assert (rnd64 (B2R x - B2R y) <> 0); [|lra]. unfold Rminus.
    apply round_plus_neq_0; try typeclasses eauto; try apply f_format; [|lra].
    apply generic_format_opp, f_format.
Qed.

Lemma fmul_one_pos (w : f64) : fpos w -> fltb fzero (fmul w (f_of_Z 1)) = true.
Proof.
  intros [->|(H1 & H2)]; [vm_compute; reflexivity|].
  rewrite fmul_1_r by assumption. apply fltb_R; [reflexivity|assumption|exact H2].
Qed.

Lemma fadd_finf (t : f64) : is_finite t = true -> fadd t finf = finf.
Proof. destruct t as [s|s| |s m e He]; intros H; try discriminate; reflexivity. Qed.
Lemma fsub_finf (t : f64) : is_finite t = true -> fsub finf t = finf.
Proof. destruct t as [s|s| |s m e He]; intros H; try discriminate; reflexivity. Qed.
Lemma fmul_finf (c : f64) : is_finite c = true -> 0 < B2R c -> fmul c finf = finf.
Proof.
  intros H P. pose proof (fsign_ge0 c H P) as Sg.
  destruct c as [s|s| |s m e He]; try discriminate; cbn in *; [lra|now subst].
Qed.

(** The test that decides whether a step is cut at [tf]: when it fails, the
    step does not go beyond [tf]. *)
Lemma uncut_step (t tf d : f64) : is_finite t = true -> is_finite tf = true -> fge 0 d ->
  fltb fzero (fmul (fsub (fadd t (fmul (f_lit 101 100) d)) tf) (f_of_Z 1)) = false ->
  is_finite d = true /\ 0 <= B2R d /\ rnd64 (B2R t + B2R d) <= B2R tf.
Proof.
  intros Ft Ff Hd H. destruct lit_101_100 as (L1 & L2).
  set (q := f_lit 101 100) in *. clearbody q.
  assert (fltb fzero (fmul (fsub finf tf) (f_of_Z 1)) = true) as Hinf.
  { apply fmul_one_pos. left. now apply fsub_finf. }
  pose proof (fadd_finf t Ft) as Hadd.
  destruct Hd as [->|(Fd & Pd)].
  { exfalso. rewrite fmul_finf, Hadd, Hinf in H; [discriminate|assumption|lra]. }
  split; [assumption|]. split; [assumption|].
  assert (fge 0 (fmul q d)) as [E|(Fy & Py)].
  { apply fge_0. apply fmul_ge0; try assumption; [lra|]. apply fge_0. right. auto. }
  { exfalso. rewrite E, Hadd, Hinf in H. discriminate. }
  assert (B2R d <= B2R (fmul q d)) as Hy.
  { pose proof (Bmult_correct 53 1024 _ _ mode_NE q d) as M.
    change (round_mode mode_NE) with (Znearest (fun x => negb (Z.even x))) in M.
    fold (fmul q d) in M. destruct (Rlt_bool _ _).
    - destruct M as (-> & _). apply rnd_ge_f. nra.
    - exfalso. destruct (fmul q d); discriminate. }
  set (y := fmul q d) in *. clearbody y.
  assert (fge (B2R t) (fadd t y)) as [E|(Fz & Pz)].
  { apply fleb_fge; [assumption|]. apply fadd_le; [assumption|]. apply fge_0. right. auto. }
  { exfalso. rewrite E, Hinf in H. discriminate. }
  assert (B2R (fadd t y) <= B2R tf) as Hz.
  { destruct (Rle_or_lt (B2R (fadd t y)) (B2R tf)) as [Hle|Hlt]; [assumption|]. exfalso.
    rewrite fmul_one_pos in H; [discriminate|]. now apply fsub_pos. }
  rewrite fadd_R in Hz by assumption. apply Rle_trans with (2 := Hz). apply rnd_le. lra.
Qed.

(** [tf - t], rounded: the distance to the exact difference, none when it is small. *)
Lemma diff_rounded (t tf : f64) : is_finite t = true -> is_finite tf = true -> B2R t <= B2R tf ->
  let r := B2R tf - B2R t in
  Rabs (rnd64 r - r) <= bpow radix2 (-53) * r /\ (r <= bpow radix2 (-1021) -> rnd64 r = r).
Proof.
  intros Ft Ff Hle r.
  assert (generic_format radix2 (FLT_exp (-1074) 53) (- B2R t)) as Fmt by (apply generic_format_opp, (f_format t)).
  split.
  - destruct (FLT_plus_error_N_ex radix2 (-1074) 53 (fun x => negb (Z.even x)) (B2R tf) (- B2R t)) as (e & He & E);
      [exact (f_format tf)|exact Fmt|].
    change (B2R tf + - B2R t) with r in E.
    change (round radix2 (FLT_exp (-1074) 53) (Znearest (fun x => negb (Z.even x))) r) with (rnd64 r) in E.
    rewrite E. replace (r * (1 + e) - r) with (e * r) by ring. rewrite Rabs_mult.
    assert (0 <= r) as Pr by (unfold r; lra). rewrite (Rabs_pos_eq r) by assumption.
    apply Rmult_le_compat_r; [assumption|]. apply Rle_trans with (1 := He).
    assert (u_ro radix2 53 = bpow radix2 (-53)) as -> by (unfold u_ro; cbn; lra).
    pose proof (bpow_gt_0 radix2 (-53)) as Pu. set (u := bpow radix2 (-53)) in *. clearbody u.
    apply Rmult_le_reg_r with (1 + u); [lra|]. unfold Rdiv. rewrite Rmult_assoc, Rinv_l by lra. nra.
  - intros Hs. change (rnd64 r) with (round radix2 (FLT_exp (-1074) 53) (Znearest (fun x => negb (Z.even x))) r).
    apply round_generic; [typeclasses eauto|]. unfold r, Rminus.
    apply FLT_format_plus_small; [exact eq_refl|exact (f_format tf)|exact Fmt|].
    rewrite Rabs_pos_eq; [exact Hs|lra].
Qed.

(** After a rejection, the step that was to end at [tf] ends before it. *)
Lemma cut_rejected (t tf x : f64) : is_finite t = true -> is_finite tf = true -> B2R t <= B2R tf ->
  is_finite (fsub tf t) = true -> fge (1004/1000) x ->
  is_finite (fdiv (fsub tf t) x) = true /\ 0 <= B2R (fdiv (fsub tf t) x) /\
  rnd64 (B2R t + B2R (fdiv (fsub tf t) x)) <= B2R tf.
Proof.
  intros Ft Ff Hle FD Hx.
  pose proof (fsub_R tf t Ff Ft FD) as ED. set (D := fsub tf t) in *. clearbody D.
  destruct (diff_rounded t tf Ft Ff Hle) as (H1 & H2). set (r := B2R tf - B2R t) in *.
  assert (0 <= r) as Pr by (unfold r; lra).
  assert (0 <= B2R D) as PD by (rewrite ED; now apply rnd_ge_0).
  destruct (fdiv_ge D x (1004/1000) FD PD ltac:(lra) Hx) as (Q1 & (Q2 & Q3) & Q4).
  split; [assumption|]. split; [assumption|]. apply rnd_le_f.
  assert (B2R (fdiv D x) <= r); [|unfold r in *; lra].
  destruct (Rle_or_lt r (bpow radix2 (-1021))) as [Hs|Hs].
  - rewrite H2 in ED by assumption. lra.
  - apply Rle_trans with (1 := Q3).
    destruct (error_N_FLT radix2 (-1074) 53 eq_refl (fun x => negb (Z.even x)) (B2R D / (1004/1000))) as (e & h & He & Hh & _ & E).
    change (round radix2 (FLT_exp (-1074) 53) (Znearest (fun x => negb (Z.even x))) (B2R D / (1004/1000)))
      with (rnd64 (B2R D / (1004/1000))) in E.
    rewrite E. rewrite <- ED in H1. apply Rabs_le_inv in H1, He, Hh.
    change (- (53) + 1)%Z with (-52)%Z in He.
    assert (bpow radix2 (-52) <= 1/100000) as B1 by (cbn; lra).
    assert (bpow radix2 (-53) <= 1/100000) as B2 by (cbn; lra).
    assert (bpow radix2 (-1074) <= 1/100000 * bpow radix2 (-1021)) as B3.
    { replace (bpow radix2 (-1074)) with (bpow radix2 (-53) * bpow radix2 (-1021)) by (rewrite <- bpow_plus; reflexivity).
      apply Rmult_le_compat_r; [apply bpow_ge_0|lra]. }
    set (b1 := bpow radix2 (-52)) in *. set (b2 := bpow radix2 (-53)) in *.
    set (b3 := bpow radix2 (-1074)) in *. set (b4 := bpow radix2 (-1021)) in *. clearbody b1 b2 b3 b4 r.
    assert (B2R D <= r * (1 + 1/100000)) by nra.
    assert (B2R D / (1004/1000) * (1 + e) <= B2R D / (1004/1000) * (1 + 1/100000)).
    { apply Rmult_le_compat_l; [lra|lra]. }
    lra.
Qed.

(** [t + (tf - t)], both operations rounded, against [tf]. *)
Lemma end_distance (t tf : f64) : is_finite t = true -> is_finite tf = true -> B2R t <= B2R tf ->
  is_finite (fsub tf t) = true -> is_finite (fadd t (fsub tf t)) = true ->
  Rabs (B2R (fadd t (fsub tf t)) - B2R tf) <= bpow radix2 (-52) * (B2R tf - B2R t).
Proof.
  intros Ft Ff Hle FD FE. rewrite (fadd_R t) by assumption.
  pose proof (fsub_R tf t Ff Ft FD) as ED. set (D := fsub tf t) in *. clearbody D.
  destruct (diff_rounded t tf Ft Ff Hle) as (H1 & _). rewrite <- ED in H1.
  set (y := B2R t + B2R D).
  assert (Rabs (rnd64 y - y) <= Rabs (B2R tf - y)) as HN.
  { destruct (round_N_pt radix2 fexp64 (fun x => negb (Z.even x)) y) as (_ & HN). apply HN. apply f_format. }
  replace (bpow radix2 (-52)) with (2 * bpow radix2 (-53)) by (cbn; lra).
  set (b2 := bpow radix2 (-53)) in *. clearbody b2.
  replace (B2R D - (B2R tf - B2R t)) with (- (B2R tf - y)) in H1 by (unfold y; ring). rewrite Rabs_Ropp in H1.
  replace (rnd64 y - B2R tf) with ((rnd64 y - y) + - (B2R tf - y)) by ring.
  apply Rle_trans with (1 := Rabs_triang _ _). rewrite Rabs_Ropp. lra.
Qed.

Lemma end_exact (t tf : f64) : is_finite t = true -> is_finite tf = true -> B2R t <= B2R tf ->
  is_finite (fsub tf t) = true ->
  B2R tf <= 2 * B2R t \/ 2 * B2R tf <= B2R t ->
  is_finite (fadd t (fsub tf t)) = true /\ B2R (fadd t (fsub tf t)) = B2R tf.
Proof.
  intros Ft Ff Hle FD Hs.
  pose proof (fsub_R tf t Ff Ft FD) as ED. set (D := fsub tf t) in *. clearbody D.
  assert (format64 (B2R tf - B2R t)) as Fm.
  { destruct Hs as [Hs|Hs].
    - apply sterbenz; try typeclasses eauto; try apply f_format. lra.
    - replace (B2R tf - B2R t) with (- B2R t - - B2R tf) by ring.
      apply sterbenz; try typeclasses eauto; try (apply generic_format_opp, f_format). lra. }
  rewrite (round_generic radix2 fexp64 _ _ Fm) in ED.
  assert (rnd64 (B2R t + B2R D) = B2R tf) as E.
  { replace (B2R t + B2R D) with (B2R tf) by lra. apply rnd_id. }
  destruct (fadd_correct t D Ft) as (E1 & E2).
  - destruct D as [s|s| |s m e He]; try discriminate; reflexivity.
  - rewrite E. apply abs_B2R_lt_emax.
  - rewrite E1. auto.
Qed.
