(** The finite-difference Jacobian: what is evaluated and what is written, in
    every arithmetic; exactness for affine right-hand sides over the reals; the
    lost increment in f64. *)
From Coq Require Import ZArith List Bool Lia Reals Lra.
From Flocq Require Import Core BinarySingleNaN.
From Verif Require Import Arith Vec Core Linalg Jacobian Spec VecFacts LinFacts RadauFacts DP5Det ArithR ArithF SpecRK RKFacts SpecODE SpecLin LinSpec DP5Inv FFacts.
Import ListNotations.

Section JacAny.
Context {A : arith} {P : Type}.

(** [u] with component [i] moved by its increment. *)
Definition moved (u : vec A) (i : nat) : vec A := upd u i (add A (at_ u i) (fd_delta (at_ u i))).

Lemma jacobian_fd (f : rhs A P) df u t p tr :
  overwrites f -> shaped (length u) (length u) df ->
  exists df', jacobian_u f None df u t p tr =
      Ok (df', rev (map (fun i => EvF t (moved u i)) (seq 0 (length u))) ++ EvF t u :: EvJ t u :: tr) /\
    shaped (length u) (length u) df' /\
    forall r c, r < length u -> c < length u ->
      at2 df' r c = div A (sub A (at_ (call_rhs f (zeros (length u)) (moved u c) t p) r)
                                 (at_ (call_rhs f (zeros (length u)) u t p) r)) (fd_delta (at_ u c)).
Proof.
  intros Hf Hdf. unfold jacobian_u. set (n := length u) in *.
  set (du0 := call_rhs f (zeros n) u t p).
  destruct (for_range_ind 0 n (fd_column f t p n du0)
    (fun q st => let '(df, ut, d1, tr') := st in shaped n n df /\ ut = u /\ length d1 = n /\
      tr' = rev (map (fun i => EvF t (moved u i)) (seq 0 q)) ++ EvF t u :: EvJ t u :: tr /\
      forall r c, r < n -> c < q -> at2 df r c =
        div A (sub A (at_ (call_rhs f (zeros n) (moved u c) t p) r) (at_ du0 r)) (fd_delta (at_ u c)))
    (df, u, zeros n, EvF t u :: EvJ t u :: tr)) as ([[[a b] c] tr0] & E & H1 & H2 & H3 & H4 & H5).
  - split; [assumption|]. split; [reflexivity|]. split; [apply zeros_length|]. split; [reflexivity|]. intros r q Hr Hq. lia.
  - intros i [[[a b] c] tr0] Hi (H1 & H2 & H3 & H4 & H5). subst b.
    destruct (fd_column_ok f t p n du0 i a u c tr0) as (df' & E & H6 & H7); auto; try lia.
    { unfold du0. now rewrite call_rhs_length, zeros_length. }
    eexists. split; [exact E|]. cbn beta iota.
    split; [assumption|]. split; [reflexivity|]. split; [now rewrite call_rhs_length|]. split.
    + subst tr0. rewrite seq_S, map_app, rev_app_distr. reflexivity.
    + intros r q Hr Hq. rewrite H7 by exact Hr. destruct (Nat.eqb_spec q i) as [->|Hne]; [|apply H5; lia].
      rewrite call_rhs_at by (rewrite zeros_length; exact Hr). unfold moved. f_equal. f_equal.
      apply Hf; [now rewrite zeros_length|lia].
  - lia.
  - exists a. subst tr0. split; [|split; [exact H1|exact H5]].
    etransitivity; [apply (f_equal (fun r => bind r _) E)|]. reflexivity.
Qed.

Lemma moved_length (u : vec A) i : length (moved u i) = length u.
Proof. apply upd_length. Qed.
Lemma moved_other (u : vec A) i j : j <> i -> i < length u -> at_ (moved u i) j = at_ u j.
Proof. intros H Hi. unfold moved, at_. rewrite upd_nth by exact Hi. now rewrite (proj2 (Nat.eqb_neq j i) H). Qed.

Lemma rhs_calls_rev_map (g : nat -> vec A) t l : rhs_calls (rev (map (fun i => EvF t (g i)) l)) = length l.
Proof.
  rewrite rhs_calls_all_f; [now rewrite rev_length, map_length|].
  intros e He. apply in_rev in He. apply in_map_iff in He as (i & <- & _). eauto.
Qed.
Lemma mat_ext n m (a b : mat A) : shaped n m a -> shaped n m b ->
  (forall i j, i < n -> j < m -> at2 a i j = at2 b i j) -> a = b.
Proof.
  intros Ha Hb H. pose proof (proj1 (is_shape_spec _ _ _) Ha) as (Ha1 & Ha2).
  pose proof (proj1 (is_shape_spec _ _ _) Hb) as (Hb1 & Hb2).
  apply (nth_ext _ _ [] []); [congruence|]. intros i Hi.
  apply (nth_ext _ _ n0 n0).
  - rewrite (shaped_row n m a i Ha), (shaped_row n m b i Hb); auto; lia.
  - intros j Hj. rewrite (shaped_row n m a i Ha) in Hj by lia. apply H; [lia|exact Hj].
Qed.

Lemma fd_evaluations (f : rhs A P) df u t p tr :
  overwrites f -> is_shape (length u) (length u) df = true ->
  exists df' new, jacobian_u f None df u t p tr = Ok (df', new ++ tr) /\
    is_shape (length u) (length u) df' = true /\
    rhs_calls new = S (length u) /\
    (forall t' v, In (EvF t' v) new -> t' = t /\ length v = length u /\
       exists i, forall j, j <> i -> nth j v n0 = nth j u n0) /\
    (forall df2, is_shape (length u) (length u) df2 = true ->
       jacobian_u f None df2 u t p tr = Ok (df', new ++ tr)).
Proof.
  intros Hf Hdf. destruct (jacobian_fd f df u t p tr Hf Hdf) as (df' & E & Hs & Hv).
  exists df', (rev (map (fun i => EvF t (moved u i)) (seq 0 (length u))) ++ [EvF t u; EvJ t u]).
  split; [now rewrite <- app_assoc|]. split; [exact Hs|]. split; [|split].
  - rewrite rhs_calls_app, rhs_calls_rev_map, seq_length. cbn. unfold rhs_calls. cbn. lia.
  - intros t' v Hin. apply in_app_or in Hin as [Hin|[Hin|[Hin|[]]]].
    + apply in_rev in Hin. apply in_map_iff in Hin as (i & Hi & Hs2). apply in_seq in Hs2. inversion Hi; subst.
      split; [reflexivity|]. split; [apply moved_length|]. exists i. intros j Hj. apply (moved_other u i j Hj). lia.
    + inversion Hin; subst. split; [reflexivity|]. split; [reflexivity|]. exists 0. reflexivity.
    + discriminate.
  - intros df2 Hdf2. destruct (jacobian_fd f df2 u t p tr Hf Hdf2) as (df3 & E3 & Hs3 & Hv3).
    rewrite <- app_assoc. cbn [app]. rewrite E3. f_equal. f_equal.
    apply (mat_ext (length u) (length u)); auto. intros i j Hi Hj. now rewrite Hv3, Hv.
Qed.

(** ** [jacobian_t] *)
Lemma jacobian_t_fallback (f : rhs A P) df u t p : overwrites f -> length df = length u ->
  jacobian_t f None df u t p =
  Ok (map (fun x => div A (sub A x x) (mul A (eps A) (nmax A t (lit A 1 100000))))
          (call_rhs f (zeros (length u)) u t p)).
Proof.
  intros Hf Hl. unfold jacobian_t. rewrite Hl, Nat.eqb_refl. cbn [guard]. f_equal.
  rewrite (call_rhs_overwrites f df (zeros (length u)) u t p Hf) by now rewrite zeros_length.
  set (d := call_rhs f (zeros (length u)) u t p). clearbody d. induction d as [|x d IH]; [reflexivity|].
  cbn. f_equal. exact IH.
Qed.
End JacAny.

(** ** Exact arithmetic *)
Section JacR.
Context {inf : R} {P : Type}.
Notation RI := (RA inf).
Local Open Scope R_scope.

Lemma reps_pos : 0 < reps.
Proof. unfold reps. apply Rinv_0_lt_compat, IZR_lt. reflexivity. Qed.
Lemma fd_delta_pos (x : R) : 0 < @fd_delta RI x.
Proof.
  unfold fd_delta. apply sqrt_lt_R0. apply Rmult_lt_0_compat; [apply reps_pos|].
  cbn. unfold rlit. eapply Rlt_le_trans; [|apply Rmax_r]. lra.
Qed.

Lemma moved_comp (u : list R) i j : (i < length u)%nat ->
  comp (@moved RI u i) j = comp u j + (if Nat.eqb j i then @fd_delta RI (comp u i) else 0).
Proof.
  intros Hi. unfold moved, comp. change (@vec RI) with (list R). rewrite upd_nth by exact Hi.
  destruct (Nat.eqb_spec j i) as [->|]; [|lra]. unfold at_. rewrite (nth_indep u _ 0) by exact Hi. reflexivity.
Qed.

Lemma rsum_single n (g : nat -> R) i d : (i < n)%nat ->
  rsum n (fun j => g j * (if Nat.eqb j i then d else 0)) = g i * d.
Proof.
  intros Hi. induction n as [|n IH]; [lia|]. rewrite rsum_S.
  destruct (Nat.eq_dec i n) as [->|Hne].
  - rewrite Nat.eqb_refl. rewrite (rsum_ext n _ (fun _ => 0)); [rewrite rsum_zero; ring|].
    intros j Hj. rewrite (proj2 (Nat.eqb_neq j n)) by lia. ring.
  - rewrite IH by lia. rewrite (proj2 (Nat.eqb_neq n i)) by lia. ring.
Qed.

Lemma fd_affine (f : rhs RI P) (M : nat -> nat -> R) (c : nat -> R) df (u : list R) (t : R) p tr :
  overwrites f ->
  (forall v i, length v = length u -> (i < length u)%nat ->
     comp (ode f p t v) i = rsum (length u) (fun j => M i j * comp v j) + c i) ->
  square (length u) df ->
  exists df' tr', jacobian_u f None df u t p tr = Ok (df', tr') /\ square (length u) df' /\
    forall i j, (i < length u)%nat -> (j < length u)%nat -> entry df' i j = M i j.
Proof.
  intros Hf Haff Hdf. pose proof (square_shaped inf _ df Hdf) as Hs.
  destruct (jacobian_fd f df u t p tr Hf Hs) as (df' & E & Hs' & Hv).
  eexists df', _. split; [exact E|].
  assert (square (length u) df') as Hsq by exact (proj1 (is_shape_spec _ _ _) Hs').
  split; [exact Hsq|]. intros i j Hi Hj.
  rewrite <- (at2_entry inf (length u) df' i j Hsq Hi Hj). rewrite Hv by assumption.
  pose proof (Haff (@moved RI u j) i (moved_length u j) Hi) as H1. pose proof (Haff u i eq_refl Hi) as H2.
  unfold ode in H1, H2. rewrite (moved_length u j) in H1.
  assert (forall v, (at_ (call_rhs f (zeros (length u)) v t p) i : R) = comp (call_rhs f (zeros (length u)) v t p) i) as Hat.
  { intros v. apply (at_comp inf). rewrite call_rhs_length, zeros_length. exact Hi. }
  etransitivity; [apply (f_equal2 (fun a b => div RI (sub RI a b) (fd_delta (at_ u j))));
    [exact (eq_trans (Hat _) H1)|exact (eq_trans (Hat _) H2)]|].
  pose proof (fd_delta_pos (comp u j)) as Hd.
  assert (at_ u j = comp u j) as -> by (now apply (at_comp inf)).
  cbn [RI RA div sub]. rewrite rdiv_ok by lra.
  rewrite (rsum_ext _ _ (fun q => M i q * comp u q + M i q * (if Nat.eqb q j then @fd_delta RI (comp u j) else 0)))
    by (intros q Hq; rewrite moved_comp by exact Hj; ring).
  rewrite rsum_plus, rsum_single by exact Hj. field. lra.
Qed.

Lemma differences_zero (d : list R) (t : R) :
  map (fun x => div RI (sub RI x x) (mul RI (eps RI) (nmax RI t (lit RI 1 100000)))) d = repeat 0 (length d).
Proof.
  induction d as [|x d IH]; [reflexivity|]. cbn [map length repeat]. f_equal; [|exact IH].
  cbn [RI RA div sub mul eps nmax lit]. change (rdiv inf (x - x) (reps * Rmax t (rlit 1 100000)) = 0).
  rewrite rdiv_ok; [unfold Rdiv; replace (x - x) with 0 by lra; apply Rmult_0_l|].
  assert (0 < Rmax t (rlit 1 100000)) as Hm.
  { eapply Rlt_le_trans; [|apply Rmax_r]. unfold rlit. lra. }
  apply Rgt_not_eq. apply Rmult_lt_0_compat; [apply reps_pos|exact Hm].
Qed.
Lemma jacobian_t_R (f : rhs RI P) df (u : list R) (t : R) p : overwrites f -> length df = length u ->
  jacobian_t f None df u t p = Ok (repeat 0 (length u)).
Proof.
  intros Hf Hl. etransitivity; [exact (jacobian_t_fallback f df u t p Hf Hl)|]. f_equal.
  assert (length (call_rhs f (zeros (length u)) u t p) = length u) as H by now rewrite call_rhs_length, zeros_length.
  rewrite <- H. apply differences_zero.
Qed.
End JacR.

(** ** f64 *)
Section JacF.
Context {pf : f64 -> f64 -> f64} {pi : f64 -> Z -> f64} {P : Type}.
Notation XA := (F64 pf pi).
Local Open Scope R_scope.

Definition fd_c : f64 := fsqrt (fmul (eps XA) (f_lit 1 100000)).
Definition p34 : f64 := f_lit 1 17179869184.
Lemma fd_c_facts : is_finite_strict fd_c = true /\ Bsign fd_c = false /\
    fltb fd_c p34 = true.
Proof. vm_compute. repeat split. Qed.
Lemma p34_R : B2R p34 = bpow radix2 (-34) /\ is_finite p34 = true.
Proof.
  split; [|vm_compute; reflexivity]. rewrite <- SF2R_B2SF.
  assert (B2SF p34 = SpecFloat.S754_finite false 4503599627370496 (-86)) as -> by (vm_compute; reflexivity).
  cbn. unfold F2R. cbn. lra.
Qed.
Lemma fd_c_R : is_finite fd_c = true /\ 0 <= B2R fd_c < bpow radix2 (-34).
Proof.
  destruct fd_c_facts as (H1 & H2 & H3). destruct p34_R as (H4 & H5).
  assert (is_finite fd_c = true) as H6 by now destruct fd_c. split; [exact H6|].
  apply fltb_R in H3; auto. rewrite H4 in H3. split; [|exact H3].
  destruct fd_c as [s|s| |s m e He]; try discriminate. cbn in H2. subst s. cbn. now apply F2R_ge_0.
Qed.

Lemma fd_delta_big (x : f64) : is_finite x = true -> B2R x < - bpow radix2 19 -> @fd_delta XA x = fd_c.
Proof.
  intros Hx Hb. unfold fd_delta, fd_c. cbn [XA F64 nsqrt mul eps nmax lit]. do 2 f_equal.
  unfold fmax. assert (is_nan x = false) as -> by now destruct x.
  assert (is_finite (f_lit 1 100000) = true /\ is_nan (f_lit 1 100000) = false /\ fleb fzero (f_lit 1 100000) = true) as (H1 & H2 & H3).
  { vm_compute. repeat split. }
  rewrite H2. apply fleb_R in H3; auto. change (B2R fzero) with 0 in H3. pose proof (bpow_gt_0 radix2 19).
  rewrite (proj2 (fltb_R x (f_lit 1 100000) Hx H1)); [reflexivity|]. lra.
Qed.

Lemma moved_lost (u : vec XA) c : (c < length u)%nat -> is_finite (nth c u fnan) = true ->
  B2R (nth c u fnan) < - bpow radix2 19 -> @moved XA u c = u.
Proof.
  intros Hc Hf Hb. unfold moved, at_. rewrite !(nth_indep u _ fnan) by exact Hc.
  rewrite fd_delta_big by assumption. destruct fd_c_R as (H1 & H2).
  assert (add XA (nth c u fnan) fd_c = nth c u fnan) as -> by (now apply f64_absorbed).
  apply vec_ext; [apply upd_length|]. intros q Hq. rewrite upd_length in Hq. unfold at_. rewrite upd_nth by exact Hc.
  destruct (Nat.eqb_spec q c) as [->|]; [|reflexivity]. now apply nth_indep.
Qed.

Lemma fd_lost (f : rhs XA P) df (u : vec XA) t p tr c :
  overwrites f -> is_shape (length u) (length u) df = true -> (c < length u)%nat ->
  is_finite (nth c u fnan) = true -> B2R (nth c u fnan) < - bpow radix2 19 ->
  (forall d i, (i < length u)%nat -> length d = length u -> is_finite (f d u t p i) = true) ->
  exists df' tr', jacobian_u f None df u t p tr = Ok (df', tr') /\
    forall r, (r < length u)%nat -> nth c (nth r df' []) fnan = fzero.
Proof.
  intros Hf Hs Hc Hfin Hb Hval. destruct (jacobian_fd f df u t p tr Hf Hs) as (df' & E & Hs' & Hv).
  eexists df', _. split; [exact E|]. intros r Hr.
  transitivity (at2 df' r c).
  - unfold at2. apply nth_indep. pose proof (shaped_row _ _ df' r Hs' Hr) as HH. cbn in HH |- *. rewrite HH. exact Hc.
  - rewrite Hv by assumption. rewrite moved_lost by assumption.
    rewrite call_rhs_at by (rewrite zeros_length; exact Hr).
    cbn [XA F64 sub div]. rewrite fsub_self by (apply Hval; [exact Hr|apply zeros_length]).
    unfold at_. rewrite (nth_indep u _ fnan) by exact Hc. rewrite fd_delta_big by assumption.
    destruct fd_c_facts as (H1 & H2 & _). now apply fdiv_zero.
Qed.

Lemma fd_kept_witness : @moved XA [f_of_Z (-2 ^ 19)] 0 <> [f_of_Z (-2 ^ 19)].
Proof.
  unfold moved. cbn [upd at_ nth]. intros H. apply (f_equal (fun l => match l with x :: _ => feqb x (f_of_Z (-2^19)) | _ => true end)) in H.
  revert H. vm_compute. discriminate.
Qed.

Lemma fmax_lit (t : f64) : exists m, fmax t (f_lit 1 100000) = m /\ fpositive m = true /\
  (is_finite m = true -> bpow radix2 (-17) <= B2R m).
Proof.
  assert (is_finite (f_lit 1 100000) = true /\ fpositive (f_lit 1 100000) = true /\
    fleb (f_lit 1 131072) (f_lit 1 100000) = true /\ is_finite (f_lit 1 131072) = true /\ is_nan (f_lit 1 100000) = false) as (H1 & H2 & H3 & H4 & H5).
  { vm_compute. repeat split. }
  assert (B2R (f_lit 1 131072) = bpow radix2 (-17)) as H6.
  { rewrite <- SF2R_B2SF.
    assert (B2SF (f_lit 1 131072) = SpecFloat.S754_finite false 4503599627370496 (-69)) as -> by (vm_compute; reflexivity).
    cbn. unfold F2R. cbn. lra. }
  apply fleb_R in H3; auto. rewrite H6 in H3. clear H6 H4.
  unfold fmax. rewrite H5. set (l := f_lit 1 100000) in *. clearbody l. destruct (is_nan t) eqn:Ht; [eauto|].
  destruct (fltb t l) eqn:Hlt; [eauto|]. eexists; split; [reflexivity|].
  pose proof (bpow_gt_0 radix2 (-17)).
  destruct (is_finite t) eqn:Hft.
  - assert (B2R l <= B2R t) as Hle.
    { apply Rnot_lt_le. intros Hc. apply (fltb_R t l Hft H1) in Hc. congruence. }
    split; [apply fpositive_R; [exact Hft|lra]|]. intros _. lra.
  - split; [|discriminate]. destruct t as [s|s| |s mm e He]; try discriminate.
    destruct s; [|reflexivity]. destruct l as [sl|sl| |sl ml el Hel]; try discriminate.
Qed.

Lemma jacobian_t_f64 (f : rhs XA P) df (u : vec XA) (t : f64) p : overwrites f -> length df = length u ->
  (forall i, (i < length u)%nat -> is_finite (f df u t p i) = true) ->
  jacobian_t f None df u t p = Ok (repeat fzero (length u)).
Proof.
  intros Hf Hl Hval. etransitivity; [exact (jacobian_t_fallback f df u t p Hf Hl)|]. f_equal.
  apply (nth_ext _ _ fzero fzero).
  { now rewrite map_length, call_rhs_length, zeros_length, repeat_length. }
  intros i Hi. rewrite map_length, call_rhs_length, zeros_length in Hi. rewrite nth_repeat.
  set (g := fun x => _). set (d := call_rhs f (zeros (length u)) u t p).
  assert (i < length d)%nat as Hd by (unfold d; now rewrite call_rhs_length, zeros_length).
  transitivity (g (at_ d i)).
  { unfold at_. rewrite <- (map_nth g). apply nth_indep. now rewrite map_length. }
  unfold g, d. clear g d Hd.
  rewrite call_rhs_at by (now rewrite zeros_length).
  rewrite (Hf (zeros (length u)) df) by (rewrite zeros_length; auto).
  cbn [XA F64 sub div mul nmax lit eps]. rewrite fsub_self by now apply Hval.
  apply fdiv_zero_pos. destruct (fmax_lit t) as (m & -> & Hm1 & Hm2).
  assert (is_finite (eps XA) = true /\ fpositive (eps XA) = true /\ B2SF (eps XA) = SpecFloat.S754_finite false 4503599627370496 (-104))
    as (H1 & H2 & H3) by (vm_compute; repeat split).
  apply (fmul_positive _ _ (-52) (-17)); auto; [|lia].
  rewrite <- SF2R_B2SF. change (bpow radix2 (-52) <= SF2R radix2 (B2SF (eps XA))). rewrite H3. cbn. unfold F2R. cbn. lra.
Qed.
End JacF.

(** ** Examples *)
Lemma affine_ex : forall inf,
  let f : rhs (RA inf) unit := fun _ v _ _ i => (2 * comp v i + 1)%R in
  overwrites f /\ square 1 [[7%R]] /\
  forall v i, length v = 1%nat -> (i < 1)%nat ->
    comp (ode f tt 0%R v) i = (rsum 1 (fun j => 2 * comp v j) + 1)%R.
Proof.
  intros inf f. split; [intros d d' u t p i _ _; reflexivity|]. split.
  - split; [reflexivity|]. intros r [<-|[]]. reflexivity.
  - intros [|x [|y v]] i Hv Hi; try discriminate. assert (i = 0%nat) as -> by lia.
    unfold ode, comp, rsum. cbn. unfold f. cbn. lra.
Qed.
Lemma lost_ex : forall pf pi,
  let f : rhs (F64 pf pi) unit := fun _ v _ _ i => nth i v fzero in
  let u := [f_of_Z (-1048576)] in
  overwrites f /\ is_shape (A := F64 pf pi) 1 1 [[fnan]] = true /\ is_finite (nth 0 u fnan) = true /\
  (B2R (nth 0 u fnan) < - bpow radix2 19)%R /\
  forall d i, (i < 1)%nat -> length d = 1%nat -> is_finite (f d u fzero tt i) = true.
Proof.
  intros pf pi f u. split; [intros d d' w t p i _ _; reflexivity|]. split; [reflexivity|].
  split; [vm_compute; reflexivity|]. split.
  - cbn [nth u]. rewrite <- SF2R_B2SF.
    assert (B2SF (f_of_Z (-1048576)) = SpecFloat.S754_finite true 4503599627370496 (-32)) as -> by (vm_compute; reflexivity).
    cbn. unfold F2R. cbn. lra.
  - intros d i Hi _. assert (i = 0%nat) as -> by lia. vm_compute. reflexivity.
Qed.
Lemma jact_ex : forall inf (u : list R) (t : R), length u = 1%nat ->
  let f : rhs (RA inf) unit := fun _ _ t _ _ => t in
  overwrites f /\ derivable_pt_lim (fun t => comp (ode f tt t u) 0) t 1%R /\
  jacobian_t f None [5%R] u t tt = Ok [0%R].
Proof.
  intros inf u t Hu f. assert (overwrites f) as Hf by (intros d d' w s p i _ _; reflexivity).
  split; [exact Hf|]. split.
  - destruct u as [|x [|y u]]; try discriminate. apply derivable_pt_lim_id.
  - rewrite jacobian_t_R; [|exact Hf|now rewrite Hu]. now rewrite Hu.
Qed.
