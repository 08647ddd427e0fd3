(** Linear invariants of Radau5 runs, in exact arithmetic. *)
From Coq Require Import ZArith List Bool Lia Reals Lra.
From RecordUpdate Require Import RecordSet.
From Verif Require Import Arith Vec Core Spec Jacobian JacFacts Linalg Driver VecFacts DP5Facts DP5Inv DP5Det LinFacts LinFactsC
  Radau RadauFacts RadauStep RadauSafe RadauInv RadauHist RadauKeep RadauJac ArithR SpecRK RKFacts SpecLin LinSpec LinThm
  SpecRadau RadauR RadauDense SpecStage StageConst RadauSolve RadauStage.
Import ListNotations RecordSetNotations.
Local Open Scope R_scope.

Lemma rsum_swap n m (g : nat -> nat -> R) :
  rsum n (fun i => rsum m (fun j => g i j)) = rsum m (fun j => rsum n (fun i => g i j)).
Proof.
  induction n as [|n IH].
  - cbn. symmetry. apply rsum_zero.
  - rewrite rsum_S, IH, <- rsum_plus. apply rsum_ext. intros j Hj. rewrite rsum_S. reflexivity.
Qed.

(** Writing entries keeps the shape. *)
Section Shape.
Context {A : arith} {P : Type}.
Definition lens (m : mat A) : list nat := map (fun r => length r) m.
Lemma upd_lens (m : mat A) (i : nat) row : (i < length m)%nat -> length row = length (nth i m []) -> lens (upd m i row) = lens m.
Proof.
  intros Hi Hr. apply nth_ext with (d := 0%nat) (d' := 0%nat).
  - unfold lens. now rewrite !map_length, upd_length.
  - intros j Hj. unfold lens in *. rewrite map_length, upd_length in Hj.
    rewrite !(map_nth (fun r : list (num A) => length r) _ []). rewrite upd_nth by exact Hi.
    destruct (Nat.eqb_spec j i) as [->|]; [exact Hr|reflexivity].
Qed.
Lemma mset_lens (m m' : mat A) i j x : mset m i j x = Ok m' -> lens m' = lens m.
Proof.
  unfold mset. intros H. apply bind_ok in H as (row & Hr & H). apply bind_ok in H as (row' & Hr' & H).
  unfold vset in H, Hr'. destruct (Nat.ltb_spec i (length m)) as [Hi|]; [|discriminate].
  destruct (Nat.ltb _ _); [|discriminate]. inversion H; subst m'. inversion Hr'; subst row'. apply upd_lens; [exact Hi|].
  rewrite upd_length. unfold vget in Hr. rewrite (nth_error_nth' _ [] Hi) in Hr. inversion Hr. reflexivity.
Qed.
Lemma jac_lens (f : rhs A P) df u t p tr J tr' : jacobian_u f None df u t p tr = Ok (J, tr') -> lens J = lens df.
Proof.
  cbn [jacobian_u]. intros H. apply bind_ok in H as ([[[a b] c] d] & H & E). inversion E; subst a d. clear E.
  apply (for_range_inv 0 _ _ (fun _ st => lens (fst (fst (fst st))) = lens df)) in H; [exact H|lia|reflexivity|].
  intros i [[[a0 b0] c0] d0] [[[a1 b1] c1] d1] Hi HI H1. cbn [fst] in *. unfold fd_column in H1.
  apply bind_ok in H1 as (us & _ & H1). apply bind_ok in H1 as (ut & _ & H1). apply bind_ok in H1 as (a2 & H2 & H1).
  apply bind_ok in H1 as (ut2 & _ & E). inversion E; subst. rewrite <- HI.
  apply (for_range_inv 0 _ _ (fun _ m => lens m = lens a0)) in H2; [exact H2|lia|reflexivity|].
  intros j m m' Hj Hm H3. apply bind_ok in H3 as (x & _ & H3). apply bind_ok in H3 as (y & _ & H3).
  apply mset_lens in H3. congruence.
Qed.
Lemma lens_shaped n (a b : mat A) : lens a = lens b -> shaped n n a -> shaped n n b.
Proof.
  unfold shaped, is_shape. intros E H. apply andb_prop in H as (H1 & H2). apply andb_true_intro.
  assert (length a = length b) as El by (rewrite <- (map_length (fun r => length r) a), <- (map_length (fun r => length r) b); exact (f_equal (@length nat) E)).
  split; [now rewrite <- El|]. apply forallb_forall. intros r Hr.
  apply (in_map (fun r => length r)) in Hr. fold (lens b) in Hr. rewrite <- E in Hr. apply in_map_iff in Hr as (r' & <- & Hr').
  exact (proj1 (forallb_forall _ _) H2 r' Hr').
Qed.
End Shape.

Section Lin.
Variable inf : R.
Context {P : Type}.
Notation RI := (RA inf).
Notation state := (integ RI P (radau_cache RI)).
Notation alg := (@Radau5 RI P).

(** [lam] has no kernel. *)
Lemma lam_zero V : (forall m, (m < 3)%nat -> lam inf V m = 0) -> forall m, (m < 3)%nat -> V m = 0.
Proof.
  intros H. pose proof (H 0%nat ltac:(lia)) as H0. pose proof (H 1%nat ltac:(lia)) as H1. pose proof (H 2%nat ltac:(lia)) as H2.
  unfold lam in *. unfold rU1, rALPHA, rBETA in *. cbn [lit RA] in *. unfold rlit in *.
  set (a := 2681082873627752 / 1000000000000000) in *. set (c := 3050430199247411 / 1000000000000000) in *.
  assert (0 < a) by (unfold a; lra). assert (0 < c) by (unfold c; lra).
  assert (V 1%nat = 0 /\ V 2%nat = 0) as (E1 & E2).
  { assert ((a * a + c * c) * V 1%nat = 0) as A1 by nra.
    assert ((a * a + c * c) * V 2%nat = 0) as A2 by nra.
    assert (a * a + c * c <> 0) by nra.
    apply Rmult_integral in A1 as [|A1]; [lra|]. apply Rmult_integral in A2 as [|A2]; [lra|]. auto. }
  intros [|[|[|m]]] Hm; try lia; try assumption. lra.
Qed.

Lemma newton_invariant n fuel h (J : mat RI) (w : nat -> R) (sm s3 : state) : (0 < n)%nat -> h <> 0 -> ssafe n sm ->
  factors n h J (i_cache sm) -> newton fuel sm = Ok (s3, true) ->
  (forall d u t, length d = n -> length u = n -> rsum n (fun i => w i * i_dudt sm d u t (i_params sm) i) = 0) ->
  (forall j, (j < n)%nat -> rsum n (fun i => w i * entry J i j) = 0) ->
  blind n h J \/ forall k, (k < 3)%nat -> rsum n (fun i => w i * comp (zz (i_cache s3) k) i) = 0.
Proof.
  intros Hn Hh Hsm Hfac Hnw Hw HJ.
  destruct (newton_last n fuel sm s3 Hn Hsm Hnw) as (x & y & z & [L1 L2 L3 L4 (L5 & L5t & Z1 & Z2 & Z3 & G1 & G2 & G3 & _) Hz L6 _]).
  pose proof (proj1 Hsm) as Hu. rewrite Hu in L3, Hz.
  pose proof (newton_pass_safe n x y Hn L3 L4) as Hy.
  pose proof (newton_pass_eq n x y L3 L4) as (Ff & _ & _ & _).
  pose proof (ns_frame _ _ L2) as Nf.
  pose proof (q_prob _ _ (nf_quiet _ _ Nf)) as (Ed & _ & _ & Ep & _).
  assert (factors n h J (i_cache x)) as Hfx.
  { destruct Nf. eapply factors_same; [..|exact Hfac]; assumption. }
  destruct (pass_solved inf n h J x y Hn Hh L3 Hy Hfx L4) as [Hb|Hs]; [left; exact Hb|right].
  assert (forall k, zz (i_cache z) k = zz (i_cache y) k) as Ezz by (intros [|[|k]]; assumption).
  assert (forall k, ff (i_cache z) k = ff (i_cache x) k) as Eff.
  { intros k. rewrite <- Ff. destruct k as [|[|k]]; assumption. }
  assert (forall j, (j < n)%nat ->
     (forall l, comp (ff (i_cache s3) l) j = comp (ff (i_cache x) l) j + comp (zz (i_cache y) l) j) /\
     forall l, (l < 3)%nat -> comp (zz (i_cache s3) l) j = d3 (cT inf l) (fun m => comp (ff (i_cache s3) m) j)) as Hupd.
  { intros j Hj. destruct (update_R inf n z j Hz Hj) as (U1 & U2). rewrite L6. split; [|exact U2].
    intros l. rewrite <- Eff, <- Ezz. apply U1. }
  assert (forall k, rsum n (fun i => w i * comp (stage_rhs x k) i) = 0) as HF.
  { intros k. pose proof (ssafe_zz inf n x k L3) as Lz.
    rewrite <- (Hw (zz (i_cache x) k) (stage_point x k) (stage_time x k)).
    - apply rsum_ext. intros i Hi. f_equal. unfold stage_rhs.
      rewrite <- (at_comp inf) by (rewrite call_rhs_length; cbn in *; lia).
      rewrite call_rhs_at by (cbn in *; lia). now rewrite Ed, Ep.
    - exact Lz.
    - unfold stage_point. rewrite tab_length. exact (proj1 L3). }
  set (G := fun l => rsum n (fun i => w i * comp (ff (i_cache s3) l) i)).
  assert (forall m, (m < 3)%nat -> G m = 0) as HG.
  { assert (forall m, (m < 3)%nat -> (fun l => G l / h) m = 0) as HV.
    { apply lam_zero. intros m Hm.
      transitivity (rsum n (fun i => w i * lam inf (fun k => (comp (ff (i_cache x) k) i + comp (zz (i_cache y) k) i) / h) m)).
      - assert (forall l, G l / h = rsum n (fun i => w i * ((comp (ff (i_cache x) l) i + comp (zz (i_cache y) l) i) / h))) as EG.
        { intros l. unfold G, Rdiv. rewrite Rmult_comm, <- rsum_scale. apply rsum_ext. intros i Hi.
          rewrite (proj1 (Hupd i Hi)). ring. }
        destruct m as [|[|m]]; unfold lam; rewrite !EG; rewrite <- ?rsum_scale.
        + apply rsum_ext. intros i Hi. ring.
        + rewrite <- (rsum_minus n). apply rsum_ext. intros i Hi. ring.
        + rewrite <- rsum_plus. apply rsum_ext. intros i Hi. ring.
      - transitivity (rsum n (fun i => w i * rsum n (fun j => entry J i j * comp (zz (i_cache y) m) j)
                                      + w i * d3 (cTI inf m) (fun k => comp (stage_rhs x k) i))).
        + apply rsum_ext. intros i Hi. pose proof (Hs i m Hi Hm) as E. cbn beta in E. rewrite <- Rmult_plus_distr_l. f_equal. lra.
        + rewrite rsum_plus.
          assert (rsum n (fun i => w i * rsum n (fun j => entry J i j * comp (zz (i_cache y) m) j)) = 0) as ->.
          { rewrite (rsum_ext n _ (fun i => rsum n (fun j => w i * (entry J i j * comp (zz (i_cache y) m) j))))
              by (intros; now rewrite rsum_scale).
            rewrite rsum_swap, (rsum_ext n _ (fun _ => 0)); [apply rsum_zero|]. intros j Hj.
            rewrite (rsum_ext n _ (fun i => comp (zz (i_cache y) m) j * (w i * entry J i j))) by (intros; ring).
            rewrite rsum_scale, HJ by exact Hj. ring. }
          assert (rsum n (fun i => w i * d3 (cTI inf m) (fun k => comp (stage_rhs x k) i)) = 0) as ->; [|ring].
          unfold d3.
          rewrite (rsum_ext n _ (fun i => cTI inf m 0 * (w i * comp (stage_rhs x 0) i) + cTI inf m 1 * (w i * comp (stage_rhs x 1) i)
             + cTI inf m 2 * (w i * comp (stage_rhs x 2) i))) by (intros; ring).
          rewrite !rsum_plus, !rsum_scale, !HF. ring. }
    intros m Hm. specialize (HV m Hm). cbn beta in HV. unfold Rdiv in HV. apply Rmult_integral in HV as [HV|HV]; [exact HV|].
    now apply Rinv_neq_0_compat in Hh. }
  intros k Hk.
  rewrite (rsum_ext n _ (fun i => cT inf k 0 * (w i * comp (ff (i_cache s3) 0) i) + cT inf k 1 * (w i * comp (ff (i_cache s3) 1) i)
     + cT inf k 2 * (w i * comp (ff (i_cache s3) 2) i))).
  - rewrite !rsum_plus, !rsum_scale. fold (G 0%nat) (G 1%nat) (G 2%nat). rewrite !HG by lia. ring.
  - intros i Hi. rewrite (proj2 (Hupd i Hi)) by exact Hk. unfold d3. ring.
Qed.

(** Columns of a Jacobian of a right-hand side with an invariant. *)
Definition jac_keeps (n : nat) (w : nat -> R) (g : option (jac RI P)) (p : P) : Prop :=
  match g with
  | None => True
  | Some g => forall buf u t j, (j < n)%nat -> rsum n (fun i => w i * g buf u t p i j) = 0
  end.

Lemma jac_columns n w (s : state) t u J : overwrites (i_dudt s) -> length u = n -> square n J -> jac_of s t u J ->
  (forall d u t, length d = n -> length u = n -> rsum n (fun i => w i * i_dudt s d u t (i_params s) i) = 0) ->
  jac_keeps n w (i_dfdu s) (i_params s) ->
  forall j, (j < n)%nat -> rsum n (fun i => w i * entry J i j) = 0.
Proof.
  intros How Hu HJ (df & tr & tr' & E) Hw Hg j Hj. unfold jac_keeps in Hg. destruct (i_dfdu s) as [g|].
  - cbn [jacobian_u] in E. assert (J = call_jac g df u t (i_params s)) as -> by congruence.
    rewrite <- (Hg df u t j Hj). apply rsum_ext. intros i Hi. f_equal. now apply (call_jac_entry inf _ _ _ _ _ n).
  - assert (shaped n n df) as Hdf by (eapply lens_shaped; [eapply jac_lens; exact E|apply is_shape_spec; exact HJ]).
    rewrite <- Hu in Hdf. destruct (jacobian_fd (i_dudt s) df u t (i_params s) tr How Hdf) as (df' & E' & S' & H').
    cbn [num RA] in *. rewrite E in E'. assert (J = df') as -> by congruence. rewrite Hu in *.
    rewrite (rsum_ext n _ (fun i => / fd_delta (A:=RI) (at_ u j) * (w i * i_dudt s (zeros n) (moved u j) t (i_params s) i)
               + - / fd_delta (A:=RI) (at_ u j) * (w i * i_dudt s (zeros n) u t (i_params s) i))).
    + rewrite rsum_plus, !rsum_scale, !Hw; try ring; try apply zeros_length; try exact Hu.
      rewrite moved_length. exact Hu.
    + intros i Hi. rewrite <- (at2_entry inf n) by assumption. rewrite H' by assumption.
      rewrite !call_rhs_at by (rewrite zeros_length; exact Hi). cbn [div sub RA].
      rewrite rdiv_ok by (apply Rgt_not_eq, fd_delta_pos). unfold Rdiv. ring.
Qed.

(** A call appends one point or none. *)
Lemma radau_one_point (b : builder RI P) fuel k (s0 s s' : state) r :
  b_u b <> [] -> build alg b = Ok s0 -> continues alg None fuel k s0 s -> step alg None fuel s = Ok (s', r) ->
  (ts (i_sol s') = ts (i_sol s) /\ us (i_sol s') = us (i_sol s) /\ i_u s' = i_u s) \/
  (ts (i_sol s') = ts (i_sol s) ++ [i_t s'] /\ us (i_sol s') = us (i_sol s) ++ [i_u s']).
Proof.
  intros Hu Hb Hc Hs. destruct (run_stored b fuel s0 Hu Hb k s Hc) as (_ & Hss & _ & h0 & J0 & Hd).
  assert (armed (length (b_u b)) h0 J0 s) as Ha by (split; [exact Hss|]; destruct Hd as [Hd|(Hd & _)]; auto).
  destruct (call_recorded b fuel k s0 s s' r h0 J0 Hu Hb Hc Ha Hs) as [(Hq & _)|((h & J & sm & s3 & s4 & Hf & _) & _)]; [left|right].
  - destruct (q_point _ _ Hq) as (E1 & _ & _ & _ & E2 & E3). auto.
  - pose proof (radau_accept_inv _ _ (fi_acc _ _ _ _ _ _ _ _ _ Hf)) as Ac.
    destruct (q_point _ _ (fi_quiet _ _ _ _ _ _ _ _ _ Hf)) as (_ & _ & _ & _ & T0 & U0).
    pose proof (fi_newton _ _ _ _ _ _ _ _ _ Hf) as N. apply newton_inv in N as (_ & _ & N & _). specialize (N eq_refl).
    destruct (q_point _ _ (nf_quiet _ _ (ns_frame _ _ N))) as (_ & _ & _ & _ & T1 & U1).
    destruct (q_point _ _ (ef_quiet _ _ (error_estimate_inv _ _ (fi_est _ _ _ _ _ _ _ _ _ Hf)))) as (_ & _ & _ & _ & T2 & U2).
    pose proof (ac_ts _ _ Ac) as At. pose proof (ac_us _ _ Ac) as Au.
    change (ts (i_sol (force_decompose s4))) with (ts (i_sol s4)) in At. change (us (i_sol (force_decompose s4))) with (us (i_sol s4)) in Au.
    split; congruence.
Qed.

(** A blind matrix has a non-zero first column. *)
Lemma blind_weight n h (J : mat RI) w : h <> 0 -> blind n h J ->
  rsum n (fun i => w i * entry J i 0) = 0 -> w 0%nat = 0.
Proof.
  intros Hh (Hn & Hb) H. destruct n as [|n]; [lia|].
  rewrite (rsum_ext (S n) _ (fun i => radau_gamma / h * (if Nat.eqb i 0 then w i else 0))) in H.
  2: { intros i Hi. rewrite Hb by exact Hi. destruct (Nat.eqb i 0); ring. }
  rewrite rsum_scale in H. apply Rmult_integral in H as [H|H].
  { exfalso. unfold radau_gamma, Rdiv in H. apply Rmult_integral in H as [H|H]; [lra|]. now apply Rinv_neq_0_compat in Hh. }
  rewrite (rsum_ext (S n) _ (fun i => if Nat.eqb 0 i then w i else 0)) in H by (intros i _; rewrite Nat.eqb_sym; reflexivity).
  rewrite rsum_delta in H by lia. exact H.
Qed.

Lemma radau_step_linear (b : builder RI P) w fuel k (s0 s s' : state) r :
  let n := length (b_u b) in
  overwrites (b_dudt b) -> b_u b <> [] ->
  (forall d u t, length d = n -> length u = n -> rsum n (fun i => w i * b_dudt b d u t (b_params b) i) = 0) ->
  jac_keeps n w (b_dfdu b) (b_params b) ->
  (w 0%nat <> 0 \/ forall t u J h, jacobian_at s0 t u J -> h <> 0 -> ~ blind n h J) ->
  build alg b = Ok s0 -> continues alg None fuel k s0 s -> step alg None fuel s = Ok (s', r) ->
  ts (i_sol s') <> ts (i_sol s) ->
  rsum n (fun i => w i * comp (i_u s') i) = rsum n (fun i => w i * comp (i_u s) i).
Proof.
  intros n How Hu Hw Hg Hbl Hb Hc Hs Hts.
  assert (0 < n)%nat as Hn by (unfold n; destruct (b_u b); [congruence|cbn; lia]).
  destruct (recorded_final b fuel k s0 s s' r Hu Hb Hc Hs Hts) as (h & J & sm & s3 & s4 & Hf & Hm & Hnt & (t & u & Hin & Hj) & Hss & _).
  fold n in Hf, Hss. apply not_tiny_R in Hnt.
  pose proof (final_stages inf b fuel k s0 s s' h J sm s3 s4 How Hu Hb Hc Hf Hnt Hss) as (_ & _ & _ & _ & _ & Hz & _).
  pose proof (continues_steps_n alg None fuel k s0 s Hc) as Hst.
  destruct (radau_frame b fuel k s0 s Hb Hst) as (Pf & Pg & _ & Pp & _).
  destruct (radau_frame b fuel 0 s0 s0 Hb eq_refl) as (Pf0 & Pg0 & _ & Pp0 & _).
  pose proof (radau_recorded b None fuel k s0 s no_callback_benign Hb Hst) as [_ _ _ _ Hdim _].
  assert (square n J) as Hsq by exact (shaped_square inf _ _ (fa_shape _ _ _ _ (fi_fac _ _ _ _ _ _ _ _ _ Hf))).
  assert (length u = n) as Lu.
  { apply in_combine_r in Hin. exact (proj1 (Forall_forall _ _) Hdim u Hin). }
  cbn [Cache Radau5] in *.
  assert (forall j, (j < n)%nat -> rsum n (fun i => w i * entry J i j) = 0) as HJ.
  { apply (jac_columns n w s t u J); rewrite ?Pf, ?Pg, ?Pp; try assumption. }
  assert (~ blind n h J) as Hnb.
  { intros Hbb. destruct Hbl as [Hw0|Hbl].
    - apply Hw0. apply (blind_weight n h J w); auto.
    - apply (Hbl t u J h); [|exact Hnt|exact Hbb]. destruct Hj as (df & tr & tr' & E). exists df, tr, tr'.
      now rewrite Pf0, Pg0, Pp0, <- Pf, <- Pg, <- Pp. }
  pose proof (q_prob _ _ (fi_quiet _ _ _ _ _ _ _ _ _ Hf)) as (Ed & _ & _ & Ep & _).
  destruct (newton_invariant n fuel h J w sm s3 Hn Hnt (fi_safe _ _ _ _ _ _ _ _ _ Hf) (fi_fac _ _ _ _ _ _ _ _ _ Hf)
    (fi_newton _ _ _ _ _ _ _ _ _ Hf)) as [Hbb|Hk]; [..|contradiction|].
  - intros. rewrite Ed, Ep, Pf, Pp. now apply Hw.
  - exact HJ.
  - rewrite (rsum_ext n _ (fun i => w i * comp (i_u s) i + w i * comp (zz (i_cache s3) 2) i)).
    + rewrite rsum_plus, Hk by lia. ring.
    + intros i Hi. rewrite Hz by exact Hi. ring.
Qed.

Lemma radau_linear_invariants (b : builder RI P) w fuel k (s0 s : state) :
  let n := length (b_u b) in
  overwrites (b_dudt b) -> b_u b <> [] ->
  (forall d u t, length d = n -> length u = n -> rsum n (fun i => w i * b_dudt b d u t (b_params b) i) = 0) ->
  jac_keeps n w (b_dfdu b) (b_params b) ->
  (w 0%nat <> 0 \/ forall t u J h, jacobian_at s0 t u J -> h <> 0 -> ~ blind n h J) ->
  build alg b = Ok s0 -> reached alg None fuel k s0 s ->
  forall u, In u (us (i_sol s)) -> rsum n (fun i => w i * comp u i) = rsum n (fun i => w i * comp (b_u b) i).
Proof.
  intros n How Hu Hw Hg Hbl Hb Hr.
  set (c := rsum n (fun i => w i * comp (b_u b) i)).
  set (Q := fun s : state => (forall u, In u (us (i_sol s)) -> rsum n (fun i => w i * comp u i) = c) /\
                             rsum n (fun i => w i * comp (i_u s) i) = c).
  assert (forall k s s' r, continues alg None fuel k s0 s -> Q s -> step alg None fuel s = Ok (s', r) -> Q s') as Hstep.
  { clear k s Hr. intros k s s' r Hc (Q1 & Q2) Hs.
    destruct (radau_one_point b fuel k s0 s s' r Hu Hb Hc Hs) as [(E1 & E2 & E3)|(E1 & E2)].
    - unfold Q. cbn [Cache Radau5] in *. rewrite E2, E3. auto.
    - assert (rsum n (fun i => w i * comp (i_u s') i) = c) as E.
      { etransitivity; [apply (radau_step_linear b w fuel k s0 s s' r How Hu Hw Hg Hbl Hb Hc Hs)|exact Q2].
        cbn [Cache Radau5] in *. rewrite E1. intros E. apply (f_equal (@length _)) in E. rewrite app_length in E. cbn in E. lia. }
      split; [|exact E]. intros u Hin. cbn [Cache Radau5] in *. rewrite E2 in Hin. apply in_app_or in Hin as [Hin|[<-|[]]]; auto. }
  assert (Q s0) as Q0.
  { pose proof (radau_build_inv _ _ Hb) as B. pose proof (rb_sol _ _ B) as E5. pose proof (rb_u _ _ B) as E7.
    unfold Q. cbn [Cache Radau5] in *. rewrite E5, E7. split; [|reflexivity]. intros u [<-|[]]. reflexivity. }
  assert (forall k s, continues alg None fuel k s0 s -> Q s) as Hcont.
  { apply (continues_back fuel s0 (fun _ s => Q s)); [exact Q0|]. intros k1 x x' m Hc Hq Hs. eapply Hstep; eassumption. }
  destruct Hr as [x|k1 x x1 x2 r Hc Hs]; [apply Q0|]. eapply Hstep; [exact Hc| |exact Hs]. eapply Hcont. exact Hc.
Qed.
End Lin.
