(** Radau5 never panics when the dimension is positive, in every arithmetic. *)
From Coq Require Import ZArith List Bool Lia.
From RecordUpdate Require Import RecordSet.
From Verif Require Import Arith Vec Core Spec Jacobian Linalg Driver VecFacts DP5Facts DP5Inv LinFacts LinFactsC
  Radau RadauFacts RadauStep RadauInv.
Import ListNotations RecordSetNotations.

Section RadauSafe.
Context {A : arith} {P : Type}.
Notation state := (integ A P (radau_cache A)).
Notation alg := (@Radau5 A P).

(** Shapes of the working arrays, and pivots that index into them. *)
Record csafe (n : nat) (c : radau_cache A) : Prop := mkCS {
  cs_u0 : length (u0 c) = n; cs_scal : length (scal c) = n;
  cs_z1 : length (z1 c) = n; cs_z2 : length (z2 c) = n; cs_z3 : length (z3 c) = n;
  cs_f1 : length (f1 c) = n; cs_f2 : length (f2 c) = n; cs_f3 : length (f3 c) = n;
  cs_cont : length (cont c) = 4 * n; cs_ip1 : length (ip1 c) = n; cs_ip2 : length (ip2 c) = n;
  cs_e1 : shaped n n (e1 c); cs_e2r : shaped n n (e2r c); cs_e2i : shaped n n (e2i c);
  cs_dfdu : shaped n n (dfdu c); cs_p1 : pivots_ok n (ip1 c); cs_p2 : pivots_ok n (ip2 c) }.
Definition ssafe (n : nat) (s : state) : Prop := length (i_u s) = n /\ csafe n (i_cache s).

Lemma csafe_shapes n (s : state) : ssafe n s -> radau_shapes s = true.
Proof.
  intros [Hu Hc]. destruct Hc as [E1 E2 E3 E4 E5 E6 E7 E8 E9 E10 E11 E12 E13 E14 E15 _ _].
  unfold radau_shapes. cbv zeta. rewrite Hu. cbn [forallb].
  rewrite E1, E2, E3, E4, E5, E6, E7, E8, E9, E10, E11.
  rewrite !Nat.eqb_refl. unfold shaped in *. rewrite E12, E13, E14, E15. reflexivity.
Qed.

Lemma shaped_len n (a : mat A) : shaped n n a -> length a = n.
Proof. intros H. apply is_shape_spec in H. apply H. Qed.

Lemma msub_shaped n (a b : mat A) : shaped n n a -> shaped n n b -> shaped n n (msub a b).
Proof.
  intros Ha Hb. apply is_shape_spec in Ha, Hb. destruct Ha as [A1 A2], Hb as [B1 B2].
  apply is_shape_spec. unfold msub. rewrite map_length, combine_length. split; [lia|].
  intros row Hr. apply in_map_iff in Hr. destruct Hr as ([x y] & <- & Hin). cbn [fst snd].
  rewrite vsub_length. rewrite (A2 x), (B2 y); [lia| |].
  - eapply in_combine_r; exact Hin.
  - eapply in_combine_l; exact Hin.
Qed.
Lemma scaled_eye_shaped n x : shaped n n (scaled_eye (A:=A) n x).
Proof. unfold scaled_eye. apply tab2_shaped. Qed.

Ltac cs_tac H := destruct H; constructor; cbn;
  rewrite ?tab_length, ?call_rhs_length, ?map_length; try assumption; try reflexivity.

Lemma refresh_ok n (s : state) : ssafe n s -> exists s', refresh_jac s = Ok s' /\ ssafe n s' /\ i_dt s' = i_dt s.
Proof.
  intros [Hu Hc]. unfold refresh_jac.
  destruct (jacobian_u_ok (i_dudt s) (i_dfdu s) (dfdu (i_cache s)) (i_u s) (i_t s) (i_params s) (i_trace s))
    as (df & tr & E & Hdf).
  { rewrite Hu. exact (cs_dfdu _ _ Hc). }
  rewrite E. cbn [bind]. eexists. split; [reflexivity|]. split; [|reflexivity]. split; [exact Hu|].
  rewrite Hu in Hdf. cs_tac Hc.
Qed.

(** Functions that change no array keep safety. *)
Lemma ssafe_same n (s s' : state) : ssafe n s -> length (i_u s') = length (i_u s) ->
  (csafe n (i_cache s) -> csafe n (i_cache s')) -> ssafe n s'.
Proof. intros [Hu Hc] E H. split; [congruence|auto]. Qed.

Lemma decomp_failed_ok n (s : state) : ssafe n s ->
  exists s' ok, decomp_failed s = Ok (s', ok) /\ ssafe n s'.
Proof.
  intros Hs. unfold decomp_failed. cbv zeta. destruct (Nat.leb 5 _).
  - eexists _, _. split; [reflexivity|]. eapply ssafe_same; [exact Hs|reflexivity|]. intros H; cs_tac H.
  - match goal with |- context [if _ then refresh_jac ?x else _] => assert (ssafe n x) as Hx end.
    { eapply ssafe_same; [exact Hs|reflexivity|]. intros H; cs_tac H. }
    destruct (negb _).
    + apply refresh_ok in Hx as (s' & E & Hx & _). rewrite E. eexists _, _. split; [reflexivity|exact Hx].
    + eexists _, _. split; [reflexivity|exact Hx].
Qed.

Lemma perform_ok n (s : state) : 0 < n -> ssafe n s ->
  exists s' ok, perform_decompositions s = Ok (s', ok) /\ ssafe n s'.
Proof.
  intros Hn Hs. unfold perform_decompositions, guard. rewrite (csafe_shapes n s Hs).
  match goal with |- context [decomp_real ?x] => assert (ssafe n x) as Hx;
    [eapply ssafe_same; [exact Hs|reflexivity|]; intros H; cs_tac H|];
    revert Hx; generalize x as s1; intros s1 Hx end.
  assert (exists s2 ier, decomp_real s1 = Ok (s2, ier) /\ ssafe n s2) as (s2 & ier & E & H2).
  { destruct Hx as [Hu Hc]. unfold decomp_real. rewrite (shaped_len n) by apply Hc.
    destruct (dec_ok n (msub (scaled_eye n (fac1 (i_cache s1))) (dfdu (i_cache s1))) (ip1 (i_cache s1)))
      as (k & a & ip & E & Ha & Hl & Hp); auto.
    - apply msub_shaped; [apply scaled_eye_shaped|apply Hc].
    - apply Hc.
    - apply Hc.
    - rewrite E. cbn [bind]. eexists _, _. split; [reflexivity|]. split; [exact Hu|]. cs_tac Hc. }
  rewrite E. cbn [bind]. destruct (Nat.eqb ier 0); [|apply decomp_failed_ok; exact H2].
  assert (exists s3 ier', decomp_complex s2 = Ok (s3, ier') /\ ssafe n s3) as (s3 & ier' & E3 & H3).
  { destruct H2 as [Hu Hc]. unfold decomp_complex. rewrite (shaped_len n) by apply Hc.
    destruct (decc_ok n (msub (scaled_eye n (alphn (i_cache s2))) (dfdu (i_cache s2)))
       (scaled_eye n (betan (i_cache s2))) (ip2 (i_cache s2)))
      as (k & a & b & ip & E' & Ha & Hb & Hl & Hp); auto.
    - apply msub_shaped; [apply scaled_eye_shaped|apply Hc].
    - apply scaled_eye_shaped.
    - apply Hc.
    - apply Hc.
    - rewrite E'. cbn [bind]. eexists _, _. split; [reflexivity|]. split; [exact Hu|]. cs_tac Hc. }
  rewrite E3. cbn [bind]. destruct (Nat.eqb ier' 0); [|apply decomp_failed_ok; exact H3].
  eexists _, _. split; [reflexivity|]. exact H3.
Qed.

Lemma prepare_safe n (s : state) : ssafe n s -> ssafe n (prepare_newton s).
Proof.
  intros [Hu Hc]. split; [unfold prepare_newton; destruct (_ || _); exact Hu|].
  unfold prepare_newton. destruct (_ || _); rewrite Hu; cs_tac Hc; apply zeros_length.
Qed.

Lemma newton_rhs_safe n (s : state) : ssafe n s -> ssafe n (newton_rhs s).
Proof.
  intros [Hu Hc]. split; [exact Hu|]. unfold newton_rhs. cbv zeta. rewrite Hu. cs_tac Hc.
  rewrite app_length, tab_length, skipn_length. lia.
Qed.
Lemma newton_transform_safe n (s : state) : ssafe n s -> ssafe n (newton_transform s).
Proof. intros [Hu Hc]. split; [exact Hu|]. unfold newton_transform. cbv zeta. rewrite Hu. cs_tac Hc. Qed.
Lemma newton_update_safe n (s : state) : ssafe n s -> ssafe n (newton_update s).
Proof. intros [Hu Hc]. split; [exact Hu|]. unfold newton_update. cbv zeta. rewrite Hu. cs_tac Hc. Qed.
Lemma linear_solve_ok n (s : state) : 0 < n -> ssafe n s -> exists s', linear_solve s = Ok s' /\ ssafe n s'.
Proof.
  intros Hn [Hu Hc]. unfold linear_solve. cbv zeta. rewrite (shaped_len n) by apply Hc.
  match goal with |- context [sol n ?a ?b ?ip] =>
    destruct (sol_ok n a b ip) as (x1 & E1 & L1) end; auto; try apply Hc.
  { rewrite tab_length. lia. }
  rewrite E1. cbn [bind].
  match goal with |- context [solc n ?ar ?ai ?br ?bi ?ip] =>
    destruct (solc_ok n ar ai br bi ip) as (x2 & x3 & E2 & L2 & L3) end; auto; try apply Hc.
  { rewrite tab_length. lia. }
  { rewrite tab_length. lia. }
  rewrite E2. cbn [bind]. eexists. split; [reflexivity|]. split; [exact Hu|].
  rewrite tab_length in L1, L2, L3. cs_tac Hc.
Qed.
Lemma newton_fail_ok n fac b (s : state) : ssafe n s -> exists s' ok, newton_fail fac b s = Ok (s', ok) /\ ssafe n s'.
Proof.
  intros Hs. unfold newton_fail. cbv zeta.
  match goal with |- context [if _ then refresh_jac ?x else _] => assert (ssafe n x) as Hx end.
  { eapply ssafe_same; [exact Hs|reflexivity|]. intros H; cs_tac H. }
  destruct b.
  - apply refresh_ok in Hx as (s' & E & Hx & _). rewrite E. eexists _, _. split; [reflexivity|exact Hx].
  - eexists _, _. split; [reflexivity|exact Hx].
Qed.
Lemma newton_check_ok n d d' (s : state) : ssafe n s -> exists s1 r, newton_check d d' s = Ok (s1, r) /\ ssafe n s1 /\
  forall out, r = Some out -> ssafe n (fst out).
Proof.
  intros Hs. unfold newton_check. cbv zeta. destruct (_ && _).
  2: { eexists _, _. split; [reflexivity|]. split; [exact Hs|discriminate]. }
  match goal with |- context [if ltb A ?th (lit A 99 100) then _ else _] => destruct (ltb A th (lit A 99 100)) end.
  - match goal with |- context [if leb A n1 ?x then _ else _] => destruct (leb A n1 x) end.
    + match goal with |- context [newton_fail ?fac ?b ?x] =>
        destruct (newton_fail_ok n fac b x) as (s' & ok & E & Hx) end.
      { eapply ssafe_same; [exact Hs|reflexivity|]. intros H; cs_tac H. }
      rewrite E. cbn [bind]. eexists _, _. split; [reflexivity|]. split.
      * eapply ssafe_same; [exact Hs|reflexivity|]. intros H; cs_tac H.
      * intros out Ho. inversion Ho. exact Hx.
    + eexists _, _. split; [reflexivity|]. split; [|discriminate].
      eapply ssafe_same; [exact Hs|reflexivity|]. intros H; cs_tac H.
  - match goal with |- context [newton_fail ?fac ?b ?x] =>
        destruct (newton_fail_ok n fac b x) as (s' & ok & E & Hx) end.
    { eapply ssafe_same; [exact Hs|reflexivity|]. intros H; cs_tac H. }
    rewrite E. cbn [bind]. eexists _, _. split; [reflexivity|]. split.
    + eapply ssafe_same; [exact Hs|reflexivity|]. intros H; cs_tac H.
    + intros out Ho. inversion Ho. exact Hx.
Qed.

(** A computation that does not panic and whose result is safe. *)
Definition fine {X} (Q : X -> Prop) (r : res X) : Prop :=
  match r with Ok x => Q x | Panic => False | OutOfFuel => True end.
Lemma fine_bind {X Y} (Q : X -> Prop) (R : Y -> Prop) r (k : X -> res Y) :
  fine Q r -> (forall x, Q x -> fine R (k x)) -> fine R (bind r k).
Proof. destruct r; cbn; auto. Qed.

Lemma newton_loop_ok n : 0 < n -> forall fuel d (s : state), ssafe n s ->
  fine (fun r => ssafe n (fst r)) (newton_loop fuel d s).
Proof.
  intros Hn. induction fuel as [|fuel IH]; intros d s Hs; [exact I|]. rewrite newton_loop_S.
  destruct (Nat.leb _ _).
  { destruct (newton_fail_ok n (lit A 1 2) (negb (caljac (i_cache s))) s Hs) as (s' & ok & E & Hx).
    rewrite E. exact Hx. }
  assert (exists s1, newton_pass s = Ok s1 /\ ssafe n s1) as (s1 & E1 & H1).
  { unfold newton_pass. destruct (linear_solve_ok n (newton_transform (newton_rhs s)) Hn) as (s1 & E & H1).
    { now apply newton_transform_safe, newton_rhs_safe. }
    rewrite E. cbn [bind]. eexists. split; [reflexivity|].
    eapply ssafe_same; [exact H1|reflexivity|]. intros H; cs_tac H. }
  rewrite E1. cbn [bind]. cbv zeta.
  destruct (newton_check_ok n (newton_norm s1) d s1 H1) as (s2 & r & E2 & H2 & H3). rewrite E2. cbn [bind].
  destruct r as [out|]; [cbn; auto|].
  pose proof (newton_update_safe n s2 H2) as H4. revert H4. generalize (newton_update s2) as s3. intros s3 H4.
  destruct (leb A _ _); [exact H4|]. apply IH. exact H4.
Qed.

Lemma newton_ok n fuel (s : state) : 0 < n -> ssafe n s -> fine (fun r => ssafe n (fst r)) (newton fuel s).
Proof.
  intros Hn Hs. unfold newton, guard. rewrite (csafe_shapes n s Hs). cbv zeta. apply newton_loop_ok; [assumption|].
  apply prepare_safe in Hs. revert Hs. generalize (prepare_newton s) as s1. intros s1 Hs.
  eapply ssafe_same; [exact Hs|reflexivity|]. intros H; cs_tac H.
Qed.

Lemma error_estimate_ok n (s : state) : 0 < n -> ssafe n s -> exists s', error_estimate s = Ok s' /\ ssafe n s'.
Proof.
  intros Hn [Hu Hc]. unfold error_estimate. cbv zeta. rewrite (shaped_len n) by apply Hc.
  assert (forall g (v : vec A), length v = 4 * n -> length (set_head n g v) = 4 * n) as Hsh.
  { intros g v Hv. unfold set_head. rewrite app_length, tab_length, skipn_length. lia. }
  match goal with |- context [sol n ?a ?b ?ip] =>
    destruct (sol_ok n a b ip) as (x1 & E1 & L1) end; auto; try apply Hc.
  { rewrite Hsh by apply Hc. lia. }
  rewrite Hsh in L1 by apply Hc. rewrite E1. cbn [bind].
  destruct (ltb A _ n1).
  { eexists. split; [reflexivity|]. split; [exact Hu|]. cs_tac Hc. }
  destruct (_ || _).
  - match goal with |- context [sol n ?a ?b ?ip] =>
      destruct (sol_ok n a b ip) as (x2 & E2 & L2) end; auto; try apply Hc.
    { rewrite Hsh by exact L1. lia. }
    rewrite Hsh in L2 by exact L1. rewrite E2. cbn [bind].
    eexists. split; [reflexivity|]. split; [exact Hu|]. cs_tac Hc.
  - eexists. split; [reflexivity|]. split; [exact Hu|]. cs_tac Hc.
Qed.

Lemma radau_cont_length n (c : radau_cache A) : csafe n c -> length (radau_cont n c) = 4 * n.
Proof. intros H. unfold radau_cont. rewrite !app_length, !tab_length, firstn_length, (cs_cont _ _ H). lia. Qed.

Lemma accept_finish_ok n (s : state) : ssafe n s -> exists s', accept_finish s = Ok s' /\ ssafe n s'.
Proof.
  intros Hs. unfold accept_finish. cbv zeta.
  match goal with |- context [refresh_jac ?x] => assert (ssafe n x) as Hx end.
  { eapply ssafe_same; [exact Hs|reflexivity|]. intros H; cs_tac H. }
  destruct (ltb A _ _).
  - apply refresh_ok in Hx as (s' & E & Hx & _). eauto.
  - eauto.
Qed.

Lemma accept_core_safe n (s : state) : ssafe n s -> ssafe n (accept_core s).
Proof.
  intros [Hu Hc]. pose proof (accept_core_frame s) as F. revert F. generalize (accept_core s) as s1. intros s1 F.
  destruct F. split; [now rewrite cf_u, tab_length|].
  rewrite cf_cache.
  assert (length (cont (i_cache s1)) = 4 * n) as H1.
  { rewrite cf_cont, Hu. pose proof (radau_cont_length n _ Hc) as E. destruct (o_dense _); [|exact E].
    unfold set_head. rewrite app_length, tab_length, skipn_length. lia. }
  assert (length (scal (i_cache s1)) = n) as H2.
  { rewrite cf_scal. unfold radau_scal. rewrite map_length, cf_u, tab_length. exact Hu. }
  cs_tac Hc.
Qed.

Lemma accept_next_ok n d (s : state) : ssafe n s -> exists s', accept_next d s = Ok s' /\ ssafe n s'.
Proof.
  intros Hs. unfold accept_next. cbv zeta.
  match goal with |- context [if leb A n0 _ then accept_finish ?x else _] => assert (ssafe n x) as Hx end.
  { eapply ssafe_same; [exact Hs|reflexivity|]. intros H; cs_tac H. }
  destruct (leb A n0 _); [now apply accept_finish_ok|].
  destruct (_ && _ && _).
  - eexists. split; [reflexivity|]. eapply ssafe_same; [exact Hs|reflexivity|]. intros H; cs_tac H.
  - apply accept_finish_ok. eapply ssafe_same; [exact Hs|reflexivity|]. intros H; cs_tac H.
Qed.

Lemma control_ok n (s : state) : ssafe n s -> exists s', step_size_control s = Ok s' /\ ssafe n s'.
Proof.
  intros Hs. rewrite step_size_control_eq.
  assert (ssafe n (force_decompose s)) as H1 by (eapply ssafe_same; [exact Hs|reflexivity|]; intros H; cs_tac H).
  destruct (ltb A _ n1).
  - rewrite radau_accept_eq. apply accept_core_safe in H1. revert H1.
    generalize (proposed_dt (force_decompose s)) as d. generalize (accept_core (force_decompose s)) as s1.
    intros s1 d H1. destruct (last _).
    + eexists. split; [reflexivity|]. exact H1.
    + apply accept_next_ok. destruct H1 as [Hu Hc]. split; [exact Hu|]. cs_tac Hc.
  - revert H1. generalize (div A (i_dt (force_decompose s)) (radau_quot (force_decompose s))) as d.
    generalize (force_decompose s) as s1. intros s1 d H1. unfold radau_reject. cbv zeta.
    match goal with |- context [if _ then refresh_jac ?x else _] => assert (ssafe n x) as Hx end.
    { eapply ssafe_same; [exact H1| |].
      - destruct (first _), (Nat.leb _ _); reflexivity.
      - intros H. destruct (first _), (Nat.leb _ _); cs_tac H. }
    revert Hx. match goal with |- ssafe n ?x -> _ => generalize x as s2 end. intros s2 Hx.
    destruct (negb _).
    + apply refresh_ok in Hx as (s' & E & Hx & _). eauto.
    + eauto.
Qed.

Definition either {X} (r : X + X) : X := match r with inl x => x | inr x => x end.

Lemma decomp_loop_ok n : 0 < n -> forall fuel (s : state), ssafe n s ->
  fine (fun r => ssafe n (either r)) (decomp_loop fuel s).
Proof.
  intros Hn. induction fuel as [|fuel IH]; intros s Hs; [exact I|]. cbn [decomp_loop].
  destruct (perform_ok n s Hn Hs) as (s1 & ok & E & H1). rewrite E. cbn [bind]. destruct ok; [exact H1|].
  destruct (negb _); [exact H1|]. now apply IH.
Qed.

Lemma radau_attempt_ok n fuel (s : state) : 0 < n -> ssafe n s ->
  fine (fun r => ssafe n (either r)) (radau_attempt fuel s).
Proof.
  intros Hn Hs. unfold radau_attempt.
  apply (fine_bind (fun r => ssafe n (either r))).
  { destruct (decompose _); [now apply decomp_loop_ok|exact Hs]. }
  intros [s1|s1] H1; [|exact H1]. cbv zeta. cbn [either] in H1.
  match goal with |- context [newton fuel ?x] => assert (ssafe n x) as Hx end.
  { eapply ssafe_same; [exact H1|reflexivity|]. intros H; cs_tac H. }
  destruct (Nat.leb _ _); [exact Hx|]. destruct (leb A _ _); [exact Hx|].
  apply (fine_bind (fun r => ssafe n (fst r))); [now apply newton_ok|].
  intros [s2 ok] H2. cbn [fst] in H2. destruct ok; cbn [negb]; [|exact H2].
  destruct (error_estimate_ok n s2 Hn H2) as (s3 & E3 & H3). rewrite E3. cbn [bind].
  destruct (control_ok n s3 H3) as (s4 & E4 & H4). rewrite E4. cbn [bind].
  destruct (negb _); exact H4.
Qed.

Lemma radau_loop_ok n fi : 0 < n -> forall fuel (s : state), ssafe n s -> fine (ssafe n) (radau_loop fi fuel s).
Proof.
  intros Hn. induction fuel as [|fuel IH]; intros s Hs; [exact I|]. cbn [radau_loop].
  apply (fine_bind (fun r => ssafe n (either r))); [now apply radau_attempt_ok|].
  intros [s1|s1] H1; [now apply IH|exact H1].
Qed.

Lemma radau_step_ok n fuel (s : state) : 0 < n -> ssafe n s -> fine (ssafe n) (radau_step fuel s).
Proof.
  intros Hn Hs. unfold radau_step. apply radau_loop_ok; [exact Hn|].
  destruct (radau_clip_frame s) as (Cq & _ & _ & _ & _ & Cc & _).
  destruct (q_point _ _ Cq) as (Eu & _). eapply ssafe_same; [exact Hs|now rewrite Eu|].
  intros H. rewrite Cc. cs_tac H.
Qed.
End RadauSafe.
