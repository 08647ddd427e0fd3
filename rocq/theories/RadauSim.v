(** What a Radau5 run does not depend on. *)
From Coq Require Import ZArith List Bool Lia.
From RecordUpdate Require Import RecordSet.
From Verif Require Import Arith Vec Core Spec Jacobian Linalg Driver VecFacts DP5Facts DP5Inv LinFacts LinFactsC
  Radau RadauFacts RadauStep RadauInv RadauTerm RadauSafe RadauHist.
Import ListNotations RecordSetNotations.

Section RadauSim.
Context {A : arith} {P : Type}.
Notation state := (integ A P (radau_cache A)).
Notation alg := (@Radau5 A P).

(** The options Radau5 reads, except [dense]. *)
Record ropts_agree (o o' : opts A) : Prop := {
  ra_reltol : o_reltol o' = o_reltol o;
  ra_abstol : o_abstol o' = o_abstol o;
  ra_dtmax : o_dtmax o' = o_dtmax o;
  ra_max_steps : o_max_steps o' = o_max_steps o;
  ra_max_newt : o_max_newt_iter o' = o_max_newt_iter o;
  ra_pred : o_modern_pred o' = o_modern_pred o;
  ra_safe : o_safe o' = o_safe o;
  ra_facr : o_facr o' = o_facr o;
  ra_facl : o_facl o' = o_facl o;
  ra_quot1 : o_quot1 o' = o_quot1 o;
  ra_quot2 : o_quot2 o' = o_quot2 o;
  ra_fnewt : o_fnewt o' = o_fnewt o;
  ra_ext : o_use_ext_col o' = o_use_ext_col o;
  ra_theta : o_theta o' = o_theta o }.

(** Two right-hand sides that write the same values, whatever the buffer holds. *)
Definition same_rhs (f f' : rhs A P) : Prop :=
  forall d u t p, call_rhs f' d u t p = call_rhs f d u t p.

Lemma for_range_ext {X} lo hi (g h : nat -> X -> res X) st :
  (forall i x, g i x = h i x) -> for_range lo hi g st = for_range lo hi h st.
Proof.
  intros E. unfold for_range. generalize (hi - lo) as k. intros k. revert lo st.
  induction k as [|k IH]; intros lo st; cbn; [reflexivity|]. rewrite E.
  destruct (h lo st); cbn; auto.
Qed.

Lemma jacobian_u_ext (f f' : rhs A P) g df u t p tr : same_rhs f f' ->
  jacobian_u f' g df u t p tr = jacobian_u f g df u t p tr.
Proof.
  intros H. unfold jacobian_u. destruct g as [g|]; [reflexivity|]. rewrite H. f_equal.
  apply for_range_ext. intros i [[[a b] c] d]. unfold fd_column.
  destruct (vget b i); cbn; [|reflexivity..]. destruct (vset b i _); cbn; [|reflexivity..]. now rewrite H.
Qed.

Section Sim.
Variables (f : rhs A P) (jt : option (rhs A P)) (o : opts A).
Definition other (cn : vec A) (s : state) : state :=
  s <| i_dudt := f |> <| i_dfdt := jt |> <| i_opts := o |> <| i_cache; cont := cn |>.
Definition sim (s a : state) : Prop :=
  exists cn, a = other cn s /\ same_rhs (i_dudt s) f /\ ropts_agree (i_opts s) o /\
    length cn = length (cont (i_cache s)) /\ skipn (length (i_u s)) cn = skipn (length (i_u s)) (cont (i_cache s)).

Definition simb (r r' : state * bool) : Prop := sim (fst r) (fst r') /\ snd r' = snd r.
Definition simn (r r' : state * nat) : Prop := sim (fst r) (fst r') /\ snd r' = snd r.
Definition simo (r r' : state + state) : Prop :=
  match r, r' with inl x, inl y => sim x y | inr x, inr y => sim x y | _, _ => False end.

Lemma so_bind {X Y} (R : X -> X -> Prop) (Q : Y -> Y -> Prop) r r' k k' :
  same_outcome R r r' -> (forall x x', R x x' -> same_outcome Q (k x) (k' x')) ->
  same_outcome Q (bind r k) (bind r' k').
Proof. destruct r, r'; cbn; try contradiction; auto. Qed.

Lemma sim_refresh s a : sim s a -> same_outcome sim (refresh_jac s) (refresh_jac a).
Proof.
  intros (cn & -> & Hf & Ho & Hl & Hk). unfold refresh_jac, other.
  cbn [i_dudt i_dfdu i_cache dfdu i_u i_t i_params i_trace set etaInteg etaRadauCache].
  match goal with |- same_outcome _ (bind ?x _) (bind ?y _) => replace y with x end.
  2: { symmetry. apply (jacobian_u_ext (i_dudt s) f). exact Hf. }
  destruct (jacobian_u _ _ _ _ _ _ _) as [[df tr]| |]; cbn [bind same_outcome]; [|exact I..].
  exists cn. split; [reflexivity|]. auto.
Qed.

Lemma sim_set s a (F : state -> state) :
  (forall cn, F (other cn s) = other cn (F s)) ->
  i_dudt (F s) = i_dudt s -> i_opts (F s) = i_opts s -> i_u (F s) = i_u s ->
  cont (i_cache (F s)) = cont (i_cache s) -> sim s a -> sim (F s) (F a).
Proof.
  intros H1 H2 H3 H4 H5 (cn & -> & Hf & Ho & Hl & Hk). exists cn. rewrite H1, H2, H3, H4, H5. auto.
Qed.

Lemma sim_real s a : sim s a -> same_outcome simn (decomp_real s) (decomp_real a).
Proof.
  intros (cn & -> & H). unfold decomp_real. cbv zeta.
  match goal with |- same_outcome _ (bind ?x _) (bind ?y _) => change y with x end.
  destruct (dec _ _ _) as [[[ier m] ip]| |]; cbn [bind same_outcome]; [|exact I..].
  split; [|reflexivity]. exists cn. split; [reflexivity|exact H].
Qed.
Lemma sim_complex s a : sim s a -> same_outcome simn (decomp_complex s) (decomp_complex a).
Proof.
  intros (cn & -> & H). unfold decomp_complex. cbv zeta.
  match goal with |- same_outcome _ (bind ?x _) (bind ?y _) => change y with x end.
  destruct (decc _ _ _ _) as [[[[ier m] m'] ip]| |]; cbn [bind same_outcome]; [|exact I..].
  split; [|reflexivity]. exists cn. split; [reflexivity|exact H].
Qed.

Lemma sim_proj {X} (g : state -> X) s a : sim s a -> (forall cn, g (other cn s) = g s) -> g a = g s.
Proof. intros (cn & -> & _) H. apply H. Qed.
Ltac sproj g H := rewrite (sim_proj g _ _ H (fun _ => eq_refl)).

Lemma sim_failed s a : sim s a -> same_outcome simb (decomp_failed s) (decomp_failed a).
Proof.
  intros H. unfold decomp_failed. cbv zeta.
  assert (nsing (i_cache a) = nsing (i_cache s)) as E by exact (sim_proj (fun x => nsing (i_cache x)) _ _ H (fun _ => eq_refl)).
  assert (caljac (i_cache a) = caljac (i_cache s)) as E' by exact (sim_proj (fun x => caljac (i_cache x)) _ _ H (fun _ => eq_refl)).
  cbn [nsing i_cache set etaInteg etaRadauCache]. 
  match goal with |- same_outcome _ (if Nat.leb 5 ?x then _ else _) (if Nat.leb 5 ?y then _ else _) =>
    change x with (S (nsing (i_cache s))); change y with (S (nsing (i_cache a))) end. rewrite E.
  destruct (Nat.leb 5 _).
  - cbn [same_outcome]. split; [|reflexivity].
    apply (sim_set s a (fun s => s <| i_cache; nsing ::= S |> <| i_sol; rc := RSingularMatrix |>)); try reflexivity; exact H.
  - match goal with |- same_outcome _ (bind (if negb ?x then _ else _) _) (bind (if negb ?y then _ else _) _) =>
      change x with (caljac (i_cache s)); change y with (caljac (i_cache a)) end. rewrite E'.
    apply (so_bind sim).
    2: { intros x x' Hx. split; [exact Hx|reflexivity]. }
    pose proof (sim_set s a (fun s => s <| i_cache; nsing ::= S |> <| i_dt := mul A (i_dt s) (lit A 1 2) |>
       <| i_cache; dtfac := lit A 1 2 |> <| i_cache; reject := true |> <| i_cache; last := false |>)) as Hs.
    destruct (negb _); [apply sim_refresh|]; apply Hs; try reflexivity; exact H.
Qed.

Lemma sim_shapes s a : sim s a -> radau_shapes a = radau_shapes s.
Proof.
  intros (cn & -> & _ & _ & Hl & _). unfold radau_shapes, other. cbv zeta.
  cbn [i_u i_cache u0 scal z1 z2 z3 f1 f2 f3 cont ip1 ip2 e1 e2r e2i dfdu set etaInteg etaRadauCache].
  now rewrite Hl.
Qed.

Lemma sim_perform s a : sim s a -> same_outcome simb (perform_decompositions s) (perform_decompositions a).
Proof.
  intros H. unfold perform_decompositions, guard. rewrite (sim_shapes _ _ H). destruct (radau_shapes s); [|exact I].
  cbv zeta.
  apply (so_bind simn).
  { apply sim_real. apply (sim_set s a (fun s => s <| i_cache; fac1 := div A rU1 (i_dt s) |>
      <| i_cache; alphn := div A rALPHA (i_dt s) |> <| i_cache; betan := div A rBETA (i_dt s) |>)); try reflexivity; exact H. }
  clear s a H. intros [s ier] [a ier'] [H E]. cbn [fst snd] in H, E. subst ier'.
  destruct (Nat.eqb ier 0); [|now apply sim_failed].
  apply (so_bind simn); [now apply sim_complex|].
  clear s a H ier. intros [s ier] [a ier'] [H E]. cbn [fst snd] in H, E. subst ier'.
  destruct (Nat.eqb ier 0); [|now apply sim_failed].
  split; [|reflexivity]. apply (sim_set s a (fun s => s <| i_stats; decompositions ::= S |>)); try reflexivity; exact H.
Qed.

Lemma sim_decomp_loop : forall fuel s a, sim s a -> same_outcome simo (decomp_loop fuel s) (decomp_loop fuel a).
Proof.
  induction fuel as [|fuel IH]; intros s a H; [exact I|]. cbn [decomp_loop].
  apply (so_bind simb); [now apply sim_perform|].
  clear s a H. intros [s ok] [a ok'] [H E]. cbn [fst snd] in H, E. subst ok'. destruct ok; [exact H|].
  assert (rc (i_sol a) = rc (i_sol s)) as E by exact (sim_proj (fun x => rc (i_sol x)) _ _ H (fun _ => eq_refl)).
  rewrite E. destruct (negb _); [exact H|]. now apply IH.
Qed.

Lemma nth_skipn {X} n i (l : list X) d : nth (i + n) l d = nth i (skipn n l) d.
Proof.
  revert l. induction n as [|n IH]; intros l; [now rewrite Nat.add_0_r|].
  rewrite Nat.add_succ_r. destruct l as [|x l]; [now destruct i|]. cbn. apply IH.
Qed.
Lemma nth_tail {X} n k i (l l' : list X) d : skipn n l = skipn n l' -> n <= k -> nth (i + k) l d = nth (i + k) l' d.
Proof. intros E Hk. replace (i + k) with ((i + (k - n)) + n) by lia. now rewrite !nth_skipn, E. Qed.

Lemma tab_ext_all n (g h : nat -> num A) : (forall i, g i = h i) -> tab n g = tab n h.
Proof. intros H. unfold tab. apply map_ext. exact H. Qed.

Lemma sim_prepare s a : sim s a -> sim (prepare_newton s) (prepare_newton a).
Proof.
  intros (cn & -> & Hf & Ho & Hl & Hk). exists cn.
  assert (prepare_newton (other cn s) = other cn (prepare_newton s)) as E.
  { unfold prepare_newton. cbv zeta.
    change (o_use_ext_col (i_opts (other cn s))) with (o_use_ext_col o).
    change (first (i_cache (other cn s))) with (first (i_cache s)).
    rewrite (ra_ext _ _ Ho). destruct (_ || _); [reflexivity|].
    change (i_u (other cn s)) with (i_u s). change (i_dt (other cn s)) with (i_dt s).
    change (i_dtprev (other cn s)) with (i_dtprev s). change (cont (i_cache (other cn s))) with cn.
    set (n := length (i_u s)) in *.
    match goal with |- _ <| i_cache := _ <| z1 := tab n ?p1 |> <| z2 := tab n ?p2 |> <| z3 := tab n ?p3 |> <| f1 := _ |>
       <| f2 := _ |> <| f3 := _ |> |> = other cn (_ <| i_cache := _ <| z1 := tab n ?q1 |> <| z2 := tab n ?q2 |> <| z3 := tab n ?q3 |> <| f1 := _ |>
       <| f2 := _ |> <| f3 := _ |> |>) =>
      replace (tab n p1) with (tab n q1); [replace (tab n p2) with (tab n q2); [replace (tab n p3) with (tab n q3); [|]|]|]
    end; [reflexivity| | |]; apply tab_ext_all; intros i; unfold at_;
      rewrite <- (nth_tail n n i cn (cont (i_cache s))), <- (nth_tail n (2 * n) i cn (cont (i_cache s))),
        <- (nth_tail n (3 * n) i cn (cont (i_cache s))) by (assumption || lia); reflexivity. }
  split; [exact E|]. unfold prepare_newton. destruct (_ || _); auto.
Qed.

Lemma sim_newton_rhs s a : sim s a -> sim (newton_rhs s) (newton_rhs a).
Proof.
  intros (cn & -> & Hf & Ho & Hl & Hk).
  set (n := length (i_u s)).
  exists (tab n (fun i => add A (at_ (i_u s) i) (at_ (z3 (i_cache s)) i)) ++ skipn n cn).
  split.
  - unfold newton_rhs. cbv zeta.
    change (i_u (other cn s)) with (i_u s). change (i_dt (other cn s)) with (i_dt s).
    change (i_dudt (other cn s)) with f. change (i_params (other cn s)) with (i_params s).
    change (i_t (other cn s)) with (i_t s). change (cont (i_cache (other cn s))) with cn.
    change (z1 (i_cache (other cn s))) with (z1 (i_cache s)).
    change (z2 (i_cache (other cn s))) with (z2 (i_cache s)).
    change (z3 (i_cache (other cn s))) with (z3 (i_cache s)).
    rewrite !Hf. reflexivity.
  - split; [exact Hf|]. split; [exact Ho|].
    unfold newton_rhs. cbv zeta. cbn [cont i_cache i_u set etaInteg etaRadauCache]. fold n. fold n in Hk. rewrite Hk.
    split; reflexivity.
Qed.
Lemma sim_newton_transform s a : sim s a -> sim (newton_transform s) (newton_transform a).
Proof. apply (sim_set s a newton_transform); reflexivity. Qed.
Lemma sim_newton_update s a : sim s a -> sim (newton_update s) (newton_update a).
Proof. apply (sim_set s a newton_update); reflexivity. Qed.
Lemma sim_linear_solve s a : sim s a -> same_outcome sim (linear_solve s) (linear_solve a).
Proof.
  intros (cn & -> & H). unfold linear_solve. cbv zeta.
  match goal with |- same_outcome _ (bind ?x _) (bind ?y _) => change y with x end.
  destruct (sol _ _ _ _) as [x1| |]; cbn [bind same_outcome]; [|exact I..].
  match goal with |- same_outcome _ (bind ?x _) (bind ?y _) => change y with x end.
  destruct (solc _ _ _ _ _ _) as [[x2 x3]| |]; cbn [bind same_outcome]; [|exact I..].
  exists cn. split; [reflexivity|exact H].
Qed.
Lemma sim_newton_fail fac b s a : sim s a -> same_outcome simb (newton_fail fac b s) (newton_fail fac b a).
Proof.
  intros H. unfold newton_fail. cbv zeta. apply (so_bind sim).
  2: { intros x x' Hx. split; [exact Hx|reflexivity]. }
  pose proof (sim_set s a (fun s => s <| i_dt := mul A (i_dt s) fac |>
       <| i_cache; dtfac := fac |> <| i_cache; reject := true |> <| i_cache; last := false |>)) as Hs.
  destruct b; [apply sim_refresh|]; apply Hs; try reflexivity; exact H.
Qed.
Definition simc (r r' : state * option (state * bool)) : Prop :=
  sim (fst r) (fst r') /\ match snd r, snd r' with Some x, Some y => simb x y | None, None => True | _, _ => False end.
Lemma sim_newton_check d d' s a : sim s a -> same_outcome simc (newton_check d d' s) (newton_check d d' a).
Proof.
  intros H. assert (i_cache a = i_cache s <| cont := cont (i_cache a) |>) as Ec by (destruct H as (cn & -> & _); reflexivity).
  assert (o_max_newt_iter (i_opts a) = o_max_newt_iter (i_opts s) /\ o_fnewt (i_opts a) = o_fnewt (i_opts s)) as [E1 E2]
   by (destruct H as (cn & -> & _ & Ho & _); split; apply Ho).
  assert (newt (i_cache a) = newt (i_cache s)) as E3 by (rewrite Ec; reflexivity).
  assert (thqold (i_cache a) = thqold (i_cache s)) as E4 by (rewrite Ec; reflexivity).
  assert (caljac (i_cache a) = caljac (i_cache s)) as E5 by (rewrite Ec; reflexivity).
  unfold newton_check. cbv zeta. rewrite E1, E2, E3, E4.
  destruct (_ && _).
  2: { split; [exact H|exact I]. }
  match goal with |- context [if ltb A ?t (lit A 99 100) then _ else _] => set (th := t) end.
  change (caljac (i_cache (s <| i_cache; theta := th |> <| i_cache; thqold := div A d d' |>))) with (caljac (i_cache s)).
  change (caljac (i_cache (a <| i_cache; theta := th |> <| i_cache; thqold := div A d d' |>))) with (caljac (i_cache a)).
  rewrite E5.
  destruct (ltb A th _).
  - assert (sim (s <| i_cache; theta := th |> <| i_cache; thqold := div A d d' |> <| i_cache; faccon := div A th (sub A n1 th) |>)
       (a <| i_cache; theta := th |> <| i_cache; thqold := div A d d' |> <| i_cache; faccon := div A th (sub A n1 th) |>)) as H2.
    { apply (sim_set s a (fun s => s <| i_cache; theta := th |> <| i_cache; thqold := div A d d' |>
         <| i_cache; faccon := div A th (sub A n1 th) |>)); try reflexivity; exact H. }
    match goal with |- context [newton_fail ?fc (caljac (i_cache ?x)) ?x] => change (caljac (i_cache x)) with (caljac (i_cache s)) end.
    match goal with |- context [newton_fail ?fc (caljac (i_cache ?x)) ?x] => change (caljac (i_cache x)) with (caljac (i_cache a)) end.
    rewrite E5.
    destruct (leb A n1 _).
    + apply (so_bind simb); [apply sim_newton_fail; exact H2|]. intros x x' Hx. split; [exact H2|exact Hx].
    + split; [exact H2|exact I].
  - assert (sim (s <| i_cache; theta := th |> <| i_cache; thqold := div A d d' |>)
       (a <| i_cache; theta := th |> <| i_cache; thqold := div A d d' |>)) as H1.
    { apply (sim_set s a (fun s => s <| i_cache; theta := th |> <| i_cache; thqold := div A d d' |>)); try reflexivity; exact H. }
    apply (so_bind simb); [apply sim_newton_fail; exact H1|]. intros x x' Hx. split; [exact H1|exact Hx].
Qed.

Lemma sim_newton_loop : forall fuel d s a, sim s a -> same_outcome simb (newton_loop fuel d s) (newton_loop fuel d a).
Proof.
  induction fuel as [|fuel IH]; intros d s a H; [exact I|]. rewrite !newton_loop_S.
  assert (o_max_newt_iter (i_opts a) = o_max_newt_iter (i_opts s)) as E1
   by (destruct H as (cn & -> & _ & Ho & _); apply Ho).
  assert (newt (i_cache a) = newt (i_cache s)) as E2 by exact (sim_proj (fun x => newt (i_cache x)) _ _ H (fun _ => eq_refl)).
  assert (caljac (i_cache a) = caljac (i_cache s)) as E3 by exact (sim_proj (fun x => caljac (i_cache x)) _ _ H (fun _ => eq_refl)).
  rewrite E1, E2, E3. destruct (Nat.leb _ _); [now apply sim_newton_fail|].
  apply (so_bind sim).
  { unfold newton_pass. apply (so_bind sim).
    - now apply sim_linear_solve, sim_newton_transform, sim_newton_rhs.
    - intros x x' Hx. apply (sim_set x x' (fun s => s <| i_stats; linear_solves ::= S |> <| i_cache; newt ::= S |>)); try reflexivity; exact Hx. }
  clear s a H E1 E2 E3. intros s a H. cbv zeta.
  assert (newton_norm a = newton_norm s) as En by exact (sim_proj newton_norm _ _ H (fun _ => eq_refl)). rewrite En.
  apply (so_bind simc); [now apply sim_newton_check|].
  generalize (newton_norm s) as dn. clear s a H En. intros dn [s r] [a r'] [H Hr]. cbn [fst snd] in H, Hr.
  destruct r as [x|], r' as [x'|]; try contradiction; [exact Hr|].
  apply sim_newton_update in H. revert H. generalize (newton_update s) as s1. generalize (newton_update a) as a1. intros a1 s1 H.
  assert (o_fnewt (i_opts a1) = o_fnewt (i_opts s1)) as E1
   by (destruct H as (cn & -> & _ & Ho & _); apply Ho).
  assert (faccon (i_cache a1) = faccon (i_cache s1)) as E2 by exact (sim_proj (fun x => faccon (i_cache x)) _ _ H (fun _ => eq_refl)).
  rewrite E1, E2. destruct (leb A _ _); [split; [exact H|reflexivity]|]. now apply IH.
Qed.

Lemma sim_newton fuel s a : sim s a -> same_outcome simb (newton fuel s) (newton fuel a).
Proof.
  intros H. unfold newton, guard. rewrite (sim_shapes _ _ H). destruct (radau_shapes s); [|exact I]. cbv zeta.
  apply sim_newton_loop. apply sim_prepare in H. revert H.
  generalize (prepare_newton s) as s1. generalize (prepare_newton a) as a1. intros a1 s1 H.
  assert (o_theta (i_opts a1) = o_theta (i_opts s1)) as E1
   by (destruct H as (cn & -> & _ & Ho & _); apply Ho).
  change (i_opts (a1 <| i_cache; newt := 0 |> <| i_cache; faccon := powf A (nmax A (faccon (i_cache (a1 <| i_cache; newt := 0 |>))) (eps A)) (lit A 8 10) |>)) with (i_opts a1).
  change (i_opts (s1 <| i_cache; newt := 0 |> <| i_cache; faccon := powf A (nmax A (faccon (i_cache (s1 <| i_cache; newt := 0 |>))) (eps A)) (lit A 8 10) |>)) with (i_opts s1).
  rewrite E1. generalize (o_theta (i_opts s1)) as th. intros th.
  apply (sim_set s1 a1 (fun s1 => s1 <| i_cache; newt := 0 |> <| i_cache; faccon := powf A (nmax A (faccon (i_cache s1)) (eps A)) (lit A 8 10) |>
     <| i_cache; theta := nabs A th |>)); try reflexivity; exact H.
Qed.

Lemma sim_u s a : sim s a -> i_u a = i_u s.
Proof. intros H. exact (sim_proj i_u s a H (fun _ => eq_refl)). Qed.

Definition est_first (F2 cn1 : vec A) (er : num A) (s : state) : state :=
  s <| i_cache := i_cache s <| f2 := F2 |> <| cont := cn1 |> <| err := er |> |>.
Definition est_second (y F1 cn2 : vec A) (er : num A) (s : state) : state :=
  s <| i_cache; f1 := F1 |> <| i_cache; cont := cn2 |> <| i_cache; err := er |>
    <| i_stats; function_evals ::= fun k => (k + 1)%nat |> <| i_trace ::= fun tr => EvF (i_t s) y :: tr |>.
Definition est_tail n (F2 cn1 : vec A) (s : state) : res state :=
  let s' := est_first F2 cn1 (est_norm n cn1 (scal (i_cache s))) s in
  if ltb A (est_norm n cn1 (scal (i_cache s))) n1 then Ok s'
  else if first (i_cache s) || reject (i_cache s) then
    let y := tab n (fun i => add A (at_ (i_u s) i) (at_ cn1 i)) in
    let F1 := call_rhs (i_dudt s) (f1 (i_cache s)) y (i_t s) (i_params s) in
    let* cn2 := sol n (e1 (i_cache s)) (set_head n (fun i => add A (at_ F1 i) (at_ F2 i)) cn1) (ip1 (i_cache s)) in
    Ok (est_second y F1 cn2 (est_norm n cn2 (scal (i_cache s))) s')
  else Ok s'.
Definition est_f2 (n : nat) (dt : num A) (c : radau_cache A) : vec A :=
  let sq6 := nsqrt A (lit A 6 1) in
  let hee1 := div A (opp A (add A (lit A 13 1) (mul A (lit A 7 1) sq6))) (mul A (lit A 3 1) dt) in
  let hee2 := div A (add A (lit A (-13) 1) (mul A (lit A 7 1) sq6)) (mul A (lit A 3 1) dt) in
  let hee3 := div A (lit A (-1) 1) (mul A (lit A 3 1) dt) in
  tab n (fun i => add A (add A (mul A hee1 (at_ (z1 c) i)) (mul A hee2 (at_ (z2 c) i))) (mul A hee3 (at_ (z3 c) i))).
Lemma error_estimate_eq (s : state) :
  error_estimate s =
  let n := length (e1 (i_cache s)) in
  let F2 := est_f2 n (i_dt s) (i_cache s) in
  let* cn := sol n (e1 (i_cache s)) (set_head n (fun i => add A (at_ F2 i) (at_ (u0 (i_cache s)) i)) (cont (i_cache s))) (ip1 (i_cache s)) in
  est_tail n F2 cn s.
Proof. reflexivity. Qed.

Lemma est_first_other F2 cn1 er cn s : est_first F2 cn1 er (other cn s) = other cn1 (est_first F2 cn1 er s).
Proof. reflexivity. Qed.
Lemma est_second_other y F1 cn2 er cn s : est_second y F1 cn2 er (other cn s) = other cn2 (est_second y F1 cn2 er s).
Proof. reflexivity. Qed.

Lemma sim_error_estimate s a : length (e1 (i_cache s)) = length (i_u s) ->
  sim s a -> same_outcome sim (error_estimate s) (error_estimate a).
Proof.
  intros Hn (cn & -> & Hf & Ho & Hl & Hk). rewrite !error_estimate_eq. cbv zeta.
  change (i_dt (other cn s)) with (i_dt s).
  change (est_f2 (length (e1 (i_cache (other cn s)))) (i_dt s) (i_cache (other cn s)))
    with (est_f2 (length (e1 (i_cache s))) (i_dt s) (i_cache s)).
  change (cont (i_cache (other cn s))) with cn.
  change (e1 (i_cache (other cn s))) with (e1 (i_cache s)). change (ip1 (i_cache (other cn s))) with (ip1 (i_cache s)).
  change (u0 (i_cache (other cn s))) with (u0 (i_cache s)).
  set (n := length (e1 (i_cache s))) in *.
  generalize (est_f2 n (i_dt s) (i_cache s)) as F2. intros F2.
  assert (forall g, set_head n g cn = set_head n g (cont (i_cache s))) as Eh.
  { intros g. unfold set_head. rewrite Hn, Hk. reflexivity. }
  rewrite !Eh. destruct (sol n _ _ _) as [cn1| |]; cbn [bind same_outcome]; [|exact I..].
  unfold est_tail. cbv zeta.
  change (scal (i_cache (other cn s))) with (scal (i_cache s)).
  change (first (i_cache (other cn s))) with (first (i_cache s)). change (reject (i_cache (other cn s))) with (reject (i_cache s)).
  change (i_u (other cn s)) with (i_u s). change (i_dudt (other cn s)) with f.
  change (i_t (other cn s)) with (i_t s). change (i_params (other cn s)) with (i_params s).
  change (f1 (i_cache (other cn s))) with (f1 (i_cache s)).
  change (e1 (i_cache (other cn s))) with (e1 (i_cache s)). change (ip1 (i_cache (other cn s))) with (ip1 (i_cache s)).
  rewrite Hf, est_first_other.
  generalize (est_norm n cn1 (scal (i_cache s))) as er. intros er.
  assert (same_rhs (i_dudt (est_first F2 cn1 er s)) f) as Hf1 by exact Hf.
  assert (ropts_agree (i_opts (est_first F2 cn1 er s)) o) as Ho1 by exact Ho.
  assert (sim (est_first F2 cn1 er s) (other cn1 (est_first F2 cn1 er s))) as H1.
  { exists cn1. split; [reflexivity|]. split; [exact Hf1|]. split; [exact Ho1|]. split; reflexivity. }
  destruct (ltb A _ _); [exact H1|]. destruct (_ || _); [|exact H1].
  generalize (call_rhs (i_dudt s) (f1 (i_cache s)) (tab n (fun i => add A (at_ (i_u s) i) (at_ cn1 i))) (i_t s) (i_params s)) as F1.
  generalize (tab n (fun i => add A (at_ (i_u s) i) (at_ cn1 i))) as y. intros y F1.
  destruct (sol n _ _ _) as [cn2| |]; cbn [bind same_outcome]; [|exact I..].
  generalize (est_norm n cn2 (scal (i_cache s))) as er2. intros er2.
  revert Hf1 Ho1. generalize (est_first F2 cn1 er s) as s1. intros s1 Hf1 Ho1.
  rewrite est_second_other. exists cn2. split; [reflexivity|]. split; [exact Hf1|]. split; [exact Ho1|]. split; reflexivity.
Qed.

Lemma sim_quot s a : sim s a -> radau_quot a = radau_quot s.
Proof.
  intros (cn & -> & _ & Ho & _). unfold radau_quot. cbv zeta. change (i_opts (other cn s)) with o.
  rewrite (ra_safe _ _ Ho), (ra_facr _ _ Ho), (ra_facl _ _ Ho), (ra_max_newt _ _ Ho). reflexivity.
Qed.
Lemma sim_gus_dt d q s a : sim s a -> gustafsson_dt d q a = gustafsson_dt d q s.
Proof.
  intros (cn & -> & _ & Ho & _). unfold gustafsson_dt. cbv zeta. change (i_opts (other cn s)) with o.
  rewrite (ra_safe _ _ Ho), (ra_facr _ _ Ho), (ra_facl _ _ Ho), (ra_pred _ _ Ho). reflexivity.
Qed.
Lemma sim_gus_mem s a : sim s a -> sim (gustafsson_mem s) (gustafsson_mem a).
Proof.
  intros H. unfold gustafsson_mem.
  assert (o_modern_pred (i_opts a) = o_modern_pred (i_opts s)) as -> by (destruct H as (cn & -> & _ & Ho & _); apply Ho).
  destruct (o_modern_pred _); [|exact H].
  apply (sim_set s a (fun s => s <| i_cache; dtacc := i_dt s |>
         <| i_cache; erracc := nmax A (lit A 1 100) (err (i_cache s)) |>)); try reflexivity; exact H.
Qed.
Lemma sim_count s a : sim s a -> sim (accept_count s) (accept_count a).
Proof. apply (sim_set s a accept_count); reflexivity. Qed.
Lemma skipn_firstn_app {X} n (l r : list X) : n <= length l -> skipn n (firstn n l ++ r) = r.
Proof.
  intros H. rewrite skipn_app, firstn_length, Nat.min_l, Nat.sub_diag by lia.
  rewrite skipn_all2; [reflexivity|]. rewrite firstn_length. lia.
Qed.
Lemma sim_advance s a : length (i_u s) <= length (cont (i_cache s)) -> sim s a -> sim (accept_advance s) (accept_advance a).
Proof.
  intros Hn (cn & -> & Hf & Ho & Hl & Hk). exists (radau_cont (length (i_u s)) (i_cache s <| cont := cn |>)).
  split.
  { unfold accept_advance, radau_scal. cbv zeta. change (i_opts (other cn s)) with o.
    rewrite (ra_reltol _ _ Ho), (ra_abstol _ _ Ho). reflexivity. }
  split; [exact Hf|]. split; [exact Ho|].
  change (i_u (accept_advance s)) with (tab (length (i_u s)) (fun i => add A (at_ (i_u s) i) (at_ (z3 (i_cache s)) i))).
  change (cont (i_cache (accept_advance s))) with (radau_cont (length (i_u s)) (i_cache s)).
  rewrite tab_length. unfold radau_cont.
  change (cont (i_cache s <| cont := cn |>)) with cn.
  rewrite !skipn_firstn_app by lia. split; [|reflexivity].
  rewrite !app_length, !firstn_length, !tab_length. lia.
Qed.
Lemma sim_dense s a : length (i_u s) <= length (cont (i_cache s)) -> sim s a -> sim (accept_dense s) (accept_dense a).
Proof.
  intros Hn (cn & -> & Hf & Ho & Hl & Hk). unfold accept_dense.
  change (o_dense (i_opts (other cn s))) with (o_dense o).
  change (i_u (other cn s)) with (i_u s). change (cont (i_cache (other cn s))) with cn.
  set (n := length (i_u s)) in *.
  assert (forall (g : nat -> num A) v, n <= length v -> length (set_head n g v) = length v /\ skipn n (set_head n g v) = skipn n v) as Hh.
  { intros g v Hv. unfold set_head. rewrite app_length, tab_length, skipn_length. split; [lia|].
    rewrite skipn_app, tab_length, Nat.sub_diag, skipn_all2 by (rewrite tab_length; lia). reflexivity. }
  destruct (o_dense o), (o_dense (i_opts s)).
  - exists (set_head n (at_ (i_u s)) cn). split; [reflexivity|]. split; [exact Hf|]. split; [exact Ho|].
    cbn [cont i_cache i_u set etaInteg etaRadauCache]. fold n.
    rewrite (proj1 (Hh _ cn ltac:(lia))), (proj1 (Hh _ (cont (i_cache s)) ltac:(lia))). split; [exact Hl|].
    rewrite (proj2 (Hh _ cn ltac:(lia))), (proj2 (Hh _ (cont (i_cache s)) ltac:(lia))). exact Hk.
  - exists (set_head n (at_ (i_u s)) cn). split; [reflexivity|]. split; [exact Hf|]. split; [exact Ho|].
    fold n. rewrite (proj1 (Hh _ cn ltac:(lia))), (proj2 (Hh _ cn ltac:(lia))). split; [exact Hl|exact Hk].
  - exists cn. split; [reflexivity|]. split; [exact Hf|]. split; [exact Ho|].
    cbn [cont i_cache i_u set etaInteg etaRadauCache]. fold n.
    rewrite (proj1 (Hh _ (cont (i_cache s)) ltac:(lia))), (proj2 (Hh _ (cont (i_cache s)) ltac:(lia))). split; [exact Hl|exact Hk].
  - exists cn. split; [reflexivity|]. auto.
Qed.
Lemma sim_record s a : sim s a -> sim (accept_record s) (accept_record a).
Proof. apply (sim_set s a accept_record); reflexivity. Qed.
Lemma sim_done s a : sim s a -> sim (accept_done s) (accept_done a).
Proof. apply (sim_set s a accept_done); reflexivity. Qed.
Lemma sim_eval s a : sim s a -> sim (accept_eval s) (accept_eval a).
Proof.
  intros (cn & -> & Hf & H). exists cn. split; [|split; [exact Hf|exact H]].
  unfold accept_eval. change (i_dudt (other cn s)) with f. rewrite Hf. reflexivity.
Qed.
Lemma sim_finish s a : sim s a -> same_outcome sim (accept_finish s) (accept_finish a).
Proof.
  intros H. unfold accept_finish. cbv zeta.
  assert (sim (s <| i_cache; dtfac := i_dt s |>) (a <| i_cache; dtfac := i_dt a |>)) as H1.
  { apply (sim_set s a (fun s => s <| i_cache; dtfac := i_dt s |>)); try reflexivity; exact H. }
  assert (o_theta (i_opts a) = o_theta (i_opts s)) as E by (destruct H as (cn & -> & _ & Ho & _); apply Ho).
  assert (theta (i_cache a) = theta (i_cache s)) as E' by exact (sim_proj (fun x => theta (i_cache x)) s a H (fun _ => eq_refl)).
  match goal with |- same_outcome _ (if ?x then _ else _) (if ?y then _ else _) =>
    change x with (ltb A (o_theta (i_opts s)) (theta (i_cache s)));
    change y with (ltb A (o_theta (i_opts a)) (theta (i_cache a))) end.
  rewrite E, E'. destruct (ltb A _ _); [apply sim_refresh; exact H1|exact H1].
Qed.
Lemma sim_next d s a : sim s a -> same_outcome sim (accept_next d s) (accept_next d a).
Proof.
  intros H.
  assert (o_theta (i_opts a) = o_theta (i_opts s) /\ o_dtmax (i_opts a) = o_dtmax (i_opts s) /\
    o_quot1 (i_opts a) = o_quot1 (i_opts s) /\ o_quot2 (i_opts a) = o_quot2 (i_opts s)) as (E1 & E2 & E3 & E4)
    by (destruct H as (cn & -> & _ & Ho & _); repeat split; apply Ho).
  assert (theta (i_cache a) = theta (i_cache s)) as E5 by exact (sim_proj (fun x => theta (i_cache x)) s a H (fun _ => eq_refl)).
  assert (reject (i_cache a) = reject (i_cache s)) as E6 by exact (sim_proj (fun x => reject (i_cache x)) s a H (fun _ => eq_refl)).
  assert (i_tdir a = i_tdir s) as E7 by exact (sim_proj i_tdir s a H (fun _ => eq_refl)).
  assert (i_t a = i_t s) as E8 by exact (sim_proj i_t s a H (fun _ => eq_refl)).
  assert (i_dt a = i_dt s) as E9 by exact (sim_proj i_dt s a H (fun _ => eq_refl)).
  assert (i_tfinal a = i_tfinal s) as E10 by exact (sim_proj i_tfinal s a H (fun _ => eq_refl)).
  unfold accept_next. cbv zeta.
  rewrite E2, E7, E9.
  set (d1 := mul A (i_tdir s) (nmin A (nabs A d) (o_dtmax (i_opts s)))).
  set (dopt := nmin A (i_dt s) d1).
  assert (forall g : state -> state, (forall cn x, g (other cn x) = other cn (g x)) ->
     (forall x, i_dudt (g x) = i_dudt x /\ i_opts (g x) = i_opts x /\ i_u (g x) = i_u x /\ cont (i_cache (g x)) = cont (i_cache x)) ->
     sim (g s) (g a)) as Hg.
  { intros g G1 G2. destruct (G2 s) as (? & ? & ? & ?). apply (sim_set s a g); auto. }
  match goal with |- context [if reject (i_cache ?x) then mul A (i_tdir ?x) (nmin A _ (nabs A (i_dt ?x))) else _] =>
    change (reject (i_cache x)) with (reject (i_cache s)); change (i_tdir x) with (i_tdir s); change (i_dt x) with (i_dt s) end.
  match goal with |- context [if reject (i_cache ?x) then mul A (i_tdir ?x) (nmin A _ (nabs A (i_dt ?x))) else _] =>
    change (reject (i_cache x)) with (reject (i_cache a)); change (i_tdir x) with (i_tdir a); change (i_dt x) with (i_dt a) end.
  rewrite E6, E7, E9. set (d2 := if reject _ then _ else _).
  match goal with |- same_outcome _ (if leb A n0 ?x then _ else _) (if leb A n0 ?y then _ else _) =>
    change x with (mul A (sub A (add A (i_t s) (div A d2 (o_quot1 (i_opts s)))) (i_tfinal s)) (i_tdir s));
    change y with (mul A (sub A (add A (i_t a) (div A d2 (o_quot1 (i_opts a)))) (i_tfinal a)) (i_tdir a)) end.
  rewrite E3, E7, E8, E10. destruct (leb A n0 _).
  - apply sim_finish.
    match goal with |- sim (_ <| i_dt := ?x |> <| i_cache; last := true |>) (_ <| i_dt := ?y |> <| i_cache; last := true |>) =>
      change x with (sub A (i_tfinal s) (i_t s)); change y with (sub A (i_tfinal a) (i_t a)) end. rewrite E8, E10.
    apply (Hg (fun s0 => s0 <| i_cache; dtopt := dopt |> <| i_cache; reject := false |>
      <| i_dt := sub A (i_tfinal s) (i_t s) |> <| i_cache; last := true |>)); [reflexivity|repeat split].
  - match goal with |- same_outcome _ (if ?x && ?y && ?z then _ else _) (if ?x' && ?y' && ?z' then _ else _) =>
      change x with (leb A (theta (i_cache s)) (o_theta (i_opts s)));
      change y with (leb A (o_quot1 (i_opts s)) (div A d2 (i_dt s)));
      change z with (leb A (div A d2 (i_dt s)) (o_quot2 (i_opts s)));
      change x' with (leb A (theta (i_cache a)) (o_theta (i_opts a)));
      change y' with (leb A (o_quot1 (i_opts a)) (div A d2 (i_dt a)));
      change z' with (leb A (div A d2 (i_dt a)) (o_quot2 (i_opts a))) end.
    rewrite E1, E3, E4, E5, E9. destruct (_ && _).
    + cbn [same_outcome].
      apply (Hg (fun s0 => s0 <| i_cache; dtopt := dopt |> <| i_cache; reject := false |>
        <| i_cache; dtfac := i_dt s0 |> <| i_cache; decompose := false |>)); [reflexivity|repeat split].
    + apply sim_finish.
      apply (Hg (fun s0 => s0 <| i_cache; dtopt := dopt |> <| i_cache; reject := false |>
        <| i_cache; dtfac := i_dt s0 |> <| i_dt := d2 |>)); [reflexivity|repeat split].
Qed.

Lemma sim_accept d q s a : length (i_u s) <= length (cont (i_cache s)) ->
  sim s a -> same_outcome sim (radau_accept d q s) (radau_accept d q a).
Proof.
  intros Hn H. unfold radau_accept. cbv zeta. apply sim_count in H.
  assert (length (i_u (accept_count s)) <= length (cont (i_cache (accept_count s)))) as Hn1 by exact Hn.
  revert H Hn1. generalize (accept_count s) as s1. generalize (accept_count a) as a1. clear s a Hn. intros a s H Hn.
  rewrite (sim_gus_dt d q s a H). generalize (gustafsson_dt d q s) as d1. intros d1.
  apply sim_gus_mem in H.
  assert (length (i_u (gustafsson_mem s)) <= length (cont (i_cache (gustafsson_mem s)))) as Hn1
    by (unfold gustafsson_mem; destruct (o_modern_pred _); exact Hn).
  revert H Hn1. generalize (gustafsson_mem s) as s1. generalize (gustafsson_mem a) as a1. clear s a Hn. intros a s H Hn.
  apply sim_advance in H; [|exact Hn].
  assert (length (i_u (accept_advance s)) <= length (cont (i_cache (accept_advance s)))) as Hn1.
  { unfold accept_advance. cbn [i_u i_cache cont set etaInteg etaRadauCache]. unfold radau_cont.
    rewrite !app_length, !firstn_length, !tab_length. lia. }
  revert H Hn1. generalize (accept_advance s) as s1. generalize (accept_advance a) as a1. clear s a Hn. intros a s H Hn.
  apply sim_dense in H; [|exact Hn]. apply sim_record in H. revert H.
  generalize (accept_record (accept_dense s)) as s1. generalize (accept_record (accept_dense a)) as a1. clear s a Hn. intros a s H.
  assert (last (i_cache a) = last (i_cache s)) as -> by exact (sim_proj (fun x => last (i_cache x)) s a H (fun _ => eq_refl)).
  destruct (last _); [apply sim_done; exact H|]. apply sim_next, sim_eval, H.
Qed.

Lemma sim_reject d s a : sim s a -> same_outcome sim (radau_reject d s) (radau_reject d a).
Proof.
  intros H. unfold radau_reject. cbv zeta.
  assert (first (i_cache a) = first (i_cache s)) as E1 by exact (sim_proj (fun x => first (i_cache x)) s a H (fun _ => eq_refl)).
  match goal with |- context [if first (i_cache ?x) then _ else _] => change (first (i_cache x)) with (first (i_cache s)) end.
  match goal with |- same_outcome _ _ ?r => match r with context [if first (i_cache ?x) then _ else _] => change (first (i_cache x)) with (first (i_cache a)) end end.
  rewrite E1.
  match goal with |- same_outcome _ (if negb (caljac (i_cache (if Nat.leb 1 (accepts (i_stats ?x)) then _ else _))) then _ else _)
     (if negb (caljac (i_cache (if Nat.leb 1 (accepts (i_stats ?y)) then _ else _))) then _ else _) =>
    assert (sim x y) as Hx end.
  { destruct (first (i_cache s)).
    - apply (sim_set s a (fun s => s <| i_cache; reject := true |> <| i_cache; last := false |>
        <| i_dt := mul A (i_dt s) (lit A 1 10) |> <| i_cache; dtfac := lit A 1 10 |>)); try reflexivity; exact H.
    - apply (sim_set s a (fun s => s <| i_cache; reject := true |> <| i_cache; last := false |>
        <| i_cache; dtfac := div A d (i_dt s) |> <| i_dt := d |>)); try reflexivity; exact H. }
  revert Hx.
  match goal with |- sim ?x ?y -> _ => generalize x as s1; generalize y as a1 end. clear s a H E1. intros a s H.
  assert (accepts (i_stats a) = accepts (i_stats s)) as -> by exact (sim_proj (fun x => accepts (i_stats x)) s a H (fun _ => eq_refl)).
  match goal with |- same_outcome _ (if negb (caljac (i_cache ?x)) then _ else _) (if negb (caljac (i_cache ?y)) then _ else _) =>
    assert (sim x y) as H1 end.
  { destruct (Nat.leb _ _); [|exact H].
    apply (sim_set s a (fun s => s <| i_stats; rejects ::= S |>)); try reflexivity; exact H. }
  revert H1. match goal with |- sim ?x ?y -> _ => generalize x as s1; generalize y as a1 end. clear s a H. intros a s H.
  assert (caljac (i_cache a) = caljac (i_cache s)) as -> by exact (sim_proj (fun x => caljac (i_cache x)) s a H (fun _ => eq_refl)).
  destruct (negb _); [apply sim_refresh; exact H|exact H].
Qed.

Lemma sim_control n s a : ssafe n s -> sim s a -> same_outcome sim (step_size_control s) (step_size_control a).
Proof.
  intros [Hu Hc] H. rewrite !step_size_control_eq.
  assert (err (i_cache a) = err (i_cache s)) as -> by exact (sim_proj (fun x => err (i_cache x)) s a H (fun _ => eq_refl)).
  assert (sim (force_decompose s) (force_decompose a)) as H1
    by (apply (sim_set s a force_decompose); try reflexivity; exact H).
  assert (length (i_u (force_decompose s)) <= length (cont (i_cache (force_decompose s)))) as Hn
    by (unfold force_decompose; cbn [i_u i_cache cont set etaInteg etaRadauCache]; rewrite Hu, (cs_cont _ _ Hc); lia).
  clear H Hu Hc. revert H1 Hn. generalize (force_decompose s) as s1. generalize (force_decompose a) as a1. intros a1 s1 H Hn.
  rewrite (sim_quot s1 a1 H).
  assert (i_dt a1 = i_dt s1) as -> by exact (sim_proj i_dt s1 a1 H (fun _ => eq_refl)).
  destruct (ltb A _ _); [apply sim_accept|apply sim_reject]; assumption.
Qed.

Lemma sim_attempt n fuel s a : 0 < n -> ssafe n s -> sim s a ->
  same_outcome simo (radau_attempt fuel s) (radau_attempt fuel a).
Proof.
  intros Hn Hs H. unfold radau_attempt.
  assert (decompose (i_cache a) = decompose (i_cache s)) as -> by exact (sim_proj (fun x => decompose (i_cache x)) s a H (fun _ => eq_refl)).
  assert (same_outcome (fun r r' => simo r r' /\ ssafe n (either r))
    (if decompose (i_cache s) then decomp_loop fuel s else Ok (inl s))
    (if decompose (i_cache s) then decomp_loop fuel a else Ok (inl a))) as Hd.
  { destruct (decompose (i_cache s)); [|split; assumption].
    pose proof (sim_decomp_loop fuel s a H) as H1. pose proof (decomp_loop_ok n Hn fuel s Hs) as H2.
    destruct (decomp_loop fuel s), (decomp_loop fuel a); cbn in H1, H2 |- *; try contradiction; auto. }
  eapply so_bind; [exact Hd|]. clear s a Hs H Hd. intros [s|s] [a|a] [H Hs]; cbn [simo either] in H, Hs; try contradiction; [|exact H].
  cbv zeta.
  change (s <| i_stats; steps ::= S |>) with (count_step s). change (a <| i_stats; steps ::= S |>) with (count_step a).
  assert (sim (count_step s) (count_step a)) as H1 by (apply (sim_set s a count_step); try reflexivity; exact H).
  assert (ssafe n (count_step s)) as Hs1 by exact Hs.
  clear H Hs. revert H1 Hs1. generalize (count_step s) as s1. generalize (count_step a) as a1. clear s a. intros a s H Hs.
  assert (o_max_steps (i_opts a) = o_max_steps (i_opts s)) as -> by (destruct H as (cn & -> & _ & Ho & _); apply Ho).
  assert (steps (i_stats a) = steps (i_stats s)) as -> by exact (sim_proj (fun x => steps (i_stats x)) s a H (fun _ => eq_refl)).
  assert (i_dt a = i_dt s) as -> by exact (sim_proj i_dt s a H (fun _ => eq_refl)).
  assert (i_t a = i_t s) as -> by exact (sim_proj i_t s a H (fun _ => eq_refl)).
  destruct (Nat.leb _ _).
  { apply (sim_set s a (fun s => s <| i_sol; rc := RMaxIters |>)); try reflexivity; exact H. }
  destruct (leb A _ _).
  { apply (sim_set s a (fun s => s <| i_sol; rc := RDtLessThanMin |>)); try reflexivity; exact H. }
  assert (same_outcome (fun r r' => simb r r' /\ ssafe n (fst r)) (newton fuel s) (newton fuel a)) as Hd.
  { pose proof (sim_newton fuel s a H) as H1. pose proof (newton_ok n fuel s Hn Hs) as H2.
    destruct (newton fuel s), (newton fuel a); cbn in H1, H2 |- *; try contradiction; auto. }
  eapply so_bind; [exact Hd|]. clear s a Hs H Hd. intros [s v] [a v'] [[H E] Hs]. cbn [fst snd] in H, E, Hs. subst v'.
  destruct v; cbn [negb]; [|exact H].
  assert (same_outcome (fun r r' => sim r r' /\ ssafe n r) (error_estimate s) (error_estimate a)) as Hd.
  { pose proof (sim_error_estimate s a) as H1. destruct (error_estimate_ok n s Hn Hs) as (s' & E2 & H2).
    specialize (H1 ltac:(destruct Hs as [Hu Hc]; rewrite Hu; apply shaped_len; apply Hc) H). rewrite E2 in H1 |- *.
    destruct (error_estimate a); cbn in H1 |- *; try contradiction; auto. }
  eapply so_bind; [exact Hd|]. clear s a Hs H Hd. intros s a [H Hs].
  eapply so_bind; [apply (sim_control n); eassumption|]. clear s a H Hs. intros s a H.
  assert (reject (i_cache a) = reject (i_cache s)) as -> by exact (sim_proj (fun x => reject (i_cache x)) s a H (fun _ => eq_refl)).
  destruct (negb _); exact H.
Qed.

Lemma sim_loop n fi : 0 < n -> forall fuel s a, ssafe n s -> sim s a ->
  same_outcome sim (radau_loop fi fuel s) (radau_loop fi fuel a).
Proof.
  intros Hn. induction fuel as [|fuel IH]; intros s a Hs H; [exact I|]. cbn [radau_loop].
  assert (same_outcome (fun r r' => simo r r' /\ ssafe n (either r)) (radau_attempt fi s) (radau_attempt fi a)) as Hd.
  { pose proof (sim_attempt n fi s a Hn Hs H) as H1. pose proof (radau_attempt_ok n fi s Hn Hs) as H2.
    destruct (radau_attempt fi s), (radau_attempt fi a); cbn in H1, H2 |- *; try contradiction; auto. }
  eapply so_bind; [exact Hd|]. clear s a Hs H Hd.
  intros [s|s] [a|a] [H Hs]; cbn [simo either] in H, Hs; try contradiction; [|exact H]. now apply IH.
Qed.

Lemma sim_clip s a : sim s a -> sim (radau_clip s) (radau_clip a).
Proof.
  intros H. unfold radau_clip.
  assert (i_dt a = i_dt s) as -> by exact (sim_proj i_dt s a H (fun _ => eq_refl)).
  assert (i_t a = i_t s) as -> by exact (sim_proj i_t s a H (fun _ => eq_refl)).
  assert (i_tfinal a = i_tfinal s) as -> by exact (sim_proj i_tfinal s a H (fun _ => eq_refl)).
  assert (i_tdir a = i_tdir s) as -> by exact (sim_proj i_tdir s a H (fun _ => eq_refl)).
  destruct (leb A _ _); [|exact H].
  generalize (sub A (i_tfinal s) (i_t s)) as v. intros v.
  apply (sim_set s a (fun s => s <| i_dt := v |> <| i_cache; last := true |>)); try reflexivity; exact H.
Qed.

Definition simx n (s a : state) : Prop := sim s a /\ ssafe n s.

Lemma sim_step n fuel s a : 0 < n -> simx n s a ->
  same_outcome (fun x y => simx n (fst x) (fst y) /\ snd x = snd y) (step alg None fuel s) (step alg None fuel a).
Proof.
  intros Hn [H Hs]. unfold step. cbn [alg_step Radau5].
  pose proof (radau_step_ok n fuel s Hn Hs) as Hok.
  assert (same_outcome sim (radau_step fuel s) (radau_step fuel a)) as Hl.
  { unfold radau_step. apply (sim_loop n); [exact Hn| |apply sim_clip; exact H].
    destruct Hs as [Hu Hc]. unfold radau_clip. destruct (leb A _ _); [|split; assumption]. split; [exact Hu|]. destruct Hc. constructor; assumption. }
  destruct (radau_step fuel s) as [x| |], (radau_step fuel a) as [y| |];
    cbn [same_outcome fine] in Hl, Hok; try contradiction; cbn [bind]; try exact I.
  cbn [run_callback same_outcome fst snd]. split; [split; assumption|].
  assert (i_sol y = i_sol x) as E1 by exact (sim_proj i_sol x y Hl (fun _ => eq_refl)).
  assert (i_stats y = i_stats x) as E2 by exact (sim_proj i_stats x y Hl (fun _ => eq_refl)).
  cbn [Cache Radau5]. now rewrite E1, E2.
Qed.

Lemma sim_steps_n n fuel : 0 < n -> forall k s a, simx n s a ->
  same_outcome (simx n) (steps_n alg None fuel k s) (steps_n alg None fuel k a).
Proof.
  intros Hn. induction k as [|k IH]; intros s a H; [exact H|]. cbn [steps_n].
  pose proof (sim_step n fuel _ _ Hn H) as Hs.
  destruct (step alg None fuel s) as [[x r]| |], (step alg None fuel a) as [[y r']| |];
    try destruct Hs; cbn [bind]; try exact I. apply IH. assumption.
Qed.
Lemma sim_integrate n fuel : 0 < n -> forall k s a, simx n s a ->
  same_outcome (simx n) (integrate alg None fuel k s) (integrate alg None fuel k a).
Proof.
  intros Hn. induction k as [|k IH]; intros s a H; [exact I|]. cbn [integrate].
  pose proof (sim_step n fuel _ _ Hn H) as Hs.
  destruct (step alg None fuel s) as [[x r]| |], (step alg None fuel a) as [[y r']| |];
    cbn [same_outcome] in Hs; try contradiction; cbn [bind]; try exact I.
  cbn [snd fst] in *. destruct Hs as [Hs Hr]. subst r'. destruct r; [apply IH; assumption|assumption].
Qed.
End Sim.

(** Options, as given to the builder, that no Radau5 run reads: [dense],
    [dtstart], [max_stiff], [hess], [beta]. *)
Lemma radau_opts_agree (o o' : opts A) : ropts_agree o o' -> ropts_agree (radau_opts o) (radau_opts o').
Proof.
  intros []. unfold radau_opts. cbn [radau_tols o_fnewt o_reltol set etaOpts].
  rewrite ra_fnewt0, ra_reltol0. destruct (leb A _ _); constructor; cbn; congruence.
Qed.


Definition built_cache (b : builder A P) (df : mat A) : radau_cache A :=
  let n := length (b_u b) in
  {| caljac := false; first := true; last := false; reject := false; decompose := true;
     fac1 := n0; alphn := n0; betan := n0; dtopt := b_dt b; faccon := n1;
     dtfac := b_dt b; dtacc := n0; erracc := n0; thqold := n0;
     cfac := mul A (o_safe (b_opts b)) (of_nat (1 + 2 * o_max_newt_iter (b_opts b)));
     theta := n0; nsing := 0; newt := 0; err := n0;
     u0 := call_rhs (b_dudt b) (zeros n) (b_u b) (b_t b) (b_params b);
     scal := radau_scal (radau_tols (b_opts b)) (b_u b); cont := zeros (4 * n);
     z1 := zeros n; z2 := zeros n; z3 := zeros n; f1 := zeros n; f2 := zeros n; f3 := zeros n;
     ip1 := repeat 0%Z n; ip2 := repeat 0%Z n;
     e1 := zeros2 n n; e2r := zeros2 n n; e2i := zeros2 n n; dfdu := df |}.
Definition built_state (b : builder A P) (df : mat A) (tr : list (event A)) : state :=
  {| i_dudt := b_dudt b; i_dfdt := b_dfdt b; i_dfdu := b_dfdu b; i_params := b_params b;
     i_u := b_u b; i_t := b_t b; i_dt := b_dt b; i_uprev := b_u b; i_tprev := b_t b; i_dtprev := b_dt b;
     i_tdir := copysign A n1 (sub A (b_tfinal b) (b_t b)); i_tfinal := b_tfinal b;
     i_opts := radau_opts (b_opts b); i_stats := stats_new;
     i_sol := mkSol [b_t b] [b_u b] RContinue; i_cache := built_cache b df; i_trace := tr |}.

Lemma radau_build_eq (b : builder A P) :
  build alg b =
  let n := length (b_u b) in
  let* (df, tr) := jacobian_u (b_dudt b) (b_dfdu b) (zeros2 n n) (b_u b) (b_t b) (b_params b) [EvF (b_t b) (b_u b)] in
  Ok (built_state b df tr).
Proof.
  unfold build. cbn [alg_new_cache Radau5]. unfold radau_new_cache. cbv zeta.
  match goal with |- bind (bind ?j _) _ = _ => change j with
    (jacobian_u (b_dudt b) (b_dfdu b) (zeros2 (length (b_u b)) (length (b_u b))) (b_u b) (b_t b)
      (b_params b) [EvF (b_t b) (b_u b)]) end.
  destruct (jacobian_u _ _ _ _ _ _ _) as [[df tr]| |]; cbn [bind]; [|reflexivity..].
  unfold built_state, radau_opts. cbv zeta.
  change (o_fnewt (b_opts (b <| b_opts ::= radau_tols |>))) with (o_fnewt (radau_tols (b_opts b))).
  destruct (leb A _ _); reflexivity.
Qed.

Lemma build_ext (b b' : builder A P) (s s' : state) :
  b_params b' = b_params b -> b_u b' = b_u b -> b_t b' = b_t b -> b_dt b' = b_dt b -> b_tfinal b' = b_tfinal b ->
  b_dfdu b' = b_dfdu b -> same_rhs (b_dudt b) (b_dudt b') -> ropts_agree (b_opts b) (b_opts b') ->
  build alg b = Ok s -> build alg b' = Ok s' ->
  sim (b_dudt b') (b_dfdt b') (radau_opts (b_opts b')) s s'.
Proof.
  intros E1 E2 E3 E4 E5 E6 Hf Ho. pose proof (radau_opts_agree _ _ Ho) as Hro.
  rewrite !radau_build_eq. cbv zeta. rewrite E1, E2, E3, E6, (jacobian_u_ext _ _ _ _ _ _ _ _ Hf).
  destruct (jacobian_u _ _ _ _ _ _ _) as [[df tr]| |]; cbn [bind]; try discriminate.
  intros H H'. injection H as <-. injection H' as <-.
  exists (zeros (4 * length (b_u b))). split; [|split; [exact Hf|split; [exact Hro|split; reflexivity]]].
  unfold other, built_state, built_cache, radau_scal, radau_tols. cbv zeta.
  rewrite E1, E2, E3, E4, E5, E6, Hf, (ra_safe _ _ Ho), (ra_max_newt _ _ Ho).
  cbn [o_abstol o_reltol set etaOpts].
  rewrite (ra_reltol _ _ Ho), (ra_abstol _ _ Ho). reflexivity.
Qed.


(** [same_results] up to the closure itself. *)
Definition same_numbers (s s' : state) : Prop :=
  i_u s' = i_u s /\ i_t s' = i_t s /\ i_dt s' = i_dt s /\ i_uprev s' = i_uprev s /\
  i_tprev s' = i_tprev s /\ i_dtprev s' = i_dtprev s /\ i_sol s' = i_sol s /\
  i_stats s' = i_stats s /\ i_trace s' = i_trace s.

Lemma same_outcome_impl_ok {X} (R R' : X -> X -> Prop) r r' :
  (forall x y, r = Ok x -> r' = Ok y -> R x y -> R' x y) -> same_outcome R r r' -> same_outcome R' r r'.
Proof. destruct r, r'; simpl; auto. Qed.

Lemma radau_dim0_step (b : builder A P) fuel (s : state) :
  b_u b = [] -> build alg b = Ok s -> step alg None fuel s = match fuel with O => OutOfFuel | S _ => Panic end.
Proof. intros Hu Hb. destruct fuel as [|fuel]; [reflexivity|]. exact (radau_dim0 b None fuel s Hu Hb). Qed.

Lemma radau_sim_runs (b b' : builder A P) fuel k (s s' : state) :
  b_params b' = b_params b -> b_u b' = b_u b -> b_t b' = b_t b -> b_dt b' = b_dt b -> b_tfinal b' = b_tfinal b ->
  b_dfdu b' = b_dfdu b -> same_rhs (b_dudt b) (b_dudt b') -> ropts_agree (b_opts b) (b_opts b') ->
  build alg b = Ok s -> build alg b' = Ok s' ->
  let R := sim (b_dudt b') (b_dfdt b') (radau_opts (b_opts b')) in
  same_outcome R (steps_n alg None fuel k s) (steps_n alg None fuel k s') /\
  same_outcome R (integrate alg None fuel k s) (integrate alg None fuel k s').
Proof.
  intros E1 E2 E3 E4 E5 E6 Hf Ho H H' R.
  pose proof (build_ext b b' s s' E1 E2 E3 E4 E5 E6 Hf Ho H H') as Hsim.
  destruct (b_u b) as [|x u] eqn:Eu.
  - assert (b_u b' = []) as Eu' by congruence.
    pose proof (radau_dim0_step b fuel s Eu H) as Hs. pose proof (radau_dim0_step b' fuel s' Eu' H') as Hs'.
    destruct k as [|k]; [split; [exact Hsim|exact I]|]. cbn [steps_n integrate]. rewrite Hs, Hs'.
    destruct fuel; split; exact I.
  - pose proof (radau_build_inv _ _ H) as Hb. assert (0 < length (b_u b)) as Hn by (rewrite Eu; cbn; lia).
    assert (simx (b_dudt b') (b_dfdt b') (radau_opts (b_opts b')) (length (b_u b)) s s') as Hx
      by (split; [exact Hsim|exact (rb_safe _ _ Hb)]).
    split.
    + eapply same_outcome_impl_ok; [|exact (sim_steps_n _ _ _ _ fuel Hn k s s' Hx)]. intros ? ? _ _ [HH _]; exact HH.
    + eapply same_outcome_impl_ok; [|exact (sim_integrate _ _ _ _ fuel Hn k s s' Hx)]. intros ? ? _ _ [HH _]; exact HH.
Qed.

Lemma sim_numbers f jt o s a : sim f jt o s a -> same_numbers s a.
Proof. intros (cn & -> & _). repeat split. Qed.

(** Same closure: the results are the same. *)
Lemma radau_ignored (b b' : builder A P) fuel k (s s' : state) :
  b_dudt b' = b_dudt b -> b_params b' = b_params b -> b_u b' = b_u b -> b_t b' = b_t b -> b_dt b' = b_dt b ->
  b_tfinal b' = b_tfinal b -> b_dfdu b' = b_dfdu b -> ropts_agree (b_opts b) (b_opts b') ->
  build alg b = Ok s -> build alg b' = Ok s' ->
  same_outcome same_results (steps_n alg None fuel k s) (steps_n alg None fuel k s') /\
  same_outcome same_results (integrate alg None fuel k s) (integrate alg None fuel k s').
Proof.
  intros E0 E1 E2 E3 E4 E5 E6 Ho H H'.
  assert (same_rhs (b_dudt b) (b_dudt b')) as Hf by (rewrite E0; intros ? ? ? ?; reflexivity).
  destruct (radau_sim_runs b b' fuel k s s' E1 E2 E3 E4 E5 E6 Hf Ho H H') as [H1 H2].
  assert (forall j x y, steps_n alg None fuel j s = Ok x -> 
     sim (b_dudt b') (b_dfdt b') (radau_opts (b_opts b')) x y -> same_results x y) as Hr.
  { intros j x y Hx Hs. pose proof (radau_frame b fuel j s x H Hx) as (Fd & _).
    destruct Hs as (cn & -> & _). repeat split. cbn. congruence. }
  split; (eapply same_outcome_impl_ok; [|eassumption]).
  - intros x y Hx _. apply (Hr k). exact Hx.
  - intros x y Hx _. destruct (integrate_steps_n alg None fuel k s x Hx) as (j & _ & Hj). apply (Hr (S j)). exact Hj.
Qed.

(** A closure that is handed a zeroed buffer instead of the reused one. *)
Definition zeroed (f : rhs A P) : rhs A P := fun d => f (zeros (length d)).
Lemma zeroed_same (f : rhs A P) : overwrites f -> same_rhs f (zeroed f).
Proof.
  intros Hf d u t p. unfold call_rhs, zeroed, tab. apply map_ext_in. intros i Hi. apply in_seq in Hi.
  apply Hf; [apply zeros_length|]. rewrite zeros_length. lia.
Qed.

(** Different closures that write the same values. *)
Lemma radau_same_closure (b : builder A P) f' fuel k (s s' : state) :
  same_rhs (b_dudt b) f' -> build alg b = Ok s -> build alg (b <| b_dudt := f' |>) = Ok s' ->
  same_outcome same_numbers (steps_n alg None fuel k s) (steps_n alg None fuel k s') /\
  same_outcome same_numbers (integrate alg None fuel k s) (integrate alg None fuel k s').
Proof.
  intros Hf H H'.
  destruct (radau_sim_runs b (b <| b_dudt := f' |>) fuel k s s') as [H1 H2]; try reflexivity; try assumption.
  { constructor; reflexivity. }
  split; (eapply same_outcome_impl_ok; [|eassumption]); intros x y _ _; apply sim_numbers.
Qed.
End RadauSim.
