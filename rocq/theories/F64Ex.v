(** Concrete binary64 runs for PropF64.v. *)
From Coq Require Import ZArith List Bool Lia Reals Lra Sorted.
From RecordUpdate Require Import RecordSet.
From Flocq Require Import Core BinarySingleNaN.
From Verif Require Import Arith Vec Core Driver VecFacts Spec DP5 DP5Facts DP5Inv ArithF Examples SpecF64 Radau RadauEx FOrder.
Import ListNotations RecordSetNotations.

Lemma retcode_eq r1 r2 : retcode_eqb r1 r2 = true -> r1 = r2.
Proof. destruct r1, r2; try discriminate; reflexivity. Qed.

(** [k] [step()] calls that all return [Some _]. *)
Fixpoint go {A : arith} {P} (al : algorithm A P) (fuel k : nat) (s : integ A P (Cache al)) : res (integ A P (Cache al)) :=
  match k with
  | O => Ok s
  | S k => let* (s1, r) := step al None fuel s in match r with Some _ => go al fuel k s1 | None => Panic end
  end.
Lemma go_continues {A : arith} {P} (al : algorithm A P) fuel k : forall s s', go al fuel k s = Ok s' ->
  continues al None fuel k s s'.
Proof.
  induction k as [|k IH]; intros s s' H; cbn [go] in H.
  - injection H as <-. constructor.
  - apply bind_ok in H as ([s1 [n|]] & H1 & H); [|discriminate]. econstructor; [exact H1|auto].
Qed.
Definition arrives {A : arith} {P} (al : algorithm A P) (b : builder A P) (fuel k : nat)
    (Q : integ A P (Cache al) -> bool) : bool :=
  match build al b with
  | Ok s0 => match go al fuel k s0 with
             | Ok s1 => match step al None fuel s1 with Ok (s, _) => Q s | _ => false end
             | _ => false end
  | _ => false end.
Lemma arrives_ex {A : arith} {P} (al : algorithm A P) (b : builder A P) fuel k Q : arrives al b fuel k Q = true ->
  exists s0 s, build al b = Ok s0 /\ reached al None fuel (S k) s0 s /\ Q s = true.
Proof.
  unfold arrives. destruct (build al b) as [s0| |]; try discriminate.
  destruct (go al fuel k s0) as [s1| |] eqn:E; try discriminate.
  destruct (step al None fuel s1) as [[s r]| |] eqn:Es; try discriminate. intros H. exists s0, s.
  split; [reflexivity|]. split; [|assumption]. econstructor; [apply go_continues; eassumption|eassumption].
Qed.

(** ** A power function that knows [0^y = 0] *)
Definition zpow (a _ : f64) : f64 := match a with B754_zero _ => fzero | _ => f_lit 1 1 end.
Definition XZ : arith := F64 zpow (fun _ _ => f_lit 1 1).
Definition oscZ : rhs XZ unit := fun _ u _ _ i => match i with O => at_ u 1 | _ => opp XZ (at_ u 0) end.
Definition z_dp5 (t0 tf : f64) : builder XZ unit :=
  builder_default (@DormandPrince5 XZ unit) oscZ [lit XZ 1 1; lit XZ 0 1] (t0 : num XZ, tf : num XZ) tt.

Lemma zpow_sane t0 tf : f64_sane (b_opts (z_dp5 t0 tf)) /\ pow_at_zero (b_opts (z_dp5 t0 tf)).
Proof.
  split.
  - do 7 (split; [vm_compute; reflexivity|]). intros err He q. right. unfold q, zpow.
    destruct err as [s|s| |s m e Hm]; try (vm_compute; reflexivity). exfalso. destruct s; vm_compute in He; discriminate.
  - split; [vm_compute; reflexivity|]. intros err He q. right. unfold q, zpow.
    destruct err as [s|s| |s m e Hm]; vm_compute; reflexivity.
Qed.

Definition fin_lit n d : bool := is_finite (f_lit n d).
Lemma z_forward t0 tf : is_finite t0 = true -> is_finite tf = true -> fltb t0 tf = true ->
  is_finite (fsub tf t0) = true -> f64_forward (z_dp5 t0 tf).
Proof.
  intros H1 H2 H3 H4. split; [apply zpow_sane|]. do 4 (split; [assumption|]). vm_compute. reflexivity.
Qed.

(** Four steps on [0, 3e-6]. *)
Lemma z_run_ex : f64_forward (z_dp5 (f_lit 0 1) (f_lit 3 1000000)) /\
  exists s0 s : integ XZ unit (dp5_cache XZ),
  build DormandPrince5 (z_dp5 (f_lit 0 1) (f_lit 3 1000000)) = Ok s0 /\
  reached DormandPrince5 None 5 4 s0 s /\ rc (i_sol s) = RContinue /\ length (ts (i_sol s)) = 5.
Proof.
  split; [apply z_forward; vm_compute; reflexivity|].
  destruct (arrives_ex (@DormandPrince5 XZ unit) (z_dp5 (f_lit 0 1) (f_lit 3 1000000)) 5 3
    (fun s => retcode_eqb (rc (i_sol s)) RContinue && Nat.eqb (length (ts (i_sol s))) 5)) as (s0 & s & H1 & H2 & H3).
  { vm_compute. reflexivity. }
  apply andb_true_iff in H3 as [H3 H4]. apply Nat.eqb_eq in H4. exists s0, s.
  split; [exact H1|]. split; [exact H2|]. split; [|exact H4]. exact (retcode_eq _ _ H3).
Qed.

(** One step to the end of [1e-6, 2e-6]. *)
Lemma z_success_ex : f64_forward (z_dp5 (f_lit 1 1000000) (f_lit 2 1000000)) /\
  exists s0 s : integ XZ unit (dp5_cache XZ),
  build DormandPrince5 (z_dp5 (f_lit 1 1000000) (f_lit 2 1000000)) = Ok s0 /\
  reached DormandPrince5 None 5 1 s0 s /\ rc (i_sol s) = RSuccess.
Proof.
  split; [apply z_forward; vm_compute; reflexivity|].
  destruct (arrives_ex (@DormandPrince5 XZ unit) (z_dp5 (f_lit 1 1000000) (f_lit 2 1000000)) 5 0
    (fun s => retcode_eqb (rc (i_sol s)) RSuccess)) as (s0 & s & H1 & H2 & H3).
  { vm_compute. reflexivity. }
  exists s0, s. split; [exact H1|]. split; [exact H2|]. exact (retcode_eq _ _ H3).
Qed.

(** From -0.999e-6 to -1e-30: Success is reported at time 0. *)
Lemma z_overshoot_ex : 
  let b := z_dp5 (f_lit (-999) 1000000000) (fdiv (f_lit (-1) 1000000000000000) (f_lit 1000000000000000 1)) in
  f64_forward b /\ exists s0 s : integ XZ unit (dp5_cache XZ),
  build DormandPrince5 b = Ok s0 /\ reached DormandPrince5 None 5 1 s0 s /\ rc (i_sol s) = RSuccess /\
  fltb (b_tfinal b) (i_t s) = true.
Proof.
  intros b. split; [apply z_forward; vm_compute; reflexivity|].
  destruct (arrives_ex (@DormandPrince5 XZ unit) b 5 0
    (fun s => retcode_eqb (rc (i_sol s)) RSuccess && fltb (b_tfinal b) (i_t s))) as (s0 & s & H1 & H2 & H3).
  { vm_compute. reflexivity. }
  apply andb_true_iff in H3 as [H3 H4].
  exists s0, s. split; [exact H1|]. split; [exact H2|]. split; [|exact H4]. exact (retcode_eq _ _ H3).
Qed.

Lemma three_same (l : list f64) (t : f64) :
  match l with [t1; t2; t3] => f_same t1 t && f_same t2 t && f_same t3 t | _ => false end = true -> l = [t; t; t].
Proof.
  destruct l as [|t1 [|t2 [|t3 [|? ?]]]]; try discriminate. intros H4.
  apply andb_true_iff in H4 as [H4 H5]. apply andb_true_iff in H4 as [H4 H6].
  apply f_same_eq in H4, H5, H6. now subst.
Qed.

(** From 1e12 to 1e12+1: the first two steps do not move the time. *)
Lemma z_stall_ex :
  let b := z_dp5 (f_lit 1000000000000 1) (f_lit 1000000000001 1) in
  f64_forward b /\ exists s0 s : integ XZ unit (dp5_cache XZ),
  build DormandPrince5 b = Ok s0 /\ reached DormandPrince5 None 5 2 s0 s /\ rc (i_sol s) = RContinue /\
  ts (i_sol s) = [b_t b; b_t b; b_t b].
Proof.
  intros b. split; [apply z_forward; vm_compute; reflexivity|].
  destruct (arrives_ex (@DormandPrince5 XZ unit) b 5 1
    (fun s => retcode_eqb (rc (i_sol s)) RContinue &&
       match ts (i_sol s) with [t1; t2; t3] => f_same t1 (b_t b) && f_same t2 (b_t b) && f_same t3 (b_t b) | _ => false end))
    as (s0 & s & H1 & H2 & H3).
  { vm_compute. reflexivity. }
  apply andb_true_iff in H3 as [H3 H4].
  exists s0, s. split; [exact H1|]. split; [exact H2|]. split; [exact (retcode_eq _ _ H3)|].
  exact (three_same _ _ H4).
Qed.

(** A first step, and the hypotheses of the step-growth theorem. *)
Lemma z_first_ex :
  let b := z_dp5 (f_lit 0 1) (f_lit 1 1) in
  f64_forward b /\ pow_at_zero (b_opts b) /\ fleb (o_facl (b_opts b)) (o_facr (b_opts b)) = true /\
  exists (s0 s : integ XZ unit (dp5_cache XZ)) r,
  build DormandPrince5 b = Ok s0 /\ step DormandPrince5 None 5 s0 = Ok (s, r) /\
  fleb (fdiv (i_dtprev s) (fdiv (f_lit 1 1) (o_facl (b_opts b)))) (o_dtmax (b_opts b)) = true.
Proof.
  intros b. split; [apply z_forward; vm_compute; reflexivity|]. split; [apply zpow_sane|].
  split; [vm_compute; reflexivity|].
  assert ((match build (@DormandPrince5 XZ unit) b with
          | Ok s0 => match step (@DormandPrince5 XZ unit) None 5 s0 with
                     | Ok (s, _) => fleb (fdiv (i_dtprev s) (fdiv (f_lit 1 1) (o_facl (b_opts b)))) (o_dtmax (b_opts b))
                     | _ => false end | _ => false end) = true) as H by (vm_compute; reflexivity).
  destruct (build (@DormandPrince5 XZ unit) b) as [s0| |]; try discriminate.
  destruct (step (@DormandPrince5 XZ unit) None 5 s0) as [[s r]| |] eqn:E; try discriminate.
  exists s0, s, r. auto.
Qed.

(** ** Radau5 *)
Definition x_radspan (t0 tf : f64) : builder XG unit := x_rad <| b_t := (t0 : num XG) |> <| b_tfinal := (tf : num XG) |>.

(** A step to the end of [1, 1 + 1/1024]. *)
Lemma radau_f64_success_ex :
  let b := x_radspan (f_lit 1 1) (f_lit 1025 1024) <| b_dt := y 1 512 |> in
  exists s0 s : integ XG unit (radau_cache XG),
  build Radau5 b = Ok s0 /\ reached Radau5 None 60 1 s0 s /\ rc (i_sol s) = RSuccess /\
  is_finite (i_tprev s : f64) = true /\ is_finite (b_tfinal b : f64) = true /\
  within_two (B2R (i_tprev s : f64)) (B2R (b_tfinal b : f64)).
Proof.
  intros b.
  destruct (arrives_ex radx b 60 0 (fun s => retcode_eqb (rc (i_sol s)) RSuccess &&
    f_same (i_tprev s) (f_lit 1 1))) as (s0 & s & H1 & H2 & H3).
  { vm_compute. reflexivity. }
  apply andb_true_iff in H3 as [H3 H4]. apply f_same_eq in H4. exists s0, s. split; [exact H1|]. split; [exact H2|].
  split; [exact (retcode_eq _ _ H3)|]. change (i_tprev (s : integ XG unit (radau_cache XG)) = f_lit 1 1) in H4.
  rewrite H4. clear H1 H2 H3 H4 s s0. change (b_tfinal b) with (f_lit 1025 1024). clear b.
  split; [vm_compute; reflexivity|]. split; [vm_compute; reflexivity|].
  edestruct (lit_R 1025 1024) as (_ & E1); [vm_compute; reflexivity|].
  edestruct (lit_R 1 1) as (_ & E2); [vm_compute; reflexivity|].
  rewrite E1, E2. left. unfold F2R. cbn. lra.
Qed.

(** From -0.999e-6 to -1e-30: Success is reported at time 0. *)
Lemma radau_overshoot_ex : 
  let b := x_radspan (f_lit (-999) 1000000000) (fdiv (f_lit (-1) 1000000000000000) (f_lit 1000000000000000 1)) in
  exists s0 s : integ XG unit (radau_cache XG),
  build Radau5 b = Ok s0 /\ reached Radau5 None 60 1 s0 s /\ rc (i_sol s) = RSuccess /\
  fltb (b_tfinal b) (i_t s) = true.
Proof.
  intros b.
  destruct (arrives_ex radx b 60 0
    (fun s => retcode_eqb (rc (i_sol s)) RSuccess && fltb (b_tfinal b) (i_t s))) as (s0 & s & H1 & H2 & H3).
  { vm_compute. reflexivity. }
  apply andb_true_iff in H3 as [H3 H4].
  exists s0, s. split; [exact H1|]. split; [exact H2|]. split; [|exact H4]. exact (retcode_eq _ _ H3).
Qed.
