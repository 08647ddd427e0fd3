(** The structured solvers of src/linalg that do not solve their systems. *)
From Coq Require Import ZArith List Bool Lia Reals Lra.
From Verif Require Import Arith Vec Core Linalg VecFacts LinFacts LinFactsC ArithR SpecRK RKFacts SpecLin.
Import ListNotations.
Local Open Scope R_scope.

Section LinBad.
Context (inf : R).
Notation RI := (RA inf).

Ltac rabs :=
  repeat match goal with
  | |- context [Rabs ?x] =>
     first [rewrite (Rabs_pos_eq x) by lra | rewrite (Rabs_left x) by lra]
  end.
Ltac rcase :=
  rabs;
  match goal with
  | |- context [Rlt_dec ?a ?b] =>
      lazymatch constr:((a, b)) with context [if _ then _ else _] => fail | _ => idtac end;
      destruct (Rlt_dec a b); first [exfalso; lra|idtac]
  | |- context [Req_EM_T ?a ?b] =>
      lazymatch constr:((a, b)) with context [if _ then _ else _] => fail | _ => idtac end;
      destruct (Req_EM_T a b); first [exfalso; lra|idtac]
  end.
Ltac rden :=
  repeat match goal with
  | |- context [?x / (?a + ?b)] => first [replace (a + b) with 1 by lra | replace (a + b) with 2 by lra]
  | |- context [?x / (?a - ?b)] => first [replace (a - b) with 1 by lra | replace (a - b) with 2 by lra]
  end.
Ltac rcomp := repeat (cbn; unfold cmag, cprod; cbn; unfold Rltb, Reqb, rdiv, rlit; cbn; rden; rcase); cbn; rden.

(** *** [solhc] skips the superdiagonal (sol.rs:155) *)
Definition s_ar : list (list R) := [[1; 1]; [0; 1]].
Definition s_ai : list (list R) := [[0; 0]; [0; 0]].
Lemma solhc_run :
  match @dechc RI 2 s_ar s_ai 1 [0%Z; 0%Z] with
  | Ok (code, ar', ai', ip') => code = O /\
      match @solhc RI 2 ar' ai' 1 [1; 1] [0; 0] ip' with
      | Ok (x, y) => nth 0 x 0 = 1 /\ nth 0 y 0 = 0
      | _ => False
      end
  | _ => False
  end.
Proof. unfold s_ar, s_ai. rcomp. split; [reflexivity|]. split; lra. Qed.
Lemma s_solution xr xi : csolution 2 s_ar s_ai xr xi [1; 1] [0; 0] -> comp xr 0 = 0.
Proof.
  intros (_ & _ & H). destruct (H O ltac:(lia)) as (H1 & _). destruct (H 1%nat ltac:(lia)) as (H2 & _).
  unfold rsum, comp in *. cbn in *. lra.
Qed.

(** *** [dechc] with [lb = 0] looks at the last diagonal entry only *)
Definition z_ar : list (list R) := [[0; 0]; [0; 1]].
Lemma dechc_diag_run :
  match @dechc RI 2 z_ar s_ai 0 [0%Z; 0%Z] with
  | Ok (code, ar', ai', ip') => code = O
  | _ => False
  end.
Proof. unfold s_ai, z_ar. rcomp. reflexivity. Qed.
Lemma z_singular : csingular_matrix 2 z_ar s_ai.
Proof.
  exists [1; 0], [0; 0]. split; [exists O; split; [lia|left; cbn; lra]|].
  split; [reflexivity|]. split; [reflexivity|]. intros i Hi.
  destruct i as [|[|i]]; [| |lia]; cbn; split; lra.
Qed.

(** *** [decb] eliminates nothing when [lb = 1] *)
Definition b_ab : list (list R) := [[0; 0]; [0; 1]; [1; 2]; [1; 0]].
Lemma band_run :
  match @decb RI 2 b_ab 1 1 [0%Z; 0%Z] with
  | Ok (code, a', ip') => code = O /\
      match @solb RI 2 a' 1 1 [2; 3] ip' with
      | Ok x => nth 1 x 0 = 1 / 2
      | _ => False
      end
  | _ => False
  end.
Proof. unfold b_ab. rcomp. split; [reflexivity|]. lra. Qed.
Lemma b_solution x : band_solution 2 1 1 b_ab x [2; 3] -> comp x 1 = 1.
Proof.
  intros (_ & H). pose proof (H O ltac:(lia)) as H1. pose proof (H 1%nat ltac:(lia)) as H2.
  unfold rsum, comp in *. cbn in *. lra.
Qed.
Lemma b_has : band_solution 2 1 1 b_ab [1; 1] [2; 3].
Proof.
  split; [reflexivity|]. intros i Hi. destruct i as [|[|i]]; [| |lia]; cbn; lra.
Qed.
Definition bs_ab : list (list R) := [[0; 0]; [0; 1]; [1; 1]; [1; 0]].
Lemma band_sing_run :
  match @decb RI 2 bs_ab 1 1 [0%Z; 0%Z] with Ok (code, a', ip') => code = O | _ => False end.
Proof. unfold bs_ab. rcomp. reflexivity. Qed.
Lemma bs_singular : band_singular 2 1 1 bs_ab.
Proof.
  exists [1; -1]. split; [exists O; split; [lia|cbn; lra]|].
  split; [reflexivity|]. intros i Hi. destruct i as [|[|i]]; [| |lia]; cbn; lra.
Qed.

(** *** [elmhes] changes the trace *)
Definition e_a : list (list R) := [[0; 0; 0]; [1; 0; 1]; [1; 0; 0]].
Lemma elmhes_run :
  match @elmhes RI 3 0 3 e_a [0%Z; 0%Z; 0%Z] with
  | Ok (h, _) => entry h 0 0 = 0 /\ entry h 1 1 = 0 /\ entry h 2 2 = - 1
  | _ => False
  end.
Proof. unfold e_a. rcomp. unfold entry. cbn. repeat split; lra. Qed.

Lemma similar_trace3 a h : similar 3 a h -> a 0%nat 0%nat + a 1%nat 1%nat + a 2%nat 2%nat = h 0%nat 0%nat + h 1%nat 1%nat + h 2%nat 2%nat.
Proof.
  intros (p & q & Hpq & _ & Hh). rewrite !Hh by lia.
  transitivity (a 0%nat 0%nat * matmul 3 p q 0 0 + a 0%nat 1%nat * matmul 3 p q 1 0 + a 0%nat 2%nat * matmul 3 p q 2 0 + a 1%nat 0%nat * matmul 3 p q 0 1 + a 1%nat 1%nat * matmul 3 p q 1 1 + a 1%nat 2%nat * matmul 3 p q 2 1 + a 2%nat 0%nat * matmul 3 p q 0 2 + a 2%nat 1%nat * matmul 3 p q 1 2 + a 2%nat 2%nat * matmul 3 p q 2 2).
  - rewrite !Hpq by lia. cbn. ring.
  - unfold matmul, rsum. cbn. ring.
Qed.


(** *** [solb] underflows (sol.rs:199) as soon as [n > lb + ub + 1] *)
Lemma solb_panics {A : arith} n (a : mat A) lb ub (b : vec A) ip x :
  (lb + ub + 1 < n)%nat -> solb n a lb ub b ip <> Ok x.
Proof.
  intros Hn H. unfold solb in H. cbv zeta in H.
  destruct (usub (lb + ub) 1) as [mdm| |]; [|discriminate..]. cbn [bind] in H.
  rewrite (usub_ok n 1) in H by lia. cbn [bind] in H.
  rewrite (proj2 (Nat.eqb_neq n 1)) in H by lia. cbn [negb] in H.
  match type of H with bind (bind ?e _) _ = _ => destruct e as [b1| |]; [|discriminate..] end. cbn [bind] in H.
  match type of H with bind (for_range 0 (n - 1) ?g b1) _ = _ =>
    assert (forall y, for_range 0 (n - 1) g b1 <> Ok y) as Hno end.
  { intros y Hy. unfold for_range in Hy. replace (n - 1 - 0)%nat with (S (n - 2)) in Hy by lia. cbn [seq for_list] in Hy.
    rewrite (usub_ok n 0) in Hy by lia. cbn [bind] in Hy. rewrite (usub_ok (n - 0) 1) in Hy by lia. cbn [bind] in Hy.
    destruct (vget b1 (n - 0 - 1)) as [v| |]; [|discriminate..]. cbn [bind] in Hy.
    destruct (mget a (lb + ub) (n - 0 - 1)) as [d| |]; [|discriminate..]. cbn [bind] in Hy.
    destruct (vset b1 (n - 0 - 1) _) as [b2| |]; [|discriminate..]. cbn [bind] in Hy.
    destruct (vget b2 (n - 0 - 1)) as [v2| |]; [|discriminate..]. cbn [bind] in Hy.
    unfold usub at 1 in Hy. rewrite (proj2 (Nat.leb_gt (n - 0 - 1) (lb + ub))) in Hy by lia. discriminate. }
  match type of H with bind ?e _ = _ => destruct e as [y| |] eqn:E; [|discriminate..] end.
  now apply (Hno y).
Qed.
End LinBad.
