(** What iterating over a DormandPrince5 integrator yields. *)
From Coq Require Import ZArith List Bool Lia.
From Verif Require Import Arith Vec Core Driver VecFacts DP5 DP5Facts Spec DP5Inv.
Import ListNotations.

Lemma combine_app {X Y} (l1 l2 : list X) (r1 r2 : list Y) :
  length l1 = length r1 -> combine (l1 ++ l2) (r1 ++ r2) = combine l1 r1 ++ combine l2 r2.
Proof.
  revert r1. induction l1 as [|x l1 IH]; intros [|y r1] H; try discriminate; [reflexivity|].
  cbn. f_equal. apply IH. now injection H.
Qed.
Lemma combine_fst_snd {X Y} (l : list (X * Y)) : combine (map fst l) (map snd l) = l.
Proof. induction l as [|[x y] l IH]; [reflexivity|]. cbn. now rewrite IH. Qed.

Section DP5Iter.
Context {A : arith} {P : Type}.
Notation state := (integ A P (dp5_cache A)).
Notation alg := (@DormandPrince5 A P).

Lemma dp5_step_records fuel (s s' : state) r :
  step alg None fuel s = Ok (s', r) ->
  ts (i_sol s') = ts (i_sol s) ++ [i_t s'] /\ us (i_sol s') = us (i_sol s) ++ [i_u s'].
Proof.
  intros H. apply step_dp5_inv in H as (s1 & E & H). cbn [run_callback] in H. subst s1.
  split; [apply (se_ts _ _ E)|apply (se_us _ _ E)].
Qed.

Lemma dp5_iter_items (b : builder A P) fuel fuel2 (s0 s : state) items :
  build alg b = Ok s0 ->
  iter_collect alg None fuel fuel2 s0 = Ok (s, items) ->
  points s = (b_t b, b_u b) :: items ++ [(i_t s, i_u s)].
Proof.
  intros Hb H.
  apply (iter_collect_points alg None fuel (fun _ => True)) in H as (s1 & Hl & _ & Et & Eu); auto.
  2:{ intros a a' n _ Ha. exact (dp5_step_records _ _ _ _ Ha). }
  apply dp5_step_records in Hl as [Lt Lu].
  apply dp5_build_inv in Hb as (_&_&_&_&_&_&_&_&_&_&_&_&_&_&Esol&_).
  unfold points. cbn [Cache DormandPrince5] in *. rewrite Lt, Lu, Et, Eu, Esol. cbn [ts us].
  rewrite combine_app by (rewrite !app_length, !map_length; reflexivity).
  rewrite combine_app by reflexivity. rewrite combine_fst_snd. reflexivity.
Qed.
End DP5Iter.
