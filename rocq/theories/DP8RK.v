(** The modelled stage computation of DormandPrince8 is a step of the tableau. *)
From Coq Require Import ZArith List Bool Lia Reals Lra.
From Verif Require Import Arith Vec Core VecFacts DP8 Spec SpecRK SpecODE SpecDP8 RKFacts ArithR DP5R DP5RK.
Import ListNotations.
Local Open Scope R_scope.

Lemma slopes_step F t u h c a rows ks : slopes F t u h ((c, a) :: rows) ks = slopes F t u h rows (ks ++ [F (t + c * h) (combine_stages u h a ks)]).
Proof. reflexivity. Qed.

Section DP8RK.
Context {P : Type} (inf : R).
Notation RI := (RA inf).
Ltac vlen := change (num (RA _)) with R in *; repeat first [rewrite vadd_length | rewrite vscale_length | rewrite vsub_length]; change (num (RA _)) with R in *;
  repeat match goal with H : length _ = ?n |- _ => rewrite H end; lia.
Ltac vcomp n := apply vec_ext; [rewrite ?combine_stages_length; vlen|];
  let i := fresh "i" in let Hi := fresh "Hi" in intros i Hi;
  assert (i < n)%nat by (revert Hi; vlen);
  rewrite <- (comp_at inf (combine_stages _ _ _ _)) by (rewrite combine_stages_length; vlen);
  rewrite combine_stages_comp by vlen; cbn [map wsum];
  repeat first [rewrite vadd_at by vlen | rewrite vscale_at by vlen];
  rewrite ?(comp_at inf) by vlen.


Definition rowsA : tableau :=
  [ (0, []);
    ((@dp8_c2 RI : R), [(@dp8_a21 RI : R)]);
    ((@dp8_c3 RI : R), [(@dp8_a31 RI : R); (@dp8_a32 RI : R)]);
    ((@dp8_c4 RI : R), [(@dp8_a41 RI : R); 0; (@dp8_a43 RI : R)]);
    ((@dp8_c5 RI : R), [(@dp8_a51 RI : R); 0; (@dp8_a53 RI : R); (@dp8_a54 RI : R)]);
    ((@dp8_c6 RI : R), [(@dp8_a61 RI : R); 0; 0; (@dp8_a64 RI : R); (@dp8_a65 RI : R)]);
    ((@dp8_c7 RI : R), [(@dp8_a71 RI : R); 0; 0; (@dp8_a74 RI : R); (@dp8_a75 RI : R); (@dp8_a76 RI : R)]);
    ((@dp8_c8 RI : R), [(@dp8_a81 RI : R); 0; 0; (@dp8_a84 RI : R); (@dp8_a85 RI : R); (@dp8_a86 RI : R); (@dp8_a87 RI : R)]);
    ((@dp8_c9 RI : R), [(@dp8_a91 RI : R); 0; 0; (@dp8_a94 RI : R); (@dp8_a95 RI : R); (@dp8_a96 RI : R); (@dp8_a97 RI : R); (@dp8_a98 RI : R)]);
    ((@dp8_c10 RI : R), [(@dp8_a101 RI : R); 0; 0; (@dp8_a104 RI : R); (@dp8_a105 RI : R); (@dp8_a106 RI : R); (@dp8_a107 RI : R); (@dp8_a108 RI : R); (@dp8_a109 RI : R)]);
    ((@dp8_c11 RI : R), [(@dp8_a111 RI : R); 0; 0; (@dp8_a114 RI : R); (@dp8_a115 RI : R); (@dp8_a116 RI : R); (@dp8_a117 RI : R); (@dp8_a118 RI : R); (@dp8_a119 RI : R); (@dp8_a1110 RI : R)]);
    (1, [(@dp8_a121 RI : R); 0; 0; (@dp8_a124 RI : R); (@dp8_a125 RI : R); (@dp8_a126 RI : R); (@dp8_a127 RI : R); (@dp8_a128 RI : R); (@dp8_a129 RI : R); (@dp8_a1210 RI : R); (@dp8_a1211 RI : R)]) ].
Definition bA : list R := [(@dp8_b1 RI : R); 0; 0; 0; 0; (@dp8_b6 RI : R); (@dp8_b7 RI : R); (@dp8_b8 RI : R); (@dp8_b9 RI : R); (@dp8_b10 RI : R); (@dp8_b11 RI : R); (@dp8_b12 RI : R)].
Lemma frac0 : fracR (0, 1)%Z = 0.
Proof. unfold fracR. cbn. field. Qed.
Lemma frac1 : fracR (1, 1)%Z = 1.
Proof. unfold fracR. cbn. field. Qed.
Lemma lit_frac n d d' : d' = Zpos d -> fracR (n, d') = lit RI n d.
Proof. intros ->. reflexivity. Qed.
Ltac entries := repeat match goal with
  | |- [] = [] => reflexivity
  | |- _ :: _ = _ :: _ => apply (f_equal2 cons)
  | |- (_, _) = (_, _) => apply (f_equal2 pair)
  | |- fracR (0, 1)%Z = 0 => exact frac0
  | |- fracR (1, 1)%Z = 1 => exact frac1
  | |- fracR _ = ?c _ => unfold c; apply lit_frac; vm_compute; reflexivity
  end.
Lemma rowsA_ok : dp8_rows = rowsA.
Proof. unfold dp8_rows, tableR, dp8_table, rowsA. cbn [map fst snd]. entries. Qed.
Lemma bA_ok : dp8_b = bA.
Proof. unfold dp8_b, dp8_weights, bA. cbn [map]. entries. Qed.

Lemma dp8_stages_rk (f : rhs RI P) p (u : list R) (t h : R) (c : dp8_cache RI) :
  overwrites f ->
  (forall v, In v [q_k2 c; q_k3 c; q_k4 c; q_k5 c; q_k6 c; q_k7 c; q_k8 c; q_k9 c; q_k10 c; q_unew c] -> length v = length u) ->
  q_du c = ode f p t u ->
  exists c' tr, dp8_compute_stages f p u t h c = Ok (c', 11%nat, tr) /\
    q_k5 c' = rk_step dp8_rows dp8_b (ode f p) t u h /\
    map (fun e => match e with EvF x y => Some (x, y) | EvJ _ _ => None end) tr =
      map (fun i => Some (t + fst (nth i dp8_rows (0, [])) * h,
             combine_stages u h (snd (nth i dp8_rows (0, []))) (firstn i (slopes (ode f p) t u h dp8_rows [])))) (seq 1 11).
Proof.
  intros Ho HL Hdu. rewrite rowsA_ok, bA_ok.
  destruct c as [x2 x3 x4 x5 x6 x7 x8 x9 x10 yy k1]. cbn [q_k2 q_k3 q_k4 q_k5 q_k6 q_k7 q_k8 q_k9 q_k10 q_unew q_du] in *.
  destruct (ex_intro (fun n => @length R u = n) _ eq_refl) as [n Lu].
  set (F := ode f p) in *.
  assert (length x2 = n) as L2 by (rewrite <- Lu; apply HL; cbn; tauto).
  assert (length x3 = n) as L3 by (rewrite <- Lu; apply HL; cbn; tauto).
  assert (length x4 = n) as L4 by (rewrite <- Lu; apply HL; cbn; tauto).
  assert (length x5 = n) as L5 by (rewrite <- Lu; apply HL; cbn; tauto).
  assert (length x6 = n) as L6 by (rewrite <- Lu; apply HL; cbn; tauto).
  assert (length x7 = n) as L7 by (rewrite <- Lu; apply HL; cbn; tauto).
  assert (length x8 = n) as L8 by (rewrite <- Lu; apply HL; cbn; tauto).
  assert (length x9 = n) as L9 by (rewrite <- Lu; apply HL; cbn; tauto).
  assert (length x10 = n) as L10 by (rewrite <- Lu; apply HL; cbn; tauto).
  assert (length yy = n) as Ly by (rewrite <- Lu; apply HL; cbn; tauto).
  assert (length k1 = n) as L1 by (rewrite Hdu; unfold F; now rewrite ode_length).
  set (y2 := combine_stages u h [(@dp8_a21 RI : R)] [k1]).
  set (K2 := F (t + (@dp8_c2 RI : R) * h) y2).
  assert (length y2 = n) as Ly2 by (unfold y2; rewrite combine_stages_length; exact Lu).
  assert (length K2 = n) as LK2 by (unfold K2, F; now rewrite ode_length).
  set (y3 := combine_stages u h [(@dp8_a31 RI : R); (@dp8_a32 RI : R)] [k1; K2]).
  set (K3 := F (t + (@dp8_c3 RI : R) * h) y3).
  assert (length y3 = n) as Ly3 by (unfold y3; rewrite combine_stages_length; exact Lu).
  assert (length K3 = n) as LK3 by (unfold K3, F; now rewrite ode_length).
  set (y4 := combine_stages u h [(@dp8_a41 RI : R); 0; (@dp8_a43 RI : R)] [k1; K2; K3]).
  set (K4 := F (t + (@dp8_c4 RI : R) * h) y4).
  assert (length y4 = n) as Ly4 by (unfold y4; rewrite combine_stages_length; exact Lu).
  assert (length K4 = n) as LK4 by (unfold K4, F; now rewrite ode_length).
  set (y5 := combine_stages u h [(@dp8_a51 RI : R); 0; (@dp8_a53 RI : R); (@dp8_a54 RI : R)] [k1; K2; K3; K4]).
  set (K5 := F (t + (@dp8_c5 RI : R) * h) y5).
  assert (length y5 = n) as Ly5 by (unfold y5; rewrite combine_stages_length; exact Lu).
  assert (length K5 = n) as LK5 by (unfold K5, F; now rewrite ode_length).
  set (y6 := combine_stages u h [(@dp8_a61 RI : R); 0; 0; (@dp8_a64 RI : R); (@dp8_a65 RI : R)] [k1; K2; K3; K4; K5]).
  set (K6 := F (t + (@dp8_c6 RI : R) * h) y6).
  assert (length y6 = n) as Ly6 by (unfold y6; rewrite combine_stages_length; exact Lu).
  assert (length K6 = n) as LK6 by (unfold K6, F; now rewrite ode_length).
  set (y7 := combine_stages u h [(@dp8_a71 RI : R); 0; 0; (@dp8_a74 RI : R); (@dp8_a75 RI : R); (@dp8_a76 RI : R)] [k1; K2; K3; K4; K5; K6]).
  set (K7 := F (t + (@dp8_c7 RI : R) * h) y7).
  assert (length y7 = n) as Ly7 by (unfold y7; rewrite combine_stages_length; exact Lu).
  assert (length K7 = n) as LK7 by (unfold K7, F; now rewrite ode_length).
  set (y8 := combine_stages u h [(@dp8_a81 RI : R); 0; 0; (@dp8_a84 RI : R); (@dp8_a85 RI : R); (@dp8_a86 RI : R); (@dp8_a87 RI : R)] [k1; K2; K3; K4; K5; K6; K7]).
  set (K8 := F (t + (@dp8_c8 RI : R) * h) y8).
  assert (length y8 = n) as Ly8 by (unfold y8; rewrite combine_stages_length; exact Lu).
  assert (length K8 = n) as LK8 by (unfold K8, F; now rewrite ode_length).
  set (y9 := combine_stages u h [(@dp8_a91 RI : R); 0; 0; (@dp8_a94 RI : R); (@dp8_a95 RI : R); (@dp8_a96 RI : R); (@dp8_a97 RI : R); (@dp8_a98 RI : R)] [k1; K2; K3; K4; K5; K6; K7; K8]).
  set (K9 := F (t + (@dp8_c9 RI : R) * h) y9).
  assert (length y9 = n) as Ly9 by (unfold y9; rewrite combine_stages_length; exact Lu).
  assert (length K9 = n) as LK9 by (unfold K9, F; now rewrite ode_length).
  set (y10 := combine_stages u h [(@dp8_a101 RI : R); 0; 0; (@dp8_a104 RI : R); (@dp8_a105 RI : R); (@dp8_a106 RI : R); (@dp8_a107 RI : R); (@dp8_a108 RI : R); (@dp8_a109 RI : R)] [k1; K2; K3; K4; K5; K6; K7; K8; K9]).
  set (K10 := F (t + (@dp8_c10 RI : R) * h) y10).
  assert (length y10 = n) as Ly10 by (unfold y10; rewrite combine_stages_length; exact Lu).
  assert (length K10 = n) as LK10 by (unfold K10, F; now rewrite ode_length).
  set (y11 := combine_stages u h [(@dp8_a111 RI : R); 0; 0; (@dp8_a114 RI : R); (@dp8_a115 RI : R); (@dp8_a116 RI : R); (@dp8_a117 RI : R); (@dp8_a118 RI : R); (@dp8_a119 RI : R); (@dp8_a1110 RI : R)] [k1; K2; K3; K4; K5; K6; K7; K8; K9; K10]).
  set (K11 := F (t + (@dp8_c11 RI : R) * h) y11).
  assert (length y11 = n) as Ly11 by (unfold y11; rewrite combine_stages_length; exact Lu).
  assert (length K11 = n) as LK11 by (unfold K11, F; now rewrite ode_length).
  set (y12 := combine_stages u h [(@dp8_a121 RI : R); 0; 0; (@dp8_a124 RI : R); (@dp8_a125 RI : R); (@dp8_a126 RI : R); (@dp8_a127 RI : R); (@dp8_a128 RI : R); (@dp8_a129 RI : R); (@dp8_a1210 RI : R); (@dp8_a1211 RI : R)] [k1; K2; K3; K4; K5; K6; K7; K8; K9; K10; K11]).
  set (K12 := F (t + 1 * h) y12).
  assert (length y12 = n) as Ly12 by (unfold y12; rewrite combine_stages_length; exact Lu).
  assert (length K12 = n) as LK12 by (unfold K12, F; now rewrite ode_length).
  set (ynew := combine_stages u h bA [k1; K2; K3; K4; K5; K6; K7; K8; K9; K10; K11; K12]).
  assert (slopes F t u h rowsA [] = [k1; K2; K3; K4; K5; K6; K7; K8; K9; K10; K11; K12]) as Esl.
  { unfold rowsA. rewrite slopes_step. cbn [app].
    assert (F (t + 0 * h) (combine_stages u h [] []) = k1) as ->.
    { rewrite Hdu. f_equal; [ring|]. apply nth_ext with (d := 0) (d' := 0); [now rewrite combine_stages_length|].
      intros i Hi. rewrite combine_stages_length in Hi. change (nth i ?x 0) with (comp x i). rewrite combine_stages_comp by assumption. cbn [map wsum]. ring. }
    rewrite slopes_step. cbn [app]. fold y2. fold K2.
    rewrite slopes_step. cbn [app]. fold y3. fold K3.
    rewrite slopes_step. cbn [app]. fold y4. fold K4.
    rewrite slopes_step. cbn [app]. fold y5. fold K5.
    rewrite slopes_step. cbn [app]. fold y6. fold K6.
    rewrite slopes_step. cbn [app]. fold y7. fold K7.
    rewrite slopes_step. cbn [app]. fold y8. fold K8.
    rewrite slopes_step. cbn [app]. fold y9. fold K9.
    rewrite slopes_step. cbn [app]. fold y10. fold K10.
    rewrite slopes_step. cbn [app]. fold y11. fold K11.
    rewrite slopes_step. cbn [app]. fold y12. fold K12.
    reflexivity. }
  assert (forall x (w : vec RI) (b : vec RI), length b = n -> length w = n ->
            call_rhs f b w x p = F x w) as Ecall.
  { intros x w b Hb Hw. apply call_ode; [assumption|congruence]. }
  assert (@vadd RI u (@vscale RI (h * @dp8_a21 RI) k1) = y2) as E2.
  { unfold y2. vcomp n. cbn [RA add mul num]. ring. }
  assert (call_rhs f x2 y2 (t + (@dp8_c2 RI : R) * h) p = K2) as F2 by (apply Ecall; assumption).
  assert (@vadd RI u (@vscale RI h (@vadd RI (@vscale RI (@dp8_a31 RI) k1) (@vscale RI (@dp8_a32 RI) K2))) = y3) as E3.
  { unfold y3. vcomp n. cbn [RA add mul num]. ring. }
  assert (call_rhs f x3 y3 (t + (@dp8_c3 RI : R) * h) p = K3) as F3 by (apply Ecall; assumption).
  assert (@vadd RI u (@vscale RI h (@vadd RI (@vscale RI (@dp8_a41 RI) k1) (@vscale RI (@dp8_a43 RI) K3))) = y4) as E4.
  { unfold y4. vcomp n. cbn [RA add mul num]. ring. }
  assert (call_rhs f x4 y4 (t + (@dp8_c4 RI : R) * h) p = K4) as F4 by (apply Ecall; assumption).
  assert (@vadd RI u (@vscale RI h (@vadd RI (@vadd RI (@vscale RI (@dp8_a51 RI) k1) (@vscale RI (@dp8_a53 RI) K3)) (@vscale RI (@dp8_a54 RI) K4))) = y5) as E5.
  { unfold y5. vcomp n. cbn [RA add mul num]. ring. }
  assert (call_rhs f x5 y5 (t + (@dp8_c5 RI : R) * h) p = K5) as F5 by (apply Ecall; assumption).
  assert (@vadd RI u (@vscale RI h (@vadd RI (@vadd RI (@vscale RI (@dp8_a61 RI) k1) (@vscale RI (@dp8_a64 RI) K4)) (@vscale RI (@dp8_a65 RI) K5))) = y6) as E6.
  { unfold y6. vcomp n. cbn [RA add mul num]. ring. }
  assert (call_rhs f x6 y6 (t + (@dp8_c6 RI : R) * h) p = K6) as F6 by (apply Ecall; assumption).
  assert (@vadd RI u (@vscale RI h (@vadd RI (@vadd RI (@vadd RI (@vscale RI (@dp8_a71 RI) k1) (@vscale RI (@dp8_a74 RI) K4)) (@vscale RI (@dp8_a75 RI) K5)) (@vscale RI (@dp8_a76 RI) K6))) = y7) as E7.
  { unfold y7. vcomp n. cbn [RA add mul num]. ring. }
  assert (call_rhs f x7 y7 (t + (@dp8_c7 RI : R) * h) p = K7) as F7 by (apply Ecall; assumption).
  assert (@vadd RI u (@vscale RI h (@vadd RI (@vadd RI (@vadd RI (@vadd RI (@vscale RI (@dp8_a81 RI) k1) (@vscale RI (@dp8_a84 RI) K4)) (@vscale RI (@dp8_a85 RI) K5)) (@vscale RI (@dp8_a86 RI) K6)) (@vscale RI (@dp8_a87 RI) K7))) = y8) as E8.
  { unfold y8. vcomp n. cbn [RA add mul num]. ring. }
  assert (call_rhs f x8 y8 (t + (@dp8_c8 RI : R) * h) p = K8) as F8 by (apply Ecall; assumption).
  assert (@vadd RI u (@vscale RI h (@vadd RI (@vadd RI (@vadd RI (@vadd RI (@vadd RI (@vscale RI (@dp8_a91 RI) k1) (@vscale RI (@dp8_a94 RI) K4)) (@vscale RI (@dp8_a95 RI) K5)) (@vscale RI (@dp8_a96 RI) K6)) (@vscale RI (@dp8_a97 RI) K7)) (@vscale RI (@dp8_a98 RI) K8))) = y9) as E9.
  { unfold y9. vcomp n. cbn [RA add mul num]. ring. }
  assert (call_rhs f x9 y9 (t + (@dp8_c9 RI : R) * h) p = K9) as F9 by (apply Ecall; assumption).
  assert (@vadd RI u (@vscale RI h (@vadd RI (@vadd RI (@vadd RI (@vadd RI (@vadd RI (@vadd RI (@vscale RI (@dp8_a101 RI) k1) (@vscale RI (@dp8_a104 RI) K4)) (@vscale RI (@dp8_a105 RI) K5)) (@vscale RI (@dp8_a106 RI) K6)) (@vscale RI (@dp8_a107 RI) K7)) (@vscale RI (@dp8_a108 RI) K8)) (@vscale RI (@dp8_a109 RI) K9))) = y10) as E10.
  { unfold y10. vcomp n. cbn [RA add mul num]. ring. }
  assert (call_rhs f x10 y10 (t + (@dp8_c10 RI : R) * h) p = K10) as F10 by (apply Ecall; assumption).
  assert (@vadd RI u (@vscale RI h (@vadd RI (@vadd RI (@vadd RI (@vadd RI (@vadd RI (@vadd RI (@vadd RI (@vscale RI (@dp8_a111 RI) k1) (@vscale RI (@dp8_a114 RI) K4)) (@vscale RI (@dp8_a115 RI) K5)) (@vscale RI (@dp8_a116 RI) K6)) (@vscale RI (@dp8_a117 RI) K7)) (@vscale RI (@dp8_a118 RI) K8)) (@vscale RI (@dp8_a119 RI) K9)) (@vscale RI (@dp8_a1110 RI) K10))) = y11) as E11.
  { unfold y11. vcomp n. cbn [RA add mul num]. ring. }
  assert (call_rhs f K2 y11 (t + (@dp8_c11 RI : R) * h) p = K11) as F11 by (apply Ecall; assumption).
  assert (@vadd RI u (@vscale RI h (@vadd RI (@vadd RI (@vadd RI (@vadd RI (@vadd RI (@vadd RI (@vadd RI (@vadd RI (@vscale RI (@dp8_a121 RI) k1) (@vscale RI (@dp8_a124 RI) K4)) (@vscale RI (@dp8_a125 RI) K5)) (@vscale RI (@dp8_a126 RI) K6)) (@vscale RI (@dp8_a127 RI) K7)) (@vscale RI (@dp8_a128 RI) K8)) (@vscale RI (@dp8_a129 RI) K9)) (@vscale RI (@dp8_a1210 RI) K10)) (@vscale RI (@dp8_a1211 RI) K11))) = y12) as E12.
  { unfold y12. vcomp n. cbn [RA add mul num]. ring. }
  assert (call_rhs f K3 y12 (t + 1 * h) p = K12) as F12 by (apply Ecall; assumption).
  assert (t + h = t + 1 * h) as T by ring.
  assert (@vadd RI u (@vscale RI h (@vadd RI (@vadd RI (@vadd RI (@vadd RI (@vadd RI (@vadd RI (@vadd RI (@vscale RI (@dp8_b1 RI) k1) (@vscale RI (@dp8_b6 RI) K6)) (@vscale RI (@dp8_b7 RI) K7)) (@vscale RI (@dp8_b8 RI) K8)) (@vscale RI (@dp8_b9 RI) K9)) (@vscale RI (@dp8_b10 RI) K10)) (@vscale RI (@dp8_b11 RI) K11)) (@vscale RI (@dp8_b12 RI) K12))) = ynew) as Eb.
  { unfold ynew, bA. vcomp n. cbn [RA add mul num]. ring. }
  unfold dp8_compute_stages. cbn [q_k2 q_k3 q_k4 q_k5 q_k6 q_k7 q_k8 q_k9 q_k10 q_unew q_du forallb].
  cbn [num RA] in *. rewrite L1, L2, L3, L4, L5, L6, L7, L8, L9, L10, Ly, Lu, Nat.eqb_refl. cbn [andb guard].
  cbn [add mul RA].
  rewrite E2, F2.
  rewrite E3, F3.
  rewrite E4, F4.
  rewrite E5, F5.
  rewrite E6, F6.
  rewrite E7, F7.
  rewrite E8, F8.
  rewrite E9, F9.
  rewrite E10, F10.
  rewrite E11, F11.
  rewrite T.
  rewrite E12, F12.
  rewrite Eb.
  eexists _, _. split; [reflexivity|]. cbn [q_k5]. split.
  - unfold rk_step. rewrite Esl. reflexivity.
  - rewrite Esl. unfold rowsA. cbn [map seq nth fst snd firstn]. reflexivity.
Qed.
End DP8RK.
