(** An injective linear map that maps a subspace into itself reaches the
    subspace only from the subspace. *)
From Coq Require Import List Reals Lra Lia Arith.
From Verif Require Import SpecRK RKFacts SpecSub.
Import ListNotations.
Local Open Scope R_scope.

(** [sum_k c_k v_k] *)
Fixpoint comb (c : list R) (l : list (nat -> R)) (i : nat) : R :=
  match c, l with
  | a :: c, v :: l => a * v i + comb c l i
  | _, _ => 0
  end.
Lemma comb_app c1 l1 c2 l2 i : length c1 = length l1 -> comb (c1 ++ c2) (l1 ++ l2) i = comb c1 l1 i + comb c2 l2 i.
Proof.
  revert l1. induction c1 as [|a c1 IH]; intros [|v l1] H; try discriminate; cbn.
  - ring.
  - rewrite IH by (cbn in H; lia). ring.
Qed.
Lemma comb_shift c l p b i : length c = length l ->
  comb c (map (fun v i => v i - b v * p i) l) i = comb c l i - comb c (map (fun v _ => b v) l) i * p i.
Proof.
  revert c. induction l as [|v l IH]; intros [|a c] H; try discriminate; cbn; [ring|]. rewrite IH by (cbn in H; lia). ring.
Qed.
Lemma comb_const c l (b : (nat -> R) -> R) i j : comb c (map (fun v _ => b v) l) i = comb c (map (fun v _ => b v) l) j.
Proof. revert c. induction l as [|v l IH]; intros [|a c]; cbn; try reflexivity. now rewrite IH. Qed.
Lemma comb_div c l d n i : d <> 0 -> comb c (map (fun v _ => v n / d) l) i = comb c l n / d.
Proof.
  intros Hd. revert c. induction l as [|v l IH]; intros [|a c]; cbn; try (unfold Rdiv; ring). rewrite IH. field. exact Hd.
Qed.

Lemma dependent : forall n (l : list (nat -> R)), (n < length l)%nat ->
  exists c, length c = length l /\ (exists a, In a c /\ a <> 0) /\ forall i, (i < n)%nat -> comb c l i = 0.
Proof.
  induction n as [|n IH]; intros l Hl.
  - exists (repeat 1 (length l)). split; [apply repeat_length|]. split; [|intros; lia].
    exists 1. split; [|lra]. destruct l; [cbn in Hl; lia|now left].
  - assert ((exists l1 v l2, l = l1 ++ v :: l2 /\ v n <> 0) \/ forall v, In v l -> v n = 0) as [(l1 & v & l2 & -> & Hv)|Hz].
    { clear. induction l as [|v l [(l1 & w & l2 & -> & H)|H]].
      - right. intros v [].
      - left. exists (v :: l1), w, l2. auto.
      - destruct (Req_dec (v n) 0) as [E|E]; [right|left; exists [], v, l; auto].
        intros w [<-|Hw]; auto. }
    + set (b := fun w : nat -> R => w n / v n).
      destruct (IH (map (fun w i => w i - b w * v i) (l1 ++ l2))) as (c & Lc & (a & Ha & Hna) & Hc).
      { rewrite map_length, app_length. rewrite app_length in Hl. cbn in Hl. lia. }
      rewrite map_length in Lc. rewrite app_length in Lc.
      assert (exists c1 c2, c = c1 ++ c2 /\ length c1 = length l1 /\ length c2 = length l2) as (c1 & c2 & -> & L1 & L2).
      { exists (firstn (length l1) c), (skipn (length l1) c). rewrite firstn_skipn, firstn_length, skipn_length. repeat split; lia. }
      set (q := comb (c1 ++ c2) (l1 ++ l2) n / v n).
      exists (c1 ++ (- q) :: c2). split; [rewrite !app_length; cbn; lia|]. split.
      { exists a. split; [|exact Hna]. apply in_app_or in Ha as [Ha|Ha]; apply in_or_app; [now left|right; now right]. }
      assert (forall i, comb (c1 ++ - q :: c2) (l1 ++ v :: l2) i = comb (c1 ++ c2) (l1 ++ l2) i - q * v i) as E.
      { intros i. rewrite !comb_app by exact L1. cbn. ring. }
      intros i Hi. rewrite E.
      destruct (Nat.eq_dec i n) as [->|Hne]; [unfold q; field; exact Hv|].
      specialize (Hc i ltac:(lia)). rewrite comb_shift in Hc by (rewrite !app_length; lia).
      unfold b in Hc. rewrite (comb_div _ _ _ n i Hv) in Hc. exact Hc.
    + destruct (IH l ltac:(lia)) as (c & Lc & Ha & Hc). exists c. split; [exact Lc|]. split; [exact Ha|].
      intros i Hi. destruct (Nat.eq_dec i n) as [->|Hne]; [|apply Hc; lia].
      clear - Hz. revert c. induction l as [|v l IH]; intros [|a c]; cbn; try reflexivity.
      rewrite (Hz v) by now left. rewrite IH; [ring|]. intros w Hw. apply Hz. now right.
Qed.

Section Krylov.
Variable n : nat.
Variable L : (nat -> R) -> nat -> R.
Hypothesis L_ext : forall x y, (forall i, (i < n)%nat -> x i = y i) -> forall i, (i < n)%nat -> L x i = L y i.
Hypothesis L_lin : forall a x y i, (i < n)%nat -> L (fun i => a * x i + y i) i = a * L x i + L y i.
Hypothesis L_zero : forall i, (i < n)%nat -> L (fun _ => 0) i = 0.
Hypothesis L_inj : forall x, (forall i, (i < n)%nat -> L x i = 0) -> forall i, (i < n)%nat -> x i = 0.
Variable V : (nat -> R) -> Prop.
Hypothesis HV : subspace n V.
Hypothesis L_V : forall x, V x -> V (L x).

Fixpoint pw (k : nat) (x : nat -> R) : nat -> R := match k with O => x | S k => L (pw k x) end.
(** [x, L x, ..., L^(m-1) x] shifted by [k] *)
Definition chain (m k : nat) (x : nat -> R) : list (nat -> R) := map (fun j => pw j x) (seq k m).

Lemma comb_L : forall m c k x i, (i < n)%nat -> comb c (chain m (S k) x) i = L (comb c (chain m k x)) i.
Proof.
  induction m as [|m IH]; intros [|a c] k x i Hi; cbn [chain seq map comb]; try (symmetry; now apply L_zero).
  fold (chain m (S (S k)) x) (chain m (S k) x). rewrite IH by exact Hi.
  change (a * L (pw k x) i + L (comb c (chain m (S k) x)) i = L (fun i => a * pw k x i + comb c (chain m (S k) x) i) i).
  symmetry. now apply L_lin.
Qed.
Lemma pw_V k x : V (L x) -> V (pw (S k) x).
Proof. intros H. induction k as [|k IH]; [exact H|]. cbn [pw]. apply L_V. exact IH. Qed.
Lemma comb_V : forall m c k x, V (L x) -> V (comb c (chain m (S k) x)).
Proof.
  induction m as [|m IH]; intros [|a c] k x H; cbn [chain seq map comb]; try apply (sub_zero _ _ HV).
  fold (chain m (S (S k)) x). apply (sub_comb _ _ HV); [now apply pw_V|now apply IH].
Qed.

Lemma krylov x : V (L x) -> V x.
Proof.
  intros Hx.
  destruct (dependent n (chain (S n) 0 x)) as (c & Lc & (a & Ha & Hna) & Hc).
  { unfold chain. rewrite map_length, seq_length. lia. }
  unfold chain in Lc. rewrite map_length, seq_length in Lc.
  assert (forall m c x, length c = m -> (exists a, In a c /\ a <> 0) -> V (L x) ->
    (forall i, (i < n)%nat -> comb c (chain m 0 x) i = 0) -> V x) as G.
  { clear c Lc a Ha Hna Hc Hx x. induction m as [|m IH]; intros c x Lc (a & Ha & Hna) Hx Hc.
    - destruct c; [destruct Ha|discriminate].
    - destruct c as [|b c]; [discriminate|]. cbn in Lc.
      destruct (Req_dec b 0) as [->|Hb].
      + apply (IH c); auto.
        * destruct Ha as [E|Ha]; [congruence|eauto].
        * apply L_inj. intros i Hi. rewrite <- comb_L by exact Hi. specialize (Hc i Hi).
          cbn [chain seq map comb] in Hc. fold (chain m 1 x) in Hc. lra.
      + apply (sub_ext _ _ HV) with (x := fun i => (- / b) * comb c (chain m 1 x) i + 0).
        * intros i Hi. specialize (Hc i Hi). cbn [chain seq map comb pw] in Hc. fold (chain m 1 x) in Hc.
          set (q := comb c (chain m 1 x) i) in *. assert (q = - b * x i) as -> by lra. field. exact Hb.
        * apply (sub_comb _ _ HV); [now apply comb_V|apply (sub_zero _ _ HV)]. }
  apply (G (S n) c x); eauto.
Qed.
End Krylov.
