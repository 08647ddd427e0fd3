(** Model of src/linalg/dec.rs and src/linalg/sol.rs.

    Every array access is bounds-checked ([vget]/[vset]/[mget]/[mset]) and every
    [usize] subtraction that could underflow is checked ([usub]), so that a
    panic of the Rust code (checked build) is a [Panic] of the model.
    Simplifications: [i32]/[usize] casts do not truncate. *)
From Coq Require Import ZArith List Bool.
From Verif Require Import Arith Vec.
Import ListNotations.

(** A [for] loop whose body may [return] from the enclosing function:
    [inl s] goes on, [inr r] returns [r]. *)
Fixpoint for_list_ret {S R} (l : list nat) (body : nat -> S -> res (S + R)) (s : S)
    : res (S + R) :=
  match l with
  | [] => Ok (inl s)
  | i :: l' =>
      let* r := body i s in
      match r with
      | inl s' => for_list_ret l' body s'
      | inr x => Ok (inr x)
      end
  end.
Definition for_range_ret {S R} (lo hi : nat) (body : nat -> S -> res (S + R)) (s : S)
    : res (S + R) := for_list_ret (seq lo (hi - lo)) body s.

(** [ip[k] as usize] *)
Definition zidx (z : Z) : res nat := if Z.leb 0 z then Ok (Z.to_nat z) else Panic.

Section Linalg.
Context {A : arith}.
Local Open Scope num_scope.

(** ** Real dense: [dec], src/linalg/dec.rs:10-57 *)

(** Pivot search, dec.rs:17-22 (also 77-83 with [hi = na]). *)
Definition pivot_search (a : mat A) (k lo hi : nat) : res nat :=
  for_range lo hi (fun i m =>
    let* x := mget a i k in
    let* y := mget a m k in
    Ok (if nabs A x >? nabs A y then i else m)) k.

(** [ip[n-1] = -ip[n-1]] *)
Definition flip_sign (n : nat) (ip : list Z) : res (list Z) :=
  let* n1 := usub n 1 in
  let* s := vget ip n1 in
  vset ip n1 (- s)%Z.

(** Column scaling, dec.rs:36-38: [a[[i,k]] *= -t] for [i] in [lo..hi]. *)
Definition scale_col (k lo hi : nat) (t : num A) (a : mat A) : res (mat A) :=
  for_range lo hi (fun i a =>
    let* x := mget a i k in mset a i k (x * (- t))) a.

(** Inner update, dec.rs:44-46: [a[[i,j]] += a[[i,k]] * t] for [i] in [lo..hi]. *)
Definition axpy_col (k j lo hi : nat) (t : num A) (a : mat A) : res (mat A) :=
  for_range lo hi (fun i a =>
    let* x := mget a i j in
    let* y := mget a i k in
    mset a i j (x + y * t)) a.

(** One round of the column loop, dec.rs:39-48. *)
Definition elim_col (k m lo hi : nat) (j : nat) (a : mat A) : res (mat A) :=
  let* t := mget a m j in
  let* y := mget a k j in
  let* a := mset a m j y in
  let* a := mset a k j t in
  if negb (t =? n0) then axpy_col k j lo hi t a else Ok a.

(** One round of the outer loop, dec.rs:15-49; [na] is the upper bound of the
    row loops ([n] in [dec]; [n.min(lb+k+1)] in [dech], which still scales up
    to [n], dec.rs:97). *)
Definition dec_stage (n na k : nat) (st : mat A * list Z)
    : res ((mat A * list Z) + (nat * mat A * list Z)) :=
  let '(a, ip) := st in
  let kp1 := S k in
  let* m := pivot_search a k kp1 na in
  let* ip := vset ip k (Z.of_nat m) in
  let* t := mget a m k in
  let* (a, ip) :=
    (if negb (Nat.eqb m k)
     then let* ip := flip_sign n ip in
          let* akk := mget a k k in
          let* a := mset a m k akk in
          let* a := mset a k k t in
          Ok (a, ip)
     else Ok (a, ip)) in
  if t =? n0 then
    let* n1 := usub n 1 in
    let* ip := vset ip n1 0%Z in
    Ok (inr (k, a, ip))
  else
    let t := n1 / t in
    let* a := scale_col k kp1 n t a in
    let* a := for_range kp1 n (elim_col k m kp1 na) a in
    Ok (inl (a, ip)).

(** The final test, dec.rs:51-54. *)
Definition dec_last (n : nat) (a : mat A) (ip : list Z) : res (nat * mat A * list Z) :=
  let* n1 := usub n 1 in
  let* x := mget a n1 n1 in
  if x =? n0 then let* ip := vset ip n1 0%Z in Ok (n, a, ip) else Ok (0%nat, a, ip).

(** src/linalg/dec.rs:10-57.  Result: error code, overwritten matrix, pivots. *)
Definition dec (n : nat) (a : mat A) (ip : list Z) : res (nat * mat A * list Z) :=
  let* n1 := usub n 1 in
  let* ip := vset ip n1 1%Z in
  let* r := for_range_ret 0 n1 (fun k => dec_stage n n k) (a, ip) in
  match r with
  | inl (a, ip) => dec_last n a ip
  | inr x => Ok x
  end.

(** src/linalg/dec.rs:65-118, real Hessenberg with lower bandwidth [lb]. *)
Definition dech (n : nat) (a : mat A) (lb : nat) (ip : list Z) : res (nat * mat A * list Z) :=
  let* n1 := usub n 1 in
  let* ip := vset ip n1 1%Z in
  let* r := for_range_ret 0 n1 (fun k => dec_stage n (Nat.min n (lb + k + 1)) k) (a, ip) in
  match r with
  | inl (a, ip) => dec_last n a ip
  | inr x => Ok x
  end.

(** ** Complex dense: [decc], src/linalg/dec.rs:126-207 *)

Definition cmag (r i : num A) : num A := nabs A r + nabs A i.

(** dec.rs:138-143 *)
Definition pivot_search_c (ar ai : mat A) (k lo hi : nat) : res nat :=
  for_range lo hi (fun i m =>
    let* xr := mget ar i k in let* xi := mget ai i k in
    let* yr := mget ar m k in let* yi := mget ai m k in
    Ok (if cmag xr xi >? cmag yr yi then i else m)) k.

(** dec.rs:162-167 *)
Definition scale_col_c (k lo hi : nat) (tr ti : num A) (st : mat A * mat A)
    : res (mat A * mat A) :=
  for_range lo hi (fun i st =>
    let '(ar, ai) := st in
    let* xr := mget ar i k in let* xi := mget ai i k in
    let prodr := xr * tr - xi * ti in
    let prodi := xi * tr + xr * ti in
    let* ar := mset ar i k (- prodr) in
    let* ai := mset ai i k (- prodi) in
    Ok (ar, ai)) st.

(** The product by which dec.rs:175-197 updates one entry; the code
    distinguishes [ti == 0], [tr == 0] and the general case. *)
Definition cprod (xr xi tr ti : num A) : num A * num A :=
  if ti =? n0 then (xr * tr, xi * tr)
  else if tr =? n0 then ((- xi) * ti, xr * ti)
  else (xr * tr - xi * ti, xi * tr + xr * ti).

Definition axpy_col_c (k j lo hi : nat) (tr ti : num A) (st : mat A * mat A)
    : res (mat A * mat A) :=
  for_range lo hi (fun i st =>
    let '(ar, ai) := st in
    let* xr := mget ar i k in let* xi := mget ai i k in
    let (prodr, prodi) := cprod xr xi tr ti in
    let* yr := mget ar i j in
    let* ar := mset ar i j (yr + prodr) in
    let* yi := mget ai i j in
    let* ai := mset ai i j (yi + prodi) in
    Ok (ar, ai)) st.

(** dec.rs:168-198 *)
Definition elim_col_c (k m lo hi : nat) (j : nat) (st : mat A * mat A) : res (mat A * mat A) :=
  let '(ar, ai) := st in
  let* tr := mget ar m j in let* ti := mget ai m j in
  let* yr := mget ar k j in let* yi := mget ai k j in
  let* ar := mset ar m j yr in let* ai := mset ai m j yi in
  let* ar := mset ar k j tr in let* ai := mset ai k j ti in
  if cmag tr ti =? n0 then Ok (ar, ai) else axpy_col_c k j lo hi tr ti (ar, ai).

(** dec.rs:136-199; [nsc] bounds the scaling loop and [na] the search and
    update loops ([n],[n] in [decc]; [na],[na] in [dechc]). *)
Definition decc_stage (n nsc na k : nat) (st : mat A * mat A * list Z)
    : res ((mat A * mat A * list Z) + (nat * mat A * mat A * list Z)) :=
  let '(ar, ai, ip) := st in
  let kp1 := S k in
  let* m := pivot_search_c ar ai k kp1 na in
  let* ip := vset ip k (Z.of_nat m) in
  let* tr := mget ar m k in let* ti := mget ai m k in
  let* (ar, ai, ip) :=
    (if negb (Nat.eqb m k)
     then let* ip := flip_sign n ip in
          let* xr := mget ar k k in let* ar := mset ar m k xr in
          let* xi := mget ai k k in let* ai := mset ai m k xi in
          let* ar := mset ar k k tr in
          let* ai := mset ai k k ti in
          Ok (ar, ai, ip)
     else Ok (ar, ai, ip)) in
  if cmag tr ti =? n0 then
    let* n1 := usub n 1 in
    let* ip := vset ip n1 0%Z in
    Ok (inr (k, ar, ai, ip))
  else
    let den := tr * tr + ti * ti in
    let tr := tr / den in
    let ti := (- ti) / den in
    let* st := scale_col_c k kp1 nsc tr ti (ar, ai) in
    let* (ar, ai) := for_range kp1 n (elim_col_c k m kp1 na) st in
    Ok (inl (ar, ai, ip)).

(** dec.rs:201-204 *)
Definition decc_last (n : nat) (ar ai : mat A) (ip : list Z)
    : res (nat * mat A * mat A * list Z) :=
  let* n1 := usub n 1 in
  let* xr := mget ar n1 n1 in let* xi := mget ai n1 n1 in
  if cmag xr xi =? n0 then let* ip := vset ip n1 0%Z in Ok (n, ar, ai, ip)
  else Ok (0%nat, ar, ai, ip).

(** src/linalg/dec.rs:126-207 *)
Definition decc (n : nat) (ar ai : mat A) (ip : list Z) : res (nat * mat A * mat A * list Z) :=
  let* n1 := usub n 1 in
  let* ip := vset ip n1 1%Z in
  let* r := for_range_ret 0 n1 (fun k => decc_stage n n n k) (ar, ai, ip) in
  match r with
  | inl (ar, ai, ip) => decc_last n ar ai ip
  | inr x => Ok x
  end.

(** src/linalg/dec.rs:215-298, complex Hessenberg. *)
Definition dechc (n : nat) (ar ai : mat A) (lb : nat) (ip : list Z)
    : res (nat * mat A * mat A * list Z) :=
  let* n1 := usub n 1 in
  let* ip := vset ip n1 1%Z in
  let* r :=
    (if negb (Nat.eqb lb 0)
     then for_range_ret 0 n1 (fun k => let na := Nat.min n (lb + k + 1) in
                                       decc_stage n na na k) (ar, ai, ip)
     else Ok (inl (ar, ai, ip))) in
  match r with
  | inl (ar, ai, ip) => decc_last n ar ai ip
  | inr x => Ok x
  end.

(** ** Banded: [decb], src/linalg/dec.rs:306-380 *)

(** dec.rs:319-325 *)
Definition band_clear (n lb ub : nat) (a : mat A) : res (mat A) :=
  if Nat.leb (ub + 2) n
  then for_range (ub + 1) n (fun j a => for_range 0 lb (fun i a => mset a i j n0) a) a
  else Ok a.

(** dec.rs:355-370, one [j].  [mm] is shadowed inside the loop body, so it is
    [md - 1] in every round (line 357); [m] really decreases (line 356). *)
Definition decb_col (md md1 mdl k : nat) (j : nat) (st : mat A * nat) : res (mat A * nat) :=
  let '(a, m) := st in
  let* m := usub m 1 in
  let* mm := usub md 1 in
  let* t := mget a m j in
  let* a := (if negb (Nat.eqb m mm)
             then let* x := mget a mm j in
                  let* a := mset a m j x in
                  mset a mm j t
             else Ok a) in
  let* a := (if negb (t =? n0)
             then let* jk := usub j k in
                  for_range md1 mdl (fun i a =>
                    let* ijk := usub i jk in
                    let* x := mget a ijk j in
                    let* y := mget a i k in
                    mset a ijk j (x + y * t)) a
             else Ok a) in
  Ok (a, m).

(** dec.rs:327-372, loop state [(a, ip, ju)]. *)
Definition decb_stage (n lb ub k : nat) (st : mat A * list Z * nat)
    : res ((mat A * list Z * nat) + (nat * mat A * list Z)) :=
  let '(a, ip, ju) := st in
  let md := (ub + lb)%nat in
  let md1 := S md in
  let kp1 := S k in
  let* nk := usub n k in
  let* nk1 := usub nk 1 in
  let mdl := (Nat.min lb nk1 + md)%nat in
  let* m := for_range md1 mdl (fun i m =>
      let* x := mget a i k in
      let* y := mget a m k in
      Ok (if nabs A x >? nabs A y then i else m)) md in
  let* pk := usub (m + k) md in
  let* ip := vset ip k (Z.of_nat pk) in
  let* t := mget a m k in
  let* (a, ip) :=
    (if negb (Nat.eqb m md)
     then let* ip := flip_sign n ip in
          let* x := mget a md k in
          let* a := mset a m k x in
          let* a := mset a md k t in
          Ok (a, ip)
     else Ok (a, ip)) in
  if t =? n0 then
    let* n1 := usub n 1 in
    let* ip := vset ip n1 0%Z in
    Ok (inr (k, a, ip))
  else
    let t := n1 / t in
    let* a := scale_col k md1 (mdl + 1) t a in
    let* ipk := vget ip k in
    let* ipk := zidx ipk in
    let ju := Nat.min (Nat.max ju (ub + ipk + 1)) n in
    let* (a, _) := for_range kp1 ju (decb_col md md1 mdl k) (a, m) in
    Ok (inl (a, ip, ju)).

(** src/linalg/dec.rs:306-380 *)
Definition decb (n : nat) (a : mat A) (lb ub : nat) (ip : list Z) : res (nat * mat A * list Z) :=
  let* n1 := usub n 1 in
  let* ip := vset ip n1 1%Z in
  let md := (ub + lb)%nat in
  let* r :=
    (if negb (Nat.eqb n 1) && negb (Nat.eqb lb 0)
     then let* a := band_clear n lb ub a in
          for_range_ret 0 n1 (fun k => decb_stage n lb ub k) (a, ip, 0%nat)
     else Ok (inl (a, ip, 0%nat))) in
  match r with
  | inr x => Ok x
  | inl (a, ip, _) =>
      let* x := mget a md n1 in
      if x =? n0 then let* ip := vset ip n1 0%Z in Ok (n, a, ip) else Ok (0%nat, a, ip)
  end.

(** ** Reduction to Hessenberg form: [elmhes], src/linalg/dec.rs:500-554.
    [inr] stands for the [return] at line 541. *)
Definition elmhes_row (n igh m : nat) (x : num A) (i : nat) (a : mat A)
    : res (mat A + mat A) :=
  let* mm1 := usub m 1 in
  let* y := mget a i mm1 in
  if y =? n0 then Ok (inr a)
  else
    let y := y / x in
    let* a := mset a i mm1 y in
    let* a := for_range m n (fun j a =>
        let* p := mget a i j in
        let* q := mget a m j in
        mset a i j (p - y * q)) a in
    let* a := for_range 0 igh (fun j a =>
        let* p := mget a i m in
        let* q := mget a j i in
        mset a i m (p + y * q)) a in
    Ok (inl a).

Definition swap_entries (i1 j1 i2 j2 : nat) (a : mat A) : res (mat A) :=
  let* y := mget a i1 j1 in
  let* z := mget a i2 j2 in
  let* a := mset a i1 j1 z in
  mset a i2 j2 y.

Definition elmhes_stage (n igh m : nat) (st : mat A * list Z)
    : res ((mat A * list Z) + (mat A * list Z)) :=
  let '(a, inter) := st in
  let* mm1 := usub m 1 in
  let* (x, ii) := for_range m igh (fun j st =>
      let* y := mget a j mm1 in
      Ok (if nabs A y >? nabs A (fst st) then (y, j) else st)) (n0, m) in
  let* inter := vset inter m (Z.of_nat ii) in
  let* a := (if negb (Nat.eqb ii m)
             then let* a := for_range mm1 n (fun j a => swap_entries ii j m j a) a in
                  for_range 0 igh (fun j a => swap_entries j ii j m a) a
             else Ok a) in
  if negb (x =? n0) then
    let* r := for_range_ret (S m) igh (elmhes_row n igh m x) a in
    match r with
    | inl a => Ok (inl (a, inter))
    | inr a => Ok (inr (a, inter))
    end
  else Ok (inl (a, inter)).

Definition elmhes (n low igh : nat) (a : mat A) (inter : list Z) : res (mat A * list Z) :=
  let* la := usub igh 2 in
  let kp1 := S low in
  if Nat.ltb la kp1 then Ok (a, inter)
  else
    let* r := for_range_ret kp1 (la + 1) (elmhes_stage n igh) (a, inter) in
    match r with inl x => Ok x | inr x => Ok x end.

(** ** Solves, src/linalg/sol.rs *)

(** [b[i] += a[[i,k]] * t] for [i] in [lo..hi] (sol.rs:15-17, 24-26). *)
Definition axpy_vec (a : mat A) (k lo hi : nat) (t : num A) (b : vec A) : res (vec A) :=
  for_range lo hi (fun i b =>
    let* x := vget b i in
    let* y := mget a i k in
    vset b i (x + y * t)) b.

(** Forward elimination step, sol.rs:10-17 (and 42-50 with [hi = na]). *)
Definition fwd_step (a : mat A) (ip : list Z) (hi k : nat) (b : vec A) : res (vec A) :=
  let* z := vget ip k in
  let* m := zidx z in
  let* t := vget b m in
  let* y := vget b k in
  let* b := vset b m y in
  let* b := vset b k t in
  axpy_vec a k (S k) hi t b.

(** Back substitution step, sol.rs:20-26; [kb = n-k-1]. *)
Definition bwd_step (n : nat) (a : mat A) (k : nat) (b : vec A) : res (vec A) :=
  let* nk := usub n k in
  let* km1 := usub nk 2 in
  let kb := S km1 in
  let* x := vget b kb in
  let* d := mget a kb kb in
  let* b := vset b kb (x / d) in
  let* x := vget b kb in
  axpy_vec a kb 0 (km1 + 1) (- x) b.

(** sol.rs:29 *)
Definition final_div (a : mat A) (b : vec A) : res (vec A) :=
  let* x := vget b 0 in
  let* d := mget a 0 0 in
  vset b 0 (x / d).

(** src/linalg/sol.rs:6-30 *)
Definition sol (n : nat) (a : mat A) (b : vec A) (ip : list Z) : res (vec A) :=
  let* b :=
    (if negb (Nat.eqb n 1)
     then let* nm1 := usub n 1 in
          let* b := for_range 0 nm1 (fwd_step a ip n) b in
          for_range 0 nm1 (bwd_step n a) b
     else Ok b) in
  final_div a b.

(** src/linalg/sol.rs:32-63 *)
Definition solh (n : nat) (a : mat A) (lb : nat) (b : vec A) (ip : list Z) : res (vec A) :=
  let* b :=
    (if negb (Nat.eqb n 1)
     then let* nm1 := usub n 1 in
          let* b := for_range 0 nm1 (fun k => fwd_step a ip (Nat.min n (lb + k + 1)) k) b in
          for_range 0 nm1 (bwd_step n a) b
     else Ok b) in
  final_div a b.

(** sol.rs:84-89 and 101-106 *)
Definition axpy_vec_c (ar ai : mat A) (k lo hi : nat) (tr ti : num A) (st : vec A * vec A)
    : res (vec A * vec A) :=
  for_range lo hi (fun i st =>
    let '(br, bi) := st in
    let* xr := mget ar i k in let* xi := mget ai i k in
    let prodr := xr * tr - xi * ti in
    let prodi := xi * tr + xr * ti in
    let* yr := vget br i in
    let* br := vset br i (yr + prodr) in
    let* yi := vget bi i in
    let* bi := vset bi i (yi + prodi) in
    Ok (br, bi)) st.

(** sol.rs:75-89 *)
Definition fwd_step_c (ar ai : mat A) (ip : list Z) (hi k : nat) (st : vec A * vec A)
    : res (vec A * vec A) :=
  let '(br, bi) := st in
  let* z := vget ip k in
  let* m := zidx z in
  let* tr := vget br m in let* ti := vget bi m in
  let* yr := vget br k in let* br := vset br m yr in
  let* yi := vget bi k in let* bi := vset bi m yi in
  let* br := vset br k tr in
  let* bi := vset bi k ti in
  axpy_vec_c ar ai k (S k) hi tr ti (br, bi).

(** Complex division of [b[kb]] by the diagonal, sol.rs:94-98 and 109-113. *)
Definition cdiv_at (ar ai : mat A) (row col kb : nat) (st : vec A * vec A)
    : res (vec A * vec A) :=
  let '(br, bi) := st in
  let* dr := mget ar row col in let* di := mget ai row col in
  let* xr := vget br kb in let* xi := vget bi kb in
  let den := dr * dr + di * di in
  let prodr := xr * dr + xi * di in
  let prodi := xi * dr - xr * di in
  let* br := vset br kb (prodr / den) in
  let* bi := vset bi kb (prodi / den) in
  Ok (br, bi).

(** sol.rs:91-107; [hi km1] is the end of the update loop ([km1+1] in [solc],
    [km1] in [solhc], sol.rs:155). *)
Definition bwd_step_c (n : nat) (ar ai : mat A) (hi : nat -> nat) (k : nat)
    (st : vec A * vec A) : res (vec A * vec A) :=
  let* nk := usub n k in
  let* km1 := usub nk 2 in
  let kb := S km1 in
  let* st := cdiv_at ar ai kb kb kb st in
  let '(br, bi) := st in
  let* xr := vget br kb in let* xi := vget bi kb in
  axpy_vec_c ar ai kb 0 (hi km1) (- xr) (- xi) (br, bi).

(** src/linalg/sol.rs:65-114 *)
Definition solc (n : nat) (ar ai : mat A) (br bi : vec A) (ip : list Z)
    : res (vec A * vec A) :=
  let* st :=
    (if negb (Nat.eqb n 1)
     then let* nm1 := usub n 1 in
          let* st := for_range 0 nm1 (fwd_step_c ar ai ip n) (br, bi) in
          for_range 0 nm1 (bwd_step_c n ar ai (fun km1 => km1 + 1)%nat) st
     else Ok (br, bi)) in
  cdiv_at ar ai 0 0 0 st.

(** src/linalg/sol.rs:116-168.  Line 155 stops the update loop at [km1]. *)
Definition solhc (n : nat) (ar ai : mat A) (lb : nat) (br bi : vec A) (ip : list Z)
    : res (vec A * vec A) :=
  let* st :=
    (if negb (Nat.eqb n 1)
     then let* nm1 := usub n 1 in
          let* st :=
            (if negb (Nat.eqb lb 0)
             then for_range 0 nm1 (fun k => fwd_step_c ar ai ip (Nat.min n (lb + k + 1)) k) (br, bi)
             else Ok (br, bi)) in
          for_range 0 nm1 (bwd_step_c n ar ai (fun km1 => km1)) st
     else Ok (br, bi)) in
  cdiv_at ar ai 0 0 0 st.

(** src/linalg/sol.rs:169-208.  [md - 1] (line 179) and [md - kb] (line 199) are
    [usize] subtractions. *)
Definition solb (n : nat) (a : mat A) (lb ub : nat) (b : vec A) (ip : list Z) : res (vec A) :=
  let md := (lb + ub)%nat in
  let md1 := S md in
  let* mdm := usub md 1 in
  let* nm1 := usub n 1 in
  let* b :=
    (if negb (Nat.eqb n 1) then
       let* b :=
         (if negb (Nat.eqb lb 0)
          then for_range 0 nm1 (fun k b =>
                 let* z := vget ip k in
                 let* m := zidx z in
                 let* t := vget b m in
                 let* y := vget b k in
                 let* b := vset b m y in
                 let* b := vset b k t in
                 let* nk := usub n k in
                 let* nk1 := usub nk 1 in
                 let mdl := (Nat.min lb nk1 + md)%nat in
                 for_range md1 (mdl + 1) (fun i b =>
                   let* imd := usub (i + k) md in
                   let* x := vget b imd in
                   let* y := mget a i k in
                   vset b imd (x + y * t)) b) b
          else Ok b) in
       for_range 0 nm1 (fun k b =>
         let* nk := usub n k in
         let* kb := usub nk 1 in
         let* x := vget b kb in
         let* d := mget a md kb in
         let* b := vset b kb (x / d) in
         let* x := vget b kb in
         let t := - x in
         let* kmd := usub md kb in
         let lm := Nat.max 0 kmd in
         for_range lm (mdm + 1) (fun i b =>
           let* imd := usub i kmd in
           let* x := vget b imd in
           let* y := mget a i kb in
           vset b imd (x + y * t)) b) b
     else Ok b) in
  let* x := vget b 0 in
  let* d := mget a md 0 in
  vset b 0 (x / d).

End Linalg.
