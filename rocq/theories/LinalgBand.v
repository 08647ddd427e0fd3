(** Model of the complex banded routines [decbc] (src/linalg/dec.rs:389-498) and
    [solbc] (src/linalg/sol.rs:210-271).  Same conventions as Linalg.v. *)
From Coq Require Import ZArith List Bool.
From Verif Require Import Arith Vec Linalg.
Import ListNotations.

Section LinalgBand.
Context {A : arith}.
Local Open Scope num_scope.

(** dec.rs:403-410 *)
Definition band_clear_c (n lb ub : nat) (st : mat A * mat A) : res (mat A * mat A) :=
  if Nat.leb (ub + 2) n
  then for_range (ub + 1) n (fun j st => for_range 0 lb (fun i st =>
         let '(ar, ai) := st in
         let* ar := mset ar i j n0 in
         let* ai := mset ai i j n0 in
         Ok (ar, ai)) st) st
  else Ok st.

(** The inner loops dec.rs:461-467, 470-476 and 479-485; [prod xr xi] is the
    pair [(prodr, prodi)]. *)
Definition band_axpy_c (k j jk md1 mdl : nat) (prod : num A -> num A -> num A * num A)
    (st : mat A * mat A) : res (mat A * mat A) :=
  for_range md1 mdl (fun i st =>
    let '(ar, ai) := st in
    let* ijk := usub i jk in
    let* xr := mget ar i k in let* xi := mget ai i k in
    let '(pr, pi) := prod xr xi in
    let* yr := mget ar ijk j in let* ar := mset ar ijk j (yr + pr) in
    let* yi := mget ai ijk j in let* ai := mset ai ijk j (yi + pi) in
    Ok (ar, ai)) st.

(** dec.rs:446-488, one [j]; loop state [(ar, ai, m, mm)]: both decrease. *)
Definition decbc_col (k md1 mdl : nat) (j : nat) (st : mat A * mat A * nat * nat)
    : res (mat A * mat A * nat * nat) :=
  let '(ar, ai, m, mm) := st in
  let* m := usub m 1 in
  let* mm := usub mm 1 in
  let* tr := mget ar m j in
  let* ti := mget ai m j in
  let* (ar, ai) :=
    (if negb (Nat.eqb m mm)
     then let* x := mget ar mm j in let* ar := mset ar m j x in
          let* x := mget ai mm j in let* ai := mset ai m j x in
          let* ar := mset ar mm j tr in
          let* ai := mset ai mm j ti in
          Ok (ar, ai)
     else Ok (ar, ai)) in
  let* (ar, ai) :=
    (if cmag tr ti =? n0 then Ok (ar, ai)
     else let* jk := usub j k in
          band_axpy_c k j jk md1 mdl
            (if ti =? n0 then fun xr xi => (xr * tr, xi * tr)
             else if tr =? n0 then fun xr xi => (- xi * ti, xr * ti)
             else fun xr xi => (xr * tr - xi * ti, xi * tr + xr * ti)) (ar, ai)) in
  Ok (ar, ai, m, mm).

(** dec.rs:412-490, loop state [(ar, ai, ip, ju)].  Line 424 compares the band
    row [m] with the column [k]. *)
Definition decbc_stage (n lb ub k : nat) (st : mat A * mat A * list Z * nat)
    : res ((mat A * mat A * list Z * nat) + (nat * mat A * mat A * list Z)) :=
  let '(ar, ai, ip, ju) := st in
  let md := (lb + ub)%nat in
  let md1 := S md in
  let kp1 := S k in
  let* nk := usub n k in
  let* nk1 := usub nk 1 in
  let mdl := (Nat.min lb nk1 + md)%nat in
  let* m := for_range md1 mdl (fun i m =>
      let* xr := mget ar i k in let* xi := mget ai i k in
      let* yr := mget ar m k in let* yi := mget ai m k in
      Ok (if cmag xr xi >? cmag yr yi then i else m)) md in
  let* pk := usub (m + k) md in
  let* ip := vset ip k (Z.of_nat pk) in
  let* tr := mget ar m k in
  let* ti := mget ai m k in
  let* (ar, ai, ip) :=
    (if negb (Nat.eqb m k)
     then let* ip := flip_sign n ip in
          let* x := mget ar md k in let* ar := mset ar m k x in
          let* x := mget ai md k in let* ai := mset ai m k x in
          let* ar := mset ar md k tr in
          let* ai := mset ai md k ti in
          Ok (ar, ai, ip)
     else Ok (ar, ai, ip)) in
  if cmag tr ti =? n0 then
    let* n1 := usub n 1 in
    let* ip := vset ip n1 0%Z in
    Ok (inr (k, ar, ai, ip))
  else
    let den := tr * tr + ti * ti in
    let tr := tr / den in
    let ti := - ti / den in
    let* (ar, ai) := for_range md1 mdl (fun i st =>
        let '(ar, ai) := st in
        let* xr := mget ar i k in let* xi := mget ai i k in
        let* ar := mset ar i k (- (xr * tr - xi * ti)) in
        let* ai := mset ai i k (- (xi * tr + xr * ti)) in
        Ok (ar, ai)) (ar, ai) in
    let* ipk := vget ip k in
    let* ipk := zidx ipk in
    let ju := Nat.min (Nat.max ju (ub + ipk + 1)) n in
    let* (ar, ai, _, _) := for_range kp1 ju (decbc_col k md1 mdl) (ar, ai, m, md) in
    Ok (inl (ar, ai, ip, ju)).

(** src/linalg/dec.rs:389-498 *)
Definition decbc (n : nat) (ar ai : mat A) (lb ub : nat) (ip : list Z)
    : res (nat * mat A * mat A * list Z) :=
  let* n1 := usub n 1 in
  let* ip := vset ip n1 1%Z in
  let md := (lb + ub)%nat in
  let* r :=
    (if negb (Nat.eqb n 1) && negb (Nat.eqb lb 0)
     then let* (ar, ai) := band_clear_c n lb ub (ar, ai) in
          for_range_ret 0 n1 (fun k => decbc_stage n lb ub k) (ar, ai, ip, 0%nat)
     else Ok (inl (ar, ai, ip, 0%nat))) in
  match r with
  | inr x => Ok x
  | inl (ar, ai, ip, _) =>
      let* xr := mget ar md n1 in let* xi := mget ai md n1 in
      if cmag xr xi =? n0 then let* ip := vset ip n1 0%Z in Ok (n, ar, ai, ip)
      else Ok (0%nat, ar, ai, ip)
  end.

(** src/linalg/sol.rs:210-271.  [md - 1] (line 222) and [md - kb] (line 255) are
    [usize] subtractions; for [n = 1] the division at the end (lines 265-269) is
    skipped as well. *)
Definition solbc (n : nat) (ar ai : mat A) (lb ub : nat) (br bi : vec A) (ip : list Z)
    : res (vec A * vec A) :=
  let md := (lb + ub)%nat in
  let md1 := S md in
  let* mdm := usub md 1 in
  let* nm1 := usub n 1 in
  if negb (Nat.eqb n 1) then
    let* st :=
      (if negb (Nat.eqb lb 0)
       then for_range 0 nm1 (fun k st =>
              let '(br, bi) := st in
              let* z := vget ip k in
              let* m := zidx z in
              let* tr := vget br m in let* ti := vget bi m in
              let* y := vget br k in let* br := vset br m y in
              let* y := vget bi k in let* bi := vset bi m y in
              let* br := vset br k tr in
              let* bi := vset bi k ti in
              let* nk := usub n k in
              let* nk1 := usub nk 1 in
              let mdl := (Nat.min lb nk1 + md)%nat in
              for_range md1 (mdl + 1) (fun i st =>
                let '(br, bi) := st in
                let* imd := usub (i + k) md in
                let* xr := mget ar i k in let* xi := mget ai i k in
                let* y := vget br imd in let* br := vset br imd (y + (xr * tr - xi * ti)) in
                let* y := vget bi imd in let* bi := vset bi imd (y + (xi * tr + xr * ti)) in
                Ok (br, bi)) (br, bi)) (br, bi)
       else Ok (br, bi)) in
    let* st := for_range 0 nm1 (fun k st =>
        let* nk := usub n k in
        let* kb := usub nk 1 in
        let* (br, bi) := cdiv_at ar ai md kb kb st in
        let* xr := vget br kb in let* xi := vget bi kb in
        let tr := - xr in
        let ti := - xi in
        let* kmd := usub md kb in
        let lm := Nat.max 0 kmd in
        for_range lm (mdm + 1) (fun i st =>
          let '(br, bi) := st in
          let* imd := usub i kmd in
          let* xr := mget ar i kb in let* xi := mget ai i kb in
          let* y := vget br imd in let* br := vset br imd (y + (xr * tr - xi * ti)) in
          let* y := vget bi imd in let* bi := vset bi imd (y + (xi * tr + xr * ti)) in
          Ok (br, bi)) (br, bi)) st in
    cdiv_at ar ai md 0 0 st
  else Ok (br, bi).
End LinalgBand.
