(** Model of src/dorm_prince/dp8.rs and src/dorm_prince/dp8/stages.rs.  Neither
    file is compiled into the crate: src/dorm_prince.rs does not declare [dp8],
    and stages.rs imports modules that do not exist. *)
From Coq Require Import ZArith List Bool.
From Verif Require Import Arith Vec Core.
Import ListNotations.

Section Consts.
Context {A : arith}.
(** src/dorm_prince/dp8.rs:36-193.  The literal [0.d1d2...dkE-e] is [lit A d1...dk 10^(k+e)]. *)
Definition dp8_c2 := lit A 526001519587677318785587544488 (10^31).
Definition dp8_c3 := lit A 789002279381515978178381316732 (10^31).
Definition dp8_c4 := lit A 118350341907227396726757197510 (10^30).
Definition dp8_c5 := lit A 281649658092772603273242802490 (10^30).
Definition dp8_c6 := lit A 333333333333333333333333333333 (10^30).
Definition dp8_c7 := lit A 25 (10^2).
Definition dp8_c8 := lit A 307692307692307692307692307692 (10^30).
Definition dp8_c9 := lit A 651282051282051282051282051282 (10^30).
Definition dp8_c10 := lit A 6 (10^1).
Definition dp8_c11 := lit A 857142857142857142857142857142 (10^30).
Definition dp8_c14 := lit A 1 (10^1).
Definition dp8_c15 := lit A 2 (10^1).
Definition dp8_c16 := lit A 777777777777777777777777777778 (10^30).
Definition dp8_b1 := lit A 542937341165687622380535766363 (10^31).
Definition dp8_b6 := lit A 445031289275240888144113950566 (10^29).
Definition dp8_b7 := lit A 189151789931450038304281599044 (10^29).
Definition dp8_b8 := lit A (-58012039600105847814672114227) (10^28).
Definition dp8_b9 := lit A 31116436695781989440891606237 (10^29).
Definition dp8_b10 := lit A (-152160949662516078556178806805) (10^30).
Definition dp8_b11 := lit A 201365400804030348374776537501 (10^30).
Definition dp8_b12 := lit A 447106157277725905176885569043 (10^31).
Definition dp8_bhh1 := lit A 244094488188976377952755905512 (10^30).
Definition dp8_bhh2 := lit A 733846688281611857341361741547 (10^30).
Definition dp8_bhh3 := lit A 220588235294117647058823529412 (10^31).
Definition dp8_a21 := lit A 526001519587677318785587544488 (10^31).
Definition dp8_a31 := lit A 197250569845378994544595329183 (10^31).
Definition dp8_a32 := lit A 591751709536136983633785987549 (10^31).
Definition dp8_a41 := lit A 295875854768068491816892993775 (10^31).
Definition dp8_a43 := lit A 887627564304205475450678981324 (10^31).
Definition dp8_a51 := lit A 241365134159266685502369798665 (10^30).
Definition dp8_a53 := lit A (-884549479328286085344864962717) (10^30).
Definition dp8_a54 := lit A 924834003261792003115737966543 (10^30).
Definition dp8_a61 := lit A 37037037037037037037037037037 (10^30).
Definition dp8_a64 := lit A 170828608729473871279604482173 (10^30).
Definition dp8_a65 := lit A 125467687566822425016691814123 (10^30).
Definition dp8_a71 := lit A 37109375 (10^9).
Definition dp8_a74 := lit A 170252211019544039314978060272 (10^30).
Definition dp8_a75 := lit A 602165389804559606850219397283 (10^31).
Definition dp8_a76 := lit A (-17578125) (10^9).
Definition dp8_a81 := lit A 370920001185047927108779319836 (10^31).
Definition dp8_a84 := lit A 170383925712239993810214054705 (10^30).
Definition dp8_a85 := lit A 107262030446373284651809199168 (10^30).
Definition dp8_a86 := lit A (-153194377486244017527936158236) (10^31).
Definition dp8_a87 := lit A 827378916381402288758473766002 (10^32).
Definition dp8_a91 := lit A 624110958716075717114429577812 (10^30).
Definition dp8_a94 := lit A (-336089262944694129406857109825) (10^29).
Definition dp8_a95 := lit A (-868219346841726006818189891453) (10^30).
Definition dp8_a96 := lit A 275920996994467083049415600797 (10^28).
Definition dp8_a97 := lit A 201540675504778934086186788979 (10^28).
Definition dp8_a98 := lit A (-434898841810699588477366255144) (10^28).
Definition dp8_a101 := lit A 477662536438264365890433908527 (10^30).
Definition dp8_a104 := lit A (-248811461997166764192642586468) (10^29).
Definition dp8_a105 := lit A (-590290826836842996371446475743) (10^30).
Definition dp8_a106 := lit A 212300514481811942347288949897 (10^28).
Definition dp8_a107 := lit A 152792336328824235832596922938 (10^28).
Definition dp8_a108 := lit A (-332882109689848629194453265587) (10^28).
Definition dp8_a109 := lit A (-203312017085086261358222928593) (10^31).
Definition dp8_a111 := lit A (-93714243008598732571704021658) (10^29).
Definition dp8_a114 := lit A 518637242884406370830023853209 (10^29).
Definition dp8_a115 := lit A 109143734899672957818500254654 (10^29).
Definition dp8_a116 := lit A (-814978701074692612513997267357) (10^29).
Definition dp8_a117 := lit A (-185200656599969598641566180701) (10^28).
Definition dp8_a118 := lit A 227394870993505042818970056734 (10^28).
Definition dp8_a119 := lit A 249360555267965238987089396762 (10^29).
Definition dp8_a1110 := lit A (-30467644718982195003823669022) (10^28).
Definition dp8_a121 := lit A 227331014751653820792359768449 (10^29).
Definition dp8_a124 := lit A (-105344954667372501984066689879) (10^28).
Definition dp8_a125 := lit A (-200087205822486249909675718444) (10^29).
Definition dp8_a126 := lit A (-179589318631187989172765950534) (10^28).
Definition dp8_a127 := lit A 279488845294199600508499808837 (10^28).
Definition dp8_a128 := lit A (-285899827713502369474065508674) (10^29).
Definition dp8_a129 := lit A (-887285693353062954433549289258) (10^29).
Definition dp8_a1210 := lit A 123605671757943030647266201528 (10^28).
Definition dp8_a1211 := lit A 643392746015763530355970484046 (10^30).
Definition dp8_a141 := lit A 561675022830479523392909219681 (10^31).
Definition dp8_a147 := lit A 253500210216624811088794765333 (10^30).
Definition dp8_a148 := lit A (-246239037470802489917441475441) (10^30).
Definition dp8_a149 := lit A (-124191423263816360469010140626) (10^30).
Definition dp8_a1410 := lit A 15329179827876569731206322685 (10^29).
Definition dp8_a1411 := lit A 820105229563468988491666602057 (10^32).
Definition dp8_a1412 := lit A 756789766054569976138603589584 (10^32).
Definition dp8_a1413 := lit A (-8298) (10^6).
Definition dp8_a151 := lit A 318346481635021405060768473261 (10^31).
Definition dp8_a156 := lit A 283009096723667755288322961402 (10^31).
Definition dp8_a157 := lit A 535419883074385676223797384372 (10^31).
Definition dp8_a158 := lit A (-549237485713909884646569340306) (10^31).
Definition dp8_a1511 := lit A (-108347328697249322858509316994) (10^33).
Definition dp8_a1512 := lit A 382571090835658412954920192323 (10^33).
Definition dp8_a1513 := lit A (-340465008687404560802977114492) (10^33).
Definition dp8_a1514 := lit A 141312443674632500278074618366 (10^30).
Definition dp8_a161 := lit A (-428896301583791923408573538692) (10^30).
Definition dp8_a166 := lit A (-469762141536116384314449447206) (10^29).
Definition dp8_a167 := lit A 768342119606259904184240953878 (10^29).
Definition dp8_a168 := lit A 406898981839711007970213554331 (10^29).
Definition dp8_a169 := lit A 356727187455281109270669543021 (10^30).
Definition dp8_a1613 := lit A (-139902416515901462129418009734) (10^32).
Definition dp8_a1614 := lit A 29475147891527723389556272149 (10^28).
Definition dp8_a1615 := lit A (-915095847217987001081870187138) (10^29).
Definition dp8_er1 := lit A 1312004499419488073250102996 (10^29).
Definition dp8_er6 := lit A (-1225156446376204440720569753) (10^27).
Definition dp8_er7 := lit A (-4957589496572501915214079952) (10^28).
Definition dp8_er8 := lit A 1664377182454986536961530415 (10^27).
Definition dp8_er9 := lit A (-3503288487499736816886487290) (10^28).
Definition dp8_er10 := lit A 3341791187130174790297318841 (10^28).
Definition dp8_er11 := lit A 8192320648511571246570742613 (10^29).
Definition dp8_er12 := lit A (-2235530786388629525884427845) (10^29).
Definition dp8_d41 := lit A (-84289382761090128651353491142) (10^28).
Definition dp8_d46 := lit A 56671495351937776962531783590 (10^29).
Definition dp8_d47 := lit A (-30689499459498916912797304727) (10^28).
Definition dp8_d48 := lit A 23846676565120698287728149680 (10^28).
Definition dp8_d49 := lit A 21170345824450282767155149946 (10^28).
Definition dp8_d410 := lit A (-87139158377797299206789907490) (10^29).
Definition dp8_d411 := lit A 22404374302607882758541771650 (10^28).
Definition dp8_d412 := lit A 63157877876946881815570249290 (10^29).
Definition dp8_d413 := lit A (-88990336451333310820698117400) (10^30).
Definition dp8_d414 := lit A 18148505520854727256656404962 (10^27).
Definition dp8_d415 := lit A (-91946323924783554000451984436) (10^28).
Definition dp8_d416 := lit A (-44360363875948939664310572000) (10^28).
Definition dp8_d51 := lit A 10427508642579134603413151009 (10^27).
Definition dp8_d56 := lit A 24228349177525818288430175319 (10^26).
Definition dp8_d57 := lit A 16520045171727028198505394887 (10^26).
Definition dp8_d58 := lit A (-37454675472269020279518312152) (10^26).
Definition dp8_d59 := lit A (-22113666853125306036270938578) (10^27).
Definition dp8_d510 := lit A 77334326684722638389603898808 (10^28).
Definition dp8_d511 := lit A (-30674084731089398182061213626) (10^27).
Definition dp8_d512 := lit A (-93321305264302278729567221706) (10^28).
Definition dp8_d513 := lit A 15697238121770843886131091075 (10^27).
Definition dp8_d514 := lit A (-31139403219565177677282850411) (10^27).
Definition dp8_d515 := lit A (-93529243588444783865713862664) (10^28).
Definition dp8_d516 := lit A 35816841486394083752465898540 (10^27).
Definition dp8_d61 := lit A 19985053242002433820987653617 (10^27).
Definition dp8_d66 := lit A (-38703730874935176555105901742) (10^26).
Definition dp8_d67 := lit A (-18917813819516756882830838328) (10^26).
Definition dp8_d68 := lit A 52780815920542364900561016686 (10^26).
Definition dp8_d69 := lit A (-11573902539959630126141871134) (10^27).
Definition dp8_d610 := lit A 68812326946963000169666922661 (10^28).
Definition dp8_d611 := lit A (-10006050966910838403183860980) (10^28).
Definition dp8_d612 := lit A 77771377980534432092869265740 (10^29).
Definition dp8_d613 := lit A (-27782057523535084065932004339) (10^28).
Definition dp8_d614 := lit A (-60196695231264120758267380846) (10^27).
Definition dp8_d615 := lit A 84320405506677161018159903784 (10^27).
Definition dp8_d616 := lit A 11992291136182789328035130030 (10^27).
Definition dp8_d71 := lit A (-25693933462703749003312586129) (10^27).
Definition dp8_d76 := lit A (-15418974869023643374053993627) (10^26).
Definition dp8_d77 := lit A (-23152937917604549567536039109) (10^26).
Definition dp8_d78 := lit A 35763911791061412378285349910 (10^26).
Definition dp8_d79 := lit A 93405324183624310003907691704 (10^27).
Definition dp8_d710 := lit A (-37458323136451633156875139351) (10^27).
Definition dp8_d711 := lit A 10409964950896230045147246184 (10^26).
Definition dp8_d712 := lit A 29840293426660503123344363579 (10^27).
Definition dp8_d713 := lit A (-43533456590011143754432175058) (10^27).
Definition dp8_d714 := lit A 96324553959188282948394950600 (10^27).
Definition dp8_d715 := lit A (-39177261675615439165231486172) (10^27).
Definition dp8_d716 := lit A (-14972683625798562581422125276) (10^26).
End Consts.

(** src/dorm_prince/dp8.rs:4-30.  Only the fields that the modelled function
    reads or writes. *)
Record dp8_cache {A : arith} := mkDP8Cache {
  q_k2 : vec A; q_k3 : vec A; q_k4 : vec A; q_k5 : vec A; q_k6 : vec A; q_k7 : vec A;
  q_k8 : vec A; q_k9 : vec A; q_k10 : vec A; q_unew : vec A; q_du : vec A }.
Arguments dp8_cache A : clear implicits.

Section DP8.
Context {A : arith} {P : Type}.
Local Open Scope num_scope.

(** src/dorm_prince/dp8/stages.rs:10-190.  The integrator's [u], [t] and [dt]
    are arguments; the result is the cache, the increment of [function_evals]
    and the calls of the right-hand side in order.  A right-hand side with
    parameters, as everywhere else in the model.  Different lengths are a
    panic, as in [DP5.compute_stages]. *)
Definition dp8_compute_stages (f : rhs A P) (p : P) (u : vec A) (t dt : num A) (c : dp8_cache A)
    : res (dp8_cache A * nat * list (event A)) :=
  guard (forallb (fun v => Nat.eqb (length v) (length u))
           [q_k2 c; q_k3 c; q_k4 c; q_k5 c; q_k6 c; q_k7 c; q_k8 c; q_k9 c; q_k10 c; q_unew c; q_du c]) (
  let du := q_du c in
  (* 20-27 *)
  let y2 := vadd u (vscale (dt * dp8_a21) du) in
  let t2 := t + dp8_c2 * dt in
  let k2' := call_rhs f (q_k2 c) y2 t2 p in
  (* 29-38 *)
  let y3 := vadd u (vscale dt (vadd (vscale dp8_a31 du) (vscale dp8_a32 k2'))) in
  let t3 := t + dp8_c3 * dt in
  let k3' := call_rhs f (q_k3 c) y3 t3 p in
  (* 40-49 *)
  let y4 := vadd u (vscale dt (vadd (vscale dp8_a41 du) (vscale dp8_a43 k3'))) in
  let t4 := t + dp8_c4 * dt in
  let k4' := call_rhs f (q_k4 c) y4 t4 p in
  (* 51-62 *)
  let y5 := vadd u (vscale dt (vadd (vadd (vscale dp8_a51 du) (vscale dp8_a53 k3')) (vscale dp8_a54 k4'))) in
  let t5 := t + dp8_c5 * dt in
  let k5' := call_rhs f (q_k5 c) y5 t5 p in
  (* 64-75 *)
  let y6 := vadd u (vscale dt (vadd (vadd (vscale dp8_a61 du) (vscale dp8_a64 k4')) (vscale dp8_a65 k5'))) in
  let t6 := t + dp8_c6 * dt in
  let k6' := call_rhs f (q_k6 c) y6 t6 p in
  (* 77-89 *)
  let y7 := vadd u (vscale dt (vadd (vadd (vadd (vscale dp8_a71 du) (vscale dp8_a74 k4')) (vscale dp8_a75 k5'))
      (vscale dp8_a76 k6'))) in
  let t7 := t + dp8_c7 * dt in
  let k7' := call_rhs f (q_k7 c) y7 t7 p in
  (* 91-104 *)
  let y8 := vadd u (vscale dt (vadd (vadd (vadd (vadd (vscale dp8_a81 du) (vscale dp8_a84 k4'))
      (vscale dp8_a85 k5')) (vscale dp8_a86 k6')) (vscale dp8_a87 k7'))) in
  let t8 := t + dp8_c8 * dt in
  let k8' := call_rhs f (q_k8 c) y8 t8 p in
  (* 106-120 *)
  let y9 := vadd u (vscale dt (vadd (vadd (vadd (vadd (vadd (vscale dp8_a91 du) (vscale dp8_a94 k4'))
      (vscale dp8_a95 k5')) (vscale dp8_a96 k6')) (vscale dp8_a97 k7')) (vscale dp8_a98 k8'))) in
  let t9 := t + dp8_c9 * dt in
  let k9' := call_rhs f (q_k9 c) y9 t9 p in
  (* 122-137 *)
  let y10 := vadd u (vscale dt (vadd (vadd (vadd (vadd (vadd (vadd (vscale dp8_a101 du) (vscale dp8_a104 k4'))
      (vscale dp8_a105 k5')) (vscale dp8_a106 k6')) (vscale dp8_a107 k7')) (vscale dp8_a108 k8')) (vscale dp8_a109 k9'))) in
  let t10 := t + dp8_c10 * dt in
  let k10' := call_rhs f (q_k10 c) y10 t10 p in
  (* 139-155 *)
  let y11 := vadd u (vscale dt (vadd (vadd (vadd (vadd (vadd (vadd (vadd (vscale dp8_a111 du)
      (vscale dp8_a114 k4')) (vscale dp8_a115 k5')) (vscale dp8_a116 k6')) (vscale dp8_a117 k7'))
      (vscale dp8_a118 k8')) (vscale dp8_a119 k9')) (vscale dp8_a1110 k10'))) in
  let t11 := t + dp8_c11 * dt in
  let k2'' := call_rhs f k2' y11 t11 p in
  (* 157-174 *)
  let y12 := vadd u (vscale dt (vadd (vadd (vadd (vadd (vadd (vadd (vadd (vadd (vscale dp8_a121 du)
      (vscale dp8_a124 k4')) (vscale dp8_a125 k5')) (vscale dp8_a126 k6')) (vscale dp8_a127 k7'))
      (vscale dp8_a128 k8')) (vscale dp8_a129 k9')) (vscale dp8_a1210 k10')) (vscale dp8_a1211 k2''))) in
  let t12 := t + dt in
  let k3'' := call_rhs f k3' y12 t12 p in
  (* 177-186 *)
  let k4'' := vadd (vadd (vadd (vadd (vadd (vadd (vadd (vscale dp8_b1 du) (vscale dp8_b6 k6'))
      (vscale dp8_b7 k7')) (vscale dp8_b8 k8')) (vscale dp8_b9 k9')) (vscale dp8_b10 k10'))
      (vscale dp8_b11 k2'')) (vscale dp8_b12 k3'') in
  (* 187-189 *)
  let k5'' := vadd u (vscale dt k4'') in
  Ok ({| q_k2 := k2''; q_k3 := k3''; q_k4 := k4''; q_k5 := k5''; q_k6 := k6'; q_k7 := k7';
         q_k8 := k8'; q_k9 := k9'; q_k10 := k10'; q_unew := y12; q_du := du |},
      (* 175 *) 11%nat,
      [EvF t2 y2; EvF t3 y3; EvF t4 y4; EvF t5 y5; EvF t6 y6; EvF t7 y7; EvF t8 y8; EvF t9 y9;
       EvF t10 y10; EvF t11 y11; EvF t12 y12])).
End DP8.
