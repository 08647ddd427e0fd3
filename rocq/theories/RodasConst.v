(** Model of src/rodas/constants.rs:4-49, one definition per constant (the line
    is given behind each).  No function of the crate reads them. *)
From Coq Require Import ZArith.
From Verif Require Import Arith.

Section RodasConst.
Context {A : arith}.
Definition roC2 := lit A 386 1000. (* 4 *)
Definition roC3 := lit A 21 100. (* 5 *)
Definition roC4 := lit A 63 100. (* 6 *)
Definition roBET2P := lit A 317 10000. (* 7 *)
Definition roBET3P := lit A 635 10000. (* 8 *)
Definition roBET4P := lit A 3438 10000. (* 9 *)
Definition roD1 := lit A 25 100. (* 10 *)
Definition roD2 := lit A (-1043) 10000. (* 11 *)
Definition roD3 := lit A 1035 10000. (* 12 *)
Definition roD4 := lit A (-3620000000000023) 100000000000000000. (* 13 *)
Definition roA21 := lit A 1544 1000. (* 14 *)
Definition roA31 := lit A 9466785280815826 10000000000000000. (* 15 *)
Definition roA32 := lit A 2557011698983284 10000000000000000. (* 16 *)
Definition roA41 := lit A 3314825187068521 1000000000000000. (* 17 *)
Definition roA42 := lit A 2896124015972201 1000000000000000. (* 18 *)
Definition roA43 := lit A 9986419139977817 10000000000000000. (* 19 *)
Definition roA51 := lit A 1221224509226641 1000000000000000. (* 20 *)
Definition roA52 := lit A 6019134481288629 1000000000000000. (* 21 *)
Definition roA53 := lit A 1253708332932087 100000000000000. (* 22 *)
Definition roA54 := lit A (-687886036105895) 1000000000000000. (* 23 *)
Definition roC21 := lit A (-56688) 10000. (* 24 *)
Definition roC31 := lit A (-2430093356833875) 1000000000000000. (* 25 *)
Definition roC32 := lit A (-2063599157091915) 10000000000000000. (* 26 *)
Definition roC41 := lit A (-1073529058151375) 10000000000000000. (* 27 *)
Definition roC42 := lit A (-9594562251023355) 1000000000000000. (* 28 *)
Definition roC43 := lit A (-2047028614809616) 100000000000000. (* 29 *)
Definition roC51 := lit A 7496443313967647 1000000000000000. (* 30 *)
Definition roC52 := lit A (-1024680431464352) 100000000000000. (* 31 *)
Definition roC53 := lit A (-3399990352819905) 100000000000000. (* 32 *)
Definition roC54 := lit A 117089089320616 10000000000000. (* 33 *)
Definition roC61 := lit A 8083246795921522 1000000000000000. (* 34 *)
Definition roC62 := lit A (-7981132988064893) 1000000000000000. (* 35 *)
Definition roC63 := lit A (-3152159432874371) 100000000000000. (* 36 *)
Definition roC64 := lit A 1631930543123136 100000000000000. (* 37 *)
Definition roC65 := lit A (-6058818238834054) 1000000000000000. (* 38 *)
Definition roGAMMA := lit A 25 100. (* 39 *)
Definition roD21 := lit A 1012623508344586 100000000000000. (* 40 *)
Definition roD22 := lit A (-7487995877610167) 1000000000000000. (* 41 *)
Definition roD23 := lit A (-3480091861555747) 100000000000000. (* 42 *)
Definition roD24 := lit A (-7992771707568823) 1000000000000000. (* 43 *)
Definition roD25 := lit A 1025137723295662 1000000000000000. (* 44 *)
Definition roD31 := lit A (-6762803392801253) 10000000000000000. (* 45 *)
Definition roD32 := lit A 6087714651680015 1000000000000000. (* 46 *)
Definition roD33 := lit A 1643084320892478 100000000000000. (* 47 *)
Definition roD34 := lit A 2476722511418386 100000000000000. (* 48 *)
Definition roD35 := lit A (-6594389125716872) 1000000000000000. (* 49 *)
End RodasConst.
