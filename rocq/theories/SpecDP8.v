(** The Butcher tableau of DOP853 (Hairer, Norsett, Wanner, II.5, order 8)
    in decimals, as rationals (numerator, denominator). *)
From Coq Require Import ZArith List Reals.
From Verif Require Import SpecRK.
Import ListNotations.
Local Open Scope Z_scope.

Definition frac : Type := Z * Z.
Definition fracR (q : frac) : R := (IZR (fst q) / IZR (snd q))%R.
(** One row [(c_i, [a_i1; ...; a_i(i-1)])] per stage. *)
Definition dp8_table : list (frac * list frac) :=
  [ ((0, 1), []);
    ((526001519587677318785587544488, 10^31),
      [(526001519587677318785587544488, 10^31)]);
    ((789002279381515978178381316732, 10^31),
      [(197250569845378994544595329183, 10^31); (591751709536136983633785987549, 10^31)]);
    ((118350341907227396726757197510, 10^30),
      [(295875854768068491816892993775, 10^31); (0, 1); (887627564304205475450678981324, 10^31)]);
    ((281649658092772603273242802490, 10^30),
      [(241365134159266685502369798665, 10^30); (0, 1); ((-884549479328286085344864962717), 10^30);
       (924834003261792003115737966543, 10^30)]);
    ((333333333333333333333333333333, 10^30),
      [(37037037037037037037037037037, 10^30); (0, 1); (0, 1); (170828608729473871279604482173, 10^30);
       (125467687566822425016691814123, 10^30)]);
    ((25, 10^2),
      [(37109375, 10^9); (0, 1); (0, 1); (170252211019544039314978060272, 10^30);
       (602165389804559606850219397283, 10^31); ((-17578125), 10^9)]);
    ((307692307692307692307692307692, 10^30),
      [(370920001185047927108779319836, 10^31); (0, 1); (0, 1); (170383925712239993810214054705, 10^30);
       (107262030446373284651809199168, 10^30); ((-153194377486244017527936158236), 10^31);
       (827378916381402288758473766002, 10^32)]);
    ((651282051282051282051282051282, 10^30),
      [(624110958716075717114429577812, 10^30); (0, 1); (0, 1); ((-336089262944694129406857109825), 10^29);
       ((-868219346841726006818189891453), 10^30); (275920996994467083049415600797, 10^28);
       (201540675504778934086186788979, 10^28); ((-434898841810699588477366255144), 10^28)]);
    ((6, 10^1),
      [(477662536438264365890433908527, 10^30); (0, 1); (0, 1); ((-248811461997166764192642586468), 10^29);
       ((-590290826836842996371446475743), 10^30); (212300514481811942347288949897, 10^28);
       (152792336328824235832596922938, 10^28); ((-332882109689848629194453265587), 10^28);
       ((-203312017085086261358222928593), 10^31)]);
    ((857142857142857142857142857142, 10^30),
      [((-93714243008598732571704021658), 10^29); (0, 1); (0, 1); (518637242884406370830023853209, 10^29);
       (109143734899672957818500254654, 10^29); ((-814978701074692612513997267357), 10^29);
       ((-185200656599969598641566180701), 10^28); (227394870993505042818970056734, 10^28);
       (249360555267965238987089396762, 10^29); ((-30467644718982195003823669022), 10^28)]);
    ((1, 1),
      [(227331014751653820792359768449, 10^29); (0, 1); (0, 1); ((-105344954667372501984066689879), 10^28);
       ((-200087205822486249909675718444), 10^29); ((-179589318631187989172765950534), 10^28);
       (279488845294199600508499808837, 10^28); ((-285899827713502369474065508674), 10^29);
       ((-887285693353062954433549289258), 10^29); (123605671757943030647266201528, 10^28);
       (643392746015763530355970484046, 10^30)]) ].
Definition dp8_weights : list frac :=
  [(542937341165687622380535766363, 10^31); (0, 1); (0, 1); (0, 1); (0, 1); (445031289275240888144113950566, 10^29);
       (189151789931450038304281599044, 10^29); ((-58012039600105847814672114227), 10^28);
       (31116436695781989440891606237, 10^29); ((-152160949662516078556178806805), 10^30);
       (201365400804030348374776537501, 10^30); (447106157277725905176885569043, 10^31)].
Definition dp8_err : list frac :=
  [(1312004499419488073250102996, 10^29); (0, 1); (0, 1); (0, 1); (0, 1); ((-1225156446376204440720569753), 10^27);
       ((-4957589496572501915214079952), 10^28); (1664377182454986536961530415, 10^27);
       ((-3503288487499736816886487290), 10^28); (3341791187130174790297318841, 10^28);
       (8192320648511571246570742613, 10^29); ((-2235530786388629525884427845), 10^29)].
Definition dp8_bhh : list frac :=
  [(244094488188976377952755905512, 10^30); (0, 1); (0, 1); (0, 1); (0, 1); (0, 1); (0, 1); (0, 1);
       (733846688281611857341361741547, 10^30); (0, 1); (0, 1); (220588235294117647058823529412, 10^31)].
(** The three extra stages of the continuous extension (stage 13 is the slope at the new point). *)
Definition dp8_extra : list (frac * list frac) :=
  [ ((1, 10^1),
      [(561675022830479523392909219681, 10^31); (0, 1); (0, 1); (0, 1); (0, 1); (0, 1);
       (253500210216624811088794765333, 10^30); ((-246239037470802489917441475441), 10^30);
       ((-124191423263816360469010140626), 10^30); (15329179827876569731206322685, 10^29);
       (820105229563468988491666602057, 10^32); (756789766054569976138603589584, 10^32); ((-8298), 10^6)]);
    ((2, 10^1),
      [(318346481635021405060768473261, 10^31); (0, 1); (0, 1); (0, 1); (0, 1);
       (283009096723667755288322961402, 10^31); (535419883074385676223797384372, 10^31);
       ((-549237485713909884646569340306), 10^31); (0, 1); (0, 1); ((-108347328697249322858509316994), 10^33);
       (382571090835658412954920192323, 10^33); ((-340465008687404560802977114492), 10^33);
       (141312443674632500278074618366, 10^30)]);
    ((777777777777777777777777777778, 10^30),
      [((-428896301583791923408573538692), 10^30); (0, 1); (0, 1); (0, 1); (0, 1);
       ((-469762141536116384314449447206), 10^29); (768342119606259904184240953878, 10^29);
       (406898981839711007970213554331, 10^29); (356727187455281109270669543021, 10^30); (0, 1); (0, 1); (0, 1);
       ((-139902416515901462129418009734), 10^32); (29475147891527723389556272149, 10^28);
       ((-915095847217987001081870187138), 10^29)]) ].

Definition tableR (l : list (frac * list frac)) : tableau := map (fun r => (fracR (fst r), map fracR (snd r))) l.
Definition dp8_rows : tableau := tableR dp8_table.
Definition dp8_b : list R := map fracR dp8_weights.
