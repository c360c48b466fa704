(* GENERATED by tools/gen_tables.py from /repo/src/gerg2008.rs -- constant data only.
   A decimal literal such as 0.153_832_6 is written L 1538326 (-7), i.e. m * 10^e. *)
From Coq Require Import ZArith List.
From Verif Require Import FArith.
Import ListNotations.
Local Open Scope Z_scope.

(* src/gerg2008.rs:15-37  const MMI_GERG *)
Definition G_MMI_GERG : list lit :=
  [L 0 0; L 1604246 (-5); L 280134 (-4); L 440095 (-4); L 3006904 (-5); L 4409562 (-5);
   L 581222 (-4); L 581222 (-4); L 7214878 (-5); L 7214878 (-5); L 8617536 (-5); L 10020194 (-5);
   L 11422852 (-5); L 1282551 (-4); L 14228168 (-5); L 201588 (-5); L 319988 (-4); L 280101 (-4);
   L 1801528 (-5); L 3408088 (-5); L 4002602 (-6); L 39948 (-3)].

(* src/gerg2008.rs:39-41  const KPOL *)
Definition G_KPOL : list nat :=
  [0; 6; 6; 4; 6; 6; 6; 6; 6; 6; 6; 6; 6; 6; 6; 5; 6; 6; 7; 6; 4; 6]%nat.

(* src/gerg2008.rs:43-45  const KEXP *)
Definition G_KEXP : list nat :=
  [0; 18; 18; 18; 18; 6; 6; 6; 6; 6; 6; 6; 6; 6; 6; 9; 6; 6; 9; 6; 8; 6]%nat.

(* src/gerg2008.rs:47-47  const KPOLIJ *)
Definition G_KPOLIJ : list nat :=
  [0; 2; 5; 2; 3; 2; 3; 4; 6; 6; 10]%nat.

(* src/gerg2008.rs:49-49  const KEXPIJ *)
Definition G_KEXPIJ : list nat :=
  [0; 10; 4; 7; 3; 4; 3; 0; 6; 6; 0]%nat.

(* src/gerg2008.rs:52-75  const DC *)
Definition G_DC : list lit :=
  [L 0 0; L 10139342719 (-9); L 111839 (-4); L 10624978698 (-9); L 687085454 (-8);
   L 5000043088 (-9); L 386014294 (-8); L 3920016792 (-9); L 3271 (-3); L 3215577588 (-9);
   L 2705877875 (-9); L 2315324434 (-9); L 2056404127 (-9); L 181 (-2); L 164 (-2); L 1494 (-2);
   L 1363 (-2); L 1085 (-2); L 1787371609 (-8); L 1019 (-2); L 17399 (-3); L 13407429659 (-9)].

(* src/gerg2008.rs:78-81  const TC *)
Definition G_TC : list lit :=
  [L 0 0; L 190564 (-3); L 126192 (-3); L 3041282 (-4); L 305322 (-3); L 369825 (-3);
   L 407817 (-3); L 425125 (-3); L 46035 (-2); L 4697 (-1); L 50782 (-2); L 54013 (-2);
   L 56932 (-2); L 59455 (-2); L 6177 (-1); L 3319 (-2); L 154595 (-3); L 13286 (-2);
   L 647096 (-3); L 3731 (-1); L 51953 (-4); L 150687 (-3)].

(* src/gerg2008.rs:83-655  const NOIK *)
Definition G_NOIK : list (list lit) :=
  [[L 0 0; L 0 0; L 0 0; L 0 0; L 0 0; L 0 0; L 0 0; L 0 0; L 0 0; L 0 0; L 0 0; L 0 0; L 0 0;
    L 0 0; L 0 0; L 0 0; L 0 0; L 0 0; L 0 0; L 0 0; L 0 0; L 0 0; L 0 0; L 0 0; L 0 0];
   [L 0 0; L 57335704239162 (-14); L (-1676068752373) (-12); L 23405291834916 (-14);
    L (-21947376343441) (-14); L 16369201404128 (-15); L 1500440638928 (-14);
    L 98990489492918 (-15); L 58382770929055 (-14); L (-7478686756039) (-13);
    L 30033302857974 (-14); L 20985543806568 (-14); L (-18590151133061) (-15);
    L (-15782558339049) (-14); L 12716735220791 (-14); L (-32019743894346) (-15);
    L (-68049729364536) (-15); L 24291412853736 (-15); L 51440451639444 (-16);
    L (-19084949733532) (-15); L 55229677241291 (-16); L (-44197392976085) (-16);
    L 40061416708429 (-15); L (-33752085907575) (-15); L (-25127658213357) (-16)];
   [L 0 0; L 59889711801201 (-14); L (-16941557480731) (-13); L 24579736191718 (-14);
    L (-23722456755175) (-14); L 17954918715141 (-15); L 14592875720215 (-15);
    L 10008065936206 (-14); L 7315711538553 (-13); L (-88372272336366) (-14);
    L 31887660246708 (-14); L 20766491728799 (-14); L (-19379315454158) (-15);
    L (-16936641554983) (-14); L 13546846041701 (-14); L (-33066712095307) (-15);
    L (-60690817018557) (-15); L 12797548292871 (-15); L 58743664107299 (-16);
    L (-18451951971969) (-15); L 47226622042472 (-16); L (-52024079680599) (-16);
    L 43563505956635 (-15); L (-36251690750939) (-15); L (-28974026866543) (-16)];
   [L 0 0; L 52646564804653 (-14); L (-14995725042592) (-13); L 27329786733782 (-14);
    L 12949500022786 (-14); L 15404088341841 (-14); L (-58186950946814) (-14);
    L (-18022494838296) (-14); L (-95389904072812) (-15); L (-80486819317679) (-16);
    L (-3554775127309) (-14); L (-28079014882405) (-14); L (-82435890081677) (-15);
    L 10832427979006 (-15); L (-67073993161097) (-16); L (-46827907600524) (-16);
    L (-28359911832177) (-15); L 19500174744098 (-15); L (-21609137507166) (-14);
    L 43772794926972 (-14); L (-22130790113593) (-14); L 15190189957331 (-15);
    L (-153809489533) (-13); L 0 0; L 0 0];
   [L 0 0; L 63596780450714 (-14); L (-17377981785459) (-13); L 28914060926272 (-14);
    L (-33714276845694) (-14); L 22405964699561 (-15); L 15715424886913 (-15);
    L 11450634253745 (-14); L 10612049379745 (-13); L (-12855224439423) (-13);
    L 39414630777652 (-14); L 31390924682041 (-14); L (-21592277117247) (-15);
    L (-21723666564905) (-14); L (-28999574439489) (-14); L 4232117302573 (-13);
    L 4643410025926 (-14); L (-13138398329741) (-14); L 11492850364368 (-15);
    L (-33387688429909) (-15); L 15183171583644 (-15); L (-47610805647657) (-16);
    L 46917166277885 (-15); L (-39401755804649) (-15); L (-32569956247611) (-16)];
   [L 0 0; L 10403973107358 (-13); L (-28318404081403) (-13); L 84393809606294 (-14);
    L (-76559591850023) (-15); L 9469737305728 (-14); L 24796475497006 (-17);
    L 2774376042287 (-13); L (-43846000648377) (-15); L (-2699106478435) (-13);
    L (-6931341308986) (-14); L (-29632145981653) (-15); L 1404012675138 (-14); L 0 0; L 0 0;
    L 0 0; L 0 0; L 0 0; L 0 0; L 0 0; L 0 0; L 0 0; L 0 0; L 0 0; L 0 0];
   [L 0 0; L 104293315891 (-11); L (-28184272548892) (-13); L 8617623239785 (-13);
    L (-10613619452487) (-14); L 98615749302134 (-15); L 23948208682322 (-17);
    L 3033000485695 (-13); L (-41598156135099) (-15); L (-29991937470058) (-14);
    L (-80369342764109) (-15); L (-29761373251151) (-15); L 1305963030314 (-14); L 0 0; L 0 0;
    L 0 0; L 0 0; L 0 0; L 0 0; L 0 0; L 0 0; L 0 0; L 0 0; L 0 0; L 0 0];
   [L 0 0; L 10626277411455 (-13); L (-2862095182835) (-12); L 88738233403777 (-14);
    L (-12570581155345) (-14); L 10286308708106 (-14); L 25358040602654 (-17);
    L 32325200233982 (-14); L (-37950761057432) (-15); L (-32534802014452) (-14);
    L (-79050969051011) (-15); L (-20636720547775) (-15); L 5705380933475 (-15); L 0 0; L 0 0;
    L 0 0; L 0 0; L 0 0; L 0 0; L 0 0; L 0 0; L 0 0; L 0 0; L 0 0; L 0 0];
   [L 0 0; L 10963 (-4); L (-30402) (-4); L 10317 (-4); L (-1541) (-4); L 11535 (-5); L 29809 (-8);
    L 39571 (-5); L (-45881) (-6); L (-35804) (-5); L (-10107) (-5); L (-35484) (-6); L 18156 (-6);
    L 0 0; L 0 0; L 0 0; L 0 0; L 0 0; L 0 0; L 0 0; L 0 0; L 0 0; L 0 0; L 0 0; L 0 0];
   [L 0 0; L 10968643098001 (-13); L (-29988888298061) (-13); L 99516886799212 (-14);
    L (-16170708558539) (-14); L 11334460072775 (-14); L 26760595150748 (-17);
    L 40979881986931 (-14); L (-40876423083075) (-15); L (-38169482469447) (-14);
    L (-10931956843993) (-14); L (-3207322332799) (-14); L 16877016216975 (-15); L 0 0; L 0 0;
    L 0 0; L 0 0; L 0 0; L 0 0; L 0 0; L 0 0; L 0 0; L 0 0; L 0 0; L 0 0];
   [L 0 0; L 10553238013661 (-13); L (-26120615890629) (-13); L 7661388296726 (-13);
    L (-29770320622459) (-14); L 11879907733358 (-14); L 27922861062617 (-17);
    L 46347589844105 (-14); L 11433196980297 (-15); L (-48256968738131) (-14);
    L (-93750558924659) (-15); L (-67273247155994) (-16); L (-51141583585428) (-16); L 0 0; L 0 0;
    L 0 0; L 0 0; L 0 0; L 0 0; L 0 0; L 0 0; L 0 0; L 0 0; L 0 0; L 0 0];
   [L 0 0; L 10543747645262 (-13); L (-26500681506144) (-13); L 81730047827543 (-14);
    L (-30451391253428) (-14); L 122538687108 (-12); L 27266472743928 (-17); L 4986582568167 (-13);
    L (-71432815084176) (-17); L (-5423689552545) (-13); L (-13801821610756) (-14);
    L (-61595287380011) (-16); L 48602510393022 (-17); L 0 0; L 0 0; L 0 0; L 0 0; L 0 0; L 0 0;
    L 0 0; L 0 0; L 0 0; L 0 0; L 0 0; L 0 0];
   [L 0 0; L 10722544875633 (-13); L (-24632951172003) (-13); L 65386674054928 (-14);
    L (-36324974085628) (-14); L 1271326962676 (-13); L 3071357277793 (-16); L 5265685698754 (-13);
    L 19362862857653 (-15); L (-58939426849155) (-14); L (-14069963991934) (-14);
    L (-78966330500036) (-16); L 33036597968109 (-16); L 0 0; L 0 0; L 0 0; L 0 0; L 0 0; L 0 0;
    L 0 0; L 0 0; L 0 0; L 0 0; L 0 0; L 0 0];
   [L 0 0; L 11151 (-4); L (-2702) (-3); L 83416 (-5); L (-38828) (-5); L 1376 (-4); L 28185 (-8);
    L 62037 (-5); L 15847 (-6); L (-61726) (-5); L (-15043) (-5); L (-12982) (-6); L 44325 (-7);
    L 0 0; L 0 0; L 0 0; L 0 0; L 0 0; L 0 0; L 0 0; L 0 0; L 0 0; L 0 0; L 0 0; L 0 0];
   [L 0 0; L 10461 (-4); L (-24807) (-4); L 74372 (-5); L (-52579) (-5); L 15315 (-5);
    L 32865 (-8); L 84178 (-5); L 55424 (-6); L (-73555) (-5); L (-18507) (-5); L (-20775) (-6);
    L 12335 (-6); L 0 0; L 0 0; L 0 0; L 0 0; L 0 0; L 0 0; L 0 0; L 0 0; L 0 0; L 0 0; L 0 0;
    L 0 0];
   [L 0 0; L 53579928451252 (-13); L (-62050252530595) (-13); L 13830241327086 (-14);
    L (-71397954896129) (-15); L 15474053959733 (-15); L (-14976806405771) (-14);
    L (-26368723988451) (-15); L 56681303156066 (-15); L (-60063958030436) (-15);
    L (-4504394202713) (-13); L 424788402445 (-12); L (-21997640827139) (-15);
    L (-1049952137453) (-14); L (-28955902866816) (-16); L 0 0; L 0 0; L 0 0; L 0 0; L 0 0; L 0 0;
    L 0 0; L 0 0; L 0 0; L 0 0];
   [L 0 0; L 88878286369701 (-14); L (-24879433312148) (-13); L 59750190775886 (-14);
    L 96501817061881 (-16); L 7197042871277 (-14); L 22337443000195 (-17); L 18558686391474 (-14);
    L (-3812936803576) (-14); L (-15352245383006) (-14); L (-26726814910919) (-15);
    L (-25675298677127) (-15); L 95714302123668 (-16); L 0 0; L 0 0; L 0 0; L 0 0; L 0 0; L 0 0;
    L 0 0; L 0 0; L 0 0; L 0 0; L 0 0; L 0 0];
   [L 0 0; L 90554 (-5); L (-24515) (-4); L 53149 (-5); L 24173 (-6); L 72156 (-6); L 18818 (-8);
    L 19405 (-5); L (-43268) (-6); L (-12778) (-5); L (-27896) (-6); L (-34154) (-6); L 16329 (-6);
    L 0 0; L 0 0; L 0 0; L 0 0; L 0 0; L 0 0; L 0 0; L 0 0; L 0 0; L 0 0; L 0 0; L 0 0];
   [L 0 0; L 82728408749586 (-14); L (-18602220416584) (-13); L (-11199009613744) (-13);
    L 15635753976056 (-14); L 87375844859025 (-14); L (-36674403715731) (-14);
    L 53987893432436 (-15); L 10957690214499 (-13); L 53213037828563 (-15); L 13050533930825 (-15);
    L (-41079520434476) (-14); L 1463744334412 (-13); L (-55726838623719) (-15);
    L (-112017741438) (-13); L (-66062758068099) (-16); L 46918522004538 (-16); L 0 0; L 0 0;
    L 0 0; L 0 0; L 0 0; L 0 0; L 0 0; L 0 0];
   [L 0 0; L 87641 (-5); L (-20367) (-4); L 21634 (-5); L (-50199) (-6); L 66994 (-6);
    L 19076 (-8); L 20227 (-5); L (-45348) (-7); L (-2223) (-4); L (-34714) (-6); L (-14885) (-6);
    L 74154 (-7); L 0 0; L 0 0; L 0 0; L 0 0; L 0 0; L 0 0; L 0 0; L 0 0; L 0 0; L 0 0; L 0 0;
    L 0 0];
   [L 0 0; L (-45579024006737) (-14); L 12516390754925 (-13); L (-15438231650621) (-13);
    L 20467489707221 (-15); L (-34476212380781) (-14); L (-20858459512787) (-15);
    L 16227414711778 (-15); L (-57471818200892) (-15); L 19462416430715 (-15);
    L (-3329568012302) (-14); L (-10863577372367) (-15); L (-22173365245954) (-15); L 0 0; L 0 0;
    L 0 0; L 0 0; L 0 0; L 0 0; L 0 0; L 0 0; L 0 0; L 0 0; L 0 0; L 0 0];
   [L 0 0; L 85095714803969 (-14); L (-2400322294348) (-12); L 54127841476466 (-14);
    L 16919770692538 (-15); L 68825965019035 (-15); L 21428032815338 (-17); L 17429895321992 (-14);
    L (-33654495604194) (-15); L (-13526799857691) (-14); L (-16387350791552) (-15);
    L (-24987666851475) (-15); L 88769204815709 (-16); L 0 0; L 0 0; L 0 0; L 0 0; L 0 0; L 0 0;
    L 0 0; L 0 0; L 0 0; L 0 0; L 0 0; L 0 0]].

(* src/gerg2008.rs:657-846  const FIJ *)
Definition G_FIJ : list (list lit) :=
  [[L 0 0; L 0 0; L 0 0; L 0 0; L 0 0; L 0 0; L 0 0; L 0 0; L 0 0; L 0 0; L 0 0; L 0 0; L 0 0;
    L 0 0; L 0 0; L 0 0; L 0 0; L 0 0; L 0 0; L 0 0; L 0 0; L 0 0];
   [L 0 0; L 0 0; L 1 0; L 1 0; L 1 0; L 1 0; L 771035405688 (-12); L 1 0; L 0 0; L 0 0; L 0 0;
    L 0 0; L 0 0; L 0 0; L 0 0; L 1 0; L 0 0; L 0 0; L 0 0; L 0 0; L 0 0; L 0 0];
   [L 0 0; L 1 0; L 0 0; L 1 0; L 1 0; L 0 0; L 0 0; L 0 0; L 0 0; L 0 0; L 0 0; L 0 0; L 0 0;
    L 0 0; L 0 0; L 0 0; L 0 0; L 0 0; L 0 0; L 0 0; L 0 0; L 0 0];
   [L 0 0; L 1 0; L 1 0; L 0 0; L 0 0; L 0 0; L 0 0; L 0 0; L 0 0; L 0 0; L 0 0; L 0 0; L 0 0;
    L 0 0; L 0 0; L 0 0; L 0 0; L 0 0; L 0 0; L 0 0; L 0 0; L 0 0];
   [L 0 0; L 1 0; L 1 0; L 0 0; L 0 0; L 13042476515 (-11); L 260632376098 (-12);
    L 281570073085 (-12); L 0 0; L 0 0; L 0 0; L 0 0; L 0 0; L 0 0; L 0 0; L 0 0; L 0 0; L 0 0;
    L 0 0; L 0 0; L 0 0; L 0 0];
   [L 0 0; L 1 0; L 0 0; L 0 0; L 13042476515 (-11); L 0 0; L (-551609771024) (-13);
    L 312572600489 (-13); L 0 0; L 0 0; L 0 0; L 0 0; L 0 0; L 0 0; L 0 0; L 0 0; L 0 0; L 0 0;
    L 0 0; L 0 0; L 0 0; L 0 0];
   [L 0 0; L 771035405688 (-12); L 0 0; L 0 0; L 260632376098 (-12); L (-551609771024) (-13);
    L 0 0; L (-551240293009) (-13); L 0 0; L 0 0; L 0 0; L 0 0; L 0 0; L 0 0; L 0 0; L 0 0; L 0 0;
    L 0 0; L 0 0; L 0 0; L 0 0; L 0 0];
   [L 0 0; L 1 0; L 0 0; L 0 0; L 281570073085 (-12); L 312572600489 (-13);
    L (-551240293009) (-13); L 0 0; L 0 0; L 0 0; L 0 0; L 0 0; L 0 0; L 0 0; L 0 0; L 0 0; L 0 0;
    L 0 0; L 0 0; L 0 0; L 0 0; L 0 0];
   [L 0 0; L 0 0; L 0 0; L 0 0; L 0 0; L 0 0; L 0 0; L 0 0; L 0 0; L 0 0; L 0 0; L 0 0; L 0 0;
    L 0 0; L 0 0; L 0 0; L 0 0; L 0 0; L 0 0; L 0 0; L 0 0; L 0 0];
   [L 0 0; L 0 0; L 0 0; L 0 0; L 0 0; L 0 0; L 0 0; L 0 0; L 0 0; L 0 0; L 0 0; L 0 0; L 0 0;
    L 0 0; L 0 0; L 0 0; L 0 0; L 0 0; L 0 0; L 0 0; L 0 0; L 0 0];
   [L 0 0; L 0 0; L 0 0; L 0 0; L 0 0; L 0 0; L 0 0; L 0 0; L 0 0; L 0 0; L 0 0; L 0 0; L 0 0;
    L 0 0; L 0 0; L 0 0; L 0 0; L 0 0; L 0 0; L 0 0; L 0 0; L 0 0];
   [L 0 0; L 0 0; L 0 0; L 0 0; L 0 0; L 0 0; L 0 0; L 0 0; L 0 0; L 0 0; L 0 0; L 0 0; L 0 0;
    L 0 0; L 0 0; L 0 0; L 0 0; L 0 0; L 0 0; L 0 0; L 0 0; L 0 0];
   [L 0 0; L 0 0; L 0 0; L 0 0; L 0 0; L 0 0; L 0 0; L 0 0; L 0 0; L 0 0; L 0 0; L 0 0; L 0 0;
    L 0 0; L 0 0; L 0 0; L 0 0; L 0 0; L 0 0; L 0 0; L 0 0; L 0 0];
   [L 0 0; L 0 0; L 0 0; L 0 0; L 0 0; L 0 0; L 0 0; L 0 0; L 0 0; L 0 0; L 0 0; L 0 0; L 0 0;
    L 0 0; L 0 0; L 0 0; L 0 0; L 0 0; L 0 0; L 0 0; L 0 0; L 0 0];
   [L 0 0; L 0 0; L 0 0; L 0 0; L 0 0; L 0 0; L 0 0; L 0 0; L 0 0; L 0 0; L 0 0; L 0 0; L 0 0;
    L 0 0; L 0 0; L 0 0; L 0 0; L 0 0; L 0 0; L 0 0; L 0 0; L 0 0];
   [L 0 0; L 1 0; L 0 0; L 0 0; L 0 0; L 0 0; L 0 0; L 0 0; L 0 0; L 0 0; L 0 0; L 0 0; L 0 0;
    L 0 0; L 0 0; L 0 0; L 0 0; L 0 0; L 0 0; L 0 0; L 0 0; L 0 0];
   [L 0 0; L 0 0; L 0 0; L 0 0; L 0 0; L 0 0; L 0 0; L 0 0; L 0 0; L 0 0; L 0 0; L 0 0; L 0 0;
    L 0 0; L 0 0; L 0 0; L 0 0; L 0 0; L 0 0; L 0 0; L 0 0; L 0 0];
   [L 0 0; L 0 0; L 0 0; L 0 0; L 0 0; L 0 0; L 0 0; L 0 0; L 0 0; L 0 0; L 0 0; L 0 0; L 0 0;
    L 0 0; L 0 0; L 0 0; L 0 0; L 0 0; L 0 0; L 0 0; L 0 0; L 0 0];
   [L 0 0; L 0 0; L 0 0; L 0 0; L 0 0; L 0 0; L 0 0; L 0 0; L 0 0; L 0 0; L 0 0; L 0 0; L 0 0;
    L 0 0; L 0 0; L 0 0; L 0 0; L 0 0; L 0 0; L 0 0; L 0 0; L 0 0];
   [L 0 0; L 0 0; L 0 0; L 0 0; L 0 0; L 0 0; L 0 0; L 0 0; L 0 0; L 0 0; L 0 0; L 0 0; L 0 0;
    L 0 0; L 0 0; L 0 0; L 0 0; L 0 0; L 0 0; L 0 0; L 0 0; L 0 0];
   [L 0 0; L 0 0; L 0 0; L 0 0; L 0 0; L 0 0; L 0 0; L 0 0; L 0 0; L 0 0; L 0 0; L 0 0; L 0 0;
    L 0 0; L 0 0; L 0 0; L 0 0; L 0 0; L 0 0; L 0 0; L 0 0; L 0 0];
   [L 0 0; L 0 0; L 0 0; L 0 0; L 0 0; L 0 0; L 0 0; L 0 0; L 0 0; L 0 0; L 0 0; L 0 0; L 0 0;
    L 0 0; L 0 0; L 0 0; L 0 0; L 0 0; L 0 0; L 0 0; L 0 0; L 0 0]].

(* src/gerg2008.rs:848-915  const MNUMB *)
Definition G_MNUMB : list (list nat) :=
  [[0; 0; 0; 0; 0; 0; 0; 0; 0; 0; 0; 0; 0; 0; 0; 0; 0; 0; 0; 0; 0; 0];
   [0; 0; 3; 4; 1; 2; 10; 10; 0; 0; 0; 0; 0; 0; 0; 7; 0; 0; 0; 0; 0; 0];
   [0; 0; 0; 5; 6; 0; 0; 0; 0; 0; 0; 0; 0; 0; 0; 0; 0; 0; 0; 0; 0; 0];
   [0; 0; 0; 0; 0; 0; 0; 0; 0; 0; 0; 0; 0; 0; 0; 0; 0; 0; 0; 0; 0; 0];
   [0; 0; 0; 0; 0; 10; 10; 10; 0; 0; 0; 0; 0; 0; 0; 0; 0; 0; 0; 0; 0; 0];
   [0; 0; 0; 0; 0; 0; 10; 10; 0; 0; 0; 0; 0; 0; 0; 0; 0; 0; 0; 0; 0; 0];
   [0; 0; 0; 0; 0; 0; 0; 10; 0; 0; 0; 0; 0; 0; 0; 0; 0; 0; 0; 0; 0; 0];
   [0; 0; 0; 0; 0; 0; 0; 0; 0; 0; 0; 0; 0; 0; 0; 0; 0; 0; 0; 0; 0; 0];
   [0; 0; 0; 0; 0; 0; 0; 0; 0; 0; 0; 0; 0; 0; 0; 0; 0; 0; 0; 0; 0; 0];
   [0; 0; 0; 0; 0; 0; 0; 0; 0; 0; 0; 0; 0; 0; 0; 0; 0; 0; 0; 0; 0; 0];
   [0; 0; 0; 0; 0; 0; 0; 0; 0; 0; 0; 0; 0; 0; 0; 0; 0; 0; 0; 0; 0; 0];
   [0; 0; 0; 0; 0; 0; 0; 0; 0; 0; 0; 0; 0; 0; 0; 0; 0; 0; 0; 0; 0; 0];
   [0; 0; 0; 0; 0; 0; 0; 0; 0; 0; 0; 0; 0; 0; 0; 0; 0; 0; 0; 0; 0; 0];
   [0; 0; 0; 0; 0; 0; 0; 0; 0; 0; 0; 0; 0; 0; 0; 0; 0; 0; 0; 0; 0; 0];
   [0; 0; 0; 0; 0; 0; 0; 0; 0; 0; 0; 0; 0; 0; 0; 0; 0; 0; 0; 0; 0; 0];
   [0; 0; 0; 0; 0; 0; 0; 0; 0; 0; 0; 0; 0; 0; 0; 0; 0; 0; 0; 0; 0; 0];
   [0; 0; 0; 0; 0; 0; 0; 0; 0; 0; 0; 0; 0; 0; 0; 0; 0; 0; 0; 0; 0; 0];
   [0; 0; 0; 0; 0; 0; 0; 0; 0; 0; 0; 0; 0; 0; 0; 0; 0; 0; 0; 0; 0; 0];
   [0; 0; 0; 0; 0; 0; 0; 0; 0; 0; 0; 0; 0; 0; 0; 0; 0; 0; 0; 0; 0; 0];
   [0; 0; 0; 0; 0; 0; 0; 0; 0; 0; 0; 0; 0; 0; 0; 0; 0; 0; 0; 0; 0; 0];
   [0; 0; 0; 0; 0; 0; 0; 0; 0; 0; 0; 0; 0; 0; 0; 0; 0; 0; 0; 0; 0; 0];
   [0; 0; 0; 0; 0; 0; 0; 0; 0; 0; 0; 0; 0; 0; 0; 0; 0; 0; 0; 0; 0; 0]]%nat.

(* src/gerg2008.rs:917-940  const TH0I *)
Definition G_TH0I : list (list lit) :=
  [[L 0 0; L 0 0; L 0 0; L 0 0; L 0 0; L 0 0; L 0 0; L 0 0];
   [L 0 0; L 0 0; L 0 0; L 0 0; L 820659 (-3); L 17841 (-2); L 106282 (-2); L 109053 (-2)];
   [L 0 0; L 0 0; L 0 0; L 0 0; L 662738 (-3); L 680562 (-3); L 174006 (-2); L 0 0];
   [L 0 0; L 0 0; L 0 0; L 0 0; L 919306 (-3); L 86507 (-2); L 483553 (-3); L 341109 (-3)];
   [L 0 0; L 0 0; L 0 0; L 0 0; L 559314 (-3); L 223284 (-3); L 103138 (-2); L 107129 (-2)];
   [L 0 0; L 0 0; L 0 0; L 0 0; L 479856 (-3); L 200893 (-3); L 955312 (-3); L 102729 (-2)];
   [L 0 0; L 0 0; L 0 0; L 0 0; L 43827 (-2); L 198018 (-3); L 190502 (-2); L 893765 (-3)];
   [L 0 0; L 0 0; L 0 0; L 0 0; L 46827 (-2); L 183636 (-3); L 19141 (-1); L 903185 (-3)];
   [L 0 0; L 0 0; L 0 0; L 0 0; L 292503 (-3); L 910237 (-3); L 191937 (-2); L 0 0];
   [L 0 0; L 0 0; L 0 0; L 0 0; L 17867 (-2); L 840538 (-3); L 177425 (-2); L 0 0];
   [L 0 0; L 0 0; L 0 0; L 0 0; L 182326 (-3); L 859207 (-3); L 182659 (-2); L 0 0];
   [L 0 0; L 0 0; L 0 0; L 0 0; L 169789 (-3); L 836195 (-3); L 176046 (-2); L 0 0];
   [L 0 0; L 0 0; L 0 0; L 0 0; L 158922 (-3); L 815064 (-3); L 169307 (-2); L 0 0];
   [L 0 0; L 0 0; L 0 0; L 0 0; L 156854 (-3); L 814882 (-3); L 169379 (-2); L 0 0];
   [L 0 0; L 0 0; L 0 0; L 0 0; L 164947 (-3); L 836264 (-3); L 175024 (-2); L 0 0];
   [L 0 0; L 0 0; L 0 0; L 0 0; L 228734 (-3); L 326843 (-3); L 165171 (-2); L 167169 (-2)];
   [L 0 0; L 0 0; L 0 0; L 0 0; L 223571 (-2); L 111669 (-2); L 0 0; L 0 0];
   [L 0 0; L 0 0; L 0 0; L 0 0; L 155045 (-2); L 704525 (-3); L 0 0; L 0 0];
   [L 0 0; L 0 0; L 0 0; L 0 0; L 268795 (-3); L 114141 (-2); L 250737 (-2); L 0 0];
   [L 0 0; L 0 0; L 0 0; L 0 0; L 183363 (-2); L 847181 (-3); L 0 0; L 0 0];
   [L 0 0; L 0 0; L 0 0; L 0 0; L 0 0; L 0 0; L 0 0; L 0 0];
   [L 0 0; L 0 0; L 0 0; L 0 0; L 0 0; L 0 0; L 0 0; L 0 0]].

(* src/gerg2008.rs:942-1451  const GVIJ *)
Definition G_GVIJ : list (list lit) :=
  [[L 0 0; L 0 0; L 0 0; L 0 0; L 0 0; L 0 0; L 0 0; L 0 0; L 0 0; L 0 0; L 0 0; L 0 0; L 0 0;
    L 0 0; L 0 0; L 0 0; L 0 0; L 0 0; L 0 0; L 0 0; L 0 0; L 0 0];
   [L 0 0; L 9862572236818776 (-17); L 9513349381203616 (-17); L 9657806584344247 (-17);
    L 1210671509816274 (-16); L 1496295609028296 (-16); L 1771428785314997 (-16);
    L 1685495717670535 (-16); L 2460237594565183 (-16); L 1972463440401667 (-16);
    L 206928570333252 (-15); L 2512860961209341 (-16); L 2701209697928585 (-16);
    L 3020114236037432 (-16); L 3327219269040879 (-16); L 8328832937418065 (-17);
    L 8537493536985147 (-17); L 9568618815465649 (-17); L 1208496662482664 (-16);
    L 1036207282348787 (-16); L 6717043597788004 (-17); L 9033331649375066 (-17)];
   [L 0 0; L 0 0; L 8941424726615939 (-17); L 9397687829062652 (-17); L 1175526942735744 (-16);
    L 1447081157080465 (-16); L 1731619818556942 (-16); L 1805874048709332 (-16);
    L 2031326998193614 (-16); L 191849542767128 (-15); L 2362476311788352 (-16);
    L 30571300744063 (-14); L 2782798185876332 (-16); L 2802418897681576 (-16);
    L 2715600589941661 (-16); L 7324400476454085 (-17); L 8085121603361749 (-17);
    L 91572113755441 (-15); L 781420148998483 (-16); L 10722200877353 (-14);
    L 6534763314144051 (-17); L 8229830577332384 (-17)];
   [L 0 0; L 0 0; L 0 0; L 941178357551188 (-16); L 1221547048657018 (-16);
    L 1467060312284717 (-16); L 1897682438758877 (-16); L 2318873802147639 (-16);
    L 2128409304803593 (-16); L 1986348078947102 (-16); L 1715344317248116 (-16);
    L 3114753052840692 (-16); L 270827762158326 (-15); L 2524424963135926 (-16);
    L 3271836340748599 (-16); L 8312842489959818 (-17); L 8331251635442594 (-17);
    L 9313845825829596 (-17); L 1074203548558978 (-16); L 8923746160027898 (-17);
    L 5435734042129235 (-17); L 8715125587655904 (-17)];
   [L 0 0; L 0 0; L 0 0; L 0 0; L 1455423039708246 (-16); L 17143936567431 (-14);
    L 1981818039904798 (-16); L 1962684451208782 (-16); L 2256296051472722 (-16);
    L 2222156116202908 (-16); L 2812330010515487 (-16); L 2785039031833608 (-16);
    L 3051347809638714 (-16); L 3490142459705742 (-16); L 3545899733634683 (-16);
    L 1035867912935121 (-16); L 1053704529578616 (-16); L 1403613105589193 (-16);
    L 9372541670140304 (-17); L 1253553702387325 (-16); L 9479640493083616 (-17);
    L 1061432699138848 (-16)];
   [L 0 0; L 0 0; L 0 0; L 0 0; L 0 0; L 1999982764948525 (-16); L 2283470992127822 (-16);
    L 2271261429527691 (-16); L 2590640051744343 (-16); L 2679515543046866 (-16);
    L 2921480068526442 (-16); L 3252266341637917 (-16); L 3553650119994654 (-16);
    L 4162618285525517 (-16); L 3810097114545736 (-16); L 1305889508139833 (-16);
    L 1262929615596563 (-16); L 154249960990131 (-15); L 1144538290264615 (-16);
    L 1354583631039435 (-16); L 1143373266227266 (-16); L 127164837789916 (-15)];
   [L 0 0; L 0 0; L 0 0; L 0 0; L 0 0; L 0 0; L 2590577643220642 (-16); L 2569545837458022 (-16);
    L 2823873351332171 (-16); L 2850219424143964 (-16); L 3143117965106567 (-16);
    L 34548133894624 (-14); L 3726717516427648 (-16); L 4057719760305587 (-16);
    L 4344069310066155 (-16); L 1629960842771485 (-16); L 1472450868093243 (-16);
    L 1756118314446152 (-16); L 1326301061572424 (-16); L 1660396993651052 (-16);
    L 1339794665992285 (-16); L 1482107957478344 (-16)];
   [L 0 0; L 0 0; L 0 0; L 0 0; L 0 0; L 0 0; L 0 0; L 2551009480471634 (-16);
    L 2804089272140941 (-16); L 2872449155961379 (-16); L 3196134105207196 (-16);
    L 3422229539820711 (-16); L 3751683956308331 (-16); L 4037935679872359 (-16);
    L 4087218070261471 (-16); L 1734804359024254 (-16); L 1458848092585968 (-16);
    L 1736334233133459 (-16); L 1607390687562834 (-16); L 1542084543332911 (-16);
    L 1327022941212915 (-16); L 1783631000302835 (-16)];
   [L 0 0; L 0 0; L 0 0; L 0 0; L 0 0; L 0 0; L 0 0; L 0 0; L 3057169061449098 (-16);
    L 308351513337592 (-15); L 3376413676109724 (-16); L 3688109100981098 (-16);
    L 3960013224335295 (-16); L 4291015469177791 (-16); L 4577365018322581 (-16);
    L 1863256551542911 (-16); L 1629022803260088 (-16); L 1989414023075421 (-16);
    L 1472508527777243 (-16); L 1527153530333512 (-16); L 148697474158183 (-15);
    L 1639352140605326 (-16)];
   [L 0 0; L 0 0; L 0 0; L 0 0; L 0 0; L 0 0; L 0 0; L 0 0; L 0 0; L 310986120730482 (-15);
    L 3402759748862068 (-16); L 3714455172564741 (-16); L 4192741194319073 (-16);
    L 4349117635004124 (-16); L 4510108556995468 (-16); L 1889602625220721 (-16);
    L 1646301261469664 (-16); L 2015760096956138 (-16); L 1424170766155539 (-16);
    L 1956614440997982 (-16); L 1503235337720747 (-16); L 165670343303836 (-15)];
   [L 0 0; L 0 0; L 0 0; L 0 0; L 0 0; L 0 0; L 0 0; L 0 0; L 0 0; L 0 0; L 3695658289825811 (-16);
    L 4005291477398147 (-16); L 4279257839161997 (-16); L 4643597383308069 (-16);
    L 4869031160029209 (-16); L 2205117857350171 (-16); L 1833756691313343 (-16);
    L 2308658637676204 (-16); L 1947440571227899 (-16); L 2069360100170327 (-16);
    L 1679863299539747 (-16); L 184493338652349 (-15)];
   [L 0 0; L 0 0; L 0 0; L 0 0; L 0 0; L 0 0; L 0 0; L 0 0; L 0 0; L 0 0; L 0 0;
    L 4319049137629409 (-16); L 4616611864110435 (-16); L 4903951271319349 (-16);
    L 5172636081431188 (-16); L 2272850094528531 (-16); L 2025367687671113 (-16);
    L 2620354061994153 (-16); L 1843973796986496 (-16); L 2032799592821606 (-16);
    L 1860776682276512 (-16); L 2037309204932012 (-16)];
   [L 0 0; L 0 0; L 0 0; L 0 0; L 0 0; L 0 0; L 0 0; L 0 0; L 0 0; L 0 0; L 0 0; L 0 0;
    L 4862857387175434 (-16); L 5193859630435835 (-16); L 5470885180509746 (-16);
    L 2766100715748006 (-16); L 2187170818187281 (-16); L 2892258185755857 (-16);
    L 1196624453975623 (-16); L 2427559715774492 (-16); L 2013803407775042 (-16);
    L 2199739523053399 (-16)];
   [L 0 0; L 0 0; L 0 0; L 0 0; L 0 0; L 0 0; L 0 0; L 0 0; L 0 0; L 0 0; L 0 0; L 0 0; L 0 0;
    L 5524861878453039 (-16); L 5811211425229519 (-16); L 3097102960618724 (-16);
    L 2378602005934755 (-16); L 3223260432125248 (-16); L 2176359401947182 (-16);
    L 2850829449721815 (-16); L 2195122180901155 (-16); L 2391893088657795 (-16)];
   [L 0 0; L 0 0; L 0 0; L 0 0; L 0 0; L 0 0; L 0 0; L 0 0; L 0 0; L 0 0; L 0 0; L 0 0; L 0 0;
    L 0 0; L 6097560975609756 (-16); L 4681387958644017 (-16); L 2540052119263587 (-16);
    L 2388016921804501 (-16); L 1284015418325299 (-16); L 3205334884994168 (-16);
    L 2348250324634247 (-16); L 2553937467857709 (-16)];
   [L 0 0; L 0 0; L 0 0; L 0 0; L 0 0; L 0 0; L 0 0; L 0 0; L 0 0; L 0 0; L 0 0; L 0 0; L 0 0;
    L 0 0; L 0 0; L 6693440428380187 (-17); L 7010179850447741 (-17); L 8845601056990605 (-17);
    L 6127719296460801 (-17); L 8154271906497129 (-17); L 6208442079410317 (-17);
    L 7069096425894923 (-17)];
   [L 0 0; L 0 0; L 0 0; L 0 0; L 0 0; L 0 0; L 0 0; L 0 0; L 0 0; L 0 0; L 0 0; L 0 0; L 0 0;
    L 0 0; L 0 0; L 0 0; L 7336757153338225 (-17); L 8240974130906203 (-17);
    L 7346596185071996 (-17); L 8515209313549774 (-17); L 6509808341771975 (-17);
    L 735055452727199 (-16)];
   [L 0 0; L 0 0; L 0 0; L 0 0; L 0 0; L 0 0; L 0 0; L 0 0; L 0 0; L 0 0; L 0 0; L 0 0; L 0 0;
    L 0 0; L 0 0; L 0 0; L 0 0; L 9216589861751152 (-17); L 7255733729926725 (-17);
    L 8338208282104481 (-17); L 7346059970761289 (-17); L 9633323363471309 (-17)];
   [L 0 0; L 0 0; L 0 0; L 0 0; L 0 0; L 0 0; L 0 0; L 0 0; L 0 0; L 0 0; L 0 0; L 0 0; L 0 0;
    L 0 0; L 0 0; L 0 0; L 0 0; L 0 0; L 5594807453383915 (-17); L 7619132157066086 (-17);
    L 5670789681980431 (-17); L 6734851301633836 (-17)];
   [L 0 0; L 0 0; L 0 0; L 0 0; L 0 0; L 0 0; L 0 0; L 0 0; L 0 0; L 0 0; L 0 0; L 0 0; L 0 0;
    L 0 0; L 0 0; L 0 0; L 0 0; L 0 0; L 0 0; L 9813542688910697 (-17); L 7600172384102773 (-17);
    L 8582270646459379 (-17)];
   [L 0 0; L 0 0; L 0 0; L 0 0; L 0 0; L 0 0; L 0 0; L 0 0; L 0 0; L 0 0; L 0 0; L 0 0; L 0 0;
    L 0 0; L 0 0; L 0 0; L 0 0; L 0 0; L 0 0; L 0 0; L 5747456750387953 (-17);
    L 6565890814001021 (-17)];
   [L 0 0; L 0 0; L 0 0; L 0 0; L 0 0; L 0 0; L 0 0; L 0 0; L 0 0; L 0 0; L 0 0; L 0 0; L 0 0;
    L 0 0; L 0 0; L 0 0; L 0 0; L 0 0; L 0 0; L 0 0; L 0 0; L 7458551157333355 (-17)]].

(* src/gerg2008.rs:1453-1802  const BTIJ *)
Definition G_BTIJ : list (list lit) :=
  [[L 0 0; L 0 0; L 0 0; L 0 0; L 0 0; L 0 0; L 0 0; L 0 0; L 0 0; L 0 0; L 0 0; L 0 0; L 0 0;
    L 0 0; L 0 0; L 0 0; L 0 0; L 0 0; L 0 0; L 0 0; L 0 0; L 0 0];
   [L 0 0; L 1 0; L 9962012744473688 (-16); L 104576084754776 (-14); L 9926864371736339 (-16);
    L 9794671061048931 (-16); L 9610189814618515 (-16); L 9883837516735081 (-16); L 1 0;
    L 9843170258626256 (-16); L 9640192053959713 (-16); L 9553723938832778 (-16);
    L 9167560489622263 (-16); L 8981670742437994 (-16); L 8794272453106193 (-16); L 1 0; L 1 0;
    L 9749819284912398 (-16); L 1130679010535891 (-15); L 1022303050787581 (-15); L 1 0;
    L 9819903870322271 (-16)];
   [L 0 0; L 0 0; L 1 0; L 1011823803472132 (-15); L 1015401706807559 (-15);
    L 1005361826090574 (-15); L 9857871235696968 (-16); L 9890605506580747 (-16); L 1 0; L 1 0;
    L 1 0; L 1 0; L 1 0; L 9146616523823026 (-16); L 9176384047491958 (-16);
    L 8951701836504297 (-16); L 9943890707901669 (-16); L 1 0; L 1 0; L 1009406750298678 (-15);
    L 4800671255126253 (-16); L 9981405511920447 (-16)];
   [L 0 0; L 0 0; L 0 0; L 1 0; L 1027934702719095 (-15); L 106837141657541 (-14);
    L 1047224395384351 (-15); L 1036672193386368 (-15); L 1038729823111436 (-15);
    L 1054730632930632 (-15); L 1 0; L 1023752023121105 (-15); L 1060263102417008 (-15);
    L 1015436354877504 (-15); L 1040458732428864 (-15); L 8879673499048379 (-16); L 1 0; L 1 0;
    L 994751315306562 (-15); L 1032326273851984 (-15); L 5904041822844169 (-16);
    L 9930378861244568 (-16)];
   [L 0 0; L 0 0; L 0 0; L 0 0; L 1 0; L 9924138303256935 (-16); L 1 0; L 9982618639363469 (-16);
    L 1 0; L 997379610862591 (-15); L 1 0; L 1 0; L 968390363957066 (-15); L 1 0;
    L 9426818811759997 (-16); L 8704327055561685 (-16); L 1 0; L 1 0; L 1 0;
    L 9804907998686012 (-16); L 1 0; L 1 0];
   [L 0 0; L 0 0; L 0 0; L 0 0; L 0 0; L 1 0; L 9960285469592408 (-16); L 1000620674279263 (-15);
    L 9887606097055807 (-16); L 9929804041083284 (-16); L 1 0; L 1 0; L 1 0; L 1 0;
    L 9708776387253003 (-16); L 1 0; L 1 0; L 1 0; L 1 0; L 9852022640704851 (-16); L 1 0; L 1 0];
   [L 0 0; L 0 0; L 0 0; L 0 0; L 0 0; L 0 0; L 1 0; L 9998449240126066 (-16); L 1 0; L 1 0; L 1 0;
    L 1 0; L 1 0; L 1 0; L 1 0; L 1 0; L 1 0; L 1 0; L 1 0; L 9497487706071003 (-16); L 1 0; L 1 0];
   [L 0 0; L 0 0; L 0 0; L 0 0; L 0 0; L 0 0; L 0 0; L 1 0; L 1 0; L 1 0; L 1 0; L 1 0; L 1 0;
    L 1 0; L 987416608471285 (-15); L 1 0; L 1 0; L 1 0; L 1 0; L 9721228125694491 (-16); L 1 0;
    L 1 0];
   [L 0 0; L 0 0; L 0 0; L 0 0; L 0 0; L 0 0; L 0 0; L 0 0; L 1 0; L 1 0; L 1 0; L 1 0; L 1 0;
    L 1 0; L 1 0; L 1 0; L 1 0; L 1 0; L 1 0; L 1 0; L 1 0; L 1 0];
   [L 0 0; L 0 0; L 0 0; L 0 0; L 0 0; L 0 0; L 0 0; L 0 0; L 0 0; L 1 0; L 1 0; L 1 0; L 1 0;
    L 1 0; L 1 0; L 1 0; L 1 0; L 1 0; L 1 0; L 9254567965682359 (-16); L 1 0; L 1 0];
   [L 0 0; L 0 0; L 0 0; L 0 0; L 0 0; L 0 0; L 0 0; L 0 0; L 0 0; L 0 0; L 1 0; L 1 0; L 1 0;
    L 1 0; L 9952875848338202 (-16); L 1 0; L 1 0; L 1 0; L 1 0; L 9719812866923787 (-16); L 1 0;
    L 1 0];
   [L 0 0; L 0 0; L 0 0; L 0 0; L 0 0; L 0 0; L 0 0; L 0 0; L 0 0; L 0 0; L 0 0; L 1 0; L 1 0;
    L 1 0; L 1 0; L 1 0; L 1 0; L 1 0; L 1 0; L 977997214742632 (-15); L 1 0; L 1 0];
   [L 0 0; L 0 0; L 0 0; L 0 0; L 0 0; L 0 0; L 0 0; L 0 0; L 0 0; L 0 0; L 0 0; L 0 0; L 1 0;
    L 1 0; L 1 0; L 1 0; L 1 0; L 1 0; L 1 0; L 1 0; L 1 0; L 1 0];
   [L 0 0; L 0 0; L 0 0; L 0 0; L 0 0; L 0 0; L 0 0; L 0 0; L 0 0; L 0 0; L 0 0; L 0 0; L 0 0;
    L 1 0; L 1 0; L 1 0; L 1 0; L 1 0; L 1 0; L 1 0; L 1 0; L 1 0];
   [L 0 0; L 0 0; L 0 0; L 0 0; L 0 0; L 0 0; L 0 0; L 0 0; L 0 0; L 0 0; L 0 0; L 0 0; L 0 0;
    L 0 0; L 1 0; L 1133837562661612 (-15); L 1 0; L 1101648891523215 (-15);
    L 8049001351229038 (-16); L 9469068980543366 (-16); L 1 0; L 1 0];
   [L 0 0; L 0 0; L 0 0; L 0 0; L 0 0; L 0 0; L 0 0; L 0 0; L 0 0; L 0 0; L 0 0; L 0 0; L 0 0;
    L 0 0; L 0 0; L 1 0; L 1 0; L 1 0; L 1 0; L 1 0; L 1 0; L 1 0];
   [L 0 0; L 0 0; L 0 0; L 0 0; L 0 0; L 0 0; L 0 0; L 0 0; L 0 0; L 0 0; L 0 0; L 0 0; L 0 0;
    L 0 0; L 0 0; L 0 0; L 1 0; L 1 0; L 1 0; L 1 0; L 1 0; L 1000046206533749 (-15)];
   [L 0 0; L 0 0; L 0 0; L 0 0; L 0 0; L 0 0; L 0 0; L 0 0; L 0 0; L 0 0; L 0 0; L 0 0; L 0 0;
    L 0 0; L 0 0; L 0 0; L 0 0; L 1 0; L 1 0; L 1051725596885534 (-15); L 1 0; L 1 0];
   [L 0 0; L 0 0; L 0 0; L 0 0; L 0 0; L 0 0; L 0 0; L 0 0; L 0 0; L 0 0; L 0 0; L 0 0; L 0 0;
    L 0 0; L 0 0; L 0 0; L 0 0; L 0 0; L 1 0; L 1 0; L 1 0; L 1 0];
   [L 0 0; L 0 0; L 0 0; L 0 0; L 0 0; L 0 0; L 0 0; L 0 0; L 0 0; L 0 0; L 0 0; L 0 0; L 0 0;
    L 0 0; L 0 0; L 0 0; L 0 0; L 0 0; L 0 0; L 1 0; L 1 0; L 1 0];
   [L 0 0; L 0 0; L 0 0; L 0 0; L 0 0; L 0 0; L 0 0; L 0 0; L 0 0; L 0 0; L 0 0; L 0 0; L 0 0;
    L 0 0; L 0 0; L 0 0; L 0 0; L 0 0; L 0 0; L 0 0; L 1 0; L 1 0];
   [L 0 0; L 0 0; L 0 0; L 0 0; L 0 0; L 0 0; L 0 0; L 0 0; L 0 0; L 0 0; L 0 0; L 0 0; L 0 0;
    L 0 0; L 0 0; L 0 0; L 0 0; L 0 0; L 0 0; L 0 0; L 0 0; L 1 0]].

(* src/gerg2008.rs:1804-2293  const GTIJ *)
Definition G_GTIJ : list (list lit) :=
  [[L 0 0; L 0 0; L 0 0; L 0 0; L 0 0; L 0 0; L 0 0; L 0 0; L 0 0; L 0 0; L 0 0; L 0 0; L 0 0;
    L 0 0; L 0 0; L 0 0; L 0 0; L 0 0; L 0 0; L 0 0; L 0 0; L 0 0];
   [L 0 0; L 190564 (-3); L 1515701479881736 (-13); L 2401960466031651 (-13);
    L 2522748201314937 (-13); L 2886523099075485 (-13); L 3173184556996133 (-13);
    L 3315307111115051 (-13); L 3521354408236836 (-13); L 3707841270001427 (-13);
    L 4064021156241856 (-13); L 4327010061102872 (-13); L 4570539597026416 (-13);
    L 48760467175271 (-11); L 5045675991786781 (-13); L 1075739913292733 (-13);
    L 1630578671084287 (-13); L 1551461780582284 (-13); L 2896877384127097 (-13);
    L 2591293716590194 (-13); L 9942192303673512 (-14); L 1662181437692417 (-13)];
   [L 0 0; L 0 0; L 126192 (-3); L 218273425689361 (-12); L 2173069651848146 (-13);
    L 2602038461441325 (-13); L 2893087839773652 (-13); L 3005789235555173 (-13);
    L 3330396848074405 (-13); L 3454756760759687 (-13); L 372784596732709 (-12);
    L 3970884294832958 (-13); L 4645825256688316 (-13); L 4582051265198602 (-13);
    L 4873335669738378 (-13); L 7198924155475973 (-14); L 1386064454254421 (-13);
    L 1286317832607745 (-13); L 2768459630760971 (-13); L 2093204553673829 (-13);
    L 2611141021192185 (-14); L 1363955272875254 (-13)];
   [L 0 0; L 0 0; L 0 0; L 3041282 (-4); L 2783496131619096 (-13); L 315023370975912 (-12);
    L 3351628415494222 (-13); L 3337053913600579 (-13); L 3665604732108367 (-13);
    L 3800917858356499 (-13); L 4081907556910224 (-13); L 4290195377860164 (-13);
    L 4603644478481144 (-13); L 4887754326160893 (-13); L 5064415158683939 (-13);
    L 1687965222872744 (-13); L 2168333440202406 (-13); L 2010136131012027 (-13);
    L 3431041750024804 (-13); L 3169343430852917 (-13); L 9796460902524419 (-14);
    L 2242023409966151 (-13)];
   [L 0 0; L 0 0; L 0 0; L 0 0; L 305322 (-3); L 3396832779709951 (-13); L 3646123183956969 (-13);
    L 3725030011900611 (-13); L 3828359998447917 (-13); L 4034111452516014 (-13);
    L 4300582594769881 (-13); L 4607283688747306 (-13); L 4794704339937678 (-13);
    L 4499359999661619 (-13); L 5216598086904 (-10); L 178633426235147 (-12);
    L 2172584971640925 (-13); L 2153501444809983 (-13); L 4444914452630106 (-13);
    L 301699447408447 (-12); L 3982762090057602 (-14); L 2144948862187628 (-13)];
   [L 0 0; L 0 0; L 0 0; L 0 0; L 0 0; L 369825 (-3); L 3896198769089135 (-13);
    L 3995673801746188 (-13); L 4116284603805881 (-13); L 4187816541099113 (-13);
    L 4444832517245036 (-13); L 4693046424561628 (-13); L 4880823640181041 (-13);
    L 5204812217128971 (-13); L 5373023774594378 (-13); L 255727865724955 (-12);
    L 2391089623477129 (-13); L 2654569282597974 (-13); L 2936841217320592 (-13);
    L 3339794898237834 (-13); L 4383322737946636 (-14); L 2360674051515795 (-13)];
   [L 0 0; L 0 0; L 0 0; L 0 0; L 0 0; L 0 0; L 407817 (-3); L 4169453459458028 (-13);
    L 4340835000634194 (-13); L 4387585001462073 (-13); L 4578184998641902 (-13);
    L 4739735002062214 (-13); L 488568499849367 (-12); L 5011835001255292 (-13);
    L 512758499810912 (-12); L 2205035000179776 (-13); L 2510905595895632 (-13);
    L 2703385000159771 (-13); L 5137088177479534 (-13); L 3562459120391862 (-13);
    L 4602968238104625 (-14); L 2478965919067868 (-13)];
   [L 0 0; L 0 0; L 0 0; L 0 0; L 0 0; L 0 0; L 0 0; L 425125 (-3); L 4427375001228837 (-13);
    L 4478149387217079 (-13); L 468891096111637 (-12); L 4893884730293855 (-13);
    L 5082911849465443 (-13); L 5098374998098914 (-13); L 5481482408392825 (-13);
    L 2980626804801041 (-13); L 2563634127074299 (-13); L 2789924998975487 (-13);
    L 3228343110714528 (-13); L 3636770882468457 (-13); L 469962967955987 (-13);
    L 3151224505783322 (-13)];
   [L 0 0; L 0 0; L 0 0; L 0 0; L 0 0; L 0 0; L 0 0; L 0 0; L 46035 (-2); L 465024999778386 (-12);
    L 4840850001640415 (-13); L 5002400001650092 (-13); L 5148349998770528 (-13);
    L 5274499999752048 (-13); L 539024999907433 (-12); L 246770000019091 (-12);
    L 2667729526207632 (-13); L 2966050000684182 (-13); L 5457935906549288 (-13);
    L 407245442229103 (-12); L 4890456374409243 (-14); L 2633794989174366 (-13)];
   [L 0 0; L 0 0; L 0 0; L 0 0; L 0 0; L 0 0; L 0 0; L 0 0; L 0 0; L 4697 (-1);
    L 4887599997625391 (-13); L 5049150001904361 (-13); L 525608893801269 (-12);
    L 5831039911718311 (-13); L 565053287389948 (-12); L 2514449999867786 (-13);
    L 2694684981588757 (-13); L 3012800000166069 (-13); L 2468020482104324 (-13);
    L 3862329499862754 (-13); L 4939870858635881 (-14); L 2660407560882355 (-13)];
   [L 0 0; L 0 0; L 0 0; L 0 0; L 0 0; L 0 0; L 0 0; L 0 0; L 0 0; L 0 0; L 50782 (-2);
    L 5236016632323489 (-13); L 5385699999087508 (-13); L 5799007477242704 (-13);
    L 5749205743380877 (-13); L 3922271479804588 (-13); L 2801899942895892 (-13);
    L 3203399999066655 (-13); L 3265662108668542 (-13); L 4102879006043737 (-13);
    L 5136416305168419 (-14); L 2766258706990364 (-13)];
   [L 0 0; L 0 0; L 0 0; L 0 0; L 0 0; L 0 0; L 0 0; L 0 0; L 0 0; L 0 0; L 0 0; L 54013 (-2);
    L 5538637073612125 (-13); L 5673388641713556 (-13); L 5789023626735006 (-13);
    L 4243210919010731 (-13); L 2889660833904214 (-13); L 3364950000921659 (-13);
    L 5911987504046334 (-13); L 4499188980682869 (-13); L 5297298735204576 (-14);
    L 2852903245993456 (-13)];
   [L 0 0; L 0 0; L 0 0; L 0 0; L 0 0; L 0 0; L 0 0; L 0 0; L 0 0; L 0 0; L 0 0; L 0 0;
    L 56932 (-2); L 5819350001623353 (-13); L 5972784101094609 (-13); L 3012549999629922 (-13);
    L 2966715783488536 (-13); L 3510900000457704 (-13); L 4018538254309484 (-13);
    L 4608831652382195 (-13); L 543855513532776 (-13); L 2928978027230659 (-13)];
   [L 0 0; L 0 0; L 0 0; L 0 0; L 0 0; L 0 0; L 0 0; L 0 0; L 0 0; L 0 0; L 0 0; L 0 0; L 0 0;
    L 59455 (-2); L 6061249998398653 (-13); L 3138700000069703 (-13); L 303173971920414 (-12);
    L 3637050000590259 (-13); L 6202668190383877 (-13); L 5117521317427675 (-13);
    L 5557756395345157 (-14); L 2993174833684127 (-13)];
   [L 0 0; L 0 0; L 0 0; L 0 0; L 0 0; L 0 0; L 0 0; L 0 0; L 0 0; L 0 0; L 0 0; L 0 0; L 0 0;
    L 0 0; L 6177 (-1); L 5772299862316896 (-13); L 309019953239269 (-12);
    L 5423004282064553 (-13); L 4199718576844389 (-13); L 5155888844860302 (-13);
    L 5664924368427172 (-14); L 3050891015752611 (-13)];
   [L 0 0; L 0 0; L 0 0; L 0 0; L 0 0; L 0 0; L 0 0; L 0 0; L 0 0; L 0 0; L 0 0; L 0 0; L 0 0;
    L 0 0; L 0 0; L 3319 (-2); L 7163105506691912 (-14); L 9147318694533813 (-14);
    L 1465507292373532 (-13); L 1112797780371618 (-13); L 131313368321736 (-13);
    L 7071988072670936 (-14)];
   [L 0 0; L 0 0; L 0 0; L 0 0; L 0 0; L 0 0; L 0 0; L 0 0; L 0 0; L 0 0; L 0 0; L 0 0; L 0 0;
    L 0 0; L 0 0; L 0 0; L 154595 (-3); L 1433160552764414 (-13); L 3051440730780441 (-13);
    L 2401653482499088 (-13); L 2834020824729416 (-14); L 1511713949575274 (-13)];
   [L 0 0; L 0 0; L 0 0; L 0 0; L 0 0; L 0 0; L 0 0; L 0 0; L 0 0; L 0 0; L 0 0; L 0 0; L 0 0;
    L 0 0; L 0 0; L 0 0; L 0 0; L 13286 (-2); L 2932118254095492 (-13); L 2335233712436011 (-13);
    L 2627256283654109 (-14); L 1350148680083226 (-13)];
   [L 0 0; L 0 0; L 0 0; L 0 0; L 0 0; L 0 0; L 0 0; L 0 0; L 0 0; L 0 0; L 0 0; L 0 0; L 0 0;
    L 0 0; L 0 0; L 0 0; L 0 0; L 0 0; L 647096 (-3); L 462163871373824 (-12);
    L 5798153023851646 (-14); L 334416846789014 (-12)];
   [L 0 0; L 0 0; L 0 0; L 0 0; L 0 0; L 0 0; L 0 0; L 0 0; L 0 0; L 0 0; L 0 0; L 0 0; L 0 0;
    L 0 0; L 0 0; L 0 0; L 0 0; L 0 0; L 0 0; L 3731 (-1); L 4402688303752605 (-14);
    L 2371103534221987 (-13)];
   [L 0 0; L 0 0; L 0 0; L 0 0; L 0 0; L 0 0; L 0 0; L 0 0; L 0 0; L 0 0; L 0 0; L 0 0; L 0 0;
    L 0 0; L 0 0; L 0 0; L 0 0; L 0 0; L 0 0; L 0 0; L 51953 (-4); L 2797970998956207 (-14)];
   [L 0 0; L 0 0; L 0 0; L 0 0; L 0 0; L 0 0; L 0 0; L 0 0; L 0 0; L 0 0; L 0 0; L 0 0; L 0 0;
    L 0 0; L 0 0; L 0 0; L 0 0; L 0 0; L 0 0; L 0 0; L 0 0; L 150687 (-3)]].

(* src/gerg2008.rs:2441-2480  the 12 assignments coik[i][k] = c of this loop body, in source order *)
Definition G_setup_coik_all : list (nat * nat) :=
  [(1, 0); (2, 0); (3, 0); (4, 0); (5, 0); (6, 0); (7, 1); (8, 1); (9, 2); (10, 2); (11, 3);
   (12, 3)]%nat.

(* src/gerg2008.rs:2482-2557  the 24 assignments coik[i][k] = c of this loop body, in source order *)
Definition G_setup_coik_long : list (nat * nat) :=
  [(1, 0); (2, 0); (3, 0); (4, 0); (5, 0); (6, 0); (7, 1); (8, 1); (9, 1); (10, 1); (11, 1);
   (12, 1); (13, 2); (14, 2); (15, 2); (16, 2); (17, 2); (18, 3); (19, 3); (20, 3); (21, 6);
   (22, 6); (23, 6); (24, 6)]%nat.

(* src/gerg2008.rs:2559-2751  the 64 assignments coik[i][j] = c, in source order *)
Definition G_setup_coik : list (nat * nat * nat) :=
  [(3, 1, 0); (3, 2, 0); (3, 3, 0); (3, 4, 0); (3, 5, 1); (3, 6, 1); (3, 7, 1); (3, 8, 1);
   (3, 9, 1); (3, 10, 1); (3, 11, 2); (3, 12, 2); (3, 13, 3); (3, 14, 3); (3, 15, 3); (3, 16, 3);
   (3, 17, 3); (3, 18, 5); (3, 19, 5); (3, 20, 5); (3, 21, 6); (3, 22, 6); (15, 1, 0); (15, 2, 0);
   (15, 3, 0); (15, 4, 0); (15, 5, 0); (15, 6, 1); (15, 7, 1); (15, 8, 1); (15, 9, 1); (15, 10, 2);
   (15, 11, 2); (15, 12, 3); (15, 13, 3); (15, 14, 5); (18, 1, 0); (18, 2, 0); (18, 3, 0);
   (18, 4, 0); (18, 5, 0); (18, 6, 0); (18, 7, 0); (18, 8, 1); (18, 9, 1); (18, 10, 1);
   (18, 11, 2); (18, 12, 2); (18, 13, 2); (18, 14, 3); (18, 15, 5); (18, 16, 5); (20, 1, 0);
   (20, 2, 0); (20, 3, 0); (20, 4, 0); (20, 5, 1); (20, 6, 1); (20, 7, 1); (20, 8, 1); (20, 9, 1);
   (20, 10, 2); (20, 11, 3); (20, 12, 3)]%nat.

(* src/gerg2008.rs:2441-2480  the 12 assignments doik[i][k] = c of this loop body, in source order *)
Definition G_setup_doik_all : list (nat * nat) :=
  [(1, 1); (2, 1); (3, 1); (4, 2); (5, 3); (6, 7); (7, 2); (8, 5); (9, 1); (10, 4); (11, 3);
   (12, 4)]%nat.

(* src/gerg2008.rs:2482-2557  the 24 assignments doik[i][k] = c of this loop body, in source order *)
Definition G_setup_doik_long : list (nat * nat) :=
  [(1, 1); (2, 1); (3, 2); (4, 2); (5, 4); (6, 4); (7, 1); (8, 1); (9, 1); (10, 2); (11, 3);
   (12, 6); (13, 2); (14, 3); (15, 3); (16, 4); (17, 4); (18, 2); (19, 3); (20, 4); (21, 5);
   (22, 6); (23, 6); (24, 7)]%nat.

(* src/gerg2008.rs:2560-2752  the 64 assignments doik[i][j] = c, in source order *)
Definition G_setup_doik : list (nat * nat * nat) :=
  [(3, 1, 1); (3, 2, 1); (3, 3, 2); (3, 4, 3); (3, 5, 3); (3, 6, 3); (3, 7, 4); (3, 8, 5);
   (3, 9, 6); (3, 10, 6); (3, 11, 1); (3, 12, 4); (3, 13, 1); (3, 14, 1); (3, 15, 3); (3, 16, 3);
   (3, 17, 4); (3, 18, 5); (3, 19, 5); (3, 20, 5); (3, 21, 5); (3, 22, 5); (15, 1, 1); (15, 2, 1);
   (15, 3, 2); (15, 4, 2); (15, 5, 4); (15, 6, 1); (15, 7, 5); (15, 8, 5); (15, 9, 5); (15, 10, 1);
   (15, 11, 1); (15, 12, 2); (15, 13, 5); (15, 14, 1); (18, 1, 1); (18, 2, 1); (18, 3, 1);
   (18, 4, 2); (18, 5, 2); (18, 6, 3); (18, 7, 4); (18, 8, 1); (18, 9, 5); (18, 10, 5);
   (18, 11, 1); (18, 12, 2); (18, 13, 4); (18, 14, 4); (18, 15, 1); (18, 16, 1); (20, 1, 1);
   (20, 2, 1); (20, 3, 1); (20, 4, 4); (20, 5, 1); (20, 6, 3); (20, 7, 5); (20, 8, 5); (20, 9, 5);
   (20, 10, 2); (20, 11, 1); (20, 12, 2)]%nat.

(* src/gerg2008.rs:2441-2480  the 12 assignments toik[i][k] = c of this loop body, in source order *)
Definition G_setup_toik_all : list (nat * lit) :=
  [(1%nat, L 25 (-2)); (2%nat, L 1125 (-3)); (3%nat, L 15 (-1)); (4%nat, L 1375 (-3));
   (5%nat, L 25 (-2)); (6%nat, L 875 (-3)); (7%nat, L 625 (-3)); (8%nat, L 175 (-2));
   (9%nat, L 3625 (-3)); (10%nat, L 3625 (-3)); (11%nat, L 145 (-1)); (12%nat, L 12 0)].

(* src/gerg2008.rs:2482-2557  the 24 assignments toik[i][k] = c of this loop body, in source order *)
Definition G_setup_toik_long : list (nat * lit) :=
  [(1%nat, L 125 (-3)); (2%nat, L 1125 (-3)); (3%nat, L 375 (-3)); (4%nat, L 1125 (-3));
   (5%nat, L 625 (-3)); (6%nat, L 15 (-1)); (7%nat, L 625 (-3)); (8%nat, L 2625 (-3));
   (9%nat, L 275 (-2)); (10%nat, L 2125 (-3)); (11%nat, L 2 0); (12%nat, L 175 (-2));
   (13%nat, L 45 (-1)); (14%nat, L 475 (-2)); (15%nat, L 5 0); (16%nat, L 4 0);
   (17%nat, L 45 (-1)); (18%nat, L 75 (-1)); (19%nat, L 14 0); (20%nat, L 115 (-1));
   (21%nat, L 26 0); (22%nat, L 28 0); (23%nat, L 30 0); (24%nat, L 16 0)].

(* src/gerg2008.rs:2561-2753  the 64 assignments toik[i][j] = c, in source order *)
Definition G_setup_toik : list ((nat * nat) * lit) :=
  [((3, 1)%nat, L 0 0); ((3, 2)%nat, L 125 (-2)); ((3, 3)%nat, L 1625 (-3));
   ((3, 4)%nat, L 375 (-3)); ((3, 5)%nat, L 375 (-3)); ((3, 6)%nat, L 1375 (-3));
   ((3, 7)%nat, L 1125 (-3)); ((3, 8)%nat, L 1375 (-3)); ((3, 9)%nat, L 125 (-3));
   ((3, 10)%nat, L 1625 (-3)); ((3, 11)%nat, L 375 (-2)); ((3, 12)%nat, L 35 (-1));
   ((3, 13)%nat, L 75 (-1)); ((3, 14)%nat, L 8 0); ((3, 15)%nat, L 6 0); ((3, 16)%nat, L 16 0);
   ((3, 17)%nat, L 11 0); ((3, 18)%nat, L 24 0); ((3, 19)%nat, L 26 0); ((3, 20)%nat, L 28 0);
   ((3, 21)%nat, L 24 0); ((3, 22)%nat, L 26 0); ((15, 1)%nat, L 5 (-1));
   ((15, 2)%nat, L 625 (-3)); ((15, 3)%nat, L 375 (-3)); ((15, 4)%nat, L 625 (-3));
   ((15, 5)%nat, L 1125 (-3)); ((15, 6)%nat, L 2625 (-3)); ((15, 7)%nat, L 0 0);
   ((15, 8)%nat, L 25 (-2)); ((15, 9)%nat, L 1375 (-3)); ((15, 10)%nat, L 4 0);
   ((15, 11)%nat, L 425 (-2)); ((15, 12)%nat, L 5 0); ((15, 13)%nat, L 8 0); ((15, 14)%nat, L 8 0);
   ((18, 1)%nat, L 5 (-1)); ((18, 2)%nat, L 125 (-2)); ((18, 3)%nat, L 1875 (-3));
   ((18, 4)%nat, L 125 (-3)); ((18, 5)%nat, L 15 (-1)); ((18, 6)%nat, L 1 0);
   ((18, 7)%nat, L 75 (-2)); ((18, 8)%nat, L 15 (-1)); ((18, 9)%nat, L 625 (-3));
   ((18, 10)%nat, L 2625 (-3)); ((18, 11)%nat, L 5 0); ((18, 12)%nat, L 4 0);
   ((18, 13)%nat, L 45 (-1)); ((18, 14)%nat, L 3 0); ((18, 15)%nat, L 4 0); ((18, 16)%nat, L 6 0);
   ((20, 1)%nat, L 0 0); ((20, 2)%nat, L 125 (-3)); ((20, 3)%nat, L 75 (-2)); ((20, 4)%nat, L 1 0);
   ((20, 5)%nat, L 75 (-2)); ((20, 6)%nat, L 2625 (-3)); ((20, 7)%nat, L 125 (-3));
   ((20, 8)%nat, L 125 (-2)); ((20, 9)%nat, L 2 0); ((20, 10)%nat, L 1 0);
   ((20, 11)%nat, L 45 (-1)); ((20, 12)%nat, L 5 0)].

(* src/gerg2008.rs:2757-3184  the 62 assignments dijk[i][j] = c, in source order *)
Definition G_setup_dijk : list (nat * nat * nat) :=
  [(3, 1, 1); (3, 2, 4); (3, 3, 1); (3, 4, 2); (3, 5, 2); (3, 6, 2); (3, 7, 2); (3, 8, 2);
   (3, 9, 3); (4, 1, 1); (4, 2, 2); (4, 3, 3); (4, 4, 1); (4, 5, 2); (4, 6, 3); (1, 1, 3);
   (1, 2, 4); (1, 3, 1); (1, 4, 2); (1, 5, 2); (1, 6, 2); (1, 7, 2); (1, 8, 2); (1, 9, 2);
   (1, 10, 3); (1, 11, 3); (1, 12, 3); (2, 1, 3); (2, 2, 3); (2, 3, 4); (2, 4, 4); (2, 5, 4);
   (2, 6, 1); (2, 7, 1); (2, 8, 1); (2, 9, 2); (5, 1, 2); (5, 2, 3); (5, 3, 1); (5, 4, 1);
   (5, 5, 1); (5, 6, 2); (6, 1, 2); (6, 2, 2); (6, 3, 3); (6, 4, 1); (6, 5, 2); (6, 6, 2);
   (7, 1, 1); (7, 2, 3); (7, 3, 3); (7, 4, 4); (10, 1, 1); (10, 2, 1); (10, 3, 1); (10, 4, 2);
   (10, 5, 2); (10, 6, 3); (10, 7, 3); (10, 8, 4); (10, 9, 4); (10, 10, 4)]%nat.

(* src/gerg2008.rs:2758-3185  the 62 assignments tijk[i][j] = c, in source order *)
Definition G_setup_tijk : list ((nat * nat) * lit) :=
  [((3, 1)%nat, L 0 0); ((3, 2)%nat, L 185 (-2)); ((3, 3)%nat, L 785 (-2));
   ((3, 4)%nat, L 54 (-1)); ((3, 5)%nat, L 0 0); ((3, 6)%nat, L 75 (-2)); ((3, 7)%nat, L 28 (-1));
   ((3, 8)%nat, L 445 (-2)); ((3, 9)%nat, L 425 (-2)); ((4, 1)%nat, L 26 (-1));
   ((4, 2)%nat, L 195 (-2)); ((4, 3)%nat, L 0 0); ((4, 4)%nat, L 395 (-2));
   ((4, 5)%nat, L 795 (-2)); ((4, 6)%nat, L 8 0); ((1, 1)%nat, L 65 (-2));
   ((1, 2)%nat, L 155 (-2)); ((1, 3)%nat, L 31 (-1)); ((1, 4)%nat, L 59 (-1));
   ((1, 5)%nat, L 705 (-2)); ((1, 6)%nat, L 335 (-2)); ((1, 7)%nat, L 12 (-1));
   ((1, 8)%nat, L 58 (-1)); ((1, 9)%nat, L 27 (-1)); ((1, 10)%nat, L 45 (-2));
   ((1, 11)%nat, L 55 (-2)); ((1, 12)%nat, L 195 (-2)); ((2, 1)%nat, L 185 (-2));
   ((2, 2)%nat, L 395 (-2)); ((2, 3)%nat, L 0 0); ((2, 4)%nat, L 185 (-2));
   ((2, 5)%nat, L 385 (-2)); ((2, 6)%nat, L 525 (-2)); ((2, 7)%nat, L 385 (-2));
   ((2, 8)%nat, L 2 (-1)); ((2, 9)%nat, L 65 (-1)); ((5, 1)%nat, L 185 (-2));
   ((5, 2)%nat, L 14 (-1)); ((5, 3)%nat, L 32 (-1)); ((5, 4)%nat, L 25 (-1)); ((5, 5)%nat, L 8 0);
   ((5, 6)%nat, L 375 (-2)); ((6, 1)%nat, L 0 0); ((6, 2)%nat, L 5 (-2)); ((6, 3)%nat, L 0 0);
   ((6, 4)%nat, L 365 (-2)); ((6, 5)%nat, L 49 (-1)); ((6, 6)%nat, L 445 (-2));
   ((7, 1)%nat, L 2 0); ((7, 2)%nat, L (-1) 0); ((7, 3)%nat, L 175 (-2)); ((7, 4)%nat, L 14 (-1));
   ((10, 1)%nat, L 1 0); ((10, 2)%nat, L 155 (-2)); ((10, 3)%nat, L 17 (-1));
   ((10, 4)%nat, L 25 (-2)); ((10, 5)%nat, L 135 (-2)); ((10, 6)%nat, L 0 0);
   ((10, 7)%nat, L 125 (-2)); ((10, 8)%nat, L 0 0); ((10, 9)%nat, L 7 (-1));
   ((10, 10)%nat, L 54 (-1))].

(* src/gerg2008.rs:2759-3186  the 62 assignments cijk[i][j] = c, in source order *)
Definition G_setup_cijk : list ((nat * nat) * lit) :=
  [((3, 1)%nat, L 0 0); ((3, 2)%nat, L 0 0); ((3, 3)%nat, L 1 0); ((3, 4)%nat, L 1 0);
   ((3, 5)%nat, L 25 (-2)); ((3, 6)%nat, L 0 0); ((3, 7)%nat, L 0 0); ((3, 8)%nat, L 0 0);
   ((3, 9)%nat, L 0 0); ((4, 1)%nat, L 0 0); ((4, 2)%nat, L 0 0); ((4, 3)%nat, L 0 0);
   ((4, 4)%nat, L 1 0); ((4, 5)%nat, L 5 (-1)); ((4, 6)%nat, L 0 0); ((1, 1)%nat, L 0 0);
   ((1, 2)%nat, L 0 0); ((1, 3)%nat, L 1 0); ((1, 4)%nat, L 1 0); ((1, 5)%nat, L 1 0);
   ((1, 6)%nat, L 875 (-3)); ((1, 7)%nat, L 75 (-2)); ((1, 8)%nat, L 5 (-1)); ((1, 9)%nat, L 0 0);
   ((1, 10)%nat, L 0 0); ((1, 11)%nat, L 0 0); ((1, 12)%nat, L 0 0); ((2, 1)%nat, L 0 0);
   ((2, 2)%nat, L 0 0); ((2, 3)%nat, L 0 0); ((2, 4)%nat, L 0 0); ((2, 5)%nat, L 0 0);
   ((2, 6)%nat, L 25 (-2)); ((2, 7)%nat, L 25 (-2)); ((2, 8)%nat, L 0 0); ((2, 9)%nat, L 0 0);
   ((5, 1)%nat, L 0 0); ((5, 2)%nat, L 0 0); ((5, 3)%nat, L 25 (-2)); ((5, 4)%nat, L 25 (-2));
   ((5, 5)%nat, L 0 0); ((5, 6)%nat, L 0 0); ((6, 1)%nat, L 0 0); ((6, 2)%nat, L 0 0);
   ((6, 3)%nat, L 0 0); ((6, 4)%nat, L 1 0); ((6, 5)%nat, L 1 0); ((6, 6)%nat, L 875 (-3));
   ((7, 1)%nat, L 0 0); ((7, 2)%nat, L 0 0); ((7, 3)%nat, L 0 0); ((7, 4)%nat, L 0 0);
   ((10, 1)%nat, L 0 0); ((10, 2)%nat, L 0 0); ((10, 3)%nat, L 0 0); ((10, 4)%nat, L 0 0);
   ((10, 5)%nat, L 0 0); ((10, 6)%nat, L 0 0); ((10, 7)%nat, L 0 0); ((10, 8)%nat, L 0 0);
   ((10, 9)%nat, L 0 0); ((10, 10)%nat, L 0 0)].

(* src/gerg2008.rs:2760-3187  the 62 assignments eijk[i][j] = c, in source order *)
Definition G_setup_eijk : list ((nat * nat) * lit) :=
  [((3, 1)%nat, L 0 0); ((3, 2)%nat, L 0 0); ((3, 3)%nat, L 5 (-1)); ((3, 4)%nat, L 5 (-1));
   ((3, 5)%nat, L 5 (-1)); ((3, 6)%nat, L 5 (-1)); ((3, 7)%nat, L 5 (-1)); ((3, 8)%nat, L 5 (-1));
   ((3, 9)%nat, L 5 (-1)); ((4, 1)%nat, L 0 0); ((4, 2)%nat, L 0 0); ((4, 3)%nat, L 0 0);
   ((4, 4)%nat, L 5 (-1)); ((4, 5)%nat, L 5 (-1)); ((4, 6)%nat, L 5 (-1)); ((1, 1)%nat, L 0 0);
   ((1, 2)%nat, L 0 0); ((1, 3)%nat, L 5 (-1)); ((1, 4)%nat, L 5 (-1)); ((1, 5)%nat, L 5 (-1));
   ((1, 6)%nat, L 5 (-1)); ((1, 7)%nat, L 5 (-1)); ((1, 8)%nat, L 5 (-1)); ((1, 9)%nat, L 5 (-1));
   ((1, 10)%nat, L 5 (-1)); ((1, 11)%nat, L 5 (-1)); ((1, 12)%nat, L 5 (-1)); ((2, 1)%nat, L 0 0);
   ((2, 2)%nat, L 0 0); ((2, 3)%nat, L 0 0); ((2, 4)%nat, L 0 0); ((2, 5)%nat, L 0 0);
   ((2, 6)%nat, L 5 (-1)); ((2, 7)%nat, L 5 (-1)); ((2, 8)%nat, L 5 (-1)); ((2, 9)%nat, L 5 (-1));
   ((5, 1)%nat, L 0 0); ((5, 2)%nat, L 0 0); ((5, 3)%nat, L 5 (-1)); ((5, 4)%nat, L 5 (-1));
   ((5, 5)%nat, L 5 (-1)); ((5, 6)%nat, L 5 (-1)); ((6, 1)%nat, L 0 0); ((6, 2)%nat, L 0 0);
   ((6, 3)%nat, L 0 0); ((6, 4)%nat, L 5 (-1)); ((6, 5)%nat, L 5 (-1)); ((6, 6)%nat, L 5 (-1));
   ((7, 1)%nat, L 0 0); ((7, 2)%nat, L 0 0); ((7, 3)%nat, L 0 0); ((7, 4)%nat, L 0 0);
   ((10, 1)%nat, L 0 0); ((10, 2)%nat, L 0 0); ((10, 3)%nat, L 0 0); ((10, 4)%nat, L 0 0);
   ((10, 5)%nat, L 0 0); ((10, 6)%nat, L 0 0); ((10, 7)%nat, L 0 0); ((10, 8)%nat, L 0 0);
   ((10, 9)%nat, L 0 0); ((10, 10)%nat, L 0 0)].

(* src/gerg2008.rs:2762-3189  the 62 assignments gijk[i][j] = c, in source order *)
Definition G_setup_gijk : list ((nat * nat) * lit) :=
  [((3, 1)%nat, L 0 0); ((3, 2)%nat, L 0 0); ((3, 3)%nat, L 5 (-1)); ((3, 4)%nat, L 5 (-1));
   ((3, 5)%nat, L 5 (-1)); ((3, 6)%nat, L 5 (-1)); ((3, 7)%nat, L 5 (-1)); ((3, 8)%nat, L 5 (-1));
   ((3, 9)%nat, L 5 (-1)); ((4, 1)%nat, L 0 0); ((4, 2)%nat, L 0 0); ((4, 3)%nat, L 0 0);
   ((4, 4)%nat, L 5 (-1)); ((4, 5)%nat, L 5 (-1)); ((4, 6)%nat, L 5 (-1)); ((1, 1)%nat, L 0 0);
   ((1, 2)%nat, L 0 0); ((1, 3)%nat, L 5 (-1)); ((1, 4)%nat, L 5 (-1)); ((1, 5)%nat, L 5 (-1));
   ((1, 6)%nat, L 5 (-1)); ((1, 7)%nat, L 5 (-1)); ((1, 8)%nat, L 5 (-1)); ((1, 9)%nat, L 5 (-1));
   ((1, 10)%nat, L 5 (-1)); ((1, 11)%nat, L 5 (-1)); ((1, 12)%nat, L 5 (-1)); ((2, 1)%nat, L 0 0);
   ((2, 2)%nat, L 0 0); ((2, 3)%nat, L 0 0); ((2, 4)%nat, L 0 0); ((2, 5)%nat, L 0 0);
   ((2, 6)%nat, L 5 (-1)); ((2, 7)%nat, L 5 (-1)); ((2, 8)%nat, L 5 (-1)); ((2, 9)%nat, L 5 (-1));
   ((5, 1)%nat, L 0 0); ((5, 2)%nat, L 0 0); ((5, 3)%nat, L 5 (-1)); ((5, 4)%nat, L 5 (-1));
   ((5, 5)%nat, L 5 (-1)); ((5, 6)%nat, L 5 (-1)); ((6, 1)%nat, L 0 0); ((6, 2)%nat, L 0 0);
   ((6, 3)%nat, L 0 0); ((6, 4)%nat, L 5 (-1)); ((6, 5)%nat, L 5 (-1)); ((6, 6)%nat, L 5 (-1));
   ((7, 1)%nat, L 0 0); ((7, 2)%nat, L 0 0); ((7, 3)%nat, L 0 0); ((7, 4)%nat, L 0 0);
   ((10, 1)%nat, L 0 0); ((10, 2)%nat, L 0 0); ((10, 3)%nat, L 0 0); ((10, 4)%nat, L 0 0);
   ((10, 5)%nat, L 0 0); ((10, 6)%nat, L 0 0); ((10, 7)%nat, L 0 0); ((10, 8)%nat, L 0 0);
   ((10, 9)%nat, L 0 0); ((10, 10)%nat, L 0 0)].

(* src/gerg2008.rs:2763-3190  the 62 assignments nijk[i][j] = c, in source order *)
Definition G_setup_nijk : list ((nat * nat) * lit) :=
  [((3, 1)%nat, L (-98038985517335) (-16)); ((3, 2)%nat, L 42487270143005 (-17));
   ((3, 3)%nat, L (-34800214576142) (-15)); ((3, 4)%nat, L (-13333813013896) (-14));
   ((3, 5)%nat, L (-11993694974627) (-15)); ((3, 6)%nat, L 69243379775168 (-15));
   ((3, 7)%nat, L (-31022508148249) (-14)); ((3, 8)%nat, L 24495491753226 (-14));
   ((3, 9)%nat, L 22369816716981 (-14)); ((4, 1)%nat, L (-10859387354942) (-14));
   ((4, 2)%nat, L 80228576727389 (-15)); ((4, 3)%nat, L (-93303985115717) (-16));
   ((4, 4)%nat, L 40989274005848 (-15)); ((4, 5)%nat, L (-24338019772494) (-14));
   ((4, 6)%nat, L 23855347281124 (-14)); ((1, 1)%nat, L (-80926050298746) (-17));
   ((1, 2)%nat, L (-75381925080059) (-17)); ((1, 3)%nat, L (-41618768891219) (-15));
   ((1, 4)%nat, L (-23452173681569) (-14)); ((1, 5)%nat, L 14003840584586 (-14));
   ((1, 6)%nat, L 63281744807738 (-15)); ((1, 7)%nat, L (-34660425848809) (-15));
   ((1, 8)%nat, L (-23918747334251) (-14)); ((1, 9)%nat, L 19855255066891 (-16));
   ((1, 10)%nat, L 61777746171555 (-13)); ((1, 11)%nat, L (-69575358271105) (-13));
   ((1, 12)%nat, L 10630185306388 (-13)); ((2, 1)%nat, L 13746429958576 (-15));
   ((2, 2)%nat, L (-74425012129552) (-16)); ((2, 3)%nat, L (-45516600213685) (-16));
   ((2, 4)%nat, L (-54546603350237) (-16)); ((2, 5)%nat, L 23682016824471 (-16));
   ((2, 6)%nat, L 18007763721438 (-14)); ((2, 7)%nat, L (-44773942932486) (-14));
   ((2, 8)%nat, L 193273748882 (-13)); ((2, 9)%nat, L (-30632197804624) (-14));
   ((5, 1)%nat, L 28661625028399 (-14)); ((5, 2)%nat, L (-10919833861247) (-14));
   ((5, 3)%nat, L (-1137403208227) (-12)); ((5, 4)%nat, L 76580544237358 (-14));
   ((5, 5)%nat, L 42638000926819 (-16)); ((5, 6)%nat, L 17673538204534 (-14));
   ((6, 1)%nat, L (-47376518126608) (-14)); ((6, 2)%nat, L 48961193461001 (-14));
   ((6, 3)%nat, L (-57011062090535) (-16)); ((6, 4)%nat, L (-1996682004132) (-13));
   ((6, 5)%nat, L (-69411103101723) (-14)); ((6, 6)%nat, L 69226192739021 (-14));
   ((7, 1)%nat, L (-25157134971934) (-14)); ((7, 2)%nat, L (-62203841111983) (-16));
   ((7, 3)%nat, L 88850315184396 (-15)); ((7, 4)%nat, L (-35592212573239) (-15));
   ((10, 1)%nat, L 25574776844118 (-13)); ((10, 2)%nat, L (-79846357136353) (-13));
   ((10, 3)%nat, L 47859131465806 (-13)); ((10, 4)%nat, L (-73265392369587) (-14));
   ((10, 5)%nat, L 13805471345312 (-13)); ((10, 6)%nat, L 28349603476365 (-14));
   ((10, 7)%nat, L (-49087385940425) (-14)); ((10, 8)%nat, L (-10291888921447) (-14));
   ((10, 9)%nat, L 11836314681968 (-14)); ((10, 10)%nat, L 55527385721943 (-18))].

(* src/gerg2008.rs:2761-3188  the 62 assignments bijk[i][j] = c, in source order *)
Definition G_setup_bijk : list ((nat * nat) * lit) :=
  [((3, 1)%nat, L 0 0); ((3, 2)%nat, L 0 0); ((3, 3)%nat, L 1 0); ((3, 4)%nat, L 1 0);
   ((3, 5)%nat, L 25 (-1)); ((3, 6)%nat, L 3 0); ((3, 7)%nat, L 3 0); ((3, 8)%nat, L 3 0);
   ((3, 9)%nat, L 3 0); ((4, 1)%nat, L 0 0); ((4, 2)%nat, L 0 0); ((4, 3)%nat, L 0 0);
   ((4, 4)%nat, L 1 0); ((4, 5)%nat, L 2 0); ((4, 6)%nat, L 3 0); ((1, 1)%nat, L 0 0);
   ((1, 2)%nat, L 0 0); ((1, 3)%nat, L 1 0); ((1, 4)%nat, L 1 0); ((1, 5)%nat, L 1 0);
   ((1, 6)%nat, L 125 (-2)); ((1, 7)%nat, L 15 (-1)); ((1, 8)%nat, L 2 0); ((1, 9)%nat, L 3 0);
   ((1, 10)%nat, L 3 0); ((1, 11)%nat, L 3 0); ((1, 12)%nat, L 3 0); ((2, 1)%nat, L 0 0);
   ((2, 2)%nat, L 0 0); ((2, 3)%nat, L 0 0); ((2, 4)%nat, L 0 0); ((2, 5)%nat, L 0 0);
   ((2, 6)%nat, L 75 (-2)); ((2, 7)%nat, L 1 0); ((2, 8)%nat, L 2 0); ((2, 9)%nat, L 3 0);
   ((5, 1)%nat, L 0 0); ((5, 2)%nat, L 0 0); ((5, 3)%nat, L 75 (-2)); ((5, 4)%nat, L 1 0);
   ((5, 5)%nat, L 2 0); ((5, 6)%nat, L 3 0); ((6, 1)%nat, L 0 0); ((6, 2)%nat, L 0 0);
   ((6, 3)%nat, L 0 0); ((6, 4)%nat, L 1 0); ((6, 5)%nat, L 1 0); ((6, 6)%nat, L 125 (-2));
   ((7, 1)%nat, L 0 0); ((7, 2)%nat, L 0 0); ((7, 3)%nat, L 0 0); ((7, 4)%nat, L 0 0);
   ((10, 1)%nat, L 0 0); ((10, 2)%nat, L 0 0); ((10, 3)%nat, L 0 0); ((10, 4)%nat, L 0 0);
   ((10, 5)%nat, L 0 0); ((10, 6)%nat, L 0 0); ((10, 7)%nat, L 0 0); ((10, 8)%nat, L 0 0);
   ((10, 9)%nat, L 0 0); ((10, 10)%nat, L 0 0)].

(* src/gerg2008.rs:3192-3338  the 147 assignments n0i[i][j] = c, in source order *)
Definition G_setup_n0i : list ((nat * nat) * lit) :=
  [((1, 3)%nat, L 400088 (-5)); ((1, 4)%nat, L 76315 (-5)); ((1, 5)%nat, L 46 (-4));
   ((1, 6)%nat, L 874432 (-5)); ((1, 7)%nat, L (-446921) (-5)); ((1, 1)%nat, L 2983843397 (-8));
   ((1, 2)%nat, L (-1599969151) (-5)); ((2, 3)%nat, L 350031 (-5)); ((2, 4)%nat, L 13732 (-5));
   ((2, 5)%nat, L (-1466) (-4)); ((2, 6)%nat, L 90066 (-5)); ((2, 7)%nat, L 0 0);
   ((2, 1)%nat, L 1756770785 (-8)); ((2, 2)%nat, L (-2801729072) (-6));
   ((3, 3)%nat, L 350002 (-5)); ((3, 4)%nat, L 204452 (-5)); ((3, 5)%nat, L (-106044) (-5));
   ((3, 6)%nat, L 203366 (-5)); ((3, 7)%nat, L 1393 (-5)); ((3, 1)%nat, L 2065844696 (-8));
   ((3, 2)%nat, L (-4902171516) (-6)); ((4, 3)%nat, L 400263 (-5)); ((4, 4)%nat, L 433939 (-5));
   ((4, 5)%nat, L 123722 (-5)); ((4, 6)%nat, L 131974 (-4)); ((4, 7)%nat, L (-601989) (-5));
   ((4, 1)%nat, L 3673005938 (-8)); ((4, 2)%nat, L (-2363965301) (-5));
   ((5, 3)%nat, L 402939 (-5)); ((5, 4)%nat, L 660569 (-5)); ((5, 5)%nat, L 3197 (-3));
   ((5, 6)%nat, L 191921 (-4)); ((5, 7)%nat, L (-837267) (-5)); ((5, 1)%nat, L 4470909619 (-8));
   ((5, 2)%nat, L (-3123663551) (-5)); ((6, 3)%nat, L 406714 (-5)); ((6, 4)%nat, L 897575 (-5));
   ((6, 5)%nat, L 525156 (-5)); ((6, 6)%nat, L 251423 (-4)); ((6, 7)%nat, L 161388 (-4));
   ((6, 1)%nat, L 3430180349 (-8)); ((6, 2)%nat, L (-3852550276) (-5));
   ((7, 3)%nat, L 433944 (-5)); ((7, 4)%nat, L 944893 (-5)); ((7, 5)%nat, L 689406 (-5));
   ((7, 6)%nat, L 244618 (-4)); ((7, 7)%nat, L 147824 (-4)); ((7, 1)%nat, L 3653237783 (-8));
   ((7, 2)%nat, L (-3895780933) (-5)); ((8, 3)%nat, L 4 0); ((8, 4)%nat, L 117618 (-4));
   ((8, 5)%nat, L 201101 (-4)); ((8, 6)%nat, L 331688 (-4)); ((8, 7)%nat, L 0 0);
   ((8, 1)%nat, L 4317218626 (-8)); ((8, 2)%nat, L (-5119830946) (-5)); ((9, 3)%nat, L 4 0);
   ((9, 4)%nat, L 895043 (-5)); ((9, 5)%nat, L 21836 (-3)); ((9, 6)%nat, L 334032 (-4));
   ((9, 7)%nat, L 0 0); ((9, 1)%nat, L 4267837089 (-8)); ((9, 2)%nat, L (-4521583) (-2));
   ((10, 3)%nat, L 4 0); ((10, 4)%nat, L 116977 (-4)); ((10, 5)%nat, L 268142 (-4));
   ((10, 6)%nat, L 386164 (-4)); ((10, 7)%nat, L 0 0); ((10, 1)%nat, L 4699717188 (-8));
   ((10, 2)%nat, L (-5274683318) (-5)); ((11, 3)%nat, L 4 0); ((11, 4)%nat, L 137266 (-4));
   ((11, 5)%nat, L 304707 (-4)); ((11, 6)%nat, L 435561 (-4)); ((11, 7)%nat, L 0 0);
   ((11, 1)%nat, L 5207631631 (-8)); ((11, 2)%nat, L (-5710481056) (-5)); ((12, 3)%nat, L 4 0);
   ((12, 4)%nat, L 156865 (-4)); ((12, 5)%nat, L 338029 (-4)); ((12, 6)%nat, L 481731 (-4));
   ((12, 7)%nat, L 0 0); ((12, 1)%nat, L 5725830934 (-8)); ((12, 2)%nat, L (-6054676385) (-5));
   ((13, 3)%nat, L 4 0); ((13, 4)%nat, L 180241 (-4)); ((13, 5)%nat, L 381235 (-4));
   ((13, 6)%nat, L 533415 (-4)); ((13, 7)%nat, L 0 0); ((13, 1)%nat, L 6209646901 (-8));
   ((13, 2)%nat, L (-6660012837) (-5)); ((14, 3)%nat, L 4 0); ((14, 4)%nat, L 210069 (-4));
   ((14, 5)%nat, L 434931 (-4)); ((14, 6)%nat, L 583657 (-4)); ((14, 7)%nat, L 0 0);
   ((14, 1)%nat, L 6593909154 (-8)); ((14, 2)%nat, L (-7413145483) (-5));
   ((15, 3)%nat, L 247906 (-5)); ((15, 4)%nat, L 95806 (-5)); ((15, 5)%nat, L 45444 (-5));
   ((15, 6)%nat, L 156039 (-5)); ((15, 7)%nat, L (-13756) (-4)); ((15, 1)%nat, L 1307520288 (-8));
   ((15, 2)%nat, L (-5836943696) (-6)); ((16, 3)%nat, L 350146 (-5)); ((16, 4)%nat, L 107558 (-5));
   ((16, 5)%nat, L 101334 (-5)); ((16, 6)%nat, L 0 0); ((16, 7)%nat, L 0 0);
   ((16, 1)%nat, L 168017173 (-7)); ((16, 2)%nat, L (-231832269) (-5));
   ((17, 3)%nat, L 350055 (-5)); ((17, 4)%nat, L 102865 (-5)); ((17, 5)%nat, L 493 (-5));
   ((17, 6)%nat, L 0 0); ((17, 7)%nat, L 0 0); ((17, 1)%nat, L 1745786899 (-8));
   ((17, 2)%nat, L (-2635244116) (-6)); ((18, 3)%nat, L 400392 (-5)); ((18, 4)%nat, L 1059 (-5));
   ((18, 5)%nat, L 98763 (-5)); ((18, 6)%nat, L 306904 (-5)); ((18, 7)%nat, L 0 0);
   ((18, 1)%nat, L 2157882705 (-8)); ((18, 2)%nat, L (-7766733078) (-6)); ((19, 3)%nat, L 4 0);
   ((19, 4)%nat, L 311942 (-5)); ((19, 5)%nat, L 100243 (-5)); ((19, 6)%nat, L 0 0);
   ((19, 7)%nat, L 0 0); ((19, 1)%nat, L 215830944 (-7)); ((19, 2)%nat, L (-6069035869) (-6));
   ((20, 3)%nat, L 25 (-1)); ((20, 4)%nat, L 0 0); ((20, 5)%nat, L 0 0); ((20, 6)%nat, L 0 0);
   ((20, 7)%nat, L 0 0); ((20, 1)%nat, L 1004639507 (-8)); ((20, 2)%nat, L (-745375) (-3));
   ((21, 3)%nat, L 25 (-1)); ((21, 4)%nat, L 0 0); ((21, 5)%nat, L 0 0); ((21, 6)%nat, L 0 0);
   ((21, 7)%nat, L 0 0); ((21, 1)%nat, L 1004639507 (-8)); ((21, 2)%nat, L (-745375) (-3))].

(* src/gerg2008.rs:3340-4179  the 210 assignments bvij[i][j] = c, in source order *)
Definition G_setup_bvij : list ((nat * nat) * lit) :=
  [((1, 2)%nat, L 998721377 (-9)); ((1, 3)%nat, L 999518072 (-9)); ((1, 4)%nat, L 997547866 (-9));
   ((1, 5)%nat, L 100482707 (-8)); ((1, 6)%nat, L 1011240388 (-9)); ((1, 7)%nat, L 979105972 (-9));
   ((1, 8)%nat, L 1 0); ((1, 9)%nat, L 94833012 (-8)); ((1, 10)%nat, L 958015294 (-9));
   ((1, 11)%nat, L 962050831 (-9)); ((1, 12)%nat, L 994740603 (-9));
   ((1, 13)%nat, L 1002852287 (-9)); ((1, 14)%nat, L 1033086292 (-9)); ((1, 15)%nat, L 1 0);
   ((1, 16)%nat, L 1 0); ((1, 17)%nat, L 997340772 (-9)); ((1, 18)%nat, L 1012783169 (-9));
   ((1, 19)%nat, L 1012599087 (-9)); ((1, 20)%nat, L 1 0); ((1, 21)%nat, L 1034630259 (-9));
   ((2, 3)%nat, L 977794634 (-9)); ((2, 4)%nat, L 978880168 (-9)); ((2, 5)%nat, L 974424681 (-9));
   ((2, 6)%nat, L 98641583 (-8)); ((2, 7)%nat, L 99608261 (-8)); ((2, 8)%nat, L 1 0);
   ((2, 9)%nat, L 1 0); ((2, 10)%nat, L 1 0); ((2, 11)%nat, L 1 0); ((2, 12)%nat, L 1 0);
   ((2, 13)%nat, L 1 0); ((2, 14)%nat, L 1 0); ((2, 15)%nat, L 972532065 (-9));
   ((2, 16)%nat, L 99952177 (-8)); ((2, 17)%nat, L 1 0); ((2, 18)%nat, L 1 0);
   ((2, 19)%nat, L 910394249 (-9)); ((2, 20)%nat, L 969501055 (-9));
   ((2, 21)%nat, L 1004166412 (-9)); ((3, 4)%nat, L 1002525718 (-9));
   ((3, 5)%nat, L 996898004 (-9)); ((3, 6)%nat, L 1076551882 (-9));
   ((3, 7)%nat, L 1174760923 (-9)); ((3, 8)%nat, L 1060793104 (-9));
   ((3, 9)%nat, L 1024311498 (-9)); ((3, 10)%nat, L 1 0); ((3, 11)%nat, L 1205469976 (-9));
   ((3, 12)%nat, L 1026169373 (-9)); ((3, 13)%nat, L 1 0); ((3, 14)%nat, L 1000151132 (-9));
   ((3, 15)%nat, L 904142159 (-9)); ((3, 16)%nat, L 1 0); ((3, 17)%nat, L 1 0);
   ((3, 18)%nat, L 949055959 (-9)); ((3, 19)%nat, L 906630564 (-9));
   ((3, 20)%nat, L 846647561 (-9)); ((3, 21)%nat, L 1008392428 (-9));
   ((4, 5)%nat, L 997607277 (-9)); ((4, 6)%nat, L 1 0); ((4, 7)%nat, L 999157205 (-9));
   ((4, 8)%nat, L 1 0); ((4, 9)%nat, L 993851009 (-9)); ((4, 10)%nat, L 1 0); ((4, 11)%nat, L 1 0);
   ((4, 12)%nat, L 1007469726 (-9)); ((4, 13)%nat, L 1 0); ((4, 14)%nat, L 995676258 (-9));
   ((4, 15)%nat, L 925367171 (-9)); ((4, 16)%nat, L 1 0); ((4, 17)%nat, L 1 0);
   ((4, 18)%nat, L 1 0); ((4, 19)%nat, L 1010817909 (-9)); ((4, 20)%nat, L 1 0);
   ((4, 21)%nat, L 1 0); ((5, 6)%nat, L 999243146 (-9)); ((5, 7)%nat, L 999795868 (-9));
   ((5, 8)%nat, L 1040459289 (-9)); ((5, 9)%nat, L 1044919431 (-9)); ((5, 10)%nat, L 1 0);
   ((5, 11)%nat, L 1 0); ((5, 12)%nat, L 1 0); ((5, 13)%nat, L 1 0);
   ((5, 14)%nat, L 984104227 (-9)); ((5, 15)%nat, L 1 0); ((5, 16)%nat, L 1 0);
   ((5, 17)%nat, L 1 0); ((5, 18)%nat, L 1 0); ((5, 19)%nat, L 936811219 (-9));
   ((5, 20)%nat, L 1 0); ((5, 21)%nat, L 1 0); ((6, 7)%nat, L 999120311 (-9)); ((6, 8)%nat, L 1 0);
   ((6, 9)%nat, L 1 0); ((6, 10)%nat, L 1 0); ((6, 11)%nat, L 1 0); ((6, 12)%nat, L 1 0);
   ((6, 13)%nat, L 1 0); ((6, 14)%nat, L 1 0); ((6, 15)%nat, L 1 0); ((6, 16)%nat, L 1 0);
   ((6, 17)%nat, L 1 0); ((6, 18)%nat, L 1 0); ((6, 19)%nat, L 1012994431 (-9));
   ((6, 20)%nat, L 1 0); ((6, 21)%nat, L 1 0); ((7, 8)%nat, L 1 0); ((7, 9)%nat, L 1 0);
   ((7, 10)%nat, L 1 0); ((7, 11)%nat, L 1 0); ((7, 12)%nat, L 1 0); ((7, 13)%nat, L 1 0);
   ((7, 14)%nat, L 976951968 (-9)); ((7, 15)%nat, L 1 0); ((7, 16)%nat, L 1 0);
   ((7, 17)%nat, L 1 0); ((7, 18)%nat, L 1 0); ((7, 19)%nat, L 908113163 (-9));
   ((7, 20)%nat, L 1 0); ((7, 21)%nat, L 1 0); ((8, 9)%nat, L 1 0); ((8, 10)%nat, L 1 0);
   ((8, 11)%nat, L 1 0); ((8, 12)%nat, L 1 0); ((8, 13)%nat, L 1 0); ((8, 14)%nat, L 1 0);
   ((8, 15)%nat, L 1 0); ((8, 16)%nat, L 1 0); ((8, 17)%nat, L 1 0); ((8, 18)%nat, L 1 0);
   ((8, 19)%nat, L 1 0); ((8, 20)%nat, L 1 0); ((8, 21)%nat, L 1 0); ((9, 10)%nat, L 1 0);
   ((9, 11)%nat, L 1 0); ((9, 12)%nat, L 1 0); ((9, 13)%nat, L 1 0); ((9, 14)%nat, L 1 0);
   ((9, 15)%nat, L 1 0); ((9, 16)%nat, L 1 0); ((9, 17)%nat, L 1 0); ((9, 18)%nat, L 1 0);
   ((9, 19)%nat, L 984613203 (-9)); ((9, 20)%nat, L 1 0); ((9, 21)%nat, L 1 0);
   ((10, 11)%nat, L 1 0); ((10, 12)%nat, L 1 0); ((10, 13)%nat, L 1 0);
   ((10, 14)%nat, L 1001516371 (-9)); ((10, 15)%nat, L 1 0); ((10, 16)%nat, L 1 0);
   ((10, 17)%nat, L 1 0); ((10, 18)%nat, L 1 0); ((10, 19)%nat, L 754473958 (-9));
   ((10, 20)%nat, L 1 0); ((10, 21)%nat, L 1 0); ((11, 12)%nat, L 1 0); ((11, 13)%nat, L 1 0);
   ((11, 14)%nat, L 1 0); ((11, 15)%nat, L 1 0); ((11, 16)%nat, L 1 0); ((11, 17)%nat, L 1 0);
   ((11, 18)%nat, L 1 0); ((11, 19)%nat, L 828967164 (-9)); ((11, 20)%nat, L 1 0);
   ((11, 21)%nat, L 1 0); ((12, 13)%nat, L 1 0); ((12, 14)%nat, L 1 0); ((12, 15)%nat, L 1 0);
   ((12, 16)%nat, L 1 0); ((12, 17)%nat, L 1 0); ((12, 18)%nat, L 1 0); ((12, 19)%nat, L 1 0);
   ((12, 20)%nat, L 1 0); ((12, 21)%nat, L 1 0); ((13, 14)%nat, L 1 0); ((13, 15)%nat, L 1 0);
   ((13, 16)%nat, L 1 0); ((13, 17)%nat, L 1 0); ((13, 18)%nat, L 1 0); ((13, 19)%nat, L 1 0);
   ((13, 20)%nat, L 1 0); ((13, 21)%nat, L 1 0); ((14, 15)%nat, L 1695358382 (-9));
   ((14, 16)%nat, L 1 0); ((14, 17)%nat, L 1 0); ((14, 18)%nat, L 1 0);
   ((14, 19)%nat, L 975187766 (-9)); ((14, 20)%nat, L 1 0); ((14, 21)%nat, L 1 0);
   ((15, 16)%nat, L 1 0); ((15, 17)%nat, L 1 0); ((15, 18)%nat, L 1 0); ((15, 19)%nat, L 1 0);
   ((15, 20)%nat, L 1 0); ((15, 21)%nat, L 1 0); ((16, 17)%nat, L 1 0); ((16, 18)%nat, L 1 0);
   ((16, 19)%nat, L 1 0); ((16, 20)%nat, L 1 0); ((16, 21)%nat, L 999746847 (-9));
   ((17, 18)%nat, L 1 0); ((17, 19)%nat, L 795660392 (-9)); ((17, 20)%nat, L 1 0);
   ((17, 21)%nat, L 1 0); ((18, 19)%nat, L 1 0); ((18, 20)%nat, L 1 0); ((18, 21)%nat, L 1 0);
   ((19, 20)%nat, L 1 0); ((19, 21)%nat, L 1 0); ((20, 21)%nat, L 1 0)].

(* src/gerg2008.rs:3341-4180  the 210 assignments gvij[i][j] = c, in source order *)
Definition G_setup_gvij : list ((nat * nat) * lit) :=
  [((1, 2)%nat, L 1013950311 (-9)); ((1, 3)%nat, L 1002806594 (-9));
   ((1, 4)%nat, L 1006617867 (-9)); ((1, 5)%nat, L 1038470657 (-9));
   ((1, 6)%nat, L 1054319053 (-9)); ((1, 7)%nat, L 1045375122 (-9));
   ((1, 8)%nat, L 1343685343 (-9)); ((1, 9)%nat, L 1124508039 (-9));
   ((1, 10)%nat, L 1052643846 (-9)); ((1, 11)%nat, L 1156655935 (-9));
   ((1, 12)%nat, L 1116549372 (-9)); ((1, 13)%nat, L 1141895355 (-9));
   ((1, 14)%nat, L 1146089637 (-9)); ((1, 15)%nat, L 1018702573 (-9)); ((1, 16)%nat, L 1 0);
   ((1, 17)%nat, L 1006102927 (-9)); ((1, 18)%nat, L 1585018334 (-9));
   ((1, 19)%nat, L 1040161207 (-9)); ((1, 20)%nat, L 881405683 (-9));
   ((1, 21)%nat, L 1014678542 (-9)); ((2, 3)%nat, L 1047578256 (-9));
   ((2, 4)%nat, L 1042352891 (-9)); ((2, 5)%nat, L 1081025408 (-9));
   ((2, 6)%nat, L 1100576129 (-9)); ((2, 7)%nat, L 1146949309 (-9));
   ((2, 8)%nat, L 1154135439 (-9)); ((2, 9)%nat, L 1078877166 (-9));
   ((2, 10)%nat, L 1195952177 (-9)); ((2, 11)%nat, L 140455409 (-8));
   ((2, 12)%nat, L 1186067025 (-9)); ((2, 13)%nat, L 1100405929 (-9)); ((2, 14)%nat, L 1 0);
   ((2, 15)%nat, L 970115357 (-9)); ((2, 16)%nat, L 997082328 (-9));
   ((2, 17)%nat, L 1008690943 (-9)); ((2, 18)%nat, L 1094749685 (-9));
   ((2, 19)%nat, L 1256844157 (-9)); ((2, 20)%nat, L 932629867 (-9));
   ((2, 21)%nat, L 1002212182 (-9)); ((3, 4)%nat, L 1032876701 (-9));
   ((3, 5)%nat, L 1047596298 (-9)); ((3, 6)%nat, L 1081909003 (-9));
   ((3, 7)%nat, L 1222437324 (-9)); ((3, 8)%nat, L 1116793198 (-9));
   ((3, 9)%nat, L 1068406078 (-9)); ((3, 10)%nat, L 851343711 (-9));
   ((3, 11)%nat, L 1164585914 (-9)); ((3, 12)%nat, L 1104043935 (-9));
   ((3, 13)%nat, L 973386152 (-9)); ((3, 14)%nat, L 1183394668 (-9));
   ((3, 15)%nat, L 115279255 (-8)); ((3, 16)%nat, L 1 0); ((3, 17)%nat, L 1 0);
   ((3, 18)%nat, L 1542328793 (-9)); ((3, 19)%nat, L 1024085837 (-9));
   ((3, 20)%nat, L 864141549 (-9)); ((3, 21)%nat, L 1029205465 (-9));
   ((4, 5)%nat, L 100303472 (-8)); ((4, 6)%nat, L 1006616886 (-9));
   ((4, 7)%nat, L 1006179146 (-9)); ((4, 8)%nat, L 1045439935 (-9));
   ((4, 9)%nat, L 1026085655 (-9)); ((4, 10)%nat, L 1169701102 (-9));
   ((4, 11)%nat, L 1057666085 (-9)); ((4, 12)%nat, L 1071917985 (-9));
   ((4, 13)%nat, L 114353473 (-8)); ((4, 14)%nat, L 1098361281 (-9));
   ((4, 15)%nat, L 110607204 (-8)); ((4, 16)%nat, L 1 0); ((4, 17)%nat, L 1201417898 (-9));
   ((4, 18)%nat, L 1 0); ((4, 19)%nat, L 1030988277 (-9)); ((4, 20)%nat, L 1 0);
   ((4, 21)%nat, L 1 0); ((5, 6)%nat, L 1001156119 (-9)); ((5, 7)%nat, L 1003264179 (-9));
   ((5, 8)%nat, L 999432118 (-9)); ((5, 9)%nat, L 1019921513 (-9));
   ((5, 10)%nat, L 1057872566 (-9)); ((5, 11)%nat, L 1079648053 (-9));
   ((5, 12)%nat, L 1102764612 (-9)); ((5, 13)%nat, L 1199769134 (-9));
   ((5, 14)%nat, L 1053040574 (-9)); ((5, 15)%nat, L 107400611 (-8)); ((5, 16)%nat, L 1 0);
   ((5, 17)%nat, L 1108143673 (-9)); ((5, 18)%nat, L 1011759763 (-9));
   ((5, 19)%nat, L 1010593999 (-9)); ((5, 20)%nat, L 1 0); ((5, 21)%nat, L 1 0);
   ((6, 7)%nat, L 100041444 (-8)); ((6, 8)%nat, L 1002284353 (-9));
   ((6, 9)%nat, L 1002779804 (-9)); ((6, 10)%nat, L 1010493989 (-9));
   ((6, 11)%nat, L 1021668316 (-9)); ((6, 12)%nat, L 1032807063 (-9));
   ((6, 13)%nat, L 1047298475 (-9)); ((6, 14)%nat, L 1060243344 (-9));
   ((6, 15)%nat, L 1147595688 (-9)); ((6, 16)%nat, L 1 0); ((6, 17)%nat, L 1087272232 (-9));
   ((6, 18)%nat, L 1 0); ((6, 19)%nat, L 988591117 (-9)); ((6, 20)%nat, L 1 0);
   ((6, 21)%nat, L 1 0); ((7, 8)%nat, L 1002728434 (-9)); ((7, 9)%nat, L 101815965 (-8));
   ((7, 10)%nat, L 1034995284 (-9)); ((7, 11)%nat, L 1019174227 (-9));
   ((7, 12)%nat, L 1046905515 (-9)); ((7, 13)%nat, L 1049219137 (-9));
   ((7, 14)%nat, L 1027845529 (-9)); ((7, 15)%nat, L 1232939523 (-9)); ((7, 16)%nat, L 1 0);
   ((7, 17)%nat, L 1084740904 (-9)); ((7, 18)%nat, L 1223638763 (-9));
   ((7, 19)%nat, L 1033366041 (-9)); ((7, 20)%nat, L 1 0); ((7, 21)%nat, L 1214638734 (-9));
   ((8, 9)%nat, L 1000024335 (-9)); ((8, 10)%nat, L 1002995876 (-9));
   ((8, 11)%nat, L 1009928206 (-9)); ((8, 12)%nat, L 1017880545 (-9));
   ((8, 13)%nat, L 1028994325 (-9)); ((8, 14)%nat, L 1039372957 (-9));
   ((8, 15)%nat, L 1184340443 (-9)); ((8, 16)%nat, L 1 0); ((8, 17)%nat, L 1116694577 (-9));
   ((8, 18)%nat, L 1 0); ((8, 19)%nat, L 835763343 (-9)); ((8, 20)%nat, L 1 0);
   ((8, 21)%nat, L 1 0); ((9, 10)%nat, L 1002480637 (-9)); ((9, 11)%nat, L 1008972412 (-9));
   ((9, 12)%nat, L 1069223964 (-9)); ((9, 13)%nat, L 1034910633 (-9));
   ((9, 14)%nat, L 1016370338 (-9)); ((9, 15)%nat, L 1188334783 (-9)); ((9, 16)%nat, L 1 0);
   ((9, 17)%nat, L 1119954454 (-9)); ((9, 18)%nat, L 95667731 (-8));
   ((9, 19)%nat, L 1076539234 (-9)); ((9, 20)%nat, L 1 0); ((9, 21)%nat, L 1 0);
   ((10, 11)%nat, L 1001508227 (-9)); ((10, 12)%nat, L 1006268954 (-9));
   ((10, 13)%nat, L 102076168 (-8)); ((10, 14)%nat, L 1013511439 (-9));
   ((10, 15)%nat, L 1243461678 (-9)); ((10, 16)%nat, L 1 0); ((10, 17)%nat, L 1155145836 (-9));
   ((10, 18)%nat, L 1170217596 (-9)); ((10, 19)%nat, L 1339283552 (-9)); ((10, 20)%nat, L 1 0);
   ((10, 21)%nat, L 1 0); ((11, 12)%nat, L 1006767176 (-9)); ((11, 13)%nat, L 1001370076 (-9));
   ((11, 14)%nat, L 1002972346 (-9)); ((11, 15)%nat, L 1159131722 (-9)); ((11, 16)%nat, L 1 0);
   ((11, 17)%nat, L 1190354273 (-9)); ((11, 18)%nat, L 1 0); ((11, 19)%nat, L 1087956749 (-9));
   ((11, 20)%nat, L 1 0); ((11, 21)%nat, L 1 0); ((12, 13)%nat, L 1001357085 (-9));
   ((12, 14)%nat, L 1002553544 (-9)); ((12, 15)%nat, L 1305249405 (-9)); ((12, 16)%nat, L 1 0);
   ((12, 17)%nat, L 1219206702 (-9)); ((12, 18)%nat, L 599484191 (-9)); ((12, 19)%nat, L 1 0);
   ((12, 20)%nat, L 1 0); ((12, 21)%nat, L 1 0); ((13, 14)%nat, L 100081052 (-8));
   ((13, 15)%nat, L 1342647661 (-9)); ((13, 16)%nat, L 1 0); ((13, 17)%nat, L 1252151449 (-9));
   ((13, 18)%nat, L 1 0); ((13, 19)%nat, L 1082905109 (-9)); ((13, 20)%nat, L 1 0);
   ((13, 21)%nat, L 1 0); ((14, 15)%nat, L 1120233729 (-9)); ((14, 16)%nat, L 1 0);
   ((14, 17)%nat, L 87018496 (-8)); ((14, 18)%nat, L 551405318 (-9));
   ((14, 19)%nat, L 1171714677 (-9)); ((14, 20)%nat, L 1 0); ((14, 21)%nat, L 1 0);
   ((15, 16)%nat, L 1 0); ((15, 17)%nat, L 1121416201 (-9)); ((15, 18)%nat, L 1 0);
   ((15, 19)%nat, L 1 0); ((15, 20)%nat, L 1 0); ((15, 21)%nat, L 1 0); ((16, 17)%nat, L 1 0);
   ((16, 18)%nat, L 1143174289 (-9)); ((16, 19)%nat, L 1 0); ((16, 20)%nat, L 1 0);
   ((16, 21)%nat, L 993907223 (-9)); ((17, 18)%nat, L 1 0); ((17, 19)%nat, L 1101731308 (-9));
   ((17, 20)%nat, L 1 0); ((17, 21)%nat, L 1159720623 (-9)); ((18, 19)%nat, L 1014832832 (-9));
   ((18, 20)%nat, L 1 0); ((18, 21)%nat, L 1038993495 (-9)); ((19, 20)%nat, L 1 0);
   ((19, 21)%nat, L 1 0); ((20, 21)%nat, L 1 0)].

(* src/gerg2008.rs:3342-4181  the 210 assignments btij[i][j] = c, in source order *)
Definition G_setup_btij : list ((nat * nat) * lit) :=
  [((1, 2)%nat, L 99809883 (-8)); ((1, 3)%nat, L 102262449 (-8)); ((1, 4)%nat, L 996336508 (-9));
   ((1, 5)%nat, L 989680305 (-9)); ((1, 6)%nat, L 980315756 (-9)); ((1, 7)%nat, L 99417491 (-8));
   ((1, 8)%nat, L 1 0); ((1, 9)%nat, L 992127525 (-9)); ((1, 10)%nat, L 981844797 (-9));
   ((1, 11)%nat, L 977431529 (-9)); ((1, 12)%nat, L 957473785 (-9));
   ((1, 13)%nat, L 947716769 (-9)); ((1, 14)%nat, L 937777823 (-9)); ((1, 15)%nat, L 1 0);
   ((1, 16)%nat, L 1 0); ((1, 17)%nat, L 987411732 (-9)); ((1, 18)%nat, L 1063333913 (-9));
   ((1, 19)%nat, L 1011090031 (-9)); ((1, 20)%nat, L 1 0); ((1, 21)%nat, L 990954281 (-9));
   ((2, 3)%nat, L 1005894529 (-9)); ((2, 4)%nat, L 1007671428 (-9));
   ((2, 5)%nat, L 1002677329 (-9)); ((2, 6)%nat, L 99286813 (-8)); ((2, 7)%nat, L 994515234 (-9));
   ((2, 8)%nat, L 1 0); ((2, 9)%nat, L 1 0); ((2, 10)%nat, L 1 0); ((2, 11)%nat, L 1 0);
   ((2, 12)%nat, L 1 0); ((2, 13)%nat, L 95637945 (-8)); ((2, 14)%nat, L 957934447 (-9));
   ((2, 15)%nat, L 946134337 (-9)); ((2, 16)%nat, L 997190589 (-9)); ((2, 17)%nat, L 1 0);
   ((2, 18)%nat, L 1 0); ((2, 19)%nat, L 1004692366 (-9)); ((2, 20)%nat, L 692868765 (-9));
   ((2, 21)%nat, L 999069843 (-9)); ((3, 4)%nat, L 1013871147 (-9));
   ((3, 5)%nat, L 1033620538 (-9)); ((3, 6)%nat, L 1023339824 (-9));
   ((3, 7)%nat, L 1018171004 (-9)); ((3, 8)%nat, L 1019180957 (-9));
   ((3, 9)%nat, L 1027000795 (-9)); ((3, 10)%nat, L 1 0); ((3, 11)%nat, L 1011806317 (-9));
   ((3, 12)%nat, L 102969078 (-8)); ((3, 13)%nat, L 100768862 (-8));
   ((3, 14)%nat, L 102002879 (-8)); ((3, 15)%nat, L 942320195 (-9)); ((3, 16)%nat, L 1 0);
   ((3, 17)%nat, L 1 0); ((3, 18)%nat, L 997372205 (-9)); ((3, 19)%nat, L 1016034583 (-9));
   ((3, 20)%nat, L 76837763 (-8)); ((3, 21)%nat, L 996512863 (-9)); ((4, 5)%nat, L 996199694 (-9));
   ((4, 6)%nat, L 1 0); ((4, 7)%nat, L 999130554 (-9)); ((4, 8)%nat, L 1 0);
   ((4, 9)%nat, L 998688946 (-9)); ((4, 10)%nat, L 1 0); ((4, 11)%nat, L 1 0);
   ((4, 12)%nat, L 984068272 (-9)); ((4, 13)%nat, L 1 0); ((4, 14)%nat, L 970918061 (-9));
   ((4, 15)%nat, L 932969831 (-9)); ((4, 16)%nat, L 1 0); ((4, 17)%nat, L 1 0);
   ((4, 18)%nat, L 1 0); ((4, 19)%nat, L 990197354 (-9)); ((4, 20)%nat, L 1 0);
   ((4, 21)%nat, L 1 0); ((5, 6)%nat, L 998012298 (-9)); ((5, 7)%nat, L 1000310289 (-9));
   ((5, 8)%nat, L 994364425 (-9)); ((5, 9)%nat, L 996484021 (-9)); ((5, 10)%nat, L 1 0);
   ((5, 11)%nat, L 1 0); ((5, 12)%nat, L 1 0); ((5, 13)%nat, L 1 0);
   ((5, 14)%nat, L 985331233 (-9)); ((5, 15)%nat, L 1 0); ((5, 16)%nat, L 1 0);
   ((5, 17)%nat, L 1 0); ((5, 18)%nat, L 1 0); ((5, 19)%nat, L 992573556 (-9));
   ((5, 20)%nat, L 1 0); ((5, 21)%nat, L 1 0); ((6, 7)%nat, L 999922459 (-9)); ((6, 8)%nat, L 1 0);
   ((6, 9)%nat, L 1 0); ((6, 10)%nat, L 1 0); ((6, 11)%nat, L 1 0); ((6, 12)%nat, L 1 0);
   ((6, 13)%nat, L 1 0); ((6, 14)%nat, L 1 0); ((6, 15)%nat, L 1 0); ((6, 16)%nat, L 1 0);
   ((6, 17)%nat, L 1 0); ((6, 18)%nat, L 1 0); ((6, 19)%nat, L 974550548 (-9));
   ((6, 20)%nat, L 1 0); ((6, 21)%nat, L 1 0); ((7, 8)%nat, L 1 0); ((7, 9)%nat, L 1 0);
   ((7, 10)%nat, L 1 0); ((7, 11)%nat, L 1 0); ((7, 12)%nat, L 1 0); ((7, 13)%nat, L 1 0);
   ((7, 14)%nat, L 993688386 (-9)); ((7, 15)%nat, L 1 0); ((7, 16)%nat, L 1 0);
   ((7, 17)%nat, L 1 0); ((7, 18)%nat, L 1 0); ((7, 19)%nat, L 985962886 (-9));
   ((7, 20)%nat, L 1 0); ((7, 21)%nat, L 1 0); ((8, 9)%nat, L 1 0); ((8, 10)%nat, L 1 0);
   ((8, 11)%nat, L 1 0); ((8, 12)%nat, L 1 0); ((8, 13)%nat, L 1 0); ((8, 14)%nat, L 1 0);
   ((8, 15)%nat, L 1 0); ((8, 16)%nat, L 1 0); ((8, 17)%nat, L 1 0); ((8, 18)%nat, L 1 0);
   ((8, 19)%nat, L 1 0); ((8, 20)%nat, L 1 0); ((8, 21)%nat, L 1 0); ((9, 10)%nat, L 1 0);
   ((9, 11)%nat, L 1 0); ((9, 12)%nat, L 1 0); ((9, 13)%nat, L 1 0); ((9, 14)%nat, L 1 0);
   ((9, 15)%nat, L 1 0); ((9, 16)%nat, L 1 0); ((9, 17)%nat, L 1 0); ((9, 18)%nat, L 1 0);
   ((9, 19)%nat, L 962006651 (-9)); ((9, 20)%nat, L 1 0); ((9, 21)%nat, L 1 0);
   ((10, 11)%nat, L 1 0); ((10, 12)%nat, L 1 0); ((10, 13)%nat, L 1 0);
   ((10, 14)%nat, L 99764101 (-8)); ((10, 15)%nat, L 1 0); ((10, 16)%nat, L 1 0);
   ((10, 17)%nat, L 1 0); ((10, 18)%nat, L 1 0); ((10, 19)%nat, L 985891113 (-9));
   ((10, 20)%nat, L 1 0); ((10, 21)%nat, L 1 0); ((11, 12)%nat, L 1 0); ((11, 13)%nat, L 1 0);
   ((11, 14)%nat, L 1 0); ((11, 15)%nat, L 1 0); ((11, 16)%nat, L 1 0); ((11, 17)%nat, L 1 0);
   ((11, 18)%nat, L 1 0); ((11, 19)%nat, L 988937417 (-9)); ((11, 20)%nat, L 1 0);
   ((11, 21)%nat, L 1 0); ((12, 13)%nat, L 1 0); ((12, 14)%nat, L 1 0); ((12, 15)%nat, L 1 0);
   ((12, 16)%nat, L 1 0); ((12, 17)%nat, L 1 0); ((12, 18)%nat, L 1 0); ((12, 19)%nat, L 1 0);
   ((12, 20)%nat, L 1 0); ((12, 21)%nat, L 1 0); ((13, 14)%nat, L 1 0); ((13, 15)%nat, L 1 0);
   ((13, 16)%nat, L 1 0); ((13, 17)%nat, L 1 0); ((13, 18)%nat, L 1 0); ((13, 19)%nat, L 1 0);
   ((13, 20)%nat, L 1 0); ((13, 21)%nat, L 1 0); ((14, 15)%nat, L 1064818089 (-9));
   ((14, 16)%nat, L 1 0); ((14, 17)%nat, L 1049594632 (-9)); ((14, 18)%nat, L 897162268 (-9));
   ((14, 19)%nat, L 973091413 (-9)); ((14, 20)%nat, L 1 0); ((14, 21)%nat, L 1 0);
   ((15, 16)%nat, L 1 0); ((15, 17)%nat, L 1 0); ((15, 18)%nat, L 1 0); ((15, 19)%nat, L 1 0);
   ((15, 20)%nat, L 1 0); ((15, 21)%nat, L 1 0); ((16, 17)%nat, L 1 0); ((16, 18)%nat, L 1 0);
   ((16, 19)%nat, L 1 0); ((16, 20)%nat, L 1 0); ((16, 21)%nat, L 1000023103 (-9));
   ((17, 18)%nat, L 1 0); ((17, 19)%nat, L 1025536736 (-9)); ((17, 20)%nat, L 1 0);
   ((17, 21)%nat, L 1 0); ((18, 19)%nat, L 1 0); ((18, 20)%nat, L 1 0); ((18, 21)%nat, L 1 0);
   ((19, 20)%nat, L 1 0); ((19, 21)%nat, L 1 0); ((20, 21)%nat, L 1 0)].

(* src/gerg2008.rs:3343-4182  the 210 assignments gtij[i][j] = c, in source order *)
Definition G_setup_gtij : list ((nat * nat) * lit) :=
  [((1, 2)%nat, L 979273013 (-9)); ((1, 3)%nat, L 975665369 (-9)); ((1, 4)%nat, L 1049707697 (-9));
   ((1, 5)%nat, L 1098655531 (-9)); ((1, 6)%nat, L 1161117729 (-9));
   ((1, 7)%nat, L 1171607691 (-9)); ((1, 8)%nat, L 1188899743 (-9));
   ((1, 9)%nat, L 1249173968 (-9)); ((1, 10)%nat, L 1330570181 (-9));
   ((1, 11)%nat, L 1379850328 (-9)); ((1, 12)%nat, L 1449245409 (-9));
   ((1, 13)%nat, L 1528532478 (-9)); ((1, 14)%nat, L 1568231489 (-9));
   ((1, 15)%nat, L 1352643115 (-9)); ((1, 16)%nat, L 95 (-2)); ((1, 17)%nat, L 987473033 (-9));
   ((1, 18)%nat, L 775810513 (-9)); ((1, 19)%nat, L 961155729 (-9));
   ((1, 20)%nat, L 3159776855 (-9)); ((1, 21)%nat, L 989843388 (-9));
   ((2, 3)%nat, L 1107654104 (-9)); ((2, 4)%nat, L 1098650964 (-9));
   ((2, 5)%nat, L 1201264026 (-9)); ((2, 6)%nat, L 1284462634 (-9));
   ((2, 7)%nat, L 1304886838 (-9)); ((2, 8)%nat, L 138177077 (-8));
   ((2, 9)%nat, L 1419029041 (-9)); ((2, 10)%nat, L 1472607971 (-9));
   ((2, 11)%nat, L 1520975334 (-9)); ((2, 12)%nat, L 1733280051 (-9));
   ((2, 13)%nat, L 1749119996 (-9)); ((2, 14)%nat, L 1822157123 (-9));
   ((2, 15)%nat, L 1175696583 (-9)); ((2, 16)%nat, L 995157044 (-9));
   ((2, 17)%nat, L 993425388 (-9)); ((2, 18)%nat, L 968808467 (-9)); ((2, 19)%nat, L 9601742 (-7));
   ((2, 20)%nat, L 147183158 (-8)); ((2, 21)%nat, L 990034831 (-9)); ((3, 4)%nat, L 90094953 (-8));
   ((3, 5)%nat, L 908772477 (-9)); ((3, 6)%nat, L 929982936 (-9)); ((3, 7)%nat, L 911498231 (-9));
   ((3, 8)%nat, L 961218039 (-9)); ((3, 9)%nat, L 979217302 (-9));
   ((3, 10)%nat, L 1038675574 (-9)); ((3, 11)%nat, L 1046169823 (-9));
   ((3, 12)%nat, L 1074455386 (-9)); ((3, 13)%nat, L 1140671202 (-9));
   ((3, 14)%nat, L 1145512213 (-9)); ((3, 15)%nat, L 1782924792 (-9)); ((3, 16)%nat, L 1 0);
   ((3, 17)%nat, L 1 0); ((3, 18)%nat, L 775453996 (-9)); ((3, 19)%nat, L 92601888 (-8));
   ((3, 20)%nat, L 3207456948 (-9)); ((3, 21)%nat, L 1050971635 (-9));
   ((4, 5)%nat, L 101473019 (-8)); ((4, 6)%nat, L 1033283811 (-9));
   ((4, 7)%nat, L 1034832749 (-9)); ((4, 8)%nat, L 1021150247 (-9));
   ((4, 9)%nat, L 1066665676 (-9)); ((4, 10)%nat, L 1092177796 (-9));
   ((4, 11)%nat, L 1134532014 (-9)); ((4, 12)%nat, L 1168636194 (-9));
   ((4, 13)%nat, L 105603303 (-8)); ((4, 14)%nat, L 1237191558 (-9));
   ((4, 15)%nat, L 1902008495 (-9)); ((4, 16)%nat, L 1 0); ((4, 17)%nat, L 1069224728 (-9));
   ((4, 18)%nat, L 1 0); ((4, 19)%nat, L 90273666 (-8)); ((4, 20)%nat, L 1 0);
   ((4, 21)%nat, L 1 0); ((5, 6)%nat, L 1005250774 (-9)); ((5, 7)%nat, L 1007392782 (-9));
   ((5, 8)%nat, L 10032695 (-7)); ((5, 9)%nat, L 1008344412 (-9));
   ((5, 10)%nat, L 1025657518 (-9)); ((5, 11)%nat, L 1050044169 (-9));
   ((5, 12)%nat, L 1063694129 (-9)); ((5, 13)%nat, L 1109973833 (-9));
   ((5, 14)%nat, L 1140905252 (-9)); ((5, 15)%nat, L 2308215191 (-9)); ((5, 16)%nat, L 1 0);
   ((5, 17)%nat, L 1197564208 (-9)); ((5, 18)%nat, L 600340961 (-9));
   ((5, 19)%nat, L 905829247 (-9)); ((5, 20)%nat, L 1 0); ((5, 21)%nat, L 1 0);
   ((6, 7)%nat, L 1001432824 (-9)); ((6, 8)%nat, L 1001835788 (-9));
   ((6, 9)%nat, L 1002495889 (-9)); ((6, 10)%nat, L 1006018054 (-9));
   ((6, 11)%nat, L 100988576 (-8)); ((6, 12)%nat, L 1013945424 (-9));
   ((6, 13)%nat, L 1017817492 (-9)); ((6, 14)%nat, L 1021624748 (-9));
   ((6, 15)%nat, L 1895305393 (-9)); ((6, 16)%nat, L 1 0); ((6, 17)%nat, L 1161390082 (-9));
   ((6, 18)%nat, L 1 0); ((6, 19)%nat, L 937130844 (-9)); ((6, 20)%nat, L 1 0);
   ((6, 21)%nat, L 1 0); ((7, 8)%nat, L 1000792201 (-9)); ((7, 9)%nat, L 100214364 (-8));
   ((7, 10)%nat, L 100915706 (-8)); ((7, 11)%nat, L 1021283378 (-9));
   ((7, 12)%nat, L 1033180106 (-9)); ((7, 13)%nat, L 1014096448 (-9));
   ((7, 14)%nat, L 1076466918 (-9)); ((7, 15)%nat, L 2509259945 (-9)); ((7, 16)%nat, L 1 0);
   ((7, 17)%nat, L 1173916162 (-9)); ((7, 18)%nat, L 615512682 (-9));
   ((7, 19)%nat, L 926156602 (-9)); ((7, 20)%nat, L 1 0); ((7, 21)%nat, L 1245039498 (-9));
   ((8, 9)%nat, L 1000050537 (-9)); ((8, 10)%nat, L 1001204174 (-9));
   ((8, 11)%nat, L 1003194615 (-9)); ((8, 12)%nat, L 100564748 (-8));
   ((8, 13)%nat, L 1008191499 (-9)); ((8, 14)%nat, L 1010825138 (-9));
   ((8, 15)%nat, L 1996386669 (-9)); ((8, 16)%nat, L 1 0); ((8, 17)%nat, L 1199326059 (-9));
   ((8, 18)%nat, L 1 0); ((8, 19)%nat, L 982651529 (-9)); ((8, 20)%nat, L 1 0);
   ((8, 21)%nat, L 1 0); ((9, 10)%nat, L 1000761237 (-9)); ((9, 11)%nat, L 1002441051 (-9));
   ((9, 12)%nat, L 1016422347 (-9)); ((9, 13)%nat, L 1103421755 (-9));
   ((9, 14)%nat, L 1049035838 (-9)); ((9, 15)%nat, L 2013859174 (-9)); ((9, 16)%nat, L 1 0);
   ((9, 17)%nat, L 1206043295 (-9)); ((9, 18)%nat, L 447666011 (-9));
   ((9, 19)%nat, L 959065662 (-9)); ((9, 20)%nat, L 1 0); ((9, 21)%nat, L 1 0);
   ((10, 11)%nat, L 999762786 (-9)); ((10, 12)%nat, L 1001633952 (-9));
   ((10, 13)%nat, L 1055369591 (-9)); ((10, 14)%nat, L 1028939539 (-9));
   ((10, 15)%nat, L 3021197546 (-9)); ((10, 16)%nat, L 1 0); ((10, 17)%nat, L 1233272781 (-9));
   ((10, 18)%nat, L 569681333 (-9)); ((10, 19)%nat, L 956075596 (-9)); ((10, 20)%nat, L 1 0);
   ((10, 21)%nat, L 1 0); ((11, 12)%nat, L 998793111 (-9)); ((11, 13)%nat, L 1001150096 (-9));
   ((11, 14)%nat, L 1002229938 (-9)); ((11, 15)%nat, L 3169143057 (-9)); ((11, 16)%nat, L 1 0);
   ((11, 17)%nat, L 1256123503 (-9)); ((11, 18)%nat, L 1 0); ((11, 19)%nat, L 1013453092 (-9));
   ((11, 20)%nat, L 1 0); ((11, 21)%nat, L 1 0); ((12, 13)%nat, L 1000235044 (-9));
   ((12, 14)%nat, L 1007186267 (-9)); ((12, 15)%nat, L 2191555216 (-9)); ((12, 16)%nat, L 1 0);
   ((12, 17)%nat, L 1276565536 (-9)); ((12, 18)%nat, L 662072469 (-9)); ((12, 19)%nat, L 1 0);
   ((12, 20)%nat, L 1 0); ((12, 21)%nat, L 1 0); ((13, 14)%nat, L 1000182392 (-9));
   ((13, 15)%nat, L 223435404 (-8)); ((13, 16)%nat, L 1 0); ((13, 17)%nat, L 1294070556 (-9));
   ((13, 18)%nat, L 1 0); ((13, 19)%nat, L 1086557826 (-9)); ((13, 20)%nat, L 1 0);
   ((13, 21)%nat, L 1 0); ((14, 15)%nat, L 3786003724 (-9)); ((14, 16)%nat, L 1 0);
   ((14, 17)%nat, L 1803567587 (-9)); ((14, 18)%nat, L 740416402 (-9));
   ((14, 19)%nat, L 1103693489 (-9)); ((14, 20)%nat, L 1 0); ((14, 21)%nat, L 1 0);
   ((15, 16)%nat, L 1 0); ((15, 17)%nat, L 1377504607 (-9)); ((15, 18)%nat, L 1 0);
   ((15, 19)%nat, L 1 0); ((15, 20)%nat, L 1 0); ((15, 21)%nat, L 1 0); ((16, 17)%nat, L 1 0);
   ((16, 18)%nat, L 964767932 (-9)); ((16, 19)%nat, L 1 0); ((16, 20)%nat, L 1 0);
   ((16, 21)%nat, L 990430423 (-9)); ((17, 18)%nat, L 1 0); ((17, 19)%nat, L 1022749748 (-9));
   ((17, 20)%nat, L 1 0); ((17, 21)%nat, L 954215746 (-9)); ((18, 19)%nat, L 940587083 (-9));
   ((18, 20)%nat, L 1 0); ((18, 21)%nat, L 1070941866 (-9)); ((19, 20)%nat, L 1 0);
   ((19, 21)%nat, L 1 0); ((20, 21)%nat, L 1 0)].

