(* GENERATED by tools/gen_tables.py from /repo/src/detail.rs -- constant data only.
   A decimal literal such as 0.153_832_6 is written L 1538326 (-7), i.e. m * 10^e. *)
From Coq Require Import ZArith List.
From Verif Require Import FArith.
Import ListNotations.
Local Open Scope Z_scope.

(* src/detail.rs:13-35  const MMI *)
Definition D_MMI : list lit :=
  [L 16043 (-3); L 280135 (-4); L 4401 (-2); L 3007 (-2); L 44097 (-3); L 58123 (-3); L 58123 (-3);
   L 7215 (-2); L 7215 (-2); L 86177 (-3); L 100204 (-3); L 114231 (-3); L 128258 (-3);
   L 142285 (-3); L 20159 (-4); L 319988 (-4); L 2801 (-2); L 180153 (-4); L 34082 (-3);
   L 40026 (-4); L 39948 (-3)].

(* src/detail.rs:38-97  const AN *)
Definition D_AN : list lit :=
  [L 1538326 (-7); L 1341953 (-6); L (-2998583) (-6); L (-4831228) (-8); L 3757965 (-7);
   L (-1589575) (-6); L (-5358847) (-8); L 88659463 (-8); L (-71023704) (-8); L (-1471722) (-6);
   L 132185035 (-8); L (-78665925) (-8); L 229129 (-14); L 1576724 (-7); L (-4363864) (-7);
   L (-4408159) (-8); L (-3433888) (-9); L 3205905 (-8); L 2487355 (-8); L 7332279 (-8);
   L (-1600573) (-9); L 6424706 (-7); L (-4162601) (-7); L (-6689957) (-8); L 2791795 (-7);
   L (-6966051) (-7); L (-2860589) (-9); L (-8098836) (-9); L 3150547 (-6); L 7224479 (-9);
   L (-7057529) (-7); L 5349792 (-7); L (-7931491) (-8); L (-1418465) (-6); L (-599905) (-22);
   L 1058402 (-7); L 3431729 (-8); L (-7022847) (-9); L 2495587 (-8); L 4296818 (-8);
   L 7465453 (-7); L (-2919613) (-7); L 7294616 (-6); L (-9936757) (-6); L (-5399808) (-9);
   L (-2432567) (-7); L 4987016 (-8); L 3733797 (-9); L 1874951 (-6); L 2168144 (-9);
   L (-6587164) (-7); L 205518 (-9); L 9776195 (-9); L (-2048708) (-8); L 1557322 (-8);
   L 6862415 (-9); L (-1226752) (-9); L 2850908 (-9)].

(* src/detail.rs:100-103  const BN *)
Definition D_BN : list nat :=
  [1; 1; 1; 1; 1; 1; 1; 1; 1; 1; 1; 1; 1; 1; 1; 1; 1; 1; 2; 2; 2; 2; 2; 2; 2; 2; 2; 3; 3; 3; 3; 3;
   3; 3; 3; 3; 3; 4; 4; 4; 4; 4; 4; 4; 5; 5; 5; 5; 5; 6; 6; 7; 7; 8; 8; 8; 9; 9]%nat.

(* src/detail.rs:107-110  const KN *)
Definition D_KN : list nat :=
  [0; 0; 0; 0; 0; 0; 0; 0; 0; 0; 0; 0; 3; 2; 2; 2; 4; 4; 0; 0; 2; 2; 2; 4; 4; 4; 4; 0; 1; 1; 2; 2;
   3; 3; 4; 4; 4; 0; 0; 2; 2; 2; 4; 4; 0; 2; 2; 4; 4; 0; 2; 0; 2; 1; 2; 2; 2; 2]%nat.

(* src/detail.rs:113-118  const UN *)
Definition D_UN : list lit :=
  [L 0 0; L 5 (-1); L 1 0; L 35 (-1); L (-5) (-1); L 45 (-1); L 5 (-1); L 75 (-1); L 95 (-1);
   L 6 0; L 12 0; L 125 (-1); L (-6) 0; L 2 0; L 3 0; L 2 0; L 2 0; L 11 0; L (-5) (-1); L 5 (-1);
   L 0 0; L 4 0; L 6 0; L 21 0; L 23 0; L 22 0; L (-1) 0; L (-5) (-1); L 7 0; L (-1) 0; L 6 0;
   L 4 0; L 1 0; L 9 0; L (-13) 0; L 21 0; L 8 0; L (-5) (-1); L 0 0; L 2 0; L 7 0; L 9 0; L 22 0;
   L 23 0; L 1 0; L 9 0; L 3 0; L 8 0; L 23 0; L 15 (-1); L 5 0; L (-5) (-1); L 4 0; L 7 0; L 3 0;
   L 0 0; L 1 0; L 0 0].

(* src/detail.rs:122-125  const FN *)
Definition D_FN : list nat :=
  [0; 0; 0; 0; 0; 0; 0; 0; 0; 0; 0; 0; 1; 0; 0; 0; 0; 0; 0; 0; 0; 0; 0; 0; 0; 0; 1; 0; 0; 1; 0; 0;
   0; 0; 1; 0; 0; 0; 0; 0; 0; 0; 0; 0; 0; 0; 0; 0; 0; 0; 0; 0; 0; 0; 0; 0; 0; 0]%nat.

(* src/detail.rs:129-132  const GN *)
Definition D_GN : list nat :=
  [0; 0; 0; 0; 1; 1; 0; 0; 0; 0; 0; 0; 0; 0; 0; 0; 0; 0; 0; 0; 0; 0; 0; 0; 1; 0; 0; 0; 1; 0; 0; 1;
   1; 1; 0; 0; 0; 0; 0; 0; 0; 0; 0; 0; 0; 0; 0; 0; 0; 0; 1; 0; 0; 1; 0; 1; 0; 0]%nat.

(* src/detail.rs:136-139  const QN *)
Definition D_QN : list nat :=
  [0; 0; 0; 0; 0; 0; 1; 0; 0; 0; 0; 0; 0; 0; 0; 1; 0; 0; 0; 0; 0; 0; 0; 0; 0; 1; 0; 1; 0; 0; 0; 0;
   0; 0; 0; 0; 1; 0; 0; 0; 0; 1; 0; 0; 0; 0; 1; 0; 1; 0; 0; 1; 0; 0; 0; 0; 0; 1]%nat.

(* src/detail.rs:142-145  const SN *)
Definition D_SN : list nat :=
  [0; 0; 0; 0; 0; 0; 0; 1; 1; 0; 0; 0; 0; 0; 0; 0; 0; 0; 0; 0; 0; 0; 0; 0; 0; 0; 0; 0; 0; 0; 0; 0;
   0; 0; 0; 0; 0; 0; 0; 0; 0; 0; 0; 0; 0; 0; 0; 0; 0; 0; 0; 0; 0; 0; 0; 0; 0; 0]%nat.

(* src/detail.rs:148-151  const WN *)
Definition D_WN : list nat :=
  [0; 0; 0; 0; 0; 0; 0; 0; 0; 1; 1; 1; 0; 0; 0; 0; 0; 0; 0; 0; 0; 0; 0; 0; 0; 0; 0; 0; 0; 0; 0; 0;
   0; 0; 0; 0; 0; 0; 0; 0; 0; 0; 0; 0; 0; 0; 0; 0; 0; 0; 0; 0; 0; 0; 0; 0; 0; 0]%nat.

(* src/detail.rs:154-176  const EI *)
Definition D_EI : list lit :=
  [L 1513183 (-4); L 9973778 (-5); L 2419606 (-4); L 2441667 (-4); L 2981183 (-4); L 3240689 (-4);
   L 3376389 (-4); L 3655999 (-4); L 3706823 (-4); L 402636293 (-6); L 42772263 (-5);
   L 450325022 (-6); L 470840891 (-6); L 489558373 (-6); L 2695794 (-5); L 1227667 (-4);
   L 1055348 (-4); L 5140156 (-4); L 296355 (-3); L 2610111 (-6); L 1196299 (-4)].

(* src/detail.rs:178-200  const KI *)
Definition D_KI : list lit :=
  [L 4619255 (-7); L 4479153 (-7); L 4557489 (-7); L 5279209 (-7); L 583749 (-6); L 6406937 (-7);
   L 6341423 (-7); L 6738577 (-7); L 6798307 (-7); L 7175118 (-7); L 7525189 (-7); L 784955 (-6);
   L 8152731 (-7); L 8437826 (-7); L 3514916 (-7); L 4186954 (-7); L 4533894 (-7); L 3825868 (-7);
   L 4618263 (-7); L 3589888 (-7); L 4216551 (-7)].

(* src/detail.rs:203-207  const GI *)
Definition D_GI : list lit :=
  [L 0 0; L 27815 (-6); L 189065 (-6); L 793 (-4); L 141239 (-6); L 256692 (-6); L 281835 (-6);
   L 332267 (-6); L 366911 (-6); L 289731 (-6); L 337542 (-6); L 383381 (-6); L 427354 (-6);
   L 469659 (-6); L 34369 (-6); L 21 (-3); L 38953 (-6); L 3325 (-4); L 885 (-4); L 0 0; L 0 0].

(* src/detail.rs:210-213  const QI *)
Definition D_QI : list lit :=
  [L 0 0; L 0 0; L 69 (-2); L 0 0; L 0 0; L 0 0; L 0 0; L 0 0; L 0 0; L 0 0; L 0 0; L 0 0; L 0 0;
   L 0 0; L 0 0; L 0 0; L 0 0; L 106775 (-5); L 633276 (-6); L 0 0; L 0 0].

(* src/detail.rs:215-219  const FI *)
Definition D_FI : list lit :=
  [L 0 0; L 0 0; L 0 0; L 0 0; L 0 0; L 0 0; L 0 0; L 0 0; L 0 0; L 0 0; L 0 0; L 0 0; L 0 0;
   L 0 0; L 1 0; L 0 0; L 0 0; L 0 0; L 0 0; L 0 0; L 0 0].

(* src/detail.rs:221-226  const SI *)
Definition D_SI : list lit :=
  [L 0 0; L 0 0; L 0 0; L 0 0; L 0 0; L 0 0; L 0 0; L 0 0; L 0 0; L 0 0; L 0 0; L 0 0; L 0 0;
   L 0 0; L 0 0; L 0 0; L 0 0; L 15822 (-4); L 39 (-2); L 0 0; L 0 0].

(* src/detail.rs:228-232  const WI *)
Definition D_WI : list lit :=
  [L 0 0; L 0 0; L 0 0; L 0 0; L 0 0; L 0 0; L 0 0; L 0 0; L 0 0; L 0 0; L 0 0; L 0 0; L 0 0;
   L 0 0; L 0 0; L 0 0; L 0 0; L 1 0; L 0 0; L 0 0; L 0 0].

(* src/detail.rs:235-322  const EIJ *)
Definition D_EIJ : list (list lit) :=
  [[L 1 0; L 97164 (-5); L 960644 (-6); L 1 0; L 994635 (-6); L 101953 (-5); L 989844 (-6);
    L 100235 (-5); L 999268 (-6); L 1107274 (-6); L 88088 (-5); L 880973 (-6); L 881067 (-6);
    L 881161 (-6); L 117052 (-5); L 1 0; L 990126 (-6); L 708218 (-6); L 931484 (-6); L 1 0; L 1 0];
   [L 1 0; L 1 0; L 102274 (-5); L 97012 (-5); L 945939 (-6); L 946914 (-6); L 973384 (-6);
    L 95934 (-5); L 94552 (-5); L 1 0; L 1 0; L 1 0; L 1 0; L 1 0; L 108632 (-5); L 1021 (-3);
    L 100571 (-5); L 746954 (-6); L 902271 (-6); L 1 0; L 1 0];
   [L 1 0; L 1 0; L 1 0; L 925053 (-6); L 960237 (-6); L 906849 (-6); L 897362 (-6); L 726255 (-6);
    L 859764 (-6); L 855134 (-6); L 831229 (-6); L 80831 (-5); L 786323 (-6); L 765171 (-6);
    L 128179 (-5); L 1 0; L 15 (-1); L 849408 (-6); L 955052 (-6); L 1 0; L 1 0];
   [L 1 0; L 1 0; L 1 0; L 1 0; L 102256 (-5); L 1 0; L 101306 (-5); L 1 0; L 100532 (-5); L 1 0;
    L 1 0; L 1 0; L 1 0; L 1 0; L 116446 (-5); L 1 0; L 1 0; L 693168 (-6); L 946871 (-6); L 1 0;
    L 1 0];
   [L 1 0; L 1 0; L 1 0; L 1 0; L 1 0; L 1 0; L 10049 (-4); L 1 0; L 1 0; L 1 0; L 1 0; L 1 0;
    L 1 0; L 1 0; L 1034787 (-6); L 1 0; L 1 0; L 1 0; L 1 0; L 1 0; L 1 0];
   [L 1 0; L 1 0; L 1 0; L 1 0; L 1 0; L 1 0; L 1 0; L 1 0; L 1 0; L 1 0; L 1 0; L 1 0; L 1 0;
    L 1 0; L 13 (-1); L 1 0; L 1 0; L 1 0; L 1 0; L 1 0; L 1 0];
   [L 1 0; L 1 0; L 1 0; L 1 0; L 1 0; L 1 0; L 1 0; L 1 0; L 1 0; L 1 0; L 1 0; L 1 0; L 1 0;
    L 1 0; L 13 (-1); L 1 0; L 1 0; L 1 0; L 1 0; L 1 0; L 1 0];
   [L 1 0; L 1 0; L 1 0; L 1 0; L 1 0; L 1 0; L 1 0; L 1 0; L 1 0; L 1 0; L 1 0; L 1 0; L 1 0;
    L 1 0; L 1 0; L 1 0; L 1 0; L 1 0; L 1 0; L 1 0; L 1 0];
   [L 1 0; L 1 0; L 1 0; L 1 0; L 1 0; L 1 0; L 1 0; L 1 0; L 1 0; L 1 0; L 1 0; L 1 0; L 1 0;
    L 1 0; L 1 0; L 1 0; L 1 0; L 1 0; L 1 0; L 1 0; L 1 0];
   [L 1 0; L 1 0; L 1 0; L 1 0; L 1 0; L 1 0; L 1 0; L 1 0; L 1 0; L 1 0; L 1 0; L 1 0; L 1 0;
    L 1 0; L 1 0; L 1 0; L 1 0; L 1 0; L 1008692 (-6); L 1 0; L 1 0];
   [L 1 0; L 1 0; L 1 0; L 1 0; L 1 0; L 1 0; L 1 0; L 1 0; L 1 0; L 1 0; L 1 0; L 1 0; L 1 0;
    L 1 0; L 1 0; L 1 0; L 1 0; L 1 0; L 1010126 (-6); L 1 0; L 1 0];
   [L 1 0; L 1 0; L 1 0; L 1 0; L 1 0; L 1 0; L 1 0; L 1 0; L 1 0; L 1 0; L 1 0; L 1 0; L 1 0;
    L 1 0; L 1 0; L 1 0; L 1 0; L 1 0; L 1011501 (-6); L 1 0; L 1 0];
   [L 1 0; L 1 0; L 1 0; L 1 0; L 1 0; L 1 0; L 1 0; L 1 0; L 1 0; L 1 0; L 1 0; L 1 0; L 1 0;
    L 1 0; L 1 0; L 1 0; L 1 0; L 1 0; L 1012821 (-6); L 1 0; L 1 0];
   [L 1 0; L 1 0; L 1 0; L 1 0; L 1 0; L 1 0; L 1 0; L 1 0; L 1 0; L 1 0; L 1 0; L 1 0; L 1 0;
    L 1 0; L 1 0; L 1 0; L 1 0; L 1 0; L 1014089 (-6); L 1 0; L 1 0];
   [L 1 0; L 1 0; L 1 0; L 1 0; L 1 0; L 1 0; L 1 0; L 1 0; L 1 0; L 1 0; L 1 0; L 1 0; L 1 0;
    L 1 0; L 1 0; L 1 0; L 11 (-1); L 1 0; L 1 0; L 1 0; L 1 0];
   [L 1 0; L 1 0; L 1 0; L 1 0; L 1 0; L 1 0; L 1 0; L 1 0; L 1 0; L 1 0; L 1 0; L 1 0; L 1 0;
    L 1 0; L 1 0; L 1 0; L 1 0; L 1 0; L 1 0; L 1 0; L 1 0];
   [L 1 0; L 1 0; L 1 0; L 1 0; L 1 0; L 1 0; L 1 0; L 1 0; L 1 0; L 1 0; L 1 0; L 1 0; L 1 0;
    L 1 0; L 1 0; L 1 0; L 1 0; L 1 0; L 1 0; L 1 0; L 1 0];
   [L 1 0; L 1 0; L 1 0; L 1 0; L 1 0; L 1 0; L 1 0; L 1 0; L 1 0; L 1 0; L 1 0; L 1 0; L 1 0;
    L 1 0; L 1 0; L 1 0; L 1 0; L 1 0; L 1 0; L 1 0; L 1 0];
   [L 1 0; L 1 0; L 1 0; L 1 0; L 1 0; L 1 0; L 1 0; L 1 0; L 1 0; L 1 0; L 1 0; L 1 0; L 1 0;
    L 1 0; L 1 0; L 1 0; L 1 0; L 1 0; L 1 0; L 1 0; L 1 0];
   [L 1 0; L 1 0; L 1 0; L 1 0; L 1 0; L 1 0; L 1 0; L 1 0; L 1 0; L 1 0; L 1 0; L 1 0; L 1 0;
    L 1 0; L 1 0; L 1 0; L 1 0; L 1 0; L 1 0; L 1 0; L 1 0];
   [L 1 0; L 1 0; L 1 0; L 1 0; L 1 0; L 1 0; L 1 0; L 1 0; L 1 0; L 1 0; L 1 0; L 1 0; L 1 0;
    L 1 0; L 1 0; L 1 0; L 1 0; L 1 0; L 1 0; L 1 0; L 1 0]].

(* src/detail.rs:324-409  const UIJ *)
Definition D_UIJ : list (list lit) :=
  [[L 1 0; L 886106 (-6); L 963827 (-6); L 1 0; L 990877 (-6); L 1 0; L 992291 (-6); L 1 0;
    L 100367 (-5); L 1302576 (-6); L 1191904 (-6); L 1205769 (-6); L 1219634 (-6); L 1233498 (-6);
    L 115639 (-5); L 1 0; L 1 0; L 1 0; L 736833 (-6); L 1 0; L 1 0];
   [L 1 0; L 1 0; L 835058 (-6); L 816431 (-6); L 915502 (-6); L 1 0; L 993556 (-6); L 1 0; L 1 0;
    L 1 0; L 1 0; L 1 0; L 1 0; L 1 0; L 408838 (-6); L 1 0; L 1 0; L 1 0; L 993476 (-6); L 1 0;
    L 1 0];
   [L 1 0; L 1 0; L 1 0; L 96987 (-5); L 1 0; L 1 0; L 1 0; L 1 0; L 1 0; L 1066638 (-6);
    L 1077634 (-6); L 1088178 (-6); L 1098291 (-6); L 1108021 (-6); L 1 0; L 1 0; L 9 (-1); L 1 0;
    L 104529 (-5); L 1 0; L 1 0];
   [L 1 0; L 1 0; L 1 0; L 1 0; L 1065173 (-6); L 125 (-2); L 125 (-2); L 125 (-2); L 125 (-2);
    L 1 0; L 1 0; L 1 0; L 1 0; L 1 0; L 161666 (-5); L 1 0; L 1 0; L 1 0; L 971926 (-6); L 1 0;
    L 1 0];
   [L 1 0; L 1 0; L 1 0; L 1 0; L 1 0; L 1 0; L 1 0; L 1 0; L 1 0; L 1 0; L 1 0; L 1 0; L 1 0;
    L 1 0; L 1 0; L 1 0; L 1 0; L 1 0; L 1 0; L 1 0; L 1 0];
   [L 1 0; L 1 0; L 1 0; L 1 0; L 1 0; L 1 0; L 1 0; L 1 0; L 1 0; L 1 0; L 1 0; L 1 0; L 1 0;
    L 1 0; L 1 0; L 1 0; L 1 0; L 1 0; L 1 0; L 1 0; L 1 0];
   [L 1 0; L 1 0; L 1 0; L 1 0; L 1 0; L 1 0; L 1 0; L 1 0; L 1 0; L 1 0; L 1 0; L 1 0; L 1 0;
    L 1 0; L 1 0; L 1 0; L 1 0; L 1 0; L 1 0; L 1 0; L 1 0];
   [L 1 0; L 1 0; L 1 0; L 1 0; L 1 0; L 1 0; L 1 0; L 1 0; L 1 0; L 1 0; L 1 0; L 1 0; L 1 0;
    L 1 0; L 1 0; L 1 0; L 1 0; L 1 0; L 1 0; L 1 0; L 1 0];
   [L 1 0; L 1 0; L 1 0; L 1 0; L 1 0; L 1 0; L 1 0; L 1 0; L 1 0; L 1 0; L 1 0; L 1 0; L 1 0;
    L 1 0; L 1 0; L 1 0; L 1 0; L 1 0; L 1 0; L 1 0; L 1 0];
   [L 1 0; L 1 0; L 1 0; L 1 0; L 1 0; L 1 0; L 1 0; L 1 0; L 1 0; L 1 0; L 1 0; L 1 0; L 1 0;
    L 1 0; L 1 0; L 1 0; L 1 0; L 1 0; L 1028973 (-6); L 1 0; L 1 0];
   [L 1 0; L 1 0; L 1 0; L 1 0; L 1 0; L 1 0; L 1 0; L 1 0; L 1 0; L 1 0; L 1 0; L 1 0; L 1 0;
    L 1 0; L 1 0; L 1 0; L 1 0; L 1 0; L 1033754 (-6); L 1 0; L 1 0];
   [L 1 0; L 1 0; L 1 0; L 1 0; L 1 0; L 1 0; L 1 0; L 1 0; L 1 0; L 1 0; L 1 0; L 1 0; L 1 0;
    L 1 0; L 1 0; L 1 0; L 1 0; L 1 0; L 1038338 (-6); L 1 0; L 1 0];
   [L 1 0; L 1 0; L 1 0; L 1 0; L 1 0; L 1 0; L 1 0; L 1 0; L 1 0; L 1 0; L 1 0; L 1 0; L 1 0;
    L 1 0; L 1 0; L 1 0; L 1 0; L 1 0; L 1042735 (-6); L 1 0; L 1 0];
   [L 1 0; L 1 0; L 1 0; L 1 0; L 1 0; L 1 0; L 1 0; L 1 0; L 1 0; L 1 0; L 1 0; L 1 0; L 1 0;
    L 1 0; L 1 0; L 1 0; L 1 0; L 1 0; L 1046966 (-6); L 1 0; L 1 0];
   [L 1 0; L 1 0; L 1 0; L 1 0; L 1 0; L 1 0; L 1 0; L 1 0; L 1 0; L 1 0; L 1 0; L 1 0; L 1 0;
    L 1 0; L 1 0; L 1 0; L 1 0; L 1 0; L 1 0; L 1 0; L 1 0];
   [L 1 0; L 1 0; L 1 0; L 1 0; L 1 0; L 1 0; L 1 0; L 1 0; L 1 0; L 1 0; L 1 0; L 1 0; L 1 0;
    L 1 0; L 1 0; L 1 0; L 1 0; L 1 0; L 1 0; L 1 0; L 1 0];
   [L 1 0; L 1 0; L 1 0; L 1 0; L 1 0; L 1 0; L 1 0; L 1 0; L 1 0; L 1 0; L 1 0; L 1 0; L 1 0;
    L 1 0; L 1 0; L 1 0; L 1 0; L 1 0; L 1 0; L 1 0; L 1 0];
   [L 1 0; L 1 0; L 1 0; L 1 0; L 1 0; L 1 0; L 1 0; L 1 0; L 1 0; L 1 0; L 1 0; L 1 0; L 1 0;
    L 1 0; L 1 0; L 1 0; L 1 0; L 1 0; L 1 0; L 1 0; L 1 0];
   [L 1 0; L 1 0; L 1 0; L 1 0; L 1 0; L 1 0; L 1 0; L 1 0; L 1 0; L 1 0; L 1 0; L 1 0; L 1 0;
    L 1 0; L 1 0; L 1 0; L 1 0; L 1 0; L 1 0; L 1 0; L 1 0];
   [L 1 0; L 1 0; L 1 0; L 1 0; L 1 0; L 1 0; L 1 0; L 1 0; L 1 0; L 1 0; L 1 0; L 1 0; L 1 0;
    L 1 0; L 1 0; L 1 0; L 1 0; L 1 0; L 1 0; L 1 0; L 1 0];
   [L 1 0; L 1 0; L 1 0; L 1 0; L 1 0; L 1 0; L 1 0; L 1 0; L 1 0; L 1 0; L 1 0; L 1 0; L 1 0;
    L 1 0; L 1 0; L 1 0; L 1 0; L 1 0; L 1 0; L 1 0; L 1 0]].

(* src/detail.rs:411-496  const KIJ *)
Definition D_KIJ : list (list lit) :=
  [[L 1 0; L 100363 (-5); L 995933 (-6); L 1 0; L 1007619 (-6); L 1 0; L 997596 (-6); L 1 0;
    L 1002529 (-6); L 982962 (-6); L 983565 (-6); L 982707 (-6); L 981849 (-6); L 980991 (-6);
    L 102326 (-5); L 1 0; L 1 0; L 1 0; L 100008 (-5); L 1 0; L 1 0];
   [L 1 0; L 1 0; L 982361 (-6); L 100796 (-5); L 1 0; L 1 0; L 1 0; L 1 0; L 1 0; L 1 0; L 1 0;
    L 1 0; L 1 0; L 1 0; L 103227 (-5); L 1 0; L 1 0; L 1 0; L 942596 (-6); L 1 0; L 1 0];
   [L 1 0; L 1 0; L 1 0; L 100851 (-5); L 1 0; L 1 0; L 1 0; L 1 0; L 1 0; L 910183 (-6);
    L 895362 (-6); L 881152 (-6); L 86752 (-5); L 854406 (-6); L 1 0; L 1 0; L 1 0; L 1 0;
    L 100779 (-5); L 1 0; L 1 0];
   [L 1 0; L 1 0; L 1 0; L 1 0; L 986893 (-6); L 1 0; L 1 0; L 1 0; L 1 0; L 1 0; L 1 0; L 1 0;
    L 1 0; L 1 0; L 102034 (-5); L 1 0; L 1 0; L 1 0; L 999969 (-6); L 1 0; L 1 0];
   [L 1 0; L 1 0; L 1 0; L 1 0; L 1 0; L 1 0; L 1 0; L 1 0; L 1 0; L 1 0; L 1 0; L 1 0; L 1 0;
    L 1 0; L 1 0; L 1 0; L 1 0; L 1 0; L 1 0; L 1 0; L 1 0];
   [L 1 0; L 1 0; L 1 0; L 1 0; L 1 0; L 1 0; L 1 0; L 1 0; L 1 0; L 1 0; L 1 0; L 1 0; L 1 0;
    L 1 0; L 1 0; L 1 0; L 1 0; L 1 0; L 1 0; L 1 0; L 1 0];
   [L 1 0; L 1 0; L 1 0; L 1 0; L 1 0; L 1 0; L 1 0; L 1 0; L 1 0; L 1 0; L 1 0; L 1 0; L 1 0;
    L 1 0; L 1 0; L 1 0; L 1 0; L 1 0; L 1 0; L 1 0; L 1 0];
   [L 1 0; L 1 0; L 1 0; L 1 0; L 1 0; L 1 0; L 1 0; L 1 0; L 1 0; L 1 0; L 1 0; L 1 0; L 1 0;
    L 1 0; L 1 0; L 1 0; L 1 0; L 1 0; L 1 0; L 1 0; L 1 0];
   [L 1 0; L 1 0; L 1 0; L 1 0; L 1 0; L 1 0; L 1 0; L 1 0; L 1 0; L 1 0; L 1 0; L 1 0; L 1 0;
    L 1 0; L 1 0; L 1 0; L 1 0; L 1 0; L 1 0; L 1 0; L 1 0];
   [L 1 0; L 1 0; L 1 0; L 1 0; L 1 0; L 1 0; L 1 0; L 1 0; L 1 0; L 1 0; L 1 0; L 1 0; L 1 0;
    L 1 0; L 1 0; L 1 0; L 1 0; L 1 0; L 96813 (-5); L 1 0; L 1 0];
   [L 1 0; L 1 0; L 1 0; L 1 0; L 1 0; L 1 0; L 1 0; L 1 0; L 1 0; L 1 0; L 1 0; L 1 0; L 1 0;
    L 1 0; L 1 0; L 1 0; L 1 0; L 1 0; L 96287 (-5); L 1 0; L 1 0];
   [L 1 0; L 1 0; L 1 0; L 1 0; L 1 0; L 1 0; L 1 0; L 1 0; L 1 0; L 1 0; L 1 0; L 1 0; L 1 0;
    L 1 0; L 1 0; L 1 0; L 1 0; L 1 0; L 957828 (-6); L 1 0; L 1 0];
   [L 1 0; L 1 0; L 1 0; L 1 0; L 1 0; L 1 0; L 1 0; L 1 0; L 1 0; L 1 0; L 1 0; L 1 0; L 1 0;
    L 1 0; L 1 0; L 1 0; L 1 0; L 1 0; L 952441 (-6); L 1 0; L 1 0];
   [L 1 0; L 1 0; L 1 0; L 1 0; L 1 0; L 1 0; L 1 0; L 1 0; L 1 0; L 1 0; L 1 0; L 1 0; L 1 0;
    L 1 0; L 1 0; L 1 0; L 1 0; L 1 0; L 948338 (-6); L 1 0; L 1 0];
   [L 1 0; L 1 0; L 1 0; L 1 0; L 1 0; L 1 0; L 1 0; L 1 0; L 1 0; L 1 0; L 1 0; L 1 0; L 1 0;
    L 1 0; L 1 0; L 1 0; L 1 0; L 1 0; L 1 0; L 1 0; L 1 0];
   [L 1 0; L 1 0; L 1 0; L 1 0; L 1 0; L 1 0; L 1 0; L 1 0; L 1 0; L 1 0; L 1 0; L 1 0; L 1 0;
    L 1 0; L 1 0; L 1 0; L 1 0; L 1 0; L 1 0; L 1 0; L 1 0];
   [L 1 0; L 1 0; L 1 0; L 1 0; L 1 0; L 1 0; L 1 0; L 1 0; L 1 0; L 1 0; L 1 0; L 1 0; L 1 0;
    L 1 0; L 1 0; L 1 0; L 1 0; L 1 0; L 1 0; L 1 0; L 1 0];
   [L 1 0; L 1 0; L 1 0; L 1 0; L 1 0; L 1 0; L 1 0; L 1 0; L 1 0; L 1 0; L 1 0; L 1 0; L 1 0;
    L 1 0; L 1 0; L 1 0; L 1 0; L 1 0; L 1 0; L 1 0; L 1 0];
   [L 1 0; L 1 0; L 1 0; L 1 0; L 1 0; L 1 0; L 1 0; L 1 0; L 1 0; L 1 0; L 1 0; L 1 0; L 1 0;
    L 1 0; L 1 0; L 1 0; L 1 0; L 1 0; L 1 0; L 1 0; L 1 0];
   [L 1 0; L 1 0; L 1 0; L 1 0; L 1 0; L 1 0; L 1 0; L 1 0; L 1 0; L 1 0; L 1 0; L 1 0; L 1 0;
    L 1 0; L 1 0; L 1 0; L 1 0; L 1 0; L 1 0; L 1 0; L 1 0];
   [L 1 0; L 1 0; L 1 0; L 1 0; L 1 0; L 1 0; L 1 0; L 1 0; L 1 0; L 1 0; L 1 0; L 1 0; L 1 0;
    L 1 0; L 1 0; L 1 0; L 1 0; L 1 0; L 1 0; L 1 0; L 1 0]].

(* src/detail.rs:498-583  const GIJ *)
Definition D_GIJ : list (list lit) :=
  [[L 1 0; L 1 0; L 807653 (-6); L 1 0; L 1 0; L 1 0; L 1 0; L 1 0; L 1 0; L 1 0; L 1 0; L 1 0;
    L 1 0; L 1 0; L 195731 (-5); L 1 0; L 1 0; L 1 0; L 1 0; L 1 0; L 1 0];
   [L 1 0; L 1 0; L 982746 (-6); L 1 0; L 1 0; L 1 0; L 1 0; L 1 0; L 1 0; L 1 0; L 1 0; L 1 0;
    L 1 0; L 1 0; L 1 0; L 1 0; L 1 0; L 1 0; L 1 0; L 1 0; L 1 0];
   [L 1 0; L 1 0; L 1 0; L 370296 (-6); L 1 0; L 1 0; L 1 0; L 1 0; L 1 0; L 1 0; L 1 0; L 1 0;
    L 1 0; L 1 0; L 1 0; L 1 0; L 1 0; L 167309 (-5); L 1 0; L 1 0; L 1 0];
   [L 1 0; L 1 0; L 1 0; L 1 0; L 1 0; L 1 0; L 1 0; L 1 0; L 1 0; L 1 0; L 1 0; L 1 0; L 1 0;
    L 1 0; L 1 0; L 1 0; L 1 0; L 1 0; L 1 0; L 1 0; L 1 0];
   [L 1 0; L 1 0; L 1 0; L 1 0; L 1 0; L 1 0; L 1 0; L 1 0; L 1 0; L 1 0; L 1 0; L 1 0; L 1 0;
    L 1 0; L 1 0; L 1 0; L 1 0; L 1 0; L 1 0; L 1 0; L 1 0];
   [L 1 0; L 1 0; L 1 0; L 1 0; L 1 0; L 1 0; L 1 0; L 1 0; L 1 0; L 1 0; L 1 0; L 1 0; L 1 0;
    L 1 0; L 1 0; L 1 0; L 1 0; L 1 0; L 1 0; L 1 0; L 1 0];
   [L 1 0; L 1 0; L 1 0; L 1 0; L 1 0; L 1 0; L 1 0; L 1 0; L 1 0; L 1 0; L 1 0; L 1 0; L 1 0;
    L 1 0; L 1 0; L 1 0; L 1 0; L 1 0; L 1 0; L 1 0; L 1 0];
   [L 1 0; L 1 0; L 1 0; L 1 0; L 1 0; L 1 0; L 1 0; L 1 0; L 1 0; L 1 0; L 1 0; L 1 0; L 1 0;
    L 1 0; L 1 0; L 1 0; L 1 0; L 1 0; L 1 0; L 1 0; L 1 0];
   [L 1 0; L 1 0; L 1 0; L 1 0; L 1 0; L 1 0; L 1 0; L 1 0; L 1 0; L 1 0; L 1 0; L 1 0; L 1 0;
    L 1 0; L 1 0; L 1 0; L 1 0; L 1 0; L 1 0; L 1 0; L 1 0];
   [L 1 0; L 1 0; L 1 0; L 1 0; L 1 0; L 1 0; L 1 0; L 1 0; L 1 0; L 1 0; L 1 0; L 1 0; L 1 0;
    L 1 0; L 1 0; L 1 0; L 1 0; L 1 0; L 1 0; L 1 0; L 1 0];
   [L 1 0; L 1 0; L 1 0; L 1 0; L 1 0; L 1 0; L 1 0; L 1 0; L 1 0; L 1 0; L 1 0; L 1 0; L 1 0;
    L 1 0; L 1 0; L 1 0; L 1 0; L 1 0; L 1 0; L 1 0; L 1 0];
   [L 1 0; L 1 0; L 1 0; L 1 0; L 1 0; L 1 0; L 1 0; L 1 0; L 1 0; L 1 0; L 1 0; L 1 0; L 1 0;
    L 1 0; L 1 0; L 1 0; L 1 0; L 1 0; L 1 0; L 1 0; L 1 0];
   [L 1 0; L 1 0; L 1 0; L 1 0; L 1 0; L 1 0; L 1 0; L 1 0; L 1 0; L 1 0; L 1 0; L 1 0; L 1 0;
    L 1 0; L 1 0; L 1 0; L 1 0; L 1 0; L 1 0; L 1 0; L 1 0];
   [L 1 0; L 1 0; L 1 0; L 1 0; L 1 0; L 1 0; L 1 0; L 1 0; L 1 0; L 1 0; L 1 0; L 1 0; L 1 0;
    L 1 0; L 1 0; L 1 0; L 1 0; L 1 0; L 1 0; L 1 0; L 1 0];
   [L 1 0; L 1 0; L 1 0; L 1 0; L 1 0; L 1 0; L 1 0; L 1 0; L 1 0; L 1 0; L 1 0; L 1 0; L 1 0;
    L 1 0; L 1 0; L 1 0; L 1 0; L 1 0; L 1 0; L 1 0; L 1 0];
   [L 1 0; L 1 0; L 1 0; L 1 0; L 1 0; L 1 0; L 1 0; L 1 0; L 1 0; L 1 0; L 1 0; L 1 0; L 1 0;
    L 1 0; L 1 0; L 1 0; L 1 0; L 1 0; L 1 0; L 1 0; L 1 0];
   [L 1 0; L 1 0; L 1 0; L 1 0; L 1 0; L 1 0; L 1 0; L 1 0; L 1 0; L 1 0; L 1 0; L 1 0; L 1 0;
    L 1 0; L 1 0; L 1 0; L 1 0; L 1 0; L 1 0; L 1 0; L 1 0];
   [L 1 0; L 1 0; L 1 0; L 1 0; L 1 0; L 1 0; L 1 0; L 1 0; L 1 0; L 1 0; L 1 0; L 1 0; L 1 0;
    L 1 0; L 1 0; L 1 0; L 1 0; L 1 0; L 1 0; L 1 0; L 1 0];
   [L 1 0; L 1 0; L 1 0; L 1 0; L 1 0; L 1 0; L 1 0; L 1 0; L 1 0; L 1 0; L 1 0; L 1 0; L 1 0;
    L 1 0; L 1 0; L 1 0; L 1 0; L 1 0; L 1 0; L 1 0; L 1 0];
   [L 1 0; L 1 0; L 1 0; L 1 0; L 1 0; L 1 0; L 1 0; L 1 0; L 1 0; L 1 0; L 1 0; L 1 0; L 1 0;
    L 1 0; L 1 0; L 1 0; L 1 0; L 1 0; L 1 0; L 1 0; L 1 0];
   [L 1 0; L 1 0; L 1 0; L 1 0; L 1 0; L 1 0; L 1 0; L 1 0; L 1 0; L 1 0; L 1 0; L 1 0; L 1 0;
    L 1 0; L 1 0; L 1 0; L 1 0; L 1 0; L 1 0; L 1 0; L 1 0]].

(* src/detail.rs:585-607  const TH0I *)
Definition D_TH0I : list (list lit) :=
  [[L 0 0; L 0 0; L 0 0; L 820659 (-3); L 17841 (-2); L 106282 (-2); L 109053 (-2)];
   [L 0 0; L 0 0; L 0 0; L 662738 (-3); L 680562 (-3); L 174006 (-2); L 0 0];
   [L 0 0; L 0 0; L 0 0; L 919306 (-3); L 86507 (-2); L 483553 (-3); L 341109 (-3)];
   [L 0 0; L 0 0; L 0 0; L 559314 (-3); L 223284 (-3); L 103138 (-2); L 107129 (-2)];
   [L 0 0; L 0 0; L 0 0; L 479856 (-3); L 200893 (-3); L 955312 (-3); L 102729 (-2)];
   [L 0 0; L 0 0; L 0 0; L 43827 (-2); L 198018 (-3); L 190502 (-2); L 893765 (-3)];
   [L 0 0; L 0 0; L 0 0; L 46827 (-2); L 183636 (-3); L 19141 (-1); L 903185 (-3)];
   [L 0 0; L 0 0; L 0 0; L 292503 (-3); L 910237 (-3); L 191937 (-2); L 0 0];
   [L 0 0; L 0 0; L 0 0; L 17867 (-2); L 840538 (-3); L 177425 (-2); L 0 0];
   [L 0 0; L 0 0; L 0 0; L 182326 (-3); L 859207 (-3); L 182659 (-2); L 0 0];
   [L 0 0; L 0 0; L 0 0; L 169789 (-3); L 836195 (-3); L 176046 (-2); L 0 0];
   [L 0 0; L 0 0; L 0 0; L 158922 (-3); L 815064 (-3); L 169307 (-2); L 0 0];
   [L 0 0; L 0 0; L 0 0; L 156854 (-3); L 814882 (-3); L 169379 (-2); L 0 0];
   [L 0 0; L 0 0; L 0 0; L 164947 (-3); L 836264 (-3); L 175024 (-2); L 0 0];
   [L 0 0; L 0 0; L 0 0; L 228734 (-3); L 326843 (-3); L 165171 (-2); L 167169 (-2)];
   [L 0 0; L 0 0; L 0 0; L 223571 (-2); L 111669 (-2); L 0 0; L 0 0];
   [L 0 0; L 0 0; L 0 0; L 155045 (-2); L 704525 (-3); L 0 0; L 0 0];
   [L 0 0; L 0 0; L 0 0; L 268795 (-3); L 114141 (-2); L 250737 (-2); L 0 0];
   [L 0 0; L 0 0; L 0 0; L 183363 (-2); L 847181 (-3); L 0 0; L 0 0];
   [L 0 0; L 0 0; L 0 0; L 0 0; L 0 0; L 0 0; L 0 0];
   [L 0 0; L 0 0; L 0 0; L 0 0; L 0 0; L 0 0; L 0 0]].

(* src/detail.rs:780-926  the 147 assignments n0i[i][j] = c, in source order *)
Definition D_setup_n0i : list ((nat * nat) * lit) :=
  [((0, 2)%nat, L 400088 (-5)); ((0, 3)%nat, L 76315 (-5)); ((0, 4)%nat, L 46 (-4));
   ((0, 5)%nat, L 874432 (-5)); ((0, 6)%nat, L (-446921) (-5)); ((0, 0)%nat, L 2983843397 (-8));
   ((0, 1)%nat, L (-1599969151) (-5)); ((1, 2)%nat, L 350031 (-5)); ((1, 3)%nat, L 13732 (-5));
   ((1, 4)%nat, L (-1466) (-4)); ((1, 5)%nat, L 90066 (-5)); ((1, 6)%nat, L 0 0);
   ((1, 0)%nat, L 1756770785 (-8)); ((1, 1)%nat, L (-2801729072) (-6));
   ((2, 2)%nat, L 350002 (-5)); ((2, 3)%nat, L 204452 (-5)); ((2, 4)%nat, L (-106044) (-5));
   ((2, 5)%nat, L 203366 (-5)); ((2, 6)%nat, L 1393 (-5)); ((2, 0)%nat, L 2065844696 (-8));
   ((2, 1)%nat, L (-4902171516) (-6)); ((3, 2)%nat, L 400263 (-5)); ((3, 3)%nat, L 433939 (-5));
   ((3, 4)%nat, L 123722 (-5)); ((3, 5)%nat, L 131974 (-4)); ((3, 6)%nat, L (-601989) (-5));
   ((3, 0)%nat, L 3673005938 (-8)); ((3, 1)%nat, L (-2363965301) (-5));
   ((4, 2)%nat, L 402939 (-5)); ((4, 3)%nat, L 660569 (-5)); ((4, 4)%nat, L 3197 (-3));
   ((4, 5)%nat, L 191921 (-4)); ((4, 6)%nat, L (-837267) (-5)); ((4, 0)%nat, L 4470909619 (-8));
   ((4, 1)%nat, L (-3123663551) (-5)); ((5, 2)%nat, L 406714 (-5)); ((5, 3)%nat, L 897575 (-5));
   ((5, 4)%nat, L 525156 (-5)); ((5, 5)%nat, L 251423 (-4)); ((5, 6)%nat, L 161388 (-4));
   ((5, 0)%nat, L 3430180349 (-8)); ((5, 1)%nat, L (-3852550276) (-5));
   ((6, 2)%nat, L 433944 (-5)); ((6, 3)%nat, L 944893 (-5)); ((6, 4)%nat, L 689406 (-5));
   ((6, 5)%nat, L 244618 (-4)); ((6, 6)%nat, L 147824 (-4)); ((6, 0)%nat, L 3653237783 (-8));
   ((6, 1)%nat, L (-3895780933) (-5)); ((7, 2)%nat, L 4 0); ((7, 3)%nat, L 117618 (-4));
   ((7, 4)%nat, L 201101 (-4)); ((7, 5)%nat, L 331688 (-4)); ((7, 6)%nat, L 0 0);
   ((7, 0)%nat, L 4317218626 (-8)); ((7, 1)%nat, L (-5119830946) (-5)); ((8, 2)%nat, L 4 0);
   ((8, 3)%nat, L 895043 (-5)); ((8, 4)%nat, L 21836 (-3)); ((8, 5)%nat, L 334032 (-4));
   ((8, 6)%nat, L 0 0); ((8, 0)%nat, L 4267837089 (-8)); ((8, 1)%nat, L (-4521583) (-2));
   ((9, 2)%nat, L 4 0); ((9, 3)%nat, L 116977 (-4)); ((9, 4)%nat, L 268142 (-4));
   ((9, 5)%nat, L 386164 (-4)); ((9, 6)%nat, L 0 0); ((9, 0)%nat, L 4699717188 (-8));
   ((9, 1)%nat, L (-5274683318) (-5)); ((10, 2)%nat, L 4 0); ((10, 3)%nat, L 137266 (-4));
   ((10, 4)%nat, L 304707 (-4)); ((10, 5)%nat, L 435561 (-4)); ((10, 6)%nat, L 0 0);
   ((10, 0)%nat, L 5207631631 (-8)); ((10, 1)%nat, L (-5710481056) (-5)); ((11, 2)%nat, L 4 0);
   ((11, 3)%nat, L 156865 (-4)); ((11, 4)%nat, L 338029 (-4)); ((11, 5)%nat, L 481731 (-4));
   ((11, 6)%nat, L 0 0); ((11, 0)%nat, L 5725830934 (-8)); ((11, 1)%nat, L (-6054676385) (-5));
   ((12, 2)%nat, L 4 0); ((12, 3)%nat, L 180241 (-4)); ((12, 4)%nat, L 381235 (-4));
   ((12, 5)%nat, L 533415 (-4)); ((12, 6)%nat, L 0 0); ((12, 0)%nat, L 6209646901 (-8));
   ((12, 1)%nat, L (-6660012837) (-5)); ((13, 2)%nat, L 4 0); ((13, 3)%nat, L 210069 (-4));
   ((13, 4)%nat, L 434931 (-4)); ((13, 5)%nat, L 583657 (-4)); ((13, 6)%nat, L 0 0);
   ((13, 0)%nat, L 6593909154 (-8)); ((13, 1)%nat, L (-7413145483) (-5));
   ((14, 2)%nat, L 247906 (-5)); ((14, 3)%nat, L 95806 (-5)); ((14, 4)%nat, L 45444 (-5));
   ((14, 5)%nat, L 156039 (-5)); ((14, 6)%nat, L (-13756) (-4)); ((14, 0)%nat, L 1307520288 (-8));
   ((14, 1)%nat, L (-5836943696) (-6)); ((15, 2)%nat, L 350146 (-5)); ((15, 3)%nat, L 107558 (-5));
   ((15, 4)%nat, L 101334 (-5)); ((15, 5)%nat, L 0 0); ((15, 6)%nat, L 0 0);
   ((15, 0)%nat, L 168017173 (-7)); ((15, 1)%nat, L (-231832269) (-5));
   ((16, 2)%nat, L 350055 (-5)); ((16, 3)%nat, L 102865 (-5)); ((16, 4)%nat, L 493 (-5));
   ((16, 5)%nat, L 0 0); ((16, 6)%nat, L 0 0); ((16, 0)%nat, L 1745786899 (-8));
   ((16, 1)%nat, L (-2635244116) (-6)); ((17, 2)%nat, L 400392 (-5)); ((17, 3)%nat, L 1059 (-5));
   ((17, 4)%nat, L 98763 (-5)); ((17, 5)%nat, L 306904 (-5)); ((17, 6)%nat, L 0 0);
   ((17, 0)%nat, L 2157882705 (-8)); ((17, 1)%nat, L (-7766733078) (-6)); ((18, 2)%nat, L 4 0);
   ((18, 3)%nat, L 311942 (-5)); ((18, 4)%nat, L 100243 (-5)); ((18, 5)%nat, L 0 0);
   ((18, 6)%nat, L 0 0); ((18, 0)%nat, L 215830944 (-7)); ((18, 1)%nat, L (-6069035869) (-6));
   ((19, 2)%nat, L 25 (-1)); ((19, 3)%nat, L 0 0); ((19, 4)%nat, L 0 0); ((19, 5)%nat, L 0 0);
   ((19, 6)%nat, L 0 0); ((19, 0)%nat, L 1004639507 (-8)); ((19, 1)%nat, L (-745375) (-3));
   ((20, 2)%nat, L 25 (-1)); ((20, 3)%nat, L 0 0); ((20, 4)%nat, L 0 0); ((20, 5)%nat, L 0 0);
   ((20, 6)%nat, L 0 0); ((20, 0)%nat, L 1004639507 (-8)); ((20, 1)%nat, L (-745375) (-3))].

