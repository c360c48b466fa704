(* The tables of the DETAIL equation as printed in AGA Report No. 8 Part 1 / ISO 20765-1: one row per
   term, per component and per pair.  Written by tools/mkstd.py; shares nothing with the model. *)
From Coq Require Import ZArith List.
From Verif Require Import FArith.
Import ListNotations.

(* term n: a_n, u_n, then b_n, k_n and the flags g_n, q_n, f_n, s_n, w_n *)
Definition TERMS : list (lit * lit * list nat) := ([
  (L 1538326 (-7), L 0 0, [1; 0; 0; 0; 0; 0; 0]);
  (L 1341953 (-6), L 5 (-1), [1; 0; 0; 0; 0; 0; 0]);
  (L (-2998583) (-6), L 1 0, [1; 0; 0; 0; 0; 0; 0]);
  (L (-4831228) (-8), L 35 (-1), [1; 0; 0; 0; 0; 0; 0]);
  (L 3757965 (-7), L (-5) (-1), [1; 0; 1; 0; 0; 0; 0]);
  (L (-1589575) (-6), L 45 (-1), [1; 0; 1; 0; 0; 0; 0]);
  (L (-5358847) (-8), L 5 (-1), [1; 0; 0; 1; 0; 0; 0]);
  (L 88659463 (-8), L 75 (-1), [1; 0; 0; 0; 0; 1; 0]);
  (L (-71023704) (-8), L 95 (-1), [1; 0; 0; 0; 0; 1; 0]);
  (L (-1471722) (-6), L 6 0, [1; 0; 0; 0; 0; 0; 1]);
  (L 132185035 (-8), L 12 0, [1; 0; 0; 0; 0; 0; 1]);
  (L (-78665925) (-8), L 125 (-1), [1; 0; 0; 0; 0; 0; 1]);
  (L 229129 (-14), L (-6) 0, [1; 3; 0; 0; 1; 0; 0]);
  (L 1576724 (-7), L 2 0, [1; 2; 0; 0; 0; 0; 0]);
  (L (-4363864) (-7), L 3 0, [1; 2; 0; 0; 0; 0; 0]);
  (L (-4408159) (-8), L 2 0, [1; 2; 0; 1; 0; 0; 0]);
  (L (-3433888) (-9), L 2 0, [1; 4; 0; 0; 0; 0; 0]);
  (L 3205905 (-8), L 11 0, [1; 4; 0; 0; 0; 0; 0]);
  (L 2487355 (-8), L (-5) (-1), [2; 0; 0; 0; 0; 0; 0]);
  (L 7332279 (-8), L 5 (-1), [2; 0; 0; 0; 0; 0; 0]);
  (L (-1600573) (-9), L 0 0, [2; 2; 0; 0; 0; 0; 0]);
  (L 6424706 (-7), L 4 0, [2; 2; 0; 0; 0; 0; 0]);
  (L (-4162601) (-7), L 6 0, [2; 2; 0; 0; 0; 0; 0]);
  (L (-6689957) (-8), L 21 0, [2; 4; 0; 0; 0; 0; 0]);
  (L 2791795 (-7), L 23 0, [2; 4; 1; 0; 0; 0; 0]);
  (L (-6966051) (-7), L 22 0, [2; 4; 0; 1; 0; 0; 0]);
  (L (-2860589) (-9), L (-1) 0, [2; 4; 0; 0; 1; 0; 0]);
  (L (-8098836) (-9), L (-5) (-1), [3; 0; 0; 1; 0; 0; 0]);
  (L 3150547 (-6), L 7 0, [3; 1; 1; 0; 0; 0; 0]);
  (L 7224479 (-9), L (-1) 0, [3; 1; 0; 0; 1; 0; 0]);
  (L (-7057529) (-7), L 6 0, [3; 2; 0; 0; 0; 0; 0]);
  (L 5349792 (-7), L 4 0, [3; 2; 1; 0; 0; 0; 0]);
  (L (-7931491) (-8), L 1 0, [3; 3; 1; 0; 0; 0; 0]);
  (L (-1418465) (-6), L 9 0, [3; 3; 1; 0; 0; 0; 0]);
  (L (-599905) (-22), L (-13) 0, [3; 4; 0; 0; 1; 0; 0]);
  (L 1058402 (-7), L 21 0, [3; 4; 0; 0; 0; 0; 0]);
  (L 3431729 (-8), L 8 0, [3; 4; 0; 1; 0; 0; 0]);
  (L (-7022847) (-9), L (-5) (-1), [4; 0; 0; 0; 0; 0; 0]);
  (L 2495587 (-8), L 0 0, [4; 0; 0; 0; 0; 0; 0]);
  (L 4296818 (-8), L 2 0, [4; 2; 0; 0; 0; 0; 0]);
  (L 7465453 (-7), L 7 0, [4; 2; 0; 0; 0; 0; 0]);
  (L (-2919613) (-7), L 9 0, [4; 2; 0; 1; 0; 0; 0]);
  (L 7294616 (-6), L 22 0, [4; 4; 0; 0; 0; 0; 0]);
  (L (-9936757) (-6), L 23 0, [4; 4; 0; 0; 0; 0; 0]);
  (L (-5399808) (-9), L 1 0, [5; 0; 0; 0; 0; 0; 0]);
  (L (-2432567) (-7), L 9 0, [5; 2; 0; 0; 0; 0; 0]);
  (L 4987016 (-8), L 3 0, [5; 2; 0; 1; 0; 0; 0]);
  (L 3733797 (-9), L 8 0, [5; 4; 0; 0; 0; 0; 0]);
  (L 1874951 (-6), L 23 0, [5; 4; 0; 1; 0; 0; 0]);
  (L 2168144 (-9), L 15 (-1), [6; 0; 0; 0; 0; 0; 0]);
  (L (-6587164) (-7), L 5 0, [6; 2; 1; 0; 0; 0; 0]);
  (L 205518 (-9), L (-5) (-1), [7; 0; 0; 1; 0; 0; 0]);
  (L 9776195 (-9), L 4 0, [7; 2; 0; 0; 0; 0; 0]);
  (L (-2048708) (-8), L 7 0, [8; 1; 1; 0; 0; 0; 0]);
  (L 1557322 (-8), L 3 0, [8; 2; 0; 0; 0; 0; 0]);
  (L 6862415 (-9), L 0 0, [8; 2; 1; 0; 0; 0; 0]);
  (L (-1226752) (-9), L 1 0, [9; 2; 0; 0; 0; 0; 0]);
  (L 2850908 (-9), L 0 0, [9; 2; 0; 1; 0; 0; 0])])%nat.
(* component i: E_i, K_i, G_i, Q_i, F_i, S_i, W_i *)
Definition COMPONENTS : list (list lit) := [
  (* methane *) [L 1513183 (-4); L 4619255 (-7); L 0 0; L 0 0; L 0 0; L 0 0; L 0 0];
  (* nitrogen *) [L 9973778 (-5); L 4479153 (-7); L 27815 (-6); L 0 0; L 0 0; L 0 0; L 0 0];
  (* carbon dioxide *) [L 2419606 (-4); L 4557489 (-7); L 189065 (-6); L 69 (-2); L 0 0; L 0 0; L 0 0];
  (* ethane *) [L 2441667 (-4); L 5279209 (-7); L 793 (-4); L 0 0; L 0 0; L 0 0; L 0 0];
  (* propane *) [L 2981183 (-4); L 583749 (-6); L 141239 (-6); L 0 0; L 0 0; L 0 0; L 0 0];
  (* isobutane *) [L 3240689 (-4); L 6406937 (-7); L 256692 (-6); L 0 0; L 0 0; L 0 0; L 0 0];
  (* n-butane *) [L 3376389 (-4); L 6341423 (-7); L 281835 (-6); L 0 0; L 0 0; L 0 0; L 0 0];
  (* isopentane *) [L 3655999 (-4); L 6738577 (-7); L 332267 (-6); L 0 0; L 0 0; L 0 0; L 0 0];
  (* n-pentane *) [L 3706823 (-4); L 6798307 (-7); L 366911 (-6); L 0 0; L 0 0; L 0 0; L 0 0];
  (* hexane *) [L 402636293 (-6); L 7175118 (-7); L 289731 (-6); L 0 0; L 0 0; L 0 0; L 0 0];
  (* heptane *) [L 42772263 (-5); L 7525189 (-7); L 337542 (-6); L 0 0; L 0 0; L 0 0; L 0 0];
  (* octane *) [L 450325022 (-6); L 784955 (-6); L 383381 (-6); L 0 0; L 0 0; L 0 0; L 0 0];
  (* nonane *) [L 470840891 (-6); L 8152731 (-7); L 427354 (-6); L 0 0; L 0 0; L 0 0; L 0 0];
  (* decane *) [L 489558373 (-6); L 8437826 (-7); L 469659 (-6); L 0 0; L 0 0; L 0 0; L 0 0];
  (* hydrogen *) [L 2695794 (-5); L 3514916 (-7); L 34369 (-6); L 0 0; L 1 0; L 0 0; L 0 0];
  (* oxygen *) [L 1227667 (-4); L 4186954 (-7); L 21 (-3); L 0 0; L 0 0; L 0 0; L 0 0];
  (* carbon monoxide *) [L 1055348 (-4); L 4533894 (-7); L 38953 (-6); L 0 0; L 0 0; L 0 0; L 0 0];
  (* water *) [L 5140156 (-4); L 3825868 (-7); L 3325 (-4); L 106775 (-5); L 0 0; L 15822 (-4); L 1 0];
  (* hydrogen sulfide *) [L 296355 (-3); L 4618263 (-7); L 885 (-4); L 633276 (-6); L 0 0; L 39 (-2); L 0 0];
  (* helium *) [L 2610111 (-6); L 3589888 (-7); L 0 0; L 0 0; L 0 0; L 0 0; L 0 0];
  (* argon *) [L 1196299 (-4); L 4216551 (-7); L 0 0; L 0 0; L 0 0; L 0 0; L 0 0]].
(* pairs with a parameter other than 1: E*_ij, U_ij, K_ij, G*_ij *)
Definition PAIRS : list (nat * nat * list lit) := ([
  (0, 1, [L 97164 (-5); L 886106 (-6); L 100363 (-5); L 1 0]);
  (0, 2, [L 960644 (-6); L 963827 (-6); L 995933 (-6); L 807653 (-6)]);
  (0, 4, [L 994635 (-6); L 990877 (-6); L 1007619 (-6); L 1 0]);
  (0, 5, [L 101953 (-5); L 1 0; L 1 0; L 1 0]);
  (0, 6, [L 989844 (-6); L 992291 (-6); L 997596 (-6); L 1 0]);
  (0, 7, [L 100235 (-5); L 1 0; L 1 0; L 1 0]);
  (0, 8, [L 999268 (-6); L 100367 (-5); L 1002529 (-6); L 1 0]);
  (0, 9, [L 1107274 (-6); L 1302576 (-6); L 982962 (-6); L 1 0]);
  (0, 10, [L 88088 (-5); L 1191904 (-6); L 983565 (-6); L 1 0]);
  (0, 11, [L 880973 (-6); L 1205769 (-6); L 982707 (-6); L 1 0]);
  (0, 12, [L 881067 (-6); L 1219634 (-6); L 981849 (-6); L 1 0]);
  (0, 13, [L 881161 (-6); L 1233498 (-6); L 980991 (-6); L 1 0]);
  (0, 14, [L 117052 (-5); L 115639 (-5); L 102326 (-5); L 195731 (-5)]);
  (0, 16, [L 990126 (-6); L 1 0; L 1 0; L 1 0]);
  (0, 17, [L 708218 (-6); L 1 0; L 1 0; L 1 0]);
  (0, 18, [L 931484 (-6); L 736833 (-6); L 100008 (-5); L 1 0]);
  (1, 2, [L 102274 (-5); L 835058 (-6); L 982361 (-6); L 982746 (-6)]);
  (1, 3, [L 97012 (-5); L 816431 (-6); L 100796 (-5); L 1 0]);
  (1, 4, [L 945939 (-6); L 915502 (-6); L 1 0; L 1 0]);
  (1, 5, [L 946914 (-6); L 1 0; L 1 0; L 1 0]);
  (1, 6, [L 973384 (-6); L 993556 (-6); L 1 0; L 1 0]);
  (1, 7, [L 95934 (-5); L 1 0; L 1 0; L 1 0]);
  (1, 8, [L 94552 (-5); L 1 0; L 1 0; L 1 0]);
  (1, 14, [L 108632 (-5); L 408838 (-6); L 103227 (-5); L 1 0]);
  (1, 15, [L 1021 (-3); L 1 0; L 1 0; L 1 0]);
  (1, 16, [L 100571 (-5); L 1 0; L 1 0; L 1 0]);
  (1, 17, [L 746954 (-6); L 1 0; L 1 0; L 1 0]);
  (1, 18, [L 902271 (-6); L 993476 (-6); L 942596 (-6); L 1 0]);
  (2, 3, [L 925053 (-6); L 96987 (-5); L 100851 (-5); L 370296 (-6)]);
  (2, 4, [L 960237 (-6); L 1 0; L 1 0; L 1 0]);
  (2, 5, [L 906849 (-6); L 1 0; L 1 0; L 1 0]);
  (2, 6, [L 897362 (-6); L 1 0; L 1 0; L 1 0]);
  (2, 7, [L 726255 (-6); L 1 0; L 1 0; L 1 0]);
  (2, 8, [L 859764 (-6); L 1 0; L 1 0; L 1 0]);
  (2, 9, [L 855134 (-6); L 1066638 (-6); L 910183 (-6); L 1 0]);
  (2, 10, [L 831229 (-6); L 1077634 (-6); L 895362 (-6); L 1 0]);
  (2, 11, [L 80831 (-5); L 1088178 (-6); L 881152 (-6); L 1 0]);
  (2, 12, [L 786323 (-6); L 1098291 (-6); L 86752 (-5); L 1 0]);
  (2, 13, [L 765171 (-6); L 1108021 (-6); L 854406 (-6); L 1 0]);
  (2, 14, [L 128179 (-5); L 1 0; L 1 0; L 1 0]);
  (2, 16, [L 15 (-1); L 9 (-1); L 1 0; L 1 0]);
  (2, 17, [L 849408 (-6); L 1 0; L 1 0; L 167309 (-5)]);
  (2, 18, [L 955052 (-6); L 104529 (-5); L 100779 (-5); L 1 0]);
  (3, 4, [L 102256 (-5); L 1065173 (-6); L 986893 (-6); L 1 0]);
  (3, 5, [L 1 0; L 125 (-2); L 1 0; L 1 0]);
  (3, 6, [L 101306 (-5); L 125 (-2); L 1 0; L 1 0]);
  (3, 7, [L 1 0; L 125 (-2); L 1 0; L 1 0]);
  (3, 8, [L 100532 (-5); L 125 (-2); L 1 0; L 1 0]);
  (3, 14, [L 116446 (-5); L 161666 (-5); L 102034 (-5); L 1 0]);
  (3, 17, [L 693168 (-6); L 1 0; L 1 0; L 1 0]);
  (3, 18, [L 946871 (-6); L 971926 (-6); L 999969 (-6); L 1 0]);
  (4, 6, [L 10049 (-4); L 1 0; L 1 0; L 1 0]);
  (4, 14, [L 1034787 (-6); L 1 0; L 1 0; L 1 0]);
  (5, 14, [L 13 (-1); L 1 0; L 1 0; L 1 0]);
  (6, 14, [L 13 (-1); L 1 0; L 1 0; L 1 0]);
  (9, 18, [L 1008692 (-6); L 1028973 (-6); L 96813 (-5); L 1 0]);
  (10, 18, [L 1010126 (-6); L 1033754 (-6); L 96287 (-5); L 1 0]);
  (11, 18, [L 1011501 (-6); L 1038338 (-6); L 957828 (-6); L 1 0]);
  (12, 18, [L 1012821 (-6); L 1042735 (-6); L 952441 (-6); L 1 0]);
  (13, 18, [L 1014089 (-6); L 1046966 (-6); L 948338 (-6); L 1 0]);
  (14, 16, [L 11 (-1); L 1 0; L 1 0; L 1 0])])%nat.
(* molar masses, g/mol *)
Definition MASSES : list lit := [L 16043 (-3); L 280135 (-4); L 4401 (-2); L 3007 (-2); L 44097 (-3); L 58123 (-3); L 58123 (-3); L 7215 (-2); L 7215 (-2); L 86177 (-3); L 100204 (-3); L 114231 (-3); L 128258 (-3); L 142285 (-3); L 20159 (-4); L 319988 (-4); L 2801 (-2); L 180153 (-4); L 34082 (-3); L 40026 (-4); L 39948 (-3)].
