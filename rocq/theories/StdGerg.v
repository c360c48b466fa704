(* The tables of GERG-2008 as printed in Kunz and Wagner, J. Chem. Eng. Data 57 (2012): one row per
   term, per component and per pair; components numbered 1..21.  Written by tools/mkstd.py; shares
   nothing with the model. *)
From Coq Require Import ZArith List.
From Verif Require Import FArith.
Import ListNotations.

(* critical density (mol/l) and temperature (K); the first row is not used *)
Definition CRIT : list (lit * lit) := [
  (L 0 0, L 0 0);
  (* methane *) (L 10139342719 (-9), L 190564 (-3));
  (* nitrogen *) (L 111839 (-4), L 126192 (-3));
  (* carbon dioxide *) (L 10624978698 (-9), L 3041282 (-4));
  (* ethane *) (L 687085454 (-8), L 305322 (-3));
  (* propane *) (L 5000043088 (-9), L 369825 (-3));
  (* isobutane *) (L 386014294 (-8), L 407817 (-3));
  (* n-butane *) (L 3920016792 (-9), L 425125 (-3));
  (* isopentane *) (L 3271 (-3), L 46035 (-2));
  (* n-pentane *) (L 3215577588 (-9), L 4697 (-1));
  (* hexane *) (L 2705877875 (-9), L 50782 (-2));
  (* heptane *) (L 2315324434 (-9), L 54013 (-2));
  (* octane *) (L 2056404127 (-9), L 56932 (-2));
  (* nonane *) (L 181 (-2), L 59455 (-2));
  (* decane *) (L 164 (-2), L 6177 (-1));
  (* hydrogen *) (L 1494 (-2), L 3319 (-2));
  (* oxygen *) (L 1363 (-2), L 154595 (-3));
  (* carbon monoxide *) (L 1085 (-2), L 13286 (-2));
  (* water *) (L 1787371609 (-8), L 647096 (-3));
  (* hydrogen sulfide *) (L 1019 (-2), L 3731 (-1));
  (* helium *) (L 17399 (-3), L 51953 (-4));
  (* argon *) (L 13407429659 (-9), L 150687 (-3))].
(* residual Helmholtz energy of pure component i: coefficient n, exponents d of delta and t of tau, and
   c of the factor exp(-delta^c), 0 where there is none *)
Definition PURE : list (list (lit * nat * lit * nat)) := ([
  [];
  (* methane *) [
    (L 57335704239162 (-14), 1, L 125 (-3), 0);
    (L (-1676068752373) (-12), 1, L 1125 (-3), 0);
    (L 23405291834916 (-14), 2, L 375 (-3), 0);
    (L (-21947376343441) (-14), 2, L 1125 (-3), 0);
    (L 16369201404128 (-15), 4, L 625 (-3), 0);
    (L 1500440638928 (-14), 4, L 15 (-1), 0);
    (L 98990489492918 (-15), 1, L 625 (-3), 1);
    (L 58382770929055 (-14), 1, L 2625 (-3), 1);
    (L (-7478686756039) (-13), 1, L 275 (-2), 1);
    (L 30033302857974 (-14), 2, L 2125 (-3), 1);
    (L 20985543806568 (-14), 3, L 2 0, 1);
    (L (-18590151133061) (-15), 6, L 175 (-2), 1);
    (L (-15782558339049) (-14), 2, L 45 (-1), 2);
    (L 12716735220791 (-14), 3, L 475 (-2), 2);
    (L (-32019743894346) (-15), 3, L 5 0, 2);
    (L (-68049729364536) (-15), 4, L 4 0, 2);
    (L 24291412853736 (-15), 4, L 45 (-1), 2);
    (L 51440451639444 (-16), 2, L 75 (-1), 3);
    (L (-19084949733532) (-15), 3, L 14 0, 3);
    (L 55229677241291 (-16), 4, L 115 (-1), 3);
    (L (-44197392976085) (-16), 5, L 26 0, 6);
    (L 40061416708429 (-15), 6, L 28 0, 6);
    (L (-33752085907575) (-15), 6, L 30 0, 6);
    (L (-25127658213357) (-16), 7, L 16 0, 6)];
  (* nitrogen *) [
    (L 59889711801201 (-14), 1, L 125 (-3), 0);
    (L (-16941557480731) (-13), 1, L 1125 (-3), 0);
    (L 24579736191718 (-14), 2, L 375 (-3), 0);
    (L (-23722456755175) (-14), 2, L 1125 (-3), 0);
    (L 17954918715141 (-15), 4, L 625 (-3), 0);
    (L 14592875720215 (-15), 4, L 15 (-1), 0);
    (L 10008065936206 (-14), 1, L 625 (-3), 1);
    (L 7315711538553 (-13), 1, L 2625 (-3), 1);
    (L (-88372272336366) (-14), 1, L 275 (-2), 1);
    (L 31887660246708 (-14), 2, L 2125 (-3), 1);
    (L 20766491728799 (-14), 3, L 2 0, 1);
    (L (-19379315454158) (-15), 6, L 175 (-2), 1);
    (L (-16936641554983) (-14), 2, L 45 (-1), 2);
    (L 13546846041701 (-14), 3, L 475 (-2), 2);
    (L (-33066712095307) (-15), 3, L 5 0, 2);
    (L (-60690817018557) (-15), 4, L 4 0, 2);
    (L 12797548292871 (-15), 4, L 45 (-1), 2);
    (L 58743664107299 (-16), 2, L 75 (-1), 3);
    (L (-18451951971969) (-15), 3, L 14 0, 3);
    (L 47226622042472 (-16), 4, L 115 (-1), 3);
    (L (-52024079680599) (-16), 5, L 26 0, 6);
    (L 43563505956635 (-15), 6, L 28 0, 6);
    (L (-36251690750939) (-15), 6, L 30 0, 6);
    (L (-28974026866543) (-16), 7, L 16 0, 6)];
  (* carbon dioxide *) [
    (L 52646564804653 (-14), 1, L 0 0, 0);
    (L (-14995725042592) (-13), 1, L 125 (-2), 0);
    (L 27329786733782 (-14), 2, L 1625 (-3), 0);
    (L 12949500022786 (-14), 3, L 375 (-3), 0);
    (L 15404088341841 (-14), 3, L 375 (-3), 1);
    (L (-58186950946814) (-14), 3, L 1375 (-3), 1);
    (L (-18022494838296) (-14), 4, L 1125 (-3), 1);
    (L (-95389904072812) (-15), 5, L 1375 (-3), 1);
    (L (-80486819317679) (-16), 6, L 125 (-3), 1);
    (L (-3554775127309) (-14), 6, L 1625 (-3), 1);
    (L (-28079014882405) (-14), 1, L 375 (-2), 2);
    (L (-82435890081677) (-15), 4, L 35 (-1), 2);
    (L 10832427979006 (-15), 1, L 75 (-1), 3);
    (L (-67073993161097) (-16), 1, L 8 0, 3);
    (L (-46827907600524) (-16), 3, L 6 0, 3);
    (L (-28359911832177) (-15), 3, L 16 0, 3);
    (L 19500174744098 (-15), 4, L 11 0, 3);
    (L (-21609137507166) (-14), 5, L 24 0, 5);
    (L 43772794926972 (-14), 5, L 26 0, 5);
    (L (-22130790113593) (-14), 5, L 28 0, 5);
    (L 15190189957331 (-15), 5, L 24 0, 6);
    (L (-153809489533) (-13), 5, L 26 0, 6)];
  (* ethane *) [
    (L 63596780450714 (-14), 1, L 125 (-3), 0);
    (L (-17377981785459) (-13), 1, L 1125 (-3), 0);
    (L 28914060926272 (-14), 2, L 375 (-3), 0);
    (L (-33714276845694) (-14), 2, L 1125 (-3), 0);
    (L 22405964699561 (-15), 4, L 625 (-3), 0);
    (L 15715424886913 (-15), 4, L 15 (-1), 0);
    (L 11450634253745 (-14), 1, L 625 (-3), 1);
    (L 10612049379745 (-13), 1, L 2625 (-3), 1);
    (L (-12855224439423) (-13), 1, L 275 (-2), 1);
    (L 39414630777652 (-14), 2, L 2125 (-3), 1);
    (L 31390924682041 (-14), 3, L 2 0, 1);
    (L (-21592277117247) (-15), 6, L 175 (-2), 1);
    (L (-21723666564905) (-14), 2, L 45 (-1), 2);
    (L (-28999574439489) (-14), 3, L 475 (-2), 2);
    (L 4232117302573 (-13), 3, L 5 0, 2);
    (L 4643410025926 (-14), 4, L 4 0, 2);
    (L (-13138398329741) (-14), 4, L 45 (-1), 2);
    (L 11492850364368 (-15), 2, L 75 (-1), 3);
    (L (-33387688429909) (-15), 3, L 14 0, 3);
    (L 15183171583644 (-15), 4, L 115 (-1), 3);
    (L (-47610805647657) (-16), 5, L 26 0, 6);
    (L 46917166277885 (-15), 6, L 28 0, 6);
    (L (-39401755804649) (-15), 6, L 30 0, 6);
    (L (-32569956247611) (-16), 7, L 16 0, 6)];
  (* propane *) [
    (L 10403973107358 (-13), 1, L 25 (-2), 0);
    (L (-28318404081403) (-13), 1, L 1125 (-3), 0);
    (L 84393809606294 (-14), 1, L 15 (-1), 0);
    (L (-76559591850023) (-15), 2, L 1375 (-3), 0);
    (L 9469737305728 (-14), 3, L 25 (-2), 0);
    (L 24796475497006 (-17), 7, L 875 (-3), 0);
    (L 2774376042287 (-13), 2, L 625 (-3), 1);
    (L (-43846000648377) (-15), 5, L 175 (-2), 1);
    (L (-2699106478435) (-13), 1, L 3625 (-3), 2);
    (L (-6931341308986) (-14), 4, L 3625 (-3), 2);
    (L (-29632145981653) (-15), 3, L 145 (-1), 3);
    (L 1404012675138 (-14), 4, L 12 0, 3)];
  (* isobutane *) [
    (L 104293315891 (-11), 1, L 25 (-2), 0);
    (L (-28184272548892) (-13), 1, L 1125 (-3), 0);
    (L 8617623239785 (-13), 1, L 15 (-1), 0);
    (L (-10613619452487) (-14), 2, L 1375 (-3), 0);
    (L 98615749302134 (-15), 3, L 25 (-2), 0);
    (L 23948208682322 (-17), 7, L 875 (-3), 0);
    (L 3033000485695 (-13), 2, L 625 (-3), 1);
    (L (-41598156135099) (-15), 5, L 175 (-2), 1);
    (L (-29991937470058) (-14), 1, L 3625 (-3), 2);
    (L (-80369342764109) (-15), 4, L 3625 (-3), 2);
    (L (-29761373251151) (-15), 3, L 145 (-1), 3);
    (L 1305963030314 (-14), 4, L 12 0, 3)];
  (* n-butane *) [
    (L 10626277411455 (-13), 1, L 25 (-2), 0);
    (L (-2862095182835) (-12), 1, L 1125 (-3), 0);
    (L 88738233403777 (-14), 1, L 15 (-1), 0);
    (L (-12570581155345) (-14), 2, L 1375 (-3), 0);
    (L 10286308708106 (-14), 3, L 25 (-2), 0);
    (L 25358040602654 (-17), 7, L 875 (-3), 0);
    (L 32325200233982 (-14), 2, L 625 (-3), 1);
    (L (-37950761057432) (-15), 5, L 175 (-2), 1);
    (L (-32534802014452) (-14), 1, L 3625 (-3), 2);
    (L (-79050969051011) (-15), 4, L 3625 (-3), 2);
    (L (-20636720547775) (-15), 3, L 145 (-1), 3);
    (L 5705380933475 (-15), 4, L 12 0, 3)];
  (* isopentane *) [
    (L 10963 (-4), 1, L 25 (-2), 0);
    (L (-30402) (-4), 1, L 1125 (-3), 0);
    (L 10317 (-4), 1, L 15 (-1), 0);
    (L (-1541) (-4), 2, L 1375 (-3), 0);
    (L 11535 (-5), 3, L 25 (-2), 0);
    (L 29809 (-8), 7, L 875 (-3), 0);
    (L 39571 (-5), 2, L 625 (-3), 1);
    (L (-45881) (-6), 5, L 175 (-2), 1);
    (L (-35804) (-5), 1, L 3625 (-3), 2);
    (L (-10107) (-5), 4, L 3625 (-3), 2);
    (L (-35484) (-6), 3, L 145 (-1), 3);
    (L 18156 (-6), 4, L 12 0, 3)];
  (* n-pentane *) [
    (L 10968643098001 (-13), 1, L 25 (-2), 0);
    (L (-29988888298061) (-13), 1, L 1125 (-3), 0);
    (L 99516886799212 (-14), 1, L 15 (-1), 0);
    (L (-16170708558539) (-14), 2, L 1375 (-3), 0);
    (L 11334460072775 (-14), 3, L 25 (-2), 0);
    (L 26760595150748 (-17), 7, L 875 (-3), 0);
    (L 40979881986931 (-14), 2, L 625 (-3), 1);
    (L (-40876423083075) (-15), 5, L 175 (-2), 1);
    (L (-38169482469447) (-14), 1, L 3625 (-3), 2);
    (L (-10931956843993) (-14), 4, L 3625 (-3), 2);
    (L (-3207322332799) (-14), 3, L 145 (-1), 3);
    (L 16877016216975 (-15), 4, L 12 0, 3)];
  (* hexane *) [
    (L 10553238013661 (-13), 1, L 25 (-2), 0);
    (L (-26120615890629) (-13), 1, L 1125 (-3), 0);
    (L 7661388296726 (-13), 1, L 15 (-1), 0);
    (L (-29770320622459) (-14), 2, L 1375 (-3), 0);
    (L 11879907733358 (-14), 3, L 25 (-2), 0);
    (L 27922861062617 (-17), 7, L 875 (-3), 0);
    (L 46347589844105 (-14), 2, L 625 (-3), 1);
    (L 11433196980297 (-15), 5, L 175 (-2), 1);
    (L (-48256968738131) (-14), 1, L 3625 (-3), 2);
    (L (-93750558924659) (-15), 4, L 3625 (-3), 2);
    (L (-67273247155994) (-16), 3, L 145 (-1), 3);
    (L (-51141583585428) (-16), 4, L 12 0, 3)];
  (* heptane *) [
    (L 10543747645262 (-13), 1, L 25 (-2), 0);
    (L (-26500681506144) (-13), 1, L 1125 (-3), 0);
    (L 81730047827543 (-14), 1, L 15 (-1), 0);
    (L (-30451391253428) (-14), 2, L 1375 (-3), 0);
    (L 122538687108 (-12), 3, L 25 (-2), 0);
    (L 27266472743928 (-17), 7, L 875 (-3), 0);
    (L 4986582568167 (-13), 2, L 625 (-3), 1);
    (L (-71432815084176) (-17), 5, L 175 (-2), 1);
    (L (-5423689552545) (-13), 1, L 3625 (-3), 2);
    (L (-13801821610756) (-14), 4, L 3625 (-3), 2);
    (L (-61595287380011) (-16), 3, L 145 (-1), 3);
    (L 48602510393022 (-17), 4, L 12 0, 3)];
  (* octane *) [
    (L 10722544875633 (-13), 1, L 25 (-2), 0);
    (L (-24632951172003) (-13), 1, L 1125 (-3), 0);
    (L 65386674054928 (-14), 1, L 15 (-1), 0);
    (L (-36324974085628) (-14), 2, L 1375 (-3), 0);
    (L 1271326962676 (-13), 3, L 25 (-2), 0);
    (L 3071357277793 (-16), 7, L 875 (-3), 0);
    (L 5265685698754 (-13), 2, L 625 (-3), 1);
    (L 19362862857653 (-15), 5, L 175 (-2), 1);
    (L (-58939426849155) (-14), 1, L 3625 (-3), 2);
    (L (-14069963991934) (-14), 4, L 3625 (-3), 2);
    (L (-78966330500036) (-16), 3, L 145 (-1), 3);
    (L 33036597968109 (-16), 4, L 12 0, 3)];
  (* nonane *) [
    (L 11151 (-4), 1, L 25 (-2), 0);
    (L (-2702) (-3), 1, L 1125 (-3), 0);
    (L 83416 (-5), 1, L 15 (-1), 0);
    (L (-38828) (-5), 2, L 1375 (-3), 0);
    (L 1376 (-4), 3, L 25 (-2), 0);
    (L 28185 (-8), 7, L 875 (-3), 0);
    (L 62037 (-5), 2, L 625 (-3), 1);
    (L 15847 (-6), 5, L 175 (-2), 1);
    (L (-61726) (-5), 1, L 3625 (-3), 2);
    (L (-15043) (-5), 4, L 3625 (-3), 2);
    (L (-12982) (-6), 3, L 145 (-1), 3);
    (L 44325 (-7), 4, L 12 0, 3)];
  (* decane *) [
    (L 10461 (-4), 1, L 25 (-2), 0);
    (L (-24807) (-4), 1, L 1125 (-3), 0);
    (L 74372 (-5), 1, L 15 (-1), 0);
    (L (-52579) (-5), 2, L 1375 (-3), 0);
    (L 15315 (-5), 3, L 25 (-2), 0);
    (L 32865 (-8), 7, L 875 (-3), 0);
    (L 84178 (-5), 2, L 625 (-3), 1);
    (L 55424 (-6), 5, L 175 (-2), 1);
    (L (-73555) (-5), 1, L 3625 (-3), 2);
    (L (-18507) (-5), 4, L 3625 (-3), 2);
    (L (-20775) (-6), 3, L 145 (-1), 3);
    (L 12335 (-6), 4, L 12 0, 3)];
  (* hydrogen *) [
    (L 53579928451252 (-13), 1, L 5 (-1), 0);
    (L (-62050252530595) (-13), 1, L 625 (-3), 0);
    (L 13830241327086 (-14), 2, L 375 (-3), 0);
    (L (-71397954896129) (-15), 2, L 625 (-3), 0);
    (L 15474053959733 (-15), 4, L 1125 (-3), 0);
    (L (-14976806405771) (-14), 1, L 2625 (-3), 1);
    (L (-26368723988451) (-15), 5, L 0 0, 1);
    (L 56681303156066 (-15), 5, L 25 (-2), 1);
    (L (-60063958030436) (-15), 5, L 1375 (-3), 1);
    (L (-4504394202713) (-13), 1, L 4 0, 2);
    (L 424788402445 (-12), 1, L 425 (-2), 2);
    (L (-21997640827139) (-15), 2, L 5 0, 3);
    (L (-1049952137453) (-14), 5, L 8 0, 3);
    (L (-28955902866816) (-16), 1, L 8 0, 5)];
  (* oxygen *) [
    (L 88878286369701 (-14), 1, L 25 (-2), 0);
    (L (-24879433312148) (-13), 1, L 1125 (-3), 0);
    (L 59750190775886 (-14), 1, L 15 (-1), 0);
    (L 96501817061881 (-16), 2, L 1375 (-3), 0);
    (L 7197042871277 (-14), 3, L 25 (-2), 0);
    (L 22337443000195 (-17), 7, L 875 (-3), 0);
    (L 18558686391474 (-14), 2, L 625 (-3), 1);
    (L (-3812936803576) (-14), 5, L 175 (-2), 1);
    (L (-15352245383006) (-14), 1, L 3625 (-3), 2);
    (L (-26726814910919) (-15), 4, L 3625 (-3), 2);
    (L (-25675298677127) (-15), 3, L 145 (-1), 3);
    (L 95714302123668 (-16), 4, L 12 0, 3)];
  (* carbon monoxide *) [
    (L 90554 (-5), 1, L 25 (-2), 0);
    (L (-24515) (-4), 1, L 1125 (-3), 0);
    (L 53149 (-5), 1, L 15 (-1), 0);
    (L 24173 (-6), 2, L 1375 (-3), 0);
    (L 72156 (-6), 3, L 25 (-2), 0);
    (L 18818 (-8), 7, L 875 (-3), 0);
    (L 19405 (-5), 2, L 625 (-3), 1);
    (L (-43268) (-6), 5, L 175 (-2), 1);
    (L (-12778) (-5), 1, L 3625 (-3), 2);
    (L (-27896) (-6), 4, L 3625 (-3), 2);
    (L (-34154) (-6), 3, L 145 (-1), 3);
    (L 16329 (-6), 4, L 12 0, 3)];
  (* water *) [
    (L 82728408749586 (-14), 1, L 5 (-1), 0);
    (L (-18602220416584) (-13), 1, L 125 (-2), 0);
    (L (-11199009613744) (-13), 1, L 1875 (-3), 0);
    (L 15635753976056 (-14), 2, L 125 (-3), 0);
    (L 87375844859025 (-14), 2, L 15 (-1), 0);
    (L (-36674403715731) (-14), 3, L 1 0, 0);
    (L 53987893432436 (-15), 4, L 75 (-2), 0);
    (L 10957690214499 (-13), 1, L 15 (-1), 1);
    (L 53213037828563 (-15), 5, L 625 (-3), 1);
    (L 13050533930825 (-15), 5, L 2625 (-3), 1);
    (L (-41079520434476) (-14), 1, L 5 0, 2);
    (L 1463744334412 (-13), 2, L 4 0, 2);
    (L (-55726838623719) (-15), 4, L 45 (-1), 2);
    (L (-112017741438) (-13), 4, L 3 0, 3);
    (L (-66062758068099) (-16), 1, L 4 0, 5);
    (L 46918522004538 (-16), 1, L 6 0, 5)];
  (* hydrogen sulfide *) [
    (L 87641 (-5), 1, L 25 (-2), 0);
    (L (-20367) (-4), 1, L 1125 (-3), 0);
    (L 21634 (-5), 1, L 15 (-1), 0);
    (L (-50199) (-6), 2, L 1375 (-3), 0);
    (L 66994 (-6), 3, L 25 (-2), 0);
    (L 19076 (-8), 7, L 875 (-3), 0);
    (L 20227 (-5), 2, L 625 (-3), 1);
    (L (-45348) (-7), 5, L 175 (-2), 1);
    (L (-2223) (-4), 1, L 3625 (-3), 2);
    (L (-34714) (-6), 4, L 3625 (-3), 2);
    (L (-14885) (-6), 3, L 145 (-1), 3);
    (L 74154 (-7), 4, L 12 0, 3)];
  (* helium *) [
    (L (-45579024006737) (-14), 1, L 0 0, 0);
    (L 12516390754925 (-13), 1, L 125 (-3), 0);
    (L (-15438231650621) (-13), 1, L 75 (-2), 0);
    (L 20467489707221 (-15), 4, L 1 0, 0);
    (L (-34476212380781) (-14), 1, L 75 (-2), 1);
    (L (-20858459512787) (-15), 3, L 2625 (-3), 1);
    (L 16227414711778 (-15), 5, L 125 (-3), 1);
    (L (-57471818200892) (-15), 5, L 125 (-2), 1);
    (L 19462416430715 (-15), 5, L 2 0, 1);
    (L (-3329568012302) (-14), 2, L 1 0, 2);
    (L (-10863577372367) (-15), 1, L 45 (-1), 3);
    (L (-22173365245954) (-15), 2, L 5 0, 3)];
  (* argon *) [
    (L 85095714803969 (-14), 1, L 25 (-2), 0);
    (L (-2400322294348) (-12), 1, L 1125 (-3), 0);
    (L 54127841476466 (-14), 1, L 15 (-1), 0);
    (L 16919770692538 (-15), 2, L 1375 (-3), 0);
    (L 68825965019035 (-15), 3, L 25 (-2), 0);
    (L 21428032815338 (-17), 7, L 875 (-3), 0);
    (L 17429895321992 (-14), 2, L 625 (-3), 1);
    (L (-33654495604194) (-15), 5, L 175 (-2), 1);
    (L (-13526799857691) (-14), 1, L 3625 (-3), 2);
    (L (-16387350791552) (-15), 4, L 3625 (-3), 2);
    (L (-24987666851475) (-15), 3, L 145 (-1), 3);
    (L 88769204815709 (-16), 4, L 12 0, 3)]])%nat.
(* departure function m: n, d, t, eta, epsilon, beta, gamma; eta = beta = 0 for polynomial terms.
   1 methane-ethane, 2 methane-propane, 3 methane-nitrogen, 4 methane-carbon dioxide, 5 nitrogen-carbon
   dioxide, 6 nitrogen-ethane, 7 methane-hydrogen, 10 generalized *)
Definition DEPARTURE : list (nat * list (lit * nat * lit * list lit)) := ([
  (1, [
    (L (-80926050298746) (-17), 3, L 65 (-2), [L 0 0; L 0 0; L 0 0; L 0 0]);
    (L (-75381925080059) (-17), 4, L 155 (-2), [L 0 0; L 0 0; L 0 0; L 0 0]);
    (L (-41618768891219) (-15), 1, L 31 (-1), [L 1 0; L 5 (-1); L 1 0; L 5 (-1)]);
    (L (-23452173681569) (-14), 2, L 59 (-1), [L 1 0; L 5 (-1); L 1 0; L 5 (-1)]);
    (L 14003840584586 (-14), 2, L 705 (-2), [L 1 0; L 5 (-1); L 1 0; L 5 (-1)]);
    (L 63281744807738 (-15), 2, L 335 (-2), [L 875 (-3); L 5 (-1); L 125 (-2); L 5 (-1)]);
    (L (-34660425848809) (-15), 2, L 12 (-1), [L 75 (-2); L 5 (-1); L 15 (-1); L 5 (-1)]);
    (L (-23918747334251) (-14), 2, L 58 (-1), [L 5 (-1); L 5 (-1); L 2 0; L 5 (-1)]);
    (L 19855255066891 (-16), 2, L 27 (-1), [L 0 0; L 5 (-1); L 3 0; L 5 (-1)]);
    (L 61777746171555 (-13), 3, L 45 (-2), [L 0 0; L 5 (-1); L 3 0; L 5 (-1)]);
    (L (-69575358271105) (-13), 3, L 55 (-2), [L 0 0; L 5 (-1); L 3 0; L 5 (-1)]);
    (L 10630185306388 (-13), 3, L 195 (-2), [L 0 0; L 5 (-1); L 3 0; L 5 (-1)])]);
  (2, [
    (L 13746429958576 (-15), 3, L 185 (-2), [L 0 0; L 0 0; L 0 0; L 0 0]);
    (L (-74425012129552) (-16), 3, L 395 (-2), [L 0 0; L 0 0; L 0 0; L 0 0]);
    (L (-45516600213685) (-16), 4, L 0 0, [L 0 0; L 0 0; L 0 0; L 0 0]);
    (L (-54546603350237) (-16), 4, L 185 (-2), [L 0 0; L 0 0; L 0 0; L 0 0]);
    (L 23682016824471 (-16), 4, L 385 (-2), [L 0 0; L 0 0; L 0 0; L 0 0]);
    (L 18007763721438 (-14), 1, L 525 (-2), [L 25 (-2); L 5 (-1); L 75 (-2); L 5 (-1)]);
    (L (-44773942932486) (-14), 1, L 385 (-2), [L 25 (-2); L 5 (-1); L 1 0; L 5 (-1)]);
    (L 193273748882 (-13), 1, L 2 (-1), [L 0 0; L 5 (-1); L 2 0; L 5 (-1)]);
    (L (-30632197804624) (-14), 2, L 65 (-1), [L 0 0; L 5 (-1); L 3 0; L 5 (-1)])]);
  (3, [
    (L (-98038985517335) (-16), 1, L 0 0, [L 0 0; L 0 0; L 0 0; L 0 0]);
    (L 42487270143005 (-17), 4, L 185 (-2), [L 0 0; L 0 0; L 0 0; L 0 0]);
    (L (-34800214576142) (-15), 1, L 785 (-2), [L 1 0; L 5 (-1); L 1 0; L 5 (-1)]);
    (L (-13333813013896) (-14), 2, L 54 (-1), [L 1 0; L 5 (-1); L 1 0; L 5 (-1)]);
    (L (-11993694974627) (-15), 2, L 0 0, [L 25 (-2); L 5 (-1); L 25 (-1); L 5 (-1)]);
    (L 69243379775168 (-15), 2, L 75 (-2), [L 0 0; L 5 (-1); L 3 0; L 5 (-1)]);
    (L (-31022508148249) (-14), 2, L 28 (-1), [L 0 0; L 5 (-1); L 3 0; L 5 (-1)]);
    (L 24495491753226 (-14), 2, L 445 (-2), [L 0 0; L 5 (-1); L 3 0; L 5 (-1)]);
    (L 22369816716981 (-14), 3, L 425 (-2), [L 0 0; L 5 (-1); L 3 0; L 5 (-1)])]);
  (4, [
    (L (-10859387354942) (-14), 1, L 26 (-1), [L 0 0; L 0 0; L 0 0; L 0 0]);
    (L 80228576727389 (-15), 2, L 195 (-2), [L 0 0; L 0 0; L 0 0; L 0 0]);
    (L (-93303985115717) (-16), 3, L 0 0, [L 0 0; L 0 0; L 0 0; L 0 0]);
    (L 40989274005848 (-15), 1, L 395 (-2), [L 1 0; L 5 (-1); L 1 0; L 5 (-1)]);
    (L (-24338019772494) (-14), 2, L 795 (-2), [L 5 (-1); L 5 (-1); L 2 0; L 5 (-1)]);
    (L 23855347281124 (-14), 3, L 8 0, [L 0 0; L 5 (-1); L 3 0; L 5 (-1)])]);
  (5, [
    (L 28661625028399 (-14), 2, L 185 (-2), [L 0 0; L 0 0; L 0 0; L 0 0]);
    (L (-10919833861247) (-14), 3, L 14 (-1), [L 0 0; L 0 0; L 0 0; L 0 0]);
    (L (-1137403208227) (-12), 1, L 32 (-1), [L 25 (-2); L 5 (-1); L 75 (-2); L 5 (-1)]);
    (L 76580544237358 (-14), 1, L 25 (-1), [L 25 (-2); L 5 (-1); L 1 0; L 5 (-1)]);
    (L 42638000926819 (-16), 1, L 8 0, [L 0 0; L 5 (-1); L 2 0; L 5 (-1)]);
    (L 17673538204534 (-14), 2, L 375 (-2), [L 0 0; L 5 (-1); L 3 0; L 5 (-1)])]);
  (6, [
    (L (-47376518126608) (-14), 2, L 0 0, [L 0 0; L 0 0; L 0 0; L 0 0]);
    (L 48961193461001 (-14), 2, L 5 (-2), [L 0 0; L 0 0; L 0 0; L 0 0]);
    (L (-57011062090535) (-16), 3, L 0 0, [L 0 0; L 0 0; L 0 0; L 0 0]);
    (L (-1996682004132) (-13), 1, L 365 (-2), [L 1 0; L 5 (-1); L 1 0; L 5 (-1)]);
    (L (-69411103101723) (-14), 2, L 49 (-1), [L 1 0; L 5 (-1); L 1 0; L 5 (-1)]);
    (L 69226192739021 (-14), 2, L 445 (-2), [L 875 (-3); L 5 (-1); L 125 (-2); L 5 (-1)])]);
  (7, [
    (L (-25157134971934) (-14), 1, L 2 0, [L 0 0; L 0 0; L 0 0; L 0 0]);
    (L (-62203841111983) (-16), 3, L (-1) 0, [L 0 0; L 0 0; L 0 0; L 0 0]);
    (L 88850315184396 (-15), 3, L 175 (-2), [L 0 0; L 0 0; L 0 0; L 0 0]);
    (L (-35592212573239) (-15), 4, L 14 (-1), [L 0 0; L 0 0; L 0 0; L 0 0])]);
  (10, [
    (L 25574776844118 (-13), 1, L 1 0, [L 0 0; L 0 0; L 0 0; L 0 0]);
    (L (-79846357136353) (-13), 1, L 155 (-2), [L 0 0; L 0 0; L 0 0; L 0 0]);
    (L 47859131465806 (-13), 1, L 17 (-1), [L 0 0; L 0 0; L 0 0; L 0 0]);
    (L (-73265392369587) (-14), 2, L 25 (-2), [L 0 0; L 0 0; L 0 0; L 0 0]);
    (L 13805471345312 (-13), 2, L 135 (-2), [L 0 0; L 0 0; L 0 0; L 0 0]);
    (L 28349603476365 (-14), 3, L 0 0, [L 0 0; L 0 0; L 0 0; L 0 0]);
    (L (-49087385940425) (-14), 3, L 125 (-2), [L 0 0; L 0 0; L 0 0; L 0 0]);
    (L (-10291888921447) (-14), 4, L 0 0, [L 0 0; L 0 0; L 0 0; L 0 0]);
    (L 11836314681968 (-14), 4, L 7 (-1), [L 0 0; L 0 0; L 0 0; L 0 0]);
    (L 55527385721943 (-18), 4, L 54 (-1), [L 0 0; L 0 0; L 0 0; L 0 0])])])%nat.
(* pairs with a departure function: F_ij and its number *)
Definition DEPARTS : list (nat * nat * lit * nat) := ([
  (1, 2, L 1 0, 3);
  (1, 3, L 1 0, 4);
  (2, 3, L 1 0, 5);
  (1, 4, L 1 0, 1);
  (2, 4, L 1 0, 6);
  (1, 5, L 1 0, 2);
  (4, 5, L 13042476515 (-11), 10);
  (1, 6, L 771035405688 (-12), 10);
  (4, 6, L 260632376098 (-12), 10);
  (5, 6, L (-551609771024) (-13), 10);
  (1, 7, L 1 0, 10);
  (4, 7, L 281570073085 (-12), 10);
  (5, 7, L 312572600489 (-13), 10);
  (6, 7, L (-551240293009) (-13), 10);
  (1, 15, L 1 0, 7)])%nat.
(* parameters of the reducing functions of the pair i < j: beta_v, gamma_v, beta_T, gamma_T *)
Definition REDUCING : list (nat * nat * list lit) := ([
  (1, 2, [L 998721377 (-9); L 1013950311 (-9); L 99809883 (-8); L 979273013 (-9)]);
  (1, 3, [L 999518072 (-9); L 1002806594 (-9); L 102262449 (-8); L 975665369 (-9)]);
  (1, 4, [L 997547866 (-9); L 1006617867 (-9); L 996336508 (-9); L 1049707697 (-9)]);
  (1, 5, [L 100482707 (-8); L 1038470657 (-9); L 989680305 (-9); L 1098655531 (-9)]);
  (1, 6, [L 1011240388 (-9); L 1054319053 (-9); L 980315756 (-9); L 1161117729 (-9)]);
  (1, 7, [L 979105972 (-9); L 1045375122 (-9); L 99417491 (-8); L 1171607691 (-9)]);
  (1, 8, [L 1 0; L 1343685343 (-9); L 1 0; L 1188899743 (-9)]);
  (1, 9, [L 94833012 (-8); L 1124508039 (-9); L 992127525 (-9); L 1249173968 (-9)]);
  (1, 10, [L 958015294 (-9); L 1052643846 (-9); L 981844797 (-9); L 1330570181 (-9)]);
  (1, 11, [L 962050831 (-9); L 1156655935 (-9); L 977431529 (-9); L 1379850328 (-9)]);
  (1, 12, [L 994740603 (-9); L 1116549372 (-9); L 957473785 (-9); L 1449245409 (-9)]);
  (1, 13, [L 1002852287 (-9); L 1141895355 (-9); L 947716769 (-9); L 1528532478 (-9)]);
  (1, 14, [L 1033086292 (-9); L 1146089637 (-9); L 937777823 (-9); L 1568231489 (-9)]);
  (1, 15, [L 1 0; L 1018702573 (-9); L 1 0; L 1352643115 (-9)]);
  (1, 16, [L 1 0; L 1 0; L 1 0; L 95 (-2)]);
  (1, 17, [L 997340772 (-9); L 1006102927 (-9); L 987411732 (-9); L 987473033 (-9)]);
  (1, 18, [L 1012783169 (-9); L 1585018334 (-9); L 1063333913 (-9); L 775810513 (-9)]);
  (1, 19, [L 1012599087 (-9); L 1040161207 (-9); L 1011090031 (-9); L 961155729 (-9)]);
  (1, 20, [L 1 0; L 881405683 (-9); L 1 0; L 3159776855 (-9)]);
  (1, 21, [L 1034630259 (-9); L 1014678542 (-9); L 990954281 (-9); L 989843388 (-9)]);
  (2, 3, [L 977794634 (-9); L 1047578256 (-9); L 1005894529 (-9); L 1107654104 (-9)]);
  (2, 4, [L 978880168 (-9); L 1042352891 (-9); L 1007671428 (-9); L 1098650964 (-9)]);
  (2, 5, [L 974424681 (-9); L 1081025408 (-9); L 1002677329 (-9); L 1201264026 (-9)]);
  (2, 6, [L 98641583 (-8); L 1100576129 (-9); L 99286813 (-8); L 1284462634 (-9)]);
  (2, 7, [L 99608261 (-8); L 1146949309 (-9); L 994515234 (-9); L 1304886838 (-9)]);
  (2, 8, [L 1 0; L 1154135439 (-9); L 1 0; L 138177077 (-8)]);
  (2, 9, [L 1 0; L 1078877166 (-9); L 1 0; L 1419029041 (-9)]);
  (2, 10, [L 1 0; L 1195952177 (-9); L 1 0; L 1472607971 (-9)]);
  (2, 11, [L 1 0; L 140455409 (-8); L 1 0; L 1520975334 (-9)]);
  (2, 12, [L 1 0; L 1186067025 (-9); L 1 0; L 1733280051 (-9)]);
  (2, 13, [L 1 0; L 1100405929 (-9); L 95637945 (-8); L 1749119996 (-9)]);
  (2, 14, [L 1 0; L 1 0; L 957934447 (-9); L 1822157123 (-9)]);
  (2, 15, [L 972532065 (-9); L 970115357 (-9); L 946134337 (-9); L 1175696583 (-9)]);
  (2, 16, [L 99952177 (-8); L 997082328 (-9); L 997190589 (-9); L 995157044 (-9)]);
  (2, 17, [L 1 0; L 1008690943 (-9); L 1 0; L 993425388 (-9)]);
  (2, 18, [L 1 0; L 1094749685 (-9); L 1 0; L 968808467 (-9)]);
  (2, 19, [L 910394249 (-9); L 1256844157 (-9); L 1004692366 (-9); L 9601742 (-7)]);
  (2, 20, [L 969501055 (-9); L 932629867 (-9); L 692868765 (-9); L 147183158 (-8)]);
  (2, 21, [L 1004166412 (-9); L 1002212182 (-9); L 999069843 (-9); L 990034831 (-9)]);
  (3, 4, [L 1002525718 (-9); L 1032876701 (-9); L 1013871147 (-9); L 90094953 (-8)]);
  (3, 5, [L 996898004 (-9); L 1047596298 (-9); L 1033620538 (-9); L 908772477 (-9)]);
  (3, 6, [L 1076551882 (-9); L 1081909003 (-9); L 1023339824 (-9); L 929982936 (-9)]);
  (3, 7, [L 1174760923 (-9); L 1222437324 (-9); L 1018171004 (-9); L 911498231 (-9)]);
  (3, 8, [L 1060793104 (-9); L 1116793198 (-9); L 1019180957 (-9); L 961218039 (-9)]);
  (3, 9, [L 1024311498 (-9); L 1068406078 (-9); L 1027000795 (-9); L 979217302 (-9)]);
  (3, 10, [L 1 0; L 851343711 (-9); L 1 0; L 1038675574 (-9)]);
  (3, 11, [L 1205469976 (-9); L 1164585914 (-9); L 1011806317 (-9); L 1046169823 (-9)]);
  (3, 12, [L 1026169373 (-9); L 1104043935 (-9); L 102969078 (-8); L 1074455386 (-9)]);
  (3, 13, [L 1 0; L 973386152 (-9); L 100768862 (-8); L 1140671202 (-9)]);
  (3, 14, [L 1000151132 (-9); L 1183394668 (-9); L 102002879 (-8); L 1145512213 (-9)]);
  (3, 15, [L 904142159 (-9); L 115279255 (-8); L 942320195 (-9); L 1782924792 (-9)]);
  (3, 16, [L 1 0; L 1 0; L 1 0; L 1 0]);
  (3, 17, [L 1 0; L 1 0; L 1 0; L 1 0]);
  (3, 18, [L 949055959 (-9); L 1542328793 (-9); L 997372205 (-9); L 775453996 (-9)]);
  (3, 19, [L 906630564 (-9); L 1024085837 (-9); L 1016034583 (-9); L 92601888 (-8)]);
  (3, 20, [L 846647561 (-9); L 864141549 (-9); L 76837763 (-8); L 3207456948 (-9)]);
  (3, 21, [L 1008392428 (-9); L 1029205465 (-9); L 996512863 (-9); L 1050971635 (-9)]);
  (4, 5, [L 997607277 (-9); L 100303472 (-8); L 996199694 (-9); L 101473019 (-8)]);
  (4, 6, [L 1 0; L 1006616886 (-9); L 1 0; L 1033283811 (-9)]);
  (4, 7, [L 999157205 (-9); L 1006179146 (-9); L 999130554 (-9); L 1034832749 (-9)]);
  (4, 8, [L 1 0; L 1045439935 (-9); L 1 0; L 1021150247 (-9)]);
  (4, 9, [L 993851009 (-9); L 1026085655 (-9); L 998688946 (-9); L 1066665676 (-9)]);
  (4, 10, [L 1 0; L 1169701102 (-9); L 1 0; L 1092177796 (-9)]);
  (4, 11, [L 1 0; L 1057666085 (-9); L 1 0; L 1134532014 (-9)]);
  (4, 12, [L 1007469726 (-9); L 1071917985 (-9); L 984068272 (-9); L 1168636194 (-9)]);
  (4, 13, [L 1 0; L 114353473 (-8); L 1 0; L 105603303 (-8)]);
  (4, 14, [L 995676258 (-9); L 1098361281 (-9); L 970918061 (-9); L 1237191558 (-9)]);
  (4, 15, [L 925367171 (-9); L 110607204 (-8); L 932969831 (-9); L 1902008495 (-9)]);
  (4, 16, [L 1 0; L 1 0; L 1 0; L 1 0]);
  (4, 17, [L 1 0; L 1201417898 (-9); L 1 0; L 1069224728 (-9)]);
  (4, 18, [L 1 0; L 1 0; L 1 0; L 1 0]);
  (4, 19, [L 1010817909 (-9); L 1030988277 (-9); L 990197354 (-9); L 90273666 (-8)]);
  (4, 20, [L 1 0; L 1 0; L 1 0; L 1 0]);
  (4, 21, [L 1 0; L 1 0; L 1 0; L 1 0]);
  (5, 6, [L 999243146 (-9); L 1001156119 (-9); L 998012298 (-9); L 1005250774 (-9)]);
  (5, 7, [L 999795868 (-9); L 1003264179 (-9); L 1000310289 (-9); L 1007392782 (-9)]);
  (5, 8, [L 1040459289 (-9); L 999432118 (-9); L 994364425 (-9); L 10032695 (-7)]);
  (5, 9, [L 1044919431 (-9); L 1019921513 (-9); L 996484021 (-9); L 1008344412 (-9)]);
  (5, 10, [L 1 0; L 1057872566 (-9); L 1 0; L 1025657518 (-9)]);
  (5, 11, [L 1 0; L 1079648053 (-9); L 1 0; L 1050044169 (-9)]);
  (5, 12, [L 1 0; L 1102764612 (-9); L 1 0; L 1063694129 (-9)]);
  (5, 13, [L 1 0; L 1199769134 (-9); L 1 0; L 1109973833 (-9)]);
  (5, 14, [L 984104227 (-9); L 1053040574 (-9); L 985331233 (-9); L 1140905252 (-9)]);
  (5, 15, [L 1 0; L 107400611 (-8); L 1 0; L 2308215191 (-9)]);
  (5, 16, [L 1 0; L 1 0; L 1 0; L 1 0]);
  (5, 17, [L 1 0; L 1108143673 (-9); L 1 0; L 1197564208 (-9)]);
  (5, 18, [L 1 0; L 1011759763 (-9); L 1 0; L 600340961 (-9)]);
  (5, 19, [L 936811219 (-9); L 1010593999 (-9); L 992573556 (-9); L 905829247 (-9)]);
  (5, 20, [L 1 0; L 1 0; L 1 0; L 1 0]);
  (5, 21, [L 1 0; L 1 0; L 1 0; L 1 0]);
  (6, 7, [L 999120311 (-9); L 100041444 (-8); L 999922459 (-9); L 1001432824 (-9)]);
  (6, 8, [L 1 0; L 1002284353 (-9); L 1 0; L 1001835788 (-9)]);
  (6, 9, [L 1 0; L 1002779804 (-9); L 1 0; L 1002495889 (-9)]);
  (6, 10, [L 1 0; L 1010493989 (-9); L 1 0; L 1006018054 (-9)]);
  (6, 11, [L 1 0; L 1021668316 (-9); L 1 0; L 100988576 (-8)]);
  (6, 12, [L 1 0; L 1032807063 (-9); L 1 0; L 1013945424 (-9)]);
  (6, 13, [L 1 0; L 1047298475 (-9); L 1 0; L 1017817492 (-9)]);
  (6, 14, [L 1 0; L 1060243344 (-9); L 1 0; L 1021624748 (-9)]);
  (6, 15, [L 1 0; L 1147595688 (-9); L 1 0; L 1895305393 (-9)]);
  (6, 16, [L 1 0; L 1 0; L 1 0; L 1 0]);
  (6, 17, [L 1 0; L 1087272232 (-9); L 1 0; L 1161390082 (-9)]);
  (6, 18, [L 1 0; L 1 0; L 1 0; L 1 0]);
  (6, 19, [L 1012994431 (-9); L 988591117 (-9); L 974550548 (-9); L 937130844 (-9)]);
  (6, 20, [L 1 0; L 1 0; L 1 0; L 1 0]);
  (6, 21, [L 1 0; L 1 0; L 1 0; L 1 0]);
  (7, 8, [L 1 0; L 1002728434 (-9); L 1 0; L 1000792201 (-9)]);
  (7, 9, [L 1 0; L 101815965 (-8); L 1 0; L 100214364 (-8)]);
  (7, 10, [L 1 0; L 1034995284 (-9); L 1 0; L 100915706 (-8)]);
  (7, 11, [L 1 0; L 1019174227 (-9); L 1 0; L 1021283378 (-9)]);
  (7, 12, [L 1 0; L 1046905515 (-9); L 1 0; L 1033180106 (-9)]);
  (7, 13, [L 1 0; L 1049219137 (-9); L 1 0; L 1014096448 (-9)]);
  (7, 14, [L 976951968 (-9); L 1027845529 (-9); L 993688386 (-9); L 1076466918 (-9)]);
  (7, 15, [L 1 0; L 1232939523 (-9); L 1 0; L 2509259945 (-9)]);
  (7, 16, [L 1 0; L 1 0; L 1 0; L 1 0]);
  (7, 17, [L 1 0; L 1084740904 (-9); L 1 0; L 1173916162 (-9)]);
  (7, 18, [L 1 0; L 1223638763 (-9); L 1 0; L 615512682 (-9)]);
  (7, 19, [L 908113163 (-9); L 1033366041 (-9); L 985962886 (-9); L 926156602 (-9)]);
  (7, 20, [L 1 0; L 1 0; L 1 0; L 1 0]);
  (7, 21, [L 1 0; L 1214638734 (-9); L 1 0; L 1245039498 (-9)]);
  (8, 9, [L 1 0; L 1000024335 (-9); L 1 0; L 1000050537 (-9)]);
  (8, 10, [L 1 0; L 1002995876 (-9); L 1 0; L 1001204174 (-9)]);
  (8, 11, [L 1 0; L 1009928206 (-9); L 1 0; L 1003194615 (-9)]);
  (8, 12, [L 1 0; L 1017880545 (-9); L 1 0; L 100564748 (-8)]);
  (8, 13, [L 1 0; L 1028994325 (-9); L 1 0; L 1008191499 (-9)]);
  (8, 14, [L 1 0; L 1039372957 (-9); L 1 0; L 1010825138 (-9)]);
  (8, 15, [L 1 0; L 1184340443 (-9); L 1 0; L 1996386669 (-9)]);
  (8, 16, [L 1 0; L 1 0; L 1 0; L 1 0]);
  (8, 17, [L 1 0; L 1116694577 (-9); L 1 0; L 1199326059 (-9)]);
  (8, 18, [L 1 0; L 1 0; L 1 0; L 1 0]);
  (8, 19, [L 1 0; L 835763343 (-9); L 1 0; L 982651529 (-9)]);
  (8, 20, [L 1 0; L 1 0; L 1 0; L 1 0]);
  (8, 21, [L 1 0; L 1 0; L 1 0; L 1 0]);
  (9, 10, [L 1 0; L 1002480637 (-9); L 1 0; L 1000761237 (-9)]);
  (9, 11, [L 1 0; L 1008972412 (-9); L 1 0; L 1002441051 (-9)]);
  (9, 12, [L 1 0; L 1069223964 (-9); L 1 0; L 1016422347 (-9)]);
  (9, 13, [L 1 0; L 1034910633 (-9); L 1 0; L 1103421755 (-9)]);
  (9, 14, [L 1 0; L 1016370338 (-9); L 1 0; L 1049035838 (-9)]);
  (9, 15, [L 1 0; L 1188334783 (-9); L 1 0; L 2013859174 (-9)]);
  (9, 16, [L 1 0; L 1 0; L 1 0; L 1 0]);
  (9, 17, [L 1 0; L 1119954454 (-9); L 1 0; L 1206043295 (-9)]);
  (9, 18, [L 1 0; L 95667731 (-8); L 1 0; L 447666011 (-9)]);
  (9, 19, [L 984613203 (-9); L 1076539234 (-9); L 962006651 (-9); L 959065662 (-9)]);
  (9, 20, [L 1 0; L 1 0; L 1 0; L 1 0]);
  (9, 21, [L 1 0; L 1 0; L 1 0; L 1 0]);
  (10, 11, [L 1 0; L 1001508227 (-9); L 1 0; L 999762786 (-9)]);
  (10, 12, [L 1 0; L 1006268954 (-9); L 1 0; L 1001633952 (-9)]);
  (10, 13, [L 1 0; L 102076168 (-8); L 1 0; L 1055369591 (-9)]);
  (10, 14, [L 1001516371 (-9); L 1013511439 (-9); L 99764101 (-8); L 1028939539 (-9)]);
  (10, 15, [L 1 0; L 1243461678 (-9); L 1 0; L 3021197546 (-9)]);
  (10, 16, [L 1 0; L 1 0; L 1 0; L 1 0]);
  (10, 17, [L 1 0; L 1155145836 (-9); L 1 0; L 1233272781 (-9)]);
  (10, 18, [L 1 0; L 1170217596 (-9); L 1 0; L 569681333 (-9)]);
  (10, 19, [L 754473958 (-9); L 1339283552 (-9); L 985891113 (-9); L 956075596 (-9)]);
  (10, 20, [L 1 0; L 1 0; L 1 0; L 1 0]);
  (10, 21, [L 1 0; L 1 0; L 1 0; L 1 0]);
  (11, 12, [L 1 0; L 1006767176 (-9); L 1 0; L 998793111 (-9)]);
  (11, 13, [L 1 0; L 1001370076 (-9); L 1 0; L 1001150096 (-9)]);
  (11, 14, [L 1 0; L 1002972346 (-9); L 1 0; L 1002229938 (-9)]);
  (11, 15, [L 1 0; L 1159131722 (-9); L 1 0; L 3169143057 (-9)]);
  (11, 16, [L 1 0; L 1 0; L 1 0; L 1 0]);
  (11, 17, [L 1 0; L 1190354273 (-9); L 1 0; L 1256123503 (-9)]);
  (11, 18, [L 1 0; L 1 0; L 1 0; L 1 0]);
  (11, 19, [L 828967164 (-9); L 1087956749 (-9); L 988937417 (-9); L 1013453092 (-9)]);
  (11, 20, [L 1 0; L 1 0; L 1 0; L 1 0]);
  (11, 21, [L 1 0; L 1 0; L 1 0; L 1 0]);
  (12, 13, [L 1 0; L 1001357085 (-9); L 1 0; L 1000235044 (-9)]);
  (12, 14, [L 1 0; L 1002553544 (-9); L 1 0; L 1007186267 (-9)]);
  (12, 15, [L 1 0; L 1305249405 (-9); L 1 0; L 2191555216 (-9)]);
  (12, 16, [L 1 0; L 1 0; L 1 0; L 1 0]);
  (12, 17, [L 1 0; L 1219206702 (-9); L 1 0; L 1276565536 (-9)]);
  (12, 18, [L 1 0; L 599484191 (-9); L 1 0; L 662072469 (-9)]);
  (12, 19, [L 1 0; L 1 0; L 1 0; L 1 0]);
  (12, 20, [L 1 0; L 1 0; L 1 0; L 1 0]);
  (12, 21, [L 1 0; L 1 0; L 1 0; L 1 0]);
  (13, 14, [L 1 0; L 100081052 (-8); L 1 0; L 1000182392 (-9)]);
  (13, 15, [L 1 0; L 1342647661 (-9); L 1 0; L 223435404 (-8)]);
  (13, 16, [L 1 0; L 1 0; L 1 0; L 1 0]);
  (13, 17, [L 1 0; L 1252151449 (-9); L 1 0; L 1294070556 (-9)]);
  (13, 18, [L 1 0; L 1 0; L 1 0; L 1 0]);
  (13, 19, [L 1 0; L 1082905109 (-9); L 1 0; L 1086557826 (-9)]);
  (13, 20, [L 1 0; L 1 0; L 1 0; L 1 0]);
  (13, 21, [L 1 0; L 1 0; L 1 0; L 1 0]);
  (14, 15, [L 1695358382 (-9); L 1120233729 (-9); L 1064818089 (-9); L 3786003724 (-9)]);
  (14, 16, [L 1 0; L 1 0; L 1 0; L 1 0]);
  (14, 17, [L 1 0; L 87018496 (-8); L 1049594632 (-9); L 1803567587 (-9)]);
  (14, 18, [L 1 0; L 551405318 (-9); L 897162268 (-9); L 740416402 (-9)]);
  (14, 19, [L 975187766 (-9); L 1171714677 (-9); L 973091413 (-9); L 1103693489 (-9)]);
  (14, 20, [L 1 0; L 1 0; L 1 0; L 1 0]);
  (14, 21, [L 1 0; L 1 0; L 1 0; L 1 0]);
  (15, 16, [L 1 0; L 1 0; L 1 0; L 1 0]);
  (15, 17, [L 1 0; L 1121416201 (-9); L 1 0; L 1377504607 (-9)]);
  (15, 18, [L 1 0; L 1 0; L 1 0; L 1 0]);
  (15, 19, [L 1 0; L 1 0; L 1 0; L 1 0]);
  (15, 20, [L 1 0; L 1 0; L 1 0; L 1 0]);
  (15, 21, [L 1 0; L 1 0; L 1 0; L 1 0]);
  (16, 17, [L 1 0; L 1 0; L 1 0; L 1 0]);
  (16, 18, [L 1 0; L 1143174289 (-9); L 1 0; L 964767932 (-9)]);
  (16, 19, [L 1 0; L 1 0; L 1 0; L 1 0]);
  (16, 20, [L 1 0; L 1 0; L 1 0; L 1 0]);
  (16, 21, [L 999746847 (-9); L 993907223 (-9); L 1000023103 (-9); L 990430423 (-9)]);
  (17, 18, [L 1 0; L 1 0; L 1 0; L 1 0]);
  (17, 19, [L 795660392 (-9); L 1101731308 (-9); L 1025536736 (-9); L 1022749748 (-9)]);
  (17, 20, [L 1 0; L 1 0; L 1 0; L 1 0]);
  (17, 21, [L 1 0; L 1159720623 (-9); L 1 0; L 954215746 (-9)]);
  (18, 19, [L 1 0; L 1014832832 (-9); L 1 0; L 940587083 (-9)]);
  (18, 20, [L 1 0; L 1 0; L 1 0; L 1 0]);
  (18, 21, [L 1 0; L 1038993495 (-9); L 1 0; L 1070941866 (-9)]);
  (19, 20, [L 1 0; L 1 0; L 1 0; L 1 0]);
  (19, 21, [L 1 0; L 1 0; L 1 0; L 1 0]);
  (20, 21, [L 1 0; L 1 0; L 1 0; L 1 0])])%nat.
