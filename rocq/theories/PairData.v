(** optika/sensors/materials/_ramanathan_2020/p0K.dat, p100K.dat and p300K.dat, written by
    tools/mkpairs.py: the energy in hundredths of an eV and the probabilities of 1, 2, ... 20
    pairs in hundred-thousandths at 0 K, 100 K and 300 K.  (The numbers are those of the
    files; [np.loadtxt] rounds them to the nearest floating-point numbers.) *)
From Coq Require Import List ZArith.
Import ListNotations.
Open Scope Z_scope.

Definition data_row := (Z * list Z * list Z * list Z)%type.
Definition pair_data_0 : list data_row := [
(110, [0;0;0;0;0;0;0;0;0;0;0;0;0;0;0;0;0;0;0;0], [0;0;0;0;0;0;0;0;0;0;0;0;0;0;0;0;0;0;0;0], [0;0;0;0;0;0;0;0;0;0;0;0;0;0;0;0;0;0;0;0]);
(115, [0;0;0;0;0;0;0;0;0;0;0;0;0;0;0;0;0;0;0;0], [0;0;0;0;0;0;0;0;0;0;0;0;0;0;0;0;0;0;0;0], [100000;0;0;0;0;0;0;0;0;0;0;0;0;0;0;0;0;0;0;0]);
(120, [100000;0;0;0;0;0;0;0;0;0;0;0;0;0;0;0;0;0;0;0], [100000;0;0;0;0;0;0;0;0;0;0;0;0;0;0;0;0;0;0;0], [100000;0;0;0;0;0;0;0;0;0;0;0;0;0;0;0;0;0;0;0]);
(125, [100000;0;0;0;0;0;0;0;0;0;0;0;0;0;0;0;0;0;0;0], [100000;0;0;0;0;0;0;0;0;0;0;0;0;0;0;0;0;0;0;0], [100000;0;0;0;0;0;0;0;0;0;0;0;0;0;0;0;0;0;0;0]);
(130, [100000;0;0;0;0;0;0;0;0;0;0;0;0;0;0;0;0;0;0;0], [100000;0;0;0;0;0;0;0;0;0;0;0;0;0;0;0;0;0;0;0], [100000;0;0;0;0;0;0;0;0;0;0;0;0;0;0;0;0;0;0;0]);
(135, [100000;0;0;0;0;0;0;0;0;0;0;0;0;0;0;0;0;0;0;0], [100000;0;0;0;0;0;0;0;0;0;0;0;0;0;0;0;0;0;0;0], [100000;0;0;0;0;0;0;0;0;0;0;0;0;0;0;0;0;0;0;0]);
(140, [100000;0;0;0;0;0;0;0;0;0;0;0;0;0;0;0;0;0;0;0], [100000;0;0;0;0;0;0;0;0;0;0;0;0;0;0;0;0;0;0;0], [100000;0;0;0;0;0;0;0;0;0;0;0;0;0;0;0;0;0;0;0]);
(145, [100000;0;0;0;0;0;0;0;0;0;0;0;0;0;0;0;0;0;0;0], [100000;0;0;0;0;0;0;0;0;0;0;0;0;0;0;0;0;0;0;0], [100000;0;0;0;0;0;0;0;0;0;0;0;0;0;0;0;0;0;0;0]);
(150, [100000;0;0;0;0;0;0;0;0;0;0;0;0;0;0;0;0;0;0;0], [100000;0;0;0;0;0;0;0;0;0;0;0;0;0;0;0;0;0;0;0], [100000;0;0;0;0;0;0;0;0;0;0;0;0;0;0;0;0;0;0;0]);
(155, [100000;0;0;0;0;0;0;0;0;0;0;0;0;0;0;0;0;0;0;0], [100000;0;0;0;0;0;0;0;0;0;0;0;0;0;0;0;0;0;0;0], [100000;0;0;0;0;0;0;0;0;0;0;0;0;0;0;0;0;0;0;0]);
(160, [100000;0;0;0;0;0;0;0;0;0;0;0;0;0;0;0;0;0;0;0], [100000;0;0;0;0;0;0;0;0;0;0;0;0;0;0;0;0;0;0;0], [100000;0;0;0;0;0;0;0;0;0;0;0;0;0;0;0;0;0;0;0]);
(165, [100000;0;0;0;0;0;0;0;0;0;0;0;0;0;0;0;0;0;0;0], [100000;0;0;0;0;0;0;0;0;0;0;0;0;0;0;0;0;0;0;0], [100000;0;0;0;0;0;0;0;0;0;0;0;0;0;0;0;0;0;0;0]);
(170, [100000;0;0;0;0;0;0;0;0;0;0;0;0;0;0;0;0;0;0;0], [100000;0;0;0;0;0;0;0;0;0;0;0;0;0;0;0;0;0;0;0], [100000;0;0;0;0;0;0;0;0;0;0;0;0;0;0;0;0;0;0;0]);
(175, [100000;0;0;0;0;0;0;0;0;0;0;0;0;0;0;0;0;0;0;0], [100000;0;0;0;0;0;0;0;0;0;0;0;0;0;0;0;0;0;0;0], [100000;0;0;0;0;0;0;0;0;0;0;0;0;0;0;0;0;0;0;0]);
(180, [100000;0;0;0;0;0;0;0;0;0;0;0;0;0;0;0;0;0;0;0], [100000;0;0;0;0;0;0;0;0;0;0;0;0;0;0;0;0;0;0;0], [100000;0;0;0;0;0;0;0;0;0;0;0;0;0;0;0;0;0;0;0]);
(185, [100000;0;0;0;0;0;0;0;0;0;0;0;0;0;0;0;0;0;0;0], [100000;0;0;0;0;0;0;0;0;0;0;0;0;0;0;0;0;0;0;0], [100000;0;0;0;0;0;0;0;0;0;0;0;0;0;0;0;0;0;0;0]);
(190, [100000;0;0;0;0;0;0;0;0;0;0;0;0;0;0;0;0;0;0;0], [100000;0;0;0;0;0;0;0;0;0;0;0;0;0;0;0;0;0;0;0], [100000;0;0;0;0;0;0;0;0;0;0;0;0;0;0;0;0;0;0;0]);
(195, [100000;0;0;0;0;0;0;0;0;0;0;0;0;0;0;0;0;0;0;0], [100000;0;0;0;0;0;0;0;0;0;0;0;0;0;0;0;0;0;0;0], [100000;0;0;0;0;0;0;0;0;0;0;0;0;0;0;0;0;0;0;0]);
(200, [100000;0;0;0;0;0;0;0;0;0;0;0;0;0;0;0;0;0;0;0], [100000;0;0;0;0;0;0;0;0;0;0;0;0;0;0;0;0;0;0;0], [100000;0;0;0;0;0;0;0;0;0;0;0;0;0;0;0;0;0;0;0]);
(205, [100000;0;0;0;0;0;0;0;0;0;0;0;0;0;0;0;0;0;0;0], [100000;0;0;0;0;0;0;0;0;0;0;0;0;0;0;0;0;0;0;0], [100000;0;0;0;0;0;0;0;0;0;0;0;0;0;0;0;0;0;0;0]);
(210, [100000;0;0;0;0;0;0;0;0;0;0;0;0;0;0;0;0;0;0;0], [100000;0;0;0;0;0;0;0;0;0;0;0;0;0;0;0;0;0;0;0], [100000;0;0;0;0;0;0;0;0;0;0;0;0;0;0;0;0;0;0;0]);
(215, [100000;0;0;0;0;0;0;0;0;0;0;0;0;0;0;0;0;0;0;0], [100000;0;0;0;0;0;0;0;0;0;0;0;0;0;0;0;0;0;0;0], [100000;0;0;0;0;0;0;0;0;0;0;0;0;0;0;0;0;0;0;0]);
(220, [100000;0;0;0;0;0;0;0;0;0;0;0;0;0;0;0;0;0;0;0], [100000;0;0;0;0;0;0;0;0;0;0;0;0;0;0;0;0;0;0;0], [100000;0;0;0;0;0;0;0;0;0;0;0;0;0;0;0;0;0;0;0]);
(225, [100000;0;0;0;0;0;0;0;0;0;0;0;0;0;0;0;0;0;0;0], [100000;0;0;0;0;0;0;0;0;0;0;0;0;0;0;0;0;0;0;0], [100000;0;0;0;0;0;0;0;0;0;0;0;0;0;0;0;0;0;0;0]);
(230, [100000;0;0;0;0;0;0;0;0;0;0;0;0;0;0;0;0;0;0;0], [100000;0;0;0;0;0;0;0;0;0;0;0;0;0;0;0;0;0;0;0], [100000;0;0;0;0;0;0;0;0;0;0;0;0;0;0;0;0;0;0;0]);
(235, [100000;0;0;0;0;0;0;0;0;0;0;0;0;0;0;0;0;0;0;0], [100000;0;0;0;0;0;0;0;0;0;0;0;0;0;0;0;0;0;0;0], [100000;0;0;0;0;0;0;0;0;0;0;0;0;0;0;0;0;0;0;0]);
(240, [100000;0;0;0;0;0;0;0;0;0;0;0;0;0;0;0;0;0;0;0], [100000;0;0;0;0;0;0;0;0;0;0;0;0;0;0;0;0;0;0;0], [99996;4;0;0;0;0;0;0;0;0;0;0;0;0;0;0;0;0;0;0]);
(245, [99999;1;0;0;0;0;0;0;0;0;0;0;0;0;0;0;0;0;0;0], [100000;0;0;0;0;0;0;0;0;0;0;0;0;0;0;0;0;0;0;0], [99992;8;0;0;0;0;0;0;0;0;0;0;0;0;0;0;0;0;0;0]);
(250, [99997;3;0;0;0;0;0;0;0;0;0;0;0;0;0;0;0;0;0;0], [99997;3;0;0;0;0;0;0;0;0;0;0;0;0;0;0;0;0;0;0], [99989;11;0;0;0;0;0;0;0;0;0;0;0;0;0;0;0;0;0;0]);
(255, [99996;4;0;0;0;0;0;0;0;0;0;0;0;0;0;0;0;0;0;0], [99996;4;0;0;0;0;0;0;0;0;0;0;0;0;0;0;0;0;0;0], [99978;22;0;0;0;0;0;0;0;0;0;0;0;0;0;0;0;0;0;0]);
(260, [99992;8;0;0;0;0;0;0;0;0;0;0;0;0;0;0;0;0;0;0], [99989;11;0;0;0;0;0;0;0;0;0;0;0;0;0;0;0;0;0;0], [99946;54;0;0;0;0;0;0;0;0;0;0;0;0;0;0;0;0;0;0]);
(265, [99967;33;0;0;0;0;0;0;0;0;0;0;0;0;0;0;0;0;0;0], [99978;22;0;0;0;0;0;0;0;0;0;0;0;0;0;0;0;0;0;0], [99904;96;0;0;0;0;0;0;0;0;0;0;0;0;0;0;0;0;0;0]);
(270, [99955;45;0;0;0;0;0;0;0;0;0;0;0;0;0;0;0;0;0;0], [99933;67;0;0;0;0;0;0;0;0;0;0;0;0;0;0;0;0;0;0], [99890;110;0;0;0;0;0;0;0;0;0;0;0;0;0;0;0;0;0;0]);
(275, [99931;69;0;0;0;0;0;0;0;0;0;0;0;0;0;0;0;0;0;0], [99884;116;0;0;0;0;0;0;0;0;0;0;0;0;0;0;0;0;0;0], [99802;198;0;0;0;0;0;0;0;0;0;0;0;0;0;0;0;0;0;0]);
(280, [99865;135;0;0;0;0;0;0;0;0;0;0;0;0;0;0;0;0;0;0], [99857;143;0;0;0;0;0;0;0;0;0;0;0;0;0;0;0;0;0;0], [99721;279;0;0;0;0;0;0;0;0;0;0;0;0;0;0;0;0;0;0]);
(285, [99777;223;0;0;0;0;0;0;0;0;0;0;0;0;0;0;0;0;0;0], [99775;225;0;0;0;0;0;0;0;0;0;0;0;0;0;0;0;0;0;0], [99527;473;0;0;0;0;0;0;0;0;0;0;0;0;0;0;0;0;0;0]);
(290, [99689;311;0;0;0;0;0;0;0;0;0;0;0;0;0;0;0;0;0;0], [99673;327;0;0;0;0;0;0;0;0;0;0;0;0;0;0;0;0;0;0], [99426;574;0;0;0;0;0;0;0;0;0;0;0;0;0;0;0;0;0;0]);
(295, [99547;453;0;0;0;0;0;0;0;0;0;0;0;0;0;0;0;0;0;0], [99520;480;0;0;0;0;0;0;0;0;0;0;0;0;0;0;0;0;0;0], [99196;804;0;0;0;0;0;0;0;0;0;0;0;0;0;0;0;0;0;0]);
(300, [99444;556;0;0;0;0;0;0;0;0;0;0;0;0;0;0;0;0;0;0], [99406;594;0;0;0;0;0;0;0;0;0;0;0;0;0;0;0;0;0;0], [98947;1053;0;0;0;0;0;0;0;0;0;0;0;0;0;0;0;0;0;0]);
(305, [99191;809;0;0;0;0;0;0;0;0;0;0;0;0;0;0;0;0;0;0], [99121;879;0;0;0;0;0;0;0;0;0;0;0;0;0;0;0;0;0;0], [98661;1339;0;0;0;0;0;0;0;0;0;0;0;0;0;0;0;0;0;0]);
(310, [98933;1067;0;0;0;0;0;0;0;0;0;0;0;0;0;0;0;0;0;0], [98850;1150;0;0;0;0;0;0;0;0;0;0;0;0;0;0;0;0;0;0], [98292;1708;0;0;0;0;0;0;0;0;0;0;0;0;0;0;0;0;0;0]);
(315, [99119;881;0;0;0;0;0;0;0;0;0;0;0;0;0;0;0;0;0;0], [99074;926;0;0;0;0;0;0;0;0;0;0;0;0;0;0;0;0;0;0], [98562;1438;0;0;0;0;0;0;0;0;0;0;0;0;0;0;0;0;0;0]);
(320, [99213;787;0;0;0;0;0;0;0;0;0;0;0;0;0;0;0;0;0;0], [99202;798;0;0;0;0;0;0;0;0;0;0;0;0;0;0;0;0;0;0], [98799;1201;0;0;0;0;0;0;0;0;0;0;0;0;0;0;0;0;0;0]);
(325, [99002;998;0;0;0;0;0;0;0;0;0;0;0;0;0;0;0;0;0;0], [98960;1040;0;0;0;0;0;0;0;0;0;0;0;0;0;0;0;0;0;0], [98457;1543;0;0;0;0;0;0;0;0;0;0;0;0;0;0;0;0;0;0]);
(330, [98555;1445;0;0;0;0;0;0;0;0;0;0;0;0;0;0;0;0;0;0], [98506;1494;0;0;0;0;0;0;0;0;0;0;0;0;0;0;0;0;0;0], [97943;2057;0;0;0;0;0;0;0;0;0;0;0;0;0;0;0;0;0;0]);
(335, [97796;2204;0;0;0;0;0;0;0;0;0;0;0;0;0;0;0;0;0;0], [97724;2276;0;0;0;0;0;0;0;0;0;0;0;0;0;0;0;0;0;0], [96779;3221;0;0;0;0;0;0;0;0;0;0;0;0;0;0;0;0;0;0]);
(340, [96739;3261;0;0;0;0;0;0;0;0;0;0;0;0;0;0;0;0;0;0], [96545;3455;0;0;0;0;0;0;0;0;0;0;0;0;0;0;0;0;0;0], [95501;4499;0;0;0;0;0;0;0;0;0;0;0;0;0;0;0;0;0;0]);
(345, [97086;2914;0;0;0;0;0;0;0;0;0;0;0;0;0;0;0;0;0;0], [96932;3068;0;0;0;0;0;0;0;0;0;0;0;0;0;0;0;0;0;0], [95883;4117;0;0;0;0;0;0;0;0;0;0;0;0;0;0;0;0;0;0]);
(350, [97791;2209;0;0;0;0;0;0;0;0;0;0;0;0;0;0;0;0;0;0], [97662;2338;0;0;0;0;0;0;0;0;0;0;0;0;0;0;0;0;0;0], [96832;3168;0;0;0;0;0;0;0;0;0;0;0;0;0;0;0;0;0;0]);
(355, [98020;1980;0;0;0;0;0;0;0;0;0;0;0;0;0;0;0;0;0;0], [97785;2215;0;0;0;0;0;0;0;0;0;0;0;0;0;0;0;0;0;0], [96957;3043;0;0;0;0;0;0;0;0;0;0;0;0;0;0;0;0;0;0]);
(360, [97412;2588;0;0;0;0;0;0;0;0;0;0;0;0;0;0;0;0;0;0], [97254;2746;0;0;0;0;0;0;0;0;0;0;0;0;0;0;0;0;0;0], [96357;3643;0;0;0;0;0;0;0;0;0;0;0;0;0;0;0;0;0;0]);
(365, [97505;2495;0;0;0;0;0;0;0;0;0;0;0;0;0;0;0;0;0;0], [97349;2651;0;0;0;0;0;0;0;0;0;0;0;0;0;0;0;0;0;0], [96659;3341;0;0;0;0;0;0;0;0;0;0;0;0;0;0;0;0;0;0]);
(370, [97891;2109;0;0;0;0;0;0;0;0;0;0;0;0;0;0;0;0;0;0], [97775;2225;0;0;0;0;0;0;0;0;0;0;0;0;0;0;0;0;0;0], [97112;2888;0;0;0;0;0;0;0;0;0;0;0;0;0;0;0;0;0;0]);
(375, [97800;2200;0;0;0;0;0;0;0;0;0;0;0;0;0;0;0;0;0;0], [97595;2405;0;0;0;0;0;0;0;0;0;0;0;0;0;0;0;0;0;0], [96840;3160;0;0;0;0;0;0;0;0;0;0;0;0;0;0;0;0;0;0]);
(380, [97840;2160;0;0;0;0;0;0;0;0;0;0;0;0;0;0;0;0;0;0], [97662;2338;0;0;0;0;0;0;0;0;0;0;0;0;0;0;0;0;0;0], [96887;3113;0;0;0;0;0;0;0;0;0;0;0;0;0;0;0;0;0;0]);
(385, [97600;2400;0;0;0;0;0;0;0;0;0;0;0;0;0;0;0;0;0;0], [97489;2511;0;0;0;0;0;0;0;0;0;0;0;0;0;0;0;0;0;0], [96819;3181;0;0;0;0;0;0;0;0;0;0;0;0;0;0;0;0;0;0]);
(390, [97182;2818;0;0;0;0;0;0;0;0;0;0;0;0;0;0;0;0;0;0], [97088;2912;0;0;0;0;0;0;0;0;0;0;0;0;0;0;0;0;0;0], [96239;3761;0;0;0;0;0;0;0;0;0;0;0;0;0;0;0;0;0;0]);
(395, [96620;3380;0;0;0;0;0;0;0;0;0;0;0;0;0;0;0;0;0;0], [96410;3590;0;0;0;0;0;0;0;0;0;0;0;0;0;0;0;0;0;0], [95545;4455;0;0;0;0;0;0;0;0;0;0;0;0;0;0;0;0;0;0]);
(400, [95948;4052;0;0;0;0;0;0;0;0;0;0;0;0;0;0;0;0;0;0], [95633;4367;0;0;0;0;0;0;0;0;0;0;0;0;0;0;0;0;0;0], [94726;5274;0;0;0;0;0;0;0;0;0;0;0;0;0;0;0;0;0;0]);
(405, [95056;4944;0;0;0;0;0;0;0;0;0;0;0;0;0;0;0;0;0;0], [95060;4940;0;0;0;0;0;0;0;0;0;0;0;0;0;0;0;0;0;0], [93735;6265;0;0;0;0;0;0;0;0;0;0;0;0;0;0;0;0;0;0]);
(410, [94591;5409;0;0;0;0;0;0;0;0;0;0;0;0;0;0;0;0;0;0], [94460;5540;0;0;0;0;0;0;0;0;0;0;0;0;0;0;0;0;0;0], [93147;6853;0;0;0;0;0;0;0;0;0;0;0;0;0;0;0;0;0;0]);
(415, [94123;5877;0;0;0;0;0;0;0;0;0;0;0;0;0;0;0;0;0;0], [94024;5976;0;0;0;0;0;0;0;0;0;0;0;0;0;0;0;0;0;0], [92679;7321;0;0;0;0;0;0;0;0;0;0;0;0;0;0;0;0;0;0]);
(420, [93056;6944;0;0;0;0;0;0;0;0;0;0;0;0;0;0;0;0;0;0], [92865;7135;0;0;0;0;0;0;0;0;0;0;0;0;0;0;0;0;0;0], [91418;8582;0;0;0;0;0;0;0;0;0;0;0;0;0;0;0;0;0;0]);
(425, [91616;8384;0;0;0;0;0;0;0;0;0;0;0;0;0;0;0;0;0;0], [91287;8713;0;0;0;0;0;0;0;0;0;0;0;0;0;0;0;0;0;0], [89634;10366;0;0;0;0;0;0;0;0;0;0;0;0;0;0;0;0;0;0]);
(430, [90398;9602;0;0;0;0;0;0;0;0;0;0;0;0;0;0;0;0;0;0], [90191;9809;0;0;0;0;0;0;0;0;0;0;0;0;0;0;0;0;0;0], [88167;11833;0;0;0;0;0;0;0;0;0;0;0;0;0;0;0;0;0;0]);
(435, [89709;10291;0;0;0;0;0;0;0;0;0;0;0;0;0;0;0;0;0;0], [89273;10727;0;0;0;0;0;0;0;0;0;0;0;0;0;0;0;0;0;0], [87047;12953;0;0;0;0;0;0;0;0;0;0;0;0;0;0;0;0;0;0]);
(440, [89788;10212;0;0;0;0;0;0;0;0;0;0;0;0;0;0;0;0;0;0], [89578;10421;1;0;0;0;0;0;0;0;0;0;0;0;0;0;0;0;0;0], [87450;12549;1;0;0;0;0;0;0;0;0;0;0;0;0;0;0;0;0;0]);
(445, [89793;10207;0;0;0;0;0;0;0;0;0;0;0;0;0;0;0;0;0;0], [89605;10394;1;0;0;0;0;0;0;0;0;0;0;0;0;0;0;0;0;0], [87631;12369;0;0;0;0;0;0;0;0;0;0;0;0;0;0;0;0;0;0]);
(450, [89433;10567;0;0;0;0;0;0;0;0;0;0;0;0;0;0;0;0;0;0], [88939;11061;0;0;0;0;0;0;0;0;0;0;0;0;0;0;0;0;0;0], [87096;12904;0;0;0;0;0;0;0;0;0;0;0;0;0;0;0;0;0;0]);
(455, [88931;11069;0;0;0;0;0;0;0;0;0;0;0;0;0;0;0;0;0;0], [88621;11378;1;0;0;0;0;0;0;0;0;0;0;0;0;0;0;0;0;0], [86458;13541;1;0;0;0;0;0;0;0;0;0;0;0;0;0;0;0;0;0]);
(460, [88431;11568;1;0;0;0;0;0;0;0;0;0;0;0;0;0;0;0;0;0], [88114;11885;1;0;0;0;0;0;0;0;0;0;0;0;0;0;0;0;0;0], [85970;14028;2;0;0;0;0;0;0;0;0;0;0;0;0;0;0;0;0;0]);
(465, [87852;12147;1;0;0;0;0;0;0;0;0;0;0;0;0;0;0;0;0;0], [87540;12460;0;0;0;0;0;0;0;0;0;0;0;0;0;0;0;0;0;0], [85359;14637;4;0;0;0;0;0;0;0;0;0;0;0;0;0;0;0;0;0]);
(470, [86916;13084;0;0;0;0;0;0;0;0;0;0;0;0;0;0;0;0;0;0], [86810;13190;0;0;0;0;0;0;0;0;0;0;0;0;0;0;0;0;0;0], [84699;15300;1;0;0;0;0;0;0;0;0;0;0;0;0;0;0;0;0;0]);
(475, [86811;13187;2;0;0;0;0;0;0;0;0;0;0;0;0;0;0;0;0;0], [86553;13447;0;0;0;0;0;0;0;0;0;0;0;0;0;0;0;0;0;0], [84290;15706;4;0;0;0;0;0;0;0;0;0;0;0;0;0;0;0;0;0]);
(480, [86501;13499;0;0;0;0;0;0;0;0;0;0;0;0;0;0;0;0;0;0], [86204;13794;2;0;0;0;0;0;0;0;0;0;0;0;0;0;0;0;0;0], [84061;15936;3;0;0;0;0;0;0;0;0;0;0;0;0;0;0;0;0;0]);
(485, [86638;13361;1;0;0;0;0;0;0;0;0;0;0;0;0;0;0;0;0;0], [86218;13780;2;0;0;0;0;0;0;0;0;0;0;0;0;0;0;0;0;0], [83844;16155;1;0;0;0;0;0;0;0;0;0;0;0;0;0;0;0;0;0]);
(490, [85818;14180;2;0;0;0;0;0;0;0;0;0;0;0;0;0;0;0;0;0], [85659;14337;4;0;0;0;0;0;0;0;0;0;0;0;0;0;0;0;0;0], [83189;16805;6;0;0;0;0;0;0;0;0;0;0;0;0;0;0;0;0;0]);
(495, [85030;14968;2;0;0;0;0;0;0;0;0;0;0;0;0;0;0;0;0;0], [84723;15269;8;0;0;0;0;0;0;0;0;0;0;0;0;0;0;0;0;0], [82466;17523;11;0;0;0;0;0;0;0;0;0;0;0;0;0;0;0;0;0]);
(500, [84242;15755;3;0;0;0;0;0;0;0;0;0;0;0;0;0;0;0;0;0], [83703;16293;4;0;0;0;0;0;0;0;0;0;0;0;0;0;0;0;0;0], [81502;18487;11;0;0;0;0;0;0;0;0;0;0;0;0;0;0;0;0;0]);
(505, [83488;16507;5;0;0;0;0;0;0;0;0;0;0;0;0;0;0;0;0;0], [83211;16783;6;0;0;0;0;0;0;0;0;0;0;0;0;0;0;0;0;0], [80938;19045;17;0;0;0;0;0;0;0;0;0;0;0;0;0;0;0;0;0]);
(510, [82905;17086;9;0;0;0;0;0;0;0;0;0;0;0;0;0;0;0;0;0], [82542;17447;11;0;0;0;0;0;0;0;0;0;0;0;0;0;0;0;0;0], [80066;19918;16;0;0;0;0;0;0;0;0;0;0;0;0;0;0;0;0;0]);
(515, [82243;17749;8;0;0;0;0;0;0;0;0;0;0;0;0;0;0;0;0;0], [81804;18189;7;0;0;0;0;0;0;0;0;0;0;0;0;0;0;0;0;0], [79295;20681;24;0;0;0;0;0;0;0;0;0;0;0;0;0;0;0;0;0]);
(520, [81613;18374;13;0;0;0;0;0;0;0;0;0;0;0;0;0;0;0;0;0], [81232;18761;7;0;0;0;0;0;0;0;0;0;0;0;0;0;0;0;0;0], [78569;21404;27;0;0;0;0;0;0;0;0;0;0;0;0;0;0;0;0;0]);
(525, [81250;18730;20;0;0;0;0;0;0;0;0;0;0;0;0;0;0;0;0;0], [80748;19238;14;0;0;0;0;0;0;0;0;0;0;0;0;0;0;0;0;0], [78318;21654;28;0;0;0;0;0;0;0;0;0;0;0;0;0;0;0;0;0]);
(530, [80565;19421;14;0;0;0;0;0;0;0;0;0;0;0;0;0;0;0;0;0], [80000;19973;27;0;0;0;0;0;0;0;0;0;0;0;0;0;0;0;0;0], [77290;22663;47;0;0;0;0;0;0;0;0;0;0;0;0;0;0;0;0;0]);
(535, [79804;20168;28;0;0;0;0;0;0;0;0;0;0;0;0;0;0;0;0;0], [79625;20341;34;0;0;0;0;0;0;0;0;0;0;0;0;0;0;0;0;0], [76561;23390;49;0;0;0;0;0;0;0;0;0;0;0;0;0;0;0;0;0]);
(540, [79138;20829;33;0;0;0;0;0;0;0;0;0;0;0;0;0;0;0;0;0], [78813;21155;32;0;0;0;0;0;0;0;0;0;0;0;0;0;0;0;0;0], [75480;24462;58;0;0;0;0;0;0;0;0;0;0;0;0;0;0;0;0;0]);
(545, [78379;21578;43;0;0;0;0;0;0;0;0;0;0;0;0;0;0;0;0;0], [77817;22139;44;0;0;0;0;0;0;0;0;0;0;0;0;0;0;0;0;0], [74795;25120;85;0;0;0;0;0;0;0;0;0;0;0;0;0;0;0;0;0]);
(550, [77638;22325;37;0;0;0;0;0;0;0;0;0;0;0;0;0;0;0;0;0], [77054;22896;50;0;0;0;0;0;0;0;0;0;0;0;0;0;0;0;0;0], [74064;25859;77;0;0;0;0;0;0;0;0;0;0;0;0;0;0;0;0;0]);
(555, [76610;23309;81;0;0;0;0;0;0;0;0;0;0;0;0;0;0;0;0;0], [76231;23717;52;0;0;0;0;0;0;0;0;0;0;0;0;0;0;0;0;0], [73039;26859;102;0;0;0;0;0;0;0;0;0;0;0;0;0;0;0;0;0]);
(560, [75659;24272;69;0;0;0;0;0;0;0;0;0;0;0;0;0;0;0;0;0], [75256;24668;76;0;0;0;0;0;0;0;0;0;0;0;0;0;0;0;0;0], [72245;27622;133;0;0;0;0;0;0;0;0;0;0;0;0;0;0;0;0;0]);
(565, [75152;24742;106;0;0;0;0;0;0;0;0;0;0;0;0;0;0;0;0;0], [74438;25459;103;0;0;0;0;0;0;0;0;0;0;0;0;0;0;0;0;0], [71299;28545;156;0;0;0;0;0;0;0;0;0;0;0;0;0;0;0;0;0]);
(570, [73972;25941;87;0;0;0;0;0;0;0;0;0;0;0;0;0;0;0;0;0], [73365;26531;104;0;0;0;0;0;0;0;0;0;0;0;0;0;0;0;0;0], [70272;29526;202;0;0;0;0;0;0;0;0;0;0;0;0;0;0;0;0;0]);
(575, [73049;26825;126;0;0;0;0;0;0;0;0;0;0;0;0;0;0;0;0;0], [72448;27390;162;0;0;0;0;0;0;0;0;0;0;0;0;0;0;0;0;0], [69101;30701;198;0;0;0;0;0;0;0;0;0;0;0;0;0;0;0;0;0]);
(580, [72426;27415;159;0;0;0;0;0;0;0;0;0;0;0;0;0;0;0;0;0], [71634;28213;153;0;0;0;0;0;0;0;0;0;0;0;0;0;0;0;0;0], [68172;31578;250;0;0;0;0;0;0;0;0;0;0;0;0;0;0;0;0;0]);
(585, [71129;28682;189;0;0;0;0;0;0;0;0;0;0;0;0;0;0;0;0;0], [70810;28974;216;0;0;0;0;0;0;0;0;0;0;0;0;0;0;0;0;0], [67120;32533;347;0;0;0;0;0;0;0;0;0;0;0;0;0;0;0;0;0]);
(590, [69909;29861;230;0;0;0;0;0;0;0;0;0;0;0;0;0;0;0;0;0], [69277;30484;239;0;0;0;0;0;0;0;0;0;0;0;0;0;0;0;0;0], [65598;34001;401;0;0;0;0;0;0;0;0;0;0;0;0;0;0;0;0;0]);
(595, [68933;30796;271;0;0;0;0;0;0;0;0;0;0;0;0;0;0;0;0;0], [68152;31559;289;0;0;0;0;0;0;0;0;0;0;0;0;0;0;0;0;0], [64560;34970;470;0;0;0;0;0;0;0;0;0;0;0;0;0;0;0;0;0]);
(600, [66584;33046;370;0;0;0;0;0;0;0;0;0;0;0;0;0;0;0;0;0], [66294;33321;385;0;0;0;0;0;0;0;0;0;0;0;0;0;0;0;0;0], [62509;36960;531;0;0;0;0;0;0;0;0;0;0;0;0;0;0;0;0;0]);
(605, [64705;34897;398;0;0;0;0;0;0;0;0;0;0;0;0;0;0;0;0;0], [64179;35408;413;0;0;0;0;0;0;0;0;0;0;0;0;0;0;0;0;0], [59983;39414;603;0;0;0;0;0;0;0;0;0;0;0;0;0;0;0;0;0])].
Definition pair_data_1 : list data_row := [
(610, [62327;37190;483;0;0;0;0;0;0;0;0;0;0;0;0;0;0;0;0;0], [61996;37536;468;0;0;0;0;0;0;0;0;0;0;0;0;0;0;0;0;0], [57950;41322;728;0;0;0;0;0;0;0;0;0;0;0;0;0;0;0;0;0]);
(615, [61215;38234;551;0;0;0;0;0;0;0;0;0;0;0;0;0;0;0;0;0], [60544;38892;564;0;0;0;0;0;0;0;0;0;0;0;0;0;0;0;0;0], [56408;42745;847;0;0;0;0;0;0;0;0;0;0;0;0;0;0;0;0;0]);
(620, [60022;39323;655;0;0;0;0;0;0;0;0;0;0;0;0;0;0;0;0;0], [59450;39892;658;0;0;0;0;0;0;0;0;0;0;0;0;0;0;0;0;0], [54983;44064;953;0;0;0;0;0;0;0;0;0;0;0;0;0;0;0;0;0]);
(625, [58461;40809;730;0;0;0;0;0;0;0;0;0;0;0;0;0;0;0;0;0], [58056;41179;765;0;0;0;0;0;0;0;0;0;0;0;0;0;0;0;0;0], [53816;45118;1066;0;0;0;0;0;0;0;0;0;0;0;0;0;0;0;0;0]);
(630, [56790;42344;866;0;0;0;0;0;0;0;0;0;0;0;0;0;0;0;0;0], [55896;43242;862;0;0;0;0;0;0;0;0;0;0;0;0;0;0;0;0;0], [52226;46434;1340;0;0;0;0;0;0;0;0;0;0;0;0;0;0;0;0;0]);
(635, [55213;43761;1026;0;0;0;0;0;0;0;0;0;0;0;0;0;0;0;0;0], [54080;44876;1044;0;0;0;0;0;0;0;0;0;0;0;0;0;0;0;0;0], [50070;48397;1533;0;0;0;0;0;0;0;0;0;0;0;0;0;0;0;0;0]);
(640, [52953;45895;1152;0;0;0;0;0;0;0;0;0;0;0;0;0;0;0;0;0], [52373;46429;1198;0;0;0;0;0;0;0;0;0;0;0;0;0;0;0;0;0], [48342;50023;1635;0;0;0;0;0;0;0;0;0;0;0;0;0;0;0;0;0]);
(645, [50953;47808;1238;1;0;0;0;0;0;0;0;0;0;0;0;0;0;0;0;0], [50252;48396;1352;0;0;0;0;0;0;0;0;0;0;0;0;0;0;0;0;0], [46105;51987;1908;0;0;0;0;0;0;0;0;0;0;0;0;0;0;0;0;0]);
(650, [48697;49843;1460;0;0;0;0;0;0;0;0;0;0;0;0;0;0;0;0;0], [48083;50419;1498;0;0;0;0;0;0;0;0;0;0;0;0;0;0;0;0;0], [44002;53826;2171;1;0;0;0;0;0;0;0;0;0;0;0;0;0;0;0;0]);
(655, [46550;51798;1652;0;0;0;0;0;0;0;0;0;0;0;0;0;0;0;0;0], [45746;52535;1719;0;0;0;0;0;0;0;0;0;0;0;0;0;0;0;0;0], [41404;56214;2382;0;0;0;0;0;0;0;0;0;0;0;0;0;0;0;0;0]);
(660, [44575;53485;1940;0;0;0;0;0;0;0;0;0;0;0;0;0;0;0;0;0], [44055;54019;1926;0;0;0;0;0;0;0;0;0;0;0;0;0;0;0;0;0], [40209;57246;2544;1;0;0;0;0;0;0;0;0;0;0;0;0;0;0;0;0]);
(665, [43358;54565;2076;1;0;0;0;0;0;0;0;0;0;0;0;0;0;0;0;0], [42691;55155;2154;0;0;0;0;0;0;0;0;0;0;0;0;0;0;0;0;0], [38228;58818;2954;0;0;0;0;0;0;0;0;0;0;0;0;0;0;0;0;0]);
(670, [41429;56164;2406;1;0;0;0;0;0;0;0;0;0;0;0;0;0;0;0;0], [40915;56569;2516;0;0;0;0;0;0;0;0;0;0;0;0;0;0;0;0;0], [36916;59737;3347;0;0;0;0;0;0;0;0;0;0;0;0;0;0;0;0;0]);
(675, [39866;57532;2601;1;0;0;0;0;0;0;0;0;0;0;0;0;0;0;0;0], [39431;57707;2860;2;0;0;0;0;0;0;0;0;0;0;0;0;0;0;0;0], [35059;61185;3756;0;0;0;0;0;0;0;0;0;0;0;0;0;0;0;0;0]);
(680, [38370;58552;3078;0;0;0;0;0;0;0;0;0;0;0;0;0;0;0;0;0], [37607;59246;3145;2;0;0;0;0;0;0;0;0;0;0;0;0;0;0;0;0], [33404;62320;4273;3;0;0;0;0;0;0;0;0;0;0;0;0;0;0;0;0]);
(685, [36804;59892;3303;1;0;0;0;0;0;0;0;0;0;0;0;0;0;0;0;0], [35822;60655;3523;0;0;0;0;0;0;0;0;0;0;0;0;0;0;0;0;0], [32155;63262;4583;0;0;0;0;0;0;0;0;0;0;0;0;0;0;0;0;0]);
(690, [34990;61272;3738;0;0;0;0;0;0;0;0;0;0;0;0;0;0;0;0;0], [34256;61816;3927;1;0;0;0;0;0;0;0;0;0;0;0;0;0;0;0;0], [30373;64482;5142;3;0;0;0;0;0;0;0;0;0;0;0;0;0;0;0;0]);
(695, [35077;60566;4357;0;0;0;0;0;0;0;0;0;0;0;0;0;0;0;0;0], [34275;61192;4532;1;0;0;0;0;0;0;0;0;0;0;0;0;0;0;0;0], [30183;64007;5807;3;0;0;0;0;0;0;0;0;0;0;0;0;0;0;0;0]);
(700, [34601;60477;4920;2;0;0;0;0;0;0;0;0;0;0;0;0;0;0;0;0], [33549;61228;5223;0;0;0;0;0;0;0;0;0;0;0;0;0;0;0;0;0], [29686;63764;6549;1;0;0;0;0;0;0;0;0;0;0;0;0;0;0;0;0]);
(705, [33484;60890;5624;2;0;0;0;0;0;0;0;0;0;0;0;0;0;0;0;0], [32787;61317;5896;0;0;0;0;0;0;0;0;0;0;0;0;0;0;0;0;0], [28841;63659;7497;3;0;0;0;0;0;0;0;0;0;0;0;0;0;0;0;0]);
(710, [32829;60895;6273;3;0;0;0;0;0;0;0;0;0;0;0;0;0;0;0;0], [32085;61342;6572;1;0;0;0;0;0;0;0;0;0;0;0;0;0;0;0;0], [28194;63478;8321;7;0;0;0;0;0;0;0;0;0;0;0;0;0;0;0;0]);
(715, [31753;61033;7212;2;0;0;0;0;0;0;0;0;0;0;0;0;0;0;0;0], [31159;61492;7349;0;0;0;0;0;0;0;0;0;0;0;0;0;0;0;0;0], [26965;63976;9055;4;0;0;0;0;0;0;0;0;0;0;0;0;0;0;0;0]);
(720, [30296;61717;7986;1;0;0;0;0;0;0;0;0;0;0;0;0;0;0;0;0], [29456;62477;8065;2;0;0;0;0;0;0;0;0;0;0;0;0;0;0;0;0], [25464;64314;10218;4;0;0;0;0;0;0;0;0;0;0;0;0;0;0;0;0]);
(725, [28626;62953;8416;5;0;0;0;0;0;0;0;0;0;0;0;0;0;0;0;0], [27560;63576;8858;6;0;0;0;0;0;0;0;0;0;0;0;0;0;0;0;0], [24028;64926;11032;14;0;0;0;0;0;0;0;0;0;0;0;0;0;0;0;0]);
(730, [26404;64439;9155;2;0;0;0;0;0;0;0;0;0;0;0;0;0;0;0;0], [25993;64474;9533;0;0;0;0;0;0;0;0;0;0;0;0;0;0;0;0;0], [22023;66158;11805;14;0;0;0;0;0;0;0;0;0;0;0;0;0;0;0;0]);
(735, [23300;67086;9607;7;0;0;0;0;0;0;0;0;0;0;0;0;0;0;0;0], [22763;67333;9893;11;0;0;0;0;0;0;0;0;0;0;0;0;0;0;0;0], [19375;68588;12027;10;0;0;0;0;0;0;0;0;0;0;0;0;0;0;0;0]);
(740, [20181;69995;9817;7;0;0;0;0;0;0;0;0;0;0;0;0;0;0;0;0], [19658;70478;9854;10;0;0;0;0;0;0;0;0;0;0;0;0;0;0;0;0], [16640;71104;12243;13;0;0;0;0;0;0;0;0;0;0;0;0;0;0;0;0]);
(745, [16626;73738;9627;9;0;0;0;0;0;0;0;0;0;0;0;0;0;0;0;0], [16349;73761;9880;10;0;0;0;0;0;0;0;0;0;0;0;0;0;0;0;0], [13577;74219;12180;24;0;0;0;0;0;0;0;0;0;0;0;0;0;0;0;0]);
(750, [12652;77493;9847;8;0;0;0;0;0;0;0;0;0;0;0;0;0;0;0;0], [12432;77440;10113;15;0;0;0;0;0;0;0;0;0;0;0;0;0;0;0;0], [10163;77613;12199;25;0;0;0;0;0;0;0;0;0;0;0;0;0;0;0;0]);
(755, [7857;80832;11292;19;0;0;0;0;0;0;0;0;0;0;0;0;0;0;0;0], [7297;80745;11940;18;0;0;0;0;0;0;0;0;0;0;0;0;0;0;0;0], [6160;79908;13896;36;0;0;0;0;0;0;0;0;0;0;0;0;0;0;0;0]);
(760, [6591;80514;12865;30;0;0;0;0;0;0;0;0;0;0;0;0;0;0;0;0], [6434;80188;13333;45;0;0;0;0;0;0;0;0;0;0;0;0;0;0;0;0], [5121;79112;15705;62;0;0;0;0;0;0;0;0;0;0;0;0;0;0;0;0]);
(765, [5185;80267;14510;38;0;0;0;0;0;0;0;0;0;0;0;0;0;0;0;0], [4974;79827;15153;46;0;0;0;0;0;0;0;0;0;0;0;0;0;0;0;0], [4094;78111;17704;91;0;0;0;0;0;0;0;0;0;0;0;0;0;0;0;0]);
(770, [4009;78399;17522;70;0;0;0;0;0;0;0;0;0;0;0;0;0;0;0;0], [3835;78070;18028;67;0;0;0;0;0;0;0;0;0;0;0;0;0;0;0;0], [3177;75751;20954;118;0;0;0;0;0;0;0;0;0;0;0;0;0;0;0;0]);
(775, [2918;76067;20924;91;0;0;0;0;0;0;0;0;0;0;0;0;0;0;0;0], [2891;75647;21353;109;0;0;0;0;0;0;0;0;0;0;0;0;0;0;0;0], [2256;73039;24517;188;0;0;0;0;0;0;0;0;0;0;0;0;0;0;0;0]);
(780, [2692;74915;22280;113;0;0;0;0;0;0;0;0;0;0;0;0;0;0;0;0], [2551;74612;22709;128;0;0;0;0;0;0;0;0;0;0;0;0;0;0;0;0], [2059;72241;25470;230;0;0;0;0;0;0;0;0;0;0;0;0;0;0;0;0]);
(785, [2328;74246;23293;133;0;0;0;0;0;0;0;0;0;0;0;0;0;0;0;0], [2305;73534;24020;141;0;0;0;0;0;0;0;0;0;0;0;0;0;0;0;0], [1824;70991;26942;243;0;0;0;0;0;0;0;0;0;0;0;0;0;0;0;0]);
(790, [2131;73234;24488;147;0;0;0;0;0;0;0;0;0;0;0;0;0;0;0;0], [2036;72643;25143;178;0;0;0;0;0;0;0;0;0;0;0;0;0;0;0;0], [1637;69497;28581;285;0;0;0;0;0;0;0;0;0;0;0;0;0;0;0;0]);
(795, [1757;71822;26217;204;0;0;0;0;0;0;0;0;0;0;0;0;0;0;0;0], [1773;71731;26269;227;0;0;0;0;0;0;0;0;0;0;0;0;0;0;0;0], [1437;68636;29573;354;0;0;0;0;0;0;0;0;0;0;0;0;0;0;0;0]);
(800, [1633;70929;27184;254;0;0;0;0;0;0;0;0;0;0;0;0;0;0;0;0], [1508;70420;27821;251;0;0;0;0;0;0;0;0;0;0;0;0;0;0;0;0], [1262;67506;30837;395;0;0;0;0;0;0;0;0;0;0;0;0;0;0;0;0]);
(805, [1469;69812;28435;284;0;0;0;0;0;0;0;0;0;0;0;0;0;0;0;0], [1351;69285;29093;271;0;0;0;0;0;0;0;0;0;0;0;0;0;0;0;0], [1028;66450;32079;442;1;0;0;0;0;0;0;0;0;0;0;0;0;0;0;0]);
(810, [1301;68395;30000;304;0;0;0;0;0;0;0;0;0;0;0;0;0;0;0;0], [1286;67683;30659;372;0;0;0;0;0;0;0;0;0;0;0;0;0;0;0;0], [983;64620;33853;543;1;0;0;0;0;0;0;0;0;0;0;0;0;0;0;0]);
(815, [1121;66905;31623;351;0;0;0;0;0;0;0;0;0;0;0;0;0;0;0;0], [1063;66561;31972;404;0;0;0;0;0;0;0;0;0;0;0;0;0;0;0;0], [769;63551;35128;552;0;0;0;0;0;0;0;0;0;0;0;0;0;0;0;0]);
(820, [1001;65849;32735;414;1;0;0;0;0;0;0;0;0;0;0;0;0;0;0;0], [970;65223;33349;457;1;0;0;0;0;0;0;0;0;0;0;0;0;0;0;0], [692;62287;36350;670;1;0;0;0;0;0;0;0;0;0;0;0;0;0;0;0]);
(825, [838;64364;34282;516;0;0;0;0;0;0;0;0;0;0;0;0;0;0;0;0], [776;64077;34605;542;0;0;0;0;0;0;0;0;0;0;0;0;0;0;0;0], [577;60810;37857;756;0;0;0;0;0;0;0;0;0;0;0;0;0;0;0;0]);
(830, [710;63108;35651;531;0;0;0;0;0;0;0;0;0;0;0;0;0;0;0;0], [663;62583;36157;596;1;0;0;0;0;0;0;0;0;0;0;0;0;0;0;0], [517;59191;39430;862;0;0;0;0;0;0;0;0;0;0;0;0;0;0;0;0]);
(835, [613;62125;36621;641;0;0;0;0;0;0;0;0;0;0;0;0;0;0;0;0], [579;61591;37164;666;0;0;0;0;0;0;0;0;0;0;0;0;0;0;0;0], [420;58203;40445;932;0;0;0;0;0;0;0;0;0;0;0;0;0;0;0;0]);
(840, [597;60881;37865;657;0;0;0;0;0;0;0;0;0;0;0;0;0;0;0;0], [576;60162;38482;780;0;0;0;0;0;0;0;0;0;0;0;0;0;0;0;0], [361;56739;41848;1052;0;0;0;0;0;0;0;0;0;0;0;0;0;0;0;0]);
(845, [495;59607;39104;794;0;0;0;0;0;0;0;0;0;0;0;0;0;0;0;0], [445;59339;39378;837;1;0;0;0;0;0;0;0;0;0;0;0;0;0;0;0], [363;55682;42831;1124;0;0;0;0;0;0;0;0;0;0;0;0;0;0;0;0]);
(850, [449;58533;40114;904;0;0;0;0;0;0;0;0;0;0;0;0;0;0;0;0], [402;57881;40792;925;0;0;0;0;0;0;0;0;0;0;0;0;0;0;0;0], [308;54182;44181;1328;1;0;0;0;0;0;0;0;0;0;0;0;0;0;0;0]);
(855, [387;57395;41273;945;0;0;0;0;0;0;0;0;0;0;0;0;0;0;0;0], [314;56814;41859;1013;0;0;0;0;0;0;0;0;0;0;0;0;0;0;0;0], [291;53293;44970;1444;2;0;0;0;0;0;0;0;0;0;0;0;0;0;0;0]);
(860, [344;56163;42497;996;0;0;0;0;0;0;0;0;0;0;0;0;0;0;0;0], [307;55661;42920;1111;1;0;0;0;0;0;0;0;0;0;0;0;0;0;0;0], [242;52116;46093;1549;0;0;0;0;0;0;0;0;0;0;0;0;0;0;0;0]);
(865, [316;55036;43497;1151;0;0;0;0;0;0;0;0;0;0;0;0;0;0;0;0], [253;54776;43768;1202;1;0;0;0;0;0;0;0;0;0;0;0;0;0;0;0], [195;50940;47112;1749;4;0;0;0;0;0;0;0;0;0;0;0;0;0;0;0]);
(870, [239;54084;44364;1313;0;0;0;0;0;0;0;0;0;0;0;0;0;0;0;0], [213;53416;45102;1269;0;0;0;0;0;0;0;0;0;0;0;0;0;0;0;0], [154;50061;47972;1812;1;0;0;0;0;0;0;0;0;0;0;0;0;0;0;0]);
(875, [200;52995;45468;1337;0;0;0;0;0;0;0;0;0;0;0;0;0;0;0;0], [200;52251;46106;1442;1;0;0;0;0;0;0;0;0;0;0;0;0;0;0;0], [137;48684;49100;2078;1;0;0;0;0;0;0;0;0;0;0;0;0;0;0;0]);
(880, [192;52020;46292;1496;0;0;0;0;0;0;0;0;0;0;0;0;0;0;0;0], [161;51640;46606;1592;1;0;0;0;0;0;0;0;0;0;0;0;0;0;0;0], [133;47900;49761;2204;2;0;0;0;0;0;0;0;0;0;0;0;0;0;0;0]);
(885, [171;50982;47290;1556;1;0;0;0;0;0;0;0;0;0;0;0;0;0;0;0], [148;50087;48093;1672;0;0;0;0;0;0;0;0;0;0;0;0;0;0;0;0], [93;46537;50956;2413;1;0;0;0;0;0;0;0;0;0;0;0;0;0;0;0]);
(890, [114;49571;48529;1786;0;0;0;0;0;0;0;0;0;0;0;0;0;0;0;0], [114;49105;48941;1836;4;0;0;0;0;0;0;0;0;0;0;0;0;0;0;0], [88;45478;51986;2446;2;0;0;0;0;0;0;0;0;0;0;0;0;0;0;0]);
(895, [136;48579;49372;1911;2;0;0;0;0;0;0;0;0;0;0;0;0;0;0;0], [108;47867;50022;2002;1;0;0;0;0;0;0;0;0;0;0;0;0;0;0;0], [64;44545;52681;2707;3;0;0;0;0;0;0;0;0;0;0;0;0;0;0;0]);
(900, [109;47882;49879;2128;2;0;0;0;0;0;0;0;0;0;0;0;0;0;0;0], [111;46924;50757;2208;0;0;0;0;0;0;0;0;0;0;0;0;0;0;0;0], [62;43544;53445;2944;5;0;0;0;0;0;0;0;0;0;0;0;0;0;0;0]);
(905, [92;46609;50898;2399;2;0;0;0;0;0;0;0;0;0;0;0;0;0;0;0], [90;45726;51736;2446;2;0;0;0;0;0;0;0;0;0;0;0;0;0;0;0], [62;42238;54439;3257;4;0;0;0;0;0;0;0;0;0;0;0;0;0;0;0]);
(910, [69;45654;51814;2462;1;0;0;0;0;0;0;0;0;0;0;0;0;0;0;0], [77;45047;52360;2514;2;0;0;0;0;0;0;0;0;0;0;0;0;0;0;0], [37;41597;54964;3397;5;0;0;0;0;0;0;0;0;0;0;0;0;0;0;0]);
(915, [65;44639;52702;2590;4;0;0;0;0;0;0;0;0;0;0;0;0;0;0;0], [57;43820;53349;2771;3;0;0;0;0;0;0;0;0;0;0;0;0;0;0;0], [29;40562;55780;3627;2;0;0;0;0;0;0;0;0;0;0;0;0;0;0;0]);
(920, [46;43561;53586;2803;4;0;0;0;0;0;0;0;0;0;0;0;0;0;0;0], [43;42894;53999;3057;7;0;0;0;0;0;0;0;0;0;0;0;0;0;0;0], [28;39304;56780;3882;6;0;0;0;0;0;0;0;0;0;0;0;0;0;0;0]);
(925, [40;42601;54310;3046;3;0;0;0;0;0;0;0;0;0;0;0;0;0;0;0], [53;41843;54789;3312;3;0;0;0;0;0;0;0;0;0;0;0;0;0;0;0], [26;38220;57461;4284;9;0;0;0;0;0;0;0;0;0;0;0;0;0;0;0]);
(930, [44;41274;55436;3238;8;0;0;0;0;0;0;0;0;0;0;0;0;0;0;0], [35;40784;55852;3327;2;0;0;0;0;0;0;0;0;0;0;0;0;0;0;0], [27;37358;58144;4461;10;0;0;0;0;0;0;0;0;0;0;0;0;0;0;0]);
(935, [37;40002;56455;3500;6;0;0;0;0;0;0;0;0;0;0;0;0;0;0;0], [36;39787;56540;3634;3;0;0;0;0;0;0;0;0;0;0;0;0;0;0;0], [16;36275;58783;4912;14;0;0;0;0;0;0;0;0;0;0;0;0;0;0;0]);
(940, [28;39727;56553;3685;7;0;0;0;0;0;0;0;0;0;0;0;0;0;0;0], [24;38682;57409;3876;9;0;0;0;0;0;0;0;0;0;0;0;0;0;0;0], [14;35359;59511;5106;10;0;0;0;0;0;0;0;0;0;0;0;0;0;0;0]);
(945, [18;38355;57634;3986;7;0;0;0;0;0;0;0;0;0;0;0;0;0;0;0], [21;37772;57931;4271;5;0;0;0;0;0;0;0;0;0;0;0;0;0;0;0], [8;34240;60290;5450;12;0;0;0;0;0;0;0;0;0;0;0;0;0;0;0]);
(950, [16;37565;58109;4298;12;0;0;0;0;0;0;0;0;0;0;0;0;0;0;0], [16;36710;58732;4532;10;0;0;0;0;0;0;0;0;0;0;0;0;0;0;0], [14;33532;60649;5790;15;0;0;0;0;0;0;0;0;0;0;0;0;0;0;0]);
(955, [8;36418;58877;4686;11;0;0;0;0;0;0;0;0;0;0;0;0;0;0;0], [8;35823;59398;4758;13;0;0;0;0;0;0;0;0;0;0;0;0;0;0;0], [6;32408;61382;6186;18;0;0;0;0;0;0;0;0;0;0;0;0;0;0;0]);
(960, [15;35439;59536;4995;15;0;0;0;0;0;0;0;0;0;0;0;0;0;0;0], [8;35042;59772;5157;21;0;0;0;0;0;0;0;0;0;0;0;0;0;0;0], [10;31583;61857;6526;24;0;0;0;0;0;0;0;0;0;0;0;0;0;0;0]);
(965, [8;34835;59876;5266;15;0;0;0;0;0;0;0;0;0;0;0;0;0;0;0], [10;34211;60254;5513;12;0;0;0;0;0;0;0;0;0;0;0;0;0;0;0], [9;30895;62183;6883;30;0;0;0;0;0;0;0;0;0;0;0;0;0;0;0]);
(970, [13;33374;60967;5631;15;0;0;0;0;0;0;0;0;0;0;0;0;0;0;0], [5;32585;61640;5748;22;0;0;0;0;0;0;0;0;0;0;0;0;0;0;0], [4;29912;62813;7240;31;0;0;0;0;0;0;0;0;0;0;0;0;0;0;0]);
(975, [3;32569;61504;5907;17;0;0;0;0;0;0;0;0;0;0;0;0;0;0;0], [6;32131;61599;6246;18;0;0;0;0;0;0;0;0;0;0;0;0;0;0;0], [0;29003;63136;7816;45;0;0;0;0;0;0;0;0;0;0;0;0;0;0;0]);
(980, [0;31816;61913;6249;22;0;0;0;0;0;0;0;0;0;0;0;0;0;0;0], [1;31258;62082;6640;19;0;0;0;0;0;0;0;0;0;0;0;0;0;0;0], [1;28304;63547;8107;41;0;0;0;0;0;0;0;0;0;0;0;0;0;0;0]);
(985, [9;30704;62672;6591;24;0;0;0;0;0;0;0;0;0;0;0;0;0;0;0], [5;30352;62808;6799;36;0;0;0;0;0;0;0;0;0;0;0;0;0;0;0], [2;27259;64004;8693;42;0;0;0;0;0;0;0;0;0;0;0;0;0;0;0]);
(990, [5;30137;62703;7118;37;0;0;0;0;0;0;0;0;0;0;0;0;0;0;0], [1;29702;63008;7267;22;0;0;0;0;0;0;0;0;0;0;0;0;0;0;0], [3;26392;64277;9277;51;0;0;0;0;0;0;0;0;0;0;0;0;0;0;0]);
(995, [2;29114;63320;7531;33;0;0;0;0;0;0;0;0;0;0;0;0;0;0;0], [1;28639;63490;7839;31;0;0;0;0;0;0;0;0;0;0;0;0;0;0;0], [0;25558;64803;9572;67;0;0;0;0;0;0;0;0;0;0;0;0;0;0;0]);
(1000, [0;28516;63786;7666;32;0;0;0;0;0;0;0;0;0;0;0;0;0;0;0], [0;27835;63976;8144;45;0;0;0;0;0;0;0;0;0;0;0;0;0;0;0], [3;24833;65051;10035;78;0;0;0;0;0;0;0;0;0;0;0;0;0;0;0]);
(1005, [1;27367;64232;8364;36;0;0;0;0;0;0;0;0;0;0;0;0;0;0;0], [5;26874;64549;8528;44;0;0;0;0;0;0;0;0;0;0;0;0;0;0;0], [0;23854;65336;10724;86;0;0;0;0;0;0;0;0;0;0;0;0;0;0;0]);
(1010, [0;26362;64885;8691;62;0;0;0;0;0;0;0;0;0;0;0;0;0;0;0], [0;25993;64699;9254;54;0;0;0;0;0;0;0;0;0;0;0;0;0;0;0], [1;23193;65628;11068;110;0;0;0;0;0;0;0;0;0;0;0;0;0;0;0]);
(1015, [1;25824;64736;9385;54;0;0;0;0;0;0;0;0;0;0;0;0;0;0;0], [0;25344;64934;9660;62;0;0;0;0;0;0;0;0;0;0;0;0;0;0;0], [0;22531;65733;11636;100;0;0;0;0;0;0;0;0;0;0;0;0;0;0;0]);
(1020, [2;25126;65174;9639;59;0;0;0;0;0;0;0;0;0;0;0;0;0;0;0], [1;24456;65529;9962;52;0;0;0;0;0;0;0;0;0;0;0;0;0;0;0], [0;21667;66027;12198;108;0;0;0;0;0;0;0;0;0;0;0;0;0;0;0]);
(1025, [0;24121;65491;10317;71;0;0;0;0;0;0;0;0;0;0;0;0;0;0;0], [1;23669;65775;10484;71;0;0;0;0;0;0;0;0;0;0;0;0;0;0;0], [0;21088;66139;12645;128;0;0;0;0;0;0;0;0;0;0;0;0;0;0;0]);
(1030, [1;23463;65729;10707;100;0;0;0;0;0;0;0;0;0;0;0;0;0;0;0], [0;23275;65656;10976;93;0;0;0;0;0;0;0;0;0;0;0;0;0;0;0], [0;20175;66233;13452;140;0;0;0;0;0;0;0;0;0;0;0;0;0;0;0]);
(1035, [1;22838;65916;11160;85;0;0;0;0;0;0;0;0;0;0;0;0;0;0;0], [0;22412;65923;11578;87;0;0;0;0;0;0;0;0;0;0;0;0;0;0;0], [0;19771;66341;13747;140;1;0;0;0;0;0;0;0;0;0;0;0;0;0;0]);
(1040, [1;21882;66498;11524;95;0;0;0;0;0;0;0;0;0;0;0;0;0;0;0], [0;21553;66370;11961;116;0;0;0;0;0;0;0;0;0;0;0;0;0;0;0], [0;18670;66511;14632;187;0;0;0;0;0;0;0;0;0;0;0;0;0;0;0]);
(1045, [0;21410;66373;12115;102;0;0;0;0;0;0;0;0;0;0;0;0;0;0;0], [0;20789;66373;12699;139;0;0;0;0;0;0;0;0;0;0;0;0;0;0;0], [0;18384;66203;15194;219;0;0;0;0;0;0;0;0;0;0;0;0;0;0;0]);
(1050, [0;20591;66393;12882;134;0;0;0;0;0;0;0;0;0;0;0;0;0;0;0], [0;20286;66387;13175;152;0;0;0;0;0;0;0;0;0;0;0;0;0;0;0], [0;17432;66757;15580;231;0;0;0;0;0;0;0;0;0;0;0;0;0;0;0]);
(1055, [0;20015;66439;13389;157;0;0;0;0;0;0;0;0;0;0;0;0;0;0;0], [0;19281;66795;13779;145;0;0;0;0;0;0;0;0;0;0;0;0;0;0;0], [0;17142;66187;16430;241;0;0;0;0;0;0;0;0;0;0;0;0;0;0;0]);
(1060, [0;19203;66561;14083;153;0;0;0;0;0;0;0;0;0;0;0;0;0;0;0], [0;19050;66482;14304;164;0;0;0;0;0;0;0;0;0;0;0;0;0;0;0], [0;16436;66342;16935;287;0;0;0;0;0;0;0;0;0;0;0;0;0;0;0]);
(1065, [0;18478;66822;14535;165;0;0;0;0;0;0;0;0;0;0;0;0;0;0;0], [0;18161;66585;15076;178;0;0;0;0;0;0;0;0;0;0;0;0;0;0;0], [0;15744;66391;17599;266;0;0;0;0;0;0;0;0;0;0;0;0;0;0;0]);
(1070, [0;18040;66455;15306;199;0;0;0;0;0;0;0;0;0;0;0;0;0;0;0], [0;17504;66754;15508;234;0;0;0;0;0;0;0;0;0;0;0;0;0;0;0], [0;15162;66024;18493;321;0;0;0;0;0;0;0;0;0;0;0;0;0;0;0]);
(1075, [0;17384;66628;15802;186;0;0;0;0;0;0;0;0;0;0;0;0;0;0;0], [0;16860;66868;16048;224;0;0;0;0;0;0;0;0;0;0;0;0;0;0;0], [0;14876;65761;18958;404;1;0;0;0;0;0;0;0;0;0;0;0;0;0;0]);
(1080, [0;16749;66585;16421;245;0;0;0;0;0;0;0;0;0;0;0;0;0;0;0], [0;16343;66339;17067;251;0;0;0;0;0;0;0;0;0;0;0;0;0;0;0], [0;14011;65892;19692;405;0;0;0;0;0;0;0;0;0;0;0;0;0;0;0]);
(1085, [0;16234;66419;17119;228;0;0;0;0;0;0;0;0;0;0;0;0;0;0;0], [0;15716;66501;17504;279;0;0;0;0;0;0;0;0;0;0;0;0;0;0;0], [0;13666;65436;20460;438;0;0;0;0;0;0;0;0;0;0;0;0;0;0;0]);
(1090, [0;15507;66600;17624;269;0;0;0;0;0;0;0;0;0;0;0;0;0;0;0], [0;15080;66289;18306;325;0;0;0;0;0;0;0;0;0;0;0;0;0;0;0], [0;13180;65204;21130;485;1;0;0;0;0;0;0;0;0;0;0;0;0;0;0]);
(1095, [0;14954;66329;18411;306;0;0;0;0;0;0;0;0;0;0;0;0;0;0;0], [0;14753;66023;18836;388;0;0;0;0;0;0;0;0;0;0;0;0;0;0;0], [0;12685;65053;21737;524;1;0;0;0;0;0;0;0;0;0;0;0;0;0;0]);
(1100, [0;14476;66182;18994;347;1;0;0;0;0;0;0;0;0;0;0;0;0;0;0], [0;13974;65926;19723;376;1;0;0;0;0;0;0;0;0;0;0;0;0;0;0], [0;12114;64772;22533;581;0;0;0;0;0;0;0;0;0;0;0;0;0;0;0]);
(1105, [0;13950;65834;19825;391;0;0;0;0;0;0;0;0;0;0;0;0;0;0;0], [0;13700;65639;20232;429;0;0;0;0;0;0;0;0;0;0;0;0;0;0;0], [0;11679;64588;23118;613;2;0;0;0;0;0;0;0;0;0;0;0;0;0;0])].
Definition pair_data_2 : list data_row := [
(1110, [0;13326;65781;20469;423;1;0;0;0;0;0;0;0;0;0;0;0;0;0;0], [0;12816;65808;20927;448;1;0;0;0;0;0;0;0;0;0;0;0;0;0;0], [0;11007;64427;23915;650;1;0;0;0;0;0;0;0;0;0;0;0;0;0;0]);
(1115, [0;12751;65606;21228;414;1;0;0;0;0;0;0;0;0;0;0;0;0;0;0], [0;12510;65417;21549;524;0;0;0;0;0;0;0;0;0;0;0;0;0;0;0], [0;10604;63791;24822;780;3;0;0;0;0;0;0;0;0;0;0;0;0;0;0]);
(1120, [0;12224;65505;21758;513;0;0;0;0;0;0;0;0;0;0;0;0;0;0;0], [0;11828;65128;22525;519;0;0;0;0;0;0;0;0;0;0;0;0;0;0;0], [0;10359;63089;25745;806;1;0;0;0;0;0;0;0;0;0;0;0;0;0;0]);
(1125, [0;11946;65005;22523;526;0;0;0;0;0;0;0;0;0;0;0;0;0;0;0], [0;11489;64772;23159;580;0;0;0;0;0;0;0;0;0;0;0;0;0;0;0], [0;9847;63172;26098;881;2;0;0;0;0;0;0;0;0;0;0;0;0;0;0]);
(1130, [0;11230;64862;23322;585;1;0;0;0;0;0;0;0;0;0;0;0;0;0;0], [0;11092;64426;23882;600;0;0;0;0;0;0;0;0;0;0;0;0;0;0;0], [0;9250;62714;27050;984;2;0;0;0;0;0;0;0;0;0;0;0;0;0;0]);
(1135, [0;11052;64109;24197;642;0;0;0;0;0;0;0;0;0;0;0;0;0;0;0], [0;10648;64183;24484;681;4;0;0;0;0;0;0;0;0;0;0;0;0;0;0], [0;9099;62164;27691;1043;3;0;0;0;0;0;0;0;0;0;0;0;0;0;0]);
(1140, [0;10558;63900;24815;727;0;0;0;0;0;0;0;0;0;0;0;0;0;0;0], [0;10283;63481;25447;788;1;0;0;0;0;0;0;0;0;0;0;0;0;0;0], [0;8647;61630;28632;1086;5;0;0;0;0;0;0;0;0;0;0;0;0;0;0]);
(1145, [0;9954;63701;25528;816;1;0;0;0;0;0;0;0;0;0;0;0;0;0;0], [0;9764;63384;26042;807;3;0;0;0;0;0;0;0;0;0;0;0;0;0;0], [0;8299;60920;29577;1198;6;0;0;0;0;0;0;0;0;0;0;0;0;0;0]);
(1150, [0;9486;63221;26418;872;3;0;0;0;0;0;0;0;0;0;0;0;0;0;0], [0;9261;62750;27097;891;1;0;0;0;0;0;0;0;0;0;0;0;0;0;0], [0;8003;60399;30333;1260;5;0;0;0;0;0;0;0;0;0;0;0;0;0;0]);
(1155, [0;9225;62793;27139;842;1;0;0;0;0;0;0;0;0;0;0;0;0;0;0], [0;8995;62709;27334;960;2;0;0;0;0;0;0;0;0;0;0;0;0;0;0], [0;7607;60081;30918;1393;1;0;0;0;0;0;0;0;0;0;0;0;0;0;0]);
(1160, [0;8857;62202;27994;946;1;0;0;0;0;0;0;0;0;0;0;0;0;0;0], [0;8785;61910;28325;979;1;0;0;0;0;0;0;0;0;0;0;0;0;0;0], [0;7221;59434;31896;1447;2;0;0;0;0;0;0;0;0;0;0;0;0;0;0]);
(1165, [0;8617;61870;28429;1082;2;0;0;0;0;0;0;0;0;0;0;0;0;0;0], [0;8279;61457;29161;1102;1;0;0;0;0;0;0;0;0;0;0;0;0;0;0], [0;6869;59232;32364;1529;6;0;0;0;0;0;0;0;0;0;0;0;0;0;0]);
(1170, [0;8220;61370;29340;1070;0;0;0;0;0;0;0;0;0;0;0;0;0;0;0], [0;7936;60979;29902;1182;1;0;0;0;0;0;0;0;0;0;0;0;0;0;0], [0;6580;58480;33176;1762;2;0;0;0;0;0;0;0;0;0;0;0;0;0;0]);
(1175, [0;7747;61107;29925;1217;4;0;0;0;0;0;0;0;0;0;0;0;0;0;0], [0;7639;60415;30640;1304;2;0;0;0;0;0;0;0;0;0;0;0;0;0;0], [0;6316;57721;34132;1827;4;0;0;0;0;0;0;0;0;0;0;0;0;0;0]);
(1180, [0;7453;60387;30860;1297;3;0;0;0;0;0;0;0;0;0;0;0;0;0;0], [0;7189;59849;31575;1386;1;0;0;0;0;0;0;0;0;0;0;0;0;0;0], [0;5997;57066;34948;1979;10;0;0;0;0;0;0;0;0;0;0;0;0;0;0]);
(1185, [0;7053;59810;31726;1411;0;0;0;0;0;0;0;0;0;0;0;0;0;0;0], [0;6848;59334;32341;1470;7;0;0;0;0;0;0;0;0;0;0;0;0;0;0], [0;5665;56597;35671;2055;12;0;0;0;0;0;0;0;0;0;0;0;0;0;0]);
(1190, [0;6741;59203;32614;1438;4;0;0;0;0;0;0;0;0;0;0;0;0;0;0], [0;6667;58758;32995;1573;7;0;0;0;0;0;0;0;0;0;0;0;0;0;0], [0;5450;55860;36442;2236;12;0;0;0;0;0;0;0;0;0;0;0;0;0;0]);
(1195, [0;6416;58783;33230;1565;6;0;0;0;0;0;0;0;0;0;0;0;0;0;0], [0;6265;58301;33754;1674;6;0;0;0;0;0;0;0;0;0;0;0;0;0;0], [0;5229;55299;37168;2293;11;0;0;0;0;0;0;0;0;0;0;0;0;0;0]);
(1200, [0;6247;57928;34134;1685;6;0;0;0;0;0;0;0;0;0;0;0;0;0;0], [0;6069;57764;34321;1840;6;0;0;0;0;0;0;0;0;0;0;0;0;0;0], [0;4984;54620;37953;2434;9;0;0;0;0;0;0;0;0;0;0;0;0;0;0]);
(1205, [0;6000;57467;34690;1837;6;0;0;0;0;0;0;0;0;0;0;0;0;0;0], [0;5736;56980;35345;1931;8;0;0;0;0;0;0;0;0;0;0;0;0;0;0], [0;4674;53911;38644;2758;13;0;0;0;0;0;0;0;0;0;0;0;0;0;0]);
(1210, [0;5683;56732;35592;1985;8;0;0;0;0;0;0;0;0;0;0;0;0;0;0], [0;5468;56397;36075;2057;3;0;0;0;0;0;0;0;0;0;0;0;0;0;0], [0;4476;53064;39638;2804;18;0;0;0;0;0;0;0;0;0;0;0;0;0;0]);
(1215, [0;5392;55936;36560;2103;9;0;0;0;0;0;0;0;0;0;0;0;0;0;0], [0;5281;55683;36892;2140;4;0;0;0;0;0;0;0;0;0;0;0;0;0;0], [0;4269;52359;40352;3008;12;0;0;0;0;0;0;0;0;0;0;0;0;0;0]);
(1220, [0;5138;55647;36995;2216;4;0;0;0;0;0;0;0;0;0;0;0;0;0;0], [0;5042;55347;37243;2358;10;0;0;0;0;0;0;0;0;0;0;0;0;0;0], [0;4085;51796;40946;3159;14;0;0;0;0;0;0;0;0;0;0;0;0;0;0]);
(1225, [0;4985;54950;37687;2365;13;0;0;0;0;0;0;0;0;0;0;0;0;0;0], [0;4741;54362;38430;2460;7;0;0;0;0;0;0;0;0;0;0;0;0;0;0], [0;3815;50982;41780;3389;34;0;0;0;0;0;0;0;0;0;0;0;0;0;0]);
(1230, [0;4624;54234;38685;2447;10;0;0;0;0;0;0;0;0;0;0;0;0;0;0], [0;4484;53632;39141;2736;7;0;0;0;0;0;0;0;0;0;0;0;0;0;0], [0;3511;50532;42411;3526;20;0;0;0;0;0;0;0;0;0;0;0;0;0;0]);
(1235, [0;4507;53738;38998;2745;12;0;0;0;0;0;0;0;0;0;0;0;0;0;0], [0;4312;53034;39799;2845;10;0;0;0;0;0;0;0;0;0;0;0;0;0;0], [0;3486;49809;42876;3802;27;0;0;0;0;0;0;0;0;0;0;0;0;0;0]);
(1240, [0;4223;52784;40162;2813;18;0;0;0;0;0;0;0;0;0;0;0;0;0;0], [0;4086;52590;40324;2987;13;0;0;0;0;0;0;0;0;0;0;0;0;0;0], [0;3295;49096;43523;4056;30;0;0;0;0;0;0;0;0;0;0;0;0;0;0]);
(1245, [0;3990;52018;40973;3006;13;0;0;0;0;0;0;0;0;0;0;0;0;0;0], [0;3760;51596;41372;3263;9;0;0;0;0;0;0;0;0;0;0;0;0;0;0], [0;3080;48046;44562;4283;29;0;0;0;0;0;0;0;0;0;0;0;0;0;0]);
(1250, [0;3792;51503;41486;3202;17;0;0;0;0;0;0;0;0;0;0;0;0;0;0], [0;3656;51144;41798;3385;17;0;0;0;0;0;0;0;0;0;0;0;0;0;0], [0;3028;47553;44826;4546;47;0;0;0;0;0;0;0;0;0;0;0;0;0;0]);
(1255, [0;3677;50725;42214;3360;24;0;0;0;0;0;0;0;0;0;0;0;0;0;0], [0;3505;50427;42489;3561;18;0;0;0;0;0;0;0;0;0;0;0;0;0;0], [0;2893;46636;45670;4754;47;0;0;0;0;0;0;0;0;0;0;0;0;0;0]);
(1260, [0;3495;49992;42973;3517;23;0;0;0;0;0;0;0;0;0;0;0;0;0;0], [0;3279;49290;43609;3798;24;0;0;0;0;0;0;0;0;0;0;0;0;0;0], [0;2690;45997;46257;5011;45;0;0;0;0;0;0;0;0;0;0;0;0;0;0]);
(1265, [0;3147;49465;43479;3883;26;0;0;0;0;0;0;0;0;0;0;0;0;0;0], [0;3127;48753;44043;4056;21;0;0;0;0;0;0;0;0;0;0;0;0;0;0], [0;2539;45251;47051;5103;56;0;0;0;0;0;0;0;0;0;0;0;0;0;0]);
(1270, [0;3068;48516;44342;4040;34;0;0;0;0;0;0;0;0;0;0;0;0;0;0], [0;3013;48111;44555;4300;21;0;0;0;0;0;0;0;0;0;0;0;0;0;0], [0;2352;44468;47421;5697;62;0;0;0;0;0;0;0;0;0;0;0;0;0;0]);
(1275, [0;2889;48166;44659;4245;41;0;0;0;0;0;0;0;0;0;0;0;0;0;0], [0;2778;47077;45612;4495;38;0;0;0;0;0;0;0;0;0;0;0;0;0;0], [0;2200;43839;48116;5789;56;0;0;0;0;0;0;0;0;0;0;0;0;0;0]);
(1280, [0;2774;47234;45386;4572;34;0;0;0;0;0;0;0;0;0;0;0;0;0;0], [0;2637;46445;46168;4712;38;0;0;0;0;0;0;0;0;0;0;0;0;0;0], [0;2178;42891;48851;6012;68;0;0;0;0;0;0;0;0;0;0;0;0;0;0]);
(1285, [0;2638;46047;46549;4722;44;0;0;0;0;0;0;0;0;0;0;0;0;0;0], [0;2511;45511;47044;4889;45;0;0;0;0;0;0;0;0;0;0;0;0;0;0], [0;2004;41974;49550;6385;87;0;0;0;0;0;0;0;0;0;0;0;0;0;0]);
(1290, [0;2493;45325;47124;5023;35;0;0;0;0;0;0;0;0;0;0;0;0;0;0], [0;2370;45110;47258;5215;47;0;0;0;0;0;0;0;0;0;0;0;0;0;0], [0;1831;41388;49923;6768;90;0;0;0;0;0;0;0;0;0;0;0;0;0;0]);
(1295, [0;2350;44894;47378;5328;50;0;0;0;0;0;0;0;0;0;0;0;0;0;0], [0;2202;44182;47965;5582;69;0;0;0;0;0;0;0;0;0;0;0;0;0;0], [0;1794;40461;50543;7111;91;0;0;0;0;0;0;0;0;0;0;0;0;0;0]);
(1300, [0;2292;44018;48114;5522;54;0;0;0;0;0;0;0;0;0;0;0;0;0;0], [0;2149;43534;48485;5760;72;0;0;0;0;0;0;0;0;0;0;0;0;0;0], [0;1678;39848;50852;7521;101;0;0;0;0;0;0;0;0;0;0;0;0;0;0]);
(1305, [0;2140;43450;48534;5821;55;0;0;0;0;0;0;0;0;0;0;0;0;0;0], [0;2046;42636;49185;6065;68;0;0;0;0;0;0;0;0;0;0;0;0;0;0], [0;1530;39168;51545;7627;130;0;0;0;0;0;0;0;0;0;0;0;0;0;0]);
(1310, [0;1894;42585;49191;6277;53;0;0;0;0;0;0;0;0;0;0;0;0;0;0], [0;1834;42047;49525;6511;83;0;0;0;0;0;0;0;0;0;0;0;0;0;0], [0;1523;38271;51866;8218;122;0;0;0;0;0;0;0;0;0;0;0;0;0;0]);
(1315, [0;1913;41674;49879;6461;73;0;0;0;0;0;0;0;0;0;0;0;0;0;0], [0;1785;40996;50163;6956;100;0;0;0;0;0;0;0;0;0;0;0;0;0;0], [0;1386;37739;52161;8568;146;0;0;0;0;0;0;0;0;0;0;0;0;0;0]);
(1320, [0;1798;41213;50202;6700;87;0;0;0;0;0;0;0;0;0;0;0;0;0;0], [0;1647;40386;50880;6991;96;0;0;0;0;0;0;0;0;0;0;0;0;0;0], [0;1239;36554;53233;8824;149;1;0;0;0;0;0;0;0;0;0;0;0;0;0]);
(1325, [0;1573;40298;50960;7085;83;1;0;0;0;0;0;0;0;0;0;0;0;0;0], [0;1550;39287;51751;7315;97;0;0;0;0;0;0;0;0;0;0;0;0;0;0], [0;1215;36091;53329;9173;192;0;0;0;0;0;0;0;0;0;0;0;0;0;0]);
(1330, [0;1526;39652;51473;7239;110;0;0;0;0;0;0;0;0;0;0;0;0;0;0], [0;1448;38815;52055;7593;89;0;0;0;0;0;0;0;0;0;0;0;0;0;0], [0;1099;35267;53772;9673;188;1;0;0;0;0;0;0;0;0;0;0;0;0;0]);
(1335, [0;1566;38870;51958;7503;103;0;0;0;0;0;0;0;0;0;0;0;0;0;0], [0;1383;38114;52500;7896;107;0;0;0;0;0;0;0;0;0;0;0;0;0;0], [0;1097;34565;53980;10152;206;0;0;0;0;0;0;0;0;0;0;0;0;0;0]);
(1340, [0;1349;38173;52568;7775;135;0;0;0;0;0;0;0;0;0;0;0;0;0;0], [0;1328;37277;52972;8293;129;1;0;0;0;0;0;0;0;0;0;0;0;0;0], [0;1036;33988;54621;10154;201;0;0;0;0;0;0;0;0;0;0;0;0;0;0]);
(1345, [0;1316;37541;52928;8094;121;0;0;0;0;0;0;0;0;0;0;0;0;0;0], [0;1260;37024;53082;8495;139;0;0;0;0;0;0;0;0;0;0;0;0;0;0], [0;903;33290;54779;10779;249;0;0;0;0;0;0;0;0;0;0;0;0;0;0]);
(1350, [0;1190;36903;53304;8469;134;0;0;0;0;0;0;0;0;0;0;0;0;0;0], [0;1178;36222;53573;8876;151;0;0;0;0;0;0;0;0;0;0;0;0;0;0], [0;896;32601;55438;10794;270;1;0;0;0;0;0;0;0;0;0;0;0;0;0]);
(1355, [0;1129;36173;53679;8883;136;0;0;0;0;0;0;0;0;0;0;0;0;0;0], [0;1041;35247;54229;9316;166;1;0;0;0;0;0;0;0;0;0;0;0;0;0], [0;841;31824;55794;11285;255;1;0;0;0;0;0;0;0;0;0;0;0;0;0]);
(1360, [0;1063;35644;53917;9222;153;1;0;0;0;0;0;0;0;0;0;0;0;0;0], [0;1018;35054;54155;9584;188;1;0;0;0;0;0;0;0;0;0;0;0;0;0], [0;782;31409;55925;11615;268;1;0;0;0;0;0;0;0;0;0;0;0;0;0]);
(1365, [0;977;34783;54486;9599;154;1;0;0;0;0;0;0;0;0;0;0;0;0;0], [0;960;34416;54629;9809;186;0;0;0;0;0;0;0;0;0;0;0;0;0;0], [0;748;31010;55940;12016;286;0;0;0;0;0;0;0;0;0;0;0;0;0;0]);
(1370, [0;980;34511;54660;9674;175;0;0;0;0;0;0;0;0;0;0;0;0;0;0], [0;945;33484;55183;10214;174;0;0;0;0;0;0;0;0;0;0;0;0;0;0], [0;694;29932;56518;12509;345;2;0;0;0;0;0;0;0;0;0;0;0;0;0]);
(1375, [0;911;33721;55119;10073;176;0;0;0;0;0;0;0;0;0;0;0;0;0;0], [0;867;33021;55317;10587;207;1;0;0;0;0;0;0;0;0;0;0;0;0;0], [0;614;29544;56695;12817;329;1;0;0;0;0;0;0;0;0;0;0;0;0;0]);
(1380, [0;872;32992;55443;10496;197;0;0;0;0;0;0;0;0;0;0;0;0;0;0], [0;805;32239;55855;10874;225;2;0;0;0;0;0;0;0;0;0;0;0;0;0], [0;551;28853;57040;13212;342;2;0;0;0;0;0;0;0;0;0;0;0;0;0]);
(1385, [0;822;32528;55578;10872;200;0;0;0;0;0;0;0;0;0;0;0;0;0;0], [0;739;31483;56241;11313;224;0;0;0;0;0;0;0;0;0;0;0;0;0;0], [0;600;28211;57193;13591;405;0;0;0;0;0;0;0;0;0;0;0;0;0;0]);
(1390, [0;716;31820;55962;11266;236;0;0;0;0;0;0;0;0;0;0;0;0;0;0], [0;664;31140;56220;11714;262;0;0;0;0;0;0;0;0;0;0;0;0;0;0], [0;513;27551;57455;14095;386;0;0;0;0;0;0;0;0;0;0;0;0;0;0]);
(1395, [0;698;31227;56257;11564;254;0;0;0;0;0;0;0;0;0;0;0;0;0;0], [0;658;30489;56842;11763;247;1;0;0;0;0;0;0;0;0;0;0;0;0;0], [0;450;27206;57373;14564;406;1;0;0;0;0;0;0;0;0;0;0;0;0;0]);
(1400, [0;629;30345;56768;11990;268;0;0;0;0;0;0;0;0;0;0;0;0;0;0], [0;627;29987;56683;12395;308;0;0;0;0;0;0;0;0;0;0;0;0;0;0], [0;425;26355;58150;14615;454;1;0;0;0;0;0;0;0;0;0;0;0;0;0]);
(1405, [0;577;29981;56828;12311;303;0;0;0;0;0;0;0;0;0;0;0;0;0;0], [0;540;29350;57019;12785;306;0;0;0;0;0;0;0;0;0;0;0;0;0;0], [0;368;25955;57673;15480;524;0;0;0;0;0;0;0;0;0;0;0;0;0;0]);
(1410, [0;549;29454;56976;12711;310;0;0;0;0;0;0;0;0;0;0;0;0;0;0], [0;562;28729;57104;13279;323;3;0;0;0;0;0;0;0;0;0;0;0;0;0], [0;406;25400;57895;15788;506;5;0;0;0;0;0;0;0;0;0;0;0;0;0]);
(1415, [0;529;28814;57281;13020;356;0;0;0;0;0;0;0;0;0;0;0;0;0;0], [0;503;28205;57353;13623;315;1;0;0;0;0;0;0;0;0;0;0;0;0;0], [0;387;24625;58163;16271;553;1;0;0;0;0;0;0;0;0;0;0;0;0;0]);
(1420, [0;519;28158;57358;13595;370;0;0;0;0;0;0;0;0;0;0;0;0;0;0], [0;478;27632;57598;13927;365;0;0;0;0;0;0;0;0;0;0;0;0;0;0], [0;353;24184;58336;16522;602;3;0;0;0;0;0;0;0;0;0;0;0;0;0]);
(1425, [0;466;27598;57657;13888;390;1;0;0;0;0;0;0;0;0;0;0;0;0;0], [0;417;27036;57688;14461;396;2;0;0;0;0;0;0;0;0;0;0;0;0;0], [0;309;23847;58082;17132;628;2;0;0;0;0;0;0;0;0;0;0;0;0;0]);
(1430, [0;416;26927;57892;14345;420;0;0;0;0;0;0;0;0;0;0;0;0;0;0], [0;427;26429;57705;14974;463;2;0;0;0;0;0;0;0;0;0;0;0;0;0], [0;299;23111;58338;17537;712;3;0;0;0;0;0;0;0;0;0;0;0;0;0]);
(1435, [0;390;26417;57922;14830;441;0;0;0;0;0;0;0;0;0;0;0;0;0;0], [0;368;25841;58000;15315;475;1;0;0;0;0;0;0;0;0;0;0;0;0;0], [0;269;22549;58472;18042;664;4;0;0;0;0;0;0;0;0;0;0;0;0;0]);
(1440, [0;357;26057;57783;15371;432;0;0;0;0;0;0;0;0;0;0;0;0;0;0], [0;333;25357;58109;15671;528;2;0;0;0;0;0;0;0;0;0;0;0;0;0], [0;245;22574;57822;18568;791;0;0;0;0;0;0;0;0;0;0;0;0;0;0]);
(1445, [0;350;25422;58295;15421;511;1;0;0;0;0;0;0;0;0;0;0;0;0;0], [0;312;24683;58233;16232;537;3;0;0;0;0;0;0;0;0;0;0;0;0;0], [0;219;21696;58252;18970;859;4;0;0;0;0;0;0;0;0;0;0;0;0;0]);
(1450, [0;352;24863;58281;15925;578;1;0;0;0;0;0;0;0;0;0;0;0;0;0], [0;286;24207;58301;16658;548;0;0;0;0;0;0;0;0;0;0;0;0;0;0], [0;232;21196;58308;19356;902;6;0;0;0;0;0;0;0;0;0;0;0;0;0]);
(1455, [0;297;24292;58250;16554;605;2;0;0;0;0;0;0;0;0;0;0;0;0;0], [0;292;23934;58396;16796;581;1;0;0;0;0;0;0;0;0;0;0;0;0;0], [0;170;20656;58420;19882;869;3;0;0;0;0;0;0;0;0;0;0;0;0;0]);
(1460, [0;251;23610;58548;17002;587;2;0;0;0;0;0;0;0;0;0;0;0;0;0], [0;249;23082;58773;17241;650;5;0;0;0;0;0;0;0;0;0;0;0;0;0], [0;161;20108;58536;20191;998;6;0;0;0;0;0;0;0;0;0;0;0;0;0]);
(1465, [0;228;23686;58221;17190;674;1;0;0;0;0;0;0;0;0;0;0;0;0;0], [0;239;22857;58391;17788;722;3;0;0;0;0;0;0;0;0;0;0;0;0;0], [0;180;19501;58608;20651;1054;6;0;0;0;0;0;0;0;0;0;0;0;0;0]);
(1470, [0;225;22849;58497;17715;713;1;0;0;0;0;0;0;0;0;0;0;0;0;0], [0;226;22331;58491;18203;747;2;0;0;0;0;0;0;0;0;0;0;0;0;0], [0;137;19556;58026;21145;1126;10;0;0;0;0;0;0;0;0;0;0;0;0;0]);
(1475, [0;224;22448;58472;18143;711;2;0;0;0;0;0;0;0;0;0;0;0;0;0], [0;223;21812;58534;18638;791;2;0;0;0;0;0;0;0;0;0;0;0;0;0], [0;138;18860;58062;21789;1143;8;0;0;0;0;0;0;0;0;0;0;0;0;0]);
(1480, [0;214;22219;58015;18698;848;6;0;0;0;0;0;0;0;0;0;0;0;0;0], [0;189;21322;58287;19368;833;1;0;0;0;0;0;0;0;0;0;0;0;0;0], [0;124;18590;57862;22150;1262;12;0;0;0;0;0;0;0;0;0;0;0;0;0]);
(1485, [0;174;21487;58441;19001;897;0;0;0;0;0;0;0;0;0;0;0;0;0;0], [0;184;20964;58260;19700;884;8;0;0;0;0;0;0;0;0;0;0;0;0;0], [0;103;18009;57722;22845;1310;11;0;0;0;0;0;0;0;0;0;0;0;0;0]);
(1490, [0;184;20822;58566;19498;925;5;0;0;0;0;0;0;0;0;0;0;0;0;0], [0;154;20520;58019;20368;933;6;0;0;0;0;0;0;0;0;0;0;0;0;0], [0;123;17781;57544;23107;1433;12;0;0;0;0;0;0;0;0;0;0;0;0;0]);
(1495, [0;168;20597;58179;20079;968;9;0;0;0;0;0;0;0;0;0;0;0;0;0], [0;155;20221;58231;20377;1014;2;0;0;0;0;0;0;0;0;0;0;0;0;0], [0;93;17379;57236;23786;1493;13;0;0;0;0;0;0;0;0;0;0;0;0;0]);
(1500, [0;164;20075;58301;20448;1008;4;0;0;0;0;0;0;0;0;0;0;0;0;0], [0;144;19724;57931;21111;1083;7;0;0;0;0;0;0;0;0;0;0;0;0;0], [0;84;16905;57108;24232;1659;12;0;0;0;0;0;0;0;0;0;0;0;0;0]);
(1505, [0;136;19929;58153;20748;1029;5;0;0;0;0;0;0;0;0;0;0;0;0;0], [0;133;19168;58111;21486;1093;9;0;0;0;0;0;0;0;0;0;0;0;0;0], [0;89;16738;56832;24589;1735;17;0;0;0;0;0;0;0;0;0;0;0;0;0]);
(1510, [0;123;19249;57691;21789;1138;10;0;0;0;0;0;0;0;0;0;0;0;0;0], [0;112;18664;57816;22109;1289;10;0;0;0;0;0;0;0;0;0;0;0;0;0], [0;81;16058;56698;25352;1788;23;0;0;0;0;0;0;0;0;0;0;0;0;0]);
(1515, [0;124;18815;57630;22229;1191;11;0;0;0;0;0;0;0;0;0;0;0;0;0], [0;110;18327;57671;22538;1345;9;0;0;0;0;0;0;0;0;0;0;0;0;0], [0;73;15757;56423;25883;1843;21;0;0;0;0;0;0;0;0;0;0;0;0;0]);
(1520, [0;106;18568;57641;22348;1332;5;0;0;0;0;0;0;0;0;0;0;0;0;0], [0;97;17992;57488;22970;1441;12;0;0;0;0;0;0;0;0;0;0;0;0;0], [0;60;15401;56148;26268;2098;25;0;0;0;0;0;0;0;0;0;0;0;0;0]);
(1525, [0;96;18088;57479;22864;1458;15;0;0;0;0;0;0;0;0;0;0;0;0;0], [0;90;17659;57140;23616;1480;15;0;0;0;0;0;0;0;0;0;0;0;0;0], [0;56;15107;55765;26801;2245;26;0;0;0;0;0;0;0;0;0;0;0;0;0]);
(1530, [0;89;17622;57083;23649;1546;11;0;0;0;0;0;0;0;0;0;0;0;0;0], [0;85;17121;57121;23995;1661;17;0;0;0;0;0;0;0;0;0;0;0;0;0], [0;67;14603;55559;27502;2247;22;0;0;0;0;0;0;0;0;0;0;0;0;0]);
(1535, [0;78;17176;56916;24235;1583;12;0;0;0;0;0;0;0;0;0;0;0;0;0], [0;84;16793;56690;24714;1697;22;0;0;0;0;0;0;0;0;0;0;0;0;0], [0;43;14226;55358;27843;2504;26;0;0;0;0;0;0;0;0;0;0;0;0;0]);
(1540, [0;84;16934;56702;24575;1686;19;0;0;0;0;0;0;0;0;0;0;0;0;0], [0;93;16474;56260;25378;1760;35;0;0;0;0;0;0;0;0;0;0;0;0;0], [0;46;14013;54774;28530;2604;33;0;0;0;0;0;0;0;0;0;0;0;0;0]);
(1545, [0;76;16678;56375;24983;1867;21;0;0;0;0;0;0;0;0;0;0;0;0;0], [0;65;15967;56150;25939;1859;20;0;0;0;0;0;0;0;0;0;0;0;0;0], [0;49;13861;54348;28941;2763;38;0;0;0;0;0;0;0;0;0;0;0;0;0]);
(1550, [0;76;16065;56251;25608;1988;12;0;0;0;0;0;0;0;0;0;0;0;0;0], [0;74;15450;55828;26544;2086;18;0;0;0;0;0;0;0;0;0;0;0;0;0], [0;39;13598;53630;29773;2923;37;0;0;0;0;0;0;0;0;0;0;0;0;0]);
(1555, [0;61;15622;55976;26198;2121;22;0;0;0;0;0;0;0;0;0;0;0;0;0], [0;59;15192;55161;27280;2279;29;0;0;0;0;0;0;0;0;0;0;0;0;0], [0;38;13034;53195;30534;3148;51;0;0;0;0;0;0;0;0;0;0;0;0;0]);
(1560, [0;57;15279;55103;27180;2352;29;0;0;0;0;0;0;0;0;0;0;0;0;0], [0;68;14908;54885;27784;2332;23;0;0;0;0;0;0;0;0;0;0;0;0;0], [0;37;12696;52755;31134;3336;41;1;0;0;0;0;0;0;0;0;0;0;0;0]);
(1565, [0;55;14742;55038;27701;2437;27;0;0;0;0;0;0;0;0;0;0;0;0;0], [0;60;14345;54465;28482;2611;37;0;0;0;0;0;0;0;0;0;0;0;0;0], [0;35;12124;52218;32029;3530;64;0;0;0;0;0;0;0;0;0;0;0;0;0]);
(1570, [0;47;14371;54585;28420;2545;32;0;0;0;0;0;0;0;0;0;0;0;0;0], [0;48;13958;54308;28973;2688;25;0;0;0;0;0;0;0;0;0;0;0;0;0], [0;32;11810;51970;32310;3818;60;0;0;0;0;0;0;0;0;0;0;0;0;0]);
(1575, [0;44;14179;54045;28933;2770;29;0;0;0;0;0;0;0;0;0;0;0;0;0], [0;48;13558;53791;29692;2878;33;0;0;0;0;0;0;0;0;0;0;0;0;0], [0;30;11398;51366;33317;3826;63;0;0;0;0;0;0;0;0;0;0;0;0;0]);
(1580, [0;50;13781;53558;29550;3019;42;0;0;0;0;0;0;0;0;0;0;0;0;0], [0;48;13161;53319;30413;3016;43;0;0;0;0;0;0;0;0;0;0;0;0;0], [0;17;10910;50950;33846;4214;63;0;0;0;0;0;0;0;0;0;0;0;0;0]);
(1585, [0;44;13144;53005;30561;3200;46;0;0;0;0;0;0;0;0;0;0;0;0;0], [0;44;12847;52725;31076;3258;50;0;0;0;0;0;0;0;0;0;0;0;0;0], [0;23;10610;50324;34527;4426;90;0;0;0;0;0;0;0;0;0;0;0;0;0]);
(1590, [0;48;12943;52368;31334;3251;56;0;0;0;0;0;0;0;0;0;0;0;0;0], [0;32;12357;52275;31799;3473;64;0;0;0;0;0;0;0;0;0;0;0;0;0], [0;28;10202;49605;35212;4848;105;0;0;0;0;0;0;0;0;0;0;0;0;0]);
(1595, [0;43;12237;52169;31925;3573;53;0;0;0;0;0;0;0;0;0;0;0;0;0], [0;48;12187;51548;32500;3653;64;0;0;0;0;0;0;0;0;0;0;0;0;0], [0;18;9973;49124;35629;5160;96;0;0;0;0;0;0;0;0;0;0;0;0;0]);
(1600, [0;34;11928;51585;32646;3748;59;0;0;0;0;0;0;0;0;0;0;0;0;0], [0;37;11707;50871;33386;3940;59;0;0;0;0;0;0;0;0;0;0;0;0;0], [0;23;9480;48258;36746;5397;96;0;0;0;0;0;0;0;0;0;0;0;0;0]);
(1605, [0;24;11484;51078;33294;4062;58;0;0;0;0;0;0;0;0;0;0;0;0;0], [0;37;11227;50442;34076;4157;61;0;0;0;0;0;0;0;0;0;0;0;0;0], [0;17;8941;47619;37664;5623;136;0;0;0;0;0;0;0;0;0;0;0;0;0])].
Definition pair_data_3 : list data_row := [
(1610, [0;31;11107;50346;34151;4291;74;0;0;0;0;0;0;0;0;0;0;0;0;0], [0;36;10877;49767;34787;4453;80;0;0;0;0;0;0;0;0;0;0;0;0;0], [0;12;8751;46596;38500;6003;138;0;0;0;0;0;0;0;0;0;0;0;0;0]);
(1615, [0;27;10572;49789;35062;4468;82;0;0;0;0;0;0;0;0;0;0;0;0;0], [0;20;10295;48968;35927;4692;98;0;0;0;0;0;0;0;0;0;0;0;0;0], [0;24;8427;45778;39344;6284;143;0;0;0;0;0;0;0;0;0;0;0;0;0]);
(1620, [0;24;10093;49013;36197;4572;101;0;0;0;0;0;0;0;0;0;0;0;0;0], [0;28;9779;48676;36440;4989;88;0;0;0;0;0;0;0;0;0;0;0;0;0], [0;12;8087;45331;39801;6604;165;0;0;0;0;0;0;0;0;0;0;0;0;0]);
(1625, [0;24;9765;48420;36641;5059;91;0;0;0;0;0;0;0;0;0;0;0;0;0], [0;24;9537;47624;37471;5239;104;1;0;0;0;0;0;0;0;0;0;0;0;0], [0;12;7649;44668;40545;6953;173;0;0;0;0;0;0;0;0;0;0;0;0;0]);
(1630, [0;20;9316;47581;37527;5451;105;0;0;0;0;0;0;0;0;0;0;0;0;0], [0;20;8933;47240;38063;5615;129;0;0;0;0;0;0;0;0;0;0;0;0;0], [0;18;7352;43771;41492;7179;186;2;0;0;0;0;0;0;0;0;0;0;0;0]);
(1635, [0;20;8898;46889;38511;5581;101;0;0;0;0;0;0;0;0;0;0;0;0;0], [0;19;8667;46449;38934;5806;125;0;0;0;0;0;0;0;0;0;0;0;0;0], [0;11;6937;42872;42187;7754;238;1;0;0;0;0;0;0;0;0;0;0;0;0]);
(1640, [0;17;8605;46113;39247;5895;123;0;0;0;0;0;0;0;0;0;0;0;0;0], [0;13;8306;45576;39809;6167;128;1;0;0;0;0;0;0;0;0;0;0;0;0], [0;7;6577;42251;43051;7871;243;0;0;0;0;0;0;0;0;0;0;0;0;0]);
(1645, [0;17;8036;45499;40154;6182;112;0;0;0;0;0;0;0;0;0;0;0;0;0], [0;14;7816;44840;40938;6254;138;0;0;0;0;0;0;0;0;0;0;0;0;0], [0;8;6285;41088;44001;8370;247;1;0;0;0;0;0;0;0;0;0;0;0;0]);
(1650, [0;19;7682;44716;40874;6585;124;0;0;0;0;0;0;0;0;0;0;0;0;0], [0;11;7412;43945;41787;6707;138;0;0;0;0;0;0;0;0;0;0;0;0;0], [0;7;5944;40364;44785;8643;255;2;0;0;0;0;0;0;0;0;0;0;0;0]);
(1655, [0;19;7204;43896;41937;6785;159;0;0;0;0;0;0;0;0;0;0;0;0;0], [0;14;6932;43224;42596;7061;171;2;0;0;0;0;0;0;0;0;0;0;0;0], [0;5;5564;39439;45561;9168;263;0;0;0;0;0;0;0;0;0;0;0;0;0]);
(1660, [0;13;6809;43230;42800;6979;169;0;0;0;0;0;0;0;0;0;0;0;0;0], [0;11;6561;42546;43309;7394;179;0;0;0;0;0;0;0;0;0;0;0;0;0], [0;6;5089;39098;46034;9486;287;0;0;0;0;0;0;0;0;0;0;0;0;0]);
(1665, [0;13;6368;42606;43625;7220;168;0;0;0;0;0;0;0;0;0;0;0;0;0], [0;15;6263;41629;44192;7707;193;1;0;0;0;0;0;0;0;0;0;0;0;0], [0;3;4798;38012;47036;9852;299;0;0;0;0;0;0;0;0;0;0;0;0;0]);
(1670, [0;7;6197;41503;44314;7779;199;1;0;0;0;0;0;0;0;0;0;0;0;0], [0;10;5829;41000;44843;8106;212;0;0;0;0;0;0;0;0;0;0;0;0;0], [0;4;4552;37146;47667;10322;309;0;0;0;0;0;0;0;0;0;0;0;0;0]);
(1675, [0;10;5705;40698;45241;8159;186;1;0;0;0;0;0;0;0;0;0;0;0;0], [0;3;5285;40290;45839;8391;191;1;0;0;0;0;0;0;0;0;0;0;0;0], [0;7;4224;36591;48107;10722;347;2;0;0;0;0;0;0;0;0;0;0;0;0]);
(1680, [0;13;5269;40171;45882;8433;232;0;0;0;0;0;0;0;0;0;0;0;0;0], [0;10;5159;39439;46343;8824;224;1;0;0;0;0;0;0;0;0;0;0;0;0], [0;6;3904;36068;48741;10900;380;1;0;0;0;0;0;0;0;0;0;0;0;0]);
(1685, [0;7;5057;39754;46311;8641;229;1;0;0;0;0;0;0;0;0;0;0;0;0], [0;10;4804;38805;47159;8986;235;1;0;0;0;0;0;0;0;0;0;0;0;0], [0;6;3704;35065;49500;11320;403;2;0;0;0;0;0;0;0;0;0;0;0;0]);
(1690, [0;6;4637;38756;47330;9037;232;2;0;0;0;0;0;0;0;0;0;0;0;0], [0;8;4477;37965;47927;9370;253;0;0;0;0;0;0;0;0;0;0;0;0;0], [0;5;3360;34557;49801;11858;418;1;0;0;0;0;0;0;0;0;0;0;0;0]);
(1695, [0;1;4341;38209;47788;9393;268;0;0;0;0;0;0;0;0;0;0;0;0;0], [0;7;4070;37429;48614;9587;291;2;0;0;0;0;0;0;0;0;0;0;0;0], [0;4;3183;33810;50469;12076;456;2;0;0;0;0;0;0;0;0;0;0;0;0]);
(1700, [0;9;4031;37509;48584;9603;263;1;0;0;0;0;0;0;0;0;0;0;0;0], [0;5;3884;37141;48643;10060;267;0;0;0;0;0;0;0;0;0;0;0;0;0], [0;0;2829;33027;51263;12388;487;6;0;0;0;0;0;0;0;0;0;0;0;0]);
(1705, [0;5;3652;36694;49200;10152;295;2;0;0;0;0;0;0;0;0;0;0;0;0], [0;8;3423;36287;49573;10413;295;1;0;0;0;0;0;0;0;0;0;0;0;0], [0;1;2729;32274;51601;12870;520;5;0;0;0;0;0;0;0;0;0;0;0;0]);
(1710, [0;9;3403;36249;49599;10430;310;0;0;0;0;0;0;0;0;0;0;0;0;0], [0;3;3319;35578;50143;10621;334;2;0;0;0;0;0;0;0;0;0;0;0;0], [0;2;2457;31611;52119;13288;519;4;0;0;0;0;0;0;0;0;0;0;0;0]);
(1715, [0;4;3309;35543;50100;10697;346;1;0;0;0;0;0;0;0;0;0;0;0;0], [0;2;3021;34821;50770;11034;350;2;0;0;0;0;0;0;0;0;0;0;0;0], [0;3;2293;31282;52361;13513;546;2;0;0;0;0;0;0;0;0;0;0;0;0]);
(1720, [0;1;2976;35043;50406;11212;362;0;0;0;0;0;0;0;0;0;0;0;0;0], [0;3;2798;34451;51060;11341;346;1;0;0;0;0;0;0;0;0;0;0;0;0], [0;0;2068;31035;52243;13999;650;5;0;0;0;0;0;0;0;0;0;0;0;0]);
(1725, [0;1;2782;34257;51317;11271;372;0;0;0;0;0;0;0;0;0;0;0;0;0], [0;2;2776;33776;51357;11645;444;0;0;0;0;0;0;0;0;0;0;0;0;0], [0;0;2041;30238;53000;14061;655;5;0;0;0;0;0;0;0;0;0;0;0;0]);
(1730, [0;1;2672;33773;51527;11605;421;1;0;0;0;0;0;0;0;0;0;0;0;0], [0;5;2508;33015;52031;12018;421;2;0;0;0;0;0;0;0;0;0;0;0;0], [0;1;1837;29375;53476;14633;673;5;0;0;0;0;0;0;0;0;0;0;0;0]);
(1735, [0;0;2444;33485;51653;12011;405;2;0;0;0;0;0;0;0;0;0;0;0;0], [0;1;2329;32309;52485;12413;458;5;0;0;0;0;0;0;0;0;0;0;0;0], [0;3;1718;29253;53304;15016;700;6;0;0;0;0;0;0;0;0;0;0;0;0]);
(1740, [0;1;2226;32871;52218;12187;495;2;0;0;0;0;0;0;0;0;0;0;0;0], [0;5;2232;32197;52680;12395;485;6;0;0;0;0;0;0;0;0;0;0;0;0], [0;1;1651;28409;53734;15444;748;13;0;0;0;0;0;0;0;0;0;0;0;0]);
(1745, [0;0;2134;32408;52626;12343;485;4;0;0;0;0;0;0;0;0;0;0;0;0], [0;3;2050;31540;52828;13039;539;1;0;0;0;0;0;0;0;0;0;0;0;0], [0;0;1530;28106;53838;15684;834;8;0;0;0;0;0;0;0;0;0;0;0;0]);
(1750, [0;1;2027;31693;52859;12868;548;4;0;0;0;0;0;0;0;0;0;0;0;0], [0;0;1827;31155;53208;13255;549;6;0;0;0;0;0;0;0;0;0;0;0;0], [0;0;1479;27391;54128;16103;893;6;0;0;0;0;0;0;0;0;0;0;0;0]);
(1755, [0;1;1947;31271;53191;13039;543;8;0;0;0;0;0;0;0;0;0;0;0;0], [0;0;1828;30651;53565;13383;563;10;0;0;0;0;0;0;0;0;0;0;0;0], [0;0;1244;27165;54344;16295;940;12;0;0;0;0;0;0;0;0;0;0;0;0]);
(1760, [0;0;1853;30943;53153;13426;619;6;0;0;0;0;0;0;0;0;0;0;0;0], [0;0;1644;30300;53520;13876;658;2;0;0;0;0;0;0;0;0;0;0;0;0], [0;0;1222;26782;54199;16817;974;6;0;0;0;0;0;0;0;0;0;0;0;0]);
(1765, [0;0;1622;30220;53549;13964;637;8;0;0;0;0;0;0;0;0;0;0;0;0], [0;1;1596;29725;53600;14394;678;6;0;0;0;0;0;0;0;0;0;0;0;0], [0;0;1204;26379;54119;17207;1080;11;0;0;0;0;0;0;0;0;0;0;0;0]);
(1770, [0;1;1568;29989;53497;14242;695;8;0;0;0;0;0;0;0;0;0;0;0;0], [0;0;1478;29221;53982;14612;705;2;0;0;0;0;0;0;0;0;0;0;0;0], [0;0;1106;25960;54160;17616;1136;22;0;0;0;0;0;0;0;0;0;0;0;0]);
(1775, [0;1;1441;29487;53680;14686;702;3;0;0;0;0;0;0;0;0;0;0;0;0], [0;1;1442;28896;54031;14877;747;6;0;0;0;0;0;0;0;0;0;0;0;0], [0;0;1065;25215;54390;18183;1135;12;0;0;0;0;0;0;0;0;0;0;0;0]);
(1780, [0;1;1404;29170;53886;14750;785;4;0;0;0;0;0;0;0;0;0;0;0;0], [0;0;1277;28523;54219;15209;766;6;0;0;0;0;0;0;0;0;0;0;0;0], [0;0;986;24960;54567;18210;1262;15;0;0;0;0;0;0;0;0;0;0;0;0]);
(1785, [0;0;1316;28592;54096;15190;800;6;0;0;0;0;0;0;0;0;0;0;0;0], [0;0;1216;28033;54162;15715;865;9;0;0;0;0;0;0;0;0;0;0;0;0], [0;0;878;24535;54493;18715;1363;16;0;0;0;0;0;0;0;0;0;0;0;0]);
(1790, [0;1;1299;27961;54289;15551;890;9;0;0;0;0;0;0;0;0;0;0;0;0], [0;0;1227;27682;54115;16037;931;8;0;0;0;0;0;0;0;0;0;0;0;0], [0;0;862;24133;54318;19238;1422;27;0;0;0;0;0;0;0;0;0;0;0;0]);
(1795, [0;0;1161;27752;53743;16364;972;8;0;0;0;0;0;0;0;0;0;0;0;0], [0;0;1143;27255;54263;16330;991;18;0;0;0;0;0;0;0;0;0;0;0;0], [0;0;851;23780;54279;19620;1439;31;0;0;0;0;0;0;0;0;0;0;0;0]);
(1800, [0;0;1135;27270;54237;16326;1021;11;0;0;0;0;0;0;0;0;0;0;0;0], [0;0;1092;26712;54357;16768;1060;11;0;0;0;0;0;0;0;0;0;0;0;0], [0;0;834;23521;54138;19868;1616;23;0;0;0;0;0;0;0;0;0;0;0;0]);
(1805, [0;0;1082;26671;54618;16565;1056;8;0;0;0;0;0;0;0;0;0;0;0;0], [0;0;1030;26286;54338;17186;1151;9;0;0;0;0;0;0;0;0;0;0;0;0], [0;0;734;23149;53965;20423;1705;24;0;0;0;0;0;0;0;0;0;0;0;0]);
(1810, [0;0;1145;26617;54025;17091;1105;17;0;0;0;0;0;0;0;0;0;0;0;0], [0;0;995;25934;54256;17661;1136;18;0;0;0;0;0;0;0;0;0;0;0;0], [0;0;719;22410;54087;20899;1852;33;0;0;0;0;0;0;0;0;0;0;0;0]);
(1815, [0;0;958;26000;54335;17448;1248;11;0;0;0;0;0;0;0;0;0;0;0;0], [0;0;855;25504;54145;18159;1327;10;0;0;0;0;0;0;0;0;0;0;0;0], [0;0;672;22124;54094;21226;1856;28;0;0;0;0;0;0;0;0;0;0;0;0]);
(1820, [0;0;948;25251;54547;17952;1279;23;0;0;0;0;0;0;0;0;0;0;0;0], [0;0;843;24708;54674;18370;1390;15;0;0;0;0;0;0;0;0;0;0;0;0], [0;0;646;21641;53866;21800;2024;23;0;0;0;0;0;0;0;0;0;0;0;0]);
(1825, [0;0;919;25177;54004;18577;1303;20;0;0;0;0;0;0;0;0;0;0;0;0], [0;0;788;24875;54060;18826;1435;16;0;0;0;0;0;0;0;0;0;0;0;0], [0;0;637;21301;53915;21940;2165;42;0;0;0;0;0;0;0;0;0;0;0;0]);
(1830, [0;0;856;24874;54186;18607;1455;22;0;0;0;0;0;0;0;0;0;0;0;0], [0;0;820;24207;54132;19322;1497;22;0;0;0;0;0;0;0;0;0;0;0;0], [0;0;574;20831;53575;22668;2308;44;0;0;0;0;0;0;0;0;0;0;0;0]);
(1835, [0;0;797;24182;54096;19406;1497;22;0;0;0;0;0;0;0;0;0;0;0;0], [0;0;774;23844;54061;19706;1586;29;0;0;0;0;0;0;0;0;0;0;0;0], [0;0;555;20436;53438;23272;2261;38;0;0;0;0;0;0;0;0;0;0;0;0]);
(1840, [0;0;748;23884;54185;19550;1613;20;0;0;0;0;0;0;0;0;0;0;0;0], [0;0;765;23153;53779;20560;1723;20;0;0;0;0;0;0;0;0;0;0;0;0], [0;0;544;20014;53267;23576;2550;49;0;0;0;0;0;0;0;0;0;0;0;0]);
(1845, [0;0;740;23378;53984;20216;1661;20;1;0;0;0;0;0;0;0;0;0;0;0], [0;0;740;22960;53899;20545;1835;21;0;0;0;0;0;0;0;0;0;0;0;0], [0;0;505;19632;53111;24100;2596;56;0;0;0;0;0;0;0;0;0;0;0;0]);
(1850, [0;0;638;22977;54008;20570;1788;19;0;0;0;0;0;0;0;0;0;0;0;0], [0;0;639;22586;53821;21049;1878;27;0;0;0;0;0;0;0;0;0;0;0;0], [0;0;520;19529;52681;24558;2652;60;0;0;0;0;0;0;0;0;0;0;0;0]);
(1855, [0;0;616;22602;53765;21045;1946;26;0;0;0;0;0;0;0;0;0;0;0;0], [0;0;639;22165;53648;21531;1984;33;0;0;0;0;0;0;0;0;0;0;0;0], [0;0;456;18703;52778;25048;2951;64;0;0;0;0;0;0;0;0;0;0;0;0]);
(1860, [0;0;628;22434;53446;21479;1983;30;0;0;0;0;0;0;0;0;0;0;0;0], [0;0;580;21814;53405;22070;2091;40;0;0;0;0;0;0;0;0;0;0;0;0], [0;0;433;18479;52363;25562;3102;61;0;0;0;0;0;0;0;0;0;0;0;0]);
(1865, [0;0;621;21811;53359;22045;2137;27;0;0;0;0;0;0;0;0;0;0;0;0], [0;0;508;21365;53237;22649;2201;40;0;0;0;0;0;0;0;0;0;0;0;0], [0;0;445;18250;51925;26127;3172;81;0;0;0;0;0;0;0;0;0;0;0;0]);
(1870, [0;0;541;21184;53339;22720;2176;40;0;0;0;0;0;0;0;0;0;0;0;0], [0;0;502;20963;53224;22981;2294;36;0;0;0;0;0;0;0;0;0;0;0;0], [0;0;347;17927;51642;26658;3328;98;0;0;0;0;0;0;0;0;0;0;0;0]);
(1875, [0;0;511;21068;53055;22933;2389;44;0;0;0;0;0;0;0;0;0;0;0;0], [0;0;498;20510;52861;23684;2398;49;0;0;0;0;0;0;0;0;0;0;0;0], [0;0;347;17462;51481;27237;3374;99;0;0;0;0;0;0;0;0;0;0;0;0]);
(1880, [0;0;499;20762;52964;23289;2444;42;0;0;0;0;0;0;0;0;0;0;0;0], [0;0;512;20160;52523;24111;2648;46;0;0;0;0;0;0;0;0;0;0;0;0], [0;0;342;17200;51104;27670;3591;93;0;0;0;0;0;0;0;0;0;0;0;0]);
(1885, [0;0;468;20291;52668;23895;2628;50;0;0;0;0;0;0;0;0;0;0;0;0], [0;0;460;19516;52506;24832;2635;51;0;0;0;0;0;0;0;0;0;0;0;0], [0;0;303;16858;50909;28099;3734;97;0;0;0;0;0;0;0;0;0;0;0;0]);
(1890, [0;0;495;19750;52420;24566;2723;46;0;0;0;0;0;0;0;0;0;0;0;0], [0;0;459;19253;52293;25094;2840;60;1;0;0;0;0;0;0;0;0;0;0;0], [0;0;301;16413;50488;28806;3903;88;1;0;0;0;0;0;0;0;0;0;0;0]);
(1895, [0;0;440;19467;52221;24952;2860;60;0;0;0;0;0;0;0;0;0;0;0;0], [0;0;412;19061;51974;25527;2959;67;0;0;0;0;0;0;0;0;0;0;0;0], [0;0;281;16087;50415;28995;4121;100;1;0;0;0;0;0;0;0;0;0;0;0]);
(1900, [0;0;395;19129;51969;25458;2988;61;0;0;0;0;0;0;0;0;0;0;0;0], [0;0;382;18758;51601;26062;3120;76;1;0;0;0;0;0;0;0;0;0;0;0], [0;0;255;15702;49839;29772;4322;109;1;0;0;0;0;0;0;0;0;0;0;0]);
(1905, [0;0;410;18613;51702;26116;3098;61;0;0;0;0;0;0;0;0;0;0;0;0], [0;0;351;18257;51504;26586;3233;69;0;0;0;0;0;0;0;0;0;0;0;0], [0;0;242;15362;49699;30046;4495;153;3;0;0;0;0;0;0;0;0;0;0;0]);
(1910, [0;0;343;18361;51403;26537;3288;68;0;0;0;0;0;0;0;0;0;0;0;0], [0;0;380;17854;51106;27143;3447;70;0;0;0;0;0;0;0;0;0;0;0;0], [0;0;242;14972;49224;30758;4664;140;0;0;0;0;0;0;0;0;0;0;0;0]);
(1915, [0;0;338;18107;51263;26829;3372;91;0;0;0;0;0;0;0;0;0;0;0;0], [0;0;345;17354;51041;27498;3650;112;0;0;0;0;0;0;0;0;0;0;0;0], [0;0;242;14539;48986;31213;4875;144;1;0;0;0;0;0;0;0;0;0;0;0]);
(1920, [0;0;330;17480;50806;27693;3609;82;0;0;0;0;0;0;0;0;0;0;0;0], [0;0;330;17145;50320;28391;3739;73;2;0;0;0;0;0;0;0;0;0;0;0], [0;0;211;14315;48637;31647;5041;149;0;0;0;0;0;0;0;0;0;0;0;0]);
(1925, [0;0;319;17239;50459;28186;3693;104;0;0;0;0;0;0;0;0;0;0;0;0], [0;0;314;16709;50145;28791;3954;87;0;0;0;0;0;0;0;0;0;0;0;0], [0;0;184;13846;48461;32070;5261;178;0;0;0;0;0;0;0;0;0;0;0;0]);
(1930, [0;0;326;16864;49966;28858;3879;107;0;0;0;0;0;0;0;0;0;0;0;0], [0;0;270;16231;50146;29197;4051;105;0;0;0;0;0;0;0;0;0;0;0;0], [0;0;192;13652;47573;32719;5661;202;1;0;0;0;0;0;0;0;0;0;0;0]);
(1935, [0;0;293;16637;49720;29223;4035;92;0;0;0;0;0;0;0;0;0;0;0;0], [0;0;273;16069;49283;29952;4321;102;0;0;0;0;0;0;0;0;0;0;0;0], [0;0;180;13330;47164;33370;5782;174;0;0;0;0;0;0;0;0;0;0;0;0]);
(1940, [0;0;266;16027;49579;29716;4287;123;2;0;0;0;0;0;0;0;0;0;0;0], [0;0;300;15690;49134;30260;4485;129;2;0;0;0;0;0;0;0;0;0;0;0], [0;0;163;13061;46967;33804;5806;197;2;0;0;0;0;0;0;0;0;0;0;0]);
(1945, [0;0;234;15843;49063;30327;4406;127;0;0;0;0;0;0;0;0;0;0;0;0], [0;0;219;15234;48710;31065;4646;124;2;0;0;0;0;0;0;0;0;0;0;0], [0;0;172;12680;46369;34333;6218;227;1;0;0;0;0;0;0;0;0;0;0;0]);
(1950, [0;0;246;15434;49031;30606;4562;120;1;0;0;0;0;0;0;0;0;0;0;0], [0;0;220;14805;48757;31224;4855;138;1;0;0;0;0;0;0;0;0;0;0;0], [0;0;143;12539;45966;34703;6449;200;0;0;0;0;0;0;0;0;0;0;0;0]);
(1955, [0;0;220;14843;48469;31523;4817;128;0;0;0;0;0;0;0;0;0;0;0;0], [0;0;207;14446;48220;31935;5051;141;0;0;0;0;0;0;0;0;0;0;0;0], [0;0;148;11881;45873;35353;6473;270;2;0;0;0;0;0;0;0;0;0;0;0]);
(1960, [0;0;217;14748;48058;31822;5019;136;0;0;0;0;0;0;0;0;0;0;0;0], [0;0;225;14199;47952;32354;5131;139;0;0;0;0;0;0;0;0;0;0;0;0], [0;0;122;11850;44904;35963;6879;280;2;0;0;0;0;0;0;0;0;0;0;0]);
(1965, [0;0;197;14199;48027;32401;5024;150;2;0;0;0;0;0;0;0;0;0;0;0], [0;0;168;13895;47224;33034;5512;165;2;0;0;0;0;0;0;0;0;0;0;0], [0;0;121;11364;44871;36227;7118;295;4;0;0;0;0;0;0;0;0;0;0;0]);
(1970, [0;0;213;13846;47479;33009;5280;172;1;0;0;0;0;0;0;0;0;0;0;0], [0;0;195;13408;47295;33285;5649;167;1;0;0;0;0;0;0;0;0;0;0;0], [0;0;111;11086;44518;36713;7297;272;3;0;0;0;0;0;0;0;0;0;0;0]);
(1975, [0;0;187;13704;46759;33651;5539;159;1;0;0;0;0;0;0;0;0;0;0;0], [0;0;162;13080;46421;34312;5858;166;1;0;0;0;0;0;0;0;0;0;0;0], [0;0;98;10671;43795;37548;7547;338;3;0;0;0;0;0;0;0;0;0;0;0]);
(1980, [0;0;166;13299;46436;34138;5792;169;0;0;0;0;0;0;0;0;0;0;0;0], [0;0;147;12923;46050;34696;5971;210;3;0;0;0;0;0;0;0;0;0;0;0], [0;0;94;10554;43496;37838;7679;334;5;0;0;0;0;0;0;0;0;0;0;0]);
(1985, [0;0;143;12861;46327;34544;5913;210;2;0;0;0;0;0;0;0;0;0;0;0], [0;0;169;12562;45767;35050;6239;212;1;0;0;0;0;0;0;0;0;0;0;0], [0;0;96;10184;43066;38053;8216;379;6;0;0;0;0;0;0;0;0;0;0;0]);
(1990, [0;0;161;12730;45721;34955;6236;196;1;0;0;0;0;0;0;0;0;0;0;0], [0;0;137;12227;45363;35438;6589;245;1;0;0;0;0;0;0;0;0;0;0;0], [0;0;74;9897;42407;38941;8300;378;3;0;0;0;0;0;0;0;0;0;0;0]);
(1995, [0;0;134;12277;45570;35572;6233;213;1;0;0;0;0;0;0;0;0;0;0;0], [0;0;133;11700;45140;36155;6610;259;3;0;0;0;0;0;0;0;0;0;0;0], [0;0;98;9750;42076;38832;8847;394;3;0;0;0;0;0;0;0;0;0;0;0]);
(2000, [0;0;143;11994;44863;35918;6829;251;2;0;0;0;0;0;0;0;0;0;0;0], [0;0;134;11508;44609;36472;6999;276;2;0;0;0;0;0;0;0;0;0;0;0], [0;0;87;9337;41474;39578;9089;432;3;0;0;0;0;0;0;0;0;0;0;0]);
(2005, [0;0;114;11704;44239;36842;6842;256;3;0;0;0;0;0;0;0;0;0;0;0], [0;0;116;11375;44008;37184;7034;280;3;0;0;0;0;0;0;0;0;0;0;0], [0;0;86;8967;41177;40003;9287;473;7;0;0;0;0;0;0;0;0;0;0;0]);
(2010, [0;0;110;11274;44231;37117;6988;280;0;0;0;0;0;0;0;0;0;0;0;0], [0;0;132;10902;43808;37443;7413;299;3;0;0;0;0;0;0;0;0;0;0;0], [0;0;70;8860;40714;40467;9412;468;9;0;0;0;0;0;0;0;0;0;0;0]);
(2015, [0;0;100;10929;43884;37660;7164;258;5;0;0;0;0;0;0;0;0;0;0;0], [0;0;111;10467;43524;38023;7550;320;5;0;0;0;0;0;0;0;0;0;0;0], [0;0;65;8457;40190;41105;9669;507;7;0;0;0;0;0;0;0;0;0;0;0]);
(2020, [0;0;115;10679;42903;38447;7552;299;5;0;0;0;0;0;0;0;0;0;0;0], [0;0;85;10247;42754;38676;7908;328;2;0;0;0;0;0;0;0;0;0;0;0], [0;0;64;8459;39700;41210;10007;553;7;0;0;0;0;0;0;0;0;0;0;0]);
(2025, [0;0;120;10518;42434;38730;7868;326;4;0;0;0;0;0;0;0;0;0;0;0], [0;0;99;10196;42248;39087;8012;354;4;0;0;0;0;0;0;0;0;0;0;0], [0;0;68;8189;39015;41632;10502;587;7;0;0;0;0;0;0;0;0;0;0;0]);
(2030, [0;0;88;10114;42458;39045;7947;344;4;0;0;0;0;0;0;0;0;0;0;0], [0;0;78;9976;41983;39126;8475;357;5;0;0;0;0;0;0;0;0;0;0;0], [0;0;58;7645;38562;42191;10922;614;8;0;0;0;0;0;0;0;0;0;0;0]);
(2035, [0;0;88;9908;41857;39409;8335;395;8;0;0;0;0;0;0;0;0;0;0;0], [0;0;64;9361;41417;40081;8659;413;5;0;0;0;0;0;0;0;0;0;0;0], [0;0;54;7535;38111;42715;10902;668;15;0;0;0;0;0;0;0;0;0;0;0]);
(2040, [0;0;105;9387;41300;40135;8676;396;1;0;0;0;0;0;0;0;0;0;0;0], [0;0;77;9392;40867;40257;8961;439;7;0;0;0;0;0;0;0;0;0;0;0], [0;0;52;7477;37543;42868;11350;699;11;0;0;0;0;0;0;0;0;0;0;0]);
(2045, [0;0;88;9071;40979;40612;8825;422;3;0;0;0;0;0;0;0;0;0;0;0], [0;0;65;8896;40165;41267;9156;443;8;0;0;0;0;0;0;0;0;0;0;0], [0;0;44;7136;37027;43404;11663;707;19;0;0;0;0;0;0;0;0;0;0;0]);
(2050, [0;0;83;8876;40480;40915;9181;459;6;0;0;0;0;0;0;0;0;0;0;0], [0;0;74;8622;40072;41270;9475;484;3;0;0;0;0;0;0;0;0;0;0;0], [0;0;59;6799;36457;43860;12032;779;14;0;0;0;0;0;0;0;0;0;0;0]);
(2055, [0;0;65;8727;40326;40983;9429;465;5;0;0;0;0;0;0;0;0;0;0;0], [0;0;71;8380;39866;41493;9677;508;5;0;0;0;0;0;0;0;0;0;0;0], [0;0;36;6659;35716;44274;12482;813;20;0;0;0;0;0;0;0;0;0;0;0]);
(2060, [0;0;80;8387;39799;41430;9791;506;7;0;0;0;0;0;0;0;0;0;0;0], [0;0;54;8054;38863;42335;10105;584;5;0;0;0;0;0;0;0;0;0;0;0], [0;0;30;6419;35571;44222;12875;873;10;0;0;0;0;0;0;0;0;0;0;0]);
(2065, [0;0;68;8061;39159;42185;9977;539;11;0;0;0;0;0;0;0;0;0;0;0], [0;0;58;7738;38871;42453;10296;575;9;0;0;0;0;0;0;0;0;0;0;0], [0;0;42;6058;35102;44803;13064;914;17;0;0;0;0;0;0;0;0;0;0;0]);
(2070, [0;0;48;7919;38414;42631;10413;571;4;0;0;0;0;0;0;0;0;0;0;0], [0;0;55;7567;38028;43093;10647;601;9;0;0;0;0;0;0;0;0;0;0;0], [0;0;34;6005;34598;44982;13425;938;18;0;0;0;0;0;0;0;0;0;0;0]);
(2075, [0;0;62;7602;38391;42887;10484;567;7;0;0;0;0;0;0;0;0;0;0;0], [0;0;47;7383;37701;43141;11053;668;7;0;0;0;0;0;0;0;0;0;0;0], [0;0;37;5812;34473;45143;13450;1065;20;0;0;0;0;0;0;0;0;0;0;0]);
(2080, [0;0;47;7623;37836;43101;10759;627;7;0;0;0;0;0;0;0;0;0;0;0], [0;0;50;7014;37223;43683;11351;666;13;0;0;0;0;0;0;0;0;0;0;0], [0;0;31;5631;33405;45628;14188;1097;20;0;0;0;0;0;0;0;0;0;0;0]);
(2085, [0;0;55;7198;37367;43609;11058;707;6;0;0;0;0;0;0;0;0;0;0;0], [0;0;43;6911;36617;44010;11652;753;14;0;0;0;0;0;0;0;0;0;0;0], [0;0;29;5398;33078;45928;14351;1195;21;0;0;0;0;0;0;0;0;0;0;0]);
(2090, [0;0;48;6853;36902;44044;11413;728;12;0;0;0;0;0;0;0;0;0;0;0], [0;0;42;6556;36221;44403;11929;841;8;0;0;0;0;0;0;0;0;0;0;0], [0;0;21;5212;32872;45858;14760;1245;32;0;0;0;0;0;0;0;0;0;0;0]);
(2095, [0;0;54;6779;36225;44390;11789;755;8;0;0;0;0;0;0;0;0;0;0;0], [0;0;54;6345;35922;44661;12167;835;16;0;0;0;0;0;0;0;0;0;0;0], [0;0;16;4942;31960;46605;15184;1265;28;0;0;0;0;0;0;0;0;0;0;0]);
(2100, [0;0;33;6498;36029;44409;12199;822;10;0;0;0;0;0;0;0;0;0;0;0], [0;0;47;6247;35426;44844;12537;880;19;0;0;0;0;0;0;0;0;0;0;0], [0;0;21;4918;31634;46418;15631;1354;24;0;0;0;0;0;0;0;0;0;0;0]);
(2105, [0;0;35;6283;35048;45208;12540;872;14;0;0;0;0;0;0;0;0;0;0;0], [0;0;32;5861;35087;45374;12701;930;14;1;0;0;0;0;0;0;0;0;0;0], [0;0;17;4646;31154;46980;15763;1409;30;1;0;0;0;0;0;0;0;0;0;0])].
Definition pair_data_4 : list data_row := [
(2110, [0;0;28;6016;35031;45337;12663;913;12;0;0;0;0;0;0;0;0;0;0;0], [0;0;32;5722;34363;45700;13170;1003;10;0;0;0;0;0;0;0;0;0;0;0], [0;0;17;4354;30584;47291;16223;1486;45;0;0;0;0;0;0;0;0;0;0;0]);
(2115, [0;0;29;5817;34571;45381;13225;962;15;0;0;0;0;0;0;0;0;0;0;0], [0;0;26;5497;33839;46072;13523;1028;15;0;0;0;0;0;0;0;0;0;0;0], [0;0;25;4285;30187;47046;16817;1598;42;0;0;0;0;0;0;0;0;0;0;0]);
(2120, [0;0;29;5783;33916;45818;13389;1047;18;0;0;0;0;0;0;0;0;0;0;0], [0;0;31;5246;33428;46403;13720;1150;22;0;0;0;0;0;0;0;0;0;0;0], [0;0;16;4006;29847;47118;17298;1673;42;0;0;0;0;0;0;0;0;0;0;0]);
(2125, [0;0;26;5410;33375;46218;13858;1098;15;0;0;0;0;0;0;0;0;0;0;0], [0;0;26;5154;32919;46479;14239;1163;20;0;0;0;0;0;0;0;0;0;0;0], [0;0;14;4040;29127;47630;17412;1740;37;0;0;0;0;0;0;0;0;0;0;0]);
(2130, [0;0;30;5270;32978;46368;14200;1137;17;0;0;0;0;0;0;0;0;0;0;0], [0;0;23;5057;32377;46600;14700;1226;17;0;0;0;0;0;0;0;0;0;0;0], [0;0;20;3748;28437;47784;18124;1826;61;0;0;0;0;0;0;0;0;0;0;0]);
(2135, [0;0;27;4903;32566;46967;14355;1164;18;0;0;0;0;0;0;0;0;0;0;0], [0;0;22;4678;32114;46638;15165;1351;32;0;0;0;0;0;0;0;0;0;0;0], [0;0;18;3676;28152;47840;18340;1929;45;0;0;0;0;0;0;0;0;0;0;0]);
(2140, [0;0;18;4808;32023;46764;15073;1290;24;0;0;0;0;0;0;0;0;0;0;0], [0;0;26;4722;31570;46888;15442;1313;39;0;0;0;0;0;0;0;0;0;0;0], [0;0;14;3444;27769;47801;18879;2041;51;1;0;0;0;0;0;0;0;0;0;0]);
(2145, [0;0;23;4606;31511;47004;15475;1359;22;0;0;0;0;0;0;0;0;0;0;0], [0;0;22;4312;30765;47489;15963;1426;23;0;0;0;0;0;0;0;0;0;0;0], [0;0;9;3488;27044;48058;19152;2177;72;0;0;0;0;0;0;0;0;0;0;0]);
(2150, [0;0;21;4374;31196;47181;15826;1377;24;1;0;0;0;0;0;0;0;0;0;0], [0;0;19;4363;30348;47449;16234;1568;19;0;0;0;0;0;0;0;0;0;0;0], [0;0;9;3210;26774;48378;19319;2239;71;0;0;0;0;0;0;0;0;0;0;0]);
(2155, [0;0;19;4232;30528;47592;16115;1488;26;0;0;0;0;0;0;0;0;0;0;0], [0;0;32;3997;30092;47697;16592;1554;35;1;0;0;0;0;0;0;0;0;0;0], [0;0;9;3138;26351;48333;19709;2388;71;1;0;0;0;0;0;0;0;0;0;0]);
(2160, [0;0;23;4069;30019;47792;16456;1600;41;0;0;0;0;0;0;0;0;0;0;0], [0;0;16;4007;29400;47780;17060;1700;36;1;0;0;0;0;0;0;0;0;0;0], [0;0;10;3026;25761;48228;20389;2499;86;1;0;0;0;0;0;0;0;0;0;0]);
(2165, [0;0;22;3913;29824;47889;16694;1621;37;0;0;0;0;0;0;0;0;0;0;0], [0;0;16;3851;29071;47991;17264;1767;40;0;0;0;0;0;0;0;0;0;0;0], [0;0;10;2839;25461;48130;20926;2557;76;1;0;0;0;0;0;0;0;0;0;0]);
(2170, [0;0;17;3705;29459;47889;17215;1683;32;0;0;0;0;0;0;0;0;0;0;0], [0;0;21;3564;28526;48295;17710;1843;41;0;0;0;0;0;0;0;0;0;0;0], [0;0;3;2695;24888;48454;21223;2686;51;0;0;0;0;0;0;0;0;0;0;0]);
(2175, [0;0;15;3656;28817;47905;17775;1796;36;0;0;0;0;0;0;0;0;0;0;0], [0;0;17;3461;28136;48288;18166;1889;43;0;0;0;0;0;0;0;0;0;0;0], [0;0;6;2659;24514;48586;21375;2781;79;0;0;0;0;0;0;0;0;0;0;0]);
(2180, [0;0;18;3498;28074;48414;18064;1883;49;0;0;0;0;0;0;0;0;0;0;0], [0;0;17;3322;27657;48302;18676;1983;43;0;0;0;0;0;0;0;0;0;0;0], [0;0;10;2526;24070;48198;22280;2835;81;0;0;0;0;0;0;0;0;0;0;0]);
(2185, [0;0;9;3401;27901;48020;18642;1996;31;0;0;0;0;0;0;0;0;0;0;0], [0;0;10;3205;27284;48218;19178;2057;48;0;0;0;0;0;0;0;0;0;0;0], [0;0;6;2351;23628;48291;22541;3086;96;1;0;0;0;0;0;0;0;0;0;0]);
(2190, [0;0;10;3199;27285;48541;18902;2005;58;0;0;0;0;0;0;0;0;0;0;0], [0;0;8;3119;26606;48579;19340;2293;55;0;0;0;0;0;0;0;0;0;0;0], [0;0;6;2255;23044;48656;22767;3150;121;1;0;0;0;0;0;0;0;0;0;0]);
(2195, [0;0;13;3069;26883;48438;19379;2168;50;0;0;0;0;0;0;0;0;0;0;0], [0;0;15;2862;26391;48408;19903;2350;71;0;0;0;0;0;0;0;0;0;0;0], [0;0;8;2206;22771;48237;23288;3377;112;1;0;0;0;0;0;0;0;0;0;0]);
(2200, [0;0;11;2902;26641;48350;19747;2291;58;0;0;0;0;0;0;0;0;0;0;0], [0;0;10;2770;25702;48863;20160;2442;53;0;0;0;0;0;0;0;0;0;0;0], [0;0;11;2046;22459;48126;23782;3462;113;1;0;0;0;0;0;0;0;0;0;0]);
(2205, [0;0;8;2787;26206;48251;20277;2407;64;0;0;0;0;0;0;0;0;0;0;0], [0;0;7;2803;25344;48483;20703;2572;87;1;0;0;0;0;0;0;0;0;0;0], [0;0;7;1960;22099;47919;24288;3619;105;3;0;0;0;0;0;0;0;0;0;0]);
(2210, [0;0;13;2746;25698;48451;20633;2400;59;0;0;0;0;0;0;0;0;0;0;0], [0;0;10;2597;25093;48189;21341;2700;70;0;0;0;0;0;0;0;0;0;0;0], [0;0;5;1868;21398;47896;24854;3855;123;1;0;0;0;0;0;0;0;0;0;0]);
(2215, [0;0;6;2570;25024;48464;21214;2643;79;0;0;0;0;0;0;0;0;0;0;0], [0;0;7;2475;24604;48509;21512;2820;72;1;0;0;0;0;0;0;0;0;0;0], [0;0;2;1760;20923;47968;25192;3993;159;3;0;0;0;0;0;0;0;0;0;0]);
(2220, [0;0;6;2500;24845;48475;21472;2628;74;0;0;0;0;0;0;0;0;0;0;0], [0;0;6;2439;24055;48444;22043;2936;77;0;0;0;0;0;0;0;0;0;0;0], [0;0;4;1664;20838;47627;25770;3955;140;2;0;0;0;0;0;0;0;0;0;0]);
(2225, [0;0;7;2334;24195;48650;21897;2851;66;0;0;0;0;0;0;0;0;0;0;0], [0;0;6;2199;23602;48434;22720;2963;76;0;0;0;0;0;0;0;0;0;0;0], [0;0;4;1689;20336;47432;26124;4237;178;0;0;0;0;0;0;0;0;0;0;0]);
(2230, [0;0;4;2233;23632;48468;22540;3043;80;0;0;0;0;0;0;0;0;0;0;0], [0;0;4;2121;23380;48148;23083;3175;89;0;0;0;0;0;0;0;0;0;0;0], [0;0;2;1457;19741;47475;26686;4423;214;2;0;0;0;0;0;0;0;0;0;0]);
(2235, [0;0;9;2113;23649;48327;22803;3009;90;0;0;0;0;0;0;0;0;0;0;0], [0;0;7;2068;22923;48148;23527;3224;101;2;0;0;0;0;0;0;0;0;0;0], [0;0;4;1498;19485;47326;26985;4522;177;3;0;0;0;0;0;0;0;0;0;0]);
(2240, [0;0;7;2035;22794;48533;23355;3176;100;0;0;0;0;0;0;0;0;0;0;0], [0;0;9;1856;22419;48355;23871;3373;116;1;0;0;0;0;0;0;0;0;0;0], [0;0;5;1351;19155;46867;27808;4603;208;3;0;0;0;0;0;0;0;0;0;0]);
(2245, [0;0;7;1971;22597;48278;23607;3431;109;0;0;0;0;0;0;0;0;0;0;0], [0;0;9;1816;22096;48209;24252;3517;100;1;0;0;0;0;0;0;0;0;0;0], [0;0;3;1383;18636;47122;27803;4846;207;0;0;0;0;0;0;0;0;0;0;0]);
(2250, [0;0;6;1908;22196;48243;24060;3464;123;0;0;0;0;0;0;0;0;0;0;0], [0;0;5;1745;21756;47977;24721;3658;138;0;0;0;0;0;0;0;0;0;0;0], [0;0;1;1199;18456;46591;28473;5057;221;2;0;0;0;0;0;0;0;0;0;0]);
(2255, [0;0;2;1721;21766;47953;24824;3615;118;1;0;0;0;0;0;0;0;0;0;0], [0;0;6;1767;21021;47957;25259;3831;158;1;0;0;0;0;0;0;0;0;0;0], [0;0;2;1191;17857;46594;28904;5222;228;2;0;0;0;0;0;0;0;0;0;0]);
(2260, [0;0;5;1739;21190;48173;25058;3742;93;0;0;0;0;0;0;0;0;0;0;0], [0;0;3;1594;20886;47930;25600;3852;134;1;0;0;0;0;0;0;0;0;0;0], [0;0;2;1196;17638;46457;29174;5291;239;3;0;0;0;0;0;0;0;0;0;0]);
(2265, [0;0;2;1648;21177;47340;25812;3869;152;0;0;0;0;0;0;0;0;0;0;0], [0;0;2;1462;20516;47716;26066;4083;154;1;0;0;0;0;0;0;0;0;0;0], [0;0;2;1098;16981;46152;29931;5540;293;3;0;0;0;0;0;0;0;0;0;0]);
(2270, [0;0;4;1513;20473;47849;25977;4036;147;1;0;0;0;0;0;0;0;0;0;0], [0;0;3;1398;19923;47586;26652;4252;185;1;0;0;0;0;0;0;0;0;0;0], [0;0;3;995;16955;45833;30110;5827;273;4;0;0;0;0;0;0;0;0;0;0]);
(2275, [0;0;3;1385;20155;47369;26859;4044;183;2;0;0;0;0;0;0;0;0;0;0], [0;0;6;1385;19505;47264;27305;4353;180;2;0;0;0;0;0;0;0;0;0;0], [0;0;3;969;16211;45471;30993;6054;297;2;0;0;0;0;0;0;0;0;0;0]);
(2280, [0;0;3;1407;19760;47195;27077;4396;159;3;0;0;0;0;0;0;0;0;0;0], [0;0;4;1289;19211;47264;27543;4519;167;3;0;0;0;0;0;0;0;0;0;0], [0;0;1;883;16083;45464;30999;6262;300;8;0;0;0;0;0;0;0;0;0;0]);
(2285, [0;0;4;1292;19553;47373;27286;4298;191;3;0;0;0;0;0;0;0;0;0;0], [0;0;3;1290;18870;46981;27947;4727;181;1;0;0;0;0;0;0;0;0;0;0], [0;0;3;890;15704;45321;31361;6335;379;7;0;0;0;0;0;0;0;0;0;0]);
(2290, [0;0;2;1154;19096;46971;27890;4667;217;3;0;0;0;0;0;0;0;0;0;0], [0;0;3;1168;18709;46733;28190;4973;222;2;0;0;0;0;0;0;0;0;0;0], [0;0;0;820;15358;44903;31986;6571;351;11;0;0;0;0;0;0;0;0;0;0]);
(2295, [0;0;0;1172;18529;46996;28331;4744;226;2;0;0;0;0;0;0;0;0;0;0], [0;0;2;1111;18298;46499;28788;5077;219;6;0;0;0;0;0;0;0;0;0;0], [0;0;2;794;14982;44528;32442;6879;370;3;0;0;0;0;0;0;0;0;0;0]);
(2300, [0;0;1;1127;18267;46507;28932;4933;230;3;0;0;0;0;0;0;0;0;0;0], [0;0;2;1024;17784;46269;29382;5289;245;5;0;0;0;0;0;0;0;0;0;0], [0;0;2;755;14791;44119;32915;6992;419;6;1;0;0;0;0;0;0;0;0;0]);
(2305, [0;0;2;1042;17811;46500;29247;5196;200;2;0;0;0;0;0;0;0;0;0;0], [0;0;2;954;17160;46203;29887;5535;255;4;0;0;0;0;0;0;0;0;0;0], [0;0;2;664;14170;43770;33601;7358;427;8;0;0;0;0;0;0;0;0;0;0]);
(2310, [0;0;2;1039;17510;46208;29666;5310;259;6;0;0;0;0;0;0;0;0;0;0], [0;0;3;944;17041;45702;30369;5676;263;2;0;0;0;0;0;0;0;0;0;0], [0;0;2;646;13965;43638;33758;7531;451;9;0;0;0;0;0;0;0;0;0;0]);
(2315, [0;0;1;950;17237;45758;30134;5658;256;6;0;0;0;0;0;0;0;0;0;0], [0;0;5;886;16567;45603;30833;5803;301;2;0;0;0;0;0;0;0;0;0;0], [0;0;0;622;13733;43439;33950;7801;446;8;1;0;0;0;0;0;0;0;0;0]);
(2320, [0;0;1;892;16814;45598;30638;5754;297;6;0;0;0;0;0;0;0;0;0;0], [0;0;4;828;16209;45316;31332;5993;314;4;0;0;0;0;0;0;0;0;0;0], [0;0;1;546;13306;42884;34674;8056;526;7;0;0;0;0;0;0;0;0;0;0]);
(2325, [0;0;2;867;16544;45651;30836;5830;265;5;0;0;0;0;0;0;0;0;0;0], [0;0;0;767;15869;45169;31584;6290;311;10;0;0;0;0;0;0;0;0;0;0], [0;0;1;503;13014;42553;35155;8216;545;13;0;0;0;0;0;0;0;0;0;0]);
(2330, [0;0;3;848;16048;45215;31382;6206;296;2;0;0;0;0;0;0;0;0;0;0], [0;0;4;756;15466;44803;32210;6394;363;4;0;0;0;0;0;0;0;0;0;0], [0;0;0;502;12830;42384;35338;8332;602;12;0;0;0;0;0;0;0;0;0;0]);
(2335, [0;0;0;754;15715;44864;31980;6329;350;8;0;0;0;0;0;0;0;0;0;0], [0;0;2;684;15356;44588;32498;6538;329;5;0;0;0;0;0;0;0;0;0;0], [0;0;0;468;12250;42098;35740;8783;649;11;1;0;0;0;0;0;0;0;0;0]);
(2340, [0;0;2;713;15123;44623;32563;6613;359;4;0;0;0;0;0;0;0;0;0;0], [0;0;1;683;14804;44265;33044;6816;380;7;0;0;0;0;0;0;0;0;0;0], [0;0;1;480;12065;41589;36211;9000;636;17;1;0;0;0;0;0;0;0;0;0]);
(2345, [0;0;4;715;14917;44174;33114;6729;340;7;0;0;0;0;0;0;0;0;0;0], [0;0;2;595;14344;44096;33517;7045;395;6;0;0;0;0;0;0;0;0;0;0], [0;0;0;477;11849;41212;36360;9402;688;11;1;0;0;0;0;0;0;0;0;0]);
(2350, [0;0;2;639;14818;44003;33185;6946;402;5;0;0;0;0;0;0;0;0;0;0], [0;0;0;581;14254;43591;33720;7400;445;9;0;0;0;0;0;0;0;0;0;0], [0;0;1;394;11450;40997;36877;9533;731;17;0;0;0;0;0;0;0;0;0;0]);
(2355, [0;0;0;603;14385;43593;33800;7234;379;6;0;0;0;0;0;0;0;0;0;0], [0;0;2;560;13886;43431;34151;7513;452;5;0;0;0;0;0;0;0;0;0;0], [0;0;1;394;11385;40305;37311;9776;811;16;1;0;0;0;0;0;0;0;0;0]);
(2360, [0;0;0;554;13974;43381;34194;7443;447;7;0;0;0;0;0;0;0;0;0;0], [0;0;1;542;13698;42836;34612;7802;506;3;0;0;0;0;0;0;0;0;0;0], [0;0;0;359;10904;39963;37723;10181;845;25;0;0;0;0;0;0;0;0;0;0]);
(2365, [0;0;3;547;13744;43003;34520;7716;457;9;1;0;0;0;0;0;0;0;0;0], [0;0;1;517;13247;42736;35043;7936;511;9;0;0;0;0;0;0;0;0;0;0], [0;0;0;339;10807;39759;37998;10278;803;15;1;0;0;0;0;0;0;0;0;0]);
(2370, [0;0;0;494;13457;42877;34680;7980;507;5;0;0;0;0;0;0;0;0;0;0], [0;0;0;450;12828;42074;35862;8237;542;7;0;0;0;0;0;0;0;0;0;0], [0;0;0;325;10320;39473;38364;10580;928;10;0;0;0;0;0;0;0;0;0;0]);
(2375, [0;0;0;484;13224;42347;35311;8120;507;7;0;0;0;0;0;0;0;0;0;0], [0;0;2;465;12717;41969;35778;8498;563;8;0;0;0;0;0;0;0;0;0;0], [0;0;1;292;10309;38997;38534;10954;883;30;0;0;0;0;0;0;0;0;0;0]);
(2380, [0;0;0;442;12754;42214;35613;8392;576;9;0;0;0;0;0;0;0;0;0;0], [0;0;1;429;12343;41312;36586;8709;617;3;0;0;0;0;0;0;0;0;0;0], [0;0;2;267;9939;38297;39158;11335;981;20;1;0;0;0;0;0;0;0;0;0]);
(2385, [0;0;0;410;12465;41919;36122;8444;629;11;0;0;0;0;0;0;0;0;0;0], [0;0;2;389;12110;41459;36557;8850;622;11;0;0;0;0;0;0;0;0;0;0], [0;0;1;247;9613;38231;39366;11473;1045;24;0;0;0;0;0;0;0;0;0;0]);
(2390, [0;0;0;405;12090;41343;36669;8860;616;16;1;0;0;0;0;0;0;0;0;0], [0;0;0;375;11719;40720;37119;9402;657;8;0;0;0;0;0;0;0;0;0;0], [0;0;1;251;9343;38209;39471;11709;988;28;0;0;0;0;0;0;0;0;0;0]);
(2395, [0;0;0;378;11802;41086;37063;8999;662;10;0;0;0;0;0;0;0;0;0;0], [0;0;0;336;11420;40381;37644;9508;696;15;0;0;0;0;0;0;0;0;0;0], [0;0;0;204;9230;37055;40180;12194;1111;26;0;0;0;0;0;0;0;0;0;0]);
(2400, [0;0;1;359;11669;40580;37422;9255;703;11;0;0;0;0;0;0;0;0;0;0], [0;0;0;334;11303;40055;37936;9656;705;11;0;0;0;0;0;0;0;0;0;0], [0;0;1;222;9003;37038;40106;12367;1228;34;1;0;0;0;0;0;0;0;0;0]);
(2405, [0;0;0;318;11456;40071;37522;9893;723;17;0;0;0;0;0;0;0;0;0;0], [0;0;0;283;10826;39958;38066;10091;756;20;0;0;0;0;0;0;0;0;0;0], [0;0;0;189;8847;36360;40597;12730;1240;37;0;0;0;0;0;0;0;0;0;0]);
(2410, [0;0;0;323;10940;39996;38054;9908;769;10;0;0;0;0;0;0;0;0;0;0], [0;0;0;275;10758;39283;38458;10362;846;18;0;0;0;0;0;0;0;0;0;0], [0;0;0;172;8426;36067;40833;13137;1326;39;0;0;0;0;0;0;0;0;0;0]);
(2415, [0;0;0;308;10676;39359;38431;10374;842;10;0;0;0;0;0;0;0;0;0;0], [0;0;0;282;10222;38744;39167;10677;892;16;0;0;0;0;0;0;0;0;0;0], [0;0;0;168;8207;35364;41393;13496;1334;38;0;0;0;0;0;0;0;0;0;0]);
(2420, [0;0;0;286;10243;39386;38649;10566;851;19;0;0;0;0;0;0;0;0;0;0], [0;0;0;248;10144;38329;39519;10761;985;14;0;0;0;0;0;0;0;0;0;0], [0;0;0;140;7960;35214;41594;13650;1402;40;0;0;0;0;0;0;0;0;0;0]);
(2425, [0;0;0;264;10245;38972;38980;10616;894;28;1;0;0;0;0;0;0;0;0;0], [0;0;1;237;9705;38264;39547;11304;924;18;0;0;0;0;0;0;0;0;0;0], [0;0;0;184;7757;34866;41715;13916;1515;47;0;0;0;0;0;0;0;0;0;0]);
(2430, [0;0;0;223;9785;38378;39615;11033;948;18;0;0;0;0;0;0;0;0;0;0], [0;0;0;214;9458;37727;40008;11505;1065;23;0;0;0;0;0;0;0;0;0;0], [0;0;0;143;7478;34290;41950;14499;1601;38;1;0;0;0;0;0;0;0;0;0]);
(2435, [0;0;0;227;9709;37830;39804;11452;958;20;0;0;0;0;0;0;0;0;0;0], [0;0;1;179;9376;37651;40021;11717;1039;16;0;0;0;0;0;0;0;0;0;0], [0;0;0;129;7440;33599;42433;14755;1588;56;0;0;0;0;0;0;0;0;0;0]);
(2440, [0;0;0;223;9647;37332;40205;11538;1035;20;0;0;0;0;0;0;0;0;0;0], [0;0;0;204;8877;37075;40871;11874;1077;22;0;0;0;0;0;0;0;0;0;0], [0;0;0;121;7192;33806;42184;14908;1726;62;1;0;0;0;0;0;0;0;0;0]);
(2445, [0;0;0;200;9220;37371;40349;11745;1098;17;0;0;0;0;0;0;0;0;0;0], [0;0;2;168;8826;36898;40676;12320;1093;16;1;0;0;0;0;0;0;0;0;0], [0;0;0;121;6846;32749;42870;15602;1744;67;1;0;0;0;0;0;0;0;0;0]);
(2450, [0;0;0;188;9058;36739;40899;11929;1165;22;0;0;0;0;0;0;0;0;0;0], [0;0;0;184;8544;36370;40930;12696;1242;34;0;0;0;0;0;0;0;0;0;0], [0;0;0;115;6811;32483;42997;15656;1883;55;0;0;0;0;0;0;0;0;0;0]);
(2455, [0;0;0;154;8640;36192;41092;12688;1200;33;1;0;0;0;0;0;0;0;0;0], [0;0;0;157;8310;35888;41348;12975;1286;35;1;0;0;0;0;0;0;0;0;0], [0;0;0;85;6570;32218;43041;16125;1887;72;2;0;0;0;0;0;0;0;0;0]);
(2460, [0;0;0;177;8550;36069;40952;12976;1246;30;0;0;0;0;0;0;0;0;0;0], [0;0;0;149;8158;35216;41788;13364;1296;27;2;0;0;0;0;0;0;0;0;0], [0;0;0;90;6167;31768;43545;16288;2054;87;1;0;0;0;0;0;0;0;0;0]);
(2465, [0;0;0;154;8167;35498;41814;13027;1311;28;1;0;0;0;0;0;0;0;0;0], [0;0;0;160;8008;35090;41901;13511;1293;36;1;0;0;0;0;0;0;0;0;0], [0;0;0;83;6126;31395;43430;16819;2078;69;0;0;0;0;0;0;0;0;0;0]);
(2470, [0;0;2;150;7875;35174;42011;13385;1373;29;1;0;0;0;0;0;0;0;0;0], [0;0;0;141;7681;34345;42198;14130;1458;47;0;0;0;0;0;0;0;0;0;0], [0;0;0;78;5947;30815;43650;17223;2220;67;0;0;0;0;0;0;0;0;0;0]);
(2475, [0;0;0;161;7674;34966;41837;13918;1402;42;0;0;0;0;0;0;0;0;0;0], [0;0;0;138;7323;34188;42272;14450;1592;36;1;0;0;0;0;0;0;0;0;0], [0;0;0;86;5800;30757;43413;17580;2281;83;0;0;0;0;0;0;0;0;0;0]);
(2480, [0;0;0;118;7553;34180;42416;14156;1549;28;0;0;0;0;0;0;0;0;0;0], [0;0;0;119;7273;33834;42434;14728;1565;47;0;0;0;0;0;0;0;0;0;0], [0;0;0;74;5717;30060;43928;17781;2343;96;1;0;0;0;0;0;0;0;0;0]);
(2485, [0;0;0;120;7244;33971;42528;14548;1543;45;1;0;0;0;0;0;0;0;0;0], [0;0;0;117;7032;33369;42711;15080;1644;47;0;0;0;0;0;0;0;0;0;0], [0;0;0;72;5554;29465;44156;18171;2501;80;1;0;0;0;0;0;0;0;0;0]);
(2490, [0;0;0;110;7180;33585;42736;14722;1617;50;0;0;0;0;0;0;0;0;0;0], [0;0;0;97;6770;32979;43168;15218;1715;53;0;0;0;0;0;0;0;0;0;0], [0;0;0;65;5381;28986;44192;18662;2601;108;5;0;0;0;0;0;0;0;0;0]);
(2495, [0;0;0;108;6809;33061;43161;15137;1666;58;0;0;0;0;0;0;0;0;0;0], [0;0;0;99;6782;32532;42895;15795;1829;68;0;0;0;0;0;0;0;0;0;0], [0;0;0;54;5067;28680;44309;18981;2799;109;1;0;0;0;0;0;0;0;0;0]);
(2500, [0;0;0;101;6820;32748;43011;15502;1761;56;1;0;0;0;0;0;0;0;0;0], [0;0;0;91;6444;32294;43329;15845;1936;60;1;0;0;0;0;0;0;0;0;0], [0;0;0;54;4907;28218;44262;19604;2854;99;2;0;0;0;0;0;0;0;0;0]);
(2505, [0;0;0;93;6459;32454;43193;15937;1809;55;0;0;0;0;0;0;0;0;0;0], [0;0;0;100;6238;31388;43710;16430;2071;62;1;0;0;0;0;0;0;0;0;0], [0;0;0;56;4784;28182;44487;19484;2897;109;1;0;0;0;0;0;0;0;0;0]);
(2510, [0;0;0;85;6495;31812;43532;16099;1916;60;1;0;0;0;0;0;0;0;0;0], [0;0;0;87;6117;31541;43517;16589;2085;63;1;0;0;0;0;0;0;0;0;0], [0;0;0;50;4610;27494;44316;20376;3028;125;1;0;0;0;0;0;0;0;0;0]);
(2515, [0;0;0;106;6079;31475;43769;16479;2031;61;0;0;0;0;0;0;0;0;0;0], [0;0;1;77;5765;30803;43888;17247;2142;76;1;0;0;0;0;0;0;0;0;0], [0;0;0;46;4545;27089;44503;20635;3042;134;6;0;0;0;0;0;0;0;0;0]);
(2520, [0;0;0;82;6100;30848;44071;16690;2143;66;0;0;0;0;0;0;0;0;0;0], [0;0;0;74;5782;30645;43702;17385;2330;82;0;0;0;0;0;0;0;0;0;0], [0;0;0;39;4302;26916;44357;21085;3160;137;4;0;0;0;0;0;0;0;0;0]);
(2525, [0;0;0;73;5738;30738;43929;17301;2140;81;0;0;0;0;0;0;0;0;0;0], [0;0;0;60;5571;29927;44245;17739;2378;79;1;0;0;0;0;0;0;0;0;0], [0;0;0;41;4249;26245;44695;21163;3434;172;1;0;0;0;0;0;0;0;0;0]);
(2530, [0;0;0;76;5621;30048;44366;17561;2243;82;3;0;0;0;0;0;0;0;0;0], [0;0;0;75;5558;29488;44259;18053;2471;96;0;0;0;0;0;0;0;0;0;0], [0;0;0;36;3981;25746;44788;21781;3511;155;2;0;0;0;0;0;0;0;0;0]);
(2535, [0;0;0;59;5417;29820;44304;17970;2346;83;1;0;0;0;0;0;0;0;0;0], [0;0;0;61;5154;29211;44349;18597;2544;84;0;0;0;0;0;0;0;0;0;0], [0;0;0;25;3918;25744;44363;22138;3627;179;6;0;0;0;0;0;0;0;0;0]);
(2540, [0;0;0;65;5290;29499;44366;18203;2470;106;1;0;0;0;0;0;0;0;0;0], [0;0;0;65;4953;28959;44286;18985;2653;95;4;0;0;0;0;0;0;0;0;0], [0;0;0;25;3834;25126;44238;22806;3782;186;3;0;0;0;0;0;0;0;0;0]);
(2545, [0;0;0;50;5146;29059;44516;18628;2506;93;2;0;0;0;0;0;0;0;0;0], [0;0;0;48;4926;28406;44515;19405;2585;113;2;0;0;0;0;0;0;0;0;0], [0;0;0;29;3612;24395;44645;23167;3965;182;5;0;0;0;0;0;0;0;0;0]);
(2550, [0;0;0;46;4966;28610;44540;19085;2655;98;0;0;0;0;0;0;0;0;0;0], [0;0;0;59;4779;27760;44726;19659;2903;113;1;0;0;0;0;0;0;0;0;0], [0;0;0;30;3628;24222;44733;23032;4142;211;2;0;0;0;0;0;0;0;0;0]);
(2555, [0;0;0;36;4727;28264;44395;19714;2771;93;0;0;0;0;0;0;0;0;0;0], [0;0;0;45;4599;27371;44843;20121;2903;116;2;0;0;0;0;0;0;0;0;0], [0;0;0;29;3372;23834;44719;23690;4159;195;2;0;0;0;0;0;0;0;0;0]);
(2560, [0;0;0;68;4656;27875;44760;19693;2824;124;0;0;0;0;0;0;0;0;0;0], [0;0;0;42;4447;26844;44889;20517;3129;129;3;0;0;0;0;0;0;0;0;0], [0;0;0;30;3314;23263;44670;24165;4320;237;1;0;0;0;0;0;0;0;0;0]);
(2565, [0;0;0;44;4485;27241;44760;20320;3041;109;0;0;0;0;0;0;0;0;0;0], [0;0;0;36;4144;26986;44420;21015;3246;152;1;0;0;0;0;0;0;0;0;0], [0;0;0;27;3223;23302;44347;24369;4459;266;7;0;0;0;0;0;0;0;0;0]);
(2570, [0;0;0;41;4428;26860;44907;20631;3004;128;1;0;0;0;0;0;0;0;0;0], [0;0;0;34;4103;26519;44494;21389;3295;165;1;0;0;0;0;0;0;0;0;0], [0;0;0;16;3096;22591;44429;24932;4654;279;3;0;0;0;0;0;0;0;0;0]);
(2575, [0;0;0;37;4232;26363;44856;21162;3234;116;0;0;0;0;0;0;0;0;0;0], [0;0;0;38;3997;25762;44979;21666;3402;155;1;0;0;0;0;0;0;0;0;0], [0;0;0;15;3014;22215;44618;25045;4817;270;6;0;0;0;0;0;0;0;0;0]);
(2580, [0;0;0;41;4079;26150;44557;21545;3477;145;6;0;0;0;0;0;0;0;0;0], [0;0;0;31;3915;25584;44807;21883;3608;171;1;0;0;0;0;0;0;0;0;0], [0;0;0;22;2896;22108;43901;25827;4936;307;3;0;0;0;0;0;0;0;0;0]);
(2585, [0;0;0;30;3944;25743;44878;21734;3502;165;4;0;0;0;0;0;0;0;0;0], [0;0;0;27;3722;25064;45007;22394;3611;170;5;0;0;0;0;0;0;0;0;0], [0;0;0;20;2720;21773;43902;26081;5189;307;8;0;0;0;0;0;0;0;0;0]);
(2590, [0;0;0;32;3855;25176;44932;22315;3511;177;2;0;0;0;0;0;0;0;0;0], [0;0;0;32;3655;24674;44486;23154;3786;213;0;0;0;0;0;0;0;0;0;0], [0;0;0;20;2740;21434;43859;26261;5362;318;6;0;0;0;0;0;0;0;0;0]);
(2595, [0;0;0;36;3799;24905;44726;22619;3746;169;0;0;0;0;0;0;0;0;0;0], [0;0;0;31;3461;24503;44573;23351;3896;182;3;0;0;0;0;0;0;0;0;0], [0;0;0;17;2531;20802;43782;26921;5600;342;5;0;0;0;0;0;0;0;0;0]);
(2600, [0;0;0;35;3515;24571;44770;23103;3806;200;0;0;0;0;0;0;0;0;0;0], [0;0;0;38;3312;24160;44716;23546;4046;181;1;0;0;0;0;0;0;0;0;0], [0;0;0;20;2473;20355;43752;27265;5763;362;10;0;0;0;0;0;0;0;0;0]);
(2605, [0;0;0;34;3375;24115;44770;23396;4097;208;5;0;0;0;0;0;0;0;0;0], [0;0;0;29;3330;23502;44577;24150;4177;231;4;0;0;0;0;0;0;0;0;0], [0;0;0;17;2369;20393;43599;27396;5808;409;9;0;0;0;0;0;0;0;0;0])].
Definition pair_data_5 : list data_row := [
(2610, [0;0;0;29;3286;23986;44766;23641;4101;190;1;0;0;0;0;0;0;0;0;0], [0;0;0;21;3168;23022;44720;24423;4398;244;4;0;0;0;0;0;0;0;0;0], [0;0;0;8;2253;19891;43466;27886;6072;412;11;1;0;0;0;0;0;0;0;0]);
(2615, [0;0;0;24;3150;23559;44273;24419;4324;245;6;0;0;0;0;0;0;0;0;0], [0;0;0;17;3116;23012;44487;24571;4557;237;3;0;0;0;0;0;0;0;0;0], [0;0;0;8;2267;19254;43339;28488;6179;454;11;0;0;0;0;0;0;0;0;0]);
(2620, [0;0;0;34;3173;23096;44589;24538;4310;258;2;0;0;0;0;0;0;0;0;0], [0;0;0;27;2863;22457;44395;25273;4716;267;2;0;0;0;0;0;0;0;0;0], [0;0;0;13;2126;18844;43465;28796;6298;451;7;0;0;0;0;0;0;0;0;0]);
(2625, [0;0;0;21;2940;22718;44555;24970;4518;274;4;0;0;0;0;0;0;0;0;0], [0;0;0;26;2746;22283;44172;25605;4881;284;3;0;0;0;0;0;0;0;0;0], [0;0;0;12;2057;18757;42972;29052;6662;477;10;1;0;0;0;0;0;0;0;0]);
(2630, [0;0;0;20;2882;22118;44523;25396;4808;252;1;0;0;0;0;0;0;0;0;0], [0;0;0;23;2713;22034;44228;25772;4875;347;8;0;0;0;0;0;0;0;0;0], [0;0;0;15;2118;18302;42766;29677;6621;492;7;2;0;0;0;0;0;0;0;0]);
(2635, [0;0;0;14;2783;21819;44472;25803;4835;269;5;0;0;0;0;0;0;0;0;0], [0;0;0;15;2638;21175;44096;26461;5290;320;5;0;0;0;0;0;0;0;0;0], [0;0;0;10;1855;17793;42622;30154;7034;517;15;0;0;0;0;0;0;0;0;0]);
(2640, [0;0;0;21;2676;21414;44328;26219;5049;285;8;0;0;0;0;0;0;0;0;0], [0;0;0;19;2581;20996;44115;26667;5277;337;8;0;0;0;0;0;0;0;0;0], [0;0;0;7;1883;17286;42492;30439;7315;554;24;0;0;0;0;0;0;0;0;0]);
(2645, [0;0;0;12;2500;21326;44144;26426;5270;317;5;0;0;0;0;0;0;0;0;0], [0;0;0;16;2455;20605;43853;27226;5469;368;8;0;0;0;0;0;0;0;0;0], [0;0;0;10;1759;17414;42023;30733;7433;613;14;1;0;0;0;0;0;0;0;0]);
(2650, [0;0;0;13;2493;20621;44250;26994;5304;319;6;0;0;0;0;0;0;0;0;0], [0;0;0;13;2269;20314;43623;27623;5765;379;14;0;0;0;0;0;0;0;0;0], [0;0;0;8;1665;16891;41926;31252;7579;657;22;0;0;0;0;0;0;0;0;0]);
(2655, [0;0;0;14;2366;20614;43810;27267;5550;375;4;0;0;0;0;0;0;0;0;0], [0;0;0;13;2250;19840;43887;27770;5817;417;6;0;0;0;0;0;0;0;0;0], [0;0;0;11;1645;16653;41810;31397;7778;695;11;0;0;0;0;0;0;0;0;0]);
(2660, [0;0;0;14;2162;20174;44014;27582;5678;370;6;0;0;0;0;0;0;0;0;0], [0;0;0;13;2129;19627;43432;28340;6019;433;7;0;0;0;0;0;0;0;0;0], [0;0;0;10;1631;16426;41563;31658;7956;731;24;1;0;0;0;0;0;0;0;0]);
(2665, [0;0;0;12;2192;20021;43362;28115;5913;379;6;0;0;0;0;0;0;0;0;0], [0;0;0;10;2064;19079;43516;28657;6232;439;3;0;0;0;0;0;0;0;0;0], [0;0;0;13;1477;16111;41234;32103;8322;718;22;0;0;0;0;0;0;0;0;0]);
(2670, [0;0;0;9;2078;19249;43517;28529;6203;409;6;0;0;0;0;0;0;0;0;0], [0;0;0;10;2000;18659;43695;28867;6300;460;9;0;0;0;0;0;0;0;0;0], [0;0;0;3;1458;15495;41079;32576;8632;733;24;0;0;0;0;0;0;0;0;0]);
(2675, [0;0;0;11;2109;19027;43438;28728;6232;448;7;0;0;0;0;0;0;0;0;0], [0;0;0;6;1953;18595;42889;29428;6628;492;9;0;0;0;0;0;0;0;0;0], [0;0;0;15;1335;15417;40841;32748;8841;784;19;0;0;0;0;0;0;0;0;0]);
(2680, [0;0;0;12;2000;18776;42976;29248;6512;464;12;0;0;0;0;0;0;0;0;0], [0;0;0;9;1839;18014;42770;30024;6800;527;17;0;0;0;0;0;0;0;0;0], [0;0;0;14;1306;15061;40619;33328;8804;848;20;0;0;0;0;0;0;0;0;0]);
(2685, [0;0;0;13;1896;18289;42871;29841;6605;477;8;0;0;0;0;0;0;0;0;0], [0;0;0;7;1778;17880;42624;30115;7100;489;7;0;0;0;0;0;0;0;0;0], [0;0;0;7;1354;14646;40233;33548;9278;913;21;0;0;0;0;0;0;0;0;0]);
(2690, [0;0;0;7;1829;18116;42640;30154;6759;482;13;0;0;0;0;0;0;0;0;0], [0;0;0;14;1765;17387;42250;30757;7247;566;14;0;0;0;0;0;0;0;0;0], [0;0;0;7;1194;14459;39901;33890;9589;929;30;1;0;0;0;0;0;0;0;0]);
(2695, [0;0;0;14;1770;17520;42777;30216;7113;575;15;0;0;0;0;0;0;0;0;0], [0;0;0;9;1609;17231;42310;30880;7347;589;25;0;0;0;0;0;0;0;0;0], [0;0;0;2;1130;13957;39882;34412;9685;907;24;1;0;0;0;0;0;0;0;0]);
(2700, [0;0;0;8;1706;17500;42204;30844;7184;541;13;0;0;0;0;0;0;0;0;0], [0;0;0;7;1620;16794;41792;31545;7618;606;18;0;0;0;0;0;0;0;0;0], [0;0;0;3;1083;13839;39432;34663;9920;1033;27;0;0;0;0;0;0;0;0;0]);
(2705, [0;0;0;12;1592;17172;41969;31224;7409;607;15;0;0;0;0;0;0;0;0;0], [0;0;0;6;1539;16329;41814;31889;7734;682;7;0;0;0;0;0;0;0;0;0], [0;0;0;5;1027;13388;39313;34879;10353;1007;28;0;0;0;0;0;0;0;0;0]);
(2710, [0;0;0;7;1531;16778;42103;31221;7738;605;17;0;0;0;0;0;0;0;0;0], [0;0;0;12;1428;16232;41651;32030;7905;718;24;0;0;0;0;0;0;0;0;0], [0;0;0;1;1003;12949;39138;35258;10519;1088;44;0;0;0;0;0;0;0;0;0]);
(2715, [0;0;0;8;1485;16427;41727;31862;7869;611;11;0;0;0;0;0;0;0;0;0], [0;0;0;4;1343;15912;41347;32334;8347;698;15;0;0;0;0;0;0;0;0;0], [0;0;0;1;985;12930;38734;35538;10620;1155;37;0;0;0;0;0;0;0;0;0]);
(2720, [0;0;0;6;1391;15944;41410;32479;8046;712;12;0;0;0;0;0;0;0;0;0], [0;0;0;9;1316;15334;41173;32716;8661;768;23;0;0;0;0;0;0;0;0;0], [0;0;0;1;903;12570;38544;35822;10908;1205;46;1;0;0;0;0;0;0;0;0]);
(2725, [0;0;0;12;1415;15765;41304;32316;8465;708;15;0;0;0;0;0;0;0;0;0], [0;0;0;6;1268;15339;40796;33049;8675;844;22;1;0;0;0;0;0;0;0;0], [0;0;0;3;951;12279;38261;36050;11184;1227;44;1;0;0;0;0;0;0;0;0]);
(2730, [0;0;0;2;1320;15379;41078;32968;8470;765;18;0;0;0;0;0;0;0;0;0], [0;0;0;2;1245;15055;40604;33375;8846;842;31;0;0;0;0;0;0;0;0;0], [0;0;0;1;922;12148;37867;36103;11640;1271;47;1;0;0;0;0;0;0;0;0]);
(2735, [0;0;0;3;1228;15111;40785;33175;8847;831;20;0;0;0;0;0;0;0;0;0], [0;0;0;3;1205;14516;40331;33960;9062;903;19;1;0;0;0;0;0;0;0;0], [0;0;0;6;824;11757;37421;36704;11896;1341;51;0;0;0;0;0;0;0;0;0]);
(2740, [0;0;0;1;1260;14744;40422;33582;9136;830;24;1;0;0;0;0;0;0;0;0], [0;0;0;3;1093;14215;40202;34113;9450;896;28;0;0;0;0;0;0;0;0;0], [0;0;0;2;732;11604;37249;36753;12225;1379;55;1;0;0;0;0;0;0;0;0]);
(2745, [0;0;0;2;1079;14506;40422;33891;9219;849;32;0;0;0;0;0;0;0;0;0], [0;0;0;1;1096;14246;39862;34175;9631;961;28;0;0;0;0;0;0;0;0;0], [0;0;0;1;743;11172;36860;37209;12411;1545;57;2;0;0;0;0;0;0;0;0]);
(2750, [0;0;0;3;1065;14076;39974;34491;9490;882;19;0;0;0;0;0;0;0;0;0], [0;0;0;4;1066;13743;39467;34808;9865;1012;34;1;0;0;0;0;0;0;0;0], [0;0;0;4;710;11131;36359;37526;12696;1519;54;1;0;0;0;0;0;0;0;0]);
(2755, [0;0;0;3;1056;13819;39551;34815;9758;973;24;1;0;0;0;0;0;0;0;0], [0;0;0;5;1022;13309;39196;35280;10175;978;35;0;0;0;0;0;0;0;0;0], [0;0;0;0;643;10776;36102;37726;13146;1543;61;3;0;0;0;0;0;0;0;0]);
(2760, [0;0;0;6;1025;13567;39552;34870;9953;998;29;0;0;0;0;0;0;0;0;0], [0;0;0;6;916;13054;39277;35411;10213;1086;37;0;0;0;0;0;0;0;0;0], [0;0;0;1;631;10474;35781;38004;13351;1682;74;2;0;0;0;0;0;0;0;0]);
(2765, [0;0;0;3;980;13419;39170;35272;10100;1023;33;0;0;0;0;0;0;0;0;0], [0;0;0;5;885;13070;38553;35707;10592;1154;34;0;0;0;0;0;0;0;0;0], [0;0;0;0;612;10208;35411;38335;13556;1793;84;1;0;0;0;0;0;0;0;0]);
(2770, [0;0;0;3;939;13024;38906;35403;10614;1090;21;0;0;0;0;0;0;0;0;0], [0;0;0;5;839;12545;38317;36175;10976;1102;41;0;0;0;0;0;0;0;0;0], [0;0;0;0;531;10002;35301;38528;13780;1779;77;2;0;0;0;0;0;0;0;0]);
(2775, [0;0;0;5;872;12828;38508;35963;10677;1113;34;0;0;0;0;0;0;0;0;0], [0;0;0;3;821;12244;38165;36383;11111;1240;31;2;0;0;0;0;0;0;0;0], [0;0;0;0;536;9781;35022;38488;14137;1946;89;1;0;0;0;0;0;0;0;0]);
(2780, [0;0;0;4;871;12569;38358;36050;10953;1158;37;0;0;0;0;0;0;0;0;0], [0;0;0;3;743;12061;37665;36698;11529;1262;39;0;0;0;0;0;0;0;0;0], [0;0;0;2;568;9520;34236;38973;14537;2068;95;1;0;0;0;0;0;0;0;0]);
(2785, [0;0;0;4;821;12085;38196;36465;11221;1177;31;0;0;0;0;0;0;0;0;0], [0;0;0;2;756;11837;37641;36615;11765;1329;54;1;0;0;0;0;0;0;0;0], [0;0;0;3;513;9261;33944;39140;14918;2127;94;0;0;0;0;0;0;0;0;0]);
(2790, [0;0;0;3;745;12002;37566;36927;11456;1266;35;0;0;0;0;0;0;0;0;0], [0;0;0;2;745;11632;37019;37035;12063;1460;43;1;0;0;0;0;0;0;0;0], [0;0;0;1;445;9148;33796;39092;15301;2114;103;0;0;0;0;0;0;0;0;0]);
(2795, [0;0;0;3;781;11778;37324;36986;11757;1326;43;2;0;0;0;0;0;0;0;0], [0;0;0;2;727;11061;36915;37354;12437;1453;51;0;0;0;0;0;0;0;0;0], [0;0;0;1;448;8871;33212;39565;15438;2355;107;3;0;0;0;0;0;0;0;0]);
(2800, [0;0;0;3;734;11503;37222;37151;11967;1363;56;1;0;0;0;0;0;0;0;0], [0;0;0;1;649;11350;36291;37637;12472;1546;53;1;0;0;0;0;0;0;0;0], [0;0;0;0;413;8609;33068;39716;15828;2236;129;1;0;0;0;0;0;0;0;0]);
(2805, [0;0;0;3;652;11097;36658;37600;12452;1478;59;1;0;0;0;0;0;0;0;0], [0;0;0;4;608;10627;35941;38300;12897;1570;52;1;0;0;0;0;0;0;0;0], [0;0;0;2;403;8597;32573;39910;16082;2324;105;4;0;0;0;0;0;0;0;0]);
(2810, [0;0;0;4;648;10912;36521;37936;12379;1542;57;1;0;0;0;0;0;0;0;0], [0;0;0;2;581;10648;35719;38210;13163;1618;58;1;0;0;0;0;0;0;0;0], [0;0;0;1;396;8247;32355;39873;16544;2435;147;2;0;0;0;0;0;0;0;0]);
(2815, [0;0;0;1;580;10619;35757;38265;13103;1613;61;1;0;0;0;0;0;0;0;0], [0;0;0;3;536;10214;35597;38530;13373;1678;69;0;0;0;0;0;0;0;0;0], [0;0;0;1;365;8106;31929;40214;16603;2660;120;2;0;0;0;0;0;0;0;0]);
(2820, [0;0;0;2;570;10283;35963;38184;13247;1704;47;0;0;0;0;0;0;0;0;0], [0;0;0;5;543;9988;35143;38547;13928;1759;86;1;0;0;0;0;0;0;0;0], [0;0;0;1;369;7894;31744;40002;17114;2738;132;6;0;0;0;0;0;0;0;0]);
(2825, [0;0;0;2;548;10212;35540;38325;13543;1755;75;0;0;0;0;0;0;0;0;0], [0;0;0;3;501;9727;34966;39051;13893;1771;86;2;0;0;0;0;0;0;0;0], [0;0;0;0;331;7639;31332;40435;17364;2744;151;3;1;0;0;0;0;0;0;0]);
(2830, [0;0;0;3;607;9993;35177;38643;13751;1751;74;1;0;0;0;0;0;0;0;0], [0;0;0;0;490;9588;34712;38981;14320;1846;63;0;0;0;0;0;0;0;0;0], [0;0;0;1;338;7451;31085;40405;17700;2842;175;2;1;0;0;0;0;0;0;0]);
(2835, [0;0;0;1;490;9491;34598;39255;14234;1873;56;2;0;0;0;0;0;0;0;0], [0;0;0;2;465;9303;34113;39361;14640;2029;84;3;0;0;0;0;0;0;0;0], [0;0;0;0;264;7234;30364;40696;18252;3024;164;2;0;0;0;0;0;0;0;0]);
(2840, [0;0;0;0;470;9527;34403;39109;14436;1962;92;1;0;0;0;0;0;0;0;0], [0;0;0;2;437;9126;33978;39424;14846;2098;87;2;0;0;0;0;0;0;0;0], [0;0;0;0;309;7055;30157;40896;18308;3085;185;5;0;0;0;0;0;0;0;0]);
(2845, [0;0;0;2;430;9208;33894;39623;14776;1977;87;3;0;0;0;0;0;0;0;0], [0;0;0;0;428;9032;33605;39390;15326;2109;108;2;0;0;0;0;0;0;0;0], [0;0;0;1;284;6864;29917;40581;18907;3248;195;3;0;0;0;0;0;0;0;0]);
(2850, [0;0;0;3;431;9007;33818;39484;15114;2053;89;1;0;0;0;0;0;0;0;0], [0;0;0;0;444;8780;33035;39764;15666;2199;111;1;0;0;0;0;0;0;0;0], [0;0;0;0;238;6669;29350;41223;19006;3300;210;4;0;0;0;0;0;0;0;0]);
(2855, [0;0;0;0;454;8810;33381;39763;15305;2201;85;1;0;0;0;0;0;0;0;0], [0;0;0;0;374;8468;32810;40121;15864;2264;94;5;0;0;0;0;0;0;0;0], [0;0;0;0;248;6500;28977;41189;19473;3404;203;6;0;0;0;0;0;0;0;0]);
(2860, [0;0;0;3;400;8872;33145;39668;15538;2259;110;4;1;0;0;0;0;0;0;0], [0;0;0;4;344;8289;32225;40328;16336;2364;109;1;0;0;0;0;0;0;0;0], [0;0;0;1;242;6457;28748;41301;19577;3472;199;3;0;0;0;0;0;0;0;0]);
(2865, [0;0;0;0;332;8434;32780;39866;16110;2365;111;2;0;0;0;0;0;0;0;0], [0;0;0;3;337;8118;31934;40587;16431;2464;124;2;0;0;0;0;0;0;0;0], [0;0;0;1;216;6218;28496;41159;20065;3603;237;5;0;0;0;0;0;0;0;0]);
(2870, [0;0;0;0;367;8370;32218;40269;16220;2432;123;1;0;0;0;0;0;0;0;0], [0;0;0;2;319;7774;31649;40609;16930;2593;117;7;0;0;0;0;0;0;0;0], [0;0;0;0;222;5923;27685;41516;20576;3849;224;5;0;0;0;0;0;0;0;0]);
(2875, [0;0;0;2;320;7906;31827;40569;16739;2525;111;1;0;0;0;0;0;0;0;0], [0;0;0;0;321;7548;31547;40433;17386;2620;143;2;0;0;0;0;0;0;0;0], [0;0;0;0;185;5788;27716;41509;20815;3715;267;5;0;0;0;0;0;0;0;0]);
(2880, [0;0;0;2;317;7757;31483;40785;16964;2578;114;0;0;0;0;0;0;0;0;0], [0;0;0;0;316;7565;30959;40655;17568;2798;137;2;0;0;0;0;0;0;0;0], [0;0;0;1;191;5771;27270;41581;20911;4013;252;10;0;0;0;0;0;0;0;0]);
(2885, [0;0;0;1;287;7590;31323;40452;17523;2669;154;1;0;0;0;0;0;0;0;0], [0;0;0;0;279;7282;30528;40750;18167;2839;150;5;0;0;0;0;0;0;0;0], [0;0;0;0;160;5522;27015;41513;21446;4064;274;6;0;0;0;0;0;0;0;0]);
(2890, [0;0;0;5;304;7408;30891;40869;17619;2734;168;2;0;0;0;0;0;0;0;0], [0;0;0;1;295;7167;30159;41005;18247;2949;175;2;0;0;0;0;0;0;0;0], [0;0;0;0;181;5391;26651;41695;21577;4191;305;9;0;0;0;0;0;0;0;0]);
(2895, [0;0;0;0;261;7143;30659;40963;17983;2846;143;2;0;0;0;0;0;0;0;0], [0;0;0;1;257;6813;30092;41408;18246;3006;173;4;0;0;0;0;0;0;0;0], [0;0;0;1;151;5137;26127;41820;22080;4347;320;17;0;0;0;0;0;0;0;0]);
(2900, [0;0;0;1;242;6952;30286;40838;18442;3062;172;4;1;0;0;0;0;0;0;0], [0;0;0;0;236;6687;29619;41448;18698;3116;194;2;0;0;0;0;0;0;0;0], [0;0;0;1;153;5079;25656;41621;22661;4477;345;7;0;0;0;0;0;0;0;0]);
(2905, [0;0;0;1;242;6800;30137;41119;18561;2971;166;3;0;0;0;0;0;0;0;0], [0;0;0;0;240;6639;28918;41488;19199;3314;200;2;0;0;0;0;0;0;0;0], [0;0;0;0;130;4840;25507;41969;22529;4663;356;6;0;0;0;0;0;0;0;0]);
(2910, [0;0;0;0;218;6667;29579;41182;19024;3162;167;1;0;0;0;0;0;0;0;0], [0;0;0;0;187;6271;28922;41482;19550;3383;203;2;0;0;0;0;0;0;0;0], [0;0;0;0;147;4797;25285;41488;23140;4752;383;8;0;0;0;0;0;0;0;0]);
(2915, [0;0;0;0;217;6505;29045;41475;19344;3234;178;2;0;0;0;0;0;0;0;0], [0;0;0;1;211;6212;28730;41263;19799;3578;200;5;1;0;0;0;0;0;0;0], [0;0;0;0;119;4747;24660;41613;23428;5050;371;12;0;0;0;0;0;0;0;0]);
(2920, [0;0;0;0;222;6468;28940;41145;19722;3304;195;4;0;0;0;0;0;0;0;0], [0;0;0;2;191;6027;28054;41315;20524;3649;233;5;0;0;0;0;0;0;0;0], [0;0;0;2;109;4597;24358;41603;23766;5159;392;13;1;0;0;0;0;0;0;0]);
(2925, [0;0;0;0;191;6060;28655;41153;20152;3594;191;4;0;0;0;0;0;0;0;0], [0;0;0;0;186;5869;27790;41570;20684;3650;247;4;0;0;0;0;0;0;0;0], [0;0;0;0;116;4437;23722;41567;24384;5349;418;7;0;0;0;0;0;0;0;0]);
(2930, [0;0;0;0;193;5944;27894;41641;20442;3673;207;6;0;0;0;0;0;0;0;0], [0;0;0;0;191;5581;27388;41591;21167;3821;258;3;0;0;0;0;0;0;0;0], [0;0;0;0;106;4274;23611;41542;24520;5496;441;10;0;0;0;0;0;0;0;0]);
(2935, [0;0;0;0;178;5832;27727;41628;20689;3703;235;8;0;0;0;0;0;0;0;0], [0;0;0;0;146;5494;27125;41726;21269;3993;245;2;0;0;0;0;0;0;0;0], [0;0;0;1;107;4167;23366;41358;24883;5641;463;14;0;0;0;0;0;0;0;0]);
(2940, [0;0;0;2;168;5636;27227;41911;20935;3866;248;7;0;0;0;0;0;0;0;0], [0;0;0;0;137;5405;26719;41766;21683;4043;246;1;0;0;0;0;0;0;0;0], [0;0;0;0;86;4116;22833;41484;25241;5699;530;11;0;0;0;0;0;0;0;0]);
(2945, [0;0;0;0;158;5391;26850;41875;21454;4014;254;4;0;0;0;0;0;0;0;0], [0;0;0;0;145;5183;26628;41588;21788;4379;278;11;0;0;0;0;0;0;0;0], [0;0;0;1;73;3943;22425;41551;25526;5917;545;19;0;0;0;0;0;0;0;0]);
(2950, [0;0;0;0;136;5426;26521;41944;21510;4206;249;8;0;0;0;0;0;0;0;0], [0;0;0;0;126;5055;26162;41842;22119;4397;289;9;1;0;0;0;0;0;0;0], [0;0;0;1;83;3803;22084;41389;25913;6173;534;20;0;0;0;0;0;0;0;0]);
(2955, [0;0;0;0;154;5298;26316;41605;22082;4228;307;10;0;0;0;0;0;0;0;0], [0;0;0;0;126;4946;25710;41718;22678;4520;291;11;0;0;0;0;0;0;0;0], [0;0;0;1;86;3656;21991;41267;26139;6334;507;18;1;0;0;0;0;0;0;0]);
(2960, [0;0;0;1;131;5055;25861;41776;22499;4387;284;6;0;0;0;0;0;0;0;0], [0;0;0;0;124;4734;25335;41905;23042;4530;326;4;0;0;0;0;0;0;0;0], [0;0;0;0;64;3540;21639;41065;26788;6281;605;18;0;0;0;0;0;0;0;0]);
(2965, [0;0;0;1;130;5023;25505;41637;22716;4631;349;8;0;0;0;0;0;0;0;0], [0;0;0;0;112;4559;24953;41962;23262;4786;356;10;0;0;0;0;0;0;0;0], [0;0;0;0;74;3446;21136;41018;27040;6602;662;22;0;0;0;0;0;0;0;0]);
(2970, [0;0;0;0;103;4904;25117;41703;23261;4575;330;6;1;0;0;0;0;0;0;0], [0;0;0;0;104;4564;24482;41988;23650;4820;387;5;0;0;0;0;0;0;0;0], [0;0;0;0;55;3408;20742;40960;27257;6883;670;24;1;0;0;0;0;0;0;0]);
(2975, [0;0;0;0;120;4637;24801;41976;23146;4915;396;9;0;0;0;0;0;0;0;0], [0;0;0;1;101;4375;24102;41719;24137;5140;413;12;0;0;0;0;0;0;0;0], [0;0;0;0;57;3289;20586;40900;27392;7108;639;29;0;0;0;0;0;0;0;0]);
(2980, [0;0;0;0;94;4607;24657;41735;23693;4872;333;9;0;0;0;0;0;0;0;0], [0;0;0;0;85;4277;23921;41637;24428;5205;435;12;0;0;0;0;0;0;0;0], [0;0;0;0;50;3032;20305;40622;27979;7273;715;24;0;0;0;0;0;0;0;0]);
(2985, [0;0;0;0;117;4385;24356;41595;23987;5166;381;13;0;0;0;0;0;0;0;0], [0;0;0;0;101;4122;23607;41611;24849;5266;431;13;0;0;0;0;0;0;0;0], [0;0;0;1;65;3019;19852;40647;28303;7300;786;27;0;0;0;0;0;0;0;0]);
(2990, [0;0;0;0;97;4247;23992;41617;24387;5242;407;11;0;0;0;0;0;0;0;0], [0;0;0;0;75;4124;22914;41937;25059;5453;423;15;0;0;0;0;0;0;0;0], [0;0;0;0;58;2922;19664;40423;28453;7666;786;28;0;0;0;0;0;0;0;0]);
(2995, [0;0;0;0;76;4096;23434;41583;24985;5397;420;9;0;0;0;0;0;0;0;0], [0;0;0;0;85;3933;22849;41229;25549;5852;485;18;0;0;0;0;0;0;0;0], [0;0;0;0;41;2755;19245;40110;29311;7737;770;31;0;0;0;0;0;0;0;0]);
(3000, [0;0;0;0;89;3893;23109;41546;25310;5617;418;18;0;0;0;0;0;0;0;0], [0;0;0;0;88;3761;22469;41175;25968;6029;500;10;0;0;0;0;0;0;0;0], [0;0;0;0;35;2756;18829;40280;29358;7890;819;33;0;0;0;0;0;0;0;0]);
(3005, [0;0;0;0;93;3840;22840;41393;25571;5764;485;14;0;0;0;0;0;0;0;0], [0;0;0;0;86;3662;22160;41589;25882;6099;506;16;0;0;0;0;0;0;0;0], [0;0;0;0;39;2793;18722;39903;29441;8201;869;32;0;0;0;0;0;0;0;0]);
(3010, [0;0;0;0;74;3692;22385;41451;25911;5979;494;14;0;0;0;0;0;0;0;0], [0;0;0;1;75;3475;21746;41293;26551;6282;566;11;0;0;0;0;0;0;0;0], [0;0;0;0;37;2591;18496;39538;29835;8529;936;37;1;0;0;0;0;0;0;0]);
(3015, [0;0;0;0;60;3692;22139;41070;26378;6117;526;17;1;0;0;0;0;0;0;0], [0;0;0;0;64;3479;21475;41388;26747;6262;573;12;0;0;0;0;0;0;0;0], [0;0;0;0;38;2558;17971;39974;29815;8626;986;31;1;0;0;0;0;0;0;0]);
(3020, [0;0;0;0;80;3572;21984;41366;26186;6304;495;13;0;0;0;0;0;0;0;0], [0;0;0;0;57;3334;21178;41061;27171;6598;585;15;1;0;0;0;0;0;0;0], [0;0;0;0;34;2356;17666;39292;30739;8851;1013;47;2;0;0;0;0;0;0;0]);
(3025, [0;0;0;0;61;3458;21262;41248;26999;6384;563;25;0;0;0;0;0;0;0;0], [0;0;0;1;57;3297;20675;41014;27616;6671;653;16;0;0;0;0;0;0;0;0], [0;0;0;0;31;2291;17392;39443;30802;8974;1032;35;0;0;0;0;0;0;0;0]);
(3030, [0;0;0;0;50;3437;21064;41068;27272;6532;561;16;0;0;0;0;0;0;0;0], [0;0;0;1;49;3226;20489;40619;27898;7036;653;28;1;0;0;0;0;0;0;0], [0;0;0;0;34;2219;17191;38915;31250;9293;1046;49;3;0;0;0;0;0;0;0]);
(3035, [0;0;0;0;75;3252;20775;40716;27750;6771;635;26;0;0;0;0;0;0;0;0], [0;0;0;0;55;3053;20152;40759;28104;7162;702;13;0;0;0;0;0;0;0;0], [0;0;0;0;32;2267;16527;39040;31382;9524;1163;65;0;0;0;0;0;0;0;0]);
(3040, [0;0;0;0;47;3247;20309;40793;27827;7119;641;17;0;0;0;0;0;0;0;0], [0;0;0;0;48;2887;19765;41050;28323;7236;665;26;0;0;0;0;0;0;0;0], [0;0;0;0;26;2119;16504;38590;31610;9873;1220;58;0;0;0;0;0;0;0;0]);
(3045, [0;0;0;0;60;3107;19828;40733;28337;7263;652;20;0;0;0;0;0;0;0;0], [0;0;0;0;58;2940;19301;40582;28817;7543;736;23;0;0;0;0;0;0;0;0], [0;0;0;0;30;2010;16116;38497;32010;10026;1240;70;1;0;0;0;0;0;0;0]);
(3050, [0;0;0;0;45;2968;19874;40814;28331;7281;663;24;0;0;0;0;0;0;0;0], [0;0;0;0;40;2707;19181;40279;29260;7719;784;30;0;0;0;0;0;0;0;0], [0;0;0;0;21;1949;15773;38315;32454;10152;1281;54;1;0;0;0;0;0;0;0]);
(3055, [0;0;0;0;49;2836;19335;40405;28941;7659;747;28;0;0;0;0;0;0;0;0], [0;0;0;0;50;2576;18839;40248;29536;7911;815;24;1;0;0;0;0;0;0;0], [0;0;0;0;25;1976;15733;38128;32544;10225;1313;55;1;0;0;0;0;0;0;0]);
(3060, [0;0;0;0;51;2731;19317;40098;29307;7692;774;30;0;0;0;0;0;0;0;0], [0;0;0;1;40;2556;18668;39855;29685;8272;887;36;0;0;0;0;0;0;0;0], [0;0;0;0;18;1842;15304;37866;32732;10839;1342;57;0;0;0;0;0;0;0;0]);
(3065, [0;0;0;0;44;2741;18732;40207;29464;7973;816;21;2;0;0;0;0;0;0;0], [0;0;0;0;38;2562;18270;39769;30017;8374;935;35;0;0;0;0;0;0;0;0], [0;0;0;0;20;1761;14778;37760;33293;10823;1499;66;0;0;0;0;0;0;0;0]);
(3070, [0;0;0;0;44;2571;18357;39988;30032;8107;870;31;0;0;0;0;0;0;0;0], [0;0;0;0;41;2444;18062;39576;30290;8621;927;39;0;0;0;0;0;0;0;0], [0;0;0;0;15;1651;14681;37168;33575;11295;1538;76;1;0;0;0;0;0;0;0]);
(3075, [0;0;0;0;25;2532;18273;39872;30094;8306;864;34;0;0;0;0;0;0;0;0], [0;0;0;0;36;2320;17710;39358;30756;8796;981;41;2;0;0;0;0;0;0;0], [0;0;0;0;25;1616;14314;37194;33820;11377;1572;80;2;0;0;0;0;0;0;0]);
(3080, [0;0;0;0;36;2429;17901;39608;30445;8579;962;40;0;0;0;0;0;0;0;0], [0;0;0;0;30;2357;17016;39577;31056;8963;960;41;0;0;0;0;0;0;0;0], [0;0;0;0;15;1596;14143;36778;33885;11815;1673;94;1;0;0;0;0;0;0;0]);
(3085, [0;0;0;0;28;2380;17360;39600;30740;8836;1012;44;0;0;0;0;0;0;0;0], [0;0;0;0;28;2235;17329;38816;31334;9147;1053;58;0;0;0;0;0;0;0;0], [0;0;0;0;18;1548;13873;36625;34130;12039;1667;99;1;0;0;0;0;0;0;0]);
(3090, [0;0;0;0;27;2217;17260;39182;31216;9043;1011;44;0;0;0;0;0;0;0;0], [0;0;0;0;30;2170;16643;38953;31462;9633;1059;50;0;0;0;0;0;0;0;0], [0;0;0;0;13;1444;13383;36467;34478;12354;1774;86;1;0;0;0;0;0;0;0]);
(3095, [0;0;0;0;26;2202;17083;39083;31333;9219;1013;41;0;0;0;0;0;0;0;0], [0;0;0;0;27;2052;16592;38471;31832;9895;1084;44;3;0;0;0;0;0;0;0], [0;0;0;0;13;1437;13364;36177;34533;12557;1793;122;4;0;0;0;0;0;0;0]);
(3100, [0;0;0;0;22;2092;16625;38777;31805;9580;1059;40;0;0;0;0;0;0;0;0], [0;0;0;0;23;1952;16132;38319;32366;9917;1231;59;1;0;0;0;0;0;0;0], [0;0;0;0;16;1363;12869;36147;34753;12863;1870;118;1;0;0;0;0;0;0;0]);
(3105, [0;0;0;0;22;2053;16457;38817;31872;9572;1160;46;0;1;0;0;0;0;0;0], [0;0;0;0;19;2022;15565;38302;32740;10006;1279;65;2;0;0;0;0;0;0;0], [0;0;0;0;14;1372;12715;35620;35118;13078;1954;125;4;0;0;0;0;0;0;0])].
Definition pair_data_6 : list data_row := [
(3110, [0;0;0;0;17;2039;15996;38619;32130;9940;1211;47;1;0;0;0;0;0;0;0], [0;0;0;0;23;1788;15471;38227;32789;10252;1395;55;0;0;0;0;0;0;0;0], [0;0;0;0;7;1301;12484;35080;35552;13436;2033;102;5;0;0;0;0;0;0;0]);
(3115, [0;0;0;0;30;1948;15887;38203;32562;10091;1227;52;0;0;0;0;0;0;0;0], [0;0;0;1;17;1798;15305;37916;32998;10516;1395;54;0;0;0;0;0;0;0;0], [0;0;0;0;9;1212;12419;35100;35536;13544;2049;127;4;0;0;0;0;0;0;0]);
(3120, [0;0;0;0;20;1817;15424;38033;32939;10448;1269;48;2;0;0;0;0;0;0;0], [0;0;0;0;22;1769;14825;37619;33368;10948;1371;77;1;0;0;0;0;0;0;0], [0;0;0;0;8;1154;11998;34792;35720;14025;2157;145;1;0;0;0;0;0;0;0]);
(3125, [0;0;0;0;18;1786;15205;37667;33304;10626;1329;65;0;0;0;0;0;0;0;0], [0;0;0;0;14;1716;14909;37350;33339;11151;1448;68;5;0;0;0;0;0;0;0], [0;0;0;0;14;1154;11867;34295;36109;14233;2211;116;1;0;0;0;0;0;0;0]);
(3130, [0;0;0;0;12;1688;14897;37570;33447;10860;1459;67;0;0;0;0;0;0;0;0], [0;0;0;0;17;1561;14467;37300;33821;11306;1459;69;0;0;0;0;0;0;0;0], [0;0;0;0;10;1115;11466;34131;36194;14627;2340;113;4;0;0;0;0;0;0;0]);
(3135, [0;0;0;0;15;1643;14812;37004;33718;11299;1434;73;2;0;0;0;0;0;0;0], [0;0;0;0;18;1583;13972;36685;34534;11589;1545;73;1;0;0;0;0;0;0;0], [0;0;0;0;7;1090;11314;33778;36621;14651;2394;142;3;0;0;0;0;0;0;0]);
(3140, [0;0;0;0;11;1646;14301;37329;33834;11373;1447;58;1;0;0;0;0;0;0;0], [0;0;0;0;17;1555;13691;36542;34705;11830;1577;83;0;0;0;0;0;0;0;0], [0;0;0;0;5;960;11083;33531;36839;14863;2555;156;8;0;0;0;0;0;0;0]);
(3145, [0;0;0;0;13;1478;13912;37312;34226;11441;1527;89;2;0;0;0;0;0;0;0], [0;0;0;0;21;1472;13428;36405;34511;12317;1764;79;2;1;0;0;0;0;0;0], [0;0;0;0;6;974;10773;33367;36974;15285;2445;167;9;0;0;0;0;0;0;0]);
(3150, [0;0;0;0;18;1472;13846;36481;34502;11993;1602;86;0;0;0;0;0;0;0;0], [0;0;0;0;16;1417;13444;36082;34864;12334;1759;81;3;0;0;0;0;0;0;0], [0;0;0;0;3;907;10498;33207;36939;15590;2670;182;4;0;0;0;0;0;0;0]);
(3155, [0;0;0;0;8;1421;13542;36480;34659;12120;1669;101;0;0;0;0;0;0;0;0], [0;0;0;0;12;1363;13024;36045;34817;12818;1824;96;1;0;0;0;0;0;0;0], [0;0;0;0;5;919;10194;32808;37118;16044;2734;174;4;0;0;0;0;0;0;0]);
(3160, [0;0;0;0;8;1378;13297;36087;34938;12460;1748;79;5;0;0;0;0;0;0;0], [0;0;0;0;9;1320;12770;35763;35442;12796;1810;86;4;0;0;0;0;0;0;0], [0;0;0;0;3;846;10203;32344;37346;16239;2819;196;4;0;0;0;0;0;0;0]);
(3165, [0;0;0;0;19;1329;12934;35948;35158;12749;1779;82;1;1;0;0;0;0;0;0], [0;0;0;0;10;1233;12526;35608;35491;13128;1906;97;1;0;0;0;0;0;0;0], [0;0;0;0;4;798;9951;31928;37547;16622;2915;227;8;0;0;0;0;0;0;0]);
(3170, [0;0;0;0;10;1260;12762;35479;35661;12928;1818;80;2;0;0;0;0;0;0;0], [0;0;0;0;7;1144;12161;35106;35943;13493;2027;119;0;0;0;0;0;0;0;0], [0;0;0;0;10;824;9638;31716;37756;16703;3124;222;7;0;0;0;0;0;0;0]);
(3175, [0;0;0;0;12;1203;12388;35375;35741;13207;1971;103;0;0;0;0;0;0;0;0], [0;0;0;0;5;1109;12045;35044;35960;13649;2073;114;1;0;0;0;0;0;0;0], [0;0;0;0;9;765;9428;31653;37713;17144;3059;225;4;0;0;0;0;0;0;0]);
(3180, [0;0;0;0;5;1143;12161;34966;36209;13370;2029;114;3;0;0;0;0;0;0;0], [0;0;0;0;8;1103;11858;34409;36322;13984;2186;125;5;0;0;0;0;0;0;0], [0;0;0;0;6;761;9161;31327;38033;17190;3271;245;6;0;0;0;0;0;0;0]);
(3185, [0;0;0;0;5;1100;11865;34553;36473;13788;2094;121;1;0;0;0;0;0;0;0], [0;0;0;0;12;1028;11261;34506;36628;14207;2230;125;3;0;0;0;0;0;0;0], [0;0;0;0;3;770;8998;30618;38059;17849;3440;254;9;0;0;0;0;0;0;0]);
(3190, [0;0;0;0;5;1059;11831;34754;36079;13933;2228;107;4;0;0;0;0;0;0;0], [0;0;0;0;12;1002;11303;33699;36986;14526;2326;144;2;0;0;0;0;0;0;0], [0;0;0;0;11;652;8740;30595;38152;18031;3561;252;6;0;0;0;0;0;0;0]);
(3195, [0;0;0;0;8;1109;11474;34115;36619;14355;2208;110;2;0;0;0;0;0;0;0], [0;0;0;0;5;979;11167;33587;37073;14723;2318;143;5;0;0;0;0;0;0;0], [0;0;0;0;2;639;8498;30149;38463;18341;3613;290;5;0;0;0;0;0;0;0]);
(3200, [0;0;0;0;4;1041;11245;33883;36867;14479;2330;145;6;0;0;0;0;0;0;0], [0;0;0;0;8;1014;10877;33418;36928;15142;2440;164;9;0;0;0;0;0;0;0], [0;0;0;0;3;627;8277;29909;38366;18756;3753;298;11;0;0;0;0;0;0;0]);
(3205, [0;0;0;0;9;1001;10871;33944;36745;14830;2453;147;0;0;0;0;0;0;0;0], [0;0;0;0;4;884;10618;33295;37086;15448;2507;155;3;0;0;0;0;0;0;0], [0;0;0;0;1;611;8292;29583;38364;19026;3806;309;8;0;0;0;0;0;0;0]);
(3210, [0;0;0;0;7;943;10771;33378;37299;14921;2511;165;5;0;0;0;0;0;0;0], [0;0;0;0;3;866;10467;32771;37191;15873;2657;170;2;0;0;0;0;0;0;0], [0;0;0;0;6;600;8013;28925;38824;19264;4035;326;7;0;0;0;0;0;0;0]);
(3215, [0;0;0;0;7;905;10569;32950;37404;15449;2551;160;5;0;0;0;0;0;0;0], [0;0;0;0;9;845;10260;32269;37582;16118;2758;157;2;0;0;0;0;0;0;0], [0;0;0;0;2;588;7787;28832;39084;19299;4081;317;10;0;0;0;0;0;0;0]);
(3220, [0;0;0;0;8;858;10320;32657;37609;15708;2658;176;6;0;0;0;0;0;0;0], [0;0;0;0;4;800;9748;32115;37934;16407;2810;178;4;0;0;0;0;0;0;0], [0;0;0;0;1;539;7668;28529;38949;19731;4204;360;19;0;0;0;0;0;0;0]);
(3225, [0;0;0;0;5;774;10137;32615;37543;15962;2783;179;2;0;0;0;0;0;0;0], [0;0;0;0;5;788;9603;32086;37704;16650;2943;216;5;0;0;0;0;0;0;0], [0;0;0;0;1;536;7392;28374;38987;20160;4201;338;11;0;0;0;0;0;0;0]);
(3230, [0;0;0;0;5;800;9967;32293;37742;16234;2756;201;2;0;0;0;0;0;0;0], [0;0;0;0;3;743;9518;31740;37774;16996;3015;205;6;0;0;0;0;0;0;0], [0;0;0;0;5;497;7303;27875;38960;20513;4459;375;13;0;0;0;0;0;0;0]);
(3235, [0;0;0;0;3;799;9896;31781;37887;16483;2941;206;4;0;0;0;0;0;0;0], [0;0;0;0;3;701;9415;31228;37926;17364;3165;188;10;0;0;0;0;0;0;0], [0;0;0;0;2;440;7006;27473;39008;21033;4585;439;14;0;0;0;0;0;0;0]);
(3240, [0;0;0;0;4;732;9555;31540;37913;17072;2973;203;8;0;0;0;0;0;0;0], [0;0;0;0;6;663;8922;31192;38437;17410;3159;206;5;0;0;0;0;0;0;0], [0;0;0;0;3;413;6847;27174;39159;21242;4746;406;9;1;0;0;0;0;0;0]);
(3245, [0;0;0;0;7;731;9129;31618;37976;17244;3084;207;4;0;0;0;0;0;0;0], [0;0;0;0;2;670;8935;30699;38420;17638;3377;255;4;0;0;0;0;0;0;0], [0;0;0;0;0;396;6839;27118;38948;21579;4696;409;15;0;0;0;0;0;0;0]);
(3250, [0;0;0;0;5;667;8920;31044;38537;17387;3203;230;7;0;0;0;0;0;0;0], [0;0;0;0;6;612;8544;30409;38700;17937;3529;259;4;0;0;0;0;0;0;0], [0;0;0;0;0;414;6631;26873;39060;21580;4996;433;12;1;0;0;0;0;0;0]);
(3255, [0;0;0;0;4;636;8790;30677;38486;17924;3243;232;8;0;0;0;0;0;0;0], [0;0;0;0;4;596;8476;30276;38501;18267;3607;267;6;0;0;0;0;0;0;0], [0;0;0;0;4;396;6370;26311;39430;21815;5167;487;20;0;0;0;0;0;0;0]);
(3260, [0;0;0;0;5;666;8620;30621;38321;18088;3404;265;10;0;0;0;0;0;0;0], [0;0;0;0;2;606;8317;29898;38621;18613;3647;291;5;0;0;0;0;0;0;0], [0;0;0;0;3;383;6258;26061;38969;22385;5387;540;13;1;0;0;0;0;0;0]);
(3265, [0;0;0;0;1;578;8391;30492;38315;18393;3564;263;3;0;0;0;0;0;0;0], [0;0;0;0;2;585;7977;29337;38917;19092;3790;291;9;0;0;0;0;0;0;0], [0;0;0;0;0;365;6094;25657;39280;22578;5471;535;20;0;0;0;0;0;0;0]);
(3270, [0;0;0;0;2;570;8367;29839;38419;18860;3652;278;13;0;0;0;0;0;0;0], [0;0;0;1;1;534;7790;29108;39100;19258;3897;299;12;0;0;0;0;0;0;0], [0;0;0;0;1;335;6053;25187;39275;23057;5517;556;19;0;0;0;0;0;0;0]);
(3275, [0;0;0;0;2;580;7955;29474;38629;19205;3838;308;9;0;0;0;0;0;0;0], [0;0;0;0;2;531;7788;28833;38897;19536;4069;331;13;0;0;0;0;0;0;0], [0;0;0;0;0;308;5766;24953;39187;23398;5771;589;28;0;0;0;0;0;0;0]);
(3280, [0;0;0;0;3;484;7927;29272;38971;19238;3783;313;9;0;0;0;0;0;0;0], [0;0;0;0;3;480;7420;28440;39221;19971;4123;334;8;0;0;0;0;0;0;0], [0;0;0;0;1;343;5581;24620;39271;23657;5895;595;36;1;0;0;0;0;0;0]);
(3285, [0;0;0;0;3;480;7784;28917;38853;19592;4010;353;8;0;0;0;0;0;0;0], [0;0;0;0;4;463;7243;28239;38974;20460;4271;338;8;0;0;0;0;0;0;0], [0;0;0;0;0;265;5547;24463;39249;23936;5866;646;26;2;0;0;0;0;0;0]);
(3290, [0;0;0;0;0;447;7365;28437;39401;19912;4086;340;12;0;0;0;0;0;0;0], [0;0;0;0;0;427;7070;27751;39467;20483;4392;397;13;0;0;0;0;0;0;0], [0;0;0;0;1;250;5364;24391;39021;23984;6304;651;34;0;0;0;0;0;0;0]);
(3295, [0;0;0;0;2;456;7434;28167;39200;20096;4288;349;8;0;0;0;0;0;0;0], [0;0;0;0;3;425;7021;27328;39434;20905;4492;381;10;1;0;0;0;0;0;0], [0;0;0;0;1;281;5179;23866;39217;24293;6455;680;28;0;0;0;0;0;0;0]);
(3300, [0;0;0;0;1;412;7259;27844;39307;20408;4363;396;10;0;0;0;0;0;0;0], [0;0;0;0;3;434;6709;27229;39396;21146;4662;410;11;0;0;0;0;0;0;0], [0;0;0;0;1;244;5025;23508;39171;24928;6386;696;40;1;0;0;0;0;0;0]);
(3305, [0;0;0;0;0;430;6975;27505;39421;20757;4525;377;10;0;0;0;0;0;0;0], [0;0;0;0;0;378;6722;26772;39207;21563;4892;454;12;0;0;0;0;0;0;0], [0;0;0;0;2;219;4992;22935;39028;25327;6758;701;38;0;0;0;0;0;0;0]);
(3310, [0;0;0;0;1;397;6855;27188;39415;21109;4638;378;18;1;0;0;0;0;0;0], [0;0;0;0;1;353;6534;26487;39266;21891;4981;471;16;0;0;0;0;0;0;0], [0;0;0;0;0;213;4834;22866;39125;25392;6774;774;22;0;0;0;0;0;0;0]);
(3315, [0;0;0;0;2;381;6619;27119;39008;21703;4742;416;10;0;0;0;0;0;0;0], [0;0;0;0;1;352;6292;26443;39359;22052;5025;464;12;0;0;0;0;0;0;0], [0;0;0;0;0;223;4706;22481;38959;25646;7143;803;36;3;0;0;0;0;0;0]);
(3320, [0;0;0;0;4;341;6460;26602;39599;21630;4932;413;19;0;0;0;0;0;0;0], [0;0;0;0;1;333;6111;25916;39466;22358;5271;522;22;0;0;0;0;0;0;0], [0;0;0;0;1;189;4605;22168;38829;26125;7171;861;50;1;0;0;0;0;0;0]);
(3325, [0;0;0;0;2;342;6258;26123;39537;22242;5002;477;17;0;0;0;0;0;0;0], [0;0;0;0;2;313;5846;25628;39379;22962;5372;481;17;0;0;0;0;0;0;0], [0;0;0;0;1;214;4448;21866;38898;26180;7456;891;46;0;0;0;0;0;0;0]);
(3330, [0;0;0;0;2;319;6254;26228;38972;22460;5267;483;15;0;0;0;0;0;0;0], [0;0;0;0;0;305;5994;25193;39461;23084;5376;563;23;1;0;0;0;0;0;0], [0;0;0;0;0;177;4405;21350;38815;26676;7610;908;58;1;0;0;0;0;0;0]);
(3335, [0;0;0;0;0;339;6036;25679;39192;23061;5192;486;15;0;0;0;0;0;0;0], [0;0;0;0;1;300;5703;24951;39456;23447;5598;523;21;0;0;0;0;0;0;0], [0;0;0;0;2;183;4181;21182;38696;26829;7859;1020;47;1;0;0;0;0;0;0]);
(3340, [0;0;0;0;1;298;5909;25288;39604;22842;5543;493;21;1;0;0;0;0;0;0], [0;0;0;0;1;265;5632;24949;39085;23690;5808;557;13;0;0;0;0;0;0;0], [0;0;0;0;0;145;4004;20952;38547;27360;7960;987;44;1;0;0;0;0;0;0]);
(3345, [0;0;0;0;2;278;5657;24995;39465;23363;5650;569;21;0;0;0;0;0;0;0], [0;0;0;0;0;269;5405;24524;39348;23804;6004;621;24;1;0;0;0;0;0;0], [0;0;0;0;0;133;4110;20537;38308;27596;8228;1035;52;1;0;0;0;0;0;0]);
(3350, [0;0;0;0;2;288;5614;24714;39404;23697;5671;587;23;0;0;0;0;0;0;0], [0;0;0;0;1;266;5283;24167;39194;24374;6052;639;24;0;0;0;0;0;0;0], [0;0;0;0;0;172;3896;19982;38464;28057;8338;1038;52;1;0;0;0;0;0;0]);
(3355, [0;0;0;0;1;268;5414;24382;39393;23980;5910;633;18;1;0;0;0;0;0;0], [0;0;0;0;1;208;5100;23765;39086;24835;6326;655;22;2;0;0;0;0;0;0], [0;0;0;0;0;155;3855;19747;38206;28040;8765;1180;52;0;0;0;0;0;0;0]);
(3360, [0;0;0;0;2;237;5399;24200;39078;24349;6116;602;17;0;0;0;0;0;0;0], [0;0;0;0;3;236;5050;23382;39325;24897;6400;670;37;0;0;0;0;0;0;0], [0;0;0;0;0;131;3651;19919;38020;28436;8614;1163;65;1;0;0;0;0;0;0]);
(3365, [0;0;0;0;2;257;5185;23397;39339;24809;6344;638;28;1;0;0;0;0;0;0], [0;0;0;0;0;207;4916;23089;39186;25253;6534;780;35;0;0;0;0;0;0;0], [0;0;0;0;1;119;3532;19498;38006;28650;8919;1205;68;2;0;0;0;0;0;0]);
(3370, [0;0;0;0;1;211;4977;23387;39189;25009;6471;721;34;0;0;0;0;0;0;0], [0;0;0;0;1;214;4720;22922;39088;25402;6890;728;35;0;0;0;0;0;0;0], [0;0;0;0;0;111;3436;18997;37726;29026;9364;1275;64;1;0;0;0;0;0;0]);
(3375, [0;0;0;0;2;226;5020;23030;39199;25307;6500;688;28;0;0;0;0;0;0;0], [0;0;0;0;0;202;4565;22638;38887;25996;6884;799;29;0;0;0;0;0;0;0], [0;0;0;0;1;134;3285;18679;37830;29312;9400;1292;67;0;0;0;0;0;0;0]);
(3380, [0;0;0;0;2;213;4701;22843;38698;25912;6853;750;28;0;0;0;0;0;0;0], [0;0;0;0;0;181;4457;22377;38918;25999;7179;856;33;0;0;0;0;0;0;0], [0;0;0;0;0;99;3256;18727;37420;29347;9675;1381;93;2;0;0;0;0;0;0]);
(3385, [0;0;0;0;0;187;4575;22347;39126;25979;6980;767;38;1;0;0;0;0;0;0], [0;0;0;0;3;162;4318;21702;38936;26651;7317;887;24;0;0;0;0;0;0;0], [0;0;0;0;0;100;3183;18186;37289;29931;9817;1414;80;0;0;0;0;0;0;0]);
(3390, [0;0;0;0;1;185;4445;22493;38972;26039;6999;833;31;2;0;0;0;0;0;0], [0;0;0;0;0;185;4241;21882;38710;26461;7603;874;43;1;0;0;0;0;0;0], [0;0;0;0;1;123;3161;17688;37247;30126;10191;1378;82;3;0;0;0;0;0;0]);
(3395, [0;0;0;0;0;167;4400;22051;38888;26415;7239;809;31;0;0;0;0;0;0;0], [0;0;0;0;0;164;4107;21225;38839;27030;7692;900;41;2;0;0;0;0;0;0], [0;0;0;0;0;114;2980;17859;37156;30225;10096;1471;97;2;0;0;0;0;0;0]);
(3400, [0;0;0;0;0;161;4302;21606;38792;26802;7429;876;31;1;0;0;0;0;0;0], [0;0;0;0;0;146;4056;21055;38569;27286;7916;929;42;1;0;0;0;0;0;0], [0;0;0;0;0;78;2924;17343;36835;30724;10485;1506;102;3;0;0;0;0;0;0]);
(3405, [0;0;0;0;0;151;4134;21203;38878;27029;7589;977;39;0;0;0;0;0;0;0], [0;0;0;0;0;133;3865;20942;38379;27450;8134;1048;49;0;0;0;0;0;0;0], [0;0;0;0;1;84;2820;17068;36717;30897;10732;1578;99;4;0;0;0;0;0;0]);
(3410, [0;0;0;0;0;149;4111;20784;38619;27414;7957;924;42;0;0;0;0;0;0;0], [0;0;0;0;0;129;3696;20432;38417;27962;8269;1042;52;1;0;0;0;0;0;0], [0;0;0;0;0;85;2710;16938;36617;30992;10894;1654;105;5;0;0;0;0;0;0]);
(3415, [0;0;0;0;0;140;3905;20735;38659;27786;7756;970;49;0;0;0;0;0;0;0], [0;0;0;0;0;136;3595;20171;38271;28191;8550;1037;48;1;0;0;0;0;0;0], [0;0;0;0;0;102;2654;16650;36332;31206;11137;1785;132;2;0;0;0;0;0;0]);
(3420, [0;0;0;0;3;136;3790;20719;38232;27886;8211;975;47;1;0;0;0;0;0;0], [0;0;0;0;0;130;3644;19976;38013;28490;8518;1173;55;1;0;0;0;0;0;0], [0;0;0;0;0;71;2583;16155;36297;31642;11318;1819;111;4;0;0;0;0;0;0]);
(3425, [0;0;0;0;1;135;3710;20172;38492;28096;8392;954;48;0;0;0;0;0;0;0], [0;0;0;0;0;132;3657;19379;38038;28820;8730;1180;61;2;1;0;0;0;0;0], [0;0;0;0;0;76;2522;15960;36208;31784;11480;1852;115;3;0;0;0;0;0;0]);
(3430, [0;0;0;0;0;134;3573;19762;38219;28594;8621;1032;64;1;0;0;0;0;0;0], [0;0;0;0;0;119;3404;19179;37949;29293;8846;1145;63;2;0;0;0;0;0;0], [0;0;0;0;0;52;2442;15688;35746;31971;12045;1933;121;2;0;0;0;0;0;0]);
(3435, [0;0;0;0;0;126;3446;19265;37882;29168;8924;1126;63;0;0;0;0;0;0;0], [0;0;0;0;1;96;3334;18739;37754;29260;9510;1230;74;2;0;0;0;0;0;0], [0;0;0;0;1;61;2376;15394;35762;32154;12131;1982;136;3;0;0;0;0;0;0]);
(3440, [0;0;0;0;0;128;3413;19111;37803;29170;9083;1228;64;0;0;0;0;0;0;0], [0;0;0;0;1;106;3314;18362;37728;29582;9544;1287;74;2;0;0;0;0;0;0], [0;0;0;0;0;66;2222;15114;35346;32761;12299;2060;131;1;0;0;0;0;0;0]);
(3445, [0;0;0;0;0;117;3254;19104;37931;29168;9144;1206;75;1;0;0;0;0;0;0], [0;0;0;0;0;75;3059;18178;37774;29814;9684;1335;77;4;0;0;0;0;0;0], [0;0;0;0;1;51;2236;14945;35278;32488;12658;2186;155;1;1;0;0;0;0;0]);
(3450, [0;0;0;0;0;111;3134;18581;37879;29428;9536;1254;77;0;0;0;0;0;0;0], [0;0;0;0;0;107;3064;17839;37449;30208;9915;1346;72;0;0;0;0;0;0;0], [0;0;0;0;0;47;2152;14383;34985;33182;12924;2157;167;3;0;0;0;0;0;0]);
(3455, [0;0;0;0;0;92;3112;18182;37520;30001;9699;1310;81;3;0;0;0;0;0;0], [0;0;0;0;0;93;2918;17789;36944;30605;10138;1439;73;1;0;0;0;0;0;0], [0;0;0;0;0;46;2159;14406;34665;33183;13142;2232;163;4;0;0;0;0;0;0]);
(3460, [0;0;0;0;0;91;3095;17768;37517;30159;9922;1377;70;1;0;0;0;0;0;0], [0;0;0;0;0;85;2831;17451;36971;30864;10238;1471;87;2;0;0;0;0;0;0], [0;0;0;0;0;48;2007;14069;34610;33422;13387;2271;181;5;0;0;0;0;0;0]);
(3465, [0;0;0;0;0;84;2987;17604;36995;30645;10192;1415;78;0;0;0;0;0;0;0], [0;0;0;0;0;80;2840;17313;36873;30714;10573;1522;85;0;0;0;0;0;0;0], [0;0;0;0;0;52;1935;13804;34267;33609;13733;2406;187;7;0;0;0;0;0;0]);
(3470, [0;0;0;0;0;95;2809;17342;36796;30994;10359;1513;88;4;0;0;0;0;0;0], [0;0;0;0;1;87;2756;16786;36644;31287;10733;1607;95;4;0;0;0;0;0;0], [0;0;0;0;0;44;1832;13674;34064;33982;13729;2482;189;4;0;0;0;0;0;0]);
(3475, [0;0;0;0;0;74;2699;17353;36681;30908;10652;1544;87;2;0;0;0;0;0;0], [0;0;0;0;0;81;2631;16479;36329;31717;11038;1624;101;0;0;0;0;0;0;0], [0;0;0;0;0;50;1863;13341;33775;34090;14038;2625;212;6;0;0;0;0;0;0]);
(3480, [0;0;0;0;0;83;2630;16979;36663;31270;10729;1543;103;0;0;0;0;0;0;0], [0;0;0;0;1;57;2496;16304;36500;31526;11299;1699;113;5;0;0;0;0;0;0], [0;0;0;0;0;31;1800;13081;33429;34289;14409;2741;212;8;0;0;0;0;0;0]);
(3485, [0;0;0;0;0;84;2537;16637;36698;31497;10822;1626;96;3;0;0;0;0;0;0], [0;0;0;0;0;59;2460;16129;36288;31698;11499;1771;95;1;0;0;0;0;0;0], [0;0;0;0;0;44;1737;12865;33218;34372;14697;2843;217;7;0;0;0;0;0;0]);
(3490, [0;0;0;0;0;60;2506;16280;36411;31624;11282;1735;97;5;0;0;0;0;0;0], [0;0;0;0;0;60;2515;15612;36014;32176;11643;1847;130;3;0;0;0;0;0;0], [0;0;0;0;0;56;1679;12746;32938;34545;14963;2828;240;5;0;0;0;0;0;0]);
(3495, [0;0;0;0;0;64;2489;16005;35950;32110;11469;1798;112;3;0;0;0;0;0;0], [0;0;0;0;0;58;2292;15458;35696;32705;11797;1868;124;2;0;0;0;0;0;0], [0;0;0;0;0;35;1591;12278;32982;34712;15200;2962;229;11;0;0;0;0;0;0]);
(3500, [0;0;0;0;0;76;2376;15968;35944;32016;11611;1890;113;6;0;0;0;0;0;0], [0;0;0;0;1;61;2242;15013;35621;32637;12267;2007;147;4;0;0;0;0;0;0], [0;0;0;0;0;29;1634;12056;32667;34731;15609;2986;279;9;0;0;0;0;0;0]);
(3505, [0;0;0;0;0;48;2246;15596;35594;32508;11976;1881;146;5;0;0;0;0;0;0], [0;0;0;0;0;48;2138;14951;35695;32538;12423;2095;108;4;0;0;0;0;0;0], [0;0;0;0;0;26;1442;11972;32066;35399;15793;3014;278;10;0;0;0;0;0;0]);
(3510, [0;0;0;0;1;46;2281;15028;35560;32759;12261;1931;132;1;0;0;0;0;0;0], [0;0;0;0;0;41;2131;14692;34959;33081;12825;2100;163;8;0;0;0;0;0;0], [0;0;0;0;0;21;1499;11727;32171;34948;16098;3260;266;10;0;0;0;0;0;0]);
(3515, [0;0;0;0;1;53;2250;15102;35161;32872;12465;1954;138;4;0;0;0;0;0;0], [0;0;0;0;1;32;2006;14460;35022;33314;12864;2143;154;4;0;0;0;0;0;0], [0;0;0;0;0;29;1409;11399;31822;35454;16296;3311;270;10;0;0;0;0;0;0]);
(3520, [0;0;0;0;0;52;2143;14709;35013;33217;12662;2053;148;3;0;0;0;0;0;0], [0;0;0;0;0;35;2017;14194;34569;33590;13262;2183;148;2;0;0;0;0;0;0], [0;0;0;0;0;23;1355;11053;31453;35835;16579;3374;315;13;0;0;0;0;0;0]);
(3525, [0;0;0;0;0;35;2031;14500;34735;33369;12905;2267;153;5;0;0;0;0;0;0], [0;0;0;0;0;31;1920;13890;34275;34006;13390;2330;155;3;0;0;0;0;0;0], [0;0;0;0;0;29;1325;10914;31383;35541;16928;3542;323;15;0;0;0;0;0;0]);
(3530, [0;0;0;0;0;44;2022;14167;34616;33726;13071;2192;159;3;0;0;0;0;0;0], [0;0;0;0;0;37;1885;13460;34265;33967;13844;2380;154;8;0;0;0;0;0;0], [0;0;0;0;0;22;1219;10771;30985;35866;17267;3538;324;8;0;0;0;0;0;0]);
(3535, [0;0;0;0;0;41;1828;13931;34418;33890;13449;2293;147;3;0;0;0;0;0;0], [0;0;0;0;0;34;1814;13469;33892;34174;13966;2476;166;9;0;0;0;0;0;0], [0;0;0;0;0;15;1236;10320;30685;36093;17512;3804;318;16;1;0;0;0;0;0]);
(3540, [0;0;0;0;0;41;1896;13763;34079;34142;13507;2391;178;3;0;0;0;0;0;0], [0;0;0;0;0;42;1776;13233;33589;34355;14203;2594;198;9;1;0;0;0;0;0], [0;0;0;0;0;25;1168;10356;30649;36138;17517;3768;362;17;0;0;0;0;0;0]);
(3545, [0;0;0;0;0;37;1802;13487;34177;33874;13923;2501;195;4;0;0;0;0;0;0], [0;0;0;0;1;27;1624;12993;33613;34578;14269;2665;223;7;0;0;0;0;0;0], [0;0;0;0;0;22;1152;10162;30066;36215;17944;4055;368;16;0;0;0;0;0;0]);
(3550, [0;0;0;0;0;26;1716;13348;33997;34243;13909;2550;203;8;0;0;0;0;0;0], [0;0;0;0;0;28;1604;12471;33226;34637;15087;2718;220;9;0;0;0;0;0;0], [0;0;0;0;1;21;1161;9756;29984;36244;18378;4016;416;23;0;0;0;0;0;0]);
(3555, [0;0;0;0;0;34;1669;12995;33572;34490;14412;2592;231;5;0;0;0;0;0;0], [0;0;0;0;0;38;1503;12385;33162;34963;14833;2875;231;10;0;0;0;0;0;0], [0;0;0;0;0;19;1068;9687;29989;36344;18296;4145;437;15;0;0;0;0;0;0]);
(3560, [0;0;0;0;0;33;1614;12791;33449;34578;14618;2710;201;6;0;0;0;0;0;0], [0;0;0;0;0;29;1506;12173;32551;35135;15489;2865;244;8;0;0;0;0;0;0], [0;0;0;0;0;11;1043;9396;29384;36369;18962;4406;408;20;1;0;0;0;0;0]);
(3565, [0;0;0;0;0;32;1628;12315;33292;34713;15066;2749;201;4;0;0;0;0;0;0], [0;0;0;0;0;18;1517;12148;32453;35030;15525;3027;271;11;0;0;0;0;0;0], [0;0;0;0;0;15;1002;9233;29173;36559;19072;4457;470;19;0;0;0;0;0;0]);
(3570, [0;0;0;0;0;28;1501;12244;33009;34791;15299;2889;233;6;0;0;0;0;0;0], [0;0;0;0;0;24;1415;11852;32593;35116;15687;3015;291;7;0;0;0;0;0;0], [0;0;0;0;0;6;902;9178;29049;36422;19433;4532;450;28;0;0;0;0;0;0]);
(3575, [0;0;0;0;0;25;1470;12020;32658;35182;15581;2824;229;11;0;0;0;0;0;0], [0;0;0;0;0;25;1393;11650;31995;35486;15909;3281;256;5;0;0;0;0;0;0], [0;0;0;0;0;15;891;8981;28656;36786;19589;4584;477;21;0;0;0;0;0;0]);
(3580, [0;0;0;0;0;30;1433;12050;32074;35338;15833;2967;263;11;1;0;0;0;0;0], [0;0;0;0;0;25;1360;11199;31916;35583;16431;3197;281;8;0;0;0;0;0;0], [0;0;0;0;0;9;960;8536;28382;36867;19933;4793;489;31;0;0;0;0;0;0]);
(3585, [0;0;0;0;0;30;1332;11581;32171;35590;15801;3222;267;6;0;0;0;0;0;0], [0;0;0;0;0;30;1292;11201;31528;35799;16393;3435;309;13;0;0;0;0;0;0], [0;0;0;0;0;11;839;8676;27880;36835;20190;5042;494;33;0;0;0;0;0;0]);
(3590, [0;0;0;0;1;17;1366;11350;31998;35636;16089;3252;280;11;0;0;0;0;0;0], [0;0;0;0;0;17;1192;10925;31574;35782;16718;3475;304;13;0;0;0;0;0;0], [0;0;0;0;0;6;831;8379;27730;36910;20468;5083;567;26;0;0;0;0;0;0]);
(3595, [0;0;0;0;0;14;1332;11129;31702;35886;16280;3355;293;9;0;0;0;0;0;0], [0;0;0;0;0;17;1220;10478;31416;35868;17138;3548;305;10;0;0;0;0;0;0], [0;0;0;0;0;10;816;8110;27587;36894;20579;5388;585;31;0;0;0;0;0;0]);
(3600, [0;0;0;0;0;19;1247;10752;31323;35852;17107;3385;306;9;0;0;0;0;0;0], [0;0;0;0;0;26;1176;10555;30635;36180;17389;3688;337;14;0;0;0;0;0;0], [0;0;0;0;1;12;781;8022;27317;37084;20869;5297;592;25;0;0;0;0;0;0]);
(3605, [0;0;0;0;0;28;1233;10715;30910;36026;17207;3546;324;10;1;0;0;0;0;0], [0;0;0;0;0;19;1077;10228;30691;36345;17480;3805;342;13;0;0;0;0;0;0], [0;0;0;0;0;9;748;7874;26889;36973;21319;5533;624;31;0;0;0;0;0;0])].
Definition pair_data_7 : list data_row := [
(3610, [0;0;0;0;0;15;1147;10515;30608;36073;17612;3675;349;6;0;0;0;0;0;0], [0;0;0;0;0;17;1122;9958;30150;36563;17886;3901;388;15;0;0;0;0;0;0], [0;0;0;0;0;11;717;7757;26336;37348;21591;5601;600;39;0;0;0;0;0;0]);
(3615, [0;0;0;0;1;15;1147;10337;30345;36421;17598;3772;351;13;0;0;0;0;0;0], [0;0;0;0;0;13;1119;9757;29793;36643;18173;4124;359;18;1;0;0;0;0;0], [0;0;0;0;0;10;705;7462;26284;37308;21773;5752;661;44;1;0;0;0;0;0]);
(3620, [0;0;0;0;0;18;1104;10120;30550;36356;17730;3745;361;15;1;0;0;0;0;0], [0;0;0;0;0;16;1007;9602;29721;36363;18700;4168;406;17;0;0;0;0;0;0], [0;0;0;0;0;5;643;7472;26143;37034;21981;5990;697;34;1;0;0;0;0;0]);
(3625, [0;0;0;0;0;11;1067;9799;30119;36599;18221;3811;362;11;0;0;0;0;0;0], [0;0;0;0;1;15;956;9547;29576;36426;18853;4188;411;27;0;0;0;0;0;0], [0;0;0;0;0;6;666;7150;25637;37068;22478;6209;741;44;1;0;0;0;0;0]);
(3630, [0;0;0;0;0;17;1001;9727;30045;36391;18409;3999;392;19;0;0;0;0;0;0], [0;0;0;0;0;18;941;9203;29305;36764;18968;4340;448;12;1;0;0;0;0;0], [0;0;0;0;0;8;634;6988;25453;37275;22581;6242;785;34;0;0;0;0;0;0]);
(3635, [0;0;0;0;0;21;962;9388;29568;36649;18870;4113;413;16;0;0;0;0;0;0], [0;0;0;0;0;8;898;9126;28841;36839;19497;4344;430;15;2;0;0;0;0;0], [0;0;0;0;0;6;627;6813;25111;37463;22752;6414;769;44;1;0;0;0;0;0]);
(3640, [0;0;0;0;0;14;927;9150;29100;36750;19363;4232;443;21;0;0;0;0;0;0], [0;0;0;0;0;13;896;8722;28763;36962;19418;4713;496;17;0;0;0;0;0;0], [0;0;0;0;0;3;627;6634;24991;37112;23260;6477;851;44;1;0;0;0;0;0]);
(3645, [0;0;0;0;0;12;937;9277;29120;36502;19381;4308;445;18;0;0;0;0;0;0], [0;0;0;0;0;8;837;8545;28561;37088;19846;4611;488;16;0;0;0;0;0;0], [0;0;0;0;0;2;581;6475;24484;37362;23479;6665;906;45;1;0;0;0;0;0]);
(3650, [0;0;0;0;0;9;857;8836;28931;36810;19493;4580;459;24;1;0;0;0;0;0], [0;0;0;0;0;9;824;8603;28136;36749;20391;4761;506;20;1;0;0;0;0;0], [0;0;0;0;0;6;541;6204;24206;37423;23772;6907;888;53;0;0;0;0;0;0]);
(3655, [0;0;0;0;0;10;838;8713;28414;37255;19667;4605;474;24;0;0;0;0;0;0], [0;0;0;0;0;11;830;8247;27946;36873;20424;5083;559;25;2;0;0;0;0;0], [0;0;0;0;0;3;464;6221;23831;37139;24350;7021;933;37;1;0;0;0;0;0]);
(3660, [0;0;0;0;0;6;822;8704;27675;37203;20283;4786;501;20;0;0;0;0;0;0], [0;0;0;0;0;10;744;8101;27736;36909;20760;5149;564;24;3;0;0;0;0;0], [0;0;0;0;0;4;526;6087;23750;37255;24096;7218;1012;51;1;0;0;0;0;0]);
(3665, [0;0;0;0;0;14;822;8320;27764;37080;20500;4950;506;44;0;0;0;0;0;0], [0;0;0;0;0;9;687;8019;26983;37159;21202;5319;591;31;0;0;0;0;0;0], [0;0;0;0;0;4;476;5931;23128;37337;24875;7216;981;49;3;0;0;0;0;0]);
(3670, [0;0;0;0;0;7;711;8135;27637;37197;20619;5071;596;27;0;0;0;0;0;0], [0;0;0;0;0;6;693;7779;26923;37048;21479;5401;641;30;0;0;0;0;0;0], [0;0;0;0;0;3;446;5817;22975;37163;25068;7530;938;58;2;0;0;0;0;0]);
(3675, [0;0;0;0;0;9;724;8041;27298;37050;21141;5123;584;29;1;0;0;0;0;0], [0;0;0;0;0;8;670;7683;26764;37172;21597;5444;630;30;2;0;0;0;0;0], [0;0;0;0;0;1;446;5589;22911;37066;25151;7680;1086;69;1;0;0;0;0;0]);
(3680, [0;0;0;0;0;4;698;7844;26926;37139;21490;5276;597;25;1;0;0;0;0;0], [0;0;0;0;0;4;649;7324;26352;37312;22018;5670;644;27;0;0;0;0;0;0], [0;0;0;0;0;3;416;5372;22698;37112;25395;7748;1176;77;3;0;0;0;0;0]);
(3685, [0;0;0;0;0;9;655;7568;26764;37322;21615;5434;594;37;2;0;0;0;0;0], [0;0;0;0;0;5;622;7248;26014;37338;22283;5816;636;38;0;0;0;0;0;0], [0;0;0;0;0;4;392;5292;22433;36847;25719;8076;1154;80;3;0;0;0;0;0]);
(3690, [0;0;0;0;0;6;634;7644;26525;37224;21761;5522;658;26;0;0;0;0;0;0], [0;0;0;0;0;6;586;7132;25987;37041;22441;6041;716;48;2;0;0;0;0;0], [0;0;0;0;0;3;368;5342;21946;36774;25998;8287;1219;62;1;0;0;0;0;0]);
(3695, [0;0;0;0;0;6;656;7388;26019;37416;22064;5787;628;35;1;0;0;0;0;0], [0;0;0;0;0;11;562;7026;25483;37242;22969;5948;708;49;2;0;0;0;0;0], [0;0;0;0;0;0;337;5158;21647;36792;26500;8220;1270;74;2;0;0;0;0;0]);
(3700, [0;0;0;0;0;8;584;7183;25858;37458;22348;5838;686;36;1;0;0;0;0;0], [0;0;0;0;0;6;562;6684;25307;37540;23009;6098;747;46;1;0;0;0;0;0], [0;0;0;0;0;3;335;5127;21528;36429;26609;8596;1277;90;6;0;0;0;0;0]);
(3705, [0;0;0;0;0;4;622;6873;25476;37517;22826;5943;696;40;3;0;0;0;0;0], [0;0;0;0;0;4;502;6588;24940;37295;23450;6458;719;43;1;0;0;0;0;0], [0;0;0;0;0;3;307;4860;20995;36792;26792;8801;1364;82;4;0;0;0;0;0]);
(3710, [0;0;0;0;0;6;567;6775;25494;37197;23011;6161;742;47;0;0;0;0;0;0], [0;0;0;0;0;6;543;6559;24409;37329;23641;6656;818;39;0;0;0;0;0;0], [0;0;0;0;0;1;289;4865;20842;36523;26981;9006;1402;90;1;0;0;0;0;0]);
(3715, [0;0;0;0;0;9;567;6526;24980;37475;23393;6246;767;37;0;0;0;0;0;0], [0;0;0;0;0;2;504;6291;24258;37411;23995;6624;867;48;0;0;0;0;0;0], [0;0;0;0;0;3;284;4594;20780;36515;27240;9117;1356;105;6;0;0;0;0;0]);
(3720, [0;0;0;0;0;4;553;6491;24752;37190;23493;6645;827;42;3;0;0;0;0;0], [0;0;0;0;0;5;481;6254;24246;37140;24043;6891;889;50;1;0;0;0;0;0], [0;0;0;0;0;2;303;4623;20150;36445;27480;9472;1392;131;2;0;0;0;0;0]);
(3725, [0;0;0;0;0;7;521;6293;24378;37503;23670;6683;884;61;0;0;0;0;0;0], [0;0;0;0;0;3;471;6158;23818;37304;24131;7137;914;60;4;0;0;0;0;0], [0;0;0;0;0;1;277;4364;20090;36063;27993;9545;1530;135;2;0;0;0;0;0]);
(3730, [0;0;0;0;0;6;479;6249;24267;37341;23953;6798;861;46;0;0;0;0;0;0], [0;0;0;0;0;3;421;5917;23696;37074;24730;7176;940;42;1;0;0;0;0;0], [0;0;0;0;0;2;273;4294;19623;36517;27961;9597;1607;124;2;0;0;0;0;0]);
(3735, [0;0;0;0;0;5;423;6041;24199;37261;24054;6999;970;46;2;0;0;0;0;0], [0;0;0;0;0;6;428;5650;23435;37445;24643;7348;966;78;1;0;0;0;0;0], [0;0;0;0;0;4;251;4090;19541;36230;28082;9967;1708;122;5;0;0;0;0;0]);
(3740, [0;0;0;0;0;6;432;6011;23721;37272;24476;7103;925;54;0;0;0;0;0;0], [0;0;0;0;0;0;406;5652;22897;37349;25024;7549;1053;68;2;0;0;0;0;0], [0;0;0;0;0;3;258;4045;19238;35848;28647;10182;1677;96;6;0;0;0;0;0]);
(3745, [0;0;0;0;0;9;417;5783;22920;37321;25204;7276;1007;61;2;0;0;0;0;0], [0;0;0;0;0;2;397;5596;22560;37120;25578;7681;1008;57;1;0;0;0;0;0], [0;0;0;0;0;3;227;3983;19019;35673;28734;10457;1764;139;1;0;0;0;0;0]);
(3750, [0;0;0;0;0;6;447;5662;23045;37113;25292;7364;1016;54;1;0;0;0;0;0], [0;0;0;0;0;5;391;5312;22536;37039;25599;7897;1133;86;2;0;0;0;0;0], [0;0;0;0;0;2;225;3819;18671;35766;29183;10443;1750;135;6;0;0;0;0;0]);
(3755, [0;0;0;0;0;2;427;5473;22665;37096;25608;7501;1169;56;3;0;0;0;0;0], [0;0;0;0;0;2;324;5228;22116;37202;25790;8104;1169;64;1;0;0;0;0;0], [0;0;0;0;0;1;227;3721;18262;35763;29033;10940;1899;149;5;0;0;0;0;0]);
(3760, [0;0;0;0;0;5;397;5395;22532;36842;25887;7741;1137;60;4;0;0;0;0;0], [0;0;0;0;0;5;352;5153;21731;37072;26294;8153;1162;75;3;0;0;0;0;0], [0;0;0;0;0;1;219;3671;17993;35261;29673;11116;1918;145;3;0;0;0;0;0]);
(3765, [0;0;0;0;0;3;354;5331;22067;37001;26116;7941;1121;64;2;0;0;0;0;0], [0;0;0;0;0;2;333;5017;21759;36557;26584;8459;1215;74;0;0;0;0;0;0], [0;0;0;0;0;1;201;3531;17866;35223;29716;11297;2019;145;1;0;0;0;0;0]);
(3770, [0;0;0;0;0;1;330;5099;21974;36640;26549;8165;1153;89;0;0;0;0;0;0], [0;0;0;0;0;2;297;4891;21116;37101;26632;8534;1346;80;1;0;0;0;0;0], [0;0;0;0;0;2;201;3487;17501;34829;30245;11499;2074;154;8;0;0;0;0;0]);
(3775, [0;0;0;0;0;3;328;5023;21612;36679;26529;8549;1189;85;3;0;0;0;0;0], [0;0;0;0;0;0;316;4677;20961;36688;27028;8963;1293;72;2;0;0;0;0;0], [0;0;0;0;0;2;176;3383;17165;35014;30380;11559;2133;183;5;0;0;0;0;0]);
(3780, [0;0;0;0;0;2;307;4980;21301;37002;26582;8467;1258;99;2;0;0;0;0;0], [0;0;0;0;0;5;301;4630;20608;36640;27385;8963;1381;85;2;0;0;0;0;0], [0;0;0;0;0;1;204;3337;16862;34789;30423;12012;2188;179;5;0;0;0;0;0]);
(3785, [0;0;0;0;0;1;303;4852;20982;36735;26914;8795;1336;78;4;0;0;0;0;0], [0;0;0;0;0;2;270;4539;20435;36476;27630;9141;1412;94;1;0;0;0;0;0], [0;0;0;0;0;1;162;3250;16820;34734;30639;11910;2265;213;6;0;0;0;0;0]);
(3790, [0;0;0;0;0;1;275;4759;20785;36553;27391;8768;1376;84;8;0;0;0;0;0], [0;0;0;0;0;1;256;4471;20011;36443;27845;9432;1434;104;3;0;0;0;0;0], [0;0;0;0;0;0;147;3101;16555;34549;30760;12371;2323;187;7;0;0;0;0;0]);
(3795, [0;0;0;0;0;4;291;4377;20575;36660;27629;8973;1391;96;4;0;0;0;0;0], [0;0;0;0;0;2;275;4276;20009;36136;28241;9510;1445;103;3;0;0;0;0;0], [0;0;0;0;0;2;180;2981;16186;34326;31116;12557;2440;206;6;0;0;0;0;0]);
(3800, [0;0;0;0;0;1;268;4369;20172;36382;27982;9229;1511;83;3;0;0;0;0;0], [0;0;0;0;0;1;228;4264;19411;36161;28472;9771;1568;122;2;0;0;0;0;0], [0;0;0;0;0;0;147;2936;16079;34112;31135;12913;2464;207;7;0;0;0;0;0]);
(3805, [0;0;0;0;0;3;275;4353;20107;36278;27895;9482;1486;119;2;0;0;0;0;0], [0;0;0;0;0;0;229;3979;19378;36225;28415;10042;1602;127;3;0;0;0;0;0], [0;0;0;0;0;0;131;2812;15732;33925;31469;13155;2499;263;14;0;0;0;0;0]);
(3810, [0;0;0;0;0;1;232;4279;19563;36223;28300;9731;1566;101;4;0;0;0;0;0], [0;0;0;0;0;1;207;4001;19042;36117;28718;10172;1624;117;1;0;0;0;0;0], [0;0;0;0;0;0;157;2852;15588;33776;31571;13181;2632;227;15;1;0;0;0;0]);
(3815, [0;0;0;0;0;2;205;4124;19208;36302;28662;9799;1575;116;7;0;0;0;0;0], [0;0;0;0;0;1;220;3852;18912;35791;29074;10303;1717;130;0;0;0;0;0;0], [0;0;0;0;0;1;121;2750;15207;33462;31897;13611;2669;270;12;0;0;0;0;0]);
(3820, [0;0;0;0;0;1;214;3949;19196;35871;28848;10164;1637;117;3;0;0;0;0;0], [0;0;0;0;0;0;219;3810;18403;35830;29249;10592;1765;127;5;0;0;0;0;0], [0;0;0;0;0;0;121;2617;14985;33258;32223;13839;2693;251;13;0;0;0;0;0]);
(3825, [0;0;0;0;0;2;198;3844;19150;35861;28829;10301;1674;139;2;0;0;0;0;0], [0;0;0;0;0;4;189;3792;18111;35604;29497;10865;1793;142;3;0;0;0;0;0], [0;0;0;0;0;1;124;2547;14734;33210;32229;14026;2855;264;10;0;0;0;0;0]);
(3830, [0;0;0;0;0;4;210;3763;18827;35551;29014;10760;1714;150;7;0;0;0;0;0], [0;0;0;0;0;1;195;3628;18053;35183;29780;11138;1882;136;4;0;0;0;0;0], [0;0;0;0;0;0;90;2422;14634;33037;32470;14076;3002;258;10;1;0;0;0;0]);
(3835, [0;0;0;0;0;0;193;3692;18396;35761;29323;10750;1750;129;6;0;0;0;0;0], [0;0;0;0;0;1;171;3481;17903;35195;30022;11122;1960;139;6;0;0;0;0;0], [0;0;0;0;0;0;93;2499;14112;32741;32800;14431;3020;290;13;1;0;0;0;0]);
(3840, [0;0;0;0;0;1;173;3583;17957;35667;29588;11039;1867;121;4;0;0;0;0;0], [0;0;0;0;0;2;167;3455;17365;35032;30262;11577;1989;142;9;0;0;0;0;0], [0;0;0;0;0;0;99;2378;13866;32543;32869;14639;3292;300;13;1;0;0;0;0]);
(3845, [0;0;0;0;0;4;189;3451;17705;35411;30130;11057;1904;142;7;0;0;0;0;0], [0;0;0;0;0;2;164;3358;17329;34942;30313;11624;2092;172;4;0;0;0;0;0], [0;0;0;0;0;0;85;2298;13875;32435;33088;14772;3143;292;12;0;0;0;0;0]);
(3850, [0;0;0;0;0;2;188;3421;17593;35111;30155;11379;1997;151;3;0;0;0;0;0], [0;0;0;0;0;0;144;3197;16855;34812;30663;12042;2128;157;2;0;0;0;0;0], [0;0;0;0;0;0;87;2266;13664;32417;32868;15175;3160;352;11;0;0;0;0;0]);
(3855, [0;0;0;0;0;2;158;3399;17231;35213;30331;11452;2044;161;9;0;0;0;0;0], [0;0;0;0;0;2;160;3188;16610;34564;31033;12066;2201;169;7;0;0;0;0;0], [0;0;0;0;0;0;86;2064;13427;32149;33001;15490;3404;358;20;1;0;0;0;0]);
(3860, [0;0;0;0;0;0;146;3178;16884;34982;30639;11884;2116;167;4;0;0;0;0;0], [0;0;0;0;0;2;116;3009;16718;34341;31012;12282;2302;210;8;0;0;0;0;0], [0;0;0;0;0;1;66;2147;13031;31836;33312;15636;3580;373;17;1;0;0;0;0]);
(3865, [0;0;0;0;0;1;142;3229;16585;34829;30822;12013;2208;162;9;0;0;0;0;0], [0;0;0;0;0;1;127;3007;16154;34192;31408;12588;2344;173;6;0;0;0;0;0], [0;0;0;0;0;0;71;2015;12788;31874;33254;16094;3554;335;15;0;0;0;0;0]);
(3870, [0;0;0;0;0;2;150;3071;16624;34456;31026;12287;2188;194;2;0;0;0;0;0], [0;0;0;0;0;0;117;2826;16053;34164;31419;12681;2511;223;5;1;0;0;0;0], [0;0;0;0;0;0;83;2010;12626;31140;34004;16097;3653;364;23;0;0;0;0;0]);
(3875, [0;0;0;0;0;1;125;3018;16403;34343;31129;12499;2287;190;4;0;1;0;0;0], [0;0;0;0;0;0;110;2818;15689;33957;31776;12914;2515;209;11;1;0;0;0;0], [0;0;0;0;0;1;80;1972;12502;31204;33831;16202;3789;398;21;0;0;0;0;0]);
(3880, [0;0;0;0;0;0;110;2876;16079;34312;31474;12564;2396;187;2;0;0;0;0;0], [0;0;0;0;0;1;107;2719;15378;33921;31877;13176;2587;222;12;0;0;0;0;0], [0;0;0;0;0;0;66;1907;12136;30769;34125;16643;3929;406;18;1;0;0;0;0]);
(3885, [0;0;0;0;0;0;108;2827;15807;34325;31507;12810;2400;209;7;0;0;0;0;0], [0;0;0;0;0;1;99;2685;15080;33899;31915;13503;2562;247;9;0;0;0;0;0], [0;0;0;0;0;1;62;1737;12044;30605;33902;17087;4071;471;20;0;0;0;0;0]);
(3890, [0;0;0;0;0;0;118;2782;15359;33876;32093;13033;2520;213;6;0;0;0;0;0], [0;0;0;0;0;2;129;2576;14930;33479;32198;13740;2644;293;8;1;0;0;0;0], [0;0;0;0;0;1;58;1838;11737;30441;34330;17012;4086;472;24;1;0;0;0;0]);
(3895, [0;0;0;0;0;1;112;2661;15315;33576;31832;13586;2670;241;6;0;0;0;0;0], [0;0;0;0;0;0;108;2580;14896;33170;32213;13921;2832;268;12;0;0;0;0;0], [0;0;0;0;0;1;62;1645;11347;30302;34493;17389;4260;474;26;1;0;0;0;0]);
(3900, [0;0;0;0;0;1;122;2608;15168;33448;32193;13556;2664;231;8;1;0;0;0;0], [0;0;0;0;0;1;104;2467;14433;33080;32612;14038;2959;297;9;0;0;0;0;0], [0;0;0;0;0;0;48;1676;11291;29904;34469;17690;4395;500;27;0;0;0;0;0]);
(3905, [0;0;0;0;0;0;100;2572;14663;33530;32215;13889;2742;277;10;2;0;0;0;0], [0;0;0;0;0;0;88;2406;14305;32756;32538;14573;3035;288;11;0;0;0;0;0], [0;0;0;0;0;0;57;1623;11128;29908;34390;17966;4389;509;29;1;0;0;0;0]);
(3910, [0;0;0;0;0;0;98;2458;14652;33024;32579;14036;2874;268;11;0;0;0;0;0], [0;0;0;0;0;0;59;2338;13962;32484;33087;14820;2937;303;10;0;0;0;0;0], [0;0;0;0;0;0;48;1512;10960;29650;34405;18217;4604;584;20;0;0;0;0;0]);
(3915, [0;0;0;0;0;0;95;2427;14369;32579;32849;14378;2975;318;10;0;0;0;0;0], [0;0;0;0;0;0;103;2251;13669;32528;32994;15032;3083;325;15;0;0;0;0;0], [0;0;0;0;0;0;40;1569;10801;29355;34561;18447;4610;587;30;0;0;0;0;0]);
(3920, [0;0;0;0;0;0;106;2361;13898;32588;33051;14562;3117;308;9;0;0;0;0;0], [0;0;0;0;0;0;84;2202;13466;32368;33040;15202;3272;357;8;1;0;0;0;0], [0;0;0;0;0;0;44;1491;10598;28940;34813;18658;4824;593;39;0;0;0;0;0]);
(3925, [0;0;0;0;0;1;72;2306;13946;32167;33303;14837;3037;317;14;0;0;0;0;0], [0;0;0;0;0;0;64;2086;13343;32092;33449;15254;3327;366;19;0;0;0;0;0], [0;0;0;0;0;0;37;1391;10393;28900;34610;19111;4906;612;40;0;0;0;0;0]);
(3930, [0;0;0;0;0;0;76;2223;13598;32640;32857;15037;3233;320;16;0;0;0;0;0], [0;0;0;0;0;0;85;2006;13163;31947;33374;15678;3395;336;16;0;0;0;0;0], [0;0;0;0;0;0;32;1365;10068;28747;34778;19192;5110;671;36;1;0;0;0;0]);
(3935, [0;0;0;0;0;0;86;2090;13332;32114;33456;15236;3330;339;16;1;0;0;0;0], [0;0;0;0;0;0;88;2009;12776;31610;33705;15917;3536;345;14;0;0;0;0;0], [0;0;0;0;0;0;41;1348;10002;28131;34989;19589;5217;651;32;0;0;0;0;0]);
(3940, [0;0;0;0;0;1;85;2092;13095;31693;33686;15614;3366;348;20;0;0;0;0;0], [0;0;0;0;0;0;69;1880;12683;31391;33622;16334;3584;414;22;1;0;0;0;0], [0;0;0;0;0;0;45;1285;9940;28148;34917;19725;5256;655;28;1;0;0;0;0]);
(3945, [0;0;0;0;0;0;74;2033;12726;32164;33297;15751;3583;347;24;1;0;0;0;0], [0;0;0;0;0;1;57;1945;12414;31173;33793;16449;3724;427;17;0;0;0;0;0], [0;0;0;0;0;0;37;1247;9771;27546;34942;20208;5492;717;39;1;0;0;0;0]);
(3950, [0;0;0;0;0;0;64;1938;12725;31155;34040;16177;3522;367;12;0;0;0;0;0], [0;0;0;0;0;1;57;1802;12103;31151;34109;16631;3722;409;15;0;0;0;0;0], [0;0;0;0;0;0;37;1124;9375;27640;35312;20253;5499;714;43;3;0;0;0;0]);
(3955, [0;0;0;0;0;1;59;1931;12536;31120;33930;16396;3622;387;18;0;0;0;0;0], [0;0;0;0;0;0;48;1778;12258;30550;33940;17091;3868;450;16;1;0;0;0;0], [0;0;0;0;0;0;27;1208;9246;27199;35073;20634;5790;772;50;1;0;0;0;0]);
(3960, [0;0;0;0;0;1;57;1838;12326;31162;33930;16382;3883;399;21;1;0;0;0;0], [0;0;0;0;0;0;63;1665;11985;30459;34303;17031;4040;438;15;1;0;0;0;0], [0;0;0;0;0;0;31;1122;9105;27028;35313;20783;5756;797;63;2;0;0;0;0]);
(3965, [0;0;0;0;0;0;70;1812;12045;30956;34144;16639;3895;424;15;0;0;0;0;0], [0;0;0;0;0;0;65;1749;11644;30144;34478;17360;4053;478;29;0;0;0;0;0], [0;0;0;0;0;0;29;1167;8885;26666;35251;21244;5867;842;48;1;0;0;0;0]);
(3970, [0;0;0;0;0;0;52;1668;11832;30584;34330;17061;4002;442;29;0;0;0;0;0], [0;0;0;0;0;0;53;1655;11449;30044;34334;17519;4438;478;28;2;0;0;0;0], [0;0;0;0;0;1;29;1091;8562;26505;35266;21369;6257;867;49;4;0;0;0;0]);
(3975, [0;0;0;0;0;0;49;1695;11865;30284;34318;17152;4133;482;22;0;0;0;0;0], [0;0;0;0;0;0;54;1634;11217;29537;34736;17889;4405;490;38;0;0;0;0;0], [0;0;0;0;0;0;31;1035;8295;26312;35407;21753;6228;887;51;1;0;0;0;0]);
(3980, [0;0;0;0;0;1;48;1548;11545;30086;34518;17532;4222;472;28;0;0;0;0;0], [0;0;0;0;0;0;55;1524;11000;29849;34458;18154;4391;533;36;0;0;0;0;0], [0;0;0;0;0;0;20;990;8401;25972;35165;21980;6471;935;64;2;0;0;0;0]);
(3985, [0;0;0;0;0;0;41;1611;11249;29965;34348;17905;4372;478;30;1;0;0;0;0], [0;0;0;0;0;0;44;1454;10829;29067;34955;18475;4580;564;31;1;0;0;0;0], [0;0;0;0;0;0;30;992;8062;25905;35261;22144;6582;954;69;1;0;0;0;0]);
(3990, [0;0;0;0;0;0;43;1582;10979;29558;34644;18217;4445;505;27;0;0;0;0;0], [0;0;0;0;0;1;49;1380;10592;28985;35079;18626;4670;587;30;1;0;0;0;0], [0;0;0;0;0;0;23;924;8006;25617;35428;22281;6691;954;70;6;0;0;0;0]);
(3995, [0;0;0;0;0;1;40;1545;10933;29616;34699;18039;4527;573;26;1;0;0;0;0], [0;0;0;0;0;0;40;1416;10320;28832;35016;18901;4817;623;35;0;0;0;0;0], [0;0;0;0;0;0;14;847;7864;25251;35451;22487;7013;1000;72;1;0;0;0;0]);
(4000, [0;0;0;0;0;1;34;1491;10607;29374;34635;18631;4629;569;29;0;0;0;0;0], [0;0;0;0;0;0;45;1309;10137;28633;35023;19271;4943;600;38;1;0;0;0;0], [0;0;0;0;0;0;20;914;7695;24762;35485;23101;6953;987;80;3;0;0;0;0]);
(4005, [0;0;0;0;0;0;35;1380;10533;28930;34780;18899;4815;602;26;0;0;0;0;0], [0;0;0;0;0;0;32;1298;9954;28234;35380;19304;5142;620;35;1;0;0;0;0], [0;0;0;0;0;0;10;833;7403;24311;35549;23506;7240;1079;66;3;0;0;0;0]);
(4010, [0;0;0;0;0;1;37;1397;10179;28648;35153;18967;5025;552;41;0;0;0;0;0], [0;0;0;0;0;0;32;1244;9768;28100;35078;19898;5225;619;35;1;0;0;0;0], [0;0;0;0;0;0;13;832;7258;24429;35495;23363;7388;1155;65;2;0;0;0;0]);
(4015, [0;0;0;0;0;0;28;1302;10052;28315;34972;19587;5094;617;31;1;1;0;0;0], [0;0;0;0;0;0;27;1234;9607;27807;35171;20063;5331;728;31;1;0;0;0;0], [0;0;0;0;0;0;16;811;7293;24194;35283;23431;7634;1232;103;3;0;0;0;0]);
(4020, [0;0;0;0;0;1;29;1309;9949;28126;35256;19395;5273;624;36;2;0;0;0;0], [0;0;0;0;0;0;22;1175;9337;27620;35454;20128;5497;716;49;2;0;0;0;0], [0;0;0;0;0;0;20;797;7081;23818;35291;23962;7716;1209;101;5;0;0;0;0]);
(4025, [0;0;0;0;0;0;34;1265;9646;27881;35226;19946;5287;674;41;0;0;0;0;0], [0;0;0;0;0;0;19;1114;9186;27431;35360;20490;5604;759;36;1;0;0;0;0], [0;0;0;0;0;0;18;773;7035;23695;35348;23919;7862;1243;103;4;0;0;0;0]);
(4030, [0;0;0;0;0;0;32;1193;9468;27761;35327;20201;5270;708;40;0;0;0;0;0], [0;0;0;0;0;0;22;1117;8977;26995;35430;20842;5783;788;45;1;0;0;0;0], [0;0;0;0;0;0;14;712;6685;23399;35231;24467;8099;1295;95;3;0;0;0;0]);
(4035, [0;0;0;0;0;0;26;1119;9393;27635;35297;20362;5396;721;47;4;0;0;0;0], [0;0;0;0;0;0;27;1096;8792;26937;35462;21021;5811;809;44;1;0;0;0;0], [0;0;0;0;0;0;12;687;6626;23292;35344;24449;8142;1348;98;2;0;0;0;0]);
(4040, [0;0;0;0;0;0;27;1141;8961;27371;35347;20759;5625;729;38;2;0;0;0;0], [0;0;0;0;0;0;22;1032;8715;26902;35397;21098;5983;797;52;2;0;0;0;0], [0;0;0;0;0;0;13;666;6528;22683;35229;24860;8507;1404;103;7;0;0;0;0]);
(4045, [0;0;0;0;0;0;19;1117;9003;26794;35462;20980;5849;735;39;2;0;0;0;0], [0;0;0;0;0;0;23;1017;8437;26209;35592;21601;6205;869;46;1;0;0;0;0], [0;0;0;0;0;1;19;625;6362;22613;35161;25118;8503;1485;104;9;0;0;0;0]);
(4050, [0;0;0;0;0;0;20;1075;8817;27015;35301;20894;6012;810;54;2;0;0;0;0], [0;0;0;0;0;0;19;1024;8320;26327;35453;21824;6134;844;54;1;0;0;0;0], [0;0;0;0;0;0;14;596;6125;22321;35385;25297;8681;1472;106;3;0;0;0;0]);
(4055, [0;0;0;0;0;0;32;1030;8663;26512;35374;21392;6129;806;59;3;0;0;0;0], [0;0;0;0;0;1;15;939;8036;25888;35612;21962;6535;938;74;0;0;0;0;0], [0;0;0;0;0;0;8;618;6108;22200;34906;25627;8875;1531;121;6;0;0;0;0]);
(4060, [0;0;0;0;0;0;28;1009;8312;25906;35732;21831;6280;853;48;1;0;0;0;0], [0;0;0;0;0;0;24;858;8108;25463;35454;22452;6614;969;56;2;0;0;0;0], [0;0;0;0;0;0;7;577;5876;21962;35108;25640;9118;1570;134;8;0;0;0;0]);
(4065, [0;0;0;0;0;0;19;969;8013;25958;35688;21919;6468;899;63;4;0;0;0;0], [0;0;0;0;0;0;24;870;7876;25141;35614;22726;6794;891;62;2;0;0;0;0], [0;0;0;0;0;0;8;600;5813;21462;35079;25849;9363;1704;113;9;0;0;0;0]);
(4070, [0;0;0;0;0;0;25;995;8020;25578;35809;22093;6570;853;54;3;0;0;0;0], [0;0;0;0;0;0;21;832;7695;25159;35614;22723;6904;985;66;1;0;0;0;0], [0;0;0;0;0;0;12;544;5603;21318;34997;26183;9555;1653;135;0;0;0;0;0]);
(4075, [0;0;0;0;0;0;17;923;7972;25402;35417;22473;6758;978;58;2;0;0;0;0], [0;0;0;0;0;0;17;851;7627;24904;35514;22872;7151;997;66;1;0;0;0;0], [0;0;0;0;0;0;10;503;5564;21300;34790;26284;9621;1784;141;3;0;0;0;0]);
(4080, [0;0;0;0;0;0;19;868;7845;25063;35693;22610;6860;964;76;2;0;0;0;0], [0;0;0;0;0;0;14;800;7342;24470;35726;23291;7167;1109;80;1;0;0;0;0], [0;0;0;0;0;0;10;524;5409;20749;34935;26623;9818;1765;159;8;0;0;0;0]);
(4085, [0;0;0;0;0;0;9;837;7606;25059;35565;22897;6951;1001;73;1;1;0;0;0], [0;0;0;0;0;0;16;771;7086;24467;35733;23470;7276;1095;83;3;0;0;0;0], [0;0;0;0;0;0;10;473;5181;20655;34684;26987;9973;1857;175;5;0;0;0;0]);
(4090, [0;0;0;0;0;0;17;828;7420;24670;35661;23210;7109;1018;62;5;0;0;0;0], [0;0;0;0;0;0;18;723;6967;24209;35396;24106;7382;1120;75;4;0;0;0;0], [0;0;0;0;0;0;4;496;5096;20126;34428;27471;10348;1866;162;3;0;0;0;0]);
(4095, [0;0;0;0;0;0;9;795;7212;24354;35713;23549;7228;1069;68;3;0;0;0;0], [0;0;0;0;0;0;15;695;6932;23750;35567;23941;7814;1209;77;0;0;0;0;0], [0;0;0;0;0;0;5;447;4953;19895;34632;27417;10542;1930;173;6;0;0;0;0]);
(4100, [0;0;0;0;0;0;13;774;7062;24050;35782;23659;7518;1062;79;1;0;0;0;0], [0;0;0;0;0;0;11;706;6775;23592;35259;24446;7894;1211;104;1;1;0;0;0], [0;0;0;0;0;0;2;449;4957;19547;34493;27637;10599;2112;198;6;0;0;0;0]);
(4105, [0;0;0;0;0;0;14;754;7031;23948;35291;23977;7729;1168;87;1;0;0;0;0], [0;0;0;0;0;0;8;686;6549;23217;35657;24482;8048;1264;81;8;0;0;0;0], [0;0;0;0;0;0;6;449;4681;19564;34290;27929;10758;2087;224;12;0;0;0;0])].
Definition pair_data_8 : list data_row := [
(4110, [0;0;0;0;0;0;13;760;6813;23830;35146;24252;7862;1237;84;3;0;0;0;0], [0;0;0;0;0;0;13;613;6434;23083;35449;24753;8207;1336;111;1;0;0;0;0], [0;0;0;0;0;0;8;412;4729;19125;34101;28075;11159;2196;190;5;0;0;0;0]);
(4115, [0;0;0;0;0;0;11;685;6706;23469;35425;24402;7905;1286;108;3;0;0;0;0], [0;0;0;0;0;0;9;637;6249;22841;35455;25043;8347;1305;113;1;0;0;0;0], [0;0;0;0;0;0;6;418;4536;18949;34129;28303;11168;2269;215;7;0;0;0;0]);
(4120, [0;0;0;0;0;0;13;687;6652;22815;35670;24643;8089;1345;86;0;0;0;0;0], [0;0;0;0;0;0;9;612;6208;22675;35199;25153;8561;1464;112;7;0;0;0;0], [0;0;0;0;0;0;7;379;4555;18741;33670;28434;11627;2348;231;8;0;0;0;0]);
(4125, [0;0;0;0;0;0;12;622;6457;22826;35403;24851;8367;1344;113;5;0;0;0;0], [0;0;0;0;0;0;8;581;6186;22175;35321;25213;8922;1468;120;6;0;0;0;0], [0;0;0;0;0;0;1;377;4472;18210;33817;28907;11669;2303;231;11;2;0;0;0]);
(4130, [0;0;0;0;0;0;18;603;6114;22578;35715;25046;8491;1328;100;7;0;0;0;0], [0;0;0;0;0;0;10;556;5941;22165;35199;25683;8832;1485;122;7;0;0;0;0], [0;0;0;0;0;0;5;335;4206;18343;33637;28770;11947;2470;273;14;0;0;0;0]);
(4135, [0;0;0;0;0;1;8;579;6198;22505;35205;25286;8663;1445;104;6;0;0;0;0], [0;0;0;0;0;0;11;581;5756;21600;35241;26048;9023;1619;109;12;0;0;0;0], [0;0;0;0;0;0;7;359;4190;18075;33396;29329;11935;2448;245;16;0;0;0;0]);
(4140, [0;0;0;0;0;0;8;566;6010;21979;35578;25716;8537;1478;124;4;0;0;0;0], [0;0;0;0;0;0;9;562;5745;21299;35242;26158;9278;1569;129;9;0;0;0;0], [0;0;0;0;0;0;2;330;4048;17496;33493;29483;12289;2564;284;11;0;0;0;0]);
(4145, [0;0;0;0;0;0;8;588;5876;21829;35336;25787;8940;1497;132;7;0;0;0;0], [0;0;0;0;0;0;8;552;5573;21075;34636;26793;9626;1601;131;5;0;0;0;0], [0;0;0;0;0;0;3;333;3952;17514;33421;29388;12395;2716;270;8;0;0;0;0]);
(4150, [0;0;0;0;0;0;9;547;5821;21547;35000;26069;9303;1576;127;1;0;0;0;0], [0;0;0;0;0;0;10;450;5442;21019;35034;26576;9629;1687;149;4;0;0;0;0], [0;0;0;0;0;0;5;266;3918;17124;33643;29299;12776;2671;284;13;1;0;0;0]);
(4155, [0;0;0;0;0;0;14;541;5611;21387;35105;26339;9267;1591;140;5;0;0;0;0], [0;0;0;0;0;0;7;455;5370;20525;34929;26946;9871;1750;146;1;0;0;0;0], [0;0;0;0;0;0;7;267;3798;16943;32977;29899;13001;2786;307;14;1;0;0;0]);
(4160, [0;0;0;0;0;0;10;542;5486;20982;34938;26457;9734;1706;139;6;0;0;0;0], [0;0;0;0;0;0;10;465;5173;20411;35077;26932;9900;1845;182;5;0;0;0;0], [0;0;0;0;0;0;5;282;3717;16790;32875;29905;13229;2885;294;18;0;0;0;0]);
(4165, [0;0;0;0;0;0;10;476;5327;20987;34804;26872;9656;1711;152;5;0;0;0;0], [0;0;0;0;0;0;5;475;5080;20102;34793;27395;10149;1820;177;4;0;0;0;0], [0;0;0;0;0;0;5;255;3559;16419;32678;30369;13386;2975;338;16;0;0;0;0]);
(4170, [0;0;0;0;0;0;2;502;5284;20575;34980;26890;9829;1775;153;10;0;0;0;0], [0;0;0;0;0;0;3;442;4972;19775;34914;27356;10477;1884;169;8;0;0;0;0], [0;0;0;0;0;0;2;275;3532;16029;32663;30417;13659;3069;329;25;0;0;0;0]);
(4175, [0;0;0;0;0;0;7;433;5237;20387;34847;27061;10060;1809;155;4;0;0;0;0], [0;0;0;0;0;0;6;432;4786;19588;34399;27957;10644;2000;179;9;0;0;0;0], [0;0;0;0;0;0;3;262;3470;15910;32517;30610;13712;3186;318;12;0;0;0;0]);
(4180, [0;0;0;0;0;0;8;436;4961;20205;34863;27305;10210;1839;164;9;0;0;0;0], [0;0;0;0;0;0;4;391;4682;19398;34452;28075;10846;1979;164;9;0;0;0;0], [0;0;0;0;0;0;0;232;3334;15893;32199;30833;13882;3226;376;25;0;0;0;0]);
(4185, [0;0;0;0;0;0;7;375;4969;20019;34317;27525;10563;2040;177;8;0;0;0;0], [0;0;0;0;0;0;8;381;4614;19186;34385;28104;11016;2099;194;13;0;0;0;0], [0;0;0;0;0;0;1;215;3296;15576;32334;30599;14294;3294;361;28;2;0;0;0]);
(4190, [0;0;0;0;0;0;6;407;4806;19417;34592;28046;10586;1958;173;9;0;0;0;0], [0;0;0;0;0;0;4;346;4606;19056;33957;28559;11188;2071;199;14;0;0;0;0], [0;0;0;0;0;0;2;233;3129;15270;31746;31250;14424;3518;418;10;0;0;0;0]);
(4195, [0;0;0;0;0;0;3;376;4699;19318;34211;28372;10761;2062;191;7;0;0;0;0], [0;0;0;0;0;0;8;331;4448;18397;34130;28898;11390;2169;222;7;0;0;0;0], [0;0;0;0;0;0;3;196;3061;15188;31883;31112;14693;3413;426;25;0;0;0;0]);
(4200, [0;0;0;0;0;0;3;362;4623;18853;34345;28304;11180;2131;192;6;1;0;0;0], [0;0;0;0;0;0;3;322;4184;18457;33736;29204;11574;2300;208;12;0;0;0;0], [0;0;0;0;0;0;1;194;2942;14762;31434;31601;15073;3521;450;20;2;0;0;0]);
(4205, [0;0;0;0;0;0;2;363;4441;18576;34133;28760;11278;2237;196;14;0;0;0;0], [0;0;0;0;0;0;6;334;4256;18269;33866;28909;11775;2352;228;5;0;0;0;0], [0;0;0;0;0;0;6;199;3059;14620;31202;31505;15203;3746;434;26;0;0;0;0]);
(4210, [0;0;0;0;0;0;5;358;4327;18532;34144;28901;11239;2281;200;13;0;0;0;0], [0;0;0;0;0;0;1;315;4141;18111;33748;28899;12120;2406;237;22;0;0;0;0], [0;0;0;0;0;0;3;217;2877;14093;31725;31368;15465;3771;447;32;2;0;0;0]);
(4215, [0;0;0;0;0;0;10;329;4268;18303;33863;28951;11754;2281;229;12;0;0;0;0], [0;0;0;0;0;0;5;299;3950;17636;33656;29464;12143;2609;227;11;0;0;0;0], [0;0;0;0;0;0;4;167;2742;14170;31253;31626;15688;3867;455;27;1;0;0;0]);
(4220, [0;0;0;0;0;0;1;316;4134;17972;33708;29390;11836;2373;254;16;0;0;0;0], [0;0;0;0;0;0;3;305;3980;17417;33505;29473;12447;2583;269;18;0;0;0;0], [0;0;0;0;0;0;1;161;2762;14121;30999;31753;15730;3958;482;33;0;0;0;0]);
(4225, [0;0;0;0;0;0;2;285;4008;17746;33840;29248;12091;2519;251;10;0;0;0;0], [0;0;0;0;0;0;2;302;3732;17571;33313;29421;12764;2603;281;11;0;0;0;0], [0;0;0;0;0;0;0;162;2589;13635;30836;31994;16044;4160;554;25;1;0;0;0]);
(4230, [0;0;0;0;0;0;2;285;3973;17532;33414;29668;12303;2534;272;17;0;0;0;0], [0;0;0;0;0;0;10;240;3754;16952;32950;30200;12860;2733;289;12;0;0;0;0], [0;0;0;0;0;0;0;172;2632;13436;30801;32066;16206;4143;517;24;3;0;0;0]);
(4235, [0;0;0;0;0;0;0;288;3845;17316;33374;29890;12438;2592;246;11;0;0;0;0], [0;0;0;0;0;0;0;264;3707;16604;32973;30348;12987;2834;270;13;0;0;0;0], [0;0;0;0;0;0;0;137;2559;13237;30200;32225;16726;4310;576;30;0;0;0;0]);
(4240, [0;0;0;0;0;0;4;266;3700;17080;33293;29912;12808;2653;274;10;0;0;0;0], [0;0;0;0;0;0;4;239;3522;16522;32932;30284;13302;2862;322;11;0;0;0;0], [0;0;0;0;0;0;2;137;2486;13414;30014;32223;16791;4343;552;37;1;0;0;0]);
(4245, [0;0;0;0;0;0;6;260;3746;16921;32951;30032;13095;2716;256;16;1;0;0;0], [0;0;0;0;0;0;4;242;3432;16272;32765;30452;13604;2883;326;20;0;0;0;0], [0;0;0;0;0;0;3;129;2355;12839;29829;32762;16933;4532;583;35;0;0;0;0]);
(4250, [0;0;0;0;0;0;1;240;3612;16629;33100;30065;13225;2803;312;13;0;0;0;0], [0;0;0;0;0;0;1;223;3379;15971;32651;30604;13746;3043;355;27;0;0;0;0], [0;0;0;0;0;0;0;142;2329;12753;29636;32804;17093;4564;626;53;0;0;0;0]);
(4255, [0;0;0;0;0;0;1;247;3438;16136;32805;30560;13626;2861;312;13;1;0;0;0], [0;0;0;0;0;0;1;219;3349;15913;32474;30758;13824;3117;330;15;0;0;0;0], [0;0;0;0;0;0;2;135;2172;12499;29382;33104;17346;4670;636;53;1;0;0;0]);
(4260, [0;0;0;0;0;0;2;235;3361;16083;32868;30621;13558;2925;330;17;0;0;0;0], [0;0;0;0;0;0;1;192;3127;15527;32245;31084;14264;3144;399;17;0;0;0;0], [0;0;0;0;0;0;0;152;2175;12142;29264;32892;17788;4868;664;53;2;0;0;0]);
(4265, [0;0;0;0;0;0;4;221;3366;15882;32593;30718;13886;3006;309;14;1;0;0;0], [0;0;0;0;0;0;1;210;3104;15298;32224;31188;14347;3274;338;16;0;0;0;0], [0;0;0;0;0;0;2;100;2131;11961;29289;32997;17816;4953;705;41;5;0;0;0]);
(4270, [0;0;0;0;0;0;1;226;3217;15616;32549;30978;13955;3115;324;19;0;0;0;0], [0;0;0;0;0;0;4;206;2977;15065;32009;31328;14667;3383;339;20;2;0;0;0], [0;0;0;0;0;0;1;105;1984;12061;28853;33068;18047;5069;758;54;0;0;0;0]);
(4275, [0;0;0;0;0;0;0;187;3123;15210;32523;31144;14205;3220;377;11;0;0;0;0], [0;0;0;0;0;0;2;166;2944;14874;31738;31454;14885;3523;387;25;2;0;0;0], [0;0;0;0;0;0;1;103;2068;11525;28606;33283;18417;5212;733;51;1;0;0;0]);
(4280, [0;0;0;0;0;0;1;196;3124;15283;32151;31147;14388;3302;395;13;0;0;0;0], [0;0;0;0;0;0;4;188;2864;14527;31565;31717;15153;3555;400;25;2;0;0;0], [0;0;0;0;0;0;1;98;1904;11560;28518;33039;18713;5330;793;43;1;0;0;0]);
(4285, [0;0;0;0;0;0;0;192;3045;14882;31986;31393;14632;3460;378;31;1;0;0;0], [0;0;0;0;0;0;1;176;2851;14464;31655;31652;15018;3683;470;29;1;0;0;0], [0;0;0;0;0;0;2;114;1892;11344;28349;33006;19054;5437;751;50;1;0;0;0]);
(4290, [0;0;0;0;0;0;2;194;3002;14561;31710;31404;15215;3494;396;22;0;0;0;0], [0;0;0;0;0;0;3;164;2722;14192;31187;31954;15553;3740;450;34;1;0;0;0], [0;0;0;0;0;0;1;115;1857;11019;27804;33500;19219;5607;817;60;1;0;0;0]);
(4295, [0;0;0;0;0;0;1;200;2913;14627;31558;31467;15160;3619;421;32;2;0;0;0], [0;0;0;0;0;0;0;159;2653;14020;30944;32104;15838;3778;477;27;0;0;0;0], [0;0;0;0;0;0;0;85;1821;10884;27918;33239;19496;5614;873;68;2;0;0;0]);
(4300, [0;0;0;0;0;0;1;181;2849;14190;31383;31904;15280;3749;424;39;0;0;0;0], [0;0;0;0;0;0;1;167;2596;13894;30828;32377;15706;3904;494;32;1;0;0;0], [0;0;0;0;0;0;3;95;1810;10761;27527;33157;19828;5869;877;70;3;0;0;0]);
(4305, [0;0;0;0;0;0;2;172;2640;14082;30924;32320;15575;3806;441;36;2;0;0;0], [0;0;0;0;0;0;3;141;2601;13289;30909;32301;16067;4070;585;33;1;0;0;0], [0;0;0;0;0;0;0;90;1637;10575;27380;33638;19753;5946;909;67;5;0;0;0]);
(4310, [0;0;0;0;0;0;1;155;2641;13979;30955;31881;15921;3952;479;35;1;0;0;0], [0;0;0;0;0;0;1;120;2501;13325;30543;32303;16335;4308;534;30;0;0;0;0], [0;0;0;0;0;0;1;77;1583;10469;27071;33599;20110;6049;972;66;3;0;0;0]);
(4315, [0;0;0;0;0;0;2;152;2568;13675;30531;32305;16168;4060;514;24;1;0;0;0], [0;0;0;0;0;0;0;145;2367;12974;30627;32394;16666;4262;536;29;0;0;0;0], [0;0;0;0;0;0;1;76;1611;10095;26955;33792;20307;6105;972;82;4;0;0;0]);
(4320, [0;0;0;0;0;0;2;150;2515;13567;30699;32188;16265;4093;493;27;1;0;0;0], [0;0;0;0;0;0;1;139;2298;12886;30030;32827;16864;4346;566;42;1;0;0;0], [0;0;0;0;0;0;0;75;1667;9913;26603;33604;20568;6428;1051;83;7;1;0;0]);
(4325, [0;0;0;0;0;0;1;126;2375;13229;30364;32504;16572;4267;527;33;2;0;0;0], [0;0;0;0;0;0;2;112;2206;12726;29777;32851;17162;4547;570;47;0;0;0;0], [0;0;0;0;0;0;0;45;1518;9730;26388;33932;20636;6598;1066;86;1;0;0;0]);
(4330, [0;0;0;0;0;0;2;148;2385;12994;29892;32769;16917;4326;535;31;1;0;0;0], [0;0;0;0;0;0;1;132;2276;12345;29811;32971;17273;4579;574;38;0;0;0;0], [0;0;0;0;0;0;0;64;1509;9578;26171;33956;20937;6582;1102;97;4;0;0;0]);
(4335, [0;0;0;0;0;0;0;116;2341;12890;30272;32456;16873;4442;572;37;1;0;0;0], [0;0;0;0;0;0;0;122;2192;12348;29357;32832;17743;4726;637;42;1;0;0;0], [0;0;0;0;0;0;2;75;1404;9427;25695;34034;21402;6805;1040;110;6;0;0;0]);
(4340, [0;0;0;0;0;0;1;114;2176;12431;29838;32930;17299;4580;588;42;1;0;0;0], [0;0;0;0;0;0;2;106;2045;12018;29543;33075;17773;4729;660;47;2;0;0;0], [0;0;0;0;0;0;0;70;1363;9299;26006;33659;21476;6812;1212;96;7;0;0;0]);
(4345, [0;0;0;0;0;0;2;108;2183;12424;29789;32581;17632;4646;589;44;2;0;0;0], [0;0;0;0;0;0;2;113;2015;11954;29089;33216;17996;4912;660;42;1;0;0;0], [0;0;0;0;0;0;0;51;1372;9004;25643;33820;21725;7134;1151;93;6;1;0;0]);
(4350, [0;0;0;0;0;0;0;107;2057;12286;29314;32930;17737;4878;649;42;0;0;0;0], [0;0;0;0;0;0;2;98;1992;11679;29036;33010;18383;5069;677;50;4;0;0;0], [0;0;0;0;0;0;1;57;1288;8965;25261;34066;21848;7208;1192;110;4;0;0;0]);
(4355, [0;0;0;0;0;0;0;105;2159;12059;29278;33150;17710;4819;682;38;0;0;0;0], [0;0;0;0;0;0;1;92;1949;11370;28597;33230;18764;5202;742;51;2;0;0;0], [0;0;0;0;0;0;0;51;1258;8593;25468;33703;22235;7309;1255;127;1;0;0;0]);
(4360, [0;0;0;0;0;0;1;104;2006;11800;28940;33235;18312;4882;661;59;0;0;0;0], [0;0;0;0;0;0;0;79;1928;11284;28583;33400;18643;5268;767;48;0;0;0;0], [0;0;0;0;0;0;0;54;1226;8606;24861;34106;22422;7374;1216;127;8;0;0;0]);
(4365, [0;0;0;0;0;0;1;100;1958;11633;28773;33430;18480;4911;669;45;0;0;0;0], [0;0;0;0;0;0;1;103;1841;11010;28144;33376;19288;5416;752;68;1;0;0;0], [0;0;0;0;0;0;0;50;1171;8252;24615;33938;22775;7717;1358;119;5;0;0;0]);
(4370, [0;0;0;0;0;0;3;101;1789;11232;28495;33652;18799;5179;707;43;0;0;0;0], [0;0;0;0;0;0;2;91;1799;11010;28175;33425;19153;5501;780;63;1;0;0;0], [0;0;0;0;0;0;0;53;1115;8207;24422;33836;23014;7789;1442;109;11;2;0;0]);
(4375, [0;0;0;0;0;0;1;101;1857;11154;28311;33418;18940;5395;765;57;1;0;0;0], [0;0;0;0;0;0;1;80;1785;10563;27768;33647;19717;5658;732;48;1;0;0;0], [0;0;0;0;0;0;1;46;1184;7983;24085;33890;23087;8138;1457;123;6;0;0;0]);
(4380, [0;0;0;0;0;0;1;93;1819;10968;28108;33575;19080;5576;721;55;4;0;0;0], [0;0;0;0;0;0;0;84;1666;10512;27669;33870;19670;5623;840;63;3;0;0;0], [0;0;0;0;0;0;1;47;1105;7995;23828;33881;23457;8086;1458;135;6;1;0;0]);
(4385, [0;0;0;0;0;0;2;82;1827;10940;27791;33400;19476;5604;812;65;1;0;0;0], [0;0;0;0;0;0;2;68;1673;10316;27404;33842;19766;5960;909;60;0;0;0;0], [0;0;0;0;0;0;0;45;1059;7810;23747;33599;23581;8489;1509;154;7;0;0;0]);
(4390, [0;0;0;0;0;0;0;78;1664;10701;27673;33613;19573;5783;854;58;3;0;0;0], [0;0;0;0;0;0;1;74;1610;10238;27158;33578;20240;6066;966;66;3;0;0;0], [0;0;0;0;0;0;1;37;992;7510;23512;33933;23762;8537;1564;146;6;0;0;0]);
(4395, [0;0;0;0;0;0;0;74;1694;10459;27396;33885;19721;5779;919;73;0;0;0;0], [0;0;0;0;0;0;0;72;1523;9925;26980;33853;20537;6115;935;59;1;0;0;0], [0;0;0;0;0;0;0;40;1018;7368;23203;33930;24010;8612;1655;153;11;0;0;0]);
(4400, [0;0;0;0;0;0;0;59;1636;10320;27070;33710;20234;6005;905;60;1;0;0;0], [0;0;0;0;0;0;0;62;1548;9757;26530;33900;20783;6357;989;73;1;0;0;0], [0;0;0;0;0;0;0;39;971;7186;22850;33812;24495;8808;1655;176;8;0;0;0]);
(4405, [0;0;0;0;0;0;1;83;1543;10046;26999;33615;20729;5984;924;73;3;0;0;0], [0;0;0;0;0;0;0;62;1511;9610;26491;34160;20685;6413;980;84;4;0;0;0], [0;0;0;0;0;0;0;25;905;7141;22562;33980;24602;8843;1770;164;8;0;0;0]);
(4410, [0;0;0;0;0;0;0;67;1593;10011;26930;33524;20663;6139;1000;71;2;0;0;0], [0;0;0;0;0;0;0;59;1439;9581;26302;33923;20946;6621;1053;76;0;0;0;0], [0;0;0;0;0;0;0;27;902;6968;22484;33941;24539;9108;1832;188;11;0;0;0]);
(4415, [0;0;0;0;0;0;1;58;1507;9724;26591;34155;20647;6297;941;76;3;0;0;0], [0;0;0;0;0;0;0;54;1344;9487;26132;33972;21288;6567;1057;96;3;0;0;0], [0;0;0;0;0;0;1;26;884;6828;22297;33714;24970;9320;1783;168;8;1;0;0]);
(4420, [0;0;0;0;0;0;0;55;1403;9513;26332;34151;21050;6390;1022;77;6;1;0;0], [0;0;0;0;0;0;0;54;1297;9072;25704;34022;21798;6822;1145;82;4;0;0;0], [0;0;0;0;0;0;0;26;858;6606;21791;33770;25260;9611;1884;186;7;1;0;0]);
(4425, [0;0;0;0;0;0;0;50;1390;9383;26285;33811;21424;6567;1017;72;1;0;0;0], [0;0;0;0;0;0;0;53;1286;9059;25297;34078;21956;7014;1167;85;4;1;0;0], [0;0;0;0;0;0;0;24;849;6659;21704;33588;25339;9617;1987;218;15;0;0;0]);
(4430, [0;0;0;0;0;0;0;52;1369;9220;25900;33936;21440;6886;1115;78;4;0;0;0], [0;0;0;0;0;0;0;45;1257;8786;25160;33956;22334;7133;1225;98;6;0;0;0], [0;0;0;0;0;0;0;32;820;6529;21263;33511;25924;9741;1964;206;8;2;0;0]);
(4435, [0;0;0;0;0;0;0;42;1317;8992;25830;33979;21799;6795;1138;104;4;0;0;0], [0;0;0;0;0;0;0;42;1218;8678;24940;33913;22401;7476;1227;99;5;1;0;0], [0;0;0;0;0;0;0;26;824;6367;21100;33610;25707;10046;2117;194;9;0;0;0]);
(4440, [0;0;0;0;0;0;0;41;1254;8957;25406;33885;22012;7233;1116;95;1;0;0;0], [0;0;0;0;0;0;0;45;1195;8548;24470;34265;22809;7286;1268;111;3;0;0;0], [0;0;0;0;0;0;0;19;710;6280;21191;33426;25960;10104;2058;242;10;0;0;0]);
(4445, [0;0;0;0;0;0;0;56;1246;8723;25109;34194;22193;7149;1236;90;4;0;0;0], [0;0;0;0;0;0;0;49;1192;8291;24513;34135;22656;7759;1288;111;6;0;0;0], [0;0;0;0;0;0;0;23;707;5967;20989;33284;26154;10429;2216;220;11;0;0;0]);
(4450, [0;0;0;0;0;0;0;47;1221;8334;25167;33981;22452;7403;1275;114;6;0;0;0], [0;0;0;0;0;0;0;36;1109;8277;24307;34101;22965;7784;1300;121;0;0;0;0], [0;0;0;0;0;0;0;21;726;5954;20472;33113;26342;10883;2251;227;11;0;0;0]);
(4455, [0;0;0;0;0;0;0;50;1198;8344;24608;34145;22679;7602;1269;99;6;0;0;0], [0;0;0;0;0;0;0;57;1109;7937;24240;33972;23114;8047;1388;131;5;0;0;0], [0;0;0;0;0;0;0;18;666;5775;20192;33412;26629;10799;2250;241;17;1;0;0]);
(4460, [0;0;0;0;0;0;0;39;1140;8264;24450;34262;22740;7650;1327;125;3;0;0;0], [0;0;0;0;0;0;0;41;1074;7743;23950;34055;23310;8197;1483;138;9;0;0;0], [0;0;0;0;0;0;0;19;657;5827;19926;33112;26824;10949;2421;250;14;1;0;0]);
(4465, [0;0;0;0;0;0;0;41;1146;8174;24326;33894;22997;7962;1334;119;7;0;0;0], [0;0;0;0;0;0;0;29;1027;7797;23421;33757;23935;8439;1466;121;7;1;0;0], [0;0;0;0;0;0;0;25;632;5462;19854;33032;27023;11316;2384;256;16;0;0;0]);
(4470, [0;0;0;0;0;0;0;42;1018;7996;24043;34120;23149;8044;1447;137;4;0;0;0], [0;0;0;0;0;0;0;32;1003;7689;23687;33652;23881;8407;1504;143;2;0;0;0], [0;0;0;0;0;0;0;17;640;5501;19402;32952;27242;11493;2432;304;17;0;0;0]);
(4475, [0;0;0;0;0;0;0;34;1097;7718;23811;33758;23797;8220;1441;122;2;0;0;0], [0;0;0;0;0;0;0;22;882;7482;23517;33742;23897;8686;1607;155;10;0;0;0], [0;0;0;0;0;0;0;14;581;5462;19183;32885;27235;11699;2633;290;17;1;0;0]);
(4480, [0;0;0;0;0;0;0;36;1034;7709;23503;34016;23809;8226;1527;128;12;0;0;0], [0;0;0;0;0;0;0;31;923;7159;22635;34319;24364;8795;1621;148;5;0;0;0], [0;0;0;0;0;0;0;17;549;5260;19015;33052;27391;11752;2661;290;13;0;0;0]);
(4485, [0;0;0;0;0;0;0;46;967;7408;23240;33935;24146;8510;1584;160;4;0;0;0], [0;0;0;0;0;0;0;37;890;7021;22801;33692;24772;9019;1612;148;7;1;0;0], [0;0;0;0;0;0;0;18;559;5174;19044;32457;27515;12188;2708;316;20;1;0;0]);
(4490, [0;0;0;0;0;0;0;32;979;7192;23330;34176;23864;8747;1521;151;8;0;0;0], [0;0;0;0;0;0;0;19;881;6958;22432;33898;24892;9042;1696;173;9;0;0;0], [0;0;0;0;0;0;0;12;529;4949;18570;32685;27995;12010;2862;365;22;1;0;0]);
(4495, [0;0;0;0;0;0;0;22;928;7070;22808;33913;24502;8969;1632;149;7;0;0;0], [0;0;0;0;0;0;0;24;847;6891;22090;33751;25019;9450;1743;181;4;0;0;0], [0;0;0;0;0;0;0;10;538;4890;18391;32513;28076;12357;2856;348;21;0;0;0]);
(4500, [0;0;0;0;0;0;0;25;917;7147;22619;33858;24658;8969;1639;154;14;0;0;0], [0;0;0;0;0;0;0;26;826;6748;21941;33482;25467;9439;1889;171;11;0;0;0], [0;0;0;0;0;0;0;14;534;4764;18144;32335;28247;12700;2889;357;15;1;0;0]);
(4505, [0;0;0;0;0;0;0;25;881;6964;22220;34027;24869;9143;1689;176;6;0;0;0], [0;0;0;0;0;0;1;23;778;6448;21796;33737;25545;9614;1862;185;11;0;0;0], [0;0;0;0;0;0;0;21;496;4743;17874;32532;28097;12714;3106;385;31;1;0;0]);
(4510, [0;0;0;0;0;0;0;29;809;6901;22154;33694;24982;9410;1823;188;10;0;0;0], [0;0;0;0;0;0;1;29;729;6284;21694;33492;25681;9925;1953;206;6;0;0;0], [0;0;0;0;0;0;0;10;474;4589;17718;32241;28544;12985;3031;381;27;0;0;0]);
(4515, [0;0;0;0;0;0;0;20;801;6632;21990;33667;25374;9503;1824;179;9;1;0;0], [0;0;0;0;0;0;0;19;724;6248;21212;33671;25809;10159;1938;207;13;0;0;0], [0;0;0;0;0;0;0;12;440;4483;17409;31981;28838;13275;3124;406;32;0;0;0]);
(4520, [0;0;0;0;0;0;0;21;764;6629;21268;33879;25661;9718;1878;172;10;0;0;0], [0;0;0;0;0;0;0;22;755;6144;20911;33664;26243;10002;2036;203;19;1;0;0], [0;0;0;0;0;0;0;10;413;4393;17243;31796;28980;13489;3270;376;30;0;0;0]);
(4525, [0;0;0;0;0;0;0;21;743;6316;21721;33349;25773;9882;1989;199;6;1;0;0], [0;0;0;0;0;0;0;15;738;6016;20851;33552;26068;10364;2167;214;15;0;0;0], [0;0;0;0;0;0;0;10;435;4242;17104;31691;28883;13714;3466;426;29;0;0;0]);
(4530, [0;0;0;0;0;0;0;22;709;6310;21173;33663;25894;10047;1980;192;10;0;0;0], [0;0;0;0;0;0;0;20;663;6005;20494;33323;26644;10446;2148;245;12;0;0;0], [0;0;0;0;0;0;0;14;377;4236;16771;31485;29403;13822;3410;451;30;1;0;0]);
(4535, [0;0;0;0;0;0;0;19;738;6024;20942;33610;26168;10232;2053;204;10;0;0;0], [0;0;0;0;0;0;0;21;628;5673;20558;33282;26603;10770;2221;234;9;1;0;0], [0;0;0;0;0;0;1;2;397;4190;16423;31612;29348;14034;3533;438;21;1;0;0]);
(4540, [0;0;0;0;0;0;0;15;636;5968;20675;33584;26463;10342;2100;209;8;0;0;0], [0;0;0;0;0;0;0;22;675;5596;19987;33204;26949;10873;2383;299;10;2;0;0], [0;0;0;0;0;0;0;7;385;3936;16252;31315;29733;14339;3494;507;31;1;0;0]);
(4545, [0;0;0;0;0;0;0;18;661;6037;20530;33347;26491;10495;2167;232;22;0;0;0], [0;0;0;0;0;0;0;15;631;5553;19829;33277;26923;11152;2352;255;13;0;0;0], [0;0;0;0;0;0;0;8;382;3829;16220;31250;29685;14352;3711;515;46;2;0;0]);
(4550, [0;0;0;0;0;0;0;16;622;5740;20283;33359;26667;10768;2289;240;16;0;0;0], [0;0;0;0;0;0;0;19;578;5394;19604;32941;27400;11326;2451;271;15;1;0;0], [0;0;0;0;0;0;0;2;384;3835;15840;31183;29732;14724;3738;525;34;3;0;0]);
(4555, [0;0;0;0;0;0;0;15;648;5690;19742;33412;26920;10991;2340;228;14;0;0;0], [0;0;0;0;0;0;0;19;564;5434;19475;32817;27488;11510;2400;281;12;0;0;0], [0;0;0;0;0;0;0;6;338;3784;15594;30965;29925;14880;3967;505;35;1;0;0]);
(4560, [0;0;0;0;0;0;0;15;597;5594;19838;33223;27006;11064;2386;266;10;1;0;0], [0;0;0;0;0;0;0;12;550;5262;19089;32782;27763;11698;2540;284;20;0;0;0], [0;0;0;0;0;0;0;2;335;3692;15505;30666;30201;15083;3941;536;36;3;0;0]);
(4565, [0;0;0;0;0;0;0;12;581;5332;19631;33224;27247;11213;2465;274;20;1;0;0], [0;0;0;0;0;0;0;18;550;5127;19187;32445;27821;11966;2554;317;15;0;0;0], [0;0;0;0;0;0;0;6;316;3538;15042;30703;30208;15518;4044;585;40;0;0;0]);
(4570, [0;0;0;0;0;0;0;11;589;5145;19577;33027;27370;11474;2532;263;11;1;0;0], [0;0;0;0;0;0;0;11;484;4916;18776;32834;27965;12008;2657;334;14;1;0;0], [0;0;0;0;0;0;0;9;321;3539;14900;30315;30697;15534;4083;556;45;1;0;0]);
(4575, [0;0;0;0;0;0;0;12;540;5162;18961;33099;27633;11705;2594;276;18;0;0;0], [0;0;0;0;0;0;0;16;503;4950;18335;32536;28249;12339;2736;317;18;1;0;0], [0;0;0;0;0;0;0;5;291;3334;14793;30149;30640;15769;4359;616;43;1;0;0]);
(4580, [0;0;0;0;0;0;0;11;577;5106;18825;32535;27936;12111;2596;292;10;1;0;0], [0;0;0;0;0;0;0;12;521;4757;18380;32475;28294;12444;2779;312;25;1;0;0], [0;0;0;0;0;0;0;5;311;3199;14610;30148;30709;16055;4281;632;47;3;0;0]);
(4585, [0;0;0;0;0;0;0;15;532;4813;18591;32825;28191;12059;2617;335;20;2;0;0], [0;0;0;0;0;0;0;13;470;4753;18078;32417;28444;12627;2841;328;28;1;0;0], [0;0;0;0;0;0;0;12;277;3361;14591;29708;30814;16089;4437;655;51;5;0;0]);
(4590, [0;0;0;0;0;0;0;13;484;4844;18483;32714;28081;12202;2829;335;15;0;0;0], [0;0;0;0;0;0;0;5;459;4534;17742;32392;28465;13040;3026;323;14;0;0;0], [0;0;0;0;0;0;0;5;296;3143;14350;29751;30898;16344;4489;658;63;3;0;0]);
(4595, [0;0;0;0;0;0;0;15;471;4796;18172;32200;28527;12561;2899;339;19;1;0;0], [0;0;0;0;0;0;0;6;438;4363;17735;31885;28779;13273;3122;369;30;0;0;0], [0;0;0;0;0;0;0;4;274;3081;13901;29678;31168;16495;4668;687;41;3;0;0]);
(4600, [0;0;0;0;0;0;0;9;463;4594;18016;32264;28769;12553;2945;367;19;1;0;0], [0;0;0;0;0;0;0;3;372;4352;17405;32113;28867;13196;3263;399;30;0;0;0], [0;0;0;0;0;0;0;1;247;2992;13814;29319;31345;16754;4788;678;60;2;0;0]);
(4605, [0;0;0;0;0;0;1;7;473;4581;17603;32355;28781;12804;3015;354;26;0;0;0], [0;0;0;0;0;0;0;10;389;4239;17097;31852;29325;13296;3339;426;27;0;0;0], [0;0;0;0;0;0;0;3;232;2730;13591;29589;31124;17028;4871;763;67;2;0;0])].
Definition pair_data_9 : list data_row := [
(4610, [0;0;0;0;0;0;0;6;446;4389;17428;32131;28797;13271;3110;396;25;1;0;0], [0;0;0;0;0;0;0;14;413;4244;16754;31804;29247;13714;3317;464;29;0;0;0], [0;0;0;0;0;0;0;1;246;2852;13242;28911;31684;17229;5009;771;53;2;0;0]);
(4615, [0;0;0;0;0;0;1;9;394;4405;17362;32039;29044;13147;3182;399;18;0;0;0], [0;0;0;0;0;0;0;7;386;4126;16649;31935;29155;13913;3359;435;35;0;0;0], [0;0;0;0;0;0;0;4;225;2786;13091;29019;31424;17472;5095;808;74;2;0;0]);
(4620, [0;0;0;0;0;0;0;12;403;4218;17099;31823;29154;13614;3231;405;38;3;0;0], [0;0;0;0;0;0;0;4;347;3951;16523;31242;29843;14199;3395;466;28;2;0;0], [0;0;0;0;0;0;0;3;191;2726;12979;28668;31583;17729;5219;844;56;2;0;0]);
(4625, [0;0;0;0;0;0;0;4;392;4111;16766;31679;29446;13751;3364;453;33;1;0;0], [0;0;0;0;0;0;0;9;364;3895;16181;31400;29842;14182;3627;479;19;2;0;0], [0;0;0;0;0;0;0;1;217;2729;12569;28608;31485;17957;5529;828;75;2;0;0]);
(4630, [0;0;0;0;0;0;0;6;380;4029;16529;31471;29700;14048;3349;441;45;2;0;0], [0;0;0;0;0;0;0;9;328;3801;15810;31108;30106;14497;3812;499;29;1;0;0], [0;0;0;0;0;0;0;7;196;2647;12468;28320;31789;18170;5465;879;56;3;0;0]);
(4635, [0;0;0;0;0;0;0;7;376;3968;16443;31431;29707;14096;3519;421;32;0;0;0], [0;0;0;0;0;0;0;8;322;3637;15785;31133;30009;14767;3781;521;34;3;0;0], [0;0;0;0;0;0;0;8;217;2498;12401;28185;31766;18362;5543;922;94;4;0;0]);
(4640, [0;0;0;0;0;0;0;2;363;3768;15993;31359;29860;14551;3590;482;30;2;0;0], [0;0;0;0;0;0;0;5;328;3615;15621;30942;30217;14980;3764;490;38;0;0;0], [0;0;0;0;0;0;0;3;185;2405;12133;27943;31740;18637;5857;1013;83;1;0;0]);
(4645, [0;0;0;0;0;0;0;6;327;3737;15858;31010;30114;14762;3668;483;34;1;0;0], [0;0;0;0;0;0;0;5;301;3572;15249;31103;30393;14918;3860;558;38;2;1;0], [0;0;0;0;0;0;0;2;176;2414;11912;27843;32033;18725;5821;998;72;4;0;0]);
(4650, [0;0;0;0;0;0;0;10;324;3785;15564;31249;30015;14773;3789;444;45;2;0;0], [0;0;0;0;0;0;0;4;309;3488;15223;30580;30563;15296;3925;580;31;1;0;0], [0;0;0;0;0;0;0;4;166;2332;11942;27503;32098;18865;5974;1013;98;5;0;0]);
(4655, [0;0;0;0;0;0;0;6;338;3573;15660;30701;30324;15041;3819;499;38;1;0;0], [0;0;0;0;0;0;0;6;277;3424;14912;30368;30724;15652;3996;599;42;0;0;0], [0;0;0;0;0;0;0;3;144;2231;11726;27466;32115;19170;6006;1047;90;2;0;0]);
(4660, [0;0;0;0;0;0;0;7;305;3617;15312;30766;30329;15064;3996;558;45;1;0;0], [0;0;0;0;0;0;0;8;290;3312;14881;30101;30998;15651;4151;563;44;1;0;0], [0;0;0;0;0;0;0;2;156;2232;11533;27131;31958;19611;6226;1050;96;5;0;0]);
(4665, [0;0;0;0;0;0;0;2;278;3474;14977;30668;30579;15436;3994;558;34;0;0;0], [0;0;0;0;0;0;0;3;287;3144;14520;29720;31199;16020;4409;641;56;1;0;0], [0;0;0;0;0;0;0;1;144;2114;11110;27248;32157;19662;6379;1080;100;5;0;0]);
(4670, [0;0;0;0;0;0;0;4;307;3397;14880;30282;30751;15654;4101;593;30;1;0;0], [0;0;0;0;0;0;0;6;265;3153;14376;29868;31002;16311;4394;577;48;0;0;0], [0;0;0;0;0;0;0;1;141;2112;10936;26884;32225;19922;6529;1128;116;6;0;0]);
(4675, [0;0;0;0;0;0;0;2;290;3164;14631;30352;30881;15819;4261;553;43;4;0;0], [0;0;0;0;0;0;0;3;225;2991;14441;29663;31256;16282;4412;673;52;2;0;0], [0;0;0;0;0;0;0;4;132;1994;10940;26832;32196;19902;6684;1194;117;5;0;0]);
(4680, [0;0;0;0;0;0;0;5;255;3091;14521;30362;30651;16049;4398;618;48;2;0;0], [0;0;0;0;0;0;0;5;207;2964;13991;29491;31257;16624;4700;708;50;3;0;0], [0;0;0;0;0;0;0;0;122;1939;10773;26068;32517;20425;6782;1228;135;11;0;0]);
(4685, [0;0;0;0;0;0;0;4;256;3048;14330;29883;31157;16283;4310;657;72;0;0;0], [0;0;0;0;0;0;0;4;227;2905;13711;29405;31313;16800;4861;714;53;7;0;0], [0;0;0;0;0;0;0;3;134;1987;10673;26071;32378;20493;6915;1216;128;2;0;0]);
(4690, [0;0;0;0;0;0;0;5;239;3158;14012;29727;31051;16591;4541;634;42;0;0;0], [0;0;0;0;0;0;0;2;239;2857;13392;29303;31460;17257;4735;700;51;4;0;0], [0;0;0;0;0;0;0;0;129;1944;10250;26071;32587;20563;7016;1291;139;9;1;0]);
(4695, [0;0;0;0;0;0;0;2;190;2946;13686;29486;31345;16895;4735;663;50;2;0;0], [0;0;0;0;0;0;0;5;222;2731;13268;29197;31476;17347;4949;753;52;0;0;0], [0;0;0;0;0;0;0;1;119;1813;10049;25974;32279;20918;7319;1392;132;4;0;0]);
(4700, [0;0;0;0;0;0;0;6;232;3030;13733;29163;31393;16878;4793;707;64;1;0;0], [0;0;0;0;0;0;0;5;201;2750;13149;28901;31584;17431;5120;775;82;2;0;0], [0;0;0;0;0;0;0;1;110;1862;9956;25303;32485;21393;7297;1437;150;5;1;0]);
(4705, [0;0;0;0;0;0;0;4;223;2801;13429;29164;31352;17433;4834;699;61;0;0;0], [0;0;0;0;0;0;1;2;203;2670;12832;28709;31692;17744;5271;810;64;2;0;0], [0;0;0;0;0;0;0;1;133;1761;9782;25299;32506;21358;7571;1436;146;7;0;0]);
(4710, [0;0;0;0;0;0;0;1;202;2797;13355;29025;31594;17187;5012;766;61;0;0;0], [0;0;0;0;0;0;0;3;202;2574;12661;28462;31797;17977;5416;836;71;1;0;0], [0;0;0;0;0;0;0;1;110;1773;9677;25095;32577;21537;7566;1504;148;12;0;0]);
(4715, [0;0;0;0;0;0;0;3;186;2755;13142;28683;31711;17593;5075;785;66;1;0;0], [0;0;0;0;0;0;0;3;188;2509;12417;28338;31814;18307;5446;882;93;3;0;0], [0;0;0;0;0;0;0;0;123;1693;9477;24699;32510;22030;7760;1530;171;7;0;0]);
(4720, [0;0;0;0;0;0;0;4;187;2688;12855;28746;31756;17654;5225;808;74;3;0;0], [0;0;0;0;0;0;0;3;185;2461;12331;28148;31655;18736;5509;891;80;1;0;0], [0;0;0;0;0;0;0;3;114;1572;9311;24762;32487;22170;7931;1492;151;7;0;0]);
(4725, [0;0;0;0;0;0;0;1;179;2572;12679;28528;31835;17929;5400;811;60;6;0;0], [0;0;0;0;0;0;0;2;166;2419;12004;27976;31992;18775;5672;914;77;3;0;0], [0;0;0;0;0;0;0;2;98;1522;9037;24646;32476;22244;8175;1610;183;7;0;0]);
(4730, [0;0;0;0;0;0;0;2;176;2497;12485;28277;32057;18261;5355;825;63;2;0;0], [0;0;0;0;0;0;0;1;153;2286;11879;27784;32294;18847;5683;982;89;2;0;0], [0;0;0;0;0;0;0;1;74;1504;8985;24236;32817;22471;8108;1637;153;14;0;0]);
(4735, [0;0;0;0;0;0;0;3;165;2416;12240;28118;32005;18503;5579;886;85;0;0;0], [0;0;0;0;0;0;0;1;168;2213;11967;27565;31991;18997;5989;1027;77;5;0;0], [0;0;0;0;0;0;0;2;69;1533;8939;23903;32536;22718;8442;1676;173;9;0;0]);
(4740, [0;0;0;0;0;0;0;3;186;2430;12039;27900;32185;18652;5638;889;72;6;0;0], [0;0;0;0;0;0;0;0;155;2186;11480;27547;32456;19162;5920;997;95;2;0;0], [0;0;0;0;0;0;0;0;88;1407;8667;24003;32186;23049;8629;1769;193;9;0;0]);
(4745, [0;0;0;0;0;0;0;5;171;2385;11860;27501;32249;19029;5772;949;78;1;0;0], [0;0;0;0;0;0;1;1;142;2122;11394;27048;32369;19718;6123;979;101;2;0;0], [0;0;0;0;0;0;0;1;75;1412;8855;23636;32344;22967;8768;1735;196;11;0;0]);
(4750, [0;0;0;0;0;0;0;6;158;2272;11812;27533;32054;19234;5849;987;90;5;0;0], [0;0;0;0;0;0;0;3;138;2048;11281;26717;32405;19831;6402;1066;109;0;0;0], [0;0;0;0;0;0;0;0;80;1358;8335;23350;32441;23300;9081;1849;194;12;0;0]);
(4755, [0;0;0;0;0;0;0;1;144;2076;11596;27417;32348;19283;6039;1012;81;3;0;0], [0;0;0;0;0;0;0;3;102;2081;10970;26852;32217;20094;6478;1116;87;0;0;0], [0;0;0;0;0;0;0;0;76;1274;8157;22960;32576;23556;9249;1923;219;10;0;0]);
(4760, [0;0;0;0;0;0;0;2;151;2205;11245;27332;32202;19595;6165;1014;85;4;0;0], [0;0;0;0;0;0;0;1;127;2026;10888;26678;32464;19797;6746;1152;116;5;0;0], [0;0;0;0;0;0;0;0;65;1227;8010;23103;32615;23534;9218;2010;207;10;1;0]);
(4765, [0;0;0;0;0;0;0;1;127;2039;11173;27120;32139;19988;6168;1144;99;2;0;0], [0;0;0;0;0;0;0;2;118;1941;10743;26324;32368;20383;6820;1206;84;11;0;0], [0;0;0;0;0;0;0;1;69;1266;7975;22727;32595;23979;9192;1951;229;16;0;0]);
(4770, [0;0;0;0;0;0;0;2;130;2094;10918;26931;32413;19759;6494;1159;95;5;0;0], [0;0;0;0;0;0;0;1;122;1831;10392;26202;32532;20711;6863;1222;121;3;0;0], [0;0;0;0;0;0;0;1;62;1209;7836;22392;32493;24284;9464;1984;263;11;1;0]);
(4775, [0;0;0;0;0;0;0;1;114;1982;10941;26588;32320;20225;6604;1115;107;3;0;0], [0;0;0;0;0;0;0;0;119;1824;10283;25957;32698;20656;7059;1272;128;4;0;0], [0;0;0;0;0;0;0;0;63;1226;7603;22184;32611;24284;9611;2135;270;13;0;0]);
(4780, [0;0;0;0;0;0;0;0;127;1971;10710;26310;32293;20589;6720;1182;93;5;0;0], [0;0;0;0;0;0;0;3;117;1738;10128;25783;32701;21134;7007;1258;124;7;0;0], [0;0;0;0;0;0;0;0;66;1171;7492;21908;32467;24501;9922;2182;272;19;0;0]);
(4785, [0;0;0;0;0;0;0;2;113;1870;10268;25935;32675;20774;7003;1226;127;7;0;0], [0;0;0;0;0;0;0;0;101;1790;9993;25671;32600;21250;7152;1318;117;8;0;0], [0;0;0;0;0;0;0;1;55;1153;7457;21908;32072;24595;10151;2293;294;19;1;1]);
(4790, [0;0;0;0;0;0;0;1;124;1789;10432;26003;32486;20806;6956;1277;120;6;0;0], [0;0;0;0;0;0;0;0;124;1808;9738;25189;32675;21491;7424;1391;154;6;0;0], [0;0;0;0;0;0;0;0;54;1054;7225;21772;32395;24773;10199;2217;293;18;0;0]);
(4795, [0;0;0;0;0;0;0;0;102;1756;10085;25588;32612;21104;7230;1365;150;8;0;0], [0;0;0;0;0;0;0;1;106;1673;9669;25093;32636;21723;7580;1379;134;6;0;0], [0;0;0;0;0;0;0;0;44;1091;6970;21325;32319;25249;10382;2344;254;20;2;0]);
(4800, [0;0;0;0;0;0;0;0;118;1709;9933;25710;32452;21368;7284;1317;108;1;0;0], [0;0;0;0;0;0;0;0;90;1567;9502;24797;32861;21897;7615;1514;152;4;1;0], [0;0;0;0;0;0;0;0;48;999;6797;21286;32331;25308;10508;2373;331;17;2;0]);
(4805, [0;0;0;0;0;0;0;1;100;1686;9751;25464;32564;21557;7377;1351;139;10;0;0], [0;0;0;0;0;0;0;5;82;1636;9193;25008;32665;21939;7804;1489;171;8;0;0], [0;0;0;0;0;0;0;0;36;1076;6852;20823;32264;25359;10758;2482;326;24;0;0]);
(4810, [0;0;0;0;0;0;0;2;88;1592;9461;25135;32728;21858;7548;1437;141;10;0;0], [0;0;0;0;0;0;0;1;84;1561;9190;24534;32677;22329;7852;1572;187;13;0;0], [0;0;0;0;0;0;0;1;55;939;6677;20886;31870;25912;10794;2533;311;22;0;0]);
(4815, [0;0;0;0;0;0;0;2;78;1572;9394;24742;32789;21999;7763;1506;147;8;0;0], [0;0;0;0;0;0;0;1;85;1477;8807;24505;32778;22412;8181;1592;154;7;1;0], [0;0;0;0;0;0;0;0;46;973;6460;20608;32084;25698;11177;2596;334;24;0;0]);
(4820, [0;0;0;0;0;0;0;1;96;1591;9255;24753;32656;21988;8036;1473;146;5;0;0], [0;0;0;0;0;0;0;0;72;1370;8948;23928;32679;22982;8181;1656;172;12;0;0], [0;0;0;0;0;0;0;0;50;867;6377;20184;31995;26217;11320;2610;354;23;3;0]);
(4825, [0;0;0;0;0;0;0;3;84;1487;9161;24562;32651;22321;7996;1562;167;6;0;0], [0;0;0;0;0;0;0;1;75;1452;8630;23683;32819;22915;8578;1671;168;8;0;0], [0;0;0;0;0;0;0;0;30;834;6269;19935;31945;26258;11533;2790;377;29;0;0]);
(4830, [0;0;0;0;0;0;0;0;85;1438;8892;24108;32909;22533;8285;1586;150;13;1;0], [0;0;0;0;0;0;0;4;84;1365;8496;23718;32674;23152;8672;1657;165;13;0;0], [0;0;0;0;0;0;0;0;34;887;6274;19833;31726;26372;11617;2865;361;30;1;0]);
(4835, [0;0;0;0;0;0;0;0;76;1385;8902;23953;32736;22904;8227;1643;163;11;0;0], [0;0;0;0;0;0;0;0;52;1333;8417;23554;32726;23219;8799;1737;155;8;0;0], [0;0;0;0;0;0;0;0;37;847;6038;19770;31543;26633;11786;2903;414;27;2;0]);
(4840, [0;0;0;0;0;0;0;1;96;1447;8779;23820;32871;22797;8336;1670;176;7;0;0], [0;0;0;0;0;0;0;2;56;1366;8053;23378;32531;23467;9116;1817;201;13;0;0], [0;0;0;0;0;0;0;0;45;810;5923;19085;31869;26817;12009;3012;402;26;2;0]);
(4845, [0;0;0;0;0;0;0;1;59;1344;8394;23426;32886;23204;8721;1774;181;10;0;0], [0;0;0;0;0;0;0;1;70;1242;8229;22830;32898;23656;9034;1838;189;13;0;0], [0;0;0;0;0;0;0;3;43;738;5723;19091;31717;26803;12366;3071;412;33;0;0]);
(4850, [0;0;0;0;0;0;0;1;58;1312;8366;23343;32609;23482;8832;1791;195;11;0;0], [0;0;0;0;0;0;0;0;57;1243;7883;22603;32618;24110;9333;1934;209;10;0;0], [0;0;0;0;0;0;0;0;29;798;5788;18919;31649;26903;12402;3029;452;31;0;0]);
(4855, [0;0;0;0;0;0;0;1;67;1267;8113;23224;32891;23436;8950;1823;211;16;1;0], [0;0;0;0;0;0;0;0;56;1205;7828;22511;32536;24174;9491;1972;214;13;0;0], [0;0;0;0;0;0;0;0;30;710;5589;18586;31600;27082;12718;3201;450;34;0;0]);
(4860, [0;0;0;0;0;0;0;1;77;1231;8031;22805;32665;23925;9177;1878;202;7;1;0], [0;0;0;0;0;0;0;1;48;1146;7566;22303;32384;24593;9671;2035;242;9;2;0], [0;0;0;0;0;0;0;0;31;656;5467;18850;31039;27347;12903;3187;489;30;1;0]);
(4865, [0;0;0;0;0;0;0;0;67;1183;7748;22940;32528;24101;9227;1975;219;11;1;0], [0;0;0;0;0;0;0;0;56;1080;7330;22135;32632;24568;9806;2132;242;19;0;0], [0;0;0;0;0;0;0;0;41;679;5405;18292;31107;27478;13200;3285;477;32;4;0]);
(4870, [0;0;0;0;0;0;0;1;73;1198;7600;22479;32698;24224;9466;2012;238;9;2;0], [0;0;0;0;0;0;0;0;58;1069;7380;21911;32502;24761;9922;2102;283;12;0;0], [0;0;0;0;0;0;0;0;24;631;5284;18328;30959;27472;13268;3515;473;44;2;0]);
(4875, [0;0;0;0;0;0;0;1;62;1161;7544;22196;32790;24292;9664;2026;248;16;0;0], [0;0;0;0;0;0;0;0;53;1064;7180;21477;32640;24978;10164;2182;241;20;1;0], [0;0;0;0;0;0;0;0;27;646;5112;17875;31266;27604;13439;3485;518;27;1;0]);
(4880, [0;0;0;0;0;0;0;0;54;1131;7741;21863;32646;24385;9755;2184;225;15;1;0], [0;0;0;0;0;0;0;2;54;1056;7006;21503;32489;25137;10202;2249;281;20;1;0], [0;0;0;0;0;0;0;0;31;652;4928;17594;30890;28198;13444;3634;580;49;0;0]);
(4885, [0;0;0;0;0;0;0;0;65;1062;7226;22052;32362;24802;10070;2082;267;12;0;0], [0;0;0;0;0;0;0;0;43;980;6869;21348;32415;25170;10503;2366;281;25;0;0], [0;0;0;0;0;0;0;0;20;589;4901;17246;30970;28026;13896;3786;524;40;2;0]);
(4890, [0;0;0;0;0;0;0;0;50;1050;7257;21831;32339;24827;10141;2247;241;17;0;0], [0;0;0;0;0;0;0;0;48;1005;6757;21097;32215;25530;10628;2388;311;20;1;0], [0;0;0;0;0;0;0;1;20;599;4972;17111;30637;28122;14118;3800;570;49;1;0]);
(4895, [0;0;0;0;0;0;0;0;46;1057;7022;21555;32270;25031;10474;2231;298;16;0;0], [0;0;0;0;0;0;0;0;39;896;6567;20763;32583;25667;10696;2440;332;16;1;0], [0;0;0;0;0;0;0;0;20;558;4736;17052;30523;28369;14194;3905;602;41;0;0]);
(4900, [0;0;0;0;0;0;0;2;46;958;6973;21131;32159;25618;10466;2331;296;19;1;0], [0;0;0;0;0;0;0;1;38;937;6384;20527;32101;26000;11057;2594;343;18;0;0], [0;0;0;0;0;0;0;0;25;558;4663;16976;30396;28468;14285;3982;603;42;2;0]);
(4905, [0;0;0;0;0;0;0;0;39;1019;6667;20904;32507;25680;10483;2373;305;23;0;0], [0;0;0;0;0;0;0;0;46;942;6484;20663;31887;25981;11084;2575;315;23;0;0], [0;0;0;0;0;0;0;0;23;545;4492;16564;30582;28562;14657;3906;609;53;7;0]);
(4910, [0;0;0;0;0;0;0;1;41;945;6657;20768;32286;25529;11011;2441;297;24;0;0], [0;0;0;0;0;0;0;0;39;876;6306;19986;31843;26572;11248;2759;341;30;0;0], [0;0;0;0;0;0;0;0;24;566;4343;16316;30115;28998;14675;4280;640;41;2;0]);
(4915, [0;0;0;0;0;0;0;0;40;938;6563;20426;32202;25794;11244;2467;300;26;0;0], [0;0;0;0;0;0;0;0;30;818;6088;20041;32071;26320;11569;2711;327;25;0;0], [0;0;0;0;0;0;0;0;9;540;4254;16038;30088;29031;14885;4395;686;72;2;0]);
(4920, [0;0;0;0;0;0;0;0;32;868;6265;20482;32006;26303;11034;2648;334;28;0;0], [0;0;0;0;0;0;0;2;24;821;6059;19757;31891;26720;11606;2747;345;26;2;0], [0;0;0;0;0;0;0;0;26;495;4203;15964;29606;29526;15185;4274;674;45;2;0]);
(4925, [0;0;0;0;0;0;0;0;35;867;6231;20432;32027;26370;11146;2576;296;20;0;0], [0;0;0;0;0;0;0;0;36;786;5849;19542;31796;26919;11754;2874;417;26;1;0], [0;0;0;0;0;0;0;0;19;488;4165;15703;29459;29467;15595;4360;685;56;3;0]);
(4930, [0;0;0;0;0;0;0;0;39;806;6200;19982;31978;26449;11492;2708;322;21;3;0], [0;0;0;0;0;0;0;0;29;774;5754;19498;31568;27004;12044;2889;401;38;1;0], [0;0;0;0;0;0;0;0;17;468;4012;15425;29600;29630;15486;4560;742;58;2;0]);
(4935, [0;0;0;0;0;0;0;0;24;748;6091;19754;31923;26493;11746;2846;346;27;2;0], [0;0;0;0;0;0;0;0;22;765;5769;19093;31547;27003;12393;2967;416;24;1;0], [0;0;0;0;0;0;0;0;16;449;3936;15408;29663;29308;15751;4636;765;66;2;0]);
(4940, [0;0;0;0;0;0;0;2;39;795;5833;19777;31700;26684;11801;2953;390;23;3;0], [0;0;0;0;0;0;0;0;27;723;5557;18824;31730;27252;12395;3015;444;32;1;0], [0;0;0;0;0;0;0;0;13;467;3990;15252;29478;29189;16091;4714;723;77;6;0]);
(4945, [0;0;0;0;0;0;0;1;26;799;5896;19468;31567;26811;12002;3021;380;28;1;0], [0;0;0;0;0;0;0;0;23;702;5433;18569;31418;27514;12693;3212;395;39;2;0], [0;0;0;0;0;0;0;0;14;452;3761;14943;29190;29730;16149;4845;833;78;5;0]);
(4950, [0;0;0;0;0;0;0;1;36;694;5695;19184;31702;26979;12273;2986;425;24;1;0], [0;0;0;0;0;0;0;0;17;699;5356;18326;31300;27548;12961;3314;447;32;0;0], [0;0;0;0;0;0;0;0;13;387;3663;14817;28879;29821;16490;5002;847;80;1;0]);
(4955, [0;0;0;0;0;0;0;0;26;678;5554;18843;31767;27249;12503;2943;403;31;3;0], [0;0;0;0;0;0;0;0;23;676;5251;18189;31130;27792;13102;3319;479;37;2;0], [0;0;0;0;0;0;0;0;11;377;3649;14568;28935;29852;16615;5041;875;72;5;0]);
(4960, [0;0;0;0;0;0;0;0;23;716;5465;18797;31554;27306;12494;3190;420;32;3;0], [0;0;0;0;0;0;0;0;16;633;5059;17981;30870;28157;13398;3358;493;35;0;0], [0;0;0;0;0;0;0;0;19;356;3599;14289;28951;29945;16581;5217;944;94;4;1]);
(4965, [0;0;0;0;0;0;0;1;24;666;5336;18223;31296;27680;12909;3406;424;33;2;0], [0;0;0;0;0;0;0;1;22;640;5036;17774;30944;28081;13512;3479;457;50;4;0], [0;0;0;0;0;0;0;0;8;359;3504;14058;28647;30102;17146;5138;957;80;1;0]);
(4970, [0;0;0;0;0;0;0;0;26;721;5341;18164;31145;27655;13203;3281;431;31;2;0], [0;0;0;0;0;0;0;0;25;543;5048;17542;30919;28040;13694;3641;514;32;2;0], [0;0;0;0;0;0;0;0;8;338;3403;13927;28405;30239;17107;5493;979;97;4;0]);
(4975, [0;0;0;0;0;0;0;0;11;637;5166;18079;31195;27901;13104;3410;459;37;1;0], [0;0;0;0;0;0;0;0;19;606;4755;17313;30933;28222;13866;3680;561;43;2;0], [0;0;0;0;0;0;0;1;6;361;3244;13668;28240;30374;17482;5509;1012;96;6;1]);
(4980, [0;0;0;0;0;0;0;0;24;604;5056;17840;31060;28057;13294;3568;459;38;0;0], [0;0;0;0;0;0;0;0;19;550;4540;17356;30793;28487;13914;3747;541;51;2;0], [0;0;0;0;0;0;0;0;10;336;3203;13527;28129;30396;17589;5715;992;100;3;0]);
(4985, [0;0;0;0;0;0;0;0;34;554;4968;17499;30964;28266;13594;3529;556;35;1;0], [0;0;0;0;0;0;0;0;20;565;4607;16833;30501;28715;14268;3914;537;39;1;0], [0;0;0;0;0;0;0;0;11;326;3178;13260;27932;30560;17707;5820;1093;107;6;0]);
(4990, [0;0;0;0;0;0;0;0;22;563;4871;17332;30658;28368;13891;3728;529;36;2;0], [0;0;0;0;0;0;0;0;17;531;4484;16688;30565;28863;14302;3877;611;61;1;0], [0;0;0;0;0;0;0;0;11;304;3132;13097;27914;30535;17903;5840;1147;111;6;0]);
(4995, [0;0;0;0;0;0;0;0;22;569;4676;17124;30687;28610;14027;3716;520;44;4;1], [0;0;0;0;0;0;0;0;21;520;4545;16726;30047;28945;14528;4023;601;42;2;0], [0;0;0;0;0;0;0;0;10;282;2888;13146;27531;30636;18249;6003;1127;121;7;0]);
(5000, [0;0;0;0;0;0;0;0;13;571;4696;16701;30740;28625;14220;3813;582;39;0;0], [0;0;0;0;0;0;0;0;13;515;4344;16359;30299;28950;14708;4121;649;42;0;0], [0;0;0;0;0;0;0;0;9;275;2927;12845;27383;30645;18621;6046;1114;128;7;0])].
Definition pair_data : list data_row :=
  pair_data_0 ++ pair_data_1 ++ pair_data_2 ++ pair_data_3 ++ pair_data_4 ++ pair_data_5 ++ pair_data_6 ++ pair_data_7 ++ pair_data_8 ++ pair_data_9.
