(** optika/chemicals/nk/Si.nk, SiO2_llnl_cxro_rodriguez.nk, Si_palik.nk and AlAs.nk, written
    by tools/mkchem.py: wavelength in Angstrom, index of refraction and extinction coefficient.
    (The numbers are those of the files; [np.loadtxt] rounds them to the nearest
    floating-point numbers.) *)
From Coq Require Import List QArith.
Import ListNotations.
Open Scope Q_scope.

Definition chemical_row := (Q * Q * Q)%type.
Definition silicon_data_0 : list chemical_row := [
(12398425#100000000, 99999995#100000000, 56890558#10000000000000000000);
(12460729#100000000, 99999995#100000000, 58106321#10000000000000000000);
(12523662#100000000, 99999995#100000000, 5935399#1000000000000000000);
(12651454#100000000, 99999995#100000000, 61950365#10000000000000000000);
(12848109#100000000, 99999995#100000000, 66114398#10000000000000000000);
(13050974#100000000, 99999995#100000000, 70630089#10000000000000000000);
(13189814#100000000, 99999995#100000000, 73853861#10000000000000000000);
(1333164#10000000, 99999994#100000000, 772612#100000000000000000);
(13550191#100000000, 99999994#100000000, 82745497#10000000000000000000);
(13776028#100000000, 99999994#100000000, 88719583#10000000000000000000);
(13930815#100000000, 99999994#100000000, 92999124#10000000000000000000);
(14089119#100000000, 99999994#100000000, 9753673#1000000000000000000);
(14333439#100000000, 99999994#100000000, 10486912#1000000000000000000);
(14586382#100000000, 99999993#100000000, 1128959#100000000000000000);
(1476003#10000000, 99999993#100000000, 11867199#1000000000000000000);
(14937861#100000000, 99999993#100000000, 12481777#1000000000000000000);
(15212791#100000000, 99999993#100000000, 13479364#1000000000000000000);
(15498031#100000000, 99999992#100000000, 14577528#1000000000000000000);
(15634836#100000000, 99999992#100000000, 15127354#1000000000000000000);
(15774078#100000000, 99999992#100000000, 15703123#1000000000000000000);
(16078881#100000000, 99999992#100000000, 17021817#1000000000000000000);
(16313717#100000000, 99999992#100000000, 1809403#100000000000000000);
(16421755#100000000, 99999992#100000000, 18604303#1000000000000000000);
(16540055#100000000, 99999991#100000000, 19175464#1000000000000000000);
(16709468#100000000, 99999991#100000000, 20016714#1000000000000000000);
(16868605#100000000, 99999991#100000000, 20832213#1000000000000000000);
(17030804#100000000, 99999991#100000000, 21689297#1000000000000000000);
(17220035#100000000, 99999991#100000000, 22722855#1000000000000000000);
(1746257#10000000, 9999999#10000000, 24102014#1000000000000000000);
(17712036#100000000, 9999999#10000000, 25586326#1000000000000000000);
(17968732#100000000, 9999999#10000000, 27182903#1000000000000000000);
(18232978#100000000, 9999999#10000000, 2890456#100000000000000000);
(18395289#100000000, 99999989#100000000, 30002609#1000000000000000000);
(18552185#100000000, 99999989#100000000, 31093877#1000000000000000000);
(18813998#100000000, 99999989#100000000, 32981985#1000000000000000000);
(190745#1000000, 99999989#100000000, 34946185#1000000000000000000);
(19372539#100000000, 99999988#100000000, 37301457#1000000000000000000);
(1968004#10000000, 99999988#100000000, 39856283#1000000000000000000);
(19901164#100000000, 99999988#100000000, 41774434#1000000000000000000);
(20160041#100000000, 99999987#100000000, 44108476#1000000000000000000);
(20392146#100000000, 99999987#100000000, 46284598#1000000000000000000);
(20664042#100000000, 99999987#100000000, 48936738#1000000000000000000);
(20733152#100000000, 99999987#100000000, 49627916#1000000000000000000);
(2082369#10000000, 99999986#100000000, 50544615#1000000000000000000);
(21193889#100000000, 99999986#100000000, 54427839#1000000000000000000);
(21376595#100000000, 99999986#100000000, 56426137#1000000000000000000);
(21551234#100000000, 99999985#100000000, 58388107#1000000000000000000);
(21828213#100000000, 99999985#100000000, 61605979#1000000000000000000);
(22140045#100000000, 99999985#100000000, 65386084#1000000000000000000);
(22339505#100000000, 99999984#100000000, 67893276#1000000000000000000);
(22420298#100000000, 99999984#100000000, 68929064#1000000000000000000);
(22481278#100000000, 99999984#100000000, 69718652#1000000000000000000);
(22542591#100000000, 99999984#100000000, 70519482#1000000000000000000);
(22563103#100000000, 99999984#100000000, 70788898#1000000000000000000);
(22583652#100000000, 99999984#100000000, 71059751#1000000000000000000);
(22596#100000, 99999984#100000000, 71222771#1000000000000000000);
(22600118#100000000, 99999984#100000000, 71277219#1000000000000000000);
(22602178#100000000, 99999984#100000000, 71404728#1000000000000000000);
(22604239#100000000, 99999984#100000000, 71465804#1000000000000000000);
(22610422#100000000, 99999984#100000000, 71547839#1000000000000000000);
(22616609#100000000, 99999984#100000000, 71630068#1000000000000000000);
(22624863#100000000, 99999984#100000000, 71739907#1000000000000000000);
(22686962#100000000, 99999984#100000000, 72569715#1000000000000000000);
(22749404#100000000, 99999984#100000000, 73411524#1000000000000000000);
(22960046#100000000, 99999983#100000000, 76305704#1000000000000000000);
(23174626#100000000, 99999983#100000000, 79340018#1000000000000000000);
(23393255#100000000, 99999983#100000000, 8252518#100000000000000000);
(23616048#100000000, 99999983#100000000, 85870196#1000000000000000000);
(23843125#100000000, 99999982#100000000, 89384859#1000000000000000000);
(24074612#100000000, 99999982#100000000, 93079413#1000000000000000000);
(24310637#100000000, 99999981#100000000, 96965112#1000000000000000000);
(24551337#100000000, 99999981#100000000, 10105389#100000000000000000);
(2479685#10000000, 99999981#100000000, 10535829#100000000000000000);
(25047323#100000000, 9999998#10000000, 10988162#100000000000000000);
(25302908#100000000, 9999998#10000000, 1146483#10000000000000000);
(25563763#100000000, 9999998#10000000, 11967364#100000000000000000);
(25830052#100000000, 99999979#100000000, 12497497#100000000000000000);
(26101947#100000000, 99999979#100000000, 13057059#100000000000000000);
(26379628#100000000, 99999978#100000000, 13648016#100000000000000000);
(2666328#10000000, 99999978#100000000, 14272476#100000000000000000);
(26953098#100000000, 99999977#100000000, 14932723#100000000000000000);
(27369592#100000000, 99999977#100000000, 15921954#100000000000000000);
(27861629#100000000, 99999976#100000000, 17152155#100000000000000000);
(28306906#100000000, 99999975#100000000, 18325503#100000000000000000);
(28833547#100000000, 99999974#100000000, 19791008#100000000000000000);
(29310697#100000000, 99999973#100000000, 21194068#100000000000000000);
(29590513#100000000, 99999973#100000000, 22051445#100000000000000000);
(29875723#100000000, 99999972#100000000, 22952091#100000000000000000);
(30166484#100000000, 99999971#100000000, 23898872#100000000000000000);
(30388297#100000000, 99999971#100000000, 24640805#100000000000000000);
(30689171#100000000, 9999997#10000000, 25675093#100000000000000000);
(30996062#100000000, 9999997#10000000, 26763889#100000000000000000);
(31388418#100000000, 99999969#100000000, 28202948#100000000000000000);
(31790833#100000000, 99999968#100000000, 29739391#100000000000000000);
(32203701#100000000, 99999967#100000000, 31381025#100000000000000000);
(32627434#100000000, 99999967#100000000, 33136521#100000000000000000);
(33062467#100000000, 99999966#100000000, 35012074#100000000000000000);
(33509257#100000000, 99999965#100000000, 37021091#100000000000000000);
(33968288#100000000, 99999964#100000000, 39175091#100000000000000000);
(34411393#100000000, 99999963#100000000, 41343263#100000000000000000)].
Definition silicon_data_1 : list chemical_row := [
(34729482#100000000, 99999962#100000000, 42955184#100000000000000000);
(35123017#100000000, 99999961#100000000, 45014897#100000000000000000);
(35525573#100000000, 9999996#10000000, 47197579#100000000000000000);
(35937464#100000000, 99999959#100000000, 49509015#100000000000000000);
(36359018#100000000, 99999958#100000000, 51962735#100000000000000000);
(36681731#100000000, 99999958#100000000, 53902578#100000000000000000);
(37121033#100000000, 99999957#100000000, 56631344#100000000000000000);
(37570985#100000000, 99999956#100000000, 59533327#100000000000000000);
(38031979#100000000, 99999955#100000000, 62616949#100000000000000000);
(38385217#100000000, 99999954#100000000, 65060459#100000000000000000);
(38866536#100000000, 99999953#100000000, 68505676#100000000000000000);
(39360079#100000000, 99999951#100000000, 7218026#10000000000000000);
(39738542#100000000, 9999995#10000000, 75098103#100000000000000000);
(40254627#100000000, 99999949#100000000, 79219754#100000000000000000);
(40784293#100000000, 99999948#100000000, 83625762#100000000000000000);
(41328083#100000000, 99999946#100000000, 87384533#100000000000000000);
(41980318#100000000, 99999945#100000000, 93200561#100000000000000000);
(42659192#100000000, 99999943#100000000, 99558138#100000000000000000);
(43349166#100000000, 99999941#100000000, 10634668#10000000000000000);
(44050398#100000000, 99999939#100000000, 11359427#10000000000000000);
(44762889#100000000, 99999937#100000000, 12133162#10000000000000000);
(45486789#100000000, 99999935#100000000, 12959068#10000000000000000);
(46222594#100000000, 99999933#100000000, 13840835#10000000000000000);
(46970136#100000000, 99999931#100000000, 14782041#10000000000000000);
(47729941#100000000, 99999928#100000000, 15786859#10000000000000000);
(48501827#100000000, 99999926#100000000, 16859315#10000000000000000);
(4928635#10000000, 99999924#100000000, 1800413#1000000000000000);
(50083517#100000000, 99999921#100000000, 19226039#10000000000000000);
(50893521#100000000, 99999919#100000000, 20530199#10000000000000000);
(51716777#100000000, 99999916#100000000, 21922278#10000000000000000);
(52553291#100000000, 99999913#100000000, 23407946#10000000000000000);
(53403276#100000000, 9999991#10000000, 24993455#10000000000000000);
(54266953#100000000, 99999907#100000000, 26685582#10000000000000000);
(55144796#100000000, 99999904#100000000, 28491586#10000000000000000);
(56036559#100000000, 99999901#100000000, 30418559#10000000000000000);
(5694299#10000000, 99999898#100000000, 32475234#10000000000000000);
(578641#1000000, 99999895#100000000, 34669941#10000000000000000);
(5879988#10000000, 99999891#100000000, 37011605#10000000000000000);
(5975087#10000000, 99999888#100000000, 3951039#1000000000000000);
(60717364#100000000, 99999884#100000000, 42176873#10000000000000000);
(61699362#100000000, 9999988#10000000, 45021868#10000000000000000);
(62697472#100000000, 99999876#100000000, 48058789#10000000000000000);
(63711376#100000000, 99999872#100000000, 51295167#10000000000000000);
(64742043#100000000, 99999868#100000000, 54746742#10000000000000000);
(65789146#100000000, 99999864#100000000, 58426636#10000000000000000);
(66853007#100000000, 99999859#100000000, 62349833#10000000000000000);
(67934342#100000000, 99999855#100000000, 66533101#10000000000000000);
(69033162#100000000, 9999985#10000000, 70993116#10000000000000000);
(70149851#100000000, 99999845#100000000, 75748187#10000000000000000);
(71284403#100000000, 9999984#10000000, 80816881#10000000000000000);
(72437208#100000000, 99999834#100000000, 86219966#10000000000000000);
(73609116#100000000, 99999829#100000000, 91980773#10000000000000000);
(74799704#100000000, 99999823#100000000, 98120781#10000000000000000);
(76009398#100000000, 99999818#100000000, 10466522#1000000000000000);
(77238648#100000000, 99999812#100000000, 11164058#1000000000000000);
(78487934#100000000, 99999806#100000000, 11907576#1000000000000000);
(79757256#100000000, 99999799#100000000, 12699968#1000000000000000);
(81047641#100000000, 99999793#100000000, 13544645#1000000000000000);
(82358578#100000000, 99999786#100000000, 14444744#1000000000000000);
(83690582#100000000, 99999779#100000000, 15403949#1000000000000000);
(85044208#100000000, 99999771#100000000, 16426123#1000000000000000);
(86419445#100000000, 99999764#100000000, 1751541#100000000000000);
(87817493#100000000, 99999756#100000000, 18676124#1000000000000000);
(89237748#100000000, 99999748#100000000, 19912998#1000000000000000);
(90680814#100000000, 9999974#10000000, 21230675#1000000000000000);
(92148028#100000000, 99999731#100000000, 22635181#1000000000000000);
(93638035#100000000, 99999723#100000000, 24131216#1000000000000000);
(95152916#100000000, 99999713#100000000, 25725286#1000000000000000);
(96691974#100000000, 99999704#100000000, 27423657#1000000000000000);
(98255934#100000000, 99999694#100000000, 29232901#1000000000000000);
(99844778#100000000, 99999684#100000000, 31160195#1000000000000000);
(10146011#10000000, 99999674#100000000, 33213724#1000000000000000);
(10310112#10000000, 99999663#100000000, 35400845#1000000000000000);
(10476863#10000000, 99999652#100000000, 37730904#1000000000000000);
(10646263#10000000, 99999641#100000000, 40212222#1000000000000000);
(10818492#10000000, 99999629#100000000, 4285604#100000000000000);
(10993461#10000000, 99999617#100000000, 45671371#1000000000000000);
(11171262#10000000, 99999604#100000000, 48670318#1000000000000000);
(11351998#10000000, 99999591#100000000, 5186444#100000000000000);
(11535565#10000000, 99999578#100000000, 55265816#1000000000000000);
(11722173#10000000, 99999564#100000000, 5888843#100000000000000);
(11911712#10000000, 99999549#100000000, 62745789#1000000000000000);
(12104409#10000000, 99999534#100000000, 66854109#1000000000000000);
(12300147#10000000, 99999519#100000000, 71228184#1000000000000000);
(12499143#10000000, 99999503#100000000, 75887164#1000000000000000);
(127013#100000, 99999487#100000000, 80846887#1000000000000000);
(12906731#10000000, 9999947#10000000, 86128142#1000000000000000);
(13115488#10000000, 99999453#100000000, 91751898#1000000000000000);
(13327627#10000000, 99999435#100000000, 97737239#1000000000000000);
(1354319#1000000, 99999416#100000000, 10411015#100000000000000);
(13762235#10000000, 99999397#100000000, 11089648#100000000000000);
(13984837#10000000, 99999377#100000000, 1181183#10000000000000);
(14211027#10000000, 99999356#100000000, 12580787#100000000000000);
(14440886#10000000, 99999335#100000000, 13399354#100000000000000);
(14674446#10000000, 99999313#100000000, 14270436#100000000000000);
(14911793#10000000, 99999291#100000000, 15197791#100000000000000);
(15152979#10000000, 99999267#100000000, 16184698#100000000000000);
(15398059#10000000, 99999243#100000000, 17235086#100000000000000);
(15647129#10000000, 99999218#100000000, 1835322#10000000000000);
(15900207#10000000, 99999192#100000000, 19542889#100000000000000)].
Definition silicon_data_2 : list chemical_row := [
(16157373#10000000, 99999166#100000000, 20809033#100000000000000);
(1641871#1000000, 99999138#100000000, 22156139#100000000000000);
(16684261#10000000, 9999911#10000000, 23589696#100000000000000);
(16954114#10000000, 9999908#10000000, 25115415#100000000000000);
(17228338#10000000, 9999905#10000000, 26738174#100000000000000);
(17507004#10000000, 99999019#100000000, 2846493#10000000000000);
(1779016#1000000, 99998986#100000000, 30302111#100000000000000);
(18077907#10000000, 99998953#100000000, 32256031#100000000000000);
(18370296#10000000, 99998919#100000000, 34335121#100000000000000);
(18667407#10000000, 99998883#100000000, 36547005#100000000000000);
(18969351#10000000, 99998846#100000000, 38898497#100000000000000);
(19276158#10000000, 99998808#100000000, 4139918#10000000000000);
(19528154#10000000, 99998776#100000000, 43543596#100000000000000);
(19691229#10000000, 99998756#100000000, 44970605#100000000000000);
(20009724#10000000, 99998714#100000000, 47857185#100000000000000);
(20333387#10000000, 99998672#100000000, 50927438#100000000000000);
(20662251#10000000, 99998628#100000000, 5419314#10000000000000);
(2099645#1000000, 99998583#100000000, 57665642#100000000000000);
(21336056#10000000, 99998536#100000000, 61356337#100000000000000);
(2168114#1000000, 99998488#100000000, 65280751#100000000000000);
(22031813#10000000, 99998438#100000000, 69453418#100000000000000);
(22388153#10000000, 99998387#100000000, 73889496#100000000000000);
(2275028#1000000, 99998334#100000000, 78605061#100000000000000);
(23118235#10000000, 99998279#100000000, 83615338#100000000000000);
(23492143#10000000, 99998223#100000000, 88941849#100000000000000);
(23872139#10000000, 99998164#100000000, 94601164#100000000000000);
(2425822#1000000, 99998104#100000000, 1006174#1000000000000);
(24650573#10000000, 99998042#100000000, 10701381#10000000000000);
(25049297#10000000, 99997977#100000000, 11380409#10000000000000);
(2545444#1000000, 99997911#100000000, 12102022#10000000000000);
(25866157#10000000, 99997842#100000000, 12868581#10000000000000);
(262845#100000, 99997772#100000000, 13683015#10000000000000);
(26709634#10000000, 99997699#100000000, 14548554#10000000000000);
(27141673#10000000, 99997623#100000000, 15467491#10000000000000);
(27580678#10000000, 99997546#100000000, 16443573#10000000000000);
(28026767#10000000, 99997465#100000000, 17480215#10000000000000);
(28480063#10000000, 99997383#100000000, 18580539#10000000000000);
(28940694#10000000, 99997297#100000000, 19749309#10000000000000);
(29408796#10000000, 99997209#100000000, 20989876#10000000000000);
(29884436#10000000, 99997118#100000000, 22306702#10000000000000);
(30367828#10000000, 99997025#100000000, 2370556#1000000000000);
(30858972#10000000, 99996928#100000000, 25189097#10000000000000);
(31358092#10000000, 99996828#100000000, 26764274#10000000000000);
(31865267#10000000, 99996726#100000000, 28435831#10000000000000);
(3238066#1000000, 9999662#10000000, 30208867#10000000000000);
(32904438#10000000, 99996511#100000000, 32091402#10000000000000);
(334366#100000, 99996398#100000000, 34086698#10000000000000);
(3397741#1000000, 99996283#100000000, 36203938#10000000000000);
(34526962#10000000, 99996163#100000000, 384505#100000000000);
(35085447#10000000, 9999604#10000000, 40831098#10000000000000);
(35652963#10000000, 99995914#100000000, 43356813#10000000000000);
(36229611#10000000, 99995784#100000000, 46033992#10000000000000);
(36815596#10000000, 9999565#10000000, 48871567#10000000000000);
(37411024#10000000, 99995512#100000000, 51881518#10000000000000);
(38016119#10000000, 9999537#10000000, 55068594#10000000000000);
(38630996#10000000, 99995225#100000000, 58447111#10000000000000);
(39255771#10000000, 99995075#100000000, 62027298#10000000000000);
(39890817#10000000, 99994921#100000000, 65818212#10000000000000);
(4053601#1000000, 99994763#100000000, 69835622#10000000000000);
(41191602#10000000, 99994601#100000000, 74088621#10000000000000);
(41857864#10000000, 99994434#100000000, 78591671#10000000000000);
(42534795#10000000, 99994263#100000000, 83361874#10000000000000);
(43222828#10000000, 99994088#100000000, 88408338#10000000000000);
(43921968#10000000, 99993909#100000000, 93751366#10000000000000);
(44632366#10000000, 99993726#100000000, 9940172#1000000000000);
(45354173#10000000, 99993538#100000000, 10537994#1000000000000);
(46087715#10000000, 99993346#100000000, 11171065#1000000000000);
(46833166#10000000, 99993151#100000000, 11839447#1000000000000);
(47590703#10000000, 99992951#100000000, 12546557#1000000000000);
(48360507#10000000, 99992748#100000000, 13294587#1000000000000);
(49142571#10000000, 99992541#100000000, 14083903#1000000000000);
(4993747#1000000, 99992331#100000000, 14918933#1000000000000);
(5074521#1000000, 99992119#100000000, 15800993#1000000000000);
(51565996#10000000, 99991903#100000000, 16732028#1000000000000);
(52400036#10000000, 99991687#100000000, 17715946#1000000000000);
(53247547#10000000, 99991469#100000000, 18753213#1000000000000);
(54108751#10000000, 9999125#10000000, 19848721#1000000000000);
(5498388#1000000, 99991033#100000000, 21003991#1000000000000);
(55873174#10000000, 99990817#100000000, 22221827#1000000000000);
(56776884#10000000, 99990606#100000000, 23507609#1000000000000);
(5769527#1000000, 99990401#100000000, 24861645#1000000000000);
(58628325#10000000, 99990205#100000000, 26288221#1000000000000);
(59576592#10000000, 99990022#100000000, 27792557#1000000000000);
(60540367#10000000, 99989858#100000000, 29358433#1000000000000);
(61519349#10000000, 9998972#10000000, 31010401#1000000000000);
(62514433#10000000, 9998962#10000000, 32750542#1000000000000);
(63525634#10000000, 9998958#10000000, 34583424#1000000000000);
(64553276#10000000, 9998964#10000000, 36518849#1000000000000);
(65597356#10000000, 99989896#100000000, 3856192#100000000000);
(66658199#10000000, 99990698#100000000, 40718558#1000000000000);
(67419386#10000000, 99997128#100000000, 23065936#1000000000000);
(67423052#10000000, 99991888#100000000, 42320532#1000000000000);
(67426719#10000000, 99997126#100000000, 37536727#10000000000000);
(68310882#10000000, 99990246#100000000, 39296193#10000000000000);
(68344395#10000000, 99990189#100000000, 39371475#10000000000000);
(69449626#10000000, 99988942#100000000, 41915213#10000000000000);
(70573109#10000000, 99988073#100000000, 44612785#10000000000000);
(71714453#10000000, 99987333#100000000, 47470917#10000000000000);
(7287447#1000000, 99986651#100000000, 50446061#10000000000000);
(74053164#10000000, 99985997#100000000, 53607629#10000000000000)].
Definition silicon_data_3 : list chemical_row := [
(7525097#1000000, 99985354#100000000, 56967726#10000000000000);
(76467876#10000000, 99984715#100000000, 60538113#10000000000000);
(77704816#10000000, 99984073#100000000, 64332322#10000000000000);
(78961807#10000000, 99983424#100000000, 68363734#10000000000000);
(80238838#10000000, 99982764#100000000, 72648407#10000000000000);
(815364#100000, 99982092#100000000, 77194817#10000000000000);
(82855572#10000000, 99981406#100000000, 82019968#10000000000000);
(84195256#10000000, 99980703#100000000, 8703065#1000000000000);
(85557124#10000000, 99979982#100000000, 92346897#10000000000000);
(86941209#10000000, 99979241#100000000, 97988512#10000000000000);
(88347513#10000000, 99978479#100000000, 10396714#1000000000000);
(89776002#10000000, 99977696#100000000, 11029889#1000000000000);
(91228616#10000000, 99976888#100000000, 11700755#1000000000000);
(9270405#1000000, 99976057#100000000, 12412304#1000000000000);
(9420365#1000000, 999752#1000000, 13166844#1000000000000);
(95726689#10000000, 99974317#100000000, 13966578#1000000000000);
(97275356#10000000, 99973406#100000000, 1481161#100000000000);
(98848941#10000000, 99972465#100000000, 15707521#1000000000000);
(10044741#1000000, 99971495#100000000, 16657473#1000000000000);
(10207237#1000000, 99970493#100000000, 1766519#100000000000);
(103723#10000, 99969458#100000000, 1873243#100000000000);
(105401#10000, 99968389#100000000, 19862881#1000000000000);
(1071055#100000, 99967285#100000000, 21060635#1000000000000);
(10883736#1000000, 99966144#100000000, 22330575#1000000000000);
(11059851#1000000, 99964963#100000000, 23677896#1000000000000);
(11238703#1000000, 99963741#100000000, 25104411#1000000000000);
(11420489#1000000, 99962472#100000000, 26667342#1000000000000);
(11605209#1000000, 99961166#100000000, 28401366#1000000000000);
(11792862#1000000, 99959819#100000000, 30247901#1000000000000);
(1198367#100000, 99958429#100000000, 32215211#1000000000000);
(12177405#1000000, 99956996#100000000, 34309292#1000000000000);
(12374419#1000000, 99955515#100000000, 36540473#1000000000000);
(1257457#100000, 99953988#100000000, 38914035#1000000000000);
(12777943#1000000, 99952411#100000000, 4144001#100000000000);
(12984615#1000000, 99950784#100000000, 44129813#1000000000000);
(13194643#1000000, 99949105#100000000, 46994334#1000000000000);
(13408051#1000000, 99947375#100000000, 50044536#1000000000000);
(13624912#1000000, 99945594#100000000, 53292755#1000000000000);
(13845285#1000000, 99943765#100000000, 56672592#1000000000000);
(14069215#1000000, 99941872#100000000, 60123485#1000000000000);
(1429678#100000, 99939911#100000000, 63784615#1000000000000);
(14528014#1000000, 99937885#100000000, 67668214#1000000000000);
(14763#1000, 99935793#100000000, 71788635#1000000000000);
(15001773#1000000, 99933634#100000000, 7616012#100000000000);
(15244421#1000000, 99931406#100000000, 80797242#1000000000000);
(15490983#1000000, 99929113#100000000, 85716944#1000000000000);
(15741533#1000000, 99926754#100000000, 90736752#1000000000000);
(15996151#1000000, 99924305#100000000, 95968918#1000000000000);
(16254879#1000000, 9992177#10000000, 10150312#100000000000);
(16517777#1000000, 99919147#100000000, 1073559#10000000000);
(16784932#1000000, 99916434#100000000, 11354625#100000000000);
(17056435#1000000, 99913628#100000000, 12009364#100000000000);
(1733231#100000, 99910725#100000000, 12701901#100000000000);
(17612625#1000000, 99907717#100000000, 13434235#100000000000);
(17897505#1000000, 99904593#100000000, 14221603#100000000000);
(18186976#1000000, 99901369#100000000, 15082007#100000000000);
(18481142#1000000, 99898061#100000000, 1599444#10000000000);
(18780058#1000000, 99894648#100000000, 16962177#100000000000);
(19083807#1000000, 9989113#10000000, 17988415#100000000000);
(19392477#1000000, 99887503#100000000, 19076699#100000000000);
(19706127#1000000, 99883764#100000000, 20230894#100000000000);
(20024881#1000000, 99879912#100000000, 21454962#100000000000);
(20348738#1000000, 99875946#100000000, 22752905#100000000000);
(20677861#1000000, 99871865#100000000, 24129503#100000000000);
(21012321#1000000, 99867677#100000000, 25589417#100000000000);
(21352187#1000000, 9986338#10000000, 27111939#100000000000);
(21697531#1000000, 99858943#100000000, 28682249#100000000000);
(22048465#1000000, 99854352#100000000, 30343571#100000000000);
(22405105#1000000, 99849614#100000000, 32101267#100000000000);
(22767492#1000000, 99844727#100000000, 33960655#100000000000);
(23135706#1000000, 9983969#10000000, 35927566#100000000000);
(23509917#1000000, 99834501#100000000, 38008559#100000000000);
(2389017#100000, 99829156#100000000, 40210169#100000000000);
(24276602#1000000, 99823655#100000000, 42539201#100000000000);
(24669211#1000000, 99817993#100000000, 45003002#100000000000);
(25068239#1000000, 9981217#10000000, 4760981#10000000000);
(25473686#1000000, 99806186#100000000, 50367271#100000000000);
(25885706#1000000, 99800039#100000000, 5328477#10000000000);
(26304408#1000000, 99793739#100000000, 56371134#100000000000);
(26729846#1000000, 99787308#100000000, 59636207#100000000000);
(27162188#1000000, 99780712#100000000, 62997721#100000000000);
(27601493#1000000, 99773902#100000000, 66524125#100000000000);
(28047943#1000000, 9976689#10000000, 70248254#100000000000);
(28501602#1000000, 9975968#10000000, 74180849#100000000000);
(28962598#1000000, 99752277#100000000, 78333357#100000000000);
(29431066#1000000, 99744679#100000000, 82718624#100000000000);
(29907071#1000000, 9973689#10000000, 87349039#100000000000);
(30390755#1000000, 99728913#100000000, 92238441#100000000000);
(30882338#1000000, 99720747#100000000, 97402376#100000000000);
(31381824#1000000, 99712404#100000000, 10285476#10000000000);
(31889363#1000000, 99703891#100000000, 10861229#10000000000);
(32405203#1000000, 99695219#100000000, 11469279#10000000000);
(32929344#1000000, 99686412#100000000, 12111307#10000000000);
(33461958#1000000, 99677605#100000000, 12789301#10000000000);
(34003129#1000000, 99668871#100000000, 13491108#10000000000);
(34553135#1000000, 99659856#100000000, 14175796#10000000000);
(35111976#1000000, 99650443#100000000, 14895215#10000000000);
(35679845#1000000, 99640743#100000000, 15651088#10000000000);
(36256945#1000000, 99630788#100000000, 16445406#10000000000);
(36843384#1000000, 99620596#100000000, 17280028#10000000000)].
Definition silicon_data_4 : list chemical_row := [
(37439267#1000000, 99610174#100000000, 18156954#10000000000);
(38044816#1000000, 99599536#100000000, 19078431#10000000000);
(38660267#1000000, 9958869#10000000, 20046768#10000000000);
(39285499#1000000, 9957765#10000000, 21064077#10000000000);
(39920873#1000000, 99566437#100000000, 22133015#10000000000);
(40566647#1000000, 99555071#100000000, 23256412#10000000000);
(41222691#1000000, 99543665#100000000, 24436565#10000000000);
(41889543#1000000, 99532165#100000000, 25658822#10000000000);
(42567069#1000000, 99520464#100000000, 2691848#1000000000);
(43255551#1000000, 99508492#100000000, 28239958#10000000000);
(43955135#1000000, 99496338#100000000, 29626309#10000000000);
(44666132#1000000, 99484031#100000000, 31080821#10000000000);
(45388542#1000000, 99471607#100000000, 32606595#10000000000);
(46122691#1000000, 99459101#100000000, 34207435#10000000000);
(46868574#1000000, 99446552#100000000, 35886599#10000000000);
(47626717#1000000, 99434003#100000000, 37648504#10000000000);
(4839694#100000, 99421544#100000000, 39496621#10000000000);
(49179803#1000000, 99409286#100000000, 4143572#1000000000);
(49975311#1000000, 99397555#100000000, 43454171#10000000000);
(50783455#1000000, 9938601#10000000, 4546825#1000000000);
(51604844#1000000, 99374074#100000000, 47576027#10000000000);
(52439708#1000000, 99362181#100000000, 49781902#10000000000);
(53287825#1000000, 99350489#100000000, 52089533#10000000000);
(54149634#1000000, 99339146#100000000, 5450413#1000000000);
(55025364#1000000, 9932844#10000000, 5703054#1000000000);
(55915507#1000000, 99319098#100000000, 59674655#10000000000);
(56819817#1000000, 99310518#100000000, 62131838#10000000000);
(57738797#1000000, 99301161#100000000, 64630895#10000000000);
(58672716#1000000, 99290878#100000000, 67230591#10000000000);
(59621858#1000000, 99280408#100000000, 69935125#10000000000);
(60586222#1000000, 99269529#100000000, 72748188#10000000000);
(61566088#1000000, 99257929#100000000, 75734115#10000000000);
(6256175#100000, 99246988#100000000, 78946587#10000000000);
(63573516#1000000, 99236849#100000000, 82295372#10000000000);
(64602048#1000000, 99227093#100000000, 85787245#10000000000);
(65646675#1000000, 99217752#100000000, 89425789#10000000000);
(66708768#1000000, 99207908#100000000, 9312032#1000000000);
(67787628#1000000, 9919206#10000000, 96941835#10000000000);
(68883966#1000000, 99197328#100000000, 10092034#1000000000);
(69072006#1000000, 99183829#100000000, 10082453#1000000000);
(69264944#1000000, 9917908#10000000, 10198797#1000000000);
(69458964#1000000, 99168376#100000000, 10280668#1000000000);
(69654073#1000000, 99166119#100000000, 10436038#1000000000);
(70047599#1000000, 99155514#100000000, 10615857#1000000000);
(70246034#1000000, 99152083#100000000, 10746821#1000000000);
(70445597#1000000, 9914586#10000000, 10919523#1000000000);
(70848143#1000000, 99138036#100000000, 11218383#1000000000);
(71051146#1000000, 99136063#100000000, 11446143#1000000000);
(71255316#1000000, 99135197#100000000, 11588654#1000000000);
(71460663#1000000, 99139694#100000000, 11916848#1000000000);
(71667197#1000000, 9915077#10000000, 1200688#100000000);
(71874928#1000000, 99156323#100000000, 12189727#1000000000);
(72083866#1000000, 99157231#100000000, 12275361#1000000000);
(72294023#1000000, 99165045#100000000, 12588026#1000000000);
(72931912#1000000, 99205936#100000000, 130084#10000000);
(73363462#1000000, 99234022#100000000, 13200164#1000000000);
(74020448#1000000, 99280403#100000000, 13375682#1000000000);
(74242066#1000000, 99284473#100000000, 13305927#1000000000);
(74465015#1000000, 99288#100000, 13440474#1000000000);
(74914955#1000000, 99307765#100000000, 13530117#1000000000);
(75370365#1000000, 99328852#100000000, 13652882#1000000000);
(75831346#1000000, 99349171#100000000, 13693173#1000000000);
(76298#1000, 99368278#100000000, 13690536#1000000000);
(77490156#1000000, 99384198#100000000, 13590827#1000000000);
(77977516#1000000, 99389079#100000000, 13614321#1000000000);
(78223502#1000000, 99393045#100000000, 13697433#1000000000);
(78471044#1000000, 99397766#100000000, 13610627#1000000000);
(78720159#1000000, 99390768#100000000, 13597529#1000000000);
(79223163#1000000, 99387302#100000000, 13679556#1000000000);
(79477083#1000000, 99380188#100000000, 13666106#1000000000);
(79732637#1000000, 99371232#100000000, 13718769#1000000000);
(79989839#1000000, 99358394#100000000, 13814913#1000000000);
(80248706#1000000, 99347852#100000000, 13976076#1000000000);
(80771498#1000000, 99346357#100000000, 14557497#1000000000);
(81301148#1000000, 99385501#100000000, 15013789#1000000000);
(81568586#1000000, 99411618#100000000, 15075329#1000000000);
(81837789#1000000, 99434718#100000000, 15003573#1000000000);
(82108775#1000000, 99442589#100000000, 14866672#1000000000);
(82381561#1000000, 99440147#100000000, 14804306#1000000000);
(82656167#1000000, 9943353#10000000, 14840178#1000000000);
(82932609#1000000, 99432812#100000000, 14968196#1000000000);
(83491077#1000000, 99443969#100000000, 15159196#1000000000);
(83773142#1000000, 99452854#100000000, 15202657#1000000000);
(84057119#1000000, 99459695#100000000, 15288623#1000000000);
(84343027#1000000, 99467653#100000000, 15306844#1000000000);
(84630887#1000000, 99473834#100000000, 15365521#1000000000);
(84920719#1000000, 99479574#100000000, 15374081#1000000000);
(85212543#1000000, 99485701#100000000, 15444918#1000000000);
(85506379#1000000, 99492607#100000000, 1542021#100000000);
(86100174#1000000, 99496633#100000000, 15475604#1000000000);
(86702273#1000000, 994893#1000000, 1544339#100000000);
(87006491#1000000, 99485737#100000000, 15571094#1000000000);
(87312852#1000000, 99482562#100000000, 15663632#1000000000);
(87621378#1000000, 99483683#100000000, 15813312#1000000000);
(88245018#1000000, 99497104#100000000, 16014677#1000000000);
(88560179#1000000, 99500666#100000000, 16028705#1000000000);
(88877599#1000000, 99498777#100000000, 16095202#1000000000);
(90170364#1000000, 99480805#100000000, 16452651#1000000000);
(90499453#1000000, 99472253#100000000, 16724183#1000000000);
(90830952#1000000, 99468014#100000000, 16949061#1000000000)].
Definition silicon_data_5 : list chemical_row := [
(9116489#100000, 99470063#100000000, 17212422#1000000000);
(92181599#1000000, 99501495#100000000, 18284172#1000000000);
(92872097#1000000, 99558185#100000000, 18894428#1000000000);
(93221241#1000000, 99595977#100000000, 19084671#1000000000);
(94284601#1000000, 99695161#100000000, 19286627#1000000000);
(953725#10000, 99772208#100000000, 19222842#1000000000);
(95740734#1000000, 99795744#100000000, 1916045#100000000);
(96485798#1000000, 99827584#100000000, 19168297#1000000000);
(97242549#1000000, 99857734#100000000, 19147437#1000000000);
(97625394#1000000, 9987782#10000000, 19210163#1000000000);
(991874#10000, 9993524#10000000, 19359438#1000000000);
(99585743#1000000, 99961947#100000000, 19492551#1000000000);
(99987298#1000000, 99982556#100000000, 19476648#1000000000);
(10039211#100000, 10000596#10000000, 19572245#1000000000);
(10162643#100000, 10009382#10000000, 19692337#1000000000);
(10204465#100000, 10013367#10000000, 19673164#1000000000);
(10210095#100000, 10013502#10000000, 19664788#1000000000);
(10375251#100000, 1002314#1000000, 19425577#1000000000);
(10418845#100000, 10027708#10000000, 19501429#1000000000);
(10462806#100000, 1003153#1000000, 19306449#1000000000);
(1050714#10000, 10036079#10000000, 19213961#1000000000);
(10551851#100000, 10040186#10000000, 18936708#1000000000);
(10596944#100000, 10044714#10000000, 18615227#1000000000);
(10734567#100000, 10050659#10000000, 1734867#100000000);
(10781239#100000, 10051795#10000000, 16967556#1000000000);
(10828319#100000, 10051568#10000000, 16629679#1000000000);
(10875811#100000, 10050994#10000000, 16328544#1000000000);
(11020822#100000, 10052996#10000000, 15936187#1000000000);
(11119664#100000, 10056205#10000000, 15548674#1000000000);
(11169752#100000, 10057863#10000000, 15248607#1000000000);
(11220294#100000, 1005873#1000000, 14893207#1000000000);
(11271295#100000, 10059311#10000000, 14617073#1000000000);
(1127437#10000, 10058593#10000000, 14580332#1000000000);
(11291826#100000, 10058697#10000000, 14524239#1000000000);
(11305211#100000, 10058036#10000000, 14462866#1000000000);
(11310368#100000, 10058355#10000000, 14434471#1000000000);
(11312432#100000, 10058369#10000000, 14457215#1000000000);
(11315529#100000, 10058447#10000000, 1441275#100000000);
(11317595#100000, 10058336#10000000, 14431922#1000000000);
(11319661#100000, 1005862#1000000, 14392404#1000000000);
(11327935#100000, 10057908#10000000, 14385082#1000000000);
(11330005#100000, 10058121#10000000, 14343605#1000000000);
(11333112#100000, 10057873#10000000, 14362258#1000000000);
(11335185#100000, 1005779#1000000, 14337993#1000000000);
(11338294#100000, 10057751#10000000, 14369437#1000000000);
(11346596#100000, 10057286#10000000, 14381668#1000000000);
(11348673#100000, 10057677#10000000, 14417732#1000000000);
(11353869#100000, 10057857#10000000, 14384142#1000000000);
(11362193#100000, 10057839#10000000, 14385005#1000000000);
(11367402#100000, 10057752#10000000, 14350712#1000000000);
(11371572#100000, 10057731#10000000, 14399815#1000000000);
(11374702#100000, 10057911#10000000, 14406931#1000000000);
(11385147#100000, 10058633#10000000, 14420166#1000000000);
(1139247#10000, 10059026#10000000, 14362547#1000000000);
(11402948#100000, 10059049#10000000, 1435124#100000000);
(11416598#100000, 10060122#10000000, 14389994#1000000000);
(11419752#100000, 1006018#1000000, 14362233#1000000000);
(11425014#100000, 10060686#10000000, 14361641#1000000000);
(11432388#100000, 10061159#10000000, 14293145#1000000000);
(11435552#100000, 10061175#10000000, 14292651#1000000000);
(11450337#100000, 10062021#10000000, 14257231#1000000000);
(11456685#100000, 10062632#10000000, 14195508#1000000000);
(11472587#100000, 10063598#10000000, 14137822#1000000000);
(1148534#10000, 10064752#10000000, 14047527#1000000000);
(11487469#100000, 10064508#10000000, 13992636#1000000000);
(11492793#100000, 10064607#10000000, 1395612#100000000);
(1149599#10000, 10064241#10000000, 13916744#1000000000);
(11506659#100000, 10065022#10000000, 13897461#1000000000);
(11508795#100000, 10064728#10000000, 13865699#1000000000);
(11515209#100000, 10065251#10000000, 13858077#1000000000);
(11520558#100000, 10065384#10000000, 13814758#1000000000);
(115227#1000, 10065668#10000000, 13763935#1000000000);
(11524842#100000, 10065504#10000000, 13777618#1000000000);
(11528057#100000, 10065913#10000000, 13761381#1000000000);
(11530201#100000, 10065926#10000000, 13719696#1000000000);
(11533419#100000, 1006589#1000000, 13702572#1000000000);
(11542008#100000, 1006599#1000000, 13678146#1000000000);
(11544157#100000, 10066422#10000000, 1362422#100000000);
(11549534#100000, 10066239#10000000, 13621136#1000000000);
(11552763#100000, 10066288#10000000, 13593904#1000000000);
(11554916#100000, 10066441#10000000, 13594937#1000000000);
(1155707#10000, 10066512#10000000, 13563395#1000000000);
(11565695#100000, 10066629#10000000, 13586398#1000000000);
(11568933#100000, 10066917#10000000, 13553098#1000000000);
(11571092#100000, 10067454#10000000, 13554561#1000000000);
(11587313#100000, 10067662#10000000, 13445803#1000000000);
(11590563#100000, 10068369#10000000, 13460957#1000000000);
(11595983#100000, 10068665#10000000, 13402123#1000000000);
(11601408#100000, 10069406#10000000, 13375939#1000000000);
(11609012#100000, 10069746#10000000, 13264886#1000000000);
(1161445#10000, 10070247#10000000, 13228675#1000000000);
(11619892#100000, 1007041#1000000, 13141412#1000000000);
(1162534#10000, 1007067#1000000, 13090913#1000000000);
(11628611#100000, 10070671#10000000, 13048258#1000000000);
(11636251#100000, 1007093#1000000, 12984176#1000000000);
(11647182#100000, 10071848#10000000, 12880007#1000000000);
(1164937#10000, 1007178#1000000, 1282654#100000000);
(11652655#100000, 10071762#10000000, 1281331#100000000);
(11661423#100000, 10072314#10000000, 12693064#1000000000);
(1166691#10000, 10072545#10000000, 1265925#100000000)].
Definition silicon_data_6 : list chemical_row := [
(11671303#100000, 10072711#10000000, 12566275#1000000000);
(11685603#100000, 10072595#10000000, 1244195#100000000);
(11688908#100000, 10072894#10000000, 12440728#1000000000);
(11693318#100000, 10073479#10000000, 12392336#1000000000);
(11699939#100000, 10074395#10000000, 12311316#1000000000);
(1171099#10000, 10076183#10000000, 12026486#1000000000);
(11713203#100000, 10076271#10000000, 11933438#1000000000);
(11720954#100000, 10075474#10000000, 11682663#1000000000);
(11724279#100000, 10075373#10000000, 11624684#1000000000);
(11737598#100000, 10073764#10000000, 11309419#1000000000);
(11740933#100000, 10073648#10000000, 11260651#1000000000);
(11746495#100000, 1007287#1000000, 11129726#1000000000);
(11752062#100000, 10072062#10000000, 11024567#1000000000);
(11759864#100000, 1007076#1000000, 10912887#1000000000);
(11768794#100000, 10069429#10000000, 10784#1000000);
(11772147#100000, 10068692#10000000, 10773542#1000000000);
(11779976#100000, 10067729#10000000, 10674826#1000000000);
(11787816#100000, 10066574#10000000, 10610065#1000000000);
(11791179#100000, 10065984#10000000, 10570261#1000000000);
(11804651#100000, 10063837#10000000, 10494381#1000000000);
(11813649#100000, 100626#100000, 10469531#1000000000);
(11815901#100000, 10062551#10000000, 10422506#1000000000);
(1181928#10000, 10062161#10000000, 10420867#1000000000);
(11830558#100000, 10059802#10000000, 10348618#1000000000);
(11836205#100000, 10059019#10000000, 10387768#1000000000);
(11838466#100000, 10058774#10000000, 10374383#1000000000);
(11847516#100000, 10057735#10000000, 10399677#1000000000);
(11856579#100000, 10056758#10000000, 10380809#1000000000);
(11861116#100000, 10056297#10000000, 10361472#1000000000);
(11864522#100000, 10055742#10000000, 10364459#1000000000);
(11867929#100000, 10055319#10000000, 10344771#1000000000);
(11872474#100000, 10054511#10000000, 10372519#1000000000);
(11889552#100000, 10052359#10000000, 10364742#1000000000);
(11896397#100000, 10051403#10000000, 10375126#1000000000);
(1191011#10000, 10049607#10000000, 1053273#100000000);
(11921562#100000, 10048895#10000000, 10613338#1000000000);
(11935334#100000, 1004816#1000000, 10652801#1000000000);
(11944533#100000, 10047305#10000000, 10645747#1000000000);
(11956051#100000, 10045677#10000000, 10660881#1000000000);
(11965282#100000, 10044134#10000000, 10748069#1000000000);
(11967592#100000, 10043626#10000000, 10755014#1000000000);
(1197337#10000, 10042463#10000000, 10836314#1000000000);
(11984944#100000, 10040576#10000000, 11071587#1000000000);
(11987262#100000, 10039685#10000000, 11195007#1000000000);
(11996541#100000, 10040028#10000000, 11474237#1000000000);
(12000024#100000, 10040593#10000000, 11536944#1000000000);
(12004672#100000, 10041023#10000000, 11701145#1000000000);
(12013978#100000, 10042751#10000000, 11814416#1000000000);
(12023298#100000, 1004409#1000000, 11845638#1000000000);
(12037306#100000, 10043685#10000000, 11787821#1000000000);
(12043152#100000, 10043182#10000000, 11839975#1000000000);
(12051346#100000, 10042269#10000000, 11968432#1000000000);
(12063072#100000, 10042103#10000000, 12266207#1000000000);
(12072468#100000, 10043023#10000000, 12531482#1000000000);
(12078349#100000, 10044522#10000000, 12683538#1000000000);
(12084235#100000, 10046439#10000000, 12759347#1000000000);
(12090127#100000, 10048495#10000000, 12745411#1000000000);
(12092485#100000, 10049318#10000000, 12688522#1000000000);
(12101928#100000, 10050028#10000000, 12442752#1000000000);
(12107837#100000, 10049345#10000000, 12346514#1000000000);
(12113752#100000, 10048217#10000000, 12298672#1000000000);
(12119673#100000, 10046909#10000000, 12330036#1000000000);
(12125599#100000, 10045997#10000000, 12406403#1000000000);
(12133906#100000, 10044178#10000000, 12476984#1000000000);
(12137469#100000, 10043214#10000000, 12555305#1000000000);
(12143413#100000, 10042303#10000000, 12770765#1000000000);
(12149363#100000, 10041287#10000000, 12884189#1000000000);
(12151745#100000, 10040577#10000000, 1299593#100000000);
(12155319#100000, 10039639#10000000, 13155637#1000000000);
(1216128#10000, 10039936#10000000, 1354095#100000000);
(12167247#100000, 10040109#10000000, 13701357#1000000000);
(12169636#100000, 10039618#10000000, 13883595#1000000000);
(12176807#100000, 10040306#10000000, 14283288#1000000000);
(12185184#100000, 10041714#10000000, 14767116#1000000000);
(12197172#100000, 10045073#10000000, 15520317#1000000000);
(12199572#100000, 10045447#10000000, 15752656#1000000000);
(12203174#100000, 10047056#10000000, 15961042#1000000000);
(12215197#100000, 10055184#10000000, 16806425#1000000000);
(12221217#100000, 1006063#1000000, 17173028#1000000000);
(12227244#100000, 10067285#10000000, 17375664#1000000000);
(12229656#100000, 10069845#10000000, 17421277#1000000000);
(12236898#100000, 10077261#10000000, 17435645#1000000000);
(12245358#100000, 10084653#10000000, 17323599#1000000000);
(12273238#100000, 10104186#10000000, 17272507#1000000000);
(12275668#100000, 10106563#10000000, 17312549#1000000000);
(12287834#100000, 10120557#10000000, 17323315#1000000000);
(12293927#100000, 10129224#10000000, 17174468#1000000000);
(12300025#100000, 10138004#10000000, 16758129#1000000000);
(12303687#100000, 10143507#10000000, 16473909#1000000000);
(12306129#100000, 10147082#10000000, 16134695#1000000000);
(12312239#100000, 10152289#10000000, 15259378#1000000000);
(12314685#100000, 10154295#10000000, 14822502#1000000000);
(12322028#100000, 10157599#10000000, 14405462#1000000000);
(12324478#100000, 10160224#10000000, 13968618#1000000000);
(12330607#100000, 10163621#10000000, 13171524#1000000000);
(12336741#100000, 10166025#10000000, 12430856#1000000000);
(12339197#100000, 10166788#10000000, 120241#10000000);
(12342882#100000, 10166985#10000000, 1158652#100000000);
(12351489#100000, 10166635#10000000, 10316004#1000000000);
(12355182#100000, 10164906#10000000, 99598694#10000000000)].
Definition silicon_data_7 : list chemical_row := [
(12361341#100000, 10162166#10000000, 93440764#10000000000);
(12363806#100000, 10160984#10000000, 9148153#1000000000);
(12367506#100000, 10159106#10000000, 89771676#10000000000);
(12371208#100000, 1015837#1000000, 88597136#10000000000);
(12376148#100000, 10157801#10000000, 85657687#10000000000);
(12383565#100000, 10157979#10000000, 82991886#10000000000);
(12394707#100000, 10160143#10000000, 75745766#10000000000);
(12398425#100000, 10160899#10000000, 73429835#10000000000);
(12401649#100000, 10161841#10000000, 70886148#10000000000);
(12404503#100000, 10162837#10000000, 68035367#10000000000);
(12407607#100000, 10163405#10000000, 64801997#10000000000);
(1241096#10000, 10164421#10000000, 61396933#10000000000);
(12413942#100000, 10165199#10000000, 57284284#10000000000);
(12416926#100000, 1016542#1000000, 52550174#10000000000);
(12420036#100000, 1016476#1000000, 47501712#10000000000);
(12426384#100000, 10160966#10000000, 37249451#10000000000);
(12429623#100000, 1015814#1000000, 32575852#10000000000);
(1243249#10000, 10154873#10000000, 28154668#10000000000);
(12435857#100000, 10150212#10000000, 24546323#10000000000);
(12438726#100000, 10145997#10000000, 21828563#10000000000);
(12442097#100000, 10141111#10000000, 20167453#10000000000);
(12444969#100000, 1013727#1000000, 19145645#10000000000);
(12448093#100000, 10133587#10000000, 18574869#10000000000);
(12451218#100000, 10130142#10000000, 18097724#10000000000);
(12454595#100000, 10126818#10000000, 17987976#10000000000);
(12457724#100000, 10124#10000, 17990153#10000000000);
(12460729#100000, 10121834#10000000, 18158221#10000000000);
(12500265#100000, 10100816#10000000, 1811323#1000000000);
(12702445#100000, 1005514#1000000, 17886972#10000000000);
(129079#1000, 10031393#10000000, 17933555#10000000000);
(13116667#100000, 10014136#10000000, 18047693#10000000000);
(13328816#100000, 99999357#100000000, 18162551#10000000000);
(13544403#100000, 99873895#100000000, 18278216#10000000000);
(13763472#100000, 99759023#100000000, 18515002#10000000000);
(13986083#100000, 99651975#100000000, 1881446#1000000000);
(14212298#100000, 99549779#100000000, 1911879#1000000000);
(14442181#100000, 99450615#100000000, 19428032#10000000000);
(14675766#100000, 99350196#100000000, 19742274#10000000000);
(14913138#100000, 9925036#10000000, 20583998#10000000000);
(1515435#10000, 99154223#100000000, 21493673#10000000000);
(15399455#100000, 99057717#100000000, 22443476#10000000000);
(15648531#100000, 98957165#100000000, 23435345#10000000000);
(15901635#100000, 98858334#100000000, 25568263#10000000000);
(16158826#100000, 98762534#100000000, 27915394#10000000000);
(16420189#100000, 98672711#100000000, 30477998#10000000000);
(16685766#100000, 9858894#10000000, 32814453#10000000000);
(16955644#100000, 98503126#100000000, 34732224#10000000000);
(17229894#100000, 98415946#100000000, 36762083#10000000000);
(17508561#100000, 98330971#100000000, 38910584#10000000000);
(17791743#100000, 98249565#100000000, 40504377#10000000000);
(18079515#100000, 98163335#100000000, 41519719#10000000000);
(18371929#100000, 98072801#100000000, 42560495#10000000000);
(18669093#100000, 97979489#100000000, 43627434#10000000000);
(18971035#100000, 97885041#100000000, 44720898#10000000000);
(19277897#100000, 97788787#100000000, 45175503#10000000000);
(19589678#100000, 97685429#100000000, 45584151#10000000000);
(19906532#100000, 97577036#100000000, 45996574#10000000000);
(20228522#100000, 97463693#100000000, 46412764#10000000000);
(20555679#100000, 97344863#100000000, 46832637#10000000000);
(20888172#100000, 97219269#100000000, 47333727#10000000000);
(21226#100, 97089035#100000000, 48491367#10000000000);
(21569343#100000, 96957417#100000000, 49677533#10000000000);
(21918201#100000, 96822721#100000000, 50892542#10000000000);
(22272686#100000, 96684012#100000000, 52137228#10000000000);
(22632958#100000, 96540917#100000000, 53412667#10000000000);
(22999017#100000, 96393034#100000000, 54718968#10000000000);
(23370986#100000, 96239493#100000000, 56057167#10000000000);
(23748997#100000, 96080474#100000000, 57682744#10000000000);
(2413314#10000, 95917215#100000000, 59460856#10000000000);
(24523462#100000, 95750195#100000000, 61293554#10000000000);
(24920105#100000, 95578151#100000000, 63182866#10000000000);
(25323167#100000, 95400883#100000000, 65130527#10000000000);
(2573275#10000, 95218149#100000000, 67138037#10000000000);
(2614896#10000, 95029703#100000000, 69207534#10000000000);
(26571906#100000, 94835743#100000000, 71340945#10000000000);
(27001701#100000, 94635754#100000000, 73494552#10000000000);
(274384#1000, 94428958#100000000, 75613526#10000000000);
(27882243#100000, 94214815#100000000, 77793873#10000000000);
(2833317#10000, 93993354#100000000, 80036723#10000000000);
(28791431#100000, 93764307#100000000, 82344482#10000000000);
(29257163#100000, 93527392#100000000, 84719135#10000000000);
(29730366#100000, 93282457#100000000, 87161717#10000000000);
(30211176#100000, 93029249#100000000, 89674662#10000000000);
(30699809#100000, 92767344#100000000, 92260159#10000000000);
(31196422#100000, 92499048#100000000, 94920687#10000000000);
(31700933#100000, 92221797#100000000, 97257916#10000000000);
(32213742#100000, 91931583#100000000, 99402337#10000000000);
(3273477#10000, 91628928#100000000, 10159375#1000000000);
(33264181#100000, 91313922#100000000, 103833#10000000);
(3380224#10000, 90986102#100000000, 10612232#1000000000);
(34348949#100000, 90645006#100000000, 10846157#1000000000);
(34904493#100000, 90290052#100000000, 11085247#1000000000);
(35469066#100000, 89920462#100000000, 11329638#1000000000);
(36042771#100000, 89535552#100000000, 11579429#1000000000);
(36625709#100000, 89134482#100000000, 11834665#1000000000);
(3721809#10000, 88716232#100000000, 12095578#1000000000);
(37820024#100000, 88279714#100000000, 12362186#1000000000);
(38431739#100000, 87823356#100000000, 12634706#1000000000);
(39053356#100000, 87344195#100000000, 12913259#1000000000);
(39684992#100000, 86843403#100000000, 13266915#1000000000)].
Definition silicon_data_8 : list chemical_row := [
(40326901#100000, 86322059#100000000, 13659077#1000000000);
(40979214#100000, 85781403#100000000, 14062872#1000000000);
(41641925#100000, 85217072#100000000, 14478486#1000000000);
(42315444#100000, 84627181#100000000, 14906438#1000000000);
(430038#1000, 843#1000, 147#10000);
(439957#1000, 834#1000, 152#10000);
(450018#1000, 824#1000, 158#10000);
(460037#1000, 814#1000, 168#10000);
(469977#1000, 803#1000, 178#10000);
(479985#1000, 792#1000, 192#10000);
(49004#100, 778#1000, 205#10000);
(499919#1000, 766#1000, 223#10000);
(509996#1000, 752#1000, 243#10000);
(52005#100, 737#1000, 264#10000);
(530056#1000, 722#1000, 292#10000);
(539983#1000, 706#1000, 325#10000);
(550044#1000, 691#1000, 365#10000);
(559982#1000, 675#1000, 405#10000);
(570023#1000, 659#1000, 455#10000);
(579888#1000, 644#1000, 51#1000);
(5901#10, 627#1000, 58#1000);
(600097#1000, 61#100, 65#1000);
(609838#1000, 59#100, 74#1000);
(6199#10, 567#1000, 835#10000);
(62998#100, 549#1000, 93#1000);
(640062#1000, 53#100, 1#10);
(650131#1000, 513#1000, 113#1000);
(652526#1000, 514#1000, 163#1000);
(670162#1000, 485#1000, 189#1000);
(688778#1000, 455#1000, 219#1000);
(698479#1000, 44#100, 237#1000);
(708457#1000, 426#1000, 255#1000);
(718725#1000, 411#1000, 275#1000);
(729294#1000, 397#1000, 296#1000);
(737976#1000, 386#1000, 314#1000);
(742395#1000, 379#1000, 323#1000);
(746867#1000, 374#1000, 333#1000);
(751394#1000, 369#1000, 342#1000);
(762954#1000, 357#1000, 367#1000);
(774875#1000, 345#1000, 394#1000);
(787175#1000, 333#1000, 421#1000);
(799871#1000, 323#1000, 45#100);
(812984#1000, 313#1000, 479#1000);
(826533#1000, 304#1000, 51#100);
(840542#1000, 296#1000, 541#1000);
(855034#1000, 288#1000, 573#1000);
(870035#1000, 281#1000, 607#1000);
(885571#1000, 275#1000, 641#1000);
(901673#1000, 269#1000, 677#1000);
(91837#100, 265#1000, 714#1000);
(935698#1000, 261#1000, 752#1000);
(953692#1000, 258#1000, 792#1000);
(972392#1000, 256#1000, 833#1000);
(99184#100, 255#1000, 875#1000);
(101208#100, 256#1000, 918#1000);
(103317#100, 257#1000, 963#1000);
(105515#100, 259#1000, 101#100);
(107809#100, 263#1000, 106#100);
(110204#100, 267#1000, 111#100);
(112709#100, 272#1000, 116#100);
(11533#10, 278#1000, 121#100);
(118076#100, 286#1000, 126#100);
(120956#100, 295#1000, 132#100);
(12398#10, 306#1000, 138#100);
(127159#100, 318#1000, 145#100);
(130505#100, 332#1000, 151#100);
(134032#100, 348#1000, 158#100);
(137756#100, 367#1000, 166#100);
(141691#100, 389#1000, 173#100);
(145859#100, 414#1000, 182#100);
(150279#100, 444#1000, 19#10);
(154975#100, 478#1000, 2#1);
(159974#100, 517#1000, 21#10);
(165307#100, 563#1000, 221#100);
(171007#100, 618#1000, 232#100);
(177114#100, 682#1000, 245#100);
(183674#100, 756#1000, 258#100);
(190738#100, 847#1000, 273#100);
(198368#100, 968#1000, 289#100);
(206633#100, 101#100, 2909#1000);
(207324#100, 1036#1000, 2928#1000);
(20802#10, 1046#1000, 2944#1000);
(208721#100, 1066#1000, 2937#1000);
(209426#100, 107#100, 2963#1000);
(210136#100, 1083#1000, 2982#1000);
(21085#10, 1088#1000, 2987#1000);
(21157#10, 1102#1000, 3005#1000);
(212295#100, 1109#1000, 3015#1000);
(213024#100, 1119#1000, 3025#1000);
(213759#100, 1133#1000, 3045#1000);
(214498#100, 1139#1000, 3061#1000);
(215243#100, 1155#1000, 3073#1000);
(215993#100, 1164#1000, 3086#1000);
(216748#100, 1175#1000, 3102#1000);
(217509#100, 118#100, 3112#1000);
(218275#100, 1195#1000, 3135#1000);
(219046#100, 1211#1000, 315#100);
(219823#100, 1222#1000, 3169#1000);
(220605#100, 1235#1000, 319#100);
(221393#100, 1247#1000, 3206#1000)].
Definition silicon_data_9 : list chemical_row := [
(222186#100, 1265#1000, 3228#1000);
(222986#100, 128#100, 3245#1000);
(223791#100, 1299#1000, 3267#1000);
(224601#100, 1319#1000, 3285#1000);
(225418#100, 134#100, 3302#1000);
(226241#100, 1362#1000, 3319#1000);
(22707#10, 1389#1000, 3334#1000);
(227904#100, 1416#1000, 335#100);
(228745#100, 1445#1000, 3359#1000);
(229593#100, 1471#1000, 3366#1000);
(230446#100, 1502#1000, 3368#1000);
(231306#100, 1526#1000, 3368#1000);
(232172#100, 1548#1000, 3364#1000);
(233045#100, 1566#1000, 3358#1000);
(233925#100, 1579#1000, 3353#1000);
(234811#100, 1585#1000, 3346#1000);
(235703#100, 159#100, 3344#1000);
(236603#100, 1591#1000, 3344#1000);
(23751#10, 1592#1000, 3347#1000);
(238423#100, 1589#1000, 3354#1000);
(239344#100, 1586#1000, 3363#1000);
(240271#100, 1582#1000, 3376#1000);
(241206#100, 1579#1000, 3389#1000);
(242148#100, 1573#1000, 3408#1000);
(243098#100, 1571#1000, 3429#1000);
(244055#100, 157#100, 3451#1000);
(24502#10, 1569#1000, 3477#1000);
(245992#100, 1568#1000, 3504#1000);
(246972#100, 1569#1000, 3533#1000);
(24796#10, 157#100, 3565#1000);
(248956#100, 1575#1000, 3598#1000);
(24996#10, 158#100, 3632#1000);
(250972#100, 1584#1000, 367#100);
(251992#100, 1591#1000, 3709#1000);
(25302#10, 1597#1000, 3749#1000);
(254057#100, 1608#1000, 3789#1000);
(255103#100, 1618#1000, 3835#1000);
(256157#100, 1629#1000, 388#100);
(25722#10, 1643#1000, 3928#1000);
(258292#100, 1658#1000, 3979#1000);
(259372#100, 1673#1000, 4031#1000);
(260462#100, 1692#1000, 4088#1000);
(261561#100, 1713#1000, 4149#1000);
(26267#10, 1737#1000, 4211#1000);
(263787#100, 1764#1000, 4278#1000);
(264915#100, 1794#1000, 435#100);
(266052#100, 1831#1000, 4426#1000);
(267198#100, 1874#1000, 4506#1000);
(268355#100, 1927#1000, 459#100);
(269522#100, 1988#1000, 4678#1000);
(270699#100, 2059#1000, 4764#1000);
(271886#100, 214#100, 4849#1000);
(273084#100, 2234#1000, 4933#1000);
(274292#100, 2339#1000, 5011#1000);
(275511#100, 2451#1000, 5082#1000);
(276741#100, 2572#1000, 5148#1000);
(277982#100, 27#10, 5206#1000);
(279234#100, 2833#1000, 5257#1000);
(280498#100, 2974#1000, 5304#1000);
(281773#100, 312#100, 5344#1000);
(283059#100, 3277#1000, 5381#1000);
(284358#100, 3444#1000, 5414#1000);
(285668#100, 3634#1000, 5435#1000);
(286991#100, 3849#1000, 5439#1000);
(288326#100, 4086#1000, 5395#1000);
(289673#100, 4318#1000, 5301#1000);
(291033#100, 4525#1000, 5158#1000);
(292406#100, 4686#1000, 4989#1000);
(293791#100, 4805#1000, 4812#1000);
(29519#10, 4888#1000, 4639#1000);
(296603#100, 4941#1000, 448#100);
(298029#100, 4977#1000, 4335#1000);
(299469#100, 4999#1000, 4204#1000);
(300922#100, 5012#1000, 4086#1000);
(30239#10, 502#100, 3979#1000);
(303873#100, 5021#1000, 3885#1000);
(305369#100, 502#100, 3798#1000);
(306881#100, 5018#1000, 372#100);
(308408#100, 5015#1000, 365#100);
(30995#10, 501#100, 3587#1000);
(311508#100, 5009#1000, 3529#1000);
(313081#100, 501#100, 3477#1000);
(31467#10, 5009#1000, 3429#1000);
(316276#100, 5012#1000, 3386#1000);
(317897#100, 5016#1000, 3346#1000);
(319536#100, 5021#1000, 331#100);
(321192#100, 5029#1000, 3275#1000);
(322865#100, 504#100, 3242#1000);
(324555#100, 5052#1000, 3211#1000);
(326263#100, 5065#1000, 3182#1000);
(327989#100, 5079#1000, 3154#1000);
(329734#100, 5095#1000, 3128#1000);
(331497#100, 5115#1000, 3103#1000);
(33328#10, 5134#1000, 3079#1000);
(335081#100, 5156#1000, 3058#1000);
(336902#100, 5179#1000, 3039#1000);
(338743#100, 5204#1000, 3021#1000);
(340604#100, 5231#1000, 3007#1000);
(342486#100, 5261#1000, 2995#1000);
(344389#100, 5296#1000, 2987#1000)].
Definition silicon_data_10 : list chemical_row := [
(346313#100, 5336#1000, 2983#1000);
(348258#100, 5383#1000, 2984#1000);
(350226#100, 5442#1000, 2989#1000);
(352216#100, 5515#1000, 2999#1000);
(354229#100, 561#100, 3014#1000);
(356264#100, 5733#1000, 3026#1000);
(358324#100, 5894#1000, 3023#1000);
(360407#100, 6089#1000, 2982#1000);
(362515#100, 6308#1000, 2881#1000);
(364647#100, 6522#1000, 2705#1000);
(366805#100, 6695#1000, 2456#1000);
(368988#100, 6796#1000, 2169#1000);
(371198#100, 6829#1000, 187#100);
(373434#100, 6799#1000, 1577#1000);
(375697#100, 6709#1000, 1321#1000);
(377988#100, 6585#1000, 111#100);
(380307#100, 6452#1000, 945#1000);
(382654#100, 6316#1000, 815#1000);
(385031#100, 6185#1000, 714#1000);
(387438#100, 6062#1000, 63#100);
(389874#100, 5948#1000, 561#1000);
(392342#100, 5842#1000, 505#1000);
(394841#100, 5744#1000, 456#1000);
(397372#100, 5654#1000, 416#1000);
(399935#100, 557#100, 387#1000);
(402532#100, 5493#1000, 355#1000);
(405163#100, 542#100, 329#1000);
(407829#100, 5349#1000, 313#1000);
(41053#10, 5284#1000, 291#1000);
(413267#100, 5222#1000, 269#1000);
(41604#10, 5164#1000, 255#1000);
(418851#100, 5109#1000, 244#1000);
(421701#100, 5058#1000, 228#1000);
(424589#100, 5009#1000, 211#1000);
(427517#100, 4961#1000, 203#1000);
(430486#100, 4916#1000, 194#1000);
(433497#100, 4872#1000, 185#1000);
(436549#100, 4831#1000, 185#1000);
(439645#100, 4791#1000, 17#100);
(442786#100, 4753#1000, 163#1000);
(445971#100, 4718#1000, 149#1000);
(449203#100, 4682#1000, 149#1000);
(452482#100, 4648#1000, 133#1000);
(455809#100, 4615#1000, 131#1000);
(459185#100, 4583#1000, 13#100);
(462612#100, 4553#1000, 131#1000);
(46609#10, 4522#1000, 134#1000);
(469621#100, 4495#1000, 12#100);
(473206#100, 4466#1000, 12#100);
(476846#100, 4442#1000, 9#100);
(480543#100, 4416#1000, 94#1000);
(484297#100, 4391#1000, 83#1000);
(48811#10, 4367#1000, 79#1000);
(491984#100, 4343#1000, 77#1000);
(49592#10, 432#100, 73#1000);
(499919#100, 4298#1000, 73#1000);
(503984#100, 4277#1000, 66#1000);
(508115#100, 4255#1000, 72#1000);
(512314#100, 4235#1000, 6#100);
(516583#100, 4215#1000, 6#100);
(520924#100, 4196#1000, 56#1000);
(525339#100, 4177#1000, 53#1000);
(529829#100, 4159#1000, 43#1000);
(534397#100, 414#100, 45#1000);
(539044#100, 4123#1000, 48#1000);
(543772#100, 4106#1000, 44#1000);
(548584#100, 4089#1000, 44#1000);
(553482#100, 4073#1000, 32#1000);
(558468#100, 4057#1000, 38#1000);
(563545#100, 4042#1000, 32#1000);
(568716#100, 4026#1000, 34#1000);
(573981#100, 4012#1000, 3#100);
(579346#100, 3997#1000, 27#1000);
(584811#100, 3983#1000, 3#100);
(590381#100, 3969#1000, 3#100);
(596058#100, 3956#1000, 27#1000);
(601845#100, 3943#1000, 25#1000);
(607745#100, 3931#1000, 25#1000);
(613762#100, 3918#1000, 24#1000);
(6199#1, 3906#1000, 22#1000);
(626162#100, 3893#1000, 22#1000);
(632551#100, 3882#1000, 19#1000);
(639072#100, 387#100, 18#1000);
(645729#100, 3858#1000, 17#1000);
(652526#100, 3847#1000, 16#1000);
(659468#100, 3837#1000, 16#1000);
(666559#100, 3826#1000, 15#1000);
(673804#100, 3815#1000, 14#1000);
(681209#100, 3805#1000, 13#1000);
(688778#100, 3796#1000, 13#1000);
(696517#100, 3787#1000, 13#1000);
(704432#100, 3778#1000, 12#1000);
(712529#100, 3768#1000, 11#1000);
(720814#100, 3761#1000, 11#1000);
(729294#100, 3752#1000, 1#100);
(737976#100, 3745#1000, 1#100);
(746867#100, 3736#1000, 9#1000);
(755976#100, 3728#1000, 9#1000);
(765309#100, 3721#1000, 8#1000);
(774875#100, 3714#1000, 8#1000)].
Definition silicon_data_11 : list chemical_row := [
(784684#100, 3705#1000, 7#1000);
(794744#100, 3697#1000, 7#1000);
(805065#100, 3688#1000, 6#1000);
(815658#100, 3681#1000, 6#1000);
(826533#100, 3673#1000, 5#1000);
(111996#10, 35361#10000, 0#1);
(114373#10, 35295#10000, 0#1);
(120019#10, 35193#10000, 0#1);
(137192#10, 35007#10000, 0#1);
(139995#10, 34876#10000, 0#1);
(153194#10, 34784#10000, 0#1);
(159995#10, 3471#1000, 0#1);
(169603#10, 34644#10000, 0#1);
(179994#10, 34578#10000, 0#1);
(20000#1, 3449#1000, 0#1);
(243719#10, 34434#10000, 0#1);
(25001#1, 34424#10000, 0#1);
(27141#1, 34393#10000, 25#10000000000);
(299976#10, 34361#10000, 0#1);
(330349#10, 34335#10000, 0#1);
(341919#10, 34327#10000, 0#1);
(350028#10, 34321#10000, 0#1);
(399935#10, 34294#10000, 0#1);
(499919#10, 34261#10000, 199#1000000000);
(600097#10, 34242#10000, 0#1);
(700056#10, 34231#10000, 0#1);
(799871#10, 34224#10000, 153#10000000);
(89971#1, 34219#10000, 0#1);
(999839#10, 34215#10000, 676#10000000);
(134996#1, 34209#10000, 0#1);
(145006#1, 34208#10000, 0#1);
(150006#1, 34207#10000, 0#1);
(200000#1, 34204#10000, 286#1000000);
(250010#1, 34201#10000, 915#10000000);
(302981#1, 342#100, 0#1);
(499919#1, 34197#10000, 0#1);
(624899#1, 34195#10000, 17#100000);
(714170#1, 34192#10000, 19#100000);
(833199#1, 3419#1000, 23#100000);
(908944#1, 34188#10000, 0#1);
(999839#1, 34185#10000, 29#100000);
(1249920#1, 3418#1000, 43#100000);
(1668640#1, 3417#1000, 72#100000);
(2000000#1, 34165#10000, 1#1000);
(2500100#1, 3416#1000, 14#10000);
(3332800#1, 34155#10000, 0#1)].
Definition silicon_data : list chemical_row :=
  silicon_data_0 ++ silicon_data_1 ++ silicon_data_2 ++ silicon_data_3 ++ silicon_data_4 ++ silicon_data_5 ++ silicon_data_6 ++ silicon_data_7 ++ silicon_data_8 ++ silicon_data_9 ++ silicon_data_10 ++ silicon_data_11.
Definition oxide_data_0 : list chemical_row := [
(12398425#100000000, 99999995#100000000, 34588157#10000000000000000000);
(12460729#100000000, 99999994#100000000, 35329047#10000000000000000000);
(12523662#100000000, 99999994#100000000, 36088595#10000000000000000000);
(12651454#100000000, 99999994#100000000, 37666642#10000000000000000000);
(12848109#100000000, 99999994#100000000, 40204682#10000000000000000000);
(13050974#100000000, 99999994#100000000, 42947986#10000000000000000000);
(13189814#100000000, 99999994#100000000, 44911943#10000000000000000000);
(1333164#10000000, 99999994#100000000, 46983071#10000000000000000000);
(13550191#100000000, 99999993#100000000, 50326701#10000000000000000000);
(13776028#100000000, 99999993#100000000, 53956244#10000000000000000000);
(13930815#100000000, 99999993#100000000, 56564643#10000000000000000000);
(14089119#100000000, 99999993#100000000, 59323738#10000000000000000000);
(14333439#100000000, 99999993#100000000, 63796567#10000000000000000000);
(14586382#100000000, 99999992#100000000, 68674879#10000000000000000000);
(1476003#10000000, 99999992#100000000, 72196522#10000000000000000000);
(14937861#100000000, 99999992#100000000, 75934081#10000000000000000000);
(15212791#100000000, 99999992#100000000, 82021666#10000000000000000000);
(15498031#100000000, 99999991#100000000, 88696648#10000000000000000000);
(15634836#100000000, 99999991#100000000, 92054787#10000000000000000000);
(15774078#100000000, 99999991#100000000, 95564656#10000000000000000000);
(16078881#100000000, 99999991#100000000, 10361258#1000000000000000000);
(16313717#100000000, 9999999#10000000, 11015754#1000000000000000000);
(16421755#100000000, 9999999#10000000, 11327527#1000000000000000000);
(16540055#100000000, 9999999#10000000, 1167599#100000000000000000);
(16709468#100000000, 9999999#10000000, 1219149#100000000000000000);
(16868605#100000000, 9999999#10000000, 12690148#1000000000000000000);
(17030804#100000000, 9999999#10000000, 13213142#1000000000000000000);
(17220035#100000000, 99999989#100000000, 1384243#100000000000000000);
(1746257#10000000, 99999989#100000000, 14686377#1000000000000000000);
(17712036#100000000, 99999989#100000000, 15591889#1000000000000000000);
(17968732#100000000, 99999988#100000000, 16569452#1000000000000000000);
(18232978#100000000, 99999988#100000000, 17620291#1000000000000000000);
(18395289#100000000, 99999988#100000000, 18292336#1000000000000000000);
(18552185#100000000, 99999988#100000000, 18958979#1000000000000000000);
(18813998#100000000, 99999987#100000000, 20115607#1000000000000000000);
(190745#1000000, 99999987#100000000, 21315203#1000000000000000000);
(19372539#100000000, 99999987#100000000, 22758886#1000000000000000000);
(1968004#10000000, 99999986#100000000, 24319553#1000000000000000000);
(19901164#100000000, 99999986#100000000, 25495323#1000000000000000000);
(20160041#100000000, 99999985#100000000, 26922251#1000000000000000000);
(20392146#100000000, 99999985#100000000, 28256621#1000000000000000000);
(20664042#100000000, 99999985#100000000, 29878471#1000000000000000000);
(20733152#100000000, 99999985#100000000, 30301988#1000000000000000000);
(2082369#10000000, 99999985#100000000, 30863217#1000000000000000000);
(21193889#100000000, 99999984#100000000, 33241882#1000000000000000000);
(21376595#100000000, 99999984#100000000, 3446614#100000000000000000);
(21551234#100000000, 99999983#100000000, 35668273#1000000000000000000);
(21828213#100000000, 99999983#100000000, 3764017#100000000000000000);
(22140045#100000000, 99999982#100000000, 39957217#1000000000000000000);
(22339505#100000000, 99999982#100000000, 41496055#1000000000000000000);
(22420298#100000000, 99999982#100000000, 42130942#1000000000000000000);
(22481278#100000000, 99999982#100000000, 42614592#1000000000000000000);
(22542591#100000000, 99999982#100000000, 43104836#1000000000000000000);
(22563103#100000000, 99999982#100000000, 43270405#1000000000000000000);
(22583652#100000000, 99999982#100000000, 43436817#1000000000000000000);
(22596#100000, 99999982#100000000, 43536967#1000000000000000000);
(22600118#100000000, 99999982#100000000, 43570416#1000000000000000000);
(22602178#100000000, 99999982#100000000, 43640472#1000000000000000000);
(22604239#100000000, 99999982#100000000, 43675202#1000000000000000000);
(22610422#100000000, 99999982#100000000, 43725579#1000000000000000000);
(22616609#100000000, 99999982#100000000, 43776057#1000000000000000000);
(22624863#100000000, 99999982#100000000, 43843488#1000000000000000000);
(22686962#100000000, 99999982#100000000, 44352756#1000000000000000000);
(22749404#100000000, 99999982#100000000, 44869071#1000000000000000000);
(22960046#100000000, 99999981#100000000, 46641895#1000000000000000000);
(23174626#100000000, 99999981#100000000, 48505044#1000000000000000000);
(23393255#100000000, 9999998#10000000, 50456797#1000000000000000000);
(23616048#100000000, 9999998#10000000, 52511337#1000000000000000000);
(23843125#100000000, 9999998#10000000, 54665537#1000000000000000000);
(24074612#100000000, 99999979#100000000, 56935438#1000000000000000000);
(24310637#100000000, 99999979#100000000, 59317648#1000000000000000000);
(24551337#100000000, 99999978#100000000, 61830509#1000000000000000000);
(2479685#10000000, 99999978#100000000, 64470093#1000000000000000000);
(25047323#100000000, 99999978#100000000, 67247825#1000000000000000000);
(25302908#100000000, 99999977#100000000, 70175409#1000000000000000000);
(25563763#100000000, 99999977#100000000, 73266219#1000000000000000000);
(25830052#100000000, 99999976#100000000, 76519331#1000000000000000000);
(26101947#100000000, 99999976#100000000, 79962023#1000000000000000000);
(26379628#100000000, 99999975#100000000, 83589374#1000000000000000000);
(2666328#10000000, 99999975#100000000, 8742762#100000000000000000);
(26953098#100000000, 99999974#100000000, 91486496#1000000000000000000);
(27369592#100000000, 99999973#100000000, 97569005#1000000000000000000);
(27861629#100000000, 99999972#100000000, 10513583#100000000000000000);
(28306906#100000000, 99999971#100000000, 11235528#100000000000000000);
(28833547#100000000, 9999997#10000000, 12137471#100000000000000000);
(29310697#100000000, 99999969#100000000, 13001229#100000000000000000);
(29590513#100000000, 99999969#100000000, 13529765#100000000000000000);
(29875723#100000000, 99999968#100000000, 14083801#100000000000000000);
(30166484#100000000, 99999967#100000000, 14667473#100000000000000000);
(30388297#100000000, 99999967#100000000, 15123997#100000000000000000);
(30689171#100000000, 99999966#100000000, 15761996#100000000000000000);
(30996062#100000000, 99999966#100000000, 16432116#100000000000000000);
(31388418#100000000, 99999965#100000000, 1731909#10000000000000000);
(31790833#100000000, 99999964#100000000, 18266277#100000000000000000);
(32203701#100000000, 99999963#100000000, 19278497#100000000000000000);
(32627434#100000000, 99999962#100000000, 20361171#100000000000000000);
(33062467#100000000, 99999961#100000000, 21518421#100000000000000000);
(33509257#100000000, 9999996#10000000, 22758308#100000000000000000);
(33968288#100000000, 99999959#100000000, 24087987#100000000000000000);
(34411393#100000000, 99999958#100000000, 25426719#100000000000000000)].
Definition oxide_data_1 : list chemical_row := [
(34729482#100000000, 99999957#100000000, 26423568#100000000000000000);
(35123017#100000000, 99999956#100000000, 27694407#100000000000000000);
(35525573#100000000, 99999955#100000000, 29044711#100000000000000000);
(35937464#100000000, 99999954#100000000, 30471322#100000000000000000);
(36359018#100000000, 99999953#100000000, 31988004#100000000000000000);
(36681731#100000000, 99999952#100000000, 33187281#100000000000000000);
(37121033#100000000, 99999951#100000000, 34874577#100000000000000000);
(37570985#100000000, 9999995#10000000, 36669362#100000000000000000);
(38031979#100000000, 99999948#100000000, 38576935#100000000000000000);
(38385217#100000000, 99999947#100000000, 40088813#100000000000000000);
(38866536#100000000, 99999946#100000000, 42220901#100000000000000000);
(39360079#100000000, 99999945#100000000, 44495433#100000000000000000);
(39738542#100000000, 99999944#100000000, 46301884#100000000000000000);
(40254627#100000000, 99999942#100000000, 48854185#100000000000000000);
(40784293#100000000, 99999941#100000000, 51583241#100000000000000000);
(41328083#100000000, 99999939#100000000, 53830507#100000000000000000);
(41980318#100000000, 99999937#100000000, 57428603#100000000000000000);
(41996528#100000000, 99999937#100000000, 57521043#100000000000000000);
(42659192#100000000, 99999935#100000000, 61362858#100000000000000000);
(42675785#100000000, 99999935#100000000, 61462323#100000000000000000);
(43349166#100000000, 99999933#100000000, 65565365#100000000000000000);
(43365996#100000000, 99999933#100000000, 65671367#100000000000000000);
(44050398#100000000, 99999931#100000000, 70053748#100000000000000000);
(44067464#100000000, 99999931#100000000, 70166823#100000000000000000);
(44762889#100000000, 99999928#100000000, 74847251#100000000000000000);
(44780188#100000000, 99999928#100000000, 74967706#100000000000000000);
(45486789#100000000, 99999926#100000000, 79965925#100000000000000000);
(45504485#100000000, 99999926#100000000, 80095322#100000000000000000);
(46222594#100000000, 99999924#100000000, 85433017#100000000000000000);
(46240522#100000000, 99999923#100000000, 85570825#100000000000000000);
(46970136#100000000, 99999921#100000000, 91270864#100000000000000000);
(46988471#100000000, 99999921#100000000, 91419044#100000000000000000);
(47729941#100000000, 99999918#100000000, 97506087#100000000000000000);
(47748323#100000000, 99999918#100000000, 9766209#10000000000000000);
(48501827#100000000, 99999916#100000000, 10416348#10000000000000000);
(48520618#100000000, 99999916#100000000, 10433119#10000000000000000);
(4928635#10000000, 99999913#100000000, 11127322#10000000000000000);
(49305362#100000000, 99999913#100000000, 11145147#10000000000000000);
(50083517#100000000, 9999991#10000000, 11886495#10000000000000000);
(50102946#100000000, 9999991#10000000, 11905631#10000000000000000);
(50893521#100000000, 99999907#100000000, 12697126#10000000000000000);
(50913375#100000000, 99999907#100000000, 12717667#10000000000000000);
(51716777#100000000, 99999904#100000000, 13562802#10000000000000000);
(51736847#100000000, 99999904#100000000, 13584623#10000000000000000);
(52553291#100000000, 99999901#100000000, 14487107#10000000000000000);
(5257357#10000000, 99999901#100000000, 14510282#10000000000000000);
(53403276#100000000, 99999898#100000000, 15473972#10000000000000000);
(53423986#100000000, 99999898#100000000, 15498842#10000000000000000);
(54266953#100000000, 99999895#100000000, 1652769#1000000000000000);
(54288101#100000000, 99999894#100000000, 16554371#10000000000000000);
(55144796#100000000, 99999891#100000000, 17652889#10000000000000000);
(55166142#100000000, 99999891#100000000, 17681177#10000000000000000);
(56036559#100000000, 99999888#100000000, 18854019#10000000000000000);
(56058349#100000000, 99999887#100000000, 18884365#10000000000000000);
(5694299#10000000, 99999884#100000000, 20136665#10000000000000000);
(56964967#100000000, 99999884#100000000, 20168821#10000000000000000);
(578641#1000000, 9999988#10000000, 21506063#10000000000000000);
(57886523#100000000, 9999988#10000000, 21540547#10000000000000000);
(5879988#10000000, 99999876#100000000, 22967912#10000000000000000);
(58822755#100000000, 99999876#100000000, 23004849#10000000000000000);
(5975087#10000000, 99999872#100000000, 24528674#10000000000000000);
(59774203#100000000, 99999872#100000000, 24568278#10000000000000000);
(60717364#100000000, 99999868#100000000, 26195115#10000000000000000);
(60740863#100000000, 99999868#100000000, 26237#10000000000000);
(61699362#100000000, 99999864#100000000, 27974041#10000000000000000);
(6172332#10000000, 99999864#100000000, 28018951#10000000000000000);
(62697472#100000000, 99999859#100000000, 29873147#10000000000000000);
(62721577#100000000, 99999859#100000000, 29920551#10000000000000000);
(63711376#100000000, 99999855#100000000, 31899191#10000000000000000);
(63736268#100000000, 99999854#100000000, 31950585#10000000000000000);
(64742043#100000000, 9999985#10000000, 34061501#10000000000000000);
(6476707#10000000, 9999985#10000000, 34115775#10000000000000000);
(65789146#100000000, 99999845#100000000, 36368322#10000000000000000);
(65814639#100000000, 99999845#100000000, 36426371#10000000000000000);
(66853007#100000000, 9999984#10000000, 38829293#10000000000000000);
(66878971#100000000, 9999984#10000000, 38891371#10000000000000000);
(67934342#100000000, 99999835#100000000, 41455148#10000000000000000);
(67960781#100000000, 99999834#100000000, 41521449#10000000000000000);
(69033162#100000000, 99999829#100000000, 44256564#10000000000000000);
(69060079#100000000, 99999829#100000000, 4432745#1000000000000000);
(70149851#100000000, 99999824#100000000, 47245361#10000000000000000);
(70176851#100000000, 99999823#100000000, 4732002#1000000000000000);
(71284403#100000000, 99999818#100000000, 50433246#10000000000000000);
(71312284#100000000, 99999818#100000000, 50514223#10000000000000000);
(72437208#100000000, 99999812#100000000, 53833769#10000000000000000);
(72465574#100000000, 99999812#100000000, 53920205#10000000000000000);
(73609116#100000000, 99999806#100000000, 57461905#10000000000000000);
(73637533#100000000, 99999806#100000000, 57552769#10000000000000000);
(74799704#100000000, 99999799#100000000, 61331329#10000000000000000);
(74828597#100000000, 99999799#100000000, 61428389#10000000000000000);
(76009398#100000000, 99999793#100000000, 6545832#1000000000000000);
(76038766#100000000, 99999793#100000000, 65561853#10000000000000000);
(77238648#100000000, 99999786#100000000, 69859847#10000000000000000);
(77268974#100000000, 99999786#100000000, 69971998#10000000000000000);
(78487934#100000000, 99999779#100000000, 74554708#10000000000000000);
(78518752#100000000, 99999779#100000000, 74674319#10000000000000000);
(79757256#100000000, 99999772#100000000, 79561454#10000000000000000);
(79788566#100000000, 99999772#100000000, 79689#10000000000000);
(81047641#100000000, 99999764#100000000, 84902221#10000000000000000);
(81078912#100000000, 99999764#100000000, 85035905#10000000000000000)].
Definition oxide_data_2 : list chemical_row := [
(82358578#100000000, 99999757#100000000, 90596959#10000000000000000);
(82390321#100000000, 99999756#100000000, 90739433#10000000000000000);
(83690582#100000000, 99999749#100000000, 9666959#1000000000000000);
(83722795#100000000, 99999748#100000000, 96821231#10000000000000000);
(85044208#100000000, 9999974#10000000, 10314487#1000000000000000);
(85077472#100000000, 9999974#10000000, 10330929#1000000000000000);
(86419445#100000000, 99999732#100000000, 11004988#1000000000000000);
(86453191#100000000, 99999732#100000000, 11022482#1000000000000000);
(87817493#100000000, 99999723#100000000, 11741265#1000000000000000);
(87851717#100000000, 99999723#100000000, 1175988#100000000000000);
(89237748#100000000, 99999714#100000000, 12526338#1000000000000000);
(89272445#100000000, 99999714#100000000, 12546137#1000000000000000);
(90680814#100000000, 99999705#100000000, 13363215#1000000000000000);
(90716643#100000000, 99999704#100000000, 13384655#1000000000000000);
(92148028#100000000, 99999695#100000000, 14255862#1000000000000000);
(92183655#100000000, 99999695#100000000, 14278248#1000000000000000);
(93638035#100000000, 99999685#100000000, 15207204#1000000000000000);
(93674824#100000000, 99999685#100000000, 15231442#1000000000000000);
(95152916#100000000, 99999675#100000000, 16221663#1000000000000000);
(95189443#100000000, 99999674#100000000, 16246922#1000000000000000);
(96691974#100000000, 99999664#100000000, 17303045#1000000000000000);
(96729692#100000000, 99999664#100000000, 17330392#1000000000000000);
(98255934#100000000, 99999653#100000000, 18455825#1000000000000000);
(98294103#100000000, 99999653#100000000, 18484878#1000000000000000);
(99844778#100000000, 99999642#100000000, 19684527#1000000000000000);
(99884192#100000000, 99999641#100000000, 19715981#1000000000000000);
(10146011#10000000, 9999963#10000000, 20994666#1000000000000000);
(10149914#10000000, 9999963#10000000, 21027354#1000000000000000);
(10310112#10000000, 99999618#100000000, 22390793#1000000000000000);
(10314143#10000000, 99999617#100000000, 22426185#1000000000000000);
(10476863#10000000, 99999605#100000000, 23879117#1000000000000000);
(10480937#10000000, 99999605#100000000, 2391664#100000000000000);
(10646263#10000000, 99999592#100000000, 25465014#1000000000000000);
(1065047#1000000, 99999592#100000000, 25505632#1000000000000000);
(10818492#10000000, 99999579#100000000, 27155884#1000000000000000);
(10822742#10000000, 99999578#100000000, 27198936#1000000000000000);
(10993461#10000000, 99999565#100000000, 28957558#1000000000000000);
(10997751#10000000, 99999565#100000000, 29003178#1000000000000000);
(11171262#10000000, 99999551#100000000, 30877927#1000000000000000);
(11175592#10000000, 9999955#10000000, 30926189#1000000000000000);
(11351998#10000000, 99999536#100000000, 32924581#1000000000000000);
(11356365#10000000, 99999536#100000000, 32975633#1000000000000000);
(11535565#10000000, 99999521#100000000, 35105199#1000000000000000);
(11540074#10000000, 9999952#10000000, 35160453#1000000000000000);
(11722173#10000000, 99999505#100000000, 3742926#100000000000000);
(11726719#10000000, 99999505#100000000, 37487687#1000000000000000);
(11911712#10000000, 99999489#100000000, 39905263#1000000000000000);
(11916406#10000000, 99999488#100000000, 39968488#1000000000000000);
(12104409#10000000, 99999472#100000000, 42544141#1000000000000000);
(12109138#10000000, 99999472#100000000, 4261097#100000000000000);
(12300147#10000000, 99999455#100000000, 45355286#1000000000000000);
(1230503#1000000, 99999454#100000000, 45427602#1000000000000000);
(12499143#10000000, 99999437#100000000, 48351537#1000000000000000);
(12504021#10000000, 99999436#100000000, 48427355#1000000000000000);
(127013#100000, 99999418#100000000, 51542945#1000000000000000);
(1270626#1000000, 99999418#100000000, 51623738#1000000000000000);
(12906731#10000000, 99999399#100000000, 54943394#1000000000000000);
(12911771#10000000, 99999399#100000000, 55029487#1000000000000000);
(13115488#10000000, 99999379#100000000, 58566444#1000000000000000);
(1312061#1000000, 99999379#100000000, 58658126#1000000000000000);
(13327627#10000000, 99999359#100000000, 62425112#1000000000000000);
(1333283#1000000, 99999359#100000000, 62522775#1000000000000000);
(1354319#1000000, 99999338#100000000, 66535973#1000000000000000);
(13548474#10000000, 99999338#100000000, 66639878#1000000000000000);
(13762235#10000000, 99999316#100000000, 7091591#100000000000000);
(13767614#10000000, 99999316#100000000, 71026799#1000000000000000);
(13984837#10000000, 99999294#100000000, 75580158#1000000000000000);
(13990297#10000000, 99999293#100000000, 75698219#1000000000000000);
(14211027#10000000, 99999271#100000000, 8054921#100000000000000);
(14216568#10000000, 9999927#10000000, 80674724#1000000000000000);
(14440886#10000000, 99999247#100000000, 85842071#1000000000000000);
(14446523#10000000, 99999246#100000000, 85975964#1000000000000000);
(14674446#10000000, 99999222#100000000, 91478078#1000000000000000);
(1468018#1000000, 99999221#100000000, 91620786#1000000000000000);
(14911793#10000000, 99999196#100000000, 9748175#100000000000000);
(14917624#10000000, 99999196#100000000, 9763378#100000000000000);
(15152979#10000000, 9999917#10000000, 10387491#100000000000000);
(15158889#10000000, 99999169#100000000, 10403641#100000000000000);
(15398059#10000000, 99999143#100000000, 11068327#100000000000000);
(15404086#10000000, 99999142#100000000, 11085598#100000000000000);
(15647129#10000000, 99999114#100000000, 11793402#100000000000000);
(15653233#10000000, 99999114#100000000, 11811714#100000000000000);
(15900207#10000000, 99999085#100000000, 12565461#100000000000000);
(15906408#10000000, 99999085#100000000, 12584963#100000000000000);
(16157373#10000000, 99999055#100000000, 13387663#100000000000000);
(16163693#10000000, 99999055#100000000, 1340848#10000000000000);
(1641871#1000000, 99999024#100000000, 14262937#100000000000000);
(16425127#10000000, 99999023#100000000, 14285093#100000000000000);
(16684261#10000000, 99998992#100000000, 1519501#10000000000000);
(16690775#10000000, 99998991#100000000, 15218591#100000000000000);
(16954114#10000000, 99998959#100000000, 16187421#100000000000000);
(16960747#10000000, 99998958#100000000, 16212572#100000000000000);
(17228338#10000000, 99998925#100000000, 17243756#100000000000000);
(17235068#10000000, 99998924#100000000, 17270483#100000000000000);
(17507004#10000000, 99998889#100000000, 18368473#100000000000000);
(17513829#10000000, 99998888#100000000, 18396868#100000000000000);
(1779016#1000000, 99998853#100000000, 19565774#100000000000000);
(17797106#10000000, 99998852#100000000, 19596047#100000000000000);
(18077907#10000000, 99998815#100000000, 20840029#100000000000000);
(18084974#10000000, 99998814#100000000, 20872285#100000000000000)].
Definition oxide_data_3 : list chemical_row := [
(18370296#10000000, 99998776#100000000, 22196625#100000000000000);
(18377457#10000000, 99998775#100000000, 22230869#100000000000000);
(18667407#10000000, 99998736#100000000, 23640764#100000000000000);
(18674717#10000000, 99998735#100000000, 23677366#100000000000000);
(18969351#10000000, 99998694#100000000, 25177288#100000000000000);
(18976755#10000000, 99998693#100000000, 25216127#100000000000000);
(19276158#10000000, 99998651#100000000, 26812284#100000000000000);
(19283713#10000000, 9999865#10000000, 26853752#100000000000000);
(19528154#10000000, 99998615#100000000, 28215178#100000000000000);
(19595592#10000000, 99998606#100000000, 28599057#100000000000000);
(19691229#10000000, 99998592#100000000, 29149328#100000000000000);
(19912542#10000000, 9999856#10000000, 3045594#10000000000000);
(20009724#10000000, 99998546#100000000, 31039345#100000000000000);
(20234629#10000000, 99998512#100000000, 32430073#100000000000000);
(20333387#10000000, 99998498#100000000, 33050913#100000000000000);
(20561883#10000000, 99998464#100000000, 34530715#100000000000000);
(20662251#10000000, 99998448#100000000, 35191666#100000000000000);
(20894473#10000000, 99998413#100000000, 36766494#100000000000000);
(2099645#1000000, 99998397#100000000, 37469602#100000000000000);
(21232398#10000000, 99998361#100000000, 39144338#100000000000000);
(21336056#10000000, 99998345#100000000, 39892347#100000000000000);
(21575837#10000000, 99998307#100000000, 41674401#100000000000000);
(2168114#1000000, 9999829#10000000, 42470078#100000000000000);
(2192479#1000000, 99998251#100000000, 44365897#100000000000000);
(22031813#10000000, 99998234#100000000, 45212558#100000000000000);
(2227941#1000000, 99998193#100000000, 47229445#100000000000000);
(22388153#10000000, 99998176#100000000, 48130058#100000000000000);
(22639777#10000000, 99998134#100000000, 5027558#10000000000000);
(2275028#1000000, 99998116#100000000, 51233563#100000000000000);
(23005973#10000000, 99998073#100000000, 53515062#100000000000000);
(23118235#10000000, 99998054#100000000, 54533459#100000000000000);
(23378081#10000000, 99998009#100000000, 56960611#100000000000000);
(23492143#10000000, 9999799#10000000, 58043803#100000000000000);
(23756186#10000000, 99997944#100000000, 6062421#10000000000000);
(23872139#10000000, 99997923#100000000, 617763#1000000000000);
(24140424#10000000, 99997876#100000000, 64521144#100000000000000);
(2425822#1000000, 99997855#100000000, 65746483#100000000000000);
(24530886#10000000, 99997806#100000000, 68666895#100000000000000);
(24650573#10000000, 99997784#100000000, 69970233#100000000000000);
(2492762#1000000, 99997734#100000000, 7307277#10000000000000);
(25049297#10000000, 99997712#100000000, 74458081#100000000000000);
(25330824#10000000, 99997659#100000000, 77757359#100000000000000);
(2545444#1000000, 99997636#100000000, 79230385#100000000000000);
(2574055#1000000, 99997583#100000000, 82738086#100000000000000);
(25866157#10000000, 99997559#100000000, 84303821#100000000000000);
(26156849#10000000, 99997503#100000000, 88032867#100000000000000);
(262845#100000, 99997478#100000000, 89697817#100000000000000);
(26579939#10000000, 99997421#100000000, 93663725#100000000000000);
(26709634#10000000, 99997396#100000000, 95433947#100000000000000);
(27009877#10000000, 99997336#100000000, 99648319#100000000000000);
(27141673#10000000, 9999731#10000000, 10152907#10000000000000);
(27446721#10000000, 99997249#100000000, 10600793#10000000000000);
(27580678#10000000, 99997222#100000000, 10800781#10000000000000);
(27890648#10000000, 99997158#100000000, 11276829#10000000000000);
(28026767#10000000, 9999713#10000000, 11489383#10000000000000);
(28341719#10000000, 99997065#100000000, 11995059#10000000000000);
(28480063#10000000, 99997036#100000000, 122209#100000000000);
(28800192#10000000, 99996969#100000000, 12758537#10000000000000);
(28940694#10000000, 99996939#100000000, 12998469#10000000000000);
(29266003#10000000, 99996869#100000000, 13569633#10000000000000);
(29408796#10000000, 99996838#100000000, 13824519#10000000000000);
(29739352#10000000, 99996767#100000000, 14431261#10000000000000);
(29884436#10000000, 99996735#100000000, 14702041#10000000000000);
(30220307#10000000, 99996661#100000000, 15346906#10000000000000);
(30367828#10000000, 99996628#100000000, 15634901#10000000000000);
(30709086#10000000, 99996551#100000000, 16319479#10000000000000);
(30858972#10000000, 99996517#100000000, 1662527#1000000000000);
(31205844#10000000, 99996438#100000000, 17353047#10000000000000);
(31358092#10000000, 99996403#100000000, 17677654#10000000000000);
(31710581#10000000, 99996322#100000000, 18450225#10000000000000);
(31865267#10000000, 99996286#100000000, 18794854#10000000000000);
(32223454#10000000, 99996201#100000000, 19614833#10000000000000);
(3238066#1000000, 99996164#100000000, 1998068#1000000000000);
(32744626#10000000, 99996077#100000000, 20851685#10000000000000);
(32904438#10000000, 99996039#100000000, 21240364#10000000000000);
(33274268#10000000, 99995949#100000000, 22164235#10000000000000);
(334366#100000, 99995909#100000000, 22576445#10000000000000);
(33812472#10000000, 99995817#100000000, 23557488#10000000000000);
(3397741#1000000, 99995776#100000000, 23995136#10000000000000);
(34359325#10000000, 99995681#100000000, 25036774#10000000000000);
(34526962#10000000, 99995638#100000000, 25501426#10000000000000);
(34915109#10000000, 9999554#10000000, 26605992#10000000000000);
(35085447#10000000, 99995496#100000000, 27098732#10000000000000);
(35479825#10000000, 99995395#100000000, 28271162#10000000000000);
(35652963#10000000, 9999535#10000000, 28794345#10000000000000);
(36053672#10000000, 99995245#100000000, 30037929#10000000000000);
(36229611#10000000, 99995199#100000000, 30592907#10000000000000);
(36636748#10000000, 99995091#100000000, 31911747#10000000000000);
(36815596#10000000, 99995043#100000000, 32500603#10000000000000);
(37229377#10000000, 99994931#100000000, 33900573#10000000000000);
(37411024#10000000, 99994882#100000000, 34525354#10000000000000);
(37831564#10000000, 99994767#100000000, 36009448#10000000000000);
(38016119#10000000, 99994716#100000000, 36671447#10000000000000);
(38443417#10000000, 99994598#100000000, 38245529#10000000000000);
(38630996#10000000, 99994545#100000000, 38947967#10000000000000);
(39065168#10000000, 99994423#100000000, 40617341#10000000000000);
(39255771#10000000, 99994369#100000000, 41362269#10000000000000);
(39697063#10000000, 99994243#100000000, 43131572#10000000000000);
(39890817#10000000, 99994188#100000000, 43921179#10000000000000);
(40339103#10000000, 99994058#100000000, 45797246#10000000000000)].
Definition oxide_data_4 : list chemical_row := [
(4053601#1000000, 99994001#100000000, 46634847#10000000000000);
(40991543#10000000, 99993867#100000000, 48622852#10000000000000);
(41191602#10000000, 99993808#100000000, 49510201#10000000000000);
(41654656#10000000, 9999367#10000000, 51617308#10000000000000);
(41857864#10000000, 9999361#10000000, 52557402#10000000000000);
(42328301#10000000, 99993468#100000000, 54791454#10000000000000);
(42534795#10000000, 99993405#100000000, 5578818#1000000000000);
(43012899#10000000, 99993259#100000000, 5815405#1000000000000);
(43222828#10000000, 99993195#100000000, 59209873#10000000000000);
(43708599#10000000, 99993045#100000000, 6171657#1000000000000);
(43921968#10000000, 99992978#100000000, 62835702#10000000000000);
(44415557#10000000, 99992824#100000000, 65489411#10000000000000);
(44632366#10000000, 99992755#100000000, 66674303#10000000000000);
(45133926#10000000, 99992596#100000000, 69485161#10000000000000);
(45354173#10000000, 99992526#100000000, 70739906#10000000000000);
(45864037#10000000, 99992363#100000000, 73720188#10000000000000);
(46087715#10000000, 9999229#10000000, 75049096#10000000000000);
(4660589#1000000, 99992122#100000000, 78200452#10000000000000);
(46833166#10000000, 99992048#100000000, 79605419#10000000000000);
(47359651#10000000, 99991875#100000000, 82942183#10000000000000);
(47590703#10000000, 99991799#100000000, 84430751#10000000000000);
(48125674#10000000, 99991622#100000000, 87964235#10000000000000);
(48360507#10000000, 99991543#100000000, 89540796#10000000000000);
(48903959#10000000, 99991362#100000000, 93274852#10000000000000);
(49142571#10000000, 99991281#100000000, 94941425#10000000000000);
(49695078#10000000, 99991095#100000000, 98897305#10000000000000);
(4993747#1000000, 99991012#100000000, 10066106#1000000000000);
(50498841#10000000, 99990821#100000000, 10484427#1000000000000);
(5074521#1000000, 99990736#100000000, 10671068#1000000000000);
(51315648#10000000, 9999054#10000000, 11113339#1000000000000);
(51565996#10000000, 99990454#100000000, 11310643#1000000000000);
(52145492#10000000, 99990253#100000000, 11778486#1000000000000);
(52400036#10000000, 99990165#100000000, 11987377#1000000000000);
(52989025#10000000, 9998996#10000000, 12481588#1000000000000);
(53247547#10000000, 99989869#100000000, 12702092#1000000000000);
(53846029#10000000, 9998966#10000000, 13224761#1000000000000);
(54108751#10000000, 99989568#100000000, 13458005#1000000000000);
(54716958#10000000, 99989355#100000000, 140102#10000000000);
(5498388#1000000, 99989261#100000000, 14256538#1000000000000);
(55602058#10000000, 99989044#100000000, 14839808#1000000000000);
(55873174#10000000, 99988948#100000000, 15099838#1000000000000);
(56501326#10000000, 99988729#100000000, 15716522#1000000000000);
(56776884#10000000, 99988632#100000000, 15991512#1000000000000);
(57415267#10000000, 99988409#100000000, 16642294#1000000000000);
(5769527#1000000, 99988311#100000000, 16932455#1000000000000);
(58343882#10000000, 99988088#100000000, 17619426#1000000000000);
(58628325#10000000, 99987989#100000000, 17925692#1000000000000);
(59287432#10000000, 99987766#100000000, 18651344#1000000000000);
(59576592#10000000, 99987667#100000000, 1897498#100000000000);
(60246483#10000000, 99987445#100000000, 19734042#1000000000000);
(60540367#10000000, 99987347#100000000, 2007252#100000000000);
(61220744#10000000, 99987129#100000000, 20874368#1000000000000);
(61519349#10000000, 99987033#100000000, 2123132#100000000000);
(62211108#10000000, 99986824#100000000, 22076065#1000000000000);
(62514433#10000000, 99986732#100000000, 22453218#1000000000000);
(63217276#10000000, 99986539#100000000, 23346052#1000000000000);
(63525634#10000000, 99986454#100000000, 23744344#1000000000000);
(64239878#10000000, 99986292#100000000, 2468861#100000000000);
(64553276#10000000, 99986221#100000000, 25109903#1000000000000);
(65278919#10000000, 99986125#100000000, 26108294#1000000000000);
(65597356#10000000, 99986083#100000000, 26553776#1000000000000);
(66334728#10000000, 99986182#100000000, 27609518#1000000000000);
(66658199#10000000, 99986228#100000000, 28080443#1000000000000);
(67407656#10000000, 99989392#100000000, 19115911#1000000000000);
(67419386#10000000, 99989442#100000000, 18973856#1000000000000);
(67423052#10000000, 99986654#100000000, 2921601#100000000000);
(67426719#10000000, 99989439#100000000, 87052306#10000000000000);
(68310882#10000000, 99985538#100000000, 91396078#10000000000000);
(68344395#10000000, 99985499#100000000, 9156662#1000000000000);
(68497693#10000000, 99985366#100000000, 92350305#10000000000000);
(69449626#10000000, 99984529#100000000, 97354943#10000000000000);
(69605584#10000000, 99984422#100000000, 98188242#10000000000000);
(70573109#10000000, 9998375#10000000, 10349908#1000000000000);
(70731335#10000000, 99983651#100000000, 10438163#1000000000000);
(71714453#10000000, 9998303#10000000, 1100128#100000000000);
(71875344#10000000, 99982934#100000000, 11094529#1000000000000);
(7287447#1000000, 9998233#10000000, 11687385#1000000000000);
(73038032#10000000, 99982235#100000000, 11786069#1000000000000);
(74053164#10000000, 99981634#100000000, 12415776#1000000000000);
(742194#100000, 99981537#100000000, 1252063#100000000000);
(7525097#1000000, 99980933#100000000, 13189577#1000000000000);
(75419881#10000000, 99980835#100000000, 13300954#1000000000000);
(76467876#10000000, 99980222#100000000, 1401124#100000000000);
(76639458#10000000, 99980122#100000000, 14129477#1000000000000);
(77704816#10000000, 99979497#100000000, 14884419#1000000000000);
(77879065#10000000, 99979395#100000000, 15009966#1000000000000);
(78961807#10000000, 99978757#100000000, 15812048#1000000000000);
(79138715#10000000, 99978652#100000000, 1594531#100000000000);
(80238838#10000000, 99977998#100000000, 16796773#1000000000000);
(80418913#10000000, 99977891#100000000, 1693844#100000000000);
(815364#100000, 9997722#10000000, 17842749#1000000000000);
(81719659#10000000, 9997711#10000000, 17993478#1000000000000);
(82855572#10000000, 99976422#100000000, 18953235#1000000000000);
(83041479#10000000, 99976309#100000000, 1911212#100000000000);
(84195256#10000000, 99975601#100000000, 20118167#1000000000000);
(84384358#10000000, 99975485#100000000, 20285735#1000000000000);
(85557124#10000000, 99974756#100000000, 21351322#1000000000000);
(85749435#10000000, 99974636#100000000, 21528916#1000000000000);
(86941209#10000000, 99973886#100000000, 22658492#1000000000000);
(87136125#10000000, 99973763#100000000, 22846206#1000000000000)].
Definition oxide_data_5 : list chemical_row := [
(88347513#10000000, 9997299#10000000, 24045364#1000000000000);
(88545632#10000000, 99972863#100000000, 24244621#1000000000000);
(89776002#10000000, 99972067#100000000, 25515673#1000000000000);
(89977974#10000000, 99971935#100000000, 25727636#1000000000000);
(91228616#10000000, 99971115#100000000, 27076094#1000000000000);
(91433138#10000000, 9997098#10000000, 27300222#1000000000000);
(9270405#1000000, 99970135#100000000, 28731653#1000000000000);
(92911768#10000000, 99969995#100000000, 28969385#1000000000000);
(9420365#1000000, 99969124#100000000, 30488509#1000000000000);
(94414555#10000000, 99968981#100000000, 30740533#1000000000000);
(95726689#10000000, 99968083#100000000, 32351787#1000000000000);
(95941507#10000000, 99967935#100000000, 32619582#1000000000000);
(97275356#10000000, 9996701#10000000, 34328376#1000000000000);
(97493355#10000000, 99966857#100000000, 34612171#1000000000000);
(98848941#10000000, 99965904#100000000, 36418187#1000000000000);
(99070893#10000000, 99965746#100000000, 36718693#1000000000000);
(10044741#1000000, 99964764#100000000, 3862783#100000000000);
(10067334#1000000, 99964601#100000000, 38946241#1000000000000);
(10207237#1000000, 99963588#100000000, 40966568#1000000000000);
(10230146#1000000, 99963421#100000000, 41302672#1000000000000);
(103723#10000, 99962376#100000000, 43444558#1000000000000);
(10395607#1000000, 99962203#100000000, 43801298#1000000000000);
(105401#10000, 99961125#100000000, 46072653#1000000000000);
(10563718#1000000, 99960948#100000000, 46449893#1000000000000);
(1071055#100000, 99959837#100000000, 48858369#1000000000000);
(10734567#1000000, 99959653#100000000, 49258707#1000000000000);
(10883736#1000000, 99958508#100000000, 51811543#1000000000000);
(10908249#1000000, 99958319#100000000, 52237824#1000000000000);
(11059851#1000000, 99957138#100000000, 54945461#1000000000000);
(1108467#100000, 99956943#100000000, 55395796#1000000000000);
(11238703#1000000, 99955725#100000000, 58266927#1000000000000);
(11263923#1000000, 99955524#100000000, 58748242#1000000000000);
(11420489#1000000, 99954267#100000000, 61816409#1000000000000);
(11446109#1000000, 9995406#10000000, 62332229#1000000000000);
(11605209#1000000, 99952768#100000000, 65621226#1000000000000);
(11631229#1000000, 99952555#100000000, 66168535#1000000000000);
(11792862#1000000, 99951226#100000000, 69658678#1000000000000);
(11819393#1000000, 99951007#100000000, 70241553#1000000000000);
(1198367#100000, 99949641#100000000, 73928495#1000000000000);
(12010603#1000000, 99949416#100000000, 74543556#1000000000000);
(12177405#1000000, 9994801#10000000, 78435792#1000000000000);
(12204856#1000000, 99947777#100000000, 79087506#1000000000000);
(12374419#1000000, 9994633#10000000, 83244886#1000000000000);
(12402208#1000000, 99946091#100000000, 83938036#1000000000000);
(1257457#100000, 99944604#100000000, 88354897#1000000000000);
(12602805#1000000, 99944359#100000000, 89091001#1000000000000);
(12777943#1000000, 99942832#100000000, 93781475#1000000000000);
(1280665#100000, 9994258#10000000, 94563779#1000000000000);
(12984615#1000000, 99941014#100000000, 99541683#1000000000000);
(13013782#1000000, 99940756#100000000, 10037184#100000000000);
(13194643#1000000, 99939152#100000000, 1056264#10000000000);
(13224267#1000000, 99938888#100000000, 10650222#100000000000);
(13408051#1000000, 99937248#100000000, 11204192#100000000000);
(13438163#1000000, 99936978#100000000, 11296553#100000000000);
(13624912#1000000, 99935292#100000000, 11869015#100000000000);
(1365551#100000, 99935015#100000000, 11963893#100000000000);
(13845285#1000000, 99933284#100000000, 1256668#10000000000);
(13876385#1000000, 99932998#100000000, 12666126#100000000000);
(14069215#1000000, 99931214#100000000, 13297814#100000000000);
(14100833#1000000, 9993092#10000000, 13403106#100000000000);
(1429678#100000, 99929083#100000000, 14071564#100000000000);
(143289#10000, 99928779#100000000, 14182952#100000000000);
(14528014#1000000, 99926888#100000000, 1489788#10000000000);
(14560653#1000000, 99926575#100000000, 15017015#100000000000);
(14763#1000, 99924637#100000000, 15783015#100000000000);
(14796157#1000000, 99924317#100000000, 15910616#100000000000);
(15001773#1000000, 9992234#10000000, 16730912#100000000000);
(15035483#1000000, 99922014#100000000, 16867626#100000000000);
(15244421#1000000, 99919999#100000000, 17737197#100000000000);
(15278668#1000000, 99919667#100000000, 17882096#100000000000);
(15490983#1000000, 99917618#100000000, 1880399#10000000000);
(15525784#1000000, 9991728#10000000, 18956153#100000000000);
(15741533#1000000, 999152#1000000, 19924265#100000000000);
(15776908#1000000, 99914856#100000000, 20084932#100000000000);
(15996151#1000000, 99912742#100000000, 21096893#100000000000);
(1603208#100000, 99912393#100000000, 21265335#100000000000);
(16254879#1000000, 99910237#100000000, 22324038#100000000000);
(16291381#1000000, 99909881#100000000, 22500209#100000000000);
(16517777#1000000, 99907682#100000000, 2361642#10000000000);
(16554896#1000000, 99907318#100000000, 238023#1000000000);
(16784932#1000000, 99905084#100000000, 24982435#100000000000);
(16822646#1000000, 99904715#100000000, 25178951#100000000000);
(17056435#1000000, 99902451#100000000, 2642706#10000000000);
(17094744#1000000, 99902078#100000000, 266348#1000000000);
(1733231#100000, 99899796#100000000, 27956185#100000000000);
(17371237#1000000, 9989942#10000000, 28176095#100000000000);
(17612625#1000000, 99897139#100000000, 29545423#100000000000);
(1765222#100000, 99896762#100000000, 29774481#100000000000);
(17897505#1000000, 99894435#100000000, 31184021#100000000000);
(17937718#1000000, 99894052#100000000, 31420748#100000000000);
(18186976#1000000, 99891664#100000000, 32930467#100000000000);
(18227858#1000000, 99891272#100000000, 3318217#10000000000);
(18481142#1000000, 99888865#100000000, 34825329#100000000000);
(18522667#1000000, 99888468#100000000, 35099183#100000000000);
(18780058#1000000, 99886118#100000000, 36904128#100000000000);
(18822253#1000000, 99885731#100000000, 37204903#100000000000);
(19083807#1000000, 99883466#100000000, 39118044#100000000000);
(19126701#1000000, 99883094#100000000, 39436972#100000000000);
(19392477#1000000, 99880943#100000000, 41438388#100000000000);
(19436071#1000000, 9988059#10000000, 41772103#100000000000)].
Definition oxide_data_6 : list chemical_row := [
(19706127#1000000, 99878551#100000000, 43849879#100000000000);
(1975042#100000, 99878217#100000000, 44196304#100000000000);
(20024881#1000000, 99876303#100000000, 46364898#100000000000);
(20069873#1000000, 9987599#10000000, 46726293#100000000000);
(20348738#1000000, 99874267#100000000, 49015983#100000000000);
(20394494#1000000, 99873986#100000000, 4939791#10000000000);
(20677861#1000000, 99872543#100000000, 51818206#100000000000);
(2072435#100000, 99872309#100000000, 52221864#100000000000);
(21012321#1000000, 99871279#100000000, 54780408#100000000000);
(2105954#100000, 99871114#100000000, 55205038#100000000000);
(21352187#1000000, 99870701#100000000, 57902513#100000000000);
(21400172#1000000, 99870637#100000000, 58348928#100000000000);
(21697531#1000000, 99871204#100000000, 6118773#10000000000);
(2174632#100000, 99871302#100000000, 6166091#10000000000);
(22048465#1000000, 99873671#100000000, 64688028#100000000000);
(22098019#1000000, 99874071#100000000, 65192375#100000000000);
(22405105#1000000, 99880723#100000000, 68397656#100000000000);
(22455464#1000000, 99881836#100000000, 68931651#100000000000);
(22767492#1000000, 99930772#100000000, 7232041#10000000000);
(22818655#1000000, 99938929#100000000, 72884897#100000000000);
(22824788#1000000, 99953836#100000000, 72953169#100000000000);
(22833195#1000000, 99953878#100000000, 2106839#10000000000);
(23135706#1000000, 99889581#100000000, 220648#1000000000);
(23187715#1000000, 9987836#10000000, 222406#1000000000);
(23509917#1000000, 99865347#100000000, 23344983#100000000000);
(23562773#1000000, 99863184#100000000, 2353101#10000000000);
(2389017#100000, 99853903#100000000, 24699475#100000000000);
(23943873#1000000, 99852363#100000000, 24896248#100000000000);
(24276602#1000000, 99844434#100000000, 26132691#100000000000);
(24331152#1000000, 9984312#10000000, 26340848#100000000000);
(24669211#1000000, 99835826#100000000, 27648962#100000000000);
(24724703#1000000, 99834617#100000000, 27869416#100000000000);
(25068239#1000000, 99827644#100000000, 29253223#100000000000);
(25124575#1000000, 9982649#10000000, 29486211#100000000000);
(25473686#1000000, 99819675#100000000, 30950413#100000000000);
(25530967#1000000, 99818547#100000000, 31197103#100000000000);
(25885706#1000000, 99811793#100000000, 32746339#100000000000);
(25943881#1000000, 99810678#100000000, 33007182#100000000000);
(26304408#1000000, 99803928#100000000, 34646502#100000000000);
(26363529#1000000, 99802815#100000000, 34922536#100000000000);
(26729846#1000000, 99796036#100000000, 36656764#100000000000);
(26789912#1000000, 99794916#100000000, 36941979#100000000000);
(27162188#1000000, 99788062#100000000, 3873445#10000000000);
(27223259#1000000, 99786926#100000000, 39034238#100000000000);
(27601493#1000000, 99779951#100000000, 40917057#100000000000);
(2766357#100000, 99778797#100000000, 41233869#100000000000);
(28047943#1000000, 99771688#100000000, 43223236#100000000000);
(28111028#1000000, 99770512#100000000, 43557971#100000000000);
(28501602#1000000, 99763256#100000000, 45659512#100000000000);
(28565693#1000000, 99762058#100000000, 46013032#100000000000);
(28962598#1000000, 99754645#100000000, 48232964#100000000000);
(29027695#1000000, 99753421#100000000, 48606245#100000000000);
(29431066#1000000, 99745838#100000000, 50951636#100000000000);
(29497164#1000000, 99744588#100000000, 51345631#100000000000);
(29907071#1000000, 99736828#100000000, 53823357#100000000000);
(29974313#1000000, 99735548#100000000, 54240043#100000000000);
(30390755#1000000, 99727606#100000000, 5685708#10000000000);
(30459069#1000000, 99726296#100000000, 5729719#10000000000);
(30882338#1000000, 99718161#100000000, 60062104#100000000000);
(30951724#1000000, 99716822#100000000, 6052674#10000000000);
(31381824#1000000, 99708492#100000000, 63447126#100000000000);
(31452358#1000000, 99707121#100000000, 63938108#100000000000);
(31889363#1000000, 99698597#100000000, 67022216#100000000000);
(31961129#1000000, 99697194#100000000, 67541393#100000000000);
(32405203#1000000, 9968847#10000000, 70794632#100000000000);
(32478035#1000000, 99687037#100000000, 71341623#100000000000);
(32929344#1000000, 99678113#100000000, 74776107#100000000000);
(33003325#1000000, 99676658#100000000, 753533#1000000000);
(33461958#1000000, 99667591#100000000, 78981312#100000000000);
(33537174#1000000, 99666117#100000000, 79581039#100000000000);
(34003129#1000000, 99656936#100000000, 83347782#100000000000);
(34079583#1000000, 99655416#100000000, 83940182#100000000000);
(34553135#1000000, 99645951#100000000, 87659944#100000000000);
(34630828#1000000, 99644376#100000000, 88283123#100000000000);
(35111976#1000000, 99634567#100000000, 92195384#100000000000);
(35190907#1000000, 99632944#100000000, 92850661#100000000000);
(35679845#1000000, 99622835#100000000, 96965824#100000000000);
(35760114#1000000, 99621165#100000000, 97655642#100000000000);
(36256945#1000000, 99610764#100000000, 10198419#10000000000);
(36338557#1000000, 99609047#100000000, 10271018#10000000000);
(36843384#1000000, 99598356#100000000, 10726274#10000000000);
(3692623#100000, 99596593#100000000, 10802557#10000000000);
(37439267#1000000, 99585606#100000000, 11281483#10000000000);
(37523455#1000000, 99583796#100000000, 11361725#10000000000);
(38044816#1000000, 99572514#100000000, 11865519#10000000000);
(38130463#1000000, 99570654#100000000, 1195001#1000000000);
(38660267#1000000, 99559074#100000000, 1247995#1000000000);
(38747137#1000000, 99557169#100000000, 12568673#10000000000);
(39285499#1000000, 99545287#100000000, 13126139#10000000000);
(39373829#1000000, 99543333#100000000, 1321952#1000000000);
(39920873#1000000, 99531154#100000000, 13805859#10000000000);
(40010665#1000000, 99529153#100000000, 13904123#10000000000);
(40566647#1000000, 99516676#100000000, 14520996#10000000000);
(40657906#1000000, 99514633#100000000, 14624373#10000000000);
(41222691#1000000, 99501907#100000000, 15273098#10000000000);
(41315413#1000000, 99499818#100000000, 15380503#10000000000);
(41889543#1000000, 99486802#100000000, 16054824#10000000000);
(41983729#1000000, 9948466#10000000, 1616599#1000000000);
(42567069#1000000, 99471301#100000000, 1686405#1000000000);
(42662715#1000000, 99469099#100000000, 16980761#10000000000)].
Definition oxide_data_7 : list chemical_row := [
(43255551#1000000, 99455356#100000000, 1771419#1000000000);
(43352804#1000000, 99453096#100000000, 17836875#10000000000);
(43955135#1000000, 99439004#100000000, 18607261#10000000000);
(44053998#1000000, 99436688#100000000, 18736189#10000000000);
(44666132#1000000, 9942225#10000000, 19545084#10000000000);
(44766606#1000000, 99419879#100000000, 19680467#10000000000);
(45388542#1000000, 994051#1000000, 2052926#1000000000);
(45490627#1000000, 99402675#100000000, 20671324#10000000000);
(46122691#1000000, 99387552#100000000, 21562365#10000000000);
(46226385#1000000, 99385073#100000000, 21711423#10000000000);
(46868574#1000000, 99369611#100000000, 22647319#10000000000);
(46974051#1000000, 99367077#100000000, 22804041#10000000000);
(47626717#1000000, 99351286#100000000, 23787257#10000000000);
(477338#10000, 99348707#100000000, 2395175#1000000000);
(4839694#100000, 99332614#100000000, 24984556#10000000000);
(48505812#1000000, 99329991#100000000, 25157425#10000000000);
(49179803#1000000, 99313631#100000000, 26242475#10000000000);
(49290465#1000000, 99310986#100000000, 26422969#10000000000);
(49975311#1000000, 99294492#100000000, 27555537#10000000000);
(50087563#1000000, 99291802#100000000, 27737322#10000000000);
(50783455#1000000, 99274993#100000000, 28879836#10000000000);
(50897699#1000000, 99272205#100000000, 29070694#10000000000);
(51604844#1000000, 99254712#100000000, 30268426#10000000000);
(51721092#1000000, 99251839#100000000, 30468774#10000000000);
(52439708#1000000, 99233883#100000000, 31747165#10000000000);
(52557524#1000000, 99230952#100000000, 31960441#10000000000);
(53287825#1000000, 9921285#10000000, 33309017#10000000000);
(53407647#1000000, 99209902#100000000, 33534158#10000000000);
(54149634#1000000, 99191586#100000000, 34950088#10000000000);
(54271466#1000000, 99188621#100000000, 35186642#10000000000);
(55025364#1000000, 99170207#100000000, 3667334#1000000000);
(55149211#1000000, 99167275#100000000, 36921819#10000000000);
(55915507#1000000, 99149079#100000000, 3848345#1000000000);
(56041372#1000000, 99146136#100000000, 38721877#10000000000);
(56819817#1000000, 99127875#100000000, 40219776#10000000000);
(56947698#1000000, 99124806#100000000, 40464955#10000000000);
(57738797#1000000, 99105759#100000000, 42005749#10000000000);
(57868691#1000000, 99102553#100000000, 42262128#10000000000);
(58672716#1000000, 99082641#100000000, 43874297#10000000000);
(58804899#1000000, 99079345#100000000, 44142891#10000000000);
(59621858#1000000, 99058905#100000000, 45829685#10000000000);
(59755765#1000000, 99055515#100000000, 46109877#10000000000);
(60586222#1000000, 99034432#100000000, 47875597#10000000000);
(60722419#1000000, 99030911#100000000, 48173434#10000000000);
(61566088#1000000, 9900905#10000000, 50048444#10000000000);
(61704582#1000000, 99005501#100000000, 50368107#10000000000);
(6256175#100000, 98983496#100000000, 52378973#10000000000);
(62702545#1000000, 98979929#100000000, 5271413#1000000000);
(63573516#1000000, 98957851#100000000, 54821586#10000000000);
(63716615#1000000, 98954239#100000000, 55172894#10000000000);
(64602048#1000000, 98931904#100000000, 57382652#10000000000);
(64747453#1000000, 98928251#100000000, 57750889#10000000000);
(65646675#1000000, 98905725#100000000, 60066297#10000000000);
(65794382#1000000, 98901972#100000000, 60444873#10000000000);
(66708768#1000000, 98878884#100000000, 62827624#10000000000);
(66858775#1000000, 98874642#100000000, 63222214#10000000000);
(67787628#1000000, 98848719#100000000, 65707017#10000000000);
(67939926#1000000, 98846006#100000000, 66120059#10000000000);
(68883966#1000000, 98829888#100000000, 6861565#1000000000);
(69038928#1000000, 98820907#100000000, 68685128#10000000000);
(69072006#1000000, 98818964#100000000, 68698578#10000000000);
(69264944#1000000, 98812479#100000000, 69448844#10000000000);
(69458964#1000000, 98802794#100000000, 70016999#10000000000);
(69654073#1000000, 98797568#100000000, 70977324#10000000000);
(70047599#1000000, 98783777#100000000, 72205471#10000000000);
(70155805#1000000, 98780533#100000000, 72660005#10000000000);
(70246034#1000000, 98777802#100000000, 73040604#10000000000);
(70445597#1000000, 98770279#100000000, 7409997#1000000000);
(70848143#1000000, 98757586#100000000, 75975229#10000000000);
(71051146#1000000, 98752215#100000000, 77331528#10000000000);
(71255316#1000000, 98747398#100000000, 7823582#1000000000);
(71290142#1000000, 98747057#100000000, 78556254#10000000000);
(71460663#1000000, 98745377#100000000, 80130555#10000000000);
(71667197#1000000, 98746814#100000000, 80760349#10000000000);
(71874928#1000000, 98745276#100000000, 81885263#10000000000);
(72083866#1000000, 98741228#100000000, 82494632#10000000000);
(72294023#1000000, 98740814#100000000, 8431299#1000000000);
(72443557#1000000, 98742612#100000000, 84945475#10000000000);
(72931912#1000000, 98748583#100000000, 87028695#10000000000);
(73363462#1000000, 98753991#100000000, 88377441#10000000000);
(73615234#1000000, 987578#1000000, 88927598#10000000000);
(74020448#1000000, 98764034#100000000, 89820379#10000000000);
(74242066#1000000, 98761234#100000000, 89623399#10000000000);
(74465015#1000000, 987581#1000000, 90514788#10000000000);
(74805571#1000000, 98758363#100000000, 91145491#10000000000);
(74914955#1000000, 98758458#100000000, 91349508#10000000000);
(75370365#1000000, 98759329#100000000, 92370978#10000000000);
(75831346#1000000, 98759603#100000000, 92961389#10000000000);
(76015922#1000000, 9875937#10000000, 93107983#10000000000);
(76298#1000, 98759038#100000000, 93334136#10000000000);
(77245385#1000000, 98743758#100000000, 93715831#10000000000);
(77490156#1000000, 98739812#100000000, 93813868#10000000000);
(77977516#1000000, 98730969#100000000, 94361795#10000000000);
(78223502#1000000, 98727278#100000000, 95018685#10000000000);
(78471044#1000000, 98723934#100000000, 94774133#10000000000);
(78494394#1000000, 98723033#100000000, 94788216#10000000000);
(78720159#1000000, 98714305#100000000, 94926338#10000000000);
(79223163#1000000, 98700479#100000000, 95814007#10000000000);
(79477083#1000000, 98690618#100000000, 95971822#10000000000);
(79732637#1000000, 98679719#100000000, 96483748#10000000000)].
Definition oxide_data_8 : list chemical_row := [
(79763927#1000000, 98678138#100000000, 96574316#10000000000);
(79989839#1000000, 98666701#100000000, 97231854#10000000000);
(80248706#1000000, 98654845#100000000, 9832868#1000000000);
(80771498#1000000, 98641369#100000000, 10190824#1000000000);
(81054529#1000000, 98645559#100000000, 10346754#1000000000);
(81301148#1000000, 98649265#100000000, 10483593#1000000000);
(81568586#1000000, 98656603#100000000, 10541949#1000000000);
(81837789#1000000, 98662272#100000000, 10529694#1000000000);
(82108775#1000000, 98659776#100000000, 1048308#100000000);
(82365143#1000000, 98652214#100000000, 1047681#100000000);
(82381561#1000000, 98651729#100000000, 10476419#1000000000);
(82656167#1000000, 98641402#100000000, 10522604#1000000000);
(82932609#1000000, 98634144#100000000, 10618103#1000000000);
(83491077#1000000, 98626119#100000000, 10775443#1000000000);
(83697362#1000000, 98624392#100000000, 10813074#1000000000);
(83773142#1000000, 98623762#100000000, 10827003#1000000000);
(84057119#1000000, 98620252#100000000, 10901744#1000000000);
(84343027#1000000, 98617265#100000000, 10940787#1000000000);
(84630887#1000000, 98613258#100000000, 11001684#1000000000);
(84920719#1000000, 98608944#100000000, 11036267#1000000000);
(85051209#1000000, 98607072#100000000, 11066672#1000000000);
(85212543#1000000, 98604764#100000000, 11104523#1000000000);
(85506379#1000000, 98600926#100000000, 11122484#1000000000);
(86100174#1000000, 98587814#100000000, 11215241#1000000000);
(86426674#1000000, 98577271#100000000, 11241134#1000000000);
(86702273#1000000, 98568351#100000000, 11263244#1000000000);
(87006491#1000000, 98558558#100000000, 1136452#100000000);
(87312852#1000000, 98548888#100000000, 11447488#1000000000);
(87621378#1000000, 98541419#100000000, 11561248#1000000000);
(87824958#1000000, 98538399#100000000, 1161876#100000000);
(88245018#1000000, 98532183#100000000, 11738452#1000000000);
(88560179#1000000, 98525762#100000000, 1178174#100000000);
(88877599#1000000, 98516353#100000000, 11853365#1000000000);
(89245456#1000000, 98503874#100000000, 1194951#100000000);
(90170364#1000000, 98472278#100000000, 12194251#1000000000);
(90499453#1000000, 98458867#100000000, 12377651#1000000000);
(90688774#1000000, 98452468#100000000, 12468393#1000000000);
(90830952#1000000, 98447646#100000000, 1253692#100000000);
(9116489#100000, 98439661#100000000, 12717418#1000000000);
(92155562#1000000, 98428831#100000000, 13393832#1000000000);
(92181599#1000000, 98428548#100000000, 13411884#1000000000);
(92872097#1000000, 98439647#100000000, 13825182#1000000000);
(93221241#1000000, 98450061#100000000, 13971574#1000000000);
(93645815#1000000, 98459149#100000000, 14069774#1000000000);
(94284601#1000000, 9847325#10000000, 14219223#1000000000);
(9516095#100000, 98481663#100000000, 14309991#1000000000);
(953725#10000, 98483785#100000000, 14332166#1000000000);
(95740734#1000000, 98485964#100000000, 14349744#1000000000);
(96485798#1000000, 98481863#100000000, 14457448#1000000000);
(96700269#1000000, 98480297#100000000, 14484452#1000000000);
(97242549#1000000, 98476448#100000000, 14553643#1000000000);
(97625394#1000000, 98476232#100000000, 14641925#1000000000);
(98263721#1000000, 98470331#100000000, 14766915#1000000000);
(991874#10000, 9846201#10000000, 14950182#1000000000);
(99585743#1000000, 98464714#100000000, 15080446#1000000000);
(99853623#1000000, 98464258#100000000, 15115022#1000000000);
(99987298#1000000, 98464057#100000000, 15132529#1000000000);
(10039211#100000, 98464788#100000000, 15245281#1000000000);
(10146841#100000, 98474099#100000000, 15467334#1000000000);
(10162643#100000, 98475537#100000000, 15500358#1000000000);
(10204465#100000, 98484504#100000000, 1555641#100000000);
(10210095#100000, 98483574#100000000, 15560903#1000000000);
(10310969#100000, 98484988#100000000, 15645767#1000000000);
(10375251#100000, 98486163#100000000, 15700515#1000000000);
(10418845#100000, 98497537#100000000, 15812838#1000000000);
(10462806#100000, 98504777#100000000, 15782143#1000000000);
(10477749#100000, 98508451#100000000, 15790561#1000000000);
(1050714#10000, 98515779#100000000, 15807643#1000000000);
(10551851#100000, 98524293#100000000, 15736277#1000000000);
(10596944#100000, 98534876#100000000, 15642487#1000000000);
(10647177#100000, 98531234#100000000, 15485505#1000000000);
(10734567#100000, 98525142#100000000, 15209202#1000000000);
(10781239#100000, 98517079#100000000, 1508936#100000000);
(10819436#100000, 98504515#100000000, 15011883#1000000000);
(10828319#100000, 98501605#100000000, 14993948#1000000000);
(10875811#100000, 9848419#10000000, 14920238#1000000000);
(10994436#100000, 98456759#100000000, 14968368#1000000000);
(11020822#100000, 98450689#100000000, 14979376#1000000000);
(11119664#100000, 98437556#100000000, 14960565#1000000000);
(11169752#100000, 98430975#100000000, 14896759#1000000000);
(11172269#100000, 98430429#100000000, 14892227#1000000000);
(11220294#100000, 98420113#100000000, 14806197#1000000000);
(11271295#100000, 9840753#10000000, 14759372#1000000000);
(1127437#10000, 98402765#100000000, 14745882#1000000000);
(11291826#100000, 98397943#100000000, 14750443#1000000000);
(11305211#100000, 98390293#100000000, 14744225#1000000000);
(11310368#100000, 98390402#100000000, 14739313#1000000000);
(11312432#100000, 98389835#100000000, 14755491#1000000000);
(11315529#100000, 98389294#100000000, 14737968#1000000000);
(11317595#100000, 98388064#100000000, 14752252#1000000000);
(11319661#100000, 98388937#100000000, 14735324#1000000000);
(11327935#100000, 98382591#100000000, 14747812#1000000000);
(11330005#100000, 98383084#100000000, 14729855#1000000000);
(11333112#100000, 98380806#100000000, 14745934#1000000000);
(11335185#100000, 98379725#100000000, 14737137#1000000000);
(11338294#100000, 98378552#100000000, 14760028#1000000000);
(11346596#100000, 98373511#100000000, 14783008#1000000000);
(11348673#100000, 98374947#100000000, 14806313#1000000000);
(11352933#100000, 98374412#100000000, 14800131#1000000000);
(11353869#100000, 98374297#100000000, 14798797#1000000000)].
Definition oxide_data_9 : list chemical_row := [
(11362193#100000, 98371647#100000000, 14816023#1000000000);
(11367402#100000, 9836958#10000000, 14808285#1000000000);
(11371572#100000, 98368188#100000000, 14842813#1000000000);
(11374702#100000, 98368188#100000000, 14852914#1000000000);
(11385147#100000, 98368812#100000000, 14881049#1000000000);
(1139247#10000, 98368651#100000000, 14865209#1000000000);
(11402948#100000, 98365547#100000000, 14880403#1000000000);
(11416598#100000, 98367048#100000000, 14928684#1000000000);
(11419752#100000, 9836638#10000000, 14920319#1000000000);
(11425014#100000, 98367451#100000000, 14930685#1000000000);
(11432388#100000, 98367688#100000000, 14909238#1000000000);
(11435552#100000, 98366797#100000000, 14915405#1000000000);
(11450337#100000, 98366728#100000000, 14926656#1000000000);
(11456685#100000, 98368014#100000000, 14906764#1000000000);
(11472587#100000, 98368231#100000000, 14908528#1000000000);
(1148534#10000, 98370416#100000000, 1488657#100000000);
(11487469#100000, 98368461#100000000, 14861729#1000000000);
(11492793#100000, 98367332#100000000, 14853204#1000000000);
(1149599#10000, 98364398#100000000, 14838808#1000000000);
(11506659#100000, 9836524#10000000, 14850416#1000000000);
(11508795#100000, 98363013#100000000, 14837904#1000000000);
(11515209#100000, 98363801#100000000, 1484701#100000000);
(11520558#100000, 98362843#100000000, 14834956#1000000000);
(115227#1000, 98363691#100000000, 14812324#1000000000);
(11524842#100000, 9836215#10000000, 14824003#1000000000);
(11528057#100000, 98363324#100000000, 14821974#1000000000);
(11530201#100000, 98362726#100000000, 14804213#1000000000);
(11533419#100000, 98361536#100000000, 14801723#1000000000);
(11536531#100000, 98360759#100000000, 14803424#1000000000);
(11542008#100000, 98359412#100000000, 14806555#1000000000);
(11544157#100000, 9836105#10000000, 14782357#1000000000);
(11549534#100000, 98358419#100000000, 14791937#1000000000);
(11552763#100000, 98357688#100000000, 14784195#1000000000);
(11554916#100000, 98357838#100000000, 14789241#1000000000);
(1155707#10000, 98357551#100000000, 14776967#1000000000);
(11565695#100000, 98355515#100000000, 1480723#100000000);
(11568933#100000, 98356047#100000000, 14796292#1000000000);
(11571092#100000, 98358239#100000000, 14801588#1000000000);
(11587313#100000, 98354332#100000000, 14777726#1000000000);
(11590563#100000, 98357093#100000000, 14792601#1000000000);
(11595983#100000, 9835699#10000000, 14772684#1000000000);
(11601408#100000, 98359251#100000000, 14770149#1000000000);
(11609012#100000, 98358708#100000000, 14727062#1000000000);
(1161445#10000, 98359691#100000000, 14719238#1000000000);
(11619892#100000, 98358874#100000000, 1468428#100000000);
(1162534#10000, 98358571#100000000, 14668892#1000000000);
(11628611#100000, 98357563#100000000, 14653096#1000000000);
(11636251#100000, 9835657#10000000, 14635118#1000000000);
(11647182#100000, 98358063#100000000, 14602785#1000000000);
(1164937#10000, 98357022#100000000, 1457897#100000000);
(11652655#100000, 98355907#100000000, 14578873#1000000000);
(11661423#100000, 9835612#10000000, 14533456#1000000000);
(1166691#10000, 98355643#100000000, 14527082#1000000000);
(11671303#100000, 9835516#10000000, 14486933#1000000000);
(11685603#100000, 98350094#100000000, 1445112#100000000);
(11688908#100000, 98350654#100000000, 14457482#1000000000);
(11693318#100000, 98352395#100000000, 14441105#1000000000);
(11699939#100000, 98355205#100000000, 14412076#1000000000);
(1171099#10000, 98361268#100000000, 14284083#1000000000);
(11713203#100000, 98361047#100000000, 14239305#1000000000);
(11720954#100000, 9835439#10000000, 1412243#100000000);
(1172317#10000, 98353342#100000000, 14106601#1000000000);
(11724279#100000, 98352823#100000000, 14098708#1000000000);
(11737598#100000, 9834016#10000000, 13959813#1000000000);
(11740933#100000, 98338516#100000000, 13941088#1000000000);
(11746495#100000, 9833266#10000000, 1388349#100000000);
(11752062#100000, 98326649#100000000, 13839615#1000000000);
(11759864#100000, 98317312#100000000, 13797127#1000000000);
(11768794#100000, 98307479#100000000, 1374795#100000000);
(11772147#100000, 98302519#100000000, 13749664#1000000000);
(11779976#100000, 98294981#100000000, 13714169#1000000000);
(11787816#100000, 98286411#100000000, 13696771#1000000000);
(11791179#100000, 98282236#100000000, 13682918#1000000000);
(11804651#100000, 98266645#100000000, 13671899#1000000000);
(11813649#100000, 98257274#100000000, 13678305#1000000000);
(11815901#100000, 98256319#100000000, 13658207#1000000000);
(1181928#10000, 98253197#100000000, 13664712#1000000000);
(11830558#100000, 98237153#100000000, 13650924#1000000000);
(11836205#100000, 98231236#100000000, 13684095#1000000000);
(11838466#100000, 98229229#100000000, 1368192#100000000);
(11847516#100000, 98220893#100000000, 13715186#1000000000);
(11856579#100000, 98212878#100000000, 13725014#1000000000);
(11861116#100000, 98209015#100000000, 1372468#100000000);
(11864522#100000, 98205003#100000000, 13733741#1000000000);
(11867929#100000, 98201694#100000000, 13730748#1000000000);
(11872474#100000, 98195983#100000000, 13755489#1000000000);
(11889552#100000, 98179218#100000000, 13788904#1000000000);
(11896397#100000, 98171999#100000000, 13809499#1000000000);
(1191011#10000, 9815817#10000000, 13923554#1000000000);
(11912742#100000, 98156479#100000000, 13939206#1000000000);
(11921562#100000, 98150853#100000000, 13991957#1000000000);
(11935334#100000, 98142706#100000000, 14043781#1000000000);
(11944533#100000, 98135331#100000000, 14060654#1000000000);
(11956051#100000, 98123125#100000000, 1409456#100000000);
(11965282#100000, 98112077#100000000, 14161676#1000000000);
(11967592#100000, 98108664#100000000, 14170565#1000000000);
(1197337#10000, 98100696#100000000, 14226807#1000000000);
(11984944#100000, 98087091#100000000, 14378006#1000000000);
(11987262#100000, 98081634#100000000, 14448872#1000000000);
(11996541#100000, 98080592#100000000, 14618311#1000000000)].
Definition oxide_data_10 : list chemical_row := [
(12000024#100000, 98082525#100000000, 14659525#1000000000);
(12004672#100000, 98083376#100000000, 14757352#1000000000);
(12013978#100000, 98089686#100000000, 14838629#1000000000);
(12023298#100000, 98093928#100000000, 14876319#1000000000);
(12037306#100000, 98087438#100000000, 14877302#1000000000);
(12043152#100000, 98082946#100000000, 149183#10000000);
(12051346#100000, 98075551#100000000, 1500522#100000000);
(12063072#100000, 98071033#100000000, 15190238#1000000000);
(12072468#100000, 9807301#10000000, 15352706#1000000000);
(12078349#100000, 98079153#100000000, 15446967#1000000000);
(12084235#100000, 98087522#100000000, 155007#10000000);
(12090127#100000, 98096626#100000000, 15506721#1000000000);
(12092485#100000, 9810027#10000000, 15481844#1000000000);
(12101928#100000, 98101109#100000000, 15372683#1000000000);
(12105473#100000, 98097828#100000000, 1535008#100000000);
(12107837#100000, 98095656#100000000, 15335069#1000000000);
(12113752#100000, 98087857#100000000, 15323325#1000000000);
(12119673#100000, 98079101#100000000, 15353729#1000000000);
(12125599#100000, 98072451#100000000, 15408092#1000000000);
(12133906#100000, 98060248#100000000, 15464915#1000000000);
(12137469#100000, 98054037#100000000, 15514848#1000000000);
(12143413#100000, 98047382#100000000, 15643257#1000000000);
(12149363#100000, 98040167#100000000, 1571742#100000000);
(12151745#100000, 98035669#100000000, 15782393#1000000000);
(12155319#100000, 98029588#100000000, 15875653#1000000000);
(1216128#10000, 98029352#100000000, 16094469#1000000000);
(12167247#100000, 98028454#100000000, 16193689#1000000000);
(12169636#100000, 98025116#100000000, 16296184#1000000000);
(12176807#100000, 98026586#100000000, 16525492#1000000000);
(12185184#100000, 98031515#100000000, 1680238#100000000);
(12197172#100000, 98045721#100000000, 17230998#1000000000);
(12199572#100000, 98046974#100000000, 17360186#1000000000);
(12203174#100000, 98054434#100000000, 17479448#1000000000);
(12215197#100000, 98093985#100000000, 17957233#1000000000);
(12221217#100000, 98121107#100000000, 1816633#100000000);
(12227244#100000, 98154658#100000000, 18288241#1000000000);
(12229656#100000, 98167536#100000000, 18318164#1000000000);
(12236898#100000, 98204762#100000000, 18342815#1000000000);
(12245358#100000, 98241484#100000000, 18303107#1000000000);
(12273238#100000, 98336818#100000000, 18341602#1000000000);
(12275668#100000, 98348716#100000000, 18368632#1000000000);
(12287834#100000, 98419407#100000000, 18403087#1000000000);
(12293927#100000, 98463625#100000000, 1833832#100000000);
(12300025#100000, 98508447#100000000, 1813131#100000000);
(12301245#100000, 98517824#100000000, 18083835#1000000000);
(12303687#100000, 98536619#100000000, 17988886#1000000000);
(12306129#100000, 98554914#100000000, 17814328#1000000000);
(12312239#100000, 98580798#100000000, 17363443#1000000000);
(12314685#100000, 98590745#100000000, 17136956#1000000000);
(12322028#100000, 98606147#100000000, 16932785#1000000000);
(12324478#100000, 98619386#100000000, 16706332#1000000000);
(12330607#100000, 98635639#100000000, 16297123#1000000000);
(12336741#100000, 9864661#10000000, 15917951#1000000000);
(12339197#100000, 98649941#100000000, 15707522#1000000000);
(12342882#100000, 98649895#100000000, 15483665#1000000000);
(12351489#100000, 98645482#100000000, 14828666#1000000000);
(12355182#100000, 98635194#100000000, 14648156#1000000000);
(12361341#100000, 98618793#100000000, 14335497#1000000000);
(12363806#100000, 98611776#100000000, 14237244#1000000000);
(12367506#100000, 98600689#100000000, 14155236#1000000000);
(12371208#100000, 98595677#100000000, 14101709#1000000000);
(12376148#100000, 98591188#100000000, 13957308#1000000000);
(12383565#100000, 98589928#100000000, 13833459#1000000000);
(12394707#100000, 98598132#100000000, 13475038#1000000000);
(12398425#100000, 98601044#100000000, 13360871#1000000000);
(12401649#100000, 98605096#100000000, 13233398#1000000000);
(12404503#100000, 98609545#100000000, 13088694#1000000000);
(12407607#100000, 98611645#100000000, 1292425#100000000);
(1241096#10000, 98616053#100000000, 12751283#1000000000);
(12413942#100000, 98619303#100000000, 12539787#1000000000);
(12416926#100000, 9861959#10000000, 12295242#1000000000);
(12420036#100000, 98615154#100000000, 12034286#1000000000);
(12426384#100000, 98593086#100000000, 11504434#1000000000);
(12429623#100000, 98577089#100000000, 11263738#1000000000);
(1243249#10000, 98558859#100000000, 11035565#1000000000);
(12435857#100000, 98533066#100000000, 10851842#1000000000);
(12438726#100000, 98509793#100000000, 10714278#1000000000);
(12442097#100000, 98482802#100000000, 10634135#1000000000);
(12444969#100000, 98461519#100000000, 10586783#1000000000);
(12448093#100000, 98441001#100000000, 10564036#1000000000);
(12451218#100000, 98421746#100000000, 10546275#1000000000);
(12454595#100000, 9840306#10000000, 10548669#1000000000);
(12457724#100000, 98387135#100000000, 10556414#1000000000);
(12460729#100000, 98374718#100000000, 10572683#1000000000);
(12500202#100000, 98251321#100000000, 1066681#100000000);
(12500265#100000, 98251125#100000000, 10666947#1000000000);
(1270238#10000, 97950464#100000000, 11110452#1000000000);
(12702445#100000, 97950364#100000000, 11110591#1000000000);
(12907833#100000, 97761759#100000000, 1156959#100000000);
(129079#1000, 97761696#100000000, 11569743#1000000000);
(13116612#100000, 9760489#10000000, 12052829#1000000000);
(13116667#100000, 97604848#100000000, 1205296#100000000);
(13328759#100000, 9746205#10000000, 12557574#1000000000);
(13328816#100000, 9746201#10000000, 12557713#1000000000);
(13544344#100000, 97325929#100000000, 13084759#1000000000);
(13544403#100000, 97325891#100000000, 13084907#1000000000);
(13763411#100000, 97193436#100000000, 1364179#100000000);
(13763472#100000, 97193399#100000000, 13641949#1000000000);
(1398602#10000, 97063127#100000000, 14226644#1000000000);
(13986083#100000, 9706309#10000000, 14226813#1000000000)].
Definition oxide_data_11 : list chemical_row := [
(14212233#100000, 96933448#100000000, 14837335#1000000000);
(14212298#100000, 9693341#10000000, 14837514#1000000000);
(14442114#100000, 9680342#10000000, 15475052#1000000000);
(14442181#100000, 96803382#100000000, 15475242#1000000000);
(14675697#100000, 9667078#10000000, 16140876#1000000000);
(14675766#100000, 96670741#100000000, 16141078#1000000000);
(14913066#100000, 9653649#10000000, 16863966#1000000000);
(14913138#100000, 96536449#100000000, 16864188#1000000000);
(15154275#100000, 96402202#100000000, 17621171#1000000000);
(1515435#10000, 96402161#100000000, 17621406#1000000000);
(15399379#100000, 9626575#10000000, 18412383#1000000000);
(15399455#100000, 96265707#100000000, 18412633#1000000000);
(15648452#100000, 96125167#100000000, 19239077#1000000000);
(15648531#100000, 96125122#100000000, 19239345#1000000000);
(15901553#100000, 95983515#100000000, 20161257#1000000000);
(15901635#100000, 95983469#100000000, 20161561#1000000000);
(16158742#100000, 9584149#10000000, 21131246#1000000000);
(16158826#100000, 95841443#100000000, 21131568#1000000000);
(16420102#100000, 95700651#100000000, 22150609#1000000000);
(16420189#100000, 95700604#100000000, 22150954#1000000000);
(16685698#100000, 95561022#100000000, 23197673#1000000000);
(16685766#100000, 95560986#100000000, 23197944#1000000000);
(16955575#100000, 95418322#100000000, 24263991#1000000000);
(16955644#100000, 95418285#100000000, 24264269#1000000000);
(17229822#100000, 95272881#100000000, 25379611#1000000000);
(17229894#100000, 95272843#100000000, 25379907#1000000000);
(17508487#100000, 95126536#100000000, 26546731#1000000000);
(17508561#100000, 95126496#100000000, 26547047#1000000000);
(17791666#100000, 9497977#10000000, 27733412#1000000000);
(17791743#100000, 9497973#10000000, 2773374#100000000);
(18079436#100000, 94828773#100000000, 28946486#1000000000);
(18079515#100000, 94828731#100000000, 28946825#1000000000);
(18371875#100000, 94673988#100000000, 30213448#1000000000);
(18371929#100000, 94673959#100000000, 30213687#1000000000);
(18669009#100000, 94516171#100000000, 3153659#100000000);
(18669093#100000, 94516126#100000000, 31536971#1000000000);
(18970977#100000, 94356186#100000000, 32918654#1000000000);
(18971035#100000, 94356156#100000000, 32918923#1000000000);
(19277807#100000, 94193794#100000000, 34326635#1000000000);
(19277897#100000, 94193746#100000000, 34327054#1000000000);
(19589617#100000, 94026236#100000000, 35794941#1000000000);
(19589678#100000, 94026203#100000000, 35795237#1000000000);
(19906468#100000, 93854749#100000000, 37328932#1000000000);
(19906532#100000, 93854714#100000000, 37329248#1000000000);
(20228423#100000, 93679532#100000000, 38931633#1000000000);
(20228522#100000, 93679478#100000000, 38932134#1000000000);
(20555611#100000, 93500418#100000000, 40606156#1000000000);
(20555679#100000, 93500381#100000000, 40606512#1000000000);
(20888101#100000, 93316941#100000000, 4235994#100000000);
(20888172#100000, 93316903#100000000, 42360317#1000000000);
(21225927#100000, 93130494#100000000, 44226808#1000000000);
(21226#100, 93130454#100000000, 44227217#1000000000);
(2156923#10000, 9294303#10000000, 46176934#1000000000);
(21569343#100000, 92942969#100000000, 46177585#1000000000);
(21918124#100000, 92753929#100000000, 482143#10000000);
(21918201#100000, 92753887#100000000, 4821476#100000000);
(22272606#100000, 92563146#100000000, 50342466#1000000000);
(22272686#100000, 92563103#100000000, 50342954#1000000000);
(22632876#100000, 92370829#100000000, 52565908#1000000000);
(22632958#100000, 92370785#100000000, 52566427#1000000000);
(22998932#100000, 92177389#100000000, 54888374#1000000000);
(22999017#100000, 92177345#100000000, 54888925#1000000000);
(299714#1000, 902641#1000000, 90808#1000000);
(302711#1000, 90136#100000, 92924#1000000);
(305738#1000, 90007#100000, 95088#1000000);
(308795#1000, 898776#1000000, 97307#1000000);
(311882#1000, 89748#100000, 99571#1000000);
(315001#1000, 896181#1000000, 101885#1000000);
(318151#1000, 894879#1000000, 104244#1000000);
(321332#1000, 893574#1000000, 106656#1000000);
(324545#1000, 892272#1000000, 109126#1000000);
(32779#100, 890978#1000000, 111647#1000000);
(331067#1000, 889702#1000000, 114236#1000000);
(334378#1000, 888465#1000000, 116878#1000000);
(337721#1000, 887297#1000000, 119567#1000000);
(341098#1000, 886214#1000000, 122209#1000000);
(344509#1000, 885174#1000000, 124693#1000000);
(347954#1000, 883982#1000000, 126809#1000000);
(351433#1000, 882511#1000000, 128955#1000000);
(354947#1000, 880785#1000000, 131143#1000000);
(358496#1000, 878678#1000000, 133365#1000000);
(36208#100, 876481#1000000, 136553#1000000);
(365701#1000, 874556#1000000, 1399#10000);
(369358#1000, 872787#1000000, 143213#1000000);
(373051#1000, 871074#1000000, 146494#1000000);
(376781#1000, 869363#1000000, 149742#1000000);
(380548#1000, 86761#100000, 152958#1000000);
(384354#1000, 865776#1000000, 156142#1000000);
(388197#1000, 863816#1000000, 159295#1000000);
(392078#1000, 861676#1000000, 162416#1000000);
(395999#1000, 859282#1000000, 165507#1000000);
(399958#1000, 856515#1000000, 168567#1000000);
(403958#1000, 853138#1000000, 171596#1000000);
(407997#1000, 84889#100000, 175068#1000000);
(412076#1000, 844123#1000000, 180254#1000000);
(416197#1000, 83975#100000, 187256#1000000);
(420358#1000, 83622#100000, 195025#1000000);
(424561#1000, 833486#1000000, 203259#1000000);
(428807#1000, 831514#1000000, 21184#100000);
(433094#1000, 830332#1000000, 220746#1000000)].
Definition oxide_data_12 : list chemical_row := [
(437425#1000, 830106#1000000, 23005#100000);
(441799#1000, 831546#1000000, 240085#1000000);
(446216#1000, 835363#1000000, 249093#1000000);
(450678#1000, 840168#1000000, 253264#1000000);
(455184#1000, 842632#1000000, 252294#1000000);
(459736#1000, 840353#1000000, 250013#1000000);
(464333#1000, 834485#1000000, 252464#1000000);
(468975#1000, 828622#1000000, 26046#100000);
(473665#1000, 824426#1000000, 270022#1000000);
(478401#1000, 821603#1000000, 28039#100000);
(483185#1000, 820021#1000000, 291335#1000000);
(488016#1000, 819896#1000000, 302881#1000000);
(492896#1000, 821242#1000000, 313805#1000000);
(497824#1000, 823304#1000000, 323299#1000000);
(502802#1000, 825546#1000000, 332287#1000000);
(507829#1000, 828171#1000000, 341151#1000000);
(512907#1000, 831901#1000000, 349806#1000000);
(518036#1000, 834838#1000000, 353096#1000000);
(523216#1000, 833377#1000000, 354566#1000000);
(528447#1000, 829407#1000000, 363136#1000000);
(533731#1000, 827279#1000000, 375978#1000000);
(539068#1000, 827432#1000000, 38814#100000);
(544458#1000, 82669#100000, 397168#1000000);
(549902#1000, 824603#1000000, 411489#1000000);
(555401#1000, 827179#1000000, 434434#1000000);
(560954#1000, 836419#1000000, 452936#1000000);
(566563#1000, 847178#1000000, 463637#1000000);
(572228#1000, 856583#1000000, 472242#1000000);
(57795#100, 86484#100000, 479679#1000000);
(583729#1000, 871787#1000000, 486141#1000000);
(589566#1000, 877083#1000000, 492552#1000000);
(595461#1000, 881709#1000000, 501506#1000000);
(601415#1000, 88723#100000, 511722#1000000);
(607428#1000, 893026#1000000, 52031#100000);
(613502#1000, 898025#1000000, 529356#1000000);
(619637#1000, 903174#1000000, 540851#1000000);
(625832#1000, 90997#100000, 553909#1000000);
(63209#100, 918486#1000000, 566062#1000000);
(63841#100, 927667#1000000, 576825#1000000);
(644794#1000, 937008#1000000, 587342#1000000);
(651241#1000, 946536#1000000, 597691#1000000);
(657753#1000, 955843#1000000, 60778#100000);
(66433#100, 966053#1000000, 620951#1000000);
(670973#1000, 979802#1000000, 635486#1000000);
(677682#1000, 995102#1000000, 643249#1000000);
(684458#1000, 1008374#1000000, 649139#1000000);
(691302#1000, 102101#100000, 658131#1000000);
(698214#1000, 1034766#1000000, 66723#100000);
(705196#1000, 1049624#1000000, 676323#1000000);
(712247#1000, 1065902#1000000, 685415#1000000);
(719369#1000, 1084606#1000000, 694612#1000000);
(726562#1000, 110556#100000, 699942#1000000);
(733827#1000, 112624#100000, 699928#1000000);
(741164#1000, 1145158#1000000, 697823#1000000);
(748575#1000, 1162416#1000000, 69425#100000);
(75606#100, 117799#100000, 689602#1000000);
(76362#100, 1191939#1000000, 684428#1000000);
(771255#1000, 120437#100000, 678849#1000000);
(778967#1000, 1215264#1000000, 672967#1000000);
(786756#1000, 1224503#1000000, 666877#1000000);
(794623#1000, 1231821#1000000, 660683#1000000);
(802568#1000, 1236636#1000000, 654506#1000000);
(810593#1000, 123724#100000, 648542#1000000);
(818698#1000, 1235379#1000000, 651989#1000000);
(826885#1000, 1238136#1000000, 665935#1000000);
(835153#1000, 124801#100000, 678049#1000000);
(843503#1000, 1260593#1000000, 683634#1000000);
(851938#1000, 1272048#1000000, 686072#1000000);
(860456#1000, 1281354#1000000, 688541#1000000);
(86906#100, 1289829#1000000, 694971#1000000);
(87775#100, 1301036#1000000, 706731#1000000);
(886526#1000, 1317938#1000000, 719526#1000000);
(895391#1000, 1338809#1000000, 725584#1000000);
(904344#1000, 1358004#1000000, 724254#1000000);
(913386#1000, 1377503#1000000, 729951#1000000);
(922519#1000, 1402077#1000000, 731917#1000000);
(931744#1000, 142568#100000, 719519#1000000);
(94106#100, 1442601#1000000, 702867#1000000);
(95047#100, 1446582#1000000, 677451#1000000);
(959974#1000, 1441629#1000000, 676337#1000000);
(969573#1000, 1445146#1000000, 69378#100000);
(979267#1000, 145689#100000, 701398#1000000);
(989059#1000, 1470505#1000000, 710496#1000000);
(998949#1000, 1487711#1000000, 72078#100000);
(100894#100, 1508878#1000000, 72967#100000);
(101903#100, 1533322#1000000, 736282#1000000);
(102921#100, 1560693#1000000, 740562#1000000);
(103951#100, 1590166#1000000, 740975#1000000);
(10499#10, 1623784#1000000, 742378#1000000);
(10604#10, 1662533#1000000, 734122#1000000);
(1071#1, 1699263#1000000, 709172#1000000);
(108171#100, 172842#100000, 67681#100000);
(109253#100, 1745129#1000000, 634501#1000000);
(110345#100, 1749212#1000000, 602484#1000000);
(111448#100, 1751025#1000000, 585491#1000000);
(112563#100, 175456#100000, 56886#100000);
(113688#100, 1756805#1000000, 551819#1000000);
(114825#100, 1746277#1000000, 524736#1000000);
(115973#100, 1732785#1000000, 544218#1000000);
(117133#100, 174317#100000, 584025#1000000)].
Definition oxide_data_13 : list chemical_row := [
(118304#100, 1776007#1000000, 610374#1000000);
(119487#100, 1829849#1000000, 636461#1000000);
(120682#100, 1898678#1000000, 623631#1000000);
(121888#100, 1964435#1000000, 579259#1000000);
(123107#100, 2009692#1000000, 498676#1000000);
(124338#100, 2025857#1000000, 418891#1000000);
(125581#100, 2027361#1000000, 360819#1000000);
(126837#100, 20246#10000, 306025#1000000);
(128105#100, 20159#10000, 251772#1000000);
(129386#100, 1998814#1000000, 198057#1000000);
(13068#10, 1969362#1000000, 147217#1000000);
(131987#100, 1937598#1000000, 126202#1000000);
(133306#100, 1912352#1000000, 105396#1000000);
(134639#100, 1887895#1000000, 84795#1000000);
(135986#100, 186161#100000, 66665#1000000);
(137345#100, 1836981#1000000, 59834#1000000);
(138719#100, 1816682#1000000, 53069#1000000);
(140106#100, 1798334#1000000, 46556#1000000);
(141507#100, 1781051#1000000, 40788#1000000);
(142922#100, 1764089#1000000, 3577#100000);
(144351#100, 1748911#1000000, 35579#1000000);
(145794#100, 173703#100000, 35389#1000000);
(147252#100, 1727671#1000000, 34107#1000000);
(148724#100, 1718598#1000000, 28736#1000000);
(150211#100, 1708028#1000000, 23419#1000000);
(151713#100, 1696399#1000000, 195#10000);
(15323#10, 1685403#1000000, 19141#1000000);
(154762#100, 1675988#1000000, 18794#1000000);
(15631#10, 166756#100000, 18558#1000000);
(157873#100, 1659934#1000000, 18325#1000000);
(159451#100, 1653007#1000000, 18094#1000000);
(161046#100, 1646665#1000000, 17689#1000000);
(162656#100, 1640837#1000000, 1721#100000);
(164282#100, 1635374#1000000, 16326#1000000);
(165925#100, 1630056#1000000, 1524#100000);
(167584#100, 1624859#1000000, 14165#1000000);
(16926#10, 1619821#1000000, 13101#1000000);
(170952#100, 1614983#1000000, 12047#1000000);
(172662#100, 1610173#1000000, 10604#1000000);
(174388#100, 1604986#1000000, 8981#1000000);
(176132#100, 1599814#1000000, 8657#1000000);
(177893#100, 1595135#1000000, 8394#1000000);
(179672#100, 159077#100000, 8133#1000000);
(181468#100, 1586642#1000000, 7875#1000000);
(183283#100, 158271#100000, 7619#1000000);
(185116#100, 1578947#1000000, 7365#1000000);
(186966#100, 1575331#1000000, 7114#1000000);
(188836#100, 1571839#1000000, 6866#1000000);
(190724#100, 1568439#1000000, 6632#1000000);
(192631#100, 1565172#1000000, 6538#1000000);
(194557#100, 156207#100000, 6447#1000000);
(196503#100, 1559103#1000000, 6357#1000000);
(198468#100, 1556257#1000000, 6269#1000000);
(200452#100, 1553522#1000000, 6183#1000000);
(202456#100, 155089#100000, 6099#1000000);
(204481#100, 1548354#1000000, 6016#1000000);
(206525#100, 1545909#1000000, 5935#1000000);
(20859#10, 154355#100000, 5856#1000000);
(210676#100, 1541272#1000000, 5778#1000000);
(212783#100, 1539071#1000000, 5701#1000000);
(21491#10, 1536943#1000000, 5626#1000000);
(217059#100, 1534884#1000000, 5552#1000000);
(21923#10, 1532892#1000000, 548#100000);
(221422#100, 1530963#1000000, 5409#1000000);
(223636#100, 1529095#1000000, 5339#1000000);
(225872#100, 1527285#1000000, 5271#1000000);
(22813#10, 152553#100000, 5203#1000000);
(230411#100, 1523828#1000000, 5137#1000000);
(232715#100, 1522177#1000000, 5072#1000000);
(235042#100, 1520575#1000000, 5008#1000000);
(237392#100, 151902#100000, 4946#1000000);
(239766#100, 151751#100000, 4884#1000000);
(242164#100, 1516043#1000000, 4823#1000000);
(244585#100, 1514619#1000000, 4764#1000000);
(247031#100, 1513234#1000000, 4705#1000000);
(249501#100, 1511889#1000000, 4647#1000000);
(251995#100, 151058#100000, 459#100000);
(254515#100, 1509308#1000000, 4535#1000000);
(25706#10, 150807#100000, 448#100000);
(25963#10, 1506866#1000000, 4426#1000000);
(262226#100, 1505695#1000000, 4372#1000000);
(264848#100, 1504555#1000000, 432#100000);
(267497#100, 1503445#1000000, 4268#1000000);
(270171#100, 1502364#1000000, 4218#1000000);
(272873#100, 1501312#1000000, 4168#1000000);
(275601#100, 1500287#1000000, 4118#1000000);
(278357#100, 1499288#1000000, 407#100000);
(28114#10, 1498315#1000000, 4022#1000000);
(283951#100, 1497367#1000000, 3975#1000000);
(286791#100, 1496443#1000000, 3929#1000000);
(289658#100, 1495543#1000000, 3883#1000000);
(292555#100, 1494665#1000000, 3838#1000000);
(29548#10, 1493809#1000000, 3794#1000000);
(298434#100, 1492974#1000000, 375#100000);
(301419#100, 149216#100000, 3707#1000000);
(304432#100, 1491366#1000000, 3665#1000000);
(307476#100, 1490591#1000000, 3623#1000000);
(310551#100, 1489835#1000000, 3582#1000000);
(313656#100, 1489098#1000000, 3541#1000000);
(316792#100, 1488379#1000000, 3501#1000000)].
Definition oxide_data_14 : list chemical_row := [
(31996#10, 1487676#1000000, 3461#1000000);
(323159#100, 1486991#1000000, 3422#1000000);
(326391#100, 1486322#1000000, 3384#1000000);
(329654#100, 1485668#1000000, 3346#1000000);
(33295#10, 1485031#1000000, 3309#1000000);
(33628#10, 1484408#1000000, 3272#1000000);
(339642#100, 14838#10000, 3235#1000000);
(343038#100, 1483206#1000000, 3199#1000000);
(346468#100, 1482626#1000000, 3164#1000000);
(349933#100, 1482059#1000000, 3129#1000000);
(353432#100, 1481506#1000000, 3094#1000000);
(356966#100, 1480965#1000000, 306#100000);
(360535#100, 1480437#1000000, 3027#1000000);
(36414#10, 1479921#1000000, 2994#1000000);
(367781#100, 1479416#1000000, 2961#1000000);
(371458#100, 1478923#1000000, 2928#1000000);
(375173#100, 1478442#1000000, 2896#1000000);
(378924#100, 1477971#1000000, 2865#1000000);
(382713#100, 1477511#1000000, 2834#1000000);
(38654#10, 1477061#1000000, 2803#1000000);
(390405#100, 1476621#1000000, 2773#1000000);
(394308#100, 1476191#1000000, 2743#1000000);
(398251#100, 1475771#1000000, 2713#1000000);
(402233#100, 147536#100000, 2684#1000000);
(406255#100, 1474958#1000000, 2655#1000000);
(410317#100, 1474565#1000000, 2627#1000000);
(41442#10, 1474181#1000000, 2599#1000000);
(418564#100, 1473805#1000000, 2571#1000000);
(422749#100, 1473438#1000000, 2543#1000000);
(426976#100, 1473078#1000000, 2516#1000000);
(431245#100, 1472727#1000000, 2489#1000000);
(435558#100, 1472383#1000000, 2463#1000000);
(439913#100, 1472047#1000000, 2437#1000000);
(444311#100, 1471718#1000000, 2411#1000000);
(448754#100, 1471396#1000000, 2385#1000000);
(453241#100, 1471081#1000000, 236#100000);
(457773#100, 1470773#1000000, 2335#1000000);
(46235#10, 1470471#1000000, 2311#1000000);
(466973#100, 1470176#1000000, 2286#1000000);
(471643#100, 1469888#1000000, 2262#1000000);
(476359#100, 1469605#1000000, 2238#1000000);
(481122#100, 1469329#1000000, 2215#1000000);
(485933#100, 1469058#1000000, 2192#1000000);
(490792#100, 1468794#1000000, 2169#1000000);
(495699#100, 1468535#1000000, 2146#1000000);
(500655#100, 1468281#1000000, 2123#1000000);
(505662#100, 1468033#1000000, 2101#1000000);
(510718#100, 146779#100000, 2079#1000000);
(515824#100, 1467553#1000000, 2058#1000000);
(520982#100, 146732#100000, 2036#1000000);
(526191#100, 1467092#1000000, 2015#1000000);
(531453#100, 1466869#1000000, 1994#1000000);
(536767#100, 1466651#1000000, 1973#1000000);
(542134#100, 1466437#1000000, 1953#1000000);
(547555#100, 1466228#1000000, 1933#1000000);
(55303#10, 1466023#1000000, 1913#1000000);
(55856#10, 1465823#1000000, 1893#1000000);
(564145#100, 1465627#1000000, 1873#1000000);
(569786#100, 1465434#1000000, 1854#1000000);
(575483#100, 1465246#1000000, 1835#1000000);
(581237#100, 1465062#1000000, 1816#1000000);
(587049#100, 1464882#1000000, 1797#1000000);
(592919#100, 1464705#1000000, 1779#1000000);
(598848#100, 1464532#1000000, 1761#1000000);
(604835#100, 1464363#1000000, 1742#1000000);
(610883#100, 1464197#1000000, 1725#1000000);
(616991#100, 1464034#1000000, 1707#1000000);
(623161#100, 1463875#1000000, 1689#1000000);
(629392#100, 146372#100000, 1672#1000000);
(635685#100, 1463567#1000000, 1655#1000000);
(642041#100, 1463418#1000000, 1638#1000000);
(648461#100, 1463271#1000000, 1621#1000000);
(654945#100, 1463128#1000000, 1605#1000000);
(661494#100, 1462988#1000000, 1588#1000000);
(668108#100, 146285#100000, 1572#1000000);
(674789#100, 1462716#1000000, 1556#1000000);
(681536#100, 1462584#1000000, 154#100000);
(688351#100, 1462455#1000000, 1524#1000000);
(695234#100, 1462328#1000000, 1509#1000000);
(702185#100, 1462204#1000000, 1494#1000000);
(709206#100, 1462083#1000000, 1478#1000000);
(716298#100, 1461964#1000000, 1463#1000000);
(72346#10, 1461847#1000000, 1448#1000000);
(730694#100, 1461733#1000000, 1434#1000000);
(7380#1, 1461622#1000000, 1419#1000000);
(745379#100, 1461512#1000000, 1405#1000000);
(752833#100, 1461405#1000000, 139#100000);
(76036#10, 14613#10000, 1376#1000000);
(767963#100, 1461197#1000000, 1362#1000000);
(775642#100, 1461096#1000000, 1349#1000000);
(783398#100, 1460997#1000000, 1335#1000000);
(791231#100, 14609#10000, 1322#1000000);
(799142#100, 1460806#1000000, 1308#1000000);
(807133#100, 1460713#1000000, 1295#1000000);
(815204#100, 1460622#1000000, 1282#1000000);
(823355#100, 1460533#1000000, 1269#1000000);
(831588#100, 1460445#1000000, 1256#1000000);
(839903#100, 146036#100000, 1243#1000000);
(848301#100, 1460276#1000000, 1231#1000000);
(856783#100, 1460194#1000000, 1218#1000000)].
Definition oxide_data_15 : list chemical_row := [
(86535#10, 1460113#1000000, 1206#1000000);
(874003#100, 1460034#1000000, 1194#1000000);
(882742#100, 1459957#1000000, 1182#1000000);
(891569#100, 1459881#1000000, 117#100000);
(900483#100, 1459807#1000000, 1158#1000000);
(909487#100, 1459734#1000000, 1147#1000000);
(918581#100, 1459663#1000000, 1135#1000000);
(927766#100, 1459593#1000000, 1124#1000000);
(937043#100, 1459525#1000000, 1112#1000000);
(946413#100, 1459458#1000000, 1101#1000000);
(955876#100, 1459392#1000000, 109#100000);
(965434#100, 1459328#1000000, 1079#1000000);
(975087#100, 1459265#1000000, 1068#1000000);
(984837#100, 1459203#1000000, 1058#1000000);
(994684#100, 1459143#1000000, 1047#1000000);
(100463#10, 1459083#1000000, 1036#1000000);
(101468#10, 1459025#1000000, 1026#1000000);
(102482#10, 1458968#1000000, 1016#1000000);
(103507#10, 1458912#1000000, 1006#1000000);
(104542#10, 1458858#1000000, 996#1000000);
(105587#10, 1458804#1000000, 986#1000000);
(106643#10, 1458752#1000000, 976#1000000);
(107709#10, 14587#10000, 966#1000000);
(108786#10, 145865#100000, 956#1000000);
(109874#10, 14586#10000, 947#1000000);
(110973#10, 1458552#1000000, 937#1000000);
(112082#10, 1458504#1000000, 928#1000000);
(113203#10, 1458458#1000000, 919#1000000);
(114335#10, 1458412#1000000, 909#1000000);
(115478#10, 1458368#1000000, 9#10000);
(116633#10, 1458324#1000000, 891#1000000);
(117799#10, 1458281#1000000, 882#1000000);
(118977#10, 1458239#1000000, 874#1000000);
(120167#10, 1458198#1000000, 865#1000000);
(121368#10, 1458157#1000000, 856#1000000);
(122582#10, 1458118#1000000, 848#1000000);
(123807#10, 1458079#1000000, 839#1000000);
(125045#10, 1458041#1000000, 831#1000000);
(126296#10, 1458004#1000000, 822#1000000);
(127558#10, 1457967#1000000, 814#1000000);
(128834#10, 1457931#1000000, 806#1000000);
(130122#10, 1457896#1000000, 798#1000000);
(131423#10, 1457862#1000000, 79#100000);
(132737#10, 1457828#1000000, 782#1000000);
(134065#10, 1457795#1000000, 774#1000000);
(135405#10, 1457763#1000000, 767#1000000);
(136759#10, 1457731#1000000, 759#1000000);
(138127#10, 14577#10000, 751#1000000);
(139508#10, 1457669#1000000, 744#1000000);
(140903#10, 145764#100000, 737#1000000);
(142311#10, 145761#100000, 729#1000000);
(143734#10, 1457582#1000000, 722#1000000);
(145172#10, 1457553#1000000, 715#1000000);
(146623#10, 1457526#1000000, 708#1000000);
(148089#10, 1457499#1000000, 701#1000000);
(14957#1, 1457472#1000000, 694#1000000);
(151066#10, 1457447#1000000, 687#1000000)].
Definition oxide_data : list chemical_row :=
  oxide_data_0 ++ oxide_data_1 ++ oxide_data_2 ++ oxide_data_3 ++ oxide_data_4 ++ oxide_data_5 ++ oxide_data_6 ++ oxide_data_7 ++ oxide_data_8 ++ oxide_data_9 ++ oxide_data_10 ++ oxide_data_11 ++ oxide_data_12 ++ oxide_data_13 ++ oxide_data_14 ++ oxide_data_15.
Definition palik_data_0 : list chemical_row := [
(6199#1000, 999905#1000000, 319#10000000);
(635143#100000, 999913#1000000, 346#10000000);
(650814#100000, 999922#1000000, 376#10000000);
(666559#100000, 999932#1000000, 408#10000000);
(683085#100000, 999911#1000000, 393#100000000);
(699661#100000, 999885#1000000, 432#100000000);
(716647#100000, 999874#1000000, 474#100000000);
(734479#100000, 999863#1000000, 52#10000000);
(752306#100000, 999854#1000000, 57#10000000);
(770541#100000, 999844#1000000, 624#100000000);
(789682#100000, 999834#1000000, 685#100000000);
(808741#100000, 999824#1000000, 749#100000000);
(828743#100000, 999814#1000000, 822#100000000);
(849178#100000, 999803#1000000, 899#100000000);
(869425#100000, 999792#1000000, 981#100000000);
(890661#100000, 999781#1000000, 107#10000000);
(91296#10000, 999769#1000000, 117#10000000);
(934993#100000, 999756#1000000, 128#10000000);
(958114#100000, 999743#1000000, 14#1000000);
(981631#100000, 999729#1000000, 153#10000000);
(100552#10000, 999715#1000000, 167#10000000);
(102973#10000, 9997#10000, 183#10000000);
(105515#10000, 999684#1000000, 2#100000);
(108091#10000, 999667#1000000, 218#10000000);
(110795#10000, 999649#1000000, 239#10000000);
(113431#10000, 999631#1000000, 26#1000000);
(116195#10000, 999612#1000000, 284#10000000);
(119097#10000, 999591#1000000, 31#1000000);
(122028#10000, 99957#100000, 339#10000000);
(12498#1000, 999548#1000000, 37#1000000);
(128079#10000, 999524#1000000, 404#10000000);
(131196#10000, 9995#10000, 441#10000000);
(134323#10000, 999474#1000000, 48#1000000);
(137603#10000, 999447#1000000, 524#10000000);
(141047#10000, 999418#1000000, 573#10000000);
(144499#10000, 999388#1000000, 625#10000000);
(147947#10000, 999358#1000000, 68#1000000);
(151565#10000, 999325#1000000, 742#10000000);
(155363#10000, 999289#1000000, 811#10000000);
(159153#10000, 999253#1000000, 884#10000000);
(163132#10000, 999214#1000000, 966#10000000);
(167089#10000, 999174#1000000, 105#1000000);
(171007#10000, 999134#1000000, 114#1000000);
(175361#10000, 999088#1000000, 125#1000000);
(179681#10000, 999041#1000000, 136#1000000);
(183947#10000, 99899#100000, 148#1000000);
(188419#10000, 99894#100000, 161#1000000);
(193115#10000, 99889#100000, 176#1000000);
(197735#10000, 99883#100000, 191#1000000);
(202582#10000, 99878#100000, 208#1000000);
(207672#10000, 99871#100000, 227#1000000);
(212659#10000, 99865#100000, 247#1000000);
(217891#10000, 99858#100000, 269#1000000);
(223387#10000, 99851#100000, 294#1000000);
(228745#10000, 99843#100000, 319#1000000);
(234367#10000, 99836#100000, 347#1000000);
(240271#10000, 99827#100000, 379#1000000);
(245992#10000, 99819#100000, 411#1000000);
(251992#10000, 9981#10000, 447#1000000);
(258292#10000, 998#1000, 487#1000000);
(26435#1000, 99791#100000, 527#1000000);
(270699#10000, 99781#100000, 572#1000000);
(27736#1000, 9977#10000, 622#1000000);
(284358#10000, 99759#100000, 677#1000000);
(291033#10000, 99748#100000, 734#1000000);
(298747#10000, 99735#100000, 801#1000000);
(305369#10000, 99723#100000, 863#1000000);
(313081#10000, 9971#10000, 939#1000000);
(321192#10000, 99695#100000, 102#100000);
(328859#10000, 99682#100000, 111#100000);
(336902#10000, 99667#100000, 12#10000);
(345348#10000, 99651#100000, 131#100000);
(353219#10000, 99636#100000, 141#100000);
(362515#10000, 99619#100000, 153#100000);
(371198#10000, 99602#100000, 166#100000);
(380307#10000, 99585#100000, 18#10000);
(389874#10000, 99566#100000, 195#100000);
(39865#1000, 99549#100000, 21#10000);
(409175#10000, 99528#100000, 229#100000);
(418851#10000, 99509#100000, 247#100000);
(428997#10000, 99489#100000, 267#100000);
(439645#10000, 99468#100000, 288#100000);
(450836#10000, 99446#100000, 313#100000);
(460892#10000, 99427#100000, 336#100000);
(473206#10000, 99403#100000, 365#100000);
(484297#10000, 99382#100000, 393#100000);
(49592#1000, 99361#100000, 423#100000);
(508115#10000, 99339#100000, 457#100000);
(520924#10000, 99318#100000, 494#100000);
(534397#10000, 99296#100000, 534#100000);
(546167#10000, 99277#100000, 57#10000);
(560995#10000, 99254#100000, 619#100000);
(573981#10000, 99236#100000, 663#100000);
(587583#10000, 99219#100000, 712#100000);
(601845#10000, 99206#100000, 763#100000);
(616816#10000, 99192#100000, 818#100000);
(632551#10000, 99179#100000, 879#100000);
(64911#1000, 99169#100000, 946#100000);
(662995#10000, 99167#100000, 1#100);
(681209#10000, 99164#100000, 107#10000)].
Definition palik_data_1 : list chemical_row := [
(696517#10000, 99164#100000, 114#10000);
(712529#10000, 99167#100000, 121#10000);
(729294#10000, 99176#100000, 128#10000);
(746867#10000, 99235#100000, 145#10000);
(765309#10000, 99235#100000, 145#10000);
(784684#10000, 99287#100000, 152#10000);
(805065#10000, 9934#10000, 157#10000);
(826533#10000, 99384#100000, 162#10000);
(843401#10000, 99415#100000, 166#10000);
(866993#10000, 9946#10000, 172#10000);
(885571#10000, 99496#100000, 177#10000);
(911618#10000, 99549#100000, 183#10000);
(93218#1000, 99594#100000, 188#10000);
(953692#10000, 99645#100000, 194#10000);
(97622#1000, 99705#100000, 2#100);
(999839#10000, 99773#100000, 206#10000);
(102463#1000, 99856#100000, 212#10000);
(105068#1000, 99958#100000, 219#10000);
(107809#1000, 10008#10000, 226#10000);
(110696#1000, 10024#10000, 233#10000);
(112709#1000, 10039#10000, 239#10000);
(115869#1000, 1007#1000, 247#10000);
(119212#1000, 10132#10000, 256#10000);
(121549#1000, 10241#10000, 262#10000);
(122028#1000, 1025#1000, 24#1000);
(122996#1000, 103#100, 5#1000);
(12398#100, 1032#1000, 154#100000);
(124992#1000, 1034#1000, 1#1000);
(125996#1000, 1034#1000, 102#100000);
(127999#1000, 1034#1000, 109#100000);
(129999#1000, 103#100, 113#100000);
(131992#1000, 1022#1000, 12#10000);
(135988#1000, 1008#1000, 13#10000);
(139995#1000, 1#1, 143#100000);
(149988#1000, 993#1000, 178#100000);
(159995#1000, 991#1000, 215#100000);
(169999#1000, 988#1000, 254#100000);
(179994#1000, 985#1000, 297#100000);
(189979#1000, 982#1000, 343#100000);
(200#1, 978#1000, 393#100000);
(209993#1000, 976#1000, 443#100000);
(219979#1000, 972#1000, 5#1000);
(229976#1000, 968#1000, 553#100000);
(239992#1000, 964#1000, 61#10000);
(25001#100, 96#100, 67#10000);
(259971#1000, 956#1000, 73#10000);
(269991#1000, 952#1000, 785#100000);
(279991#1000, 947#1000, 84#10000);
(290012#1000, 942#1000, 9#1000);
(299976#1000, 937#1000, 95#10000);
(30995#100, 93#100, 1#100);
(319948#1000, 925#1000, 104#10000);
(329997#1000, 918#1000, 1#100);
(339951#1000, 913#1000, 113#10000);
(350028#1000, 906#1000, 117#10000);
(359988#1000, 899#1000, 121#10000);
(369979#1000, 893#1000, 124#10000);
(379957#1000, 885#1000, 128#10000);
(389997#1000, 877#1000, 132#10000);
(399935#1000, 869#1000, 135#10000);
(409987#1000, 86#100, 138#10000);
(419986#1000, 853#1000, 142#10000);
(430038#1000, 843#1000, 147#10000);
(439957#1000, 834#1000, 152#10000);
(450018#1000, 824#1000, 158#10000);
(460037#1000, 814#1000, 168#10000);
(469977#1000, 803#1000, 178#10000);
(479985#1000, 792#1000, 192#10000);
(49004#100, 778#1000, 205#10000);
(499919#1000, 766#1000, 223#10000);
(509996#1000, 752#1000, 243#10000);
(52005#100, 737#1000, 264#10000);
(530056#1000, 722#1000, 292#10000);
(539983#1000, 706#1000, 325#10000);
(550044#1000, 691#1000, 365#10000);
(559982#1000, 675#1000, 405#10000);
(570023#1000, 659#1000, 455#10000);
(579888#1000, 644#1000, 51#1000);
(5901#10, 627#1000, 58#1000);
(600097#1000, 61#100, 65#1000);
(609838#1000, 59#100, 74#1000);
(6199#10, 567#1000, 835#10000);
(6199#10, 569#1000, 122#1000);
(62998#100, 549#1000, 93#1000);
(635795#1000, 542#1000, 14#100);
(640062#1000, 53#100, 1#10);
(650131#1000, 513#1000, 113#1000);
(652526#1000, 514#1000, 163#1000);
(670162#1000, 485#1000, 189#1000);
(688778#1000, 455#1000, 219#1000);
(698479#1000, 44#100, 237#1000);
(708457#1000, 426#1000, 255#1000);
(718725#1000, 411#1000, 275#1000);
(729294#1000, 397#1000, 296#1000);
(737976#1000, 386#1000, 314#1000);
(742395#1000, 379#1000, 323#1000);
(746867#1000, 374#1000, 333#1000);
(751394#1000, 369#1000, 342#1000);
(762954#1000, 357#1000, 367#1000);
(774875#1000, 345#1000, 394#1000)].
Definition palik_data_2 : list chemical_row := [
(787175#1000, 333#1000, 421#1000);
(799871#1000, 323#1000, 45#100);
(812984#1000, 313#1000, 479#1000);
(826533#1000, 304#1000, 51#100);
(840542#1000, 296#1000, 541#1000);
(855034#1000, 288#1000, 573#1000);
(870035#1000, 281#1000, 607#1000);
(885571#1000, 275#1000, 641#1000);
(901673#1000, 269#1000, 677#1000);
(91837#100, 265#1000, 714#1000);
(935698#1000, 261#1000, 752#1000);
(953692#1000, 258#1000, 792#1000);
(972392#1000, 256#1000, 833#1000);
(99184#100, 255#1000, 875#1000);
(101208#100, 256#1000, 918#1000);
(103317#100, 257#1000, 963#1000);
(105515#100, 259#1000, 101#100);
(107809#100, 263#1000, 106#100);
(110204#100, 267#1000, 111#100);
(112709#100, 272#1000, 116#100);
(11533#10, 278#1000, 121#100);
(118076#100, 286#1000, 126#100);
(120956#100, 295#1000, 132#100);
(12398#10, 306#1000, 138#100);
(127159#100, 318#1000, 145#100);
(130505#100, 332#1000, 151#100);
(134032#100, 348#1000, 158#100);
(137756#100, 367#1000, 166#100);
(141691#100, 389#1000, 173#100);
(145859#100, 414#1000, 182#100);
(150279#100, 444#1000, 19#10);
(154975#100, 478#1000, 2#1);
(159974#100, 517#1000, 21#10);
(165307#100, 563#1000, 221#100);
(171007#100, 618#1000, 232#100);
(177114#100, 682#1000, 245#100);
(183674#100, 756#1000, 258#100);
(190738#100, 847#1000, 273#100);
(198368#100, 968#1000, 289#100);
(206633#100, 101#100, 2909#1000);
(207324#100, 1036#1000, 2928#1000);
(20802#10, 1046#1000, 2944#1000);
(208721#100, 1066#1000, 2937#1000);
(209426#100, 107#100, 2963#1000);
(210136#100, 1083#1000, 2982#1000);
(21085#10, 1088#1000, 2987#1000);
(21157#10, 1102#1000, 3005#1000);
(212295#100, 1109#1000, 3015#1000);
(213024#100, 1119#1000, 3025#1000);
(213759#100, 1133#1000, 3045#1000);
(214498#100, 1139#1000, 3061#1000);
(215243#100, 1155#1000, 3073#1000);
(215993#100, 1164#1000, 3086#1000);
(216748#100, 1175#1000, 3102#1000);
(217509#100, 118#100, 3112#1000);
(218275#100, 1195#1000, 3135#1000);
(219046#100, 1211#1000, 315#100);
(219823#100, 1222#1000, 3169#1000);
(220605#100, 1235#1000, 319#100);
(221393#100, 1247#1000, 3206#1000);
(222186#100, 1265#1000, 3228#1000);
(222986#100, 128#100, 3245#1000);
(223791#100, 1299#1000, 3267#1000);
(224601#100, 1319#1000, 3285#1000);
(225418#100, 134#100, 3302#1000);
(226241#100, 1362#1000, 3319#1000);
(22707#10, 1389#1000, 3334#1000);
(227904#100, 1416#1000, 335#100);
(228745#100, 1445#1000, 3359#1000);
(229593#100, 1471#1000, 3366#1000);
(230446#100, 1502#1000, 3368#1000);
(231306#100, 1526#1000, 3368#1000);
(232172#100, 1548#1000, 3364#1000);
(233045#100, 1566#1000, 3358#1000);
(233925#100, 1579#1000, 3353#1000);
(234811#100, 1585#1000, 3346#1000);
(235703#100, 159#100, 3344#1000);
(236603#100, 1591#1000, 3344#1000);
(23751#10, 1592#1000, 3347#1000);
(238423#100, 1589#1000, 3354#1000);
(239344#100, 1586#1000, 3363#1000);
(240271#100, 1582#1000, 3376#1000);
(241206#100, 1579#1000, 3389#1000);
(242148#100, 1573#1000, 3408#1000);
(243098#100, 1571#1000, 3429#1000);
(244055#100, 157#100, 3451#1000);
(24502#10, 1569#1000, 3477#1000);
(245992#100, 1568#1000, 3504#1000);
(246972#100, 1569#1000, 3533#1000);
(24796#10, 157#100, 3565#1000);
(248956#100, 1575#1000, 3598#1000);
(24996#10, 158#100, 3632#1000);
(250972#100, 1584#1000, 367#100);
(251992#100, 1591#1000, 3709#1000);
(25302#10, 1597#1000, 3749#1000);
(254057#100, 1608#1000, 3789#1000);
(255103#100, 1618#1000, 3835#1000);
(256157#100, 1629#1000, 388#100);
(25722#10, 1643#1000, 3928#1000);
(258292#100, 1658#1000, 3979#1000)].
Definition palik_data_3 : list chemical_row := [
(259372#100, 1673#1000, 4031#1000);
(260462#100, 1692#1000, 4088#1000);
(261561#100, 1713#1000, 4149#1000);
(26267#10, 1737#1000, 4211#1000);
(263787#100, 1764#1000, 4278#1000);
(264915#100, 1794#1000, 435#100);
(266052#100, 1831#1000, 4426#1000);
(267198#100, 1874#1000, 4506#1000);
(268355#100, 1927#1000, 459#100);
(269522#100, 1988#1000, 4678#1000);
(270699#100, 2059#1000, 4764#1000);
(271886#100, 214#100, 4849#1000);
(273084#100, 2234#1000, 4933#1000);
(274292#100, 2339#1000, 5011#1000);
(275511#100, 2451#1000, 5082#1000);
(276741#100, 2572#1000, 5148#1000);
(277982#100, 27#10, 5206#1000);
(279234#100, 2833#1000, 5257#1000);
(280498#100, 2974#1000, 5304#1000);
(281773#100, 312#100, 5344#1000);
(283059#100, 3277#1000, 5381#1000);
(284358#100, 3444#1000, 5414#1000);
(285668#100, 3634#1000, 5435#1000);
(286991#100, 3849#1000, 5439#1000);
(288326#100, 4086#1000, 5395#1000);
(289673#100, 4318#1000, 5301#1000);
(291033#100, 4525#1000, 5158#1000);
(292406#100, 4686#1000, 4989#1000);
(293791#100, 4805#1000, 4812#1000);
(29519#10, 4888#1000, 4639#1000);
(296603#100, 4941#1000, 448#100);
(298029#100, 4977#1000, 4335#1000);
(299469#100, 4999#1000, 4204#1000);
(300922#100, 5012#1000, 4086#1000);
(30239#10, 502#100, 3979#1000);
(303873#100, 5021#1000, 3885#1000);
(305369#100, 502#100, 3798#1000);
(306881#100, 5018#1000, 372#100);
(308408#100, 5015#1000, 365#100);
(30995#10, 501#100, 3587#1000);
(311508#100, 5009#1000, 3529#1000);
(313081#100, 501#100, 3477#1000);
(31467#10, 5009#1000, 3429#1000);
(316276#100, 5012#1000, 3386#1000);
(317897#100, 5016#1000, 3346#1000);
(319536#100, 5021#1000, 331#100);
(321192#100, 5029#1000, 3275#1000);
(322865#100, 504#100, 3242#1000);
(324555#100, 5052#1000, 3211#1000);
(326263#100, 5065#1000, 3182#1000);
(327989#100, 5079#1000, 3154#1000);
(329734#100, 5095#1000, 3128#1000);
(331497#100, 5115#1000, 3103#1000);
(33328#10, 5134#1000, 3079#1000);
(335081#100, 5156#1000, 3058#1000);
(336902#100, 5179#1000, 3039#1000);
(338743#100, 5204#1000, 3021#1000);
(340604#100, 5231#1000, 3007#1000);
(342486#100, 5261#1000, 2995#1000);
(344389#100, 5296#1000, 2987#1000);
(346313#100, 5336#1000, 2983#1000);
(348258#100, 5383#1000, 2984#1000);
(350226#100, 5442#1000, 2989#1000);
(352216#100, 5515#1000, 2999#1000);
(354229#100, 561#100, 3014#1000);
(356264#100, 5733#1000, 3026#1000);
(358324#100, 5894#1000, 3023#1000);
(360407#100, 6089#1000, 2982#1000);
(362515#100, 6308#1000, 2881#1000);
(364647#100, 6522#1000, 2705#1000);
(366805#100, 6695#1000, 2456#1000);
(368988#100, 6796#1000, 2169#1000);
(371198#100, 6829#1000, 187#100);
(373434#100, 6799#1000, 1577#1000);
(375697#100, 6709#1000, 1321#1000);
(377988#100, 6585#1000, 111#100);
(380307#100, 6452#1000, 945#1000);
(382654#100, 6316#1000, 815#1000);
(385031#100, 6185#1000, 714#1000);
(387438#100, 6062#1000, 63#100);
(389874#100, 5948#1000, 561#1000);
(392342#100, 5842#1000, 505#1000);
(394841#100, 5744#1000, 456#1000);
(397372#100, 5654#1000, 416#1000);
(399935#100, 557#100, 387#1000);
(402532#100, 5493#1000, 355#1000);
(405163#100, 542#100, 329#1000);
(407829#100, 5349#1000, 313#1000);
(41053#10, 5284#1000, 291#1000);
(413267#100, 5222#1000, 269#1000);
(41604#10, 5164#1000, 255#1000);
(418851#100, 5109#1000, 244#1000);
(421701#100, 5058#1000, 228#1000);
(424589#100, 5009#1000, 211#1000);
(427517#100, 4961#1000, 203#1000);
(430486#100, 4916#1000, 194#1000);
(433497#100, 4872#1000, 185#1000);
(436549#100, 4831#1000, 185#1000);
(439645#100, 4791#1000, 17#100);
(442786#100, 4753#1000, 163#1000)].
Definition palik_data_4 : list chemical_row := [
(445971#100, 4718#1000, 149#1000);
(449203#100, 4682#1000, 149#1000);
(452482#100, 4648#1000, 133#1000);
(455809#100, 4615#1000, 131#1000);
(459185#100, 4583#1000, 13#100);
(462612#100, 4553#1000, 131#1000);
(46609#10, 4522#1000, 134#1000);
(469621#100, 4495#1000, 12#100);
(473206#100, 4466#1000, 12#100);
(476846#100, 4442#1000, 9#100);
(480543#100, 4416#1000, 94#1000);
(484297#100, 4391#1000, 83#1000);
(48811#10, 4367#1000, 79#1000);
(491984#100, 4343#1000, 77#1000);
(49592#10, 432#100, 73#1000);
(499919#100, 4298#1000, 73#1000);
(503984#100, 4277#1000, 66#1000);
(508115#100, 4255#1000, 72#1000);
(512314#100, 4235#1000, 6#100);
(516583#100, 4215#1000, 6#100);
(520924#100, 4196#1000, 56#1000);
(525339#100, 4177#1000, 53#1000);
(529829#100, 4159#1000, 43#1000);
(534397#100, 414#100, 45#1000);
(539044#100, 4123#1000, 48#1000);
(543772#100, 4106#1000, 44#1000);
(548584#100, 4089#1000, 44#1000);
(553482#100, 4073#1000, 32#1000);
(558468#100, 4057#1000, 38#1000);
(563545#100, 4042#1000, 32#1000);
(568716#100, 4026#1000, 34#1000);
(573981#100, 4012#1000, 3#100);
(579346#100, 3997#1000, 27#1000);
(584811#100, 3983#1000, 3#100);
(590381#100, 3969#1000, 3#100);
(596058#100, 3956#1000, 27#1000);
(601845#100, 3943#1000, 25#1000);
(607745#100, 3931#1000, 25#1000);
(613762#100, 3918#1000, 24#1000);
(6199#1, 3906#1000, 22#1000);
(626162#100, 3893#1000, 22#1000);
(632551#100, 3882#1000, 19#1000);
(639072#100, 387#100, 18#1000);
(645729#100, 3858#1000, 17#1000);
(652526#100, 3847#1000, 16#1000);
(659468#100, 3837#1000, 16#1000);
(666559#100, 3826#1000, 15#1000);
(673804#100, 3815#1000, 14#1000);
(681209#100, 3805#1000, 13#1000);
(688778#100, 3796#1000, 13#1000);
(696517#100, 3787#1000, 13#1000);
(704432#100, 3778#1000, 12#1000);
(712529#100, 3768#1000, 11#1000);
(720814#100, 3761#1000, 11#1000);
(729294#100, 3752#1000, 1#100);
(737976#100, 3745#1000, 1#100);
(746867#100, 3736#1000, 9#1000);
(755976#100, 3728#1000, 9#1000);
(765309#100, 3721#1000, 8#1000);
(774875#100, 3714#1000, 8#1000);
(784684#100, 3705#1000, 7#1000);
(794744#100, 3697#1000, 7#1000);
(805065#100, 3688#1000, 6#1000);
(815658#100, 3681#1000, 6#1000);
(826533#100, 3673#1000, 5#1000);
(111996#10, 35361#10000, 0#1);
(114373#10, 35295#10000, 0#1);
(120019#10, 35193#10000, 0#1);
(137192#10, 35007#10000, 0#1);
(139995#10, 34876#10000, 0#1);
(153194#10, 34784#10000, 0#1);
(159995#10, 3471#1000, 0#1);
(169603#10, 34644#10000, 0#1);
(179994#10, 34578#10000, 0#1);
(20000#1, 3449#1000, 0#1);
(243719#10, 34434#10000, 0#1);
(25001#1, 34424#10000, 0#1);
(27141#1, 34393#10000, 25#10000000000);
(299976#10, 34361#10000, 0#1);
(330349#10, 34335#10000, 0#1);
(341919#10, 34327#10000, 0#1);
(350028#10, 34321#10000, 0#1);
(399935#10, 34294#10000, 0#1);
(499919#10, 34261#10000, 199#1000000000);
(600097#10, 34242#10000, 0#1);
(700056#10, 34231#10000, 0#1);
(799871#10, 34224#10000, 153#10000000);
(89971#1, 34219#10000, 0#1);
(999839#10, 34215#10000, 676#10000000);
(134996#1, 34209#10000, 0#1);
(145006#1, 34208#10000, 0#1);
(150006#1, 34207#10000, 0#1);
(200000#1, 34204#10000, 286#1000000);
(250010#1, 34201#10000, 915#10000000);
(302981#1, 342#100, 0#1);
(499919#1, 34197#10000, 0#1);
(624899#1, 34195#10000, 17#100000);
(714170#1, 34192#10000, 19#100000);
(833199#1, 3419#1000, 23#100000);
(908944#1, 34188#10000, 0#1)].
Definition palik_data_5 : list chemical_row := [
(999839#1, 34185#10000, 29#100000);
(1249920#1, 3418#1000, 43#100000);
(1668640#1, 3417#1000, 72#100000);
(2000000#1, 34165#10000, 1#1000);
(2500100#1, 3416#1000, 14#10000);
(3332800#1, 34155#10000, 0#1)].
Definition palik_data : list chemical_row :=
  palik_data_0 ++ palik_data_1 ++ palik_data_2 ++ palik_data_3 ++ palik_data_4 ++ palik_data_5.
Definition arsenide_data_0 : list chemical_row := [
(12398#10000, 999993#1000000, 133#1000000000);
(126873#100000, 999993#1000000, 145#1000000000);
(132869#100000, 999992#1000000, 173#1000000000);
(139163#100000, 999991#1000000, 207#1000000000);
(145739#100000, 999991#1000000, 247#1000000000);
(152628#100000, 99999#100000, 294#1000000000);
(15985#10000, 999988#1000000, 35#100000000);
(167405#100000, 999987#1000000, 418#1000000000);
(175311#100000, 999986#1000000, 497#1000000000);
(18362#10000, 999985#1000000, 592#1000000000);
(192306#100000, 999983#1000000, 705#1000000000);
(201397#100000, 999982#1000000, 84#100000000);
(210922#100000, 99998#100000, 999#1000000000);
(22088#10000, 999978#1000000, 119#100000000);
(231349#100000, 999975#1000000, 141#100000000);
(24229#10000, 999973#1000000, 168#100000000);
(253745#100000, 99997#100000, 2#1000000);
(265766#100000, 999967#1000000, 238#100000000);
(278294#100000, 999964#1000000, 283#100000000);
(291443#100000, 999961#1000000, 336#100000000);
(305219#100000, 999957#1000000, 399#100000000);
(319701#100000, 999953#1000000, 474#100000000);
(33481#10000, 999948#1000000, 563#100000000);
(350622#100000, 999943#1000000, 667#100000000);
(367239#100000, 999937#1000000, 792#100000000);
(384553#100000, 999931#1000000, 939#100000000);
(402794#100000, 999925#1000000, 111#10000000);
(421844#100000, 999918#1000000, 132#10000000);
(441682#100000, 99991#100000, 156#10000000);
(462612#100000, 999901#1000000, 184#10000000);
(484486#100000, 999893#1000000, 218#10000000);
(507491#100000, 999883#1000000, 258#10000000);
(531419#100000, 999872#1000000, 304#10000000);
(556463#100000, 999861#1000000, 359#10000000);
(582887#100000, 99985#100000, 422#10000000);
(610438#100000, 999838#1000000, 497#10000000);
(639402#100000, 999825#1000000, 583#10000000);
(669438#100000, 999813#1000000, 685#10000000);
(701244#100000, 999802#1000000, 803#10000000);
(734479#100000, 999792#1000000, 94#1000000);
(751394#100000, 999789#1000000, 102#1000000);
(769107#100000, 999788#1000000, 11#100000);
(787175#100000, 999796#1000000, 119#1000000);
(805588#100000, 999794#1000000, 103#1000000);
(824335#100000, 999782#1000000, 98#1000000);
(843401#100000, 999771#1000000, 106#1000000);
(863371#100000, 999766#1000000, 114#1000000);
(883678#100000, 999765#1000000, 122#1000000);
(904303#100000, 999772#1000000, 132#1000000);
(925224#100000, 999811#1000000, 142#1000000);
(947135#100000, 999801#1000000, 276#10000000);
(968594#100000, 999749#1000000, 299#10000000);
(99184#10000, 999716#1000000, 323#10000000);
(101457#10000, 999688#1000000, 35#1000000);
(106238#10000, 999639#1000000, 41#1000000);
(111293#10000, 99959#100000, 48#1000000);
(116523#10000, 999539#1000000, 562#10000000);
(122028#10000, 999486#1000000, 658#10000000);
(127854#10000, 999429#1000000, 77#1000000);
(133902#10000, 999367#1000000, 901#10000000);
(140233#10000, 999299#1000000, 105#1000000);
(146861#10000, 999226#1000000, 123#1000000);
(153821#10000, 999147#1000000, 144#1000000);
(161076#10000, 99906#100000, 168#1000000);
(168703#10000, 99897#100000, 195#1000000);
(176685#10000, 99886#100000, 227#1000000);
(185045#10000, 99875#100000, 263#1000000);
(193779#10000, 99863#100000, 308#1000000);
(202946#10000, 9985#10000, 358#1000000);
(212549#10000, 99836#100000, 416#1000000);
(222585#10000, 9982#10000, 483#1000000);
(233133#10000, 99803#100000, 559#1000000);
(244151#10000, 99785#100000, 647#1000000);
(255682#10000, 99766#100000, 747#1000000);
(267775#10000, 99745#100000, 863#1000000);
(280434#10000, 99722#100000, 995#1000000);
(293722#10000, 99699#100000, 114#100000);
(307643#10000, 99673#100000, 132#100000);
(322193#10000, 99646#100000, 151#100000);
(337361#10000, 99617#100000, 171#100000);
(35332#1000, 99585#100000, 196#100000);
(37009#1000, 99552#100000, 223#100000);
(387559#10000, 99516#100000, 255#100000);
(405827#10000, 99479#100000, 292#100000);
(425026#10000, 99441#100000, 334#100000);
(445171#10000, 99404#100000, 381#100000);
(466266#10000, 99368#100000, 433#100000);
(488302#10000, 9933#10000, 487#100000);
(511258#10000, 99289#100000, 548#100000);
(535551#10000, 9925#10000, 616#100000);
(560742#10000, 9921#10000, 695#100000);
(587305#10000, 99182#100000, 783#100000);
(615285#10000, 99156#100000, 865#100000);
(644387#10000, 99126#100000, 958#100000);
(674905#10000, 99106#100000, 106#10000);
(706439#10000, 99101#100000, 117#10000);
(740179#10000, 99093#100000, 126#10000);
(774875#10000, 99087#100000, 137#10000);
(811919#10000, 99086#100000, 148#10000);
(830409#10000, 99092#100000, 154#10000)].
Definition arsenide_data_1 : list chemical_row := [
(850343#10000, 99102#100000, 16#1000);
(870035#10000, 99112#100000, 165#10000);
(890022#10000, 99119#100000, 171#10000);
(910948#10000, 99128#100000, 176#10000);
(93218#1000, 99139#100000, 182#10000);
(954426#10000, 99153#100000, 188#10000);
(97622#1000, 99176#100000, 194#10000);
(999033#10000, 99212#100000, 2#100);
(102294#1000, 99248#100000, 204#10000);
(104624#1000, 99273#100000, 207#10000);
(107064#1000, 99294#100000, 21#1000);
(10962#100, 99312#100000, 214#10000);
(112199#1000, 9933#10000, 217#10000);
(114796#1000, 99349#100000, 22#1000);
(117517#1000, 99368#100000, 224#10000);
(120252#1000, 99389#100000, 227#10000);
(122996#1000, 99411#100000, 23#1000);
(125906#1000, 99435#100000, 233#10000);
(128851#1000, 99461#100000, 236#10000);
(131852#1000, 99484#100000, 238#10000);
(134937#1000, 99506#100000, 24#1000);
(138093#1000, 99532#100000, 242#10000);
(14132#100, 99567#100000, 244#10000);
(144617#1000, 99627#100000, 244#10000);
(148#1, 99664#100000, 241#10000);
(151472#1000, 99686#100000, 238#10000);
(154994#1000, 99704#100000, 235#10000);
(158623#1000, 99726#100000, 232#10000);
(162341#1000, 99762#100000, 229#10000);
(166126#1000, 99847#100000, 226#10000);
(170022#1000, 100073#100000, 223#10000);
(173983#1000, 99803#100000, 143#10000);
(178055#1000, 99493#100000, 143#10000);
(182216#1000, 99292#100000, 142#10000);
(186464#1000, 99125#100000, 141#10000);
(190827#1000, 9896#10000, 139#10000);
(195275#1000, 98799#100000, 137#10000);
(199839#1000, 98635#100000, 135#10000);
(20452#100, 98469#100000, 132#10000);
(209284#1000, 98292#100000, 13#1000);
(214202#1000, 98103#100000, 127#10000);
(219201#1000, 97903#100000, 125#10000);
(224317#1000, 97692#100000, 123#10000);
(22955#100, 9747#10000, 121#10000);
(234944#1000, 97236#100000, 12#1000);
(240411#1000, 96977#100000, 118#10000);
(221393#100, 136#100, 275#100);
(225418#100, 136#100, 289#100);
(229593#100, 136#100, 312#100);
(233925#100, 153#100, 34#10);
(238423#100, 177#100, 365#100);
(243098#100, 216#100, 386#100);
(24796#10, 248#100, 395#100);
(25302#10, 292#100, 404#100);
(258292#100, 348#100, 402#100);
(263787#100, 396#100, 37#10);
(269522#100, 422#100, 309#100);
(275511#100, 418#100, 263#100);
(281773#100, 404#100, 252#100);
(288326#100, 401#100, 252#100);
(29519#10, 411#100, 263#100);
(30239#10, 447#100, 268#100);
(30995#10, 492#100, 249#100);
(317897#100, 535#100, 215#100);
(326263#100, 539#100, 13#10);
(335081#100, 499#100, 752#1000);
(344389#100, 472#100, 519#1000);
(354229#100, 448#100, 334#1000);
(364647#100, 43#10, 233#1000);
(375697#100, 413#100, 139#1000);
(387438#100, 393#100, 115#1000);
(393587#100, 0#1, 119#1000);
(397372#100, 0#1, 115#1000);
(399935#100, 0#1, 113#1000);
(403187#100, 0#1, 11#100);
(406492#100, 0#1, 106#1000);
(409851#100, 0#1, 998#10000);
(413267#100, 0#1, 638#10000);
(41674#10, 0#1, 315#10000);
(420271#100, 0#1, 189#10000);
(423863#100, 0#1, 118#10000);
(427517#100, 0#1, 105#10000);
(431235#100, 0#1, 103#10000);
(435018#100, 0#1, 993#100000);
(442786#100, 3703#1000, 161#100000);
(459185#100, 357#100, 156#100000);
(476846#100, 3472#1000, 153#100000);
(49592#10, 3394#1000, 125#100000);
(516583#100, 3329#1000, 682#1000000);
(539044#100, 3273#1000, 275#1000000);
(563545#100, 3225#1000, 404#10000000);
(590381#100, 3183#1000, 23#10000000);
(6199#1, 3145#1000, 0#1);
(652526#100, 3112#1000, 0#1);
(688778#100, 3082#1000, 0#1);
(729294#100, 3056#1000, 0#1);
(774875#100, 3032#1000, 0#1);
(826533#100, 301#100, 0#1);
(885571#100, 299#100, 0#1);
(953692#100, 2973#1000, 0#1)].
Definition arsenide_data_2 : list chemical_row := [
(103317#10, 2957#1000, 0#1);
(112709#10, 2943#1000, 0#1);
(12398#1, 293#100, 0#1);
(137756#10, 2919#1000, 0#1);
(154975#10, 2909#1000, 0#1);
(177114#10, 2901#1000, 0#1);
(206633#10, 2894#1000, 0#1);
(24796#1, 2888#1000, 0#1);
(499919#10, 285#100, 0#1);
(666559#10, 284#100, 0#1);
(999839#10, 281#100, 0#1);
(111093#1, 28#10, 0#1);
(124992#1, 278#100, 0#1);
(142851#1, 274#100, 2#1000);
(166662#1, 267#100, 43#10000);
(200000#1, 247#100, 14#1000);
(222226#1, 218#100, 4#100);
(232564#1, 19#10, 77#1000);
(238103#1, 167#100, 12#100);
(240972#1, 15#10, 16#100);
(243911#1, 127#100, 23#100);
(246923#1, 95#100, 38#100);
(250010#1, 6#10, 78#100);
(253175#1, 46#100, 133#100);
(256422#1, 45#100, 187#100);
(259753#1, 51#100, 244#100);
(263171#1, 63#100, 312#100);
(266681#1, 9#10, 4#1);
(270286#1, 157#100, 525#100);
(273989#1, 378#100, 69#10);
(276371#1, 687#100, 625#100);
(277795#1, 784#100, 457#100);
(281709#1, 699#100, 159#100);
(285734#1, 595#100, 75#100);
(294140#1, 49#10, 29#100);
(302981#1, 44#10, 15#100);
(312450#1, 411#100, 95#1000);
(322529#1, 391#100, 65#1000);
(333280#1, 378#100, 47#1000);
(399936#1, 344#100, 15#1000);
(499919#1, 331#100, 73#10000)].
Definition arsenide_data : list chemical_row :=
  arsenide_data_0 ++ arsenide_data_1 ++ arsenide_data_2.
