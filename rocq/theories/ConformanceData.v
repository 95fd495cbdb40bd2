(** Samples of testdata/modis_test_data.h5 and arrays of the tests, written by tools/gen_conformance.py. The samples: lon, lat (and satellite zenith angle)
    in units of 2^-30 degree, exactly as stored (float32). *)
From Coq Require Import ZArith List.
Import ListNotations.
Open Scope Z_scope.

(** columns of the 1 km arrays (20 rows): column, then lon, lat and satz of each row *)
Definition tie_1km : list (Z * list (Z * Z * Z)) := [
  (0, [((-164501913600), (-35100741632), 70448201728); ((-164508712960), (-35119636480), 70448201728); ((-164515528704), (-35138527232), 70448201728); ((-164522360832), (-35157413888), 70448201728); ((-164529209344), (-35176292352), 70448201728); ((-164536074240), (-35195170816), 70448201728); ((-164542971904), (-35214045184), 70448201728); ((-164549869568), (-35232915456), 70448201728); ((-164556800000), (-35251777536), 70448201728); ((-164563746816), (-35270639616), 70448201728); ((-164543037440), (-35190501376), 70448201728); ((-164549853184), (-35209396224), 70448201728); ((-164556685312), (-35228286976), 70448201728); ((-164563550208), (-35247169536), 70448201728); ((-164570415104), (-35266052096), 70448201728); ((-164577312768), (-35284926464), 70448201728); ((-164584226816), (-35303800832), 70448201728); ((-164591140864), (-35322667008), 70448201728); ((-164598087680), (-35341529088), 70448201728); ((-164605050880), (-35360391168), 70448201728)]);
  (1, [((-164448124928), (-35114901504), 70308618240); ((-164454891520), (-35133739008), 70308618240); ((-164461674496), (-35152572416), 70308618240); ((-164468473856), (-35171405824), 70308618240); ((-164475305984), (-35190231040), 70308618240); ((-164482138112), (-35209052160), 70308618240); ((-164489003008), (-35227869184), 70308618240); ((-164495867904), (-35246682112), 70308618240); ((-164502765568), (-35265490944), 70308618240); ((-164509679616), (-35284295680), 70308618240); ((-164489199616), (-35204694016), 70308618240); ((-164495982592), (-35223531520), 70308618240); ((-164502781952), (-35242364928), 70308618240); ((-164509614080), (-35261194240), 70308618240); ((-164516446208), (-35280019456), 70308618240); ((-164523311104), (-35298840576), 70308618240); ((-164530192384), (-35317657600), 70308618240); ((-164537090048), (-35336466432), 70308618240); ((-164544004096), (-35355275264), 70308618240); ((-164550934528), (-35374080000), 70319349760)]);
  (2, [((-164394762240), (-35128926208), 70179766272); ((-164401496064), (-35147710464), 70179766272); ((-164408246272), (-35166490624), 70179766272); ((-164415012864), (-35185266688), 70179766272); ((-164421795840), (-35204034560), 70179766272); ((-164428611584), (-35222802432), 70179766272); ((-164435443712), (-35241562112), 70179766272); ((-164442275840), (-35260321792), 70179766272); ((-164449140736), (-35279073280), 70179766272); ((-164456022016), (-35297824768), 70179766272); ((-164435771392), (-35218755584), 70179766272); ((-164442521600), (-35237535744), 70179766272); ((-164449288192), (-35256315904), 70179766272); ((-164456087552), (-35275087872), 70179766272); ((-164462903296), (-35293855744), 70179766272); ((-164469719040), (-35312623616), 70179766272); ((-164476567552), (-35331383296), 70179766272); ((-164483432448), (-35350138880), 70179766272); ((-164490313728), (-35368890368), 70179766272); ((-164497227776), (-35387637760), 70179766272)]);
  (400, [((-154578567168), (-37283504128), 27015344128); ((-154581221376), (-37294018560), 27015344128); ((-154583875584), (-37304528896), 27015344128); ((-154586546176), (-37315043328), 27015344128); ((-154589200384), (-37325553664), 27015344128); ((-154591870976), (-37336068096), 27015344128); ((-154594541568), (-37346578432), 27015344128); ((-154597195776), (-37357092864), 27015344128); ((-154599866368), (-37367603200), 27015344128); ((-154602553344), (-37378117632), 27026081792); ((-154609664000), (-37377466368), 27026081792); ((-154612334592), (-37387976704), 27015344128); ((-154615005184), (-37398491136), 27015344128); ((-154617675776), (-37409001472), 27015344128); ((-154620346368), (-37419515904), 27015344128); ((-154623016960), (-37430026240), 27015344128); ((-154625687552), (-37440540672), 27015344128); ((-154628358144), (-37451051008), 27026081792); ((-154631045120), (-37461565440), 27026081792); ((-154633715712), (-37472075776), 27026081792)]);
  (401, [((-154564509696), (-37285986304), 26918707200); ((-154567163904), (-37296492544), 26918707200); ((-154569818112), (-37306998784), 26918707200); ((-154572488704), (-37317505024), 26918707200); ((-154575142912), (-37328011264), 26918707200); ((-154577813504), (-37338517504), 26918707200); ((-154580467712), (-37349019648), 26918707200); ((-154583138304), (-37359525888), 26918707200); ((-154585808896), (-37370032128), 26918707200); ((-154588463104), (-37380538368), 26918707200); ((-154595606528), (-37379948544), 26918707200); ((-154598277120), (-37390454784), 26918707200); ((-154600931328), (-37400961024), 26918707200); ((-154603601920), (-37411467264), 26918707200); ((-154606272512), (-37421973504), 26918707200); ((-154608943104), (-37432479744), 26918707200); ((-154611613696), (-37442985984), 26918707200); ((-154614284288), (-37453488128), 26918707200); ((-154616954880), (-37463994368), 26918707200); ((-154619625472), (-37474500608), 26929444864)]);
  (676, [((-151132962816), (-37840048128), 300647712); ((-151135027200), (-37849731072), 204010944); ((-151137091584), (-37859409920), 118111600); ((-151139155968), (-37869088768), 64424508); ((-151141220352), (-37878771712), 118111600); ((-151143284736), (-37888450560), 204010944); ((-151145349120), (-37898129408), 300647712); ((-151147413504), (-37907812352), 397284480); ((-151149477888), (-37917491200), 493921248); ((-151151542272), (-37927174144), 590558016); ((-151160160256), (-37934825472), 300647712); ((-151162224640), (-37944504320), 204010944); ((-151164305408), (-37954183168), 118111600); ((-151166369792), (-37963866112), 64424508); ((-151168434176), (-37973544960), 118111600); ((-151170514944), (-37983223808), 204010944); ((-151172579328), (-37992906752), 300647712); ((-151174643712), (-38002585600), 397284480); ((-151176724480), (-38012268544), 493921248); ((-151178788864), (-38021947392), 590558016)]);
  (677, [((-151121166336), (-37841772544), 289910304); ((-151123230720), (-37851451392), 193273536); ((-151125295104), (-37861134336), 107374184); ((-151127359488), (-37870813184), 32212254); ((-151129423872), (-37880496128), 107374184); ((-151131488256), (-37890174976), 193273536); ((-151133552640), (-37899853824), 289910304); ((-151135617024), (-37909536768), 386547072); ((-151137681408), (-37919215616), 483183808); ((-151139745792), (-37928898560), 579820608); ((-151148363776), (-37936549888), 289910304); ((-151150428160), (-37946228736), 193273536); ((-151152492544), (-37955911680), 107374184); ((-151154556928), (-37965590528), 32212254); ((-151156621312), (-37975273472), 96636768); ((-151158702080), (-37984952320), 193273536); ((-151160766464), (-37994631168), 289910304); ((-151162830848), (-38004314112), 386547072); ((-151164911616), (-38013992960), 483183808); ((-151166976000), (-38023675904), 579820608)]);
  (1351, [((-137253691392), (-39042064384), 70126075904); ((-137254584320), (-39061647360), 70126075904); ((-137255452672), (-39081230336), 70126075904); ((-137256312832), (-39100817408), 70126075904); ((-137257148416), (-39120400384), 70126075904); ((-137257967616), (-39139987456), 70126075904); ((-137258778624), (-39159574528), 70126075904); ((-137259565056), (-39179161600), 70126075904); ((-137260335104), (-39198752768), 70136815616); ((-137261096960), (-39218343936), 70136815616); ((-137265725440), (-39136747520), 70126075904); ((-137266610176), (-39156330496), 70126075904); ((-137267478528), (-39175913472), 70126075904); ((-137268330496), (-39195496448), 70126075904); ((-137269166080), (-39215079424), 70126075904); ((-137269985280), (-39234666496), 70126075904); ((-137270779904), (-39254253568), 70126075904); ((-137271566336), (-39273840640), 70126075904); ((-137272336384), (-39293427712), 70126075904); ((-137273090048), (-39313018880), 70126075904)]);
  (1352, [((-137195487232), (-39043776512), 70265667584); ((-137196363776), (-39063420928), 70265667584); ((-137197223936), (-39083065344), 70265667584); ((-137198067712), (-39102709760), 70265667584); ((-137198895104), (-39122354176), 70265667584); ((-137199706112), (-39142002688), 70265667584); ((-137200500736), (-39161651200), 70265667584); ((-137201270784), (-39181299712), 70265667584); ((-137202032640), (-39200952320), 70265667584); ((-137202778112), (-39220600832), 70265667584); ((-137207455744), (-39138447360), 70254927872); ((-137208332288), (-39158087680), 70254927872); ((-137209184256), (-39177732096), 70265667584); ((-137210028032), (-39197376512), 70265667584); ((-137210847232), (-39217025024), 70265667584); ((-137211658240), (-39236669440), 70265667584); ((-137212444672), (-39256317952), 70265667584); ((-137213214720), (-39275966464), 70265667584); ((-137213976576), (-39295614976), 70265667584); ((-137214713856), (-39315267584), 70265667584)]);
  (1353, [((-137136816128), (-39045472256), 70394511360); ((-137137684480), (-39065178112), 70394511360); ((-137138528256), (-39084883968), 70394511360); ((-137139363840), (-39104589824), 70394511360); ((-137140174848), (-39124299776), 70394511360); ((-137140977664), (-39144005632), 70394511360); ((-137141755904), (-39163715584), 70394511360); ((-137142517760), (-39183429632), 70405251072); ((-137143263232), (-39203139584), 70405251072); ((-137144000512), (-39222853632), 70405251072); ((-137148727296), (-39140130816), 70394511360); ((-137149587456), (-39159836672), 70394511360); ((-137150431232), (-39179542528), 70394511360); ((-137151258624), (-39199248384), 70394511360); ((-137152069632), (-39218954240), 70394511360); ((-137152864256), (-39238664192), 70394511360); ((-137153642496), (-39258374144), 70394511360); ((-137154404352), (-39278084096), 70394511360); ((-137155149824), (-39297794048), 70394511360); ((-137155870720), (-39317508096), 70394511360)])].
(** 500m: row, column, lon, lat *)
Definition fine_500m : list (Z * Z * (Z * Z)) := [
  (0, 0, ((-164500209664), (-35096018944))); (0, 1, ((-164473257984), (-35103121408))); (0, 800, ((-154577895424), (-37280874496))); (0, 801, ((-154570866688), (-37282115584))); (0, 1352, ((-151132438528), (-37837627392))); (0, 1353, ((-151126540288), (-37838491648))); (0, 2702, ((-137253462016), (-39037169664))); (0, 2703, ((-137224429568), (-39038017536))); (0, 2707, ((-137107144704), (-39041392640)));
  (20, 0, ((-164541333504), (-35185774592))); (20, 1, ((-164514365440), (-35192897536))); (20, 800, ((-154608992256), (-37374836736))); (20, 801, ((-154601963520), (-37376081920))); (20, 1352, ((-151159652352), (-37932408832))); (20, 1353, ((-151153737728), (-37933268992))); (20, 2702, ((-137265504256), (-39131852800))); (20, 2703, ((-137236414464), (-39132696576))); (20, 2707, ((-137118973952), (-39136043008)));
  (39, 0, ((-164606787584), (-35365105664))); (39, 1, ((-164579672064), (-35371958272))); (39, 800, ((-154634371072), (-37474701312))); (39, 801, ((-154627325952), (-37475917824))); (39, 1352, ((-151179313152), (-38024368128))); (39, 1353, ((-151173398528), (-38025232384))); (39, 2702, ((-137273278464), (-39317917696))); (39, 2703, ((-137244155904), (-39319044096))); (39, 2707, ((-137126502400), (-39323570176)))].
(** 250m: row, column, lon, lat *)
Definition fine_250m : list (Z * Z * (Z * Z)) := [
  (0, 0, ((-164499357696), (-35093655552))); (0, 3, ((-164458987520), (-35104305152))); (0, 1600, ((-154577567744), (-37279559680))); (0, 1603, ((-154567032832), (-37281423360))); (0, 2704, ((-151132176384), (-37836419072))); (0, 2707, ((-151123329024), (-37837713408))); (0, 5404, ((-137253347328), (-39034724352))); (0, 5407, ((-137209757696), (-39035990016))); (0, 5415, ((-137092284416), (-39039344640)));
  (39, 0, ((-164566351872), (-35277713408))); (39, 3, ((-164525752320), (-35287949312))); (39, 1600, ((-154603552768), (-37382062080))); (39, 1603, ((-154592985088), (-37383876608))); (39, 2704, ((-151152312320), (-37930803200))); (39, 2707, ((-151143464960), (-37932093440))); (39, 5404, ((-137261375488), (-39225692160))); (39, 5407, ((-137217671168), (-39227400192))); (39, 5415, ((-137099886592), (-39231967232)))].
(** every fifth column and row from the third one: 4 rows *)
Definition tie_5km : list (Z * list (Z * Z * Z)) := [
  (0, [((-164408246272), (-35166490624), 70179766272); ((-164442275840), (-35260321792), 70179766272); ((-164449288192), (-35256315904), 70179766272); ((-164483432448), (-35350138880), 70179766272)]);
  (1, [((-164146970624), (-35234168832), 69503311872); ((-164180262912), (-35326644224), 69514043392); ((-164187750400), (-35324145664), 69514043392); ((-164221140992), (-35416616960), 69514043392)]);
  (2, [((-163895066624), (-35298852864), 68848328704); ((-163927638016), (-35390029824), 68848328704); ((-163935567872), (-35388977152), 68859060224); ((-163968253952), (-35480150016), 68859060224)]);
  (134, [((-151184261120), (-37852499968), 461708992); ((-151194615808), (-37900898304), 590558016); ((-151211524096), (-37947269120), 461708992); ((-151221895168), (-37995667456), 601295424)]);
  (135, [((-151125295104), (-37861134336), 107374184); ((-151135617024), (-37909536768), 386547072); ((-151152492544), (-37955911680), 107374184); ((-151162830848), (-38004314112), 386547072)]);
  (136, [((-151066312704), (-37869740032), 526133504); ((-151076601856), (-37918146560), 644245120); ((-151093444608), (-37964525568), 526133504); ((-151103766528), (-38012936192), 644245120)]);
  (268, [((-137759801344), (-39064240128), 68934221824); ((-137764421632), (-39159537664), 68944961536); ((-137772335104), (-39159009280), 68934221824); ((-137776939008), (-39254306816), 68934221824)]);
  (269, [((-137483878400), (-39073783808), 69599944704); ((-137488236544), (-39170519040), 69599944704); ((-137496133632), (-39168507904), 69589204992); ((-137500459008), (-39265239040), 69599944704)]);
  (270, [((-137197223936), (-39083065344), 70265667584); ((-137201270784), (-39181299712), 70265667584); ((-137209184256), (-39177732096), 70265667584); ((-137213214720), (-39275966464), 70265667584)])].
(** 1 km: row, column, lon, lat *)
Definition fine_1km : list (Z * Z * (Z * Z)) := [
  (0, 0, ((-164501913600), (-35100741632))); (0, 4, ((-164289200128), (-35156594688))); (0, 674, ((-151156539392), (-37836599296))); (0, 1345, ((-137593602048), (-39031541760))); (0, 1353, ((-137136816128), (-39045472256)));
  (19, 0, ((-164605050880), (-35360391168))); (19, 4, ((-164391010304), (-35414380544))); (19, 674, ((-151202430976), (-38018490368))); (19, 1345, ((-137613967360), (-39299354624))); (19, 1353, ((-137155870720), (-39317508096)))].
(** Arrays of geotiepoints/tests in units of 10^-8 *)
Definition cubic_rows : list (list Z) := [[0; 59166667; 90972222; 100000000; 90833333; 68055556; 36250000; 0; (-36111111); (-67500000); (-89583333); (-97777778); (-87500000); (-54166667); 6805556; 100000000];
  [129188830; 136660572; 137255612; 132180851; 122643190; 109849528; 95006768; 79321808; 64001551; 50252897; 39282746; 32297999; 30505557; 35112320; 47325188; 68351064];
  [(-38776804); 124340379; 237526033; 307734929; 341921836; 347041522; 330048758; 297898313; 257544955; 215943455; 180048581; 156815104; 153197791; 176151412; 232630738; 329590536];
  [216215093; 199486162; 176118108; 147960993; 116864878; 84679825; 53255896; 24443152; 91654; (-17948536); (-27827356); (-27694745); (-15700642); 10005016; 51272290; 109951241];
  [483316365; 407817864; 351839986; 312889438; 288472927; 276097160; 273268844; 277494687; 286281395; 297135677; 307564238; 315073786; 317171029; 311362673; 295155425; 266055994]].
Definition ties_exp1 : list (list Z) := [[638490578040055; 638108108333225; 637151934066148; 632895000792935; 625361069157758; 614594619489936; 612441329556372];
  [637759195940176; 637099700000000; 635450960149560; 630515162592155; 622323499818839; 610927714889072; 608648557903118];
  [635930740690478; 634578679166939; 631198525358090; 624565567090206; 614729576471541; 601760453386910; 599166628769983];
  [635199358590599; 633570270833714; 629497551441502; 622185728889426; 611692007132621; 598093548786045; 595373857116730];
  [633803226190294; 632034849909060; 627613909205974; 619967056624433; 609155190273768; 595259038414781; 592479808042984];
  [629066559462950; 627038516249031; 621968408214232; 613710075832981; 602331327944140; 587919472399075; 585037101290062];
  [617224892644589; 614547682098957; 607854655734877; 598067623854351; 585271672120069; 569570557359808; 566430334407756];
  [612488225917245; 609551348438928; 602209154743135; 591810643062900; 578447809790441; 562230991344102; 558987627654834]].
Definition ties_exp4 : list (list Z) := [[638108108333225; 638163966045187; 637247010269454; 635359021586788; 632504205851245];
  [637099700000000; 636614621816553; 635160598629588; 632741261244969; 629362650067273];
  [634578679166939; 632741261244969; 629944569529922; 626196860390423; 621508760607344];
  [633570270833714; 631191917016336; 627858157890056; 623579100048604; 618367204823372]].
Definition ties_exp6 : list (list Z) := [[638108108333225; 637151934066148; 632895000792935; 625361069157758; 614594619489936];
  [637099700000000; 635450960149560; 630515162592155; 622323499818839; 610927714889072];
  [634578679166939; 631198525358090; 624565567090206; 614729576471541; 601760453386910];
  [633570270833714; 629497551441502; 622185728889426; 611692007132621; 598093548786045];
  [632034849909060; 627613909205974; 619967056624433; 609155190273768; 595259038414781];
  [627038516249031; 621968408214232; 613710075832981; 602331327944140; 587919472399075];
  [614547682098957; 607854655734877; 598067623854351; 585271672120069; 569570557359808];
  [609551348438928; 602209154743135; 591810643062900; 578447809790441; 562230991344102]].
Definition vii_lon_1 : list (list Z) := [[(-1200000000); (-1150000000); (-1100000000); (-1050000000); (-1000000000); (-950000000)];
  [(-1000000000); (-950000000); (-900000000); (-850000000); (-800000000); (-750000000)];
  [(-800000000); (-750000000); (-700000000); (-650000000); (-600000000); (-550000000)];
  [(-600000000); (-550000000); (-500000000); (-450000000); (-400000000); (-350000000)];
  [0; 50000000; 100000000; 150000000; 200000000; 250000000];
  [200000000; 250000000; 300000000; 350000000; 400000000; 450000000];
  [400000000; 450000000; 500000000; 550000000; 600000000; 650000000];
  [600000000; 650000000; 700000000; 750000000; 800000000; 850000000]].
Definition vii_lat_1 : list (list Z) := [[0; 50000000; 100000000; 150000000; 200000000; 250000000];
  [200000000; 250000000; 300000000; 350000000; 400000000; 450000000];
  [400000000; 450000000; 500000000; 550000000; 600000000; 650000000];
  [600000000; 650000000; 700000000; 750000000; 800000000; 850000000];
  [1200000000; 1250000000; 1300000000; 1350000000; 1400000000; 1450000000];
  [1400000000; 1450000000; 1500000000; 1550000000; 1600000000; 1650000000];
  [1600000000; 1650000000; 1700000000; 1750000000; 1800000000; 1850000000];
  [1800000000; 1850000000; 1900000000; 1950000000; 2000000000; 2050000000]].
Definition vii_lon_2 : list (list Z) := [[(-1200000000); (-1150003808); (-1100000000); (-1050011426); (-1000000000); (-950019052)];
  [(-1000243991); (-950324110); (-900366173); (-850454031); (-800488578); (-750584230)];
  [(-800000000); (-750034342); (-700000000); (-650042016); (-600000000); (-550049716)];
  [(-600734362); (-550845783); (-500857895); (-450977302); (-400981958); (-351109426)];
  [0; 49903263; 100000000; 149895241; 200000000; 249887151];
  [198257947; 248080192; 298127841; 347941324; 397996512; 447801105];
  [400000000; 449870746; 500000000; 549862418; 600000000; 649853998];
  [597729789; 647516183; 697594186; 747371256; 797456943; 847224525]].
Definition vii_lat_2 : list (list Z) := [[0; 49998096; 100000000; 149994287; 200000000; 249990475];
  [199878116; 249838091; 299817081; 349773189; 399755935; 449708148];
  [400000000; 449982830; 500000000; 549978993; 600000000; 649975143];
  [599633155; 649577490; 699571447; 749511791; 799509473; 849445789];
  [1200000000; 1249951634; 1300000000; 1349947623; 1400000000; 1449943578];
  [1399129786; 1449040980; 1499064796; 1548971613; 1598999196; 1648901572];
  [1600000000; 1649935377; 1700000000; 1749931213; 1800000000; 1849927003];
  [1798865968; 1848759253; 1898798235; 1948686863; 1998729684; 2048613573]].
Definition vii_lon_3 : list (list Z) := [[(-1200000000); (-1150444038); (-1100000000); (-1050459822); (-1000000000); (-950476197)];
  [(-1007492627); (-958101155); (-907759836); (-858390560); (-808037610); (-758691614)];
  [(-800000000); (-750510905); (-700000000); (-650529340); (-600000000); (-550548573)];
  [(-608628210); (-559332416); (-508942935); (-459674283); (-409272043); (-360032066)];
  [0; 49315061; 100000000; 149287934; 200000000; 249259217];
  [188371709; 237397680; 287898193; 336879304; 387395153; 436327924];
  [400000000; 449196335; 500000000; 549161771; 600000000; 649124808];
  [586287282; 635111105; 685674573; 734436670; 785016382; 833710998]].
Definition vii_lat_3 : list (list Z) := [[4500000000; 4549777998; 4600000000; 4649770107; 4700000000; 4749761920];
  [4696258417; 4745954620; 4796125080; 4845810220; 4895986481; 4945660021];
  [4900000000; 4949744569; 5000000000; 5049735352; 5100000000; 5149725738];
  [5095691833; 5145340364; 5195534841; 5245169855; 5295370691; 5355477452];
  [5700000000; 5750277937; 5800000000; 5850267347; 5900000000; 5950256981];
  [5904185095; 5954357898; 6004020844; 6054185139; 6103859839; 6154015723];
  [6100000000; 6150236870; 6200000000; 6250227100; 6300000000; 6350217506];
  [6303546804; 6353686131; 6403394419; 6453525587; 6503244567; 6553367647]].
Definition ml_arr1 : list (list Z) := [[99819991; 46872418; 39356122; 33170364; 79171217; 31300346; 69075206; 47492703; 20128210; 57347047; 12934437; 73841430; 84650654; 63113452; 35514309; 36773267; 42887193; 83856559; 10815370; 33634562; 25445117; 30121727; 19697695; 92937056; 40359487; 10237384; 37803665; 94699248; 8045698; 1366914];
  [72748552; 70872219; 36883461; 52914895; 22308535; 44446870; 52394334; 52870835; 31756298; 13776131; 11812231; 46974149; 12318789; 76525517; 97328814; 65802730; 93059119; 32785305; 57033161; 80133526; 43111770; 44957946; 81073879; 79356296; 77565555; 90520185; 76064422; 78609587; 43915797; 50745485]].
Definition ml_res1 : list (list Z) := [[125149566; 86801702; 59233148; 66310018; 86093089; 59448266; 88145882; 72057176; 44395844; 62692691; 22956686; 89308545; 88232420; 101691582; 106050602; 78964244; 104244001; 93481853; 61242017; 90454307; 55704920; 59214105; 87052131; 124339837; 90319150; 93282679; 88212567; 125090173; 47821939; 51308049];
  [113891573; 79536539; 54753759; 61188808; 82629032; 55155224; 80257090; 64724795; 42423377; 60563713; 22485215; 82022895; 86317281; 92860053; 100514142; 73270743; 97564350; 88385772; 59570712; 85230456; 52319791; 55035212; 83992216; 112698577; 84054343; 91689093; 82346408; 113391799; 46731605; 51097110]].
