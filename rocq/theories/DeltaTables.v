(** The Rabin fingerprint tables of src/libgit2/delta.c, copied verbatim
    (T: lines 16-60, U: lines 62-106). *)
From Verif Require Import Base.
Definition T_tab : list Z :=
  [0; 2874782929; 1454598562; 4260027763; 104818581; 2909197124; 1351355959; 4225088230;
   209637162; 2804382715; 1523426952; 4053013081; 172075199; 2702711918; 1559413021; 4155209164;
   419274324; 3013880453; 1313798134; 3843506983; 516094401; 3046853904; 1215402083; 3811058866;
   344150398; 3218793903; 1110456540; 3916008461; 314324715; 3118826042; 1141858121; 4015451032;
   838548648; 2594343033; 1732793610; 3423723995; 935615293; 2627596268; 1635201695; 3392046670;
   1032188802; 2531018579; 1798740512; 3228511985; 1002083351; 2430804166; 1829371317; 3327150436;
   688300796; 2187269677; 2142620510; 3572268943; 792315241; 2220913080; 2039131339; 3537049626;
   628649430; 2384582919; 1942684788; 3633492133; 591858243; 2283716242; 1978950625; 3735934768;
   1677097296; 3366964609; 893718770; 2652677155; 1707679429; 3465587220; 863663975; 2552480694;
   1871230586; 3302032043; 960225240; 2455923465; 1773654511; 3270403390; 1057273933; 2489126044;
   2064377604; 3495056341; 767069862; 2262907511; 2100592785; 3597481024; 730327347; 2162056674;
   2004166702; 3693911295; 566641036; 2325738845; 1900695483; 3658742634; 670639641; 2359333576;
   1376601592; 4183093545; 79572058; 2951190667; 1412571757; 4285241020; 42027983; 2849570590;
   1584630482; 4113186307; 146858864; 2744735649; 1481436487; 4078262678; 251626725; 2779131956;
   1257298860; 3785977725; 474198542; 3071936223; 1288682553; 3885369576; 444388763; 2972016970;
   1183716486; 3990331479; 272465188; 3143944693; 1085371155; 3957901250; 369236657; 3176902240;
   1823819377; 3354194592; 973483987; 2438961922; 1787437540; 3251868981; 1010387014; 2539715735;
   1623951707; 3415358858; 913891577; 2636207144; 1727327950; 3450690079; 809994092; 2602447805;
   1950930981; 3742461172; 586920327; 2309096790; 1920450480; 3643673441; 616879634; 2409456323;
   2016810767; 3547309022; 780500653; 2245839484; 2114547866; 3578840139; 683284792; 2212736489;
   1565424345; 4128755208; 201134971; 2695145386; 1534139724; 4029196701; 230847726; 2795225151;
   1362146803; 4201185570; 126082129; 2899994752; 1460654694; 4233520823; 29146052; 2867138325;
   1169417357; 4008333404; 318803247; 3092855294; 1133282072; 3906287561; 356510394; 3194379883;
   1238182823; 3801390966; 528368133; 3022517972; 1341279282; 3836475619; 423699856; 2987954497;
   256065313; 2753203184; 1508923011; 4071219794; 159144116; 2720394341; 1607414038; 4103505351;
   54390795; 2825143514; 1435408809; 4275514744; 84055966; 2925208399; 1404173884; 4175973101;
   398369141; 3169260964; 1091422423; 3931405318; 293717728; 3134747185; 1194504002; 3966442387;
   465595999; 2962872974; 1299384317; 3861558060; 503253450; 3064380699; 1263296616; 3759527097;
   1052246921; 2514597720; 1745578539; 3276988154; 948397084; 2480853197; 1848905150; 3312302447;
   851889315; 2577365106; 1685431553; 3475771856; 888777526; 2678071271; 1649066644; 3373495877;
   642096605; 2367432972; 1895232639; 3685695662; 544930376; 2334346905; 1992922090; 3717211963;
   708530935; 2170742310; 2089302869; 3620835204; 738473314; 2271052211; 2058837184; 3522095121].
Definition U_tab : list Z :=
  [0; 2125799437; 1446245579; 679924934; 121527623; 2039184714; 1359849868; 800622977;
   243055246; 1892260483; 1481592389; 653946440; 155379657; 2012727236; 1601245954; 566506255;
   486110492; 1649169681; 1254785495; 880779738; 466036827; 1701972054; 1307892880; 859962525;
   310759314; 1815146399; 1152793433; 973282132; 364614357; 1796125400; 1133012510; 1027425811;
   972220984; 1195887157; 1874927347; 292830974; 1053603711; 1081710450; 1761559476; 373973945;
   932073654; 1228632251; 1639818365; 520651888; 816844273; 1308962300; 1719925050; 406247735;
   621518628; 1539227433; 1933077487; 227363810; 573948515; 1551950446; 1946564264; 179508901;
   729228714; 1438778791; 2101662049; 66187628; 743012589; 1392269536; 2054851622; 80718891;
   1944441968; 223409277; 634790075; 1533214902; 1960544567; 175024442; 585661948; 1549622769;
   2107207422; 53235443; 732600885; 1428142648; 2057778105; 68293556; 747947890; 1377953663;
   1864147308; 296321377; 959403431; 1201305002; 1747123243; 379051046; 1041303776; 1084500205;
   1633688546; 534068207; 928247593; 1239863076; 1717454501; 418080424; 812495470; 1322816099;
   1243037256; 883039813; 472173187; 1653729934; 1294557967; 865878786; 454727620; 1706014665;
   1147897030; 987669707; 307785741; 1827491840; 1129699713; 1038154124; 359017802; 1808993607;
   1458457428; 677079897; 14532511; 2120785810; 1372591635; 795162142; 132375256; 2035729109;
   1486025178; 640143831; 245433617; 1880368412; 1605151901; 555322512; 161437782; 1999272027;
   1284643889; 841432124; 446818554; 1679083767; 1269580150; 890855803; 497006013; 1663735216;
   1122936511; 1012631218; 350048884; 1785229945; 1171323896; 996531189; 333647667; 1834364734;
   1349216557; 786319648; 106470886; 2028846571; 1465201770; 702551143; 23511201; 2144592044;
   1578619811; 547550126; 136587112; 1989216101; 1495895780; 664579817; 253393455; 1907317282;
   1969288713; 198563332; 592642754; 1575363279; 1918806862; 216763203; 611147653; 1524137864;
   2065452167; 94989450; 758102092; 1402640449; 2082607552; 43463117; 705815819; 1420084486;
   1771668245; 388801304; 1068136414; 1092573139; 1856495186; 269680223; 949234329; 1176570516;
   1743075739; 424679830; 836160848; 1331948893; 1624990940; 510543057; 921210903; 1214099482;
   1064814657; 1103292492; 1766079626; 401677447; 944346374; 1190966539; 1853514189; 282018240;
   822833871; 1337873090; 1731757572; 428713481; 909455240; 1216352133; 1611062083; 515111758;
   596557149; 1564187984; 1975339414; 185100699; 615571482; 1510326295; 1921193169; 204879068;
   770836435; 1397172190; 2076308248; 91542293; 718035604; 1417247385; 2097131103; 38440530;
   109388409; 2016412276; 1354159794; 772011711; 29065022; 2131648307; 1468566517; 691907576;
   150575351; 1984739578; 1590324284; 545213489; 264750512; 1903355325; 1509175675; 658575734;
   444356453; 1690924904; 1280287662; 855278499; 490867234; 1677142575; 1265762025; 902094564;
   335605227; 1790299622; 1110645024; 1015429421; 322875564; 1837863073; 1158497383; 1001940074].
