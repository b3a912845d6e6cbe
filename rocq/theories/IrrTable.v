(** GENERATED by gen/gen_irr.py from /repo/src/gf2e.c (lines 69-84): the arrays
    [_irreducible_polynomials_degree_NN] word for word (first entry: the count), and
    [irreducible_polynomials] (gf2e.c:86-93; index 0 is NULL, modelled as []). *)
From Coq Require Import NArith List.
Import ListNotations.
Local Open Scope N_scope.
(* gf2e.c:68, declared length 3 *)
Definition irreducible_polynomials_degree_01 : list N :=
 [2; 2; 3].
(* gf2e.c:69, declared length 2 *)
Definition irreducible_polynomials_degree_02 : list N :=
 [1; 7].
(* gf2e.c:70, declared length 3 *)
Definition irreducible_polynomials_degree_03 : list N :=
 [2; 11; 13].
(* gf2e.c:71, declared length 4 *)
Definition irreducible_polynomials_degree_04 : list N :=
 [3; 19; 25; 31].
(* gf2e.c:72, declared length 7 *)
Definition irreducible_polynomials_degree_05 : list N :=
 [6; 37; 41; 47; 55; 59; 61].
(* gf2e.c:73, declared length 10 *)
Definition irreducible_polynomials_degree_06 : list N :=
 [9; 67; 73; 87; 91; 97; 103; 109; 115; 117].
(* gf2e.c:74, declared length 19 *)
Definition irreducible_polynomials_degree_07 : list N :=
 [18; 131; 137; 143; 145; 157; 167; 171; 185; 191; 193; 203; 211; 213; 229; 239;
  241; 247; 253].
(* gf2e.c:75, declared length 31 *)
Definition irreducible_polynomials_degree_08 : list N :=
 [30; 283; 285; 299; 301; 313; 319; 333; 351; 355; 357; 361; 369; 375; 379; 391;
  395; 397; 415; 419; 425; 433; 445; 451; 463; 471; 477; 487; 499; 501; 505].
(* gf2e.c:76, declared length 57 *)
Definition irreducible_polynomials_degree_09 : list N :=
 [56; 515; 529; 535; 539; 545; 557; 563; 587; 601; 607; 613; 617; 623; 631; 637;
  647; 661; 665; 675; 677; 687; 695; 701; 719; 721; 731; 757; 761; 769; 787; 789;
  799; 803; 817; 827; 841; 847; 859; 865; 875; 877; 883; 895; 901; 911; 929; 949;
  953; 967; 971; 973; 981; 985; 995; 1001; 1019].
(* gf2e.c:77, declared length 100 *)
Definition irreducible_polynomials_degree_10 : list N :=
 [99; 1033; 1039; 1051; 1053; 1063; 1069; 1077; 1095; 1107; 1123; 1125; 1135; 1153; 1163; 1177;
  1193; 1199; 1221; 1225; 1239; 1255; 1261; 1267; 1279; 1291; 1293; 1305; 1311; 1315; 1329; 1341;
  1347; 1367; 1377; 1383; 1387; 1413; 1423; 1431; 1435; 1441; 1451; 1465; 1473; 1479; 1509; 1527;
  1531; 1555; 1557; 1571; 1573; 1585; 1591; 1603; 1615; 1617; 1627; 1657; 1663; 1669; 1673; 1703;
  1709; 1717; 1727; 1729; 1741; 1747; 1759; 1783; 1789; 1807; 1809; 1815; 1821; 1825; 1835; 1845;
  1849; 1863; 1869; 1877; 1881; 1891; 1915; 1917; 1921; 1927; 1933; 1939; 1961; 1969; 1989; 2011;
  2027; 2035; 2041; 2047].
(* gf2e.c:78, declared length 187 *)
Definition irreducible_polynomials_degree_11 : list N :=
 [186; 2053; 2071; 2091; 2093; 2119; 2147; 2149; 2161; 2171; 2189; 2197; 2207; 2217; 2225; 2243;
  2255; 2257; 2273; 2279; 2283; 2293; 2317; 2323; 2341; 2345; 2359; 2363; 2365; 2373; 2377; 2385;
  2395; 2419; 2421; 2431; 2435; 2447; 2475; 2477; 2489; 2503; 2521; 2533; 2543; 2551; 2561; 2567;
  2579; 2581; 2601; 2633; 2657; 2669; 2681; 2687; 2693; 2705; 2717; 2727; 2731; 2739; 2741; 2773;
  2783; 2787; 2793; 2799; 2801; 2811; 2819; 2825; 2833; 2867; 2879; 2881; 2891; 2905; 2911; 2917;
  2927; 2941; 2951; 2955; 2963; 2965; 2991; 2999; 3005; 3017; 3035; 3037; 3047; 3053; 3083; 3085;
  3097; 3103; 3121; 3159; 3169; 3179; 3187; 3189; 3205; 3209; 3223; 3227; 3229; 3251; 3263; 3271;
  3277; 3283; 3285; 3299; 3305; 3319; 3331; 3343; 3357; 3367; 3373; 3393; 3399; 3413; 3417; 3427;
  3439; 3441; 3475; 3487; 3497; 3515; 3517; 3529; 3543; 3547; 3553; 3559; 3573; 3583; 3589; 3613;
  3617; 3623; 3627; 3635; 3641; 3655; 3659; 3669; 3679; 3697; 3707; 3709; 3713; 3731; 3743; 3747;
  3771; 3785; 3791; 3805; 3827; 3833; 3851; 3865; 3889; 3895; 3933; 3947; 3949; 3957; 3961; 3971;
  3985; 3991; 3995; 4007; 4013; 4021; 4045; 4051; 4069; 4073; 4091].
(* gf2e.c:79, declared length 336 *)
Definition irreducible_polynomials_degree_12 : list N :=
 [335; 4105; 4119; 4129; 4147; 4149; 4159; 4173; 4179; 4201; 4215; 4219; 4221; 4225; 4235; 4249;
  4259; 4261; 4303; 4305; 4331; 4333; 4351; 4359; 4383; 4387; 4401; 4407; 4411; 4431; 4439; 4449;
  4459; 4461; 4473; 4483; 4485; 4497; 4523; 4531; 4569; 4575; 4579; 4591; 4593; 4609; 4621; 4627;
  4633; 4645; 4663; 4667; 4669; 4675; 4677; 4711; 4717; 4723; 4735; 4789; 4793; 4801; 4811; 4873;
  4879; 4891; 4893; 4897; 4915; 4921; 4927; 4941; 4965; 4977; 5017; 5023; 5027; 5033; 5039; 5051;
  5059; 5073; 5079; 5085; 5107; 5109; 5127; 5139; 5169; 5175; 5193; 5199; 5211; 5213; 5223; 5227;
  5237; 5247; 5257; 5281; 5287; 5293; 5301; 5325; 5331; 5337; 5343; 5349; 5391; 5405; 5451; 5453;
  5505; 5523; 5541; 5545; 5563; 5573; 5591; 5597; 5611; 5625; 5635; 5641; 5659; 5695; 5697; 5703;
  5707; 5717; 5721; 5731; 5733; 5743; 5779; 5797; 5821; 5827; 5833; 5841; 5857; 5863; 5875; 5887;
  5899; 5909; 5913; 5949; 5955; 5957; 5967; 5975; 5981; 6003; 6005; 6009; 6025; 6031; 6039; 6045;
  6061; 6067; 6079; 6081; 6111; 6139; 6151; 6157; 6175; 6179; 6193; 6199; 6217; 6231; 6237; 6253;
  6265; 6271; 6275; 6289; 6295; 6305; 6329; 6347; 6349; 6383; 6385; 6395; 6405; 6409; 6427; 6445;
  6453; 6465; 6475; 6495; 6501; 6511; 6523; 6529; 6539; 6553; 6577; 6583; 6589; 6601; 6607; 6621;
  6631; 6637; 6649; 6683; 6685; 6689; 6699; 6707; 6733; 6739; 6741; 6751; 6755; 6761; 6779; 6795;
  6833; 6853; 6865; 6881; 6887; 6891; 6901; 6923; 6925; 6931; 6937; 6943; 6959; 6981; 6999; 7049;
  7055; 7057; 7079; 7093; 7097; 7103; 7105; 7115; 7123; 7139; 7165; 7171; 7173; 7183; 7185; 7191;
  7207; 7245; 7263; 7303; 7327; 7333; 7351; 7355; 7365; 7369; 7375; 7383; 7403; 7405; 7411; 7425;
  7431; 7459; 7471; 7485; 7491; 7505; 7515; 7517; 7527; 7541; 7545; 7555; 7557; 7561; 7569; 7591;
  7603; 7617; 7663; 7687; 7701; 7705; 7727; 7739; 7741; 7749; 7761; 7773; 7777; 7783; 7795; 7823;
  7831; 7835; 7865; 7871; 7885; 7891; 7907; 7921; 7927; 7939; 7953; 7963; 7975; 7993; 8007; 8011;
  8019; 8037; 8049; 8061; 8065; 8077; 8089; 8111; 8123; 8125; 8131; 8133; 8137; 8161; 8173; 8191].
(* gf2e.c:80, declared length 631 *)
Definition irreducible_polynomials_degree_13 : list N :=
 [630; 8219; 8231; 8245; 8275; 8293; 8303; 8331; 8333; 8351; 8357; 8367; 8379; 8381; 8387; 8393;
  8417; 8435; 8461; 8469; 8489; 8495; 8507; 8515; 8551; 8555; 8569; 8585; 8599; 8605; 8639; 8641;
  8647; 8653; 8671; 8675; 8689; 8699; 8729; 8741; 8759; 8765; 8771; 8795; 8797; 8825; 8831; 8841;
  8855; 8859; 8883; 8895; 8909; 8943; 8951; 8955; 8965; 8999; 9003; 9031; 9045; 9049; 9071; 9073;
  9085; 9095; 9101; 9109; 9123; 9129; 9137; 9143; 9147; 9185; 9197; 9209; 9227; 9235; 9247; 9253;
  9257; 9277; 9297; 9303; 9313; 9325; 9343; 9347; 9371; 9373; 9397; 9407; 9409; 9415; 9419; 9443;
  9481; 9495; 9501; 9505; 9517; 9529; 9555; 9557; 9571; 9585; 9591; 9607; 9611; 9621; 9625; 9631;
  9647; 9661; 9669; 9679; 9687; 9707; 9731; 9733; 9745; 9773; 9791; 9803; 9811; 9817; 9833; 9847;
  9851; 9863; 9875; 9881; 9905; 9911; 9917; 9923; 9963; 9973; 10003; 10025; 10043; 10063; 10071; 10077;
  10091; 10099; 10105; 10115; 10129; 10145; 10169; 10183; 10187; 10207; 10223; 10225; 10247; 10265; 10271; 10275;
  10289; 10299; 10301; 10309; 10343; 10357; 10373; 10411; 10413; 10431; 10445; 10453; 10463; 10467; 10473; 10491;
  10505; 10511; 10513; 10523; 10539; 10549; 10559; 10561; 10571; 10581; 10615; 10621; 10625; 10643; 10655; 10671;
  10679; 10685; 10691; 10711; 10739; 10741; 10755; 10767; 10781; 10785; 10803; 10805; 10829; 10857; 10863; 10865;
  10875; 10877; 10917; 10921; 10929; 10949; 10967; 10971; 10987; 10995; 11009; 11029; 11043; 11045; 11055; 11063;
  11075; 11081; 11117; 11135; 11141; 11159; 11163; 11181; 11187; 11225; 11237; 11261; 11279; 11297; 11307; 11309;
  11327; 11329; 11341; 11377; 11403; 11405; 11413; 11427; 11439; 11453; 11461; 11473; 11479; 11489; 11495; 11499;
  11533; 11545; 11561; 11567; 11575; 11579; 11589; 11611; 11623; 11637; 11657; 11663; 11687; 11691; 11701; 11747;
  11761; 11773; 11783; 11795; 11797; 11817; 11849; 11855; 11867; 11869; 11873; 11883; 11919; 11921; 11927; 11933;
  11947; 11955; 11961; 11999; 12027; 12029; 12037; 12041; 12049; 12055; 12095; 12097; 12107; 12109; 12121; 12127;
  12133; 12137; 12181; 12197; 12207; 12209; 12239; 12253; 12263; 12269; 12277; 12287; 12295; 12309; 12313; 12335;
  12361; 12367; 12391; 12409; 12415; 12433; 12449; 12469; 12479; 12481; 12499; 12505; 12517; 12527; 12549; 12559;
  12597; 12615; 12621; 12639; 12643; 12657; 12667; 12707; 12713; 12727; 12741; 12745; 12763; 12769; 12779; 12781;
  12787; 12799; 12809; 12815; 12829; 12839; 12857; 12875; 12883; 12889; 12901; 12929; 12947; 12953; 12959; 12969;
  12983; 12987; 12995; 13015; 13019; 13031; 13063; 13077; 13103; 13137; 13149; 13173; 13207; 13211; 13227; 13241;
  13249; 13255; 13269; 13283; 13285; 13303; 13307; 13321; 13339; 13351; 13377; 13389; 13407; 13417; 13431; 13435;
  13447; 13459; 13465; 13477; 13501; 13513; 13531; 13543; 13561; 13581; 13599; 13605; 13617; 13623; 13637; 13647;
  13661; 13677; 13683; 13695; 13725; 13729; 13753; 13773; 13781; 13785; 13795; 13801; 13807; 13825; 13835; 13855;
  13861; 13871; 13883; 13897; 13905; 13915; 13939; 13941; 13969; 13979; 13981; 13997; 14027; 14035; 14037; 14051;
  14063; 14085; 14095; 14107; 14113; 14125; 14137; 14145; 14151; 14163; 14193; 14199; 14219; 14229; 14233; 14243;
  14277; 14287; 14289; 14295; 14301; 14305; 14323; 14339; 14341; 14359; 14365; 14375; 14387; 14411; 14425; 14441;
  14449; 14499; 14513; 14523; 14537; 14543; 14561; 14579; 14585; 14593; 14599; 14603; 14611; 14641; 14671; 14695;
  14701; 14723; 14725; 14743; 14753; 14759; 14765; 14795; 14797; 14803; 14831; 14839; 14845; 14855; 14889; 14895;
  14909; 14929; 14941; 14945; 14951; 14963; 14965; 14985; 15033; 15039; 15053; 15059; 15061; 15071; 15077; 15081;
  15099; 15121; 15147; 15149; 15157; 15167; 15187; 15193; 15203; 15205; 15215; 15217; 15223; 15243; 15257; 15269;
  15273; 15287; 15291; 15313; 15335; 15347; 15359; 15373; 15379; 15381; 15391; 15395; 15397; 15419; 15439; 15453;
  15469; 15491; 15503; 15517; 15527; 15531; 15545; 15559; 15593; 15611; 15613; 15619; 15639; 15643; 15649; 15661;
  15667; 15669; 15681; 15693; 15717; 15721; 15741; 15745; 15765; 15793; 15799; 15811; 15825; 15835; 15847; 15851;
  15865; 15877; 15881; 15887; 15899; 15915; 15935; 15937; 15955; 15973; 15977; 16011; 16035; 16061; 16069; 16087;
  16093; 16097; 16121; 16141; 16153; 16159; 16165; 16183; 16189; 16195; 16197; 16201; 16209; 16215; 16225; 16259;
  16265; 16273; 16299; 16309; 16355; 16375; 16381].
(* gf2e.c:81, declared length 1162 *)
Definition irreducible_polynomials_degree_14 : list N :=
 [1161; 16417; 16427; 16435; 16441; 16447; 16467; 16479; 16485; 16507; 16519; 16553; 16559; 16571; 16573; 16591;
  16599; 16619; 16627; 16633; 16651; 16653; 16659; 16699; 16707; 16713; 16727; 16743; 16749; 16785; 16795; 16797;
  16807; 16811; 16813; 16821; 16853; 16857; 16881; 16897; 16909; 16965; 16969; 16983; 16993; 17011; 17017; 17023;
  17027; 17029; 17053; 17057; 17095; 17099; 17101; 17123; 17129; 17135; 17155; 17161; 17179; 17185; 17191; 17215;
  17257; 17275; 17277; 17287; 17301; 17327; 17353; 17373; 17387; 17389; 17407; 17419; 17421; 17475; 17501; 17523;
  17545; 17601; 17619; 17621; 17631; 17635; 17649; 17659; 17667; 17673; 17679; 17707; 17721; 17753; 17775; 17783;
  17789; 17805; 17817; 17823; 17829; 17847; 17861; 17865; 17873; 17879; 17895; 17907; 17919; 17935; 17949; 17959;
  17973; 17991; 18009; 18019; 18033; 18043; 18061; 18067; 18069; 18083; 18085; 18117; 18127; 18139; 18155; 18175;
  18213; 18225; 18243; 18255; 18303; 18313; 18321; 18331; 18343; 18357; 18369; 18387; 18393; 18405; 18409; 18415;
  18429; 18451; 18457; 18463; 18491; 18499; 18513; 18523; 18529; 18535; 18559; 18563; 18577; 18623; 18631; 18659;
  18673; 18679; 18685; 18717; 18721; 18733; 18745; 18753; 18771; 18783; 18789; 18793; 18807; 18823; 18827; 18857;
  18895; 18897; 18909; 18913; 18919; 18967; 18997; 19033; 19045; 19067; 19073; 19079; 19083; 19091; 19107; 19119;
  19133; 19145; 19165; 19181; 19193; 19231; 19255; 19273; 19291; 19297; 19307; 19309; 19315; 19321; 19333; 19343;
  19351; 19361; 19371; 19379; 19385; 19403; 19405; 19413; 19423; 19441; 19451; 19465; 19483; 19485; 19495; 19499;
  19519; 19527; 19531; 19539; 19541; 19557; 19581; 19597; 19621; 19645; 19653; 19665; 19671; 19693; 19711; 19733;
  19743; 19753; 19761; 19781; 19791; 19793; 19829; 19845; 19855; 19885; 19891; 19905; 19923; 19953; 19963; 19969;
  19989; 20003; 20023; 20035; 20041; 20049; 20075; 20077; 20099; 20123; 20147; 20179; 20197; 20201; 20207; 20253;
  20257; 20299; 20309; 20319; 20329; 20335; 20353; 20365; 20383; 20389; 20393; 20407; 20411; 20439; 20459; 20461;
  20473; 20487; 20511; 20517; 20571; 20573; 20641; 20683; 20693; 20697; 20707; 20713; 20719; 20731; 20763; 20769;
  20781; 20799; 20819; 20825; 20831; 20847; 20861; 20875; 20889; 20901; 20913; 20919; 20943; 20945; 20955; 20971;
  20973; 20981; 20991; 20997; 21007; 21037; 21093; 21105; 21131; 21145; 21155; 21169; 21181; 21187; 21189; 21199;
  21201; 21223; 21227; 21241; 21249; 21273; 21285; 21289; 21303; 21321; 21339; 21351; 21365; 21403; 21405; 21415;
  21433; 21439; 21447; 21459; 21477; 21489; 21501; 21507; 21519; 21527; 21557; 21561; 21575; 21593; 21599; 21627;
  21645; 21651; 21653; 21663; 21681; 21687; 21691; 21725; 21729; 21739; 21779; 21785; 21807; 21815; 21863; 21867;
  21877; 21881; 21887; 21891; 21893; 21905; 21911; 21933; 21953; 21971; 21983; 21993; 22007; 22023; 22029; 22037;
  22051; 22057; 22063; 22065; 22103; 22109; 22171; 22187; 22189; 22195; 22209; 22215; 22221; 22257; 22263; 22267;
  22315; 22317; 22335; 22347; 22357; 22361; 22371; 22373; 22397; 22419; 22447; 22461; 22467; 22469; 22487; 22503;
  22515; 22531; 22545; 22561; 22573; 22579; 22581; 22591; 22593; 22653; 22663; 22667; 22677; 22681; 22691; 22703;
  22705; 22737; 22749; 22759; 22763; 22777; 22783; 22803; 22819; 22843; 22863; 22911; 22927; 22935; 22941; 22945;
  22951; 22955; 22965; 22987; 23007; 23017; 23037; 23053; 23059; 23071; 23077; 23099; 23101; 23107; 23109; 23113;
  23157; 23183; 23207; 23221; 23233; 23251; 23253; 23257; 23287; 23311; 23319; 23325; 23339; 23347; 23353; 23361;
  23395; 23401; 23415; 23449; 23459; 23465; 23491; 23493; 23521; 23531; 23545; 23559; 23563; 23577; 23601; 23607;
  23625; 23645; 23661; 23673; 23683; 23713; 23743; 23745; 23755; 23757; 23781; 23813; 23825; 23837; 23859; 23861;
  23879; 23919; 23943; 23949; 23957; 23967; 23971; 23977; 23995; 24009; 24015; 24027; 24033; 24067; 24079; 24091;
  24109; 24135; 24139; 24163; 24189; 24193; 24217; 24229; 24233; 24279; 24283; 24295; 24309; 24327; 24333; 24345;
  24351; 24355; 24381; 24387; 24389; 24401; 24417; 24427; 24437; 24457; 24471; 24491; 24525; 24543; 24547; 24549;
  24561; 24587; 24589; 24597; 24623; 24637; 24655; 24657; 24673; 24679; 24683; 24713; 24727; 24733; 24737; 24747;
  24755; 24761; 24787; 24789; 24823; 24841; 24849; 24877; 24889; 24897; 24915; 24945; 24957; 24991; 24997; 25007;
  25019; 25051; 25069; 25077; 25087; 25131; 25139; 25141; 25145; 25159; 25165; 25187; 25199; 25213; 25229; 25247;
  25253; 25257; 25265; 25271; 25303; 25307; 25309; 25323; 25325; 25331; 25343; 25379; 25393; 25399; 25405; 25435;
  25453; 25461; 25477; 25481; 25489; 25505; 25535; 25583; 25597; 25609; 25623; 25645; 25665; 25671; 25677; 25685;
  25739; 25749; 25759; 25769; 25777; 25831; 25845; 25857; 25867; 25881; 25911; 25915; 25923; 25925; 25929; 25947;
  25987; 26001; 26023; 26029; 26041; 26047; 26067; 26069; 26073; 26085; 26095; 26097; 26103; 26113; 26119; 26125;
  26147; 26171; 26191; 26205; 26219; 26221; 26227; 26243; 26255; 26263; 26279; 26283; 26293; 26297; 26329; 26335;
  26345; 26385; 26395; 26401; 26419; 26443; 26463; 26473; 26487; 26497; 26531; 26543; 26551; 26577; 26599; 26603;
  26613; 26627; 26641; 26651; 26653; 26667; 26689; 26707; 26735; 26743; 26763; 26765; 26771; 26783; 26789; 26793;
  26821; 26825; 26879; 26887; 26905; 26927; 26941; 26967; 26987; 26995; 26997; 27001; 27013; 27023; 27035; 27037;
  27041; 27051; 27079; 27085; 27113; 27137; 27143; 27147; 27161; 27171; 27183; 27217; 27227; 27239; 27243; 27245;
  27253; 27267; 27287; 27315; 27317; 27327; 27329; 27339; 27341; 27369; 27375; 27387; 27389; 27395; 27415; 27435;
  27443; 27449; 27463; 27467; 27477; 27497; 27517; 27521; 27533; 27541; 27551; 27555; 27557; 27569; 27575; 27589;
  27607; 27617; 27629; 27635; 27641; 27659; 27673; 27695; 27709; 27717; 27735; 27745; 27763; 27829; 27833; 27839;
  27841; 27847; 27851; 27877; 27889; 27909; 27913; 27919; 27927; 27947; 27987; 28003; 28005; 28009; 28027; 28067;
  28081; 28091; 28093; 28099; 28101; 28125; 28169; 28199; 28205; 28211; 28225; 28237; 28243; 28271; 28283; 28289;
  28295; 28309; 28335; 28343; 28355; 28379; 28381; 28409; 28417; 28437; 28457; 28465; 28475; 28495; 28503; 28507;
  28513; 28549; 28561; 28567; 28587; 28597; 28615; 28633; 28639; 28649; 28677; 28701; 28715; 28723; 28725; 28747;
  28797; 28801; 28813; 28841; 28855; 28859; 28873; 28879; 28893; 28897; 28947; 28949; 28953; 28963; 28977; 28983;
  28989; 29021; 29035; 29065; 29079; 29083; 29089; 29109; 29119; 29131; 29151; 29157; 29175; 29179; 29209; 29215;
  29231; 29233; 29243; 29263; 29281; 29287; 29327; 29357; 29363; 29377; 29389; 29395; 29407; 29413; 29425; 29431;
  29443; 29449; 29479; 29483; 29505; 29525; 29541; 29551; 29581; 29587; 29605; 29629; 29641; 29649; 29671; 29683;
  29685; 29695; 29715; 29717; 29737; 29775; 29783; 29787; 29803; 29805; 29827; 29867; 29875; 29895; 29901; 29909;
  29919; 29929; 29947; 29949; 29975; 29979; 29985; 30005; 30017; 30027; 30071; 30075; 30081; 30105; 30115; 30141;
  30159; 30161; 30187; 30197; 30201; 30207; 30237; 30265; 30279; 30291; 30293; 30303; 30307; 30309; 30313; 30343;
  30357; 30367; 30371; 30383; 30395; 30405; 30417; 30443; 30451; 30457; 30475; 30511; 30537; 30545; 30551; 30573;
  30579; 30595; 30601; 30631; 30637; 30645; 30663; 30675; 30677; 30703; 30741; 30757; 30769; 30781; 30799; 30801;
  30811; 30829; 30887; 30893; 30899; 30911; 30923; 30925; 30937; 30943; 30953; 30959; 30979; 30991; 30999; 31015;
  31027; 31053; 31065; 31087; 31089; 31099; 31105; 31111; 31141; 31153; 31173; 31177; 31191; 31197; 31235; 31259;
  31271; 31275; 31285; 31295; 31307; 31317; 31351; 31361; 31373; 31401; 31415; 31419; 31427; 31457; 31475; 31477;
  31499; 31523; 31547; 31557; 31567; 31569; 31581; 31591; 31609; 31621; 31631; 31649; 31659; 31673; 31699; 31715;
  31729; 31735; 31749; 31753; 31783; 31789; 31833; 31849; 31869; 31883; 31891; 31893; 31907; 31927; 31939; 31953;
  31965; 31979; 31993; 31999; 32001; 32021; 32055; 32069; 32073; 32115; 32121; 32143; 32145; 32151; 32167; 32179;
  32199; 32205; 32213; 32233; 32251; 32253; 32257; 32269; 32281; 32303; 32325; 32353; 32373; 32383; 32393; 32399;
  32411; 32413; 32427; 32447; 32455; 32467; 32483; 32485; 32521; 32545; 32575; 32589; 32597; 32625; 32651; 32653;
  32665; 32671; 32675; 32689; 32707; 32709; 32721; 32727; 32737; 32743].
(* gf2e.c:82, declared length 2183 *)
Definition irreducible_polynomials_degree_15 : list N :=
 [2182; 32771; 32785; 32791; 32813; 32821; 32863; 32879; 32887; 32897; 32903; 32915; 32933; 32945; 32957; 32963;
  32975; 32989; 32999; 33013; 33023; 33025; 33045; 33061; 33111; 33117; 33121; 33133; 33145; 33157; 33185; 33191;
  33209; 33227; 33229; 33237; 33247; 33277; 33299; 33339; 33349; 33407; 33417; 33423; 33435; 33483; 33497; 33507;
  33521; 33559; 33563; 33579; 33587; 33607; 33613; 33631; 33635; 33641; 33649; 33675; 33685; 33689; 33711; 33723;
  33725; 33733; 33745; 33781; 33817; 33827; 33839; 33841; 33847; 33865; 33895; 33901; 33913; 33923; 33925; 33943;
  33953; 33973; 34015; 34031; 34039; 34043; 34045; 34077; 34081; 34087; 34099; 34119; 34123; 34143; 34161; 34171;
  34177; 34189; 34211; 34225; 34231; 34245; 34249; 34267; 34285; 34291; 34313; 34321; 34333; 34347; 34389; 34393;
  34405; 34429; 34433; 34451; 34473; 34479; 34487; 34499; 34523; 34547; 34559; 34571; 34573; 34581; 34591; 34601;
  34609; 34667; 34693; 34697; 34703; 34717; 34731; 34733; 34739; 34751; 34783; 34793; 34801; 34807; 34817; 34823;
  34853; 34871; 34875; 34889; 34909; 34913; 34931; 34937; 34947; 34959; 34961; 34995; 34997; 35015; 35033; 35075;
  35077; 35081; 35089; 35095; 35111; 35173; 35197; 35221; 35225; 35247; 35279; 35281; 35291; 35293; 35309; 35327;
  35351; 35385; 35413; 35427; 35429; 35441; 35451; 35463; 35467; 35487; 35503; 35505; 35549; 35595; 35597; 35643;
  35645; 35651; 35693; 35699; 35729; 35741; 35777; 35787; 35797; 35801; 35813; 35825; 35873; 35879; 35911; 35925;
  35929; 35939; 35945; 35975; 35987; 36003; 36009; 36027; 36041; 36065; 36075; 36097; 36103; 36107; 36133; 36143;
  36163; 36177; 36187; 36205; 36223; 36229; 36233; 36251; 36257; 36287; 36299; 36301; 36325; 36329; 36335; 36343;
  36363; 36383; 36411; 36433; 36439; 36467; 36469; 36495; 36503; 36507; 36513; 36543; 36545; 36563; 36575; 36581;
  36603; 36623; 36647; 36651; 36665; 36673; 36691; 36693; 36709; 36727; 36733; 36773; 36791; 36797; 36809; 36817;
  36833; 36839; 36875; 36889; 36895; 36901; 36919; 36925; 36931; 36951; 36961; 36973; 36981; 37001; 37009; 37019;
  37021; 37037; 37091; 37125; 37129; 37135; 37143; 37147; 37149; 37185; 37197; 37239; 37243; 37273; 37283; 37289;
  37297; 37309; 37327; 37345; 37379; 37393; 37403; 37409; 37415; 37427; 37439; 37453; 37459; 37471; 37499; 37511;
  37525; 37539; 37559; 37577; 37597; 37621; 37625; 37651; 37681; 37687; 37701; 37705; 37719; 37747; 37759; 37763;
  37789; 37793; 37813; 37835; 37855; 37871; 37873; 37883; 37903; 37931; 37933; 37941; 37963; 37971; 38007; 38013;
  38027; 38035; 38041; 38053; 38057; 38075; 38085; 38103; 38107; 38113; 38119; 38133; 38143; 38151; 38165; 38185;
  38193; 38205; 38213; 38241; 38251; 38281; 38299; 38317; 38349; 38367; 38371; 38377; 38419; 38421; 38447; 38449;
  38455; 38461; 38467; 38493; 38503; 38521; 38551; 38573; 38593; 38603; 38611; 38623; 38639; 38651; 38661; 38699;
  38709; 38713; 38733; 38755; 38805; 38815; 38819; 38821; 38825; 38833; 38875; 38877; 38881; 38899; 38911; 38921;
  38945; 38957; 38983; 39061; 39065; 39087; 39099; 39107; 39109; 39127; 39133; 39143; 39155; 39161; 39179; 39193;
  39205; 39209; 39215; 39223; 39235; 39237; 39259; 39277; 39295; 39305; 39313; 39323; 39353; 39359; 39361; 39371;
  39381; 39395; 39397; 39461; 39473; 39503; 39511; 39515; 39517; 39521; 39533; 39545; 39551; 39557; 39575; 39581;
  39595; 39609; 39623; 39627; 39651; 39675; 39697; 39707; 39725; 39731; 39745; 39763; 39775; 39791; 39799; 39805;
  39815; 39819; 39827; 39863; 39869; 39889; 39915; 39929; 39935; 39957; 39967; 39983; 39995; 39997; 40017; 40029;
  40039; 40051; 40053; 40057; 40069; 40127; 40135; 40149; 40165; 40169; 40177; 40183; 40195; 40277; 40281; 40291;
  40311; 40321; 40331; 40345; 40351; 40357; 40381; 40451; 40465; 40471; 40481; 40487; 40505; 40519; 40533; 40537;
  40543; 40547; 40553; 40577; 40607; 40611; 40685; 40691; 40715; 40723; 40729; 40739; 40751; 40777; 40783; 40807;
  40859; 40877; 40883; 40885; 40909; 40921; 40951; 40971; 40981; 40995; 40997; 41007; 41027; 41051; 41053; 41063;
  41067; 41069; 41087; 41097; 41105; 41127; 41141; 41165; 41183; 41193; 41211; 41219; 41231; 41245; 41249; 41255;
  41267; 41269; 41273; 41287; 41305; 41327; 41339; 41345; 41375; 41393; 41413; 41423; 41441; 41487; 41501; 41517;
  41525; 41537; 41543; 41557; 41571; 41583; 41625; 41641; 41659; 41661; 41669; 41673; 41687; 41691; 41709; 41735;
  41739; 41741; 41753; 41759; 41763; 41769; 41797; 41835; 41843; 41861; 41871; 41879; 41889; 41907; 41921; 41933;
  41941; 41987; 41989; 41993; 42001; 42067; 42073; 42085; 42113; 42119; 42123; 42133; 42137; 42149; 42159; 42161;
  42173; 42179; 42203; 42219; 42221; 42241; 42275; 42277; 42281; 42319; 42355; 42371; 42407; 42425; 42439; 42445;
  42473; 42481; 42491; 42515; 42533; 42543; 42551; 42557; 42577; 42593; 42611; 42641; 42651; 42653; 42695; 42737;
  42749; 42779; 42795; 42809; 42847; 42865; 42893; 42905; 42929; 42939; 42941; 42959; 42961; 42973; 42983; 43013;
  43051; 43059; 43065; 43083; 43085; 43093; 43113; 43119; 43133; 43137; 43155; 43167; 43171; 43177; 43191; 43215;
  43229; 43233; 43243; 43275; 43283; 43289; 43301; 43337; 43381; 43409; 43431; 43437; 43455; 43457; 43497; 43503;
  43511; 43533; 43541; 43567; 43569; 43587; 43589; 43599; 43601; 43617; 43641; 43677; 43691; 43693; 43699; 43705;
  43731; 43743; 43761; 43779; 43791; 43805; 43829; 43833; 43847; 43875; 43901; 43905; 43915; 43929; 43963; 43973;
  43985; 43991; 43995; 44007; 44019; 44033; 44039; 44045; 44051; 44073; 44087; 44091; 44101; 44123; 44141; 44147;
  44159; 44165; 44175; 44183; 44231; 44245; 44255; 44265; 44285; 44293; 44305; 44315; 44321; 44363; 44365; 44399;
  44451; 44463; 44489; 44509; 44519; 44523; 44537; 44553; 44573; 44589; 44601; 44607; 44621; 44639; 44643; 44657;
  44663; 44667; 44685; 44693; 44707; 44731; 44759; 44765; 44775; 44789; 44801; 44819; 44831; 44841; 44847; 44859;
  44867; 44873; 44903; 44917; 44943; 44957; 44971; 44993; 45011; 45027; 45047; 45053; 45071; 45083; 45101; 45109;
  45119; 45141; 45175; 45197; 45203; 45231; 45251; 45253; 45265; 45281; 45299; 45319; 45323; 45325; 45373; 45399;
  45405; 45429; 45455; 45463; 45469; 45473; 45511; 45535; 45541; 45579; 45587; 45589; 45635; 45641; 45647; 45685;
  45695; 45705; 45723; 45749; 45761; 45791; 45801; 45807; 45815; 45829; 45847; 45863; 45923; 45947; 45953; 45971;
  45989; 45993; 46001; 46007; 46021; 46039; 46043; 46045; 46073; 46081; 46093; 46105; 46111; 46121; 46147; 46149;
  46167; 46189; 46197; 46207; 46247; 46271; 46297; 46319; 46327; 46345; 46365; 46387; 46399; 46407; 46419; 46421;
  46441; 46455; 46459; 46485; 46505; 46523; 46531; 46551; 46561; 46567; 46571; 46585; 46597; 46601; 46615; 46619;
  46625; 46631; 46637; 46643; 46645; 46667; 46681; 46715; 46721; 46731; 46745; 46767; 46769; 46801; 46823; 46827;
  46855; 46879; 46885; 46917; 46935; 46939; 46955; 46969; 46979; 46993; 46999; 47005; 47009; 47027; 47051; 47101;
  47135; 47173; 47183; 47201; 47221; 47237; 47241; 47261; 47265; 47277; 47295; 47315; 47317; 47355; 47363; 47369;
  47389; 47399; 47403; 47431; 47445; 47449; 47461; 47479; 47501; 47535; 47547; 47555; 47561; 47569; 47585; 47597;
  47603; 47605; 47621; 47631; 47633; 47659; 47673; 47705; 47721; 47727; 47745; 47751; 47757; 47763; 47799; 47831;
  47859; 47871; 47873; 47879; 47893; 47897; 47907; 47933; 47939; 47945; 47951; 47953; 47963; 47975; 47989; 48017;
  48053; 48063; 48075; 48077; 48101; 48105; 48137; 48179; 48185; 48227; 48229; 48233; 48251; 48267; 48269; 48287;
  48297; 48323; 48337; 48349; 48385; 48403; 48421; 48431; 48439; 48453; 48487; 48511; 48515; 48521; 48569; 48577;
  48595; 48601; 48613; 48625; 48647; 48661; 48675; 48681; 48695; 48727; 48731; 48737; 48747; 48767; 48771; 48785;
  48811; 48853; 48857; 48881; 48919; 48929; 48935; 48947; 48949; 48979; 48997; 49025; 49035; 49059; 49079; 49091;
  49115; 49133; 49141; 49151; 49153; 49159; 49171; 49183; 49189; 49225; 49267; 49273; 49285; 49297; 49303; 49309;
  49319; 49337; 49355; 49365; 49379; 49403; 49425; 49441; 49459; 49471; 49483; 49503; 49519; 49527; 49531; 49533;
  49555; 49573; 49597; 49603; 49609; 49627; 49639; 49645; 49669; 49673; 49687; 49709; 49741; 49747; 49749; 49769;
  49817; 49841; 49871; 49873; 49885; 49909; 49921; 49933; 49945; 49957; 49967; 49981; 50007; 50011; 50017; 50035;
  50051; 50075; 50077; 50091; 50093; 50111; 50119; 50147; 50159; 50173; 50181; 50209; 50227; 50247; 50251; 50271;
  50287; 50301; 50323; 50335; 50341; 50359; 50373; 50391; 50397; 50411; 50425; 50431; 50443; 50453; 50479; 50481;
  50505; 50523; 50549; 50553; 50569; 50587; 50593; 50611; 50613; 50623; 50635; 50655; 50665; 50671; 50685; 50735;
  50737; 50749; 50757; 50769; 50795; 50805; 50809; 50831; 50839; 50859; 50867; 50873; 50881; 50887; 50893; 50901;
  50915; 50921; 50939; 50947; 50953; 51009; 51027; 51033; 51043; 51063; 51097; 51103; 51113; 51139; 51159; 51163;
  51189; 51203; 51227; 51253; 51265; 51277; 51295; 51301; 51305; 51349; 51389; 51401; 51445; 51449; 51455; 51457;
  51469; 51477; 51487; 51491; 51497; 51505; 51511; 51515; 51547; 51549; 51553; 51583; 51587; 51599; 51627; 51655;
  51659; 51661; 51673; 51749; 51753; 51759; 51779; 51785; 51815; 51855; 51885; 51903; 51929; 51939; 51951; 51953;
  51965; 51991; 51995; 51997; 52011; 52031; 52053; 52073; 52081; 52091; 52103; 52157; 52183; 52199; 52213; 52231;
  52245; 52259; 52285; 52297; 52315; 52333; 52351; 52355; 52357; 52379; 52385; 52391; 52397; 52403; 52417; 52441;
  52471; 52475; 52477; 52497; 52523; 52531; 52565; 52579; 52591; 52615; 52639; 52643; 52663; 52677; 52687; 52695;
  52705; 52715; 52717; 52729; 52735; 52739; 52753; 52775; 52789; 52793; 52837; 52847; 52849; 52895; 52901; 52923;
  52931; 52933; 52937; 52945; 52951; 52979; 52991; 53005; 53017; 53023; 53039; 53085; 53089; 53099; 53107; 53113;
  53135; 53147; 53149; 53153; 53163; 53191; 53205; 53225; 53239; 53253; 53257; 53311; 53319; 53325; 53361; 53367;
  53383; 53387; 53389; 53397; 53401; 53411; 53425; 53445; 53455; 53457; 53463; 53473; 53497; 53515; 53541; 53545;
  53551; 53565; 53585; 53595; 53613; 53659; 53689; 53695; 53697; 53717; 53721; 53743; 53757; 53767; 53781; 53791;
  53795; 53801; 53815; 53847; 53867; 53869; 53891; 53903; 53921; 53941; 53963; 54019; 54039; 54055; 54081; 54091;
  54105; 54111; 54121; 54135; 54139; 54145; 54163; 54169; 54179; 54193; 54217; 54225; 54237; 54247; 54253; 54293;
  54313; 54331; 54365; 54369; 54379; 54423; 54429; 54443; 54451; 54463; 54465; 54483; 54501; 54505; 54513; 54543;
  54555; 54567; 54571; 54599; 54613; 54617; 54627; 54653; 54675; 54711; 54723; 54753; 54759; 54771; 54773; 54789;
  54823; 54827; 54859; 54879; 54883; 54895; 54909; 54919; 54953; 54967; 54981; 54999; 55009; 55021; 55027; 55061;
  55075; 55077; 55089; 55143; 55149; 55167; 55213; 55219; 55221; 55231; 55257; 55287; 55291; 55309; 55315; 55369;
  55383; 55405; 55433; 55439; 55451; 55463; 55467; 55477; 55489; 55495; 55507; 55513; 55525; 55561; 55579; 55603;
  55617; 55623; 55629; 55647; 55653; 55665; 55691; 55705; 55711; 55715; 55721; 55729; 55747; 55767; 55795; 55801;
  55813; 55831; 55847; 55859; 55861; 55871; 55897; 55933; 55947; 55955; 55961; 55971; 55985; 56003; 56029; 56045;
  56071; 56095; 56101; 56105; 56123; 56133; 56143; 56161; 56195; 56209; 56225; 56263; 56269; 56277; 56287; 56291;
  56297; 56303; 56315; 56317; 56337; 56363; 56373; 56377; 56385; 56431; 56433; 56467; 56479; 56495; 56529; 56535;
  56539; 56565; 56601; 56617; 56625; 56645; 56663; 56679; 56691; 56693; 56733; 56749; 56769; 56789; 56805; 56823;
  56827; 56839; 56879; 56893; 56905; 56911; 56913; 56941; 56949; 56963; 56965; 56969; 56993; 57005; 57035; 57037;
  57043; 57091; 57093; 57111; 57117; 57121; 57139; 57177; 57187; 57193; 57199; 57201; 57253; 57275; 57289; 57307;
  57323; 57347; 57359; 57361; 57395; 57397; 57415; 57419; 57439; 57467; 57469; 57485; 57503; 57513; 57521; 57527;
  57541; 57559; 57563; 57565; 57581; 57599; 57601; 57611; 57637; 57649; 57673; 57679; 57681; 57693; 57703; 57707;
  57727; 57779; 57811; 57817; 57839; 57863; 57867; 57881; 57891; 57905; 57925; 57935; 57959; 57977; 57989; 57999;
  58011; 58013; 58017; 58027; 58029; 58047; 58049; 58069; 58127; 58129; 58139; 58165; 58169; 58201; 58211; 58213;
  58231; 58253; 58259; 58271; 58277; 58287; 58295; 58307; 58331; 58355; 58367; 58399; 58417; 58441; 58459; 58475;
  58477; 58483; 58489; 58501; 58513; 58519; 58525; 58529; 58539; 58571; 58573; 58591; 58609; 58621; 58627; 58629;
  58647; 58651; 58669; 58675; 58753; 58773; 58789; 58799; 58855; 58885; 58913; 58937; 58943; 58951; 58963; 58985;
  59015; 59067; 59069; 59095; 59101; 59115; 59125; 59129; 59137; 59161; 59177; 59245; 59253; 59267; 59279; 59303;
  59307; 59309; 59317; 59339; 59347; 59349; 59365; 59377; 59383; 59393; 59439; 59459; 59471; 59473; 59483; 59501;
  59513; 59529; 59537; 59559; 59583; 59585; 59595; 59597; 59603; 59643; 59645; 59651; 59663; 59681; 59687; 59691;
  59701; 59737; 59743; 59747; 59753; 59761; 59789; 59831; 59845; 59855; 59863; 59885; 59913; 59931; 59949; 59979;
  59993; 60017; 60029; 60033; 60045; 60091; 60099; 60105; 60119; 60141; 60159; 60167; 60171; 60185; 60195; 60201;
  60219; 60229; 60247; 60253; 60263; 60267; 60275; 60277; 60311; 60315; 60333; 60339; 60365; 60371; 60373; 60387;
  60425; 60433; 60449; 60469; 60491; 60511; 60517; 60521; 60541; 60563; 60569; 60591; 60599; 60605; 60617; 60623;
  60671; 60679; 60693; 60707; 60727; 60745; 60765; 60769; 60779; 60823; 60833; 60843; 60851; 60871; 60877; 60889;
  60895; 60911; 60913; 60925; 60929; 60939; 60941; 60959; 60969; 61045; 61059; 61065; 61085; 61101; 61113; 61127;
  61131; 61145; 61155; 61169; 61175; 61199; 61217; 61229; 61235; 61241; 61261; 61303; 61333; 61343; 61361; 61371;
  61409; 61415; 61419; 61427; 61429; 61433; 61447; 61453; 61471; 61481; 61487; 61509; 61533; 61573; 61577; 61591;
  61611; 61631; 61639; 61653; 61663; 61681; 61687; 61713; 61723; 61749; 61761; 61767; 61771; 61779; 61795; 61809;
  61837; 61843; 61893; 61921; 61927; 61939; 61941; 61951; 61975; 61981; 62023; 62029; 62037; 62041; 62063; 62075;
  62087; 62111; 62117; 62171; 62173; 62201; 62207; 62209; 62219; 62229; 62255; 62263; 62275; 62341; 62345; 62353;
  62359; 62387; 62431; 62437; 62469; 62479; 62487; 62497; 62521; 62547; 62549; 62563; 62565; 62569; 62587; 62603;
  62617; 62627; 62641; 62653; 62659; 62671; 62707; 62709; 62713; 62733; 62745; 62757; 62775; 62779; 62801; 62817;
  62829; 62865; 62877; 62887; 62901; 62911; 62913; 62919; 62977; 62997; 63007; 63011; 63035; 63045; 63055; 63069;
  63083; 63091; 63107; 63109; 63155; 63157; 63193; 63215; 63227; 63265; 63277; 63295; 63309; 63315; 63337; 63343;
  63367; 63371; 63381; 63395; 63409; 63415; 63427; 63433; 63451; 63487; 63491; 63497; 63503; 63517; 63527; 63533;
  63545; 63551; 63563; 63599; 63601; 63607; 63635; 63685; 63707; 63713; 63725; 63731; 63733; 63751; 63765; 63779;
  63803; 63805; 63823; 63825; 63859; 63865; 63877; 63899; 63923; 63929; 63943; 63971; 63977; 63991; 64001; 64007;
  64019; 64035; 64055; 64073; 64107; 64117; 64121; 64127; 64131; 64151; 64155; 64161; 64193; 64203; 64217; 64223;
  64229; 64261; 64271; 64289; 64295; 64309; 64333; 64341; 64351; 64361; 64369; 64385; 64397; 64419; 64425; 64439;
  64457; 64463; 64475; 64481; 64523; 64525; 64543; 64585; 64603; 64615; 64629; 64643; 64685; 64723; 64751; 64783;
  64791; 64797; 64811; 64813; 64825; 64839; 64851; 64881; 64907; 64917; 64921; 64931; 64943; 64945; 64963; 64989;
  64993; 65003; 65029; 65069; 65075; 65077; 65089; 65101; 65113; 65119; 65149; 65159; 65171; 65177; 65201; 65213;
  65225; 65259; 65279; 65281; 65287; 65299; 65315; 65321; 65335; 65359; 65367; 65373; 65377; 65395; 65407; 65423;
  65425; 65459; 65479; 65497; 65513; 65519; 65533].
(* gf2e.c:83, declared length 4081 *)
Definition irreducible_polynomials_degree_16 : list N :=
 [4080; 65579; 65581; 65593; 65599; 65607; 65619; 65677; 65725; 65751; 65781; 65833; 65839; 65851; 65853; 65871;
  65885; 65907; 65909; 65935; 65943; 65953; 65965; 65983; 65991; 65997; 66005; 66025; 66039; 66069; 66073; 66085;
  66095; 66139; 66141; 66155; 66157; 66165; 66181; 66193; 66209; 66227; 66253; 66259; 66277; 66295; 66299; 66327;
  66333; 66357; 66361; 66379; 66381; 66409; 66415; 66417; 66439; 66445; 66463; 66467; 66491; 66511; 66525; 66541;
  66553; 66571; 66597; 66601; 66647; 66657; 66663; 66669; 66691; 66697; 66705; 66727; 66733; 66741; 66751; 66753;
  66813; 66825; 66867; 66873; 66887; 66915; 66917; 66921; 66951; 66991; 67011; 67023; 67025; 67037; 67051; 67061;
  67065; 67137; 67147; 67155; 67167; 67195; 67197; 67207; 67211; 67235; 67247; 67267; 67273; 67317; 67327; 67435;
  67437; 67449; 67455; 67459; 67471; 67479; 67567; 67569; 67579; 67591; 67595; 67597; 67605; 67643; 67681; 67705;
  67735; 67741; 67755; 67775; 67797; 67807; 67811; 67817; 67825; 67835; 67897; 67929; 67959; 67965; 67979; 68005;
  68015; 68035; 68037; 68065; 68071; 68077; 68083; 68099; 68113; 68149; 68153; 68191; 68195; 68209; 68221; 68225;
  68255; 68283; 68293; 68303; 68317; 68321; 68351; 68353; 68371; 68373; 68433; 68445; 68497; 68503; 68531; 68557;
  68563; 68581; 68591; 68599; 68605; 68623; 68637; 68641; 68651; 68673; 68713; 68721; 68731; 68749; 68757; 68771;
  68783; 68797; 68829; 68843; 68851; 68877; 68889; 68895; 68931; 68937; 68995; 69007; 69009; 69021; 69037; 69045;
  69075; 69091; 69093; 69155; 69189; 69235; 69247; 69253; 69265; 69271; 69277; 69281; 69287; 69319; 69323; 69373;
  69379; 69381; 69385; 69403; 69409; 69481; 69495; 69511; 69515; 69525; 69529; 69553; 69565; 69583; 69595; 69607;
  69611; 69643; 69669; 69693; 69699; 69711; 69725; 69759; 69763; 69765; 69783; 69787; 69793; 69799; 69813; 69917;
  69927; 69945; 69959; 69965; 69983; 69999; 70089; 70107; 70109; 70123; 70125; 70131; 70137; 70209; 70215; 70227;
  70229; 70243; 70263; 70273; 70283; 70291; 70297; 70309; 70319; 70333; 70341; 70359; 70363; 70369; 70381; 70387;
  70399; 70459; 70461; 70481; 70487; 70497; 70507; 70517; 70521; 70557; 70561; 70623; 70647; 70665; 70683; 70707;
  70709; 70731; 70733; 70745; 70751; 70791; 70803; 70831; 70833; 70857; 70865; 70893; 70905; 70919; 70931; 71055;
  71057; 71073; 71079; 71083; 71125; 71129; 71135; 71139; 71163; 71199; 71215; 71223; 71229; 71235; 71237; 71241;
  71249; 71285; 71299; 71323; 71339; 71381; 71385; 71415; 71421; 71439; 71469; 71475; 71487; 71489; 71495; 71501;
  71507; 71525; 71573; 71577; 71587; 71593; 71639; 71659; 71669; 71723; 71731; 71765; 71779; 71791; 71815; 71821;
  71827; 71849; 71857; 71863; 71867; 71887; 71899; 71929; 71935; 71947; 71971; 71973; 71985; 71991; 72027; 72043;
  72045; 72053; 72057; 72115; 72139; 72141; 72165; 72187; 72189; 72199; 72205; 72227; 72241; 72259; 72273; 72279;
  72285; 72299; 72307; 72313; 72329; 72347; 72383; 72419; 72421; 72457; 72477; 72487; 72491; 72519; 72523; 72533;
  72537; 72549; 72573; 72587; 72589; 72595; 72623; 72635; 72637; 72643; 72663; 72673; 72703; 72711; 72723; 72739;
  72745; 72773; 72783; 72791; 72797; 72801; 72831; 72837; 72861; 72865; 72885; 72907; 72909; 72921; 72937; 72943;
  72945; 72983; 72987; 73005; 73023; 73035; 73043; 73049; 73055; 73061; 73065; 73079; 73089; 73095; 73161; 73197;
  73215; 73249; 73279; 73311; 73329; 73339; 73369; 73375; 73385; 73405; 73411; 73413; 73423; 73437; 73447; 73451;
  73459; 73491; 73513; 73519; 73531; 73533; 73559; 73575; 73581; 73587; 73589; 73603; 73627; 73629; 73657; 73663;
  73665; 73741; 73759; 73765; 73789; 73809; 73843; 73871; 73883; 73899; 73909; 73913; 73927; 73955; 73989; 73993;
  74011; 74049; 74067; 74083; 74089; 74107; 74119; 74133; 74153; 74161; 74181; 74191; 74209; 74215; 74233; 74263;
  74279; 74293; 74305; 74323; 74329; 74335; 74345; 74363; 74379; 74387; 74389; 74405; 74415; 74417; 74447; 74461;
  74471; 74489; 74517; 74527; 74533; 74537; 74565; 74583; 74605; 74627; 74647; 74663; 74681; 74723; 74729; 74755;
  74767; 74797; 74809; 74815; 74827; 74835; 74893; 74905; 74911; 74935; 74949; 74961; 74983; 75007; 75029; 75043;
  75049; 75067; 75095; 75101; 75105; 75123; 75129; 75141; 75163; 75199; 75213; 75237; 75255; 75271; 75285; 75299;
  75325; 75345; 75355; 75373; 75381; 75391; 75395; 75419; 75437; 75457; 75497; 75515; 75537; 75563; 75571; 75577;
  75609; 75619; 75633; 75655; 75685; 75717; 75735; 75757; 75763; 75803; 75805; 75821; 75841; 75847; 75889; 75899;
  75935; 75939; 75945; 75951; 75973; 76021; 76033; 76043; 76057; 76079; 76091; 76099; 76101; 76105; 76147; 76159;
  76163; 76169; 76189; 76205; 76217; 76231; 76245; 76273; 76279; 76325; 76329; 76337; 76347; 76415; 76421; 76445;
  76455; 76493; 76501; 76505; 76515; 76521; 76529; 76549; 76553; 76583; 76595; 76597; 76627; 76649; 76655; 76667;
  76669; 76691; 76697; 76719; 76733; 76753; 76763; 76765; 76793; 76807; 76811; 76831; 76859; 76861; 76867; 76879;
  76893; 76897; 76907; 76915; 76921; 76937; 76973; 76985; 77005; 77011; 77027; 77047; 77051; 77065; 77095; 77101;
  77109; 77121; 77155; 77157; 77169; 77175; 77185; 77195; 77197; 77215; 77225; 77275; 77281; 77327; 77335; 77345;
  77363; 77365; 77383; 77387; 77389; 77407; 77423; 77425; 77453; 77477; 77481; 77509; 77513; 77547; 77561; 77567;
  77569; 77575; 77587; 77629; 77635; 77659; 77671; 77695; 77705; 77719; 77723; 77735; 77749; 77759; 77771; 77779;
  77791; 77829; 77847; 77863; 77899; 77913; 77925; 77943; 77947; 77949; 77953; 77971; 77999; 78007; 78019; 78043;
  78045; 78061; 78069; 78073; 78087; 78093; 78117; 78121; 78173; 78177; 78195; 78247; 78251; 78285; 78297; 78307;
  78331; 78383; 78391; 78397; 78409; 78423; 78427; 78439; 78453; 78481; 78493; 78507; 78509; 78517; 78539; 78553;
  78575; 78577; 78597; 78619; 78635; 78649; 78663; 78711; 78751; 78761; 78789; 78801; 78817; 78827; 78835; 78859;
  78869; 78873; 78885; 78915; 78929; 78975; 78985; 79003; 79015; 79039; 79053; 79101; 79109; 79133; 79137; 79155;
  79175; 79179; 79193; 79217; 79229; 79263; 79267; 79281; 79305; 79319; 79347; 79375; 79387; 79389; 79413; 79423;
  79471; 79473; 79501; 79513; 79529; 79543; 79555; 79569; 79575; 79597; 79623; 79627; 79641; 79651; 79683; 79695;
  79697; 79733; 79737; 79767; 79787; 79801; 79821; 79829; 79843; 79873; 79885; 79903; 79927; 79945; 79951; 79963;
  79965; 79981; 80015; 80033; 80071; 80075; 80077; 80095; 80123; 80145; 80151; 80161; 80181; 80191; 80193; 80205;
  80211; 80223; 80229; 80239; 80247; 80257; 80281; 80291; 80311; 80317; 80329; 80363; 80383; 80393; 80411; 80413;
  80429; 80435; 80461; 80469; 80483; 80485; 80489; 80503; 80533; 80543; 80559; 80571; 80573; 80591; 80627; 80633;
  80659; 80681; 80699; 80701; 80709; 80731; 80749; 80755; 80771; 80777; 80797; 80843; 80851; 80857; 80867; 80879;
  80881; 80901; 80929; 80935; 80967; 80971; 81001; 81007; 81043; 81073; 81115; 81139; 81145; 81151; 81159; 81171;
  81187; 81201; 81213; 81219; 81225; 81255; 81259; 81261; 81283; 81297; 81331; 81333; 81345; 81357; 81369; 81391;
  81403; 81419; 81433; 81439; 81457; 81467; 81475; 81477; 81489; 81495; 81529; 81541; 81545; 81551; 81593; 81619;
  81631; 81641; 81659; 81667; 81673; 81681; 81693; 81729; 81793; 81803; 81823; 81829; 81833; 81847; 81861; 81883;
  81909; 81945; 82037; 82041; 82053; 82075; 82077; 82093; 82125; 82131; 82147; 82167; 82179; 82185; 82239; 82251;
  82259; 82265; 82275; 82323; 82329; 82345; 82351; 82363; 82365; 82401; 82407; 82419; 82431; 82435; 82437; 82449;
  82507; 82517; 82545; 82555; 82557; 82561; 82567; 82597; 82601; 82615; 82619; 82639; 82657; 82669; 82681; 82695;
  82699; 82723; 82755; 82761; 82815; 82819; 82855; 82879; 82927; 82935; 82939; 82959; 83015; 83021; 83057; 83063;
  83067; 83085; 83093; 83103; 83107; 83131; 83141; 83153; 83169; 83193; 83211; 83231; 83241; 83255; 83267; 83315;
  83337; 83343; 83355; 83357; 83381; 83385; 83429; 83447; 83453; 83491; 83497; 83511; 83525; 83529; 83549; 83571;
  83599; 83601; 83617; 83659; 83669; 83679; 83689; 83697; 83709; 83721; 83735; 83745; 83757; 83787; 83807; 83837;
  83859; 83861; 83865; 83887; 83895; 83907; 83913; 83947; 83961; 83977; 83985; 83997; 84007; 84021; 84031; 84033;
  84039; 84057; 84097; 84115; 84137; 84163; 84183; 84187; 84213; 84223; 84235; 84245; 84249; 84271; 84273; 84291;
  84317; 84327; 84361; 84367; 84447; 84453; 84475; 84499; 84501; 84515; 84527; 84583; 84589; 84597; 84613; 84617;
  84625; 84647; 84653; 84661; 84671; 84683; 84703; 84713; 84727; 84731; 84739; 84751; 84769; 84813; 84835; 84861;
  84871; 84885; 84919; 84923; 84937; 84943; 84955; 84957; 84979; 84985; 84991; 85005; 85017; 85023; 85095; 85107;
  85123; 85147; 85159; 85177; 85191; 85195; 85239; 85245; 85263; 85293; 85305; 85313; 85325; 85331; 85343; 85353;
  85361; 85371; 85387; 85389; 85425; 85457; 85479; 85483; 85491; 85527; 85579; 85615; 85623; 85633; 85639; 85667;
  85679; 85681; 85693; 85723; 85739; 85749; 85759; 85779; 85797; 85809; 85829; 85833; 85839; 85847; 85851; 85857;
  85867; 85869; 85903; 85921; 85959; 85965; 85987; 86011; 86013; 86019; 86031; 86049; 86055; 86059; 86105; 86145;
  86175; 86181; 86199; 86203; 86217; 86231; 86251; 86271; 86279; 86309; 86345; 86365; 86381; 86389; 86403; 86409;
  86433; 86439; 86451; 86453; 86477; 86483; 86495; 86539; 86559; 86575; 86597; 86621; 86625; 86635; 86665; 86679;
  86707; 86713; 86719; 86727; 86741; 86775; 86779; 86787; 86793; 86813; 86823; 86883; 86895; 86903; 86943; 86949;
  86973; 86981; 86993; 87003; 87009; 87021; 87029; 87053; 87059; 87071; 87089; 87127; 87131; 87167; 87171; 87173;
  87185; 87191; 87221; 87225; 87243; 87245; 87253; 87263; 87335; 87341; 87371; 87443; 87471; 87473; 87479; 87503;
  87515; 87533; 87541; 87567; 87575; 87585; 87595; 87597; 87623; 87635; 87637; 87687; 87693; 87701; 87711; 87721;
  87727; 87749; 87759; 87761; 87797; 87809; 87821; 87849; 87889; 87899; 87911; 87939; 87965; 87979; 88007; 88019;
  88025; 88071; 88101; 88125; 88145; 88155; 88171; 88195; 88201; 88225; 88243; 88275; 88281; 88287; 88297; 88303;
  88315; 88317; 88363; 88373; 88377; 88395; 88397; 88419; 88425; 88449; 88461; 88467; 88479; 88483; 88489; 88503;
  88527; 88535; 88541; 88555; 88575; 88585; 88591; 88593; 88641; 88651; 88661; 88687; 88689; 88701; 88729; 88741;
  88759; 88791; 88795; 88807; 88813; 88819; 88845; 88853; 88891; 88901; 88911; 88919; 88929; 88953; 89003; 89005;
  89031; 89055; 89065; 89093; 89133; 89139; 89163; 89217; 89227; 89235; 89241; 89251; 89253; 89289; 89297; 89309;
  89323; 89345; 89351; 89357; 89365; 89375; 89393; 89399; 89403; 89423; 89451; 89471; 89489; 89515; 89543; 89561;
  89567; 89585; 89597; 89601; 89611; 89619; 89625; 89637; 89641; 89655; 89687; 89703; 89715; 89731; 89771; 89773;
  89793; 89803; 89813; 89829; 89899; 89919; 89921; 89927; 89941; 89997; 90005; 90019; 90045; 90065; 90077; 90099;
  90105; 90121; 90135; 90145; 90155; 90169; 90189; 90197; 90211; 90213; 90231; 90271; 90275; 90289; 90333; 90379;
  90393; 90423; 90427; 90429; 90435; 90459; 90465; 90471; 90485; 90495; 90541; 90549; 90567; 90579; 90581; 90607;
  90621; 90625; 90643; 90673; 90683; 90693; 90697; 90703; 90717; 90721; 90731; 90739; 90751; 90767; 90775; 90781;
  90795; 90803; 90837; 90841; 90857; 90877; 90919; 90925; 90931; 90933; 90957; 90963; 90981; 90985; 91003; 91009;
  91019; 91043; 91057; 91117; 91125; 91143; 91149; 91167; 91171; 91195; 91203; 91205; 91217; 91229; 91287; 91291;
  91307; 91321; 91369; 91383; 91395; 91407; 91409; 91419; 91435; 91445; 91449; 91455; 91463; 91467; 91493; 91511;
  91521; 91533; 91539; 91557; 91579; 91601; 91611; 91623; 91635; 91651; 91653; 91671; 91687; 91705; 91723; 91733;
  91737; 91753; 91761; 91777; 91817; 91835; 91863; 91905; 91911; 91925; 91929; 91951; 91953; 91971; 91977; 91983;
  92011; 92025; 92065; 92095; 92107; 92121; 92127; 92133; 92151; 92161; 92171; 92191; 92201; 92219; 92233; 92277;
  92287; 92303; 92317; 92333; 92345; 92359; 92363; 92371; 92373; 92439; 92443; 92467; 92487; 92501; 92517; 92521;
  92529; 92557; 92575; 92591; 92603; 92613; 92623; 92625; 92631; 92675; 92677; 92699; 92717; 92735; 92737; 92755;
  92777; 92783; 92791; 92811; 92825; 92835; 92837; 92861; 92867; 92873; 92879; 92903; 92917; 92929; 92941; 92963;
  92969; 93015; 93019; 93025; 93035; 93071; 93085; 93099; 93107; 93109; 93127; 93167; 93179; 93187; 93213; 93241;
  93249; 93295; 93303; 93313; 93331; 93349; 93367; 93385; 93415; 93427; 93461; 93489; 93499; 93507; 93519; 93561;
  93577; 93597; 93619; 93625; 93631; 93633; 93639; 93669; 93681; 93721; 93743; 93757; 93777; 93789; 93799; 93823;
  93829; 93841; 93847; 93851; 93877; 93899; 93913; 93935; 93949; 93967; 93969; 93985; 93995; 94023; 94037; 94065;
  94081; 94087; 94093; 94101; 94135; 94153; 94171; 94189; 94207; 94245; 94249; 94295; 94299; 94305; 94315; 94317;
  94339; 94351; 94365; 94379; 94387; 94393; 94425; 94461; 94467; 94481; 94487; 94503; 94515; 94553; 94559; 94575;
  94583; 94587; 94593; 94613; 94641; 94653; 94659; 94685; 94713; 94725; 94735; 94747; 94749; 94753; 94765; 94815;
  94819; 94833; 94855; 94859; 94861; 94873; 94883; 94889; 94895; 94927; 94941; 94945; 94951; 95017; 95037; 95043;
  95045; 95073; 95079; 95085; 95091; 95119; 95121; 95131; 95149; 95161; 95167; 95189; 95217; 95235; 95249; 95289;
  95303; 95309; 95337; 95343; 95345; 95357; 95361; 95367; 95373; 95381; 95409; 95415; 95419; 95429; 95447; 95467;
  95469; 95489; 95507; 95509; 95513; 95523; 95525; 95561; 95581; 95619; 95639; 95643; 95649; 95655; 95667; 95691;
  95741; 95751; 95757; 95769; 95803; 95805; 95811; 95831; 95841; 95847; 95861; 95881; 95901; 95905; 95915; 95943;
  95967; 95985; 96017; 96027; 96029; 96053; 96063; 96065; 96075; 96129; 96139; 96147; 96165; 96169; 96183; 96195;
  96245; 96265; 96273; 96309; 96319; 96339; 96351; 96361; 96375; 96409; 96451; 96457; 96463; 96465; 96475; 96477;
  96487; 96491; 96493; 96513; 96519; 96525; 96627; 96633; 96639; 96657; 96663; 96669; 96683; 96697; 96745; 96751;
  96753; 96769; 96799; 96855; 96859; 96865; 96895; 96913; 96935; 96939; 96941; 96953; 96995; 96997; 97007; 97009;
  97015; 97029; 97053; 97075; 97081; 97123; 97147; 97173; 97193; 97201; 97211; 97213; 97249; 97255; 97259; 97267;
  97269; 97287; 97305; 97327; 97335; 97359; 97373; 97407; 97413; 97441; 97461; 97471; 97473; 97483; 97491; 97539;
  97569; 97587; 97607; 97625; 97635; 97659; 97671; 97701; 97705; 97713; 97733; 97751; 97755; 97821; 97831; 97835;
  97845; 97857; 97867; 97881; 97893; 97931; 97933; 97939; 97967; 97979; 97987; 97989; 98001; 98007; 98017; 98023;
  98029; 98047; 98059; 98061; 98095; 98097; 98117; 98141; 98163; 98165; 98209; 98227; 98247; 98259; 98275; 98277;
  98299; 98323; 98325; 98377; 98397; 98413; 98437; 98465; 98471; 98477; 98509; 98551; 98563; 98565; 98583; 98589;
  98603; 98637; 98671; 98685; 98709; 98723; 98725; 98743; 98779; 98785; 98809; 98833; 98843; 98845; 98855; 98869;
  98881; 98901; 98917; 98935; 98955; 98963; 98975; 99003; 99011; 99017; 99025; 99047; 99059; 99061; 99071; 99079;
  99093; 99113; 99131; 99159; 99165; 99169; 99179; 99193; 99205; 99209; 99243; 99251; 99257; 99263; 99265; 99285;
  99295; 99313; 99319; 99345; 99355; 99379; 99405; 99417; 99433; 99439; 99447; 99475; 99503; 99505; 99511; 99535;
  99537; 99549; 99577; 99597; 99603; 99619; 99621; 99625; 99639; 99653; 99663; 99681; 99693; 99705; 99711; 99717;
  99741; 99783; 99789; 99801; 99807; 99817; 99835; 99851; 99865; 99877; 99895; 99901; 99927; 99971; 100011; 100013;
  100033; 100057; 100081; 100087; 100093; 100111; 100125; 100129; 100147; 100161; 100179; 100231; 100271; 100273; 100293; 100317;
  100339; 100367; 100403; 100429; 100447; 100451; 100465; 100487; 100517; 100529; 100549; 100553; 100567; 100577; 100587; 100627;
  100655; 100657; 100675; 100681; 100701; 100729; 100735; 100741; 100763; 100775; 100781; 100811; 100825; 100847; 100859; 100877;
  100905; 100933; 100943; 100961; 100967; 100971; 100979; 100981; 101021; 101037; 101043; 101057; 101091; 101093; 101123; 101173;
  101177; 101191; 101195; 101209; 101219; 101239; 101249; 101261; 101279; 101303; 101329; 101339; 101365; 101389; 101411; 101425;
  101503; 101521; 101527; 101533; 101537; 101561; 101579; 101603; 101615; 101627; 101637; 101641; 101659; 101671; 101685; 101697;
  101737; 101755; 101757; 101781; 101795; 101797; 101815; 101821; 101833; 101839; 101863; 101893; 101897; 101915; 101921; 101951;
  101959; 101987; 101993; 102007; 102023; 102051; 102057; 102065; 102075; 102077; 102095; 102155; 102169; 102175; 102191; 102225;
  102231; 102235; 102241; 102259; 102281; 102299; 102329; 102347; 102355; 102361; 102373; 102383; 102397; 102403; 102415; 102427;
  102439; 102471; 102475; 102485; 102513; 102541; 102565; 102575; 102583; 102615; 102631; 102645; 102667; 102687; 102691; 102715;
  102723; 102735; 102737; 102743; 102749; 102763; 102777; 102811; 102817; 102827; 102841; 102867; 102885; 102889; 102897; 102937;
  102949; 102961; 102979; 102993; 103021; 103029; 103033; 103043; 103049; 103057; 103079; 103103; 103135; 103165; 103173; 103183;
  103191; 103207; 103221; 103243; 103245; 103253; 103291; 103327; 103337; 103345; 103365; 103375; 103387; 103389; 103403; 103411;
  103423; 103425; 103479; 103483; 103485; 103497; 103511; 103539; 103561; 103569; 103591; 103595; 103597; 103617; 103637; 103663;
  103685; 103689; 103703; 103707; 103723; 103737; 103743; 103751; 103775; 103781; 103793; 103803; 103815; 103819; 103821; 103849;
  103875; 103889; 103923; 103941; 103981; 103989; 104031; 104041; 104055; 104061; 104065; 104119; 104155; 104167; 104171; 104185;
  104199; 104205; 104211; 104213; 104223; 104247; 104289; 104319; 104343; 104353; 104359; 104363; 104377; 104405; 104419; 104425;
  104445; 104459; 104483; 104495; 104497; 104515; 104529; 104565; 104591; 104633; 104647; 104681; 104699; 104719; 104733; 104743;
  104747; 104749; 104769; 104775; 104793; 104829; 104843; 104845; 104873; 104893; 104899; 104905; 104913; 104935; 104959; 104975;
  104989; 105013; 105071; 105089; 105101; 105109; 105123; 105143; 105147; 105175; 105223; 105237; 105265; 105271; 105307; 105309;
  105325; 105337; 105343; 105347; 105371; 105377; 105389; 105419; 105439; 105455; 105469; 105481; 105495; 105515; 105535; 105555;
  105573; 105577; 105613; 105635; 105649; 105669; 105697; 105707; 105715; 105717; 105729; 105753; 105769; 105775; 105789; 105797;
  105801; 105855; 105871; 105885; 105913; 105931; 105955; 105967; 105969; 105975; 105981; 105991; 106063; 106071; 106075; 106081;
  106093; 106099; 106105; 106115; 106129; 106151; 106165; 106169; 106183; 106187; 106207; 106223; 106225; 106235; 106245; 106257;
  106263; 106273; 106317; 106323; 106329; 106341; 106351; 106359; 106363; 106387; 106393; 106405; 106423; 106429; 106435; 106441;
  106485; 106513; 106529; 106541; 106547; 106561; 106585; 106601; 106607; 106619; 106645; 106691; 106703; 106715; 106741; 106745;
  106759; 106765; 106771; 106783; 106789; 106793; 106801; 106807; 106821; 106885; 106903; 106923; 106969; 106979; 107005; 107067;
  107125; 107139; 107145; 107153; 107165; 107175; 107181; 107199; 107201; 107207; 107261; 107291; 107297; 107307; 107315; 107335;
  107347; 107359; 107365; 107369; 107383; 107387; 107403; 107405; 107441; 107471; 107485; 107489; 107513; 107539; 107545; 107593;
  107599; 107601; 107623; 107637; 107641; 107653; 107701; 107711; 107713; 107723; 107725; 107749; 107753; 107767; 107773; 107781;
  107799; 107815; 107819; 107829; 107853; 107861; 107865; 107889; 107905; 107923; 107939; 107953; 107959; 107963; 107973; 107983;
  107997; 108077; 108089; 108095; 108107; 108117; 108131; 108133; 108143; 108145; 108157; 108185; 108197; 108215; 108229; 108257;
  108269; 108275; 108277; 108319; 108323; 108337; 108375; 108381; 108391; 108403; 108439; 108467; 108473; 108479; 108493; 108515;
  108521; 108545; 108557; 108565; 108593; 108603; 108623; 108631; 108641; 108659; 108711; 108757; 108767; 108783; 108797; 108803;
  108823; 108827; 108851; 108853; 108875; 108877; 108883; 108939; 108953; 108975; 108977; 109001; 109031; 109037; 109045; 109065;
  109071; 109083; 109085; 109089; 109133; 109139; 109175; 109179; 109197; 109209; 109215; 109245; 109251; 109265; 109271; 109277;
  109301; 109323; 109331; 109337; 109343; 109373; 109393; 109399; 109429; 109443; 109455; 109479; 109485; 109493; 109503; 109523;
  109525; 109529; 109551; 109597; 109607; 109621; 109639; 109663; 109673; 109697; 109709; 109717; 109731; 109745; 109775; 109783;
  109843; 109871; 109873; 109903; 109915; 109931; 109941; 109945; 109955; 109969; 109991; 109997; 110017; 110029; 110047; 110053;
  110075; 110101; 110115; 110141; 110159; 110173; 110177; 110195; 110197; 110223; 110231; 110235; 110271; 110291; 110303; 110309;
  110313; 110321; 110331; 110353; 110389; 110393; 110401; 110437; 110483; 110489; 110511; 110525; 110533; 110545; 110551; 110561;
  110591; 110611; 110633; 110651; 110659; 110673; 110683; 110719; 110723; 110747; 110749; 110763; 110765; 110777; 110791; 110809;
  110819; 110831; 110857; 110891; 110893; 110925; 110931; 110943; 110947; 110961; 110967; 110987; 111001; 111023; 111035; 111055;
  111069; 111073; 111079; 111109; 111113; 111121; 111131; 111181; 111193; 111205; 111223; 111227; 111239; 111281; 111287; 111305;
  111313; 111323; 111339; 111341; 111379; 111395; 111429; 111433; 111439; 111453; 111487; 111503; 111511; 111517; 111539; 111559;
  111587; 111593; 111601; 111631; 111643; 111645; 111669; 111673; 111701; 111727; 111745; 111769; 111805; 111817; 111859; 111885;
  111921; 111931; 111979; 112023; 112045; 112051; 112057; 112063; 112071; 112085; 112099; 112101; 112105; 112135; 112139; 112153;
  112165; 112177; 112189; 112207; 112249; 112255; 112273; 112283; 112309; 112319; 112339; 112357; 112367; 112375; 112387; 112399;
  112401; 112423; 112461; 112469; 112489; 112495; 112509; 112531; 112533; 112547; 112549; 112553; 112599; 112603; 112609; 112621;
  112633; 112667; 112673; 112683; 112685; 112717; 112723; 112735; 112745; 112779; 112781; 112809; 112855; 112861; 112871; 112889;
  112897; 112909; 112915; 112927; 112937; 112943; 112969; 112987; 113005; 113013; 113027; 113041; 113077; 113081; 113095; 113137;
  113143; 113159; 113173; 113201; 113221; 113239; 113245; 113283; 113285; 113303; 113313; 113331; 113337; 113357; 113379; 113405;
  113413; 113435; 113447; 113453; 113471; 113483; 113485; 113519; 113537; 113573; 113585; 113597; 113615; 113671; 113675; 113689;
  113705; 113733; 113761; 113767; 113797; 113801; 113819; 113835; 113857; 113863; 113905; 113911; 113929; 113949; 113983; 114003;
  114019; 114021; 114045; 114059; 114061; 114067; 114089; 114095; 114109; 114135; 114163; 114191; 114199; 114209; 114227; 114229;
  114233; 114271; 114275; 114281; 114287; 114305; 114325; 114341; 114377; 114411; 114419; 114425; 114431; 114457; 114467; 114469;
  114479; 114481; 114487; 114499; 114511; 114513; 114535; 114539; 114553; 114559; 114565; 114599; 114605; 114625; 114655; 114661;
  114685; 114711; 114721; 114727; 114741; 114765; 114793; 114801; 114811; 114813; 114823; 114847; 114865; 114875; 114889; 114895;
  114907; 114909; 114931; 114951; 114955; 114965; 114969; 114999; 115005; 115025; 115061; 115065; 115071; 115075; 115077; 115123;
  115149; 115155; 115161; 115167; 115177; 115207; 115231; 115235; 115249; 115279; 115281; 115293; 115303; 115333; 115355; 115357;
  115393; 115413; 115423; 115427; 115429; 115465; 115521; 115539; 115569; 115581; 115585; 115615; 115621; 115639; 115651; 115657;
  115671; 115681; 115693; 115713; 115731; 115749; 115753; 115781; 115805; 115819; 115833; 115839; 115857; 115879; 115925; 115939;
  115945; 115985; 116007; 116013; 116019; 116033; 116045; 116051; 116057; 116087; 116093; 116107; 116121; 116131; 116145; 116151;
  116177; 116205; 116213; 116233; 116251; 116269; 116275; 116281; 116325; 116347; 116363; 116373; 116399; 116445; 116449; 116467;
  116481; 116493; 116521; 116539; 116547; 116571; 116583; 116589; 116597; 116623; 116635; 116653; 116661; 116671; 116693; 116709;
  116733; 116743; 116755; 116757; 116761; 116773; 116791; 116839; 116843; 116857; 116867; 116873; 116887; 116927; 116941; 116959;
  116975; 116983; 116989; 117009; 117021; 117043; 117063; 117067; 117077; 117087; 117091; 117097; 117103; 117133; 117139; 117141;
  117161; 117169; 117179; 117207; 117211; 117251; 117265; 117291; 117313; 117319; 117331; 117337; 117349; 117387; 117395; 117413;
  117417; 117423; 117431; 117437; 117473; 117479; 117491; 117525; 117529; 117535; 117539; 117585; 117597; 117611; 117637; 117641;
  117675; 117695; 117715; 117737; 117755; 117799; 117825; 117835; 117861; 117871; 117883; 117895; 117913; 117923; 117925; 117943;
  117981; 117997; 118005; 118015; 118029; 118053; 118071; 118095; 118103; 118137; 118173; 118215; 118219; 118229; 118239; 118249;
  118255; 118257; 118267; 118291; 118331; 118333; 118345; 118359; 118381; 118399; 118403; 118409; 118429; 118439; 118445; 118453;
  118463; 118483; 118511; 118513; 118525; 118533; 118537; 118555; 118561; 118571; 118579; 118591; 118605; 118627; 118629; 118717;
  118753; 118791; 118797; 118809; 118831; 118899; 118921; 118927; 118975; 118989; 118997; 119013; 119017; 119035; 119043; 119055;
  119069; 119083; 119085; 119097; 119115; 119123; 119153; 119169; 119187; 119199; 119237; 119255; 119283; 119313; 119329; 119335;
  119373; 119381; 119395; 119407; 119437; 119445; 119455; 119483; 119503; 119521; 119531; 119533; 119553; 119563; 119599; 119613;
  119643; 119645; 119679; 119689; 119707; 119713; 119743; 119745; 119755; 119763; 119769; 119785; 119791; 119837; 119851; 119871;
  119873; 119891; 119893; 119903; 119921; 119961; 119985; 119995; 119997; 120003; 120029; 120039; 120051; 120053; 120057; 120083;
  120095; 120111; 120137; 120151; 120167; 120191; 120195; 120201; 120209; 120235; 120237; 120245; 120255; 120267; 120291; 120293;
  120303; 120305; 120311; 120321; 120339; 120341; 120355; 120357; 120379; 120413; 120427; 120465; 120491; 120499; 120501; 120525;
  120537; 120573; 120599; 120615; 120621; 120629; 120665; 120671; 120699; 120701; 120711; 120753; 120759; 120777; 120785; 120795;
  120811; 120847; 120871; 120889; 120915; 120957; 120985; 121015; 121027; 121029; 121041; 121077; 121087; 121095; 121099; 121101;
  121119; 121137; 121155; 121157; 121167; 121191; 121205; 121267; 121299; 121335; 121339; 121363; 121365; 121369; 121393; 121399;
  121411; 121417; 121437; 121447; 121453; 121477; 121499; 121511; 121523; 121525; 121547; 121555; 121561; 121583; 121603; 121615;
  121653; 121657; 121671; 121675; 121685; 121699; 121735; 121763; 121765; 121797; 121815; 121821; 121837; 121843; 121849; 121869;
  121881; 121903; 121917; 121923; 121925; 121965; 121983; 121987; 122001; 122011; 122027; 122029; 122041; 122067; 122083; 122085;
  122127; 122139; 122141; 122145; 122169; 122175; 122183; 122189; 122217; 122225; 122251; 122261; 122265; 122275; 122319; 122337;
  122355; 122371; 122373; 122407; 122443; 122445; 122469; 122473; 122491; 122497; 122517; 122533; 122543; 122557; 122563; 122575;
  122577; 122587; 122625; 122665; 122679; 122683; 122693; 122697; 122711; 122739; 122755; 122757; 122767; 122769; 122785; 122829;
  122863; 122899; 122901; 122915; 122935; 122949; 122953; 122971; 122977; 123007; 123037; 123051; 123059; 123061; 123093; 123097;
  123103; 123113; 123131; 123159; 123187; 123213; 123237; 123255; 123283; 123301; 123319; 123331; 123345; 123355; 123373; 123401;
  123415; 123421; 123437; 123443; 123449; 123487; 123533; 123589; 123627; 123641; 123649; 123679; 123685; 123695; 123717; 123729;
  123745; 123763; 123791; 123803; 123805; 123819; 123821; 123841; 123847; 123877; 123895; 123921; 123947; 123961; 123979; 124009;
  124015; 124017; 124029; 124039; 124045; 124067; 124111; 124123; 124139; 124147; 124161; 124179; 124215; 124227; 124263; 124267;
  124269; 124277; 124287; 124315; 124341; 124351; 124365; 124377; 124383; 124389; 124411; 124423; 124427; 124463; 124465; 124477;
  124483; 124495; 124523; 124549; 124553; 124567; 124573; 124577; 124589; 124601; 124629; 124643; 124657; 124663; 124681; 124699;
  124717; 124725; 124735; 124737; 124747; 124757; 124771; 124783; 124791; 124801; 124811; 124819; 124831; 124837; 124847; 124859;
  124897; 124951; 124979; 125023; 125039; 125047; 125053; 125057; 125077; 125081; 125093; 125135; 125137; 125165; 125185; 125219;
  125221; 125225; 125243; 125271; 125291; 125299; 125311; 125327; 125335; 125389; 125411; 125423; 125425; 125435; 125437; 125459;
  125465; 125471; 125481; 125507; 125521; 125537; 125577; 125585; 125597; 125607; 125625; 125633; 125639; 125653; 125669; 125679;
  125687; 125693; 125701; 125723; 125729; 125739; 125741; 125761; 125781; 125819; 125855; 125865; 125873; 125891; 125893; 125903;
  125931; 125963; 125999; 126001; 126019; 126031; 126043; 126045; 126055; 126061; 126073; 126103; 126125; 126131; 126133; 126155;
  126169; 126181; 126185; 126203; 126211; 126225; 126237; 126247; 126265; 126303; 126319; 126337; 126357; 126367; 126377; 126395;
  126415; 126427; 126451; 126491; 126503; 126507; 126517; 126547; 126563; 126577; 126617; 126639; 126647; 126653; 126683; 126695;
  126701; 126707; 126733; 126755; 126767; 126781; 126807; 126823; 126835; 126841; 126853; 126871; 126881; 126891; 126893; 126899;
  126905; 126913; 126943; 126947; 126967; 126985; 127021; 127033; 127053; 127061; 127071; 127077; 127081; 127111; 127125; 127151;
  127165; 127185; 127225; 127243; 127251; 127287; 127291; 127301; 127319; 127329; 127349; 127369; 127375; 127399; 127403; 127423;
  127435; 127443; 127459; 127495; 127501; 127509; 127529; 127557; 127561; 127615; 127619; 127639; 127649; 127659; 127673; 127701;
  127711; 127729; 127767; 127789; 127797; 127833; 127849; 127855; 127873; 127879; 127891; 127893; 127897; 127907; 127919; 127951;
  127993; 128031; 128035; 128047; 128059; 128061; 128081; 128087; 128107; 128137; 128143; 128157; 128161; 128193; 128211; 128233;
  128241; 128251; 128273; 128283; 128285; 128295; 128313; 128339; 128357; 128367; 128369; 128395; 128453; 128471; 128511; 128527;
  128545; 128551; 128555; 128565; 128569; 128597; 128647; 128659; 128671; 128677; 128709; 128733; 128747; 128755; 128761; 128775;
  128789; 128805; 128835; 128847; 128849; 128871; 128875; 128885; 128899; 128913; 128947; 128949; 128959; 128973; 129001; 129007;
  129019; 129025; 129061; 129085; 129097; 129111; 129139; 129197; 129215; 129227; 129241; 129251; 129265; 129285; 129337; 129343;
  129357; 129363; 129393; 129399; 129403; 129467; 129487; 129489; 129501; 129511; 129525; 129559; 129569; 129575; 129599; 129601;
  129611; 129625; 129661; 129675; 129683; 129685; 129701; 129713; 129755; 129767; 129771; 129793; 129823; 129865; 129871; 129879;
  129883; 129901; 129919; 129923; 129925; 129943; 129949; 129959; 129963; 129991; 129995; 129997; 130015; 130025; 130033; 130063;
  130065; 130075; 130093; 130119; 130133; 130137; 130147; 130161; 130167; 130173; 130189; 130207; 130217; 130237; 130249; 130267;
  130273; 130279; 130285; 130311; 130317; 130339; 130345; 130351; 130365; 130371; 130383; 130391; 130419; 130421; 130437; 130455;
  130459; 130483; 130495; 130497; 130515; 130537; 130555; 130581; 130597; 130609; 130615; 130633; 130663; 130681; 130691; 130705;
  130721; 130753; 130789; 130793; 130811; 130813; 130821; 130867; 130869; 130873; 130911; 130929; 130963; 130981; 130993; 131051;
  131053].
Definition irreducible_polynomials : list (list N) :=
  [[]; irreducible_polynomials_degree_01;
   irreducible_polynomials_degree_02;
   irreducible_polynomials_degree_03;
   irreducible_polynomials_degree_04;
   irreducible_polynomials_degree_05;
   irreducible_polynomials_degree_06;
   irreducible_polynomials_degree_07;
   irreducible_polynomials_degree_08;
   irreducible_polynomials_degree_09;
   irreducible_polynomials_degree_10;
   irreducible_polynomials_degree_11;
   irreducible_polynomials_degree_12;
   irreducible_polynomials_degree_13;
   irreducible_polynomials_degree_14;
   irreducible_polynomials_degree_15;
   irreducible_polynomials_degree_16].
