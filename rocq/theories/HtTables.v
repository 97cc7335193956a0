(** The code tables of the HT block coder, copied entry by entry from the
    C++ sources. *)
From Verif Require Import Base.

(** source/core/coding/enc_CxtVLC_tables.hpp:32-190 [enc_CxtVLC_table0] *)
Definition enc_CxtVLC_table0 : list Z := [
  0; 0; 0; 0; 0; 0; 0; 0; 0; 0; 0; 0; 0; 0; 0; 0; 832; 8177; 0; 0; 0; 0; 0; 0; 0; 0; 0; 0; 0; 0;
  0; 0; 48; 0; 16370; 0; 0; 0; 0; 0; 0; 0; 0; 0; 0; 0; 0; 0; 2256; 4083; 12274; 12274; 0; 0; 0;
  0; 0; 0; 0; 0; 0; 0; 0; 0; 304; 0; 0; 0; 2532; 0; 0; 0; 0; 0; 0; 0; 0; 0; 0; 0; 1872; 2037; 0;
  0; 4580; 4580; 0; 0; 0; 0; 0; 0; 0; 0; 0; 0; 480; 0; 14320; 0; 14320; 0; 14320; 0; 0; 0; 0; 0;
  0; 0; 0; 0; 6128; 1762; 10226; 10226; 1762; 1762; 10226; 10226; 0; 0; 0; 0; 0; 0; 0; 0; 560; 0;
  0; 0; 0; 0; 0; 0; 7912; 0; 0; 0; 0; 0; 0; 0; 3808; 5856; 0; 0; 0; 0; 0; 0; 5856; 5856; 0; 0; 0;
  0; 0; 0; 208; 0; 15354; 0; 0; 0; 0; 0; 6888; 0; 6888; 0; 0; 0; 0; 0; 7152; 11249; 1249; 11249;
  0; 0; 0; 0; 1249; 11249; 1249; 11249; 0; 0; 0; 0; 3920; 0; 0; 0; 2796; 0; 0; 0; 4844; 0; 0; 0;
  3068; 0; 0; 0; 13296; 5105; 0; 0; 9205; 5105; 0; 0; 1021; 5105; 0; 0; 9205; 5105; 0; 0; 15856;
  0; 9714; 0; 7678; 0; 9714; 0; 746; 0; 9714; 0; 746; 0; 9714; 0; 11760; 6655; 3310; 3310; 5359;
  1535; 14846; 14846; 7407; 3577; 13819; 3577; 5631; 3577; 13819; 3577; 32; 0; 0; 0; 0; 0; 0; 0;
  0; 0; 0; 0; 0; 0; 0; 0; 1856; 4081; 0; 0; 0; 0; 0; 0; 0; 0; 0; 0; 0; 0; 0; 0; 832; 0; 7650; 0;
  0; 0; 0; 0; 0; 0; 0; 0; 0; 0; 0; 0; 3552; 7904; 7904; 7904; 0; 0; 0; 0; 0; 0; 0; 0; 0; 0; 0; 0;
  1344; 0; 0; 0; 5604; 0; 0; 0; 0; 0; 0; 0; 0; 0; 0; 0; 1504; 16373; 0; 0; 6628; 6628; 0; 0; 0;
  0; 0; 0; 0; 0; 0; 0; 2528; 0; 4576; 0; 4576; 0; 4576; 0; 0; 0; 0; 0; 0; 0; 0; 0; 8176; 482;
  12274; 12274; 482; 482; 12274; 12274; 0; 0; 0; 0; 0; 0; 0; 0; 320; 0; 0; 0; 0; 0; 0; 0; 3816;
  0; 0; 0; 0; 0; 0; 0; 5856; 1760; 0; 0; 0; 0; 0; 0; 1760; 1760; 0; 0; 0; 0; 0; 0; 6880; 0;
  14330; 0; 0; 0; 0; 0; 2792; 0; 2792; 0; 0; 0; 0; 0; 6128; 10225; 2273; 10225; 0; 0; 0; 0; 2273;
  10225; 2273; 10225; 0; 0; 0; 0; 208; 0; 0; 0; 748; 0; 0; 0; 4840; 0; 0; 0; 4840; 0; 0; 0; 2032;
  3057; 0; 0; 7397; 3057; 0; 0; 15357; 3057; 0; 0; 7397; 3057; 0; 0; 7152; 0; 11250; 0; 13310; 0;
  11250; 0; 3306; 0; 11250; 0; 3306; 0; 11250; 0; 1008; 9215; 1258; 1258; 6382; 6382; 1258; 1258;
  5355; 5112; 5112; 5112; 5355; 5112; 5112; 5112; 32; 0; 0; 0; 0; 0; 0; 0; 0; 0; 0; 0; 0; 0; 0;
  0; 1856; 3553; 0; 0; 0; 0; 0; 0; 0; 0; 0; 0; 0; 0; 0; 0; 832; 0; 8178; 0; 0; 0; 0; 0; 0; 0; 0;
  0; 0; 0; 0; 0; 5600; 6625; 16371; 6625; 0; 0; 0; 0; 0; 0; 0; 0; 0; 0; 0; 0; 1344; 0; 0; 0;
  1508; 0; 0; 0; 0; 0; 0; 0; 0; 0; 0; 0; 208; 2533; 0; 0; 4581; 6133; 0; 0; 0; 0; 0; 0; 0; 0; 0;
  0; 480; 0; 12272; 0; 12272; 0; 12272; 0; 0; 0; 0; 0; 0; 0; 0; 0; 4080; 2275; 14322; 14322;
  7159; 2275; 14322; 14322; 0; 0; 0; 0; 0; 0; 0; 0; 320; 0; 0; 0; 0; 0; 0; 0; 10232; 0; 0; 0; 0;
  0; 0; 0; 7904; 3808; 0; 0; 0; 0; 0; 0; 3808; 3808; 0; 0; 0; 0; 0; 0; 5856; 0; 1760; 0; 0; 0; 0;
  0; 1760; 0; 1760; 0; 0; 0; 0; 0; 2032; 6882; 15346; 15346; 0; 0; 0; 0; 6882; 6882; 15346;
  15346; 0; 0; 0; 0; 2784; 0; 0; 0; 4836; 0; 0; 0; 11260; 0; 0; 0; 4836; 0; 0; 0; 3056; 13309; 0;
  0; 7404; 7404; 0; 0; 744; 744; 0; 0; 744; 744; 0; 0; 5104; 0; 15858; 0; 3298; 0; 15858; 0;
  3298; 0; 15858; 0; 3298; 0; 15858; 0; 9200; 5359; 1011; 1249; 6375; 1249; 1011; 1249; 7679;
  1249; 1011; 1249; 6375; 1249; 1011; 1249; 48; 0; 0; 0; 0; 0; 0; 0; 0; 0; 0; 0; 0; 0; 0; 0; 576;
  7905; 0; 0; 0; 0; 0; 0; 0; 0; 0; 0; 0; 0; 0; 0; 1616; 0; 10226; 0; 0; 0; 0; 0; 0; 0; 0; 0; 0;
  0; 0; 0; 3808; 737; 16371; 737; 0; 0; 0; 0; 0; 0; 0; 0; 0; 0; 0; 0; 2896; 0; 0; 0; 5860; 0; 0;
  0; 0; 0; 0; 0; 0; 0; 0; 0; 848; 1765; 0; 0; 6885; 3413; 0; 0; 0; 0; 0; 0; 0; 0; 0; 0; 8176; 0;
  4086; 0; 12276; 0; 12276; 0; 0; 0; 0; 0; 0; 0; 0; 0; 14320; 4839; 2039; 15351; 2790; 2790;
  6134; 6134; 0; 0; 0; 0; 0; 0; 0; 0; 1360; 0; 0; 0; 0; 0; 0; 0; 1016; 0; 0; 0; 0; 0; 0; 0; 7392;
  7153; 0; 0; 0; 0; 0; 0; 11257; 7153; 0; 0; 0; 0; 0; 0; 3296; 0; 3066; 0; 0; 0; 0; 0; 5352; 0;
  5352; 0; 0; 0; 0; 0; 13296; 5115; 1251; 9201; 0; 0; 0; 0; 15867; 9201; 1251; 9201; 0; 0; 0; 0;
  6368; 0; 0; 0; 2276; 0; 0; 0; 7676; 0; 0; 0; 2276; 0; 0; 0; 11760; 4333; 0; 0; 237; 5629; 0; 0;
  9725; 3577; 0; 0; 13821; 3577; 0; 0; 1520; 0; 6654; 0; 14846; 0; 2548; 0; 8044; 0; 8044; 0;
  2548; 0; 2548; 0; 10736; 3679; 5999; 8703; 351; 3951; 4606; 4606; 2399; 12795; 1898; 1898; 511;
  12795; 1898; 1898; 32; 0; 0; 0; 0; 0; 0; 0; 0; 0; 0; 0; 0; 0; 0; 0; 1856; 8177; 0; 0; 0; 0; 0;
  0; 0; 0; 0; 0; 0; 0; 0; 0; 832; 0; 3554; 0; 0; 0; 0; 0; 0; 0; 0; 0; 0; 0; 0; 0; 5600; 16371;
  7906; 7906; 0; 0; 0; 0; 0; 0; 0; 0; 0; 0; 0; 0; 1344; 0; 0; 0; 12276; 0; 0; 0; 0; 0; 0; 0; 0;
  0; 0; 0; 1504; 6624; 0; 0; 6624; 6624; 0; 0; 0; 0; 0; 0; 0; 0; 0; 0; 2528; 0; 4576; 0; 4576; 0;
  4576; 0; 0; 0; 0; 0; 0; 0; 0; 0; 4080; 484; 484; 484; 14324; 14324; 14324; 14324; 0; 0; 0; 0;
  0; 0; 0; 0; 320; 0; 0; 0; 0; 0; 0; 0; 3816; 0; 0; 0; 0; 0; 0; 0; 2272; 15344; 0; 0; 0; 0; 0; 0;
  15344; 15344; 0; 0; 0; 0; 0; 0; 208; 0; 5866; 0; 0; 0; 0; 0; 1770; 0; 6138; 0; 0; 0; 0; 0;
  10224; 6880; 2043; 6880; 0; 0; 0; 0; 6880; 6880; 6880; 6880; 0; 0; 0; 0; 2784; 0; 0; 0; 7164;
  0; 0; 0; 4840; 0; 0; 0; 4840; 0; 0; 0; 11248; 1009; 0; 0; 737; 1009; 0; 0; 737; 1009; 0; 0;
  737; 1009; 0; 0; 3056; 0; 13310; 0; 7396; 0; 7396; 0; 3308; 0; 3308; 0; 7396; 0; 7396; 0; 5104;
  5353; 1255; 5353; 7679; 5353; 15863; 5353; 6379; 9209; 1255; 9209; 6379; 9209; 15863; 9209; 48;
  0; 0; 0; 0; 0; 0; 0; 0; 0; 0; 0; 0; 0; 0; 0; 3408; 16369; 0; 0; 0; 0; 0; 0; 0; 0; 0; 0; 0; 0;
  0; 0; 1360; 0; 3810; 0; 0; 0; 0; 0; 0; 0; 0; 0; 0; 0; 0; 0; 5856; 8179; 7395; 12275; 0; 0; 0;
  0; 0; 0; 0; 0; 0; 0; 0; 0; 2384; 0; 0; 0; 4084; 0; 0; 0; 0; 0; 0; 0; 0; 0; 0; 0; 1760; 14325;
  0; 0; 6884; 6884; 0; 0; 0; 0; 0; 0; 0; 0; 0; 0; 2784; 0; 4834; 0; 6134; 0; 4834; 0; 0; 0; 0; 0;
  0; 0; 0; 0; 10224; 7159; 15351; 2039; 742; 742; 11254; 11254; 0; 0; 0; 0; 0; 0; 0; 0; 336; 0;
  0; 0; 0; 0; 0; 0; 3304; 0; 0; 0; 0; 0; 0; 0; 4960; 13305; 0; 0; 0; 0; 0; 0; 3064; 3064; 0; 0;
  0; 0; 0; 0; 3664; 0; 1258; 0; 0; 0; 0; 0; 6378; 0; 5354; 0; 0; 0; 0; 0; 5104; 15867; 4331;
  9211; 0; 0; 0; 0; 2281; 1017; 2281; 1017; 0; 0; 0; 0; 224; 0; 0; 0; 7676; 0; 0; 0; 8040; 0; 0;
  0; 8040; 0; 0; 0; 11760; 5629; 0; 0; 5997; 3581; 0; 0; 3945; 13817; 0; 0; 3945; 13817; 0; 0;
  9712; 0; 1902; 0; 10750; 0; 1526; 0; 7022; 0; 6654; 0; 14846; 0; 1526; 0; 2544; 879; 607;
  16127; 1631; 12791; 2919; 8695; 2655; 509; 7935; 509; 4607; 12791; 2919; 8695; 48; 0; 0; 0; 0;
  0; 0; 0; 0; 0; 0; 0; 0; 0; 0; 0; 576; 481; 0; 0; 0; 0; 0; 0; 0; 0; 0; 0; 0; 0; 0; 0; 1616; 0;
  1762; 0; 0; 0; 0; 0; 0; 0; 0; 0; 0; 0; 0; 0; 3408; 3811; 5859; 7907; 0; 0; 0; 0; 0; 0; 0; 0; 0;
  0; 0; 0; 1360; 0; 0; 0; 8180; 0; 0; 0; 0; 0; 0; 0; 0; 0; 0; 0; 6880; 2785; 0; 0; 16373; 2785;
  0; 0; 0; 0; 0; 0; 0; 0; 0; 0; 4832; 0; 12274; 0; 4086; 0; 12274; 0; 0; 0; 0; 0; 0; 0; 0; 0;
  14320; 7015; 15351; 6135; 742; 742; 10230; 10230; 0; 0; 0; 0; 0; 0; 0; 0; 2384; 0; 0; 0; 0; 0;
  0; 0; 2040; 0; 0; 0; 0; 0; 0; 0; 7392; 7153; 0; 0; 0; 0; 0; 0; 11257; 7153; 0; 0; 0; 0; 0; 0;
  3296; 0; 5346; 0; 0; 0; 0; 0; 3066; 0; 5346; 0; 0; 0; 0; 0; 13296; 1257; 6379; 1257; 0; 0; 0;
  0; 15867; 9209; 5115; 9209; 0; 0; 0; 0; 2272; 0; 0; 0; 7676; 0; 0; 0; 4332; 0; 0; 0; 1020; 0;
  0; 0; 11760; 13821; 0; 0; 229; 6645; 0; 0; 3580; 3580; 0; 0; 229; 6645; 0; 0; 5616; 0; 9726; 0;
  10750; 0; 1522; 0; 8046; 0; 1522; 0; 14846; 0; 1522; 0; 2544; 3679; 351; 1903; 4975; 4607;
  3942; 3942; 879; 12795; 5998; 5998; 2927; 12795; 3942; 3942; 2384; 0; 0; 0; 0; 0; 0; 0; 0; 0;
  0; 0; 0; 0; 0; 0; 736; 16369; 0; 0; 0; 0; 0; 0; 0; 0; 0; 0; 0; 0; 0; 0; 7392; 0; 8178; 0; 0; 0;
  0; 0; 0; 0; 0; 0; 0; 0; 0; 0; 12272; 6131; 14323; 4083; 0; 0; 0; 0; 0; 0; 0; 0; 0; 0; 0; 0;
  10224; 0; 0; 0; 2036; 0; 0; 0; 0; 0; 0; 0; 0; 0; 0; 0; 11248; 3297; 0; 0; 15349; 3297; 0; 0; 0;
  0; 0; 0; 0; 0; 0; 0; 7152; 0; 5344; 0; 5344; 0; 5344; 0; 0; 0; 0; 0; 0; 0; 0; 0; 3056; 1255;
  9207; 5111; 1015; 3575; 13302; 13302; 0; 0; 0; 0; 0; 0; 0; 0; 15856; 0; 0; 0; 0; 0; 0; 0; 7672;
  0; 0; 0; 0; 0; 0; 0; 11760; 6368; 0; 0; 0; 0; 0; 0; 6368; 6368; 0; 0; 0; 0; 0; 0; 10736; 0;
  2274; 0; 0; 0; 0; 0; 13818; 0; 2274; 0; 0; 0; 0; 0; 5616; 14843; 4331; 1531; 0; 0; 0; 0; 2555;
  9721; 6651; 9721; 0; 0; 0; 0; 12784; 0; 0; 0; 8700; 0; 0; 0; 4600; 0; 0; 0; 4600; 0; 0; 0; 496;
  237; 0; 0; 8045; 12029; 0; 0; 3837; 16121; 0; 0; 7933; 16121; 0; 0; 14064; 0; 3950; 0; 15102;
  0; 5878; 0; 1902; 0; 1790; 0; 9982; 0; 5878; 0; 2800; 79; 1615; 1375; 1103; 3423; 7023; 11007;
  591; 5999; 351; 4863; 2927; 6911; 13055; 863].

(** source/core/coding/enc_CxtVLC_tables.hpp:192-350 [enc_CxtVLC_table1] *)
Definition enc_CxtVLC_table1 : list Z := [
  0; 0; 0; 0; 0; 0; 0; 0; 0; 0; 0; 0; 0; 0; 0; 0; 48; 5089; 0; 0; 0; 0; 0; 0; 0; 0; 0; 0; 0; 0;
  0; 0; 816; 0; 3042; 0; 0; 0; 0; 0; 0; 0; 0; 0; 0; 0; 0; 0; 1744; 7648; 7648; 7648; 0; 0; 0; 0;
  0; 0; 0; 0; 0; 0; 0; 0; 304; 0; 0; 0; 996; 0; 0; 0; 0; 0; 0; 0; 0; 0; 0; 0; 2768; 5600; 0; 0;
  5600; 5600; 0; 0; 0; 0; 0; 0; 0; 0; 0; 0; 208; 0; 16368; 0; 16368; 0; 16368; 0; 0; 0; 0; 0; 0;
  0; 0; 0; 4080; 3552; 3552; 3552; 3552; 3552; 3552; 3552; 0; 0; 0; 0; 0; 0; 0; 0; 560; 0; 0; 0;
  0; 0; 0; 0; 728; 0; 0; 0; 0; 0; 0; 0; 3280; 2528; 0; 0; 0; 0; 0; 0; 2528; 2528; 0; 0; 0; 0; 0;
  0; 1232; 0; 8186; 0; 0; 0; 0; 0; 1512; 0; 1512; 0; 0; 0; 0; 0; 12272; 6624; 6624; 6624; 0; 0;
  0; 0; 6624; 6624; 6624; 6624; 0; 0; 0; 0; 2256; 0; 0; 0; 14332; 0; 0; 0; 4584; 0; 0; 0; 4584;
  0; 0; 0; 2032; 480; 0; 0; 480; 480; 0; 0; 480; 480; 0; 0; 480; 480; 0; 0; 6128; 0; 7908; 0;
  10228; 0; 10228; 0; 7908; 0; 7908; 0; 10228; 0; 10228; 0; 15344; 7153; 3809; 7153; 3809; 7153;
  3809; 7153; 3809; 7153; 3809; 7153; 3809; 7153; 3809; 7153; 16; 0; 0; 0; 0; 0; 0; 0; 0; 0; 0;
  0; 0; 0; 0; 0; 704; 16369; 0; 0; 0; 0; 0; 0; 0; 0; 0; 0; 0; 0; 0; 0; 1216; 0; 4082; 0; 0; 0; 0;
  0; 0; 0; 0; 0; 0; 0; 0; 0; 3792; 8177; 12275; 8177; 0; 0; 0; 0; 0; 0; 0; 0; 0; 0; 0; 0; 1744;
  0; 0; 0; 7156; 0; 0; 0; 0; 0; 0; 0; 0; 0; 0; 0; 480; 14320; 0; 0; 14320; 14320; 0; 0; 0; 0; 0;
  0; 0; 0; 0; 0; 6128; 0; 10224; 0; 10224; 0; 10224; 0; 0; 0; 0; 0; 0; 0; 0; 0; 2032; 15344;
  15344; 15344; 15344; 15344; 15344; 15344; 0; 0; 0; 0; 0; 0; 0; 0; 192; 0; 0; 0; 0; 0; 0; 0;
  3064; 0; 0; 0; 0; 0; 0; 0; 1504; 11248; 0; 0; 0; 0; 0; 0; 11248; 11248; 0; 0; 0; 0; 0; 0; 6624;
  0; 13296; 0; 0; 0; 0; 0; 13296; 0; 13296; 0; 0; 0; 0; 0; 5104; 5616; 5616; 5616; 0; 0; 0; 0;
  5616; 5616; 5616; 5616; 0; 0; 0; 0; 2528; 0; 0; 0; 9200; 0; 0; 0; 9200; 0; 0; 0; 9200; 0; 0; 0;
  1008; 15856; 0; 0; 15856; 15856; 0; 0; 15856; 15856; 0; 0; 15856; 15856; 0; 0; 7664; 0; 11760;
  0; 11760; 0; 11760; 0; 11760; 0; 11760; 0; 11760; 0; 11760; 0; 3568; 4580; 4580; 4580; 13812;
  13812; 13812; 13812; 4580; 4580; 4580; 4580; 13812; 13812; 13812; 13812; 16; 0; 0; 0; 0; 0; 0;
  0; 0; 0; 0; 0; 0; 0; 0; 0; 1216; 16369; 0; 0; 0; 0; 0; 0; 0; 0; 0; 0; 0; 0; 0; 0; 192; 0; 4578;
  0; 0; 0; 0; 0; 0; 0; 0; 0; 0; 0; 0; 0; 7904; 4083; 8178; 8178; 0; 0; 0; 0; 0; 0; 0; 0; 0; 0; 0;
  0; 2768; 0; 0; 0; 12276; 0; 0; 0; 0; 0; 0; 0; 0; 0; 0; 0; 480; 14320; 0; 0; 14320; 14320; 0; 0;
  0; 0; 0; 0; 0; 0; 0; 0; 6128; 0; 10224; 0; 10224; 0; 10224; 0; 0; 0; 0; 0; 0; 0; 0; 0; 2032;
  3056; 3056; 3056; 3056; 3056; 3056; 3056; 0; 0; 0; 0; 0; 0; 0; 0; 720; 0; 0; 0; 0; 0; 0; 0;
  15352; 0; 0; 0; 0; 0; 0; 0; 7152; 11248; 0; 0; 0; 0; 0; 0; 11248; 11248; 0; 0; 0; 0; 0; 0;
  3808; 0; 5866; 0; 0; 0; 0; 0; 13306; 0; 15866; 0; 0; 0; 0; 0; 5104; 1008; 9211; 1008; 0; 0; 0;
  0; 1008; 1008; 1008; 1008; 0; 0; 0; 0; 1760; 0; 0; 0; 7664; 0; 0; 0; 7664; 0; 0; 0; 7664; 0; 0;
  0; 11760; 3568; 0; 0; 3568; 3568; 0; 0; 3568; 3568; 0; 0; 3568; 3568; 0; 0; 13808; 0; 9716; 0;
  5620; 0; 5620; 0; 9716; 0; 9716; 0; 5620; 0; 5620; 0; 1520; 6645; 10743; 6645; 14836; 14836;
  14836; 14836; 2559; 6645; 10743; 6645; 14836; 14836; 14836; 14836; 32; 0; 0; 0; 0; 0; 0; 0; 0;
  0; 0; 0; 0; 0; 0; 0; 1344; 1505; 0; 0; 0; 0; 0; 0; 0; 0; 0; 0; 0; 0; 0; 0; 320; 0; 4578; 0; 0;
  0; 0; 0; 0; 0; 0; 0; 0; 0; 0; 0; 1872; 2531; 6627; 16371; 0; 0; 0; 0; 0; 0; 0; 0; 0; 0; 0; 0;
  2896; 0; 0; 0; 8180; 0; 0; 0; 0; 0; 0; 0; 0; 0; 0; 0; 480; 7905; 0; 0; 4085; 7905; 0; 0; 0; 0;
  0; 0; 0; 0; 0; 0; 3808; 0; 12272; 0; 12272; 0; 12272; 0; 0; 0; 0; 0; 0; 0; 0; 0; 5856; 3941;
  14327; 3941; 6132; 6132; 6132; 6132; 0; 0; 0; 0; 0; 0; 0; 0; 848; 0; 0; 0; 0; 0; 0; 0; 10232;
  0; 0; 0; 0; 0; 0; 0; 1760; 6880; 0; 0; 0; 0; 0; 0; 6880; 6880; 0; 0; 0; 0; 0; 0; 2784; 0; 4834;
  0; 0; 0; 0; 0; 2042; 0; 4834; 0; 0; 0; 0; 0; 736; 15355; 3307; 3067; 0; 0; 0; 0; 7400; 7400;
  7400; 7400; 0; 0; 0; 0; 5344; 0; 0; 0; 1248; 0; 0; 0; 1248; 0; 0; 0; 1248; 0; 0; 0; 7152; 6372;
  0; 0; 11252; 11252; 0; 0; 6372; 6372; 0; 0; 11252; 11252; 0; 0; 13296; 0; 13822; 0; 5108; 0;
  5108; 0; 9212; 0; 9212; 0; 5108; 0; 5108; 0; 2272; 8047; 4335; 15863; 5631; 3583; 1014; 1014;
  239; 11770; 7679; 15863; 11770; 11770; 1014; 1014; 16; 0; 0; 0; 0; 0; 0; 0; 0; 0; 0; 0; 0; 0;
  0; 0; 1744; 16369; 0; 0; 0; 0; 0; 0; 0; 0; 0; 0; 0; 0; 0; 0; 2768; 0; 8178; 0; 0; 0; 0; 0; 0;
  0; 0; 0; 0; 0; 0; 0; 12272; 14320; 14320; 14320; 0; 0; 0; 0; 0; 0; 0; 0; 0; 0; 0; 0; 1216; 0;
  0; 0; 4580; 0; 0; 0; 0; 0; 0; 0; 0; 0; 0; 0; 6624; 4080; 0; 0; 4080; 4080; 0; 0; 0; 0; 0; 0; 0;
  0; 0; 0; 2528; 0; 6128; 0; 6128; 0; 6128; 0; 0; 0; 0; 0; 0; 0; 0; 0; 10224; 11248; 11248;
  11248; 11248; 11248; 11248; 11248; 0; 0; 0; 0; 0; 0; 0; 0; 192; 0; 0; 0; 0; 0; 0; 0; 2040; 0;
  0; 0; 0; 0; 0; 0; 15344; 7152; 0; 0; 0; 0; 0; 0; 7152; 7152; 0; 0; 0; 0; 0; 0; 3808; 0; 3056;
  0; 0; 0; 0; 0; 3056; 0; 3056; 0; 0; 0; 0; 0; 13296; 13808; 13808; 13808; 0; 0; 0; 0; 13808;
  13808; 13808; 13808; 0; 0; 0; 0; 720; 0; 0; 0; 1020; 0; 0; 0; 9212; 0; 0; 0; 5116; 0; 0; 0;
  15856; 7664; 0; 0; 7664; 7664; 0; 0; 7664; 7664; 0; 0; 7664; 7664; 0; 0; 11760; 0; 3570; 0;
  482; 0; 3570; 0; 482; 0; 3570; 0; 482; 0; 3570; 0; 5616; 9713; 1523; 9713; 7907; 9713; 1523;
  9713; 7907; 9713; 1523; 9713; 7907; 9713; 1523; 9713; 32; 0; 0; 0; 0; 0; 0; 0; 0; 0; 0; 0; 0;
  0; 0; 0; 3920; 7649; 0; 0; 0; 0; 0; 0; 0; 0; 0; 0; 0; 0; 0; 0; 1360; 0; 8178; 0; 0; 0; 0; 0; 0;
  0; 0; 0; 0; 0; 0; 0; 3552; 1504; 1504; 1504; 0; 0; 0; 0; 0; 0; 0; 0; 0; 0; 0; 0; 320; 0; 0; 0;
  5604; 0; 0; 0; 0; 0; 0; 0; 0; 0; 0; 0; 1872; 16373; 0; 0; 6628; 6628; 0; 0; 0; 0; 0; 0; 0; 0;
  0; 0; 2528; 0; 14320; 0; 14320; 0; 14320; 0; 0; 0; 0; 0; 0; 0; 0; 0; 4576; 2786; 12274; 12274;
  2786; 2786; 12274; 12274; 0; 0; 0; 0; 0; 0; 0; 0; 2896; 0; 0; 0; 0; 0; 0; 0; 488; 0; 0; 0; 0;
  0; 0; 0; 7904; 4080; 0; 0; 0; 0; 0; 0; 4080; 4080; 0; 0; 0; 0; 0; 0; 3808; 0; 5856; 0; 0; 0; 0;
  0; 5856; 0; 5856; 0; 0; 0; 0; 0; 1760; 10225; 6881; 10225; 0; 0; 0; 0; 6881; 10225; 6881;
  10225; 0; 0; 0; 0; 848; 0; 0; 0; 4836; 0; 0; 0; 6140; 0; 0; 0; 4836; 0; 0; 0; 736; 15345; 0; 0;
  7397; 15345; 0; 0; 2045; 15345; 0; 0; 7397; 15345; 0; 0; 3296; 0; 11250; 0; 7166; 0; 11250; 0;
  234; 0; 11250; 0; 234; 0; 11250; 0; 3408; 5359; 4335; 1023; 6383; 13309; 5111; 13309; 2287;
  3065; 9215; 3065; 1263; 3065; 5111; 3065; 48; 0; 0; 0; 0; 0; 0; 0; 0; 0; 0; 0; 0; 0; 0; 0; 320;
  481; 0; 0; 0; 0; 0; 0; 0; 0; 0; 0; 0; 0; 0; 0; 1600; 0; 7906; 0; 0; 0; 0; 0; 0; 0; 0; 0; 0; 0;
  0; 0; 3808; 16371; 1762; 1762; 0; 0; 0; 0; 0; 0; 0; 0; 0; 0; 0; 0; 576; 0; 0; 0; 5860; 0; 0; 0;
  0; 0; 0; 0; 0; 0; 0; 0; 1360; 6133; 0; 0; 6884; 6884; 0; 0; 0; 0; 0; 0; 0; 0; 0; 0; 2784; 0;
  8178; 0; 12278; 0; 8178; 0; 0; 0; 0; 0; 0; 0; 0; 0; 4832; 4083; 5346; 5346; 14327; 4083; 5346;
  5346; 0; 0; 0; 0; 0; 0; 0; 0; 2896; 0; 0; 0; 0; 0; 0; 0; 744; 0; 0; 0; 0; 0; 0; 0; 7392; 3296;
  0; 0; 0; 0; 0; 0; 3296; 3296; 0; 0; 0; 0; 0; 0; 848; 0; 1258; 0; 0; 0; 0; 0; 10234; 0; 2042; 0;
  0; 0; 0; 0; 1888; 9211; 15355; 7154; 0; 0; 0; 0; 11258; 11258; 7154; 7154; 0; 0; 0; 0; 3408; 0;
  0; 0; 5116; 0; 0; 0; 13308; 0; 0; 0; 3068; 0; 0; 0; 6368; 5629; 0; 0; 1021; 15860; 0; 0; 7676;
  7676; 0; 0; 15860; 15860; 0; 0; 2272; 0; 6654; 0; 11774; 0; 3572; 0; 4334; 0; 13822; 0; 3572;
  0; 3572; 0; 224; 4607; 8047; 9715; 5999; 2559; 1527; 9715; 3951; 10747; 14847; 9715; 12799;
  10747; 1527; 9715; 576; 0; 0; 0; 0; 0; 0; 0; 0; 0; 0; 0; 0; 0; 0; 0; 6624; 2529; 0; 0; 0; 0; 0;
  0; 0; 0; 0; 0; 0; 0; 0; 0; 4576; 0; 16370; 0; 0; 0; 0; 0; 0; 0; 0; 0; 0; 0; 0; 0; 480; 8177;
  14323; 8177; 0; 0; 0; 0; 0; 0; 0; 0; 0; 0; 0; 0; 5856; 0; 0; 0; 12276; 0; 0; 0; 0; 0; 0; 0; 0;
  0; 0; 0; 2896; 7905; 0; 0; 4085; 7905; 0; 0; 0; 0; 0; 0; 0; 0; 0; 0; 3808; 0; 15344; 0; 15344;
  0; 15344; 0; 0; 0; 0; 0; 0; 0; 0; 0; 848; 1767; 11255; 2039; 6135; 10228; 10228; 10228; 0; 0;
  0; 0; 0; 0; 0; 0; 6880; 0; 0; 0; 0; 0; 0; 0; 7160; 0; 0; 0; 0; 0; 0; 0; 2784; 5104; 0; 0; 0; 0;
  0; 0; 5104; 5104; 0; 0; 0; 0; 0; 0; 4832; 0; 5344; 0; 0; 0; 0; 0; 5344; 0; 5344; 0; 0; 0; 0; 0;
  3408; 3067; 739; 13297; 0; 0; 0; 0; 15867; 13297; 739; 13297; 0; 0; 0; 0; 7392; 0; 0; 0; 3296;
  0; 0; 0; 3296; 0; 0; 0; 3296; 0; 0; 0; 1616; 9213; 0; 0; 1253; 1009; 0; 0; 3581; 1009; 0; 0;
  1253; 1009; 0; 0; 6368; 0; 7678; 0; 1534; 0; 11762; 0; 8042; 0; 11762; 0; 8042; 0; 11762; 0;
  48; 351; 1375; 2287; 3679; 5999; 4327; 5631; 2399; 3947; 239; 9727; 1903; 3947; 4327; 13823].

(** source/core/coding/enc_CxtVLC_tables.hpp:352-480 [enc_UVLC_table0] *)
Definition enc_UVLC_table0 : list Z := [
  0; 257; 514; 1028; 3076; 8; 2056; 4104; 6152; 8200; 10248; 12296; 14344; 16392; 18440; 20488;
  22536; 24584; 26632; 28680; 30728; 32776; 34824; 36872; 38920; 40968; 43016; 45064; 47112;
  49160; 51208; 53256; 257; 770; 1539; 1029; 5125; 9; 4105; 8201; 12297; 16393; 20489; 24585;
  28681; 32777; 36873; 40969; 45065; 49161; 53257; 57353; 61449; 65545; 69641; 73737; 77833;
  81929; 86025; 90121; 94217; 98313; 102409; 106505; 514; 1283; 2564; 3077; 7173; 2057; 6153;
  10249; 14345; 18441; 22537; 26633; 30729; 34825; 38921; 43017; 47113; 51209; 55305; 59401;
  63497; 67593; 71689; 75785; 79881; 83977; 88073; 92169; 96265; 100361; 104457; 108553; 1028;
  2309; 4614; 770; 1539; 3077; 7173; 2057; 6153; 10249; 14345; 18441; 22537; 26633; 30729; 34825;
  38921; 43017; 47113; 51209; 55305; 59401; 63497; 67593; 71689; 75785; 79881; 83977; 88073;
  92169; 96265; 100361; 3076; 6405; 12806; 1283; 2564; 5126; 13318; 4106; 12298; 20490; 28682;
  36874; 45066; 53258; 61450; 69642; 77834; 86026; 94218; 102410; 110602; 118794; 126986; 135178;
  143370; 151562; 159754; 167946; 176138; 184330; 192522; 200714; 8; 265; 522; 2309; 4614; 9224;
  25608; 8204; 24588; 40972; 57356; 73740; 90124; 106508; 122892; 139276; 155660; 172044; 188428;
  204812; 221196; 237580; 253964; 270348; 286732; 303116; 319500; 335884; 352268; 368652; 385036;
  401420; 2056; 4361; 8714; 6405; 12806; 41992; 58376; 532492; 548876; 565260; 581644; 598028;
  614412; 630796; 647180; 663564; 679948; 696332; 712716; 729100; 745484; 761868; 778252; 794636;
  811020; 827404; 843788; 860172; 876556; 892940; 909324; 925708; 4104; 8457; 16906; 265; 522;
  1036; 17420; 16; 16400; 32784; 49168; 65552; 81936; 98320; 114704; 131088; 147472; 163856;
  180240; 196624; 213008; 229392; 245776; 262160; 278544; 294928; 311312; 327696; 344080; 360464;
  376848; 393232; 6152; 12553; 25098; 4361; 8714; 33804; 50188; 524304; 540688; 557072; 573456;
  589840; 606224; 622608; 638992; 655376; 671760; 688144; 704528; 720912; 737296; 753680; 770064;
  786448; 802832; 819216; 835600; 851984; 868368; 884752; 901136; 917520; 8200; 16649; 33290;
  8457; 16906; 66572; 82956; 1048592; 1064976; 1081360; 1097744; 1114128; 1130512; 1146896;
  1163280; 1179664; 1196048; 1212432; 1228816; 1245200; 1261584; 1277968; 1294352; 1310736;
  1327120; 1343504; 1359888; 1376272; 1392656; 1409040; 1425424; 1441808; 10248; 20745; 41482;
  12553; 25098; 99340; 115724; 1572880; 1589264; 1605648; 1622032; 1638416; 1654800; 1671184;
  1687568; 1703952; 1720336; 1736720; 1753104; 1769488; 1785872; 1802256; 1818640; 1835024;
  1851408; 1867792; 1884176; 1900560; 1916944; 1933328; 1949712; 1966096; 12296; 24841; 49674;
  16649; 33290; 132108; 148492; 2097168; 2113552; 2129936; 2146320; 2162704; 2179088; 2195472;
  2211856; 2228240; 2244624; 2261008; 2277392; 2293776; 2310160; 2326544; 2342928; 2359312;
  2375696; 2392080; 2408464; 2424848; 2441232; 2457616; 2474000; 2490384; 14344; 28937; 57866;
  20745; 41482; 164876; 181260; 2621456; 2637840; 2654224; 2670608; 2686992; 2703376; 2719760;
  2736144; 2752528; 2768912; 2785296; 2801680; 2818064; 2834448; 2850832; 2867216; 2883600;
  2899984; 2916368; 2932752; 2949136; 2965520; 2981904; 2998288; 3014672; 16392; 33033; 66058;
  24841; 49674; 197644; 214028; 3145744; 3162128; 3178512; 3194896; 3211280; 3227664; 3244048;
  3260432; 3276816; 3293200; 3309584; 3325968; 3342352; 3358736; 3375120; 3391504; 3407888;
  3424272; 3440656; 3457040; 3473424; 3489808; 3506192; 3522576; 3538960; 18440; 37129; 74250;
  28937; 57866; 230412; 246796; 3670032; 3686416; 3702800; 3719184; 3735568; 3751952; 3768336;
  3784720; 3801104; 3817488; 3833872; 3850256; 3866640; 3883024; 3899408; 3915792; 3932176;
  3948560; 3964944; 3981328; 3997712; 4014096; 4030480; 4046864; 4063248; 20488; 41225; 82442;
  33033; 66058; 263180; 279564; 4194320; 4210704; 4227088; 4243472; 4259856; 4276240; 4292624;
  4309008; 4325392; 4341776; 4358160; 4374544; 4390928; 4407312; 4423696; 4440080; 4456464;
  4472848; 4489232; 4505616; 4522000; 4538384; 4554768; 4571152; 4587536; 22536; 45321; 90634;
  37129; 74250; 295948; 312332; 4718608; 4734992; 4751376; 4767760; 4784144; 4800528; 4816912;
  4833296; 4849680; 4866064; 4882448; 4898832; 4915216; 4931600; 4947984; 4964368; 4980752;
  4997136; 5013520; 5029904; 5046288; 5062672; 5079056; 5095440; 5111824; 24584; 49417; 98826;
  41225; 82442; 328716; 345100; 5242896; 5259280; 5275664; 5292048; 5308432; 5324816; 5341200;
  5357584; 5373968; 5390352; 5406736; 5423120; 5439504; 5455888; 5472272; 5488656; 5505040;
  5521424; 5537808; 5554192; 5570576; 5586960; 5603344; 5619728; 5636112; 26632; 53513; 107018;
  45321; 90634; 361484; 377868; 5767184; 5783568; 5799952; 5816336; 5832720; 5849104; 5865488;
  5881872; 5898256; 5914640; 5931024; 5947408; 5963792; 5980176; 5996560; 6012944; 6029328;
  6045712; 6062096; 6078480; 6094864; 6111248; 6127632; 6144016; 6160400; 28680; 57609; 115210;
  49417; 98826; 394252; 410636; 6291472; 6307856; 6324240; 6340624; 6357008; 6373392; 6389776;
  6406160; 6422544; 6438928; 6455312; 6471696; 6488080; 6504464; 6520848; 6537232; 6553616;
  6570000; 6586384; 6602768; 6619152; 6635536; 6651920; 6668304; 6684688; 30728; 61705; 123402;
  53513; 107018; 427020; 443404; 6815760; 6832144; 6848528; 6864912; 6881296; 6897680; 6914064;
  6930448; 6946832; 6963216; 6979600; 6995984; 7012368; 7028752; 7045136; 7061520; 7077904;
  7094288; 7110672; 7127056; 7143440; 7159824; 7176208; 7192592; 7208976; 32776; 65801; 131594;
  57609; 115210; 459788; 476172; 7340048; 7356432; 7372816; 7389200; 7405584; 7421968; 7438352;
  7454736; 7471120; 7487504; 7503888; 7520272; 7536656; 7553040; 7569424; 7585808; 7602192;
  7618576; 7634960; 7651344; 7667728; 7684112; 7700496; 7716880; 7733264; 34824; 69897; 139786;
  61705; 123402; 492556; 508940; 7864336; 7880720; 7897104; 7913488; 7929872; 7946256; 7962640;
  7979024; 7995408; 8011792; 8028176; 8044560; 8060944; 8077328; 8093712; 8110096; 8126480;
  8142864; 8159248; 8175632; 8192016; 8208400; 8224784; 8241168; 8257552; 36872; 73993; 147978;
  65801; 131594; 525324; 541708; 8388624; 8405008; 8421392; 8437776; 8454160; 8470544; 8486928;
  8503312; 8519696; 8536080; 8552464; 8568848; 8585232; 8601616; 8618000; 8634384; 8650768;
  8667152; 8683536; 8699920; 8716304; 8732688; 8749072; 8765456; 8781840; 38920; 78089; 156170;
  69897; 139786; 558092; 574476; 8912912; 8929296; 8945680; 8962064; 8978448; 8994832; 9011216;
  9027600; 9043984; 9060368; 9076752; 9093136; 9109520; 9125904; 9142288; 9158672; 9175056;
  9191440; 9207824; 9224208; 9240592; 9256976; 9273360; 9289744; 9306128; 40968; 82185; 164362;
  73993; 147978; 590860; 607244; 9437200; 9453584; 9469968; 9486352; 9502736; 9519120; 9535504;
  9551888; 9568272; 9584656; 9601040; 9617424; 9633808; 9650192; 9666576; 9682960; 9699344;
  9715728; 9732112; 9748496; 9764880; 9781264; 9797648; 9814032; 9830416; 43016; 86281; 172554;
  78089; 156170; 623628; 640012; 9961488; 9977872; 9994256; 10010640; 10027024; 10043408;
  10059792; 10076176; 10092560; 10108944; 10125328; 10141712; 10158096; 10174480; 10190864;
  10207248; 10223632; 10240016; 10256400; 10272784; 10289168; 10305552; 10321936; 10338320;
  10354704; 45064; 90377; 180746; 82185; 164362; 656396; 672780; 10485776; 10502160; 10518544;
  10534928; 10551312; 10567696; 10584080; 10600464; 10616848; 10633232; 10649616; 10666000;
  10682384; 10698768; 10715152; 10731536; 10747920; 10764304; 10780688; 10797072; 10813456;
  10829840; 10846224; 10862608; 10878992; 47112; 94473; 188938; 86281; 172554; 689164; 705548;
  11010064; 11026448; 11042832; 11059216; 11075600; 11091984; 11108368; 11124752; 11141136;
  11157520; 11173904; 11190288; 11206672; 11223056; 11239440; 11255824; 11272208; 11288592;
  11304976; 11321360; 11337744; 11354128; 11370512; 11386896; 11403280; 49160; 98569; 197130;
  90377; 180746; 721932; 738316; 11534352; 11550736; 11567120; 11583504; 11599888; 11616272;
  11632656; 11649040; 11665424; 11681808; 11698192; 11714576; 11730960; 11747344; 11763728;
  11780112; 11796496; 11812880; 11829264; 11845648; 11862032; 11878416; 11894800; 11911184;
  11927568; 51208; 102665; 205322; 94473; 188938; 754700; 771084; 12058640; 12075024; 12091408;
  12107792; 12124176; 12140560; 12156944; 12173328; 12189712; 12206096; 12222480; 12238864;
  12255248; 12271632; 12288016; 12304400; 12320784; 12337168; 12353552; 12369936; 12386320;
  12402704; 12419088; 12435472; 12451856; 53256; 106761; 213514; 98569; 197130; 787468; 803852;
  12582928; 12599312; 12615696; 12632080; 12648464; 12664848; 12681232; 12697616; 12714000;
  12730384; 12746768; 12763152; 12779536; 12795920; 12812304; 12828688; 12845072; 12861456;
  12877840; 12894224; 12910608; 12926992; 12943376; 12959760; 12976144].

(** source/core/coding/enc_CxtVLC_tables.hpp:482-610 [enc_UVLC_table1] *)
Definition enc_UVLC_table1 : list Z := [
  0; 257; 514; 1028; 3076; 8; 2056; 4104; 6152; 8200; 10248; 12296; 14344; 16392; 18440; 20488;
  22536; 24584; 26632; 28680; 30728; 32776; 34824; 36872; 38920; 40968; 43016; 45064; 47112;
  49160; 51208; 53256; 257; 770; 1539; 3077; 7173; 2057; 6153; 10249; 14345; 18441; 22537; 26633;
  30729; 34825; 38921; 43017; 47113; 51209; 55305; 59401; 63497; 67593; 71689; 75785; 79881;
  83977; 88073; 92169; 96265; 100361; 104457; 108553; 514; 1283; 2564; 5126; 13318; 4106; 12298;
  20490; 28682; 36874; 45066; 53258; 61450; 69642; 77834; 86026; 94218; 102410; 110602; 118794;
  126986; 135178; 143370; 151562; 159754; 167946; 176138; 184330; 192522; 200714; 208906; 217098;
  1028; 2309; 4614; 9224; 25608; 8204; 24588; 40972; 57356; 73740; 90124; 106508; 122892; 139276;
  155660; 172044; 188428; 204812; 221196; 237580; 253964; 270348; 286732; 303116; 319500; 335884;
  352268; 368652; 385036; 401420; 417804; 434188; 3076; 6405; 12806; 41992; 58376; 532492;
  548876; 565260; 581644; 598028; 614412; 630796; 647180; 663564; 679948; 696332; 712716; 729100;
  745484; 761868; 778252; 794636; 811020; 827404; 843788; 860172; 876556; 892940; 909324; 925708;
  942092; 958476; 8; 265; 522; 1036; 17420; 16; 16400; 32784; 49168; 65552; 81936; 98320; 114704;
  131088; 147472; 163856; 180240; 196624; 213008; 229392; 245776; 262160; 278544; 294928; 311312;
  327696; 344080; 360464; 376848; 393232; 409616; 426000; 2056; 4361; 8714; 33804; 50188; 524304;
  540688; 557072; 573456; 589840; 606224; 622608; 638992; 655376; 671760; 688144; 704528; 720912;
  737296; 753680; 770064; 786448; 802832; 819216; 835600; 851984; 868368; 884752; 901136; 917520;
  933904; 950288; 4104; 8457; 16906; 66572; 82956; 1048592; 1064976; 1081360; 1097744; 1114128;
  1130512; 1146896; 1163280; 1179664; 1196048; 1212432; 1228816; 1245200; 1261584; 1277968;
  1294352; 1310736; 1327120; 1343504; 1359888; 1376272; 1392656; 1409040; 1425424; 1441808;
  1458192; 1474576; 6152; 12553; 25098; 99340; 115724; 1572880; 1589264; 1605648; 1622032;
  1638416; 1654800; 1671184; 1687568; 1703952; 1720336; 1736720; 1753104; 1769488; 1785872;
  1802256; 1818640; 1835024; 1851408; 1867792; 1884176; 1900560; 1916944; 1933328; 1949712;
  1966096; 1982480; 1998864; 8200; 16649; 33290; 132108; 148492; 2097168; 2113552; 2129936;
  2146320; 2162704; 2179088; 2195472; 2211856; 2228240; 2244624; 2261008; 2277392; 2293776;
  2310160; 2326544; 2342928; 2359312; 2375696; 2392080; 2408464; 2424848; 2441232; 2457616;
  2474000; 2490384; 2506768; 2523152; 10248; 20745; 41482; 164876; 181260; 2621456; 2637840;
  2654224; 2670608; 2686992; 2703376; 2719760; 2736144; 2752528; 2768912; 2785296; 2801680;
  2818064; 2834448; 2850832; 2867216; 2883600; 2899984; 2916368; 2932752; 2949136; 2965520;
  2981904; 2998288; 3014672; 3031056; 3047440; 12296; 24841; 49674; 197644; 214028; 3145744;
  3162128; 3178512; 3194896; 3211280; 3227664; 3244048; 3260432; 3276816; 3293200; 3309584;
  3325968; 3342352; 3358736; 3375120; 3391504; 3407888; 3424272; 3440656; 3457040; 3473424;
  3489808; 3506192; 3522576; 3538960; 3555344; 3571728; 14344; 28937; 57866; 230412; 246796;
  3670032; 3686416; 3702800; 3719184; 3735568; 3751952; 3768336; 3784720; 3801104; 3817488;
  3833872; 3850256; 3866640; 3883024; 3899408; 3915792; 3932176; 3948560; 3964944; 3981328;
  3997712; 4014096; 4030480; 4046864; 4063248; 4079632; 4096016; 16392; 33033; 66058; 263180;
  279564; 4194320; 4210704; 4227088; 4243472; 4259856; 4276240; 4292624; 4309008; 4325392;
  4341776; 4358160; 4374544; 4390928; 4407312; 4423696; 4440080; 4456464; 4472848; 4489232;
  4505616; 4522000; 4538384; 4554768; 4571152; 4587536; 4603920; 4620304; 18440; 37129; 74250;
  295948; 312332; 4718608; 4734992; 4751376; 4767760; 4784144; 4800528; 4816912; 4833296;
  4849680; 4866064; 4882448; 4898832; 4915216; 4931600; 4947984; 4964368; 4980752; 4997136;
  5013520; 5029904; 5046288; 5062672; 5079056; 5095440; 5111824; 5128208; 5144592; 20488; 41225;
  82442; 328716; 345100; 5242896; 5259280; 5275664; 5292048; 5308432; 5324816; 5341200; 5357584;
  5373968; 5390352; 5406736; 5423120; 5439504; 5455888; 5472272; 5488656; 5505040; 5521424;
  5537808; 5554192; 5570576; 5586960; 5603344; 5619728; 5636112; 5652496; 5668880; 22536; 45321;
  90634; 361484; 377868; 5767184; 5783568; 5799952; 5816336; 5832720; 5849104; 5865488; 5881872;
  5898256; 5914640; 5931024; 5947408; 5963792; 5980176; 5996560; 6012944; 6029328; 6045712;
  6062096; 6078480; 6094864; 6111248; 6127632; 6144016; 6160400; 6176784; 6193168; 24584; 49417;
  98826; 394252; 410636; 6291472; 6307856; 6324240; 6340624; 6357008; 6373392; 6389776; 6406160;
  6422544; 6438928; 6455312; 6471696; 6488080; 6504464; 6520848; 6537232; 6553616; 6570000;
  6586384; 6602768; 6619152; 6635536; 6651920; 6668304; 6684688; 6701072; 6717456; 26632; 53513;
  107018; 427020; 443404; 6815760; 6832144; 6848528; 6864912; 6881296; 6897680; 6914064; 6930448;
  6946832; 6963216; 6979600; 6995984; 7012368; 7028752; 7045136; 7061520; 7077904; 7094288;
  7110672; 7127056; 7143440; 7159824; 7176208; 7192592; 7208976; 7225360; 7241744; 28680; 57609;
  115210; 459788; 476172; 7340048; 7356432; 7372816; 7389200; 7405584; 7421968; 7438352; 7454736;
  7471120; 7487504; 7503888; 7520272; 7536656; 7553040; 7569424; 7585808; 7602192; 7618576;
  7634960; 7651344; 7667728; 7684112; 7700496; 7716880; 7733264; 7749648; 7766032; 30728; 61705;
  123402; 492556; 508940; 7864336; 7880720; 7897104; 7913488; 7929872; 7946256; 7962640; 7979024;
  7995408; 8011792; 8028176; 8044560; 8060944; 8077328; 8093712; 8110096; 8126480; 8142864;
  8159248; 8175632; 8192016; 8208400; 8224784; 8241168; 8257552; 8273936; 8290320; 32776; 65801;
  131594; 525324; 541708; 8388624; 8405008; 8421392; 8437776; 8454160; 8470544; 8486928; 8503312;
  8519696; 8536080; 8552464; 8568848; 8585232; 8601616; 8618000; 8634384; 8650768; 8667152;
  8683536; 8699920; 8716304; 8732688; 8749072; 8765456; 8781840; 8798224; 8814608; 34824; 69897;
  139786; 558092; 574476; 8912912; 8929296; 8945680; 8962064; 8978448; 8994832; 9011216; 9027600;
  9043984; 9060368; 9076752; 9093136; 9109520; 9125904; 9142288; 9158672; 9175056; 9191440;
  9207824; 9224208; 9240592; 9256976; 9273360; 9289744; 9306128; 9322512; 9338896; 36872; 73993;
  147978; 590860; 607244; 9437200; 9453584; 9469968; 9486352; 9502736; 9519120; 9535504; 9551888;
  9568272; 9584656; 9601040; 9617424; 9633808; 9650192; 9666576; 9682960; 9699344; 9715728;
  9732112; 9748496; 9764880; 9781264; 9797648; 9814032; 9830416; 9846800; 9863184; 38920; 78089;
  156170; 623628; 640012; 9961488; 9977872; 9994256; 10010640; 10027024; 10043408; 10059792;
  10076176; 10092560; 10108944; 10125328; 10141712; 10158096; 10174480; 10190864; 10207248;
  10223632; 10240016; 10256400; 10272784; 10289168; 10305552; 10321936; 10338320; 10354704;
  10371088; 10387472; 40968; 82185; 164362; 656396; 672780; 10485776; 10502160; 10518544;
  10534928; 10551312; 10567696; 10584080; 10600464; 10616848; 10633232; 10649616; 10666000;
  10682384; 10698768; 10715152; 10731536; 10747920; 10764304; 10780688; 10797072; 10813456;
  10829840; 10846224; 10862608; 10878992; 10895376; 10911760; 43016; 86281; 172554; 689164;
  705548; 11010064; 11026448; 11042832; 11059216; 11075600; 11091984; 11108368; 11124752;
  11141136; 11157520; 11173904; 11190288; 11206672; 11223056; 11239440; 11255824; 11272208;
  11288592; 11304976; 11321360; 11337744; 11354128; 11370512; 11386896; 11403280; 11419664;
  11436048; 45064; 90377; 180746; 721932; 738316; 11534352; 11550736; 11567120; 11583504;
  11599888; 11616272; 11632656; 11649040; 11665424; 11681808; 11698192; 11714576; 11730960;
  11747344; 11763728; 11780112; 11796496; 11812880; 11829264; 11845648; 11862032; 11878416;
  11894800; 11911184; 11927568; 11943952; 11960336; 47112; 94473; 188938; 754700; 771084;
  12058640; 12075024; 12091408; 12107792; 12124176; 12140560; 12156944; 12173328; 12189712;
  12206096; 12222480; 12238864; 12255248; 12271632; 12288016; 12304400; 12320784; 12337168;
  12353552; 12369936; 12386320; 12402704; 12419088; 12435472; 12451856; 12468240; 12484624;
  49160; 98569; 197130; 787468; 803852; 12582928; 12599312; 12615696; 12632080; 12648464;
  12664848; 12681232; 12697616; 12714000; 12730384; 12746768; 12763152; 12779536; 12795920;
  12812304; 12828688; 12845072; 12861456; 12877840; 12894224; 12910608; 12926992; 12943376;
  12959760; 12976144; 12992528; 13008912; 51208; 102665; 205322; 820236; 836620; 13107216;
  13123600; 13139984; 13156368; 13172752; 13189136; 13205520; 13221904; 13238288; 13254672;
  13271056; 13287440; 13303824; 13320208; 13336592; 13352976; 13369360; 13385744; 13402128;
  13418512; 13434896; 13451280; 13467664; 13484048; 13500432; 13516816; 13533200; 53256; 106761;
  213514; 853004; 869388; 13631504; 13647888; 13664272; 13680656; 13697040; 13713424; 13729808;
  13746192; 13762576; 13778960; 13795344; 13811728; 13828112; 13844496; 13860880; 13877264;
  13893648; 13910032; 13926416; 13942800; 13959184; 13975568; 13991952; 14008336; 14024720;
  14041104; 14057488].

(** source/core/coding/dec_CxtVLC_tables.hpp:112-191 [dec_CxtVLC_table0_fast_16] *)
Definition dec_CxtVLC_table0_fast_16 : list Z := [
  38; 170; 70; 108; 134; 43245; 24; 55519; 38; 4285; 70; 62975; 134; 8317; 90; 20831; 38; 58; 70;
  17485; 134; 50381; 24; 52431; 38; 58109; 70; 39423; 134; 156; 202; 12607; 38; 170; 70; 17501;
  134; 51405; 24; 4575; 38; 62717; 70; 64767; 134; 157; 90; 126; 38; 58; 70; 61951; 134; 34989;
  24; 190; 38; 63741; 70; 58607; 134; 34957; 202; 4383; 38; 170; 70; 108; 134; 43245; 24; 21727;
  38; 4285; 70; 8943; 134; 8317; 90; 8831; 38; 58; 70; 17485; 134; 50381; 24; 4543; 38; 58109;
  70; 254; 134; 156; 202; 8767; 38; 170; 70; 17501; 134; 51405; 24; 222; 38; 62717; 70; 47871;
  134; 157; 90; 111; 38; 58; 70; 59135; 134; 34989; 24; 41647; 38; 63741; 70; 238; 134; 34957;
  202; 8751; 4; 202; 136; 8317; 4; 50381; 40; 254; 4; 41725; 72; 92; 4; 157; 24; 222; 4; 4285;
  136; 108; 4; 34989; 40; 4575; 4; 43245; 72; 60; 4; 34957; 24; 4383; 4; 202; 136; 109; 4; 35021;
  40; 35071; 4; 47357; 72; 17485; 4; 156; 24; 190; 4; 58621; 136; 17501; 4; 172; 40; 238; 4;
  21725; 72; 8749; 4; 61; 24; 126; 4; 202; 136; 8317; 4; 50381; 40; 61951; 4; 41725; 72; 92; 4;
  157; 24; 4543; 4; 4285; 136; 108; 4; 34989; 40; 8943; 4; 43245; 72; 60; 4; 34957; 24; 8831; 4;
  202; 136; 109; 4; 35021; 40; 58607; 4; 47357; 72; 17485; 4; 156; 24; 41647; 4; 58621; 136;
  17501; 4; 172; 40; 55519; 4; 21725; 72; 8749; 4; 61; 24; 20831; 4; 90; 136; 108; 4; 35037; 40;
  13055; 4; 4605; 72; 17485; 4; 173; 24; 190; 4; 12669; 136; 20829; 4; 204; 40; 222; 4; 8429; 72;
  4381; 4; 157; 24; 126; 4; 90; 136; 21597; 4; 17613; 40; 238; 4; 61949; 72; 60; 4; 172; 24;
  21855; 4; 29949; 136; 4413; 4; 8381; 40; 29823; 4; 50397; 72; 63743; 4; 156; 24; 8751; 4; 90;
  136; 108; 4; 35037; 40; 254; 4; 4605; 72; 17485; 4; 173; 24; 34959; 4; 12669; 136; 20829; 4;
  204; 40; 51407; 4; 8429; 72; 4381; 4; 157; 24; 111; 4; 90; 136; 21597; 4; 17613; 40; 53727; 4;
  61949; 72; 60; 4; 172; 24; 8831; 4; 29949; 136; 4413; 4; 8381; 40; 8895; 4; 50397; 72; 8943; 4;
  156; 24; 12863; 6; 54493; 62715; 64767; 24; 4413; 90; 34959; 6; 12989; 138; 238; 42; 20829;
  43773; 29311; 6; 17613; 63739; 17647; 24; 25725; 74; 41647; 6; 172; 21851; 39391; 61947; 60;
  62973; 25199; 6; 53725; 62715; 59135; 24; 29053; 90; 45503; 6; 34989; 138; 54751; 42; 17485;
  62205; 26239; 6; 204; 63739; 58095; 24; 21597; 74; 4511; 6; 156; 21851; 51407; 61947; 4381;
  51437; 110; 6; 54493; 62715; 62463; 24; 4413; 90; 4543; 6; 12989; 138; 55519; 42; 20829; 43773;
  8751; 6; 17613; 63739; 254; 24; 25725; 74; 39071; 6; 172; 21851; 222; 61947; 60; 62973; 17519;
  6; 53725; 62715; 47615; 24; 29053; 90; 190; 6; 34989; 138; 56543; 42; 17485; 62205; 126; 6;
  204; 63739; 58607; 24; 21597; 74; 29567; 6; 156; 21851; 47295; 61947; 4381; 51437; 12863; 4;
  170; 136; 16509; 4; 4317; 40; 4575; 4; 29437; 72; 92; 4; 43181; 24; 45759; 4; 156; 136; 108; 4;
  204; 40; 238; 4; 51437; 72; 8749; 4; 34957; 24; 126; 4; 170; 136; 109; 4; 35021; 40; 254; 4;
  37373; 72; 60; 4; 41645; 24; 43695; 4; 47357; 136; 93; 4; 189; 40; 50383; 4; 17645; 72; 62719;
  4; 8765; 24; 4383; 4; 170; 136; 16509; 4; 4317; 40; 39423; 4; 29437; 72; 92; 4; 43181; 24; 190;
  4; 156; 136; 108; 4; 204; 40; 222; 4; 51437; 72; 8749; 4; 34957; 24; 17487; 4; 170; 136; 109;
  4; 35021; 40; 58095; 4; 37373; 72; 60; 4; 41645; 24; 17535; 4; 47357; 136; 93; 4; 189; 40; 159;
  4; 17645; 72; 30463; 4; 8765; 24; 12607; 6; 204; 138; 55807; 62203; 25725; 61949; 39359; 6;
  41645; 42; 26351; 62715; 92; 58093; 29567; 6; 39101; 74; 254; 63739; 108; 30461; 34975; 6;
  34957; 26; 54751; 170; 8749; 39133; 17487; 6; 45757; 138; 64767; 62203; 8813; 156; 190; 6;
  43693; 42; 53727; 62715; 60; 54493; 25711; 6; 43181; 74; 60143; 63739; 17501; 59629; 29055; 6;
  12861; 26; 50383; 170; 64255; 35021; 12607; 6; 204; 138; 30719; 62203; 25725; 61949; 46015; 6;
  41645; 42; 238; 62715; 92; 58093; 126; 6; 39101; 74; 58607; 63739; 108; 30461; 26239; 6; 34957;
  26; 222; 170; 8749; 39133; 13119; 6; 45757; 138; 30207; 62203; 8813; 156; 37279; 6; 43693; 42;
  39391; 62715; 60; 54493; 20831; 6; 43181; 74; 60655; 63739; 17501; 59629; 29311; 6; 12861; 26;
  45503; 170; 62463; 35021; 4383; 6; 21725; 62203; 4381; 24; 25725; 63741; 52431; 6; 37309; 74;
  8943; 42; 8749; 62461; 34959; 6; 204; 138; 254; 24; 4445; 64765; 43183; 6; 172; 58; 51423;
  61947; 12605; 26365; 25711; 6; 51405; 62203; 62975; 24; 108; 62717; 47807; 6; 8877; 74; 238;
  42; 12861; 60157; 29567; 6; 45757; 138; 21983; 24; 92; 29053; 4511; 6; 156; 58; 50383; 61947;
  13117; 59629; 17487; 6; 21725; 62203; 4381; 24; 25725; 63741; 39359; 6; 37309; 74; 58095; 42;
  8749; 62461; 26239; 6; 204; 138; 58607; 24; 4445; 64765; 39071; 6; 172; 58; 222; 61947; 12605;
  26365; 8815; 6; 51405; 62203; 47615; 24; 108; 62717; 190; 6; 8877; 74; 53727; 42; 12861; 60157;
  126; 6; 45757; 138; 60655; 24; 92; 29053; 29311; 6; 156; 58; 47295; 61947; 13117; 59629; 21599;
  61945; 53725; 64251; 222; 63737; 28; 65531; 29823; 62713; 29053; 62459; 46015; 62201; 60143;
  59629; 17487; 61945; 8877; 10; 47295; 63737; 254; 64765; 126; 62713; 4445; 62971; 30079; 62201;
  55519; 58093; 13119; 61945; 45757; 64251; 35023; 63737; 64511; 65531; 29567; 62713; 109; 62459;
  190; 62201; 26351; 63997; 12607; 61945; 157; 10; 47807; 63737; 65023; 63229; 110; 62713; 44;
  62971; 34959; 62201; 56543; 54493; 8751; 61945; 53725; 64251; 50383; 63737; 28; 65531; 29311;
  62713; 29053; 62459; 39359; 62201; 60655; 59629; 78; 61945; 8877; 10; 174; 63737; 63487; 64765;
  94; 62713; 4445; 62971; 158; 62201; 54751; 58093; 62; 61945; 45757; 64251; 206; 63737; 65279;
  65531; 26239; 62713; 109; 62459; 43183; 62201; 238; 63997; 12863; 61945; 157; 10; 45503; 63737;
  58607; 63229; 21599; 62713; 44; 62971; 142; 62201; 39391; 54493; 4383].

(** source/core/coding/dec_CxtVLC_tables.hpp:31-110 [dec_CxtVLC_table1_fast_16] *)
Definition dec_CxtVLC_table1_fast_16 : list Z := [
  22; 106; 70; 221; 134; 34955; 38; 17485; 22; 170; 70; 34989; 134; 58; 38; 222; 22; 202; 70;
  157; 134; 90; 38; 8749; 22; 154; 70; 125; 134; 4349; 38; 126; 22; 106; 70; 35021; 134; 34955;
  38; 4381; 22; 170; 70; 93; 134; 58; 38; 238; 22; 202; 70; 189; 134; 90; 38; 4607; 22; 154; 70;
  61; 134; 16621; 38; 41647; 22; 106; 70; 221; 134; 34955; 38; 17485; 22; 170; 70; 34989; 134;
  58; 38; 17647; 22; 202; 70; 157; 134; 90; 38; 8749; 22; 154; 70; 125; 134; 4349; 38; 190; 22;
  106; 70; 35021; 134; 34955; 38; 4381; 22; 170; 70; 93; 134; 58; 38; 50383; 22; 202; 70; 189;
  134; 90; 38; 254; 22; 154; 70; 61; 134; 16621; 38; 111; 2; 136; 2; 92; 2; 24; 2; 222; 2; 40; 2;
  156; 2; 74; 2; 126; 2; 136; 2; 204; 2; 24; 2; 34959; 2; 40; 2; 254; 2; 58; 2; 8751; 2; 136; 2;
  16637; 2; 24; 2; 190; 2; 40; 2; 191; 2; 74; 2; 110; 2; 136; 2; 172; 2; 24; 2; 17487; 2; 40; 2;
  238; 2; 58; 2; 4415; 2; 136; 2; 92; 2; 24; 2; 207; 2; 40; 2; 156; 2; 74; 2; 111; 2; 136; 2;
  204; 2; 24; 2; 159; 2; 40; 2; 239; 2; 58; 2; 12863; 2; 136; 2; 16637; 2; 24; 2; 175; 2; 40; 2;
  17663; 2; 74; 2; 95; 2; 136; 2; 172; 2; 24; 2; 127; 2; 40; 2; 223; 2; 58; 2; 4383; 2; 40; 2;
  92; 2; 138; 2; 191; 2; 24; 2; 254; 2; 204; 2; 126; 2; 40; 2; 63743; 2; 74; 2; 127; 2; 24; 2;
  223; 2; 172; 2; 12607; 2; 40; 2; 8749; 2; 138; 2; 190; 2; 24; 2; 17647; 2; 41645; 2; 110; 2;
  40; 2; 20991; 2; 74; 2; 158; 2; 24; 2; 207; 2; 60; 2; 8767; 2; 40; 2; 92; 2; 138; 2; 45759; 2;
  24; 2; 16623; 2; 204; 2; 111; 2; 40; 2; 29439; 2; 74; 2; 159; 2; 24; 2; 222; 2; 172; 2; 17487;
  2; 40; 2; 8749; 2; 138; 2; 43183; 2; 24; 2; 238; 2; 41645; 2; 95; 2; 40; 2; 17663; 2; 74; 2;
  34959; 2; 24; 2; 43695; 2; 60; 2; 4383; 4; 63741; 40; 92; 4; 188; 138; 26367; 4; 205; 24; 4381;
  4; 156; 58; 43183; 4; 252; 40; 12605; 4; 172; 74; 46015; 4; 45757; 24; 62975; 4; 108; 20861;
  21599; 4; 62205; 40; 8749; 4; 8877; 138; 17647; 4; 204; 24; 62719; 4; 124; 58; 17535; 4; 16605;
  40; 12861; 4; 157; 74; 222; 4; 35005; 24; 64255; 4; 4445; 61949; 17487; 4; 63741; 40; 92; 4;
  188; 138; 51439; 4; 205; 24; 4381; 4; 156; 58; 34959; 4; 252; 40; 12605; 4; 172; 74; 17631; 4;
  45757; 24; 43263; 4; 108; 20861; 111; 4; 62205; 40; 8749; 4; 8877; 138; 238; 4; 204; 24; 58095;
  4; 124; 58; 29311; 4; 16605; 40; 12861; 4; 157; 74; 45503; 4; 35005; 24; 29695; 4; 4445; 61949;
  13119; 2; 136; 2; 8429; 2; 202; 2; 50383; 2; 72; 2; 13055; 2; 26; 2; 34959; 2; 136; 2; 108; 2;
  42; 2; 175; 2; 72; 2; 8943; 2; 172; 2; 95; 2; 136; 2; 17485; 2; 202; 2; 52431; 2; 72; 2; 254;
  2; 26; 2; 111; 2; 136; 2; 92; 2; 42; 2; 159; 2; 72; 2; 223; 2; 12541; 2; 8751; 2; 136; 2; 8429;
  2; 202; 2; 51407; 2; 72; 2; 4607; 2; 26; 2; 126; 2; 136; 2; 108; 2; 42; 2; 127; 2; 72; 2; 238;
  2; 172; 2; 62; 2; 136; 2; 17485; 2; 202; 2; 190; 2; 72; 2; 191; 2; 26; 2; 63; 2; 136; 2; 92; 2;
  42; 2; 158; 2; 72; 2; 222; 2; 12541; 2; 4383; 4; 43245; 72; 34957; 4; 220; 202; 62463; 4;
  64765; 42; 61; 4; 188; 90; 55519; 4; 63741; 72; 108; 4; 8317; 138; 39423; 4; 236; 250; 60; 4;
  172; 26; 159; 4; 62205; 72; 124; 4; 17613; 202; 30463; 4; 61949; 42; 17485; 4; 173; 90; 51407;
  4; 62717; 72; 17501; 4; 4285; 138; 58607; 4; 21725; 250; 4381; 4; 156; 26; 8751; 4; 43245; 72;
  34957; 4; 220; 202; 64255; 4; 64765; 42; 61; 4; 188; 90; 4543; 4; 63741; 72; 108; 4; 8317; 138;
  8943; 4; 236; 250; 60; 4; 172; 26; 8831; 4; 62205; 72; 124; 4; 17613; 202; 54783; 4; 61949; 42;
  17485; 4; 173; 90; 111; 4; 62717; 72; 17501; 4; 4285; 138; 4575; 4; 21725; 250; 4381; 4; 156;
  26; 20831; 6; 252; 24; 4381; 72; 34957; 170; 54495; 6; 41645; 90; 30463; 40; 8765; 188; 43695;
  6; 236; 24; 62975; 72; 108; 138; 52431; 6; 157; 202; 17647; 40; 60; 63741; 12671; 6; 59629; 24;
  61951; 72; 124; 170; 50383; 6; 8829; 90; 53727; 40; 17485; 62717; 20831; 6; 220; 24; 58095; 72;
  17501; 138; 8895; 6; 156; 202; 51423; 40; 8749; 62205; 8815; 6; 252; 24; 4381; 72; 34957; 170;
  45503; 6; 41645; 90; 13311; 40; 8765; 188; 43183; 6; 236; 24; 47615; 72; 108; 138; 43199; 6;
  157; 202; 58607; 40; 60; 63741; 25711; 6; 59629; 24; 64767; 72; 124; 170; 51407; 6; 8829; 90;
  60143; 40; 17485; 62717; 29823; 6; 220; 24; 64255; 72; 17501; 138; 45759; 6; 156; 202; 17631;
  40; 8749; 62205; 12607; 246; 64253; 61947; 60; 8; 12989; 122; 4575; 246; 21725; 62203; 58607;
  218; 29053; 64765; 29567; 246; 62461; 63739; 4381; 8; 156; 90; 45503; 246; 205; 186; 55519;
  62715; 108; 47613; 21599; 246; 30461; 61947; 44; 8; 172; 122; 159; 246; 173; 62203; 63487; 218;
  76; 62973; 29823; 246; 236; 63739; 28; 8; 140; 90; 34959; 246; 204; 186; 58095; 62715; 4445;
  43245; 4415; 246; 64253; 61947; 60; 8; 12989; 122; 53727; 246; 21725; 62203; 64511; 218; 29053;
  64765; 17535; 246; 62461; 63739; 4381; 8; 156; 90; 29311; 246; 205; 186; 8943; 62715; 108;
  47613; 17487; 246; 30461; 61947; 44; 8; 172; 122; 4543; 246; 173; 62203; 65535; 218; 76; 62973;
  12863; 246; 236; 63739; 28; 8; 140; 90; 111; 246; 204; 186; 47295; 62715; 4445; 43245; 8751].

(** source/core/coding/ht_block_decoding.hpp:73-98 [uvlc_dec_0] *)
Definition uvlc_dec_0 : list Z := [
  0; 0; 0; 0; 0; 0; 0; 0; 0; 0; 0; 0; 0; 0; 0; 0; 0; 0; 0; 0; 0; 0; 0; 0; 0; 0; 0; 0; 0; 0; 0; 0;
  0; 0; 0; 0; 0; 0; 0; 0; 0; 0; 0; 0; 0; 0; 0; 0; 0; 0; 0; 0; 0; 0; 0; 0; 0; 0; 0; 0; 0; 0; 0; 0;
  5803; 1025; 2050; 1025; 3211; 1025; 2050; 1025; 5803; 1025; 2050; 1025; 3211; 1025; 2050; 1025;
  5803; 1025; 2050; 1025; 3211; 1025; 2050; 1025; 5803; 1025; 2050; 1025; 3211; 1025; 2050; 1025;
  5803; 1025; 2050; 1025; 3211; 1025; 2050; 1025; 5803; 1025; 2050; 1025; 3211; 1025; 2050; 1025;
  5803; 1025; 2050; 1025; 3211; 1025; 2050; 1025; 5803; 1025; 2050; 1025; 3211; 1025; 2050; 1025;
  41003; 8193; 16386; 8193; 24587; 8193; 16386; 8193; 41003; 8193; 16386; 8193; 24587; 8193;
  16386; 8193; 41003; 8193; 16386; 8193; 24587; 8193; 16386; 8193; 41003; 8193; 16386; 8193;
  24587; 8193; 16386; 8193; 41003; 8193; 16386; 8193; 24587; 8193; 16386; 8193; 41003; 8193;
  16386; 8193; 24587; 8193; 16386; 8193; 41003; 8193; 16386; 8193; 24587; 8193; 16386; 8193;
  41003; 8193; 16386; 8193; 24587; 8193; 16386; 8193; 13996; 42028; 43053; 9218; 11404; 17411;
  10243; 9218; 22188; 25612; 18436; 9218; 19596; 17411; 10243; 9218; 13996; 42028; 26637; 9218;
  11404; 17411; 10243; 9218; 22188; 25612; 18436; 9218; 19596; 17411; 10243; 9218; 13996; 42028;
  43053; 9218; 11404; 17411; 10243; 9218; 22188; 25612; 18436; 9218; 19596; 17411; 10243; 9218;
  13996; 42028; 26637; 9218; 11404; 17411; 10243; 9218; 22188; 25612; 18436; 9218; 19596; 17411;
  10243; 9218; 65238; 60460; 61485; 27650; 62646; 35843; 28675; 27650; 32428; 44044; 36868;
  27650; 29836; 35843; 28675; 27650; 40621; 60460; 45069; 27650; 38029; 35843; 28675; 27650;
  32428; 44044; 36868; 27650; 29836; 35843; 28675; 27650; 48822; 60460; 61485; 27650; 46230;
  35843; 28675; 27650; 32428; 44044; 36868; 27650; 29836; 35843; 28675; 27650; 40621; 60460;
  45069; 27650; 38029; 35843; 28675; 27650; 32428; 44044; 36868; 27650; 29836; 35843; 28675; 27650].

(** source/core/coding/ht_block_decoding.hpp:108-128 [uvlc_dec_1] *)
Definition uvlc_dec_1 : list Z := [
  0; 0; 0; 0; 0; 0; 0; 0; 0; 0; 0; 0; 0; 0; 0; 0; 0; 0; 0; 0; 0; 0; 0; 0; 0; 0; 0; 0; 0; 0; 0; 0;
  0; 0; 0; 0; 0; 0; 0; 0; 0; 0; 0; 0; 0; 0; 0; 0; 0; 0; 0; 0; 0; 0; 0; 0; 0; 0; 0; 0; 0; 0; 0; 0;
  5803; 1025; 2050; 1025; 3211; 1025; 2050; 1025; 5803; 1025; 2050; 1025; 3211; 1025; 2050; 1025;
  5803; 1025; 2050; 1025; 3211; 1025; 2050; 1025; 5803; 1025; 2050; 1025; 3211; 1025; 2050; 1025;
  5803; 1025; 2050; 1025; 3211; 1025; 2050; 1025; 5803; 1025; 2050; 1025; 3211; 1025; 2050; 1025;
  5803; 1025; 2050; 1025; 3211; 1025; 2050; 1025; 5803; 1025; 2050; 1025; 3211; 1025; 2050; 1025;
  41003; 8193; 16386; 8193; 24587; 8193; 16386; 8193; 41003; 8193; 16386; 8193; 24587; 8193;
  16386; 8193; 41003; 8193; 16386; 8193; 24587; 8193; 16386; 8193; 41003; 8193; 16386; 8193;
  24587; 8193; 16386; 8193; 41003; 8193; 16386; 8193; 24587; 8193; 16386; 8193; 41003; 8193;
  16386; 8193; 24587; 8193; 16386; 8193; 41003; 8193; 16386; 8193; 24587; 8193; 16386; 8193;
  41003; 8193; 16386; 8193; 24587; 8193; 16386; 8193; 46806; 42028; 43053; 9218; 44214; 17411;
  10243; 9218; 13996; 25612; 18436; 9218; 11404; 17411; 10243; 9218; 22189; 42028; 26637; 9218;
  19597; 17411; 10243; 9218; 13996; 25612; 18436; 9218; 11404; 17411; 10243; 9218; 30390; 42028;
  43053; 9218; 27798; 17411; 10243; 9218; 13996; 25612; 18436; 9218; 11404; 17411; 10243; 9218;
  22189; 42028; 26637; 9218; 19597; 17411; 10243; 9218; 13996; 25612; 18436; 9218; 11404; 17411;
  10243; 9218].

