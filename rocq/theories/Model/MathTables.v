(* The tables of util/math_tables.cc, transcribed by tools/gentables.py.  Every entry is a decimal
   literal with six decimals; it is kept as its number of millionths. *)
From Coq Require Import Floats.SpecFloat.
From Verif.Common Require Import Base F32.
Open Scope Z_scope.

(* the float closest to n / 1000000, which is what a compiler makes of the literal *)
Definition micro (n : Z) : f32 :=
  match n with
  | 0 => S754_zero false
  | Z.pos p => fdiv (S754_finite false p 0) (S754_finite false 1000000 0)
  | Z.neg p => fdiv (S754_finite true p 0) (S754_finite false 1000000 0)
  end.

(* sinTable, lines 2-231 *)
Definition sinTable_micros : list Z := [
  0; 3068; 6136; 9204; 12272; 15339; 18407; 21474; 24541; 27608; 30675; 33741; 36807; 39873; 42938; 46003;
  49068; 52132; 55195; 58258; 61321; 64383; 67444; 70505; 73565; 76624; 79682; 82740; 85797; 88854; 91909; 94963;
  98017; 101070; 104122; 107172; 110222; 113271; 116319; 119365; 122411; 125455; 128498; 131540; 134581; 137620; 140658; 143695;
  146730; 149765; 152797; 155828; 158858; 161886; 164913; 167938; 170962; 173984; 177004; 180023; 183040; 186055; 189069; 192080;
  195090; 198098; 201105; 204109; 207111; 210112; 213110; 216107; 219101; 222094; 225084; 228072; 231058; 234042; 237024; 240003;
  242980; 245955; 248928; 251898; 254866; 257831; 260794; 263755; 266713; 269668; 272621; 275572; 278520; 281465; 284408; 287347;
  290285; 293219; 296151; 299080; 302006; 304929; 307850; 310767; 313682; 316593; 319502; 322408; 325310; 328210; 331106; 334000;
  336890; 339777; 342661; 345541; 348419; 351293; 354164; 357031; 359895; 362756; 365613; 368467; 371317; 374164; 377007; 379847;
  382683; 385516; 388345; 391170; 393992; 396810; 399624; 402435; 405241; 408044; 410843; 413638; 416430; 419217; 422000; 424780;
  427555; 430326; 433094; 435857; 438616; 441371; 444122; 446869; 449611; 452350; 455084; 457813; 460539; 463260; 465977; 468689;
  471397; 474100; 476799; 479494; 482184; 484869; 487550; 490227; 492898; 495565; 498228; 500885; 503538; 506187; 508830; 511469;
  514103; 516732; 519356; 521975; 524590; 527199; 529804; 532403; 534998; 537587; 540172; 542751; 545325; 547894; 550458; 553017;
  555570; 558119; 560662; 563199; 565732; 568259; 570781; 573297; 575808; 578314; 580814; 583309; 585798; 588282; 590760; 593232;
  595699; 598161; 600616; 603067; 605511; 607950; 610383; 612810; 615232; 617647; 620057; 622461; 624860; 627252; 629638; 632019;
  634393; 636762; 639124; 641481; 643832; 646176; 648514; 650847; 653173; 655493; 657807; 660114; 662416; 664711; 667000; 669283;
  671559; 673829; 676093; 678350; 680601; 682846; 685084; 687315; 689541; 691759; 693971; 696177; 698376; 700569; 702755; 704934;
  707107; 709273; 711432; 713585; 715731; 717870; 720003; 722128; 724247; 726359; 728464; 730563; 732654; 734739; 736817; 738887;
  740951; 743008; 745058; 747101; 749136; 751165; 753187; 755201; 757209; 759209; 761202; 763188; 765167; 767139; 769103; 771061;
  773010; 774953; 776888; 778817; 780737; 782651; 784557; 786455; 788346; 790230; 792107; 793975; 795837; 797691; 799537; 801376;
  803208; 805031; 806848; 808656; 810457; 812251; 814036; 815814; 817585; 819348; 821102; 822850; 824589; 826321; 828045; 829761;
  831470; 833170; 834863; 836548; 838225; 839894; 841555; 843208; 844854; 846491; 848120; 849742; 851355; 852961; 854558; 856147;
  857729; 859302; 860867; 862424; 863973; 865514; 867046; 868571; 870087; 871595; 873095; 874587; 876070; 877545; 879012; 880471;
  881921; 883363; 884797; 886223; 887640; 889048; 890449; 891841; 893224; 894599; 895966; 897325; 898674; 900016; 901349; 902673;
  903989; 905297; 906596; 907886; 909168; 910441; 911706; 912962; 914210; 915449; 916679; 917901; 919114; 920318; 921514; 922701;
  923880; 925049; 926210; 927363; 928506; 929641; 930767; 931884; 932993; 934093; 935184; 936266; 937339; 938404; 939459; 940506;
  941544; 942573; 943593; 944605; 945607; 946601; 947586; 948561; 949528; 950486; 951435; 952375; 953306; 954228; 955141; 956045;
  956940; 957826; 958703; 959571; 960431; 961280; 962121; 962953; 963776; 964590; 965394; 966190; 966976; 967754; 968522; 969281;
  970031; 970772; 971504; 972227; 972940; 973644; 974339; 975025; 975702; 976370; 977028; 977677; 978317; 978948; 979570; 980182;
  980785; 981379; 981964; 982539; 983105; 983662; 984210; 984748; 985278; 985798; 986308; 986809; 987301; 987784; 988258; 988722;
  989177; 989622; 990058; 990485; 990903; 991311; 991710; 992099; 992480; 992850; 993212; 993564; 993907; 994240; 994565; 994879;
  995185; 995481; 995767; 996045; 996313; 996571; 996820; 997060; 997290; 997511; 997723; 997925; 998118; 998302; 998476; 998640;
  998795; 998941; 999078; 999205; 999322; 999431; 999529; 999619; 999699; 999769; 999831; 999882; 999925; 999958; 999981; 999995;
  1000000; 999995; 999981; 999958; 999925; 999882; 999831; 999769; 999699; 999619; 999529; 999431; 999322; 999205; 999078; 998941;
  998795; 998640; 998476; 998302; 998118; 997925; 997723; 997511; 997290; 997060; 996820; 996571; 996313; 996045; 995767; 995481;
  995185; 994879; 994565; 994240; 993907; 993564; 993212; 992850; 992480; 992099; 991710; 991311; 990903; 990485; 990058; 989622;
  989177; 988722; 988258; 987784; 987301; 986809; 986308; 985798; 985278; 984748; 984210; 983662; 983105; 982539; 981964; 981379;
  980785; 980182; 979570; 978948; 978317; 977677; 977028; 976370; 975702; 975025; 974339; 973644; 972940; 972227; 971504; 970772;
  970031; 969281; 968522; 967754; 966976; 966190; 965394; 964590; 963776; 962953; 962121; 961280; 960431; 959571; 958703; 957826;
  956940; 956045; 955141; 954228; 953306; 952375; 951435; 950486; 949528; 948561; 947586; 946601; 945607; 944605; 943593; 942573;
  941544; 940506; 939459; 938404; 937339; 936266; 935184; 934093; 932993; 931884; 930767; 929641; 928506; 927363; 926210; 925049;
  923880; 922701; 921514; 920318; 919114; 917901; 916679; 915449; 914210; 912962; 911706; 910441; 909168; 907886; 906596; 905297;
  903989; 902673; 901349; 900016; 898674; 897325; 895966; 894599; 893224; 891841; 890449; 889048; 887640; 886222; 884797; 883363;
  881921; 880471; 879012; 877545; 876070; 874587; 873095; 871595; 870087; 868571; 867046; 865514; 863973; 862424; 860867; 859302;
  857729; 856147; 854558; 852961; 851355; 849742; 848120; 846491; 844854; 843208; 841555; 839894; 838225; 836548; 834863; 833170;
  831470; 829761; 828045; 826321; 824589; 822850; 821102; 819348; 817585; 815814; 814036; 812251; 810457; 808656; 806848; 805031;
  803208; 801376; 799537; 797691; 795837; 793975; 792107; 790230; 788346; 786455; 784557; 782651; 780737; 778817; 776888; 774953;
  773010; 771061; 769103; 767139; 765167; 763188; 761202; 759209; 757209; 755201; 753187; 751165; 749136; 747101; 745058; 743008;
  740951; 738887; 736817; 734739; 732654; 730563; 728464; 726359; 724247; 722128; 720003; 717870; 715731; 713585; 711432; 709273;
  707107; 704934; 702755; 700569; 698376; 696177; 693971; 691759; 689541; 687315; 685084; 682845; 680601; 678350; 676093; 673829;
  671559; 669283; 667000; 664711; 662416; 660114; 657807; 655493; 653173; 650847; 648514; 646176; 643832; 641481; 639124; 636762;
  634393; 632019; 629638; 627252; 624859; 622461; 620057; 617647; 615232; 612810; 610383; 607950; 605511; 603067; 600617; 598161;
  595699; 593232; 590760; 588282; 585798; 583309; 580814; 578314; 575808; 573297; 570781; 568259; 565732; 563199; 560661; 558118;
  555570; 553017; 550458; 547894; 545325; 542751; 540172; 537587; 534998; 532403; 529804; 527199; 524590; 521975; 519356; 516732;
  514103; 511469; 508830; 506187; 503538; 500885; 498228; 495565; 492898; 490226; 487550; 484869; 482184; 479494; 476799; 474100;
  471397; 468689; 465977; 463260; 460539; 457813; 455084; 452350; 449611; 446869; 444122; 441371; 438616; 435857; 433094; 430326;
  427555; 424780; 422000; 419217; 416429; 413638; 410843; 408044; 405241; 402435; 399624; 396810; 393992; 391170; 388345; 385516;
  382683; 379847; 377007; 374164; 371317; 368467; 365613; 362756; 359895; 357031; 354164; 351293; 348419; 345541; 342661; 339777;
  336890; 334000; 331106; 328210; 325310; 322408; 319502; 316593; 313682; 310767; 307850; 304929; 302006; 299080; 296151; 293219;
  290285; 287347; 284408; 281465; 278520; 275572; 272621; 269668; 266713; 263755; 260794; 257831; 254866; 251898; 248928; 245955;
  242980; 240003; 237024; 234042; 231058; 228072; 225084; 222094; 219101; 216107; 213110; 210112; 207111; 204109; 201105; 198098;
  195090; 192080; 189069; 186055; 183040; 180023; 177004; 173984; 170962; 167938; 164913; 161886; 158858; 155829; 152797; 149765;
  146731; 143695; 140658; 137620; 134581; 131540; 128498; 125455; 122411; 119365; 116319; 113271; 110222; 107172; 104122; 101070;
  98017; 94963; 91909; 88853; 85797; 82740; 79682; 76624; 73564; 70505; 67444; 64383; 61321; 58258; 55195; 52132;
  49068; 46003; 42938; 39873; 36807; 33741; 30675; 27608; 24541; 21474; 18407; 15339; 12271; 9204; 6136; 3068;
  0; -3068; -6136; -9204; -12271; -15339; -18407; -21474; -24541; -27608; -30675; -33741; -36807; -39873; -42938; -46003;
  -49068; -52132; -55195; -58258; -61321; -64383; -67444; -70505; -73565; -76624; -79683; -82740; -85797; -88854; -91909; -94964;
  -98017; -101070; -104122; -107172; -110222; -113271; -116319; -119365; -122411; -125455; -128498; -131540; -134581; -137620; -140658; -143695;
  -146730; -149765; -152797; -155828; -158858; -161886; -164913; -167938; -170962; -173984; -177004; -180023; -183040; -186055; -189069; -192080;
  -195090; -198098; -201105; -204109; -207111; -210112; -213110; -216107; -219101; -222094; -225084; -228072; -231058; -234042; -237024; -240003;
  -242980; -245955; -248928; -251898; -254866; -257831; -260794; -263755; -266713; -269668; -272621; -275572; -278520; -281465; -284407; -287347;
  -290285; -293219; -296151; -299080; -302006; -304929; -307850; -310767; -313682; -316593; -319502; -322408; -325310; -328210; -331106; -334000;
  -336890; -339777; -342661; -345541; -348419; -351293; -354163; -357031; -359895; -362756; -365613; -368467; -371317; -374164; -377007; -379847;
  -382683; -385516; -388345; -391170; -393992; -396810; -399624; -402435; -405241; -408044; -410843; -413638; -416430; -419217; -422000; -424780;
  -427555; -430326; -433094; -435857; -438616; -441371; -444122; -446869; -449611; -452350; -455084; -457813; -460539; -463260; -465977; -468689;
  -471397; -474100; -476799; -479494; -482184; -484869; -487550; -490227; -492898; -495565; -498228; -500885; -503538; -506187; -508830; -511469;
  -514103; -516732; -519356; -521975; -524590; -527199; -529804; -532403; -534998; -537587; -540172; -542751; -545325; -547894; -550458; -553017;
  -555570; -558119; -560662; -563199; -565732; -568259; -570781; -573297; -575808; -578314; -580814; -583309; -585798; -588282; -590760; -593232;
  -595699; -598161; -600617; -603067; -605511; -607950; -610383; -612810; -615232; -617647; -620057; -622461; -624860; -627252; -629638; -632019;
  -634393; -636762; -639124; -641481; -643831; -646176; -648514; -650847; -653173; -655493; -657807; -660114; -662416; -664711; -667000; -669283;
  -671559; -673829; -676093; -678350; -680601; -682846; -685084; -687315; -689541; -691759; -693972; -696177; -698376; -700569; -702755; -704934;
  -707107; -709273; -711432; -713585; -715731; -717870; -720002; -722128; -724247; -726359; -728464; -730563; -732654; -734739; -736817; -738887;
  -740951; -743008; -745058; -747101; -749136; -751165; -753187; -755201; -757209; -759209; -761202; -763188; -765167; -767139; -769103; -771061;
  -773010; -774953; -776888; -778817; -780737; -782651; -784557; -786455; -788346; -790230; -792107; -793976; -795837; -797691; -799537; -801376;
  -803208; -805031; -806848; -808656; -810457; -812251; -814036; -815814; -817585; -819348; -821103; -822850; -824589; -826321; -828045; -829761;
  -831469; -833170; -834863; -836548; -838225; -839894; -841555; -843208; -844853; -846491; -848120; -849742; -851355; -852961; -854558; -856147;
  -857729; -859302; -860867; -862424; -863973; -865514; -867046; -868571; -870087; -871595; -873095; -874587; -876070; -877545; -879012; -880471;
  -881921; -883363; -884797; -886223; -887640; -889048; -890449; -891841; -893224; -894600; -895966; -897325; -898675; -900016; -901349; -902673;
  -903989; -905297; -906596; -907886; -909168; -910441; -911706; -912962; -914210; -915449; -916679; -917901; -919114; -920318; -921514; -922701;
  -923880; -925049; -926210; -927363; -928506; -929641; -930767; -931884; -932993; -934093; -935183; -936266; -937339; -938404; -939459; -940506;
  -941544; -942573; -943593; -944605; -945607; -946601; -947586; -948561; -949528; -950486; -951435; -952375; -953306; -954228; -955141; -956045;
  -956940; -957826; -958704; -959572; -960431; -961281; -962121; -962953; -963776; -964590; -965394; -966190; -966977; -967754; -968522; -969281;
  -970031; -970772; -971504; -972226; -972940; -973644; -974339; -975025; -975702; -976370; -977028; -977677; -978317; -978948; -979570; -980182;
  -980785; -981379; -981964; -982539; -983105; -983662; -984210; -984748; -985278; -985798; -986308; -986809; -987301; -987784; -988258; -988722;
  -989177; -989622; -990058; -990485; -990903; -991311; -991710; -992099; -992480; -992850; -993212; -993564; -993907; -994240; -994565; -994879;
  -995185; -995481; -995767; -996045; -996313; -996571; -996820; -997060; -997290; -997511; -997723; -997925; -998118; -998302; -998476; -998640;
  -998795; -998941; -999078; -999205; -999322; -999431; -999529; -999619; -999699; -999769; -999831; -999882; -999925; -999958; -999981; -999995;
  -1000000; -999995; -999981; -999958; -999925; -999882; -999831; -999769; -999699; -999619; -999529; -999431; -999322; -999205; -999078; -998941;
  -998795; -998640; -998476; -998302; -998118; -997925; -997723; -997511; -997290; -997060; -996820; -996571; -996313; -996045; -995767; -995481;
  -995185; -994879; -994565; -994240; -993907; -993564; -993212; -992850; -992480; -992099; -991710; -991311; -990903; -990485; -990058; -989622;
  -989177; -988722; -988258; -987784; -987301; -986809; -986308; -985798; -985278; -984748; -984210; -983662; -983105; -982539; -981964; -981379;
  -980785; -980182; -979570; -978948; -978317; -977677; -977028; -976370; -975702; -975025; -974339; -973644; -972940; -972226; -971504; -970772;
  -970031; -969281; -968522; -967754; -966977; -966190; -965394; -964590; -963776; -962953; -962121; -961281; -960431; -959572; -958704; -957826;
  -956940; -956045; -955141; -954228; -953306; -952375; -951435; -950486; -949528; -948561; -947586; -946601; -945607; -944605; -943593; -942573;
  -941544; -940506; -939459; -938403; -937339; -936266; -935183; -934093; -932993; -931884; -930767; -929641; -928506; -927362; -926210; -925049;
  -923879; -922701; -921514; -920318; -919114; -917901; -916679; -915449; -914210; -912962; -911706; -910441; -909168; -907886; -906596; -905297;
  -903989; -902673; -901349; -900016; -898675; -897325; -895966; -894600; -893224; -891841; -890449; -889048; -887640; -886223; -884797; -883363;
  -881921; -880471; -879012; -877545; -876070; -874587; -873095; -871595; -870087; -868571; -867046; -865514; -863973; -862424; -860867; -859302;
  -857729; -856147; -854558; -852961; -851355; -849742; -848120; -846491; -844853; -843208; -841555; -839894; -838225; -836548; -834863; -833170;
  -831470; -829761; -828045; -826321; -824589; -822850; -821103; -819348; -817585; -815814; -814036; -812251; -810457; -808656; -806848; -805031;
  -803208; -801376; -799537; -797691; -795837; -793976; -792107; -790230; -788346; -786455; -784557; -782651; -780737; -778817; -776888; -774953;
  -773010; -771060; -769103; -767139; -765167; -763188; -761202; -759209; -757209; -755201; -753187; -751165; -749136; -747100; -745058; -743008;
  -740951; -738887; -736816; -734739; -732654; -730563; -728465; -726359; -724247; -722128; -720003; -717870; -715731; -713585; -711432; -709273;
  -707107; -704934; -702755; -700569; -698376; -696177; -693972; -691759; -689541; -687315; -685084; -682846; -680601; -678350; -676093; -673829;
  -671559; -669283; -667000; -664711; -662416; -660114; -657807; -655493; -653173; -650847; -648514; -646176; -643831; -641481; -639124; -636762;
  -634393; -632019; -629638; -627252; -624859; -622461; -620057; -617647; -615231; -612810; -610383; -607950; -605511; -603067; -600617; -598161;
  -595699; -593232; -590760; -588282; -585798; -583309; -580814; -578314; -575808; -573297; -570781; -568259; -565732; -563199; -560662; -558119;
  -555570; -553017; -550458; -547894; -545325; -542751; -540172; -537587; -534998; -532403; -529804; -527199; -524590; -521975; -519356; -516732;
  -514103; -511469; -508830; -506187; -503538; -500885; -498228; -495565; -492898; -490226; -487550; -484869; -482184; -479494; -476799; -474100;
  -471397; -468689; -465976; -463260; -460539; -457814; -455084; -452350; -449612; -446869; -444122; -441371; -438616; -435857; -433094; -430327;
  -427555; -424780; -422000; -419217; -416430; -413638; -410843; -408044; -405241; -402435; -399624; -396810; -393992; -391170; -388345; -385516;
  -382683; -379847; -377007; -374164; -371317; -368467; -365613; -362756; -359895; -357031; -354163; -351293; -348419; -345541; -342661; -339777;
  -336890; -333999; -331106; -328210; -325310; -322407; -319502; -316593; -313682; -310767; -307850; -304929; -302006; -299080; -296151; -293219;
  -290285; -287348; -284408; -281465; -278520; -275572; -272621; -269668; -266713; -263755; -260794; -257831; -254866; -251898; -248928; -245955;
  -242980; -240003; -237024; -234042; -231058; -228072; -225084; -222094; -219101; -216107; -213110; -210112; -207111; -204109; -201105; -198098;
  -195090; -192080; -189069; -186055; -183040; -180023; -177004; -173984; -170962; -167938; -164913; -161886; -158858; -155828; -152797; -149764;
  -146730; -143695; -140658; -137620; -134581; -131540; -128498; -125455; -122411; -119365; -116319; -113271; -110222; -107173; -104122; -101070;
  -98017; -94964; -91909; -88854; -85797; -82740; -79682; -76624; -73565; -70505; -67444; -64383; -61321; -58258; -55195; -52132;
  -49068; -46003; -42938; -39873; -36807; -33741; -30675; -27608; -24541; -21474; -18407; -15339; -12271; -9204; -6136; -3068].
(* entry 1024 is the literal -0.000000f *)
Definition sinTable : list f32 := zupd (map micro sinTable_micros) 1024 (S754_zero true).

(* tanTable, lines 232-489 *)
Definition tanTable_micros : list Z := [
  0; 1534; 3068; 4602; 6136; 7670; 9204; 10738; 12272; 13807; 15341; 16875; 18410; 19944; 21479; 23014;
  24549; 26084; 27619; 29154; 30689; 32225; 33760; 35296; 36832; 38368; 39905; 41441; 42978; 44515; 46052; 47589;
  49127; 50665; 52203; 53741; 55280; 56818; 58357; 59897; 61436; 62976; 64516; 66057; 67598; 69139; 70680; 72222;
  73764; 75307; 76850; 78393; 79937; 81481; 83025; 84570; 86115; 87660; 89206; 90753; 92300; 93847; 95395; 96943;
  98491; 100041; 101590; 103140; 104691; 106242; 107793; 109345; 110898; 112451; 114005; 115559; 117114; 118669; 120225; 121781;
  123338; 124896; 126454; 128013; 129572; 131132; 132693; 134254; 135816; 137379; 138942; 140506; 142071; 143636; 145202; 146769;
  148336; 149904; 151473; 153042; 154613; 156184; 157756; 159328; 160901; 162475; 164050; 165626; 167202; 168780; 170358; 171937;
  173516; 175097; 176678; 178261; 179844; 181428; 183013; 184599; 186185; 187773; 189362; 190951; 192541; 194133; 195725; 197318;
  198912; 200508; 202104; 203701; 205299; 206898; 208498; 210099; 211702; 213305; 214909; 216515; 218121; 219728; 221337; 222947;
  224558; 226169; 227782; 229397; 231012; 232628; 234246; 235865; 237484; 239106; 240728; 242351; 243976; 245602; 247229; 248857;
  250487; 252118; 253750; 255383; 257018; 258654; 260291; 261930; 263570; 265211; 266853; 268497; 270143; 271789; 273437; 275086;
  276737; 278389; 280043; 281698; 283354; 285012; 286672; 288332; 289995; 291658; 293324; 294990; 296659; 298328; 300000; 301672;
  303347; 305023; 306700; 308379; 310060; 311742; 313426; 315111; 316799; 318487; 320178; 321870; 323563; 325259; 326956; 328655;
  330355; 332058; 333762; 335467; 337175; 338884; 340595; 342308; 344023; 345739; 347457; 349177; 350899; 352623; 354349; 356076;
  357806; 359537; 361270; 363005; 364743; 366482; 368223; 369965; 371710; 373457; 375206; 376957; 378710; 380465; 382222; 383981;
  385743; 387506; 389271; 391039; 392808; 394580; 396354; 398130; 399908; 401689; 403471; 405256; 407043; 408832; 410624; 412418;
  414214; 416012; 417812; 419615; 421421; 423228; 425038; 426850; 428665; 430482; 432302; 434123; 435948; 437775; 439604; 441435;
  443269; 445106; 446945; 448787; 450631; 452478; 454327; 456179; 458034; 459891; 461751; 463613; 465478; 467346; 469216; 471089;
  472965; 474843; 476725; 478608; 480495; 482385; 484277; 486172; 488070; 489971; 491875; 493781; 495691; 497603; 499518; 501437;
  503358; 505282; 507209; 509139; 511072; 513008; 514948; 516890; 518835; 520784; 522735; 524690; 526648; 528609; 530573; 532541;
  534511; 536485; 538462; 540443; 542426; 544413; 546403; 548397; 550394; 552394; 554398; 556405; 558416; 560430; 562448; 564469;
  566493; 568521; 570553; 572588; 574626; 576669; 578715; 580764; 582817; 584874; 586935; 588999; 591067; 593139; 595214; 597294;
  599377; 601464; 603555; 605649; 607748; 609851; 611957; 614068; 616182; 618300; 620423; 622549; 624680; 626814; 628953; 631096;
  633243; 635394; 637550; 639709; 641873; 644041; 646214; 648390; 650571; 652757; 654947; 657141; 659339; 661542; 663750; 665962;
  668179; 670400; 672625; 674856; 677091; 679330; 681575; 683823; 686077; 688335; 690599; 692867; 695139; 697417; 699700; 701987;
  704279; 706577; 708879; 711186; 713499; 715816; 718139; 720466; 722799; 725137; 727480; 729829; 732183; 734542; 736906; 739276;
  741651; 744031; 746417; 748808; 751205; 753607; 756015; 758429; 760848; 763273; 765703; 768140; 770582; 773029; 775483; 777942;
  780408; 782879; 785356; 787839; 790328; 792823; 795325; 797832; 800345; 802865; 805391; 807923; 810462; 813006; 815557; 818115;
  820679; 823249; 825826; 828409; 830999; 833596; 836199; 838809; 841426; 844049; 846680; 849317; 851961; 854611; 857269; 859934;
  862606; 865285; 867971; 870664; 873365; 876072; 878787; 881510; 884239; 886976; 889721; 892473; 895232; 898000; 900774; 903557;
  906347; 909145; 911951; 914765; 917586; 920416; 923253; 926099; 928952; 931814; 934684; 937563; 940449; 943344; 946247; 949159;
  952079; 955008; 957945; 960891; 963846; 966809; 969782; 972763; 975753; 978752; 981760; 984777; 987803; 990838; 993883; 996937;
  1000000; 1003073; 1006155; 1009246; 1012348; 1015459; 1018579; 1021710; 1024850; 1028000; 1031160; 1034330; 1037510; 1040701; 1043901; 1047112;
  1050333; 1053564; 1056806; 1060059; 1063322; 1066596; 1069880; 1073175; 1076481; 1079798; 1083127; 1086466; 1089816; 1093177; 1096550; 1099934;
  1103330; 1106737; 1110156; 1113586; 1117028; 1120482; 1123948; 1127426; 1130916; 1134418; 1137932; 1141458; 1144997; 1148548; 1152112; 1155689;
  1159278; 1162880; 1166495; 1170123; 1173763; 1177417; 1181084; 1184765; 1188459; 1192166; 1195887; 1199622; 1203370; 1207132; 1210909; 1214699;
  1218503; 1222322; 1226155; 1230003; 1233865; 1237742; 1241633; 1245539; 1249460; 1253397; 1257348; 1261315; 1265297; 1269295; 1273308; 1277337;
  1281382; 1285442; 1289519; 1293612; 1297721; 1301847; 1305989; 1310147; 1314323; 1318515; 1322724; 1326951; 1331194; 1335455; 1339734; 1344030;
  1348344; 1352676; 1357025; 1361393; 1365780; 1370184; 1374607; 1379049; 1383510; 1387990; 1392488; 1397007; 1401544; 1406101; 1410678; 1415274;
  1419891; 1424528; 1429185; 1433862; 1438560; 1443279; 1448019; 1452780; 1457562; 1462366; 1467191; 1472038; 1476907; 1481798; 1486711; 1491647;
  1496606; 1501587; 1506591; 1511619; 1516670; 1521744; 1526842; 1531964; 1537110; 1542281; 1547476; 1552696; 1557940; 1563210; 1568505; 1573826;
  1579172; 1584545; 1589944; 1595369; 1600820; 1606299; 1611804; 1617337; 1622897; 1628486; 1634102; 1639746; 1645419; 1651120; 1656851; 1662610;
  1668399; 1674218; 1680067; 1685946; 1691855; 1697795; 1703767; 1709769; 1715803; 1721869; 1727967; 1734098; 1740261; 1746457; 1752687; 1758950;
  1765247; 1771578; 1777944; 1784344; 1790780; 1797251; 1803758; 1810301; 1816880; 1823496; 1830150; 1836840; 1843569; 1850335; 1857141; 1863985;
  1870868; 1877791; 1884754; 1891758; 1898802; 1905887; 1913014; 1920183; 1927394; 1934648; 1941945; 1949286; 1956671; 1964100; 1971574; 1979094;
  1986659; 1994270; 2001929; 2009634; 2017387; 2025188; 2033038; 2040937; 2048885; 2056884; 2064933; 2073034; 2081186; 2089390; 2097647; 2105958;
  2114322; 2122741; 2131215; 2139744; 2148330; 2156972; 2165672; 2174429; 2183246; 2192121; 2201057; 2210053; 2219110; 2228229; 2237411; 2246655;
  2255964; 2265338; 2274776; 2284281; 2293852; 2303492; 2313200; 2322976; 2332823; 2342741; 2352730; 2362791; 2372926; 2383135; 2393418; 2403778;
  2414214; 2424727; 2435319; 2445991; 2456743; 2467576; 2478492; 2489491; 2500574; 2511743; 2522998; 2534340; 2545771; 2557292; 2568902; 2580606;
  2592402; 2604293; 2616279; 2628361; 2640541; 2652821; 2665200; 2677682; 2690266; 2702955; 2715749; 2728650; 2741660; 2754780; 2768011; 2781355;
  2794813; 2808387; 2822079; 2835889; 2849821; 2863874; 2878052; 2892355; 2906786; 2921345; 2936037; 2950861; 2965820; 2980916; 2996150; 3011525;
  3027043; 3042706; 3058515; 3074474; 3090583; 3106847; 3123266; 3139843; 3156580; 3173481; 3190547; 3207780; 3225184; 3242762; 3260515; 3278446;
  3296559; 3314856; 3333339; 3352013; 3370878; 3389941; 3409204; 3428668; 3448339; 3468219; 3488312; 3508620; 3529149; 3549901; 3570880; 3592090;
  3613536; 3635220; 3657148; 3679323; 3701750; 3724432; 3747376; 3770585; 3794064; 3817818; 3841851; 3866170; 3890779; 3915683; 3940889; 3966401;
  3992223; 4018365; 4044832; 4071630; 4098763; 4126241; 4154068; 4182253; 4210802; 4239721; 4269020; 4298704; 4328783; 4359263; 4390155; 4421465;
  4453203; 4485377; 4517997; 4551072; 4584613; 4618629; 4653129; 4688127; 4723630; 4759653; 4796205; 4833296; 4870944; 4909160; 4947955; 4987343;
  5027339; 5067956; 5109210; 5151115; 5193688; 5236946; 5280903; 5325579; 5370990; 5417157; 5464096; 5511829; 5560377; 5609760; 5659999; 5711120;
  5763143; 5816095; 5870000; 5924884; 5980776; 6037702; 6095693; 6154774; 6214986; 6276357; 6338921; 6402714; 6467772; 6534134; 6601840; 6670932;
  6741452; 6813446; 6886960; 6962045; 7038750; 7117130; 7197241; 7279140; 7362889; 7448551; 7536193; 7625885; 7717701; 7811717; 7908013; 8006675;
  8107789; 8211452; 8317749; 8426804; 8538714; 8653595; 8771567; 8892757; 9017300; 9145336; 9277016; 9412497; 9551948; 9695546; 9843481; 9995952;
  10153171; 10315365; 10482775; 10655656; 10834283; 11018948; 11209963; 11407662; 11612404; 11824573; 12044580; 12272870; 12509921; 12756228; 13012387; 13278980;
  13556661; 13846135; 14148173; 14463613; 14793366; 15138434; 15499910; 15878993; 16277004; 16695402; 17135792; 17599960; 18089886; 18607779; 19156107; 19737635;
  20355478; 21013147; 21714628; 22464453; 23267797; 24130613; 25059761; 26063198; 27150213; 28331614; 29620461; 31032009; 32584660; 34300694; 36207340; 38338242;
  40735439; 43452198; 46556992; 50139370; 54318726; 59257874; 65184753; 72428604; 81483299; 93124916; 108646912; 130377548; 162973312; 217299469; 325952026; 651914856;
  -22877334000000; -651877686; -325942719; -217295334; -162974167; -130378082; -108647293; -93125191; -81483513; -72428772; -65184891; -59257984; -54318821; -50139450; -46557060; -43452259;
  -40735493; -38338287; -36207382; -34300732; -32584694; -31032040; -29620489; -28331638; -27150148; -26063139; -25059706; -24130562; -23267750; -22464407; -21714586; -21013109;
  -20355490; -19737648; -19156118; -18607790; -18089897; -17599970; -17135801; -16695410; -16277014; -15879002; -15499918; -15138442; -14793374; -14463619; -14148180; -13846142;
  -13556666; -13278986; -13012393; -12756233; -12509907; -12272857; -12044567; -11824560; -11612392; -11407651; -11209952; -11018951; -10834287; -10655660; -10482778; -10315369;
  -10153174; -9995955; -9843484; -9695550; -9551951; -9412499; -9277019; -9145339; -9017303; -8892760; -8771570; -8653598; -8538716; -8426805; -8317752; -8211445;
  -8107783; -8006669; -7908008; -7811712; -7717696; -7625880; -7536195; -7448553; -7362890; -7279141; -7197242; -7117132; -7038752; -6962046; -6886961; -6813447;
  -6741453; -6670933; -6601841; -6534135; -6467773; -6402715; -6338922; -6276358; -6214987; -6154775; -6095690; -6037699; -5980772; -5924881; -5869997; -5816092;
  -5763140; -5711117; -5660001; -5609761; -5560378; -5511830; -5464097; -5417158; -5370991; -5325580; -5280904; -5236947; -5193689; -5151116; -5109210; -5067957;
  -5027339; -4987344; -4947955; -4909160; -4870945; -4833297; -4796203; -4759651; -4723629; -4688124; -4653127; -4618626; -4584611; -4551073; -4517998; -4485377;
  -4453203; -4421465; -4390155; -4359264; -4328784; -4298705; -4269020; -4239722; -4210802; -4182254; -4154069; -4126242; -4098764; -4071630; -4044833; -4018366;
  -3992223; -3966399; -3940887; -3915682; -3890778; -3866169; -3841850; -3817816; -3794062; -3770585; -3747376; -3724433; -3701750; -3679323; -3657148; -3635221;
  -3613536; -3592091; -3570880; -3549901; -3529149; -3508621; -3488312; -3468220; -3448340; -3428669; -3409204; -3389942; -3370879; -3352012; -3333338; -3314854;
  -3296558; -3278445; -3260514; -3242761; -3225185; -3207781; -3190547; -3173481; -3156581; -3139843; -3123266; -3106847; -3090584; -3074474; -3058515; -3042706;
  -3027043; -3011525; -2996150; -2980916; -2965820; -2950861; -2936037; -2921346; -2906785; -2892354; -2878051; -2863873; -2849820; -2835889; -2822078; -2808387;
  -2794813; -2781355; -2768011; -2754780; -2741660; -2728651; -2715749; -2702955; -2690266; -2677682; -2665201; -2652821; -2640542; -2628361; -2616279; -2604293;
  -2592402; -2580606; -2568903; -2557292; -2545771; -2534340; -2522997; -2511742; -2500574; -2489490; -2478491; -2467577; -2456743; -2445991; -2435320; -2424727;
  -2414214; -2403778; -2393418; -2383135; -2372926; -2362791; -2352730; -2342741; -2332824; -2322977; -2313200; -2303492; -2293853; -2284281; -2274776; -2265337;
  -2255964; -2246655; -2237410; -2228228; -2219109; -2210052; -2201057; -2192122; -2183246; -2174429; -2165672; -2156972; -2148330; -2139744; -2131215; -2122741;
  -2114322; -2105958; -2097648; -2089391; -2081186; -2073034; -2064934; -2056884; -2048885; -2040937; -2033038; -2025188; -2017387; -2009634; -2001928; -1994270;
  -1986659; -1979093; -1971574; -1964100; -1956670; -1949286; -1941945; -1934648; -1927394; -1920183; -1913014; -1905887; -1898801; -1891757; -1884754; -1877792;
  -1870869; -1863986; -1857141; -1850336; -1843569; -1836841; -1830150; -1823497; -1816880; -1810301; -1803758; -1797251; -1790780; -1784344; -1777944; -1771578;
  -1765247; -1758950; -1752687; -1746457; -1740261; -1734098; -1727968; -1721869; -1715803; -1709769; -1703767; -1697796; -1691855; -1685946; -1680067; -1674218;
  -1668399; -1662610; -1656850; -1651120; -1645418; -1639746; -1634101; -1628485; -1622897; -1617337; -1611804; -1606298; -1600820; -1595368; -1589943; -1584545;
  -1579172; -1573826; -1568505; -1563210; -1557940; -1552695; -1547476; -1542281; -1537111; -1531965; -1526842; -1521744; -1516670; -1511619; -1506592; -1501587;
  -1496606; -1491647; -1486712; -1481798; -1476907; -1472038; -1467191; -1462366; -1457562; -1452780; -1448019; -1443279; -1438560; -1433862; -1429185; -1424528;
  -1419891; -1415274; -1410678; -1406101; -1401544; -1397007; -1392488; -1387990; -1383510; -1379049; -1374607; -1370184; -1365779; -1361393; -1357025; -1352676;
  -1348344; -1344030; -1339734; -1335455; -1331194; -1326950; -1322724; -1318515; -1314322; -1310147; -1305988; -1301846; -1297721; -1293612; -1289519; -1285442;
  -1281382; -1277337; -1273308; -1269295; -1265297; -1261315; -1257348; -1253397; -1249461; -1245539; -1241633; -1237742; -1233865; -1230003; -1226155; -1222322;
  -1218504; -1214699; -1210909; -1207133; -1203370; -1199622; -1195887; -1192166; -1188459; -1184765; -1181084; -1177417; -1173763; -1170122; -1166495; -1162880;
  -1159278; -1155689; -1152112; -1148548; -1144997; -1141458; -1137932; -1134418; -1130916; -1127426; -1123948; -1120482; -1117028; -1113586; -1110156; -1106737;
  -1103330; -1099934; -1096550; -1093177; -1089816; -1086466; -1083127; -1079799; -1076482; -1073175; -1069880; -1066596; -1063322; -1060059; -1056806; -1053564;
  -1050333; -1047112; -1043901; -1040701; -1037510; -1034330; -1031160; -1028000; -1024850; -1021710; -1018579; -1015459; -1012348; -1009246; -1006155; -1003073;
  -1000000; -996937; -993883; -990838; -987803; -984777; -981760; -978752; -975753; -972763; -969781; -966809; -963846; -960891; -957945; -955008;
  -952079; -949159; -946247; -943344; -940449; -937562; -934684; -931814; -928952; -926099; -923253; -920416; -917586; -914765; -911951; -909145;
  -906347; -903557; -900775; -898000; -895233; -892473; -889721; -886976; -884239; -881510; -878787; -876072; -873365; -870664; -867971; -865285;
  -862606; -859934; -857269; -854611; -851961; -849317; -846680; -844049; -841426; -838809; -836199; -833596; -830999; -828409; -825826; -823249;
  -820679; -818115; -815557; -813006; -810461; -807923; -805391; -802865; -800345; -797832; -795324; -792823; -790328; -787839; -785356; -782879;
  -780407; -777943; -775483; -773030; -770582; -768140; -765704; -763273; -760848; -758429; -756016; -753608; -751205; -748808; -746417; -744031;
  -741651; -739276; -736906; -734542; -732183; -729829; -727480; -725137; -722799; -720466; -718139; -715816; -713499; -711186; -708879; -706577;
  -704279; -701987; -699700; -697417; -695139; -692867; -690599; -688335; -686077; -683823; -681574; -679330; -677091; -674856; -672625; -670400;
  -668178; -665962; -663750; -661542; -659339; -657141; -654946; -652757; -650572; -648390; -646214; -644041; -641873; -639709; -637550; -635394;
  -633243; -631096; -628953; -626814; -624680; -622549; -620423; -618300; -616182; -614068; -611957; -609851; -607748; -605650; -603555; -601464;
  -599377; -597294; -595214; -593139; -591067; -588999; -586935; -584874; -582817; -580764; -578715; -576669; -574626; -572588; -570553; -568521;
  -566493; -564468; -562447; -560430; -558416; -556405; -554398; -552394; -550394; -548397; -546403; -544413; -542426; -540442; -538462; -536485;
  -534511; -532541; -530573; -528609; -526648; -524690; -522735; -520784; -518835; -516890; -514948; -513008; -511072; -509139; -507209; -505282;
  -503358; -501437; -499518; -497603; -495691; -493781; -491875; -489971; -488070; -486172; -484277; -482385; -480495; -478608; -476724; -474843;
  -472965; -471089; -469216; -467346; -465478; -463613; -461750; -459891; -458034; -456179; -454327; -452478; -450631; -448787; -446945; -445106;
  -443269; -441435; -439604; -437774; -435948; -434123; -432302; -430482; -428665; -426851; -425038; -423228; -421421; -419616; -417813; -416012;
  -414214; -412418; -410624; -408832; -407043; -405256; -403471; -401689; -399908; -398130; -396354; -394580; -392808; -391039; -389271; -387506;
  -385743; -383981; -382222; -380465; -378710; -376957; -375206; -373457; -371710; -369965; -368222; -366481; -364742; -363005; -361270; -359537;
  -357806; -356076; -354349; -352623; -350899; -349177; -347457; -345739; -344022; -342308; -340595; -338884; -337175; -335467; -333762; -332058;
  -330355; -328655; -326956; -325259; -323564; -321870; -320178; -318487; -316799; -315111; -313426; -311742; -310060; -308379; -306700; -305023;
  -303347; -301672; -300000; -298328; -296659; -294990; -293324; -291658; -289995; -288332; -286672; -285012; -283354; -281698; -280043; -278389;
  -276737; -275086; -273437; -271789; -270142; -268497; -266853; -265211; -263570; -261930; -260291; -258654; -257018; -255383; -253750; -252118;
  -250487; -248857; -247229; -245602; -243976; -242351; -240728; -239106; -237485; -235865; -234246; -232628; -231012; -229397; -227782; -226169;
  -224558; -222947; -221337; -219729; -218121; -216515; -214909; -213305; -211702; -210099; -208498; -206898; -205299; -203701; -202104; -200508;
  -198912; -197318; -195725; -194133; -192541; -190951; -189361; -187773; -186185; -184599; -183013; -181428; -179844; -178261; -176678; -175097;
  -173516; -171937; -170358; -168780; -167202; -165626; -164050; -162475; -160901; -159328; -157756; -156184; -154613; -153043; -151473; -149904;
  -148336; -146769; -145202; -143636; -142071; -140506; -138942; -137379; -135816; -134254; -132693; -131132; -129572; -128013; -126454; -124896;
  -123338; -121781; -120225; -118669; -117114; -115559; -114005; -112451; -110898; -109345; -107793; -106242; -104691; -103140; -101590; -100040;
  -98491; -96943; -95395; -93847; -92300; -90753; -89206; -87660; -86115; -84570; -83025; -81480; -79937; -78393; -76850; -75307;
  -73764; -72222; -70681; -69139; -67598; -66057; -64517; -62976; -61436; -59897; -58357; -56818; -55280; -53741; -52203; -50665;
  -49127; -47589; -46052; -44515; -42978; -41441; -39905; -38368; -36832; -35296; -33760; -32225; -30689; -29154; -27619; -26084;
  -24549; -23014; -21479; -19944; -18410; -16875; -15341; -13807; -12272; -10738; -9204; -7670; -6136; -4602; -3068; -1534].
Definition tanTable : list f32 := map micro tanTable_micros.

(* exp5Table, lines 490-719 *)
Definition exp5Table_micros : list Z := [
  1000000; 1001695; 1003392; 1005092; 1006795; 1008501; 1010210; 1011922; 1013637; 1015354; 1017075; 1018798; 1020525; 1022254; 1023986; 1025721;
  1027460; 1029201; 1030945; 1032691; 1034441; 1036194; 1037950; 1039709; 1041471; 1043236; 1045003; 1046774; 1048548; 1050325; 1052104; 1053887;
  1055673; 1057462; 1059254; 1061049; 1062847; 1064648; 1066452; 1068259; 1070069; 1071882; 1073699; 1075518; 1077341; 1079166; 1080995; 1082826;
  1084661; 1086499; 1088341; 1090185; 1092032; 1093882; 1095736; 1097593; 1099453; 1101316; 1103182; 1105051; 1106924; 1108800; 1110678; 1112561;
  1114446; 1116334; 1118226; 1120121; 1122019; 1123920; 1125824; 1127732; 1129643; 1131557; 1133475; 1135396; 1137319; 1139247; 1141177; 1143111;
  1145048; 1146988; 1148932; 1150879; 1152829; 1154782; 1156739; 1158699; 1160663; 1162629; 1164600; 1166573; 1168550; 1170530; 1172513; 1174500;
  1176490; 1178484; 1180481; 1182481; 1184485; 1186492; 1188503; 1190517; 1192534; 1194555; 1196579; 1198606; 1200638; 1202672; 1204710; 1206751;
  1208796; 1210845; 1212896; 1214952; 1217010; 1219073; 1221138; 1223208; 1225280; 1227357; 1229436; 1231520; 1233606; 1235697; 1237791; 1239888;
  1241989; 1244094; 1246202; 1248314; 1250429; 1252548; 1254670; 1256796; 1258926; 1261059; 1263196; 1265337; 1267481; 1269629; 1271780; 1273935;
  1276094; 1278256; 1280422; 1282592; 1284765; 1286942; 1289123; 1291307; 1293496; 1295687; 1297883; 1300082; 1302285; 1304492; 1306702; 1308917;
  1311135; 1313356; 1315582; 1317811; 1320044; 1322281; 1324522; 1326766; 1329014; 1331266; 1333522; 1335782; 1338045; 1340313; 1342584; 1344859;
  1347138; 1349421; 1351707; 1353998; 1356292; 1358590; 1360892; 1363199; 1365508; 1367822; 1370140; 1372462; 1374787; 1377117; 1379451; 1381788;
  1384130; 1386475; 1388824; 1391178; 1393535; 1395897; 1398262; 1400631; 1403005; 1405382; 1407763; 1410149; 1412539; 1414932; 1417330; 1419731;
  1422137; 1424547; 1426961; 1429379; 1431801; 1434227; 1436658; 1439092; 1441530; 1443973; 1446420; 1448871; 1451326; 1453785; 1456249; 1458717;
  1461188; 1463664; 1466145; 1468629; 1471118; 1473610; 1476107; 1478609; 1481114; 1483624; 1486138; 1488656; 1491179; 1493706; 1496237; 1498772;
  1501312; 1503856; 1506404; 1508957; 1511514; 1514075; 1516641; 1519211; 1521785; 1524364; 1526947; 1529534; 1532126; 1534722; 1537323; 1539928;
  1542537; 1545151; 1547769; 1550392; 1553019; 1555651; 1558287; 1560928; 1563573; 1566222; 1568876; 1571535; 1574198; 1576865; 1579537; 1582214;
  1584895; 1587580; 1590270; 1592965; 1595665; 1598368; 1601077; 1603790; 1606508; 1609230; 1611957; 1614688; 1617424; 1620165; 1622910; 1625660;
  1628415; 1631174; 1633939; 1636707; 1639481; 1642259; 1645042; 1647829; 1650621; 1653418; 1656220; 1659027; 1661838; 1664654; 1667475; 1670300;
  1673131; 1675966; 1678806; 1681651; 1684500; 1687354; 1690214; 1693078; 1695947; 1698821; 1701699; 1704583; 1707471; 1710365; 1713263; 1716166;
  1719074; 1721987; 1724905; 1727828; 1730756; 1733688; 1736626; 1739569; 1742517; 1745469; 1748427; 1751390; 1754358; 1757330; 1760308; 1763291;
  1766279; 1769272; 1772270; 1775273; 1778281; 1781295; 1784313; 1787337; 1790365; 1793399; 1796438; 1799482; 1802531; 1805586; 1808645; 1811710;
  1814780; 1817855; 1820936; 1824021; 1827112; 1830208; 1833310; 1836416; 1839528; 1842645; 1845767; 1848895; 1852028; 1855166; 1858310; 1861459;
  1864613; 1867773; 1870938; 1874108; 1877284; 1880465; 1883651; 1886843; 1890041; 1893243; 1896451; 1899665; 1902884; 1906108; 1909338; 1912574;
  1915815; 1919061; 1922313; 1925570; 1928833; 1932102; 1935376; 1938655; 1941940; 1945231; 1948527; 1951829; 1955136; 1958449; 1961768; 1965092;
  1968422; 1971758; 1975099; 1978446; 1981798; 1985156; 1988520; 1991890; 1995265; 1998646; 2002033; 2005425; 2008823; 2012227; 2015637; 2019053;
  2022474; 2025901; 2029334; 2032773; 2036217; 2039668; 2043124; 2046586; 2050054; 2053528; 2057008; 2060493; 2063985; 2067482; 2070986; 2074495;
  2078010; 2081531; 2085059; 2088592; 2092131; 2095676; 2099227; 2102784; 2106348; 2109917; 2113492; 2117074; 2120661; 2124254; 2127854; 2131459;
  2135071; 2138689; 2142313; 2145943; 2149580; 2153222; 2156871; 2160526; 2164187; 2167854; 2171528; 2175207; 2178893; 2182585; 2186284; 2189988;
  2193699; 2197417; 2201140; 2204870; 2208606; 2212349; 2216098; 2219853; 2223614; 2227382; 2231157; 2234937; 2238724; 2242518; 2246318; 2250124;
  2253937; 2257757; 2261583; 2265415; 2269254; 2273099; 2276951; 2280809; 2284674; 2288545; 2292423; 2296308; 2300199; 2304097; 2308001; 2311912;
  2315830; 2319754; 2323685; 2327622; 2331566; 2335517; 2339475; 2343439; 2347410; 2351388; 2355372; 2359364; 2363362; 2367366; 2371378; 2375396;
  2379421; 2383453; 2387492; 2391538; 2395590; 2399650; 2403716; 2407789; 2411869; 2415956; 2420050; 2424150; 2428258; 2432373; 2436495; 2440623;
  2444759; 2448902; 2453051; 2457208; 2461372; 2465543; 2469721; 2473906; 2478098; 2482297; 2486503; 2490717; 2494937; 2499165; 2503400; 2507642;
  2511891; 2516147; 2520411; 2524682; 2528960; 2533245; 2537538; 2541838; 2546145; 2550460; 2554781; 2559110; 2563447; 2567791; 2572142; 2576500;
  2580866; 2585240; 2589620; 2594008; 2598404; 2602807; 2607218; 2611636; 2616061; 2620494; 2624934; 2629382; 2633838; 2638301; 2642772; 2647250;
  2651736; 2656229; 2660730; 2665239; 2669755; 2674279; 2678811; 2683350; 2687897; 2692451; 2697014; 2701584; 2706162; 2710747; 2715341; 2719942;
  2724551; 2729168; 2733793; 2738425; 2743065; 2747714; 2752369; 2757033; 2761705; 2766385; 2771073; 2775768; 2780472; 2785183; 2789903; 2794631;
  2799366; 2804110; 2808861; 2813621; 2818389; 2823164; 2827948; 2832740; 2837540; 2842349; 2847165; 2851990; 2856822; 2861663; 2866512; 2871370;
  2876235; 2881109; 2885991; 2890882; 2895780; 2900687; 2905602; 2910526; 2915458; 2920398; 2925347; 2930304; 2935269; 2940243; 2945225; 2950216;
  2955215; 2960223; 2965239; 2970264; 2975297; 2980339; 2985389; 2990448; 2995515; 3000591; 3005676; 3010769; 3015871; 3020981; 3026100; 3031228;
  3036364; 3041509; 3046663; 3051826; 3056997; 3062177; 3067366; 3072564; 3077770; 3082986; 3088210; 3093443; 3098685; 3103936; 3109195; 3114464;
  3119741; 3125028; 3130323; 3135628; 3140941; 3146264; 3151595; 3156935; 3162285; 3167644; 3173011; 3178388; 3183774; 3189168; 3194573; 3199986;
  3205408; 3210840; 3216281; 3221731; 3227190; 3232659; 3238136; 3243623; 3249120; 3254626; 3260140; 3265665; 3271199; 3276742; 3282294; 3287856;
  3293427; 3299008; 3304598; 3310198; 3315807; 3321426; 3327054; 3332692; 3338339; 3343996; 3349662; 3355338; 3361024; 3366719; 3372424; 3378139;
  3383863; 3389597; 3395341; 3401094; 3406858; 3412631; 3418413; 3424206; 3430008; 3435821; 3441643; 3447474; 3453316; 3459168; 3465029; 3470901;
  3476783; 3482674; 3488575; 3494487; 3500408; 3506340; 3512281; 3518233; 3524195; 3530167; 3536149; 3542140; 3548143; 3554155; 3560178; 3566211;
  3572253; 3578307; 3584370; 3590444; 3596528; 3602622; 3608727; 3614842; 3620967; 3627103; 3633250; 3639406; 3645573; 3651751; 3657938; 3664137;
  3670346; 3676565; 3682795; 3689036; 3695287; 3701549; 3707821; 3714104; 3720397; 3726702; 3733017; 3739342; 3745679; 3752026; 3758384; 3764752;
  3771132; 3777522; 3783923; 3790335; 3796758; 3803191; 3809636; 3816092; 3822558; 3829035; 3835524; 3842023; 3848533; 3855055; 3861587; 3868131;
  3874685; 3881251; 3887828; 3894416; 3901015; 3907625; 3914247; 3920880; 3927524; 3934179; 3940845; 3947523; 3954212; 3960913; 3967625; 3974348;
  3981082; 3987828; 3994586; 4001355; 4008135; 4014927; 4021730; 4028545; 4035372; 4042210; 4049059; 4055920; 4062793; 4069677; 4076574; 4083481;
  4090401; 4097332; 4104275; 4111230; 4118196; 4125175; 4132165; 4139167; 4146181; 4153207; 4160244; 4167294; 4174356; 4181429; 4188515; 4195612;
  4202722; 4209843; 4216977; 4224123; 4231280; 4238450; 4245632; 4252827; 4260033; 4267252; 4274483; 4281726; 4288981; 4296249; 4303529; 4310822;
  4318126; 4325443; 4332773; 4340115; 4347469; 4354836; 4362216; 4369607; 4377012; 4384429; 4391858; 4399300; 4406755; 4414222; 4421702; 4429195;
  4436700; 4444218; 4451749; 4459292; 4466849; 4474418; 4482000; 4489594; 4497202; 4504823; 4512456; 4520103; 4527762; 4535435; 4543120; 4550818;
  4558530; 4566254; 4573992; 4581742; 4589506; 4597283; 4605073; 4612877; 4620694; 4628523; 4636366; 4644223; 4652092; 4659976; 4667872; 4675782;
  4683705; 4691641; 4699592; 4707555; 4715532; 4723523; 4731527; 4739544; 4747576; 4755620; 4763679; 4771751; 4779837; 4787936; 4796050; 4804176;
  4812317; 4820472; 4828640; 4836823; 4845018; 4853228; 4861452; 4869690; 4877942; 4886208; 4894487; 4902781; 4911089; 4919411; 4927747; 4936097;
  4944461; 4952840; 4961232; 4969639; 4978060; 4986495; 4994946; 5003409; 5011888; 5020380; 5028888; 5037409; 5045945; 5054495; 5063060; 5071640;
  5080234; 5088842; 5097466; 5106103; 5114757; 5123424; 5132105; 5140801; 5149513; 5158238; 5166979; 5175735; 5184505; 5193290; 5202091; 5210906;
  5219736; 5228580; 5237440; 5246315; 5255205; 5264110; 5273030; 5281966; 5290916; 5299881; 5308862; 5317858; 5326869; 5335896; 5344937; 5353994;
  5363067; 5372155; 5381258; 5390377; 5399511; 5408660; 5417825; 5427006; 5436202; 5445414; 5454641; 5463884; 5473143; 5482417; 5491707; 5501013;
  5510334; 5519671; 5529025; 5538394; 5547779; 5557179; 5566596; 5576029; 5585477; 5594942; 5604423; 5613920; 5623433; 5632962; 5642507; 5652068;
  5661645; 5671239; 5680849; 5690475; 5700118; 5709777; 5719452; 5729144; 5738852; 5748577; 5758318; 5768075; 5777849; 5787640; 5797447; 5807271;
  5817111; 5826969; 5836843; 5846733; 5856641; 5866565; 5876506; 5886464; 5896438; 5906430; 5916439; 5926464; 5936506; 5946566; 5956643; 5966736;
  5976847; 5986975; 5997120; 6007282; 6017461; 6027658; 6037872; 6048103; 6058352; 6068618; 6078901; 6089202; 6099520; 6109856; 6120209; 6130580;
  6140968; 6151374; 6161798; 6172239; 6182698; 6193175; 6203669; 6214181; 6224711; 6235259; 6245825; 6256409; 6267010; 6277630; 6288267; 6298923;
  6309597; 6320288; 6330998; 6341726; 6352472; 6363236; 6374019; 6384820; 6395639; 6406476; 6417332; 6428206; 6439099; 6450010; 6460940; 6471888;
  6482855; 6493840; 6504844; 6515867; 6526908; 6537968; 6549047; 6560144; 6571260; 6582395; 6593549; 6604722; 6615914; 6627125; 6638354; 6649603;
  6660871; 6672158; 6683464; 6694789; 6706134; 6717497; 6728880; 6740283; 6751704; 6763145; 6774605; 6786085; 6797584; 6809103; 6820641; 6832198;
  6843775; 6855372; 6866989; 6878625; 6890281; 6901957; 6913652; 6925367; 6937103; 6948858; 6960632; 6972427; 6984242; 6996077; 7007932; 7019807;
  7031703; 7043618; 7055553; 7067509; 7079485; 7091481; 7103498; 7115535; 7127592; 7139670; 7151768; 7163887; 7176026; 7188186; 7200366; 7212568;
  7224790; 7237032; 7249295; 7261580; 7273884; 7286210; 7298556; 7310924; 7323313; 7335722; 7348153; 7360604; 7373076; 7385571; 7398086; 7410622;
  7423179; 7435758; 7448358; 7460979; 7473622; 7486286; 7498971; 7511679; 7524407; 7537158; 7549929; 7562723; 7575538; 7588375; 7601233; 7614114;
  7627016; 7639940; 7652886; 7665854; 7678844; 7691856; 7704890; 7717946; 7731024; 7744124; 7757247; 7770391; 7783559; 7796748; 7809960; 7823194;
  7836450; 7849729; 7863031; 7876355; 7889701; 7903070; 7916462; 7929877; 7943314; 7956774; 7970257; 7983763; 7997292; 8010843; 8024418; 8038015;
  8051636; 8065279; 8078946; 8092636; 8106349; 8120085; 8133844; 8147628; 8161434; 8175263; 8189116; 8202993; 8216893; 8230817; 8244764; 8258735;
  8272730; 8286748; 8300790; 8314856; 8328945; 8343059; 8357197; 8371358; 8385543; 8399753; 8413986; 8428244; 8442526; 8456831; 8471162; 8485517;
  8499895; 8514298; 8528726; 8543178; 8557654; 8572155; 8586681; 8601232; 8615807; 8630405; 8645030; 8659679; 8674354; 8689052; 8703775; 8718525;
  8733298; 8748096; 8762920; 8777769; 8792644; 8807543; 8822468; 8837418; 8852392; 8867393; 8882419; 8897470; 8912547; 8927649; 8942778; 8957932;
  8973110; 8988316; 9003547; 9018803; 9034085; 9049394; 9064728; 9080089; 9095475; 9110888; 9126326; 9141790; 9157281; 9172798; 9188342; 9203912;
  9219508; 9235130; 9250779; 9266455; 9282157; 9297886; 9313642; 9329424; 9345232; 9361068; 9376930; 9392819; 9408736; 9424679; 9440649; 9456647;
  9472672; 9488723; 9504802; 9520907; 9537041; 9553202; 9569389; 9585605; 9601848; 9618118; 9634417; 9650743; 9667095; 9683476; 9699885; 9716322;
  9732786; 9749279; 9765799; 9782348; 9798923; 9815530; 9832162; 9848823; 9865512; 9882229; 9898974; 9915749; 9932551; 9949382; 9966241; 9983130;
  10000046; 10016991; 10033965; 10050967; 10067999; 10085059; 10102149; 10119267; 10136415; 10153590; 10170796; 10188030; 10205295; 10222588; 10239909; 10257261;
  10274642; 10292053; 10309493; 10326962; 10344461; 10361991; 10379549; 10397138; 10414756; 10432404; 10450081; 10467789; 10485527; 10503295; 10521092; 10538921;
  10556779; 10574668; 10592587; 10610536; 10628516; 10646526; 10664567; 10682638; 10700740; 10718872; 10737036; 10755230; 10773455; 10791710; 10809997; 10828315;
  10846663; 10865044; 10883454; 10901896; 10920370; 10938874; 10957411; 10975978; 10994577; 11013207; 11031870; 11050563; 11069288; 11088046; 11106834; 11125655;
  11144507; 11163392; 11182309; 11201258; 11220238; 11239251; 11258296; 11277373; 11296483; 11315625; 11334800; 11354007; 11373246; 11392518; 11411823; 11431161;
  11450531; 11469934; 11489369; 11508839; 11528340; 11547875; 11567444; 11587045; 11606679; 11626347; 11646048; 11665782; 11685550; 11705352; 11725186; 11745055;
  11764957; 11784893; 11804863; 11824866; 11844903; 11864975; 11885080; 11905220; 11925393; 11945601; 11965843; 11986119; 12006430; 12026775; 12047154; 12067569;
  12088017; 12108500; 12129019; 12149571; 12170159; 12190782; 12211439; 12232131; 12252859; 12273622; 12294419; 12315252; 12336121; 12357024; 12377964; 12398938;
  12419949; 12440994; 12462076; 12483192; 12504346; 12525535; 12546760; 12568020; 12589316; 12610649; 12632018; 12653423; 12674865; 12696342; 12717856; 12739408;
  12760995; 12782619; 12804278; 12825975; 12847710; 12869480; 12891288; 12913132; 12935014; 12956932; 12978888; 13000880; 13022911; 13044978; 13067083; 13089226;
  13111405; 13133623; 13155878; 13178171; 13200501; 13222870; 13245276; 13267720; 13290203; 13312723; 13335282; 13357879; 13380514; 13403188; 13425900; 13448649;
  13471438; 13494267; 13517133; 13540037; 13562981; 13585963; 13608985; 13632046; 13655146; 13678285; 13701463; 13724680; 13747936; 13771233; 13794568; 13817944;
  13841358; 13864812; 13888307; 13911840; 13935414; 13959028; 13982681; 14006375; 14030109; 14053884; 14077699; 14101553; 14125448; 14149384; 14173361; 14197377;
  14221436; 14245534; 14269672; 14293853; 14318074; 14342337; 14366639; 14390985; 14415370; 14439796; 14464265; 14488775; 14513327; 14537920; 14562554; 14587231;
  14611949; 14636709; 14661511; 14686356; 14711242; 14736170; 14761141; 14786154; 14811209; 14836307; 14861447; 14886630; 14911856; 14937124; 14962436; 14987789;
  15013186; 15038627; 15064110; 15089636; 15115206; 15140819; 15166475; 15192175; 15217918; 15243705; 15269536; 15295410; 15321328; 15347291; 15373297; 15399347;
  15425442; 15451580; 15477763; 15503990; 15530262; 15556579; 15582939; 15609344; 15635795; 15662290; 15688830; 15715415; 15742044; 15768720; 15795441; 15822206;
  15849017; 15875874; 15902775; 15929723; 15956716; 15983755; 16010839; 16037973; 16065147; 16092371; 16119638; 16146955; 16174314; 16201725; 16229176; 16256680;
  16284224; 16311821; 16339458; 16367147; 16394880; 16422665; 16450489; 16478369; 16506289; 16534262; 16562275; 16590343; 16618454; 16646616; 16674822; 16703079;
  16731380; 16759735; 16788132; 16816582; 16845076; 16873623; 16902212; 16930857; 16959543; 16988283; 17017069; 17045906; 17074789; 17103724; 17132704; 17161739;
  17190817; 17219950; 17249126; 17278358; 17307634; 17336964; 17366339; 17395769; 17425243; 17454775; 17484348; 17513979; 17543653; 17573385; 17603161; 17632992;
  17662868; 17692801; 17722778; 17752813; 17782892; 17813028; 17843210; 17873449; 17903732; 17934074; 17964460; 17994905; 18025394; 18055943; 18086535; 18117186;
  18147882; 18178637; 18209438; 18240297; 18271202; 18302166; 18333178; 18364246; 18395361; 18426535; 18457756; 18489037; 18520363; 18551750; 18583183; 18614676;
  18646215; 18677814; 18709461; 18741167; 18772921; 18804735; 18836597; 18868519; 18900490; 18932520; 18964598; 18996737; 19028923; 19061172; 19093468; 19125826;
  19158232; 19190699; 19223213; 19255791; 19288418; 19321104; 19353842; 19386641; 19419487; 19452398; 19485357; 19518379; 19551449; 19584583; 19617765; 19651012;
  19684307; 19717667; 19751074; 19784546; 19818068; 19851654; 19885288; 19918989; 19952738; 19986551; 20020416; 20054344; 20088324; 20122366; 20156460; 20190619;
  20224829; 20259104; 20293430; 20327820; 20362263; 20396770; 20431330; 20465954; 20500631; 20535374; 20570168; 20605026; 20639938; 20674917; 20709948; 20745045;
  20780193; 20815409; 20850677; 20886013; 20921402; 20956856; 20992365; 21027941; 21063568; 21099264; 21135014; 21170832; 21206701; 21242640; 21278633; 21314693;
  21350807; 21386992; 21423227; 21459534; 21495893; 21532322; 21568806; 21605358; 21641964; 21678640; 21715372; 21752172; 21789028; 21825953; 21862934; 21899984;
  21937092; 21974268; 22011499; 22048801; 22086161; 22123589; 22161074; 22198629; 22236242; 22273926; 22311666; 22349476; 22387344; 22425283; 22463280; 22501348;
  22539473; 22577671; 22615925; 22654251; 22692636; 22731092; 22769608; 22808195; 22846840; 22885557; 22924334; 22963182; 23002090; 23041071; 23080111; 23119225;
  23158398; 23197643; 23236948; 23276327; 23315765; 23355278; 23394850; 23434496; 23474203; 23513985; 23553825; 23593740; 23633717; 23673769; 23713881; 23754068;
  23794315; 23834639; 23875023; 23915483; 23956005; 23996603; 24037262; 24077997; 24118793; 24159668; 24200602; 24241615; 24282688; 24323839; 24365053; 24406343;
  24447697; 24489128; 24530621; 24572191; 24613827; 24655539; 24697313; 24739168; 24781084; 24823080; 24865139; 24907278; 24949480; 24991760; 25034105; 25076530;
  25119019; 25161587; 25204220; 25246933; 25289711; 25332567; 25375490; 25418493; 25461561; 25504711; 25547924; 25591221; 25634581; 25678022; 25721531; 25765120;
  25808775; 25852512; 25896317; 25940203; 25984154; 26028189; 26072289; 26116474; 26160732; 26205057; 26249468; 26293943; 26338503; 26383129; 26427841; 26472618;
  26517481; 26562410; 26607426; 26652508; 26697676; 26742910; 26788231; 26833620; 26879093; 26924637; 26970264; 27015963; 27061747; 27107597; 27153536; 27199545;
  27245638; 27291801; 27338053; 27384373; 27430780; 27477259; 27523823; 27570457; 27617182; 27663975; 27710855; 27757809; 27804848; 27851959; 27899160; 27946430;
  27993792; 28041222; 28088743; 28136335; 28184017; 28231771; 28279615; 28327530; 28375536; 28423615; 28471783; 28520025; 28568357; 28616762; 28665258; 28713827;
  28762487; 28811220; 28860046; 28908945; 28957937; 29007002; 29056160; 29105391; 29154715; 29204113; 29253605; 29303171; 29352831; 29402565; 29452393; 29502295;
  29552292; 29602364; 29652531; 29702772; 29753109; 29803520; 29854029; 29904612; 29955290; 30006044; 30056896; 30107822; 30158846; 30209946; 30261141; 30312414;
  30363785; 30415232; 30466776; 30518396; 30570116; 30621912; 30673805; 30725779; 30777849; 30829996; 30882244; 30934568; 30986994; 31039495; 31092098; 31144779;
  31197559; 31250420; 31303379; 31356417; 31409555; 31462774; 31516094; 31569494; 31622993; 31676575; 31730255; 31784018; 31837881; 31891827; 31945873; 32000000].
Definition exp5Table : list f32 := map micro exp5Table_micros.

(* exp10Table, lines 720-977 *)
Definition exp10Table_micros : list Z := [
  1000000; 1003392; 1006795; 1010210; 1013637; 1017075; 1020525; 1023986; 1027460; 1030945; 1034441; 1037950; 1041471; 1045003; 1048548; 1052104;
  1055673; 1059254; 1062847; 1066452; 1070069; 1073699; 1077341; 1080995; 1084661; 1088341; 1092032; 1095736; 1099453; 1103182; 1106924; 1110678;
  1114446; 1118226; 1122019; 1125824; 1129643; 1133475; 1137319; 1141177; 1145048; 1148932; 1152829; 1156739; 1160663; 1164600; 1168550; 1172513;
  1176490; 1180481; 1184485; 1188503; 1192534; 1196579; 1200638; 1204710; 1208796; 1212896; 1217010; 1221138; 1225280; 1229436; 1233606; 1237791;
  1241989; 1246202; 1250429; 1254670; 1258926; 1263196; 1267481; 1271780; 1276094; 1280422; 1284765; 1289123; 1293496; 1297883; 1302285; 1306702;
  1311135; 1315582; 1320044; 1324522; 1329014; 1333522; 1338045; 1342584; 1347138; 1351707; 1356292; 1360892; 1365508; 1370140; 1374787; 1379451;
  1384130; 1388824; 1393535; 1398262; 1403005; 1407763; 1412539; 1417330; 1422137; 1426961; 1431801; 1436658; 1441530; 1446420; 1451326; 1456249;
  1461188; 1466145; 1471118; 1476107; 1481114; 1486138; 1491179; 1496237; 1501312; 1506404; 1511514; 1516641; 1521785; 1526947; 1532126; 1537323;
  1542537; 1547769; 1553019; 1558287; 1563573; 1568876; 1574198; 1579537; 1584895; 1590270; 1595665; 1601077; 1606508; 1611957; 1617424; 1622910;
  1628415; 1633939; 1639481; 1645042; 1650621; 1656220; 1661838; 1667475; 1673131; 1678806; 1684500; 1690214; 1695947; 1701699; 1707471; 1713263;
  1719074; 1724905; 1730756; 1736626; 1742517; 1748427; 1754358; 1760308; 1766279; 1772270; 1778281; 1784313; 1790365; 1796438; 1802531; 1808645;
  1814780; 1820936; 1827112; 1833310; 1839528; 1845767; 1852028; 1858310; 1864613; 1870938; 1877284; 1883651; 1890041; 1896451; 1902884; 1909338;
  1915815; 1922313; 1928833; 1935376; 1941940; 1948527; 1955136; 1961768; 1968422; 1975099; 1981798; 1988520; 1995265; 2002033; 2008823; 2015637;
  2022474; 2029334; 2036217; 2043124; 2050054; 2057008; 2063985; 2070986; 2078010; 2085059; 2092131; 2099227; 2106348; 2113492; 2120661; 2127854;
  2135071; 2142313; 2149580; 2156871; 2164187; 2171528; 2178893; 2186284; 2193699; 2201140; 2208606; 2216098; 2223614; 2231157; 2238724; 2246318;
  2253937; 2261583; 2269254; 2276951; 2284674; 2292423; 2300199; 2308001; 2315830; 2323685; 2331566; 2339475; 2347410; 2355372; 2363362; 2371378;
  2379421; 2387492; 2395590; 2403716; 2411869; 2420050; 2428258; 2436495; 2444759; 2453051; 2461372; 2469721; 2478098; 2486503; 2494937; 2503400;
  2511891; 2520411; 2528960; 2537538; 2546145; 2554781; 2563447; 2572142; 2580866; 2589620; 2598404; 2607218; 2616061; 2624934; 2633838; 2642772;
  2651736; 2660730; 2669755; 2678811; 2687897; 2697014; 2706162; 2715341; 2724551; 2733793; 2743065; 2752369; 2761705; 2771073; 2780472; 2789903;
  2799366; 2808861; 2818389; 2827948; 2837540; 2847165; 2856822; 2866512; 2876235; 2885991; 2895780; 2905602; 2915458; 2925347; 2935269; 2945225;
  2955215; 2965239; 2975297; 2985389; 2995515; 3005676; 3015871; 3026100; 3036364; 3046663; 3056997; 3067366; 3077770; 3088210; 3098685; 3109195;
  3119741; 3130323; 3140941; 3151595; 3162285; 3173011; 3183774; 3194573; 3205408; 3216281; 3227190; 3238136; 3249120; 3260140; 3271199; 3282294;
  3293427; 3304598; 3315807; 3327054; 3338339; 3349662; 3361024; 3372424; 3383863; 3395341; 3406858; 3418413; 3430008; 3441643; 3453316; 3465029;
  3476783; 3488575; 3500408; 3512281; 3524195; 3536149; 3548143; 3560178; 3572253; 3584370; 3596528; 3608727; 3620967; 3633250; 3645573; 3657938;
  3670346; 3682795; 3695287; 3707821; 3720397; 3733017; 3745679; 3758384; 3771132; 3783923; 3796758; 3809636; 3822558; 3835524; 3848533; 3861587;
  3874685; 3887828; 3901015; 3914247; 3927524; 3940845; 3954212; 3967625; 3981082; 3994586; 4008135; 4021730; 4035372; 4049059; 4062793; 4076574;
  4090401; 4104275; 4118196; 4132165; 4146181; 4160244; 4174356; 4188515; 4202722; 4216977; 4231280; 4245632; 4260033; 4274483; 4288981; 4303529;
  4318126; 4332773; 4347469; 4362216; 4377012; 4391858; 4406755; 4421702; 4436700; 4451749; 4466849; 4482000; 4497202; 4512456; 4527762; 4543120;
  4558530; 4573992; 4589506; 4605073; 4620694; 4636366; 4652092; 4667872; 4683705; 4699592; 4715532; 4731527; 4747576; 4763679; 4779837; 4796050;
  4812317; 4828640; 4845018; 4861452; 4877942; 4894487; 4911089; 4927747; 4944461; 4961232; 4978060; 4994946; 5011888; 5028888; 5045945; 5063060;
  5080234; 5097466; 5114757; 5132105; 5149513; 5166979; 5184505; 5202091; 5219736; 5237440; 5255205; 5273030; 5290916; 5308862; 5326869; 5344937;
  5363067; 5381258; 5399511; 5417825; 5436202; 5454641; 5473143; 5491707; 5510334; 5529025; 5547779; 5566596; 5585477; 5604423; 5623433; 5642507;
  5661645; 5680849; 5700118; 5719452; 5738852; 5758318; 5777849; 5797447; 5817111; 5836843; 5856641; 5876506; 5896438; 5916439; 5936506; 5956643;
  5976847; 5997120; 6017461; 6037872; 6058352; 6078901; 6099520; 6120209; 6140968; 6161798; 6182698; 6203669; 6224711; 6245825; 6267010; 6288267;
  6309597; 6330998; 6352472; 6374019; 6395639; 6417332; 6439099; 6460940; 6482855; 6504844; 6526908; 6549047; 6571260; 6593549; 6615914; 6638354;
  6660871; 6683464; 6706134; 6728880; 6751704; 6774605; 6797584; 6820641; 6843775; 6866989; 6890281; 6913652; 6937103; 6960632; 6984242; 7007932;
  7031703; 7055553; 7079485; 7103498; 7127592; 7151768; 7176026; 7200366; 7224790; 7249295; 7273884; 7298556; 7323313; 7348153; 7373076; 7398086;
  7423179; 7448358; 7473622; 7498971; 7524407; 7549929; 7575538; 7601233; 7627016; 7652886; 7678844; 7704890; 7731024; 7757247; 7783559; 7809960;
  7836450; 7863031; 7889701; 7916462; 7943314; 7970257; 7997292; 8024418; 8051636; 8078946; 8106349; 8133844; 8161434; 8189116; 8216893; 8244764;
  8272730; 8300790; 8328945; 8357197; 8385543; 8413986; 8442526; 8471162; 8499895; 8528726; 8557654; 8586681; 8615807; 8645030; 8674354; 8703775;
  8733298; 8762920; 8792644; 8822468; 8852392; 8882419; 8912547; 8942778; 8973110; 9003547; 9034085; 9064728; 9095475; 9126326; 9157281; 9188342;
  9219508; 9250779; 9282157; 9313642; 9345232; 9376930; 9408736; 9440649; 9472672; 9504802; 9537041; 9569389; 9601848; 9634417; 9667095; 9699885;
  9732786; 9765799; 9798923; 9832162; 9865512; 9898974; 9932551; 9966241; 10000046; 10033965; 10067999; 10102149; 10136415; 10170796; 10205295; 10239909;
  10274642; 10309493; 10344461; 10379549; 10414756; 10450081; 10485527; 10521092; 10556779; 10592587; 10628516; 10664567; 10700740; 10737036; 10773455; 10809997;
  10846663; 10883454; 10920370; 10957411; 10994577; 11031870; 11069288; 11106834; 11144507; 11182309; 11220238; 11258296; 11296483; 11334800; 11373246; 11411823;
  11450531; 11489369; 11528340; 11567444; 11606679; 11646048; 11685550; 11725186; 11764957; 11804863; 11844903; 11885080; 11925393; 11965843; 12006430; 12047154;
  12088017; 12129019; 12170159; 12211439; 12252859; 12294419; 12336121; 12377964; 12419949; 12462076; 12504346; 12546760; 12589316; 12632018; 12674865; 12717856;
  12760995; 12804278; 12847710; 12891288; 12935014; 12978888; 13022911; 13067083; 13111405; 13155878; 13200501; 13245276; 13290203; 13335282; 13380514; 13425900;
  13471438; 13517133; 13562981; 13608985; 13655146; 13701463; 13747936; 13794568; 13841358; 13888307; 13935414; 13982681; 14030109; 14077699; 14125448; 14173361;
  14221436; 14269672; 14318074; 14366639; 14415370; 14464265; 14513327; 14562554; 14611949; 14661511; 14711242; 14761141; 14811209; 14861447; 14911856; 14962436;
  15013186; 15064110; 15115206; 15166475; 15217918; 15269536; 15321328; 15373297; 15425442; 15477763; 15530262; 15582939; 15635795; 15688830; 15742044; 15795441;
  15849017; 15902775; 15956716; 16010839; 16065147; 16119638; 16174314; 16229176; 16284224; 16339458; 16394880; 16450489; 16506289; 16562275; 16618454; 16674822;
  16731380; 16788132; 16845076; 16902212; 16959543; 17017069; 17074789; 17132704; 17190817; 17249126; 17307634; 17366339; 17425243; 17484348; 17543653; 17603161;
  17662868; 17722778; 17782892; 17843210; 17903732; 17964460; 18025394; 18086535; 18147882; 18209438; 18271202; 18333178; 18395361; 18457756; 18520363; 18583183;
  18646215; 18709461; 18772921; 18836597; 18900490; 18964598; 19028923; 19093468; 19158232; 19223213; 19288418; 19353842; 19419487; 19485357; 19551449; 19617765;
  19684307; 19751074; 19818068; 19885288; 19952738; 20020416; 20088324; 20156460; 20224829; 20293430; 20362263; 20431330; 20500631; 20570168; 20639938; 20709948;
  20780193; 20850677; 20921402; 20992365; 21063568; 21135014; 21206701; 21278633; 21350807; 21423227; 21495893; 21568806; 21641964; 21715372; 21789028; 21862934;
  21937092; 22011499; 22086161; 22161074; 22236242; 22311666; 22387344; 22463280; 22539473; 22615925; 22692636; 22769608; 22846840; 22924334; 23002090; 23080111;
  23158398; 23236948; 23315765; 23394850; 23474203; 23553825; 23633717; 23713881; 23794315; 23875023; 23956005; 24037262; 24118793; 24200602; 24282688; 24365053;
  24447697; 24530621; 24613827; 24697313; 24781084; 24865139; 24949480; 25034105; 25119019; 25204220; 25289711; 25375490; 25461561; 25547924; 25634581; 25721531;
  25808775; 25896317; 25984154; 26072289; 26160732; 26249468; 26338503; 26427841; 26517481; 26607426; 26697676; 26788231; 26879093; 26970264; 27061747; 27153536;
  27245638; 27338053; 27430780; 27523823; 27617182; 27710855; 27804848; 27899160; 27993792; 28088743; 28184017; 28279615; 28375536; 28471783; 28568357; 28665258;
  28762487; 28860046; 28957937; 29056160; 29154715; 29253605; 29352831; 29452393; 29552292; 29652531; 29753109; 29854029; 29955290; 30056896; 30158846; 30261141;
  30363785; 30466776; 30570116; 30673805; 30777849; 30882244; 30986994; 31092098; 31197559; 31303379; 31409555; 31516094; 31622993; 31730255; 31837881; 31945873;
  32054230; 32162956; 32272049; 32381512; 32491348; 32601555; 32712135; 32823090; 32934425; 33046135; 33158222; 33270691; 33383545; 33496777; 33610394; 33724400;
  33838787; 33953568; 34068733; 34184292; 34300240; 34416584; 34533321; 34650455; 34767986; 34885914; 35004246; 35122974; 35242107; 35361645; 35481590; 35601940;
  35722698; 35843864; 35965443; 36087437; 36209839; 36332661; 36455898; 36579552; 36703625; 36828121; 36953037; 37078381; 37204147; 37330338; 37456959; 37584011;
  37711491; 37839405; 37967751; 38096535; 38225754; 38355412; 38485512; 38616051; 38747032; 38878456; 39010330; 39142647; 39275417; 39408634; 39542305; 39676426;
  39811005; 39946041; 40081535; 40217487; 40353901; 40490776; 40628117; 40765923; 40904198; 41042942; 41182156; 41321838; 41461998; 41602634; 41743748; 41885338;
  42027409; 42169960; 42312996; 42456520; 42600525; 42745022; 42890011; 43035488; 43181461; 43327927; 43474892; 43622353; 43770317; 43918781; 44067749; 44217224;
  44367203; 44517693; 44668694; 44820206; 44972229; 45124771; 45277828; 45431408; 45585506; 45740128; 45895275; 46050945; 46207146; 46363876; 46521137; 46678932;
  46837261; 46996132; 47155537; 47315483; 47475971; 47637005; 47798588; 47960716; 48123394; 48286621; 48450405; 48614746; 48779640; 48945095; 49111115; 49277695;
  49444839; 49612549; 49780830; 49949684; 50119106; 50289104; 50459682; 50630836; 50802570; 50974888; 51147789; 51321278; 51495354; 51670021; 51845280; 52021133;
  52197586; 52374634; 52552284; 52730537; 52909393; 53088856; 53268929; 53449612; 53630905; 53812817; 53995346; 54178493; 54362259; 54546650; 54731667; 54917313;
  55103584; 55290493; 55478031; 55666206; 55855022; 56044476; 56234573; 56425316; 56616703; 56808743; 57001434; 57194775; 57388775; 57583431; 57778748; 57974728;
  58171371; 58368683; 58566666; 58765316; 58964645; 59164646; 59365326; 59566689; 59768730; 59971462; 60174877; 60378986; 60583786; 60789280; 60995472; 61202362;
  61409954; 61618248; 61827251; 62036964; 62247387; 62458523; 62670376; 62882950; 63096241; 63310257; 63525002; 63740471; 63956673; 64173607; 64391273; 64609688;
  64828835; 65048729; 65269363; 65490753; 65712891; 65935783; 66159431; 66383835; 66609001; 66834938; 67061630; 67289101; 67517334; 67746353; 67976135; 68206703;
  68438057; 68670189; 68903114; 69136826; 69371330; 69606636; 69842728; 70079628; 70317337; 70555840; 70795158; 71035294; 71276237; 71517998; 71760582; 72003983;
  72248215; 72493271; 72739166; 72985886; 73233452; 73481850; 73731094; 73981178; 74232117; 74483902; 74736549; 74990044; 75244408; 75499626; 75755714; 76012672;
  76270500; 76529198; 76788780; 77049240; 77310577; 77572807; 77835930; 78099945; 78364845; 78630653; 78897362; 79164970; 79433495; 79702927; 79973267; 80244530;
  80516708; 80789818; 81063843; 81338806; 81614700; 81891525; 82169296; 82448006; 82727661; 83008263; 83289825; 83572334; 83855804; 84140228; 84425629; 84711990;
  84999329; 85287636; 85576920; 85867188; 86158440; 86450684; 86743919; 87038139; 87333366; 87629593; 87926826; 88225060; 88524315; 88824577; 89125862; 89428169;
  89731499; 90035858; 90341255; 90647682; 90955147; 91263657; 91573219; 91883827; 92195488; 92508202; 92821983; 93136826; 93452736; 93769714; 94087776; 94406914;
  94727127; 95048439; 95370827; 95694321; 96018906; 96344620; 96671417; 96999313; 97328323; 97658455; 97989700; 98322075; 98655571; 98990204; 99325966; 99662872;
  100000916; 100340111; 100680450; 101021950; 101364609; 101708427; 102053413; 102399567; 102746895; 103095398; 103445091; 103795967; 104148033; 104501289; 104855751; 105211411;
  105568275; 105926353; 106285645; 106646156; 107007889; 107370850; 107735039; 108100464; 108467133; 108835037; 109204201; 109574608; 109946274; 110319199; 110693390; 111068855;
  111445587; 111823601; 112202896; 112583473; 112965347; 113348518; 113732979; 114118752; 114505829; 114894226; 115283936; 115674965; 116067322; 116461014; 116856033; 117252403;
  117650108; 118049164; 118449577; 118851349; 119254478; 119658974; 120064850; 120472099; 120880722; 121290741; 121702148; 122114952; 122529152; 122944756; 123361771; 123780205;
  124200050; 124621330; 125044029; 125468170; 125893745; 126320763; 126749229; 127179153; 127610527; 128043365; 128477676; 128913467; 129350723; 129789474; 130229706; 130671432;
  131114655; 131559387; 132005615; 132453369; 132902634; 133353424; 133805756; 134259613; 134714996; 135171936; 135630432; 136090469; 136552078; 137015259; 137479996; 137946320;
  138414215; 138883698; 139354782; 139827454; 140301743; 140777634; 141255127; 141734253; 142214996; 142697388; 143181396; 143667053; 144154358; 144643311; 145133926; 145626205;
  146120163; 146615784; 147113098; 147612091; 148112762; 148615158; 149119247; 149625046; 150132553; 150641785; 151152740; 151665436; 152179871; 152696060; 153213989; 153733673;
  154255127; 154778336; 155303329; 155830109; 156358658; 156889023; 157421173; 157955124; 158490891; 159028473; 159567886; 160109131; 160652206; 161197113; 161743881; 162292496;
  162842987; 163395325; 163949554; 164505646; 165063629; 165623520; 166185287; 166748978; 167314575; 167882080; 168451523; 169022903; 169596207; 170171463; 170748657; 171327820;
  171908951; 172492050; 173077133; 173664185; 174253235; 174844284; 175437347; 176032410; 176629486; 177228607; 177829742; 178432922; 179038147; 179645432; 180254776; 180866180;
  181479660; 182095215; 182712860; 183332611; 183954453; 184578415; 185204483; 185832672; 186462997; 187095459; 187730072; 188366837; 189005753; 189646851; 190290115; 190935562;
  191583191; 192233017; 192885056; 193539307; 194195770; 194854462; 195515381; 196178558; 196843979; 197511642; 198181595; 198853806; 199528290; 200205078; 200884155; 201565521;
  202249222; 202935226; 203623566; 204314240; 205007248; 205702606; 206400330; 207100418; 207802887; 208507736; 209214966; 209924606; 210636642; 211351105; 212067993; 212787308;
  213509064; 214233261; 214959915; 215689041; 216420639; 217154709; 217891281; 218630341; 219371918; 220115997; 220862610; 221611755; 222363449; 223117676; 223874466; 224633835;
  225395767; 226160278; 226927399; 227697113; 228469437; 229244385; 230021957; 230802170; 231585022; 232370544; 233158722; 233949570; 234743103; 235539322; 236338257; 237139893;
  237944244; 238751328; 239561142; 240373718; 241189041; 242007126; 242827988; 243651642; 244478088; 245307327; 246139389; 246974274; 247811981; 248652527; 249495941; 250342194;
  251191330; 252043350; 252898254; 253756058; 254616776; 255480408; 256346985; 257216553; 258088928; 258964417; 259842712; 260724182; 261608429; 262495880; 263386139; 264279602;
  265175934; 266075470; 266977875; 267883545; 268792084; 269703888; 270618591; 271536621; 272457550; 273381775; 274308960; 275239502; 276172974; 277109833; 278049652; 278992889;
  279939087; 280888702; 281841370; 282797455; 283756561; 284719147; 285684784; 286653900; 287626099; 288601776; 289580597; 290562927; 291548401; 292537384; 293529541; 294525269;
  295524170; 296526672; 297532349; 298541656; 299554169; 300570343; 301589722; 302612793; 303639130; 304669159; 305702454; 306739471; 307779785; 308823853; 309871246; 310922394;
  311976929; 313035217; 314096893; 315162384; 316231293; 317304016; 318380157; 319460175; 320543671; 321631012; 322721863; 323816589; 324914856; 326017029; 327122742; 328232422;
  329345642; 330462860; 331583649; 332708466; 333836853; 334969299; 336105377; 337245514; 338389313; 339537201; 340688782; 341844482; 343003845; 344167419; 345334686; 346506134;
  347681335; 348860748; 350043915; 351231354; 352422577; 353618073; 354817413; 356021027; 357228485; 358440308; 359655975; 360876007; 362099945; 363328278; 364560516; 365797211;
  367037811; 368282898; 369531952; 370785492; 372043030; 373305084; 374571198; 375841827; 377116516; 378395782; 379679138; 380967102; 382259155; 383555878; 384856720; 386162262;
  387471954; 388786346; 390104950; 391428284; 392755829; 394088135; 395424713; 396766083; 398111755; 399462250; 400817047; 402176697; 403540710; 404909607; 406282898; 407661102;
  409043701; 410431274; 411823303; 413220276; 414621765; 416028259; 417439240; 418855286; 420275848; 421701538; 423131775; 424567139; 426007080; 427452179; 428901917; 430356873;
  431816437; 433281250; 434750763; 436225555; 437705017; 439189819; 440679382; 442174255; 443673920; 445178955; 446688812; 448204102; 449724213; 451249786; 452780212; 454316162;
  455856995; 457403381; 458954681; 460511566; 462073425; 463640869; 465213348; 466791473; 468374634; 469963440; 471557373; 473157013; 474761749; 476372253; 477987885; 479609344;
  481235962; 482868439; 484506104; 486149658; 487798492; 489453217; 491113220; 492779175; 494450470; 496127777; 497810425; 499499115; 501193207; 502893372; 504598969; 506310669;
  508027863; 509751221; 511480072; 513215149; 514955750; 516702576; 518455017; 520213745; 521978088; 523748718; 525525085; 527307800; 529096191; 530890991; 532691528; 534498535;
  536311340; 538130615; 539955750; 541787415; 543624878; 545468994; 547319031; 549175659; 551038208; 552907471; 554782654; 556664612; 558552612; 560447327; 562348145; 564255737;
  566169434; 568090027; 570016724; 571950378; 573890198; 575836975; 577789917; 579749939; 581716187; 583689514; 585669128; 587655884; 589648926; 591649170; 593655762; 595669617;
  597689880; 599717346; 601751343; 603792603; 605840454; 607895569; 609957275; 612026428; 614102112; 616185303; 618275146; 620372498; 622476501; 624588135; 626706421; 628832397;
  630965088; 633105469; 635252686; 637407654; 639569458; 641739014; 643915527; 646099792; 648291077; 650490234; 652696472; 654910522; 657131714; 659360840; 661597107; 663841431;
  666092896; 668352417; 670619202; 672894104; 675176270; 677466614; 679764282; 682070190; 684383911; 686705078; 689034546; 691371460; 693716736; 696069519; 698430725; 700799500;
  703176819; 705561646; 707955078; 710356140; 712765869; 715183228; 717609314; 720043152; 722485718; 724936035; 727395203; 729862244; 732338074; 734821838; 737314514; 739815186;
  742324829; 744842468; 747369141; 749903870; 752447754; 754999695; 757560852; 760130188; 762708740; 765295471; 767891541; 770495911; 773109619; 775731689; 778363098; 781002991;
  783652344; 786310120; 788977478; 791653381; 794338806; 797032898; 799736633; 802448975; 805171082; 807901855; 810642456; 813391785; 816151001; 818919067; 821697021; 824483826;
  827280701; 830086487; 832902283; 835727173; 838562134; 841406189; 844260437; 847123779; 849997437; 852880249; 855773438; 858675842; 861588684; 864510803; 867443420; 870385437;
  873337952; 876299927; 879272583; 882254639; 885247498; 888249878; 891263000; 894285767; 897319397; 900362732; 903416992; 906480957; 909555969; 912640808; 915736694; 918842468;
  921959351; 925086243; 928224365; 931372498; 934531921; 937701477; 940882385; 944073425; 947275940; 950488708; 953713013; 956947571; 960193726; 963450317; 966718567; 969997253;
  973287720; 976588684; 979901489; 983224915; 986560242; 989906189; 993264221; 996632935; 1000013733; 1003405334; 1006809143; 1010223816; 1013650696; 1017088562; 1020538757; 1024000000].
Definition exp10Table : list f32 := map micro exp10Table_micros.

(* pow9Table, lines 978-1184 *)
Definition pow9Table_micros : list Z := [
  0; 0; 0; 0; 0; 0; 0; 0; 0; 0; 0; 0; 0; 0; 0; 0;
  0; 0; 0; 0; 0; 0; 0; 0; 0; 0; 0; 0; 0; 0; 0; 0;
  0; 0; 0; 0; 0; 0; 0; 0; 0; 0; 0; 0; 0; 0; 0; 0;
  0; 0; 0; 0; 0; 0; 0; 0; 0; 0; 0; 0; 0; 0; 0; 0;
  0; 0; 0; 0; 0; 0; 0; 0; 0; 0; 0; 0; 0; 0; 0; 0;
  0; 0; 0; 0; 0; 0; 0; 0; 0; 0; 0; 0; 0; 0; 0; 0;
  0; 0; 0; 0; 0; 0; 0; 0; 0; 0; 0; 0; 0; 0; 0; 0;
  0; 0; 0; 0; 0; 0; 0; 0; 0; 0; 0; 0; 0; 0; 0; 0;
  0; 0; 0; 0; 0; 0; 0; 0; 0; 0; 0; 0; 0; 0; 0; 0;
  0; 0; 0; 0; 0; 0; 0; 0; 0; 0; 0; 0; 0; 0; 0; 0;
  0; 0; 0; 0; 0; 0; 0; 0; 0; 0; 0; 0; 0; 0; 0; 0;
  0; 0; 0; 0; 0; 0; 0; 0; 0; 0; 0; 0; 0; 0; 0; 0;
  0; 0; 0; 0; 0; 0; 0; 0; 0; 0; 0; 0; 0; 0; 0; 0;
  0; 0; 0; 0; 0; 0; 0; 0; 0; 0; 0; 0; 0; 0; 0; 0;
  0; 0; 0; 0; 0; 0; 0; 0; 0; 0; 0; 0; 0; 0; 0; 0;
  0; 0; 0; 0; 0; 0; 0; 0; 0; 0; 0; 0; 0; 0; 0; 0;
  0; 0; 0; 0; 0; 0; 0; 0; 0; 0; 0; 0; 0; 0; 0; 0;
  0; 0; 0; 0; 0; 0; 0; 0; 0; 0; 0; 0; 0; 0; 0; 0;
  0; 0; 0; 0; 0; 0; 0; 0; 0; 0; 0; 0; 0; 0; 0; 0;
  0; 0; 0; 0; 0; 0; 0; 0; 0; 0; 0; 0; 0; 0; 0; 0;
  0; 0; 0; 0; 0; 0; 0; 0; 0; 0; 0; 0; 0; 0; 0; 0;
  0; 0; 0; 0; 0; 0; 0; 0; 0; 0; 0; 0; 0; 0; 0; 0;
  0; 0; 0; 0; 0; 0; 0; 0; 0; 0; 0; 0; 0; 0; 0; 0;
  0; 0; 0; 0; 0; 0; 0; 0; 0; 0; 0; 0; 0; 0; 0; 0;
  0; 0; 0; 0; 0; 0; 0; 0; 0; 0; 1; 1; 1; 1; 1; 1;
  1; 1; 1; 1; 1; 1; 1; 1; 1; 1; 1; 1; 1; 1; 1; 1;
  1; 1; 1; 1; 1; 1; 1; 1; 1; 1; 1; 1; 1; 1; 1; 1;
  1; 1; 1; 1; 1; 1; 1; 1; 1; 1; 1; 1; 1; 1; 2; 2;
  2; 2; 2; 2; 2; 2; 2; 2; 2; 2; 2; 2; 2; 2; 2; 2;
  2; 2; 2; 2; 2; 2; 2; 2; 2; 3; 3; 3; 3; 3; 3; 3;
  3; 3; 3; 3; 3; 3; 3; 3; 3; 3; 3; 3; 4; 4; 4; 4;
  4; 4; 4; 4; 4; 4; 4; 4; 4; 4; 5; 5; 5; 5; 5; 5;
  5; 5; 5; 5; 5; 6; 6; 6; 6; 6; 6; 6; 6; 6; 6; 7;
  7; 7; 7; 7; 7; 7; 7; 7; 8; 8; 8; 8; 8; 8; 8; 8;
  9; 9; 9; 9; 9; 9; 9; 10; 10; 10; 10; 10; 10; 11; 11; 11;
  11; 11; 11; 12; 12; 12; 12; 12; 13; 13; 13; 13; 13; 14; 14; 14;
  14; 14; 15; 15; 15; 15; 16; 16; 16; 16; 17; 17; 17; 17; 18; 18;
  18; 18; 19; 19; 19; 20; 20; 20; 20; 21; 21; 21; 22; 22; 22; 23;
  23; 23; 24; 24; 24; 25; 25; 25; 26; 26; 26; 27; 27; 28; 28; 28;
  29; 29; 30; 30; 30; 31; 31; 32; 32; 33; 33; 34; 34; 35; 35; 36;
  36; 37; 37; 38; 38; 39; 39; 40; 40; 41; 41; 42; 42; 43; 44; 44;
  45; 45; 46; 47; 47; 48; 48; 49; 50; 50; 51; 52; 53; 53; 54; 55;
  55; 56; 57; 58; 58; 59; 60; 61; 61; 62; 63; 64; 65; 65; 66; 67;
  68; 69; 70; 71; 72; 73; 73; 74; 75; 76; 77; 78; 79; 80; 81; 82;
  83; 84; 85; 87; 88; 89; 90; 91; 92; 93; 94; 96; 97; 98; 99; 100;
  102; 103; 104; 105; 107; 108; 109; 111; 112; 113; 115; 116; 117; 119; 120; 122;
  123; 125; 126; 128; 129; 131; 132; 134; 136; 137; 139; 140; 142; 144; 145; 147;
  149; 151; 152; 154; 156; 158; 160; 162; 163; 165; 167; 169; 171; 173; 175; 177;
  179; 181; 183; 185; 188; 190; 192; 194; 196; 199; 201; 203; 205; 208; 210; 212;
  215; 217; 220; 222; 225; 227; 230; 232; 235; 238; 240; 243; 246; 248; 251; 254;
  257; 259; 262; 265; 268; 271; 274; 277; 280; 283; 286; 289; 293; 296; 299; 302;
  306; 309; 312; 316; 319; 322; 326; 329; 333; 336; 340; 344; 347; 351; 355; 359;
  362; 366; 370; 374; 378; 382; 386; 390; 394; 398; 403; 407; 411; 415; 420; 424;
  429; 433; 438; 442; 447; 451; 456; 461; 466; 470; 475; 480; 485; 490; 495; 500;
  505; 510; 516; 521; 526; 532; 537; 542; 548; 553; 559; 565; 570; 576; 582; 588;
  594; 600; 606; 612; 618; 624; 630; 637; 643; 649; 656; 662; 669; 676; 682; 689;
  696; 703; 710; 717; 724; 731; 738; 745; 752; 760; 767; 775; 782; 790; 797; 805;
  813; 821; 829; 837; 845; 853; 861; 870; 878; 886; 895; 904; 912; 921; 930; 939;
  948; 957; 966; 975; 984; 993; 1003; 1012; 1022; 1032; 1041; 1051; 1061; 1071; 1081; 1091;
  1101; 1112; 1122; 1133; 1143; 1154; 1164; 1175; 1186; 1197; 1208; 1220; 1231; 1242; 1254; 1265;
  1277; 1289; 1300; 1312; 1324; 1337; 1349; 1361; 1374; 1386; 1399; 1412; 1424; 1437; 1450; 1464;
  1477; 1490; 1504; 1517; 1531; 1545; 1559; 1573; 1587; 1601; 1615; 1630; 1644; 1659; 1674; 1689;
  1704; 1719; 1734; 1750; 1765; 1781; 1797; 1813; 1829; 1845; 1861; 1878; 1894; 1911; 1928; 1945;
  1962; 1979; 1996; 2014; 2031; 2049; 2067; 2085; 2103; 2121; 2140; 2158; 2177; 2196; 2215; 2234;
  2253; 2273; 2292; 2312; 2332; 2352; 2372; 2392; 2413; 2434; 2454; 2475; 2496; 2518; 2539; 2561;
  2583; 2605; 2627; 2649; 2671; 2694; 2717; 2740; 2763; 2786; 2809; 2833; 2857; 2881; 2905; 2929;
  2954; 2979; 3004; 3029; 3054; 3079; 3105; 3131; 3157; 3183; 3209; 3236; 3263; 3290; 3317; 3344;
  3372; 3400; 3428; 3456; 3484; 3513; 3542; 3571; 3600; 3629; 3659; 3689; 3719; 3749; 3780; 3811;
  3841; 3873; 3904; 3936; 3968; 4000; 4032; 4064; 4097; 4130; 4164; 4197; 4231; 4265; 4299; 4333;
  4368; 4403; 4438; 4474; 4509; 4545; 4581; 4618; 4655; 4692; 4729; 4766; 4804; 4842; 4880; 4919;
  4958; 4997; 5036; 5076; 5116; 5156; 5196; 5237; 5278; 5319; 5361; 5403; 5445; 5488; 5530; 5573;
  5617; 5661; 5704; 5749; 5793; 5838; 5883; 5929; 5975; 6021; 6067; 6114; 6161; 6208; 6256; 6304;
  6352; 6401; 6450; 6500; 6549; 6599; 6650; 6700; 6751; 6803; 6855; 6907; 6959; 7012; 7065; 7118;
  7172; 7227; 7281; 7336; 7391; 7447; 7503; 7560; 7616; 7674; 7731; 7789; 7847; 7906; 7965; 8025;
  8085; 8145; 8206; 8267; 8328; 8390; 8452; 8515; 8578; 8642; 8706; 8770; 8835; 8900; 8966; 9032;
  9098; 9165; 9233; 9300; 9369; 9437; 9506; 9576; 9646; 9717; 9788; 9859; 9931; 10003; 10076; 10149;
  10223; 10297; 10372; 10447; 10523; 10599; 10676; 10753; 10830; 10908; 10987; 11066; 11146; 11226; 11306; 11388;
  11469; 11551; 11634; 11717; 11801; 11885; 11970; 12056; 12142; 12228; 12315; 12402; 12491; 12579; 12668; 12758;
  12848; 12939; 13031; 13123; 13215; 13309; 13402; 13497; 13592; 13687; 13783; 13880; 13977; 14075; 14174; 14273;
  14373; 14473; 14574; 14676; 14778; 14881; 14984; 15088; 15193; 15299; 15405; 15511; 15619; 15727; 15836; 15945;
  16055; 16166; 16277; 16389; 16502; 16615; 16730; 16844; 16960; 17076; 17193; 17311; 17429; 17548; 17668; 17788;
  17910; 18032; 18154; 18278; 18402; 18527; 18653; 18779; 18906; 19034; 19163; 19292; 19423; 19554; 19686; 19818;
  19952; 20086; 20221; 20357; 20493; 20631; 20769; 20908; 21048; 21189; 21330; 21473; 21616; 21760; 21905; 22051;
  22198; 22345; 22494; 22643; 22793; 22944; 23096; 23249; 23402; 23557; 23712; 23869; 24026; 24184; 24344; 24504;
  24665; 24827; 24990; 25153; 25318; 25484; 25651; 25818; 25987; 26157; 26327; 26499; 26672; 26845; 27020; 27195;
  27372; 27550; 27728; 27908; 28089; 28270; 28453; 28637; 28822; 29008; 29195; 29383; 29572; 29762; 29953; 30146;
  30339; 30534; 30730; 30926; 31124; 31323; 31523; 31725; 31927; 32131; 32335; 32541; 32748; 32957; 33166; 33377;
  33588; 33801; 34015; 34231; 34447; 34665; 34884; 35104; 35326; 35548; 35772; 35997; 36224; 36451; 36680; 36911;
  37142; 37375; 37609; 37844; 38081; 38319; 38558; 38799; 39041; 39284; 39529; 39775; 40022; 40271; 40521; 40772;
  41025; 41279; 41535; 41792; 42051; 42310; 42572; 42834; 43098; 43364; 43631; 43900; 44169; 44441; 44714; 44988;
  45264; 45541; 45820; 46101; 46383; 46666; 46951; 47237; 47525; 47815; 48106; 48399; 48693; 48989; 49287; 49586;
  49887; 50189; 50493; 50798; 51106; 51414; 51725; 52037; 52351; 52666; 52984; 53303; 53623; 53945; 54269; 54595;
  54923; 55252; 55583; 55916; 56250; 56586; 56924; 57264; 57606; 57949; 58294; 58642; 58990; 59341; 59694; 60048;
  60404; 60763; 61123; 61485; 61848; 62214; 62582; 62951; 63323; 63696; 64072; 64449; 64829; 65210; 65593; 65978;
  66366; 66755; 67146; 67540; 67935; 68333; 68732; 69134; 69537; 69943; 70351; 70761; 71173; 71587; 72004; 72422;
  72843; 73266; 73691; 74118; 74547; 74979; 75412; 75848; 76287; 76727; 77170; 77615; 78062; 78512; 78963; 79418;
  79874; 80333; 80794; 81257; 81723; 82191; 82662; 83135; 83610; 84088; 84568; 85051; 85536; 86023; 86513; 87006;
  87500; 87998; 88498; 89000; 89505; 90012; 90522; 91035; 91550; 92068; 92588; 93111; 93637; 94165; 94696; 95229;
  95765; 96304; 96846; 97390; 97937; 98486; 99039; 99594; 100152; 100712; 101276; 101842; 102411; 102982; 103557; 104135;
  104715; 105298; 105884; 106473; 107065; 107660; 108257; 108858; 109462; 110068; 110678; 111290; 111906; 112524; 113146; 113770;
  114398; 115029; 115663; 116300; 116940; 117583; 118229; 118878; 119531; 120187; 120846; 121508; 122173; 122842; 123513; 124188;
  124867; 125548; 126233; 126922; 127613; 128308; 129006; 129708; 130413; 131121; 131833; 132548; 133267; 133989; 134714; 135443;
  136176; 136912; 137652; 138395; 139141; 139891; 140645; 141403; 142164; 142928; 143697; 144469; 145244; 146024; 146807; 147593;
  148384; 149178; 149976; 150778; 151583; 152393; 153206; 154023; 154844; 155669; 156497; 157330; 158166; 159007; 159851; 160700;
  161552; 162408; 163269; 164133; 165002; 165874; 166751; 167632; 168516; 169405; 170299; 171196; 172097; 173003; 173913; 174827;
  175746; 176668; 177595; 178527; 179462; 180402; 181347; 182295; 183248; 184206; 185168; 186134; 187105; 188081; 189061; 190045;
  191034; 192027; 193025; 194028; 195035; 196047; 197064; 198085; 199111; 200142; 201177; 202217; 203262; 204312; 205366; 206425;
  207489; 208558; 209632; 210711; 211795; 212883; 213977; 215075; 216179; 217287; 218401; 219520; 220643; 221772; 222906; 224045;
  225189; 226339; 227493; 228653; 229818; 230988; 232164; 233345; 234531; 235723; 236920; 238122; 239330; 240543; 241761; 242985;
  244215; 245450; 246690; 247936; 249188; 250445; 251708; 252977; 254251; 255531; 256817; 258108; 259405; 260708; 262017; 263331;
  264651; 265978; 267310; 268648; 269992; 271342; 272697; 274059; 275427; 276801; 278181; 279567; 280959; 282358; 283762; 285173;
  286590; 288013; 289443; 290878; 292320; 293769; 295223; 296684; 298152; 299626; 301106; 302593; 304086; 305586; 307093; 308606;
  310126; 311652; 313185; 314724; 316271; 317824; 319383; 320950; 322523; 324104; 325691; 327285; 328885; 330493; 332108; 333730;
  335358; 336994; 338637; 340287; 341944; 343608; 345280; 346958; 348644; 350337; 352038; 353745; 355460; 357183; 358913; 360650;
  362395; 364147; 365906; 367673; 369448; 371231; 373020; 374818; 376623; 378436; 380257; 382085; 383922; 385766; 387618; 389477;
  391345; 393221; 395104; 396996; 398896; 400803; 402719; 404643; 406575; 408515; 410463; 412420; 414385; 416358; 418339; 420329;
  422327; 424334; 426349; 428373; 430405; 432445; 434494; 436552; 438619; 440694; 442777; 444870; 446971; 449081; 451200; 453328;
  455464; 457610; 459764; 461928; 464100; 466282; 468473; 470672; 472881; 475099; 477327; 479563; 481809; 484064; 486329; 488603;
  490886; 493179; 495481; 497793; 500114; 502445; 504785; 507136; 509496; 511865; 514245; 516634; 519033; 521442; 523860; 526289;
  528728; 531177; 533635; 536104; 538583; 541072; 543571; 546081; 548601; 551131; 553671; 556222; 558783; 561355; 563937; 566530;
  569133; 571747; 574371; 577007; 579652; 582309; 584976; 587655; 590344; 593044; 595755; 598476; 601209; 603953; 606708; 609475;
  612252; 615040; 617840; 620651; 623474; 626308; 629153; 632010; 634878; 637757; 640649; 643552; 646466; 649392; 652330; 655280;
  658242; 661215; 664200; 667198; 670207; 673228; 676261; 679307; 682365; 685434; 688516; 691611; 694717; 697836; 700968; 704111;
  707268; 710437; 713618; 716812; 720019; 723238; 726470; 729715; 732973; 736244; 739528; 742824; 746134; 749456; 752792; 756141;
  759503; 762879; 766267; 769669; 773085; 776514; 779956; 783412; 786881; 790364; 793861; 797371; 800895; 804433; 807985; 811551;
  815130; 818724; 822331; 825953; 829589; 833239; 836903; 840582; 844274; 847982; 851703; 855439; 859190; 862955; 866735; 870529;
  874339; 878163; 882001; 885855; 889723; 893607; 897506; 901419; 905348; 909292; 913251; 917225; 921215; 925220; 929240; 933276;
  937328; 941395; 945478; 949576; 953690; 957820; 961966; 966128; 970305; 974499; 978709; 982935; 987177; 991435; 995709; 1000000].
Definition pow9Table : list f32 := map micro pow9Table_micros.

(* logTable, lines 1185-1391 *)
Definition logTable_micros : list Z := [
  2995732; 3393186; 3676838; 3897556; 4078258; 4231249; 4363910; 4481016; 4585835; 4680701; 4767342; 4847072; 4920911; 4989671; 5054006; 5114451;
  5171450; 5225374; 5276538; 5325212; 5371626; 5415981; 5458452; 5499192; 5538338; 5576008; 5612311; 5647342; 5681188; 5713925; 5745624; 5776349;
  5806159; 5835105; 5863237; 5890599; 5917233; 5943175; 5968462; 5993124; 6017193; 6040697; 6063660; 6086108; 6108064; 6129547; 6150579; 6171177;
  6191360; 6211143; 6230543; 6249573; 6268249; 6286581; 6304584; 6322268; 6339645; 6356725; 6373518; 6390034; 6406281; 6422269; 6438005; 6453498;
  6468754; 6483781; 6498585; 6513174; 6527552; 6541727; 6555704; 6569488; 6583084; 6596498; 6609735; 6622798; 6635694; 6648425; 6660996; 6673411;
  6685674; 6697788; 6709757; 6721585; 6733274; 6744828; 6756250; 6767544; 6778711; 6789755; 6800678; 6811483; 6822173; 6832749; 6843215; 6853573;
  6863824; 6873971; 6884017; 6893962; 6903810; 6913561; 6923219; 6932784; 6942258; 6951643; 6960942; 6970154; 6979282; 6988328; 6997293; 7006178;
  7014985; 7023715; 7032370; 7040949; 7049457; 7057892; 7066257; 7074552; 7082779; 7090940; 7099033; 7107062; 7115027; 7122930; 7130770; 7138549;
  7146268; 7153928; 7161530; 7169075; 7176562; 7183995; 7191372; 7198695; 7205966; 7213183; 7220349; 7227464; 7234529; 7241544; 7248510; 7255428;
  7262299; 7269123; 7275900; 7282632; 7289319; 7295961; 7302559; 7309115; 7315628; 7322098; 7328527; 7334915; 7341262; 7347569; 7353837; 7360065;
  7366256; 7372407; 7378522; 7384599; 7390640; 7396644; 7402612; 7408545; 7414443; 7420307; 7426136; 7431931; 7437694; 7443423; 7449119; 7454783;
  7460415; 7466016; 7471586; 7477125; 7482633; 7488111; 7493559; 7498977; 7504367; 7509727; 7515059; 7520363; 7525639; 7530887; 7536107; 7541301;
  7546467; 7551608; 7556721; 7561809; 7566871; 7571908; 7576919; 7581905; 7586867; 7591804; 7596717; 7601605; 7606471; 7611312; 7616130; 7620925;
  7625698; 7630447; 7635174; 7639879; 7644562; 7649222; 7653862; 7658480; 7663076; 7667652; 7672207; 7676741; 7681255; 7685748; 7690221; 7694675;
  7699109; 7703523; 7707917; 7712293; 7716649; 7720986; 7725305; 7729606; 7733887; 7738151; 7742396; 7746624; 7750833; 7755025; 7759200; 7763357;
  7767497; 7771620; 7775726; 7779815; 7783887; 7787943; 7791983; 7796006; 7800014; 7804005; 7807980; 7811940; 7815884; 7819812; 7823725; 7827623;
  7831506; 7835374; 7839227; 7843065; 7846888; 7850697; 7854491; 7858271; 7862037; 7865789; 7869526; 7873250; 7876960; 7880656; 7884339; 7888008;
  7891664; 7895306; 7898935; 7902551; 7906154; 7909744; 7913321; 7916886; 7920437; 7923976; 7927504; 7931018; 7934520; 7938010; 7941487; 7944953;
  7948407; 7951848; 7955278; 7958696; 7962103; 7965498; 7968882; 7972254; 7975615; 7978964; 7982302; 7985630; 7988946; 7992251; 7995545; 7998829;
  8002102; 8005364; 8008615; 8011856; 8015087; 8018307; 8021517; 8024716; 8027905; 8031085; 8034254; 8037413; 8040562; 8043701; 8046831; 8049951;
  8053061; 8056161; 8059252; 8062332; 8065404; 8068467; 8071520; 8074563; 8077598; 8080623; 8083639; 8086646; 8089644; 8092633; 8095613; 8098585;
  8101547; 8104502; 8107447; 8110383; 8113311; 8116230; 8119141; 8122043; 8124937; 8127823; 8130700; 8133569; 8136430; 8139282; 8142127; 8144963;
  8147792; 8150613; 8153425; 8156230; 8159026; 8161816; 8164597; 8167370; 8170136; 8172894; 8175645; 8178389; 8181124; 8183852; 8186573; 8189286;
  8191992; 8194691; 8197382; 8200067; 8202744; 8205413; 8208076; 8210732; 8213381; 8216022; 8218657; 8221285; 8223906; 8226520; 8229127; 8231728;
  8234321; 8236908; 8239489; 8242062; 8244629; 8247190; 8249743; 8252291; 8254832; 8257366; 8259894; 8262416; 8264932; 8267441; 8269943; 8272440;
  8274931; 8277414; 8279893; 8282365; 8284830; 8287291; 8289743; 8292192; 8294633; 8297069; 8299499; 8301923; 8304341; 8306753; 8309159; 8311561;
  8313955; 8316344; 8318727; 8321106; 8323478; 8325845; 8328206; 8330561; 8332911; 8335256; 8337594; 8339928; 8342256; 8344579; 8346895; 8349208;
  8351514; 8353815; 8356112; 8358402; 8360687; 8362967; 8365243; 8367513; 8369778; 8372037; 8374291; 8376541; 8378785; 8381024; 8383259; 8385489;
  8387713; 8389933; 8392147; 8394357; 8396562; 8398762; 8400957; 8403147; 8405333; 8407514; 8409690; 8411860; 8414027; 8416189; 8418346; 8420500;
  8422647; 8424790; 8426929; 8429064; 8431193; 8433319; 8435439; 8437555; 8439668; 8441774; 8443877; 8445975; 8448070; 8450159; 8452245; 8454326;
  8456403; 8458475; 8460543; 8462606; 8464666; 8466722; 8468773; 8470819; 8472862; 8474900; 8476934; 8478965; 8480991; 8483013; 8485031; 8487045;
  8489055; 8491061; 8493063; 8495061; 8497054; 8499044; 8501030; 8503012; 8504990; 8506964; 8508934; 8510900; 8512863; 8514822; 8516777; 8518728;
  8520675; 8522618; 8524558; 8526494; 8528426; 8530354; 8532280; 8534201; 8536118; 8538032; 8539942; 8541848; 8543751; 8545650; 8547545; 8549438;
  8551326; 8553211; 8555092; 8556970; 8558845; 8560715; 8562582; 8564445; 8566306; 8568163; 8570017; 8571866; 8573713; 8575556; 8577395; 8579232;
  8581065; 8582895; 8584722; 8586544; 8588364; 8590180; 8591993; 8593803; 8595610; 8597413; 8599213; 8601009; 8602803; 8604593; 8606380; 8608165;
  8609945; 8611723; 8613498; 8615269; 8617037; 8618802; 8620564; 8622323; 8624079; 8625832; 8627582; 8629328; 8631071; 8632812; 8634549; 8636284;
  8638015; 8639744; 8641469; 8643191; 8644911; 8646627; 8648341; 8650052; 8651760; 8653465; 8655167; 8656866; 8658562; 8660255; 8661946; 8663633;
  8665318; 8667001; 8668679; 8670356; 8672029; 8673700; 8675367; 8677033; 8678696; 8680355; 8682012; 8683666; 8685317; 8686966; 8688612; 8690255;
  8691895; 8693534; 8695168; 8696801; 8698431; 8700059; 8701683; 8703305; 8704925; 8706541; 8708155; 8709766; 8711375; 8712981; 8714585; 8716187;
  8717785; 8719381; 8720975; 8722566; 8724154; 8725740; 8727324; 8728905; 8730483; 8732059; 8733632; 8735203; 8736772; 8738338; 8739902; 8741463;
  8743021; 8744577; 8746131; 8747683; 8749232; 8750778; 8752323; 8753865; 8755404; 8756942; 8758476; 8760009; 8761539; 8763066; 8764592; 8766115;
  8767636; 8769155; 8770671; 8772184; 8773696; 8775206; 8776712; 8778217; 8779720; 8781220; 8782718; 8784214; 8785707; 8787199; 8788688; 8790174;
  8791659; 8793141; 8794622; 8796101; 8797576; 8799049; 8800522; 8801991; 8803458; 8804923; 8806386; 8807847; 8809305; 8810762; 8812217; 8813669;
  8815119; 8816567; 8818013; 8819457; 8820899; 8822339; 8823776; 8825212; 8826646; 8828077; 8829507; 8830935; 8832359; 8833783; 8835204; 8836624;
  8838041; 8839457; 8840870; 8842281; 8843691; 8845098; 8846503; 8847907; 8849308; 8850708; 8852105; 8853500; 8854895; 8856286; 8857676; 8859064;
  8860450; 8861834; 8863215; 8864595; 8865974; 8867351; 8868725; 8870097; 8871469; 8872837; 8874204; 8875569; 8876932; 8878294; 8879653; 8881011;
  8882367; 8883720; 8885073; 8886423; 8887772; 8889118; 8890464; 8891807; 8893147; 8894487; 8895825; 8897161; 8898495; 8899827; 8901158; 8902487;
  8903814; 8905139; 8906463; 8907784; 8909104; 8910423; 8911739; 8913054; 8914368; 8915679; 8916988; 8918297; 8919602; 8920907; 8922210; 8923512;
  8924810; 8926108; 8927404; 8928699; 8929992; 8931283; 8932572; 8933860; 8935146; 8936431; 8937714; 8938994; 8940274; 8941552; 8942828; 8944102;
  8945375; 8946647; 8947917; 8949185; 8950452; 8951716; 8952980; 8954242; 8955502; 8956760; 8958017; 8959272; 8960526; 8961779; 8963030; 8964278;
  8965527; 8966772; 8968017; 8969259; 8970501; 8971741; 8972980; 8974216; 8975451; 8976685; 8977918; 8979148; 8980377; 8981605; 8982831; 8984056;
  8985279; 8986501; 8987720; 8988939; 8990156; 8991372; 8992586; 8993799; 8995010; 8996221; 8997429; 8998636; 8999842; 9001045; 9002248; 9003449;
  9004649; 9005847; 9007044; 9008239; 9009433; 9010626; 9011817; 9013006; 9014194; 9015382; 9016567; 9017751; 9018934; 9020115; 9021295; 9022473;
  9023650; 9024826; 9026001; 9027173; 9028345; 9029515; 9030684; 9031852; 9033018; 9034183; 9035346; 9036508; 9037668; 9038828; 9039986; 9041142;
  9042298; 9043452; 9044604; 9045756; 9046906; 9048055; 9049202; 9050348; 9051493; 9052636; 9053779; 9054919; 9056059; 9057198; 9058334; 9059470;
  9060604; 9061737; 9062869; 9063999; 9065128; 9066257; 9067384; 9068509; 9069633; 9070756; 9071877; 9072998; 9074117; 9075235; 9076351; 9077467;
  9078581; 9079694; 9080806; 9081916; 9083025; 9084133; 9085240; 9086346; 9087450; 9088553; 9089655; 9090755; 9091855; 9092953; 9094050; 9095146;
  9096241; 9097334; 9098427; 9099518; 9100607; 9101696; 9102783; 9103869; 9104955; 9106039; 9107121; 9108203; 9109283; 9110363; 9111441; 9112518;
  9113594; 9114669; 9115742; 9116815; 9117886; 9118956; 9120025; 9121092; 9122159; 9123224; 9124289; 9125352; 9126414; 9127475; 9128534; 9129593;
  9130651; 9131707; 9132763; 9133817; 9134871; 9135922; 9136973; 9138022; 9139071; 9140120; 9141166; 9142211; 9143255; 9144299; 9145341; 9146382;
  9147422; 9148460; 9149499; 9150536; 9151571; 9152606; 9153639; 9154672; 9155704; 9156734; 9157763; 9158791; 9159818; 9160844; 9161869; 9162893;
  9163917; 9164938; 9165959; 9166979; 9167997; 9169016; 9170033; 9171048; 9172063; 9173077; 9174088; 9175100; 9176111; 9177120; 9178129; 9179136;
  9180143; 9181149; 9182153; 9183156; 9184159; 9185161; 9186161; 9187160; 9188159; 9189157; 9190152; 9191148; 9192142; 9193136; 9194129; 9195120;
  9196111; 9197101; 9198089; 9199077; 9200063; 9201049; 9202033; 9203017; 9204000; 9204982; 9205962; 9206943; 9207921; 9208899; 9209876; 9210853;
  9211827; 9212801; 9213775; 9214746; 9215718; 9216688; 9217658; 9218626; 9219594; 9220560; 9221526; 9222491; 9223454; 9224418; 9225380; 9226340;
  9227301; 9228260; 9229218; 9230176; 9231132; 9232087; 9233042; 9233995; 9234949; 9235901; 9236852; 9237802; 9238750; 9239699; 9240646; 9241592;
  9242538; 9243484; 9244427; 9245370; 9246312; 9247253; 9248193; 9249132; 9250072; 9251009; 9251945; 9252881; 9253817; 9254750; 9255684; 9256616;
  9257547; 9258478; 9259408; 9260337; 9261265; 9262192; 9263118; 9264044; 9264968; 9265892; 9266815; 9267736; 9268658; 9269579; 9270498; 9271417;
  9272334; 9273252; 9274167; 9275083; 9275997; 9276911; 9277823; 9278736; 9279647; 9280557; 9281466; 9282375; 9283283; 9284190; 9285096; 9286001;
  9286906; 9287809; 9288713; 9289615; 9290516; 9291416; 9292316; 9293215; 9294113; 9295011; 9295906; 9296803; 9297697; 9298591; 9299484; 9300377;
  9301269; 9302159; 9303049; 9303938; 9304827; 9305715; 9306602; 9307487; 9308372; 9309258; 9310141; 9311024; 9311906; 9312788; 9313668; 9314548;
  9315427; 9316305; 9317183; 9318060; 9318935; 9319811; 9320685; 9321559; 9322433; 9323304; 9324176; 9325047; 9325916; 9326785; 9327654; 9328522;
  9329389; 9330255; 9331120; 9331985; 9332849; 9333712; 9334574; 9335436; 9336297; 9337157; 9338017; 9338875; 9339733; 9340590; 9341447; 9342302;
  9343158; 9344011; 9344865; 9345718; 9346570; 9347422; 9348272; 9349122; 9349972; 9350820; 9351667; 9352515; 9353361; 9354207; 9355052; 9355896;
  9356739; 9357582; 9358424; 9359265; 9360106; 9360946; 9361786; 9362624; 9363461; 9364299; 9365135; 9365972; 9366806; 9367640; 9368474; 9369308;
  9370139; 9370971; 9371801; 9372632; 9373462; 9374290; 9375118; 9375946; 9376773; 9377599; 9378424; 9379249; 9380073; 9380897; 9381719; 9382541;
  9383362; 9384183; 9385003; 9385822; 9386641; 9387459; 9388276; 9389092; 9389909; 9390724; 9391539; 9392352; 9393166; 9393978; 9394791; 9395601;
  9396413; 9397223; 9398032; 9398841; 9399649; 9400455; 9401262; 9402069; 9402874; 9403679; 9404483; 9405287; 9406090; 9406892; 9407693; 9408494;
  9409294; 9410094; 9410893; 9411692; 9412489; 9413286; 9414083; 9414879; 9415674; 9416469; 9417262; 9418056; 9418848; 9419641; 9420432; 9421223;
  9422012; 9422802; 9423592; 9424379; 9425167; 9425954; 9426741; 9427526; 9428311; 9429096; 9429880; 9430664; 9431446; 9432229; 9433010; 9433791;
  9434571; 9435351; 9436131; 9436909; 9437687; 9438464; 9439240; 9440017; 9440792; 9441566; 9442341; 9443115; 9443888; 9444660; 9445433; 9446203;
  9446974; 9447744; 9448514; 9449283; 9450051; 9450819; 9451586; 9452353; 9453118; 9453884; 9454649; 9455413; 9456177; 9456940; 9457702; 9458464;
  9459225; 9459986; 9460746; 9461506; 9462264; 9463023; 9463780; 9464538; 9465295; 9466051; 9466806; 9467562; 9468316; 9469069; 9469823; 9470575;
  9471328; 9472079; 9472830; 9473580; 9474331; 9475080; 9475828; 9476577; 9477324; 9478071; 9478818; 9479564; 9480309; 9481054; 9481798; 9482542;
  9483286; 9484028; 9484770; 9485512; 9486253; 9486993; 9487733; 9488472; 9489211; 9489949; 9490687; 9491425; 9492161; 9492897; 9493632; 9494368;
  9495102; 9495836; 9496570; 9497302; 9498034; 9498766; 9499497; 9500228; 9500958; 9501688; 9502417; 9503145; 9503874; 9504601; 9505328; 9506055;
  9506781; 9507506; 9508231; 9508955; 9509679; 9510403; 9511125; 9511847; 9512569; 9513290; 9514011; 9514731; 9515450; 9516170; 9516889; 9517607;
  9518324; 9519041; 9519758; 9520473; 9521190; 9521905; 9522619; 9523333; 9524047; 9524759; 9525472; 9526184; 9526896; 9527606; 9528316; 9529027;
  9529737; 9530445; 9531154; 9531861; 9532569; 9533276; 9533982; 9534688; 9535394; 9536098; 9536803; 9537507; 9538211; 9538914; 9539616; 9540318;
  9541019; 9541720; 9542421; 9543121; 9543820; 9544519; 9545218; 9545917; 9546614; 9547311; 9548007; 9548703; 9549399; 9550095; 9550789; 9551483;
  9552176; 9552870; 9553563; 9554255; 9554947; 9555638; 9556329; 9557019; 9557709; 9558398; 9559088; 9559776; 9560464; 9561152; 9561838; 9562525;
  9563211; 9563897; 9564582; 9565267; 9565950; 9566634; 9567318; 9568001; 9568683; 9569365; 9570046; 9570727; 9571407; 9572087; 9572767; 9573446;
  9574125; 9574803; 9575480; 9576158; 9576835; 9577511; 9578187; 9578862; 9579537; 9580212; 9580886; 9581559; 9582232; 9582906; 9583578; 9584249;
  9584921; 9585591; 9586262; 9586932; 9587602; 9588271; 9588940; 9589607; 9590276; 9590942; 9591610; 9592276; 9592942; 9593608; 9594273; 9594937;
  9595601; 9596265; 9596929; 9597591; 9598254; 9598916; 9599578; 9600239; 9600900; 9601560; 9602220; 9602879; 9603538; 9604197; 9604855; 9605512;
  9606170; 9606826; 9607482; 9608138; 9608794; 9609449; 9610104; 9610758; 9611411; 9612065; 9612718; 9613370; 9614022; 9614675; 9615325; 9615976;
  9616627; 9617276; 9617926; 9618575; 9619224; 9619872; 9620520; 9621167; 9621815; 9622461; 9623107; 9623753; 9624398; 9625043; 9625688; 9626332;
  9626976; 9627619; 9628262; 9628904; 9629546; 9630188; 9630829; 9631470; 9632111; 9632751; 9633389; 9634029; 9634667; 9635306; 9635944; 9636581;
  9637218; 9637856; 9638492; 9639128; 9639763; 9640398; 9641033; 9641667; 9642301; 9642935; 9643568; 9644200; 9644833; 9645465; 9646096; 9646727;
  9647358; 9647988; 9648618; 9649247; 9649877; 9650505; 9651134; 9651761; 9652390; 9653016; 9653643; 9654269; 9654895; 9655520; 9656146; 9656771;
  9657395; 9658019; 9658643; 9659266; 9659889; 9660511; 9661134; 9661755; 9662376; 9662997; 9663618; 9664238; 9664858; 9665477; 9666096; 9666715;
  9667333; 9667951; 9668569; 9669186; 9669802; 9670418; 9671034; 9671650; 9672265; 9672879; 9673494; 9674109; 9674722; 9675335; 9675948; 9676560;
  9677173; 9677785; 9678396; 9679007; 9679618; 9680228; 9680838; 9681447; 9682056; 9682666; 9683274; 9683882; 9684489; 9685097; 9685704; 9686311;
  9686916; 9687523; 9688128; 9688733; 9689338; 9689942; 9690546; 9691150; 9691753; 9692356; 9692959; 9693562; 9694163; 9694764; 9695366; 9695967;
  9696567; 9697166; 9697766; 9698366; 9698965; 9699563; 9700162; 9700760; 9701357; 9701954; 9702551; 9703148; 9703744; 9704339; 9704935; 9705530;
  9706124; 9706718; 9707313; 9707907; 9708500; 9709092; 9709685; 9710278; 9710869; 9711461; 9712052; 9712643; 9713233; 9713823; 9714413; 9715003;
  9715591; 9716181; 9716769; 9717357; 9717944; 9718532; 9719119; 9719706; 9720292; 9720878; 9721463; 9722049; 9722633; 9723218; 9723803; 9724386;
  9724970; 9725554; 9726136; 9726719; 9727301; 9727883; 9728464; 9729046; 9729627; 9730207; 9730787; 9731367; 9731947; 9732526; 9733105; 9733684;
  9734262; 9734839; 9735416; 9735994; 9736571; 9737147; 9737723; 9738299; 9738875; 9739450; 9740026; 9740600; 9741174; 9741748; 9742321; 9742894;
  9743467; 9744040; 9744612; 9745184; 9745755; 9746326; 9746898; 9747468; 9748038; 9748609; 9749178; 9749747; 9750317; 9750885; 9751453; 9752022;
  9752589; 9753157; 9753723; 9754291; 9754856; 9755423; 9755988; 9756554; 9757119; 9757684; 9758248; 9758812; 9759377; 9759940; 9760503; 9761065;
  9761628; 9762191; 9762753; 9763314; 9763876; 9764437; 9764997; 9765557; 9766118; 9766677; 9767237; 9767796; 9768354; 9768913; 9769471; 9770029;
  9770587; 9771144; 9771701; 9772258; 9772814; 9773370; 9773926; 9774481; 9775036; 9775591; 9776145; 9776700; 9777253; 9777807; 9778360; 9778913;
  9779466; 9780018; 9780570; 9781121; 9781673; 9782225; 9782775; 9783325; 9783875; 9784426; 9784975; 9785524; 9786074; 9786622; 9787170; 9787719;
  9788266; 9788814; 9789361; 9789907; 9790455; 9791000; 9791547; 9792092; 9792638; 9793183; 9793728; 9794272; 9794816; 9795361; 9795904; 9796448;
  9796990; 9797533; 9798076; 9798617; 9799159; 9799701; 9800242; 9800783; 9801324; 9801865; 9802404; 9802944; 9803484; 9804023; 9804562; 9805100;
  9805639; 9806177; 9806715; 9807252; 9807789; 9808326; 9808863; 9809399; 9809936; 9810471; 9811007; 9811542; 9812077; 9812611; 9813146; 9813680;
  9814213; 9814747; 9815280; 9815813; 9816345; 9816877; 9817410; 9817942; 9818473; 9819004; 9819535; 9820065; 9820596; 9821126; 9821656; 9822186;
  9822715; 9823243; 9823772; 9824301; 9824829; 9825356; 9825884; 9826411; 9826939; 9827465; 9827991; 9828518; 9829043; 9829569; 9830094; 9830620;
  9831144; 9831669; 9832193; 9832717; 9833241; 9833764; 9834288; 9834810; 9835333; 9835855; 9836377; 9836899; 9837420; 9837941; 9838463; 9838984;
  9839503; 9840024; 9840544; 9841063; 9841582; 9842101; 9842621; 9843139; 9843657; 9844175; 9844693; 9845210; 9845728; 9846245; 9846761; 9847278;
  9847794; 9848310; 9848825; 9849340; 9849855; 9850370; 9850884; 9851398; 9851912; 9852427; 9852941; 9853454; 9853967; 9854479; 9854991; 9855503;
  9856015; 9856527; 9857038; 9857550; 9858060; 9858571; 9859081; 9859591; 9860101; 9860611; 9861120; 9861629; 9862138; 9862646; 9863154; 9863663;
  9864170; 9864677; 9865185; 9865692; 9866199; 9866705; 9867211; 9867717; 9868223; 9868729; 9869233; 9869739; 9870243; 9870748; 9871251; 9871756;
  9872259; 9872763; 9873265; 9873769; 9874271; 9874773; 9875276; 9875777; 9876279; 9876781; 9877281; 9877783; 9878283; 9878783; 9879283; 9879784;
  9880283; 9880782; 9881282; 9881781; 9882278; 9882777; 9883275; 9883773; 9884271; 9884768; 9885265; 9885762; 9886259; 9886755; 9887252; 9887748;
  9888243; 9888739; 9889234; 9889729; 9890224; 9890718; 9891212; 9891706; 9892200; 9892693; 9893186; 9893679; 9894172; 9894664; 9895157; 9895648;
  9896140; 9896631; 9897123; 9897614; 9898105; 9898595; 9899086; 9899575; 9900065; 9900555; 9901045; 9901533; 9902022; 9902511; 9903000; 9903487].
Definition logTable : list f32 := map micro logTable_micros.
