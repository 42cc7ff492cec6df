(** The Unicode tables of tm_unicode.h as data, transcribed by a script from the initialisers in the source.
    The second stage is given in its blocks of 128; [tmu_ucd_stage_two] is their concatenation. *)
From Coq Require Import NArith ZArith List.
Import ListNotations.
Local Open Scope N_scope.

(** tm_unicode.h:964-1040 *)
Definition tmu_codepoint_runs : list N := [
   0; 115; 115; 0; 105; 775; 0; 700; 110; 0; 106; 780; 0; 953; 776; 769; 0; 965; 776; 769; 0; 1381; 1410; 0; 104; 817; 0; 116; 776; 0; 119; 778;
   0; 121; 778; 0; 97; 702; 0; 965; 787; 0; 965; 787; 768; 0; 965; 787; 769; 0; 965; 787; 834; 0; 7936; 953; 0; 7937; 953; 0; 7938; 953; 0; 7939;
   953; 0; 7940; 953; 0; 7941; 953; 0; 7942; 953; 0; 7943; 953; 0; 7968; 953; 0; 7969; 953; 0; 7970; 953; 0; 7971; 953; 0; 7972; 953; 0; 7973; 953; 0;
   7974; 953; 0; 7975; 953; 0; 8032; 953; 0; 8033; 953; 0; 8034; 953; 0; 8035; 953; 0; 8036; 953; 0; 8037; 953; 0; 8038; 953; 0; 8039; 953; 0; 8048; 953;
   0; 945; 953; 0; 940; 953; 0; 945; 834; 0; 945; 834; 953; 0; 8052; 953; 0; 951; 953; 0; 942; 953; 0; 951; 834; 0; 951; 834; 953; 0; 953; 776;
   768; 0; 953; 834; 0; 953; 776; 834; 0; 965; 776; 768; 0; 961; 787; 0; 965; 834; 0; 965; 776; 834; 0; 8060; 953; 0; 969; 953; 0; 974; 953; 0;
   969; 834; 0; 969; 834; 953; 0; 102; 102; 0; 102; 105; 0; 102; 108; 0; 102; 102; 105; 0; 102; 102; 108; 0; 115; 116; 0; 1396; 1398; 0; 1396; 1381;
   0; 1396; 1387; 0; 1406; 1398; 0; 1396; 1389; 0].
(** tm_unicode.h:1051-1291; bits0, bits1, full_case_fold_index, simple_case_fold_offset *)
Definition tmu_ucd_entries : list (N * N * N * Z) := [
   (0, 0, 0, (0)%Z);
   (0, 3, 0, (0)%Z);
   (0, 2, 0, (0)%Z);
   (64, 3, 0, (0)%Z);
   (0, 1, 0, (0)%Z);
   (70, 0, 0, (0)%Z);
   (4, 0, 0, (0)%Z);
   (5, 0, 0, (0)%Z);
   (3, 0, 0, (0)%Z);
   (9, 0, 0, (32)%Z);
   (17, 0, 0, (0)%Z);
   (6, 0, 0, (0)%Z);
   (5, 14, 0, (0)%Z);
   (1, 0, 0, (0)%Z);
   (17, 0, 0, (775)%Z);
   (17, 0, 1, (0)%Z);
   (9, 0, 0, (1)%Z);
   (9, 0, 4, (0)%Z);
   (17, 0, 7, (0)%Z);
   (9, 0, 0, (-121)%Z);
   (17, 0, 0, (-268)%Z);
   (9, 0, 0, (210)%Z);
   (9, 0, 0, (206)%Z);
   (9, 0, 0, (205)%Z);
   (9, 0, 0, (79)%Z);
   (9, 0, 0, (202)%Z);
   (9, 0, 0, (203)%Z);
   (9, 0, 0, (207)%Z);
   (9, 0, 0, (211)%Z);
   (9, 0, 0, (209)%Z);
   (9, 0, 0, (213)%Z);
   (9, 0, 0, (214)%Z);
   (9, 0, 0, (218)%Z);
   (9, 0, 0, (217)%Z);
   (9, 0, 0, (219)%Z);
   (9, 0, 0, (2)%Z);
   (25, 0, 0, (1)%Z);
   (17, 0, 10, (0)%Z);
   (9, 0, 0, (-97)%Z);
   (9, 0, 0, (-56)%Z);
   (9, 0, 0, (-130)%Z);
   (9, 0, 0, (10795)%Z);
   (9, 0, 0, (-163)%Z);
   (9, 0, 0, (10792)%Z);
   (9, 0, 0, (-195)%Z);
   (9, 0, 0, (69)%Z);
   (9, 0, 0, (71)%Z);
   (2, 5, 0, (0)%Z);
   (2, 5, 0, (116)%Z);
   (9, 0, 0, (116)%Z);
   (9, 0, 0, (38)%Z);
   (9, 0, 0, (37)%Z);
   (9, 0, 0, (64)%Z);
   (9, 0, 0, (63)%Z);
   (17, 0, 13, (0)%Z);
   (17, 0, 17, (0)%Z);
   (17, 0, 0, (1)%Z);
   (9, 0, 0, (8)%Z);
   (17, 0, 0, (-30)%Z);
   (17, 0, 0, (-25)%Z);
   (9, 0, 0, (0)%Z);
   (17, 0, 0, (-15)%Z);
   (17, 0, 0, (-22)%Z);
   (17, 0, 0, (-54)%Z);
   (17, 0, 0, (-48)%Z);
   (9, 0, 0, (-60)%Z);
   (17, 0, 0, (-64)%Z);
   (9, 0, 0, (-7)%Z);
   (9, 0, 0, (80)%Z);
   (9, 0, 0, (15)%Z);
   (9, 0, 0, (48)%Z);
   (17, 0, 21, (0)%Z);
   (0, 4, 0, (0)%Z);
   (2, 7, 0, (0)%Z);
   (1, 4, 0, (0)%Z);
   (1, 7, 0, (0)%Z);
   (2, 0, 0, (0)%Z);
   (9, 0, 0, (7264)%Z);
   (1, 8, 0, (0)%Z);
   (1, 9, 0, (0)%Z);
   (1, 10, 0, (0)%Z);
   (17, 0, 0, (-8)%Z);
   (17, 0, 0, (-6222)%Z);
   (17, 0, 0, (-6221)%Z);
   (17, 0, 0, (-6212)%Z);
   (17, 0, 0, (-6210)%Z);
   (17, 0, 0, (-6211)%Z);
   (17, 0, 0, (-6204)%Z);
   (17, 0, 0, (-6180)%Z);
   (17, 0, 0, (35267)%Z);
   (9, 0, 0, (-3008)%Z);
   (17, 0, 24, (0)%Z);
   (17, 0, 27, (0)%Z);
   (17, 0, 30, (0)%Z);
   (17, 0, 33, (0)%Z);
   (17, 0, 36, (0)%Z);
   (17, 0, 0, (-58)%Z);
   (9, 0, 1, (-7615)%Z);
   (9, 0, 0, (-8)%Z);
   (17, 0, 39, (0)%Z);
   (17, 0, 42, (0)%Z);
   (17, 0, 46, (0)%Z);
   (17, 0, 50, (0)%Z);
   (17, 0, 54, (0)%Z);
   (17, 0, 57, (0)%Z);
   (17, 0, 60, (0)%Z);
   (17, 0, 63, (0)%Z);
   (17, 0, 66, (0)%Z);
   (17, 0, 69, (0)%Z);
   (17, 0, 72, (0)%Z);
   (17, 0, 75, (0)%Z);
   (25, 0, 54, (-8)%Z);
   (25, 0, 57, (-8)%Z);
   (25, 0, 60, (-8)%Z);
   (25, 0, 63, (-8)%Z);
   (25, 0, 66, (-8)%Z);
   (25, 0, 69, (-8)%Z);
   (25, 0, 72, (-8)%Z);
   (25, 0, 75, (-8)%Z);
   (17, 0, 78, (0)%Z);
   (17, 0, 81, (0)%Z);
   (17, 0, 84, (0)%Z);
   (17, 0, 87, (0)%Z);
   (17, 0, 90, (0)%Z);
   (17, 0, 93, (0)%Z);
   (17, 0, 96, (0)%Z);
   (17, 0, 99, (0)%Z);
   (25, 0, 78, (-8)%Z);
   (25, 0, 81, (-8)%Z);
   (25, 0, 84, (-8)%Z);
   (25, 0, 87, (-8)%Z);
   (25, 0, 90, (-8)%Z);
   (25, 0, 93, (-8)%Z);
   (25, 0, 96, (-8)%Z);
   (25, 0, 99, (-8)%Z);
   (17, 0, 102, (0)%Z);
   (17, 0, 105, (0)%Z);
   (17, 0, 108, (0)%Z);
   (17, 0, 111, (0)%Z);
   (17, 0, 114, (0)%Z);
   (17, 0, 117, (0)%Z);
   (17, 0, 120, (0)%Z);
   (17, 0, 123, (0)%Z);
   (25, 0, 102, (-8)%Z);
   (25, 0, 105, (-8)%Z);
   (25, 0, 108, (-8)%Z);
   (25, 0, 111, (-8)%Z);
   (25, 0, 114, (-8)%Z);
   (25, 0, 117, (-8)%Z);
   (25, 0, 120, (-8)%Z);
   (25, 0, 123, (-8)%Z);
   (17, 0, 126, (0)%Z);
   (17, 0, 129, (0)%Z);
   (17, 0, 132, (0)%Z);
   (17, 0, 135, (0)%Z);
   (17, 0, 138, (0)%Z);
   (9, 0, 0, (-74)%Z);
   (25, 0, 129, (-9)%Z);
   (17, 0, 0, (-7173)%Z);
   (17, 0, 142, (0)%Z);
   (17, 0, 145, (0)%Z);
   (17, 0, 148, (0)%Z);
   (17, 0, 151, (0)%Z);
   (17, 0, 154, (0)%Z);
   (9, 0, 0, (-86)%Z);
   (25, 0, 145, (-9)%Z);
   (17, 0, 158, (0)%Z);
   (17, 0, 162, (0)%Z);
   (17, 0, 165, (0)%Z);
   (9, 0, 0, (-100)%Z);
   (17, 0, 169, (0)%Z);
   (17, 0, 173, (0)%Z);
   (17, 0, 176, (0)%Z);
   (17, 0, 179, (0)%Z);
   (9, 0, 0, (-112)%Z);
   (17, 0, 183, (0)%Z);
   (17, 0, 186, (0)%Z);
   (17, 0, 189, (0)%Z);
   (17, 0, 192, (0)%Z);
   (17, 0, 195, (0)%Z);
   (9, 0, 0, (-128)%Z);
   (9, 0, 0, (-126)%Z);
   (25, 0, 186, (-9)%Z);
   (0, 5, 0, (0)%Z);
   (0, 13, 0, (0)%Z);
   (70, 3, 0, (0)%Z);
   (6, 3, 0, (0)%Z);
   (4, 14, 0, (0)%Z);
   (9, 0, 0, (-7517)%Z);
   (9, 0, 0, (-8383)%Z);
   (9, 0, 0, (-8262)%Z);
   (9, 0, 0, (28)%Z);
   (17, 14, 0, (0)%Z);
   (3, 0, 0, (16)%Z);
   (5, 0, 0, (26)%Z);
   (5, 14, 0, (26)%Z);
   (9, 0, 0, (-10743)%Z);
   (9, 0, 0, (-3814)%Z);
   (9, 0, 0, (-10727)%Z);
   (9, 0, 0, (-10780)%Z);
   (9, 0, 0, (-10749)%Z);
   (9, 0, 0, (-10783)%Z);
   (9, 0, 0, (-10782)%Z);
   (9, 0, 0, (-10815)%Z);
   (9, 0, 0, (-35332)%Z);
   (9, 0, 0, (-42280)%Z);
   (9, 0, 0, (-42308)%Z);
   (9, 0, 0, (-42319)%Z);
   (9, 0, 0, (-42315)%Z);
   (9, 0, 0, (-42305)%Z);
   (9, 0, 0, (-42258)%Z);
   (9, 0, 0, (-42282)%Z);
   (9, 0, 0, (-42261)%Z);
   (9, 0, 0, (928)%Z);
   (9, 0, 0, (-48)%Z);
   (9, 0, 0, (-42307)%Z);
   (9, 0, 0, (-35384)%Z);
   (17, 0, 0, (-38864)%Z);
   (1, 11, 0, (0)%Z);
   (0, 12, 0, (0)%Z);
   (0, 11, 0, (0)%Z);
   (1, 12, 0, (0)%Z);
   (17, 0, 199, (0)%Z);
   (17, 0, 202, (0)%Z);
   (17, 0, 205, (0)%Z);
   (17, 0, 208, (0)%Z);
   (17, 0, 212, (0)%Z);
   (17, 0, 216, (0)%Z);
   (17, 0, 219, (0)%Z);
   (17, 0, 222, (0)%Z);
   (17, 0, 225, (0)%Z);
   (17, 0, 228, (0)%Z);
   (17, 0, 231, (0)%Z);
   (1, 5, 0, (0)%Z);
   (9, 0, 0, (40)%Z);
   (9, 0, 0, (34)%Z);
   (0, 14, 0, (0)%Z);
   (5, 6, 0, (0)%Z);
   (5, 5, 0, (0)%Z)].
(** tm_unicode.h:1295-1361 *)
Definition tmu_ucd_stage_one : list N := [
   0; 1; 2; 3; 4; 5; 6; 7; 8; 9; 10; 11; 12; 13; 14; 15; 16; 17; 18; 19; 20; 21; 22; 23; 24; 25; 26; 27; 28; 29; 30; 31;
   32; 33; 211; 212; 34; 35; 36; 37; 213; 214; 214; 214; 38; 39; 40; 41; 42; 43; 44; 45; 46; 47; 48; 49; 50; 51; 52; 53; 54; 55; 56; 57;
   58; 59; 60; 61; 215; 215; 62; 63; 64; 65; 215; 66; 216; 217; 67; 68; 215; 215; 218; 69; 215; 215; 70; 219; 71; 72; 73; 74; 75; 76; 215; 77;
   78; 79; 80; 81; 82; 83; 215; 215; 220; 210; 210; 210; 210; 210; 210; 210; 210; 210; 210; 210; 210; 210; 210; 210; 210; 210; 210; 210; 210; 210; 210; 210;
   210; 210; 210; 210; 210; 210; 210; 210; 210; 210; 210; 210; 210; 210; 210; 210; 210; 210; 210; 210; 210; 210; 210; 210; 210; 210; 210; 84; 220; 210; 210; 210;
   210; 210; 210; 210; 210; 210; 210; 210; 210; 210; 210; 210; 210; 210; 210; 210; 210; 210; 210; 210; 210; 210; 210; 210; 210; 210; 210; 210; 210; 210; 210; 210;
   210; 210; 210; 210; 210; 210; 210; 210; 210; 210; 210; 210; 210; 210; 210; 210; 210; 210; 210; 210; 210; 210; 210; 210; 210; 210; 210; 210; 210; 210; 210; 210;
   210; 210; 210; 210; 210; 210; 210; 210; 210; 210; 210; 210; 210; 210; 210; 210; 210; 210; 210; 210; 210; 210; 210; 210; 210; 210; 210; 210; 210; 210; 210; 210;
   210; 210; 210; 210; 210; 210; 210; 210; 210; 210; 210; 210; 210; 210; 210; 210; 210; 210; 210; 210; 210; 210; 210; 210; 210; 210; 210; 210; 210; 210; 210; 210;
   210; 210; 210; 210; 210; 210; 210; 210; 210; 210; 210; 210; 210; 210; 210; 210; 210; 210; 210; 210; 210; 210; 210; 210; 210; 210; 210; 210; 210; 210; 210; 221;
   214; 214; 214; 214; 214; 214; 214; 214; 214; 85; 214; 214; 86; 87; 88; 89; 90; 91; 92; 93; 94; 95; 96; 97; 98; 99; 100; 101; 102; 103; 104; 105;
   99; 100; 101; 102; 103; 104; 105; 99; 100; 101; 102; 103; 104; 105; 99; 100; 101; 102; 103; 104; 105; 99; 100; 101; 102; 103; 104; 105; 99; 100; 101; 102;
   103; 104; 105; 99; 100; 101; 102; 103; 104; 105; 99; 100; 101; 102; 103; 104; 105; 99; 100; 101; 102; 103; 104; 105; 99; 100; 101; 102; 103; 104; 105; 99;
   100; 101; 102; 103; 104; 105; 99; 100; 101; 102; 103; 104; 105; 99; 100; 106; 210; 210; 210; 210; 210; 210; 210; 210; 210; 210; 210; 210; 210; 210; 210; 210;
   210; 210; 210; 210; 210; 210; 210; 210; 210; 210; 210; 210; 210; 210; 210; 210; 210; 210; 210; 210; 210; 210; 210; 210; 210; 210; 210; 210; 210; 210; 210; 210;
   210; 210; 210; 210; 210; 210; 210; 210; 210; 210; 210; 210; 210; 210; 210; 210; 210; 210; 214; 214; 222; 223; 107; 108; 214; 214; 109; 110; 111; 112; 113; 114;
   115; 224; 116; 117; 210; 118; 119; 120; 121; 122; 123; 210; 214; 214; 124; 210; 125; 126; 127; 128; 129; 130; 131; 132; 225; 133; 134; 210; 226; 135; 136; 137;
   138; 139; 140; 141; 142; 143; 144; 210; 145; 146; 210; 147; 148; 149; 150; 210; 151; 152; 153; 154; 155; 156; 210; 210; 157; 158; 159; 160; 210; 161; 210; 162;
   214; 214; 214; 214; 214; 214; 214; 227; 163; 214; 228; 210; 210; 210; 210; 210; 210; 210; 210; 210; 210; 210; 210; 210; 210; 210; 210; 210; 210; 210; 210; 210;
   214; 214; 214; 214; 214; 214; 214; 214; 164; 210; 210; 210; 210; 210; 210; 210; 210; 210; 210; 210; 210; 210; 210; 210; 210; 210; 210; 210; 210; 210; 210; 210;
   210; 210; 210; 210; 210; 210; 210; 210; 214; 214; 214; 214; 229; 210; 210; 210; 210; 210; 210; 210; 210; 210; 210; 210; 210; 210; 210; 210; 210; 210; 210; 210;
   210; 210; 210; 210; 210; 210; 210; 210; 210; 210; 210; 210; 210; 210; 210; 210; 210; 210; 210; 210; 210; 210; 210; 210; 210; 210; 210; 210; 210; 210; 210; 210;
   210; 210; 210; 210; 210; 210; 210; 210; 210; 210; 210; 210; 210; 210; 210; 210; 214; 214; 214; 214; 165; 166; 167; 230; 210; 210; 210; 210; 168; 169; 170; 171;
   220; 210; 210; 210; 210; 210; 210; 210; 210; 210; 210; 210; 210; 210; 210; 210; 210; 210; 210; 210; 210; 210; 210; 210; 210; 210; 210; 210; 210; 210; 210; 210;
   210; 210; 210; 210; 210; 210; 210; 210; 210; 210; 210; 210; 210; 210; 210; 231; 214; 214; 214; 214; 214; 214; 214; 214; 214; 232; 233; 210; 210; 210; 210; 210;
   210; 210; 210; 210; 210; 210; 210; 210; 210; 210; 210; 210; 210; 210; 210; 210; 210; 210; 210; 210; 210; 210; 210; 210; 210; 210; 210; 210; 210; 210; 210; 210;
   210; 210; 210; 210; 210; 210; 210; 210; 210; 210; 210; 210; 210; 210; 210; 210; 210; 210; 210; 210; 210; 210; 210; 210; 210; 210; 210; 210; 210; 210; 210; 210;
   214; 214; 172; 214; 214; 234; 210; 210; 210; 210; 210; 210; 210; 210; 210; 210; 210; 210; 210; 210; 210; 210; 210; 210; 173; 174; 210; 210; 210; 210; 210; 210;
   210; 210; 210; 210; 210; 210; 210; 210; 210; 210; 210; 210; 210; 210; 210; 210; 210; 210; 210; 210; 210; 210; 210; 210; 210; 210; 210; 210; 210; 210; 210; 210;
   215; 235; 175; 176; 177; 236; 178; 210; 179; 180; 181; 182; 183; 184; 185; 186; 215; 215; 215; 215; 187; 188; 210; 210; 210; 210; 210; 210; 210; 210; 210; 210;
   189; 210; 190; 210; 210; 191; 210; 210; 210; 210; 210; 210; 210; 210; 210; 210; 214; 192; 193; 210; 210; 210; 210; 210; 237; 194; 195; 210; 196; 197; 210; 210;
   238; 198; 199; 200; 201; 239; 240; 241; 240; 240; 242; 240; 243; 202; 244; 203; 204; 205; 206; 245; 207; 208; 215; 209; 239; 239; 239; 239; 239; 239; 239; 246;
   220].
(** tm_unicode.h:1367-3258 *)
Definition block_0 : list N := [
   1; 1; 1; 1; 1; 1; 1; 1; 1; 1; 2; 1; 3; 4; 1; 1; 1; 1; 1; 1; 1; 1; 1; 1; 1; 1; 1; 1; 1; 1; 1; 1; 5; 6; 6; 6; 7; 6; 6; 6; 6; 6; 6; 7; 6; 6; 6; 6; 8; 8; 8; 8; 8; 8; 8; 8; 8; 8; 6; 6; 7; 7; 7; 6;
   6; 9; 9; 9; 9; 9; 9; 9; 9; 9; 9; 9; 9; 9; 9; 9; 9; 9; 9; 9; 9; 9; 9; 9; 9; 9; 9; 6; 6; 6; 7; 6; 7; 10; 10; 10; 10; 10; 10; 10; 10; 10; 10; 10; 10; 10; 10; 10; 10; 10; 10; 10; 10; 10; 10; 10; 10; 10; 10; 6; 7; 6; 7; 1].
Definition block_1 : list N := [
   1; 1; 1; 1; 1; 1; 1; 1; 1; 1; 1; 1; 1; 1; 1; 1; 1; 1; 1; 1; 1; 1; 1; 1; 1; 1; 1; 1; 1; 1; 1; 1; 11; 6; 7; 7; 7; 7; 7; 6; 7; 12; 13; 6; 7; 1; 12; 7; 7; 7; 8; 8; 7; 14; 6; 6; 7; 8; 13; 6; 8; 8; 8; 6;
   9; 9; 9; 9; 9; 9; 9; 9; 9; 9; 9; 9; 9; 9; 9; 9; 9; 9; 9; 9; 9; 9; 9; 7; 9; 9; 9; 9; 9; 9; 9; 15; 10; 10; 10; 10; 10; 10; 10; 10; 10; 10; 10; 10; 10; 10; 10; 10; 10; 10; 10; 10; 10; 10; 10; 7; 10; 10; 10; 10; 10; 10; 10; 10].
Definition block_2 : list N := [
   16; 10; 16; 10; 16; 10; 16; 10; 16; 10; 16; 10; 16; 10; 16; 10; 16; 10; 16; 10; 16; 10; 16; 10; 16; 10; 16; 10; 16; 10; 16; 10; 16; 10; 16; 10; 16; 10; 16; 10; 16; 10; 16; 10; 16; 10; 16; 10; 17; 10; 16; 10; 16; 10; 16; 10; 10; 16; 10; 16; 10; 16; 10; 16;
   10; 16; 10; 16; 10; 16; 10; 16; 10; 18; 16; 10; 16; 10; 16; 10; 16; 10; 16; 10; 16; 10; 16; 10; 16; 10; 16; 10; 16; 10; 16; 10; 16; 10; 16; 10; 16; 10; 16; 10; 16; 10; 16; 10; 16; 10; 16; 10; 16; 10; 16; 10; 16; 10; 16; 10; 19; 16; 10; 16; 10; 16; 10; 20].
Definition block_3 : list N := [
   10; 21; 16; 10; 16; 10; 22; 16; 10; 23; 23; 16; 10; 10; 24; 25; 26; 16; 10; 23; 27; 10; 28; 29; 16; 10; 10; 10; 28; 30; 10; 31; 16; 10; 16; 10; 16; 10; 32; 16; 10; 32; 10; 10; 16; 10; 32; 16; 10; 33; 33; 16; 10; 16; 10; 34; 16; 10; 10; 13; 16; 10; 10; 10;
   13; 13; 13; 13; 35; 36; 10; 35; 36; 10; 35; 36; 10; 16; 10; 16; 10; 16; 10; 16; 10; 16; 10; 16; 10; 16; 10; 16; 10; 10; 16; 10; 16; 10; 16; 10; 16; 10; 16; 10; 16; 10; 16; 10; 16; 10; 16; 10; 37; 35; 36; 10; 16; 10; 38; 39; 16; 10; 16; 10; 16; 10; 16; 10].
Definition block_4 : list N := [
   16; 10; 16; 10; 16; 10; 16; 10; 16; 10; 16; 10; 16; 10; 16; 10; 16; 10; 16; 10; 16; 10; 16; 10; 16; 10; 16; 10; 16; 10; 16; 10; 40; 10; 16; 10; 16; 10; 16; 10; 16; 10; 16; 10; 16; 10; 16; 10; 16; 10; 16; 10; 10; 10; 10; 10; 10; 10; 41; 16; 10; 42; 43; 10;
   10; 16; 10; 44; 45; 46; 16; 10; 16; 10; 16; 10; 16; 10; 16; 10; 10; 10; 10; 10; 10; 10; 10; 10; 10; 10; 10; 10; 10; 10; 10; 10; 10; 10; 10; 10; 10; 10; 10; 10; 10; 10; 10; 10; 10; 10; 10; 10; 10; 10; 10; 10; 10; 10; 10; 10; 10; 10; 10; 10; 10; 10; 10; 10].
Definition block_5 : list N := [
   10; 10; 10; 10; 10; 10; 10; 10; 10; 10; 10; 10; 10; 10; 10; 10; 10; 10; 10; 10; 13; 10; 10; 10; 10; 10; 10; 10; 10; 10; 10; 10; 10; 10; 10; 10; 10; 10; 10; 10; 10; 10; 10; 10; 10; 10; 10; 10; 13; 13; 13; 13; 13; 13; 13; 13; 13; 13; 13; 13; 13; 13; 13; 13;
   13; 13; 7; 7; 7; 7; 13; 13; 13; 13; 13; 13; 13; 13; 13; 13; 13; 13; 7; 7; 7; 7; 7; 7; 7; 7; 7; 7; 7; 7; 7; 7; 13; 13; 13; 13; 13; 7; 7; 7; 7; 7; 7; 7; 13; 7; 13; 7; 7; 7; 7; 7; 7; 7; 7; 7; 7; 7; 7; 7; 7; 7; 7; 7].
Definition block_6 : list N := [
   47; 47; 47; 47; 47; 47; 47; 47; 47; 47; 47; 47; 47; 47; 47; 47; 47; 47; 47; 47; 47; 47; 47; 47; 47; 47; 47; 47; 47; 47; 47; 47; 47; 47; 47; 47; 47; 47; 47; 47; 47; 47; 47; 47; 47; 47; 47; 47; 47; 47; 47; 47; 47; 47; 47; 47; 47; 47; 47; 47; 47; 47; 47; 47;
   47; 47; 47; 47; 47; 48; 47; 47; 47; 47; 47; 47; 47; 47; 47; 47; 47; 47; 47; 47; 47; 47; 47; 47; 47; 47; 47; 47; 47; 47; 47; 47; 47; 47; 47; 47; 47; 47; 47; 47; 47; 47; 47; 47; 47; 47; 47; 47; 16; 10; 16; 10; 13; 7; 16; 10; 0; 0; 13; 10; 10; 10; 6; 49].
Definition block_7 : list N := [
   0; 0; 0; 0; 7; 7; 50; 6; 51; 51; 51; 0; 52; 0; 53; 53; 54; 9; 9; 9; 9; 9; 9; 9; 9; 9; 9; 9; 9; 9; 9; 9; 9; 9; 0; 9; 9; 9; 9; 9; 9; 9; 9; 9; 10; 10; 10; 10; 55; 10; 10; 10; 10; 10; 10; 10; 10; 10; 10; 10; 10; 10; 10; 10;
   10; 10; 56; 10; 10; 10; 10; 10; 10; 10; 10; 10; 10; 10; 10; 57; 58; 59; 60; 60; 60; 61; 62; 10; 16; 10; 16; 10; 16; 10; 16; 10; 16; 10; 16; 10; 16; 10; 16; 10; 16; 10; 16; 10; 16; 10; 16; 10; 63; 64; 10; 10; 65; 66; 7; 16; 10; 67; 16; 10; 10; 40; 40; 40].
Definition block_8 : list N := [
   68; 68; 68; 68; 68; 68; 68; 68; 68; 68; 68; 68; 68; 68; 68; 68; 9; 9; 9; 9; 9; 9; 9; 9; 9; 9; 9; 9; 9; 9; 9; 9; 9; 9; 9; 9; 9; 9; 9; 9; 9; 9; 9; 9; 9; 9; 9; 9; 10; 10; 10; 10; 10; 10; 10; 10; 10; 10; 10; 10; 10; 10; 10; 10;
   10; 10; 10; 10; 10; 10; 10; 10; 10; 10; 10; 10; 10; 10; 10; 10; 10; 10; 10; 10; 10; 10; 10; 10; 10; 10; 10; 10; 10; 10; 10; 10; 16; 10; 16; 10; 16; 10; 16; 10; 16; 10; 16; 10; 16; 10; 16; 10; 16; 10; 16; 10; 16; 10; 16; 10; 16; 10; 16; 10; 16; 10; 16; 10].
Definition block_9 : list N := [
   16; 10; 7; 47; 47; 47; 47; 47; 47; 47; 16; 10; 16; 10; 16; 10; 16; 10; 16; 10; 16; 10; 16; 10; 16; 10; 16; 10; 16; 10; 16; 10; 16; 10; 16; 10; 16; 10; 16; 10; 16; 10; 16; 10; 16; 10; 16; 10; 16; 10; 16; 10; 16; 10; 16; 10; 16; 10; 16; 10; 16; 10; 16; 10;
   69; 16; 10; 16; 10; 16; 10; 16; 10; 16; 10; 16; 10; 16; 10; 10; 16; 10; 16; 10; 16; 10; 16; 10; 16; 10; 16; 10; 16; 10; 16; 10; 16; 10; 16; 10; 16; 10; 16; 10; 16; 10; 16; 10; 16; 10; 16; 10; 16; 10; 16; 10; 16; 10; 16; 10; 16; 10; 16; 10; 16; 10; 16; 10].
Definition block_10 : list N := [
   16; 10; 16; 10; 16; 10; 16; 10; 16; 10; 16; 10; 16; 10; 16; 10; 16; 10; 16; 10; 16; 10; 16; 10; 16; 10; 16; 10; 16; 10; 16; 10; 16; 10; 16; 10; 16; 10; 16; 10; 16; 10; 16; 10; 16; 10; 16; 10; 0; 70; 70; 70; 70; 70; 70; 70; 70; 70; 70; 70; 70; 70; 70; 70;
   70; 70; 70; 70; 70; 70; 70; 70; 70; 70; 70; 70; 70; 70; 70; 70; 70; 70; 70; 70; 70; 70; 70; 0; 0; 13; 6; 6; 6; 6; 6; 6; 10; 10; 10; 10; 10; 10; 10; 10; 10; 10; 10; 10; 10; 10; 10; 10; 10; 10; 10; 10; 10; 10; 10; 10; 10; 10; 10; 10; 10; 10; 10; 10].
Definition block_11 : list N := [
   10; 10; 10; 10; 10; 10; 10; 71; 10; 6; 6; 0; 0; 7; 7; 7; 0; 47; 47; 47; 47; 47; 47; 47; 47; 47; 47; 47; 47; 47; 47; 47; 47; 47; 47; 47; 47; 47; 47; 47; 47; 47; 47; 47; 47; 47; 47; 47; 47; 47; 47; 47; 47; 47; 47; 47; 47; 47; 47; 47; 47; 47; 6; 47;
   6; 47; 47; 6; 47; 47; 6; 47; 0; 0; 0; 0; 0; 0; 0; 0; 13; 13; 13; 13; 13; 13; 13; 13; 13; 13; 13; 13; 13; 13; 13; 13; 13; 13; 13; 13; 13; 13; 13; 13; 13; 13; 13; 0; 0; 0; 0; 13; 13; 13; 13; 6; 6; 0; 0; 0; 0; 0; 0; 0; 0; 0; 0; 0].
Definition block_12 : list N := [
   72; 72; 72; 72; 72; 72; 7; 7; 7; 6; 6; 7; 6; 6; 7; 7; 47; 47; 47; 47; 47; 47; 47; 47; 47; 47; 47; 6; 1; 0; 6; 6; 13; 13; 13; 13; 13; 13; 13; 13; 13; 13; 13; 13; 13; 13; 13; 13; 13; 13; 13; 13; 13; 13; 13; 13; 13; 13; 13; 13; 13; 13; 13; 13;
   13; 13; 13; 13; 13; 13; 13; 13; 13; 13; 13; 47; 47; 47; 47; 47; 47; 47; 47; 47; 47; 47; 47; 47; 47; 47; 47; 47; 47; 47; 47; 47; 8; 8; 8; 8; 8; 8; 8; 8; 8; 8; 6; 6; 6; 6; 13; 13; 47; 13; 13; 13; 13; 13; 13; 13; 13; 13; 13; 13; 13; 13; 13; 13].
Definition block_13 : list N := [
   13; 13; 13; 13; 13; 13; 13; 13; 13; 13; 13; 13; 13; 13; 13; 13; 13; 13; 13; 13; 13; 13; 13; 13; 13; 13; 13; 13; 13; 13; 13; 13; 13; 13; 13; 13; 13; 13; 13; 13; 13; 13; 13; 13; 13; 13; 13; 13; 13; 13; 13; 13; 13; 13; 13; 13; 13; 13; 13; 13; 13; 13; 13; 13;
   13; 13; 13; 13; 13; 13; 13; 13; 13; 13; 13; 13; 13; 13; 13; 13; 13; 13; 13; 13; 6; 13; 47; 47; 47; 47; 47; 47; 47; 72; 7; 47; 47; 47; 47; 47; 47; 13; 13; 47; 47; 7; 47; 47; 47; 47; 13; 13; 8; 8; 8; 8; 8; 8; 8; 8; 8; 8; 13; 13; 13; 7; 7; 13].
Definition block_14 : list N := [
   6; 6; 6; 6; 6; 6; 6; 6; 6; 6; 6; 6; 6; 6; 0; 72; 13; 47; 13; 13; 13; 13; 13; 13; 13; 13; 13; 13; 13; 13; 13; 13; 13; 13; 13; 13; 13; 13; 13; 13; 13; 13; 13; 13; 13; 13; 13; 13; 47; 47; 47; 47; 47; 47; 47; 47; 47; 47; 47; 47; 47; 47; 47; 47;
   47; 47; 47; 47; 47; 47; 47; 47; 47; 47; 47; 0; 0; 13; 13; 13; 13; 13; 13; 13; 13; 13; 13; 13; 13; 13; 13; 13; 13; 13; 13; 13; 13; 13; 13; 13; 13; 13; 13; 13; 13; 13; 13; 13; 13; 13; 13; 13; 13; 13; 13; 13; 13; 13; 13; 13; 13; 13; 13; 13; 13; 13; 13; 13].
Definition block_15 : list N := [
   13; 13; 13; 13; 13; 13; 13; 13; 13; 13; 13; 13; 13; 13; 13; 13; 13; 13; 13; 13; 13; 13; 13; 13; 13; 13; 13; 13; 13; 13; 13; 13; 13; 13; 13; 13; 13; 13; 47; 47; 47; 47; 47; 47; 47; 47; 47; 47; 47; 13; 0; 0; 0; 0; 0; 0; 0; 0; 0; 0; 0; 0; 0; 0;
   8; 8; 8; 8; 8; 8; 8; 8; 8; 8; 13; 13; 13; 13; 13; 13; 13; 13; 13; 13; 13; 13; 13; 13; 13; 13; 13; 13; 13; 13; 13; 13; 13; 13; 13; 13; 13; 13; 13; 13; 13; 13; 13; 47; 47; 47; 47; 47; 47; 47; 47; 47; 13; 13; 7; 6; 6; 6; 13; 0; 0; 47; 7; 7].
Definition block_16 : list N := [
   13; 13; 13; 13; 13; 13; 13; 13; 13; 13; 13; 13; 13; 13; 13; 13; 13; 13; 13; 13; 13; 13; 47; 47; 47; 47; 13; 47; 47; 47; 47; 47; 47; 47; 47; 47; 13; 47; 47; 47; 13; 47; 47; 47; 47; 47; 0; 0; 6; 6; 6; 6; 6; 6; 6; 6; 6; 6; 6; 6; 6; 6; 6; 0;
   13; 13; 13; 13; 13; 13; 13; 13; 13; 13; 13; 13; 13; 13; 13; 13; 13; 13; 13; 13; 13; 13; 13; 13; 13; 47; 47; 47; 0; 0; 6; 0; 13; 13; 13; 13; 13; 13; 13; 13; 13; 13; 13; 0; 0; 0; 0; 0; 0; 0; 0; 0; 0; 0; 0; 0; 0; 0; 0; 0; 0; 0; 0; 0].
Definition block_17 : list N := [
   0; 0; 0; 0; 0; 0; 0; 0; 0; 0; 0; 0; 0; 0; 0; 0; 0; 0; 0; 0; 0; 0; 0; 0; 0; 0; 0; 0; 0; 0; 0; 0; 13; 13; 13; 13; 13; 13; 13; 13; 13; 13; 13; 13; 13; 13; 13; 13; 13; 13; 13; 13; 13; 0; 13; 13; 13; 13; 13; 13; 13; 13; 13; 13;
   13; 13; 13; 13; 13; 13; 13; 13; 0; 0; 0; 0; 0; 0; 0; 0; 0; 0; 0; 47; 47; 47; 47; 47; 47; 47; 47; 47; 47; 47; 47; 47; 47; 47; 72; 47; 47; 47; 47; 47; 47; 47; 47; 47; 47; 47; 47; 47; 47; 47; 47; 47; 47; 47; 47; 47; 47; 47; 47; 47; 47; 47; 47; 47].
Definition block_18 : list N := [
   47; 47; 47; 73; 13; 13; 13; 13; 13; 13; 13; 13; 13; 13; 13; 13; 13; 13; 13; 13; 13; 13; 13; 13; 13; 13; 13; 13; 13; 13; 13; 13; 13; 13; 13; 13; 13; 13; 13; 13; 13; 13; 13; 13; 13; 13; 13; 13; 13; 13; 13; 13; 13; 13; 13; 13; 13; 13; 47; 73; 47; 13; 73; 73;
   73; 47; 47; 47; 47; 47; 47; 47; 47; 73; 73; 73; 73; 47; 73; 73; 13; 47; 47; 47; 47; 47; 47; 47; 13; 13; 13; 13; 13; 13; 13; 13; 13; 13; 47; 47; 6; 6; 8; 8; 8; 8; 8; 8; 8; 8; 8; 8; 6; 13; 13; 13; 13; 13; 13; 13; 13; 13; 13; 13; 13; 13; 13; 13].
Definition block_19 : list N := [
   13; 47; 73; 73; 0; 13; 13; 13; 13; 13; 13; 13; 13; 0; 0; 13; 13; 0; 0; 13; 13; 13; 13; 13; 13; 13; 13; 13; 13; 13; 13; 13; 13; 13; 13; 13; 13; 13; 13; 13; 13; 0; 13; 13; 13; 13; 13; 13; 13; 0; 13; 0; 0; 0; 13; 13; 13; 13; 0; 0; 47; 13; 47; 73;
   73; 47; 47; 47; 47; 0; 0; 73; 73; 0; 0; 73; 73; 47; 13; 0; 0; 0; 0; 0; 0; 0; 0; 47; 0; 0; 0; 0; 13; 13; 0; 13; 13; 13; 47; 47; 0; 0; 8; 8; 8; 8; 8; 8; 8; 8; 8; 8; 13; 13; 7; 7; 8; 8; 8; 8; 8; 8; 7; 7; 13; 6; 47; 0].
Definition block_20 : list N := [
   0; 47; 47; 73; 0; 13; 13; 13; 13; 13; 13; 0; 0; 0; 0; 13; 13; 0; 0; 13; 13; 13; 13; 13; 13; 13; 13; 13; 13; 13; 13; 13; 13; 13; 13; 13; 13; 13; 13; 13; 13; 0; 13; 13; 13; 13; 13; 13; 13; 0; 13; 13; 0; 13; 13; 0; 13; 13; 0; 0; 47; 0; 73; 73;
   73; 47; 47; 0; 0; 0; 0; 47; 47; 0; 0; 47; 47; 47; 0; 0; 0; 47; 0; 0; 0; 0; 0; 0; 0; 13; 13; 13; 13; 0; 13; 0; 0; 0; 0; 0; 0; 0; 8; 8; 8; 8; 8; 8; 8; 8; 8; 8; 47; 47; 13; 13; 13; 47; 6; 0; 0; 0; 0; 0; 0; 0; 0; 0].
Definition block_21 : list N := [
   0; 47; 47; 73; 0; 13; 13; 13; 13; 13; 13; 13; 13; 13; 0; 13; 13; 13; 0; 13; 13; 13; 13; 13; 13; 13; 13; 13; 13; 13; 13; 13; 13; 13; 13; 13; 13; 13; 13; 13; 13; 0; 13; 13; 13; 13; 13; 13; 13; 0; 13; 13; 0; 13; 13; 13; 13; 13; 0; 0; 47; 13; 73; 73;
   73; 47; 47; 47; 47; 47; 0; 47; 47; 73; 0; 73; 73; 47; 0; 0; 13; 0; 0; 0; 0; 0; 0; 0; 0; 0; 0; 0; 0; 0; 0; 0; 13; 13; 47; 47; 0; 0; 8; 8; 8; 8; 8; 8; 8; 8; 8; 8; 6; 7; 0; 0; 0; 0; 0; 0; 0; 13; 47; 47; 47; 47; 47; 47].
Definition block_22 : list N := [
   0; 47; 73; 73; 0; 13; 13; 13; 13; 13; 13; 13; 13; 0; 0; 13; 13; 0; 0; 13; 13; 13; 13; 13; 13; 13; 13; 13; 13; 13; 13; 13; 13; 13; 13; 13; 13; 13; 13; 13; 13; 0; 13; 13; 13; 13; 13; 13; 13; 0; 13; 13; 0; 13; 13; 13; 13; 13; 0; 0; 47; 13; 47; 47;
   73; 47; 47; 47; 47; 0; 0; 73; 73; 0; 0; 73; 73; 47; 0; 0; 0; 0; 0; 0; 0; 47; 47; 47; 0; 0; 0; 0; 13; 13; 0; 13; 13; 13; 47; 47; 0; 0; 8; 8; 8; 8; 8; 8; 8; 8; 8; 8; 7; 13; 8; 8; 8; 8; 8; 8; 0; 0; 0; 0; 0; 0; 0; 0].
Definition block_23 : list N := [
   0; 0; 47; 13; 0; 13; 13; 13; 13; 13; 13; 0; 0; 0; 13; 13; 13; 0; 13; 13; 13; 13; 0; 0; 0; 13; 13; 0; 13; 0; 13; 13; 0; 0; 0; 13; 13; 0; 0; 0; 13; 13; 13; 0; 0; 0; 13; 13; 13; 13; 13; 13; 13; 13; 13; 13; 13; 13; 0; 0; 0; 0; 47; 73;
   47; 73; 73; 0; 0; 0; 73; 73; 73; 0; 73; 73; 73; 47; 0; 0; 13; 0; 0; 0; 0; 0; 0; 47; 0; 0; 0; 0; 0; 0; 0; 0; 0; 0; 0; 0; 0; 0; 8; 8; 8; 8; 8; 8; 8; 8; 8; 8; 8; 8; 8; 7; 7; 7; 7; 7; 7; 7; 7; 0; 0; 0; 0; 0].
Definition block_24 : list N := [
   47; 73; 73; 73; 47; 13; 13; 13; 13; 13; 13; 13; 13; 0; 13; 13; 13; 0; 13; 13; 13; 13; 13; 13; 13; 13; 13; 13; 13; 13; 13; 13; 13; 13; 13; 13; 13; 13; 13; 13; 13; 0; 13; 13; 13; 13; 13; 13; 13; 13; 13; 13; 13; 13; 13; 13; 13; 13; 0; 0; 0; 13; 47; 47;
   47; 73; 73; 73; 73; 0; 47; 47; 47; 0; 47; 47; 47; 47; 0; 0; 0; 0; 0; 0; 0; 47; 47; 0; 13; 13; 13; 0; 0; 0; 0; 0; 13; 13; 47; 47; 0; 0; 8; 8; 8; 8; 8; 8; 8; 8; 8; 8; 0; 0; 0; 0; 0; 0; 0; 6; 8; 8; 8; 8; 8; 8; 8; 7].
Definition block_25 : list N := [
   13; 47; 73; 73; 6; 13; 13; 13; 13; 13; 13; 13; 13; 0; 13; 13; 13; 0; 13; 13; 13; 13; 13; 13; 13; 13; 13; 13; 13; 13; 13; 13; 13; 13; 13; 13; 13; 13; 13; 13; 13; 0; 13; 13; 13; 13; 13; 13; 13; 13; 13; 13; 0; 13; 13; 13; 13; 13; 0; 0; 47; 13; 73; 47;
   73; 73; 47; 73; 73; 0; 47; 73; 73; 0; 73; 73; 47; 47; 0; 0; 0; 0; 0; 0; 0; 47; 47; 0; 0; 0; 0; 0; 0; 0; 13; 0; 13; 13; 47; 47; 0; 0; 8; 8; 8; 8; 8; 8; 8; 8; 8; 8; 0; 13; 13; 0; 0; 0; 0; 0; 0; 0; 0; 0; 0; 0; 0; 0].
Definition block_26 : list N := [
   47; 47; 73; 73; 13; 13; 13; 13; 13; 13; 13; 13; 13; 0; 13; 13; 13; 0; 13; 13; 13; 13; 13; 13; 13; 13; 13; 13; 13; 13; 13; 13; 13; 13; 13; 13; 13; 13; 13; 13; 13; 13; 13; 13; 13; 13; 13; 13; 13; 13; 13; 13; 13; 13; 13; 13; 13; 13; 13; 47; 47; 13; 47; 73;
   73; 47; 47; 47; 47; 0; 73; 73; 73; 0; 73; 73; 73; 47; 74; 7; 0; 0; 0; 0; 13; 13; 13; 47; 8; 8; 8; 8; 8; 8; 8; 13; 13; 13; 47; 47; 0; 0; 8; 8; 8; 8; 8; 8; 8; 8; 8; 8; 8; 8; 8; 8; 8; 8; 8; 8; 8; 7; 13; 13; 13; 13; 13; 13].
Definition block_27 : list N := [
   0; 47; 73; 73; 0; 13; 13; 13; 13; 13; 13; 13; 13; 13; 13; 13; 13; 13; 13; 13; 13; 13; 13; 0; 0; 0; 13; 13; 13; 13; 13; 13; 13; 13; 13; 13; 13; 13; 13; 13; 13; 13; 13; 13; 13; 13; 13; 13; 13; 13; 0; 13; 13; 13; 13; 13; 13; 13; 13; 13; 0; 13; 0; 0;
   13; 13; 13; 13; 13; 13; 13; 0; 0; 0; 47; 0; 0; 0; 0; 47; 73; 73; 47; 47; 47; 0; 47; 0; 73; 73; 73; 73; 73; 73; 73; 47; 0; 0; 0; 0; 0; 0; 8; 8; 8; 8; 8; 8; 8; 8; 8; 8; 0; 0; 73; 73; 6; 0; 0; 0; 0; 0; 0; 0; 0; 0; 0; 0].
Definition block_28 : list N := [
   0; 13; 13; 13; 13; 13; 13; 13; 13; 13; 13; 13; 13; 13; 13; 13; 13; 13; 13; 13; 13; 13; 13; 13; 13; 13; 13; 13; 13; 13; 13; 13; 13; 13; 13; 13; 13; 13; 13; 13; 13; 13; 13; 13; 13; 13; 13; 13; 13; 47; 13; 75; 47; 47; 47; 47; 47; 47; 47; 0; 0; 0; 0; 7;
   13; 13; 13; 13; 13; 13; 13; 47; 47; 47; 47; 47; 47; 47; 47; 6; 8; 8; 8; 8; 8; 8; 8; 8; 8; 8; 6; 6; 0; 0; 0; 0; 0; 0; 0; 0; 0; 0; 0; 0; 0; 0; 0; 0; 0; 0; 0; 0; 0; 0; 0; 0; 0; 0; 0; 0; 0; 0; 0; 0; 0; 0; 0; 0].
Definition block_29 : list N := [
   0; 13; 13; 0; 13; 0; 13; 13; 13; 13; 13; 0; 13; 13; 13; 13; 13; 13; 13; 13; 13; 13; 13; 13; 13; 13; 13; 13; 13; 13; 13; 13; 13; 13; 13; 13; 0; 13; 0; 13; 13; 13; 13; 13; 13; 13; 13; 13; 13; 47; 13; 75; 47; 47; 47; 47; 47; 47; 47; 47; 47; 13; 0; 0;
   13; 13; 13; 13; 13; 0; 13; 0; 47; 47; 47; 47; 47; 47; 0; 0; 8; 8; 8; 8; 8; 8; 8; 8; 8; 8; 0; 0; 13; 13; 13; 13; 0; 0; 0; 0; 0; 0; 0; 0; 0; 0; 0; 0; 0; 0; 0; 0; 0; 0; 0; 0; 0; 0; 0; 0; 0; 0; 0; 0; 0; 0; 0; 0].
Definition block_30 : list N := [
   13; 7; 7; 7; 6; 6; 6; 6; 6; 6; 6; 6; 6; 6; 6; 6; 6; 6; 6; 7; 6; 7; 7; 7; 47; 47; 7; 7; 7; 7; 7; 7; 8; 8; 8; 8; 8; 8; 8; 8; 8; 8; 8; 8; 8; 8; 8; 8; 8; 8; 8; 8; 7; 47; 7; 47; 7; 47; 6; 6; 6; 6; 73; 73;
   13; 13; 13; 13; 13; 13; 13; 13; 0; 13; 13; 13; 13; 13; 13; 13; 13; 13; 13; 13; 13; 13; 13; 13; 13; 13; 13; 13; 13; 13; 13; 13; 13; 13; 13; 13; 13; 13; 13; 13; 13; 13; 13; 13; 13; 0; 0; 0; 0; 47; 47; 47; 47; 47; 47; 47; 47; 47; 47; 47; 47; 47; 47; 73].
Definition block_31 : list N := [
   47; 47; 47; 47; 47; 6; 47; 47; 13; 13; 13; 13; 13; 47; 47; 47; 47; 47; 47; 47; 47; 47; 47; 47; 0; 47; 47; 47; 47; 47; 47; 47; 47; 47; 47; 47; 47; 47; 47; 47; 47; 47; 47; 47; 47; 47; 47; 47; 47; 47; 47; 47; 47; 47; 47; 47; 47; 47; 47; 47; 47; 0; 7; 7;
   7; 7; 7; 7; 7; 7; 47; 7; 7; 7; 7; 7; 7; 0; 7; 7; 6; 6; 6; 6; 6; 7; 7; 7; 7; 6; 6; 0; 0; 0; 0; 0; 0; 0; 0; 0; 0; 0; 0; 0; 0; 0; 0; 0; 0; 0; 0; 0; 0; 0; 0; 0; 0; 0; 0; 0; 0; 0; 0; 0; 0; 0; 0; 0].
Definition block_32 : list N := [
   13; 13; 13; 13; 13; 13; 13; 13; 13; 13; 13; 13; 13; 13; 13; 13; 13; 13; 13; 13; 13; 13; 13; 13; 13; 13; 13; 13; 13; 13; 13; 13; 13; 13; 13; 13; 13; 13; 13; 13; 13; 13; 13; 76; 76; 47; 47; 47; 47; 73; 47; 47; 47; 47; 47; 47; 76; 47; 47; 73; 73; 47; 47; 13;
   8; 8; 8; 8; 8; 8; 8; 8; 8; 8; 6; 6; 6; 6; 6; 6; 13; 13; 13; 13; 13; 13; 73; 73; 47; 47; 13; 13; 13; 13; 47; 47; 47; 13; 76; 76; 76; 13; 13; 76; 76; 76; 76; 76; 76; 76; 13; 13; 13; 47; 47; 47; 47; 13; 13; 13; 13; 13; 13; 13; 13; 13; 13; 13].
Definition block_33 : list N := [
   13; 13; 47; 76; 73; 47; 47; 76; 76; 76; 76; 76; 76; 47; 13; 76; 8; 8; 8; 8; 8; 8; 8; 8; 8; 8; 76; 76; 76; 47; 7; 7; 77; 77; 77; 77; 77; 77; 77; 77; 77; 77; 77; 77; 77; 77; 77; 77; 77; 77; 77; 77; 77; 77; 77; 77; 77; 77; 77; 77; 77; 77; 77; 77;
   77; 77; 77; 77; 77; 77; 0; 77; 0; 0; 0; 0; 0; 77; 0; 0; 10; 10; 10; 10; 10; 10; 10; 10; 10; 10; 10; 10; 10; 10; 10; 10; 10; 10; 10; 10; 10; 10; 10; 10; 10; 10; 10; 10; 10; 10; 10; 10; 10; 10; 10; 10; 10; 10; 10; 10; 10; 10; 10; 6; 13; 10; 10; 10].
Definition block_34 : list N := [
   13; 13; 13; 13; 13; 13; 13; 13; 13; 13; 13; 13; 13; 13; 13; 13; 13; 13; 13; 13; 13; 13; 13; 13; 13; 13; 13; 13; 13; 13; 13; 13; 13; 13; 13; 13; 13; 13; 13; 13; 13; 13; 13; 13; 13; 13; 13; 13; 13; 13; 13; 13; 13; 13; 13; 13; 13; 13; 13; 13; 13; 13; 13; 13;
   13; 13; 13; 13; 13; 13; 13; 13; 13; 0; 13; 13; 13; 13; 0; 0; 13; 13; 13; 13; 13; 13; 13; 0; 13; 0; 13; 13; 13; 13; 0; 0; 13; 13; 13; 13; 13; 13; 13; 13; 13; 13; 13; 13; 13; 13; 13; 13; 13; 13; 13; 13; 13; 13; 13; 13; 13; 13; 13; 13; 13; 13; 13; 13].
Definition block_35 : list N := [
   13; 13; 13; 13; 13; 13; 13; 13; 13; 0; 13; 13; 13; 13; 0; 0; 13; 13; 13; 13; 13; 13; 13; 13; 13; 13; 13; 13; 13; 13; 13; 13; 13; 13; 13; 13; 13; 13; 13; 13; 13; 13; 13; 13; 13; 13; 13; 13; 13; 0; 13; 13; 13; 13; 0; 0; 13; 13; 13; 13; 13; 13; 13; 0;
   13; 0; 13; 13; 13; 13; 0; 0; 13; 13; 13; 13; 13; 13; 13; 13; 13; 13; 13; 13; 13; 13; 13; 0; 13; 13; 13; 13; 13; 13; 13; 13; 13; 13; 13; 13; 13; 13; 13; 13; 13; 13; 13; 13; 13; 13; 13; 13; 13; 13; 13; 13; 13; 13; 13; 13; 13; 13; 13; 13; 13; 13; 13; 13].
Definition block_36 : list N := [
   13; 13; 13; 13; 13; 13; 13; 13; 13; 13; 13; 13; 13; 13; 13; 13; 13; 0; 13; 13; 13; 13; 0; 0; 13; 13; 13; 13; 13; 13; 13; 13; 13; 13; 13; 13; 13; 13; 13; 13; 13; 13; 13; 13; 13; 13; 13; 13; 13; 13; 13; 13; 13; 13; 13; 13; 13; 13; 13; 13; 13; 13; 13; 13;
   13; 13; 13; 13; 13; 13; 13; 13; 13; 13; 13; 13; 13; 13; 13; 13; 13; 13; 13; 13; 13; 13; 13; 13; 13; 13; 13; 0; 0; 47; 47; 47; 6; 6; 6; 6; 6; 6; 6; 6; 6; 8; 8; 8; 8; 8; 8; 8; 8; 8; 8; 8; 8; 8; 8; 8; 8; 8; 8; 8; 8; 0; 0; 0].
Definition block_37 : list N := [
   13; 13; 13; 13; 13; 13; 13; 13; 13; 13; 13; 13; 13; 13; 13; 13; 7; 7; 7; 7; 7; 7; 7; 7; 7; 7; 0; 0; 0; 0; 0; 0; 60; 60; 60; 60; 60; 60; 60; 60; 60; 60; 60; 60; 60; 60; 60; 60; 60; 60; 60; 60; 60; 60; 60; 60; 60; 60; 60; 60; 60; 60; 60; 60;
   60; 60; 60; 60; 60; 60; 60; 60; 60; 60; 60; 60; 60; 60; 60; 60; 60; 60; 60; 60; 60; 60; 60; 60; 60; 60; 60; 60; 60; 60; 60; 60; 60; 60; 60; 60; 60; 60; 60; 60; 60; 60; 60; 60; 60; 60; 60; 60; 60; 60; 60; 60; 60; 60; 0; 0; 81; 81; 81; 81; 81; 81; 0; 0].
Definition block_38 : list N := [
   13; 13; 13; 13; 13; 13; 13; 13; 13; 13; 13; 13; 13; 13; 13; 13; 13; 13; 13; 13; 13; 13; 13; 13; 13; 13; 13; 13; 13; 13; 13; 13; 13; 13; 13; 13; 13; 13; 13; 13; 13; 13; 13; 13; 13; 13; 13; 13; 13; 13; 13; 13; 13; 13; 13; 13; 13; 13; 13; 13; 13; 13; 13; 13;
   13; 13; 13; 13; 13; 13; 13; 13; 13; 13; 13; 13; 13; 13; 13; 13; 13; 13; 13; 13; 13; 13; 13; 13; 13; 13; 13; 13; 13; 13; 13; 13; 13; 13; 13; 13; 13; 13; 13; 13; 13; 13; 13; 13; 13; 7; 6; 13; 13; 13; 13; 13; 13; 13; 13; 13; 13; 13; 13; 13; 13; 13; 13; 13].
Definition block_39 : list N := [
   5; 13; 13; 13; 13; 13; 13; 13; 13; 13; 13; 13; 13; 13; 13; 13; 13; 13; 13; 13; 13; 13; 13; 13; 13; 13; 13; 6; 6; 0; 0; 0; 13; 13; 13; 13; 13; 13; 13; 13; 13; 13; 13; 13; 13; 13; 13; 13; 13; 13; 13; 13; 13; 13; 13; 13; 13; 13; 13; 13; 13; 13; 13; 13;
   13; 13; 13; 13; 13; 13; 13; 13; 13; 13; 13; 13; 13; 13; 13; 13; 13; 13; 13; 13; 13; 13; 13; 13; 13; 13; 13; 13; 13; 13; 13; 13; 13; 13; 13; 13; 13; 13; 13; 13; 13; 13; 13; 6; 6; 6; 8; 8; 8; 13; 13; 13; 13; 13; 13; 13; 13; 0; 0; 0; 0; 0; 0; 0].
Definition block_40 : list N := [
   13; 13; 13; 13; 13; 13; 13; 13; 13; 13; 13; 13; 13; 0; 13; 13; 13; 13; 47; 47; 47; 0; 0; 0; 0; 0; 0; 0; 0; 0; 0; 0; 13; 13; 13; 13; 13; 13; 13; 13; 13; 13; 13; 13; 13; 13; 13; 13; 13; 13; 47; 47; 47; 6; 6; 0; 0; 0; 0; 0; 0; 0; 0; 0;
   13; 13; 13; 13; 13; 13; 13; 13; 13; 13; 13; 13; 13; 13; 13; 13; 13; 13; 47; 47; 0; 0; 0; 0; 0; 0; 0; 0; 0; 0; 0; 0; 13; 13; 13; 13; 13; 13; 13; 13; 13; 13; 13; 13; 13; 0; 13; 13; 13; 0; 47; 47; 0; 0; 0; 0; 0; 0; 0; 0; 0; 0; 0; 0].
Definition block_41 : list N := [
   13; 13; 13; 13; 13; 13; 13; 13; 13; 13; 13; 13; 13; 13; 13; 13; 13; 13; 13; 13; 13; 13; 13; 13; 13; 13; 13; 13; 13; 13; 13; 13; 13; 13; 13; 13; 13; 13; 13; 13; 13; 13; 13; 13; 13; 13; 13; 13; 13; 13; 13; 13; 47; 47; 73; 47; 47; 47; 47; 47; 47; 47; 73; 73;
   73; 73; 73; 73; 73; 73; 47; 73; 73; 47; 47; 47; 47; 47; 47; 47; 47; 47; 47; 47; 6; 6; 6; 13; 6; 6; 6; 7; 13; 47; 0; 0; 8; 8; 8; 8; 8; 8; 8; 8; 8; 8; 0; 0; 0; 0; 0; 0; 8; 8; 8; 8; 8; 8; 8; 8; 8; 8; 0; 0; 0; 0; 0; 0].
Definition block_42 : list N := [
   6; 6; 6; 6; 6; 6; 6; 6; 6; 6; 6; 47; 47; 47; 1; 0; 8; 8; 8; 8; 8; 8; 8; 8; 8; 8; 0; 0; 0; 0; 0; 0; 13; 13; 13; 13; 13; 13; 13; 13; 13; 13; 13; 13; 13; 13; 13; 13; 13; 13; 13; 13; 13; 13; 13; 13; 13; 13; 13; 13; 13; 13; 13; 13;
   13; 13; 13; 13; 13; 13; 13; 13; 13; 13; 13; 13; 13; 13; 13; 13; 13; 13; 13; 13; 13; 13; 13; 13; 13; 13; 13; 13; 13; 13; 13; 13; 13; 13; 13; 13; 13; 13; 13; 13; 13; 13; 13; 13; 13; 13; 13; 13; 13; 13; 13; 13; 13; 13; 13; 13; 13; 0; 0; 0; 0; 0; 0; 0].
Definition block_43 : list N := [
   13; 13; 13; 13; 13; 47; 47; 13; 13; 13; 13; 13; 13; 13; 13; 13; 13; 13; 13; 13; 13; 13; 13; 13; 13; 13; 13; 13; 13; 13; 13; 13; 13; 13; 13; 13; 13; 13; 13; 13; 13; 47; 13; 0; 0; 0; 0; 0; 13; 13; 13; 13; 13; 13; 13; 13; 13; 13; 13; 13; 13; 13; 13; 13;
   13; 13; 13; 13; 13; 13; 13; 13; 13; 13; 13; 13; 13; 13; 13; 13; 13; 13; 13; 13; 13; 13; 13; 13; 13; 13; 13; 13; 13; 13; 13; 13; 13; 13; 13; 13; 13; 13; 13; 13; 13; 13; 13; 13; 13; 13; 13; 13; 13; 13; 13; 13; 13; 13; 0; 0; 0; 0; 0; 0; 0; 0; 0; 0].
Definition block_44 : list N := [
   13; 13; 13; 13; 13; 13; 13; 13; 13; 13; 13; 13; 13; 13; 13; 13; 13; 13; 13; 13; 13; 13; 13; 13; 13; 13; 13; 13; 13; 13; 13; 0; 47; 47; 47; 73; 73; 73; 73; 47; 47; 73; 73; 73; 0; 0; 0; 0; 73; 73; 47; 73; 73; 73; 73; 73; 73; 47; 47; 47; 0; 0; 0; 0;
   7; 0; 0; 0; 6; 6; 8; 8; 8; 8; 8; 8; 8; 8; 8; 8; 13; 13; 13; 13; 13; 13; 13; 13; 13; 13; 13; 13; 13; 13; 13; 13; 13; 13; 13; 13; 13; 13; 13; 13; 13; 13; 13; 13; 13; 13; 0; 0; 13; 13; 13; 13; 13; 0; 0; 0; 0; 0; 0; 0; 0; 0; 0; 0].
Definition block_45 : list N := [
   13; 13; 13; 13; 13; 13; 13; 13; 13; 13; 13; 13; 13; 13; 13; 13; 13; 13; 13; 13; 13; 13; 13; 13; 13; 13; 13; 13; 13; 13; 13; 13; 13; 13; 13; 13; 13; 13; 13; 13; 13; 13; 13; 13; 0; 0; 0; 0; 13; 13; 13; 13; 13; 13; 13; 13; 13; 13; 13; 13; 13; 13; 13; 13;
   13; 13; 13; 13; 13; 13; 13; 13; 13; 13; 0; 0; 0; 0; 0; 0; 8; 8; 8; 8; 8; 8; 8; 8; 8; 8; 8; 0; 0; 0; 7; 7; 7; 7; 7; 7; 7; 7; 7; 7; 7; 7; 7; 7; 7; 7; 7; 7; 7; 7; 7; 7; 7; 7; 7; 7; 7; 7; 7; 7; 7; 7; 7; 7].
Definition block_46 : list N := [
   13; 13; 13; 13; 13; 13; 13; 13; 13; 13; 13; 13; 13; 13; 13; 13; 13; 13; 13; 13; 13; 13; 13; 47; 47; 73; 73; 47; 0; 0; 6; 6; 13; 13; 13; 13; 13; 13; 13; 13; 13; 13; 13; 13; 13; 13; 13; 13; 13; 13; 13; 13; 13; 13; 13; 13; 13; 13; 13; 13; 13; 13; 13; 13;
   13; 13; 13; 13; 13; 13; 13; 13; 13; 13; 13; 13; 13; 13; 13; 13; 13; 13; 13; 13; 13; 73; 47; 73; 47; 47; 47; 47; 47; 47; 47; 0; 47; 76; 47; 76; 76; 47; 47; 47; 47; 47; 47; 47; 47; 73; 73; 73; 73; 73; 73; 47; 47; 47; 47; 47; 47; 47; 47; 47; 47; 0; 0; 47].
Definition block_47 : list N := [
   8; 8; 8; 8; 8; 8; 8; 8; 8; 8; 0; 0; 0; 0; 0; 0; 8; 8; 8; 8; 8; 8; 8; 8; 8; 8; 0; 0; 0; 0; 0; 0; 6; 6; 6; 6; 6; 6; 6; 13; 6; 6; 6; 6; 6; 6; 0; 0; 47; 47; 47; 47; 47; 47; 47; 47; 47; 47; 47; 47; 47; 47; 47; 47;
   47; 0; 0; 0; 0; 0; 0; 0; 0; 0; 0; 0; 0; 0; 0; 0; 0; 0; 0; 0; 0; 0; 0; 0; 0; 0; 0; 0; 0; 0; 0; 0; 0; 0; 0; 0; 0; 0; 0; 0; 0; 0; 0; 0; 0; 0; 0; 0; 0; 0; 0; 0; 0; 0; 0; 0; 0; 0; 0; 0; 0; 0; 0; 0].
Definition block_48 : list N := [
   47; 47; 47; 47; 73; 13; 13; 13; 13; 13; 13; 13; 13; 13; 13; 13; 13; 13; 13; 13; 13; 13; 13; 13; 13; 13; 13; 13; 13; 13; 13; 13; 13; 13; 13; 13; 13; 13; 13; 13; 13; 13; 13; 13; 13; 13; 13; 13; 13; 13; 13; 13; 47; 47; 47; 47; 47; 47; 47; 73; 47; 73; 73; 73;
   73; 73; 47; 73; 73; 13; 13; 13; 13; 13; 13; 13; 0; 0; 0; 0; 8; 8; 8; 8; 8; 8; 8; 8; 8; 8; 6; 6; 6; 6; 6; 6; 6; 7; 7; 7; 7; 7; 7; 7; 7; 7; 7; 47; 47; 47; 47; 47; 47; 47; 47; 47; 7; 7; 7; 7; 7; 7; 7; 7; 7; 0; 0; 0].
Definition block_49 : list N := [
   47; 47; 73; 13; 13; 13; 13; 13; 13; 13; 13; 13; 13; 13; 13; 13; 13; 13; 13; 13; 13; 13; 13; 13; 13; 13; 13; 13; 13; 13; 13; 13; 13; 73; 47; 47; 47; 47; 73; 73; 47; 47; 73; 47; 47; 47; 13; 13; 8; 8; 8; 8; 8; 8; 8; 8; 8; 8; 13; 13; 13; 13; 13; 13;
   13; 13; 13; 13; 13; 13; 13; 13; 13; 13; 13; 13; 13; 13; 13; 13; 13; 13; 13; 13; 13; 13; 13; 13; 13; 13; 13; 13; 13; 13; 13; 13; 13; 13; 13; 13; 13; 13; 47; 73; 47; 47; 73; 73; 73; 47; 73; 47; 47; 47; 73; 73; 0; 0; 0; 0; 0; 0; 0; 0; 6; 6; 6; 6].
Definition block_50 : list N := [
   13; 13; 13; 13; 13; 13; 13; 13; 13; 13; 13; 13; 13; 13; 13; 13; 13; 13; 13; 13; 13; 13; 13; 13; 13; 13; 13; 13; 13; 13; 13; 13; 13; 13; 13; 13; 73; 73; 73; 73; 73; 73; 73; 73; 47; 47; 47; 47; 47; 47; 47; 47; 73; 73; 47; 47; 0; 0; 0; 6; 6; 6; 6; 6;
   8; 8; 8; 8; 8; 8; 8; 8; 8; 8; 0; 0; 0; 13; 13; 13; 8; 8; 8; 8; 8; 8; 8; 8; 8; 8; 13; 13; 13; 13; 13; 13; 13; 13; 13; 13; 13; 13; 13; 13; 13; 13; 13; 13; 13; 13; 13; 13; 13; 13; 13; 13; 13; 13; 13; 13; 13; 13; 13; 13; 13; 13; 6; 6].
Definition block_51 : list N := [
   82; 83; 84; 85; 85; 86; 87; 88; 89; 0; 0; 0; 0; 0; 0; 0; 90; 90; 90; 90; 90; 90; 90; 90; 90; 90; 90; 90; 90; 90; 90; 90; 90; 90; 90; 90; 90; 90; 90; 90; 90; 90; 90; 90; 90; 90; 90; 90; 90; 90; 90; 90; 90; 90; 90; 90; 90; 90; 90; 0; 0; 90; 90; 90;
   6; 6; 6; 6; 6; 6; 6; 6; 0; 0; 0; 0; 0; 0; 0; 0; 47; 47; 47; 6; 47; 47; 47; 47; 47; 47; 47; 47; 47; 47; 47; 47; 47; 73; 47; 47; 47; 47; 47; 47; 47; 13; 13; 13; 13; 47; 13; 13; 13; 13; 13; 13; 47; 13; 13; 73; 47; 47; 13; 0; 0; 0; 0; 0].
Definition block_52 : list N := [
   10; 10; 10; 10; 10; 10; 10; 10; 10; 10; 10; 10; 10; 10; 10; 10; 10; 10; 10; 10; 10; 10; 10; 10; 10; 10; 10; 10; 10; 10; 10; 10; 10; 10; 10; 10; 10; 10; 10; 10; 10; 10; 10; 10; 13; 13; 13; 13; 13; 13; 13; 13; 13; 13; 13; 13; 13; 13; 13; 13; 13; 13; 13; 13;
   13; 13; 13; 13; 13; 13; 13; 13; 13; 13; 13; 13; 13; 13; 13; 13; 13; 13; 13; 13; 13; 13; 13; 13; 13; 13; 13; 13; 13; 13; 13; 13; 13; 13; 13; 13; 13; 13; 13; 13; 13; 13; 13; 10; 10; 10; 10; 10; 10; 10; 10; 10; 10; 10; 10; 10; 13; 10; 10; 10; 10; 10; 10; 10].
Definition block_53 : list N := [
   10; 10; 10; 10; 10; 10; 10; 10; 10; 10; 10; 10; 10; 10; 10; 10; 10; 10; 10; 10; 10; 10; 10; 10; 10; 10; 10; 13; 13; 13; 13; 13; 13; 13; 13; 13; 13; 13; 13; 13; 13; 13; 13; 13; 13; 13; 13; 13; 13; 13; 13; 13; 13; 13; 13; 13; 13; 13; 13; 13; 13; 13; 13; 13;
   47; 47; 47; 47; 47; 47; 47; 47; 47; 47; 47; 47; 47; 47; 47; 47; 47; 47; 47; 47; 47; 47; 47; 47; 47; 47; 47; 47; 47; 47; 47; 47; 47; 47; 47; 47; 47; 47; 47; 47; 47; 47; 47; 47; 47; 47; 47; 47; 47; 47; 47; 47; 47; 47; 47; 47; 47; 47; 0; 47; 47; 47; 47; 47].
Definition block_54 : list N := [
   16; 10; 16; 10; 16; 10; 16; 10; 16; 10; 16; 10; 16; 10; 16; 10; 16; 10; 16; 10; 16; 10; 16; 10; 16; 10; 16; 10; 16; 10; 16; 10; 16; 10; 16; 10; 16; 10; 16; 10; 16; 10; 16; 10; 16; 10; 16; 10; 16; 10; 16; 10; 16; 10; 16; 10; 16; 10; 16; 10; 16; 10; 16; 10;
   16; 10; 16; 10; 16; 10; 16; 10; 16; 10; 16; 10; 16; 10; 16; 10; 16; 10; 16; 10; 16; 10; 16; 10; 16; 10; 16; 10; 16; 10; 16; 10; 16; 10; 16; 10; 16; 10; 16; 10; 16; 10; 16; 10; 16; 10; 16; 10; 16; 10; 16; 10; 16; 10; 16; 10; 16; 10; 16; 10; 16; 10; 16; 10].
Definition block_55 : list N := [
   16; 10; 16; 10; 16; 10; 16; 10; 16; 10; 16; 10; 16; 10; 16; 10; 16; 10; 16; 10; 16; 10; 91; 92; 93; 94; 95; 96; 10; 10; 97; 10; 16; 10; 16; 10; 16; 10; 16; 10; 16; 10; 16; 10; 16; 10; 16; 10; 16; 10; 16; 10; 16; 10; 16; 10; 16; 10; 16; 10; 16; 10; 16; 10;
   16; 10; 16; 10; 16; 10; 16; 10; 16; 10; 16; 10; 16; 10; 16; 10; 16; 10; 16; 10; 16; 10; 16; 10; 16; 10; 16; 10; 16; 10; 16; 10; 16; 10; 16; 10; 16; 10; 16; 10; 16; 10; 16; 10; 16; 10; 16; 10; 16; 10; 16; 10; 16; 10; 16; 10; 16; 10; 16; 10; 16; 10; 16; 10].
Definition block_56 : list N := [
   10; 10; 10; 10; 10; 10; 10; 10; 98; 98; 98; 98; 98; 98; 98; 98; 10; 10; 10; 10; 10; 10; 0; 0; 98; 98; 98; 98; 98; 98; 0; 0; 10; 10; 10; 10; 10; 10; 10; 10; 98; 98; 98; 98; 98; 98; 98; 98; 10; 10; 10; 10; 10; 10; 10; 10; 98; 98; 98; 98; 98; 98; 98; 98;
   10; 10; 10; 10; 10; 10; 0; 0; 98; 98; 98; 98; 98; 98; 0; 0; 99; 10; 100; 10; 101; 10; 102; 10; 0; 98; 0; 98; 0; 98; 0; 98; 10; 10; 10; 10; 10; 10; 10; 10; 98; 98; 98; 98; 98; 98; 98; 98; 10; 10; 10; 10; 10; 10; 10; 10; 10; 10; 10; 10; 10; 10; 0; 0].
Definition block_57 : list N := [
   103; 104; 105; 106; 107; 108; 109; 110; 111; 112; 113; 114; 115; 116; 117; 118; 119; 120; 121; 122; 123; 124; 125; 126; 127; 128; 129; 130; 131; 132; 133; 134; 135; 136; 137; 138; 139; 140; 141; 142; 143; 144; 145; 146; 147; 148; 149; 150; 10; 10; 151; 152; 153; 0; 154; 155; 98; 98; 156; 156; 157; 7; 158; 7;
   7; 7; 159; 160; 161; 0; 162; 163; 164; 164; 164; 164; 165; 7; 7; 7; 10; 10; 166; 54; 0; 0; 167; 168; 98; 98; 169; 169; 0; 7; 7; 7; 10; 10; 170; 55; 171; 10; 172; 173; 98; 98; 174; 174; 67; 7; 7; 7; 0; 0; 175; 176; 177; 0; 178; 179; 180; 180; 181; 181; 182; 7; 7; 0].
Definition block_58 : list N := [
   5; 5; 5; 5; 5; 5; 5; 5; 5; 5; 5; 1; 183; 184; 1; 1; 6; 6; 6; 6; 6; 6; 6; 6; 6; 6; 6; 6; 6; 6; 6; 6; 6; 6; 6; 6; 6; 6; 6; 6; 185; 186; 1; 1; 1; 1; 1; 11; 6; 6; 6; 6; 6; 6; 6; 6; 6; 6; 6; 6; 187; 6; 6; 6;
   6; 6; 6; 6; 7; 6; 6; 6; 6; 187; 6; 6; 6; 6; 6; 6; 6; 6; 7; 6; 6; 6; 6; 6; 6; 6; 6; 6; 6; 6; 6; 5; 1; 1; 1; 1; 1; 1; 1; 1; 1; 1; 1; 1; 1; 1; 1; 1; 8; 13; 0; 0; 8; 8; 8; 8; 8; 8; 7; 7; 7; 6; 6; 13].
Definition block_59 : list N := [
   8; 8; 8; 8; 8; 8; 8; 8; 8; 8; 7; 7; 7; 6; 6; 0; 13; 13; 13; 13; 13; 13; 13; 13; 13; 13; 13; 13; 13; 0; 0; 0; 7; 7; 7; 7; 7; 7; 7; 7; 7; 7; 7; 7; 7; 7; 7; 7; 7; 7; 7; 7; 7; 7; 7; 7; 7; 7; 7; 7; 7; 7; 7; 7;
   0; 0; 0; 0; 0; 0; 0; 0; 0; 0; 0; 0; 0; 0; 0; 0; 47; 47; 47; 47; 47; 47; 47; 47; 47; 47; 47; 47; 47; 47; 47; 47; 47; 47; 47; 47; 47; 47; 47; 47; 47; 47; 47; 47; 47; 47; 47; 47; 47; 0; 0; 0; 0; 0; 0; 0; 0; 0; 0; 0; 0; 0; 0; 0].
Definition block_60 : list N := [
   7; 7; 60; 7; 7; 7; 7; 60; 7; 7; 10; 60; 60; 60; 10; 10; 60; 60; 60; 10; 7; 60; 7; 7; 7; 60; 60; 60; 60; 60; 7; 7; 7; 7; 12; 7; 60; 7; 188; 7; 60; 7; 189; 190; 60; 60; 7; 10; 60; 60; 191; 60; 10; 13; 13; 13; 13; 192; 7; 7; 10; 10; 60; 60;
   7; 7; 7; 7; 7; 60; 10; 10; 10; 10; 7; 7; 7; 7; 10; 7; 8; 8; 8; 8; 8; 8; 8; 8; 8; 8; 8; 8; 8; 8; 8; 8; 193; 193; 193; 193; 193; 193; 193; 193; 193; 193; 193; 193; 193; 193; 193; 193; 8; 8; 8; 8; 8; 8; 8; 8; 8; 8; 8; 8; 8; 8; 8; 8].
Definition block_61 : list N := [
   8; 8; 8; 16; 10; 8; 8; 8; 8; 8; 7; 7; 0; 0; 0; 0; 7; 7; 7; 7; 12; 12; 12; 12; 12; 12; 7; 7; 7; 7; 7; 7; 7; 7; 7; 7; 7; 7; 7; 7; 7; 12; 12; 7; 7; 7; 7; 7; 7; 7; 7; 7; 7; 7; 7; 7; 7; 7; 7; 7; 7; 7; 7; 7;
   7; 7; 7; 7; 7; 7; 7; 7; 7; 7; 7; 7; 7; 7; 7; 7; 7; 7; 7; 7; 7; 7; 7; 7; 7; 7; 7; 7; 7; 7; 7; 7; 7; 7; 7; 7; 7; 7; 7; 7; 7; 7; 7; 7; 7; 7; 7; 7; 7; 7; 7; 7; 7; 7; 7; 7; 7; 7; 7; 7; 7; 7; 7; 7].
Definition block_62 : list N := [
   7; 7; 7; 7; 7; 7; 7; 7; 6; 6; 6; 6; 7; 7; 7; 7; 7; 7; 7; 7; 7; 7; 7; 7; 7; 7; 12; 12; 7; 7; 7; 7; 7; 7; 7; 7; 7; 7; 7; 7; 12; 6; 6; 7; 7; 7; 7; 7; 7; 7; 7; 7; 7; 7; 7; 7; 7; 7; 7; 7; 7; 7; 7; 7;
   7; 7; 7; 7; 7; 7; 7; 7; 7; 7; 7; 7; 7; 7; 7; 7; 7; 7; 7; 7; 7; 7; 7; 7; 7; 7; 7; 7; 7; 7; 7; 7; 7; 7; 7; 7; 7; 7; 7; 7; 7; 7; 7; 7; 7; 7; 7; 7; 7; 7; 7; 7; 7; 7; 7; 7; 7; 7; 7; 7; 7; 7; 7; 7].
Definition block_63 : list N := [
   7; 7; 7; 7; 7; 7; 7; 7; 12; 7; 7; 7; 7; 7; 7; 7; 7; 7; 7; 7; 7; 7; 7; 7; 7; 7; 7; 7; 7; 7; 7; 7; 7; 7; 7; 7; 7; 7; 7; 7; 7; 7; 7; 7; 7; 7; 7; 7; 7; 7; 7; 7; 7; 7; 7; 7; 7; 7; 7; 7; 7; 7; 7; 7;
   7; 7; 7; 7; 7; 7; 7; 7; 7; 7; 7; 7; 7; 7; 7; 12; 7; 7; 7; 7; 7; 7; 7; 7; 7; 7; 7; 7; 7; 7; 7; 7; 7; 7; 7; 7; 7; 7; 7; 7; 7; 12; 12; 12; 12; 12; 12; 12; 12; 12; 12; 12; 7; 7; 7; 7; 12; 12; 12; 7; 7; 7; 7; 7].
Definition block_64 : list N := [
   7; 7; 7; 7; 7; 7; 7; 7; 7; 7; 7; 7; 7; 7; 7; 7; 7; 7; 7; 7; 7; 7; 7; 7; 7; 7; 7; 7; 7; 7; 7; 7; 7; 7; 7; 7; 7; 7; 7; 0; 0; 0; 0; 0; 0; 0; 0; 0; 0; 0; 0; 0; 0; 0; 0; 0; 0; 0; 0; 0; 0; 0; 0; 0;
   7; 7; 7; 7; 7; 7; 7; 7; 7; 7; 7; 0; 0; 0; 0; 0; 0; 0; 0; 0; 0; 0; 0; 0; 0; 0; 0; 0; 0; 0; 0; 0; 8; 8; 8; 8; 8; 8; 8; 8; 8; 8; 8; 8; 8; 8; 8; 8; 8; 8; 8; 8; 8; 8; 8; 8; 8; 8; 8; 8; 8; 8; 8; 8].
Definition block_65 : list N := [
   8; 8; 8; 8; 8; 8; 8; 8; 8; 8; 8; 8; 8; 8; 8; 8; 8; 8; 8; 8; 8; 8; 8; 8; 8; 8; 8; 8; 7; 7; 7; 7; 7; 7; 7; 7; 7; 7; 7; 7; 7; 7; 7; 7; 7; 7; 7; 7; 7; 7; 7; 7; 7; 7; 194; 194; 194; 194; 194; 194; 194; 194; 194; 194;
   194; 194; 195; 194; 194; 194; 194; 194; 194; 194; 194; 194; 194; 194; 194; 194; 7; 7; 7; 7; 7; 7; 7; 7; 7; 7; 7; 7; 7; 7; 7; 7; 7; 7; 7; 7; 7; 7; 7; 7; 7; 7; 8; 8; 8; 8; 8; 8; 8; 8; 8; 8; 8; 8; 8; 8; 8; 8; 8; 8; 8; 8; 8; 8].
Definition block_66 : list N := [
   7; 7; 7; 7; 7; 7; 7; 7; 7; 7; 7; 7; 7; 7; 7; 7; 7; 7; 7; 7; 7; 7; 7; 7; 7; 7; 7; 7; 7; 7; 7; 7; 7; 7; 7; 7; 7; 7; 7; 7; 7; 7; 12; 12; 7; 7; 7; 7; 7; 7; 7; 7; 7; 7; 12; 7; 7; 7; 7; 7; 7; 7; 7; 7;
   12; 7; 7; 7; 7; 7; 7; 7; 7; 7; 7; 7; 7; 7; 7; 7; 7; 7; 7; 7; 7; 7; 7; 7; 7; 7; 7; 7; 7; 7; 7; 7; 7; 7; 7; 7; 7; 7; 7; 7; 7; 7; 7; 7; 7; 7; 7; 7; 7; 7; 7; 7; 7; 7; 7; 7; 7; 7; 7; 12; 12; 12; 12; 7].
Definition block_67 : list N := [
   12; 12; 12; 12; 12; 12; 7; 7; 12; 12; 12; 12; 12; 12; 12; 12; 12; 12; 12; 7; 12; 7; 12; 7; 7; 7; 7; 7; 7; 12; 7; 7; 7; 12; 7; 7; 7; 7; 7; 7; 12; 7; 7; 7; 7; 7; 7; 7; 7; 7; 7; 12; 12; 7; 7; 7; 7; 7; 7; 7; 7; 7; 7; 7;
   7; 7; 7; 7; 12; 7; 7; 12; 7; 7; 7; 7; 12; 7; 12; 7; 7; 7; 7; 12; 12; 12; 7; 12; 7; 7; 7; 7; 7; 7; 7; 7; 7; 7; 7; 12; 12; 12; 12; 12; 6; 6; 6; 6; 6; 6; 6; 6; 6; 6; 6; 6; 6; 6; 8; 8; 8; 8; 8; 8; 8; 8; 8; 8].
Definition block_68 : list N := [
   8; 8; 8; 8; 8; 8; 8; 8; 8; 8; 8; 8; 8; 8; 8; 8; 8; 8; 8; 8; 7; 12; 12; 12; 7; 7; 7; 7; 7; 7; 7; 7; 7; 12; 7; 7; 7; 7; 7; 7; 7; 7; 7; 7; 7; 7; 7; 7; 12; 7; 7; 7; 7; 7; 7; 7; 7; 7; 7; 7; 7; 7; 7; 12;
   7; 7; 7; 7; 7; 6; 6; 7; 7; 7; 7; 7; 7; 7; 7; 7; 7; 7; 7; 7; 7; 7; 7; 7; 7; 7; 7; 7; 7; 7; 7; 7; 7; 7; 7; 7; 7; 7; 6; 6; 6; 6; 6; 6; 6; 6; 6; 6; 7; 7; 7; 7; 7; 7; 7; 7; 7; 7; 7; 7; 7; 7; 7; 7].
Definition block_69 : list N := [
   7; 7; 7; 6; 6; 6; 6; 6; 6; 6; 6; 6; 6; 6; 6; 6; 6; 6; 6; 6; 6; 6; 6; 6; 6; 7; 7; 7; 7; 7; 7; 7; 7; 7; 7; 7; 7; 7; 7; 7; 7; 7; 7; 7; 7; 7; 7; 7; 7; 7; 7; 7; 7; 7; 7; 7; 7; 7; 7; 7; 7; 7; 7; 7;
   7; 7; 7; 7; 7; 7; 7; 7; 7; 7; 7; 7; 7; 7; 7; 7; 7; 7; 7; 7; 7; 7; 7; 7; 6; 6; 6; 6; 7; 7; 7; 7; 7; 7; 7; 7; 7; 7; 7; 7; 7; 7; 7; 7; 7; 7; 7; 7; 7; 7; 7; 7; 7; 7; 7; 7; 7; 7; 7; 7; 6; 6; 7; 7].
Definition block_70 : list N := [
   7; 7; 7; 7; 7; 12; 12; 12; 7; 7; 7; 7; 7; 7; 7; 7; 7; 7; 7; 7; 7; 7; 7; 7; 7; 7; 7; 12; 12; 7; 7; 7; 7; 7; 7; 7; 7; 7; 7; 7; 7; 7; 7; 7; 7; 7; 7; 7; 7; 7; 7; 7; 7; 7; 7; 7; 7; 7; 7; 7; 7; 7; 7; 7;
   7; 7; 7; 7; 7; 7; 7; 7; 7; 7; 7; 7; 7; 7; 7; 7; 12; 7; 7; 7; 7; 12; 7; 7; 7; 7; 7; 7; 7; 7; 7; 7; 7; 7; 7; 7; 7; 7; 7; 7; 7; 7; 7; 7; 7; 7; 7; 7; 7; 7; 7; 7; 0; 0; 7; 7; 7; 7; 7; 7; 7; 7; 7; 7].
Definition block_71 : list N := [
   70; 70; 70; 70; 70; 70; 70; 70; 70; 70; 70; 70; 70; 70; 70; 70; 70; 70; 70; 70; 70; 70; 70; 70; 70; 70; 70; 70; 70; 70; 70; 70; 70; 70; 70; 70; 70; 70; 70; 70; 70; 70; 70; 70; 70; 70; 70; 0; 10; 10; 10; 10; 10; 10; 10; 10; 10; 10; 10; 10; 10; 10; 10; 10;
   10; 10; 10; 10; 10; 10; 10; 10; 10; 10; 10; 10; 10; 10; 10; 10; 10; 10; 10; 10; 10; 10; 10; 10; 10; 10; 10; 10; 10; 10; 10; 0; 16; 10; 196; 197; 198; 10; 10; 16; 10; 16; 10; 16; 10; 199; 200; 201; 202; 10; 16; 10; 10; 16; 10; 10; 10; 10; 10; 10; 13; 13; 203; 203].
Definition block_72 : list N := [
   16; 10; 16; 10; 16; 10; 16; 10; 16; 10; 16; 10; 16; 10; 16; 10; 16; 10; 16; 10; 16; 10; 16; 10; 16; 10; 16; 10; 16; 10; 16; 10; 16; 10; 16; 10; 16; 10; 16; 10; 16; 10; 16; 10; 16; 10; 16; 10; 16; 10; 16; 10; 16; 10; 16; 10; 16; 10; 16; 10; 16; 10; 16; 10;
   16; 10; 16; 10; 16; 10; 16; 10; 16; 10; 16; 10; 16; 10; 16; 10; 16; 10; 16; 10; 16; 10; 16; 10; 16; 10; 16; 10; 16; 10; 16; 10; 16; 10; 16; 10; 10; 7; 7; 7; 7; 7; 7; 16; 10; 16; 10; 47; 47; 47; 16; 10; 0; 0; 0; 0; 0; 6; 6; 6; 6; 8; 6; 6].
Definition block_73 : list N := [
   10; 10; 10; 10; 10; 10; 10; 10; 10; 10; 10; 10; 10; 10; 10; 10; 10; 10; 10; 10; 10; 10; 10; 10; 10; 10; 10; 10; 10; 10; 10; 10; 10; 10; 10; 10; 10; 10; 0; 10; 0; 0; 0; 0; 0; 10; 0; 0; 13; 13; 13; 13; 13; 13; 13; 13; 13; 13; 13; 13; 13; 13; 13; 13;
   13; 13; 13; 13; 13; 13; 13; 13; 13; 13; 13; 13; 13; 13; 13; 13; 13; 13; 13; 13; 13; 13; 13; 13; 13; 13; 13; 13; 13; 13; 13; 13; 13; 13; 13; 13; 13; 13; 13; 13; 0; 0; 0; 0; 0; 0; 0; 13; 6; 0; 0; 0; 0; 0; 0; 0; 0; 0; 0; 0; 0; 0; 0; 47].
Definition block_74 : list N := [
   13; 13; 13; 13; 13; 13; 13; 13; 13; 13; 13; 13; 13; 13; 13; 13; 13; 13; 13; 13; 13; 13; 13; 0; 0; 0; 0; 0; 0; 0; 0; 0; 13; 13; 13; 13; 13; 13; 13; 0; 13; 13; 13; 13; 13; 13; 13; 0; 13; 13; 13; 13; 13; 13; 13; 0; 13; 13; 13; 13; 13; 13; 13; 0;
   13; 13; 13; 13; 13; 13; 13; 0; 13; 13; 13; 13; 13; 13; 13; 0; 13; 13; 13; 13; 13; 13; 13; 0; 13; 13; 13; 13; 13; 13; 13; 0; 47; 47; 47; 47; 47; 47; 47; 47; 47; 47; 47; 47; 47; 47; 47; 47; 47; 47; 47; 47; 47; 47; 47; 47; 47; 47; 47; 47; 47; 47; 47; 47].
Definition block_75 : list N := [
   6; 6; 6; 6; 6; 6; 6; 6; 6; 6; 6; 6; 6; 6; 6; 6; 6; 6; 6; 6; 6; 6; 6; 6; 6; 6; 6; 6; 6; 6; 6; 6; 6; 6; 6; 6; 6; 6; 6; 6; 6; 6; 6; 6; 6; 6; 6; 13; 6; 6; 6; 6; 6; 6; 6; 6; 6; 6; 6; 6; 6; 6; 6; 6;
   6; 6; 6; 6; 6; 6; 6; 6; 6; 6; 6; 6; 6; 6; 6; 6; 7; 7; 6; 0; 0; 0; 0; 0; 0; 0; 0; 0; 0; 0; 0; 0; 0; 0; 0; 0; 0; 0; 0; 0; 0; 0; 0; 0; 0; 0; 0; 0; 0; 0; 0; 0; 0; 0; 0; 0; 0; 0; 0; 0; 0; 0; 0; 0].
Definition block_76 : list N := [
   7; 7; 7; 7; 7; 7; 7; 7; 7; 7; 7; 7; 7; 7; 7; 7; 7; 7; 7; 7; 7; 7; 7; 7; 7; 7; 0; 7; 7; 7; 7; 7; 7; 7; 7; 7; 7; 7; 7; 7; 7; 7; 7; 7; 7; 7; 7; 7; 7; 7; 7; 7; 7; 7; 7; 7; 7; 7; 7; 7; 7; 7; 7; 7;
   7; 7; 7; 7; 7; 7; 7; 7; 7; 7; 7; 7; 7; 7; 7; 7; 7; 7; 7; 7; 7; 7; 7; 7; 7; 7; 7; 7; 7; 7; 7; 7; 7; 7; 7; 7; 7; 7; 7; 7; 7; 7; 7; 7; 7; 7; 7; 7; 7; 7; 7; 7; 0; 0; 0; 0; 0; 0; 0; 0; 0; 0; 0; 0].
Definition block_77 : list N := [
   7; 7; 7; 7; 7; 7; 7; 7; 7; 7; 7; 7; 7; 7; 7; 7; 7; 7; 7; 7; 7; 7; 7; 7; 7; 7; 7; 7; 7; 7; 7; 7; 7; 7; 7; 7; 7; 7; 7; 7; 7; 7; 7; 7; 7; 7; 7; 7; 7; 7; 7; 7; 7; 7; 7; 7; 7; 7; 7; 7; 7; 7; 7; 7;
   7; 7; 7; 7; 7; 7; 7; 7; 7; 7; 7; 7; 7; 7; 7; 7; 7; 7; 7; 7; 7; 7; 0; 0; 0; 0; 0; 0; 0; 0; 0; 0; 0; 0; 0; 0; 0; 0; 0; 0; 0; 0; 0; 0; 0; 0; 0; 0; 7; 7; 7; 7; 7; 7; 7; 7; 7; 7; 7; 7; 0; 0; 0; 0].
Definition block_78 : list N := [
   5; 6; 6; 6; 7; 13; 13; 8; 6; 6; 6; 6; 6; 6; 6; 6; 6; 6; 7; 7; 6; 6; 6; 6; 6; 6; 6; 6; 6; 6; 6; 6; 7; 8; 8; 8; 8; 8; 8; 8; 8; 8; 47; 47; 47; 47; 47; 47; 187; 13; 13; 13; 13; 13; 7; 7; 8; 8; 8; 13; 13; 187; 7; 7;
   0; 13; 13; 13; 13; 13; 13; 13; 13; 13; 13; 13; 13; 13; 13; 13; 13; 13; 13; 13; 13; 13; 13; 13; 13; 13; 13; 13; 13; 13; 13; 13; 13; 13; 13; 13; 13; 13; 13; 13; 13; 13; 13; 13; 13; 13; 13; 13; 13; 13; 13; 13; 13; 13; 13; 13; 13; 13; 13; 13; 13; 13; 13; 13].
Definition block_79 : list N := [
   13; 13; 13; 13; 13; 13; 13; 13; 13; 13; 13; 13; 13; 13; 13; 13; 13; 13; 13; 13; 13; 13; 13; 0; 0; 47; 47; 7; 7; 13; 13; 13; 6; 13; 13; 13; 13; 13; 13; 13; 13; 13; 13; 13; 13; 13; 13; 13; 13; 13; 13; 13; 13; 13; 13; 13; 13; 13; 13; 13; 13; 13; 13; 13;
   13; 13; 13; 13; 13; 13; 13; 13; 13; 13; 13; 13; 13; 13; 13; 13; 13; 13; 13; 13; 13; 13; 13; 13; 13; 13; 13; 13; 13; 13; 13; 13; 13; 13; 13; 13; 13; 13; 13; 13; 13; 13; 13; 13; 13; 13; 13; 13; 13; 13; 13; 13; 13; 13; 13; 13; 13; 13; 13; 6; 13; 13; 13; 13].
Definition block_80 : list N := [
   0; 0; 0; 0; 0; 13; 13; 13; 13; 13; 13; 13; 13; 13; 13; 13; 13; 13; 13; 13; 13; 13; 13; 13; 13; 13; 13; 13; 13; 13; 13; 13; 13; 13; 13; 13; 13; 13; 13; 13; 13; 13; 13; 13; 13; 13; 13; 13; 0; 13; 13; 13; 13; 13; 13; 13; 13; 13; 13; 13; 13; 13; 13; 13;
   13; 13; 13; 13; 13; 13; 13; 13; 13; 13; 13; 13; 13; 13; 13; 13; 13; 13; 13; 13; 13; 13; 13; 13; 13; 13; 13; 13; 13; 13; 13; 13; 13; 13; 13; 13; 13; 13; 13; 13; 13; 13; 13; 13; 13; 13; 13; 13; 13; 13; 13; 13; 13; 13; 13; 13; 13; 13; 13; 13; 13; 13; 13; 13].
Definition block_81 : list N := [
   13; 13; 13; 13; 13; 13; 13; 13; 13; 13; 13; 13; 13; 13; 13; 0; 7; 7; 8; 8; 8; 8; 7; 7; 7; 7; 7; 7; 7; 7; 7; 7; 13; 13; 13; 13; 13; 13; 13; 13; 13; 13; 13; 13; 13; 13; 13; 13; 13; 13; 13; 13; 13; 13; 13; 13; 13; 13; 13; 13; 13; 13; 13; 13;
   7; 7; 7; 7; 7; 7; 7; 7; 7; 7; 7; 7; 7; 7; 7; 7; 7; 7; 7; 7; 7; 7; 7; 7; 7; 7; 7; 7; 7; 7; 7; 7; 7; 7; 7; 7; 0; 0; 0; 0; 0; 0; 0; 0; 0; 0; 0; 0; 13; 13; 13; 13; 13; 13; 13; 13; 13; 13; 13; 13; 13; 13; 13; 13].
Definition block_82 : list N := [
   7; 7; 7; 7; 7; 7; 7; 7; 7; 7; 7; 7; 7; 7; 7; 7; 7; 7; 7; 7; 7; 7; 7; 7; 7; 7; 7; 7; 7; 7; 7; 0; 8; 8; 8; 8; 8; 8; 8; 8; 8; 8; 7; 7; 7; 7; 7; 7; 7; 7; 7; 7; 7; 7; 7; 7; 7; 7; 7; 7; 7; 7; 7; 7;
   7; 7; 7; 7; 7; 7; 7; 7; 8; 8; 8; 8; 8; 8; 8; 8; 7; 8; 8; 8; 8; 8; 8; 8; 8; 8; 8; 8; 8; 8; 8; 8; 7; 7; 7; 7; 7; 7; 7; 7; 7; 7; 7; 7; 7; 7; 7; 7; 7; 7; 7; 7; 7; 7; 7; 7; 7; 7; 7; 7; 7; 7; 7; 7].
Definition block_83 : list N := [
   8; 8; 8; 8; 8; 8; 8; 8; 8; 8; 7; 7; 7; 7; 7; 7; 7; 7; 7; 7; 7; 7; 7; 12; 7; 12; 7; 7; 7; 7; 7; 7; 7; 7; 7; 7; 7; 7; 7; 7; 7; 7; 7; 7; 7; 7; 7; 7; 7; 8; 8; 8; 8; 8; 8; 8; 8; 8; 8; 8; 8; 8; 8; 8;
   7; 7; 7; 7; 7; 7; 7; 7; 7; 7; 7; 7; 7; 7; 7; 7; 7; 7; 7; 7; 7; 7; 7; 7; 7; 7; 7; 7; 7; 7; 7; 7; 7; 7; 7; 7; 7; 7; 7; 7; 7; 7; 7; 7; 7; 7; 7; 7; 7; 7; 7; 7; 7; 7; 7; 7; 7; 7; 7; 7; 7; 7; 7; 7].
Definition block_84 : list N := [
   0; 0; 0; 0; 0; 0; 0; 0; 0; 0; 0; 0; 0; 0; 0; 0; 0; 0; 0; 0; 0; 0; 0; 0; 0; 0; 0; 0; 0; 0; 0; 0; 0; 0; 0; 0; 0; 0; 0; 0; 0; 0; 0; 0; 0; 0; 0; 0; 0; 0; 0; 0; 0; 0; 0; 0; 0; 0; 0; 0; 0; 0; 0; 13;
   7; 7; 7; 7; 7; 7; 7; 7; 7; 7; 7; 7; 7; 7; 7; 7; 7; 7; 7; 7; 7; 7; 7; 7; 7; 7; 7; 7; 7; 7; 7; 7; 7; 7; 7; 7; 7; 7; 7; 7; 7; 7; 7; 7; 7; 7; 7; 7; 7; 7; 7; 7; 7; 7; 7; 7; 7; 7; 7; 7; 7; 7; 7; 7].
Definition block_85 : list N := [
   13; 13; 13; 13; 13; 13; 13; 13; 13; 13; 13; 13; 13; 0; 0; 0; 7; 7; 7; 7; 7; 7; 7; 7; 7; 7; 7; 7; 7; 7; 7; 7; 7; 7; 7; 7; 7; 7; 7; 7; 7; 7; 7; 7; 7; 7; 7; 7; 7; 7; 7; 7; 7; 7; 7; 7; 7; 7; 7; 7; 7; 7; 7; 7;
   7; 7; 7; 7; 7; 7; 7; 0; 0; 0; 0; 0; 0; 0; 0; 0; 13; 13; 13; 13; 13; 13; 13; 13; 13; 13; 13; 13; 13; 13; 13; 13; 13; 13; 13; 13; 13; 13; 13; 13; 13; 13; 13; 13; 13; 13; 13; 13; 13; 13; 13; 13; 13; 13; 13; 13; 13; 13; 13; 13; 13; 13; 6; 6].
Definition block_86 : list N := [
   13; 13; 13; 13; 13; 13; 13; 13; 13; 13; 13; 13; 13; 6; 6; 6; 13; 13; 13; 13; 13; 13; 13; 13; 13; 13; 13; 13; 13; 13; 13; 13; 8; 8; 8; 8; 8; 8; 8; 8; 8; 8; 13; 13; 0; 0; 0; 0; 0; 0; 0; 0; 0; 0; 0; 0; 0; 0; 0; 0; 0; 0; 0; 0;
   16; 10; 16; 10; 16; 10; 16; 10; 16; 10; 16; 10; 16; 10; 16; 10; 16; 10; 16; 10; 16; 10; 16; 10; 16; 10; 16; 10; 16; 10; 16; 10; 16; 10; 16; 10; 16; 10; 16; 10; 16; 10; 16; 10; 16; 10; 13; 47; 47; 47; 47; 6; 47; 47; 47; 47; 47; 47; 47; 47; 47; 47; 6; 13].
Definition block_87 : list N := [
   16; 10; 16; 10; 16; 10; 16; 10; 16; 10; 16; 10; 16; 10; 16; 10; 16; 10; 16; 10; 16; 10; 16; 10; 16; 10; 16; 10; 13; 13; 47; 47; 13; 13; 13; 13; 13; 13; 13; 13; 13; 13; 13; 13; 13; 13; 13; 13; 13; 13; 13; 13; 13; 13; 13; 13; 13; 13; 13; 13; 13; 13; 13; 13;
   13; 13; 13; 13; 13; 13; 13; 13; 13; 13; 13; 13; 13; 13; 13; 13; 13; 13; 13; 13; 13; 13; 13; 13; 13; 13; 13; 13; 13; 13; 13; 13; 13; 13; 13; 13; 13; 13; 8; 8; 8; 8; 8; 8; 8; 8; 8; 8; 47; 47; 6; 6; 6; 6; 6; 6; 0; 0; 0; 0; 0; 0; 0; 0].
Definition block_88 : list N := [
   7; 7; 7; 7; 7; 7; 7; 7; 7; 7; 7; 7; 7; 7; 7; 7; 7; 7; 7; 7; 7; 7; 7; 13; 13; 13; 13; 13; 13; 13; 13; 13; 7; 7; 16; 10; 16; 10; 16; 10; 16; 10; 16; 10; 16; 10; 16; 10; 10; 10; 16; 10; 16; 10; 16; 10; 16; 10; 16; 10; 16; 10; 16; 10;
   16; 10; 16; 10; 16; 10; 16; 10; 16; 10; 16; 10; 16; 10; 16; 10; 16; 10; 16; 10; 16; 10; 16; 10; 16; 10; 16; 10; 16; 10; 16; 10; 16; 10; 16; 10; 16; 10; 16; 10; 16; 10; 16; 10; 16; 10; 16; 10; 13; 10; 10; 10; 10; 10; 10; 10; 10; 16; 10; 16; 10; 204; 16; 10].
Definition block_89 : list N := [
   16; 10; 16; 10; 16; 10; 16; 10; 13; 7; 7; 16; 10; 205; 10; 13; 16; 10; 16; 10; 10; 10; 16; 10; 16; 10; 16; 10; 16; 10; 16; 10; 16; 10; 16; 10; 16; 10; 16; 10; 16; 10; 206; 207; 208; 209; 206; 10; 210; 211; 212; 213; 16; 10; 16; 10; 16; 10; 16; 10; 16; 10; 16; 10;
   0; 0; 16; 10; 214; 215; 216; 16; 10; 16; 10; 0; 0; 0; 0; 0; 0; 0; 0; 0; 0; 0; 0; 0; 0; 0; 0; 0; 0; 0; 0; 0; 0; 0; 0; 0; 0; 0; 0; 0; 0; 0; 0; 0; 0; 0; 0; 0; 0; 0; 0; 0; 0; 16; 10; 13; 13; 13; 10; 13; 13; 13; 13; 13].
Definition block_90 : list N := [
   13; 13; 47; 13; 13; 13; 47; 13; 13; 13; 13; 47; 13; 13; 13; 13; 13; 13; 13; 13; 13; 13; 13; 13; 13; 13; 13; 13; 13; 13; 13; 13; 13; 13; 13; 73; 73; 47; 47; 73; 7; 7; 7; 7; 47; 0; 0; 0; 8; 8; 8; 8; 8; 8; 7; 7; 7; 7; 0; 0; 0; 0; 0; 0;
   13; 13; 13; 13; 13; 13; 13; 13; 13; 13; 13; 13; 13; 13; 13; 13; 13; 13; 13; 13; 13; 13; 13; 13; 13; 13; 13; 13; 13; 13; 13; 13; 13; 13; 13; 13; 13; 13; 13; 13; 13; 13; 13; 13; 13; 13; 13; 13; 13; 13; 13; 13; 6; 6; 6; 6; 0; 0; 0; 0; 0; 0; 0; 0].
Definition block_91 : list N := [
   73; 73; 13; 13; 13; 13; 13; 13; 13; 13; 13; 13; 13; 13; 13; 13; 13; 13; 13; 13; 13; 13; 13; 13; 13; 13; 13; 13; 13; 13; 13; 13; 13; 13; 13; 13; 13; 13; 13; 13; 13; 13; 13; 13; 13; 13; 13; 13; 13; 13; 13; 13; 73; 73; 73; 73; 73; 73; 73; 73; 73; 73; 73; 73;
   73; 73; 73; 73; 47; 47; 0; 0; 0; 0; 0; 0; 0; 0; 6; 6; 8; 8; 8; 8; 8; 8; 8; 8; 8; 8; 0; 0; 0; 0; 0; 0; 47; 47; 47; 47; 47; 47; 47; 47; 47; 47; 47; 47; 47; 47; 47; 47; 47; 47; 13; 13; 13; 13; 13; 13; 6; 6; 6; 13; 6; 13; 13; 47].
Definition block_92 : list N := [
   8; 8; 8; 8; 8; 8; 8; 8; 8; 8; 13; 13; 13; 13; 13; 13; 13; 13; 13; 13; 13; 13; 13; 13; 13; 13; 13; 13; 13; 13; 13; 13; 13; 13; 13; 13; 13; 13; 47; 47; 47; 47; 47; 47; 47; 47; 6; 6; 13; 13; 13; 13; 13; 13; 13; 13; 13; 13; 13; 13; 13; 13; 13; 13;
   13; 13; 13; 13; 13; 13; 13; 47; 47; 47; 47; 47; 47; 47; 47; 47; 47; 47; 73; 73; 0; 0; 0; 0; 0; 0; 0; 0; 0; 0; 0; 6; 78; 78; 78; 78; 78; 78; 78; 78; 78; 78; 78; 78; 78; 78; 78; 78; 78; 78; 78; 78; 78; 78; 78; 78; 78; 78; 78; 78; 78; 0; 0; 0].
Definition block_93 : list N := [
   47; 47; 47; 73; 13; 13; 13; 13; 13; 13; 13; 13; 13; 13; 13; 13; 13; 13; 13; 13; 13; 13; 13; 13; 13; 13; 13; 13; 13; 13; 13; 13; 13; 13; 13; 13; 13; 13; 13; 13; 13; 13; 13; 13; 13; 13; 13; 13; 13; 13; 13; 47; 73; 73; 47; 47; 47; 47; 73; 73; 47; 47; 73; 73;
   73; 6; 6; 6; 6; 6; 6; 6; 6; 6; 6; 6; 6; 6; 0; 13; 8; 8; 8; 8; 8; 8; 8; 8; 8; 8; 0; 0; 0; 0; 6; 6; 13; 13; 13; 13; 13; 47; 13; 13; 13; 13; 13; 13; 13; 13; 13; 13; 8; 8; 8; 8; 8; 8; 8; 8; 8; 8; 13; 13; 13; 13; 13; 0].
Definition block_94 : list N := [
   13; 13; 13; 13; 13; 13; 13; 13; 13; 13; 13; 13; 13; 13; 13; 13; 13; 13; 13; 13; 13; 13; 13; 13; 13; 13; 13; 13; 13; 13; 13; 13; 13; 13; 13; 13; 13; 13; 13; 13; 13; 47; 47; 47; 47; 47; 47; 73; 73; 47; 47; 73; 73; 47; 47; 0; 0; 0; 0; 0; 0; 0; 0; 0;
   13; 13; 13; 47; 13; 13; 13; 13; 13; 13; 13; 13; 47; 73; 0; 0; 8; 8; 8; 8; 8; 8; 8; 8; 8; 8; 0; 0; 6; 6; 6; 6; 13; 13; 13; 13; 13; 13; 13; 13; 13; 13; 13; 13; 13; 13; 13; 13; 13; 13; 13; 13; 13; 13; 13; 7; 7; 7; 13; 76; 47; 76; 13; 13].
Definition block_95 : list N := [
   13; 13; 13; 13; 13; 13; 13; 13; 13; 13; 13; 13; 13; 13; 13; 13; 13; 13; 13; 13; 13; 13; 13; 13; 13; 13; 13; 13; 13; 13; 13; 13; 13; 13; 13; 13; 13; 13; 13; 13; 13; 13; 13; 13; 13; 13; 13; 13; 47; 13; 47; 47; 47; 13; 13; 47; 47; 13; 13; 13; 13; 13; 47; 47;
   13; 47; 13; 0; 0; 0; 0; 0; 0; 0; 0; 0; 0; 0; 0; 0; 0; 0; 0; 0; 0; 0; 0; 0; 0; 0; 0; 13; 13; 13; 6; 6; 13; 13; 13; 13; 13; 13; 13; 13; 13; 13; 13; 73; 47; 47; 73; 73; 6; 6; 13; 13; 13; 73; 47; 0; 0; 0; 0; 0; 0; 0; 0; 0].
Definition block_96 : list N := [
   0; 13; 13; 13; 13; 13; 13; 0; 0; 13; 13; 13; 13; 13; 13; 0; 0; 13; 13; 13; 13; 13; 13; 0; 0; 0; 0; 0; 0; 0; 0; 0; 13; 13; 13; 13; 13; 13; 13; 0; 13; 13; 13; 13; 13; 13; 13; 0; 10; 10; 10; 10; 10; 10; 10; 10; 10; 10; 10; 10; 10; 10; 10; 10;
   10; 10; 10; 10; 10; 10; 10; 10; 10; 10; 10; 10; 10; 10; 10; 10; 10; 10; 10; 10; 10; 10; 10; 10; 10; 10; 10; 7; 13; 13; 13; 13; 10; 10; 10; 10; 10; 10; 10; 10; 10; 13; 7; 7; 0; 0; 0; 0; 217; 217; 217; 217; 217; 217; 217; 217; 217; 217; 217; 217; 217; 217; 217; 217].
Definition block_97 : list N := [
   217; 217; 217; 217; 217; 217; 217; 217; 217; 217; 217; 217; 217; 217; 217; 217; 217; 217; 217; 217; 217; 217; 217; 217; 217; 217; 217; 217; 217; 217; 217; 217; 217; 217; 217; 217; 217; 217; 217; 217; 217; 217; 217; 217; 217; 217; 217; 217; 217; 217; 217; 217; 217; 217; 217; 217; 217; 217; 217; 217; 217; 217; 217; 217;
   13; 13; 13; 13; 13; 13; 13; 13; 13; 13; 13; 13; 13; 13; 13; 13; 13; 13; 13; 13; 13; 13; 13; 13; 13; 13; 13; 13; 13; 13; 13; 13; 13; 13; 13; 73; 73; 47; 73; 73; 47; 73; 73; 6; 73; 47; 0; 0; 8; 8; 8; 8; 8; 8; 8; 8; 8; 8; 0; 0; 0; 0; 0; 0].
Definition block_98 : list N := [
   218; 219; 219; 219; 219; 219; 219; 219; 219; 219; 219; 219; 219; 219; 219; 219; 219; 219; 219; 219; 219; 219; 219; 219; 219; 219; 219; 219; 220; 219; 219; 219; 219; 219; 219; 219; 219; 219; 219; 219; 219; 219; 219; 219; 219; 219; 219; 219; 219; 219; 219; 219; 219; 219; 219; 219; 220; 219; 219; 219; 219; 219; 219; 219;
   219; 219; 219; 219; 219; 219; 219; 219; 219; 219; 219; 219; 219; 219; 219; 219; 219; 219; 219; 219; 220; 219; 219; 219; 219; 219; 219; 219; 219; 219; 219; 219; 219; 219; 219; 219; 219; 219; 219; 219; 219; 219; 219; 219; 219; 219; 219; 219; 220; 219; 219; 219; 219; 219; 219; 219; 219; 219; 219; 219; 219; 219; 219; 219].
Definition block_99 : list N := [
   219; 219; 219; 219; 219; 219; 219; 219; 219; 219; 219; 219; 220; 219; 219; 219; 219; 219; 219; 219; 219; 219; 219; 219; 219; 219; 219; 219; 219; 219; 219; 219; 219; 219; 219; 219; 219; 219; 219; 219; 220; 219; 219; 219; 219; 219; 219; 219; 219; 219; 219; 219; 219; 219; 219; 219; 219; 219; 219; 219; 219; 219; 219; 219;
   219; 219; 219; 219; 220; 219; 219; 219; 219; 219; 219; 219; 219; 219; 219; 219; 219; 219; 219; 219; 219; 219; 219; 219; 219; 219; 219; 219; 219; 219; 219; 219; 220; 219; 219; 219; 219; 219; 219; 219; 219; 219; 219; 219; 219; 219; 219; 219; 219; 219; 219; 219; 219; 219; 219; 219; 219; 219; 219; 219; 220; 219; 219; 219].
Definition block_100 : list N := [
   219; 219; 219; 219; 219; 219; 219; 219; 219; 219; 219; 219; 219; 219; 219; 219; 219; 219; 219; 219; 219; 219; 219; 219; 220; 219; 219; 219; 219; 219; 219; 219; 219; 219; 219; 219; 219; 219; 219; 219; 219; 219; 219; 219; 219; 219; 219; 219; 219; 219; 219; 219; 220; 219; 219; 219; 219; 219; 219; 219; 219; 219; 219; 219;
   219; 219; 219; 219; 219; 219; 219; 219; 219; 219; 219; 219; 219; 219; 219; 219; 220; 219; 219; 219; 219; 219; 219; 219; 219; 219; 219; 219; 219; 219; 219; 219; 219; 219; 219; 219; 219; 219; 219; 219; 219; 219; 219; 219; 220; 219; 219; 219; 219; 219; 219; 219; 219; 219; 219; 219; 219; 219; 219; 219; 219; 219; 219; 219].
Definition block_101 : list N := [
   219; 219; 219; 219; 219; 219; 219; 219; 220; 219; 219; 219; 219; 219; 219; 219; 219; 219; 219; 219; 219; 219; 219; 219; 219; 219; 219; 219; 219; 219; 219; 219; 219; 219; 219; 219; 220; 219; 219; 219; 219; 219; 219; 219; 219; 219; 219; 219; 219; 219; 219; 219; 219; 219; 219; 219; 219; 219; 219; 219; 219; 219; 219; 219;
   220; 219; 219; 219; 219; 219; 219; 219; 219; 219; 219; 219; 219; 219; 219; 219; 219; 219; 219; 219; 219; 219; 219; 219; 219; 219; 219; 219; 220; 219; 219; 219; 219; 219; 219; 219; 219; 219; 219; 219; 219; 219; 219; 219; 219; 219; 219; 219; 219; 219; 219; 219; 219; 219; 219; 219; 220; 219; 219; 219; 219; 219; 219; 219].
Definition block_102 : list N := [
   219; 219; 219; 219; 219; 219; 219; 219; 219; 219; 219; 219; 219; 219; 219; 219; 219; 219; 219; 219; 220; 219; 219; 219; 219; 219; 219; 219; 219; 219; 219; 219; 219; 219; 219; 219; 219; 219; 219; 219; 219; 219; 219; 219; 219; 219; 219; 219; 220; 219; 219; 219; 219; 219; 219; 219; 219; 219; 219; 219; 219; 219; 219; 219;
   219; 219; 219; 219; 219; 219; 219; 219; 219; 219; 219; 219; 220; 219; 219; 219; 219; 219; 219; 219; 219; 219; 219; 219; 219; 219; 219; 219; 219; 219; 219; 219; 219; 219; 219; 219; 219; 219; 219; 219; 220; 219; 219; 219; 219; 219; 219; 219; 219; 219; 219; 219; 219; 219; 219; 219; 219; 219; 219; 219; 219; 219; 219; 219].
Definition block_103 : list N := [
   219; 219; 219; 219; 220; 219; 219; 219; 219; 219; 219; 219; 219; 219; 219; 219; 219; 219; 219; 219; 219; 219; 219; 219; 219; 219; 219; 219; 219; 219; 219; 219; 220; 219; 219; 219; 219; 219; 219; 219; 219; 219; 219; 219; 219; 219; 219; 219; 219; 219; 219; 219; 219; 219; 219; 219; 219; 219; 219; 219; 220; 219; 219; 219;
   219; 219; 219; 219; 219; 219; 219; 219; 219; 219; 219; 219; 219; 219; 219; 219; 219; 219; 219; 219; 219; 219; 219; 219; 220; 219; 219; 219; 219; 219; 219; 219; 219; 219; 219; 219; 219; 219; 219; 219; 219; 219; 219; 219; 219; 219; 219; 219; 219; 219; 219; 219; 220; 219; 219; 219; 219; 219; 219; 219; 219; 219; 219; 219].
Definition block_104 : list N := [
   219; 219; 219; 219; 219; 219; 219; 219; 219; 219; 219; 219; 219; 219; 219; 219; 220; 219; 219; 219; 219; 219; 219; 219; 219; 219; 219; 219; 219; 219; 219; 219; 219; 219; 219; 219; 219; 219; 219; 219; 219; 219; 219; 219; 220; 219; 219; 219; 219; 219; 219; 219; 219; 219; 219; 219; 219; 219; 219; 219; 219; 219; 219; 219;
   219; 219; 219; 219; 219; 219; 219; 219; 220; 219; 219; 219; 219; 219; 219; 219; 219; 219; 219; 219; 219; 219; 219; 219; 219; 219; 219; 219; 219; 219; 219; 219; 219; 219; 219; 219; 220; 219; 219; 219; 219; 219; 219; 219; 219; 219; 219; 219; 219; 219; 219; 219; 219; 219; 219; 219; 219; 219; 219; 219; 219; 219; 219; 219].
Definition block_105 : list N := [
   220; 219; 219; 219; 219; 219; 219; 219; 219; 219; 219; 219; 219; 219; 219; 219; 219; 219; 219; 219; 219; 219; 219; 219; 219; 219; 219; 219; 220; 219; 219; 219; 219; 219; 219; 219; 219; 219; 219; 219; 219; 219; 219; 219; 219; 219; 219; 219; 219; 219; 219; 219; 219; 219; 219; 219; 220; 219; 219; 219; 219; 219; 219; 219;
   219; 219; 219; 219; 219; 219; 219; 219; 219; 219; 219; 219; 219; 219; 219; 219; 219; 219; 219; 219; 220; 219; 219; 219; 219; 219; 219; 219; 219; 219; 219; 219; 219; 219; 219; 219; 219; 219; 219; 219; 219; 219; 219; 219; 219; 219; 219; 219; 220; 219; 219; 219; 219; 219; 219; 219; 219; 219; 219; 219; 219; 219; 219; 219].
Definition block_106 : list N := [
   219; 219; 219; 219; 219; 219; 219; 219; 220; 219; 219; 219; 219; 219; 219; 219; 219; 219; 219; 219; 219; 219; 219; 219; 219; 219; 219; 219; 219; 219; 219; 219; 219; 219; 219; 221; 0; 0; 0; 0; 0; 0; 0; 0; 0; 0; 0; 0; 79; 79; 79; 79; 79; 79; 79; 79; 79; 79; 79; 79; 79; 79; 79; 79;
   79; 79; 79; 79; 79; 79; 79; 0; 0; 0; 0; 80; 80; 80; 80; 80; 80; 80; 80; 80; 80; 80; 80; 80; 80; 80; 80; 80; 80; 80; 80; 80; 80; 80; 80; 80; 80; 80; 80; 80; 80; 80; 80; 80; 80; 80; 80; 80; 80; 80; 80; 80; 80; 80; 80; 80; 80; 80; 80; 80; 0; 0; 0; 0].
Definition block_107 : list N := [
   222; 223; 224; 225; 226; 227; 227; 0; 0; 0; 0; 0; 0; 0; 0; 0; 0; 0; 0; 228; 229; 230; 231; 232; 0; 0; 0; 0; 0; 13; 47; 13; 13; 13; 13; 13; 13; 13; 13; 13; 13; 7; 13; 13; 13; 13; 13; 13; 13; 13; 13; 13; 13; 13; 13; 0; 13; 13; 13; 13; 13; 0; 13; 0;
   13; 13; 0; 13; 13; 0; 13; 13; 13; 13; 13; 13; 13; 13; 13; 13; 13; 13; 13; 13; 13; 13; 13; 13; 13; 13; 13; 13; 13; 13; 13; 13; 13; 13; 13; 13; 13; 13; 13; 13; 13; 13; 13; 13; 13; 13; 13; 13; 13; 13; 13; 13; 13; 13; 13; 13; 13; 13; 13; 13; 13; 13; 13; 13].
Definition block_108 : list N := [
   13; 13; 13; 13; 13; 13; 13; 13; 13; 13; 13; 13; 13; 13; 13; 13; 13; 13; 13; 13; 13; 13; 13; 13; 13; 13; 13; 13; 13; 13; 13; 13; 13; 13; 13; 13; 13; 13; 13; 13; 13; 13; 13; 13; 13; 13; 13; 13; 13; 13; 7; 7; 7; 7; 7; 7; 7; 7; 7; 7; 7; 7; 7; 7;
   7; 7; 0; 0; 0; 0; 0; 0; 0; 0; 0; 0; 0; 0; 0; 0; 0; 0; 0; 13; 13; 13; 13; 13; 13; 13; 13; 13; 13; 13; 13; 13; 13; 13; 13; 13; 13; 13; 13; 13; 13; 13; 13; 13; 13; 13; 13; 13; 13; 13; 13; 13; 13; 13; 13; 13; 13; 13; 13; 13; 13; 13; 13; 13].
Definition block_109 : list N := [
   13; 13; 13; 13; 13; 13; 13; 13; 13; 13; 13; 13; 13; 13; 13; 13; 13; 13; 13; 13; 13; 13; 13; 13; 13; 13; 13; 13; 13; 13; 13; 13; 13; 13; 13; 13; 13; 13; 13; 13; 13; 13; 13; 13; 13; 13; 13; 13; 13; 13; 13; 13; 13; 13; 13; 13; 13; 13; 13; 13; 13; 13; 6; 6;
   0; 0; 0; 0; 0; 0; 0; 0; 0; 0; 0; 0; 0; 0; 0; 0; 13; 13; 13; 13; 13; 13; 13; 13; 13; 13; 13; 13; 13; 13; 13; 13; 13; 13; 13; 13; 13; 13; 13; 13; 13; 13; 13; 13; 13; 13; 13; 13; 13; 13; 13; 13; 13; 13; 13; 13; 13; 13; 13; 13; 13; 13; 13; 13].
Definition block_110 : list N := [
   13; 13; 13; 13; 13; 13; 13; 13; 13; 13; 13; 13; 13; 13; 13; 13; 0; 0; 13; 13; 13; 13; 13; 13; 13; 13; 13; 13; 13; 13; 13; 13; 13; 13; 13; 13; 13; 13; 13; 13; 13; 13; 13; 13; 13; 13; 13; 13; 13; 13; 13; 13; 13; 13; 13; 13; 13; 13; 13; 13; 13; 13; 13; 13;
   13; 13; 13; 13; 13; 13; 13; 13; 0; 0; 0; 0; 0; 0; 0; 0; 0; 0; 0; 0; 0; 0; 0; 0; 0; 0; 0; 0; 0; 0; 0; 0; 0; 0; 0; 0; 0; 0; 0; 0; 0; 0; 0; 0; 0; 0; 0; 0; 13; 13; 13; 13; 13; 13; 13; 13; 13; 13; 13; 13; 7; 7; 0; 0].
Definition block_111 : list N := [
   47; 47; 47; 47; 47; 47; 47; 47; 47; 47; 47; 47; 47; 47; 47; 47; 6; 6; 6; 6; 6; 6; 6; 6; 6; 6; 0; 0; 0; 0; 0; 0; 47; 47; 47; 47; 47; 47; 47; 47; 47; 47; 47; 47; 47; 47; 47; 47; 6; 6; 6; 6; 6; 6; 6; 6; 6; 6; 6; 6; 6; 6; 6; 6;
   6; 6; 6; 6; 6; 6; 6; 6; 6; 6; 6; 6; 6; 6; 6; 6; 6; 6; 6; 0; 6; 6; 6; 6; 6; 6; 6; 6; 6; 6; 6; 6; 6; 6; 7; 6; 7; 7; 7; 0; 6; 7; 6; 6; 0; 0; 0; 0; 13; 13; 13; 13; 13; 0; 13; 13; 13; 13; 13; 13; 13; 13; 13; 13].
Definition block_112 : list N := [
   13; 13; 13; 13; 13; 13; 13; 13; 13; 13; 13; 13; 13; 13; 13; 13; 13; 13; 13; 13; 13; 13; 13; 13; 13; 13; 13; 13; 13; 13; 13; 13; 13; 13; 13; 13; 13; 13; 13; 13; 13; 13; 13; 13; 13; 13; 13; 13; 13; 13; 13; 13; 13; 13; 13; 13; 13; 13; 13; 13; 13; 13; 13; 13;
   13; 13; 13; 13; 13; 13; 13; 13; 13; 13; 13; 13; 13; 13; 13; 13; 13; 13; 13; 13; 13; 13; 13; 13; 13; 13; 13; 13; 13; 13; 13; 13; 13; 13; 13; 13; 13; 13; 13; 13; 13; 13; 13; 13; 13; 13; 13; 13; 13; 13; 13; 13; 13; 13; 13; 13; 13; 13; 13; 13; 13; 0; 0; 1].
Definition block_113 : list N := [
   0; 6; 6; 6; 7; 6; 6; 6; 6; 6; 6; 7; 6; 6; 6; 6; 8; 8; 8; 8; 8; 8; 8; 8; 8; 8; 6; 6; 7; 7; 7; 6; 6; 9; 9; 9; 9; 9; 9; 9; 9; 9; 9; 9; 9; 9; 9; 9; 9; 9; 9; 9; 9; 9; 9; 9; 9; 9; 9; 6; 6; 6; 7; 6;
   7; 10; 10; 10; 10; 10; 10; 10; 10; 10; 10; 10; 10; 10; 10; 10; 10; 10; 10; 10; 10; 10; 10; 10; 10; 10; 10; 6; 7; 6; 7; 6; 6; 6; 6; 6; 6; 6; 13; 13; 13; 13; 13; 13; 13; 13; 13; 13; 13; 13; 13; 13; 13; 13; 13; 13; 13; 13; 13; 13; 13; 13; 13; 13].
Definition block_114 : list N := [
   13; 13; 13; 13; 13; 13; 13; 13; 13; 13; 13; 13; 13; 13; 13; 13; 13; 13; 13; 13; 13; 13; 13; 13; 13; 13; 13; 13; 13; 13; 233; 233; 13; 13; 13; 13; 13; 13; 13; 13; 13; 13; 13; 13; 13; 13; 13; 13; 13; 13; 13; 13; 13; 13; 13; 13; 13; 13; 13; 13; 13; 13; 13; 0;
   0; 0; 13; 13; 13; 13; 13; 13; 0; 0; 13; 13; 13; 13; 13; 13; 0; 0; 13; 13; 13; 13; 13; 13; 0; 0; 13; 13; 13; 0; 0; 0; 7; 7; 7; 7; 7; 7; 7; 0; 7; 7; 7; 7; 7; 7; 7; 0; 1; 1; 1; 1; 1; 1; 1; 1; 1; 1; 1; 1; 7; 7; 0; 0].
Definition block_115 : list N := [
   13; 13; 13; 13; 13; 13; 13; 13; 13; 13; 13; 13; 0; 13; 13; 13; 13; 13; 13; 13; 13; 13; 13; 13; 13; 13; 13; 13; 13; 13; 13; 13; 13; 13; 13; 13; 13; 13; 13; 0; 13; 13; 13; 13; 13; 13; 13; 13; 13; 13; 13; 13; 13; 13; 13; 13; 13; 13; 13; 0; 13; 13; 0; 13;
   13; 13; 13; 13; 13; 13; 13; 13; 13; 13; 13; 13; 13; 13; 0; 0; 13; 13; 13; 13; 13; 13; 13; 13; 13; 13; 13; 13; 13; 13; 0; 0; 0; 0; 0; 0; 0; 0; 0; 0; 0; 0; 0; 0; 0; 0; 0; 0; 0; 0; 0; 0; 0; 0; 0; 0; 0; 0; 0; 0; 0; 0; 0; 0].
Definition block_116 : list N := [
   6; 6; 6; 0; 0; 0; 0; 8; 8; 8; 8; 8; 8; 8; 8; 8; 8; 8; 8; 8; 8; 8; 8; 8; 8; 8; 8; 8; 8; 8; 8; 8; 8; 8; 8; 8; 8; 8; 8; 8; 8; 8; 8; 8; 8; 8; 8; 8; 8; 8; 8; 8; 0; 0; 0; 7; 7; 7; 7; 7; 7; 7; 7; 7;
   8; 8; 8; 8; 8; 8; 8; 8; 8; 8; 8; 8; 8; 8; 8; 8; 8; 8; 8; 8; 8; 8; 8; 8; 8; 8; 8; 8; 8; 8; 8; 8; 8; 8; 8; 8; 8; 8; 8; 8; 8; 8; 8; 8; 8; 8; 8; 8; 8; 8; 8; 8; 8; 8; 8; 8; 8; 7; 7; 7; 7; 7; 7; 7].
Definition block_117 : list N := [
   7; 7; 7; 7; 7; 7; 7; 7; 7; 7; 8; 8; 7; 7; 7; 0; 7; 7; 7; 7; 7; 7; 7; 7; 7; 7; 7; 7; 7; 0; 0; 0; 7; 0; 0; 0; 0; 0; 0; 0; 0; 0; 0; 0; 0; 0; 0; 0; 0; 0; 0; 0; 0; 0; 0; 0; 0; 0; 0; 0; 0; 0; 0; 0;
   0; 0; 0; 0; 0; 0; 0; 0; 0; 0; 0; 0; 0; 0; 0; 0; 7; 7; 7; 7; 7; 7; 7; 7; 7; 7; 7; 7; 7; 7; 7; 7; 7; 7; 7; 7; 7; 7; 7; 7; 7; 7; 7; 7; 7; 7; 7; 7; 7; 7; 7; 7; 7; 7; 7; 7; 7; 7; 7; 7; 7; 47; 0; 0].
Definition block_118 : list N := [
   13; 13; 13; 13; 13; 13; 13; 13; 13; 13; 13; 13; 13; 13; 13; 13; 13; 13; 13; 13; 13; 13; 13; 13; 13; 13; 13; 13; 13; 0; 0; 0; 13; 13; 13; 13; 13; 13; 13; 13; 13; 13; 13; 13; 13; 13; 13; 13; 13; 13; 13; 13; 13; 13; 13; 13; 13; 13; 13; 13; 13; 13; 13; 13;
   13; 13; 13; 13; 13; 13; 13; 13; 13; 13; 13; 13; 13; 13; 13; 13; 13; 0; 0; 0; 0; 0; 0; 0; 0; 0; 0; 0; 0; 0; 0; 0; 47; 8; 8; 8; 8; 8; 8; 8; 8; 8; 8; 8; 8; 8; 8; 8; 8; 8; 8; 8; 8; 8; 8; 8; 8; 8; 8; 8; 0; 0; 0; 0].
Definition block_119 : list N := [
   13; 13; 13; 13; 13; 13; 13; 13; 13; 13; 13; 13; 13; 13; 13; 13; 13; 13; 13; 13; 13; 13; 13; 13; 13; 13; 13; 13; 13; 13; 13; 13; 8; 8; 8; 8; 0; 0; 0; 0; 0; 0; 0; 0; 0; 13; 13; 13; 13; 13; 13; 13; 13; 13; 13; 13; 13; 13; 13; 13; 13; 13; 13; 13;
   13; 8; 13; 13; 13; 13; 13; 13; 13; 13; 8; 0; 0; 0; 0; 0; 13; 13; 13; 13; 13; 13; 13; 13; 13; 13; 13; 13; 13; 13; 13; 13; 13; 13; 13; 13; 13; 13; 13; 13; 13; 13; 13; 13; 13; 13; 13; 13; 13; 13; 13; 13; 13; 13; 47; 47; 47; 47; 47; 0; 0; 0; 0; 0].
Definition block_120 : list N := [
   13; 13; 13; 13; 13; 13; 13; 13; 13; 13; 13; 13; 13; 13; 13; 13; 13; 13; 13; 13; 13; 13; 13; 13; 13; 13; 13; 13; 13; 13; 0; 6; 13; 13; 13; 13; 13; 13; 13; 13; 13; 13; 13; 13; 13; 13; 13; 13; 13; 13; 13; 13; 13; 13; 13; 13; 13; 13; 13; 13; 13; 13; 13; 13;
   13; 13; 13; 13; 0; 0; 0; 0; 13; 13; 13; 13; 13; 13; 13; 13; 6; 8; 8; 8; 8; 8; 0; 0; 0; 0; 0; 0; 0; 0; 0; 0; 0; 0; 0; 0; 0; 0; 0; 0; 0; 0; 0; 0; 0; 0; 0; 0; 0; 0; 0; 0; 0; 0; 0; 0; 0; 0; 0; 0; 0; 0; 0; 0].
Definition block_121 : list N := [
   234; 234; 234; 234; 234; 234; 234; 234; 234; 234; 234; 234; 234; 234; 234; 234; 234; 234; 234; 234; 234; 234; 234; 234; 234; 234; 234; 234; 234; 234; 234; 234; 234; 234; 234; 234; 234; 234; 234; 234; 10; 10; 10; 10; 10; 10; 10; 10; 10; 10; 10; 10; 10; 10; 10; 10; 10; 10; 10; 10; 10; 10; 10; 10;
   10; 10; 10; 10; 10; 10; 10; 10; 10; 10; 10; 10; 10; 10; 10; 10; 13; 13; 13; 13; 13; 13; 13; 13; 13; 13; 13; 13; 13; 13; 13; 13; 13; 13; 13; 13; 13; 13; 13; 13; 13; 13; 13; 13; 13; 13; 13; 13; 13; 13; 13; 13; 13; 13; 13; 13; 13; 13; 13; 13; 13; 13; 13; 13].
Definition block_122 : list N := [
   13; 13; 13; 13; 13; 13; 13; 13; 13; 13; 13; 13; 13; 13; 13; 13; 13; 13; 13; 13; 13; 13; 13; 13; 13; 13; 13; 13; 13; 13; 0; 0; 8; 8; 8; 8; 8; 8; 8; 8; 8; 8; 0; 0; 0; 0; 0; 0; 234; 234; 234; 234; 234; 234; 234; 234; 234; 234; 234; 234; 234; 234; 234; 234;
   234; 234; 234; 234; 234; 234; 234; 234; 234; 234; 234; 234; 234; 234; 234; 234; 234; 234; 234; 234; 0; 0; 0; 0; 10; 10; 10; 10; 10; 10; 10; 10; 10; 10; 10; 10; 10; 10; 10; 10; 10; 10; 10; 10; 10; 10; 10; 10; 10; 10; 10; 10; 10; 10; 10; 10; 10; 10; 10; 10; 0; 0; 0; 0].
Definition block_123 : list N := [
   13; 13; 13; 13; 13; 13; 13; 13; 13; 13; 13; 13; 13; 13; 13; 13; 13; 13; 13; 13; 13; 13; 13; 13; 13; 13; 13; 13; 13; 13; 13; 13; 13; 13; 13; 13; 13; 13; 13; 13; 0; 0; 0; 0; 0; 0; 0; 0; 13; 13; 13; 13; 13; 13; 13; 13; 13; 13; 13; 13; 13; 13; 13; 13;
   13; 13; 13; 13; 13; 13; 13; 13; 13; 13; 13; 13; 13; 13; 13; 13; 13; 13; 13; 13; 13; 13; 13; 13; 13; 13; 13; 13; 13; 13; 13; 13; 13; 13; 13; 13; 0; 0; 0; 0; 0; 0; 0; 0; 0; 0; 0; 6; 0; 0; 0; 0; 0; 0; 0; 0; 0; 0; 0; 0; 0; 0; 0; 0].
Definition block_124 : list N := [
   13; 13; 13; 13; 13; 13; 13; 13; 13; 13; 13; 13; 13; 13; 13; 13; 13; 13; 13; 13; 13; 13; 13; 13; 13; 13; 13; 13; 13; 13; 13; 13; 13; 13; 13; 13; 13; 13; 13; 13; 13; 13; 13; 13; 13; 13; 13; 13; 13; 13; 13; 13; 13; 13; 13; 0; 0; 0; 0; 0; 0; 0; 0; 0;
   13; 13; 13; 13; 13; 13; 13; 13; 13; 13; 13; 13; 13; 13; 13; 13; 13; 13; 13; 13; 13; 13; 0; 0; 0; 0; 0; 0; 0; 0; 0; 0; 13; 13; 13; 13; 13; 13; 13; 13; 0; 0; 0; 0; 0; 0; 0; 0; 0; 0; 0; 0; 0; 0; 0; 0; 0; 0; 0; 0; 0; 0; 0; 0].
Definition block_125 : list N := [
   13; 13; 13; 13; 13; 13; 0; 0; 13; 0; 13; 13; 13; 13; 13; 13; 13; 13; 13; 13; 13; 13; 13; 13; 13; 13; 13; 13; 13; 13; 13; 13; 13; 13; 13; 13; 13; 13; 13; 13; 13; 13; 13; 13; 13; 13; 13; 13; 13; 13; 13; 13; 13; 13; 0; 13; 13; 0; 0; 0; 13; 0; 0; 13;
   13; 13; 13; 13; 13; 13; 13; 13; 13; 13; 13; 13; 13; 13; 13; 13; 13; 13; 13; 13; 13; 13; 0; 6; 8; 8; 8; 8; 8; 8; 8; 8; 13; 13; 13; 13; 13; 13; 13; 13; 13; 13; 13; 13; 13; 13; 13; 13; 13; 13; 13; 13; 13; 13; 13; 7; 7; 8; 8; 8; 8; 8; 8; 8].
Definition block_126 : list N := [
   13; 13; 13; 13; 13; 13; 13; 13; 13; 13; 13; 13; 13; 13; 13; 13; 13; 13; 13; 13; 13; 13; 13; 13; 13; 13; 13; 13; 13; 13; 13; 0; 0; 0; 0; 0; 0; 0; 0; 8; 8; 8; 8; 8; 8; 8; 8; 8; 0; 0; 0; 0; 0; 0; 0; 0; 0; 0; 0; 0; 0; 0; 0; 0;
   0; 0; 0; 0; 0; 0; 0; 0; 0; 0; 0; 0; 0; 0; 0; 0; 0; 0; 0; 0; 0; 0; 0; 0; 0; 0; 0; 0; 0; 0; 0; 0; 13; 13; 13; 13; 13; 13; 13; 13; 13; 13; 13; 13; 13; 13; 13; 13; 13; 13; 13; 0; 13; 13; 0; 0; 0; 0; 0; 8; 8; 8; 8; 8].
Definition block_127 : list N := [
   13; 13; 13; 13; 13; 13; 13; 13; 13; 13; 13; 13; 13; 13; 13; 13; 13; 13; 13; 13; 13; 13; 8; 8; 8; 8; 8; 8; 0; 0; 0; 6; 13; 13; 13; 13; 13; 13; 13; 13; 13; 13; 13; 13; 13; 13; 13; 13; 13; 13; 13; 13; 13; 13; 13; 13; 13; 13; 0; 0; 0; 0; 0; 6;
   0; 0; 0; 0; 0; 0; 0; 0; 0; 0; 0; 0; 0; 0; 0; 0; 0; 0; 0; 0; 0; 0; 0; 0; 0; 0; 0; 0; 0; 0; 0; 0; 0; 0; 0; 0; 0; 0; 0; 0; 0; 0; 0; 0; 0; 0; 0; 0; 0; 0; 0; 0; 0; 0; 0; 0; 0; 0; 0; 0; 0; 0; 0; 0].
Definition block_128 : list N := [
   13; 13; 13; 13; 13; 13; 13; 13; 13; 13; 13; 13; 13; 13; 13; 13; 13; 13; 13; 13; 13; 13; 13; 13; 13; 13; 13; 13; 13; 13; 13; 13; 13; 13; 13; 13; 13; 13; 13; 13; 13; 13; 13; 13; 13; 13; 13; 13; 13; 13; 13; 13; 13; 13; 13; 13; 0; 0; 0; 0; 8; 8; 13; 13;
   8; 8; 8; 8; 8; 8; 8; 8; 8; 8; 8; 8; 8; 8; 8; 8; 0; 0; 8; 8; 8; 8; 8; 8; 8; 8; 8; 8; 8; 8; 8; 8; 8; 8; 8; 8; 8; 8; 8; 8; 8; 8; 8; 8; 8; 8; 8; 8; 8; 8; 8; 8; 8; 8; 8; 8; 8; 8; 8; 8; 8; 8; 8; 8].
Definition block_129 : list N := [
   13; 47; 47; 47; 0; 47; 47; 0; 0; 0; 0; 0; 47; 47; 47; 47; 13; 13; 13; 13; 0; 13; 13; 13; 0; 13; 13; 13; 13; 13; 13; 13; 13; 13; 13; 13; 13; 13; 13; 13; 13; 13; 13; 13; 13; 13; 13; 13; 13; 13; 13; 13; 13; 13; 0; 0; 47; 47; 47; 0; 0; 0; 0; 47;
   8; 8; 8; 8; 8; 8; 8; 8; 8; 0; 0; 0; 0; 0; 0; 0; 6; 6; 6; 6; 6; 6; 6; 6; 6; 0; 0; 0; 0; 0; 0; 0; 13; 13; 13; 13; 13; 13; 13; 13; 13; 13; 13; 13; 13; 13; 13; 13; 13; 13; 13; 13; 13; 13; 13; 13; 13; 13; 13; 13; 13; 8; 8; 6].
Definition block_130 : list N := [
   13; 13; 13; 13; 13; 13; 13; 13; 13; 13; 13; 13; 13; 13; 13; 13; 13; 13; 13; 13; 13; 13; 13; 13; 13; 13; 13; 13; 13; 8; 8; 8; 0; 0; 0; 0; 0; 0; 0; 0; 0; 0; 0; 0; 0; 0; 0; 0; 0; 0; 0; 0; 0; 0; 0; 0; 0; 0; 0; 0; 0; 0; 0; 0;
   13; 13; 13; 13; 13; 13; 13; 13; 7; 13; 13; 13; 13; 13; 13; 13; 13; 13; 13; 13; 13; 13; 13; 13; 13; 13; 13; 13; 13; 13; 13; 13; 13; 13; 13; 13; 13; 47; 47; 0; 0; 0; 0; 8; 8; 8; 8; 8; 6; 6; 6; 6; 6; 6; 6; 0; 0; 0; 0; 0; 0; 0; 0; 0].
Definition block_131 : list N := [
   13; 13; 13; 13; 13; 13; 13; 13; 13; 13; 13; 13; 13; 13; 13; 13; 13; 13; 13; 13; 13; 13; 13; 13; 13; 13; 13; 13; 13; 13; 13; 13; 13; 13; 13; 13; 13; 13; 13; 13; 13; 13; 13; 13; 13; 13; 13; 13; 13; 13; 13; 13; 13; 13; 0; 0; 0; 6; 6; 6; 6; 6; 6; 6;
   13; 13; 13; 13; 13; 13; 13; 13; 13; 13; 13; 13; 13; 13; 13; 13; 13; 13; 13; 13; 13; 13; 0; 0; 8; 8; 8; 8; 8; 8; 8; 8; 13; 13; 13; 13; 13; 13; 13; 13; 13; 13; 13; 13; 13; 13; 13; 13; 13; 13; 13; 0; 0; 0; 0; 0; 8; 8; 8; 8; 8; 8; 8; 8].
Definition block_132 : list N := [
   13; 13; 13; 13; 13; 13; 13; 13; 13; 13; 13; 13; 13; 13; 13; 13; 13; 13; 0; 0; 0; 0; 0; 0; 0; 6; 6; 6; 6; 0; 0; 0; 0; 0; 0; 0; 0; 0; 0; 0; 0; 8; 8; 8; 8; 8; 8; 8; 0; 0; 0; 0; 0; 0; 0; 0; 0; 0; 0; 0; 0; 0; 0; 0;
   0; 0; 0; 0; 0; 0; 0; 0; 0; 0; 0; 0; 0; 0; 0; 0; 0; 0; 0; 0; 0; 0; 0; 0; 0; 0; 0; 0; 0; 0; 0; 0; 0; 0; 0; 0; 0; 0; 0; 0; 0; 0; 0; 0; 0; 0; 0; 0; 0; 0; 0; 0; 0; 0; 0; 0; 0; 0; 0; 0; 0; 0; 0; 0].
Definition block_133 : list N := [
   52; 52; 52; 52; 52; 52; 52; 52; 52; 52; 52; 52; 52; 52; 52; 52; 52; 52; 52; 52; 52; 52; 52; 52; 52; 52; 52; 52; 52; 52; 52; 52; 52; 52; 52; 52; 52; 52; 52; 52; 52; 52; 52; 52; 52; 52; 52; 52; 52; 52; 52; 0; 0; 0; 0; 0; 0; 0; 0; 0; 0; 0; 0; 0;
   10; 10; 10; 10; 10; 10; 10; 10; 10; 10; 10; 10; 10; 10; 10; 10; 10; 10; 10; 10; 10; 10; 10; 10; 10; 10; 10; 10; 10; 10; 10; 10; 10; 10; 10; 10; 10; 10; 10; 10; 10; 10; 10; 10; 10; 10; 10; 10; 10; 10; 10; 0; 0; 0; 0; 0; 0; 0; 8; 8; 8; 8; 8; 8].
Definition block_134 : list N := [
   13; 13; 13; 13; 13; 13; 13; 13; 13; 13; 13; 13; 13; 13; 13; 13; 13; 13; 13; 13; 13; 13; 13; 13; 13; 13; 13; 13; 13; 13; 13; 13; 13; 13; 13; 13; 47; 47; 47; 47; 0; 0; 0; 0; 0; 0; 0; 0; 8; 8; 8; 8; 8; 8; 8; 8; 8; 8; 0; 0; 0; 0; 0; 0;
   0; 0; 0; 0; 0; 0; 0; 0; 0; 0; 0; 0; 0; 0; 0; 0; 0; 0; 0; 0; 0; 0; 0; 0; 0; 0; 0; 0; 0; 0; 0; 0; 0; 0; 0; 0; 0; 0; 0; 0; 0; 0; 0; 0; 0; 0; 0; 0; 0; 0; 0; 0; 0; 0; 0; 0; 0; 0; 0; 0; 0; 0; 0; 0].
Definition block_135 : list N := [
   13; 13; 13; 13; 13; 13; 13; 13; 13; 13; 13; 13; 13; 13; 13; 13; 13; 13; 13; 13; 13; 13; 13; 13; 13; 13; 13; 13; 13; 13; 13; 13; 13; 13; 13; 13; 13; 13; 13; 13; 13; 13; 0; 47; 47; 6; 0; 0; 13; 13; 0; 0; 0; 0; 0; 0; 0; 0; 0; 0; 0; 0; 0; 0;
   0; 0; 0; 0; 0; 0; 0; 0; 0; 0; 0; 0; 0; 0; 0; 0; 0; 0; 0; 0; 0; 0; 0; 0; 0; 0; 0; 0; 0; 0; 0; 0; 0; 0; 0; 0; 0; 0; 0; 0; 0; 0; 0; 0; 0; 0; 0; 0; 0; 0; 0; 0; 0; 0; 0; 0; 0; 0; 0; 0; 0; 0; 0; 0].
Definition block_136 : list N := [
   13; 13; 13; 13; 13; 13; 13; 13; 13; 13; 13; 13; 13; 13; 13; 13; 13; 13; 13; 13; 13; 13; 13; 13; 13; 13; 13; 13; 13; 8; 8; 8; 8; 8; 8; 8; 8; 8; 8; 13; 0; 0; 0; 0; 0; 0; 0; 0; 13; 13; 13; 13; 13; 13; 13; 13; 13; 13; 13; 13; 13; 13; 13; 13;
   13; 13; 13; 13; 13; 13; 47; 47; 47; 47; 47; 47; 47; 47; 47; 47; 47; 8; 8; 8; 8; 6; 6; 6; 6; 6; 0; 0; 0; 0; 0; 0; 0; 0; 0; 0; 0; 0; 0; 0; 0; 0; 0; 0; 0; 0; 0; 0; 0; 0; 0; 0; 0; 0; 0; 0; 0; 0; 0; 0; 0; 0; 0; 0].
Definition block_137 : list N := [
   0; 0; 0; 0; 0; 0; 0; 0; 0; 0; 0; 0; 0; 0; 0; 0; 0; 0; 0; 0; 0; 0; 0; 0; 0; 0; 0; 0; 0; 0; 0; 0; 0; 0; 0; 0; 0; 0; 0; 0; 0; 0; 0; 0; 0; 0; 0; 0; 13; 13; 13; 13; 13; 13; 13; 13; 13; 13; 13; 13; 13; 13; 13; 13;
   13; 13; 13; 13; 13; 8; 8; 8; 8; 8; 8; 8; 0; 0; 0; 0; 0; 0; 0; 0; 0; 0; 0; 0; 0; 0; 0; 0; 0; 0; 0; 0; 13; 13; 13; 13; 13; 13; 13; 13; 13; 13; 13; 13; 13; 13; 13; 13; 13; 13; 13; 13; 13; 13; 13; 0; 0; 0; 0; 0; 0; 0; 0; 0].
Definition block_138 : list N := [
   73; 47; 73; 13; 13; 13; 13; 13; 13; 13; 13; 13; 13; 13; 13; 13; 13; 13; 13; 13; 13; 13; 13; 13; 13; 13; 13; 13; 13; 13; 13; 13; 13; 13; 13; 13; 13; 13; 13; 13; 13; 13; 13; 13; 13; 13; 13; 13; 13; 13; 13; 13; 13; 13; 13; 13; 47; 47; 47; 47; 47; 47; 47; 47;
   47; 47; 47; 47; 47; 47; 47; 6; 6; 6; 6; 6; 6; 6; 0; 0; 0; 0; 8; 8; 8; 8; 8; 8; 8; 8; 8; 8; 8; 8; 8; 8; 8; 8; 8; 8; 8; 8; 8; 8; 8; 8; 8; 8; 8; 8; 8; 8; 0; 0; 0; 0; 0; 0; 0; 0; 0; 0; 0; 0; 0; 0; 0; 47].
Definition block_139 : list N := [
   47; 47; 73; 13; 13; 13; 13; 13; 13; 13; 13; 13; 13; 13; 13; 13; 13; 13; 13; 13; 13; 13; 13; 13; 13; 13; 13; 13; 13; 13; 13; 13; 13; 13; 13; 13; 13; 13; 13; 13; 13; 13; 13; 13; 13; 13; 13; 13; 73; 73; 73; 47; 47; 47; 47; 73; 73; 47; 47; 6; 6; 72; 6; 6;
   6; 6; 0; 0; 0; 0; 0; 0; 0; 0; 0; 0; 0; 72; 0; 0; 13; 13; 13; 13; 13; 13; 13; 13; 13; 13; 13; 13; 13; 13; 13; 13; 13; 13; 13; 13; 13; 13; 13; 13; 13; 0; 0; 0; 0; 0; 0; 0; 8; 8; 8; 8; 8; 8; 8; 8; 8; 8; 0; 0; 0; 0; 0; 0].
Definition block_140 : list N := [
   47; 47; 47; 13; 13; 13; 13; 13; 13; 13; 13; 13; 13; 13; 13; 13; 13; 13; 13; 13; 13; 13; 13; 13; 13; 13; 13; 13; 13; 13; 13; 13; 13; 13; 13; 13; 13; 13; 13; 47; 47; 47; 47; 47; 73; 47; 47; 47; 47; 47; 47; 47; 47; 0; 8; 8; 8; 8; 8; 8; 8; 8; 8; 8;
   6; 6; 6; 6; 13; 73; 73; 13; 0; 0; 0; 0; 0; 0; 0; 0; 13; 13; 13; 13; 13; 13; 13; 13; 13; 13; 13; 13; 13; 13; 13; 13; 13; 13; 13; 13; 13; 13; 13; 13; 13; 13; 13; 13; 13; 13; 13; 13; 13; 13; 13; 47; 6; 6; 13; 0; 0; 0; 0; 0; 0; 0; 0; 0].
Definition block_141 : list N := [
   47; 47; 73; 13; 13; 13; 13; 13; 13; 13; 13; 13; 13; 13; 13; 13; 13; 13; 13; 13; 13; 13; 13; 13; 13; 13; 13; 13; 13; 13; 13; 13; 13; 13; 13; 13; 13; 13; 13; 13; 13; 13; 13; 13; 13; 13; 13; 13; 13; 13; 13; 73; 73; 73; 47; 47; 47; 47; 47; 47; 47; 47; 47; 73;
   73; 13; 74; 74; 13; 6; 6; 6; 6; 47; 47; 47; 47; 6; 73; 47; 8; 8; 8; 8; 8; 8; 8; 8; 8; 8; 13; 6; 13; 6; 6; 6; 0; 8; 8; 8; 8; 8; 8; 8; 8; 8; 8; 8; 8; 8; 8; 8; 8; 8; 8; 8; 8; 0; 0; 0; 0; 0; 0; 0; 0; 0; 0; 0].
Definition block_142 : list N := [
   13; 13; 13; 13; 13; 13; 13; 13; 13; 13; 13; 13; 13; 13; 13; 13; 13; 13; 0; 13; 13; 13; 13; 13; 13; 13; 13; 13; 13; 13; 13; 13; 13; 13; 13; 13; 13; 13; 13; 13; 13; 13; 13; 13; 73; 73; 73; 47; 47; 47; 73; 73; 47; 73; 47; 47; 6; 6; 6; 6; 6; 6; 47; 0;
   0; 0; 0; 0; 0; 0; 0; 0; 0; 0; 0; 0; 0; 0; 0; 0; 0; 0; 0; 0; 0; 0; 0; 0; 0; 0; 0; 0; 0; 0; 0; 0; 0; 0; 0; 0; 0; 0; 0; 0; 0; 0; 0; 0; 0; 0; 0; 0; 0; 0; 0; 0; 0; 0; 0; 0; 0; 0; 0; 0; 0; 0; 0; 0].
Definition block_143 : list N := [
   13; 13; 13; 13; 13; 13; 13; 0; 13; 0; 13; 13; 13; 13; 0; 13; 13; 13; 13; 13; 13; 13; 13; 13; 13; 13; 13; 13; 13; 13; 0; 13; 13; 13; 13; 13; 13; 13; 13; 13; 13; 6; 0; 0; 0; 0; 0; 0; 13; 13; 13; 13; 13; 13; 13; 13; 13; 13; 13; 13; 13; 13; 13; 13;
   13; 13; 13; 13; 13; 13; 13; 13; 13; 13; 13; 13; 13; 13; 13; 13; 13; 13; 13; 13; 13; 13; 13; 13; 13; 13; 13; 13; 13; 13; 13; 47; 73; 73; 73; 47; 47; 47; 47; 47; 47; 47; 47; 0; 0; 0; 0; 0; 8; 8; 8; 8; 8; 8; 8; 8; 8; 8; 0; 0; 0; 0; 0; 0].
Definition block_144 : list N := [
   47; 47; 73; 73; 0; 13; 13; 13; 13; 13; 13; 13; 13; 0; 0; 13; 13; 0; 0; 13; 13; 13; 13; 13; 13; 13; 13; 13; 13; 13; 13; 13; 13; 13; 13; 13; 13; 13; 13; 13; 13; 0; 13; 13; 13; 13; 13; 13; 13; 0; 13; 13; 0; 13; 13; 13; 13; 13; 0; 47; 47; 13; 47; 73;
   47; 73; 73; 73; 73; 0; 0; 73; 73; 0; 0; 73; 73; 73; 0; 0; 13; 0; 0; 0; 0; 0; 0; 47; 0; 0; 0; 0; 0; 13; 13; 13; 13; 13; 73; 73; 0; 0; 47; 47; 47; 47; 47; 47; 47; 0; 0; 0; 47; 47; 47; 47; 47; 0; 0; 0; 0; 0; 0; 0; 0; 0; 0; 0].
Definition block_145 : list N := [
   13; 13; 13; 13; 13; 13; 13; 13; 13; 13; 13; 13; 13; 13; 13; 13; 13; 13; 13; 13; 13; 13; 13; 13; 13; 13; 13; 13; 13; 13; 13; 13; 13; 13; 13; 13; 13; 13; 13; 13; 13; 13; 13; 13; 13; 13; 13; 13; 13; 13; 13; 13; 13; 73; 73; 73; 47; 47; 47; 47; 47; 47; 47; 47;
   73; 73; 47; 47; 47; 73; 47; 13; 13; 13; 13; 6; 6; 6; 6; 6; 8; 8; 8; 8; 8; 8; 8; 8; 8; 8; 6; 6; 0; 6; 47; 13; 13; 13; 0; 0; 0; 0; 0; 0; 0; 0; 0; 0; 0; 0; 0; 0; 0; 0; 0; 0; 0; 0; 0; 0; 0; 0; 0; 0; 0; 0; 0; 0].
Definition block_146 : list N := [
   13; 13; 13; 13; 13; 13; 13; 13; 13; 13; 13; 13; 13; 13; 13; 13; 13; 13; 13; 13; 13; 13; 13; 13; 13; 13; 13; 13; 13; 13; 13; 13; 13; 13; 13; 13; 13; 13; 13; 13; 13; 13; 13; 13; 13; 13; 13; 13; 47; 73; 73; 47; 47; 47; 47; 47; 47; 73; 47; 73; 73; 47; 73; 47;
   47; 73; 47; 47; 13; 13; 6; 13; 0; 0; 0; 0; 0; 0; 0; 0; 8; 8; 8; 8; 8; 8; 8; 8; 8; 8; 0; 0; 0; 0; 0; 0; 0; 0; 0; 0; 0; 0; 0; 0; 0; 0; 0; 0; 0; 0; 0; 0; 0; 0; 0; 0; 0; 0; 0; 0; 0; 0; 0; 0; 0; 0; 0; 0].
Definition block_147 : list N := [
   13; 13; 13; 13; 13; 13; 13; 13; 13; 13; 13; 13; 13; 13; 13; 13; 13; 13; 13; 13; 13; 13; 13; 13; 13; 13; 13; 13; 13; 13; 13; 13; 13; 13; 13; 13; 13; 13; 13; 13; 13; 13; 13; 13; 13; 13; 13; 47; 73; 73; 47; 47; 47; 47; 0; 0; 73; 73; 73; 73; 47; 47; 73; 47;
   47; 6; 6; 6; 6; 6; 6; 6; 6; 6; 6; 6; 6; 6; 6; 6; 6; 6; 6; 6; 6; 6; 6; 6; 13; 13; 13; 13; 47; 47; 0; 0; 0; 0; 0; 0; 0; 0; 0; 0; 0; 0; 0; 0; 0; 0; 0; 0; 0; 0; 0; 0; 0; 0; 0; 0; 0; 0; 0; 0; 0; 0; 0; 0].
Definition block_148 : list N := [
   13; 13; 13; 13; 13; 13; 13; 13; 13; 13; 13; 13; 13; 13; 13; 13; 13; 13; 13; 13; 13; 13; 13; 13; 13; 13; 13; 13; 13; 13; 13; 13; 13; 13; 13; 13; 13; 13; 13; 13; 13; 13; 13; 13; 13; 13; 13; 13; 73; 73; 73; 47; 47; 47; 47; 47; 47; 47; 47; 73; 73; 47; 73; 47;
   47; 6; 6; 6; 13; 0; 0; 0; 0; 0; 0; 0; 0; 0; 0; 0; 8; 8; 8; 8; 8; 8; 8; 8; 8; 8; 0; 0; 0; 0; 0; 0; 6; 6; 6; 6; 6; 6; 6; 6; 6; 6; 6; 6; 6; 0; 0; 0; 0; 0; 0; 0; 0; 0; 0; 0; 0; 0; 0; 0; 0; 0; 0; 0].
Definition block_149 : list N := [
   13; 13; 13; 13; 13; 13; 13; 13; 13; 13; 13; 13; 13; 13; 13; 13; 13; 13; 13; 13; 13; 13; 13; 13; 13; 13; 13; 13; 13; 13; 13; 13; 13; 13; 13; 13; 13; 13; 13; 13; 13; 13; 13; 47; 73; 47; 73; 73; 47; 47; 47; 47; 47; 47; 73; 47; 13; 0; 0; 0; 0; 0; 0; 0;
   8; 8; 8; 8; 8; 8; 8; 8; 8; 8; 0; 0; 0; 0; 0; 0; 0; 0; 0; 0; 0; 0; 0; 0; 0; 0; 0; 0; 0; 0; 0; 0; 0; 0; 0; 0; 0; 0; 0; 0; 0; 0; 0; 0; 0; 0; 0; 0; 0; 0; 0; 0; 0; 0; 0; 0; 0; 0; 0; 0; 0; 0; 0; 0].
Definition block_150 : list N := [
   13; 13; 13; 13; 13; 13; 13; 13; 13; 13; 13; 13; 13; 13; 13; 13; 13; 13; 13; 13; 13; 13; 13; 13; 13; 13; 13; 0; 0; 47; 47; 47; 73; 73; 47; 47; 47; 47; 73; 47; 47; 47; 47; 47; 0; 0; 0; 0; 8; 8; 8; 8; 8; 8; 8; 8; 8; 8; 8; 8; 6; 6; 6; 7;
   0; 0; 0; 0; 0; 0; 0; 0; 0; 0; 0; 0; 0; 0; 0; 0; 0; 0; 0; 0; 0; 0; 0; 0; 0; 0; 0; 0; 0; 0; 0; 0; 0; 0; 0; 0; 0; 0; 0; 0; 0; 0; 0; 0; 0; 0; 0; 0; 0; 0; 0; 0; 0; 0; 0; 0; 0; 0; 0; 0; 0; 0; 0; 0].
Definition block_151 : list N := [
   13; 13; 13; 13; 13; 13; 13; 13; 13; 13; 13; 13; 13; 13; 13; 13; 13; 13; 13; 13; 13; 13; 13; 13; 13; 13; 13; 13; 13; 13; 13; 13; 13; 13; 13; 13; 13; 13; 13; 13; 13; 13; 13; 13; 73; 73; 73; 47; 47; 47; 47; 47; 47; 47; 47; 47; 73; 47; 47; 6; 0; 0; 0; 0;
   0; 0; 0; 0; 0; 0; 0; 0; 0; 0; 0; 0; 0; 0; 0; 0; 0; 0; 0; 0; 0; 0; 0; 0; 0; 0; 0; 0; 0; 0; 0; 0; 0; 0; 0; 0; 0; 0; 0; 0; 0; 0; 0; 0; 0; 0; 0; 0; 0; 0; 0; 0; 0; 0; 0; 0; 0; 0; 0; 0; 0; 0; 0; 0].
Definition block_152 : list N := [
   0; 0; 0; 0; 0; 0; 0; 0; 0; 0; 0; 0; 0; 0; 0; 0; 0; 0; 0; 0; 0; 0; 0; 0; 0; 0; 0; 0; 0; 0; 0; 0; 9; 9; 9; 9; 9; 9; 9; 9; 9; 9; 9; 9; 9; 9; 9; 9; 9; 9; 9; 9; 9; 9; 9; 9; 9; 9; 9; 9; 9; 9; 9; 9;
   10; 10; 10; 10; 10; 10; 10; 10; 10; 10; 10; 10; 10; 10; 10; 10; 10; 10; 10; 10; 10; 10; 10; 10; 10; 10; 10; 10; 10; 10; 10; 10; 8; 8; 8; 8; 8; 8; 8; 8; 8; 8; 8; 8; 8; 8; 8; 8; 8; 8; 8; 0; 0; 0; 0; 0; 0; 0; 0; 0; 0; 0; 0; 13].
Definition block_153 : list N := [
   13; 13; 13; 13; 13; 13; 13; 0; 0; 13; 0; 0; 13; 13; 13; 13; 13; 13; 13; 13; 0; 13; 13; 0; 13; 13; 13; 13; 13; 13; 13; 13; 13; 13; 13; 13; 13; 13; 13; 13; 13; 13; 13; 13; 13; 13; 13; 13; 47; 73; 73; 73; 73; 73; 0; 73; 73; 0; 0; 47; 47; 73; 47; 74;
   73; 74; 73; 47; 6; 6; 6; 0; 0; 0; 0; 0; 0; 0; 0; 0; 8; 8; 8; 8; 8; 8; 8; 8; 8; 8; 0; 0; 0; 0; 0; 0; 0; 0; 0; 0; 0; 0; 0; 0; 0; 0; 0; 0; 0; 0; 0; 0; 0; 0; 0; 0; 0; 0; 0; 0; 0; 0; 0; 0; 0; 0; 0; 0].
Definition block_154 : list N := [
   0; 0; 0; 0; 0; 0; 0; 0; 0; 0; 0; 0; 0; 0; 0; 0; 0; 0; 0; 0; 0; 0; 0; 0; 0; 0; 0; 0; 0; 0; 0; 0; 13; 13; 13; 13; 13; 13; 13; 13; 0; 0; 13; 13; 13; 13; 13; 13; 13; 13; 13; 13; 13; 13; 13; 13; 13; 13; 13; 13; 13; 13; 13; 13;
   13; 13; 13; 13; 13; 13; 13; 13; 13; 13; 13; 13; 13; 13; 13; 13; 13; 73; 73; 73; 47; 47; 47; 47; 0; 0; 47; 47; 73; 73; 73; 73; 47; 13; 6; 13; 73; 0; 0; 0; 0; 0; 0; 0; 0; 0; 0; 0; 0; 0; 0; 0; 0; 0; 0; 0; 0; 0; 0; 0; 0; 0; 0; 0].
Definition block_155 : list N := [
   13; 47; 47; 47; 47; 47; 47; 47; 47; 47; 47; 13; 13; 13; 13; 13; 13; 13; 13; 13; 13; 13; 13; 13; 13; 13; 13; 13; 13; 13; 13; 13; 13; 13; 13; 13; 13; 13; 13; 13; 13; 13; 13; 13; 13; 13; 13; 13; 13; 13; 13; 47; 47; 47; 47; 47; 47; 73; 74; 47; 47; 47; 47; 6;
   6; 6; 6; 6; 6; 6; 6; 47; 0; 0; 0; 0; 0; 0; 0; 0; 13; 47; 47; 47; 47; 47; 47; 73; 73; 47; 47; 47; 13; 13; 13; 13; 13; 13; 13; 13; 13; 13; 13; 13; 13; 13; 13; 13; 13; 13; 13; 13; 13; 13; 13; 13; 13; 13; 13; 13; 13; 13; 13; 13; 13; 13; 13; 13].
Definition block_156 : list N := [
   13; 13; 13; 13; 74; 74; 74; 74; 74; 74; 47; 47; 47; 47; 47; 47; 47; 47; 47; 47; 47; 47; 47; 73; 47; 47; 6; 6; 6; 13; 6; 6; 6; 6; 6; 0; 0; 0; 0; 0; 0; 0; 0; 0; 0; 0; 0; 0; 0; 0; 0; 0; 0; 0; 0; 0; 0; 0; 0; 0; 0; 0; 0; 0;
   13; 13; 13; 13; 13; 13; 13; 13; 13; 13; 13; 13; 13; 13; 13; 13; 13; 13; 13; 13; 13; 13; 13; 13; 13; 13; 13; 13; 13; 13; 13; 13; 13; 13; 13; 13; 13; 13; 13; 13; 13; 13; 13; 13; 13; 13; 13; 13; 13; 13; 13; 13; 13; 13; 13; 13; 13; 0; 0; 0; 0; 0; 0; 0].
Definition block_157 : list N := [
   13; 13; 13; 13; 13; 13; 13; 13; 13; 0; 13; 13; 13; 13; 13; 13; 13; 13; 13; 13; 13; 13; 13; 13; 13; 13; 13; 13; 13; 13; 13; 13; 13; 13; 13; 13; 13; 13; 13; 13; 13; 13; 13; 13; 13; 13; 13; 73; 47; 47; 47; 47; 47; 47; 47; 0; 47; 47; 47; 47; 47; 47; 73; 47;
   13; 6; 6; 6; 6; 6; 0; 0; 0; 0; 0; 0; 0; 0; 0; 0; 8; 8; 8; 8; 8; 8; 8; 8; 8; 8; 8; 8; 8; 8; 8; 8; 8; 8; 8; 8; 8; 8; 8; 8; 8; 8; 8; 8; 8; 0; 0; 0; 6; 6; 13; 13; 13; 13; 13; 13; 13; 13; 13; 13; 13; 13; 13; 13].
Definition block_158 : list N := [
   13; 13; 13; 13; 13; 13; 13; 13; 13; 13; 13; 13; 13; 13; 13; 13; 0; 0; 47; 47; 47; 47; 47; 47; 47; 47; 47; 47; 47; 47; 47; 47; 47; 47; 47; 47; 47; 47; 47; 47; 0; 73; 47; 47; 47; 47; 47; 47; 47; 73; 47; 47; 73; 47; 47; 0; 0; 0; 0; 0; 0; 0; 0; 0;
   0; 0; 0; 0; 0; 0; 0; 0; 0; 0; 0; 0; 0; 0; 0; 0; 0; 0; 0; 0; 0; 0; 0; 0; 0; 0; 0; 0; 0; 0; 0; 0; 0; 0; 0; 0; 0; 0; 0; 0; 0; 0; 0; 0; 0; 0; 0; 0; 0; 0; 0; 0; 0; 0; 0; 0; 0; 0; 0; 0; 0; 0; 0; 0].
Definition block_159 : list N := [
   13; 13; 13; 13; 13; 13; 13; 0; 13; 13; 0; 13; 13; 13; 13; 13; 13; 13; 13; 13; 13; 13; 13; 13; 13; 13; 13; 13; 13; 13; 13; 13; 13; 13; 13; 13; 13; 13; 13; 13; 13; 13; 13; 13; 13; 13; 13; 13; 13; 47; 47; 47; 47; 47; 47; 0; 0; 0; 47; 0; 47; 47; 0; 47;
   47; 47; 47; 47; 47; 47; 74; 47; 0; 0; 0; 0; 0; 0; 0; 0; 8; 8; 8; 8; 8; 8; 8; 8; 8; 8; 0; 0; 0; 0; 0; 0; 13; 13; 13; 13; 13; 13; 0; 13; 13; 0; 13; 13; 13; 13; 13; 13; 13; 13; 13; 13; 13; 13; 13; 13; 13; 13; 13; 13; 13; 13; 13; 13].
Definition block_160 : list N := [
   13; 13; 13; 13; 13; 13; 13; 13; 13; 13; 73; 73; 73; 73; 73; 0; 47; 47; 0; 73; 73; 47; 73; 47; 13; 0; 0; 0; 0; 0; 0; 0; 8; 8; 8; 8; 8; 8; 8; 8; 8; 8; 0; 0; 0; 0; 0; 0; 0; 0; 0; 0; 0; 0; 0; 0; 0; 0; 0; 0; 0; 0; 0; 0;
   0; 0; 0; 0; 0; 0; 0; 0; 0; 0; 0; 0; 0; 0; 0; 0; 0; 0; 0; 0; 0; 0; 0; 0; 0; 0; 0; 0; 0; 0; 0; 0; 0; 0; 0; 0; 0; 0; 0; 0; 0; 0; 0; 0; 0; 0; 0; 0; 0; 0; 0; 0; 0; 0; 0; 0; 0; 0; 0; 0; 0; 0; 0; 0].
Definition block_161 : list N := [
   0; 0; 0; 0; 0; 0; 0; 0; 0; 0; 0; 0; 0; 0; 0; 0; 0; 0; 0; 0; 0; 0; 0; 0; 0; 0; 0; 0; 0; 0; 0; 0; 0; 0; 0; 0; 0; 0; 0; 0; 0; 0; 0; 0; 0; 0; 0; 0; 0; 0; 0; 0; 0; 0; 0; 0; 0; 0; 0; 0; 0; 0; 0; 0;
   0; 0; 0; 0; 0; 0; 0; 0; 0; 0; 0; 0; 0; 0; 0; 0; 0; 0; 0; 0; 0; 0; 0; 0; 0; 0; 0; 0; 0; 0; 0; 0; 13; 13; 13; 13; 13; 13; 13; 13; 13; 13; 13; 13; 13; 13; 13; 13; 13; 13; 13; 47; 47; 73; 73; 6; 6; 0; 0; 0; 0; 0; 0; 0].
Definition block_162 : list N := [
   0; 0; 0; 0; 0; 0; 0; 0; 0; 0; 0; 0; 0; 0; 0; 0; 0; 0; 0; 0; 0; 0; 0; 0; 0; 0; 0; 0; 0; 0; 0; 0; 0; 0; 0; 0; 0; 0; 0; 0; 0; 0; 0; 0; 0; 0; 0; 0; 13; 0; 0; 0; 0; 0; 0; 0; 0; 0; 0; 0; 0; 0; 0; 0;
   8; 8; 8; 8; 8; 8; 8; 8; 8; 8; 8; 8; 8; 8; 8; 8; 8; 8; 8; 8; 8; 7; 7; 7; 7; 7; 7; 7; 7; 7; 7; 7; 7; 7; 7; 7; 7; 7; 7; 7; 7; 7; 7; 7; 7; 7; 7; 7; 7; 7; 0; 0; 0; 0; 0; 0; 0; 0; 0; 0; 0; 0; 0; 6].
Definition block_163 : list N := [
   8; 8; 8; 8; 8; 8; 8; 8; 8; 8; 8; 8; 8; 8; 8; 8; 8; 8; 8; 8; 8; 8; 8; 8; 8; 8; 8; 8; 8; 8; 8; 8; 8; 8; 8; 8; 8; 8; 8; 8; 8; 8; 8; 8; 8; 8; 8; 8; 8; 8; 8; 8; 8; 8; 8; 8; 8; 8; 8; 8; 8; 8; 8; 8;
   8; 8; 8; 8; 8; 8; 8; 8; 8; 8; 8; 8; 8; 8; 8; 8; 8; 8; 8; 8; 8; 8; 8; 8; 8; 8; 8; 8; 8; 8; 8; 8; 8; 8; 8; 8; 8; 8; 8; 8; 8; 8; 8; 8; 8; 8; 8; 0; 6; 6; 6; 6; 6; 0; 0; 0; 0; 0; 0; 0; 0; 0; 0; 0].
Definition block_164 : list N := [
   13; 13; 13; 13; 13; 13; 13; 13; 13; 13; 13; 13; 13; 13; 13; 13; 13; 13; 13; 13; 13; 13; 13; 13; 13; 13; 13; 13; 13; 13; 13; 13; 13; 13; 13; 13; 13; 13; 13; 13; 13; 13; 13; 13; 13; 13; 13; 0; 1; 1; 1; 1; 1; 1; 1; 1; 1; 0; 0; 0; 0; 0; 0; 0;
   0; 0; 0; 0; 0; 0; 0; 0; 0; 0; 0; 0; 0; 0; 0; 0; 0; 0; 0; 0; 0; 0; 0; 0; 0; 0; 0; 0; 0; 0; 0; 0; 0; 0; 0; 0; 0; 0; 0; 0; 0; 0; 0; 0; 0; 0; 0; 0; 0; 0; 0; 0; 0; 0; 0; 0; 0; 0; 0; 0; 0; 0; 0; 0].
Definition block_165 : list N := [
   13; 13; 13; 13; 13; 13; 13; 13; 13; 13; 13; 13; 13; 13; 13; 13; 13; 13; 13; 13; 13; 13; 13; 13; 13; 13; 13; 13; 13; 13; 13; 13; 13; 13; 13; 13; 13; 13; 13; 13; 13; 13; 13; 13; 13; 13; 13; 13; 13; 13; 13; 13; 13; 13; 13; 13; 13; 0; 0; 0; 0; 0; 0; 0;
   13; 13; 13; 13; 13; 13; 13; 13; 13; 13; 13; 13; 13; 13; 13; 13; 13; 13; 13; 13; 13; 13; 13; 13; 13; 13; 13; 13; 13; 13; 13; 0; 8; 8; 8; 8; 8; 8; 8; 8; 8; 8; 0; 0; 0; 0; 6; 6; 0; 0; 0; 0; 0; 0; 0; 0; 0; 0; 0; 0; 0; 0; 0; 0].
Definition block_166 : list N := [
   0; 0; 0; 0; 0; 0; 0; 0; 0; 0; 0; 0; 0; 0; 0; 0; 0; 0; 0; 0; 0; 0; 0; 0; 0; 0; 0; 0; 0; 0; 0; 0; 0; 0; 0; 0; 0; 0; 0; 0; 0; 0; 0; 0; 0; 0; 0; 0; 0; 0; 0; 0; 0; 0; 0; 0; 0; 0; 0; 0; 0; 0; 0; 0;
   0; 0; 0; 0; 0; 0; 0; 0; 0; 0; 0; 0; 0; 0; 0; 0; 13; 13; 13; 13; 13; 13; 13; 13; 13; 13; 13; 13; 13; 13; 13; 13; 13; 13; 13; 13; 13; 13; 13; 13; 13; 13; 13; 13; 13; 13; 0; 0; 47; 47; 47; 47; 47; 6; 0; 0; 0; 0; 0; 0; 0; 0; 0; 0].
Definition block_167 : list N := [
   13; 13; 13; 13; 13; 13; 13; 13; 13; 13; 13; 13; 13; 13; 13; 13; 13; 13; 13; 13; 13; 13; 13; 13; 13; 13; 13; 13; 13; 13; 13; 13; 13; 13; 13; 13; 13; 13; 13; 13; 13; 13; 13; 13; 13; 13; 13; 13; 47; 47; 47; 47; 47; 47; 47; 6; 6; 6; 6; 6; 7; 7; 7; 7;
   13; 13; 13; 13; 6; 7; 0; 0; 0; 0; 0; 0; 0; 0; 0; 0; 8; 8; 8; 8; 8; 8; 8; 8; 8; 8; 0; 8; 8; 8; 8; 8; 8; 8; 0; 13; 13; 13; 13; 13; 13; 13; 13; 13; 13; 13; 13; 13; 13; 13; 13; 13; 13; 13; 13; 13; 0; 0; 0; 0; 0; 13; 13; 13].
Definition block_168 : list N := [
   0; 0; 0; 0; 0; 0; 0; 0; 0; 0; 0; 0; 0; 0; 0; 0; 0; 0; 0; 0; 0; 0; 0; 0; 0; 0; 0; 0; 0; 0; 0; 0; 0; 0; 0; 0; 0; 0; 0; 0; 0; 0; 0; 0; 0; 0; 0; 0; 0; 0; 0; 0; 0; 0; 0; 0; 0; 0; 0; 0; 0; 0; 0; 0;
   9; 9; 9; 9; 9; 9; 9; 9; 9; 9; 9; 9; 9; 9; 9; 9; 9; 9; 9; 9; 9; 9; 9; 9; 9; 9; 9; 9; 9; 9; 9; 9; 10; 10; 10; 10; 10; 10; 10; 10; 10; 10; 10; 10; 10; 10; 10; 10; 10; 10; 10; 10; 10; 10; 10; 10; 10; 10; 10; 10; 10; 10; 10; 10].
Definition block_169 : list N := [
   8; 8; 8; 8; 8; 8; 8; 8; 8; 8; 8; 8; 8; 8; 8; 8; 8; 8; 8; 8; 8; 8; 8; 6; 6; 6; 6; 0; 0; 0; 0; 0; 0; 0; 0; 0; 0; 0; 0; 0; 0; 0; 0; 0; 0; 0; 0; 0; 0; 0; 0; 0; 0; 0; 0; 0; 0; 0; 0; 0; 0; 0; 0; 0;
   0; 0; 0; 0; 0; 0; 0; 0; 0; 0; 0; 0; 0; 0; 0; 0; 0; 0; 0; 0; 0; 0; 0; 0; 0; 0; 0; 0; 0; 0; 0; 0; 0; 0; 0; 0; 0; 0; 0; 0; 0; 0; 0; 0; 0; 0; 0; 0; 0; 0; 0; 0; 0; 0; 0; 0; 0; 0; 0; 0; 0; 0; 0; 0].
Definition block_170 : list N := [
   13; 13; 13; 13; 13; 13; 13; 13; 13; 13; 13; 13; 13; 13; 13; 13; 13; 13; 13; 13; 13; 13; 13; 13; 13; 13; 13; 13; 13; 13; 13; 13; 13; 13; 13; 13; 13; 13; 13; 13; 13; 13; 13; 13; 13; 13; 13; 13; 13; 13; 13; 13; 13; 13; 13; 13; 13; 13; 13; 13; 13; 13; 13; 13;
   13; 13; 13; 13; 13; 13; 13; 13; 13; 13; 13; 0; 0; 0; 0; 47; 13; 73; 73; 73; 73; 73; 73; 73; 73; 73; 73; 73; 73; 73; 73; 73; 73; 73; 73; 73; 73; 73; 73; 73; 73; 73; 73; 73; 73; 73; 73; 73; 73; 73; 73; 73; 73; 73; 73; 73; 73; 73; 73; 73; 73; 73; 73; 73].
Definition block_171 : list N := [
   73; 73; 73; 73; 73; 73; 73; 73; 0; 0; 0; 0; 0; 0; 0; 47; 47; 47; 47; 13; 13; 13; 13; 13; 13; 13; 13; 13; 13; 13; 13; 13; 0; 0; 0; 0; 0; 0; 0; 0; 0; 0; 0; 0; 0; 0; 0; 0; 0; 0; 0; 0; 0; 0; 0; 0; 0; 0; 0; 0; 0; 0; 0; 0;
   0; 0; 0; 0; 0; 0; 0; 0; 0; 0; 0; 0; 0; 0; 0; 0; 0; 0; 0; 0; 0; 0; 0; 0; 0; 0; 0; 0; 0; 0; 0; 0; 13; 13; 6; 13; 47; 0; 0; 0; 0; 0; 0; 0; 0; 0; 0; 0; 73; 73; 0; 0; 0; 0; 0; 0; 0; 0; 0; 0; 0; 0; 0; 0].
Definition block_172 : list N := [
   13; 13; 13; 13; 13; 13; 13; 13; 13; 13; 13; 13; 13; 13; 13; 13; 13; 13; 13; 13; 13; 13; 13; 13; 13; 13; 13; 13; 13; 13; 13; 0; 0; 0; 0; 0; 0; 0; 0; 0; 0; 0; 0; 0; 0; 0; 0; 0; 0; 0; 0; 0; 0; 0; 0; 0; 0; 0; 0; 0; 0; 0; 0; 0;
   0; 0; 0; 0; 0; 0; 0; 0; 0; 0; 0; 0; 0; 0; 0; 0; 13; 13; 13; 0; 0; 0; 0; 0; 0; 0; 0; 0; 0; 0; 0; 0; 0; 0; 0; 0; 13; 13; 13; 13; 0; 0; 0; 0; 0; 0; 0; 0; 13; 13; 13; 13; 13; 13; 13; 13; 13; 13; 13; 13; 13; 13; 13; 13].
Definition block_173 : list N := [
   13; 13; 13; 13; 13; 13; 13; 13; 13; 13; 13; 13; 13; 13; 13; 13; 13; 13; 13; 13; 13; 13; 13; 13; 13; 13; 13; 13; 13; 13; 13; 13; 13; 13; 13; 13; 13; 13; 13; 13; 13; 13; 13; 13; 13; 13; 13; 13; 13; 13; 13; 13; 13; 13; 13; 13; 13; 13; 13; 13; 13; 13; 13; 13;
   13; 13; 13; 13; 13; 13; 13; 13; 13; 13; 13; 13; 13; 13; 13; 13; 13; 13; 13; 13; 13; 13; 13; 13; 13; 13; 13; 13; 13; 13; 13; 13; 13; 13; 13; 13; 13; 13; 13; 13; 13; 13; 13; 0; 0; 0; 0; 0; 13; 13; 13; 13; 13; 13; 13; 13; 13; 13; 13; 13; 13; 0; 0; 0].
Definition block_174 : list N := [
   13; 13; 13; 13; 13; 13; 13; 13; 13; 0; 0; 0; 0; 0; 0; 0; 13; 13; 13; 13; 13; 13; 13; 13; 13; 13; 0; 0; 7; 47; 47; 6; 1; 1; 1; 1; 0; 0; 0; 0; 0; 0; 0; 0; 0; 0; 0; 0; 0; 0; 0; 0; 0; 0; 0; 0; 0; 0; 0; 0; 0; 0; 0; 0;
   0; 0; 0; 0; 0; 0; 0; 0; 0; 0; 0; 0; 0; 0; 0; 0; 0; 0; 0; 0; 0; 0; 0; 0; 0; 0; 0; 0; 0; 0; 0; 0; 0; 0; 0; 0; 0; 0; 0; 0; 0; 0; 0; 0; 0; 0; 0; 0; 0; 0; 0; 0; 0; 0; 0; 0; 0; 0; 0; 0; 0; 0; 0; 0].
Definition block_175 : list N := [
   7; 7; 7; 7; 7; 7; 7; 7; 7; 7; 7; 7; 7; 7; 7; 7; 7; 7; 7; 7; 7; 7; 7; 7; 7; 7; 7; 7; 7; 7; 7; 7; 7; 7; 7; 7; 7; 7; 7; 0; 0; 7; 7; 7; 7; 7; 7; 7; 7; 7; 7; 7; 7; 7; 7; 7; 7; 7; 7; 7; 7; 7; 7; 7;
   7; 7; 7; 7; 7; 7; 7; 7; 7; 7; 7; 7; 7; 7; 7; 7; 7; 7; 7; 7; 7; 7; 7; 7; 7; 7; 7; 7; 7; 7; 7; 7; 7; 7; 7; 7; 7; 47; 73; 47; 47; 47; 7; 7; 7; 73; 47; 47; 47; 47; 47; 1; 1; 1; 1; 1; 1; 1; 1; 47; 47; 47; 47; 47].
Definition block_176 : list N := [
   47; 47; 47; 7; 7; 47; 47; 47; 47; 47; 47; 47; 7; 7; 7; 7; 7; 7; 7; 7; 7; 7; 7; 7; 7; 7; 7; 7; 7; 7; 7; 7; 7; 7; 7; 7; 7; 7; 7; 7; 7; 7; 47; 47; 47; 47; 7; 7; 7; 7; 7; 7; 7; 7; 7; 7; 7; 7; 7; 7; 7; 7; 7; 7;
   7; 7; 7; 7; 7; 7; 7; 7; 7; 7; 7; 7; 7; 7; 7; 7; 7; 7; 7; 7; 7; 7; 7; 7; 7; 7; 7; 7; 7; 7; 7; 7; 7; 7; 7; 7; 7; 7; 7; 7; 7; 0; 0; 0; 0; 0; 0; 0; 0; 0; 0; 0; 0; 0; 0; 0; 0; 0; 0; 0; 0; 0; 0; 0].
Definition block_177 : list N := [
   7; 7; 7; 7; 7; 7; 7; 7; 7; 7; 7; 7; 7; 7; 7; 7; 7; 7; 7; 7; 7; 7; 7; 7; 7; 7; 7; 7; 7; 7; 7; 7; 7; 7; 7; 7; 7; 7; 7; 7; 7; 7; 7; 7; 7; 7; 7; 7; 7; 7; 7; 7; 7; 7; 7; 7; 7; 7; 7; 7; 7; 7; 7; 7;
   7; 7; 47; 47; 47; 7; 0; 0; 0; 0; 0; 0; 0; 0; 0; 0; 0; 0; 0; 0; 0; 0; 0; 0; 0; 0; 0; 0; 0; 0; 0; 0; 0; 0; 0; 0; 0; 0; 0; 0; 0; 0; 0; 0; 0; 0; 0; 0; 0; 0; 0; 0; 0; 0; 0; 0; 0; 0; 0; 0; 0; 0; 0; 0].
Definition block_178 : list N := [
   7; 7; 7; 7; 7; 7; 7; 7; 7; 7; 7; 7; 7; 7; 7; 7; 7; 7; 7; 7; 7; 7; 7; 7; 7; 7; 7; 7; 7; 7; 7; 7; 7; 7; 7; 7; 7; 7; 7; 7; 7; 7; 7; 7; 7; 7; 7; 7; 7; 7; 7; 7; 7; 7; 7; 7; 7; 7; 7; 7; 7; 7; 7; 7;
   7; 7; 7; 7; 7; 7; 7; 7; 7; 7; 7; 7; 7; 7; 7; 7; 7; 7; 7; 7; 7; 7; 7; 0; 0; 0; 0; 0; 0; 0; 0; 0; 8; 8; 8; 8; 8; 8; 8; 8; 8; 8; 8; 8; 8; 8; 8; 8; 8; 8; 8; 8; 8; 8; 8; 8; 8; 0; 0; 0; 0; 0; 0; 0].
Definition block_179 : list N := [
   60; 60; 60; 60; 60; 60; 60; 60; 60; 60; 60; 60; 60; 60; 60; 60; 60; 60; 60; 60; 60; 60; 60; 60; 60; 60; 10; 10; 10; 10; 10; 10; 10; 10; 10; 10; 10; 10; 10; 10; 10; 10; 10; 10; 10; 10; 10; 10; 10; 10; 10; 10; 60; 60; 60; 60; 60; 60; 60; 60; 60; 60; 60; 60;
   60; 60; 60; 60; 60; 60; 60; 60; 60; 60; 60; 60; 60; 60; 10; 10; 10; 10; 10; 10; 10; 0; 10; 10; 10; 10; 10; 10; 10; 10; 10; 10; 10; 10; 10; 10; 10; 10; 10; 10; 60; 60; 60; 60; 60; 60; 60; 60; 60; 60; 60; 60; 60; 60; 60; 60; 60; 60; 60; 60; 60; 60; 60; 60].
Definition block_180 : list N := [
   60; 60; 10; 10; 10; 10; 10; 10; 10; 10; 10; 10; 10; 10; 10; 10; 10; 10; 10; 10; 10; 10; 10; 10; 10; 10; 10; 10; 60; 0; 60; 60; 0; 0; 60; 0; 0; 60; 60; 0; 0; 60; 60; 60; 60; 0; 60; 60; 60; 60; 60; 60; 60; 60; 10; 10; 10; 10; 0; 10; 0; 10; 10; 10;
   10; 10; 10; 10; 0; 10; 10; 10; 10; 10; 10; 10; 10; 10; 10; 10; 60; 60; 60; 60; 60; 60; 60; 60; 60; 60; 60; 60; 60; 60; 60; 60; 60; 60; 60; 60; 60; 60; 60; 60; 60; 60; 10; 10; 10; 10; 10; 10; 10; 10; 10; 10; 10; 10; 10; 10; 10; 10; 10; 10; 10; 10; 10; 10].
Definition block_181 : list N := [
   10; 10; 10; 10; 60; 60; 0; 60; 60; 60; 60; 0; 0; 60; 60; 60; 60; 60; 60; 60; 60; 0; 60; 60; 60; 60; 60; 60; 60; 0; 10; 10; 10; 10; 10; 10; 10; 10; 10; 10; 10; 10; 10; 10; 10; 10; 10; 10; 10; 10; 10; 10; 10; 10; 10; 10; 60; 60; 0; 60; 60; 60; 60; 0;
   60; 60; 60; 60; 60; 0; 60; 0; 0; 0; 60; 60; 60; 60; 60; 60; 60; 0; 10; 10; 10; 10; 10; 10; 10; 10; 10; 10; 10; 10; 10; 10; 10; 10; 10; 10; 10; 10; 10; 10; 10; 10; 10; 10; 60; 60; 60; 60; 60; 60; 60; 60; 60; 60; 60; 60; 60; 60; 60; 60; 60; 60; 60; 60].
Definition block_182 : list N := [
   60; 60; 60; 60; 60; 60; 10; 10; 10; 10; 10; 10; 10; 10; 10; 10; 10; 10; 10; 10; 10; 10; 10; 10; 10; 10; 10; 10; 10; 10; 10; 10; 60; 60; 60; 60; 60; 60; 60; 60; 60; 60; 60; 60; 60; 60; 60; 60; 60; 60; 60; 60; 60; 60; 60; 60; 60; 60; 10; 10; 10; 10; 10; 10;
   10; 10; 10; 10; 10; 10; 10; 10; 10; 10; 10; 10; 10; 10; 10; 10; 10; 10; 10; 10; 60; 60; 60; 60; 60; 60; 60; 60; 60; 60; 60; 60; 60; 60; 60; 60; 60; 60; 60; 60; 60; 60; 60; 60; 60; 60; 10; 10; 10; 10; 10; 10; 10; 10; 10; 10; 10; 10; 10; 10; 10; 10; 10; 10].
Definition block_183 : list N := [
   10; 10; 10; 10; 10; 10; 10; 10; 60; 60; 60; 60; 60; 60; 60; 60; 60; 60; 60; 60; 60; 60; 60; 60; 60; 60; 60; 60; 60; 60; 60; 60; 60; 60; 10; 10; 10; 10; 10; 10; 10; 10; 10; 10; 10; 10; 10; 10; 10; 10; 10; 10; 10; 10; 10; 10; 10; 10; 10; 10; 60; 60; 60; 60;
   60; 60; 60; 60; 60; 60; 60; 60; 60; 60; 60; 60; 60; 60; 60; 60; 60; 60; 60; 60; 60; 60; 10; 10; 10; 10; 10; 10; 10; 10; 10; 10; 10; 10; 10; 10; 10; 10; 10; 10; 10; 10; 10; 10; 10; 10; 10; 10; 60; 60; 60; 60; 60; 60; 60; 60; 60; 60; 60; 60; 60; 60; 60; 60].
Definition block_184 : list N := [
   60; 60; 60; 60; 60; 60; 60; 60; 60; 60; 10; 10; 10; 10; 10; 10; 10; 10; 10; 10; 10; 10; 10; 10; 10; 10; 10; 10; 10; 10; 10; 10; 10; 10; 10; 10; 10; 10; 0; 0; 60; 60; 60; 60; 60; 60; 60; 60; 60; 60; 60; 60; 60; 60; 60; 60; 60; 60; 60; 60; 60; 60; 60; 60;
   60; 7; 10; 10; 10; 10; 10; 10; 10; 10; 10; 10; 10; 10; 10; 10; 10; 10; 10; 10; 10; 10; 10; 10; 10; 10; 10; 7; 10; 10; 10; 10; 10; 10; 60; 60; 60; 60; 60; 60; 60; 60; 60; 60; 60; 60; 60; 60; 60; 60; 60; 60; 60; 60; 60; 60; 60; 60; 60; 7; 10; 10; 10; 10].
Definition block_185 : list N := [
   10; 10; 10; 10; 10; 10; 10; 10; 10; 10; 10; 10; 10; 10; 10; 10; 10; 10; 10; 10; 10; 7; 10; 10; 10; 10; 10; 10; 60; 60; 60; 60; 60; 60; 60; 60; 60; 60; 60; 60; 60; 60; 60; 60; 60; 60; 60; 60; 60; 60; 60; 60; 60; 7; 10; 10; 10; 10; 10; 10; 10; 10; 10; 10;
   10; 10; 10; 10; 10; 10; 10; 10; 10; 10; 10; 10; 10; 10; 10; 7; 10; 10; 10; 10; 10; 10; 60; 60; 60; 60; 60; 60; 60; 60; 60; 60; 60; 60; 60; 60; 60; 60; 60; 60; 60; 60; 60; 60; 60; 60; 60; 7; 10; 10; 10; 10; 10; 10; 10; 10; 10; 10; 10; 10; 10; 10; 10; 10].
Definition block_186 : list N := [
   10; 10; 10; 10; 10; 10; 10; 10; 10; 7; 10; 10; 10; 10; 10; 10; 60; 60; 60; 60; 60; 60; 60; 60; 60; 60; 60; 60; 60; 60; 60; 60; 60; 60; 60; 60; 60; 60; 60; 60; 60; 7; 10; 10; 10; 10; 10; 10; 10; 10; 10; 10; 10; 10; 10; 10; 10; 10; 10; 10; 10; 10; 10; 10;
   10; 10; 10; 7; 10; 10; 10; 10; 10; 10; 60; 10; 0; 0; 8; 8; 8; 8; 8; 8; 8; 8; 8; 8; 8; 8; 8; 8; 8; 8; 8; 8; 8; 8; 8; 8; 8; 8; 8; 8; 8; 8; 8; 8; 8; 8; 8; 8; 8; 8; 8; 8; 8; 8; 8; 8; 8; 8; 8; 8; 8; 8; 8; 8].
Definition block_187 : list N := [
   47; 47; 47; 47; 47; 47; 47; 47; 47; 47; 47; 47; 47; 47; 47; 47; 47; 47; 47; 47; 47; 47; 47; 47; 47; 47; 47; 47; 47; 47; 47; 47; 47; 47; 47; 47; 47; 47; 47; 47; 47; 47; 47; 47; 47; 47; 47; 47; 47; 47; 47; 47; 47; 47; 47; 7; 7; 7; 7; 47; 47; 47; 47; 47;
   47; 47; 47; 47; 47; 47; 47; 47; 47; 47; 47; 47; 47; 47; 47; 47; 47; 47; 47; 47; 47; 47; 47; 47; 47; 47; 47; 47; 47; 47; 47; 47; 47; 47; 47; 47; 47; 47; 47; 47; 47; 47; 47; 47; 47; 7; 7; 7; 7; 7; 7; 7; 7; 47; 7; 7; 7; 7; 7; 7; 7; 7; 7; 7].
Definition block_188 : list N := [
   7; 7; 7; 7; 47; 7; 7; 6; 6; 6; 6; 6; 0; 0; 0; 0; 0; 0; 0; 0; 0; 0; 0; 0; 0; 0; 0; 47; 47; 47; 47; 47; 0; 47; 47; 47; 47; 47; 47; 47; 47; 47; 47; 47; 47; 47; 47; 47; 0; 0; 0; 0; 0; 0; 0; 0; 0; 0; 0; 0; 0; 0; 0; 0;
   0; 0; 0; 0; 0; 0; 0; 0; 0; 0; 0; 0; 0; 0; 0; 0; 0; 0; 0; 0; 0; 0; 0; 0; 0; 0; 0; 0; 0; 0; 0; 0; 0; 0; 0; 0; 0; 0; 0; 0; 0; 0; 0; 0; 0; 0; 0; 0; 0; 0; 0; 0; 0; 0; 0; 0; 0; 0; 0; 0; 0; 0; 0; 0].
Definition block_189 : list N := [
   47; 47; 47; 47; 47; 47; 47; 0; 47; 47; 47; 47; 47; 47; 47; 47; 47; 47; 47; 47; 47; 47; 47; 47; 47; 0; 0; 47; 47; 47; 47; 47; 47; 47; 0; 47; 47; 0; 47; 47; 47; 47; 47; 0; 0; 0; 0; 0; 0; 0; 0; 0; 0; 0; 0; 0; 0; 0; 0; 0; 0; 0; 0; 0;
   0; 0; 0; 0; 0; 0; 0; 0; 0; 0; 0; 0; 0; 0; 0; 0; 0; 0; 0; 0; 0; 0; 0; 0; 0; 0; 0; 0; 0; 0; 0; 0; 0; 0; 0; 0; 0; 0; 0; 0; 0; 0; 0; 0; 0; 0; 0; 0; 0; 0; 0; 0; 0; 0; 0; 0; 0; 0; 0; 0; 0; 0; 0; 0].
Definition block_190 : list N := [
   13; 13; 13; 13; 13; 13; 13; 13; 13; 13; 13; 13; 13; 13; 13; 13; 13; 13; 13; 13; 13; 13; 13; 13; 13; 13; 13; 13; 13; 13; 13; 13; 13; 13; 13; 13; 13; 13; 13; 13; 13; 13; 13; 13; 13; 0; 0; 0; 47; 47; 47; 47; 47; 47; 47; 13; 13; 13; 13; 13; 13; 13; 0; 0;
   8; 8; 8; 8; 8; 8; 8; 8; 8; 8; 0; 0; 0; 0; 13; 7; 0; 0; 0; 0; 0; 0; 0; 0; 0; 0; 0; 0; 0; 0; 0; 0; 0; 0; 0; 0; 0; 0; 0; 0; 0; 0; 0; 0; 0; 0; 0; 0; 0; 0; 0; 0; 0; 0; 0; 0; 0; 0; 0; 0; 0; 0; 0; 0].
Definition block_191 : list N := [
   0; 0; 0; 0; 0; 0; 0; 0; 0; 0; 0; 0; 0; 0; 0; 0; 0; 0; 0; 0; 0; 0; 0; 0; 0; 0; 0; 0; 0; 0; 0; 0; 0; 0; 0; 0; 0; 0; 0; 0; 0; 0; 0; 0; 0; 0; 0; 0; 0; 0; 0; 0; 0; 0; 0; 0; 0; 0; 0; 0; 0; 0; 0; 0;
   13; 13; 13; 13; 13; 13; 13; 13; 13; 13; 13; 13; 13; 13; 13; 13; 13; 13; 13; 13; 13; 13; 13; 13; 13; 13; 13; 13; 13; 13; 13; 13; 13; 13; 13; 13; 13; 13; 13; 13; 13; 13; 13; 13; 47; 47; 47; 47; 8; 8; 8; 8; 8; 8; 8; 8; 8; 8; 0; 0; 0; 0; 0; 7].
Definition block_192 : list N := [
   13; 13; 13; 13; 13; 13; 13; 13; 13; 13; 13; 13; 13; 13; 13; 13; 13; 13; 13; 13; 13; 13; 13; 13; 13; 13; 13; 13; 13; 13; 13; 13; 13; 13; 13; 13; 13; 13; 13; 13; 13; 13; 13; 13; 13; 13; 13; 13; 13; 13; 13; 13; 13; 13; 13; 13; 13; 13; 13; 13; 13; 13; 13; 13;
   13; 13; 13; 13; 13; 0; 0; 8; 8; 8; 8; 8; 8; 8; 8; 8; 47; 47; 47; 47; 47; 47; 47; 0; 0; 0; 0; 0; 0; 0; 0; 0; 0; 0; 0; 0; 0; 0; 0; 0; 0; 0; 0; 0; 0; 0; 0; 0; 0; 0; 0; 0; 0; 0; 0; 0; 0; 0; 0; 0; 0; 0; 0; 0].
Definition block_193 : list N := [
   235; 235; 235; 235; 235; 235; 235; 235; 235; 235; 235; 235; 235; 235; 235; 235; 235; 235; 235; 235; 235; 235; 235; 235; 235; 235; 235; 235; 235; 235; 235; 235; 235; 235; 10; 10; 10; 10; 10; 10; 10; 10; 10; 10; 10; 10; 10; 10; 10; 10; 10; 10; 10; 10; 10; 10; 10; 10; 10; 10; 10; 10; 10; 10;
   10; 10; 10; 10; 47; 47; 47; 47; 47; 47; 47; 13; 0; 0; 0; 0; 8; 8; 8; 8; 8; 8; 8; 8; 8; 8; 0; 0; 0; 0; 6; 6; 0; 0; 0; 0; 0; 0; 0; 0; 0; 0; 0; 0; 0; 0; 0; 0; 0; 0; 0; 0; 0; 0; 0; 0; 0; 0; 0; 0; 0; 0; 0; 0].
Definition block_194 : list N := [
   8; 8; 8; 8; 8; 8; 8; 8; 8; 8; 8; 8; 8; 8; 8; 8; 8; 8; 8; 8; 8; 8; 8; 8; 8; 8; 8; 8; 8; 8; 8; 8; 8; 8; 8; 8; 8; 8; 8; 8; 8; 8; 8; 8; 7; 8; 8; 8; 7; 8; 8; 8; 8; 0; 0; 0; 0; 0; 0; 0; 0; 0; 0; 0;
   0; 0; 0; 0; 0; 0; 0; 0; 0; 0; 0; 0; 0; 0; 0; 0; 0; 0; 0; 0; 0; 0; 0; 0; 0; 0; 0; 0; 0; 0; 0; 0; 0; 0; 0; 0; 0; 0; 0; 0; 0; 0; 0; 0; 0; 0; 0; 0; 0; 0; 0; 0; 0; 0; 0; 0; 0; 0; 0; 0; 0; 0; 0; 0].
Definition block_195 : list N := [
   0; 8; 8; 8; 8; 8; 8; 8; 8; 8; 8; 8; 8; 8; 8; 8; 8; 8; 8; 8; 8; 8; 8; 8; 8; 8; 8; 8; 8; 8; 8; 8; 8; 8; 8; 8; 8; 8; 8; 8; 8; 8; 8; 8; 8; 8; 7; 8; 8; 8; 8; 8; 8; 8; 8; 8; 8; 8; 8; 8; 8; 8; 0; 0;
   0; 0; 0; 0; 0; 0; 0; 0; 0; 0; 0; 0; 0; 0; 0; 0; 0; 0; 0; 0; 0; 0; 0; 0; 0; 0; 0; 0; 0; 0; 0; 0; 0; 0; 0; 0; 0; 0; 0; 0; 0; 0; 0; 0; 0; 0; 0; 0; 0; 0; 0; 0; 0; 0; 0; 0; 0; 0; 0; 0; 0; 0; 0; 0].
Definition block_196 : list N := [
   13; 13; 13; 13; 0; 13; 13; 13; 13; 13; 13; 13; 13; 13; 13; 13; 13; 13; 13; 13; 13; 13; 13; 13; 13; 13; 13; 13; 13; 13; 13; 13; 0; 13; 13; 0; 13; 0; 0; 13; 0; 13; 13; 13; 13; 13; 13; 13; 13; 13; 13; 0; 13; 13; 13; 13; 0; 13; 0; 13; 0; 0; 0; 0;
   0; 0; 13; 0; 0; 0; 0; 13; 0; 13; 0; 13; 0; 13; 13; 13; 0; 13; 13; 0; 13; 0; 0; 13; 0; 13; 0; 13; 0; 13; 0; 13; 0; 13; 13; 0; 13; 0; 0; 13; 13; 13; 13; 0; 13; 13; 13; 13; 13; 13; 13; 0; 13; 13; 13; 13; 0; 13; 13; 13; 13; 0; 13; 0].
Definition block_197 : list N := [
   13; 13; 13; 13; 13; 13; 13; 13; 13; 13; 0; 13; 13; 13; 13; 13; 13; 13; 13; 13; 13; 13; 13; 13; 13; 13; 13; 13; 0; 0; 0; 0; 0; 13; 13; 13; 0; 13; 13; 13; 13; 13; 0; 13; 13; 13; 13; 13; 13; 13; 13; 13; 13; 13; 13; 13; 13; 13; 13; 13; 0; 0; 0; 0;
   0; 0; 0; 0; 0; 0; 0; 0; 0; 0; 0; 0; 0; 0; 0; 0; 0; 0; 0; 0; 0; 0; 0; 0; 0; 0; 0; 0; 0; 0; 0; 0; 0; 0; 0; 0; 0; 0; 0; 0; 0; 0; 0; 0; 0; 0; 0; 0; 7; 7; 0; 0; 0; 0; 0; 0; 0; 0; 0; 0; 0; 0; 0; 0].
Definition block_198 : list N := [
   12; 12; 12; 12; 12; 12; 12; 12; 12; 12; 12; 12; 12; 12; 12; 12; 12; 12; 12; 12; 236; 236; 236; 236; 236; 236; 236; 236; 236; 236; 236; 236; 12; 12; 12; 12; 12; 12; 12; 12; 12; 12; 12; 12; 12; 12; 12; 236; 236; 12; 12; 12; 12; 12; 12; 12; 12; 12; 12; 12; 12; 12; 12; 12;
   236; 12; 12; 12; 12; 12; 12; 12; 12; 12; 12; 12; 12; 12; 12; 12; 236; 12; 12; 12; 12; 12; 12; 12; 12; 12; 12; 12; 12; 12; 12; 12; 12; 12; 12; 12; 12; 12; 12; 12; 12; 12; 12; 12; 12; 12; 12; 12; 12; 12; 12; 12; 12; 12; 236; 236; 236; 236; 236; 236; 236; 236; 236; 236].
Definition block_199 : list N := [
   8; 8; 8; 8; 8; 8; 8; 8; 8; 8; 8; 8; 8; 12; 12; 12; 7; 7; 7; 7; 7; 7; 7; 7; 7; 7; 7; 7; 7; 7; 7; 7; 7; 7; 7; 7; 7; 7; 7; 7; 7; 7; 7; 7; 7; 7; 7; 12; 7; 7; 7; 7; 7; 7; 7; 7; 7; 7; 7; 7; 7; 7; 7; 7;
   7; 7; 7; 7; 7; 7; 7; 7; 7; 7; 7; 7; 7; 7; 7; 7; 7; 7; 7; 7; 7; 7; 7; 7; 7; 7; 7; 7; 7; 7; 7; 7; 7; 7; 7; 7; 7; 7; 7; 7; 7; 7; 7; 7; 12; 12; 12; 12; 12; 12; 7; 7; 7; 7; 7; 7; 7; 7; 7; 7; 7; 7; 12; 12].
Definition block_200 : list N := [
   7; 7; 7; 7; 7; 7; 7; 7; 7; 7; 7; 7; 7; 7; 12; 7; 7; 12; 12; 12; 12; 12; 12; 12; 12; 12; 12; 7; 7; 7; 7; 7; 7; 7; 7; 7; 7; 7; 7; 7; 7; 7; 7; 7; 7; 12; 236; 236; 236; 236; 236; 236; 236; 236; 236; 236; 236; 236; 236; 236; 236; 236; 236; 236;
   236; 236; 236; 236; 236; 236; 236; 236; 236; 236; 236; 236; 236; 236; 236; 236; 236; 236; 236; 236; 236; 236; 236; 236; 236; 236; 236; 236; 236; 236; 236; 236; 236; 236; 236; 236; 236; 236; 237; 237; 237; 237; 237; 237; 237; 237; 237; 237; 237; 237; 237; 237; 237; 237; 237; 237; 237; 237; 237; 237; 237; 237; 237; 237].
Definition block_201 : list N := [
   7; 12; 12; 236; 236; 236; 236; 236; 236; 236; 236; 236; 236; 236; 236; 236; 7; 7; 7; 7; 7; 7; 7; 7; 7; 7; 12; 7; 7; 7; 7; 7; 7; 7; 7; 7; 7; 7; 7; 7; 7; 7; 7; 7; 7; 7; 7; 12; 7; 7; 12; 12; 12; 12; 12; 12; 12; 12; 12; 7; 236; 236; 236; 236;
   7; 7; 7; 7; 7; 7; 7; 7; 7; 236; 236; 236; 236; 236; 236; 236; 12; 12; 236; 236; 236; 236; 236; 236; 236; 236; 236; 236; 236; 236; 236; 236; 12; 12; 12; 12; 12; 12; 236; 236; 236; 236; 236; 236; 236; 236; 236; 236; 236; 236; 236; 236; 236; 236; 236; 236; 236; 236; 236; 236; 236; 236; 236; 236].
Definition block_202 : list N := [
   12; 12; 12; 12; 12; 12; 12; 12; 12; 12; 12; 12; 12; 12; 12; 12; 12; 12; 12; 12; 12; 12; 12; 12; 12; 12; 12; 12; 12; 12; 12; 12; 12; 12; 12; 12; 12; 12; 12; 12; 12; 12; 12; 12; 12; 12; 12; 12; 12; 12; 12; 12; 12; 12; 12; 12; 12; 12; 12; 12; 12; 12; 12; 12;
   12; 12; 12; 12; 12; 12; 12; 12; 12; 12; 12; 12; 12; 12; 12; 12; 12; 12; 12; 12; 12; 12; 12; 12; 236; 236; 236; 236; 236; 236; 236; 236; 12; 12; 12; 12; 12; 12; 12; 12; 12; 12; 12; 12; 12; 236; 236; 236; 12; 12; 12; 12; 12; 12; 12; 12; 12; 12; 12; 12; 12; 236; 236; 236].
Definition block_203 : list N := [
   7; 7; 7; 7; 7; 7; 7; 7; 7; 7; 7; 7; 7; 7; 7; 7; 7; 7; 7; 7; 7; 7; 7; 7; 7; 7; 7; 7; 7; 7; 7; 7; 7; 7; 7; 7; 7; 7; 7; 7; 7; 7; 7; 7; 7; 7; 7; 7; 7; 7; 7; 7; 7; 7; 7; 7; 7; 7; 7; 7; 7; 7; 7; 7;
   7; 7; 7; 7; 7; 7; 7; 7; 7; 7; 7; 7; 7; 7; 7; 7; 7; 7; 7; 7; 7; 12; 12; 12; 12; 236; 236; 236; 236; 236; 236; 236; 12; 12; 12; 12; 12; 12; 12; 12; 12; 12; 12; 12; 236; 236; 236; 236; 236; 236; 236; 236; 236; 236; 236; 236; 236; 236; 236; 236; 236; 236; 236; 236].
Definition block_204 : list N := [
   7; 7; 7; 7; 7; 7; 7; 7; 7; 7; 7; 7; 236; 236; 236; 236; 7; 7; 7; 7; 7; 7; 7; 7; 7; 7; 7; 7; 7; 7; 7; 7; 7; 7; 7; 7; 7; 7; 7; 7; 7; 7; 7; 7; 7; 7; 7; 7; 7; 7; 7; 7; 7; 7; 7; 7; 7; 7; 7; 7; 7; 7; 7; 7;
   7; 7; 7; 7; 7; 7; 7; 7; 236; 236; 236; 236; 236; 236; 236; 236; 7; 7; 7; 7; 7; 7; 7; 7; 7; 7; 236; 236; 236; 236; 236; 236; 7; 7; 7; 7; 7; 7; 7; 7; 7; 7; 7; 7; 7; 7; 7; 7; 7; 7; 7; 7; 7; 7; 7; 7; 7; 7; 7; 7; 7; 7; 7; 7].
Definition block_205 : list N := [
   7; 7; 7; 7; 7; 7; 7; 7; 236; 236; 236; 236; 236; 236; 236; 236; 7; 7; 7; 7; 7; 7; 7; 7; 7; 7; 7; 7; 7; 7; 7; 7; 7; 7; 7; 7; 7; 7; 7; 7; 7; 7; 7; 7; 7; 7; 236; 236; 12; 12; 236; 236; 236; 236; 236; 236; 236; 236; 236; 236; 236; 236; 236; 236;
   236; 236; 236; 236; 236; 236; 236; 236; 236; 236; 236; 236; 236; 236; 236; 236; 236; 236; 236; 236; 236; 236; 236; 236; 236; 236; 236; 236; 236; 236; 236; 236; 236; 236; 236; 236; 236; 236; 236; 236; 236; 236; 236; 236; 236; 236; 236; 236; 236; 236; 236; 236; 236; 236; 236; 236; 236; 236; 236; 236; 236; 236; 236; 236].
Definition block_206 : list N := [
   7; 7; 7; 7; 7; 7; 7; 7; 7; 7; 7; 7; 12; 12; 12; 12; 12; 12; 12; 12; 12; 12; 12; 12; 12; 12; 12; 12; 12; 12; 12; 12; 12; 12; 12; 12; 12; 12; 12; 12; 12; 12; 12; 12; 12; 12; 12; 12; 12; 12; 12; 12; 12; 12; 12; 12; 12; 12; 12; 7; 12; 12; 12; 12;
   12; 12; 12; 12; 12; 12; 7; 12; 12; 12; 12; 12; 12; 12; 12; 12; 12; 12; 12; 12; 12; 12; 12; 12; 12; 12; 12; 12; 12; 12; 12; 12; 12; 12; 12; 12; 12; 12; 12; 12; 12; 12; 12; 12; 12; 12; 12; 12; 12; 12; 12; 12; 12; 12; 12; 12; 12; 236; 12; 12; 12; 12; 12; 12].
Definition block_207 : list N := [
   12; 12; 12; 12; 12; 12; 12; 12; 12; 12; 12; 12; 12; 12; 12; 12; 12; 12; 12; 12; 12; 12; 12; 12; 12; 12; 12; 12; 12; 12; 12; 12; 12; 12; 12; 12; 12; 12; 12; 12; 12; 12; 12; 12; 12; 12; 12; 12; 12; 12; 12; 12; 12; 12; 12; 12; 12; 12; 12; 12; 12; 12; 12; 12;
   12; 12; 12; 12; 12; 12; 12; 12; 12; 12; 12; 12; 12; 12; 12; 12; 12; 12; 12; 12; 236; 236; 236; 236; 236; 236; 236; 236; 236; 236; 236; 236; 12; 12; 12; 12; 12; 12; 12; 12; 12; 12; 12; 12; 12; 12; 236; 236; 12; 12; 12; 12; 12; 236; 236; 236; 12; 12; 12; 236; 236; 236; 236; 236].
Definition block_208 : list N := [
   12; 12; 12; 12; 12; 12; 12; 236; 236; 236; 236; 236; 236; 236; 236; 236; 12; 12; 12; 12; 12; 12; 12; 12; 12; 12; 12; 12; 12; 12; 12; 12; 12; 12; 12; 12; 12; 12; 12; 12; 12; 236; 236; 236; 236; 236; 236; 236; 12; 12; 12; 12; 12; 12; 12; 236; 236; 236; 236; 236; 236; 236; 236; 236;
   12; 12; 12; 236; 236; 236; 236; 236; 236; 236; 236; 236; 236; 236; 236; 236; 12; 12; 12; 12; 12; 12; 12; 236; 236; 236; 236; 236; 236; 236; 236; 236; 236; 236; 236; 236; 236; 236; 236; 236; 236; 236; 236; 236; 236; 236; 236; 236; 236; 236; 236; 236; 236; 236; 236; 236; 236; 236; 236; 236; 236; 236; 236; 236].
Definition block_209 : list N := [
   7; 7; 7; 7; 7; 7; 7; 7; 7; 7; 7; 7; 7; 7; 7; 7; 7; 7; 7; 0; 7; 7; 7; 7; 7; 7; 7; 7; 7; 7; 7; 7; 7; 7; 7; 7; 7; 7; 7; 7; 7; 7; 7; 7; 7; 7; 7; 7; 7; 7; 7; 7; 7; 7; 7; 7; 7; 7; 7; 7; 7; 7; 7; 7;
   7; 7; 7; 7; 7; 7; 7; 7; 7; 7; 7; 0; 0; 0; 0; 0; 0; 0; 0; 0; 0; 0; 0; 0; 0; 0; 0; 0; 0; 0; 0; 0; 0; 0; 0; 0; 0; 0; 0; 0; 0; 0; 0; 0; 0; 0; 0; 0; 8; 8; 8; 8; 8; 8; 8; 8; 8; 8; 0; 0; 0; 0; 0; 0].
Definition stage_two_blocks : list (list N) := [
   block_0; block_1; block_2; block_3; block_4; block_5; block_6; block_7; block_8; block_9; block_10; block_11; block_12; block_13; block_14; block_15; block_16; block_17; block_18; block_19; block_20; block_21; block_22; block_23; block_24; block_25; block_26; block_27; block_28; block_29; block_30; block_31; block_32; block_33; block_34; block_35; block_36; block_37; block_38; block_39; block_40; block_41; block_42; block_43; block_44; block_45; block_46; block_47; block_48; block_49; block_50; block_51; block_52; block_53; block_54; block_55; block_56; block_57; block_58; block_59; block_60; block_61; block_62; block_63; block_64; block_65; block_66; block_67; block_68; block_69; block_70; block_71; block_72; block_73; block_74; block_75; block_76; block_77; block_78; block_79; block_80; block_81; block_82; block_83; block_84; block_85; block_86; block_87; block_88; block_89; block_90; block_91; block_92; block_93; block_94; block_95; block_96; block_97; block_98; block_99; block_100; block_101; block_102; block_103; block_104; block_105; block_106; block_107; block_108; block_109; block_110; block_111; block_112; block_113; block_114; block_115; block_116; block_117; block_118; block_119; block_120; block_121; block_122; block_123; block_124; block_125; block_126; block_127; block_128; block_129; block_130; block_131; block_132; block_133; block_134; block_135; block_136; block_137; block_138; block_139; block_140; block_141; block_142; block_143; block_144; block_145; block_146; block_147; block_148; block_149; block_150; block_151; block_152; block_153; block_154; block_155; block_156; block_157; block_158; block_159; block_160; block_161; block_162; block_163; block_164; block_165; block_166; block_167; block_168; block_169; block_170; block_171; block_172; block_173; block_174; block_175; block_176; block_177; block_178; block_179; block_180; block_181; block_182; block_183; block_184; block_185; block_186; block_187; block_188; block_189; block_190; block_191; block_192; block_193; block_194; block_195; block_196; block_197; block_198; block_199; block_200; block_201; block_202; block_203; block_204; block_205; block_206; block_207; block_208; block_209].
Definition tmu_ucd_stage_two : list N := concat stage_two_blocks.
