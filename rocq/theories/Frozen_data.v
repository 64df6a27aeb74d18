(** Contents of the files of /repo/test/frozen_files: what a run of the program wrote, on the
    items of data.item, for the task on c0 across c1 by c2. That run was with Python 2, with an
    earlier version of the program that had one dataset per by; the datasets of the three bys
    are given here one after the other. *)
From Coq Require Import String.
From Coq Require Import List ZArith.
Import ListNotations.
Local Open Scope Z_scope.
Local Open Scope string_scope.
Local Open Scope list_scope.

(** data.item: the levels of c0, c1 and c2 (c0_v2 is 2) on each line. *)
Definition frozen_items : list (Z * Z * Z) :=
  [(0, 0, 0); (1, 0, 0); (2, 0, 0); (0, 1, 0); (1, 1, 0); (2, 1, 0); (0, 2, 0); (1, 2, 0); (2, 2, 0); (0, 0, 1);
   (1, 0, 1); (2, 0, 1); (0, 1, 1); (1, 1, 1); (2, 1, 1); (0, 2, 1); (1, 2, 1); (2, 2, 1); (0, 0, 2); (1, 0, 2);
   (2, 0, 2); (0, 1, 2); (1, 1, 2); (2, 1, 2); (0, 2, 2); (1, 2, 2); (2, 2, 2); (0, 0, 0); (1, 0, 0); (2, 0, 0);
   (0, 1, 0); (1, 1, 0); (2, 1, 0); (0, 2, 0); (1, 2, 0); (2, 2, 0); (0, 0, 1); (1, 0, 1); (2, 0, 1); (0, 1, 1);
   (1, 1, 1); (2, 1, 1); (0, 2, 1); (1, 2, 1); (2, 2, 1); (0, 0, 2); (1, 0, 2); (2, 0, 2); (0, 1, 2); (1, 1, 2);
   (2, 1, 2); (0, 2, 2); (1, 2, 2); (2, 2, 2)].

(** data.abx: /triplets, which are the same for the three bys. *)
Definition frozen_triplets : list (Z * Z * Z) :=
  [(5, 3, 17); (5, 3, 2); (5, 3, 8); (5, 3, 11); (5, 4, 17); (5, 4, 2); (5, 4, 8); (5, 4, 11); (5, 12, 17);
   (5, 12, 2); (5, 12, 8); (5, 12, 11); (5, 13, 17); (5, 13, 2); (5, 13, 8); (5, 13, 11); (14, 3, 17);
   (14, 3, 2); (14, 3, 8); (14, 3, 11); (14, 4, 17); (14, 4, 2); (14, 4, 8); (14, 4, 11); (14, 12, 17);
   (14, 12, 2); (14, 12, 8); (14, 12, 11); (14, 13, 17); (14, 13, 2); (14, 13, 8); (14, 13, 11); (8, 16, 2);
   (8, 16, 5); (8, 16, 11); (8, 16, 14); (8, 6, 2); (8, 6, 5); (8, 6, 11); (8, 6, 14); (8, 7, 2); (8, 7, 5);
   (8, 7, 11); (8, 7, 14); (8, 15, 2); (8, 15, 5); (8, 15, 11); (8, 15, 14); (17, 16, 2); (17, 16, 5);
   (17, 16, 11); (17, 16, 14); (17, 6, 2); (17, 6, 5); (17, 6, 11); (17, 6, 14); (17, 7, 2); (17, 7, 5);
   (17, 7, 11); (17, 7, 14); (17, 15, 2); (17, 15, 5); (17, 15, 11); (17, 15, 14); (4, 3, 16); (4, 3, 1);
   (4, 3, 7); (4, 3, 10); (4, 5, 16); (4, 5, 1); (4, 5, 7); (4, 5, 10); (4, 12, 16); (4, 12, 1); (4, 12, 7);
   (4, 12, 10); (4, 14, 16); (4, 14, 1); (4, 14, 7); (4, 14, 10); (13, 3, 16); (13, 3, 1); (13, 3, 7);
   (13, 3, 10); (13, 5, 16); (13, 5, 1); (13, 5, 7); (13, 5, 10); (13, 12, 16); (13, 12, 1); (13, 12, 7);
   (13, 12, 10); (13, 14, 16); (13, 14, 1); (13, 14, 7); (13, 14, 10); (1, 0, 16); (1, 0, 4); (1, 0, 7);
   (1, 0, 13); (1, 2, 16); (1, 2, 4); (1, 2, 7); (1, 2, 13); (1, 9, 16); (1, 9, 4); (1, 9, 7); (1, 9, 13);
   (1, 11, 16); (1, 11, 4); (1, 11, 7); (1, 11, 13); (10, 0, 16); (10, 0, 4); (10, 0, 7); (10, 0, 13);
   (10, 2, 16); (10, 2, 4); (10, 2, 7); (10, 2, 13); (10, 9, 16); (10, 9, 4); (10, 9, 7); (10, 9, 13);
   (10, 11, 16); (10, 11, 4); (10, 11, 7); (10, 11, 13); (7, 17, 1); (7, 17, 4); (7, 17, 10); (7, 17, 13);
   (7, 6, 1); (7, 6, 4); (7, 6, 10); (7, 6, 13); (7, 8, 1); (7, 8, 4); (7, 8, 10); (7, 8, 13); (7, 15, 1);
   (7, 15, 4); (7, 15, 10); (7, 15, 13); (16, 17, 1); (16, 17, 4); (16, 17, 10); (16, 17, 13); (16, 6, 1);
   (16, 6, 4); (16, 6, 10); (16, 6, 13); (16, 8, 1); (16, 8, 4); (16, 8, 10); (16, 8, 13); (16, 15, 1);
   (16, 15, 4); (16, 15, 10); (16, 15, 13); (6, 16, 0); (6, 16, 3); (6, 16, 9); (6, 16, 12); (6, 17, 0);
   (6, 17, 3); (6, 17, 9); (6, 17, 12); (6, 7, 0); (6, 7, 3); (6, 7, 9); (6, 7, 12); (6, 8, 0); (6, 8, 3);
   (6, 8, 9); (6, 8, 12); (15, 16, 0); (15, 16, 3); (15, 16, 9); (15, 16, 12); (15, 17, 0); (15, 17, 3);
   (15, 17, 9); (15, 17, 12); (15, 7, 0); (15, 7, 3); (15, 7, 9); (15, 7, 12); (15, 8, 0); (15, 8, 3);
   (15, 8, 9); (15, 8, 12); (0, 1, 3); (0, 1, 6); (0, 1, 12); (0, 1, 15); (0, 2, 3); (0, 2, 6); (0, 2, 12);
   (0, 2, 15); (0, 10, 3); (0, 10, 6); (0, 10, 12); (0, 10, 15); (0, 11, 3); (0, 11, 6); (0, 11, 12);
   (0, 11, 15); (9, 1, 3); (9, 1, 6); (9, 1, 12); (9, 1, 15); (9, 2, 3); (9, 2, 6); (9, 2, 12); (9, 2, 15);
   (9, 10, 3); (9, 10, 6); (9, 10, 12); (9, 10, 15); (9, 11, 3); (9, 11, 6); (9, 11, 12); (9, 11, 15);
   (2, 0, 17); (2, 0, 5); (2, 0, 8); (2, 0, 14); (2, 1, 17); (2, 1, 5); (2, 1, 8); (2, 1, 14); (2, 9, 17);
   (2, 9, 5); (2, 9, 8); (2, 9, 14); (2, 10, 17); (2, 10, 5); (2, 10, 8); (2, 10, 14); (11, 0, 17); (11, 0, 5);
   (11, 0, 8); (11, 0, 14); (11, 1, 17); (11, 1, 5); (11, 1, 8); (11, 1, 14); (11, 9, 17); (11, 9, 5);
   (11, 9, 8); (11, 9, 14); (11, 10, 17); (11, 10, 5); (11, 10, 8); (11, 10, 14); (3, 4, 0); (3, 4, 6);
   (3, 4, 9); (3, 4, 15); (3, 5, 0); (3, 5, 6); (3, 5, 9); (3, 5, 15); (3, 13, 0); (3, 13, 6); (3, 13, 9);
   (3, 13, 15); (3, 14, 0); (3, 14, 6); (3, 14, 9); (3, 14, 15); (12, 4, 0); (12, 4, 6); (12, 4, 9);
   (12, 4, 15); (12, 5, 0); (12, 5, 6); (12, 5, 9); (12, 5, 15); (12, 13, 0); (12, 13, 6); (12, 13, 9);
   (12, 13, 15); (12, 14, 0); (12, 14, 6); (12, 14, 9); (12, 14, 15)].

(** data.abx: /unique_pairs, which are the same for the three bys. *)
Definition frozen_pairs : list Z :=
  [3; 4; 5; 6; 7; 8; 12; 13; 14; 15; 16; 17; 21; 22; 23; 24; 25; 26; 30; 31; 32; 33; 34; 35; 39; 40; 41; 42; 43;
   44; 48; 49; 50; 51; 52; 53; 54; 55; 56; 60; 61; 62; 63; 64; 65; 69; 70; 71; 72; 73; 74; 78; 79; 80; 81; 82;
   83; 87; 88; 89; 90; 91; 92; 96; 97; 98; 99; 100; 101; 105; 106; 107; 108; 109; 110; 111; 112; 113; 117; 118;
   119; 120; 121; 122; 126; 127; 128; 129; 130; 131; 135; 136; 137; 138; 139; 140; 144; 145; 146; 147; 148; 149;
   153; 154; 155; 156; 157; 158; 165; 166; 167; 168; 169; 170; 174; 175; 176; 177; 178; 179; 183; 184; 185; 186;
   187; 188; 192; 193; 194; 195; 196; 197; 201; 202; 203; 204; 205; 206; 210; 211; 212; 213; 214; 215; 216; 217;
   218; 222; 223; 224; 225; 226; 227; 231; 232; 233; 234; 235; 236; 240; 241; 242; 243; 244; 245; 249; 250; 251;
   252; 253; 254; 258; 259; 260; 261; 262; 263; 267; 268; 269; 270; 271; 272; 273; 274; 275; 279; 280; 281; 282;
   283; 284; 288; 289; 290; 291; 292; 293; 297; 298; 299; 300; 301; 302; 306; 307; 308; 309; 310; 311; 315; 316;
   317; 318; 319; 320].

(** data.abx: indexed_data in /regressors, which are the same for the three bys: c1_1, c0_1,
    c0_2 and c1_2. *)
Definition frozen_regressors : list (list Z) :=
  [[1; 2; 0; 2]; [1; 2; 0; 0]; [1; 2; 0; 2]; [1; 2; 0; 0]; [1; 2; 1; 2]; [1; 2; 1; 0]; [1; 2; 1; 2];
   [1; 2; 1; 0]; [1; 2; 0; 2]; [1; 2; 0; 0]; [1; 2; 0; 2]; [1; 2; 0; 0]; [1; 2; 1; 2]; [1; 2; 1; 0];
   [1; 2; 1; 2]; [1; 2; 1; 0]; [1; 2; 0; 2]; [1; 2; 0; 0]; [1; 2; 0; 2]; [1; 2; 0; 0]; [1; 2; 1; 2];
   [1; 2; 1; 0]; [1; 2; 1; 2]; [1; 2; 1; 0]; [1; 2; 0; 2]; [1; 2; 0; 0]; [1; 2; 0; 2]; [1; 2; 0; 0];
   [1; 2; 1; 2]; [1; 2; 1; 0]; [1; 2; 1; 2]; [1; 2; 1; 0]; [2; 2; 1; 0]; [2; 2; 1; 1]; [2; 2; 1; 0];
   [2; 2; 1; 1]; [2; 2; 0; 0]; [2; 2; 0; 1]; [2; 2; 0; 0]; [2; 2; 0; 1]; [2; 2; 1; 0]; [2; 2; 1; 1];
   [2; 2; 1; 0]; [2; 2; 1; 1]; [2; 2; 0; 0]; [2; 2; 0; 1]; [2; 2; 0; 0]; [2; 2; 0; 1]; [2; 2; 1; 0];
   [2; 2; 1; 1]; [2; 2; 1; 0]; [2; 2; 1; 1]; [2; 2; 0; 0]; [2; 2; 0; 1]; [2; 2; 0; 0]; [2; 2; 0; 1];
   [2; 2; 1; 0]; [2; 2; 1; 1]; [2; 2; 1; 0]; [2; 2; 1; 1]; [2; 2; 0; 0]; [2; 2; 0; 1]; [2; 2; 0; 0];
   [2; 2; 0; 1]; [1; 1; 0; 2]; [1; 1; 0; 0]; [1; 1; 0; 2]; [1; 1; 0; 0]; [1; 1; 2; 2]; [1; 1; 2; 0];
   [1; 1; 2; 2]; [1; 1; 2; 0]; [1; 1; 0; 2]; [1; 1; 0; 0]; [1; 1; 0; 2]; [1; 1; 0; 0]; [1; 1; 2; 2];
   [1; 1; 2; 0]; [1; 1; 2; 2]; [1; 1; 2; 0]; [1; 1; 0; 2]; [1; 1; 0; 0]; [1; 1; 0; 2]; [1; 1; 0; 0];
   [1; 1; 2; 2]; [1; 1; 2; 0]; [1; 1; 2; 2]; [1; 1; 2; 0]; [1; 1; 0; 2]; [1; 1; 0; 0]; [1; 1; 0; 2];
   [1; 1; 0; 0]; [1; 1; 2; 2]; [1; 1; 2; 0]; [1; 1; 2; 2]; [1; 1; 2; 0]; [0; 1; 0; 2]; [0; 1; 0; 1];
   [0; 1; 0; 2]; [0; 1; 0; 1]; [0; 1; 2; 2]; [0; 1; 2; 1]; [0; 1; 2; 2]; [0; 1; 2; 1]; [0; 1; 0; 2];
   [0; 1; 0; 1]; [0; 1; 0; 2]; [0; 1; 0; 1]; [0; 1; 2; 2]; [0; 1; 2; 1]; [0; 1; 2; 2]; [0; 1; 2; 1];
   [0; 1; 0; 2]; [0; 1; 0; 1]; [0; 1; 0; 2]; [0; 1; 0; 1]; [0; 1; 2; 2]; [0; 1; 2; 1]; [0; 1; 2; 2];
   [0; 1; 2; 1]; [0; 1; 0; 2]; [0; 1; 0; 1]; [0; 1; 0; 2]; [0; 1; 0; 1]; [0; 1; 2; 2]; [0; 1; 2; 1];
   [0; 1; 2; 2]; [0; 1; 2; 1]; [2; 1; 2; 0]; [2; 1; 2; 1]; [2; 1; 2; 0]; [2; 1; 2; 1]; [2; 1; 0; 0];
   [2; 1; 0; 1]; [2; 1; 0; 0]; [2; 1; 0; 1]; [2; 1; 2; 0]; [2; 1; 2; 1]; [2; 1; 2; 0]; [2; 1; 2; 1];
   [2; 1; 0; 0]; [2; 1; 0; 1]; [2; 1; 0; 0]; [2; 1; 0; 1]; [2; 1; 2; 0]; [2; 1; 2; 1]; [2; 1; 2; 0];
   [2; 1; 2; 1]; [2; 1; 0; 0]; [2; 1; 0; 1]; [2; 1; 0; 0]; [2; 1; 0; 1]; [2; 1; 2; 0]; [2; 1; 2; 1];
   [2; 1; 2; 0]; [2; 1; 2; 1]; [2; 1; 0; 0]; [2; 1; 0; 1]; [2; 1; 0; 0]; [2; 1; 0; 1]; [2; 0; 1; 0];
   [2; 0; 1; 1]; [2; 0; 1; 0]; [2; 0; 1; 1]; [2; 0; 2; 0]; [2; 0; 2; 1]; [2; 0; 2; 0]; [2; 0; 2; 1];
   [2; 0; 1; 0]; [2; 0; 1; 1]; [2; 0; 1; 0]; [2; 0; 1; 1]; [2; 0; 2; 0]; [2; 0; 2; 1]; [2; 0; 2; 0];
   [2; 0; 2; 1]; [2; 0; 1; 0]; [2; 0; 1; 1]; [2; 0; 1; 0]; [2; 0; 1; 1]; [2; 0; 2; 0]; [2; 0; 2; 1];
   [2; 0; 2; 0]; [2; 0; 2; 1]; [2; 0; 1; 0]; [2; 0; 1; 1]; [2; 0; 1; 0]; [2; 0; 1; 1]; [2; 0; 2; 0];
   [2; 0; 2; 1]; [2; 0; 2; 0]; [2; 0; 2; 1]; [0; 0; 1; 1]; [0; 0; 1; 2]; [0; 0; 1; 1]; [0; 0; 1; 2];
   [0; 0; 2; 1]; [0; 0; 2; 2]; [0; 0; 2; 1]; [0; 0; 2; 2]; [0; 0; 1; 1]; [0; 0; 1; 2]; [0; 0; 1; 1];
   [0; 0; 1; 2]; [0; 0; 2; 1]; [0; 0; 2; 2]; [0; 0; 2; 1]; [0; 0; 2; 2]; [0; 0; 1; 1]; [0; 0; 1; 2];
   [0; 0; 1; 1]; [0; 0; 1; 2]; [0; 0; 2; 1]; [0; 0; 2; 2]; [0; 0; 2; 1]; [0; 0; 2; 2]; [0; 0; 1; 1];
   [0; 0; 1; 2]; [0; 0; 1; 1]; [0; 0; 1; 2]; [0; 0; 2; 1]; [0; 0; 2; 2]; [0; 0; 2; 1]; [0; 0; 2; 2];
   [0; 2; 0; 2]; [0; 2; 0; 1]; [0; 2; 0; 2]; [0; 2; 0; 1]; [0; 2; 1; 2]; [0; 2; 1; 1]; [0; 2; 1; 2];
   [0; 2; 1; 1]; [0; 2; 0; 2]; [0; 2; 0; 1]; [0; 2; 0; 2]; [0; 2; 0; 1]; [0; 2; 1; 2]; [0; 2; 1; 1];
   [0; 2; 1; 2]; [0; 2; 1; 1]; [0; 2; 0; 2]; [0; 2; 0; 1]; [0; 2; 0; 2]; [0; 2; 0; 1]; [0; 2; 1; 2];
   [0; 2; 1; 1]; [0; 2; 1; 2]; [0; 2; 1; 1]; [0; 2; 0; 2]; [0; 2; 0; 1]; [0; 2; 0; 2]; [0; 2; 0; 1];
   [0; 2; 1; 2]; [0; 2; 1; 1]; [0; 2; 1; 2]; [0; 2; 1; 1]; [1; 0; 1; 0]; [1; 0; 1; 2]; [1; 0; 1; 0];
   [1; 0; 1; 2]; [1; 0; 2; 0]; [1; 0; 2; 2]; [1; 0; 2; 0]; [1; 0; 2; 2]; [1; 0; 1; 0]; [1; 0; 1; 2];
   [1; 0; 1; 0]; [1; 0; 1; 2]; [1; 0; 2; 0]; [1; 0; 2; 2]; [1; 0; 2; 0]; [1; 0; 2; 2]; [1; 0; 1; 0];
   [1; 0; 1; 2]; [1; 0; 1; 0]; [1; 0; 1; 2]; [1; 0; 2; 0]; [1; 0; 2; 2]; [1; 0; 2; 0]; [1; 0; 2; 2];
   [1; 0; 1; 0]; [1; 0; 1; 2]; [1; 0; 1; 0]; [1; 0; 1; 2]; [1; 0; 2; 0]; [1; 0; 2; 2]; [1; 0; 2; 0]; [1; 0; 2; 2]].

(** data.distance: /distances, by after by. Every one is a positive float64, given as the
    integer with the same 64 bits; the order is the same. *)
Definition frozen_distances : list Z :=
  [4603183797659733233; 4605245966697206659; 4601875081103320887; 4604073414571885259; 4603769291550428368;
   4604471982127635767; 4600801850051960102; 4605200125994188123; 4604219300154562345; 4606227755996311675;
   4593169304194536183; 4607155588752907807; 4583676501926304360; 4598297163025220302; 4589914380707689470;
   4593728898003878585; 4605837570451333396; 4595323168226880621; 4593939462415519273; 4598205481619183228;
   4605387561847199419; 4600260741623430334; 4603996305584970875; 4602223727325061051; 4592972736639078656;
   4592853456987038596; 4596949568365489628; 4580422744123213880; 4604548428438160414; 4583645860477650165;
   4598635625006743808; 4592486731362890307; 4604098419834026436; 4597189695648892323; 4605285447598143857;
   4599645443298715086; 4603183797659733233; 4583676501926304360; 4592972736639078656; 4591781355960381133;
   4605586967935149633; 4594320758162145554; 4603904888735549862; 4603430771134288723; 4605874121241905474;
   4599759536591062804; 4604246908101154640; 4601722522292693520; 4605245966697206659; 4598297163025220302;
   4592853456987038596; 4593858228791821027; 4603524798897676206; 4590856297219732063; 4605967057773023286;
   4600058385020983682; 4603811952204432047; 4592518735056005054; 4606309077138628066; 4597021148890216922;
   4601875081103320887; 4589914380707689470; 4596949568365489628; 4596353878026140859; 4606493815456898966;
   4597948148249142894; 4602998041213800528; 4604337618656038057; 4606780968763654805; 4601573231634561471;
   4603340060579405307; 4603107518254419550; 4604073414571885259; 4593728898003878585; 4580422744123213880;
   4591781355960381133; 4593858228791821027; 4596353878026140859; 4604794505647701889; 4602403489271626483;
   4604984504329753449; 4598337779837069425; 4593674865979746879; 4604247342418863629; 4603769291550428368;
   4605837570451333396; 4604548428438160414; 4605586967935149633; 4603524798897676206; 4606493815456898966;
   4603048200474611739; 4597792807493979058; 4584755273943887834; 4607030430982579358; 4603570639600694742;
   4587360958701938068; 4604471982127635767; 4595323168226880621; 4583645860477650165; 4594320758162145554;
   4590856297219732063; 4597948148249142894; 4605193073203452397; 4601606354160125466; 4604585936774002940;
   4599134914948570441; 4590489571595583760; 4603848774863113120; 4603904888735549862; 4605967057773023286;
   4602998041213800528; 4604794505647701889; 4603048200474611739; 4605193073203452397; 4602244032203593359;
   4605921217070004753; 4603498209078745716; 4606948847072128294; 4585633130885470968; 4606434497677091153;
   4603430771134288723; 4600058385020983682; 4604337618656038057; 4602403489271626483; 4597792807493979058;
   4601606354160125466; 4604874234181718451; 4600150066427020756; 4595992773077443147; 4598014393300270886;
   4604862377909867869; 4594088421897009451; 4605874121241905474; 4603811952204432047; 4606780968763654805;
   4604984504329753449; 4584755273943887834; 4604585936774002940; 4607047253310699623; 4603857792907450584;
   4590561715950283461; 4602830162905327031; 4602159236431855326; 4601018520936376433; 4600801850051960102;
   4593939462415519273; 4598635625006743808; 4598337779837069425; 4607030430982579358; 4599134914948570441;
   4602244032203593359; 4604874234181718451; 4607047253310699623; 4602646462685922257; 4602803445053724914;
   4603644133780099943; 4605200125994188123; 4598205481619183228; 4592486731362890307; 4593674865979746879;
   4603570639600694742; 4590489571595583760; 4605921217070004753; 4600150066427020756; 4603857792907450584;
   4592885460680153347; 4606263236435609531; 4597204511702291068; 4604219300154562345; 4605387561847199419;
   4604098419834026436; 4604247342418863629; 4587360958701938068; 4603848774863113120; 4603498209078745716;
   4595992773077443147; 4590561715950283461; 4601507182816227512; 4603156189713140938; 4599544197114596797;
   4606227755996311675; 4600260741623430334; 4597189695648892323; 4599759536591062804; 4592518735056005054;
   4601573231634561471; 4606948847072128294; 4598014393300270886; 4602830162905327031; 4602646462685922257;
   4592885460680153347; 4601507182816227512; 4593169304194536183; 4603996305584970875; 4605285447598143857;
   4604246908101154640; 4606309077138628066; 4603340060579405307; 4585633130885470968; 4604862377909867869;
   4602159236431855326; 4602803445053724914; 4606263236435609531; 4603156189713140938; 4607155588752907807;
   4602223727325061051; 4599645443298715086; 4601722522292693520; 4597021148890216922; 4603107518254419550;
   4606434497677091153; 4594088421897009451; 4601018520936376433; 4603644133780099943; 4597204511702291068;
   4599544197114596797; 4605488079048559548; 4599371748640088084; 4606900808296775899; 4603986988037217575;
   4605748684259824891; 4606919962829509572; 4596172921908370293; 4602067638314815030; 4586879981040475614;
   4598866450884315631; 4600244846938285339; 4604393144107193180; 4594527024334126441; 4606998392398752884;
   4599176580436134121; 4580820101422638789; 4595569445179187805; 4600264713383632827; 4602115386093759240;
   4606018500363918468; 4604568275537954369; 4606745743520866650; 4599044609882297257; 4603998585000456258;
   4594587889478781824; 4604671726893322587; 4574043551901490031; 4599383736534713065; 4593419317349534991;
   4589479048062397711; 4605091820941162431; 4603323782055959113; 4607101843754121090; 4604924375771208814;
   4603556432835431438; 4599928914212346897; 4605488079048559548; 4594527024334126441; 4594587889478781824;
   4595172384335903312; 4583996588168914882; 4596995203178398222; 4606044841048361134; 4596499200690207623;
   4606851364549166262; 4606279343068270414; 4601724111904092764; 4602638848806470096; 4599371748640088084;
   4606998392398752884; 4604671726893322587; 4606837052398308655; 4605766088979118845; 4604069898468418487;
   4598258224640484912; 4604193899090466137; 4591261783533421541; 4583741985500783021; 4604311897416557209;
   4600407340319557285; 4606900808296775899; 4599176580436134121; 4574043551901490031; 4599499260437022559;
   4593776516438339444; 4588865884615783981; 4606907267303457340; 4586881874663021684; 4605438635300949916;
   4604866613820054066; 4603614194786586185; 4599813390310037402; 4603986988037217575; 4580820101422638789;
   4599383736534713065; 4595172384335903312; 4606837052398308655; 4599499260437022559; 4604543750037019161;
   4600339392140425966; 4606012382039526582; 4601792706092870802; 4606179840364362689; 4604406935537510152;
   4605748684259824891; 4595569445179187805; 4593419317349534991; 4583996588168914882; 4605766088979118845;
   4593776516438339444; 4606305446259626475; 4595456779845146256; 4606590759337900924; 4603997458855366172;
   4604418144141755372; 4606168631760117466; 4606919962829509572; 4600264713383632827; 4589479048062397711;
   4596995203178398222; 4604069898468418487; 4588865884615783981; 4606363200829707985; 4579089661592103357;
   4604894568827200564; 4605693649366066532; 4602721953631055013; 4606500015329216992; 4606044841048361134;
   4598258224640484912; 4606907267303457340; 4604543750037019161; 4606305446259626475; 4606363200829707985;
   4598287594726426527; 4600954114315211858; 4579909749749630120; 4597330634224148503; 4601358370937888511;
   4603836382107391595; 4596499200690207623; 4604193899090466137; 4586881874663021684; 4600339392140425966;
   4595456779845146256; 4579089661592103357; 4605569648744018880; 4602845954253102664; 4606624015951264643;
   4604446547968352364; 4604034260638287888; 4598973258606633997; 4606851364549166262; 4591261783533421541;
   4605438635300949916; 4606012382039526582; 4606590759337900924; 4604894568827200564; 4601224858731441367;
   4597858481075117620; 4595589806298601145; 4589240592510331729; 4603487227057775132; 4602056681037121437;
   4596172921908370293; 4602115386093759240; 4605091820941162431; 4601792706092870802; 4603997458855366172;
   4605693649366066532; 4598287594726426527; 4605569648744018880; 4601224858731441367; 4602368901693233066;
   4595309572713459391; 4606144369511651898; 4602067638314815030; 4606018500363918468; 4603323782055959113;
   4606179840364362689; 4604418144141755372; 4602721953631055013; 4600954114315211858; 4602845954253102664;
   4597858481075117620; 4595570395151534219; 4605659842253920682; 4597247681744384263; 4586879981040475614;
   4604568275537954369; 4607101843754121090; 4604406935537510152; 4606168631760117466; 4606500015329216992;
   4579909749749630120; 4606624015951264643; 4595589806298601145; 4597877892222184540; 4601084741938870491;
   4603973196606900604; 4598866450884315631; 4606745743520866650; 4604924375771208814; 4606279343068270414;
   4583741985500783021; 4604866613820054066; 4597330634224148503; 4604446547968352364; 4589240592510331729;
   4602368901693233066; 4595570395151534219; 4597877892222184540; 4600244846938285339; 4599044609882297257;
   4603556432835431438; 4601724111904092764; 4604311897416557209; 4603614194786586185; 4601358370937888511;
   4604034260638287888; 4603487227057775132; 4595309572713459391; 4605659842253920682; 4601084741938870491;
   4604393144107193180; 4603998585000456258; 4599928914212346897; 4602638848806470096; 4600407340319557285;
   4599813390310037402; 4603836382107391595; 4598973258606633997; 4602056681037121437; 4606144369511651898;
   4597247681744384263; 4603973196606900604; 4605213292197565689; 4590455766622257433; 4598640631169410082;
   4606330111387204500; 4598923169525042454; 4605230255677459321; 4596438214030336210; 4602998651361517313;
   4605400973546426913; 4601930317779529502; 4603372175600563092; 4606629934549531926; 4604341568210576370;
   4595550589218038952; 4600384079143388721; 4607163002225841022; 4596184223556851216; 4606101979664448641;
   4592231016246851951; 4603870375348506633; 4604529249559437593; 4600186869805550864; 4602322084054500632;
   4606863179063513573; 4606039812628081035; 4598447248976908979; 4589682237852253014; 4603218378612816406;
   4603912727123232775; 4601558226633495547; 4603104500754614704; 4596014816457946647; 4605852131279219812;
   4605416301250476299; 4606483908374951183; 4603518201775143834; 4605213292197565689; 4604341568210576370;
   4606039812628081035; 4599314487948435180; 4602496215615347931; 4601514199367925532; 4604157954006600269;
   4606373084495414373; 4597075424447147969; 4599489067360860885; 4596532486678545810; 4598714841623780323;
   4590455766622257433; 4595550589218038952; 4598447248976908979; 4605606193142317935; 4600371006014815578;
   4604506337432572759; 4596285046033943351; 4587134805883188372; 4603960359403299114; 4603028486720974769;
   4604096093845449654; 4605906016304645364; 4598640631169410082; 4600384079143388721; 4589682237852253014;
   4603845605761452417; 4603285499974596764; 4602745750051707240; 4600751307551340921; 4594466873602149020;
   4605720946784164634; 4604789074101840288; 4605856681226315174; 4604145428923779845; 4606330111387204500;
   4607163002225841022; 4603218378612816406; 4599314487948435180; 4605606193142317935; 4603845605761452417;
   4606979388021864903; 4605170319089355815; 4602973504599694182; 4606217177777880123; 4600334539969280289;
   4598939125250712730; 4598923169525042454; 4596184223556851216; 4603912727123232775; 4602496215615347931;
   4600371006014815578; 4603285499974596764; 4595449766740946816; 4601242754120739819; 4598542513537041659;
   4591130231612109497; 4605624426165085580; 4602775198742858646; 4605230255677459321; 4606101979664448641;
   4601558226633495547; 4601514199367925532; 4604506337432572759; 4602745750051707240; 4606285593868424740;
   4604070463379610638; 4604073360309439358; 4607047804112409519; 4598094437554303461; 4601138836670203083;
   4604157954006600269; 4596285046033943351; 4600751307551340921; 4606979388021864903; 4595449766740946816;
   4606285593868424740; 4590762102615043143; 4604053989552482733; 4604345635355461494; 4599819641397598662;
   4601954855646548432; 4606679564859537471; 4606373084495414373; 4587134805883188372; 4594466873602149020;
   4605170319089355815; 4601242754120739819; 4604070463379610638; 4599626301383503680; 4600998898954690348;
   4606560765844275596; 4603464360773936890; 4604531967898411775; 4605470142251683243; 4597075424447147969;
   4603960359403299114; 4605720946784164634; 4602973504599694182; 4598542513537041659; 4604073360309439358;
   4600158966274277799; 4606304964625381368; 4597826149842592865; 4592119402121759695; 4579840626078687644;
   4602668543702086596; 4596438214030336210; 4592231016246851951; 4603104500754614704; 4606217177777880123;
   4591130231612109497; 4607047804112409519; 4590762102615043143; 4599626301383503680; 4600158966274277799;
   4598295220909629110; 4600430435158578879; 4605917354615552694; 4602998651361517313; 4603870375348506633;
   4596014816457946647; 4600334539969280289; 4605624426165085580; 4598094437554303461; 4604053989552482733;
   4600998898954690348; 4606304964625381368; 4607128000292329073; 4606169230183230828; 4600934186293935146;
   4605400973546426913; 4604529249559437593; 4605852131279219812; 4598939125250712730; 4602775198742858646;
   4601138836670203083; 4604345635355461494; 4606560765844275596; 4597826149842592865; 4599864430058583334;
   4597283212073990707; 4598339478926057874; 4601930317779529502; 4600186869805550864; 4605416301250476299;
   4599489067360860885; 4603028486720974769; 4604789074101840288; 4599819641397598662; 4603464360773936890;
   4592119402121759695; 4598295220909629110; 4607128000292329073; 4599864430058583334; 4603372175600563092;
   4602322084054500632; 4606483908374951183; 4596532486678545810; 4604096093845449654; 4605856681226315174;
   4601954855646548432; 4604531967898411775; 4579840626078687644; 4600430435158578879; 4606169230183230828;
   4597283212073990707; 4606629934549531926; 4606863179063513573; 4603518201775143834; 4598714841623780323;
   4605906016304645364; 4604145428923779845; 4606679564859537471; 4605470142251683243; 4602668543702086596;
   4605917354615552694; 4600934186293935146; 4598339478926057874].

(** data.score: /scores, by after by. *)
Definition frozen_scores : list Z :=
  [(-1); (-1); (-1); (-1); (-1); (-1); (-1); (-1); 1; 1; 1; 1; (-1); (-1); (-1); (-1); 1; (-1); (-1); 1; (-1);
   (-1); (-1); 1; 1; (-1); (-1); 1; (-1); (-1); (-1); 1; 1; 1; (-1); (-1); (-1); (-1); 1; 1; 1; 1; (-1); (-1);
   1; 1; (-1); (-1); 1; 1; 1; 1; (-1); (-1); 1; 1; 1; 1; (-1); (-1); (-1); (-1); 1; 1; (-1); (-1); 1; 1; (-1);
   (-1); 1; 1; (-1); (-1); 1; 1; (-1); 1; (-1); (-1); (-1); (-1); 1; 1; (-1); (-1); 1; 1; (-1); (-1); 1; 1;
   (-1); 1; (-1); (-1); (-1); 1; (-1); 1; 1; (-1); (-1); (-1); (-1); 1; (-1); 1; (-1); 1; (-1); 1; (-1); 1; 1;
   1; 1; (-1); 1; (-1); (-1); 1; 1; 1; (-1); 1; (-1); 1; (-1); (-1); (-1); (-1); (-1); (-1); 1; (-1); (-1);
   (-1); 1; (-1); (-1); (-1); 1; (-1); (-1); (-1); (-1); (-1); (-1); (-1); (-1); (-1); (-1); (-1); (-1); (-1);
   (-1); (-1); (-1); (-1); (-1); 1; (-1); 1; 1; 1; 1; 1; (-1); 1; (-1); 1; 1; 1; 1; 1; (-1); 1; (-1); 1; 1; 1;
   (-1); 1; (-1); 1; (-1); 1; (-1); (-1); (-1); (-1); (-1); (-1); (-1); (-1); (-1); (-1); (-1); (-1); 1; (-1);
   1; (-1); 1; 1; 1; (-1); (-1); (-1); (-1); (-1); (-1); (-1); (-1); (-1); (-1); (-1); 1; (-1); 1; 1; 1; (-1);
   1; 1; 1; 1; 1; (-1); 1; 1; 1; 1; 1; (-1); (-1); 1; 1; (-1); 1; (-1); (-1); 1; 1; (-1); (-1); 1; 1; (-1); 1;
   1; (-1); (-1); (-1); 1; 1; 1; 1; (-1); (-1); 1; (-1); 1; 1; 1; 1; (-1); 1; 1; (-1); 1; 1; (-1); 1; (-1); 1;
   (-1); 1; (-1); 1; (-1); 1; (-1); 1; 1; 1; (-1); 1; 1; 1; 1; 1; 1; 1; (-1); 1; 1; 1; (-1); (-1); 1; 1; (-1);
   (-1); (-1); (-1); 1; (-1); (-1); (-1); (-1); 1; (-1); (-1); 1; (-1); (-1); (-1); 1; 1; 1; (-1); (-1); 1; 1;
   1; (-1); 1; 1; 1; (-1); 1; 1; (-1); (-1); 1; 1; 1; (-1); (-1); (-1); 1; 1; (-1); (-1); 1; 1; 1; 1; (-1);
   (-1); (-1); (-1); (-1); (-1); (-1); (-1); (-1); (-1); (-1); (-1); (-1); 1; (-1); (-1); 1; 1; (-1); (-1);
   (-1); (-1); (-1); (-1); (-1); (-1); (-1); (-1); (-1); 1; (-1); (-1); 1; 1; 1; (-1); 1; (-1); 1; (-1); (-1);
   (-1); 1; (-1); 1; (-1); 1; (-1); 1; (-1); (-1); (-1); 1; (-1); (-1); 1; (-1); 1; (-1); (-1); 1; (-1); (-1);
   (-1); 1; (-1); 1; (-1); 1; (-1); (-1); 1; 1; 1; 1; (-1); (-1); (-1); 1; (-1); 1; (-1); 1; (-1); (-1); (-1);
   (-1); 1; (-1); 1; 1; (-1); (-1); (-1); 1; (-1); 1; (-1); (-1); 1; (-1); (-1); 1; 1; (-1); 1; 1; (-1); 1; 1;
   1; 1; 1; 1; 1; (-1); 1; (-1); 1; (-1); 1; 1; 1; (-1); 1; 1; 1; (-1); 1; 1; (-1); (-1); 1; 1; (-1); (-1); 1;
   1; (-1); (-1); 1; 1; 1; 1; 1; (-1); (-1); (-1); 1; 1; (-1); (-1); 1; 1; (-1); (-1); 1; 1; 1; 1; 1; (-1); 1;
   1; 1; (-1); 1; 1; 1; (-1); 1; 1; 1; (-1); (-1); 1; (-1); (-1); 1; 1; 1; (-1); 1; (-1); (-1); 1; 1; 1; 1;
   (-1); (-1); (-1); (-1); 1; (-1); 1; (-1); (-1); 1; 1; 1; (-1); (-1); 1; (-1); (-1); (-1); 1; (-1); (-1); 1;
   1; (-1); (-1); 1; (-1); 1; 1; 1; 1; 1; (-1); (-1); 1; (-1); (-1); (-1); 1; (-1); (-1); 1; 1; 1; (-1); 1; 1;
   1; (-1); (-1); 1; (-1); 1; 1; 1; 1; (-1); 1; (-1); 1; 1; 1; (-1); 1; 1; 1; (-1); (-1); 1; 1; 1; (-1); (-1);
   1; 1; (-1); (-1); 1; 1; (-1); 1; 1; 1; (-1); (-1); 1; 1; (-1); (-1); (-1); (-1); 1; 1; 1; (-1); (-1); 1; 1;
   1; (-1); 1; (-1); 1; 1; 1; 1; 1; 1; 1; (-1); (-1); (-1); 1; (-1); 1; 1; 1; (-1); 1; (-1); 1; (-1); (-1);
   (-1); (-1); (-1); (-1); (-1); (-1); (-1); 1; (-1); 1; 1; (-1); 1; (-1); 1; 1; 1; (-1); (-1); 1; (-1); 1;
   (-1); 1; 1; 1; (-1); 1; (-1); 1; 1; 1; 1; (-1); (-1); 1; (-1); 1; (-1); 1; (-1); 1; 1; 1; 1; (-1); 1; 1; 1;
   (-1); 1; 1; 1; (-1); 1; 1; 1; 1; 1; 1; 1; (-1); 1; 1; 1; (-1); 1; 1; (-1); (-1); (-1); (-1); (-1); 1; (-1);
   (-1); (-1); (-1); 1; (-1); (-1); (-1); (-1); 1; (-1); (-1); (-1); 1; (-1); 1; 1; (-1); 1; 1; 1; (-1); 1; 1;
   (-1); 1; (-1); (-1); 1; 1; 1; 1; (-1); 1; (-1); (-1); 1; (-1); 1; 1; 1; (-1); 1; 1; (-1); (-1); 1; (-1); 1;
   1; 1; 1; 1; (-1); 1; 1; 1; (-1); 1; 1; (-1); (-1); 1; (-1); 1; 1; 1; (-1); 1; 1; 1; (-1); 1; 1; 1; (-1); 1;
   1; 1; 1; 1; (-1); 1; 1; 1; (-1); 1; 1; 1; (-1); 1; 1; 1; (-1); (-1); 1; (-1); 1; (-1); 1; (-1); 1; (-1); 1;
   (-1); 1; (-1); 1; 1; (-1); 1; 1; (-1); (-1); 1; 1; 1; (-1); 1; 1; 1; (-1); 1; 1; 1; (-1); 1; 1].

(** data.csv. *)
Definition frozen_csv : string :=
"c1_1	c0_1	c0_2	c1_2	by	score	n
c1_v0	c0_v0	c0_v1	c1_v1	c2_v0	0.375	8
c1_v0	c0_v0	c0_v1	c1_v2	c2_v0	0.0	8
c1_v0	c0_v0	c0_v2	c1_v1	c2_v0	0.5	8
c1_v0	c0_v0	c0_v2	c1_v2	c2_v0	0.25	8
c1_v0	c0_v1	c0_v0	c1_v1	c2_v0	1.0	8
c1_v0	c0_v1	c0_v0	c1_v2	c2_v0	0.25	8
c1_v0	c0_v1	c0_v2	c1_v1	c2_v0	0.5	8
c1_v0	c0_v1	c0_v2	c1_v2	c2_v0	0.375	8
c1_v0	c0_v2	c0_v0	c1_v1	c2_v0	0.625	8
c1_v0	c0_v2	c0_v0	c1_v2	c2_v0	0.875	8
c1_v0	c0_v2	c0_v1	c1_v1	c2_v0	0.5	8
c1_v0	c0_v2	c0_v1	c1_v2	c2_v0	0.5	8
c1_v1	c0_v0	c0_v1	c1_v0	c2_v0	1.0	8
c1_v1	c0_v0	c0_v1	c1_v2	c2_v0	0.25	8
c1_v1	c0_v0	c0_v2	c1_v0	c2_v0	0.625	8
c1_v1	c0_v0	c0_v2	c1_v2	c2_v0	0.625	8
c1_v1	c0_v1	c0_v0	c1_v0	c2_v0	0.5	8
c1_v1	c0_v1	c0_v0	c1_v2	c2_v0	0.5	8
c1_v1	c0_v1	c0_v2	c1_v0	c2_v0	0.5	8
c1_v1	c0_v1	c0_v2	c1_v2	c2_v0	0.25	8
c1_v1	c0_v2	c0_v0	c1_v0	c2_v0	0.5	8
c1_v1	c0_v2	c0_v0	c1_v2	c2_v0	0.5	8
c1_v1	c0_v2	c0_v1	c1_v0	c2_v0	0.25	8
c1_v1	c0_v2	c0_v1	c1_v2	c2_v0	0.0	8
c1_v2	c0_v0	c0_v1	c1_v0	c2_v0	0.0	8
c1_v2	c0_v0	c0_v1	c1_v1	c2_v0	1.0	8
c1_v2	c0_v0	c0_v2	c1_v0	c2_v0	0.625	8
c1_v2	c0_v0	c0_v2	c1_v1	c2_v0	0.75	8
c1_v2	c0_v1	c0_v0	c1_v0	c2_v0	0.25	8
c1_v2	c0_v1	c0_v0	c1_v1	c2_v0	0.0	8
c1_v2	c0_v1	c0_v2	c1_v0	c2_v0	0.125	8
c1_v2	c0_v1	c0_v2	c1_v1	c2_v0	0.0	8
c1_v2	c0_v2	c0_v0	c1_v0	c2_v0	0.5	8
c1_v2	c0_v2	c0_v0	c1_v1	c2_v0	0.5	8
c1_v2	c0_v2	c0_v1	c1_v0	c2_v0	0.625	8
c1_v2	c0_v2	c0_v1	c1_v1	c2_v0	0.625	8
c1_v0	c0_v0	c0_v1	c1_v1	c2_v1	0.5	8
c1_v0	c0_v0	c0_v1	c1_v2	c2_v1	0.5	8
c1_v0	c0_v0	c0_v2	c1_v1	c2_v1	0.75	8
c1_v0	c0_v0	c0_v2	c1_v2	c2_v1	0.5	8
c1_v0	c0_v1	c0_v0	c1_v1	c2_v1	0.0	8
c1_v0	c0_v1	c0_v0	c1_v2	c2_v1	0.75	8
c1_v0	c0_v1	c0_v2	c1_v1	c2_v1	0.25	8
c1_v0	c0_v1	c0_v2	c1_v2	c2_v1	0.5	8
c1_v0	c0_v2	c0_v0	c1_v1	c2_v1	0.5	8
c1_v0	c0_v2	c0_v0	c1_v2	c2_v1	1.0	8
c1_v0	c0_v2	c0_v1	c1_v1	c2_v1	0.5	8
c1_v0	c0_v2	c0_v1	c1_v2	c2_v1	0.375	8
c1_v1	c0_v0	c0_v1	c1_v0	c2_v1	0.375	8
c1_v1	c0_v0	c0_v1	c1_v2	c2_v1	0.5	8
c1_v1	c0_v0	c0_v2	c1_v0	c2_v1	0.5	8
c1_v1	c0_v0	c0_v2	c1_v2	c2_v1	0.5	8
c1_v1	c0_v1	c0_v0	c1_v0	c2_v1	0.25	8
c1_v1	c0_v1	c0_v0	c1_v2	c2_v1	0.0	8
c1_v1	c0_v1	c0_v2	c1_v0	c2_v1	0.25	8
c1_v1	c0_v1	c0_v2	c1_v2	c2_v1	0.25	8
c1_v1	c0_v2	c0_v0	c1_v0	c2_v1	0.625	8
c1_v1	c0_v2	c0_v0	c1_v2	c2_v1	0.625	8
c1_v1	c0_v2	c0_v1	c1_v0	c2_v1	0.375	8
c1_v1	c0_v2	c0_v1	c1_v2	c2_v1	0.375	8
c1_v2	c0_v0	c0_v1	c1_v0	c2_v1	0.75	8
c1_v2	c0_v0	c0_v1	c1_v1	c2_v1	0.375	8
c1_v2	c0_v0	c0_v2	c1_v0	c2_v1	0.875	8
c1_v2	c0_v0	c0_v2	c1_v1	c2_v1	0.75	8
c1_v2	c0_v1	c0_v0	c1_v0	c2_v1	0.625	8
c1_v2	c0_v1	c0_v0	c1_v1	c2_v1	0.5	8
c1_v2	c0_v1	c0_v2	c1_v0	c2_v1	0.625	8
c1_v2	c0_v1	c0_v2	c1_v1	c2_v1	0.0	8
c1_v2	c0_v2	c0_v0	c1_v0	c2_v1	0.625	8
c1_v2	c0_v2	c0_v0	c1_v1	c2_v1	0.5	8
c1_v2	c0_v2	c0_v1	c1_v0	c2_v1	0.75	8
c1_v2	c0_v2	c0_v1	c1_v1	c2_v1	0.5	8
c1_v0	c0_v0	c0_v1	c1_v1	c2_v2	0.75	8
c1_v0	c0_v0	c0_v1	c1_v2	c2_v2	0.625	8
c1_v0	c0_v0	c0_v2	c1_v1	c2_v2	0.75	8
c1_v0	c0_v0	c0_v2	c1_v2	c2_v2	0.25	8
c1_v0	c0_v1	c0_v0	c1_v1	c2_v2	0.75	8
c1_v0	c0_v1	c0_v0	c1_v2	c2_v2	0.25	8
c1_v0	c0_v1	c0_v2	c1_v1	c2_v2	0.75	8
c1_v0	c0_v1	c0_v2	c1_v2	c2_v2	0.625	8
c1_v0	c0_v2	c0_v0	c1_v1	c2_v2	0.5	8
c1_v0	c0_v2	c0_v0	c1_v2	c2_v2	1.0	8
c1_v0	c0_v2	c0_v1	c1_v1	c2_v2	0.625	8
c1_v0	c0_v2	c0_v1	c1_v2	c2_v2	0.875	8
c1_v1	c0_v0	c0_v1	c1_v0	c2_v2	0.375	8
c1_v1	c0_v0	c0_v1	c1_v2	c2_v2	0.75	8
c1_v1	c0_v0	c0_v2	c1_v0	c2_v2	0.75	8
c1_v1	c0_v0	c0_v2	c1_v2	c2_v2	0.625	8
c1_v1	c0_v1	c0_v0	c1_v0	c2_v2	0.625	8
c1_v1	c0_v1	c0_v0	c1_v2	c2_v2	0.125	8
c1_v1	c0_v1	c0_v2	c1_v0	c2_v2	0.75	8
c1_v1	c0_v1	c0_v2	c1_v2	c2_v2	0.375	8
c1_v1	c0_v2	c0_v0	c1_v0	c2_v2	0.5	8
c1_v1	c0_v2	c0_v0	c1_v2	c2_v2	0.75	8
c1_v1	c0_v2	c0_v1	c1_v0	c2_v2	0.625	8
c1_v1	c0_v2	c0_v1	c1_v2	c2_v2	0.625	8
c1_v2	c0_v0	c0_v1	c1_v0	c2_v2	0.25	8
c1_v2	c0_v0	c0_v1	c1_v1	c2_v2	0.375	8
c1_v2	c0_v0	c0_v2	c1_v0	c2_v2	0.625	8
c1_v2	c0_v0	c0_v2	c1_v1	c2_v2	0.625	8
c1_v2	c0_v1	c0_v0	c1_v0	c2_v2	0.75	8
c1_v2	c0_v1	c0_v0	c1_v1	c2_v2	0.625	8
c1_v2	c0_v1	c0_v2	c1_v0	c2_v2	0.875	8
c1_v2	c0_v1	c0_v2	c1_v1	c2_v2	0.5	8
c1_v2	c0_v2	c0_v0	c1_v0	c2_v2	0.5	8
c1_v2	c0_v2	c0_v0	c1_v1	c2_v2	0.625	8
c1_v2	c0_v2	c0_v1	c1_v0	c2_v2	0.5	8
c1_v2	c0_v2	c0_v1	c1_v1	c2_v2	0.625	8
".

(** data.item. *)
Definition frozen_item_text : string :=
"#file onset offset #item c0 c1 c2
s0 0.0 0.0 i0 c0_v0 c1_v0 c2_v0
s1 0.0 0.0 i1 c0_v1 c1_v0 c2_v0
s2 0.0 0.0 i2 c0_v2 c1_v0 c2_v0
s3 0.0 0.0 i3 c0_v0 c1_v1 c2_v0
s4 0.0 0.0 i4 c0_v1 c1_v1 c2_v0
s5 0.0 0.0 i5 c0_v2 c1_v1 c2_v0
s6 0.0 0.0 i6 c0_v0 c1_v2 c2_v0
s7 0.0 0.0 i7 c0_v1 c1_v2 c2_v0
s8 0.0 0.0 i8 c0_v2 c1_v2 c2_v0
s9 0.0 0.0 i9 c0_v0 c1_v0 c2_v1
s10 0.0 0.0 i10 c0_v1 c1_v0 c2_v1
s11 0.0 0.0 i11 c0_v2 c1_v0 c2_v1
s12 0.0 0.0 i12 c0_v0 c1_v1 c2_v1
s13 0.0 0.0 i13 c0_v1 c1_v1 c2_v1
s14 0.0 0.0 i14 c0_v2 c1_v1 c2_v1
s15 0.0 0.0 i15 c0_v0 c1_v2 c2_v1
s16 0.0 0.0 i16 c0_v1 c1_v2 c2_v1
s17 0.0 0.0 i17 c0_v2 c1_v2 c2_v1
s18 0.0 0.0 i18 c0_v0 c1_v0 c2_v2
s19 0.0 0.0 i19 c0_v1 c1_v0 c2_v2
s20 0.0 0.0 i20 c0_v2 c1_v0 c2_v2
s21 0.0 0.0 i21 c0_v0 c1_v1 c2_v2
s22 0.0 0.0 i22 c0_v1 c1_v1 c2_v2
s23 0.0 0.0 i23 c0_v2 c1_v1 c2_v2
s24 0.0 0.0 i24 c0_v0 c1_v2 c2_v2
s25 0.0 0.0 i25 c0_v1 c1_v2 c2_v2
s26 0.0 0.0 i26 c0_v2 c1_v2 c2_v2
s27 0.0 0.0 i27 c0_v0 c1_v0 c2_v0
s28 0.0 0.0 i28 c0_v1 c1_v0 c2_v0
s29 0.0 0.0 i29 c0_v2 c1_v0 c2_v0
s30 0.0 0.0 i30 c0_v0 c1_v1 c2_v0
s31 0.0 0.0 i31 c0_v1 c1_v1 c2_v0
s32 0.0 0.0 i32 c0_v2 c1_v1 c2_v0
s33 0.0 0.0 i33 c0_v0 c1_v2 c2_v0
s34 0.0 0.0 i34 c0_v1 c1_v2 c2_v0
s35 0.0 0.0 i35 c0_v2 c1_v2 c2_v0
s36 0.0 0.0 i36 c0_v0 c1_v0 c2_v1
s37 0.0 0.0 i37 c0_v1 c1_v0 c2_v1
s38 0.0 0.0 i38 c0_v2 c1_v0 c2_v1
s39 0.0 0.0 i39 c0_v0 c1_v1 c2_v1
s40 0.0 0.0 i40 c0_v1 c1_v1 c2_v1
s41 0.0 0.0 i41 c0_v2 c1_v1 c2_v1
s42 0.0 0.0 i42 c0_v0 c1_v2 c2_v1
s43 0.0 0.0 i43 c0_v1 c1_v2 c2_v1
s44 0.0 0.0 i44 c0_v2 c1_v2 c2_v1
s45 0.0 0.0 i45 c0_v0 c1_v0 c2_v2
s46 0.0 0.0 i46 c0_v1 c1_v0 c2_v2
s47 0.0 0.0 i47 c0_v2 c1_v0 c2_v2
s48 0.0 0.0 i48 c0_v0 c1_v1 c2_v2
s49 0.0 0.0 i49 c0_v1 c1_v1 c2_v2
s50 0.0 0.0 i50 c0_v2 c1_v1 c2_v2
s51 0.0 0.0 i51 c0_v0 c1_v2 c2_v2
s52 0.0 0.0 i52 c0_v1 c1_v2 c2_v2
s53 0.0 0.0 i53 c0_v2 c1_v2 c2_v2
".

(** data.features: the frames of the files s0 to s53, all the numbers being multiplied by
    2 ^ 60, which makes them integers. *)
Definition frozen_features : list (list (Z * Z)) :=
  [[(1356884220316558848, (-1276351592560384256))];
   [((-412048792508901696), (-366713157719500928)); (788014098662837632, 169213311301942208); (1064157981392417152, (-958146836605182592))];
   [((-857716218359549056), (-244424866104500448))];
   [((-687773277659876480), (-511908372560976000)); (552996045912541504, (-1061144491343146496)); ((-2098539350603409920), 1893874855535368704)];
   [((-2201828208651715328), 175227867122473376); ((-984536283985517184), (-2855918906088435712))];
   [((-1119054884561298560), (-1585344700872411136)); ((-675103311079647104), (-652193904157564288))];
   [((-894617172812488064), (-305984125336050112)); ((-353449830755947264), 511958901990397312)];
   [(1351832682161706752, 3439527670269363712); ((-1066141755780500224), 295999917909518336); (1035797203372874496, 1150890255466126336)];
   [((-134371419517705792), (-25917558273702464))];
   [((-1906742943105271552), 1238996713820139264); ((-344696825211625920), 207435485431052224); (703536406925617664, 275715903769702752)];
   [((-42799224081899888), (-671110871239136000)); ((-567693156963791360), 151118633327497024)];
   [(1071820731437880576, (-892935513346047616))];
   [(839510229216204160, (-1965866686840515328)); ((-1396630440776141568), (-140216488037183936))];
   [((-1280631255951731), 2568788674576893952); ((-43810602176880784), (-401891969009739840)); ((-1094349949107088384), 563783933864056192)];
   [(2182551445017057536, (-1745017398570952192))];
   [((-141232844477335616), (-1171672816722233088)); (898262991414515968, (-1735371364247264000)); (336856465231309248, (-898694378957502848))];
   [(257075179816009696, (-476791926283987328))];
   [(854029251237463040, (-449722169006650176))];
   [(2349716250712251904, 2515061741934526464); (117599803922526272, (-1214371685640305152))];
   [(494376600073127808, 1030328601173550336); (1561332570775338240, 773069562799103104)];
   [(2805575044838389248, (-764270851610177792))];
   [((-1349612199025138432), (-179970791632487360))];
   [(1941566741296081152, 1235954396544241664); ((-1931958630645623296), 1450559054109703424); ((-480210462082115328), 1020036902631901056)];
   [(317906039208990976, (-15012977224589286)); ((-29085407170057572), 1280798340904132864); (657707264351850880, 2320358366415960064)];
   [((-418680695181998912), (-857630771581010304))];
   [((-163213880909243424), 983747070322036992)];
   [((-122420084602139616), (-1732735767560332288))];
   [(541027017106705088, (-297899147822355136))];
   [((-413184805600944960), 1041820336776103168); ((-938343109588862848), 594499798092869760)];
   [(721947074790458240, 1405075490189321984); ((-465628036410502976), (-791971416445601792)); ((-356157816011673024), (-1194873813089839616))];
   [((-622807374929474048), (-1367032462515974144))];
   [((-508563321390105088), 32299913744471320)];
   [(192303089696493440, 870062591252046464)];
   [((-2193384487162148864), 984378206120748544); (3827708489933790208, (-2391849237555888128)); (408085739784421184, (-1776161275202116096))];
   [(1801569518352916224, (-727992767037950208))];
   [((-844032529549442048), 808958005355007744); ((-387558055635617088), 831243867567830016); (195573637454862016, (-1200905680874437120))];
   [((-1312594113535994880), 1273861431824953088); (1047993702364961408, (-1211447872870692864))];
   [(1356409217714893312, (-790996882055817088)); ((-1638029064396352768), (-647480938366467712))];
   [((-308292836633173504), 1040193254574044160); (748207414306283008, (-38184730756089216))];
   [((-942013955624218240), (-32579882749212540))];
   [(889325669634744064, 1752290702464689408); ((-1196978169681143808), 1253771974255907584)];
   [((-1286844257375374080), 1134823021987246080); ((-396748899885326400), (-705811935647485056))];
   [((-58784196754183016), 661597832712820352); (949763794255567232, 776900715391210240); ((-14604168551910496), 676956315039112832)];
   [((-452154306442102656), (-289877138092036288))];
   [(1070170370269237632, 448215047571323712)];
   [(235758931444554496, 584596658361872512); (68550933976857632, 532434756278481600)];
   [(1907167335907769088, 839941834278740096)];
   [((-867127533294478336), 539945949708834368)];
   [(145085064117004448, 1229227029651044864)];
   [(381281840114610368, (-445555239470858368)); ((-711196727303421184), (-231310485068279072))];
   [((-1638289903846978816), (-328736871589975808)); ((-393066871876463296), (-909665684527265024))];
   [((-992345687979951488), 1205199281995824384); (606092040559354112, (-1899053327132968960)); (674672490278714240, 1061659367197456384)];
   [((-1107807544513490688), 619064679595249536)];
   [((-1058750465978951168), (-1693531978019740416)); (2985597165382756864, 1243804680581093)]].
