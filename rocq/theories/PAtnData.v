(** * The serialised automaton of the generated parser, verbatim.

    pyudunits2/_grammar/parser/udunits2Parser.py:12-1540, serializedATN().  Written by
    tools/gen_patn.py; the numbers are copied in order, nothing is interpreted. *)
From Coq Require Import ZArith List.
Import ListNotations.
Local Open Scope Z_scope.

Definition parser_atn : list Z :=
  [
   4; 1; 27; 159; 2; 0; 7; 0; 2; 1; 7; 1; 2; 2; 7; 2; 2; 3; 7; 3;
   2; 4; 7; 4; 2; 5; 7; 5; 2; 6; 7; 6; 2; 7; 7; 7; 2; 8; 7; 8;
   2; 9; 7; 9; 2; 10; 7; 10; 1; 0; 3; 0; 24; 8; 0; 1; 0; 1; 0; 1;
   1; 1; 1; 1; 1; 3; 1; 31; 8; 1; 1; 1; 1; 1; 3; 1; 35; 8; 1; 1;
   1; 1; 1; 1; 1; 1; 1; 3; 1; 41; 8; 1; 1; 1; 1; 1; 3; 1; 45; 8;
   1; 1; 1; 1; 1; 3; 1; 49; 8; 1; 1; 2; 1; 2; 1; 2; 1; 2; 1; 2;
   1; 2; 1; 2; 1; 2; 1; 2; 1; 2; 1; 2; 1; 2; 1; 2; 4; 2; 64; 8;
   2; 11; 2; 12; 2; 65; 1; 2; 5; 2; 69; 8; 2; 10; 2; 12; 2; 72; 9; 2;
   1; 3; 1; 3; 1; 3; 1; 3; 1; 3; 1; 3; 1; 3; 1; 3; 1; 3; 1; 3;
   1; 3; 3; 3; 85; 8; 3; 1; 4; 1; 4; 1; 4; 1; 4; 1; 4; 3; 4; 92;
   8; 4; 1; 5; 1; 5; 1; 5; 1; 5; 1; 5; 1; 5; 3; 5; 100; 8; 5; 1;
   6; 1; 6; 1; 7; 1; 7; 3; 7; 106; 8; 7; 1; 8; 1; 8; 3; 8; 110; 8;
   8; 1; 8; 1; 8; 3; 8; 114; 8; 8; 1; 8; 3; 8; 117; 8; 8; 1; 8; 1;
   8; 3; 8; 121; 8; 8; 1; 8; 1; 8; 3; 8; 125; 8; 8; 1; 8; 1; 8; 1;
   8; 3; 8; 130; 8; 8; 1; 8; 1; 8; 3; 8; 134; 8; 8; 1; 8; 1; 8; 3;
   8; 138; 8; 8; 1; 8; 1; 8; 3; 8; 142; 8; 8; 1; 8; 3; 8; 145; 8; 8;
   1; 8; 3; 8; 148; 8; 8; 1; 9; 1; 9; 1; 9; 3; 9; 153; 8; 9; 1; 10;
   1; 10; 3; 10; 157; 8; 10; 1; 10; 0; 1; 4; 11; 0; 2; 4; 6; 8; 10; 12;
   14; 16; 18; 20; 0; 3; 2; 0; 1; 1; 9; 9; 2; 0; 18; 18; 26; 26; 1; 0;
   20; 21; 186; 0; 23; 1; 0; 0; 0; 2; 48; 1; 0; 0; 0; 4; 50; 1; 0; 0;
   0; 6; 84; 1; 0; 0; 0; 8; 91; 1; 0; 0; 0; 10; 99; 1; 0; 0; 0; 12;
   101; 1; 0; 0; 0; 14; 105; 1; 0; 0; 0; 16; 147; 1; 0; 0; 0; 18; 152; 1;
   0; 0; 0; 20; 156; 1; 0; 0; 0; 22; 24; 3; 2; 1; 0; 23; 22; 1; 0; 0;
   0; 23; 24; 1; 0; 0; 0; 24; 25; 1; 0; 0; 0; 25; 26; 5; 0; 0; 1; 26;
   1; 1; 0; 0; 0; 27; 49; 3; 4; 2; 0; 28; 30; 3; 4; 2; 0; 29; 31; 5;
   18; 0; 0; 30; 29; 1; 0; 0; 0; 30; 31; 1; 0; 0; 0; 31; 32; 1; 0; 0;
   0; 32; 34; 5; 12; 0; 0; 33; 35; 5; 18; 0; 0; 34; 33; 1; 0; 0; 0; 34;
   35; 1; 0; 0; 0; 35; 36; 1; 0; 0; 0; 36; 37; 3; 14; 7; 0; 37; 49; 1;
   0; 0; 0; 38; 40; 3; 4; 2; 0; 39; 41; 5; 18; 0; 0; 40; 39; 1; 0; 0;
   0; 40; 41; 1; 0; 0; 0; 41; 42; 1; 0; 0; 0; 42; 44; 5; 12; 0; 0; 43;
   45; 5; 18; 0; 0; 44; 43; 1; 0; 0; 0; 44; 45; 1; 0; 0; 0; 45; 46; 1;
   0; 0; 0; 46; 47; 3; 16; 8; 0; 47; 49; 1; 0; 0; 0; 48; 27; 1; 0; 0;
   0; 48; 28; 1; 0; 0; 0; 48; 38; 1; 0; 0; 0; 49; 3; 1; 0; 0; 0; 50;
   51; 6; 2; (-1); 0; 51; 52; 3; 6; 3; 0; 52; 70; 1; 0; 0; 0; 53; 54; 10;
   4; 0; 0; 54; 69; 3; 6; 3; 0; 55; 56; 10; 3; 0; 0; 56; 57; 5; 3; 0;
   0; 57; 69; 3; 6; 3; 0; 58; 59; 10; 2; 0; 0; 59; 60; 5; 4; 0; 0; 60;
   69; 3; 6; 3; 0; 61; 63; 10; 1; 0; 0; 62; 64; 5; 18; 0; 0; 63; 62; 1;
   0; 0; 0; 64; 65; 1; 0; 0; 0; 65; 63; 1; 0; 0; 0; 65; 66; 1; 0; 0;
   0; 66; 67; 1; 0; 0; 0; 67; 69; 3; 6; 3; 0; 68; 53; 1; 0; 0; 0; 68;
   55; 1; 0; 0; 0; 68; 58; 1; 0; 0; 0; 68; 61; 1; 0; 0; 0; 69; 72; 1;
   0; 0; 0; 70; 68; 1; 0; 0; 0; 70; 71; 1; 0; 0; 0; 71; 5; 1; 0; 0;
   0; 72; 70; 1; 0; 0; 0; 73; 74; 3; 8; 4; 0; 74; 75; 3; 12; 6; 0; 75;
   85; 1; 0; 0; 0; 76; 85; 3; 8; 4; 0; 77; 78; 3; 8; 4; 0; 78; 79; 5;
   14; 0; 0; 79; 80; 3; 12; 6; 0; 80; 85; 1; 0; 0; 0; 81; 82; 3; 8; 4;
   0; 82; 83; 5; 13; 0; 0; 83; 85; 1; 0; 0; 0; 84; 73; 1; 0; 0; 0; 84;
   76; 1; 0; 0; 0; 84; 77; 1; 0; 0; 0; 84; 81; 1; 0; 0; 0; 85; 7; 1;
   0; 0; 0; 86; 92; 3; 10; 5; 0; 87; 88; 5; 15; 0; 0; 88; 89; 3; 2; 1;
   0; 89; 90; 5; 7; 0; 0; 90; 92; 1; 0; 0; 0; 91; 86; 1; 0; 0; 0; 91;
   87; 1; 0; 0; 0; 92; 9; 1; 0; 0; 0; 93; 100; 5; 16; 0; 0; 94; 95; 5;
   6; 0; 0; 95; 96; 3; 2; 1; 0; 96; 97; 5; 7; 0; 0; 97; 100; 1; 0; 0;
   0; 98; 100; 3; 14; 7; 0; 99; 93; 1; 0; 0; 0; 99; 94; 1; 0; 0; 0; 99;
   98; 1; 0; 0; 0; 100; 11; 1; 0; 0; 0; 101; 102; 7; 0; 0; 0; 102; 13; 1;
   0; 0; 0; 103; 106; 3; 12; 6; 0; 104; 106; 5; 11; 0; 0; 105; 103; 1; 0; 0;
   0; 105; 104; 1; 0; 0; 0; 106; 15; 1; 0; 0; 0; 107; 110; 5; 25; 0; 0; 108;
   110; 3; 12; 6; 0; 109; 107; 1; 0; 0; 0; 109; 108; 1; 0; 0; 0; 110; 148; 1;
   0; 0; 0; 111; 114; 5; 25; 0; 0; 112; 114; 3; 12; 6; 0; 113; 111; 1; 0; 0;
   0; 113; 112; 1; 0; 0; 0; 114; 116; 1; 0; 0; 0; 115; 117; 7; 1; 0; 0; 116;
   115; 1; 0; 0; 0; 116; 117; 1; 0; 0; 0; 117; 118; 1; 0; 0; 0; 118; 120; 3;
   18; 9; 0; 119; 121; 5; 18; 0; 0; 120; 119; 1; 0; 0; 0; 120; 121; 1; 0; 0;
   0; 121; 124; 1; 0; 0; 0; 122; 125; 3; 20; 10; 0; 123; 125; 5; 20; 0; 0; 124;
   122; 1; 0; 0; 0; 124; 123; 1; 0; 0; 0; 124; 125; 1; 0; 0; 0; 125; 148; 1;
   0; 0; 0; 126; 129; 3; 12; 6; 0; 127; 130; 3; 20; 10; 0; 128; 130; 5; 20; 0;
   0; 129; 127; 1; 0; 0; 0; 129; 128; 1; 0; 0; 0; 129; 130; 1; 0; 0; 0; 130;
   148; 1; 0; 0; 0; 131; 133; 5; 27; 0; 0; 132; 134; 5; 18; 0; 0; 133; 132; 1;
   0; 0; 0; 133; 134; 1; 0; 0; 0; 134; 137; 1; 0; 0; 0; 135; 138; 3; 20; 10;
   0; 136; 138; 5; 20; 0; 0; 137; 135; 1; 0; 0; 0; 137; 136; 1; 0; 0; 0; 137;
   138; 1; 0; 0; 0; 138; 148; 1; 0; 0; 0; 139; 142; 5; 25; 0; 0; 140; 142; 3;
   12; 6; 0; 141; 139; 1; 0; 0; 0; 141; 140; 1; 0; 0; 0; 142; 144; 1; 0; 0;
   0; 143; 145; 5; 18; 0; 0; 144; 143; 1; 0; 0; 0; 144; 145; 1; 0; 0; 0; 145;
   146; 1; 0; 0; 0; 146; 148; 7; 2; 0; 0; 147; 109; 1; 0; 0; 0; 147; 113; 1;
   0; 0; 0; 147; 126; 1; 0; 0; 0; 147; 131; 1; 0; 0; 0; 147; 141; 1; 0; 0;
   0; 148; 17; 1; 0; 0; 0; 149; 153; 5; 22; 0; 0; 150; 153; 5; 23; 0; 0; 151;
   153; 3; 12; 6; 0; 152; 149; 1; 0; 0; 0; 152; 150; 1; 0; 0; 0; 152; 151; 1;
   0; 0; 0; 153; 19; 1; 0; 0; 0; 154; 157; 5; 23; 0; 0; 155; 157; 3; 12; 6;
   0; 156; 154; 1; 0; 0; 0; 156; 155; 1; 0; 0; 0; 157; 21; 1; 0; 0; 0; 26;
   23; 30; 34; 40; 44; 48; 65; 68; 70; 84; 91; 99; 105; 109; 113; 116; 120; 124; 129; 133;
   137; 141; 144; 147; 152; 156
  ].
