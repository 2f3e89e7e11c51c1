(* Tables of the terminal emulator: character sets of
   /repo/src/tsm/tsm-vte-charsets.c and colour palettes of
   /repo/src/tsm/tsm-vte.c:189-375, copied entry by entry. *)
From Verif Require Import Base.

(* tsm-vte-charsets.c:77-174 tsm_vte_unicode_lower. *)
Definition cs_unicode_lower : list Z :=
  [0; 33; 34; 35; 36; 37; 38; 39; 40; 41; 42; 43; 44; 45; 46; 47;
   48; 49; 50; 51; 52; 53; 54; 55; 56; 57; 58; 59; 60; 61; 62; 63;
   64; 65; 66; 67; 68; 69; 70; 71; 72; 73; 74; 75; 76; 77; 78; 79;
   80; 81; 82; 83; 84; 85; 86; 87; 88; 89; 90; 91; 92; 93; 94; 95;
   96; 97; 98; 99; 100; 101; 102; 103; 104; 105; 106; 107; 108; 109; 110; 111;
   112; 113; 114; 115; 116; 117; 118; 119; 120; 121; 122; 123; 124; 125; 126; 0].

(* tsm-vte-charsets.c:183-280 tsm_vte_unicode_upper. *)
Definition cs_unicode_upper : list Z :=
  [0; 161; 162; 163; 164; 165; 166; 167; 168; 169; 170; 171; 172; 173; 174; 175;
   176; 177; 178; 179; 180; 181; 182; 183; 184; 185; 186; 187; 188; 189; 190; 191;
   192; 193; 194; 195; 196; 197; 198; 199; 200; 201; 202; 203; 204; 205; 206; 207;
   208; 209; 210; 211; 212; 213; 214; 215; 216; 217; 218; 219; 220; 221; 222; 223;
   224; 225; 226; 227; 228; 229; 230; 231; 232; 233; 234; 235; 236; 237; 238; 239;
   240; 241; 242; 243; 244; 245; 246; 247; 248; 249; 250; 251; 252; 253; 254; 0].

(* tsm-vte-charsets.c:291-388 tsm_vte_dec_supplemental_graphics. *)
Definition cs_dec_supplemental : list Z :=
  [0; 161; 162; 163; 0; 165; 0; 167; 164; 169; 170; 171; 0; 0; 0; 0;
   176; 177; 178; 179; 0; 181; 182; 183; 0; 185; 186; 187; 188; 189; 0; 191;
   192; 193; 194; 195; 196; 197; 198; 199; 200; 201; 202; 203; 204; 205; 206; 207;
   0; 209; 210; 211; 212; 213; 214; 338; 216; 217; 218; 219; 220; 376; 0; 223;
   224; 225; 226; 227; 228; 229; 230; 231; 232; 233; 234; 235; 236; 237; 238; 239;
   0; 241; 242; 243; 244; 245; 246; 339; 248; 249; 250; 251; 252; 255; 0; 0].

(* tsm-vte-charsets.c:400-497 tsm_vte_dec_special_graphics. *)
Definition cs_dec_special : list Z :=
  [0; 33; 34; 35; 36; 37; 38; 39; 40; 41; 42; 43; 44; 45; 46; 47;
   48; 49; 50; 51; 52; 53; 54; 55; 56; 57; 58; 59; 60; 61; 62; 63;
   64; 65; 66; 67; 68; 69; 70; 71; 72; 73; 74; 75; 76; 77; 78; 79;
   80; 81; 82; 83; 84; 85; 86; 87; 88; 89; 90; 91; 92; 93; 94; 0;
   9830; 9618; 9225; 9228; 9229; 9226; 176; 177; 9252; 9227; 9496; 9488; 9484; 9492; 9532; 9146;
   9147; 9472; 9148; 9149; 9500; 9508; 9524; 9516; 9474; 8804; 8805; 960; 8800; 163; 8901; 0].

(* libtsm.h:321-343 enum tsm_vte_color: 16 colours, 16 FOREGROUND, 17 BACKGROUND. *)
Definition COLOR_FOREGROUND : Z := 16.
Definition COLOR_BACKGROUND : Z := 17.
Definition COLOR_NUM : Z := 18.

(* uint8_t [TSM_COLOR_NUM][3], tsm-vte.c:189. *)
Definition palette : Type := list (Z * Z * Z).

(* tsm-vte.c:200-220 color_palette_legacy. *)
Definition color_palette_legacy : palette :=
  [(0, 0, 0); (205, 0, 0); (0, 205, 0); (205, 205, 0); (0, 0, 238); (205, 0, 205);
   (0, 205, 205); (229, 229, 229); (127, 127, 127); (255, 0, 0); (0, 255, 0); (255, 255, 0);
   (92, 92, 255); (255, 0, 255); (0, 255, 255); (255, 255, 255); (229, 229, 229); (0, 0, 0)].

(* tsm-vte.c:223-243 color_palette_vga. *)
Definition color_palette_vga : palette :=
  [(0, 0, 0); (170, 0, 0); (0, 170, 0); (170, 85, 0); (0, 0, 170); (170, 0, 170);
   (0, 170, 170); (170, 170, 170); (85, 85, 85); (255, 85, 85); (85, 255, 85); (255, 255, 85);
   (85, 85, 255); (255, 85, 255); (85, 255, 255); (255, 255, 255); (170, 170, 170); (0, 0, 0)].

(* tsm-vte.c:245-265 color_palette_solarized. *)
Definition color_palette_solarized : palette :=
  [(7, 54, 66); (220, 50, 47); (133, 153, 0); (181, 137, 0); (38, 139, 210); (211, 54, 130);
   (42, 161, 152); (238, 232, 213); (0, 43, 54); (203, 75, 22); (88, 110, 117); (101, 123, 131);
   (131, 148, 150); (108, 113, 196); (147, 161, 161); (253, 246, 227); (238, 232, 213); (7, 54, 66)].

(* tsm-vte.c:267-287 color_palette_solarized_black. *)
Definition color_palette_solarized_black : palette :=
  [(0, 0, 0); (220, 50, 47); (133, 153, 0); (181, 137, 0); (38, 139, 210); (211, 54, 130);
   (42, 161, 152); (238, 232, 213); (0, 43, 54); (203, 75, 22); (88, 110, 117); (101, 123, 131);
   (131, 148, 150); (108, 113, 196); (147, 161, 161); (253, 246, 227); (238, 232, 213); (0, 0, 0)].

(* tsm-vte.c:289-309 color_palette_solarized_white. *)
Definition color_palette_solarized_white : palette :=
  [(7, 54, 66); (220, 50, 47); (133, 153, 0); (181, 137, 0); (38, 139, 210); (211, 54, 130);
   (42, 161, 152); (238, 232, 213); (0, 43, 54); (203, 75, 22); (88, 110, 117); (101, 123, 131);
   (131, 148, 150); (108, 113, 196); (147, 161, 161); (253, 246, 227); (7, 54, 66); (238, 232, 213)].

(* tsm-vte.c:311-331 color_palette_soft_black. *)
Definition color_palette_soft_black : palette :=
  [(63, 63, 63); (112, 80, 80); (96, 180, 138); (223, 175, 143); (154, 184, 215); (220, 140, 195);
   (140, 208, 211); (255, 255, 255); (112, 144, 128); (220, 163, 163); (114, 213, 163); (240, 223, 175);
   (148, 191, 243); (236, 147, 211); (147, 224, 227); (220, 220, 204); (220, 220, 204); (44, 44, 44)].

(* tsm-vte.c:333-353 color_palette_base16_dark. *)
Definition color_palette_base16_dark : palette :=
  [(0, 0, 0); (171, 70, 66); (161, 181, 108); (247, 202, 136); (124, 175, 194); (186, 139, 175);
   (134, 193, 185); (170, 170, 170); (85, 85, 85); (171, 70, 66); (161, 181, 108); (247, 202, 136);
   (124, 175, 194); (186, 139, 175); (134, 193, 185); (255, 255, 255); (216, 216, 216); (24, 24, 24)].

(* tsm-vte.c:355-375 color_palette_base16_light. *)
Definition color_palette_base16_light : palette :=
  [(0, 0, 0); (171, 70, 66); (161, 181, 108); (247, 202, 136); (124, 175, 194); (186, 139, 175);
   (134, 193, 185); (170, 170, 170); (85, 85, 85); (171, 70, 66); (161, 181, 108); (247, 202, 136);
   (124, 175, 194); (186, 139, 175); (134, 193, 185); (255, 255, 255); (24, 24, 24); (216, 216, 216)].
