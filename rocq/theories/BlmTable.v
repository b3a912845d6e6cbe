(** Generated by gen/gen_blm.py from src/blm.c: do not edit. *)
From Coq Require Import NArith List.
Import ListNotations.
Local Open Scope N_scope.

(** blm.c:484 [costs] *)
Definition costs : list nat := [0; 1; 3; 6; 9; 13; 17; 22; 27; 31; 36; 40; 45; 49; 55; 60; 64]%nat.

(** blm.c:153-334 [_small_multiplication_map]: the rows (column j is bit j), for degree 1, 2, ... *)
Definition small_maps : list (list N) := [
  [0x1];
  [0x1; 0x3; 0x2];
  [0x1; 0x2; 0x4; 0x3; 0x5; 0x6];
  [0x1; 0x2; 0x4; 0x8; 0xf; 0x3; 0x5; 0xa; 0xc];
  [0x1; 0x2; 0x8; 0x10; 0x11; 0x3; 0x18; 0x16; 0xd; 0x1b; 0x17; 0x1d; 0x1f];
  [0x1; 0x2; 0x10; 0x20; 0x30; 0x3; 0x18; 0x6; 0x12; 0xc; 0x38; 0x7; 0x29; 0x25; 0x2d; 0x1b; 0x3f];
  [0x7f; 0x6e; 0x3b; 0x5d; 0x6d; 0x5b; 0x36; 0x3; 0x5; 0x11; 0xa; 0x44; 0x28; 0x50; 0x60; 0x1; 0x2; 0x4; 0x8; 0x10; 0x20; 0x40];
  [0x1; 0x2; 0x4; 0x8; 0x10; 0x20; 0x40; 0x80; 0x5; 0xc; 0x44; 0x30; 0xc0; 0xf; 0xa0; 0x11; 0xa; 0xaa; 0x3; 0x50; 0x22; 0xff; 0x55; 0x33; 0xcc; 0x88; 0xf0];
  [0x100; 0x1; 0x2; 0x3; 0x155; 0xaa; 0x1ff; 0x16d; 0x1b6; 0xdb; 0xe9; 0x13a; 0x74; 0x1d3; 0x9d; 0x14e; 0xb9; 0x172; 0x5c; 0x1cb; 0xe5; 0x12e; 0x191; 0xb2; 0x164; 0xc8; 0x8f; 0x123; 0xf5; 0x7a; 0x1ac];
  [0x200; 0x1; 0x3ff; 0x36d; 0x1b6; 0x2db; 0xe9; 0x13a; 0x274; 0x1d3; 0x29d; 0x34e; 0xb9; 0x172; 0x25c; 0x1cb; 0x2e5; 0x32e; 0x191; 0x2b2; 0x164; 0x2c8; 0x8f; 0x323; 0xf5; 0x7a; 0x3ac; 0x2f1; 0x1e2; 0x3c4; 0x178; 0x1af; 0x313; 0x135; 0x9a; 0x2bc];
  [0x1; 0x36d; 0x5b6; 0x6db; 0x555; 0x2aa; 0x7ff; 0x400; 0x200; 0x600; 0x4e9; 0x53a; 0x274; 0x1d3; 0x69d; 0x74e; 0x4b9; 0x172; 0x65c; 0x5cb; 0x2e5; 0x72e; 0x591; 0x6b2; 0x564; 0x2c8; 0x48f; 0x323; 0xf5; 0x47a; 0x7ac; 0x2f1; 0x5e2; 0x3c4; 0x578; 0x1af; 0x713; 0x135; 0x9a; 0x6bc];
  [0xb6d; 0xdb6; 0x6db; 0x1; 0x2; 0x3; 0x555; 0xaaa; 0xfff; 0x800; 0x400; 0xc00; 0x4e9; 0xd3a; 0xa74; 0x9d3; 0xe9d; 0x74e; 0x591; 0xeb2; 0xd64; 0xac8; 0xc8f; 0xb23; 0x8f5; 0x47a; 0x7ac; 0xaf1; 0x5e2; 0xbc4; 0xd78; 0x9af; 0xf13; 0x135; 0x89a; 0x6bc; 0x631; 0xa52; 0x294; 0x318; 0xdef; 0xc63; 0x4a5; 0x94a; 0x18c];
  [0x1; 0x1b6d; 0xdb6; 0x16db; 0x1555; 0xaaa; 0x1fff; 0x1000; 0x800; 0x1800; 0x14e9; 0x1d3a; 0x1a74; 0x9d3; 0xe9d; 0x74e; 0x1cb9; 0x1972; 0xe5c; 0x5cb; 0x12e5; 0x172e; 0x1591; 0x1eb2; 0x1d64; 0x1ac8; 0xc8f; 0xb23; 0x8f5; 0x47a; 0x7ac; 0x1af1; 0x15e2; 0xbc4; 0xd78; 0x9af; 0xf13; 0x1135; 0x189a; 0x6bc; 0x631; 0xa52; 0x1294; 0x318; 0x1def; 0xc63; 0x14a5; 0x94a; 0x118c];
  [0x1; 0x1b6d; 0x2db6; 0x36db; 0x1555; 0x2aaa; 0x3fff; 0x34e9; 0x1d3a; 0x3a74; 0x29d3; 0xe9d; 0x274e; 0x1cb9; 0x3972; 0x2e5c; 0x25cb; 0x32e5; 0x172e; 0x3591; 0x1eb2; 0x3d64; 0x3ac8; 0x2c8f; 0x2b23; 0x8f5; 0x247a; 0x7ac; 0x1af1; 0x35e2; 0x2bc4; 0xd78; 0x9af; 0x2f13; 0x3135; 0x389a; 0x26bc; 0x631; 0xa52; 0x1294; 0x2318; 0x3def; 0xc63; 0x14a5; 0x294a; 0x318c; 0x2000; 0x1000; 0x800; 0x400; 0x3c00; 0x3000; 0x2800; 0x1400; 0xc00];
  [0x1; 0x7fff; 0x5b6d; 0x6db6; 0x36db; 0x4000; 0x2000; 0x6000; 0x74e9; 0x1d3a; 0x3a74; 0x69d3; 0x4e9d; 0x274e; 0x5cb9; 0x3972; 0x2e5c; 0x65cb; 0x72e5; 0x172e; 0x7591; 0x1eb2; 0x3d64; 0x7ac8; 0x2c8f; 0x6b23; 0x48f5; 0x647a; 0x47ac; 0x1af1; 0x35e2; 0x6bc4; 0x4d78; 0x9af; 0x2f13; 0x7135; 0x789a; 0x26bc; 0x4631; 0x4a52; 0x5294; 0x6318; 0x3def; 0xc63; 0x14a5; 0x294a; 0x318c; 0x4d21; 0x1a42; 0x7348; 0x6690; 0x2bb1; 0x5763; 0x15d8; 0x576; 0x47cd; 0x42bb; 0x4857; 0x215d; 0x3b1f];
  [0xdb6d; 0x6db6; 0xb6db; 0x1; 0x2; 0x3; 0x5555; 0xaaaa; 0xffff; 0x8000; 0x4000; 0xc000; 0x74e9; 0x9d3a; 0x3a74; 0xe9d3; 0x4e9d; 0xa74e; 0x5cb9; 0xb972; 0x2e5c; 0xe5cb; 0x72e5; 0x972e; 0xf591; 0x1eb2; 0x3d64; 0x7ac8; 0xac8f; 0xeb23; 0xc8f5; 0x647a; 0x47ac; 0x9af1; 0x35e2; 0x6bc4; 0x4d78; 0x89af; 0xaf13; 0xf135; 0x789a; 0x26bc; 0xc631; 0x4a52; 0x5294; 0x6318; 0xbdef; 0x8c63; 0x94a5; 0x294a; 0x318c; 0xcd21; 0x9a42; 0xf348; 0xe690; 0x2bb1; 0x5763; 0x15d8; 0x8576; 0xc7cd; 0x42bb; 0x4857; 0x215d; 0xbb1f]].

(** certificate: the columns of the final linear map (bit i is row i) *)
Definition small_cert : list (list N) := [
  [0x1];
  [0x3; 0x2; 0x6];
  [0x7; 0xe; 0x1c; 0x2; 0x4; 0x8];
  [0xf; 0x1e; 0x3c; 0x78; 0x8; 0xa; 0xc; 0x18; 0x28];
  [0x77; 0x12; 0x90; 0x1dc; 0x6c; 0x36; 0xd8; 0x14; 0x50; 0x28; 0x24; 0x48; 0x38];
  [0x63; 0xfa; 0x2a8; 0x660; 0x318; 0x96; 0x1c8; 0xcc; 0x30; 0xd8; 0x158; 0x84; 0xa0; 0x78; 0xb8; 0x50; 0x40];
  [0xe0; 0x240; 0x48; 0x208; 0x88; 0x220; 0x2a8; 0x28a; 0x264; 0x90; 0xd8; 0x120; 0x360; 0x4c8; 0xa28; 0x77; 0x36; 0x1dc; 0x1b0; 0x770; 0xd80; 0x1dc0];
  [0xff; 0x1fe; 0x3fc; 0x7f8; 0xff0; 0x1fe0; 0x3fc0; 0x7f80; 0xcc; 0x2a8; 0x3c0; 0xaa0; 0x2a80; 0x88; 0x1980; 0xf0; 0x198; 0x180; 0xaa; 0xcc0; 0x1e0; 0x80; 0xc0; 0xa0; 0x280; 0x780; 0x880];
  [0x1142c; 0x450b; 0x8a16; 0x8a16; 0xf3e4; 0xf3e4; 0x515c; 0xbf7c; 0x6ad4; 0xd5a8; 0x740c; 0xe818; 0xc41c; 0x9c14; 0x2c04; 0x5808; 0x7278; 0xe4f0; 0xddcc; 0x4b44; 0x9688; 0x393c; 0x4890; 0x9120; 0x366c; 0x6cd8; 0x5ab4; 0x8304; 0xfdf8; 0xefdc; 0x2448];
  [0x42942; 0x214a1; 0x3e73e; 0x370ec; 0x2c89a; 0x1b876; 0x3318a; 0x24a56; 0xbdee; 0x17bdc; 0x2f7b8; 0x1c632; 0x3bde8; 0x35292; 0x28c66; 0x2631c; 0xef7a; 0x1def4; 0x30d16; 0x2336e; 0x4f9e; 0x9f3c; 0xd0a2; 0x1eeda; 0x2ac52; 0x171e6; 0x3922a; 0x34586; 0x2a24e; 0x16dde; 0x2dbbc; 0x1e7c8; 0x19e3a; 0x1142c; 0x22858; 0x251aa];
  [0x63de3; 0x759ae; 0x2c89a; 0x59134; 0x42942; 0x42942; 0x3e73e; 0x18f78c; 0xc7bc6; 0xc7bc6; 0x718c8; 0x24a56; 0x494ac; 0x5529e; 0x6defa; 0x1c632; 0x794aa; 0x35292; 0x6a524; 0x2631c; 0x4c638; 0x5f7b6; 0x72454; 0x2336e; 0x466dc; 0x4b67e; 0xd0a2; 0x5c798; 0x68510; 0x171e6; 0x3922a; 0x76cc4; 0x2a24e; 0x5449c; 0x6f2fe; 0x5ce8a; 0x19e3a; 0x1142c; 0x22858; 0x678e8];
  [0x11b6f8; 0x196d84; 0x8db7c; 0x138027; 0x1d003a; 0x1d003a; 0x16002c; 0x16002c; 0xdffe4; 0x7400e8; 0x3a0074; 0x3a0074; 0x140028; 0x120024; 0x1e003c; 0x6000c; 0xc0018; 0x180030; 0x3e26c; 0x7c4d8; 0xf89b0; 0x1f1360; 0x109ad0; 0x14bc64; 0x18d7b8; 0xbaf04; 0x1cf10c; 0x10b21c; 0x1b644c; 0xcc8ec; 0x1991d8; 0xbd650; 0x923c4; 0xe3d78; 0x1c7af0; 0x1e8f64; 0x15bdc4; 0x117bfc; 0x18f78c; 0xbef6c; 0x17ded8; 0xf2954; 0x1c31b4; 0x2631c; 0x6a524];
  [0x408081; 0x36b6b6; 0x6d6d6c; 0x5bdbda; 0x7f00fe; 0x7f00fe; 0x2affaa; 0x1830306; 0x810102; 0x810102; 0x2e005c; 0x5c00b8; 0x390072; 0x7200e4; 0x6500ca; 0x4b0096; 0x3a0074; 0x7400e8; 0x6900d2; 0x27004e; 0x4e009c; 0x1d003a; 0x4de2f0; 0x1ac4e2; 0x3589c4; 0x6b1388; 0x5e9a4c; 0x9bc5e; 0x71d76a; 0x62afd6; 0x26f178; 0x64b2f4; 0x4864ea; 0x11c8d6; 0x2391ac; 0x2cd61e; 0x472358; 0x7a3d90; 0x757a22; 0x1e8f64; 0x46bd62; 0xc7bc6; 0x18f78c; 0x31ef18; 0x63de30; 0x7b29bc; 0x523128; 0x256352; 0x6fa5f6];
  [0x408081; 0x36b6b6; 0x6d6d6c; 0x5bdbda; 0x7f00fe; 0x7f00fe; 0x2affaa; 0x2e005c; 0x5c00b8; 0x390072; 0x7200e4; 0x6500ca; 0x4b0096; 0x3a0074; 0x7400e8; 0x6900d2; 0x27004e; 0x4e009c; 0x1d003a; 0x4de2f0; 0x1ac4e2; 0x3589c4; 0x6b1388; 0x5e9a4c; 0x9bc5e; 0x71d76a; 0x62afd6; 0x26f178; 0x64b2f4; 0x4864ea; 0x11c8d6; 0x2391ac; 0x2cd61e; 0x472358; 0x7a3d90; 0x757a22; 0x1e8f64; 0x46bd62; 0xc7bc6; 0x18f78c; 0x31ef18; 0x63de30; 0x7b29bc; 0x523128; 0x256352; 0x6fa5f6; 0x78f0f1e; 0x387070e; 0x1830306; 0x810102; 0x810102; 0x285050a; 0x1830306; 0x810102; 0x810102];
  [0x7318e63; 0x5def442; 0x63abaae; 0x216699a; 0x42cd334; 0x1cc6398c; 0xe631cc6; 0xe631cc6; 0x2ab0556; 0x5560aac; 0x4cf099e; 0x7fd0ffa; 0x1990332; 0x3320664; 0x147028e; 0x28e051c; 0x51c0a38; 0x6d50daa; 0x3c90792; 0x7920f24; 0x7bded10; 0x118c6e6; 0x2318dcc; 0x4631b98; 0x6529654; 0xf7bda2; 0x57bdd7e; 0x494a63a; 0x3def688; 0x76abce8; 0xb66516; 0x16cca2c; 0x2d99458; 0x7dcd9fe; 0x5b328b0; 0x3033b62; 0x60676c4; 0x469878a; 0x6cbb078; 0x3f47c36; 0x7e8f86c; 0x1b2ec1e; 0x365d83c; 0x48d2050; 0x2d73422; 0x5ae6844; 0x91a40a; 0x285050a; 0xfe01fc; 0x7f00fe0; 0x47708ee; 0x2040408; 0x1020204; 0x4080810; 0x4f609ec; 0x17d02fa; 0x78f0f1e; 0x1fc03f8; 0x3f807f0; 0x4890912];
  [0x149f9fe4; 0xc75755c; 0x18eaeab8; 0x1bf7b7ef; 0x12a5254a; 0x12a5254a; 0x1cc6398c; 0x1cc6398c; 0xbbde884; 0x6fdedfbc; 0x254a4a94; 0x254a4a94; 0x100e201c; 0x5560aac; 0xaac1558; 0x15582ab0; 0xffa1ff4; 0x1ff43fe8; 0xf241e48; 0x1e483c90; 0x19da33b4; 0x8b6116c; 0x116c22d8; 0x7920f24; 0x1b7bd49c; 0x13bde3ac; 0x2318dcc; 0x4631b98; 0x6529654; 0xe94a164; 0x17def834; 0xaf7bafc; 0x1f18cf04; 0x76abce8; 0xed579d0; 0x1daaf3a0; 0x1e1fadd4; 0x9bfc538; 0x1975113c; 0xd6027a4; 0x1ac04f48; 0xa0a9b4c; 0x6cbb078; 0xd9760f0; 0x1b2ec1e0; 0x1317c954; 0x365d83c; 0x184b19dc; 0x10721168; 0x5ae6844; 0xef2b8cc; 0x10202040; 0x1c383870; 0x1b36366c; 0xa141428; 0x2040408; 0x1020204; 0x4080810; 0x18303060; 0xf1e1e3c; 0x152a2a54; 0x1d3a3a74; 0x1f3e3e7c; 0x162c2c58]].

(** certificate: for every unit vector the pairs (v, w), v <= w, to be added; pair as 16*v+w *)
Definition small_span : list (list (list N)) := [
  [[0]];
  [[0; 1];
   [1];
   [1; 17]];
  [[0; 1; 2];
   [1; 17; 18];
   [2; 18; 34];
   [1];
   [2];
   [18]];
  [[0; 1; 2; 3];
   [1; 3; 17; 19];
   [2; 3; 34; 35];
   [3; 19; 35; 51];
   [3];
   [1; 3];
   [2; 3];
   [3; 19];
   [3; 35]];
  [[0; 1; 2; 4; 20; 36];
   [1; 2; 3; 17; 18; 19];
   [3; 18; 19; 36; 51; 52];
   [2; 3; 4; 36; 52; 68];
   [2; 3; 4; 19; 20; 36];
   [1; 2; 3; 18; 19; 20];
   [18; 19; 36; 52];
   [2; 3; 18; 19];
   [3; 18; 19; 36];
   [18; 20];
   [2; 3; 18; 20];
   [18; 36];
   [18; 19; 20]];
  [[0; 1; 5; 21];
   [1; 2; 4; 17; 18; 20; 21; 37];
   [4; 18; 20; 21; 34; 37; 51; 53; 68; 69];
   [5; 21; 69; 85];
   [3; 4; 53; 69];
   [1; 2; 4; 37];
   [4; 18; 34; 37; 51; 53];
   [2; 18; 21; 37];
   [4; 20];
   [18; 21; 34; 37];
   [3; 4; 21; 53];
   [2; 37];
   [5; 37];
   [3; 4; 5; 21];
   [3; 4; 5; 37];
   [4; 21];
   [21]];
  [[3; 6; 18; 20; 22];
   [6; 54];
   [3; 6];
   [5; 18; 20; 54];
   [5; 18; 20; 22];
   [3; 18; 20; 54];
   [3; 20; 22; 54];
   [1; 3; 22; 54];
   [2; 3; 6; 18; 20; 54];
   [3; 4; 5; 18; 20; 22];
   [3; 6; 19; 22];
   [3; 18; 20; 38];
   [5; 6; 53; 54];
   [5; 6; 18; 20; 22; 70];
   [3; 5; 54; 86];
   [0; 1; 2; 4; 5; 6];
   [1; 17; 19; 20];
   [2; 6; 18; 22; 34; 38];
   [5; 6; 19; 22; 51; 53];
   [3; 4; 5; 6; 18; 54; 68; 70];
   [5; 20; 22; 53; 85; 86];
   [6; 22; 38; 70; 86; 102]];
  [[0; 1; 2; 3; 4; 5; 6; 7];
   [1; 3; 5; 7; 17; 19; 21; 23];
   [2; 3; 6; 7; 34; 35; 38; 39];
   [3; 7; 19; 23; 35; 39; 51; 55];
   [4; 5; 6; 7; 68; 69; 70; 71];
   [5; 7; 21; 23; 69; 71; 85; 87];
   [6; 7; 38; 39; 70; 71; 102; 103];
   [7; 23; 39; 55; 71; 87; 103; 119];
   [2; 3; 6; 7];
   [3; 7; 35; 39];
   [6; 7; 38; 39];
   [5; 7; 69; 71];
   [7; 39; 71; 103];
   [3; 7];
   [7; 23; 71; 87];
   [4; 5; 6; 7];
   [3; 7; 19; 23];
   [7; 23];
   [1; 3; 5; 7];
   [6; 7; 70; 71];
   [5; 7; 21; 23];
   [7];
   [6; 7];
   [5; 7];
   [7; 39];
   [7; 23; 39; 55];
   [7; 71]];
  [[2; 3; 7; 8; 35; 37; 38; 40; 72; 136];
   [0; 1; 7; 18; 19; 20; 23; 34; 35; 37; 40; 104];
   [1; 3; 7; 17; 18; 22; 23; 34; 38; 39; 56; 120];
   [1; 2; 3; 7; 18; 19; 20; 23; 24; 35; 37; 38; 56; 120];
   [2; 3; 7; 8; 18; 21; 22; 23; 24; 35; 37; 38; 72; 88; 104; 120];
   [2; 19; 21; 23; 34; 35; 37; 39; 72; 88; 104; 120];
   [2; 4; 5; 6; 18; 21; 22; 23; 35; 36; 37; 72; 104];
   [2; 18; 21; 22; 23; 34; 35; 37; 39; 40; 56; 72; 88; 120];
   [2; 3; 5; 18; 19; 20; 21; 22; 24; 56; 88; 104];
   [3; 7; 8; 19; 20; 23; 24; 34; 38; 39; 40; 72; 104; 120];
   [2; 4; 7; 8; 18; 21; 22; 23; 24; 34; 36; 39; 40; 72; 88; 104];
   [3; 5; 8; 19; 20; 23; 24; 39; 56; 88; 104; 120];
   [2; 3; 4; 6; 19; 20; 23; 34; 35; 36; 38; 40; 104; 120];
   [2; 4; 6; 7; 19; 20; 23; 34; 35; 36; 37; 38; 40; 56; 72; 120];
   [2; 3; 5; 18; 19; 20; 23; 34; 38; 40; 56; 88];
   [3; 4; 5; 6; 7; 8; 34; 35; 36; 37; 38; 56; 72; 104];
   [3; 5; 6; 7; 19; 20; 23; 35; 37; 38; 39; 72; 88; 104];
   [3; 4; 6; 18; 19; 20; 21; 22; 34; 36; 40; 88; 104; 120];
   [2; 5; 7; 8; 18; 19; 20; 21; 22; 24; 34; 37; 39; 40; 56; 72; 104; 120];
   [2; 3; 4; 6; 8; 18; 19; 20; 21; 22; 35; 36; 37; 39; 56; 104];
   [3; 5; 19; 20; 21; 22; 34; 36; 39; 40; 72; 120];
   [2; 3; 4; 6; 19; 20; 23; 24; 34; 36; 39; 56; 72; 88];
   [4; 5; 6; 24; 35; 36; 37; 39; 56; 104];
   [5; 7; 8; 19; 22; 23; 34; 38; 72; 120];
   [2; 4; 6; 7; 8; 18; 19; 20; 21; 22; 24; 36; 38; 40; 72; 88];
   [4; 6; 8; 18; 19; 34; 36; 37; 38; 40; 51; 56; 88; 104];
   [2; 3; 4; 5; 6; 7; 8; 18; 36; 38; 39; 56; 72; 104];
   [2; 8; 39; 120];
   [18; 24; 34; 35; 36; 37; 38; 39; 40; 56; 72; 88; 104; 120];
   [2; 4; 6; 7; 8; 18; 21; 23; 24; 36; 38; 40; 56; 88; 104; 120];
   [5; 7; 8; 18; 19; 20; 21; 22; 34; 38; 40; 88]];
  [[1; 2; 3; 7; 8; 9; 17; 18; 21; 36; 37; 38; 39; 41; 51; 53; 73; 153];
   [0; 3; 4; 5; 9; 18; 20; 21; 23; 25; 34; 35; 38; 39; 51; 52; 57; 137];
   [1; 3; 4; 8; 9; 17; 21; 25; 35; 36; 37; 38; 52; 53; 73; 89; 105; 121; 137];
   [3; 4; 6; 8; 9; 17; 19; 20; 22; 23; 24; 57; 73; 89; 121; 137];
   [1; 2; 17; 18; 20; 23; 34; 35; 36; 37; 41; 51; 53; 89; 105; 137];
   [1; 3; 7; 8; 17; 18; 21; 34; 35; 36; 37; 41; 51; 53; 57; 73; 105; 121];
   [1; 2; 17; 18; 21; 36; 52; 53; 57; 73; 121; 137];
   [1; 5; 6; 7; 8; 17; 22; 34; 35; 37; 39; 41; 52; 53; 89; 137];
   [1; 2; 3; 5; 6; 19; 22; 24; 25; 34; 37; 39; 41; 52; 53; 57; 73; 105];
   [2; 3; 4; 5; 6; 7; 9; 20; 21; 23; 36; 41; 57; 73; 89; 121];
   [3; 4; 5; 7; 19; 20; 21; 22; 23; 24; 25; 34; 35; 36; 38; 52; 53; 57; 73; 89; 105; 137];
   [1; 2; 9; 17; 19; 20; 22; 23; 24; 25; 37; 38; 39; 89; 105; 121];
   [2; 4; 5; 6; 7; 9; 17; 18; 19; 20; 22; 23; 24; 25; 35; 36; 41; 51; 52; 57; 73; 105; 121; 137];
   [1; 3; 7; 8; 9; 18; 19; 21; 23; 36; 57; 89; 121; 137];
   [1; 2; 6; 20; 21; 23; 25; 37; 38; 41; 51; 52; 105; 137];
   [2; 3; 7; 8; 9; 34; 37; 73; 89; 137];
   [1; 2; 4; 7; 9; 17; 18; 19; 20; 22; 23; 24; 25; 34; 37; 39; 41; 51; 52; 73; 89; 105];
   [2; 3; 4; 8; 18; 20; 21; 23; 25; 36; 39; 41; 51; 52; 57; 89; 105; 121];
   [1; 4; 6; 7; 8; 17; 21; 25; 36; 37; 38; 41; 51; 53; 121; 137];
   [1; 2; 3; 5; 6; 9; 36; 37; 38; 51; 52; 57; 73; 137];
   [1; 2; 3; 5; 6; 9; 19; 22; 24; 25; 35; 36; 37; 39; 41; 52; 53; 89];
   [2; 3; 7; 8; 19; 20; 21; 22; 23; 24; 25; 41; 51; 53; 57; 105];
   [1; 2; 17; 19; 20; 22; 23; 24; 34; 38; 39; 57; 89; 105];
   [1; 3; 5; 6; 19; 22; 24; 25; 35; 37; 38; 41; 52; 53; 73; 89; 105; 121];
   [1; 3; 5; 6; 18; 25; 34; 35; 36; 37; 41; 51; 52; 73; 105; 137];
   [1; 2; 4; 7; 9; 19; 21; 22; 35; 39; 52; 53; 57; 73; 89; 121];
   [1; 6; 9; 18; 20; 21; 23; 36; 37; 38; 51; 52; 57; 105; 121; 137];
   [1; 9; 17; 20; 23; 25; 35; 36; 37; 38; 39; 51; 53; 89; 121; 137];
   [1; 3; 4; 5; 6; 7; 17; 19; 21; 22; 23; 24; 35; 51; 53; 73; 105; 137];
   [1; 2; 3; 4; 5; 6; 7; 9; 19; 22; 24; 25; 34; 35; 36; 37; 41; 51; 53; 73; 89; 121];
   [3; 4; 5; 6; 8; 9; 17; 19; 20; 23; 34; 35; 36; 37; 41; 53; 57; 89; 105; 137];
   [18; 25; 36; 37; 38; 39; 73; 89; 105; 121];
   [1; 2; 3; 7; 8; 9; 17; 21; 25; 34; 35; 37; 41; 51; 53; 57; 105; 121];
   [2; 9; 18; 25; 35; 39; 57; 121];
   [2; 4; 5; 6; 8; 17; 18; 20; 23; 41; 73; 137];
   [1; 5; 6; 7; 8; 18; 20; 21; 23; 35; 36; 37; 38; 51; 52; 57; 89; 137]];
  [[0; 1; 2; 3; 7; 8; 10; 17; 18; 19; 22; 34; 35; 36; 37; 41; 42; 58; 122; 138];
   [1; 2; 6; 9; 10; 18; 19; 22; 24; 25; 26; 34; 35; 36; 37; 38; 42; 52; 74; 106; 122; 138];
   [1; 3; 4; 5; 8; 19; 20; 21; 26; 34; 36; 37; 38; 74; 90; 122];
   [2; 3; 5; 8; 9; 18; 20; 21; 22; 24; 25; 34; 35; 36; 40; 42; 52; 90; 106; 138];
   [1; 2; 4; 6; 7; 9; 10; 17; 19; 24; 26; 37; 38; 40; 58; 138];
   [1; 4; 6; 21; 22; 26; 34; 36; 37; 38; 58; 138];
   [1; 2; 5; 7; 8; 18; 21; 24; 25; 26; 34; 36; 37; 41; 58; 74; 90; 106; 122];
   [2; 3; 6; 8; 9; 10; 36; 37; 42; 58; 74; 90; 154; 170];
   [1; 3; 7; 17; 18; 21; 22; 23; 24; 25; 26; 36; 40; 42; 51; 52; 58; 74; 153; 154];
   [1; 4; 5; 6; 9; 10; 17; 19; 20; 21; 22; 25; 36; 37; 38; 41; 42; 52; 58; 74; 138; 154];
   [2; 3; 4; 6; 7; 9; 17; 19; 20; 22; 23; 24; 25; 26; 35; 37; 38; 40; 42; 106; 122; 138];
   [1; 4; 5; 6; 7; 17; 20; 21; 23; 24; 25; 26; 36; 38; 40; 52; 74; 122];
   [2; 3; 7; 8; 9; 10; 19; 20; 24; 25; 26; 34; 38; 40; 41; 42; 90; 138];
   [1; 2; 3; 4; 5; 7; 9; 19; 25; 34; 35; 37; 40; 42; 52; 74; 106; 138];
   [1; 2; 3; 5; 8; 9; 17; 22; 25; 26; 34; 36; 37; 38; 42; 52; 74; 90; 122; 138];
   [1; 2; 6; 9; 10; 17; 22; 25; 34; 35; 36; 40; 52; 74; 90; 106];
   [1; 3; 5; 6; 19; 20; 21; 23; 25; 34; 35; 38; 42; 52; 90; 106; 122; 138];
   [1; 2; 3; 8; 10; 17; 18; 19; 21; 24; 25; 26; 36; 37; 38; 41; 42; 74; 106; 122];
   [3; 5; 6; 17; 18; 19; 20; 21; 22; 25; 34; 35; 38; 52; 58; 90; 122; 138];
   [3; 4; 5; 7; 8; 9; 10; 17; 19; 21; 25; 26; 34; 35; 36; 37; 41; 58; 74; 122];
   [2; 8; 10; 17; 18; 19; 23; 24; 25; 26; 35; 37; 40; 41; 52; 74; 90; 138];
   [1; 2; 3; 4; 5; 10; 18; 19; 22; 24; 25; 26; 34; 37; 38; 40; 41; 42; 52; 58; 74; 90; 106; 138];
   [4; 5; 6; 7; 8; 17; 19; 21; 23; 34; 35; 36; 40; 52; 58; 106; 122; 138];
   [1; 3; 6; 7; 8; 10; 17; 19; 20; 22; 24; 34; 37; 40; 42; 52; 58; 122];
   [2; 4; 5; 6; 7; 18; 19; 20; 23; 24; 26; 34; 37; 38; 40; 41; 52; 58; 74; 138];
   [1; 3; 5; 7; 17; 24; 34; 37; 40; 42; 51; 58; 90; 138];
   [1; 3; 4; 5; 7; 8; 9; 18; 20; 21; 22; 23; 24; 26; 34; 35; 36; 37; 41; 42; 74; 90];
   [2; 3; 4; 6; 8; 17; 19; 21; 22; 24; 25; 26; 34; 41; 74; 90; 106; 138];
   [3; 8; 10; 18; 20; 22; 23; 25; 26; 34; 35; 37; 38; 40; 41; 90; 122; 138];
   [1; 2; 3; 5; 6; 7; 9; 18; 20; 21; 22; 24; 25; 35; 36; 38; 40; 42; 52; 58; 74; 106];
   [1; 2; 6; 8; 9; 17; 18; 22; 23; 35; 36; 37; 42; 90; 106; 122];
   [2; 3; 7; 8; 10; 18; 20; 21; 23; 26; 35; 58; 74; 106; 122; 138];
   [1; 3; 5; 9; 10; 17; 19; 21; 25; 26; 34; 35; 41; 58; 90; 122];
   [2; 3; 5; 6; 23; 25; 26; 34; 35; 36; 38; 41; 52; 74; 106; 138];
   [1; 2; 5; 8; 9; 18; 20; 22; 34; 35; 36; 37; 38; 42; 52; 58; 74; 90; 122; 138];
   [1; 2; 3; 4; 6; 8; 17; 21; 22; 23; 24; 25; 34; 41; 74; 90; 106; 138];
   [1; 2; 4; 5; 10; 17; 18; 19; 24; 34; 41; 42; 90; 106];
   [2; 4; 5; 6; 7; 18; 19; 21; 22; 26; 37; 40; 41; 42; 52; 106];
   [5; 6; 7; 8; 9; 10; 18; 19; 22; 23; 24; 35; 37; 40; 41; 52; 58; 122];
   [2; 3; 4; 5; 6; 8; 9; 10; 17; 19; 23; 24; 25; 26; 42; 52; 58; 74; 122; 138]];
  [[4; 10; 18; 19; 20; 21; 22; 23; 24; 34; 36; 37; 38; 42; 43; 51; 52; 75; 91; 155];
   [2; 3; 4; 5; 7; 11; 18; 19; 22; 23; 24; 25; 26; 27; 35; 37; 38; 39; 41; 42; 43; 53; 59; 91; 139; 155];
   [2; 3; 7; 8; 21; 23; 27; 34; 35; 36; 39; 41; 51; 52; 53; 59; 75; 139];
   [0; 1; 2; 6; 7; 9; 19; 20; 21; 23; 34; 37; 39; 53; 75; 91; 107; 155];
   [1; 2; 4; 5; 6; 8; 17; 18; 20; 21; 24; 26; 27; 35; 38; 39; 41; 42; 91; 123; 139; 155];
   [1; 3; 5; 6; 7; 8; 9; 11; 19; 20; 21; 22; 27; 35; 38; 39; 41; 42; 91; 123; 139; 155];
   [2; 6; 8; 9; 10; 11; 18; 20; 21; 25; 26; 36; 37; 39; 51; 52; 53; 107; 123; 155];
   [2; 3; 5; 9; 11; 23; 26; 36; 37; 39; 51; 52; 53; 107; 123; 155];
   [2; 3; 5; 9; 11; 18; 21; 22; 25; 27; 38; 43; 59; 75; 91; 123; 139];
   [3; 4; 5; 6; 7; 8; 9; 10; 20; 23; 25; 26; 34; 35; 36; 37; 39; 41; 51; 52; 123; 155; 171; 187];
   [2; 3; 5; 6; 9; 10; 18; 19; 23; 25; 36; 37; 38; 39; 51; 52; 107; 139; 170; 171];
   [2; 6; 7; 9; 10; 11; 20; 22; 25; 26; 27; 34; 38; 39; 42; 53; 107; 139; 155; 171];
   [4; 5; 6; 9; 10; 18; 20; 21; 22; 24; 25; 26; 34; 35; 37; 41; 123; 155];
   [2; 3; 4; 8; 9; 18; 24; 26; 34; 35; 41; 53; 107; 155];
   [2; 4; 6; 7; 8; 10; 18; 21; 25; 26; 27; 35; 36; 38; 41; 42; 51; 52; 107; 123; 139; 155];
   [2; 3; 4; 7; 8; 10; 19; 25; 37; 53; 107; 123];
   [5; 7; 8; 9; 18; 19; 22; 23; 24; 26; 27; 35; 36; 37; 38; 41; 42; 51; 52; 53; 123; 139];
   [3; 4; 5; 6; 7; 11; 18; 19; 21; 26; 27; 34; 36; 38; 42; 51; 52; 53; 139; 155];
   [2; 3; 4; 8; 10; 19; 21; 22; 23; 25; 26; 35; 37; 39; 41; 43; 59; 75; 91; 107];
   [3; 4; 5; 6; 8; 11; 25; 27; 35; 36; 38; 41; 42; 51; 52; 59; 75; 91; 107; 123];
   [4; 5; 7; 11; 19; 22; 24; 27; 34; 37; 38; 39; 42; 75; 91; 107; 123; 139];
   [3; 5; 6; 7; 10; 11; 18; 24; 25; 26; 27; 37; 53; 91; 107; 123; 139; 155];
   [5; 7; 8; 9; 11; 20; 21; 22; 34; 36; 42; 51; 52; 53; 75; 155];
   [2; 3; 4; 5; 7; 18; 19; 20; 21; 24; 25; 35; 37; 38; 39; 41; 42; 43; 53; 75; 123; 155];
   [4; 5; 7; 8; 9; 10; 18; 19; 20; 23; 26; 27; 34; 35; 41; 53; 59; 75; 139; 155];
   [2; 5; 6; 8; 10; 11; 19; 21; 26; 34; 35; 36; 37; 39; 41; 43; 51; 52; 75; 91; 107; 139];
   [2; 4; 5; 6; 7; 8; 9; 10; 18; 20; 22; 23; 24; 25; 26; 27; 34; 37; 41; 43; 51; 52; 53; 59; 75; 123; 139; 155];
   [2; 5; 6; 9; 18; 20; 21; 22; 34; 36; 38; 42; 43; 51; 52; 53; 75; 155];
   [2; 3; 7; 9; 10; 11; 19; 21; 22; 23; 24; 26; 27; 34; 36; 37; 38; 42; 43; 51; 52; 59; 91; 107; 139; 155];
   [2; 3; 4; 7; 8; 10; 19; 21; 22; 23; 24; 25; 27; 35; 37; 38; 39; 41; 42; 53; 59; 75; 123; 139];
   [3; 6; 8; 9; 10; 11; 19; 20; 23; 24; 25; 35; 36; 38; 41; 42; 51; 52; 75; 91; 139; 155];
   [8; 9; 10; 19; 21; 22; 27; 37; 53; 59; 75; 91; 107; 139];
   [2; 6; 8; 9; 10; 11; 19; 24; 25; 26; 27; 34; 37; 39; 42; 43; 91; 139];
   [3; 6; 7; 9; 10; 11; 19; 23; 26; 27; 35; 37; 39; 41; 43; 107; 123; 139];
   [4; 5; 8; 19; 21; 22; 24; 26; 34; 36; 37; 38; 42; 43; 51; 52; 59; 123; 139; 155];
   [2; 3; 5; 6; 8; 10; 18; 19; 20; 21; 22; 23; 26; 27; 34; 35; 39; 42; 51; 52; 53; 75; 107; 123; 139; 155];
   [2; 3; 7; 8; 9; 18; 20; 21; 23; 25; 35; 38; 39; 41; 42; 43; 75; 91; 123; 155];
   [2; 4; 5; 6; 7; 8; 9; 10; 11; 18; 19; 20; 22; 25; 26; 27; 34; 35; 37; 41; 43; 59; 91; 155];
   [2; 4; 5; 7; 8; 9; 10; 18; 19; 20; 23; 26; 27; 41; 43; 53; 59; 75; 139; 155];
   [2; 3; 5; 6; 8; 10; 11; 19; 21; 26; 34; 36; 37; 39; 41; 43; 52; 59; 75; 91; 107; 139];
   [3; 6; 7; 9; 10; 19; 20; 23; 24; 35; 38; 39; 41; 42; 59; 75; 91; 107; 123; 155];
   [2; 6; 24; 26; 27; 34; 39; 42; 43; 53; 91; 107; 123; 139];
   [2; 3; 6; 7; 8; 18; 20; 21; 22; 23; 24; 27; 34; 37; 39; 43; 53; 123; 139; 155];
   [2; 4; 6; 10; 11; 18; 21; 23; 24; 25; 26; 43; 59; 107];
   [2; 4; 7; 8; 10; 11; 20; 22; 23; 34; 38; 41; 43; 75; 107; 123]];
  [[0; 5; 7; 8; 11; 19; 26; 34; 35; 36; 37; 38; 51; 52; 60; 172];
   [1; 2; 5; 7; 9; 19; 24; 25; 26; 27; 28; 36; 37; 39; 41; 51; 52; 60; 92; 108; 140; 156];
   [3; 9; 10; 11; 17; 19; 20; 22; 25; 28; 34; 38; 39; 40; 44; 51; 52; 76; 108; 124; 156; 172];
   [1; 2; 3; 4; 5; 6; 7; 11; 17; 20; 22; 24; 26; 27; 37; 38; 41; 44; 60; 76; 92; 124; 140; 172];
   [1; 8; 9; 10; 17; 18; 19; 20; 22; 24; 25; 36; 38; 40; 55; 76; 92; 108; 124; 140; 156; 172];
   [1; 2; 7; 8; 18; 20; 21; 25; 34; 38; 55; 76; 92; 108; 124; 140; 156; 172];
   [1; 2; 3; 5; 7; 8; 10; 11; 17; 19; 27; 28; 34; 36; 37; 39; 44; 51; 52; 60; 92; 124; 156];
   [1; 2; 3; 5; 7; 9; 12; 18; 20; 21; 22; 23; 25; 26; 27; 36; 40; 41; 76; 92; 188; 204];
   [1; 3; 4; 9; 12; 18; 19; 20; 22; 27; 35; 37; 39; 53; 76; 172; 187; 188];
   [1; 2; 3; 7; 8; 12; 17; 18; 19; 20; 23; 24; 25; 26; 27; 34; 35; 37; 38; 39; 41; 55; 76; 188];
   [2; 4; 8; 9; 11; 12; 18; 19; 20; 23; 27; 34; 35; 36; 39; 40; 41; 55; 92; 108; 124; 156];
   [2; 3; 6; 12; 17; 22; 23; 24; 25; 27; 34; 35; 36; 38; 39; 40; 108; 124; 140; 172];
   [1; 3; 4; 5; 8; 12; 18; 20; 21; 24; 27; 35; 38; 39; 76; 124; 140; 156];
   [3; 4; 6; 7; 9; 17; 18; 20; 21; 23; 24; 26; 34; 36; 38; 40; 41; 55; 92; 140; 156; 172];
   [1; 4; 6; 9; 11; 12; 18; 19; 20; 21; 23; 24; 26; 27; 35; 38; 40; 51; 52; 55; 76; 108; 156; 172];
   [1; 4; 5; 6; 7; 9; 10; 17; 19; 20; 21; 22; 23; 25; 26; 34; 36; 38; 39; 41; 51; 52; 76; 92; 124; 172];
   [2; 3; 6; 18; 20; 21; 25; 34; 36; 40; 92; 124; 140; 156];
   [3; 5; 7; 9; 12; 19; 20; 24; 27; 34; 35; 37; 40; 51; 52; 55; 108; 140; 156; 172];
   [1; 2; 4; 5; 8; 9; 10; 17; 19; 22; 24; 26; 34; 35; 36; 38; 40; 41; 76; 124; 156; 172];
   [1; 8; 17; 18; 19; 23; 25; 34; 36; 40; 76; 92; 108; 156];
   [2; 4; 7; 8; 9; 11; 12; 18; 19; 20; 21; 23; 24; 26; 27; 34; 35; 37; 40; 51; 52; 55; 92; 108; 124; 172];
   [1; 5; 7; 9; 18; 21; 22; 24; 25; 34; 36; 40; 76; 108; 124; 140];
   [2; 5; 7; 10; 11; 17; 20; 21; 22; 24; 25; 28; 34; 35; 36; 41; 44; 51; 52; 60; 76; 108; 124; 172];
   [1; 4; 9; 11; 12; 19; 21; 25; 27; 35; 37; 39; 41; 44; 60; 92; 124; 140];
   [2; 7; 8; 9; 10; 12; 19; 20; 21; 26; 27; 34; 35; 39; 55; 60; 76; 108; 140; 156];
   [4; 5; 7; 8; 11; 18; 20; 26; 27; 34; 36; 37; 39; 51; 52; 76; 92; 124; 156; 172];
   [2; 3; 6; 7; 8; 12; 20; 25; 26; 35; 37; 38; 39; 55; 60; 92; 108; 124; 140; 172];
   [1; 2; 3; 5; 7; 9; 12; 21; 23; 24; 26; 28; 34; 35; 36; 38; 51; 52; 55; 60; 76; 124];
   [1; 6; 7; 18; 20; 21; 24; 27; 36; 37; 38; 40; 44; 60; 76; 140; 156; 172];
   [1; 2; 3; 4; 9; 18; 21; 23; 24; 28; 36; 39; 41; 51; 52; 55; 60; 92; 156; 172];
   [2; 4; 8; 9; 11; 17; 18; 19; 20; 22; 24; 27; 28; 34; 41; 44; 51; 52; 60; 92; 108; 156];
   [2; 7; 8; 11; 12; 19; 21; 22; 25; 26; 28; 35; 37; 38; 39; 55; 60; 108; 156; 172];
   [1; 4; 5; 7; 8; 9; 10; 11; 18; 21; 22; 23; 24; 25; 28; 34; 37; 41; 44; 55; 124; 172];
   [1; 6; 7; 8; 9; 10; 11; 12; 17; 19; 22; 23; 24; 25; 26; 27; 36; 41; 44; 51; 52; 60; 76; 140];
   [4; 7; 8; 10; 12; 17; 18; 23; 24; 25; 34; 35; 39; 53; 60; 76; 92; 156];
   [1; 2; 3; 4; 6; 7; 8; 10; 11; 12; 19; 20; 21; 22; 34; 35; 38; 39; 41; 44; 60; 108; 124; 156];
   [2; 3; 4; 7; 9; 17; 21; 22; 23; 24; 26; 28; 36; 37; 39; 41; 51; 52; 76; 92; 108; 172];
   [2; 3; 4; 5; 6; 17; 18; 19; 23; 24; 27; 28; 34; 35; 36; 37; 39; 40; 41; 92; 124; 140; 156; 172];
   [1; 4; 6; 8; 9; 11; 12; 19; 23; 26; 28; 35; 37; 40; 41; 44; 51; 52; 55; 76; 108; 140; 156; 172];
   [3; 4; 7; 8; 10; 11; 17; 18; 19; 20; 23; 24; 26; 38; 41; 51; 52; 60; 92; 108; 124; 140];
   [1; 2; 7; 8; 10; 11; 17; 19; 20; 21; 22; 26; 27; 28; 34; 41; 60; 92; 108; 172];
   [1; 2; 5; 7; 9; 11; 19; 20; 23; 25; 27; 28; 34; 36; 40; 44; 108; 124];
   [2; 3; 4; 6; 7; 8; 10; 19; 21; 22; 23; 24; 26; 27; 28; 37; 38; 41; 44; 60; 124; 140];
   [4; 5; 6; 8; 11; 18; 19; 21; 22; 24; 25; 26; 28; 34; 35; 36; 37; 38; 40; 41; 44; 51; 53; 55; 60; 76; 140; 156];
   [2; 5; 6; 7; 8; 9; 11; 17; 21; 23; 24; 27; 34; 36; 39; 44; 51; 52; 55; 60; 76; 92; 156; 172];
   [2; 3; 6; 8; 12; 19; 21; 22; 23; 24; 26; 27; 28; 35; 38; 39; 76; 92; 124; 140; 156; 172];
   [7; 9; 10; 11; 18; 19; 21; 24; 25; 27; 28; 34; 35; 38; 40; 41; 51; 52; 55; 92; 140; 172];
   [1; 4; 5; 6; 8; 9; 10; 11; 20; 22; 24; 28; 36; 39; 41; 44; 51; 52; 55; 76; 108; 156];
   [1; 2; 6; 8; 9; 10; 12; 21; 22; 24; 27; 28; 34; 35; 37; 40; 51; 52; 55; 60; 76; 92; 108; 124; 156; 172]];
  [[0; 2; 4; 5; 7; 10; 17; 19; 21; 22; 24; 35; 36; 38; 39; 45; 52; 53; 55; 157];
   [1; 6; 7; 8; 13; 17; 20; 21; 22; 27; 34; 37; 38; 39; 45; 55; 77; 93; 125; 141];
   [2; 3; 5; 7; 9; 12; 13; 19; 20; 21; 22; 25; 27; 29; 34; 35; 36; 39; 41; 51; 53; 61; 93; 109; 141; 157];
   [1; 2; 4; 5; 6; 7; 8; 9; 10; 12; 13; 17; 18; 22; 28; 29; 35; 36; 37; 38; 41; 45; 51; 53; 55; 61; 77; 109; 125; 157];
   [1; 2; 5; 10; 11; 18; 34; 41; 51; 52; 55; 61; 77; 93; 109; 125; 141; 157];
   [1; 3; 5; 6; 9; 11; 13; 17; 21; 24; 25; 28; 34; 41; 51; 52; 55; 61; 77; 93; 109; 125; 141; 157];
   [1; 3; 5; 7; 10; 20; 23; 24; 27; 28; 29; 35; 36; 37; 41; 45; 51; 52; 77; 109; 141];
   [2; 3; 5; 6; 8; 9; 12; 19; 20; 22; 23; 24; 25; 27; 37; 55; 77; 93; 109; 141];
   [3; 4; 5; 8; 11; 12; 20; 22; 23; 24; 25; 27; 35; 37; 38; 39; 41; 52; 53; 55; 93; 109; 125; 157];
   [1; 3; 4; 5; 6; 9; 10; 18; 22; 24; 25; 26; 36; 41; 51; 52; 61; 109; 125; 141];
   [2; 3; 4; 8; 9; 13; 18; 19; 21; 23; 26; 28; 35; 38; 39; 41; 52; 53; 77; 125; 141; 157];
   [1; 2; 5; 6; 10; 17; 18; 19; 20; 22; 23; 24; 25; 34; 37; 39; 52; 53; 61; 93; 141; 157];
   [1; 2; 3; 4; 5; 7; 12; 18; 19; 20; 22; 23; 24; 25; 27; 34; 39; 52; 53; 55; 61; 77; 109; 157];
   [2; 6; 7; 20; 22; 23; 24; 34; 38; 39; 77; 109; 125; 141];
   [2; 3; 4; 9; 13; 17; 20; 26; 28; 34; 36; 37; 39; 41; 93; 125; 141; 157];
   [1; 2; 3; 5; 6; 7; 9; 11; 12; 13; 17; 18; 19; 21; 22; 23; 24; 25; 27; 28; 35; 36; 41; 52; 53; 55; 61; 109; 141; 157];
   [1; 2; 5; 6; 7; 10; 11; 18; 22; 23; 25; 35; 36; 41; 51; 53; 61; 77; 93; 141];
   [5; 6; 8; 9; 11; 17; 18; 19; 20; 24; 36; 37; 38; 41; 77; 93; 109; 157];
   [1; 2; 8; 9; 10; 11; 13; 17; 18; 23; 25; 28; 34; 35; 36; 38; 39; 41; 51; 53; 61; 93; 109; 125];
   [4; 6; 8; 10; 19; 20; 23; 24; 25; 28; 29; 34; 36; 45; 51; 52; 61; 93; 109; 157];
   [1; 3; 6; 7; 8; 18; 19; 22; 23; 25; 26; 29; 34; 35; 38; 41; 45; 52; 53; 77; 109; 125];
   [5; 6; 7; 8; 9; 17; 19; 20; 23; 26; 34; 38; 39; 45; 61; 93; 125; 141];
   [2; 3; 5; 7; 9; 11; 13; 17; 21; 23; 24; 26; 27; 28; 35; 36; 39; 61; 77; 109; 141; 157];
   [2; 4; 5; 7; 9; 10; 13; 18; 24; 25; 26; 27; 28; 34; 35; 39; 45; 51; 52; 77; 93; 109; 125; 157];
   [1; 3; 4; 5; 6; 7; 8; 9; 10; 12; 13; 17; 19; 20; 21; 23; 34; 36; 38; 39; 41; 45; 52; 53; 61; 109];
   [1; 2; 3; 6; 7; 11; 12; 17; 19; 21; 25; 26; 29; 34; 35; 37; 39; 45; 51; 53; 61; 125; 141; 157];
   [1; 2; 4; 6; 10; 19; 24; 26; 28; 34; 36; 37; 45; 51; 53; 77; 141; 157];
   [2; 3; 4; 5; 6; 7; 8; 13; 17; 27; 29; 37; 45; 77; 93; 141];
   [2; 3; 4; 5; 7; 9; 10; 11; 18; 20; 22; 23; 25; 26; 27; 28; 35; 38; 45; 51; 52; 93; 141; 157];
   [1; 2; 3; 4; 5; 6; 7; 17; 20; 22; 23; 25; 26; 28; 29; 34; 35; 41; 52; 53; 109; 157];
   [1; 3; 7; 8; 9; 10; 11; 12; 13; 17; 18; 19; 20; 21; 22; 24; 26; 27; 28; 29; 35; 36; 37; 41; 45; 51; 53; 55; 61; 125];
   [3; 8; 9; 10; 12; 13; 17; 19; 20; 22; 23; 25; 26; 28; 34; 36; 38; 39; 41; 45; 51; 61; 77; 141];
   [1; 3; 5; 7; 8; 10; 17; 20; 21; 22; 23; 24; 26; 27; 29; 34; 38; 41; 45; 51; 53; 93; 109; 141];
   [2; 3; 4; 5; 8; 9; 10; 12; 13; 17; 27; 35; 38; 51; 53; 55; 61; 77; 93; 157];
   [3; 5; 8; 10; 11; 13; 18; 19; 20; 24; 27; 36; 37; 38; 39; 51; 53; 77; 109; 125; 141; 157];
   [1; 3; 5; 6; 7; 10; 11; 18; 19; 22; 23; 26; 27; 28; 29; 34; 36; 37; 39; 41; 52; 53; 55; 61; 93; 125; 141; 157];
   [2; 3; 4; 5; 8; 9; 10; 12; 18; 19; 20; 21; 22; 23; 24; 25; 26; 27; 35; 36; 37; 39; 45; 51; 53; 55; 77; 93; 109; 125];
   [1; 5; 6; 7; 8; 12; 19; 24; 26; 28; 34; 37; 39; 45; 55; 77; 93; 157];
   [1; 7; 8; 9; 10; 13; 17; 19; 20; 22; 23; 24; 25; 26; 27; 29; 34; 35; 38; 39; 51; 52; 93; 109];
   [3; 13; 17; 20; 22; 26; 27; 29; 35; 36; 37; 38; 39; 41; 45; 51; 52; 55; 109; 125];
   [5; 7; 10; 11; 12; 13; 18; 24; 25; 27; 29; 34; 35; 36; 37; 45; 51; 53; 55; 61; 125; 141];
   [5; 7; 9; 11; 13; 22; 27; 28; 29; 34; 36; 37; 45; 51; 52; 55; 61; 77; 141; 157];
   [2; 3; 4; 6; 7; 8; 10; 12; 20; 21; 23; 24; 26; 27; 28; 36; 37; 38; 39; 51; 52; 55; 61; 77; 109; 125; 141; 157];
   [2; 4; 9; 11; 12; 17; 18; 21; 23; 25; 26; 28; 34; 35; 37; 39; 51; 52; 55; 77; 125; 157];
   [1; 4; 6; 9; 12; 13; 22; 23; 24; 27; 29; 36; 39; 51; 52; 61; 93; 141];
   [1; 2; 5; 8; 9; 11; 12; 22; 23; 24; 26; 27; 28; 34; 36; 38; 45; 55; 61; 77; 93; 109; 141; 157];
   [1; 2; 3; 4; 5; 6; 9; 10; 19; 20; 21; 22; 24; 34; 36; 37; 39; 41; 51; 53; 61; 77; 93; 109; 173; 189; 205; 221];
   [1; 2; 3; 7; 8; 11; 12; 19; 23; 24; 25; 26; 27; 34; 52; 53; 61; 77; 93; 157; 172; 173; 204; 205];
   [1; 2; 3; 4; 7; 8; 9; 11; 12; 13; 18; 19; 20; 23; 24; 25; 26; 27; 28; 35; 36; 38; 39; 51; 52; 55; 61; 77; 141; 157; 171; 173; 187; 189];
   [1; 2; 4; 6; 7; 12; 17; 23; 24; 27; 34; 37; 38; 39; 51; 53; 61; 125; 141; 157; 170; 171; 172; 173];
   [1; 2; 5; 9; 11; 12; 17; 21; 22; 23; 25; 26; 27; 35; 36; 38; 39; 52; 53; 55; 61; 173];
   [1; 2; 4; 5; 7; 8; 11; 13; 17; 18; 23; 25; 28; 34; 35; 41; 52; 53; 61; 93; 173; 205];
   [1; 4; 5; 6; 8; 9; 10; 11; 12; 17; 19; 23; 26; 27; 35; 37; 38; 51; 52; 55; 61; 77; 173; 189];
   [1; 3; 4; 5; 6; 7; 8; 9; 10; 12; 13; 18; 20; 23; 24; 26; 27; 28; 34; 38; 41; 51; 52; 55; 61; 157; 172; 173];
   [1; 7; 12; 22; 24; 27; 36; 37; 39; 51; 52; 53; 61; 141; 171; 173]];
  [[0; 1; 3; 5; 6; 7; 8; 9; 10; 11; 14; 18; 21; 23; 27; 28; 29; 30; 36; 37; 38; 42; 43; 46; 53; 110; 126; 174; 190; 206];
   [1; 3; 4; 6; 7; 10; 11; 12; 14; 18; 20; 21; 23; 25; 27; 30; 34; 35; 36; 38; 39; 41; 42; 43; 52; 53; 54; 55; 62; 68; 78; 94; 110; 142; 158; 174; 206];
   [1; 2; 4; 9; 12; 13; 18; 21; 22; 26; 28; 34; 35; 36; 38; 39; 43; 45; 54; 62; 68; 94; 110; 126; 190; 206];
   [1; 10; 11; 14; 18; 19; 20; 23; 24; 25; 26; 28; 35; 36; 37; 40; 41; 51; 53; 54; 55; 62; 68; 78; 110; 190];
   [4; 5; 6; 7; 10; 13; 14; 17; 20; 23; 25; 35; 37; 38; 39; 40; 42; 43; 45; 51; 53; 55; 78; 94; 126; 206];
   [2; 4; 5; 6; 7; 9; 11; 13; 18; 19; 20; 21; 22; 26; 28; 30; 36; 40; 41; 42; 43; 45; 51; 52; 53; 54; 55; 62; 78; 142; 158; 206; 222; 238];
   [1; 2; 3; 4; 5; 6; 7; 12; 13; 14; 18; 20; 23; 26; 29; 30; 34; 36; 39; 43; 45; 46; 51; 54; 55; 62; 68; 126; 142; 190; 221; 222];
   [1; 3; 4; 7; 8; 9; 11; 13; 17; 18; 21; 25; 26; 27; 28; 34; 37; 38; 39; 40; 41; 46; 52; 55; 62; 126; 142; 190; 206; 222];
   [1; 3; 7; 8; 10; 11; 13; 14; 17; 18; 20; 23; 28; 29; 34; 35; 36; 37; 41; 46; 53; 62; 94; 126; 158; 190];
   [2; 4; 6; 7; 8; 10; 12; 13; 18; 20; 21; 24; 25; 27; 30; 34; 37; 38; 40; 41; 43; 45; 52; 55; 62; 78; 110; 142; 174; 206];
   [1; 3; 4; 6; 8; 9; 10; 12; 13; 17; 20; 22; 24; 27; 28; 35; 37; 38; 39; 41; 46; 51; 52; 53; 54; 55; 62; 78; 94; 142; 158; 206];
   [1; 2; 6; 8; 10; 11; 14; 17; 18; 20; 21; 23; 24; 26; 27; 29; 30; 34; 36; 40; 41; 42; 45; 46; 52; 53; 55; 78; 94; 110; 126; 142; 158; 174; 190; 206];
   [1; 4; 7; 9; 11; 14; 19; 20; 21; 24; 27; 28; 29; 34; 37; 41; 42; 43; 46; 51; 53; 54; 94; 110; 158; 174];
   [4; 6; 7; 9; 10; 11; 12; 17; 20; 22; 24; 27; 28; 34; 36; 41; 43; 51; 54; 62; 110; 126; 174; 190];
   [1; 2; 4; 9; 18; 19; 20; 24; 26; 35; 38; 39; 40; 41; 46; 52; 53; 55; 62; 78; 142; 174];
   [3; 5; 7; 8; 13; 17; 20; 26; 27; 34; 38; 41; 42; 43; 52; 53; 55; 62; 78; 94; 158; 190];
   [2; 3; 4; 7; 8; 9; 12; 14; 17; 22; 25; 26; 27; 29; 35; 36; 38; 39; 40; 51; 54; 78; 94; 110; 174; 206];
   [1; 2; 4; 5; 7; 8; 9; 11; 12; 14; 17; 18; 21; 23; 24; 25; 27; 28; 29; 30; 34; 38; 39; 43; 45; 46; 51; 54; 78; 110; 142; 158; 190; 206];
   [1; 2; 3; 4; 5; 6; 7; 13; 14; 17; 18; 19; 21; 23; 27; 29; 34; 35; 39; 40; 42; 43; 46; 94; 142; 158; 174; 190];
   [4; 6; 9; 12; 17; 22; 23; 24; 25; 27; 30; 34; 35; 38; 40; 41; 45; 51; 52; 53; 54; 55; 62; 110; 158; 174; 190; 206];
   [3; 8; 9; 10; 11; 13; 18; 19; 21; 22; 28; 29; 30; 38; 39; 43; 46; 51; 52; 53; 78; 94; 110; 126; 158; 174; 190; 206];
   [1; 2; 5; 10; 11; 12; 13; 14; 19; 20; 21; 23; 25; 26; 28; 34; 35; 36; 37; 38; 39; 40; 42; 45; 51; 53; 68; 94; 110; 174];
   [2; 3; 6; 7; 8; 9; 10; 14; 19; 21; 22; 23; 25; 29; 30; 34; 37; 39; 40; 41; 46; 51; 68; 110; 126; 190];
   [2; 3; 4; 6; 8; 10; 12; 13; 14; 17; 20; 21; 26; 27; 29; 35; 42; 43; 46; 52; 53; 54; 55; 62; 68; 126; 142; 206];
   [5; 7; 10; 17; 20; 22; 23; 24; 26; 27; 28; 34; 36; 38; 41; 43; 45; 62; 110; 142; 190; 206];
   [1; 2; 3; 4; 5; 7; 9; 12; 13; 17; 18; 24; 26; 28; 30; 34; 37; 40; 43; 46; 52; 62; 68; 78; 110; 126; 142; 158];
   [1; 2; 3; 4; 5; 6; 7; 8; 9; 12; 13; 14; 20; 25; 26; 28; 30; 35; 37; 38; 39; 46; 53; 62; 94; 110; 126; 142; 174; 206];
   [1; 3; 5; 8; 9; 10; 13; 14; 20; 26; 29; 34; 35; 36; 37; 38; 41; 45; 51; 52; 78; 110; 158; 206];
   [5; 6; 7; 8; 18; 22; 24; 25; 27; 28; 29; 35; 36; 38; 45; 52; 53; 62; 68; 78; 94; 110; 142; 158; 174; 190];
   [5; 6; 8; 9; 13; 18; 19; 20; 22; 25; 27; 28; 30; 34; 35; 38; 40; 41; 43; 54; 55; 62; 94; 126; 142; 174; 190; 206];
   [1; 2; 4; 5; 6; 7; 8; 9; 22; 24; 25; 29; 35; 37; 38; 40; 43; 51; 52; 55; 62; 68; 78; 110; 126; 158];
   [2; 3; 5; 6; 9; 13; 21; 24; 27; 28; 29; 30; 36; 38; 39; 41; 42; 51; 68; 78; 94; 126; 142; 174];
   [2; 3; 8; 9; 13; 17; 22; 23; 25; 26; 27; 34; 37; 39; 41; 43; 45; 46; 51; 53; 68; 94; 110; 142; 158; 190];
   [1; 8; 10; 12; 17; 18; 19; 22; 23; 24; 25; 26; 27; 29; 30; 35; 37; 42; 51; 52; 54; 68; 78; 94; 110; 142; 158; 174; 190; 206];
   [6; 7; 8; 9; 10; 14; 20; 24; 29; 34; 39; 41; 43; 46; 51; 54; 55; 62; 68; 110; 126; 158; 174; 206];
   [1; 2; 3; 5; 9; 10; 11; 14; 17; 18; 24; 25; 26; 29; 37; 39; 40; 41; 42; 43; 46; 51; 52; 55; 62; 68; 174; 190];
   [2; 9; 10; 22; 23; 24; 25; 26; 27; 28; 29; 41; 51; 54; 55; 62; 68; 78; 190; 206];
   [1; 2; 3; 4; 5; 7; 10; 11; 12; 13; 14; 17; 19; 20; 21; 22; 23; 26; 29; 38; 42; 43; 45; 46; 51; 52; 54; 68; 94; 126; 142; 206];
   [3; 6; 7; 9; 10; 13; 19; 20; 22; 23; 24; 25; 27; 28; 30; 36; 37; 39; 43; 46; 51; 52; 54; 62; 68; 94; 142; 158; 190; 206];
   [1; 2; 3; 7; 12; 13; 14; 18; 19; 21; 22; 23; 24; 26; 28; 35; 38; 39; 43; 51; 55; 78; 110; 126; 142; 158; 174; 190];
   [4; 6; 10; 11; 13; 17; 18; 21; 22; 23; 25; 28; 29; 34; 35; 36; 38; 39; 40; 42; 43; 45; 52; 53; 54; 55; 68; 94; 126; 142; 158; 174; 190; 206];
   [1; 4; 5; 6; 7; 9; 10; 13; 14; 17; 18; 21; 22; 24; 25; 26; 28; 35; 36; 37; 38; 43; 45; 51; 52; 55; 62; 68; 110; 126; 158; 174];
   [2; 3; 6; 9; 10; 11; 13; 14; 20; 22; 24; 25; 26; 27; 28; 30; 34; 36; 39; 40; 41; 46; 52; 53; 54; 55; 68; 78; 126; 142; 174; 190];
   [2; 5; 6; 7; 12; 17; 19; 21; 22; 24; 35; 36; 39; 42; 43; 46; 78; 94; 158; 206];
   [1; 3; 5; 7; 8; 10; 11; 12; 18; 19; 21; 23; 25; 27; 34; 36; 37; 38; 40; 41; 42; 43; 46; 53; 62; 78; 110; 142; 158; 190];
   [4; 5; 6; 8; 12; 13; 17; 19; 21; 22; 23; 26; 29; 35; 37; 38; 40; 42; 51; 53; 55; 62; 78; 94; 126; 158; 174; 206];
   [1; 4; 5; 6; 9; 10; 12; 18; 19; 23; 24; 30; 35; 37; 38; 39; 42; 43; 46; 51; 52; 53; 54; 68; 110; 158];
   [1; 3; 6; 12; 22; 23; 24; 25; 27; 28; 36; 37; 38; 40; 43; 46; 53; 54; 55; 78; 158; 190];
   [5; 6; 8; 10; 11; 17; 18; 27; 28; 34; 40; 41; 42; 43; 52; 53; 62; 68; 78; 94; 110; 126; 142; 158];
   [2; 5; 6; 7; 9; 11; 13; 14; 17; 21; 25; 27; 28; 29; 30; 42; 45; 51; 68; 110; 126; 142; 158; 174; 190; 206];
   [1; 2; 4; 6; 8; 11; 14; 18; 19; 22; 23; 26; 27; 29; 30; 35; 36; 37; 38; 39; 41; 42; 45; 46; 51; 52; 54; 62; 68; 78; 110; 126; 142; 206];
   [2; 7; 10; 11; 12; 14; 17; 18; 19; 24; 25; 26; 29; 30; 34; 37; 39; 42; 45; 53; 55; 68; 78; 190];
   [2; 5; 6; 8; 10; 12; 13; 19; 21; 23; 24; 25; 26; 27; 30; 34; 35; 38; 39; 41; 43; 45; 54; 62; 68; 174];
   [2; 4; 5; 6; 7; 8; 9; 11; 17; 19; 20; 22; 24; 27; 28; 34; 36; 38; 39; 42; 43; 54; 94; 206];
   [2; 3; 4; 7; 9; 10; 24; 26; 34; 35; 40; 51; 62; 68; 78; 110; 126; 142; 158; 206];
   [1; 2; 3; 4; 9; 10; 11; 14; 17; 19; 20; 21; 23; 27; 29; 34; 38; 40; 41; 42; 46; 52; 53; 68; 78; 94; 110; 126; 142; 174];
   [1; 5; 6; 7; 10; 13; 14; 17; 18; 19; 20; 22; 25; 26; 27; 29; 30; 37; 39; 42; 43; 45; 46; 51; 52; 55; 62; 68; 78; 94; 158; 174; 190; 206];
   [4; 5; 7; 10; 12; 13; 14; 18; 20; 21; 22; 23; 24; 28; 29; 30; 35; 38; 39; 40; 42; 45; 52; 53; 54; 78; 94; 110; 126; 142; 158; 174];
   [2; 12; 13; 17; 19; 20; 21; 22; 23; 25; 26; 28; 37; 38; 40; 41; 42; 52; 54; 55; 68; 94; 110; 126; 142; 158; 174; 190];
   [1; 3; 4; 7; 8; 12; 18; 25; 26; 28; 30; 36; 39; 40; 42; 43; 45; 46; 51; 52; 53; 54; 68; 94; 158; 206]];
  [[2; 3; 5; 6; 7; 10; 11; 13; 14; 15; 18; 19; 20; 21; 22; 23; 25; 29; 30; 31; 34; 35; 36; 37; 38; 42; 43; 45; 47; 53; 54; 55; 63; 79; 95; 143; 191; 223];
   [2; 5; 6; 14; 18; 19; 20; 21; 22; 23; 27; 28; 36; 39; 46; 52; 53; 54; 55; 63; 68; 95; 111; 127; 191; 207];
   [3; 4; 6; 15; 19; 20; 22; 23; 24; 25; 29; 34; 36; 37; 40; 41; 43; 47; 52; 68; 79; 111; 127; 143; 207; 223];
   [0; 1; 2; 3; 5; 6; 7; 8; 9; 10; 12; 13; 15; 31; 47; 63; 95; 111; 127; 143; 159; 175; 207; 223];
   [1; 2; 3; 4; 5; 6; 8; 9; 12; 17; 20; 21; 23; 27; 28; 30; 34; 36; 38; 39; 40; 45; 46; 63; 111; 143; 175; 223];
   [1; 4; 6; 7; 12; 14; 15; 18; 19; 20; 21; 22; 23; 24; 26; 29; 35; 36; 39; 40; 41; 42; 43; 45; 46; 63; 111; 143; 175; 223];
   [2; 3; 7; 8; 11; 12; 13; 47; 63; 127; 143; 191; 207; 223];
   [2; 4; 10; 11; 14; 15; 18; 19; 20; 21; 22; 23; 24; 26; 29; 31; 35; 36; 39; 40; 41; 42; 43; 45; 46; 47; 63; 127; 143; 191; 207; 223];
   [2; 5; 7; 12; 13; 14; 15; 19; 20; 22; 23; 26; 27; 28; 34; 38; 39; 40; 43; 46; 52; 53; 54; 55; 63; 68; 79; 95; 111; 143; 159; 175; 207];
   [2; 3; 4; 5; 7; 8; 9; 10; 11; 12; 14; 15; 47; 63; 79; 95; 127; 143; 159; 175; 191; 207; 239; 255];
   [2; 6; 7; 9; 10; 12; 19; 20; 21; 29; 35; 37; 41; 42; 47; 52; 55; 79; 127; 159; 191; 223; 238; 239];
   [2; 3; 8; 9; 10; 11; 12; 13; 15; 18; 19; 20; 21; 22; 23; 24; 26; 29; 31; 35; 36; 39; 40; 41; 42; 43; 45; 46; 47; 79; 127; 159; 191; 239];
   [2; 3; 6; 10; 11; 13; 14; 15; 24; 26; 28; 29; 31; 34; 36; 39; 40; 43; 45; 46; 47; 63; 79; 223];
   [2; 5; 6; 8; 9; 12; 13; 18; 19; 20; 21; 22; 23; 28; 34; 35; 41; 42; 47; 63; 95; 127; 159; 191];
   [3; 5; 6; 7; 9; 10; 11; 12; 15; 20; 25; 26; 28; 34; 37; 38; 39; 40; 43; 45; 63; 79; 111; 143; 175; 207];
   [3; 5; 7; 8; 9; 10; 11; 12; 13; 18; 20; 25; 26; 28; 34; 35; 38; 41; 42; 43; 79; 95; 127; 159; 191; 223];
   [2; 5; 7; 8; 9; 12; 14; 15; 24; 26; 28; 29; 31; 34; 36; 39; 40; 43; 45; 46; 47; 79; 95; 111; 127; 143; 159; 175; 191; 207];
   [3; 4; 5; 7; 8; 9; 12; 13; 14; 15; 24; 26; 28; 29; 31; 34; 36; 39; 40; 43; 45; 46; 63; 95; 111; 127; 143; 159; 175; 191; 207; 223];
   [3; 8; 10; 11; 12; 14; 21; 23; 24; 29; 63; 111; 159; 175; 191; 207];
   [4; 6; 7; 8; 9; 10; 11; 12; 13; 14; 21; 23; 24; 29; 79; 127; 175; 191; 207; 223];
   [2; 3; 4; 5; 6; 12; 15; 18; 19; 20; 22; 23; 26; 28; 34; 35; 36; 39; 41; 45; 47; 79; 95; 127; 143; 159; 207; 223];
   [2; 8; 9; 10; 11; 13; 15; 18; 23; 28; 31; 35; 36; 38; 39; 40; 41; 42; 45; 46; 47; 63; 95; 111; 143; 207];
   [10; 12; 15; 18; 19; 20; 22; 26; 31; 35; 36; 39; 40; 41; 42; 43; 45; 46; 63; 79; 111; 127; 159; 223];
   [2; 5; 6; 10; 11; 14; 21; 23; 24; 29; 47; 95; 143; 159; 175; 191];
   [2; 4; 6; 8; 9; 14; 18; 19; 20; 21; 22; 23; 25; 28; 34; 35; 37; 38; 39; 42; 43; 45; 46; 47; 52; 68; 79; 95; 111; 127; 159; 175; 207; 223];
   [2; 3; 4; 5; 6; 7; 12; 13; 14; 15; 19; 22; 25; 26; 27; 30; 31; 36; 37; 41; 45; 53; 54; 55; 63; 79; 95; 111; 143; 159; 175; 223];
   [2; 3; 6; 8; 10; 19; 20; 22; 24; 30; 34; 35; 37; 40; 41; 46; 52; 53; 54; 55; 68; 95; 111; 175];
   [3; 4; 6; 8; 10; 12; 13; 15; 20; 21; 22; 23; 25; 26; 35; 36; 39; 43; 45; 46; 47; 51; 68; 111; 127; 191];
   [2; 3; 4; 5; 7; 8; 9; 12; 13; 14; 18; 19; 20; 22; 24; 28; 29; 31; 34; 36; 38; 39; 40; 45; 46; 47; 95; 127; 175; 191];
   [2; 3; 4; 5; 7; 12; 14; 18; 20; 25; 26; 29; 30; 31; 34; 35; 36; 38; 39; 41; 42; 43; 46; 52; 53; 54; 55; 63; 68; 95; 143; 175; 191; 207];
   [2; 3; 7; 10; 11; 12; 13; 14; 15; 18; 19; 21; 22; 24; 27; 28; 30; 31; 35; 36; 37; 38; 39; 40; 42; 43; 45; 46; 47; 52; 63; 68; 79; 95; 127; 143; 159; 175; 191; 223];
   [2; 4; 5; 7; 12; 13; 18; 19; 20; 21; 27; 28; 34; 35; 39; 41; 42; 43; 45; 46; 47; 63; 95; 111; 127; 143; 175; 207];
   [2; 3; 7; 8; 9; 11; 12; 15; 18; 21; 23; 24; 25; 27; 29; 31; 36; 37; 40; 46; 53; 54; 55; 79; 95; 159; 175; 191; 207; 223];
   [3; 5; 6; 8; 9; 10; 11; 12; 14; 15; 19; 20; 22; 23; 26; 27; 29; 30; 31; 34; 35; 39; 41; 42; 43; 45; 46; 47; 79; 111; 127; 159; 175; 191];
   [7; 8; 9; 13; 14; 21; 22; 24; 27; 34; 37; 38; 39; 40; 41; 46; 53; 54; 55; 63; 95; 127; 143; 175; 191; 207];
   [3; 4; 5; 7; 8; 9; 10; 14; 18; 19; 22; 25; 27; 28; 39; 40; 45; 47; 52; 53; 54; 55; 68; 79; 111; 143; 159; 191; 207; 223];
   [2; 4; 6; 8; 10; 11; 20; 22; 25; 26; 35; 37; 38; 39; 41; 43; 45; 46; 47; 52; 54; 55; 63; 68; 79; 95; 175; 191; 207; 223];
   [3; 6; 8; 9; 10; 11; 12; 13; 15; 19; 20; 22; 23; 24; 25; 27; 29; 36; 37; 39; 41; 43; 46; 47; 53; 54; 55; 63; 79; 95; 111; 143; 159; 207];
   [2; 5; 7; 8; 9; 13; 15; 18; 20; 21; 23; 24; 25; 26; 30; 34; 35; 36; 38; 39; 41; 42; 43; 46; 52; 53; 54; 55; 63; 68; 95; 111; 127; 159; 207; 223];
   [2; 3; 6; 12; 15; 18; 21; 24; 25; 30; 31; 35; 37; 39; 40; 42; 43; 46; 53; 54; 55; 111; 127; 159; 191; 207];
   [3; 4; 6; 7; 8; 9; 10; 11; 12; 15; 19; 21; 25; 27; 29; 30; 31; 36; 39; 46; 52; 53; 54; 55; 68; 127; 143; 175; 207; 223];
   [2; 3; 6; 8; 9; 11; 13; 15; 21; 23; 24; 25; 28; 30; 31; 36; 42; 45; 46; 47; 53; 54; 55; 79; 175; 207];
   [3; 4; 8; 9; 12; 14; 15; 19; 20; 21; 22; 28; 29; 30; 31; 34; 38; 40; 45; 47; 52; 53; 54; 55; 68; 79; 127; 143; 175; 191];
   [3; 5; 12; 14; 15; 18; 19; 20; 22; 23; 25; 30; 31; 35; 36; 37; 40; 42; 43; 47; 52; 63; 68; 95; 143; 159; 191; 207];
   [3; 4; 6; 7; 9; 13; 14; 18; 19; 21; 22; 23; 26; 27; 31; 35; 36; 37; 38; 40; 41; 42; 43; 45; 46; 47; 53; 54; 55; 63; 79; 111; 159; 175; 207; 223];
   [2; 3; 4; 5; 6; 7; 8; 9; 10; 11; 13; 14; 15; 18; 19; 20; 21; 26; 31; 34; 39; 41; 43; 47; 51; 52; 53; 55; 63; 68; 95; 159; 175; 223];
   [2; 3; 4; 5; 7; 10; 11; 12; 13; 14; 15; 20; 23; 25; 26; 27; 35; 38; 39; 40; 41; 42; 43; 46; 52; 53; 54; 55; 63; 68; 111; 127; 159; 175];
   [2; 3; 4; 7; 10; 11; 14; 15; 21; 23; 25; 26; 27; 29; 30; 31; 37; 38; 41; 47; 52; 68; 79; 127; 207; 223];
   [5; 6; 12; 13; 18; 23; 28; 47; 95; 111; 127; 223];
   [2; 5; 6; 13; 14; 19; 20; 21; 25; 26; 34; 36; 40; 47; 63; 79; 111; 143; 159; 191];
   [2; 3; 4; 5; 7; 8; 12; 14; 15; 23; 25; 29; 30; 34; 35; 36; 38; 39; 41; 43; 45; 47; 53; 54; 55; 95; 111; 127; 143; 175; 191; 207];
   [4; 5; 6; 7; 8; 9; 10; 11; 13; 14; 19; 20; 22; 24; 25; 28; 29; 37; 41; 43; 52; 68; 111; 223];
   [6; 12; 14; 15; 19; 20; 21; 22; 25; 28; 29; 30; 31; 36; 37; 38; 39; 41; 46; 53; 54; 55; 79; 95; 111; 191; 207; 223];
   [2; 4; 5; 6; 7; 10; 11; 12; 13; 15; 18; 19; 20; 21; 22; 24; 25; 26; 27; 30; 35; 36; 37; 38; 40; 42; 47; 52; 63; 68; 95; 111; 159; 175; 207; 223];
   [8; 9; 15; 18; 20; 24; 25; 27; 28; 30; 38; 43; 63; 95; 175; 207];
   [3; 4; 5; 7; 8; 11; 13; 14; 15; 20; 25; 26; 29; 30; 31; 34; 38; 39; 40; 43; 46; 52; 53; 54; 55; 63; 68; 175];
   [2; 3; 5; 7; 13; 14; 18; 24; 26; 27; 28; 29; 31; 35; 39; 40; 41; 42; 46; 47; 52; 53; 54; 55; 68; 159];
   [3; 5; 7; 8; 10; 12; 18; 20; 21; 28; 34; 37; 38; 39; 40; 41; 42; 43; 51; 53; 54; 68; 79; 191];
   [3; 4; 5; 6; 12; 13; 18; 19; 21; 22; 23; 24; 25; 30; 36; 38; 45; 52; 53; 54; 55; 68; 95; 111; 207; 223];
   [2; 3; 4; 6; 7; 8; 9; 10; 11; 14; 15; 21; 23; 26; 29; 30; 31; 35; 39; 40; 41; 42; 46; 47; 52; 53; 54; 55; 63; 68; 79; 95; 159; 175; 191; 207];
   [2; 3; 6; 7; 12; 14; 18; 24; 26; 27; 28; 29; 31; 34; 39; 40; 46; 47; 52; 53; 54; 55; 68; 79; 111; 159; 191; 223];
   [2; 4; 5; 6; 7; 8; 9; 10; 11; 12; 13; 19; 21; 22; 26; 28; 34; 36; 37; 40; 41; 43; 47; 52; 68; 79; 95; 111; 159; 191; 207; 223];
   [2; 3; 4; 5; 6; 9; 10; 11; 14; 15; 19; 20; 21; 22; 25; 28; 29; 30; 31; 34; 35; 36; 37; 38; 39; 42; 46; 47; 53; 54; 55; 63; 79; 95; 111; 159; 175; 191; 207; 223];
   [3; 4; 6; 7; 12; 13; 20; 24; 25; 28; 30; 35; 40; 41; 42; 43; 45; 52; 53; 54; 55; 63; 68; 79; 111; 175; 191; 223]]].
