(** /repo/ssz/sha256_shani.asm: sha256_shani. *)
From Coq Require Import ZArith String List Bool.
From Verif Require Import Base ModelX86 ModelAsm.
Import ListNotations.
Open Scope list_scope.
Open Scope Z_scope.

(** ssz/sha256_shani.asm:973-1016 (section .rodata) *)
Definition data_ni : data :=
 [("K256"%string,
   [0x428a2f98; 0x71374491; 0xb5c0fbcf; 0xe9b5dba5;
    0x3956c25b; 0x59f111f1; 0x923f82a4; 0xab1c5ed5;
    0xd807aa98; 0x12835b01; 0x243185be; 0x550c7dc3;
    0x72be5d74; 0x80deb1fe; 0x9bdc06a7; 0xc19bf174;
    0xe49b69c1; 0xefbe4786; 0x0fc19dc6; 0x240ca1cc;
    0x2de92c6f; 0x4a7484aa; 0x5cb0a9dc; 0x76f988da;
    0x983e5152; 0xa831c66d; 0xb00327c8; 0xbf597fc7;
    0xc6e00bf3; 0xd5a79147; 0x06ca6351; 0x14292967;
    0x27b70a85; 0x2e1b2138; 0x4d2c6dfc; 0x53380d13;
    0x650a7354; 0x766a0abb; 0x81c2c92e; 0x92722c85;
    0xa2bfe8a1; 0xa81a664b; 0xc24b8b70; 0xc76c51a3;
    0xd192e819; 0xd6990624; 0xf40e3585; 0x106aa070;
    0x19a4c116; 0x1e376c08; 0x2748774c; 0x34b0bcb5;
    0x391c0cb3; 0x4ed8aa4a; 0x5b9cca4f; 0x682e6ff3;
    0x748f82ee; 0x78a5636f; 0x84c87814; 0x8cc70208;
    0x90befffa; 0xa4506ceb; 0xbef9a3f7; 0xc67178f2]);
  ("PSHUFFLE_BYTE_FLIP_MASK"%string,
   flat_map ddq [0x0c0d0e0f08090a0b0405060700010203]);
  ("DIGEST"%string,
   flat_map ddq [0x6a09e667bb67ae85510e527f9b05688c; 0x3c6ef372a54ff53a1f83d9ab5be0cd19]);
  ("PADDING"%string,
   [0xc28a2f98; 0x71374491; 0xb5c0fbcf; 0xe9b5dba5;
    0x3956c25b; 0x59f111f1; 0x923f82a4; 0xab1c5ed5;
    0xd807aa98; 0x12835b01; 0x243185be; 0x550c7dc3;
    0x72be5d74; 0x80deb1fe; 0x9bdc06a7; 0xc19bf374;
    0x649b69c1; 0xf0fe4786; 0xfe1edc6; 0x240cf254;
    0x4fe9346f; 0x6cc984be; 0x61b9411e; 0x16f988fa;
    0xf2c65152; 0xa88e5a6d; 0xb019fc65; 0xb9d99ec7;
    0x9a1231c3; 0xe70eeaa0; 0xfdb1232b; 0xc7353eb0;
    0x3069bad5; 0xcb976d5f; 0x5a0f118f; 0xdc1eeefd;
    0xa35b689; 0xde0b7a04; 0x58f4ca9d; 0xe15d5b16;
    0x7f3e86; 0x37088980; 0xa507ea32; 0x6fab9537;
    0x17406110; 0xd8cd6f1; 0xcdaa3b6d; 0xc0bbbe37;
    0x83613bda; 0xdb48a363; 0xb02e931; 0x6fd15ca7;
    0x521afaca; 0x31338431; 0x6ed41a95; 0x6d437890;
    0xc39c91f2; 0x9eccabbd; 0xb5c9a0e6; 0x532fb63c;
    0xd2c741c6; 0x7237ea3; 0xa4954b68; 0x4c191d76])].
(** ssz/sha256_shani.asm:1017-1025 (section .data): variables *)
Definition data_ni_save : data :=
 [("ABEF_SAVEa"%string,
   [0x9b05688c; 0x510e527f; 0xbb67ae85; 0x6a09e667]);
  ("CDGH_SAVEa"%string,
   [0x5be0cd19; 0x1f83d9ab; 0xa54ff53a; 0x3c6ef372]);
  ("ABEF_SAVEb"%string,
   [0x9b05688c; 0x510e527f; 0xbb67ae85; 0x6a09e667]);
  ("CDGH_SAVEb"%string,
   [0x5be0cd19; 0x1f83d9ab; 0xa54ff53a; 0x3c6ef372])].
Definition at_ni (l : string) (d : Z) : addr := Rel sec_ni (offset data_ni l + d).
Definition at_ni_save (l : string) (d : Z) : addr := Rel sec_ni_save (offset data_ni_save l + d).

(** ssz/sha256_shani.asm:81-101 *)
Local Notation MSG := xmm0 (only parsing).
Local Notation STATE0 := xmm1 (only parsing).
Local Notation STATE1 := xmm2 (only parsing).
Local Notation MSGTMP0 := xmm3 (only parsing).
Local Notation MSGTMP1 := xmm4 (only parsing).
Local Notation MSGTMP2 := xmm5 (only parsing).
Local Notation MSGTMP3 := xmm6 (only parsing).
Local Notation MSGTMP4 := xmm7 (only parsing).
Local Notation SHUF_MASK := xmm8 (only parsing).
Local Notation ABEF_SAVE := xmm9 (only parsing).
Local Notation CDGH_SAVE := xmm10 (only parsing).
Local Notation STATE0b := xmm9 (only parsing).
Local Notation STATE1b := xmm10 (only parsing).
Local Notation MSGTMP0b := xmm11 (only parsing).
Local Notation MSGTMP1b := xmm12 (only parsing).
Local Notation MSGTMP2b := xmm13 (only parsing).
Local Notation MSGTMP3b := xmm14 (only parsing).
Local Notation MSGTMP4b := xmm15 (only parsing).

(** 115-477: prologue, and the first 64 rounds of the two-block loop *)
Definition code_ni_two_a : list instr :=
  [ILabel "sha256_shani";
    IVLoad SSE true SHUF_MASK (at_ni "PSHUFFLE_BYTE_FLIP_MASK" 0);
    ILea rax (at_ni "K256" 0);
    ILea rcx (at_ni "PADDING" 0);
    ILabel "sha256_shani.hash_2_blocks";
    ICmp64 rdx 2;
    IJl "sha256_shani.hash_1_block";
    IVLoad SSE true STATE0 (at_ni "DIGEST" 0);
    IVLoad SSE true STATE1 (at_ni "DIGEST" 16);
    IVLoad SSE true STATE0b (at_ni "DIGEST" 0);
    IVLoad SSE true STATE1b (at_ni "DIGEST" 16);
    IVLoad SSE false MSG (Base rsi (0*16));
    IV SSE PSHUFB MSG MSG (RV SHUF_MASK);
    IVu SSE VMOV MSGTMP0 MSG;
    IV SSE PADDD MSG MSG (MV (Base rax (0*16)));
    ISha256rnds2 STATE1 STATE0;
    IVu SSE (PSHUFD 0x0E) MSG MSG;
    ISha256rnds2 STATE0 STATE1;
    IVLoad SSE false MSG (Base rsi (4*16));
    IV SSE PSHUFB MSG MSG (RV SHUF_MASK);
    IVu SSE VMOV MSGTMP0b MSG;
    IV SSE PADDD MSG MSG (MV (Base rax (0*16)));
    ISha256rnds2 STATE1b STATE0b;
    IVu SSE (PSHUFD 0x0E) MSG MSG;
    ISha256rnds2 STATE0b STATE1b;
    IVLoad SSE false MSG (Base rsi (1*16));
    IV SSE PSHUFB MSG MSG (RV SHUF_MASK);
    IVu SSE VMOV MSGTMP1 MSG;
    IV SSE PADDD MSG MSG (MV (Base rax (1*16)));
    ISha256rnds2 STATE1 STATE0;
    IVu SSE (PSHUFD 0x0E) MSG MSG;
    ISha256rnds2 STATE0 STATE1;
    IV SSE SHA256MSG1 MSGTMP0 MSGTMP0 (RV MSGTMP1);
    IVLoad SSE false MSG (Base rsi (5*16));
    IV SSE PSHUFB MSG MSG (RV SHUF_MASK);
    IVu SSE VMOV MSGTMP1b MSG;
    IV SSE PADDD MSG MSG (MV (Base rax (1*16)));
    ISha256rnds2 STATE1b STATE0b;
    IVu SSE (PSHUFD 0x0E) MSG MSG;
    ISha256rnds2 STATE0b STATE1b;
    IV SSE SHA256MSG1 MSGTMP0b MSGTMP0b (RV MSGTMP1b);
    IVLoad SSE false MSG (Base rsi (2*16));
    IV SSE PSHUFB MSG MSG (RV SHUF_MASK);
    IVu SSE VMOV MSGTMP2 MSG;
    IV SSE PADDD MSG MSG (MV (Base rax (2*16)));
    ISha256rnds2 STATE1 STATE0;
    IVu SSE (PSHUFD 0x0E) MSG MSG;
    ISha256rnds2 STATE0 STATE1;
    IV SSE SHA256MSG1 MSGTMP1 MSGTMP1 (RV MSGTMP2);
    IVLoad SSE false MSG (Base rsi (6*16));
    IV SSE PSHUFB MSG MSG (RV SHUF_MASK);
    IVu SSE VMOV MSGTMP2b MSG;
    IV SSE PADDD MSG MSG (MV (Base rax (2*16)));
    ISha256rnds2 STATE1b STATE0b;
    IVu SSE (PSHUFD 0x0E) MSG MSG;
    ISha256rnds2 STATE0b STATE1b;
    IV SSE SHA256MSG1 MSGTMP1b MSGTMP1b (RV MSGTMP2b);
    IVLoad SSE false MSG (Base rsi (3*16));
    IV SSE PSHUFB MSG MSG (RV SHUF_MASK);
    IVu SSE VMOV MSGTMP3 MSG;
    IV SSE PADDD MSG MSG (MV (Base rax (3*16)));
    ISha256rnds2 STATE1 STATE0;
    IVu SSE VMOV MSGTMP4 MSGTMP3;
    IV SSE (PALIGNR 4) MSGTMP4 MSGTMP4 (RV MSGTMP2);
    IV SSE PADDD MSGTMP0 MSGTMP0 (RV MSGTMP4);
    IV SSE SHA256MSG2 MSGTMP0 MSGTMP0 (RV MSGTMP3);
    IVu SSE (PSHUFD 0x0E) MSG MSG;
    ISha256rnds2 STATE0 STATE1;
    IV SSE SHA256MSG1 MSGTMP2 MSGTMP2 (RV MSGTMP3);
    IVLoad SSE false MSG (Base rsi (7*16));
    IV SSE PSHUFB MSG MSG (RV SHUF_MASK);
    IVu SSE VMOV MSGTMP3b MSG;
    IV SSE PADDD MSG MSG (MV (Base rax (3*16)));
    ISha256rnds2 STATE1b STATE0b;
    IVu SSE VMOV MSGTMP4b MSGTMP3b;
    IV SSE (PALIGNR 4) MSGTMP4b MSGTMP4b (RV MSGTMP2b);
    IV SSE PADDD MSGTMP0b MSGTMP0b (RV MSGTMP4b);
    IV SSE SHA256MSG2 MSGTMP0b MSGTMP0b (RV MSGTMP3b);
    IVu SSE (PSHUFD 0x0E) MSG MSG;
    ISha256rnds2 STATE0b STATE1b;
    IV SSE SHA256MSG1 MSGTMP2b MSGTMP2b (RV MSGTMP3b);
    IVu SSE VMOV MSG MSGTMP0;
    IV SSE PADDD MSG MSG (MV (Base rax (4*16)));
    ISha256rnds2 STATE1 STATE0;
    IVu SSE VMOV MSGTMP4 MSGTMP0;
    IV SSE (PALIGNR 4) MSGTMP4 MSGTMP4 (RV MSGTMP3);
    IV SSE PADDD MSGTMP1 MSGTMP1 (RV MSGTMP4);
    IV SSE SHA256MSG2 MSGTMP1 MSGTMP1 (RV MSGTMP0);
    IVu SSE (PSHUFD 0x0E) MSG MSG;
    ISha256rnds2 STATE0 STATE1;
    IV SSE SHA256MSG1 MSGTMP3 MSGTMP3 (RV MSGTMP0);
    IVu SSE VMOV MSG MSGTMP0b;
    IV SSE PADDD MSG MSG (MV (Base rax (4*16)));
    ISha256rnds2 STATE1b STATE0b;
    IVu SSE VMOV MSGTMP4b MSGTMP0b;
    IV SSE (PALIGNR 4) MSGTMP4b MSGTMP4b (RV MSGTMP3b);
    IV SSE PADDD MSGTMP1b MSGTMP1b (RV MSGTMP4b);
    IV SSE SHA256MSG2 MSGTMP1b MSGTMP1b (RV MSGTMP0b);
    IVu SSE (PSHUFD 0x0E) MSG MSG;
    ISha256rnds2 STATE0b STATE1b;
    IV SSE SHA256MSG1 MSGTMP3b MSGTMP3b (RV MSGTMP0b);
    IVu SSE VMOV MSG MSGTMP1;
    IV SSE PADDD MSG MSG (MV (Base rax (5*16)));
    ISha256rnds2 STATE1 STATE0;
    IVu SSE VMOV MSGTMP4 MSGTMP1;
    IV SSE (PALIGNR 4) MSGTMP4 MSGTMP4 (RV MSGTMP0);
    IV SSE PADDD MSGTMP2 MSGTMP2 (RV MSGTMP4);
    IV SSE SHA256MSG2 MSGTMP2 MSGTMP2 (RV MSGTMP1);
    IVu SSE (PSHUFD 0x0E) MSG MSG;
    ISha256rnds2 STATE0 STATE1;
    IV SSE SHA256MSG1 MSGTMP0 MSGTMP0 (RV MSGTMP1);
    IVu SSE VMOV MSG MSGTMP1b;
    IV SSE PADDD MSG MSG (MV (Base rax (5*16)));
    ISha256rnds2 STATE1b STATE0b;
    IVu SSE VMOV MSGTMP4b MSGTMP1b;
    IV SSE (PALIGNR 4) MSGTMP4b MSGTMP4b (RV MSGTMP0b);
    IV SSE PADDD MSGTMP2b MSGTMP2b (RV MSGTMP4b);
    IV SSE SHA256MSG2 MSGTMP2b MSGTMP2b (RV MSGTMP1b);
    IVu SSE (PSHUFD 0x0E) MSG MSG;
    ISha256rnds2 STATE0b STATE1b;
    IV SSE SHA256MSG1 MSGTMP0b MSGTMP0b (RV MSGTMP1b);
    IVu SSE VMOV MSG MSGTMP2;
    IV SSE PADDD MSG MSG (MV (Base rax (6*16)));
    ISha256rnds2 STATE1 STATE0;
    IVu SSE VMOV MSGTMP4 MSGTMP2;
    IV SSE (PALIGNR 4) MSGTMP4 MSGTMP4 (RV MSGTMP1);
    IV SSE PADDD MSGTMP3 MSGTMP3 (RV MSGTMP4);
    IV SSE SHA256MSG2 MSGTMP3 MSGTMP3 (RV MSGTMP2);
    IVu SSE (PSHUFD 0x0E) MSG MSG;
    ISha256rnds2 STATE0 STATE1;
    IV SSE SHA256MSG1 MSGTMP1 MSGTMP1 (RV MSGTMP2);
    IVu SSE VMOV MSG MSGTMP2b;
    IV SSE PADDD MSG MSG (MV (Base rax (6*16)));
    ISha256rnds2 STATE1b STATE0b;
    IVu SSE VMOV MSGTMP4b MSGTMP2b;
    IV SSE (PALIGNR 4) MSGTMP4b MSGTMP4b (RV MSGTMP1b);
    IV SSE PADDD MSGTMP3b MSGTMP3b (RV MSGTMP4b);
    IV SSE SHA256MSG2 MSGTMP3b MSGTMP3b (RV MSGTMP2b);
    IVu SSE (PSHUFD 0x0E) MSG MSG;
    ISha256rnds2 STATE0b STATE1b;
    IV SSE SHA256MSG1 MSGTMP1b MSGTMP1b (RV MSGTMP2b);
    IVu SSE VMOV MSG MSGTMP3;
    IV SSE PADDD MSG MSG (MV (Base rax (7*16)));
    ISha256rnds2 STATE1 STATE0;
    IVu SSE VMOV MSGTMP4 MSGTMP3;
    IV SSE (PALIGNR 4) MSGTMP4 MSGTMP4 (RV MSGTMP2);
    IV SSE PADDD MSGTMP0 MSGTMP0 (RV MSGTMP4);
    IV SSE SHA256MSG2 MSGTMP0 MSGTMP0 (RV MSGTMP3);
    IVu SSE (PSHUFD 0x0E) MSG MSG;
    ISha256rnds2 STATE0 STATE1;
    IV SSE SHA256MSG1 MSGTMP2 MSGTMP2 (RV MSGTMP3);
    IVu SSE VMOV MSG MSGTMP3b;
    IV SSE PADDD MSG MSG (MV (Base rax (7*16)));
    ISha256rnds2 STATE1b STATE0b;
    IVu SSE VMOV MSGTMP4b MSGTMP3b;
    IV SSE (PALIGNR 4) MSGTMP4b MSGTMP4b (RV MSGTMP2b);
    IV SSE PADDD MSGTMP0b MSGTMP0b (RV MSGTMP4b);
    IV SSE SHA256MSG2 MSGTMP0b MSGTMP0b (RV MSGTMP3b);
    IVu SSE (PSHUFD 0x0E) MSG MSG;
    ISha256rnds2 STATE0b STATE1b;
    IV SSE SHA256MSG1 MSGTMP2b MSGTMP2b (RV MSGTMP3b);
    IVu SSE VMOV MSG MSGTMP0;
    IV SSE PADDD MSG MSG (MV (Base rax (8*16)));
    ISha256rnds2 STATE1 STATE0;
    IVu SSE VMOV MSGTMP4 MSGTMP0;
    IV SSE (PALIGNR 4) MSGTMP4 MSGTMP4 (RV MSGTMP3);
    IV SSE PADDD MSGTMP1 MSGTMP1 (RV MSGTMP4);
    IV SSE SHA256MSG2 MSGTMP1 MSGTMP1 (RV MSGTMP0);
    IVu SSE (PSHUFD 0x0E) MSG MSG;
    ISha256rnds2 STATE0 STATE1;
    IV SSE SHA256MSG1 MSGTMP3 MSGTMP3 (RV MSGTMP0);
    IVu SSE VMOV MSG MSGTMP0b;
    IV SSE PADDD MSG MSG (MV (Base rax (8*16)));
    ISha256rnds2 STATE1b STATE0b;
    IVu SSE VMOV MSGTMP4b MSGTMP0b;
    IV SSE (PALIGNR 4) MSGTMP4b MSGTMP4b (RV MSGTMP3b);
    IV SSE PADDD MSGTMP1b MSGTMP1b (RV MSGTMP4b);
    IV SSE SHA256MSG2 MSGTMP1b MSGTMP1b (RV MSGTMP0b);
    IVu SSE (PSHUFD 0x0E) MSG MSG;
    ISha256rnds2 STATE0b STATE1b;
    IV SSE SHA256MSG1 MSGTMP3b MSGTMP3b (RV MSGTMP0b);
    IVu SSE VMOV MSG MSGTMP1;
    IV SSE PADDD MSG MSG (MV (Base rax (9*16)));
    ISha256rnds2 STATE1 STATE0;
    IVu SSE VMOV MSGTMP4 MSGTMP1;
    IV SSE (PALIGNR 4) MSGTMP4 MSGTMP4 (RV MSGTMP0);
    IV SSE PADDD MSGTMP2 MSGTMP2 (RV MSGTMP4);
    IV SSE SHA256MSG2 MSGTMP2 MSGTMP2 (RV MSGTMP1);
    IVu SSE (PSHUFD 0x0E) MSG MSG;
    ISha256rnds2 STATE0 STATE1;
    IV SSE SHA256MSG1 MSGTMP0 MSGTMP0 (RV MSGTMP1);
    IVu SSE VMOV MSG MSGTMP1b;
    IV SSE PADDD MSG MSG (MV (Base rax (9*16)));
    ISha256rnds2 STATE1b STATE0b;
    IVu SSE VMOV MSGTMP4b MSGTMP1b;
    IV SSE (PALIGNR 4) MSGTMP4b MSGTMP4b (RV MSGTMP0b);
    IV SSE PADDD MSGTMP2b MSGTMP2b (RV MSGTMP4b);
    IV SSE SHA256MSG2 MSGTMP2b MSGTMP2b (RV MSGTMP1b);
    IVu SSE (PSHUFD 0x0E) MSG MSG;
    ISha256rnds2 STATE0b STATE1b;
    IV SSE SHA256MSG1 MSGTMP0b MSGTMP0b (RV MSGTMP1b);
    IVu SSE VMOV MSG MSGTMP2;
    IV SSE PADDD MSG MSG (MV (Base rax (10*16)));
    ISha256rnds2 STATE1 STATE0;
    IVu SSE VMOV MSGTMP4 MSGTMP2;
    IV SSE (PALIGNR 4) MSGTMP4 MSGTMP4 (RV MSGTMP1);
    IV SSE PADDD MSGTMP3 MSGTMP3 (RV MSGTMP4);
    IV SSE SHA256MSG2 MSGTMP3 MSGTMP3 (RV MSGTMP2);
    IVu SSE (PSHUFD 0x0E) MSG MSG;
    ISha256rnds2 STATE0 STATE1;
    IV SSE SHA256MSG1 MSGTMP1 MSGTMP1 (RV MSGTMP2);
    IVu SSE VMOV MSG MSGTMP2b;
    IV SSE PADDD MSG MSG (MV (Base rax (10*16)));
    ISha256rnds2 STATE1b STATE0b;
    IVu SSE VMOV MSGTMP4b MSGTMP2b;
    IV SSE (PALIGNR 4) MSGTMP4b MSGTMP4b (RV MSGTMP1b);
    IV SSE PADDD MSGTMP3b MSGTMP3b (RV MSGTMP4b);
    IV SSE SHA256MSG2 MSGTMP3b MSGTMP3b (RV MSGTMP2b);
    IVu SSE (PSHUFD 0x0E) MSG MSG;
    ISha256rnds2 STATE0b STATE1b;
    IV SSE SHA256MSG1 MSGTMP1b MSGTMP1b (RV MSGTMP2b);
    IVu SSE VMOV MSG MSGTMP3;
    IV SSE PADDD MSG MSG (MV (Base rax (11*16)));
    ISha256rnds2 STATE1 STATE0;
    IVu SSE VMOV MSGTMP4 MSGTMP3;
    IV SSE (PALIGNR 4) MSGTMP4 MSGTMP4 (RV MSGTMP2);
    IV SSE PADDD MSGTMP0 MSGTMP0 (RV MSGTMP4);
    IV SSE SHA256MSG2 MSGTMP0 MSGTMP0 (RV MSGTMP3);
    IVu SSE (PSHUFD 0x0E) MSG MSG;
    ISha256rnds2 STATE0 STATE1;
    IV SSE SHA256MSG1 MSGTMP2 MSGTMP2 (RV MSGTMP3);
    IVu SSE VMOV MSG MSGTMP3b;
    IV SSE PADDD MSG MSG (MV (Base rax (11*16)));
    ISha256rnds2 STATE1b STATE0b;
    IVu SSE VMOV MSGTMP4b MSGTMP3b;
    IV SSE (PALIGNR 4) MSGTMP4b MSGTMP4b (RV MSGTMP2b);
    IV SSE PADDD MSGTMP0b MSGTMP0b (RV MSGTMP4b);
    IV SSE SHA256MSG2 MSGTMP0b MSGTMP0b (RV MSGTMP3b);
    IVu SSE (PSHUFD 0x0E) MSG MSG;
    ISha256rnds2 STATE0b STATE1b;
    IV SSE SHA256MSG1 MSGTMP2b MSGTMP2b (RV MSGTMP3b);
    IVu SSE VMOV MSG MSGTMP0;
    IV SSE PADDD MSG MSG (MV (Base rax (12*16)));
    ISha256rnds2 STATE1 STATE0;
    IVu SSE VMOV MSGTMP4 MSGTMP0;
    IV SSE (PALIGNR 4) MSGTMP4 MSGTMP4 (RV MSGTMP3);
    IV SSE PADDD MSGTMP1 MSGTMP1 (RV MSGTMP4);
    IV SSE SHA256MSG2 MSGTMP1 MSGTMP1 (RV MSGTMP0);
    IVu SSE (PSHUFD 0x0E) MSG MSG;
    ISha256rnds2 STATE0 STATE1;
    IV SSE SHA256MSG1 MSGTMP3 MSGTMP3 (RV MSGTMP0);
    IVu SSE VMOV MSG MSGTMP0b;
    IV SSE PADDD MSG MSG (MV (Base rax (12*16)));
    ISha256rnds2 STATE1b STATE0b;
    IVu SSE VMOV MSGTMP4b MSGTMP0b;
    IV SSE (PALIGNR 4) MSGTMP4b MSGTMP4b (RV MSGTMP3b);
    IV SSE PADDD MSGTMP1b MSGTMP1b (RV MSGTMP4b);
    IV SSE SHA256MSG2 MSGTMP1b MSGTMP1b (RV MSGTMP0b);
    IVu SSE (PSHUFD 0x0E) MSG MSG;
    ISha256rnds2 STATE0b STATE1b;
    IV SSE SHA256MSG1 MSGTMP3b MSGTMP3b (RV MSGTMP0b);
    IVu SSE VMOV MSG MSGTMP1;
    IV SSE PADDD MSG MSG (MV (Base rax (13*16)));
    ISha256rnds2 STATE1 STATE0;
    IVu SSE VMOV MSGTMP4 MSGTMP1;
    IV SSE (PALIGNR 4) MSGTMP4 MSGTMP4 (RV MSGTMP0);
    IV SSE PADDD MSGTMP2 MSGTMP2 (RV MSGTMP4);
    IV SSE SHA256MSG2 MSGTMP2 MSGTMP2 (RV MSGTMP1);
    IVu SSE (PSHUFD 0x0E) MSG MSG;
    ISha256rnds2 STATE0 STATE1;
    IVu SSE VMOV MSG MSGTMP1b;
    IV SSE PADDD MSG MSG (MV (Base rax (13*16)));
    ISha256rnds2 STATE1b STATE0b;
    IVu SSE VMOV MSGTMP4b MSGTMP1b;
    IV SSE (PALIGNR 4) MSGTMP4b MSGTMP4b (RV MSGTMP0b);
    IV SSE PADDD MSGTMP2b MSGTMP2b (RV MSGTMP4b);
    IV SSE SHA256MSG2 MSGTMP2b MSGTMP2b (RV MSGTMP1b);
    IVu SSE (PSHUFD 0x0E) MSG MSG;
    ISha256rnds2 STATE0b STATE1b;
    IVu SSE VMOV MSG MSGTMP2;
    IV SSE PADDD MSG MSG (MV (Base rax (14*16)));
    ISha256rnds2 STATE1 STATE0;
    IVu SSE VMOV MSGTMP4 MSGTMP2;
    IV SSE (PALIGNR 4) MSGTMP4 MSGTMP4 (RV MSGTMP1);
    IV SSE PADDD MSGTMP3 MSGTMP3 (RV MSGTMP4);
    IV SSE SHA256MSG2 MSGTMP3 MSGTMP3 (RV MSGTMP2);
    IVu SSE (PSHUFD 0x0E) MSG MSG;
    ISha256rnds2 STATE0 STATE1;
    IVu SSE VMOV MSG MSGTMP2b;
    IV SSE PADDD MSG MSG (MV (Base rax (14*16)));
    ISha256rnds2 STATE1b STATE0b;
    IVu SSE VMOV MSGTMP4b MSGTMP2b;
    IV SSE (PALIGNR 4) MSGTMP4b MSGTMP4b (RV MSGTMP1b);
    IV SSE PADDD MSGTMP3b MSGTMP3b (RV MSGTMP4b);
    IV SSE SHA256MSG2 MSGTMP3b MSGTMP3b (RV MSGTMP2b);
    IVu SSE (PSHUFD 0x0E) MSG MSG;
    ISha256rnds2 STATE0b STATE1b;
    IVu SSE VMOV MSG MSGTMP3;
    IV SSE PADDD MSG MSG (MV (Base rax (15*16)));
    ISha256rnds2 STATE1 STATE0;
    IVu SSE (PSHUFD 0x0E) MSG MSG;
    ISha256rnds2 STATE0 STATE1;
    IVu SSE VMOV MSG MSGTMP3b;
    IV SSE PADDD MSG MSG (MV (Base rax (15*16)));
    ISha256rnds2 STATE1b STATE0b;
    IVu SSE (PSHUFD 0x0E) MSG MSG;
    ISha256rnds2 STATE0b STATE1b;
    IV SSE PADDD STATE0 STATE0 (MV (at_ni "DIGEST" 0));
    IV SSE PADDD STATE1 STATE1 (MV (at_ni "DIGEST" 16));
    IV SSE PADDD STATE0b STATE0b (MV (at_ni "DIGEST" 0));
    IV SSE PADDD STATE1b STATE1b (MV (at_ni "DIGEST" 16))].
(** 477-646: the rounds on the padding, output, loop *)
Definition code_ni_two_b : list instr :=
  [IVStore SSE true (at_ni_save "ABEF_SAVEa" 0) STATE0;
    IVStore SSE true (at_ni_save "CDGH_SAVEa" 0) STATE1;
    IVStore SSE true (at_ni_save "ABEF_SAVEb" 0) STATE0b;
    IVStore SSE true (at_ni_save "CDGH_SAVEb" 0) STATE1b;
    IVLoad SSE true MSG (Base rcx (0*16));
    ISha256rnds2 STATE1 STATE0;
    ISha256rnds2 STATE1b STATE0b;
    IVu SSE (PSHUFD 0x0E) MSG MSG;
    ISha256rnds2 STATE0 STATE1;
    ISha256rnds2 STATE0b STATE1b;
    IVLoad SSE true MSG (Base rcx (1*16));
    ISha256rnds2 STATE1 STATE0;
    ISha256rnds2 STATE1b STATE0b;
    IVu SSE (PSHUFD 0x0E) MSG MSG;
    ISha256rnds2 STATE0 STATE1;
    ISha256rnds2 STATE0b STATE1b;
    IVLoad SSE true MSG (Base rcx (2*16));
    ISha256rnds2 STATE1 STATE0;
    ISha256rnds2 STATE1b STATE0b;
    IVu SSE (PSHUFD 0x0E) MSG MSG;
    ISha256rnds2 STATE0 STATE1;
    ISha256rnds2 STATE0b STATE1b;
    IVLoad SSE true MSG (Base rcx (3*16));
    ISha256rnds2 STATE1 STATE0;
    ISha256rnds2 STATE1b STATE0b;
    IVu SSE (PSHUFD 0x0E) MSG MSG;
    ISha256rnds2 STATE0 STATE1;
    ISha256rnds2 STATE0b STATE1b;
    IVLoad SSE true MSG (Base rcx (4*16));
    ISha256rnds2 STATE1 STATE0;
    ISha256rnds2 STATE1b STATE0b;
    IVu SSE (PSHUFD 0x0E) MSG MSG;
    ISha256rnds2 STATE0 STATE1;
    ISha256rnds2 STATE0b STATE1b;
    IVLoad SSE true MSG (Base rcx (5*16));
    ISha256rnds2 STATE1 STATE0;
    ISha256rnds2 STATE1b STATE0b;
    IVu SSE (PSHUFD 0x0E) MSG MSG;
    ISha256rnds2 STATE0 STATE1;
    ISha256rnds2 STATE0b STATE1b;
    IVLoad SSE true MSG (Base rcx (6*16));
    ISha256rnds2 STATE1 STATE0;
    ISha256rnds2 STATE1b STATE0b;
    IVu SSE (PSHUFD 0x0E) MSG MSG;
    ISha256rnds2 STATE0 STATE1;
    ISha256rnds2 STATE0b STATE1b;
    IVLoad SSE true MSG (Base rcx (7*16));
    ISha256rnds2 STATE1 STATE0;
    ISha256rnds2 STATE1b STATE0b;
    IVu SSE (PSHUFD 0x0E) MSG MSG;
    ISha256rnds2 STATE0 STATE1;
    ISha256rnds2 STATE0b STATE1b;
    IVLoad SSE true MSG (Base rcx (8*16));
    ISha256rnds2 STATE1 STATE0;
    ISha256rnds2 STATE1b STATE0b;
    IVu SSE (PSHUFD 0x0E) MSG MSG;
    ISha256rnds2 STATE0 STATE1;
    ISha256rnds2 STATE0b STATE1b;
    IVLoad SSE true MSG (Base rcx (9*16));
    ISha256rnds2 STATE1 STATE0;
    ISha256rnds2 STATE1b STATE0b;
    IVu SSE (PSHUFD 0x0E) MSG MSG;
    ISha256rnds2 STATE0 STATE1;
    ISha256rnds2 STATE0b STATE1b;
    IVLoad SSE true MSG (Base rcx (10*16));
    ISha256rnds2 STATE1 STATE0;
    ISha256rnds2 STATE1b STATE0b;
    IVu SSE (PSHUFD 0x0E) MSG MSG;
    ISha256rnds2 STATE0 STATE1;
    ISha256rnds2 STATE0b STATE1b;
    IVLoad SSE true MSG (Base rcx (11*16));
    ISha256rnds2 STATE1 STATE0;
    ISha256rnds2 STATE1b STATE0b;
    IVu SSE (PSHUFD 0x0E) MSG MSG;
    ISha256rnds2 STATE0 STATE1;
    ISha256rnds2 STATE0b STATE1b;
    IVLoad SSE true MSG (Base rcx (12*16));
    ISha256rnds2 STATE1 STATE0;
    ISha256rnds2 STATE1b STATE0b;
    IVu SSE (PSHUFD 0x0E) MSG MSG;
    ISha256rnds2 STATE0 STATE1;
    ISha256rnds2 STATE0b STATE1b;
    IVLoad SSE true MSG (Base rcx (13*16));
    ISha256rnds2 STATE1 STATE0;
    ISha256rnds2 STATE1b STATE0b;
    IVu SSE (PSHUFD 0x0E) MSG MSG;
    ISha256rnds2 STATE0 STATE1;
    ISha256rnds2 STATE0b STATE1b;
    IVLoad SSE true MSG (Base rcx (14*16));
    ISha256rnds2 STATE1 STATE0;
    ISha256rnds2 STATE1b STATE0b;
    IVu SSE (PSHUFD 0x0E) MSG MSG;
    ISha256rnds2 STATE0 STATE1;
    ISha256rnds2 STATE0b STATE1b;
    IVLoad SSE true MSG (Base rcx (15*16));
    ISha256rnds2 STATE1 STATE0;
    ISha256rnds2 STATE1b STATE0b;
    IVu SSE (PSHUFD 0x0E) MSG MSG;
    ISha256rnds2 STATE0 STATE1;
    ISha256rnds2 STATE0b STATE1b;
    IV SSE PADDD STATE0 STATE0 (MV (at_ni_save "ABEF_SAVEa" 0));
    IV SSE PADDD STATE1 STATE1 (MV (at_ni_save "CDGH_SAVEa" 0));
    IV SSE PADDD STATE0b STATE0b (MV (at_ni_save "ABEF_SAVEb" 0));
    IV SSE PADDD STATE1b STATE1b (MV (at_ni_save "CDGH_SAVEb" 0));
    IVu SSE (PSHUFD 0x1B) STATE0 STATE0;
    IVu SSE (PSHUFD 0xB1) STATE1 STATE1;
    IVu SSE (PSHUFD 0x1B) STATE0b STATE0b;
    IVu SSE (PSHUFD 0xB1) STATE1b STATE1b;
    IVu SSE VMOV MSGTMP4 STATE0;
    IVu SSE VMOV MSGTMP4b STATE0b;
    IV SSE (PBLENDW 0xF0) STATE0 STATE0 (RV STATE1);
    IV SSE (PBLENDW 0xF0) STATE0b STATE0b (RV STATE1b);
    IV SSE (PALIGNR 8) STATE1 STATE1 (RV MSGTMP4);
    IV SSE (PALIGNR 8) STATE1b STATE1b (RV MSGTMP4b);
    IV SSE PSHUFB STATE0 STATE0 (RV SHUF_MASK);
    IV SSE PSHUFB STATE0b STATE0b (RV SHUF_MASK);
    IV SSE PSHUFB STATE1 STATE1 (RV SHUF_MASK);
    IV SSE PSHUFB STATE1b STATE1b (RV SHUF_MASK);
    IVStore SSE false (Base rdi (0*16)) STATE0;
    IVStore SSE false (Base rdi (1*16)) STATE1;
    IVStore SSE false (Base rdi (2*16)) STATE0b;
    IVStore SSE false (Base rdi (3*16)) STATE1b;
    IAdd64 rsi 128;
    IAdd64 rdi 64;
    ISub64 rdx 2;
    IJmp "sha256_shani.hash_2_blocks"].
(** 647-843: one block, first 64 rounds *)
Definition code_ni_one_a : list instr :=
  [ILabel "sha256_shani.hash_1_block";
    ITest64 rdx rdx;
    IJz "sha256_shani.done_hash";
    IVLoad SSE true STATE0 (at_ni "DIGEST" 0);
    IVLoad SSE true STATE1 (at_ni "DIGEST" 16);
    IVu SSE VMOV ABEF_SAVE STATE0;
    IVu SSE VMOV CDGH_SAVE STATE1;
    IVLoad SSE false MSG (Base rsi (0*16));
    IV SSE PSHUFB MSG MSG (RV SHUF_MASK);
    IVu SSE VMOV MSGTMP0 MSG;
    IV SSE PADDD MSG MSG (MV (Base rax (0*16)));
    ISha256rnds2 STATE1 STATE0;
    IVu SSE (PSHUFD 0x0E) MSG MSG;
    ISha256rnds2 STATE0 STATE1;
    IVLoad SSE false MSG (Base rsi (1*16));
    IV SSE PSHUFB MSG MSG (RV SHUF_MASK);
    IVu SSE VMOV MSGTMP1 MSG;
    IV SSE PADDD MSG MSG (MV (Base rax (1*16)));
    ISha256rnds2 STATE1 STATE0;
    IVu SSE (PSHUFD 0x0E) MSG MSG;
    ISha256rnds2 STATE0 STATE1;
    IV SSE SHA256MSG1 MSGTMP0 MSGTMP0 (RV MSGTMP1);
    IVLoad SSE false MSG (Base rsi (2*16));
    IV SSE PSHUFB MSG MSG (RV SHUF_MASK);
    IVu SSE VMOV MSGTMP2 MSG;
    IV SSE PADDD MSG MSG (MV (Base rax (2*16)));
    ISha256rnds2 STATE1 STATE0;
    IVu SSE (PSHUFD 0x0E) MSG MSG;
    ISha256rnds2 STATE0 STATE1;
    IV SSE SHA256MSG1 MSGTMP1 MSGTMP1 (RV MSGTMP2);
    IVLoad SSE false MSG (Base rsi (3*16));
    IV SSE PSHUFB MSG MSG (RV SHUF_MASK);
    IVu SSE VMOV MSGTMP3 MSG;
    IV SSE PADDD MSG MSG (MV (Base rax (3*16)));
    ISha256rnds2 STATE1 STATE0;
    IVu SSE VMOV MSGTMP4 MSGTMP3;
    IV SSE (PALIGNR 4) MSGTMP4 MSGTMP4 (RV MSGTMP2);
    IV SSE PADDD MSGTMP0 MSGTMP0 (RV MSGTMP4);
    IV SSE SHA256MSG2 MSGTMP0 MSGTMP0 (RV MSGTMP3);
    IVu SSE (PSHUFD 0x0E) MSG MSG;
    ISha256rnds2 STATE0 STATE1;
    IV SSE SHA256MSG1 MSGTMP2 MSGTMP2 (RV MSGTMP3);
    IVu SSE VMOV MSG MSGTMP0;
    IV SSE PADDD MSG MSG (MV (Base rax (4*16)));
    ISha256rnds2 STATE1 STATE0;
    IVu SSE VMOV MSGTMP4 MSGTMP0;
    IV SSE (PALIGNR 4) MSGTMP4 MSGTMP4 (RV MSGTMP3);
    IV SSE PADDD MSGTMP1 MSGTMP1 (RV MSGTMP4);
    IV SSE SHA256MSG2 MSGTMP1 MSGTMP1 (RV MSGTMP0);
    IVu SSE (PSHUFD 0x0E) MSG MSG;
    ISha256rnds2 STATE0 STATE1;
    IV SSE SHA256MSG1 MSGTMP3 MSGTMP3 (RV MSGTMP0);
    IVu SSE VMOV MSG MSGTMP1;
    IV SSE PADDD MSG MSG (MV (Base rax (5*16)));
    ISha256rnds2 STATE1 STATE0;
    IVu SSE VMOV MSGTMP4 MSGTMP1;
    IV SSE (PALIGNR 4) MSGTMP4 MSGTMP4 (RV MSGTMP0);
    IV SSE PADDD MSGTMP2 MSGTMP2 (RV MSGTMP4);
    IV SSE SHA256MSG2 MSGTMP2 MSGTMP2 (RV MSGTMP1);
    IVu SSE (PSHUFD 0x0E) MSG MSG;
    ISha256rnds2 STATE0 STATE1;
    IV SSE SHA256MSG1 MSGTMP0 MSGTMP0 (RV MSGTMP1);
    IVu SSE VMOV MSG MSGTMP2;
    IV SSE PADDD MSG MSG (MV (Base rax (6*16)));
    ISha256rnds2 STATE1 STATE0;
    IVu SSE VMOV MSGTMP4 MSGTMP2;
    IV SSE (PALIGNR 4) MSGTMP4 MSGTMP4 (RV MSGTMP1);
    IV SSE PADDD MSGTMP3 MSGTMP3 (RV MSGTMP4);
    IV SSE SHA256MSG2 MSGTMP3 MSGTMP3 (RV MSGTMP2);
    IVu SSE (PSHUFD 0x0E) MSG MSG;
    ISha256rnds2 STATE0 STATE1;
    IV SSE SHA256MSG1 MSGTMP1 MSGTMP1 (RV MSGTMP2);
    IVu SSE VMOV MSG MSGTMP3;
    IV SSE PADDD MSG MSG (MV (Base rax (7*16)));
    ISha256rnds2 STATE1 STATE0;
    IVu SSE VMOV MSGTMP4 MSGTMP3;
    IV SSE (PALIGNR 4) MSGTMP4 MSGTMP4 (RV MSGTMP2);
    IV SSE PADDD MSGTMP0 MSGTMP0 (RV MSGTMP4);
    IV SSE SHA256MSG2 MSGTMP0 MSGTMP0 (RV MSGTMP3);
    IVu SSE (PSHUFD 0x0E) MSG MSG;
    ISha256rnds2 STATE0 STATE1;
    IV SSE SHA256MSG1 MSGTMP2 MSGTMP2 (RV MSGTMP3);
    IVu SSE VMOV MSG MSGTMP0;
    IV SSE PADDD MSG MSG (MV (Base rax (8*16)));
    ISha256rnds2 STATE1 STATE0;
    IVu SSE VMOV MSGTMP4 MSGTMP0;
    IV SSE (PALIGNR 4) MSGTMP4 MSGTMP4 (RV MSGTMP3);
    IV SSE PADDD MSGTMP1 MSGTMP1 (RV MSGTMP4);
    IV SSE SHA256MSG2 MSGTMP1 MSGTMP1 (RV MSGTMP0);
    IVu SSE (PSHUFD 0x0E) MSG MSG;
    ISha256rnds2 STATE0 STATE1;
    IV SSE SHA256MSG1 MSGTMP3 MSGTMP3 (RV MSGTMP0);
    IVu SSE VMOV MSG MSGTMP1;
    IV SSE PADDD MSG MSG (MV (Base rax (9*16)));
    ISha256rnds2 STATE1 STATE0;
    IVu SSE VMOV MSGTMP4 MSGTMP1;
    IV SSE (PALIGNR 4) MSGTMP4 MSGTMP4 (RV MSGTMP0);
    IV SSE PADDD MSGTMP2 MSGTMP2 (RV MSGTMP4);
    IV SSE SHA256MSG2 MSGTMP2 MSGTMP2 (RV MSGTMP1);
    IVu SSE (PSHUFD 0x0E) MSG MSG;
    ISha256rnds2 STATE0 STATE1;
    IV SSE SHA256MSG1 MSGTMP0 MSGTMP0 (RV MSGTMP1);
    IVu SSE VMOV MSG MSGTMP2;
    IV SSE PADDD MSG MSG (MV (Base rax (10*16)));
    ISha256rnds2 STATE1 STATE0;
    IVu SSE VMOV MSGTMP4 MSGTMP2;
    IV SSE (PALIGNR 4) MSGTMP4 MSGTMP4 (RV MSGTMP1);
    IV SSE PADDD MSGTMP3 MSGTMP3 (RV MSGTMP4);
    IV SSE SHA256MSG2 MSGTMP3 MSGTMP3 (RV MSGTMP2);
    IVu SSE (PSHUFD 0x0E) MSG MSG;
    ISha256rnds2 STATE0 STATE1;
    IV SSE SHA256MSG1 MSGTMP1 MSGTMP1 (RV MSGTMP2);
    IVu SSE VMOV MSG MSGTMP3;
    IV SSE PADDD MSG MSG (MV (Base rax (11*16)));
    ISha256rnds2 STATE1 STATE0;
    IVu SSE VMOV MSGTMP4 MSGTMP3;
    IV SSE (PALIGNR 4) MSGTMP4 MSGTMP4 (RV MSGTMP2);
    IV SSE PADDD MSGTMP0 MSGTMP0 (RV MSGTMP4);
    IV SSE SHA256MSG2 MSGTMP0 MSGTMP0 (RV MSGTMP3);
    IVu SSE (PSHUFD 0x0E) MSG MSG;
    ISha256rnds2 STATE0 STATE1;
    IV SSE SHA256MSG1 MSGTMP2 MSGTMP2 (RV MSGTMP3);
    IVu SSE VMOV MSG MSGTMP0;
    IV SSE PADDD MSG MSG (MV (Base rax (12*16)));
    ISha256rnds2 STATE1 STATE0;
    IVu SSE VMOV MSGTMP4 MSGTMP0;
    IV SSE (PALIGNR 4) MSGTMP4 MSGTMP4 (RV MSGTMP3);
    IV SSE PADDD MSGTMP1 MSGTMP1 (RV MSGTMP4);
    IV SSE SHA256MSG2 MSGTMP1 MSGTMP1 (RV MSGTMP0);
    IVu SSE (PSHUFD 0x0E) MSG MSG;
    ISha256rnds2 STATE0 STATE1;
    IV SSE SHA256MSG1 MSGTMP3 MSGTMP3 (RV MSGTMP0);
    IVu SSE VMOV MSG MSGTMP1;
    IV SSE PADDD MSG MSG (MV (Base rax (13*16)));
    ISha256rnds2 STATE1 STATE0;
    IVu SSE VMOV MSGTMP4 MSGTMP1;
    IV SSE (PALIGNR 4) MSGTMP4 MSGTMP4 (RV MSGTMP0);
    IV SSE PADDD MSGTMP2 MSGTMP2 (RV MSGTMP4);
    IV SSE SHA256MSG2 MSGTMP2 MSGTMP2 (RV MSGTMP1);
    IVu SSE (PSHUFD 0x0E) MSG MSG;
    ISha256rnds2 STATE0 STATE1;
    IVu SSE VMOV MSG MSGTMP2;
    IV SSE PADDD MSG MSG (MV (Base rax (14*16)));
    ISha256rnds2 STATE1 STATE0;
    IVu SSE VMOV MSGTMP4 MSGTMP2;
    IV SSE (PALIGNR 4) MSGTMP4 MSGTMP4 (RV MSGTMP1);
    IV SSE PADDD MSGTMP3 MSGTMP3 (RV MSGTMP4);
    IV SSE SHA256MSG2 MSGTMP3 MSGTMP3 (RV MSGTMP2);
    IVu SSE (PSHUFD 0x0E) MSG MSG;
    ISha256rnds2 STATE0 STATE1;
    IVu SSE VMOV MSG MSGTMP3;
    IV SSE PADDD MSG MSG (MV (Base rax (15*16)));
    ISha256rnds2 STATE1 STATE0;
    IVu SSE (PSHUFD 0x0E) MSG MSG;
    ISha256rnds2 STATE0 STATE1;
    IV SSE PADDD STATE0 STATE0 (RV ABEF_SAVE);
    IV SSE PADDD STATE1 STATE1 (RV CDGH_SAVE)].
(** 843-971: one block, the rounds on the padding, output, return *)
Definition code_ni_one_b : list instr :=
  [IVu SSE VMOV ABEF_SAVE STATE0;
    IVu SSE VMOV CDGH_SAVE STATE1;
    IVLoad SSE true MSG (Base rcx (0*16));
    ISha256rnds2 STATE1 STATE0;
    IVu SSE (PSHUFD 0x0E) MSG MSG;
    ISha256rnds2 STATE0 STATE1;
    IVLoad SSE true MSG (Base rcx (1*16));
    ISha256rnds2 STATE1 STATE0;
    IVu SSE (PSHUFD 0x0E) MSG MSG;
    ISha256rnds2 STATE0 STATE1;
    IVLoad SSE true MSG (Base rcx (2*16));
    ISha256rnds2 STATE1 STATE0;
    IVu SSE (PSHUFD 0x0E) MSG MSG;
    ISha256rnds2 STATE0 STATE1;
    IVLoad SSE true MSG (Base rcx (3*16));
    ISha256rnds2 STATE1 STATE0;
    IVu SSE (PSHUFD 0x0E) MSG MSG;
    ISha256rnds2 STATE0 STATE1;
    IVLoad SSE true MSG (Base rcx (4*16));
    ISha256rnds2 STATE1 STATE0;
    IVu SSE (PSHUFD 0x0E) MSG MSG;
    ISha256rnds2 STATE0 STATE1;
    IVLoad SSE true MSG (Base rcx (5*16));
    ISha256rnds2 STATE1 STATE0;
    IVu SSE (PSHUFD 0x0E) MSG MSG;
    ISha256rnds2 STATE0 STATE1;
    IVLoad SSE true MSG (Base rcx (6*16));
    ISha256rnds2 STATE1 STATE0;
    IVu SSE (PSHUFD 0x0E) MSG MSG;
    ISha256rnds2 STATE0 STATE1;
    IVLoad SSE true MSG (Base rcx (7*16));
    ISha256rnds2 STATE1 STATE0;
    IVu SSE (PSHUFD 0x0E) MSG MSG;
    ISha256rnds2 STATE0 STATE1;
    IVLoad SSE true MSG (Base rcx (8*16));
    ISha256rnds2 STATE1 STATE0;
    IVu SSE (PSHUFD 0x0E) MSG MSG;
    ISha256rnds2 STATE0 STATE1;
    IVLoad SSE true MSG (Base rcx (9*16));
    ISha256rnds2 STATE1 STATE0;
    IVu SSE (PSHUFD 0x0E) MSG MSG;
    ISha256rnds2 STATE0 STATE1;
    IVLoad SSE true MSG (Base rcx (10*16));
    ISha256rnds2 STATE1 STATE0;
    IVu SSE (PSHUFD 0x0E) MSG MSG;
    ISha256rnds2 STATE0 STATE1;
    IVLoad SSE true MSG (Base rcx (11*16));
    ISha256rnds2 STATE1 STATE0;
    IVu SSE (PSHUFD 0x0E) MSG MSG;
    ISha256rnds2 STATE0 STATE1;
    IVLoad SSE true MSG (Base rcx (12*16));
    ISha256rnds2 STATE1 STATE0;
    IVu SSE (PSHUFD 0x0E) MSG MSG;
    ISha256rnds2 STATE0 STATE1;
    IVLoad SSE true MSG (Base rcx (13*16));
    ISha256rnds2 STATE1 STATE0;
    IVu SSE (PSHUFD 0x0E) MSG MSG;
    ISha256rnds2 STATE0 STATE1;
    IVLoad SSE true MSG (Base rcx (14*16));
    ISha256rnds2 STATE1 STATE0;
    IVu SSE (PSHUFD 0x0E) MSG MSG;
    ISha256rnds2 STATE0 STATE1;
    IVLoad SSE true MSG (Base rcx (15*16));
    ISha256rnds2 STATE1 STATE0;
    IVu SSE (PSHUFD 0x0E) MSG MSG;
    ISha256rnds2 STATE0 STATE1;
    IV SSE PADDD STATE0 STATE0 (RV ABEF_SAVE);
    IV SSE PADDD STATE1 STATE1 (RV CDGH_SAVE);
    IVu SSE (PSHUFD 0x1B) STATE0 STATE0;
    IVu SSE (PSHUFD 0xB1) STATE1 STATE1;
    IVu SSE VMOV MSGTMP4 STATE0;
    IV SSE (PBLENDW 0xF0) STATE0 STATE0 (RV STATE1);
    IV SSE (PALIGNR 8) STATE1 STATE1 (RV MSGTMP4);
    IV SSE PSHUFB STATE0 STATE0 (RV SHUF_MASK);
    IV SSE PSHUFB STATE1 STATE1 (RV SHUF_MASK);
    IVStore SSE false (Base rdi (0*16)) STATE0;
    IVStore SSE false (Base rdi (1*16)) STATE1;
    ILabel "sha256_shani.done_hash";
    IRet].
(** sha256_shani, 115-971 *)
Definition code_ni : list instr :=
  code_ni_two_a ++ code_ni_two_b ++ code_ni_one_a ++ code_ni_one_b.
