(** /repo/ssz/sha256_avx.asm: sha256_4_avx. *)
From Coq Require Import ZArith String List Bool.
From Verif Require Import Base ModelX86 ModelAsm.
Import ListNotations.
Open Scope list_scope.
Open Scope Z_scope.

(** ssz/sha256_avx.asm:308-456 (section .data) *)
Definition data_4 : data :=
 [("K256_4"%string,
   flat_map dq [0x428a2f98428a2f98; 0x428a2f98428a2f98; 0x7137449171374491; 0x7137449171374491;
    0xb5c0fbcfb5c0fbcf; 0xb5c0fbcfb5c0fbcf; 0xe9b5dba5e9b5dba5; 0xe9b5dba5e9b5dba5;
    0x3956c25b3956c25b; 0x3956c25b3956c25b; 0x59f111f159f111f1; 0x59f111f159f111f1;
    0x923f82a4923f82a4; 0x923f82a4923f82a4; 0xab1c5ed5ab1c5ed5; 0xab1c5ed5ab1c5ed5;
    0xd807aa98d807aa98; 0xd807aa98d807aa98; 0x12835b0112835b01; 0x12835b0112835b01;
    0x243185be243185be; 0x243185be243185be; 0x550c7dc3550c7dc3; 0x550c7dc3550c7dc3;
    0x72be5d7472be5d74; 0x72be5d7472be5d74; 0x80deb1fe80deb1fe; 0x80deb1fe80deb1fe;
    0x9bdc06a79bdc06a7; 0x9bdc06a79bdc06a7; 0xc19bf174c19bf174; 0xc19bf174c19bf174;
    0xe49b69c1e49b69c1; 0xe49b69c1e49b69c1; 0xefbe4786efbe4786; 0xefbe4786efbe4786;
    0x0fc19dc60fc19dc6; 0x0fc19dc60fc19dc6; 0x240ca1cc240ca1cc; 0x240ca1cc240ca1cc;
    0x2de92c6f2de92c6f; 0x2de92c6f2de92c6f; 0x4a7484aa4a7484aa; 0x4a7484aa4a7484aa;
    0x5cb0a9dc5cb0a9dc; 0x5cb0a9dc5cb0a9dc; 0x76f988da76f988da; 0x76f988da76f988da;
    0x983e5152983e5152; 0x983e5152983e5152; 0xa831c66da831c66d; 0xa831c66da831c66d;
    0xb00327c8b00327c8; 0xb00327c8b00327c8; 0xbf597fc7bf597fc7; 0xbf597fc7bf597fc7;
    0xc6e00bf3c6e00bf3; 0xc6e00bf3c6e00bf3; 0xd5a79147d5a79147; 0xd5a79147d5a79147;
    0x06ca635106ca6351; 0x06ca635106ca6351; 0x1429296714292967; 0x1429296714292967;
    0x27b70a8527b70a85; 0x27b70a8527b70a85; 0x2e1b21382e1b2138; 0x2e1b21382e1b2138;
    0x4d2c6dfc4d2c6dfc; 0x4d2c6dfc4d2c6dfc; 0x53380d1353380d13; 0x53380d1353380d13;
    0x650a7354650a7354; 0x650a7354650a7354; 0x766a0abb766a0abb; 0x766a0abb766a0abb;
    0x81c2c92e81c2c92e; 0x81c2c92e81c2c92e; 0x92722c8592722c85; 0x92722c8592722c85;
    0xa2bfe8a1a2bfe8a1; 0xa2bfe8a1a2bfe8a1; 0xa81a664ba81a664b; 0xa81a664ba81a664b;
    0xc24b8b70c24b8b70; 0xc24b8b70c24b8b70; 0xc76c51a3c76c51a3; 0xc76c51a3c76c51a3;
    0xd192e819d192e819; 0xd192e819d192e819; 0xd6990624d6990624; 0xd6990624d6990624;
    0xf40e3585f40e3585; 0xf40e3585f40e3585; 0x106aa070106aa070; 0x106aa070106aa070;
    0x19a4c11619a4c116; 0x19a4c11619a4c116; 0x1e376c081e376c08; 0x1e376c081e376c08;
    0x2748774c2748774c; 0x2748774c2748774c; 0x34b0bcb534b0bcb5; 0x34b0bcb534b0bcb5;
    0x391c0cb3391c0cb3; 0x391c0cb3391c0cb3; 0x4ed8aa4a4ed8aa4a; 0x4ed8aa4a4ed8aa4a;
    0x5b9cca4f5b9cca4f; 0x5b9cca4f5b9cca4f; 0x682e6ff3682e6ff3; 0x682e6ff3682e6ff3;
    0x748f82ee748f82ee; 0x748f82ee748f82ee; 0x78a5636f78a5636f; 0x78a5636f78a5636f;
    0x84c8781484c87814; 0x84c8781484c87814; 0x8cc702088cc70208; 0x8cc702088cc70208;
    0x90befffa90befffa; 0x90befffa90befffa; 0xa4506ceba4506ceb; 0xa4506ceba4506ceb;
    0xbef9a3f7bef9a3f7; 0xbef9a3f7bef9a3f7; 0xc67178f2c67178f2; 0xc67178f2c67178f2]);
  ("PADDING_4"%string,
   flat_map dq [0xc28a2f98c28a2f98; 0xc28a2f98c28a2f98; 0x7137449171374491; 0x7137449171374491;
    0xb5c0fbcfb5c0fbcf; 0xb5c0fbcfb5c0fbcf; 0xe9b5dba5e9b5dba5; 0xe9b5dba5e9b5dba5;
    0x3956c25b3956c25b; 0x3956c25b3956c25b; 0x59f111f159f111f1; 0x59f111f159f111f1;
    0x923f82a4923f82a4; 0x923f82a4923f82a4; 0xab1c5ed5ab1c5ed5; 0xab1c5ed5ab1c5ed5;
    0xd807aa98d807aa98; 0xd807aa98d807aa98; 0x12835b0112835b01; 0x12835b0112835b01;
    0x243185be243185be; 0x243185be243185be; 0x550c7dc3550c7dc3; 0x550c7dc3550c7dc3;
    0x72be5d7472be5d74; 0x72be5d7472be5d74; 0x80deb1fe80deb1fe; 0x80deb1fe80deb1fe;
    0x9bdc06a79bdc06a7; 0x9bdc06a79bdc06a7; 0xc19bf374c19bf374; 0xc19bf374c19bf374;
    0x649b69c1649b69c1; 0x649b69c1649b69c1; 0xf0fe4786f0fe4786; 0xf0fe4786f0fe4786;
    0x0fe1edc60fe1edc6; 0x0fe1edc60fe1edc6; 0x240cf254240cf254; 0x240cf254240cf254;
    0x4fe9346f4fe9346f; 0x4fe9346f4fe9346f; 0x6cc984be6cc984be; 0x6cc984be6cc984be;
    0x61b9411e61b9411e; 0x61b9411e61b9411e; 0x16f988fa16f988fa; 0x16f988fa16f988fa;
    0xf2c65152f2c65152; 0xf2c65152f2c65152; 0xa88e5a6da88e5a6d; 0xa88e5a6da88e5a6d;
    0xb019fc65b019fc65; 0xb019fc65b019fc65; 0xb9d99ec7b9d99ec7; 0xb9d99ec7b9d99ec7;
    0x9a1231c39a1231c3; 0x9a1231c39a1231c3; 0xe70eeaa0e70eeaa0; 0xe70eeaa0e70eeaa0;
    0xfdb1232bfdb1232b; 0xfdb1232bfdb1232b; 0xc7353eb0c7353eb0; 0xc7353eb0c7353eb0;
    0x3069bad53069bad5; 0x3069bad53069bad5; 0xcb976d5fcb976d5f; 0xcb976d5fcb976d5f;
    0x5a0f118f5a0f118f; 0x5a0f118f5a0f118f; 0xdc1eeefddc1eeefd; 0xdc1eeefddc1eeefd;
    0x0a35b6890a35b689; 0x0a35b6890a35b689; 0xde0b7a04de0b7a04; 0xde0b7a04de0b7a04;
    0x58f4ca9d58f4ca9d; 0x58f4ca9d58f4ca9d; 0xe15d5b16e15d5b16; 0xe15d5b16e15d5b16;
    0x007f3e86007f3e86; 0x007f3e86007f3e86; 0x3708898037088980; 0x3708898037088980;
    0xa507ea32a507ea32; 0xa507ea32a507ea32; 0x6fab95376fab9537; 0x6fab95376fab9537;
    0x1740611017406110; 0x1740611017406110; 0x0d8cd6f10d8cd6f1; 0x0d8cd6f10d8cd6f1;
    0xcdaa3b6dcdaa3b6d; 0xcdaa3b6dcdaa3b6d; 0xc0bbbe37c0bbbe37; 0xc0bbbe37c0bbbe37;
    0x83613bda83613bda; 0x83613bda83613bda; 0xdb48a363db48a363; 0xdb48a363db48a363;
    0x0b02e9310b02e931; 0x0b02e9310b02e931; 0x6fd15ca76fd15ca7; 0x6fd15ca76fd15ca7;
    0x521afaca521afaca; 0x521afaca521afaca; 0x3133843131338431; 0x3133843131338431;
    0x6ed41a956ed41a95; 0x6ed41a956ed41a95; 0x6d4378906d437890; 0x6d4378906d437890;
    0xc39c91f2c39c91f2; 0xc39c91f2c39c91f2; 0x9eccabbd9eccabbd; 0x9eccabbd9eccabbd;
    0xb5c9a0e6b5c9a0e6; 0xb5c9a0e6b5c9a0e6; 0x532fb63c532fb63c; 0x532fb63c532fb63c;
    0xd2c741c6d2c741c6; 0xd2c741c6d2c741c6; 0x07237ea307237ea3; 0x07237ea307237ea3;
    0xa4954b68a4954b68; 0xa4954b68a4954b68; 0x4c191d764c191d76; 0x4c191d764c191d76]);
  ("DIGEST_4"%string,
   [0x6a09e667; 0x6a09e667; 0x6a09e667; 0x6a09e667;
    0xbb67ae85; 0xbb67ae85; 0xbb67ae85; 0xbb67ae85;
    0x3c6ef372; 0x3c6ef372; 0x3c6ef372; 0x3c6ef372;
    0xa54ff53a; 0xa54ff53a; 0xa54ff53a; 0xa54ff53a;
    0x510e527f; 0x510e527f; 0x510e527f; 0x510e527f;
    0x9b05688c; 0x9b05688c; 0x9b05688c; 0x9b05688c;
    0x1f83d9ab; 0x1f83d9ab; 0x1f83d9ab; 0x1f83d9ab;
    0x5be0cd19; 0x5be0cd19; 0x5be0cd19; 0x5be0cd19]);
  ("PSHUFFLE_BYTE_FLIP_MASK"%string,
   flat_map dq [0x0405060700010203; 0x0c0d0e0f08090a0b])].
Definition at_4 (l : string) (d : Z) : addr := Rel sec_4 (offset data_4 l + d).

(** ssz/sha256_avx.asm:74-125 (%define lines and struc STACK) *)
Local Notation a0 := xmm8 (only parsing).
Local Notation a1 := xmm9 (only parsing).
Local Notation a2 := xmm10 (only parsing).
Local Notation TT0 := xmm14 (only parsing).
Local Notation TT1 := xmm13 (only parsing).
Local Notation TT2 := xmm12 (only parsing).
Local Notation TT3 := xmm11 (only parsing).
Local Notation TT4 := xmm10 (only parsing).
Local Notation TT5 := xmm9 (only parsing).
Local Notation T_1 := xmm14 (only parsing).
Local Notation TMP := xmm15 (only parsing).
Local Notation SZ4 := (4 * 4) (only parsing).
Local Notation ROUNDS := (64 * SZ4) (only parsing).
Local Notation _DATA := 0 (only parsing).
Local Notation _DIGEST := 256 (only parsing).
Local Notation _RBX := 384 (only parsing).
(** a...h on entry *)
Definition args_4 : regs8 := (xmm0, xmm1, xmm2, xmm3, xmm4, xmm5, xmm6, xmm7).

(** TRANSPOSE, 139-158 *)
Definition TRANSPOSE_4 (r0 r1 r2 r3 t0 t1 : vreg) : list instr :=
  [IV V128 (SHUFPS 0x44) t0 r0 (RV r1);
    IV V128 (SHUFPS 0xEE) r0 r0 (RV r1);
    IV V128 (SHUFPS 0x44) t1 r2 (RV r3);
    IV V128 (SHUFPS 0xEE) r2 r2 (RV r3);
    IV V128 (SHUFPS 0xDD) r1 t0 (RV t1);
    IV V128 (SHUFPS 0xDD) r3 r0 (RV r2);
    IV V128 (SHUFPS 0x88) r0 r0 (RV r2);
    IV V128 (SHUFPS 0x88) t0 t0 (RV t1)].
(** PRORD with three arguments, 175-182 (with two, 198-200, the third is TMP) *)
Definition PRORD_4 (reg : vreg) (imm : Z) (tmp : vreg) : list instr :=
  [IVu V128 (PSLLD (32-(imm))) tmp reg;
    IVu V128 (PSRLD imm) reg reg;
    IV V128 POR reg reg (RV tmp)].
(** PRORD_nd with four arguments, 186-195 (with three, 203-205, PRORD_nd dst, src, amt
    is PRORD_nd dst, amt, TMP, src) *)
Definition PRORD_nd_4 (reg : vreg) (imm : Z) (tmp src : vreg) : list instr :=
  [IVu V128 (PSLLD (32-(imm))) tmp src;
    IVu V128 (PSRLD imm) reg src;
    IV V128 POR reg reg (RV tmp)].

(** ROUND_00_15, 208-243 *)
Definition ROUND_00_15_4 (r : regs8) (T1 : vreg) (i : Z) : list instr :=
  let '(a, b, c, d, e, f, g, h) := r in
  PRORD_nd_4 a0 (11-6) TMP e
   ++ [IV V128 PXOR a2 f (RV g);
    IV V128 PAND a2 a2 (RV e);
    IV V128 PXOR a2 a2 (RV g)]
   ++ PRORD_nd_4 a1 25 TMP e
   ++ [IVStore V128 true (Base rsp (SZ4*(Z.land i 15) + _DATA)) T1;
    IV V128 PADDD T1 T1 (MV (Index rcx rbx 0));
    IV V128 PXOR a0 a0 (RV e)]
   ++ PRORD_4 a0 6 TMP
   ++ [IV V128 PADDD h h (RV a2)]
   ++ PRORD_nd_4 a2 (13-2) TMP a
   ++ [IV V128 PADDD h h (RV T1);
    IV V128 PXOR a0 a0 (RV a1)]
   ++ PRORD_nd_4 a1 22 TMP a
   ++ [IV V128 PXOR T1 a (RV c);
    IAdd64 rbx SZ4;
    IV V128 PAND T1 T1 (RV b);
    IV V128 PADDD h h (RV a0);
    IV V128 PADDD d d (RV h);
    IV V128 PXOR a2 a2 (RV a)]
   ++ PRORD_4 a2 2 TMP
   ++ [IV V128 PXOR a2 a2 (RV a1);
    IV V128 PAND a1 a (RV c);
    IV V128 POR a1 a1 (RV T1);
    IV V128 PADDD h h (RV a1);
    IV V128 PADDD h h (RV a2)].
(** ROUND_16_XX, 247-269 *)
Definition ROUND_16_XX_4 (r : regs8) (T1 : vreg) (i : Z) : list instr :=
  [IVLoad V128 true T1 (Base rsp (SZ4*(Z.land (i-15) 15) + _DATA));
    IVLoad V128 true a1 (Base rsp (SZ4*(Z.land (i-2) 15) + _DATA));
    IVu V128 VMOV a0 T1]
   ++ PRORD_4 T1 (18-7) TMP
   ++ [IVu V128 VMOV a2 a1]
   ++ PRORD_4 a1 (19-17) TMP
   ++ [IV V128 PXOR T1 T1 (RV a0)]
   ++ PRORD_4 T1 7 TMP
   ++ [IV V128 PXOR a1 a1 (RV a2)]
   ++ PRORD_4 a1 17 TMP
   ++ [IVu V128 (PSRLD 3) a0 a0;
    IV V128 PXOR T1 T1 (RV a0);
    IVu V128 (PSRLD 10) a2 a2;
    IV V128 PXOR a1 a1 (RV a2);
    IV V128 PADDD T1 T1 (MV (Base rsp (SZ4*(Z.land (i-16) 15) + _DATA)));
    IV V128 PADDD a1 a1 (MV (Base rsp (SZ4*(Z.land (i-7) 15) + _DATA)));
    IV V128 PADDD T1 T1 (RV a1)]
   ++ ROUND_00_15_4 r T1 i.
(** PADDING_ROUND_00_15, 272-305 *)
Definition PADDING_ROUND_4 (r : regs8) (T1 : vreg) : list instr :=
  let '(a, b, c, d, e, f, g, h) := r in
  PRORD_nd_4 a0 (11-6) TMP e
   ++ [IV V128 PXOR a2 f (RV g);
    IV V128 PAND a2 a2 (RV e);
    IV V128 PXOR a2 a2 (RV g)]
   ++ PRORD_nd_4 a1 25 TMP e
   ++ [IVLoad V128 true T1 (Index rcx rbx 0);
    IV V128 PXOR a0 a0 (RV e)]
   ++ PRORD_4 a0 6 TMP
   ++ [IV V128 PADDD h h (RV a2)]
   ++ PRORD_nd_4 a2 (13-2) TMP a
   ++ [IV V128 PADDD h h (RV T1);
    IV V128 PXOR a0 a0 (RV a1)]
   ++ PRORD_nd_4 a1 22 TMP a
   ++ [IV V128 PXOR T1 a (RV c);
    IAdd64 rbx SZ4;
    IV V128 PAND T1 T1 (RV b);
    IV V128 PADDD h h (RV a0);
    IV V128 PADDD d d (RV h);
    IV V128 PXOR a2 a2 (RV a)]
   ++ PRORD_4 a2 2 TMP
   ++ [IV V128 PXOR a2 a2 (RV a1);
    IV V128 PAND a1 a (RV c);
    IV V128 POR a1 a1 (RV T1);
    IV V128 PADDD h h (RV a1);
    IV V128 PADDD h h (RV a2)].

(** One pass of the loop of 487-504, with i = [k] *)
Definition load_pass_4 (k : nat) : list instr :=
  let i := Z.of_nat k in
  [IVLoad V128 true TMP (at_4 "PSHUFFLE_BYTE_FLIP_MASK" 0);
    IVLoad V128 false TT2 (Base rsi (0*64 + i*16));
    IVLoad V128 false TT1 (Base rsi (1*64 + i*16));
    IVLoad V128 false TT4 (Base rsi (2*64 + i*16));
    IVLoad V128 false TT3 (Base rsi (3*64 + i*16))]
   ++ TRANSPOSE_4 TT2 TT1 TT4 TT3 TT0 TT5
   ++ [IV V128 PSHUFB TT0 TT0 (RV TMP);
    IV V128 PSHUFB TT1 TT1 (RV TMP);
    IV V128 PSHUFB TT2 TT2 (RV TMP);
    IV V128 PSHUFB TT3 TT3 (RV TMP)]
   ++ ROUND_00_15_4 (rot8 (4 * k + 0) args_4) TT0 (i*4+0)
   ++ ROUND_00_15_4 (rot8 (4 * k + 1) args_4) TT1 (i*4+1)
   ++ ROUND_00_15_4 (rot8 (4 * k + 2) args_4) TT2 (i*4+2)
   ++ ROUND_00_15_4 (rot8 (4 * k + 3) args_4) TT3 (i*4+3).

(** sha256_4_avx, 462-608. endbranch64 (463) is defined nowhere: the assembler takes it
    for a label and emits nothing. The third operand that "vpshufb x, m" leaves out is x.
    After 16, 64 and 128 rounds a...h are again the registers they were on entry. *)
Definition code_4 : list instr :=
  let '(a, b, c, d, e, f, g, h) := args_4 in
  (* 462-485 *)
  [ILabel "sha256_4_avx";
    ISub64 rsp 408;
    IStore64 (Base rsp _RBX) rbx;
    ILabel "sha256_4_avx.hash_4_blocks";
    ICmp64 rdx 4;
    IJl "sha256_4_avx.hash_1_block";
    IXor64 rbx rbx;
    ILea rcx (at_4 "DIGEST_4" 0);
    IVLoad V128 true a (Base rcx (0*SZ4));
    IVLoad V128 true b (Base rcx (1*SZ4));
    IVLoad V128 true c (Base rcx (2*SZ4));
    IVLoad V128 true d (Base rcx (3*SZ4));
    IVLoad V128 true e (Base rcx (4*SZ4));
    IVLoad V128 true f (Base rcx (5*SZ4));
    IVLoad V128 true g (Base rcx (6*SZ4));
    IVLoad V128 true h (Base rcx (7*SZ4));
    ILea rcx (at_4 "K256_4" 0)]
  (* 487-504 *)
  ++ rep 4 load_pass_4
  (* 508-510 *)
  ++ [IJmp "sha256_4_avx.Lrounds_16_xx";
    ILabel "sha256_4_avx.Lrounds_16_xx"]
  (* 511-514 *)
  ++ rep 16 (fun i => ROUND_16_XX_4 (rot8 i args_4) T_1 (16 + Z.of_nat i))
  (* 516-548 *)
  ++ [ICmp64 rbx ROUNDS;
    IJb "sha256_4_avx.Lrounds_16_xx";
    ILea rcx (at_4 "DIGEST_4" 0);
    IV V128 PADDD a a (MV (Base rcx (0*SZ4)));
    IV V128 PADDD b b (MV (Base rcx (1*SZ4)));
    IV V128 PADDD c c (MV (Base rcx (2*SZ4)));
    IV V128 PADDD d d (MV (Base rcx (3*SZ4)));
    IV V128 PADDD e e (MV (Base rcx (4*SZ4)));
    IV V128 PADDD f f (MV (Base rcx (5*SZ4)));
    IV V128 PADDD g g (MV (Base rcx (6*SZ4)));
    IV V128 PADDD h h (MV (Base rcx (7*SZ4)));
    IVStore V128 true (Base rsp (_DIGEST + 0*SZ4)) a;
    IVStore V128 true (Base rsp (_DIGEST + 1*SZ4)) b;
    IVStore V128 true (Base rsp (_DIGEST + 2*SZ4)) c;
    IVStore V128 true (Base rsp (_DIGEST + 3*SZ4)) d;
    IVStore V128 true (Base rsp (_DIGEST + 4*SZ4)) e;
    IVStore V128 true (Base rsp (_DIGEST + 5*SZ4)) f;
    IVStore V128 true (Base rsp (_DIGEST + 6*SZ4)) g;
    IVStore V128 true (Base rsp (_DIGEST + 7*SZ4)) h;
    ILea rcx (at_4 "PADDING_4" 0);
    IXor64 rbx rbx;
    IJmp "sha256_4_avx.Lrounds_padding";
    ILabel "sha256_4_avx.Lrounds_padding"]
  (* 549-551 *)
  ++ rep 64 (fun i => PADDING_ROUND_4 (rot8 i args_4) T_1)
  (* 553-608 *)
  ++ [IV V128 PADDD a a (MV (Base rsp (_DIGEST + 0*SZ4)));
    IV V128 PADDD b b (MV (Base rsp (_DIGEST + 1*SZ4)));
    IV V128 PADDD c c (MV (Base rsp (_DIGEST + 2*SZ4)));
    IV V128 PADDD d d (MV (Base rsp (_DIGEST + 3*SZ4)));
    IV V128 PADDD e e (MV (Base rsp (_DIGEST + 4*SZ4)));
    IV V128 PADDD f f (MV (Base rsp (_DIGEST + 5*SZ4)));
    IV V128 PADDD g g (MV (Base rsp (_DIGEST + 6*SZ4)));
    IV V128 PADDD h h (MV (Base rsp (_DIGEST + 7*SZ4)))]
   ++ TRANSPOSE_4 a b c d TT0 TT1
   ++ TRANSPOSE_4 e f g h TT2 TT1
   ++ [IVLoad V128 true TMP (at_4 "PSHUFFLE_BYTE_FLIP_MASK" 0);
    IV V128 PSHUFB TT0 TT0 (RV TMP);
    IV V128 PSHUFB TT2 TT2 (RV TMP);
    IV V128 PSHUFB b b (RV TMP);
    IV V128 PSHUFB f f (RV TMP);
    IV V128 PSHUFB a a (RV TMP);
    IV V128 PSHUFB e e (RV TMP);
    IV V128 PSHUFB d d (RV TMP);
    IV V128 PSHUFB h h (RV TMP);
    IVStore V128 false (Base rdi (0*SZ4)) TT0;
    IVStore V128 false (Base rdi (1*SZ4)) TT2;
    IVStore V128 false (Base rdi (2*SZ4)) b;
    IVStore V128 false (Base rdi (3*SZ4)) f;
    IVStore V128 false (Base rdi (4*SZ4)) a;
    IVStore V128 false (Base rdi (5*SZ4)) e;
    IVStore V128 false (Base rdi (6*SZ4)) d;
    IVStore V128 false (Base rdi (7*SZ4)) h;
    IAdd64 rsi (64*4);
    IAdd64 rdi (32*4);
    ISub64 rdx 4;
    IJmp "sha256_4_avx.hash_4_blocks";
    ILabel "sha256_4_avx.hash_1_block";
    ITest64 rdx rdx;
    IJz "sha256_4_avx.done_hash";
    ICall "sha256_1_avx";
    IAdd64 rsi 64;
    IAdd64 rdi 32;
    ISub64 rdx 1;
    IJmp "sha256_4_avx.hash_1_block";
    ILabel "sha256_4_avx.done_hash";
    ILoad64 rbx (Base rsp _RBX);
    IAdd64 rsp 408;
    IRet].
