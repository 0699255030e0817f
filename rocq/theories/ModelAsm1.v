(** /repo/ssz/sha256_avx_one_block.asm: sha256_1_avx. *)
From Coq Require Import ZArith String List Bool.
From Verif Require Import Base ModelX86 ModelAsm.
Import ListNotations.
Open Scope list_scope.
Open Scope Z_scope.

(** ssz/sha256_avx_one_block.asm:30-85 (section .data) *)
Definition data_1 : data :=
 [("K256"%string,
   [0x428a2f98; 0x71374491; 0xb5c0fbcf; 0xe9b5dba5;
    0x3956c25b; 0x59f111f1; 0x923f82a4; 0xab1c5ed5;
    0xd807aa98; 0x12835b01; 0x243185be; 0x550c7dc3;
    0x72be5d74; 0x80deb1fe; 0x9bdc06a7; 0xc19bf174;
    0xe49b69c1; 0xefbe4786; 0x0fc19dc6; 0x240ca1cc;
    0x2de92c6f; 0x4a7484aa; 0x5cb0a9dc; 0x76f988da;
    0x983e5152; 0xa831c66d; 0xb00327c8; 0xbf597fc7;
    0xc6e00bf3; 0xd5a79147; 0x06ca6351; 0x14292967;
    0x27b70a85; 0x2e1b2138; 0x4d2c6dfc; 0x53380d13;
    0x650a7354; 0x766a0abb; 0x81c2c92e; 0x92722c85;
    0xa2bfe8a1; 0xa81a664b; 0xc24b8b70; 0xc76c51a3;
    0xd192e819; 0xd6990624; 0xf40e3585; 0x106aa070;
    0x19a4c116; 0x1e376c08; 0x2748774c; 0x34b0bcb5;
    0x391c0cb3; 0x4ed8aa4a; 0x5b9cca4f; 0x682e6ff3;
    0x748f82ee; 0x78a5636f; 0x84c87814; 0x8cc70208;
    0x90befffa; 0xa4506ceb; 0xbef9a3f7; 0xc67178f2]);
  ("DIGEST"%string,
   [0x6a09e667; 0xbb67ae85; 0x3c6ef372; 0xa54ff53a;
    0x510e527f; 0x9b05688c; 0x1f83d9ab; 0x5be0cd19]);
  ("PADDING"%string,
   [0xc28a2f98; 0x71374491; 0xb5c0fbcf; 0xe9b5dba5;
    0x3956c25b; 0x59f111f1; 0x923f82a4; 0xab1c5ed5;
    0xd807aa98; 0x12835b01; 0x243185be; 0x550c7dc3;
    0x72be5d74; 0x80deb1fe; 0x9bdc06a7; 0xc19bf374;
    0x649b69c1; 0xf0fe4786; 0xfe1edc6; 0x240cf254;
    0x4fe9346f; 0x6cc984be; 0x61b9411e; 0x16f988fa;
    0xf2c65152; 0xa88e5a6d; 0xb019fc65; 0xb9d99ec7;
    0x9a1231c3; 0xe70eeaa0; 0xfdb1232b; 0xc7353eb0;
    0x3069bad5; 0xcb976d5f; 0x5a0f118f; 0xdc1eeefd;
    0xa35b689; 0xde0b7a04; 0x58f4ca9d; 0xe15d5b16;
    0x7f3e86; 0x37088980; 0xa507ea32; 0x6fab9537;
    0x17406110; 0xd8cd6f1; 0xcdaa3b6d; 0xc0bbbe37;
    0x83613bda; 0xdb48a363; 0xb02e931; 0x6fd15ca7;
    0x521afaca; 0x31338431; 0x6ed41a95; 0x6d437890;
    0xc39c91f2; 0x9eccabbd; 0xb5c9a0e6; 0x532fb63c;
    0xd2c741c6; 0x7237ea3; 0xa4954b68; 0x4c191d76]);
  ("PSHUFFLE_BYTE_FLIP_MASK"%string,
   flat_map dq [0x0405060700010203; 0x0c0d0e0f08090a0b]);
  ("_SHUF_00BA"%string,
   flat_map dq [0x0b0a090803020100; 0xFFFFFFFFFFFFFFFF]);
  ("_SHUF_DC00"%string,
   flat_map dq [0xFFFFFFFFFFFFFFFF; 0x0b0a090803020100])].
Definition at_1 (l : string) (d : Z) : addr := Rel sec_1 (offset data_1 l + d).

(** ssz/sha256_avx_one_block.asm:105-155 (%define lines and struc STACK) *)
Local Notation XTMP0 := xmm0 (only parsing).
Local Notation XTMP1 := xmm1 (only parsing).
Local Notation XTMP2 := xmm2 (only parsing).
Local Notation XTMP3 := xmm3 (only parsing).
Local Notation XTMP4 := xmm8 (only parsing).
Local Notation XFER := xmm9 (only parsing).
Local Notation XTMP5 := xmm11 (only parsing).
Local Notation SHUF_00BA := xmm10 (only parsing).
Local Notation SHUF_DC00 := xmm12 (only parsing).
Local Notation BYTE_FLIP_MASK := xmm13 (only parsing).
Local Notation y0 := r13 (only parsing).
Local Notation y1 := r14 (only parsing).
Local Notation y2 := r15 (only parsing).
Local Notation _XFER := 0 (only parsing).
Local Notation _DIGEST := 32 (only parsing).
(** a...h on entry *)
Definition args_1 : regs8 := (rax, rbx, rdx, r8, r9, r10, r11, r12).
(** X0...X3, and rotate_Xs (158-166) *)
Definition regs4 : Type := (nat * nat * nat * nat)%type.
Definition Xs_1 : regs4 := (xmm4, xmm5, xmm6, xmm7).
Definition rotate_Xs (x : regs4) : regs4 :=
  let '(X0, X1, X2, X3) := x in (X1, X2, X3, X0).
Definition rotX (n : nat) (x : regs4) : regs4 := Nat.iter n rotate_Xs x.

(** 93-95 *)
Definition MY_ROR (r : reg) (n : Z) : instr := IShld32 r r (32 - n).
(** 99-102 *)
Definition COPY_XMM_AND_BSWAP (x : vreg) (a : addr) (m : vreg) : list instr :=
  [IVLoad V128 false x a; IV V128 PSHUFB x x (RV m)].

(** FOUR_ROUNDS_AND_SCHED, 182-231: the first of the four rounds *)
Definition four_rounds_a (r : regs8) (x : regs4) : list instr :=
  let '(a, b, c, d, e, f, g, h) := r in
  let '(X0, X1, X2, X3) := x in
  [IAlu32 MOV y0 (R32 e);
    MY_ROR y0 (25-11);
    IAlu32 MOV y1 (R32 a);
    IV V128 (PALIGNR 4) XTMP0 X3 (RV X2);
    MY_ROR y1 (22-13);
    IAlu32 XOR y0 (R32 e);
    IAlu32 MOV y2 (R32 f);
    MY_ROR y0 (11-6);
    IAlu32 XOR y1 (R32 a);
    IAlu32 XOR y2 (R32 g);
    IV V128 PADDD XTMP0 XTMP0 (RV X0);
    IAlu32 XOR y0 (R32 e);
    IAlu32 AND y2 (R32 e);
    MY_ROR y1 (13-2);
    IV V128 (PALIGNR 4) XTMP1 X1 (RV X0);
    IAlu32 XOR y1 (R32 a);
    MY_ROR y0 6;
    IAlu32 XOR y2 (R32 g);
    MY_ROR y1 2;
    IAlu32 ADD y2 (R32 y0);
    IAlu32 ADD y2 (M32 (Base rsp (_XFER + 0*4)));
    IAlu32 MOV y0 (R32 a);
    IAlu32 ADD h (R32 y2);
    IAlu32 MOV y2 (R32 a);
    IVu V128 (PSRLD 7) XTMP2 XTMP1;
    IAlu32 OR y0 (R32 c);
    IAlu32 ADD d (R32 h);
    IAlu32 AND y2 (R32 c);
    IVu V128 (PSLLD (32-7)) XTMP3 XTMP1;
    IAlu32 AND y0 (R32 b);
    IAlu32 ADD h (R32 y1);
    IV V128 POR XTMP3 XTMP3 (RV XTMP2);
    IAlu32 OR y0 (R32 y2);
    IAlu32 ADD h (R32 y0)].
(** FOUR_ROUNDS_AND_SCHED, 233-285: the second *)
Definition four_rounds_b (r : regs8) (x : regs4) : list instr :=
  let '(a, b, c, d, e, f, g, h) := r in
  let '(X0, X1, X2, X3) := x in
  [IAlu32 MOV y0 (R32 e);
    IAlu32 MOV y1 (R32 a);
    MY_ROR y0 (25-11);
    IAlu32 XOR y0 (R32 e);
    IAlu32 MOV y2 (R32 f);
    MY_ROR y1 (22-13);
    IVu V128 (PSRLD 18) XTMP2 XTMP1;
    IAlu32 XOR y1 (R32 a);
    MY_ROR y0 (11-6);
    IAlu32 XOR y2 (R32 g);
    IVu V128 (PSRLD 3) XTMP4 XTMP1;
    MY_ROR y1 (13-2);
    IAlu32 XOR y0 (R32 e);
    IAlu32 AND y2 (R32 e);
    MY_ROR y0 6;
    IVu V128 (PSLLD (32-18)) XTMP1 XTMP1;
    IAlu32 XOR y1 (R32 a);
    IAlu32 XOR y2 (R32 g);
    IV V128 PXOR XTMP3 XTMP3 (RV XTMP1);
    IAlu32 ADD y2 (R32 y0);
    IAlu32 ADD y2 (M32 (Base rsp (_XFER + 1*4)));
    MY_ROR y1 2;
    IV V128 PXOR XTMP3 XTMP3 (RV XTMP2);
    IAlu32 MOV y0 (R32 a);
    IAlu32 ADD h (R32 y2);
    IAlu32 MOV y2 (R32 a);
    IV V128 PXOR XTMP1 XTMP3 (RV XTMP4);
    IAlu32 OR y0 (R32 c);
    IAlu32 ADD d (R32 h);
    IAlu32 AND y2 (R32 c);
    IVu V128 (PSHUFD 250) XTMP2 X3;
    IAlu32 AND y0 (R32 b);
    IAlu32 ADD h (R32 y1);
    IV V128 PADDD XTMP0 XTMP0 (RV XTMP1);
    IAlu32 OR y0 (R32 y2);
    IAlu32 ADD h (R32 y0)].
(** FOUR_ROUNDS_AND_SCHED, 286-335: the third *)
Definition four_rounds_c (r : regs8) (x : regs4) : list instr :=
  let '(a, b, c, d, e, f, g, h) := r in
  let '(X0, X1, X2, X3) := x in
  [IAlu32 MOV y0 (R32 e);
    IAlu32 MOV y1 (R32 a);
    MY_ROR y0 (25-11);
    IAlu32 XOR y0 (R32 e);
    MY_ROR y1 (22-13);
    IAlu32 MOV y2 (R32 f);
    IAlu32 XOR y1 (R32 a);
    MY_ROR y0 (11-6);
    IVu V128 (PSRLD 10) XTMP4 XTMP2;
    IAlu32 XOR y2 (R32 g);
    IVu V128 (PSRLQ 19) XTMP3 XTMP2;
    IAlu32 XOR y0 (R32 e);
    IAlu32 AND y2 (R32 e);
    IVu V128 (PSRLQ 17) XTMP2 XTMP2;
    MY_ROR y1 (13-2);
    IAlu32 XOR y1 (R32 a);
    IAlu32 XOR y2 (R32 g);
    MY_ROR y0 6;
    IV V128 PXOR XTMP2 XTMP2 (RV XTMP3);
    IAlu32 ADD y2 (R32 y0);
    MY_ROR y1 2;
    IAlu32 ADD y2 (M32 (Base rsp (_XFER + 2*4)));
    IV V128 PXOR XTMP4 XTMP4 (RV XTMP2);
    IAlu32 MOV y0 (R32 a);
    IAlu32 ADD h (R32 y2);
    IAlu32 MOV y2 (R32 a);
    IV V128 PSHUFB XTMP4 XTMP4 (RV SHUF_00BA);
    IAlu32 OR y0 (R32 c);
    IAlu32 ADD d (R32 h);
    IAlu32 AND y2 (R32 c);
    IV V128 PADDD XTMP0 XTMP0 (RV XTMP4);
    IAlu32 AND y0 (R32 b);
    IAlu32 ADD h (R32 y1);
    IVu V128 (PSHUFD 80) XTMP2 XTMP0;
    IAlu32 OR y0 (R32 y2);
    IAlu32 ADD h (R32 y0)].
(** FOUR_ROUNDS_AND_SCHED, 336-382: the fourth *)
Definition four_rounds_d (r : regs8) (x : regs4) : list instr :=
  let '(a, b, c, d, e, f, g, h) := r in
  let '(X0, X1, X2, X3) := x in
  [IAlu32 MOV y0 (R32 e);
    MY_ROR y0 (25-11);
    IAlu32 MOV y1 (R32 a);
    MY_ROR y1 (22-13);
    IAlu32 XOR y0 (R32 e);
    IAlu32 MOV y2 (R32 f);
    MY_ROR y0 (11-6);
    IVu V128 (PSRLD 10) XTMP5 XTMP2;
    IAlu32 XOR y1 (R32 a);
    IAlu32 XOR y2 (R32 g);
    IVu V128 (PSRLQ 19) XTMP3 XTMP2;
    IAlu32 XOR y0 (R32 e);
    IAlu32 AND y2 (R32 e);
    MY_ROR y1 (13-2);
    IVu V128 (PSRLQ 17) XTMP2 XTMP2;
    IAlu32 XOR y1 (R32 a);
    MY_ROR y0 6;
    IAlu32 XOR y2 (R32 g);
    IV V128 PXOR XTMP2 XTMP2 (RV XTMP3);
    MY_ROR y1 2;
    IAlu32 ADD y2 (R32 y0);
    IAlu32 ADD y2 (M32 (Base rsp (_XFER + 3*4)));
    IV V128 PXOR XTMP5 XTMP5 (RV XTMP2);
    IAlu32 MOV y0 (R32 a);
    IAlu32 ADD h (R32 y2);
    IAlu32 MOV y2 (R32 a);
    IV V128 PSHUFB XTMP5 XTMP5 (RV SHUF_DC00);
    IAlu32 OR y0 (R32 c);
    IAlu32 ADD d (R32 h);
    IAlu32 AND y2 (R32 c);
    IV V128 PADDD X0 XTMP5 (RV XTMP0);
    IAlu32 AND y0 (R32 b);
    IAlu32 ADD h (R32 y1);
    IAlu32 OR y0 (R32 y2);
    IAlu32 ADD h (R32 y0)].
(** FOUR_ROUNDS_AND_SCHED, 182-384 *)
Definition FOUR_ROUNDS_AND_SCHED (r : regs8) (x : regs4) : list instr :=
  four_rounds_a r x ++ four_rounds_b (rot8 1 r) x ++
  four_rounds_c (rot8 2 r) x ++ four_rounds_d (rot8 3 r) x.

(** DO_ROUND, 387-417 *)
Definition DO_ROUND (r : regs8) (i : Z) : list instr :=
  let '(a, b, c, d, e, f, g, h) := r in
  [IAlu32 MOV y0 (R32 e);
    MY_ROR y0 (25-11);
    IAlu32 MOV y1 (R32 a);
    IAlu32 XOR y0 (R32 e);
    MY_ROR y1 (22-13);
    IAlu32 MOV y2 (R32 f);
    IAlu32 XOR y1 (R32 a);
    MY_ROR y0 (11-6);
    IAlu32 XOR y2 (R32 g);
    IAlu32 XOR y0 (R32 e);
    MY_ROR y1 (13-2);
    IAlu32 AND y2 (R32 e);
    IAlu32 XOR y1 (R32 a);
    MY_ROR y0 6;
    IAlu32 XOR y2 (R32 g);
    IAlu32 ADD y2 (R32 y0);
    MY_ROR y1 2;
    IAlu32 ADD y2 (M32 (Base rsp (_XFER + i * 4)));
    IAlu32 MOV y0 (R32 a);
    IAlu32 ADD h (R32 y2);
    IAlu32 MOV y2 (R32 a);
    IAlu32 OR y0 (R32 c);
    IAlu32 ADD d (R32 h);
    IAlu32 AND y2 (R32 c);
    IAlu32 AND y0 (R32 b);
    IAlu32 ADD h (R32 y1);
    IAlu32 OR y0 (R32 y2);
    IAlu32 ADD h (R32 y0)].

(** The round with a constant schedule, 551-582; [i] is the offset in the table *)
Definition PADDING_ROUND (r : regs8) (i : Z) : list instr :=
  let '(a, b, c, d, e, f, g, h) := r in
  [IAlu32 MOV y0 (R32 e);
    MY_ROR y0 (25-11);
    IAlu32 MOV y1 (R32 a);
    IAlu32 XOR y0 (R32 e);
    MY_ROR y1 (22-13);
    IAlu32 MOV y2 (R32 f);
    IAlu32 XOR y1 (R32 a);
    MY_ROR y0 (11-6);
    IAlu32 XOR y2 (R32 g);
    IAlu32 XOR y0 (R32 e);
    MY_ROR y1 (13-2);
    IAlu32 AND y2 (R32 e);
    IAlu32 XOR y1 (R32 a);
    MY_ROR y0 6;
    IAlu32 XOR y2 (R32 g);
    IAlu32 ADD y2 (R32 y0);
    MY_ROR y1 2;
    IAlu32 ADD y2 (M32 (Base rcx i));
    IAlu32 MOV y0 (R32 a);
    IAlu32 ADD h (R32 y2);
    IAlu32 MOV y2 (R32 a);
    IAlu32 OR y0 (R32 c);
    IAlu32 ADD d (R32 h);
    IAlu32 AND y2 (R32 c);
    IAlu32 AND y0 (R32 b);
    IAlu32 ADD h (R32 y1);
    IAlu32 OR y0 (R32 y2);
    IAlu32 ADD h (R32 y0)].

(** One pass of the loop of 481-498; [j] passes came before *)
Definition sched_pass (j : nat) : list instr :=
  let step k :=
    let '(X0, _, _, _) := rotX (4 * j + k) Xs_1 in
    [IV V128 PADDD XFER X0 (MV (Base rcx (Z.of_nat k * 16)));
     IVStore V128 true (Base rsp _XFER) XFER]
    ++ (if Nat.eqb k 3 then [IAdd64 rcx (4 * 16)] else [])
    ++ FOUR_ROUNDS_AND_SCHED (rot8 (4 * (4 * j + k)) args_1) (rotX (4 * j + k) Xs_1) in
  rep 4 step.

(** One pass of the loop of 500-520; [j] passes came before, and 48 rounds *)
Definition last_pass (j : nat) : list instr :=
  let '(X0, X1, X2, X3) := Xs_1 in
  let round k := DO_ROUND (rot8 (48 + 8 * j + k) args_1) (Z.of_nat (Nat.modulo k 4)) in
  [IV V128 PADDD XFER X0 (MV (Base rcx (0 * 16)));
   IVStore V128 true (Base rsp _XFER) XFER]
  ++ rep 4 round
  ++ [IV V128 PADDD XFER X1 (MV (Base rcx (1 * 16)));
      IVStore V128 true (Base rsp _XFER) XFER;
      IAdd64 rcx (2 * 16)]
  ++ rep 4 (fun k => round (4 + k)%nat)
  ++ [IVu V128 VMOV X0 X2; IVu V128 VMOV X1 X3].

(** sha256_1_avx, 429-641. endbranch64 (430) is defined nowhere: the assembler takes it for a
    label and emits nothing. After 64 rounds, and after another 64, a...h are again the
    registers they were on entry. *)
Definition code_1 : list instr :=
  let '(a, b, c, d, e, f, g, h) := args_1 in
  let '(X0, X1, X2, X3) := Xs_1 in
  (* 429-478 *)
  [ILabel "sha256_1_avx";
    IPush rbx;
    IPush rdx;
    IPush rbp;
    IPush r12;
    IPush r13;
    IPush r14;
    IPush r15;
    ISub64 rsp 64;
    IVLoad V128 true BYTE_FLIP_MASK (at_1 "PSHUFFLE_BYTE_FLIP_MASK" 0);
    IVLoad V128 true SHUF_00BA (at_1 "_SHUF_00BA" 0);
    IVLoad V128 true SHUF_DC00 (at_1 "_SHUF_DC00" 0);
    ILabel "sha256_1_avx.hash_1_block";
    ILea rcx (at_1 "DIGEST" 0);
    IAlu32 MOV a (M32 (Base rcx (0*4)));
    IAlu32 MOV b (M32 (Base rcx (1*4)));
    IAlu32 MOV c (M32 (Base rcx (2*4)));
    IAlu32 MOV d (M32 (Base rcx (3*4)));
    IAlu32 MOV e (M32 (Base rcx (4*4)));
    IAlu32 MOV f (M32 (Base rcx (5*4)));
    IAlu32 MOV g (M32 (Base rcx (6*4)));
    IAlu32 MOV h (M32 (Base rcx (7*4)));
    ILea rcx (at_1 "K256" 0)]
   ++ COPY_XMM_AND_BSWAP X0 (Base rsi (0*16)) BYTE_FLIP_MASK
   ++ COPY_XMM_AND_BSWAP X1 (Base rsi (1*16)) BYTE_FLIP_MASK
   ++ COPY_XMM_AND_BSWAP X2 (Base rsi (2*16)) BYTE_FLIP_MASK
   ++ COPY_XMM_AND_BSWAP X3 (Base rsi (3*16)) BYTE_FLIP_MASK
  (* 480-498 *)
  ++ rep 3 sched_pass
  (* 500-520 *)
  ++ rep 2 last_pass
  (* 522-548 *)
  ++ [ILea rcx (at_1 "DIGEST" 0);
    IAlu32 ADD a (M32 (Base rcx (0*4)));
    IAlu32 ADD b (M32 (Base rcx (1*4)));
    IAlu32 ADD c (M32 (Base rcx (2*4)));
    IAlu32 ADD d (M32 (Base rcx (3*4)));
    IAlu32 ADD e (M32 (Base rcx (4*4)));
    IAlu32 ADD f (M32 (Base rcx (5*4)));
    IAlu32 ADD g (M32 (Base rcx (6*4)));
    IAlu32 ADD h (M32 (Base rcx (7*4)));
    IStore32 (Base rsp (_DIGEST + 0*4)) a;
    IStore32 (Base rsp (_DIGEST + 1*4)) b;
    IStore32 (Base rsp (_DIGEST + 2*4)) c;
    IStore32 (Base rsp (_DIGEST + 3*4)) d;
    IStore32 (Base rsp (_DIGEST + 4*4)) e;
    IStore32 (Base rsp (_DIGEST + 5*4)) f;
    IStore32 (Base rsp (_DIGEST + 6*4)) g;
    IStore32 (Base rsp (_DIGEST + 7*4)) h;
    ILea rcx (at_1 "PADDING" 0)]
  (* 550-582 *)
  ++ rep 64 (fun i => PADDING_ROUND (rot8 i args_1) (4 * Z.of_nat i))
  (* 584-641 *)
  ++ [IAlu32 ADD a (M32 (Base rsp (_DIGEST + 0*4)));
    IAlu32 ADD b (M32 (Base rsp (_DIGEST + 1*4)));
    IAlu32 ADD c (M32 (Base rsp (_DIGEST + 2*4)));
    IAlu32 ADD d (M32 (Base rsp (_DIGEST + 3*4)));
    IAlu32 ADD e (M32 (Base rsp (_DIGEST + 4*4)));
    IAlu32 ADD f (M32 (Base rsp (_DIGEST + 5*4)));
    IAlu32 ADD g (M32 (Base rsp (_DIGEST + 6*4)));
    IAlu32 ADD h (M32 (Base rsp (_DIGEST + 7*4)));
    IBswap32 a;
    IBswap32 b;
    IBswap32 c;
    IBswap32 d;
    IBswap32 e;
    IBswap32 f;
    IBswap32 g;
    IBswap32 h;
    IStore32 (Base rdi (0*4)) a;
    IStore32 (Base rdi (1*4)) b;
    IStore32 (Base rdi (2*4)) c;
    IStore32 (Base rdi (3*4)) d;
    IStore32 (Base rdi (4*4)) e;
    IStore32 (Base rdi (5*4)) f;
    IStore32 (Base rdi (6*4)) g;
    IStore32 (Base rdi (7*4)) h;
    IAdd64 rsp 64;
    IPop r15;
    IPop r14;
    IPop r13;
    IPop r12;
    IPop rbp;
    IPop rdx;
    IPop rbx;
    IRet].
