(** /repo/ssz/sha256_avx2.asm: sha256_8_avx2, and /repo/ssz/transpose_avx2.asm. *)
From Coq Require Import ZArith String List Bool.
From Verif Require Import Base ModelX86 ModelAsm.
Import ListNotations.
Open Scope list_scope.
Open Scope Z_scope.

(** ssz/sha256_avx2.asm:70-360 (section .data) *)
Definition data_8 : data :=
 [("K256_8"%string,
   flat_map dq [0x428a2f98428a2f98; 0x428a2f98428a2f98; 0x428a2f98428a2f98; 0x428a2f98428a2f98;
    0x7137449171374491; 0x7137449171374491; 0x7137449171374491; 0x7137449171374491;
    0xb5c0fbcfb5c0fbcf; 0xb5c0fbcfb5c0fbcf; 0xb5c0fbcfb5c0fbcf; 0xb5c0fbcfb5c0fbcf;
    0xe9b5dba5e9b5dba5; 0xe9b5dba5e9b5dba5; 0xe9b5dba5e9b5dba5; 0xe9b5dba5e9b5dba5;
    0x3956c25b3956c25b; 0x3956c25b3956c25b; 0x3956c25b3956c25b; 0x3956c25b3956c25b;
    0x59f111f159f111f1; 0x59f111f159f111f1; 0x59f111f159f111f1; 0x59f111f159f111f1;
    0x923f82a4923f82a4; 0x923f82a4923f82a4; 0x923f82a4923f82a4; 0x923f82a4923f82a4;
    0xab1c5ed5ab1c5ed5; 0xab1c5ed5ab1c5ed5; 0xab1c5ed5ab1c5ed5; 0xab1c5ed5ab1c5ed5;
    0xd807aa98d807aa98; 0xd807aa98d807aa98; 0xd807aa98d807aa98; 0xd807aa98d807aa98;
    0x12835b0112835b01; 0x12835b0112835b01; 0x12835b0112835b01; 0x12835b0112835b01;
    0x243185be243185be; 0x243185be243185be; 0x243185be243185be; 0x243185be243185be;
    0x550c7dc3550c7dc3; 0x550c7dc3550c7dc3; 0x550c7dc3550c7dc3; 0x550c7dc3550c7dc3;
    0x72be5d7472be5d74; 0x72be5d7472be5d74; 0x72be5d7472be5d74; 0x72be5d7472be5d74;
    0x80deb1fe80deb1fe; 0x80deb1fe80deb1fe; 0x80deb1fe80deb1fe; 0x80deb1fe80deb1fe;
    0x9bdc06a79bdc06a7; 0x9bdc06a79bdc06a7; 0x9bdc06a79bdc06a7; 0x9bdc06a79bdc06a7;
    0xc19bf174c19bf174; 0xc19bf174c19bf174; 0xc19bf174c19bf174; 0xc19bf174c19bf174;
    0xe49b69c1e49b69c1; 0xe49b69c1e49b69c1; 0xe49b69c1e49b69c1; 0xe49b69c1e49b69c1;
    0xefbe4786efbe4786; 0xefbe4786efbe4786; 0xefbe4786efbe4786; 0xefbe4786efbe4786;
    0x0fc19dc60fc19dc6; 0x0fc19dc60fc19dc6; 0x0fc19dc60fc19dc6; 0x0fc19dc60fc19dc6;
    0x240ca1cc240ca1cc; 0x240ca1cc240ca1cc; 0x240ca1cc240ca1cc; 0x240ca1cc240ca1cc;
    0x2de92c6f2de92c6f; 0x2de92c6f2de92c6f; 0x2de92c6f2de92c6f; 0x2de92c6f2de92c6f;
    0x4a7484aa4a7484aa; 0x4a7484aa4a7484aa; 0x4a7484aa4a7484aa; 0x4a7484aa4a7484aa;
    0x5cb0a9dc5cb0a9dc; 0x5cb0a9dc5cb0a9dc; 0x5cb0a9dc5cb0a9dc; 0x5cb0a9dc5cb0a9dc;
    0x76f988da76f988da; 0x76f988da76f988da; 0x76f988da76f988da; 0x76f988da76f988da;
    0x983e5152983e5152; 0x983e5152983e5152; 0x983e5152983e5152; 0x983e5152983e5152;
    0xa831c66da831c66d; 0xa831c66da831c66d; 0xa831c66da831c66d; 0xa831c66da831c66d;
    0xb00327c8b00327c8; 0xb00327c8b00327c8; 0xb00327c8b00327c8; 0xb00327c8b00327c8;
    0xbf597fc7bf597fc7; 0xbf597fc7bf597fc7; 0xbf597fc7bf597fc7; 0xbf597fc7bf597fc7;
    0xc6e00bf3c6e00bf3; 0xc6e00bf3c6e00bf3; 0xc6e00bf3c6e00bf3; 0xc6e00bf3c6e00bf3;
    0xd5a79147d5a79147; 0xd5a79147d5a79147; 0xd5a79147d5a79147; 0xd5a79147d5a79147;
    0x06ca635106ca6351; 0x06ca635106ca6351; 0x06ca635106ca6351; 0x06ca635106ca6351;
    0x1429296714292967; 0x1429296714292967; 0x1429296714292967; 0x1429296714292967;
    0x27b70a8527b70a85; 0x27b70a8527b70a85; 0x27b70a8527b70a85; 0x27b70a8527b70a85;
    0x2e1b21382e1b2138; 0x2e1b21382e1b2138; 0x2e1b21382e1b2138; 0x2e1b21382e1b2138;
    0x4d2c6dfc4d2c6dfc; 0x4d2c6dfc4d2c6dfc; 0x4d2c6dfc4d2c6dfc; 0x4d2c6dfc4d2c6dfc;
    0x53380d1353380d13; 0x53380d1353380d13; 0x53380d1353380d13; 0x53380d1353380d13;
    0x650a7354650a7354; 0x650a7354650a7354; 0x650a7354650a7354; 0x650a7354650a7354;
    0x766a0abb766a0abb; 0x766a0abb766a0abb; 0x766a0abb766a0abb; 0x766a0abb766a0abb;
    0x81c2c92e81c2c92e; 0x81c2c92e81c2c92e; 0x81c2c92e81c2c92e; 0x81c2c92e81c2c92e;
    0x92722c8592722c85; 0x92722c8592722c85; 0x92722c8592722c85; 0x92722c8592722c85;
    0xa2bfe8a1a2bfe8a1; 0xa2bfe8a1a2bfe8a1; 0xa2bfe8a1a2bfe8a1; 0xa2bfe8a1a2bfe8a1;
    0xa81a664ba81a664b; 0xa81a664ba81a664b; 0xa81a664ba81a664b; 0xa81a664ba81a664b;
    0xc24b8b70c24b8b70; 0xc24b8b70c24b8b70; 0xc24b8b70c24b8b70; 0xc24b8b70c24b8b70;
    0xc76c51a3c76c51a3; 0xc76c51a3c76c51a3; 0xc76c51a3c76c51a3; 0xc76c51a3c76c51a3;
    0xd192e819d192e819; 0xd192e819d192e819; 0xd192e819d192e819; 0xd192e819d192e819;
    0xd6990624d6990624; 0xd6990624d6990624; 0xd6990624d6990624; 0xd6990624d6990624;
    0xf40e3585f40e3585; 0xf40e3585f40e3585; 0xf40e3585f40e3585; 0xf40e3585f40e3585;
    0x106aa070106aa070; 0x106aa070106aa070; 0x106aa070106aa070; 0x106aa070106aa070;
    0x19a4c11619a4c116; 0x19a4c11619a4c116; 0x19a4c11619a4c116; 0x19a4c11619a4c116;
    0x1e376c081e376c08; 0x1e376c081e376c08; 0x1e376c081e376c08; 0x1e376c081e376c08;
    0x2748774c2748774c; 0x2748774c2748774c; 0x2748774c2748774c; 0x2748774c2748774c;
    0x34b0bcb534b0bcb5; 0x34b0bcb534b0bcb5; 0x34b0bcb534b0bcb5; 0x34b0bcb534b0bcb5;
    0x391c0cb3391c0cb3; 0x391c0cb3391c0cb3; 0x391c0cb3391c0cb3; 0x391c0cb3391c0cb3;
    0x4ed8aa4a4ed8aa4a; 0x4ed8aa4a4ed8aa4a; 0x4ed8aa4a4ed8aa4a; 0x4ed8aa4a4ed8aa4a;
    0x5b9cca4f5b9cca4f; 0x5b9cca4f5b9cca4f; 0x5b9cca4f5b9cca4f; 0x5b9cca4f5b9cca4f;
    0x682e6ff3682e6ff3; 0x682e6ff3682e6ff3; 0x682e6ff3682e6ff3; 0x682e6ff3682e6ff3;
    0x748f82ee748f82ee; 0x748f82ee748f82ee; 0x748f82ee748f82ee; 0x748f82ee748f82ee;
    0x78a5636f78a5636f; 0x78a5636f78a5636f; 0x78a5636f78a5636f; 0x78a5636f78a5636f;
    0x84c8781484c87814; 0x84c8781484c87814; 0x84c8781484c87814; 0x84c8781484c87814;
    0x8cc702088cc70208; 0x8cc702088cc70208; 0x8cc702088cc70208; 0x8cc702088cc70208;
    0x90befffa90befffa; 0x90befffa90befffa; 0x90befffa90befffa; 0x90befffa90befffa;
    0xa4506ceba4506ceb; 0xa4506ceba4506ceb; 0xa4506ceba4506ceb; 0xa4506ceba4506ceb;
    0xbef9a3f7bef9a3f7; 0xbef9a3f7bef9a3f7; 0xbef9a3f7bef9a3f7; 0xbef9a3f7bef9a3f7;
    0xc67178f2c67178f2; 0xc67178f2c67178f2; 0xc67178f2c67178f2; 0xc67178f2c67178f2]);
  ("PADDING_8"%string,
   flat_map ddq [0xc28a2f98c28a2f98c28a2f98c28a2f98; 0xc28a2f98c28a2f98c28a2f98c28a2f98; 0x71374491713744917137449171374491; 0x71374491713744917137449171374491;
    0xb5c0fbcfb5c0fbcfb5c0fbcfb5c0fbcf; 0xb5c0fbcfb5c0fbcfb5c0fbcfb5c0fbcf; 0xe9b5dba5e9b5dba5e9b5dba5e9b5dba5; 0xe9b5dba5e9b5dba5e9b5dba5e9b5dba5;
    0x3956c25b3956c25b3956c25b3956c25b; 0x3956c25b3956c25b3956c25b3956c25b; 0x59f111f159f111f159f111f159f111f1; 0x59f111f159f111f159f111f159f111f1;
    0x923f82a4923f82a4923f82a4923f82a4; 0x923f82a4923f82a4923f82a4923f82a4; 0xab1c5ed5ab1c5ed5ab1c5ed5ab1c5ed5; 0xab1c5ed5ab1c5ed5ab1c5ed5ab1c5ed5;
    0xd807aa98d807aa98d807aa98d807aa98; 0xd807aa98d807aa98d807aa98d807aa98; 0x12835b0112835b0112835b0112835b01; 0x12835b0112835b0112835b0112835b01;
    0x243185be243185be243185be243185be; 0x243185be243185be243185be243185be; 0x550c7dc3550c7dc3550c7dc3550c7dc3; 0x550c7dc3550c7dc3550c7dc3550c7dc3;
    0x72be5d7472be5d7472be5d7472be5d74; 0x72be5d7472be5d7472be5d7472be5d74; 0x80deb1fe80deb1fe80deb1fe80deb1fe; 0x80deb1fe80deb1fe80deb1fe80deb1fe;
    0x9bdc06a79bdc06a79bdc06a79bdc06a7; 0x9bdc06a79bdc06a79bdc06a79bdc06a7; 0xc19bf374c19bf374c19bf374c19bf374; 0xc19bf374c19bf374c19bf374c19bf374;
    0x649b69c1649b69c1649b69c1649b69c1; 0x649b69c1649b69c1649b69c1649b69c1; 0xf0fe4786f0fe4786f0fe4786f0fe4786; 0xf0fe4786f0fe4786f0fe4786f0fe4786;
    0x0fe1edc60fe1edc60fe1edc60fe1edc6; 0x0fe1edc60fe1edc60fe1edc60fe1edc6; 0x240cf254240cf254240cf254240cf254; 0x240cf254240cf254240cf254240cf254;
    0x4fe9346f4fe9346f4fe9346f4fe9346f; 0x4fe9346f4fe9346f4fe9346f4fe9346f; 0x6cc984be6cc984be6cc984be6cc984be; 0x6cc984be6cc984be6cc984be6cc984be;
    0x61b9411e61b9411e61b9411e61b9411e; 0x61b9411e61b9411e61b9411e61b9411e; 0x16f988fa16f988fa16f988fa16f988fa; 0x16f988fa16f988fa16f988fa16f988fa;
    0xf2c65152f2c65152f2c65152f2c65152; 0xf2c65152f2c65152f2c65152f2c65152; 0xa88e5a6da88e5a6da88e5a6da88e5a6d; 0xa88e5a6da88e5a6da88e5a6da88e5a6d;
    0xb019fc65b019fc65b019fc65b019fc65; 0xb019fc65b019fc65b019fc65b019fc65; 0xb9d99ec7b9d99ec7b9d99ec7b9d99ec7; 0xb9d99ec7b9d99ec7b9d99ec7b9d99ec7;
    0x9a1231c39a1231c39a1231c39a1231c3; 0x9a1231c39a1231c39a1231c39a1231c3; 0xe70eeaa0e70eeaa0e70eeaa0e70eeaa0; 0xe70eeaa0e70eeaa0e70eeaa0e70eeaa0;
    0xfdb1232bfdb1232bfdb1232bfdb1232b; 0xfdb1232bfdb1232bfdb1232bfdb1232b; 0xc7353eb0c7353eb0c7353eb0c7353eb0; 0xc7353eb0c7353eb0c7353eb0c7353eb0;
    0x3069bad53069bad53069bad53069bad5; 0x3069bad53069bad53069bad53069bad5; 0xcb976d5fcb976d5fcb976d5fcb976d5f; 0xcb976d5fcb976d5fcb976d5fcb976d5f;
    0x5a0f118f5a0f118f5a0f118f5a0f118f; 0x5a0f118f5a0f118f5a0f118f5a0f118f; 0xdc1eeefddc1eeefddc1eeefddc1eeefd; 0xdc1eeefddc1eeefddc1eeefddc1eeefd;
    0x0a35b6890a35b6890a35b6890a35b689; 0x0a35b6890a35b6890a35b6890a35b689; 0xde0b7a04de0b7a04de0b7a04de0b7a04; 0xde0b7a04de0b7a04de0b7a04de0b7a04;
    0x58f4ca9d58f4ca9d58f4ca9d58f4ca9d; 0x58f4ca9d58f4ca9d58f4ca9d58f4ca9d; 0xe15d5b16e15d5b16e15d5b16e15d5b16; 0xe15d5b16e15d5b16e15d5b16e15d5b16;
    0x007f3e86007f3e86007f3e86007f3e86; 0x007f3e86007f3e86007f3e86007f3e86; 0x37088980370889803708898037088980; 0x37088980370889803708898037088980;
    0xa507ea32a507ea32a507ea32a507ea32; 0xa507ea32a507ea32a507ea32a507ea32; 0x6fab95376fab95376fab95376fab9537; 0x6fab95376fab95376fab95376fab9537;
    0x17406110174061101740611017406110; 0x17406110174061101740611017406110; 0x0d8cd6f10d8cd6f10d8cd6f10d8cd6f1; 0x0d8cd6f10d8cd6f10d8cd6f10d8cd6f1;
    0xcdaa3b6dcdaa3b6dcdaa3b6dcdaa3b6d; 0xcdaa3b6dcdaa3b6dcdaa3b6dcdaa3b6d; 0xc0bbbe37c0bbbe37c0bbbe37c0bbbe37; 0xc0bbbe37c0bbbe37c0bbbe37c0bbbe37;
    0x83613bda83613bda83613bda83613bda; 0x83613bda83613bda83613bda83613bda; 0xdb48a363db48a363db48a363db48a363; 0xdb48a363db48a363db48a363db48a363;
    0x0b02e9310b02e9310b02e9310b02e931; 0x0b02e9310b02e9310b02e9310b02e931; 0x6fd15ca76fd15ca76fd15ca76fd15ca7; 0x6fd15ca76fd15ca76fd15ca76fd15ca7;
    0x521afaca521afaca521afaca521afaca; 0x521afaca521afaca521afaca521afaca; 0x31338431313384313133843131338431; 0x31338431313384313133843131338431;
    0x6ed41a956ed41a956ed41a956ed41a95; 0x6ed41a956ed41a956ed41a956ed41a95; 0x6d4378906d4378906d4378906d437890; 0x6d4378906d4378906d4378906d437890;
    0xc39c91f2c39c91f2c39c91f2c39c91f2; 0xc39c91f2c39c91f2c39c91f2c39c91f2; 0x9eccabbd9eccabbd9eccabbd9eccabbd; 0x9eccabbd9eccabbd9eccabbd9eccabbd;
    0xb5c9a0e6b5c9a0e6b5c9a0e6b5c9a0e6; 0xb5c9a0e6b5c9a0e6b5c9a0e6b5c9a0e6; 0x532fb63c532fb63c532fb63c532fb63c; 0x532fb63c532fb63c532fb63c532fb63c;
    0xd2c741c6d2c741c6d2c741c6d2c741c6; 0xd2c741c6d2c741c6d2c741c6d2c741c6; 0x07237ea307237ea307237ea307237ea3; 0x07237ea307237ea307237ea307237ea3;
    0xa4954b68a4954b68a4954b68a4954b68; 0xa4954b68a4954b68a4954b68a4954b68; 0x4c191d764c191d764c191d764c191d76; 0x4c191d764c191d764c191d764c191d76]);
  ("DIGEST_8"%string,
   [0x6a09e667; 0x6a09e667; 0x6a09e667; 0x6a09e667;
    0x6a09e667; 0x6a09e667; 0x6a09e667; 0x6a09e667;
    0xbb67ae85; 0xbb67ae85; 0xbb67ae85; 0xbb67ae85;
    0xbb67ae85; 0xbb67ae85; 0xbb67ae85; 0xbb67ae85;
    0x3c6ef372; 0x3c6ef372; 0x3c6ef372; 0x3c6ef372;
    0x3c6ef372; 0x3c6ef372; 0x3c6ef372; 0x3c6ef372;
    0xa54ff53a; 0xa54ff53a; 0xa54ff53a; 0xa54ff53a;
    0xa54ff53a; 0xa54ff53a; 0xa54ff53a; 0xa54ff53a;
    0x510e527f; 0x510e527f; 0x510e527f; 0x510e527f;
    0x510e527f; 0x510e527f; 0x510e527f; 0x510e527f;
    0x9b05688c; 0x9b05688c; 0x9b05688c; 0x9b05688c;
    0x9b05688c; 0x9b05688c; 0x9b05688c; 0x9b05688c;
    0x1f83d9ab; 0x1f83d9ab; 0x1f83d9ab; 0x1f83d9ab;
    0x1f83d9ab; 0x1f83d9ab; 0x1f83d9ab; 0x1f83d9ab;
    0x5be0cd19; 0x5be0cd19; 0x5be0cd19; 0x5be0cd19;
    0x5be0cd19; 0x5be0cd19; 0x5be0cd19; 0x5be0cd19]);
  ("PSHUFFLE_BYTE_FLIP_MASK"%string,
   flat_map dq [0x0405060700010203; 0x0c0d0e0f08090a0b; 0x0405060700010203; 0x0c0d0e0f08090a0b]);
  ("STACK_ALIGNMENT_MASK"%string,
   flat_map dq [0xffffffffffffffe0])].
Definition at_8 (l : string) (d : Z) : addr := Rel sec_8 (offset data_8 l + d).

(** ** ssz/transpose_avx2.asm *)

(** TRANSPOSE8_U32_LOAD8, 38-86. Its address arguments are all of the form
    "pointer + offset"; [p] is the pointer and [addr0] ... [addr7] the offsets. *)
Definition TRANSPOSE8_U32_LOAD8 (r0 r1 r2 r3 r4 r5 r6 r7 : vreg) (p : reg)
    (addr0 addr1 addr2 addr3 addr4 addr5 addr6 addr7 ptr_offset : Z) : list instr :=
  [IVLoad V128 false r0 (Base p (addr0 + ptr_offset));
    IVLoad V128 false r1 (Base p (addr1 + ptr_offset));
    IVLoad V128 false r2 (Base p (addr2 + ptr_offset));
    IVLoad V128 false r3 (Base p (addr3 + ptr_offset));
    IVLoad V128 false r4 (Base p (addr0 + ptr_offset + 16));
    IVLoad V128 false r5 (Base p (addr1 + ptr_offset + 16));
    IVLoad V128 false r6 (Base p (addr2 + ptr_offset + 16));
    IVLoad V128 false r7 (Base p (addr3 + ptr_offset + 16));
    IVInsert128 r0 r0 (Base p (addr4 + ptr_offset)) 0x01;
    IVInsert128 r1 r1 (Base p (addr5 + ptr_offset)) 0x01;
    IVInsert128 r2 r2 (Base p (addr6 + ptr_offset)) 0x01;
    IVInsert128 r3 r3 (Base p (addr7 + ptr_offset)) 0x01;
    IVInsert128 r4 r4 (Base p (addr4 + ptr_offset + 16)) 0x01;
    IVInsert128 r5 r5 (Base p (addr5 + ptr_offset + 16)) 0x01;
    IVInsert128 r6 r6 (Base p (addr6 + ptr_offset + 16)) 0x01;
    IVInsert128 r7 r7 (Base p (addr7 + ptr_offset + 16)) 0x01].
(** TRANSPOSE8_U32_PRELOADED, 95-147 *)
Definition TRANSPOSE8_U32_PRELOADED (r0 r1 r2 r3 r4 r5 r6 r7 t0 t1 : vreg) : list instr :=
  [IV V256 (SHUFPS 0x44) t0 r0 (RV r1);
    IV V256 (SHUFPS 0xEE) r0 r0 (RV r1);
    IV V256 (SHUFPS 0x44) t1 r2 (RV r3);
    IV V256 (SHUFPS 0xEE) r2 r2 (RV r3);
    IV V256 (SHUFPS 0xDD) r1 t0 (RV t1);
    IV V256 (SHUFPS 0xDD) r3 r0 (RV r2);
    IV V256 (SHUFPS 0x88) r2 r0 (RV r2);
    IV V256 (SHUFPS 0x88) r0 t0 (RV t1);
    IV V256 (SHUFPS 0x44) t0 r4 (RV r5);
    IV V256 (SHUFPS 0xEE) r4 r4 (RV r5);
    IV V256 (SHUFPS 0x44) t1 r6 (RV r7);
    IV V256 (SHUFPS 0xEE) r6 r6 (RV r7);
    IV V256 (SHUFPS 0xDD) r5 t0 (RV t1);
    IV V256 (SHUFPS 0xDD) r7 r4 (RV r6);
    IV V256 (SHUFPS 0x88) r6 r4 (RV r6);
    IV V256 (SHUFPS 0x88) r4 t0 (RV t1)].
(** TRANSPOSE8_U32, 149-190 *)
Definition TRANSPOSE8_U32 (r0 r1 r2 r3 r4 r5 r6 r7 t0 t1 : vreg) : list instr :=
  [IV V256 (SHUFPS 0x44) t0 r0 (RV r1);
    IV V256 (SHUFPS 0xEE) r0 r0 (RV r1);
    IV V256 (SHUFPS 0x44) t1 r2 (RV r3);
    IV V256 (SHUFPS 0xEE) r2 r2 (RV r3);
    IV V256 (SHUFPS 0xDD) r3 t0 (RV t1);
    IV V256 (SHUFPS 0x88) r1 r0 (RV r2);
    IV V256 (SHUFPS 0xDD) r0 r0 (RV r2);
    IV V256 (SHUFPS 0x88) t0 t0 (RV t1);
    IV V256 (SHUFPS 0x44) r2 r4 (RV r5);
    IV V256 (SHUFPS 0xEE) r4 r4 (RV r5);
    IV V256 (SHUFPS 0x44) t1 r6 (RV r7);
    IV V256 (SHUFPS 0xEE) r6 r6 (RV r7);
    IV V256 (SHUFPS 0xDD) r7 r2 (RV t1);
    IV V256 (SHUFPS 0x88) r5 r4 (RV r6);
    IV V256 (SHUFPS 0xDD) r4 r4 (RV r6);
    IV V256 (SHUFPS 0x88) t1 r2 (RV t1);
    IVPerm2f128 r6 r5 r1 0x13;
    IVPerm2f128 r2 r5 r1 0x02;
    IVPerm2f128 r5 r7 r3 0x13;
    IVPerm2f128 r1 r7 r3 0x02;
    IVPerm2f128 r7 r4 r0 0x13;
    IVPerm2f128 r3 r4 r0 0x02;
    IVPerm2f128 r4 t1 t0 0x13;
    IVPerm2f128 r0 t1 t0 0x02].

(** ** ssz/sha256_avx2.asm *)

(** 374-464 (%define lines and struc stack_frame) *)
Local Notation T_1 := xmm8 (only parsing).
Local Notation a0 := xmm12 (only parsing).
Local Notation a1 := xmm13 (only parsing).
Local Notation a2 := xmm14 (only parsing).
Local Notation TMP := xmm15 (only parsing).
Local Notation TMP0 := xmm6 (only parsing).
Local Notation TMP1 := xmm7 (only parsing).
Local Notation TT0 := xmm8 (only parsing).
Local Notation TT1 := xmm9 (only parsing).
Local Notation TT2 := xmm10 (only parsing).
Local Notation TT3 := xmm11 (only parsing).
Local Notation TT4 := xmm12 (only parsing).
Local Notation TT5 := xmm13 (only parsing).
Local Notation TT6 := xmm14 (only parsing).
Local Notation TT7 := xmm15 (only parsing).
Local Notation SZ8 := (8 * 4) (only parsing).
Local Notation ROUNDS := (64 * SZ8) (only parsing).
Local Notation _DIGEST := 512 (only parsing).
Local Notation _YTMP := 768 (only parsing).
Local Notation _RSAVE := 896 (only parsing).
(** a...h on entry *)
Definition args_8 : regs8 := (xmm0, xmm1, xmm2, xmm3, xmm4, xmm5, xmm6, xmm7).

(** PRORD with three arguments, 481-488 (with two, 504-506, the third is TMP) *)
Definition PRORD_8 (reg : vreg) (imm : Z) (tmp : vreg) : list instr :=
  [IVu V256 (PSLLD (32-(imm))) tmp reg;
    IVu V256 (PSRLD imm) reg reg;
    IV V256 POR reg reg (RV tmp)].
(** PRORD_nd with four arguments, 492-501 (with three, 509-511, PRORD_nd dst, src, amt
    is PRORD_nd dst, amt, TMP, src) *)
Definition PRORD_nd_8 (reg : vreg) (imm : Z) (tmp src : vreg) : list instr :=
  [IVu V256 (PSLLD (32-(imm))) tmp src;
    IVu V256 (PSRLD imm) reg src;
    IV V256 POR reg reg (RV tmp)].

(** ROUND_00_15, 514-549 *)
Definition ROUND_00_15_8 (r : regs8) (T1 : vreg) (i : Z) : list instr :=
  let '(a, b, c, d, e, f, g, h) := r in
  PRORD_nd_8 a0 (11-6) TMP e
   ++ [IV V256 PXOR a2 f (RV g);
    IV V256 PAND a2 a2 (RV e);
    IV V256 PXOR a2 a2 (RV g)]
   ++ PRORD_nd_8 a1 25 TMP e
   ++ [IVStore V256 true (Base rsp (SZ8*(Z.land i 15))) T1;
    IV V256 PADDD T1 T1 (MV (Index rcx rax 0));
    IV V256 PXOR a0 a0 (RV e)]
   ++ PRORD_8 a0 6 TMP
   ++ [IV V256 PADDD h h (RV a2)]
   ++ PRORD_nd_8 a2 (13-2) TMP a
   ++ [IV V256 PADDD h h (RV T1);
    IV V256 PXOR a0 a0 (RV a1)]
   ++ PRORD_nd_8 a1 22 TMP a
   ++ [IV V256 PXOR T1 a (RV c);
    IAdd64 rax SZ8;
    IV V256 PAND T1 T1 (RV b);
    IV V256 PADDD h h (RV a0);
    IV V256 PADDD d d (RV h);
    IV V256 PXOR a2 a2 (RV a)]
   ++ PRORD_8 a2 2 TMP
   ++ [IV V256 PXOR a2 a2 (RV a1);
    IV V256 PAND a1 a (RV c);
    IV V256 POR a1 a1 (RV T1);
    IV V256 PADDD h h (RV a1);
    IV V256 PADDD h h (RV a2)].
(** ROUND_16_XX, 553-576 *)
Definition ROUND_16_XX_8 (r : regs8) (T1 : vreg) (i : Z) : list instr :=
  [IVLoad V256 true T1 (Base rsp (SZ8*(Z.land (i-15) 15)));
    IVLoad V256 true a1 (Base rsp (SZ8*(Z.land (i-2) 15)));
    IVu V256 VMOV a0 T1]
   ++ PRORD_8 T1 (18-7) TMP
   ++ [IVu V256 VMOV a2 a1]
   ++ PRORD_8 a1 (19-17) TMP
   ++ [IV V256 PXOR T1 T1 (RV a0)]
   ++ PRORD_8 T1 7 TMP
   ++ [IV V256 PXOR a1 a1 (RV a2)]
   ++ PRORD_8 a1 17 TMP
   ++ [IVu V256 (PSRLD 3) a0 a0;
    IV V256 PXOR T1 T1 (RV a0);
    IVu V256 (PSRLD 10) a2 a2;
    IV V256 PXOR a1 a1 (RV a2);
    IV V256 PADDD T1 T1 (MV (Base rsp (SZ8*(Z.land (i-16) 15))));
    IV V256 PADDD a1 a1 (MV (Base rsp (SZ8*(Z.land (i-7) 15))));
    IV V256 PADDD T1 T1 (RV a1)]
   ++ ROUND_00_15_8 r T1 i.
(** PADDING_ROUND_00_15, 579-612 *)
Definition PADDING_ROUND_8 (r : regs8) (T1 : vreg) : list instr :=
  let '(a, b, c, d, e, f, g, h) := r in
  PRORD_nd_8 a0 (11-6) TMP e
   ++ [IV V256 PXOR a2 f (RV g);
    IV V256 PAND a2 a2 (RV e);
    IV V256 PXOR a2 a2 (RV g)]
   ++ PRORD_nd_8 a1 25 TMP e
   ++ [IVLoad V256 true T1 (Index rcx rax 0);
    IV V256 PXOR a0 a0 (RV e)]
   ++ PRORD_8 a0 6 TMP
   ++ [IV V256 PADDD h h (RV a2)]
   ++ PRORD_nd_8 a2 (13-2) TMP a
   ++ [IV V256 PADDD h h (RV T1);
    IV V256 PXOR a0 a0 (RV a1)]
   ++ PRORD_nd_8 a1 22 TMP a
   ++ [IV V256 PXOR T1 a (RV c);
    IAdd64 rax SZ8;
    IV V256 PAND T1 T1 (RV b);
    IV V256 PADDD h h (RV a0);
    IV V256 PADDD d d (RV h);
    IV V256 PXOR a2 a2 (RV a)]
   ++ PRORD_8 a2 2 TMP
   ++ [IV V256 PXOR a2 a2 (RV a1);
    IV V256 PAND a1 a (RV c);
    IV V256 POR a1 a1 (RV T1);
    IV V256 PADDD h h (RV a1);
    IV V256 PADDD h h (RV a2)].

(** One pass of the loop of 648-691, with i = [k] *)
Definition load_pass_8 (k : nat) : list instr :=
  let i := Z.of_nat k in
  let '(a, b, c, d, e, f, g, h) := rot8 (8 * k) args_8 in
  TRANSPOSE8_U32_LOAD8 TT0 TT1 TT2 TT3 TT4 TT5 TT6 TT7 rsi (0*64) (1*64) (2*64) (3*64) (4*64) (5*64) (6*64) (7*64) (i*32)
   ++ [IVStore V256 true (Base rsp (_YTMP + 0*SZ8)) g;
    IVStore V256 true (Base rsp (_YTMP + 1*SZ8)) h]
   ++ TRANSPOSE8_U32_PRELOADED TT0 TT1 TT2 TT3 TT4 TT5 TT6 TT7 TMP0 TMP1
   ++ [IVLoad V256 true TMP1 (at_8 "PSHUFFLE_BYTE_FLIP_MASK" 0);
    IVLoad V256 true g (Base rsp (_YTMP + 0*SZ8));
    IV V256 PSHUFB TT0 TT0 (RV TMP1);
    IV V256 PSHUFB TT1 TT1 (RV TMP1);
    IV V256 PSHUFB TT2 TT2 (RV TMP1);
    IV V256 PSHUFB TT3 TT3 (RV TMP1);
    IV V256 PSHUFB TT4 TT4 (RV TMP1);
    IV V256 PSHUFB TT5 TT5 (RV TMP1);
    IV V256 PSHUFB TT6 TT6 (RV TMP1);
    IV V256 PSHUFB TT7 TT7 (RV TMP1);
    IVLoad V256 true h (Base rsp (_YTMP + 1*SZ8));
    IVStore V256 true (Base rsp (_YTMP + 0*SZ8)) TT4;
    IVStore V256 true (Base rsp (_YTMP + 1*SZ8)) TT5;
    IVStore V256 true (Base rsp (_YTMP + 2*SZ8)) TT6;
    IVStore V256 true (Base rsp (_YTMP + 3*SZ8)) TT7]
   ++ ROUND_00_15_8 (rot8 (8 * k + 0) args_8) TT0 (i*8+0)
   ++ [IVLoad V256 true TT0 (Base rsp (_YTMP + 0*SZ8))]
   ++ ROUND_00_15_8 (rot8 (8 * k + 1) args_8) TT1 (i*8+1)
   ++ [IVLoad V256 true TT1 (Base rsp (_YTMP + 1*SZ8))]
   ++ ROUND_00_15_8 (rot8 (8 * k + 2) args_8) TT2 (i*8+2)
   ++ [IVLoad V256 true TT2 (Base rsp (_YTMP + 2*SZ8))]
   ++ ROUND_00_15_8 (rot8 (8 * k + 3) args_8) TT3 (i*8+3)
   ++ [IVLoad V256 true TT3 (Base rsp (_YTMP + 3*SZ8))]
   ++ ROUND_00_15_8 (rot8 (8 * k + 4) args_8) TT0 (i*8+4)
   ++ ROUND_00_15_8 (rot8 (8 * k + 5) args_8) TT1 (i*8+5)
   ++ ROUND_00_15_8 (rot8 (8 * k + 6) args_8) TT2 (i*8+6)
   ++ ROUND_00_15_8 (rot8 (8 * k + 7) args_8) TT3 (i*8+7).

(** sha256_8_avx2, 618-793. endbranch64 (619) is defined nowhere: the assembler takes it
    for a label and emits nothing. After 8, 16, 64 and 128 rounds a...h are again the
    registers they were on entry. *)
Definition code_8 : list instr :=
  let '(a, b, c, d, e, f, g, h) := args_8 in
  (* 618-645 *)
  [ILabel "sha256_8_avx2";
    IPush rbp;
    IMov64 rbp rsp;
    IAnd64 rsp (at_8 "STACK_ALIGNMENT_MASK" 0);
    ISub64 rsp 1152;
    IStore64 (Base rsp (_RSAVE + 0*64)) r12;
    IStore64 (Base rsp (_RSAVE + 1*64)) r13;
    IStore64 (Base rsp (_RSAVE + 2*64)) r14;
    IStore64 (Base rsp (_RSAVE + 3*64)) r15;
    ILabel "sha256_8_avx2.hash_8_blocks";
    ICmp64 rdx 8;
    IJl "sha256_8_avx2.hash_4_blocks";
    IXor64 rax rax;
    ILea rcx (at_8 "DIGEST_8" 0);
    IVLoad V256 true a (Base rcx (0*32));
    IVLoad V256 true b (Base rcx (1*32));
    IVLoad V256 true c (Base rcx (2*32));
    IVLoad V256 true d (Base rcx (3*32));
    IVLoad V256 true e (Base rcx (4*32));
    IVLoad V256 true f (Base rcx (5*32));
    IVLoad V256 true g (Base rcx (6*32));
    IVLoad V256 true h (Base rcx (7*32));
    ILea rcx (at_8 "K256_8" 0)]
  (* 647-691 *)
  ++ rep 2 load_pass_8
  (* 695-697 *)
  ++ [IJmp "sha256_8_avx2.Lrounds_16_xx";
    ILabel "sha256_8_avx2.Lrounds_16_xx"]
  (* 698-701 *)
  ++ rep 16 (fun i => ROUND_16_XX_8 (rot8 i args_8) T_1 (16 + Z.of_nat i))
  (* 703-735 *)
  ++ [ICmp64 rax ROUNDS;
    IJb "sha256_8_avx2.Lrounds_16_xx";
    ILea rcx (at_8 "DIGEST_8" 0);
    IV V256 PADDD a a (MV (Base rcx (0*SZ8)));
    IV V256 PADDD b b (MV (Base rcx (1*SZ8)));
    IV V256 PADDD c c (MV (Base rcx (2*SZ8)));
    IV V256 PADDD d d (MV (Base rcx (3*SZ8)));
    IV V256 PADDD e e (MV (Base rcx (4*SZ8)));
    IV V256 PADDD f f (MV (Base rcx (5*SZ8)));
    IV V256 PADDD g g (MV (Base rcx (6*SZ8)));
    IV V256 PADDD h h (MV (Base rcx (7*SZ8)));
    IVStore V256 true (Base rsp (_DIGEST + 0*SZ8)) a;
    IVStore V256 true (Base rsp (_DIGEST + 1*SZ8)) b;
    IVStore V256 true (Base rsp (_DIGEST + 2*SZ8)) c;
    IVStore V256 true (Base rsp (_DIGEST + 3*SZ8)) d;
    IVStore V256 true (Base rsp (_DIGEST + 4*SZ8)) e;
    IVStore V256 true (Base rsp (_DIGEST + 5*SZ8)) f;
    IVStore V256 true (Base rsp (_DIGEST + 6*SZ8)) g;
    IVStore V256 true (Base rsp (_DIGEST + 7*SZ8)) h;
    ILea rcx (at_8 "PADDING_8" 0);
    IXor64 rax rax;
    IJmp "sha256_8_avx2.Lrounds_padding";
    ILabel "sha256_8_avx2.Lrounds_padding"]
  (* 736-738 *)
  ++ rep 64 (fun i => PADDING_ROUND_8 (rot8 i args_8) T_1)
  (* 740-793 *)
  ++ [IV V256 PADDD a a (MV (Base rsp (_DIGEST + 0*SZ8)));
    IV V256 PADDD b b (MV (Base rsp (_DIGEST + 1*SZ8)));
    IV V256 PADDD c c (MV (Base rsp (_DIGEST + 2*SZ8)));
    IV V256 PADDD d d (MV (Base rsp (_DIGEST + 3*SZ8)));
    IV V256 PADDD e e (MV (Base rsp (_DIGEST + 4*SZ8)));
    IV V256 PADDD f f (MV (Base rsp (_DIGEST + 5*SZ8)));
    IV V256 PADDD g g (MV (Base rsp (_DIGEST + 6*SZ8)));
    IV V256 PADDD h h (MV (Base rsp (_DIGEST + 7*SZ8)))]
   ++ TRANSPOSE8_U32 a b c d e f g h TT0 TT1
   ++ [IVLoad V256 true TT0 (at_8 "PSHUFFLE_BYTE_FLIP_MASK" 0);
    IV V256 PSHUFB a a (RV TT0);
    IV V256 PSHUFB b b (RV TT0);
    IV V256 PSHUFB c c (RV TT0);
    IV V256 PSHUFB d d (RV TT0);
    IV V256 PSHUFB e e (RV TT0);
    IV V256 PSHUFB f f (RV TT0);
    IV V256 PSHUFB g g (RV TT0);
    IV V256 PSHUFB h h (RV TT0);
    IVStore V256 false (Base rdi (0*32)) a;
    IVStore V256 false (Base rdi (1*32)) b;
    IVStore V256 false (Base rdi (2*32)) c;
    IVStore V256 false (Base rdi (3*32)) d;
    IVStore V256 false (Base rdi (4*32)) e;
    IVStore V256 false (Base rdi (5*32)) f;
    IVStore V256 false (Base rdi (6*32)) g;
    IVStore V256 false (Base rdi (7*32)) h;
    IAdd64 rsi (64*8);
    IAdd64 rdi (32*8);
    ISub64 rdx 8;
    IJmp "sha256_8_avx2.hash_8_blocks";
    ILabel "sha256_8_avx2.hash_4_blocks";
    ICall "sha256_4_avx";
    ILoad64 r12 (Base rsp (_RSAVE + 0*64));
    ILoad64 r13 (Base rsp (_RSAVE + 1*64));
    ILoad64 r14 (Base rsp (_RSAVE + 2*64));
    ILoad64 r15 (Base rsp (_RSAVE + 3*64));
    IMov64 rsp rbp;
    IPop rbp;
    IRet].
