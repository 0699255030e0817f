(** Model of ssz/hasher.hpp and ssz/hasher.cpp: which routine a Hasher points to, and
    what calling it does to the memory of the process. *)
From Coq Require Import ZArith String List Bool.
From Verif Require Import Base SpecSha ModelX86 ModelImage SpecAsm.
Import ListNotations.
Open Scope list_scope.
Open Scope Z_scope.

(** ** Choosing the routine *)

(** What cpuid answers: the largest basic leaf, ecx and edx of leaf 1, ebx of leaf 7
    (subleaf 0). *)
Record cpu : Type := { c_max : Z; c_ecx1 : Z; c_edx1 : Z; c_ebx7 : Z }.

(** ssz/hasher.hpp:37-43 *)
Definition IMPL_NONE : Z := 0.
Definition IMPL_SSE : Z := 1.
Definition IMPL_AVX : Z := 2.
Definition IMPL_AVX2 : Z := 4.
Definition IMPL_SHA : Z := 8.
(** GCC's cpuid.h: bit_SHA and bit_AVX2 in ebx of leaf 7, bit_AVX and bit_SSE3 in ecx
    of leaf 1 *)
Definition bit_SHA : Z := 2 ^ 29.
Definition bit_AVX2 : Z := 2 ^ 5.
Definition bit_AVX : Z := 2 ^ 28.
Definition bit_SSE3 : Z := 1.

(** ssz/hasher.cpp:43-55. __get_cpuid_count leaves [b] alone when the leaf is not
    supported, and its result is ignored: reading [b] is then reading an
    uninitialised variable. *)
Definition implemented (c : cpu) : outcome Z :=
  if c_max c <? 7 then UB
  else
    let ret := IMPL_NONE in
    let ret := if Z.land (c_ebx7 c) bit_SHA =? 0 then ret else Z.lor ret IMPL_SHA in
    let ret := if Z.land (c_ebx7 c) bit_AVX2 =? 0 then ret else Z.lor ret IMPL_AVX2 in
    let ret := if Z.land (c_ecx1 c) bit_AVX =? 0 then ret else Z.lor ret IMPL_AVX in
    let ret := if Z.land (c_ecx1 c) bit_SSE3 =? 0 then ret else Z.lor ret IMPL_SSE in
    Ok ret.

(** the values of _hash_64b_blocks *)
Inductive hasher_fn : Type := F_sse | F_avx | F_avx2 | F_shani.

(** ssz/hasher.cpp:57-63 and the default constructor, ssz/hasher.hpp:55 *)
Definition best_sha256_implementation (c : cpu) : outcome hasher_fn :=
  let* impl := implemented c in
  Ok (if negb (Z.land impl IMPL_SHA =? 0) then F_shani
      else if negb (Z.land impl IMPL_AVX2 =? 0) then F_avx2
      else if negb (Z.land impl IMPL_AVX =? 0) then F_avx
      else F_sse).
(** ssz/hasher.cpp:65-82 *)
Definition Hasher (c : cpu) (impl : Z) : outcome hasher_fn :=
  if impl =? IMPL_SHA then Ok F_shani
  else if impl =? IMPL_AVX2 then Ok F_avx2
  else if impl =? IMPL_AVX then Ok F_avx
  else if impl =? IMPL_SSE then Ok F_sse
  else best_sha256_implementation c.

(** The assembly routine that the function behind a pointer calls: ssz/hasher.cpp:36
    (sha256_sse), 67-77 (the others are the routines themselves). *)
Definition routine_of (h : hasher_fn) : routine :=
  match h with
  | F_sse => sha256_1_avx
  | F_avx => sha256_4_avx
  | F_avx2 => sha256_8_avx2
  | F_shani => sha256_shani
  end.

(** ** Calling it

    The process: which addresses can be read and written, where the data sections of
    the assembly are, and which addresses the compiled C++ code uses for itself
    ([own]: its stack, also below the stack pointer, and the private data of the
    assembly); the memory the C++ program sees is the rest. *)
Section Process.
Variables readable writable : Z -> bool.
Variable sect : nat -> Z.
Variable own : Z -> Prop.

Section Code.
(** The assembly that is linked into the process: [image] is the library's. *)
Variable code : list instr.

(** A call of the assembly routine [f] with arguments [out], [inp] and [n]: the
    compiler puts the arguments in rdi, rsi and rdx, keeps to the calling convention
    and calls; the code that the routine returns to is not part of it. Registers and
    the position of the stack are arbitrary. *)
Definition asm_call_of (f : routine) (out inp n : Z) (m m' : Z -> Z) : Prop :=
  exists st k st',
    mem st = m /\ getr st rdi = out /\ getr st rsi = inp /\ (f = sha256_1_avx \/ getr st rdx = n) /\
    find_label (r_name f) code 0 = Some (pc st) /\
    call readable writable sect (r_consts f) (r_scratch f) (r_depth f) n st /\
    (forall x, inside x (getr st rsp - r_depth f, r_depth f) -> own x) /\
    (forall s, In s (r_scratch f) -> forall x, inside x (section_area sect s) -> own x) /\
    fetch code (le_val (bytes_at (mem st) (getr st rsp) 8)) = None /\
    steps readable writable sect code k st = Some st' /\ fetch code (pc st') = None /\
    (forall x, ~ own x -> m' x = mem st' x).

(** ssz/hasher.cpp:34-41 *)
Inductive sha256_sse_of : Z -> Z -> nat -> (Z -> Z) -> (Z -> Z) -> Prop :=
| sse_end : forall out inp m m', (forall x, ~ own x -> m' x = m x) -> sha256_sse_of out inp 0 m m'
| sse_block : forall out inp blocks m m1 m',
    asm_call_of (routine_of F_sse) out inp 1 m m1 ->
    sha256_sse_of (out + 32) (inp + 2 * 32) blocks m1 m' ->
    sha256_sse_of out inp (S blocks) m m'.

(** ssz/hasher.hpp:57-59 *)
Definition hash_64b_blocks_of (h : hasher_fn) (out inp n : Z) (m m' : Z -> Z) : Prop :=
  match h with
  | F_sse => sha256_sse_of out inp (Z.to_nat n) m m'
  | _ => asm_call_of (routine_of h) out inp n m m'
  end.
End Code.
(** the library *)
Definition asm_call := asm_call_of image.
Definition hash_64b_blocks := hash_64b_blocks_of image.
End Process.
