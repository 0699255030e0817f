(** What a CPU must offer to run the assembly, and what it means that a function from
    chunks to chunks is the one that a Hasher computes. *)
From Coq Require Import ZArith String List Bool.
From Verif Require Import Base SpecSSZ SpecSha ModelX86 ModelAsm1 ModelAsm4 ModelAsm8 ModelAsmNi ModelImage SpecAsm ModelHasher.
Import ListNotations.
Open Scope list_scope.
Open Scope Z_scope.

(** ** Instruction set extensions (Intel 64 Software Developer's Manual, volume 2) *)
Inductive extension : Type := SSE2 | SSSE3 | SSE4_1 | AVX | AVX2 | SHA.
(** CPUID: edx and ecx of leaf 1, ebx of leaf 7 *)
Definition reported (c : cpu) (e : extension) : bool :=
  match e with
  | SSE2 => (1 <=? c_max c) && Z.testbit (c_edx1 c) 26
  | SSSE3 => (1 <=? c_max c) && Z.testbit (c_ecx1 c) 9
  | SSE4_1 => (1 <=? c_max c) && Z.testbit (c_ecx1 c) 19
  | AVX => (1 <=? c_max c) && Z.testbit (c_ecx1 c) 28
  | AVX2 => (7 <=? c_max c) && Z.testbit (c_ebx7 c) 5
  | SHA => (7 <=? c_max c) && Z.testbit (c_ebx7 c) 29
  end.
(** the extension an operation belongs to in its legacy encoding *)
Definition legacy (op : vop) : extension :=
  match op with
  | PADDD | PXOR | PAND | POR | SHUFPS _ => SSE2
  | PSHUFB | PALIGNR _ => SSSE3
  | PBLENDW _ => SSE4_1
  | SHA256MSG1 | SHA256MSG2 => SHA
  end.
(** the extension an instruction needs *)
Definition needs (i : instr) : option extension :=
  match i with
  | IV SSE op _ _ _ => Some (legacy op)
  | IV V128 _ _ _ _ => Some AVX
  | IV V256 (SHUFPS _) _ _ _ => Some AVX
  | IV V256 _ _ _ _ => Some AVX2
  | IVu SSE _ _ _ => Some SSE2
  | IVu V128 _ _ _ | IVu V256 VMOV _ _ => Some AVX
  | IVu V256 _ _ _ => Some AVX2
  | IVLoad SSE _ _ _ | IVStore SSE _ _ _ => Some SSE2
  | IVLoad _ _ _ _ | IVStore _ _ _ _ => Some AVX
  | IVInsert128 _ _ _ _ => Some AVX2
  | IVPerm2f128 _ _ _ _ => Some AVX
  | ISha256rnds2 _ _ => Some SHA
  | _ => None
  end.
Definition runs_on (c : cpu) (i : instr) : bool :=
  match needs i with None => true | Some e => reported c e end.

(** The code behind a value of _hash_64b_blocks: its routine and the routines that
    one calls or jumps to. *)
Definition code_of (h : hasher_fn) : list instr :=
  match h with
  | F_sse => code_1
  | F_avx => code_4 ++ code_1
  | F_avx2 => code_8 ++ code_4 ++ code_1
  | F_shani => code_ni
  end.

(** The instructions that some call of the routine behind [h] executes: some process,
    some state at a call, some number of steps later. *)
Definition executed (h : hasher_fn) (i : instr) : Prop :=
  exists readable writable sect n st j st', let f := routine_of h in
  call readable writable sect (r_consts f) (r_scratch f) (r_depth f) n st /\
  find_label (r_name f) image 0 = Some (pc st) /\
  match h with F_sse => n = 1 | _ => getr st rdx = n end /\
  fetch image (le_val (bytes_at (mem st) (getr st rsp) 8)) = None /\
  steps readable writable sect image j st = Some st' /\ fetch image (pc st') = Some i.

(** ** Functions on chunks *)
Definition chunk_ok (c : list Z) : Prop := zlen c = 32 /\ bytes_ok c.
(** [HB l] is what hash_64b_blocks of [h] leaves at [out] when the chunks [l] are at
    [inp], in some run, for every [l] that makes 1 to [N] blocks. *)
Definition block_function (readable writable : Z -> bool) (sect : nat -> Z) (own : Z -> Prop)
    (h : hasher_fn) (N : Z) (HB : list (list Z) -> list (list Z)) : Prop :=
  forall l n, Forall chunk_ok l -> zlen l = 2 * n -> 1 <= n <= N ->
  exists out inp m m',
    (forall x, inside x (out, 32 * n) -> ~ own x) /\ (forall x, inside x (inp, 64 * n) -> ~ own x) /\
    apart (out, 32 * n) (inp, 64 * n) /\
    bytes_at m inp (length (concat l)) = concat l /\
    hash_64b_blocks readable writable sect own h out inp n m m' /\
    HB l = map (fun i => bytes_at m' (out + 32 * Z.of_nat i) 32) (seq 0 (Z.to_nat n)).
