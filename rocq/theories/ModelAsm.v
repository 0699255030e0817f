(** Common vocabulary of the transcriptions of the assembly files of /repo/ssz
    (ModelAsm1.v, ModelAsm4.v, ModelAsm8.v, ModelAsmNi.v).

    A NASM macro becomes a Coq function from the registers it names to a list of
    instructions; %rep becomes a [flat_map]; ROTATE_ARGS, which renames a...h, becomes
    a rotation of the tuple of register names. The transcription is for the System V
    ABI (WINABI not defined). "align" directives emit nothing that is executed other
    than no-operations, and are left out. *)
From Coq Require Import ZArith String List Bool.
From Verif Require Import Base ModelX86.
Import ListNotations.
Open Scope Z_scope.

(** Data sections: labels and the doublewords that follow them. *)
Definition data : Type := list (string * list Z).
Fixpoint offset (d : data) (l : string) : Z :=
  match d with
  | [] => 0
  | (l', ws) :: r => if String.eqb l l' then 0 else 4 * zlen ws + offset r l
  end.
Definition words_of (d : data) : list Z := flat_map (fun e : string * list Z => snd e) d.
(** dq and ddq: little endian *)
Definition dq (x : Z) : list Z := [w32 x; w32 (Z.shiftr x 32)].
Definition ddq (x : Z) : list Z :=
  [w32 x; w32 (Z.shiftr x 32); w32 (Z.shiftr x 64); w32 (Z.shiftr x 96)].

(** Section numbers: .data of sha256_avx_one_block.asm, sha256_avx.asm and
    sha256_avx2.asm, .rodata and .data of sha256_shani.asm. *)
Definition sec_1 : nat := 0%nat.
Definition sec_4 : nat := 1%nat.
Definition sec_8 : nat := 2%nat.
Definition sec_ni : nat := 3%nat.
Definition sec_ni_save : nat := 4%nat.

(** The registers called a, b, c, d, e, f, g, h at some point. *)
Definition regs8 : Type := (nat * nat * nat * nat * nat * nat * nat * nat)%type.
(** ROTATE_ARGS: sha256_avx_one_block.asm:170-180, sha256_avx.asm:162-172,
    sha256_avx2.asm (same text) *)
Definition ROTATE_ARGS (r : regs8) : regs8 :=
  let '(a, b, c, d, e, f, g, h) := r in (h, a, b, c, d, e, f, g).
Definition rot8 (n : nat) (r : regs8) : regs8 := Nat.iter n ROTATE_ARGS r.

(** [rep n f] is [f 0 ++ ... ++ f (n - 1)] *)
Definition rep {A} (n : nat) (f : nat -> list A) : list A := flat_map f (seq 0 n).
