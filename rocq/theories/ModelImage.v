(** The program: the four assembly files of /repo/ssz, linked together. *)
From Coq Require Import ZArith String List Bool.
From Verif Require Import Base ModelX86 ModelAsm ModelAsm1 ModelAsm4 ModelAsm8 ModelAsmNi.
Import ListNotations.
Open Scope list_scope.
Open Scope Z_scope.

(** CMakeLists.txt:71-74 links sha256_avx_one_block.asm, sha256_avx.asm,
    sha256_avx2.asm and sha256_shani.asm into one program; the order of the text
    sections is not observable, since code addresses are only used to return. *)
Definition image : list instr := code_1 ++ code_4 ++ code_8 ++ code_ni.
(** The contents of the data sections, by section number. *)
Definition sections : list data := [data_1; data_4; data_8; data_ni; data_ni_save].
Definition section_bytes (s : nat) : list Z := to_bytes (words_of (nth s sections [])).
