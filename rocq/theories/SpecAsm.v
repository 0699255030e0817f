(** What a caller may expect of the assembly routines of /repo/ssz (declared in
    hasher.hpp:27-29 and hasher.cpp:27 as
    [extern "C" void sha256_...(unsigned char* output, const unsigned char* input, std::size_t blocks)],
    [sha256_1_avx] without the last parameter), independently of the code: the System V
    calling convention and SHA-256. *)
From Coq Require Import ZArith String List Bool.
From Verif Require Import Base SpecSha ModelX86 ModelImage.
Import ListNotations.
Open Scope list_scope.
Open Scope Z_scope.

(** ** Areas of memory: address of the first byte, number of bytes *)
Definition area : Type := (Z * Z)%type.
Definition inside (x : Z) (a : area) : Prop := fst a <= x < fst a + snd a.
Definition apart (a b : area) : Prop := forall x, inside x a -> inside x b -> False.
Definition bytes_at (m : Z -> Z) (a : Z) (n : nat) : list Z :=
  map (fun i => m (a + Z.of_nat i)) (seq 0 n).
Definition section_area (sect : nat -> Z) (s : nat) : area := (sect s, zlen (section_bytes s)).

(** ** Machine states *)
Record valid (st : state) : Prop := {
  V_gpr : length (gpr st) = 16%nat;
  V_u64 : Forall (fun x => 0 <= x < 2 ^ 64) (gpr st);
  V_ymm : length (ymm st) = 16%nat;
  V_dw : Forall (fun v => length v = 8%nat) (ymm st);
  V_mem : forall x, 0 <= mem st x < 256 }.

(** ** A call of one of the routines

    [st] is the state at the first instruction: the return address has been pushed,
    the arguments are in rdi, rsi and rdx. The routine needs the data sections
    [consts], owns the data sections [scratch] and [depth] bytes of stack below the
    return address. *)
Section Call.
Variables readable writable : Z -> bool.
Variable sect : nat -> Z.
Variables consts scratch : list nat.
Variable depth : Z.
Variable n : Z.
Variable st : state.

Definition read_only : list area :=
  (getr st rsp, 8) :: (getr st rsi, 64 * n) :: map (section_area sect) consts.
Definition owned : list area :=
  (getr st rsp - depth, depth) :: (getr st rdi, 32 * n) :: map (section_area sect) scratch.

Record call : Prop := {
  C_valid : valid st;
  C_count : 0 <= n;
  (* arguments in a process's address space *)
  C_space : Forall (fun a => 0 <= fst a /\ fst a + snd a <= 2 ^ 64) (read_only ++ owned);
  C_read : Forall (fun a => forall x, inside x a -> readable x = true) (read_only ++ owned);
  C_write : Forall (fun a => forall x, inside x a -> writable x = true) owned;
  (* what is written does not overlap anything else *)
  C_owned : ForallOrdPairs apart owned;
  C_apart : Forall (fun a => Forall (apart a) read_only) owned;
  (* the stack is aligned before the call *)
  C_stack : getr st rsp mod 16 = 8 /\ getr st rsp + 8 < 2 ^ 64;
  (* sections are aligned and loaded *)
  C_align : Forall (fun s => sect s mod 64 = 0) (consts ++ scratch);
  C_consts : Forall (fun s => bytes_at (mem st) (sect s) (length (section_bytes s)) = section_bytes s) consts }.

(** ** After the call *)
Record returned (st' : state) : Prop := {
  E_valid : valid st';
  E_pc : pc st' = le_val (bytes_at (mem st) (getr st rsp) 8);
  E_rsp : getr st' rsp = getr st rsp + 8;
  E_saved : Forall (fun r => getr st' r = getr st r) [rbx; rbp; r12; r13; r14; r15];
  E_mem : forall x, Forall (fun a => ~ inside x a) owned -> mem st' x = mem st x }.

Definition hashed (st' : state) : Prop := forall i, 0 <= i < n ->
  bytes_at (mem st') (getr st rdi + 32 * i) 32
  = sha256 (bytes_at (mem st) (getr st rsi + 64 * i) 64).
End Call.

(** ** The routines *)
Record routine : Type := {
  r_name : string;
  r_consts : list nat;
  r_scratch : list nat;
  r_depth : Z }.
(** [f] called with [n] blocks returns, having hashed them. *)
Definition correct (f : routine) (count : state -> Z) : Prop :=
  forall rd wr sect st,
  call rd wr sect (r_consts f) (r_scratch f) (r_depth f) (count st) st ->
  find_label (r_name f) image 0 = Some (pc st) ->
  exists k st', steps rd wr sect image k st = Some st' /\
    returned sect (r_scratch f) (r_depth f) (count st) st st' /\ hashed (count st) st st'.
Definition sha256_1_avx : routine :=
  {| r_name := "sha256_1_avx"; r_consts := [0%nat]; r_scratch := []; r_depth := 120 |}.
Definition sha256_4_avx : routine :=
  {| r_name := "sha256_4_avx"; r_consts := [0%nat; 1%nat]; r_scratch := []; r_depth := 536 |}.
Definition sha256_8_avx2 : routine :=
  {| r_name := "sha256_8_avx2"; r_consts := [0%nat; 1%nat; 2%nat]; r_scratch := []; r_depth := 1720 |}.
Definition sha256_shani : routine :=
  {| r_name := "sha256_shani"; r_consts := [3%nat]; r_scratch := [4%nat]; r_depth := 0 |}.
