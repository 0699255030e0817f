(** What the duration of a run of the assembly may depend on, in the usual model of
    timing side channels: which instructions are executed, and which addresses they
    access. *)
From Coq Require Import ZArith String List Bool.
From Verif Require Import Base ModelX86.
Import ListNotations.
Open Scope list_scope.
Open Scope Z_scope.

(** the address of the memory operand of an instruction; no instruction has two *)
Definition accessed (sect : nat -> Z) (st : state) (i : instr) : list Z :=
  match i with
  | IAlu32 _ _ (M32 a) | IStore32 a _ | ILoad64 _ a | IStore64 a _ | IAnd64 _ a
  | IV _ _ _ _ (MV a) | IVLoad _ _ _ a | IVStore _ _ a _ | IVInsert128 _ _ a _ => [ea sect st a]
  | IPush _ | ICall _ => [w64 (getr st rsp - 8)]
  | IPop _ | IRet => [getr st rsp]
  | _ => []
  end.
(** what can be seen of a state from outside: the instruction and the address *)
Definition leaked (sect : nat -> Z) (code : list instr) (st : state) : Z * list Z :=
  (pc st, match fetch code (pc st) with Some i => accessed sect st i | None => [] end).
(** Labels are instructions of the model only. (The padding that [align] directives
    leave in the code is not in the model.) *)
Definition is_instruction (code : list instr) (p : Z) : bool :=
  match fetch code p with Some (ILabel _) | None => false | Some _ => true end.
(** the states before each of the first [k] steps *)
Fixpoint states (rd wr : Z -> bool) (sect : nat -> Z) (code : list instr) (k : nat) (st : state) : list state :=
  match k with
  | O => []
  | S k' => st :: match step rd wr sect code st with Some st' => states rd wr sect code k' st' | None => [] end
  end.
(** the number of instructions executed in the first [k] steps *)
Definition instructions (rd wr : Z -> bool) (sect : nat -> Z) (code : list instr) (k : nat) (st : state) : Z :=
  zlen (filter (fun s => is_instruction code (pc s)) (states rd wr sect code k st)).
