(** What the tests of the hashers reach, and programs they cannot tell apart. *)
From Coq Require Import ZArith String List Bool.
From Verif Require Import Base ModelX86 ModelImage SpecAsm ModelHasher ModelShaTest.
Import ListNotations.
Open Scope list_scope.
Open Scope Z_scope.

(** [d] places after the label [l] of the library *)
Definition after (l : string) (d : Z) : Z :=
  match find_label l image 0 with Some p => p + d | None => 0 end.
(** The code for the blocks that are left over: the loop of sha256_4_avx that hashes
    single blocks, and the code of sha256_shani for a single block, in both cases
    without the test whether there is such a block. *)
Definition leftover (p : Z) : Prop :=
  after "sha256_4_avx.hash_1_block" 3 <= p < after "sha256_4_avx.done_hash" 0 \/
  after "sha256_shani.hash_1_block" 3 <= p < after "sha256_shani.done_hash" 0.
(** A program with the labels of the library, and with its instructions outside of [A]. *)
Record same_outside (A : Z -> Prop) (code : list instr) : Prop := {
  O_length : length code = length image;
  O_labels : forall l, find_label l code 0 = find_label l image 0;
  O_code : forall p, ~ A p -> fetch code p = fetch image p }.

(** Some call of the test [t] executes the instruction at [p]. *)
Definition reaches (t : sha_test) (p : Z) : Prop :=
  exists c h readable writable sect st j st',
  Hasher c (t_impl t) = Ok h /\ let f := routine_of h in
  call readable writable sect (r_consts f) (r_scratch f) (r_depth f) (t_blocks t) st /\
  find_label (r_name f) image 0 = Some (pc st) /\
  match h with F_sse => t_blocks t = 1 | _ => getr st rdx = t_blocks t end /\
  fetch image (le_val (bytes_at (mem st) (getr st rsp) 8)) = None /\
  steps readable writable sect image j st = Some st' /\ pc st' = p /\ fetch image p <> None.
(** The test [t] is not skipped on [c], in any process. *)
Definition not_skipped (c : cpu) (t : sha_test) : Prop :=
  7 <= c_max c /\ forall readable writable sect (own : Z -> Prop) code digest block m,
  ~ test_runs c readable writable sect own code t digest block m (Ok None).
