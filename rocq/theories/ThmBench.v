(** Property C54: the programs that measure the hashers. *)
From Coq Require Import ZArith String List Bool.
From Verif Require Import Base SpecSSZ SpecSha SpecSize SpecObj SpecTree SpecClasses SpecPhase0 SpecWire SpecUndef ModelSSZ ModelEth ModelHashTree ModelTree ModelX86 SpecAsm ModelHasher SpecHasher ModelBench
  Samples SamplesAsm LemMatch LemCheck LemThmFit LemSha LemExec LemBench.
Import ListNotations.
Open Scope string_scope.
Open Scope list_scope.
Open Scope Z_scope.

(** ** C54: what is returned for every file, with every hasher in every process, and that
    all ten rounds have computed the root. [accepts] and [undefined] are those of C10 and C41,
    [trees_fit] and [lenient_root] those of C13. *)
Theorem C54_exit : forall rd wr sect (own : Z -> Prop) h N HB t s size data,
  block_function rd wr sect own h N HB -> container_pair t s -> bytes_ok data ->
  0 <= size <= zlen data -> 1 <= N -> size <= 2 ^ 39 ->
  let b := firstn (Z.to_nat size) data in (forall v, accepts s b v -> breadth v <= N) ->
  let r := bench_sha256_impl HB t (Opened (Some size) data) in
  (forall roots, r = Ok (0, roots) <->
     exists v, accepts s b v /\ trees_fit s v = true /\ roots = repeat (lenient_root sha256 s v) 10) /\
  (forall roots, r = Ok (1, roots) <-> ~ undefined s b /\ ~ (exists v, accepts s b v) /\ roots = []) /\
  (r = UB <-> undefined s b \/ exists v, accepts s b v /\ trees_fit s v = false) /\
  (r = UB \/ exists code roots, r = Ok (code, roots) /\ (code = 0 \/ code = 1)).
Proof. exact run_exact. Qed.
Print Assumptions C54_exit.
(** In particular the encoding of a state gives the roots of the specification. *)
Theorem C54_state : forall rd wr sect (own : Z -> Prop) h N HB t s v rest,
  block_function rd wr sect own h N HB -> container_pair t s -> has_type s v -> offsets_fit s v -> bytes_ok rest ->
  1 <= N -> breadth v <= N -> zlen (serialize t v) <= 2 ^ 39 ->
  bench_sha256_impl HB t (Opened (Some (zlen (serialize t v))) (serialize t v ++ rest))
  = Ok (0, repeat (ssz_hash_tree_root sha256 s v) 10).
Proof. exact run_encoding. Qed.
Print Assumptions C54_state.
(** No file, too short a file or no argument: 1. *)
Theorem C54_nothing : forall HB t,
  bench_sha256_impl HB t Closed = Ok (1, []) /\
  (forall size data, zlen data < size -> bench_sha256_impl HB t (Opened (Some size) data) = Ok (1, [])) /\
  (forall open argv, zlen argv < 2 -> bench_main HB t open argv = Ok (1, [])) /\
  (forall open x path more, bench_main HB t open (x :: path :: more) = bench_sha256_impl HB t (open path)).
Proof. exact run_nothing. Qed.
Print Assumptions C54_nothing.
(** The extensions that the four programs need; they use them on every CPU. *)
Theorem C54_extensions : forall c name exts, In (name, exts)
    [("bench_sha256_SSE", [AVX]); ("bench_sha256_AVX", [AVX]); ("bench_sha256_AVX2", [AVX; AVX2]);
     ("bench_sha256_SHA", [SSE2; SSSE3; SSE4_1; SHA])] ->
  exists h, In (name, Ok h) (bench_programs c) /\ forall e, In e exts <-> exists i, executed h i /\ needs i = Some e.
Proof. exact bench_extensions. Qed.
Print Assumptions C54_extensions.
(** The empty state of the minimal configuration, in the sample process; a file that is
    rejected, and one on which the program is undefined. *)
Example C54_case :
  let t := tBeaconState minimal in let s := sBeaconState preset_minimal in
  (forall h, block_function s_ok s_ok s_sect s_own h 1000 (hash_pairs sha256)) /\
  container_pair t s /\ has_type s (default t) /\ offsets_fit s (default t) /\
  breadth (default t) = 64 /\ zlen (serialize t (default t)) = 7057 /\
  (forall HB, bench_sha256_impl HB t (Opened (Some 7056) (serialize t (default t))) = Ok (1, [])) /\
  (forall HB, bench_sha256_impl HB t (Opened (Some (zlen bad_state)) bad_state) = UB).
Proof.
  intros t s. assert (P : container_pair t s) by (apply pair_minimal with "BeaconState"; cbn; tauto).
  split; [exact s_block_function|]. split; [exact P|].
  split; [apply (matches_type t); [reflexivity|]; split; [apply wtb_wt; vm_compute; reflexivity|apply withinb_within; vm_compute; reflexivity]|].
  split; [apply (survives_containers t s _ (default t) P); [apply wtb_wt; vm_compute; reflexivity..|vm_compute; reflexivity]|].
  split; [vm_compute; reflexivity|]. split; [vm_compute; reflexivity|]. split; intros HB; vm_compute; reflexivity.
Qed.
