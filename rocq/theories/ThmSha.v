(** SHA-256 in assembly, the hasher, and roots computed with them (C29-C37, C48). *)
From Coq Require Import ZArith String List Bool.
From Verif Require Import Base SpecSSZ SpecSha ModelX86 ModelImage SpecAsm ModelHasher SpecHasher SpecConc
  ModelHashTree ModelSSZ ModelTree ModelEth SpecObj SpecTree SpecClasses SpecPhase0 Samples SamplesAsm LemMatch LemHasher LemConc LemThreads LemSha LemExec.
Import ListNotations.
Open Scope string_scope.
Open Scope list_scope.
Open Scope Z_scope.

(** The states of the examples: buffers at odd addresses, arbitrary registers. *)
Example sample_buffers :
  bytes_at s_mem s_in 8 = [3; 6; 9; 12; 15; 18; 21; 24] /\
  map (getr (s_state sha256_4_avx 5 0)) [rdi; rsi; rdx; rsp] = [131074; 65537; 5; 262152].
Proof. split; reflexivity. Qed.

(** ** C29: [call] is a state in which the routine has just been called. *)
Theorem C29_one_block : forall rd wr sect st,
  call rd wr sect [0%nat] [] 120 1 st -> find_label "sha256_1_avx" image 0 = Some (pc st) ->
  exists k st', steps rd wr sect image k st = Some st' /\
    pc st' = le_val (bytes_at (mem st) (getr st rsp) 8) /\
    bytes_at (mem st') (getr st rdi) 32 = sha256 (bytes_at (mem st) (getr st rsi) 64).
Proof. exact one_block. Qed.
Print Assumptions C29_one_block.
Example C29_case : call s_ok s_ok s_sect [0%nat] [] 120 1 (s_state sha256_1_avx 1 0) /\
  find_label "sha256_1_avx" image 0 = Some (pc (s_state sha256_1_avx 1 0)).
Proof. apply (s_call sha256_1_avx 1 0); cbn; auto; split; discriminate. Qed.

(** ** C30 *)
Theorem C30_four_lanes : forall rd wr sect st, let n := getr st rdx in
  call rd wr sect [0%nat; 1%nat] [] 536 n st -> find_label "sha256_4_avx" image 0 = Some (pc st) ->
  exists k st', steps rd wr sect image k st = Some st' /\
    pc st' = le_val (bytes_at (mem st) (getr st rsp) 8) /\
    forall i, 0 <= i < n -> bytes_at (mem st') (getr st rdi + 32 * i) 32 = sha256 (bytes_at (mem st) (getr st rsi + 64 * i) 64).
Proof. exact four_lanes. Qed.
Print Assumptions C30_four_lanes.
Example C30_case : call s_ok s_ok s_sect [0%nat; 1%nat] [] 536 7 (s_state sha256_4_avx 7 0) /\
  find_label "sha256_4_avx" image 0 = Some (pc (s_state sha256_4_avx 7 0)) /\ getr (s_state sha256_4_avx 7 0) rdx = 7.
Proof. split; [|split; [|reflexivity]]; apply (s_call sha256_4_avx 7 0); cbn; auto; split; discriminate. Qed.

(** ** C31 *)
Theorem C31_eight_lanes : forall rd wr sect st, let n := getr st rdx in
  call rd wr sect [0%nat; 1%nat; 2%nat] [] 1720 n st -> find_label "sha256_8_avx2" image 0 = Some (pc st) ->
  exists k st', steps rd wr sect image k st = Some st' /\
    pc st' = le_val (bytes_at (mem st) (getr st rsp) 8) /\
    forall i, 0 <= i < n -> bytes_at (mem st') (getr st rdi + 32 * i) 32 = sha256 (bytes_at (mem st) (getr st rsi + 64 * i) 64).
Proof. exact eight_lanes. Qed.
Print Assumptions C31_eight_lanes.
Example C31_case : call s_ok s_ok s_sect [0%nat; 1%nat; 2%nat] [] 1720 29 (s_state sha256_8_avx2 29 0) /\
  find_label "sha256_8_avx2" image 0 = Some (pc (s_state sha256_8_avx2 29 0)) /\ getr (s_state sha256_8_avx2 29 0) rdx = 29.
Proof. split; [|split; [|reflexivity]]; apply (s_call sha256_8_avx2 29 0); cbn; auto; split; discriminate. Qed.
(** and with a stack that is not aligned to 32 bytes *)
Example C31_case_unaligned : call s_ok s_ok s_sect [0%nat; 1%nat; 2%nat] [] 1720 29 (s_state sha256_8_avx2 29 1) /\
  find_label "sha256_8_avx2" image 0 = Some (pc (s_state sha256_8_avx2 29 1)) /\ (getr (s_state sha256_8_avx2 29 1) rsp - 8) mod 32 = 16.
Proof. split; [|split; [|reflexivity]]; apply (s_call sha256_8_avx2 29 1); cbn; auto; split; discriminate. Qed.

(** ** C32 *)
Theorem C32_sha_extensions : forall rd wr sect st, let n := getr st rdx in
  call rd wr sect [3%nat] [4%nat] 0 n st -> find_label "sha256_shani" image 0 = Some (pc st) ->
  exists k st', steps rd wr sect image k st = Some st' /\
    pc st' = le_val (bytes_at (mem st) (getr st rsp) 8) /\
    forall i, 0 <= i < n -> bytes_at (mem st') (getr st rdi + 32 * i) 32 = sha256 (bytes_at (mem st) (getr st rsi + 64 * i) 64).
Proof. exact sha_extensions. Qed.
Print Assumptions C32_sha_extensions.
Example C32_case : call s_ok s_ok s_sect [3%nat] [4%nat] 0 5 (s_state sha256_shani 5 0) /\
  find_label "sha256_shani" image 0 = Some (pc (s_state sha256_shani 5 0)) /\ getr (s_state sha256_shani 5 0) rdx = 5.
Proof. split; [|split; [|reflexivity]]; apply (s_call sha256_shani 5 0); cbn; auto; split; discriminate. Qed.

(** ** C33: whatever the two hashers, and wherever the buffers, equal blocks give equal
    digests; they are the SHA-256 digests; and the call returns. *)
Theorem C33_agree : forall n rd1 wr1 sect1 (own1 : Z -> Prop) h1 out1 inp1 m1 m1' rd2 wr2 sect2 (own2 : Z -> Prop) h2 out2 inp2 m2 m2',
  0 <= n ->
  hash_64b_blocks rd1 wr1 sect1 own1 h1 out1 inp1 n m1 m1' ->
  hash_64b_blocks rd2 wr2 sect2 own2 h2 out2 inp2 n m2 m2' ->
  (forall x, inside x (out1, 32 * n) -> ~ own1 x) -> (forall x, inside x (inp1, 64 * n) -> ~ own1 x) ->
  apart (out1, 32 * n) (inp1, 64 * n) ->
  (forall x, inside x (out2, 32 * n) -> ~ own2 x) -> (forall x, inside x (inp2, 64 * n) -> ~ own2 x) ->
  apart (out2, 32 * n) (inp2, 64 * n) ->
  (forall j, 0 <= j < 64 * n -> m1 (inp1 + j) = m2 (inp2 + j)) ->
  forall j, 0 <= j < 32 * n -> m1' (out1 + j) = m2' (out2 + j).
Proof. exact hashers_agree. Qed.
Print Assumptions C33_agree.
Theorem C33_digests : forall rd wr sect (own : Z -> Prop) h out inp n m m', 0 <= n ->
  hash_64b_blocks rd wr sect own h out inp n m m' ->
  (forall x, inside x (out, 32 * n) -> ~ own x) -> (forall x, inside x (inp, 64 * n) -> ~ own x) ->
  apart (out, 32 * n) (inp, 64 * n) ->
  (forall i, 0 <= i < n -> bytes_at m' (out + 32 * i) 32 = sha256 (bytes_at m (inp + 64 * i) 64)) /\
  (forall x, ~ own x -> ~ inside x (out, 32 * n) -> m' x = m x).
Proof. exact blocks_digested. Qed.
Print Assumptions C33_digests.
Theorem C33_returns : forall rd wr sect (own : Z -> Prop) h n st, let f := routine_of h in
  call rd wr sect (r_consts f) (r_scratch f) (r_depth f) n st ->
  find_label (r_name f) image 0 = Some (pc st) -> (h = F_sse \/ getr st rdx = n) ->
  (forall x, inside x (getr st rsp - r_depth f, r_depth f) -> own x) ->
  (forall s, In s (r_scratch f) -> forall x, inside x (section_area sect s) -> own x) ->
  fetch image (le_val (bytes_at (mem st) (getr st rsp) 8)) = None ->
  exists m', hash_64b_blocks rd wr sect own h (getr st rdi) (getr st rsi) n (mem st) m'.
Proof. exact blocks_return. Qed.
Print Assumptions C33_returns.
(** In the sample process all four hashers run on every input of 1 to 1000 blocks. *)
Example C33_case : forall h l n, Forall chunk_ok l -> zlen l = 2 * n -> 1 <= n <= 1000 ->
  exists out inp m m', hash_64b_blocks s_ok s_ok s_sect s_own h out inp n m m' /\
    (forall x, inside x (out, 32 * n) -> ~ s_own x) /\ (forall x, inside x (inp, 64 * n) -> ~ s_own x) /\
    apart (out, 32 * n) (inp, 64 * n) /\ bytes_at m inp (length (concat l)) = concat l.
Proof.
  intros h l n F L N. destruct (s_block_function h l n F L N) as (out & inp & m & m' & A & B & C & D & E & _).
  exists out, inp, m, m'. auto.
Qed.

(** ** C34 *)
Theorem C34_calling_convention : forall f n rd wr sect st,
  In f [sha256_1_avx; sha256_4_avx; sha256_8_avx2; sha256_shani] ->
  (f = sha256_1_avx -> n = 1) -> (f = sha256_1_avx \/ getr st rdx = n) ->
  call rd wr sect (r_consts f) (r_scratch f) (r_depth f) n st -> find_label (r_name f) image 0 = Some (pc st) ->
  exists k st', steps rd wr sect image k st = Some st' /\
    pc st' = le_val (bytes_at (mem st) (getr st rsp) 8) /\ getr st' rsp = getr st rsp + 8 /\
    (forall r, In r [rbx; rbp; r12; r13; r14; r15] -> getr st' r = getr st r).
Proof. exact convention. Qed.
Print Assumptions C34_calling_convention.
(** At every moment of the call the memory outside the stack frame below the return
    address, the output and the variables of the routine is as it was. *)
Theorem C34_memory : forall f n rd wr sect st,
  In f [sha256_1_avx; sha256_4_avx; sha256_8_avx2; sha256_shani] ->
  (f = sha256_1_avx -> n = 1) -> (f = sha256_1_avx \/ getr st rdx = n) ->
  call rd wr sect (r_consts f) (r_scratch f) (r_depth f) n st -> find_label (r_name f) image 0 = Some (pc st) ->
  fetch image (le_val (bytes_at (mem st) (getr st rsp) 8)) = None ->
  forall j st', steps rd wr sect image j st = Some st' ->
  forall x, ~ (getr st rsp - r_depth f <= x < getr st rsp) -> ~ (getr st rdi <= x < getr st rdi + 32 * n) ->
    (forall s, In s (r_scratch f) -> ~ inside x (section_area sect s)) -> mem st' x = mem st x.
Proof. exact memory_kept. Qed.
Print Assumptions C34_memory.
Example C34_case : forall f n, In f [sha256_1_avx; sha256_4_avx; sha256_8_avx2; sha256_shani] -> 0 <= n <= 1000 ->
  call s_ok s_ok s_sect (r_consts f) (r_scratch f) (r_depth f) n (s_state f n 0) /\
  find_label (r_name f) image 0 = Some (pc (s_state f n 0)) /\ getr (s_state f n 0) rdx = n /\
  fetch image (le_val (bytes_at (mem (s_state f n 0)) (getr (s_state f n 0) rsp) 8)) = None.
Proof.
  intros f n F N. destruct (s_call f n 0 F N ltac:(split; discriminate)) as [A B].
  split; [exact A|]. split; [exact B|]. split; [reflexivity|]. apply (s_returns f n 0). split; discriminate.
Qed.

(** ** C35. Full claim: two calls with disjoint buffers and stacks are both correct, in
    every interleaving. False for sha256_shani, which keeps state in global variables:
    here both calls return, and the first digest of the first thread is wrong. *)
Theorem C35_refuted : exists a b m schedule a' b' m',
  call s_ok s_ok s_sect [3%nat] [4%nat] 0 2 a /\ call s_ok s_ok s_sect [3%nat] [4%nat] 0 2 b /\
  find_label "sha256_shani" image 0 = Some (pc a) /\ find_label "sha256_shani" image 0 = Some (pc b) /\
  getr a rdx = 2 /\ getr b rdx = 2 /\ mem a = m /\ mem b = m /\
  Forall (fun x => Forall (apart x) (buffers sha256_shani 2 b)) (buffers sha256_shani 2 a) /\
  interleave s_ok s_ok s_sect schedule a b m = Some (a', b', m') /\
  pc a' = le_val (bytes_at m (getr a rsp) 8) /\ pc b' = le_val (bytes_at m (getr b rsp) 8) /\
  bytes_at m' (getr a rdi) 32 <> sha256 (bytes_at m (getr a rsi) 64).
Proof. exact shani_race. Qed.
Print Assumptions C35_refuted.
(** It holds when neither call writes to what the other uses: for any two of the other
    routines, and for sha256_shani beside another routine, that is when stacks and
    outputs are disjoint from the other's. No interleaving faults, and each thread
    that got enough turns has returned with its digests in place. *)
Theorem C35_interleaved_partial : forall rd wr sect f g n1 n2 a b m,
  In f [sha256_1_avx; sha256_4_avx; sha256_8_avx2; sha256_shani] -> (f = sha256_1_avx -> n1 = 1) -> (f = sha256_1_avx \/ getr a rdx = n1) ->
  In g [sha256_1_avx; sha256_4_avx; sha256_8_avx2; sha256_shani] -> (g = sha256_1_avx -> n2 = 1) -> (g = sha256_1_avx \/ getr b rdx = n2) ->
  mem a = m -> mem b = m ->
  call rd wr sect (r_consts f) (r_scratch f) (r_depth f) n1 a -> find_label (r_name f) image 0 = Some (pc a) ->
  call rd wr sect (r_consts g) (r_scratch g) (r_depth g) n2 b -> find_label (r_name g) image 0 = Some (pc b) ->
  fetch image (le_val (bytes_at m (getr a rsp) 8)) = None -> fetch image (le_val (bytes_at m (getr b rsp) 8)) = None ->
  keeps_off sect f n1 a g n2 b -> keeps_off sect g n2 b f n1 a ->
  exists N, forall schedule, exists a' b' m', interleave rd wr sect schedule a b m = Some (a', b', m') /\
    ((N <= turns true schedule)%nat ->
       pc a' = le_val (bytes_at m (getr a rsp) 8) /\ getr a' rsp = getr a rsp + 8 /\
       Forall (fun r => getr a' r = getr a r) [rbx; rbp; r12; r13; r14; r15] /\
       forall i, 0 <= i < n1 -> bytes_at m' (getr a rdi + 32 * i) 32 = sha256 (bytes_at m (getr a rsi + 64 * i) 64)) /\
    ((N <= turns false schedule)%nat ->
       pc b' = le_val (bytes_at m (getr b rsp) 8) /\ getr b' rsp = getr b rsp + 8 /\
       Forall (fun r => getr b' r = getr b r) [rbx; rbp; r12; r13; r14; r15] /\
       forall i, 0 <= i < n2 -> bytes_at m' (getr b rdi + 32 * i) 32 = sha256 (bytes_at m (getr b rsi + 64 * i) 64)) /\
    (forall x, Forall (fun o => ~ inside x o) (owned sect (r_scratch f) (r_depth f) n1 a) ->
               Forall (fun o => ~ inside x o) (owned sect (r_scratch g) (r_depth g) n2 b) -> m' x = m x).
Proof. exact two_calls. Qed.
Print Assumptions C35_interleaved_partial.
(** Two threads using the eight-lane routine at once; and one of them sha256_shani. *)
Example C35_case : forall g, In g [sha256_8_avx2; sha256_shani] ->
  let a := s_state sha256_8_avx2 29 0 in let b := s_state g 13 1 in
  mem a = mem b /\
  call s_ok s_ok s_sect [0%nat; 1%nat; 2%nat] [] 1720 29 a /\ find_label "sha256_8_avx2" image 0 = Some (pc a) /\
  call s_ok s_ok s_sect (r_consts g) (r_scratch g) (r_depth g) 13 b /\ find_label (r_name g) image 0 = Some (pc b) /\
  fetch image (le_val (bytes_at (mem a) (getr a rsp) 8)) = None /\ fetch image (le_val (bytes_at (mem a) (getr b rsp) 8)) = None /\
  keeps_off s_sect sha256_8_avx2 29 a g 13 b /\ keeps_off s_sect g 13 b sha256_8_avx2 29 a.
Proof. exact s_two. Qed.

(** The same for any number of threads, each making any number of calls with other
    code in between (so also the loop of sha256_sse around sha256_1_avx). [private i]
    is the data of thread [i], which includes the variables of sha256_shani if the
    thread calls it: no two threads may. Every schedule runs without a fault, and a
    thread that got enough turns has done to its data what it does alone. *)
Theorem C35_threads_partial : forall rd wr sect shared (private : nat -> Z -> bool) ts m,
  bytes_mem m ->
  (forall i t, nth_error ts i = Some t -> fetch image (pc (t_state t)) = None /\
     Forall (job_ok sect (private i) shared m) (t_todo t) /\
     (forall x, private i x || shared x = true -> rd x = true) /\ (forall x, private i x = true -> wr x = true)) ->
  (forall i x, private i x = true -> shared x = false) ->
  (forall i j x, i <> j -> private i x = true -> private j x = false) ->
  exists N, forall schedule, exists ts' m', turns_taken rd wr sect schedule ts m = Some (ts', m') /\
    (forall i t, nth_error ts i = Some t -> (N <= count_occ Nat.eq_dec schedule i)%nat ->
       exists t' mi, nth_error ts' i = Some t' /\ t_todo t' = [] /\ fetch image (pc (t_state t')) = None /\
         served sect (t_todo t) m mi /\ (forall x, private i x = true -> m' x = mi x)) /\
    (forall x, (forall i, private i x = false) -> m' x = m x).
Proof. exact many_threads. Qed.
Print Assumptions C35_threads_partial.
(** Two threads; the first uses three routines, and before each call copies its last
    digest to its input; the second uses sha256_shani. *)
Example C35_threads_case :
  (bytes_mem s_mem /\
   (forall i t, nth_error s_threads i = Some t -> fetch image (pc (t_state t)) = None /\
     Forall (job_ok s_sect (s_private i) s_shared s_mem) (t_todo t) /\
     (forall x, s_private i x || s_shared x = true -> s_ok x = true) /\ (forall x, s_private i x = true -> s_ok x = true))) /\
  (forall i x, s_private i x = true -> s_shared x = false) /\
  (forall i j x, i <> j -> s_private i x = true -> s_private j x = false) /\
  map (fun t => map (fun j => r_name (j_routine j)) (t_todo t)) s_threads
  = [["sha256_1_avx"; "sha256_8_avx2"; "sha256_4_avx"]; ["sha256_shani"; "sha256_shani"]].
Proof. split; [exact s_threads_ok|]. split; [exact (proj1 s_disjoint)|]. split; [exact (proj2 s_disjoint)|]. reflexivity. Qed.

(** ** C36. Full claim: the hasher that the default constructor chooses only executes
    instructions of extensions that cpuid reports. False: a CPU with SSE4.1 and
    without AVX gets code that executes AVX instructions; and on a CPU without leaf 7
    an uninitialised variable is read. *)
Theorem C36_refuted : exists c st k st' i,
  reported c SSE2 = true /\ reported c SSSE3 = true /\ reported c SSE4_1 = true /\ 7 <= c_max c /\
  best_sha256_implementation c = Ok F_sse /\
  call s_ok s_ok s_sect [0%nat] [] 120 1 st /\ find_label (r_name (routine_of F_sse)) image 0 = Some (pc st) /\
  steps s_ok s_ok s_sect image k st = Some st' /\ fetch image (pc st') = Some i /\ runs_on c i = false.
Proof. exact no_avx. Qed.
Print Assumptions C36_refuted.
Theorem C36_refuted_leaf7 : forall c, c_max c < 7 -> best_sha256_implementation c = UB.
Proof. exact best_leaf. Qed.
Print Assumptions C36_refuted_leaf7.
(** Exactly when it holds, for every instruction that some call of the chosen routine
    executes ([executed] quantifies over processes, states at the call and steps): *)
Theorem C36_exact_partial : forall c h, best_sha256_implementation c = Ok h ->
  ((forall i, executed h i -> runs_on c i = true) <->
   if reported c SHA then reported c SSE2 = true /\ reported c SSSE3 = true /\ reported c SSE4_1 = true
   else reported c AVX = true).
Proof. exact best_executes. Qed.
Print Assumptions C36_exact_partial.
(** No call executes anything outside of the text of its routine. *)
Theorem C36_code : forall h i, executed h i -> In i (code_of h).
Proof. exact executed_code. Qed.
Print Assumptions C36_code.
Example C36_case :
  let skylake := {| c_max := 22; c_ecx1 := 2 ^ 0 + 2 ^ 9 + 2 ^ 19 + 2 ^ 28; c_edx1 := 2 ^ 26; c_ebx7 := 2 ^ 5 |} in
  let goldmont := {| c_max := 21; c_ecx1 := 2 ^ 0 + 2 ^ 9 + 2 ^ 19; c_edx1 := 2 ^ 26; c_ebx7 := 2 ^ 29 |} in
  best_sha256_implementation skylake = Ok F_avx2 /\ forallb (runs_on skylake) (code_of F_avx2) = true /\
  best_sha256_implementation goldmont = Ok F_shani /\ forallb (runs_on goldmont) (code_of F_shani) = true /\
  forallb (runs_on goldmont) (code_of F_sse) = false /\
  (exists i, executed F_shani i /\ needs i = Some SSSE3) /\ (exists i, executed F_sse i /\ needs i = Some AVX).
Proof.
  repeat split; [vm_compute; reflexivity..| |].
  - exact (executes F_shani _ _ (proj1 (proj2 at_ni))).
  - exact (executes F_sse _ _ at_1).
Qed.

(** ** C37. [HB] is the function on chunks that a hasher computes ([block_function]). *)
Theorem C37_root : forall rd wr sect (own : Z -> Prop) h N HB t s v,
  block_function rd wr sect own h N HB -> 1 <= N -> breadth v <= N ->
  container_pair t s -> has_type s v ->
  hash_tree_root HB t v = Ok (ssz_hash_tree_root sha256 s v).
Proof. exact root_sha_containers. Qed.
Print Assumptions C37_root.
Theorem C37_root_any : forall rd wr sect (own : Z -> Prop) h N HB t s v,
  block_function rd wr sect own h N HB -> 1 <= N -> breadth v <= N ->
  wf t = true -> hashable t = true -> matches t s = true -> has_type s v ->
  hash_tree_root HB t v = Ok (ssz_hash_tree_root sha256 s v).
Proof. exact root_sha. Qed.
Print Assumptions C37_root_any.
(** Every hasher computes such a function in the sample process, up to 1000 blocks. *)
Example C37_case : (forall h, block_function s_ok s_ok s_sect s_own h 1000 (hash_pairs sha256)) /\
  breadth smp_body = 96 /\
  hash_tree_root (hash_pairs sha256) tFork smp_fork = Ok (be_bytes 32
    0x4f0973798f8b8a7a696112202774898eec34a17fc97fe08ec840daf43825cc7a).
Proof. split; [exact s_block_function|]. split; vm_compute; reflexivity. Qed.

(** ** C48: the implementation that the caller asks for is the one that is called; the
    instructions that its calls execute are of exactly these extensions. *)
Theorem C48_requested : forall c impl name exts,
  In (impl, name, exts)
    [(1, "sha256_1_avx", [AVX]); (2, "sha256_4_avx", [AVX]); (4, "sha256_8_avx2", [AVX; AVX2]);
     (8, "sha256_shani", [SSE2; SSSE3; SSE4_1; SHA])] ->
  exists h, Hasher c impl = Ok h /\ r_name (routine_of h) = name /\
    forall e, In e exts <-> exists i, executed h i /\ needs i = Some e.
Proof. exact requested. Qed.
Print Assumptions C48_requested.
(** Otherwise it is the first that cpuid reports in the order SHA, AVX2, AVX. *)
Theorem C48_default : forall c impl, ~ In impl [1; 2; 4; 8] -> 7 <= c_max c ->
  exists h, Hasher c impl = Ok h /\
    r_name (routine_of h) =
      (if reported c SHA then "sha256_shani" else if reported c AVX2 then "sha256_8_avx2"
       else if reported c AVX then "sha256_4_avx" else "sha256_1_avx").
Proof. exact not_requested. Qed.
Print Assumptions C48_default.
Example C48_case :
  let zen := {| c_max := 16; c_ecx1 := 2 ^ 0 + 2 ^ 9 + 2 ^ 19 + 2 ^ 28; c_edx1 := 2 ^ 26; c_ebx7 := 2 ^ 5 + 2 ^ 29 |} in
  map (Hasher zen) [0; 1; 2; 4; 8; 3] = map Ok [F_shani; F_sse; F_avx; F_avx2; F_shani; F_shani] /\
  (exists i, executed F_avx2 i /\ needs i = Some AVX2).
Proof. split; [vm_compute; reflexivity|]. apply (executed_uses F_avx2 AVX2). cbn. tauto. Qed.
