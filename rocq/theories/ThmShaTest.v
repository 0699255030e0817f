(** Properties C51 and C52: what the tests of the hashers show. *)
From Coq Require Import ZArith String List Bool Lia.
From Verif Require Import Base SpecSha ModelX86 ModelImage SpecAsm SamplesAsm ModelHasher SpecHasher ModelShaTest SpecShaTest LemSha LemShaTest.
Import ListNotations.
Open Scope list_scope.
Open Scope Z_scope.

(** ** C51: on every CPU and in every process the library passes the four tests, except
    that they are skipped without the extension, and undefined without cpuid leaf 7. *)
Theorem C51_passes : forall c rd wr sect (own : Z -> Prop) t present digest block m r,
  In (t, present) [(test_hash_sse_1, Z.testbit (c_ecx1 c) 0); (test_hash_avx_4, Z.testbit (c_ecx1 c) 28);
                   (test_hash_avx2_8, Z.testbit (c_ebx7 c) 5); (test_hash_shani, Z.testbit (c_ebx7 c) 29)] ->
  test_runs c rd wr sect own image t digest block m r ->
  (forall x, inside x (digest, 32 * t_blocks t) -> ~ own x) -> (forall x, inside x (block, 512) -> ~ own x) ->
  apart (digest, 32 * t_blocks t) (block, 512) -> bytes_at m block 512 = test_8_block ->
  r = if c_max c <? 7 then UB else if present then Ok (Some true) else Ok None.
Proof. exact test_passes. Qed.
Print Assumptions C51_passes.
(** Whatever assembly is linked, a test passes exactly if its blocks were hashed right. *)
Theorem C51_decides : forall c rd wr sect (own : Z -> Prop) code t present digest block m b,
  In (t, present) [(test_hash_sse_1, Z.testbit (c_ecx1 c) 0); (test_hash_avx_4, Z.testbit (c_ecx1 c) 28);
                   (test_hash_avx2_8, Z.testbit (c_ebx7 c) 5); (test_hash_shani, Z.testbit (c_ebx7 c) 29)] ->
  (test_runs c rd wr sect own code t digest block m (Ok (Some b)) <->
   7 <= c_max c /\ present = true /\ exists h m', Hasher c (t_impl t) = Ok h /\
     hash_64b_blocks_of rd wr sect own code h digest block (t_blocks t) m m' /\
     (b = true <-> forall i, 0 <= i < t_blocks t ->
        bytes_at m' (digest + 32 * i) 32 = sha256 (firstn 64 (skipn (Z.to_nat (64 * i)) test_8_block)))).
Proof. exact test_decides. Qed.
Print Assumptions C51_decides.
(** A routine that returns at once fails its test. *)
Example C51_decides_case :
  test_runs all_cpu s_ok s_ok s_sect s_own returning test_hash_shani s_out s_in (s_load test_8_block) (Ok (Some false)).
Proof. exact failing. Qed.
(** They do come to an end. *)
Theorem C51_returns : forall c rd wr sect (own : Z -> Prop) t h st, let f := routine_of h in
  In t (map snd TEST_LIST) -> Hasher c (t_impl t) = Ok h ->
  call rd wr sect (r_consts f) (r_scratch f) (r_depth f) (t_blocks t) st ->
  find_label (r_name f) image 0 = Some (pc st) -> (h = F_sse \/ getr st rdx = t_blocks t) ->
  (forall x, inside x (getr st rsp - r_depth f, r_depth f) -> own x) ->
  (forall s, In s (r_scratch f) -> forall x, inside x (section_area sect s) -> own x) ->
  fetch image (le_val (bytes_at (mem st) (getr st rsp) 8)) = None ->
  exists r, test_runs c rd wr sect own image t (getr st rdi) (getr st rsi) (mem st) r.
Proof. exact test_returns. Qed.
Print Assumptions C51_returns.
(** In the sample process every test runs on every CPU. *)
Example C51_case : forall c t h, In t (map snd TEST_LIST) -> Hasher c (t_impl t) = Ok h ->
  let m := s_load test_8_block in
  (exists r, test_runs c s_ok s_ok s_sect s_own image t s_out s_in m r) /\
  (forall x, inside x (s_out, 32 * t_blocks t) -> ~ s_own x) /\ (forall x, inside x (s_in, 512) -> ~ s_own x) /\
  apart (s_out, 32 * t_blocks t) (s_in, 512) /\ bytes_at m s_in 512 = test_8_block.
Proof. exact test_case. Qed.
Example C51_hashers : forall c, map (fun x => Hasher c (t_impl (snd x))) TEST_LIST = [Ok F_sse; Ok F_avx; Ok F_avx2; Ok F_shani].
Proof. reflexivity. Qed.

(** Some run of some test executes an instruction exactly if it is not in the code for
    the blocks left over, [leftover]: *)
Theorem C51_coverage : forall p, fetch image p <> None ->
  ((exists t, In t (map snd TEST_LIST) /\ reaches t p) <-> ~ leftover p).
Proof. exact coverage. Qed.
Print Assumptions C51_coverage.
(** 236 of the 13079 places in the program *)
Example C51_leftover : forall p, leftover p <-> 8197 <= p < 8202 \/ 12846 <= p < 13077.
Proof. intros p. rewrite leftover_spec. unfold leftoverb. rewrite orb_true_iff, !andb_true_iff, !Z.leb_le, !Z.ltb_lt. reflexivity. Qed.
Example C51_length : zlen image = 13079.
Proof. vm_compute. reflexivity. Qed.
(** so that the tests have the same results whatever is there, on every CPU and in every
    process; *)
Theorem C51_blind : forall rd wr sect (own : Z -> Prop) code, same_outside leftover code ->
  forall c t digest block m r, In t (map snd TEST_LIST) ->
  (test_runs c rd wr sect own code t digest block m r <-> test_runs c rd wr sect own image t digest block m r).
Proof. exact same_tests. Qed.
Print Assumptions C51_blind.
(** and there is a program that passes them all, but with three of the four hashers does
    not hash. *)
Theorem C51_wrong_program : exists code, same_outside leftover code /\
  forall h, In h [F_avx; F_avx2; F_shani] -> exists rd wr sect own out inp m m',
    hash_64b_blocks_of rd wr sect own code h out inp 1 m m' /\
    (forall x, inside x (out, 32) -> ~ own x) /\ (forall x, inside x (inp, 64) -> ~ own x) /\ apart (out, 32) (inp, 64) /\
    bytes_at m' out 32 <> sha256 (bytes_at m inp 64).
Proof. exact wrong_program. Qed.
Print Assumptions C51_wrong_program.

(** ** C52: that a test which is not skipped executes only instructions that the CPU
    reports is false: the test hash_avx_1 is guarded by SSE3 only. *)
Theorem C52_refuted : exists c p i, not_skipped c test_hash_sse_1 /\
  reported c SSE2 = true /\ reported c SSSE3 = true /\ reported c SSE4_1 = true /\
  reaches test_hash_sse_1 p /\ fetch image p = Some i /\ runs_on c i = false.
Proof. exact guard_wrong. Qed.
Print Assumptions C52_refuted.
(** Exactly what is needed besides the guard: *)
Theorem C52_exact_partial : forall c t exts, In (t, exts)
   [(test_hash_sse_1, [AVX]); (test_hash_avx_4, []); (test_hash_avx2_8, [AVX]); (test_hash_shani, [SSE2; SSSE3; SSE4_1])] ->
  not_skipped c t ->
  ((forall p i, reaches t p -> fetch image p = Some i -> runs_on c i = true) <-> Forall (fun e => reported c e = true) exts).
Proof. exact needs_exactly. Qed.
Print Assumptions C52_exact_partial.
Example C52_case : not_skipped all_cpu test_hash_shani /\
  reaches test_hash_shani 12827 /\ option_map needs (fetch image 12827) = Some (Some SSE4_1).
Proof.
  split; [apply guard_open with true; [right; right; right; left; reflexivity|vm_compute; discriminate|reflexivity]|].
  split; [|vm_compute; reflexivity]. apply (codes_reached _ F_shani); [cbn; auto|reflexivity|reflexivity|vm_compute; discriminate].
Qed.
