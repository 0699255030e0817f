(** Property C50: the time a call of the SHA-256 assembly takes. *)
From Coq Require Import ZArith String List Bool Lia.
From Verif Require Import Base SpecSha ModelX86 SpecTime ModelImage SpecAsm SamplesAsm ModelHasher LemSha LemTime.
Import ListNotations.
Open Scope list_scope.
Open Scope Z_scope.

(** ** C50: two calls with the same pointers, the same number of blocks and the same
    stack pointer take the same number of steps; step by step they execute the same
    instructions and access the same addresses, whatever the memory (the input in
    particular), the other registers and the access rights. *)
Theorem C50_constant_time : forall f n sect rd1 wr1 st1 rd2 wr2 st2,
  In f [sha256_1_avx; sha256_4_avx; sha256_8_avx2; sha256_shani] ->
  (f = sha256_1_avx -> n = 1) -> (f = sha256_1_avx \/ getr st1 rdx = n) -> (f = sha256_1_avx \/ getr st2 rdx = n) ->
  call rd1 wr1 sect (r_consts f) (r_scratch f) (r_depth f) n st1 -> find_label (r_name f) image 0 = Some (pc st1) ->
  call rd2 wr2 sect (r_consts f) (r_scratch f) (r_depth f) n st2 -> find_label (r_name f) image 0 = Some (pc st2) ->
  getr st1 rdi = getr st2 rdi -> getr st1 rsi = getr st2 rsi -> getr st1 rsp = getr st2 rsp ->
  exists k st1' st2',
    steps rd1 wr1 sect image k st1 = Some st1' /\ returned sect (r_scratch f) (r_depth f) n st1 st1' /\
    steps rd2 wr2 sect image k st2 = Some st2' /\ returned sect (r_scratch f) (r_depth f) n st2 st2' /\
    forall j, (j < k)%nat -> option_map (leaked sect image) (steps rd1 wr1 sect image j st1)
                          = option_map (leaked sect image) (steps rd2 wr2 sect image j st2).
Proof. exact constant_time. Qed.
Print Assumptions C50_constant_time.

(** The number of instructions executed until the return, for every number of blocks. *)
Theorem C50_instructions : forall f c n rd wr sect st k st',
  In (f, c) [(sha256_1_avx, fun _ => 4053);
             (sha256_4_avx, fun n => 9 + 6153 * (n / 4) + 4060 * (n mod 4));
             (sha256_8_avx2, fun n => 27 + 6199 * (n / 8) + 6153 * (n mod 8 / 4) + 4060 * (n mod 4));
             (sha256_shani, fun n => 8 + 432 * (n / 2) + 231 * (n mod 2))] ->
  (f = sha256_1_avx -> n = 1) -> (f = sha256_1_avx \/ getr st rdx = n) ->
  call rd wr sect (r_consts f) (r_scratch f) (r_depth f) n st -> find_label (r_name f) image 0 = Some (pc st) ->
  fetch image (le_val (bytes_at (mem st) (getr st rsp) 8)) = None ->
  steps rd wr sect image k st = Some st' -> fetch image (pc st') = None ->
  instructions rd wr sect image k st = c n.
Proof. exact executed_count. Qed.
Print Assumptions C50_instructions.

(** In the sample process every input of up to 1000 blocks meets the conditions, the
    pointers being the same for all of them. *)
Example C50_case : forall f n bs, In f [sha256_1_avx; sha256_4_avx; sha256_8_avx2; sha256_shani] -> 0 <= n <= 1000 ->
  bytes_ok bs -> zlen bs = 64 * n -> let st := setm (s_load bs) (s_state f n 0) in
  call s_ok s_ok s_sect (r_consts f) (r_scratch f) (r_depth f) n st /\
  find_label (r_name f) image 0 = Some (pc st) /\ getr st rdx = n /\ bytes_at (mem st) (getr st rsi) (length bs) = bs /\
  fetch image (le_val (bytes_at (mem st) (getr st rsp) 8)) = None.
Proof. exact loaded. Qed.
(** What can be seen: the second instruction of sha256_4_avx saves rbx in the frame. *)
Example C50_seen : option_map (leaked s_sect image) (steps s_ok s_ok s_sect image 2 (s_state sha256_4_avx 5 0)) = Some (4057, [s_sp - 24]).
Proof. vm_compute. reflexivity. Qed.
