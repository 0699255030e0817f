(** What can be seen of a call, and how many instructions it executes. *)
From Coq Require Import ZArith String List Bool Lia ZifyBool ZifyNat.
From Verif Require Import Base SpecSha ModelX86 SpecTime ModelImage LemBase SymX86 LemSymX86 SymFrag LemSymFrag SpecAsm FragAsm CheckAsm LemPiece
  LemAsm LemAsm8 ModelHasher SamplesAsm LemHasher LemDigest LemSha LemExec.
Import ListNotations.
Open Scope list_scope.
Open Scope Z_scope.
Ltac Zify.zify_post_hook ::= Z.div_mod_to_equations.

Section States.
Variables RD WR : Z -> bool.
Variable sect : nat -> Z.
Notation steps := (steps RD WR sect image).
Notation states := (states RD WR sect image).
Lemma states_len k : forall st e, steps k st = Some e -> length (states k st) = k.
Proof.
  induction k as [|k IH]; intros st e; cbn [ModelX86.steps SpecTime.states length]; [reflexivity|].
  destruct (step RD WR sect image st) as [s|]; cbn [obind]; [|discriminate]. intros E. now rewrite (IH s e E).
Qed.
Lemma states_nth k : forall st e j, steps k st = Some e -> (j < k)%nat -> nth_error (states k st) j = steps j st.
Proof.
  induction k as [|k IH]; intros st e j E J; [lia|]. cbn [ModelX86.steps SpecTime.states] in *.
  destruct (step RD WR sect image st) as [s|] eqn:S; cbn [obind] in E; [|discriminate].
  destruct j as [|j]; [reflexivity|]. cbn [nth_error ModelX86.steps]. rewrite S. cbn [obind]. apply (IH s e); [exact E|lia].
Qed.
Lemma halts_once k k' st e e' : steps k st = Some e -> steps k' st = Some e' -> fetch image (pc e) = None -> fetch image (pc e') = None -> k = k'.
Proof.
  assert (G : forall k k' e e', steps k st = Some e -> steps k' st = Some e' -> fetch image (pc e) = None -> (k' <= k)%nat).
  { clear. intros k k' e e' E E' H. destruct (Nat.le_gt_cases k' k) as [L|L]; [exact L|exfalso].
    replace k' with (k + S (k' - k - 1))%nat in E' by lia. rewrite steps_app, E in E'. cbn [obind ModelX86.steps] in E'.
    unfold step in E'. rewrite H in E'. discriminate E'. }
  intros E E' H H'. pose proof (G _ _ _ _ E E' H). pose proof (G _ _ _ _ E' E H'). lia.
Qed.
End States.
Lemma routine_h f : In f [sha256_1_avx; sha256_4_avx; sha256_8_avx2; sha256_shani] -> exists h, routine_of h = f.
Proof. intros [<-|[<-|[<-|[<-|[]]]]]; [exists F_sse|exists F_avx|exists F_avx2|exists F_shani]; reflexivity. Qed.
Lemma args_h h n st : (routine_of h = sha256_1_avx -> n = 1) -> (routine_of h = sha256_1_avx \/ getr st rdx = n) ->
  match h with F_sse => n = 1 | _ => getr st rdx = n end.
Proof. destruct h; cbn [routine_of]; intros A [B|B]; auto; discriminate B. Qed.

Lemma constant_time f n sect rd1 wr1 st1 rd2 wr2 st2 :
  In f [sha256_1_avx; sha256_4_avx; sha256_8_avx2; sha256_shani] ->
  (f = sha256_1_avx -> n = 1) -> (f = sha256_1_avx \/ getr st1 rdx = n) -> (f = sha256_1_avx \/ getr st2 rdx = n) ->
  call rd1 wr1 sect (r_consts f) (r_scratch f) (r_depth f) n st1 -> find_label (r_name f) image 0 = Some (pc st1) ->
  call rd2 wr2 sect (r_consts f) (r_scratch f) (r_depth f) n st2 -> find_label (r_name f) image 0 = Some (pc st2) ->
  getr st1 rdi = getr st2 rdi -> getr st1 rsi = getr st2 rsi -> getr st1 rsp = getr st2 rsp ->
  exists k st1' st2',
    steps rd1 wr1 sect image k st1 = Some st1' /\ returned sect (r_scratch f) (r_depth f) n st1 st1' /\
    steps rd2 wr2 sect image k st2 = Some st2' /\ returned sect (r_scratch f) (r_depth f) n st2 st2' /\
    forall j, (j < k)%nat -> option_map (leaked sect image) (steps rd1 wr1 sect image j st1)
                          = option_map (leaked sect image) (steps rd2 wr2 sect image j st2).
Proof.
  intros F N A1 A2 C1 L1 C2 L2 E1 E2 E3. destruct (routine_h f F) as [h <-].
  destruct (call_runs h n rd1 wr1 sect st1 C1 L1 (args_h h n st1 N A1)) as (k1 & e1 & W1 & [T1] & R1).
  destruct (call_runs h n rd2 wr2 sect st2 C2 L2 (args_h h n st2 N A2)) as (k2 & e2 & W2 & [T2] & R2).
  apply walk_steps in W1 as [W1 _]. apply walk_steps in W2 as [W2 _]. rewrite <- E1, <- E2, <- E3, <- T1 in T2. clear T1.
  assert (K : k2 = k1).
  { apply (f_equal (@length _)) in T2. rewrite !map_length in T2. rewrite (states_len _ _ _ _ _ _ W1), (states_len _ _ _ _ _ _ W2) in T2. exact T2. }
  subst k2. exists k1, e1, e2. split; [exact W1|]. split; [exact R1|]. split; [exact W2|]. split; [exact R2|]. intros j J.
  rewrite <- (states_nth _ _ _ _ _ _ _ W1 J), <- (states_nth _ _ _ _ _ _ _ W2 J), <- !nth_error_map. now rewrite T2.
Qed.

(** ** Instructions *)
Definition count (T : list (Z * list Z)) : Z := zlen (filter (is_instruction image) (map fst T)).
Lemma count_app T U : count (T ++ U) = count T + count U.
Proof. unfold count, zlen. rewrite map_app, filter_app, app_length. lia. Qed.
Lemma count_view sect si di base d q : frag_ok (piece_frag q) = true ->
  count (view sect si di base d q) = zlen (filter (is_instruction image) (expand (q_code q))).
Proof.
  intros O. unfold count, view. rewrite map_map. pose proof (f_seen_code _ O) as E. cbn [piece_frag f_code] in E. rewrite <- E.
  do 2 f_equal.
Qed.
Lemma count_states rd wr sect k st : instructions rd wr sect image k st = count (map (leaked sect image) (states rd wr sect image k st)).
Proof.
  unfold instructions, count. rewrite map_map. induction (states rd wr sect image k st) as [|s l IH]; [reflexivity|].
  cbn [map filter]. unfold leaked at 1. cbn [fst]. destruct (is_instruction image (pc s)); [|exact IH].
  rewrite !LemBase.zlen_cons. now rewrite IH.
Qed.
Section Counts.
Variable sect : nat -> Z.
Variables si di base : Z.
Variable d : Z.
Notation counts q := (count (view sect si di base d q)).
Lemma count_1 : counts avx1 = 4053.
Proof. rewrite count_view by exact ok_avx1. vm_compute. reflexivity. Qed.
Lemma count_4_start : counts avx4_start = 2.
Proof. rewrite count_view by exact ok_avx4_start. vm_compute. reflexivity. Qed.
Lemma count_4_four : counts avx4_four = 6153.
Proof. rewrite count_view by exact ok_avx4_four. vm_compute. reflexivity. Qed.
Lemma count_4_few : counts avx4_few = 2.
Proof. rewrite count_view by exact ok_avx4_few. vm_compute. reflexivity. Qed.
Lemma count_4_one : counts avx4_one = 4060.
Proof. rewrite count_view by exact ok_avx4_one. vm_compute. reflexivity. Qed.
Lemma count_4_end : counts avx4_end = 5.
Proof. rewrite count_view by exact ok_avx4_end. vm_compute. reflexivity. Qed.
Lemma count_ni_start : counts ni_start = 3.
Proof. rewrite count_view by exact ok_ni_start. vm_compute. reflexivity. Qed.
Lemma count_ni_two : counts ni_two = 432.
Proof. rewrite count_view by exact ok_ni_two. vm_compute. reflexivity. Qed.
Lemma count_ni_few : counts ni_few = 2.
Proof. rewrite count_view by exact ok_ni_few. vm_compute. reflexivity. Qed.
Lemma count_ni_one : counts ni_one = 234.
Proof. rewrite count_view by exact ok_ni_one. vm_compute. reflexivity. Qed.
Lemma count_ni_end : counts ni_end = 3.
Proof. rewrite count_view by exact ok_ni_end. vm_compute. reflexivity. Qed.
Variable a : Z.
Hypothesis Ha : a = 0 \/ a = 16.
Lemma count_8_start : counts (avx8_start a) = 8.
Proof. rewrite count_view by (destruct Ha as [-> | ->]; [exact ok_avx8_start_0|exact ok_avx8_start_16]). vm_compute. reflexivity. Qed.
Lemma count_8_eight : counts (avx8_eight a) = 6199.
Proof. rewrite count_view by (destruct Ha as [-> | ->]; [exact ok_avx8_eight_0|exact ok_avx8_eight_16]). vm_compute. reflexivity. Qed.
Lemma count_8_few : counts (avx8_few a) = 3.
Proof. rewrite count_view by (destruct Ha as [-> | ->]; [exact ok_avx8_few_0|exact ok_avx8_few_16]). vm_compute. reflexivity. Qed.
Lemma count_8_end : counts (avx8_end a) = 7.
Proof. rewrite count_view by (destruct Ha as [-> | ->]; [exact ok_avx8_end_0|exact ok_avx8_end_16]). vm_compute. reflexivity. Qed.
End Counts.
Lemma count_tail4 sect si di base k : forall d, count (seen_4_tail sect si di base k d) = 5 + 4060 * Z.of_nat k.
Proof.
  induction k as [|k IH]; intros d; cbn [seen_4_tail]; [rewrite count_4_end; reflexivity|].
  rewrite count_app, count_4_one, IH. lia.
Qed.
Lemma count_loop4 sect si di base k m : forall d, count (seen_4_loop sect si di base m k d) = 7 + 4060 * Z.of_nat k + 6153 * Z.of_nat m.
Proof.
  induction m as [|m IH]; intros d; cbn [seen_4_loop]; rewrite count_app.
  - rewrite count_4_few, count_tail4. lia.
  - rewrite count_4_four, IH. lia.
Qed.
Lemma count_seen_4 sect si di sp n : 0 <= n -> count (seen_4 sect si di sp n) = 9 + 6153 * (n / 4) + 4060 * (n mod 4).
Proof. intros N. unfold seen_4. rewrite count_app, count_4_start, count_loop4. lia. Qed.
Lemma count_loop_ni sect si di base odd m : forall d,
  count (seen_ni_loop sect si di base m odd d) = (if odd then 236 else 5) + 432 * Z.of_nat m.
Proof.
  induction m as [|m IH]; intros d; cbn [seen_ni_loop]; rewrite count_app.
  - rewrite count_ni_few. destruct odd; [rewrite count_ni_one|rewrite count_ni_end]; reflexivity.
  - rewrite count_ni_two, IH. lia.
Qed.
Lemma count_seen_ni sect si di sp n : 0 <= n -> count (seen_ni sect si di sp n) = 8 + 432 * (n / 2) + 231 * (n mod 2).
Proof.
  intros N. unfold seen_ni. rewrite count_app, count_ni_start, count_loop_ni, Zmod_odd. destruct (Z.odd n); lia.
Qed.
Lemma count_loop8 sect si di base a n (Ha : a = 0 \/ a = 16) m : forall d, 0 <= d -> d + 8 * Z.of_nat m <= n ->
  count (seen_8_loop sect si di base a n m d)
  = 3 + (9 + 6153 * ((n - (d + 8 * Z.of_nat m)) / 4) + 4060 * ((n - (d + 8 * Z.of_nat m)) mod 4)) + 7 + 6199 * Z.of_nat m.
Proof.
  induction m as [|m IH]; intros d D L; cbn [seen_8_loop]; rewrite count_app.
  - rewrite count_8_few by exact Ha. unfold seen_8_tail. rewrite count_app, count_seen_4, count_8_end by (exact Ha || lia).
    change (Z.of_nat 0) with 0. rewrite Z.mul_0_r, Z.add_0_r. lia.
  - rewrite count_8_eight, IH by (exact Ha || lia). replace (d + 8 + 8 * Z.of_nat m) with (d + 8 * Z.of_nat (S m)) by lia. lia.
Qed.
Lemma count_seen_8 sect si di sp n : 0 <= n ->
  count (seen_8 sect si di sp n) = 27 + 6199 * (n / 8) + 6153 * (n mod 8 / 4) + 4060 * (n mod 4).
Proof.
  intros N. unfold seen_8. set (a := if _ =? 0 then 0 else 16). cbv zeta.
  assert (Ha : a = 0 \/ a = 16) by (subst a; destruct (_ =? 0); auto). clearbody a.
  rewrite count_app, count_8_start, count_loop8 by (exact Ha || lia).
  replace (n - (0 + 8 * Z.of_nat (Z.to_nat (n / 8)))) with (n mod 8) by lia.
  replace (n mod 8 mod 4) with (n mod 4) by lia. lia.
Qed.

Lemma executed_count f c n rd wr sect st k st' :
  In (f, c) [(sha256_1_avx, fun _ => 4053);
             (sha256_4_avx, fun n => 9 + 6153 * (n / 4) + 4060 * (n mod 4));
             (sha256_8_avx2, fun n => 27 + 6199 * (n / 8) + 6153 * (n mod 8 / 4) + 4060 * (n mod 4));
             (sha256_shani, fun n => 8 + 432 * (n / 2) + 231 * (n mod 2))] ->
  (f = sha256_1_avx -> n = 1) -> (f = sha256_1_avx \/ getr st rdx = n) ->
  call rd wr sect (r_consts f) (r_scratch f) (r_depth f) n st -> find_label (r_name f) image 0 = Some (pc st) ->
  fetch image (le_val (bytes_at (mem st) (getr st rsp) 8)) = None ->
  steps rd wr sect image k st = Some st' -> fetch image (pc st') = None ->
  instructions rd wr sect image k st = c n.
Proof.
  intros F N A C L R S H.
  assert (I : exists h, routine_of h = f /\ forall si di sp, 0 <= n -> count (seen_of h sect si di sp n) = c n).
  { destruct F as [[= <- <-]|[[= <- <-]|[[= <- <-]|[[= <- <-]|[]]]]]; [exists F_sse|exists F_avx|exists F_avx2|exists F_shani];
      (split; [reflexivity|]); intros si di sp N0; cbn [seen_of].
    - unfold seen_1. rewrite count_1. reflexivity.
    - rewrite count_seen_4 by exact N0. reflexivity.
    - rewrite count_seen_8 by exact N0. reflexivity.
    - rewrite count_seen_ni by exact N0. reflexivity. }
  destruct I as (h & <- & I).
  destruct (call_runs h n rd wr sect st C L (args_h h n st N A)) as (k1 & e1 & W1 & [T1] & R1).
  apply walk_steps in W1 as [W1 _]. rewrite <- (E_pc _ _ _ _ _ _ R1) in R.
  rewrite (halts_once rd wr sect k k1 st st' e1 S W1 H R), count_states, T1. apply I. exact (C_count _ _ _ _ _ _ _ _ C).
Qed.

(** ** Cases: the sample process, with any input. *)
Lemma loaded_any f n bs : In f [sha256_1_avx; sha256_4_avx; sha256_8_avx2; sha256_shani] -> 0 <= n <= 1000 ->
  bytes_ok bs -> zlen bs <= 64000 -> let st := setm (s_load bs) (s_state f n 0) in
  call s_ok s_ok s_sect (r_consts f) (r_scratch f) (r_depth f) n st /\
  find_label (r_name f) image 0 = Some (pc st) /\ getr st rdx = n /\ bytes_at (mem st) (getr st rsi) (length bs) = bs /\
  fetch image (le_val (bytes_at (mem st) (getr st rsp) 8)) = None.
Proof.
  intros F N B L st. destruct (s_call f n 0 F N ltac:(lia)) as [C1 C2]. split; [|split; [exact C2|split; [reflexivity|split]]].
  - apply call_setm; [exact C1|exact (s_load_ok bs B)|]. intros s S x X. unfold section_area, inside in X. cbn [fst snd] in X.
    unfold s_load. change (mem (s_state f n 0)) with s_mem. destruct (_ && _) eqn:E; [|reflexivity]. exfalso.
    assert (Q : (s < 5)%nat /\ zlen (section_bytes s) <= 8192).
    { destruct F as [<-|[<-|[<-|[<-|[]]]]]; cbn [r_consts sha256_1_avx sha256_4_avx sha256_8_avx2 sha256_shani In] in S;
      repeat (destruct S as [<-|S]; [split; [lia|apply Z.leb_le; vm_compute; reflexivity]|]); destruct S. }
    unfold s_sect, s_in in *. lia.
  - exact (s_load_at bs).
  - pose proof (s_returns f n 0 ltac:(lia)) as R. rewrite (bytes_at_ext (mem st) (mem (s_state f n 0))); [exact R|].
    intros x X. change (mem st x) with (s_load bs x). change (getr (s_state f n 0) rsp) with s_sp in *. change (getr st rsp) with s_sp in *.
    unfold s_load. replace (_ && _) with false by (unfold s_sp, s_in in *; lia). reflexivity.
Qed.
Lemma loaded f n bs : In f [sha256_1_avx; sha256_4_avx; sha256_8_avx2; sha256_shani] -> 0 <= n <= 1000 ->
  bytes_ok bs -> zlen bs = 64 * n -> let st := setm (s_load bs) (s_state f n 0) in
  call s_ok s_ok s_sect (r_consts f) (r_scratch f) (r_depth f) n st /\
  find_label (r_name f) image 0 = Some (pc st) /\ getr st rdx = n /\ bytes_at (mem st) (getr st rsi) (length bs) = bs /\
  fetch image (le_val (bytes_at (mem st) (getr st rsp) 8)) = None.
Proof. intros F N B L. apply loaded_any; [exact F|exact N|exact B|lia]. Qed.
