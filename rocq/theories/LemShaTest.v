(** The tests of the hashers. *)
From Coq Require Import ZArith String List Bool Lia ZifyBool ZifyNat.
From Verif Require Import Base SpecSSZ ModelBytes SpecSha ModelX86 SpecTime ModelImage LemBase SymX86 LemSymX86 SymFrag LemSymFrag SpecAsm FragAsm CheckAsm LemPiece
  LemAsm LemAsm8 ModelHasher SpecHasher SamplesAsm LemHasher LemDigest LemSha LemExec LemTime LemBytes ModelShaTest SpecShaTest.
Import ListNotations.
Open Scope list_scope.
Open Scope Z_scope.

(** ** The literals *)
Lemma literals i : 0 <= i < 8 -> sha256 (firstn 64 (skipn (Z.to_nat (64 * i)) test_8_block)) = firstn 32 (skipn (Z.to_nat (32 * i)) test_8_digests).
Proof.
  assert (H : forallb (fun i => if list_eq_dec Z.eq_dec (sha256 (firstn 64 (skipn (Z.to_nat (64 * i)) test_8_block))) (firstn 32 (skipn (Z.to_nat (32 * i)) test_8_digests)) then true else false) [0; 1; 2; 3; 4; 5; 6; 7] = true) by (vm_compute; reflexivity).
  intros I. rewrite forallb_forall in H. specialize (H i). destruct (list_eq_dec _ _ _) as [E|_] in H; [exact E|]. discriminate H.
  assert (J : i = 0 \/ i = 1 \/ i = 2 \/ i = 3 \/ i = 4 \/ i = 5 \/ i = 6 \/ i = 7) by lia. cbn [In]. intuition auto.
Qed.
Lemma prefixes t : In t (map snd TEST_LIST) -> t_expected t = firstn (Z.to_nat (32 * t_blocks t)) test_8_digests /\ 1 <= t_blocks t <= 8.
Proof. intros [<-|[<-|[<-|[<-|[]]]]]; (split; [reflexivity|]); cbn; lia. Qed.
Lemma bytes_at_app m a j k : bytes_at m a (j + k) = bytes_at m a j ++ bytes_at m (a + Z.of_nat j) k.
Proof.
  unfold bytes_at. rewrite seq_app, map_app. f_equal. rewrite Nat.add_0_l, <- (map_id (seq j k)).
  replace (seq j k) with (map (fun x => (j + x)%nat) (seq 0 k)).
  - rewrite map_id, map_map. apply map_ext. intros x. f_equal. lia.
  - clear. revert j. induction k as [|k IH]; intros j; [reflexivity|]. cbn [seq map]. f_equal; [lia|]. rewrite <- (IH (S j)), <- seq_shift, map_map. apply map_ext. intros. lia.
Qed.
Lemma bytes_at_length m a k : length (bytes_at m a k) = k.
Proof. unfold bytes_at. now rewrite map_length, seq_length. Qed.
(** the part of a buffer *)
Lemma bytes_at_part m a n i k : (i + k <= n)%nat -> firstn k (skipn i (bytes_at m a n)) = bytes_at m (a + Z.of_nat i) k.
Proof.
  intros L. replace n with (i + (k + (n - i - k)))%nat by lia. rewrite !bytes_at_app, skipn_app, skipn_all2 by (rewrite bytes_at_length; lia).
  rewrite bytes_at_length, Nat.sub_diag. cbn [skipn app]. rewrite firstn_app, firstn_all2, bytes_at_length, Nat.sub_diag by (rewrite bytes_at_length; lia).
  cbn [firstn]. apply app_nil_r.
Qed.
(** a list is what its parts are *)
Lemma by_parts (D : list Z) m a : forall n, (forall i, 0 <= i < Z.of_nat n -> bytes_at m (a + 32 * i) 32 = firstn 32 (skipn (Z.to_nat (32 * i)) D)) ->
  bytes_at m a (32 * n) = firstn (32 * n) D.
Proof.
  induction n as [|n IH]; intros H; [reflexivity|]. replace (32 * S n)%nat with (32 * n + 32)%nat by lia.
  rewrite bytes_at_app, IH by (intros i I; apply H; lia).
  replace (a + Z.of_nat (32 * n)) with (a + 32 * Z.of_nat n) by lia. rewrite H by lia.
  replace (Z.to_nat (32 * Z.of_nat n)) with (32 * n)%nat by lia. generalize (32 * n)%nat. intros k. clear.
  revert D. induction k as [|k IH]; intros D; cbn [firstn skipn app Nat.add]; [reflexivity|]. destruct D; cbn [firstn app]; [now rewrite ?firstn_nil|]. f_equal. apply IH.
Qed.

Section Process.
Variables RD WR : Z -> bool.
Variable sect : nat -> Z.
Variable own : Z -> Prop.
Lemma digests_expected h t digest block m m' : In t (map snd TEST_LIST) ->
  hash_64b_blocks RD WR sect own h digest block (t_blocks t) m m' ->
  (forall x, inside x (digest, 32 * t_blocks t) -> ~ own x) -> (forall x, inside x (block, 512) -> ~ own x) -> apart (digest, 32 * t_blocks t) (block, 512) ->
  bytes_at m block 512 = test_8_block ->
  bytes_at m' digest (length (t_expected t)) = t_expected t.
Proof.
  intros I H O1 O2 A B. destruct (prefixes t I) as [E R].
  assert (A' : apart (digest, 32 * t_blocks t) (block, 64 * t_blocks t)).
  { intros x X Y. apply (A x X). unfold inside in *. cbn [fst snd] in *. lia. }
  destruct (blocks_digested RD WR sect own h digest block (t_blocks t) m m' ltac:(lia) H O1) as [D _]; [|exact A'|].
  { intros x X. apply O2. unfold inside in *. cbn [fst snd] in *. lia. }
  rewrite E. assert (L : length (firstn (Z.to_nat (32 * t_blocks t)) test_8_digests) = (32 * Z.to_nat (t_blocks t))%nat).
  { rewrite firstn_length. change (length test_8_digests) with 256%nat. lia. }
  rewrite L. replace (Z.to_nat (32 * t_blocks t)) with (32 * Z.to_nat (t_blocks t))%nat by lia. apply by_parts.
  intros i Hi. rewrite <- literals by lia. rewrite D by lia. f_equal. rewrite <- B, bytes_at_part by lia. f_equal. lia.
Qed.
End Process.

(** ** The result *)
Lemma implemented_is c : implemented c = if c_max c <? 7 then UB else
  Ok ((if Z.testbit (c_ecx1 c) 0 then 1 else 0) + (if Z.testbit (c_ecx1 c) 28 then 2 else 0) +
      (if Z.testbit (c_ebx7 c) 5 then 4 else 0) + (if Z.testbit (c_ebx7 c) 29 then 8 else 0)).
Proof.
  unfold implemented. destruct (c_max c <? 7); [reflexivity|]. unfold bit_SHA, bit_AVX2, bit_AVX, bit_SSE3. change 1 with (2 ^ 0) at 1.
  rewrite !land_bit by lia. destruct (Z.testbit (c_ebx7 c) 29), (Z.testbit (c_ebx7 c) 5), (Z.testbit (c_ecx1 c) 28), (Z.testbit (c_ecx1 c) 0); reflexivity.
Qed.
Definition guards (c : cpu) : list (sha_test * bool) :=
  [(test_hash_sse_1, Z.testbit (c_ecx1 c) 0); (test_hash_avx_4, Z.testbit (c_ecx1 c) 28);
   (test_hash_avx2_8, Z.testbit (c_ebx7 c) 5); (test_hash_shani, Z.testbit (c_ebx7 c) 29)].
Lemma guard_is c t b impl : In (t, b) (guards c) -> implemented c = Ok impl -> (Z.land impl (t_impl t) =? 0) = negb b /\ In t (map snd TEST_LIST).
Proof.
  rewrite implemented_is. intros I. destruct (c_max c <? 7); [discriminate|].
  destruct (Z.testbit (c_ecx1 c) 0) eqn:E0, (Z.testbit (c_ecx1 c) 28) eqn:E1, (Z.testbit (c_ebx7 c) 5) eqn:E2, (Z.testbit (c_ebx7 c) 29) eqn:E3;
  intros E; injection E as <-; unfold guards in I; rewrite ?E0, ?E1, ?E2, ?E3 in I; cbn [In] in I;
  (destruct I as [[= <- <-]|[[= <- <-]|[[= <- <-]|[[= <- <-]|[]]]]]; (split; [reflexivity|cbn; auto])).
Qed.
Lemma test_passes c rd wr sect (own : Z -> Prop) t present digest block m r : In (t, present) (guards c) ->
  test_runs c rd wr sect own image t digest block m r ->
  (forall x, inside x (digest, 32 * t_blocks t) -> ~ own x) -> (forall x, inside x (block, 512) -> ~ own x) -> apart (digest, 32 * t_blocks t) (block, 512) ->
  bytes_at m block 512 = test_8_block ->
  r = if c_max c <? 7 then UB else if present then Ok (Some true) else Ok None.
Proof.
  intros I H O1 O2 A B. destruct H as [E|impl E G|impl h m' E G _ H].
  - rewrite implemented_is in E. destruct (c_max c <? 7); [reflexivity|discriminate E].
  - destruct (guard_is c t present impl I E) as [Q _]. rewrite implemented_is in E. destruct (c_max c <? 7); [discriminate E|].
    destruct present; [cbn in Q; lia|reflexivity].
  - destruct (guard_is c t present impl I E) as [Q J]. rewrite implemented_is in E. destruct (c_max c <? 7); [discriminate E|].
    destruct present; [|cbn in Q; lia]. rewrite (digests_expected rd wr sect own h t digest block m m' J H O1 O2 A B).
    do 2 f_equal. apply bytes_eqb_eq. reflexivity.
Qed.
Lemma implemented_total c : implemented c = UB \/ exists impl, implemented c = Ok impl.
Proof. rewrite implemented_is. destruct (c_max c <? 7); eauto. Qed.
(** What a test decides, for any program. *)
Lemma parts_of (D : list Z) m a n : (n <= 8)%nat -> length D = 256%nat -> bytes_at m a (32 * n) = firstn (32 * n) D ->
  forall i, 0 <= i < Z.of_nat n -> bytes_at m (a + 32 * i) 32 = firstn 32 (skipn (Z.to_nat (32 * i)) D).
Proof.
  intros N L E i I. replace (a + 32 * i) with (a + Z.of_nat (Z.to_nat (32 * i))) by lia.
  rewrite <- (bytes_at_part m a (32 * n)) by lia. rewrite E, skipn_firstn_comm, firstn_firstn. f_equal. lia.
Qed.
Lemma test_decides c rd wr sect (own : Z -> Prop) code t present digest block m b : In (t, present) (guards c) ->
  (test_runs c rd wr sect own code t digest block m (Ok (Some b)) <->
   7 <= c_max c /\ present = true /\ exists h m', Hasher c (t_impl t) = Ok h /\
     hash_64b_blocks_of rd wr sect own code h digest block (t_blocks t) m m' /\
     (b = true <-> forall i, 0 <= i < t_blocks t ->
        bytes_at m' (digest + 32 * i) 32 = sha256 (firstn 64 (skipn (Z.to_nat (64 * i)) test_8_block)))).
Proof.
  intros I.
  assert (Q : In t (map snd TEST_LIST)) by (apply (in_map fst) in I; exact I).
  destruct (prefixes t Q) as [X B].
  assert (K : length (t_expected t) = (32 * Z.to_nat (t_blocks t))%nat).
  { rewrite X, firstn_length. change (length test_8_digests) with 256%nat. lia. }
  assert (D : forall m', bytes_eqb (bytes_at m' digest (length (t_expected t))) (t_expected t) = true <->
    forall i, 0 <= i < t_blocks t -> bytes_at m' (digest + 32 * i) 32 = sha256 (firstn 64 (skipn (Z.to_nat (64 * i)) test_8_block))).
  { intros m'. rewrite bytes_eqb_eq, K, X. split.
    - intros E i J. rewrite literals by lia. apply (parts_of test_8_digests m' digest (Z.to_nat (t_blocks t))); [lia|reflexivity| |lia].
      rewrite E. f_equal. lia.
    - intros E. replace (Z.to_nat (32 * t_blocks t)) with (32 * Z.to_nat (t_blocks t))%nat by lia. apply by_parts.
      intros i J. rewrite E by lia. apply literals. lia. }
  split.
  - intros H. inversion H as [ | |impl h m' E G F C R]; subst. destruct (guard_is c t present impl I E) as [V _].
    rewrite implemented_is in E. destruct (c_max c <? 7) eqn:M; [discriminate E|].
    split; [lia|]. split; [destruct present; [reflexivity|cbn in V; lia]|]. exists h, m'. split; [exact F|]. split; [exact C|]. apply D.
  - intros (M & P & h & m' & F & C & E). destruct (implemented_total c) as [U|[impl U]].
    + rewrite implemented_is in U. destruct (c_max c <? 7) eqn:W; [lia|discriminate U].
    + destruct (guard_is c t present impl I U) as [V _]. rewrite P in V. cbn in V.
      replace b with (bytes_eqb (bytes_at m' digest (length (t_expected t))) (t_expected t)).
      * apply test_checked with impl h; [exact U|lia|exact F|exact C].
      * apply eq_true_iff_eq. rewrite D. symmetry. exact E.
Qed.
Lemma test_returns c rd wr sect (own : Z -> Prop) t h st : let f := routine_of h in
  In t (map snd TEST_LIST) -> Hasher c (t_impl t) = Ok h ->
  call rd wr sect (r_consts f) (r_scratch f) (r_depth f) (t_blocks t) st ->
  find_label (r_name f) image 0 = Some (pc st) -> (h = F_sse \/ getr st rdx = t_blocks t) ->
  (forall x, inside x (getr st rsp - r_depth f, r_depth f) -> own x) ->
  (forall s, In s (r_scratch f) -> forall x, inside x (section_area sect s) -> own x) ->
  fetch image (le_val (bytes_at (mem st) (getr st rsp) 8)) = None ->
  exists r, test_runs c rd wr sect own image t (getr st rdi) (getr st rsi) (mem st) r.
Proof.
  cbv zeta. intros I H C L N P1 P2 R. destruct (implemented_total c) as [E|[impl E]]; [exists UB; constructor; exact E|].
  destruct (Z.eq_dec (Z.land impl (t_impl t)) 0) as [G|G]; [eexists; eapply test_skipped; eassumption|].
  destruct (blocks_return rd wr sect own h (t_blocks t) st C L N P1 P2 R) as [m' B]. eexists. eapply test_checked; eassumption.
Qed.

(** ** Other programs *)
Definition leftoverb (p : Z) : bool := (8197 <=? p) && (p <? 8202) || (12846 <=? p) && (p <? 13077).
Lemma label_positions :
  find_label "sha256_4_avx.hash_1_block" image 0 = Some 8194 /\ find_label "sha256_4_avx.done_hash" image 0 = Some 8202 /\
  find_label "sha256_shani.hash_1_block" image 0 = Some 12843 /\ find_label "sha256_shani.done_hash" image 0 = Some 13077.
Proof. vm_compute. repeat split; reflexivity. Qed.
Lemma leftover_spec p : leftover p <-> leftoverb p = true.
Proof.
  unfold leftover, after. destruct label_positions as (E1 & E2 & E3 & E4). rewrite E1, E2, E3, E4. clear. unfold leftoverb. lia.
Qed.
(** what is seen of a test is outside *)
Definition safe (T : list (Z * list Z)) : Prop := Forall (fun p => leftoverb p = false) (map fst T).
Lemma safe_app T U : safe T -> safe U -> safe (T ++ U).
Proof. unfold safe. rewrite map_app. intros A B. apply Forall_app. auto. Qed.
Definition clear_of (l : list (Z * Z)) : bool := forallb (fun x : Z * Z => ((fst x + snd x <=? 8197) || (8202 <=? fst x)) && ((fst x + snd x <=? 12846) || (13077 <=? fst x))) l.
Lemma view_pcs sect si di base d q : frag_ok (piece_frag q) = true -> map fst (view sect si di base d q) = expand (q_code q).
Proof. intros O. unfold view. rewrite map_map. pose proof (f_seen_code _ O) as E. cbn [piece_frag f_code] in E. rewrite <- E. reflexivity. Qed.
Lemma in_expand l p : In p (expand l) <-> exists x, In x l /\ fst x <= p < fst x + snd x.
Proof.
  unfold expand. rewrite in_flat_map. split; intros (x & I & H); exists x; (split; [exact I|]).
  - apply in_map_iff in H as (i & <- & H). apply in_seq in H. lia.
  - apply in_map_iff. exists (Z.to_nat (p - fst x)). split; [lia|]. apply in_seq. lia.
Qed.
Lemma safe_view sect si di base d q : frag_ok (piece_frag q) = true -> clear_of (q_code q) = true -> safe (view sect si di base d q).
Proof.
  intros O C. unfold safe. rewrite (view_pcs _ _ _ _ _ _ O). apply Forall_forall. intros p P. apply in_expand in P as (x & I & P).
  unfold clear_of in C. rewrite forallb_forall in C. specialize (C x I). unfold leftoverb. lia.
Qed.
Ltac piece_ok := match goal with
  | |- frag_ok (piece_frag avx1) = true => exact ok_avx1
  | |- frag_ok (piece_frag avx4_start) = true => exact ok_avx4_start
  | |- frag_ok (piece_frag avx4_four) = true => exact ok_avx4_four
  | |- frag_ok (piece_frag avx4_few) = true => exact ok_avx4_few
  | |- frag_ok (piece_frag avx4_end) = true => exact ok_avx4_end
  | |- frag_ok (piece_frag ni_start) = true => exact ok_ni_start
  | |- frag_ok (piece_frag ni_two) = true => exact ok_ni_two
  | |- frag_ok (piece_frag ni_few) = true => exact ok_ni_few
  | |- frag_ok (piece_frag ni_end) = true => exact ok_ni_end
  | |- frag_ok (piece_frag (avx8_start 0)) = true => exact ok_avx8_start_0
  | |- frag_ok (piece_frag (avx8_start 16)) = true => exact ok_avx8_start_16
  | |- frag_ok (piece_frag (avx8_eight 0)) = true => exact ok_avx8_eight_0
  | |- frag_ok (piece_frag (avx8_eight 16)) = true => exact ok_avx8_eight_16
  | |- frag_ok (piece_frag (avx8_few 0)) = true => exact ok_avx8_few_0
  | |- frag_ok (piece_frag (avx8_few 16)) = true => exact ok_avx8_few_16
  | |- frag_ok (piece_frag (avx8_end 0)) = true => exact ok_avx8_end_0
  | |- frag_ok (piece_frag (avx8_end 16)) = true => exact ok_avx8_end_16
  | |- clear_of _ = true => reflexivity
  end.
Lemma safe_seen h n sect si di sp : In (h, n) [(F_sse, 1); (F_avx, 4); (F_avx2, 8); (F_shani, 8)] -> safe (seen_of h sect si di sp n).
Proof.
  intros I. destruct I as [[= <- <-]|[[= <- <-]|[[= <- <-]|[[= <- <-]|[]]]]]; cbn [seen_of].
  - unfold seen_1. apply safe_view; piece_ok.
  - unfold seen_4. change (Z.to_nat (4 / 4)) with 1%nat. change (Z.to_nat (4 mod 4)) with 0%nat. cbn [seen_4_loop seen_4_tail].
    repeat match goal with |- safe (_ ++ _) => apply safe_app end; apply safe_view; piece_ok.
  - unfold seen_8. set (a := if _ =? 0 then 0 else 16). cbv zeta.
    assert (Ha : a = 0 \/ a = 16) by (subst a; destruct (_ =? 0); auto). clearbody a.
    change (Z.to_nat (8 / 8)) with 1%nat. cbn [seen_8_loop]. unfold seen_8_tail, seen_4. change (8 - (0 + 8)) with 0.
    change (Z.to_nat (0 / 4)) with 0%nat. change (Z.to_nat (0 mod 4)) with 0%nat. cbn [seen_4_loop seen_4_tail].
    destruct Ha as [-> | ->]; repeat match goal with |- safe (_ ++ _) => apply safe_app end; apply safe_view; piece_ok.
  - unfold seen_ni. change (Z.to_nat (8 / 2)) with 4%nat. change (Z.odd 8) with false. cbn [seen_ni_loop].
    repeat match goal with |- safe (_ ++ _) => apply safe_app end; apply safe_view; piece_ok.
Qed.
Lemma tested_call h n rd wr sect st : In (h, n) [(F_sse, 1); (F_avx, 4); (F_avx2, 8); (F_shani, 8)] -> let f := routine_of h in
  call rd wr sect (r_consts f) (r_scratch f) (r_depth f) n st -> find_label (r_name f) image 0 = Some (pc st) ->
  match h with F_sse => n = 1 | _ => getr st rdx = n end ->
  exists k e, steps rd wr sect image k st = Some e /\ pc e = le_val (bytes_at (mem st) (getr st rsp) 8) /\
    forall j s, (j < k)%nat -> steps rd wr sect image j st = Some s -> leftoverb (pc s) = false.
Proof.
  intros I f C L N. destruct (call_runs h n rd wr sect st C L N) as (k & e & W & [T] & R). apply walk_steps in W as [W _].
  exists k, e. split; [exact W|]. split; [exact (E_pc _ _ _ _ _ _ R)|]. intros j s J S.
  pose proof (safe_seen h n sect (getr st rsi) (getr st rdi) (getr st rsp) I) as Q. rewrite <- T in Q. clear T. unfold safe in Q.
  rewrite Forall_forall in Q. apply Q. rewrite map_map. apply in_map_iff. exists s. split; [reflexivity|].
  apply (nth_error_In _ j). rewrite (states_nth _ _ _ _ _ _ _ W J). exact S.
Qed.
Lemma test_hasher c t h : In t (map snd TEST_LIST) -> Hasher c (t_impl t) = Ok h -> In (h, t_blocks t) [(F_sse, 1); (F_avx, 4); (F_avx2, 8); (F_shani, 8)].
Proof. intros [<-|[<-|[<-|[<-|[]]]]]; cbn; intros E; injection E as <-; auto. Qed.
Lemma reached t p : In t (map snd TEST_LIST) -> reaches t p -> ~ leftover p.
Proof.
  intros I (c & h & rd & wr & sect & st & j & st' & H & C & L & N & R & S & P & F) X. apply leftover_spec in X.
  destruct (tested_call h (t_blocks t) rd wr sect st (test_hasher c t h I H) C L N) as (k & e & W & E & Q).
  destruct (Nat.lt_ge_cases j k) as [J|J]; [specialize (Q j st' J S); congruence|].
  rewrite <- E in R. replace j with (k + (j - k))%nat in S by lia. rewrite steps_app, W in S. cbn [obind] in S.
  apply steps_halted in S; [|exact R]. subst st'. congruence.
Qed.

Lemma same_none code (SO : same_outside leftover code) p : fetch code p = None <-> fetch image p = None.
Proof.
  unfold fetch. destruct (0 <=? p); [|tauto]. rewrite !nth_error_None, (O_length _ _ SO). tauto.
Qed.
Section Same.
Variables RD WR : Z -> bool.
Variable sect : nat -> Z.
Variable code : list instr.
Hypothesis SO : same_outside leftover code.
Lemma same_fetch p : leftoverb p = false -> fetch code p = fetch image p.
Proof. intros P. apply (O_code _ _ SO). intros X. apply leftover_spec in X. congruence. Qed.
Lemma same_exec i st : exec RD WR sect code i st = exec RD WR sect image i st.
Proof. destruct i; try reflexivity; cbn [exec]; unfold jump_if, jump; rewrite ?(O_labels _ _ SO); reflexivity. Qed.
Lemma same_step st : leftoverb (pc st) = false -> step RD WR sect code st = step RD WR sect image st.
Proof. intros P. unfold step. rewrite (same_fetch _ P). destruct (fetch image (pc st)); cbn [obind]; [apply same_exec|reflexivity]. Qed.
Lemma same_steps k : forall st, (forall j s, (j < k)%nat -> steps RD WR sect image j st = Some s -> leftoverb (pc s) = false) ->
  steps RD WR sect code k st = steps RD WR sect image k st.
Proof.
  induction k as [|k IH]; intros st H; [reflexivity|]. cbn [steps]. rewrite same_step by (apply (H 0%nat); [lia|reflexivity]).
  destruct (step RD WR sect image st) as [s|] eqn:E; cbn [obind]; [|reflexivity]. apply IH. intros j s' J Q. apply (H (S j)); [lia|].
  cbn [steps]. rewrite E. exact Q.
Qed.
End Same.

(** a program stops in one state *)
Lemma stops_once rd wr sect code : forall k k' st e e',
  steps rd wr sect code k st = Some e -> fetch code (pc e) = None -> steps rd wr sect code k' st = Some e' -> fetch code (pc e') = None -> e = e'.
Proof.
  induction k as [|k IH]; intros k' st e e' E N E' N'.
  - cbn [steps] in E. apply some_inj in E. subst e. destruct k' as [|k']; cbn [steps] in E'; [now apply some_inj in E'|].
    unfold step in E'. rewrite N in E'. discriminate E'.
  - cbn [steps] in E. destruct k' as [|k'].
    + cbn [steps] in E'. apply some_inj in E'. subst e'. unfold step in E. rewrite N' in E. discriminate E.
    + cbn [steps] in E'. destruct (step rd wr sect code st) as [s|]; [|discriminate E]. cbn [obind] in *. exact (IH k' s e e' E N E' N').
Qed.
Section Blind.
Variables RD WR : Z -> bool.
Variable sect : nat -> Z.
Variable own : Z -> Prop.
Variable code : list instr.
Hypothesis SO : same_outside leftover code.
Lemma same_calls h n out inp m m' : In (h, n) [(F_sse, 1); (F_avx, 4); (F_avx2, 8); (F_shani, 8)] ->
  (asm_call_of RD WR sect own code (routine_of h) out inp n m m' <-> asm_call_of RD WR sect own image (routine_of h) out inp n m m').
Proof.
  intros I. assert (A : forall st, (routine_of h = sha256_1_avx \/ getr st rdx = n) -> match h with F_sse => n = 1 | _ => getr st rdx = n end).
  { intros st N. destruct h; cbn [routine_of] in N; [|destruct N as [N|N]; [discriminate N|exact N]..]. cbn [In] in I. destruct I as [I|[I|[I|[I|[]]]]]; congruence. }
  split; intros (st & k & st' & M & O & P & N & L & C & P1 & P2 & R & S & H & Q).
  - rewrite (O_labels _ _ SO) in L. apply (same_none code SO) in R.
    destruct (tested_call h n RD WR sect st I C L (A st N)) as (K & e & W & E & U).
    assert (W' : steps RD WR sect code K st = Some e) by (rewrite (same_steps RD WR sect code SO K st U); exact W).
    assert (D : st' = e). { apply (stops_once RD WR sect code k K st st' e S H W'). apply (same_none code SO). rewrite E. exact R. }
    subst st'. exists st, K, e. repeat (split; [assumption|]). split; [rewrite E; exact R|exact Q].
  - destruct (tested_call h n RD WR sect st I C L (A st N)) as (K & e & W & E & U).
    assert (W' : steps RD WR sect code K st = Some e) by (rewrite (same_steps RD WR sect code SO K st U); exact W).
    assert (D : st' = e). { apply (stops_once RD WR sect image k K st st' e S H W). rewrite E. exact R. }
    subst st'. exists st, K, e. repeat (split; [assumption|]). split; [rewrite (O_labels _ _ SO); exact L|].
    repeat (split; [assumption|]). split; [apply (same_none code SO); exact R|]. split; [exact W'|]. split; [apply (same_none code SO); exact H|exact Q].
Qed.
Lemma same_blocks h n out inp m m' : In (h, n) [(F_sse, 1); (F_avx, 4); (F_avx2, 8); (F_shani, 8)] ->
  (hash_64b_blocks_of RD WR sect own code h out inp n m m' <-> hash_64b_blocks_of RD WR sect own image h out inp n m m').
Proof.
  intros I. pose proof (fun o i => same_calls h n o i) as C. destruct h; cbn [hash_64b_blocks_of]; try (apply C; exact I).
  assert (n = 1) by (cbn [In] in I; destruct I as [I|[I|[I|[I|[]]]]]; congruence). subst n. change (Z.to_nat 1) with 1%nat.
  split; intros S; inversion S as [|? ? ? ? m1 ? A B]; subst; (apply (sse_block _ _ _ _ _ _ _ _ _ m1); [apply C; [exact I|exact A]|]);
    inversion B; subst; apply sse_end; assumption.
Qed.
Lemma same_tests c t digest block m r : In t (map snd TEST_LIST) ->
  (test_runs c RD WR sect own code t digest block m r <-> test_runs c RD WR sect own image t digest block m r).
Proof.
  intros I. split; (intros [E|impl E G|impl h m' E G H B]; [apply test_undefined; exact E|exact (test_skipped _ _ _ _ _ _ _ _ _ _ impl E G)|]);
    (apply (test_checked _ _ _ _ _ _ _ _ _ _ impl h m' E G H)); apply (same_blocks h (t_blocks t) digest block m m' (test_hasher c t h I H)); exact B.
Qed.
End Blind.
(** ** What the tests reach *)
Definition codes (h : hasher_fn) : list (Z * Z) :=
  match h with
  | F_sse => [(0, 4055)]
  | F_avx => [(4055, 3); (4058, 1702); (4749, 3445); (8194, 3); (8202, 4)]
  | F_avx2 => [(8206, 9); (8215, 1740); (8944, 3453); (12397, 2); (12399, 7)]
  | F_shani => [(12406, 4); (12410, 433); (12843, 3); (13077, 2)]
  end.
Definition within (l : list (Z * Z)) (p : Z) : bool := existsb (fun x : Z * Z => (fst x <=? p) && (p <? fst x + snd x)) l.
Lemma within_app l k p : within (l ++ k) p = within l p || within k p.
Proof. apply existsb_app. Qed.
Lemma in_view sect si di base d q p : frag_ok (piece_frag q) = true -> within (q_code q) p = true -> In p (map fst (view sect si di base d q)).
Proof.
  intros O W. rewrite (view_pcs _ _ _ _ _ _ O). apply in_expand. unfold within in W. apply existsb_exists in W as (x & I & W). exists x. split; [exact I|lia].
Qed.
Definition covers (l : list (Z * Z)) (T : list (Z * list Z)) : Prop := forall p, within l p = true -> In p (map fst T).
Lemma covers_app l k T U : covers l T -> covers k U -> covers (l ++ k) (T ++ U).
Proof.
  intros A B p. rewrite within_app, map_app. intros W. apply in_or_app. apply orb_prop in W as [W|W]; [left; exact (A p W)|right; exact (B p W)].
Qed.
Lemma covers_view sect si di base d q : frag_ok (piece_frag q) = true -> covers (q_code q) (view sect si di base d q).
Proof. intros O p W. exact (in_view _ _ _ _ _ _ _ O W). Qed.
Lemma covers_less l k T : covers l T -> (forall p, within k p = true -> within l p = true) -> covers k T.
Proof. intros C S p W. exact (C p (S p W)). Qed.
Ltac pieces := repeat match goal with |- covers _ (_ ++ _) => eapply covers_app end; apply covers_view; piece_ok.
Lemma codes_seen h n si di : In (h, n) [(F_sse, 1); (F_avx, 4); (F_avx2, 8); (F_shani, 8)] -> covers (codes h) (seen_of h s_sect si di s_sp n).
Proof.
  intros I. destruct I as [[= <- <-]|[[= <- <-]|[[= <- <-]|[[= <- <-]|[]]]]]; cbn [seen_of codes].
  - unfold seen_1. apply (covers_view _ _ _ _ _ avx1). piece_ok.
  - unfold seen_4. change (Z.to_nat (4 / 4)) with 1%nat. change (Z.to_nat (4 mod 4)) with 0%nat. cbn [seen_4_loop seen_4_tail].
    eapply covers_less; [pieces|]. unfold within. cbn. intros p. lia.
  - unfold seen_8. change ((s_sp - 8) mod 32 =? 0) with true. cbv iota zeta.
    change (Z.to_nat (8 / 8)) with 1%nat. cbn [seen_8_loop]. unfold seen_8_tail, seen_4. change (8 - (0 + 8)) with 0.
    change (Z.to_nat (0 / 4)) with 0%nat. change (Z.to_nat (0 mod 4)) with 0%nat. cbn [seen_4_loop seen_4_tail].
    eapply covers_less; [pieces|]. unfold within. cbn. intros p. lia.
  - unfold seen_ni. change (Z.to_nat (8 / 2)) with 4%nat. change (Z.odd 8) with false. cbn [seen_ni_loop].
    eapply covers_less; [pieces|]. unfold within. cbn. intros p. lia.
Qed.
Definition some_cpu : cpu := {| c_max := 7; c_ecx1 := 0; c_edx1 := 0; c_ebx7 := 0 |}.
Lemma codes_reached t h p : In t (map snd TEST_LIST) -> Hasher some_cpu (t_impl t) = Ok h -> within (codes h) p = true -> fetch image p <> None -> reaches t p.
Proof.
  intros I H W F. pose proof (test_hasher some_cpu t h I H) as T. destruct (prefixes t I) as [_ B].
  assert (R : In (routine_of h) [sha256_1_avx; sha256_4_avx; sha256_8_avx2; sha256_shani]) by (destruct h; cbn; auto).
  destruct (s_call (routine_of h) (t_blocks t) 0 R ltac:(lia) ltac:(lia)) as [C L].
  assert (N : match h with F_sse => t_blocks t = 1 | _ => getr (s_state (routine_of h) (t_blocks t) 0) rdx = t_blocks t end).
  { destruct h; try reflexivity. clear - T. cbn [In] in T. destruct T as [T|[T|[T|[T|[]]]]]; congruence. }
  destruct (call_runs h (t_blocks t) s_ok s_ok s_sect _ C L N) as (k & e & S & [Q] & _). apply walk_steps in S as [S _].
  pose proof (codes_seen h (t_blocks t) (getr (s_state (routine_of h) (t_blocks t) 0) rsi) (getr (s_state (routine_of h) (t_blocks t) 0) rdi) T p W) as P.
  change s_sp with (getr (s_state (routine_of h) (t_blocks t) 0) rsp) in P. rewrite <- Q, map_map in P. clear Q. apply in_map_iff in P as (s & P & J).
  apply In_nth_error in J as [j J].
  assert (K : (j < k)%nat). { rewrite <- (states_len _ _ _ _ _ _ S). apply nth_error_Some. rewrite J. discriminate. }
  rewrite (states_nth _ _ _ _ _ _ _ S K) in J.
  exists some_cpu, h, s_ok, s_ok, s_sect, (s_state (routine_of h) (t_blocks t) 0), j, s.
  split; [exact H|]. split; [exact C|]. split; [exact L|]. split; [exact N|]. split; [apply s_returns; lia|]. split; [exact J|]. split; [exact P|exact F].
Qed.
Lemma image_length : length image = Z.to_nat 13079.
Proof. vm_compute. reflexivity. Qed.
Lemma coverage p : fetch image p <> None -> ((exists t, In t (map snd TEST_LIST) /\ reaches t p) <-> ~ leftover p).
Proof.
  intros F. split; [intros (t & I & R); exact (reached t p I R)|]. rewrite leftover_spec. intros L.
  assert (B : 0 <= p < 13079).
  { unfold fetch in F. destruct (0 <=? p) eqn:P; [|congruence]. apply nth_error_Some in F. rewrite image_length in F. lia. }
  assert (W : within (codes F_sse) p || within (codes F_avx) p || within (codes F_avx2) p || within (codes F_shani) p = true).
  { unfold leftoverb in L. unfold within. cbn. lia. }
  apply orb_prop in W as [W|W]; [apply orb_prop in W as [W|W]; [apply orb_prop in W as [W|W]|]|].
  - exists test_hash_sse_1. split; [cbn; auto|]. apply (codes_reached _ F_sse p); [cbn; auto|reflexivity|exact W|exact F].
  - exists test_hash_avx_4. split; [cbn; auto|]. apply (codes_reached _ F_avx p); [cbn; auto|reflexivity|exact W|exact F].
  - exists test_hash_avx2_8. split; [cbn; auto|]. apply (codes_reached _ F_avx2 p); [cbn; auto|reflexivity|exact W|exact F].
  - exists test_hash_shani. split; [cbn; auto|]. apply (codes_reached _ F_shani p); [cbn; auto|reflexivity|exact W|exact F].
Qed.

(** ** The guards *)
Definition needs_ext (p : Z) (e : extension) : bool :=
  match fetch image p with Some i => match needs i with Some e' => ext_eqb e' e | None => false end | None => false end.
Lemma guard_needs c t h e p : In t (map snd TEST_LIST) -> Hasher some_cpu (t_impl t) = Ok h -> within (codes h) p = true -> needs_ext p e = true ->
  (forall p i, reaches t p -> fetch image p = Some i -> runs_on c i = true) -> reported c e = true.
Proof.
  intros I H W N R. unfold needs_ext in N. destruct (fetch image p) as [i|] eqn:F; [|discriminate N].
  assert (Q : reaches t p) by (apply (codes_reached t h p I H W); congruence).
  specialize (R p i Q F). unfold runs_on in R. destruct (needs i) as [e'|]; [|discriminate N]. apply ext_eqb_eq in N. subst e'. exact R.
Qed.
Lemma reaches_executed t p i c : In t (map snd TEST_LIST) -> reaches t p -> fetch image p = Some i -> exists h, Hasher c (t_impl t) = Ok h /\ executed h i.
Proof.
  intros I (c' & h & rd & wr & sect & st & j & st' & H & C & L & N & R & S & P & _) F. exists h. split.
  - destruct I as [<-|[<-|[<-|[<-|[]]]]]; exact H.
  - exists rd, wr, sect, (t_blocks t), st, j, st'. split; [exact C|]. split; [exact L|]. split; [|split; [exact R|split; [exact S|rewrite P; exact F]]].
    destruct h; exact N.
Qed.
Lemma guard_exact c t present exts : In (t, present, exts)
   [(test_hash_sse_1, Z.testbit (c_ecx1 c) 0, [AVX]); (test_hash_avx_4, Z.testbit (c_ecx1 c) 28, []);
    (test_hash_avx2_8, Z.testbit (c_ebx7 c) 5, [AVX]); (test_hash_shani, Z.testbit (c_ebx7 c) 29, [SSE2; SSSE3; SSE4_1])] ->
  7 <= c_max c -> present = true ->
  ((forall p i, reaches t p -> fetch image p = Some i -> runs_on c i = true) <-> Forall (fun e => reported c e = true) exts).
Proof.
  intros I M G. assert (J : In t (map snd TEST_LIST)) by (destruct I as [[= <- <- <-]|[[= <- <- <-]|[[= <- <- <-]|[[= <- <- <-]|[]]]]]; cbn; auto).
  split.
  - intros R. destruct I as [[= <- _ <-]|[[= <- _ <-]|[[= <- _ <-]|[[= <- _ <-]|[]]]]].
    + constructor; [|constructor]. refine (guard_needs c _ F_sse AVX 9 J eq_refl eq_refl _ R). vm_compute. reflexivity.
    + constructor.
    + constructor; [|constructor]. refine (guard_needs c _ F_avx2 AVX 8220 J eq_refl eq_refl _ R). vm_compute. reflexivity.
    + constructor; [|constructor; [|constructor; [|constructor]]].
      * refine (guard_needs c _ F_shani SSE2 12413 J eq_refl eq_refl _ R). vm_compute. reflexivity.
      * refine (guard_needs c _ F_shani SSSE3 12418 J eq_refl eq_refl _ R). vm_compute. reflexivity.
      * refine (guard_needs c _ F_shani SSE4_1 12827 J eq_refl eq_refl _ R). vm_compute. reflexivity.
  - intros X p i R F. destruct (reaches_executed t p i c J R F) as (h & H & E). unfold runs_on. destruct (needs i) as [e|] eqn:N; [|reflexivity].
    assert (U : In e (uses h)) by (apply executed_uses; exists i; auto). rewrite Forall_forall in X.
    assert (M1 : (1 <=? c_max c) = true) by lia. assert (M7 : (7 <=? c_max c) = true) by lia. clear M E N R F.
    destruct I as [[= <- P <-]|[[= <- P <-]|[[= <- P <-]|[[= <- P <-]|[]]]]]; cbn in H; injection H as <-; cbn [uses In] in U;
      rewrite <- P in G; clear P.
    + apply X. exact U.
    + destruct U as [<-|[]]. unfold reported. rewrite M1. exact G.
    + destruct U as [<-|[<-|[]]]; [apply X; left; reflexivity|]. unfold reported. rewrite M7. exact G.
    + destruct U as [<-|[<-|[<-|[<-|[]]]]]; [apply X; cbn; auto..|]. unfold reported. rewrite M7. exact G.
Qed.

(** ** A wrong program: it leaves out the call of sha256_1_avx in the loop of
    sha256_4_avx, and returns from sha256_shani when one block is left *)
Definition wrong : list instr := upd (upd image (Z.to_nat 8197) (IMov64 rax rax)) (Z.to_nat 12846) (IJmp "sha256_shani.done_hash").
Lemma nth_error_upd {A} (x : A) : forall l k j, nth_error (upd l k x) j = if Nat.eqb j k && Nat.ltb k (length l) then Some x else nth_error l j.
Proof.
  induction l as [|y l IH]; intros k j; [destruct k, j; cbn; rewrite ?andb_false_r; reflexivity|].
  destruct k as [|k], j as [|j]; cbn [upd nth_error Nat.eqb andb length]; try reflexivity. rewrite IH. reflexivity.
Qed.
Lemma upd_len {A} (x : A) : forall l k, length (upd l k x) = length l.
Proof. induction l as [|y l IH]; intros [|k]; cbn; auto. Qed.
Definition is_label (i : instr) : bool := match i with ILabel _ => true | _ => false end.
Lemma label_upd l i : is_label i = false -> forall c k p, (forall j, nth_error c k = Some j -> is_label j = false) -> find_label l (upd c k i) p = find_label l c p.
Proof.
  intros I. induction c as [|x c IH]; intros k p H; [destruct k; reflexivity|]. destruct k as [|k].
  - specialize (H x eq_refl). cbn [upd]. destruct x; try discriminate H; destruct i; try discriminate I; reflexivity.
  - cbn [upd]. destruct x; cbn [find_label]; rewrite (IH k) by exact H; reflexivity.
Qed.
Lemma wrong_outside : same_outside leftover wrong.
Proof.
  assert (P1 : exists i, nth_error image (Z.to_nat 8197) = Some i /\ is_label i = false) by (eexists; split; vm_compute; reflexivity).
  assert (P2 : exists i, nth_error image (Z.to_nat 12846) = Some i /\ is_label i = false) by (eexists; split; vm_compute; reflexivity).
  destruct P1 as (i1 & P1 & Q1), P2 as (i2 & P2 & Q2). constructor.
  - unfold wrong. rewrite !upd_len. reflexivity.
  - intros l. unfold wrong. rewrite !label_upd; [reflexivity|reflexivity|rewrite P1; congruence|reflexivity|].
    intros j. rewrite nth_error_upd. replace (Nat.eqb _ _) with false by (symmetry; apply Nat.eqb_neq; lia). cbn [andb]. rewrite P2. congruence.
  - intros p L. rewrite leftover_spec in L. unfold leftoverb in L. unfold fetch, wrong. destruct (0 <=? p) eqn:E; [|reflexivity]. rewrite !nth_error_upd.
    replace (Nat.eqb (Z.to_nat p) (Z.to_nat 12846)) with false by (symmetry; apply Nat.eqb_neq; lia).
    replace (Nat.eqb (Z.to_nat p) (Z.to_nat 8197)) with false by (symmetry; apply Nat.eqb_neq; lia). reflexivity.
Qed.
Definition wrong_end (f : routine) (k : nat) : option (Z * list Z) :=
  option_map (fun s => (pc s, bytes_at (mem s) s_out 32)) (steps s_ok s_ok s_sect wrong k (s_state f 1 0)).
Definition s_left : list Z := bytes_at s_mem s_out 32.
Lemma wrong_ends : wrong_end sha256_4_avx 21 = Some (s_ret, s_left) /\ wrong_end sha256_8_avx2 42 = Some (s_ret, s_left) /\ wrong_end sha256_shani 13 = Some (s_ret, s_left).
Proof. vm_compute. repeat split; reflexivity. Qed.
Lemma left_wrong : (if list_eq_dec Z.eq_dec s_left (sha256 (bytes_at s_mem s_in 64)) then true else false) = false.
Proof. vm_compute. reflexivity. Qed.
Lemma s_mem_ret : le_val (bytes_at s_mem s_sp 8) = s_ret.
Proof. vm_compute. reflexivity. Qed.
Lemma image_ret : fetch image s_ret = None.
Proof. vm_compute. reflexivity. Qed.
Lemma wrong_call h k : h <> F_sse -> wrong_end (routine_of h) k = Some (s_ret, s_left) ->
  exists m', hash_64b_blocks_of s_ok s_ok s_sect s_own wrong h s_out s_in 1 s_mem m' /\ bytes_at m' s_out 32 = s_left.
Proof.
  intros H W. unfold wrong_end in W. destruct (steps s_ok s_ok s_sect wrong k (s_state (routine_of h) 1 0)) as [e|] eqn:S; [|discriminate W].
  cbn [option_map] in W. assert (E : pc e = s_ret /\ bytes_at (mem e) s_out 32 = s_left) by (split; congruence). clear W. destruct E as [E1 E2].
  exists (mem e). split; [|exact E2].
  assert (R : In (routine_of h) [sha256_1_avx; sha256_4_avx; sha256_8_avx2; sha256_shani]) by (destruct h; cbn; auto).
  destruct (s_call (routine_of h) 1 0 R ltac:(lia) ltac:(lia)) as [C L].
  assert (A : asm_call_of s_ok s_ok s_sect s_own wrong (routine_of h) s_out s_in 1 s_mem (mem e)); [|destruct h; [congruence|exact A..]].
  exists (s_state (routine_of h) 1 0), k, e. split; [reflexivity|]. split; [reflexivity|]. split; [reflexivity|]. split; [right; reflexivity|].
  split; [rewrite (O_labels _ _ wrong_outside); exact L|]. split; [exact C|]. split.
  { intros x X. change (getr (s_state (routine_of h) 1 0) rsp) with s_sp in X. unfold inside in X. cbn [fst snd] in X. left.
    assert (D : r_depth (routine_of h) <= 1720) by (destruct h; cbn; lia). lia. }
  split.
  { intros s I x X. assert (s = 4%nat) by (destruct h; cbn in I; intuition congruence). subst s. right. unfold inside, section_area in X. cbn [fst snd] in X.
    change (zlen (section_bytes 4)) with 64 in X. exact X. }
  change (le_val (bytes_at (mem (s_state (routine_of h) 1 0)) (getr (s_state (routine_of h) 1 0) rsp) 8)) with (le_val (bytes_at s_mem s_sp 8)).
  rewrite s_mem_ret. split; [apply (same_none wrong wrong_outside), image_ret|]. split; [exact S|]. split; [|reflexivity].
  rewrite E1. apply (same_none wrong wrong_outside), image_ret.
Qed.
Lemma wrong_digest h : h <> F_sse -> exists m',
  hash_64b_blocks_of s_ok s_ok s_sect s_own wrong h s_out s_in 1 s_mem m' /\ bytes_at m' s_out 32 <> sha256 (bytes_at s_mem s_in 64).
Proof.
  intros H. assert (W : exists k, wrong_end (routine_of h) k = Some (s_ret, s_left)).
  { destruct wrong_ends as (A & B & C). destruct h; [congruence|exists 21%nat; exact A|exists 42%nat; exact B|exists 13%nat; exact C]. }
  destruct W as [k W]. destruct (wrong_call h k H W) as (m' & S & E). exists m'. split; [exact S|]. rewrite E. pose proof left_wrong as L.
  destruct (list_eq_dec _ _ _) as [Q|Q] in L; [discriminate L|exact Q].
Qed.
Lemma wrong_program : exists code, same_outside leftover code /\
  forall h, In h [F_avx; F_avx2; F_shani] -> exists rd wr sect own out inp m m',
    hash_64b_blocks_of rd wr sect own code h out inp 1 m m' /\
    (forall x, inside x (out, 32) -> ~ own x) /\ (forall x, inside x (inp, 64) -> ~ own x) /\ apart (out, 32) (inp, 64) /\
    bytes_at m' out 32 <> sha256 (bytes_at m inp 64).
Proof.
  exists wrong. split; [exact wrong_outside|]. intros h I.
  destruct (wrong_digest h) as (m' & S & D); [cbn [In] in I; intuition congruence|].
  exists s_ok, s_ok, s_sect, s_own, s_out, s_in, s_mem, m'. split; [exact S|]. unfold s_own, inside, apart, s_sect, s_sp, s_out, s_in. cbn [fst snd].
  split; [intros x X; lia|]. split; [intros x X; lia|]. split; [intros x; unfold inside; cbn [fst snd]; lia|exact D].
Qed.

(** ** Cases *)
Lemma test_8_bytes : bytes_ok test_8_block.
Proof.
  assert (H : forallb (fun b => (0 <=? b) && (b <? 256)) test_8_block = true) by (vm_compute; reflexivity).
  unfold bytes_ok. rewrite Forall_forall. rewrite forallb_forall in H. intros b I. specialize (H b I). change (0 <= b < 256). lia.
Qed.
Lemma test_case c t h : In t (map snd TEST_LIST) -> Hasher c (t_impl t) = Ok h ->
  let m := s_load test_8_block in
  (exists r, test_runs c s_ok s_ok s_sect s_own image t s_out s_in m r) /\
  (forall x, inside x (s_out, 32 * t_blocks t) -> ~ s_own x) /\ (forall x, inside x (s_in, 512) -> ~ s_own x) /\ apart (s_out, 32 * t_blocks t) (s_in, 512) /\
  bytes_at m s_in 512 = test_8_block.
Proof.
  intros I H m. destruct (prefixes t I) as [_ B]. split.
  2: { unfold s_own, inside, apart, s_sect, s_sp, s_out, s_in. cbn [fst snd]. split; [intros x X; lia|]. split; [intros x X; lia|].
       split; [intros x; unfold inside; cbn [fst snd]; lia|exact (s_load_at test_8_block)]. }
  assert (R : In (routine_of h) [sha256_1_avx; sha256_4_avx; sha256_8_avx2; sha256_shani]) by (destruct h; cbn; auto).
  set (st := setm m (s_state (routine_of h) (t_blocks t) 0)).
  destruct (loaded_any (routine_of h) (t_blocks t) test_8_block R ltac:(lia) test_8_bytes ltac:(vm_compute; discriminate)) as (C & L & N & _ & Q).
  assert (K : forall x, inside x (getr st rsp - r_depth (routine_of h), r_depth (routine_of h)) -> s_own x).
  { intros x X. change (getr st rsp) with s_sp in X. unfold inside in X. cbn [fst snd] in X. left.
    assert (D : r_depth (routine_of h) <= 1720) by (destruct h; cbn; lia). lia. }
  assert (V : forall s, In s (r_scratch (routine_of h)) -> forall x, inside x (section_area s_sect s) -> s_own x).
  { intros s J x X. assert (s = 4%nat) by (destruct h; cbn in J; intuition congruence). subst s. right. unfold inside, section_area in X. cbn [fst snd] in X.
    change (zlen (section_bytes 4)) with 64 in X. exact X. }
  exact (test_returns c s_ok s_ok s_sect s_own t h st I H C L (or_intror N) K V Q).
Qed.
Lemma guard_open c t present : In (t, present) (guards c) -> 7 <= c_max c -> (not_skipped c t <-> present = true).
Proof.
  intros I M. destruct (implemented_total c) as [U|[impl U]]; [rewrite implemented_is in U; destruct (c_max c <? 7) eqn:W; [lia|discriminate U]|].
  destruct (guard_is c t present impl I U) as [V _]. split.
  - intros [_ N]. destruct present; [reflexivity|]. exfalso. cbn in V.
    apply (N s_ok s_ok s_sect s_own image 0 0 s_mem). apply test_skipped with impl; [exact U|lia].
  - intros ->. split; [exact M|]. intros rd wr sect own code d b m H. inversion H as [|impl' U' V'|]; subst. assert (impl' = impl) by congruence. subst. cbn in V. lia.
Qed.
Lemma guard_wrong : exists c p i, not_skipped c test_hash_sse_1 /\
  reported c SSE2 = true /\ reported c SSSE3 = true /\ reported c SSE4_1 = true /\
  reaches test_hash_sse_1 p /\ fetch image p = Some i /\ runs_on c i = false.
Proof.
  assert (F : exists i, fetch image 9 = Some i /\ needs i = Some AVX) by (eexists; split; vm_compute; reflexivity). destruct F as (i & F & N).
  exists {| c_max := 13; c_ecx1 := 2 ^ 0 + 2 ^ 9 + 2 ^ 19; c_edx1 := 2 ^ 26; c_ebx7 := 0 |}, 9, i.
  split; [apply guard_open with true; [cbn [guards In]; left; reflexivity|vm_compute; discriminate|reflexivity]|].
  do 3 (split; [vm_compute; reflexivity|]). split; [|split; [exact F|unfold runs_on; rewrite N; vm_compute; reflexivity]].
  apply (codes_reached _ F_sse); [cbn; auto|reflexivity|reflexivity|rewrite F; discriminate].
Qed.
Lemma needs_exactly c t exts : In (t, exts)
   [(test_hash_sse_1, [AVX]); (test_hash_avx_4, []); (test_hash_avx2_8, [AVX]); (test_hash_shani, [SSE2; SSSE3; SSE4_1])] ->
  not_skipped c t ->
  ((forall p i, reaches t p -> fetch image p = Some i -> runs_on c i = true) <-> Forall (fun e => reported c e = true) exts).
Proof.
  intros I N. pose proof (proj1 N) as M.
  destruct I as [[= <- <-]|[[= <- <-]|[[= <- <-]|[[= <- <-]|[]]]]].
  - apply (guard_exact c _ (Z.testbit (c_ecx1 c) 0)); [left; reflexivity|exact M|]. apply (guard_open c test_hash_sse_1); [left; reflexivity|exact M|exact N].
  - apply (guard_exact c _ (Z.testbit (c_ecx1 c) 28)); [right; left; reflexivity|exact M|]. apply (guard_open c test_hash_avx_4); [right; left; reflexivity|exact M|exact N].
  - apply (guard_exact c _ (Z.testbit (c_ebx7 c) 5)); [right; right; left; reflexivity|exact M|]. apply (guard_open c test_hash_avx2_8); [right; right; left; reflexivity|exact M|exact N].
  - apply (guard_exact c _ (Z.testbit (c_ebx7 c) 29)); [right; right; right; left; reflexivity|exact M|].
    apply (guard_open c test_hash_shani); [right; right; right; left; reflexivity|exact M|exact N].
Qed.
(** A routine that returns at once fails its test. *)
Definition returning : list instr := upd image (Z.to_nat (after "sha256_shani" 1)) IRet.
Lemma returning_spot : after "sha256_shani" 1 = 12407 /\ (exists i, nth_error image (Z.to_nat 12407) = Some i /\ is_label i = false).
Proof. split; [vm_compute; reflexivity|eexists; split; vm_compute; reflexivity]. Qed.
Definition all_cpu : cpu := {| c_max := 13; c_ecx1 := 2 ^ 32 - 1; c_edx1 := 2 ^ 32 - 1; c_ebx7 := 2 ^ 32 - 1 |}.
Definition returning_end : option (Z * bool) :=
  option_map (fun s => (pc s, bytes_eqb (bytes_at (mem s) s_out 256) test_8_digests))
    (steps s_ok s_ok s_sect returning 2 (setm (s_load test_8_block) (s_state sha256_shani 8 0))).
Lemma returning_ends : returning_end = Some (s_ret, false) /\ fetch returning s_ret = None.
Proof. vm_compute. split; reflexivity. Qed.
Lemma failing : test_runs all_cpu s_ok s_ok s_sect s_own returning test_hash_shani s_out s_in (s_load test_8_block) (Ok (Some false)).
Proof.
  destruct returning_ends as [W Z0]. unfold returning_end in W. set (st := setm (s_load test_8_block) (s_state sha256_shani 8 0)) in *.
  destruct (steps s_ok s_ok s_sect returning 2 st) as [e|] eqn:S; [|discriminate W].
  cbn [option_map] in W. assert (E : pc e = s_ret /\ bytes_eqb (bytes_at (mem e) s_out 256) test_8_digests = false) by (split; congruence).
  clear W. destruct E as [E1 E2]. rewrite <- E2.
  apply (test_checked all_cpu s_ok s_ok s_sect s_own returning test_hash_shani s_out s_in (s_load test_8_block) 15 F_shani (mem e));
    [reflexivity|discriminate|reflexivity|].
  destruct (loaded_any sha256_shani 8 test_8_block ltac:(cbn; auto) ltac:(lia) test_8_bytes ltac:(vm_compute; discriminate)) as (C & L & N & _ & Q).
  exists st, 2%nat, e. split; [reflexivity|]. split; [reflexivity|]. split; [reflexivity|]. split; [right; exact N|]. split.
  { unfold returning. destruct returning_spot as (X & i & P & R). rewrite X. rewrite label_upd; [exact L|reflexivity|]. rewrite P. congruence. }
  split; [exact C|]. split.
  { intros x X. change (getr st rsp) with s_sp in X. unfold inside in X. cbn [fst snd] in X. left. change (r_depth (routine_of F_shani)) with (r_depth sha256_shani) in X.
    assert (D : r_depth sha256_shani <= 1720) by (cbn; lia). lia. }
  split.
  { intros s J x X. assert (s = 4%nat) by (cbn in J; intuition congruence). subst s. right. unfold inside, section_area in X. cbn [fst snd] in X.
    change (zlen (section_bytes 4)) with 64 in X. exact X. }
  assert (V : le_val (bytes_at (mem st) (getr st rsp) 8) = s_ret) by (vm_compute; reflexivity).
  rewrite V. split; [exact Z0|]. split; [exact S|]. split; [rewrite E1; exact Z0|reflexivity].
Qed.
