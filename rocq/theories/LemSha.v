(** The properties of the assembly, the hasher and the trees computed with it. *)
From Coq Require Import ZArith String List Bool Lia ZifyBool ZifyNat.
From Verif Require Import Base SpecSSZ SpecSha ModelX86 ModelAsm1 ModelAsm4 ModelAsm8 ModelAsmNi ModelImage LemBase SymX86 LemSymX86
  LemSymFrag LemX86 SpecAsm LemDigest LemPiece LemAsm LemAsm8 ModelHasher SamplesAsm LemHasher SpecHasher LemSwap SpecConc LemConc
  ModelHashTree ModelSSZ ModelTree SpecObj SpecTree SpecClasses LemMatch LemCheck LemRoot LemThmTree.
Import ListNotations.
Open Scope list_scope.
Open Scope Z_scope.
Ltac Zify.zify_post_hook ::= Z.div_mod_to_equations.

(** ** Memory during a call *)
Lemma step_setm RD WR sect t : step RD WR sect image (setm (mem t) t) = step RD WR sect image t.
Proof. destruct t. reflexivity. Qed.
Section Prefix.
Variables rd wr RD WR : Z -> bool.
Variable sect : nat -> Z.
Hypothesis wr_rd : forall x, wr x = true -> rd x = true.
Hypothesis rd_RD : forall x, rd x = true -> RD x = true.
Hypothesis wr_WR : forall x, wr x = true -> WR x = true.
Lemma prefix_mem : forall j k s e t, alike rd wr sect k s e t (mem t) -> (j <= k)%nat ->
  exists s' t', steps RD WR sect image j t = Some t' /\ alike rd wr sect (k - j) s' e t' (mem t') /\ forall x, wr x = false -> mem t' x = mem t x.
Proof.
  induction j as [|j IH]; intros k s e t A J; [exists s, t; rewrite Nat.sub_0_r; auto|].
  destruct (alike_step rd wr RD WR sect wr_rd rd_RD wr_WR _ _ _ _ _ A) as (s' & t' & m' & E & A' & K).
  assert (F : exists i, fetch image (pc t) = Some i).
  { destruct A as (S & _ & R & _). rewrite (regs_pc _ _ R). destruct k as [|k]; [lia|]. cbn [steps] in S. unfold step in S.
    destruct (fetch image (pc s)) as [i|]; [exists i; reflexivity|discriminate S]. }
  destruct F as [i F]. unfold thread_step in E. rewrite F, step_setm in E.
  destruct (step RD WR sect image t) as [t1|] eqn:E1; [|discriminate E]. cbn [option_map] in E. apply some_inj in E. injection E as <- <-.
  destruct (IH _ _ _ _ A') as (s2 & t2 & S2 & A2 & K2); [lia|]. exists s2, t2. split; [cbn [steps]; rewrite E1; exact S2|].
  split; [replace (k - S j)%nat with (pred k - j)%nat by lia; exact A2|].
  intros x X. rewrite K2 by exact X. apply K, X.
Qed.
End Prefix.
Lemma call_memory f n rd wr sect st : is_routine f -> (f = sha256_1_avx -> n = 1) -> (f = sha256_1_avx \/ getr st rdx = n) ->
  call rd wr sect (r_consts f) (r_scratch f) (r_depth f) n st -> find_label (r_name f) image 0 = Some (pc st) ->
  fetch image (le_val (bytes_at (mem st) (getr st rsp) 8)) = None ->
  forall j st', steps rd wr sect image j st = Some st' ->
  forall x, Forall (fun a => ~ inside x a) (owned sect (r_scratch f) (r_depth f) n st) -> mem st' x = mem st x.
Proof.
  intros F N1 N C L R j st' S x X. destruct (solo rd wr sect f n st F N1 N C L R) as (k & e & A & _).
  assert (W : within_areas (owned sect (r_scratch f) (r_depth f) n st) x = false).
  { destruct (within_areas _ x) eqn:W; [|reflexivity]. apply within_in in W as (a & Ia & I). rewrite Forall_forall in X. destruct (X a Ia I). }
  pose proof (prefix_mem _ _ rd wr sect (owned_used sect f n st) (within_perm rd _ (C_read _ _ _ _ _ _ _ _ C)) (within_perm wr _ (C_write _ _ _ _ _ _ _ _ C))) as P.
  destruct (Nat.le_gt_cases j k) as [J|J].
  - destruct (P j k st e st A J) as (s' & t' & S' & _ & K). rewrite S in S'. apply some_inj in S'. subst t'. apply K, W.
  - destruct (P k k st e st A ltac:(lia)) as (s' & t' & S' & A' & K). replace j with (k + (j - k))%nat in S by lia. rewrite steps_app, S' in S.
    rewrite Nat.sub_diag in A'. apply alike_done in A' as [Q _]. destruct A as (_ & H & _ & _). rewrite <- (regs_pc _ _ Q) in H.
    rewrite (steps_halted _ _ _ _ _ _ H S). apply K, W.
Qed.

(** ** Blocks of chunks *)
Lemma sha256_chunk bs : bytes_ok bs -> length bs = 64%nat -> chunk_ok (sha256 bs).
Proof.
  intros B L. rewrite sha256_64 by assumption. split; [|apply to_bytes_ok].
  unfold zlen. rewrite (to_bytes_length (fun x => x)), block_digest_length. reflexivity.
Qed.
Lemma pairs_ok l : Forall chunk_ok l -> Forall chunk_ok (hash_pairs sha256 l).
Proof.
  assert (G : forall k l, (length l <= k)%nat -> Forall chunk_ok l -> Forall chunk_ok (hash_pairs sha256 l)).
  { induction k as [|k IH]; intros m K F.
    - destruct m; [constructor|cbn [length] in K; lia].
    - destruct m as [|a [|b m]]; cbn [hash_pairs]; [constructor|constructor|].
      apply Forall_inv' in F as [[A1 A2] F]. apply Forall_inv' in F as [[B1 B2] F]. constructor; [|apply IH; [cbn [length] in K; lia|exact F]].
      apply sha256_chunk; [apply Forall_app; split; assumption|]. unfold zlen in *. rewrite app_length. lia. }
  intros F. exact (G _ _ (le_n _) F).
Qed.
Lemma pairs_zlen l n : zlen l = 2 * n -> zlen (hash_pairs sha256 l) = n.
Proof.
  assert (G : forall k l, length l = (2 * k)%nat -> length (hash_pairs sha256 l) = k).
  { induction k as [|k IH]; intros m K; [destruct m; [reflexivity|discriminate K]|].
    destruct m as [|a [|b m]]; cbn [length] in K; try lia. cbn [hash_pairs length]. rewrite IH by lia. reflexivity. }
  unfold zlen. intros L. rewrite (G (Z.to_nat n) l) by lia. lia.
Qed.
Lemma concat_zlen l : Forall chunk_ok l -> length (concat l) = (32 * length l)%nat.
Proof.
  induction 1 as [|c l [C _] _ IH]; [reflexivity|]. cbn [concat length]. rewrite app_length, IH. unfold zlen in C. lia.
Qed.
Lemma pairs_at m : forall k l inp, Forall chunk_ok l -> length l = (2 * k)%nat -> bytes_at m inp (length (concat l)) = concat l ->
  map (fun i => sha256 (bytes_at m (inp + 64 * Z.of_nat i) 64)) (seq 0 k) = hash_pairs sha256 l.
Proof.
  induction k as [|k IH]; intros l inp F L E; [destruct l; [reflexivity|discriminate L]|].
  destruct l as [|a [|b l]]; cbn [length] in L; try lia. pose proof F as F0.
  apply Forall_inv' in F as [[A _] F]. apply Forall_inv' in F as [[B _] F]. unfold zlen in A, B.
  cbn [concat] in E. rewrite app_assoc, app_length in E. replace (length (a ++ b)) with 64%nat in E by (rewrite app_length; lia).
  rewrite bytes_at_app in E. apply app_inv_length in E as [E1 E2]; [|rewrite bytes_at_length, app_length; lia].
  cbn [seq map hash_pairs]. rewrite Z.mul_0_r, Z.add_0_r, E1. f_equal.
  rewrite <- (IH l (inp + 64)); [|exact F|lia|exact E2]. rewrite <- seq_shift, map_map. apply map_ext. intros i. do 2 f_equal. lia.
Qed.
Lemma block_function_pairs rd wr sect own h N HB : block_function rd wr sect own h N HB ->
  forall l, blocks_ok N l -> HB l = hash_pairs sha256 l.
Proof.
  intros B l (F & n & L & Hn). destruct (B l n F L Hn) as (out & inp & m & m' & NO & NI & AP & E & R & ->).
  destruct (blocks_digested rd wr sect own h out inp n m m' ltac:(lia) R NO NI AP) as [D _].
  rewrite <- (pairs_at m (Z.to_nat n) l inp F) by (unfold zlen in L; lia || exact E).
  apply map_ext_in. intros i I. apply in_seq in I. apply D. lia.
Qed.

(** ** Roots *)
Lemma root_sha rd wr sect own h N HB t s v :
  block_function rd wr sect own h N HB -> 1 <= N -> breadth v <= N ->
  wf t = true -> hashable t = true -> matches t s = true -> has_type s v ->
  hash_tree_root HB t v = Ok (ssz_hash_tree_root sha256 s v).
Proof.
  intros B N1 Bv Hw Hh Hm Hv. rewrite <- (root_any sha256 t s v Hw Hh Hm Hv). unfold hash_tree_root. f_equal.
  apply (tree_swap HB (hash_pairs sha256) N N1 (block_function_pairs _ _ _ _ _ _ _ B)); [|exact Hw| |exact Bv].
  - intros l (F & n & L & Hn). split; [apply pairs_ok, F|]. rewrite (pairs_zlen l n L). lia.
  - apply (matches_type t s v Hm) in Hv. tauto.
Qed.
Lemma root_sha_containers rd wr sect own h N HB t s v :
  block_function rd wr sect own h N HB -> 1 <= N -> breadth v <= N -> container_pair t s -> has_type s v ->
  hash_tree_root HB t v = Ok (ssz_hash_tree_root sha256 s v).
Proof.
  intros B N1 Bv Hp. pose proof (container_pair_container _ _ Hp) as Hc.
  apply (root_sha rd wr sect own h N); auto; [now apply is_container_wf|now apply is_container_hashable|now apply container_pair_matches].
Qed.

(** ** The hasher *)
Lemma blocks_agree rd1 wr1 sect1 (own1 : Z -> Prop) h1 out1 inp1 m1 m1' rd2 wr2 sect2 (own2 : Z -> Prop) h2 out2 inp2 m2 m2' n : 0 <= n ->
  hash_64b_blocks rd1 wr1 sect1 own1 h1 out1 inp1 n m1 m1' ->
  hash_64b_blocks rd2 wr2 sect2 own2 h2 out2 inp2 n m2 m2' ->
  (forall x, inside x (out1, 32 * n) -> ~ own1 x) -> (forall x, inside x (inp1, 64 * n) -> ~ own1 x) -> apart (out1, 32 * n) (inp1, 64 * n) ->
  (forall x, inside x (out2, 32 * n) -> ~ own2 x) -> (forall x, inside x (inp2, 64 * n) -> ~ own2 x) -> apart (out2, 32 * n) (inp2, 64 * n) ->
  (forall j, 0 <= j < 64 * n -> m1 (inp1 + j) = m2 (inp2 + j)) ->
  forall j, 0 <= j < 32 * n -> m1' (out1 + j) = m2' (out2 + j).
Proof.
  intros N R1 R2 A1 B1 C1 A2 B2 C2 E j J.
  destruct (blocks_digested _ _ _ _ _ _ _ _ _ _ N R1 A1 B1 C1) as [D1 _]. destruct (blocks_digested _ _ _ _ _ _ _ _ _ _ N R2 A2 B2 C2) as [D2 _].
  assert (I : 0 <= j / 32 < n) by lia. specialize (D1 _ I). specialize (D2 _ I).
  assert (EE : bytes_at m1 (inp1 + 64 * (j / 32)) 64 = bytes_at m2 (inp2 + 64 * (j / 32)) 64).
  { unfold bytes_at. apply map_ext_in. intros i Hi. apply in_seq in Hi. rewrite <- !Z.add_assoc. apply E. lia. }
  rewrite EE, <- D2 in D1.
  assert (G : forall m a, m (a + j) = nth (Z.to_nat (j mod 32)) (bytes_at m (a + 32 * (j / 32)) 32) 0).
  { intros m a. unfold bytes_at. rewrite (nth_indep _ 0 (m (a + 32 * (j / 32) + Z.of_nat 0))) by (rewrite map_length, seq_length; lia).
    rewrite (map_nth (fun i => m (a + 32 * (j / 32) + Z.of_nat i))), seq_nth by lia. f_equal. lia. }
  rewrite !G, D1. reflexivity.
Qed.
Lemma blocks_return rd wr sect (own : Z -> Prop) h n st : let f := routine_of h in
  call rd wr sect (r_consts f) (r_scratch f) (r_depth f) n st ->
  find_label (r_name f) image 0 = Some (pc st) -> (h = F_sse \/ getr st rdx = n) ->
  (forall x, inside x (getr st rsp - r_depth f, r_depth f) -> own x) ->
  (forall s, In s (r_scratch f) -> forall x, inside x (section_area sect s) -> own x) ->
  fetch image (le_val (bytes_at (mem st) (getr st rsp) 8)) = None ->
  exists m', hash_64b_blocks rd wr sect own h (getr st rdi) (getr st rsi) n (mem st) m'.
Proof.
  cbv zeta. intros C L N P1 P2 R. destruct h; cbn [routine_of] in *; cbn [hash_64b_blocks hash_64b_blocks_of].
  - pose proof (C_count _ _ _ _ _ _ _ _ C) as Hn. apply (sse_returns rd wr sect own (Z.to_nat n) st); rewrite ?Z2Nat.id by exact Hn; assumption.
  - destruct N as [N|N]; [discriminate N|].
    destruct (asm_returns rd wr sect own sha256_4_avx n st) as (st' & _ & A); auto; [right; left; reflexivity|discriminate|]. exists (mem st'). exact A.
  - destruct N as [N|N]; [discriminate N|].
    destruct (asm_returns rd wr sect own sha256_8_avx2 n st) as (st' & _ & A); auto; [right; right; left; reflexivity|discriminate|]. exists (mem st'). exact A.
  - destruct N as [N|N]; [discriminate N|].
    destruct (asm_returns rd wr sect own sha256_shani n st) as (st' & _ & A); auto; [right; right; right; left; reflexivity|discriminate|]. exists (mem st'). exact A.
Qed.

(** ** The sample process *)
Lemma call_setm rd wr sect consts scratch depth n st m : call rd wr sect consts scratch depth n st ->
  (forall x, 0 <= m x < 256) -> (forall s, In s consts -> forall x, inside x (section_area sect s) -> m x = mem st x) ->
  call rd wr sect consts scratch depth n (setm m st).
Proof.
  intros C B M. constructor; try (destruct C; assumption).
  - destruct (C_valid _ _ _ _ _ _ _ _ C). constructor; assumption.
  - pose proof (C_consts _ _ _ _ _ _ _ _ C) as F. rewrite Forall_forall in *. intros s S. transitivity (bytes_at (mem st) (sect s) (length (section_bytes s))); [|exact (F s S)]. apply bytes_at_ext.
    intros x X. apply (M s S). unfold inside, section_area, zlen. cbn [fst snd mem setm] in *. exact X.
Qed.
(** the stack of the assembly and its variables *)
Definition s_own (x : Z) : Prop := s_sp - 1720 <= x < s_sp \/ s_sect 4 <= x < s_sect 4 + 64.
Definition s_load (bs : list Z) (x : Z) : Z :=
  if (s_in <=? x) && (x <? s_in + zlen bs) then nth (Z.to_nat (x - s_in)) bs 0 else s_mem x.
Lemma s_load_ok bs : bytes_ok bs -> forall x, 0 <= s_load bs x < 256.
Proof.
  intros B x. unfold s_load. destruct (_ && _) eqn:E.
  - unfold bytes_ok in B. rewrite Forall_forall in B. apply B, nth_In. unfold zlen in E. lia.
  - exact (V_mem _ (s_valid sha256_shani 1 0 ltac:(lia) ltac:(lia)) x).
Qed.
Lemma s_load_at bs : bytes_at (s_load bs) s_in (length bs) = bs.
Proof.
  transitivity (map (fun i => nth i bs 0) (seq 0 (length bs))); [|apply map_nth_seq]. unfold bytes_at. apply map_ext_in. intros i I. apply in_seq in I. unfold s_load.
  replace (_ && _) with true by (unfold zlen; lia). f_equal. lia.
Qed.
Lemma s_block_function h : block_function s_ok s_ok s_sect s_own h 1000 (hash_pairs sha256).
Proof.
  intros l n F L Hn. set (f := routine_of h).
  assert (BO : bytes_ok (concat l)).
  { clear - F. induction F as [|c l [_ C] _ IH]; [constructor|]. cbn [concat]. apply Forall_app. split; assumption. }
  assert (CL : zlen (concat l) = 64 * n) by (pose proof (concat_zlen l F) as Q; unfold zlen in *; lia).
  assert (If : In f [sha256_1_avx; sha256_4_avx; sha256_8_avx2; sha256_shani]) by (unfold f; destruct h; cbn; auto).
  destruct (s_call f n 0 If ltac:(lia) ltac:(lia)) as [C La].
  assert (SL : forall x, x < s_in \/ s_in + 64000 <= x -> s_load (concat l) x = s_mem x).
  { intros x X. unfold s_load. replace (_ && _) with false by lia. reflexivity. }
  apply (call_setm _ _ _ _ _ _ _ _ (s_load (concat l))) in C; [|apply s_load_ok, BO|].
  2: { intros s S x X. apply SL. left. unfold inside, section_area, s_sect, s_in in *. cbn [fst snd] in X.
       assert (Q : (s <= 4)%nat /\ zlen (section_bytes s) <= 4392).
       { cbn [In] in If. destruct If as [E|[E|[E|[E|[]]]]]; rewrite <- E in S; cbn [In r_consts sha256_1_avx sha256_4_avx sha256_8_avx2 sha256_shani] in S;
           decompose [or] S; try contradiction; subst s; (split; [lia|vm_compute; discriminate]). }
       lia. }
  set (st := setm (s_load (concat l)) (s_state f n 0)) in *.
  assert (G : getr st rsp = 262152 /\ getr st rsi = 65537 /\ getr st rdi = 131074) by (repeat split; reflexivity). destruct G as (G1 & G2 & G3).
  destruct (blocks_return s_ok s_ok s_sect s_own h n st) as (m' & R); fold f; auto.
  - intros x X. left. unfold inside in X. rewrite G1 in X. cbn [fst snd] in X. unfold s_sp.
    assert (r_depth f <= 1720) by (unfold f; destruct h; cbn; lia). lia.
  - intros s S x X. assert (E : s = 4%nat) by (unfold f in S; destruct h; cbn in S; intuition). subst s. right.
    unfold inside, section_area in X. cbn [fst snd] in X. change (zlen (section_bytes 4)) with 64 in X. exact X.
  - rewrite G1. replace (bytes_at (mem st) 262152 8) with (le_bytes 8 s_ret); [vm_compute; reflexivity|]. symmetry.
    transitivity (bytes_at s_mem 262152 8); [|vm_compute; reflexivity]. apply bytes_at_ext. intros x X. apply SL. right. unfold s_in. lia.
  - exists s_out, s_in, (s_load (concat l)), m'.
    assert (NO : forall x, inside x (s_out, 32 * n) -> ~ s_own x) by (unfold inside, s_own, s_out, s_sp, s_sect; cbn [fst snd]; lia).
    assert (NI : forall x, inside x (s_in, 64 * n) -> ~ s_own x) by (unfold inside, s_own, s_in, s_sp, s_sect; cbn [fst snd]; lia).
    assert (AP : apart (s_out, 32 * n) (s_in, 64 * n)) by (unfold apart, inside, s_in, s_out; cbn [fst snd]; lia).
    split; [exact NO|]. split; [exact NI|]. split; [exact AP|]. split; [apply s_load_at|]. split; [exact R|].
    change (getr st rdi) with s_out in R. change (getr st rsi) with s_in in R. change (mem st) with (s_load (concat l)) in R.
    destruct (blocks_digested _ _ _ _ h s_out s_in n _ m' ltac:(lia) R NO NI AP) as [D _].
    rewrite <- (pairs_at (s_load (concat l)) (Z.to_nat n) l s_in F) by (unfold zlen in L; lia || apply s_load_at).
    apply map_ext_in. intros i I. apply in_seq in I. symmetry. apply D. lia.
Qed.

(** ** Extensions *)
Definition extensions (h : hasher_fn) : list extension :=
  match h with
  | F_sse | F_avx => [AVX]
  | F_avx2 => [AVX; AVX2]
  | F_shani => [SSE2; SSSE3; SSE4_1; SHA]
  end.
Definition ext_eqb (a b : extension) : bool :=
  match a, b with
  | SSE2, SSE2 | SSSE3, SSSE3 | SSE4_1, SSE4_1 | AVX, AVX | AVX2, AVX2 | SHA, SHA => true
  | _, _ => false
  end.
Lemma ext_eqb_eq a b : ext_eqb a b = true -> a = b.
Proof. destruct a, b; cbn; congruence. Qed.
Lemma extensions_ok h : forallb (fun i => match needs i with None => true | Some e => existsb (ext_eqb e) (extensions h) end) (code_of h) = true /\
  forallb (fun e => existsb (fun i => match needs i with None => false | Some e' => ext_eqb e' e end) (code_of h)) (extensions h) = true.
Proof. destruct h; split; vm_compute; reflexivity. Qed.
Lemma runs_iff c h : forallb (runs_on c) (code_of h) = true <-> Forall (fun e => reported c e = true) (extensions h).
Proof.
  destruct (extensions_ok h) as [A B]. rewrite forallb_forall in *. rewrite Forall_forall. split.
  - intros R e E. specialize (B e E). apply existsb_exists in B as (i & I & X). destruct (needs i) as [e'|] eqn:Ne; [|discriminate X].
    apply ext_eqb_eq in X. subst e'. specialize (R i I). unfold runs_on in R. rewrite Ne in R. exact R.
  - intros R i I. specialize (A i I). unfold runs_on. destruct (needs i) as [e|]; [|reflexivity].
    apply existsb_exists in A as (e' & E & X). apply ext_eqb_eq in X. subst e'. exact (R e E).
Qed.
Lemma land_bit x k : 0 <= k -> (Z.land x (2 ^ k) =? 0) = negb (Z.testbit x k).
Proof.
  intros K. destruct (Z.testbit x k) eqn:T; cbn [negb].
  - apply Z.eqb_neq. intros E. assert (Q : Z.testbit (Z.land x (2 ^ k)) k = true) by (rewrite Z.land_spec, T, Z.pow2_bits_true by exact K; reflexivity).
    rewrite E, Z.bits_0 in Q. discriminate Q.
  - apply Z.eqb_eq. apply Z.bits_inj'. intros j J. rewrite Z.land_spec, Z.bits_0, Z.pow2_bits_eqb by exact K.
    destruct (Z.eqb_spec k j) as [->|]; [rewrite T; reflexivity|apply andb_false_r].
Qed.
Lemma best_leaf c : c_max c < 7 -> best_sha256_implementation c = UB.
Proof. intros L. unfold best_sha256_implementation, implemented. replace (c_max c <? 7) with true by lia. reflexivity. Qed.
Lemma best_choice c h : best_sha256_implementation c = Ok h -> 7 <= c_max c /\
  h = if reported c SHA then F_shani else if reported c AVX2 then F_avx2 else if reported c AVX then F_avx else F_sse.
Proof.
  unfold best_sha256_implementation, implemented. destruct (c_max c <? 7) eqn:M; [discriminate|]. cbn [bind]. intros E.
  split; [lia|]. unfold bit_SHA, bit_AVX2, bit_AVX, bit_SSE3 in E. change 1 with (2 ^ 0) in E. rewrite !land_bit in E by lia.
  unfold reported. replace (7 <=? c_max c) with true by lia. replace (1 <=? c_max c) with true by lia. cbn [andb].
  destruct (Z.testbit (c_ebx7 c) 29), (Z.testbit (c_ebx7 c) 5), (Z.testbit (c_ecx1 c) 28), (Z.testbit (c_ecx1 c) 0);
    cbn in E; injection E as <-; reflexivity.
Qed.
Lemma best_runs c h : best_sha256_implementation c = Ok h ->
  (forallb (runs_on c) (code_of h) = true <->
   if reported c SHA then reported c SSE2 = true /\ reported c SSSE3 = true /\ reported c SSE4_1 = true else reported c AVX = true).
Proof.
  intros E. destruct (best_choice c h E) as [_ ->]. rewrite runs_iff.
  destruct (reported c SHA) eqn:S1.
  - cbn [extensions]. rewrite !Forall_cons_iff. intuition.
  - destruct (reported c AVX2) eqn:S2; [|destruct (reported c AVX) eqn:S3]; cbn [extensions]; rewrite !Forall_cons_iff; pose proof (Forall_nil (fun e => reported c e = true)); intuition congruence.
Qed.
(** ** Two threads in the sample process *)
Lemma s_keeps_off f g n k t u : In f [sha256_1_avx; sha256_4_avx; sha256_8_avx2; sha256_shani] ->
  In g [sha256_1_avx; sha256_4_avx; sha256_8_avx2; sha256_shani] -> f <> sha256_shani \/ g <> sha256_shani ->
  0 <= n <= 1000 -> 0 <= k <= 1000 -> 0 <= t <= 1 -> u = 1 - t ->
  keeps_off s_sect f n (s_state f n t) g k (s_state g k u).
Proof.
  intros F G D N K T U.
  assert (L0 : zlen (section_bytes 0) = 592) by (vm_compute; reflexivity).
  assert (L1 : zlen (section_bytes 1) = 2192) by (vm_compute; reflexivity).
  assert (L2 : zlen (section_bytes 2) = 4392) by (vm_compute; reflexivity).
  assert (L3 : zlen (section_bytes 3) = 560) by (vm_compute; reflexivity).
  assert (L4 : zlen (section_bytes 4) = 64) by (vm_compute; reflexivity).
  assert (G0 : getr (s_state f n t) rsp = 262152 + 400016 * t /\ getr (s_state f n t) rsi = 65537 + 400016 * t /\ getr (s_state f n t) rdi = 131074 + 400016 * t)
    by (repeat split; reflexivity).
  assert (G1 : getr (s_state g k u) rsp = 262152 + 400016 * u /\ getr (s_state g k u) rsi = 65537 + 400016 * u /\ getr (s_state g k u) rdi = 131074 + 400016 * u)
    by (repeat split; reflexivity).
  destruct G0 as (A1 & A2 & A3), G1 as (B1 & B2 & B3). revert A1 A2 A3 B1 B2 B3.
  generalize (s_state f n t), (s_state g k u). intros a b A1 A2 A3 B1 B2 B3.
  unfold keeps_off, used, read_only, owned. rewrite A1, A3, B1, B2, B3. clear A1 A2 A3 B1 B2 B3 a b.
  cbn [In] in F, G.
  assert (E : t = 0 /\ u = 1 \/ t = 1 /\ u = 0) by lia. clear T U.
  destruct E as [[-> ->]|[-> ->]]; destruct F as [<-|[<-|[<-|[<-|[]]]]], G as [<-|[<-|[<-|[<-|[]]]]]; try (exfalso; intuition congruence); clear D;
  cbn [r_consts r_scratch r_depth sha256_1_avx sha256_4_avx sha256_8_avx2 sha256_shani map app]; rewrite ?s_area;
  repeat (apply Forall_cons; [repeat (apply Forall_cons; [unfold apart, inside; cbn [fst snd]; rewrite ?L0, ?L1, ?L2, ?L3, ?L4; clear - N K; intros x; lia|]); apply Forall_nil|]); apply Forall_nil.
Qed.
Lemma s_returns f n t : 0 <= t <= 1 -> fetch image (le_val (bytes_at s_mem (getr (s_state f n t) rsp) 8)) = None.
Proof.
  intros T. assert (E : t = 0 \/ t = 1) by lia. destruct E as [-> | ->].
  - change (getr (s_state f n 0) rsp) with 262152. vm_compute. reflexivity.
  - change (getr (s_state f n 1) rsp) with 662168. vm_compute. reflexivity.
Qed.
(** Two concurrent calls of sha256_shani with two blocks each: the first thread is
    stopped between saving the state of its blocks and adding it, and the second saves
    there. *)
Definition race : list bool := repeat true 320 ++ repeat false 320 ++ repeat true 130 ++ repeat false 130.
Definition observe (r : state * state * (Z -> Z)) : Z * Z * list Z * list Z :=
  let '(a, b, m) := r in (pc a, pc b, bytes_at m s_out 32, bytes_at m (s_out + s_gap) 32).
Definition race_digest : list Z :=
  [205; 2; 18; 9; 108; 202; 143; 80; 140; 59; 133; 196; 87; 98; 45; 226; 26; 111; 42; 172; 137; 129; 121; 147; 30; 115; 126; 137; 2; 54; 246; 14].
Lemma race_run : option_map observe (interleave s_ok s_ok s_sect race (s_state sha256_shani 2 0) (s_state sha256_shani 2 1) s_mem)
  = Some (s_ret, s_ret, race_digest, sha256 (bytes_at s_mem (s_in + s_gap) 64)).
Proof. vm_compute. reflexivity. Qed.
Lemma race_wrong : race_digest <> sha256 (bytes_at s_mem s_in 64).
Proof. vm_compute. discriminate. Qed.
Lemma observed (x : option (state * state * (Z -> Z))) p q d e : option_map observe x = Some (p, q, d, e) ->
  exists a b m, x = Some (a, b, m) /\ pc a = p /\ pc b = q /\ bytes_at m s_out 32 = d /\ bytes_at m (s_out + s_gap) 32 = e.
Proof.
  destruct x as [[[a b] m]|]; [|discriminate]. cbn [option_map observe]. intros E. apply some_inj in E. injection E as E1 E2 E3 E4.
  exists a, b, m. repeat split; assumption.
Qed.

(** ** The theorems, in the form of ThmSha.v *)
Lemma one_block rd wr sect st :
  call rd wr sect [0%nat] [] 120 1 st -> find_label "sha256_1_avx" image 0 = Some (pc st) ->
  exists k st', steps rd wr sect image k st = Some st' /\
    pc st' = le_val (bytes_at (mem st) (getr st rsp) 8) /\
    bytes_at (mem st') (getr st rdi) 32 = sha256 (bytes_at (mem st) (getr st rsi) 64).
Proof.
  intros C L. destruct (avx1_correct rd wr sect st C L) as (k & st' & S & R & H). exists k, st'. split; [exact S|].
  split; [exact (E_pc _ _ _ _ _ _ R)|]. specialize (H 0 ltac:(lia)). rewrite !Z.mul_0_r, !Z.add_0_r in H. exact H.
Qed.
Lemma four_lanes rd wr sect st : let n := getr st rdx in
  call rd wr sect [0%nat; 1%nat] [] 536 n st -> find_label "sha256_4_avx" image 0 = Some (pc st) ->
  exists k st', steps rd wr sect image k st = Some st' /\
    pc st' = le_val (bytes_at (mem st) (getr st rsp) 8) /\
    forall i, 0 <= i < n -> bytes_at (mem st') (getr st rdi + 32 * i) 32 = sha256 (bytes_at (mem st) (getr st rsi + 64 * i) 64).
Proof.
  intros n C L. destruct (avx4_correct rd wr sect st C L) as (k & st' & S & R & H). exists k, st'. split; [exact S|].
  split; [exact (E_pc _ _ _ _ _ _ R)|exact H].
Qed.
Lemma eight_lanes rd wr sect st : let n := getr st rdx in
  call rd wr sect [0%nat; 1%nat; 2%nat] [] 1720 n st -> find_label "sha256_8_avx2" image 0 = Some (pc st) ->
  exists k st', steps rd wr sect image k st = Some st' /\
    pc st' = le_val (bytes_at (mem st) (getr st rsp) 8) /\
    forall i, 0 <= i < n -> bytes_at (mem st') (getr st rdi + 32 * i) 32 = sha256 (bytes_at (mem st) (getr st rsi + 64 * i) 64).
Proof.
  intros n C L. destruct (avx8_correct rd wr sect st C L) as (k & st' & S & R & H). exists k, st'. split; [exact S|].
  split; [exact (E_pc _ _ _ _ _ _ R)|exact H].
Qed.
Lemma sha_extensions rd wr sect st : let n := getr st rdx in
  call rd wr sect [3%nat] [4%nat] 0 n st -> find_label "sha256_shani" image 0 = Some (pc st) ->
  exists k st', steps rd wr sect image k st = Some st' /\
    pc st' = le_val (bytes_at (mem st) (getr st rsp) 8) /\
    forall i, 0 <= i < n -> bytes_at (mem st') (getr st rdi + 32 * i) 32 = sha256 (bytes_at (mem st) (getr st rsi + 64 * i) 64).
Proof.
  intros n C L. destruct (shani_correct rd wr sect st C L) as (k & st' & S & R & H). exists k, st'. split; [exact S|].
  split; [exact (E_pc _ _ _ _ _ _ R)|exact H].
Qed.
Lemma hashers_agree n rd1 wr1 sect1 (own1 : Z -> Prop) h1 out1 inp1 m1 m1' rd2 wr2 sect2 (own2 : Z -> Prop) h2 out2 inp2 m2 m2' :
  0 <= n ->
  hash_64b_blocks rd1 wr1 sect1 own1 h1 out1 inp1 n m1 m1' ->
  hash_64b_blocks rd2 wr2 sect2 own2 h2 out2 inp2 n m2 m2' ->
  (forall x, inside x (out1, 32 * n) -> ~ own1 x) -> (forall x, inside x (inp1, 64 * n) -> ~ own1 x) ->
  apart (out1, 32 * n) (inp1, 64 * n) ->
  (forall x, inside x (out2, 32 * n) -> ~ own2 x) -> (forall x, inside x (inp2, 64 * n) -> ~ own2 x) ->
  apart (out2, 32 * n) (inp2, 64 * n) ->
  (forall j, 0 <= j < 64 * n -> m1 (inp1 + j) = m2 (inp2 + j)) ->
  forall j, 0 <= j < 32 * n -> m1' (out1 + j) = m2' (out2 + j).
Proof. apply blocks_agree. Qed.
Lemma convention f n rd wr sect st :
  In f [sha256_1_avx; sha256_4_avx; sha256_8_avx2; sha256_shani] ->
  (f = sha256_1_avx -> n = 1) -> (f = sha256_1_avx \/ getr st rdx = n) ->
  call rd wr sect (r_consts f) (r_scratch f) (r_depth f) n st -> find_label (r_name f) image 0 = Some (pc st) ->
  exists k st', steps rd wr sect image k st = Some st' /\
    pc st' = le_val (bytes_at (mem st) (getr st rsp) 8) /\ getr st' rsp = getr st rsp + 8 /\
    (forall r, In r [rbx; rbp; r12; r13; r14; r15] -> getr st' r = getr st r).
Proof.
  intros F N1 N C L. destruct (routine_correct f n F rd wr sect st N1 N C L) as (k & st' & S & R & _). exists k, st'.
  split; [exact S|]. split; [exact (E_pc _ _ _ _ _ _ R)|]. split; [exact (E_rsp _ _ _ _ _ _ R)|].
  apply Forall_forall. exact (E_saved _ _ _ _ _ _ R).
Qed.
Lemma memory_kept f n rd wr sect st :
  In f [sha256_1_avx; sha256_4_avx; sha256_8_avx2; sha256_shani] ->
  (f = sha256_1_avx -> n = 1) -> (f = sha256_1_avx \/ getr st rdx = n) ->
  call rd wr sect (r_consts f) (r_scratch f) (r_depth f) n st -> find_label (r_name f) image 0 = Some (pc st) ->
  fetch image (le_val (bytes_at (mem st) (getr st rsp) 8)) = None ->
  forall j st', steps rd wr sect image j st = Some st' ->
  forall x, ~ (getr st rsp - r_depth f <= x < getr st rsp) -> ~ (getr st rdi <= x < getr st rdi + 32 * n) ->
    (forall s, In s (r_scratch f) -> ~ inside x (section_area sect s)) -> mem st' x = mem st x.
Proof.
  intros F N1 N C L R j st' S x X1 X2 X3. apply (call_memory f n rd wr sect st F N1 N C L R j st' S). unfold owned.
  apply Forall_cons; [unfold inside; cbn [fst snd]; intros Q; apply X1; lia|].
  apply Forall_cons; [unfold inside; cbn [fst snd]; intros Q; apply X2; lia|].
  apply Forall_forall. intros a A. apply in_map_iff in A as (s & <- & Is). exact (X3 s Is).
Qed.
Lemma s_buffers f g n k : r_depth f <= 1720 -> r_depth g <= 1720 -> 0 <= n <= 1000 -> 0 <= k <= 1000 ->
  Forall (fun x => Forall (apart x) (buffers g k (s_state g k 1))) (buffers f n (s_state f n 0)).
Proof.
  intros F G N K. unfold buffers.
  change (getr (s_state f n 0) rsp) with 262152. change (getr (s_state f n 0) rsi) with 65537. change (getr (s_state f n 0) rdi) with 131074.
  change (getr (s_state g k 1) rsp) with 662168. change (getr (s_state g k 1) rsi) with 465553. change (getr (s_state g k 1) rdi) with 531090.
  repeat (apply Forall_cons; [repeat (apply Forall_cons; [unfold apart, inside; cbn [fst snd]; intros x; lia|]); apply Forall_nil|]); apply Forall_nil.
Qed.
Lemma shani_race : exists a b m schedule a' b' m',
  call s_ok s_ok s_sect [3%nat] [4%nat] 0 2 a /\ call s_ok s_ok s_sect [3%nat] [4%nat] 0 2 b /\
  find_label "sha256_shani" image 0 = Some (pc a) /\ find_label "sha256_shani" image 0 = Some (pc b) /\
  getr a rdx = 2 /\ getr b rdx = 2 /\ mem a = m /\ mem b = m /\
  Forall (fun x => Forall (apart x) (buffers sha256_shani 2 b)) (buffers sha256_shani 2 a) /\
  interleave s_ok s_ok s_sect schedule a b m = Some (a', b', m') /\
  pc a' = le_val (bytes_at m (getr a rsp) 8) /\ pc b' = le_val (bytes_at m (getr b rsp) 8) /\
  bytes_at m' (getr a rdi) 32 <> sha256 (bytes_at m (getr a rsi) 64).
Proof.
  destruct (observed _ _ _ _ _ race_run) as (a' & b' & m' & E & P1 & P2 & D1 & D2).
  assert (I : In sha256_shani [sha256_1_avx; sha256_4_avx; sha256_8_avx2; sha256_shani]) by (right; right; right; left; reflexivity).
  destruct (s_call sha256_shani 2 0 I ltac:(lia) ltac:(lia)) as [A1 A2]. destruct (s_call sha256_shani 2 1 I ltac:(lia) ltac:(lia)) as [B1 B2].
  exists (s_state sha256_shani 2 0), (s_state sha256_shani 2 1), s_mem, race, a', b', m'.
  split; [exact A1|]. split; [exact B1|]. split; [exact A2|]. split; [exact B2|]. split; [reflexivity|]. split; [reflexivity|].
  split; [reflexivity|]. split; [reflexivity|]. split; [apply s_buffers; cbn; lia|]. split; [exact E|].
  split; [rewrite P1; vm_compute; reflexivity|]. split; [rewrite P2; vm_compute; reflexivity|].
  change (getr (s_state sha256_shani 2 0) rdi) with s_out. change (getr (s_state sha256_shani 2 0) rsi) with s_in. rewrite D1. exact race_wrong.
Qed.
Lemma s_two : forall g, In g [sha256_8_avx2; sha256_shani] ->
  let a := s_state sha256_8_avx2 29 0 in let b := s_state g 13 1 in
  mem a = mem b /\
  call s_ok s_ok s_sect [0%nat; 1%nat; 2%nat] [] 1720 29 a /\ find_label "sha256_8_avx2" image 0 = Some (pc a) /\
  call s_ok s_ok s_sect (r_consts g) (r_scratch g) (r_depth g) 13 b /\ find_label (r_name g) image 0 = Some (pc b) /\
  fetch image (le_val (bytes_at (mem a) (getr a rsp) 8)) = None /\ fetch image (le_val (bytes_at (mem a) (getr b rsp) 8)) = None /\
  keeps_off s_sect sha256_8_avx2 29 a g 13 b /\ keeps_off s_sect g 13 b sha256_8_avx2 29 a.
Proof.
  intros g G a b. split; [reflexivity|].
  assert (I : In sha256_8_avx2 [sha256_1_avx; sha256_4_avx; sha256_8_avx2; sha256_shani]) by (right; right; left; reflexivity).
  assert (J : In g [sha256_1_avx; sha256_4_avx; sha256_8_avx2; sha256_shani]) by (right; right; exact G).
  destruct (s_call sha256_8_avx2 29 0 I ltac:(lia) ltac:(lia)) as [A1 A2]. destruct (s_call g 13 1 J ltac:(lia) ltac:(lia)) as [B1 B2].
  split; [exact A1|]. split; [exact A2|]. split; [exact B1|]. split; [exact B2|].
  split; [apply (s_returns sha256_8_avx2 29 0); lia|]. split; [apply (s_returns g 13 1); lia|].
  split; [apply s_keeps_off|apply s_keeps_off]; auto; try lia; [left|right]; discriminate.
Qed.
Definition westmere : cpu := {| c_max := 11; c_ecx1 := 2 ^ 0 + 2 ^ 9 + 2 ^ 19; c_edx1 := 2 ^ 26; c_ebx7 := 0 |}.
Definition no_avx_at (k : nat) : bool :=
  match option_map pc (steps s_ok s_ok s_sect image k (s_state sha256_1_avx 1 0)) with
  | Some p => match fetch image p with Some i => negb (runs_on westmere i) | None => false end
  | None => false
  end.
Lemma no_avx : exists c st k st' i,
  reported c SSE2 = true /\ reported c SSSE3 = true /\ reported c SSE4_1 = true /\ 7 <= c_max c /\
  best_sha256_implementation c = Ok F_sse /\
  call s_ok s_ok s_sect [0%nat] [] 120 1 st /\ find_label (r_name (routine_of F_sse)) image 0 = Some (pc st) /\
  steps s_ok s_ok s_sect image k st = Some st' /\ fetch image (pc st') = Some i /\ runs_on c i = false.
Proof.
  assert (W : no_avx_at 30 = true) by (vm_compute; reflexivity). unfold no_avx_at in W.
  assert (I : In sha256_1_avx [sha256_1_avx; sha256_4_avx; sha256_8_avx2; sha256_shani]) by (left; reflexivity).
  destruct (s_call sha256_1_avx 1 0 I ltac:(lia) ltac:(lia)) as [A1 A2].
  exists westmere, (s_state sha256_1_avx 1 0), 30%nat.
  destruct (steps s_ok s_ok s_sect image 30 (s_state sha256_1_avx 1 0)) as [st'|]; [|discriminate W]. cbn [option_map] in W.
  exists st'. destruct (fetch image (pc st')) as [i|]; [|discriminate W]. exists i.
  split; [reflexivity|]. split; [reflexivity|]. split; [reflexivity|]. split; [discriminate|]. split; [vm_compute; reflexivity|].
  split; [exact A1|]. split; [exact A2|]. split; [reflexivity|]. split; [reflexivity|]. apply negb_true_iff, W.
Qed.
