(** The routines a Hasher can point to hash every block, and agree. *)
From Coq Require Import ZArith String List Bool Lia ZifyBool ZifyNat.
From Verif Require Import Base SpecSha ModelX86 ModelImage LemBase SymX86 LemSymX86 LemSymFrag LemX86 SpecAsm LemDigest LemPiece LemAsm LemAsm8 ModelHasher.
Import ListNotations.
Open Scope list_scope.
Open Scope Z_scope.
Ltac Zify.zify_post_hook ::= Z.div_mod_to_equations.

Lemma FOP_inv {A} (R : A -> A -> Prop) a l : ForallOrdPairs R (a :: l) -> Forall (R a) l /\ ForallOrdPairs R l.
Proof. intros F. inversion F; subst. split; assumption. Qed.
Lemma Forall_inv' {A} (P : A -> Prop) a l : Forall P (a :: l) -> P a /\ Forall P l.
Proof. intros F. inversion F; subst. split; assumption. Qed.
Section Halt.
Variables RD WR : Z -> bool.
Variable sect : nat -> Z.
Lemma steps_halted k st st' : fetch image (pc st) = None -> steps RD WR sect image k st = Some st' -> st' = st.
Proof.
  intros F S. destruct k as [|k]; cbn [steps] in S; [injection S; auto|].
  unfold step in S. rewrite F in S. discriminate S.
Qed.
Lemma halts_unique st st1 st2 : forall k1 k2,
  steps RD WR sect image k1 st = Some st1 -> fetch image (pc st1) = None ->
  steps RD WR sect image k2 st = Some st2 -> fetch image (pc st2) = None -> st1 = st2.
Proof.
  intros k1 k2 S1 F1 S2 F2. destruct (Nat.le_gt_cases k1 k2) as [L|L].
  - replace k2 with (k1 + (k2 - k1))%nat in S2 by lia. rewrite steps_app, S1 in S2.
    symmetry. exact (steps_halted _ _ _ F1 S2).
  - replace k1 with (k2 + (k1 - k2))%nat in S1 by lia. rewrite steps_app, S2 in S1.
    exact (steps_halted _ _ _ F2 S1).
Qed.
End Halt.

(** number of blocks a routine is asked for *)
Definition count_of (f : routine) (n : Z) (st : state) : Prop := f = sha256_1_avx /\ n = 1 \/ f <> sha256_1_avx /\ getr st rdx = n.
Definition is_routine (f : routine) : Prop := In f [sha256_1_avx; sha256_4_avx; sha256_8_avx2; sha256_shani].
Lemma routine_correct f n : is_routine f -> forall rd wr sect st,
  (f = sha256_1_avx -> n = 1) -> (f = sha256_1_avx \/ getr st rdx = n) ->
  call rd wr sect (r_consts f) (r_scratch f) (r_depth f) n st ->
  find_label (r_name f) image 0 = Some (pc st) ->
  exists k st', steps rd wr sect image k st = Some st' /\
    returned sect (r_scratch f) (r_depth f) n st st' /\ hashed n st st'.
Proof.
  intros F rd wr sect st N1 N C L. unfold is_routine in F. cbn [In] in F. destruct F as [<-|[<-|[<-|[<-|[]]]]].
  - rewrite (N1 eq_refl) in *. exact (avx1_correct rd wr sect st C L).
  - destruct N as [N|<-]; [discriminate N|]. exact (avx4_correct rd wr sect st C L).
  - destruct N as [N|<-]; [discriminate N|]. exact (avx8_correct rd wr sect st C L).
  - destruct N as [N|<-]; [discriminate N|]. exact (shani_correct rd wr sect st C L).
Qed.

Section Process.
Variables RD WR : Z -> bool.
Variable sect : nat -> Z.
Variable own : Z -> Prop.
Notation asm_call := (asm_call RD WR sect own).
Notation sha256_sse := (sha256_sse_of RD WR sect own image).
Notation hash_64b_blocks := (hash_64b_blocks RD WR sect own).

(** memory [m'] holds the digests of [n] blocks of [m], and is otherwise [m] *)
Definition digested (out inp n : Z) (m m' : Z -> Z) : Prop :=
  (forall i, 0 <= i < n -> bytes_at m' (out + 32 * i) 32 = sha256 (bytes_at m (inp + 64 * i) 64)) /\
  (forall x, ~ own x -> ~ inside x (out, 32 * n) -> m' x = m x).

Lemma asm_digested f out inp n m m' : is_routine f -> (f = sha256_1_avx -> n = 1) ->
  asm_call f out inp n m m' -> (forall x, inside x (out, 32 * n) -> ~ own x) -> digested out inp n m m'.
Proof.
  intros F N1 (st & k & st' & M & O & I & N & L & C & P1 & P2 & R & S & H & A) NO. subst m out inp.
  destruct (routine_correct f n F RD WR sect st N1 N C L) as (k2 & st2 & S2 & R2 & D2).
  rewrite <- (E_pc _ _ _ _ _ _ R2) in R. rewrite (halts_unique _ _ _ _ _ _ _ _ S H S2 R) in A. clear S H. split.
  - intros i Hi. rewrite <- (D2 i Hi). apply bytes_at_ext. intros x X. apply A. apply NO. unfold inside. cbn [fst snd]. lia.
  - intros x X Y. rewrite (A x X). apply (E_mem _ _ _ _ _ _ R2). unfold owned.
    apply Forall_cons; [intros Q; exact (X (P1 x Q))|]. apply Forall_cons; [exact Y|].
    apply Forall_forall. intros a Ain. apply in_map_iff in Ain as (s & <- & Is). intros Q. exact (X (P2 s Is x Q)).
Qed.
Lemma sse_digested : forall k out inp m m',
  sha256_sse out inp k m m' ->
  (forall x, inside x (out, 32 * Z.of_nat k) -> ~ own x) -> (forall x, inside x (inp, 64 * Z.of_nat k) -> ~ own x) ->
  apart (out, 32 * Z.of_nat k) (inp, 64 * Z.of_nat k) ->
  digested out inp (Z.of_nat k) m m'.
Proof.
  intros k out inp m m' S. induction S as [out inp m m' E|out inp k m m1 m' C S IH]; intros NO NI AP.
  - split; [intros i Hi; lia|]. intros x X _. apply E, X.
  - unfold inside, apart in *. cbn [fst snd] in *.
    assert (C' : digested out inp 1 m m1).
    { apply (asm_digested sha256_1_avx); [left; reflexivity|reflexivity|exact C|]. unfold inside. cbn [fst snd]. intros x X. apply NO. lia. }
    destruct IH as [D K].
    { intros x X. apply NO. lia. }
    { intros x X. apply NI. lia. }
    { intros x X Y. apply (AP x); unfold inside in *; cbn [fst snd] in *; lia. }
    destruct C' as [D1 K1]. unfold inside in *. cbn [fst snd] in *. split.
    + intros i Hi. destruct (Z.eq_dec i 0) as [->|Ni].
      * rewrite <- (D1 0) by lia. apply bytes_at_ext. intros x X. apply K; [apply NO; lia|lia].
      * specialize (D (i - 1) ltac:(lia)).
        replace (out + 32 + 32 * (i - 1)) with (out + 32 * i) in D by lia.
        replace (inp + 2 * 32 + 64 * (i - 1)) with (inp + 64 * i) in D by lia.
        rewrite D. f_equal. apply bytes_at_ext. intros x X. apply K1; [apply NI; lia|]. intros Q. apply (AP x); lia.
    + intros x X Y. unfold inside in Y. cbn [fst snd] in Y. rewrite K by (try exact X; lia). apply K1; [exact X|lia].
Qed.
Lemma blocks_digested h out inp n m m' : 0 <= n -> hash_64b_blocks h out inp n m m' ->
  (forall x, inside x (out, 32 * n) -> ~ own x) -> (forall x, inside x (inp, 64 * n) -> ~ own x) ->
  apart (out, 32 * n) (inp, 64 * n) ->
  digested out inp n m m'.
Proof.
  intros N S NO NI AP. destruct h; cbn [ModelHasher.hash_64b_blocks hash_64b_blocks_of] in S.
  - replace n with (Z.of_nat (Z.to_nat n)) in * by lia. rewrite Nat2Z.id in S. apply sse_digested; assumption.
  - apply (asm_digested sha256_4_avx); auto; [right; left; reflexivity|discriminate].
  - apply (asm_digested sha256_8_avx2); auto; [right; right; left; reflexivity|discriminate].
  - apply (asm_digested sha256_shani); auto; [right; right; right; left; reflexivity|discriminate].
Qed.

(** ** The calls return *)
Lemma asm_returns f n st : is_routine f -> (f = sha256_1_avx -> n = 1) -> (f = sha256_1_avx \/ getr st rdx = n) ->
  call RD WR sect (r_consts f) (r_scratch f) (r_depth f) n st ->
  find_label (r_name f) image 0 = Some (pc st) ->
  (forall x, inside x (getr st rsp - r_depth f, r_depth f) -> own x) ->
  (forall s, In s (r_scratch f) -> forall x, inside x (section_area sect s) -> own x) ->
  fetch image (le_val (bytes_at (mem st) (getr st rsp) 8)) = None ->
  exists st', returned sect (r_scratch f) (r_depth f) n st st' /\
    asm_call f (getr st rdi) (getr st rsi) n (mem st) (mem st').
Proof.
  intros F N1 N C L P1 P2 R. destruct (routine_correct f n F RD WR sect st N1 N C L) as (k & st' & S & R' & D').
  exists st'. split; [exact R'|]. exists st, k, st'. do 3 (split; [reflexivity|]). split; [exact N|]. split; [exact L|]. split; [exact C|].
  split; [exact P1|]. split; [exact P2|]. split; [exact R|]. split; [exact S|]. split; [rewrite (E_pc _ _ _ _ _ _ R'); exact R|reflexivity].
Qed.
(** the state for the next block *)
Definition advance (st : state) (m : Z -> Z) : state :=
  {| pc := pc st; gpr := upd (upd (gpr st) rdi (getr st rdi + 32)) rsi (getr st rsi + 64);
     ymm := ymm st; flags := flags st; mem := m |}.
Lemma advance_regs st m r : length (gpr st) = 16%nat -> r <> rdi -> r <> rsi -> getr (advance st m) r = getr st r.
Proof. intros L A B. unfold getr, advance. cbn [gpr]. rewrite !nth_upd_ne by congruence. reflexivity. Qed.
Lemma advance_rdi st m : length (gpr st) = 16%nat -> getr (advance st m) rdi = getr st rdi + 32.
Proof.
  intros L. unfold getr at 1, advance. cbn [gpr]. rewrite nth_upd_ne by discriminate. apply LemBase.nth_upd_eq.
  rewrite L. unfold rdi. lia.
Qed.
Lemma advance_rsi st m : length (gpr st) = 16%nat -> getr (advance st m) rsi = getr st rsi + 64.
Proof. intros L. unfold getr at 1, advance. cbn [gpr]. apply LemBase.nth_upd_eq. rewrite upd_length', L. unfold rsi. lia. Qed.

(** fewer blocks of the same buffers *)
Lemma call_sub consts scratch depth n st d n' st' :
  call RD WR sect consts scratch depth n st ->
  valid st' -> getr st' rsp = getr st rsp -> getr st' rsi = getr st rsi + 64 * d -> getr st' rdi = getr st rdi + 32 * d ->
  0 <= d -> 0 <= n' -> d + n' <= n ->
  (forall s, In s consts -> forall x, inside x (section_area sect s) -> mem st' x = mem st x) ->
  call RD WR sect consts scratch depth n' st'.
Proof.
  intros C V SP SI DI D N DN M.
  assert (RO : forall a', In a' (read_only sect consts n' st') -> exists a, In a (read_only sect consts n st) /\
    fst a <= fst a' /\ fst a' + snd a' <= fst a + snd a).
  { intros a' [<-|[<-|I]].
    - exists (getr st rsp, 8). split; [left; reflexivity|]. cbn [fst snd]. lia.
    - exists (getr st rsi, 64 * n). split; [right; left; reflexivity|]. cbn [fst snd]. lia.
    - exists a'. split; [right; right; exact I|]. lia. }
  assert (OW : forall a', In a' (owned sect scratch depth n' st') -> exists a, In a (owned sect scratch depth n st) /\
    fst a <= fst a' /\ fst a' + snd a' <= fst a + snd a).
  { intros a' [<-|[<-|I]].
    - exists (getr st rsp - depth, depth). split; [left; reflexivity|]. cbn [fst snd]. lia.
    - exists (getr st rdi, 32 * n). split; [right; left; reflexivity|]. cbn [fst snd]. lia.
    - exists a'. split; [right; right; exact I|]. lia. }
  assert (AL : forall a', In a' (read_only sect consts n' st' ++ owned sect scratch depth n' st') ->
    exists a, In a (read_only sect consts n st ++ owned sect scratch depth n st) /\
    fst a <= fst a' /\ fst a' + snd a' <= fst a + snd a).
  { intros a' I. apply in_app_or in I as [I|I]; [destruct (RO a' I) as (a & A & E)|destruct (OW a' I) as (a & A & E)];
      exists a; (split; [apply in_or_app; auto|exact E]). }
  assert (IN : forall x a a', fst a <= fst a' /\ fst a' + snd a' <= fst a + snd a -> inside x a' -> inside x a).
  { unfold inside. intros x a a' E I. lia. }
  constructor.
  - exact V.
  - exact N.
  - pose proof (C_space _ _ _ _ _ _ _ _ C) as Q. rewrite Forall_forall in *. intros a' I. destruct (AL a' I) as (a & A & E).
    specialize (Q a A). split; [lia|]. lia.
  - pose proof (C_read _ _ _ _ _ _ _ _ C) as Q. rewrite Forall_forall in *. intros a' I x X. destruct (AL a' I) as (a & A & E).
    exact (Q a A x (IN x a a' E X)).
  - pose proof (C_write _ _ _ _ _ _ _ _ C) as Q. rewrite Forall_forall in *. intros a' I x X. destruct (OW a' I) as (a & A & E).
    exact (Q a A x (IN x a a' E X)).
  - pose proof (C_owned _ _ _ _ _ _ _ _ C) as Q. unfold owned in *. apply FOP_inv in Q as [Q1 Q2]. apply FOP_inv in Q2 as [Q3 Q4].
    apply FOP_cons; [|apply FOP_cons; [|exact Q4]].
    + apply Forall_inv' in Q1 as [Q5 Q6]. apply Forall_cons.
      * intros x X Y. apply (Q5 x); unfold inside in *; cbn [fst snd] in *; lia.
      * rewrite SP. exact Q6.
    + rewrite Forall_forall in *. intros a A x X Y. apply (Q3 a A x); [|exact Y]. unfold inside in *. cbn [fst snd] in *. lia.
  - pose proof (C_apart _ _ _ _ _ _ _ _ C) as Q. rewrite Forall_forall in *. intros b' B'. apply Forall_forall. intros a' A' x X Y.
    destruct (OW b' B') as (b & Bi & EB). destruct (RO a' A') as (a & Ai & EA).
    specialize (Q b Bi). rewrite Forall_forall in Q. exact (Q a Ai x (IN _ _ _ EB X) (IN _ _ _ EA Y)).
  - rewrite SP. exact (C_stack _ _ _ _ _ _ _ _ C).
  - exact (C_align _ _ _ _ _ _ _ _ C).
  - pose proof (C_consts _ _ _ _ _ _ _ _ C) as Q. rewrite Forall_forall in *. intros s I. rewrite <- (Q s I) at 2.
    apply bytes_at_ext. intros x X. apply (M s I). unfold section_area, inside, zlen. cbn [fst snd]. exact X.
Qed.

Lemma sse_returns : forall k st, let n := Z.of_nat k in
  call RD WR sect [0%nat] [] 120 n st ->
  find_label "sha256_1_avx" image 0 = Some (pc st) ->
  (forall x, inside x (getr st rsp - 120, 120) -> own x) ->
  fetch image (le_val (bytes_at (mem st) (getr st rsp) 8)) = None ->
  exists m', sha256_sse (getr st rdi) (getr st rsi) k (mem st) m'.
Proof.
  induction k as [|k IH]; intros st n C L P R; subst n.
  - exists (mem st). apply sse_end. reflexivity.
  - assert (C1 : call RD WR sect [0%nat] [] 120 1 st).
    { apply (call_sub _ _ _ (Z.of_nat (S k)) st 0 1 st C); auto; try lia. exact (C_valid _ _ _ _ _ _ _ _ C). }
    destruct (asm_returns sha256_1_avx 1 st) as (st1 & R1 & A1); auto; [left; reflexivity|intros s []|].
    destruct (Nat.eq_dec k 0) as [->|K0].
    { exists (mem st1). apply (sse_block _ _ _ _ _ _ _ _ _ (mem st1)); [exact A1|]. apply sse_end. reflexivity. }
    pose proof (C_valid _ _ _ _ _ _ _ _ C) as V. pose proof (V_gpr _ V) as V16.
    assert (KEEP : forall a, In a (read_only sect [0%nat] (Z.of_nat (S k)) st) -> forall x, inside x a -> mem st1 x = mem st x).
    { intros a I x X. apply (E_mem _ _ _ _ _ _ R1). apply Forall_forall. intros b B Y.
      pose proof (C_apart _ _ _ _ _ _ _ _ C) as Q. rewrite Forall_forall in Q.
      assert (exists b', In b' (owned sect [] 120 (Z.of_nat (S k)) st) /\ inside x b') as (b' & B' & Y').
      { destruct B as [<-|[<-|[]]]; [exists (getr st rsp - 120, 120); split; [left; reflexivity|exact Y]|].
        exists (getr st rdi, 32 * Z.of_nat (S k)). split; [right; left; reflexivity|]. unfold inside in *. cbn [fst snd] in *. lia. }
      specialize (Q b' B'). rewrite Forall_forall in Q. exact (Q a I x Y' X). }
    assert (SP : forall r, r <> rdi -> r <> rsi -> getr (advance st (mem st1)) r = getr st r) by (intros; apply advance_regs; auto).
    pose proof (C_space _ _ _ _ _ _ _ _ C) as Q. unfold read_only, owned in Q. cbn [app map] in Q.
    apply Forall_inv' in Q as [_ Q1]. apply Forall_inv' in Q1 as [QI Q2]. apply Forall_inv' in Q2 as [_ Q3].
    apply Forall_inv' in Q3 as [_ Q4]. apply Forall_inv' in Q4 as [QO _]. cbn [fst snd] in QI, QO.
    assert (VA : valid (advance st (mem st1))).
    { constructor.
      - unfold advance. cbn [gpr]. rewrite !upd_length'. exact V16.
      - unfold advance. cbn [gpr]. apply Forall_upd'; [apply Forall_upd'|]; [exact (V_u64 _ V)| |];
          pose proof (getr_u64 st rdi (valid_sane st V)); pose proof (getr_u64 st rsi (valid_sane st V)); unfold u64 in *; lia.
      - exact (V_ymm _ V).
      - exact (V_dw _ V).
      - exact (V_mem _ (E_valid _ _ _ _ _ _ R1)). }
    destruct (IH (advance st (mem st1))) as (m' & Sm).
    + apply (call_sub _ _ _ (Z.of_nat (S k)) st 1 (Z.of_nat k) _ C); auto; try lia; [apply SP; discriminate|apply advance_rsi; auto|apply advance_rdi; auto|].
      intros s [<-|[]] x X. apply (KEEP (section_area sect 0)); [right; right; left; reflexivity|exact X].
    + exact L.
    + rewrite SP by discriminate. exact P.
    + rewrite SP by discriminate. cbn [advance mem]. rewrite (bytes_at_ext _ (mem st)); [exact R|].
      intros x X. apply (KEEP (getr st rsp, 8)); [left; reflexivity|]. unfold inside. cbn [fst snd]. lia.
    + exists m'. rewrite advance_rdi, advance_rsi in Sm by exact V16. cbn [advance mem] in Sm.
      apply (sse_block _ _ _ _ _ _ _ _ _ (mem st1)); [exact A1|exact Sm].
Qed.
End Process.
