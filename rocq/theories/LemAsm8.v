(** sha256_8_avx2, which leaves the last blocks to sha256_4_avx, computes SHA-256. *)
From Coq Require Import ZArith String List Bool Lia ZifyBool ZifyNat.
From Verif Require Import Base SpecSha ModelX86 SpecTime ModelAsm ModelImage LemBase SymWord LemSymWord SymX86 LemSymVec LemSymX86 SymFrag LemSymFrag LemX86 SpecAsm LemDigest FragAsm CheckAsm LemPiece LemAsm.
Import ListNotations.
Open Scope list_scope.
Open Scope Z_scope.
Ltac Zify.zify_post_hook ::= Z.div_mod_to_equations.

Lemma no_scratch (s s' : nat) : In s [] -> In s' [] -> s = s'.
Proof. intros []. Qed.
Section Seen8.
Variable sect : nat -> Z.
Variables si di base a n : Z.
Notation view8 := (view sect si di base).
(** [n - d] blocks are left to sha256_4_avx *)
Definition seen_8_tail (d : Z) : list (Z * list Z) :=
  seen_4 sect (w64 (si + 64 * d)) (w64 (di + 32 * d)) (base + 536) (n - d) ++ view8 n (avx8_end a).
Fixpoint seen_8_loop (m : nat) (d : Z) : list (Z * list Z) :=
  match m with
  | O => view8 d (avx8_few a) ++ seen_8_tail d
  | S m' => view8 d (avx8_eight a) ++ seen_8_loop m' (d + 8)
  end.
End Seen8.
Definition seen_8 (sect : nat -> Z) (si di sp n : Z) : list (Z * list Z) :=
  let a := if (sp - 8) mod 32 =? 0 then 0 else 16 in
  view sect si di (sp - 1704 - a) 0 (avx8_start a) ++ seen_8_loop sect si di (sp - 1704 - a) a n (Z.to_nat (n / 8)) 0.
Section Eight.
Variables RD WR : Z -> bool.
Variable sect : nat -> Z.
Variable n : Z.
Variable st0 : state.
Hypothesis HC : call RD WR sect [0%nat; 1%nat; 2%nat] [] 1720 n st0.
Variable a : Z.
Hypothesis Ha : a = 0 \/ a = 16.
Hypothesis Hsp : (getr st0 rsp - 8 - a) mod 32 = 0.
Notation base := (getr st0 rsp - 1704 - a).
Notation Inv := (inv sect [] 1720 n st0).
Notation B := (B sect n st0 base).
Notation runs := (runs RD WR sect range_8).
Notation runs_trans := (runs_trans RD WR sect range_8).
Notation view8 := (view sect (getr st0 rsi) (getr st0 rdi) base).
Notation tail_seen := (seen_8_tail sect (getr st0 rsi) (getr st0 rdi) base a n).
Notation loop_seen := (seen_8_loop sect (getr st0 rsi) (getr st0 rdi) base a n).
Lemma ok_start : frag_ok (piece_frag (avx8_start a)) = true /\ piece_ok (avx8_start a) = true.
Proof. destruct Ha as [->| ->]; split; [exact ok_avx8_start_0|reflexivity|exact ok_avx8_start_16|reflexivity]. Qed.
Lemma ok_eight : frag_ok (piece_frag (avx8_eight a)) = true /\ piece_ok (avx8_eight a) = true.
Proof. destruct Ha as [->| ->]; split; [exact ok_avx8_eight_0|reflexivity|exact ok_avx8_eight_16|reflexivity]. Qed.
Lemma ok_few : frag_ok (piece_frag (avx8_few a)) = true /\ piece_ok (avx8_few a) = true.
Proof. destruct Ha as [->| ->]; split; [exact ok_avx8_few_0|reflexivity|exact ok_avx8_few_16|reflexivity]. Qed.
Lemma ok_end : frag_ok (piece_frag (avx8_end a)) = true /\ piece_ok (avx8_end a) = true.
Proof. destruct Ha as [->| ->]; split; [exact ok_avx8_end_0|reflexivity|exact ok_avx8_end_16|reflexivity]. Qed.

Lemma piece8_step b from to conds code d st : let q := piece8 a b from to conds code in
  frag_ok (piece_frag q) = true -> piece_ok q = true ->
  0 <= d -> d + Z.of_nat b <= n -> Inv d st -> holds (B d 0) from st ->
  (forall env, Forall (cond_ok (B d 0) env) conds) ->
  exists k st', strolls RD WR sect range_8 k st = Some st' /\
    sees RD WR sect k st (view8 d q) /\ Inv (d + Z.of_nat b) st' /\ holds (B d 0) to st'.
Proof.
  intros q Q5 Q4. pose proof (C_stack _ _ _ _ _ _ _ _ HC) as [SA SP].
  apply (step_piece RD WR sect [0%nat; 1%nat; 2%nat] [] 1720 n st0 HC) with (stack := stack8 a) (q := q); auto.
  - intros s s' [].
  - repeat constructor.
  - cbn [stack8 rwr rsize]. lia.
  - cbn [stack8 ralign]. apply Z.mod_divide; [lia|]. clear - Hsp. lia.
  - cbn [stack8 rsize]. lia.
Qed.
Definition saved_at (bv : nat -> Z) (st : state) (l : list (Z * sgpr)) : Prop :=
  Forall (fun x : Z * sgpr => forall env, grel bv env (snd x) (le_val (bytes_at (mem st) (bv 7%nat + fst x) 8))) l.
Lemma saved8_B d d' st : saved_at (B d 0) st (saved8 a) -> saved_at (B d' 0) st (saved8 a).
Proof.
  intros F. inversion F as [|? ? A1 F1]; subst. inversion F1 as [|? ? A2 F2]; subst. inversion F2 as [|? ? A3 F3]; subst.
  inversion F3 as [|? ? A4 F4]; subst. inversion F4 as [|? ? A5 F5]; subst. inversion F5 as [|? ? A6 F6]; subst.
  apply Forall_cons; [exact A1|]. apply Forall_cons; [exact A2|]. apply Forall_cons; [exact A3|].
  apply Forall_cons; [exact A4|]. apply Forall_cons; [exact A5|]. apply Forall_cons; [exact A6|]. apply Forall_nil.
Qed.
Definition head8 (d : Z) (st : state) : Prop := Inv d st /\ holds (B d 0) (at8 a 0) st.
Lemma holds8 d b st : Inv (d + b) st -> holds (B d 0) (at8 a b) st -> head8 (d + b) st.
Proof.
  intros I (H1 & H2 & H3 & H4). split; [exact I|]. split; [exact H1|]. split; [|split].
  - intros env. specialize (H2 env). pose proof (index_F2 _ _ _ _ H2) as G.
    apply (F2_index _ 16); [reflexivity|exact (V_gpr _ (proj1 I))|]. intros i L. specialize (G i).
    cases16 i; try exact Logic.I; cbn [at8 p_gpr regs8 nth grel] in *; unfold ad in *; try exact G.
    + rewrite G. f_equal. cbn -[Z.add Z.mul Z.sub getr Z.opp]. lia.
    + rewrite G. f_equal. cbn -[Z.add Z.mul Z.sub getr Z.opp]. lia.
    + rewrite G. f_equal. cbn -[Z.add Z.mul Z.sub getr Z.opp]. lia.
  - exact H3.
  - exact (saved8_B d (d + b) st H4).
Qed.
Definition done8 (st : state) : Prop := returned sect [] 1720 n st0 st /\ hashed n st0 st.

(** *** The call of sha256_4_avx *)
Section Tail.
Variable d : Z.
Variable st : state.
Hypothesis Hd : 0 <= d <= n.
Hypothesis HI : Inv d st.
Hypothesis HH : holds (B d 0) (call8 a) st.
Let V : valid st := proj1 HI.
Lemma reg8 i : grel (B d 0) (fun _ => 0) (nth i (p_gpr (call8 a)) any) (getr st i).
Proof. destruct HH as (_ & H2 & _). exact (index_F2 _ _ _ _ (H2 (fun _ => 0)) i). Qed.
Lemma sp_low : 1720 <= getr st0 rsp /\ getr st0 rsp + 8 < 2 ^ 64.
Proof.
  pose proof (C_stack _ _ _ _ _ _ _ _ HC) as [_ SP]. split; [|exact SP].
  destruct (space _ _ _ _ _ _ _ _ HC _ (in_stack sect [0%nat; 1%nat; 2%nat] [] 1720 n st0)) as [A _]. cbn [fst] in A. lia.
Qed.
Lemma t_rsp : getr st rsp = base + 536.
Proof.
  pose proof (reg8 rsp) as G. cbn [call8 p_gpr regs8 nth rsp grel] in G. unfold ad in G. change (B d 0 7) with base in G.
  rewrite w64_small in G by (pose proof sp_low; lia). exact G.
Qed.
Lemma t_rdx : getr st rdx = n - d.
Proof.
  pose proof (reg8 rdx) as G. cbn [call8 p_gpr regs8 nth rdx grel] in G. unfold ad in G. change (B d 0 8) with (n - d) in G.
  pose proof (count_range _ _ _ _ _ _ _ _ HC). rewrite Z.add_0_r, w64_small in G by lia. exact G.
Qed.
Lemma in_space : 0 <= getr st0 rsi /\ getr st0 rsi + 64 * n <= 2 ^ 64.
Proof. exact (space _ _ _ _ _ _ _ _ HC _ (in_inp sect [0%nat; 1%nat; 2%nat] [] 1720 n st0)). Qed.
Lemma out_space : 0 <= getr st0 rdi /\ getr st0 rdi + 32 * n <= 2 ^ 64.
Proof. exact (space _ _ _ _ _ _ _ _ HC _ (in_out sect [0%nat; 1%nat; 2%nat] [] 1720 n st0)). Qed.
Lemma t_rsi : d < n -> getr st rsi = getr st0 rsi + 64 * d.
Proof.
  intros L. pose proof (reg8 rsi) as G. cbn [call8 p_gpr regs8 nth rsi grel] in G. unfold ad in G.
  change (B d 0 5) with (getr st0 rsi + 64 * d) in G. rewrite Z.add_0_r, w64_small in G by (pose proof in_space; lia). exact G.
Qed.
Lemma t_rdi : d < n -> getr st rdi = getr st0 rdi + 32 * d.
Proof.
  intros L. pose proof (reg8 rdi) as G. cbn [call8 p_gpr regs8 nth rdi grel] in G. unfold ad in G.
  change (B d 0 6) with (getr st0 rdi + 32 * d) in G. rewrite Z.add_0_r, w64_small in G by (pose proof out_space; lia). exact G.
Qed.
Notation RO0 := (read_only sect [0%nat; 1%nat; 2%nat] n st0).
Notation OW0 := (owned sect [] 1720 n st0).
(** what the callee reads and owns is the caller's *)
Lemma sub_own x y : In y (owned sect [] 536 (n - d) st) -> inside x y ->
  inside x (base, 536) \/ inside x (getr st0 rdi, 32 * n) /\ getr st0 rdi + 32 * d <= x.
Proof.
  intros [<-|[<-|[]]] I; unfold inside in *; cbn [fst snd] in *.
  - left. rewrite t_rsp in I. lia.
  - right. rewrite t_rdi in I by lia. lia.
Qed.
Lemma sub_ro x y : In y (read_only sect [0%nat; 1%nat] (n - d) st) -> inside x y ->
  inside x (base + 536, 8) \/ exists z, In z RO0 /\ inside x z.
Proof.
  intros [<-|[<-|[<-|[<-|[]]]]] I.
  - left. rewrite t_rsp in I. exact I.
  - right. exists (getr st0 rsi, 64 * n). split; [right; left; reflexivity|]. unfold inside in *. cbn [fst snd] in *.
    rewrite t_rsi in I by lia. lia.
  - right. exists (section_area sect 0). split; [right; right; left; reflexivity|exact I].
  - right. exists (section_area sect 1). split; [right; right; right; left; reflexivity|exact I].
Qed.
Lemma stack_own x : base <= x < getr st0 rsp -> inside x (getr st0 rsp - 1720, 1720).
Proof. unfold inside. cbn [fst snd]. lia. Qed.
Lemma stack_out x : inside x (getr st0 rsp - 1720, 1720) -> inside x (getr st0 rdi, 32 * n) -> False.
Proof.
  pose proof (C_owned _ _ _ _ _ _ _ _ HC) as F. inversion F as [|? ? A _]; subst. inversion A as [|? ? A' _]; subst. apply A'.
Qed.
Lemma rd_all x z : In z (RO0 ++ OW0) -> inside x z -> RD x = true.
Proof. pose proof (C_read _ _ _ _ _ _ _ _ HC) as F. rewrite Forall_forall in F. intros I. exact (F z I x). Qed.
Lemma wr_all x z : In z OW0 -> inside x z -> WR x = true.
Proof. pose proof (C_write _ _ _ _ _ _ _ _ HC) as F. rewrite Forall_forall in F. intros I. exact (F z I x). Qed.
Lemma own_own x y : In y (owned sect [] 536 (n - d) st) -> inside x y -> exists z, In z OW0 /\ inside x z.
Proof.
  intros Y I. destruct (sub_own x y Y I) as [J|[J _]].
  - exists (getr st0 rsp - 1720, 1720). split; [left; reflexivity|]. apply stack_own. unfold inside in J. cbn [fst snd] in J. lia.
  - exists (getr st0 rdi, 32 * n). split; [right; left; reflexivity|exact J].
Qed.
Lemma call4 : call RD WR sect [0%nat; 1%nat] [] 536 (n - d) st.
Proof.
  pose proof sp_low as SL. pose proof in_space as IS. pose proof out_space as OS. pose proof t_rsp as TS.
  assert (RI : 0 <= getr st rsi /\ getr st rsi + 64 * (n - d) <= 2 ^ 64).
  { destruct (Z.eq_dec d n) as [->|N]; [|rewrite t_rsi by lia; lia].
    assert (0 <= getr st rsi < 2 ^ 64) by apply getr_u64, valid_sane, V. lia. }
  assert (DI : 0 <= getr st rdi /\ getr st rdi + 32 * (n - d) <= 2 ^ 64).
  { destruct (Z.eq_dec d n) as [->|N]; [|rewrite t_rdi by lia; lia].
    assert (0 <= getr st rdi < 2 ^ 64) by apply getr_u64, valid_sane, V. lia. }
  constructor.
  - exact V.
  - lia.
  - pose proof (C_space _ _ _ _ _ _ _ _ HC) as F. rewrite Forall_forall in F. unfold read_only, owned. cbn [app map].
    apply Forall_cons; [cbn [fst snd]; lia|]. apply Forall_cons; [exact RI|].
    apply Forall_cons; [apply F; right; right; left; reflexivity|]. apply Forall_cons; [apply F; right; right; right; left; reflexivity|].
    apply Forall_cons; [cbn [fst snd]; lia|]. apply Forall_cons; [exact DI|]. apply Forall_nil.
  - apply Forall_forall. intros y Y x I. apply in_app_or in Y as [Y|Y].
    + destruct (sub_ro x y Y I) as [J|(z & Z1 & Z2)].
      * apply (rd_all x (getr st0 rsp - 1720, 1720)); [apply in_or_app; right; left; reflexivity|].
        apply stack_own. unfold inside in J. cbn [fst snd] in J. lia.
      * apply (rd_all x z); [apply in_or_app; left; exact Z1|exact Z2].
    + destruct (own_own x y Y I) as (z & Z1 & Z2). apply (rd_all x z); [apply in_or_app; right; exact Z1|exact Z2].
  - apply Forall_forall. intros y Y x I. destruct (own_own x y Y I) as (z & Z1 & Z2). exact (wr_all x z Z1 Z2).
  - apply FOP_cons; [|apply FOP_cons; [apply Forall_nil|apply FOP_nil]]. apply Forall_cons; [|apply Forall_nil].
    intros x I J. assert (K : inside x (getr st0 rsp - 1720, 1720)).
    { apply stack_own. unfold inside in I. cbn [fst snd] in I. lia. }
    destruct (sub_own x (getr st rdi, 32 * (n - d))) as [L|[L _]]; [right; left; reflexivity|exact J| |].
    + destruct (Z.eq_dec d n) as [E|N]; [unfold inside in J; cbn [fst snd] in J; lia|].
      apply (stack_out x K). unfold inside in J |- *. cbn [fst snd] in *. rewrite t_rdi in J by lia. lia.
    + exact (stack_out x K L).
  - apply Forall_forall. intros y Y. apply Forall_forall. intros z Zi x I J.
    destruct (sub_ro x z Zi J) as [K|(w & W1 & W2)].
    + destruct (sub_own x y Y I) as [L|[L _]]; [unfold inside in K, L; cbn [fst snd] in K, L; lia|].
      apply (stack_out x); [|exact L]. apply stack_own. unfold inside in K. cbn [fst snd] in K. lia.
    + destruct (own_own x y Y I) as (v & V1 & V2). exact (ro_ow _ _ _ _ _ _ _ _ HC v w x V1 W1 V2 W2).
  - split; [|lia]. rewrite TS. clear - Hsp. lia.
  - pose proof (C_align _ _ _ _ _ _ _ _ HC) as F. inversion F as [|? ? A F']; subst. inversion F' as [|? ? A' _]; subst.
    apply Forall_cons; [exact A|]. apply Forall_cons; [exact A'|]. apply Forall_nil.
  - pose proof (C_consts _ _ _ _ _ _ _ _ HC) as F. inversion F as [|? ? A F']; subst. inversion F' as [|? ? A' _]; subst.
    apply Forall_cons; [|apply Forall_cons; [|apply Forall_nil]].
    + rewrite <- A at 2. apply (kept_bytes _ _ _ _ _ _ _ _ HC no_scratch st (section_area sect 0)); [exact (proj1 (proj2 HI))|right; right; left; reflexivity| |];
        unfold section_area, zlen; cbn [fst snd]; lia.
    + rewrite <- A' at 2. apply (kept_bytes _ _ _ _ _ _ _ _ HC no_scratch st (section_area sect 1)); [exact (proj1 (proj2 HI))|right; right; right; left; reflexivity| |];
        unfold section_area, zlen; cbn [fst snd]; lia.
Qed.

Variable st' : state.
Hypothesis HR : returned sect [] 536 (n - d) st st'.
Hypothesis HS : hashed (n - d) st st'.
(** the callee leaves the frame and the digests so far *)
Lemma frame_kept x : base + 544 <= x < getr st0 rsp + 8 -> mem st' x = mem st x.
Proof.
  intros X. apply (E_mem _ _ _ _ _ _ HR). apply Forall_forall. intros y Y I.
  destruct (sub_own x y Y I) as [L|[L _]]; [unfold inside in L; cbn [fst snd] in L; lia|].
  destruct (Z_lt_ge_dec x (getr st0 rsp)) as [Q|Q].
  - apply (stack_out x); [|exact L]. apply stack_own. lia.
  - apply (ro_ow _ _ _ _ _ _ _ _ HC (getr st0 rdi, 32 * n) (getr st0 rsp, 8) x); [right; left; reflexivity|left; reflexivity|exact L|].
    unfold inside. cbn [fst snd]. lia.
Qed.
Lemma out_kept x : getr st0 rdi <= x < getr st0 rdi + 32 * d -> mem st' x = mem st x.
Proof.
  intros X. apply (E_mem _ _ _ _ _ _ HR). apply Forall_forall. intros y Y I.
  destruct (sub_own x y Y I) as [L|[_ L]]; [|lia].
  apply (stack_out x).
  - apply stack_own. unfold inside in L. cbn [fst snd] in L. lia.
  - unfold inside. cbn [fst snd]. lia.
Qed.
Lemma tail_inv : Inv n st'.
Proof.
  pose proof HI as (_ & U & S). split; [exact (E_valid _ _ _ _ _ _ HR)|]. split.
  - intros x X. transitivity (mem st x); [|exact (U x X)]. apply (E_mem _ _ _ _ _ _ HR). apply Forall_forall. intros y Y I.
    destruct (own_own x y Y I) as (z & Z1 & Z2). rewrite Forall_forall in X. exact (X z Z1 Z2).
  - intros i I. destruct (Z_lt_ge_dec i d) as [L|G].
    + rewrite <- (S i) by lia. apply bytes_at_ext. intros x X. apply out_kept. lia.
    + specialize (HS (i - d) ltac:(lia)). rewrite t_rdi, t_rsi in HS by lia.
      replace (getr st0 rdi + 32 * d + 32 * (i - d)) with (getr st0 rdi + 32 * i) in HS by lia.
      replace (getr st0 rsi + 64 * d + 64 * (i - d)) with (getr st0 rsi + 64 * i) in HS by lia.
      rewrite HS. f_equal. apply (kept_bytes _ _ _ _ _ _ _ _ HC no_scratch st (getr st0 rsi, 64 * n)); [exact U|right; left; reflexivity| |];
        cbn [fst snd]; lia.
Qed.
Lemma tail_holds : holds (B n 0) (return8 a) st'.
Proof.
  pose proof sp_low as SL. destruct HH as (_ & _ & _ & H4). cbn [call8 p_saved] in H4.
  inversion H4 as [|? ? A4 H5]; subst. split; [|split; [|split]].
  - cbn [return8 p_pc pcrel]. rewrite (E_pc _ _ _ _ _ _ HR), t_rsp. exact (proj1 (A4 (fun _ => 0))).
  - intros env. apply (F2_index _ 16); [reflexivity|exact (V_gpr _ (E_valid _ _ _ _ _ _ HR))|]. intros i L.
    pose proof (E_saved _ _ _ _ _ _ HR) as F. inversion F as [|? ? F1 F']; subst. inversion F' as [|? ? F2 _]; subst.
    cases16 i; try exact Logic.I; cbn [return8 p_gpr regs8 nth grel].
    + transitivity (getr st rbx); [exact F1|exact (reg8 rbx)].
    + transitivity (getr st rsp + 8); [exact (E_rsp _ _ _ _ _ _ HR)|]. rewrite t_rsp. unfold ad. change (B n 0 7) with base.
      rewrite w64_small; lia.
    + transitivity (getr st rbp); [exact F2|exact (reg8 rbp)].
  - intros env. apply any_vec; [exact (E_valid _ _ _ _ _ _ HR)|reflexivity].
  - cbn [return8 p_saved]. apply (saved8_B d n). apply Forall_forall. intros y Y env. rewrite Forall_forall in H5. specialize (H5 y Y env).
    assert (L : 544 <= fst y <= 1704 + a).
    { cbn [saved8 In] in Y. repeat destruct Y as [<-|Y]; cbn [fst]; try lia. }
    rewrite (bytes_at_ext (mem st') (mem st)); [exact H5|]. intros x X. change (B d 0 7%nat) with base in X. apply frame_kept. lia.
Qed.
End Tail.

Lemma tail8 d st : 0 <= d <= n -> Inv d st -> holds (B d 0) (call8 a) st -> runs (tail_seen d) st done8.
Proof.
  intros D I H. apply (runs_trans _ _ st (done4 sect (n - d) st)).
  - apply (runs_wider _ _ _ range_4); [vm_compute; reflexivity|apply Nat.leb_le; vm_compute; reflexivity|].
    pose proof (reg8 d st H rsi) as G1. pose proof (reg8 d st H rdi) as G2.
    cbn [call8 p_gpr regs8 nth rsi rdi grel] in G1, G2. unfold ad in G1, G2. rewrite Z.add_0_r in G1, G2.
    change (getr st rsi = w64 (getr st0 rsi + 64 * d)) in G1. change (getr st rdi = w64 (getr st0 rdi + 32 * d)) in G2.
    rewrite <- G1, <- G2, <- (t_rsp d st H).
    apply avx4_runs; [exact (call4 d st D I H)| |exact (t_rdx d st D H)].
    destruct H as (H1 & _). cbn [call8 p_pc pcrel] in H1. rewrite H1. vm_compute. reflexivity.
  - intros st' [R S]. pose proof (tail_inv d st D I H st' R S) as I'. pose proof (tail_holds d st D H st' R) as H'.
    destruct ok_end as [O1 O2]. pose proof (C_count _ _ _ _ _ _ _ _ HC) as C.
    destruct (piece8_step _ _ _ _ _ n st' O1 O2 C ltac:(cbn; zl) I' H') as (j & st2 & S2 & TR & I2 & H2).
    { intros env. constructor. }
    exists j, st2. split; [exact S2|]. split; [exact TR|]. change (Z.of_nat 0) with 0 in I2. rewrite Z.add_0_r in I2.
    apply (finish _ _ _ _ _ _ _ _ HC base n 0 (exit8 a) st2 (1712 + a)); try reflexivity; auto. zl.
Qed.
Lemma loop8 : forall m d st, (n - d) / 8 = Z.of_nat m -> 0 <= d <= n -> head8 d st -> runs (loop_seen m d) st done8.
Proof.
  induction m as [|m IH]; intros d st E D [I H].
  - destruct ok_few as [O1 O2].
    destruct (piece8_step _ _ _ _ _ d st O1 O2 ltac:(zl) ltac:(zl) I H) as (j & st' & S & TR & I' & H').
    { intros env; apply (cond_lt _ _ _ _ _ _ _ _ HC); zl. }
    change (Z.of_nat 0) with 0 in I'. rewrite Z.add_0_r in I'.
    cbn [seen_8_loop]. refine (runs_trans _ _ st (fun st' => Inv d st' /\ holds (B d 0) (call8 a) st') _ _ _); [exists j, st'; split; [exact S|split; [exact TR|exact (conj I' H')]]|].
    intros st'' [I'' H'']. exact (tail8 d st'' D I'' H'').
  - destruct ok_eight as [O1 O2].
    destruct (piece8_step _ _ _ _ _ d st O1 O2 ltac:(zl) ltac:(zl) I H) as (j & st' & S & TR & I' & H').
    { intros env. apply (cond_lt _ _ _ _ _ _ _ _ HC); zl. }
    apply holds8 in H'; [|exact I'].
    cbn [seen_8_loop]. refine (runs_trans _ _ st (head8 (d + 8)) _ _ _); [exists j, st'; split; [exact S|split; [exact TR|exact H']]|].
    intros st'' H''. apply (IH (d + 8)); auto; zl.
Qed.
Lemma avx8_runs : find_label "sha256_8_avx2" image 0 = Some (pc st0) -> getr st0 rdx = n ->
  runs (seen_8 sect (getr st0 rsi) (getr st0 rdi) (getr st0 rsp) n) st0 done8.
Proof.
  intros HL HN. apply label_spec in HL. pose proof (C_valid _ _ _ _ _ _ _ _ HC) as V. pose proof (C_count _ _ _ _ _ _ _ _ HC) as C.
  destruct ok_start as [O1 O2].
  assert (EA : (if (getr st0 rsp - 8) mod 32 =? 0 then 0 else 16) = a).
  { pose proof (C_stack _ _ _ _ _ _ _ _ HC) as [SA _]. clear - Ha Hsp SA.
    destruct (Z.eqb_spec ((getr st0 rsp - 8) mod 32) 0) as [E|N]; destruct Ha as [-> | ->]; try reflexivity; lia. }
  unfold seen_8. rewrite EA. clear EA.
  destruct (piece8_step _ _ _ _ _ 0 st0 O1 O2) as (j & st' & S & TR & I' & H').
  - zl.
  - cbn. zl.
  - exact (inv_start _ _ _ _ _ _ _ _ HC).
  - split; [exact HL|]. split; [|split].
    + intros env. apply (F2_index _ 16); [reflexivity|exact (V_gpr _ V)|]. intros i L.
      cases16 i; try exact Logic.I; cbn [entry8 p_gpr regs nth grel]; unfold ad; reg_eq HC.
    + intros env. apply any_vec; [exact V|reflexivity].
    + repeat (apply Forall_cons; [intros env|]); [|apply Forall_nil]. cbn [entry8 fst snd grel]. unfold ad.
      change (B 0 0 7) with base. change (B 0 0 9) with (ret st0).
      replace (base + (1704 + a)) with (getr st0 rsp) by zl. rewrite Z.add_0_r. symmetry. apply w64_small. exact (ret_range _ _ _ _ _ _ _ _ HC).
  - intros env. constructor.
  - apply (holds8 0 0) in H'; [|exact I'].
    cbn [seen_8_loop]. refine (runs_trans _ _ st0 (head8 (0 + 0)) _ _ _); [exists j, st'; split; [exact S|split; [exact TR|exact H']]|].
    intros st'' H''. apply (loop8 (Z.to_nat (n / 8)) 0); auto; zl.
Qed.
End Eight.
Lemma avx8_strolls rd wr sect st : call rd wr sect [0%nat; 1%nat; 2%nat] [] 1720 (getr st rdx) st ->
  find_label "sha256_8_avx2" image 0 = Some (pc st) ->
  runs rd wr sect range_8 (seen_8 sect (getr st rsi) (getr st rdi) (getr st rsp) (getr st rdx)) st (fun st' => returned sect [] 1720 (getr st rdx) st st' /\ hashed (getr st rdx) st st').
Proof.
  intros HC HL. pose proof (C_stack _ _ _ _ _ _ _ _ HC) as [SA _].
  destruct (Z.eq_dec ((getr st rsp - 8 - 0) mod 32) 0) as [E|N].
  - exact (avx8_runs rd wr sect _ st HC 0 (or_introl eq_refl) E HL eq_refl).
  - refine (avx8_runs rd wr sect _ st HC 16 (or_intror eq_refl) _ HL eq_refl). clear - SA N. lia.
Qed.
Lemma avx8_correct : correct sha256_8_avx2 (fun st => getr st rdx).
Proof. intros rd wr sect st HC HL. exact (runs_steps _ _ _ _ _ _ _ (avx8_strolls rd wr sect st HC HL)). Qed.
