(** The assembly routines compute SHA-256. *)
From Coq Require Import ZArith String List Bool Lia ZifyBool ZifyNat.
From Verif Require Import Base SpecSha ModelX86 SpecTime ModelAsm ModelImage LemBase SymWord LemSymWord SymX86 LemSymVec LemSymX86 SymFrag LemSymFrag LemX86 SpecAsm LemDigest FragAsm CheckAsm LemPiece.
Import ListNotations.
Open Scope list_scope.
Open Scope Z_scope.
Ltac Zify.zify_post_hook ::= Z.div_mod_to_equations.

(** [lia] with the plain hypotheses only *)
Ltac zl :=
  repeat match goal with H : ?T |- _ =>
    lazymatch T with
    | Z => fail | nat => fail
    | Z.le _ _ => fail | Z.lt _ _ => fail | Z.ge _ _ => fail | Z.gt _ _ => fail
    | Z.le _ _ /\ Z.lt _ _ => fail | Z.le _ _ /\ Z.le _ _ => fail
    | (_ mod _)%Z = _ => clear H
    | @eq Z _ _ => fail | not (@eq Z _ _) => fail
    | _ => clear H
    end end; lia.

(** ** Registers by number *)
Lemma F2_index (R : sgpr -> Z -> Prop) : forall N l vs, length l = N -> length vs = N ->
  (forall i, (i < N)%nat -> R (nth i l any) (nth i vs 0)) -> Forall2 R l vs.
Proof.
  induction N as [|N IH]; intros [|a l] [|v vs] L1 L2 H; try discriminate; constructor.
  - exact (H 0%nat ltac:(lia)).
  - apply IH; try (cbn in *; lia). intros i I. exact (H (S i) ltac:(lia)).
Qed.
Lemma index_F2 bv env l vs : Forall2 (grel bv env) l vs -> forall i, grel bv env (nth i l any) (nth i vs 0).
Proof. intros F i. apply F2_nth; [exact F|exact Logic.I]. Qed.
Lemma any_vec st env p : valid st -> p_xmm8 p = anyv -> Forall2 (vrel env 8) (p_vec p) (ymm st).
Proof.
  intros V E. unfold p_vec. rewrite E. change (upd (repeat anyv 16) 8 anyv) with (repeat anyv 16).
  rewrite <- (V_ymm _ V). pose proof (V_dw _ V) as F. induction F as [|v vs L F IH]; cbn [length repeat]; constructor; auto.
  split; [reflexivity|]. unfold anyv. rewrite <- L. clear. induction v; cbn [length repeat]; constructor; auto. exact Logic.I.
Qed.
Lemma label_spec l st : find_label l image 0 = Some (pc st) -> pc st = label l.
Proof. intros E. unfold label. rewrite E. reflexivity. Qed.
Lemma jl_spec r k : 0 <= r < 2 ^ 63 -> 0 <= k < 2 ^ 63 -> flag_of JL (cmp_flags r k) = (r <? k).
Proof.
  intros R K. unfold flag_of, cmp_flags. cbv zeta. cbn [ModelX86.sf ModelX86.of]. unfold w64.
  replace (2 ^ 63 <=? r) with false by lia. replace (2 ^ 63 <=? k) with false by lia. cbn [eqb negb andb].
  destruct (Z_lt_ge_dec r k) as [L|G].
  - replace ((r - k) mod 2 ^ 64) with (r - k + 2 ^ 64) by lia. replace (2 ^ 63 <=? r - k + 2 ^ 64) with true by lia.
    replace (r <? k) with true by lia. reflexivity.
  - rewrite Z.mod_small by lia. replace (2 ^ 63 <=? r - k) with false by lia. replace (r <? k) with false by lia. reflexivity.
Qed.
Lemma jz_spec r : flag_of JZ (test_flags r r) = (r =? 0).
Proof. unfold flag_of, test_flags. cbn [zf]. rewrite Z.land_diag. reflexivity. Qed.

Lemma w64_getr st r : valid st -> w64 (getr st r + 0) = getr st r.
Proof. intros V. rewrite Z.add_0_r. apply w64_small. apply getr_u64, valid_sane, V. Qed.
Section Runs.
Variables RD WR : Z -> bool.
Variable sect : nat -> Z.
(** the part of the code that is executed: first instruction and number *)
Definition strolls (r : nat * nat) (k : nat) (st : state) : option state :=
  walk RD WR sect image (Z.of_nat (fst r)) (Z.of_nat (fst r) + Z.of_nat (snd r)) k st.
Variable r : nat * nat.
(** [T] is what can be seen of [k] steps. (Not an equation in the context of the proofs
    below, where tactics would compute its sides.) *)
Inductive sees (k : nat) (st : state) (T : list (Z * list Z)) : Prop :=
  Sees : map (leaked sect image) (states RD WR sect image k st) = T -> sees k st T.
Definition runs (T : list (Z * list Z)) (st : state) (P : state -> Prop) : Prop :=
  exists k st', strolls r k st = Some st' /\ sees k st T /\ P st'.
Lemma states_app lo hi k k' : forall st st', walk RD WR sect image lo hi k st = Some st' ->
  states RD WR sect image (k + k') st = states RD WR sect image k st ++ states RD WR sect image k' st'.
Proof.
  induction k as [|k IH]; intros st st' W; cbn [walk Nat.add states app] in *.
  - apply some_inj in W. subst st'. reflexivity.
  - destruct (_ && _); [|discriminate]. destruct (step RD WR sect image st) as [s|]; cbn [obind] in W; [|discriminate].
    f_equal. exact (IH s st' W).
Qed.
Lemma runs_trans T T' st P Q : runs T st P -> (forall st', P st' -> runs T' st' Q) -> runs (T ++ T') st Q.
Proof.
  intros (k & st' & S & [E] & H) F. destruct (F st' H) as (k' & st'' & S' & [E'] & H'). exists (k + k')%nat, st''.
  unfold strolls in *. split; [now rewrite walk_app, S|]. split; [|exact H']. constructor.
  now rewrite (states_app _ _ k k' st st' S), map_app, E, E'.
Qed.
Lemma runs_steps T st P : runs T st P -> exists k st', steps RD WR sect image k st = Some st' /\ P st'.
Proof. intros (k & st' & S & _ & H). exists k, st'. split; [exact (proj1 (walk_steps _ _ _ _ _ _ _ _ _ S))|exact H]. Qed.
End Runs.
Lemma runs_wider RD WR sect r r' T st P : (fst r' <= fst r)%nat -> (fst r + snd r <= fst r' + snd r')%nat ->
  runs RD WR sect r T st P -> runs RD WR sect r' T st P.
Proof.
  intros L H (k & st' & S & E & Q). exists k, st'. split; [|split; assumption]. unfold strolls in *.
  apply (walk_wider _ _ _ _ (Z.of_nat (fst r)) (Z.of_nat (fst r) + Z.of_nat (snd r))); [clear - L; lia|clear - H; lia|exact S].
Qed.

(** ** Common to all routines *)
Section Routine.
Variables RD WR : Z -> bool.
Variable sect : nat -> Z.
Variables consts scratch : list nat.
Variable depth n : Z.
Variable st0 : state.
Hypothesis HC : call RD WR sect consts scratch depth n st0.
Hypothesis Hone : forall s s', In s scratch -> In s' scratch -> s = s'.
Hypothesis Hcs : Forall (fun s => (s < 5)%nat) (consts ++ scratch).
Variable base : Z.
Variable stack : region.
Hypothesis Hst : getr st0 rsp - depth <= base /\ base + rwr stack <= getr st0 rsp /\ base + rsize stack <= getr st0 rsp + 8 /\ 0 <= rwr stack <= rsize stack.
Hypothesis Hal : (ralign stack | base).
Hypothesis Hsz : rsize stack < 2 ^ 64.
Definition ret : Z := le_val (bytes_at (mem st0) (getr st0 rsp) 8).
(** the bases [d] blocks into the call, with [x] in rbx *)
Definition others (d x : Z) : list Z :=
  [n - d; ret; getr st0 rbx; getr st0 rbp; getr st0 r12; getr st0 r13; getr st0 r14; getr st0 r15; x].
Definition B (d x : Z) : nat -> Z := bv sect st0 d base (others d x).
Notation Inv := (inv sect scratch depth n st0).

Lemma count_range : 0 <= n < 2 ^ 63.
Proof.
  pose proof (C_count _ _ _ _ _ _ _ _ HC). destruct (space _ _ _ _ _ _ _ _ HC _ (in_inp sect consts scratch depth n st0)) as [A C].
  cbn [fst snd] in A, C. lia.
Qed.
Lemma inv_start : Inv 0 st0.
Proof. split; [exact (C_valid _ _ _ _ _ _ _ _ HC)|]. split; [intros x _; reflexivity|intros i I; lia]. Qed.
Lemma step_piece q d x st : q_consts q = consts -> q_scratch q = scratch -> q_stack q = stack ->
  piece_ok q = true -> frag_ok (piece_frag q) = true ->
  0 <= d -> d + Z.of_nat (q_blocks q) <= n -> Inv d st -> holds (B d x) (q_from q) st ->
  (forall env, Forall (cond_ok (B d x) env) (q_conds q)) ->
  exists k st', strolls RD WR sect (q_range q) k st = Some st' /\
    sees RD WR sect k st (view sect (getr st0 rsi) (getr st0 rdi) base d q) /\ Inv (d + Z.of_nat (q_blocks q)) st' /\ holds (B d x) (q_to q) st'.
Proof.
  intros Q1 Q2 Q3 Q4 Q5 D N I H C.
  destruct (run_piece RD WR sect consts scratch depth n st0 HC Hone d base (others d x) (q_blocks q) stack D N Hst Hal Hsz Hcs
              q Q1 Q2 eq_refl Q3 Q4 Q5 st I H C) as (k & st' & S & T & R).
  exists k, st'. split; [exact S|]. split; [exact (Sees _ _ _ _ _ _ T)|exact R].
Qed.
Lemma u64_0 r : w64 (getr st0 r + 0) = getr st0 r.
Proof. rewrite Z.add_0_r. apply w64_small. apply getr_u64, valid_sane, (C_valid _ _ _ _ _ _ _ _ HC). Qed.
Lemma ret_range : 0 <= ret < 2 ^ 64.
Proof.
  pose proof (le_val_bound _ (bytes_at_ok (mem st0) (getr st0 rsp) 8 (V_mem _ (C_valid _ _ _ _ _ _ _ _ HC)))) as Q.
  unfold zlen in Q. rewrite bytes_at_length in Q. exact Q.
Qed.
(** a state at the exit has returned *)
Lemma finish d x p st o : p_pc p = SPtr 9 0 ->
  nth rbx (p_gpr p) any = SPtr 10 0 -> nth rsp (p_gpr p) any = SPtr 7 o -> nth rbp (p_gpr p) any = SPtr 11 0 ->
  nth r12 (p_gpr p) any = SPtr 12 0 -> nth r13 (p_gpr p) any = SPtr 13 0 ->
  nth r14 (p_gpr p) any = SPtr 14 0 -> nth r15 (p_gpr p) any = SPtr 15 0 ->
  base + o = getr st0 rsp + 8 -> Inv n st -> holds (B d x) p st ->
  returned sect scratch depth n st0 st /\ hashed n st0 st.
Proof.
  intros P1 P2 P3 P4 P5 P6 P7 P8 E (V & U & S) (H1 & H2 & _ & _). specialize (H2 (fun _ => 0)).
  pose proof (index_F2 _ _ _ _ H2) as G. split; [|exact S].
  pose proof (C_stack _ _ _ _ _ _ _ _ HC) as [_ SP]. pose proof (sp_range _ _ _ _ _ _ _ _ HC) as SR.
  constructor.
  - exact V.
  - rewrite P1 in H1. cbn [pcrel] in H1. rewrite H1. unfold ad. change (B d x 9) with ret. rewrite Z.add_0_r. apply w64_small, ret_range.
  - specialize (G rsp). rewrite P3 in G. cbn [grel] in G. unfold getr at 1. rewrite G. unfold ad. change (B d x 7) with base. rewrite E.
    apply w64_small. lia.
  - repeat apply Forall_cons; try apply Forall_nil.
    + specialize (G rbx). rewrite P2 in G. exact (eq_trans G (u64_0 rbx)).
    + specialize (G rbp). rewrite P4 in G. exact (eq_trans G (u64_0 rbp)).
    + specialize (G r12). rewrite P5 in G. exact (eq_trans G (u64_0 r12)).
    + specialize (G r13). rewrite P6 in G. exact (eq_trans G (u64_0 r13)).
    + specialize (G r14). rewrite P7 in G. exact (eq_trans G (u64_0 r14)).
    + specialize (G r15). rewrite P8 in G. exact (eq_trans G (u64_0 r15)).
  - exact U.
Qed.
Lemma cond_lt d x k b env : 0 <= d <= n -> 0 <= k < 2 ^ 63 -> (n - d <? k) = b ->
  Forall (cond_ok (B d x) env) [(FCmp (SPtr 8 0) k, JL, b)].
Proof.
  intros D K E. constructor; [|constructor]. intros v G. cbn [grel] in G. unfold ad in G. change (B d x 8) with (n - d) in G.
  pose proof count_range. rewrite Z.add_0_r, w64_small in G by lia. subst v. rewrite jl_spec by lia. exact E.
Qed.
Lemma cond_zero d x b env : 0 <= d <= n -> (n - d =? 0) = b -> Forall (cond_ok (B d x) env) [(FTest (SPtr 8 0), JZ, b)].
Proof.
  intros D E. constructor; [|constructor]. intros v G. cbn [grel] in G. unfold ad in G. change (B d x 8) with (n - d) in G.
  pose proof count_range. rewrite Z.add_0_r, w64_small in G by lia. subst v. rewrite jz_spec. exact E.
Qed.
End Routine.
Ltac cases_of i m := match m with O => exfalso; lia | S ?k => destruct i as [|i]; [|cases_of i k] end.
Ltac cases16 i := cases_of i 16%nat.


(** registers at the start *)
Ltac names := cbv [rax rcx rdx rbx rsp rbp rsi rdi r8 r9 r10 r11 r12 r13 r14 r15] in *.
Ltac reg_eq HC :=
  match goal with |- nth ?r (gpr ?st) 0 = w64 ?e =>
    change (getr st r = w64 e); rewrite <- (u64_0 _ _ _ _ _ _ _ _ HC r) at 1; f_equal;
    cbn -[Z.add Z.mul Z.sub getr Z.opp]; names; zl end.

(** ** sha256_1_avx *)
Definition seen_1 (sect : nat -> Z) (si di sp : Z) : list (Z * list Z) := view sect si di (sp - 120) 0 avx1.
Lemma avx1_runs rd wr sect st : call rd wr sect [0%nat] [] 120 1 st -> find_label "sha256_1_avx" image 0 = Some (pc st) ->
  runs rd wr sect range_1 (seen_1 sect (getr st rsi) (getr st rdi) (getr st rsp)) st (fun st' => returned sect [] 120 1 st st' /\ hashed 1 st st').
Proof.
  intros HC HL. apply label_spec in HL.
  pose proof (C_valid _ _ _ _ _ _ _ _ HC) as V. pose proof (C_stack _ _ _ _ _ _ _ _ HC) as [SA SP].
  set (base := getr st rsp - 120).
  assert (Hone : forall s s' : nat, In s [] -> In s' [] -> s = s') by (intros s s' []).
  assert (Hcs : Forall (fun s => (s < 5)%nat) ([0%nat] ++ [])) by (repeat constructor).
  assert (Hst : getr st rsp - 120 <= base /\ base + rwr (q_stack avx1) <= getr st rsp /\
    base + rsize (q_stack avx1) <= getr st rsp + 8 /\ 0 <= rwr (q_stack avx1) <= rsize (q_stack avx1)) by (cbn [q_stack avx1 rwr rsize]; lia).
  assert (Hal : (ralign (q_stack avx1) | base)) by (cbn [q_stack avx1 ralign]; apply Z.mod_divide; lia).
  destruct (step_piece rd wr sect [0%nat] [] 120 1 st HC Hone Hcs base (q_stack avx1) Hst Hal eq_refl avx1 0 (getr st rdx) st
    eq_refl eq_refl eq_refl eq_refl ok_avx1) as (k & st' & S & TR & I & H).
  - lia.
  - cbn. lia.
  - exact (inv_start _ _ _ _ _ _ _ _ HC).
  - split; [exact HL|]. split; [|split].
    + intros env. apply (F2_index _ 16); [reflexivity|exact (V_gpr _ V)|]. intros i L.
      cases16 i; try exact Logic.I; cbn [avx1 q_from p_gpr regs nth grel]; unfold ad; reg_eq HC.
    + intros env. apply any_vec; [exact V|reflexivity].
    + repeat (apply Forall_cons; [intros env|]); [|apply Forall_nil]. cbn [fst snd grel]. unfold ad. cbn -[Z.add Z.mul Z.sub bytes_at le_val w64].
      replace (base + 120) with (getr st rsp) by lia. rewrite Z.add_0_r. symmetry. apply w64_small. exact (ret_range _ _ _ _ _ _ _ _ HC).
  - intros env. constructor.
  - exists k, st'. split; [exact S|]. split; [exact TR|].
    apply (finish _ _ _ _ _ _ _ _ HC base 0 (getr st rdx) (q_to avx1) st' 128); try reflexivity; auto. lia.
Qed.
Lemma avx1_correct : correct sha256_1_avx (fun _ => 1).
Proof. intros rd wr sect st HC HL. exact (runs_steps _ _ _ _ _ _ _ (avx1_runs rd wr sect st HC HL)). Qed.

(** ** sha256_4_avx *)
Section Seen4.
Variable sect : nat -> Z.
Variables si di base : Z.
Notation view4 := (view sect si di base).
Fixpoint seen_4_tail (k : nat) (d : Z) : list (Z * list Z) :=
  match k with O => view4 d avx4_end | S k' => view4 d avx4_one ++ seen_4_tail k' (d + 1) end.
Fixpoint seen_4_loop (m k : nat) (d : Z) : list (Z * list Z) :=
  match m with O => view4 d avx4_few ++ seen_4_tail k d | S m' => view4 d avx4_four ++ seen_4_loop m' k (d + 4) end.
End Seen4.
Definition seen_4 (sect : nat -> Z) (si di sp n : Z) : list (Z * list Z) :=
  view sect si di (sp - 536) 0 avx4_start ++ seen_4_loop sect si di (sp - 536) (Z.to_nat (n / 4)) (Z.to_nat (n mod 4)) 0.
Section Four.
Variables RD WR : Z -> bool.
Variable sect : nat -> Z.
Variable n : Z.
Variable st0 : state.
Hypothesis HC : call RD WR sect [0%nat; 1%nat] [] 536 n st0.
Notation base := (getr st0 rsp - 536).
Notation Inv := (inv sect [] 536 n st0).
Notation B := (B sect n st0 base).
Notation runs := (runs RD WR sect range_4).
Notation runs_trans := (runs_trans RD WR sect range_4).
Notation view4 := (view sect (getr st0 rsi) (getr st0 rdi) base).
Lemma piece4_step b from to conds code d x st : let q := piece4 b from to conds code in
  frag_ok (piece_frag q) = true -> piece_ok q = true ->
  0 <= d -> d + Z.of_nat b <= n -> Inv d st -> holds (B d x) from st ->
  (forall env, Forall (cond_ok (B d x) env) conds) ->
  exists k st', strolls RD WR sect range_4 k st = Some st' /\
    sees RD WR sect k st (view4 d q) /\ Inv (d + Z.of_nat b) st' /\ holds (B d x) to st'.
Proof.
  intros q Q5 Q4. pose proof (C_stack _ _ _ _ _ _ _ _ HC) as [SA SP].
  apply (step_piece RD WR sect [0%nat; 1%nat] [] 536 n st0 HC) with (stack := stack4) (q := q); auto.
  - intros s s' [].
  - repeat constructor.
  - cbn [stack4 rwr rsize]. lia.
  - cbn [stack4 ralign]. apply Z.mod_divide; lia.
  - reflexivity.
Qed.
(** at the head of a loop, [d] blocks done *)
Definition head4 (l : string) (d : Z) (st : state) : Prop :=
  Inv d st /\ holds (B d (getr st rbx)) (at4 l (SPtr 16 0) 0) st.
Lemma holds4 l d x b st : Inv (d + b) st -> holds (B d x) (at4 l any b) st -> head4 l (d + b) st.
Proof.
  intros I (H1 & H2 & H3 & H4). split; [exact I|]. split; [exact H1|]. split; [|split].
  - intros env. specialize (H2 env). pose proof (index_F2 _ _ _ _ H2) as G.
    apply (F2_index _ 16); [reflexivity|exact (V_gpr _ (proj1 I))|]. intros i L. specialize (G i).
    cases16 i; try exact Logic.I; cbn [at4 p_gpr regs nth grel] in *; unfold ad in *; try exact G.
    + rewrite G. f_equal. cbn -[Z.add Z.mul Z.sub getr Z.opp]. lia.
    + symmetry. exact (w64_getr st rbx (proj1 I)).
    + rewrite G. f_equal. cbn -[Z.add Z.mul Z.sub getr Z.opp]. lia.
    + rewrite G. f_equal. cbn -[Z.add Z.mul Z.sub getr Z.opp]. lia.
  - exact H3.
  - cbn [at4 p_saved saved4] in *. inversion H4 as [|? ? A H5]; subst. inversion H5 as [|? ? A' H6]; subst.
    apply Forall_cons; [exact A|]. apply Forall_cons; [exact A'|]. apply Forall_nil.
Qed.
Definition done4 (st : state) : Prop := returned sect [] 536 n st0 st /\ hashed n st0 st.
Notation tail_seen := (seen_4_tail sect (getr st0 rsi) (getr st0 rdi) base).
Notation loop_seen := (seen_4_loop sect (getr st0 rsi) (getr st0 rdi) base).
Lemma tail4 : forall k d st, n - d = Z.of_nat k -> 0 <= d -> head4 "sha256_4_avx.hash_1_block" d st -> runs (tail_seen k d) st done4.
Proof.
  induction k as [|k IH]; intros d st E D [I H].
  - destruct (piece4_step _ _ _ _ _ d (getr st rbx) st ok_avx4_end eq_refl D ltac:(zl) I H) as (j & st' & S & TR & I' & H').
    { intros env. apply (cond_zero _ _ _ _ _ _ _ _ HC); zl. }
    exists j, st'. split; [exact S|]. split; [exact TR|]. rewrite Z.add_0_r in I'. replace d with n in I' by zl.
    apply (finish _ _ _ _ _ _ _ _ HC base d (getr st rbx) exit4 st' 544); try reflexivity; auto. zl.
  - destruct (piece4_step _ _ _ _ _ d (getr st rbx) st ok_avx4_one eq_refl D ltac:(zl) I H) as (j & st' & S & TR & I' & H').
    { intros env. apply (cond_zero _ _ _ _ _ _ _ _ HC); zl. }
    apply holds4 in H'; [|exact I'].
    cbn [seen_4_tail seen_4_loop]. refine (runs_trans _ _ st (head4 "sha256_4_avx.hash_1_block" (d + 1)) _ _ _); [exists j, st'; split; [exact S|split; [exact TR|exact H']]|].
    intros st'' H''. apply (IH (d + 1)); auto; zl.
Qed.
Lemma loop4 : forall m d st, (n - d) / 4 = Z.of_nat m -> 0 <= d <= n -> head4 "sha256_4_avx.hash_4_blocks" d st ->
  runs (loop_seen m (Z.to_nat ((n - d) mod 4)) d) st done4.
Proof.
  induction m as [|m IH]; intros d st E D [I H].
  - destruct (piece4_step _ _ _ _ _ d (getr st rbx) st ok_avx4_few eq_refl ltac:(zl) ltac:(zl) I H) as (j & st' & S & TR & I' & H').
    { intros env. apply (cond_lt _ _ _ _ _ _ _ _ HC); zl. }
    apply holds4 in H'; [|exact I'].
    cbn [seen_4_tail seen_4_loop]. refine (runs_trans _ _ st (head4 "sha256_4_avx.hash_1_block" (d + 0)) _ _ _); [exists j, st'; split; [exact S|split; [exact TR|exact H']]|].
    intros st'' H''. rewrite Z.add_0_r in H''. apply (tail4 _ d); auto; zl.
  - destruct (piece4_step _ _ _ _ _ d (getr st rbx) st ok_avx4_four eq_refl ltac:(zl) ltac:(zl) I H) as (j & st' & S & TR & I' & H').
    { intros env. apply (cond_lt _ _ _ _ _ _ _ _ HC); zl. }
    apply holds4 in H'; [|exact I'].
    cbn [seen_4_tail seen_4_loop]. refine (runs_trans _ _ st (head4 "sha256_4_avx.hash_4_blocks" (d + 4)) _ _ _); [exists j, st'; split; [exact S|split; [exact TR|exact H']]|].
    intros st'' H''. replace ((n - d) mod 4) with ((n - (d + 4)) mod 4) by zl. apply (IH (d + 4)); auto; zl.
Qed.
Lemma avx4_runs : find_label "sha256_4_avx" image 0 = Some (pc st0) -> getr st0 rdx = n ->
  runs (seen_4 sect (getr st0 rsi) (getr st0 rdi) (getr st0 rsp) n) st0 done4.
Proof.
  intros HL HN. apply label_spec in HL. pose proof (C_valid _ _ _ _ _ _ _ _ HC) as V. pose proof (C_count _ _ _ _ _ _ _ _ HC) as C.
  destruct (piece4_step _ _ _ _ _ 0 0 st0 ok_avx4_start eq_refl) as (j & st' & S & TR & I' & H').
  - zl.
  - cbn. zl.
  - exact (inv_start _ _ _ _ _ _ _ _ HC).
  - split; [exact HL|]. split; [|split].
    + intros env. apply (F2_index _ 16); [reflexivity|exact (V_gpr _ V)|]. intros i L.
      cases16 i; try exact Logic.I; cbn [entry4 p_gpr regs nth grel]; unfold ad; reg_eq HC.
    + intros env. apply any_vec; [exact V|reflexivity].
    + repeat (apply Forall_cons; [intros env|]); [|apply Forall_nil]. cbn [fst snd grel]. unfold ad. cbn -[Z.add Z.mul Z.sub bytes_at le_val w64].
      replace (base + 536) with (getr st0 rsp) by zl. rewrite Z.add_0_r. symmetry. apply w64_small. exact (ret_range _ _ _ _ _ _ _ _ HC).
  - intros env. constructor.
  - apply holds4 in H'; [|exact I'].
    cbn [seen_4_tail seen_4_loop]. refine (runs_trans _ _ st0 (head4 "sha256_4_avx.hash_4_blocks" (0 + 0)) _ _ _); [exists j, st'; split; [exact S|split; [exact TR|exact H']]|].
    intros st'' H''. pose proof (loop4 (Z.to_nat (n / 4)) 0 st'') as L4. rewrite Z.sub_0_r in L4. apply L4; auto; zl.
Qed.
End Four.
Lemma avx4_correct : correct sha256_4_avx (fun st => getr st rdx).
Proof. intros rd wr sect st HC HL. exact (runs_steps _ _ _ _ _ _ _ (avx4_runs rd wr sect _ st HC HL eq_refl)). Qed.

(** ** sha256_shani *)
Section SeenNi.
Variable sect : nat -> Z.
Variables si di base : Z.
Notation view_ni := (view sect si di base).
Fixpoint seen_ni_loop (m : nat) (odd : bool) (d : Z) : list (Z * list Z) :=
  match m with
  | O => view_ni d ni_few ++ view_ni d (if odd then ni_one else ni_end)
  | S m' => view_ni d ni_two ++ seen_ni_loop m' odd (d + 2)
  end.
End SeenNi.
Definition seen_ni (sect : nat -> Z) (si di sp n : Z) : list (Z * list Z) :=
  view sect si di sp 0 ni_start ++ seen_ni_loop sect si di sp (Z.to_nat (n / 2)) (Z.odd n) 0.
Section Ni.
Variables RD WR : Z -> bool.
Variable sect : nat -> Z.
Variable n : Z.
Variable st0 : state.
Hypothesis HC : call RD WR sect [3%nat] [4%nat] 0 n st0.
Notation base := (getr st0 rsp).
Notation Inv := (inv sect [4%nat] 0 n st0).
Notation B := (B sect n st0 base).
Notation runs := (runs RD WR sect range_ni).
Notation runs_trans := (runs_trans RD WR sect range_ni).
Notation view_ni := (view sect (getr st0 rsi) (getr st0 rdi) base).
Lemma piece_ni_step b from to conds code d st : let q := piece_ni b from to conds code in
  frag_ok (piece_frag q) = true -> piece_ok q = true ->
  0 <= d -> d + Z.of_nat b <= n -> Inv d st -> holds (B d 0) from st ->
  (forall env, Forall (cond_ok (B d 0) env) conds) ->
  exists k st', strolls RD WR sect range_ni k st = Some st' /\
    sees RD WR sect k st (view_ni d q) /\ Inv (d + Z.of_nat b) st' /\ holds (B d 0) to st'.
Proof.
  intros q Q5 Q4. pose proof (C_stack _ _ _ _ _ _ _ _ HC) as [SA SP].
  apply (step_piece RD WR sect [3%nat] [4%nat] 0 n st0 HC) with (stack := stack_ni) (q := q); auto.
  - intros s s' [<-|[]] [<-|[]]. reflexivity.
  - repeat constructor.
  - cbn [stack_ni rwr rsize]. lia.
  - cbn [stack_ni ralign]. apply Z.mod_divide; lia.
  - reflexivity.
Qed.
Definition head_ni (l : string) (d : Z) (st : state) : Prop :=
  Inv d st /\ holds (B d 0) (at_ni l 0) st.
Lemma holds_ni l d b st : Inv (d + b) st -> holds (B d 0) (at_ni l b) st -> head_ni l (d + b) st.
Proof.
  intros I (H1 & H2 & H3 & H4). split; [exact I|]. split; [exact H1|]. split; [|split].
  - intros env. specialize (H2 env). pose proof (index_F2 _ _ _ _ H2) as G.
    apply (F2_index _ 16); [reflexivity|exact (V_gpr _ (proj1 I))|]. intros i L. specialize (G i).
    cases16 i; try exact Logic.I; cbn [at_ni p_gpr regs_ni nth grel] in *; unfold ad in *; try exact G.
    + rewrite G. f_equal. cbn -[Z.add Z.mul Z.sub getr Z.opp]. lia.
    + rewrite G. f_equal. cbn -[Z.add Z.mul Z.sub getr Z.opp]. lia.
    + rewrite G. f_equal. cbn -[Z.add Z.mul Z.sub getr Z.opp]. lia.
  - exact H3.
  - cbn [at_ni p_saved] in *. inversion H4 as [|? ? A H5]; subst.
    apply Forall_cons; [exact A|]. apply Forall_nil.
Qed.
Definition done_ni (st : state) : Prop := returned sect [4%nat] 0 n st0 st /\ hashed n st0 st.
Notation loop_seen := (seen_ni_loop sect (getr st0 rsi) (getr st0 rdi) base).
Lemma tail_ni d st : n - d < 2 -> 0 <= d <= n -> head_ni "sha256_shani.hash_1_block" d st ->
  runs (view_ni d (if Z.odd (n - d) then ni_one else ni_end)) st done_ni.
Proof.
  intros E D [I H]. destruct (Z.eq_dec d n) as [Z0|NZ].
  - replace (n - d) with 0 by lia. cbn [Z.odd].
    destruct (piece_ni_step _ _ _ _ _ d st ok_ni_end eq_refl ltac:(zl) ltac:(zl) I H) as (j & st' & S & TR & I' & H').
    { intros env. apply (cond_zero _ _ _ _ _ _ _ _ HC); zl. }
    exists j, st'. split; [exact S|]. split; [exact TR|]. rewrite Z.add_0_r in I'. rewrite Z0 in I'.
    apply (finish _ _ _ _ _ _ _ _ HC base d 0 exit_ni st' 8); try reflexivity; auto.
  - replace (n - d) with 1 by lia. cbn [Z.odd].
    destruct (piece_ni_step _ _ _ _ _ d st ok_ni_one eq_refl ltac:(zl) ltac:(zl) I H) as (j & st' & S & TR & I' & H').
    { intros env. apply (cond_zero _ _ _ _ _ _ _ _ HC); zl. }
    exists j, st'. split; [exact S|]. split; [exact TR|]. change (Z.of_nat 1) with 1 in I'. replace (d + 1) with n in I' by zl.
    apply (finish _ _ _ _ _ _ _ _ HC base d 0 exit_ni st' 8); try reflexivity; auto.
Qed.
Lemma loop_ni : forall m d st, (n - d) / 2 = Z.of_nat m -> 0 <= d <= n -> head_ni "sha256_shani.hash_2_blocks" d st ->
  runs (loop_seen m (Z.odd (n - d)) d) st done_ni.
Proof.
  induction m as [|m IH]; intros d st E D [I H].
  - destruct (piece_ni_step _ _ _ _ _ d st ok_ni_few eq_refl ltac:(zl) ltac:(zl) I H) as (j & st' & S & TR & I' & H').
    { intros env. apply (cond_lt _ _ _ _ _ _ _ _ HC); zl. }
    apply holds_ni in H'; [|exact I'].
    cbn [seen_ni_loop]. refine (runs_trans _ _ st (head_ni "sha256_shani.hash_1_block" (d + 0)) _ _ _); [exists j, st'; split; [exact S|split; [exact TR|exact H']]|].
    intros st'' H''. rewrite Z.add_0_r in H''. apply (tail_ni d); auto; zl.
  - destruct (piece_ni_step _ _ _ _ _ d st ok_ni_two eq_refl ltac:(zl) ltac:(zl) I H) as (j & st' & S & TR & I' & H').
    { intros env. apply (cond_lt _ _ _ _ _ _ _ _ HC); zl. }
    apply holds_ni in H'; [|exact I'].
    cbn [seen_ni_loop]. refine (runs_trans _ _ st (head_ni "sha256_shani.hash_2_blocks" (d + 2)) _ _ _); [exists j, st'; split; [exact S|split; [exact TR|exact H']]|].
    intros st'' H''. replace (n - d) with (n - (d + 2) + 2 * 1) by ring. rewrite Z.odd_add_mul_2. apply (IH (d + 2)); auto; zl.
Qed.
Lemma ni_runs : find_label "sha256_shani" image 0 = Some (pc st0) -> getr st0 rdx = n ->
  runs (seen_ni sect (getr st0 rsi) (getr st0 rdi) (getr st0 rsp) n) st0 done_ni.
Proof.
  intros HL HN. apply label_spec in HL. pose proof (C_valid _ _ _ _ _ _ _ _ HC) as V. pose proof (C_count _ _ _ _ _ _ _ _ HC) as C.
  destruct (piece_ni_step _ _ _ _ _ 0 st0 ok_ni_start eq_refl) as (j & st' & S & TR & I' & H').
  - zl.
  - cbn. zl.
  - exact (inv_start _ _ _ _ _ _ _ _ HC).
  - split; [exact HL|]. split; [|split].
    + intros env. apply (F2_index _ 16); [reflexivity|exact (V_gpr _ V)|]. intros i L.
      cases16 i; try exact Logic.I; cbn [entry_ni p_gpr regs_ni nth grel]; unfold ad; reg_eq HC.
    + intros env. apply any_vec; [exact V|reflexivity].
    + repeat (apply Forall_cons; [intros env|]); [|apply Forall_nil]. cbn [fst snd grel]. unfold ad. cbn -[Z.add Z.mul Z.sub bytes_at le_val w64].
      rewrite !Z.add_0_r. symmetry. apply w64_small. exact (ret_range _ _ _ _ _ _ _ _ HC).
  - intros env. constructor.
  - apply holds_ni in H'; [|exact I'].
    cbn [seen_ni_loop]. refine (runs_trans _ _ st0 (head_ni "sha256_shani.hash_2_blocks" (0 + 0)) _ _ _); [exists j, st'; split; [exact S|split; [exact TR|exact H']]|].
    intros st'' H''. pose proof (loop_ni (Z.to_nat (n / 2)) 0 st'') as L2. rewrite Z.sub_0_r in L2. apply L2; auto; zl.
Qed.
End Ni.
Lemma shani_correct : correct sha256_shani (fun st => getr st rdx).
Proof. intros rd wr sect st HC HL. exact (runs_steps _ _ _ _ _ _ _ (ni_runs rd wr sect _ st HC HL eq_refl)). Qed.
