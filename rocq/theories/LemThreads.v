(** Any number of threads that keep to their own data behave as if each were alone. *)
From Coq Require Import ZArith String List Bool Lia ZifyBool ZifyNat.
From Verif Require Import Base SpecSha ModelX86 ModelImage LemBase SymX86 LemSymX86 LemSymFrag LemX86 SpecAsm LemDigest LemPiece LemAsm LemAsm8 ModelHasher LemHasher SpecConc LemConc SamplesAsm.
Import ListNotations.
Open Scope list_scope.
Open Scope Z_scope.

(** ** One thread, alone and in company *)
Fixpoint alone (rd wr : Z -> bool) (sect : nat -> Z) (k : nat) (t : thread) (m : Z -> Z) : option (thread * (Z -> Z)) :=
  match k with
  | O => Some (t, m)
  | S k' => obind (turn rd wr sect t m) (fun p => alone rd wr sect k' (fst p) (snd p))
  end.
Definition teq (u t : thread) : Prop := regs_eq (t_state u) (t_state t) /\ t_todo u = t_todo t.
Definition idle (t : thread) : Prop := t_todo t = [] /\ fetch image (pc (t_state t)) = None.

Section One.
Variables RD WR : Z -> bool.
Variable sect : nat -> Z.
Variables private shared : Z -> bool.
Notation R := (fun x => private x || shared x).
Hypothesis rd_ok : forall x, R x = true -> RD x = true.
Hypothesis wr_ok : forall x, private x = true -> WR x = true.
Variable m0 : Z -> Z.
Notation turn1 := (turn R private sect).

Lemma private_R x : private x = true -> R x = true.
Proof. cbv beta. intros ->. reflexivity. Qed.

Lemma turn_sim t m t1 m1 u m' : Forall (job_ok sect private shared m0) (t_todo t) ->
  teq u t -> agree R m m' -> turn1 t m = Some (t1, m1) ->
  exists u1 m1', turn RD WR sect u m' = Some (u1, m1') /\ teq u1 t1 /\ agree R m1 m1' /\
    (forall x, private x = false -> m1' x = m' x).
Proof.
  intros J [Q1 Q2] A T. unfold turn in *. rewrite (regs_pc _ _ Q1). destruct (fetch image (pc (t_state t))) as [i|] eqn:F.
  - destruct (step R private sect image (setm m (t_state t))) as [s1|] eqn:E; [|discriminate T]. cbn [option_map] in T.
    apply some_inj in T. injection T as <- <-.
    destruct (step_frame R private RD WR sect private_R rd_ok wr_ok image (setm m (t_state t)) s1 m' A E) as (m1' & E' & A1 & A2).
    rewrite (Q1 m'). change (setm m' (setm m (t_state t))) with (setm m' (t_state t)) in E'. rewrite E'. cbn [option_map].
    eexists _, m1'. split; [reflexivity|]. split; [split; [intros m2; reflexivity|exact Q2]|]. split; [exact A1|].
    intros x X. apply (A2 x X).
  - rewrite Q2. destruct (t_todo t) as [|j r] eqn:TD.
    + apply some_inj in T. injection T as <- <-. exists u, m'. split; [reflexivity|]. split; [split; [exact Q1|congruence]|]. split; [exact A|]. reflexivity.
    + apply some_inj in T. injection T as <- <-. eexists _, _. split; [reflexivity|]. apply Forall_inv in J.
      split; [split; [intros m2; reflexivity|reflexivity]|]. split.
      * intros x X. destruct (private x) eqn:P.
        -- apply (J_reads _ _ _ _ _ J); [|exact P]. intros y Y. apply A. exact Y.
        -- rewrite !(J_keeps _ _ _ _ _ J) by exact P. apply A. rewrite P. exact X.
      * intros x X. apply (J_keeps _ _ _ _ _ J). exact X.
Qed.
Lemma turn_todo rd wr t m t1 m1 P : Forall P (t_todo t) -> turn rd wr sect t m = Some (t1, m1) -> Forall P (t_todo t1).
Proof.
  unfold turn. intros F. destruct (fetch image _).
  - destruct (step _ _ _ _ _); [|discriminate]. cbn [option_map]. intros E. apply some_inj in E. injection E as <- <-. exact F.
  - destruct (t_todo t) as [|j r] eqn:Q; intros E; apply some_inj in E; injection E as <- <-; [rewrite Q; constructor|]. cbn [t_todo].
    exact (Forall_inv_tail F).
Qed.

Lemma alone_app rd wr k1 : forall k2 t m, alone rd wr sect (k1 + k2) t m = obind (alone rd wr sect k1 t m) (fun p => alone rd wr sect k2 (fst p) (snd p)).
Proof.
  induction k1 as [|k1 IH]; intros k2 t m; [reflexivity|]. cbn [Nat.add alone]. destruct (turn rd wr sect t m) as [[t1 m1]|]; [|reflexivity].
  cbn [obind fst snd]. apply IH.
Qed.
Lemma alone_steps r : forall k s s' u, steps R private sect image k s = Some s' -> regs_eq u s ->
  exists u', alone R private sect k {| t_state := u; t_todo := r |} (mem s) = Some ({| t_state := u'; t_todo := r |}, mem s') /\ regs_eq u' s'.
Proof.
  induction k as [|k IH]; intros s s' u S Q; cbn [steps alone] in *.
  - apply some_inj in S. subst s'. exists u. auto.
  - destruct (step R private sect image s) as [s1|] eqn:E; [|discriminate S]. cbn [obind] in S.
    unfold turn. cbn [t_state t_todo]. rewrite (regs_pc _ _ Q). destruct (fetch image (pc s)) as [i|] eqn:F; [|unfold step in E; rewrite F in E; discriminate E].
    rewrite (Q (mem s)). replace (setm (mem s) s) with s by (destruct s; reflexivity). rewrite E. cbn [option_map obind fst snd].
    apply (IH s1 s' s1 S). apply regs_refl.
Qed.
Lemma call_other m st f n : bytes_mem m -> (forall x, shared x = true -> m x = m0 x) ->
  Forall (fun s => forall x, inside x (section_area sect s) -> shared x = true) (r_consts f) ->
  call R private sect (r_consts f) (r_scratch f) (r_depth f) n (setm m0 st) ->
  call R private sect (r_consts f) (r_scratch f) (r_depth f) n (setm m st).
Proof using sect private shared m0.
  intros B A S C. constructor; try (destruct C; assumption).
  - destruct (C_valid _ _ _ _ _ _ _ _ C). constructor; try assumption.
  - pose proof (C_consts _ _ _ _ _ _ _ _ C) as K. rewrite Forall_forall in *. intros s I. rewrite <- (K s I) at 2.
    apply bytes_at_ext. intros x X. apply A. apply (S s I). unfold section_area, inside, zlen. cbn [fst snd]. clear - X. lia.
Qed.
Hypothesis apart_shared : forall x, private x = true -> shared x = false.
Lemma alone_ends : forall todo u m, fetch image (pc u) = None -> bytes_mem m -> (forall x, shared x = true -> m x = m0 x) ->
  Forall (job_ok sect private shared m0) todo ->
  exists k e me, alone R private sect k {| t_state := u; t_todo := todo |} m = Some (e, me) /\ idle e /\ served sect todo m me.
Proof using sect private shared m0 apart_shared.
  induction todo as [|j r IH]; intros u m F B A J.
  - exists 0%nat, {| t_state := u; t_todo := [] |}, m. split; [reflexivity|]. split; [split; [reflexivity|exact F]|]. constructor.
  - apply Forall_inv' in J as [J Jr]. set (p := j_before j m).
    assert (Bp : bytes_mem p) by (apply (J_bytes _ _ _ _ _ J), B).
    assert (Ap : forall x, shared x = true -> p x = m0 x).
    { intros x X. unfold p. rewrite (J_keeps _ _ _ _ _ J); [apply A, X|]. destruct (private x) eqn:P; [|reflexivity]. rewrite (apart_shared x P) in X. discriminate X. }
    pose proof (call_other p (j_state j) _ _ Bp Ap (J_consts _ _ _ _ _ J) (J_call _ _ _ _ _ J)) as C.
    destruct (routine_correct _ _ (J_routine _ _ _ _ _ J) _ _ sect (setm p (j_state j)) (J_one _ _ _ _ _ J) (J_count _ _ _ _ _ J) C (J_entry _ _ _ _ _ J))
      as (k & st' & S & E & H).
    destruct (alone_steps r k _ _ (j_state j) S) as (u' & K & Q); [intros m2; reflexivity|].
    assert (F' : fetch image (pc u') = None).
    { rewrite (regs_pc _ _ Q), (E_pc _ _ _ _ _ _ E). exact (J_return _ _ _ _ _ J m B). }
    destruct (IH u' (mem st') F' (V_mem _ (E_valid _ _ _ _ _ _ E))) as (k2 & e & me & K2 & I & D); [|exact Jr|].
    + intros x X. rewrite (E_mem _ _ _ _ _ _ E); [exact (Ap x X)|]. pose proof (C_write _ _ _ _ _ _ _ _ C) as W. rewrite Forall_forall in *.
      intros a Ia Ix. specialize (W a Ia x Ix). rewrite (apart_shared x W) in X. discriminate X.
    + exists (1 + (k + k2))%nat, e, me. split; [|split; [exact I|]].
      * cbn [Nat.add alone]. unfold turn at 1. cbn [t_state t_todo]. rewrite F. cbn [obind fst snd]. rewrite alone_app. fold p.
        change p with (mem (setm p (j_state j))). rewrite K. cbn [obind fst snd]. exact K2.
      * apply served_job with (m1 := mem st'); [exact H|exact (E_mem _ _ _ _ _ _ E)|exact D].
Qed.
Lemma alone_idle k e m : idle e -> alone R private sect k e m = Some (e, m).
Proof. intros [I F]. induction k as [|k IH]; [reflexivity|]. cbn [alone]. unfold turn. rewrite F, I. exact IH. Qed.
(** [u] is, with memory [m], where the thread on its own is, with [k] turns to go to [e] *)
Definition apace (k : nat) (e : thread) (me : Z -> Z) (u : thread) (m : Z -> Z) : Prop :=
  exists t mt, alone R private sect k t mt = Some (e, me) /\ idle e /\ teq u t /\ agree R mt m /\
    Forall (job_ok sect private shared m0) (t_todo t).
Lemma apace_turn k e me u m : apace k e me u m ->
  exists u' m', turn RD WR sect u m = Some (u', m') /\ apace (pred k) e me u' m' /\ (forall x, private x = false -> m' x = m x).
Proof.
  intros (t & mt & K & I & Q & A & J). destruct k as [|k].
  - cbn [alone] in K. apply some_inj in K. injection K as -> ->.
    assert (T : turn1 e me = Some (e, me)) by (destruct I as [I1 I2]; unfold turn; rewrite I1, I2; reflexivity).
    destruct (turn_sim e me e me u m J Q A T) as (u1 & m1 & E & Q1 & A1 & K1). exists u1, m1. split; [exact E|]. split; [|exact K1].
    exists e, me. split; [reflexivity|]. auto.
  - cbn [alone] in K. destruct (turn1 t mt) as [[t1 m1]|] eqn:T; [|discriminate K]. cbn [obind fst snd] in K.
    destruct (turn_sim t mt t1 m1 u m J Q A T) as (u1 & m1' & E & Q1 & A1 & K1). exists u1, m1'. split; [exact E|]. split; [|exact K1].
    exists t1, m1. split; [exact K|]. split; [exact I|]. split; [exact Q1|]. split; [exact A1|]. exact (turn_todo _ _ _ _ _ _ _ J T).
Qed.
Lemma apace_other k e me u m m' : (forall x, R x = true -> m' x = m x) -> apace k e me u m -> apace k e me u m'.
Proof.
  intros H (t & mt & K & I & Q & A & J). exists t, mt. split; [exact K|]. split; [exact I|]. split; [exact Q|]. split; [|exact J].
  intros x X. rewrite (H x X). exact (A x X).
Qed.
End One.

(** ** All of them *)
Lemma nth_error_upd_same {A} (l : list A) i x y : nth_error l i = Some y -> nth_error (upd l i x) i = Some x.
Proof. revert i. induction l as [|a l IH]; intros [|i] H; try discriminate H; [reflexivity|]. cbn. apply IH. exact H. Qed.
Lemma nth_error_upd_other {A} (l : list A) i j x : i <> j -> nth_error (upd l i x) j = nth_error l j.
Proof.
  revert i j. induction l as [|a l IH]; intros [|i] [|j] H; try reflexivity; [contradiction|]. cbn. apply IH. congruence.
Qed.
Lemma finite_choice {A} (d : A) (Q : nat -> A -> Prop) : forall n, (forall i, (i < n)%nat -> exists x, Q i x) ->
  exists f : nat -> A, forall i, (i < n)%nat -> Q i (f i).
Proof.
  induction n as [|n IH]; intros H; [exists (fun _ => d); intros i I; lia|].
  destruct IH as [f F]; [intros i I; apply H; lia|]. destruct (H n) as [x X]; [lia|].
  exists (fun i => if Nat.eqb i n then x else f i). intros i I. destruct (Nat.eqb_spec i n) as [->|N]; [exact X|]. apply F. lia.
Qed.
Lemma bounded (f : nat -> nat) n : exists N, forall i, (i < n)%nat -> (f i <= N)%nat.
Proof.
  induction n as [|n [N H]]; [exists 0%nat; intros i I; lia|]. exists (Nat.max N (f n)). intros i I.
  destruct (Nat.eq_dec i n) as [->|]; [lia|]. specialize (H i). lia.
Qed.

Section All.
Variables RD WR : Z -> bool.
Variable sect : nat -> Z.
Variable private : nat -> Z -> bool.
Variable shared : Z -> bool.
Variable m0 : Z -> Z.
Variable n : nat.
Hypothesis rd_ok : forall i, (i < n)%nat -> forall x, private i x || shared x = true -> RD x = true.
Hypothesis wr_ok : forall i, (i < n)%nat -> forall x, private i x = true -> WR x = true.
Hypothesis apart_shared : forall i x, private i x = true -> shared x = false.
Hypothesis apart_private : forall i j x, i <> j -> private i x = true -> private j x = false.
Variable fin : nat -> nat * thread * (Z -> Z).

Definition all_apace (rem : nat -> nat) (us : list thread) (m : Z -> Z) : Prop := length us = n /\
  forall i u, nth_error us i = Some u -> apace sect (private i) shared m0 (rem i) (snd (fst (fin i))) (snd (fin i)) u m.
Lemma all_run : forall schedule rem us m, all_apace rem us m ->
  exists us' m', turns_taken RD WR sect schedule us m = Some (us', m') /\
    all_apace (fun i => rem i - count_occ Nat.eq_dec schedule i)%nat us' m' /\
    (forall x, (forall i, private i x = false) -> m' x = m x).
Proof.
  induction schedule as [|w schedule IH]; intros rem us m [L A]; cbn [turns_taken].
  - exists us, m. split; [reflexivity|]. split; [|auto]. split; [exact L|]. intros i u U. cbn [count_occ]. rewrite Nat.sub_0_r. exact (A i u U).
  - destruct (nth_error us w) as [u|] eqn:U.
    + assert (Wn : (w < n)%nat) by (rewrite <- L; apply nth_error_Some; congruence).
      destruct (apace_turn RD WR sect (private w) shared (rd_ok w Wn) (wr_ok w Wn) m0 _ _ _ _ _ (A w u U)) as (u1 & m1 & E & A1 & K).
      rewrite E. cbn [obind fst snd].
      destruct (IH (fun i => if Nat.eqb i w then pred (rem i) else rem i) (upd us w u1) m1) as (us' & m' & E' & B & K').
      { split; [rewrite LemBase.upd_length; exact L|]. intros i v V. destruct (Nat.eqb_spec i w) as [->|N].
        - rewrite (nth_error_upd_same us w u1 u U) in V. apply some_inj in V. subst v. exact A1.
        - rewrite nth_error_upd_other in V by congruence. apply (apace_other _ _ _ _ _ _ _ _ m); [|exact (A i v V)].
          intros x X. apply K. destruct (private w x) eqn:P; [|reflexivity]. exfalso.
          apply orb_true_iff in X as [X|X]; [rewrite (apart_private i w x N X) in P; discriminate P|].
          rewrite (apart_shared w x P) in X. discriminate X. }
      exists us', m'. split; [exact E'|]. destruct B as [L' B]. split; [|intros x X; rewrite K' by exact X; apply K, X].
      split; [exact L'|]. intros i v V. specialize (B i v V). cbn [count_occ]. destruct (Nat.eqb_spec i w) as [->|N].
      * destruct (Nat.eq_dec w w) as [_|]; [|contradiction]. replace (rem w - S (count_occ Nat.eq_dec schedule w))%nat
          with (pred (rem w) - count_occ Nat.eq_dec schedule w)%nat by lia. exact B.
      * destruct (Nat.eq_dec w i) as [Q|_]; [congruence|]. exact B.
    + destruct (IH rem us m) as (us' & m' & E' & [L' B] & K'); [split; assumption|]. exists us', m'. split; [exact E'|]. split; [|exact K'].
      split; [exact L'|]. intros i v V. specialize (B i v V). cbn [count_occ]. destruct (Nat.eq_dec w i) as [<-|_]; [|exact B].
      apply nth_error_None in U. assert (w < length us')%nat by (apply nth_error_Some; congruence). lia.
Qed.
End All.

Lemma many_threads : forall rd wr sect shared (private : nat -> Z -> bool) ts m,
  bytes_mem m ->
  (forall i t, nth_error ts i = Some t -> fetch image (pc (t_state t)) = None /\
     Forall (job_ok sect (private i) shared m) (t_todo t) /\
     (forall x, private i x || shared x = true -> rd x = true) /\ (forall x, private i x = true -> wr x = true)) ->
  (forall i x, private i x = true -> shared x = false) ->
  (forall i j x, i <> j -> private i x = true -> private j x = false) ->
  exists N, forall schedule, exists ts' m', turns_taken rd wr sect schedule ts m = Some (ts', m') /\
    (forall i t, nth_error ts i = Some t -> (N <= count_occ Nat.eq_dec schedule i)%nat ->
       exists t' mi, nth_error ts' i = Some t' /\ t_todo t' = [] /\ fetch image (pc (t_state t')) = None /\
         served sect (t_todo t) m mi /\ (forall x, private i x = true -> m' x = mi x)) /\
    (forall x, (forall i, private i x = false) -> m' x = m x).
Proof.
  intros rd wr sect shared private ts m B H AS AP.
  destruct (finite_choice (0%nat, {| t_state := {| pc := 0; gpr := []; ymm := []; flags := None; mem := m |}; t_todo := [] |}, m)
    (fun i x => forall t, nth_error ts i = Some t ->
       alone (fun x => private i x || shared x) (private i) sect (fst (fst x)) t m = Some (snd (fst x), snd x) /\
       idle (snd (fst x)) /\ served sect (t_todo t) m (snd x)) (length ts)) as [fin F].
  { intros i I. destruct (nth_error ts i) as [t|] eqn:T; [|apply nth_error_None in T; lia].
    destruct (H i t T) as (Ft & J & _ & _).
    destruct (alone_ends sect (private i) shared m (AS i) (t_todo t) (t_state t) m Ft B (fun x _ => eq_refl) J) as (k & e & me & K & I' & D).
    exists (k, e, me). intros t' T'. apply some_inj in T'. subst t'. cbn [fst snd]. destruct t as [a b]. cbn [t_state t_todo] in *. auto. }
  destruct (bounded (fun i => fst (fst (fin i))) (length ts)) as [N HN]. exists N. intros schedule.
  assert (IN : forall i t, nth_error ts i = Some t -> (i < length ts)%nat) by (intros i t T; apply nth_error_Some; congruence).
  destruct (all_run rd wr sect private shared m (length ts)) with (fin := fin) (schedule := schedule) (rem := fun i => fst (fst (fin i))) (us := ts) (m := m)
    as (us' & m' & E & [L A] & K).
  - intros i I. destruct (nth_error ts i) as [t|] eqn:T; [|apply nth_error_None in T; lia]. apply (H i t T).
  - intros i I. destruct (nth_error ts i) as [t|] eqn:T; [|apply nth_error_None in T; lia]. apply (H i t T).
  - exact AS.
  - exact AP.
  - split; [reflexivity|]. intros i u U. destruct (F i (IN i u U) u U) as (F1 & F2 & F3). exists u, m. split; [exact F1|]. split; [exact F2|].
    split; [split; [apply regs_refl|reflexivity]|]. split; [intros x _; reflexivity|]. apply (H i u U).
  - exists us', m'. split; [exact E|]. split; [|exact K]. intros i t T C.
    destruct (F i (IN i t T) t T) as (F1 & F2 & F3).
    destruct (nth_error us' i) as [u|] eqn:U; [|apply nth_error_None in U; specialize (IN i t T); lia].
    specialize (A i u U). specialize (HN i (IN i t T)). cbn beta in HN.
    replace (fst (fst (fin i)) - count_occ Nat.eq_dec schedule i)%nat with 0%nat in A by lia.
    destruct A as (t1 & m1 & K1 & [I1 I2] & [Q1 Q2] & A1 & _). cbn [alone] in K1. apply some_inj in K1. injection K1 as -> ->.
    exists u, (snd (fin i)). split; [reflexivity|]. split; [congruence|]. split; [rewrite (regs_pc _ _ Q1); exact I2|]. split; [exact F3|].
    intros x X. apply A1. rewrite X. reflexivity.
Qed.

(** ** A sample: two threads that make any two calls each *)
Lemma call_mono rd wr rd' wr' sect f n st : call rd wr sect (r_consts f) (r_scratch f) (r_depth f) n st ->
  Forall (fun a => forall x, inside x a -> rd' x = true) (used sect f n st) ->
  Forall (fun a => forall x, inside x a -> wr' x = true) (owned sect (r_scratch f) (r_depth f) n st) ->
  call rd' wr' sect (r_consts f) (r_scratch f) (r_depth f) n st.
Proof. intros C A B. constructor; try (destruct C; assumption); assumption. Qed.
Definition s_private (i : nat) (x : Z) : bool :=
  (60000 + s_gap * Z.of_nat i <=? x) && (x <? 270000 + s_gap * Z.of_nat i) || Nat.eqb i 1 && (s_sect 4 <=? x) && (x <? s_sect 5).
Definition s_shared (x : Z) : bool := (s_sect 0 <=? x) && (x <? s_sect 4).
(** before a call: the last output is copied to the input and the return address is pushed *)
Definition s_before (t : Z) (m : Z -> Z) (x : Z) : Z :=
  let y := x - s_gap * t in
  if (s_sp <=? y) && (y <? s_sp + 8) then nth (Z.to_nat (y - s_sp)) (le_bytes 8 s_ret) 0
  else if (s_in <=? y) && (y <? s_in + 32) then m (x - s_in + s_out) else m x.
Definition s_job (f : routine) (n : Z) (i : nat) : job :=
  {| j_routine := f; j_count := n; j_state := s_state f n (Z.of_nat i); j_before := s_before (Z.of_nat i) |}.
Lemma s_job_ok f n i : In f [sha256_1_avx; sha256_4_avx; sha256_8_avx2; sha256_shani] -> (f = sha256_1_avx -> n = 1) ->
  0 <= n <= 1000 -> (i <= 1)%nat -> (f = sha256_shani -> i = 1%nat) ->
  job_ok s_sect (s_private i) s_shared s_mem (s_job f n i).
Proof.
  intros F N1 N I Sh.
  assert (L0 : zlen (section_bytes 0) = 592) by (vm_compute; reflexivity).
  assert (L1 : zlen (section_bytes 1) = 2192) by (vm_compute; reflexivity).
  assert (L2 : zlen (section_bytes 2) = 4392) by (vm_compute; reflexivity).
  assert (L3 : zlen (section_bytes 3) = 560) by (vm_compute; reflexivity).
  assert (L4 : zlen (section_bytes 4) = 64) by (vm_compute; reflexivity).
  assert (T : Z.of_nat i = 0 /\ i = 0%nat \/ Z.of_nat i = 1 /\ i = 1%nat) by lia.
  destruct (s_call f n (Z.of_nat i) F N ltac:(lia)) as [C L].
  set (st := s_state f n (Z.of_nat i)) in *.
  assert (G1 : getr st rsp = 262152 + 400016 * Z.of_nat i) by reflexivity.
  assert (G2 : getr st rsi = 65537 + 400016 * Z.of_nat i) by reflexivity.
  assert (G3 : getr st rdi = 131074 + 400016 * Z.of_nat i) by reflexivity.
  constructor; cbn [s_job j_routine j_count j_state j_before]; fold st.
  - exact F.
  - exact N1.
  - right. reflexivity.
  - exact L.
  - change (setm s_mem st) with st. clear L N1. revert C. clearbody st. intros C. apply (call_mono _ _ _ _ _ _ _ _ C); clear C.
    + unfold used, read_only, owned. rewrite G1, G2, G3. clear G1 G2 G3. unfold s_private, s_shared, s_sect, s_gap. cbn [In] in F.
      destruct F as [<-|[<-|[<-|[<-|[]]]]];
        cbn [r_consts r_scratch r_depth sha256_1_avx sha256_4_avx sha256_8_avx2 sha256_shani map app]; rewrite ?s_area, ?L0, ?L1, ?L2, ?L3, ?L4;
        clear L0 L1 L2 L3 L4; (destruct T as [[E ->]|[E ->]]; [try discriminate (Sh eq_refl)|]); clear Sh;
        repeat (apply Forall_cons; [unfold inside; cbn [fst snd]; intros x X; clear - E N X; lia|]); apply Forall_nil.
    + unfold owned. rewrite G1, G3. clear G1 G2 G3. unfold s_private, s_sect, s_gap. cbn [In] in F.
      destruct F as [<-|[<-|[<-|[<-|[]]]]];
        cbn [r_consts r_scratch r_depth sha256_1_avx sha256_4_avx sha256_8_avx2 sha256_shani map app]; rewrite ?s_area, ?L0, ?L1, ?L2, ?L3, ?L4;
        clear L0 L1 L2 L3 L4; (destruct T as [[E ->]|[E ->]]; [try discriminate (Sh eq_refl)|]); clear Sh;
        repeat (apply Forall_cons; [unfold inside; cbn [fst snd]; intros x X; clear - E N X; lia|]); apply Forall_nil.
  - unfold s_shared, s_sect. cbn [In] in F.
    destruct F as [<-|[<-|[<-|[<-|[]]]]];
      cbn [r_consts sha256_1_avx sha256_4_avx sha256_8_avx2 sha256_shani];
      repeat (apply Forall_cons; [rewrite s_area, ?L0, ?L1, ?L2, ?L3; unfold inside; cbn [fst snd]; intros x X; clear - X; lia|]); apply Forall_nil.
  - clear - T. intros m x X. unfold s_private, s_before, s_gap, s_sp, s_in, s_out, s_sect in *. cbv zeta.
    replace (_ && _) with false by (clear - X T; lia). replace (_ && _) with false by (clear - X T; lia). reflexivity.
  - clear - T. intros m1 m2 A x X. unfold s_before. cbv zeta. destruct (_ && _) eqn:E1; [reflexivity|].
    destruct ((s_in <=? _) && _) eqn:E2; apply A; [|rewrite X; reflexivity].
    unfold s_private, s_gap, s_sp, s_in, s_out, s_sect in *. clear - E2 T. lia.
  - intros m B x. unfold s_before. cbv zeta. destruct (_ && _); [|destruct (_ && _); apply B].
    destruct (nth_in_or_default (Z.to_nat (x - s_gap * Z.of_nat i - s_sp)) (le_bytes 8 s_ret) 0) as [K|K]; [|rewrite K; lia].
    pose proof (le_bytes_ok 8 s_ret) as O. unfold bytes_ok in O. rewrite Forall_forall in O. exact (O _ K).
  - intros m B. rewrite G1. replace (bytes_at (s_before (Z.of_nat i) m) (262152 + 400016 * Z.of_nat i) 8) with (le_bytes 8 s_ret).
    + vm_compute. reflexivity.
    + unfold bytes_at, s_before. rewrite <- (map_nth_seq (le_bytes 8 s_ret)). change (length (le_bytes 8 s_ret)) with 8%nat.
      apply map_ext_in. intros k K. apply in_seq in K. cbv zeta. unfold s_gap, s_sp.
      replace (_ && _) with true by (clear - K; lia). f_equal. clear - K. lia.
Qed.
(** outside the assembly *)
Definition s_outside : state := {| pc := s_ret; gpr := []; ymm := []; flags := None; mem := s_mem |}.
Definition s_threads : list thread :=
  [{| t_state := s_outside; t_todo := [s_job sha256_1_avx 1 0; s_job sha256_8_avx2 29 0; s_job sha256_4_avx 6 0] |};
   {| t_state := s_outside; t_todo := [s_job sha256_shani 5 1; s_job sha256_shani 1 1] |}].
Lemma s_threads_ok : bytes_mem s_mem /\
  (forall i t, nth_error s_threads i = Some t -> fetch image (pc (t_state t)) = None /\
     Forall (job_ok s_sect (s_private i) s_shared s_mem) (t_todo t) /\
     (forall x, s_private i x || s_shared x = true -> s_ok x = true) /\ (forall x, s_private i x = true -> s_ok x = true)).
Proof.
  split; [exact (V_mem _ (s_valid sha256_shani 1 0 ltac:(lia) ltac:(lia)))|]. intros i t T.
  assert (I : (i <= 1)%nat) by (assert (i < 2)%nat by (change 2%nat with (length s_threads); apply nth_error_Some; congruence); lia).
  assert (P : forall x, s_private i x || s_shared x = true -> s_ok x = true).
  { intros x. unfold s_private, s_shared, s_ok, s_sect, s_gap. clear - I. lia. }
  split; [|split; [|split; [exact P|intros x X; apply P; rewrite X; reflexivity]]].
  - destruct i as [|[|i]]; [| |lia]; cbn in T; apply some_inj in T; subst t; vm_compute; reflexivity.
  - destruct i as [|[|i]]; [| |lia]; cbn [s_threads nth_error] in T; apply some_inj in T; subst t; cbn [t_todo];
      repeat (apply Forall_cons; [apply s_job_ok; [cbn; auto 6|discriminate || reflexivity|lia|lia|discriminate || reflexivity]|]); apply Forall_nil.
Qed.
Lemma s_disjoint : (forall i x, s_private i x = true -> s_shared x = false) /\
  (forall i j x, i <> j -> s_private i x = true -> s_private j x = false).
Proof.
  split.
  - intros i x. unfold s_private, s_shared, s_sect, s_gap. intros X. destruct (Nat.eqb_spec i 1); lia.
  - intros i j x D. unfold s_private, s_sect, s_gap. intros X. destruct (Nat.eqb_spec i 1), (Nat.eqb_spec j 1); lia.
Qed.
