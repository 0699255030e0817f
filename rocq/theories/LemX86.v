(** The machine keeps registers within 64 bits and memory within bytes. *)
From Coq Require Import ZArith String List Bool Lia ZifyBool ZifyNat.
From Verif Require Import Base ModelX86 ModelImage LemBase LemSymWord LemSymX86.
Import ListNotations.
Open Scope list_scope.
Open Scope Z_scope.
Ltac Zify.zify_post_hook ::= Z.div_mod_to_equations.

Definition u64 (x : Z) : Prop := 0 <= x < 2 ^ 64.
Definition sane (st : state) : Prop :=
  length (gpr st) = 16%nat /\ Forall u64 (gpr st) /\ (forall x, 0 <= mem st x < 256).
Definition imm_ok (i : instr) : bool :=
  match i with IShld32 _ _ n => (0 <? n) && (n <? 32) | _ => true end.
Lemma image_imm : forallb imm_ok image = true.
Proof. vm_compute. reflexivity. Qed.

Lemma upd_length' {A} (l : list A) i x : length (upd l i x) = length l.
Proof. revert i. induction l as [|y l IH]; intros [|i]; cbn [upd length]; auto. Qed.
Lemma Forall_upd' {A} (P : A -> Prop) l i x : Forall P l -> P x -> Forall P (upd l i x).
Proof. intros F X. revert i. induction F; intros [|i]; cbn [upd]; auto. Qed.
Lemma getr_u64 st r : sane st -> u64 (getr st r).
Proof.
  intros (_ & F & _). unfold getr. destruct (Nat.lt_ge_cases r (length (gpr st))) as [L|L].
  - rewrite Forall_forall in F. apply F, nth_In, L.
  - rewrite nth_overflow by lia. unfold u64. lia.
Qed.
Lemma sane_setr r x st : sane st -> u64 x -> sane (setr r x st).
Proof.
  intros (L & F & M) U. unfold setr. split; [|split]; cbn [gpr mem]; auto.
  - rewrite upd_length'. exact L.
  - apply Forall_upd'; assumption.
Qed.
Lemma sane_put m a bs : bytes_ok bs -> (forall x, 0 <= m x < 256) -> forall x, 0 <= put m a bs x < 256.
Proof.
  intros B M x. unfold put. cbv zeta. destruct (_ && _) eqn:C; [|apply M].
  unfold zlen in C. pose proof (w64_range (x - a)).
  eapply (proj1 (Forall_forall _ _) B). apply nth_In. lia.
Qed.
Lemma sane_store wr m a bs m' : bytes_ok bs -> (forall x, 0 <= m x < 256) -> store wr m a bs = Some m' ->
  forall x, 0 <= m' x < 256.
Proof.
  intros B M E. unfold store in E. destruct (forallb _ _); [|discriminate]. apply some_inj in E. subst m'.
  apply sane_put; assumption.
Qed.
Lemma sane_setm m st : sane st -> (forall x, 0 <= m x < 256) -> sane (setm m st).
Proof. intros (L & F & _) M. split; [|split]; auto. Qed.
Lemma sane_next st : sane st -> sane (next st).
Proof. intros H. exact H. Qed.
Lemma sane_setf f st : sane st -> sane (setf f st).
Proof. intros H. exact H. Qed.
Lemma sane_setv v x st : sane st -> sane (setv v x st).
Proof. intros H. exact H. Qed.
Lemma sane_setpc p st : sane st -> sane (setpc p st).
Proof. intros H. exact H. Qed.
Lemma load_bytes rd m a n l : (forall x, 0 <= m x < 256) -> load rd m a n = Some l -> bytes_ok l /\ length l = n.
Proof.
  intros M E. unfold load in E. destruct (forallb _ _); [|discriminate]. apply some_inj in E. subst l.
  split; [|unfold addrs; rewrite !map_length, seq_length; reflexivity].
  apply Forall_forall. intros x X. apply in_map_iff in X as (y & <- & _). apply M.
Qed.
Lemma load_int_range rd m a n v : (forall x, 0 <= m x < 256) -> load_int rd m a n = Some v -> 0 <= v < 256 ^ Z.of_nat n.
Proof.
  intros M E. unfold load_int in E. destruct (load rd m a n) as [l|] eqn:L; [|discriminate].
  apply load_bytes in L as [B L]; [|exact M]. cbn [option_map] in E. apply some_inj in E. subst v n.
  apply le_val_bound. exact B.
Qed.
Lemma w32_range x : 0 <= w32 x < 2 ^ 32.
Proof. unfold w32. apply Z.mod_pos_bound. lia. Qed.
Lemma bits_range n f x y : 0 <= n -> (forall i, Z.testbit (f x y) i = true -> Z.testbit x i = true \/ Z.testbit y i = true) ->
  0 <= f x y -> 0 <= x < 2 ^ n -> 0 <= y < 2 ^ n -> 0 <= f x y < 2 ^ n.
Proof.
  intros N B P X Y. split; [exact P|].
  destruct (Z.eq_dec (f x y) 0) as [->|NZ]; [lia|].
  apply Z.log2_lt_pow2; [lia|].
  assert (T : Z.testbit (f x y) (Z.log2 (f x y)) = true) by (apply Z.bit_log2; lia).
  assert (0 <= Z.log2 (f x y)) by apply Z.log2_nonneg.
  apply B in T as [T|T].
  - destruct (Z_lt_ge_dec (Z.log2 (f x y)) n) as [|G]; [assumption|]. exfalso.
    rewrite Z.bits_above_log2 in T; [discriminate|lia|]. destruct (Z.eq_dec x 0) as [->|]; [rewrite Z.bits_0 in T; discriminate|].
    assert (Z.log2 x < n) by (apply Z.log2_lt_pow2; lia). lia.
  - destruct (Z_lt_ge_dec (Z.log2 (f x y)) n) as [|G]; [assumption|]. exfalso.
    rewrite Z.bits_above_log2 in T; [discriminate|lia|]. destruct (Z.eq_dec y 0) as [->|]; [rewrite Z.bits_0 in T; discriminate|].
    assert (Z.log2 y < n) by (apply Z.log2_lt_pow2; lia). lia.
Qed.
Lemma lxor_range n x y : 0 <= n -> 0 <= x < 2 ^ n -> 0 <= y < 2 ^ n -> 0 <= Z.lxor x y < 2 ^ n.
Proof.
  intros N X Y. apply (bits_range n Z.lxor); auto; [|apply Z.lxor_nonneg; lia].
  intros i. rewrite Z.lxor_spec. destruct (Z.testbit x i), (Z.testbit y i); auto.
Qed.
Lemma land_range n x y : 0 <= n -> 0 <= x < 2 ^ n -> 0 <= y < 2 ^ n -> 0 <= Z.land x y < 2 ^ n.
Proof.
  intros N X Y. apply (bits_range n Z.land); auto; [|apply Z.land_nonneg; lia].
  intros i. rewrite Z.land_spec. destruct (Z.testbit x i), (Z.testbit y i); auto.
Qed.
Lemma lor_range' n x y : 0 <= n -> 0 <= x < 2 ^ n -> 0 <= y < 2 ^ n -> 0 <= Z.lor x y < 2 ^ n.
Proof.
  intros N X Y. apply (bits_range n Z.lor); auto; [|apply Z.lor_nonneg; lia].
  intros i. rewrite Z.lor_spec. destruct (Z.testbit x i), (Z.testbit y i); auto.
Qed.
Lemma u32_u64 x : 0 <= x < 2 ^ 32 -> u64 x.
Proof. unfold u64. lia. Qed.
Lemma to_bytes_ok l : bytes_ok (to_bytes l).
Proof. unfold to_bytes. induction l; cbn [flat_map]; [constructor|]. apply Forall_app. split; [apply le_bytes_ok|assumption]. Qed.

Section Sane.
Variables RD WR : Z -> bool.
Variable sect : nat -> Z.
Variable code : list instr.
Lemma sane_push x st st' : sane st -> push WR x st = Some st' -> sane st'.
Proof.
  intros S E. unfold push in E. cbv zeta in E. destruct (store _ _ _ _) as [m|] eqn:M; [|discriminate].
  apply some_inj in E. subst st'. apply sane_setr; [|apply w64_range]. apply sane_setm; [exact S|].
  apply (sane_store _ _ _ _ _ (le_bytes_ok 8 x) (proj2 (proj2 S)) M).
Qed.
Lemma sane_jump l st st' : sane st -> jump code l st = Some st' -> sane st'.
Proof.
  intros S E. unfold jump in E. destruct (find_label _ _ _); [|discriminate]. apply some_inj in E. subst st'. exact S.
Qed.
Lemma sane_jump_if f l st st' : sane st -> jump_if code f l st = Some st' -> sane st'.
Proof.
  intros S E. unfold jump_if in E. destruct (flags st) as [fl|]; [|discriminate]. cbn [obind] in E.
  destruct (f fl); [exact (sane_jump _ _ _ S E)|]. apply some_inj in E. subst st'. exact S.
Qed.
Lemma sane_exec i st st' : imm_ok i = true -> sane st -> exec RD WR sect code i st = Some st' -> sane st'.
Proof.
  intros I S E. assert (M := proj2 (proj2 S)).
  pose proof (fun r => getr_u64 st r S) as G.
  destruct i; cbn [exec] in E; cbv zeta in E;
    repeat match type of E with
    | obind ?x _ = Some _ => let Q := fresh "Q" in destruct x eqn:Q; [|discriminate]; cbn [obind] in E
    | (if ?b then None else _) = Some _ => destruct b; [discriminate|]
    end; try (apply some_inj in E; subst st');
    try apply sane_next; try apply sane_setf; try apply sane_setv; try exact S;
    try (apply sane_setm; [exact S|]; eapply sane_store; [|exact M|eassumption]; first [apply le_bytes_ok|apply to_bytes_ok]).
  - apply sane_setr; [exact S|]. apply u32_u64.
    assert (Y : 0 <= z < 2 ^ 32).
    { destruct s; cbn [read32] in Q; [apply some_inj in Q; subst z; apply w32_range|].
      apply load_int_range in Q; [exact Q|exact M]. }
    destruct op; cbn [alu32]; [exact Y|apply w32_range| | |];
      [apply lxor_range|apply land_range|apply lor_range']; try lia; try exact Y; apply w32_range.
  - apply sane_setr; [exact S|]. apply u32_u64. cbn [imm_ok] in I.
    apply lor_range'; [lia|apply shl32_range|apply shr32_range; [apply w32_range|lia]].
  - apply sane_setr; [exact S|]. apply u32_u64.
    assert (B : bytes_ok (rev (le_bytes 4 (getr st d)))) by (apply Forall_rev, le_bytes_ok).
    apply le_val_bound in B. unfold zlen in B. rewrite rev_length, le_bytes_length in B. exact B.
  - apply (sane_push _ _ _ S Q).
  - apply sane_setr; [apply sane_setr; [exact S|apply w64_range]|]. apply load_int_range in Q; [exact Q|exact M].
  - apply sane_setr; [exact S|apply G].
  - apply sane_setr; [exact S|]. apply load_int_range in Q; [exact Q|exact M].
  - apply sane_setr; [exact S|apply w64_range].
  - apply sane_setr; [exact S|apply w64_range].
  - apply sane_setr; [exact S|]. apply lxor_range; [lia|apply G|apply G].
  - apply sane_setr; [exact S|]. apply land_range; [lia|apply G|]. apply load_int_range in Q; [exact Q|exact M].
  - apply sane_setr; [exact S|]. destruct a; cbn [ea]; apply w64_range.
  - apply (sane_jump _ _ _ S E).
  - apply (sane_jump_if _ _ _ _ S E).
  - apply (sane_jump_if _ _ _ _ S E).
  - apply (sane_jump_if _ _ _ _ S E).
  - apply (sane_jump _ _ _ (sane_push _ _ _ S Q) E).
  - exact (sane_setr rsp _ st S (w64_range _)).
Qed.
Lemma sane_steps : forallb imm_ok code = true -> forall n st st', sane st -> steps RD WR sect code n st = Some st' -> sane st'.
Proof.
  intros I. induction n as [|n IH]; intros st st' S E; cbn [steps] in E; [apply some_inj in E; subst; exact S|].
  unfold step in E. destruct (fetch code (pc st)) as [i|] eqn:F; [|discriminate]. cbn [obind] in E.
  destruct (exec RD WR sect code i st) as [s|] eqn:X; [|discriminate]. cbn [obind] in E.
  apply (IH s st'); [|exact E]. apply (sane_exec i st s); [|exact S|exact X].
  unfold fetch in F. destruct (0 <=? pc st); [|discriminate]. apply nth_error_In in F.
  rewrite forallb_forall in I. apply I, F.
Qed.
End Sane.
