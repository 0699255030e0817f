(** The tests of the conversions of Bytes. *)
From Coq Require Import ZArith List Bool Lia.
From Coq Require Import ZifyBool ZifyNat.
From Verif Require Import Base SpecSSZ ModelBytes ModelBytesTest SpecBytesTest LemBase LemBytes.
Import ListNotations.
Open Scope Z_scope.

Definition img (k : nat) : Z :=
  match k with 0%nat => 0x40 | 1%nat => 0x30 | 2%nat => 0x20 | 3%nat => 0x10 | _ => 0 end.
Lemma byte_img k : byte_of 0x10203040 k = img k.
Proof.
  destruct k as [|[|[|[|k]]]]; try reflexivity. unfold byte_of.
  rewrite Z.div_small; [reflexivity|]. split; [lia|].
  assert (256 ^ 4 <= 256 ^ Z.of_nat (S (S (S (S k))))) by (apply Z.pow_le_mono_r; lia). lia.
Qed.
Lemma nth_img4 k : nth k [0x40; 0x30; 0x20; 0x10] 0 = img k.
Proof. destruct k as [|[|[|[|[|k]]]]]; reflexivity. Qed.
Lemma nth_img8 k : nth k [0x40; 0x30; 0x20; 0x10; 0; 0; 0; 0] 0 = img k.
Proof. destruct k as [|[|[|[|[|[|[|[|[|k]]]]]]]]]; reflexivity. Qed.
Lemma img_0 k : 0x40 = img k <-> k = 0%nat.
Proof. destruct k as [|[|[|[|k]]]]; cbn; lia. Qed.
Lemma img_1 k : 0x30 = img k <-> k = 1%nat.
Proof. destruct k as [|[|[|[|k]]]]; cbn; lia. Qed.
Lemma img_2 k : 0x20 = img k <-> k = 2%nat.
Proof. destruct k as [|[|[|[|k]]]]; cbn; lia. Qed.
Lemma img_3 k : 0x10 = img k <-> k = 3%nat.
Proof. destruct k as [|[|[|[|k]]]]; cbn; lia. Qed.
Lemma img_4 k : 0 = img k <-> (4 <= k)%nat.
Proof. destruct k as [|[|[|[|k]]]]; cbn; lia. Qed.
Lemma img_ok k : byte_ok (img k).
Proof. change (0 <= img k < 256). destruct k as [|[|[|[|k]]]]; cbn; lia. Qed.

Lemma same_4 f : [0x40; 0x30; 0x20; 0x10] = map (fun i => img (f i)) (seq 0 4) <->
  forall i, (i < 4)%nat -> f i = i.
Proof.
  cbn [seq map]. split.
  - intros H. assert (A := f_equal (fun l => nth 0 l 0) H). assert (B := f_equal (fun l => nth 1 l 0) H).
    assert (C := f_equal (fun l => nth 2 l 0) H). assert (D := f_equal (fun l => nth 3 l 0) H). cbn [nth] in A, B, C, D.
    apply img_0 in A. apply img_1 in B. apply img_2 in C. apply img_3 in D.
    intros [|[|[|[|i]]]] I; auto; lia.
  - intros H. rewrite !H by lia. reflexivity.
Qed.
Lemma same_8 f : [0x40; 0x30; 0x20; 0x10; 0; 0; 0; 0] = map (fun i => img (f i)) (seq 0 8) <->
  (forall i, (i < 4)%nat -> f i = i) /\ forall i, (4 <= i < 8)%nat -> (4 <= f i)%nat.
Proof.
  rewrite <- same_4. cbn [seq map]. split.
  - intros H. split; [exact (f_equal (firstn 4) H)|].
    intros [|[|[|[|[|[|[|[|i]]]]]]]] I; try lia; apply img_4.
    + exact (f_equal (fun l => nth 4 l 0) H).
    + exact (f_equal (fun l => nth 5 l 0) H).
    + exact (f_equal (fun l => nth 6 l 0) H).
    + exact (f_equal (fun l => nth 7 l 0) H).
  - intros [H G].
    rewrite <- (proj2 (img_4 (f 4%nat)) (G 4%nat ltac:(lia))), <- (proj2 (img_4 (f 5%nat)) (G 5%nat ltac:(lia))),
      <- (proj2 (img_4 (f 6%nat)) (G 6%nat ltac:(lia))), <- (proj2 (img_4 (f 7%nat)) (G 7%nat ltac:(lia))).
    exact (f_equal (fun l => l ++ [0; 0; 0; 0]) H).
Qed.
Lemma le_val_eq a b : bytes_ok a -> bytes_ok b -> length a = length b -> le_val a = le_val b -> a = b.
Proof. intros A B L E. rewrite <- (le_bytes_val a A), <- (le_bytes_val b B), L, E. reflexivity. Qed.
Lemma imgs_ok (f : nat -> nat) l : bytes_ok (map (fun i => img (f i)) l).
Proof. apply Forall_forall. intros x X. apply in_map_iff in X as (i & <- & _). apply img_ok. Qed.
Lemma literal_ok l : forallb (fun x => (0 <=? x) && (x <? 256)) l = true -> bytes_ok l.
Proof.
  intros H. apply Forall_forall. intros x X. change (0 <= x < 256).
  rewrite forallb_forall in H. specialize (H x X). lia.
Qed.
Lemma reads_4 f : 0x10203040 = le_val (map (fun i => img (f i)) (seq 0 4)) <-> forall i, (i < 4)%nat -> f i = i.
Proof.
  rewrite <- same_4. split; intros H.
  - apply le_val_eq; [now apply literal_ok|apply imgs_ok|reflexivity|exact H].
  - rewrite <- H. reflexivity.
Qed.
Lemma reads_8 f : 0x10203040 = le_val (map (fun i => img (f i)) (seq 0 8)) <->
  (forall i, (i < 4)%nat -> f i = i) /\ forall i, (4 <= i < 8)%nat -> (4 <= f i)%nat.
Proof.
  rewrite <- same_8. split; intros H.
  - apply le_val_eq; [now apply literal_ok|apply imgs_ok|reflexivity|exact H].
  - rewrite <- H. reflexivity.
Qed.
Lemma ten k : byte_of 10 k = match k with 0%nat => 10 | _ => 0 end.
Proof.
  destruct k as [|k]; [reflexivity|]. unfold byte_of. rewrite Z.div_small; [reflexivity|].
  split; [lia|]. assert (256 ^ 1 <= 256 ^ Z.of_nat (S k)) by (apply Z.pow_le_mono_r; lia). lia.
Qed.

(** What the five checks say of conversions that only move bytes. *)
Definition passing (p q : nat -> nat -> nat) : Prop :=
  (p 1 0 = 0 /\ q 1 0 = 0 /\
   (forall i, i < 4 -> p 4 i = i /\ q 4 i = i /\ p 8 i = i /\ q 8 i = i) /\
   forall i, 4 <= i < 8 -> 4 <= p 8 i /\ 4 <= q 8 i)%nat.
Lemma checks_exact p q :
  forallb (fun b => b) (bytes_checks (writing p) (reading q)) = true <-> passing p q.
Proof.
  unfold bytes_checks, test_bytes_from_int, test_bytes_to_integer_little_endian.
  cbn [forallb app]. rewrite !andb_true_iff, !bytes_eqb_eq, !Z.eqb_eq.
  unfold writing at 1 2, reading at 2 3. cbn [length].
  rewrite (map_ext _ _ (fun i => byte_img (p 4%nat i))), (map_ext _ _ (fun i => byte_img (p 8%nat i))),
    (map_ext _ _ (fun i => nth_img4 (q 4%nat i))), (map_ext _ _ (fun i => nth_img8 (q 8%nat i))).
  rewrite (same_4 (p 4%nat)), (same_8 (p 8%nat)), (reads_4 (q 4%nat)), (reads_8 (q 8%nat)).
  assert (T : 10 = reading q (writing p 1 1 10) <-> p 1%nat 0%nat = 0%nat /\ q 1%nat 0%nat = 0%nat).
  { unfold reading, writing. cbn [seq map length le_val]. rewrite ten.
    destruct (q 1%nat 0%nat) as [|[|j]]; destruct (p 1%nat 0%nat); cbn [nth]; lia. }
  rewrite T. unfold passing. split.
  - intros (A & (B & B') & (C & C') & D & (E & E') & _). split; [auto|]. split; [auto|]. split.
    + intros i I. auto.
    + intros i I. auto.
  - intros (A & A' & B & C). repeat split; intros; try (apply B || apply C); auto.
Qed.

(** The library's conversions among them *)
Lemma le_bytes_nth n : forall v, le_bytes n v = map (byte_of v) (seq 0 n).
Proof.
  induction n as [|n IH]; intros v; [reflexivity|].
  cbn [seq map]. change (le_bytes (S n) v) with (v mod 256 :: le_bytes n (v / 256)).
  rewrite IH, <- seq_shift, map_map. f_equal.
  - unfold byte_of. cbn. now rewrite Z.div_1_r.
  - apply map_ext. intros i. unfold byte_of. rewrite Nat2Z.inj_succ, Z.pow_succ_r, Z.div_div by (try apply Z.pow_pos_nonneg; lia).
    reflexivity.
Qed.
Lemma from_int_writing n v : bytes_from_int n n v = writing (fun _ i => i) n n v.
Proof.
  rewrite bytes_from_int_eq, Nat.sub_diag by lia. cbn [repeat]. rewrite app_nil_r. apply le_bytes_nth.
Qed.
Lemma nth_self (l : list Z) : map (fun i => nth i l 0) (seq 0 (length l)) = l.
Proof.
  induction l as [|x l IH]; [reflexivity|]. cbn [length seq map nth]. f_equal.
  rewrite <- seq_shift, map_map. exact IH.
Qed.
Lemma to_integer_reading l : to_integer_little_endian l = reading (fun _ i => i) l.
Proof. unfold to_integer_little_endian, reading. now rewrite nth_self. Qed.

(** Below 2^32 what passes is right. *)
Lemma byte_none v k : 0 <= v < 2 ^ 32 -> (4 <= k)%nat -> byte_of v k = 0.
Proof.
  intros V K. unfold byte_of. rewrite Z.div_small; [reflexivity|]. split; [lia|].
  assert (256 ^ 4 <= 256 ^ Z.of_nat k) by (apply Z.pow_le_mono_r; lia). lia.
Qed.
Lemma passing_writes p q n v : passing p q -> In n [1; 4; 8]%nat -> 0 <= v < 2 ^ 32 ->
  writing p n n v = bytes_from_int n n v.
Proof.
  intros (A & _ & B & C) N V. rewrite from_int_writing. unfold writing. apply map_ext_in. intros i I.
  apply in_seq in I. destruct N as [<-|[<-|[<-|[]]]].
  - replace i with 0%nat by lia. now rewrite A.
  - now rewrite (proj1 (B i ltac:(lia))).
  - destruct (Nat.ltb_spec i 4) as [L|L].
    + now rewrite (proj1 (proj2 (proj2 (B i L)))).
    + rewrite !byte_none; auto. apply C. lia.
Qed.
Lemma passing_reads p q l : passing p q -> In (length l) [1; 4; 8]%nat ->
  (forall i, (4 <= i)%nat -> nth i l 0 = 0) -> reading q l = to_integer_little_endian l.
Proof.
  intros (_ & A & B & C) N V. rewrite to_integer_reading. unfold reading. f_equal. apply map_ext_in. intros i I.
  apply in_seq in I. destruct N as [N|[N|[N|[]]]]; rewrite <- N in *.
  - replace i with 0%nat by lia. now rewrite A.
  - now rewrite (proj1 (proj2 (B i ltac:(lia)))).
  - destruct (Nat.ltb_spec i 4) as [L|L].
    + now rewrite (proj2 (proj2 (proj2 (B i L)))).
    + rewrite !V; auto. apply C. lia.
Qed.

(** Bytes 4 and 5 of eight changing places *)
Definition swapped (n i : nat) : nat :=
  match n, i with 8%nat, 4%nat => 5%nat | 8%nat, 5%nat => 4%nat | _, _ => i end.
Lemma swapped_reorders : reorders swapped.
Proof.
  intros n i I. unfold swapped.
  destruct n as [|[|[|[|[|[|[|[|[|n]]]]]]]]]; try (split; [lia|intros; lia]).
  split.
  - destruct i as [|[|[|[|[|[|i]]]]]]; lia.
  - intros j J. destruct i as [|[|[|[|[|[|i]]]]]]; destruct j as [|[|[|[|[|[|j]]]]]]; lia.
Qed.
Lemma swapped_passes : passing swapped swapped.
Proof.
  unfold passing. split; [reflexivity|]. split; [reflexivity|]. split.
  - intros [|[|[|[|i]]]] I; try lia; repeat split.
  - intros [|[|[|[|[|[|[|[|i]]]]]]]] I; try lia; cbn; lia.
Qed.
Lemma writes_refuted : ~ forall p q, reorders p -> reorders q ->
  forallb (fun b => b) (bytes_checks (writing p) (reading q)) = true ->
  forall v, 0 <= v < 2 ^ 64 -> writing p 8 8 v = bytes_from_int 8 8 v.
Proof.
  intros H. specialize (H swapped swapped swapped_reorders swapped_reorders
    (proj2 (checks_exact _ _) swapped_passes) (2 ^ 32) ltac:(lia)).
  apply (f_equal (fun l => nth 4 l 0)) in H. vm_compute in H. discriminate.
Qed.
Lemma reads_refuted : ~ forall p q, reorders p -> reorders q ->
  forallb (fun b => b) (bytes_checks (writing p) (reading q)) = true ->
  forall l, length l = 8%nat -> bytes_ok l -> reading q l = to_integer_little_endian l.
Proof.
  intros H. specialize (H swapped swapped swapped_reorders swapped_reorders
    (proj2 (checks_exact _ _) swapped_passes) [0; 0; 0; 0; 1; 0; 0; 0] eq_refl (literal_ok [0; 0; 0; 0; 1; 0; 0; 0] eq_refl)).
  vm_compute in H. discriminate.
Qed.
