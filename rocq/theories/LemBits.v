(** Bit sequences as integers: the packing loops of Bitvector and Bitlist. *)
From Coq Require Import ZArith String List Lia Bool.
From Coq Require Import ZifyBool ZifyNat.
From Verif Require Import Base SpecSSZ ModelSSZ LemBase.
Import ListNotations.
Open Scope Z_scope.
Ltac Zify.zify_post_hook ::= Z.div_mod_to_equations.

Fixpoint bits_of (n : nat) (x : Z) : list bool :=
  match n with
  | O => []
  | S n' => Z.odd x :: bits_of n' (x / 2)
  end.

Lemma bits_of_length n x : length (bits_of n x) = n.
Proof. revert x; induction n; cbn; auto. Qed.

Lemma b2z_odd x : b2z (Z.odd x) = x mod 2.
Proof. rewrite Zmod_odd. now destruct (Z.odd x). Qed.

Lemma bits_val_of n x : bits_val (bits_of n x) = x mod 2 ^ Z.of_nat n.
Proof.
  revert x; induction n; intros x; cbn [bits_of bits_val].
  - cbn. now rewrite Z.mod_1_r.
  - rewrite IHn, b2z_odd, Nat2Z.inj_succ, Z.pow_succ_r, Z.rem_mul_r by lia. reflexivity.
Qed.
Lemma bits_of_val l : bits_of (length l) (bits_val l) = l.
Proof.
  induction l; cbn [length bits_of bits_val]; auto. f_equal.
  - rewrite Z.odd_add_mul_2. now destruct a.
  - replace ((b2z a + 2 * bits_val l) / 2) with (bits_val l); auto.
    destruct a; cbn [b2z]; lia.
Qed.
Lemma bits_val_bound l : 0 <= bits_val l < 2 ^ zlen l.
Proof.
  induction l; cbn [bits_val]; [cbn; lia|].
  rewrite zlen_cons, Z.pow_add_r by (pose proof (zlen_nonneg l); lia).
  change (2 ^ 1) with 2. destruct a; cbn [b2z]; lia.
Qed.
Lemma bits_val_app l1 l2 : bits_val (l1 ++ l2) = bits_val l1 + 2 ^ zlen l1 * bits_val l2.
Proof.
  induction l1; cbn [bits_val app]; [change (2 ^ zlen []) with 1; lia|].
  rewrite IHl1, zlen_cons, Z.pow_add_r by (pose proof (zlen_nonneg l1); lia).
  change (2 ^ 1) with 2. ring.
Qed.
Lemma bits_of_app a b x : bits_of (a + b) x = bits_of a x ++ bits_of b (x / 2 ^ Z.of_nat a).
Proof.
  revert x; induction a; intros x; cbn [plus bits_of app].
  - now rewrite Z.div_1_r.
  - rewrite IHa. f_equal. f_equal. f_equal.
    rewrite Nat2Z.inj_succ, Z.pow_succ_r, Z.div_div by lia. reflexivity.
Qed.
Lemma bits_of_mod a x n : (a <= n)%nat -> bits_of a (x mod 2 ^ Z.of_nat n) = bits_of a x.
Proof.
  revert x n; induction a; intros x n Hn; cbn [bits_of]; auto.
  destruct n; [lia|]. rewrite Nat2Z.inj_succ, Z.pow_succ_r by lia.
  rewrite Z.rem_mul_r by lia. f_equal.
  - rewrite Z.odd_add_mul_2. rewrite <- !Z.bit0_odd. 
    change 2 with (2 ^ 1). rewrite Z.mod_pow2_bits_low; auto; lia.
  - rewrite <- (IHa (x / 2) n) by lia. f_equal.
    pose proof (Z.mod_pos_bound x 2 ltac:(lia)).
    rewrite (Z.mul_comm 2), Z.div_add by lia. rewrite Z.div_small; lia.
Qed.

Lemma lor_add x m b : 0 <= m -> 0 <= x < 2 ^ m ->
  Z.lor x (Z.shiftl (b2z b) m) = x + b2z b * 2 ^ m.
Proof.
  intros Hm Hx. rewrite Z.shiftl_mul_pow2 by lia.
  assert (L : Z.land x (b2z b * 2 ^ m) = 0).
  { apply Z.bits_inj'. intros n Hn. rewrite Z.land_spec, Z.bits_0.
    destruct (Z.ltb_spec n m).
    - rewrite Z.mul_pow2_bits_low by lia. now rewrite andb_false_r.
    - rewrite <- (Z.mod_small x (2 ^ m)) by lia.
      rewrite Z.mod_pow2_bits_high by lia. reflexivity. }
  rewrite Z.add_nocarry_lxor by auto. now rewrite Z.lxor_lor.
Qed.

Lemma le_val_app l1 l2 : le_val (l1 ++ l2) = le_val l1 + 256 ^ zlen l1 * le_val l2.
Proof.
  induction l1; cbn [le_val app]; [change (256 ^ zlen []) with 1; lia|].
  rewrite IHl1, zlen_cons, Z.pow_add_r by (pose proof (zlen_nonneg l1); lia).
  change (256 ^ 1) with 256. ring.
Qed.
Lemma le_val_repeat0 n : le_val (repeat 0 n) = 0.
Proof. induction n; cbn [repeat le_val]; lia. Qed.
Lemma le_val_upd l k x : (k < length l)%nat ->
  le_val (upd l k x) = le_val l + (x - nth k l 0) * 256 ^ Z.of_nat k.
Proof.
  revert k; induction l; intros [|k] Hk; cbn [upd le_val nth length] in *; try lia.
  rewrite IHl by lia. rewrite Nat2Z.inj_succ, Z.pow_succ_r by lia. ring.
Qed.

Lemma pow2_8 k : 256 ^ k = 2 ^ (8 * k).
Proof.
  destruct (Z.ltb_spec k 0).
  - rewrite !Z.pow_neg_r; lia.
  - rewrite Z.pow_mul_r by lia. reflexivity.
Qed.

(** Invariant of the packing loop at bit [i]. *)
Definition pack_inv (i : nat) (ret : list Z) : Prop :=
  bytes_ok ret /\
  forall k, (i <= 8 * k)%nat -> nth k ret 0 = 0.

Definition pack_cur (i : nat) (ret : list Z) : Prop :=
  0 <= nth (Nat.div i 8) ret 0 < 2 ^ Z.of_nat (Nat.modulo i 8).

Lemma pack_bits_spec l : forall i ret,
  (i + length l <= 8 * length ret)%nat ->
  pack_inv i ret -> pack_cur i ret ->
  let r := pack_bits l i ret in
  length r = length ret /\ bytes_ok r /\
  le_val r = le_val ret + 2 ^ Z.of_nat i * bits_val l.
Proof.
  induction l; intros i ret Hlen [Hok Hz] Hc; cbn [pack_bits bits_val].
  - repeat split; auto. lia.
  - cbn [length] in Hlen.
    set (k := Nat.div i 8) in *. set (m := Nat.modulo i 8) in *.
    pose proof (Nat.div_mod i 8 ltac:(lia)) as Hdm. fold k m in Hdm.
    pose proof (Nat.mod_upper_bound i 8 ltac:(lia)) as Hm. fold m in Hm.
    unfold pack_cur in Hc. fold k m in Hc.
    rewrite lor_add by lia.
    set (nb := nth k ret 0 + b2z a * 2 ^ Z.of_nat m).
    assert (Hk : (k < length ret)%nat) by lia.
    assert (Hnb : 0 <= nb < 2 ^ Z.of_nat (S m)).
    { unfold nb. rewrite Nat2Z.inj_succ, Z.pow_succ_r by lia. destruct a; cbn [b2z]; lia. }
    assert (Hp8 : 2 ^ Z.of_nat (S m) <= 256).
    { change 256 with (2 ^ 8). apply Z.pow_le_mono_r; lia. }
    destruct (IHl (S i) (upd ret k nb)) as (L & O & V).
    + rewrite upd_length. lia.
    + split.
      * apply Forall_upd; auto. unfold byte_ok. lia.
      * intros k' Hk'. rewrite nth_upd_neq by lia. apply Hz. lia.
    + unfold pack_cur.
      destruct (Nat.eq_dec m 7) as [E|E].
      * assert (Hd : Nat.div (S i) 8 = S k).
        { symmetry. apply (Nat.div_unique (S i) 8 (S k) 0); lia. }
        rewrite Hd. rewrite nth_upd_neq by lia. rewrite Hz by lia.
        split; [lia|]. apply Z.pow_pos_nonneg; lia.
      * assert (Hd : Nat.div (S i) 8 = k).
        { symmetry. apply (Nat.div_unique (S i) 8 k (S m)); lia. }
        assert (Hmm : Nat.modulo (S i) 8 = S m).
        { symmetry. apply (Nat.mod_unique (S i) 8 k (S m)); lia. }
        rewrite Hd, Hmm. rewrite nth_upd_eq by auto. exact Hnb.
    + rewrite upd_length in L. repeat split; auto. rewrite V.
      rewrite le_val_upd by auto. unfold nb.
      rewrite Nat2Z.inj_succ, Z.pow_succ_r by lia.
      replace (2 ^ Z.of_nat i) with (2 ^ Z.of_nat m * 256 ^ Z.of_nat k).
      2:{ rewrite pow2_8, <- Z.pow_add_r by lia. f_equal. lia. }
      ring.
Qed.

Lemma bytes_ok_repeat0 n : bytes_ok (repeat 0 n).
Proof. apply Forall_forall. intros x Hx. apply repeat_spec in Hx. subst. unfold byte_ok; lia. Qed.

Lemma pack_bits_le l n : (length l <= 8 * n)%nat ->
  pack_bits l 0 (repeat 0 n) = le_bytes n (bits_val l).
Proof.
  intros Hl.
  destruct (pack_bits_spec l 0 (repeat 0 n)) as (L & O & V).
  - rewrite repeat_length; lia.
  - split; [apply bytes_ok_repeat0|]. intros k _. apply nth_repeat.
  - unfold pack_cur. cbn. rewrite nth_repeat. lia.
  - rewrite <- (le_bytes_val (pack_bits _ _ _)) by auto.
    rewrite L, repeat_length, V, le_val_repeat0. f_equal. cbn [Z.of_nat]. lia.
Qed.

(** *** Bitvector *)
Lemma bitvector_serialize_le n l : zlen l = n -> 0 <= n ->
  bitvector_serialize n (VBits l) = le_bytes (Z.to_nat ((n + 7) / 8)) (bits_val l).
Proof.
  intros Hn Hp. unfold bitvector_serialize, BITS_PER_BYTE.
  replace (n + 8 - 1) with (n + 7) by lia. apply pack_bits_le. unfold zlen in *. lia.
Qed.

(** *** Bitlist *)
Lemma skipn_last1 (r : list Z) k : length r = (k + 1)%nat -> skipn k r = [nth k r 0].
Proof.
  revert r; induction k; intros [|a r] L; cbn in *; try lia.
  - destruct r; cbn in *; [reflexivity|lia].
  - apply IHk. lia.
Qed.
Lemma bitlist_serialize_le l :
  bitlist_serialize (VBits l)
  = le_bytes (Z.to_nat (zlen l / 8 + 1)) (bits_val (l ++ [true])).
Proof.
  unfold bitlist_serialize. set (n := length l).
  pose proof (Nat.div_mod n 8 ltac:(lia)) as Hdm.
  pose proof (Nat.mod_upper_bound n 8 ltac:(lia)) as Hm.
  replace (Z.to_nat (zlen l / 8 + 1)) with (Nat.div n 8 + 1)%nat.
  2:{ unfold zlen. fold n. pose proof (Nat2Z.inj_div n 8). lia. }
  set (k := Nat.div n 8) in *. set (m := Nat.modulo n 8) in *.
  destruct (pack_bits_spec l 0 (repeat 0 (k + 1))) as (L & O & V).
  - rewrite repeat_length. fold n. lia.
  - split; [apply bytes_ok_repeat0|]. intros j _. apply nth_repeat.
  - unfold pack_cur. cbn. rewrite nth_repeat. lia.
  - rewrite repeat_length in L. rewrite le_val_repeat0 in V.
    set (r := pack_bits l 0 (repeat 0 (k + 1))) in *.
    rewrite L. replace (k + 1 - 1)%nat with k by lia.
    pose proof (bits_val_bound l) as Hb.
    assert (E : bits_val l = 256 ^ Z.of_nat k * nth k r 0 + le_val (firstn k r)).
    { replace (bits_val l) with (le_val r) by (rewrite V; change (2 ^ Z.of_nat 0) with 1; lia).
      rewrite <- (firstn_skipn k r) at 1. rewrite le_val_app.
      assert (Hs : skipn k r = [nth k r 0]).
      { apply skipn_last1. exact L. }
      rewrite Hs. unfold zlen. rewrite firstn_length, L. cbn [le_val].
      replace (Nat.min k (k + 1)) with k by lia. ring. }
    assert (Hf : 0 <= le_val (firstn k r) < 256 ^ Z.of_nat k).
    { replace (Z.of_nat k) with (zlen (firstn k r)).
      2:{ unfold zlen. rewrite firstn_length, L. lia. }
      apply le_val_bound. apply Forall_forall. intros x Hx.
      unfold bytes_ok in O. rewrite Forall_forall in O. apply O. eapply In_firstn; eauto. }
    assert (P : 2 ^ zlen l = 256 ^ Z.of_nat k * 2 ^ Z.of_nat m).
    { rewrite pow2_8, <- Z.pow_add_r by lia. f_equal. unfold zlen. fold n. lia. }
    assert (Hnk : 0 <= nth k r 0 < 2 ^ Z.of_nat m).
    { split.
      - assert (In (nth k r 0) r) by (apply nth_In; lia).
        unfold bytes_ok in O. rewrite Forall_forall in O. specialize (O _ H). unfold byte_ok in O. lia.
      - nia. }
    change (Z.shiftl 1 (Z.of_nat m)) with (Z.shiftl (b2z true) (Z.of_nat m)).
    rewrite lor_add by lia. cbn [b2z].
    set (nb := nth k r 0 + 1 * 2 ^ Z.of_nat m).
    assert (Hp8 : 2 ^ Z.of_nat (S m) <= 256).
    { change 256 with (2 ^ 8). apply Z.pow_le_mono_r; lia. }
    rewrite Nat2Z.inj_succ, Z.pow_succ_r in Hp8 by lia.
    rewrite <- (le_bytes_val (upd r k nb)).
    2:{ apply Forall_upd; auto. unfold byte_ok, nb. lia. }
    rewrite upd_length, L. f_equal. rewrite le_val_upd by lia. rewrite V.
    rewrite bits_val_app. cbn [bits_val b2z]. rewrite P. unfold nb. change (2 ^ Z.of_nat 0) with 1. ring.
Qed.

(** *** Reading bits back *)
Lemma land_shiftr_1 x j : 0 <= j -> negb (Z.land (Z.shiftr x j) 1 =? 0) = Z.testbit x j.
Proof.
  intros Hj. rewrite Z.land_ones with (n := 1) by lia.
  change (2 ^ 1) with 2. rewrite Zmod_odd. rewrite <- Z.bit0_odd.
  rewrite Z.shiftr_spec by lia. cbn [Z.add]. destruct (Z.testbit x j); reflexivity.
Qed.
Lemma bits_of_testbit n x : bits_of n x = map (Z.testbit x) (map Z.of_nat (seq 0 n)).
Proof.
  revert x; induction n; intros x; cbn [bits_of seq map]; auto. f_equal.
  rewrite IHn. rewrite <- seq_shift, !map_map. apply map_ext. intros a.
  rewrite Nat2Z.inj_succ. rewrite <- Z.div2_bits by lia. reflexivity.
Qed.
Lemma push_bits_bits_of x n : push_bits x (upto n) = bits_of (Z.to_nat n) x.
Proof.
  unfold push_bits, upto. rewrite bits_of_testbit, !map_map. apply map_ext.
  intros a. apply land_shiftr_1. lia.
Qed.
Lemma body_bits b : bytes_ok b ->
  concat (map (fun x => push_bits x (upto 8)) b) = bits_of (8 * length b) (le_val b).
Proof.
  induction 1; cbn [map concat length le_val].
  - reflexivity.
  - replace (8 * S (length l))%nat with (8 + 8 * length l)%nat by lia.
    rewrite bits_of_app, IHForall. f_equal.
    + rewrite push_bits_bits_of. change (Z.to_nat 8) with 8%nat.
      rewrite <- (bits_of_mod 8 (x + _) 8) by lia. f_equal.
      change (2 ^ Z.of_nat 8) with 256. unfold byte_ok in *. lia.
    + f_equal. change (2 ^ Z.of_nat 8) with 256. unfold byte_ok in *. lia.
Qed.

Lemma removelast_last_val b : b <> [] ->
  le_val b = le_val (removelast b) + 256 ^ zlen (removelast b) * List.last b 0.
Proof.
  intros Hb. rewrite (app_removelast_last 0 Hb) at 1. rewrite le_val_app. cbn [le_val]. lia.
Qed.
Lemma removelast_length {A} (b : list A) : b <> [] -> length (removelast b) = (length b - 1)%nat.
Proof.
  intros Hb. destruct b as [|x b]; [easy|].
  pose proof (app_removelast_last x Hb) as E. apply (f_equal (@length A)) in E.
  rewrite app_length in E. cbn [length] in *. lia.
Qed.
Lemma removelast_ok b : bytes_ok b -> bytes_ok (removelast b).
Proof.
  unfold bytes_ok. rewrite !Forall_forall. intros Hb x Hx. apply Hb.
  destruct b; [easy|]. rewrite (app_removelast_last z) by easy. apply in_or_app; now left.
Qed.
Lemma last_ok b : b <> [] -> bytes_ok b -> byte_ok (List.last b 0).
Proof.
  intros Hn. unfold bytes_ok. rewrite Forall_forall. intros Hb. apply Hb.
  rewrite (app_removelast_last 0 Hn) at 2. apply in_or_app; right; now left.
Qed.

Lemma log2_byte x : 0 < x < 256 -> 0 <= Z.log2 x <= 7.
Proof.
  intros Hx. split; [apply Z.log2_nonneg|].
  pose proof (Z.log2_lt_pow2 x 8 ltac:(lia)). lia.
Qed.

(** The value of [bitlist_deserialize] on a non-empty input with non-zero last
    byte: all the bits below the delimiting bit. *)
Lemma bitlist_deserialize_val v b : bytes_ok b -> b <> [] -> List.last b 0 <> 0 ->
  bitlist_deserialize v b
  = Ok (true, VBits (bits_of (8 * (length b - 1) + Z.to_nat (Z.log2 (List.last b 0))) (le_val b))).
Proof.
  intros Hok Hn Hl. unfold bitlist_deserialize.
  replace (zlen b =? 0) with false.
  2:{ destruct b; [easy|]. rewrite zlen_cons. pose proof (zlen_nonneg b). lia. }
  pose proof (last_ok b Hn Hok) as Hlast. unfold byte_ok in Hlast.
  set (la := List.last b 0) in *.
  pose proof (log2_byte la ltac:(lia)) as Hlog.
  unfold countl_zero8. replace (la =? 0) with false by lia.
  unfold BITS_PER_BYTE. cbv zeta. replace (8 - 1 - (7 - Z.log2 la)) with (Z.log2 la) by lia.
  unfold u32. rewrite Z.mod_small by (change (2 ^ 32) with 4294967296; lia).
  replace (Z.log2 la >? 32) with false by lia.
  do 3 f_equal. rewrite body_bits by now apply removelast_ok.
  rewrite push_bits_bits_of, removelast_length by auto.
  rewrite bits_of_app. pose proof (removelast_last_val b Hn) as E. fold la in E.
  assert (B : 0 <= le_val (removelast b) < 2 ^ Z.of_nat (8 * (length b - 1))).
  { replace (2 ^ Z.of_nat (8 * (length b - 1))) with (256 ^ zlen (removelast b)).
    - apply le_val_bound, removelast_ok, Hok.
    - rewrite pow2_8. f_equal. unfold zlen. rewrite removelast_length by auto. lia. }
  assert (P : 256 ^ zlen (removelast b) = 2 ^ Z.of_nat (8 * (length b - 1))).
  { rewrite pow2_8. f_equal. unfold zlen. rewrite removelast_length by auto. lia. }
  assert (Ap : 0 < 2 ^ Z.of_nat (8 * (length b - 1))) by (apply Z.pow_pos_nonneg; lia).
  rewrite P in E. f_equal.
  - rewrite <- (bits_of_mod _ (le_val b) (8 * (length b - 1))) by lia. f_equal.
    rewrite E. rewrite (Z.mul_comm (2 ^ _)), Z.mod_add by lia. symmetry. apply Z.mod_small. lia.
  - f_equal. rewrite E. rewrite (Z.mul_comm (2 ^ _)), Z.div_add by lia.
    rewrite Z.div_small by lia. lia.
Qed.

(** Inputs on which Bitlist::deserialize is undefined. *)
Lemma bitlist_deserialize_ub v b : bytes_ok b ->
  (bitlist_deserialize v b = UB <-> b = [] \/ List.last b 0 = 0).
Proof.
  intros Hok. split.
  - intros E. destruct b as [|x b]; [now left|right].
    destruct (Z.eq_dec (List.last (x :: b) 0) 0) as [|Hne]; auto.
    rewrite bitlist_deserialize_val in E by (auto; easy). discriminate.
  - intros [->|Hl]; [reflexivity|].
    unfold bitlist_deserialize. rewrite Hl. destruct (zlen b =? 0); auto.
Qed.

Lemma last_le_bytes n x : 0 <= x ->
  List.last (le_bytes (S n) x) 0 = x / 256 ^ Z.of_nat n mod 256.
Proof.
  revert x; induction n; intros x Hx.
  - cbn. now rewrite Z.div_1_r.
  - change (le_bytes (S (S n)) x) with (x mod 256 :: le_bytes (S n) (x / 256)).
    transitivity (List.last (le_bytes (S n) (x / 256)) 0); [reflexivity|].
    rewrite IHn by lia. rewrite Nat2Z.inj_succ, Z.pow_succ_r, Z.div_div by lia. reflexivity.
Qed.

Lemma bitlist_roundtrip v l :
  bitlist_deserialize v (bitlist_serialize (VBits l)) = Ok (true, VBits l).
Proof.
  rewrite bitlist_serialize_le.
  pose proof (zlen_nonneg l) as Hz.
  replace (Z.to_nat (zlen l / 8 + 1)) with (S (Z.to_nat (zlen l / 8))) by lia.
  set (k := Z.to_nat (zlen l / 8)).
  set (m := zlen l mod 8).
  pose proof (bits_val_bound l) as Hb.
  assert (P : 2 ^ zlen l = 256 ^ Z.of_nat k * 2 ^ m).
  { rewrite pow2_8, <- Z.pow_add_r by lia. f_equal. lia. }
  assert (Hm8 : 2 ^ m < 256). { change 256 with (2 ^ 8). apply Z.pow_lt_mono_r; lia. }
  assert (Hm7 : 2 ^ m <= 128). { change 128 with (2 ^ 7). apply Z.pow_le_mono_r; lia. }
  assert (Hmp : 0 < 2 ^ m) by (apply Z.pow_pos_nonneg; lia).
  assert (Hkp : 0 < 256 ^ Z.of_nat k) by (apply Z.pow_pos_nonneg; lia).
  set (x := bits_val (l ++ [true])).
  assert (X : x = bits_val l + 256 ^ Z.of_nat k * 2 ^ m).
  { unfold x. rewrite bits_val_app. cbn [bits_val b2z]. rewrite <- P. lia. }
  assert (Q : x / 256 ^ Z.of_nat k = bits_val l / 256 ^ Z.of_nat k + 2 ^ m).
  { rewrite X. rewrite (Z.mul_comm (256 ^ _)), Z.div_add by lia. reflexivity. }
  assert (Q2 : 0 <= bits_val l / 256 ^ Z.of_nat k < 2 ^ m).
  { split; [apply Z.div_pos; lia|]. apply Z.div_lt_upper_bound; lia. }
  assert (Hla : List.last (le_bytes (S k) x) 0 = bits_val l / 256 ^ Z.of_nat k + 2 ^ m).
  { rewrite last_le_bytes by (rewrite X; nia). rewrite Q. apply Z.mod_small. lia. }
  assert (Hlog : Z.log2 (bits_val l / 256 ^ Z.of_nat k + 2 ^ m) = m).
  { apply Z.log2_unique; [lia|]. rewrite Z.pow_succ_r by lia. lia. }
  rewrite bitlist_deserialize_val.
  - rewrite le_bytes_length, Hla, Hlog, le_val_bytes.
    replace (8 * (S k - 1) + Z.to_nat m)%nat with (length l) by (unfold zlen in *; lia).
    do 3 f_equal. rewrite Z.mod_small.
    + unfold x. rewrite <- (bits_of_mod (length l) _ (length l)) by lia.
      rewrite bits_val_app. fold (zlen l). unfold zlen at 2.
      rewrite (Z.mul_comm (2 ^ _)), Z.mod_add by lia.
      rewrite Z.mod_small by exact Hb. apply bits_of_val.
    + rewrite Nat2Z.inj_succ, Z.pow_succ_r by lia. nia.
  - apply le_bytes_ok.
  - discriminate.
  - rewrite Hla. lia.
Qed.

Lemma bitlist_canonical v b l : bytes_ok b ->
  bitlist_deserialize v b = Ok (true, VBits l) -> bitlist_serialize (VBits l) = b.
Proof.
  intros Hok E. assert (Hn : b <> []) by (intros ->; discriminate).
  assert (Hla : List.last b 0 <> 0).
  { intros Hl. assert (U : bitlist_deserialize v b = UB) by (apply bitlist_deserialize_ub; auto).
    congruence. }
  rewrite bitlist_deserialize_val in E by auto.
  match type of E with Ok (_, VBits ?r) = _ => assert (l = r) by congruence end. subst l. clear E.
  rewrite bitlist_serialize_le.
  pose proof (last_ok b Hn Hok) as Hlb. unfold byte_ok in Hlb.
  set (la := List.last b 0) in *.
  pose proof (log2_byte la ltac:(lia)) as Hlog.
  pose proof (Z.log2_spec la ltac:(lia)) as Hspec. rewrite Z.pow_succ_r in Hspec by lia.
  set (g := Z.log2 la) in *.
  assert (Hlen : (1 <= length b)%nat) by (destruct b; cbn; [easy|lia]).
  set (n := (8 * (length b - 1) + Z.to_nat g)%nat).
  assert (Hzl : zlen (bits_of n (le_val b)) = Z.of_nat n).
  { unfold zlen. now rewrite bits_of_length. }
  rewrite Hzl.
  replace (Z.to_nat (Z.of_nat n / 8 + 1)) with (length b) by lia.
  rewrite <- (le_bytes_val b) at 3 by auto. f_equal.
  rewrite bits_val_app, bits_val_of, Hzl. cbn [bits_val b2z].
  pose proof (removelast_last_val b Hn) as E. fold la in E.
  assert (P : 256 ^ zlen (removelast b) = 2 ^ Z.of_nat (8 * (length b - 1))).
  { rewrite pow2_8. f_equal. unfold zlen. rewrite removelast_length by auto. lia. }
  pose proof (le_val_bound _ (removelast_ok b Hok)) as B. rewrite P in *.
  assert (PN : 2 ^ Z.of_nat n = 2 ^ Z.of_nat (8 * (length b - 1)) * 2 ^ g).
  { rewrite <- Z.pow_add_r by lia. f_equal. unfold n. lia. }
  set (A := 2 ^ Z.of_nat (8 * (length b - 1))) in *.
  assert (0 < A) by (apply Z.pow_pos_nonneg; lia).
  replace (le_val b mod 2 ^ Z.of_nat n) with (le_val b - 2 ^ Z.of_nat n); [lia|].
  apply Z.mod_unique_pos with (q := 1); [|lia].
  rewrite PN, E. nia.
Qed.

(** *** Bitvector deserialization *)
Lemma bv_inner_length n x k js arr : length (bv_inner n x k js arr) = length arr.
Proof.
  revert arr; induction js; cbn; intros; auto. destruct (_ <? _); auto. now rewrite IHjs, upd_length.
Qed.
Lemma bv_outer_length n b k arr : length (bv_outer n b k arr) = length arr.
Proof. revert k arr; induction b; cbn [bv_outer]; intros; auto. now rewrite IHb, bv_inner_length. Qed.

Lemma land_shiftl_1 x j : 0 <= j -> negb (Z.land x (Z.shiftl 1 j) =? 0) = Z.testbit x j.
Proof.
  intros Hj. destruct (Z.testbit x j) eqn:E.
  - apply negb_true_iff, Z.eqb_neq. intros C.
    apply (f_equal (fun z => Z.testbit z j)) in C.
    rewrite Z.land_spec, E, Z.shiftl_spec, Z.sub_diag, Z.bits_0 in C by lia. discriminate.
  - apply negb_false_iff, Z.eqb_eq. apply Z.bits_inj'. intros i Hi.
    rewrite Z.land_spec, Z.bits_0. destruct (Z.eq_dec i j) as [->|].
    + now rewrite E.
    + rewrite Z.shiftl_spec by lia.
      destruct (Z.ltb_spec i j).
      * rewrite (Z.testbit_neg_r 1) by lia. apply andb_false_r.
      * replace (Z.testbit 1 (i - j)) with false; [apply andb_false_r|].
        symmetry. change 1 with (2 ^ 0). apply Z.pow2_bits_false. lia.
Qed.

Lemma bv_inner_nth n x k arr i : 0 <= k -> zlen arr = n -> (i < length arr)%nat ->
  nth i (bv_inner n x k [0;1;2;3;4;5;6;7] arr) false
  = if (8 * k <=? Z.of_nat i) && (Z.of_nat i <? 8 * k + 8)
    then Z.testbit x (Z.of_nat i - 8 * k) else nth i arr false.
Proof.
  intros Hk Hn Hi.
  assert (G : forall js a, Forall (fun j => 0 <= j) js ->
     length a = length arr -> (forall j j', In j js -> In j' js -> j = j' \/ j <> j') ->
     (exists lo, js = map (fun q => lo + Z.of_nat q) (seq 0 (length js))) ->
     nth i (bv_inner n x k js a) false
     = if existsb (fun j => 8 * k + j =? Z.of_nat i) js
       then Z.testbit x (Z.of_nat i - 8 * k) else nth i a false).
  { induction js as [|j js IH]; intros a Hj La _ [lo Hlo]; cbn [bv_inner existsb]; auto.
    cbn [length seq map] in Hlo. injection Hlo as Hj0 Hjs.
    inversion Hj as [|? ? Hj1 Hj2]; subst x0 l.
    destruct (Z.ltb_spec (8 * k + j) n).
    - rewrite IH; auto.
      + rewrite nth_upd. rewrite land_shiftl_1 by auto.
        destruct (Z.eqb_spec (8 * k + j) (Z.of_nat i)) as [E|E]; cbn [orb].
        * replace (Nat.eqb (Z.to_nat (8 * k + j)) i) with true by lia.
          replace (Nat.ltb (Z.to_nat (8 * k + j)) (length a)) with true by (unfold zlen in *; lia).
          cbn [andb]. replace (Z.of_nat i - 8 * k) with j by lia. now destruct (existsb _ _).
        * replace (Nat.eqb (Z.to_nat (8 * k + j)) i) with false by lia. reflexivity.
      + now rewrite upd_length.
      + intros; destruct (Z.eq_dec j0 j'); auto.
      + exists (lo + 1). rewrite Hjs at 1. rewrite <- seq_shift, map_map. apply map_ext. intros; lia.
    - replace (8 * k + j =? Z.of_nat i) with false by (unfold zlen in *; lia). cbn [orb].
      replace (existsb _ js) with false; auto. symmetry.
      apply not_true_iff_false. intros Hex. apply existsb_exists in Hex as (j' & Hin & Hj').
      rewrite Hjs in Hin. apply in_map_iff in Hin as (q & Hq & Hin). apply in_seq in Hin.
      unfold zlen in *. lia. }
  rewrite G; auto.
  - cbn [existsb]. destruct (_ && _) eqn:E; destruct (_ || _) eqn:F; auto; lia.
  - repeat constructor; lia.
  - intros; destruct (Z.eq_dec j j'); auto.
  - exists 0. reflexivity.
Qed.

Lemma bv_outer_nth n b : forall k arr i, 0 <= k -> zlen arr = n -> (i < length arr)%nat ->
  bytes_ok b ->
  nth i (bv_outer n b k arr) false
  = if (8 * k <=? Z.of_nat i) && (Z.of_nat i <? 8 * (k + zlen b))
    then Z.testbit (le_val b) (Z.of_nat i - 8 * k) else nth i arr false.
Proof.
  induction b as [|x b IH]; intros k arr i Hk Hn Hi Hok; cbn [bv_outer].
  - rewrite zlen_nil. destruct (_ && _) eqn:E; auto; lia.
  - inversion Hok as [|? ? Hx Hb]; subst x0 l. unfold byte_ok in Hx.
    rewrite IH; auto; try lia.
    2:{ unfold zlen in *. now rewrite bv_inner_length. }
    2:{ now rewrite bv_inner_length. }
    rewrite bv_inner_nth by auto. rewrite zlen_cons. cbn [le_val].
    pose proof (zlen_nonneg b).
    destruct (Z.leb_spec (8 * (k + 1)) (Z.of_nat i)); cbn [andb].
    + replace (8 * k <=? Z.of_nat i) with true by lia.
      replace (Z.of_nat i <? 8 * k + 8) with false by lia. cbn [andb].
      replace (8 * (k + 1 + zlen b)) with (8 * (k + (1 + zlen b))) by lia.
      destruct (Z.ltb_spec (Z.of_nat i) (8 * (k + (1 + zlen b)))); auto.
      transitivity (Z.testbit ((x + 256 * le_val b) / 2 ^ 8) (Z.of_nat i - 8 * (k + 1))).
      * f_equal. change (2 ^ 8) with 256. lia.
      * rewrite Z.div_pow2_bits by lia. f_equal. lia.
    + replace (Z.of_nat i <? 8 * k + 8) with true by lia.
      replace (Z.of_nat i <? 8 * (k + (1 + zlen b))) with true by lia.
      destruct (Z.leb_spec (8 * k) (Z.of_nat i)); cbn [andb]; auto.
      transitivity (Z.testbit ((x + 256 * le_val b) mod 2 ^ 8) (Z.of_nat i - 8 * k)).
      * f_equal. change (2 ^ 8) with 256. lia.
      * apply Z.mod_pow2_bits_low. lia.
Qed.

Lemma nth_bits_of i m x : (i < m)%nat -> nth i (bits_of m x) false = Z.testbit x (Z.of_nat i).
Proof.
  intros. rewrite bits_of_testbit, map_map.
  rewrite (nth_indep _ false (Z.testbit x (Z.of_nat 0))) by (rewrite map_length, seq_length; lia).
  rewrite (map_nth (fun q => Z.testbit x (Z.of_nat q)) (seq 0 m) 0%nat i).
  rewrite seq_nth by auto. reflexivity.
Qed.

(** Bitvector::deserialize on an input of the right length. *)
Lemma bitvector_deserialize_val n arr b : 0 <= n -> zlen arr = n -> bytes_ok b ->
  zlen b = (n + 7) / 8 ->
  bitvector_deserialize n (VBits arr) b = Ok (true, VBits (bits_of (Z.to_nat n) (le_val b))).
Proof.
  intros Hp Hn Hok Hb. unfold bitvector_deserialize, BITS_PER_BYTE.
  replace (n + 8 - 1) with (n + 7) by lia. rewrite Hb, Z.eqb_refl. cbn [negb].
  do 3 f_equal. apply nth_ext with (d := false) (d' := false).
  - rewrite bv_outer_length, bits_of_length. unfold zlen in *; lia.
  - intros i Hi. rewrite bv_outer_length in Hi.
    rewrite bv_outer_nth by (auto; lia). rewrite nth_bits_of by (unfold zlen in *; lia).
    replace (_ && _) with true by (unfold zlen in *; lia). f_equal. lia.
Qed.
Lemma bitvector_roundtrip n arr l : 0 <= n -> zlen arr = n -> zlen l = n ->
  bitvector_deserialize n (VBits arr) (bitvector_serialize n (VBits l)) = Ok (true, VBits l).
Proof.
  intros Hp Ha Hl. rewrite bitvector_serialize_le by auto.
  rewrite bitvector_deserialize_val; auto using le_bytes_ok.
  - do 3 f_equal. rewrite le_val_bytes, Z.mod_small.
    + replace (Z.to_nat n) with (length l) by (unfold zlen in *; lia). apply bits_of_val.
    + pose proof (bits_val_bound l) as Hb. split; [lia|].
      eapply Z.lt_le_trans; [apply Hb|]. rewrite pow2_8. apply Z.pow_le_mono_r; lia.
  - rewrite zlen_le_bytes. lia.
Qed.
