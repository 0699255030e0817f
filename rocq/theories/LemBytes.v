(** Facts about ModelBytes. *)
From Coq Require Import ZArith List Bool Lia ZifyBool ZifyNat.
From Verif Require Import Base SpecSSZ ModelSSZ ModelHashTree ModelTree LemBase LemBits ModelBytes SpecBytes.
Import ListNotations.
Open Scope Z_scope.
Ltac Zify.zify_post_hook ::= Z.div_mod_to_equations.

(** ** Integers *)
Lemma copy_at_0 n l : (length l <= n)%nat -> copy_at (repeat 0 n) 0 l = l ++ repeat 0 (n - length l).
Proof.
  intros Hl. unfold copy_at. cbn [firstn]. cbn [app]. rewrite Nat.add_0_l. f_equal.
  replace n with (length l + (n - length l))%nat at 1 by lia. rewrite repeat_app, skipn_app.
  rewrite skipn_all2 by (rewrite repeat_length; lia). rewrite repeat_length, Nat.sub_diag. reflexivity.
Qed.
Lemma bytes_from_int_eq n size v : (size <= n)%nat ->
  bytes_from_int n size v = le_bytes size v ++ repeat 0 (n - size).
Proof.
  intros Hs. unfold bytes_from_int, bit_cast. rewrite copy_at_0 by (rewrite le_bytes_length; lia).
  rewrite le_bytes_length. reflexivity.
Qed.
Lemma nth_le_bytes n : forall i v, (i < n)%nat -> nth i (le_bytes n v) 0 = (v / 256 ^ Z.of_nat i) mod 256.
Proof.
  induction n; intros i v Hi; [lia|]. destruct i; cbn [le_bytes nth].
  - change (256 ^ Z.of_nat 0) with 1. rewrite Z.div_1_r. reflexivity.
  - rewrite IHn by lia. rewrite Z.div_div by lia. do 2 f_equal.
    rewrite Nat2Z.inj_succ, Z.pow_succ_r by lia. reflexivity.
Qed.
Lemma from_int_spec n size v : (size <= n)%nat -> 0 <= v < 256 ^ Z.of_nat size ->
  length (bytes_from_int n size v) = n /\
  (forall i, (i < n)%nat -> nth i (bytes_from_int n size v) 0 = (v / 256 ^ Z.of_nat i) mod 256) /\
  to_integer_little_endian (bytes_from_int n size v) = v.
Proof.
  intros Hs Hv. rewrite bytes_from_int_eq by auto. split; [|split].
  - rewrite app_length, le_bytes_length, repeat_length. lia.
  - intros i Hi. destruct (Nat.lt_ge_cases i size) as [L|L].
    + rewrite app_nth1 by (rewrite le_bytes_length; lia). apply nth_le_bytes. lia.
    + rewrite app_nth2 by (rewrite le_bytes_length; lia). rewrite nth_repeat.
      rewrite Z.div_small; [reflexivity|]. split; [lia|].
      apply Z.lt_le_trans with (256 ^ Z.of_nat size); [lia|]. apply Z.pow_le_mono_r; lia.
  - unfold to_integer_little_endian. rewrite le_val_app, le_val_repeat0, Z.mul_0_r, Z.add_0_r.
    rewrite le_val_bytes. apply Z.mod_small. lia.
Qed.
Lemma slot_views v old : 0 <= v < 2 ^ 64 ->
  slot_serialize (VNum v) = slot_to_bytes8 v /\
  slot_hash_tree (VNum v) = Ok [bytes_from_int 32 8 v] /\
  slot_deserialize old (slot_to_bytes8 v) = Ok (true, VNum v).
Proof.
  intros Hv. unfold slot_to_bytes8. rewrite !bytes_from_int_eq by lia.
  change (8 - 8)%nat with 0%nat. change (32 - 8)%nat with 24%nat. cbn [repeat]. rewrite app_nil_r.
  split; [reflexivity|]. split; [reflexivity|].
  unfold slot_deserialize. rewrite zlen_le_bytes. change (negb (Z.of_nat 8 =? 8)) with false. cbv iota.
  replace 8 with (zlen (le_bytes 8 v)) at 3 by (apply zlen_le_bytes).
  rewrite slice_full. cbn [bind]. rewrite le_val_bytes. rewrite Z.mod_small; [reflexivity|]. 
  change (256 ^ Z.of_nat 8) with (2 ^ 64). lia.
Qed.

(** ** Hexadecimal *)
Lemma hextoint_total ch : 0 <= ch < 128 -> exists d, hextoint ch = Ok d /\ 0 <= d < 16 /\
  (forall x, hex_digit ch = Some x -> d = x) /\ (hex_digit ch = None -> d = 0).
Proof.
  intros Hc.
  assert (Ht : forallb (fun i => let d := nth i table 0 in
      (0 <=? d) && (d <? 16) &&
      match hex_digit (Z.of_nat i) with Some x => d =? x | None => d =? 0 end) (seq 0 128) = true)
    by (vm_compute; reflexivity).
  rewrite forallb_forall in Ht. specialize (Ht (Z.to_nat ch)).
  assert (Hi : In (Z.to_nat ch) (seq 0 128)) by (apply in_seq; lia). specialize (Ht Hi).
  rewrite Z2Nat.id in Ht by lia. cbv zeta in Ht. unfold hextoint.
  replace ((0 <=? ch) && (ch <? 128)) with true by lia.
  set (d := nth (Z.to_nat ch) table 0) in *. clearbody d.
  exists d. split; [reflexivity|]. destruct (hex_digit ch); repeat split; try lia; intros; try congruence.
  assert (z = x) by congruence. lia.
Qed.
Lemma hex_digit_range ch d : hex_digit ch = Some d -> 0 <= ch < 128 /\ 0 <= d < 16.
Proof.
  unfold hex_digit. destruct (_ && _) eqn:A; [intros [= <-]; lia|].
  destruct (_ && _) eqn:B in |- *; [intros [= <-]; lia|].
  destruct (_ && _) eqn:C in |- *; [intros [= <-]; lia|discriminate].
Qed.
Lemma hextoint_digit ch d : hex_digit ch = Some d -> hextoint ch = Ok d.
Proof.
  intros Hd. destruct (hex_digit_range _ _ Hd) as [Hc _].
  destruct (hextoint_total ch Hc) as (d' & -> & _ & Hx & _). rewrite (Hx _ Hd). reflexivity.
Qed.

Lemma chars_to_byte2 a b x y : hextoint a = Ok x -> hextoint b = Ok y -> 0 <= x < 16 -> 0 <= y < 16 ->
  chars_to_byte [a; b] = Ok (16 * x + y).
Proof.
  intros Ha Hb Hx Hy. unfold chars_to_byte, strhex2int. cbn [rev app strhex2int_loop].
  rewrite Hb. cbn [bind]. rewrite Ha. cbn [bind]. f_equal. change (1 * 16) with 16.
  rewrite Z.mod_small; lia.
Qed.
Lemma chars_to_byte1 a x : hextoint a = Ok x -> 0 <= x < 16 -> chars_to_byte [a] = Ok x.
Proof.
  intros Ha Hx. unfold chars_to_byte, strhex2int. cbn [rev app strhex2int_loop].
  rewrite Ha. cbn [bind]. f_equal. rewrite Z.mod_small; lia.
Qed.

Lemma upd_fill pre n x : upd (pre ++ repeat 0 (S n)) (length pre) x = (pre ++ [x]) ++ repeat 0 n.
Proof.
  rewrite <- app_assoc. cbn [repeat app].
  induction pre; cbn [app length upd]; [reflexivity|]. rewrite IHpre. reflexivity.
Qed.

Lemma pair_ind {A} (P : list A -> Prop) :
  P [] -> (forall a, P [a]) -> (forall a b l, P l -> P (a :: b :: l)) -> forall l, P l.
Proof.
  intros H0 H1 H2. assert (Hp : forall l, P l /\ forall a, P (a :: l)).
  { induction l as [|b l [I1 I2]]; auto. }
  intros l. apply Hp.
Qed.

Lemma from_str_loop_ok s : forall bs pre n, hex_bytes s = Some bs -> (length bs <= n)%nat ->
  bytes_from_str_loop s (length pre) (pre ++ repeat 0 n) = Ok (pre ++ bs ++ repeat 0 (n - length bs)).
Proof.
  induction s as [|a|a b r IH] using pair_ind; intros bs pre n Hb Hn; cbn [hex_bytes] in Hb.
  - injection Hb as <-. cbn [bytes_from_str_loop length app]. rewrite Nat.sub_0_r. reflexivity.
  - discriminate.
  - destruct (hex_digit a) as [x|] eqn:Ea; [|discriminate].
    destruct (hex_digit b) as [y|] eqn:Eb; [|discriminate].
    destruct (hex_bytes r) as [l|] eqn:El; [|discriminate]. injection Hb as <-.
    cbn [bytes_from_str_loop]. cbn [length] in Hn.
    rewrite (chars_to_byte2 a b x y) by
      (first [apply hextoint_digit; assumption | eapply hex_digit_range; eassumption]).
    cbn [bind]. rewrite app_length, repeat_length.
    replace (length pre <? length pre + n)%nat with true by (symmetry; apply Nat.ltb_lt; lia).
    destruct n as [|n]; [lia|]. rewrite upd_fill.
    replace (S (length pre)) with (length (pre ++ [16 * x + y])) by (rewrite app_length; cbn; lia).
    rewrite (IH l) by (auto; lia). rewrite <- app_assoc. cbn [app length].
    do 4 f_equal. 
Qed.
Lemma hex_bytes_length s : forall bs, hex_bytes s = Some bs -> zlen s = 2 * zlen bs.
Proof.
  induction s as [|a|a b r IH] using pair_ind; intros bs Hb; cbn [hex_bytes] in Hb.
  - injection Hb as <-. reflexivity.
  - discriminate.
  - destruct (hex_digit a) as [x|]; [|discriminate]. destruct (hex_digit b) as [y|]; [|discriminate].
    destruct (hex_bytes r) as [l|]; [|discriminate]. injection Hb as <-.
    rewrite !zlen_cons. rewrite (IH l) by auto. lia.
Qed.

Lemma hex_parse n s bs : hex_bytes s = Some bs -> zlen bs <= Z.of_nat n ->
  bytes_from_str n (48 :: 120 :: s) = Ok (bs ++ repeat 0 (n - length bs)).
Proof.
  intros Hb Hn. unfold bytes_from_str. cbn [prefix_0x]. change ((48 =? 48) && (120 =? 120)) with true.
  cbv iota. cbn [negb]. rewrite !zlen_cons, (hex_bytes_length _ _ Hb).
  replace (_ >? _) with false by lia. change (skipn 2 (48 :: 120 :: s)) with s.
  apply (from_str_loop_ok s bs [] n); auto. unfold zlen in Hn. lia.
Qed.

(** No other outcome than the two exceptions, UB for characters of 128 and more,
    and a value. *)
Lemma from_str_loop_total s : forall k arr, Forall (fun ch => 0 <= ch < 128) s ->
  zlen s <= 2 * (zlen arr - Z.of_nat k) -> exists r, bytes_from_str_loop s k arr = Ok r /\ length r = length arr.
Proof.
  induction s as [|a|a b r IH] using pair_ind; intros k arr Hs Hl.
  - exists arr. split; reflexivity.
  - inversion Hs as [|? ? Ha _]; subst. destruct (hextoint_total a Ha) as (x & Ex & Hx & _).
    cbn [bytes_from_str_loop]. rewrite (chars_to_byte1 a x) by auto. cbn [bind].
    rewrite zlen_cons, zlen_nil in Hl. unfold zlen in Hl.
    replace (k <? length arr)%nat with true by (symmetry; apply Nat.ltb_lt; lia).
    eexists. split; [reflexivity|]. apply upd_length.
  - inversion Hs as [|? ? Ha Hs']; subst. inversion Hs' as [|? ? Hb Hr]; subst.
    destruct (hextoint_total a Ha) as (x & Ex & Hx & _). destruct (hextoint_total b Hb) as (y & Ey & Hy & _).
    cbn [bytes_from_str_loop]. rewrite (chars_to_byte2 a b x y) by auto. cbn [bind].
    rewrite !zlen_cons in Hl. pose proof (zlen_nonneg r).
    replace (k <? length arr)%nat with true by (symmetry; apply Nat.ltb_lt; unfold zlen in *; lia).
    destruct (IH (S k) (upd arr k (16 * x + y)) Hr) as (res & -> & Hlen).
    { rewrite zlen_upd. lia. }
    exists res. split; [reflexivity|]. rewrite Hlen. apply upd_length.
Qed.
Lemma prefix_0x_iff str : prefix_0x str = true <-> starts_0x str.
Proof.
  split.
  - destruct str as [|a [|b s]]; cbn [prefix_0x]; try discriminate. intros E.
    assert (a = 48 /\ b = 120) as [-> ->] by lia. exists s. reflexivity.
  - intros [s ->]. reflexivity.
Qed.
Lemma from_str_loop_no_throw s : forall k arr, bytes_from_str_loop s k arr <> Throw.
Proof.
  assert (N : forall ch, hextoint ch <> Throw) by (intros ch; unfold hextoint; destruct (_ && _); discriminate).
  induction s as [|a|a b r IH] using pair_ind; intros k arr; cbn [bytes_from_str_loop]; [discriminate| |].
  - unfold chars_to_byte, strhex2int. cbn [rev app strhex2int_loop].
    destruct (hextoint a) eqn:E; cbn [bind]; [|edestruct N; eauto|discriminate].
    destruct (_ <? _)%nat; discriminate.
  - unfold chars_to_byte, strhex2int. cbn [rev app strhex2int_loop].
    destruct (hextoint b) eqn:E; cbn [bind]; [|edestruct N; eauto|discriminate].
    destruct (hextoint a) eqn:E'; cbn [bind]; [|edestruct N; eauto|discriminate].
    destruct (_ <? _)%nat; [apply IH|discriminate].
Qed.
Lemma hex_throws n str : bytes_from_str n str = Throw <-> ~ starts_0x str \/ zlen str > 2 * Z.of_nat n + 2.
Proof.
  rewrite <- prefix_0x_iff. unfold bytes_from_str. destruct (prefix_0x str); cbn [negb].
  - destruct (Z.gtb_spec (zlen str) (2 * Z.of_nat n + 2)) as [G|G]; [split; [lia|reflexivity]|]. split.
    + intros E. destruct (from_str_loop_no_throw _ _ _ E).
    + intros [C|C]; [congruence|lia].
  - split; [|reflexivity]. intros _. left. discriminate.
Qed.
Lemma hex_no_ub n str : Forall (fun ch => 0 <= ch < 128) str -> bytes_from_str n str <> UB.
Proof.
  intros Hs. unfold bytes_from_str. destruct (prefix_0x str) eqn:P; cbn [negb]; [|discriminate].
  destruct (Z.gtb_spec (zlen str) (2 * Z.of_nat n + 2)) as [G|G]; [discriminate|].
  apply prefix_0x_iff in P. destruct P as [s ->]. change (skipn 2 (48 :: 120 :: s)) with s.
  inversion Hs as [|? ? _ Hs']; subst. inversion Hs' as [|? ? _ Hs'']; subst.
  rewrite !zlen_cons in G.
  destruct (from_str_loop_total s 0 (repeat 0 n) Hs'') as (r & -> & _); [rewrite zlen_repeat; lia|discriminate].
Qed.

(** ** The usual printer is inverted *)
Lemma hex_digit_char d : 0 <= d < 16 -> hex_digit (digit_char d) = Some d.
Proof.
  intros Hd. unfold digit_char, hex_digit. destruct (Z.ltb_spec d 10).
  - replace (_ && _) with true by lia. f_equal. lia.
  - replace (_ && _) with false by lia. replace ((97 <=? 87 + d) && (87 + d <=? 102)) with true by lia. f_equal. lia.
Qed.
Lemma hex_bytes_text l : bytes_ok l ->
  hex_bytes (flat_map (fun b => [digit_char (b / 16); digit_char (b mod 16)]) l) = Some l.
Proof.
  induction 1 as [|b l Hb Hl IH]; [reflexivity|]. cbn [flat_map app hex_bytes].
  unfold byte_ok in Hb. rewrite !hex_digit_char by lia. rewrite IH. do 2 f_equal. lia.
Qed.
Lemma hex_text_parse l : bytes_ok l -> bytes_from_str (length l) (hex_text l) = Ok l.
Proof.
  intros Hl. unfold hex_text. rewrite (hex_parse _ _ l) by (auto using hex_bytes_text; unfold zlen; lia).
  rewrite Nat.sub_diag. cbn [repeat]. rewrite app_nil_r. reflexivity.
Qed.

(** ** Operators *)
Lemma xor_fold_length is : forall a b,
  length (fold_left (fun a i => upd a i (Z.lxor (nth i a 0) (nth i b 0))) is a) = length a.
Proof. induction is; intros; cbn [fold_left]; [reflexivity|]. rewrite IHis. apply upd_length. Qed.
Lemma xor_assign_length a b : length (xor_assign a b) = length a.
Proof. apply xor_fold_length. Qed.
Lemma xor_fold_nth m : forall s a b i, (s + m <= length a)%nat ->
  nth i (fold_left (fun a i => upd a i (Z.lxor (nth i a 0) (nth i b 0))) (seq s m) a) 0 =
  if ((s <=? i) && (i <? s + m))%nat then Z.lxor (nth i a 0) (nth i b 0) else nth i a 0.
Proof.
  induction m; intros s a b i Hl; cbn [seq fold_left].
  - destruct (_ && _)%bool eqn:E; [|reflexivity]. lia.
  - rewrite IHm by (rewrite upd_length; lia). destruct (Nat.eq_dec s i) as [->|N].
    + rewrite nth_upd_eq by lia. replace (_ && _)%bool with false by lia.
      replace (_ && _)%bool with true by lia. reflexivity.
    + rewrite nth_upd_neq by lia.
      replace ((S s <=? i) && (i <? S s + m))%nat with ((s <=? i) && (i <? s + S m))%nat by lia. reflexivity.
Qed.
Lemma xor_assign_nth a b i : (i < length a)%nat -> nth i (xor_assign a b) 0 = Z.lxor (nth i a 0) (nth i b 0).
Proof.
  intros Hi. unfold xor_assign. rewrite xor_fold_nth by lia. replace (_ && _)%bool with true by lia. reflexivity.
Qed.
Lemma xor_twice a b : xor_assign (xor_assign a b) b = a.
Proof.
  apply (nth_ext _ _ 0 0); rewrite !xor_assign_length; [reflexivity|]. intros i Hi.
  rewrite !xor_assign_nth by (rewrite ?xor_assign_length; lia).
  rewrite Z.lxor_assoc, Z.lxor_nilpotent, Z.lxor_0_r. reflexivity.
Qed.
Lemma lxor_byte x y : byte_ok x -> byte_ok y -> byte_ok (Z.lxor x y).
Proof.
  unfold byte_ok. intros Hx Hy. assert (Hn : 0 <= Z.lxor x y) by (apply Z.lxor_nonneg; lia).
  split; [auto|]. destruct (Z.eq_dec (Z.lxor x y) 0) as [->|N]; [lia|].
  change 256 with (2 ^ 8). apply Z.log2_lt_pow2; [lia|].
  pose proof (Z.log2_lxor x y ltac:(lia) ltac:(lia)) as L.
  assert (forall z, 0 <= z < 256 -> Z.log2 z <= 7).
  { intros z Hz. destruct (Z.eq_dec z 0) as [->|]; [cbn; lia|].
    assert (Z.log2 z < 8); [|lia]. apply Z.log2_lt_pow2; lia. }
  pose proof (H x Hx). pose proof (H y Hy). lia.
Qed.
Lemma xor_ok a b : bytes_ok a -> bytes_ok b -> length a = length b -> bytes_ok (xor_assign a b).
Proof.
  intros Ha Hb Hl. apply Forall_forall. intros x Hx. apply (In_nth _ _ 0) in Hx. destruct Hx as (i & Hi & <-).
  rewrite xor_assign_length in Hi. rewrite xor_assign_nth by auto.
  unfold bytes_ok in *. rewrite Forall_forall in Ha, Hb. apply lxor_byte; [apply Ha|apply Hb]; apply nth_In; lia.
Qed.

Lemma bytes_eqb_eq a : forall b, bytes_eqb a b = true <-> a = b.
Proof.
  induction a as [|x a IH]; intros [|y b]; cbn [bytes_eqb]; try (split; [discriminate|congruence]).
  - split; reflexivity.
  - rewrite andb_true_iff, Z.eqb_eq, IH. split; [intros [-> ->]; reflexivity|intros [= -> ->]; auto].
Qed.
Lemma bytes_eq_vector_eq a r : bytes_eq_vector a r = true <-> a = r.
Proof.
  unfold bytes_eq_vector. destruct (Z.eqb_spec (zlen a) (zlen r)) as [E|E]; cbn [negb].
  - rewrite forallb_forall. split.
    + intros Hf. apply (nth_ext _ _ 0 0); [unfold zlen in E; lia|]. intros i Hi.
      apply Z.eqb_eq, Hf, in_seq. lia.
    + intros -> i _. apply Z.eqb_refl.
  - split; [discriminate|]. intros ->. congruence.
Qed.
Lemma bytes_plus_eq ret a r : length ret = (length a + length r)%nat -> bytes_plus ret a r = a ++ r.
Proof.
  intros Hl. unfold bytes_plus, copy_at. cbn [firstn app]. rewrite Nat.add_0_l.
  rewrite firstn_app, firstn_all, Nat.sub_diag. cbn [firstn]. rewrite app_nil_r. f_equal.
  rewrite skipn_all2; [apply app_nil_r|]. rewrite app_length, skipn_length. lia.
Qed.

(** ** In the form of ThmBytes *)
Lemma hex_refuted :
  (exists n str, bytes_ok str /\ (exists ch, In ch (skipn 2 str) /\ hex_digit ch = None) /\
     bytes_from_str n str = Ok (repeat 0 n)) /\
  (exists n str, bytes_ok str /\ (exists ch, In ch (skipn 2 str) /\ hex_digit ch = None) /\
     bytes_from_str n str = UB) /\
  (exists n str, bytes_ok str /\ hex_bytes (skipn 2 str) = None /\ bytes_from_str n str = Ok [18; 3]).
Proof.
  assert (B : forall l, forallb (fun b => (0 <=? b) && (b <? 256)) l = true -> bytes_ok l).
  { intros l Hl. apply Forall_forall. rewrite forallb_forall in Hl. intros x Hx. specialize (Hl x Hx).
    unfold byte_ok. lia. }
  split; [|split].
  - exists 1%nat, [48; 120; 122; 33]. split; [apply B; reflexivity|]. split; [|reflexivity].
    exists 122. split; [cbn; auto|reflexivity].
  - exists 1%nat, [48; 120; 195; 169]. split; [apply B; reflexivity|]. split; [|reflexivity].
    exists 195. split; [cbn; auto|reflexivity].
  - exists 2%nat, [48; 120; 49; 50; 51]. split; [apply B; reflexivity|]. split; reflexivity.
Qed.
Lemma xor_spec a b : length a = length b -> bytes_ok a -> bytes_ok b ->
  length (xor_assign a b) = length a /\ bytes_ok (xor_assign a b) /\
  (forall i, (i < length a)%nat -> nth i (xor_assign a b) 0 = Z.lxor (nth i a 0) (nth i b 0)) /\
  xor_assign (xor_assign a b) b = a.
Proof.
  intros Hl Ha Hb. split; [apply xor_assign_length|]. split; [apply xor_ok; auto|].
  split; [intros; apply xor_assign_nth; auto|]. apply xor_twice.
Qed.
