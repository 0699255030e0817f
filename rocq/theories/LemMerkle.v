(** HashTree and merkleize compute the layers of the padded Merkle tree. *)
From Coq Require Import ZArith String List Bool Lia.
From Coq Require Import ZifyBool ZifyNat.
From Verif Require Import Base SpecSSZ ModelMath ModelHashTree LemBase.
Import ListNotations.
Open Scope list_scope.
Open Scope Z_scope.
Ltac Zify.zify_post_hook ::= Z.div_mod_to_equations.

(** *** log2ceil and bit_ceil *)
Lemma log2ceil_log2_up n : 1 <= n <= 2 ^ 64 -> log2ceil n = Z.log2_up n.
Proof.
  intros Hn. unfold log2ceil, countl_zero64, u64. replace (n =? 0) with false by lia.
  rewrite Z.mod_small by lia. destruct (Z.eqb_spec (n - 1) 0) as [E|E].
  - assert (n = 1) by lia. subst. reflexivity.
  - rewrite Z.log2_up_eqn by lia. rewrite <- Z.sub_1_r. lia.
Qed.
Lemma bit_ceil_pow n : 1 <= n -> bit_ceil n = 2 ^ Z.log2_up n.
Proof.
  intros Hn. unfold bit_ceil. destruct (Z.leb_spec n 1).
  - assert (n = 1) by lia. subst. reflexivity.
  - rewrite Z.log2_up_eqn by lia. rewrite <- Z.sub_1_r. f_equal; lia.
Qed.
Lemma log2_up_spec1 n : 1 <= n -> n <= 2 ^ Z.log2_up n.
Proof. intros. destruct (Z.eq_dec n 1) as [->|]; [cbn; lia|]. apply Z.log2_up_spec; lia. Qed.
Lemma log2_up_bit_ceil n : 1 <= n -> Z.log2_up (2 ^ Z.log2_up n) = Z.log2_up n.
Proof. intros. apply Z.log2_up_pow2. apply Z.log2_up_nonneg. Qed.

(** *** reads and writes *)
Lemma write_app {A} (pre mid post cs : list A) o : o = zlen pre -> zlen cs = zlen mid ->
  write (pre ++ mid ++ post) o cs = Ok (pre ++ cs ++ post).
Proof.
  intros -> Hl. unfold write. pose proof (zlen_nonneg pre). pose proof (zlen_nonneg post).
  pose proof (zlen_nonneg mid).
  rewrite !zlen_app.
  replace (_ && _) with true by lia.
  f_equal.
  assert (Z.to_nat (zlen pre) = length pre) as -> by (unfold zlen; lia).
  assert (Z.to_nat (zlen pre + zlen cs) = length (pre ++ mid)) as -> by (rewrite app_length; unfold zlen in *; lia).
  assert (skipn (length (pre ++ mid)) (pre ++ mid ++ post) = post) as ->.
  { rewrite app_assoc, skipn_app, Nat.sub_diag, skipn_all. reflexivity. }
  rewrite firstn_app, Nat.sub_diag, firstn_all. cbn [firstn skipn app]. now rewrite app_nil_r.
Qed.
Lemma write_at {A} (pre post cs : list A) o : o = zlen pre -> zlen cs <= zlen post ->
  write (pre ++ post) o cs = Ok (pre ++ cs ++ skipn (length cs) post).
Proof.
  intros Ho Hl. rewrite <- (firstn_skipn (length cs) post) at 1.
  apply write_app; auto. unfold zlen in *. rewrite firstn_length. lia.
Qed.
Lemma read_app {A} (pre post : list A) a i : i = zlen pre -> read (pre ++ a :: post) i = Ok a.
Proof.
  intros ->. unfold read. rewrite zlen_app, zlen_cons. pose proof (zlen_nonneg pre). pose proof (zlen_nonneg post).
  replace (_ && _) with true by lia.
  replace (Z.to_nat (zlen pre)) with (length pre) by (unfold zlen; lia).
  rewrite nth_error_app2 by lia. now rewrite Nat.sub_diag.
Qed.
Lemma read_nth {A} (l : list A) i d : 0 <= i < zlen l -> read l i = Ok (nth (Z.to_nat i) l d).
Proof.
  intros Hi. unfold read. replace (_ && _) with true by lia.
  rewrite (nth_error_nth' l d) by (unfold zlen in *; lia). reflexivity.
Qed.

Section Tree.
Variable H : list Z -> list Z.

(** Roots of the all-zero trees. *)
Fixpoint zero_node (d : nat) : list Z :=
  match d with O => zero_chunk | S d' => H (zero_node d' ++ zero_node d') end.
Lemma zero_hash_list_nth n : forall k prev d, (k < n)%nat ->
  nth k (zero_hash_list (hash_pairs H) n prev) d = Nat.iter k (fun c => H (c ++ c)) prev.
Proof.
  induction n; intros k prev d Hk; [lia|]. cbn [zero_hash_list].
  destruct k; [reflexivity|]. cbn [nth]. rewrite IHn by lia. unfold hash_2_chunks.
  clear. induction k; [reflexivity|]. unfold Nat.iter in *. cbn [nat_rect] in *. now rewrite IHk.
Qed.
Lemma zero_node_iter k : zero_node k = Nat.iter k (fun c => H (c ++ c)) zero_chunk.
Proof. induction k; [reflexivity|]. unfold Nat.iter in *. cbn [nat_rect zero_node]. now rewrite IHk. Qed.
Lemma zero_hash_list_length n prev : length (zero_hash_list (hash_pairs H) n prev) = n.
Proof. revert prev; induction n; cbn; auto. Qed.
Lemma read_zero_hash k : 0 <= k < 42 -> read (zero_hash_array (hash_pairs H)) k = Ok (zero_node (Z.to_nat k)).
Proof.
  intros Hk. assert (L : zlen (zero_hash_array (hash_pairs H)) = 42).
  { unfold zlen, zero_hash_array. rewrite zero_hash_list_length. reflexivity. }
  rewrite (read_nth _ _ zero_chunk) by (rewrite L; lia). f_equal.
  unfold zero_hash_array. rewrite zero_hash_list_nth by (unfold ZERO_HASH_DEPTH; lia).
  now rewrite zero_node_iter.
Qed.
Lemma node_zero_node leaf d i :
  (forall j, i * 2 ^ Z.of_nat d <= j -> leaf j = zero_chunk) -> node H leaf d i = zero_node d.
Proof.
  revert i. induction d; intros i Hz; cbn [node zero_node].
  - apply Hz. change (2 ^ Z.of_nat 0) with 1. lia.
  - rewrite Nat2Z.inj_succ, Z.pow_succ_r in Hz by lia.
    rewrite !IHd; auto; intros j Hj; apply Hz; nia.
Qed.

Variable chunks : list chunk.
Notation n := (zlen chunks).
Notation leaf := (padded_leaf chunks).
Hypothesis Hn : 1 <= n.

Lemma leaf_past j : n <= j -> leaf j = zero_chunk.
Proof. intros. unfold padded_leaf. apply nth_overflow. unfold zlen in *. lia. Qed.

(** Number of non-virtual nodes at height [k]. *)
Definition cnt (k : nat) : Z := (n + 2 ^ Z.of_nat k - 1) / 2 ^ Z.of_nat k.
Lemma cnt_0 : cnt 0 = n.
Proof. unfold cnt. change (2 ^ Z.of_nat 0) with 1. rewrite Z.div_1_r. lia. Qed.
Lemma cnt_S k : cnt (S k) = (cnt k + 1) / 2.
Proof.
  unfold cnt. rewrite Nat2Z.inj_succ, Z.pow_succ_r by lia.
  assert (Hp : 0 < 2 ^ Z.of_nat k) by (apply Z.pow_pos_nonneg; lia).
  set (p := 2 ^ Z.of_nat k) in *.
  replace (2 * p) with (p * 2) by lia. rewrite <- Z.div_div by lia.
  replace (n + p * 2 - 1) with (n + p - 1 + 1 * p) by lia. rewrite Z.div_add by lia. reflexivity.
Qed.
Lemma cnt_pos k : 1 <= cnt k.
Proof. induction k; [rewrite cnt_0; auto|]. rewrite cnt_S. lia. Qed.
Lemma cnt_le_pow k e : n <= 2 ^ (Z.of_nat k + e) -> 0 <= e -> cnt k <= 2 ^ e.
Proof.
  intros Hl He. unfold cnt. assert (Hp : 0 < 2 ^ Z.of_nat k) by (apply Z.pow_pos_nonneg; lia).
  rewrite Z.pow_add_r in Hl by lia.
  assert (2 ^ Z.of_nat k * ((n + 2 ^ Z.of_nat k - 1) / 2 ^ Z.of_nat k) <= n + 2 ^ Z.of_nat k - 1)
    by (apply Z.mul_div_le; lia).
  nia.
Qed.

(** The [k]-th layer without its virtual part. *)
Definition zseq (m : Z) : list Z := map Z.of_nat (seq 0 (Z.to_nat m)).
Definition layer (k : nat) : list chunk := map (node H leaf k) (zseq (cnt k)).
Lemma zlen_zseq m : 0 <= m -> zlen (zseq m) = m.
Proof. intros. unfold zseq. rewrite zlen_map. unfold zlen. rewrite seq_length. lia. Qed.
Lemma zlen_layer k : zlen (layer k) = cnt k.
Proof. unfold layer. rewrite zlen_map, zlen_zseq; auto. pose proof (cnt_pos k). lia. Qed.
Lemma layer_0 : layer 0 = chunks.
Proof.
  unfold layer, zseq. rewrite cnt_0, map_map. cbn [node]. unfold padded_leaf, zlen.
  rewrite Nat2Z.id. clear. generalize zero_chunk. intros z.
  erewrite map_ext by (intros a; rewrite Nat2Z.id; reflexivity).
  induction chunks as [|c l IH]; auto. cbn [length seq map nth]. f_equal.
  rewrite <- seq_shift, map_map. exact IH.
Qed.

Lemma hash_pairs_map (f : Z -> chunk) (m : nat) : forall s,
  hash_pairs H (map f (map Z.of_nat (seq (2 * s) (2 * m))))
  = map (fun i => H (f (2 * i) ++ f (2 * i + 1))) (map Z.of_nat (seq s m)).
Proof.
  induction m; intros s; [reflexivity|].
  replace (2 * S m)%nat with (S (S (2 * m))) by lia. cbn [seq map hash_pairs].
  f_equal; [repeat f_equal; lia|].
  replace (S (S (2 * s))) with (2 * S s)%nat by lia. apply IHm.
Qed.

Lemma zseq_app a b : 0 <= a -> 0 <= b ->
  zseq (a + b) = zseq a ++ map Z.of_nat (seq (Z.to_nat a) (Z.to_nat b)).
Proof.
  intros. unfold zseq. rewrite Z2Nat.inj_add by lia. rewrite seq_app, map_app. reflexivity.
Qed.

(** The layer above: pairs, then the odd one with a zero node. *)
Lemma layer_S k :
  layer (S k) = hash_pairs H (firstn (Z.to_nat (2 * (cnt k / 2))) (layer k))
                ++ (if cnt k mod 2 =? 0 then []
                    else [H (node H leaf k (cnt k - 1) ++ zero_node k)]).
Proof.
  pose proof (cnt_pos k) as Hc. set (m := cnt k / 2).
  assert (Hm : 0 <= m) by (unfold m; lia).
  assert (F : firstn (Z.to_nat (2 * m)) (layer k) = map (node H leaf k) (map Z.of_nat (seq (2 * 0) (2 * Z.to_nat m)))).
  { unfold layer. rewrite firstn_map. f_equal.
    replace (cnt k) with (2 * m + (cnt k - 2 * m)) by lia. rewrite zseq_app by (unfold m; lia).
    rewrite firstn_app. unfold zseq at 1. rewrite firstn_all2 by (rewrite map_length, seq_length; lia).
    replace (Z.to_nat (2 * m) - length (zseq (2 * m)))%nat with 0%nat
      by (unfold zseq; rewrite map_length, seq_length; lia).
    cbn [firstn]. rewrite app_nil_r. unfold zseq. do 2 f_equal. lia. }
  rewrite F, hash_pairs_map.
  change (map (fun i => H (node H leaf k (2 * i) ++ node H leaf k (2 * i + 1))) (map Z.of_nat (seq 0 (Z.to_nat m))))
    with (map (node H leaf (S k)) (zseq m)).
  unfold layer. rewrite cnt_S.
  destruct (Z.eqb_spec (cnt k mod 2) 0) as [E|E].
  - rewrite app_nil_r. do 2 f_equal. unfold m. lia.
  - replace ((cnt k + 1) / 2) with (m + 1) by (unfold m; lia).
    rewrite zseq_app by lia. rewrite map_app. f_equal.
    replace (Z.to_nat 1) with 1%nat by reflexivity. cbn [seq map node].
    rewrite Z2Nat.id by lia. replace (2 * m) with (cnt k - 1) by (unfold m; lia).
    do 3 f_equal. apply node_zero_node. intros j Hj. apply leaf_past.
    assert (Hp : 0 < 2 ^ Z.of_nat k) by (apply Z.pow_pos_nonneg; lia).
    replace (cnt k - 1 + 1) with (cnt k) in Hj by lia. unfold cnt in Hj.
    pose proof (Z.mul_succ_div_gt (n + 2 ^ Z.of_nat k - 1) (2 ^ Z.of_nat k) ltac:(lia)). nia.
Qed.

(** Layers 1 to [k], bottom-up. *)
Definition layers (k : nat) : list chunk := concat (map layer (seq 1 k)).
Lemma layers_S k : layers (S k) = layers k ++ layer (S k).
Proof.
  unfold layers. replace (S k) with (k + 1)%nat by lia. rewrite seq_app, map_app, concat_app.
  cbn [seq map concat]. rewrite app_nil_r. now replace (1 + k)%nat with (k + 1)%nat by lia.
Qed.
Lemma zlen_layers_S k : zlen (layers (S k)) = zlen (layers k) + cnt (S k).
Proof. now rewrite layers_S, zlen_app, zlen_layer. Qed.

Lemma layer_split k : layer k = removelast (layer k) ++ [node H leaf k (cnt k - 1)].
Proof.
  pose proof (cnt_pos k) as Hc. unfold layer.
  replace (cnt k) with ((cnt k - 1) + 1) at 1 by lia.
  replace (cnt k) with ((cnt k - 1) + 1) at 2 by lia.
  rewrite zseq_app by lia. rewrite map_app. replace (Z.to_nat 1) with 1%nat by reflexivity. cbn [seq map].
  rewrite removelast_last. rewrite Z2Nat.id by lia. reflexivity.
Qed.

(** One round of the first loop, given where the lower layer is. *)
Lemma round_pairs pre k post : (1 <= cnt k / 2)%Z ->
  zlen (layer (S k)) <= zlen post ->
  exists post1,
  hash_blocks_in (hash_pairs H) (pre ++ layer k ++ post) (zlen pre + cnt k) (zlen pre) (cnt k / 2)
  = Ok (pre ++ layer k ++ post1) /\ zlen post1 = zlen post /\
  (if cnt k mod 2 =? 0 then post1 = layer (S k) ++ skipn (length (layer (S k))) post
   else write (pre ++ layer k ++ post1) (zlen pre + cnt k + (cnt k + 1) / 2 - 1)
          [hash_2_chunks (hash_pairs H) (node H leaf k (cnt k - 1)) (zero_node k)]
        = Ok (pre ++ layer k ++ layer (S k) ++ skipn (length (layer (S k))) post)).
Proof.
  intros Hc Hp. unfold hash_blocks_in, hash_blocks_from.
  replace (_ || _) with true by lia.
  rewrite zlen_layer in Hp.
  pose proof (zlen_layer k) as Hl.
  set (m := cnt k / 2) in *.
  assert (S1 : slice (pre ++ layer k ++ post) (zlen pre) (zlen pre + 2 * m)
               = Ok (firstn (Z.to_nat (2 * m)) (layer k))).
  { rewrite slice_ok by (rewrite ?zlen_app; pose proof (zlen_nonneg pre); pose proof (zlen_nonneg post); unfold m in *; lia).
    f_equal. replace (Z.to_nat (zlen pre)) with (length pre) by (unfold zlen; lia).
    rewrite skipn_app, skipn_all, Nat.sub_diag. cbn [skipn app].
    rewrite firstn_app. replace (Z.to_nat (zlen pre + 2 * m - zlen pre)) with (Z.to_nat (2 * m)) by lia.
    replace (Z.to_nat (2 * m) - length (layer k))%nat with 0%nat by (unfold zlen in Hl; unfold m; lia).
    cbn [firstn]. now rewrite app_nil_r. }
  rewrite S1. cbn [bind]. clear S1.
  pose proof (layer_S k) as LS. fold m in LS.
  set (hp := hash_pairs H (firstn (Z.to_nat (2 * m)) (layer k))) in *.
  assert (Hhp : zlen hp = m).
  { pose proof (zlen_layer (S k)) as Z1. rewrite LS, zlen_app in Z1. rewrite cnt_S in Z1.
    destruct (Z.eqb_spec (cnt k mod 2) 0); autorewrite with zlen in Z1; unfold m in *; lia. }
  rewrite cnt_S in Hp.
  rewrite app_assoc. rewrite write_at by (rewrite ?zlen_app; lia).
  exists (hp ++ skipn (length hp) post). split; [now rewrite <- app_assoc|].
  assert (Hsk : zlen (skipn (length hp) post) = zlen post - m).
  { unfold zlen in *. rewrite skipn_length. unfold m in *. lia. }
  split; [rewrite zlen_app; lia|].
  destruct (Z.eqb_spec (cnt k mod 2) 0) as [E|E].
  - rewrite app_nil_r in LS. now rewrite LS.
  - unfold hash_2_chunks.
    replace (pre ++ layer k ++ hp ++ skipn (length hp) post)
      with ((pre ++ layer k ++ hp) ++ skipn (length hp) post) by now rewrite <- !app_assoc.
    rewrite write_at.
    + f_equal. rewrite LS, <- !app_assoc. do 4 f_equal. cbn [length]. rewrite skipn_add.
      f_equal. rewrite app_length. cbn. lia.
    + rewrite !zlen_app, Hhp, Hl. unfold m. lia.
    + rewrite zlen_cons, zlen_nil, Hsk. unfold m in *. lia.
Qed.

(** Capacity left in the buffer: the layers above [k] up to depth [D]. *)
Fixpoint room (k d : nat) : Z := match d with O => 0 | S d' => cnt (S k) + room (S k) d' end.
Lemma room_nonneg k d : 0 <= room k d.
Proof. revert k; induction d; intros k; cbn [room]; [lia|]. pose proof (cnt_pos (S k)). specialize (IHd (S k)). lia. Qed.
Lemma cnt_1_S k : cnt k = 1 -> cnt (S k) = 1.
Proof. intros E. rewrite cnt_S, E. reflexivity. Qed.

(** One round of the first loop. *)
Lemma merkle_layers_step fuel k post :
  (1 <= k)%nat -> 1 < cnt k -> Z.of_nat k < 42 -> cnt (S k) <= zlen post ->
  merkle_layers (hash_pairs H) (S fuel) (layers k ++ post) (zlen (layers k) - cnt k) (zlen (layers k)) (Z.of_nat k)
  = merkle_layers (hash_pairs H) fuel (layers (S k) ++ skipn (length (layer (S k))) post)
      (zlen (layers (S k)) - cnt (S k)) (zlen (layers (S k))) (Z.of_nat (S k)).
Proof.
  intros Hk Hgt Hd Hroom. cbn [merkle_layers].
  replace (zlen (layers k) - (zlen (layers k) - cnt k)) with (cnt k) by lia.
  destruct (Z.gtb_spec (cnt k) 1) as [_|Hle]; [|lia].
  destruct k as [|k0]; [lia|]. clear Hk.
  set (pre := layers k0).
  assert (Hpre : zlen (layers (S k0)) = zlen pre + cnt (S k0)) by apply zlen_layers_S.
  rewrite Hpre. replace (zlen pre + cnt (S k0) - cnt (S k0)) with (zlen pre) by lia.
  rewrite (layers_S k0). fold pre. rewrite <- app_assoc.
  destruct (round_pairs pre (S k0) post) as (post1 & E1 & L1 & E2).
  { pose proof (cnt_pos (S k0)). lia. }
  { rewrite zlen_layer. lia. }
  rewrite E1. cbn [bind].
  assert (CI : check_iter (pre ++ layer (S k0) ++ post) (zlen pre + cnt (S k0) + (cnt (S k0) + 1) / 2) = Ok tt).
  { unfold check_iter. rewrite !zlen_app, zlen_layer. rewrite cnt_S in Hroom at 1.
    pose proof (zlen_nonneg pre). replace (_ && _) with true; auto. lia. }
  rewrite CI. cbn [bind]. clear CI.
  assert (E3 : (if cnt (S k0) mod 2 =? 0 then Ok (pre ++ layer (S k0) ++ post1)
     else let* c := read (pre ++ layer (S k0) ++ post1) (zlen pre + cnt (S k0) - 1) in
          let* z := read (zero_hash_array (hash_pairs H)) (Z.of_nat (S k0)) in
          write (pre ++ layer (S k0) ++ post1) (zlen pre + cnt (S k0) + (cnt (S k0) + 1) / 2 - 1) [hash_2_chunks (hash_pairs H) c z])
     = Ok (layers (S (S k0)) ++ skipn (length (layer (S (S k0)))) post)).
  { rewrite !layers_S, <- !app_assoc. fold pre.
    destruct (cnt (S k0) mod 2 =? 0); [now rewrite E2|].
    assert (R : read (pre ++ layer (S k0) ++ post1) (zlen pre + cnt (S k0) - 1) = Ok (node H leaf (S k0) (cnt (S k0) - 1))).
    { rewrite layer_split, <- app_assoc. cbn [app]. rewrite app_assoc. apply read_app.
      rewrite zlen_app. pose proof (zlen_layer (S k0)) as Z1. rewrite layer_split, zlen_app, zlen_cons, zlen_nil in Z1. lia. }
    rewrite R. cbn [bind]. rewrite read_zero_hash by lia. cbn [bind]. rewrite Nat2Z.id. exact E2. }
  rewrite E3. cbn [bind]. clear E3 E2 E1.
  assert (Hc2 : cnt (S (S k0)) = (cnt (S k0) + 1) / 2) by apply cnt_S.
  rewrite (zlen_layers_S (S k0)), Hpre.
  replace (zlen pre + cnt (S k0) + cnt (S (S k0)) - cnt (S (S k0))) with (zlen pre + cnt (S k0)) by lia.
  rewrite <- Hc2. replace (Z.of_nat (S k0) + 1) with (Z.of_nat (S (S k0))) by lia. reflexivity.
Qed.

Lemma merkle_layers_ok : forall fuel k d post,
  cnt k <= Z.of_nat fuel -> (1 <= k)%nat ->
  cnt (k + d) = 1 -> Z.of_nat (k + d) <= 42 ->
  room k d <= zlen post ->
  exists k' d' post',
    merkle_layers (hash_pairs H) fuel (layers k ++ post) (zlen (layers k) - cnt k) (zlen (layers k)) (Z.of_nat k)
    = Ok (layers k' ++ post', zlen (layers k'), Z.of_nat k') /\
    cnt k' = 1 /\ (k' + d' = k + d)%nat /\ room k' d' <= zlen post' /\ (1 <= k')%nat.
Proof.
  induction fuel as [|fuel IH]; intros k d post Hf Hk Hone Hd Hroom.
  { pose proof (cnt_pos k). lia. }
  destruct (Z.gtb_spec (cnt k) 1) as [Hgt|Hle].
  2:{ pose proof (cnt_pos k). exists k, d, post. cbn [merkle_layers].
      replace (zlen (layers k) - (zlen (layers k) - cnt k)) with (cnt k) by lia.
      replace (cnt k >? 1) with false by lia. repeat split; auto; lia. }
  destruct d as [|d].
  { rewrite Nat.add_0_r in Hone. lia. }
  cbn [room] in Hroom. pose proof (room_nonneg (S k) d).
  rewrite merkle_layers_step by lia.
  destruct (IH (S k) d (skipn (length (layer (S k))) post)) as (k' & d' & post' & E & H1 & H2 & H3 & H4); try lia.
  - rewrite cnt_S. lia.
  - replace (S k + d)%nat with (k + S d)%nat by lia. auto.
  - unfold zlen. rewrite skipn_length. pose proof (zlen_layer (S k)) as Z1. unfold zlen in *. lia.
  - exists k', d', post'. repeat split; auto. lia.
Qed.

Lemma merkle_extend_ok : forall d k post fuel,
  (d <= fuel)%nat -> cnt k = 1 -> (1 <= k)%nat -> Z.of_nat (k + d) <= 42 -> room k d <= zlen post ->
  exists post',
    merkle_extend (hash_pairs H) fuel (layers k ++ post) (zlen (layers k)) (Z.of_nat k) (Z.of_nat (k + d))
    = Ok (layers (k + d) ++ post', zlen (layers (k + d))).
Proof.
  induction d; intros k post fuel Hf Hone Hk Hd Hroom.
  - rewrite Nat.add_0_r. exists post. destruct fuel; cbn [merkle_extend];
      replace (Z.of_nat k <? Z.of_nat k) with false by lia; reflexivity.
  - destruct fuel as [|fuel]; [lia|]. cbn [merkle_extend].
    replace (Z.of_nat k <? Z.of_nat (k + S d)) with true by lia.
    destruct k as [|k0]; [lia|].
    assert (R : read (layers (S k0) ++ post) (zlen (layers (S k0)) - 1) = Ok (node H leaf (S k0) 0)).
    { rewrite zlen_layers_S, Hone. rewrite layers_S.
      assert (LL : layer (S k0) = [node H leaf (S k0) 0]) by (unfold layer; rewrite Hone; reflexivity).
      rewrite LL, <- app_assoc. cbn [app]. apply read_app. lia. }
    rewrite R. cbn [bind]. rewrite read_zero_hash by lia. cbn [bind].
    cbn [room] in Hroom. pose proof (room_nonneg (S (S k0)) d).
    pose proof (cnt_1_S _ Hone) as Hone'.
    rewrite write_at by (auto; rewrite zlen_cons, zlen_nil; lia). cbn [bind length].
    assert (LL : layer (S (S k0)) = [hash_2_chunks (hash_pairs H) (node H leaf (S k0) 0) (zero_node (Z.to_nat (Z.of_nat (S k0))))]).
    { unfold layer. rewrite Hone'. change (zseq 1) with [0]. cbn [map]. f_equal.
      unfold hash_2_chunks. cbn [hash_pairs hd]. rewrite Nat2Z.id.
      change (node H leaf (S (S k0)) 0) with (H (node H leaf (S k0) 0 ++ node H leaf (S k0) 1)). do 2 f_equal.
      apply (node_zero_node leaf (S k0) 1). intros j Hj. apply leaf_past.
      assert (Hp : 0 < 2 ^ Z.of_nat (S k0)) by (apply Z.pow_pos_nonneg; lia).
      unfold cnt in Hone. pose proof (Z.mul_succ_div_gt (n + 2 ^ Z.of_nat (S k0) - 1) (2 ^ Z.of_nat (S k0)) ltac:(lia)). nia. }
    rewrite <- LL, app_assoc, <- layers_S.
    destruct (IHd (S (S k0)) (skipn 1 post) fuel) as (post' & E); try lia.
    + unfold zlen in *. rewrite skipn_length. lia.
    + exists post'. rewrite zlen_layers_S, Hone' in E.
      replace (Z.of_nat (S k0) + 1) with (Z.of_nat (S (S k0))) by lia.
      replace (S k0 + S d)%nat with (S (S k0) + d)%nat by lia. exact E.
Qed.

(** The first layer of merkleize, in a buffer that has room for it. *)
Lemma merkleize_first buf limit : cnt 1 <= zlen buf ->
  merkleize (hash_pairs H) chunks buf limit =
  let* (buf3, last', height) :=
    merkle_layers (hash_pairs H) (length chunks) (layers 1 ++ skipn (length (layer 1)) buf)
      (zlen (layers 1) - cnt 1) (zlen (layers 1)) (Z.of_nat 1) in
  let* (buf4, last'') := merkle_extend (hash_pairs H) (Z.to_nat (log2ceil limit)) buf3 last' height (log2ceil limit) in
  Ok (firstn (Z.to_nat last'') buf4).
Proof.
  intros Hroom. unfold merkleize.
  pose proof cnt_0 as C0. pose proof (cnt_S 0) as C1. rewrite C0 in C1.
  assert (CI : check_iter buf ((n + 1) / 2) = Ok tt).
  { unfold check_iter. replace (_ && _) with true; auto. lia. }
  rewrite CI. cbn [bind].
  set (post0 := skipn (length (layer 1)) buf).
  pose proof (layer_S 0) as LS. rewrite layer_0, C0 in LS.
  set (hp := hash_pairs H (firstn (Z.to_nat (2 * (n / 2))) chunks)) in *.
  assert (Hhp : zlen hp = n / 2).
  { pose proof (zlen_layer 1) as Z1. rewrite LS, zlen_app in Z1. rewrite C1 in Z1.
    destruct (Z.eqb_spec (n mod 2) 0); autorewrite with zlen in Z1; lia. }
  assert (B1 : (if n >? 1 then hash_blocks_from (hash_pairs H) buf 0 chunks 0 (n / 2) else Ok buf)
               = Ok (hp ++ skipn (length hp) buf)).
  { destruct (Z.gtb_spec n 1) as [Hg|Hg].
    - unfold hash_blocks_from. rewrite slice_ok by lia. cbn [bind].
      replace (Z.to_nat (0 + 2 * (n / 2) - 0)) with (Z.to_nat (2 * (n / 2))) by lia.
      change (skipn (Z.to_nat 0) chunks) with chunks. fold hp.
      pose proof (write_at [] buf hp 0 eq_refl) as W. cbn [app] in W. apply W. lia.
    - assert (hp = []) as -> by (apply zlen_0; lia). reflexivity. }
  rewrite B1. cbn [bind]. clear B1.
  assert (B2 : (if n mod 2 =? 0 then Ok (hp ++ skipn (length hp) buf)
     else let* c := read chunks (n - 1) in
          write (hp ++ skipn (length hp) buf) ((n + 1) / 2 - 1) [hash_2_chunks (hash_pairs H) c zero_hash])
     = Ok (layers 1 ++ post0)).
  { unfold layers, post0. cbn [seq map concat]. rewrite app_nil_r. rewrite LS.
    destruct (Z.eqb_spec (n mod 2) 0) as [E|E]; [now rewrite app_nil_r|].
    rewrite (read_nth _ _ zero_chunk) by lia. cbn [bind]. unfold hash_2_chunks.
    rewrite write_at.
    - rewrite <- app_assoc. do 3 f_equal. rewrite skipn_add. f_equal. rewrite app_length. reflexivity.
    - lia.
    - rewrite zlen_cons, zlen_nil. unfold zlen in *. rewrite skipn_length. lia. }
  rewrite B2. cbn [bind]. clear B2.
  assert (L1 : zlen (layers 1) = (n + 1) / 2).
  { rewrite zlen_layers_S. change (layers 0) with (@nil chunk). rewrite zlen_nil. lia. }
  rewrite L1. replace ((n + 1) / 2 - cnt 1) with 0 by lia. reflexivity.
Qed.

(** merkleize into a buffer that has room for all the layers. The depth of the
    limit may be smaller than that of the chunks. *)
Lemma merkleize_gen buf limit (D : nat) :
  log2ceil limit = Z.of_nat D \/ (log2ceil limit < Z.of_nat D /\ forall k, (k < D)%nat -> cnt k <> 1) ->
  (1 <= D)%nat -> cnt D = 1 -> Z.of_nat D <= 42 ->
  room 0 D <= zlen buf ->
  merkleize (hash_pairs H) chunks buf limit = Ok (layers D).
Proof.
  intros HD HD1 Hone H42 Hroom.
  pose proof cnt_0 as C0. pose proof (cnt_S 0) as C1. rewrite C0 in C1.
  destruct D as [|D]; [lia|]. cbn [room] in Hroom. pose proof (room_nonneg 1 D).
  rewrite merkleize_first by lia.
  assert (Hp0 : room 1 D <= zlen (skipn (length (layer 1)) buf)).
  { unfold zlen. rewrite skipn_length. pose proof (zlen_layer 1) as Z1. unfold zlen in *. lia. }
  destruct (merkle_layers_ok (length chunks) 1 D (skipn (length (layer 1)) buf)) as (k' & d' & post' & E & E1 & E2 & E3 & E4); auto; try lia.
  { rewrite C1. unfold zlen in *. lia. }
  rewrite E. cbn [bind].
  assert (X : exists post'', merkle_extend (hash_pairs H) (Z.to_nat (log2ceil limit)) (layers k' ++ post') (zlen (layers k')) (Z.of_nat k') (log2ceil limit)
    = Ok (layers (S D) ++ post'', zlen (layers (S D)))).
  { destruct HD as [HD|[HD Hmin]].
    - rewrite HD. destruct (merkle_extend_ok d' k' post' (Z.to_nat (Z.of_nat (S D)))) as (post'' & E'); auto; try lia.
      rewrite E2 in E'. change (1 + D)%nat with (S D) in E'. eauto.
    - assert (k' = S D) as ->.
      { destruct (Nat.lt_ge_cases k' (S D)) as [Hlt|Hge]; [|lia]. now apply Hmin in Hlt. }
      exists post'. destruct (Z.to_nat (log2ceil limit)); cbn [merkle_extend];
        replace (Z.of_nat (S D) <? log2ceil limit) with false by lia; reflexivity. }
  destruct X as [post'' E']. rewrite E'. cbn [bind].
  rewrite firstn_app. replace (Z.to_nat (zlen (layers (S D)))) with (length (layers (S D))) by (unfold zlen; lia).
  rewrite firstn_all, Nat.sub_diag. cbn [firstn]. now rewrite app_nil_r.
Qed.
Lemma merkleize_ok buf limit (D : nat) :
  log2ceil limit = Z.of_nat D -> (1 <= D)%nat -> cnt D = 1 -> Z.of_nat D <= 42 ->
  room 0 D <= zlen buf ->
  merkleize (hash_pairs H) chunks buf limit = Ok (layers D).
Proof. intros HD. apply merkleize_gen. now left. Qed.

(** ... and into one that has not, when the limit is shallower than the chunks. *)
Lemma hash_blocks_in_ok {B} buf o i c (X : list chunk -> outcome B) :
  bind (hash_blocks_in (hash_pairs H) buf o i c) X = UB \/
  exists buf', bind (hash_blocks_in (hash_pairs H) buf o i c) X = X buf'.
Proof.
  unfold hash_blocks_in, hash_blocks_from, slice, write.
  repeat (match goal with |- context [if ?b then _ else _] => destruct b end; cbn [bind]); eauto.
Qed.
Lemma merkle_layers_ub : forall fuel k d post,
  cnt k <= Z.of_nat fuel -> (1 <= k)%nat ->
  (forall j, (j < k + d)%nat -> cnt j <> 1) -> Z.of_nat (k + d) <= 42 ->
  zlen post < room k d ->
  merkle_layers (hash_pairs H) fuel (layers k ++ post) (zlen (layers k) - cnt k) (zlen (layers k)) (Z.of_nat k) = UB.
Proof.
  induction fuel as [|fuel IH]; intros k d post Hf Hk Hmin Hd Hroom.
  { pose proof (cnt_pos k). lia. }
  destruct d as [|d]; cbn [room] in Hroom; [pose proof (zlen_nonneg post); lia|].
  assert (Hgt : 1 < cnt k) by (pose proof (cnt_pos k); specialize (Hmin k ltac:(lia)); lia).
  destruct (Z.le_gt_cases (cnt (S k)) (zlen post)) as [Hle|Hlt].
  - rewrite merkle_layers_step by lia. apply IH with d; try lia.
    + rewrite cnt_S. lia.
    + intros j Hj. apply Hmin. lia.
    + unfold zlen. rewrite skipn_length. pose proof (zlen_layer (S k)) as Z1. unfold zlen in *. lia.
  - cbn [merkle_layers].
    replace (zlen (layers k) - (zlen (layers k) - cnt k)) with (cnt k) by lia.
    replace (cnt k >? 1) with true by lia.
    match goal with |- bind ?a ?X = UB => destruct (hash_blocks_in_ok (layers k ++ post) (zlen (layers k)) (zlen (layers k) - cnt k) (cnt k / 2) X) as [E|[buf' E]] end;
      [exact E|]. rewrite E. unfold check_iter.
    rewrite zlen_app. rewrite cnt_S in Hlt. replace (_ && _) with false by lia. reflexivity.
Qed.
Lemma merkleize_ub buf limit (D : nat) :
  (forall k, (k < D)%nat -> cnt k <> 1) -> (1 <= D)%nat -> Z.of_nat D <= 42 ->
  zlen buf < room 0 D ->
  merkleize (hash_pairs H) chunks buf limit = UB.
Proof.
  intros Hmin HD1 H42 Hroom.
  pose proof cnt_0 as C0. pose proof (cnt_S 0) as C1. rewrite C0 in C1.
  destruct D as [|D]; [lia|]. cbn [room] in Hroom.
  destruct (Z.le_gt_cases (cnt 1) (zlen buf)) as [Hle|Hlt].
  - rewrite merkleize_first by lia. rewrite (merkle_layers_ub (length chunks) 1 D); auto; try lia.
    + rewrite C1. unfold zlen in *. lia.
    + unfold zlen. rewrite skipn_length. pose proof (zlen_layer 1) as Z1. unfold zlen in *. lia.
  - unfold merkleize, check_iter. replace (_ && _) with false by lia. reflexivity.
Qed.

Lemma room_pow k e : n <= 2 ^ Z.of_nat (k + e) -> room k e <= 2 ^ Z.of_nat e - 1.
Proof.
  revert k; induction e; intros k Hl; cbn [room]; [cbn; lia|].
  specialize (IHe (S k)). replace (S k + e)%nat with (k + S e)%nat in IHe by lia. specialize (IHe Hl).
  pose proof (cnt_le_pow (S k) (Z.of_nat e)) as C.
  replace (Z.of_nat (S k) + Z.of_nat e) with (Z.of_nat (k + S e)) in C by lia.
  specialize (C Hl ltac:(lia)). rewrite Nat2Z.inj_succ, Z.pow_succ_r by lia. lia.
Qed.
Lemma room_app a : forall k b, room k (a + b) = room k a + room (k + a) b.
Proof.
  induction a; intros k b; cbn [room plus]; [now rewrite Nat.add_0_r|].
  rewrite IHa. replace (S k + a)%nat with (k + S a)%nat by lia. lia.
Qed.
Lemma room_ones d : forall k, cnt k = 1 -> room k d = Z.of_nat d.
Proof.
  induction d; intros k Hk; cbn [room]; auto. rewrite (IHd (S k)); rewrite (cnt_1_S _ Hk); auto. lia.
Qed.
Lemma cnt_log2_up : cnt (Z.to_nat (Z.log2_up n)) = 1.
Proof.
  pose proof (Z.log2_up_nonneg n). pose proof (log2_up_spec1 n Hn).
  pose proof (cnt_le_pow (Z.to_nat (Z.log2_up n)) 0) as C. rewrite Z2Nat.id, Z.add_0_r in C by lia.
  specialize (C ltac:(lia) ltac:(lia)). pose proof (cnt_pos (Z.to_nat (Z.log2_up n))). cbn in C. lia.
Qed.

(** The depth of the tree: the limit if there is one, else the chunk count. *)
Definition tree_depth (limit : Z) : nat := Z.to_nat (Z.log2_up (if limit =? 0 then n else limit)).

Lemma HashTree_ok limit :
  (limit = 0 /\ n <= 2 ^ 42) \/ (n <= limit <= 2 ^ 42) ->
  HashTree (hash_pairs H) chunks limit = Ok (if Nat.eqb (tree_depth limit) 0 then chunks else layers (tree_depth limit)).
Proof.
  intros Hlim. unfold HashTree, tree_depth.
  set (L := if limit =? 0 then n else limit).
  assert (HL : n <= L <= 2 ^ 42) by (unfold L; destruct (Z.eqb_spec limit 0); lia).
  assert (H42 : Z.log2_up L <= 42).
  { change 42 with (Z.log2_up (2 ^ 42)). apply Z.log2_up_le_mono. lia. }
  pose proof (Z.log2_up_nonneg L) as HLn. pose proof (Z.log2_up_nonneg n) as Hnn.
  pose proof (Z.log2_up_le_mono n L ltac:(lia)) as Hmono.
  destruct ((limit <=? 1) && (n =? 1)) eqn:Early.
  - assert (E0 : Z.log2_up L = 0).
    { assert (L = 1) as -> by (unfold L; destruct (Z.eqb_spec limit 0); lia). reflexivity. }
    rewrite E0. reflexivity.
  - assert (HL2 : 2 <= L) by (unfold L in *; destruct (Z.eqb_spec limit 0); lia).
    assert (HD : 1 <= Z.log2_up L) by (pose proof (Z.log2_up_pos L ltac:(lia)); lia).
    assert (M : forall X Y : outcome (list chunk), match chunks with [] => X | _ :: _ => Y end = Y).
    { clear - Hn. intros. destruct chunks; [cbn in Hn; lia|reflexivity]. }
    rewrite M. clear M.
    replace (Nat.eqb (Z.to_nat (Z.log2_up L)) 0) with false
      by (symmetry; apply Nat.eqb_neq; lia).
    rewrite (log2ceil_log2_up n) by lia.
    replace (if limit =? 0 then Z.log2_up n else log2ceil limit) with (Z.log2_up L)
      by (unfold L in *; destruct (Z.eqb_spec limit 0); [reflexivity|symmetry; apply log2ceil_log2_up; lia]).
    rewrite (bit_ceil_pow n) by lia.
    assert (Hdep : log2ceil (if limit =? 0 then 2 ^ Z.log2_up n else limit) = Z.of_nat (Z.to_nat (Z.log2_up L))).
    { rewrite Z2Nat.id by lia. unfold L. destruct (Z.eqb_spec limit 0) as [E|E].
      - rewrite log2ceil_log2_up; [apply log2_up_bit_ceil; lia|].
        assert (2 ^ Z.log2_up n <= 2 ^ 42) by (apply Z.pow_le_mono_r; lia).
        assert (0 < 2 ^ Z.log2_up n) by (apply Z.pow_pos_nonneg; lia). lia.
      - apply log2ceil_log2_up; lia. }
    pose proof cnt_log2_up as Hone.
    apply merkleize_ok; auto; try lia.
    + pose proof (cnt_le_pow (Z.to_nat (Z.log2_up L)) 0) as C. rewrite Z2Nat.id, Z.add_0_r in C by lia.
      assert (n <= 2 ^ Z.log2_up L) by (etransitivity; [|apply log2_up_spec1]; lia).
      specialize (C ltac:(lia) ltac:(lia)). pose proof (cnt_pos (Z.to_nat (Z.log2_up L))).
      change (2 ^ 0) with 1 in C. lia.
    + rewrite zlen_repeat.
      replace (Z.to_nat (Z.log2_up L)) with (Z.to_nat (Z.log2_up n) + Z.to_nat (Z.log2_up L - Z.log2_up n))%nat by lia.
      rewrite room_app, Nat.add_0_l, (room_ones _ (Z.to_nat (Z.log2_up n))) by auto.
      pose proof (room_pow 0 (Z.to_nat (Z.log2_up n))) as R. cbn [plus] in R. rewrite Z2Nat.id in R by lia.
      specialize (R (log2_up_spec1 n Hn)).
      assert (2 ^ Z.log2_up n <= 2 ^ 42) by (apply Z.pow_le_mono_r; lia).
      assert (0 < 2 ^ Z.log2_up n) by (apply Z.pow_pos_nonneg; lia).
      assert (U : u64 (Z.log2_up L - Z.log2_up n + 2 ^ Z.log2_up n - 1) = Z.log2_up L - Z.log2_up n + 2 ^ Z.log2_up n - 1).
      { unfold u64. apply Z.mod_small. lia. }
      rewrite U. destruct (Z.gtb_spec (Z.log2_up L) (Z.log2_up n)).
      * unfold u64. rewrite Z.mod_small by lia. lia.
      * lia.
Qed.

Lemma layers_back D : (1 <= D)%nat -> cnt D = 1 -> back (layers D) = Ok (node H leaf D 0).
Proof.
  intros HD Hone. destruct D as [|D]; [lia|]. unfold back. rewrite layers_S.
  assert (LL : layer (S D) = [node H leaf (S D) 0]) by (unfold layer; rewrite Hone; reflexivity).
  rewrite LL. apply read_app. rewrite zlen_app, zlen_cons, zlen_nil. lia.
Qed.

Lemma HashTree_root limit :
  (limit = 0 /\ n <= 2 ^ 42) \/ (n <= limit <= 2 ^ 42) ->
  exists tree, HashTree (hash_pairs H) chunks limit = Ok tree /\
    back tree = Ok (merkle_root H chunks (if limit =? 0 then n else limit)).
Proof.
  intros Hlim. rewrite HashTree_ok by auto. unfold merkle_root, tree_depth.
  set (L := if limit =? 0 then n else limit).
  assert (HL : n <= L <= 2 ^ 42) by (unfold L; destruct (Z.eqb_spec limit 0); lia).
  eexists. split; [reflexivity|].
  destruct (Nat.eqb_spec (Z.to_nat (Z.log2_up L)) 0) as [E|E].
  - rewrite E. cbn [node].
    assert (n = 1).
    { pose proof (log2_up_spec1 L ltac:(lia)). pose proof (Z.log2_up_nonneg L).
      replace (Z.log2_up L) with 0 in * by lia. change (2 ^ 0) with 1 in *. lia. }
    unfold back. rewrite (read_nth _ _ zero_chunk) by lia. unfold padded_leaf. do 2 f_equal. lia.
  - apply layers_back; [lia|].
    pose proof (Z.log2_up_nonneg L).
    pose proof (cnt_le_pow (Z.to_nat (Z.log2_up L)) 0) as C. rewrite Z2Nat.id, Z.add_0_r in C by lia.
    assert (n <= 2 ^ Z.log2_up L) by (etransitivity; [|apply log2_up_spec1]; lia).
    specialize (C ltac:(lia) ltac:(lia)). pose proof (cnt_pos (Z.to_nat (Z.log2_up L))).
    change (2 ^ 0) with 1 in C. lia.
Qed.
End Tree.
