(** hash_tree_root of values whose lists may exceed their limits. *)
From Coq Require Import ZArith String List Bool Lia.
From Coq Require Import ZifyBool ZifyNat.
From Verif Require Import SpecClasses Base SpecSSZ SpecTree ModelMath ModelHashTree ModelSSZ ModelTree SpecObj
  LemBase LemBits LemTy LemSer LemMatch LemMerkle LemRoot.
Import ListNotations.
Open Scope list_scope.
Open Scope Z_scope.
Ltac Zify.zify_post_hook ::= Z.div_mod_to_equations.

Section Over.
Variable H : list Z -> list Z.

Lemma room_nodes chunks d : forall k, room chunks k d = sumZ (map (layer_width (zlen chunks)) (seq (S k) d)).
Proof. induction d; intros k; cbn [room seq map]; [reflexivity|]. rewrite IHd. reflexivity. Qed.
Lemma cnt_above chunks k : 1 <= zlen chunks -> (k < Z.to_nat (Z.log2_up (zlen chunks)))%nat -> cnt chunks k <> 1.
Proof.
  intros Hn Hk E. set (n := zlen chunks) in *.
  pose proof (Z.log2_up_nonneg n) as H0.
  assert (H1 : 2 ^ Z.pred (Z.log2_up n) < n).
  { destruct (Z.eq_dec n 1) as [->|]; [cbn in Hk; lia|]. apply Z.log2_up_spec. lia. }
  assert (H2 : 2 ^ Z.of_nat k <= 2 ^ Z.pred (Z.log2_up n)) by (apply Z.pow_le_mono_r; lia).
  assert (Hp : 0 < 2 ^ Z.of_nat k) by (apply Z.pow_pos_nonneg; lia).
  unfold cnt in E. fold n in E.
  assert (2 <= (n + 2 ^ Z.of_nat k - 1) / 2 ^ Z.of_nat k) by (apply Z.div_le_lower_bound; lia). lia.
Qed.
Lemma log2_up_max a b : Z.log2_up (Z.max a b) = Z.max (Z.log2_up a) (Z.log2_up b).
Proof.
  destruct (Z.max_spec a b) as [[? ->]|[? ->]].
  - pose proof (Z.log2_up_le_mono a b). lia.
  - pose proof (Z.log2_up_le_mono b a). lia.
Qed.

(** The tree of at least one chunk, whatever the (positive) limit. *)
Lemma HashTree_exact chunks limit :
  1 <= zlen chunks <= 2 ^ 42 -> 1 <= limit <= 2 ^ 42 ->
  if tree_fits (zlen chunks) limit
  then exists tree, HashTree (hash_pairs H) chunks limit = Ok tree /\
         back tree = Ok (merkle_root H chunks (Z.max limit (zlen chunks)))
  else HashTree (hash_pairs H) chunks limit = UB.
Proof.
  intros [Hn Hn42] Hlim. set (n := zlen chunks) in *.
  destruct (Z.le_gt_cases n limit) as [Hle|Hgt].
  { destruct (HashTree_root H chunks Hn limit) as (tree & E1 & E2); [right; fold n; lia|].
    unfold tree_fits. pose proof (Z.log2_up_le_mono n limit Hle). replace (_ <=? _) with true by lia. cbn [orb].
    exists tree. split; auto. rewrite E2. replace (limit =? 0) with false by lia. do 2 f_equal. lia. }
  assert (Hn2 : 2 <= n) by lia.
  unfold HashTree. fold n. replace ((limit <=? 1) && (n =? 1)) with false by lia.
  assert (M : forall X Y : outcome (list chunk), match chunks with [] => X | _ :: _ => Y end = Y).
  { clear - Hn. subst n. intros. destruct chunks; [cbn in Hn; lia|reflexivity]. }
  rewrite M. clear M.
  replace (limit =? 0) with false by lia. replace (limit =? 0) with false by lia.
  rewrite !log2ceil_log2_up by lia. rewrite bit_ceil_pow by lia.
  pose proof (Z.log2_up_pos n ltac:(lia)) as He. pose proof (Z.log2_up_nonneg limit) as Hd.
  pose proof (Z.log2_up_le_mono limit n ltac:(lia)) as Hde.
  assert (H42 : Z.log2_up n <= 42).
  { change 42 with (Z.log2_up (2 ^ 42)). apply Z.log2_up_le_mono. lia. }
  assert (Hp : Z.log2_up n < 2 ^ Z.log2_up n) by (apply Z.pow_gt_lin_r; lia).
  assert (Hp2 : 2 ^ Z.log2_up n <= 2 ^ 42) by (apply Z.pow_le_mono_r; lia).
  assert (U : u64 (Z.log2_up limit - Z.log2_up n + 2 ^ Z.log2_up n - 1) = 2 ^ Z.log2_up n - 1 - (Z.log2_up n - Z.log2_up limit)).
  { unfold u64. rewrite Z.mod_small; lia. }
  rewrite U. replace (Z.log2_up limit >? Z.log2_up n) with false by lia.
  set (buf := repeat zero_hash _).
  assert (Hbuf : zlen buf = set_aside n limit) by (unfold buf, set_aside; rewrite zlen_repeat; lia).
  set (D := Z.to_nat (Z.log2_up n)).
  assert (Hroom : room chunks 0 D = nodes_above n) by (unfold nodes_above; rewrite room_nodes; reflexivity).
  assert (Hone : cnt chunks D = 1) by (apply cnt_log2_up; auto).
  assert (HDn : Z.of_nat D = Z.log2_up n) by (unfold D; lia).
  assert (HM : Z.to_nat (Z.log2_up (Z.max limit n)) = D) by (rewrite log2_up_max; unfold D; lia).
  assert (Good : room chunks 0 D <= zlen buf -> exists tree, merkleize (hash_pairs H) chunks buf limit = Ok tree /\
     back tree = Ok (merkle_root H chunks (Z.max limit n))).
  { intros Hr. exists (layers H chunks D). split.
    - apply merkleize_gen; auto; try lia. rewrite log2ceil_log2_up by lia.
      destruct (Z.eq_dec (Z.log2_up limit) (Z.log2_up n)) as [E|E]; [left; lia|right].
      split; [lia|]. intros k Hk. now apply cnt_above.
    - unfold merkle_root. rewrite HM. apply layers_back; auto. lia. }
  unfold tree_fits.
  destruct (Z.leb_spec (Z.log2_up n) (Z.log2_up limit)) as [Hl|Hl]; cbn [orb].
  - apply Good. rewrite Hbuf. unfold set_aside.
    pose proof (room_pow chunks 0 D) as R. cbn [plus] in R. rewrite HDn in R.
    specialize (R (log2_up_spec1 n Hn)). lia.
  - destruct (Z.leb_spec (nodes_above n) (set_aside n limit)) as [Hs|Hs]; [apply Good; lia|].
    apply merkleize_ub with D; auto; try lia. intros k Hk. now apply cnt_above.
Qed.

(** A list of chunk-sized parts, with the length mixed in. *)
Lemma over_list chunks limit len roots :
  1 <= zlen chunks <= 2 ^ 42 -> 1 <= limit <= 2 ^ 42 ->
  (forall L, merkle_root H chunks L = merkle_root H roots L) ->
  root_of (let* ht := HashTree (hash_pairs H) chunks limit in mix_in (hash_pairs H) ht len)
  = if tree_fits (zlen chunks) limit
    then Ok (mix_in_length H (merkle_root H roots (Z.max limit (zlen chunks))) len) else UB.
Proof.
  intros Hc Hl Hr. pose proof (HashTree_exact chunks limit Hc Hl) as X.
  destruct (tree_fits _ _).
  - destruct X as (tree & E1 & E2). rewrite E1. cbn [bind]. rewrite Hr in E2.
    destruct (mix_in_root H tree _ len E2) as (tree' & E3 & E4). unfold root_of. rewrite E3. cbn [bind]. exact E4.
  - rewrite X. reflexivity.
Qed.
Lemma over_bytes b limit len :
  zlen b <= 2 ^ 47 -> 1 <= limit <= 2 ^ 42 ->
  root_of (let* ht := HashTree_bytes (hash_pairs H) b limit in mix_in (hash_pairs H) ht len)
  = if tree_fits (Z.max 1 ((zlen b + 31) / 32)) limit
    then Ok (mix_in_length H (merkle_root H (ssz_pack b) (Z.max limit ((zlen b + 31) / 32))) len) else UB.
Proof.
  intros Hb Hl. unfold HashTree_bytes. pose proof (pack_and_pad_zlen b) as Z1. pose proof (zlen_nonneg b).
  rewrite (over_list _ _ _ (ssz_pack b)); auto; try lia.
  - rewrite Z1. replace (Z.max limit (Z.max 1 ((zlen b + 31) / 32))) with (Z.max limit ((zlen b + 31) / 32)) by lia. reflexivity.
  - intros L. rewrite pack_and_pad_eq. destruct b; [apply merkle_root_zero|reflexivity].
Qed.
Lemma over_roots roots limit :
  zlen roots <= 2 ^ 42 -> 1 <= limit <= 2 ^ 42 ->
  root_of (list_hash_tree (hash_pairs H) limit roots)
  = if tree_fits (Z.max 1 (zlen roots)) limit
    then Ok (mix_in_length H (merkle_root H roots (Z.max limit (zlen roots))) (zlen roots)) else UB.
Proof.
  intros Hb Hl. unfold list_hash_tree. pose proof (zlen_nonneg roots).
  rewrite (over_list _ _ _ roots); auto.
  - destruct roots as [|a l].
    + change (zlen [zero_hash]) with 1. change (zlen (@nil chunk)) with 0.
      replace (Z.max limit 1) with (Z.max limit 0) by lia. reflexivity.
    + replace (Z.max 1 (zlen (a :: l))) with (zlen (a :: l)) by (rewrite zlen_cons in *; pose proof (zlen_nonneg l); lia). reflexivity.
  - destruct roots as [|a l]; [cbn; lia|]. rewrite zlen_cons in *. pose proof (zlen_nonneg l). lia.
  - intros L. destruct roots; [apply merkle_root_zero|reflexivity].
Qed.

Lemma mapM_fit {A} (f : A -> outcome (list Z)) g (p : A -> bool) l :
  Forall (fun a => f a = if p a then Ok (g a) else UB) l -> mapM f l = if forallb p l then Ok (map g l) else UB.
Proof.
  induction 1 as [|a l E _ IH]; [reflexivity|]. cbn [mapM map forallb]. rewrite E.
  destruct (p a); [|reflexivity]. cbn [bind andb]. rewrite IH. destruct (forallb p l); reflexivity.
Qed.
Lemma breadth_in l : breadth (VSeq l) <= 2 ^ 42 -> zlen l <= 2 ^ 42 /\ Forall (fun v => breadth v <= 2 ^ 42) l.
Proof.
  cbn [breadth]. generalize (zlen l) at 1 2. intros z. revert z.
  induction l as [|v l IH]; intros z B; cbn [map fold_right] in B; [split; [exact B|constructor]|].
  destruct (IH z) as [B1 B2]; [lia|]. split; [exact B1|]. constructor; [lia|exact B2].
Qed.

Lemma go_fit fs gs obj :
  Forall2 (fun t g => matches t (snd g) = true) fs gs ->
  Forall2 (fun t v => forall s, matches t s = true ->
    root_of (hash_tree (hash_pairs H) t v) = if trees_fit s v then Ok (lenient_root H s v) else UB) fs obj ->
  exists roots,
  (fix go (fs : list (string * sty)) (l : list val) : list (list Z) :=
           match fs, l with
           | (_, s') :: fs', v' :: l' => lenient_root H s' v' :: go fs' l'
           | _, _ => []
           end) gs obj = roots /\ zlen roots = zlen fs /\
  forall pre po, length pre = length po ->
  mapM (fun k => root_of (nth k (pre ++ map (hash_tree (hash_pairs H)) fs) (fun _ => UB) (nth k (po ++ obj) (VSeq []))))
       (seq (length pre) (length fs)) =
  if (fix go (fs : list (string * sty)) (l : list val) : bool :=
         match fs, l with
         | (_, s') :: fs', v' :: l' => trees_fit s' v' && go fs' l'
         | _, _ => true
         end) gs obj then Ok roots else UB.
Proof.
  intros Hm. revert obj. induction Hm as [|t [nm s] fs gs Hm _ IH]; intros obj Hs; inversion Hs as [|? v ? obj' Hv Hvs]; subst.
  - exists []. repeat split.
  - cbn [snd] in Hm. destruct (IH obj' Hvs) as (roots & E1 & E2 & E3).
    exists (lenient_root H s v :: roots). rewrite E1. rewrite !zlen_cons, E2. split; [reflexivity|]. split; [reflexivity|].
    intros pre po Hp. cbn [length seq mapM map].
    rewrite app_nth2, Nat.sub_diag by lia. cbn [nth].
    rewrite app_nth2, Hp, Nat.sub_diag by lia. cbn [nth]. rewrite (Hv s Hm).
    destruct (trees_fit s v); [|reflexivity]. cbn [bind andb].
    specialize (E3 (pre ++ [hash_tree (hash_pairs H) t]) (po ++ [v])). rewrite !app_length, <- !app_assoc in E3. cbn [app length] in E3.
    replace (length pre + 1)%nat with (S (length po)) in E3 by lia.
    rewrite E3 by lia. match goal with |- context [if ?b then Ok roots else UB] => destruct b end; reflexivity.
Qed.

Theorem root_exact t : wf t = true -> hashable t = true -> forall s v, matches t s = true ->
  wt t v -> breadth v <= 2 ^ 42 ->
  hash_tree_root (hash_pairs H) t v = if trees_fit s v then Ok (lenient_root H s v) else UB.
Proof.
  unfold hash_tree_root.
  assert (Leaf : forall t s v, wf t = true -> hashable t = true -> matches t s = true -> wt t v -> within t v ->
    root_of (hash_tree (hash_pairs H) t v) = Ok (ssz_hash_tree_root H s v)).
  { intros. now apply root_spec. }
  induction t using ty_ind'; intros Hwf Hh s v Hm Hv Hb; destruct s; try discriminate Hm.
  - destruct v; cbn [wt] in Hv; try contradiction. cbn [trees_fit lenient_root]. now apply Leaf.
  - destruct v; cbn [wt] in Hv; try contradiction. cbn [trees_fit lenient_root]. now apply Leaf.
  - destruct v; cbn [wt] in Hv; try contradiction. cbn [trees_fit lenient_root]. now apply Leaf.
  - destruct v; cbn [wt] in Hv; try contradiction. cbn [trees_fit lenient_root]. now apply Leaf.
  - (* Bitlist *)
    destruct v; cbn [wt] in Hv; try contradiction. cbn [matches] in Hm. apply Z.eqb_eq in Hm. subst limit.
    cbn [wf hashable breadth hash_tree bitlist_hash_tree trees_fit lenient_root] in *.
    rewrite pack_bits_le by (pose proof (Nat.div_mod (length l + 7) 8); pose proof (Nat.mod_upper_bound (length l + 7) 8); lia).
    replace (Nat.div (length l + 7) 8) with (Z.to_nat ((zlen l + 7) / 8))
      by (unfold zlen; change 7 with (Z.of_nat 7); rewrite <- Nat2Z.inj_add; change 8 with (Z.of_nat 8);
          rewrite <- Nat2Z.inj_div; now rewrite Nat2Z.id).
    set (b := le_bytes _ _). pose proof (zlen_nonneg l) as Hl0.
    assert (Hlb : zlen b = (zlen l + 7) / 8).
    { unfold b, zlen at 1. rewrite le_bytes_length. lia. }
    unfold u64. change (8 * 32) with 256. rewrite Z.mod_small by lia.
    replace (n + 256 - 1) with (n + 255) by lia.
    rewrite over_bytes by lia. rewrite Hlb.
    replace (((zlen l + 7) / 8 + 31) / 32) with ((zlen l + 255) / 256) by lia. reflexivity.
  - (* Vector *)
    destruct v; cbn [wt] in Hv; try contradiction. pose proof Hm as Hm0. cbn [matches] in Hm.
    apply andb_true_iff in Hm as [Hn Hm]. apply Z.eqb_eq in Hn. subst n0.
    pose proof Hwf as Hwf0. pose proof Hh as Hh0. pose proof Hv as Hv0.
    cbn [wf hashable] in Hwf, Hh. rewrite !andb_true_iff in Hwf, Hh. destruct Hh as [[Hh Hnb] Hn], Hwf as [[Hwf Hn'] Hsz].
    destruct Hv as [Hl Hv]. apply breadth_in in Hb as [Hb1 Hb2].
    pose proof (basic_matches t s Hm Hnb) as Eb. destruct (basic_object t) eqn:Eb'.
    + destruct t; try discriminate. destruct s; try discriminate.
      assert (T : trees_fit (SVector SUint64 n) (VSeq l) = true).
      { cbn [trees_fit]. apply forallb_forall. intros [] _; reflexivity. }
      rewrite T. cbn [lenient_root is_basic].
      apply Leaf; auto. cbn [within]. apply Forall_forall. intros [] _; exact I.
    + cbn [trees_fit lenient_root hash_tree]. rewrite Eb, Eb'.
      rewrite (mapM_fit _ (lenient_root H s) (trees_fit s)).
      2:{ rewrite Forall_forall in *. intros a Ha. apply IHt; auto. }
      destruct (forallb (trees_fit s) l); [|reflexivity].
      cbn [bind]. destruct (Z.eqb_spec n 1) as [E|E].
      * destruct l as [|v [|? ?]]; rewrite ?zlen_cons in Hl; try (cbn in Hl; lia).
        -- rewrite E. reflexivity.
        -- pose proof (zlen_nonneg l). lia.
      * destruct (HashTree_root H (map (lenient_root H s) l)) with (limit := 0) as (tree & E1 & E2);
          [rewrite zlen_map; lia|left; rewrite zlen_map; lia|].
        rewrite E1. cbn [root_of bind]. rewrite E2. cbn [Z.eqb]. rewrite zlen_map. now rewrite Hl.
  - (* ListF *)
    destruct v; cbn [wt] in Hv; try contradiction. cbn [matches] in Hm.
    apply andb_true_iff in Hm as [Hn Hm]. apply Z.eqb_eq in Hn. subst limit.
    cbn [wf hashable] in *. rewrite !andb_true_iff in *. destruct Hh as [[[Hh Hnb] Hn1] Hn2], Hwf as [Hwf Hsz].
    apply breadth_in in Hb as [Hb1 Hb2]. cbn [trees_fit lenient_root hash_tree].
    rewrite (basic_matches t s Hm Hnb).
    destruct (basic_object t) eqn:Eb.
    + destruct t; try discriminate. destruct s; try discriminate. cbn [basic_size].
      unfold serialize. cbn [vt vt_ser]. pose proof (zlen_concat_slots H l Hv) as Z1.
      pose proof (concat_slots_spec H l Hv) as Z2. cbn [vt] in Z1, Z2. rewrite Z2 in *.
      change (get_ssz_size TSlot) with 8. unfold u64. rewrite !Z.mod_small by (rewrite ?Z.mod_small; lia).
      replace (n * 8 + 32 - 1) with (n * 8 + 31) by lia. pose proof (zlen_nonneg l).
      assert (X : zlen l * 8 = 8 * zlen l) by lia.
      match goal with |- root_of (let* ht := HashTree_bytes _ ?b ?L in _) = _ => 
        pose proof (over_bytes b L (zlen l)) as Y end.
      rewrite Y by lia. rewrite Z1, X. reflexivity.
    + rewrite (mapM_fit _ (lenient_root H s) (trees_fit s)).
      2:{ rewrite Forall_forall in *. intros a Ha. apply IHt; auto. }
      destruct (forallb (trees_fit s) l); [|reflexivity].
      cbn [bind andb]. rewrite over_roots by (rewrite ?zlen_map; lia). now rewrite zlen_map.
  - (* ListV *)
    destruct v; cbn [wt] in Hv; try contradiction. cbn [matches] in Hm.
    apply andb_true_iff in Hm as [Hn Hm]. apply Z.eqb_eq in Hn. subst limit.
    cbn [wf hashable] in *. rewrite !andb_true_iff in *. destruct Hh as [[[Hh Hnb] Hn1] Hn2], Hwf as [Hwf Hsz].
    apply breadth_in in Hb as [Hb1 Hb2]. cbn [trees_fit lenient_root hash_tree].
    assert (Eb : basic_object t = false) by (destruct t; auto; discriminate Hsz).
    rewrite (basic_matches t s Hm Hnb), Eb.
    rewrite (mapM_fit _ (lenient_root H s) (trees_fit s)).
    2:{ rewrite Forall_forall in *. intros a Ha. apply IHt; auto. }
    destruct (forallb (trees_fit s) l); [|reflexivity].
    cbn [bind andb]. rewrite over_roots by (rewrite ?zlen_map; lia). now rewrite zlen_map.
  - (* class *)
    destruct v; cbn [wt] in Hv; try contradiction. cbn [matches] in Hm.
    apply wf_class in Hwf. destruct Hwf. apply all2b_Forall2 in Hm. cbn [hashable] in Hh.
    apply andb_true_iff in Hh as [Hh Hlen]. apply all2_Forall2 in Hv. apply breadth_in in Hb as [Hb1 Hb2].
    assert (HF : Forall2 (fun t v => forall s, matches t s = true ->
      root_of (hash_tree (hash_pairs H) t v) = if trees_fit s v then Ok (lenient_root H s v) else UB) fs l).
    { clear - H0 Hv Hb2 cw_fields Hh. revert H0 cw_fields Hh Hb2.
      induction Hv as [|t v fs l Hv _ IH]; intros Ha Hw Hh Hin; [constructor|].
      inversion Ha; inversion Hw; inversion Hin; subst. cbn [forallb] in Hh. apply andb_true_iff in Hh as [? ?].
      constructor; auto. }
    destruct (go_fit fs fields l Hm HF) as (roots & E1 & E2 & E3).
    cbn [trees_fit lenient_root hash_tree]. rewrite cw_hash.
    rewrite E1. specialize (E3 [] [] eq_refl). cbn [app length] in E3.
    destruct fs as [|f fs]; [easy|].
    cbn [length seq] in *. rewrite E3. match goal with |- context [if ?b then Ok roots else UB] => destruct b end; [|reflexivity]. cbn [bind].
    rewrite zlen_cons in E2, Hlen. pose proof (zlen_nonneg fs).
    destruct (HashTree_root H roots) with (limit := 0) as (tree & T1 & T2); [lia|left; lia|].
    rewrite T1. cbn [root_of bind]. exact T2.
Qed.

(** Within the limits this is the root of the specification. *)
Lemma fits_below n limit : n <= limit -> tree_fits n limit = true.
Proof. intros Hl. unfold tree_fits. pose proof (Z.log2_up_le_mono n limit Hl). replace (_ <=? _) with true by lia. reflexivity. Qed.
End Over.

(** Enough room left over. *)
Lemma width_spare e n k : 0 <= k <= e -> n <= 2 ^ e ->
  (n + 2 ^ k - 1) / 2 ^ k = 2 ^ (e - k) - (2 ^ e - n) / 2 ^ k.
Proof.
  intros Hk Hn. assert (Hp : 0 < 2 ^ k) by (apply Z.pow_pos_nonneg; lia).
  replace (2 ^ e) with (2 ^ k * 2 ^ (e - k)) by (rewrite <- Z.pow_add_r by lia; f_equal; lia).
  set (p := 2 ^ k) in *. set (q := 2 ^ (e - k)).
  pose proof (Z.div_mod (p * q - n) p ltac:(lia)) as D. pose proof (Z.mod_pos_bound (p * q - n) p Hp) as B.
  symmetry. apply Z.div_unique with (p - 1 - (p * q - n) mod p); [left; lia|]. lia.
Qed.
Lemma widths_spare e n m : n <= 2 ^ Z.of_nat e -> (m <= e)%nat ->
  sumZ (map (layer_width n) (seq 1 m)) =
  2 ^ Z.of_nat e - 2 ^ (Z.of_nat e - Z.of_nat m) - sumZ (map (fun k => (2 ^ Z.of_nat e - n) / 2 ^ Z.of_nat k) (seq 1 m)).
Proof.
  intros Hn. induction m; intros Hm; [replace (Z.of_nat e - Z.of_nat 0) with (Z.of_nat e) by lia; cbn; lia|].
  rewrite seq_S, !map_app. unfold sumZ in *. rewrite !fold_right_app. cbn [map fold_right plus].
  assert (F : forall l x, fold_right Z.add x l = fold_right Z.add 0 l + x).
  { clear. induction l; intros x; cbn [fold_right]; [lia|]. rewrite IHl. lia. }
  rewrite (F _ (layer_width n (S m) + 0)), (F _ (_ / _ + 0)), IHm by lia. unfold layer_width.
  rewrite (width_spare (Z.of_nat e)) by lia.
  replace (2 ^ (Z.of_nat e - Z.of_nat m)) with (2 * 2 ^ (Z.of_nat e - Z.of_nat (S m))).
  - lia.
  - rewrite <- Z.pow_succ_r by lia. f_equal. lia.
Qed.
Lemma fits_spare n limit : 3 <= n -> 1 <= limit ->
  tree_fits n limit = (Z.log2_up n - Z.log2_up limit <=? spare n).
Proof.
  intros Hn Hl. pose proof (Z.log2_up_nonneg n) as H0. pose proof (log2_up_spec1 n ltac:(lia)) as H1.
  unfold tree_fits, nodes_above, spare, set_aside.
  pose proof (widths_spare (Z.to_nat (Z.log2_up n)) n (Z.to_nat (Z.log2_up n))) as W.
  rewrite Z2Nat.id in W by lia. rewrite W by lia. rewrite Z.sub_diag. change (2 ^ 0) with 1.
  set (sp := sumZ _).
  assert (Hsp : 0 <= sp).
  { unfold sp. generalize (seq 1 (Z.to_nat (Z.log2_up n))). intros l. induction l as [|k l IH]; cbn [map sumZ fold_right]; [lia|].
    unfold sumZ in IH. assert (0 <= (2 ^ Z.log2_up n - n) / 2 ^ Z.of_nat k) by (apply Z.div_pos; [lia|apply Z.pow_pos_nonneg; lia]). lia. }
  assert (He : 1 < Z.log2_up n).
  { assert (2 ^ 1 < n) by lia. apply Z.log2_up_lt_pow2; lia. }
  pose proof (Z.log2_up_nonneg limit).
  assert (Hp : Z.log2_up n < 2 ^ Z.log2_up n) by (apply Z.pow_gt_lin_r; lia).
  assert (Hq : Z.log2_up n + 2 <= 2 ^ Z.log2_up n).
  { replace (Z.log2_up n) with (Z.succ (Z.log2_up n - 1)) at 2 by lia. rewrite Z.pow_succ_r by lia.
    assert (Z.log2_up n - 1 < 2 ^ (Z.log2_up n - 1)) by (apply Z.pow_gt_lin_r; lia). lia. }
  lia.
Qed.
(** Up to twice the limit, two chunks fewer are needed. *)
Lemma spare_pos n : 3 <= n -> (1 <=? spare n) = (n + 2 <=? 2 ^ Z.log2_up n).
Proof.
  intros Hn. pose proof (log2_up_spec1 n ltac:(lia)) as H1.
  assert (He : 1 < Z.log2_up n).
  { assert (2 ^ 1 < n) by lia. apply Z.log2_up_lt_pow2; lia. }
  unfold spare. destruct (Z.to_nat (Z.log2_up n)) as [|e] eqn:Ee; [lia|]. set (m := 2 ^ Z.log2_up n - n).
  assert (Hm : 0 <= m) by (unfold m; lia).
  assert (R : (n + 2 <=? 2 ^ Z.log2_up n) = (2 <=? m)) by (unfold m; lia). rewrite R.
  cbn [seq map sumZ fold_right]. change (2 ^ Z.of_nat 1) with 2.
  assert (N : forall l, 0 <= sumZ (map (fun k => m / 2 ^ Z.of_nat k) l)).
  { induction l as [|k l IH]; cbn [map sumZ fold_right]; [lia|]. unfold sumZ in IH.
    assert (0 <= m / 2 ^ Z.of_nat k) by (apply Z.div_pos; [lia|apply Z.pow_pos_nonneg; lia]). lia. }
  destruct (Z.leb_spec 2 m) as [H2|H2].
  - specialize (N (seq 2 e)). unfold sumZ in N. lia.
  - assert (X : forall l, Forall (fun k => (1 <= k)%nat) l -> sumZ (map (fun k => m / 2 ^ Z.of_nat k) l) = 0).
    { induction 1 as [|k l Hk _ IH]; cbn [map sumZ fold_right]; [reflexivity|]. unfold sumZ in IH. rewrite IH.
      rewrite Z.div_small; [reflexivity|]. split; [lia|].
      assert (2 ^ 1 <= 2 ^ Z.of_nat k) by (apply Z.pow_le_mono_r; lia). lia. }
    unfold sumZ in X. rewrite X; [lia|]. apply Forall_forall. intros k Hk. apply in_seq in Hk. lia.
Qed.

