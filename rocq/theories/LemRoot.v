(** hash_tree_root computes the root of the SSZ specification. *)
From Coq Require Import ZArith String List Bool Lia.
From Coq Require Import ZifyBool ZifyNat.
From Verif Require Import SpecClasses Base SpecSSZ SpecTree ModelMath ModelHashTree ModelSSZ ModelTree SpecObj
  LemBase LemBits LemTy LemSer LemMatch LemMerkle.
Import ListNotations.
Open Scope list_scope.
Open Scope Z_scope.
Ltac Zify.zify_post_hook ::= Z.div_mod_to_equations.

Lemma pack_chunk (part : list Z) :
  part ++ skipn (length part) zero_hash = part ++ repeat 0 (32 - length part).
Proof.
  f_equal. unfold zero_hash.
  assert (G : forall k m, skipn k (repeat 0 m) = repeat 0 (m - k)).
  { induction k; intros [|m]; cbn; auto. }
  apply G.
Qed.
Lemma pack_loop_eq f : forall l, pack_loop f l = ssz_pack_fuel f l.
Proof.
  induction f; intros l; [reflexivity|]. destruct l; [reflexivity|].
  cbn [pack_loop ssz_pack_fuel]. rewrite pack_chunk. f_equal. apply IHf.
Qed.
Lemma pack_and_pad_eq l : pack_and_pad l = match l with [] => [zero_chunk] | _ => ssz_pack l end.
Proof. destruct l; [reflexivity|]. unfold pack_and_pad, ssz_pack. apply pack_loop_eq. Qed.

Lemma pack_fuel_zlen f : forall l, (length l <= f)%nat -> zlen (ssz_pack_fuel f l) = (zlen l + 31) / 32.
Proof.
  induction f; intros l Hl.
  - destruct l; [reflexivity|cbn in Hl; lia].
  - destruct l as [|a l]; [reflexivity|]. cbn [ssz_pack_fuel]. rewrite zlen_cons.
    rewrite IHf by (rewrite skipn_length; cbn [length] in *; lia).
    unfold zlen. rewrite skipn_length. cbn [length]. lia.
Qed.
Lemma pack_zlen l : zlen (ssz_pack l) = (zlen l + 31) / 32.
Proof. apply pack_fuel_zlen. lia. Qed.
Lemma pack_and_pad_zlen l : zlen (pack_and_pad l) = Z.max 1 ((zlen l + 31) / 32).
Proof.
  rewrite pack_and_pad_eq. destruct l as [|a l]; [reflexivity|]. rewrite pack_zlen.
  rewrite zlen_cons. pose proof (zlen_nonneg l). lia.
Qed.
Lemma pack_fuel_chunks f : forall l, Forall (fun c => zlen c = 32) (ssz_pack_fuel f l).
Proof.
  induction f; intros l; [constructor|]. destruct l; [constructor|]. cbn [ssz_pack_fuel].
  constructor; auto. rewrite zlen_app, zlen_repeat. unfold zlen. rewrite firstn_length. lia.
Qed.
Lemma pack_fuel_concat f : forall l, (length l <= f)%nat ->
  concat (ssz_pack_fuel f l) = l ++ repeat 0 (Z.to_nat (32 * ((zlen l + 31) / 32) - zlen l)).
Proof.
  induction f; intros l Hl.
  - destruct l; [reflexivity|cbn in Hl; lia].
  - destruct l as [|a l]; [reflexivity|]. cbn [ssz_pack_fuel].
    set (l0 := a :: l) in *. assert (Hz : 1 <= zlen l0) by (unfold l0; rewrite zlen_cons; pose proof (zlen_nonneg l); lia).
    cbn [concat]. rewrite IHf by (rewrite skipn_length; unfold l0 in *; cbn [length] in *; lia).
    destruct (Z.leb_spec 32 (zlen l0)) as [Hge|Hlt].
    + replace (32 - length (firstn 32 l0))%nat with 0%nat by (rewrite firstn_length; unfold zlen in *; lia).
      cbn [repeat]. rewrite app_nil_r, app_assoc, firstn_skipn. do 2 f_equal.
      unfold zlen in *. rewrite skipn_length. lia.
    + rewrite firstn_all2 by (unfold zlen in *; lia). rewrite skipn_all2 by (unfold zlen in *; lia).
      cbn [app]. change (zlen []) with 0. change (Z.to_nat (32 * ((0 + 31) / 32) - 0)) with 0%nat.
      cbn [repeat]. rewrite app_nil_r. do 2 f_equal. unfold zlen in *. lia.
Qed.
Lemma pack_props l :
  zlen (pack_and_pad l) = Z.max 1 ((zlen l + 31) / 32) /\
  Forall (fun c => zlen c = 32) (pack_and_pad l) /\
  exists k, concat (pack_and_pad l) = l ++ repeat 0 k.
Proof.
  split; [apply pack_and_pad_zlen|]. rewrite pack_and_pad_eq. destruct l as [|a l].
  - split; [repeat constructor|]. exists 32%nat. reflexivity.
  - split; [apply pack_fuel_chunks|]. eexists. apply pack_fuel_concat. lia.
Qed.

Section Root.
Variable H : list Z -> list Z.

Lemma node_ext f g d : (forall j, f j = g j) -> forall i, node H f d i = node H g d i.
Proof. intros E. induction d; intros i; cbn [node]; [apply E|]. now rewrite !IHd. Qed.
Lemma merkle_root_zero L : merkle_root H [zero_chunk] L = merkle_root H [] L.
Proof.
  unfold merkle_root. apply node_ext. intros j. unfold padded_leaf.
  destruct (Z.to_nat j) as [|[|]]; reflexivity.
Qed.
Lemma zero_root_zero_node k : zero_root H k = zero_node H k.
Proof. unfold zero_root. apply node_zero_node. auto. Qed.

Lemma HashTree_bytes_root b L :
  (L = 0 /\ 1 <= zlen b <= 2 ^ 47) \/ ((zlen b + 31) / 32 <= L <= 2 ^ 42 /\ 1 <= L) ->
  exists tree, HashTree_bytes (hash_pairs H) b L = Ok tree /\
    back tree = Ok (merkle_root H (ssz_pack b) (if L =? 0 then (zlen b + 31) / 32 else L)).
Proof.
  intros HL. unfold HashTree_bytes.
  pose proof (pack_and_pad_zlen b) as Z1.
  destruct (HashTree_root H (pack_and_pad b) ltac:(lia) L) as (tree & E1 & E2); [lia|].
  exists tree. split; auto. rewrite E2. f_equal. rewrite pack_and_pad_eq.
  destruct b as [|a b].
  - rewrite (@zlen_nil Z) in HL. replace (L =? 0) with false by lia. apply merkle_root_zero.
  - rewrite pack_zlen. reflexivity.
Qed.

Lemma mix_in_root tree root len : back tree = Ok root ->
  exists tree', mix_in (hash_pairs H) tree len = Ok tree' /\ back tree' = Ok (mix_in_length H root len).
Proof.
  intros E. unfold mix_in. rewrite E. cbn [bind]. eexists. split; [reflexivity|].
  unfold back. apply read_app. rewrite zlen_app, zlen_cons, zlen_nil. lia.
Qed.

Lemma root_single c : back [c] = Ok c.
Proof. reflexivity. Qed.

Lemma list_root limit roots : 1 <= limit <= 2 ^ 42 -> zlen roots <= limit ->
  root_of (list_hash_tree (hash_pairs H) limit roots)
  = Ok (mix_in_length H (merkle_root H roots limit) (zlen roots)).
Proof.
  intros Hl Hr. unfold root_of, list_hash_tree.
  set (chunks := match roots with [] => [zero_hash] | _ => roots end).
  assert (Hc : 1 <= zlen chunks <= limit).
  { unfold chunks. destruct roots; [cbn; lia|]. rewrite zlen_cons in *. pose proof (zlen_nonneg roots). lia. }
  destruct (HashTree_root H chunks ltac:(lia) limit) as (tree & E1 & E2); [lia|].
  replace (limit =? 0) with false in E2 by lia.
  assert (E3 : merkle_root H chunks limit = merkle_root H roots limit).
  { unfold chunks. destruct roots; auto. apply merkle_root_zero. }
  rewrite E3 in E2. rewrite E1. cbn [bind].
  destruct (mix_in_root tree _ (zlen roots) E2) as (tree' & E4 & E5). rewrite E4. cbn [bind]. exact E5.
Qed.

Lemma mapM_roots {A} (f : A -> outcome (list Z)) g l :
  Forall (fun a => f a = Ok (g a)) l -> mapM f l = Ok (map g l).
Proof. induction 1; [reflexivity|]. cbn [mapM map]. rewrite H0. cbn [bind]. now rewrite IHForall. Qed.

Lemma zlen_concat_slots l : Forall (wt TSlot) l -> zlen (concat_serialize (vt TSlot) (VSeq l)) = 8 * zlen l.
Proof.
  cbn [concat_serialize]. induction 1 as [|v l Hv _ IH]; [reflexivity|]. cbn [map concat].
  rewrite zlen_app, IH, zlen_cons. destruct v; cbn [wt] in Hv; try tauto. cbn [vt vt_ser slot_serialize].
  unfold zlen at 1. rewrite le_bytes_length. lia.
Qed.
Lemma concat_slots_spec l : Forall (wt TSlot) l ->
  concat_serialize (vt TSlot) (VSeq l) = concat (map (ssz_serialize SUint64) l).
Proof.
  intros Hl. cbn [concat_serialize]. apply f_equal. apply map_ext_in. intros v Hv. rewrite Forall_forall in Hl.
  specialize (Hl v Hv). destruct v; cbn [wt] in Hl; tauto || reflexivity.
Qed.
Lemma basic_matches t s : matches t s = true -> not_boolean t = true -> is_basic s = basic_object t.
Proof. destruct t, s; cbn; try discriminate; reflexivity. Qed.

Lemma go_roots fs gs obj :
  Forall2 (fun t g => matches t (snd g) = true) fs gs ->
  Forall2 (fun t v => forall s, matches t s = true -> root_of (hash_tree (hash_pairs H) t v) = Ok (ssz_hash_tree_root H s v)) fs obj ->
  exists roots,
  (fix go (fs : list (string * sty)) (l : list val) : list (list Z) :=
           match fs, l with
           | (_, t') :: fs', v' :: l' => ssz_hash_tree_root H t' v' :: go fs' l'
           | _, _ => []
           end) gs obj = roots /\ zlen roots = zlen fs /\
  forall pre po, length pre = length po ->
  mapM (fun k => root_of (nth k (pre ++ map (hash_tree (hash_pairs H)) fs) (fun _ => UB) (nth k (po ++ obj) (VSeq []))))
       (seq (length pre) (length fs)) = Ok roots.
Proof.
  intros Hm. revert obj. induction Hm as [|t [nm s] fs gs Hm _ IH]; intros obj Hs; inversion Hs as [|? v ? obj' Hv Hvs]; subst.
  - exists []. repeat split.
  - cbn [snd] in Hm. destruct (IH obj' Hvs) as (roots & E1 & E2 & E3).
    exists (ssz_hash_tree_root H s v :: roots). rewrite E1. rewrite !zlen_cons, E2. split; [reflexivity|]. split; [reflexivity|].
    intros pre po Hp. cbn [length seq mapM map].
    rewrite app_nth2, Nat.sub_diag by lia. cbn [nth].
    rewrite app_nth2, Hp, Nat.sub_diag by lia. cbn [nth]. rewrite (Hv s Hm). cbn [bind].
    specialize (E3 (pre ++ [hash_tree (hash_pairs H) t]) (po ++ [v])). rewrite !app_length, <- !app_assoc in E3. cbn [app length] in E3.
    replace (length pre + 1)%nat with (S (length po)) in E3 by lia.
    rewrite E3 by lia. reflexivity.
Qed.

Theorem root_spec t : wf t = true -> hashable t = true -> forall s v, matches t s = true ->
  wt t v -> within t v -> hash_tree_root (hash_pairs H) t v = Ok (ssz_hash_tree_root H s v).
Proof.
  unfold hash_tree_root.
  induction t using ty_ind'; intros Hwf Hh s v Hm Hv Hin; destruct s; try discriminate Hm; cbn [matches] in Hm;
    destruct v; cbn [wt] in Hv; try contradiction; try reflexivity; cbn [hash_tree ssz_hash_tree_root].
  - (* Bytes *)
    apply Z.eqb_eq in Hm. subst n0. cbn [wf hashable] in *. unfold serialize. cbn [vt vt_ser bytes_serialize].
    destruct Hv as [Hl _].
    destruct (HashTree_bytes_root l 0) as (tree & E1 & E2); [left; lia|].
    rewrite E1. cbn [root_of bind]. rewrite E2. cbn [Z.eqb]. now rewrite Hl.
  - (* Bitvector *)
    apply Z.eqb_eq in Hm. subst n0. cbn [wf hashable] in *. unfold serialize. cbn [vt vt_ser].
    rewrite bitvector_serialize_le by lia.
    set (b := le_bytes _ _). assert (Hb : zlen b = (n + 7) / 8).
    { unfold b, zlen. rewrite le_bytes_length. lia. }
    destruct (HashTree_bytes_root b 0) as (tree & E1 & E2); [left; lia|].
    rewrite E1. cbn [root_of bind]. rewrite E2. cbn [Z.eqb]. rewrite Hb. do 2 f_equal. lia.
  - (* Bitlist *)
    apply Z.eqb_eq in Hm. subst limit. cbn [wf hashable within] in *. cbn [bitlist_hash_tree].
    rewrite pack_bits_le by (pose proof (Nat.div_mod (length l + 7) 8); pose proof (Nat.mod_upper_bound (length l + 7) 8); lia).
    replace (Nat.div (length l + 7) 8) with (Z.to_nat ((zlen l + 7) / 8))
      by (unfold zlen; change 7 with (Z.of_nat 7); rewrite <- Nat2Z.inj_add; change 8 with (Z.of_nat 8);
          rewrite <- Nat2Z.inj_div; now rewrite Nat2Z.id).
    set (b := le_bytes _ _).
    assert (Hb : zlen b = (zlen l + 7) / 8).
    { unfold b, zlen at 1. rewrite le_bytes_length. pose proof (zlen_nonneg l). lia. }
    unfold u64. change (8 * 32) with 256. rewrite Z.mod_small by lia.
    replace (n + 256 - 1) with (n + 255) by lia.
    pose proof (zlen_nonneg l).
    destruct (HashTree_bytes_root b ((n + 255) / 256)) as (tree & E1 & E2); [right; lia|].
    rewrite E1. cbn [root_of bind]. replace ((n + 255) / 256 =? 0) with false in E2 by lia.
    destruct (mix_in_root tree _ (zlen l) E2) as (tree' & E3 & E4). rewrite E3. cbn [bind]. exact E4.
  - (* Vector *)
    apply andb_true_iff in Hm as [Hn Hm]. apply Z.eqb_eq in Hn. subst n0.
    cbn [wf hashable within] in *. rewrite !andb_true_iff in *. destruct Hh as [[Hh Hb] Hn], Hwf as [[Hwf Hn'] Hsz].
    destruct Hv as [Hl Hv]. rewrite (basic_matches t s Hm Hb).
    destruct (basic_object t) eqn:Eb.
    + destruct t; try discriminate. destruct s; try discriminate. cbn [basic_size].
      unfold serialize. cbn [vt vt_ser]. pose proof (zlen_concat_slots l Hv) as Z1.
      pose proof (concat_slots_spec l Hv) as Z2. cbn [vt] in Z1, Z2. rewrite Z2 in *.
      destruct (HashTree_bytes_root (concat (map (ssz_serialize SUint64) l)) 0) as (tree & E1 & E2); [left; lia|].
      rewrite E1. cbn [root_of bind]. rewrite E2. cbn [Z.eqb]. do 2 f_equal. rewrite Z1. f_equal. lia.
    + rewrite (mapM_roots _ (ssz_hash_tree_root H s)).
      2:{ rewrite Forall_forall in *. intros a Ha. apply IHt; auto. }
      cbn [bind]. destruct (Z.eqb_spec n 1) as [E|E].
      * destruct l as [|v [|? ?]]; rewrite ?zlen_cons in Hl; try (cbn in Hl; lia).
        -- rewrite E. reflexivity.
        -- pose proof (zlen_nonneg l). lia.
      * destruct (HashTree_root H (map (ssz_hash_tree_root H s) l)) with (limit := 0) as (tree & E1 & E2);
          [rewrite zlen_map; lia|left; rewrite zlen_map; lia|].
        rewrite E1. cbn [root_of bind]. rewrite E2. cbn [Z.eqb]. rewrite zlen_map. now rewrite Hl.
  - (* ListF *)
    apply andb_true_iff in Hm as [Hn Hm]. apply Z.eqb_eq in Hn. subst limit.
    cbn [wf hashable within] in *. rewrite !andb_true_iff in *. destruct Hh as [[[Hh Hb] Hn1] Hn2], Hwf as [Hwf Hsz], Hin as [Hl Hin].
    rewrite (basic_matches t s Hm Hb).
    destruct (basic_object t) eqn:Eb.
    + destruct t; try discriminate. destruct s; try discriminate. cbn [basic_size].
      unfold serialize. cbn [vt vt_ser]. pose proof (zlen_concat_slots l Hv) as Z1.
      pose proof (concat_slots_spec l Hv) as Z2. cbn [vt] in Z1, Z2. rewrite Z2 in *.
      change (get_ssz_size TSlot) with 8. unfold u64. rewrite !Z.mod_small by (rewrite ?Z.mod_small; lia).
      replace (n * 8 + 32 - 1) with (n * 8 + 31) by lia. pose proof (zlen_nonneg l).
      destruct (HashTree_bytes_root (concat (map (ssz_serialize SUint64) l)) ((n * 8 + 31) / 32)) as (tree & E1 & E2); [right; lia|].
      rewrite E1. cbn [bind]. replace ((n * 8 + 31) / 32 =? 0) with false in E2 by lia.
      destruct (mix_in_root tree _ (zlen l) E2) as (tree' & E3 & E4).
      unfold root_of. rewrite E3. cbn [bind]. exact E4.
    + rewrite (mapM_roots _ (ssz_hash_tree_root H s)).
      2:{ rewrite Forall_forall in *. intros a Ha. apply IHt; auto. }
      cbn [bind]. rewrite list_root by (rewrite ?zlen_map; lia). now rewrite zlen_map.
  - (* ListV *)
    apply andb_true_iff in Hm as [Hn Hm]. apply Z.eqb_eq in Hn. subst limit.
    cbn [wf hashable within] in *. rewrite !andb_true_iff in *. destruct Hh as [[[Hh Hb] Hn1] Hn2], Hwf as [Hwf Hsz], Hin as [Hl Hin].
    assert (Eb : basic_object t = false) by (destruct t; auto; discriminate Hsz).
    rewrite (basic_matches t s Hm Hb), Eb.
    rewrite (mapM_roots _ (ssz_hash_tree_root H s)).
    2:{ rewrite Forall_forall in *. intros a Ha. apply IHt; auto. }
    cbn [bind]. rewrite list_root by (rewrite ?zlen_map; lia). now rewrite zlen_map.
  - (* class *)
    apply wf_class in Hwf. destruct Hwf. apply all2b_Forall2 in Hm. cbn [within hashable] in *.
    apply andb_true_iff in Hh as [Hh Hlen]. apply all2_Forall2 in Hv. apply all2_Forall2 in Hin.
    rewrite cw_hash.
    assert (HF : Forall2 (fun t v => forall s, matches t s = true -> root_of (hash_tree (hash_pairs H) t v) = Ok (ssz_hash_tree_root H s v)) fs l).
    { clear - H0 Hv Hin cw_fields Hh. revert H0 cw_fields Hh Hin.
      induction Hv as [|t v fs l Hv _ IH]; intros Ha Hw Hh Hin; [constructor|].
      inversion Ha; inversion Hw; inversion Hin; subst. cbn [forallb] in Hh. apply andb_true_iff in Hh as [? ?].
      constructor; auto. }
    destruct (go_roots fs fields l Hm HF) as (roots & E1 & E2 & E3).
    rewrite E1. specialize (E3 [] [] eq_refl). cbn [app length] in E3.
    destruct fs as [|f fs]; [easy|].
    cbn [length seq] in *. rewrite E3. cbn [bind].
    rewrite zlen_cons in E2, Hlen. pose proof (zlen_nonneg fs).
    destruct (HashTree_root H roots) with (limit := 0) as (tree & T1 & T2); [lia|left; lia|].
    rewrite T1. cbn [root_of bind]. exact T2.
Qed.
End Root.
