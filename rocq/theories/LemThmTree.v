(** Proofs of the theorems of ThmTree.v. *)
From Coq Require Import ZArith String List Bool Lia.
From Coq Require Import ZifyBool ZifyNat.
From Verif Require Import Base SpecSSZ SpecTree SpecPhase0 ModelMath ModelHashTree ModelSSZ ModelTree ModelEth SpecObj SpecClasses
  Samples LemBase LemTy LemMatch LemMerkle LemRoot LemOver LemBind LemThmCodec LemFit LemThmFit LemOverBind.
Import ListNotations.
Open Scope list_scope.
Open Scope Z_scope.
Ltac Zify.zify_post_hook ::= Z.div_mod_to_equations.

Lemma is_container_hashable t : is_container t -> hashable t = true.
Proof.
  assert (G : forall c, forallb (fun p => hashable (snd p)) (all_classes c) = true ->
    forall n t, In (n, t) (all_classes c) -> hashable t = true).
  { intros c Hc n t' Hi. rewrite forallb_forall in Hc. exact (Hc _ Hi). }
  intros [n Hn|n Hn]; eapply G; try exact Hn; vm_compute; reflexivity.
Qed.

Lemma root_any H t s v : wf t = true -> hashable t = true -> matches t s = true -> has_type s v ->
  hash_tree_root (hash_pairs H) t v = Ok (ssz_hash_tree_root H s v).
Proof. intros Hw Hh Hm Hv. apply (matches_type t s v Hm) in Hv. apply root_spec; tauto. Qed.
Lemma root_containers H t s v : container_pair t s -> has_type s v ->
  hash_tree_root (hash_pairs H) t v = Ok (ssz_hash_tree_root H s v).
Proof.
  intros Hp. pose proof (container_pair_container _ _ Hp) as Hc.
  apply root_any; [now apply is_container_wf|now apply is_container_hashable|now apply container_pair_matches].
Qed.

Lemma tree_safe H chunks limit : 1 <= zlen chunks ->
  (limit = 0 /\ zlen chunks <= 2 ^ 42) \/ (zlen chunks <= limit <= 2 ^ 42) ->
  exists tree, HashTree (hash_pairs H) chunks limit = Ok tree.
Proof. intros Hn Hl. destruct (HashTree_root H chunks Hn limit Hl) as (tree & E & _). eauto. Qed.

Lemma tree_layout H chunks limit : 1 <= zlen chunks ->
  (limit = 0 /\ zlen chunks <= 2 ^ 42) \/ (zlen chunks <= limit <= 2 ^ 42) ->
  let L := if limit =? 0 then zlen chunks else limit in
  let depth := Z.to_nat (Z.log2_up L) in
  exists tree, HashTree (hash_pairs H) chunks limit = Ok tree /\
    tree = (if L =? 1 then chunks else concat (map (tree_layer H chunks) (seq 1 depth))) /\
    back tree = Ok (merkle_root H chunks L).
Proof.
  intros Hn Hl L depth. destruct (HashTree_root H chunks Hn limit Hl) as (tree & E & E').
  exists tree. split; auto. split; auto. rewrite HashTree_ok in E by auto.
  unfold tree_depth in E. fold L in E. fold depth in E.
  assert (HL : 1 <= L) by (unfold L; destruct (Z.eqb_spec limit 0); lia).
  assert (Ed : Nat.eqb depth 0 = (L =? 1)).
  { destruct (Z.eqb_spec L 1) as [->|N]; [reflexivity|]. apply Nat.eqb_neq. unfold depth.
    pose proof (Z.log2_up_pos L ltac:(lia)). lia. }
  rewrite Ed in E. injection E as <-. destruct (L =? 1); [reflexivity|].
  unfold layers. f_equal. apply map_ext. intros k. unfold layer, tree_layer, zseq. rewrite map_map. reflexivity.
Qed.

Lemma zero_table H k : (k < 42)%nat -> nth_error (zero_hash_array (hash_pairs H)) k = Some (zero_root H k).
Proof.
  intros Hk. rewrite zero_root_zero_node. pose proof (read_zero_hash H (Z.of_nat k) ltac:(lia)) as R.
  unfold read in R. destruct (_ && _); [|discriminate]. rewrite Nat2Z.id in R.
  destruct (nth_error _ k); congruence.
Qed.
Lemma zero_table_length H : length (zero_hash_array (hash_pairs H)) = 42%nat.
Proof. apply zero_hash_list_length. Qed.

Lemma mixin H tree root len : back tree = Ok root ->
  mix_in (hash_pairs H) tree len = Ok (tree ++ [H (root ++ le_bytes 32 len)]) /\
  back (tree ++ [H (root ++ le_bytes 32 len)]) = Ok (H (root ++ le_bytes 32 len)).
Proof.
  intros E. unfold mix_in. rewrite E. split; [reflexivity|]. apply read_app.
  rewrite zlen_app, zlen_cons, zlen_nil. lia.
Qed.

(** Fixed-size classes have no lists. *)
Lemma fixed_within t : wf t = true -> get_ssz_size t <> 0 -> forall v, wt t v -> within t v.
Proof.
  induction t using ty_ind'; intros Hwf Hs v Hv; destruct v; cbn [wt within] in *; try contradiction; auto;
    try (exfalso; apply Hs; reflexivity).
  - cbn [wf] in Hwf. rewrite !andb_true_iff in Hwf. destruct Hwf as [[Hwf Hn] Hsz], Hv as [_ Hv].
    rewrite Forall_forall in *. intros x Hx. apply IHt; auto. lia.
  - pose proof (wf_class _ _ Hwf) as W. destruct W. unfold get_ssz_size in Hs. cbn [vt vt_size] in Hs.
    rewrite cw_size in Hs. destruct (existsb _ fs) eqn:Ex; [easy|].
    apply all2_Forall2 in Hv. apply all2_Forall2. clear Hs cw_size cw_small cw_hash cw_des cw_ser cw_nonempty Hwf.
    revert H cw_fields Ex. induction Hv as [|t v fs l Hv _ IH]; intros Ha Hw Ex; constructor.
    + inversion Ha; inversion Hw; subst. cbn [existsb] in Ex. apply orb_false_iff in Ex as [Ex _].
      apply H1; auto. lia.
    + inversion Ha; inversion Hw; subst. cbn [existsb] in Ex. apply orb_false_iff in Ex as [_ Ex].
      apply IH; auto.
Qed.

Lemma container_spec t : is_container t -> exists s, container_pair t s.
Proof.
  assert (G : forall (a : list (string * ty)) (b : list (string * sty)), map fst a = map fst b ->
    forall n s, In (n, s) a -> exists t, In (n, t) b).
  { clear. intros a b E n s Hin. apply (in_map fst) in Hin. rewrite E in Hin.
    apply in_map_iff in Hin as ([n' t] & E' & Hin). cbn in E'. subst. eauto. }
  intros [n Hn|n Hn].
  - destruct (G (all_classes mainnet) (phase0_containers preset_mainnet) eq_refl n t Hn) as [s Hs].
    exists s. eapply pair_mainnet; eauto.
  - destruct (G (all_classes minimal) (phase0_containers preset_minimal) eq_refl n t Hn) as [s Hs].
    exists s. eapply pair_minimal; eauto.
Qed.
Lemma root_ok_within H t v : is_container t -> wt t v -> within t v ->
  exists r, hash_tree_root (hash_pairs H) t v = Ok r.
Proof.
  intros Hc Hv Hi. destruct (container_spec t Hc) as [s Hs]. exists (ssz_hash_tree_root H s v).
  apply root_containers; auto. apply (matches_type t s v); auto. now apply container_pair_matches.
Qed.
Lemma root_ok_fixed H t old b v : is_container t -> get_ssz_size t <> 0 -> wt t old -> bytes_ok b ->
  deserialize t old b = Ok (true, v) -> exists r, hash_tree_root (hash_pairs H) t v = Ok r.
Proof.
  intros Hc Hs Ho Hb E. pose proof (is_container_wf t Hc) as Hwf.
  pose proof (result_wt t old b true v Hwf Ho Hb E) as Hv. apply root_ok_within; auto. now apply fixed_within.
Qed.

Lemma binding H : (forall x, zlen x = 64 -> zlen (H x) = 32) ->
  forall t v w, is_container t -> wt t v -> within t v -> wt t w -> within t w ->
  hash_tree_root (hash_pairs H) t v = hash_tree_root (hash_pairs H) t w ->
  v = w \/ exists x y, zlen x = 64 /\ zlen y = 64 /\ x <> y /\ H x = H y.
Proof.
  intros Hl t v w Hc Hv Hiv Hw Hiw E. destruct (container_spec t Hc) as [s Hs].
  pose proof (container_pair_matches _ _ Hs) as Hm.
  assert (Tv : has_type s v) by (apply (matches_type t s v Hm); auto).
  assert (Tw : has_type s w) by (apply (matches_type t s w Hm); auto).
  rewrite !(root_containers H t s) in E by auto. injection E as E.
  apply (root_binding H Hl s); auto.
  eapply matches_proper; eauto; [now apply is_container_wf|now apply is_container_hashable].
Qed.

(** Values beyond their limits. *)
Lemma root_beyond H t s v : container_pair t s -> wt t v -> breadth v <= 2 ^ 42 ->
  hash_tree_root (hash_pairs H) t v = if trees_fit s v then Ok (lenient_root H s v) else UB.
Proof.
  intros Hp. pose proof (container_pair_container _ _ Hp) as Hc. intros Hv Hb.
  apply root_exact; auto; [now apply is_container_wf|now apply is_container_hashable|now apply container_pair_matches].
Qed.
Lemma accepted_root H t s old b v : container_pair t s -> wt t old -> bytes_ok b ->
  deserialize t old b = Ok (true, v) -> breadth v <= 2 ^ 42 ->
  (hash_tree_root (hash_pairs H) t v = UB <-> trees_fit s v = false).
Proof.
  intros Hp Ho Hb E Hs. pose proof (container_pair_container _ _ Hp) as Hc.
  rewrite (root_beyond H t s v Hp); auto.
  - destruct (trees_fit s v); split; congruence.
  - eapply result_wt; eauto. now apply is_container_wf.
Qed.
Lemma binding_beyond H : (forall x, zlen x = 64 -> zlen (H x) = 32) ->
  forall t v w r, is_container t -> wt t v -> wt t w -> breadth v <= 2 ^ 42 -> breadth w <= 2 ^ 42 ->
  hash_tree_root (hash_pairs H) t v = Ok r -> hash_tree_root (hash_pairs H) t w = Ok r ->
  v = w \/ exists x y, zlen x = 64 /\ zlen y = 64 /\ x <> y /\ H x = H y.
Proof.
  intros Hl t v w r Hc Hv Hw Bv Bw Ev Ew. destruct (container_spec t Hc) as [s Hs].
  pose proof (container_pair_matches _ _ Hs) as Hm.
  rewrite (root_beyond H t s) in Ev, Ew by auto.
  destruct (trees_fit s v); [|discriminate]. destruct (trees_fit s w); [|discriminate].
  apply (lenient_binding H Hl s); try (apply (matches_shape t s _ Hm)); auto; [|congruence].
  eapply matches_proper; eauto; [now apply is_container_wf|now apply is_container_hashable].
Qed.
(** Chunk lists of up to twice the limit, rounded up to a power of two. *)
Lemma tree_doubling H chunks limit d : 1 <= d < 42 -> Z.log2_up limit = d -> 1 <= limit ->
  2 ^ d < zlen chunks <= 2 ^ (d + 1) ->
  (HashTree (hash_pairs H) chunks limit = UB <-> 2 ^ (d + 1) - 2 < zlen chunks).
Proof.
  intros Hd El Hl Hn. set (n := zlen chunks) in *.
  assert (E : Z.log2_up n = d + 1).
  { apply Z.log2_up_unique; [lia|]. replace (Z.pred (d + 1)) with d by lia. lia. }
  assert (P : 2 ^ 1 <= 2 ^ d) by (apply Z.pow_le_mono_r; lia). change (2 ^ 1) with 2 in P.
  assert (P2 : 2 ^ (d + 1) <= 2 ^ 42) by (apply Z.pow_le_mono_r; lia).
  assert (P3 : limit <= 2 ^ d) by (rewrite <- El; apply log2_up_spec1; lia).
  assert (P4 : 2 ^ d <= 2 ^ 42) by (apply Z.pow_le_mono_r; lia).
  pose proof (HashTree_exact H chunks limit ltac:(fold n; lia) ltac:(lia)) as X. fold n in X.
  rewrite (fits_spare n limit), E, El in X by lia. replace (d + 1 - d) with 1 in X by lia.
  rewrite (spare_pos n), E in X by lia. destruct (Z.leb_spec (n + 2) (2 ^ (d + 1))) as [Hle|Hgt].
  - destruct X as (tree & X & _). rewrite X. split; [discriminate|lia].
  - rewrite X. split; [lia|reflexivity].
Qed.
