(** The number of nodes of a tree. *)
From Coq Require Import ZArith List Bool Lia.
From Verif Require Import Base SpecSSZ ModelHashTree SpecTree LemBase LemThmTree.
Import ListNotations.
Open Scope Z_scope.

Section Spare.
Variable H : list Z -> list Z.
Variable chunks : list (list Z).
Let n := zlen chunks.
Hypothesis Hn : 1 <= n.

Lemma width_bound e k : n <= 2 ^ Z.of_nat e -> (k <= e)%nat -> layer_width n k <= 2 ^ Z.of_nat (e - k).
Proof.
  intros He Hk. unfold layer_width. apply Z.lt_succ_r. apply Z.div_lt_upper_bound; [lia|].
  replace (Z.of_nat e) with (Z.of_nat k + Z.of_nat (e - k)) in He by lia. rewrite Z.pow_add_r in He by lia. lia.
Qed.
Lemma width_one e k : n <= 2 ^ Z.of_nat e -> (e <= k)%nat -> layer_width n k <= 1.
Proof.
  intros He Hk. unfold layer_width. apply Z.lt_succ_r. apply Z.div_lt_upper_bound; [lia|].
  pose proof (Z.pow_le_mono_r 2 (Z.of_nat e) (Z.of_nat k) ltac:(lia) ltac:(lia)). lia.
Qed.
Lemma layer_length k : zlen (tree_layer H chunks k) = layer_width n k.
Proof.
  unfold tree_layer, zlen at 1. rewrite map_length, seq_length. fold n. apply Z2Nat.id. unfold layer_width.
  pose proof (Z.pow_pos_nonneg 2 (Z.of_nat k) ltac:(lia) ltac:(lia)). apply Z.div_pos; lia.
Qed.
Definition nodes (D : nat) : Z := zlen (concat (map (tree_layer H chunks) (seq 1 D))).
Lemma nodes_S D : nodes (S D) = nodes D + layer_width n (S D).
Proof.
  unfold nodes. rewrite seq_S, map_app, concat_app. cbn [map concat]. rewrite app_nil_r, zlen_app, layer_length. reflexivity.
Qed.
Lemma nodes_below e D : n <= 2 ^ Z.of_nat e -> (D <= e)%nat -> nodes D <= 2 ^ Z.of_nat e - 2 ^ Z.of_nat (e - D).
Proof.
  intros He. induction D as [|D IH]; intros HD.
  - unfold nodes. cbn. rewrite Nat.sub_0_r. lia.
  - rewrite nodes_S. pose proof (width_bound e (S D) He HD). specialize (IH ltac:(lia)).
    replace (Z.of_nat (e - D)) with (Z.succ (Z.of_nat (e - S D))) in IH by lia. rewrite Z.pow_succ_r in IH by lia. lia.
Qed.
Lemma nodes_bound e D : n <= 2 ^ Z.of_nat e -> (e <= D)%nat -> nodes D <= Z.of_nat D - Z.of_nat e + 2 ^ Z.of_nat e - 1.
Proof.
  intros He HD. induction HD as [|D HD IH].
  - pose proof (nodes_below e e He (le_n e)) as B. rewrite Nat.sub_diag in B. cbn in B. lia.
  - rewrite nodes_S. pose proof (width_one e (S D) He ltac:(lia)). lia.
Qed.
End Spare.

Lemma tree_size H chunks limit tree : 1 <= zlen chunks -> zlen chunks <= limit <= 2 ^ 42 -> 2 <= limit ->
  HashTree (hash_pairs H) chunks limit = Ok tree ->
  zlen tree <= Z.log2_up limit - Z.log2_up (zlen chunks) + 2 ^ Z.log2_up (zlen chunks) - 1.
Proof.
  intros Hn Hl H2 E. destruct (tree_layout H chunks limit Hn (or_intror Hl)) as (tree' & E' & F & _).
  assert (tree' = tree) by congruence. subst tree'. clear E E'.
  destruct (Z.eqb_spec limit 0) as [C|_]; [lia|]. destruct (Z.eqb_spec limit 1) as [C|_]; [lia|].
  pose proof (Z.log2_up_nonneg limit). pose proof (Z.log2_up_nonneg (zlen chunks)).
  pose proof (Z.log2_up_le_mono (zlen chunks) limit ltac:(lia)).
  pose proof (nodes_bound H chunks Hn (Z.to_nat (Z.log2_up (zlen chunks))) (Z.to_nat (Z.log2_up limit))) as B.
  rewrite !Z2Nat.id in B by lia. subst tree. apply B; [|lia].
  destruct (Z.eq_dec (zlen chunks) 1) as [->|N]; [cbn; lia|]. apply Z.log2_up_spec. lia.
Qed.
