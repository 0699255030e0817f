(** Two functions on blocks that agree on byte-valued chunks give the same trees. *)
From Coq Require Import ZArith String List Bool Lia.
From Coq Require Import ZifyBool ZifyNat.
From Verif Require Import Base SpecSSZ SpecTree ModelMath ModelHashTree ModelSSZ ModelTree SpecObj
  LemBase LemBits LemTy LemSer LemMatch LemRoot SpecHasher.
Import ListNotations.
Open Scope list_scope.
Open Scope Z_scope.
Ltac Zify.zify_post_hook ::= Z.div_mod_to_equations.

Section Swap.
Variables HB1 HB2 : list (list Z) -> list (list Z).
Variable N : Z.
Hypothesis Npos : 1 <= N.
Definition blocks_ok (l : list (list Z)) : Prop := Forall chunk_ok l /\ exists n, zlen l = 2 * n /\ 1 <= n <= N.
Hypothesis same : forall l, blocks_ok l -> HB1 l = HB2 l.
Hypothesis ok2 : forall l, blocks_ok l -> Forall chunk_ok (HB2 l) /\ 2 * zlen (HB2 l) = zlen l.

(** the same outcome, with good chunks *)
Definition alike (x y : outcome (list (list Z))) : Prop := x = y /\ forall l, y = Ok l -> Forall chunk_ok l.
Lemma alike_ok l : Forall chunk_ok l -> alike (Ok l) (Ok l).
Proof. intros F. split; [reflexivity|]. intros ? [= <-]. exact F. Qed.
Lemma alike_ub : alike UB UB.
Proof. split; [reflexivity|discriminate]. Qed.
Lemma alike_bind x y f g : alike x y -> (forall l, Forall chunk_ok l -> alike (f l) (g l)) -> alike (bind x f) (bind y g).
Proof.
  intros [-> F] G. destruct y as [l| |]; cbn [bind]; [|split; [reflexivity|discriminate]|split; [reflexivity|discriminate]].
  apply G, F. reflexivity.
Qed.
Lemma zero_ok : chunk_ok zero_hash.
Proof. split; [reflexivity|]. unfold bytes_ok, zero_hash. apply Forall_forall. intros x X. apply repeat_spec in X. subst. unfold byte_ok. lia. Qed.
Lemma hash2 a b : chunk_ok a -> chunk_ok b -> hash_2_chunks HB1 a b = hash_2_chunks HB2 a b /\ chunk_ok (hash_2_chunks HB2 a b).
Proof.
  intros A B. unfold hash_2_chunks. assert (L : blocks_ok [a; b]).
  { split; [constructor; [exact A|constructor; [exact B|constructor]]|]. exists 1. split; [reflexivity|lia]. }
  rewrite (same _ L). split; [reflexivity|]. destruct (ok2 _ L) as [F Z]. destruct (HB2 [a; b]) as [|c r]; [discriminate Z|].
  inversion F. assumption.
Qed.
Lemma zeros_swap n : forall c, chunk_ok c -> zero_hash_list HB1 n c = zero_hash_list HB2 n c /\ Forall chunk_ok (zero_hash_list HB2 n c).
Proof.
  induction n as [|n IH]; intros c C; cbn [zero_hash_list]; [split; [reflexivity|constructor]|].
  destruct (hash2 c c C C) as [E F]. rewrite E. destruct (IH _ F) as [E' F']. rewrite E'. split; [reflexivity|constructor; assumption].
Qed.
Lemma array_swap : zero_hash_array HB1 = zero_hash_array HB2 /\ Forall chunk_ok (zero_hash_array HB2).
Proof. apply zeros_swap, zero_ok. Qed.
Lemma read_ok l i c : Forall chunk_ok l -> read l i = Ok c -> chunk_ok c.
Proof.
  intros F. unfold read. destruct (_ && _); [|discriminate]. destruct (nth_error l _) as [d|] eqn:E; [|discriminate]. intros [= <-].
  rewrite Forall_forall in F. exact (F _ (nth_error_In _ _ E)).
Qed.
Lemma firstn_ok n l : Forall chunk_ok l -> Forall chunk_ok (firstn n l).
Proof. rewrite !Forall_forall. intros F x X. apply F. rewrite <- (firstn_skipn n l). apply in_or_app. left. exact X. Qed.
Lemma skipn_ok n l : Forall chunk_ok l -> Forall chunk_ok (skipn n l).
Proof. rewrite !Forall_forall. intros F x X. apply F. rewrite <- (firstn_skipn n l). apply in_or_app. right. exact X. Qed.
Lemma write_alike l o cs : Forall chunk_ok l -> Forall chunk_ok cs -> alike (write l o cs) (write l o cs).
Proof.
  intros F G. unfold write. destruct (_ && _); [|apply alike_ub]. apply alike_ok. apply Forall_app. split; [apply firstn_ok, F|].
  apply Forall_app. split; [exact G|apply skipn_ok, F].
Qed.
Lemma from_swap dst o src i n : Forall chunk_ok dst -> Forall chunk_ok src -> 1 <= n <= N ->
  alike (hash_blocks_from HB1 dst o src i n) (hash_blocks_from HB2 dst o src i n).
Proof.
  intros D S Hn. unfold hash_blocks_from. unfold slice. destruct (_ && _) eqn:E; [|apply alike_ub]. cbn [bind].
  assert (L : blocks_ok (firstn (Z.to_nat (i + 2 * n - i)) (skipn (Z.to_nat i) src))).
  { split; [apply firstn_ok, skipn_ok, S|]. exists n. split; [|exact Hn]. unfold zlen in *. rewrite firstn_length, skipn_length. lia. }
  rewrite (same _ L). apply write_alike; [exact D|]. apply (ok2 _ L).
Qed.
Lemma in_swap buf o i n : Forall chunk_ok buf -> 1 <= n <= N -> alike (hash_blocks_in HB1 buf o i n) (hash_blocks_in HB2 buf o i n).
Proof. intros B Hn. unfold hash_blocks_in. destruct (_ || _); [|apply alike_ub]. apply from_swap; assumption. Qed.

Definition alike2 {X} (p : X -> list (list Z)) (x y : outcome X) : Prop := x = y /\ forall a, y = Ok a -> Forall chunk_ok (p a).
Lemma alike2_bind {X} (p : X -> list (list Z)) x y f g : alike x y -> (forall l, Forall chunk_ok l -> alike2 p (f l) (g l)) -> alike2 p (bind x f) (bind y g).
Proof.
  intros [-> F] G. destruct y as [l| |]; cbn [bind]; [|split; [reflexivity|discriminate]|split; [reflexivity|discriminate]].
  apply G, F. reflexivity.
Qed.
Lemma pair_step buf i height j : Forall chunk_ok buf ->
  alike (let* c := read buf i in let* z := read (zero_hash_array HB1) height in write buf j [hash_2_chunks HB1 c z])
        (let* c := read buf i in let* z := read (zero_hash_array HB2) height in write buf j [hash_2_chunks HB2 c z]).
Proof.
  intros B. destruct array_swap as [-> A]. destruct (read buf i) as [c| |] eqn:C; cbn [bind]; try (split; [reflexivity|discriminate]).
  destruct (read (zero_hash_array HB2) height) as [z| |] eqn:Z; cbn [bind]; try (split; [reflexivity|discriminate]).
  destruct (hash2 c z (read_ok _ _ _ B C) (read_ok _ _ _ A Z)) as [-> K]. apply write_alike; [exact B|]. constructor; [exact K|constructor].
Qed.
Lemma layers_swap fuel : forall buf first last height, Forall chunk_ok buf -> last - first <= 2 * N + 1 ->
  alike2 (fun p => fst (fst p)) (merkle_layers HB1 fuel buf first last height) (merkle_layers HB2 fuel buf first last height).
Proof.
  induction fuel as [|fuel IH]; intros buf first last height B D; cbn [merkle_layers];
    (destruct (last - first >? 1) eqn:E; [|split; [reflexivity|intros a [= <-]; exact B]]).
  - split; [reflexivity|discriminate].
  - apply alike2_bind; [apply in_swap; [exact B|lia]|]. intros buf1 B1. destruct (check_iter buf _); cbn [bind]; try (split; [reflexivity|discriminate]).
    apply alike2_bind.
    + destruct (_ =? 0); [apply alike_ok, B1|]. apply pair_step, B1.
    + intros buf2 B2. apply IH; [exact B2|lia].
Qed.
Lemma extend_swap fuel : forall buf last height depth, Forall chunk_ok buf ->
  alike2 fst (merkle_extend HB1 fuel buf last height depth) (merkle_extend HB2 fuel buf last height depth).
Proof.
  induction fuel as [|fuel IH]; intros buf last height depth B; cbn [merkle_extend];
    (destruct (height <? depth) eqn:E; [|split; [reflexivity|intros a [= <-]; exact B]]).
  - split; [reflexivity|discriminate].
  - pose proof (pair_step buf (last - 1) height last B) as P.
    destruct array_swap as [E1 A]. rewrite E1 in P |- *. destruct (read buf (last - 1)) as [c| |] eqn:C; cbn [bind] in *; try (split; [reflexivity|discriminate]).
    destruct (read (zero_hash_array HB2) height) as [z| |] eqn:Z; cbn [bind] in *; try (split; [reflexivity|discriminate]).
    apply alike2_bind; [exact P|]. intros buf' B'. apply IH, B'.
Qed.
Lemma merkleize_swap vec tree limit : Forall chunk_ok vec -> Forall chunk_ok tree -> zlen vec <= 2 * N ->
  alike (merkleize HB1 vec tree limit) (merkleize HB2 vec tree limit).
Proof.
  intros V T L. unfold merkleize. destruct (check_iter tree _); cbn [bind]; try (split; [reflexivity|discriminate]).
  apply alike_bind.
  { destruct (zlen vec >? 1) eqn:E; [|apply alike_ok, T]. apply from_swap; [exact T|exact V|lia]. }
  intros buf1 B1. apply alike_bind.
  { destruct (_ =? 0); [apply alike_ok, B1|]. destruct (read vec _) as [c| |] eqn:C; cbn [bind]; try (split; [reflexivity|discriminate]).
    destruct (hash2 c zero_hash (read_ok _ _ _ V C) zero_ok) as [-> K]. apply write_alike; [exact B1|]. constructor; [exact K|constructor]. }
  intros buf2 B2. destruct (layers_swap (length vec) buf2 0 ((zlen vec + 1) / 2) 1 B2) as [-> F]; [lia|].
  destruct (merkle_layers HB2 _ _ _ _ _) as [[[buf3 last'] height]| |]; cbn [bind]; try (split; [reflexivity|discriminate]).
  specialize (F _ eq_refl). cbn [fst] in F. destruct (extend_swap (Z.to_nat (log2ceil limit)) buf3 last' height (log2ceil limit) F) as [-> G].
  destruct (merkle_extend HB2 _ _ _ _ _) as [[buf4 last'']| |]; cbn [bind]; try (split; [reflexivity|discriminate]).
  specialize (G _ eq_refl). cbn [fst] in G. apply alike_ok, firstn_ok, G.
Qed.
Lemma HashTree_swap chunks limit : Forall chunk_ok chunks -> zlen chunks <= 2 * N -> alike (HashTree HB1 chunks limit) (HashTree HB2 chunks limit).
Proof.
  intros C L. unfold HashTree. destruct (_ && _); [apply alike_ok, C|]. destruct chunks as [|c r]; [split; [reflexivity|discriminate]|].
  apply merkleize_swap; [exact C| |exact L]. apply Forall_forall. intros x X. apply repeat_spec in X. subst. exact zero_ok.
Qed.
Lemma pack_ok b : bytes_ok b -> Forall chunk_ok (pack_and_pad b).
Proof.
  intros B. destruct (pack_props b) as (_ & L & k & E).
  assert (O : bytes_ok (concat (pack_and_pad b))).
  { rewrite E. apply Forall_app. split; [exact B|]. apply Forall_forall. intros x X. apply repeat_spec in X. subst. unfold byte_ok. lia. }
  clear E. revert L O. generalize (pack_and_pad b). induction l as [|c l IH]; intros L O; [constructor|].
  cbn [concat] in O. apply Forall_app in O as [O1 O2]. inversion L; subst. constructor; [split; assumption|]. apply IH; assumption.
Qed.
Lemma bytes_swap b limit : bytes_ok b -> zlen b <= 32 * (2 * N) -> alike (HashTree_bytes HB1 b limit) (HashTree_bytes HB2 b limit).
Proof.
  intros B L. apply HashTree_swap; [apply pack_ok, B|]. rewrite pack_and_pad_zlen. lia.
Qed.
Lemma back_ok l c : Forall chunk_ok l -> back l = Ok c -> chunk_ok c.
Proof. intros F. apply read_ok, F. Qed.
Lemma mix_swap x y n : alike x y -> alike (let* t := x in mix_in HB1 t n) (let* t := y in mix_in HB2 t n).
Proof.
  intros A. apply alike_bind; [exact A|]. intros l F. unfold mix_in. destruct (back l) as [r| |] eqn:B; cbn [bind]; try (split; [reflexivity|discriminate]).
  destruct (hash2 r (le_bytes 32 n) (back_ok _ _ F B)) as [-> K].
  { split; [unfold zlen; rewrite le_bytes_length; reflexivity|apply le_bytes_ok]. }
  apply alike_ok, Forall_app. split; [exact F|]. constructor; [exact K|constructor].
Qed.
Lemma mapM_swap {A} (f g : A -> outcome (list (list Z))) l : Forall (fun a => alike (f a) (g a)) l ->
  alike (mapM (fun a => root_of (f a)) l) (mapM (fun a => root_of (g a)) l) /\
  forall cs, mapM (fun a => root_of (g a)) l = Ok cs -> zlen cs = zlen l.
Proof.
  induction 1 as [|a l [E F] _ IH]; cbn [mapM]; [split; [apply alike_ok; constructor|intros cs [= <-]; reflexivity]|].
  destruct IH as [[E1 F1] Z1]. rewrite E, E1. destruct (g a) as [t| |] eqn:G; cbn [root_of bind]; try (split; [split; [reflexivity|discriminate]|discriminate]).
  destruct (back t) as [c| |] eqn:B; cbn [bind]; try (split; [split; [reflexivity|discriminate]|discriminate]).
  clear E1. destruct (mapM (fun a => root_of (g a)) l) as [cs| |] eqn:M; cbn [bind]; try (split; [split; [reflexivity|discriminate]|discriminate]).
  split.
  - apply alike_ok. constructor; [exact (back_ok t c (F t eq_refl) B)|exact (F1 cs eq_refl)].
  - intros cs' [= <-]. rewrite !zlen_cons, (Z1 cs eq_refl). reflexivity.
Qed.
Lemma list_swap limit x y : alike x y -> (forall l, y = Ok l -> zlen l <= N) ->
  alike (let* c := x in list_hash_tree HB1 limit c) (let* c := y in list_hash_tree HB2 limit c).
Proof.
  intros [-> F] L. destruct y as [l| |]; cbn [bind]; try (split; [reflexivity|discriminate]).
  specialize (F l eq_refl). specialize (L l eq_refl). unfold list_hash_tree. apply mix_swap, HashTree_swap.
  - destruct l; [constructor; [exact zero_ok|constructor]|exact F].
  - destruct l; [change (zlen [zero_hash]) with 1; lia|lia].
Qed.
Lemma breadth_seq l : breadth (VSeq l) <= N -> zlen l <= N /\ Forall (fun v => breadth v <= N) l.
Proof.
  cbn [breadth]. generalize (zlen l) at 1 2. intros z. revert z.
  induction l as [|v l IH]; intros z B; cbn [map fold_right] in B; [split; [exact B|constructor]|].
  destruct (IH z) as [B1 B2]; [lia|]. split; [exact B1|]. constructor; [lia|exact B2].
Qed.
Lemma slots_ok l : Forall (wt TSlot) l -> bytes_ok (concat_serialize (vt TSlot) (VSeq l)).
Proof.
  intros F. rewrite (concat_slots_spec (fun x => x) l F). induction F as [|v l V _ IH]; [constructor|]. cbn [map concat]. apply Forall_app. split; [|exact IH].
  destruct v; cbn [wt] in V; try contradiction. cbn [ssz_serialize]. apply le_bytes_ok.
Qed.
Lemma mapM_index {A} (f : A -> outcome (list (list Z))) g idx :
  Forall (fun k => alike (f k) (g k)) idx ->
  alike (mapM (fun k => root_of (f k)) idx) (mapM (fun k => root_of (g k)) idx) /\
  forall cs, mapM (fun k => root_of (g k)) idx = Ok cs -> zlen cs = zlen idx.
Proof. apply mapM_swap. Qed.

Theorem tree_swap t : wf t = true -> forall v, wt t v -> breadth v <= N -> alike (hash_tree HB1 t v) (hash_tree HB2 t v).
Proof.
  induction t using ty_ind'; intros Hwf v Hv Hb; destruct v; cbn [wt] in Hv; try contradiction; cbn [hash_tree].
  - (* Bytes *) cbn [breadth] in Hb. unfold serialize. cbn [vt vt_ser bytes_serialize]. apply bytes_swap; [apply Hv|lia].
  - (* Slot *) cbn [slot_hash_tree]. apply alike_ok. constructor; [|constructor]. split.
    + rewrite zlen_app, zlen_repeat. unfold zlen. rewrite le_bytes_length. lia.
    + apply Forall_app. split; [apply le_bytes_ok|]. apply Forall_forall. intros x X. apply repeat_spec in X. subst. unfold byte_ok. lia.
  - (* Boolean *) apply bytes_swap.
    + unfold serialize. cbn. destruct b; repeat constructor; unfold byte_ok; cbn; lia.
    + change (zlen (serialize TBoolean (VBool b))) with 1. lia.
  - (* Bitvector *) cbn [wf breadth] in *. unfold serialize. cbn [vt vt_ser]. rewrite bitvector_serialize_le by lia. apply bytes_swap; [apply le_bytes_ok|].
    unfold zlen at 1. rewrite le_bytes_length. pose proof (zlen_nonneg l). lia.
  - (* Bitlist *) cbn [bitlist_hash_tree breadth] in *.
    rewrite pack_bits_le by (pose proof (Nat.div_mod (length l + 7) 8); pose proof (Nat.mod_upper_bound (length l + 7) 8); lia).
    apply mix_swap, bytes_swap; [apply le_bytes_ok|]. unfold zlen at 1. rewrite le_bytes_length. unfold zlen in Hb. lia.
  - (* Vector *) cbn [wf] in Hwf. rewrite !andb_true_iff in Hwf. destruct Hwf as [[Hwf _] _]. destruct Hv as [Hl Hv].
    apply breadth_seq in Hb as [Hb1 Hb2]. destruct (basic_object t) eqn:Eb.
    + destruct t; try discriminate Eb. unfold serialize. cbn [vt vt_ser]. apply bytes_swap; [exact (slots_ok l Hv)|].
      pose proof (zlen_concat_slots (fun x => x) l Hv) as Z1. cbn [vt] in Z1. rewrite Z1. lia.
    + assert (F : Forall (fun a => alike (hash_tree HB1 t a) (hash_tree HB2 t a)) l).
      { rewrite Forall_forall in *. intros a A. apply IHt; auto. }
      destruct (mapM_swap _ _ l F) as [A Z1]. destruct A as [-> O]. destruct (mapM _ l) as [cs| |]; cbn [bind]; try (split; [reflexivity|discriminate]).
      specialize (O _ eq_refl). specialize (Z1 _ eq_refl). destruct (n =? 1); [apply alike_ok, O|]. apply HashTree_swap; [exact O|lia].
  - (* ListF *) cbn [wf] in Hwf. rewrite !andb_true_iff in Hwf. destruct Hwf as [Hwf _].
    apply breadth_seq in Hb as [Hb1 Hb2]. destruct (basic_object t) eqn:Eb.
    + destruct t; try discriminate Eb. unfold serialize. cbn [vt vt_ser]. apply mix_swap, bytes_swap; [exact (slots_ok l Hv)|].
      pose proof (zlen_concat_slots (fun x => x) l Hv) as Z1. cbn [vt] in Z1. rewrite Z1. lia.
    + assert (F : Forall (fun a => alike (hash_tree HB1 t a) (hash_tree HB2 t a)) l).
      { rewrite Forall_forall in *. intros a A. apply IHt; auto. }
      destruct (mapM_swap _ _ l F) as [A Z1]. apply list_swap; [exact A|]. intros cs E. rewrite (Z1 cs E). exact Hb1.
  - (* ListV *) cbn [wf] in Hwf. rewrite !andb_true_iff in Hwf. destruct Hwf as [Hwf _].
    apply breadth_seq in Hb as [Hb1 Hb2].
    assert (F : Forall (fun a => alike (hash_tree HB1 t a) (hash_tree HB2 t a)) l).
    { rewrite Forall_forall in *. intros a A. apply IHt; auto. }
    destruct (mapM_swap _ _ l F) as [A Z1]. apply list_swap; [exact A|]. intros cs E. rewrite (Z1 cs E). exact Hb1.
  - (* class *) apply wf_class in Hwf. destruct Hwf. apply all2_Forall2 in Hv. apply breadth_seq in Hb as [Hb1 Hb2].
    assert (LL : length fs = length l) by (clear - Hv; induction Hv; cbn [length]; congruence). rewrite cw_hash.
    assert (F : Forall (fun k => alike (nth k (map (hash_tree HB1) fs) (fun _ => UB) (nth k l (VSeq [])))
                                      (nth k (map (hash_tree HB2) fs) (fun _ => UB) (nth k l (VSeq [])))) (seq 0 (length fs))).
    { apply Forall_forall. intros k K. apply in_seq in K.
      rewrite (nth_indep (map (hash_tree HB1) fs) (fun _ => UB) (hash_tree HB1 TSlot)) by (rewrite map_length; lia).
      rewrite (nth_indep (map (hash_tree HB2) fs) (fun _ => UB) (hash_tree HB2 TSlot)) by (rewrite map_length; lia).
      rewrite !map_nth. assert (I1 : In (nth k fs TSlot) fs) by (apply nth_In; lia). assert (I2 : In (nth k l (VSeq [])) l) by (apply nth_In; lia).
      rewrite Forall_forall in *. apply H; auto.
      clear - Hv K. revert k K. induction Hv as [|t v fs l E _ IH]; intros k K; [cbn in K; lia|]. destruct k as [|k]; [exact E|].
      cbn [nth]. apply IH. cbn [length] in K. lia. }
    destruct (mapM_swap _ _ _ F) as [A Z1]. destruct fs as [|f fs]; [easy|]. cbn [length seq] in *.
    destruct A as [-> O]. destruct (mapM _ _) as [cs| |]; cbn [bind]; try (split; [reflexivity|discriminate]).
    specialize (O _ eq_refl). specialize (Z1 _ eq_refl). apply HashTree_swap; [exact O|].
    rewrite Z1. unfold zlen in *. cbn [length] in *. rewrite seq_length. lia.
Qed.
End Swap.
