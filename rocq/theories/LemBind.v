(** Roots bind values: equal roots give equal values or a hash collision. *)
From Coq Require Import ZArith String List Bool Lia.
From Coq Require Import ZifyBool ZifyNat.
From Verif Require Import SpecClasses Base SpecSSZ SpecTree ModelSSZ SpecObj LemBase LemBits LemTy LemMatch LemRoot LemMerkle.
Import ListNotations.
Open Scope list_scope.
Open Scope Z_scope.
Ltac Zify.zify_post_hook ::= Z.div_mod_to_equations.

(** Induction over SSZ types. *)
Lemma sty_ind' (P : sty -> Prop) :
  P SUint64 -> P SBoolean -> (forall n, P (SByteVector n)) -> (forall n, P (SBitvector n)) ->
  (forall n, P (SBitlist n)) -> (forall t n, P t -> P (SVector t n)) -> (forall t n, P t -> P (SList t n)) ->
  (forall fs, Forall (fun f => P (snd f)) fs -> P (SContainer fs)) -> forall t, P t.
Proof.
  intros H1 H2 H3 H4 H5 H6 H7 H8. fix IH 1. intros t. destruct t as [| | | | |t ?|t ?|fs].
  - exact H1.
  - exact H2.
  - apply H3.
  - apply H4.
  - apply H5.
  - apply H6, IH.
  - apply H7, IH.
  - apply H8. revert fs. fix IHfs 1. intros [|f fs]; constructor; [apply IH|apply IHfs].
Qed.

Fixpoint proper (s : sty) : bool :=
  match s with
  | SUint64 | SBoolean => true
  | SByteVector n => 1 <=? n
  | SBitvector n => 1 <=? n
  | SBitlist n => n <=? 2 ^ 42
  | SVector t n => proper t && (1 <=? n)
  | SList t n => proper t && (n <=? 2 ^ 42)
  | SContainer fs => forallb (fun f => proper (snd f)) fs && (1 <=? zlen fs)
  end.
Lemma matches_proper t : wf t = true -> hashable t = true -> forall s, matches t s = true -> proper s = true.
Proof.
  induction t using ty_ind'; intros Hwf Hh s Hm; destruct s; try discriminate Hm; cbn [matches proper wf hashable] in *;
    rewrite ?andb_true_iff in *; try lia; auto.
  - destruct Hm, Hh as [[? ?] ?], Hwf as [[? ?] ?]. split; [auto|lia].
  - destruct Hm, Hh as [[[? ?] ?] ?], Hwf as [? ?]. split; [auto|lia].
  - destruct Hm, Hh as [[[? ?] ?] ?], Hwf as [? ?]. split; [auto|lia].
  - apply all2b_Forall2 in Hm. destruct Hwf as [[[[[[Hwf H2] _] _] _] _] _], Hh as [Hh _].
    split; [|apply Forall2_len in Hm; unfold zlen in *; lia].
    clear H2. revert H Hwf Hh. induction Hm as [|t [nm s] fs gs Hm _ IH]; intros Ha Hwf Hh; auto.
    inversion Ha; subst. cbn [forallb snd] in *. rewrite andb_true_iff in *. destruct Hwf, Hh.
    split; [auto|apply IH; auto].
Qed.

Section Bind.
Variable H : list Z -> list Z.
Hypothesis Hlen : forall x, zlen x = 64 -> zlen (H x) = 32.

Definition coll : Prop :=
  exists x y, zlen x = 64 /\ zlen y = 64 /\ x <> y /\ H x = H y.

Lemma list_Z_dec (x y : list Z) : {x = y} + {x <> y}.
Proof. apply list_eq_dec, Z.eq_dec. Qed.
Lemma app_inj32 {A} (a b c d : list A) : zlen a = zlen c -> a ++ b = c ++ d -> a = c /\ b = d.
Proof.
  revert c. induction a as [|x a IH]; intros [|y c] Hl E; rewrite ?zlen_cons in Hl.
  - auto.
  - change (zlen []) with 0 in Hl. pose proof (zlen_nonneg c). lia.
  - change (zlen []) with 0 in Hl. pose proof (zlen_nonneg a). lia.
  - cbn [app] in E. injection E as -> E. destruct (IH c ltac:(lia) E) as [-> ->]. auto.
Qed.
Lemma H_inj a b c d : zlen a = 32 -> zlen b = 32 -> zlen c = 32 -> zlen d = 32 ->
  H (a ++ b) = H (c ++ d) -> (a = c /\ b = d) \/ coll.
Proof.
  intros Ha Hb Hc Hd E. destruct (list_Z_dec (a ++ b) (c ++ d)) as [E'|N].
  - left. apply app_inj32; auto. congruence.
  - right. exists (a ++ b), (c ++ d). rewrite !zlen_app. repeat split; auto; lia.
Qed.

Lemma node_len f d : (forall j, zlen (f j) = 32) -> forall i, zlen (node H f d i) = 32.
Proof.
  intros Hf. induction d; intros i; cbn [node]; auto. apply Hlen. rewrite zlen_app, !IHd. reflexivity.
Qed.
Lemma node_inj f g d : (forall j, zlen (f j) = 32) -> (forall j, zlen (g j) = 32) ->
  forall i, node H f d i = node H g d i ->
  (forall j, i * 2 ^ Z.of_nat d <= j < (i + 1) * 2 ^ Z.of_nat d -> f j = g j) \/ coll.
Proof.
  intros Hf Hg. induction d; intros i E; cbn [node] in E.
  - left. intros j Hj. change (2 ^ Z.of_nat 0) with 1 in Hj. replace j with i by lia. exact E.
  - apply H_inj in E; [|apply node_len; auto..]. destruct E as [[E1 E2]|C]; [|now right].
    apply IHd in E1. apply IHd in E2. destruct E1 as [E1|C]; [|now right]. destruct E2 as [E2|C]; [|now right].
    left. rewrite Nat2Z.inj_succ, Z.pow_succ_r by lia. intros j Hj.
    destruct (Z.ltb_spec j ((2 * i + 1) * 2 ^ Z.of_nat d)); [apply E1|apply E2]; lia.
Qed.

Lemma leaf_len chunks : Forall (fun c => zlen c = 32) chunks -> forall j, zlen (padded_leaf chunks j) = 32.
Proof.
  intros Hc j. unfold padded_leaf. destruct (nth_in_or_default (Z.to_nat j) chunks zero_chunk) as [Hi|E]; [|rewrite E; reflexivity].
  rewrite Forall_forall in Hc. auto.
Qed.
Lemma merkle_root_len chunks L : Forall (fun c => zlen c = 32) chunks -> zlen (merkle_root H chunks L) = 32.
Proof. intros. unfold merkle_root. apply node_len. now apply leaf_len. Qed.
Lemma merkle_root_inj c d L : Forall (fun c => zlen c = 32) c -> Forall (fun c => zlen c = 32) d ->
  zlen c = zlen d -> zlen c <= L -> merkle_root H c L = merkle_root H d L -> c = d \/ coll.
Proof.
  intros Hc Hd El HL E. unfold merkle_root in E.
  destruct (Z.ltb_spec L 1) as [Hs|Hs].
  { left. pose proof (zlen_nonneg c). rewrite (zlen_0 c), (zlen_0 d) by lia. reflexivity. }
  apply node_inj in E; [|now apply leaf_len..]. destruct E as [E|C]; [|now right]. left.
  apply nth_ext with zero_chunk zero_chunk; [unfold zlen in El; lia|]. intros k Hk.
  specialize (E (Z.of_nat k)). unfold padded_leaf in E. rewrite Nat2Z.id in E. apply E.
  pose proof (log2_up_spec1 L ltac:(lia)). pose proof (Z.log2_up_nonneg L). rewrite Z2Nat.id by lia.
  unfold zlen in *. lia.
Qed.

Lemma pack_len l : Forall (fun c => zlen c = 32) (ssz_pack l).
Proof. apply pack_fuel_chunks. Qed.
Lemma pack_inj a b : zlen a = zlen b -> ssz_pack a = ssz_pack b -> a = b.
Proof.
  intros El E. apply (f_equal (@concat Z)) in E. unfold ssz_pack in E.
  rewrite !pack_fuel_concat in E by lia. apply app_inj32 in E; tauto.
Qed.
Lemma pack_root_inj a b L : zlen a = zlen b -> (zlen a + 31) / 32 <= L ->
  merkle_root H (ssz_pack a) L = merkle_root H (ssz_pack b) L -> a = b \/ coll.
Proof.
  intros El HL E. apply merkle_root_inj in E; try apply pack_len.
  - destruct E; [left; now apply pack_inj|now right].
  - now rewrite !pack_zlen, El.
  - now rewrite pack_zlen.
Qed.

Lemma bits_inj l m : zlen l = zlen m -> bits_val l = bits_val m -> l = m.
Proof.
  intros El E. rewrite <- (bits_of_val l), <- (bits_of_val m), E. f_equal. unfold zlen in El. lia.
Qed.
Lemma le_bytes_inj n x y : 0 <= x < 256 ^ Z.of_nat n -> 0 <= y < 256 ^ Z.of_nat n ->
  le_bytes n x = le_bytes n y -> x = y.
Proof.
  intros Hx Hy E. apply (f_equal le_val) in E. rewrite !le_val_bytes in E.
  rewrite !Z.mod_small in E by lia. exact E.
Qed.
Lemma bits_bytes_inj l m k : zlen l = zlen m -> zlen l <= 8 * Z.of_nat k ->
  le_bytes k (bits_val l) = le_bytes k (bits_val m) -> l = m.
Proof.
  intros El Hk E. apply le_bytes_inj in E; [now apply bits_inj| |].
  - rewrite pow2_8. pose proof (bits_val_bound l).
    assert (2 ^ zlen l <= 2 ^ (8 * Z.of_nat k)) by (apply Z.pow_le_mono_r; lia). lia.
  - rewrite pow2_8. pose proof (bits_val_bound m).
    assert (2 ^ zlen m <= 2 ^ (8 * Z.of_nat k)) by (apply Z.pow_le_mono_r; lia). lia.
Qed.

Lemma len_mix_inj r1 r2 n1 n2 : zlen r1 = 32 -> zlen r2 = 32 -> 0 <= n1 <= 2 ^ 42 -> 0 <= n2 <= 2 ^ 42 ->
  mix_in_length H r1 n1 = mix_in_length H r2 n2 -> (r1 = r2 /\ n1 = n2) \/ coll.
Proof.
  intros H1 H2 Hn1 Hn2 E. unfold mix_in_length in E.
  assert (L : forall x, zlen (le_bytes 32 x) = 32) by (intros; unfold zlen; now rewrite le_bytes_length).
  apply H_inj in E; auto. destruct E as [[E1 E2]|C]; [|now right]. left. split; auto.
  apply le_bytes_inj in E2; auto; split; try lia;
    (apply Z.le_lt_trans with (2 ^ 42); [lia|]; reflexivity).
Qed.

(** Basic elements. *)
Lemma basic_len s v : is_basic s = true -> has_type s v -> zlen (ssz_serialize s v) = basic_size s.
Proof. destruct s, v; cbn; try discriminate; try tauto; reflexivity. Qed.
Lemma basic_inj s v w : is_basic s = true -> has_type s v -> has_type s w ->
  ssz_serialize s v = ssz_serialize s w -> v = w.
Proof.
  destruct s, v, w; cbn [is_basic has_type ssz_serialize]; try discriminate; try tauto; intros _ Hv Hw E.
  - f_equal. apply (le_bytes_inj 8); auto.
  - f_equal. destruct b, b0; auto; discriminate.
Qed.
Lemma basic_concat_len s l : is_basic s = true -> Forall (has_type s) l ->
  zlen (concat (map (ssz_serialize s) l)) = zlen l * basic_size s.
Proof.
  intros Hb. induction 1 as [|v l Hv _ IH]; [reflexivity|]. cbn [map concat].
  rewrite zlen_app, zlen_cons, IH, basic_len by auto. lia.
Qed.
Lemma basic_concat_inj s l : is_basic s = true -> forall m, Forall (has_type s) l -> Forall (has_type s) m ->
  zlen l = zlen m -> concat (map (ssz_serialize s) l) = concat (map (ssz_serialize s) m) -> l = m.
Proof.
  intros Hb m Hl. revert m. induction Hl as [|v l Hv _ IH]; intros m Hm El E.
  - symmetry. apply zlen_0. rewrite <- El. reflexivity.
  - destruct m as [|w m]; [rewrite zlen_cons in El; change (zlen []) with 0 in El; pose proof (zlen_nonneg l); lia|].
    inversion Hm; subst. cbn [map concat] in E. apply app_inj32 in E as [E1 E2].
    + f_equal; [now apply (basic_inj s)|]. apply IH; auto. rewrite !zlen_cons in El. lia.
    + now rewrite !basic_len.
Qed.

Lemma basic_size_pos s : 1 <= basic_size s <= 8.
Proof. destruct s; cbn; lia. Qed.

(** Container roots. *)
Definition croots (fs : list (string * sty)) (l : list val) : list (list Z) :=
  (fix go (fs : list (string * sty)) (l : list val) : list (list Z) :=
           match fs, l with
           | (_, t') :: fs', v' :: l' => ssz_hash_tree_root H t' v' :: go fs' l'
           | _, _ => []
           end) fs l.

Lemma root_len s : proper s = true -> forall v, has_type s v -> zlen (ssz_hash_tree_root H s v) = 32.
Proof.
  assert (M : forall r n, zlen r = 32 -> zlen (mix_in_length H r n) = 32).
  { intros r n Hr. apply Hlen. rewrite zlen_app, Hr. unfold zlen. now rewrite le_bytes_length. }
  induction s using sty_ind'; intros Hp v Hv; destruct v; cbn [has_type] in Hv; try contradiction;
    cbn [ssz_hash_tree_root proper] in *; rewrite ?andb_true_iff in *;
    try (apply M); try (apply merkle_root_len, pack_len).
  - destruct Hp as [Hp _], Hv as [_ Hv]. destruct (is_basic s); apply merkle_root_len; [apply pack_len|].
    apply Forall_forall. intros c Hc. apply in_map_iff in Hc as (v & <- & Hi). rewrite Forall_forall in Hv. auto.
  - destruct Hp as [Hp _], Hv as [_ Hv]. destruct (is_basic s); apply merkle_root_len; [apply pack_len|].
    apply Forall_forall. intros c Hc. apply in_map_iff in Hc as (v & <- & Hi). rewrite Forall_forall in Hv. auto.
  - apply merkle_root_len. destruct Hp as [Hp _]. clear - H0 Hp Hv. revert l Hv Hp.
    induction H0 as [|[nm s] fs Hs _ IH]; intros [|v l] Hv Hp; try constructor.
    + cbn [forallb snd] in *. apply andb_true_iff in Hp as [? ?]. destruct Hv. auto.
    + cbn [forallb snd] in *. apply andb_true_iff in Hp as [? ?]. destruct Hv. auto.
Qed.

Lemma roots_inj s l : forall m,
  Forall (fun v => forall w, has_type s w -> ssz_hash_tree_root H s v = ssz_hash_tree_root H s w -> v = w \/ coll) l ->
  Forall (has_type s) m ->
  map (ssz_hash_tree_root H s) l = map (ssz_hash_tree_root H s) m -> l = m \/ coll.
Proof.
  induction l as [|v l IH]; intros [|w m] Hl Hm E; try discriminate; [now left|].
  inversion Hl; inversion Hm; subst. cbn [map] in E. injection E as E1 E2.
  destruct (H2 w H6 E1) as [->|]; [|now right]. destruct (IH m H3 H7 E2) as [->|]; [now left|now right].
Qed.

Theorem root_binding s : proper s = true -> forall v w, has_type s v -> has_type s w ->
  ssz_hash_tree_root H s v = ssz_hash_tree_root H s w -> v = w \/ coll.
Proof.
  induction s using sty_ind'; intros Hp v w Hv Hw E; destruct v; cbn [has_type] in Hv; try contradiction;
    destruct w; cbn [has_type] in Hw; try contradiction; cbn [ssz_hash_tree_root proper] in *; rewrite ?andb_true_iff in *.
  - apply pack_root_inj in E; [|now rewrite !(basic_len SUint64)|rewrite (basic_len SUint64) by auto; reflexivity].
    destruct E as [E|]; [left|now right]. now apply (basic_inj SUint64).
  - apply pack_root_inj in E; [|now rewrite !(basic_len SBoolean)|rewrite (basic_len SBoolean) by auto; reflexivity].
    destruct E as [E|]; [left|now right]. now apply (basic_inj SBoolean).
  - apply pack_root_inj in E; [|lia..]. destruct E as [->|]; auto.
  - apply pack_root_inj in E; [|unfold zlen; rewrite !le_bytes_length; lia..].
    destruct E as [E|]; [left|now right]. f_equal. eapply bits_bytes_inj; [lia| |exact E]. lia.
  - pose proof (zlen_nonneg l). pose proof (zlen_nonneg l0).
    apply len_mix_inj in E; [|apply merkle_root_len, pack_len|apply merkle_root_len, pack_len|lia|lia].
    destruct E as [[E El]|]; [|now right]. rewrite <- El in E.
    apply pack_root_inj in E; [|rewrite !zlen_le_bytes; lia..].
    destruct E as [E|]; [left|now right]. f_equal. eapply bits_bytes_inj; [lia| |exact E]. lia.
  - destruct Hp as [Hp Hn], Hv as [Hl Hv], Hw as [Hl' Hw]. destruct (is_basic s) eqn:Eb.
    + apply pack_root_inj in E; [|rewrite !basic_concat_len by auto; congruence|rewrite !basic_concat_len by auto; now rewrite Hl].
      destruct E as [E|]; [left|now right]. f_equal. apply (basic_concat_inj s); auto. lia.
    + apply merkle_root_inj in E.
      * destruct E as [E|]; [|now right]. apply roots_inj in E; auto.
        -- destruct E as [->|]; auto.
        -- rewrite Forall_forall in *. intros v Hi u Hu Eu. apply (IHs Hp); auto.
      * apply Forall_forall. intros c Hc. apply in_map_iff in Hc as (v & <- & Hi). rewrite Forall_forall in Hv. apply root_len; auto.
      * apply Forall_forall. intros c Hc. apply in_map_iff in Hc as (v & <- & Hi). rewrite Forall_forall in Hw. apply root_len; auto.
      * rewrite !zlen_map. lia.
      * rewrite !zlen_map. lia.
  - destruct Hp as [Hp Hn], Hv as [Hl Hv], Hw as [Hl' Hw].
    pose proof (zlen_nonneg l). pose proof (zlen_nonneg l0).
    assert (RL : forall l, Forall (has_type s) l -> Forall (fun c => zlen c = 32) (map (ssz_hash_tree_root H s) l)).
    { intros l1 Hl1. apply Forall_forall. intros c Hc. apply in_map_iff in Hc as (v & <- & Hi).
      rewrite Forall_forall in Hl1. apply root_len; auto. }
    apply len_mix_inj in E; [|destruct (is_basic s); apply merkle_root_len; auto using pack_len..|lia|lia].
    destruct E as [[E El]|]; [|now right]. destruct (is_basic s) eqn:Eb.
    + pose proof (basic_size_pos s).
      apply pack_root_inj in E; [|rewrite !basic_concat_len by auto; nia..].
      destruct E as [E|]; [left|now right]. f_equal. apply (basic_concat_inj s); auto.
    + apply merkle_root_inj in E; auto; rewrite ?zlen_map; try lia.
      destruct E as [E|]; [|now right]. apply roots_inj in E; auto.
      * destruct E as [->|]; auto.
      * rewrite Forall_forall in *. intros v Hi u Hu Eu. apply (IHs Hp); auto.
  - fold (croots fs l) in E. fold (croots fs l0) in E. destruct Hp as [Hp Hn].
    assert (G : forall fs, Forall (fun f : string * sty =>
       proper (snd f) = true -> forall v w : val, has_type (snd f) v -> has_type (snd f) w ->
        ssz_hash_tree_root H (snd f) v = ssz_hash_tree_root H (snd f) w -> v = w \/ coll) fs ->
      forallb (fun f => proper (snd f)) fs = true -> forall l m, has_type (SContainer fs) (VSeq l) -> has_type (SContainer fs) (VSeq m) ->
      zlen (croots fs l) = zlen fs /\ Forall (fun c => zlen c = 32) (croots fs l) /\ (croots fs l = croots fs m -> l = m \/ coll)).
    { clear - Hlen. induction 1 as [|[nm s] fs Hs _ IH]; intros Hp l m Hl Hm; destruct l as [|v l], m as [|w m]; cbn [has_type] in Hl, Hm; try contradiction.
      - repeat split; auto. constructor.
      - cbn [forallb snd] in *. apply andb_true_iff in Hp as [Hp1 Hp2]. destruct Hl as [Hv Hl], Hm as [Hw Hm].
        destruct (IH Hp2 l m Hl Hm) as (I1 & I2 & I3). cbn [croots]. fold (croots fs l). fold (croots fs m).
        split; [rewrite !zlen_cons; lia|]. split; [constructor; auto; apply root_len; auto|].
        intros E. injection E as E1 E2. destruct (Hs Hp1 v w Hv Hw E1) as [->|]; [|now right].
        destruct (I3 E2) as [->|]; [now left|now right]. }
    destruct (G fs H0 Hp l l0 Hv Hw) as (G1 & G2 & G3). destruct (G fs H0 Hp l0 l Hw Hv) as (G1' & G2' & _).
    rewrite G1, G1' in E. apply merkle_root_inj in E; auto; try lia.
    destruct E as [E|]; [|now right]. destruct (G3 E) as [->|]; auto.
Qed.
End Bind.
