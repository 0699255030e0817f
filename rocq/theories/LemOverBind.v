(** Roots bind values beyond the limits too. *)
From Coq Require Import ZArith String List Bool Lia.
From Coq Require Import ZifyBool ZifyNat.
From Verif Require Import Base SpecSSZ SpecTree ModelSSZ SpecObj LemBase LemBits LemTy LemMatch LemRoot LemMerkle LemOver LemBind
  LemFit LemThmFit.
Import ListNotations.
Open Scope list_scope.
Open Scope Z_scope.
Ltac Zify.zify_post_hook ::= Z.div_mod_to_equations.

(** Within the limits every tree fits, and the root is that of the specification. *)
Lemma fits_max n limit : n <= limit -> tree_fits (Z.max 1 n) limit = true.
Proof.
  intros Hl. unfold tree_fits. destruct (Z.le_gt_cases n 1).
  - replace (Z.max 1 n) with 1 by lia. change (Z.log2_up 1) with 0. pose proof (Z.log2_up_nonneg limit).
    replace (_ <=? _) with true by lia. reflexivity.
  - replace (Z.max 1 n) with n by lia. pose proof (Z.log2_up_le_mono n limit Hl). replace (_ <=? _) with true by lia. reflexivity.
Qed.
Lemma lenient_within H s : forall v, has_type s v ->
  trees_fit s v = true /\ lenient_root H s v = ssz_hash_tree_root H s v.
Proof.
  assert (FM : forall s l, Forall (fun v => trees_fit s v = true /\ lenient_root H s v = ssz_hash_tree_root H s v) l ->
    forallb (trees_fit s) l = true /\ map (lenient_root H s) l = map (ssz_hash_tree_root H s) l).
  { clear s. intros s. induction 1 as [|v l [E1 E2] _ [I1 I2]]; [split; reflexivity|]. cbn [forallb map].
    rewrite E1, E2, I1, I2. split; reflexivity. }
  induction s using sty_ind'; intros v Hv; destruct v; cbn [has_type] in Hv; try contradiction; try (split; reflexivity).
  - cbn [trees_fit lenient_root ssz_hash_tree_root]. pose proof (zlen_nonneg l). split; [apply fits_max; lia|].
    do 2 f_equal. lia.
  - destruct Hv as [Hl Hv]. destruct (FM s l) as [F1 F2].
    { rewrite Forall_forall in *. auto. }
    cbn [trees_fit lenient_root ssz_hash_tree_root]. split; [exact F1|]. destruct (is_basic s); [reflexivity|]. now rewrite F2.
  - destruct Hv as [Hl Hv]. destruct (FM s l) as [F1 F2].
    { rewrite Forall_forall in *. auto. }
    cbn [trees_fit lenient_root ssz_hash_tree_root]. pose proof (basic_size_pos s). pose proof (zlen_nonneg l).
    assert (X : (zlen l * basic_size s + 31) / 32 <= (n * basic_size s + 31) / 32).
    { apply Z.div_le_mono; [lia|]. nia. }
    destruct (is_basic s).
    + split; [apply fits_max; lia|]. do 2 f_equal. lia.
    + rewrite F1, F2. split; [apply fits_max; lia|]. do 2 f_equal. lia.
  - assert (G : trees_fit (SContainer fs) (VSeq l) = true /\
      (fix go (fs : list (string * sty)) (l : list val) : list (list Z) :=
           match fs, l with
           | (_, s') :: fs', v' :: l' => lenient_root H s' v' :: go fs' l'
           | _, _ => []
           end) fs l =
      (fix go (fs : list (string * sty)) (l : list val) : list (list Z) :=
           match fs, l with
           | (_, s') :: fs', v' :: l' => ssz_hash_tree_root H s' v' :: go fs' l'
           | _, _ => []
           end) fs l).
    { revert l Hv. induction H0 as [|[nm s] fs Hs _ IH]; intros [|v l] Hv; try (split; reflexivity).
      destruct Hv as [Hv Hl]. cbn [snd] in Hs. destruct (Hs v Hv) as [S1 S2]. destruct (IH l Hl) as [I1 I2].
      cbn [trees_fit] in *. rewrite S1, S2, I2. split; [exact I1|reflexivity]. }
    destruct G as [G1 G2]. split; [exact G1|]. cbn [lenient_root ssz_hash_tree_root]. now rewrite G2.
Qed.

Section Bind.
Variable H : list Z -> list Z.
Hypothesis Hlen : forall x, zlen x = 64 -> zlen (H x) = 32.
Notation coll := (coll H).

Lemma basic_shape s v : is_basic s = true -> shape s v -> has_type s v.
Proof. destruct s, v; cbn; try discriminate; tauto. Qed.
Lemma basic_shapes s l : is_basic s = true -> Forall (shape s) l -> Forall (has_type s) l.
Proof. intros Hb. apply Forall_impl. intros v. now apply basic_shape. Qed.

Definition lroots (fs : list (string * sty)) (l : list val) : list (list Z) :=
  (fix go (fs : list (string * sty)) (l : list val) : list (list Z) :=
           match fs, l with
           | (_, s') :: fs', v' :: l' => lenient_root H s' v' :: go fs' l'
           | _, _ => []
           end) fs l.

Lemma lenient_len s : proper s = true -> forall v, shape s v -> zlen (lenient_root H s v) = 32.
Proof.
  assert (M : forall r n, zlen r = 32 -> zlen (mix_in_length H r n) = 32).
  { intros r n Hr. apply Hlen. rewrite zlen_app, Hr. unfold zlen. now rewrite le_bytes_length. }
  induction s using sty_ind'; intros Hp v Hv; destruct v; cbn [shape] in Hv; try contradiction;
    cbn [lenient_root proper] in *; rewrite ?andb_true_iff in *;
    try (cbn [ssz_hash_tree_root]; apply (merkle_root_len H Hlen), pack_len);
    try (apply M); try (apply (merkle_root_len H Hlen), pack_len).
  - destruct Hp as [Hp _], Hv as [_ Hv]. destruct (is_basic s) eqn:Eb; cbn [ssz_hash_tree_root]; rewrite ?Eb;
      apply (merkle_root_len H Hlen); [apply pack_len|].
    apply Forall_forall. intros c Hc. apply in_map_iff in Hc as (v & <- & Hi). rewrite Forall_forall in Hv. auto.
  - destruct Hp as [Hp _]. destruct (is_basic s); apply (merkle_root_len H Hlen); [apply pack_len|].
    apply Forall_forall. intros c Hc. apply in_map_iff in Hc as (v & <- & Hi). rewrite Forall_forall in Hv. auto.
  - apply (merkle_root_len H Hlen). destruct Hp as [Hp _]. clear - H0 Hp Hv. revert l Hv Hp.
    induction H0 as [|[nm s] fs Hs _ IH]; intros [|v l] Hv Hp; try constructor.
    + cbn [forallb snd] in *. apply andb_true_iff in Hp as [? ?]. destruct Hv. auto.
    + cbn [forallb snd] in *. apply andb_true_iff in Hp as [? ?]. destruct Hv. auto.
Qed.

Lemma lenient_map_inj s l : forall m,
  Forall (fun v => forall w, shape s w -> breadth w <= 2 ^ 42 -> lenient_root H s v = lenient_root H s w -> v = w \/ coll) l ->
  Forall (shape s) m -> Forall (fun w => breadth w <= 2 ^ 42) m ->
  map (lenient_root H s) l = map (lenient_root H s) m -> l = m \/ coll.
Proof.
  induction l as [|v l IH]; intros [|w m] Hl Hm Hb E; try discriminate; [now left|].
  cbn [map] in E. injection E as E1 E2.
  destruct (Forall_inv Hl w (Forall_inv Hm) (Forall_inv Hb) E1) as [->|]; [|now right].
  destruct (IH m (Forall_inv_tail Hl) (Forall_inv_tail Hm) (Forall_inv_tail Hb) E2) as [->|]; [now left|now right].
Qed.

Theorem lenient_binding s : proper s = true -> forall v w, shape s v -> shape s w ->
  breadth v <= 2 ^ 42 -> breadth w <= 2 ^ 42 ->
  lenient_root H s v = lenient_root H s w -> v = w \/ coll.
Proof.
  assert (RL : forall s, proper s = true -> forall l, Forall (shape s) l -> Forall (fun c => zlen c = 32) (map (lenient_root H s) l)).
  { clear s. intros s Hp l1 Hl1. apply Forall_forall. intros c Hc. apply in_map_iff in Hc as (v & <- & Hi).
    rewrite Forall_forall in Hl1. apply lenient_len; auto. }
  assert (ML := merkle_root_len H Hlen).
  induction s using sty_ind'; intros Hp v w Hv Hw Bv Bw E; destruct v; cbn [shape] in Hv; try contradiction;
    destruct w; cbn [shape] in Hw; try contradiction;
    try (cbn [lenient_root] in E; apply (root_binding H Hlen) in E; auto; fail);
    cbn [lenient_root proper] in *; rewrite ?andb_true_iff in *.
  - pose proof (zlen_nonneg l). pose proof (zlen_nonneg l0). cbn [breadth] in Bv, Bw.
    apply (len_mix_inj H Hlen) in E; [|apply ML, pack_len|apply ML, pack_len|lia|lia].
    destruct E as [[E El]|]; [|now right]. rewrite <- El in E.
    apply (pack_root_inj H Hlen) in E; [|rewrite !zlen_le_bytes; lia..].
    destruct E as [E|]; [left|now right]. f_equal. eapply bits_bytes_inj; [lia| |exact E]. lia.
  - destruct Hp as [Hp Hn], Hv as [Hl Hv], Hw as [Hl' Hw].
    apply breadth_in in Bv as [_ Bv]. apply breadth_in in Bw as [_ Bw]. destruct (is_basic s) eqn:Eb.
    + cbn [ssz_hash_tree_root] in E. rewrite Eb in E.
      pose proof (basic_shapes s l Eb Hv) as Hv'. pose proof (basic_shapes s l0 Eb Hw) as Hw'.
      apply (pack_root_inj H Hlen) in E; [|rewrite !basic_concat_len by auto; congruence|rewrite !basic_concat_len by auto; now rewrite Hl].
      destruct E as [E|]; [left|now right]. f_equal. apply (basic_concat_inj s); auto. lia.
    + apply (merkle_root_inj H Hlen) in E; auto; rewrite ?zlen_map; try lia.
      destruct E as [E|]; [|now right]. apply lenient_map_inj in E; auto.
      * destruct E as [->|]; auto.
      * rewrite Forall_forall in *. intros v Hi u Hu Bu Eu. apply (IHs Hp); auto.
  - destruct Hp as [Hp Hn].
    pose proof (zlen_nonneg l). pose proof (zlen_nonneg l0).
    apply breadth_in in Bv as [Zv Bv]. apply breadth_in in Bw as [Zw Bw].
    apply (len_mix_inj H Hlen) in E; [|destruct (is_basic s); apply ML; auto using pack_len..|lia|lia].
    destruct E as [[E El]|]; [|now right]. rewrite <- El in E. destruct (is_basic s) eqn:Eb.
    + pose proof (basic_size_pos s).
      pose proof (basic_shapes s l Eb Hv) as Hv'. pose proof (basic_shapes s l0 Eb Hw) as Hw'.
      apply (pack_root_inj H Hlen) in E; [|rewrite !basic_concat_len by auto; nia|rewrite basic_concat_len by auto; lia].
      destruct E as [E|]; [left|now right]. f_equal. apply (basic_concat_inj s); auto.
    + apply (merkle_root_inj H Hlen) in E; auto; rewrite ?zlen_map; try lia.
      destruct E as [E|]; [|now right]. apply lenient_map_inj in E; auto.
      * destruct E as [->|]; auto.
      * rewrite Forall_forall in *. intros v Hi u Hu Bu Eu. apply (IHs Hp); auto.
  - fold (lroots fs l) in E. fold (lroots fs l0) in E. destruct Hp as [Hp Hn].
    apply breadth_in in Bv as [_ Bv]. apply breadth_in in Bw as [_ Bw].
    assert (G : forall fs, Forall (fun f : string * sty =>
       proper (snd f) = true -> forall v w : val, shape (snd f) v -> shape (snd f) w -> breadth v <= 2 ^ 42 -> breadth w <= 2 ^ 42 ->
        lenient_root H (snd f) v = lenient_root H (snd f) w -> v = w \/ coll) fs ->
      forallb (fun f => proper (snd f)) fs = true -> forall l m, shape (SContainer fs) (VSeq l) -> shape (SContainer fs) (VSeq m) ->
      Forall (fun w => breadth w <= 2 ^ 42) l -> Forall (fun w => breadth w <= 2 ^ 42) m ->
      zlen (lroots fs l) = zlen fs /\ Forall (fun c => zlen c = 32) (lroots fs l) /\ (lroots fs l = lroots fs m -> l = m \/ coll)).
    { clear - Hlen. induction 1 as [|[nm s] fs Hs _ IH]; intros Hp l m Hl Hm Bl Bm; destruct l as [|v l], m as [|w m]; cbn [shape] in Hl, Hm; try contradiction.
      - repeat split; auto. constructor.
      - cbn [forallb snd] in *. apply andb_true_iff in Hp as [Hp1 Hp2]. destruct Hl as [Hv Hl], Hm as [Hw Hm].
        destruct (IH Hp2 l m Hl Hm (Forall_inv_tail Bl) (Forall_inv_tail Bm)) as (I1 & I2 & I3). cbn [lroots]. fold (lroots fs l). fold (lroots fs m).
        split; [rewrite !zlen_cons; lia|]. split; [constructor; auto; apply lenient_len; auto|].
        intros E. injection E as E1 E2. destruct (Hs Hp1 v w Hv Hw (Forall_inv Bl) (Forall_inv Bm) E1) as [->|]; [|now right].
        destruct (I3 E2) as [->|]; [now left|now right]. }
    destruct (G fs H0 Hp l l0 Hv Hw Bv Bw) as (G1 & G2 & G3). destruct (G fs H0 Hp l0 l Hw Hv Bw Bv) as (G1' & G2' & _).
    rewrite G1, G1' in E. apply (merkle_root_inj H Hlen) in E; auto; try lia.
    destruct E as [E|]; [|now right]. destruct (G3 E) as [->|]; auto.
Qed.
End Bind.
