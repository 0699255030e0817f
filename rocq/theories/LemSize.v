(** Sizes of encodings. *)
From Coq Require Import ZArith String List Bool Lia ZifyBool ZifyNat.
From Verif Require Import Base SpecSSZ ModelSSZ ModelEth SpecObj SpecPhase0 SpecClasses SpecSize LemBase LemTy LemSer LemMatch
  LemThmCodec LemBind.
Import ListNotations.
Open Scope list_scope.
Open Scope Z_scope.

Lemma series_len es : zlen (ssz_series es) = sumZ (map (fun e : bool * list Z => (if fst e then 4 else 0) + zlen (snd e)) es).
Proof.
  rewrite ssz_series_fx, zlen_app, zlen_fx. induction es as [|[b s] es IH]; [reflexivity|].
  rewrite fixed_len_cons, vr_cons, zlen_app. cbn [map sumZ fold_right fst snd]. unfold sumZ in IH. destruct b.
  - lia.
  - change (zlen (@nil Z)) with 0. lia.
Qed.
Lemma sum_repeat (f : val -> Z) lo hi l : Forall (fun v => lo <= f v <= hi) l ->
  zlen l * lo <= sumZ (map f l) <= zlen l * hi.
Proof.
  induction 1 as [|v l Hv _ IH]; [unfold zlen; cbn; lia|]. rewrite zlen_cons. cbn [map sumZ fold_right].
  unfold sumZ in IH. nia.
Qed.
(** Types without negative sizes *)
Fixpoint natural (s : sty) : bool :=
  match s with
  | SUint64 | SBoolean => true
  | SByteVector n | SBitvector n | SBitlist n => 0 <=? n
  | SVector s' n | SList s' n => (0 <=? n) && natural s'
  | SContainer fs => forallb (fun f => natural (snd f)) fs
  end.
Lemma slot_size_pos s b : 0 <= b -> 0 <= slot_size s b.
Proof. unfold slot_size. destruct (is_variable s); lia. Qed.
Lemma max_pos s : natural s = true -> 0 <= max_size s.
Proof.
  induction s using sty_ind'; cbn [natural max_size].
  - lia.
  - lia.
  - lia.
  - intros Hn. apply Z.div_pos; lia.
  - intros Hn. pose proof (Z.div_pos n 8). lia.
  - rewrite andb_true_iff. intros [Hn Hs]. pose proof (slot_size_pos s (max_size s) (IHs Hs)). nia.
  - rewrite andb_true_iff. intros [Hn Hs]. pose proof (slot_size_pos s (max_size s) (IHs Hs)). nia.
  - induction H as [|f fs Hf _ IH]; cbn [forallb fold_right]; [lia|]. rewrite andb_true_iff. intros [Hn Hs].
    pose proof (slot_size_pos (snd f) _ (Hf Hn)). specialize (IH Hs). lia.
Qed.
Lemma le_len n x : zlen (le_bytes n x) = Z.of_nat n.
Proof. unfold zlen. now rewrite le_bytes_length. Qed.
Lemma size_bounds s : natural s = true -> forall v, has_type s v -> min_size s <= zlen (ssz_serialize s v) <= max_size s.
Proof.
  induction s using sty_ind'; intros Hn v Hv; destruct v; cbn [has_type] in Hv; try contradiction;
    cbn [natural min_size max_size ssz_serialize] in *.
  - rewrite le_len. lia.
  - unfold zlen. cbn [length]. lia.
  - lia.
  - rewrite le_len, Z2Nat.id by (apply Z.div_pos; lia). lia.
  - rewrite le_len. pose proof (zlen_nonneg l). pose proof (Z.div_pos (zlen l) 8). rewrite Z2Nat.id by lia.
    pose proof (Z.div_le_mono (zlen l) n 8). lia.
  - apply andb_true_iff in Hn. destruct Hn as [Hn Hs]. destruct Hv as [<- Hv]. rewrite series_len, map_map.
    apply (sum_repeat (fun v => _)). apply Forall_forall. intros v Hi. cbn [fst snd]. unfold slot_size.
    rewrite Forall_forall in Hv. specialize (IHs Hs v (Hv v Hi)). lia.
  - apply andb_true_iff in Hn. destruct Hn as [Hn Hs]. destruct Hv as [Hl Hv]. rewrite series_len, map_map.
    assert (B : zlen l * 0 <= sumZ (map (fun v => (if is_variable s then 4 else 0) + zlen (ssz_serialize s v)) l)
                <= zlen l * slot_size s (max_size s)).
    { apply (sum_repeat (fun v => _)). apply Forall_forall. intros v Hi. unfold slot_size.
      rewrite Forall_forall in Hv. specialize (IHs Hs v (Hv v Hi)). pose proof (zlen_nonneg (ssz_serialize s v)).
      destruct (is_variable s); lia. }
    pose proof (slot_size_pos s (max_size s) (max_pos s Hs)). cbn [fst snd]. nia.
  - rewrite series_len. revert l Hv. induction H as [|[name s] fs Hf _ IH]; intros [|v l] Hv; try contradiction; [cbn; lia|].
    destruct Hv as [Hv Hr]. cbn [forallb snd] in Hn. apply andb_true_iff in Hn. destruct Hn as [Hn Hs].
    specialize (IH Hs l Hr). specialize (Hf Hn v Hv). cbn [map fold_right snd fst sumZ] in *. unfold slot_size, sumZ in *. lia.
Qed.
Lemma series_repeat (f : val -> list Z) b v n :
  zlen (ssz_series (map (fun e => (b, f e)) (repeat v n))) = Z.of_nat n * ((if b : bool then 4 else 0) + zlen (f v)).
Proof.
  rewrite series_len. induction n as [|n IH]; [reflexivity|]. cbn [repeat map sumZ fold_right fst snd]. unfold sumZ in IH. lia.
Qed.
Lemma Forall_repeat {A} (P : A -> Prop) a n : P a -> Forall P (repeat a n).
Proof. intros Ha. induction n; constructor; auto. Qed.
Lemma size_attained (big : bool) s : natural s = true ->
  exists v, has_type s v /\ zlen (ssz_serialize s v) = if big then max_size s else min_size s.
Proof.
  induction s using sty_ind'; intros Hn; cbn [natural min_size max_size] in *.
  - exists (VNum 0). split; [cbn; lia|]. destruct big; reflexivity.
  - exists (VBool false). split; [exact I|]. destruct big; reflexivity.
  - exists (VBytes (repeat 0 (Z.to_nat n))). cbn [has_type ssz_serialize]. rewrite zlen_repeat.
    split; [split; [lia|apply Forall_repeat; unfold byte_ok; lia]|]. destruct big; lia.
  - exists (VBits (repeat false (Z.to_nat n))). cbn [has_type ssz_serialize]. rewrite zlen_repeat, le_len.
    pose proof (Z.div_pos (n + 7) 8). split; [lia|]. destruct big; lia.
  - exists (VBits (if big then repeat false (Z.to_nat n) else [])). cbn [has_type ssz_serialize]. rewrite le_len.
    destruct big.
    + rewrite zlen_repeat, Z2Nat.id by lia. split; [lia|]. pose proof (Z.div_pos n 8). lia.
    + split; [change (zlen (@nil bool)) with 0; lia|]. reflexivity.
  - apply andb_true_iff in Hn. destruct Hn as [Hn Hs]. destruct (IHs Hs) as (v & Hv & E).
    exists (VSeq (repeat v (Z.to_nat n))). cbn [has_type ssz_serialize]. rewrite zlen_repeat, series_repeat, E.
    split; [split; [lia|now apply Forall_repeat]|]. unfold slot_size. rewrite Z2Nat.id by lia. destruct big; reflexivity.
  - apply andb_true_iff in Hn. destruct Hn as [Hn Hs]. destruct (IHs Hs) as (v & Hv & E).
    destruct big.
    + exists (VSeq (repeat v (Z.to_nat n))). cbn [has_type ssz_serialize]. rewrite zlen_repeat, series_repeat, E.
      split; [split; [lia|now apply Forall_repeat]|]. unfold slot_size. rewrite Z2Nat.id by lia. reflexivity.
    + exists (VSeq []). split; [cbn; split; [lia|constructor]|]. reflexivity.
  - assert (E : exists l, has_type (SContainer fs) (VSeq l) /\
      zlen (ssz_serialize (SContainer fs) (VSeq l)) = if big then max_size (SContainer fs) else min_size (SContainer fs)).
    { cbn [ssz_serialize]. setoid_rewrite series_len.
      induction H as [|[name s] fs Hf _ IH]; [exists []; split; [exact I|destruct big; reflexivity]|].
      cbn [forallb snd] in Hn. apply andb_true_iff in Hn. destruct Hn as [Hn Hs].
      destruct (Hf Hn) as (v & Hv & Ev). destruct (IH Hs) as (l & Hl & El).
      exists (v :: l). split; [split; [exact Hv|exact Hl]|]. cbn [map sumZ fold_right fst snd].
      cbn [max_size min_size fold_right snd] in *. unfold sumZ, slot_size in *. rewrite El, Ev. destruct big; reflexivity. }
    destruct E as (l & Hl & El). exists (VSeq l). auto.
Qed.
