(** The longest sequence in a value is bounded by the size of its encoding. *)
From Coq Require Import ZArith String List Bool Lia.
From Coq Require Import ZifyBool ZifyNat.
From Verif Require Import Base SpecSSZ SpecSize SpecObj SpecTree SpecClasses SpecWire ModelSSZ ModelHashTree ModelTree LemBase LemBits LemTy LemSer LemMatch LemWire LemUndef LemBind LemSize LemCodec LemThmCodec LemFit LemThmFit LemGrow LemThmTree.
Import ListNotations.
Open Scope list_scope.
Open Scope Z_scope.

Lemma breadth_le l N : zlen l <= N -> Forall (fun v => breadth v <= N) l -> breadth (VSeq l) <= N.
Proof.
  cbn [breadth]. generalize (zlen l). intros z Z F. induction F as [|v l H _ IH]; cbn [map fold_right]; lia.
Qed.
(** [es] has the encodings of the elements *)
Lemma breadth_sum es l : Forall2 (fun e v => 1 <= taken e /\ breadth v <= 8 * zlen (snd e)) es l ->
  breadth (VSeq l) <= 8 * sumZ (map taken es).
Proof.
  intros F. assert (G : zlen l <= sumZ (map taken es) /\ Forall (fun v => breadth v <= 8 * sumZ (map taken es)) l).
  { induction F as [|[b e] v es l [A B] _ [I1 I2]]; [split; [cbn; lia|constructor]|]. pose proof (zlen_nonneg l).
    cbn [map]. rewrite sumZ_cons. unfold taken in A at 1. unfold taken at 1 3. cbn [fst snd] in *. split; [unfold zlen in *; cbn [length]; destruct b; lia|].
    constructor; [destruct b; lia|]. eapply Forall_impl; [|exact I2]. cbn beta. intros w X. destruct b; lia. }
  destruct G as [G1 G2]. pose proof (zlen_nonneg l). apply breadth_le; [lia|exact G2].
Qed.
Lemma taken_pos s v : solid s = true -> shape s v -> 1 <= taken (is_variable s, ssz_serialize s v).
Proof.
  intros S V. destruct (solid_size s S) as [A B]. unfold taken. cbn [fst snd]. destruct (is_variable s) eqn:E.
  - pose proof (zlen_nonneg (ssz_serialize s v)). lia.
  - rewrite (shape_fixed s S E v V). lia.
Qed.
Lemma shape_breadth s : solid s = true -> forall v, shape s v -> breadth v <= 8 * zlen (ssz_serialize s v).
Proof.
  induction s using sty_ind'; intros S v Hv; destruct v; cbn [shape] in Hv; try contradiction; cbn [ssz_serialize solid breadth] in *.
  - rewrite zlen_le_bytes. lia.
  - change (zlen _) with 1. lia.
  - lia.
  - pose proof (Z.div_mod (n + 7) 8 ltac:(lia)). pose proof (Z.mod_pos_bound (n + 7) 8 ltac:(lia)). rewrite zlen_le_bytes, Z2Nat.id by lia. lia.
  - pose proof (zlen_nonneg l). pose proof (Z.div_mod (zlen l) 8 ltac:(lia)). pose proof (Z.mod_pos_bound (zlen l) 8 ltac:(lia)). rewrite zlen_le_bytes, Z2Nat.id by lia. lia.
  - rewrite !andb_true_iff in S. destruct S as [[_ S] _]. destruct Hv as [_ F]. rewrite series_len. apply breadth_sum.
    induction F as [|v l V _ IH]; constructor; [|exact IH]. cbn [snd]. split; [now apply taken_pos|now apply IHs].
  - rewrite series_len. apply breadth_sum. induction Hv as [|v l V _ IH]; constructor; [|exact IH]. cbn [snd]. split; [now apply taken_pos|now apply IHs].
  - rewrite andb_true_iff in S. destruct S as [S _]. rewrite series_len. apply breadth_sum. revert l Hv.
    induction H as [|[n s] fs Hs _ IH]; intros [|v l] Hv; try contradiction; [constructor|].
    cbn [forallb snd] in *. apply andb_true_iff in S. destruct S as [S1 S2], Hv as [V1 V2]. constructor; [|exact (IH S2 l V2)].
    cbn [snd]. split; [now apply taken_pos|now apply Hs].
Qed.
Lemma object_breadth t s v : container_pair t s -> wt t v -> breadth v <= 8 * zlen (serialize t v).
Proof.
  intros P V. destruct (pair_solid t s P) as (W & M & S). rewrite (matches_serialize t W s v M V).
  apply shape_breadth; [now apply (matches_solid t W)|now apply (matches_shape t)].
Qed.
Lemma accepted_breadth t s old b v : container_pair t s -> wt t old -> bytes_ok b -> deserialize t old b = Ok (true, v) -> breadth v <= 8 * zlen b.
Proof.
  intros P Ho Hb E. destruct (pair_solid t s P) as (W & M & _). pose proof (object_breadth t s v P (result_wt t old b true v W Ho Hb E)).
  pose proof (container_bounded t s old b true v P Ho Hb E). cbv iota in *. lia.
Qed.
Lemma accepted_root_exact H t s old b v : container_pair t s -> wt t old -> bytes_ok b -> deserialize t old b = Ok (true, v) -> zlen b <= 2 ^ 39 ->
  hash_tree_root (hash_pairs H) t v = if trees_fit s v then Ok (lenient_root H s v) else UB.
Proof.
  intros P Ho Hb E L. destruct (pair_solid t s P) as (W & M & _). apply root_beyond; [exact P|exact (result_wt t old b true v W Ho Hb E)|].
  pose proof (accepted_breadth t s old b v P Ho Hb E). change (2 ^ 42) with (8 * 2 ^ 39). lia.
Qed.
