(** Undefined behaviour of deserialize: containers, and Attestation written out. *)
From Coq Require Import ZArith String List Bool Lia Sorting.Sorted.
From Verif Require Import Base SpecSSZ SpecWire SpecUndef SpecPhase0 ModelSSZ SpecObj SpecClasses LemBase LemMatch LemWire LemUndef LemThmCodec.
Import ListNotations.
Open Scope list_scope.
Open Scope Z_scope.

(** ** Attestation, written out *)
Lemma zlen_bytes_at b i j : 0 <= i <= j -> j <= zlen b -> zlen (bytes_at b i j) = j - i.
Proof. intros. pose proof (slice_bytes_at b i j ltac:(lia) ltac:(lia)) as E. apply slice_inv in E. lia. Qed.
Lemma checkpoint_accepted b : zlen b = 40 -> acc sCheckpoint b.
Proof.
  intros L. exists (VSeq [VNum (le_val (bytes_at b 0 8)); VBytes (bytes_at b 8 40)]).
  cbn -[bytes_at le_val]. split; [split; [cbn; lia|]; repeat constructor|].
  split; [split; [rewrite zlen_bytes_at; lia|reflexivity]|]. split; [split; [rewrite zlen_bytes_at; lia|reflexivity]|exact I].
Qed.
Lemma data_accepted b : zlen b = 128 -> acc sAttestationData b.
Proof.
  intros L. destruct (checkpoint_accepted (bytes_at b 48 88)) as (v1 & A1); [rewrite zlen_bytes_at; lia|].
  destruct (checkpoint_accepted (bytes_at b 88 128)) as (v2 & A2); [rewrite zlen_bytes_at; lia|].
  exists (VSeq [VNum (le_val (bytes_at b 0 8)); VNum (le_val (bytes_at b 8 16)); VBytes (bytes_at b 16 48); v1; v2]).
  unfold sAttestationData. cbn -[sCheckpoint bytes_at le_val]. split; [split; [cbn; lia|]; repeat constructor|].
  split; [split; [rewrite zlen_bytes_at; lia|reflexivity]|].
  split; [split; [rewrite zlen_bytes_at; lia|reflexivity]|].
  split; [split; [rewrite zlen_bytes_at; lia|reflexivity]|].
  split; [exact A1|]. split; [exact A2|exact I].
Qed.
Lemma last_skipn {A} (d : A) n : forall l, (n < length l)%nat -> last (skipn n l) d = last l d.
Proof.
  induction n as [|n IH]; intros [|x l] L; cbn [skipn length] in *; try lia; [reflexivity|].
  rewrite IH by lia. destruct l; [cbn in L; lia|reflexivity].
Qed.
Lemma undefined_attestation b :
  undefined sAttestation b <-> u32_at b 0 = 228 /\ 228 <= zlen b /\ (zlen b = 228 \/ last b 0 = 0).
Proof.
  assert (Q : undefined sAttestation b <->
    reached [] ("aggregation_bits"%string, SBitlist 2048) [("data"%string, sAttestationData); ("signature"%string, BLSSignature)] b /\
    (bytes_at b (u32_at b 0) (zlen b) = [] \/ last (bytes_at b (u32_at b 0) (zlen b)) 0 = 0)).
  { unfold sAttestation. cbn [undefined app]. split.
    - intros [X|[[[V _] _]|[[[V _] _]|[]]]]; [exact X|discriminate V|discriminate V].
    - intros X. left. exact X. }
  rewrite Q. clear Q. 
  assert (E : u32_at b 0 = 228 -> 228 <= zlen b -> (bytes_at b (u32_at b 0) (zlen b) = [] \/ last (bytes_at b (u32_at b 0) (zlen b)) 0 = 0 <-> zlen b = 228 \/ last b 0 = 0)).
  { intros -> L. assert (Z0 := zlen_bytes_at b 228 (zlen b) ltac:(lia) ltac:(lia)).
    assert (S0 : bytes_at b 228 (zlen b) = skipn 228 b).
    { unfold bytes_at. apply firstn_all2. rewrite skipn_length. unfold zlen in *. lia. }
    destruct (Z.eq_dec (zlen b) 228) as [E|E].
    - split; [auto|]. intros _. left. apply zlen_0. lia.
    - rewrite S0, last_skipn by (unfold zlen in *; lia). split; [|tauto]. intros [X|X]; [|auto]. rewrite S0, X in Z0. cbn in Z0. lia. }
  split.
  - intros ((_ & L & O & _) & U). change (228 <= zlen b) in L. change (u32_at b 0 = 228) in O. apply E in U; auto.
  - intros (O & L & U). split; [|now apply E]. split; [reflexivity|].
    change (228 <= zlen b /\ u32_at b 0 = 228 /\ Sorted Z.le [u32_at b 0] /\ Forall (fun o => o <= zlen b) [u32_at b 0] /\
      Forall2 accepted [] [] /\ Forall2 accepted [("data"%string, sAttestationData); ("signature"%string, BLSSignature)] [bytes_at b 4 132; bytes_at b 132 228]).
    split; [exact L|]. split; [exact O|]. split; [repeat constructor|].
    split; [repeat constructor; lia|]. split; [constructor|]. constructor; [|constructor; [|constructor]].
    + apply data_accepted. rewrite zlen_bytes_at; lia.
    + unfold accepted. exists (VBytes (bytes_at b 132 228)). cbn -[bytes_at]. split; [rewrite zlen_bytes_at; lia|reflexivity].
Qed.

Lemma undefined_parts t s old b : wf t = true -> matches t s = true -> wt t old -> bytes_ok b ->
  (deserialize t old b = UB <-> undefined s b).
Proof. intros Hwf Hm Ho Hb. exact (deserialize_undefined t Hwf s Hm old b Ho Hb). Qed.
Lemma undefined_containers t s old b : container_pair t s -> wt t old -> bytes_ok b ->
  (deserialize t old b = UB <-> undefined s b).
Proof.
  intros Hp. apply undefined_parts.
  - exact (is_container_wf _ (container_pair_container _ _ Hp)).
  - exact (container_pair_matches _ _ Hp).
Qed.
Lemma rejected_containers t s old b : container_pair t s -> wt t old -> bytes_ok b ->
  ((exists v, deserialize t old b = Ok (false, v)) <-> ~ undefined s b /\ ~ exists v, accepts s b v).
Proof.
  intros Hp Ho Hb. rewrite <- (undefined_containers t s old b Hp Ho Hb).
  assert (A : (exists v, accepts s b v) <-> exists v, deserialize t old b = Ok (true, v)).
  { split; intros (v & E); exists v; apply (acceptance_containers t s old b v Hp Ho Hb); exact E. }
  rewrite A. pose proof (no_throw t old b (is_container_wf _ (container_pair_container _ _ Hp)) Ho Hb) as N.
  destruct (deserialize t old b) as [[[] v]| |].
  - split; [intros (v' & E); discriminate E|]. intros [_ X]. exfalso. eauto.
  - split; [|eauto]. intros _. split; [discriminate|]. intros (v' & E). discriminate E.
  - tauto.
  - split; [intros (v' & E); discriminate E|tauto].
Qed.
