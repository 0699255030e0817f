(** Codec properties (C01-C10, C40, C41). Every theorem is about the model of
    ModelSSZ/ModelEth; [wt] (SpecObj) says which values the C++ object can hold,
    [default] is a default-constructed object. *)
From Coq Require Import ZArith String List Bool Sorting.Sorted.
From Verif Require Import Base SpecSSZ SpecWire SpecRemain SpecUndef SpecLeft SpecPhase0 ModelSSZ ModelEth SpecObj SpecClasses Samples
  LemMatch LemCheck LemHist LemThmCodec LemRemain LemThmUndef LemLeft.
Import ListNotations.
Open Scope string_scope.
Open Scope list_scope.
Open Scope Z_scope.

(** ** C01 *)
Theorem C01_round_trip : forall t v old,
  wf t = true -> wt t v -> wt t old -> zlen (serialize t v) < 2 ^ 32 ->
  deserialize t old (serialize t v) = Ok (true, v).
Proof. exact round_trip. Qed.
Print Assumptions C01_round_trip.
Theorem C01_round_trip_containers : forall t v old,
  is_container t -> wt t v -> wt t old -> zlen (serialize t v) < 2 ^ 32 ->
  deserialize t old (serialize t v) = Ok (true, v).
Proof. exact round_trip_containers. Qed.
Print Assumptions C01_round_trip_containers.
(** A signed block of 1492 bytes with two attestations, decoded into an object
    holding another block. *)
Example C01_case :
  is_container (tSignedBeaconBlock mainnet) /\
  wt (tSignedBeaconBlock mainnet) smp_signed_block /\
  wt (tSignedBeaconBlock mainnet) (default (tSignedBeaconBlock mainnet)) /\
  zlen (serialize (tSignedBeaconBlock mainnet) smp_signed_block) = 1492 /\
  smp_signed_block <> default (tSignedBeaconBlock mainnet).
Proof.
  split; [apply cont_mainnet with "SignedBeaconBlock"; cbn; tauto|].
  split; [apply wtb_wt; reflexivity|]. split; [apply wtb_wt; reflexivity|].
  split; [reflexivity|discriminate].
Qed.

(** ** C02 *)
Theorem C02_ssz_conformance : forall t s v,
  container_pair t s -> has_type s v -> serialize t v = ssz_serialize s v.
Proof. exact conformance. Qed.
Print Assumptions C02_ssz_conformance.
(** Every container of the specification has its class, in both configurations. *)
Theorem C02_all_containers : forall name s,
  (In (name, s) (phase0_containers preset_mainnet) ->
     exists t, In (name, t) (all_classes mainnet) /\ container_pair t s) /\
  (In (name, s) (phase0_containers preset_minimal) ->
     exists t, In (name, t) (all_classes minimal) /\ container_pair t s).
Proof. exact pairs_complete. Qed.
Print Assumptions C02_all_containers.
Example C02_case :
  In "BeaconBlockBody" (map fst (phase0_containers preset_minimal)) /\
  length (phase0_containers preset_mainnet) = 23%nat /\
  wt (tBeaconBlockBody minimal) smp_body /\ within (tBeaconBlockBody minimal) smp_body /\
  zlen (serialize (tBeaconBlockBody minimal) smp_body) = 1308.
Proof.
  split; [cbn; tauto|]. split; [reflexivity|]. split; [apply wtb_wt; reflexivity|].
  split; [apply withinb_within; reflexivity|reflexivity].
Qed.

(** ** C03 *)
Theorem C03_size : forall t v,
  wf t = true -> wt t v -> get_ssz_size t <> 0 -> zlen (serialize t v) = get_ssz_size t.
Proof. exact size. Qed.
Print Assumptions C03_size.
Theorem C03_size_containers : forall t s,
  container_pair t s ->
  get_ssz_size t = sty_size s /\ (get_ssz_size t = 0 <-> is_variable s = true) /\
  (forall v, wt t v -> is_variable s = false -> zlen (serialize t v) = get_ssz_size t).
Proof. exact size_containers. Qed.
Print Assumptions C03_size_containers.
Example C03_case : wf tFork = true /\ wt tFork smp_fork /\ get_ssz_size tFork = 16.
Proof. split; [reflexivity|]. split; [apply wtb_wt; reflexivity|reflexivity]. Qed.

(** ** C04 *)
Theorem C04_injective : forall t v w,
  wf t = true -> wt t v -> wt t w -> zlen (serialize t v) < 2 ^ 32 ->
  serialize t v = serialize t w -> v = w.
Proof. exact injective. Qed.
Print Assumptions C04_injective.
Example C04_case : forall bits,
  wt (tAttestation mainnet) (VSeq [VBits bits; smp_att_data 1 2; fill 96 9]).
Proof.
  intros bits. cbn [wt tAttestation all2]. split; [exact I|].
  split; [exact (wtb_wt tAttestationData (smp_att_data 1 2) eq_refl)|].
  split; [exact (wtb_wt (TBytes 96) (fill 96 9) eq_refl)|exact I].
Qed.

(** ** C05. Full claim: [deserialize t old b = Ok (true, v) -> serialize t v = b].
    It holds up to trailing bytes given to a fixed-size class, for every class
    without a bitvector of length not a multiple of 8 (all but BeaconState). *)
Theorem C05_canonical_partial : forall t old b v,
  wf t = true -> no_padding t = true -> wt t old -> bytes_ok b ->
  deserialize t old b = Ok (true, v) ->
  exists tail, b = serialize t v ++ tail /\
    (tail <> [] -> get_ssz_size t <> 0 /\ zlen b > get_ssz_size t).
Proof. exact canonical_prefix. Qed.
Print Assumptions C05_canonical_partial.
Example C05_case :
  deserialize (tAttesterSlashing mainnet) (default (tAttesterSlashing mainnet))
    (serialize (tAttesterSlashing mainnet) smp_attester_slashing) = Ok (true, smp_attester_slashing)
  /\ no_padding (tAttesterSlashing mainnet) = true
  /\ map fst (filter (fun c => negb (no_padding (snd c))) (all_classes mainnet)) = ["BeaconState"].
Proof. split; [reflexivity|]. split; reflexivity. Qed.
(** Trailing bytes: Fork accepts 17 bytes. *)
Theorem C05_refuted_trailing :
  exists t old b v, is_container t /\ wt t old /\ bytes_ok b /\
    deserialize t old b = Ok (true, v) /\ serialize t v <> b.
Proof.
  exists tFork, (default tFork), (serialize tFork smp_fork ++ [77]), smp_fork.
  split; [apply cont_mainnet with "Fork"; cbn; tauto|].
  split; [apply wtb_wt; reflexivity|]. split; [apply bytes_okb_ok; reflexivity|].
  split; [reflexivity|discriminate].
Qed.
Print Assumptions C05_refuted_trailing.
(** Padding bits: a BeaconState whose justification bits byte is 0xF0. *)
Theorem C05_refuted_padding :
  exists old b v, wt (tBeaconState minimal) old /\ bytes_ok b /\
    deserialize (tBeaconState minimal) old b = Ok (true, v) /\
    serialize (tBeaconState minimal) v <> b /\ zlen (serialize (tBeaconState minimal) v) = zlen b.
Proof.
  exists (default (tBeaconState minimal)),
    (splice (tBeaconState minimal) (default (tBeaconState minimal)) 17 [240]),
    (default (tBeaconState minimal)).
  split; [apply wtb_wt; vm_compute; reflexivity|].
  split; [apply bytes_okb_ok; vm_compute; reflexivity|].
  split; [vm_compute; reflexivity|]. split; [vm_compute; discriminate|vm_compute; reflexivity].
Qed.
Print Assumptions C05_refuted_padding.

(** ** C06. Full claim: [exists r v, deserialize t old b = Ok (r, v)] for every
    class. It holds for the classes without bitlists. *)
Theorem C06_no_ub_partial : forall t old b,
  wf t = true -> has_bitlist t = false -> wt t old -> bytes_ok b ->
  exists r v, deserialize t old b = Ok (r, v) /\ wt t v.
Proof. exact no_ub. Qed.
Print Assumptions C06_no_ub_partial.
Theorem C06_no_throw : forall t old b,
  wf t = true -> wt t old -> bytes_ok b -> deserialize t old b <> Throw.
Proof. exact no_throw. Qed.
Print Assumptions C06_no_throw.
(** Whatever the verdict, the object afterwards holds a value of its class. *)
Theorem C06_result_typed : forall t old b r v,
  wf t = true -> wt t old -> bytes_ok b -> deserialize t old b = Ok (r, v) -> wt t v.
Proof. exact result_wt. Qed.
Print Assumptions C06_result_typed.
Example C06_case :
  length (filter (fun c => negb (has_bitlist (snd c))) (all_classes mainnet)) = 17%nat /\
  deserialize (tAttesterSlashing mainnet) (default (tAttesterSlashing mainnet)) [8; 0; 0; 0; 9]
  = Ok (false, default (tAttesterSlashing mainnet)).
Proof. split; reflexivity. Qed.
(** The bitlist decoder, exactly. *)
Theorem C06_bitlist_ub : forall v b, bytes_ok b ->
  (bitlist_deserialize v b = UB <-> b = [] \/ List.last b 0 = 0).
Proof. exact LemBits.bitlist_deserialize_ub. Qed.
Print Assumptions C06_bitlist_ub.
(** Each of the six containers with a bitlist has an input on which
    deserialization executes undefined behaviour. *)
Theorem C06_refuted : forall name t,
  In (name, t) (all_classes minimal) -> has_bitlist t = true ->
  exists old b, wt t old /\ bytes_ok b /\ deserialize t old b = UB.
Proof.
  assert (G : Forall (fun c : string * ty => has_bitlist (snd c) = true ->
     exists old b, wt (snd c) old /\ bytes_ok b /\ deserialize (snd c) old b = UB) (all_classes minimal)).
  { repeat (apply Forall_cons; [try (intros X; vm_compute in X; discriminate X)|]); try apply Forall_nil.
    all: intros _; cbn [snd].
    1: exists (default (tPendingAttestation minimal)), bad_pending.
    2: exists (default (tAttestation minimal)), bad_attestation.
    3: exists (default (tBeaconBlockBody minimal)), bad_body.
    4: exists (default (tBeaconBlock minimal)), bad_block.
    5: exists (default (tSignedBeaconBlock minimal)), bad_signed_block.
    6: exists (default (tBeaconState minimal)), bad_state.
    all: (split; [apply wtb_wt; vm_compute; reflexivity|]);
         (split; [apply bytes_okb_ok; vm_compute; reflexivity|vm_compute; reflexivity]). }
  intros name t Hin Hb. rewrite Forall_forall in G. exact (G _ Hin Hb).
Qed.
Print Assumptions C06_refuted.
Example C06_refuted_case :
  map fst (filter (fun c => has_bitlist (snd c)) (all_classes minimal))
  = ["PendingAttestation"; "Attestation"; "BeaconBlockBody"; "BeaconBlock"; "SignedBeaconBlock"; "BeaconState"].
Proof. reflexivity. Qed.

(** ** C07 *)
Theorem C07_history : forall t o1 o2 b,
  wf t = true -> wt t o1 -> wt t o2 -> bytes_ok b ->
  verdict (deserialize t o1 b) = verdict (deserialize t o2 b) /\
  (forall v, deserialize t o1 b = Ok (true, v) -> deserialize t o2 b = Ok (true, v)).
Proof. exact history. Qed.
Print Assumptions C07_history.
Example C07_case :
  deserialize tFork smp_fork (serialize tFork (default tFork)) = Ok (true, default tFork) /\
  verdict (deserialize tFork smp_fork [1; 2; 3]) = Ok false.
Proof. split; reflexivity. Qed.

(** ** C08. The full claim fails as soon as a class has two parts. *)
Theorem C08_refuted : exists t old b v, is_container t /\ wt t old /\ bytes_ok b /\
  deserialize t old b = Ok (false, v) /\ v <> old.
Proof.
  exists tFork, smp_fork, [11; 12; 13; 14; 15], (VSeq [VBytes [11; 12; 13; 14]; VBytes [5; 6; 7; 8]; VNum 9]).
  split; [apply cont_mainnet with "Fork"; cbn; tauto|].
  split; [apply wtb_wt; reflexivity|]. split; [apply bytes_okb_ok; reflexivity|].
  split; [reflexivity|discriminate].
Qed.
Print Assumptions C08_refuted.
(** It holds of the classes that are not made of parts. *)
Theorem C08_leaf_partial : forall t old b v,
  is_leaf t = true -> deserialize t old b = Ok (false, v) -> v = old.
Proof. exact leaf_unchanged. Qed.
Print Assumptions C08_leaf_partial.
(** What is left in general (SpecRemain): old parts, parts read from the input,
    and at most one part that failed itself. *)
Theorem C08_remains_partial : forall t s old b v,
  container_pair t s -> wt t old -> bytes_ok b ->
  deserialize t old b = Ok (false, v) -> remains s b old v.
Proof. exact container_remains. Qed.
Print Assumptions C08_remains_partial.
Theorem C08_remains_parts_partial : forall t,
  wf t = true -> forall s, matches t s = true ->
  forall old b v, wt t old -> bytes_ok b ->
  deserialize t old b = Ok (false, v) -> remains s b old v.
Proof. exact failed_remains. Qed.
Print Assumptions C08_remains_parts_partial.
(** A list loses its elements even if the input is rejected at once; and the
    first of two fields is read, the second fails half-way through a vector. *)
Example C08_remains_case :
  let roots := TListF (TBytes 2) 4 in
  deserialize roots (VSeq [VBytes [1; 2]]) [5; 6; 7] = Ok (false, VSeq []) /\
  ~ remains (SList (SByteVector 2) 4) [5; 6; 7] (VSeq [VBytes [1; 2]]) (VSeq [VBytes [1; 2]]) /\
  let flags := TVector TBoolean 3 in
  deserialize flags (VSeq [VBool false; VBool false; VBool false]) [1; 2; 1]
  = Ok (false, VSeq [VBool true; VBool false; VBool false]).
Proof.
  intros roots. split; [reflexivity|]. split; [|reflexivity].
  intros R. inversion R as [? ? ? E|? ? ? ? ? F| | |]; subst; [discriminate E|].
  pose proof (Forall_inv F) as (c & (p & q & E) & A). inversion A; subst.
  destruct p as [|? [|? [|? [|? p]]]]; discriminate.
Qed.
(** Exactly which inputs are rejected and exactly what each of them leaves (SpecLeft):
    the input has been read as far as possible. *)
Theorem C08_exact_partial : forall t s old b v,
  container_pair t s -> wt t old -> bytes_ok b ->
  (deserialize t old b = Ok (false, v) <->
   (~ undefined s b /\ ~ exists w, accepts s b w) /\ leftover s b old v).
Proof. exact leftover_containers. Qed.
Print Assumptions C08_exact_partial.
Theorem C08_exact_parts_partial : forall t s old b v,
  wf t = true -> matches t s = true -> wt t old -> bytes_ok b ->
  (deserialize t old b = Ok (false, v) <->
   (~ undefined s b /\ ~ exists w, accepts s b w) /\ leftover s b old v).
Proof. exact leftover_parts. Qed.
Print Assumptions C08_exact_parts_partial.
(** Three stray bytes behind an indexed attestation are not a list of indices. That is
    found out last: data and signature have been read, the indices are gone. Without the
    last byte of the signature nothing is read: the first offset is beyond the end. *)
Example C08_exact_case :
  let t := tIndexedAttestation mainnet in
  let new := VSeq [VSeq []; smp_att_data 3 4; fill 96 9] in
  let b := serialize t new in
  let old := smp_indexed [1; 2] 5 6 in
  container_pair t sIndexedAttestation /\ wt t old /\ bytes_ok (b ++ [1; 2; 3]) /\
  deserialize t old (b ++ [1; 2; 3]) = Ok (false, new) /\
  leftover sIndexedAttestation (b ++ [1; 2; 3]) old new /\
  deserialize t old (removelast b) = Ok (false, old).
Proof.
  intros t new b old.
  assert (P : container_pair t sIndexedAttestation).
  { apply pair_mainnet with "IndexedAttestation"; cbn; tauto. }
  assert (W : wt t old) by (apply wtb_wt; reflexivity).
  assert (B : bytes_ok (b ++ [1; 2; 3])) by (apply bytes_okb_ok; vm_compute; reflexivity).
  assert (D : deserialize t old (b ++ [1; 2; 3]) = Ok (false, new)) by (vm_compute; reflexivity).
  split; [exact P|]. split; [exact W|]. split; [exact B|]. split; [exact D|]. split; [|vm_compute; reflexivity].
  now apply (C08_exact_partial t _ old _ new P W B).
Qed.
Example C08_case : deserialize TBoolean (VBool true) [2] = Ok (false, VBool true).
Proof. reflexivity. Qed.

(** ** C09 *)
Theorem C09_refuted : exists t old b v, is_container t /\ wt t old /\ bytes_ok b /\
  deserialize t old b = Ok (true, v) /\ ~ within t v.
Proof.
  exists (tBeaconBlockBody mainnet), (default (tBeaconBlockBody mainnet)),
    (serialize (tBeaconBlockBody mainnet) over_body), over_body.
  split; [apply cont_mainnet with "BeaconBlockBody"; cbn; tauto|].
  split; [apply wtb_wt; reflexivity|]. split; [apply bytes_okb_ok; reflexivity|].
  split; [reflexivity|]. cbn. intros (_ & _ & _ & _ & (E & _) & _). now apply E.
Qed.
Print Assumptions C09_refuted.
Theorem C09_refuted_bitlist : exists old b v,
  wt (tAttestation mainnet) old /\ bytes_ok b /\
  deserialize (tAttestation mainnet) old b = Ok (true, v) /\ ~ within (tAttestation mainnet) v.
Proof.
  exists (default (tAttestation mainnet)), (serialize (tAttestation mainnet) over_attestation), over_attestation.
  split; [apply wtb_wt; reflexivity|]. split; [apply bytes_okb_ok; vm_compute; reflexivity|].
  split; [vm_compute; reflexivity|]. intros [E _]. cbn [within over_attestation] in E. apply E. vm_compute. reflexivity.
Qed.
Print Assumptions C09_refuted_bitlist.
(** No limit has any effect: classes that differ in their limits only read and
    write alike, on every input, verdict and undefined behaviour included. *)
Theorem C09_ignored : forall t t', same_but_limits t t' ->
  (forall old b, deserialize t old b = deserialize t' old b) /\
  forall v, serialize t v = serialize t' v.
Proof. exact (fun t t' E => conj (limits_ignored t t' E) (limits_not_encoded t t' E)). Qed.
Print Assumptions C09_ignored.
Example C09_ignored_case :
  exists fs fs', tBeaconBlockBody mainnet = TClass fs fs' /\
  exists gs, same_but_limits (tBeaconBlockBody mainnet) (TClass fs gs) /\ gs <> fs' /\
    within (TClass fs gs) over_body.
Proof.
  eexists _, _. split; [reflexivity|].
  exists [TBytes 96; tEth1Data; TBytes 32; TListF tProposerSlashing 16; TListV (tAttesterSlashing mainnet) 3;
          TListV (tAttestation mainnet) 128; TListF tDeposit 16; TListF tSignedVoluntaryExit 16].
  split; [|split; [discriminate|apply withinb_within; vm_compute; reflexivity]].
  apply L_class. repeat (constructor; [apply L_same|]). constructor; [apply L_listv, L_same|].
  repeat (constructor; [apply L_same|]). constructor.
Qed.

(** ** C10: exactly the inputs described in SpecWire are accepted, and as the
    value described there. *)
Theorem C10_acceptance : forall t s old b v,
  container_pair t s -> wt t old -> bytes_ok b ->
  (deserialize t old b = Ok (true, v) <-> accepts s b v).
Proof. exact acceptance_containers. Qed.
Print Assumptions C10_acceptance.
(** The same for every class (parts of the containers included). *)
Theorem C10_acceptance_parts : forall t s old b v,
  wf t = true -> matches t s = true -> wt t old -> bytes_ok b ->
  (deserialize t old b = Ok (true, v) <-> accepts s b v).
Proof. exact acceptance. Qed.
Print Assumptions C10_acceptance_parts.
(** In particular the fixed part is there, the first offset is its length, the
    offsets are non-decreasing and inside the input. *)
Theorem C10_structure : forall t fs old b v,
  container_pair t (SContainer fs) -> wt t old -> bytes_ok b ->
  deserialize t old b = Ok (true, v) -> layout_ok (map (fun f => sty_size (snd f)) fs) b.
Proof. exact structure. Qed.
Print Assumptions C10_structure.
Theorem C10_too_short : forall t old b v, wf t = true -> wt t old -> bytes_ok b ->
  deserialize t old b = Ok (true, v) -> get_ssz_size t <= zlen b.
Proof. intros t old b v. exact (fixed_exact_or_longer t old b v). Qed.
Print Assumptions C10_too_short.
Example C10_case :
  offsets [0; 0] (serialize (tAttesterSlashing mainnet) smp_attester_slashing) 0 = [8; 260] /\
  verdict (deserialize (tAttesterSlashing mainnet) (default (tAttesterSlashing mainnet))
             ([9; 0; 0; 0] ++ skipn 4 (serialize (tAttesterSlashing mainnet) smp_attester_slashing)))
  = Ok false.
Proof. split; reflexivity. Qed.

(** ** C41: the inputs on which deserialize executes undefined behaviour are exactly
    those described in SpecUndef; together with C10 this gives the verdict on every
    input. *)
Theorem C41_undefined : forall t s old b,
  container_pair t s -> wt t old -> bytes_ok b ->
  (deserialize t old b = UB <-> undefined s b).
Proof. exact undefined_containers. Qed.
Print Assumptions C41_undefined.
Theorem C41_undefined_parts : forall t s old b,
  wf t = true -> matches t s = true -> wt t old -> bytes_ok b ->
  (deserialize t old b = UB <-> undefined s b).
Proof. exact undefined_parts. Qed.
Print Assumptions C41_undefined_parts.
Theorem C41_rejected : forall t s old b,
  container_pair t s -> wt t old -> bytes_ok b ->
  ((exists v, deserialize t old b = Ok (false, v)) <-> ~ undefined s b /\ ~ exists v, accepts s b v).
Proof. exact rejected_containers. Qed.
Print Assumptions C41_rejected.
(** For an Attestation: the offset is right, and there are no bits or the last byte is 0. *)
Theorem C41_attestation : forall b,
  undefined sAttestation b <-> u32_at b 0 = 228 /\ 228 <= zlen b /\ (zlen b = 228 \/ List.last b 0 = 0).
Proof. exact undefined_attestation. Qed.
Print Assumptions C41_attestation.
Example C41_case :
  let d := default (tAttestation mainnet) in
  deserialize (tAttestation mainnet) d bad_attestation = UB /\
  verdict (deserialize (tAttestation mainnet) d (removelast bad_attestation)) = Ok false /\
  deserialize (tAttestation mainnet) d (serialize (tAttestation mainnet) d ++ [0]) = UB /\
  (* a list of two attestations, the second one bad *)
  deserialize (tBeaconBlockBody mainnet) (default (tBeaconBlockBody mainnet))
    (splice (tBeaconBlockBody mainnet) (default (tBeaconBlockBody mainnet)) 5
       ([8; 0; 0; 0; 237; 0; 0; 0] ++ serialize (tAttestation mainnet) d ++ bad_attestation)) = UB /\
  (* the same with a first attestation that is rejected *)
  verdict (deserialize (tBeaconBlockBody mainnet) (default (tBeaconBlockBody mainnet))
    (splice (tBeaconBlockBody mainnet) (default (tBeaconBlockBody mainnet)) 5
       ([8; 0; 0; 0; 236; 0; 0; 0] ++ 9 :: removelast (serialize (tAttestation mainnet) d) ++ bad_attestation))) = Ok false.
Proof. repeat split; vm_compute; reflexivity. Qed.

(** ** C40: an AttesterSlashing with 2^29 indices does not survive. *)
Theorem C40_refuted : exists v,
  wt (tAttesterSlashing mainnet) v /\
  forall old, wt (tAttesterSlashing mainnet) old ->
    deserialize (tAttesterSlashing mainnet) old (serialize (tAttesterSlashing mainnet) v) <> Ok (true, v).
Proof.
  assert (E : Z.of_nat (Z.to_nat (2 ^ 29)) = 2 ^ 29) by (apply Z2Nat.id; discriminate).
  exists (big_slashing (Z.to_nat (2 ^ 29))).
  split; [exact (wt_big _)|intros old; exact (big_not_round_trip _ E old)].
Qed.
Print Assumptions C40_refuted.
