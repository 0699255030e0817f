(** YAML: round trip (C38), reading the reference test vectors (C42-C44). *)
From Coq Require Import ZArith String List Bool.
From Verif Require Import Base SpecSSZ ModelSSZ ModelBytes ModelHashTree ModelTree ModelYaml ModelEth SpecYaml SpecObj SpecTree SpecPhase0
  SpecClasses SpecText SpecLoose Samples SamplesYaml LemCheck LemYaml LemThmText LemLoose.
Import ListNotations.
Open Scope string_scope.
Open Scope list_scope.
Open Scope Z_scope.

(** ** C38. Full claim: [decode e t old (encode e t v) = Ok (true, v)] for every
    class [t]. False: no Attestation or PendingAttestation at all survives,
    because Bitlist::to_string writes raw characters. *)
Theorem C38_refuted : forall e c t v old, t = tAttestation c \/ t = tPendingAttestation c ->
  wt t v -> wt t old -> decode e t old (encode e t v) <> Ok (true, v).
Proof. exact yaml_attestations_refuted. Qed.
Print Assumptions C38_refuted.
Theorem C38_bitlist_refuted : forall n e v old, wt (TBitlist n) v ->
  decode e (TBitlist n) old (encode e (TBitlist n) v) <> Ok (true, v).
Proof. exact bitlist_never. Qed.
Print Assumptions C38_bitlist_refuted.
(** A Bitvector survives exactly when no bit is set. *)
Theorem C38_bitvector_refuted : forall n e l old, 0 <= n -> zlen l = n ->
  (decode e (TBitvector n) old (encode e (TBitvector n) (VBits l)) = Ok (true, VBits l) <->
   Forall (eq false) l).
Proof. exact bitvector_iff. Qed.
Print Assumptions C38_bitvector_refuted.
(** The containers without bit fields do survive, whatever the object held. *)
Theorem C38_no_bits_partial : forall e t v old, externals_ok e -> is_container t -> no_bits t = true ->
  wt t v -> wt t old -> decode e t old (encode e t v) = Ok (true, v).
Proof. exact yaml_container. Qed.
Print Assumptions C38_no_bits_partial.
(** In general exactly the values without a bitlist and without a bit set in a bitvector. *)
Theorem C38_exact_partial : forall e t s v old, externals_ok e -> container_pair t s -> wt t v -> wt t old ->
  (decode e t old (encode e t v) = Ok (true, v) <-> bitless s v).
Proof. exact container_survives. Qed.
Print Assumptions C38_exact_partial.
(** Survivors among the containers with bit fields: a block body without attestations
    survives, one with an attestation does not. *)
Example C38_exact_case :
  let t := tBeaconBlockBody mainnet in
  let body a := match default t with VSeq l => VSeq (upd l 5 (VSeq a)) | v => v end in
  container_pair t sBeaconBlockBody /\
  wt t (body []) /\ wt t (body [smp_attestation]) /\
  decode std_externals t (body [smp_attestation]) (encode std_externals t (body [])) = Ok (true, body []) /\
  ~ bitless sBeaconBlockBody (body [smp_attestation]).
Proof.
  cbn zeta. split; [apply pair_mainnet with (name := "BeaconBlockBody"); cbv; tauto|].
  split; [apply wtb_wt; vm_compute; reflexivity|]. split; [apply wtb_wt; vm_compute; reflexivity|].
  split; [vm_compute; reflexivity|].
  intros B. apply (container_survives std_externals (tBeaconBlockBody mainnet) _ _ (default (tBeaconBlockBody mainnet))) in B.
  - vm_compute in B. discriminate B.
  - exact std_externals_ok.
  - apply pair_mainnet with (name := "BeaconBlockBody"); cbv; tauto.
  - apply wtb_wt; vm_compute; reflexivity.
  - apply wtb_wt; vm_compute; reflexivity.
Qed.
Example C38_case :
  externals_ok std_externals /\
  map fst (filter (fun x => negb (no_bits (snd x))) (all_classes mainnet))
  = ["PendingAttestation"; "Attestation"; "BeaconBlockBody"; "BeaconBlock"; "SignedBeaconBlock"; "BeaconState"] /\
  encode std_externals tFork smp_fork
  = YMap [("previous_version", YScalar [48; 120; 48; 49; 48; 50; 48; 51; 48; 52]);
          ("current_version", YScalar [48; 120; 48; 53; 48; 54; 48; 55; 48; 56]);
          ("epoch", YScalar [57])] /\
  decode std_externals tFork (default tFork) (encode std_externals tFork smp_fork) = Ok (true, smp_fork) /\
  decode std_externals (TBitlist 9) (VBits []) (encode std_externals (TBitlist 9) (VBits [true; false])) = UB.
Proof. split; [exact std_externals_ok|]. repeat split; reflexivity. Qed.

(** ** C42. YAML in the form of the reference test vectors is decoded to the value it
    shows, whatever the object held. *)
Theorem C42_decoded : forall e t s v old node, reads e -> container_pair t s -> wt t v -> wt t old ->
  shows s v node -> decode e t old node = Ok (true, v).
Proof. exact shown_container. Qed.
Print Assumptions C42_decoded.
(** Also for the classes that containers are made of. *)
Theorem C42_decoded_parts : forall e t s v old node, reads e -> wf t = true -> matches t s = true -> same_names t s = true ->
  wt t v -> wt t old -> shows s v node -> decode e t old node = Ok (true, v).
Proof. exact shown_parts. Qed.
Print Assumptions C42_decoded_parts.
(** That object has the serialization and the root that the specification gives the value. *)
Theorem C42_vector : forall e H t s v old node, reads e -> container_pair t s -> has_type s v -> wt t old ->
  shows s v node ->
  exists obj, decode e t old node = Ok (true, obj) /\
    serialize t obj = ssz_serialize s v /\
    hash_tree_root (hash_pairs H) t obj = Ok (ssz_hash_tree_root H s v).
Proof. exact vector_container. Qed.
Print Assumptions C42_vector.
(** Every value can be written in that form. *)
Theorem C42_every_value : forall t s v, container_pair t s -> has_type s v -> exists node, shows s v node.
Proof. exact show_container. Qed.
Print Assumptions C42_every_value.
Example C42_case :
  reads strict_externals /\ container_pair (tAttestation mainnet) sAttestation /\
  has_type sAttestation smp_attestation /\ shows sAttestation smp_attestation smp_node /\
  (match smp_node with YMap m => map fst m | _ => [] end) = ["comment"; "signature"; "data"; "aggregation_bits"] /\
  decode strict_externals (tAttestation mainnet) (default (tAttestation mainnet)) smp_node = Ok (true, smp_attestation).
Proof.
  split; [exact strict_reads|]. split; [exact smp_pair|]. split; [exact smp_has_type|]. split; [exact smp_shown|].
  split; reflexivity.
Qed.

(** ** C43. Full claim: [decode e t old node <> UB] for every class [t], object [old] and
    node. False: a bitlist without digits is read out of bounds ... *)
Theorem C43_refuted : forall e c t old, t = tAttestation c \/ t = tPendingAttestation c -> wt t old ->
  decode e t old (YMap [("aggregation_bits", YScalar [48; 120])]) = UB.
Proof. exact empty_bitlist_ub. Qed.
Print Assumptions C43_refuted.
(** ... and so is the table of digits by a character outside ASCII. *)
Theorem C43_characters_refuted : forall e n old ch, 0 < n -> ~ 0 <= ch < 128 ->
  decode e (TBytes n) old (YScalar [48; 120; ch]) = UB.
Proof. exact eight_bit_ub. Qed.
Print Assumptions C43_characters_refuted.
(** For ASCII text a bitlist is undefined exactly when it has no delimiting bit. *)
Theorem C43_bitlist : forall e n old str, Forall (fun ch => 0 <= ch < 128) str ->
  (decode e (TBitlist n) old (YScalar str) = UB <-> undelimited str).
Proof. exact LemDecode.bitlist_text_ub. Qed.
Print Assumptions C43_bitlist.
(** Nothing else is undefined. *)
Theorem C43_delimited_partial : forall e t s old node, container_pair t s -> wt t old ->
  ascii node -> delimited s node -> decode e t old node <> UB.
Proof. exact safe_container. Qed.
Print Assumptions C43_delimited_partial.
Theorem C43_no_bitlist_partial : forall e t s old node, container_pair t s -> has_bitlist t = false -> wt t old ->
  ascii node -> decode e t old node <> UB.
Proof. exact safe_no_bitlist. Qed.
Print Assumptions C43_no_bitlist_partial.
(** The nodes with undefined behaviour, exactly (SpecLoose). *)
Theorem C43_exact_partial : forall e t s old node, container_pair t s -> wt t old ->
  (decode e t old node = UB <-> breaks e s node).
Proof. exact container_breaks. Qed.
Print Assumptions C43_exact_partial.
Theorem C43_exact_parts_partial : forall e t s old node, wf t = true -> matches t s = true -> same_names t s = true -> wt t old ->
  (decode e t old node = UB <-> breaks e s node).
Proof. exact part_breaks. Qed.
Print Assumptions C43_exact_parts_partial.
(** A Fork whose second version has a character outside ASCII is undefined if the first
    version is readable, otherwise an exception comes first. *)
Example C43_exact_case :
  let fork a := YMap [("epoch", YScalar [57]); ("current_version", YScalar [48; 120; 200]); ("previous_version", YScalar a)] in
  container_pair tFork sFork /\ breaks strict_externals sFork (fork [48; 120]) /\
  decode strict_externals tFork (default tFork) (fork [48]) = Throw /\ ~ breaks strict_externals sFork (fork [48]).
Proof.
  cbn zeta. assert (P : container_pair tFork sFork) by (apply pair_mainnet with (name := "Fork"); cbv; tauto).
  assert (W : wt tFork (default tFork)) by (apply wtb_wt; reflexivity). split; [exact P|].
  split; [apply (container_breaks _ _ _ _ _ P W); reflexivity|]. split; [reflexivity|].
  intros B. apply (container_breaks _ _ _ _ _ P W) in B. discriminate B.
Qed.
Example C43_case :
  wt (tAttestation mainnet) smp_attestation /\
  decode strict_externals (TBitlist 9) (VBits []) (YScalar [48; 120; 49; 49; 48; 48]) = UB /\
  decode strict_externals (TBitlist 9) (VBits []) (YScalar [48; 120; 49; 49; 48; 51])
  = Ok (true, VBits [true; false; false; false; true; false; false; false; true]) /\
  decode strict_externals tFork (default tFork) (YMap [("previous_version", YScalar [48; 120; 200])]) = UB /\
  decode strict_externals tFork (default tFork) (YMap [("previous_version", YScalar [120])]) = Throw /\
  decode strict_externals tFork (default tFork) (YMap [("previous_version", YSeq [])]) = Ok (false, default tFork).
Proof. split; [apply wtb_wt; reflexivity|]. repeat split; reflexivity. Qed.

(** ** C44. Full claim: the node alone decides, and an accepted node shows the value:
    [decode e t old node = Ok (true, v) -> shows s v node]. The first holds. *)
Theorem C44_history : forall e t old1 old2 node, is_container t -> wt t old1 -> wt t old2 ->
  same_result (decode e t old1 node) (decode e t old2 node).
Proof. exact history_container. Qed.
Print Assumptions C44_history.
(** An accepted node has everything that the type needs ... *)
Theorem C44_complete_partial : forall e t s old node v, container_pair t s ->
  decode e t old node = Ok (true, v) -> complete s node.
Proof. exact complete_container. Qed.
Print Assumptions C44_complete_partial.
(** ... and the object can hold the result. *)
Theorem C44_typed : forall e t old node ok v, fits e -> is_container t -> wt t old ->
  decode e t old node = Ok (ok, v) -> wt t v.
Proof. exact typed_container. Qed.
Print Assumptions C44_typed.
(** But byte vectors may be cut short or not hexadecimal, bitvectors may be short, and
    bitlists may exceed their limit. *)
Theorem C44_bytes_refuted : forall e old, reads e -> wt tFork old ->
  exists v, decode e tFork old short_fork = Ok (true, v) /\ ~ shows sFork v short_fork.
Proof. exact short_bytes. Qed.
Print Assumptions C44_bytes_refuted.
Theorem C44_bitvector_refuted : forall e n old,
  decode e (TBitvector n) old (YScalar [48; 120]) = Ok (true, VBits (repeat false (Z.to_nat n))).
Proof. exact short_bits. Qed.
Print Assumptions C44_bitvector_refuted.
Theorem C44_bitlist_refuted : forall e n old, 0 <= n ->
  exists str v, decode e (TBitlist n) old (YScalar str) = Ok (true, v) /\ ~ has_type (SBitlist n) v.
Proof. exact long_bitlist. Qed.
Print Assumptions C44_bitlist_refuted.
(** The accepted nodes and what they are read as, exactly (SpecLoose). *)
Theorem C44_exact_partial : forall e t s old node v, container_pair t s -> wt t old ->
  (decode e t old node = Ok (true, v) <-> reads_as e s node v).
Proof. exact container_reads. Qed.
Print Assumptions C44_exact_partial.
Theorem C44_exact_parts_partial : forall e t s old node v, wf t = true -> matches t s = true -> same_names t s = true -> wt t old ->
  (decode e t old node = Ok (true, v) <-> reads_as e s node v).
Proof. exact part_reads. Qed.
Print Assumptions C44_exact_parts_partial.
(** The first of two equal keys counts, "z" is zero, three digits are two bytes. *)
Example C44_exact_case :
  let node := YMap [("epoch", YScalar [57]); ("current_version", YScalar [48; 120; 49; 122; 51]);
                    ("current_version", YSeq []); ("previous_version", YScalar [48; 120])] in
  reads_as strict_externals sFork node (VSeq [VBytes [0; 0; 0; 0]; VBytes [16; 3; 0; 0]; VNum 9]) /\
  container_pair tFork sFork /\ wt tFork smp_fork /\
  decode strict_externals tFork smp_fork node = Ok (true, VSeq [VBytes [0; 0; 0; 0]; VBytes [16; 3; 0; 0]; VNum 9]).
Proof.
  cbn zeta. assert (P : container_pair tFork sFork) by (apply pair_mainnet with (name := "Fork"); cbv; tauto).
  assert (W : wt tFork smp_fork) by (apply wtb_wt; reflexivity).
  split; [apply (container_reads _ _ _ _ _ _ P W); reflexivity|]. split; [exact P|]. split; [exact W|reflexivity].
Qed.
(** A bitvector of 12 bits from three bytes; a list of two bitvectors, the second undefined. *)
Example C44_parts_case :
  let t := TListF (TBitvector 12) 9 in let s := SList (SBitvector 12) 9 in
  let bits := VBits [true; false; false; false; true; false; false; false; false; true; false; false] in
  wf t = true /\ matches t s = true /\ same_names t s = true /\ wt t (VSeq [bits]) /\
  reads_as strict_externals s (YSeq [YScalar [48; 120; 49; 49; 122; 50; 51; 51]]) (VSeq [bits]) /\
  breaks strict_externals s (YSeq [YScalar [48; 120; 49; 49]; YScalar [48; 120; 49; 200]]).
Proof.
  intros t s bits. assert (W : wt t (VSeq [bits])) by (apply wtb_wt; reflexivity).
  split; [reflexivity|]. split; [reflexivity|]. split; [reflexivity|]. split; [exact W|]. split.
  - apply (part_reads _ t s (VSeq [bits]) _ _ eq_refl eq_refl eq_refl W). reflexivity.
  - apply (part_breaks _ t s (VSeq [bits]) _ eq_refl eq_refl eq_refl W). reflexivity.
Qed.
Example C44_case :
  fits strict_externals /\ is_container tFork /\
  decode strict_externals tFork (default tFork)
    (YMap [("epoch", YScalar [57]); ("current_version", YScalar [48; 120; 57; 57])]) = Throw /\
  decode strict_externals tFork smp_fork
    (YMap [("epoch", YScalar [57; 33]); ("current_version", YScalar [48; 120]); ("previous_version", YScalar [48; 120; 57; 57])])
  = Ok (false, VSeq [VBytes [153; 0; 0; 0]; VBytes [0; 0; 0; 0]; VNum 9]).
Proof. split; [exact strict_fits|]. split; [apply cont_mainnet with (name := "Fork"); cbv; tauto|]. split; reflexivity. Qed.
