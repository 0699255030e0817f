(** Counters of type int (C49). ModelInt is the model in which they overflow; the
    other theorems are about models that count without bound. *)
From Coq Require Import ZArith String List Bool.
From Verif Require Import Base SpecSSZ SpecPhase0 ModelSSZ ModelTree ModelYaml ModelEth SpecObj SpecClasses SpecText SpecYaml SpecInt ModelInt Samples SamplesYaml
  LemMatch LemCheck LemCodec LemThmCodec LemYaml LemInt LemThmInt.
Import ListNotations.
Open Scope string_scope.
Open Scope list_scope.
Open Scope Z_scope.

(** ** C49. False: an input of 256 MiB is accepted as an Attestation, and neither
    serialize() nor hash_tree_root() of the object is defined, whatever the hash function. *)
Theorem C49_refuted : exists b v,
  bytes_ok b /\ zlen b = 2 ^ 28 + 229 /\
  deserialize (tAttestation mainnet) (default (tAttestation mainnet)) b = Ok (true, v) /\
  serialize_int (tAttestation mainnet) v = UB /\
  forall HB, hash_tree_root_int HB (tAttestation mainnet) v = UB.
Proof.
  exists (serialize (tAttestation mainnet) (long_attestation (Z.to_nat (2 ^ 31)))), (long_attestation (Z.to_nat (2 ^ 31))).
  apply long_undefined. apply Z2Nat.id. discriminate.
Qed.
Print Assumptions C49_refuted.

(** Exactly the objects with a bitlist (or bitvector) of 2^31 bits or more are affected;
    for all others the counters make no difference. Missing from C49: those objects. *)
Theorem C49_serialize_partial : forall t v, wf t = true -> wt t v ->
  serialize_int t v = if short_bits v then Ok (serialize t v) else UB.
Proof. intros t v Hw. exact (serialize_int_eq t Hw v). Qed.
Print Assumptions C49_serialize_partial.
Theorem C49_root_partial : forall HB t v, wf t = true -> wt t v ->
  hash_tree_root_int HB t v = if short_bits v then hash_tree_root HB t v else UB.
Proof. exact root_int_eq. Qed.
Print Assumptions C49_root_partial.
Example C49_case :
  wf (tSignedBeaconBlock mainnet) = true /\ wt (tSignedBeaconBlock mainnet) smp_signed_block /\
  short_bits smp_signed_block = true /\
  serialize_int (tSignedBeaconBlock mainnet) smp_signed_block = Ok (serialize (tSignedBeaconBlock mainnet) smp_signed_block).
Proof.
  assert (W : wt (tSignedBeaconBlock mainnet) smp_signed_block) by (apply wtb_wt; reflexivity).
  split; [reflexivity|]. split; [exact W|]. split; [reflexivity|].
  exact (serialize_int_eq (tSignedBeaconBlock mainnet) eq_refl smp_signed_block W).
Qed.

(** In particular nothing changes for values within the limits of the specification, nor
    for what is read from inputs below 256 MiB. *)
Theorem C49_within_limits : forall t s v, container_pair t s -> has_type s v ->
  serialize_int t v = Ok (serialize t v) /\
  forall HB, hash_tree_root_int HB t v = hash_tree_root HB t v.
Proof. exact limits_defined. Qed.
Print Assumptions C49_within_limits.
Theorem C49_inputs_partial : forall t s old b v,
  container_pair t s -> wt t old -> bytes_ok b -> zlen b < 2 ^ 28 ->
  deserialize t old b = Ok (true, v) ->
  serialize_int t v = Ok (serialize t v) /\
  forall HB, hash_tree_root_int HB t v = hash_tree_root HB t v.
Proof. exact inputs_defined. Qed.
Print Assumptions C49_inputs_partial.
Example C49_inputs_case :
  let t := tSignedBeaconBlock mainnet in let b := serialize t smp_signed_block in
  container_pair t sSignedBeaconBlock /\ has_type sSignedBeaconBlock smp_signed_block /\
  wt t (default t) /\ bytes_ok b /\ zlen b < 2 ^ 28 /\ deserialize t (default t) b = Ok (true, smp_signed_block).
Proof.
  cbn zeta. split; [apply pair_mainnet with (name := "SignedBeaconBlock"); cbn; tauto|].
  assert (W : wt (tSignedBeaconBlock mainnet) smp_signed_block) by (apply wtb_wt; reflexivity).
  split; [apply (matches_type (tSignedBeaconBlock mainnet)); [reflexivity|]; split; [exact W|apply withinb_within; reflexivity]|].
  assert (D : wt (tSignedBeaconBlock mainnet) (default (tSignedBeaconBlock mainnet))) by (apply wtb_wt; reflexivity). split; [exact D|].
  assert (L : zlen (serialize (tSignedBeaconBlock mainnet) smp_signed_block) = 1492) by reflexivity.
  split; [exact (g_ok _ _ _ (good_of (tSignedBeaconBlock mainnet) eq_refl) _ W)|].
  split; [rewrite L; reflexivity|].
  refine (round_trip (tSignedBeaconBlock mainnet) smp_signed_block _ eq_refl W D _). rewrite L. reflexivity.
Qed.

(** Text. Nodes without long texts are read as without counters. *)
Theorem C49_decode_partial : forall e t v node,
  short_texts node = true -> decode_int e t v node = decode e t v node.
Proof. exact decode_int_eq. Qed.
Print Assumptions C49_decode_partial.
(** All texts, for a single bitlist and for a single bitvector: the texts of 2^31
    characters and more are undefined; the bytes of a bitvector's text from number 2^29
    on are taken for the first ones. *)
Theorem C49_bitlist_text : forall e limit v s,
  decode_int e (TBitlist limit) v (YScalar s) =
  if zlen s <? 2 ^ 31 then decode e (TBitlist limit) v (YScalar s) else if hex_text s then UB else Throw.
Proof. exact bitlist_decode_text. Qed.
Print Assumptions C49_bitlist_text.
Theorem C49_bitvector_text : forall e n v s, 0 <= n -> Forall (fun ch => 0 <= ch < 128) s ->
  decode_int e (TBitvector n) v (YScalar s) =
  if hex_text s
  then if zlen s <? 2 ^ 31 then decode e (TBitvector n) v (YScalar (wrapped s)) else UB
  else Throw.
Proof. exact bitvector_decode_int. Qed.
Print Assumptions C49_bitvector_text.
(** All nodes: decode() gives what it would give with unbounded counters on a node whose
    texts of bit fields are replaced as above. *)
Theorem C49_decode_exact : forall e t s v node, container_pair t s ->
  decode_int e t v node = decode e t v (narrow s node).
Proof. exact container_narrow. Qed.
Print Assumptions C49_decode_exact.
Theorem C49_decode_exact_parts : forall e t s v node,
  wf t = true -> yaml_wf t = true -> matches t s = true -> same_names t s = true ->
  decode_int e t v node = decode e t v (narrow s node).
Proof. intros e t s v node Hw Hy Hm Hs. exact (decode_narrow e t Hw Hy s Hm Hs v node). Qed.
Print Assumptions C49_decode_exact_parts.
Example C49_decode_case :
  container_pair (tAttestation mainnet) sAttestation /\
  decode strict_externals (tAttestation mainnet) (default (tAttestation mainnet)) (narrow sAttestation smp_node) = Ok (true, smp_attestation) /\
  let t := TListF (TBitvector 4) 9 in let s := SList (SBitvector 4) 9 in
  wf t = true /\ yaml_wf t = true /\ matches t s = true /\ same_names t s = true.
Proof.
  assert (P : container_pair (tAttestation mainnet) sAttestation) by (apply pair_mainnet with (name := "Attestation"); cbn; tauto).
  split; [exact P|]. split; [|repeat split].
  rewrite <- (container_narrow _ _ _ _ _ P). rewrite decode_int_eq; reflexivity.
Qed.
(** A text of 2^29 zero bytes and one byte 0f: four bits that are not set in its first
    byte are set. *)
Theorem C49_text_refuted : exists s, zlen s = 2 ^ 30 + 4 /\ Forall (fun ch => 0 <= ch < 128) s /\
  forall e v,
    decode e (TBitvector 4) v (YScalar s) = Ok (true, VBits [false; false; false; false]) /\
    decode_int e (TBitvector 4) v (YScalar s) = Ok (true, VBits [true; true; true; true]).
Proof.
  assert (E : Z.of_nat (Z.to_nat (2 ^ 29)) = 2 ^ 29) by (apply Z2Nat.id; discriminate).
  exists (long_text (Z.to_nat (2 ^ 29))). split; [exact (long_zlen _ E)|].
  split; [exact (proj1 (long_wraps _ E strict_externals (VSeq [])))|].
  intros e v. exact (proj2 (long_wraps _ E e v)).
Qed.
Print Assumptions C49_text_refuted.
Example C49_text_case :
  short_texts smp_node = true /\
  decode_int strict_externals (tAttestation mainnet) (default (tAttestation mainnet)) smp_node = Ok (true, smp_attestation) /\
  hex_text [48; 120; 49; 49; 48; 50] = true /\
  decode_int strict_externals (TBitvector 12) (default (TBitvector 12)) (YScalar [48; 120; 49; 49; 48; 50]) =
  Ok (true, VBits [true; false; false; false; true; false; false; false; false; true; false; false]).
Proof.
  assert (S : short_texts smp_node = true) by reflexivity. split; [exact S|].
  split; [rewrite (decode_int_eq _ _ _ _ S); reflexivity|]. split; [reflexivity|].
  rewrite decode_int_eq; reflexivity.
Qed.
