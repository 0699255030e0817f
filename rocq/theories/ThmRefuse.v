(** YAML that is refused (C56). *)
From Coq Require Import ZArith String List Bool.
From Verif Require Import Base SpecSSZ ModelSSZ ModelBytes ModelYaml ModelEth SpecObj SpecPhase0
  SpecClasses SpecText SpecYaml SpecLoose SpecRefuse Samples SamplesYaml LemCheck LemYaml LemLoose LemRefuse.
Import ListNotations.
Open Scope string_scope.
Open Scope list_scope.
Open Scope Z_scope.

(** ** C56. Full claim: a refused node leaves the object as it was,
    [decode e t old node = Ok (false, v) -> v = old]. False: whatever a fork holds, there is a
    node that is refused after the first field has been overwritten. *)
Theorem C56_refuted : forall e old, wt tFork old ->
  exists node v, decode e tFork old node = Ok (false, v) /\ v <> old.
Proof. exact half_read. Qed.
Print Assumptions C56_refuted.
(** The nodes that are refused and what they leave, exactly (SpecRefuse): of every container ... *)
Theorem C56_exact_partial : forall e t s old node v, container_pair t s -> wt t old ->
  (decode e t old node = Ok (false, v) <-> refuses e s node old v).
Proof. exact container_refuses. Qed.
Print Assumptions C56_exact_partial.
(** ... and of every type they are made of. *)
Theorem C56_exact_parts_partial : forall e t s old node v, wf t = true -> matches t s = true -> same_names t s = true -> wt t old ->
  (decode e t old node = Ok (false, v) <-> refuses e s node old v).
Proof. exact part_refuses. Qed.
Print Assumptions C56_exact_parts_partial.
(** An exception is thrown in all remaining cases. *)
Theorem C56_throws : forall e t s old node, container_pair t s -> wt t old ->
  (decode e t old node = Throw <->
   (forall v, ~ reads_as e s node v) /\ (forall v, ~ refuses e s node old v) /\ ~ breaks e s node).
Proof. exact container_throws. Qed.
Print Assumptions C56_throws.
(** A checkpoint of two fields inside attestation data of five: the slot, the index, the root and
    the epoch in front of the refused root have been replaced, the rest has not. *)
Example C56_case :
  let chk e r := YMap [("root", r); ("epoch", YScalar e)] in
  let zero := YScalar [48; 120] in
  let node := YMap [("slot", YScalar [55]); ("index", YScalar [56]); ("beacon_block_root", zero);
                    ("source", chk [57] (YMap [])); ("target", chk [57] zero)] in
  exists old v, container_pair tAttestationData sAttestationData /\ wt tAttestationData old /\
  decode strict_externals tAttestationData old node = Ok (false, v) /\ refuses strict_externals sAttestationData node old v /\ v <> old /\
  decode strict_externals tAttestationData old (YMap [("slot", YScalar [55])]) = Throw.
Proof.
  cbn zeta. assert (P : container_pair tAttestationData sAttestationData) by (apply pair_mainnet with (name := "AttestationData"); cbv; tauto).
  pose (old := VSeq [VNum 1; VNum 2; VBytes (repeat 3 32); VSeq [VNum 4; VBytes (repeat 5 32)]; VSeq [VNum 6; VBytes (repeat 7 32)]]).
  assert (W : wt tAttestationData old) by (apply wtb_wt; reflexivity).
  exists old, (VSeq [VNum 7; VNum 8; VBytes (repeat 0 32); VSeq [VNum 9; VBytes (repeat 5 32)]; VSeq [VNum 6; VBytes (repeat 7 32)]]).
  split; [exact P|]. split; [exact W|]. split; [reflexivity|]. split; [apply (container_refuses _ _ _ _ _ _ P W); reflexivity|].
  split; [discriminate|reflexivity].
Qed.
