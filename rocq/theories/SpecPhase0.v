(** The phase0 containers as given in the Ethereum consensus specification
    ("specs/phase0/beacon-chain.md", sections "Constants", "Preset" and
    "Containers"; presets/mainnet/phase0.yaml, presets/minimal/phase0.yaml).
    Written from that document, not from /repo. *)
From Coq Require Import ZArith String List.
From Verif Require Import Base SpecSSZ.
Import ListNotations.
Open Scope Z_scope.
Open Scope string_scope.

(** Preset values on which the container types depend and that differ between
    mainnet and minimal. *)
Record preset : Type := {
  p_slots_per_epoch : Z;
  p_slots_per_historical_root : Z;
  p_epochs_per_historical_vector : Z;
  p_epochs_per_slashings_vector : Z;
  p_epochs_per_eth1_voting_period : Z
}.
Definition preset_mainnet : preset := {|
  p_slots_per_epoch := 32;
  p_slots_per_historical_root := 8192;
  p_epochs_per_historical_vector := 65536;
  p_epochs_per_slashings_vector := 8192;
  p_epochs_per_eth1_voting_period := 64 |}.
Definition preset_minimal : preset := {|
  p_slots_per_epoch := 8;
  p_slots_per_historical_root := 64;
  p_epochs_per_historical_vector := 64;
  p_epochs_per_slashings_vector := 64;
  p_epochs_per_eth1_voting_period := 4 |}.

(** Custom types *)
Definition Version := SByteVector 4.
Definition Root := SByteVector 32.
Definition Hash32 := SByteVector 32.
Definition Bytes32 := SByteVector 32.
Definition Domain := SByteVector 32.
Definition BLSPubkey := SByteVector 48.
Definition BLSSignature := SByteVector 96.
Definition Slot := SUint64.
Definition Epoch := SUint64.
Definition CommitteeIndex := SUint64.
Definition ValidatorIndex := SUint64.
Definition Gwei := SUint64.
Definition uint64 := SUint64.

Section Containers.
Variable p : preset.

Definition sFork := SContainer
  [("previous_version", Version); ("current_version", Version); ("epoch", Epoch)].
Definition sForkData := SContainer
  [("current_version", Version); ("genesis_validators_root", Root)].
Definition sCheckpoint := SContainer [("epoch", Epoch); ("root", Root)].
Definition sSigningData := SContainer [("object_root", Root); ("domain", Domain)].
Definition sValidator := SContainer
  [("pubkey", BLSPubkey); ("withdrawal_credentials", Bytes32);
   ("effective_balance", Gwei); ("slashed", SBoolean);
   ("activation_eligibility_epoch", Epoch); ("activation_epoch", Epoch);
   ("exit_epoch", Epoch); ("withdrawable_epoch", Epoch)].
Definition sAttestationData := SContainer
  [("slot", Slot); ("index", CommitteeIndex); ("beacon_block_root", Root);
   ("source", sCheckpoint); ("target", sCheckpoint)].
Definition sIndexedAttestation := SContainer
  [("attesting_indices", SList ValidatorIndex 2048);
   ("data", sAttestationData); ("signature", BLSSignature)].
Definition sPendingAttestation := SContainer
  [("aggregation_bits", SBitlist 2048); ("data", sAttestationData);
   ("inclusion_delay", Slot); ("proposer_index", ValidatorIndex)].
Definition sEth1Data := SContainer
  [("deposit_root", Root); ("deposit_count", uint64); ("block_hash", Hash32)].
Definition sDepositMessage := SContainer
  [("pubkey", BLSPubkey); ("withdrawal_credentials", Bytes32); ("amount", Gwei)].
Definition sDepositData := SContainer
  [("pubkey", BLSPubkey); ("withdrawal_credentials", Bytes32); ("amount", Gwei);
   ("signature", BLSSignature)].
Definition sBeaconBlockHeader := SContainer
  [("slot", Slot); ("proposer_index", ValidatorIndex); ("parent_root", Root);
   ("state_root", Root); ("body_root", Root)].
Definition sSignedBeaconBlockHeader := SContainer
  [("message", sBeaconBlockHeader); ("signature", BLSSignature)].
Definition sProposerSlashing := SContainer
  [("signed_header_1", sSignedBeaconBlockHeader);
   ("signed_header_2", sSignedBeaconBlockHeader)].
Definition sAttesterSlashing := SContainer
  [("attestation_1", sIndexedAttestation); ("attestation_2", sIndexedAttestation)].
Definition sAttestation := SContainer
  [("aggregation_bits", SBitlist 2048); ("data", sAttestationData);
   ("signature", BLSSignature)].
Definition sDeposit := SContainer
  [("proof", SVector Bytes32 33); ("data", sDepositData)].
Definition sVoluntaryExit := SContainer
  [("epoch", Epoch); ("validator_index", ValidatorIndex)].
Definition sSignedVoluntaryExit := SContainer
  [("message", sVoluntaryExit); ("signature", BLSSignature)].
Definition sBeaconBlockBody := SContainer
  [("randao_reveal", BLSSignature); ("eth1_data", sEth1Data); ("graffiti", Bytes32);
   ("proposer_slashings", SList sProposerSlashing 16);
   ("attester_slashings", SList sAttesterSlashing 2);
   ("attestations", SList sAttestation 128);
   ("deposits", SList sDeposit 16);
   ("voluntary_exits", SList sSignedVoluntaryExit 16)].
Definition sBeaconBlock := SContainer
  [("slot", Slot); ("proposer_index", ValidatorIndex); ("parent_root", Root);
   ("state_root", Root); ("body", sBeaconBlockBody)].
Definition sSignedBeaconBlock := SContainer
  [("message", sBeaconBlock); ("signature", BLSSignature)].
Definition sBeaconState := SContainer
  [("genesis_time", uint64); ("genesis_validators_root", Root); ("slot", Slot);
   ("fork", sFork);
   ("latest_block_header", sBeaconBlockHeader);
   ("block_roots", SVector Root (p_slots_per_historical_root p));
   ("state_roots", SVector Root (p_slots_per_historical_root p));
   ("historical_roots", SList Root (2 ^ 24));
   ("eth1_data", sEth1Data);
   ("eth1_data_votes",
      SList sEth1Data (p_epochs_per_eth1_voting_period p * p_slots_per_epoch p));
   ("eth1_deposit_index", uint64);
   ("validators", SList sValidator (2 ^ 40));
   ("balances", SList Gwei (2 ^ 40));
   ("randao_mixes", SVector Bytes32 (p_epochs_per_historical_vector p));
   ("slashings", SVector Gwei (p_epochs_per_slashings_vector p));
   ("previous_epoch_attestations",
      SList sPendingAttestation (128 * p_slots_per_epoch p));
   ("current_epoch_attestations",
      SList sPendingAttestation (128 * p_slots_per_epoch p));
   ("justification_bits", SBitvector 4);
   ("previous_justified_checkpoint", sCheckpoint);
   ("current_justified_checkpoint", sCheckpoint);
   ("finalized_checkpoint", sCheckpoint)].

Definition phase0_containers : list (string * sty) :=
  [("Fork", sFork); ("ForkData", sForkData); ("Checkpoint", sCheckpoint);
   ("SigningData", sSigningData); ("Eth1Data", sEth1Data);
   ("DepositMessage", sDepositMessage); ("DepositData", sDepositData);
   ("Deposit", sDeposit); ("AttestationData", sAttestationData);
   ("IndexedAttestation", sIndexedAttestation);
   ("PendingAttestation", sPendingAttestation); ("Attestation", sAttestation);
   ("Validator", sValidator); ("BeaconBlockHeader", sBeaconBlockHeader);
   ("VoluntaryExit", sVoluntaryExit); ("SignedVoluntaryExit", sSignedVoluntaryExit);
   ("SignedBeaconBlockHeader", sSignedBeaconBlockHeader);
   ("ProposerSlashing", sProposerSlashing); ("AttesterSlashing", sAttesterSlashing);
   ("BeaconBlockBody", sBeaconBlockBody); ("BeaconBlock", sBeaconBlock);
   ("SignedBeaconBlock", sSignedBeaconBlock); ("BeaconState", sBeaconState)].
End Containers.
