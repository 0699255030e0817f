(** The containers of common/containers.hpp and beacon-chain/, with the part lists
    their methods pass to serialize_, deserialize_, hash_tree_, encode_ and decode_,
    and the constants of config/. *)
From Coq Require Import ZArith String List.
From Verif Require Import Base SpecSSZ ModelSSZ.
Import ListNotations.
Open Scope Z_scope.
Open Scope string_scope.

(** The constants of config/*.hpp.in that appear in class definitions. *)
Record config : Type := {
  MAX_VALIDATORS_PER_COMMITTEE : Z;
  SLOTS_PER_EPOCH : Z;
  EPOCHS_PER_ETH1_VOTING_PERIOD : Z;
  SLOTS_PER_HISTORICAL_ROOT : Z;
  EPOCHS_PER_HISTORICAL_VECTOR : Z;
  EPOCHS_PER_SLASHINGS_VECTOR : Z;
  HISTORICAL_ROOTS_LIMIT : Z;
  VALIDATOR_REGISTRY_LIMIT : Z;
  MAX_PROPOSER_SLASHINGS : Z;
  MAX_ATTESTER_SLASHINGS : Z;
  MAX_ATTESTATIONS : Z;
  MAX_DEPOSITS : Z;
  MAX_VOLUNTARY_EXITS : Z
}.

(** config/mainnet.hpp.in:63,69,72,73,75,76,77,78,85,86,87,88,89 *)
Definition mainnet : config := {|
  MAX_VALIDATORS_PER_COMMITTEE := 2048;
  SLOTS_PER_EPOCH := 32;
  EPOCHS_PER_ETH1_VOTING_PERIOD := 64;
  SLOTS_PER_HISTORICAL_ROOT := 8192;
  EPOCHS_PER_HISTORICAL_VECTOR := 65536;
  EPOCHS_PER_SLASHINGS_VECTOR := 8192;
  HISTORICAL_ROOTS_LIMIT := 16777216;
  VALIDATOR_REGISTRY_LIMIT := 1099511627776;
  MAX_PROPOSER_SLASHINGS := 16;
  MAX_ATTESTER_SLASHINGS := 2;
  MAX_ATTESTATIONS := 128;
  MAX_DEPOSITS := 16;
  MAX_VOLUNTARY_EXITS := 16
|}.

(** config/minimal.hpp.in:64,70,73,74,76,77,78,79,86,87,88,89,90 *)
Definition minimal : config := {|
  MAX_VALIDATORS_PER_COMMITTEE := 2048;
  SLOTS_PER_EPOCH := 8;
  EPOCHS_PER_ETH1_VOTING_PERIOD := 4;
  SLOTS_PER_HISTORICAL_ROOT := 64;
  EPOCHS_PER_HISTORICAL_VECTOR := 64;
  EPOCHS_PER_SLASHINGS_VECTOR := 64;
  HISTORICAL_ROOTS_LIMIT := 16777216;
  VALIDATOR_REGISTRY_LIMIT := 1099511627776;
  MAX_PROPOSER_SLASHINGS := 16;
  MAX_ATTESTER_SLASHINGS := 2;
  MAX_ATTESTATIONS := 128;
  MAX_DEPOSITS := 16;
  MAX_VOLUNTARY_EXITS := 16
|}.

(** config/constants.hpp:31-32 *)
Definition DEPOSIT_CONTRACT_TREE_DEPTH : Z := 32.
Definition JUSTIFICATION_BITS_LENGTH : Z := 4.

Section Classes.
Variable c : config.

(** Fork, common/containers.hpp:235-263 *)
Definition tFork : ty := TClass
  {| ci_eq := true;
     ci_size := 16;
     ci_ser := [0%nat; 1%nat; 2%nat];
     ci_des := [0%nat; 1%nat; 2%nat];
     ci_hash := [0%nat; 1%nat; 2%nat];
     ci_enc := [("previous_version", 0%nat);
                 ("current_version", 1%nat);
                 ("epoch", 2%nat)];
     ci_dec := [("previous_version", 0%nat);
                 ("current_version", 1%nat);
                 ("epoch", 2%nat)] |}
  [(* previous_version *) TBytes 4;
   (* current_version *) TBytes 4;
   (* epoch *) TSlot].

(** ForkData, common/containers.hpp:265-290 *)
Definition tForkData : ty := TClass
  {| ci_eq := false;
     ci_size := 36;
     ci_ser := [0%nat; 1%nat];
     ci_des := [0%nat; 1%nat];
     ci_hash := [0%nat; 1%nat];
     ci_enc := [("current_version", 0%nat);
                 ("genesis_validators_root", 1%nat)];
     ci_dec := [("current_version", 0%nat);
                 ("genesis_validators_root", 1%nat)] |}
  [(* current_version *) TBytes 4;
   (* genesis_validators_root *) TBytes 32].

(** Checkpoint, common/containers.hpp:292-307 *)
Definition tCheckpoint : ty := TClass
  {| ci_eq := false;
     ci_size := 40;
     ci_ser := [0%nat; 1%nat];
     ci_des := [0%nat; 1%nat];
     ci_hash := [0%nat; 1%nat];
     ci_enc := [("epoch", 0%nat);
                 ("root", 1%nat)];
     ci_dec := [("epoch", 0%nat);
                 ("root", 1%nat)] |}
  [(* epoch *) TSlot;
   (* root *) TBytes 32].

(** SigningData, common/containers.hpp:309-327 *)
Definition tSigningData : ty := TClass
  {| ci_eq := false;
     ci_size := 64;
     ci_ser := [0%nat; 1%nat];
     ci_des := [0%nat; 1%nat];
     ci_hash := [0%nat; 1%nat];
     ci_enc := [("object_root", 0%nat);
                 ("domain", 1%nat)];
     ci_dec := [("object_root", 0%nat);
                 ("domain", 1%nat)] |}
  [(* object_root *) TBytes 32;
   (* domain *) TBytes 32].

(** Eth1Data, beacon-chain/eth1data.hpp:27-50 *)
Definition tEth1Data : ty := TClass
  {| ci_eq := false;
     ci_size := 72;
     ci_ser := [0%nat; 1%nat; 2%nat];
     ci_des := [0%nat; 1%nat; 2%nat];
     ci_hash := [0%nat; 1%nat; 2%nat];
     ci_enc := [("deposit_root", 0%nat);
                 ("deposit_count", 1%nat);
                 ("block_hash", 2%nat)];
     ci_dec := [("deposit_root", 0%nat);
                 ("deposit_count", 1%nat);
                 ("block_hash", 2%nat)] |}
  [(* deposit_root *) TBytes 32;
   (* deposit_count *) TSlot;
   (* block_hash *) TBytes 32].

(** DepositMessage, beacon-chain/deposits.hpp:32-54 *)
Definition tDepositMessage : ty := TClass
  {| ci_eq := false;
     ci_size := 88;
     ci_ser := [0%nat; 1%nat; 2%nat];
     ci_des := [0%nat; 1%nat; 2%nat];
     ci_hash := [0%nat; 1%nat; 2%nat];
     ci_enc := [("pubkey", 0%nat);
                 ("withdrawal_credentials", 1%nat);
                 ("amount", 2%nat)];
     ci_dec := [("pubkey", 0%nat);
                 ("withdrawal_credentials", 1%nat);
                 ("amount", 2%nat)] |}
  [(* pubkey *) TBytes 48;
   (* withdrawal_credentials *) TBytes 32;
   (* amount *) TSlot].

(** DepositData, beacon-chain/deposits.hpp:56-87 *)
Definition tDepositData : ty := TClass
  {| ci_eq := false;
     ci_size := 184;
     ci_ser := [0%nat; 1%nat; 2%nat; 3%nat];
     ci_des := [0%nat; 1%nat; 2%nat; 3%nat];
     ci_hash := [0%nat; 1%nat; 2%nat; 3%nat];
     ci_enc := [("pubkey", 0%nat);
                 ("withdrawal_credentials", 1%nat);
                 ("amount", 2%nat);
                 ("signature", 3%nat)];
     ci_dec := [("pubkey", 0%nat);
                 ("withdrawal_credentials", 1%nat);
                 ("amount", 2%nat);
                 ("signature", 3%nat)] |}
  [(* pubkey *) TBytes 48;
   (* withdrawal_credentials *) TBytes 32;
   (* amount *) TSlot;
   (* signature *) TBytes 96].

(** Deposit, beacon-chain/deposits.hpp:89-104 *)
Definition tDeposit : ty := TClass
  {| ci_eq := false;
     ci_size := 32 * DEPOSIT_CONTRACT_TREE_DEPTH + 216;
     ci_ser := [0%nat; 1%nat];
     ci_des := [0%nat; 1%nat];
     ci_hash := [0%nat; 1%nat];
     ci_enc := [("proof", 0%nat);
                 ("data", 1%nat)];
     ci_dec := [("proof", 0%nat);
                 ("data", 1%nat)] |}
  [(* proof *) TVector (TBytes 32) (DEPOSIT_CONTRACT_TREE_DEPTH + 1);
   (* data *) tDepositData].

(** AttestationData, beacon-chain/attestation.hpp:33-49 and beacon-chain/attestation.cpp *)
Definition tAttestationData : ty := TClass
  {| ci_eq := false;
     ci_size := 128;
     ci_ser := [0%nat; 1%nat; 2%nat; 3%nat; 4%nat];
     ci_des := [0%nat; 1%nat; 2%nat; 3%nat; 4%nat];
     ci_hash := [0%nat; 1%nat; 2%nat; 3%nat; 4%nat];
     ci_enc := [("slot", 0%nat);
                 ("index", 1%nat);
                 ("beacon_block_root", 2%nat);
                 ("source", 3%nat);
                 ("target", 4%nat)];
     ci_dec := [("slot", 0%nat);
                 ("index", 1%nat);
                 ("beacon_block_root", 2%nat);
                 ("source", 3%nat);
                 ("target", 4%nat)] |}
  [(* slot *) TSlot;
   (* index *) TSlot;
   (* beacon_block_root *) TBytes 32;
   (* source *) tCheckpoint;
   (* target *) tCheckpoint].

(** IndexedAttestation, beacon-chain/attestation.hpp:51-63 and beacon-chain/attestation.cpp *)
Definition tIndexedAttestation : ty := TClass
  {| ci_eq := false;
     ci_size := 0;
     ci_ser := [0%nat; 1%nat; 2%nat];
     ci_des := [0%nat; 1%nat; 2%nat];
     ci_hash := [0%nat; 1%nat; 2%nat];
     ci_enc := [("attesting_indices", 0%nat);
                 ("data", 1%nat);
                 ("signature", 2%nat)];
     ci_dec := [("attesting_indices", 0%nat);
                 ("data", 1%nat);
                 ("signature", 2%nat)] |}
  [(* attesting_indices *) TListF (TSlot) (MAX_VALIDATORS_PER_COMMITTEE c);
   (* data *) tAttestationData;
   (* signature *) TBytes 96].

(** PendingAttestation, beacon-chain/attestation.hpp:65-77 and beacon-chain/attestation.cpp *)
Definition tPendingAttestation : ty := TClass
  {| ci_eq := false;
     ci_size := 0;
     ci_ser := [0%nat; 1%nat; 2%nat; 3%nat];
     ci_des := [0%nat; 1%nat; 2%nat; 3%nat];
     ci_hash := [0%nat; 1%nat; 2%nat; 3%nat];
     ci_enc := [("aggregation_bits", 0%nat);
                 ("data", 1%nat);
                 ("inclusion_delay", 2%nat);
                 ("proposer_index", 3%nat)];
     ci_dec := [("aggregation_bits", 0%nat);
                 ("data", 1%nat);
                 ("inclusion_delay", 2%nat);
                 ("proposer_index", 3%nat)] |}
  [(* aggregation_bits *) TBitlist (MAX_VALIDATORS_PER_COMMITTEE c);
   (* data *) tAttestationData;
   (* inclusion_delay *) TSlot;
   (* proposer_index *) TSlot].

(** Attestation, beacon-chain/attestation.hpp:79-90 and beacon-chain/attestation.cpp *)
Definition tAttestation : ty := TClass
  {| ci_eq := false;
     ci_size := 0;
     ci_ser := [0%nat; 1%nat; 2%nat];
     ci_des := [0%nat; 1%nat; 2%nat];
     ci_hash := [0%nat; 1%nat; 2%nat];
     ci_enc := [("aggregation_bits", 0%nat);
                 ("data", 1%nat);
                 ("signature", 2%nat)];
     ci_dec := [("aggregation_bits", 0%nat);
                 ("data", 1%nat);
                 ("signature", 2%nat)] |}
  [(* aggregation_bits *) TBitlist (MAX_VALIDATORS_PER_COMMITTEE c);
   (* data *) tAttestationData;
   (* signature *) TBytes 96].

(** Validator, beacon-chain/validator.hpp:30-51 and beacon-chain/validator.cpp *)
Definition tValidator : ty := TClass
  {| ci_eq := false;
     ci_size := 121;
     ci_ser := [0%nat; 1%nat; 2%nat; 3%nat; 4%nat; 5%nat; 6%nat; 7%nat];
     ci_des := [0%nat; 1%nat; 2%nat; 3%nat; 4%nat; 5%nat; 6%nat; 7%nat];
     ci_hash := [0%nat; 1%nat; 2%nat; 3%nat; 4%nat; 5%nat; 6%nat; 7%nat];
     ci_enc := [("pubkey", 0%nat);
                 ("withdrawal_credentials", 1%nat);
                 ("effective_balance", 2%nat);
                 ("slashed", 3%nat);
                 ("activation_eligibility_epoch", 4%nat);
                 ("activation_epoch", 5%nat);
                 ("exit_epoch", 6%nat);
                 ("withdrawable_epoch", 7%nat)];
     ci_dec := [("pubkey", 0%nat);
                 ("withdrawal_credentials", 1%nat);
                 ("effective_balance", 2%nat);
                 ("slashed", 3%nat);
                 ("activation_eligibility_epoch", 4%nat);
                 ("activation_epoch", 5%nat);
                 ("exit_epoch", 6%nat);
                 ("withdrawable_epoch", 7%nat)] |}
  [(* pubkey *) TBytes 48;
   (* withdrawal_credentials *) TBytes 32;
   (* effective_balance *) TSlot;
   (* slashed *) TBoolean;
   (* activation_eligibility_epoch *) TSlot;
   (* activation_epoch *) TSlot;
   (* exit_epoch *) TSlot;
   (* withdrawable_epoch *) TSlot].

(** BeaconBlockHeader, beacon-chain/beacon_block.hpp:35-69 *)
Definition tBeaconBlockHeader : ty := TClass
  {| ci_eq := true;
     ci_size := 112;
     ci_ser := [0%nat; 1%nat; 2%nat; 3%nat; 4%nat];
     ci_des := [0%nat; 1%nat; 2%nat; 3%nat; 4%nat];
     ci_hash := [0%nat; 1%nat; 2%nat; 3%nat; 4%nat];
     ci_enc := [("slot", 0%nat);
                 ("proposer_index", 1%nat);
                 ("parent_root", 2%nat);
                 ("state_root", 3%nat);
                 ("body_root", 4%nat)];
     ci_dec := [("slot", 0%nat);
                 ("proposer_index", 1%nat);
                 ("parent_root", 2%nat);
                 ("state_root", 3%nat);
                 ("body_root", 4%nat)] |}
  [(* slot *) TSlot;
   (* proposer_index *) TSlot;
   (* parent_root *) TBytes 32;
   (* state_root *) TBytes 32;
   (* body_root *) TBytes 32].

(** VoluntaryExit, beacon-chain/beacon_block.hpp:71-90 *)
Definition tVoluntaryExit : ty := TClass
  {| ci_eq := true;
     ci_size := 16;
     ci_ser := [0%nat; 1%nat];
     ci_des := [0%nat; 1%nat];
     ci_hash := [0%nat; 1%nat];
     ci_enc := [("epoch", 0%nat);
                 ("validator_index", 1%nat)];
     ci_dec := [("epoch", 0%nat);
                 ("validator_index", 1%nat)] |}
  [(* epoch *) TSlot;
   (* validator_index *) TSlot].

(** SignedVoluntaryExit, beacon-chain/beacon_block.hpp:92-110 *)
Definition tSignedVoluntaryExit : ty := TClass
  {| ci_eq := true;
     ci_size := 112;
     ci_ser := [0%nat; 1%nat];
     ci_des := [0%nat; 1%nat];
     ci_hash := [0%nat; 1%nat];
     ci_enc := [("message", 0%nat);
                 ("signature", 1%nat)];
     ci_dec := [("message", 0%nat);
                 ("signature", 1%nat)] |}
  [(* message *) tVoluntaryExit;
   (* signature *) TBytes 96].

(** SignedBeaconBlockHeader, beacon-chain/beacon_block.hpp:232-249 *)
Definition tSignedBeaconBlockHeader : ty := TClass
  {| ci_eq := false;
     ci_size := 208;
     ci_ser := [0%nat; 1%nat];
     ci_des := [0%nat; 1%nat];
     ci_hash := [0%nat; 1%nat];
     ci_enc := [("message", 0%nat);
                 ("signature", 1%nat)];
     ci_dec := [("message", 0%nat);
                 ("signature", 1%nat)] |}
  [(* message *) tBeaconBlockHeader;
   (* signature *) TBytes 96].

(** ProposerSlashing, beacon-chain/beacon_block.hpp:251-268 *)
Definition tProposerSlashing : ty := TClass
  {| ci_eq := false;
     ci_size := 416;
     ci_ser := [0%nat; 1%nat];
     ci_des := [0%nat; 1%nat];
     ci_hash := [0%nat; 1%nat];
     ci_enc := [("signed_header_1", 0%nat);
                 ("signed_header_2", 1%nat)];
     ci_dec := [("signed_header_1", 0%nat);
                 ("signed_header_2", 1%nat)] |}
  [(* signed_header_1 *) tSignedBeaconBlockHeader;
   (* signed_header_2 *) tSignedBeaconBlockHeader].

(** AttesterSlashing, beacon-chain/beacon_block.hpp:270-285 *)
Definition tAttesterSlashing : ty := TClass
  {| ci_eq := false;
     ci_size := 0;
     ci_ser := [0%nat; 1%nat];
     ci_des := [0%nat; 1%nat];
     ci_hash := [0%nat; 1%nat];
     ci_enc := [("attestation_1", 0%nat);
                 ("attestation_2", 1%nat)];
     ci_dec := [("attestation_1", 0%nat);
                 ("attestation_2", 1%nat)] |}
  [(* attestation_1 *) tIndexedAttestation;
   (* attestation_2 *) tIndexedAttestation].

(** BeaconBlockBody, beacon-chain/beacon_block.hpp:115-183 *)
Definition tBeaconBlockBody : ty := TClass
  {| ci_eq := false;
     ci_size := 0;
     ci_ser := [0%nat; 1%nat; 2%nat; 3%nat; 4%nat; 5%nat; 6%nat; 7%nat];
     ci_des := [0%nat; 1%nat; 2%nat; 3%nat; 4%nat; 5%nat; 6%nat; 7%nat];
     ci_hash := [0%nat; 1%nat; 2%nat; 3%nat; 4%nat; 5%nat; 6%nat; 7%nat];
     ci_enc := [("randao_reveal", 0%nat);
                 ("eth1_data", 1%nat);
                 ("graffiti", 2%nat);
                 ("proposer_slashings", 3%nat);
                 ("attester_slashings", 4%nat);
                 ("attestations", 5%nat);
                 ("deposits", 6%nat);
                 ("voluntary_exits", 7%nat)];
     ci_dec := [("randao_reveal", 0%nat);
                 ("eth1_data", 1%nat);
                 ("graffiti", 2%nat);
                 ("proposer_slashings", 3%nat);
                 ("attester_slashings", 4%nat);
                 ("attestations", 5%nat);
                 ("deposits", 6%nat);
                 ("voluntary_exits", 7%nat)] |}
  [(* randao_reveal_ *) TBytes 96;
   (* eth1_data_ *) tEth1Data;
   (* graffiti_ *) TBytes 32;
   (* proposer_slashings_ *) TListF (tProposerSlashing) (MAX_PROPOSER_SLASHINGS c);
   (* attester_slashings_ *) TListV (tAttesterSlashing) (MAX_ATTESTER_SLASHINGS c);
   (* attestations_ *) TListV (tAttestation) (MAX_ATTESTATIONS c);
   (* deposits_ *) TListF (tDeposit) (MAX_DEPOSITS c);
   (* voluntary_exits_ *) TListF (tSignedVoluntaryExit) (MAX_VOLUNTARY_EXITS c)].

(** BeaconBlock, beacon-chain/beacon_block.hpp:185-230 *)
Definition tBeaconBlock : ty := TClass
  {| ci_eq := false;
     ci_size := 0;
     ci_ser := [0%nat; 1%nat; 2%nat; 3%nat; 4%nat];
     ci_des := [0%nat; 1%nat; 2%nat; 3%nat; 4%nat];
     ci_hash := [0%nat; 1%nat; 2%nat; 3%nat; 4%nat];
     ci_enc := [("slot", 0%nat);
                 ("proposer_index", 1%nat);
                 ("parent_root", 2%nat);
                 ("state_root", 3%nat);
                 ("body", 4%nat)];
     ci_dec := [("slot", 0%nat);
                 ("proposer_index", 1%nat);
                 ("parent_root", 2%nat);
                 ("state_root", 3%nat);
                 ("body", 4%nat)] |}
  [(* slot_ *) TSlot;
   (* proposer_index_ *) TSlot;
   (* parent_root_ *) TBytes 32;
   (* state_root_ *) TBytes 32;
   (* body_ *) tBeaconBlockBody].

(** SignedBeaconBlock, beacon-chain/beacon_block.hpp:287-302 *)
Definition tSignedBeaconBlock : ty := TClass
  {| ci_eq := false;
     ci_size := 0;
     ci_ser := [0%nat; 1%nat];
     ci_des := [0%nat; 1%nat];
     ci_hash := [0%nat; 1%nat];
     ci_enc := [("message", 0%nat);
                 ("signature", 1%nat)];
     ci_dec := [("message", 0%nat);
                 ("signature", 1%nat)] |}
  [(* message *) tBeaconBlock;
   (* signature *) TBytes 96].

(** BeaconState, beacon-chain/beacon_state.hpp:30-220 *)
Definition tBeaconState : ty := TClass
  {| ci_eq := true;
     ci_size := 0;
     ci_ser := [0%nat; 1%nat; 2%nat; 3%nat; 4%nat; 5%nat; 6%nat; 7%nat; 8%nat; 9%nat; 10%nat; 11%nat; 12%nat; 13%nat; 14%nat; 15%nat; 16%nat; 17%nat; 18%nat; 19%nat; 20%nat];
     ci_des := [0%nat; 1%nat; 2%nat; 3%nat; 4%nat; 5%nat; 6%nat; 7%nat; 8%nat; 9%nat; 10%nat; 11%nat; 12%nat; 13%nat; 14%nat; 15%nat; 16%nat; 17%nat; 18%nat; 19%nat; 20%nat];
     ci_hash := [0%nat; 1%nat; 2%nat; 3%nat; 4%nat; 5%nat; 6%nat; 7%nat; 8%nat; 9%nat; 10%nat; 11%nat; 12%nat; 13%nat; 14%nat; 15%nat; 16%nat; 17%nat; 18%nat; 19%nat; 20%nat];
     ci_enc := [("genesis_time", 0%nat);
                 ("genesis_validators_root", 1%nat);
                 ("slot", 2%nat);
                 ("fork", 3%nat);
                 ("latest_block_header", 4%nat);
                 ("block_roots", 5%nat);
                 ("state_roots", 6%nat);
                 ("historical_roots", 7%nat);
                 ("eth1_data", 8%nat);
                 ("eth1_data_votes", 9%nat);
                 ("eth1_deposit_index", 10%nat);
                 ("validators", 11%nat);
                 ("balances", 12%nat);
                 ("randao_mixes", 13%nat);
                 ("slashings", 14%nat);
                 ("previous_epoch_attestations", 15%nat);
                 ("current_epoch_attestations", 16%nat);
                 ("justification_bits", 17%nat);
                 ("previous_justified_checkpoint", 18%nat);
                 ("current_justified_checkpoint", 19%nat);
                 ("finalized_checkpoint", 20%nat)];
     ci_dec := [("genesis_time", 0%nat);
                 ("genesis_validators_root", 1%nat);
                 ("slot", 2%nat);
                 ("fork", 3%nat);
                 ("latest_block_header", 4%nat);
                 ("block_roots", 5%nat);
                 ("state_roots", 6%nat);
                 ("historical_roots", 7%nat);
                 ("eth1_data", 8%nat);
                 ("eth1_data_votes", 9%nat);
                 ("eth1_deposit_index", 10%nat);
                 ("validators", 11%nat);
                 ("balances", 12%nat);
                 ("randao_mixes", 13%nat);
                 ("slashings", 14%nat);
                 ("previous_epoch_attestations", 15%nat);
                 ("current_epoch_attestations", 16%nat);
                 ("justification_bits", 17%nat);
                 ("previous_justified_checkpoint", 18%nat);
                 ("current_justified_checkpoint", 19%nat);
                 ("finalized_checkpoint", 20%nat)] |}
  [(* genesis_time_ *) TSlot;
   (* genesis_validators_root_ *) TBytes 32;
   (* slot_ *) TSlot;
   (* fork_ *) tFork;
   (* latest_block_header_ *) tBeaconBlockHeader;
   (* block_roots_ *) TVector (TBytes 32) (SLOTS_PER_HISTORICAL_ROOT c);
   (* state_roots_ *) TVector (TBytes 32) (SLOTS_PER_HISTORICAL_ROOT c);
   (* historical_roots_ *) TListF (TBytes 32) (HISTORICAL_ROOTS_LIMIT c);
   (* eth1_data_ *) tEth1Data;
   (* eth1_data_votes_ *) TListF (tEth1Data) (EPOCHS_PER_ETH1_VOTING_PERIOD c * SLOTS_PER_EPOCH c);
   (* eth1_deposit_index_ *) TSlot;
   (* validators_ *) TListF (tValidator) (VALIDATOR_REGISTRY_LIMIT c);
   (* balances_ *) TListF (TSlot) (VALIDATOR_REGISTRY_LIMIT c);
   (* randao_mixes_ *) TVector (TBytes 32) (EPOCHS_PER_HISTORICAL_VECTOR c);
   (* slashings_ *) TVector (TSlot) (EPOCHS_PER_SLASHINGS_VECTOR c);
   (* previous_epoch_attestations_ *) TListV (tPendingAttestation) (MAX_ATTESTATIONS c * SLOTS_PER_EPOCH c);
   (* current_epoch_attestations_ *) TListV (tPendingAttestation) (MAX_ATTESTATIONS c * SLOTS_PER_EPOCH c);
   (* justification_bits_ *) TBitvector (JUSTIFICATION_BITS_LENGTH);
   (* previous_justified_checkpoint_ *) tCheckpoint;
   (* current_justified_checkpoint_ *) tCheckpoint;
   (* finalized_checkpoint_ *) tCheckpoint].

(** All of them. *)
Definition all_classes : list (string * ty) :=
  [("Fork", tFork);
   ("ForkData", tForkData);
   ("Checkpoint", tCheckpoint);
   ("SigningData", tSigningData);
   ("Eth1Data", tEth1Data);
   ("DepositMessage", tDepositMessage);
   ("DepositData", tDepositData);
   ("Deposit", tDeposit);
   ("AttestationData", tAttestationData);
   ("IndexedAttestation", tIndexedAttestation);
   ("PendingAttestation", tPendingAttestation);
   ("Attestation", tAttestation);
   ("Validator", tValidator);
   ("BeaconBlockHeader", tBeaconBlockHeader);
   ("VoluntaryExit", tVoluntaryExit);
   ("SignedVoluntaryExit", tSignedVoluntaryExit);
   ("SignedBeaconBlockHeader", tSignedBeaconBlockHeader);
   ("ProposerSlashing", tProposerSlashing);
   ("AttesterSlashing", tAttesterSlashing);
   ("BeaconBlockBody", tBeaconBlockBody);
   ("BeaconBlock", tBeaconBlock);
   ("SignedBeaconBlock", tSignedBeaconBlock);
   ("BeaconState", tBeaconState)].
End Classes.
