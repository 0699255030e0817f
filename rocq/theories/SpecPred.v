(** Predicates of the phase 0 consensus specification, on plain records, and the
    objects holding these records. *)
From Coq Require Import ZArith List Sorting.Sorted.
From Verif Require Import SpecSSZ.
Import ListNotations.
Open Scope Z_scope.

Record checkpoint := { epoch : Z; root : list Z }.
Record att_data := { slot : Z; index : Z; block_root : list Z; source : checkpoint; target : checkpoint }.

Definition double_vote (a b : att_data) : Prop :=
  a <> b /\ epoch (target a) = epoch (target b).
Definition surround_vote (a b : att_data) : Prop :=
  epoch (source a) < epoch (source b) /\ epoch (target b) < epoch (target a).
(** is_slashable_attestation_data *)
Definition slashable_data (a b : att_data) : Prop := double_vote a b \/ surround_vote a b.

Definition checkpoint_val (c : checkpoint) : val := VSeq [VNum (epoch c); VBytes (root c)].
Definition att_val (a : att_data) : val :=
  VSeq [VNum (slot a); VNum (index a); VBytes (block_root a);
        checkpoint_val (source a); checkpoint_val (target a)].

(** The condition on indices of is_valid_indexed_attestation: not empty, sorted,
    all different. *)
Definition valid_indices (l : list Z) : Prop := l <> [] /\ Sorted Z.le l /\ NoDup l.

Record validator := {
  pubkey : list Z; withdrawal_credentials : list Z; effective_balance : Z; slashed : bool;
  activation_eligibility_epoch : Z; activation_epoch : Z; exit_epoch : Z; withdrawable_epoch : Z }.
(** is_active_validator *)
Definition active (v : validator) (e : Z) : Prop := activation_epoch v <= e < exit_epoch v.
(** is_eligible_for_activation_queue *)
Definition eligible (v : validator) : Prop :=
  activation_eligibility_epoch v = 2 ^ 64 - 1 /\ effective_balance v = 32 * 10 ^ 9.
(** is_slashable_validator *)
Definition slashable (v : validator) (e : Z) : Prop :=
  slashed v = false /\ activation_epoch v <= e < withdrawable_epoch v.
Definition validator_val (v : validator) : val :=
  VSeq [VBytes (pubkey v); VBytes (withdrawal_credentials v); VNum (effective_balance v);
        VBool (slashed v); VNum (activation_eligibility_epoch v); VNum (activation_epoch v);
        VNum (exit_epoch v); VNum (withdrawable_epoch v)].
