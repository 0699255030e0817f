(** What [a == b] takes into account. *)
From Coq Require Import ZArith String List.
From Verif Require Import Base SpecSSZ.
Import ListNotations.
Open Scope string_scope.
Open Scope list_scope.

(** The fields, under their names in the consensus specification, that are compared in the
    objects of a class: those whose class declares operator==, if the class itself does. *)
Definition compared (name : string) : list string :=
  if name =? "Fork" then ["previous_version"; "current_version"; "epoch"]
  else if name =? "BeaconBlockHeader" then ["slot"; "proposer_index"; "parent_root"; "state_root"; "body_root"]
  else if name =? "VoluntaryExit" then ["epoch"; "validator_index"]
  else if name =? "SignedVoluntaryExit" then ["message"; "signature"]
  else if name =? "BeaconState" then
    ["genesis_time"; "genesis_validators_root"; "slot"; "fork"; "latest_block_header"; "eth1_deposit_index"; "justification_bits"]
  else [].
(** The fields with these names hold the same values. *)
Definition agree (names : list string) (s : sty) (a b : val) : Prop :=
  match s, a, b with
  | SContainer fs, VSeq l, VSeq m =>
      forall k name f, nth_error fs k = Some (name, f) -> In name names -> nth_error l k = nth_error m k
  | _, _, _ => False
  end.
