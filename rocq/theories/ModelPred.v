(** Model of the comparison operators and of the predicates of beacon-chain/. *)
From Coq Require Import ZArith String List Bool.
From Verif Require Import Base SpecSSZ ModelSSZ ModelBytes ModelEth.
Import ListNotations.
Open Scope list_scope.
Open Scope Z_scope.

(** std::array<bool, N> and std::vector<bool> compared element by element. *)
Fixpoint bits_eqb (a b : list bool) : bool :=
  match a, b with
  | [], [] => true
  | x :: a', y :: b' => Bool.eqb x y && bits_eqb a' b'
  | _, _ => false
  end.

(** [a == b] for two objects of the same class. Defaulted operators
    (common/slot.hpp:62, boolean.hpp:50, bitvector.hpp:91, bitlist.hpp:52, and the
    classes with [ci_eq]) compare the base classes, then the members in order;
    Bytes has its own (bytes.hpp:119-123); the others inherit
    Container::operator==, which returns true (ssz/ssz_container.hpp:61). The
    member limit_ of Bitlist, also compared, is the same on both sides: it is
    part of the type here. *)
Fixpoint op_eq (t : ty) (a b : val) {struct t} : bool :=
  match t with
  | TBytes _ => match a, b with VBytes x, VBytes y => bytes_eqb x y | _, _ => false end
  | TSlot => match a, b with VNum x, VNum y => x =? y | _, _ => false end
  | TBoolean => match a, b with VBool x, VBool y => Bool.eqb x y | _, _ => false end
  | TBitvector _ | TBitlist _ =>
      match a, b with VBits x, VBits y => bits_eqb x y | _, _ => false end
  | TVector _ _ | TListF _ _ | TListV _ _ => true
  | TClass ci fs =>
      if ci_eq ci then
        match a, b with
        | VSeq x, VSeq y =>
            (fix members (fs : list ty) (x y : list val) : bool :=
               match fs, x, y with
               | [], [], [] => true
               | f :: fs', v :: x', w :: y' => op_eq f v w && members fs' x' y'
               | _, _, _ => false
               end) fs x y
        | _, _ => false
        end
      else true
  end.

(** Data members, by position in declaration order. *)
Definition member (i : nat) (v : val) : val :=
  match v with VSeq l => nth i l (VNum 0) | _ => VNum 0 end.
(** Slot::operator std::uint64_t, common/slot.hpp:44 *)
Definition num (v : val) : Z := match v with VNum n => n | _ => 0 end.
(** Boolean::operator bool, common/boolean.hpp:38 *)
Definition boolean (v : val) : bool := match v with VBool x => x | _ => false end.

(** Members of AttestationData (beacon-chain/attestation.hpp:34-38) and of
    Checkpoint (common/containers.hpp:293-294). *)
Definition att_source (a : val) : val := member 3 a.
Definition att_target (a : val) : val := member 4 a.
Definition cp_epoch (c : val) : val := member 0 c.

(** beacon-chain/attestation.cpp:36-39; [!=] is the negation of [==]. *)
Definition is_slashable (this rhs : val) : bool :=
  if negb (op_eq tAttestationData this rhs)
     && op_eq TSlot (cp_epoch (att_target this)) (cp_epoch (att_target rhs))
  then true
  else (num (cp_epoch (att_source this)) <? num (cp_epoch (att_source rhs)))
       && (num (cp_epoch (att_target this)) >? num (cp_epoch (att_target rhs))).

(** std::is_sorted: no element is smaller than the one before it. *)
Fixpoint is_sorted (l : list Z) : bool :=
  match l with
  | a :: ((b :: _) as r) => negb (b <? a) && is_sorted r
  | _ => true
  end.
(** std::adjacent_find(...) == end: no two consecutive elements are equal. *)
Fixpoint no_adjacent (l : list Z) : bool :=
  match l with
  | a :: ((b :: _) as r) => negb (a =? b) && no_adjacent r
  | _ => true
  end.
(** beacon-chain/attestation.cpp:67-72, on the IndexedAttestation (the state is
    not used). *)
Definition is_valid (this : val) : bool :=
  let indices := match member 0 this with VSeq l => map num l | _ => [] end in
  if zlen indices =? 0 then false
  else if negb (is_sorted indices) then false
  else no_adjacent indices.

(** config/constants.hpp:29,33 *)
Definition FAR_FUTURE_EPOCH : Z := 0xffffffffffffffff.
Definition MAX_EFFECTIVE_BALANCE : Z := 32000000000.

(** Members of Validator, beacon-chain/validator.hpp:32-36. *)
Definition v_effective_balance (v : val) : Z := num (member 2 v).
Definition v_slashed (v : val) : bool := boolean (member 3 v).
Definition v_activation_eligibility_epoch (v : val) : Z := num (member 4 v).
Definition v_activation_epoch (v : val) : Z := num (member 5 v).
Definition v_exit_epoch (v : val) : Z := num (member 6 v).
Definition v_withdrawable_epoch (v : val) : Z := num (member 7 v).

(** beacon-chain/validator.cpp:38-40 *)
Definition is_active (this : val) (epoch : Z) : bool :=
  (v_activation_epoch this <=? epoch) && (epoch <? v_exit_epoch this).
(** beacon-chain/validator.cpp:41-44 *)
Definition is_eligible_for_activation_queue (this : val) : bool :=
  (v_activation_eligibility_epoch this =? FAR_FUTURE_EPOCH)
  && (v_effective_balance this =? MAX_EFFECTIVE_BALANCE).
(** beacon-chain/validator.cpp:45-47 *)
Definition validator_is_slashable (this : val) (epoch : Z) : bool :=
  negb (v_slashed this) && (v_activation_epoch this <=? epoch) && (epoch <? v_withdrawable_epoch this).

(** config/mainnet.hpp.in:32 and config/minimal.hpp.in:33: eth::Version (Bytes4)
    constructed from an int. *)
Definition GENESIS_FORK_VERSION_mainnet : list Z := bytes_from_int 4 4 0x00000000.
Definition GENESIS_FORK_VERSION_minimal : list Z := bytes_from_int 4 4 0x00000001.
