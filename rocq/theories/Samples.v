(** Concrete objects used in the examples beside the theorems. *)
From Coq Require Import ZArith String List Bool.
From Verif Require Import Base SpecSSZ ModelSSZ ModelEth.
Import ListNotations.
Open Scope Z_scope.

Definition fill (n : nat) (x : Z) : val := VBytes (repeat x n).
Definition smp_checkpoint (e : Z) : val := VSeq [VNum e; fill 32 (e mod 256)].
Definition smp_att_data (src tgt : Z) : val :=
  VSeq [VNum 5; VNum 2; fill 32 7; smp_checkpoint src; smp_checkpoint tgt].
(** 11 aggregation bits *)
Definition smp_bits : list bool :=
  [true; false; true; true; false; false; false; true; false; true; true].
Definition smp_attestation : val := VSeq [VBits smp_bits; smp_att_data 1 2; fill 96 9].
Definition smp_indexed (l : list Z) (src tgt : Z) : val :=
  VSeq [VSeq (map VNum l); smp_att_data src tgt; fill 96 3].
Definition smp_attester_slashing : val :=
  VSeq [smp_indexed [1; 5; 300] 1 2; smp_indexed [5; 6] 1 2].
Definition smp_eth1 : val := VSeq [fill 32 1; VNum 1000000; fill 32 2].
Definition smp_body : val :=
  VSeq [fill 96 8; smp_eth1; fill 32 65; VSeq []; VSeq [smp_attester_slashing];
        VSeq [smp_attestation; smp_attestation]; VSeq [];
        VSeq [VSeq [VSeq [VNum 3; VNum 4]; fill 96 11]]].
Definition smp_block : val := VSeq [VNum 77; VNum 3; fill 32 4; fill 32 6; smp_body].
Definition smp_signed_block : val := VSeq [smp_block; fill 96 12].

(** Encoding of the object [v] of container [t] with the encoding of its [k]-th
    part replaced by the bytes [x]. *)
Definition splice (t : ty) (v : val) (k : nat) (x : list Z) : list Z :=
  match t, v with
  | TClass _ fs, VSeq l =>
      ssz_series
        (map (fun p : nat * (ty * val) =>
                let '(i, (f, w)) := p in
                (get_ssz_size f =? 0, if Nat.eqb i k then x else serialize f w))
             (combine (seq 0 (length fs)) (combine fs l)))
  | _, _ => []
  end.

Definition default (t : ty) : val := vt_default (vt t).

(** Inputs with an empty bitlist range. *)
Definition bad_pending : list Z :=
  splice (tPendingAttestation mainnet) (default (tPendingAttestation mainnet)) 0 [].
Definition bad_attestation : list Z :=
  splice (tAttestation mainnet) (default (tAttestation mainnet)) 0 [].
Definition bad_body : list Z :=
  splice (tBeaconBlockBody mainnet) (default (tBeaconBlockBody mainnet)) 5 ([4; 0; 0; 0] ++ bad_attestation).
Definition bad_block : list Z :=
  splice (tBeaconBlock mainnet) (default (tBeaconBlock mainnet)) 4 bad_body.
Definition bad_signed_block : list Z :=
  splice (tSignedBeaconBlock mainnet) (default (tSignedBeaconBlock mainnet)) 0 bad_block.
Definition bad_state : list Z :=
  splice (tBeaconState minimal) (default (tBeaconState minimal)) 15 ([4; 0; 0; 0] ++ bad_pending).

(** A body with 3 attester slashings (the limit is 2). *)
Definition over_body : val :=
  VSeq [fill 96 8; smp_eth1; fill 32 65; VSeq [];
        VSeq [smp_attester_slashing; smp_attester_slashing; smp_attester_slashing];
        VSeq []; VSeq []; VSeq []].
(** A bitlist of 2056 bits (the limit is 2048). *)
Definition over_attestation : val :=
  VSeq [VBits (repeat true 2056); smp_att_data 1 2; fill 96 9].
Definition smp_fork : val := VSeq [VBytes [1; 2; 3; 4]; VBytes [5; 6; 7; 8]; VNum 9].
