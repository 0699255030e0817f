(** Sizes of encodings, and which inputs decode to which values (C01, C05, C40, C47, C53). *)
From Coq Require Import ZArith String List Bool.
From Verif Require Import Base SpecSSZ SpecPhase0 ModelSSZ ModelEth SpecObj SpecClasses SpecSize Samples LemMatch LemCheck LemThmFit LemGrow.
Import ListNotations.
Open Scope string_scope.
Open Scope list_scope.
Open Scope Z_scope.

(** ** C01: no condition on sizes for values within the limits of the
    specification, except in BeaconState (see C40). *)
Theorem C01_within_limits : forall name t s v old,
  In (name, t) (all_classes mainnet) /\ In (name, s) (phase0_containers preset_mainnet) \/
  In (name, t) (all_classes minimal) /\ In (name, s) (phase0_containers preset_minimal) ->
  name <> "BeaconState" -> has_type s v -> wt t old ->
  deserialize t old (serialize t v) = Ok (true, v).
Proof. exact within_containers. Qed.
Print Assumptions C01_within_limits.
Example C01_within_case :
  In ("SignedBeaconBlock", tSignedBeaconBlock mainnet) (all_classes mainnet) /\
  In ("SignedBeaconBlock", sSignedBeaconBlock) (phase0_containers preset_mainnet) /\
  has_type sSignedBeaconBlock smp_signed_block /\
  wt (tSignedBeaconBlock mainnet) (default (tSignedBeaconBlock mainnet)).
Proof.
  split; [cbn; tauto|]. split; [cbn; tauto|]. split; [|apply wtb_wt; reflexivity].
  apply (matches_type (tSignedBeaconBlock mainnet)); [reflexivity|].
  split; [apply wtb_wt; reflexivity|apply withinb_within; reflexivity].
Qed.

(** ** C05. Exactly which inputs decode to [v]: its own encoding, followed by
    anything if the class has a fixed size. All classes but BeaconState. *)
Theorem C05_exact_partial : forall t s old b v,
  container_pair t s -> no_padding t = true -> wt t old -> bytes_ok b ->
  (deserialize t old b = Ok (true, v) <->
   wt t v /\ offsets_fit s v /\
   if is_variable s then b = serialize t v else exists tail, b = serialize t v ++ tail).
Proof. exact plain_exact. Qed.
Print Assumptions C05_exact_partial.
(** BeaconState: its own encoding, with any four upper bits in the byte of the
    justification bits. *)
Theorem C05_state_mainnet_partial : forall old b v, wt (tBeaconState mainnet) old -> bytes_ok b ->
  (deserialize (tBeaconState mainnet) old b = Ok (true, v) <->
   wt (tBeaconState mainnet) v /\ offsets_fit (sBeaconState preset_mainnet) v /\
   exists b1 x b2, zlen b1 = 2687256 /\ b = b1 ++ x :: b2 /\
     serialize (tBeaconState mainnet) v = b1 ++ x mod 16 :: b2).
Proof. exact state_exact_mainnet. Qed.
Print Assumptions C05_state_mainnet_partial.
Theorem C05_state_minimal_partial : forall old b v, wt (tBeaconState minimal) old -> bytes_ok b ->
  (deserialize (tBeaconState minimal) old b = Ok (true, v) <->
   wt (tBeaconState minimal) v /\ offsets_fit (sBeaconState preset_minimal) v /\
   exists b1 x b2, zlen b1 = 6936 /\ b = b1 ++ x :: b2 /\
     serialize (tBeaconState minimal) v = b1 ++ x mod 16 :: b2).
Proof. exact state_exact_minimal. Qed.
Print Assumptions C05_state_minimal_partial.
(** Fork with a trailing byte; a state with the justification byte 0xF0. *)
Example C05_exact_case :
  deserialize tFork (default tFork) (serialize tFork smp_fork ++ [77]) = Ok (true, smp_fork) /\
  container_pair tFork sFork /\ is_variable sFork = false /\ no_padding tFork = true /\
  (let d := default (tBeaconState minimal) in
   let b := splice (tBeaconState minimal) d 17 [240] in
   deserialize (tBeaconState minimal) d b = Ok (true, d) /\
   nth (Z.to_nat 6936) b 0 = 240 /\ nth (Z.to_nat 6936) (serialize (tBeaconState minimal) d) 0 = 240 mod 16 /\
   firstn (Z.to_nat 6936) b = firstn (Z.to_nat 6936) (serialize (tBeaconState minimal) d)).
Proof.
  split; [reflexivity|]. split; [apply pair_mainnet with "Fork"; cbn; tauto|].
  split; [reflexivity|]. split; [reflexivity|]. vm_compute. repeat split.
Qed.

(** ** C40. Exactly which values survive: those whose offsets fit in 32 bits. *)
Theorem C40_exact_partial : forall t s v old,
  container_pair t s -> wt t v -> wt t old ->
  (deserialize t old (serialize t v) = Ok (true, v) <-> offsets_fit s v).
Proof. exact survives_containers. Qed.
Print Assumptions C40_exact_partial.
(** Values within the limits of the specification that do not survive exist in
    both BeaconState classes (a state with 2^29 balances); by C01 in no other class. *)
Theorem C40_refuted_within :
  (exists v, has_type (sBeaconState preset_mainnet) v /\
     forall old, wt (tBeaconState mainnet) old ->
       deserialize (tBeaconState mainnet) old (serialize (tBeaconState mainnet) v) <> Ok (true, v)) /\
  (exists v, has_type (sBeaconState preset_minimal) v /\
     forall old, wt (tBeaconState minimal) old ->
       deserialize (tBeaconState minimal) old (serialize (tBeaconState minimal) v) <> Ok (true, v)).
Proof. exact large_states. Qed.
Print Assumptions C40_refuted_within.
Example C40_exact_case :
  offsets_fit sSignedBeaconBlock smp_signed_block.
Proof.
  apply (survives_containers (tSignedBeaconBlock mainnet) sSignedBeaconBlock smp_signed_block
    (default (tSignedBeaconBlock mainnet))); [|apply wtb_wt; reflexivity|apply wtb_wt; reflexivity|reflexivity].
  apply pair_mainnet with "SignedBeaconBlock"; cbn; tauto.
Qed.

(** ** C47 *)
Theorem C47_bounds : forall t s v, container_pair t s -> has_type s v ->
  min_size s <= zlen (serialize t v) <= max_size s.
Proof. exact sizes_bounded. Qed.
Print Assumptions C47_bounds.
Theorem C47_attained : forall t s, container_pair t s ->
  exists v w, has_type s v /\ has_type s w /\
    zlen (serialize t v) = min_size s /\ zlen (serialize t w) = max_size s.
Proof. exact sizes_attained. Qed.
Print Assumptions C47_attained.
(** What was accepted takes no more bytes than the input; an input shorter than
    [min_size] is never accepted, a longer one than [max_size] only for a value
    over some limit. *)
Theorem C47_accepted : forall t s old b v,
  container_pair t s -> wt t old -> bytes_ok b -> deserialize t old b = Ok (true, v) ->
  min_size s <= zlen (serialize t v) <= zlen b /\
  (is_variable s = true -> zlen (serialize t v) = zlen b) /\
  (is_variable s = true -> max_size s < zlen b -> ~ has_type s v).
Proof. exact accepted_range. Qed.
Print Assumptions C47_accepted.
(** Every class but BeaconState is limited to 256 KiB. *)
Theorem C47_small : forall name s,
  In (name, s) (phase0_containers preset_mainnet) \/ In (name, s) (phase0_containers preset_minimal) ->
  (max_size s < 2 ^ 32 <-> name <> "BeaconState") /\ (max_size s < 2 ^ 18 \/ 2 ^ 46 < max_size s).
Proof. exact small_max. Qed.
Print Assumptions C47_small.
Example C47_case :
  map (fun p => (fst p, min_size (snd p), max_size (snd p)))
    (filter (fun p => negb (min_size (snd p) =? max_size (snd p))) (phase0_containers preset_mainnet))
  = [("IndexedAttestation", 228, 16612); ("PendingAttestation", 149, 405); ("Attestation", 229, 485);
     ("AttesterSlashing", 464, 33232); ("BeaconBlockBody", 220, 157572); ("BeaconBlock", 304, 157656);
     ("SignedBeaconBlock", 404, 157756); ("BeaconState", 2687377, 141837543039377)] /\
  zlen (serialize (tSignedBeaconBlock mainnet) smp_signed_block) = 1492 /\
  deserialize (tBeaconBlockBody mainnet) (default (tBeaconBlockBody mainnet))
    (serialize (tBeaconBlockBody mainnet) over_body) = Ok (true, over_body).
Proof. split; [vm_compute; reflexivity|]. split; reflexivity. Qed.

(** ** C53: an object never holds more than the input has paid for, plus what it held
    before if the input is rejected. *)
Theorem C53_bounded : forall t s old b ok v,
  container_pair t s -> wt t old -> bytes_ok b -> deserialize t old b = Ok (ok, v) ->
  zlen (serialize t v) <= (if ok then 0 else zlen (serialize t old)) + zlen b.
Proof. exact container_bounded. Qed.
Print Assumptions C53_bounded.
(** The same for every class (parts of the containers included). *)
Theorem C53_bounded_parts : forall t s old b ok v,
  wf t = true -> matches t s = true -> wt t old -> bytes_ok b -> deserialize t old b = Ok (ok, v) ->
  zlen (serialize t v) <= (if ok then 0 else zlen (serialize t old)) + zlen b.
Proof. exact object_bounded. Qed.
Print Assumptions C53_bounded_parts.
(** The old object is needed: here an input of 544 bytes is rejected because of the offset in
    its second part, and leaves 624 bytes in an object that held 544. *)
Example C53_case :
  let t := tAttesterSlashing mainnet in
  let few := smp_indexed [] 1 2 in let many := smp_indexed [1; 2; 3; 4; 5; 6; 7; 8; 9; 10] 3 4 in
  let b := serialize t (VSeq [many; few]) in
  let bad := firstn 316 b ++ [99] ++ skipn 317 b in
  zlen (serialize t (VSeq [few; many])) = 544 /\ zlen bad = 544 /\
  deserialize t (VSeq [few; many]) bad = Ok (false, VSeq [many; many]) /\
  zlen (serialize t (VSeq [many; many])) = 624.
Proof. vm_compute. repeat split; reflexivity. Qed.
