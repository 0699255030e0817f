(** Equality, predicates and constants (C25-C28, C39). *)
From Coq Require Import ZArith String List Bool.
From Verif Require Import Base SpecSSZ ModelSSZ ModelEth ModelPred SpecPred SpecObj SpecPhase0 SpecEqual Samples LemCheck LemPred LemEqual.
Import ListNotations.
Open Scope string_scope.
Open Scope list_scope.
Open Scope Z_scope.

(** ** C25. Full claim: for every class, [a == b] exactly when a and b hold the
    same value. It holds for the leaf classes and four containers and is false
    for every other container. [eq_classes] lists the four. *)
Theorem C25_refuted : forall c name t, c = mainnet \/ c = minimal ->
  In (name, t) (all_classes c) ->
  ~ In name ["Fork"; "BeaconBlockHeader"; "VoluntaryExit"; "SignedVoluntaryExit"] ->
  exists a b, wt t a /\ wt t b /\ a <> b /\ op_eq t a b = true.
Proof. exact eq_refuted. Qed.
Print Assumptions C25_refuted.
Theorem C25_containers_partial : forall c name t a b, In (name, t) (all_classes c) ->
  In name ["Fork"; "BeaconBlockHeader"; "VoluntaryExit"; "SignedVoluntaryExit"] ->
  wt t a -> wt t b -> (op_eq t a b = true <-> a = b).
Proof. exact eq_containers. Qed.
Print Assumptions C25_containers_partial.
Theorem C25_leaves_partial : forall t a b,
  match t with TBytes _ | TSlot | TBoolean | TBitvector _ | TBitlist _ => True | _ => False end ->
  wt t a -> wt t b -> (op_eq t a b = true <-> a = b).
Proof. exact eq_leaves. Qed.
Print Assumptions C25_leaves_partial.
(** One direction holds everywhere: equal objects are never told apart. *)
Theorem C25_reflexive_partial : forall t a, wt t a -> op_eq t a a = true.
Proof. exact op_eq_refl. Qed.
Print Assumptions C25_reflexive_partial.
(** And the failure is total: all containers but five compare equal always. *)
Theorem C25_always_equal : forall c name t a b, In (name, t) (all_classes c) ->
  ~ In name ["BeaconState"; "Fork"; "BeaconBlockHeader"; "VoluntaryExit"; "SignedVoluntaryExit"] ->
  op_eq t a b = true.
Proof. exact eq_always. Qed.
Print Assumptions C25_always_equal.
(** Exactly what is compared, in every container. [compared] lists the fields. *)
Theorem C25_exact_partial : forall c p name t s a b,
  In (name, t) (all_classes c) -> In (name, s) (phase0_containers p) ->
  wt t a -> wt t b -> (op_eq t a b = true <-> agree (compared name) s a b).
Proof. exact equal_exact. Qed.
Print Assumptions C25_exact_partial.
(** States that differ in the Eth1 data are equal, states that differ in the slot are not. *)
Example C25_exact_case :
  let t := tBeaconState minimal in
  let put k x := match default t with VSeq l => VSeq (firstn k l ++ x :: skipn (S k) l) | v => v end in
  let eth1 := put 8%nat (VSeq [fill 32 1; VNum 3; fill 32 2]) in let later := put 2%nat (VNum 9) in
  In ("BeaconState", t) (all_classes minimal) /\ wt t (default t) /\ wt t eth1 /\ wt t later /\
  agree (compared "BeaconState") (sBeaconState preset_minimal) (default t) eth1 /\ op_eq t (default t) eth1 = true /\
  ~ agree (compared "BeaconState") (sBeaconState preset_minimal) (default t) later /\ op_eq t (default t) later = false.
Proof.
  intros t put eth1 later.
  assert (I : In ("BeaconState", t) (all_classes minimal)) by (cbv; tauto).
  assert (J : In ("BeaconState", sBeaconState preset_minimal) (phase0_containers preset_minimal)) by (unfold phase0_containers; cbn [In]; tauto).
  assert (W0 : wt t (default t)) by (apply wtb_wt; vm_compute; reflexivity).
  assert (W1 : wt t eth1) by (apply wtb_wt; vm_compute; reflexivity).
  assert (W2 : wt t later) by (apply wtb_wt; vm_compute; reflexivity).
  split; [exact I|]. split; [exact W0|]. split; [exact W1|]. split; [exact W2|].
  assert (E1 : op_eq t (default t) eth1 = true) by (vm_compute; reflexivity).
  assert (E2 : op_eq t (default t) later = false) by (vm_compute; reflexivity).
  split; [apply (equal_exact _ _ _ _ _ _ _ I J W0 W1); exact E1|]. split; [exact E1|].
  split; [|exact E2]. intros A. apply (equal_exact _ _ _ _ _ _ _ I J W0 W2) in A. congruence.
Qed.
Example C25_case :
  op_eq tCheckpoint (smp_checkpoint 1) (smp_checkpoint 2) = true /\
  op_eq tFork smp_fork smp_fork = true /\ op_eq tFork smp_fork (default tFork) = false /\
  op_eq (TBitlist 9) (VBits [true]) (VBits [true; false]) = false.
Proof. repeat split; reflexivity. Qed.

(** ** C26. Full claim: [is_slashable a b = true <-> slashable_data a b]. False:
    no double vote is ever reported, because of C25. *)
Theorem C26_refuted : exists a b,
  wt tAttestationData (att_val a) /\ wt tAttestationData (att_val b) /\
  slashable_data a b /\ is_slashable (att_val a) (att_val b) = false.
Proof. exact slashable_refuted. Qed.
Print Assumptions C26_refuted.
Theorem C26_double_vote_missed : forall a b, double_vote a b -> is_slashable (att_val a) (att_val b) = false.
Proof. exact double_vote_missed. Qed.
Print Assumptions C26_double_vote_missed.
(** What the function computes: surround votes only. *)
Theorem C26_surround_partial : forall v w, wt tAttestationData v -> wt tAttestationData w ->
  exists a b, v = att_val a /\ w = att_val b /\ (is_slashable v w = true <-> surround_vote a b).
Proof. exact slashable_surround. Qed.
Print Assumptions C26_surround_partial.
(** So nothing is reported that is not slashable. *)
Theorem C26_sound_partial : forall a b, is_slashable (att_val a) (att_val b) = true -> slashable_data a b.
Proof. exact slashable_sound. Qed.
Print Assumptions C26_sound_partial.
Example C26_case :
  is_slashable (smp_att_data 1 9) (smp_att_data 2 8) = true /\
  is_slashable (smp_att_data 2 8) (smp_att_data 1 9) = false /\
  is_slashable (smp_att_data 1 8) (smp_att_data 2 8) = false.
Proof. repeat split; reflexivity. Qed.

(** ** C27 *)
Theorem C27_valid_indices : forall c v, wt (tIndexedAttestation c) v ->
  exists l rest, v = VSeq (VSeq (map VNum l) :: rest) /\ (is_valid v = true <-> valid_indices l).
Proof. exact indexed_valid. Qed.
Print Assumptions C27_valid_indices.
Example C27_case :
  wt (tIndexedAttestation mainnet) (smp_indexed [5; 1; 300] 1 2) /\
  is_valid (smp_indexed [1; 5; 300] 1 2) = true /\ is_valid (smp_indexed [1; 5; 5; 300] 1 2) = false /\
  is_valid (smp_indexed [5; 1; 300] 1 2) = false /\ is_valid (smp_indexed [] 1 2) = false.
Proof. split; [apply wtb_wt; reflexivity|]. repeat split; reflexivity. Qed.

(** ** C28 *)
Theorem C28_validator : forall v e, wt tValidator v -> exists x, v = validator_val x /\
  (is_active v e = true <-> active x e) /\
  (is_eligible_for_activation_queue v = true <-> eligible x) /\
  (validator_is_slashable v e = true <-> slashable x e).
Proof. exact validator_preds. Qed.
Print Assumptions C28_validator.
Theorem C28_slashed_never : forall v e, wt tValidator v -> v_slashed v = true ->
  validator_is_slashable v e = false.
Proof. exact slashed_never. Qed.
Print Assumptions C28_slashed_never.
Definition smp_validator (s : bool) : val := validator_val
  {| pubkey := repeat 1 48; withdrawal_credentials := repeat 2 32; effective_balance := 32000000000;
     slashed := s; activation_eligibility_epoch := 2 ^ 64 - 1; activation_epoch := 10; exit_epoch := 20;
     withdrawable_epoch := 30 |}.
Example C28_case :
  wt tValidator (smp_validator false) /\
  map (is_active (smp_validator false)) [9; 10; 19; 20] = [false; true; true; false] /\
  map (validator_is_slashable (smp_validator false)) [9; 10; 29; 30] = [false; true; true; false] /\
  validator_is_slashable (smp_validator true) 15 = false /\
  is_eligible_for_activation_queue (smp_validator false) = true.
Proof. split; [apply wtb_wt; reflexivity|]. repeat split; reflexivity. Qed.

(** ** C39. Full claim: the minimal configuration's version is 00 00 00 01. *)
Theorem C39_refuted : GENESIS_FORK_VERSION_minimal = [1; 0; 0; 0] /\
  GENESIS_FORK_VERSION_minimal <> [0; 0; 0; 1].
Proof. exact fork_version_refuted. Qed.
Print Assumptions C39_refuted.
Theorem C39_mainnet_partial : GENESIS_FORK_VERSION_mainnet = [0; 0; 0; 0].
Proof. reflexivity. Qed.
Print Assumptions C39_mainnet_partial.
