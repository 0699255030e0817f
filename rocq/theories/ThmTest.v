(** The test program beacon-chain/test/test_ssz.cpp (C45, C46). *)
From Coq Require Import ZArith String List Bool.
From Verif Require Import Base SpecSSZ ModelSSZ ModelBytes ModelHashTree ModelTree ModelYaml ModelPred ModelTest ModelEth SpecObj
  SpecPhase0 SpecClasses SpecTree SpecText SpecLoose SpecEqual SpecTest Samples SamplesYaml LemCheck LemYaml LemThmText LemTest LemThmCodec LemLoose LemTestExact.
Import ListNotations.
Open Scope string_scope.
Open Scope list_scope.
Open Scope Z_scope.

(** ** C45. On a correct test vector all three checks of the program succeed. *)
Theorem C45_passes : forall e H t s v, reads e -> (forall x, zlen x = 64 -> zlen (H x) = 32) ->
  container_pair t s -> has_type s v ->
  forall uncompress value roots content, shows s v value ->
  shows sRoots (VSeq [VBytes (ssz_hash_tree_root H s v)]) roots ->
  uncompress content = Some (ssz_serialize s v) -> zlen (ssz_serialize s v) < 2 ^ 32 ->
  test_ssz e (hash_pairs H) t (deserialize t) uncompress value roots content = Ok (true, true, true).
Proof. exact vector_passes. Qed.
Print Assumptions C45_passes.
Example C45_case :
  let H := fun x : list Z => firstn 32 x in
  let root := ssz_hash_tree_root H sAttestation smp_attestation in
  (forall x, zlen x = 64 -> zlen (H x) = 32) /\
  shows sAttestation smp_attestation smp_node /\
  shows sRoots (VSeq [VBytes root]) (YMap [("root", YScalar (SpecBytes.hex_text root))]) /\
  test_ssz strict_externals (hash_pairs H) (tAttestation mainnet) (deserialize (tAttestation mainnet))
    (fun content => Some content) smp_node (YMap [("root", YScalar (SpecBytes.hex_text root))])
    (ssz_serialize sAttestation smp_attestation) = Ok (true, true, true) /\
  (* a wrong byte in the expected serialization *)
  test_ssz strict_externals (hash_pairs H) (tAttestation mainnet) (deserialize (tAttestation mainnet))
    (fun content => Some content) smp_node (YMap [("root", YScalar [48; 120; 49])])
    (228 :: 1 :: tl (tl (ssz_serialize sAttestation smp_attestation))) = Ok (false, true, false).
Proof.
  cbn zeta. split; [|split; [exact smp_shown|split; [|split; vm_compute; reflexivity]]].
  - intros x Hx. unfold zlen in *. rewrite firstn_length. Lia.lia.
  - split; [|split; [|exact I]].
    + constructor; [intros []|constructor].
    + eexists. split; [left; reflexivity|]. apply hex_shows. apply LemCheck.bytes_okb_ok. vm_compute. reflexivity.
Qed.

(** ** C46. Full claim: if the three checks succeed on a vector, the library did what the
    vector says, whatever its [deserialize] is. False: the result of [deserialize] is compared
    with an operator that for 18 classes returns true ... *)
Theorem C46_deserialize_refuted : forall e H t s v, reads e -> (forall x, zlen x = 64 -> zlen (H x) = 32) ->
  container_pair t s -> has_type s v ->
  forall c name des uncompress value roots content,
  In (name, t) (all_classes c) ->
  ~ In name ["BeaconState"; "Fork"; "BeaconBlockHeader"; "VoluntaryExit"; "SignedVoluntaryExit"] ->
  (forall old b, exists ok obj, des old b = Ok (ok, obj)) ->
  shows s v value -> shows sRoots (VSeq [VBytes (ssz_hash_tree_root H s v)]) roots ->
  uncompress content = Some (ssz_serialize s v) ->
  test_ssz e (hash_pairs H) t des uncompress value roots content = Ok (true, true, true).
Proof. exact vector_any_deserialize. Qed.
Print Assumptions C46_deserialize_refuted.
(** ... the expected bytes are read into a zeroed buffer of the size the library produced, so
    zeros may be missing at their end ... *)
Theorem C46_short_refuted : forall e H t s v, reads e -> (forall x, zlen x = 64 -> zlen (H x) = 32) ->
  container_pair t s -> has_type s v ->
  forall uncompress value roots content data k, shows s v value ->
  shows sRoots (VSeq [VBytes (ssz_hash_tree_root H s v)]) roots ->
  uncompress content = Some data -> ssz_serialize s v = data ++ repeat 0 k -> zlen (ssz_serialize s v) < 2 ^ 32 ->
  test_ssz e (hash_pairs H) t (deserialize t) uncompress value roots content = Ok (true, true, true).
Proof. exact vector_short. Qed.
Print Assumptions C46_short_refuted.
(** ... and more bytes than that are written out of bounds. *)
Theorem C46_overflow_refuted : forall e H t s v, reads e -> container_pair t s -> has_type s v ->
  forall des uncompress value roots content r data, shows s v value ->
  shows sRoots (VSeq [VBytes r]) roots -> zlen r = 32 ->
  uncompress content = Some data -> zlen (ssz_serialize s v) < zlen data ->
  test_ssz e (hash_pairs H) t des uncompress value roots content = UB.
Proof. exact vector_overflow. Qed.
Print Assumptions C46_overflow_refuted.
(** The root is compared, and the serialization except for zeros at its end. *)
Theorem C46_root_serialize_partial : forall e H t s v, reads e -> container_pair t s -> has_type s v ->
  forall des uncompress value roots content r c, shows s v value ->
  shows sRoots (VSeq [VBytes r]) roots -> zlen r = 32 ->
  test_ssz e (hash_pairs H) t des uncompress value roots content = Ok (true, c, true) ->
  r = ssz_hash_tree_root H s v /\
  exists data k, uncompress content = Some data /\ ssz_serialize s v = data ++ repeat 0 k.
Proof. exact vector_sound. Qed.
Print Assumptions C46_root_serialize_partial.
(** In four classes the result of [deserialize] is compared. *)
Theorem C46_deserialize_partial : forall e H t s v, reads e -> container_pair t s -> has_type s v ->
  forall c name des uncompress value roots content r,
  In (name, t) (all_classes c) -> In name ["Fork"; "BeaconBlockHeader"; "VoluntaryExit"; "SignedVoluntaryExit"] ->
  (forall b ok obj, bytes_ok b -> des (vt_default (vt t)) b = Ok (ok, obj) -> wt t obj) ->
  shows s v value -> shows sRoots (VSeq [VBytes r]) roots -> zlen r = 32 ->
  test_ssz e (hash_pairs H) t des uncompress value roots content = Ok (true, true, true) ->
  exists ok, des (vt_default (vt t)) (ssz_serialize s v) = Ok (ok, v).
Proof. exact vector_deserialized. Qed.
Print Assumptions C46_deserialize_partial.
Example C46_case :
  let H := fun x : list Z => firstn 32 x in
  let roots := YMap [("root", YScalar (SpecBytes.hex_text (ssz_hash_tree_root H sAttestation smp_attestation)))] in
  let test := test_ssz strict_externals (hash_pairs H) (tAttestation mainnet) in
  let ser := ssz_serialize sAttestation smp_attestation in
  (* a deserialize that does nothing *)
  test (fun old _ => Ok (false, old)) (fun content => Some content) smp_node roots ser = Ok (true, true, true) /\
  (* one byte too many *)
  test (deserialize (tAttestation mainnet)) (fun content => Some content) smp_node roots (ser ++ [0]) = UB /\
  In ("Attestation", tAttestation mainnet) (all_classes mainnet).
Proof. cbn zeta. split; [vm_compute; reflexivity|]. split; [vm_compute; reflexivity|]. cbv; tauto. Qed.

(** Exactly the vectors that pass, whatever [deserialize] is: value.yaml is readable in the
    loose sense of [reads_as] and its trees fit; roots.yaml holds the root, also loosely; the
    serialization is right except for zeros at its end; and what [deserialize] returns agrees
    with the value in the compared fields. *)
Theorem C46_exact_partial : forall e H t s des uncompress value roots content,
  fits e -> container_pair t s -> (forall v, reads_as e s value v -> breadth v <= 2 ^ 42) ->
  forall c p name, In (name, t) (all_classes c) -> In (name, s) (phase0_containers p) ->
  (forall b ok obj, bytes_ok b -> des (vt_default (vt t)) b = Ok (ok, obj) -> wt t obj) ->
  (test_ssz e (hash_pairs H) t des uncompress value roots content = Ok (true, true, true) <->
   exists v m node data k ok obj,
     reads_as e s value v /\ trees_fit s v = true /\
     roots = YMap m /\ bound_to m "root" node /\ reads_as e (SByteVector 32) node (VBytes (lenient_root H s v)) /\
     uncompress content = Some data /\ ssz_serialize s v = data ++ repeat 0 k /\
     des (vt_default (vt t)) (ssz_serialize s v) = Ok (ok, obj) /\ agree (compared name) s obj v).
Proof. exact vector_exact. Qed.
Print Assumptions C46_exact_partial.
(** Exactly the vectors on which the program is undefined. *)
Theorem C46_undefined_partial : forall e H t s des uncompress value roots content,
  fits e -> container_pair t s -> (forall v, reads_as e s value v -> breadth v <= 2 ^ 42) ->
  (test_ssz e (hash_pairs H) t des uncompress value roots content = UB <->
   breaks e s value \/
   exists v, reads_as e s value v /\
     (trees_fit s v = false \/
      trees_fit s v = true /\ exists m node, roots = YMap m /\ bound_to m "root" node /\
        (breaks e (SByteVector 32) node \/
         exists r data, reads_as e (SByteVector 32) node r /\ uncompress content = Some data /\
           (zlen (ssz_serialize s v) < zlen data \/
            exists k, length (ssz_serialize s v) = (length data + k)%nat /\ des (vt_default (vt t)) (data ++ repeat 0 k) = UB)))).
Proof. exact vector_undefined. Qed.
Print Assumptions C46_undefined_partial.
(** A Fork whose versions are written short, whose root ends before its zeros, and whose bytes
    end before their zeros, passes. With a character outside ASCII in the root the program is
    undefined. *)
Example C46_exact_case :
  let H := fun x : list Z => 7 :: repeat 0 31 in
  let value := YMap [("epoch", YScalar [57]); ("current_version", YScalar [48; 120]); ("previous_version", YScalar [48; 120; 50])] in
  let v := VSeq [VBytes [2; 0; 0; 0]; VBytes [0; 0; 0; 0]; VNum 9] in
  let test root := test_ssz strict_externals (hash_pairs H) tFork (deserialize tFork) (fun content => Some content)
    value (YMap [("root", YScalar root)]) [2; 0; 0; 0; 0; 0; 0; 0; 9] in
  fits strict_externals /\ container_pair tFork sFork /\ reads_as strict_externals sFork value v /\
  (forall w, reads_as strict_externals sFork value w -> breadth w <= 2 ^ 42) /\
  In ("Fork", tFork) (all_classes mainnet) /\ In ("Fork", sFork) (phase0_containers preset_mainnet) /\
  (forall b ok obj, bytes_ok b -> deserialize tFork (vt_default (vt tFork)) b = Ok (ok, obj) -> wt tFork obj) /\
  test [48; 120; 48; 55] = Ok (true, true, true) /\ test [48; 120; 200] = UB.
Proof.
  intros H value v test.
  assert (P : container_pair tFork sFork) by (apply pair_mainnet with (name := "Fork"); cbv; tauto).
  assert (W : wt tFork (vt_default (vt tFork))) by (apply wtb_wt; reflexivity).
  assert (R : reads_as strict_externals sFork value v) by (apply (container_reads _ _ _ _ _ _ P W); reflexivity).
  split; [exact strict_fits|]. split; [exact P|]. split; [exact R|].
  split; [|split; [cbv; tauto|split; [cbv; tauto|split; [|split; vm_compute; reflexivity]]]].
  - intros w Hw. apply (container_reads _ _ _ _ _ _ P W) in Hw, R. assert (w = v) by congruence. subst w. vm_compute. discriminate.
  - intros b ok obj Hb D. exact (result_wt tFork _ b ok obj eq_refl W Hb D).
Qed.
