(** The program beacon-chain/test/test_ssz.cpp as a whole (C57). *)
From Coq Require Import ZArith String List Bool.
From Verif Require Import Base SpecSSZ ModelSSZ ModelBytes ModelHashTree ModelTree ModelYaml ModelTest ModelEth SpecObj SpecText SpecTest SpecPhase0 SpecClasses
  SpecTree Samples SamplesYaml ModelSszMain SpecSszMain LemCheck LemMatch LemThmText LemSszMain.
Import ListNotations.
Open Scope string_scope.
Open Scope list_scope.
Open Scope Z_scope.

(** ** C57. There is one test for every container, which looks in the directory with its name. *)
Theorem C57_covers : forall c name t, In (name, t) (all_classes c) <-> exists label, In (label, (name, t)) (test_list c).
Proof. exact covers. Qed.
Print Assumptions C57_covers.
Theorem C57_once : forall c, NoDup (map fst (test_list c)) /\ NoDup (map (fun x => fst (snd x)) (test_list c)).
Proof. exact covers_once. Qed.
Print Assumptions C57_once.
(** If the directories hold right vectors only, all tests pass. *)
Theorem C57_passes : forall e H uncompress load c p vectors, reads e -> (forall x, zlen x = 64 -> zlen (H x) = 32) ->
  In (c, p) [(mainnet, preset_mainnet); (minimal, preset_minimal)] -> NoDup (map fst vectors) ->
  (forall name s, In (name, s) (phase0_containers p) -> exists base, In (name, base) vectors /\
     vectors_of (fun l => exists v, has_type s v /\ zlen (ssz_serialize s v) < 2 ^ 32 /\
       shows_vector load uncompress s v (ssz_hash_tree_root H s v) (ssz_serialize s v) l) base) ->
  forall label r, In (label, r) (test_program e (hash_pairs H) deserialize uncompress load c vectors) -> passes r = true.
Proof. exact program_passes. Qed.
Print Assumptions C57_passes.
(** Full claim: if they all pass, every container has been compared with a vector. False:
    empty directories pass, without a single check. *)
Theorem C57_refuted : forall c, exists vectors, forall e HB des uncompress load,
  test_program e HB des uncompress load c vectors = map (fun x => (fst x, Ok [])) (test_list c).
Proof. exact idle. Qed.
Print Assumptions C57_refuted.
(** Exactly when a test passes: everything in its directory is a directory of directories, and
    those that are not empty pass. *)
Theorem C57_exact_partial : forall e HB des uncompress load t base,
  passes (test_class e HB des uncompress load t base) = true <->
  exists b, base = Some b /\
    vectors_of (fun l => l = [] \/ test_vector e HB des uncompress load t l = Ok (true, true, true)) b.
Proof. exact class_exact. Qed.
Print Assumptions C57_exact_partial.
(** A directory passes exactly if its three files are there and pass (C46). *)
Theorem C57_files_partial : forall e HB des uncompress load t l, NoDup (map fst l) ->
  (test_vector e HB des uncompress load t l = Ok (true, true, true) <->
   exists b1 value b2 roots b3, has_file l "value.yaml" b1 /\ load b1 = Some value /\
     has_file l "roots.yaml" b2 /\ load b2 = Some roots /\ has_file l "serialized.ssz_snappy" b3 /\
     test_ssz e HB t (des t) uncompress value roots b3 = Ok (true, true, true)).
Proof. exact vector_exact. Qed.
Print Assumptions C57_files_partial.
(** Of the vectors that are there none is left out: roots are right, and serializations
    except for zeros at the end, whatever [deserialize] is. *)
Theorem C57_sound_partial : forall e H des uncompress load t s base, reads e -> container_pair t s ->
  passes (test_class e (hash_pairs H) des uncompress load t (Some base)) = true ->
  forall l v r b, vector_in base l -> has_type s v -> zlen r = 32 -> shows_vector load uncompress s v r b l ->
  r = ssz_hash_tree_root H s v /\ exists k, ssz_serialize s v = b ++ repeat 0 k.
Proof. exact class_sound. Qed.
Print Assumptions C57_sound_partial.
(** A directory with one vector, for an attestation; with another byte it fails, with a file
    beside the vector it throws. *)
Example C57_case :
  let H := fun x : list Z => firstn 32 x in
  let root := ssz_hash_tree_root H sAttestation smp_attestation in
  let ser := ssz_serialize sAttestation smp_attestation in
  let load := fun b : list Z => match b with [1] => Some smp_node | [2] => Some (YMap [("root", YScalar (SpecBytes.hex_text root))]) | _ => None end in
  let files := fun b => [("roots.yaml", File [2]); ("serialized.ssz_snappy", File b); ("value.yaml", File [1])] in
  let base := fun b more => Dir [("ssz_random", Dir (more ++ [("case_0", Dir (files b))]))] in
  let test := fun x => test_class strict_externals (hash_pairs H) deserialize (fun b => Some b) load (tAttestation mainnet) (Some x) in
  vector_in (base ser []) (files ser) /\ has_type sAttestation smp_attestation /\ zlen root = 32 /\
  shows_vector load (fun b => Some b) sAttestation smp_attestation root ser (files ser) /\
  test (base ser []) = Ok (repeat (true, true, true) 3) /\ passes (test (base ser [])) = true /\
  passes (test (base (228 :: 1 :: tl (tl ser)) [])) = false /\ test (base ser [("README", File [])]) = Throw.
Proof.
  intros H root ser load files base test.
  split; [exists [("ssz_random", Dir [("case_0", Dir (files ser))])], "ssz_random", [("case_0", Dir (files ser))], "case_0"; cbn; auto|].
  split; [exact smp_has_type|]. split; [vm_compute; reflexivity|]. split.
  - assert (N : NoDup (map fst (files ser))) by (cbn; repeat constructor; cbn; intuition discriminate).
    exists [1], smp_node, [2], (YMap [("root", YScalar (SpecBytes.hex_text root))]), ser.
    split; [split; [exact N|cbn; auto]|]. split; [reflexivity|]. split; [exact smp_shown|].
    split; [split; [exact N|cbn; auto]|]. split; [reflexivity|]. split.
    + split; [constructor; [intros []|constructor]|]. split; [|exact I]. eexists. split; [left; reflexivity|].
      apply hex_shows. apply LemCheck.bytes_okb_ok. vm_compute. reflexivity.
    + split; [split; [exact N|cbn; auto]|reflexivity].
  - assert (E : test (base ser []) = Ok (repeat (true, true, true) 3)) by (vm_compute; reflexivity).
    split; [exact E|]. split; [rewrite E; reflexivity|]. split; vm_compute; reflexivity.
Qed.
