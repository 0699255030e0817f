(** Model of the rest of beacon-chain/test/test_ssz.cpp: the walk through the directories and
    the list of tests. *)
From Coq Require Import ZArith String List Bool.
From Verif Require Import Base SpecSSZ ModelSSZ ModelHashTree ModelTree ModelYaml ModelTest ModelEth.
Import ListNotations.
Open Scope string_scope.
Open Scope list_scope.

(** What a path refers to. The order of a directory is the one directory_iterator gives. *)
Inductive entry : Type := File (content : list Z) | Dir (entries : list (string * entry)).
Fixpoint lookup (name : string) (l : list (string * entry)) : option entry :=
  match l with
  | [] => None
  | (n, x) :: r => if n =? name then Some x else lookup name r
  end.
(** The content of a file that can be opened. A directory in its place is taken as one that
    cannot. *)
Definition content_of (name : string) (l : list (string * entry)) : option (list Z) :=
  match lookup name l with Some (File b) => Some b | _ => None end.
(** fs::directory_iterator throws if the path is no directory. *)
Definition iterate (x : option entry) : outcome (list (string * entry)) :=
  match x with Some (Dir l) => Ok l | _ => Throw end.

Section Main.
Variable e : externals.
Variable HB : list chunk -> list chunk.
(** The deserialize of each class, a parameter as in ModelTest *)
Variable des : ty -> val -> list Z -> outcome (bool * val).
Variable uncompress : list Z -> option (list Z).
(** YAML::LoadFile on the content of a file; [None] if it throws *)
Variable load : list Z -> option ynode.

(** The body of the loop, test_ssz.cpp:47-80, in the directory p2. Without a readable
    value.yaml it throws at once (line 47). Without roots.yaml it throws where "root" is looked
    up (50), as it does for a node that is no map; without serialized.ssz_snappy, which is
    opened before it is uncompressed (57), as it does for one that does not uncompress. *)
Definition test_vector (t : ty) (l : list (string * entry)) : outcome (bool * bool * bool) :=
  let yaml name := match content_of name l with Some b => load b | None => None end in
  match yaml "value.yaml" with
  | None => Throw
  | Some value =>
      let roots := match yaml "roots.yaml" with Some n => n | None => YScalar [] end in
      let content := content_of "serialized.ssz_snappy" l in
      test_ssz e HB t (des t) (fun _ => match content with Some b => uncompress b | None => None end)
        value roots (match content with Some b => b | None => [] end)
  end.
(** Line 46: once for every entry p3 of the directory p2. The results of all checks. *)
Definition test_directory (t : ty) (p2 : entry) : outcome (list (bool * bool * bool)) :=
  let* l := iterate (Some p2) in mapM (fun _ => test_vector t l) l.
(** Lines 44-45 *)
Definition test_class (t : ty) (base : option entry) : outcome (list (bool * bool * bool)) :=
  let* l1 := iterate base in
  let* rs := mapM (fun p1 : string * entry =>
               let* l2 := iterate (Some (snd p1)) in
               let* r := mapM (fun p2 : string * entry => test_directory t (snd p2)) l2 in Ok (concat r)) l1 in
  Ok (concat rs).

(** Lines 89-111 and 113-136: name of the test, directory and class *)
Definition test_list (c : config) : list (string * (string * ty)) :=
  [("serialize_fork", ("Fork", tFork));
   ("serialize_forkdata", ("ForkData", tForkData));
   ("serialize_checkpoint", ("Checkpoint", tCheckpoint));
   ("serialize_signingdata", ("SigningData", tSigningData));
   ("serialize_attestationdata", ("AttestationData", tAttestationData));
   ("serialize_indexedattestation", ("IndexedAttestation", tIndexedAttestation c));
   ("serialize_pendingattestation", ("PendingAttestation", tPendingAttestation c));
   ("serialize_attestation", ("Attestation", tAttestation c));
   ("serialize_depositmessage", ("DepositMessage", tDepositMessage));
   ("serialize_depositdata", ("DepositData", tDepositData));
   ("serialize_deposit", ("Deposit", tDeposit));
   ("serialize_eth1data", ("Eth1Data", tEth1Data));
   ("serialize_beaconblockheader", ("BeaconBlockHeader", tBeaconBlockHeader));
   ("serialize_beaconblockbody", ("BeaconBlockBody", tBeaconBlockBody c));
   ("serialize_beaconblock", ("BeaconBlock", tBeaconBlock c));
   ("serialize_signedbeaconblockheader", ("SignedBeaconBlockHeader", tSignedBeaconBlockHeader));
   ("serialize_signedbeaconblock", ("SignedBeaconBlock", tSignedBeaconBlock c));
   ("serialize_proposerslashing", ("ProposerSlashing", tProposerSlashing));
   ("serialize_attesterslashing", ("AttesterSlashing", tAttesterSlashing c));
   ("serialize_voluntaryexit", ("VoluntaryExit", tVoluntaryExit));
   ("serialize_signedvoluntaryexit", ("SignedVoluntaryExit", tSignedVoluntaryExit));
   ("serialize_validator", ("Validator", tValidator));
   ("serialize_beaconstate", ("BeaconState", tBeaconState c))].
(** All tests, with the directory TEST_VECTORS_PATH *)
Definition test_program (c : config) (vectors : list (string * entry)) : list (string * outcome (list (bool * bool * bool))) :=
  map (fun x : string * (string * ty) => let (name, y) := x in (name, test_class (snd y) (lookup (fst y) vectors))) (test_list c).
End Main.

(** acutest: a test passes if it ends without an exception and none of its checks failed. *)
Definition passes (r : outcome (list (bool * bool * bool))) : bool :=
  match r with Ok l => forallb (fun x => let '(a, b, c) := x in a && b && c) l | _ => false end.
