(** Directories of reference test vectors. *)
From Coq Require Import ZArith String List.
From Verif Require Import Base SpecSSZ ModelYaml SpecText SpecTest ModelSszMain.
Import ListNotations.
Open Scope string_scope.
Open Scope list_scope.
Open Scope Z_scope.

(** The directory [l] has the file [name] with the content [b]. *)
Definition has_file (l : list (string * entry)) (name : string) (b : list Z) : Prop :=
  NoDup (map fst l) /\ In (name, File b) l.
(** Everything in the directory [base] is a directory of directories with the property [P]. *)
Definition vectors_of (P : list (string * entry) -> Prop) (base : entry) : Prop :=
  exists l1, base = Dir l1 /\ forall n1 d1, In (n1, d1) l1 ->
  exists l2, d1 = Dir l2 /\ forall n2 d2, In (n2, d2) l2 -> exists l3, d2 = Dir l3 /\ P l3.
(** The directory [l] is in [base], two levels down. *)
Definition vector_in (base : entry) (l : list (string * entry)) : Prop :=
  exists l1 n1 l2 n2, base = Dir l1 /\ In (n1, Dir l2) l1 /\ In (n2, Dir l) l2.

(** The directory [l] holds the files of a vector for [v]: its YAML text, [r] as YAML text and
    [b] compressed. *)
Definition shows_vector (load : list Z -> option ynode) (uncompress : list Z -> option (list Z))
  (s : sty) (v : val) (r b : list Z) (l : list (string * entry)) : Prop :=
  exists b1 value b2 roots b3,
  has_file l "value.yaml" b1 /\ load b1 = Some value /\ shows s v value /\
  has_file l "roots.yaml" b2 /\ load b2 = Some roots /\ shows sRoots (VSeq [VBytes r]) roots /\
  has_file l "serialized.ssz_snappy" b3 /\ uncompress b3 = Some b.
