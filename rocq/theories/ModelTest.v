(** Model of beacon-chain/test/test_ssz.cpp, the program that compares the library with
    the reference test vectors. *)
From Coq Require Import ZArith String List Bool.
From Verif Require Import Base SpecSSZ ModelSSZ ModelBytes ModelHashTree ModelTree ModelYaml ModelPred.
Import ListNotations.
Open Scope Z_scope.

Section Test.
Variable e : externals.
(** the hasher *)
Variable HB : list chunk -> list chunk.
(** the class T *)
Variable t : ty.
(** T::deserialize, a parameter so that theorems can put another program in its place;
    [deserialize t] is the library's. *)
Variable des : val -> list Z -> outcome (bool * val).
(** snappy::RawUncompress: [None] if it returns false, else what it writes to the buffer *)
Variable uncompress : list Z -> option (list Z).

(** test_ssz<T>, lines 47-80, for one directory: the nodes of value.yaml and roots.yaml and
    the content of serialized.ssz_snappy; the results of the three TEST_CHECKs. The buffer
    of RawUncompress has the size of [serialized] and is zero at first (line 66); more data
    than that is written out of bounds. The result of [deserialize] is not used (line 74).
    Opening and reading the files is left out. *)
Definition test_ssz (value roots : ynode) (content : list Z) : outcome (bool * bool * bool) :=
  let* ssz_type := as_T (yvt e t) value in
  let* computed_root := hash_tree_root HB t ssz_type in
  let* node := yget roots "root"%string in
  let* root := as_T (yvt e (TBytes 32)) node in
  let serialized := serialize t ssz_type in
  match uncompress content with
  | None => Throw
  | Some data =>
      if zlen data >? zlen serialized then UB
      else
        let output := data ++ repeat 0 (length serialized - length data) in
        let* (_, obj) := des (vt_default (vt t)) output in
        Ok (op_eq (TBytes 32) (VBytes computed_root) root,
            op_eq t obj ssz_type,
            bytes_eqb serialized output)
  end.
End Test.
