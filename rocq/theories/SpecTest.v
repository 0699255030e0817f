(** The files of a reference test vector besides value.yaml: roots.yaml. *)
From Coq Require Import ZArith String List.
From Verif Require Import SpecSSZ.
Import ListNotations.
Open Scope string_scope.

(** roots.yaml has one key, [root]. *)
Definition sRoots : sty := SContainer [("root", SByteVector 32)].
