(** Conversions that get the order of the bytes wrong. *)
From Coq Require Import ZArith List Bool.
From Verif Require Import Base SpecSSZ.
Import ListNotations.
Open Scope Z_scope.

(** The byte of [v] that counts 256^k *)
Definition byte_of (v : Z) (k : nat) : Z := v / 256 ^ Z.of_nat k mod 256.
(** Writes to position [i] of [n] bytes the byte number [p n i]. *)
Definition writing (p : nat -> nat -> nat) (n size : nat) (v : Z) : list Z :=
  map (fun i => byte_of v (p n i)) (seq 0 n).
(** Reads as byte number [i] of the value the one at position [q n i]. *)
Definition reading (q : nat -> nat -> nat) (l : list Z) : Z :=
  le_val (map (fun i => nth (q (length l) i) l 0) (seq 0 (length l))).
(** [p n] permutes the positions of [n] bytes. *)
Definition reorders (p : nat -> nat -> nat) : Prop :=
  forall n i, (i < n)%nat -> (p n i < n)%nat /\ forall j, (j < n)%nat -> p n i = p n j -> i = j.
