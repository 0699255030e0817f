(** C55: what the unit tests of the conversions of Bytes can tell apart. *)
From Coq Require Import ZArith List Bool Lia.
From Verif Require Import Base ModelBytes ModelBytesTest SpecBytesTest LemBytesTest.
Import ListNotations.
Open Scope Z_scope.

(** The library's conversions move no byte, *)
Theorem C55_library : (forall n v, bytes_from_int n n v = writing (fun _ i => i) n n v) /\
  (forall l, to_integer_little_endian l = reading (fun _ i => i) l).
Proof. exact (conj from_int_writing to_integer_reading). Qed.
Print Assumptions C55_library.

(** and of the conversions that move bytes, exactly these pass the five checks. *)
Theorem C55_exact : forall p q,
  forallb (fun b => b) (bytes_checks (writing p) (reading q)) = true <->
  (p 1 0 = 0 /\ q 1 0 = 0 /\
   (forall i, i < 4 -> p 4 i = i /\ q 4 i = i /\ p 8 i = i /\ q 8 i = i) /\
   forall i, 4 <= i < 8 -> 4 <= p 8 i /\ 4 <= q 8 i)%nat.
Proof. exact checks_exact. Qed.
Print Assumptions C55_exact.

(** The full claim, that conversions which pass are the library's at the sizes tested, fails: *)
Theorem C55_refuted : ~ forall p q, reorders p -> reorders q ->
  forallb (fun b => b) (bytes_checks (writing p) (reading q)) = true ->
  forall v, 0 <= v < 2 ^ 64 -> writing p 8 8 v = bytes_from_int 8 8 v.
Proof. exact writes_refuted. Qed.
Print Assumptions C55_refuted.
Theorem C55_reads_refuted : ~ forall p q, reorders p -> reorders q ->
  forallb (fun b => b) (bytes_checks (writing p) (reading q)) = true ->
  forall l, length l = 8%nat -> bytes_ok l -> reading q l = to_integer_little_endian l.
Proof. exact reads_refuted. Qed.
Print Assumptions C55_reads_refuted.

(** it holds of the values below 2^32. *)
Theorem C55_writes_partial : forall p q n v,
  forallb (fun b => b) (bytes_checks (writing p) (reading q)) = true ->
  In n [1; 4; 8]%nat -> 0 <= v < 2 ^ 32 -> writing p n n v = bytes_from_int n n v.
Proof. exact (fun p q n v H => passing_writes p q n v (proj1 (checks_exact p q) H)). Qed.
Print Assumptions C55_writes_partial.
Theorem C55_reads_partial : forall p q l,
  forallb (fun b => b) (bytes_checks (writing p) (reading q)) = true ->
  In (length l) [1; 4; 8]%nat -> (forall i, (4 <= i)%nat -> nth i l 0 = 0) ->
  reading q l = to_integer_little_endian l.
Proof. exact (fun p q l H => passing_reads p q l (proj1 (checks_exact p q) H)). Qed.
Print Assumptions C55_reads_partial.

(** The library's conversions pass, reversed ones do not, and conversions that exchange
    bytes 4 and 5 of eight pass and are wrong. *)
Example C55_case :
  bytes_checks bytes_from_int to_integer_little_endian = [true; true; true; true; true] /\
  bytes_checks (writing (fun n i => (n - 1 - i)%nat)) (reading (fun n i => (n - 1 - i)%nat)) =
    [false; false; true; false; false] /\
  reorders swapped /\
  bytes_checks (writing swapped) (reading swapped) = [true; true; true; true; true] /\
  writing swapped 8 8 0x123400000000 = [0; 0; 0; 0; 0x12; 0x34; 0; 0] /\
  bytes_from_int 8 8 0x123400000000 = [0; 0; 0; 0; 0x34; 0x12; 0; 0].
Proof. repeat split; try reflexivity; apply swapped_reorders; assumption. Qed.
