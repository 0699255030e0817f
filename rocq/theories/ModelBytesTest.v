(** Model of common/bytes_test.cpp, the program that tests the conversions of Bytes. *)
From Coq Require Import ZArith List Bool.
From Verif Require Import Base ModelBytes.
Import ListNotations.
Open Scope Z_scope.

Section Test.
(** Bytes<N>::bytes_from_int and Bytes<N>::to_integer_little_endian, parameters so that
    theorems can put other functions in their place; [bytes_from_int] and
    [to_integer_little_endian] are the library's. *)
Variable from_int : nat -> nat -> Z -> list Z.
Variable to_integer : list Z -> Z.

(** lines 28-36: the values of the TEST_CHECKs *)
Definition test_bytes_from_int : list bool :=
  [bytes_eqb [0x40; 0x30; 0x20; 0x10] (from_int 4%nat 4%nat 0x10203040);
   bytes_eqb [0x40; 0x30; 0x20; 0x10; 0x0; 0x0; 0x0; 0x0] (from_int 8%nat 8%nat 0x10203040)].
(** lines 38-53 *)
Definition test_bytes_to_integer_little_endian : list bool :=
  [0x0a =? to_integer (from_int 1%nat 1%nat 0x0a);
   0x10203040 =? to_integer [0x40; 0x30; 0x20; 0x10];
   0x10203040 =? to_integer [0x40; 0x30; 0x20; 0x10; 0x0; 0x0; 0x0; 0x0]].
(** lines 56-58: all the checks *)
Definition bytes_checks : list bool := test_bytes_from_int ++ test_bytes_to_integer_little_endian.
End Test.
