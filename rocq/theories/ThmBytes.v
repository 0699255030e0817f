(** Byte arrays (C22-C24). *)
From Coq Require Import ZArith List Bool.
From Verif Require Import Base SpecSSZ ModelSSZ ModelHashTree ModelTree ModelBytes SpecBytes LemBytes.
Import ListNotations.
Open Scope Z_scope.

(** ** C22 *)
Theorem C22_bytes_from_int : forall n size v, (size <= n)%nat -> 0 <= v < 256 ^ Z.of_nat size ->
  length (bytes_from_int n size v) = n /\
  (forall i, (i < n)%nat -> nth i (bytes_from_int n size v) 0 = (v / 256 ^ Z.of_nat i) mod 256) /\
  to_integer_little_endian (bytes_from_int n size v) = v.
Proof. exact from_int_spec. Qed.
Print Assumptions C22_bytes_from_int.
Theorem C22_slot : forall v old, 0 <= v < 2 ^ 64 ->
  slot_serialize (VNum v) = slot_to_bytes8 v /\
  slot_hash_tree (VNum v) = Ok [bytes_from_int 32 8 v] /\
  slot_deserialize old (slot_to_bytes8 v) = Ok (true, VNum v).
Proof. exact slot_views. Qed.
Print Assumptions C22_slot.
Example C22_case :
  bytes_from_int 6 4 0xdeadbeef = [0xef; 0xbe; 0xad; 0xde; 0; 0] /\
  slot_to_bytes8 (2 ^ 64 - 2) = [254; 255; 255; 255; 255; 255; 255; 255].
Proof. split; reflexivity. Qed.

(** ** C23. Full claim: the digits denote the bytes, strings without 0x or too
    long throw, and any other string that is not made of pairs of hexadecimal
    digits is rejected. The last part is false. *)
Theorem C23_refuted :
  (exists n str, bytes_ok str /\ (exists ch, In ch (skipn 2 str) /\ hex_digit ch = None) /\
     bytes_from_str n str = Ok (repeat 0 n)) /\
  (exists n str, bytes_ok str /\ (exists ch, In ch (skipn 2 str) /\ hex_digit ch = None) /\
     bytes_from_str n str = UB) /\
  (exists n str, bytes_ok str /\ hex_bytes (skipn 2 str) = None /\ bytes_from_str n str = Ok [18; 3]).
Proof. exact hex_refuted. Qed.
Print Assumptions C23_refuted.
Theorem C23_parse_partial : forall n s bs, hex_bytes s = Some bs -> zlen bs <= Z.of_nat n ->
  bytes_from_str n (48 :: 120 :: s) = Ok (bs ++ repeat 0 (n - length bs)).
Proof. exact hex_parse. Qed.
Print Assumptions C23_parse_partial.
Theorem C23_throws_partial : forall n str,
  bytes_from_str n str = Throw <-> ~ starts_0x str \/ zlen str > 2 * Z.of_nat n + 2.
Proof. exact hex_throws. Qed.
Print Assumptions C23_throws_partial.
(** Seven-bit text is safe to parse. *)
Theorem C23_safe_partial : forall n str,
  Forall (fun ch => 0 <= ch < 128) str -> bytes_from_str n str <> UB.
Proof. exact hex_no_ub. Qed.
Print Assumptions C23_safe_partial.
Example C23_case :
  hex_bytes [68; 69; 97; 100; 48; 102] = Some [0xde; 0xad; 0x0f] /\
  bytes_from_str 4 [48; 120; 68; 69; 97; 100; 48; 102] = Ok [0xde; 0xad; 0x0f; 0] /\
  bytes_from_str 2 [48; 120; 68; 69; 97; 100; 48; 102] = Throw /\
  bytes_from_str 4 [48; 88; 68; 69] = Throw.
Proof. repeat split; reflexivity. Qed.

(** ** C24 *)
Theorem C24_xor : forall a b, length a = length b -> bytes_ok a -> bytes_ok b ->
  length (xor_assign a b) = length a /\ bytes_ok (xor_assign a b) /\
  (forall i, (i < length a)%nat -> nth i (xor_assign a b) 0 = Z.lxor (nth i a 0) (nth i b 0)) /\
  xor_assign (xor_assign a b) b = a.
Proof. exact xor_spec. Qed.
Print Assumptions C24_xor.
Theorem C24_plus : forall ret a r, length ret = (length a + length r)%nat -> bytes_plus ret a r = a ++ r.
Proof. exact bytes_plus_eq. Qed.
Print Assumptions C24_plus.
Theorem C24_eq_vector : forall a r, bytes_eq_vector a r = true <-> a = r.
Proof. exact bytes_eq_vector_eq. Qed.
Print Assumptions C24_eq_vector.
Example C24_case :
  xor_assign [1; 2; 255] [3; 2; 15] = [2; 0; 240] /\ bytes_plus [7; 7; 7] [1] [2; 3] = [1; 2; 3] /\
  bytes_eq_vector [1; 2] [1; 2] = true /\ bytes_eq_vector [1; 2] [1; 2; 0] = false /\
  bytes_eq_vector [1; 2] [1; 3] = false.
Proof. repeat split; reflexivity. Qed.
