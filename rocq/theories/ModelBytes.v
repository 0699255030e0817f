(** Model of the rest of common/bytes.hpp (construction from integers and hex
    strings, operators), of helpers/bytes_to_int.hpp, of the string conversions of
    Bitlist and Bitvector, and of the byte views of Slot. Arrays are lists of
    bytes; characters of a std::string are their codes 0..255. *)
From Coq Require Import ZArith String List Bool.
From Verif Require Import Base SpecSSZ ModelSSZ.
Import ListNotations.
Open Scope Z_scope.

(** std::copy of [src] to position [k] of [dst]. *)
Definition copy_at (dst : list Z) (k : nat) (src : list Z) : list Z :=
  firstn k dst ++ src ++ skipn (k + length src) dst.

(** ** Integers *)

(** std::bit_cast of an integer of [size] bytes to a byte array, on a
    little-endian machine (two's complement for negative values). *)
Definition bit_cast (size : nat) (value : Z) : list Z := le_bytes size value.

(** common/bytes.hpp:45-53, N = [n] (little-endian branch). The constructor at
    line 73 requires [size <= n]. *)
Definition bytes_from_int (n size : nat) (value : Z) : list Z :=
  copy_at (repeat 0 n) 0 (bit_cast size value).

(** common/bytes.hpp:105-109: a load of N bytes. *)
Definition to_integer_little_endian (m_arr : list Z) : Z := le_val m_arr.

(** common/slot.hpp:46 *)
Definition slot_to_bytes8 (value : Z) : list Z := bytes_from_int 8 8 value.

(** ** Hexadecimal digits, helpers/bytes_to_int.hpp *)

(** lines 29-54: the constructor of the table, in the order of the assignments *)
Definition table : list Z :=
  fold_left (fun t (p : nat * Z) => upd t (fst p) (snd p))
    [(49%nat, 1); (50%nat, 2); (51%nat, 3); (52%nat, 4); (53%nat, 5); (54%nat, 6); (55%nat, 7);
     (56%nat, 8); (57%nat, 9);
     (97%nat, 10); (65%nat, 10); (98%nat, 11); (66%nat, 11); (99%nat, 12); (67%nat, 12);
     (100%nat, 13); (68%nat, 13); (101%nat, 14); (69%nat, 14); (102%nat, 15); (70%nat, 15)]
    (repeat 0 128).

(** lines 53 and 67. Characters are signed: codes of 128 and more become huge
    indices, out of the bounds of the array. *)
Definition hextoint (number : Z) : outcome Z :=
  if (0 <=? number) && (number <? 128) then Ok (nth (Z.to_nat number) table 0) else UB.

(** lines 69-73: from the last character to the first, [j] is the weight. *)
Fixpoint strhex2int_loop (rev_str : list Z) (j ret : Z) : outcome Z :=
  match rev_str with
  | [] => Ok ret
  | ch :: r => let* d := hextoint ch in strhex2int_loop r (j * 16) (ret + d * j)
  end.
Definition strhex2int (str : list Z) : outcome Z := strhex2int_loop (rev str) 1 0.

(** common/bytes.hpp:55-57; conversion to uint8_t. *)
Definition chars_to_byte (str : list Z) : outcome Z :=
  let* r := strhex2int str in Ok (r mod 256).

(** "0x" *)
Definition prefix_0x (str : list Z) : bool :=
  match str with a :: b :: _ => (a =? 48) && (b =? 120) | _ => false end.

(** common/bytes.hpp:65: [rest] is what follows position [i], [k] is [i / 2 - 1];
    substr(i, 2) has one character at the end of a string of odd length; a store
    past the end of the array is UB. *)
Fixpoint bytes_from_str_loop (rest : list Z) (k : nat) (ret_arr : list Z) : outcome (list Z) :=
  match rest with
  | [] => Ok ret_arr
  | [a] =>
      let* x := chars_to_byte [a] in
      if (k <? length ret_arr)%nat then Ok (upd ret_arr k x) else UB
  | a :: b :: r =>
      let* x := chars_to_byte [a; b] in
      if (k <? length ret_arr)%nat then bytes_from_str_loop r (S k) (upd ret_arr k x) else UB
  end.

(** common/bytes.hpp:59-67 *)
Definition bytes_from_str (n : nat) (str : list Z) : outcome (list Z) :=
  if negb (prefix_0x str) then Throw
  else if zlen str >? 2 * Z.of_nat n + 2 then Throw
  else bytes_from_str_loop (skipn 2 str) 0 (repeat 0 n).

(** ** Operators of Bytes<N> *)

(** common/bytes.hpp:115-117 *)
Definition xor_assign (m_arr b : list Z) : list Z :=
  fold_left (fun a i => upd a i (Z.lxor (nth i a 0) (nth i b 0))) (seq 0 (length m_arr)) m_arr.

(** common/bytes.hpp:119-123, for N = M (for N <> M the comparison of the arrays
    does not compile). std::array's == compares element by element. *)
Fixpoint bytes_eqb (a b : list Z) : bool :=
  match a, b with
  | [], [] => true
  | x :: a', y :: b' => (x =? y) && bytes_eqb a' b'
  | _, _ => false
  end.

(** common/bytes.hpp:125-130 *)
Definition bytes_eq_vector (m_arr r : list Z) : bool :=
  if negb (zlen m_arr =? zlen r) then false
  else forallb (fun i => nth i m_arr 0 =? nth i r 0) (seq 0 (length m_arr)).

(** common/bytes.hpp:132-138; [ret] is the uninitialised array of N + M bytes. *)
Definition bytes_plus (ret m_arr r : list Z) : list Z :=
  copy_at (copy_at ret 0 m_arr) (length m_arr) r.

(** ** Strings of bits *)

(** The loop of common/bitlist.cpp:73-76 and common/bitvector.hpp:53-56. *)
Fixpoint hex_pairs (str : list Z) : outcome (list Z) :=
  match str with
  | a :: b :: r =>
      let* x := hextoint a in
      let* y := hextoint b in
      let* rest := hex_pairs r in
      Ok ((Z.shiftl x 4 + y) mod 256 :: rest)
  | [_] => UB
  | [] => Ok []
  end.

(** common/bitlist.cpp:67-78 (the result of deserialize is ignored: it is always
    true) *)
Definition bitlist_from_hexstring (v : val) (str : list Z) : outcome val :=
  if negb (prefix_0x str) then Throw
  else if negb (zlen str mod 2 =? 0) then Throw
  else let* hex := hex_pairs (skipn 2 str) in
       let* (_, v') := bitlist_deserialize v hex in
       Ok v'.

(** common/bitvector.hpp:47-61; [(hex[i] >> j) & 1] is the bit that
    deserialize gets as [*i & (1 << j)]. *)
Definition bitvector_from_hexstring (n : Z) (v : val) (str : list Z) : outcome val :=
  if negb (prefix_0x str) then Throw
  else if negb (zlen str mod 2 =? 0) then Throw
  else let* hex := hex_pairs (skipn 2 str) in
       Ok (VBits (bv_outer n hex 0 (repeat false (Z.to_nat n)))).

(** common/bitlist.cpp:80-88 and common/bitvector.hpp:63-72: [*i] is an unsigned
    char, so the stream inserts it as a character, padded with '0' to width 2. *)
Definition stream_bytes (serial : list Z) : list Z :=
  48 :: 120 :: flat_map (fun b => [48; b]) serial.
Definition bitlist_to_string (v : val) : list Z := stream_bytes (bitlist_serialize v).
Definition bitvector_to_string (n : Z) (v : val) : list Z := stream_bytes (bitvector_serialize n v).
