(** Model of ssz/hashtree.hpp and ssz/hashtree.cpp over an arbitrary
    hash_64b_blocks (the function the Hasher object points to, ssz/hasher.hpp:57-59). The tree buffer [hash_tree_] is a list of chunks; every access through
    an iterator or pointer is checked against its bounds, and outside is UB. *)
From Coq Require Import ZArith List Bool.
From Verif Require Import Base SpecSSZ ModelMath.
Import ListNotations.
Open Scope Z_scope.

Notation chunk := (list Z).

(** The hash_64b_blocks that hashes every 64-byte block with [H]: the i-th digest is
    the hash of the i-th pair of chunks. *)
Fixpoint hash_pairs (H : list Z -> list Z) (l : list chunk) : list chunk :=
  match l with
  | a :: b :: r => H (a ++ b) :: hash_pairs H r
  | _ => []
  end.

Section WithHash.
(** hash_64b_blocks(output, input, n) as a function from the 2n input chunks to the
    n output chunks *)
Variable HB : list chunk -> list chunk.

(** ssz/hashtree.cpp:33-40 *)
Definition hash_2_chunks (first second : chunk) : chunk := hd [] (HB [first; second]).

(** ssz/hashtree.cpp:43 *)
Definition zero_hash : chunk := repeat 0 32.

(** ssz/hashtree.cpp:45-52: ret[0] = zero_hash; each entry hashes the previous
    one with itself. *)
Fixpoint zero_hash_list (n : nat) (prev : chunk) : list chunk :=
  match n with
  | O => []
  | S n' => prev :: zero_hash_list n' (hash_2_chunks prev prev)
  end.
(** ssz/hashtree.cpp:42,55 *)
Definition ZERO_HASH_DEPTH : nat := 42.
Definition zero_hash_array : list chunk := zero_hash_list ZERO_HASH_DEPTH zero_hash.

(** Bounds-checked element read. *)
Definition read {A} (l : list A) (i : Z) : outcome A :=
  if (0 <=? i) && (i <? zlen l)
  then match nth_error l (Z.to_nat i) with Some c => Ok c | None => UB end
  else UB.

(** Bounds-checked write of consecutive elements. *)
Definition write {A} (l : list A) (o : Z) (cs : list A) : outcome (list A) :=
  if (0 <=? o) && (o + zlen cs <=? zlen l)
  then Ok (firstn (Z.to_nat o) l ++ cs ++ skipn (Z.to_nat (o + zlen cs)) l)
  else UB.

(** ssz/hashtree.cpp:62-75. [fuel] bounds the number of chunks. *)
Fixpoint pack_loop (fuel : nat) (vec : list Z) : list chunk :=
  match fuel, vec with
  | S f, _ :: _ =>
      let part := firstn 32 vec in
      (part ++ skipn (length part) zero_hash) :: pack_loop f (skipn 32 vec)
  | _, _ => []
  end.
Definition pack_and_pad (vec : list Z) : list chunk :=
  match vec with
  | [] => [zero_hash]
  | _ => pack_loop (length vec) vec
  end.

(** hash_64b_blocks(output = &dst[o], input = &src[i], count), two vectors *)
Definition hash_blocks_from (dst : list chunk) (o : Z) (src : list chunk) (i count : Z)
  : outcome (list chunk) :=
  let* s := slice src i (i + 2 * count) in
  write dst o (HB s).

(** The same inside one buffer: the routines require that input and output do not
    overlap, so overlap is UB. *)
Definition hash_blocks_in (buf : list chunk) (o i count : Z) : outcome (list chunk) :=
  if (i + 2 * count <=? o) || (o + count <=? i)
  then hash_blocks_from buf o buf i count
  else UB.

(** An iterator must stay within [begin, end]. *)
Definition check_iter (buf : list chunk) (i : Z) : outcome unit :=
  if (0 <=? i) && (i <=? zlen buf) then Ok tt else UB.

(** ssz/hashtree.cpp:85-93. [fuel] only makes the definition total. *)
Fixpoint merkle_layers (fuel : nat) (buf : list chunk) (first last height : Z)
  : outcome (list chunk * Z * Z) :=
  let dist := last - first in
  if dist >? 1 then
    match fuel with
    | O => UB
    | S f =>
        let* buf1 := hash_blocks_in buf last first (dist / 2) in
        let first' := last in
        let last' := last + (dist + 1) / 2 in
        let* _ := check_iter buf last' in
        let* buf2 :=
          (if dist mod 2 =? 0 then Ok buf1
           else
             let* c := read buf1 (first' - 1) in
             let* z := read zero_hash_array height in
             write buf1 (last' - 1) [hash_2_chunks c z]) in
        merkle_layers f buf2 first' last' (height + 1)
    end
  else Ok (buf, last, height).

(** ssz/hashtree.cpp:94-98 *)
Fixpoint merkle_extend (fuel : nat) (buf : list chunk) (last height depth : Z)
  : outcome (list chunk * Z) :=
  if height <? depth then
    match fuel with
    | O => UB
    | S f =>
        let* c := read buf (last - 1) in
        let* z := read zero_hash_array height in
        let* buf' := write buf last [hash_2_chunks c z] in
        merkle_extend f buf' (last + 1) (height + 1) depth
    end
  else Ok (buf, last).

(** ssz/hashtree.cpp:77-100 *)
Definition merkleize (vec : list chunk) (hash_tree : list chunk) (limit : Z)
  : outcome (list chunk) :=
  let depth := log2ceil limit in
  let last := (zlen vec + 1) / 2 in
  let* _ := check_iter hash_tree last in
  let* buf1 :=
    (if zlen vec >? 1
     then hash_blocks_from hash_tree 0 vec 0 (zlen vec / 2)
     else Ok hash_tree) in
  let* buf2 :=
    (if zlen vec mod 2 =? 0 then Ok buf1
     else
       let* c := read vec (zlen vec - 1) in
       write buf1 (last - 1) [hash_2_chunks c zero_hash]) in
  let* (buf3, last', height) := merkle_layers (length vec) buf2 0 last 1 in
  let* (buf4, last'') := merkle_extend (Z.to_nat depth) buf3 last' height depth in
  Ok (firstn (Z.to_nat last'') buf4).

(** ssz/hashtree.cpp:108-124. [depth - effective_depth] is an int added to a
    size_t: modulo 2^64. *)
Definition HashTree (chunks : list chunk) (limit : Z) : outcome (list chunk) :=
  if (limit <=? 1) && (zlen chunks =? 1) then Ok chunks
  else match chunks with
  | [] => Throw
  | _ =>
      let effective_depth := log2ceil (zlen chunks) in
      let depth := if limit =? 0 then effective_depth else log2ceil limit in
      let cache_size := u64 (depth - effective_depth + bit_ceil (zlen chunks) - 1) in
      let cache_size := if depth >? effective_depth then u64 (cache_size + 1) else cache_size in
      let hash_tree := repeat zero_hash (Z.to_nat (Z.max cache_size 1)) in
      let limit := if limit =? 0 then bit_ceil (zlen chunks) else limit in
      merkleize chunks hash_tree limit
  end.

(** ssz/hashtree.cpp:131 *)
Definition HashTree_bytes (vec : list Z) (limit : Z) : outcome (list chunk) :=
  HashTree (pack_and_pad vec) limit.

(** ssz/hashtree.hpp:44 and ssz/ssz_container.hpp:57: [back()], UB when empty *)
Definition back (tree : list chunk) : outcome chunk := read tree (zlen tree - 1).

(** ssz/hashtree.cpp:126-129; Bytes32(length) is common/bytes.hpp:45-53 *)
Definition mix_in (tree : list chunk) (length : Z) : outcome (list chunk) :=
  let* root := back tree in
  Ok (tree ++ [hash_2_chunks root (le_bytes 32 length)]).

End WithHash.
