(** Independent specification of SSZ, transcribed from the Ethereum consensus
    specification document "ssz/simple-serialize.md" (not from /repo).
    Nothing here refers to the model of the C++ code, except the type [val] of
    values, which is just the universe of data. *)
From Coq Require Import ZArith String List.
From Verif Require Import Base.
Import ListNotations.
Open Scope Z_scope.

(** Data: byte vectors, unsigned integers, booleans, bit sequences, and
    heterogeneous sequences (vectors, lists, containers in field order). *)
Inductive val : Type :=
| VBytes (l : list Z)
| VNum (n : Z)
| VBool (b : bool)
| VBits (l : list bool)
| VSeq (l : list val).

(** SSZ types ("Typing"). [SByteVector n] is [Vector[byte, n]]. *)
Inductive sty : Type :=
| SUint64
| SBoolean
| SByteVector (n : Z)
| SBitvector (n : Z)
| SBitlist (limit : Z)
| SVector (t : sty) (n : Z)
| SList (t : sty) (limit : Z)
| SContainer (fields : list (string * sty)).

(** "Variable-size and fixed-size" *)
Fixpoint is_variable (t : sty) : bool :=
  match t with
  | SUint64 | SBoolean | SByteVector _ | SBitvector _ => false
  | SBitlist _ | SList _ _ => true
  | SVector t' _ => is_variable t'
  | SContainer fs => existsb (fun f => is_variable (snd f)) fs
  end.

(** Values of a type. *)
Fixpoint has_type (t : sty) (v : val) {struct t} : Prop :=
  match t, v with
  | SUint64, VNum n => 0 <= n < 2 ^ 64
  | SBoolean, VBool _ => True
  | SByteVector n, VBytes l => zlen l = n /\ bytes_ok l
  | SBitvector n, VBits l => zlen l = n
  | SBitlist limit, VBits l => zlen l <= limit
  | SVector t' n, VSeq l => zlen l = n /\ Forall (has_type t') l
  | SList t' limit, VSeq l => zlen l <= limit /\ Forall (has_type t') l
  | SContainer fs, VSeq l =>
      (fix go (fs : list (string * sty)) (l : list val) : Prop :=
         match fs, l with
         | [], [] => True
         | (_, t') :: fs', v' :: l' => has_type t' v' /\ go fs' l'
         | _, _ => False
         end) fs l
  | _, _ => False
  end.

(** ** Serialization *)

(** The integer whose binary digits, least significant first, are the bits. *)
Fixpoint bits_val (l : list bool) : Z :=
  match l with
  | [] => 0
  | b :: r => b2z b + 2 * bits_val r
  end.

Definition sumZ (l : list Z) : Z := fold_right Z.add 0 l.

(** Vectors, containers, lists. [es] gives for each element whether its type is
    variable-size, and its serialization.

    fixed_parts    = [serialize(e) if not is_variable_size(e) else None for e]
    variable_parts = [serialize(e) if is_variable_size(e) else b"" for e]
    fixed_lengths  = [len(part) if part != None else BYTES_PER_LENGTH_OFFSET]
    variable_offsets = [serialize(uint32(sum(fixed_lengths + variable_lengths[:i])))]
    return b"".join(fixed_parts with offsets filled in + variable_parts) *)
Definition fixed_lengths (es : list (bool * list Z)) : list Z :=
  map (fun e : bool * list Z => if fst e then 4 else zlen (snd e)) es.
Definition variable_parts (es : list (bool * list Z)) : list (list Z) :=
  map (fun e : bool * list Z => if fst e then snd e else []) es.
Definition variable_lengths (es : list (bool * list Z)) : list Z :=
  map zlen (variable_parts es).
Definition offset_of (es : list (bool * list Z)) (i : nat) : Z :=
  sumZ (fixed_lengths es) + sumZ (firstn i (variable_lengths es)).
Definition fixed_part (es : list (bool * list Z)) (i : nat) : list Z :=
  let e := nth i es (false, []) in
  if fst e then le_bytes 4 (offset_of es i) else snd e.
Definition ssz_series (es : list (bool * list Z)) : list Z :=
  concat (map (fixed_part es) (seq 0 (length es))) ++ concat (variable_parts es).

(** "serialize(value)". Bitvector[N] is the little-endian (N+7)/8-byte integer
    with the given bits; Bitlist[N] additionally sets the delimiting bit at
    position len(value) and takes len(value)/8 + 1 bytes. *)
Fixpoint ssz_serialize (t : sty) (v : val) {struct t} : list Z :=
  match t, v with
  | SUint64, VNum n => le_bytes 8 n
  | SBoolean, VBool b => [b2z b]
  | SByteVector _, VBytes l => l
  | SBitvector n, VBits l => le_bytes (Z.to_nat ((n + 7) / 8)) (bits_val l)
  | SBitlist _, VBits l =>
      le_bytes (Z.to_nat (zlen l / 8 + 1)) (bits_val (l ++ [true]))
  | SVector t' _, VSeq l => ssz_series (map (fun e => (is_variable t', ssz_serialize t' e)) l)
  | SList t' _, VSeq l => ssz_series (map (fun e => (is_variable t', ssz_serialize t' e)) l)
  | SContainer fs, VSeq l =>
      ssz_series
        ((fix go (fs : list (string * sty)) (l : list val) : list (bool * list Z) :=
            match fs, l with
            | (_, t') :: fs', v' :: l' => (is_variable t', ssz_serialize t' v') :: go fs' l'
            | _, _ => []
            end) fs l)
  | _, _ => []
  end.

(** ** Merkleization *)

Definition zero_chunk : list Z := repeat 0 32.

Section Merkle.
(** The 64-byte to 32-byte hash. *)
Variable H : list Z -> list Z.

(** Node at height [d] and horizontal position [i] of the binary Merkle tree
    whose leaves are given by the function [leaf]. *)
Fixpoint node (leaf : Z -> list Z) (d : nat) (i : Z) : list Z :=
  match d with
  | O => leaf i
  | S d' => H (node leaf d' (2 * i) ++ node leaf d' (2 * i + 1))
  end.

(** Leaves: the given chunks, then (virtually) zero chunks for ever. *)
Definition padded_leaf (chunks : list (list Z)) (i : Z) : list Z :=
  nth (Z.to_nat i) chunks zero_chunk.

(** "merkleize(chunks, limit)": root of the tree with next_pow_of_two(limit)
    leaves, where the limit defaults to the number of chunks. *)
Definition merkle_root (chunks : list (list Z)) (limit : Z) : list Z :=
  node (padded_leaf chunks) (Z.to_nat (Z.log2_up limit)) 0.

(** "pack": the bytes cut in 32-byte chunks, the last one zero padded. *)
Fixpoint ssz_pack_fuel (fuel : nat) (l : list Z) : list (list Z) :=
  match fuel, l with
  | S f, _ :: _ => (firstn 32 l ++ repeat 0 (32 - length (firstn 32 l)))
                     :: ssz_pack_fuel f (skipn 32 l)
  | _, _ => []
  end.
Definition ssz_pack (l : list Z) : list (list Z) := ssz_pack_fuel (length l) l.

(** "mix_in_length(root, length)" *)
Definition mix_in_length (root : list Z) (length : Z) : list Z :=
  H (root ++ le_bytes 32 length).

Definition is_basic (t : sty) : bool :=
  match t with SUint64 | SBoolean => true | _ => false end.
Definition basic_size (t : sty) : Z :=
  match t with SUint64 => 8 | _ => 1 end.

(** "hash_tree_root(value)" with "chunk_count(type)" inlined. *)
Fixpoint ssz_hash_tree_root (t : sty) (v : val) {struct t} : list Z :=
  match t, v with
  | SUint64, VNum _ | SBoolean, VBool _ =>
      merkle_root (ssz_pack (ssz_serialize t v)) 1
  | SByteVector n, VBytes l => merkle_root (ssz_pack l) ((n + 31) / 32)
  | SBitvector n, VBits l =>
      merkle_root (ssz_pack (le_bytes (Z.to_nat ((n + 7) / 8)) (bits_val l))) ((n + 255) / 256)
  | SBitlist limit, VBits l =>
      mix_in_length
        (merkle_root (ssz_pack (le_bytes (Z.to_nat ((zlen l + 7) / 8)) (bits_val l)))
                     ((limit + 255) / 256))
        (zlen l)
  | SVector t' n, VSeq l =>
      if is_basic t'
      then merkle_root (ssz_pack (concat (map (ssz_serialize t') l))) ((n * basic_size t' + 31) / 32)
      else merkle_root (map (ssz_hash_tree_root t') l) n
  | SList t' limit, VSeq l =>
      mix_in_length
        (if is_basic t'
         then merkle_root (ssz_pack (concat (map (ssz_serialize t') l)))
                          ((limit * basic_size t' + 31) / 32)
         else merkle_root (map (ssz_hash_tree_root t') l) limit)
        (zlen l)
  | SContainer fs, VSeq l =>
      let roots :=
        (fix go (fs : list (string * sty)) (l : list val) : list (list Z) :=
           match fs, l with
           | (_, t') :: fs', v' :: l' => ssz_hash_tree_root t' v' :: go fs' l'
           | _, _ => []
           end) fs l in
      merkle_root roots (zlen roots)
  | _, _ => []
  end.
End Merkle.
