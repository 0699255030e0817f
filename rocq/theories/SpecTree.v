(** Statement helpers for the hash tree: which class descriptions the theorems
    about roots cover, and the layers of a Merkle tree. *)
From Coq Require Import ZArith String List Bool.
From Verif Require Import Base SpecSSZ ModelSSZ.
Import ListNotations.
Open Scope Z_scope.

(** Limits are at least 1 and small enough for a tree of depth 42 (the size of
    the zero-hash table), and no vector or list has Boolean elements (the library
    hashes such a sequence element by element; no container has one). All the
    classes of /repo satisfy it (checked by computation). *)
Definition not_boolean (t : ty) : bool := match t with TBoolean => false | _ => true end.
Fixpoint hashable (t : ty) : bool :=
  match t with
  | TBytes n => n <=? 2 ^ 42
  | TSlot | TBoolean => true
  | TBitvector n => n <=? 2 ^ 42
  | TBitlist limit => (1 <=? limit) && (limit <=? 2 ^ 42)
  | TVector t' n => hashable t' && not_boolean t' && (n <=? 2 ^ 42)
  | TListF t' limit | TListV t' limit =>
      hashable t' && not_boolean t' && (1 <=? limit) && (limit <=? 2 ^ 42)
  | TClass _ fs => forallb hashable fs && (zlen fs <=? 2 ^ 42)
  end.

(** Root of the tree of depth [k] all of whose leaves are zero chunks. *)
Section Layers.
Variable H : list Z -> list Z.
Definition zero_root (k : nat) : list Z := node H (fun _ => zero_chunk) k 0.

(** Number of nodes at height [k] above at least one of [n] chunks, and those
    nodes from left to right. *)
Definition layer_width (n : Z) (k : nat) : Z := (n + 2 ^ Z.of_nat k - 1) / 2 ^ Z.of_nat k.
Definition tree_layer (chunks : list (list Z)) (k : nat) : list (list Z) :=
  map (fun i => node H (padded_leaf chunks) k (Z.of_nat i))
      (seq 0 (Z.to_nat (layer_width (zlen chunks) k))).
End Layers.

(** The length of the longest sequence in a value. *)
Fixpoint breadth (v : val) : Z :=
  match v with
  | VBytes l => zlen l
  | VNum _ | VBool _ => 1
  | VBits l => zlen l
  | VSeq l => fold_right Z.max (zlen l) (map breadth l)
  end.

(** What the tree of [n] chunks needs when [n] may exceed the limit: the nodes of
    all the layers above the chunks, and the number of nodes the constructor of
    HashTree sets aside. It sets aside one node too few for every power of two
    between the limit and the number of chunks. *)
Definition nodes_above (n : Z) : Z :=
  sumZ (map (layer_width n) (seq 1 (Z.to_nat (Z.log2_up n)))).
Definition set_aside (n limit : Z) : Z :=
  Z.max 1 (2 ^ Z.log2_up n - 1 - (Z.log2_up n - Z.log2_up limit)).
Definition tree_fits (n limit : Z) : bool :=
  (Z.log2_up n <=? Z.log2_up limit) || (nodes_above n <=? set_aside n limit).

(** How many nodes fewer than a complete tree of the same depth the tree of [n]
    chunks has above its chunks. *)
Definition spare (n : Z) : Z :=
  sumZ (map (fun k => (2 ^ Z.log2_up n - n) / 2 ^ Z.of_nat k) (seq 1 (Z.to_nat (Z.log2_up n)))).

(** The same for all the trees built to hash a value; the trees of vectors and
    containers always fit. An empty list is one zero chunk. *)
Fixpoint trees_fit (s : sty) (v : val) {struct s} : bool :=
  match s, v with
  | SBitlist limit, VBits l => tree_fits (Z.max 1 ((zlen l + 255) / 256)) ((limit + 255) / 256)
  | SVector s' _, VSeq l => forallb (trees_fit s') l
  | SList s' limit, VSeq l =>
      if is_basic s'
      then tree_fits (Z.max 1 ((zlen l * basic_size s' + 31) / 32)) ((limit * basic_size s' + 31) / 32)
      else forallb (trees_fit s') l && tree_fits (Z.max 1 (zlen l)) limit
  | SContainer fs, VSeq l =>
      (fix go (fs : list (string * sty)) (l : list val) : bool :=
         match fs, l with
         | (_, s') :: fs', v' :: l' => trees_fit s' v' && go fs' l'
         | _, _ => true
         end) fs l
  | _, _ => true
  end.

(** The root of the SSZ specification with the limit of a list that has more
    elements than it may raised to the number of its elements. *)
Section Lenient.
Variable H : list Z -> list Z.
Fixpoint lenient_root (s : sty) (v : val) {struct s} : list Z :=
  match s, v with
  | SBitlist limit, VBits l =>
      mix_in_length H
        (merkle_root H (ssz_pack (le_bytes (Z.to_nat ((zlen l + 7) / 8)) (bits_val l)))
                     (Z.max ((limit + 255) / 256) ((zlen l + 255) / 256)))
        (zlen l)
  | SVector s' n, VSeq l =>
      if is_basic s' then ssz_hash_tree_root H s v
      else merkle_root H (map (lenient_root s') l) n
  | SList s' limit, VSeq l =>
      mix_in_length H
        (if is_basic s'
         then merkle_root H (ssz_pack (concat (map (ssz_serialize s') l)))
                (Z.max ((limit * basic_size s' + 31) / 32) ((zlen l * basic_size s' + 31) / 32))
         else merkle_root H (map (lenient_root s') l) (Z.max limit (zlen l)))
        (zlen l)
  | SContainer fs, VSeq l =>
      let roots :=
        (fix go (fs : list (string * sty)) (l : list val) : list (list Z) :=
           match fs, l with
           | (_, s') :: fs', v' :: l' => lenient_root s' v' :: go fs' l'
           | _, _ => []
           end) fs l in
      merkle_root H roots (zlen roots)
  | _, _ => ssz_hash_tree_root H s v
  end.
End Lenient.
