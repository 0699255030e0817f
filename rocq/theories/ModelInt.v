(** The loops of the library whose counter is an [int], with that counter. The other
    models count with unbounded integers; here signed overflow is UB, unsigned 32-bit
    arithmetic wraps around, and the stores of these loops are bounds-checked.
    Bitlist::serialize and hash_tree (common/bitlist.cpp:35-51), Bitvector::serialize
    (common/bitvector.hpp:78-82), from_hexstring of both (common/bitlist.cpp:67-78,
    common/bitvector.hpp:47-61), and everything that calls them. The remaining int
    counters are bounded by template arguments of at most 65536
    (common/containers.hpp:87, common/bytes.hpp:65,116,127). *)
From Coq Require Import ZArith String List Bool.
From Verif Require Import Base SpecSSZ ModelMath ModelHashTree ModelSSZ ModelBytes ModelTree ModelYaml.
Import ListNotations.
Open Scope Z_scope.

(** [i += k] for an int [i] *)
Definition int_add (i k : Z) : outcome Z := if i + k >? 2 ^ 31 - 1 then UB else Ok (i + k).
(** [ret[k] |= x] *)
Definition or_at (ret : list Z) (k : Z) (x : Z) : outcome (list Z) :=
  if (0 <=? k) && (k <? zlen ret)
  then Ok (upd ret (Z.to_nat k) (Z.lor (nth (Z.to_nat k) ret 0) x))
  else UB.

(** common/bitlist.cpp:38 and 47-48, common/bitvector.hpp:80: the body, then [++i] *)
Fixpoint pack_bits_int (l : list bool) (i : Z) (ret : list Z) : outcome (list Z) :=
  match l with
  | [] => Ok ret
  | b :: r =>
      let* ret' := or_at ret (i / 8) (Z.shiftl (b2z b) (i mod 8)) in
      let* i' := int_add i 1 in
      pack_bits_int r i' ret'
  end.

(** common/bitvector.hpp:78-82 *)
Definition bitvector_serialize_int (n : Z) (v : val) : outcome (list Z) :=
  match v with
  | VBits l => pack_bits_int l 0 (repeat 0 (Z.to_nat ((n + BITS_PER_BYTE - 1) / BITS_PER_BYTE)))
  | _ => Ok []
  end.
(** common/bitlist.cpp:45-51 *)
Definition bitlist_serialize_int (v : val) : outcome (list Z) :=
  match v with
  | VBits l =>
      let* ret := pack_bits_int l 0 (repeat 0 (Nat.div (length l) 8 + 1)) in
      or_at ret (zlen ret - 1) (Z.shiftl 1 (zlen l mod 8))
  | _ => Ok []
  end.

(** A part that has been serialized already, in the loops of ModelSSZ. *)
Definition serialized (size : Z) : vtable :=
  {| vt_size := size; vt_default := VSeq []; vt_ser := bytes_serialize; vt_des := fun _ _ => UB |}.

(** serialize() of every class, with the dispatch of ModelSSZ; the parts are serialized
    first (common/containers.hpp:75-82, 136-143, 187-200, ssz/ssz_container.cpp:48-71). *)
Fixpoint serialize_int (t : ty) (v : val) {struct t} : outcome (list Z) :=
  match t with
  | TBytes _ | TSlot | TBoolean => Ok (serialize t v)
  | TBitvector n => bitvector_serialize_int n v
  | TBitlist _ => bitlist_serialize_int v
  | TVector t' _ | TListF t' _ =>
      match v with
      | VSeq l => let* parts := mapM (serialize_int t') l in Ok (concat parts)
      | _ => Ok []
      end
  | TListV t' _ =>
      match v with
      | VSeq l => let* parts := mapM (serialize_int t') l in
                  Ok (listv_serialize (serialized 0) (VSeq (map VBytes parts)))
      | _ => Ok []
      end
  | TClass ci fields =>
      match v with
      | VSeq obj =>
          let ms := map (fun t' => (get_ssz_size t', serialize_int t')) fields in
          let* parts := mapM (fun k =>
            let (size, m) := nth k ms (0, fun _ => UB) in
            let* s := m (nth k obj (VSeq [])) in Ok (serialized size, VBytes s)) (ci_ser ci) in
          Ok (serialize_ parts)
      | _ => Ok []
      end
  end.

Section WithHash.
Variable HB : list chunk -> list chunk.

(** common/bitlist.cpp:35-43 *)
Definition bitlist_hash_tree_int (limit : Z) (v : val) : outcome (list chunk) :=
  match v with
  | VBits l =>
      let* ret := pack_bits_int l 0 (repeat 0 (Nat.div (length l + 7) 8)) in
      let* ht := HashTree_bytes HB ret (u64 (limit + 8 * 32 - 1) / (8 * 32)) in
      mix_in HB ht (zlen l)
  | _ => UB
  end.

(** hash_tree() of every class, see ModelTree.hash_tree *)
Fixpoint hash_tree_int (t : ty) (v : val) {struct t} : outcome (list chunk) :=
  match t with
  | TSlot => slot_hash_tree v
  | TBytes _ | TBoolean | TBitvector _ =>
      let* b := serialize_int t v in HashTree_bytes HB b 0
  | TBitlist limit => bitlist_hash_tree_int limit v
  | TVector t' n =>
      match v with
      | VSeq l =>
          if basic_object t'
          then let* b := serialize_int t v in HashTree_bytes HB b 0
          else
            let* chunks := mapM (fun e => root_of (hash_tree_int t' e)) l in
            if n =? 1 then Ok chunks else HashTree HB chunks 0
      | _ => UB
      end
  | TListF t' limit =>
      match v with
      | VSeq l =>
          if basic_object t'
          then
            let* b := serialize_int t v in
            let lim := u64 (u64 (limit * get_ssz_size t') + 32 - 1) / 32 in
            let* ht := HashTree_bytes HB b lim in
            mix_in HB ht (zlen l)
          else
            let* chunks := mapM (fun e => root_of (hash_tree_int t' e)) l in
            list_hash_tree HB limit chunks
      | _ => UB
      end
  | TListV t' limit =>
      match v with
      | VSeq l =>
          let* chunks := mapM (fun e => root_of (hash_tree_int t' e)) l in
          list_hash_tree HB limit chunks
      | _ => UB
      end
  | TClass ci fields =>
      match v with
      | VSeq obj =>
          let hs := map hash_tree_int fields in
          match ci_hash ci with
          | [] => Ok []
          | idx =>
              let* chunks :=
                mapM (fun k => root_of (nth k hs (fun _ => UB) (nth k obj (VSeq [])))) idx in
              HashTree HB chunks 0
          end
      | _ => UB
      end
  end.
Definition hash_tree_root_int (t : ty) (v : val) : outcome chunk := root_of (hash_tree_int t v).
End WithHash.

(** The loop of common/bitlist.cpp:73-76 and common/bitvector.hpp:53-56; [str] is what
    follows position [offset]. *)
Fixpoint hex_pairs_int (str : list Z) (offset : Z) : outcome (list Z) :=
  match str with
  | a :: b :: r =>
      let* x := hextoint a in
      let* y := hextoint b in
      let* offset' := int_add offset 2 in
      let* rest := hex_pairs_int r offset' in
      Ok ((Z.shiftl x 4 + y) mod 256 :: rest)
  | [_] => UB
  | [] => Ok []
  end.
(** common/bitvector.hpp:58-60: [BITS_PER_BYTE * i] is computed in unsigned int, the loop
    on [i] is bounded by half the length of the string. *)
Fixpoint bv_outer_int (n : Z) (b : list Z) (i : Z) (arr : list bool) : outcome (list bool) :=
  match b with
  | [] => Ok arr
  | x :: r =>
      let* i' := int_add i 1 in
      bv_outer_int n r i' (bv_inner n x (u32 (8 * i) / 8) [0;1;2;3;4;5;6;7] arr)
  end.
(** common/bitlist.cpp:67-78 *)
Definition bitlist_from_hexstring_int (v : val) (str : list Z) : outcome val :=
  if negb (prefix_0x str) then Throw
  else if negb (zlen str mod 2 =? 0) then Throw
  else let* hex := hex_pairs_int (skipn 2 str) 2 in
       let* (_, v') := bitlist_deserialize v hex in
       Ok v'.
(** common/bitvector.hpp:47-61 *)
Definition bitvector_from_hexstring_int (n : Z) (v : val) (str : list Z) : outcome val :=
  if negb (prefix_0x str) then Throw
  else if negb (zlen str mod 2 =? 0) then Throw
  else let* hex := hex_pairs_int (skipn 2 str) 2 in
       let* arr := bv_outer_int n hex 0 (repeat false (Z.to_nat n)) in
       Ok (VBits arr).

Section WithExternals.
Variable e : externals.
(** decode() of every class, with the dispatch of ModelYaml.yvt *)
Fixpoint yvt_int (t : ty) : ytable :=
  let d := vt_default (vt t) in
  let enc := y_encode (yvt e t) in
  match t with
  | TBytes n => {| y_default := d; y_encode := enc; y_decode := bytes_decode n |}
  | TSlot => {| y_default := d; y_encode := enc; y_decode := slot_decode e |}
  | TBoolean => {| y_default := d; y_encode := enc; y_decode := boolean_decode e |}
  | TBitvector n =>
      {| y_default := d; y_encode := enc; y_decode := fun v node =>
           scalar_decode v node (fun s => let* v' := bitvector_from_hexstring_int n v s in Ok (true, v')) |}
  | TBitlist _ =>
      {| y_default := d; y_encode := enc; y_decode := fun v node =>
           scalar_decode v node (fun s => let* v' := bitlist_from_hexstring_int v s in Ok (true, v')) |}
  | TVector t' n => {| y_default := d; y_encode := enc; y_decode := array_decode (yvt_int t') n |}
  | TListF t' _ | TListV t' _ => {| y_default := d; y_encode := enc; y_decode := vec_decode (yvt_int t') |}
  | TClass ci fs =>
      let ps := map yvt_int fs in
      {| y_default := d; y_encode := enc;
         y_decode := fun v node => match v with
           | VSeq l => let* (ok, l') := decode_ ps node (ci_dec ci) l in Ok (ok, VSeq l')
           | _ => UB
           end |}
  end.
Definition decode_int (t : ty) (v : val) (node : ynode) : outcome (bool * val) := y_decode (yvt_int t) v node.
End WithExternals.
