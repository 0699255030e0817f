(** Model of the hash_tree() overrides: ssz/ssz_container.cpp:108-125,
    common/containers.hpp, common/bitlist.cpp:35-43, common/slot.hpp:48-53. *)
From Coq Require Import ZArith String List Bool.
From Verif Require Import Base SpecSSZ ModelMath ModelHashTree ModelSSZ.
Import ListNotations.
Open Scope Z_scope.

Section WithHash.
(** hash_64b_blocks *)
Variable HB : list chunk -> list chunk.

(** common/slot.hpp:48-53 *)
Definition slot_hash_tree (v : val) : outcome (list chunk) :=
  match v with
  | VNum n => Ok [le_bytes 8 n ++ repeat 0 24]
  | _ => UB
  end.

(** concept BasicObject, common/containers.hpp:37-38: unsigned integers (never
    used as T) or Slot. *)
Definition basic_object (t : ty) : bool :=
  match t with TSlot => true | _ => false end.

(** common/bitlist.cpp:35-43 *)
Definition bitlist_hash_tree (limit : Z) (v : val) : outcome (list chunk) :=
  match v with
  | VBits l =>
      let ret := pack_bits l 0 (repeat 0 (Nat.div (length l + 7) 8)) in
      let* ht := HashTree_bytes HB ret (u64 (limit + 8 * 32 - 1) / (8 * 32)) in
      mix_in HB ht (zlen l)
  | _ => UB
  end.

(** hash_tree_root(), ssz/ssz_container.hpp:57 *)
Definition root_of (tree : outcome (list chunk)) : outcome chunk :=
  let* t := tree in back t.

(** common/containers.hpp:110-121 and 174-186 *)
Definition list_hash_tree (limit : Z) (roots : list chunk) : outcome (list chunk) :=
  let chunks := match roots with [] => [zero_hash] | _ => roots end in
  let* ht := HashTree HB chunks limit in
  mix_in HB ht (zlen roots).

Fixpoint hash_tree (t : ty) (v : val) {struct t} : outcome (list chunk) :=
  match t with
  | TSlot => slot_hash_tree v
  | TBytes _ | TBoolean | TBitvector _ =>
      (* ssz/ssz_container.cpp:108-111 *)
      HashTree_bytes HB (serialize t v) 0
  | TBitlist limit => bitlist_hash_tree limit v
  | TVector t' n =>
      match v with
      | VSeq l =>
          if basic_object t'
          then HashTree_bytes HB (serialize t v) 0              (* containers.hpp:46 *)
          else                                                (* containers.hpp:48-57 *)
            let* chunks := mapM (fun e => root_of (hash_tree t' e)) l in
            if n =? 1 then Ok chunks else HashTree HB chunks 0
      | _ => UB
      end
  | TListF t' limit =>
      match v with
      | VSeq l =>
          if basic_object t'
          then                                                (* containers.hpp:103-109 *)
            let lim := u64 (u64 (limit * get_ssz_size t') + 32 - 1) / 32 in
            let* ht := HashTree_bytes HB (serialize t v) lim in
            mix_in HB ht (zlen l)
          else                                                (* containers.hpp:110-121 *)
            let* chunks := mapM (fun e => root_of (hash_tree t' e)) l in
            list_hash_tree limit chunks
      | _ => UB
      end
  | TListV t' limit =>
      match v with
      | VSeq l =>                                             (* containers.hpp:174-186 *)
          let* chunks := mapM (fun e => root_of (hash_tree t' e)) l in
          list_hash_tree limit chunks
      | _ => UB
      end
  | TClass ci fields =>
      match v with
      | VSeq obj =>
          (* ssz/ssz_container.cpp:113-125 *)
          let hs := map hash_tree fields in
          match ci_hash ci with
          | [] => Ok []
          | idx =>
              let* chunks :=
                mapM (fun k => root_of (nth k hs (fun _ => UB) (nth k obj (VSeq [])))) idx in
              HashTree HB chunks 0
          end
      | _ => UB
      end
  end.

(** hash_tree_root() of an object. *)
Definition hash_tree_root (t : ty) (v : val) : outcome chunk := root_of (hash_tree t v).

End WithHash.
