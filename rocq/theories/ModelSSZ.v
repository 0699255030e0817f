(** Model of the SSZ classes of /repo: common/bytes.hpp, common/slot.hpp,
    common/boolean.hpp, common/bitvector.hpp, common/bitlist.cpp,
    common/containers.hpp and ssz/ssz_container.cpp (codec part).

    Every C++ class derived from ssz::Container is a value of [ty]; every object
    is a value of [val] (SpecSSZ). A [vtable] holds the virtual methods of a
    class, and the static functions of Container work on lists of parts exactly
    as in the C++. *)
From Coq Require Import ZArith String List.
From Verif Require Import Base SpecSSZ.
Import ListNotations.
Open Scope Z_scope.

(** ssz/ssz.hpp:27-29 *)
Definition BYTES_PER_LENGTH_OFFSET : Z := 4.
Definition BITS_PER_BYTE : Z := 8.

(** Arithmetic of std::uint32_t (used for offsets). *)
Definition u32 (x : Z) : Z := x mod 2 ^ 32.

(** What a struct derived from Container declares: its [ssz_size] (0 when the
    class does not override get_ssz_size), whether it has a defaulted operator==
    (otherwise it inherits the one of ssz/ssz_container.hpp:61), and the part lists
    it passes to serialize_, deserialize_, hash_tree_, encode_ and decode_, as
    indices of its data members in declaration order. *)
Record class_info : Type := {
  ci_eq : bool;
  ci_size : Z;
  ci_ser : list nat;
  ci_des : list nat;
  ci_hash : list nat;
  ci_enc : list (string * nat);
  ci_dec : list (string * nat)
}.

(** The classes. [TSlot] stands for eth::Slot and all its aliases
    (common/slot.hpp:70-76). Limits are those given at construction. *)
Inductive ty : Type :=
| TBytes (n : Z)                       (* Bytes<N>, common/bytes.hpp:39-162 *)
| TSlot                                (* Slot, common/slot.hpp:32-68 *)
| TBoolean                             (* Boolean, common/boolean.hpp:32-57 *)
| TBitvector (n : Z)                   (* Bitvector<N>, common/bitvector.hpp:35-103 *)
| TBitlist (limit : Z)                 (* Bitlist, common/bitlist.hpp:30-55 *)
| TVector (t : ty) (n : Z)             (* VectorFixedSizedParts<T,N>, common/containers.hpp:40-94 *)
| TListF (t : ty) (limit : Z)          (* ListFixedSizedParts<T>, common/containers.hpp:96-158 *)
| TListV (t : ty) (limit : Z)          (* ListVariableSizedParts<T>, common/containers.hpp:160-233 *)
| TClass (ci : class_info) (fields : list ty).

(** The virtual methods used by the codec (ssz/ssz_container.hpp:53-55), and the
    value of a default-constructed object ([T obj;]). *)
Record vtable : Type := {
  vt_size : Z;
  vt_default : val;
  vt_ser : val -> list Z;
  vt_des : val -> list Z -> outcome (bool * val)
}.

(** ** Leaf classes *)

(** common/bytes.hpp:78-81 *)
Definition bytes_serialize (v : val) : list Z :=
  match v with VBytes l => l | _ => [] end.
(** common/bytes.hpp:83-87; distance(it,end) != N, then copy. *)
Definition bytes_deserialize (n : Z) (v : val) (b : list Z) : outcome (bool * val) :=
  if negb (zlen b =? n) then Ok (false, v) else Ok (true, VBytes b).

(** common/slot.hpp:55 with Bytes8(value_) of common/bytes.hpp:45-53. *)
Definition slot_serialize (v : val) : list Z :=
  match v with VNum n => le_bytes 8 n | _ => [] end.
(** common/slot.hpp:56-60; the load is helpers/bytes_to_int.hpp:61-65. *)
Definition slot_deserialize (v : val) (b : list Z) : outcome (bool * val) :=
  if negb (zlen b =? 8) then Ok (false, v)
  else let* s := slice b 0 8 in Ok (true, VNum (le_val s)).

(** common/boolean.hpp:41 *)
Definition boolean_serialize (v : val) : list Z :=
  match v with VBool x => [b2z x] | _ => [] end.
(** common/boolean.hpp:42-48 *)
Definition boolean_deserialize (v : val) (b : list Z) : outcome (bool * val) :=
  if negb (zlen b =? 1) then Ok (false, v)
  else let* s := slice b 0 1 in
       if le_val s >? 1 then Ok (false, v) else Ok (true, VBool (negb (le_val s =? 0))).

(** The loop [for (int i = 0; i < size; ++i) ret[i / 8] |= m_arr[i] << (i % 8)]
    of common/bitvector.hpp:80 and common/bitlist.cpp:38,47-48. The C++ counter is
    an int, see ModelInt for what happens from 2^31 bits on. *)
Fixpoint pack_bits (l : list bool) (i : nat) (ret : list Z) : list Z :=
  match l with
  | [] => ret
  | b :: r =>
      let k := Nat.div i 8 in
      pack_bits r (S i)
        (upd ret k (Z.lor (nth k ret 0) (Z.shiftl (b2z b) (Z.of_nat (Nat.modulo i 8)))))
  end.

(** common/bitvector.hpp:78-82 *)
Definition bitvector_serialize (n : Z) (v : val) : list Z :=
  match v with
  | VBits l => pack_bits l 0 (repeat 0 (Z.to_nat ((n + BITS_PER_BYTE - 1) / BITS_PER_BYTE)))
  | _ => []
  end.

(** Inner and outer loops of common/bitvector.hpp:85-88: byte number [k] of the
    input gives bits 8k..8k+7 as long as the index is below N. [*i & (1 << j)] is
    converted to bool. *)
Fixpoint bv_inner (n : Z) (byte : Z) (k : Z) (js : list Z) (arr : list bool) : list bool :=
  match js with
  | [] => arr
  | j :: js' =>
      if 8 * k + j <? n
      then bv_inner n byte k js'
             (upd arr (Z.to_nat (8 * k + j)) (negb (Z.land byte (Z.shiftl 1 j) =? 0)))
      else arr
  end.
Fixpoint bv_outer (n : Z) (b : list Z) (k : Z) (arr : list bool) : list bool :=
  match b with
  | [] => arr
  | x :: r => bv_outer n r (k + 1) (bv_inner n x k [0;1;2;3;4;5;6;7] arr)
  end.
(** common/bitvector.hpp:83-90 *)
Definition bitvector_deserialize (n : Z) (v : val) (b : list Z) : outcome (bool * val) :=
  if negb (zlen b =? (n + BITS_PER_BYTE - 1) / BITS_PER_BYTE) then Ok (false, v)
  else match v with
       | VBits arr => Ok (true, VBits (bv_outer n b 0 arr))
       | _ => UB
       end.

(** common/bitlist.cpp:45-51 *)
Definition bitlist_serialize (v : val) : list Z :=
  match v with
  | VBits l =>
      let size := length l in
      let ret := pack_bits l 0 (repeat 0 (Nat.div size 8 + 1)) in
      let k := (length ret - 1)%nat in
      upd ret k (Z.lor (nth k ret 0) (Z.shiftl 1 (Z.of_nat (Nat.modulo size 8))))
  | _ => []
  end.

(** std::countl_zero on std::uint8_t *)
Definition countl_zero8 (x : Z) : Z := if x =? 0 then 8 else 7 - Z.log2 x.

(** [m_arr.push_back((x >> j) & 1)] for the given j's, common/bitlist.cpp:59,61 *)
Definition push_bits (x : Z) (js : list Z) : list bool :=
  map (fun j => negb (Z.land (Z.shiftr x j) 1 =? 0)) js.
Definition upto (n : Z) : list Z := map Z.of_nat (seq 0 (Z.to_nat n)).

(** common/bitlist.cpp:52-63. [--last] on an empty range, and the loop that then
    never meets [last], are UB. The count [BITS_PER_BYTE - 1 - msb] is computed in
    unsigned int, so a zero last byte (msb = 8) gives 2^32-1 iterations, the 33rd
    of which shifts by 32: UB. The limit is not looked at. *)
Definition bitlist_deserialize (v : val) (b : list Z) : outcome (bool * val) :=
  if zlen b =? 0 then UB
  else
    let last := List.last b 0 in
    let msb := countl_zero8 last in
    let body := concat (map (fun x => push_bits x (upto BITS_PER_BYTE)) (removelast b)) in
    let count := u32 (BITS_PER_BYTE - 1 - msb) in
    if count >? 32 then UB
    else Ok (true, VBits (body ++ push_bits last (upto count))).

(** ** Sequences *)

(** common/containers.hpp:75-82 and 136-143: concatenation of the parts. *)
Definition concat_serialize (p : vtable) (v : val) : list Z :=
  match v with VSeq l => concat (map (vt_ser p) l) | _ => [] end.

(** common/containers.hpp:87-88 *)
Fixpoint vector_des_loop (p : vtable) (b : list Z) (i : Z) (arr : list val)
  : outcome (bool * list val) :=
  match arr with
  | [] => Ok (true, [])
  | v :: r =>
      let* s := slice b (i * vt_size p) ((i + 1) * vt_size p) in
      let* (ok, v') := vt_des p v s in
      if ok
      then let* (ok', r') := vector_des_loop p b (i + 1) r in Ok (ok', v' :: r')
      else Ok (false, v' :: r)
  end.
(** common/containers.hpp:84-90 *)
Definition vector_deserialize (p : vtable) (n : Z) (v : val) (b : list Z)
  : outcome (bool * val) :=
  if negb (zlen b =? n * vt_size p) then Ok (false, v)
  else match v with
       | VSeq arr => let* (ok, arr') := vector_des_loop p b 0 arr in Ok (ok, VSeq arr')
       | _ => UB
       end.

(** common/containers.hpp:149-153. The C++ loop ends when the iterator reaches
    [end]; [fuel] only makes the definition total and running out of it is UB. *)
Fixpoint listf_des_loop (fuel : nat) (p : vtable) (b : list Z) (i : Z) (arr : list val)
  : outcome (bool * list val) :=
  if i =? zlen b then Ok (true, arr)
  else match fuel with
       | O => UB
       | S f =>
           let* s := slice b i (i + vt_size p) in
           let* (ok, v) := vt_des p (vt_default p) s in
           if ok then listf_des_loop f p b (i + vt_size p) (arr ++ [v])
           else Ok (false, arr)
       end.
(** common/containers.hpp:145-155; [% 0] would be UB. The limit is not looked at. *)
Definition listf_deserialize (p : vtable) (v : val) (b : list Z) : outcome (bool * val) :=
  if vt_size p =? 0 then UB
  else if negb (zlen b mod vt_size p =? 0) then Ok (false, VSeq [])
  else let* (ok, arr) := listf_des_loop (length b) p b 0 [] in Ok (ok, VSeq arr).

(** common/containers.hpp:190-197: offsets and parts, [offset] is a uint32_t. *)
Fixpoint listv_ser_loop (p : vtable) (l : list val) (offset : Z) (offsets ret : list Z)
  : list Z :=
  match l with
  | [] => offsets ++ ret
  | v :: r =>
      let s := vt_ser p v in
      listv_ser_loop p r (u32 (offset + zlen s)) (offsets ++ le_bytes 4 offset) (ret ++ s)
  end.
(** common/containers.hpp:187-200 *)
Definition listv_serialize (p : vtable) (v : val) : list Z :=
  match v with
  | VSeq l => listv_ser_loop p l (u32 (zlen l * BYTES_PER_LENGTH_OFFSET)) [] []
  | _ => []
  end.

(** common/containers.hpp:213-228; [fuel] as above. *)
Fixpoint listv_des_loop (fuel : nat) (p : vtable) (b : list Z) (first_offset : Z)
         (it last_offset : Z) (arr : list val) : outcome (bool * list val) :=
  if it =? first_offset then
    (* lines 225-228 *)
    let* s := slice b last_offset (zlen b) in
    let* (ok, v) := vt_des p (vt_default p) s in
    if ok then Ok (true, arr ++ [v]) else Ok (false, arr)
  else match fuel with
       | O => UB
       | S f =>
           if it + BYTES_PER_LENGTH_OFFSET >? first_offset then Ok (false, arr)
           else
             let* s := slice b it (it + 4) in
             let current_offset := le_val s in
             if current_offset <? last_offset then Ok (false, arr)
             else if zlen b <? current_offset then Ok (false, arr)
             else
               let* s' := slice b last_offset current_offset in
               let* (ok, v) := vt_des p (vt_default p) s' in
               if ok
               then listv_des_loop f p b first_offset (it + BYTES_PER_LENGTH_OFFSET)
                                   current_offset (arr ++ [v])
               else Ok (false, arr)
       end.
(** common/containers.hpp:201-229. The limit is not looked at. *)
Definition listv_deserialize (p : vtable) (v : val) (b : list Z) : outcome (bool * val) :=
  if zlen b =? 0 then Ok (true, VSeq [])
  else if zlen b <? BYTES_PER_LENGTH_OFFSET then Ok (false, VSeq [])
  else
    let* s := slice b 0 4 in
    let first_offset := le_val s in
    if first_offset <? BYTES_PER_LENGTH_OFFSET then Ok (false, VSeq [])
    else if zlen b <? first_offset then Ok (false, VSeq [])
    else
      let* (ok, arr) := listv_des_loop (length b) p b first_offset
                           BYTES_PER_LENGTH_OFFSET first_offset [] in
      Ok (ok, VSeq arr).

(** ** Container (ssz/ssz_container.cpp) *)

(** ssz/ssz_container.cpp:33-45 *)
Definition compute_fixed_length (parts : list vtable) : Z :=
  fold_left (fun ret p =>
    if vt_size p =? 0 then u32 (ret + BYTES_PER_LENGTH_OFFSET)
    else u32 (ret + u32 (vt_size p))) parts 0.

(** ssz/ssz_container.cpp:57-70 *)
Fixpoint serialize_loop (parts : list (vtable * val)) (fixed_length : Z)
         (ret variable_part : list Z) : list Z :=
  match parts with
  | [] => ret ++ variable_part
  | (p, v) :: r =>
      let s := vt_ser p v in
      if vt_size p =? 0
      then serialize_loop r (u32 (fixed_length + u32 (zlen s)))
             (ret ++ le_bytes 4 fixed_length) (variable_part ++ s)
      else serialize_loop r fixed_length (ret ++ s) variable_part
  end.
(** ssz/ssz_container.cpp:48-71 *)
Definition serialize_ (parts : list (vtable * val)) : list Z :=
  match parts with
  | [] => []
  | _ => serialize_loop parts (compute_fixed_length (map fst parts)) [] []
  end.

(** [part->deserialize(begin + i, begin + j)] for the part stored at index [k] of
    the object. *)
Definition call_des (p : vtable) (k : nat) (obj : list val) (b : list Z) (i j : Z)
  : outcome (bool * list val) :=
  let* s := slice b i j in
  let* (ok, v) := vt_des p (nth k obj (vt_default p)) s in
  Ok (ok, upd obj k v).

(** ssz/ssz_container.cpp:80-105: the loop over the parts and the final call.
    [last] is last_variable_part (None = nullptr). *)
Fixpoint deserialize_loop (b : list Z) (fixed_length : Z) (parts : list (nat * vtable))
         (it last_offset : Z) (last : option (nat * vtable)) (obj : list val)
  : outcome (bool * list val) :=
  match parts with
  | [] =>
      if last_offset =? 0 then Ok (true, obj)
      else match last with
           | None => UB
           | Some (k, p) => call_des p k obj b last_offset (zlen b)
           end
  | (k, p) :: r =>
      if negb (vt_size p =? 0) then
        if zlen b - it <? vt_size p then Ok (false, obj)
        else
          let* (ok, obj') := call_des p k obj b it (it + vt_size p) in
          if ok
          then deserialize_loop b fixed_length r (it + vt_size p) last_offset last obj'
          else Ok (false, obj')
      else
        if zlen b - it <? BYTES_PER_LENGTH_OFFSET then Ok (false, obj)
        else
          let* s := slice b it (it + 4) in
          let current_offset := le_val s in
          if zlen b <? current_offset then Ok (false, obj)
          else if negb (last_offset =? 0) then
            if current_offset <? last_offset then Ok (false, obj)
            else match last with
                 | None => UB
                 | Some (k', p') =>
                     let* (ok, obj') := call_des p' k' obj b last_offset current_offset in
                     if ok
                     then deserialize_loop b fixed_length r (it + BYTES_PER_LENGTH_OFFSET)
                            current_offset (Some (k, p)) obj'
                     else Ok (false, obj')
                 end
          else if negb (current_offset =? fixed_length) then Ok (false, obj)
          else deserialize_loop b fixed_length r (it + BYTES_PER_LENGTH_OFFSET)
                 current_offset (Some (k, p)) obj
  end.
(** ssz/ssz_container.cpp:73-106 *)
Definition deserialize_ (b : list Z) (parts : list (nat * vtable)) (obj : list val)
  : outcome (bool * list val) :=
  deserialize_loop b (compute_fixed_length (map snd parts)) parts 0 0 None obj.

(** Resolution of the addresses [&field] of a part list. *)
Definition null_vtable : vtable :=
  {| vt_size := 0; vt_default := VSeq []; vt_ser := fun _ => []; vt_des := fun _ _ => UB |}.
Definition pick_ser (vts : list vtable) (obj : list val) (idx : list nat) : list (vtable * val) :=
  map (fun k => (nth k vts null_vtable, nth k obj (VSeq []))) idx.
Definition pick_des (vts : list vtable) (idx : list nat) : list (nat * vtable) :=
  map (fun k => (k, nth k vts null_vtable)) idx.

(** serialize()/deserialize() overrides of the structs: they pass their part list
    to serialize_/deserialize_ (e.g. common/containers.hpp:246-250). *)
Definition class_serialize (ci : class_info) (vts : list vtable) (v : val) : list Z :=
  match v with VSeq obj => serialize_ (pick_ser vts obj (ci_ser ci)) | _ => [] end.
Definition class_deserialize (ci : class_info) (vts : list vtable) (v : val) (b : list Z)
  : outcome (bool * val) :=
  match v with
  | VSeq obj =>
      let* (ok, obj') := deserialize_ b (pick_des vts (ci_des ci)) obj in Ok (ok, VSeq obj')
  | _ => UB
  end.

(** ** The methods of every class *)
Fixpoint vt (t : ty) : vtable :=
  match t with
  | TBytes n =>
      {| vt_size := n;                                   (* bytes.hpp:140-142 *)
         vt_default := VBytes (repeat 0 (Z.to_nat n));   (* bytes.hpp:70 *)
         vt_ser := bytes_serialize; vt_des := bytes_deserialize n |}
  | TSlot =>
      {| vt_size := 8;                                   (* slot.hpp:63-64 *)
         vt_default := VNum 0;                           (* slot.hpp:37 *)
         vt_ser := slot_serialize; vt_des := slot_deserialize |}
  | TBoolean =>
      {| vt_size := 1;                                   (* boolean.hpp:52-53 *)
         vt_default := VBool false;                      (* boolean.hpp:37 *)
         vt_ser := boolean_serialize; vt_des := boolean_deserialize |}
  | TBitvector n =>
      {| vt_size := (n + BITS_PER_BYTE - 1) / BITS_PER_BYTE;  (* bitvector.hpp:41-42 *)
         vt_default := VBits (repeat false (Z.to_nat n));     (* indeterminate in C++, bitvector.hpp:44 *)
         vt_ser := bitvector_serialize n; vt_des := bitvector_deserialize n |}
  | TBitlist _ =>
      {| vt_size := 0;                                   (* ssz_container.hpp:53 *)
         vt_default := VBits [];                         (* bitlist.hpp:44 *)
         vt_ser := bitlist_serialize; vt_des := bitlist_deserialize |}
  | TVector t' n =>
      let p := vt t' in
      {| vt_size := n * vt_size p;                       (* containers.hpp:62-63 *)
         vt_default := VSeq (repeat (vt_default p) (Z.to_nat n));
         vt_ser := concat_serialize p; vt_des := vector_deserialize p n |}
  | TListF t' _ =>
      let p := vt t' in
      {| vt_size := 0;                                   (* ssz_container.hpp:53 *)
         vt_default := VSeq [];                          (* containers.hpp:125 *)
         vt_ser := concat_serialize p; vt_des := listf_deserialize p |}
  | TListV t' _ =>
      let p := vt t' in
      {| vt_size := 0;                                   (* ssz_container.hpp:53 *)
         vt_default := VSeq [];                          (* containers.hpp:167 *)
         vt_ser := listv_serialize p; vt_des := listv_deserialize p |}
  | TClass ci fields =>
      let vts := map vt fields in
      {| vt_size := ci_size ci;
         vt_default := VSeq (map vt_default vts);
         vt_ser := class_serialize ci vts; vt_des := class_deserialize ci vts |}
  end.

(** The public methods. *)
Definition get_ssz_size (t : ty) : Z := vt_size (vt t).
Definition serialize (t : ty) (v : val) : list Z := vt_ser (vt t) v.
Definition deserialize (t : ty) (old : val) (b : list Z) : outcome (bool * val) :=
  vt_des (vt t) old b.
