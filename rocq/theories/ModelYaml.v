(** Model of encode() and decode(): common/*.hpp, ssz/ssz_container.cpp:127-136.

    yaml-cpp and helpers/bytes_to_string.hpp are not in the repository. A node is
    a tree; the conversions of scalars and the printing of bytes are parameters. *)
From Coq Require Import ZArith String List Bool.
From Verif Require Import Base SpecSSZ ModelSSZ ModelBytes.
Import ListNotations.
Open Scope Z_scope.

(** YAML::Node. Map keys are the strings used in node[name]. *)
Inductive ynode : Type :=
| YScalar (s : list Z)
| YSeq (l : list ynode)
| YMap (l : list (string * ynode)).

Record externals : Type := {
  num_text : Z -> list Z;                 (* YAML::convert<std::uint64_t>::encode *)
  text_num : list Z -> option Z;          (* ... ::decode of a scalar *)
  bool_text : bool -> list Z;             (* YAML::convert<bool>::encode *)
  text_bool : list Z -> option bool;      (* ... ::decode of a scalar *)
  bytes_to_string : list Z -> list Z      (* helpers::bytes_to_string *)
}.

(** [node[name] = x] *)
Fixpoint ymap_set (l : list (string * ynode)) (name : string) (x : ynode) : list (string * ynode) :=
  match l with
  | [] => [(name, x)]
  | (k, y) :: r => if String.eqb k name then (k, x) :: r else (k, y) :: ymap_set r name x
  end.
(** [node[name]] on a const Node, then used: yaml-cpp throws when the key is
    missing or the node is not a map. *)
Fixpoint ymap_get (l : list (string * ynode)) (name : string) : outcome ynode :=
  match l with
  | [] => Throw
  | (k, y) :: r => if String.eqb k name then Ok y else ymap_get r name
  end.
Definition yget (n : ynode) (name : string) : outcome ynode :=
  match n with YMap l => ymap_get l name | _ => Throw end.

(** The virtual methods, ssz/ssz_container.hpp:59-60. decode gets the object's
    current value and returns the new one. *)
Record ytable : Type := {
  y_default : val;
  y_encode : val -> ynode;
  y_decode : val -> ynode -> outcome (bool * val)
}.

Section WithExternals.
Variable e : externals.

(** convert<std::string>::decode fails on anything but a scalar *)
Definition scalar_decode (v : val) (n : ynode) (f : list Z -> outcome (bool * val)) : outcome (bool * val) :=
  match n with YScalar s => f s | _ => Ok (false, v) end.

(** common/bytes.hpp:152-155 and 156-161, from_string is line 102 *)
Definition bytes_encode (v : val) : ynode :=
  match v with VBytes l => YScalar (bytes_to_string e l) | _ => YScalar [] end.
Definition bytes_decode (n : Z) (v : val) (node : ynode) : outcome (bool * val) :=
  scalar_decode v node (fun s =>
    let* l := bytes_from_str (Z.to_nat n) s in Ok (true, VBytes l)).

(** common/slot.hpp:66-67 *)
Definition slot_encode (v : val) : ynode := match v with VNum x => YScalar (num_text e x) | _ => YScalar [] end.
Definition slot_decode (v : val) (node : ynode) : outcome (bool * val) :=
  scalar_decode v node (fun s =>
    match text_num e s with Some x => Ok (true, VNum x) | None => Ok (false, v) end).

(** common/boolean.hpp:55-56 *)
Definition boolean_encode (v : val) : ynode := match v with VBool x => YScalar (bool_text e x) | _ => YScalar [] end.
Definition boolean_decode (v : val) (node : ynode) : outcome (bool * val) :=
  scalar_decode v node (fun s =>
    match text_bool e s with Some x => Ok (true, VBool x) | None => Ok (false, v) end).

(** common/bitlist.cpp:90-99 *)
Definition bitlist_encode (v : val) : ynode := YScalar (bitlist_to_string v).
Definition bitlist_decode (v : val) (node : ynode) : outcome (bool * val) :=
  scalar_decode v node (fun s => let* v' := bitlist_from_hexstring v s in Ok (true, v')).

(** common/bitvector.hpp:93-102 *)
Definition bitvector_encode (n : Z) (v : val) : ynode := YScalar (bitvector_to_string n v).
Definition bitvector_decode (n : Z) (v : val) (node : ynode) : outcome (bool * val) :=
  scalar_decode v node (fun s => let* v' := bitvector_from_hexstring n v s in Ok (true, v')).

(** YAML::convert<std::vector<T>> and <std::array<T, N>>::encode: a sequence of
    encoded elements. *)
Definition seq_encode (p : ytable) (v : val) : ynode :=
  match v with VSeq l => YSeq (map (y_encode p) l) | _ => YSeq [] end.
(** Node::as<T>: decode into a default-constructed T; exception if it fails. *)
Definition as_T (p : ytable) (node : ynode) : outcome val :=
  let* (ok, v) := y_decode p (y_default p) node in if ok then Ok v else Throw.
(** convert<std::vector<T>>::decode (common/containers.hpp:157,232) *)
Definition vec_decode (p : ytable) (v : val) (node : ynode) : outcome (bool * val) :=
  match node with
  | YSeq l => let* vs := mapM (as_T p) l in Ok (true, VSeq vs)
  | _ => Ok (false, v)
  end.
(** convert<std::array<T, N>>::decode (common/containers.hpp:93): also checks the
    length *)
Definition array_decode (p : ytable) (n : Z) (v : val) (node : ynode) : outcome (bool * val) :=
  match node with
  | YSeq l =>
      if negb (zlen l =? n) then Ok (false, v)
      else let* vs := mapM (as_T p) l in Ok (true, VSeq vs)
  | _ => Ok (false, v)
  end.

(** Container::encode_, ssz/ssz_container.cpp:132-136 *)
Definition encode_ (parts : list (string * ynode)) : ynode :=
  YMap (fold_left (fun node (p : string * ynode) => ymap_set node (fst p) (snd p)) parts []).
(** Container::decode_, ssz/ssz_container.cpp:127-130: std::all_of stops at the
    first part that fails; the parts are members of the object. *)
Fixpoint decode_ (ps : list ytable) (node : ynode) (parts : list (string * nat)) (obj : list val)
  : outcome (bool * list val) :=
  match parts with
  | [] => Ok (true, obj)
  | (name, i) :: r =>
      let* n := yget node name in
      let p := nth i ps {| y_default := VNum 0; y_encode := fun _ => YSeq [];
                           y_decode := fun _ _ => UB |} in
      let* (ok, v') := y_decode p (nth i obj (VNum 0)) n in
      if ok then decode_ ps node r (upd obj i v') else Ok (false, upd obj i v')
  end.

Fixpoint yvt (t : ty) : ytable :=
  let d := vt_default (vt t) in
  match t with
  | TBytes n => {| y_default := d; y_encode := bytes_encode; y_decode := bytes_decode n |}
  | TSlot => {| y_default := d; y_encode := slot_encode; y_decode := slot_decode |}
  | TBoolean => {| y_default := d; y_encode := boolean_encode; y_decode := boolean_decode |}
  | TBitvector n => {| y_default := d; y_encode := bitvector_encode n; y_decode := bitvector_decode n |}
  | TBitlist _ => {| y_default := d; y_encode := bitlist_encode; y_decode := bitlist_decode |}
  | TVector t' n => {| y_default := d; y_encode := seq_encode (yvt t'); y_decode := array_decode (yvt t') n |}
  | TListF t' _ | TListV t' _ =>
      {| y_default := d; y_encode := seq_encode (yvt t'); y_decode := vec_decode (yvt t') |}
  | TClass ci fs =>
      let ps := map yvt fs in
      {| y_default := d;
         y_encode := fun v => match v with
           | VSeq l => encode_ (map (fun p : string * nat =>
               (fst p, match nth_error ps (snd p) with
                       | Some q => y_encode q (nth (snd p) l (VNum 0))
                       | None => YSeq []
                       end)) (ci_enc ci))
           | _ => YMap []
           end;
         y_decode := fun v node => match v with
           | VSeq l => let* (ok, l') := decode_ ps node (ci_dec ci) l in Ok (ok, VSeq l')
           | _ => UB
           end |}
  end.

Definition encode (t : ty) (v : val) : ynode := y_encode (yvt t) v.
Definition decode (t : ty) (v : val) (node : ynode) : outcome (bool * val) := y_decode (yvt t) v node.
End WithExternals.
