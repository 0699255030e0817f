(** What exactly an object holds after a failed deserialization, on the wire format of
    SpecWire: the input has been read as far as possible. *)
From Coq Require Import ZArith String List Sorting.Sorted.
From Verif Require Import Base SpecSSZ SpecWire SpecUndef.
Import ListNotations.
Open Scope Z_scope.

Definition field_bytes (fs : list field) (b : list Z) (i : nat) : list Z := nth i (parts (sizes_of fs) b) [].
Fixpoint last_variable (fs : list field) : option nat :=
  match fs with
  | [] => None
  | f :: r => match last_variable r with
              | Some i => Some (S i)
              | None => if is_variable (snd f) then Some 0%nat else None
              end
  end.
(** The input holds the fixed part of the fields [seen], and their offsets are as they
    should be in a container whose fixed part takes [room] bytes. *)
Definition heads_ok (room : Z) (seen : list field) (b : list Z) : Prop :=
  fixed_room (sizes_of seen) <= zlen b /\
  hd room (offsets (sizes_of seen) b 0) = room /\
  Sorted Z.le (offsets (sizes_of seen) b 0) /\
  Forall (fun o => o <= zlen b) (offsets (sizes_of seen) b 0).
(** The end of every field in [seen] is known, except that of the last variable-size one. *)
Definition ended (seen : list field) (i : nat) : Prop :=
  (i < length seen)%nat /\ last_variable seen <> Some i.
Definition read_so_far (room : Z) (seen : list field) (b : list Z) : Prop :=
  heads_ok room seen b /\
  forall i f, nth_error seen i = Some f -> ended seen i -> accepted f (field_bytes seen b i).
(** When [seen] has been read, the next step is to decode field [i]: the next one if it has
    a fixed size, otherwise the variable-size one that ends where the next one begins or,
    when all fields have been seen, at the end. *)
Definition tried (room : Z) (seen rest : list field) (b : list Z) (i : nat) : Prop :=
  heads_ok room (seen ++ firstn 1 rest) b /\
  match rest with
  | f :: _ => if is_variable (snd f) then last_variable seen = Some i else i = length seen
  | [] => last_variable seen = Some i
  end.

(** The elements [l] at the beginning of a list can be read: those that precede them are
    accepted, and for variable-size elements the offset behind each is there and in order. *)
Definition elements_read (s : sty) (b : list Z) (l : list val) : Prop :=
  l = [] \/
  if is_variable s then
    4 * (zlen l + 1) <= u32_at b 0 <= zlen b /\
    Sorted Z.le (offsets (repeat 0 (S (length l))) b 0) /\
    Forall (fun o => o <= zlen b) (offsets (repeat 0 (S (length l))) b 0) /\
    Forall2 (accepts s) (firstn (length l) (parts (repeat 0 (S (length l))) b)) l
  else
    zlen b mod sty_size s = 0 /\ zlen l * sty_size s <= zlen b /\
    Forall2 (accepts s) (parts (repeat (sty_size s) (length l)) b) l.

Definition is_leaf_type (s : sty) : bool :=
  match s with SVector _ _ | SList _ _ | SContainer _ => false | _ => true end.

(** [leftover s b o v]: [o] before, [v] after [b] has been rejected.
    - Leaves are unchanged.
    - A list holds the longest beginning that can be read.
    - A vector is unchanged if the length of the input is wrong; otherwise its elements are
      read up to one that fails, and those behind it are old.
    - The fields of a container are seen one after the other as far as possible. Those
      whose end is known by then are read; the one that was tried last, if any, holds what
      the failure left; the others are old. *)
Inductive leftover : sty -> list Z -> val -> val -> Prop :=
| L_leaf s b o : is_leaf_type s = true -> leftover s b o o
| L_list s n b o l :
    elements_read s b l -> (forall l', elements_read s b l' -> (length l' <= length l)%nat) ->
    leftover (SList s n) b o (VSeq l)
| L_length s n b o : zlen b <> n * sty_size s -> leftover (SVector s n) b o o
| L_vector s n b o1 o o2 l v :
    let c := bytes_at b (zlen l * sty_size s) ((zlen l + 1) * sty_size s) in
    zlen b = n * sty_size s -> length l = length o1 ->
    Forall2 (accepts s) (parts (repeat (sty_size s) (length l)) b) l ->
    ~ (exists w, accepts s c w) -> leftover s c o v ->
    leftover (SVector s n) b (VSeq (o1 ++ o :: o2)) (VSeq (l ++ v :: o2))
| L_container seen rest b o l :
    let room := fixed_room (sizes_of (seen ++ rest)) in
    read_so_far room seen b ->
    (rest <> [] -> ~ read_so_far room (seen ++ firstn 1 rest) b) ->
    length l = length o ->
    (forall i f, nth_error (seen ++ rest) i = Some f ->
       let old := nth i o (VSeq []) in let new := nth i l (VSeq []) in
       (ended seen i /\ accepts (snd f) (field_bytes seen b i) new) \/
       (tried room seen rest b i /\ leftover (snd f) (field_bytes (seen ++ firstn 1 rest) b i) old new) \/
       (~ ended seen i /\ ~ tried room seen rest b i /\ new = old)) ->
    leftover (SContainer (seen ++ rest)) b (VSeq o) (VSeq l).
