(** The inputs on which deserialize executes undefined behaviour, described on the wire
    format. The only part that can do so is a bitlist, on a range without a delimiting
    bit; the description says which such ranges are reached. *)
From Coq Require Import ZArith String List Sorting.Sorted.
From Verif Require Import Base SpecSSZ SpecWire.
Import ListNotations.
Open Scope Z_scope.

Definition field : Type := (string * sty)%type.
(** The fields before the first variable-size one; the same with that one. *)
Fixpoint fixed_prefix (fs : list field) : list field :=
  match fs with
  | [] => []
  | f :: r => if is_variable (snd f) then [] else f :: fixed_prefix r
  end.
Fixpoint upto_variable (fs : list field) : list field :=
  match fs with
  | [] => []
  | f :: r => if is_variable (snd f) then [f] else f :: upto_variable r
  end.
Definition sizes_of (fs : list field) : list Z := map (fun f => sty_size (snd f)) fs.
Definition accepted (f : field) (b : list Z) : Prop := exists v, accepts (snd f) b v.

(** Where a variable-size field ends is known when the offset of the next one has been
    read. This is when it is decoded: the input holds the fixed part up to that offset,
    the offsets so far are in order, and the other fields so far are accepted. *)
Definition reached (before : list field) (f : field) (after : list field) (b : list Z) : Prop :=
  let seen := sizes_of (before ++ f :: upto_variable after) in
  let p := length before in
  let q := length (fixed_prefix after) in
  is_variable (snd f) = true /\
  fixed_room seen <= zlen b /\
  hd 0 (offsets seen b 0) = fixed_room (sizes_of (before ++ f :: after)) /\
  Sorted Z.le (offsets seen b 0) /\
  Forall (fun o => o <= zlen b) (offsets seen b 0) /\
  Forall2 accepted before (firstn p (parts seen b)) /\
  Forall2 accepted (fixed_prefix after) (firstn q (skipn (S p) (parts seen b))).
(** The range it is decoded from. *)
Definition range_of_field (before : list field) (f : field) (after : list field) (b : list Z) : list Z :=
  nth (length before) (parts (sizes_of (before ++ f :: upto_variable after)) b) [].

(** Element [k] of a list of variable-size elements is decoded when [n] offsets have
    been read: the one behind its own, or all of them. *)
Definition element_reached (t : sty) (n k : nat) (b : list Z) : Prop :=
  let seen := repeat 0 n in
  (n = S k /\ u32_at b 0 = 4 * Z.of_nat n \/ n = S (S k) /\ 4 * Z.of_nat n <= u32_at b 0) /\
  u32_at b 0 <= zlen b /\
  Sorted Z.le (offsets seen b 0) /\
  Forall (fun o => o <= zlen b) (offsets seen b 0) /\
  Forall (fun x => exists v, accepts t x v) (firstn k (parts seen b)).

Fixpoint undefined (s : sty) (b : list Z) {struct s} : Prop :=
  match s with
  | SBitlist _ => b = [] \/ last b 0 = 0
  | SList t _ =>
      is_variable t = true /\
      exists n k, element_reached t n k b /\ undefined t (nth k (parts (repeat 0 n) b) [])
  | SContainer fs =>
      (fix go (before fs : list field) : Prop :=
         match fs with
         | [] => False
         | f :: after =>
             (reached before f after b /\
              let (_, t) := f in undefined t (range_of_field before f after b)) \/
             go (before ++ [f]) after
         end) [] fs
  | _ => False
  end.
