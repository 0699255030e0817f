(** What byte strings are accepted, and as which value, described on the wire
    format: an independent specification of the *acceptance* of deserialize.
    It is looser than SSZ on purpose, in exactly these ways: limits are not
    looked at, the unused bits of a bitvector are not looked at, and a fixed-size
    container does not look at what follows its fixed part. *)
From Coq Require Import ZArith String List Sorting.Sorted.
From Verif Require Import Base SpecSSZ.
Import ListNotations.
Open Scope Z_scope.

(** Size of the encoding of a fixed-size type; 0 for a variable-size type. *)
Fixpoint sty_size (s : sty) : Z :=
  match s with
  | SUint64 => 8
  | SBoolean => 1
  | SByteVector n => n
  | SBitvector n => (n + 7) / 8
  | SBitlist _ | SList _ _ => 0
  | SVector t n => n * sty_size t
  | SContainer fs =>
      if existsb (fun f => is_variable (snd f)) fs then 0
      else sumZ (map (fun f => sty_size (snd f)) fs)
  end.

(** Sequences are described by the sizes of their elements, 0 standing for a
    variable-size element, which occupies a 4-byte offset in the fixed part. *)
Definition fixed_room (sizes : list Z) : Z :=
  sumZ (map (fun s => if s =? 0 then 4 else s) sizes).

Definition bytes_at (b : list Z) (i j : Z) : list Z :=
  firstn (Z.to_nat (j - i)) (skipn (Z.to_nat i) b).
Definition u32_at (b : list Z) (i : Z) : Z := le_val (bytes_at b i (i + 4)).

(** The offsets stored in the fixed part, which starts at [pos]. *)
Fixpoint offsets (sizes : list Z) (b : list Z) (pos : Z) : list Z :=
  match sizes with
  | [] => []
  | s :: r => if s =? 0 then u32_at b pos :: offsets r b (pos + 4)
              else offsets r b (pos + s)
  end.
(** The byte range of each element: a variable-size element ends where the next
    one starts, the last one at the end of the input. *)
Fixpoint part_ranges (sizes : list Z) (b : list Z) (pos : Z) : list (Z * Z) :=
  match sizes with
  | [] => []
  | s :: r =>
      if s =? 0
      then (u32_at b pos, hd (zlen b) (offsets r b (pos + 4))) :: part_ranges r b (pos + 4)
      else (pos, pos + s) :: part_ranges r b (pos + s)
  end.
Definition parts (sizes : list Z) (b : list Z) : list (list Z) :=
  map (fun r : Z * Z => bytes_at b (fst r) (snd r)) (part_ranges sizes b 0).

(** The fixed part is there, the first offset points just behind it, the offsets
    are non-decreasing and none is beyond the end. *)
Definition layout_ok (sizes : list Z) (b : list Z) : Prop :=
  fixed_room sizes <= zlen b /\
  hd (fixed_room sizes) (offsets sizes b 0) = fixed_room sizes /\
  Sorted Z.le (offsets sizes b 0) /\
  Forall (fun o => o <= zlen b) (offsets sizes b 0).

Fixpoint accepts (s : sty) (b : list Z) (v : val) {struct s} : Prop :=
  match s, v with
  | SUint64, VNum n => zlen b = 8 /\ n = le_val b
  | SBoolean, VBool x => b = [b2z x]
  | SByteVector n, VBytes l => zlen b = n /\ l = b
  | SBitvector n, VBits l =>
      zlen b = (n + 7) / 8 /\ zlen l = n /\ bits_val l = le_val b mod 2 ^ n
  | SBitlist _, VBits l => b = le_bytes (Z.to_nat (zlen l / 8 + 1)) (bits_val (l ++ [true]))
  | SVector t n, VSeq l =>
      zlen l = n /\ zlen b = n * sty_size t /\
      Forall2 (accepts t) (parts (repeat (sty_size t) (length l)) b) l
  | SList t _, VSeq l =>
      if is_variable t
      then (b = [] /\ l = []) \/
           (l <> [] /\ layout_ok (repeat 0 (length l)) b /\
            Forall2 (accepts t) (parts (repeat 0 (length l)) b) l)
      else zlen b = zlen l * sty_size t /\
           Forall2 (accepts t) (parts (repeat (sty_size t) (length l)) b) l
  | SContainer fs, VSeq l =>
      let sizes := map (fun f => sty_size (snd f)) fs in
      layout_ok sizes b /\
      (fix go (fs : list (string * sty)) (bs : list (list Z)) (l : list val) : Prop :=
         match fs, bs, l with
         | [], [], [] => True
         | (_, t) :: fs', b' :: bs', v' :: l' => accepts t b' v' /\ go fs' bs' l'
         | _, _, _ => False
         end) fs (parts sizes b) l
  | _, _ => False
  end.
