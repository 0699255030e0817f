(** Sizes that loop counters of type [int] can handle. *)
From Coq Require Import ZArith String List Bool.
From Verif Require Import Base SpecSSZ ModelYaml.
Import ListNotations.
Open Scope Z_scope.

(** No sequence of bits in the value has 2^31 bits or more. *)
Fixpoint short_bits (v : val) : bool :=
  match v with
  | VBits l => zlen l <? 2 ^ 31
  | VSeq l => forallb short_bits l
  | _ => true
  end.

(** No text in the node has more than 2^30 characters behind its first two. *)
Fixpoint short_texts (n : ynode) : bool :=
  match n with
  | YScalar s => zlen s <=? 2 ^ 30 + 2
  | YSeq l => forallb short_texts l
  | YMap l => forallb (fun p => short_texts (snd p)) l
  end.

(** "0x" and an even number of characters *)
Definition hex_text (s : list Z) : bool :=
  match s with
  | a :: b :: _ => (a =? 48) && (b =? 120) && Z.even (zlen s)
  | _ => false
  end.
(** The text of 2^29 bytes with the bytes behind them in place of the first ones. *)
Definition wrapped (s : list Z) : list Z :=
  let digits := skipn 2 s in
  let first := firstn (Z.to_nat (2 ^ 30)) digits in
  let extra := skipn (Z.to_nat (2 ^ 30)) digits in
  firstn 2 s ++ extra ++ skipn (length extra) first.

(** The text that unbounded counters would have to read for the same result. Reading
    [broken] is undefined. *)
Definition broken : list Z := [48; 120; 128; 128].
Definition narrow_bitvector (s : list Z) : list Z :=
  if hex_text s && forallb (fun ch => (0 <=? ch) && (ch <? 128)) s
  then if zlen s <? 2 ^ 31 then wrapped s else broken
  else s.
Definition narrow_bitlist (s : list Z) : list Z :=
  if hex_text s && (2 ^ 31 <=? zlen s) then broken else s.
(** The same for the texts of all bit fields in the node of a value of type [t]. *)
Fixpoint narrow (t : sty) (n : ynode) {struct t} : ynode :=
  match t, n with
  | SBitvector _, YScalar s => YScalar (narrow_bitvector s)
  | SBitlist _, YScalar s => YScalar (narrow_bitlist s)
  | SVector t' _, YSeq l | SList t' _, YSeq l => YSeq (map (narrow t') l)
  | SContainer fs, YMap m =>
      YMap (map (fun p => (fst p,
        (fix go (fs : list (string * sty)) : ynode :=
           match fs with
           | [] => snd p
           | (name, t') :: fs' => if String.eqb (fst p) name then narrow t' (snd p) else go fs'
           end) fs)) m)
  | _, _ => n
  end.
