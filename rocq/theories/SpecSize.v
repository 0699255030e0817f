(** The least and the greatest number of bytes that a value of an SSZ type takes. *)
From Coq Require Import ZArith String List Bool.
From Verif Require Import Base SpecSSZ.
Import ListNotations.
Open Scope Z_scope.

(** an element of a series: its bytes, and an offset if its type is variable-size *)
Definition slot_size (s : sty) (bytes : Z) : Z := (if is_variable s then 4 else 0) + bytes.
Fixpoint min_size (s : sty) : Z :=
  match s with
  | SUint64 => 8
  | SBoolean => 1
  | SByteVector n => n
  | SBitvector n => (n + 7) / 8
  | SBitlist _ => 1
  | SVector s' n => n * slot_size s' (min_size s')
  | SList _ _ => 0
  | SContainer fs => fold_right (fun f a => slot_size (snd f) (min_size (snd f)) + a) 0 fs
  end.
Fixpoint max_size (s : sty) : Z :=
  match s with
  | SUint64 => 8
  | SBoolean => 1
  | SByteVector n => n
  | SBitvector n => (n + 7) / 8
  | SBitlist limit => limit / 8 + 1
  | SVector s' n => n * slot_size s' (max_size s')
  | SList s' limit => limit * slot_size s' (max_size s')
  | SContainer fs => fold_right (fun f a => slot_size (snd f) (max_size (snd f)) + a) 0 fs
  end.

(** Offsets are 32 bits wide: those written in the encoding of [v] are all below 2^32. *)
Definition series_fit (es : list (bool * list Z)) : Prop :=
  forall i, (i < length es)%nat -> fst (nth i es (false, [])) = true -> offset_of es i < 2 ^ 32.
Fixpoint offsets_fit (s : sty) (v : val) {struct s} : Prop :=
  match s, v with
  | SVector s' _, VSeq l | SList s' _, VSeq l =>
      series_fit (map (fun e => (is_variable s', ssz_serialize s' e)) l) /\ Forall (offsets_fit s') l
  | SContainer fs, VSeq l =>
      series_fit
        ((fix go (fs : list (string * sty)) (l : list val) : list (bool * list Z) :=
            match fs, l with
            | (_, t') :: fs', v' :: l' => (is_variable t', ssz_serialize t' v') :: go fs' l'
            | _, _ => []
            end) fs l) /\
      (fix all (fs : list (string * sty)) (l : list val) : Prop :=
         match fs, l with
         | (_, t') :: fs', v' :: l' => offsets_fit t' v' /\ all fs' l'
         | _, _ => True
         end) fs l
  | _, _ => True
  end.
