(** How the values of SSZ types are written in the value.yaml files of the consensus
    specification's test vectors ("tests/formats/ssz_static": numbers in decimal, byte
    vectors in hexadecimal, bitvectors and bitlists as the hexadecimal form of their
    serialization, vectors and lists as sequences, containers as mappings from field
    names). Written without reference to the model, apart from the types [val] and
    [ynode] of data. *)
From Coq Require Import ZArith String List Bool.
From Verif Require Import Base SpecSSZ ModelYaml SpecBytes.
Import ListNotations.
Open Scope Z_scope.

(** Decimal numbers without superfluous zeros. *)
Definition digits_value (s : list Z) : Z := fold_left (fun a ch => 10 * a + (ch - 48)) s 0.
Definition decimal_number (s : list Z) (x : Z) : Prop :=
  s <> [] /\ Forall (fun ch => 48 <= ch <= 57) s /\ (s = [48] \/ hd 0 s <> 48) /\ digits_value s = x.
(** 0x and two digits for each byte *)
Definition hex_string (s : list Z) (l : list Z) : Prop :=
  exists d, s = 48 :: 120 :: d /\ hex_bytes d = Some l.
(** true and false *)
Definition bool_string (b : bool) : list Z :=
  if b then [116; 114; 117; 101] else [102; 97; 108; 115; 101].

(** The node [n] shows the value [v] of type [s]. The fields of a container may come in
    any order, and there may be other keys. *)
Fixpoint shows (s : sty) (v : val) (n : ynode) {struct s} : Prop :=
  match s, v, n with
  | SUint64, VNum x, YScalar str => decimal_number str x
  | SBoolean, VBool b, YScalar str => str = bool_string b
  | SByteVector _, VBytes l, YScalar str => hex_string str l
  | SBitvector _, VBits _, YScalar str => hex_string str (ssz_serialize s v)
  | SBitlist _, VBits _, YScalar str => hex_string str (ssz_serialize s v)
  | SVector s' _, VSeq l, YSeq ns => Forall2 (shows s') l ns
  | SList s' _, VSeq l, YSeq ns => Forall2 (shows s') l ns
  | SContainer fs, VSeq l, YMap m =>
      NoDup (map fst m) /\
      (fix go (fs : list (string * sty)) (l : list val) : Prop :=
         match fs, l with
         | [], [] => True
         | (name, s') :: fs', v' :: l' =>
             (exists n', In (name, n') m /\ shows s' v' n') /\ go fs' l'
         | _, _ => False
         end) fs l
  | _, _, _ => False
  end.

(** What is expected of yaml-cpp: it reads decimal numbers that fit, and true and false. *)
Record reads (e : externals) : Prop := {
  reads_number : forall s x, 0 <= x < 2 ^ 64 -> decimal_number s x -> text_num e s = Some x;
  reads_bool : forall b, text_bool e (bool_string b) = Some b
}.
(** ... and no others *)
Definition fits (e : externals) : Prop := forall s x, text_num e s = Some x -> 0 <= x < 2 ^ 64.

(** All text in the node is 7-bit. *)
Fixpoint ascii (n : ynode) : Prop :=
  match n with
  | YScalar s => Forall (fun ch => 0 <= ch < 128) s
  | YSeq l => fold_right (fun n' P => ascii n' /\ P) True l
  | YMap m => fold_right (fun (p : string * ynode) P => ascii (snd p) /\ P) True m
  end.

(** The same result, apart from what a failed decode leaves in the object. *)
Definition same_result (a b : outcome (bool * val)) : Prop :=
  match a, b with
  | Ok (x, v), Ok (y, w) => x = y /\ (x = true -> v = w)
  | Throw, Throw | UB, UB => True
  | _, _ => False
  end.

(** A bitlist's text has no delimiting bit: no digits at all, or the last byte is zero
    (characters that are not digits count as zero). *)
Definition zero_digit (ch : Z) : Prop := hex_digit ch = Some 0 \/ hex_digit ch = None.
Definition undelimited (str : list Z) : Prop :=
  str = [48; 120] \/
  exists d a b, str = 48 :: 120 :: d ++ [a; b] /\ Nat.Even (length d) /\ zero_digit a /\ zero_digit b.
(** None of the bitlists in the node is like that. *)
Fixpoint delimited (s : sty) (n : ynode) {struct s} : Prop :=
  match s, n with
  | SBitlist _, YScalar str => ~ undelimited str
  | SVector s' _, YSeq l | SList s' _, YSeq l => Forall (delimited s') l
  | SContainer fs, YMap m =>
      (fix go (fs : list (string * sty)) : Prop :=
         match fs with
         | [] => True
         | (name, s') :: fs' => (forall n', In (name, n') m -> delimited s' n') /\ go fs'
         end) fs
  | _, _ => True
  end.

(** The node has the shape of the type: text where the type is basic, sequences for lists,
    of the right length for vectors, mappings with all the names for containers; byte
    vectors are 0x and not too many characters, bits are 0x and an even number. *)
Fixpoint complete (s : sty) (n : ynode) {struct s} : Prop :=
  match s, n with
  | SUint64, YScalar _ | SBoolean, YScalar _ => True
  | SByteVector k, YScalar str => starts_0x str /\ zlen str <= 2 * k + 2
  | SBitvector _, YScalar str | SBitlist _, YScalar str => starts_0x str /\ zlen str mod 2 = 0
  | SVector s' k, YSeq l => zlen l = k /\ Forall (complete s') l
  | SList s' _, YSeq l => Forall (complete s') l
  | SContainer fs, YMap m =>
      (fix go (fs : list (string * sty)) : Prop :=
         match fs with
         | [] => True
         | (name, s') :: fs' => (exists n', In (name, n') m /\ complete s' n') /\ go fs'
         end) fs
  | _, _ => False
  end.
