(** Which YAML nodes are accepted, and as which value, and which are undefined: an
    independent description of decode() on arbitrary nodes. It is looser than
    SpecText.shows on purpose: characters that are not digits count as zero, byte vectors
    and bitvectors may be short, a byte vector may end in half a byte, bitvectors may be
    long, limits are not looked at, and only the first of equal keys counts. *)
From Coq Require Import ZArith String List Bool.
From Verif Require Import Base SpecSSZ ModelYaml SpecBytes SpecText.
Import ListNotations.
Open Scope Z_scope.

Definition seven_bit (ch : Z) : Prop := 0 <= ch < 128.
Definition counts_as (ch x : Z) : Prop :=
  seven_bit ch /\ (hex_digit ch = Some x \/ hex_digit ch = None /\ x = 0).
(** Two characters for each byte; a last single one stands for a byte below 16. *)
Inductive denotes : list Z -> list Z -> Prop :=
| D_nil : denotes [] []
| D_half a x : counts_as a x -> denotes [a] [x]
| D_byte a b x y d l : counts_as a x -> counts_as b y -> denotes d l ->
    denotes (a :: b :: d) (16 * x + y :: l).

(** The node that [name] stands for in the map [m]. *)
Definition bound_to (m : list (string * ynode)) (name : string) (n : ynode) : Prop :=
  exists m1 m2, m = m1 ++ (name, n) :: m2 /\ ~ In name (map fst m1).

Section Loose.
Variable e : externals.

Inductive reads_as : sty -> ynode -> val -> Prop :=
| A_number str x : text_num e str = Some x -> reads_as SUint64 (YScalar str) (VNum x)
| A_bool str x : text_bool e str = Some x -> reads_as SBoolean (YScalar str) (VBool x)
| A_bytes k d l : zlen d <= 2 * k -> denotes d l ->
    reads_as (SByteVector k) (YScalar (48 :: 120 :: d)) (VBytes (l ++ repeat 0 (Z.to_nat k - length l)))
| A_bitvector k d h l : zlen d = 2 * zlen h -> denotes d h ->
    zlen l = k -> bits_val l = le_val h mod 2 ^ k ->
    reads_as (SBitvector k) (YScalar (48 :: 120 :: d)) (VBits l)
| A_bitlist k d h l : zlen d = 2 * zlen h -> denotes d h ->
    h = le_bytes (Z.to_nat (zlen l / 8 + 1)) (bits_val (l ++ [true])) ->
    reads_as (SBitlist k) (YScalar (48 :: 120 :: d)) (VBits l)
| A_vector s k ns l : zlen ns = k -> Forall2 (reads_as s) ns l -> reads_as (SVector s k) (YSeq ns) (VSeq l)
| A_list s k ns l : Forall2 (reads_as s) ns l -> reads_as (SList s k) (YSeq ns) (VSeq l)
| A_container fs m l :
    Forall2 (fun f v => exists n, bound_to m (fst f) n /\ reads_as (snd f) n v) fs l ->
    reads_as (SContainer fs) (YMap m) (VSeq l).

(** Elements and fields are read in order; what precedes has been accepted. *)
Inductive breaks : sty -> ynode -> Prop :=
| B_bytes k d : zlen d <= 2 * k -> ~ Forall seven_bit d -> breaks (SByteVector k) (YScalar (48 :: 120 :: d))
| B_bitvector k d : zlen d mod 2 = 0 -> ~ Forall seven_bit d -> breaks (SBitvector k) (YScalar (48 :: 120 :: d))
| B_bitlist k d : zlen d mod 2 = 0 -> ~ Forall seven_bit d -> breaks (SBitlist k) (YScalar (48 :: 120 :: d))
| B_undelimited k str : undelimited str -> breaks (SBitlist k) (YScalar str)
| B_vector s k ns1 n ns2 l : zlen (ns1 ++ n :: ns2) = k -> Forall2 (reads_as s) ns1 l -> breaks s n ->
    breaks (SVector s k) (YSeq (ns1 ++ n :: ns2))
| B_list s k ns1 n ns2 l : Forall2 (reads_as s) ns1 l -> breaks s n ->
    breaks (SList s k) (YSeq (ns1 ++ n :: ns2))
| B_container fs1 f fs2 m l n :
    Forall2 (fun f v => exists n, bound_to m (fst f) n /\ reads_as (snd f) n v) fs1 l ->
    bound_to m (fst f) n -> breaks (snd f) n ->
    breaks (SContainer (fs1 ++ f :: fs2)) (YMap m).
End Loose.

(** Values that survive encode() and decode(): they contain no bitlist, and no bit of a
    bitvector is set. *)
Inductive bitless : sty -> val -> Prop :=
| P_number x : bitless SUint64 (VNum x)
| P_bool x : bitless SBoolean (VBool x)
| P_bytes k l : bitless (SByteVector k) (VBytes l)
| P_bitvector k l : Forall (eq false) l -> bitless (SBitvector k) (VBits l)
| P_vector s k l : Forall (bitless s) l -> bitless (SVector s k) (VSeq l)
| P_list s k l : Forall (bitless s) l -> bitless (SList s k) (VSeq l)
| P_container fs l : Forall2 (fun f => bitless (snd f)) fs l -> bitless (SContainer fs) (VSeq l).
