(** What an object may hold after a failed deserialization: stated on the wire
    format of SpecWire. *)
From Coq Require Import ZArith String List.
From Verif Require Import Base SpecSSZ SpecWire.
Import ListNotations.
Open Scope Z_scope.

Section Three.
Context {A B C : Type}.
Variable P : A -> B -> C -> Prop.
Inductive Forall3 : list A -> list B -> list C -> Prop :=
| Forall3_nil : Forall3 [] [] []
| Forall3_cons a b c la lb lc : P a b c -> Forall3 la lb lc -> Forall3 (a :: la) (b :: lb) (c :: lc).
End Three.

(** [c] is a contiguous part of [b]. *)
Definition infix (c b : list Z) : Prop := exists p q, b = p ++ c ++ q.
(** [v] is what some part of the input encodes. *)
Definition read_from (b : list Z) (s : sty) (v : val) : Prop := exists c, infix c b /\ accepts s c v.
Definition old_or_read (b : list Z) (s : sty) (o v : val) : Prop := v = o \/ read_from b s v.
Definition is_list (s : sty) : bool := match s with SList _ _ => true | _ => false end.

(** [remains s b o v]: an object of type [s] that held [o] holds [v] after it has
    failed to read [b].
    - Leaves are unchanged, and vectors and containers may be.
    - Of a list only elements read from the input are left: its old elements are lost.
    - The elements of a vector are read up to one that fails; those behind it are old.
    - The fields of a container are old or read, but for at most one that failed. *)
Inductive remains : sty -> list Z -> val -> val -> Prop :=
| R_kept s b o : is_list s = false -> remains s b o o
| R_list s n b o l : Forall (read_from b s) l -> remains (SList s n) b o (VSeq l)
| R_vector s n b c o1 o o2 l1 v :
    length l1 = length o1 -> Forall (read_from b s) l1 -> infix c b -> remains s c o v ->
    remains (SVector s n) b (VSeq (o1 ++ o :: o2)) (VSeq (l1 ++ v :: o2))
| R_fields fs b o l :
    Forall3 (fun f => old_or_read b (snd f)) fs o l ->
    remains (SContainer fs) b (VSeq o) (VSeq l)
| R_field fs1 f fs2 b c o1 o o2 l1 v l2 :
    Forall3 (fun f => old_or_read b (snd f)) fs1 o1 l1 ->
    infix c b -> remains (snd f) c o v ->
    Forall3 (fun f => old_or_read b (snd f)) fs2 o2 l2 ->
    remains (SContainer (fs1 ++ f :: fs2)) b (VSeq (o1 ++ o :: o2)) (VSeq (l1 ++ v :: l2)).
