(** Which YAML nodes decode() refuses by returning false, and what it leaves in the object. *)
From Coq Require Import ZArith String List Bool.
From Verif Require Import Base SpecSSZ ModelYaml SpecLoose.
Import ListNotations.
Open Scope Z_scope.

Section Refuse.
Variable e : externals.

(** Types written as one text *)
Definition takes_text (s : sty) : Prop :=
  match s with
  | SUint64 | SBoolean | SByteVector _ | SBitvector _ | SBitlist _ => True
  | _ => False
  end.
(** Types written as a sequence *)
Definition takes_sequence (s : sty) : Prop := match s with SVector _ _ | SList _ _ => True | _ => False end.

(** [refuses s n old left]: the node [n] is refused as an object of type [s], and an object
    with the value [old] has the value [left] afterwards. Fields are read in order: the ones
    before the field that is refused have been replaced, the ones behind it have not. *)
Inductive refuses : sty -> ynode -> val -> val -> Prop :=
| R_text s n old : takes_text s -> (forall str, n <> YScalar str) -> refuses s n old old
| R_number str old : text_num e str = None -> refuses SUint64 (YScalar str) old old
| R_bool str old : text_bool e str = None -> refuses SBoolean (YScalar str) old old
| R_sequence s n old : takes_sequence s -> (forall ns, n <> YSeq ns) -> refuses s n old old
| R_length s k ns old : zlen ns <> k -> refuses (SVector s k) (YSeq ns) old old
| R_container fs1 f fs2 m old1 o old2 l n o' :
    Forall2 (fun f v => exists n, bound_to m (fst f) n /\ reads_as e (snd f) n v) fs1 l ->
    bound_to m (fst f) n -> refuses (snd f) n o o' -> zlen old1 = zlen l ->
    refuses (SContainer (fs1 ++ f :: fs2)) (YMap m) (VSeq (old1 ++ o :: old2)) (VSeq (l ++ o' :: old2)).
End Refuse.
