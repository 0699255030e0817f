(** The containers of the library paired with their specification: class of
    /repo and SSZ type of the same name, in both configurations. *)
From Coq Require Import ZArith String List Bool.
From Verif Require Import Base SpecSSZ SpecPhase0 ModelSSZ ModelEth.
Import ListNotations.
Open Scope Z_scope.

(** [t] is one of the 23 containers, in one of the two configurations. *)
Inductive is_container (t : ty) : Prop :=
| cont_mainnet name : In (name, t) (all_classes mainnet) -> is_container t
| cont_minimal name : In (name, t) (all_classes minimal) -> is_container t.

(** [t] is the class named like the phase0 container of type [s], in the same
    configuration. *)
Inductive container_pair (t : ty) (s : sty) : Prop :=
| pair_mainnet name :
    In (name, t) (all_classes mainnet) ->
    In (name, s) (phase0_containers preset_mainnet) -> container_pair t s
| pair_minimal name :
    In (name, t) (all_classes minimal) ->
    In (name, s) (phase0_containers preset_minimal) -> container_pair t s.

(** Classes that differ in the limits of their lists and bitlists only. *)
Inductive same_but_limits : ty -> ty -> Prop :=
| L_same t : same_but_limits t t
| L_bitlist m n : same_but_limits (TBitlist m) (TBitlist n)
| L_vector t t' n : same_but_limits t t' -> same_but_limits (TVector t n) (TVector t' n)
| L_listf t t' m n : same_but_limits t t' -> same_but_limits (TListF t m) (TListF t' n)
| L_listv t t' m n : same_but_limits t t' -> same_but_limits (TListV t m) (TListV t' n)
| L_class ci fs fs' : Forall2 same_but_limits fs fs' -> same_but_limits (TClass ci fs) (TClass ci fs').

(** The class [t] has the shape, the sizes and the limits of the SSZ type [s]. *)
Section All2b.
Context {A B : Type}.
Variable P : A -> B -> bool.
Fixpoint all2b (l : list A) (m : list B) : bool :=
  match l, m with
  | [], [] => true
  | a :: l', b :: m' => P a b && all2b l' m'
  | _, _ => false
  end.
End All2b.
Fixpoint matches (t : ty) (s : sty) {struct t} : bool :=
  match t, s with
  | TBytes n, SByteVector m => n =? m
  | TSlot, SUint64 => true
  | TBoolean, SBoolean => true
  | TBitvector n, SBitvector m => n =? m
  | TBitlist n, SBitlist m => n =? m
  | TVector t' n, SVector s' m => (n =? m) && matches t' s'
  | TListF t' n, SList s' m => (n =? m) && matches t' s'
  | TListV t' n, SList s' m => (n =? m) && matches t' s'
  | TClass _ fs, SContainer gs => all2b (fun t' g => matches t' (snd g)) fs gs
  | _, _ => false
  end.
