(** Which values an object of each class can hold, independently of the codec:
    lengths and integer ranges imposed by the C++ data types. List limits are
    not part of it (the C++ types do not impose them); see [within]. *)
From Coq Require Import ZArith String List Bool.
From Verif Require Import Base SpecSSZ ModelSSZ.
Import ListNotations.
Open Scope Z_scope.

Section All2.
Context {A B : Type}.
Variable P : A -> B -> Prop.
Fixpoint all2 (l : list A) (m : list B) : Prop :=
  match l, m with
  | [], [] => True
  | a :: l', b :: m' => P a b /\ all2 l' m'
  | _, _ => False
  end.
End All2.

(** Values an object of class [t] can hold. *)
Fixpoint wt (t : ty) (v : val) {struct t} : Prop :=
  match t, v with
  | TBytes n, VBytes l => zlen l = n /\ bytes_ok l
  | TSlot, VNum x => 0 <= x < 2 ^ 64
  | TBoolean, VBool _ => True
  | TBitvector n, VBits l => zlen l = n
  | TBitlist _, VBits _ => True
  | TVector t' n, VSeq l => zlen l = n /\ Forall (wt t') l
  | TListF t' _, VSeq l => Forall (wt t') l
  | TListV t' _, VSeq l => Forall (wt t') l
  | TClass _ fs, VSeq l => all2 wt fs l
  | _, _ => False
  end.

(** Every list and bitlist inside the value is within its limit. *)
Fixpoint within (t : ty) (v : val) {struct t} : Prop :=
  match t, v with
  | TBitlist limit, VBits l => zlen l <= limit
  | TVector t' _, VSeq l => Forall (within t') l
  | TListF t' limit, VSeq l => zlen l <= limit /\ Forall (within t') l
  | TListV t' limit, VSeq l => zlen l <= limit /\ Forall (within t') l
  | TClass _ fs, VSeq l => all2 within fs l
  | _, _ => True
  end.

(** Classes some object of which is, or contains, a Bitlist. *)
Fixpoint has_bitlist (t : ty) : bool :=
  match t with
  | TBitlist _ => true
  | TVector t' _ | TListF t' _ | TListV t' _ => has_bitlist t'
  | TClass _ fs => existsb has_bitlist fs
  | _ => false
  end.

(** Classes without a Bitvector whose length is not a multiple of 8. *)
Fixpoint no_padding (t : ty) : bool :=
  match t with
  | TBitvector n => n mod 8 =? 0
  | TVector t' _ | TListF t' _ | TListV t' _ => no_padding t'
  | TClass _ fs => forallb no_padding fs
  | _ => true
  end.

(** Well-formed class descriptions: those the theorems about arbitrary classes
    are stated for. All the classes of /repo are (checked by computation). *)
Definition fixed_size (ts : list ty) : Z :=
  sumZ (map (fun t => if get_ssz_size t =? 0 then 4 else get_ssz_size t) ts).

Fixpoint nats_eqb (l m : list nat) : bool :=
  match l, m with
  | [], [] => true
  | a :: l', b :: m' => Nat.eqb a b && nats_eqb l' m'
  | _, _ => false
  end.

Fixpoint wf (t : ty) : bool :=
  match t with
  | TBytes n => 0 <? n
  | TSlot | TBoolean | TBitlist _ => true
  | TBitvector n => 0 <? n
  | TVector t' n => wf t' && (0 <? n) && (0 <? get_ssz_size t')
  | TListF t' _ => wf t' && (0 <? get_ssz_size t')
  | TListV t' _ => wf t' && (get_ssz_size t' =? 0)
  | TClass ci fs =>
      forallb wf fs
      && (0 <? zlen fs)
      && nats_eqb (ci_ser ci) (seq 0 (length fs))
      && nats_eqb (ci_des ci) (seq 0 (length fs))
      && nats_eqb (ci_hash ci) (seq 0 (length fs))
      && (ci_size ci =? if existsb (fun t => get_ssz_size t =? 0) fs then 0 else fixed_size fs)
      && (fixed_size fs <? 2 ^ 32)
  end.

(** The result of deserialize without the object. *)
Definition verdict {A} (o : outcome (bool * A)) : outcome bool :=
  match o with Ok (r, _) => Ok r | Throw => Throw | UB => UB end.
(** Classes without parts. *)
Definition is_leaf (t : ty) : bool :=
  match t with TBytes _ | TSlot | TBoolean | TBitvector _ | TBitlist _ => true | _ => false end.
