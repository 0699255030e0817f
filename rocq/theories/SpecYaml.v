(** What is assumed of yaml-cpp's scalar conversions and of the byte printer that
    is missing from the repository: reading back what was written. *)
From Coq Require Import ZArith String List Bool.
From Verif Require Import Base SpecSSZ ModelSSZ ModelBytes ModelYaml SpecObj SpecClasses.
Import ListNotations.
Open Scope Z_scope.

Record externals_ok (e : externals) : Prop := {
  num_back : forall x, 0 <= x < 2 ^ 64 -> text_num e (num_text e x) = Some x;
  bool_back : forall b, text_bool e (bool_text e b) = Some b;
  bytes_back : forall l, bytes_ok l -> bytes_from_str (length l) (bytes_to_string e l) = Ok l
}.

(** Classes without a Bitlist or Bitvector inside. *)
Fixpoint no_bits (t : ty) : bool :=
  match t with
  | TBitvector _ | TBitlist _ => false
  | TVector t' _ | TListF t' _ | TListV t' _ => no_bits t'
  | TClass _ fs => forallb no_bits fs
  | _ => true
  end.

Fixpoint parts_eqb (l m : list (string * nat)) : bool :=
  match l, m with
  | [], [] => true
  | (a, i) :: l', (b, j) :: m' => String.eqb a b && Nat.eqb i j && parts_eqb l' m'
  | _, _ => false
  end.
(** The class [t] reads the fields of the SSZ type [s] under their names, in order. *)
Fixpoint same_names (t : ty) (s : sty) {struct t} : bool :=
  match t, s with
  | TVector t' _, SVector s' _ | TListF t' _, SList s' _ | TListV t' _, SList s' _ => same_names t' s'
  | TClass ci fs, SContainer gs =>
      parts_eqb (ci_dec ci) (combine (map fst gs) (seq 0 (length gs)))
      && all2b (fun t' g => same_names t' (snd g)) fs gs
  | _, _ => true
  end.
(** Classes whose encode and decode lists are the members in order, under different names *)
Fixpoint distinct (l : list string) : bool :=
  match l with [] => true | a :: r => negb (existsb (String.eqb a) r) && distinct r end.
Fixpoint yaml_wf (t : ty) : bool :=
  match t with
  | TBytes n => 0 <=? n
  | TVector t' _ | TListF t' _ | TListV t' _ => yaml_wf t'
  | TClass ci fs =>
      parts_eqb (ci_enc ci) (ci_dec ci)
      && nats_eqb (map snd (ci_enc ci)) (seq 0 (length fs))
      && distinct (map fst (ci_enc ci)) && forallb yaml_wf fs
  | _ => true
  end.
