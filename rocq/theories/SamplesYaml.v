(** YAML nodes and conversions of scalars used in examples and refutations. *)
From Coq Require Import ZArith String List Bool.
From Verif Require Import Base SpecSSZ ModelSSZ ModelBytes ModelEth ModelYaml SpecBytes SpecText SpecPhase0 Samples.
Import ListNotations.
Open Scope string_scope.
Open Scope list_scope.
Open Scope Z_scope.

(** ** Conversions of scalars: any text as a number, and as yaml-cpp does it *)
Fixpoint decimal (fuel : nat) (n : Z) : list Z :=
  match fuel with
  | O => []
  | S f => if n <? 10 then [48 + n] else decimal f (n / 10) ++ [48 + n mod 10]
  end.
Definition std_externals : externals := {|
  num_text := decimal 20;
  text_num := fun s => Some (fold_left (fun a ch => 10 * a + (ch - 48)) s 0);
  bool_text := fun b : bool => if b then [116; 114; 117; 101] else [102; 97; 108; 115; 101];
  text_bool := fun s => if bytes_eqb s [116; 114; 117; 101] then Some true
                        else if bytes_eqb s [102; 97; 108; 115; 101] then Some false else None;
  bytes_to_string := hex_text
|}.
Definition digits (s : list Z) : bool := forallb (fun ch => (48 <=? ch) && (ch <=? 57)) s.
Definition strict_externals : externals := {|
  num_text := num_text std_externals;
  text_num := fun s => if negb (zlen s =? 0) && digits s && (digits_value s <? 2 ^ 64) then Some (digits_value s) else None;
  bool_text := bool_text std_externals;
  text_bool := text_bool std_externals;
  bytes_to_string := bytes_to_string std_externals
|}.

(** ** A node for every value *)
Definition show_hex (l : list Z) : ynode := YScalar (hex_text l).
Fixpoint show (s : sty) (v : val) {struct s} : ynode :=
  match s, v with
  | SUint64, VNum x => YScalar (decimal 20 x)
  | SBoolean, VBool b => YScalar (bool_string b)
  | SByteVector _, VBytes l => show_hex l
  | SBitvector _, _ => show_hex (ssz_serialize s v)
  | SBitlist _, _ => show_hex (ssz_serialize s v)
  | SVector s' _, VSeq l => YSeq (map (show s') l)
  | SList s' _, VSeq l => YSeq (map (show s') l)
  | SContainer fs, VSeq l =>
      YMap ((fix go (fs : list (string * sty)) (l : list val) : list (string * ynode) :=
               match fs, l with
               | (name, s') :: fs', v' :: l' => (name, show s' v') :: go fs' l'
               | _, _ => []
               end) fs l)
  | _, _ => YScalar []
  end.

(** An attestation, with the keys backwards and one too many. *)
Definition backwards (n : ynode) : ynode :=
  match n with YMap m => YMap (("comment", YScalar [33]) :: rev m) | _ => n end.
Definition smp_node : ynode := backwards (show sAttestation smp_attestation).
(** Text that is accepted though it does not show the value. *)
Definition short_fork : ynode :=
  YMap [("previous_version", YScalar [48; 120]); ("current_version", YScalar [48; 120; 122]); ("epoch", YScalar [48])].
