(** What hexadecimal strings denote. Characters are given by their codes. *)
From Coq Require Import ZArith List Bool.
Import ListNotations.
Open Scope Z_scope.

Definition hex_digit (ch : Z) : option Z :=
  if (48 <=? ch) && (ch <=? 57) then Some (ch - 48)            (* 0-9 *)
  else if (97 <=? ch) && (ch <=? 102) then Some (ch - 97 + 10) (* a-f *)
  else if (65 <=? ch) && (ch <=? 70) then Some (ch - 65 + 10)  (* A-F *)
  else None.

(** The bytes denoted by an even number of digits, high digit first. *)
Fixpoint hex_bytes (str : list Z) : option (list Z) :=
  match str with
  | [] => Some []
  | a :: b :: r =>
      match hex_digit a, hex_digit b, hex_bytes r with
      | Some x, Some y, Some l => Some (16 * x + y :: l)
      | _, _, _ => None
      end
  | [_] => None
  end.

(** The usual way to print bytes: two lower-case digits each. *)
Definition digit_char (d : Z) : Z := if d <? 10 then 48 + d else 87 + d.
Definition hex_text (l : list Z) : list Z :=
  48 :: 120 :: flat_map (fun b => [digit_char (b / 16); digit_char (b mod 16)]) l.

Definition starts_0x (str : list Z) : Prop := exists s, str = 48 :: 120 :: s.
