(** Checked variants of the functions of ModelMath: [None] as soon as an
    unsigned operation would wrap around. *)
From Coq Require Import ZArith List Bool.
Open Scope Z_scope.

Fixpoint sqrt_helper_checked (fuel : nat) (x lo hi : Z) : option Z :=
  if lo =? hi then Some lo
  else match fuel with
       | O => None
       | S f =>
           if 2 ^ 64 <=? lo + hi + 1 then None else
           let mid := (lo + hi + 1) / 2 in
           if x / mid <? mid
           then if mid - 1 <? 0 then None else sqrt_helper_checked f x lo (mid - 1)
           else sqrt_helper_checked f x mid hi
       end.
Definition ct_sqrt_checked (fuel : nat) (x : Z) : option Z :=
  sqrt_helper_checked fuel x 0 (x / 2 + 1).
