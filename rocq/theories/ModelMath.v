(** Model of helpers/math.hpp for T = std::uint64_t (arithmetic modulo 2^64), and
    of the two <bit> functions used by the repository. *)
From Coq Require Import ZArith List Bool.
From Verif Require Import Base.
Open Scope Z_scope.

Definition u64 (x : Z) : Z := x mod 2 ^ 64.

(** std::countl_zero for std::uint64_t *)
Definition countl_zero64 (x : Z) : Z := if x =? 0 then 64 else 63 - Z.log2 x.

(** helpers/math.hpp:60 : [n ? CHAR_BIT * sizeof(n) - countl_zero(n - 1) : 0] *)
Definition log2ceil (n : Z) : Z :=
  if n =? 0 then 0 else 8 * 8 - countl_zero64 (u64 (n - 1)).

(** std::bit_ceil for std::uint64_t: the least power of two not below n
    (undefined above 2^63; callers pass sizes of vectors of 32-byte chunks). *)
Definition bit_ceil (n : Z) : Z := if n <=? 1 then 1 else 2 ^ (Z.log2 (n - 1) + 1).

(** helpers/math.hpp:33-42. [fuel] bounds the recursion depth; None = exhausted. *)
Fixpoint sqrt_helper (fuel : nat) (x lo hi : Z) : option Z :=
  if lo =? hi then Some lo
  else match fuel with
       | O => None
       | S f =>
           let mid := u64 (u64 (lo + hi) + 1) / 2 in
           if x / mid <? mid
           then sqrt_helper f x lo (u64 (mid - 1))
           else sqrt_helper f x mid hi
       end.

(** helpers/math.hpp:44-47 *)
Definition ct_sqrt (fuel : nat) (x : Z) : option Z :=
  sqrt_helper fuel x 0 (u64 (x / 2 + 1)).

(** helpers/math.hpp:54 : [while (r < sqrt_max && r * r < x) r++;] *)
Fixpoint sqrt_up (fuel : nat) (sqrt_max x r : Z) : option Z :=
  if (r <? sqrt_max) && (u64 (r * r) <? x)
  then match fuel with O => None | S f => sqrt_up f sqrt_max x (u64 (r + 1)) end
  else Some r.

(** helpers/math.hpp:55 : [while (r > sqrt_max || r * r > x) r--;] *)
Fixpoint sqrt_down (fuel : nat) (sqrt_max x r : Z) : option Z :=
  if (r >? sqrt_max) || (u64 (r * r) >? x)
  then match fuel with O => None | S f => sqrt_down f sqrt_max x (u64 (r - 1)) end
  else Some r.

(** helpers/math.hpp:49-58. The initial guess [(T)std::sqrt((double)x)] is a
    parameter: its value depends on the floating point unit and on -ffast-math
    (CMakeLists.txt:8-10). *)
Definition integer_squareroot (fuel : nat) (guess x : Z) : option Z :=
  match ct_sqrt fuel (2 ^ 64 - 1) with
  | None => None
  | Some sqrt_max =>
      match sqrt_up fuel sqrt_max x guess with
      | None => None
      | Some r => sqrt_down fuel sqrt_max x r
      end
  end.
