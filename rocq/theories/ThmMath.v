(** Arithmetic helpers (C19-C21). *)
From Coq Require Import ZArith List Bool.
From Verif Require Import Base ModelMath SpecMath LemMath.
Import ListNotations.
Open Scope Z_scope.

(** ** C19 *)
Theorem C19_log2ceil : forall n, 0 <= n < 2 ^ 64 ->
  (n = 0 -> log2ceil n = 0) /\
  (1 <= n -> 0 <= log2ceil n /\ n <= 2 ^ log2ceil n /\
             forall k, 0 <= k -> n <= 2 ^ k -> log2ceil n <= k).
Proof. exact log2ceil_spec. Qed.
Print Assumptions C19_log2ceil.
Example C19_case :
  map log2ceil [0; 1; 2; 3; 4; 5; 2 ^ 40; 2 ^ 40 + 1; 2 ^ 64 - 1] = [0; 0; 1; 2; 2; 3; 40; 41; 64].
Proof. reflexivity. Qed.

(** ** C20: whatever the initial guess, the run ends (some number of iterations
    suffices) and every run that ends returns the floor of the square root. *)
Theorem C20_squareroot : forall guess x, 0 <= x < 2 ^ 64 -> 0 <= guess < 2 ^ 64 ->
  exists r, (exists fuel, integer_squareroot fuel guess x = Some r) /\
    (forall fuel r', integer_squareroot fuel guess x = Some r' -> r' = r) /\
    0 <= r /\ r * r <= x < (r + 1) * (r + 1).
Proof. exact isqrt_spec. Qed.
Print Assumptions C20_squareroot.
(** Each of the two loops makes at most one iteration more than the guess is wrong by
    ([n] bounds the iterations of either loop; computing sqrt_max takes up to 64 steps). *)
Theorem C20_iterations : forall guess x r n, 0 <= x < 2 ^ 64 -> 0 <= guess < 2 ^ 64 ->
  0 <= r -> r * r <= x < (r + 1) * (r + 1) -> Z.abs (guess - r) < Z.of_nat n ->
  (exists r1, sqrt_up n (2 ^ 32 - 1) x guess = Some r1 /\ sqrt_down n (2 ^ 32 - 1) x r1 = Some r) /\
  ((64 <= n)%nat -> integer_squareroot n guess x = Some r).
Proof. exact isqrt_iterations. Qed.
Print Assumptions C20_iterations.
(** One iteration more is needed: 9 -> 10 -> 9. *)
Example C20_iterations_case :
  sqrt_up 0 (2 ^ 32 - 1) 99 9 = None /\ sqrt_up 1 (2 ^ 32 - 1) 99 9 = Some 10 /\ sqrt_down 1 (2 ^ 32 - 1) 99 10 = Some 9.
Proof. repeat split; reflexivity. Qed.
Example C20_case :
  integer_squareroot 100 4294967300 (2 ^ 64 - 1) = Some 4294967295 /\
  integer_squareroot 100 0 99 = Some 9 /\ integer_squareroot 100 12 99 = Some 9 /\
  integer_squareroot 100 10 100 = Some 10.
Proof. repeat split; vm_compute; reflexivity. Qed.

(** ** C21: 64 levels of recursion are enough; the checked variant stops at any
    wrap-around, so its agreement says there is none. *)
Theorem C21_ct_sqrt : forall fuel x, 0 <= x < 2 ^ 64 -> (64 <= fuel)%nat ->
  exists r, ct_sqrt fuel x = Some r /\ ct_sqrt_checked fuel x = Some r /\
    0 <= r /\ r * r <= x < (r + 1) * (r + 1).
Proof. exact ct_sqrt_spec. Qed.
Print Assumptions C21_ct_sqrt.
Example C21_case :
  map (ct_sqrt 64) [0; 1; 2; 3; 4; 99; 100; 2 ^ 64 - 1]
  = map Some [0; 1; 1; 1; 2; 9; 10; 4294967295].
Proof. vm_compute. reflexivity. Qed.
