(** Model of bench/bench_sha256.cpp.in and bench/bench_sha256_impl.cpp, the programs that
    measure the hashers. *)
From Coq Require Import ZArith String List Bool.
From Verif Require Import Base SpecSSZ ModelSSZ ModelHashTree ModelTree ModelHasher.
Import ListNotations.
Open Scope list_scope.
Open Scope Z_scope.

(** What the operating system answers about a path: it cannot be opened, or it can, with
    the result of std::filesystem::file_size ([None] if that throws) and the bytes that
    reading the stream gives until its end. *)
Inductive file : Type := Closed | Opened (size : option Z) (data : list Z).

Section Bench.
(** the hasher of the trees; the table of zero hashes is computed with the default one
    (ssz/hashtree.cpp:49), here with the same *)
Variable HB : list chunk -> list chunk.
(** the class eth::BeaconState *)
Variable t : ty.

(** bench_sha256_impl.cpp:34 *)
Definition BENCH_ROUNDS : nat := 10.
(** lines 61-67: the roots of the rounds; the clock is left out. *)
Fixpoint rounds (n : nat) (obj : val) : outcome (list chunk) :=
  match n with
  | O => Ok []
  | S n' =>
      let* root := hash_tree_root HB t obj in
      let* rest := rounds n' obj in
      Ok (root :: rest)
  end.
(** lines 37-72: the value that is returned and the roots that were computed; the output is
    left out. *)
Definition bench_sha256_impl (ssz_file : file) : outcome (Z * list chunk) :=
  match ssz_file with
  | Closed => Ok (1, [])
  | Opened None _ => Throw
  | Opened (Some size) data =>
      if zlen data <? size then Ok (1, [])
      else
        let content := firstn (Z.to_nat size) data in
        let* (ok, obj) := deserialize t (vt_default (vt t)) content in
        if negb ok then Ok (1, [])
        else
          let* roots := rounds BENCH_ROUNDS obj in
          Ok (0, roots)
  end.
(** bench_sha256.cpp.in:29-39 *)
Definition bench_main (open : string -> file) (argv : list string) : outcome (Z * list chunk) :=
  if zlen argv <? 2 then Ok (1, [])
  else bench_sha256_impl (open (nth 1 argv EmptyString)).
End Bench.

(** CMakeLists.txt:105-107 and bench_sha256.cpp.in:27: the hasher of each of the four
    programs. Nothing asks whether the CPU has the extension. *)
Definition bench_programs (c : cpu) : list (string * outcome hasher_fn) :=
  [("bench_sha256_SSE", Hasher c IMPL_SSE); ("bench_sha256_AVX", Hasher c IMPL_AVX);
   ("bench_sha256_AVX2", Hasher c IMPL_AVX2); ("bench_sha256_SHA", Hasher c IMPL_SHA)]%string.
