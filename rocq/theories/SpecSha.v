(** SHA-256 as defined by FIPS 180-4 (Secure Hash Standard), on byte strings of
    any length. Words are integers in [0, 2^32). *)
From Coq Require Import ZArith List Bool.
Import ListNotations.
Open Scope Z_scope.

(** ** Sections 2.2.2, 3.2 and 4.1.2: operations on 32-bit words *)
Definition wadd (x y : Z) : Z := (x + y) mod 2 ^ 32.
Definition wnot (x : Z) : Z := 2 ^ 32 - 1 - x.
Definition SHR (n x : Z) : Z := Z.shiftr x n.
Definition ROTR (n x : Z) : Z := Z.lor (Z.shiftr x n) (Z.shiftl x (32 - n) mod 2 ^ 32).
Definition Ch (x y z : Z) : Z := Z.lxor (Z.land x y) (Z.land (wnot x) z).
Definition Maj (x y z : Z) : Z := Z.lxor (Z.lxor (Z.land x y) (Z.land x z)) (Z.land y z).
Definition Sigma0 (x : Z) : Z := Z.lxor (Z.lxor (ROTR 2 x) (ROTR 13 x)) (ROTR 22 x).
Definition Sigma1 (x : Z) : Z := Z.lxor (Z.lxor (ROTR 6 x) (ROTR 11 x)) (ROTR 25 x).
Definition sigma0 (x : Z) : Z := Z.lxor (Z.lxor (ROTR 7 x) (ROTR 18 x)) (SHR 3 x).
Definition sigma1 (x : Z) : Z := Z.lxor (Z.lxor (ROTR 17 x) (ROTR 19 x)) (SHR 10 x).

(** ** Section 4.2.2: the constants (see [K_spec] below) *)
Definition K : list Z :=
  [0x428a2f98; 0x71374491; 0xb5c0fbcf; 0xe9b5dba5; 0x3956c25b; 0x59f111f1; 0x923f82a4; 0xab1c5ed5;
   0xd807aa98; 0x12835b01; 0x243185be; 0x550c7dc3; 0x72be5d74; 0x80deb1fe; 0x9bdc06a7; 0xc19bf174;
   0xe49b69c1; 0xefbe4786; 0x0fc19dc6; 0x240ca1cc; 0x2de92c6f; 0x4a7484aa; 0x5cb0a9dc; 0x76f988da;
   0x983e5152; 0xa831c66d; 0xb00327c8; 0xbf597fc7; 0xc6e00bf3; 0xd5a79147; 0x06ca6351; 0x14292967;
   0x27b70a85; 0x2e1b2138; 0x4d2c6dfc; 0x53380d13; 0x650a7354; 0x766a0abb; 0x81c2c92e; 0x92722c85;
   0xa2bfe8a1; 0xa81a664b; 0xc24b8b70; 0xc76c51a3; 0xd192e819; 0xd6990624; 0xf40e3585; 0x106aa070;
   0x19a4c116; 0x1e376c08; 0x2748774c; 0x34b0bcb5; 0x391c0cb3; 0x4ed8aa4a; 0x5b9cca4f; 0x682e6ff3;
   0x748f82ee; 0x78a5636f; 0x84c87814; 0x8cc70208; 0x90befffa; 0xa4506ceb; 0xbef9a3f7; 0xc67178f2].

(** ** Section 5.3.3: the initial hash value *)
Definition H0 : list Z :=
  [0x6a09e667; 0xbb67ae85; 0x3c6ef372; 0xa54ff53a; 0x510e527f; 0x9b05688c; 0x1f83d9ab; 0x5be0cd19].

(** "The first thirty-two bits of the fractional parts of the cube roots of the
    first sixty-four prime numbers", and of the square roots of the first eight. *)
Definition primes64 : list Z :=
  filter (fun p => (1 <? p) && forallb (fun d => negb (p mod d =? 0))
                                (map Z.of_nat (seq 2 (Z.to_nat p - 2))))
         (map Z.of_nat (seq 0 312)).
Definition is_root_frac (e : Z) (p k : Z) : Prop :=
  exists r, r ^ e <= p * 2 ^ (32 * e) < (r + 1) ^ e /\ r mod 2 ^ 32 = k.

(** ** Section 5.1.1: padding *)
Fixpoint be_bytes (n : nat) (v : Z) : list Z :=
  match n with
  | O => []
  | S n' => be_bytes n' (v / 256) ++ [v mod 256]
  end.
Definition pad (m : list Z) : list Z :=
  let l := Z.of_nat (length m) in
  m ++ [128] ++ repeat 0 (Z.to_nat ((55 - l) mod 64)) ++ be_bytes 8 (8 * l).

(** ** Sections 5.2.1 and 6.2.2: message blocks of sixteen big-endian words *)
Fixpoint be_val (acc : Z) (l : list Z) : Z :=
  match l with [] => acc | b :: r => be_val (256 * acc + b) r end.
Fixpoint words (n : nat) (l : list Z) : list Z :=
  match n with
  | O => []
  | S n' => be_val 0 (firstn 4 l) :: words n' (skipn 4 l)
  end.

(** Step 1, the message schedule: [n] more words after those of [w]. *)
Fixpoint schedule (n : nat) (w : list Z) : list Z :=
  match n with
  | O => w
  | S n' =>
      let t := length w in
      let x := wadd (wadd (wadd (sigma1 (nth (t - 2) w 0)) (nth (t - 7) w 0))
                          (sigma0 (nth (t - 15) w 0)))
                    (nth (t - 16) w 0) in
      schedule n' (w ++ [x])
  end.

(** Step 3: the working variables a..h and one round. *)
Definition round (st : list Z) (kw : Z * Z) : list Z :=
  match st with
  | [a; b; c; d; e; f; g; h] =>
      let T1 := wadd (wadd (wadd (wadd h (Sigma1 e)) (Ch e f g)) (fst kw)) (snd kw) in
      let T2 := wadd (Sigma0 a) (Maj a b c) in
      [wadd T1 T2; a; b; c; wadd d T1; e; f; g]
  | _ => []
  end.

(** Steps 2 to 4 on one block of sixteen words. *)
Definition compress (h : list Z) (m : list Z) : list Z :=
  let w := schedule 48 m in
  map (fun p : Z * Z => wadd (fst p) (snd p))
      (combine (fold_left round (combine K w) h) h).

(** ** Section 6.2: the hash of a message *)
Fixpoint hash_blocks (n : nat) (h : list Z) (m : list Z) : list Z :=
  match n with
  | O => h
  | S n' => hash_blocks n' (compress h (words 16 m)) (skipn 64 m)
  end.
Definition sha256 (m : list Z) : list Z :=
  let p := pad m in
  flat_map (be_bytes 4) (hash_blocks (Nat.div (length p) 64) H0 p).

(** ** Sanity of the definitions *)
Fixpoint root_search (n : nat) (e x acc : Z) : Z :=
  match n with
  | O => acc
  | S n' =>
      let c := acc + 2 ^ Z.of_nat n' in
      root_search n' e x (if c ^ e <=? x then c else acc)
  end.
Lemma frac_check e : forall ps ks,
  forallb (fun pk : Z * Z =>
    let r := root_search 40 e (fst pk * 2 ^ (32 * e)) 0 in
    (r ^ e <=? fst pk * 2 ^ (32 * e)) && (fst pk * 2 ^ (32 * e) <? (r + 1) ^ e)
    && (r mod 2 ^ 32 =? snd pk)) (combine ps ks) = true ->
  length ps = length ks ->
  Forall2 (is_root_frac e) ps ks.
Proof.
  induction ps as [|p ps IH]; intros [|k ks] H L; try discriminate L; constructor.
  - cbn [combine forallb fst snd] in H. apply andb_prop in H as [H _].
    apply andb_prop in H as [H H3]. apply andb_prop in H as [H1 H2].
    eexists. split; [split; [apply Z.leb_le, H1|apply Z.ltb_lt, H2]|apply Z.eqb_eq, H3].
  - apply IH; [|injection L; auto]. cbn [combine forallb] in H. apply andb_prop in H. tauto.
Qed.
(** The constants are the ones the standard describes. *)
Lemma K_spec : Forall2 (is_root_frac 3) primes64 K.
Proof. apply frac_check; vm_compute; reflexivity. Qed.
Lemma H0_spec : Forall2 (is_root_frac 2) (firstn 8 primes64) H0.
Proof. apply frac_check; vm_compute; reflexivity. Qed.

(** The example of the standard: the digest of "abc", and of the empty string. *)
Example sha256_abc : sha256 [97; 98; 99] = be_bytes 32
  0xba7816bf8f01cfea414140de5dae2223b00361a396177a9cb410ff61f20015ad.
Proof. vm_compute. reflexivity. Qed.
Example sha256_empty : sha256 [] = be_bytes 32
  0xe3b0c44298fc1c149afbf4c8996fb92427ae41e4649b934ca495991b7852b855.
Proof. vm_compute. reflexivity. Qed.
(** 64 zero bytes: the first entry of the zero-hash table. *)
Example sha256_zeros : sha256 (repeat 0 64) = be_bytes 32
  0xf5a5fd42d16a20302798ef6ed309979b43003d2320d9f0e8ea9831a92759fb4b.
Proof. vm_compute. reflexivity. Qed.
