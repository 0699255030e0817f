(** Straight-line fragments of the program, checked by symbolic execution. As with
    SymWord.v and SymX86.v, nothing here is trusted: LemSymFrag.v proves that a
    fragment that passes [frag_ok] behaves as described. *)
From Coq Require Import ZArith String List Bool.
From Verif Require Import Base SpecSha ModelX86 ModelAsm ModelImage SymWord LemSymWord SymX86.
Import ListNotations.
Open Scope list_scope.
Open Scope Z_scope.

(** ** Memory cells: base, index of the doubleword, contents *)
Definition cells : Type := list (nat * positive * cell).
Definition add_cell (M : list (trie cell)) (x : nat * positive * cell) : list (trie cell) :=
  let '(k, i, c) := x in upd M k (tset i c (nth k M TLeaf)).
Definition mk_cells (l : cells) : list (trie cell) := fold_left add_cell l (repeat TLeaf 8).
Fixpoint word_cells (k : nat) (i : positive) (ws : list sword) : cells :=
  match ws with
  | [] => []
  | w :: r => (k, i, CD w) :: word_cells k (Pos.succ i) r
  end.
Definition gpr_cells (k : nat) (o : Z) (g : sgpr) : cells :=
  [(k, key o, CLo g); (k, Pos.succ (key o), CHi g)].
Definition section_cells (s : nat) : cells :=
  word_cells s 1 (map sconst (words_of (nth s sections []))).

(** ** The expected digests *)
Definition pad64 : list Z := [2147483648; 0; 0; 0; 0; 0; 0; 0; 0; 0; 0; 0; 0; 0; 0; 512].
Fixpoint atoms (n : nat) (i : positive) : list sword :=
  match n with O => [] | S n' => atom i :: atoms n' (Pos.succ i) end.
Definition sblock (T : tbl) (ws : list sword) : tbl * list sword :=
  let (T1, m) := smap (fun T w => let (T', x) := sbswap T w in share T' x) T ws in
  let (T2, h) := scompress T1 K (map sconst H0) m in
  let (T3, h') := scompress T2 K h (map sconst pad64) in
  smap sbswap T3 h'.
Fixpoint sblocks (n : nat) (T : tbl) (ws : list sword) : tbl * list sword :=
  match n with
  | O => (T, [])
  | S n' =>
      let (T1, x) := sblock T (firstn 16 ws) in
      let (T2, y) := sblocks n' T1 (skipn 16 ws) in
      (T2, x ++ y)
  end.
Definition tbl0 (n : positive) : tbl :=
  {| nodes := TLeaf; fresh := n; idx_lin := TLeaf; idx_poly := TLeaf |}.
(** the table and the digests of [n] blocks of atoms *)
Definition digests (n : nat) : tbl * list sword :=
  sblocks n (tbl0 (Pos.of_succ_nat (16 * n))) (atoms (16 * n) 1).

(** ** Fragments *)
Record frag : Type := {
  f_range : nat * nat;       (* the instructions that may be executed: first and number *)
  f_entry : Z;
  f_stop : Z;
  f_rgs : list region;
  f_gpr : list sgpr;
  f_vec : list (list sword);
  f_cells : cells;
  f_blocks : nat;            (* blocks of input, as atoms *)
  f_oracle : list bool;
  f_code : list (Z * Z);   (* the instructions executed: first and number, in order *)
  (* at the end *)
  f_pc' : sgpr;
  f_gpr' : list sgpr;
  f_vec' : list (list sword);
  f_cells' : cells;          (* besides the digests *)
  f_conds : list (sflags * jcc * bool)
}.
Definition any : sgpr := SW SX.
Definition anyv : list sword := repeat SX 8.
Definition gmatch (e a : sgpr) : bool :=
  match e with SW SX => true | _ => geqb e a end.
Definition wmatch (e a : sword) : bool := match e with SX => true | _ => weqb e a end.
Fixpoint matches {A} (f : A -> A -> bool) (x y : list A) : bool :=
  match x, y with
  | [], [] => true
  | a :: x', b :: y' => f a b && matches f x' y'
  | _, _ => false
  end.
Definition cmatch (e a : cell) : bool :=
  match e, a with
  | CD w, CD w' => wmatch w w'
  | CLo g, CLo g' => gmatch g g'
  | CHi g, CHi g' => gmatch g g'
  | _, _ => false
  end.
Definition has_cell (M : list (trie cell)) (x : nat * positive * cell) : bool :=
  let '(k, i, c) := x in
  match tget i (nth k M TLeaf) with Some c' => cmatch c c' | None => false end.
Definition feqb (a b : sflags) : bool :=
  match a, b with
  | FCmp g n, FCmp g' n' => geqb g g' && (n =? n')
  | FTest g, FTest g' => geqb g g'
  | _, _ => false
  end.
Definition jeqb (a b : jcc) : bool :=
  match a, b with JL, JL | JZ, JZ | JB, JB => true | _, _ => false end.
Definition cond_eqb (a b : sflags * jcc * bool) : bool :=
  let '(f, j, x) := a in let '(f', j', x') := b in feqb f f' && jeqb j j' && eqb x x'.
Definition free_below (n : positive) (t : trie sword) : bool :=
  tall (fun p _ => (n <? p)%positive) (fun p => p) t.

Definition known (w : sword) : bool := match w with SX => false | _ => true end.

Definition f_start (F : frag) (T : tbl) : sstate :=
  {| spc := SC (f_entry F); sgprs := f_gpr F; svecs := f_vec F; sfl := None;
     smem := mk_cells (f_cells F); stbl := T; soracle := f_oracle F; sconds := [] |}.
Definition f_natoms (F : frag) : positive := Pos.of_nat (16 * f_blocks F).
Definition f_end_ok (F : frag) (l : list sword) (S : sstate) : bool :=
  gmatch (f_pc' F) (spc S)
  && matches gmatch (f_gpr' F) (sgprs S)
  && matches (matches wmatch) (f_vec' F) (svecs S)
  && forallb (has_cell (smem S)) (f_cells' F ++ word_cells 6 1 l) && forallb known l
  && matches cond_eqb (f_conds F) (sconds S)
  && tbl_ok (stbl S) && free_below (f_natoms F) (nodes (stbl S)).
Definition fuel : nat := Z.to_nat 10000.
Definition expand (l : list (Z * Z)) : list Z :=
  flat_map (fun x : Z * Z => map (fun i => fst x + Z.of_nat i) (seq 0 (Z.to_nat (snd x)))) l.
Definition f_run (F : frag) (T : tbl) : option (list (Z * list (nat * Z)) * sstate) :=
  srun (f_rgs F) (mk_labels image 0) (mk_prog (firstn (snd (f_range F)) (skipn (fst (f_range F)) image)) (Pos.of_succ_nat (fst (f_range F))) TLeaf)
    fuel (f_stop F) (f_start F T).
Definition frag_ok (F : frag) : bool :=
  let (T, l) := digests (f_blocks F) in
  Nat.eqb (length (f_vec F)) 16 && forallb instr_ok image &&
  match f_run F T with
  | Some (o, S') => f_end_ok F l S' && matches Z.eqb (map fst o) (expand (f_code F))
  | None => false
  end.
(** what can be seen of the fragment *)
Definition f_seen (F : frag) : list (Z * list (nat * Z)) :=
  match f_run F (fst (digests (f_blocks F))) with Some (o, _) => o | None => [] end.
