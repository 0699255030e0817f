(** Symbolic 32-bit words: the executor used to prove the SHA-256 routines correct.

    Nothing here is part of the model: LemSymWord.v proves that every operation
    below is sound, so a wrong definition could only make a proof fail. *)
From Coq Require Import ZArith List Bool.
Import ListNotations.
Open Scope Z_scope.

(** ** Tries indexed by positive numbers *)
Inductive trie (A : Type) : Type :=
| TLeaf
| TNode (l : trie A) (o : option A) (r : trie A).
Arguments TLeaf {A}.
Arguments TNode {A} l o r.
Fixpoint tget {A} (p : positive) (t : trie A) : option A :=
  match t with
  | TLeaf => None
  | TNode l o r => match p with xH => o | xO q => tget q l | xI q => tget q r end
  end.
Fixpoint tset {A} (p : positive) (x : A) (t : trie A) : trie A :=
  match t with
  | TLeaf =>
      match p with
      | xH => TNode TLeaf (Some x) TLeaf
      | xO q => TNode (tset q x TLeaf) None TLeaf
      | xI q => TNode TLeaf None (tset q x TLeaf)
      end
  | TNode l o r =>
      match p with
      | xH => TNode l (Some x) r
      | xO q => TNode (tset q x l) o r
      | xI q => TNode l o (tset q x r)
      end
  end.
(** every entry passes [f]; [k] rebuilds the index from the path *)
Fixpoint tall {A} (f : positive -> A -> bool) (k : positive -> positive) (t : trie A) : bool :=
  match t with
  | TLeaf => true
  | TNode l o r =>
      match o with Some x => f (k xH) x | None => true end
      && tall f (fun q => k (xO q)) l && tall f (fun q => k (xI q)) r
  end.

(** ** Words *)

(** [(a, r)] is atom [a] rotated right by [r]; a monomial is the conjunction of its
    factors; a term is a monomial under a constant mask; a polynomial is the
    exclusive or of its terms. [SLin c l] is c + the sum of coefficient * atom, modulo
    2^32. [SX] is a word nothing is known about. *)
Definition factor : Type := positive * Z.
Definition mono : Type := list factor.
Definition poly : Type := list (mono * Z).
Inductive sword : Type :=
| SX
| SLin (c : Z) (l : list (positive * Z))
| SPoly (p : poly).

Definition full : Z := 4294967295.
Definition ror_mask (m n : Z) : Z :=
  Z.lor (Z.land (Z.shiftr m n) (Z.shiftr full n)) (Z.land (Z.shiftl m (32 - n)) full).

Definition fcmp (x y : factor) : comparison :=
  match Pos.compare (fst x) (fst y) with Eq => Z.compare (snd x) (snd y) | c => c end.
Fixpoint mcmp (x y : mono) : comparison :=
  match x, y with
  | [], [] => Eq
  | [], _ => Lt
  | _, [] => Gt
  | a :: x', b :: y' => match fcmp a b with Eq => mcmp x' y' | c => c end
  end.
(** union of two sorted lists of factors *)
Fixpoint mmul (x : mono) : mono -> mono :=
  fix aux (y : mono) : mono :=
    match x, y with
    | [], _ => y
    | _, [] => x
    | a :: x', b :: y' =>
        match fcmp a b with
        | Eq => a :: mmul x' y'
        | Lt => a :: mmul x' y
        | Gt => b :: aux y'
        end
    end.
Definition pcons (m : mono) (k : Z) (p : poly) : poly :=
  match k with Z0 => p | _ => (m, k) :: p end.
(** exclusive or of two sorted lists of terms *)
Fixpoint pxor (x : poly) : poly -> poly :=
  fix aux (y : poly) : poly :=
    match x, y with
    | [], _ => y
    | _, [] => x
    | (m, k) :: x', (m', k') :: y' =>
        match mcmp m m' with
        | Eq => pcons m (Z.lxor k k') (pxor x' y')
        | Lt => (m, k) :: pxor x' y
        | Gt => (m', k') :: aux y'
        end
    end.
Definition tmul (t : mono * Z) (y : poly) : poly :=
  fold_right (fun u acc => pxor (pcons (mmul (fst t) (fst u)) (Z.land (snd t) (snd u)) []) acc) [] y.
Definition pand (x y : poly) : poly := fold_right (fun t acc => pxor (tmul t y) acc) [] x.
Definition por (x y : poly) : poly := pxor (pxor x y) (pand x y).
Definition pconst (c : Z) : poly := pcons [] c [].
Definition rot_factor (n : Z) (f : factor) : factor :=
  (fst f, let s := snd f + n in if 32 <=? s then s - 32 else s).
Definition rot_mono (n : Z) (m : mono) : mono :=
  fold_right (fun f acc => mmul [rot_factor n f] acc) [] m.
(** rotation by 0 < n < 32 *)
Definition pror (n : Z) (p : poly) : poly :=
  fold_right (fun t acc => pxor (pcons (rot_mono n (fst t)) (ror_mask (snd t) n) []) acc) [] p.
Definition pmask (k : Z) (p : poly) : poly :=
  fold_right (fun t acc => pcons (fst t) (Z.land (snd t) k) acc) [] p.
Definition pshr (n : Z) (p : poly) : poly := pmask (Z.shiftr full n) (pror n p).
Definition pshl (n : Z) (p : poly) : poly :=
  pmask (Z.land (Z.shiftl full n) full) (pror (32 - n) p).
(** byte [s] of the word, moved to byte [i] *)
Definition pbyte (s i : Z) (p : poly) : poly :=
  let n := 8 * (s - i) in
  pmask (Z.shiftl 255 (8 * i))
        (if n =? 0 then p else if n <? 0 then pror (32 + n) p else pror n p).

(** sum of two lists sorted by decreasing atom *)
Definition lcons (a : positive) (k : Z) (l : list (positive * Z)) : list (positive * Z) :=
  match k with Z0 => l | _ => (a, k) :: l end.
Fixpoint ladd (x : list (positive * Z)) : list (positive * Z) -> list (positive * Z) :=
  fix aux (y : list (positive * Z)) : list (positive * Z) :=
    match x, y with
    | [], _ => y
    | _, [] => x
    | (a, k) :: x', (b, k') :: y' =>
        match Pos.compare a b with
        | Eq => lcons a (Z.land (k + k') full) (ladd x' y')
        | Gt => (a, k) :: ladd x' y
        | Lt => (b, k') :: aux y'
        end
    end.

(** ** The table of shared words *)
Record tbl : Type := {
  nodes : trie sword;                 (* what an atom stands for *)
  fresh : positive;
  idx_lin : trie (list positive);     (* hints for finding the atom of a word *)
  idx_poly : trie (list positive)
}.

Fixpoint leqb (x y : list (positive * Z)) : bool :=
  match x, y with
  | [], [] => true
  | (a, k) :: x', (b, k') :: y' => Pos.eqb a b && Z.eqb k k' && leqb x' y'
  | _, _ => false
  end.
Fixpoint peqb (x y : poly) : bool :=
  match x, y with
  | [], [] => true
  | (a, k) :: x', (b, k') :: y' => leqb a b && Z.eqb k k' && peqb x' y'
  | _, _ => false
  end.
Definition weqb (x y : sword) : bool :=
  match x, y with
  | SLin c l, SLin c' l' => Z.eqb c c' && leqb l l'
  | SPoly p, SPoly p' => peqb p p'
  | _, _ => false
  end.

(** where to look for a word *)
Definition lkey (l : list (positive * Z)) : positive :=
  match l with (a, _) :: _ => a | [] => xH end.
Definition pkey (p : poly) : positive :=
  match p with ((a, _) :: _, _) :: _ => a | _ => xH end.
Definition hints (T : tbl) (w : sword) : list positive :=
  match w with
  | SX => []
  | SLin _ l => match tget (lkey l) (idx_lin T) with Some h => h | None => [] end
  | SPoly p => match tget (pkey p) (idx_poly T) with Some h => h | None => [] end
  end.
Definition lookup (T : tbl) (w : sword) : option positive :=
  find (fun i => match tget i (nodes T) with Some w' => weqb w w' | None => false end) (hints T w).
Definition intern (T : tbl) (w : sword) : tbl * option positive :=
  match lookup T w with
  | Some i => (T, Some i)
  | None =>
      let i := fresh T in
      match tget i (nodes T) with
      | Some _ => (T, None)
      | None =>
          let h := i :: hints T w in
          ({| nodes := tset i w (nodes T); fresh := Pos.succ i;
              idx_lin := match w with SLin _ l => tset (lkey l) h (idx_lin T) | _ => idx_lin T end;
              idx_poly := match w with SPoly p => tset (pkey p) h (idx_poly T) | _ => idx_poly T end |},
           Some i)
      end
  end.
Definition atom (i : positive) : sword := SLin 0 [(i, 1)].
Definition patom (i : positive) : poly := [([(i, 0)], full)].

(** the atom for the word if it has one already, the word itself otherwise *)
Definition collapse (T : tbl) (w : sword) : sword :=
  match w with
  | SLin c [] => w
  | _ => match lookup T w with Some i => atom i | None => w end
  end.
(** give the word an atom *)
Definition share (T : tbl) (w : sword) : tbl * sword :=
  match w with
  | SX | SLin _ [] => (T, w)
  | SPoly [] | SPoly [([], _)] => (T, w)
  | _ => match intern T w with (T', Some i) => (T', atom i) | (T', None) => (T', SX) end
  end.

Definition to_poly (T : tbl) (w : sword) : tbl * option poly :=
  match w with
  | SX => (T, None)
  | SPoly p => (T, Some p)
  | SLin c [] => (T, Some (pconst c))
  | SLin 0 [(i, 1)] => (T, Some (patom i))
  | _ => match intern T w with (T', Some i) => (T', Some (patom i)) | (T', None) => (T', None) end
  end.
Definition to_lin (T : tbl) (w : sword) : tbl * option (Z * list (positive * Z)) :=
  match w with
  | SX => (T, None)
  | SLin c l => (T, Some (c, l))
  | SPoly [] => (T, Some (0, []))
  | SPoly [([], c)] => (T, Some (c, []))
  | SPoly p =>
      if match p with [([(i, 0)], k)] => Z.eqb k full | _ => false end
      then (T, Some (0, [(pkey p, 1)]))
      else match intern T w with
           | (T', Some i) => (T', Some (0, [(i, 1)]))
           | (T', None) => (T', None)
           end
  end.
Definition sconst (c : Z) : sword := SLin c [].
Definition const_of (w : sword) : option Z :=
  match w with
  | SLin c [] => Some c
  | SPoly [] => Some 0
  | SPoly [([], c)] => Some c
  | _ => None
  end.

(** ** Operations *)
Definition lift1 (f : poly -> poly) (T : tbl) (a : sword) : tbl * sword :=
  match to_poly T a with
  | (T1, Some p) => (T1, SPoly (f p))
  | (T1, None) => (T1, SX)
  end.
Definition lift2 (f : poly -> poly -> poly) (T : tbl) (a b : sword) : tbl * sword :=
  match to_poly T a with
  | (T1, Some p) =>
      match to_poly T1 b with
      | (T2, Some q) => (T2, SPoly (f p q))
      | (T2, None) => (T2, SX)
      end
  | (T1, None) => (T1, SX)
  end.
Definition sxor := lift2 pxor.
Definition sand := lift2 pand.
Definition sor := lift2 por.
Definition sror (n : Z) := lift1 (pror n).
Definition sshr (n : Z) := lift1 (pshr n).
Definition sshl (n : Z) := lift1 (pshl n).
Definition snot := lift1 (fun p => pxor p (pconst full)).
Definition sadd (T : tbl) (a b : sword) : tbl * sword :=
  match to_lin T a with
  | (T1, Some (c, l)) =>
      match to_lin T1 b with
      | (T2, Some (c', l')) =>
          (T2, collapse T2 (SLin (Z.land (c + c') full) (ladd l l')))
      | (T2, None) => (T2, SX)
      end
  | (T1, None) => (T1, SX)
  end.
(** a word assembled from four bytes: byte [i] is byte [s] of a word, or 0 *)
Definition spick (T : tbl) (i : Z) (x : option (sword * Z)) : tbl * option poly :=
  match x with
  | None => (T, Some [])
  | Some (w, s) =>
      match to_poly T w with
      | (T', Some p) => (T', Some (pbyte s i p))
      | (T', None) => (T', None)
      end
  end.
Fixpoint sbytes (T : tbl) (i : Z) (l : list (option (sword * Z))) : tbl * option poly :=
  match l with
  | [] => (T, Some [])
  | x :: r =>
      match spick T i x with
      | (T1, Some p) =>
          match sbytes T1 (i + 1) r with
          | (T2, Some q) => (T2, Some (pxor p q))
          | (T2, None) => (T2, None)
          end
      | (T1, None) => (T1, None)
      end
  end.
Definition sassemble (T : tbl) (l : list (option (sword * Z))) : tbl * sword :=
  match sbytes T 0 l with
  | (T', Some p) => (T', collapse T' (SPoly p))
  | (T', None) => (T', SX)
  end.
Definition sbswap (T : tbl) (w : sword) : tbl * sword :=
  sassemble T [Some (w, 3); Some (w, 2); Some (w, 1); Some (w, 0)].
Definition sshld (n : Z) (T : tbl) (a b : sword) : tbl * sword :=
  let (T1, x) := sshl n T a in
  let (T2, y) := sshr (32 - n) T1 b in
  sor T2 x y.

Definition sxor3 (T : tbl) (a b c : tbl -> tbl * sword) : tbl * sword :=
  let (T1, x) := a T in
  let (T2, y) := b T1 in
  let (T3, z) := c T2 in
  let (T4, u) := sxor T3 x y in
  sxor T4 u z.
Definition ssigma0 (T : tbl) (x : sword) := sxor3 T (fun T => sror 7 T x) (fun T => sror 18 T x) (fun T => sshr 3 T x).
Definition ssigma1 (T : tbl) (x : sword) := sxor3 T (fun T => sror 17 T x) (fun T => sror 19 T x) (fun T => sshr 10 T x).
Definition sSigma0 (T : tbl) (x : sword) := sxor3 T (fun T => sror 2 T x) (fun T => sror 13 T x) (fun T => sror 22 T x).
Definition sSigma1 (T : tbl) (x : sword) := sxor3 T (fun T => sror 6 T x) (fun T => sror 11 T x) (fun T => sror 25 T x).
Definition sCh (T : tbl) (e f g : sword) : tbl * sword :=
  let (T1, x) := sand T e f in
  let (T2, n) := snot T1 e in
  let (T3, y) := sand T2 n g in
  sxor T3 x y.
Definition sMaj (T : tbl) (a b c : sword) : tbl * sword :=
  sxor3 T (fun T => sand T a b) (fun T => sand T a c) (fun T => sand T b c).

(** ** The compression function, sharing every intermediate word *)
Fixpoint sschedule (n : nat) (T : tbl) (w : list sword) : tbl * list sword :=
  match n with
  | O => (T, w)
  | S n' =>
      let t := length w in
      let (T1, s1) := ssigma1 T (nth (t - 2) w SX) in
      let (T2, x1) := sadd T1 s1 (nth (t - 7) w SX) in
      let (T3, s0) := ssigma0 T2 (nth (t - 15) w SX) in
      let (T4, x2) := sadd T3 x1 s0 in
      let (T5, x3) := sadd T4 x2 (nth (t - 16) w SX) in
      let (T6, x) := share T5 x3 in
      sschedule n' T6 (w ++ [x])
  end.
Definition sround (T : tbl) (st : list sword) (kw : Z * sword) : tbl * list sword :=
  match st with
  | [a; b; c; d; e; f; g; h] =>
      let (T1, S1) := sSigma1 T e in
      let (T2, x1) := sadd T1 h S1 in
      let (T3, ch) := sCh T2 e f g in
      let (T4, x2) := sadd T3 x1 ch in
      let (T5, x3) := sadd T4 x2 (sconst (fst kw)) in
      let (T6, t1) := sadd T5 x3 (snd kw) in
      let (T7, S0) := sSigma0 T6 a in
      let (T8, mj) := sMaj T7 a b c in
      let (T9, t2) := sadd T8 S0 mj in
      let (T10, x4) := sadd T9 t1 t2 in
      let (T11, a') := share T10 x4 in
      let (T12, x5) := sadd T11 d t1 in
      let (T13, e') := share T12 x5 in
      (T13, [a'; a; b; c; e'; e; f; g])
  | _ => (T, [])
  end.
Fixpoint srounds (T : tbl) (st : list sword) (l : list (Z * sword)) : tbl * list sword :=
  match l with
  | [] => (T, st)
  | kw :: r => let (T1, st1) := sround T st kw in srounds T1 st1 r
  end.
Fixpoint sadds (T : tbl) (l : list (sword * sword)) : tbl * list sword :=
  match l with
  | [] => (T, [])
  | (x, y) :: r =>
      let (T1, z) := sadd T x y in
      let (T2, z') := share T1 z in
      let (T3, zs) := sadds T2 r in
      (T3, z' :: zs)
  end.
Definition scompress (T : tbl) (K : list Z) (h m : list sword) : tbl * list sword :=
  let (T1, w) := sschedule 48 T m in
  let (T2, st) := srounds T1 h (combine K w) in
  sadds T2 (combine st h).
