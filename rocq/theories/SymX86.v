(** Symbolic execution of the machine of ModelX86.v. As with SymWord.v, nothing here
    is trusted: LemSymX86.v proves it sound. *)
From Coq Require Import ZArith String List Bool.
From Verif Require Import Base ModelX86.
From Verif Require Import SymWord.
Import ListNotations.
Open Scope list_scope.
Open Scope Z_scope.

(** ** Values *)

(** A 64-bit value: a zero-extended word, an offset from an unknown base, or a
    constant. *)
Inductive sgpr : Type :=
| SW (w : sword)
| SPtr (k : nat) (o : Z)
| SC (c : Z).
(** What is known about four bytes of memory: the word they hold, or the half of the
    64-bit value that they hold. *)
Inductive cell : Type :=
| CD (w : sword)
| CLo (g : sgpr)
| CHi (g : sgpr).
Inductive sflags : Type :=
| FCmp (g : sgpr) (n : Z)
| FTest (g : sgpr).
Inductive jcc : Type := JL | JZ | JB.

(** The memory that a base points to: its size, how much of it, from the
    start, may be written, and a power of two that divides the base. *)
Record region : Type := { rsize : Z; rwr : Z; ralign : Z }.
Definition no_region : region := {| rsize := 0; rwr := 0; ralign := 1 |}.

Record sstate : Type := {
  spc : sgpr;
  sgprs : list sgpr;
  svecs : list (list sword);
  sfl : option sflags;
  smem : list (trie cell);
  stbl : tbl;
  soracle : list bool;
  sconds : list (sflags * jcc * bool)    (* assumed so far *)
}.

Definition geqb (a b : sgpr) : bool :=
  match a, b with
  | SPtr k o, SPtr k' o' => Nat.eqb k k' && (o =? o')
  | SC c, SC c' => c =? c'
  | _, _ => false
  end.

Definition getg (S : sstate) (r : reg) : sgpr := nth r (sgprs S) (SW SX).
Definition getx (S : sstate) (v : vreg) : list sword := nth v (svecs S) [].

Section Exec.
Variable rgs : list region.
Variable labels : list (string * Z).
Variable prog : trie instr.

Definition advance (p : sgpr) : sgpr := match p with SC c => SC (c + 1) | _ => SW SX end.
Definition upd_all (S : sstate) (g : list sgpr) (v : list (list sword)) (f : option sflags)
  (m : list (trie cell)) (T : tbl) : sstate :=
  {| spc := advance (spc S); sgprs := g; svecs := v; sfl := f; smem := m; stbl := T;
     soracle := soracle S; sconds := sconds S |}.
Definition set_g (S : sstate) (T : tbl) (f : option sflags) (r : reg) (x : sgpr) : sstate :=
  upd_all S (upd (sgprs S) r x) (svecs S) f (smem S) T.
Definition set_v (S : sstate) (T : tbl) (v : vreg) (x : list sword) : sstate :=
  upd_all S (sgprs S) (upd (svecs S) v x) (sfl S) (smem S) T.
Definition set_m (S : sstate) (m : list (trie cell)) : sstate :=
  upd_all S (sgprs S) (svecs S) (sfl S) m (stbl S).

Definition goff (g : sgpr) (d : Z) : sgpr :=
  match g with
  | SPtr k o => SPtr k (o + d)
  | SC c => SC (w64 (c + d))
  | SW _ => SW SX
  end.
Definition sea (S : sstate) (a : addr) : option (nat * Z) :=
  match a with
  | Base r d => match getg S r with SPtr k o => Some (k, o + d) | _ => None end
  | Index r s d =>
      match getg S r, getg S s with
      | SPtr k o, SC c => Some (k, o + c + d)
      | _, _ => None
      end
  | Rel s d => if Nat.ltb s 5 then Some (s, d) else None
  end.
Definition rg (k : nat) : region := nth k rgs no_region.
(** [n] bytes at offset [o], doubleword aligned and inside the region *)
Definition in_range (k : nat) (o n : Z) : bool :=
  (0 <=? o) && (o + n <=? rsize (rg k)) && (Z.land o 3 =? 0).
Definition key (o : Z) : positive := Z.to_pos (Z.shiftr o 2 + 1).
Definition mem_at (S : sstate) (k : nat) : trie cell := nth k (smem S) TLeaf.
Definition cell_word (c : option cell) : sword := match c with Some (CD w) => w | _ => SX end.
Fixpoint read_words (n : nat) (t : trie cell) (i : positive) : list sword :=
  match n with O => [] | S n' => cell_word (tget i t) :: read_words n' t (Pos.succ i) end.
Fixpoint write_words (l : list sword) (t : trie cell) (i : positive) : trie cell :=
  match l with [] => t | w :: r => write_words r (tset i (CD w) t) (Pos.succ i) end.
Definition sload (S : sstate) (n : nat) (a : addr) : option (list sword) :=
  match sea S a with
  | Some (k, o) => if in_range k o (4 * Z.of_nat n) then Some (read_words n (mem_at S k) (key o)) else None
  | None => None
  end.
Definition sstore (S : sstate) (l : list sword) (a : addr) : option (list (trie cell)) :=
  match sea S a with
  | Some (k, o) =>
      if in_range k o (4 * Z.of_nat (length l)) && (o + 4 * Z.of_nat (length l) <=? rwr (rg k))
      then Some (upd (smem S) k (write_words l (mem_at S k) (key o)))
      else None
  | None => None
  end.
Definition sload64 (S : sstate) (ko : nat * Z) : option sgpr :=
  let (k, o) := ko in
  if in_range k o 8 then
    let t := mem_at S k in
    match tget (key o) t, tget (Pos.succ (key o)) t with
    | Some (CLo g), Some (CHi g') => if geqb g g' then Some g else None
    | Some (CD w), Some (CD w') =>
        match const_of w, const_of w' with
        | Some c, Some c' => Some (SC (Z.land c full + 4294967296 * Z.land c' full))
        | _, _ => None
        end
    | _, _ => None
    end
  else None.
Definition sstore64 (S : sstate) (ko : nat * Z) (g : sgpr) : option (list (trie cell)) :=
  let (k, o) := ko in
  if in_range k o 8 && (o + 8 <=? rwr (rg k))
  then Some (upd (smem S) k (tset (Pos.succ (key o)) (CHi g) (tset (key o) (CLo g) (mem_at S k))))
  else None.
Definition salign (k : nat) (o n : Z) : bool :=
  (Z.land (ralign (rg k)) (n - 1) =? 0) && (Z.land o (n - 1) =? 0).
Definition salign_ok (vk : vkind) (S : sstate) (a : addr) : bool :=
  match sea S a with
  | Some (k, o) => salign k o (4 * Z.of_nat (dwords vk))
  | None => false
  end.

Definition wlow (g : sgpr) : sword :=
  match g with
  | SW w => w
  | SC c => if (0 <=? c) && (c <? 4294967296) then sconst c else SX
  | SPtr _ _ => SX
  end.
Definition sread32 (S : sstate) (o : op32) : option sword :=
  match o with
  | R32 r => Some (wlow (getg S r))
  | M32 a => match sload S 1 a with Some [w] => Some w | _ => None end
  end.
Definition sreadv (vk : vkind) (S : sstate) (o : opv) : option (list sword) :=
  match o with
  | RV v => Some (getx S v)
  | MV a =>
      match vk with
      | SSE => if salign_ok vk S a then sload S (dwords vk) a else None
      | _ => sload S (dwords vk) a
      end
  end.
Definition salu (op : alu) (T : tbl) (x y : sword) : tbl * sword :=
  match op with
  | MOV => (T, y)
  | ADD => sadd T x y
  | XOR => sxor T x y
  | AND => sand T x y
  | OR => sor T x y
  end.

Fixpoint smap2 (f : tbl -> sword -> sword -> tbl * sword) (T : tbl) (a b : list sword)
  : tbl * list sword :=
  match a, b with
  | x :: a', y :: b' =>
      let (T1, z) := f T x y in
      let (T2, r) := smap2 f T1 a' b' in
      (T2, z :: r)
  | _, _ => (T, [])
  end.
Fixpoint smap (f : tbl -> sword -> tbl * sword) (T : tbl) (a : list sword) : tbl * list sword :=
  match a with
  | x :: a' =>
      let (T1, z) := f T x in
      let (T2, r) := smap f T1 a' in
      (T2, z :: r)
  | _ => (T, [])
  end.
Definition wnth (i : nat) (a : list sword) : sword := nth i a SX.

Fixpoint consts_of (l : list sword) : option (list Z) :=
  match l with
  | [] => Some []
  | w :: r =>
      match const_of w, consts_of r with Some c, Some cs => Some (c :: cs) | _, _ => None end
  end.
(** one doubleword of PSHUFB *)
Definition shuf_byte (a : list sword) (m : Z) : option (sword * Z) :=
  if 128 <=? m then None else Some (wnth (Z.to_nat (Z.shiftr (Z.land m 15) 2)) a, Z.land m 3).
Definition sshuf (a : list sword) (T : tbl) (m : Z) : tbl * sword :=
  sassemble T (map (shuf_byte a) (le_bytes 4 m)).
Fixpoint sshufs (a : list sword) (T : tbl) (ms : list Z) : tbl * list sword :=
  match ms with
  | [] => (T, [])
  | m :: r =>
      let (T1, z) := sshuf a T m in
      let (T2, zs) := sshufs a T1 r in
      (T2, z :: zs)
  end.
Definition spshufb (T : tbl) (a b : list sword) : tbl * list sword :=
  match consts_of b with
  | Some ms => sshufs a T ms
  | None => (T, map (fun _ => SX) b)
  end.
Definition smsg1 (T : tbl) (x y : sword) : tbl * sword :=
  let (T1, s) := ssigma0 T y in sadd T1 x s.
Definition smsg2 (T : tbl) (x y : sword) : tbl * sword :=
  let (T1, s) := ssigma1 T y in sadd T1 x s.
Definition ssha256msg1 (T : tbl) (a b : list sword) : tbl * list sword :=
  let (T1, x0) := smsg1 T (wnth 0 a) (wnth 1 a) in
  let (T2, x1) := smsg1 T1 (wnth 1 a) (wnth 2 a) in
  let (T3, x2) := smsg1 T2 (wnth 2 a) (wnth 3 a) in
  let (T4, x3) := smsg1 T3 (wnth 3 a) (wnth 0 b) in
  (T4, [x0; x1; x2; x3]).
Definition ssha256msg2 (T : tbl) (a b : list sword) : tbl * list sword :=
  let (T1, x0) := smsg2 T (wnth 0 a) (wnth 2 b) in
  let (T2, x1) := smsg2 T1 (wnth 1 a) (wnth 3 b) in
  let (T3, x2) := smsg2 T2 (wnth 2 a) x0 in
  let (T4, x3) := smsg2 T3 (wnth 3 a) x1 in
  (T4, [x0; x1; x2; x3]).
Definition srnd (T : tbl) (s : list sword) (wk : sword) : tbl * list sword :=
  match s with
  | [a; b; c; d; e; f; g; h] =>
      let (T1, ch) := sCh T e f g in
      let (T2, s1) := sSigma1 T1 e in
      let (T3, x1) := sadd T2 ch s1 in
      let (T4, x2) := sadd T3 x1 wk in
      let (T5, t) := sadd T4 x2 h in
      let (T6, mj) := sMaj T5 a b c in
      let (T7, x3) := sadd T6 t mj in
      let (T8, s0) := sSigma0 T7 a in
      let (T9, a') := sadd T8 x3 s0 in
      let (T10, e') := sadd T9 t d in
      (T10, [a'; a; b; c; e'; e; f; g])
  | _ => (T, [])
  end.
Definition ssha256rnds2 (T : tbl) (x1 x2 x0 : list sword) : tbl * list sword :=
  let s := [wnth 3 x2; wnth 2 x2; wnth 3 x1; wnth 2 x1; wnth 1 x2; wnth 0 x2; wnth 1 x1; wnth 0 x1] in
  let (T1, s1) := srnd T s (wnth 0 x0) in
  let (T2, s2) := srnd T1 s1 (wnth 1 x0) in
  (T2, [wnth 5 s2; wnth 4 s2; wnth 1 s2; wnth 0 s2]).

Definition spblendw (i : Z) (a b : list sword) : list sword :=
  map (fun j =>
         let b0 := Z.testbit i (2 * Z.of_nat j) in
         if Bool.eqb b0 (Z.testbit i (2 * Z.of_nat j + 1))
         then if b0 then wnth j b else wnth j a
         else SX) (seq 0 4).
Definition slane_op (op : vop) (T : tbl) (a b : list sword) : tbl * list sword :=
  match op with
  | PADDD => smap2 sadd T a b
  | PXOR => smap2 sxor T a b
  | PAND => smap2 sand T a b
  | POR => smap2 sor T a b
  | PSHUFB => spshufb T a b
  | PALIGNR i =>
      (T, if (Z.land i 3 =? 0) && (0 <=? i) && (i <=? 16)
          then firstn 4 (skipn (Z.to_nat (Z.shiftr i 2)) (b ++ a))
          else map (fun _ => SX) a)
  | SHUFPS i => (T, [wnth (sel2 i 0) a; wnth (sel2 i 1) a; wnth (sel2 i 2) b; wnth (sel2 i 3) b])
  | PBLENDW i => (T, spblendw i a b)
  | SHA256MSG1 => ssha256msg1 T a b
  | SHA256MSG2 => ssha256msg2 T a b
  end.
Definition spsrlq (i : Z) (T : tbl) (l h : sword) : tbl * list sword :=
  match l, h with
  | SX, _ | _, SX => (T, [SX; SX])
  | _, _ =>
      let (T1, x) := sshr i T l in
      let (T2, y) := sshl (32 - i) T1 h in
      let (T3, z) := sxor T2 x y in
      let (T4, u) := sshr i T3 h in
      (T4, [z; u])
  end.
Definition slane_uop (op : vuop) (T : tbl) (a : list sword) : tbl * list sword :=
  match op with
  | PSLLD i => smap (sshl i) T a
  | PSRLD i => smap (sshr i) T a
  | PSRLQ i =>
      let (T1, x) := spsrlq i T (wnth 0 a) (wnth 1 a) in
      let (T2, y) := spsrlq i T1 (wnth 2 a) (wnth 3 a) in
      (T2, x ++ y)
  | PSHUFD i => (T, [wnth (sel2 i 0) a; wnth (sel2 i 1) a; wnth (sel2 i 2) a; wnth (sel2 i 3) a])
  | VMOV => (T, a)
  end.
(** shift counts for which the operations above are right *)
Definition uop_ok (op : vuop) : bool :=
  match op with
  | PSLLD i | PSRLD i | PSRLQ i => (0 <? i) && (i <? 32)
  | _ => true
  end.
Definition slo (a : list sword) : list sword := firstn 4 a.
Definition shi (a : list sword) : list sword := firstn 4 (skipn 4 a).
Definition smerge (vk : vkind) (old x : list sword) : list sword :=
  match vk with
  | V256 => x
  | V128 => x ++ repeat (sconst 0) 4
  | SSE => x ++ shi old
  end.
Definition svbin (vk : vkind) (op : vop) (T : tbl) (a b : list sword) : tbl * list sword :=
  match vk with
  | V256 =>
      let (T1, x) := slane_op op T (slo a) (slo b) in
      let (T2, y) := slane_op op T1 (shi a) (shi b) in
      (T2, x ++ y)
  | _ => slane_op op T (slo a) (slo b)
  end.
Definition svun (vk : vkind) (op : vuop) (T : tbl) (a : list sword) : tbl * list sword :=
  match vk with
  | V256 =>
      let (T1, x) := slane_uop op T (slo a) in
      let (T2, y) := slane_uop op T1 (shi a) in
      (T2, x ++ y)
  | _ => slane_uop op T (slo a)
  end.
Definition shalf (i : Z) (a b : list sword) : list sword :=
  if Z.testbit i 3 then repeat (sconst 0) 4
  else match Z.land i 3 with 0 => slo a | 1 => shi a | 2 => slo b | _ => shi b end.

(** ** Instructions *)
Definition flag_of (j : jcc) (f : flagset) : bool :=
  match j with
  | JL => negb (eqb (ModelX86.sf f) (ModelX86.of f))
  | JZ => zf f
  | JB => cf f
  end.
Fixpoint assoc (l : string) (t : list (string * Z)) : option Z :=
  match t with
  | [] => None
  | (l', p) :: r => if String.eqb l l' then Some p else assoc l r
  end.
Definition set_pc (S : sstate) (p : Z) : sstate :=
  {| spc := SC p; sgprs := sgprs S; svecs := svecs S; sfl := sfl S; smem := smem S;
     stbl := stbl S; soracle := soracle S; sconds := sconds S |}.
Definition sjump (l : string) (S : sstate) : option sstate :=
  option_map (set_pc S) (assoc l labels).
Definition snext (S : sstate) : sstate :=
  upd_all S (sgprs S) (svecs S) (sfl S) (smem S) (stbl S).
Definition assume (S : sstate) (f : sflags) (j : jcc) (b : bool) (o : list bool) : sstate :=
  {| spc := spc S; sgprs := sgprs S; svecs := svecs S; sfl := sfl S; smem := smem S;
     stbl := stbl S; soracle := o; sconds := (f, j, b) :: sconds S |}.
Definition sjump_if (j : jcc) (l : string) (S : sstate) : option sstate :=
  match sfl S with
  | None => None
  | Some f =>
      match f with
      | FCmp (SC c) n =>
          if flag_of j (cmp_flags c n) then sjump l S else Some (snext S)
      | _ =>
          match soracle S with
          | [] => None
          | b :: o =>
              let S' := assume S f j b o in
              if b then sjump l S' else Some (snext S')
          end
      end
  end.
Definition spush (g : sgpr) (S : sstate) : option sstate :=
  match getg S rsp with
  | SPtr k o =>
      option_map (fun m =>
        {| spc := spc S; sgprs := upd (sgprs S) rsp (SPtr k (o - 8)); svecs := svecs S;
           sfl := sfl S; smem := m; stbl := stbl S; soracle := soracle S; sconds := sconds S |})
        (sstore64 S (k, o - 8) g)
  | _ => None
  end.
(** the value at the top of the stack, and the state after removing it *)
Definition spop (S : sstate) : option (sgpr * list sgpr) :=
  match getg S rsp with
  | SPtr k o =>
      match sload64 S (k, o) with
      | Some g => Some (g, upd (sgprs S) rsp (SPtr k (o + 8)))
      | None => None
      end
  | _ => None
  end.
Definition align_mask : Z := 18446744073709551584.
Definition sexec (i : instr) (S : sstate) : option sstate :=
  let T := stbl S in
  match i with
  | IAlu32 op d s =>
      match sread32 S s with
      | Some y =>
          let (T', z) := salu op T (wlow (getg S d)) y in
          Some (set_g S T' (match op with MOV => sfl S | _ => None end) d (SW z))
      | None => None
      end
  | IStore32 a s => option_map (set_m S) (sstore S [wlow (getg S s)] a)
  | IShld32 d s n =>
      if (0 <? n) && (n <? 32) then
        let (T', z) := sshld n T (wlow (getg S d)) (wlow (getg S s)) in
        Some (set_g S T' None d (SW z))
      else None
  | IBswap32 d =>
      let (T', z) := sbswap T (wlow (getg S d)) in
      Some (set_g S T' (sfl S) d (SW z))
  | IPush r => option_map snext (spush (getg S r) S)
  | IPop r =>
      match spop S with
      | Some (g, gs) => Some (upd_all S (upd gs r g) (svecs S) (sfl S) (smem S) T)
      | None => None
      end
  | IMov64 d s => Some (set_g S T (sfl S) d (getg S s))
  | ILoad64 d a =>
      match sea S a with
      | Some ko => option_map (set_g S T (sfl S) d) (sload64 S ko)
      | None => None
      end
  | IStore64 a s =>
      match sea S a with
      | Some ko => option_map (set_m S) (sstore64 S ko (getg S s))
      | None => None
      end
  | IAdd64 d n => Some (set_g S T None d (goff (getg S d) n))
  | ISub64 d n => Some (set_g S T None d (goff (getg S d) (- n)))
  | IXor64 d s => Some (set_g S T None d (if Nat.eqb d s then SC 0 else SW SX))
  | IAnd64 d a =>
      match sea S a with
      | Some ko =>
          match sload64 S ko, getg S d with
          | Some (SC m), SPtr k o =>
              if (m =? align_mask) && (Z.land (ralign (rg k)) 31 =? 0)
              then Some (set_g S T None d (SPtr k (o - Z.land o 31)))
              else None
          | _, _ => None
          end
      | None => None
      end
  | ILea d a =>
      match sea S a with
      | Some (k, o) => Some (set_g S T (sfl S) d (SPtr k o))
      | None => None
      end
  | ICmp64 r n => Some (upd_all S (sgprs S) (svecs S) (Some (FCmp (getg S r) n)) (smem S) T)
  | ITest64 r s =>
      if Nat.eqb r s
      then Some (upd_all S (sgprs S) (svecs S) (Some (FTest (getg S r))) (smem S) T)
      else None
  | IV k op d s1 s2 =>
      match sreadv k S s2 with
      | Some b =>
          let (T', x) := svbin k op T (getx S s1) b in
          Some (set_v S T' d (smerge k (getx S d) x))
      | None => None
      end
  | IVu k op d s =>
      if uop_ok op then
        let (T', x) := svun k op T (getx S s) in
        Some (set_v S T' d (smerge k (getx S d) x))
      else None
  | IVLoad k al d a =>
      if al && negb (salign_ok k S a) then None
      else option_map (fun x => set_v S T d (smerge k (getx S d) x)) (sload S (dwords k) a)
  | IVStore k al a s =>
      if al && negb (salign_ok k S a) then None
      else option_map (set_m S) (sstore S (firstn (dwords k) (getx S s)) a)
  | IVInsert128 d s a i =>
      option_map (fun x => set_v S T d (if Z.testbit i 0 then slo (getx S s) ++ x else x ++ shi (getx S s)))
                 (sload S 4 a)
  | IVPerm2f128 d s1 s2 i =>
      Some (set_v S T d (shalf i (getx S s1) (getx S s2) ++ shalf (Z.shiftr i 4) (getx S s1) (getx S s2)))
  | ISha256rnds2 d s =>
      let (T', x) := ssha256rnds2 T (getx S d) (getx S s) (getx S xmm0) in
      Some (set_v S T' d (smerge SSE (getx S d) x))
  | ILabel _ => Some (snext S)
  | IJmp l => sjump l S
  | IJl l => sjump_if JL l S
  | IJz l => sjump_if JZ l S
  | IJb l => sjump_if JB l S
  | ICall l =>
      match spc S with
      | SC p =>
          if (0 <=? p + 1) && (p + 1 <? 18446744073709551616) then
            match spush (SC (p + 1)) S with
            | Some S' => sjump l S'
            | None => None
            end
          else None
      | _ => None
      end
  | IRet =>
      match spop S with
      | Some (g, gs) =>
          Some {| spc := g; sgprs := gs; svecs := svecs S; sfl := sfl S; smem := smem S;
                  stbl := T; soracle := soracle S; sconds := sconds S |}
      | None => None
      end
  end.

Definition sfetch (p : sgpr) : option instr :=
  match p with
  | SC 0 => tget xH prog
  | SC (Zpos q) => tget (Pos.succ q) prog
  | _ => None
  end.
Definition sstep (S : sstate) : option sstate :=
  match sfetch (spc S) with
  | Some i => sexec i S
  | None => None
  end.
(** The address of the memory operand, and what can be seen of a state (see SpecTime.v). *)
Definition saddr (S : sstate) (a : addr) : list (nat * Z) :=
  match sea S a with Some ko => [ko] | None => [] end.
Definition stop_of (S : sstate) (d : Z) : list (nat * Z) :=
  match getg S rsp with SPtr k o => [(k, o + d)] | _ => [] end.
Definition saccessed (S : sstate) (i : instr) : list (nat * Z) :=
  match i with
  | IAlu32 _ _ (M32 a) | IStore32 a _ | ILoad64 _ a | IStore64 a _ | IAnd64 _ a
  | IV _ _ _ _ (MV a) | IVLoad _ _ _ a | IVStore _ _ a _ | IVInsert128 _ _ a _ => saddr S a
  | IPush _ | ICall _ => stop_of S (-8)
  | IPop _ | IRet => stop_of S 0
  | _ => []
  end.
Definition sobserved (S : sstate) : Z * list (nat * Z) :=
  (match spc S with SC p => p | _ => -1 end,
   match sfetch (spc S) with Some i => saccessed S i | None => [] end).
(** At least one step, until the program counter is [stop] or unknown. *)
Definition stopped (stop : Z) (S : sstate) : bool :=
  match spc S with SC p => p =? stop | _ => true end.
Fixpoint srun (fuel : nat) (stop : Z) (S : sstate) : option (list (Z * list (nat * Z)) * sstate) :=
  match fuel with
  | O => None
  | S n =>
      match sstep S with
      | Some S' =>
          if stopped stop S' then Some ([sobserved S], S')
          else match srun n stop S' with
               | Some (l, S'') => Some (sobserved S :: l, S'')
               | None => None
               end
      | None => None
      end
  end.
End Exec.

(** Vector registers of an instruction exist. *)
Definition vok (v : vreg) : bool := Nat.ltb v 16.
Definition ovok (o : opv) : bool := match o with RV v => vok v | MV _ => true end.
Definition instr_ok (i : instr) : bool :=
  match i with
  | IV _ _ d s1 s2 => vok d && vok s1 && ovok s2
  | IVu _ _ d s => vok d && vok s
  | IVLoad _ _ d _ => vok d
  | IVStore _ _ _ s => vok s
  | IVInsert128 d s _ _ => vok d && vok s
  | IVPerm2f128 d s1 s2 _ => vok d && vok s1 && vok s2
  | ISha256rnds2 d s => vok d && vok s
  | _ => true
  end.

(** The code as a trie, and its labels. *)
Fixpoint mk_prog (c : list instr) (i : positive) (t : trie instr) : trie instr :=
  match c with [] => t | x :: r => mk_prog r (Pos.succ i) (tset i x t) end.
Fixpoint mk_labels (c : list instr) (k : Z) : list (string * Z) :=
  match c with
  | [] => []
  | ILabel l :: r => (l, k) :: mk_labels r (k + 1)
  | _ :: r => mk_labels r (k + 1)
  end.
(** Memory that holds the given words. *)
Fixpoint mk_mem (ws : list Z) (i : positive) (t : trie cell) : trie cell :=
  match ws with [] => t | w :: r => mk_mem r (Pos.succ i) (tset i (CD (sconst w)) t) end.
