(** The part of the x86-64 instruction set that the assembly of /repo/ssz uses
    (SSE, AVX, AVX2 and SHA instructions, System V ABI), after the Intel 64
    Software Developer's Manual, volume 2.

    General registers hold integers in [0, 2^64), vector registers hold eight
    doublewords (ymm; the first four are the xmm register), memory is a function
    from addresses to bytes. A memory access that the parameters [readable] and
    [writable] do not allow, an unaligned access where alignment is required, a
    conditional jump on undefined flags and an address outside the code stop the
    machine ([step] is [None]). *)
From Coq Require Import ZArith String List Bool.
From Verif Require Import Base.
Import ListNotations.
Open Scope Z_scope.

(** ** Integers *)
Definition w32 (x : Z) : Z := x mod 2 ^ 32.
Definition w64 (x : Z) : Z := x mod 2 ^ 64.
Definition add32 (x y : Z) : Z := w32 (x + y).
Definition shl32 (x : Z) (n : Z) : Z := w32 (Z.shiftl x n).
Definition shr32 (x : Z) (n : Z) : Z := Z.shiftr x n.
Definition ror32 (x : Z) (n : Z) : Z := Z.lor (shr32 x n) (shl32 x (32 - n)).
Definition not32 (x : Z) : Z := Z.lxor x (2 ^ 32 - 1).

(** ** Registers *)
Definition reg : Type := nat.
Definition rax : reg := 0%nat.
Definition rcx : reg := 1%nat.
Definition rdx : reg := 2%nat.
Definition rbx : reg := 3%nat.
Definition rsp : reg := 4%nat.
Definition rbp : reg := 5%nat.
Definition rsi : reg := 6%nat.
Definition rdi : reg := 7%nat.
Definition r8 : reg := 8%nat.
Definition r9 : reg := 9%nat.
Definition r10 : reg := 10%nat.
Definition r11 : reg := 11%nat.
Definition r12 : reg := 12%nat.
Definition r13 : reg := 13%nat.
Definition r14 : reg := 14%nat.
Definition r15 : reg := 15%nat.
Definition vreg : Type := nat.
(** [xmmN] and [ymmN] name the same register; the instruction says how much of it is meant. *)
Definition xmm0 : vreg := 0%nat.
Definition xmm1 : vreg := 1%nat.
Definition xmm2 : vreg := 2%nat.
Definition xmm3 : vreg := 3%nat.
Definition xmm4 : vreg := 4%nat.
Definition xmm5 : vreg := 5%nat.
Definition xmm6 : vreg := 6%nat.
Definition xmm7 : vreg := 7%nat.
Definition xmm8 : vreg := 8%nat.
Definition xmm9 : vreg := 9%nat.
Definition xmm10 : vreg := 10%nat.
Definition xmm11 : vreg := 11%nat.
Definition xmm12 : vreg := 12%nat.
Definition xmm13 : vreg := 13%nat.
Definition xmm14 : vreg := 14%nat.
Definition xmm15 : vreg := 15%nat.

(** ** Operands *)

(** [Base r d] is [r + d], [Index r s d] is [r + s + d], [Rel s d] is
    [rel label + ...] with the label resolved to an offset in section [s]. *)
Inductive addr : Type :=
| Base (r : reg) (d : Z)
| Index (r s : reg) (d : Z)
| Rel (s : nat) (d : Z).
Inductive op32 : Type := R32 (r : reg) | M32 (a : addr).
Inductive opv : Type := RV (v : vreg) | MV (a : addr).

(** ** Instructions *)
Inductive alu : Type := MOV | ADD | XOR | AND | OR.
(** Encoding of a vector instruction: VEX.128, VEX.256, or legacy SSE. *)
Inductive vkind : Type := V128 | V256 | SSE.
(** Two sources; each 128-bit lane is computed separately. *)
Inductive vop : Type :=
| PADDD | PXOR | PAND | POR | PSHUFB
| PALIGNR (i : Z) | SHUFPS (i : Z) | PBLENDW (i : Z)
| SHA256MSG1 | SHA256MSG2.
(** One source and an immediate. *)
Inductive vuop : Type := PSLLD (i : Z) | PSRLD (i : Z) | PSRLQ (i : Z) | PSHUFD (i : Z) | VMOV.

Inductive instr : Type :=
(* 32-bit; the upper half of the destination is cleared *)
| IAlu32 (op : alu) (d : reg) (s : op32)
| IStore32 (a : addr) (s : reg)
| IShld32 (d s : reg) (n : Z)
| IBswap32 (d : reg)
(* 64-bit *)
| IPush (r : reg)
| IPop (r : reg)
| IMov64 (d s : reg)
| ILoad64 (d : reg) (a : addr)
| IStore64 (a : addr) (s : reg)
| IAdd64 (d : reg) (n : Z)
| ISub64 (d : reg) (n : Z)
| IXor64 (d s : reg)
| IAnd64 (d : reg) (a : addr)
| ILea (d : reg) (a : addr)
| ICmp64 (r : reg) (n : Z)
| ITest64 (r s : reg)
(* vectors *)
| IV (k : vkind) (op : vop) (d s1 : vreg) (s2 : opv)
| IVu (k : vkind) (op : vuop) (d s : vreg)
| IVLoad (k : vkind) (aligned : bool) (d : vreg) (a : addr)
| IVStore (k : vkind) (aligned : bool) (a : addr) (s : vreg)
| IVInsert128 (d s : vreg) (a : addr) (i : Z)
| IVPerm2f128 (d s1 s2 : vreg) (i : Z)
| ISha256rnds2 (d s : vreg)
(* control; labels take no space in the real code *)
| ILabel (l : string)
| IJmp (l : string)
| IJl (l : string)
| IJz (l : string)
| IJb (l : string)
| ICall (l : string)
| IRet.

(** ** States *)
Record flagset : Type := { zf : bool; sf : bool; cf : bool; of : bool }.
Record state : Type := {
  pc : Z;
  gpr : list Z;
  ymm : list (list Z);
  flags : option flagset;     (* None: undefined or not modelled *)
  mem : Z -> Z
}.
Definition getr (st : state) (r : reg) : Z := nth r (gpr st) 0.
Definition getv (st : state) (v : vreg) : list Z := nth v (ymm st) [].
Definition setr (r : reg) (x : Z) (st : state) : state :=
  {| pc := pc st; gpr := upd (gpr st) r x; ymm := ymm st; flags := flags st; mem := mem st |}.
Definition setv (v : vreg) (x : list Z) (st : state) : state :=
  {| pc := pc st; gpr := gpr st; ymm := upd (ymm st) v x; flags := flags st; mem := mem st |}.
Definition setf (f : option flagset) (st : state) : state :=
  {| pc := pc st; gpr := gpr st; ymm := ymm st; flags := f; mem := mem st |}.
Definition setm (m : Z -> Z) (st : state) : state :=
  {| pc := pc st; gpr := gpr st; ymm := ymm st; flags := flags st; mem := m |}.
Definition setpc (p : Z) (st : state) : state :=
  {| pc := p; gpr := gpr st; ymm := ymm st; flags := flags st; mem := mem st |}.
(** to the next instruction *)
Definition next (st : state) : state := setpc (pc st + 1) st.

(** ** Vector operations *)

Definition to_bytes (l : list Z) : list Z := flat_map (le_bytes 4) l.
Fixpoint of_bytes (n : nat) (l : list Z) : list Z :=
  match n with
  | O => []
  | S n' => le_val (firstn 4 l) :: of_bytes n' (skipn 4 l)
  end.
Definition map2 {A B C} (f : A -> B -> C) (a : list A) (b : list B) : list C :=
  map (fun p : A * B => f (fst p) (snd p)) (combine a b).
(** two bits of an immediate *)
Definition sel2 (i k : Z) : nat := Z.to_nat (Z.land (Z.shiftr i (2 * k)) 3).

Definition xsigma0 (x : Z) : Z := Z.lxor (Z.lxor (ror32 x 7) (ror32 x 18)) (shr32 x 3).
Definition xsigma1 (x : Z) : Z := Z.lxor (Z.lxor (ror32 x 17) (ror32 x 19)) (shr32 x 10).
Definition xSigma0 (x : Z) : Z := Z.lxor (Z.lxor (ror32 x 2) (ror32 x 13)) (ror32 x 22).
Definition xSigma1 (x : Z) : Z := Z.lxor (Z.lxor (ror32 x 6) (ror32 x 11)) (ror32 x 25).
Definition xCh (e f g : Z) : Z := Z.lxor (Z.land e f) (Z.land (not32 e) g).
Definition xMaj (a b c : Z) : Z := Z.lxor (Z.lxor (Z.land a b) (Z.land a c)) (Z.land b c).

(** PSHUFB on one lane: byte i of the result is byte (mask i mod 16) of the
    source, or 0 when bit 7 of the mask byte is set. *)
Definition pshufb (a mask : list Z) : list Z :=
  let src := to_bytes a in
  of_bytes 4 (map (fun m => if 128 <=? m then 0 else nth (Z.to_nat (m mod 16)) src 0)
                  (to_bytes mask)).
(** PALIGNR: bytes i.. of the concatenation, second source low. *)
Definition palignr (i : Z) (a b : list Z) : list Z :=
  of_bytes 4 (firstn 16 (skipn (Z.to_nat i) (to_bytes b ++ to_bytes a ++ repeat 0 16))).
Definition shufps (i : Z) (a b : list Z) : list Z :=
  [nth (sel2 i 0) a 0; nth (sel2 i 1) a 0; nth (sel2 i 2) b 0; nth (sel2 i 3) b 0].
(** PBLENDW: 16-bit word j from the second source when bit j of the immediate is set. *)
Definition pblendw (i : Z) (a b : list Z) : list Z :=
  of_bytes 4 (map (fun j => if Z.testbit i (Z.of_nat (Nat.div j 2)) then nth j (to_bytes b) 0
                            else nth j (to_bytes a) 0) (seq 0 16)).
Definition sha256msg1 (a b : list Z) : list Z :=
  [add32 (nth 0 a 0) (xsigma0 (nth 1 a 0)); add32 (nth 1 a 0) (xsigma0 (nth 2 a 0));
   add32 (nth 2 a 0) (xsigma0 (nth 3 a 0)); add32 (nth 3 a 0) (xsigma0 (nth 0 b 0))].
Definition sha256msg2 (a b : list Z) : list Z :=
  let w16 := add32 (nth 0 a 0) (xsigma1 (nth 2 b 0)) in
  let w17 := add32 (nth 1 a 0) (xsigma1 (nth 3 b 0)) in
  let w18 := add32 (nth 2 a 0) (xsigma1 w16) in
  let w19 := add32 (nth 3 a 0) (xsigma1 w17) in
  [w16; w17; w18; w19].
(** One of the two rounds of SHA256RNDS2, on (A, B, C, D, E, F, G, H). *)
Definition rnd (s : Z * Z * Z * Z * Z * Z * Z * Z) (wk : Z) : Z * Z * Z * Z * Z * Z * Z * Z :=
  let '(a, b, c, d, e, f, g, h) := s in
  let t := add32 (add32 (add32 (xCh e f g) (xSigma1 e)) wk) h in
  (add32 (add32 t (xMaj a b c)) (xSigma0 a), a, b, c, add32 t d, e, f, g).
Definition sha256rnds2 (x1 x2 x0 : list Z) : list Z :=
  let s := (nth 3 x2 0, nth 2 x2 0, nth 3 x1 0, nth 2 x1 0,
            nth 1 x2 0, nth 0 x2 0, nth 1 x1 0, nth 0 x1 0) in
  let '(a, b, _, _, e, f, _, _) := rnd (rnd s (nth 0 x0 0)) (nth 1 x0 0) in
  [f; e; b; a].

Definition lane_op (op : vop) (a b : list Z) : list Z :=
  match op with
  | PADDD => map2 add32 a b
  | PXOR => map2 Z.lxor a b
  | PAND => map2 Z.land a b
  | POR => map2 Z.lor a b
  | PSHUFB => pshufb a b
  | PALIGNR i => palignr i a b
  | SHUFPS i => shufps i a b
  | PBLENDW i => pblendw i a b
  | SHA256MSG1 => sha256msg1 a b
  | SHA256MSG2 => sha256msg2 a b
  end.
Definition psrlq (i : Z) (a : list Z) : list Z :=
  let q j := Z.shiftr (nth (2 * j) a 0 + 2 ^ 32 * nth (2 * j + 1) a 0) i in
  [w32 (q 0%nat); w32 (Z.shiftr (q 0%nat) 32); w32 (q 1%nat); w32 (Z.shiftr (q 1%nat) 32)].
Definition lane_uop (op : vuop) (a : list Z) : list Z :=
  match op with
  | PSLLD i => map (fun x => shl32 x i) a
  | PSRLD i => map (fun x => shr32 x i) a
  | PSRLQ i => psrlq i a
  | PSHUFD i => [nth (sel2 i 0) a 0; nth (sel2 i 1) a 0; nth (sel2 i 2) a 0; nth (sel2 i 3) a 0]
  | VMOV => a
  end.
(** number of doublewords of an operand *)
Definition dwords (k : vkind) : nat := match k with V256 => 8 | _ => 4 end.
Definition lo (a : list Z) : list Z := firstn 4 a.
Definition hi (a : list Z) : list Z := firstn 4 (skipn 4 a).
(** What a destination register holds after the instruction wrote [x]: VEX.128
    clears the upper half of the ymm register, legacy SSE keeps it. *)
Definition merge (k : vkind) (old x : list Z) : list Z :=
  match k with
  | V256 => x
  | V128 => x ++ repeat 0 4
  | SSE => x ++ hi old
  end.
Definition vbin (k : vkind) (op : vop) (a b : list Z) : list Z :=
  match k with
  | V256 => lane_op op (lo a) (lo b) ++ lane_op op (hi a) (hi b)
  | _ => lane_op op (lo a) (lo b)
  end.
Definition vun (k : vkind) (op : vuop) (a : list Z) : list Z :=
  match k with
  | V256 => lane_uop op (lo a) ++ lane_uop op (hi a)
  | _ => lane_uop op (lo a)
  end.
(** VPERM2F128: each half of the result is one of the four halves, or zero. *)
Definition half (i : Z) (a b : list Z) : list Z :=
  if Z.testbit i 3 then repeat 0 4
  else match Z.land i 3 with 0 => lo a | 1 => hi a | 2 => lo b | _ => hi b end.

(** ** Execution *)
Section Machine.
(** Which addresses may be read and written. *)
Variables readable writable : Z -> bool.
(** Addresses of the data sections. *)
Variable sect : nat -> Z.
(** The code; the address of an instruction is its index. *)
Variable code : list instr.

Fixpoint find_label (l : string) (c : list instr) (k : Z) : option Z :=
  match c with
  | [] => None
  | ILabel l' :: r => if String.eqb l l' then Some k else find_label l r (k + 1)
  | _ :: r => find_label l r (k + 1)
  end.

Definition obind {A B} (x : option A) (f : A -> option B) : option B :=
  match x with Some a => f a | None => None end.

Definition ea (st : state) (a : addr) : Z :=
  match a with
  | Base r d => w64 (getr st r + d)
  | Index r s d => w64 (getr st r + getr st s + d)
  | Rel s d => w64 (sect s + d)
  end.

(** [n] bytes at [a] *)
Definition addrs (a : Z) (n : nat) : list Z := map (fun i => w64 (a + Z.of_nat i)) (seq 0 n).
Definition load (m : Z -> Z) (a : Z) (n : nat) : option (list Z) :=
  if forallb readable (addrs a n) then Some (map m (addrs a n)) else None.
Definition load_int (m : Z -> Z) (a : Z) (n : nat) : option Z := option_map le_val (load m a n).
Definition put (m : Z -> Z) (a : Z) (bs : list Z) : Z -> Z := fun x =>
  let k := w64 (x - a) in
  if (0 <=? x) && (x <? 2 ^ 64) && (k <? zlen bs) then nth (Z.to_nat k) bs 0 else m x.
Definition store (m : Z -> Z) (a : Z) (bs : list Z) : option (Z -> Z) :=
  if forallb writable (addrs a (length bs)) then Some (put m a bs) else None.

Definition load_vec (k : vkind) (m : Z -> Z) (a : Z) : option (list Z) :=
  option_map (of_bytes (dwords k)) (load m a (4 * dwords k)).
Definition aligned_ok (k : vkind) (a : Z) : bool := a mod (4 * Z.of_nat (dwords k)) =? 0.

Definition read32 (st : state) (o : op32) : option Z :=
  match o with
  | R32 r => Some (w32 (getr st r))
  | M32 a => load_int (mem st) (ea st a) 4
  end.
(** Second source of a vector instruction; legacy SSE instructions require their
    memory operand to be aligned. *)
Definition readv (k : vkind) (st : state) (o : opv) : option (list Z) :=
  match o with
  | RV v => Some (getv st v)
  | MV a =>
      let p := ea st a in
      match k with
      | SSE => if aligned_ok k p then load_vec k (mem st) p else None
      | _ => load_vec k (mem st) p
      end
  end.
Definition alu32 (op : alu) (x y : Z) : Z :=
  match op with
  | MOV => y
  | ADD => add32 x y
  | XOR => Z.lxor x y
  | AND => Z.land x y
  | OR => Z.lor x y
  end.
Definition alu_flags (op : alu) (f : option flagset) : option flagset :=
  match op with MOV => f | _ => None end.

(** flags of [x - y] *)
Definition cmp_flags (x y : Z) : flagset :=
  let r := w64 (x - y) in
  let neg z := 2 ^ 63 <=? z in
  {| zf := r =? 0; sf := neg r; cf := x <? y;
     of := negb (eqb (neg x) (neg y)) && negb (eqb (neg r) (neg x)) |}.
(** flags of [x & y] *)
Definition test_flags (x y : Z) : flagset :=
  let r := Z.land x y in {| zf := r =? 0; sf := 2 ^ 63 <=? r; cf := false; of := false |}.

Definition jump (l : string) (st : state) : option state :=
  option_map (fun p => setpc p st) (find_label l code 0).
Definition jump_if (f : flagset -> bool) (l : string) (st : state) : option state :=
  obind (flags st) (fun fl => if f fl then jump l st else Some (next st)).
Definition push (x : Z) (st : state) : option state :=
  let p := w64 (getr st rsp - 8) in
  obind (store (mem st) p (le_bytes 8 x)) (fun m => Some (setr rsp p (setm m st))).

Definition exec (i : instr) (st : state) : option state :=
  match i with
  | IAlu32 op d s =>
      obind (read32 st s) (fun y =>
        Some (next (setf (alu_flags op (flags st)) (setr d (alu32 op (w32 (getr st d)) y) st))))
  | IStore32 a s =>
      obind (store (mem st) (ea st a) (le_bytes 4 (getr st s))) (fun m => Some (next (setm m st)))
  | IShld32 d s n =>
      (* 0 < n < 32 *)
      Some (next (setf None (setr d (Z.lor (shl32 (w32 (getr st d)) n)
                                           (shr32 (w32 (getr st s)) (32 - n))) st)))
  | IBswap32 d => Some (next (setr d (le_val (rev (le_bytes 4 (getr st d)))) st))
  | IPush r => obind (push (getr st r) st) (fun st' => Some (next st'))
  | IPop r =>
      obind (load_int (mem st) (getr st rsp) 8) (fun x =>
        Some (next (setr r x (setr rsp (w64 (getr st rsp + 8)) st))))
  | IMov64 d s => Some (next (setr d (getr st s) st))
  | ILoad64 d a => obind (load_int (mem st) (ea st a) 8) (fun x => Some (next (setr d x st)))
  | IStore64 a s =>
      obind (store (mem st) (ea st a) (le_bytes 8 (getr st s))) (fun m => Some (next (setm m st)))
  | IAdd64 d n => Some (next (setf None (setr d (w64 (getr st d + n)) st)))
  | ISub64 d n => Some (next (setf None (setr d (w64 (getr st d - n)) st)))
  | IXor64 d s => Some (next (setf None (setr d (Z.lxor (getr st d) (getr st s)) st)))
  | IAnd64 d a =>
      obind (load_int (mem st) (ea st a) 8) (fun y =>
        Some (next (setf None (setr d (Z.land (getr st d) y) st))))
  | ILea d a => Some (next (setr d (ea st a) st))
  | ICmp64 r n => Some (next (setf (Some (cmp_flags (getr st r) n)) st))
  | ITest64 r s => Some (next (setf (Some (test_flags (getr st r) (getr st s))) st))
  | IV k op d s1 s2 =>
      obind (readv k st s2) (fun b =>
        Some (next (setv d (merge k (getv st d) (vbin k op (getv st s1) b)) st)))
  | IVu k op d s => Some (next (setv d (merge k (getv st d) (vun k op (getv st s))) st))
  | IVLoad k al d a =>
      let p := ea st a in
      if al && negb (aligned_ok k p) then None
      else obind (load_vec k (mem st) p) (fun x => Some (next (setv d (merge k (getv st d) x) st)))
  | IVStore k al a s =>
      let p := ea st a in
      if al && negb (aligned_ok k p) then None
      else obind (store (mem st) p (to_bytes (firstn (dwords k) (getv st s)))) (fun m =>
             Some (next (setm m st)))
  | IVInsert128 d s a i =>
      obind (load_vec V128 (mem st) (ea st a)) (fun x =>
        Some (next (setv d (if Z.testbit i 0 then lo (getv st s) ++ x else x ++ hi (getv st s)) st)))
  | IVPerm2f128 d s1 s2 i =>
      Some (next (setv d (half i (getv st s1) (getv st s2)
                          ++ half (Z.shiftr i 4) (getv st s1) (getv st s2)) st))
  | ISha256rnds2 d s =>
      Some (next (setv d (merge SSE (getv st d)
        (sha256rnds2 (getv st d) (getv st s) (getv st xmm0))) st))
  | ILabel _ => Some (next st)
  | IJmp l => jump l st
  | IJl l => jump_if (fun f => negb (eqb (sf f) (of f))) l st
  | IJz l => jump_if zf l st
  | IJb l => jump_if cf l st
  | ICall l => obind (push (pc st + 1) st) (jump l)
  | IRet =>
      obind (load_int (mem st) (getr st rsp) 8) (fun x =>
        Some (setpc x (setr rsp (w64 (getr st rsp + 8)) st)))
  end.

Definition fetch (p : Z) : option instr :=
  if 0 <=? p then nth_error code (Z.to_nat p) else None.
Definition step (st : state) : option state :=
  obind (fetch (pc st)) (fun i => exec i st).

(** [n] steps *)
Fixpoint steps (n : nat) (st : state) : option state :=
  match n with
  | O => Some st
  | S n' => obind (step st) (steps n')
  end.
End Machine.
