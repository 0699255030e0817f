(** The fragments of the assembly routines, between the places where the block count
    decides how to go on, and the checks that each computes SHA-256. As with
    SymFrag.v, nothing here is trusted. *)
From Coq Require Import ZArith String List Bool.
From Verif Require Import Base SpecSha ModelX86 ModelAsm ModelAsm1 ModelAsm4 ModelAsm8 ModelAsmNi ModelImage SymWord LemSymWord SymX86 SymFrag.
Import ListNotations.
Open Scope list_scope.
Open Scope Z_scope.

(** Bases: the data sections (0 to 4), input (5), output (6), stack (7), block count
    (8), return address (9), rbx, rbp, r12, r13, r14 and r15 (10 to 15), and the contents of rbx or rdx
    where they matter only to be saved (16). *)
Definition section_rg (consts scratch : list nat) (s : nat) : region :=
  let l := 4 * zlen (words_of (nth s sections [])) in
  if existsb (Nat.eqb s) consts then {| rsize := l; rwr := 0; ralign := 64 |}
  else if existsb (Nat.eqb s) scratch then {| rsize := l; rwr := l; ralign := 64 |}
  else no_region.
Definition std_rgs (consts scratch : list nat) (b : Z) (stack : region) : list region :=
  map (section_rg consts scratch) (seq 0 5)
  ++ [{| rsize := 64 * b; rwr := 0; ralign := 1 |};
      {| rsize := 32 * b; rwr := 32 * b; ralign := 1 |};
      stack].

(** A point in a routine: program counter, registers and saved values on the stack. *)
Record point : Type := {
  p_pc : sgpr;
  p_gpr : list sgpr;
  p_xmm8 : list sword;
  p_saved : list (Z * sgpr) }.
Definition p_vec (p : point) : list (list sword) := upd (repeat anyv 16) 8 (p_xmm8 p).
Definition saved_cells (l : list (Z * sgpr)) : cells :=
  flat_map (fun x : Z * sgpr => gpr_cells 7 (fst x) (snd x)) l.
Record piece : Type := {
  q_range : nat * nat;
  q_consts : list nat;
  q_scratch : list nat;
  q_stack : region;
  q_blocks : nat;
  q_from : point;
  q_to : point;
  q_conds : list (sflags * jcc * bool);
  q_code : list (Z * Z) }.
Definition pc_of (g : sgpr) : Z := match g with SC c => c | _ => -1 end.
Definition piece_frag (q : piece) : frag :=
  {| f_range := q_range q;
     f_entry := pc_of (p_pc (q_from q));
     f_stop := pc_of (p_pc (q_to q));
     f_rgs := std_rgs (q_consts q) (q_scratch q) (Z.of_nat (q_blocks q)) (q_stack q);
     f_gpr := p_gpr (q_from q);
     f_vec := p_vec (q_from q);
     f_cells := flat_map section_cells (q_consts q)
                ++ word_cells 5 1 (atoms (16 * q_blocks q) 1)
                ++ saved_cells (p_saved (q_from q));
     f_blocks := q_blocks q;
     f_oracle := map snd (q_conds q);
     f_code := q_code q;
     f_pc' := p_pc (q_to q);
     f_gpr' := p_gpr (q_to q);
     f_vec' := p_vec (q_to q);
     f_cells' := saved_cells (p_saved (q_to q));
     f_conds := q_conds q |}.

Definition label (l : string) : Z := match find_label l image 0 with Some p => p | None => -1 end.

(** The code a routine runs: its own and that of the routines it calls. *)
Definition range_1 : nat * nat := (0%nat, length code_1).
Definition range_4 : nat * nat := (0%nat, length (code_1 ++ code_4)).
Definition range_8 : nat * nat := (0%nat, length (code_1 ++ code_4 ++ code_8)).
Definition range_ni : nat * nat := (length (code_1 ++ code_4 ++ code_8), length code_ni).

(** ** sha256_1_avx *)
(** registers: rdx, rbx, rsp, rsi, rdi *)
Definition regs (dx bx sp si di : sgpr) : list sgpr :=
  [any; any; dx; bx; sp; SPtr 11 0; si; di; any; any; any; any;
   SPtr 12 0; SPtr 13 0; SPtr 14 0; SPtr 15 0].
Definition avx1 : piece :=
  {| q_range := range_1; q_consts := [0%nat]; q_scratch := []; q_stack := {| rsize := 128; rwr := 120; ralign := 16 |};
     q_blocks := 1;
     q_from := {| p_pc := SC (label "sha256_1_avx");
                  p_gpr := regs (SPtr 16 0) (SPtr 10 0) (SPtr 7 120) (SPtr 5 0) (SPtr 6 0);
                  p_xmm8 := anyv; p_saved := [(120, SPtr 9 0)] |};
     q_to := {| p_pc := SPtr 9 0;
                p_gpr := regs any (SPtr 10 0) (SPtr 7 128) (SPtr 5 0) (SPtr 6 0);
                p_xmm8 := anyv; p_saved := [] |};
     q_conds := []; q_code := [(0, 4055)] |}.

(** ** sha256_4_avx *)
Definition stack4 : region := {| rsize := 544; rwr := 536; ralign := 16 |}.
Definition saved4 : list (Z * sgpr) := [(512, SPtr 10 0); (536, SPtr 9 0)].
Definition piece4 (b : nat) (from to : point) (conds : list (sflags * jcc * bool))
    (code : list (Z * Z)) : piece :=
  {| q_range := range_4; q_consts := [0%nat; 1%nat]; q_scratch := []; q_stack := stack4; q_blocks := b;
     q_from := from; q_to := to; q_conds := conds; q_code := code |}.
(** in a loop, [b] blocks after the input and output bases, with [bx] in rbx *)
Definition at4 (l : string) (bx : sgpr) (b : Z) : point :=
  {| p_pc := SC (label l);
     p_gpr := regs (SPtr 8 (- b)) bx (SPtr 7 128) (SPtr 5 (64 * b)) (SPtr 6 (32 * b));
     p_xmm8 := anyv; p_saved := saved4 |}.
Definition entry4 : point :=
  {| p_pc := SC (label "sha256_4_avx");
     p_gpr := regs (SPtr 8 0) (SPtr 10 0) (SPtr 7 536) (SPtr 5 0) (SPtr 6 0);
     p_xmm8 := anyv; p_saved := [(536, SPtr 9 0)] |}.
Definition exit4 : point :=
  {| p_pc := SPtr 9 0; p_gpr := regs any (SPtr 10 0) (SPtr 7 544) any any;
     p_xmm8 := anyv; p_saved := [] |}.
Definition avx4_start : piece := piece4 0 entry4 (at4 "sha256_4_avx.hash_4_blocks" any 0) []
    [(4055, 3)].
Definition avx4_four : piece :=
  piece4 4 (at4 "sha256_4_avx.hash_4_blocks" (SPtr 16 0) 0) (at4 "sha256_4_avx.hash_4_blocks" any 4)
    [(FCmp (SPtr 8 0) 4, JL, false)]
    [(4058, 1702); (4749, 1011); (4749, 3445)].
Definition avx4_few : piece :=
  piece4 0 (at4 "sha256_4_avx.hash_4_blocks" (SPtr 16 0) 0) (at4 "sha256_4_avx.hash_1_block" any 0)
    [(FCmp (SPtr 8 0) 4, JL, true)]
    [(4058, 3)].
Definition avx4_one : piece :=
  piece4 1 (at4 "sha256_4_avx.hash_1_block" (SPtr 16 0) 0) (at4 "sha256_4_avx.hash_1_block" any 1)
    [(FTest (SPtr 8 0), JZ, false)]
    [(8194, 4); (0, 4055); (8198, 4)].
Definition avx4_end : piece :=
  piece4 0 (at4 "sha256_4_avx.hash_1_block" (SPtr 16 0) 0) exit4 [(FTest (SPtr 8 0), JZ, true)]
    [(8194, 3); (8202, 4)].

(** ** sha256_8_avx2

    The stack base is 544 bytes (a call of sha256_4_avx) below the frame, which is
    aligned to 32 bytes; [a], 0 or 16, is what the alignment skips. *)
Definition stack8 (a : Z) : region := {| rsize := 1712 + a; rwr := 1704 + a; ralign := 32 |}.
Definition saved8 (a : Z) : list (Z * sgpr) :=
  [(544 + 896, SPtr 12 0); (544 + 960, SPtr 13 0); (544 + 1024, SPtr 14 0); (544 + 1088, SPtr 15 0);
   (1696 + a, SPtr 11 0); (1704 + a, SPtr 9 0)].
Definition regs8 (a : Z) (dx sp si di : sgpr) : list sgpr :=
  [any; any; dx; SPtr 10 0; sp; SPtr 7 (1696 + a); si; di; any; any; any; any;
   any; any; any; any].
Definition piece8 (a : Z) (b : nat) (from to : point) (conds : list (sflags * jcc * bool))
    (code : list (Z * Z)) : piece :=
  {| q_range := range_8; q_consts := [0%nat; 1%nat; 2%nat]; q_scratch := []; q_stack := stack8 a; q_blocks := b;
     q_from := from; q_to := to; q_conds := conds; q_code := code |}.
Definition entry8 (a : Z) : point :=
  {| p_pc := SC (label "sha256_8_avx2");
     p_gpr := regs (SPtr 8 0) (SPtr 10 0) (SPtr 7 (1704 + a)) (SPtr 5 0) (SPtr 6 0);
     p_xmm8 := anyv; p_saved := [(1704 + a, SPtr 9 0)] |}.
Definition at8 (a : Z) (b : Z) : point :=
  {| p_pc := SC (label "sha256_8_avx2.hash_8_blocks");
     p_gpr := regs8 a (SPtr 8 (- b)) (SPtr 7 544) (SPtr 5 (64 * b)) (SPtr 6 (32 * b));
     p_xmm8 := anyv; p_saved := saved8 a |}.
(** the call of sha256_4_avx and its return *)
Definition back8 : Z := label "sha256_8_avx2.hash_4_blocks" + 2.
Definition call8 (a : Z) : point :=
  {| p_pc := SC (label "sha256_4_avx");
     p_gpr := regs8 a (SPtr 8 0) (SPtr 7 536) (SPtr 5 0) (SPtr 6 0);
     p_xmm8 := anyv; p_saved := (536, SC back8) :: saved8 a |}.
Definition return8 (a : Z) : point :=
  {| p_pc := SC back8;
     p_gpr := regs8 a any (SPtr 7 544) any any;
     p_xmm8 := anyv; p_saved := saved8 a |}.
Definition exit8 (a : Z) : point :=
  {| p_pc := SPtr 9 0; p_gpr := regs any (SPtr 10 0) (SPtr 7 (1712 + a)) any any;
     p_xmm8 := anyv; p_saved := [] |}.
Definition avx8_start (a : Z) : piece := piece8 a 0 (entry8 a) (at8 a 0) []
    [(8206, 9)].
Definition avx8_eight (a : Z) : piece := piece8 a 8 (at8 a 0) (at8 a 8) [(FCmp (SPtr 8 0) 8, JL, false)]
    [(8215, 1740); (8944, 1011); (8944, 3453)].
Definition avx8_few (a : Z) : piece := piece8 a 0 (at8 a 0) (call8 a) [(FCmp (SPtr 8 0) 8, JL, true)]
    [(8215, 3); (12397, 2)].
Definition avx8_end (a : Z) : piece := piece8 a 0 (return8 a) (exit8 a) []
    [(12399, 7)].

(** ** sha256_shani *)
Definition stack_ni : region := {| rsize := 8; rwr := 0; ralign := 8 |}.
Definition flip : list sword := map sconst [66051; 67438087; 134810123; 202182159] ++ repeat SX 4.
Definition regs_ni (ax cx dx sp si di : sgpr) : list sgpr :=
  [ax; cx; dx; SPtr 10 0; sp; SPtr 11 0; si; di; any; any; any; any;
   SPtr 12 0; SPtr 13 0; SPtr 14 0; SPtr 15 0].
Definition piece_ni (b : nat) (from to : point) (conds : list (sflags * jcc * bool))
    (code : list (Z * Z)) : piece :=
  {| q_range := range_ni; q_consts := [3%nat]; q_scratch := [4%nat]; q_stack := stack_ni; q_blocks := b;
     q_from := from; q_to := to; q_conds := conds; q_code := code |}.
Definition at_ni (l : string) (b : Z) : point :=
  {| p_pc := SC (label l);
     p_gpr := regs_ni (SPtr 3 0) (SPtr 3 304) (SPtr 8 (- b)) (SPtr 7 0) (SPtr 5 (64 * b)) (SPtr 6 (32 * b));
     p_xmm8 := flip; p_saved := [(0, SPtr 9 0)] |}.
Definition entry_ni : point :=
  {| p_pc := SC (label "sha256_shani");
     p_gpr := regs_ni any any (SPtr 8 0) (SPtr 7 0) (SPtr 5 0) (SPtr 6 0);
     p_xmm8 := anyv; p_saved := [(0, SPtr 9 0)] |}.
Definition exit_ni : point :=
  {| p_pc := SPtr 9 0; p_gpr := regs_ni any any any (SPtr 7 8) any any;
     p_xmm8 := anyv; p_saved := [] |}.
Definition ni_start : piece := piece_ni 0 entry_ni (at_ni "sha256_shani.hash_2_blocks" 0) []
    [(12406, 4)].
Definition ni_two : piece :=
  piece_ni 2 (at_ni "sha256_shani.hash_2_blocks" 0) (at_ni "sha256_shani.hash_2_blocks" 2)
    [(FCmp (SPtr 8 0) 2, JL, false)]
    [(12410, 433)].
Definition ni_few : piece :=
  piece_ni 0 (at_ni "sha256_shani.hash_2_blocks" 0) (at_ni "sha256_shani.hash_1_block" 0)
    [(FCmp (SPtr 8 0) 2, JL, true)]
    [(12410, 3)].
Definition ni_one : piece :=
  piece_ni 1 (at_ni "sha256_shani.hash_1_block" 0) exit_ni [(FTest (SPtr 8 0), JZ, false)]
    [(12843, 236)].
Definition ni_end : piece :=
  piece_ni 0 (at_ni "sha256_shani.hash_1_block" 0) exit_ni [(FTest (SPtr 8 0), JZ, true)]
    [(12843, 3); (13077, 2)].
