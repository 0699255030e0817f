#!/usr/bin/env python3
"""Check the transcription of the assembly files against their text.

Preprocesses an assembly file of /repo/ssz (the subset of the NASM preprocessor that
the files use: %define, %xdefine, %assign, %macro, %rep, %ifdef, struc), prints every
instruction and data section as a Coq term, and writes a Coq file that states that the
transcription in ModelAsm*.v is that list. It is a test of the transcription, not part
of any proof.

usage: expand_asm.py REPO OUT.v && coqc -Q ../rocq/theories Verif OUT.v
"""
import re
import sys

REPO, OUT = sys.argv[1], sys.argv[2]
ID = re.compile(r"(?:%%)?[A-Za-z_.$][\w.$]*|0x[0-9A-Fa-f]+|\d\w*|%\d+|\S")
TOK = re.compile(r"%%\w+|%\d+|[A-Za-z_.][\w.]*|0x[0-9A-Fa-f]+|\d\w*|\s+|.")


class PP:
    def __init__(self):
        self.defs, self.macros, self.out, self.uniq = {}, {}, [], 0
        self.fdefs = {}

    def expand(self, text, seen=()):
        res = []
        toks = TOK.findall(text)
        i = 0
        while i < len(toks):
            t = toks[i]
            if t in self.fdefs and i + 1 < len(toks) and toks[i + 1] == "(":
                j, d = i + 2, 1
                while d:
                    d += {"(": 1, ")": -1}.get(toks[j], 0)
                    j += 1
                res.append(self.fdefs[t](self.expand("".join(toks[i + 2 : j - 1]))))
                i = j
                continue
            if t in self.defs and t not in seen:
                res.append(self.expand(self.defs[t], seen + (t,)))
            else:
                res.append(t)
            i += 1
        return "".join(res)

    def ev(self, text):
        t = self.expand(text)
        t = re.sub(r"\b([01]+)b\b", r"0b\1", t)
        return eval(t)

    def run(self, lines):
        i = 0
        while i < len(lines):
            l = lines[i].split(";")[0].strip()
            i += 1
            while l.endswith("\\"):
                l = l[:-1] + lines[i].split(";")[0].strip()
                i += 1
            if not l:
                continue
            w = l.split()
            if w[0] == "%include":
                name = w[1].strip('"')
                self.run(open(f"{REPO}/{name}").read().split("\n"))
            elif w[0] in ("%ifdef", "%ifndef"):
                # find the matching else and endif
                d, j, els = 1, i, None
                while True:
                    t = lines[j].strip()
                    if re.match(r"%if", t):
                        d += 1
                    elif t.startswith("%else") and d == 1:
                        els = j
                    elif re.match(r"%endif", t):
                        d -= 1
                        if d == 0:
                            break
                    j += 1
                c = w[1] in self.defs
                if w[0] == "%ifndef":
                    c = not c
                if c:
                    self.run(lines[i : els if els is not None else j])
                elif els is not None:
                    self.run(lines[els + 1 : j])
                i = j + 1
            elif w[0] == "%define":
                m = re.match(r"%define\s+((?:%%)?[\w.]+)(\([^)]*\))?\s*(.*)", l)
                if m.group(2):
                    # reg_sizes.asm: XWORD(reg) is reg %+ x and the like
                    if m.group(1) == "XWORD":
                        self.fdefs["XWORD"] = lambda r: "xmm" + r.strip()[3:]
                else:
                    self.defs[m.group(1)] = m.group(3)
            elif w[0] == "%xdefine":
                m = re.match(r"%xdefine\s+(\S+)\s*(.*)", l)
                self.defs[m.group(1)] = self.expand(m.group(2))
            elif w[0] == "%assign":
                m = re.match(r"%assign\s+(\S+)\s+(.*)", l)
                self.defs[m.group(1)] = str(self.ev(m.group(2)))
            elif w[0] == "%macro":
                j = i
                while not re.match(r"\s*%endm", lines[j]):
                    j += 1
                self.macros[(w[1], int(w[2]))] = lines[i:j]
                i = j + 1
            elif w[0] == "%rep":
                j, d = i, 1
                while True:
                    if lines[j].strip().startswith("%rep"):
                        d += 1
                    if lines[j].strip().startswith("%endrep"):
                        d -= 1
                        if d == 0:
                            break
                    j += 1
                for _ in range(self.ev(l[4:])):
                    self.run(lines[i:j])
                i = j + 1
            elif w[0] == "struc":
                name, off = w[1], 0
                while True:
                    t = lines[i].split(";")[0].strip()
                    i += 1
                    if t == "endstruc":
                        break
                    if t.startswith("%ifdef"):
                        assert t.split()[1] not in self.defs
                        while lines[i].strip() != "%endif":
                            i += 1
                    m = re.match(r"(?:([\w.]+?):?\s+)?resb\s+(.*)", t)
                    if m:
                        if m.group(1):
                            n = m.group(1)
                            self.defs[name + n if n[0] == "." else n] = str(off)
                        off += self.ev(m.group(2))
                self.defs[name + "_size"] = str(off)
            elif w[0].startswith("%"):
                raise Exception(l)
            else:
                ops = split_ops(l[len(w[0]) :])
                key = (w[0], len(ops))
                if key in self.macros:
                    self.uniq += 1
                    body = []
                    for b in self.macros[key]:
                        b = re.sub(r"%%(\w+)", rf"%%\1__{self.uniq}", b)
                        b = re.sub(r"%(\d+)", lambda m: ops[int(m.group(1)) - 1], b)
                        body.append(b)
                    self.run(body)
                else:
                    self.out.append(self.expand(l))


def split_ops(rest):
    ops, d, cur = [], 0, ""
    for c in rest.strip():
        d += {"(": 1, "[": 1, ")": -1, "]": -1}.get(c, 0)
        if c == "," and d == 0:
            ops.append(cur.strip())
            cur = ""
        else:
            cur += c
    return ops + [cur.strip()] if cur.strip() else ops


R64 = "rax rcx rdx rbx rsp rbp rsi rdi r8 r9 r10 r11 r12 r13 r14 r15".split()
R32 = dict(zip("eax ecx edx ebx esp ebp esi edi r8d r9d r10d r11d r12d r13d r14d r15d".split(), R64))


def num(e):
    return str(eval(re.sub(r"\b([01]+)b\b", r"0b\1", e)))


def addr(a, sect):
    a = re.sub(r"\bwrt rip\b|\brel\b", "", a[1:-1]).strip()
    terms, d, cur = [], 0, ""
    for c in a:
        d += {"(": 1, ")": -1}.get(c, 0)
        if c == "+" and d == 0:
            terms.append(cur.strip())
            cur = ""
        else:
            cur += c
    terms.append(cur.strip())
    regs = [t for t in terms if t in R64]
    labs = [t for t in terms if t in sect]
    off = sum(int(num(t)) for t in terms if t not in regs and t not in labs)
    if labs:
        s, o = sect[labs[0]]
        return f"(Rel {s} {o + off})"
    return f"(Base {regs[0]} {off})" if len(regs) == 1 else f"(Index {regs[0]} {regs[1]} {off})"


def vreg(r):
    assert re.fullmatch(r"[xy]mm\d+", r), r
    return "xmm" + r[3:]


def instr(l, fn, sect):
    w = l.split()[0]
    o = split_ops(l[len(w) :])
    mem = [x.startswith("[") for x in o]
    A = lambda x: addr(x, sect)
    if w in ("push", "pop"):
        return f"I{w.capitalize()} {o[0]}"
    if w == "ret":
        return "IRet"
    if w == "call":
        return f'ICall "{o[0]}"'
    if w in ("jmp", "jl", "jz", "jb"):
        return f'I{w.capitalize()} "{fn + o[0]}"'
    if w == "lea":
        return f"ILea {o[0]} {A(o[1])}"
    if w == "cmp":
        return f"ICmp64 {o[0]} {num(o[1])}"
    if w == "test":
        return f"ITest64 {o[0]} {o[1]}"
    if w == "dec":
        return f"ISub64 {o[0]} 1"
    if w == "bswap":
        return f"IBswap32 {R32[o[0]]}"
    if w == "shld":
        return f"IShld32 {R32[o[0]]} {R32[o[1]]} {num(o[2])}"
    if w == "sub":
        return f"ISub64 {o[0]} {num(o[1])}"
    if w in ("mov", "add", "xor", "and", "or"):
        if mem[0]:
            return f"IStore64 {A(o[0])} {o[1]}" if o[1] in R64 else f"IStore32 {A(o[0])} {R32[o[1]]}"
        if o[0] in R64:
            if w == "mov":
                return f"ILoad64 {o[0]} {A(o[1])}" if mem[1] else f"IMov64 {o[0]} {o[1]}"
            return {
                "add": lambda: f"IAdd64 {o[0]} {num(o[1])}",
                "xor": lambda: f"IXor64 {o[0]} {o[1]}",
                "and": lambda: f"IAnd64 {o[0]} {A(o[1])}",
            }[w]()
        s = f"(M32 {A(o[1])})" if mem[1] else f"(R32 {R32[o[1]]})"
        return f"IAlu32 {w.upper()} {R32[o[0]]} {s}"
    if w == "sha256rnds2":
        return f"ISha256rnds2 {vreg(o[0])} {vreg(o[1])}"
    k = "SSE"
    b = w
    if w[0] == "v":
        k = "V256" if any(x.startswith("ymm") for x in o) else "V128"
        b = w[1:]
    src = lambda x: f"(MV {A(x)})" if x.startswith("[") else f"(RV {vreg(x)})"
    if b == "inserti128":
        return f"IVInsert128 {vreg(o[0])} {vreg(o[1])} {A(o[2])} {num(o[3])}"
    if b == "perm2f128":
        return f"IVPerm2f128 {vreg(o[0])} {vreg(o[1])} {vreg(o[2])} {num(o[3])}"
    if b in ("movdqa", "movdqu", "movups"):
        al = "true" if b == "movdqa" else "false"
        if mem[0]:
            return f"IVStore {k} {al} {A(o[0])} {vreg(o[1])}"
        if mem[1]:
            return f"IVLoad {k} {al} {vreg(o[0])} {A(o[1])}"
        return f"IVu {k} VMOV {vreg(o[0])} {vreg(o[1])}"
    if b in ("pslld", "psrld", "psrlq", "pshufd"):
        return f"IVu {k} ({b.upper()} {num(o[2])}) {vreg(o[0])} {vreg(o[1])}"
    if b in ("palignr", "shufps", "pblendw"):
        if len(o) == 3:
            o = [o[0]] + o
        return f"IV {k} ({b.upper()} {num(o[3])}) {vreg(o[0])} {vreg(o[1])} {src(o[2])}"
    if b in ("paddd", "pxor", "pand", "por", "pshufb", "sha256msg1", "sha256msg2"):
        if len(o) == 2:
            o = [o[0]] + o
        return f"IV {k} {b.upper()} {vreg(o[0])} {vreg(o[1])} {src(o[2])}"
    raise Exception(l)


def process(name, secno):
    pp = PP()
    pp.defs["LINUX"] = ""
    pp.run(open(f"{REPO}/ssz/{name}").read().split("\n"))
    sect, datas, cur, code, fn, dw, sec = {}, {}, None, [], "", None, None
    for l in pp.out:
        w = l.split()
        if w[0] == "section":
            sec = w[1]
            if sec in secno:
                datas.setdefault(secno[sec], [])
            continue
        if w[0] in ("default", "align", "global", "extern"):
            continue
        m = re.match(r"([\w.]+):\s*(.*)", l)
        if sec in secno:
            d = datas[secno[sec]]
            if m:
                sect[m.group(1)] = (secno[sec], 4 * len(d))
                l = m.group(2)
                if not l:
                    continue
            w = l.split()
            n = {"dd": 1, "dq": 2, "ddq": 4}[w[0]]
            for x in split_ops(l[len(w[0]) :]):
                if x:
                    v = int(x, 0)
                    d += [(v >> (32 * i)) & 0xFFFFFFFF for i in range(n)]
            continue
        if sec == ".note.GNU-stack":
            continue
        if m:
            n = m.group(1)
            if n[0] != ".":
                fn = n
            code.append(("L", fn + n if n[0] == "." else n))
        elif w[0] == "endbranch64":
            pass
        else:
            code.append(("I", l, fn))
    res = []
    for c in code:
        res.append(f'ILabel "{c[1]}"' if c[0] == "L" else instr(c[1], c[2], sect))
    return res, datas


with open(OUT, "w") as f:
    f.write("From Coq Require Import ZArith String List Bool.\n")
    f.write("From Verif Require Import Base ModelX86 ModelAsm ModelAsm1 ModelAsm4 ModelAsm8 ModelAsmNi.\n")
    f.write("Import ListNotations.\nOpen Scope list_scope.\nOpen Scope Z_scope.\n")
    for name, code, secno, ds in [
        ("sha256_avx_one_block.asm", "code_1", {".data": "sec_1"}, {"sec_1": "data_1"}),
        ("sha256_avx.asm", "code_4", {".data": "sec_4"}, {"sec_4": "data_4"}),
        ("sha256_avx2.asm", "code_8", {".data": "sec_8"}, {"sec_8": "data_8"}),
        ("sha256_shani.asm", "code_ni", {".rodata": "sec_ni", ".data": "sec_ni_save"},
         {"sec_ni": "data_ni", "sec_ni_save": "data_ni_save"}),
    ]:
        res, datas = process(name, secno)
        print(name, len(res), "instructions", {k: len(v) for k, v in datas.items()})
        parts = [res[i : i + 200] for i in range(0, len(res), 200)]
        for i, p in enumerate(parts):
            f.write(f"Definition x_{code}_{i} : list instr := [\n " + ";\n ".join(p) + "].\n")
        f.write(f"Goal {code} = " + " ++ ".join(f"x_{code}_{i}" for i in range(len(parts))) + ".\n")
        f.write("Proof. vm_compute. reflexivity. Qed.\n")
        for s, d in datas.items():
            f.write(f"Goal words_of {ds[s]} = [" + "; ".join(map(str, d)) + "].\nProof. vm_compute. reflexivity. Qed.\n")
