# Formal model of potuz/mammon: design

Everything is in `rocq/theories` (logical name `Verif`), Coq 8.16.1, standard library only.
`tools/expand_asm.py` preprocesses the assembly files of the repository and writes a Coq file stating that the
transcription equals the expanded text, instruction by instruction (`expand_asm.py /repo OUT.v`, then `coqc`). It is a
test of the transcription; no proof depends on it.

## Files

| files | contents |
|---|---|
| `Base` | bytes as `Z`, the outcome type (`Ok`/`Throw`/`UB`), bounds-checked slices |
| `ModelMath` | `helpers/math.hpp` |
| `ModelSSZ` | codec of `common/bytes.hpp`, `slot.hpp`, `boolean.hpp`, `containers.hpp`, `bitlist.*`, `bitvector.hpp`, `ssz/ssz_container.*` |
| `ModelHashTree` | `ssz/hashtree.{hpp,cpp}` over an arbitrary function on blocks |
| `ModelTree` | the `hash_tree()` overrides |
| `ModelEth` | the 23 containers of `beacon-chain/` and `common/containers.hpp`, both configurations |
| `ModelBytes` | the rest of `common/bytes.hpp`, hex parsing, `helpers/bytes_to_int.hpp`, hex of bit fields |
| `ModelPred` | comparison operators as overload resolution picks them, predicates of `beacon-chain/`, constants |
| `ModelYaml` | `encode()`/`decode()` of all classes |
| `ModelInt` | the loops with `int` counters (bit lists, hexadecimal text), with the overflow of those counters |
| `ModelTest`, `ModelSszMain` | `beacon-chain/test/test_ssz.cpp`: one vector; the directories and the list of tests |
| `ModelX86` | the x86-64 instructions used by `ssz/*.asm` |
| `ModelAsm`, `ModelAsm1/4/8/Ni`, `ModelImage` | transcription of the four assembly files, data sections, linked program |
| `ModelHasher` | `ssz/hasher.{hpp,cpp}` |
| `ModelShaTest` | `ssz/test_sha256.cpp` |
| `ModelBench` | `bench/` |
| `ModelBytesTest` | `common/bytes_test.cpp` |
| `SpecSSZ`, `SpecPhase0` | the SSZ document and the phase0 container table, independent of the model |
| `SpecObj`, `SpecClasses`, `SpecWire`, `SpecRemain`, `SpecUndef`, `SpecLeft`, `SpecTree`, `SpecMath`, `SpecBytes`, `SpecPred`, `SpecEqual`, `SpecYaml`, `SpecText`, `SpecLoose`, `SpecRefuse`, `SpecTest`, `SpecSszMain`, `SpecSize`, `SpecInt` | small specifications used in statements |
| `SpecSha` | FIPS 180-4 |
| `SpecAsm`, `SpecHasher`, `SpecConc`, `SpecTime`, `SpecShaTest`, `SpecBytesTest` | calling convention, instruction set extensions, threads, what timing can reveal, what tests reach |
| `SymWord`, `SymX86`, `SymFrag`, `FragAsm`, `CheckAsm` | symbolic executor and the fragments of the routines it checks |
| `Lem*` | lemmas; `LemSym*` prove the symbolic executor sound |
| `Samples`, `SamplesYaml`, `SamplesAsm` | concrete objects, YAML nodes and a concrete process, for the examples |
| `ThmCodec`, `ThmSize`, `ThmTree`, `ThmMath`, `ThmBytes`, `ThmPred`, `ThmYaml`, `ThmInt`, `ThmTest`, `ThmSha`, `ThmTime`, `ThmShaTest`, `ThmBench`, `ThmBytesTest`, `ThmRefuse`, `ThmSszMain` | the property theorems only, each with `Print Assumptions` and an example |

## Modelling decisions

### C++

* C++ objects are values of one inductive type `val`; classes are values of an inductive type `ty`
  (a deep embedding). Virtual dispatch is kept: every class gives a record of methods and
  `Container::serialize_`, `deserialize_`, `hash_tree_` operate on lists of such records, as in the C++.
* A byte is a `Z` in `[0,256)`, a `uint64_t` a `Z` in `[0,2^64)`; wrap-around is written out (`mod 2^32`, `mod 2^64`)
  wherever the C++ type can wrap.
* Undefined behaviour is the distinct outcome `UB`: reads and writes through iterators and pointers are bounds-checked
  in the model and give `UB` outside the range they were given.
* `deserialize` takes the old object and returns the flag and the new object, so partial mutation on failure is visible.
* Allocation failure is not modelled. `reinterpret_cast` loads of `uint32_t`/`uint64_t` are modelled as x86-64 little
  endian loads (the alignment and strict-aliasing rules of C++ are ignored). Forming `it + 32` past the end without
  reading there (`pack_and_pad`) is not treated as undefined.
* The loops over bits and over hexadecimal text count with unbounded integers in `ModelSSZ`, `ModelTree` and `ModelYaml`,
  where the C++ has `int`. `ModelInt` has them with `int`; the theorems of C49 say exactly for which objects the two
  differ (those with 2^31 bits in a row), and for which texts.
* yaml-cpp and `helpers/bytes_to_string.hpp` are not in the repository: a YAML node is a tree, and scalar
  conversions are parameters (record `externals`) of the theorems, with the assumptions stated in `SpecYaml` (round trip) and `SpecText` (reading the
  reference vectors). snappy is a parameter of `ModelTest.test_ssz`.
* The tree model takes the function on blocks (`hash_64b_blocks`) as a parameter `HB`; in the tree theorems it is
  block-wise application of an arbitrary hash, in C37 it is what the assembly does in the memory of a process
  (`SpecHasher.block_function`).

### Assembly

* NASM macros are Coq functions, `%rep` is `flat_map`, `ROTATE_ARGS` rotates a tuple of register names. System V ABI
  (`WINABI` not defined). `align` directives in the text are dropped; their `nop`s are not counted in C50.
* `endbranch64` is not an instruction of NASM; it is assembled as a label and does nothing. The model has it as a label.
* Code addresses are indices into the list of instructions; they are only used by calls, jumps and returns.
* Flags are only set by `cmp` and `test`; every other instruction that changes flags makes them undefined, and a
  conditional jump on undefined flags stops the machine.
* Memory is a function from addresses to bytes with readable and writable sets; a forbidden or misaligned access stops
  the machine, so a theorem that a call returns includes memory safety.
* Time appears only as the sequence of instructions and addresses (`SpecTime.leaked`).
* Unmasked exceptions, caches and other effects of a CPU are not modelled. Interleavings are
  sequentially consistent, one instruction at a time.
* The symbolic executor (`Sym*`) is a proof device: its soundness with respect to `ModelX86.step` is proved (`LemSym*`),
  so it is not trusted.

### Statements

* Theorems about "all containers" range over `SpecClasses.container_pair`: every class of the library in both
  configurations, paired with its SSZ type from `SpecPhase0`. General versions hold for every well-formed class description.
* Where a claim of `properties.jsonl` is false of the code, there is a theorem `Cnn_refuted…` with a witness or a
  universally quantified failure, and a `_partial` theorem with the strongest part found true; `MANIFEST.json` says `partial`.

## Properties

| id | how it is proved |
|---|---|
| C01, C03, C04, C07 | induction on classes, instantiated at all containers |
| C02 | equality with `SpecSSZ.ssz_encode` by induction on types |
| C05 | refuted (trailing bytes, padding bits); for every class, exactly the inputs that decode to a value |
| C06 | refuted for classes with a `Bitlist`; proved for all others |
| C08 | refuted; proved for the leaf classes; for all classes what a failure leaves behind: old parts, parts read from the input and at most one failed part (`SpecRemain`, `C08_remains_partial`), and exactly which (`SpecLeft`, `C08_exact_partial`): the input has been read as far as possible |
| C09 | refuted for list classes used by the containers; limits have no effect at all on the codec (`C09_ignored`) |
| C10 | acceptance is exactly the wire relation of `SpecWire` |
| C11, C12, C15 | loop invariant of `merkleize` over layers; induction on classes |
| C13 | refuted; proved within limits and for all fixed-size containers; for all values, exactly when the root is undefined and what it is otherwise (induction on types over an exact account of the tree buffer) |
| C14 | collision extraction by induction on trees and types |
| C16, C17, C18 | direct induction |
| C19-C21 | arithmetic with explicit wrap-around; checked variants show no wrap-around happens |
| C22-C24 | induction on bytes and digits; rejection of malformed digits refuted |
| C25-C28, C39 | comparison with independent predicates; C25, C26, C39 refuted in part; exactly the fields that `==` compares (`SpecEqual`) |
| C29-C32 | symbolic execution of loop bodies, then induction on the block count |
| C33, C37 | from C29-C32; the loop of `sha256_sse` by induction |
| C34 | registers on return; memory at every step |
| C35 | refuted for `sha256_shani` against itself; otherwise non-interference of disjoint areas, for all schedules |
| C36 | refuted; exact condition over all instructions any call executes |
| C38 | refuted for bit fields; proved for the rest; exactly the values that survive, by induction on types |
| C40 | refuted (offsets modulo 2^32); exactly the values that survive, by induction on types |
| C41 | the inputs with undefined behaviour, exactly (`SpecUndef`); induction on classes |
| C42 | induction on classes against `SpecText.shows`, the form of the reference vectors |
| C43 | refuted (bitlists, characters outside ASCII); exactly the undefined nodes (`SpecLoose.breaks`) |
| C44 | history and typing by induction on classes; strictness refuted; exactly the accepted nodes and their values (`SpecLoose.reads_as`) |
| C47 | induction on types |
| C53 | from C10 for accepted inputs; for rejected ones induction on types over what C08 says is left, the parts being disjoint |
| C54 | composition of C10, C41, C13 and C37; the bound on sequences by induction on types |
| C55 | refuted (bytes 4 to 7 in any order pass); exactly the orders that pass, and that these are right below 2^32 |
| C48 | computation on the routines' text, executions of the sample process |
| C49 | refuted; induction on classes: exactly the objects whose counters overflow, and exactly the texts of bit fields |
| C50 | the symbolic executor computes the instructions and addresses of each fragment; induction on the block count |
| C51 | from C33 and C48; coverage from the instruction sequences of C50; a program that agrees on all places a run visits has the same run |
| C52 | refuted; exact condition over the places each test visits |
| C56 | refuted; exactly the refused nodes and what they leave (`SpecRefuse.refuses`), by induction on classes, beside the induction of C44 |
| C57 | induction on directories, from C45 and C46; refuted for empty directories; exactly when a test passes |
| C45, C46 | from C01, C02, C11, C25, C42; C46 refuted in three ways; exactly the vectors that pass and the undefined ones |

## Findings about the code

1. `is_slashable` compares with the inherited `Container::operator==` that returns true: double votes are never detected (C26).
2. `Container::operator==` makes most containers always equal (C25).
3. `Bitlist::deserialize` of an empty range dereferences `end - 1`, and a last byte of 0 is undefined (C06). The limit is not checked.
4. Containers of fixed size accept trailing bytes; `Bitvector` ignores padding bits (C05).
5. List limits are not enforced on deserialization (C09); the tree of such an object is then written out of bounds (C13), but not always: the buffer holds 2^e - 1 - (e - d) nodes for a number of chunks of depth e and a limit of depth d, so it is too small exactly when the incomplete tree lacks fewer than e - d nodes (C12_exact). For a limit of 2^d >= 2 chunks that is 2^(d+1)-1 and 2^(d+1) chunks among those up to 2^(d+1) (C12_doubling); the other numbers give a root for a raised limit.
   A limit of 2^43 or more would overrun the table of zero hashes.
6. `Bitlist::to_string` and `Bitvector::to_string` stream bytes as characters: their YAML does not parse back (C38).
7. Hex digits that are none are read as 0, characters from 0x80 index out of bounds, a lone last digit is accepted (C23).
   The same holds for YAML; a bitlist written as `0x` reads out of bounds (C43), short byte vectors and bitvectors are
   accepted (C44).
8. `sha256_shani` keeps saved state in global data: concurrent calls race (C35).
9. `best_sha256_implementation` falls back to AVX code without AVX; with cpuid leaf 7 unsupported it reads an uninitialised
   variable; `Hasher(IMPL)` does not check support (C36). OSXSAVE/XCR0 is not checked at all (not modelled).
10. A failed `deserialize` leaves a partly changed object (C08). Offsets wrap around at 4 GiB (C40);
    within the limits of the specification this happens only in BeaconState (SSZ forbids such encodings, the library writes them). `hash_tree_({})` is undefined.
11. `GENESIS_FORK_VERSION` of the minimal configuration has the wrong byte order (C39).
12. Not modelled, seen while reading: `Bitvector() = default` leaves the array uninitialised (C07 shows that `deserialize`
    does not depend on it); `HashTree::hasher` is a static member whose initialisation order across translation units is open;
    `main.cpp` copies each transaction.
13. `test_ssz` cannot detect a wrong `deserialize` for 18 of the 23 containers, because it compares with the inherited
    `operator==`; it decompresses into a buffer of the size the library computed, so that a shorter expected text passes
    if only zeros are missing and a longer one overflows (C46). It also repeats every vector once per file in its directory,
    so that empty directories pass without a check (C57).
14. The counters of `Bitlist::serialize` and `hash_tree` are `int`: an Attestation of 256 MiB is accepted, after which both are
    undefined. `from_hexstring` has an `int` offset, and that of `Bitvector` computes the index of a bit in 32 bits, so that bytes
    from number 2^29 on overwrite the first bits (C49).
15. The tests of `ssz/test_sha256.cpp` hash 1, 4, 8 and 8 blocks, so that the loop of `sha256_4_avx` over single blocks and the
    single-block code of `sha256_shani` are never executed: an error there passes all tests (C51). The test `hash_avx_1` is guarded by
    SSE3 but executes AVX instructions (C52). The guards read the same uninitialised variable as finding 9.
16. The benchmark programs hash with the implementation they are built for without asking the CPU (C54); they pass a file with over-full
    lists on to `hash_tree_root`, which is then undefined (C13).
17. The tests of `common/bytes_test.cpp` only use values below 2^32, so that conversions of eight bytes which mix up the upper four
    pass (C55).
18. `decode` returns false for some nodes and throws for others that are wrong in the same way (text that is no number in a field
    gives false, in an element of a list an exception), and leaves the fields in front of the refused one overwritten (C56).

## Mutation tests

`seeded/LOG.jsonl` has one line per wrong program. How to read its fields:

* `theorems_failed` lists the theorems that could no longer be proved with the existing scripts in 400 s: the proof, or the proof
  of some lemma it uses, broke. This is an upper bound on what was detected. A theorem is listed also if its statement
  is still true of the wrong program and only a lemma shared with other theorems broke. For example `a11` and `x01`
  change nothing observable and still list 13 and 15 theorems, because the assembly proofs follow the code instruction by
  instruction; and changes of `deserialize` alone list theorems about `serialize`. So a theorem that is too weak to
  notice a fault can hide in this list.
* A theorem that is absent from the list was still proved, so it does not detect the fault.
* `theorems_refuted`, where present, is the stronger evidence: the statement of the theorem was proved false of the wrong
  program, by the script in `refutation`, without axioms. Entries without this field have not been examined in this way,
  except those with a `note`, which says why the changed program turned out to be an equivalent one. The theorems are
  those of the present files, so that some entries name a refuted theorem that did not exist when they were run and is
  therefore absent from `theorems_failed`.
* `setup`, where present, says how the run differed from building all files.
* Wrong programs that Coq does not accept as definitions are not logged.
* Entries with ids `m3.*` and `m4.*` were run with their batches and added to the log later, from the output of those runs.
  Their ids had been used before and the script that writes the log passed over them. One of them, `m3.h05`, is a wrong
  program that no theorem noticed; `C48_requested` was added because of it.

## Trusted base

* Coq's kernel; its VM conversion for proofs by `vm_compute` (`coqchk` rechecks them without it).
* `Print Assumptions`, run beneath every theorem: "Closed under the global context" for all of them. No axioms are used.
  `coqchk -o` lists the parameters of `Coq.ssr.ssrunder.Under_rel`, a module of the standard library that is loaded
  indirectly; no theorem depends on them.
* The faithfulness of the transcription in the `Model*` files, as described in the comments there, and of the
  specifications `Spec*` to SSZ, phase0, FIPS 180-4 and the Intel manual (the instructions in `ModelX86`).
* The C++ compiler, standard library, yaml-cpp, assembler, linker and CPU beyond the behaviours stated above.

## Not modelled

`main.cpp`, CMake files, stream output operators, plain accessors and iterators,
`Bytes::to_string` and `beacon-chain/transaction.hpp` (their sources are missing from the pinned commit).
