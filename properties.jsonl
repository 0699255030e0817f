{"id": "C01", "title": "Serialize/deserialize round trip", "statement": "For every SSZ class of the library, calling deserialize on the bytes produced by serialize returns true and leaves the target object holding exactly the serialized value, whatever the target object held before.", "quantifier": "all SSZ classes (Bytes<N>, Slot, Boolean, Bitvector<N>, Bitlist, vectors, lists, all 23 containers, mainnet and minimal), all values whose encoding is shorter than 4 GiB, all prior contents of the target", "why_tests_cant": "The value space is unbounded (lists of any length, nested); tests only replay spec vectors, and the containers' == used by them ignores most fields.", "anchors": ["ssz/ssz_container.cpp: Container::serialize_, Container::deserialize_", "common/containers.hpp: VectorFixedSizedParts, ListFixedSizedParts, ListVariableSizedParts", "common/bytes.hpp: Bytes::serialize/deserialize", "common/slot.hpp: Slot", "common/boolean.hpp: Boolean", "common/bitlist.cpp: Bitlist", "common/bitvector.hpp: Bitvector"]}
{"id": "C02", "title": "Serialization conforms to the SSZ specification", "statement": "For every phase0 container, serialize() returns exactly the byte string the SSZ specification prescribes (fixed parts and 4-byte little-endian offsets in field order, followed by the variable parts).", "quantifier": "all containers, both configurations, all values whose encoding is shorter than 4 GiB", "why_tests_cant": "Conformance must hold for every value; test vectors sample a few.", "anchors": ["ssz/ssz_container.cpp: serialize_, compute_fixed_length", "common/containers.hpp", "beacon-chain/*.hpp: serialize()"]}
{"id": "C03", "title": "Declared SSZ size is the real size", "statement": "For every fixed-size class the number of bytes returned by serialize() equals get_ssz_size(), for every value; get_ssz_size() is 0 exactly for variable-size classes.", "quantifier": "all classes, all values", "why_tests_cant": "Sizes are hand-written constants (16, 36, 40, 121, 1240, ...) and deserialize_ slices by them; a wrong constant for some value shape is only visible on that shape.", "anchors": ["ssz/ssz_container.hpp: get_ssz_size", "every ssz_size constant"]}
{"id": "C04", "title": "Encodings are injective", "statement": "Two objects of the same class with the same serialize() output hold the same value.", "quantifier": "all classes, all pairs of values with encodings shorter than 4 GiB", "why_tests_cant": "Quantifies over pairs of values; no finite set of tests excludes a collision.", "anchors": ["ssz/ssz_container.cpp: serialize_", "common/bitlist.cpp: serialize"]}
{"id": "C05", "title": "Accepted encodings are canonical", "statement": "If deserialize accepts a byte string, serializing the resulting object reproduces exactly that byte string.", "quantifier": "all classes, all byte strings", "why_tests_cant": "Malleability is a property of the inputs nobody thought of; tests only feed valid encodings.", "anchors": ["ssz/ssz_container.cpp: deserialize_", "common/bitvector.hpp: deserialize", "common/bitlist.cpp: deserialize"]}
{"id": "C06", "title": "Deserialization never reads outside its input", "statement": "deserialize called on any byte range terminates returning true or false, reading only bytes inside the range and executing no undefined behaviour.", "quantifier": "all classes, all byte strings (including empty and malformed), all prior object states", "why_tests_cant": "Adversarial inputs are unbounded; the offending inputs are not valid encodings and never occur in test vectors.", "anchors": ["ssz/ssz_container.cpp: deserialize_", "common/bitlist.cpp: Bitlist::deserialize", "common/containers.hpp: deserialize"]}
{"id": "C07", "title": "Deserialization does not depend on history", "statement": "The value returned by deserialize, and on success the resulting object, depend only on the input bytes, not on what the object held before or on how many times it was reused.", "quantifier": "all classes, all byte strings, all pairs of prior object states", "why_tests_cant": "Requires comparing every pair of prior states; tests always deserialize into fresh objects.", "anchors": ["common/containers.hpp: ListFixedSizedParts::deserialize, ListVariableSizedParts::deserialize", "common/bitlist.cpp: deserialize", "ssz/ssz_container.cpp: deserialize_"]}
{"id": "C08", "title": "Failed deserialization leaves the object unchanged", "statement": "If deserialize returns false the object still holds the value it had before the call.", "quantifier": "all classes, all byte strings, all prior object states", "why_tests_cant": "Needs every failure point of every nested part.", "anchors": ["ssz/ssz_container.cpp: deserialize_", "common/containers.hpp: deserialize"]}
{"id": "C09", "title": "Deserialization enforces list limits", "statement": "No list or bitlist obtained from a successful deserialize holds more elements than its limit.", "quantifier": "all classes, all byte strings", "why_tests_cant": "Over-limit inputs are not in valid test vectors and can be arbitrarily long.", "anchors": ["common/containers.hpp: limit_", "common/bitlist.cpp: deserialize"]}
{"id": "C10", "title": "Structural checks on accepted inputs", "statement": "deserialize rejects every input that is shorter than the fixed part of the class; an accepted input of a container with variable parts has its first offset equal to the fixed-part length, offsets non-decreasing and none beyond the end of the input; booleans other than 0 and 1 are rejected.", "quantifier": "all classes, all byte strings", "why_tests_cant": "Universally quantified over malformed inputs.", "anchors": ["ssz/ssz_container.cpp: deserialize_ 73-106", "common/boolean.hpp: deserialize"]}
{"id": "C11", "title": "hash_tree_root equals the SSZ specification", "statement": "hash_tree_root() of every object returns the root prescribed by the SSZ specification: merkleization of the (virtually) zero-padded tree of the declared limit, with the length mixed in for lists and bitlists.", "quantifier": "all classes, both configurations, all values whose lists are within their limits, every 64-to-32-byte compression function", "why_tests_cant": "The virtual zero padding optimisation takes different paths for each (length, limit) pair; tests cover a few pairs.", "anchors": ["ssz/hashtree.cpp: merkleize, HashTree::HashTree, mix_in", "ssz/ssz_container.cpp: hash_tree_", "common/containers.hpp: hash_tree_x", "common/bitlist.cpp: hash_tree"]}
{"id": "C12", "title": "Tree construction is memory safe within limits", "statement": "Building the hash tree of a non-empty chunk vector whose length does not exceed the limit (or with no limit) reads and writes only inside the allocated tree buffer, calls the hasher only with non-overlapping regions, and indexes the zero-hash table only inside its bounds.", "quantifier": "all chunk counts >= 1, all limits up to 2^42 that are 0 or >= the chunk count, all chunk contents", "why_tests_cant": "Buffer size is computed by a closed formula that must dominate a recursive sum for every pair (count, limit).", "anchors": ["ssz/hashtree.cpp: HashTree::HashTree 108-124, merkleize 77-100, zero_hash_array"]}
{"id": "C13", "title": "Hashing a deserialized object is memory safe", "statement": "For every byte string accepted by deserialize, calling hash_tree_root() on the resulting object executes no out-of-bounds access.", "quantifier": "all classes, all byte strings accepted by deserialize", "why_tests_cant": "Depends on adversarial over-limit inputs.", "anchors": ["ssz/hashtree.cpp: HashTree::HashTree", "common/containers.hpp: deserialize, hash_tree_x"]}
{"id": "C14", "title": "Roots bind values", "statement": "If two objects of the same class have the same hash_tree_root() then they hold the same value, or two distinct 64-byte inputs with the same hash can be computed from them.", "quantifier": "all classes, all pairs of values within limits, every compression function", "why_tests_cant": "A statement about all pairs of values; collision resistance cannot be tested.", "anchors": ["ssz/hashtree.cpp", "ssz/ssz_container.cpp: hash_tree_", "common/containers.hpp: hash_tree_x"]}
{"id": "C15", "title": "Layout of the cached hash tree", "statement": "The vector of chunks built by HashTree is exactly the concatenation of the successive tree layers above the leaves (each truncated to its non-virtual prefix), bottom-up, and its last element is the root.", "quantifier": "all chunk vectors and limits (0 or >= count)", "why_tests_cant": "Structural statement about all layers of all trees.", "anchors": ["ssz/hashtree.cpp: merkleize", "ssz/hashtree.hpp: hash_tree, hash_tree_root"]}
{"id": "C16", "title": "Zero-hash table", "statement": "Entry k of the zero-hash table is the root of the all-zero tree of depth k.", "quantifier": "all k below the table size, every compression function", "why_tests_cant": "The same recurrence must hold at every level; it is internal and untested.", "anchors": ["ssz/hashtree.cpp: zero_hash_array_helper"]}
{"id": "C17", "title": "Mix-in of the length", "statement": "After mix_in(n) the root is the hash of the previous root followed by the 32-byte little-endian encoding of n, and the earlier part of the tree is unchanged.", "quantifier": "all trees, all 64-bit n", "why_tests_cant": "All lengths, all roots.", "anchors": ["ssz/hashtree.cpp: HashTree::mix_in"]}
{"id": "C18", "title": "Packing bytes into chunks", "statement": "Packing a byte vector yields max(1, ceil(len/32)) chunks of 32 bytes whose concatenation is the input followed only by zero bytes.", "quantifier": "all byte vectors", "why_tests_cant": "All lengths including non-multiples of 32 and the empty vector.", "anchors": ["ssz/hashtree.cpp: pack_and_pad"]}
{"id": "C19", "title": "log2ceil", "statement": "log2ceil(n) is the least k with n <= 2^k for every n >= 1, and 0 for n = 0.", "quantifier": "all 64-bit unsigned n", "why_tests_cant": "2^64 inputs.", "anchors": ["helpers/math.hpp: log2ceil"]}
{"id": "C20", "title": "integer_squareroot", "statement": "integer_squareroot(x) terminates and returns the floor of the square root of x, whatever value the floating-point square root produced as initial guess, without arithmetic wrap-around affecting the result.", "quantifier": "all 64-bit unsigned x, all 64-bit initial guesses", "why_tests_cant": "2^64 inputs and compiler-dependent floating point rounding (-ffast-math).", "anchors": ["helpers/math.hpp: integer_squareroot"]}
{"id": "C21", "title": "Compile-time square root", "statement": "ct_sqrt(x) terminates and returns the floor of the square root with no unsigned overflow in the bisection.", "quantifier": "all 64-bit unsigned x", "why_tests_cant": "2^64 inputs.", "anchors": ["helpers/math.hpp: sqrt_helper, ct_sqrt"]}
{"id": "C22", "title": "Integers to bytes and back", "statement": "Constructing Bytes<N> from an unsigned integer stores its little-endian representation zero-padded to N bytes; converting back gives the integer; Slot's 8-byte encoding, its conversion to Bytes8 and its chunk agree with it.", "quantifier": "all unsigned values, all N >= sizeof(value)", "why_tests_cant": "2^64 values, all N.", "anchors": ["common/bytes.hpp: bytes_from_int, to_integer_little_endian", "common/slot.hpp: Slot"]}
{"id": "C23", "title": "Hex strings parse to the bytes they denote", "statement": "Bytes<N> built from a string 0x followed by at most 2N hexadecimal digits (either case, even count) holds the denoted bytes followed by zeros; strings without the prefix or too long throw; any string containing a character that is not a hexadecimal digit is rejected.", "quantifier": "all N, all strings", "why_tests_cant": "All strings, including malformed and non-ASCII ones.", "anchors": ["common/bytes.hpp: bytes_from_str", "helpers/bytes_to_int.hpp: Table, hextoint, strhex2int"]}
{"id": "C24", "title": "Byte-array operators", "statement": "^= is pointwise xor: applying the same mask twice restores the value; + is concatenation; == against a byte vector holds exactly for the same bytes.", "quantifier": "all N, M, all contents", "why_tests_cant": "All contents.", "anchors": ["common/bytes.hpp: operator^=, operator+, operator=="]}
{"id": "C25", "title": "Equality compares contents", "statement": "a == b holds for two objects of the same class exactly when they hold the same value.", "quantifier": "all classes, all pairs of values", "why_tests_cant": "Quantifies over pairs; tests use == as oracle and so cannot detect that it is vacuous.", "anchors": ["ssz/ssz_container.hpp: Container::operator== 61", "common/containers.hpp: Fork::operator==", "beacon-chain/beacon_block.hpp", "beacon-chain/beacon_state.hpp: operator=="]}
{"id": "C26", "title": "Slashable attestation data", "statement": "a.is_slashable(b) returns true exactly when the consensus specification's is_slashable_attestation_data(a, b) does: a double vote (a != b with equal target epochs) or a surround vote.", "quantifier": "all pairs of attestation data", "why_tests_cant": "All pairs of 128-byte values.", "anchors": ["beacon-chain/attestation.cpp: AttestationData::is_slashable"]}
{"id": "C27", "title": "Indexed attestation validity", "statement": "is_valid returns true exactly when the attesting indices are non-empty, sorted and without duplicates.", "quantifier": "all index lists", "why_tests_cant": "All lists of 64-bit numbers.", "anchors": ["beacon-chain/attestation.cpp: IndexedAttestation::is_valid"]}
{"id": "C28", "title": "Validator predicates", "statement": "is_active, is_eligible_for_activation_queue and is_slashable agree with the consensus specification: activity is the half-open epoch interval [activation, exit), slashability is not-slashed and the half-open interval [activation, withdrawable), and a slashed validator is never slashable.", "quantifier": "all validator records, all epochs", "why_tests_cant": "2^64 epochs times all records.", "anchors": ["beacon-chain/validator.cpp: is_active, is_eligible_for_activation_queue, is_slashable"]}
{"id": "C29", "title": "One-block SHA-256 assembly routine", "statement": "sha256_1_avx(out, in) stores at out the FIPS 180-4 SHA-256 digest of the 64 bytes at in.", "quantifier": "all 64-byte inputs, all register contents on entry, all 16-byte aligned (by ABI) stacks, all non-overlapping buffers", "why_tests_cant": "2^512 inputs; hand-interleaved assembly.", "anchors": ["ssz/sha256_avx_one_block.asm: sha256_1_avx"]}
{"id": "C30", "title": "Four-lane SHA-256 assembly routine", "statement": "sha256_4_avx(out, in, n) stores for every i < n the SHA-256 digest of the i-th 64-byte block of in at out + 32 i.", "quantifier": "all n, all inputs", "why_tests_cant": "All block counts (4k+r) and all inputs.", "anchors": ["ssz/sha256_avx.asm: sha256_4_avx"]}
{"id": "C31", "title": "Eight-lane SHA-256 assembly routine", "statement": "sha256_8_avx2(out, in, n) stores for every i < n the SHA-256 digest of the i-th 64-byte block of in at out + 32 i.", "quantifier": "all n, all inputs", "why_tests_cant": "All block counts (8k+4j+r) and all inputs.", "anchors": ["ssz/sha256_avx2.asm: sha256_8_avx2", "ssz/transpose_avx2.asm"]}
{"id": "C32", "title": "SHA-NI SHA-256 assembly routine", "statement": "sha256_shani(out, in, n) called with no concurrent call stores for every i < n the SHA-256 digest of the i-th 64-byte block of in at out + 32 i.", "quantifier": "all n, all inputs", "why_tests_cant": "All block counts (2k+r) and all inputs.", "anchors": ["ssz/sha256_shani.asm: sha256_shani"]}
{"id": "C33", "title": "All hasher implementations agree", "statement": "Whatever implementation the Hasher selected (SSE, AVX, AVX2, SHA), hash_64b_blocks writes the same output.", "quantifier": "all implementations, all block counts, all inputs", "why_tests_cant": "Each test machine exercises only what its CPU offers, on 1, 4 or 8 blocks.", "anchors": ["ssz/hasher.cpp: Hasher, sha256_sse", "ssz/*.asm"]}
{"id": "C34", "title": "Assembly routines respect the calling convention", "statement": "On return every callee-saved register and the stack pointer hold their entry values, and memory is modified only in the output range and below the entry stack pointer (and, for sha256_shani, its private scratch variables).", "quantifier": "all block counts, inputs and entry states", "why_tests_cant": "Corruption of the caller's state is silent and depends on the block count.", "anchors": ["ssz/*.asm"]}
{"id": "C35", "title": "Concurrent hashing", "statement": "Two threads hashing disjoint buffers at the same time both obtain the correct digests.", "quantifier": "all interleavings of the instructions of two calls, all inputs", "why_tests_cant": "Races depend on the schedule.", "anchors": ["ssz/sha256_shani.asm: ABEF_SAVEa, CDGH_SAVEa, ABEF_SAVEb, CDGH_SAVEb", "ssz/hasher.cpp"]}
{"id": "C36", "title": "The selected hasher runs on the CPU", "statement": "A default-constructed Hasher selects an implementation all of whose instruction-set extensions are reported by cpuid.", "quantifier": "all cpuid results (including CPUs without leaf 7)", "why_tests_cant": "Requires every CPU model.", "anchors": ["ssz/hasher.cpp: implemented, best_sha256_implementation, Hasher::Hasher"]}
{"id": "C37", "title": "End-to-end root with real SHA-256", "statement": "hash_tree_root() computed with any of the assembly implementations equals the SSZ root computed with FIPS 180-4 SHA-256.", "quantifier": "all classes, all values within limits, all implementations", "why_tests_cant": "Composition of the tree algorithm and the assembly over all values.", "anchors": ["ssz/hashtree.cpp", "ssz/hasher.cpp", "ssz/*.asm"]}
{"id": "C38", "title": "YAML encoding round trip", "statement": "decode(encode(x)) restores x.", "quantifier": "all classes, all values", "why_tests_cant": "All values; text formatting of raw bytes depends on their values.", "anchors": ["common/bitlist.cpp: to_string, from_hexstring", "common/bitvector.hpp: to_string, from_hexstring", "ssz/ssz_container.cpp: encode_, decode_"]}
{"id": "C39", "title": "Fork version constants have the specified byte order", "statement": "GENESIS_FORK_VERSION serializes to the four bytes given in the configuration (00 00 00 00 on mainnet, 00 00 00 01 on minimal).", "quantifier": "both configurations", "why_tests_cant": "No test serializes the constant; the literal looks right.", "anchors": ["config/minimal.hpp.in: GENESIS_FORK_VERSION", "common/bytes.hpp: bytes_from_int"]}
{"id": "C40", "title": "Large encodings", "statement": "The round trip of C01 holds for values of any size, including encodings of 4 GiB and more.", "quantifier": "all values with no size bound", "why_tests_cant": "Offsets are computed modulo 2^32; the failing values do not fit in a test.", "anchors": ["ssz/ssz_container.cpp: compute_fixed_length, serialize_", "common/containers.hpp: ListVariableSizedParts::serialize"]}
{"id": "C41", "title": "Exactly which inputs are undefined", "statement": "Deserialization executes undefined behaviour exactly on the inputs in which a bitlist is decoded from a range without a delimiting bit after everything that is checked before it passed; every other input is accepted (exactly when C10 says so) or rejected with false.", "quantifier": "all containers, all byte strings, all prior states of the object", "why_tests_cant": "The set of such inputs is infinite and depends on the order in which nested offsets are checked; tests only feed valid encodings.", "anchors": ["common/bitlist.cpp: Bitlist::deserialize", "ssz/ssz_container.cpp: deserialize_", "common/containers.hpp: ListVariableSizedParts::deserialize"]}
{"id": "C42", "title": "Reference YAML is decoded", "statement": "For every phase0 container, every value and every YAML node that writes the value the way the reference test vectors do (decimal numbers, hexadecimal bytes and bit fields, sequences, mappings with keys in any order and possibly other keys), decode() returns true and leaves exactly that value in the object, whatever it held before; its serialization and root are then those of the SSZ specification.", "quantifier": "all containers in both configurations, all values, all nodes showing the value, all prior states, all scalar conversions that read decimal numbers and booleans", "why_tests_cant": "The vectors are finitely many samples; key order, extra keys, upper case digits and prior contents are never varied.", "anchors": ["ssz/ssz_container.cpp: decode_", "common/bytes.hpp, bitlist.cpp, bitvector.hpp, slot.hpp, boolean.hpp: decode", "common/containers.hpp: decode"]}
{"id": "C43", "title": "Decoding YAML is memory safe", "statement": "decode() never executes undefined behaviour, whatever the node.", "quantifier": "all containers, all nodes, all prior states", "why_tests_cant": "The tests only decode well-formed files.", "anchors": ["common/bitlist.cpp: from_hexstring", "helpers/bytes_to_int.hpp: hextoint", "common/bitvector.hpp: from_hexstring"]}
{"id": "C44", "title": "YAML is decoded strictly and without history", "statement": "The outcome of decode() depends on the node alone, the decoded object is one its class can hold, and a node is accepted only if it shows the decoded value.", "quantifier": "all containers, all nodes, all pairs of prior states", "why_tests_cant": "Needs comparing all prior states and enumerating all malformed nodes.", "anchors": ["ssz/ssz_container.cpp: decode_", "common/bytes.hpp: from_string", "common/bitlist.cpp: from_hexstring"]}
{"id": "C45", "title": "The vector test passes on correct vectors", "statement": "On every reference test vector whose value.yaml shows a value, whose roots.yaml has its root and whose snappy file has its serialization (below 4 GiB), the three checks of test_ssz succeed.", "quantifier": "all containers, all values, all texts of the files, all hash functions with 32-byte output", "why_tests_cant": "It is a statement about the test itself, for all vectors that could be in the directory.", "anchors": ["beacon-chain/test/test_ssz.cpp: test_ssz"]}
{"id": "C46", "title": "The vector test detects wrong programs", "statement": "If the three checks of test_ssz succeed on a vector, then the expected root is the root of the value, the expected bytes are its serialization, and deserialize applied to them gave the value; no vector makes the test access memory out of bounds.", "quantifier": "all containers, all values, all vectors, all programs in place of deserialize", "why_tests_cant": "A test cannot test which faults it would miss.", "anchors": ["beacon-chain/test/test_ssz.cpp: test_ssz", "ssz/ssz_container.hpp: operator=="]}
{"id": "C47", "title": "Sizes of encodings", "statement": "The encoding of a value within the limits of the specification takes between min_size and max_size bytes, both computed from its SSZ type and both attained; an accepted input is at least min_size long, what was read from it takes no more bytes than the input, and in variable-size classes an input longer than max_size only decodes to values over some limit.", "quantifier": "all containers, all values, all inputs and prior states", "why_tests_cant": "Extremes are combinations of full lists at every level (up to 141 TB for BeaconState).", "anchors": ["ssz/ssz_container.cpp: serialize_, deserialize_", "common/containers.hpp: serialize, deserialize"]}
{"id": "C48", "title": "The requested hash implementation is the one called", "statement": "Hasher(impl) calls the routine of the requested implementation, whose calls execute instructions of exactly the extensions of that implementation; without a request it calls the best one reported by cpuid.", "quantifier": "all cpuid results, all requests, all executions of the routines", "why_tests_cant": "All implementations compute the same function, so that tests of results cannot tell them apart.", "anchors": ["ssz/hasher.cpp: Hasher, best_sha256_implementation", "ssz/hasher.hpp"]}
{"id": "C49", "title": "Counters of type int do not overflow", "statement": "serialize, hash_tree_root and decode give the results they would give if their counters were unbounded: no counter of type int overflows and no index computed in 32 bits wraps around, for any object that was deserialized and any YAML node.", "quantifier": "all classes, all objects they can hold, all YAML nodes", "why_tests_cant": "The counters overflow only for bit lists of 2^31 bits and texts of 2^30 characters, which no test vector has.", "anchors": ["common/bitlist.cpp: Bitlist::hash_tree, Bitlist::serialize, Bitlist::from_hexstring", "common/bitvector.hpp: Bitvector::serialize, Bitvector::from_hexstring"]}
{"id": "C50", "title": "Hashing takes the same time for every input", "statement": "Two calls of an assembly routine with the same pointers and the same number of blocks execute the same instructions in the same order and access the same addresses, whatever the input, and the number of instructions is a fixed function of the number of blocks.", "quantifier": "all four routines, all numbers of blocks, all contents of memory and of the other registers, all places of buffers, stack and data", "why_tests_cant": "A branch or a table index that depends on the data changes no digest; measurements sample a few inputs and are noisy.", "anchors": ["ssz/sha256_avx_one_block.asm", "ssz/sha256_avx.asm", "ssz/sha256_avx2.asm", "ssz/sha256_shani.asm"]}
{"id": "C51", "title": "What the unit tests of the hashers show", "statement": "On every CPU with cpuid leaf 7 and in every process, no test of test_sha256.cpp fails: a test passes if the extension of its guard is reported and is skipped otherwise. The tests together execute every instruction of the assembly except the code for blocks left over after the last group of lanes; any program that differs only there gives the same test results, even if it does not hash.", "quantifier": "all cpuid results, all places of buffers, stack and data, all instructions of the library, all programs that differ from it only in the code for blocks left over", "why_tests_cant": "A test run shows one CPU and one process, and cannot show what the tests themselves never execute or cannot tell apart.", "anchors": ["ssz/test_sha256.cpp: test_hash_sse_1, test_hash_avx_4, test_hash_avx2_8, test_hash_shani", "ssz/hasher.cpp: Hasher::implemented", "ssz/sha256_avx.asm: .hash_1_block", "ssz/sha256_shani.asm: .hash_1_block"]}
{"id": "C52", "title": "The unit tests of the hashers run on the CPUs their guards admit", "statement": "A test of test_sha256.cpp that is not skipped executes only instructions of extensions that the CPU reports.", "quantifier": "all cpuid results, all four tests, all instructions they execute", "why_tests_cant": "The CPUs on which a guard is too weak are not those on which the tests are run.", "anchors": ["ssz/test_sha256.cpp: test_hash_sse_1, test_hash_avx_4, test_hash_avx2_8, test_hash_shani", "ssz/hasher.cpp: Hasher::implemented"]}
{"id": "C53", "title": "A decoded object is no larger than its input", "statement": "After deserialize has accepted an input, the object holds no more than the input: its encoding is not longer. After it has rejected one, the object holds at most what it held before and in addition as much as the input is long. No input makes an object grow by more than its own length.", "quantifier": "all classes, all objects, all inputs, accepted or rejected", "why_tests_cant": "Inputs that amplify would be malformed ones with overlapping or repeated offsets, of which tests try a few.", "anchors": ["ssz/ssz_container.cpp: Container::deserialize_", "common/containers.hpp: ListFixedSizedParts::deserialize, ListVariableSizedParts::deserialize, VectorFixedSizedParts::deserialize", "common/bitlist.cpp: Bitlist::deserialize"]}
{"id": "C54", "title": "The benchmark programs measure correct hashing of a valid state", "statement": "A benchmark program returns 0 exactly if the file it is given is an encoding that BeaconState::deserialize accepts and whose trees fit, and then each of its ten rounds has computed the hash tree root, whichever hasher it was built with; it returns 1 for every other file except those on which deserializing or hashing is undefined. The programs do not ask the CPU before they use the extension of their hasher.", "quantifier": "all files, all four programs, all processes, all CPUs", "why_tests_cant": "The programs are run by hand on one state; that they compute anything right is nowhere looked at.", "anchors": ["bench/bench_sha256_impl.cpp: bench_sha256_impl", "bench/bench_sha256.cpp.in: main", "CMakeLists.txt: CMAKE_HASHER_IMPL_LIST"]}
{"id": "C55", "title": "The unit tests of Bytes detect a wrong order of bytes", "statement": "The library's conversions between integers and Bytes move no byte, and conversions that put the bytes of the integer in any other order, when writing or when reading, at one of the sizes tested (1, 4 and 8 bytes), fail one of the checks of bytes_test.cpp.", "quantifier": "all orders of the bytes at each size, all values", "why_tests_cant": "This is a claim about the tests themselves: which wrong programs they let pass.", "anchors": ["common/bytes_test.cpp: test_bytes_from_int", "common/bytes_test.cpp: test_bytes_to_integer_little_endian", "common/bytes.hpp: bytes_from_int, to_integer_little_endian"]}
{"id": "C56", "title": "Refused YAML leaves the object alone", "statement": "If decode() returns false, the object has the value it had before the call.", "quantifier": "all containers, all nodes, all prior states", "why_tests_cant": "The tests only decode well-formed files and never look at an object after a failure; the nodes that are refused are infinitely many.", "anchors": ["ssz/ssz_container.cpp: decode_", "common/slot.hpp: decode", "common/containers.hpp: Vector::decode, ListFixedSizedParts::decode"]}
{"id": "C57", "title": "The program that runs the reference vectors leaves none out", "statement": "There is one test for every container, looking in the directory with the name of the container; all tests pass on directories of correct vectors; and if all tests pass, every container has been compared with a vector, and every vector in the directories shows the value, the root and the serialization of the specification.", "quantifier": "all directory trees and file contents, all configurations, all hash functions, all programs in place of deserialize", "why_tests_cant": "This is a claim about the test program itself, over all trees of files it may be given.", "anchors": ["beacon-chain/test/test_ssz.cpp: test_ssz, lines 43-46", "beacon-chain/test/test_ssz.cpp: TEST_LIST"]}
