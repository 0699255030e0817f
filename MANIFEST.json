{
 "claims": [
  {
   "property": "C01",
   "status": "proved",
   "theorems": [
    "C01_round_trip",
    "C01_round_trip_containers",
    "C01_within_limits"
   ],
   "note": "All classes with a well-formed description; the 23 containers in both configurations are shown well-formed by computation."
  },
  {
   "property": "C02",
   "status": "proved",
   "theorems": [
    "C02_ssz_conformance",
    "C02_all_containers"
   ],
   "note": "Against the independent SSZ specification SpecSSZ.v and the phase0 type list SpecPhase0.v; holds without the 4 GiB bound (both sides reduce offsets modulo 2^32)."
  },
  {
   "property": "C03",
   "status": "proved",
   "theorems": [
    "C03_size",
    "C03_size_containers"
   ],
   "note": ""
  },
  {
   "property": "C04",
   "status": "proved",
   "theorems": [
    "C04_injective"
   ],
   "note": ""
  },
  {
   "property": "C05",
   "status": "partial",
   "theorems": [
    "C05_canonical_partial",
    "C05_exact_partial",
    "C05_state_mainnet_partial",
    "C05_state_minimal_partial",
    "C05_refuted_trailing",
    "C05_refuted_padding"
   ],
   "note": "The full statement is false of the code: fixed-size containers accept trailing bytes and BeaconState ignores padding bits (both proved). Proved for every class exactly which inputs decode to a value: its encoding, followed by anything in fixed-size classes, and in BeaconState with any upper half of one byte."
  },
  {
   "property": "C06",
   "status": "partial",
   "theorems": [
    "C06_no_ub_partial",
    "C06_no_throw",
    "C06_result_typed",
    "C06_bitlist_ub",
    "C06_refuted"
   ],
   "note": "The full statement is false of the code: each of the six containers holding a bitlist has an input causing undefined behaviour (proved). Proved for all classes without bitlists (17 of the 23 containers)."
  },
  {
   "property": "C07",
   "status": "proved",
   "theorems": [
    "C07_history"
   ],
   "note": "Verdict (true, false, undefined behaviour) and decoded value are independent of the prior object state."
  },
  {
   "property": "C08",
   "status": "partial",
   "theorems": [
    "C08_refuted",
    "C08_leaf_partial",
    "C08_remains_partial",
    "C08_remains_parts_partial",
    "C08_exact_partial",
    "C08_exact_parts_partial"
   ],
   "note": "The full statement is false of the code (Fork witness). Proved for the leaf classes; for all containers and parts, exactly which inputs are rejected and exactly which value each of them leaves in which object: the input has been read as far as possible."
  },
  {
   "property": "C09",
   "status": "partial",
   "theorems": [
    "C09_refuted",
    "C09_refuted_bitlist",
    "C09_ignored"
   ],
   "note": "The statement is false of the code: limits are never checked (C09_ignored: changing the limits of a class changes no result of the codec). By C01_round_trip every over-limit value is accepted."
  },
  {
   "property": "C10",
   "status": "proved",
   "theorems": [
    "C10_acceptance",
    "C10_acceptance_parts",
    "C10_structure",
    "C10_too_short"
   ],
   "note": "Acceptance is characterised exactly (iff) by the independent wire-format relation of SpecWire.v; the structural claims are read off it."
  },
  {
   "property": "C40",
   "status": "partial",
   "theorems": [
    "C40_refuted",
    "C40_refuted_within",
    "C40_exact_partial"
   ],
   "note": "The statement is false of the code: 32-bit offsets wrap around (AttesterSlashing with 2^29 indices; BeaconState with 2^29 balances, which is within the limits). Proved: a value survives exactly if all offsets in its encoding are below 2^32."
  },
  {
   "property": "C11",
   "status": "proved",
   "theorems": [
    "C11_root",
    "C11_root_any"
   ],
   "note": "For all 23 containers in both configurations, every value within its limits and every hash function; C11_root_any for all other well-formed classes."
  },
  {
   "property": "C12",
   "status": "proved",
   "theorems": [
    "C12_safe",
    "C12_exact",
    "C12_doubling",
    "C12_size"
   ],
   "note": "All accesses are bounds-checked in the model; Ok means none was out of bounds. C12_exact covers more chunks than the limit: exactly when the buffer is too small. C12_size: building the tree leaves the node reserved for mix_in unused."
  },
  {
   "property": "C13",
   "status": "partial",
   "theorems": [
    "C13_refuted",
    "C13_within_partial",
    "C13_fixed_partial",
    "C13_exact_partial",
    "C13_accepted_partial",
    "C13_longest",
    "C13_input_partial",
    "C13_raised_limits"
   ],
   "note": "False: an accepted block body with 3 attester slashings (limit 2) makes hash_tree_root write out of bounds. Proved for values within limits and for all fixed-size containers; and for all values it is characterised exactly when the root is undefined, and what it is otherwise."
  },
  {
   "property": "C14",
   "status": "proved",
   "theorems": [
    "C14_binding",
    "C14_beyond"
   ],
   "note": "Also for values beyond their limits that have a root. Collision extraction for every hash with 32-byte output on 64-byte inputs."
  },
  {
   "property": "C15",
   "status": "proved",
   "theorems": [
    "C15_layout"
   ],
   "note": ""
  },
  {
   "property": "C16",
   "status": "proved",
   "theorems": [
    "C16_zero_table",
    "C16_size"
   ],
   "note": ""
  },
  {
   "property": "C17",
   "status": "proved",
   "theorems": [
    "C17_mix_in"
   ],
   "note": ""
  },
  {
   "property": "C18",
   "status": "proved",
   "theorems": [
    "C18_packing"
   ],
   "note": ""
  },
  {
   "property": "C19",
   "status": "proved",
   "theorems": [
    "C19_log2ceil"
   ],
   "note": ""
  },
  {
   "property": "C20",
   "status": "proved",
   "theorems": [
    "C20_squareroot",
    "C20_iterations"
   ],
   "note": "For every initial guess; each loop ends after at most one iteration more than the guess is wrong by."
  },
  {
   "property": "C21",
   "status": "proved",
   "theorems": [
    "C21_ct_sqrt"
   ],
   "note": ""
  },
  {
   "property": "C22",
   "status": "proved",
   "theorems": [
    "C22_bytes_from_int",
    "C22_slot"
   ],
   "note": ""
  },
  {
   "property": "C23",
   "status": "partial",
   "theorems": [
    "C23_refuted",
    "C23_parse_partial",
    "C23_throws_partial",
    "C23_safe_partial"
   ],
   "note": "The rejection of characters that are not hexadecimal digits is false of the code: refuted (read as 0; codes from 128 index out of bounds; a lone last digit is accepted). The other parts are proved."
  },
  {
   "property": "C24",
   "status": "proved",
   "theorems": [
    "C24_xor",
    "C24_plus",
    "C24_eq_vector"
   ],
   "note": ""
  },
  {
   "property": "C25",
   "status": "partial",
   "theorems": [
    "C25_refuted",
    "C25_containers_partial",
    "C25_leaves_partial",
    "C25_reflexive_partial",
    "C25_always_equal",
    "C25_exact_partial"
   ],
   "note": "Refuted for every container except Fork, BeaconBlockHeader, VoluntaryExit and SignedVoluntaryExit (they inherit an operator== that returns true); proved for those four and the leaf classes. C25_exact_partial says for every container which fields are compared."
  },
  {
   "property": "C26",
   "status": "partial",
   "theorems": [
    "C26_refuted",
    "C26_double_vote_missed",
    "C26_surround_partial",
    "C26_sound_partial"
   ],
   "note": "Refuted: double votes are never reported. Proved: the function decides surround votes, and reports nothing that is not slashable."
  },
  {
   "property": "C27",
   "status": "proved",
   "theorems": [
    "C27_valid_indices"
   ],
   "note": ""
  },
  {
   "property": "C28",
   "status": "proved",
   "theorems": [
    "C28_validator",
    "C28_slashed_never"
   ],
   "note": ""
  },
  {
   "property": "C39",
   "status": "partial",
   "theorems": [
    "C39_refuted",
    "C39_mainnet_partial"
   ],
   "note": "Refuted for the minimal configuration (byte order reversed)."
  },
  {
   "property": "C38",
   "status": "partial",
   "theorems": [
    "C38_refuted",
    "C38_bitlist_refuted",
    "C38_bitvector_refuted",
    "C38_no_bits_partial",
    "C38_exact_partial"
   ],
   "note": "Refuted for every Bitlist, Attestation and PendingAttestation and every Bitvector with a bit set; proved for the containers without bit fields; in general exactly the values without a bitlist and without a bit set in a bitvector survive; for any scalar conversions that read back what they wrote (yaml-cpp and bytes_to_string.hpp are not in the repository)."
  },
  {
   "property": "C29",
   "status": "proved",
   "theorems": [
    "C29_one_block"
   ],
   "note": "For every state in which the routine has just been called (any registers, any non-overlapping buffers)."
  },
  {
   "property": "C30",
   "status": "proved",
   "theorems": [
    "C30_four_lanes"
   ],
   "note": "For every block count and input."
  },
  {
   "property": "C31",
   "status": "proved",
   "theorems": [
    "C31_eight_lanes"
   ],
   "note": "For every block count and input."
  },
  {
   "property": "C32",
   "status": "proved",
   "theorems": [
    "C32_sha_extensions"
   ],
   "note": "For every block count and input, one thread."
  },
  {
   "property": "C33",
   "status": "proved",
   "theorems": [
    "C33_agree",
    "C33_digests",
    "C33_returns"
   ],
   "note": "hash_64b_blocks of any two hashers writes the same bytes (the SHA-256 digests); the calls return."
  },
  {
   "property": "C34",
   "status": "proved",
   "theorems": [
    "C34_calling_convention",
    "C34_memory"
   ],
   "note": "Registers on return; memory at every step of the call."
  },
  {
   "property": "C35",
   "status": "partial",
   "theorems": [
    "C35_refuted",
    "C35_interleaved_partial",
    "C35_threads_partial"
   ],
   "note": "False of the code: two concurrent sha256_shani calls race on global variables (an interleaving with a wrong digest is exhibited). Proved for every interleaving of two calls that do not write to what the other uses (any routines except sha256_shani beside itself). C35_threads_partial extends it to any number of threads making any number of calls with other code in between. Missing: nothing but the case in which the claim is false (two threads inside sha256_shani)."
  },
  {
   "property": "C36",
   "status": "partial",
   "theorems": [
    "C36_refuted",
    "C36_refuted_leaf7",
    "C36_exact_partial",
    "C36_code"
   ],
   "note": "False of the code: without AVX the fallback still executes AVX instructions; without cpuid leaf 7 an uninitialised variable is read. Proved: exactly which cpuid results make every instruction that any call of the chosen routine executes one of a reported extension, and that no call leaves the text of its routine."
  },
  {
   "property": "C37",
   "status": "proved",
   "theorems": [
    "C37_root",
    "C37_root_any"
   ],
   "note": "Roots computed with the function on blocks that any of the hashers computes are the SSZ roots with FIPS 180-4 SHA-256."
  },
  {
   "property": "C41",
   "status": "proved",
   "theorems": [
    "C41_undefined",
    "C41_undefined_parts",
    "C41_rejected",
    "C41_attestation"
   ],
   "note": "The description is SpecUndef.v; it completes C06 and C10: the verdict is known for every input."
  },
  {
   "property": "C42",
   "status": "proved",
   "theorems": [
    "C42_decoded",
    "C42_decoded_parts",
    "C42_vector",
    "C42_every_value"
   ],
   "note": "The form of the vectors is SpecText.shows; what is assumed of yaml-cpp is SpecText.reads."
  },
  {
   "property": "C43",
   "status": "partial",
   "theorems": [
    "C43_refuted",
    "C43_characters_refuted",
    "C43_bitlist",
    "C43_delimited_partial",
    "C43_no_bitlist_partial",
    "C43_exact_partial",
    "C43_exact_parts_partial"
   ],
   "note": "False: a bitlist without digits (or whose last byte is zero) and characters outside ASCII are undefined. Proved that nothing else is: ASCII nodes whose bitlists have a delimiting bit are decoded without undefined behaviour. C43_exact_partial: the undefined nodes exactly."
  },
  {
   "property": "C44",
   "status": "partial",
   "theorems": [
    "C44_history",
    "C44_complete_partial",
    "C44_typed",
    "C44_bytes_refuted",
    "C44_bitvector_refuted",
    "C44_bitlist_refuted",
    "C44_exact_partial",
    "C44_exact_parts_partial"
   ],
   "note": "The outcome depends on the node alone and the object can hold the result; an accepted node has every field, element and prefix that the type needs. But byte vectors may be short or not hexadecimal, bitvectors short, bitlists over the limit. C44_exact_partial: the accepted nodes and their values exactly."
  },
  {
   "property": "C45",
   "status": "proved",
   "theorems": [
    "C45_passes"
   ],
   "note": ""
  },
  {
   "property": "C46",
   "status": "partial",
   "theorems": [
    "C46_deserialize_refuted",
    "C46_short_refuted",
    "C46_overflow_refuted",
    "C46_root_serialize_partial",
    "C46_deserialize_partial",
    "C46_exact_partial",
    "C46_undefined_partial"
   ],
   "note": "False: for 18 classes any deserialize passes, trailing zeros may be missing from the expected bytes, longer expected bytes overflow the buffer. Proved: the root is compared, the serialization up to zeros at its end, and deserialize in four classes; exactly the vectors that pass and those on which the program is undefined (numbers of elements up to 2^42)."
  },
  {
   "property": "C47",
   "status": "proved",
   "theorems": [
    "C47_bounds",
    "C47_attained",
    "C47_accepted",
    "C47_small"
   ],
   "note": "The bounds are computed from the SSZ types by SpecSize.v and attained."
  },
  {
   "property": "C48",
   "status": "proved",
   "theorems": [
    "C48_requested",
    "C48_default"
   ],
   "note": "Names the routine called and exactly the extensions its calls execute."
  },
  {
   "property": "C49",
   "status": "partial",
   "theorems": [
    "C49_refuted",
    "C49_serialize_partial",
    "C49_root_partial",
    "C49_within_limits",
    "C49_inputs_partial",
    "C49_decode_partial",
    "C49_bitlist_text",
    "C49_bitvector_text",
    "C49_decode_exact",
    "C49_decode_exact_parts",
    "C49_text_refuted"
   ],
   "note": "False for bit lists of 2^31 bits, which deserialize accepts, and for texts of 2^30 characters. Proved: exactly the objects for which serialize and hash_tree_root overflow, none within the limits of the specification or from inputs below 256 MiB; what decode makes of every node, by way of the node that unbounded counters would have to read."
  },
  {
   "property": "C50",
   "status": "proved",
   "theorems": [
    "C50_constant_time",
    "C50_instructions"
   ],
   "note": "In the model of timing where time depends on the instructions executed and on the addresses accessed. No routine has an instruction whose duration depends on its operands, such as a division."
  },
  {
   "property": "C51",
   "status": "proved",
   "theorems": [
    "C51_passes",
    "C51_decides",
    "C51_returns",
    "C51_coverage",
    "C51_blind",
    "C51_wrong_program"
   ],
   "note": "The places the tests never execute are 236 of 13079 (the loop of sha256_4_avx over single blocks and the single-block code of sha256_shani). Without cpuid leaf 7 the tests are undefined."
  },
  {
   "property": "C52",
   "status": "partial",
   "theorems": [
    "C52_refuted",
    "C52_exact_partial"
   ],
   "note": "False: the test hash_avx_1 is guarded by SSE3 and executes AVX instructions. C52_exact_partial: exactly which extensions each test needs besides its guard."
  },
  {
   "property": "C53",
   "status": "proved",
   "theorems": [
    "C53_bounded",
    "C53_bounded_parts"
   ],
   "note": "Sizes are those of the encodings; temporary objects inside deserialize are not counted."
  },
  {
   "property": "C54",
   "status": "proved",
   "theorems": [
    "C54_exit",
    "C54_state",
    "C54_nothing",
    "C54_extensions"
   ],
   "note": "Stated for files up to 2^39 bytes and a hasher that works for as many blocks as the longest sequence in the state needs. The clock and the output are not modelled; the table of zero hashes is computed with the same hasher as the trees."
  },
  {
   "property": "C55",
   "status": "partial",
   "theorems": [
    "C55_library",
    "C55_exact",
    "C55_refuted",
    "C55_reads_refuted",
    "C55_writes_partial",
    "C55_reads_partial"
   ],
   "note": "False: the tests use no value of 2^32 or more, so any order of the upper four of eight bytes passes. C55_exact: exactly the orders that pass; the _partial theorems: those that pass are right on every value below 2^32."
  },
  {
   "property": "C56",
   "status": "partial",
   "theorems": [
    "C56_refuted",
    "C56_exact_partial",
    "C56_exact_parts_partial",
    "C56_throws"
   ],
   "note": "False: fields in front of the refused one have been overwritten. C56_exact_partial: exactly the nodes that are refused and what each leaves in the object; C56_throws: exactly the nodes that throw. What an exception leaves in the object is not modelled."
  },
  {
   "property": "C57",
   "status": "partial",
   "theorems": [
    "C57_covers",
    "C57_once",
    "C57_passes",
    "C57_refuted",
    "C57_exact_partial",
    "C57_files_partial",
    "C57_sound_partial"
   ],
   "note": "False: empty directories pass without a check, and serializations may lack zeros at the end (C46). C57_exact_partial and C57_files_partial: exactly when a test passes; C57_sound_partial: what that says about the vectors that are there. What acutest does around the tests is left out."
  }
 ]
}