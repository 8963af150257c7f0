{
 "claims": [
  {
   "property": "C01",
   "status": "proved",
   "theorems": [
    "C01_one_shot"
   ],
   "note": "Against the stand-alone RFC 7693 specification in Spec.v. (rocq/theories/PropsHash.v)"
  },
  {
   "property": "C02",
   "status": "proved",
   "theorems": [
    "C02_split_states",
    "C02_split_hashes",
    "C02_split_value"
   ],
   "note": "Stated and proved at full strength. (rocq/theories/PropsHash.v)"
  },
  {
   "property": "C03",
   "status": "proved",
   "theorems": [
    "C03_programs",
    "C03_all_results"
   ],
   "note": "Forward simulation from the model of the code to an abstract machine whose states are (parameters, flag, bytes). (rocq/theories/PropsPrograms.v)"
  },
  {
   "property": "C04",
   "status": "proved",
   "theorems": [
    "C04_finalize_again"
   ],
   "note": "Stated and proved at full strength. (rocq/theories/PropsHash.v)"
  },
  {
   "property": "C05",
   "status": "proved",
   "theorems": [
    "C05_portable_compress"
   ],
   "note": "Stated and proved at full strength. (rocq/theories/PropsCompression.v)"
  },
  {
   "property": "C06",
   "status": "proved",
   "theorems": [
    "C06_sse41_compress",
    "C06_sse41_compress_F"
   ],
   "note": "Stated and proved at full strength. (rocq/theories/PropsCompression.v)"
  },
  {
   "property": "C07",
   "status": "proved",
   "theorems": [
    "C07_avx2_compress8",
    "C07_portable_compress8",
    "C07_compress8_agree"
   ],
   "note": "Stated and proved at full strength. (rocq/theories/PropsCompression.v)"
  },
  {
   "property": "C08",
   "status": "proved",
   "theorems": [
    "C08_vectorize_twice",
    "C08_avx2_session",
    "C08_portable_session",
    "C08_sessions_agree"
   ],
   "note": "Stated and proved at full strength. (rocq/theories/PropsCompression.v)"
  },
  {
   "property": "C09",
   "status": "proved",
   "theorems": [
    "C09_sse41_compress4"
   ],
   "note": "Stated and proved at full strength. (rocq/theories/PropsCompression.v)"
  },
  {
   "property": "C10",
   "status": "proved",
   "theorems": [
    "C10_parameter_block"
   ],
   "note": "Stated and proved at full strength. (rocq/theories/PropsParams.v)"
  },
  {
   "property": "C11",
   "status": "proved",
   "theorems": [
    "C11_parameters_injective"
   ],
   "note": "Stated and proved at full strength. (rocq/theories/PropsParams.v)"
  },
  {
   "property": "C12",
   "status": "proved",
   "theorems": [
    "C12_setters_reject",
    "C12_sp_setters_reject",
    "C12_chains",
    "C12_sp_chains"
   ],
   "note": "Stated and proved at full strength. (rocq/theories/PropsParams.v)"
  },
  {
   "property": "C13",
   "status": "proved",
   "theorems": [
    "C13_last_call_wins",
    "C13_setters_commute",
    "C13_overwrite",
    "C13_sp_last_call_wins"
   ],
   "note": "Stated and proved at full strength. (rocq/theories/PropsParams.v)"
  },
  {
   "property": "C14",
   "status": "proved",
   "theorems": [
    "C14_update8"
   ],
   "note": "Stated and proved at full strength. (rocq/theories/PropsMany.v)"
  },
  {
   "property": "C15",
   "status": "proved",
   "theorems": [
    "C15_finalize8"
   ],
   "note": "Stated and proved at full strength. (rocq/theories/PropsMany.v)"
  },
  {
   "property": "C16",
   "status": "proved",
   "theorems": [
    "C16_hash8"
   ],
   "note": "Stated and proved at full strength. (rocq/theories/PropsMany.v)"
  },
  {
   "property": "C17",
   "status": "proved",
   "theorems": [
    "C17_hash8_rejects_keys"
   ],
   "note": "Stated and proved at full strength. (rocq/theories/PropsMany.v)"
  },
  {
   "property": "C18",
   "status": "proved",
   "theorems": [
    "C18_hash8_exact",
    "C18_hash4_exact"
   ],
   "note": "Stated and proved at full strength. (rocq/theories/PropsMany.v)"
  },
  {
   "property": "C19",
   "status": "proved",
   "theorems": [
    "C19_hash8_exact_lengths",
    "C19_hash4_exact_lengths"
   ],
   "note": "Stated and proved at full strength. (rocq/theories/PropsMany.v)"
  },
  {
   "property": "C20",
   "status": "proved",
   "theorems": [
    "C20_hash8_exact_keyed_refuted",
    "C20_hash4_exact_keyed_refuted",
    "C20_hash8_exact_value",
    "C20_hash4_exact_value"
   ],
   "note": "The expected contract is refuted by computed witnesses for the SIMD code; the *_value theorems say exactly what is returned, for every keyed parameter set and platform. (rocq/theories/PropsMany.v)"
  },
  {
   "property": "C21",
   "status": "proved",
   "theorems": [
    "C21_unkeyed",
    "C21_one_shot"
   ],
   "note": "Stated and proved at full strength. (rocq/theories/PropsSp.v)"
  },
  {
   "property": "C22",
   "status": "proved",
   "theorems": [
    "C22_keyed_short"
   ],
   "note": "Stated and proved at full strength. (rocq/theories/PropsSp.v)"
  },
  {
   "property": "C23",
   "status": "proved",
   "theorems": [
    "C23_keyed_long_refuted",
    "C23_keyed_split_refuted",
    "C23_keyed_1025_refuted",
    "C23_keyed_fit",
    "C23_keyed_debug_panics",
    "C23_keyed_release",
    "C23_keyed_release_right",
    "C23_keyed_settled"
   ],
   "note": "The expected contract is refuted by the *_refuted witnesses. C23_keyed_fit, C23_keyed_debug_panics and C23_keyed_release together give the result for every history and build. (rocq/theories/PropsSp.v)"
  },
  {
   "property": "C24",
   "status": "proved",
   "theorems": [
    "C24_sp_programs"
   ],
   "note": "Stated and proved at full strength. (rocq/theories/PropsSp.v)"
  },
  {
   "property": "C25",
   "status": "proved",
   "theorems": [
    "C25_count",
    "C25_count_is_bytes_input_refuted",
    "C25_sp_count"
   ],
   "note": "The documented meaning (bytes input so far) is refuted for keyed states; C25_count and C25_sp_count give the true value in all cases. (rocq/theories/PropsHash.v)"
  },
  {
   "property": "C26",
   "status": "proved",
   "theorems": [
    "C26_hash_length",
    "C26_any_hash"
   ],
   "note": "Stated and proved at full strength. (rocq/theories/PropsText.v)"
  },
  {
   "property": "C27",
   "status": "proved",
   "theorems": [
    "C27_hash_eq",
    "C27_hash_eq_slice",
    "C27_equivalence"
   ],
   "note": "Stated and proved at full strength. (rocq/theories/PropsText.v)"
  },
  {
   "property": "C28",
   "status": "proved",
   "theorems": [
    "C28_hex",
    "C28_hex_injective"
   ],
   "note": "Stated and proved at full strength. (rocq/theories/PropsText.v)"
  },
  {
   "property": "C29",
   "status": "proved",
   "theorems": [
    "C29_programs",
    "C29_state",
    "C29_sp_state",
    "C29_sp_params"
   ],
   "note": "A two-run theorem: two programs that differ only in key bytes and message bytes (same lengths) print the same Debug text everywhere, for whole programs and for single states. (rocq/theories/PropsSecrecy.v)"
  },
  {
   "property": "C30",
   "status": "proved",
   "theorems": [
    "C30_no_undefined_behaviour",
    "C30_sse41_needed",
    "C30_avx2_needed",
    "C30_avx2_implies_sse41_needed"
   ],
   "note": "Undefined behaviour in the model is a raw read outside a slice, or an instruction-set-specific routine on a CPU without it. Rust's aliasing rules and the compiler are outside the model. (rocq/theories/PropsPrograms.v)"
  },
  {
   "property": "C31",
   "status": "proved",
   "theorems": [
    "C31_only_documented_panics",
    "C31_release_panics"
   ],
   "note": "Keyed BLAKE2sp histories are excluded by the property and are the subject of C23. (rocq/theories/PropsPrograms.v)"
  },
  {
   "property": "C32",
   "status": "proved",
   "theorems": [
    "C32_platforms",
    "C32_profiles"
   ],
   "note": "Stated and proved at full strength. (rocq/theories/PropsPrograms.v)"
  },
  {
   "property": "C33",
   "status": "proved",
   "theorems": [
    "C33_collision",
    "C33_truncated_collision"
   ],
   "note": "Stated and proved at full strength. (rocq/theories/PropsCollision.v)"
  },
  {
   "property": "C34",
   "status": "proved",
   "theorems": [
    "C34_write",
    "C34_write_all",
    "C34_sp_write_all"
   ],
   "note": "Stated and proved at full strength. (rocq/theories/PropsHash.v)"
  },
  {
   "property": "C35",
   "status": "proved",
   "theorems": [
    "C35_set_last_node",
    "C35_interleaved"
   ],
   "note": "Stated and proved at full strength. (rocq/theories/PropsHash.v)"
  },
  {
   "property": "C36",
   "status": "proved",
   "theorems": [
    "C36_constructors",
    "C36_empty_key",
    "C36_sp_empty_key",
    "C36_new_state"
   ],
   "note": "Stated and proved at full strength. (rocq/theories/PropsParams.v)"
  },
  {
   "property": "C37",
   "status": "proved",
   "theorems": [
    "C37_force_portable",
    "C37_sp_force_portable"
   ],
   "note": "Stated and proved at full strength. (rocq/theories/PropsHash.v)"
  },
  {
   "property": "C38",
   "status": "proved",
   "theorems": [
    "C38_counter_overflow",
    "C38_wrapped_hash"
   ],
   "note": "Stated on states whose counter is near 2^64, however they were reached. (rocq/theories/PropsHash.v)"
  },
  {
   "property": "C39",
   "status": "proved",
   "theorems": [
    "C39_blocks_compressed",
    "C39_any_state",
    "C39_terminates"
   ],
   "note": "Stated and proved at full strength. (rocq/theories/PropsHash.v)"
  },
  {
   "property": "C40",
   "status": "proved",
   "theorems": [
    "C40_sp_collision",
    "C40_sp_truncated_collision"
   ],
   "note": "Stated and proved at full strength. (rocq/theories/PropsCollision.v)"
  },
  {
   "property": "C41",
   "status": "proved",
   "theorems": [
    "C41_sp_debug",
    "C41_sp_debug_keyed",
    "C41_sp_debug_split_refuted"
   ],
   "note": "C41_sp_debug and C41_sp_debug_keyed give the text for every history; C41_sp_debug_split_refuted is the pair of splits. Keyed states in builds with debug assertions are left to C29 (they panic once a group is settled, C23). (rocq/theories/PropsSp.v)"
  },
  {
   "property": "C42",
   "status": "proved",
   "theorems": [
    "C42_any_call",
    "C42_after_panics"
   ],
   "note": "Objects are arbitrary values of their Rust types (buffer lengths and word counts as the types fix them); nothing is assumed about buflen, count or flags. (rocq/theories/PropsPrograms.v)"
  },
  {
   "property": "C43",
   "status": "proved",
   "theorems": [
    "C43_reference",
    "C43_test_buffering"
   ],
   "note": "The test code is modelled in TestCode.v. (rocq/theories/PropsSp.v)"
  },
  {
   "property": "C44",
   "status": "proved",
   "theorems": [
    "C44_same_results",
    "C44_programs",
    "C44_programs_text",
    "C44_eq",
    "C44_hex_lookups",
    "C44_checks",
    "C44_accesses",
    "C44_choices",
    "C44_text_refuted"
   ],
   "note": "A second model of every function that also lists its events, proved to compute the same results. C44_checks, C44_accesses and C44_choices say that what is recorded is what decides success, the data returned and the values chosen. A compression routine is one event; the compiler is not modelled. The exception for to_hex is C44_hex_lookups, and C44_text_refuted is its witness. (rocq/theories/PropsTrace.v)"
  },
  {
   "property": "C45",
   "status": "proved",
   "theorems": [
    "C45_calls",
    "C45_sp_calls",
    "C45_sp_keyed_calls",
    "C45_work",
    "C45_sp_work",
    "C45_hash8_exact",
    "C45_hash4_exact",
    "C45_same_results",
    "C45_sp_same_results"
   ],
   "note": "Stated on the traced model of C44, for computations that succeed; C45_same_results ties it to the plain model. C45_work and C45_sp_work compare with the list of compression calls in Spec.v. C45_sp_keyed_calls shows the misplaced key block of C23 in the calls; the number of blocks is right all the same. (rocq/theories/PropsCalls.v)"
  },
  {
   "property": "C46",
   "status": "proved",
   "theorems": [
    "C46_round",
    "C46_round_message",
    "C46_round_8x",
    "C46_round_8x_message",
    "C46_round_4",
    "C46_round_4_message",
    "C46_row_rounds",
    "C46_compress"
   ],
   "note": "Inverses are constructed step by step for the portable code and carried to the SIMD code lane by lane (row by row for SSE4.1). (rocq/theories/PropsMixing.v)"
  },
  {
   "property": "C47",
   "status": "proved",
   "theorems": [
    "C47_compression_impls",
    "C47_vectors",
    "C47_multiple_finalizes",
    "C47_write",
    "C47_all_parameters",
    "C47_all_parameters_blake2sp",
    "C47_blake2sp_long_keyed",
    "C47_kat_blake2s",
    "C47_kat_blake2sp",
    "C47_should_panic",
    "C47_crate_tests",
    "C47_inputs",
    "C47_limits"
   ],
   "note": "The tests are modelled in TestSuite.v with inputs and expected values as arguments, and in TestRun.v with their own. C47_blake2sp_long_keyed says that the blake2sp test of all parameters panics in debug builds for longer inputs (C23). C47_inputs and C47_limits say what the tests' own inputs are. (rocq/theories/PropsTests.v)"
  },
  {
   "property": "C48",
   "status": "proved",
   "theorems": [
    "C48_update8_runs",
    "C48_update8",
    "C48_hash4_exact",
    "C48_hash8_exact",
    "C48_hash8"
   ],
   "note": "The example shows that test_hash4_exact fails when given a key, because of C20. (rocq/theories/PropsTests.v)"
  },
  {
   "property": "C49",
   "status": "proved",
   "theorems": [
    "C49_avx2_units",
    "C49_sse41_units"
   ],
   "note": "Stated and proved at full strength. (rocq/theories/PropsTests.v)"
  },
  {
   "property": "C50",
   "status": "proved",
   "theorems": [
    "C50_programs"
   ],
   "note": "On the traced model of C44, whose results are the model's by C44_same_results. Programs that go on after a caught panic are the subject of C42. (rocq/theories/PropsBounds.v)"
  },
  {
   "property": "C51",
   "status": "proved",
   "theorems": [
    "C51_compress",
    "C51_compress8",
    "C51_compress4_transposed",
    "C51_wide8",
    "C51_unguarded_refuted",
    "C51_portable",
    "C51_do_update8",
    "C51_hashes",
    "C51_gig",
    "C51_eighths",
    "C51_count_cycles"
   ],
   "note": "Clocks, printing and black_box are left out; buffers and iteration counts are arguments. count_cycles does not compile as it is (it names benchmarks::compress8_transposed_avx2, which the crate does not have) and is modelled without that case. C51_unguarded_refuted gives the undefined behaviour. (rocq/theories/PropsBenches.v)"
  },
  {
   "property": "C52",
   "status": "proved",
   "theorems": [
    "C52_programs",
    "C52_creation",
    "C52_forced_at_once",
    "C52_many_refuted"
   ],
   "note": "On the traced model of C44. C52_many_refuted has a witness for update8 and finalize8. (rocq/theories/PropsPortable.v)"
  },
  {
   "property": "C53",
   "status": "proved",
   "theorems": [
    "C53_reference",
    "C53_specification",
    "C53_selftest",
    "C53_constants"
   ],
   "note": "Reference.v is the C code of RFC 7693, written from memory of the RFC (no network); its self-test gives the RFC's check value, which is evidence that it was written down correctly. (rocq/theories/PropsReference.v)"
  },
  {
   "property": "C54",
   "status": "proved",
   "theorems": [
    "C54_registers",
    "C54_sse41",
    "C54_avx2",
    "C54_byte_shuffles",
    "C54_loads",
    "C54_constants"
   ],
   "note": "Stated and proved at full strength. (rocq/theories/PropsIntel.v)"
  },
  {
   "property": "C55",
   "status": "proved",
   "theorems": [
    "C55_blake2s",
    "C55_blake2sp",
    "C55_others",
    "C55_hex"
   ],
   "note": "Stated and proved at full strength. (rocq/theories/PropsVectors.v)"
  },
  {
   "property": "C56",
   "status": "proved",
   "theorems": [
    "C56_hash8",
    "C56_hash8_work",
    "C56_update8",
    "C56_update8_work",
    "C56_finalize8"
   ],
   "note": "Stated and proved at full strength. (rocq/theories/PropsWide.v)"
  },
  {
   "property": "C57",
   "status": "proved",
   "theorems": [
    "C57_calls_decode",
    "C57_sp_calls_decode",
    "C57_modes_apart",
    "C57_last_apart",
    "C57_nodes_apart",
    "C57_node_apart_from_state"
   ],
   "note": "Stated and proved at full strength. (rocq/theories/PropsSeparation.v)"
  },
  {
   "property": "C58",
   "status": "proved",
   "theorems": [
    "C58_sse41_compress",
    "C58_avx2_compress8",
    "C58_avx2_vectorize_words8",
    "C58_avx2_compress8_vectorized",
    "C58_sse41_hash4_exact",
    "C58_avx2_hash8_exact",
    "C58_sse41_hash4_exact_digests",
    "C58_avx2_hash8_exact_digests",
    "C58_stored",
    "C58_sse41_compress_needs",
    "C58_avx2_compress8_needs",
    "C58_avx2_vectorize_words8_needs",
    "C58_avx2_compress8_vectorized_needs"
   ],
   "note": "For pointers that may access their whole allocation; the AVX2 theorems hold under the stricter rule of C59 too. C58_avx2_hash8_exact says, for inputs of different lengths, exactly when an input is read past its end. Locals are values, except those written through raw pointers. (rocq/theories/PropsMemory.v)"
  },
  {
   "property": "C59",
   "status": "proved",
   "theorems": [
    "C59_sse41_compress_refuted",
    "C59_sse41_export_hashes_refuted",
    "C59_sse41_hash4_exact_refuted",
    "C59_sse41_message_loads",
    "C59_avx2_compress8",
    "C59_avx2_vectorized",
    "C59_avx2_hash8_exact"
   ],
   "note": "Which other pointers an access invalidates (the stacks of Stacked Borrows) is not modelled. (rocq/theories/PropsMemory.v)"
  },
  {
   "property": "C60",
   "status": "proved",
   "theorems": [
    "C60_portable",
    "C60_sse41",
    "C60_avx2"
   ],
   "note": "The loads of messages of the vector routines are in C58; sse41::compress uses no arrays. (rocq/theories/PropsInside.v)"
  },
  {
   "property": "C61",
   "status": "proved",
   "theorems": [
    "C61_gig",
    "C61_cycles",
    "C61_libsodium",
    "C61_libsodium_fastest_refuted",
    "C61_gig_duration",
    "C61_gig_back",
    "C61_gig_too_long"
   ],
   "note": "Duration arithmetic is that of std as documented; newer versions round the average better. The figures in seconds and GB/s are floating point quotients of the times, not modelled. (rocq/theories/PropsTiming.v)"
  },
  {
   "property": "C62",
   "status": "proved",
   "theorems": [
    "C62_offsets"
   ],
   "note": "Offsets are those of the recorded accesses of the traced model; that the sums in the source are ends of accesses is by reading. (rocq/theories/PropsBounds.v)"
  },
  {
   "property": "C63",
   "status": "proved",
   "theorems": [
    "C63_hash",
    "C63_count"
   ],
   "note": "With a key the limit is 1024 bytes (C23). (rocq/theories/PropsLimits.v)"
  },
  {
   "property": "C64",
   "status": "proved",
   "theorems": [
    "C64_results",
    "C64_sse41_compress",
    "C64_avx2_compress8",
    "C64_avx2_vectorize_words8",
    "C64_avx2_compress8_vectorized",
    "C64_sse41_hash4_exact",
    "C64_avx2_hash8_exact",
    "C64_places"
   ],
   "note": "Stated and proved at full strength. (rocq/theories/PropsAddresses.v)"
  },
  {
   "property": "C65",
   "status": "proved",
   "theorems": [
    "C65_avx2_compress8",
    "C65_avx2_vectorize_words8",
    "C65_avx2_compress8_vectorized",
    "C65_avx2_hash8_exact",
    "C65_sse41_compress_refuted",
    "C65_sse41_compress_repaired",
    "C65_sse41_hash4_exact_refuted",
    "C65_sse41_hash4_exact_repaired",
    "C65_rules_write",
    "C65_rules_read",
    "C65_rules_shared",
    "C65_rules_raw",
    "C65_rules_protected_write",
    "C65_rules_protected_read",
    "C65_rules_locals"
   ],
   "note": "Refuted for sse41::compress and sse41::hash4_exact (C65_sse41_*_refuted), proved for their repaired variants and for the AVX2 routines. With protectors: the theorems hold for any set of older protected tags, and calls inside protect their reference arguments. (rocq/theories/PropsBorrows.v)"
  },
  {
   "property": "C66",
   "status": "proved",
   "theorems": [
    "C66_avx2_compress8",
    "C66_avx2_vectorize_words8",
    "C66_avx2_compress8_vectorized",
    "C66_avx2_hash8_exact",
    "C66_sse41_compress",
    "C66_sse41_hash4_exact",
    "C66_rules_write",
    "C66_rules_read",
    "C66_rules_shared",
    "C66_rules_lent",
    "C66_rules_protected",
    "C66_rules_conflict",
    "C66_rules_return",
    "C66_rules_stop",
    "C66_rules_locals",
    "C66_rules_elsewhere"
   ],
   "note": "The code is that of C65 with the accesses of Tree Borrows, protectors included; the caller may protect any older tags that allow the accesses (readable, writable). The C66_rules_* theorems say what the rules forbid. (rocq/theories/PropsTrees.v)"
  },
  {
   "property": "C67",
   "status": "proved",
   "theorems": [
    "C67_hash8_exact",
    "C67_hash4_exact",
    "C67_hash8_exact_any_key",
    "C67_hash4_exact_any_key",
    "C67_sp_keyed",
    "C67_sp_collision",
    "C67_calls"
   ],
   "note": "Up to a collision of the compression function between the two computations, as in C33 and C40. (rocq/theories/PropsWrong.v)"
  },
  {
   "property": "C68",
   "status": "proved",
   "theorems": [
    "C68_same_calls",
    "C68_types",
    "C68_every_call",
    "C68_setters",
    "C68_sp_setters",
    "C68_programs",
    "C68_release_programs",
    "C68_overflow",
    "C68_update8",
    "C68_sp_overflow",
    "C68_sp_keyed"
   ],
   "note": "What is left is said for setters, for State::update, update8 and unkeyed BLAKE2sp when a counter overflows, for keyed BLAKE2sp, and for whole programs without these. (rocq/theories/PropsUnwind.v)"
  },
  {
   "property": "C69",
   "status": "proved",
   "theorems": [
    "C69_any_contents",
    "C69_update8",
    "C69_every_state",
    "C69_midway",
    "C69_wrong_count",
    "C69_same_contents"
   ],
   "note": "For BLAKE2s states; BLAKE2sp states are the subject of C70. (rocq/theories/PropsResume.v)"
  },
  {
   "property": "C70",
   "status": "proved",
   "theorems": [
    "C70_any_contents",
    "C70_midway",
    "C70_every_state",
    "C70_same_contents"
   ],
   "note": "Leaf buffers are empty in all states of unkeyed BLAKE2sp; keyed states, whose leaves hold the key block, are the subject of C23 and C67. (rocq/theories/PropsSpResume.v)"
  }
 ]
}
