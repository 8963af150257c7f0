{
"C01": {"note": "Against the stand-alone RFC 7693 specification in Spec.v."},
"C03": {"note": "Forward simulation from the model of the code to an abstract machine whose states are (parameters, flag, bytes)."},
"C20": {"note": "The expected contract is refuted by computed witnesses for the SIMD code; the *_value theorems say exactly what is returned, for every keyed parameter set and platform."},
"C23": {"note": "The expected contract is refuted by the *_refuted witnesses. C23_keyed_fit, C23_keyed_debug_panics and C23_keyed_release together give the result for every history and build."},
"C25": {"note": "The documented meaning (bytes input so far) is refuted for keyed states; C25_count and C25_sp_count give the true value in all cases."},
"C29": {"note": "A two-run theorem: two programs that differ only in key bytes and message bytes (same lengths) print the same Debug text everywhere, for whole programs and for single states."},
"C30": {"note": "Undefined behaviour in the model is a raw read outside a slice, or an instruction-set-specific routine on a CPU without it. Rust's aliasing rules and the compiler are outside the model."},
"C31": {"note": "Keyed BLAKE2sp histories are excluded by the property and are the subject of C23."},
"C38": {"note": "Stated on states whose counter is near 2^64, however they were reached."},
"C41": {"note": "C41_sp_debug and C41_sp_debug_keyed give the text for every history; C41_sp_debug_split_refuted is the pair of splits. Keyed states in builds with debug assertions are left to C29 (they panic once a group is settled, C23)."},
"C42": {"note": "Objects are arbitrary values of their Rust types (buffer lengths and word counts as the types fix them); nothing is assumed about buflen, count or flags."},
"C43": {"note": "The test code is modelled in TestCode.v."},
"C44": {"note": "A second model of every function that also lists its events, proved to compute the same results. C44_checks, C44_accesses and C44_choices say that what is recorded is what decides success, the data returned and the values chosen. A compression routine is one event; the compiler is not modelled. The exception for to_hex is C44_hex_lookups, and C44_text_refuted is its witness."},
"C45": {"note": "Stated on the traced model of C44, for computations that succeed; C45_same_results ties it to the plain model. C45_work and C45_sp_work compare with the list of compression calls in Spec.v. C45_sp_keyed_calls shows the misplaced key block of C23 in the calls; the number of blocks is right all the same."},
"C46": {"note": "Inverses are constructed step by step for the portable code and carried to the SIMD code lane by lane (row by row for SSE4.1)."},
"C47": {"note": "The tests are modelled in TestSuite.v with inputs and expected values as arguments, and in TestRun.v with their own. C47_blake2sp_long_keyed says that the blake2sp test of all parameters panics in debug builds for longer inputs (C23). C47_inputs and C47_limits say what the tests' own inputs are."},
"C48": {"note": "The example shows that test_hash4_exact fails when given a key, because of C20."},
"C50": {"note": "On the traced model of C44, whose results are the model's by C44_same_results. Programs that go on after a caught panic are the subject of C42."},
"C51": {"note": "Clocks, printing and black_box are left out; buffers and iteration counts are arguments. count_cycles does not compile as it is (it names benchmarks::compress8_transposed_avx2, which the crate does not have) and is modelled without that case. C51_unguarded_refuted gives the undefined behaviour."},
"C52": {"note": "On the traced model of C44. C52_many_refuted has a witness for update8 and finalize8."},
"C53": {"note": "Reference.v is the C code of RFC 7693, written from memory of the RFC (no network); its self-test gives the RFC's check value, which is evidence that it was written down correctly."},
"C58": {"note": "For pointers that may access their whole allocation; the AVX2 theorems hold under the stricter rule of C59 too. C58_avx2_hash8_exact says, for inputs of different lengths, exactly when an input is read past its end. Locals are values, except those written through raw pointers."},
"C59": {"note": "Which other pointers an access invalidates (the stacks of Stacked Borrows) is not modelled."},
"C60": {"note": "The loads of messages of the vector routines are in C58; sse41::compress uses no arrays."},
"C61": {"note": "Duration arithmetic is that of std as documented; newer versions round the average better. The figures in seconds and GB/s are floating point quotients of the times, not modelled."},
"C62": {"note": "Offsets are those of the recorded accesses of the traced model; that the sums in the source are ends of accesses is by reading."},
"C63": {"note": "With a key the limit is 1024 bytes (C23)."},
"C65": {"note": "Refuted for sse41::compress and sse41::hash4_exact (C65_sse41_*_refuted), proved for their repaired variants and for the AVX2 routines. With protectors: the theorems hold for any set of older protected tags, and calls inside protect their reference arguments."},
"C66": {"note": "The code is that of C65 with the accesses of Tree Borrows, protectors included; the caller may protect any older tags that allow the accesses (readable, writable). The C66_rules_* theorems say what the rules forbid."},
"C67": {"note": "Up to a collision of the compression function between the two computations, as in C33 and C40."},
"C68": {"note": "What is left is said for setters, for State::update, update8 and unkeyed BLAKE2sp when a counter overflows, for keyed BLAKE2sp, and for whole programs without these."},
"C69": {"note": "For BLAKE2s states; BLAKE2sp states are the subject of C70."},
"C70": {"note": "Leaf buffers are empty in all states of unkeyed BLAKE2sp; keyed states, whose leaves hold the key block, are the subject of C23 and C67."}
}
