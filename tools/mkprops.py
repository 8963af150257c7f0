#!/usr/bin/env python3
# Generates /verif/properties.jsonl (one JSON object per line).
import json, os
P = []
def p(title, statement, quantifier, why, anchors):
    P.append(dict(id="C%02d" % (len(P)+1), title=title, statement=statement,
                  quantifier=quantifier, why_tests_cant=why, anchors=anchors))

p("One-shot hashing conforms to BLAKE2s (RFC 7693)",
  "blake2s(input) returns exactly the 32-byte BLAKE2s-256 digest that RFC 7693 defines for input, on every supported platform (portable or AVX2/SSE4.1 dispatch) and in debug and release builds.",
  "every byte string shorter than 2^64 bytes, every platform configuration",
  "the input space is unbounded; the test vectors stop at 255 bytes plus a 1000-byte block of zeros",
  ["src/lib.rs:blake2s", "src/lib.rs:State::update", "src/lib.rs:State::finalize", "src/portable.rs:compress"])
p("Streaming is split-invariant",
  "Feeding a message to State::update in any number of pieces of any sizes (including empty ones) gives the same hash as feeding the concatenation in a single call.",
  "every message and every way of cutting it into a list of pieces, every parameter set",
  "the number of ways to split grows exponentially; off-by-one errors at block boundaries show only for particular split points",
  ["src/lib.rs:State::update", "src/lib.rs:State::fill_buf", "src/lib.rs:State::compress_buffer_if_possible"])
p("Every history of a BLAKE2s API session refines the abstract hash",
  "In any program that creates any number of states from any parameters and interleaves update, write, flush, set_last_node, clone, update8, finalize, finalize8, count, Debug formatting and force_portable on them, every observable result equals the one computed from just (parameters, bytes supplied so far, last-node flag) of the state involved.",
  "every finite operation sequence over any number of live states, every platform configuration",
  "histories are unbounded and interleave operations that share hidden buffers; tests exercise a handful of sequences",
  ["src/lib.rs:State", "src/lib.rs:update8", "src/lib.rs:finalize8", "src/lib.rs:Params"])
p("finalize is idempotent and non-destructive",
  "Calling State::finalize any number of times, at any point, returns the same hash each time and does not change the result of any later update/finalize/count.",
  "every reachable state, every number of extra finalize calls, every continuation",
  "a finalize that corrupts the buffer only shows for particular buffer fill levels and later inputs",
  ["src/lib.rs:State::finalize"])
p("Portable compression function conforms to RFC 7693 F",
  "portable::compress maps (h, block, count, lastblock, lastnode) to the RFC 7693 compression function F applied to the little-endian words of block, for every value of every argument.",
  "all chaining values, all 64-byte blocks, all 64-bit counters, all flag words",
  "2^(256+512+64+64) inputs",
  ["src/portable.rs:g", "src/portable.rs:round", "src/portable.rs:compress", "src/lib.rs:SIGMA", "src/lib.rs:IV"])
p("SSE4.1 compression equals portable compression",
  "sse41::compress computes the same new chaining value as portable::compress for every argument; in particular all 40 hand-written message-permutation sequences implement the SIGMA schedule.",
  "all chaining values, blocks, counters and flag words",
  "the unit test compares on a single block; a wrong lane in one shuffle may be invisible on structured inputs",
  ["src/sse41.rs:compress", "src/sse41.rs:g1", "src/sse41.rs:g2", "src/sse41.rs:diagonalize", "src/sse41.rs:undiagonalize"])
p("AVX2 8-way compression equals eight independent compressions",
  "avx2::compress8 updates each of the eight chaining values exactly as portable::compress does on that lane's block, counter and flags; no lane affects another.",
  "all 8-tuples of chaining values, blocks, counters and flag words",
  "the unit test uses constant blocks and identical counters, so cross-lane mistakes and count mix-ups are invisible",
  ["src/avx2.rs:compress8", "src/avx2.rs:transpose_vecs", "src/avx2.rs:compress8_transposed_inline", "src/avx2.rs:blake2s_round_8x", "src/avx2.rs:load_msg_vecs_interleave"])
p("Vectorized 8-way compression and the transposition round trip",
  "vectorize_words8 applied twice is the identity, and vectorize; compress8_vectorized (any number of times); vectorize equals the same number of independent per-input compressions, in both the AVX2 and the portable implementation; both implementations therefore agree.",
  "all 8-tuples of states, all sequences of block 8-tuples, all counters and flags",
  "unbounded sequences over a 2048-bit state",
  ["src/avx2.rs:vectorize_words8", "src/avx2.rs:compress8_vectorized", "src/portable.rs:vectorize_words8", "src/portable.rs:compress8_vectorized"])
p("SSE4.1 4-way transposed compression equals four independent compressions",
  "compress4_transposed on transposed states equals four independent compressions, lane by lane.",
  "all 4-tuples of states, blocks and all per-lane counter/flag vectors",
  "not covered by any unit test directly; 2^2000+ inputs",
  ["src/sse41.rs:compress4_transposed", "src/sse41.rs:round_4", "src/sse41.rs:transpose_message_blocks"])
p("Parameter block encoding",
  "A state created from Params starts from IV xor the 32-byte BLAKE2s parameter block (digest length, key length, fanout, depth, leaf length, 48-bit node offset, node depth, inner length, salt, personalization) for every parameter value the setters accept.",
  "every sequence of setter calls with accepted arguments",
  "the combined parameter space is about 2^256; the tests check a single combination",
  ["src/lib.rs:Params::make_words", "src/lib.rs:State::with_params"])
p("Parameter encoding is injective (domain separation)",
  "Two accepted parameter sets that differ in any encoded field (hash length, key length, fanout, depth, leaf length, node offset, node depth, inner length, salt, personalization) yield different initial chaining values.",
  "every pair of accepted parameter sets",
  "a pairwise property over about 2^256 values",
  ["src/lib.rs:Params::make_words", "src/lib.rs:Params::node_offset"])
p("Setters reject exactly the out-of-range arguments",
  "Each Params (and blake2sp::Params) setter panics if and only if its argument is outside the documented range (hash length 1..32, key <= 32, salt <= 8, personalization <= 8, depth != 0, node offset < 2^48, inner length <= 32).",
  "every setter and every argument value and every prior parameter state",
  "tests probe one value past each bound",
  ["src/lib.rs:Params", "src/blake2sp.rs:Params"])
p("Setters are independent and last-call-wins",
  "After any sequence of setter calls each parameter equals the value of the last call that set it (with keys, salts and personalizations zero-padded and fully replacing longer earlier ones) or its documented default; setters of different fields commute.",
  "every finite sequence of setter calls",
  "unbounded call sequences",
  ["src/lib.rs:Params::key", "src/lib.rs:Params::salt", "src/lib.rs:Params::personal", "src/lib.rs:Params::default"])
p("update8 equals eight separate updates",
  "After update8 on eight states the eight states behave exactly as if each had been given its own input by State::update, whatever their parameters, buffered bytes and (possibly unequal) input lengths.",
  "every 8-tuple of reachable states and inputs of arbitrary lengths, every continuation",
  "an 8-fold product of unbounded state and input spaces; parallel progress depends on all lengths at once",
  ["src/lib.rs:update8"])
p("finalize8 equals eight separate finalizes",
  "finalize8 returns for each state the hash State::finalize would return, and leaves every state's future behaviour unchanged.",
  "every 8-tuple of reachable states",
  "8-fold product of unbounded state spaces",
  ["src/lib.rs:finalize8"])
p("hash8 equals eight separate hashes",
  "hash8 with eight unkeyed parameter sets and eight inputs of arbitrary, possibly different lengths returns for each i what params_i.to_state().update(input_i).finalize() returns.",
  "every 8-tuple of accepted unkeyed parameters and every 8-tuple of input lengths and contents",
  "control flow depends on the joint lengths of eight unbounded inputs",
  ["src/lib.rs:hash8"])
p("hash8 rejects keyed parameters",
  "hash8 panics if and only if at least one of its parameter sets has a non-empty key.",
  "every 8-tuple of accepted parameters and inputs",
  "product space; no test for it exists",
  ["src/lib.rs:hash8"])
p("hash4_exact / hash8_exact equal separate hashes (unkeyed)",
  "For unkeyed parameters and equal-length, non-empty, block-multiple inputs hash4_exact and hash8_exact return what hashing each input separately returns.",
  "every accepted unkeyed parameter set, every common length that is a positive multiple of 64, all contents, every platform",
  "unbounded number of blocks; one length tested",
  ["src/lib.rs:hash4_exact", "src/lib.rs:hash8_exact", "src/sse41.rs:hash4_exact", "src/avx2.rs:hash8_exact", "src/portable.rs:hash8_exact"])
p("hash4_exact / hash8_exact reject bad lengths",
  "hash4_exact and hash8_exact panic if and only if the inputs are not all of the same length, or are empty, or are not a multiple of 64 bytes; hence the unchecked pointer reads are always in bounds.",
  "every tuple of inputs and parameters",
  "unbounded lengths; out-of-bounds raw reads are undefined behaviour, not a test failure",
  ["src/lib.rs:hash4_exact", "src/lib.rs:hash8_exact", "src/avx2.rs:hash8_exact", "src/sse41.rs:hash4_exact"])
p("hash4_exact / hash8_exact with keyed parameters",
  "One would expect hash4_exact and hash8_exact, which accept keyed parameters, to return the keyed hash of each input on every platform. They do so only where the portable code runs. Where SSE4.1 (4-way) or AVX2 (8-way) is used, the key block is never hashed: the result is the unkeyed chain over the input started from the keyed parameter block, which differs from the keyed hash.",
  "every keyed parameter set, every admissible inputs, every platform; a witness for the wrong value",
  "platform-dependent: tests do not combine keys with the exact functions",
  ["src/lib.rs:hash4_exact", "src/lib.rs:hash8_exact", "src/avx2.rs:hash8_exact", "src/sse41.rs:hash4_exact", "src/portable.rs:hash4_exact"])
p("Unkeyed BLAKE2sp conforms to the BLAKE2 tree mode",
  "For every sequence of update calls, an unkeyed blake2sp::State with any hash length finalizes to the BLAKE2sp digest of the concatenated input (8 leaves fed with 64-byte blocks round-robin, root over the eight 32-byte leaf digests).",
  "every message, every split into updates, every hash length 1..32, every platform",
  "the double buffer has several regimes depending on fill level and split; tests check 20 lengths and two splits",
  ["src/blake2sp.rs:State::update", "src/blake2sp.rs:State::finalize", "src/blake2sp.rs:State::compress8", "src/blake2sp.rs:State::with_params"])
p("Keyed BLAKE2sp conforms for short messages",
  "For every key of 1..32 bytes, every hash length and every sequence of updates whose total is at most 960 bytes, keyed blake2sp finalizes to the BLAKE2sp keyed digest.",
  "every key, hash length, message up to 960 bytes and split",
  "KATs use one key and one split, up to 255 bytes",
  ["src/blake2sp.rs:State::with_params", "src/blake2sp.rs:State::update", "src/blake2sp.rs:State::finalize"])
p("Keyed BLAKE2sp on long messages",
  "One would expect keyed blake2sp to give the BLAKE2sp keyed digest for every message and split. It does so exactly for the histories in which compress8 never runs (at most 1024 bytes, the first non-empty piece at most 960). On every other history builds with debug assertions panic, and builds without them return BLAKE2sp with the key block moved behind the k blocks each leaf has already compressed (those counted one block too far), where k depends on how the input was split.",
  "every key, hash length, message and split, every build; witnesses for wrong and split-dependent digests",
  "needs keyed input longer than 960 bytes, which no test vector has",
  ["src/blake2sp.rs:State::compress8", "src/blake2sp.rs:State::update", "src/blake2sp.rs:State::with_params"])
p("BLAKE2sp histories refine the abstract hash",
  "Every interleaving of update, write, flush, finalize and count on an unkeyed blake2sp::State gives results determined by the bytes supplied so far; finalize never changes later results.",
  "every finite operation sequence, every platform",
  "unbounded histories over a 1 KiB double buffer",
  ["src/blake2sp.rs:State"])
p("count reports the bytes supplied (unkeyed) plus the key block (keyed)",
  "State::count returns the number of bytes passed to update so far; for keyed states it returns that number plus 64, so the documented 'total number of bytes input so far' does not hold for keyed states. blake2sp::State::count likewise (plus 512 when keyed).",
  "every reachable state of BLAKE2s and BLAKE2sp below 2^64 bytes",
  "must hold after every history; tests check only unkeyed states",
  ["src/lib.rs:State::count", "src/blake2sp.rs:State::count"])
p("Hash length contract",
  "A returned Hash exposes exactly hash_length bytes, namely the first hash_length bytes of the 32-byte final state, for every accepted hash length, and as_bytes never panics.",
  "every accepted hash length, every message",
  "32 lengths times unbounded messages times all entry points",
  ["src/lib.rs:Hash::as_bytes", "src/lib.rs:Params::hash_length"])
p("Hash equality is equality of the visible bytes",
  "Hash == Hash and Hash == [u8] hold exactly when the visible byte strings are equal (same length and contents); == is reflexive, symmetric and transitive.",
  "every pair of hashes and byte slices of any lengths",
  "pairwise property over 2^256 values",
  ["src/lib.rs:PartialEq for Hash"])
p("Hex encoding",
  "to_hex returns the lowercase hexadecimal encoding of the visible bytes, never overflows its fixed 64-character buffer, and is injective; Debug of Hash is 'Hash(0x' hex ')'.",
  "every hash of every accepted length",
  "2^256 values",
  ["src/lib.rs:Hash::to_hex", "src/lib.rs:bytes_to_hex", "src/lib.rs:Debug for Hash"])
p("Debug output does not leak secrets",
  "The Debug text of a State (and of blake2sp::State / blake2sp::Params) depends only on byte counts, lengths, flags and hash lengths, never on the key bytes, the message bytes or the chaining value.",
  "every pair of states with equal counts/flags/lengths but different keys and contents",
  "a two-run (non-interference) property",
  ["src/lib.rs:Debug for State", "src/blake2sp.rs:Debug for State", "src/blake2sp.rs:Debug for Params"])
p("No undefined behaviour from safe API calls",
  "No sequence of safe API calls, on any platform, ever executes an instruction-set-specific routine the CPU does not support or reads outside an input slice.",
  "every platform configuration and every history of safe calls",
  "undefined behaviour is not observable by assertions, and CI runs on few CPUs",
  ["src/lib.rs:default_compress_impl", "src/lib.rs:hash4_exact", "src/lib.rs:hash8_exact", "src/avx2.rs:hash8_exact", "src/sse41.rs:hash4_exact"])
p("Panic freedom of hashing",
  "Apart from the documented argument checks, no BLAKE2s operation (nor unkeyed BLAKE2sp operation) panics: no slice index, copy length, u8/u16 buffer-length arithmetic or debug assertion fails, for total inputs below 2^64 bytes.",
  "every history and every build profile",
  "index arithmetic depends on buffer fill level at every call",
  ["src/lib.rs:State::fill_buf", "src/blake2sp.rs:State::fill_buf", "src/blake2sp.rs:State::update", "src/lib.rs:hash8"])
p("Platform and build-profile independence",
  "The same history of BLAKE2s (or unkeyed BLAKE2sp) calls produces the same observable results on every platform and build profile.",
  "every pair of platform configurations and every history",
  "a two-run property across machines",
  ["src/lib.rs:default_compress_impl"])
p("Collision resistance reduces to the compression function",
  "If two different (parameters, key, message, last-node) inputs give the same 32-byte hash, then the two hash computations contain two different compression-function calls with the same result. No ambiguity is introduced by padding, buffering, keying or the parameter encoding. For shorter hashes, the same holds or else the two last calls are different and their results agree on the bytes of the hash.",
  "every pair of distinct inputs",
  "pairwise property over unbounded messages",
  ["src/lib.rs:State::update", "src/lib.rs:State::finalize", "src/lib.rs:Params::make_words"])
p("io::Write never errors or short-writes",
  "State::write (and blake2sp::State::write) consumes the whole buffer, returns its length, and is equivalent to update; flush has no effect; so any write_all loop equals update.",
  "every state and every sequence of writes",
  "unbounded sequences",
  ["src/lib.rs:Write for State", "src/blake2sp.rs:Write for State"])
p("set_last_node is equivalent to Params::last_node",
  "Calling set_last_node(b) at any time before finalize gives the same result as building the state with Params::last_node(b); the last call wins.",
  "every parameter set, every interleaving of set_last_node with updates",
  "unbounded interleavings",
  ["src/lib.rs:State::set_last_node", "src/lib.rs:Params::last_node"])
p("Constructors agree",
  "State::new(), State::default() and Params::new().to_state() are indistinguishable; likewise for blake2sp; an empty key is the same as no key.",
  "every continuation history",
  "equality under all future operations",
  ["src/lib.rs:State::new", "src/lib.rs:State::default", "src/lib.rs:Params::to_state", "src/blake2sp.rs:State::new"])
p("force_portable does not change results",
  "Switching a BLAKE2s or BLAKE2sp state to the portable implementation at any time leaves all later results unchanged.",
  "every reachable state and every continuation",
  "unbounded continuations",
  ["src/lib.rs:benchmarks::force_portable", "src/blake2sp.rs:force_portable"])
p("Counter behaviour at 2^64 bytes",
  "Once the 64-bit byte counter would overflow, builds with overflow checks panic and builds without wrap modulo 2^64; below that the counter is exact.",
  "every state and input around the boundary",
  "cannot feed 2^64 bytes in a test",
  ["src/lib.rs:State::fill_buf", "src/lib.rs:State::update"])
p("Exactly the settled blocks are compressed, each once and in order",
  "After any sequence of updates a state has compressed exactly the whole 64-byte blocks of its input that are followed by more input, each once, in order and with its own byte count, and still holds the rest; update, the loop inside it, and finalize terminate on every input.",
  "every state, every sequence of update calls, every input length",
  "unbounded sequences; the internal state is not visible to tests",
  ["src/lib.rs:State::update", "src/lib.rs:State::fill_buf", "src/lib.rs:State::finalize"])
p("Collisions of BLAKE2sp reduce to collisions of the compression function",
  "If two different (key, message) inputs that BLAKE2sp hashes correctly (C21-C23) give the same hash, then the two computations contain two different compression-function calls with the same result, or, for hashes shorter than 32 bytes, their last calls are different and the results agree on the bytes of the hash.",
  "every hash length and key, every pair of messages",
  "a security argument over all pairs of messages",
  ["src/blake2sp.rs:State::update", "src/blake2sp.rs:State::finalize"])
p("What the Debug text of a BLAKE2sp state shows",
  "The Debug text of a BLAKE2sp state shows exactly the number of bytes supplied (plus 512 when keyed), the hash length, and for four of the eight leaves the number of bytes that leaf has taken, which follows from the lengths of the updates. It is therefore not determined by the bytes supplied: two splits of the same input can print different text.",
  "every parameter set, every sequence of updates; a pair of splits as witness",
  "tests compare digests, not Debug text",
  ["src/blake2sp.rs:Debug for State"])
p("No undefined behaviour after a caught panic",
  "From objects with any contents that their types allow (any fill levels, counters, lengths and flags, however a caught panic may have left them) every API call either returns such objects or panics; none of the unsafe code is ever reached with an out-of-range read or a missing CPU feature, and every loop ends. So a program may catch panics and go on using the objects involved.",
  "every platform, every session of type-correct objects, every call; every program that catches panics",
  "half-updated objects after a panic cannot be enumerated, and undefined behaviour is not observable by assertions",
  ["src/lib.rs:State::fill_buf", "src/lib.rs:State::update", "src/blake2sp.rs:State::update", "src/lib.rs:hash4_exact", "src/lib.rs:hash8_exact", "src/lib.rs:hash8"])
p("The test suite's BLAKE2sp reference agrees with BLAKE2sp on every input",
  "The independent BLAKE2sp reference implementation in the crate's tests (eight leaf hashers fed by chunks of 64 bytes, and a root) computes BLAKE2sp for every input, and the test test_buffering (one-shot blake2sp and a State fed in two pieces against that reference) passes for every input and every split point.",
  "every platform, every input below 2^64 bytes, every split point",
  "the test runs it for a handful of lengths",
  ["src/blake2sp.rs:tests::blake2sp_reference", "src/blake2sp.rs:tests::test_buffering"])
p("Control flow and memory addresses do not depend on keys, messages or hashes",
  "Two programs that make the same calls with byte strings of the same lengths but different contents take the same branches, access the same ranges of the same buffers and run the same compression routines throughout, except that to_hex and the Debug text of a Hash look up a table of digits at indices that are the digits of the hash. In particular the comparison of two hashes takes a path that depends on their lengths only.",
  "every platform, every pair of programs that differ only in byte contents",
  "timing measurements sample single executions, and equality of all traces is a statement about pairs of runs",
  ["src/lib.rs:PartialEq for Hash", "src/lib.rs:State::update", "src/lib.rs:State::finalize", "src/lib.rs:Hash::to_hex", "src/blake2sp.rs:State::update"])
p("A hash computation runs exactly the compressions of its definition",
  "Hashing a message of n bytes (the key block included) in any number of update calls runs exactly max(1, ceil(n/64)) compressions, with the byte counter at 64, 128, ... and finally n, the last-block flag in the last one only and the last-node flag only there; however the message is split, nothing is compressed twice and no empty block is compressed. BLAKE2sp, keyed or not, compresses exactly as many blocks as the eight leaves and the root have, although how many of them go through the eight-way routine depends on the split. Without a key the counters are those of the definition; with a key they are so only if nothing went through the eight-way routine (otherwise the key block comes after those blocks, as C23 shows in the digests). hash4_exact and hash8_exact run one wide compression per block.",
  "every platform, every parameter set, every sequence of updates",
  "tests see digests, not the calls behind them, and sample a few splits",
  ["src/lib.rs:State::update", "src/lib.rs:State::finalize", "src/blake2sp.rs:State::update", "src/blake2sp.rs:State::finalize", "src/avx2.rs:hash8_exact", "src/sse41.rs:hash4_exact"])
p("A round loses nothing: it permutes the vector, and different messages stay apart",
  "For a fixed message, each round of the compression function is a one-to-one map of the 16-word working vectors onto themselves; for a fixed vector, different message blocks give different vectors after one round. This holds for the portable round, for the eight-way AVX2 and four-way SSE4.1 rounds, and for the ten unrolled SSE4.1 row rounds with their message shuffles. So compress is a permutation, selected by the block, of chaining value, constants, counter and flags, folded into the chaining value.",
  "every round, every working vector, every pair of messages",
  "injectivity over 2^512 vectors and 2^512 messages cannot be sampled",
  ["src/portable.rs:round", "src/portable.rs:g", "src/portable.rs:compress", "src/avx2.rs:blake2s_round_8x", "src/sse41.rs:round_4", "src/sse41.rs:compress", "src/lib.rs:SIGMA"])
p("Every test that compares with an expected value passes exactly when the value is BLAKE2's",
  "Each test of src/test.rs and tests/vector_tests.rs that compares a hash with a literal, taken with arbitrary inputs and an arbitrary expected value, passes if the expected value is the hexadecimal BLAKE2s (BLAKE2sp) digest of its input, and fails by a panic otherwise: the two compression tests through every implementation the platform has, one-shot, two-chunk and byte-by-byte hashing with the counts in between, repeated finalization, io::Write, all parameters, and the published test vectors. With their own inputs and literals all tests of src/test.rs and src/blake2sp.rs, the should_panic ones included, pass on every platform. The painted inputs are the little-endian words 1, 2, 3, ...; the calls that should panic are exactly those one past a limit of a setter, for every limit but that of node_offset.",
  "every platform and build configuration, every input (keyed BLAKE2sp: up to 960 bytes), every parameter set, every expected value",
  "a test run covers its literal inputs on one machine",
  ["src/test.rs:test_all_compression_impls", "src/test.rs:test_vectors", "src/test.rs:test_multiple_finalizes", "src/test.rs:test_write", "src/test.rs:test_all_parameters", "src/test.rs:test_all_parameters_blake2sp", "tests/vector_tests.rs:blake2s_vectors", "tests/vector_tests.rs:blake2sp_vectors"])
p("Every test that compares two ways of hashing passes for all inputs",
  "test_update8 (eight states of different kinds through rounds of update8 and finalize8, against clones updated one by one), test_hash4_exact, test_hash8_exact and the two tests of hash8 pass for all inputs and unkeyed parameters they can be given; the inner loop of test_update8 passes for any eight states that the API can produce and any sequence of inputs, unless a byte counter overflows.",
  "every platform, any eight reachable states, every sequence of inputs, every unkeyed parameter set",
  "the tests use 64 runs over one painted buffer and constant inputs",
  ["src/test.rs:test_update8", "src/test.rs:test_hash4_exact", "src/test.rs:test_hash8_exact", "src/test.rs:test_hash8_with_exact_inputs", "src/test.rs:test_hash8_with_inexact_inputs"])
p("The vector helpers with unit tests are right on all lanes",
  "interleave128 exchanges 128-bit halves, load_2x256 reads sixteen little-endian words, and transpose_vecs (AVX2: 8 by 8, SSE4.1: 4 by 4) transposes and is its own inverse, for all lane values.",
  "all lane values",
  "the unit tests use one matrix of literals and need the instruction set",
  ["src/avx2.rs:test_interleave128", "src/avx2.rs:test_load_2x256", "src/avx2.rs:test_transpose_vecs", "src/sse41.rs:test_transpose_vecs"])
p("Every access of every program is within bounds",
  "Whatever calls a program makes, every range it accesses in a slice, array or buffer lies within it (so no index, slice or array_ref! expression can panic, and no raw read through a pointer leaves its slice), every entry it reads from the hex table exists, and every SSE4.1 or AVX2 routine it runs is one the CPU has. In particular the lengths and offsets added up as usize do not overflow.",
  "every platform and build configuration, every sequence of API calls, up to the first panic",
  "bounds errors appear only for the buffer fill levels and input lengths tried",
  ["src/lib.rs:State::fill_buf", "src/lib.rs:State::update", "src/lib.rs:Hash::to_hex", "src/avx2.rs:hash8_exact", "src/sse41.rs:hash4_exact", "src/blake2sp.rs:State::update", "src/blake2sp.rs:State::finalize", "src/lib.rs:hash8"])
p("The benchmark programs compute what they time",
  "For every buffer content and number of iterations, the benchmarks of compression functions apply BLAKE2s's compression function once per iteration in every lane, those of hashing compute BLAKE2s or BLAKE2sp of their input (benchmark_gig: of the eight consecutive eighths of its input), and none has undefined behaviour or panics, count_cycles without AVX2 excepted, which says so. One exception is refuted: bench_blake2s_sse41_compress calls SSE4.1 code without looking at the CPU and is undefined behaviour on x86 CPUs without SSE4.1.",
  "every platform, every iteration count, every buffer content, every input below 2^64 bytes",
  "a benchmark checks nothing, runs constant inputs, and undefined behaviour is not observable",
  ["benches/cargo_bench/src/lib.rs", "benches/benchmark_gig/src/main.rs:hash_update8", "benches/count_cycles/src/main.rs:main", "src/lib.rs:benchmarks"])
p("force_portable keeps states off the SIMD code",
  "In a program all of whose states have been forced, no SIMD compression routine runs, whatever the CPU, unless the program makes another state or calls a function that picks its implementation itself; making a state runs no compression, so a state forced right after it was made never runs SIMD code. Refuted for update8 and finalize8: they run what the CPU offers even on forced states.",
  "every platform, all sessions of forced states, every program",
  "tests compare digests, which are the same for all implementations, so they cannot see which routine ran",
  ["src/lib.rs:benchmarks::force_portable", "src/blake2sp.rs:force_portable", "src/lib.rs:State::update", "src/lib.rs:update8", "src/lib.rs:finalize8"])
p("The crate agrees with the C code of RFC 7693",
  "For every digest length, every key and every message, however split into calls of update, Params::new().hash_length(n).key(k) (in either order) gives the digest that the C code of RFC 7693 appendix D computes, whatever its uninitialized buffer contains, and panics exactly where that code reports an error. The RFC's self-test (appendix E) passes with the crate's functions on every platform. The constants IV are the fractional parts of the square roots of the first eight primes.",
  "every platform, all digest lengths, keys, messages below 2^64 bytes, all splits",
  "the vectors compare a few hundred inputs with digests computed elsewhere",
  ["src/lib.rs:Params::hash_length", "src/lib.rs:Params::key", "src/lib.rs:State::update", "src/lib.rs:State::finalize", "src/lib.rs:IV"])
p("The vector instructions of the model are the processor's",
  "Every SSE and AVX2 instruction that sse41.rs and avx2.rs use, as modelled on lanes, equals the operation the Intel guide describes on the bits of the registers (registers as numbers below 2^128 or 2^256, bit ranges put together field by field), for all register contents, all immediates, all shuffle controls and all unaligned loads.",
  "all registers, immediates, control vectors, addresses",
  "a processor executes the instructions, but a test sees only the sequences the crate uses, on a few values",
  ["src/sse41.rs:add", "src/sse41.rs:xor", "src/sse41.rs:rot16", "src/sse41.rs:compress", "src/sse41.rs:transpose_vecs", "src/avx2.rs:add", "src/avx2.rs:rot16", "src/avx2.rs:interleave128", "src/avx2.rs:transpose_vecs", "src/avx2.rs:loadu"])
p("The tests with the authors' vectors pass exactly when every vector is right",
  "blake2s_vectors and blake2sp_vectors of tests/vector_tests.rs pass if and only if the file has exactly 512 cases of the function, the key and input of each are hexadecimal text (in either case), no key is longer than 32 bytes, and the output of each is the lower case hexadecimal text of BLAKE2s or BLAKE2sp of that key and input; otherwise they fail by a panic. Cases of other functions make no difference.",
  "every platform, every list of fewer than 2^64 cases, inputs below 2^64 characters (BLAKE2sp with a key: 1920 characters, i.e. 960 bytes)",
  "a run of the tests is one list of cases on one machine; that wrong vectors, or too few, would be noticed is never run",
  ["tests/vector_tests.rs:blake2s_vectors", "tests/vector_tests.rs:blake2sp_vectors", "tests/vector_tests.rs:TestCase"])
p("Which compressions update8, finalize8 and hash8 run",
  "hash8 compresses eight blocks at a time up to the last block of the shortest input, finalizes all eight at once if all end there with a full block, and otherwise finishes them one by one; update8 first compresses buffers lane by lane, then eight blocks at a time as long as every lane keeps a block back, then the rest lane by lane; finalize8 is a single 8-way compression. The counters, flags and implementations of all these calls, and their order, are determined; the number of blocks compressed is that of the definitions, so nothing is compressed twice.",
  "every platform, all parameters, all histories of the eight states, all eight inputs",
  "digests do not show which routine computed them; a slow path taken by mistake passes every test",
  ["src/lib.rs:update8", "src/lib.rs:finalize8", "src/lib.rs:hash8"])
p("What was hashed can be read off the compression calls",
  "The list of compression calls of a BLAKE2s computation (C39, C45: those the code runs) determines the parameter block, the key, the message and the last-node flag, even if further calls follow it, so the calls of one computation are never the beginning of those of another; the same for BLAKE2sp. No final call is a non-final call of any computation. The nine nodes of the states blake2sp makes start from nine different chaining values, which no BLAKE2s state has unless it was given exactly the tree parameters of that node.",
  "every platform, all parameters, keys and messages of both functions, any further calls",
  "these are statements about pairs of computations; an ambiguous encoding shows only on the two inputs it confuses",
  ["src/lib.rs:Params::make_words", "src/lib.rs:State::update", "src/lib.rs:State::finalize", "src/blake2sp.rs:State::with_params"])
p("The unsafe code accesses memory as it should",
  "Called with references as Rust guarantees them, the routines of sse41.rs and avx2.rs that work through pointers make no access outside an allocation, none at an address not aligned for its type, and no write through a shared reference; what they leave in memory is the result of the compression function, in the states they were given, and no other byte of memory changes. The compression routines need all of this: with a state that is out of bounds, not aligned or not mutable, or a block that is too short, they are undefined behaviour (so the alignment of AlignedWords8 is needed).",
  "all memories, all addresses, all placements of states, blocks and inputs, overlapping inputs included",
  "a misaligned or out-of-bounds access rarely changes a result, and whether it happens depends on where the allocator puts things",
  ["src/sse41.rs:compress", "src/sse41.rs:hash4_exact", "src/sse41.rs:export_hashes", "src/avx2.rs:compress8", "src/avx2.rs:vectorize_words8", "src/avx2.rs:compress8_vectorized", "src/avx2.rs:hash8_exact", "src/avx2.rs:load_2x256", "src/lib.rs:AlignedWords8"])
p("The unsafe code stays within what it borrowed",
  "Every pointer made from a reference accesses only the bytes the reference points to (the rule of the Miri interpreter). True of the AVX2 routines and of the loads of messages in SSE4.1 code. Refuted for sse41::compress, which loads and stores 16 bytes through references to single words, and for the output of sse41::hash4_exact, which stores 16 bytes through references to single bytes.",
  "all memories, all arguments",
  "on today's compilers the results are right; only an interpreter that tracks borrows would notice",
  ["src/sse41.rs:loadu", "src/sse41.rs:storeu", "src/sse41.rs:compress", "src/sse41.rs:export_hashes", "src/avx2.rs:compress8", "src/avx2.rs:hash8_exact"])
p("Inside the compressions every index is in range and constant",
  "Run with bounds-checked indexing, as Rust does, the portable compression and the inner loops of the 4-way and 8-way ones (rounds, message schedule, initial state, feed-forward) never index out of range, so they never panic, and they compute what the other properties say they compute. The sequence of array accesses is one and the same list for all states, messages, counters and flags.",
  "all states, messages, counters and flags",
  "an index that is out of range for some value, or that depends on a secret, does not show in digests of other values",
  ["src/portable.rs:compress", "src/portable.rs:round", "src/portable.rs:g", "src/sse41.rs:round_4", "src/sse41.rs:compress4_transposed_inline", "src/avx2.rs:blake2s_round_8x", "src/avx2.rs:compress8_transposed_inline", "src/lib.rs:SIGMA"])
p("The benchmark programs report the times they measured",
  "Given any clock readings, benchmark_gig prints the time of each run, the fastest of the nine that count and their average (to the nanosecond, rounded down, or one less), without overflow in any build; count_cycles returns the sum of the ticks and the number of bytes hashed; bench_libsodium.c prints times and average right. That its fastest is the time of a run is refuted: it is never more than 2^31 - 1 nanoseconds.",
  "all clock readings that do not run backwards, runs of any length below 2^64 nanoseconds (C: readings below 2^63)",
  "the programs have no tests, and a wrong figure in a benchmark looks like any other",
  ["benches/benchmark_gig/src/main.rs:run", "benches/benchmark_gig/src/main.rs:print", "benches/count_cycles/src/main.rs:blake2s_compression", "benches/bench_libsodium.c:run_bench", "benches/bench_libsodium.c:nanosecond_diff"])
p("Offsets fit in usize, whatever the pointer width",
  "On a target with pointers of any width from 12 bits on, if the slices given to be hashed are as short as Rust makes them (fewer than 2^(width-1) bytes), then every slice or buffer the code accesses is that short too, and so is every offset it computes into one, so that no sum of lengths overflows usize or the limit of pointer offsets. Nothing is needed about keys, salts, personalizations, or the slices hashes are compared with.",
  "all pointer widths, platforms, and programs of calls on any number of objects",
  "tests run on one target, with inputs far shorter than the limit",
  ["src/lib.rs:State::fill_buf", "src/lib.rs:State::update", "src/lib.rs:hash8", "src/lib.rs:update8", "src/sse41.rs:hash4_exact", "src/avx2.rs:hash8_exact", "src/blake2sp.rs:State::update", "src/blake2sp.rs:State::finalize"])
p("BLAKE2sp at and beyond 2^64 bytes",
  "Without a key, blake2sp hashes every message correctly in every build and however it is split, except that a build with overflow checks panics if and only if the first leaf, which gets 64 bytes of every 512 and up to 64 of the rest, has 2^64 bytes or more. State::count is the length modulo 2^64, and panics in such a build if and only if the message has 2^64 bytes or more, eight times earlier.",
  "every platform and build, all messages of any length, all splits, all hash lengths",
  "no test can hash 2^64 bytes",
  ["src/blake2sp.rs:State::update", "src/blake2sp.rs:State::finalize", "src/blake2sp.rs:State::count", "src/blake2sp.rs:Params::to_state"])
p("The addresses the unsafe code accesses",
  "The pointer-based routines of sse41.rs and avx2.rs (C58), whenever they succeed, read and write exactly a fixed list of addresses and sizes in a fixed order, determined by where their arguments point and, for hash4_exact and hash8_exact, by the number of blocks. Contents of memory, chaining values, counters and flags have no influence on it.",
  "all memories and addresses, all arguments, inputs of any number of blocks",
  "addresses do not show in results, and whether one depends on a secret takes two runs to see",
  ["src/sse41.rs:compress", "src/sse41.rs:hash4_exact", "src/sse41.rs:export_hashes", "src/avx2.rs:compress8", "src/avx2.rs:vectorize_words8", "src/avx2.rs:compress8_vectorized", "src/avx2.rs:hash8_exact"])
p("The unsafe code and Stacked Borrows",
  "Under Stacked Borrows (the aliasing rules Miri checks), the pointer-based routines of avx2.rs, given a &mut to the state and & to their other arguments, never use a pointer they may not use, do what C58 says, and invalidate no borrow of the caller, whatever borrows are protected by function calls in progress. sse41::compress and sse41::hash4_exact do not obey the rules: every call is undefined behaviour, because they read or write 16 bytes through a reference to one word or byte. With pointers made from the whole array instead they would obey them.",
  "all memories, all stacks of borrows, all arguments, inputs of any number of blocks",
  "tests run compiled code, which does not check aliasing; an interpreter that does, such as Miri, checks single runs",
  ["src/avx2.rs:compress8", "src/avx2.rs:vectorize_words8", "src/avx2.rs:compress8_vectorized", "src/avx2.rs:hash8_exact", "src/sse41.rs:compress", "src/sse41.rs:hash4_exact", "src/sse41.rs:export_hashes"])
p("The unsafe code and Tree Borrows",
  "Under Tree Borrows (the proposed successor of Stacked Borrows), the pointer-based routines of avx2.rs and sse41.rs, as they are, given pointers that may be read or written as the code does and states that overlap nothing else, never use a pointer they may not use and do what C58 says. Every pointer of the caller that could read or write memory the call does not write, or not access, still can, and the states may still be written. All this holds whatever references are protected by function calls in progress, as long as they allow those accesses.",
  "all memories, all trees of borrows, all arguments, inputs of any number of blocks",
  "tests run compiled code, which does not check aliasing; an interpreter that does, such as Miri, checks single runs",
  ["src/avx2.rs:compress8", "src/avx2.rs:vectorize_words8", "src/avx2.rs:compress8_vectorized", "src/avx2.rs:hash8_exact", "src/sse41.rs:compress", "src/sse41.rs:hash4_exact", "src/sse41.rs:export_hashes"])
p("The wrong hashes are wrong for all inputs",
  "Where C20 and C23 show one wrong hash, all are: with a key and SIMD code, no output of hash4_exact or hash8_exact is the keyed hash of its input, and no keyed BLAKE2sp hash outside the histories of C23 is right, unless two different compression calls of the two computations collide. The exact functions give the same hashes for all keys of one length. Two BLAKE2sp hashes, right or wrong, are equal only if key, message, hash length and the number of blocks compressed before the key block are, unless calls collide; so the hash of a long keyed message depends on how it was split.",
  "every platform and build, all keys, parameters, inputs and histories",
  "a test shows one wrong hash; that no input escapes takes a reduction to a collision",
  ["src/avx2.rs:hash8_exact", "src/sse41.rs:hash4_exact", "src/lib.rs:State::with_params", "src/blake2sp.rs:State::update", "src/blake2sp.rs:State::finalize"])
p("What a caught panic leaves behind",
  "A program that catches panics and goes on with the objects always reaches its end, and finds values of the right types. Setters that panicked have set nothing; leaving the panicking calls out changes nothing that the other calls show, in every program of a release build, and in other builds below 2^64 bytes and without BLAKE2sp keys. The other panics do leave something: after an overflow of the byte counter (builds with overflow checks) the state has compressed all whole blocks below 2^64 - 64, its buffer and its count can disagree, and finalize returns a value all the same; BLAKE2sp without a key stops in the same way after 2^64 - 64 bytes in every leaf, with a full buffer, or a half full one whose bytes were already hashed (finalize panics again), or an empty one (finalize returns a value); update8 stops in the same way in the state that overflows, and states before it in the argument list can have counted 64 bytes that they have not compressed, though they are far from overflowing; after the panic of keyed BLAKE2sp (C23, builds with debug assertions) the message is cut at 1024 bytes, or a first piece longer than 960 bytes dropped, and finalize returns the hash of that.",
  "every platform and build, all programs of calls on any number of objects",
  "tests do not use a state after a panic, and where a call stops matters only to those who do",
  ["src/lib.rs:State::fill_buf", "src/lib.rs:State::compress_buffer_if_possible", "src/lib.rs:State::update", "src/lib.rs:update8", "src/blake2sp.rs:State::fill_buf", "src/blake2sp.rs:State::compress8", "src/blake2sp.rs:State::update"])
p("What a state computes from any contents",
  "A BLAKE2s State whose chaining words, counter and pending bytes have nothing to do with each other (a caught panic leaves such states, C68) still computes a definite function of them: fed a message in any pieces and finalized, it gives the hash of RFC 7693 of its pending bytes and the message with those words as starting value and that counter as starting count. The counter's own total decides on overflow: a panic with overflow checks, otherwise it wraps. update8 and finalize8 compute the same of each of eight such states. Where the counter is that of the bytes before, this is the hash of the whole message; where it is not, the hash is right only if two different compression calls collide. Nothing else in the state matters: not the rest of the buffer, nor the implementation chosen. The conditions on the state (a fill level of at most 64, a pointer the CPU can execute) hold in every program, if it catches panics too.",
  "every platform and build, all contents of a state, all messages in any pieces",
  "only inputs of 2^64 bytes lead to such states, and tests cannot set the private fields",
  ["src/lib.rs:State::update", "src/lib.rs:State::fill_buf", "src/lib.rs:State::compress_buffer_if_possible", "src/lib.rs:State::finalize", "src/lib.rs:update8", "src/lib.rs:finalize8"])
p("What a BLAKE2sp state computes from any contents",
  "A blake2sp::State whose leaves, root and buffer have nothing to do with each other, but for empty leaf buffers and a count that is the same in all leaves, computes a definite function of them: fed a message in any pieces and finalized, each leaf hashes its blocks of the buffered bytes and the message from its own words and the common count, as in C69, and the root hashes its own pending bytes and the eight results from its own words and count. It panics if and only if overflow checks are on and the count of the first leaf or of the root reaches 2^64; otherwise the counts wrap. Where the words and count of a leaf are those after its blocks of the message so far, it contributes the hash of its blocks of the whole message. Nothing else in the state matters: not the rest of the buffers, nor the implementations chosen. In every program, if it catches panics too, the leaves have counted the same and their buffers are empty, or full with a key; the root has counted nothing and holds nothing; and the fill level of the buffer is at most 1024.",
  "every platform and build, all words, counts and buffered bytes, all messages in any pieces",
  "only inputs of 2^67 bytes lead to such states, and tests cannot set the private fields",
  ["src/blake2sp.rs:State::update", "src/blake2sp.rs:State::fill_buf", "src/blake2sp.rs:State::compress8", "src/blake2sp.rs:State::finalize"])
with open(os.path.join(os.path.dirname(__file__), "..", "properties.jsonl"), "w") as f:
    for x in P: f.write(json.dumps(x) + "\n")
print(len(P))
