# Design: a Rocq model of blake2s_simd

The crate (`/repo/src`: lib.rs, blake2sp.rs, portable.rs, sse41.rs, avx2.rs) is modelled
function by function in Coq 8.16.1 and proved against a stand-alone specification of
BLAKE2s and BLAKE2sp. The properties are listed in `properties.jsonl`, the theorems that
prove each of them in `MANIFEST.json`, the experiments with wrong programs in
`seeded/LOG.jsonl`. There `failed_at` are the lemmas whose proofs no longer went through, and
`theorems_failed` the theorems that depend on them. A proof can break where the statement
still holds, so this alone does not show that each of these theorems is false of the edited
program; `statements_falsified_by_running` and the notes say where that was checked.

## Approach

* `Spec.v` — a small stand-alone specification: RFC 7693 BLAKE2s (plus the tree
  parameter block of the BLAKE2 paper), BLAKE2sp, hex and decimal text. It uses
  only `N`, `list` and `byte` and imports nothing from the model.
* The model is written function by function from /repo/src (each definition
  cites file and lines): portable.rs, sse41.rs and avx2.rs including the x86
  intrinsics they use, lib.rs and blake2sp.rs.
* Every fallible thing is explicit. A model function returns an `outcome`:
  `Ok v`, `Panic` (assert, slice bound, checked arithmetic, debug assertion),
  `UB` (raw read out of bounds, or an ISA-specific routine called on a CPU
  without it) or `Stuck` (loop fuel exhausted: theorems show it is never reached).
* A configuration record `cfg` ranges over target architecture, `std` feature,
  detected CPU features, overflow checks and debug assertions. All theorems
  quantify over it. Their only assumption about it is `cfg_ok`: a CPU with AVX2 has SSE4.1.
  C30 proves it is needed: `default_compress_impl` asks for AVX2 and hands out SSE4.1 code.
* Machine integers are a bounded type `uint w` (so no range hypotheses are needed
  in statements); data bytes are Coq's `byte`.
* Programs using the crate are lists of API calls on any number of live objects
  (`Machine.v`). The specification of a program is an abstract machine
  (`MachineSpec.v`) whose states are just parameters, flag and bytes.

## Files

| files | content |
|-------|---------|
| Base, Consts, Intrinsics | Rust and x86 vocabulary: integers, outcomes, slices, vector instructions |
| Portable, Sse41, Avx2, Params, State, Many, Blake2sp, Debug | the model of the crate |
| Spec, ParamsSpec | the specification (stand-alone) |
| Machine, MachineSpec | programs, and what they should see |
| Views, Clients, Terms, WrongTerms | words used in the statements of theorems |
| TestCode, TestSuite, TestRun | the crate's own tests: the BLAKE2sp reference implementation, the tests with inputs and expected values as arguments, and the tests as they are |
| Traced | the model again, with a record of branches, memory accesses and compressions (C44, C45, C50, C52, C62) |
| TraceTerms | words for statements about traces (C52, C56) |
| Benches | the benchmark programs of benches/ (C51) |
| Reference | the C code of RFC 7693, appendices D and E, as a second definition of BLAKE2s (C53) |
| VectorTests | tests/vector_tests.rs, `hex::decode` (C55) |
| IntelOps, IntelViews | the instructions as the Intel guide writes them, on registers as numbers (C54) |
| Memory | the routines of sse41.rs and avx2.rs that take pointers, on a memory of bytes at addresses (C58, C59) |
| Addresses | the same, with a record of the addresses read and written (C64) |
| Borrows | the same under Stacked Borrows: a stack of borrows per byte, a tag per pointer (C65) |
| Trees | the same under Tree Borrows: a tree of tags, a permission per tag and byte, protected tags (C66) |
| Unwind | the functions with `&mut` arguments, one assignment at a time: what a panic leaves behind (C68) |
| ResumeTerms | the hash function with a counter that starts anywhere (C69, C70) |
| Inside | the compression routines that index arrays, with bounds-checked indexing and a record of the accesses (C60) |
| Timing | the arithmetic on clock readings in benches/, bench_libsodium.c included (C61) |
| Vectors | test vectors of the specification |
| Witness | inputs on which the crate does not do what its documentation says |
| *Facts, ScalarRound, Refine, Relate, Safety, Behave, Collision, NoLeak, SpShape, SpLate, SpDump, SpOverflow, SpLimits, Robust, Oblivious, Truthful, Calls, SpCalls, Bounds, PortableOnly, ReferenceUse, Mixing, ManyCalls, Separation, MemoryFacts, MemoryNeeds, MemoryUse, AddressFacts, AddressUse, BorrowFacts, BorrowExact, TreeFacts, TreeUse, UnwindUse, UnwindTyped, UnwindSp, UnwindMany, UnwindLevels, Resume, ResumeMany, SpResume, SpLevels, Features, Corollaries | proofs |
| Props* | the property theorems, each closed by `exact`, with `Print Assumptions` and an example |

To audit the claims it is enough to read the rows above `Vectors` and the statements in `Props*`.

## Trusted base

* Coq's kernel (8.16.1), including its `vm_compute` machine, which is used for concrete
  examples, for refutation witnesses and for the symbolic evaluation of permutations.
* `Print Assumptions` says "Closed under the global context" for every theorem in
  `Props*`: no axiom is used, not even of the standard library. (The standard library
  files behind `lia` load `Coq.ssr.ssrunder`, whose module `Under_rel` is sealed by a
  module type; tools that list every constant without a body that is loaded name it.
  No theorem here depends on it.)
* That `Spec.v` is BLAKE2s and BLAKE2sp. Tests: `Vectors.v` checks inside Coq
  the constants of the crate's tests and a selection of its `blake2-kat.json`;
  `tools/kat.sh` extracts the specification and runs all 1024 BLAKE2s and BLAKE2sp cases of
  that file (all pass). `Reference.v` is a second definition, after the C code of RFC 7693;
  it is proved equal to `Spec.blake2s` on all inputs, and its self-test gives the RFC's check
  value (C53).
* That the model is the program: the reading of Rust, of the x86 instructions
  (`IntelOps.v` is the pseudo-code of the Intel guide; C54 proves `Intrinsics.v` equal to it) and of the helper crates
  below is by hand. `tools/check_source.py` compares the tables and the straight-line code
  of the source with the model as text, and checks that lines repeated for each lane
  differ only in the lane; `tools/check_citations.py` looks up the citations.

### What is modelled

All of lib.rs, blake2sp.rs, portable.rs, sse41.rs and avx2.rs outside `#[cfg(test)]`:
the compression functions down to the individual vector instruction, `Params` and its
setters, `State`, `Hash`, `update8`, `finalize8`, `hash8`, `hash4_exact`, `hash8_exact`,
the `vectorize`d interface, run-time dispatch, `blake2sp::{Params, State, blake2sp}`,
`io::Write`, `Debug`, `PartialEq`, `Default`, `AsRef`, the benchmark hooks
(`force_portable`, `compress4_transposed`). Also the crate's tests and the programs of
benches/ (clock readings are arguments; of the printing, only the times).

### What is not modelled, and simplifications

* The compiler, the optimizer, and code generation. Outside `Memory.v`, `&mut` arguments
  become values that are passed in and returned, and undefined behaviour is only an
  out-of-bounds raw read or an unsupported instruction.
* `Memory.v` has every load, store, pointer cast and pointer addition of sse41.rs and
  avx2.rs, with bounds, alignment and mutability, and proves the functions on values right
  about them (C58). Locals are values there, except those written through raw pointers;
  `Params` is a value. Of Rust's provenance rules it has which bytes a pointer may access
  (C59).
* `Borrows.v` adds which other pointers an access invalidates, as Stacked Borrows have it
  (Rust has no final rules).
  It protects the arguments of the functions called until they return; C65 holds whatever
  else the callers protect. It has no two-phase borrows, which these routines do not use.
* `Trees.v` does the same for Tree Borrows, with protectors of the same functions and what
  their end does, without interior mutability. A retag is a read; the permission outside the
  bytes of a reference is the one inside them.
* Helper crates are modelled by what their documentation says: `arrayref` (bounds-checked
  fixed-size views), `byteorder` (little-endian words), `arrayvec` (a string that panics
  when full), `constant_time_eq` (version 0.1: its loop, without the inlining barriers).
* Time is modelled only as control flow and memory addresses (`Traced.v`, C44), at the
  level of the source. A compression routine counts as one event there, with its counters
  and flags: its code has no conditions and its indices are constants, which C60 proves for
  the routines that index arrays and C64 for those that use pointers. Conversions between words and bytes and the formatting
  of public numbers are not recorded either. That the record is complete elsewhere (every
  condition and access of the source is there) is by reading, as for the model itself.
* Caches and other side channels, stack and heap use.
* In `run` a panic ends the program. Programs that catch panics are covered by C42, which
  lets the objects involved have any contents their types allow, and by C68, which says
  what they are; C69 says what such a `State` computes. A setter is one step there with the assignments of its body, and so is
  every other call. Destructors have no code in this crate.
* `usize` is an unbounded `nat` where it is a length or index. `mem_ok` (no slice longer
  than `isize::MAX` bytes) is assumed where it matters. Subtractions do check for underflow.
  The sums the code computes are the ends of the ranges it accesses, and by C62 these fit
  whatever the width of a pointer. `mem_ok` and what an underflow would give in a release
  build are those of 64-bit targets; no underflow happens (C31).
* `avx2::compress8_transposed_all` is the same body as `compress8_transposed_inline` and
  is represented by it. `Clone`, `Copy` and `Eq` are derived or empty impls.
* Loops have fuel; theorems show that it never runs out.
* Function pointers are tags; only the functions the crate stores in them exist.
* In the benchmark programs, the clocks themselves, the floating point numbers printed,
  `black_box`, and libsodium's hash; the `Cargo.toml` of the crate; and the JSON reader of
  tests/vector_tests.rs (`serde_json`) are not modelled. C55 is about every list of cases the reader could return.

## Findings

* C20: where SIMD code runs, `hash4_exact` and `hash8_exact` with a key forget the key
  block. The result is platform-dependent and is not the keyed hash; for no key and no
  input (short of a collision), and all keys of one length give the same hashes (C67).
* C23: keyed BLAKE2sp is wrong as soon as `compress8` runs, which is for all but short
  histories. In builds with debug assertions it panics instead. In others the hash is wrong
  for every such history, and depends on how the message was split (C67, short of a collision).
* C25: `count` of a keyed state is 64 (BLAKE2sp: 512) more than the documented
  "total number of bytes input so far".
* C41: the Debug text of a BLAKE2sp state depends on how the input was split, and shows
  four of the eight leaves.
* C51: `bench_blake2s_sse41_compress` (benches/cargo_bench/src/lib.rs:13-18) calls SSE4.1
  code without looking at the CPU: undefined behaviour on x86 CPUs without it. Also, by reading:
  benches/count_cycles names `benchmarks::compress8_transposed_avx2`, which the crate does
  not have, and so does not compile.
* C52: `update8` and `finalize8` use SIMD code even if all their states have been passed
  to `force_portable`.
* C59: the SSE4.1 code loads and stores vectors through references to a single word
  (`loadu(&h[0])`, `loadu(&IV[0])`, `storeu(.., &mut h[0])`, sse41.rs `compress`) or byte
  (`storeu(.., &mut bytes0[0] ..)`, `export_hashes`). Under the rule that a pointer made from
  a reference may only access what the reference points to (Miri's; the Rust reference
  leaves it open), every call of `sse41::compress` and every `hash4_exact` on SSE4.1 is
  undefined behaviour. The AVX2 code obeys the rule.
* C65: under the full rules of Stacked Borrows too, every call of `sse41::compress` and of
  `sse41::hash4_exact` is undefined behaviour, whatever the caller's borrows, and the AVX2
  code is fine. Writing `h.as_ptr().add(4)` for `&h[4]`, and so on, would repair them (also
  proved). Under Tree Borrows, which may replace these rules, all of it is fine as it is
  (C66).
* C68: a panic that is caught can leave a state that looks usable. After an overflow of the
  byte counter the buffer and the count can disagree, and `finalize` returns a value. In
  BLAKE2sp the buffer can then hold 512 bytes that the leaves have already hashed
  (blake2sp.rs:278 lowers the fill level when the first half is compressed, and if the second
  half overflows, the first is still in front). In `update8` (lib.rs:562-569 counts in all
  eight states before line 571 compresses) a state can be left with 64 bytes counted that it
  has not compressed, because another state overflowed. From then on it hashes with counts 64 too high (C69). After
  the panic of keyed BLAKE2sp (C23) `finalize` returns the hash of a message cut short.
* C47: every limit of a setter has a `should_panic` test except the 2^48 of `node_offset`.
* C61: bench_libsodium.c (lines 36, 48-49) starts its search for the fastest run at `INT_MAX`
  nanoseconds, so that it reports 2.147483647 seconds if every run takes longer.

## Proof per property

| id | modelled by | proof method |
|----|-------------|--------------|
| C01 | lib.rs State/Params/Hash, dispatch | corollary of C03 |
| C02 | State::update | representation invariant: (h, buf, count) represents the byte string fed so far |
| C03 | an op-sequence machine over lists of live objects | forward simulation to an abstract machine whose state is (params, flag, bytes) |
| C04 | finalize | corollary of simulation |
| C05 | portable.rs | homomorphism `val` from bounded words to N, upd/nth calculus |
| C06 | sse41.rs compress + intrinsics | per-round lemma by symbolic evaluation of the shuffles |
| C07-C09 | avx2.rs / sse41.rs | lane projection is a homomorphism; transposition by evaluation |
| C10,C11 | Params::make_words | bit-field disjointness, injectivity of little-endian coding |
| C12,C13 | setters | case analysis, induction on setter list |
| C14,C15 | update8/finalize8 | loop induction on the joint length, reuse of C07 |
| C16-C20 | hash8, hash4_exact, hash8_exact | loop induction; C20 refuted by a witness, and the true value given |
| C21-C24 | blake2sp.rs | invariant: leaves absorbed P (512-byte multiple), buffer holds B, B longer than 448 if P nonempty; C23 refuted, and the true value given for every history |
| C25 | count | from the invariants |
| C26-C28 | Hash | list reasoning |
| C29 | Debug impls as string functions | two-run relation on whole programs |
| C30,C31,C32 | `UB`/`Panic` outcomes | relational proof over two platforms (Relate.v) and simulation |
| C33,C40 | Spec-level trace of compression calls | backwards induction on the chain |
| C34-C37 | Write, set_last_node, constructors, force_portable | simulation corollaries |
| C38 | checked/wrapping add on count | direct |
| C39 | fuelled loops | fuel sufficiency, structure of the state after any updates |
| C41 | Debug of BLAKE2sp states | shape invariant on lengths |
| C42 | every function, on arbitrary typed objects | type invariant (`Robust.v`) |
| C43 | the reference implementation in the tests | leaf by leaf, from C03 |
| C44 | every function with its events (`Traced.v`) | erasure to the model, then the two-run relation of C29 on events (`Oblivious.v`); that the recorded checks and accesses are those that decide success (`Truthful.v`) |
| C45 | histories of one state (`hash_pieces_t`, `sp_hash_pieces_t`), exact functions | states by lengths alone: invariants `took`, `sp_holds` (`Calls.v`, `SpCalls.v`) |
| C46 | portable round, 8-way and 4-way rounds, SSE4.1 row rounds | each assignment is undone from the other words; messages recovered column by column (`Mixing.v`) |
| C47,C48 | src/test.rs, tests/vector_tests.rs | the invariants of C02, C15, C18, C21, applied to the test procedures (`TestSuiteFacts.v`); literals from `Vectors.v` (`TestRunFacts.v`); the tests' own inputs (`TestInputs.v`) |
| C49 | vector helpers | evaluation on variables |
| C50 | every function with its events | Hoare triples on traces, invariants on lengths (`Bounds.v`) |
| C51 | benches/ (`Benches.v`) | iteration of C05-C09, the invariants of C02, C14, C17, C21 (`BenchFacts.v`) |
| C52 | every function with its events | Hoare triples on traces, function pointers as invariant (`PortableOnly.v`) |
| C53 | hash_length, key, update, finalize | `Reference.v` computes `Spec.blake2s`: invariant on the bytes taken so far (`ReferenceFacts.v`), then C02 |
| C54 | `Intrinsics.v` | base-2^8, 2^16, 2^32 digits of one number (`IntelFacts.v`) |
| C55 | tests/vector_tests.rs | one case by C47, the list by induction (`VectorFacts.v`) |
| C56 | update8, finalize8, hash8 with their events | lengths and fill levels alone determine the calls (`ManyCalls.v`) |
| C57 | lists of compression calls; new BLAKE2sp states | only the last call carries the flag, its counter gives the length, the first chaining value the parameters (`Separation.v`) |
| C58 | sse41.rs and avx2.rs on memory (`Memory.v`) | symbolic execution: each access is within bounds and aligned, the bytes are those of the values (`MemoryFacts.v`); what a success tells about each access (`MemoryNeeds.v`) |
| C59 | the same, under the stricter rule | AVX2: the same proofs for both rules; SSE4.1 refuted: 16 bytes through a reference to 4 (or 1) |
| C60 | the array accesses of the compression routines (`Inside.v`) | each statement accesses places that do not depend on the values; statements are put together (`InsideFacts.v`) |
| C61 | what benches/ does with clock readings (`Timing.v`) | linear arithmetic on nanoseconds, induction on the runs (`TimingFacts.v`) |
| C62 | every function with its events | the triples of C50, with a bound on the lengths of the slices accessed (`Bounds.v`) |
| C63 | blake2sp.rs | the invariant of C21 with the bound on each leaf instead of on the whole message (`SpFacts.v`, `SpOverflow.v`) |
| C64 | the code of C58 with a record of accesses (`Addresses.v`) | a triple per routine: where pointers lead, what is accessed (`AddressFacts.v`); erasure to `Memory.v` |
| C65 | the code of C58 with borrows (`Borrows.v`) | the stacks only grow above the caller's items; new tags are tracked through nested borrows (`BorrowFacts.v`, `BorrowExact.v`) |
| C66 | the same with trees (`Trees.v`) | an invariant of claims (who may read, write, has not written yet) kept by every access; new tags only add claims (`TreeFacts.v`, `TreeUse.v`) |
| C67 | the wrong hashes of C20 and C23 | the argument of C33 and C40 on the streams with the key block missing or moved: at the first block counted differently the calls differ (`WrongFacts.v`) |
| C68 | functions with `&mut`, step by step (`Unwind.v`) | forgetting what is left gives the functions of the model (`UnwindFacts.v`); then C10, C23, C29-C31 on what is left (`UnwindUse.v`), the places where the counters of BLAKE2sp's leaves (`UnwindSp.v`) and of `update8` (`UnwindMany.v`) can overflow, and C42's invariant kept by every assignment (`UnwindTyped.v`) |
| C69 | `State` with any contents | the invariant of C01 with a counter that starts anywhere (`Resume.v`, `ResumeMany.v`); a fill level of at most 64 is kept by every assignment (`UnwindLevels.v`) |
| C70 | BLAKE2sp state with any contents | the invariant of C21 over that of C69 (`SpResume.v`); equal counts and fill levels are kept by every assignment (`SpLevels.v`) |
