# Formal model of Space-Radiation-Tolerant (rad_ml) in Rocq/Coq 8.16.1

(Generated by `tools/mkdesign.py` from `tools/design_head.md`, `tools/design_tail.md`, `properties.jsonl` and `MANIFEST.json`.)

## Shape of the development

`rocq/theories/<Area>_Model.v` – executable Gallina model, each definition cites file:lines in /repo.
`rocq/theories/<Area>_Spec.v` – small specification, independent of the model's helpers.
`rocq/theories/<Area>_Proofs.v`, `<Area>2_Proofs.v`, ... – lemmas.
`rocq/theories/<Area>_Props.v` – only the property theorems (closed by `exact lemma` or a short
combination of lemmas), the non-vacuity examples and `Print Assumptions`.

Shared libraries: `Outcome.v` (return / exception / undefined behaviour / out of fuel), `Words.v` (fixed-width
words), `Arith.v` (the arithmetic types and their `==`), `Floats.v` (IEEE-754 binary32/64 on bit patterns via the
standard library's `SpecFloat`, exactly rounded), `FloatsR.v`, `HealthFloat.v`, `FloatsS.v` (real-number meaning of the
float operations through Flocq, used in proofs only).

## Modelling conventions

* Values of an arithmetic C++ type are their **bit patterns** (`N` below `2^(8*sizeof)`), little
  endian when bytes are needed. `==` on the type is a separate function of the pattern: plain
  equality for integers, IEEE-754 equality for float/double (NaN unequal to itself, +0 == -0).
* Fixed-width wrap-around is written explicitly (`mod 2^w`); signed overflow is an explicit undefined outcome.
* Loops become structural recursion / folds over the index range of the C++ loop; loops whose termination is in
  question carry fuel and non-termination is proved as "out of fuel for every fuel".
* Undefined behaviour, thrown exceptions and non-termination are **distinct outcomes** (`Outcome.v`),
  never normal-looking values.
* Clocks, random draws, hash-map iteration orders, uninitialised bytes, allocation failures, thread schedules,
  answers of libm functions and radiation upsets are explicit inputs over which theorems quantify universally.
* A property that the code violates is stated in full and answered with `..._refuted` (a closed
  theorem, where possible universally quantified over a whole class of witnesses), plus the strongest
  positive theorem that is true (`..._partial`). MANIFEST marks such properties `partial` and the note says REFUTED.

## How the areas are proved

| area | modelled | proof |
|---|---|---|
| SimpleTMR (C01-C06) | simple TMR containers as records of copies over an arbitrary type with a lawful equality; histories as operation lists; unordered_map order = arbitrary permutation | case analysis; invariant by induction on the history; ghost bookkeeping for counters |
| Voting (C07-C12, C54, C55) | voting functions as bit loops over `N`, padding bytes as universally quantified inputs; fault-pattern detection with shift-UB as an outcome; binary32 weights | bit extensionality (`N.bits_inj`), arithmetic on `N`, refutations |
| Crc (C13-C15, C56, C57) | six CRC-32 implementations as byte/bit loops and tables | linearity over xor; reflected LFSR is a bijection; order of x by repeated squaring |
| CrcTMR (C16-C20, C58-C61) | EnhancedTMR / SpaceEnhancedTMR with checksums, statistics, status codes; float fallback recursion on fuel | case analysis + CRC theorems; divergence for all fuel |
| Health (C21-C26, C62, C63) | tmr::EnhancedTMR, HealthWeightedTMR with IEEE doubles, random draws and clock as inputs | invariants over histories, rounding monotonicity |
| Stuck, Approx (C27-C31, C64) | stuck-bit TMR with per-bit trackers; ApproximateTMR | refutations by whole families, positive theorems |
| Temporal (C32-C34, C65, C66) | TemporalRedundancy, CheckpointManager with explicit clock, HybridRedundancy | maximal multiplicity; history induction; refutation |
| Containers (C35-C37, C67) | FixedVector, FixedMap, StaticAllocator | refinement to list / finite map; interval disjointness |
| Protected (C38-C41, C68) | ProtectedValue, AlignedProtectedMemory, InterleavedBitMemory | via C07-C09 |
| Tracker (C42, C43, C69-C72) | error tracker as interleaved atomic steps of any number of threads | invariants over all schedules |
| Scrub (C44, C73-C79) | three scrubbers, registries, threads as steps | history induction, reachable-state refutations |
| Bits (C45-C48, C80-C82) | FixedPoint, BranchlessOps, BitManipulation, Result | integer arithmetic with explicit UB, Flocq for conversions |
| GF (C49-C53, C83-C87) | GaloisField tables, polynomials, RS codec, interleaver | generic GF(2^m) development + table computation; refutations |
| MBP (C88-C100) | multi-bit protection: Hamming, SECDED, RS, hash, interleaving | xor-linear codes on 32-bit words, case analysis by bits |
| RMA (C101-C108) | radiation-mapped allocator on 64-bit addresses | interval invariants over histories |
| Power (C109-C116) | power-aware protection in binary64 | relative error bounds through Flocq |
| Edac (C117-C123) | protection_techniques.cpp, Hamming code, TMR | bit-level, counters |
| Inject (C124-C138) | fault injectors and radiation simulator, draws as inputs | xor masks, byte ranges, monotone rounding |
| Adapt (C139-C155) | AdaptiveProtection, AdaptiveFramework, MissionProfile names | history induction, explicit clock |
| PNN (C156-C170) | ProtectedNeuralNetwork<float> including radiation | invariant on shapes over histories |
| Div, Pred (C171-C192) | algorithmic diversity, error prediction | sorted maps, maxima, window invariants |
| Conv (C193-C200) | convolution layer over FixedPoint | index arithmetic, sums |
| Strat (C201-C229) | execution strategies and physics-driven controller | state invariants, float ranges |
| Mission (C230-C244) | mission simulator over Inject and Scrub | loop invariants, conservation of counts |
| Train (C245-C257) | radiation-aware training over PNN | loop invariants, counting, float truncation |
| Residual (C258-C268) | residual network incl. its file format, over PNN | finite-map refinement, serialisation round trip |
| Umm (C269-C286) | core/memory/unified_memory.hpp (as if it compiled: the missing declarations supplied), heap as blocks and bytes | heap invariant over histories, ownership invariant |
| Tester (C287-C300) | research/architecture_tester.hpp and .cpp; log, exp, square and the noise as parameters | real-number bounds through rounding, bit arithmetic of the seeds, scan invariant, histories |
| Search (C301-C316) | research/auto_arch_search.hpp and .cpp; the random engine as streams, std::map as its sorted list | order of configurations over real distances, map lemmas, membership of the grid, progress invariant of the searches, pigeonhole for the hang |
| Autoencoder (C317-C342) | research/variational_autoencoder.hpp and .cpp on the PNN model; exp, log, tanh, normal numbers as parameters; networks, losses, training, files | network invariant over histories, exact loss formulas by folds, early-stopping tracker, float ranges through Flocq, byte-level file lemmas |
| Hardware accelerators (C343-C366) | Hw_Model: configurations, the base accelerator, the factory, the integration; an arbitrary derived accelerator is a function | reals with infinities for the scores (Hw_Proofs), rounding bounds (Hw2), histories by induction on the list of calls (Hw3) |
| Quantum field library (C367-C397, C447-C451) | Qft_Model: rad_ml_qft without the Eigen-valued placeholders and the private, unused calculateDefectFormationEnergy (fields, equations, simulation, defect and radiation physics); libm functions as parameters | index arithmetic by induction on the reversed dimensions, point-wise sweep lemmas, sign analysis of float sums; relative error tracking of doubles through the physics formulas (Qft4-9, Qer), an invariant over the impacts for the buffer |
| Environments and missions (C398-C429) | Env_Model: radiation/environment.hpp, radiation/space_mission.hpp, neural/radiation_environment.hpp; shared_ptr as addresses in a list of environments, durations as int64 seconds; libm functions as parameters | induction over phases and histories, float error tracking for the exposure |
| Physics simulator (C430-C446, C461) | Phys_Model: sim/physics_radiation_simulator.hpp without the text reports; the random engine is a value of any type, the distributions any functions | relative error tracking of products, invariant over histories, induction over effects and segments |
| Quantum integration (C452-C460) | Qin_Model: src/physics/quantum_integration.cpp, whose functions the header quantum_integration.hpp also defines inline with another mass per crystal; exp as a parameter, console output left out | validity of every operation for all doubles, clamps in the reals with infinities, rounding bounds, point-wise maps |
| Error predictor (C462-C465) | Epr_Model: include/rad_ml/neural/error_predictor.hpp, both classes named ErrorPredictor, T = double; exp, log10 and the random draws as parameters | validity of every operation for all doubles, NaN propagation, zero-error training step up to the sign of zero, monotone ramps with the exact neighbour of 1e-7 |
| Activations (C466-C468) | Act_Model: include/rad_ml/neural/activation.hpp, T = double; exp and tanh as parameters | order on doubles with infinities, rounding errors, induction over chains |
| Self-scrubbing model (C469-C472) | Mdl_Model: include/rad_ml/inference/model.hpp with the scrubber it owns, owner and worker thread interleaved step by step | invariants over reachable states and their traces, a measure for progress |
| Logger (C473-C475) | Log_Model: include/rad_ml/core/logger.hpp, one thread over histories of calls and several threads step by step; the time stamp is left out | induction over histories, an invariant over schedules |
| Vector similarity (C476-C477) | Vsim_Model: the free calculateSimilarity of include/rad_ml/advanced/error_prediction.hpp for float vectors of any length, bit exact in binary32 | sign and rounding lemmas through Flocq, overflow to infinity included |
| Expected error rate (C478-C479) | Prate_Model: calculate_expected_error_rate of include/rad_ml/power/power_aware_protection.hpp in binary64, exp as a parameter | monotonicity of rounded products and sums, infinities included |

## Plan and result per property

| id | property | area (`<Area>_Model.v`) | code modelled | result |
|---|---|---|---|---|
| C01 | Simple TMR masks any single-copy corruption | SimpleTMR | core/redundancy/tmr.hpp<br>rad_ml/tmr/basic_tmr.hpp<br>tmr/tmr.hpp | proved. All three containers, arbitrary T with lawful ==, arbitrary copy and value. |
| C02 | repair() restores full redundancy under every fault history | SimpleTMR | core/redundancy/tmr.hpp<br>rad_ml/tmr/basic_tmr.hpp | proved. History induction for the two containers with repair(); hasErrors characterised. |
| C03 | tmr::TMR error statistics are exact for every history | SimpleTMR | tmr/tmr.hpp | proved. Counters and callback log equal the independent reference bookkeeping (an inductive relation proved functional). |
| C04 | Four-copy EnhancedTMR masks one corrupted copy, whatever the hash order | SimpleTMR | rad_ml/tmr/basic_tmr.hpp | proved. Every unordered_map iteration order (arbitrary permutation chosen afresh at every call) and every spaced history. |
| C05 | getErrorCount() counts every repaired error | SimpleTMR | rad_ml/tmr/basic_tmr.hpp | partial. REFUTED by the code: repair() calls set(), which zeroes the counter, so getErrorCount() is at most 1 after any history (proved for all histories). |
| C06 | Floating-point TMR masks a single bit upset | SimpleTMR | core/redundancy/tmr.hpp | partial. REFUTED as stated: stored NaN, or sign flip of a stored zero, in copy 0 is returned corrupted. The exact condition (iff) is proved for every value, copy and bit. |
| C07 | bitLevelVote is the bitwise majority | CrcTMR, Voting | core/redundancy/enhanced_tmr.hpp<br>core/redundancy/enhanced_voting.hpp<br>core/redundancy/space_enhanced_tmr.hpp | proved. All arithmetic types of 1,2,4,8 bytes (long double is not modelled: the 16-byte memcpy into an 8-byte temporary is out of scope of the anchors). |
| C08 | Every specialised integer vote agrees with the bitwise majority | Voting | core/redundancy/enhanced_tmr.hpp<br>core/redundancy/enhanced_voting.hpp | proved. Integers: every strategy and every content of the uninitialised upper bytes; float/double: same unless zeros of opposite sign meet (exact hypothesis in the theorem). |
| C09 | Multi-bit upsets in all three copies are corrected when no bit position is hit twice | Voting | core/redundancy/enhanced_voting.hpp | proved. All three masks arbitrary as long as no bit position is hit twice. |
| C10 | detectFaultPattern classifies a one-copy single-bit flip as SINGLE_BIT and never has undefined behaviour | Voting | core/redundancy/enhanced_voting.hpp | partial. REFUTED: 1/2-byte types read uninitialised bytes; 64-bit types execute an out-of-range shift exactly when the upset is not inside bits 0-7, 8-15, 16-23 or 24-63 (iff proved). Positive: exact-width types always recognise a single bit; no UB up to 32 bits. |
| C11 | Adjacent-bit upsets are recognised as ADJACENT_BITS | Voting | core/redundancy/enhanced_voting.hpp | partial. REFUTED for EnhancedVoting (never reports ADJACENT_BITS, for any input); proved for EnhancedTMR's detector for runs of 2 and 3. |
| C12 | weightedVote: an exact two-copy agreement wins, equal positive weights give the majority | Voting | core/redundancy/enhanced_voting.hpp | partial. REFUTED for zero weights (result is all ones, for all distinct integers). Agreement case proved; equal weights give the majority for weights in [2^-100,2^100]. |
| C13 | All CRC-32 implementations compute the same function | Crc | core/memory/memory_scrubbing.hpp<br>core/redundancy/enhanced_tmr.hpp<br>core/redundancy/space_enhanced_tmr.hpp<br>tmr/enhanced_tmr.hpp | proved. Five implementations incl. generated and literal table, all byte strings. memory::MemoryScrubber's sixth variant is wrong, see C57. |
| C14 | The checksum detects every error burst of at most 32 bits | Crc | core/redundancy/enhanced_tmr.hpp | proved. Arbitrary length; <= 4-byte injectivity as second theorem. |
| C15 | The checksum detects every double-bit error in objects below 512 MiB | Crc | core/redundancy/enhanced_tmr.hpp | proved. Bound 2^29 bytes shown exact by a second theorem. |
| C16 | EnhancedTMR masks arbitrary corruption of one copy and its checksum | CrcTMR | core/redundancy/enhanced_tmr.hpp | proved. Every type, copy index and corrupted cell; float zero may come back with the corrupted copy's sign (r = v or r = the corrupted pattern, proved). NaN is C58. |
| C17 | EnhancedTMR survives corruption of two copies when their checksums expose it | CrcTMR | core/redundancy/enhanced_tmr.hpp<br>core/redundancy/space_enhanced_tmr.hpp | proved. Bursts of up to 32 bits in two copies; any corruption for <= 4 bytes; both classes. |
| C18 | EnhancedTMR statistics: detected = corrected + uncorrectable, and every disagreement is counted | CrcTMR | core/redundancy/enhanced_tmr.hpp | partial. Balance proved over all histories. REFUTED: copies disagreeing with valid checksums are voted over without counting. get counts exactly the checksum errors (proved). |
| C19 | SpaceEnhancedTMR::get reports SUCCESS only with the stored value under one-copy corruption | CrcTMR | core/redundancy/space_enhanced_tmr.hpp | proved. Same scope as C16, plus balance of the statistics. |
| C20 | SpaceEnhancedTMR::get always terminates | CrcTMR | core/redundancy/space_enhanced_tmr.hpp | partial. REFUTED: two finite copies of which one is zero, third non-finite, no valid checksum: get() recurses forever. The exact set of such states is proved (iff); integers always terminate. |
| C21 | tmr::EnhancedTMR::get returns the agreed value for every random draw | Health | tmr/enhanced_tmr.hpp | proved. Every state, clock, draw, voting mode; the callback is assumed not to call back (that case is C62). |
| C22 | Health scores stay within [0.1, 1.0] in tmr::EnhancedTMR through every history of get/verify/regenerate | Health | tmr/enhanced_tmr.hpp | proved. binary64 arithmetic via Flocq, every history; (0,1] with setRawCopy. |
| C23 | clone() returns a usable copy and never deadlocks | Health | tmr/enhanced_tmr.hpp | partial. REFUTED for every state: clone() re-locks the mutex it holds. All other operations return with the mutex released (proved over histories). |
| C24 | HealthWeightedTMR masks one corrupted copy from a healthy state | Health | tmr/health_weighted_tmr.hpp | partial. Proved for all integer types and for float/double unless the corrupted copy is a NaN whose checksum also matches; REFUTED there: NaN is inserted as a std::map key (broken strict weak order). |
| C25 | HealthWeightedTMR: two agreeing checksum-valid copies always outvote one | Health | tmr/health_weighted_tmr.hpp | partial. REFUTED by a reachable state (degraded health): a checksum-valid minority wins. Proved: the pair wins on every reachable state when the third copy fails its checksum or is not healthier than both. |
| C26 | HealthWeightedTMR health scores stay in [0.05, 1.0] and the vote history holds at most 10 entries | Health | tmr/health_weighted_tmr.hpp | proved.  |
| C27 | EnhancedStuckBitTMR masks any single-copy corruption | Stuck | tmr/enhanced_stuck_bit_tmr.hpp | proved. Integral template for every width; float/double specialisations for every non-NaN v (zero may come back with the corrupted copy's sign). |
| C28 | EnhancedStuckBitTMR::repair restores full redundancy after a transient upset | Stuck | tmr/enhanced_stuck_bit_tmr.hpp | partial. REFUTED: every 0->1 flip is taken for a stuck bit at once and never repaired; a second upset of another copy is then returned. Exact result of repair() proved; float/double specialisations do restore. |
| C29 | A persistently stuck bit is excluded from the vote | Stuck | tmr/enhanced_stuck_bit_tmr.hpp | partial. Stuck-at-1 proved (identified after 3 repairs, excluded from the vote for all later contents). REFUTED for stuck-at-0, for any number of repairs. |
| C30 | ApproximateTMR returns the exact stored value when fault-free | Stuck | tmr/approximate_tmr.hpp | partial. Proved for all 8 integer types. REFUTED for bool (true reads back false); floats just above 1e6 are also changed (witness + exact condition). |
| C31 | ApproximateTMR masks corruption of any single copy | Stuck | tmr/approximate_tmr.hpp | partial. REFUTED: corruption of the EXACT copy is returned unless reduce(v) = clamp(v) (iff); never masked for unsigned types. Copies 1 and 2: proved. |
| C32 | TemporalRedundancy returns the result that a majority of executions produced | Temporal | tmr/temporal_redundancy.hpp | partial. Proved for n >= 1 over every stateful operation and every result type with a strict weak order (shown for all arithmetic types away from NaN); ties go to the smallest result. REFUTED for n = 0: end() is dereferenced. |
| C33 | CheckpointManager keeps the newest accepted checkpoints, bounded, in order | Temporal | core/recovery/checkpoint_manager.hpp | proved. For arbitrary clocks (not only monotone), capacities including 0 and intervals. |
| C34 | HybridRedundancy::rollback restores the last value that was set | Temporal | core/recovery/checkpoint_manager.hpp<br>tmr/hybrid_redundancy.hpp | partial. REFUTED: a set() less than 30 s after the last accepted one is silently not checkpointed, rollback() restores the older value (or fails). Proved when sets are at least the interval apart. |
| C35 | FixedVector behaves as a capacity-bounded list | Containers | core/memory/fixed_containers.hpp | proved. operator[] is covered under its documented precondition i < size. |
| C36 | FixedMap behaves as a capacity-bounded finite map | Containers | core/memory/fixed_containers.hpp | proved. For every key type with an equality test that decides equality. |
| C37 | StaticAllocator hands out disjoint, aligned, in-bounds blocks | Containers | core/memory/static_allocator.hpp | partial. REFUTED for requests whose byte size wraps modulo 2^64 (granted although larger than the pool), for over-aligned T, and for allocate(0) on a full pool (out-of-range subscript). Proved for n >= 1 without wrap and storage aligned for T, over every history. |
| C38 | ProtectedValue returns the stored value (never an error) under one-copy corruption, and scrub repairs it | Protected | core/memory/protected_value.hpp | partial. REFUTED: get() reports ValueCorruptionError for one corrupted copy exactly when the upset is a loose burst (characterised), and for 1/2-byte types also depending on uninitialised bytes. scrub() always restores; get() never returns a third value. |
| C39 | AlignedProtectedMemory: a read repairs the copies | Protected | core/memory/aligned_memory.hpp | proved. Integers of at most 4 bytes, any junk in the temporaries. scrub() without argument does not compile and is not modelled. |
| C40 | InterleavedBitMemory round-trips and corrects any single stored-bit upset | Protected | core/memory/aligned_memory.hpp | proved. With the exact set of lost logical bits for every flip mask. |
| C41 | InterleavedBitMemory: adjacent stored-bit errors never corrupt the same logical bit in two copies | Protected | core/memory/aligned_memory.hpp | partial. REFUTED for every value and logical bit: adjacent stored bits 3i,3i+1 and 3i+1,3i+2 belong to the same logical bit. Only boundary pairs are harmless. |
| C42 | RadiationErrorTracker counters are exact under every interleaving | Tracker | core/runtime/error_tracker.hpp | proved. All interleavings of atomic steps (sequentially consistent), counters modulo 2^64; history contents, order and per-thread completeness. |
| C43 | Two RadiationErrorTracker objects do not influence each other | Tracker | core/runtime/error_tracker.hpp | partial. REFUTED: the function-local statics of updateErrorRate are shared by all objects (C43_objects_interfere_refuted). Proved part: the counters are independent. |
| C44 | core::memory::MemoryScrubber handles are unique and scrubOnce visits exactly the registered regions | Scrub | core/memory/memory_scrubber.hpp | proved. All histories with fewer than 2^64 registrations; callbacks are arbitrary functions of the memory. |
| C45 | FixedPoint arithmetic is exact addition and correctly floored multiplication within range | Bits | math/fixed_point.hpp | partial. REFUTED: dividing a negative value shifts it left (undefined in C++17), and 64-bit multiplication overflows on representable products. The rest (add/sub, floor multiplication up to 32 bits, truncating division) is proved. |
| C46 | BranchlessOps agree with min/max/abs/sign/select/clamp | Bits | math/branchless_ops.hpp | proved.  |
| C47 | BitManipulation::flipBit toggles exactly one bit and countBitDifferences is the Hamming metric | Bits | utils/bit_manipulation.hpp | partial. REFUTED for bool and, for countBitDifferences, for object sizes other than 1/2/4/8; proved for all integer types, float and double. |
| C48 | Result<T> agrees with its status | Bits | core/error/status_code.hpp | partial. REFUTED: Result<T>(StatusCode::SUCCESS) is not successful although its status is. Proved for every other construction and for Result<void>. |
| C49 | GaloisField<4,0x13> and GaloisField<10,0x409> tables implement a field | GF | neural/galois_field.hpp | partial. Field laws, table safety, domain_error proved for all elements of GF16 and GF1024; pow REFUTED when log*power wraps around in unsigned int, proved below. |
| C50 | Constructing GF256 is well defined | GF | neural/galois_field.hpp | partial. REFUTED: field_size wraps to 0 in uint8_t, the tables are empty and the constructor accesses them out of range; GF16 and GF1024 proved to construct. |
| C51 | rs_generator_poly(n) is monic of degree n with roots alpha^0..alpha^(n-1) | GF | neural/galois_field.hpp | proved.  |
| C52 | Reed-Solomon decode(encode(x)) = x without errors | GF | neural/advanced_reed_solomon.hpp | partial. REFUTED: the last check symbol is always 0 and syndromes are computed at other roots, so decode(encode(x)) is x or undefined behaviour; undefined for every nonzero x with fewer data than check symbols. |
| C53 | deinterleave(interleave(d)) = d | GF | neural/advanced_reed_solomon.hpp | partial. REFUTED; the vectors that survive are characterised exactly. |
| C54 | EnhancedVoting: BYTE_ERROR means exactly one byte was hit | Voting | core/redundancy/enhanced_voting.hpp | partial. Proved as iff for 32-bit types; REFUTED for 64-bit types (any multi-bit mask within bits 24-63 is BYTE_ERROR). |
| C55 | detectFaultPatternWithConfidence: same pattern as detectFaultPattern, confidence 1 exactly for agreement | Voting | core/redundancy/enhanced_voting.hpp | partial. Same pattern proved for all types; range proved for exact-width types; REFUTED for 1-byte types (uninitialised bytes make it negative). |
| C56 | Up to six flipped bits in an object of at most 8 bytes change its checksum | Crc | core/redundancy/enhanced_tmr.hpp | proved.  |
| C57 | rad_ml::memory::MemoryScrubber's checksum detects every single-bit error | Crc | memory/memory_scrubber.hpp | partial. REFUTED: the literal table misses one row (252 initialisers); for every context a one-bit flip is invisible. |
| C58 | NaN payloads are protected by EnhancedTMR like any other value | CrcTMR | core/redundancy/enhanced_tmr.hpp | partial. REFUTED for every NaN (verify() is false right after set, one corrupted cell wins). Value-only corruption is survived (proved). |
| C59 | SpaceEnhancedTMR returns the median of three distinct finite floats | CrcTMR | core/redundancy/space_enhanced_tmr.hpp | proved.  |
| C60 | SpaceEnhancedTMR never turns finite float data into NaN or infinity | CrcTMR | core/redundancy/space_enhanced_tmr.hpp | proved.  |
| C61 | SpaceEnhancedTMR::verify() SUCCESS means the copies agree | CrcTMR | core/redundancy/space_enhanced_tmr.hpp | partial. REFUTED: verify() never compares the copies when the checksums are valid. Sound for value upsets that leave checksums alone (proved). |
| C62 | An error callback of tmr::EnhancedTMR may call back into the object | Health | tmr/enhanced_tmr.hpp | partial. REFUTED for every state in which copy 0 fails its CRC. Non-re-entrant callbacks always return: C23_other_operations_return_partial. |
| C63 | tmr::EnhancedTMR::get never returns a copy whose checksum is wrong while a checksum-valid copy exists | Health | tmr/enhanced_tmr.hpp | partial. REFUTED: within the verification interval, draw 0 returns copy 0 with a bad CRC. |
| C64 | RANGE_LIMITED approximation leaves values inside the limit unchanged | Stuck | tmr/approximate_tmr.hpp | partial. REFUTED for unsigned types: the clamp is the constant 2^(w-1)+1. Proved for signed types. |
| C65 | HybridRedundancy::repair() returns true only when the redundancy is restored | Temporal | tmr/hybrid_redundancy.hpp | partial. REFUTED: repair() returns true in every state (the comparison reads the same memory), also when a copy stays wrong. |
| C66 | HybridRedundancy::get masks faults striking during the read | Temporal | tmr/hybrid_redundancy.hpp<br>tmr/temporal_redundancy.hpp | proved. Integral T, tracker without identified stuck bits (as after set()). |
| C67 | StaticAllocator copies are usable and equal allocators are interchangeable | Containers | core/memory/static_allocator.hpp | partial. REFUTED: the converting constructor leaves next_free_ indeterminate; operator== ignores that storage is per object. reset() makes it usable. |
| C68 | ProtectedValue::transform maps the value and propagates the error | Protected | core/memory/protected_value.hpp | partial. REFUTED for errors (get() of the propagated error reads uninitialised copies); proved for values. bind() does not compile for ProtectedValue results and is not modelled. |
| C69 | The error rate reported by RadiationErrorTracker is errors per second | Tracker | core/runtime/error_tracker.hpp | partial. REFUTED: seconds(1).count() is 1 while time differences are in clock ticks, so a single thread never reports more than 0.5/s however fast errors arrive; a race makes the difference wrap to about 2^64. |
| C70 | RadiationErrorTracker::reset restores a fresh tracker | Tracker | core/runtime/error_tracker.hpp | partial. REFUTED: the statics survive reset (rate above 10^6 after one error) and a reset inside a recordError leaves counters inconsistent. Proved part: reset with nothing else running gives a fresh tracker. |
| C71 | getPatternDistribution returns fractions | Tracker | core/runtime/error_tracker.hpp | partial. REFUTED: 200% with one preemption. Proved part: with nothing else running all entries are in [0,1]. |
| C72 | getRecentErrors(k) returns the k most recent errors and never deadlocks | Tracker | core/runtime/error_tracker.hpp | proved. All interleavings, no reset on the object; progress of the whole system. |
| C73 | A scrub callback may use the scrubber it is registered with | Scrub | core/memory/memory_scrubber.hpp | partial. REFUTED: scrubOnce holds the non-recursive mutex while running callbacks. Proved part: callbacks that do not call back run once each, in order. |
| C74 | start/stop of the core scrubber are safe | Scrub | core/memory/memory_scrubber.hpp | partial. Proved for one controlling thread; REFUTED for two concurrent start() calls (std::terminate). |
| C75 | memory::MemoryScrubber handles identify one region | Scrub | memory/memory_scrubber.hpp | partial. Proved for sequential histories; REFUTED for two racing registrations and after a move. |
| C76 | Scrubbing untouched memory reports no error | Scrub | memory/memory_scrubber.hpp | partial. Proved for regions of at most 64 bytes; REFUTED for larger ones (only the last block's checksum is kept). |
| C77 | memory::MemoryScrubber corrects what it counts as corrected | Scrub | memory/memory_scrubber.hpp | partial. REFUTED: memory is never written, all detected errors are counted corrected, corrupted contents are accepted by the next cycle, and the CRC is blind to some changes. Proved part: exact report condition for small regions. |
| C78 | Moving a running memory::MemoryScrubber keeps it scrubbing | Scrub | memory/memory_scrubber.hpp | partial. REFUTED: deadlock reachable, and every completed move leaves the new object without a thread. No positive part holds. |
| C79 | backup_memory, restore_memory and compare_memory work on regions given by their size in bytes | Scrub | core/memory/memory_scrubbing.hpp | partial. REFUTED for the documented byte size (out-of-bounds when sizeof(T) > 1); proved when size is the number of elements. |
| C80 | FixedPoint converts to floating point and back without loss | Bits | math/fixed_point.hpp | partial. double: proved for all formats of at most 32 bits; float: proved below 2^24, REFUTED above. |
| C81 | FixedPoint construction and multiplication are right for every admissible parameter set | Bits | math/fixed_point.hpp | partial. REFUTED for signed T with FracBits = bits-1 (0.5*0.5 = -0.25); int construction proved for the others. |
| C82 | Error Results can be copied | Bits | core/error/status_code.hpp | partial. REFUTED: reads an uninitialised scalar. No positive part holds for scalar T. |
| C83 | rs_calc_syndromes terminates and evaluates the message at alpha^0..alpha^nsym | GF | neural/galois_field.hpp | partial. REFUTED for nsym = 255 (uint8_t counter, endless loop) in GF1024; proved for all nsym < 255. |
| C84 | Reed-Solomon decode corrects up to correction_capability() wrong symbols | GF | neural/advanced_reed_solomon.hpp<br>neural/galois_field.hpp | partial. REFUTED: no word is ever corrected (returned unchanged when its syndromes vanish, otherwise out-of-bounds access). |
| C85 | Reed-Solomon encode is defined for every object | GF | neural/advanced_reed_solomon.hpp | partial. REFUTED when a symbol of the object is not a field element (any byte >= 16 for 4-bit symbols); proved otherwise. |
| C86 | is_correctable answers for every input | GF | neural/advanced_reed_solomon.hpp | partial. REFUTED: true or undefined behaviour, never false for a word of full length; proved false for short input. |
| C87 | rs_find_errors returns exactly the roots of the error locator | GF | neural/galois_field.hpp | proved.  |
| C88 | Multi-bit protection returns what was stored | MBP | neural/multi_bit_protection.hpp | proved.  |
| C89 | HAMMING corrects any single data bit error | MBP | neural/multi_bit_protection.hpp | proved.  |
| C90 | HAMMING: a damaged check byte does not change the value | MBP | neural/multi_bit_protection.hpp | partial. REFUTED for the six parity bytes (getValue flips data bit 2^k-1); proved for the overall parity byte. |
| C91 | SECDED corrects every single data bit error | MBP | neural/multi_bit_protection.hpp | partial. REFUTED for bits i with an odd number of ones in i+1 (reported uncorrectable); proved for the others, detection proved for all. |
| C92 | SECDED detects double errors without miscorrecting | MBP | neural/multi_bit_protection.hpp | partial. REFUTED: detected always, but miscorrected (third bit flipped, success reported) exactly when (i+1) xor (k+1) has odd weight and is at most 32. |
| C93 | SECDED: a damaged check byte never changes the value | MBP | neural/multi_bit_protection.hpp | proved.  |
| C94 | REED_SOLOMON detects every corruption of the value | MBP | neural/multi_bit_protection.hpp | proved.  |
| C95 | REED_SOLOMON repairs any single-byte corruption | MBP | neural/multi_bit_protection.hpp | proved.  |
| C96 | correctErrors() == true means no error is left | MBP | neural/multi_bit_protection.hpp | partial. REFUTED: markInvalid, damaged SECDED overall parity and damaged hash bytes are never cleared though true is returned; proved after any single-bit data error. |
| C97 | Bit interleaving is a bijection that separates neighbours | MBP | neural/multi_bit_protection.hpp | proved.  |
| C98 | applyMultiBitErrors injects damage of the announced kind only | MBP | neural/multi_bit_protection.hpp | proved. For rates up to 1; beyond, the conversion to unsigned is undefined (C98_outside_the_range). |
| C99 | ChecksumProtection detects corruption | MBP | neural/multi_bit_protection.hpp | partial. REFUTED for two-bit corruptions and after assignment through the base class; proved for any corruption confined to one byte. |
| C100 | The triplicated wrappers survive damage to one copy however they are read | MBP | neural/multi_bit_protection.hpp | partial. REFUTED for the implicit conversion (reads the unprotected base value) and for AdaptiveTMRProtection below its threshold; proved for getValue() of integer types. |
| C101 | Zone blocks never overlap | RMA | memory/radiation_mapped_allocator.hpp | partial. REFUTED for zone maps with two zones of one level and for zero-byte requests; proved for every history over one zone per level (including the default map) with requests of at least one byte. |
| C102 | Data goes to the zone of its criticality while it has room | RMA | memory/radiation_mapped_allocator.hpp | partial. REFUTED after the first overflow (the reference assignment overwrites the zone table: the zone is lost for every later history); proved for every history without overflow. |
| C103 | Overflowing data goes to the next less protected zone with room | RMA | memory/radiation_mapped_allocator.hpp | partial. REFUTED: only one fallback zone is tried and LOW_IMPORTANCE overflows into HIGHLY_SHIELDED; proved for the next level's zone before the first overflow. |
| C104 | Usage by criticality is exact | RMA | memory/radiation_mapped_allocator.hpp | partial. REFUTED after a failed malloc (counted for ever); proved otherwise. |
| C105 | Diagnostics count the live blocks of every zone | RMA | memory/radiation_mapped_allocator.hpp | proved.  |
| C106 | The vulnerability score is the weighted mean, in [0, 1] | RMA | memory/radiation_mapped_allocator.hpp | partial. REFUTED when failed requests are counted and the total wraps; proved for up to 2^49 live bytes without failed malloc. |
| C107 | The constructor rejects bad zone maps | RMA | memory/radiation_mapped_allocator.hpp | partial. REFUTED for zones with start > end; proved otherwise. |
| C108 | STLAllocator::allocate(n) reserves room for n objects | RMA | memory/radiation_mapped_allocator.hpp | partial. REFUTED when n*sizeof(T) wraps; proved otherwise. |
| C109 | Every component keeps at least its required and at most its possible protection | Power | power/power_aware_protection.hpp | partial. REFUTED when the minimum powers exceed the budget (components up to criticality 0.7 run at half their minimum); proved otherwise, with the emergency levels exactly. |
| C110 | The power used stays within the budget | Power | power/power_aware_protection.hpp | partial. REFUTED exactly (rounding) and in emergency mode (over budget, or negative); proved up to (3n+152)*2^-52 relative when the minimum fits. |
| C111 | Protection levels do not depend on how the situation arose | Power | power/power_aware_protection.hpp | proved.  |
| C112 | Component ids are unique and calls on unknown ids do nothing | Power | power/power_aware_protection.hpp | proved.  |
| C113 | The effectiveness score lies in [0, 1] | Power | power/power_aware_protection.hpp | partial. REFUTED in emergency mode (negative) and for min = max (NaN); proved when the minimum fits. |
| C114 | With power to spare every component runs at its maximum | Power | power/power_aware_protection.hpp | partial. REFUTED: 100 steps are shared by all components, rounding stops short of the maximum, criticality 0 is never raised; proved to 2^-40 for one component. |
| C115 | Budgets grow from state to state | Power | power/power_aware_protection.hpp | proved.  |
| C116 | Among equal components the more critical one is protected first | Power | power/power_aware_protection.hpp | proved.  |
| C117 | The EDAC simulation restores exactly the bytes a Hamming code can restore | Edac | src/testing/protection_techniques.cpp | proved.  |
| C118 | The TMR simulation restores a bit exactly when at most one copy was hit there | Edac | src/testing/protection_techniques.cpp | proved.  |
| C119 | The scrubbing simulation returns the original memory | Edac | src/testing/protection_techniques.cpp | proved.  |
| C120 | The simulations are defined for every memory and event list | Edac | src/testing/protection_techniques.cpp | partial. REFUTED for an empty memory (distribution over an empty range, remainder by zero); proved for memories of 1 to 2^28-1 bytes. |
| C121 | The reported rates are numbers in [0, 1] | Edac | src/testing/protection_techniques.cpp | partial. REFUTED for an empty event list (0/0); proved with at least one event. |
| C122 | TMR simulation: the bit error rate is zero exactly when the memory was restored | Edac | src/testing/protection_techniques.cpp | proved.  |
| C123 | Other simulations: the bit error rate is zero exactly when the memory was restored | Edac | src/testing/protection_techniques.cpp | partial. REFUTED: two upsets of one byte are one correction, and NONE counts errors without making them; proved for EDAC in the direction ber = 0 => restored. |
| C124 | The fault positions are those of the pattern | Inject | src/testing/fault_injection.cpp<br>testing/fault_injection.hpp | proved.  |
| C125 | injectFault into a 64-bit value changes exactly the bits of its pattern | Inject | src/testing/fault_injection.cpp<br>testing/fault_injection.hpp | proved.  |
| C126 | injectFault is defined for every arithmetic type | Inject | src/testing/fault_injection.cpp<br>testing/fault_injection.hpp | partial. REFUTED for 8, 16 and 32-bit types: the bitset is read past the value; proved for types of whole 64-bit words. |
| C127 | Every injected fault changes the value | Inject | src/testing/fault_injection.cpp<br>testing/fault_injection.hpp | partial. REFUTED for bursts (positions drawn twice cancel) and stuck-at faults (the bit may already have the value); proved for the flipping patterns. |
| C128 | Injecting the same flipping fault twice restores the value | Inject | src/testing/fault_injection.cpp<br>testing/fault_injection.hpp | proved.  |
| C129 | FaultInjector touches one byte and does what the fault type says | Inject | testing/fault_injector.hpp | proved.  |
| C130 | A multi-bit fault flips two to four bits | Inject | testing/fault_injector.hpp | partial. REFUTED: the same bit drawn twice flips nothing; proved for distinct bits. |
| C131 | testResilience counts detected and repaired faults | Inject | testing/fault_injector.hpp | proved.  |
| C132 | injectBitFlips inverts the drawn bits and returns how many upsets it made | Inject | radiation/seu_simulator.hpp | proved.  |
| C133 | simulateSEUs reports every region | Inject | radiation/seu_simulator.hpp | proved.  |
| C134 | Injection without exposure or memory is harmless | Inject | radiation/seu_simulator.hpp<br>testing/fault_injector.hpp<br>testing/radiation_simulator.hpp | partial. REFUTED for a zero duration (Poisson mean 0) and for FaultInjector on an empty region; proved for a missing environment or memory. |
| C135 | A radiation event changes only the byte it reports and no more bits than it reports | Inject | testing/radiation_simulator.hpp | proved.  |
| C136 | A run of simulateEffects is the sequence of its events | Inject | testing/radiation_simulator.hpp | proved.  |
| C137 | Event rates are ordered and bounded | Inject | testing/radiation_simulator.hpp | proved.  |
| C138 | A harsher environment never has lower event rates | Inject | testing/radiation_simulator.hpp | partial. REFUTED across 36000 km, where the factor drops from 5.6 to 5; proved on either side. |
| C139 | The protection level follows the smoothed error rate | Adapt | core/radiation/adaptive_protection.hpp | proved. Hypothesis: the sum of the two counts fits in uint32_t (C140 treats the rest). |
| C140 | Every reported error counts towards the level | Adapt | core/radiation/adaptive_protection.hpp | partial. REFUTED: the two counts are added in uint32_t, so 2^31+2^31 counts as none; proved while the sum fits. |
| C141 | No report of errors is lost | Adapt | core/radiation/adaptive_protection.hpp | partial. REFUTED: a call less than a second after the last assessment is dropped with its counts; proved for the others. |
| C142 | Level callbacks hear of every change, once, and of nothing else | Adapt | core/radiation/adaptive_protection.hpp | proved.  |
| C143 | A level callback may use the controller | Adapt | core/radiation/adaptive_protection.hpp | partial. REFUTED: callbacks run with the mutex held, so locking again is undefined; proved for callbacks that only observe. |
| C144 | Callback handles are unique and unregistering removes exactly one callback | Adapt | core/radiation/adaptive_protection.hpp | proved.  |
| C145 | A temporary increase lasts for its duration and ends | Adapt | core/radiation/adaptive_protection.hpp | partial. REFUTED: nothing reverts the level, and a quiet assessment one second later drops it below the former level; proved: raised by one, at most MAXIMUM. |
| C146 | A quiet environment brings the level down to MINIMAL | Adapt | core/radiation/adaptive_protection.hpp | proved.  |
| C147 | A burst of errors brings MAXIMUM protection at once | Adapt | core/radiation/adaptive_protection.hpp | proved.  |
| C148 | The framework always runs with the settings of its environment | Adapt | core/adaptive/adaptive_framework.hpp | proved.  |
| C149 | With adaptive mode off only the user changes the environment | Adapt | core/adaptive/adaptive_framework.hpp | proved.  |
| C150 | Detected environment changes are at least ten seconds apart | Adapt | core/adaptive/adaptive_framework.hpp | proved.  |
| C151 | Detection moves by a single level only after five minutes in the same environment | Adapt | core/adaptive/adaptive_framework.hpp | partial. REFUTED after construction, setEnvironment and the EXTREME shortcut, none of which starts the five minutes; proved relative to the last change by the score. |
| C152 | A spike of errors, or enabling adaptive mode, triggers detection immediately | Adapt | core/adaptive/adaptive_framework.hpp | partial. REFUTED: the check is skipped within ten seconds of the previous one; proved after ten seconds. |
| C153 | Environment callbacks hear of every change, once, and of nothing else | Adapt | core/adaptive/adaptive_framework.hpp | proved.  |
| C154 | Detection is monotone in the error rate | Adapt | core/adaptive/adaptive_framework.hpp | proved.  |
| C155 | A mission name means the same everywhere | Adapt | mission/mission_profile.hpp<br>testing/radiation_simulator.hpp | partial. REFUTED for LUNAR and ISS; proved for LEO, GEO, MOON, MARS, JUPITER (and the long names), and for names unknown to both. |
| C156 | forward() computes the dense network on the current parameters | PNN | neural/protected_neural_network.hpp | proved.  |
| C157 | Detected errors are the corrected plus the uncorrectable ones | PNN | neural/protected_neural_network.hpp | proved.  |
| C158 | Voting on activations never makes the result worse | PNN | neural/protected_neural_network.hpp | partial. REFUTED: when both copies of an activation are hit in the same bit they outvote the right value, and the loss is counted as a correction. Proved whenever that coincidence does not happen (different single-bit upsets of one float never compare equal). |
| C159 | A protected network masks an upset of one stored weight | PNN | neural/protected_neural_network.hpp | partial. REFUTED at every level: weights are MultibitProtection objects with coding scheme NONE, so no upset is ever detected. Proved: the damage is confined to that weight and nothing is counted. |
| C160 | applyRadiationEffects() hits only what it draws | PNN | neural/protected_neural_network.hpp | proved.  |
| C161 | FULL_TMR and ADAPTIVE_TMR repair what radiation did | PNN | neural/protected_neural_network.hpp | partial. REFUTED: the repair pass finds no errors (scheme NONE). Proved: it never damages an intact network. |
| C162 | setLayerWeights() replaces exactly one layer | PNN | neural/protected_neural_network.hpp | proved.  |
| C163 | setLayerWeights() is all or nothing | PNN | neural/protected_neural_network.hpp | partial. REFUTED: rows before the first row of the wrong length have been set when the exception is thrown. Proved: exactly these rows, and all-or-nothing for the other two errors. |
| C164 | setLayerBiases() replaces exactly one layer, or nothing | PNN | neural/protected_neural_network.hpp | proved.  |
| C165 | getLayers() shows the parameters the network computes with | PNN | neural/protected_neural_network.hpp | proved.  |
| C166 | Edits through getLayers() take effect, and it shows upsets | PNN | neural/protected_neural_network.hpp | partial. REFUTED for every edit and for radiation: the copies are never read, and raw_setWeight does not update them. |
| C167 | train() improves the network | PNN | neural/protected_neural_network.hpp | partial. REFUTED for all data: train() never changes a parameter. Proved: it returns the mean squared error of the unchanged network. |
| C168 | evaluate() returns an accuracy between 0 and 1 | PNN | neural/protected_neural_network.hpp | partial. REFUTED: it returns 1 - MSE, which can be negative. Proved: the exact value. |
| C169 | The constructor and setActivationFunction() build the network asked for | PNN | neural/protected_neural_network.hpp | proved.  |
| C170 | Inference never changes the model | PNN | neural/protected_neural_network.hpp | proved.  |
| C171 | Reliability scores stay between 0 and 1 | Div | advanced/algorithmic_diversity.hpp | proved.  |
| C172 | execute() returns the answer with the most reliability behind it | Div | advanced/algorithmic_diversity.hpp | proved.  |
| C173 | With untouched reliabilities the most frequent answer wins | Div | advanced/algorithmic_diversity.hpp | proved.  |
| C174 | A majority answer always wins | Div | advanced/algorithmic_diversity.hpp | partial. REFUTED: one implementation with reliability 1.0 outvotes three with 0.3. Proved: the answer with strictly more summed reliability wins. |
| C175 | A reported failure never raises the reliability | Div | advanced/algorithmic_diversity.hpp | partial. REFUTED: from 0.2 with a history of successes a failure gives 0.27. Proved: a failure never gives more than a success would, and lowers or keeps the score once the window holds only failures. |
| C176 | The score follows the last N outcomes | Div | advanced/algorithmic_diversity.hpp | proved.  |
| C177 | setReliabilityHistorySize() keeps the most recent outcomes | Div | advanced/algorithmic_diversity.hpp | partial. REFUTED: shrinking keeps the oldest outcomes. Proved: scores and names do not change, growing keeps every outcome, setting the same size changes nothing. |
| C178 | No call sequence is undefined behaviour | Div | advanced/algorithmic_diversity.hpp | partial. REFUTED for history size 0 (erase(begin()) of an empty vector). Proved: with a positive size every call is defined. |
| C179 | Implementations below the threshold have no influence | Div | advanced/algorithmic_diversity.hpp | proved.  |
| C180 | execute() answers whenever a registered implementation does | Div | advanced/algorithmic_diversity.hpp | partial. REFUTED: the fallback calls the most reliable implementation again, not one that answers; a registration under the empty name is never used as fallback. Proved: a consulted implementation that answers suffices, and the exact fallback. |
| C181 | execute() changes the scores of failing implementations only | Div | advanced/algorithmic_diversity.hpp | proved.  |
| C182 | getMostReliableImplementation() returns a best name | Div | advanced/algorithmic_diversity.hpp | proved.  |
| C183 | Registration sets exactly one entry | Div | advanced/algorithmic_diversity.hpp | proved.  |
| C184 | A persistently failing implementation is excluded until it is rehabilitated | Div | advanced/algorithmic_diversity.hpp | proved.  |
| C185 | Taught corrections are recalled | Pred | advanced/error_prediction.hpp | proved.  |
| C186 | train() accepts exactly matching non-empty data, and refused data has no effect | Pred | advanced/error_prediction.hpp | proved.  |
| C187 | Outputs never taught are not corrected | Pred | advanced/error_prediction.hpp | proved.  |
| C188 | Outputs similar to a known corrupted one are recognised | Pred | advanced/error_prediction.hpp | partial. REFUTED: the class's own static members hide the vector overloads, so nothing is ever similar (0.1). Proved: the exact probability. |
| C189 | Prediction takes the input into account | Pred | advanced/error_prediction.hpp | partial. REFUTED: the input is ignored. Proved: results never depend on the input. |
| C190 | A suggestion for an unknown output comes from the closest taught output | Pred | advanced/error_prediction.hpp | partial. REFUTED: the smallest taught output is used, whatever the suspect output. Proved: what a suggestion can be. |
| C191 | Thresholds are clamped to [0,1] and obeyed | Pred | advanced/error_prediction.hpp | proved.  |
| C192 | isPartiallyCorrupted() means at least 70 percent equal elements | Pred | advanced/error_prediction.hpp | proved.  |
| C193 | A convolution produces one output per position of the kernel | Conv | inference/layers/conv_layer.hpp | proved.  |
| C194 | A convolution whose kernel does not fit produces no output | Conv | inference/layers/conv_layer.hpp | partial. REFUTED: the unsigned subtraction wraps and the output dimension is at least 2^39 (2^64-1 for stride 1). Proved: off by one with stride 1 gives an empty output. |
| C195 | forward() is the zero-padded cross-correlation | Conv | inference/layers/conv_layer.hpp | proved.  |
| C196 | Rounding error of a convolution | Conv | inference/layers/conv_layer.hpp | proved.  |
| C197 | forward() never executes undefined behaviour | Conv | inference/layers/conv_layer.hpp | partial. REFUTED: 16.16 values overflow int in the accumulation. Proved: for 8- and 16-bit storage forward() always returns. |
| C198 | A convolutional layer masks one damaged copy per parameter | Conv | inference/layers/conv_layer.hpp | proved.  |
| C199 | repair() never changes what a convolutional layer computes | Conv | inference/layers/conv_layer.hpp | proved.  |
| C200 | setWeight() and setBias() set exactly one parameter | Conv | inference/layers/conv_layer.hpp | proved.  |
| C201 | BasicTMR and HybridRedundancy mask one wrong execution and report it exactly | Strat | tmr/adaptive_protection.hpp<br>tmr/adaptive_protection_impl.hpp | proved.  |
| C202 | EnhancedTMR masks one wrong integer execution | Strat | tmr/adaptive_protection.hpp<br>tmr/adaptive_protection_impl.hpp | proved.  |
| C203 | EnhancedTMR reports whether an error was detected | Strat | tmr/adaptive_protection.hpp<br>tmr/adaptive_protection_impl.hpp | partial. REFUTED: when all three agree neither flag is written. Proved: the flags are right on every disagreement. |
| C204 | EnhancedTMR works for every float result | Strat | tmr/adaptive_protection.hpp<br>tmr/adaptive_protection_impl.hpp | partial. REFUTED: the float is cast to size_t, undefined for negative, NaN and huge results. Proved: masked for results in [0, 2^63]. |
| C205 | StuckBitTMR masks one wrong execution | Strat | tmr/adaptive_protection.hpp<br>tmr/adaptive_protection_impl.hpp | partial. REFUTED: a correct 0 or INT_MAX is discarded and the one wrong value is returned as corrected. Proved: masked when the right value does not look stuck. |
| C206 | StuckBitTMR raises no false alarm | Strat | tmr/adaptive_protection.hpp<br>tmr/adaptive_protection_impl.hpp | partial. REFUTED: three zeros give confidence 0.2 and a detected error. Proved: no alarm for values that do not look stuck. |
| C207 | StuckBitTMR takes a majority when every result looks stuck | Strat | tmr/adaptive_protection.hpp<br>tmr/adaptive_protection_impl.hpp | proved.  |
| C208 | Health scores stay within [0.1, 1] for the life of the object | Strat | tmr/adaptive_protection.hpp<br>tmr/adaptive_protection_impl.hpp | proved.  |
| C209 | HealthWeightedTMR masks one wrong execution at any age | Strat | tmr/adaptive_protection.hpp<br>tmr/adaptive_protection_impl.hpp | partial. REFUTED: four faults in execution 1 and then one in execution 2 return the wrong value. Proved: masked for ever while it is always the same execution that disagrees. |
| C210 | Disagreeing is never rewarded | Strat | tmr/adaptive_protection.hpp<br>tmr/adaptive_protection_impl.hpp | partial. REFUTED: a three-way disagreement raises all scores. Proved: no score rises when some two agree. |
| C211 | The optimal protection level grows with severity and criticality | Strat | tmr/adaptive_protection.hpp<br>tmr/adaptive_protection_impl.hpp | proved.  |
| C212 | The checkpoint interval is always between 10 and 3600 seconds | Strat | src/tmr/adaptive_protection.cpp | proved.  |
| C213 | The checkpoint interval shrinks as conditions worsen | Strat | src/tmr/adaptive_protection.cpp | proved.  |
| C214 | Layer protection follows environment, sensitivity and position | Strat | src/tmr/adaptive_protection.cpp | proved.  |
| C215 | The mission controller level is decided by the last environment update or known phase | Strat | src/tmr/adaptive_protection.cpp<br>tmr/adaptive_protection.hpp | proved.  |
| C216 | A mission phase sets a floor until it is left | Strat | src/tmr/adaptive_protection.cpp<br>tmr/adaptive_protection.hpp | partial. REFUTED: a quiet environment update after entering CRITICAL_OPERATION gives BASIC_TMR. Proved: the level holds until the next update or phase. |
| C217 | createCurrentStrategy gives the strategy of the current level | Strat | src/tmr/adaptive_protection.cpp<br>tmr/adaptive_protection.hpp | partial. REFUTED: entering LAUNCH before the first update reads the uninitialised environment. Proved: after an update the strategy has the level in force. |
| C218 | executeProtected honours the mission phase | Strat | tmr/physics_driven_protection.hpp | partial. REFUTED: phase and criticality are ignored. Proved: for every history, executions are the same with all phase entries removed and any criticality. |
| C219 | executeProtected masks one wrong integer execution in every history | Strat | tmr/physics_driven_protection.hpp | proved.  |
| C220 | executeProtected masks one wrong float execution in every history | Strat | tmr/physics_driven_protection.hpp | partial. REFUTED: a two-layer network runs EnhancedTMR, a negative result is undefined behaviour. Proved: masked for results in [0, 2^63]. |
| C221 | Protection resources are shared fairly | Strat | tmr/physics_driven_protection.hpp | proved.  |
| C222 | A protected layer computes ReLU(Wx+b) | Strat | tmr/physics_driven_protection.hpp | proved.  |
| C223 | forward() is defined for every input | Strat | tmr/physics_driven_protection.hpp | partial. REFUTED: an empty input divides by zero. Proved: every other input returns. |
| C224 | forward() masks a corrupted stored weight | Strat | tmr/physics_driven_protection.hpp | partial. REFUTED: all three executions read the same corrupted weight. Proved: only the output of that weight's row can change. |
| C225 | setWeights and setBiases store exactly the given values | Strat | tmr/physics_driven_protection.hpp | proved.  |
| C226 | The temporal delay of hybrid execution is bounded | Strat | tmr/physics_driven_protection.hpp | proved.  |
| C227 | The synergy factor is between 1 and 1.5 | Strat | tmr/physics_driven_protection.hpp | proved.  |
| C228 | In an emergency every layer executes with hybrid redundancy | Strat | tmr/physics_driven_protection.hpp | proved.  |
| C229 | Scales are recomputed only when their interval has elapsed | Strat | tmr/physics_driven_protection.hpp | proved.  |
| C230 | A mission run counts every event exactly once by kind, by fate and by environment | Mission | testing/mission_simulator.hpp | proved.  |
| C231 | The byte totals are the sums of the registered regions | Mission | testing/mission_simulator.hpp | proved.  |
| C232 | Only enabled protection detects or corrects an event | Mission | testing/mission_simulator.hpp | proved.  |
| C233 | Environments are chosen by their probabilities and every change is reported | Mission | testing/mission_simulator.hpp | proved.  |
| C234 | A mission run ends | Mission | testing/mission_simulator.hpp | partial. REFUTED: with a time step of 0 or less runSimulation never returns; proved for every positive step. |
| C235 | Time in environments accounts for the whole mission | Mission | testing/mission_simulator.hpp | proved. whole-second steps for the exact sum; every step for the per-step statement |
| C236 | Every mission profile can be simulated | Mission | testing/mission_simulator.hpp | partial. REFUTED: an empty profile (despite the constructor's fallback), fewer durations than environments, more probabilities than environments, or an infinite duration make the run index out of bounds or convert out of range; proved for proper profiles. |
| C237 | The energy budget limits protection | Mission | testing/mission_simulator.hpp | partial. REFUTED: budget, costs and the low threshold have no effect on any run (proved for all runs); the settings are always one of the three configured ones. |
| C238 | Standard configurations protect more when radiation is higher | Mission | testing/mission_simulator.hpp | proved.  |
| C239 | Standard mission profiles are well formed and can be flown | Mission | testing/mission_simulator.hpp | proved.  |
| C240 | Scrubbing keeps its interval | Mission | testing/mission_simulator.hpp | proved.  |
| C241 | An event counted as corrected leaves the memory undamaged | Mission | testing/mission_simulator.hpp | partial. REFUTED: protection only counts; a corrected event leaves the memory corrupted. Proved: the memory after a run does not depend on the configuration at all. |
| C242 | A mission run changes only registered memory | Mission | testing/mission_simulator.hpp | proved.  |
| C243 | The uptime is a fraction, and 1 when nothing went wrong | Mission | testing/mission_simulator.hpp | partial. REFUTED: a run without errors reports uptime 0; proved: in [0,1], and 1 when every detected error was corrected. |
| C244 | An environment is left when its duration is over | Mission | testing/mission_simulator.hpp | partial. REFUTED: the choice may pick the same environment again and again; proved: a single environment is never left. |
| C245 | Radiation-aware training rejects data that does not fit the network | Train | src/rad_ml/research/radiation_aware_training.cpp | proved.  |
| C246 | Radiation-aware training is defined for every flip probability | Train | src/rad_ml/research/radiation_aware_training.cpp | partial. REFUTED: probability 0 (and 1e-10) converts an infinity or a too large float to int. Proved: defined for p >= 2^-27 with counts that fit. |
| C247 | An injection round flips one bit of exactly the values drawn, and counts them | Train | src/rad_ml/research/radiation_aware_training.cpp | proved. With the exact boundary where the int counter overflows. |
| C248 | Injected bit flips affect what the network computes | Train | neural/protected_neural_network.hpp<br>src/rad_ml/research/radiation_aware_training.cpp | partial. REFUTED for every reachable network: flips hit the copies getLayers() gives access to, which forward does not read. Proved: visible there. |
| C249 | Radiation-aware training trains | Train | neural/protected_neural_network.hpp<br>src/rad_ml/research/radiation_aware_training.cpp | partial. REFUTED for every reachable network: no call changes the parameters. Proved: the network stays usable, sizes kept. |
| C250 | Training reports the accuracy drop and the recovery rate | Train | research/radiation_aware_training.hpp<br>src/rad_ml/research/radiation_aware_training.cpp | partial. REFUTED: for every history on non-empty data drop and recovery are 0. Proved: train() and getStats() agree. |
| C251 | The criticality map identifies critical weights | Train | src/rad_ml/research/radiation_aware_training.cpp | partial. REFUTED: all analysed weights get 1/2, or NaN when the loss is not finite. Proved: entries are 0 or 1/2 with a finite loss. exp is a parameter (exp(-0)=1). |
| C252 | The criticality analysis leaves the network as it was | Train | src/rad_ml/research/radiation_aware_training.cpp | proved.  |
| C253 | A trainer can be used for several networks | Train | src/rad_ml/research/radiation_aware_training.cpp | partial. REFUTED: the map keeps the first network's sizes and is written out of bounds. Proved: same sizes work. |
| C254 | An empty training set is harmless | Train | src/rad_ml/research/radiation_aware_training.cpp | partial. REFUTED: out of bounds with targeting, NaN statistics otherwise. Proved: no epochs, no change. |
| C255 | Every epoch presents every sample once, whatever the batch size | Train | src/rad_ml/research/radiation_aware_training.cpp | partial. REFUTED for batch sizes 0 (division by zero) and below 0 (nothing is trained). Proved for all positive batch sizes. |
| C256 | The total number of flips is the sum over the injection rounds | Train | src/rad_ml/research/radiation_aware_training.cpp | proved. For targeting off; freq characterised for p >= 2^-27. |
| C257 | A harsher environment injects at least as many flips | Train | src/rad_ml/research/radiation_aware_training.cpp<br>src/rad_ml/sim/environment.cpp | partial. REFUTED: SOLAR_FLARE injects less than MARS, EARTH more than EARTH_ORBIT. Proved for the environments whose factors are ordered. |
| C258 | Skip connections behave as a set of valid pairs | Residual | research/residual_network.hpp | proved.  |
| C259 | Skip connections and projections take part in the forward pass | Residual | research/residual_network.hpp | partial. REFUTED for every network: forward() ignores all connections and projections. Proved: the base class result. |
| C260 | addResidualBlock() adds a block | Residual | research/residual_network.hpp | partial. REFUTED: nothing is added. Proved: the call can be left out of any history. |
| C261 | Saved skip connections are restored by loading | Residual | research/residual_network.hpp | proved. For every content of the map that fits into size_t, every order. |
| C262 | Loading a saved network restores its parameters and projections | Residual | research/residual_network.hpp | partial. REFUTED: the layers are never restored, projections become the identity. Proved: what is restored. |
| C263 | A failed load leaves the network unchanged | Residual | research/residual_network.hpp | partial. REFUTED: connections are cleared before the failure. Proved: the layers never change, and a missing file or a failure before the connections are read leaves everything unchanged. |
| C264 | Truncated files are detected | Residual | research/residual_network.hpp | partial. REFUTED for every saved file and every cut behind the first 8 bytes. Proved: complete files. |
| C265 | Loading a file has no undefined behaviour | Residual | research/residual_network.hpp | partial. REFUTED: files shorter than 8 bytes read an uninitialised size, a flag byte other than 0 or 1. Proved for saved files cut behind 8 bytes. |
| C266 | Loaded skip connections are valid for the loading network | Residual | research/residual_network.hpp | partial. REFUTED. Proved for networks with at least as many layers. |
| C267 | saveToFile() answers true only if everything was written | Residual | research/residual_network.hpp | partial. REFUTED for every content: the writes are not checked. Proved for a disk with room. |
| C268 | train() and evaluate() of a residual network work on data sets | Residual | research/residual_network.hpp | partial. REFUTED: all data is one input vector, several samples throw; accuracy can be negative. Proved for one sample: the exact values, and nothing is trained. |
| C269 | isAllocated() and getAllocationInfo() know exactly the live allocations | Umm | core/memory/unified_memory.hpp | partial. REFUTED for CANARY: the returned pointer is not the tracked one. Proved for the other levels, for deallocate and for the typed forms. |
| C270 | What allocate() returned can be deallocated | Umm | core/memory/unified_memory.hpp | partial. REFUTED for CANARY: deallocate answers false and the block leaks. Proved for the other levels. |
| C271 | Memory statistics balance | Umm | core/memory/unified_memory.hpp | proved. Totals modulo 2^64; count tied to isAllocated. |
| C272 | Peak statistics are the largest values there have been | Umm | core/memory/unified_memory.hpp | partial. REFUTED after resetStats (peaks 0 below the current values). Proved for histories without resetStats; bytes while the live bytes are below 2^64. |
| C273 | resetStats() recomputes the statistics from the live allocations | Umm | core/memory/unified_memory.hpp | proved. For every reachable manager. |
| C274 | Freeing what is not allocated is rejected without effect | Umm | core/memory/unified_memory.hpp | proved. Unknown, double free, and no bad free for every reachable manager. |
| C275 | The bytes an allocation returns are its own | Umm | core/memory/unified_memory.hpp | partial. REFUTED: sizes wrap (CANARY near SIZE_MAX, allocateArray). Proved below 2^60. |
| C276 | Setting up protection stays inside the block | Umm | core/memory/unified_memory.hpp | partial. REFUTED: ECC and TMR write behind the block for every unaligned size > 0. Proved: exact condition, and NONE, CRC, CANARY always complete. |
| C277 | protectMemory() keeps the contents | Umm | core/memory/unified_memory.hpp | partial. REFUTED: CANARY overwrites the first and last eight bytes (or is out of bounds), ECC and TMR write behind the block. Proved for NONE and CRC. |
| C278 | Protection status and protected statistics agree | Umm | core/memory/unified_memory.hpp | partial. REFUTED: allocate with a level reports unprotected, unprotectMemory subtracts twice. Proved: the status, and the counts for histories without unprotectMemory. |
| C279 | Intact memory verifies | Umm | core/memory/unified_memory.hpp | partial. REFUTED: never true; locks the mutex again for every live allocation. Proved: false for unknown pointers. |
| C280 | A protected block can be deallocated | Umm | core/memory/unified_memory.hpp | partial. REFUTED: the mutex is locked again for every protected block. Proved: works after unprotectMemory. |
| C281 | Canaries stand directly before and behind the caller's bytes | Umm | core/memory/unified_memory.hpp | proved. Sizes below 2^60. |
| C282 | ZERO_INITIALIZED zeroes the caller's bytes, ALIGNED aligns the pointer | Umm | core/memory/unified_memory.hpp | partial. ALIGNED REFUTED for CANARY with alignment above 8. Zeroing proved for all levels (sizes below 2^60), alignment for the other levels. |
| C283 | When the system has no memory nothing changes | Umm | core/memory/unified_memory.hpp | proved. allocate, allocateObject, allocateArray. |
| C284 | Callback ids are unique and callbacks stay registered until unregistered | Umm | core/memory/unified_memory.hpp | proved. For fewer than 2^64 - 2 registrations. |
| C285 | checkForLeaks() counts the live allocations and destroyed pointer objects leave none | Umm | core/memory/unified_memory.hpp | partial. checkForLeaks proved; REFUTED for objects made with CANARY (they leak). NONE and CRC objects: see C286. |
| C286 | RadiationTolerantPtr objects own what they point to | Umm | core/memory/unified_memory.hpp | proved. Levels NONE and CRC; also: when all pointer objects are null nothing is allocated. |
| C287 | Reported percentages are sane | Tester | src/rad_ml/research/architecture_tester.cpp | proved. For any std::log and std::exp that answer doubles, any noise in [0,2]. |
| C288 | Every architecture can be tested | Tester | src/rad_ml/research/architecture_tester.cpp | partial. REFUTED: layer lists without a connection (empty, one layer, a zero width throughout) and dropout -0.5 convert an unrepresentable number to size_t. Proved for networks with 1 <= weights < 2^53 and dropout in [0,1]. |
| C289 | Errors are accounted for and protection helps | Tester | src/rad_ml/research/architecture_tester.cpp | proved. For networks with 1 <= weights < 2^53, given 0 <= log <= 40 there. |
| C290 | More protection never lowers the reported accuracy | Tester | src/rad_ml/research/architecture_tester.cpp | partial. REFUTED: the noise is seeded by the level too. Proved when the noise is the same. |
| C291 | Harsher environments never raise the reported accuracy | Tester | src/rad_ml/research/architecture_tester.cpp<br>src/rad_ml/sim/environment.cpp | partial. REFUTED: SOLAR_FLARE has a higher radiation level than DEEP_SPACE but gives a higher accuracy, even with equal noise. Proved for the tester's own order of environments with equal noise. |
| C292 | Reported accuracies come from training and testing on the data | Tester | src/rad_ml/research/architecture_tester.cpp | partial. REFUTED: proved that data and epochs have no influence at all. |
| C293 | Monte Carlo summaries are sane | Tester | src/rad_ml/research/architecture_tester.cpp | proved. Given only that the square of a number up to 200 lies in [0,65536]. |
| C294 | Monte Carlo error counts equal those of a single test | Tester | src/rad_ml/research/architecture_tester.cpp | proved. 1 <= trials < 2^37, 1 <= weights < 2^53. |
| C295 | Monte Carlo trials are different experiments and the seed offset selects them | Tester | src/rad_ml/research/architecture_tester.cpp | partial. Seeds proved distinct (as the engine sees them, modulo 2^32); the offset part is REFUTED: it has no effect. |
| C296 | getBestArchitecture and getOptimalDropout answer the first best recorded result | Tester | src/rad_ml/research/architecture_tester.cpp | partial. First best proved for the scan libstdc++ performs; REFUTED: the ordering is not irreflexive, so the library promises nothing. |
| C297 | Every tested architecture is considered for the best | Tester | src/rad_ml/research/architecture_tester.cpp | partial. REFUTED: testArchitecture records nothing. Proved: exactly the Monte Carlo and range calls record one result each. |
| C298 | The results file has one row per recorded result | Tester | src/rad_ml/research/architecture_tester.cpp | partial. REFUTED: each save appends all results so far. Proved: the exact content, k(k+1)/2 rows after k recordings. |
| C299 | testWidthRange and testDropoutRange test the whole range | Tester | src/rad_ml/research/architecture_tester.cpp | partial. REFUTED: maximum and step have no influence; proved that exactly the minimum is tested. |
| C300 | The best architecture has the network's input and output size | Tester | src/rad_ml/research/architecture_tester.cpp | partial. REFUTED: zero Monte Carlo trials record an empty architecture for EARTH. Proved when every Monte Carlo call has a trial and a list of the right shape. |
| C301 | Network configurations are strictly ordered | Search | research/auto_arch_search.hpp | partial. REFUTED: three dropout rates closer than 1e-6 give a cycle a < b < c < a. Proved: a strict total order when the dropout rates are equal or at least 1e-6 apart. |
| C302 | Configuration equality agrees with the order | Search | research/auto_arch_search.hpp | partial. REFUTED for NaN dropout rates. Proved for every pair of rates in [0,1]; with rates at least 1e-6 apart equality is identity. |
| C303 | Grid search considers exactly the configurations of the grid, each once | Search | src/rad_ml/research/auto_arch_search.cpp | proved. Exact membership, no duplicates, count in both modes. |
| C304 | Random and grid search cover the same configurations | Search | src/rad_ml/research/auto_arch_search.cpp | partial. Random configurations are exactly those built from the options; REFUTED that the grid has them all (three layers, equal widths, residual with one hidden layer). Proved equal for a fixed number of at least two hidden layers. |
| C305 | Grid search answers the best configuration of the grid | Search | src/rad_ml/research/auto_arch_search.cpp | proved. First best, iteration count, and completion, for every noise and number of trials. |
| C306 | A search always answers a tested configuration | Search | src/rad_ml/research/auto_arch_search.cpp | partial. REFUTED: no options, no trials or no iterations return uninitialised numbers or subscript an empty vector. Completion otherwise is C305_completes and C311_completes. |
| C307 | Grid search leaves exactly the results of the grid and of earlier searches | Search | src/rad_ml/research/auto_arch_search.cpp | proved. Exact table, for every earlier table. |
| C308 | Random search tests exactly the asked number of new configurations and answers their best | Search | src/rad_ml/research/auto_arch_search.cpp | proved. For every stream: whenever it returns, exactly max new different configurations. |
| C309 | Random search ends | Search | src/rad_ml/research/auto_arch_search.cpp | partial. REFUTED: when fewer than max untested configurations are left it never returns, for every stream and however long it runs. |
| C310 | A search answers the best configuration tested so far | Search | src/rad_ml/research/auto_arch_search.cpp | partial. REFUTED: random search forgets better earlier results. Proved for grid search among grid configurations. |
| C311 | Evolutionary search keeps its population valid and its best | Search | src/rad_ml/research/auto_arch_search.cpp | proved. For every stream: population size, validity under crossover and mutation, elitism, the first best of all evaluated, the exact table, completion. |
| C312 | Evolutionary search is defined for every population size and number of generations | Search | src/rad_ml/research/auto_arch_search.cpp | partial. REFUTED in both cases; C311 needs at least one configuration and one generation. |
| C313 | No configuration is tested twice | Search | src/rad_ml/research/auto_arch_search.cpp | partial. REFUTED for grid search, which tests again. Proved for random and evolutionary search: recorded Monte Carlo results = growth of the table. |
| C314 | The constructor reads the network's sizes off the data | Search | src/rad_ml/research/auto_arch_search.cpp | partial. REFUTED: without labels it divides by zero. Proved otherwise for labels that are not NaN. |
| C315 | After a search the results file has one row per tested configuration | Search | src/rad_ml/research/auto_arch_search.cpp | proved. All three searches. |
| C316 | The table of tested configurations stays sound | Search | src/rad_ml/research/auto_arch_search.cpp | proved. Every history of sensible calls (at least one trial, configuration and generation). |
| C317 | encode answers latent_dim means and log-variances in [-10, 10] | Vae | src/rad_ml/research/variational_autoencoder.cpp | proved.  |
| C318 | Encoding and decoding are functions of the input | Vae | src/rad_ml/research/variational_autoencoder.cpp | proved.  |
| C319 | The autoencoder can reproduce its inputs | Vae | src/rad_ml/research/variational_autoencoder.cpp | partial. REFUTED: without votes every decoded value is NaN or in [0, 1.75], so inputs of 2 or more are never reproduced. Missing: the range when activations are voted on. |
| C320 | sample is a function of mean, log-variance and seed | Vae | src/rad_ml/research/variational_autoencoder.cpp | proved. Formula, seeds modulo 2^32; short vectors are out-of-bounds reads. |
| C321 | Latent protection keeps the latent values | Vae | src/rad_ml/research/variational_autoencoder.cpp | partial. REFUTED: above 0.5 values are moved and the move counted as a corrected error; above 0.1 a value of 2^127 becomes infinite. Proved: unchanged up to 0.5 below 2^127. |
| C322 | Interpolation starts at the first vector and ends at the second | Vae | src/rad_ml/research/variational_autoencoder.cpp | partial. REFUTED with use_interpolation: alpha 1 gives the interpolation network's answer. Proved for linear interpolation; sizes; short vectors are out-of-bounds reads without use_interpolation. |
| C323 | generate answers the requested number of samples | Vae | src/rad_ml/research/variational_autoencoder.cpp | proved.  |
| C324 | Training fits the autoencoder to the data | Vae | src/rad_ml/research/variational_autoencoder.cpp | partial. REFUTED: no training function changes a weight. |
| C325 | train returns the mean loss of the last epoch | Vae | src/rad_ml/research/variational_autoencoder.cpp | partial. REFUTED: the divisor is one too many when the batch size divides the number of samples. Proved: exact formula. |
| C326 | Training terminates for every batch size | Vae | src/rad_ml/research/variational_autoencoder.cpp | partial. REFUTED: batch size 0 never returns, or divides by zero on no data. Batch sizes other than 0 terminate: C325, C329. |
| C327 | The validation split partitions the data | Vae | src/rad_ml/research/variational_autoencoder.cpp | partial. REFUTED: 2^24+3 samples and split 0 throw, a NaN split is undefined. Proved: always a partition; sizes within 4 up to 2^24 samples and split in [0,1]. |
| C328 | Batches cover the data in order | Vae | src/rad_ml/research/variational_autoencoder.cpp | proved.  |
| C329 | Early stopping follows the validation losses | Vae | src/rad_ml/research/variational_autoencoder.cpp | proved.  |
| C330 | trainProduction on little data has usable losses | Vae | src/rad_ml/research/variational_autoencoder.cpp | partial. REFUTED: one sample and the default split leave nothing to train on and every training loss is NaN. Proved: which losses are NaN. |
| C331 | Error statistics are consistent | Vae | src/rad_ml/research/variational_autoencoder.cpp | proved.  |
| C332 | loadModel restores what saveModel wrote | Vae | src/rad_ml/research/variational_autoencoder.cpp | partial. REFUTED: loadModel returns false for every file. Proved: and changes nothing. |
| C333 | loadFromFile restores what saveToFile wrote | Vae | src/rad_ml/research/variational_autoencoder.cpp | partial. REFUTED: no weight is written. Proved: dimensions and options come back. |
| C334 | An autoencoder can be destroyed after any use | Vae | research/variational_autoencoder.hpp<br>src/rad_ml/research/variational_autoencoder.cpp | partial. REFUTED: destroying an object that loaded another object's file frees the other's string. Proved: otherwise defined. |
| C335 | Loading a bad file fails and leaves the object as it was | Vae | src/rad_ml/research/variational_autoencoder.cpp | partial. REFUTED: shorter than 24 bytes reads an indeterminate count; a refused allocation leaves the file's dimensions with the old networks. Proved: a file that cannot be opened changes nothing. |
| C336 | train accepts every latent dimension | Vae | src/rad_ml/research/variational_autoencoder.cpp | partial. REFUTED: more latent than input dimensions with use_interpolation reads out of bounds. Proved: otherwise train answers. |
| C337 | Copies answer like the original | Vae | src/rad_ml/research/variational_autoencoder.cpp | proved.  |
| C338 | Only radiation changes the weights | Vae | src/rad_ml/research/variational_autoencoder.cpp | proved.  |
| C339 | setConfig cannot break the autoencoder | Vae | research/variational_autoencoder.hpp | proved.  |
| C340 | evaluate is the mean reconstruction loss | Vae | src/rad_ml/research/variational_autoencoder.cpp | proved.  |
| C341 | evaluateComprehensive reports mean total, KL and reconstruction losses | Vae | src/rad_ml/research/variational_autoencoder.cpp | proved.  |
| C342 | An autoencoder stays usable | Vae | src/rad_ml/research/variational_autoencoder.cpp | proved.  |
| C343 | Accelerator reliability is a score between 0 and 0.999 | Hw | hw/hardware_acceleration.hpp | proved.  |
| C344 | An unknown SEU rate is not scored as the best one | Hw | hw/hardware_acceleration.hpp | partial. REFUTED: std::min(0.999, NaN) is 0.999, so a NaN rate scores at least as high as any rate (C344_refuted). Proved: an infinite rate scores 0 when exp(-inf) = 0. |
| C345 | A harder environment never scores better | Hw | hw/hardware_acceleration.hpp | proved.  |
| C346 | More hardware protection never scores worse | Hw | hw/hardware_acceleration.hpp | proved.  |
| C347 | The score depends on type, ECC, TMR and, for an FPGA, scrubbing only | Hw | hw/hardware_acceleration.hpp | proved.  |
| C348 | More hardware protection scores strictly better | Hw | hw/hardware_acceleration.hpp | partial. REFUTED: at rate 0 an ASIC with ECC scores 0.999 with every TMR approach. Proved: without ECC any TMR approach scores strictly above none at rate 0. |
| C349 | An accelerator that is not there has no reliability | Hw | hw/hardware_acceleration.hpp | partial. REFUTED: type NONE, which is not available, scores at least 0.84 at rate 0. Proved: it never scores above a real type with the same settings. |
| C350 | An accelerator is what its last configuration says | Hw | hw/hardware_acceleration.hpp | proved.  |
| C351 | Errors are counted | Hw | hw/hardware_acceleration.hpp | partial. REFUTED: the counters stay 0 whatever fails (log_error is never called). Proved: a fresh accelerator reports none and no call changes that. |
| C352 | The factory makes the accelerator it is asked for | Hw | hw/hardware_acceleration.hpp | proved.  |
| C353 | Only detected hardware can be initialised | Hw | hw/hardware_acceleration.hpp | partial. REFUTED: every type but NONE is reported missing, yet create_accelerator makes one that is available and initialises. Proved: create_best_available makes a detected type. |
| C354 | create_best_available makes the first detected type in the order of preference | Hw | hw/hardware_acceleration.hpp | proved.  |
| C355 | An initialised integration can execute | Hw | hw/hardware_acceleration.hpp | partial. REFUTED: the factory only makes the base class, so execute answers false after every history. Proved: it always completes and leaves the buffer alone. |
| C356 | initialize succeeds exactly when a configuration with a type is in force | Hw | hw/hardware_acceleration.hpp | proved.  |
| C357 | Software TMR is what the last decision says | Hw | hw/hardware_acceleration.hpp | proved.  |
| C358 | Results are always protected by hardware or software TMR | Hw | hw/hardware_acceleration.hpp | partial. REFUTED: initialize under COMPLETE turns software TMR off even though it fails, and no later initialize turns it on again, not even for a configuration without TMR. Proved: as long as the configuration is not changed. |
| C359 | Software TMR runs the accelerator three times | Hw | hw/hardware_acceleration.hpp | proved.  |
| C360 | One faulty run is outvoted | Hw | hw/hardware_acceleration.hpp | proved.  |
| C361 | Without a majority the answer is the mean | Hw | hw/hardware_acceleration.hpp | partial. REFUTED: the sum overflows for large floats, the vote is infinite. Proved: within 3*M*2^-24 + 2^-148 of the mean when \|x\| <= M <= 2^98. |
| C362 | NaN is outvoted by two equal numbers and by nothing else | Hw | hw/hardware_acceleration.hpp | proved.  |
| C363 | execute stays within its buffers | Hw | hw/hardware_acceleration.hpp | partial. REFUTED: an accelerator that shortens its output makes execute index out of range. Proved: defined when no run shortens the buffer. |
| C364 | The combined score is the two-out-of-three probability | Hw | hw/hardware_acceleration.hpp | proved.  |
| C365 | Software TMR never lowers the combined score | Hw | hw/hardware_acceleration.hpp | partial. REFUTED: it lowers the score when the accelerator's score is between 1e-6 and 0.499. Proved: it raises it from 0.501 on. |
| C366 | The diagnostics tell the protection | Hw | hw/hardware_acceleration.hpp | proved.  |
| C367 | A quantum field is built or its grid refused | Qft | src/rad_ml/physics/quantum_field_theory.cpp | partial. REFUTED: a side of length 0 divides by zero. Proved: every other grid is built or refused as stated. |
| C368 | Positions outside the grid are refused | Qft | src/rad_ml/physics/quantum_field_theory.cpp | proved.  |
| C369 | A point read back is the point written | Qft | src/rad_ml/physics/quantum_field_theory.cpp | partial. REFUTED: the index is cut to an int, so a 65536x65536 field reads outside its storage and two points of a 65537x65536 field share one cell. Proved for fields of up to 2^31 points. |
| C370 | A field remembers its writes | Qft | src/rad_ml/physics/quantum_field_theory.cpp | proved.  |
| C371 | A coherent state has the requested amplitude and phase everywhere | Qft | src/rad_ml/physics/quantum_field_theory.cpp | proved.  |
| C372 | evolve repeats one point-wise step | Qft | src/rad_ml/physics/quantum_field_theory.cpp | proved.  |
| C373 | A Klein-Gordon step rotates and damps each point of its own particle | Qft | src/rad_ml/physics/quantum_field_theory.cpp | proved.  |
| C374 | A Dirac step evolves its field | Qft | src/rad_ml/physics/quantum_field_theory.cpp | partial. REFUTED: evolveField returns without touching any field. |
| C375 | A Maxwell step mixes two photon fields | Qft | src/rad_ml/physics/quantum_field_theory.cpp | proved.  |
| C376 | A Maxwell step that throws leaves both fields alone | Qft | src/rad_ml/physics/quantum_field_theory.cpp | partial. REFUTED: with two photon fields of different grids the step throws out_of_range after changing points. C375 shows that fields of one grid never get that far. |
| C377 | The energy of a field is not negative | Qft | src/rad_ml/physics/quantum_field_theory.cpp | proved.  |
| C378 | The multi-particle simulation makes the requested number of steps | Qft | src/rad_ml/physics/quantum_models.cpp | partial. REFUTED: steps is not used; one step is made whatever it says, even 0. Proved: grids, spacings and types are kept and one number per field is answered. |
| C379 | The multi-particle simulation refuses unknown particles before it changes anything | Qft | src/rad_ml/physics/quantum_models.cpp | proved.  |
| C380 | The tunnelling probability is a probability | Qer | src/rad_ml/physics/quantum_field_theory.cpp | partial. REFUTED: a temperature of -1 K gives NaN, there is no guard on the temperature. Proved for temperature 0 and positive doubles between 2^-300 and 2^300. |
| C381 | Tunnelling needs a positive barrier, mass and hbar | Qer | src/rad_ml/physics/quantum_field_theory.cpp | proved.  |
| C382 | The critical charge follows its temperature law | Qer | src/rad_ml/physics/quantum_enhanced_radiation.cpp | proved.  |
| C383 | The bit flip probability is a probability | Qer | src/rad_ml/physics/quantum_enhanced_radiation.cpp | proved.  |
| C384 | More charge makes a flip likelier | Qer | src/rad_ml/physics/quantum_enhanced_radiation.cpp | partial. REFUTED: at a tenth of the critical charge a tunnelling term is dropped and the probability falls. Proved from a tenth of the critical charge on, and against charges of at most zero. |
| C385 | A multi-bit upset has one to eight bits in proportion to the charge | Qer | src/rad_ml/physics/quantum_enhanced_radiation.cpp | partial. REFUTED: beyond 2^32 the cast to uint32_t is undefined before the clamp to 8 is reached, and for an infinite charge. Proved up to 2^30 times the critical charge. |
| C386 | Multi-bit upsets grow with the charge and are largest for heavy ions | Qer | src/rad_ml/physics/quantum_enhanced_radiation.cpp | proved. For charges up to 2^30 times the critical charge; beyond see C385. |
| C387 | The deposited charge depends on the particle energy and is proportional to the LET | Qer | src/rad_ml/physics/quantum_enhanced_radiation.cpp | partial. REFUTED: the energy is not used. Proved: the bounds in the LET and the exceptions. |
| C388 | Quantum corrections touch exactly the particle types asked for | Qer | src/rad_ml/physics/quantum_field_theory.cpp | proved.  |
| C389 | Quantum corrections are capped | Qer | src/rad_ml/physics/quantum_field_theory.cpp | partial. REFUTED: below the temperature threshold the capped factor is multiplied again by up to 2.5 for the default parameters. Proved from the threshold on. |
| C390 | Transition probabilities are probabilities in a fixed order | Qer | src/rad_ml/physics/quantum_models.cpp | partial. REFUTED: when energy, temperature and hbar are zero the quotient is NaN, and the answer is NaN, 1 or 0 by particle. Proved for positive hbar. |
| C391 | Displacement energies are tens of electron volts | Qer | src/rad_ml/physics/quantum_models.cpp | partial. REFUTED: with the default parameters the zero point term, whose hbar is converted a second time, gives more than 10 MeV. Proved: the lower bound and the exceptions. |
| C392 | Displacement cascades conserve defects and have a threshold | Qer | src/rad_ml/physics/quantum_models.cpp | partial. REFUTED: below the threshold the default distribution is returned, which is not empty. Proved above the threshold. |
| C393 | Decoherence is never slower than its base rate and grows with heat and defects | Qer | src/rad_ml/physics/quantum_models.cpp | proved.  |
| C394 | Device sensitivity is relative to a baseline of one | Qer | src/rad_ml/physics/quantum_enhanced_radiation.cpp | partial. REFUTED: below 100 nm every device has a sensitivity above 65536, since an energy in eV is divided by the charge of the electron once more. Proved: the order, the fall with the size, and the documented values from 100 nm on. |
| C395 | Radiation applied to memory stays inside it and reports the flips | Qer | src/rad_ml/physics/quantum_enhanced_radiation.cpp | proved. For a size and size times duration of at most 2^40, beyond which see C396. |
| C396 | Radiation can be applied for any duration | Qer | src/rad_ml/physics/quantum_enhanced_radiation.cpp | partial. REFUTED: for one MiB and the longest duration the number of impacts does not fit in a uint32_t and the cast is undefined. C395 is the positive part. |
| C397 | No energy transfer, no flips; unknown particles are rejected | Qer | src/rad_ml/physics/quantum_enhanced_radiation.cpp | proved.  |
| C398 | The environment at a mission time is that of the phase in progress | Env | radiation/space_mission.hpp | proved.  |
| C399 | Every time of a mission has an environment | Env | radiation/space_mission.hpp | partial. REFUTED: when the durations add up to more than 64 bits a late query overflows a signed integer. Proved for queries inside phases that end within 64 bits. |
| C400 | The worst-case environment has the highest flux, the earliest on ties | Env | radiation/space_mission.hpp | proved.  |
| C401 | The worst case covers every numeric flux | Env | radiation/space_mission.hpp | partial. REFUTED: a NaN flux in the first environment hides all others. Proved when the first flux is a number, whatever the others are. |
| C402 | Total radiation exposure is flux times time within 1/4000000 | Env | radiation/space_mission.hpp | proved.  |
| C403 | Adding a phase never lowers the exposure | Env | radiation/space_mission.hpp | proved.  |
| C404 | Standard missions are well formed | Env | radiation/space_mission.hpp | proved.  |
| C405 | Targets without a configuration get the low-earth-orbit one; the worst phase is as documented | Env | radiation/space_mission.hpp | proved.  |
| C406 | Phases of a standard mission are independent | Env | radiation/space_mission.hpp | partial. REFUTED: on Moon and Mars missions the outbound and the return leg share one environment. Proved for every other pair of phases. |
| C407 | Missions are independent | Env | radiation/space_mission.hpp | proved.  |
| C408 | The last setting of an environment is what it answers | Env | radiation/environment.hpp | proved.  |
| C409 | Predefined environments are fresh and ordered by severity | Env | radiation/environment.hpp | proved.  |
| C410 | Every flux is finite and not negative | EnvB | neural/radiation_environment.hpp | proved. exp is any function with the bounds of exp_lib and cos any function into [-1, 1]. |
| C411 | The upset probability is a probability | EnvB | neural/radiation_environment.hpp | proved.  |
| C412 | The solar activity stays between 0 and 1 | EnvB | neural/radiation_environment.hpp | proved.  |
| C413 | No argument can break the solar activity | EnvB | neural/radiation_environment.hpp | partial. REFUTED: a NaN activity makes every flux NaN and the next flare sets the activity to 1; a flare of intensity -4 gives negative fluxes. Proved: setting any number, infinities included, brings the activity back into [0, 1]. |
| C414 | A flare is temporary | EnvB | neural/radiation_environment.hpp | partial. REFUTED: nothing calls the decay function the flare stores; after a flare of at least 0.1 the proton flux stays up by 5 percent whatever follows short of setSolarActivity. Proved: setting the earlier activity restores every flux exactly. |
| C415 | A new environment has a defined shielding | EnvB | neural/radiation_environment.hpp | partial. REFUTED: the constructor computes the attenuation from an uninitialised material (undefined behaviour; here any int), so two new environments can differ. Proved: after the first setShielding nothing depends on it. |
| C416 | A thicker shield never lets more through | EnvB | neural/radiation_environment.hpp | proved.  |
| C417 | The factor a flare returns is the rise in flux | EnvB | neural/radiation_environment.hpp | partial. REFUTED: the factor is 1 + 100 i, yet no flux rises more than sixfold and heavy ions do not rise at all. Proved: electrons and protons do not fall (to 1e-3). |
| C418 | How the fluxes depend on the activity | EnvB | neural/radiation_environment.hpp | proved.  |
| C419 | Missions are ordered by severity | EnvB | neural/radiation_environment.hpp | proved.  |
| C420 | A solar probe sees more radiation than a geostationary satellite | EnvB | neural/radiation_environment.hpp | partial. REFUTED: the distance to the Sun is a constant 1 AU, so the branch is never taken and a solar probe has exactly the flux of a geostationary satellite (also polar and equatorial LEO are the same). |
| C421 | The South Atlantic Anomaly shows in low orbits and only inside its bounds | EnvB | neural/radiation_environment.hpp | proved.  |
| C422 | A full turn of longitude changes nothing | EnvB | neural/radiation_environment.hpp | partial. REFUTED: 320 degrees and -40 degrees name the centre of the anomaly, but only the latter has its protons. Proved for missions other than LEO. |
| C423 | Away from the belts, higher latitude and altitude never mean less radiation | EnvB | neural/radiation_environment.hpp | proved.  |
| C424 | A heatmap has the probability of each point of the trajectory | EnvB | neural/radiation_environment.hpp | proved.  |
| C425 | A generated position lies on its orbit | EnvB | neural/radiation_environment.hpp | proved.  |
| C426 | Positions before the epoch are valid too | EnvB | neural/radiation_environment.hpp | partial. REFUTED: for every time up to 0 the longitude is at most -180, e.g. -195 at -1 h. Proved: it is in [-540, 180). |
| C427 | Distance is symmetric | EnvB | neural/radiation_environment.hpp | proved. sin is any odd function, cos and atan2 any functions. |
| C428 | The distance of a position to itself is zero | EnvB | neural/radiation_environment.hpp | proved.  |
| C429 | Dose and total flux follow from the particle fluxes | EnvB | neural/radiation_environment.hpp | proved.  |
| C430 | Error rates of the physics simulator are finite and positive | Phys | sim/physics_radiation_simulator.hpp | proved. std::pow returns doubles; nothing else is assumed about exp and pow. |
| C431 | A shield removes at most 99 percent of the errors and never adds any | Phys | sim/physics_radiation_simulator.hpp | proved. std::pow returns doubles; for NaN thickness exp(NaN) and pow(NaN, y) are NaN. |
| C432 | A thicker shield never raises an error rate | Phys | sim/physics_radiation_simulator.hpp | proved. exp and pow monotone, pow maps [0,1] to itself. |
| C433 | Error rates follow the published law | Phys | sim/physics_radiation_simulator.hpp | proved.  |
| C434 | Harsher environments have higher rates | Phys | sim/physics_radiation_simulator.hpp | proved.  |
| C435 | Solar activity is clamped to 0..1 | Phys | sim/physics_radiation_simulator.hpp | proved. C435_dip shows that rates do not simply grow with activity. |
| C436 | Simulated events respect the bit range of their effect | Phys | sim/physics_radiation_simulator.hpp | proved. The integer distribution stays in its range. |
| C437 | The number of events follows the reported rate | Phys | sim/physics_radiation_simulator.hpp | proved.  |
| C438 | A period of zero length or an empty memory produces no events | Phys | sim/physics_radiation_simulator.hpp | partial. REFUTED: the Poisson distribution is given a mean that is not positive, which is undefined. C438_runs_complete_partial: runs of 1e-6 to 1e9 days with at least one bit complete. |
| C439 | A mission is simulated segment by segment | Phys | sim/physics_radiation_simulator.hpp | proved.  |
| C440 | Simulating a mission does not change the simulator | Phys | sim/physics_radiation_simulator.hpp | partial. REFUTED: the simulator is left in the environment of the last segment. C440_rest_kept_partial: everything else is kept, and after a TID run the environment is the old one or one of the trajectory. |
| C441 | Trajectories without matching durations are rejected | Phys | sim/physics_radiation_simulator.hpp | partial. REFUTED: front() of an empty vector, or durations read past their end. C441_mission_completes_partial: a well-formed trajectory can be set after any history and its mission completes. |
| C442 | The preset trajectories are complete | Phys | sim/physics_radiation_simulator.hpp | proved.  |
| C443 | Total dose simulation counts dose effects only | Phys | sim/physics_radiation_simulator.hpp | proved.  |
| C444 | Total dose does not depend on solar activity | Phys | sim/physics_radiation_simulator.hpp | proved.  |
| C445 | Total dose covers exactly the first days of the mission | Phys | sim/physics_radiation_simulator.hpp | proved.  |
| C446 | An event never affects more bits than the memory has | Phys | sim/physics_radiation_simulator.hpp | partial. REFUTED: an SEL in an 8-bit memory affects 1024 bits. C446_bits_bound_partial: every event affects 1 to 1048576 bits. |
| C447 | A new particle field holds one draw per lattice point | Qfx | src/rad_ml/physics/quantum_field_theory.cpp<br>src/rad_ml/physics/quantum_models.cpp | proved.  |
| C448 | The simulation reports energy gained | Qfx | src/rad_ml/physics/quantum_field_theory.cpp<br>src/rad_ml/physics/quantum_models.cpp | proved.  |
| C449 | Zero-point motion lowers a defect's energy, less so when warm | Qfx | src/rad_ml/physics/quantum_field_theory.cpp | proved.  |
| C450 | Harder devices flip no more easily | Qfx | src/rad_ml/physics/quantum_enhanced_radiation.cpp | proved.  |
| C451 | Decoherence rates that are not given take their defaults | Qfx | src/rad_ml/physics/quantum_models.cpp | proved.  |
| C452 | When quantum corrections are applied | Qin | src/physics/quantum_integration.cpp | proved.  |
| C453 | The enhancement factor stays within its documented caps | Qin | src/physics/quantum_integration.cpp | partial. REFUTED as stated: temperature alone adds up to 20 % and size alone up to 32 % (C453_caps_refuted). Proved: range [1, 1.6] (1.21 and 1.33 for one effect alone) for all doubles, monotonicity, saturation, no effect from 150 K and 20 nm on. |
| C454 | Tunnelling probabilities are bounded and fall with temperature | Qin | src/physics/quantum_integration.cpp | proved.  |
| C455 | The Klein-Gordon correction is bounded | Qin | src/physics/quantum_integration.cpp | proved.  |
| C456 | Zero-point contributions are bounded and fall with temperature | Qin | src/physics/quantum_integration.cpp | proved.  |
| C457 | Corrected defect counts rise by at most 11 % | Qin | src/physics/quantum_integration.cpp | proved.  |
| C458 | The feature size influences the corrections | Qin | src/physics/quantum_integration.cpp | partial. REFUTED as stated: once corrections apply the result is the same for every feature size, because the Klein-Gordon term always falls to its lower clamp (C458_size_effect_refuted). Proved: the size only takes part in the decision. |
| C459 | Every particle with defects is corrected | Qin | src/physics/quantum_integration.cpp | partial. REFUTED as stated: heavy ions, positrons, muons and neutrinos are skipped (C459_all_types_refuted). Proved: exactly the four known particles are corrected, value by value. |
| C460 | The parameters a crystal and feature size give | Qin | src/physics/quantum_integration.cpp | proved.  |
| C461 | A physics simulator is set to what was last asked | Phys3 | sim/physics_radiation_simulator.hpp | proved.  |
| C462 | The trained error predictor answers a rate | Epr | neural/error_predictor.hpp | proved.  |
| C463 | A bad observation can be unlearnt | Epr | neural/error_predictor.hpp | partial. REFUTED as stated: after one NaN rate every prediction is 1 whatever is observed later (C463_recovers_refuted). Proved: after one NaN level the predictions no longer depend on the level, for ever. |
| C464 | Observing what was predicted teaches nothing | Epr | neural/error_predictor.hpp | proved.  |
| C465 | The plain predictor keeps its documented bands | Epr | neural/error_predictor.hpp | partial. REFUTED as stated: the low band uses 4.0 where 0.04 was meant, so a rate just below 1e-8 is answered with 4.0 and 0 with a negative rate (C465_bands_refuted). Proved: the three higher bands exactly, monotone from 1e-8 up, and in the low band monotone and at least 0.01. |
| C466 | Activations have their documented values | Act | neural/activation.hpp | proved.  |
| C467 | No chain of activations reverses an order | Act | neural/activation.hpp | proved.  |
| C468 | Every activation type is honoured | Act | neural/activation.hpp | partial. REFUTED as stated: SOFTMAX gives the identity (C468_softmax_refuted). Proved: the other four non-linear types differ from the identity, with the values of C466. |
| C469 | Automatic repair only happens while asked for | Mdl | inference/model.hpp | proved.  |
| C470 | A model can be destroyed while it scrubs itself | Mdl | inference/model.hpp | partial. REFUTED as stated: the scrubber is a member of the base class, so it is stopped only after the derived part is gone, and its thread can make a pure virtual call in between (C470_destroy_refuted). Proved: no such call in any schedule of a program that disables before it destroys. |
| C471 | Enabling, disabling and destroying return | Mdl | inference/model.hpp | proved.  |
| C472 | Repair and inference exclude each other | Mdl | inference/model.hpp | partial. REFUTED as stated: nothing keeps a repair out of an inference (C472_exclusive_refuted). Proved: there is none when auto-scrubbing was not wanted when the inference began. |
| C473 | The console shows exactly the lines at or above the level | Log | core/logger.hpp | proved.  |
| C474 | Lines go to the file asked for | Log | core/logger.hpp | partial. REFUTED as stated: a second init with another path goes on writing to the file opened first (C474_asked_file_refuted). Proved: exactly which file, if any, each line goes to, for every history. |
| C475 | The logger may be used from several threads | Log | core/logger.hpp | partial. REFUTED as stated: the level is read without the mutex, so a logging call races with init (C475_race_refuted). Proved in every schedule: for any programs, init included, file and console agree whenever the mutex is free and the threads never deadlock; for threads that only log, each thread finds its lines in its order. |
| C476 | The similarity of two vectors is symmetric and between 0 and 1 | Vsim | advanced/error_prediction.hpp | proved.  |
| C477 | Similarity 1 means identical | Vsim | advanced/error_prediction.hpp | partial. REFUTED as stated: vectors that differ by little also get 1, and a vector holding an infinity gets NaN against itself (C477_one_means_equal_refuted). Proved: every non-empty vector of finite floats gets exactly 1 against itself. |
| C478 | More protection never raises the expected error rate | Prate | power/power_aware_protection.hpp | proved.  |
| C479 | The expected error rate is at most nine a day per component | Prate | power/power_aware_protection.hpp | proved.  |

## Trusted base

* Coq 8.16.1's kernel (including its `vm_compute` conversion, used for closed computations), run by `coqc`.
* The correspondence between the Gallina definitions and the C++ text: by inspection, definition by definition; every
  definition cites the lines it models and names its simplifications.
* The semantics of C++17 as used in the models: LP64, little endian, two's complement, 8-bit bytes, IEEE-754
  binary32/binary64 with round-to-nearest-even and no excess precision, signed right shift arithmetic, conversion to a
  narrower signed type modulo 2^w.
* Concurrency: interleaving (sequentially consistent) semantics of atomic accesses and critical sections; data races of
  unlocked accesses are only claimed where a theorem says so.

### Axioms

No axiom is added by this development. `Print Assumptions` stands after every property theorem. It lists either "Closed under
the global context" or a subset of the axioms of the standard library's real numbers and classical logic, which
enter through the lemmas about floating point (Flocq is built on `Reals`):

* `ClassicalDedekindReals.sig_not_dec`
* `ClassicalDedekindReals.sig_forall_dec`
* `FunctionalExtensionality.functional_extensionality_dep`
* `Classical_Prop.classic`

The float operations themselves are the computable `SpecFloat` functions; no axiomatised primitive float or int is used.
Flocq itself is used as a library of theorems and adds no axiom.

### Modelled code

The files of the table above, as cited in the models: `core/redundancy/{tmr,enhanced_tmr,space_enhanced_tmr,enhanced_voting}.hpp`,
`tmr/{tmr,enhanced_tmr,health_weighted_tmr,enhanced_stuck_bit_tmr,approximate_tmr,temporal_redundancy,hybrid_redundancy,adaptive_protection,adaptive_protection_impl,physics_driven_protection}.hpp`,
`src/tmr/adaptive_protection.cpp`, `rad_ml/tmr/basic_tmr.hpp`, `core/memory/{fixed_containers,static_allocator,protected_value,aligned_memory,memory_scrubber,memory_scrubbing}.hpp`, `core/memory/unified_memory.hpp` (as if its missing declarations were supplied),
`memory/{memory_scrubber,radiation_mapped_allocator}.hpp`, `core/recovery/checkpoint_manager.hpp`, `core/runtime/error_tracker.hpp`,
`core/error/status_code.hpp`, `core/radiation/adaptive_protection.hpp`, `core/adaptive/adaptive_framework.hpp`, `mission/mission_profile.hpp` (names, environments, initial levels),
`math/{fixed_point,branchless_ops}.hpp`, `utils/bit_manipulation.hpp`, `neural/{galois_field,advanced_reed_solomon,multi_bit_protection,protected_neural_network}.hpp`,
`power/power_aware_protection.hpp`, `sim/physics_radiation_simulator.hpp`, `src/testing/{protection_techniques,fault_injection}.cpp`, `testing/{fault_injection,fault_injector,radiation_simulator,mission_simulator}.hpp`,
`radiation/{seu_simulator,environment,space_mission}.hpp`, `neural/radiation_environment.hpp`, `advanced/{algorithmic_diversity,error_prediction}.hpp`, `inference/layers/conv_layer.hpp`, `hw/hardware_acceleration.hpp`,
`research/{radiation_aware_training,residual_network,architecture_tester,auto_arch_search,variational_autoencoder}.hpp`, `src/rad_ml/research/{radiation_aware_training,architecture_tester,auto_arch_search,variational_autoencoder}.cpp`, `src/rad_ml/sim/environment.cpp`, `physics/{quantum_field_theory,quantum_models,quantum_enhanced_radiation}.hpp`, `src/rad_ml/physics/{quantum_field_theory,quantum_models,quantum_enhanced_radiation}.cpp`.
`neural/multibit_protection.hpp` is token-identical to `multi_bit_protection.hpp`; the copies under `/repo/rad_ml/` of headers in
`include/rad_ml/` are not modelled separately.

### Not modelled, inside the modelled files

* Text output everywhere: logs, `std::cout`/`std::cerr`, reports, descriptions, CSV files (`getDiagnostics`, `getReport`, `saveResults`, ...).
* Random engines and distributions themselves: only the range of what they answer.
* `exp`, `pow`, `sqrt` of libm are parameters; where a theorem needs a fact about them it is a hypothesis in its statement.
* 64-bit statistics counters are unbounded where the model's header says so.
* Members that do not compile when used: `AlignedProtectedMemory::scrub()`, `ProtectedValue::bind` to ProtectedValue results,
  `InterleavedBitMemory` for 8-byte T, `SpaceEnhancedTMR<bool>`, `MultibitProtection` for sizeof(T) other than 4, `ProtectedNeuralNetwork` for integer T.
* `ProtectedValue::transform` to another type, `neural::TripleModularRedundancy`/`AdaptiveTMRProtection` `hasError`/`correctErrors`,
  Reed-Solomon with symbol sizes other than 4, 8 and 10 bits,
  the private unused `ReedSolomonCode` of `protection_techniques.cpp`, `tmr::BitProtectionStrategy` (declared, not defined), negative `num_layers`, actual sleeping,
  PNN's copy operations and NaN payloads, `EnhancedRadiationSimulator` (`src/testing/radiation_simulator.cpp`; not C++: const methods use the non-mutable `rng_`, and a `switch` jumps over the initialisation of `effective_z`), the text reports of `sim/physics_radiation_simulator.hpp`, the residual network's copy operations.

### Not modelled, whole files

* Files that cannot be compiled as they stand, so that no behaviour can be attributed to them: `neural/selective_hardening.hpp`,
  `neural/layer_protection_policy.hpp`, `neural/adaptive_protection.hpp`, `error/error_handling.hpp` (class defined twice), and what includes them: `neural/sensitivity_analysis.hpp`, `neural/fine_tuning.hpp`, `neural/fine_tuning_integration.hpp`, `api/rad_ml.hpp`;
  headers that cannot be included together because they define the same class: the two `core::memory::MemoryScrubber`,
  `testing::FaultInjectionResult`, `neural::ProtectionLevel`.
* Declarations only: `core/material_database.hpp`, `physics/stochastic_models.hpp`, `physics/transport_equation.hpp`, `neural/network_model.hpp`; constants only: `core/space_flight_config.hpp`, `common/types.hpp`; `testing/benchmark_framework.hpp`,
  `api/*`, the other files of `physics/*`,
  `src/validation/*` (`cross_section_utils.hpp` reads a field `let` its data points do not have), and the test programs, examples and Python code.
