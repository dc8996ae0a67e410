# Formal model of Space-Radiation-Tolerant (rad_ml) in Rocq/Coq 8.16.1

(Generated by `tools/mkdesign.py` from `tools/design_head.md`, `tools/design_tail.md`, `properties.jsonl` and `MANIFEST.json`.)

## Shape of the development

`rocq/theories/<Area>_Model.v` – executable Gallina model, each definition cites file:lines in /repo.
`rocq/theories/<Area>_Spec.v` – small specification, independent of the model's helpers.
`rocq/theories/<Area>_Proofs.v`, `<Area>2_Proofs.v`, ... – lemmas.
`rocq/theories/<Area>_Props.v` – only the property theorems (closed by `exact lemma` or a short
combination of lemmas), the non-vacuity examples and `Print Assumptions`.

Shared libraries: `Outcome.v` (return / exception / undefined behaviour / out of fuel), `Words.v` (fixed-width
words), `Arith.v` (the arithmetic types and their `==`), `Floats.v` (IEEE-754 binary32/64 on bit patterns via the
standard library's `SpecFloat`, exactly rounded), `FloatsR.v`, `HealthFloat.v`, `FloatsS.v` (real-number meaning of the
float operations through Flocq, used in proofs only).

## Modelling conventions

* Values of an arithmetic C++ type are their **bit patterns** (`N` below `2^(8*sizeof)`), little
  endian when bytes are needed. `==` on the type is a separate function of the pattern: plain
  equality for integers, IEEE-754 equality for float/double (NaN unequal to itself, +0 == -0).
* Fixed-width wrap-around is written explicitly (`mod 2^w`); signed overflow is an explicit undefined outcome.
* Loops become structural recursion / folds over the index range of the C++ loop; loops whose termination is in
  question carry fuel and non-termination is proved as "out of fuel for every fuel".
* Undefined behaviour, thrown exceptions and non-termination are **distinct outcomes** (`Outcome.v`),
  never normal-looking values.
* Clocks, random draws, hash-map iteration orders, uninitialised bytes, allocation failures, thread schedules,
  answers of libm functions and radiation upsets are explicit inputs over which theorems quantify universally.
* A property that the code violates is stated in full and answered with `..._refuted` (a closed
  theorem, where possible universally quantified over a whole class of witnesses), plus the strongest
  positive theorem that is true (`..._partial`). MANIFEST marks such properties `partial` and the note says REFUTED.

## How the areas are proved

| area | modelled | proof |
|---|---|---|
| SimpleTMR (C01-C06) | simple TMR containers as records of copies over an arbitrary type with a lawful equality; histories as operation lists; unordered_map order = arbitrary permutation | case analysis; invariant by induction on the history; ghost bookkeeping for counters |
| Voting (C07-C12, C54, C55) | voting functions as bit loops over `N`, padding bytes as universally quantified inputs; fault-pattern detection with shift-UB as an outcome; binary32 weights | bit extensionality (`N.bits_inj`), arithmetic on `N`, refutations |
| Crc (C13-C15, C56, C57) | six CRC-32 implementations as byte/bit loops and tables | linearity over xor; reflected LFSR is a bijection; order of x by repeated squaring |
| CrcTMR (C16-C20, C58-C61) | EnhancedTMR / SpaceEnhancedTMR with checksums, statistics, status codes; float fallback recursion on fuel | case analysis + CRC theorems; divergence for all fuel |
| Health (C21-C26, C62, C63) | tmr::EnhancedTMR, HealthWeightedTMR with IEEE doubles, random draws and clock as inputs | invariants over histories, rounding monotonicity |
| Stuck, Approx (C27-C31, C64) | stuck-bit TMR with per-bit trackers; ApproximateTMR | refutations by whole families, positive theorems |
| Temporal (C32-C34, C65, C66) | TemporalRedundancy, CheckpointManager with explicit clock, HybridRedundancy | maximal multiplicity; history induction; refutation |
| Containers (C35-C37, C67) | FixedVector, FixedMap, StaticAllocator | refinement to list / finite map; interval disjointness |
| Protected (C38-C41, C68) | ProtectedValue, AlignedProtectedMemory, InterleavedBitMemory | via C07-C09 |
| Tracker (C42, C43, C69-C72) | error tracker as interleaved atomic steps of any number of threads | invariants over all schedules |
| Scrub (C44, C73-C79) | three scrubbers, registries, threads as steps | history induction, reachable-state refutations |
| Bits (C45-C48, C80-C82) | FixedPoint, BranchlessOps, BitManipulation, Result | integer arithmetic with explicit UB, Flocq for conversions |
| GF (C49-C53, C83-C87) | GaloisField tables, polynomials, RS codec, interleaver | generic GF(2^m) development + table computation; refutations |
| MBP (C88-C100) | multi-bit protection: Hamming, SECDED, RS, hash, interleaving | xor-linear codes on 32-bit words, case analysis by bits |
| RMA (C101-C108) | radiation-mapped allocator on 64-bit addresses | interval invariants over histories |
| Power (C109-C116) | power-aware protection in binary64 | relative error bounds through Flocq |
| Edac (C117-C123) | protection_techniques.cpp, Hamming code, TMR | bit-level, counters |
| Inject (C124-C138) | fault injectors and radiation simulator, draws as inputs | xor masks, byte ranges, monotone rounding |
| Adapt (C139-C155) | AdaptiveProtection, AdaptiveFramework, MissionProfile names | history induction, explicit clock |
| PNN (C156-C170) | ProtectedNeuralNetwork<float> including radiation | invariant on shapes over histories |
| Div, Pred (C171-C192) | algorithmic diversity, error prediction | sorted maps, maxima, window invariants |
| Conv (C193-C200) | convolution layer over FixedPoint | index arithmetic, sums |
| Strat (C201-C229) | execution strategies and physics-driven controller | state invariants, float ranges |
| Mission (C230-C244) | mission simulator over Inject and Scrub | loop invariants, conservation of counts |
| Train (C245-C257) | radiation-aware training over PNN | loop invariants, counting, float truncation |
| Residual (C258-C268) | residual network incl. its file format, over PNN | finite-map refinement, serialisation round trip |
| Umm (C269-C286) | core/memory/unified_memory.hpp (as if it compiled: the missing declarations supplied), heap as blocks and bytes | heap invariant over histories, ownership invariant |
| Tester (C287-C300) | research/architecture_tester.hpp and .cpp; log, exp, square and the noise as parameters | real-number bounds through rounding, bit arithmetic of the seeds, scan invariant, histories |
| Search (C301-C316) | research/auto_arch_search.hpp and .cpp; the random engine as streams, std::map as its sorted list | order of configurations over real distances, map lemmas, membership of the grid, progress invariant of the searches, pigeonhole for the hang |
| Autoencoder (C317-C342) | research/variational_autoencoder.hpp and .cpp on the PNN model; exp, log, tanh, normal numbers as parameters; networks, losses, training, files | network invariant over histories, exact loss formulas by folds, early-stopping tracker, float ranges through Flocq, byte-level file lemmas |
| Hardware accelerators (C343-C366) | Hw_Model: configurations, the base accelerator, the factory, the integration; an arbitrary derived accelerator is a function | reals with infinities for the scores (Hw_Proofs), rounding bounds (Hw2), histories by induction on the list of calls (Hw3) |
| Quantum field library (C367-C397, C447-C451) | Qft_Model: rad_ml_qft without the Eigen-valued placeholders and the private, unused calculateDefectFormationEnergy (fields, equations, simulation, defect and radiation physics); libm functions as parameters | index arithmetic by induction on the reversed dimensions, point-wise sweep lemmas, sign analysis of float sums; relative error tracking of doubles through the physics formulas (Qft4-9, Qer), an invariant over the impacts for the buffer |
| Environments and missions (C398-C429) | Env_Model: radiation/environment.hpp, radiation/space_mission.hpp, neural/radiation_environment.hpp; shared_ptr as addresses in a list of environments, durations as int64 seconds; libm functions as parameters | induction over phases and histories, float error tracking for the exposure |
| Physics simulator (C430-C446, C461) | Phys_Model: sim/physics_radiation_simulator.hpp without the text reports; the random engine is a value of any type, the distributions any functions | relative error tracking of products, invariant over histories, induction over effects and segments |
| Quantum integration (C452-C460) | Qin_Model: src/physics/quantum_integration.cpp, whose functions the header quantum_integration.hpp also defines inline with another mass per crystal; exp as a parameter, console output left out | validity of every operation for all doubles, clamps in the reals with infinities, rounding bounds, point-wise maps |
| Error predictor (C462-C465) | Epr_Model: include/rad_ml/neural/error_predictor.hpp, both classes named ErrorPredictor, T = double; exp, log10 and the random draws as parameters | validity of every operation for all doubles, NaN propagation, zero-error training step up to the sign of zero, monotone ramps with the exact neighbour of 1e-7 |
| Activations (C466-C468) | Act_Model: include/rad_ml/neural/activation.hpp, T = double; exp and tanh as parameters | order on doubles with infinities, rounding errors, induction over chains |
| Self-scrubbing model (C469-C472) | Mdl_Model: include/rad_ml/inference/model.hpp with the scrubber it owns, owner and worker thread interleaved step by step | invariants over reachable states and their traces, a measure for progress |
| Logger (C473-C475) | Log_Model: include/rad_ml/core/logger.hpp, one thread over histories of calls and several threads step by step; the time stamp is left out | induction over histories, an invariant over schedules |
| Vector similarity (C476-C477) | Vsim_Model: the free calculateSimilarity of include/rad_ml/advanced/error_prediction.hpp for float vectors of any length, bit exact in binary32 | sign and rounding lemmas through Flocq, overflow to infinity included |
| Expected error rate (C478-C479) | Prate_Model: calculate_expected_error_rate of include/rad_ml/power/power_aware_protection.hpp in binary64, exp as a parameter | monotonicity of rounded products and sums, infinities included |
