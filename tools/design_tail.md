## Trusted base

* Coq 8.16.1's kernel (including its `vm_compute` conversion, used for closed computations), run by `coqc`.
* The correspondence between the Gallina definitions and the C++ text: by inspection, definition by definition; every
  definition cites the lines it models and names its simplifications.
* The semantics of C++17 as used in the models: LP64, little endian, two's complement, 8-bit bytes, IEEE-754
  binary32/binary64 with round-to-nearest-even and no excess precision, signed right shift arithmetic, conversion to a
  narrower signed type modulo 2^w.
* Concurrency: interleaving (sequentially consistent) semantics of atomic accesses and critical sections; data races of
  unlocked accesses are only claimed where a theorem says so.

### Axioms

No axiom is added by this development. `Print Assumptions` stands after every property theorem. It lists either "Closed under
the global context" or a subset of the axioms of the standard library's real numbers and classical logic, which
enter through the lemmas about floating point (Flocq is built on `Reals`):

* `ClassicalDedekindReals.sig_not_dec`
* `ClassicalDedekindReals.sig_forall_dec`
* `FunctionalExtensionality.functional_extensionality_dep`
* `Classical_Prop.classic`

The float operations themselves are the computable `SpecFloat` functions; no axiomatised primitive float or int is used.
Flocq itself is used as a library of theorems and adds no axiom.

### Modelled code

The files of the table above, as cited in the models: `core/redundancy/{tmr,enhanced_tmr,space_enhanced_tmr,enhanced_voting}.hpp`,
`tmr/{tmr,enhanced_tmr,health_weighted_tmr,enhanced_stuck_bit_tmr,approximate_tmr,temporal_redundancy,hybrid_redundancy,adaptive_protection,adaptive_protection_impl,physics_driven_protection}.hpp`,
`src/tmr/adaptive_protection.cpp`, `rad_ml/tmr/basic_tmr.hpp`, `core/memory/{fixed_containers,static_allocator,protected_value,aligned_memory,memory_scrubber,memory_scrubbing}.hpp`, `core/memory/unified_memory.hpp` (as if its missing declarations were supplied),
`memory/{memory_scrubber,radiation_mapped_allocator}.hpp`, `core/recovery/checkpoint_manager.hpp`, `core/runtime/error_tracker.hpp`,
`core/error/status_code.hpp`, `core/radiation/adaptive_protection.hpp`, `core/adaptive/adaptive_framework.hpp`, `mission/mission_profile.hpp` (names, environments, initial levels),
`math/{fixed_point,branchless_ops}.hpp`, `utils/bit_manipulation.hpp`, `neural/{galois_field,advanced_reed_solomon,multi_bit_protection,protected_neural_network}.hpp`,
`power/power_aware_protection.hpp`, `sim/physics_radiation_simulator.hpp`, `src/testing/{protection_techniques,fault_injection}.cpp`, `testing/{fault_injection,fault_injector,radiation_simulator,mission_simulator}.hpp`,
`radiation/{seu_simulator,environment,space_mission}.hpp`, `neural/radiation_environment.hpp`, `advanced/{algorithmic_diversity,error_prediction}.hpp`, `inference/layers/conv_layer.hpp`, `hw/hardware_acceleration.hpp`,
`research/{radiation_aware_training,residual_network,architecture_tester,auto_arch_search,variational_autoencoder}.hpp`, `src/rad_ml/research/{radiation_aware_training,architecture_tester,auto_arch_search,variational_autoencoder}.cpp`, `src/rad_ml/sim/environment.cpp`, `physics/{quantum_field_theory,quantum_models,quantum_enhanced_radiation}.hpp`, `src/rad_ml/physics/{quantum_field_theory,quantum_models,quantum_enhanced_radiation}.cpp`.
`neural/multibit_protection.hpp` is token-identical to `multi_bit_protection.hpp`; the copies under `/repo/rad_ml/` of headers in
`include/rad_ml/` are not modelled separately.

### Not modelled, inside the modelled files

* Text output everywhere: logs, `std::cout`/`std::cerr`, reports, descriptions, CSV files (`getDiagnostics`, `getReport`, `saveResults`, ...).
* Random engines and distributions themselves: only the range of what they answer.
* `exp`, `pow`, `sqrt` of libm are parameters; where a theorem needs a fact about them it is a hypothesis in its statement.
* 64-bit statistics counters are unbounded where the model's header says so.
* Members that do not compile when used: `AlignedProtectedMemory::scrub()`, `ProtectedValue::bind` to ProtectedValue results,
  `InterleavedBitMemory` for 8-byte T, `SpaceEnhancedTMR<bool>`, `MultibitProtection` for sizeof(T) other than 4, `ProtectedNeuralNetwork` for integer T.
* `ProtectedValue::transform` to another type, `neural::TripleModularRedundancy`/`AdaptiveTMRProtection` `hasError`/`correctErrors`,
  Reed-Solomon with symbol sizes other than 4, 8 and 10 bits,
  the private unused `ReedSolomonCode` of `protection_techniques.cpp`, `tmr::BitProtectionStrategy` (declared, not defined), negative `num_layers`, actual sleeping,
  PNN's copy operations and NaN payloads, `EnhancedRadiationSimulator` (`src/testing/radiation_simulator.cpp`; not C++: const methods use the non-mutable `rng_`, and a `switch` jumps over the initialisation of `effective_z`), the text reports of `sim/physics_radiation_simulator.hpp`, the residual network's copy operations.

### Not modelled, whole files

* Files that cannot be compiled as they stand, so that no behaviour can be attributed to them: `neural/selective_hardening.hpp`,
  `neural/layer_protection_policy.hpp`, `neural/adaptive_protection.hpp`, `error/error_handling.hpp` (class defined twice), and what includes them: `neural/sensitivity_analysis.hpp`, `neural/fine_tuning.hpp`, `neural/fine_tuning_integration.hpp`, `api/rad_ml.hpp`;
  headers that cannot be included together because they define the same class: the two `core::memory::MemoryScrubber`,
  `testing::FaultInjectionResult`, `neural::ProtectionLevel`.
* Declarations only: `core/material_database.hpp`, `physics/stochastic_models.hpp`, `physics/transport_equation.hpp`, `neural/network_model.hpp`; constants only: `core/space_flight_config.hpp`, `common/types.hpp`; `testing/benchmark_framework.hpp`,
  `api/*`, the other files of `physics/*`,
  `src/validation/*` (`cross_section_utils.hpp` reads a field `let` its data points do not have), and the test programs, examples and Python code.
