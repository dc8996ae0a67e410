#!/usr/bin/env python3
"""Regenerates /verif/properties.jsonl from the table below (plain data, no logic)."""
import json, os
P = []
def p(title, statement, quantifier, why, anchors):
    P.append(dict(id="C%02d" % (len(P)+1), title=title, statement=statement,
                  quantifier=quantifier, why_tests_cant=why, anchors=anchors))
I = "include/rad_ml/"
# ---- plain TMR containers
p("Simple TMR masks any single-copy corruption",
  "For core::redundancy::TripleModularRedundancy<T>, tmr::TMR<T> and tmr::BasicTMR<T>: if v was stored with set() and at most one of the three stored copies is then overwritten by an arbitrary value, get() returns v (T compared by a lawful ==).",
  "every type with a lawful ==, every stored value, every corrupted copy index and every corrupted value",
  "the corrupted value ranges over all of T and all three positions; tests sample a few bit flips",
  [I+"core/redundancy/tmr.hpp:TripleModularRedundancy::get", I+"tmr/tmr.hpp:TMR::performMajorityVote", "rad_ml/tmr/basic_tmr.hpp:BasicTMR::get"])
p("repair() restores full redundancy under every fault history",
  "For the containers of C01 that have repair(): after any history of set(x), single-copy corruption and repair() in which at most one copy is corrupted between two consecutive set/repair calls, get() returns the last value passed to set(), and directly after repair() all three copies are equal to it.",
  "every finite history of set / corrupt-one-copy / repair operations obeying the one-upset-per-interval rule",
  "unbounded histories; accumulation of upsets across repairs is exactly what a finite test cannot exclude",
  [I+"core/redundancy/tmr.hpp:TripleModularRedundancy::repair", "rad_ml/tmr/basic_tmr.hpp:BasicTMR::repair"])
p("tmr::TMR error statistics are exact for every history",
  "For tmr::TMR<T>, after any history of set/get/setRawCopy/resetErrorStats, detected_errors equals the number of get() calls since the last reset that saw disagreeing copies, and detected_errors = corrected_errors + uncorrectable_errors; the error callback fires exactly once per corrected get with (voted value, outlier copy).",
  "every finite history of API calls", "counter relations are invariants over unbounded histories",
  [I+"tmr/tmr.hpp:TMR::performMajorityVote", I+"tmr/tmr.hpp:TMR::getErrorStats"])
p("Four-copy EnhancedTMR masks one corrupted copy, whatever the hash order",
  "For the four-copy tmr::EnhancedTMR in rad_ml/tmr/basic_tmr.hpp: if at most one of four copies is corrupted, get() returns the stored value for every iteration order of the unordered_map; hasErrors() is true iff some copy differs; repair() makes all copies equal.",
  "every stored value, corrupted index and value, and every unordered_map iteration order",
  "the iteration order of unordered_map is unspecified; a test sees one library's order",
  ["rad_ml/tmr/basic_tmr.hpp:EnhancedTMR::get", "rad_ml/tmr/basic_tmr.hpp:EnhancedTMR::repair"])
p("getErrorCount() counts every repaired error",
  "For the four-copy EnhancedTMR, getErrorCount() returns the number of repairs performed since construction or the last user set().",
  "every history of corruption and repair", "needs unbounded histories of repairs",
  ["rad_ml/tmr/basic_tmr.hpp:EnhancedTMR::repair", "rad_ml/tmr/basic_tmr.hpp:EnhancedTMR::getErrorCount"])
p("Floating-point TMR masks a single bit upset",
  "For TripleModularRedundancy<float|double> (IEEE == comparison): if one copy suffers a single bit flip, get() returns the stored value bit for bit.",
  "all 2^32 (2^64) stored patterns incl. zeros, infinities and NaNs, every copy, every bit",
  "2^32*96 (2^64*192) cases; the failing ones (NaN, signed zero) are precisely those tests skip",
  [I+"core/redundancy/tmr.hpp:TripleModularRedundancy::get"])
# ---- voting
p("bitLevelVote is the bitwise majority",
  "EnhancedVoting::bitLevelVote(a,b,c) and the copies of it in EnhancedTMR / SpaceEnhancedTMR return the value whose every bit is the majority of the three input bits, for every arithmetic type.",
  "all inputs of every 1,2,4,8-byte arithmetic type", "2^192 inputs for 64-bit types",
  [I+"core/redundancy/enhanced_voting.hpp:EnhancedVoting::bitLevelVote", I+"core/redundancy/enhanced_tmr.hpp:EnhancedTMR::bitLevelVote", I+"core/redundancy/space_enhanced_tmr.hpp:SpaceEnhancedTMR::bitLevelVote"])
p("Every specialised integer vote agrees with the bitwise majority",
  "For integer types wordErrorVote, burstErrorVote, fastBitCorrection, standardVote and adaptiveVote (for every FaultPattern argument) all return the bitwise majority of their inputs, in EnhancedVoting and in EnhancedTMR, whatever the uninitialised upper bytes of the widened temporaries contain for 1- and 2-byte types.",
  "all inputs, all widths, all fault patterns, all contents of the uninitialised padding",
  "2^192 inputs and indeterminate memory contents",
  [I+"core/redundancy/enhanced_voting.hpp:EnhancedVoting::adaptiveVote", I+"core/redundancy/enhanced_voting.hpp:EnhancedVoting::wordErrorVote", I+"core/redundancy/enhanced_voting.hpp:EnhancedVoting::burstErrorVote", I+"core/redundancy/enhanced_voting.hpp:EnhancedVoting::fastBitCorrection", I+"core/redundancy/enhanced_tmr.hpp:EnhancedTMR::adaptiveVote"])
p("Multi-bit upsets in all three copies are corrected when no bit position is hit twice",
  "If three copies of v are hit by arbitrary bit-flip masks no two of which share a bit position, every integer voting strategy returns v.",
  "every value and every triple of pairwise disjoint flip masks", "exponentially many flip patterns",
  [I+"core/redundancy/enhanced_voting.hpp:EnhancedVoting::adaptiveVote"])
p("detectFaultPattern classifies a one-copy single-bit flip as SINGLE_BIT and never has undefined behaviour",
  "For every arithmetic type, detectFaultPattern on copies of v of which one has exactly one flipped bit returns SINGLE_BIT, and for every input it completes without undefined behaviour.",
  "every value, copy, bit and type; every input for the UB part", "UB does not show in a passing test; 64-bit input space",
  [I+"core/redundancy/enhanced_voting.hpp:EnhancedVoting::detectFaultPattern", I+"core/redundancy/enhanced_voting.hpp:EnhancedVoting::areByteBoundary"])
p("Adjacent-bit upsets are recognised as ADJACENT_BITS",
  "If one copy has a run of 2 or more adjacent flipped bits and the other two are intact, EnhancedVoting::detectFaultPattern returns ADJACENT_BITS.",
  "every value, copy, and run of flipped bits", "tests do not check the classifier over all patterns",
  [I+"core/redundancy/enhanced_voting.hpp:EnhancedVoting::areAdjacentBits"])
p("weightedVote: an exact two-copy agreement wins, equal positive weights give the majority",
  "weightedVote returns the agreed value when two copies are equal whatever the weights; for three different copies and equal finite positive weights it returns the bitwise majority; with all-zero weights it must not fabricate bits no copy has.",
  "all integer inputs and all float weights", "weights range over all floats incl. NaN/inf/0",
  [I+"core/redundancy/enhanced_voting.hpp:EnhancedVoting::weightedVote"])
# ---- CRC
p("All CRC-32 implementations compute the same function",
  "core::redundancy::CRC, SpaceCRC, the CRC in HealthWeightedTMR and ApproximateTMR (bitwise), tmr::CRC32 (generated table) and core::memory::MemoryScrubber::compute_crc32 (literal table) return the same checksum on every byte string.",
  "every byte string of every length", "unbounded inputs; a wrong table entry hides until that byte occurs",
  [I+"core/redundancy/enhanced_tmr.hpp:CRC::calculate", I+"core/redundancy/space_enhanced_tmr.hpp:SpaceCRC::calculate", I+"tmr/enhanced_tmr.hpp:CRC32", I+"core/memory/memory_scrubbing.hpp:MemoryScrubber::compute_crc32"])
p("The checksum detects every error burst of at most 32 bits",
  "If two byte strings of equal length differ and all differing bits lie within a window of 32 consecutive bits, their checksums differ; hence every single-bit flip, and every change to an object of at most 4 bytes, is detected.",
  "every length, every content, every burst position and shape", "2^n contents times all burst shapes",
  [I+"core/redundancy/enhanced_tmr.hpp:CRC::calculate"])
p("The checksum detects every double-bit error in objects below 512 MiB",
  "Flipping any two distinct bits of a byte string whose length is below 2^29 bytes changes its checksum.",
  "every length below the bound, every content, every pair of bit positions", "needs the multiplicative order of x modulo the CRC polynomial",
  [I+"core/redundancy/enhanced_tmr.hpp:CRC::calculate"])
# ---- core EnhancedTMR / Space
p("EnhancedTMR masks arbitrary corruption of one copy and its checksum",
  "core::redundancy::EnhancedTMR<T>: for every v with v == v (every value but NaN): after set(v), if one copy and its checksum are replaced by arbitrary values, get() returns a value comparing equal to v (v itself for integer T); repair() then restores a state indistinguishable (copies and checksums) from a fresh set(v) and verify() is true.",
  "every value, corrupted index, corrupted value and corrupted checksum (incl. checksum collisions)", "collisions and arbitrary corruption cannot be enumerated",
  [I+"core/redundancy/enhanced_tmr.hpp:EnhancedTMR::get", I+"core/redundancy/enhanced_tmr.hpp:EnhancedTMR::repair", I+"core/redundancy/enhanced_tmr.hpp:EnhancedTMR::verify"])
p("EnhancedTMR survives corruption of two copies when their checksums expose it",
  "If two copies of EnhancedTMR / SpaceEnhancedTMR are hit by value corruption within a 32-bit window (any corruption for sizeof(T) <= 4) and checksums are intact, get() still returns v.",
  "every value and every pair of corrupted copies and burst patterns", "combines CRC guarantees over all inputs with the vote",
  [I+"core/redundancy/enhanced_tmr.hpp:EnhancedTMR::get", I+"core/redundancy/space_enhanced_tmr.hpp:SpaceEnhancedTMR::get"])
p("EnhancedTMR statistics: detected = corrected + uncorrectable, and every disagreement is counted",
  "Over every history detected_errors = corrected_errors + uncorrectable_errors, and every get() that finds verify() false increments detected_errors.",
  "every finite history of operations and corruptions", "invariant over unbounded histories",
  [I+"core/redundancy/enhanced_tmr.hpp:EnhancedTMR::incrementErrorStats"])
p("SpaceEnhancedTMR::get reports SUCCESS only with the stored value under one-copy corruption",
  "SpaceEnhancedTMR: for every v with v == v, after set(v) and arbitrary corruption of one copy and its checksum, get yields status SUCCESS and a value comparing equal to v (v itself for integer T); after repair() verify() is SUCCESS.",
  "every value, index, corruption", "arbitrary corruption incl. checksum collisions",
  [I+"core/redundancy/space_enhanced_tmr.hpp:SpaceEnhancedTMR::get", I+"core/redundancy/space_enhanced_tmr.hpp:SpaceEnhancedTMR::verify"])
p("SpaceEnhancedTMR::get always terminates",
  "get() returns for every stored state, for integer and floating-point T (deterministic execution required for flight software).",
  "every state of the three copies and checksums", "termination over all states; failing states need special float values",
  [I+"core/redundancy/space_enhanced_tmr.hpp:SpaceEnhancedTMR::bitLevelVoteFloat", I+"core/redundancy/space_enhanced_tmr.hpp:SpaceEnhancedTMR::handleSpecialFloatVoting"])
# ---- tmr:: EnhancedTMR, Health, stuck, approx
p("tmr::EnhancedTMR::get returns the agreed value for every random draw",
  "tmr::EnhancedTMR<T>: whenever at least two copies agree, get() returns that value, independent of health scores, voting mode, elapsed time and random draws; when none agree it returns one of the three copies.",
  "every state, clock value, random draw and voting mode", "random draws and clock are not controllable in a test",
  [I+"tmr/enhanced_tmr.hpp:EnhancedTMR::get", I+"tmr/enhanced_tmr.hpp:EnhancedTMR::performWeightedVoting"])
p("Health scores stay within [0.1, 1.0] in tmr::EnhancedTMR through every history of get/verify/regenerate",
  "Starting from construction, after any history of get, set, verify, regenerateCopies (any corruption in between) every health score is a number in [0.1, 1.0]; with setRawCopy included it stays in (0, 1].",
  "every finite history, IEEE double arithmetic", "rounding-accurate invariant over unbounded histories",
  [I+"tmr/enhanced_tmr.hpp:EnhancedTMR::health_scores_"])
p("clone() returns a usable copy and never deadlocks",
  "tmr::EnhancedTMR::clone() called on an unlocked object returns (it must not re-acquire the non-recursive mutex it already holds).",
  "every state", "a deadlock/UB is a property of the lock protocol, not of outputs",
  [I+"tmr/enhanced_tmr.hpp:EnhancedTMR::clone"])
p("HealthWeightedTMR masks one corrupted copy from a healthy state",
  "HealthWeightedTMR: after set(v) (all health 1.0), if one copy and its checksum are arbitrarily corrupted, get() returns v; repair() restores all copies.",
  "every value and corruption", "arbitrary corruption incl. collisions, std::map order of T",
  [I+"tmr/health_weighted_tmr.hpp:HealthWeightedTMR::get"])
p("HealthWeightedTMR: two agreeing checksum-valid copies always outvote one",
  "Whatever history of gets preceded, if two copies hold v with valid checksums, get() returns v.",
  "every reachable health state", "needs a long history that degrades health scores",
  [I+"tmr/health_weighted_tmr.hpp:HealthWeightedTMR::performWeightedVoting"])
p("HealthWeightedTMR health scores stay in [0.05, 1.0] and the vote history holds at most 10 entries",
  "After every history of get/set/repair with arbitrary corruption, every health score is in [0.05,1.0] and each vote history has at most 10 entries, the most recent ones.",
  "every finite history", "invariant over unbounded histories with IEEE rounding",
  [I+"tmr/health_weighted_tmr.hpp:HealthWeightedTMR::updateHealthScore"])
p("EnhancedStuckBitTMR masks any single-copy corruption",
  "EnhancedStuckBitTMR<T> (integral and float/double specialisations): after set(v) with one copy corrupted arbitrarily, get() returns v.",
  "every value and corruption", "input space",
  [I+"tmr/enhanced_stuck_bit_tmr.hpp:EnhancedStuckBitTMR::get"])
p("EnhancedStuckBitTMR::repair restores full redundancy after a transient upset",
  "After set(v), a single-copy upset and repair(), every copy again equals v, so a later upset in another copy is still masked.",
  "every value, copy and upset", "needs the two-step fault sequence for all values",
  [I+"tmr/enhanced_stuck_bit_tmr.hpp:EnhancedStuckBitTMR::repair", I+"tmr/enhanced_stuck_bit_tmr.hpp:EnhancedStuckBitTMR::repair_non_stuck_bits"])
p("A persistently stuck bit is excluded from the vote",
  "If a copy's bit stays stuck (at 0 or at 1) over three or more repair() calls, that copy's bit is identified as stuck and no longer takes part in the vote for that bit.",
  "every value, copy, bit and stuck polarity", "both polarities over all values and histories",
  [I+"tmr/enhanced_stuck_bit_tmr.hpp:EnhancedStuckBitTMR::update_stuck_bit_tracking"])
p("ApproximateTMR returns the exact stored value when fault-free",
  "ApproximateTMR<T> with the default approximation types: set(v) then get() returns v exactly, for every integral T.",
  "every value of every integral type", "full input space",
  [I+"tmr/approximate_tmr.hpp:ApproximateTMR::get", I+"tmr/approximate_tmr.hpp:ApproximateTMR::limitRange"])
p("ApproximateTMR masks corruption of any single copy",
  "After set(v), if any one copy is arbitrarily corrupted, get() returns v or a value within the configured approximation of v.",
  "every value, copy and corruption", "the failing case needs v not divisible by the precision step",
  [I+"tmr/approximate_tmr.hpp:ApproximateTMR::get"])
p("TemporalRedundancy returns the result that a majority of executions produced",
  "execute() with n >= 1 executions returns a result with maximal multiplicity; if more than half of the executions return r, it returns r; with n = 0 it must not invoke undefined behaviour.",
  "every n, every sequence of (possibly faulty) execution results", "all fault sequences and n",
  [I+"tmr/temporal_redundancy.hpp:TemporalRedundancy::execute", I+"tmr/temporal_redundancy.hpp:TemporalRedundancy::findMostCommonResult"])
# ---- checkpointing
p("CheckpointManager keeps the newest accepted checkpoints, bounded, in order",
  "For every history of createCheckpoint calls at non-decreasing times, at most max_checkpoints are retained; they are the most recent accepted ones in order; getLatestCheckpoint / rollbackToVersion / rollbackToValid return the most recent matching one or false.",
  "every finite history, clock sequence, capacity and interval", "unbounded histories and clocks",
  [I+"core/recovery/checkpoint_manager.hpp:CheckpointManager"])
p("HybridRedundancy::rollback restores the last value that was set",
  "set(v) creates a checkpoint, and a later rollback() restores the most recently set value.",
  "every history and clock sequence", "depends on wall-clock spacing of sets",
  [I+"tmr/hybrid_redundancy.hpp:HybridRedundancy::set", I+"tmr/hybrid_redundancy.hpp:HybridRedundancy::rollback", I+"core/recovery/checkpoint_manager.hpp:CheckpointManager::createCheckpoint"])
# ---- memory
p("FixedVector behaves as a capacity-bounded list",
  "Any sequence of push_back/at/clear/size on FixedVector<T,Cap> gives exactly the results of a list that accepts at most Cap elements: FULL iff full, OUT_OF_BOUNDS iff index >= size, and at(i) returns the i-th pushed element.",
  "every operation sequence, every capacity", "unbounded operation sequences",
  [I+"core/memory/fixed_containers.hpp:FixedVector"])
p("FixedMap behaves as a capacity-bounded finite map",
  "Any sequence of insert/find/erase/clear/size on FixedMap gives exactly the results of a finite map with at most Cap keys: a find returns the last inserted value for that key since its last erase/clear; FULL iff the key is new and Cap keys are present.",
  "every operation sequence, key and value, capacity", "unbounded operation sequences, swap-with-last erase",
  [I+"core/memory/fixed_containers.hpp:FixedMap"])
p("StaticAllocator hands out disjoint, aligned, in-bounds blocks",
  "For every sequence of allocate(n) calls that succeed (between resets) the returned blocks are aligned, lie inside the pool and are pairwise disjoint; an allocate that does not fit throws bad_alloc and changes nothing.",
  "every sequence of request sizes, element size, alignment and capacity (64-bit size_t)", "includes sizes whose byte count overflows size_t",
  [I+"core/memory/static_allocator.hpp:StaticAllocator::allocate"])
p("ProtectedValue returns the stored value (never an error) under one-copy corruption, and scrub repairs it",
  "ProtectedValue<T> (integral T, sizeof <= 4): after set(v) and arbitrary corruption of one copy, get() returns v (not ValueCorruptionError), getOrFallback returns v, scrub() restores all copies to v.",
  "every value, copy, corruption", "float confidence thresholds over all inputs",
  [I+"core/memory/protected_value.hpp:ProtectedValue::get", I+"core/memory/protected_value.hpp:ProtectedValue::scrub"])
p("AlignedProtectedMemory: a read repairs the copies",
  "With scrubbing enabled, get() returns the bitwise-majority value and leaves all three copies equal to it; with scrubbing disabled copies are unchanged; scrub(v) leaves all copies equal to v and returns true iff some copy was changed. (The overload scrub() without argument cannot be instantiated: it passes a private struct to EnhancedVoting's arithmetic-only templates.)",
  "every state of the three copies, integer T of at most 4 bytes", "full state space",
  [I+"core/memory/aligned_memory.hpp:AlignedProtectedMemory"])
p("InterleavedBitMemory round-trips and corrects any single stored-bit upset",
  "set(v) then get() returns v; flipping any one stored bit still gives v; scrub() removes the upset.",
  "every value of every 1,2,4-byte integral type, every stored bit", "96 bits x 2^32 values",
  [I+"core/memory/aligned_memory.hpp:InterleavedBitMemory"])
p("InterleavedBitMemory: adjacent stored-bit errors never corrupt the same logical bit in two copies",
  "As documented, flipping two adjacent bits of the interleaved storage does not corrupt the same logical bit across multiple copies, so get() still returns v.",
  "every value and every adjacent pair of stored bits", "all pairs times all values",
  [I+"core/memory/aligned_memory.hpp:InterleavedBitMemory::interleave"])
p("RadiationErrorTracker counters are exact under every interleaving",
  "For any number of threads each performing recordError calls, in any interleaving of their atomic steps, when all calls have completed getTotalErrorCount() equals the number of calls and each getPatternCount(p) the number of calls with p; the history holds at most 1000 entries, the most recent ones in lock order.",
  "every number of threads, every interleaving", "schedules cannot be enumerated by tests",
  [I+"core/runtime/error_tracker.hpp:RadiationErrorTracker::recordError"])
p("Two RadiationErrorTracker objects do not influence each other",
  "The error rate reported by one tracker depends only on errors recorded on that tracker.",
  "every history over two tracker objects", "cross-object interference via function-local statics",
  [I+"core/runtime/error_tracker.hpp:RadiationErrorTracker::updateErrorRate"])
p("core::memory::MemoryScrubber handles are unique and scrubOnce visits exactly the registered regions",
  "For every history of register/unregister, returned handles are pairwise distinct, unregister returns true exactly for live handles and removes only that region, and scrubOnce runs every live region's function exactly once in registration order.",
  "every history", "unbounded histories",
  [I+"core/memory/memory_scrubber.hpp:MemoryScrubber"])
# ---- math
p("FixedPoint arithmetic is exact addition and correctly floored multiplication within range",
  "For FixedPoint<I,F,int32_t>: when the mathematical result is representable, + and - are exact, * returns floor(a*b*2^F)/2^F and / returns the truncated quotient; otherwise the operation is undefined behaviour or wraps as the language defines - it never silently returns another value inside the representable range claim.",
  "all raw operand pairs, all F", "2^64 operand pairs per instance",
  [I+"math/fixed_point.hpp:FixedPoint"])
p("BranchlessOps agree with min/max/abs/sign/select/clamp",
  "For every integral type BranchlessOps::min,max,sign,select,clamp return exactly the mathematical min, max, sign, selection and clamp (clamp for low<=high), and abs returns |x| for every x other than the most negative value.",
  "all operands of every width and signedness", "2^128 operand pairs",
  [I+"math/branchless_ops.hpp:BranchlessOps"])
p("BitManipulation::flipBit toggles exactly one bit and countBitDifferences is the Hamming metric",
  "flipBit(flipBit(x,i),i)=x; isBitSet toggles at i and nowhere else; out-of-range positions leave the value unchanged; countBitDifferences is symmetric, zero iff patterns are equal, satisfies the triangle inequality, and countBitDifferences(x, flipBit(x,i)) = 1.",
  "all values, positions and types", "full input space",
  [I+"utils/bit_manipulation.hpp:BitManipulation"])
p("Result<T> agrees with its status",
  "For core::error::Result<T>, isSuccess() holds iff getStatus().isSuccess(), and getValue writes iff isSuccess().",
  "every way of constructing a Result", "includes Result<T>(StatusCode::SUCCESS)",
  [I+"core/error/status_code.hpp:Result"])
# ---- GF / RS
p("GaloisField<4,0x13> and GaloisField<10,0x409> tables implement a field",
  "The table-driven add/multiply/divide/inverse/pow of GF16 and GF1024 satisfy all field laws on the whole carrier (associativity, commutativity, distributivity, inverses, pow as iterated product), never read a table out of range on carrier elements, and throw domain_error exactly on zero divisors.",
  "all triples of field elements (2^30 for GF1024), all exponents", "triples and unbounded exponents",
  [I+"neural/galois_field.hpp:GaloisField::multiply", I+"neural/galois_field.hpp:GaloisField::initialize_tables"])
p("Constructing GF256 is well defined",
  "Constructing GaloisField<8,0x11d> (GF256, used by every 8-bit Reed-Solomon alias) performs no out-of-bounds access.",
  "the single constructor run, for the 8-bit instance", "undefined behaviour can appear to pass on some platform",
  [I+"neural/galois_field.hpp:GaloisField::field_size", I+"neural/galois_field.hpp:GaloisField::initialize_tables"])
p("rs_generator_poly(n) is monic of degree n with roots alpha^0..alpha^(n-1)",
  "For every n <= field order - 1 the generator polynomial has n+1 coefficients, leading coefficient 1, evaluates to 0 at alpha^i for all i<n, and to nonzero elsewhere.",
  "every n and every evaluation point", "all n and points",
  [I+"neural/galois_field.hpp:GaloisField::rs_generator_poly", I+"neural/galois_field.hpp:GaloisField::eval_poly"])
p("Reed-Solomon decode(encode(x)) = x without errors",
  "For the 4-bit AdvancedReedSolomon configuration and every T whose bytes are field elements, decode(encode(x)) returns x.",
  "every data value", "full input space",
  [I+"neural/advanced_reed_solomon.hpp:AdvancedReedSolomon::encode", I+"neural/advanced_reed_solomon.hpp:AdvancedReedSolomon::decode", I+"neural/advanced_reed_solomon.hpp:AdvancedReedSolomon::compute_ecc_symbols"])
p("deinterleave(interleave(d)) = d",
  "AdvancedReedSolomon::deinterleave inverts interleave for every byte vector.",
  "every byte vector of every length", "unbounded inputs",
  [I+"neural/advanced_reed_solomon.hpp:AdvancedReedSolomon::interleave", I+"neural/advanced_reed_solomon.hpp:AdvancedReedSolomon::deinterleave"])
p("EnhancedVoting: BYTE_ERROR means exactly one byte was hit",
  "When EnhancedVoting::detectFaultPattern classifies three copies of an n-byte integral value, of which one was hit, as BYTE_ERROR then all flipped bits lie in one byte.",
  "every value, every upset mask of every copy", "2^96 or more copy triples",
  [I+"core/redundancy/enhanced_voting.hpp:EnhancedVoting::detectFaultPattern", I+"core/redundancy/enhanced_voting.hpp:EnhancedVoting::areByteBoundary"])
p("detectFaultPatternWithConfidence: same pattern as detectFaultPattern, confidence 1 exactly for agreement",
  "EnhancedVoting::detectFaultPatternWithConfidence returns the same pattern as detectFaultPattern and a confidence in (0,1], which is exactly 1.0 iff all three copies are equal.",
  "every triple of copies of every integral type", "confidence is float arithmetic over all triples",
  [I+"core/redundancy/enhanced_voting.hpp:EnhancedVoting::detectFaultPatternWithConfidence"])
p("Up to six flipped bits in an object of at most 8 bytes change its checksum",
  "For objects of at most 8 bytes, flipping any set of one to six distinct bits changes CRC::calculate's result.",
  "every content and every set of at most six of up to 64 bit positions", "83 million flip sets times 2^64 contents",
  [I+"core/redundancy/enhanced_tmr.hpp:CRC::calculateForValue"])
p("rad_ml::memory::MemoryScrubber's checksum detects every single-bit error",
  "Two regions that differ in exactly one bit have different checksums under MemoryScrubber::calculateCRC32.",
  "every region content and bit", "a missing table row is only visible for some contexts",
  [I+"memory/memory_scrubber.hpp:MemoryScrubber::calculateCRC32", I+"memory/memory_scrubber.hpp:MemoryScrubber::crc_table_"])
p("NaN payloads are protected by EnhancedTMR like any other value",
  "EnhancedTMR<float|double>: after set(v) with v a NaN, verify() is true and corrupting one copy and its checksum does not change what get() returns.",
  "every NaN pattern, every corruption", "tests never store NaN; the failure comes from operator==",
  [I+"core/redundancy/enhanced_tmr.hpp:EnhancedTMR::verify", I+"core/redundancy/enhanced_tmr.hpp:EnhancedTMR::get"])
p("SpaceEnhancedTMR returns the median of three distinct finite floats",
  "SpaceEnhancedTMR<float|double>: when the checksums do not single out a copy and the three finite copies are pairwise different, get() returns one of the copies and it lies strictly between the two others.",
  "all triples of distinct finite float/double patterns", "2^96 / 2^192 triples",
  [I+"core/redundancy/space_enhanced_tmr.hpp:SpaceEnhancedTMR::findBestFloatFallback", I+"core/redundancy/space_enhanced_tmr.hpp:SpaceEnhancedTMR::performMajorityVoting"])
p("SpaceEnhancedTMR never turns finite float data into NaN or infinity",
  "SpaceEnhancedTMR<float|double>: when no two copies agree and at least one copy is finite, a vote that returns yields a finite value.",
  "all stored triples", "2^96 / 2^192 triples; NaN is contagious downstream",
  [I+"core/redundancy/space_enhanced_tmr.hpp:SpaceEnhancedTMR::bitLevelVoteFloat", I+"core/redundancy/space_enhanced_tmr.hpp:SpaceEnhancedTMR::handleSpecialFloatVoting"])
p("SpaceEnhancedTMR::verify() SUCCESS means the copies agree",
  "verify() returns SUCCESS only if all three stored copies are equal.",
  "every stored state", "the failing states have self-consistent checksums, which a bit-flip test does not produce",
  [I+"core/redundancy/space_enhanced_tmr.hpp:SpaceEnhancedTMR::verify"])
p("An error callback of tmr::EnhancedTMR may call back into the object",
  "The user-supplied error callback can call get() on the protected object it is told about (verify() and get() return normally).",
  "every state in which verification finds an error", "the failure is a lock re-acquisition, not an output",
  [I+"tmr/enhanced_tmr.hpp:EnhancedTMR::verifyCRCs"])
p("tmr::EnhancedTMR::get never returns a copy whose checksum is wrong while a checksum-valid copy exists",
  "tmr::EnhancedTMR: whenever at least one copy matches its CRC, get() returns a value of a copy that matches its CRC.",
  "every state, clock and random draw", "depends on the draw and on the verification interval",
  [I+"tmr/enhanced_tmr.hpp:EnhancedTMR::get", I+"tmr/enhanced_tmr.hpp:EnhancedTMR::performWeightedVoting"])
p("RANGE_LIMITED approximation leaves values inside the limit unchanged",
  "ApproximateTMR<T>'s RANGE_LIMITED copy of v is v clamped to +/- half of T's maximum; in particular v itself when v is within that range.",
  "every value of every integral type", "unsigned negation of the limit only shows for whole types",
  [I+"tmr/approximate_tmr.hpp:ApproximateTMR::limitRange", I+"tmr/approximate_tmr.hpp:ApproximateTMR::getApproximateValue"])
p("HybridRedundancy::repair() returns true only when the redundancy is restored",
  "When HybridRedundancy<T>::repair() returns true all three copies agree; otherwise it rolls back or returns false.",
  "every state of the copies and trackers", "the rollback branch is unreachable in a sequential test, so its absence cannot be observed",
  [I+"tmr/hybrid_redundancy.hpp:HybridRedundancy::repair"])
p("HybridRedundancy::get masks faults striking during the read",
  "If, in more than half of the temporal executions, at least two copies hold v when they are read, get() returns v, whatever strikes the copies between the executions.",
  "every fault schedule, number of executions and value", "fault timing between the executions of one call",
  [I+"tmr/hybrid_redundancy.hpp:HybridRedundancy::get", I+"tmr/temporal_redundancy.hpp:TemporalRedundancy::execute"])
p("StaticAllocator copies are usable and equal allocators are interchangeable",
  "A StaticAllocator converted from one for another element type can allocate, and when a == b memory obtained from a can be handed to b (allocator requirements).",
  "every allocator state, capacity and request", "reading an indeterminate member and the location of storage are not visible in results",
  [I+"core/memory/static_allocator.hpp:StaticAllocator::StaticAllocator", I+"core/memory/static_allocator.hpp:operator=="])
p("ProtectedValue::transform maps the value and propagates the error",
  "transform(f) yields a ProtectedValue whose get() is f(v) when get() was v, and an error when get() was an error.",
  "every state, function and junk in temporaries", "reading the never-initialised copies is undefined, a test may see any value",
  [I+"core/memory/protected_value.hpp:ProtectedValue::transform", I+"core/memory/protected_value.hpp:ProtectedValue::get"])
p("The error rate reported by RadiationErrorTracker is errors per second",
  "getErrorRate() approximates the number of errors recorded per second, so isErrorRateExceeded(threshold) becomes true when errors arrive persistently faster than threshold per second and stays false when they arrive slower.",
  "every sequence of error times, every interleaving", "depends on clock units and on races between updates",
  [I+"core/runtime/error_tracker.hpp:RadiationErrorTracker::updateErrorRate"])
p("RadiationErrorTracker::reset restores a fresh tracker",
  "After reset() returns the tracker behaves as a newly constructed one, whatever happened before or meanwhile.",
  "every history and interleaving", "needs the statics of the rate update and torn interleavings",
  [I+"core/runtime/error_tracker.hpp:RadiationErrorTracker::reset"])
p("getPatternDistribution returns fractions",
  "Every entry of getPatternDistribution() lies in [0,1], in any interleaving with recordError.",
  "every interleaving", "needs a preemption between two loads",
  [I+"core/runtime/error_tracker.hpp:RadiationErrorTracker::getPatternDistribution"])
p("getRecentErrors(k) returns the k most recent errors and never deadlocks",
  "In any interleaving getRecentErrors(k) returns the last min(k,1000) records logged before it returns, in order; as long as a call is unfinished some thread can make a step.",
  "every number of threads, every interleaving", "schedules cannot be enumerated by tests",
  [I+"core/runtime/error_tracker.hpp:RadiationErrorTracker::getRecentErrors"])
p("A scrub callback may use the scrubber it is registered with",
  "A callback run by core::memory::MemoryScrubber::scrubOnce may register or unregister regions on the same scrubber.",
  "every registry and callback", "undefined behaviour (relocking a std::mutex) is not observable as a value",
  [I+"core/memory/memory_scrubber.hpp:MemoryScrubber::scrubOnce"])
p("start/stop of the core scrubber are safe",
  "After stop() returns no callback runs until the next start(); stop() always returns; no sequence of start/stop calls from any threads terminates the process.",
  "every schedule of the worker and the controlling threads", "schedules cannot be enumerated by tests",
  [I+"core/memory/memory_scrubber.hpp:MemoryScrubber::start", I+"core/memory/memory_scrubber.hpp:MemoryScrubber::stop"])
p("memory::MemoryScrubber handles identify one region",
  "registerMemoryRegion returns pairwise distinct nonzero handles, for any history, from any threads, and after the scrubber has been moved.",
  "every history and interleaving", "needs a race on the unlocked counter",
  [I+"memory/memory_scrubber.hpp:MemoryScrubber::registerMemoryRegion"])
p("Scrubbing untouched memory reports no error",
  "If the registered memory has not changed since registration, every scrubMemory() returns 0.",
  "every region size, content and number of cycles", "any size and any content; most tests use a small region",
  [I+"memory/memory_scrubber.hpp:MemoryScrubber::scrubRegion", I+"memory/memory_scrubber.hpp:MemoryScrubber::calculateChecksums"])
p("memory::MemoryScrubber corrects what it counts as corrected",
  "After scrubMemory() every error counted in errors_corrected has been corrected in memory, and every changed byte has been detected.",
  "every region, content and corruption", "all contents and all corruptions",
  [I+"memory/memory_scrubber.hpp:MemoryScrubber::scrubRegion", I+"memory/memory_scrubber.hpp:MemoryScrubber::scrubMemory"])
p("Moving a running memory::MemoryScrubber keeps it scrubbing",
  "Constructing a scrubber by moving from a running one terminates and the new object scrubs in the background.",
  "every schedule of the old worker and the moving thread", "schedules cannot be enumerated by tests",
  [I+"memory/memory_scrubber.hpp:MemoryScrubber::MemoryScrubber", I+"memory/memory_scrubber.hpp:MemoryScrubber::stopBackgroundThread"])
p("backup_memory, restore_memory and compare_memory work on regions given by their size in bytes",
  "For a region of `size` bytes (as documented), restore_memory after backup_memory restores the original contents and compare_memory returns the number of differing elements, without touching memory outside.",
  "every element type, size and content", "an out-of-bounds access need not be visible",
  [I+"core/memory/memory_scrubbing.hpp:MemoryScrubber::backup_memory", I+"core/memory/memory_scrubbing.hpp:MemoryScrubber::restore_memory", I+"core/memory/memory_scrubbing.hpp:MemoryScrubber::compare_memory"])
p("FixedPoint converts to floating point and back without loss",
  "For every representable raw value v, constructing a FixedPoint from its toDouble() (toFloat()) gives v back, and toDouble() is the exact real number v/2^FracBits.",
  "every storage type, FracBits and value", "all values of all admissible formats", [I+"math/fixed_point.hpp:FixedPoint"])
p("FixedPoint construction and multiplication are right for every admissible parameter set",
  "Every pair (T, FracBits) the class accepts (FracBits < number of bits of T) computes products with the right sign and builds integers exactly when they are representable.",
  "every admissible template parameter pair and every value", "parameters are template arguments: tests use one format", [I+"math/fixed_point.hpp:FixedPoint"])
p("Error Results can be copied",
  "Copying a Result<T> that holds an error is well defined for every T and yields an equal error.",
  "every T and status", "undefined behaviour (reading an uninitialised scalar) is invisible to tests", [I+"core/error/status_code.hpp:Result"])
p("rs_calc_syndromes terminates and evaluates the message at alpha^0..alpha^nsym",
  "For every message of field elements and every nsym, rs_calc_syndromes returns the nsym+1 values of the message polynomial at alpha^i.",
  "every message and every nsym of type uint8_t", "non-termination and all messages", [I+"neural/galois_field.hpp:GaloisField::rs_calc_syndromes"])
p("Reed-Solomon decode corrects up to correction_capability() wrong symbols",
  "If at most ECCSymbols/2 symbols of an encoded object are changed, decode returns the object; decode never has undefined behaviour.",
  "every object and every pattern of at most ECCSymbols/2 wrong symbols", "combinatorially many error patterns", [I+"neural/advanced_reed_solomon.hpp:AdvancedReedSolomon::decode", I+"neural/galois_field.hpp:GaloisField::rs_correct_errors"])
p("Reed-Solomon encode is defined for every object",
  "encode(x) is well defined for every object x of type T and every admissible SymbolSize.",
  "every object, symbol size and number of check symbols", "out-of-bounds table reads need not be visible", [I+"neural/advanced_reed_solomon.hpp:AdvancedReedSolomon::encode"])
p("is_correctable answers for every input",
  "is_correctable returns true for correctable words and false for the others, without undefined behaviour.",
  "every byte vector", "all words", [I+"neural/advanced_reed_solomon.hpp:AdvancedReedSolomon::is_correctable"])
p("rs_find_errors returns exactly the roots of the error locator",
  "For every locator polynomial over the field and every message length up to the field size, rs_find_errors returns the positions p whose inverse locator alpha^-(len-1-p) is a root, in decreasing order, if there are as many as the degree, and nothing otherwise.",
  "every polynomial and length", "all polynomials", [I+"neural/galois_field.hpp:GaloisField::rs_find_errors"])
p('Multi-bit protection returns what was stored',
  'For every coding scheme, an object constructed with or assigned v returns v, is valid, and reports no error, whatever it held before.',
  'every 32-bit value, scheme and previous state', '2^32 values times all previous states', [I+"neural/multi_bit_protection.hpp:MultibitProtection::setValue", I+"neural/multi_bit_protection.hpp:MultibitProtection::getValue", I+"neural/multi_bit_protection.hpp:MultibitProtection::hasError"])
p('HAMMING corrects any single data bit error',
  'After any one bit of the stored value flips, hasError() is true, getValue() returns the original value and the object is repaired; any two flipped bits are detected.',
  'every value and bit position(s)', 'all values and positions', [I+"neural/multi_bit_protection.hpp:MultibitProtection::correctErrors", I+"neural/multi_bit_protection.hpp:MultibitProtection::getValue"])
p('HAMMING: a damaged check byte does not change the value',
  'If radiation changes one check byte (and not the value), getValue() still returns the stored value.',
  'every value, check byte and damage', 'all damages', [I+"neural/multi_bit_protection.hpp:MultibitProtection::getValue"])
p('SECDED corrects every single data bit error',
  'After any one bit of the stored value flips, correctErrors() succeeds and getValue() returns the original value.',
  'every value and bit position', 'all values and positions', [I+"neural/multi_bit_protection.hpp:MultibitProtection::correctErrors"])
p('SECDED detects double errors without miscorrecting',
  'After any two bits of the stored value flip, hasError() is true, correctErrors() reports failure and does not touch the data.',
  'every value and pair of positions', 'all values and pairs', [I+"neural/multi_bit_protection.hpp:MultibitProtection::correctErrors", I+"neural/multi_bit_protection.hpp:MultibitProtection::hasError"])
p('SECDED: a damaged check byte never changes the value',
  'If radiation changes one check byte, the error is detected and getValue() still returns the stored value.',
  'every value, check byte and damage', 'all damages', [I+"neural/multi_bit_protection.hpp:MultibitProtection::getValue"])
p('REED_SOLOMON detects every corruption of the value',
  'hasError() is true exactly when the stored value differs from the protected one.',
  'every pair of 32-bit values', '2^64 pairs', [I+"neural/multi_bit_protection.hpp:MultibitProtection::hasError"])
p('REED_SOLOMON repairs any single-byte corruption',
  'Any corruption of the value confined to one byte is repaired exactly; damage to any one check byte is detected and never changes the value.',
  'every value, byte, damage', 'all values and damages', [I+"neural/multi_bit_protection.hpp:MultibitProtection::correctErrors", I+"neural/multi_bit_protection.hpp:MultibitProtection::getValue"])
p('correctErrors() == true means no error is left',
  'Whenever correctErrors() returns true, hasError() is false afterwards.',
  'every state', 'all states', [I+"neural/multi_bit_protection.hpp:MultibitProtection::correctErrors", I+"neural/multi_bit_protection.hpp:MultibitProtection::hasError"])
p('Bit interleaving is a bijection that separates neighbours',
  'undo(apply(v)) = v and apply(undo(v)) = v for every v, and a burst over two neighbouring bits of the interleaved word turns into two flips at least two positions apart.',
  'every value and burst position', 'all values', [I+"neural/multi_bit_protection.hpp:MultibitProtection::applyBitInterleaving", I+"neural/multi_bit_protection.hpp:MultibitProtection::undoBitInterleaving"])
p('applyMultiBitErrors injects damage of the announced kind only',
  'For every rate up to 1 and every sequence of random draws: at most one bit; two or three adjacent bits; bits of one byte; bits of one column; at most eight bits. Rates up to 0 change nothing.',
  'every value, rate, upset type and sequence of random draws', 'random draws', [I+"neural/multi_bit_protection.hpp:MultibitProtection::applyMultiBitErrors"])
p('ChecksumProtection detects corruption',
  'An untouched object raises no alarm, and every corruption of the stored value is detected by hasError(), however the value was assigned.',
  'every value and corruption', 'all corruptions', [I+"neural/multi_bit_protection.hpp:ChecksumProtection::hasError", I+"neural/multi_bit_protection.hpp:ChecksumProtection::setValue"])
p('The triplicated wrappers survive damage to one copy however they are read',
  'TripleModularRedundancy and AdaptiveTMRProtection return the stored value through getValue() and through the implicit conversion although one copy is damaged.',
  'every value, copy and damage', 'all damages', [I+"neural/multi_bit_protection.hpp:TripleModularRedundancy::getValue", I+"neural/multi_bit_protection.hpp:AdaptiveTMRProtection::getValue", I+"neural/multi_bit_protection.hpp:MultibitProtection::operatorT"])
A="memory/radiation_mapped_allocator.hpp:RadiationMappedAllocator::"
p('Zone blocks never overlap',
  'For every zone map the constructor accepts and every sequence of allocate/deallocate calls, no call fails undefined, live blocks are pairwise disjoint and every block not taken from malloc lies inside a zone.',
  'every zone map and history of requests', 'all histories', [I+A+"allocate", I+A+"deallocate", I+A+"find_available_space"])
p('Data goes to the zone of its criticality while it has room',
  'A request is served from the zone matching its criticality whenever that zone has a large enough gap.',
  'every history and request', 'all histories', [I+A+"allocate", I+A+"select_zone_for_criticality", I+A+"find_available_space"])
p('Overflowing data goes to the next less protected zone with room',
  'When the preferred zone is full the request is served from a less protected zone that has room; malloc is used only if none has.',
  'every history and request', 'all histories', [I+A+"allocate", I+A+"find_fallback_zone"])
p('Usage by criticality is exact',
  'get_criticality_usage() is the number of bytes the client holds, per criticality.',
  'every history', 'all histories', [I+A+"get_criticality_usage", I+A+"deallocate"])
p('Diagnostics count the live blocks of every zone',
  'get_diagnostics() reports per zone level the number and bytes of the live blocks lying in that zone.',
  'every history and zone', 'all histories', [I+A+"get_diagnostics"])
p('The vulnerability score is the weighted mean, in [0, 1]',
  'calculate_vulnerability_score() lies in [0,1], is 0 without live blocks, and equals the byte-weighted mean of importance times exposure up to rounding.',
  'every history', 'all histories', [I+A+"calculate_vulnerability_score"])
p('The constructor rejects bad zone maps',
  'The constructor throws exactly for empty or overlapping zone lists, so that accepted maps are safe to use.',
  'every zone list', 'all lists', [I+A+"validate_zones", I+A+"RadiationMappedAllocator"])
p('STLAllocator::allocate(n) reserves room for n objects',
  'The block returned has room for n objects of type T and does not meet any live block.',
  'every n, element size and history', 'all n', [I+A+"STLAllocator::allocate"])
A="power/power_aware_protection.hpp:PowerAwareProtection::"
p('Every component keeps at least its required and at most its possible protection',
  'After every call, get_protection_level(id) of every registered component lies between the min_protection_level and max_protection_level it was described with.',
  'every history of register/update/remove/set_power_state calls with sensible descriptions, every order std::sort may choose', 'all histories and rounding', [I+A+"rebalance_protection_levels", I+A+"get_protection_level"])
p('The power used stays within the budget',
  'After every call, get_current_power_usage() <= get_current_power_budget() if the components can be run within it at all.',
  'every history with sensible descriptions', 'all histories and rounding', [I+A+"rebalance_protection_levels", I+A+"get_current_power_usage", I+A+"get_current_power_budget"])
p('Protection levels do not depend on how the situation arose',
  'Two managers with the same total budget, the same state and the same descriptions under the same ids report the same levels, usage and effectiveness, whatever calls led there and whatever current level the descriptions carried.',
  'every pair of histories', 'all histories', [I+A+"register_component", I+A+"update_component", I+A+"remove_component", I+A+"set_power_state"])
p('Component ids are unique and calls on unknown ids do nothing',
  'register_component returns ids never returned before; get_protection_level(id) has a value exactly if id is registered and not removed; update/remove return true exactly then. With sensible descriptions no call fails.',
  'every history', 'all histories', [I+A+"register_component", I+A+"update_component", I+A+"remove_component", I+A+"get_protection_level"])
p('The effectiveness score lies in [0, 1]',
  'calculate_protection_effectiveness() is a number between 0 and 1 after every history.',
  'every history with components whose description has min <= max', 'all histories and rounding', [I+A+"calculate_protection_effectiveness"])
p('With power to spare every component runs at its maximum',
  'If the budget covers the maximum power of all components, every component is given its max_protection_level.',
  'every history', 'all histories', [I+A+"rebalance_protection_levels"])
p('Budgets grow from state to state',
  'For every non-negative total: 0 <= EMERGENCY <= LOW_POWER <= NOMINAL <= SCIENCE_OPERATION <= PEAK_PERFORMANCE = total, and get_current_power_budget() is that of the state last set.',
  'every total budget and history', 'all doubles', [I+A+"PowerAwareProtection", I+A+"get_current_power_budget"])
p('Among equal components the more critical one is protected first',
  'Of two components with the same levels and powers, the one described with the higher criticality never has the lower protection level.',
  'every history with sensible descriptions, every order std::sort may choose', 'all histories and rounding', [I+A+"rebalance_protection_levels"])
A="src/testing/protection_techniques.cpp:"
p('The EDAC simulation restores exactly the bytes a Hamming code can restore',
  'applyProtectionTechnique(EDAC) returns byte k unchanged exactly when neither of its two codewords ended up with two or more inverted bits; total_errors is the number of bits struck, corrections_successful the number of damaged bytes restored.',
  'every memory, list of events and sequence of random answers', 'all memories, events and random answers', [A+"applyEDAC", A+"HammingCode"])
p('The TMR simulation restores a bit exactly when at most one copy was hit there',
  'After applyProtectionTechnique(TMR) a bit is inverted exactly when at least two of its three copies were; total_errors is the number of bits with some copy inverted, corrections_successful the number of those restored.',
  'every memory, list of events and sequence of random answers', 'all memories, events and random answers', [A+"applyTMR"])
p('The scrubbing simulation returns the original memory',
  'After applyProtectionTechnique(SCRUBBING) the memory is the original; total_errors is the number of upsetting events and corrections_successful the number of bytes that differed, never more than total_errors.',
  'every non-empty memory and list of events', 'all memories and events', [A+"applyScrubbing"])
p('The simulations are defined for every memory and event list',
  'applyProtectionTechnique returns for every memory, technique and event list.',
  'every memory, technique, event list and random answers', 'all memories', [A+"applyProtectionTechnique", A+"applyTMR", A+"applyEDAC", A+"applyScrubbing"])
p('The reported rates are numbers in [0, 1]',
  'seu_rate and ber reported by applyProtectionTechnique are numbers between 0 and 1.',
  'every memory, technique, event list and random answers', 'all runs and rounding', [A+"calculateMetrics"])
p('TMR simulation: the bit error rate is zero exactly when the memory was restored',
  'ber = 0 after applyProtectionTechnique(TMR) exactly when the memory returned equals the original.',
  'every memory, non-empty event list and random answers', 'all runs and rounding', [A+"calculateMetrics", A+"applyTMR"])
p('Other simulations: the bit error rate is zero exactly when the memory was restored',
  'ber = 0 after applyProtectionTechnique(EDAC, SCRUBBING or NONE) exactly when the memory returned equals the original.',
  'every memory, non-empty event list and random answers', 'all runs and rounding', [A+"calculateMetrics", A+"applyEDAC", A+"applyScrubbing"])
FI=["include/rad_ml/testing/fault_injection.hpp:SystematicFaultInjector::injectFault","src/testing/fault_injection.cpp:SystematicFaultInjector::getBitsToFlip"]
FJ=["include/rad_ml/testing/fault_injector.hpp:FaultInjector"]
SE=["include/rad_ml/radiation/seu_simulator.hpp:SEUSimulator"]
RS=["include/rad_ml/testing/radiation_simulator.hpp:RadiationSimulator"]
p('The fault positions are those of the pattern',
  'For a value of at least 8 bits SystematicFaultInjector computes, for every pattern but BURST_ERROR, each position of the pattern around the target bit exactly once and no other (adjacent bits wrap around; byte, word and row/column patterns are cut at the end of the value); a burst is 5 to 14 positions; all positions lie in the value.',
  'every pattern, width, start bit and random answers', 'all widths, start bits and random answers', FI)
p('injectFault into a 64-bit value changes exactly the bits of its pattern',
  'injectFault on a value of a 64-bit type returns the value with exactly the positions of the pattern inverted (or, for STUCK_AT, the target bit at the stuck value); every other bit is kept.',
  'every pattern, value, position and random answers', 'all values and answers', FI)
p('injectFault is defined for every arithmetic type',
  'injectFault<T> returns for every arithmetic T, whatever the value, pattern and position.',
  'every type, value, pattern and position', 'all types; needs a sanitizer to be seen', FI)
p('Every injected fault changes the value',
  'The value injectFault returns differs from the one it was given.',
  'every pattern, value, position and random answers', 'all values and answers', FI)
p('Injecting the same flipping fault twice restores the value',
  'Injecting a single-bit, adjacent, byte, word or row/column fault at the same position with the same random answers into the faulty value gives the original value back.',
  'every flipping pattern, 64-bit value, position and random answers', 'all values and answers', FI)
p('FaultInjector touches one byte and does what the fault type says',
  'injectRandomBitFlip inverts exactly one bit; injectFault changes at most the drawn byte: one bit inverted, at most four bits inverted (exactly the drawn number if the drawn bits differ), or the byte 0, 255 or the drawn value.',
  'every non-empty region, fault type and random answers', 'all regions and answers', FJ)
p('A multi-bit fault flips two to four bits',
  'FaultInjector::injectFault(MultiBitFlip) changes between two and four bits.',
  'every non-empty region and random answers', 'all regions and answers', FJ)
p('testResilience counts detected and repaired faults',
  'The counts testResilience reports are those of a run of num_trials trials: detected is the number of trials in which verify failed after injection, corrected the number among them in which it succeeded after repair; the flags say whether the counts are positive; if every fault is detected and every repair works, both counts are num_trials.',
  'every component, injection, verification and repair callback and number of trials', 'all callbacks and counts', FJ)
p('injectBitFlips inverts the drawn bits and returns how many upsets it made',
  'SEUSimulator::injectBitFlips returns the number of upsets drawn; a bit ends inverted exactly if it was drawn an odd number of times; the number of changed bits is at most that number and has the same parity.',
  'every memory, environment, duration and random answers', 'all memories and answers', SE)
p('simulateSEUs reports every region',
  'simulateSEUs applies injectBitFlips to every region in turn, returns the sum of the upsets (modulo 2^32), and calls the callback once, in order, with its own count, for each region that was upset, and for no other.',
  'every list of regions, environment, duration and random answers', 'all region lists and answers', SE)
p('Injection without exposure or memory is harmless',
  'With no environment, no memory, an empty memory or a zero duration the injectors change nothing and return.',
  'every injector, memory and duration', 'all combinations; needs a checked library to be seen', SE+FJ+RS)
p('A radiation event changes only the byte it reports and no more bits than it reports',
  'Each event of simulateEffects changes only the byte at its memory_offset and at most bits_affected bits of it: a flip inverts one bit, an upset the drawn number of adjacent bits, a latchup leaves one bit at the stuck value, a transient replaces the byte.',
  'every memory, environment and random answers', 'all memories and answers', RS)
p('A run of simulateEffects is the sequence of its events',
  'simulateEffects returns one event per draw in order; bytes at no reported offset are unchanged, the memory keeps its size, and the number of changed bits is at most the sum of the bits_affected.',
  'every memory, environment, duration and random answers', 'all memories and answers', RS)
p('Event rates are ordered and bounded',
  'For every sensible environment, among them all named missions, 0 <= transient <= latchup <= multi-bit <= single-bit <= total rate, and the total is at most 2160 per second.',
  'every environment with non-negative altitude, inclination 0..180, solar activity 0..10', 'all environments and rounding', RS)
p('A harsher environment never has lower event rates',
  'For the same mission, raising altitude, inclination or solar activity, entering the anomaly or thinning the shielding never lowers any rate.',
  'every two sensible environments', 'all environments and rounding', RS)
AP=['include/rad_ml/core/radiation/adaptive_protection.hpp:AdaptiveProtection']
AF=['include/rad_ml/core/adaptive/adaptive_framework.hpp:AdaptiveFramework']
MP=['include/rad_ml/mission/mission_profile.hpp:MissionProfile']
p('The protection level follows the smoothed error rate',
  'After an updateEnvironment call a second or more after the previous assessment, the estimated flux is 0.3 times the error rate plus 0.7 times the old flux (up to rounding), is between 0 and 2^33, the counters hold the reported counts, and the level is MAXIMUM from 1 error per second, ENHANCED from 0.1, STANDARD from 0.01 and MINIMAL below.',
  'every history of calls, counts and clock readings', 'the average depends on the whole history and on rounding', AP)
p('Every reported error counts towards the level',
  'Reporting more errors at the same moment never yields a lower flux or level.',
  'every history and every two pairs of counts', 'all counts, among them those whose sum does not fit', AP)
p('No report of errors is lost',
  'Errors passed to updateEnvironment as new since the last update enter the flux estimate, however close the calls are.',
  'every history and spacing of calls', 'all spacings', AP)
p('Level callbacks hear of every change, once, and of nothing else',
  'A call changes the level if and only if it calls every callback registered at that moment exactly once with the new level.',
  'every history of calls', 'all histories', AP)
p('A level callback may use the controller',
  'A callback may call the controller it is registered with, for instance to unregister itself.',
  'every callback and history', 'all histories', AP)
p('Callback handles are unique and unregistering removes exactly one callback',
  'registerLevelChangeCallback returns a handle no other registration ever had; unregisterLevelChangeCallback returns true exactly for a registered handle, and removes that one only.',
  'every history of calls', 'all histories', AP)
p('A temporary increase lasts for its duration and ends',
  'temporarilyIncreaseLevel(d) raises the level by one for d milliseconds, after which the former level returns.',
  'every state, duration and later history', 'all later histories and times', AP)
p('A quiet environment brings the level down to MINIMAL',
  'After any history, 82 assessments without errors, a second or more apart, leave the level MINIMAL.',
  'every history, then every sequence of at least 82 quiet assessments', 'all histories', AP)
p('A burst of errors brings MAXIMUM protection at once',
  'After any history, one assessment with at least 4 errors per second elapsed leaves the level MAXIMUM.',
  'every history and counts', 'all histories', AP)
p('The framework always runs with the settings of its environment',
  'After every call getCurrentSettings() is the last customization of the current environment, or its default if it was never customized.',
  'every history of calls, clock readings and tracker statistics', 'all histories', AF)
p('With adaptive mode off only the user changes the environment',
  'After setAdaptiveMode(false) and until it is enabled again no call but setEnvironment changes the environment.',
  'every history', 'all histories', AF)
p('Detected environment changes are at least ten seconds apart',
  'Two changes made by automatic detection are ten seconds or more apart, and the first is ten seconds or more after construction.',
  'every history of calls, clock readings and tracker statistics', 'all histories', AF)
p('Detection moves by a single level only after five minutes in the same environment',
  'An automatic change to the neighbouring environment happens only if the environment has not changed for five minutes.',
  'every history', 'all histories and clock readings', AF)
p('A spike of errors, or enabling adaptive mode, triggers detection immediately',
  'When ten errors have been logged, and when adaptive mode is switched on, the environment is checked immediately; with an error rate above 10 it becomes EXTREME.',
  'every history', 'all histories and clock readings', AF)
p('Environment callbacks hear of every change, once, and of nothing else',
  'A call changes the environment if and only if it calls every registered callback exactly once with the new environment.',
  'every history', 'all histories', AF)
p('Detection is monotone in the error rate',
  'In the same state, at the same time and for the same mix of patterns, a higher error rate never leads to a milder environment.',
  'every state, time, distribution and pair of error rates', 'all rates, and rounding', AF)
p('A mission name means the same everywhere',
  'MissionProfile::createFromName(name) simulates the environment RadiationSimulator::getMissionEnvironment(name) gives.',
  'every name', 'all strings', MP+RS)
PN = ["include/rad_ml/neural/protected_neural_network.hpp:ProtectedNeuralNetwork"]
p('forward() computes the dense network on the current parameters',
  'At a radiation level of at most 0.2, or at a protection level other than FULL_TMR and ADAPTIVE_TMR, forward() returns the dense-layer formula on the stored weights, biases and activation functions, one value per output neuron, and changes only the check counter; an input of the wrong size is refused.',
  'every network, parameters, input and history', 'all sizes, parameters and float values', PN)
p('Detected errors are the corrected plus the uncorrectable ones',
  'After every history of calls the detected count is the sum of the corrected and the uncorrectable count, and resetErrorStats() sets all of them to zero.',
  'every history', 'all histories', PN)
p('Voting on activations never makes the result worse',
  'At every radiation level forward() with FULL_TMR or ADAPTIVE_TMR returns what it would return without simulated upsets.',
  'every network, input, radiation level and draw of the generators', 'all draws', PN)
p('A protected network masks an upset of one stored weight',
  'With protection enabled, an upset of one stored weight is noticed and does not change the output.',
  'every network, weight and value', 'all positions and values', PN)
p('applyRadiationEffects() hits only what it draws',
  'A radiation level r of at most zero changes nothing; otherwise only the first floor(50 r) drawn weights and a fifth as many drawn biases (none at NONE and CHECKSUM_ONLY) can change, and it always returns for r at most 1.',
  'every network, level and draw', 'all draws', PN)
p('FULL_TMR and ADAPTIVE_TMR repair what radiation did',
  'After applyRadiationEffects() with FULL_TMR or ADAPTIVE_TMR a single-bit upset of a weight has been repaired.',
  'every network and upset', 'all positions', PN)
p('setLayerWeights() replaces exactly one layer',
  'A matrix of the right shape replaces the weights of that layer, in the network and in the layer copy, and nothing else.',
  'every network, layer and matrix', 'all shapes and histories', PN)
p('setLayerWeights() is all or nothing',
  'A matrix that is refused leaves the network unchanged.',
  'every network, layer and matrix', 'all shapes', PN)
p('setLayerBiases() replaces exactly one layer, or nothing',
  'A vector of the right size replaces the biases of that layer, in the network and in the layer copy, and nothing else; any other call throws and changes nothing.',
  'every network, layer and vector', 'all shapes and histories', PN)
p('getLayers() shows the parameters the network computes with',
  'Without simulated radiation and without edits through the references it returns, the layer copies are always equal to the stored weights and biases.',
  'every history of calls', 'all histories', PN)
p('Edits through getLayers() take effect, and it shows upsets',
  'A weight written through getLayerMutable() is used by forward(), and a weight hit by radiation shows in getLayers().',
  'every network and edit', 'all histories', PN)
p('train() improves the network',
  'train() changes the parameters so that the loss it returns does not grow.',
  'every network, data and number of epochs', 'all data', PN)
p('evaluate() returns an accuracy between 0 and 1',
  'evaluate() returns a number in [0, 1].',
  'every network and data', 'all data', PN)
p('The constructor and setActivationFunction() build the network asked for',
  'Networks have the given layer sizes, the drawn weights, zero biases and ReLU everywhere; fewer than two layers are refused; setActivationFunction() changes one layer, or throws for a layer that does not exist.',
  'every list of sizes, level and generator', 'all sizes', PN)
p('Inference never changes the model',
  'forward() always returns, with one value per output neuron, and leaves weights, biases, activation functions and layer copies as they were, at every protection and radiation level.',
  'every network, input, radiation level and draw', 'all draws and histories', PN)
AD=["include/rad_ml/advanced/algorithmic_diversity.hpp:AlgorithmicDiversity"]
p('Reliability scores stay between 0 and 1',
  'If initial reliabilities are in [0,1], getReliability() is always a number in [0,1].',
  'every sequence of addImplementation, updateReliability, execute and setReliabilityHistorySize', 'all histories', AD)
p('execute() returns the answer with the most reliability behind it',
  'When some consulted implementation answers, execute() returns the answer whose supporters have the largest sum of reliabilities (added in the order of names), the smallest such answer on a tie.',
  'every history and every behaviour of the implementations', 'all histories and answers', AD)
p('With untouched reliabilities the most frequent answer wins',
  'If all reliabilities are 1.0 and one answer is given more often than every other, execute() returns it.',
  'every number of implementations and every behaviour', 'all answers', AD)
p('A majority answer always wins',
  'An answer given by more than half of the consulted implementations is returned.',
  'every history and behaviour', 'all histories', AD)
p('A reported failure never raises the reliability',
  'updateReliability(name, false) does not increase getReliability(name).',
  'every history', 'all histories', AD)
p('The score follows the last N outcomes',
  'After addImplementation, each reported outcome moves the score a tenth of the way to the success rate of the last N outcomes (missing ones count as successes).',
  'every sequence of outcomes and history size', 'all sequences', AD)
p('setReliabilityHistorySize() keeps the most recent outcomes',
  'Changing the size keeps the newest outcomes and changes no score.',
  'every history and size', 'all histories', AD)
p('No call sequence is undefined behaviour',
  'Every sequence of calls is defined.',
  'every sequence of calls', 'all histories', AD)
p('Implementations below the threshold have no influence',
  'When a consulted implementation answers, what implementations with reliability below 0.2 would do changes neither the result nor the scores.',
  'every history and behaviour', 'all pairs of behaviours', AD)
p('execute() answers whenever a registered implementation does',
  'If a registered implementation returns a result, execute() returns a result.',
  'every history and behaviour', 'all behaviours', AD)
p('execute() changes the scores of failing implementations only',
  'execute() leaves names and all other scores unchanged; a consulted implementation that throws is treated as one reported failure.',
  'every history and behaviour', 'all behaviours', AD)
p('getMostReliableImplementation() returns a best name',
  'It returns a registered name with the largest score, the first in name order on a tie, and the empty string when nothing is registered.',
  'every history', 'all histories', AD)
p('Registration sets exactly one entry',
  'addImplementation() sets the reliability of its name, replaces an earlier registration completely, and leaves other names alone; hasImplementation() holds for exactly the registered names.',
  'every history', 'all histories', AD)
p('A persistently failing implementation is excluded until it is rehabilitated',
  'An implementation that throws in each of N+15 executions falls below the threshold; executions never bring an excluded one back; N+2 reported successes do.',
  'every history, history size N and behaviour of the others', 'unbounded histories', AD)
EPR=["include/rad_ml/advanced/error_prediction.hpp:RadiationErrorPredictor"]
p('Taught corrections are recalled',
  'An output that occurred as a corrupted output in accepted training data gets error probability 0.9, and (detection threshold at most 0.9) suggestCorrection() returns the correct output taught last for it.',
  'every history of calls, input and output', 'all histories', EPR)
p('train() accepts exactly matching non-empty data, and refused data has no effect',
  'train() returns true iff both lists are non-empty and of equal length; otherwise the object is unchanged; isTrained() iff some training was accepted.',
  'every history and data', 'all data', EPR)
p('Outputs never taught are not corrected',
  'With a confidence threshold of at least 0.1, suggestCorrection() returns nothing for an output that was never taught.',
  'every history, input and output', 'all histories', EPR)
p('Outputs similar to a known corrupted one are recognised',
  'detectErrorProbability() is at least 0.7 for an output that agrees with a known corrupted one in most elements.',
  'every history, input and output', 'all outputs', EPR)
p('Prediction takes the input into account',
  'An output taught as the correct one for an input is not corrected for that input.',
  'every history, input and output', 'all inputs', EPR)
p('A suggestion for an unknown output comes from the closest taught output',
  'suggestCorrection() for an unknown output returns the correction of the most similar taught output.',
  'every history, input and output', 'all outputs', EPR)
p('Thresholds are clamped to [0,1] and obeyed',
  'Whatever float (also NaN or infinite) is given, the threshold in force is in [0,1], equal to the given one when that is in [0,1]; with a detection threshold above 0.9 nothing is ever suggested.',
  'every history and float', 'all floats', EPR)
p('isPartiallyCorrupted() means at least 70 percent equal elements',
  'For equally long non-empty vectors (fewer than 2^31 elements) the double comparison decides exactly 10*equal >= 7*size, and it is false otherwise.',
  'every pair of vectors', 'all vectors; floating-point boundary', ["include/rad_ml/advanced/error_prediction.hpp:isPartiallyCorrupted"])
CLY=["include/rad_ml/inference/layers/conv_layer.hpp:ConvolutionalLayer"]
p('A convolution produces one output per position of the kernel',
  'When the kernel fits the padded input, OutputHeight and OutputWidth are exactly the numbers of positions of the kernel inside the padded input at the given stride.',
  'every template instance with dimensions below 2^24', 'all dimensions', CLY)
p('A convolution whose kernel does not fit produces no output',
  'When the kernel is larger than the padded input, the output is empty.',
  'every template instance with dimensions below 2^24', 'all dimensions; unsigned wrap-around', CLY)
p('forward() is the zero-padded cross-correlation',
  'When magnitudes are small enough for the fixed-point type, every output element is the bias plus the sum over input channels and kernel cells of weight times zero-padded input, products rounded down to the fixed-point grid.',
  'every shape, parameters, input and 8/16/32-bit fixed-point format', 'all shapes and inputs', CLY)
p('Rounding error of a convolution',
  'An output element is at most the exact real cross-correlation and less than one unit in the last place per product below it.',
  'every shape, parameters, input and format', 'all values', CLY)
p('forward() never executes undefined behaviour',
  'For all parameters and inputs of the storage type, forward() returns (no signed overflow, no index outside the arrays).',
  'every shape, parameters and input', 'all values', CLY)
p('A convolutional layer masks one damaged copy per parameter',
  'Over any history of parameter updates and strikes that change at most one copy of each parameter, each followed by repair(), the struck layer computes what an undamaged layer computes for every input and repair() restores every copy.',
  'every history, shape and input', 'all histories', CLY)
p('repair() never changes what a convolutional layer computes',
  'For any contents of the copies, repair() leaves the outputs for every input as they were and makes all copies of a parameter equal to the value read.',
  'every layer state and input', 'all states', CLY)
p('setWeight() and setBias() set exactly one parameter',
  'A valid setWeight/setBias stores the value in all three copies of that parameter and changes no other; a new layer computes zero for every input.',
  'every layer state, index and value', 'all states', CLY)
STR=["include/rad_ml/tmr/adaptive_protection.hpp:ProtectionStrategy","include/rad_ml/tmr/adaptive_protection_impl.hpp:execute"]
CTL=["include/rad_ml/tmr/adaptive_protection.hpp:MissionAwareProtectionController","src/tmr/adaptive_protection.cpp:MissionAwareProtectionController"]
PDR=["include/rad_ml/tmr/physics_driven_protection.hpp:PhysicsDrivenProtection"]
PNL=["include/rad_ml/tmr/physics_driven_protection.hpp:ProtectedNeuralLayer"]
p('BasicTMR and HybridRedundancy mask one wrong execution and report it exactly',
  'If two of the three executions return v, execute() returns a value equal to v; error_detected is set exactly when not all three agree, error_corrected exactly when some two agree and not all do, and the confidence is 1, 0.67 (0.8) or 0.33 accordingly.',
  'every operation, value type and result triple', 'all operations', STR)
p('EnhancedTMR masks one wrong integer execution',
  'If two of the three executions of an int operation return v, execute() returns v.',
  'every int operation and result triple', 'all operations', STR)
p('EnhancedTMR reports whether an error was detected',
  'error_detected and error_corrected are meaningful after every execution: false when all three agree, true as appropriate otherwise.',
  'every operation and result triple', 'all result triples', STR)
p('EnhancedTMR works for every float result',
  'Executing a float operation never runs into undefined behaviour and masks one wrong execution.',
  'every float operation and result triple', 'all floats', STR)
p('StuckBitTMR masks one wrong execution',
  'If two of the three executions return v, execute() returns v.',
  'every operation and result triple', 'all result triples', STR)
p('StuckBitTMR raises no false alarm',
  'If all three executions return v, no error is reported and the confidence is 1.',
  'every operation and value', 'all values', STR)
p('StuckBitTMR takes a majority when every result looks stuck',
  'If all three int results are 0 or INT_MAX, execute() returns the value two of them share, with confidence 0.2, flagged as detected and not corrected.',
  'every int operation and suspicious triple', 'all operations', STR)
p('Health scores stay within [0.1, 1] for the life of the object',
  'After any history of executions each health score is between 0.1 and 1, the value returned is one of the three results and an error is flagged exactly on disagreement.',
  'every history of executions of any operations', 'all histories', STR)
p('HealthWeightedTMR masks one wrong execution at any age',
  'After any history in which each execution had at least two right results, an execution with two right results returns the right value.',
  'every history and result triple', 'all histories', STR)
p('Disagreeing is never rewarded',
  'An execution in which not all three results agree never raises the health score of any of the three.',
  'every history and result triple', 'all histories', STR)
p('The optimal protection level grows with severity and criticality',
  'In a more severe environment, or for a more critical operation, the level chosen is not lower, and it is never below BASIC_TMR; the strategy created is of that level.',
  'every pair of plausible environments, material and criticality', 'all environments', STR)
p('The checkpoint interval is always between 10 and 3600 seconds',
  'For any base interval, environment and factors, NaN and infinities included, the adjusted interval is at least 10 and at most 3600.',
  'all doubles', 'all doubles', ["src/tmr/adaptive_protection.cpp:CheckpointManager::adjustInterval"])
p('The checkpoint interval shrinks as conditions worsen',
  'With larger temperature, stress or synergy factors, inside the SAA or with more solar activity the adjusted interval is not longer.',
  'every base interval, pair of environments and factors', 'all doubles', ["src/tmr/adaptive_protection.cpp:CheckpointManager::adjustInterval"])
p('Layer protection follows environment, sensitivity and position',
  'optimizePolicy gives every layer HYBRID_REDUNDANCY in the SAA or above solar activity 0.7; otherwise a more severe environment, a higher sensitivity or an earlier position never lowers the level; out-of-range layers read BASIC_TMR.',
  'every policy, environment and layer pair', 'all policies', ["src/tmr/adaptive_protection.cpp:LayerProtectionPolicy"])
p('The mission controller level is decided by the last environment update or known phase',
  'After any sequence of updates, phase settings and phase entries, the current level is the environment level of the most recent deciding update or the level configured at that time for the most recent known phase entered after it; unknown phases change nothing.',
  'every sequence of calls', 'all histories', CTL)
p('A mission phase sets a floor until it is left',
  'After entering a phase, environment updates never bring the level below the level configured for the phase.',
  'every sequence of calls', 'all histories', CTL)
p('createCurrentStrategy gives the strategy of the current level',
  'After any sequence of calls, the strategy created is of the level in force and creating it reads only initialised data.',
  'every sequence of calls', 'all histories', CTL)
p('executeProtected honours the mission phase',
  'After enterMissionPhase, executions are protected at least at the level of the phase, and a higher criticality is taken into account.',
  'every history of calls and operation', 'all histories', PDR)
p('executeProtected masks one wrong integer execution in every history',
  'After any history of plausible environment updates, sensitivities and phases, executeProtected of an int operation with two right results returns the right value and never runs into undefined behaviour.',
  'every history, operation and layer', 'all histories', PDR)
p('executeProtected masks one wrong float execution in every history',
  'After any history of plausible calls, executeProtected of a float operation with two right results returns the right value and never runs into undefined behaviour.',
  'every history, operation and layer', 'all histories', PDR)
p('Protection resources are shared fairly',
  'Each share is between 0 and the total, a layer at least as sensitive and no later than another gets at least its share, and a network of one layer always has HYBRID_REDUNDANCY.',
  'every sensitivity vector, environment and number of layers', 'all environments', ["include/rad_ml/tmr/physics_driven_protection.hpp:SensitivityBasedResourceAllocator"])
p('A protected layer computes ReLU(Wx+b)',
  'For every plausible history of its protection object, all weights, biases and inputs of matching sizes, forward() returns the row-wise reference result.',
  'every history, float weights, biases and inputs', 'all histories and floats', PNL)
p('forward() is defined for every input',
  'forward() returns for every input vector, including an empty one.',
  'every history, layer state and input', 'all inputs', PNL)
p('forward() masks a corrupted stored weight',
  'After one stored weight is corrupted, forward() returns what it returned before.',
  'every history, layer, weight and corruption', 'all corruptions', PNL)
p('setWeights and setBiases store exactly the given values',
  'After any plausible history, setWeights (setBiases) leaves the layer with the given weights (biases) and the other part unchanged.',
  'every history, layer and vector', 'all histories', PNL)
p('The temporal delay of hybrid execution is bounded',
  'After any plausible history the delay between executions converts to an int between 50 and 2480800 milliseconds.',
  'every history', 'all histories', PDR)
p('The synergy factor is between 1 and 1.5',
  'For all temperatures, stresses and yield strengths, including NaN and infinities, the synergy factor is between 1 and 1.5.',
  'all doubles', 'all doubles', ["include/rad_ml/tmr/physics_driven_protection.hpp:PhysicsModels::calculateSynergyFactor"])
p('In an emergency every layer executes with hybrid redundancy',
  'After any history, an environment update inside the SAA or with solar activity above 0.7 makes executeProtected use HYBRID_REDUNDANCY for every layer of the network.',
  'every history, environment and layer', 'all histories', PDR)
p('Scales are recomputed only when their interval has elapsed',
  'A second environment update at the same clock reading, whatever it reports, leaves the temporal delay factor as the first left it.',
  'every state and pair of updates', 'all states', PDR)
MSI=["include/rad_ml/testing/mission_simulator.hpp:MissionSimulator::runSimulation"]
MSP=["include/rad_ml/testing/mission_simulator.hpp:MissionProfile::createStandard","include/rad_ml/testing/mission_simulator.hpp:AdaptiveProtectionConfig::createStandard"]
p('A mission run counts every event exactly once by kind, by fate and by environment',
  'Each time step adds exactly the events that struck to the totals: per kind, as detected or undetected, corrected, and under the environment of the step; over any history the totals stay consistent.',
  'every profile, configuration, region set, sequence of random answers and history of calls', 'all random sequences and histories', MSI)
p('The byte totals are the sums of the registered regions',
  'After any history of registrations, runs and environment changes, protected and unprotected bytes are the sums over the regions registered as such, and total is their sum.',
  'every history', 'all histories', ["include/rad_ml/testing/mission_simulator.hpp:MissionSimulator::registerMemoryRegion"])
p('Only enabled protection detects or corrects an event',
  'In a step whose regions are all unprotected, or whose active settings enable neither TMR nor ECC, no event is counted as detected or corrected; without TMR no TMR activation is counted.',
  'every state and random answers', 'all states', MSI)
p('Environments are chosen by their probabilities and every change is reported',
  'A new environment is chosen exactly when its time is over or the chance says so; the chosen one is where the cumulated probabilities pass the draw; the callback is called exactly for changes, with the new environment.',
  'every profile with probabilities, state and draw', 'all draws', ["include/rad_ml/testing/mission_simulator.hpp:MissionSimulator::selectNextEnvironment"]+MSI)
p('A mission run ends',
  'runSimulation returns after the number of time steps the duration needs, for every duration and time step.',
  'every duration, time step, state and random answers', 'all durations and steps', MSI)
p('Time in environments accounts for the whole mission',
  'Each step adds its length to the environment of the step and to no other; with whole-second steps the times sum exactly to the simulated time.',
  'every state, duration, step and random answers', 'all histories', MSI)
p('Every mission profile can be simulated',
  'A run never has undefined behaviour, whatever the profile, including an empty one, for which the constructor has a fallback.',
  'every profile', 'all profiles', MSI)
p('The energy budget limits protection',
  'A configuration whose features cost more than the budget does not enable all of them.',
  'every configuration and run', 'all configurations', MSI+["include/rad_ml/testing/mission_simulator.hpp:AdaptiveProtectionConfig"])
p('Standard configurations protect more when radiation is higher',
  'For every mission type, a higher error rate never gets weaker settings: TMR, ECC and scrubbing stay on, the interval does not grow.',
  'every mission type and pair of rates', 'all rates', MSP)
p('Standard mission profiles are well formed and can be flown',
  'For every mission type name the profile has one duration and probability per environment, probabilities that sum to 1, and every run of any step and duration over it completes without undefined behaviour.',
  'every mission type, region set, step, duration and random answers', 'all names and runs', MSP+MSI)
p('Scrubbing keeps its interval',
  'Scrubs are at least the smallest configured interval apart and, when scrubbing is always enabled, at most the interval plus one step; they are all counted.',
  'every configuration, run and random answers', 'all runs', MSI)
p('An event counted as corrected leaves the memory undamaged',
  'A byte hit only by events that were counted as corrected has its original value after the run.',
  'every run', 'all runs', MSI)
p('A mission run changes only registered memory',
  'Bytes outside the registered regions keep their values and the memory its size.',
  'every run', 'all runs', MSI)
p('The uptime is a fraction, and 1 when nothing went wrong',
  'After every run the uptime is between 0 and 1, and 1 if every event was corrected or there was none.',
  'every run', 'all runs', MSI)
p('An environment is left when its duration is over',
  'No stay in an environment is longer than its duration and one step, if there is another one.',
  'every profile and random answers', 'all draws', MSI)
RAT=["src/rad_ml/research/radiation_aware_training.cpp:RadiationAwareTraining::train"]
RAI=["src/rad_ml/research/radiation_aware_training.cpp:RadiationAwareTraining::injectRadiationEffects"]
RAC=["src/rad_ml/research/radiation_aware_training.cpp:RadiationAwareTraining::updateCriticalityMap"]
p('Radiation-aware training rejects data that does not fit the network',
  'Training data whose numbers of inputs and labels are not those of whole samples of the network returns the error result and changes neither network nor trainer; fitting data never returns the error result.',
  'every network, data, labels and configuration', 'all data sizes', RAT)
p('Radiation-aware training is defined for every flip probability',
  'For every probability in [0,1] the training call returns statistics.',
  'every probability, network and data', 'all probabilities', RAT)
p('An injection round flips one bit of exactly the values drawn, and counts them',
  'Every weight whose random number is below its chance (base probability times environment factor, more for critical weights, half for biases) has exactly the drawn bit flipped, all others keep their value, and the count grows by the number of flips.',
  'every network, trainer and random answers', 'all draws', RAI)
p('Injected bit flips affect what the network computes',
  'Weights flipped during training change the outputs of the network, so that it learns to tolerate them.',
  'every network and injection', 'all networks', RAI+["include/rad_ml/neural/protected_neural_network.hpp:ProtectedNeuralNetwork::forward"])
p('Radiation-aware training trains',
  'The training call changes the parameters of a network that does not fit the data.',
  'every network, data and configuration', 'all histories', RAT+["include/rad_ml/neural/protected_neural_network.hpp:ProtectedNeuralNetwork::train"])
p('Training reports the accuracy drop and the recovery rate',
  'The average accuracy drop and recovery rate reported describe the effect of the injections.',
  'every history of a trainer', 'all histories', RAT+["include/rad_ml/research/radiation_aware_training.hpp:RadiationTrainingStats"])
p('The criticality map identifies critical weights',
  'After an analysis the criticality of a weight is in [0,1] and larger for weights whose flips change the loss more.',
  'every network, data and draws', 'all networks', RAC)
p('The criticality analysis leaves the network as it was',
  'Every weight flipped for a test is restored: after the analysis the network and the statistics are unchanged.',
  'every network and draws', 'all draws', RAC)
p('A trainer can be used for several networks',
  'A trainer that has trained one network can train another, of any sizes.',
  'every history of a trainer', 'all histories', RAT+RAC)
p('An empty training set is harmless',
  'Training on no samples returns and leaves meaningful statistics.',
  'every trainer and network', 'all trainers', RAT)
p('Every epoch presents every sample once, whatever the batch size',
  'For every number of samples and every batch size an epoch trains on each sample exactly once and in order.',
  'every number of samples and batch size', 'all sizes', RAT)
p('The total number of flips is the sum over the injection rounds',
  'With targeting off, injections happen in every k-th epoch where k is the whole part of 1/p, and the total reported is what it was plus the flips of these rounds.',
  'every network, configuration and random answers', 'all histories', RAT+RAI)
p('A harsher environment injects at least as many flips',
  'With the same random numbers an environment with a higher radiation level flips at least the values a milder one flips.',
  'every pair of environments and random answers', 'all draws', RAI+["src/rad_ml/sim/environment.cpp:getRadiationEnvironment"])
RNH="include/rad_ml/research/residual_network.hpp:ResidualNeuralNetwork::"
def rn(*l): return [RNH+x for x in l]
p('Skip connections behave as a set of valid pairs',
  'After any history of calls getSkipConnections() lists, without repetition and in some order, exactly the pairs whose last successful add was not followed by a remove; add succeeds exactly for from < to < number of layers and remove exactly for pairs that are present; a refused call changes nothing.',
  'every network, history of calls and hash order', 'all histories', rn('addSkipConnection','removeSkipConnection','getSkipConnections','makeConnectionKey'))
p('Skip connections and projections take part in the forward pass',
  'Adding a skip connection or setting its projection changes the output of forward() in the way a residual connection does.',
  'every network, input, radiation level and set of connections', 'all inputs and networks', rn('forward','applyProtectionToSkipConnections','setSkipProjection'))
p('addResidualBlock() adds a block',
  'After addResidualBlock() the network has an additional block.',
  'every network and block description', 'all histories', rn('addResidualBlock'))
p('Saved skip connections are restored by loading',
  'What saveToFile() writes, loadFromFile() reads back: the same connections with the same weights and protection flags, for every content and every hash order.',
  'every content of the connection map', 'all sizes, weights and orders', rn('saveToFile','loadFromFile'))
p('Loading a saved network restores its parameters and projections',
  'After loadFromFile() the network computes what the saved network computed.',
  'every pair of networks', 'all networks', rn('saveToFile','loadFromFile','saveState','loadState'))
p('A failed load leaves the network unchanged',
  'If loadFromFile() answers false the network is as it was before.',
  'every file content and allocation behaviour', 'all files and failures', rn('loadFromFile'))
p('Truncated files are detected',
  'Loading a file that was cut short answers false.',
  'every saved file and every cut', 'all crash points of the writer', rn('loadFromFile'))
p('Loading a file has no undefined behaviour',
  'Whatever bytes a file holds, loadFromFile() is defined.',
  'every file content', 'all byte sequences', rn('loadFromFile'))
p('Loaded skip connections are valid for the loading network',
  'After loadFromFile() every connection listed has from < to < number of layers.',
  'every pair of networks', 'all networks', rn('loadFromFile','addSkipConnection'))
p('saveToFile() answers true only if everything was written',
  'If saveToFile() answers true the file holds all connections.',
  'every content and every amount of space on the disk', 'all fault points of the disk', rn('saveToFile'))
p('train() and evaluate() of a residual network work on data sets',
  'train() and evaluate() accept data sets of any number of samples, evaluate() answers an accuracy between 0 and 1.',
  'every network and data set', 'all data sets', rn('train','evaluate','calculateLoss'))
um=lambda *a: ["include/rad_ml/core/memory/unified_memory.hpp:"+x for x in a]
p('isAllocated() and getAllocationInfo() know exactly the live allocations',
  'After any history, isAllocated(p) is true and getAllocationInfo(p) describes the allocation (size, type, array) exactly when p was returned by an allocate call and not deallocated since.',
  'every history of calls, size, flags and protection level', 'all histories', um('isAllocated','getAllocationInfo','allocate','allocateObject','allocateArray'))
p('What allocate() returned can be deallocated',
  'deallocate(p) answers true for every p that allocate() returned, gives the block back to the system and leaves the other allocations as they were.',
  'every history, size, flags and protection level', 'all histories and sizes', um('allocate','deallocate'))
p('Memory statistics balance',
  'current_allocations and current_bytes count the live allocations and their bytes; without resetStats() total_allocations = total_deallocations + current_allocations.',
  'every history of calls', 'all histories', um('getStats','trackAllocation','deallocate'))
p('Peak statistics are the largest values there have been',
  'peak_allocations and peak_bytes equal the maximum of the current values over the history, and are never below the current values.',
  'every history of calls', 'all histories', um('getStats','trackAllocation','resetStats'))
p('resetStats() recomputes the statistics from the live allocations',
  'After resetStats() current and protected counts and bytes are those of the live allocations, all other counters are zero, and allocations, memory and callbacks are untouched.',
  'every history of calls', 'all histories', um('resetStats'))
p('Freeing what is not allocated is rejected without effect',
  'deallocate() of an unknown pointer or a second time answers false and changes nothing; free() is never called for a block that is not live.',
  'every history of calls and every pointer', 'all histories and pointers', um('deallocate'))
p('The bytes an allocation returns are its own',
  'The range [p, p+size) that allocate() returns lies in the block obtained from the system, overlaps no other live allocation, and allocating changes no byte of the others.',
  'every history, size (also near SIZE_MAX), flags and level', 'all sizes and histories', um('allocate','allocateArray','calculateProtectedSize'))
p('Setting up protection stays inside the block',
  'allocate() with any protection level writes only inside the block it obtained.',
  'every size, flags and level', 'all sizes', um('allocate','setupMemoryProtection','calculateProtectedSize'))
p('protectMemory() keeps the contents',
  'protectMemory() of a live allocation changes none of its bytes and writes nothing outside it.',
  'every live allocation and level', 'all sizes and contents', um('protectMemory','setupMemoryProtection'))
p('Protection status and protected statistics agree',
  'An allocation made with a protection level is reported as protected, protect/unprotect set and clear the status, and protected_allocations/protected_bytes count the protected live allocations.',
  'every history of calls', 'all histories', um('protectMemory','unprotectMemory','removeMemoryProtection','getAllocationInfo'))
p('Intact memory verifies',
  'verifyMemoryIntegrity(p) answers true for a live allocation whose bytes were not corrupted.',
  'every live allocation', 'all histories and contents', um('verifyMemoryIntegrity','getDefaultProtectionLevel'))
p('A protected block can be deallocated',
  'deallocate(p) of a live protected allocation frees it and returns.',
  'every history leading to a protected allocation', 'all histories', um('deallocate','verifyMemoryIntegrity'))
p('Canaries stand directly before and behind the caller\'s bytes',
  'With level CANARY the eight bytes before p and the eight bytes from p+size hold the canary, inside the block.',
  'every history, size and flags', 'all sizes', um('allocate','setupMemoryProtection'))
p('ZERO_INITIALIZED zeroes the caller\'s bytes, ALIGNED aligns the pointer',
  'With ZERO_INITIALIZED every byte of [p,p+size) is 0; with ALIGNED p is a multiple of the alignment.',
  'every history, size, level, alignment and block content', 'all sizes, levels and contents', um('allocate'))
p('When the system has no memory nothing changes',
  'If malloc/aligned_alloc fails, allocate answers null with NO_THROW and throws bad_alloc otherwise; the manager is unchanged.',
  'every state, size, flags and level', 'all fault points of the system allocator', um('allocate','allocateObject','allocateArray'))
p('Callback ids are unique and callbacks stay registered until unregistered',
  'registerCorruptionCallback returns an id never returned before; the callback stays registered until unregisterCorruptionCallback(id), which answers whether it was registered.',
  'every history of calls', 'all histories', um('registerCorruptionCallback','unregisterCorruptionCallback'))
p('checkForLeaks() counts the live allocations and destroyed pointer objects leave none',
  'checkForLeaks() answers the number of live allocations; when a RadiationTolerantPtr is reset its memory is no longer allocated.',
  'every history, object size and level', 'all histories', um('checkForLeaks','RadiationTolerantPtr','makeProtected'))
p('RadiationTolerantPtr objects own what they point to',
  'Over every history of make, reset and move, including throwing constructors and failing allocations, every non-null pointer object points to a live allocation, no two to the same, no live allocation is without owner, and no call is undefined.',
  'every history of make/reset/move with level NONE or CRC', 'all histories and fault points', um('RadiationTolerantPtr','makeRadiationTolerant','makeProtected'))
def at(*xs): return ["src/rad_ml/research/architecture_tester.cpp:"+x for x in xs]
p('Reported percentages are sane',
  'testArchitecture answers a baseline accuracy in [50,99], a radiation accuracy in [10,baseline], a preservation in [10,100], and repeats the configuration it was asked about.',
  'every architecture, dropout (also NaN), level, environment and trial, and every answer of the generator', 'all inputs and noise', at('testArchitecture'))
p('Every architecture can be tested',
  'testArchitecture returns for every architecture and dropout rate.',
  'every architecture and dropout', 'all layer lists and doubles', at('testArchitecture'))
p('Errors are accounted for and protection helps',
  'Detected errors = corrected + uncorrectable; without protection nothing is corrected; a stronger level never detects or corrects fewer, whatever dropout, residual flag and trial.',
  'every architecture, level, environment and trial', 'all inputs', at('testArchitecture'))
p('More protection never lowers the reported accuracy',
  'For the same architecture, dropout, environment and trial a stronger protection level never gives a lower radiation accuracy or preservation.',
  'every configuration and pair of levels', 'all inputs and noise', at('testArchitecture'))
p('Harsher environments never raise the reported accuracy',
  'For the same configuration an environment with a higher radiation level never gives a higher radiation accuracy.',
  'every configuration and pair of environments', 'all inputs', at('testArchitecture')+["src/rad_ml/sim/environment.cpp:getRadiationLevel"])
p('Reported accuracies come from training and testing on the data',
  'The result depends on the training and test data and on the number of epochs.',
  'every data set and number of epochs', 'all data sets', at('testArchitecture','testArchitectureMonteCarlo','trainNetwork'))
p('Monte Carlo summaries are sane',
  'testArchitectureMonteCarlo answers mean baseline in [50,99], mean radiation accuracy in [10, mean baseline], mean preservation in [10,100], non-negative finite standard deviations, the number of trials and the configuration.',
  'every configuration, every number of trials from 1 below 2^37, every noise', 'all inputs; rounding of arbitrarily long sums', at('testArchitectureMonteCarlo','calculateMonteCarloStatistics'))
p('Monte Carlo error counts equal those of a single test',
  'The averaged error counts are those of any single test of the same configuration (so detected = corrected + uncorrectable survives averaging).',
  'every configuration and number of trials', 'all inputs', at('testArchitectureMonteCarlo','calculateMonteCarloStatistics'))
p('Monte Carlo trials are different experiments and the seed offset selects them',
  'No two trials of a run seed their generator alike; different seed offsets give different experiments.',
  'every configuration and pair of trials among 2^32', 'all inputs', at('testArchitectureMonteCarlo','testArchitecture'))
p('getBestArchitecture and getOptimalDropout answer the first best recorded result',
  'They answer the architecture and dropout of the first recorded result with the highest preservation for the environment, and the default when there is none; the ordering they hand to the library is a strict weak order.',
  'every list of recorded results and environment', 'all result lists', at('getBestArchitecture','getOptimalDropout'))
p('Every tested architecture is considered for the best',
  'A result answered by testArchitecture is among those getBestArchitecture chooses from.',
  'every history of calls', 'all histories', at('testArchitecture','getBestArchitecture','testArchitectureMonteCarlo'))
p('The results file has one row per recorded result',
  'After any history the file holds what it held, the header if it was new, and one row per recorded result.',
  'every history and initial file', 'all histories', at('saveResultsToFile','ArchitectureTester'))
p('testWidthRange and testDropoutRange test the whole range',
  'They test the values min, min+step, ... up to max.',
  'every range', 'all ranges', at('testWidthRange','testDropoutRange'))
p('The best architecture has the network\'s input and output size',
  'getBestArchitecture answers a layer list that starts with the input size and ends with the output size.',
  'every history of calls and environment', 'all histories', at('getBestArchitecture','testArchitectureMonteCarlo'))
def aa(*s): return ["src/rad_ml/research/auto_arch_search.cpp:"+x for x in s]
def aah(*s): return ["include/rad_ml/research/auto_arch_search.hpp:"+x for x in s]
p('Network configurations are strictly ordered',
  'The order on configurations that keys the table of tested configurations is irreflexive and transitive, and any two different configurations are ordered one way.',
  'every three configurations', 'all configurations, floating point', aah('NetworkConfig::operator<'))
p('Configuration equality agrees with the order',
  'Two configurations are equal exactly when neither is less than the other.',
  'every pair of configurations', 'all pairs, floating point', aah('NetworkConfig::operator==','NetworkConfig::operator<'))
p('Grid search considers exactly the configurations of the grid, each once',
  'The grid holds exactly: input size, then one hidden layer or two of different widths (or every combination of the fixed number), output size, with every dropout option, every protection level and, for four or more layers when asked for, residual connections; without duplicates when the options have none; their number is the product formula.',
  'every list of width, dropout and level options and every fixed number of layers', 'all option lists', aa('generateAllConfigs'))
p('Random and grid search cover the same configurations',
  'A randomly drawn configuration is built from the options; every configuration random search can draw is also in the grid.',
  'every option list and random stream', 'all streams', aa('generateRandomConfig','generateAllConfigs'))
p('Grid search answers the best configuration of the grid',
  'findOptimalArchitecture answers the first grid configuration whose test gives the highest preservation, with its numbers and the size of the grid as iterations; it completes when every grid configuration can be tested.',
  'every option list, environment, number of trials and noise', 'all inputs', aa('findOptimalArchitecture','testConfiguration'))
p('A search always answers a tested configuration',
  'Each search returns numbers that come from a test.',
  'every option list, number of trials and of iterations', 'all inputs', aa('findOptimalArchitecture','randomSearch'))
p('Grid search leaves exactly the results of the grid and of earlier searches',
  'After findOptimalArchitecture the table of tested configurations holds the new result of each grid configuration, and the earlier result of every other configuration.',
  'every earlier table and option list', 'all histories', aa('findOptimalArchitecture'))
p('Random search tests exactly the asked number of new configurations and answers their best',
  'randomSearch(max) that returns has tested max different configurations built from the options, none of them tested before, answers the first best of them, and adds exactly their results to the table.',
  'every random stream, earlier table, maximum and number of trials', 'all streams and histories', aa('randomSearch','generateRandomConfig'))
p('Random search ends',
  'randomSearch returns for every maximum.',
  'every option list, earlier table and random stream', 'a hang cannot be tested for', aa('randomSearch'))
p('A search answers the best configuration tested so far',
  'No configuration in the table of tested configurations is better than the one a search returns.',
  'every history of searches', 'all histories', aa('randomSearch','findOptimalArchitecture'))
p('Evolutionary search keeps its population valid and its best',
  'Every generation has the same number of configurations, all built from the options; the first of each generation is a best one of the generation before; the answer is the first best of all configurations evaluated, known results being reused; it completes when every configuration can be tested.',
  'every random stream, mutation rate, population size and number of generations', 'all streams', aa('evolutionarySearch','mutateConfig','crossoverConfigs','generateRandomConfig'))
p('Evolutionary search is defined for every population size and number of generations',
  'evolutionarySearch answers also for an empty population or no generation.',
  'every size and number', 'all inputs', aa('evolutionarySearch'))
p('No configuration is tested twice',
  'A search runs as many tests as the table of tested configurations grows.',
  'every search and earlier table', 'all histories', aa('findOptimalArchitecture','randomSearch','evolutionarySearch'))
p('The constructor reads the network\'s sizes off the data',
  'Input size = data per label; output size = number of different labels when that is between 2 and 99, else 1; the tester gets the same sizes.',
  'every data set', 'all data sets', aa('AutoArchSearch'))
p('After a search the results file has one row per tested configuration',
  'The file holds the header and one row for each entry of the table, in order, and nothing else.',
  'every search and earlier content', 'all histories', aa('exportResults','findOptimalArchitecture','randomSearch','evolutionarySearch'))
p('The table of tested configurations stays sound',
  'After any history of searches and settings the table is sorted, has no configuration twice, loses none, and each result is about its configuration, with a preservation in [10,100].',
  'every history of calls', 'all histories', aa('findOptimalArchitecture','randomSearch','evolutionarySearch','setFixedParameters','setProtectionLevels'))
def va(*s): return ["src/rad_ml/research/variational_autoencoder.cpp:"+x for x in s]
def vah(*s): return ["include/rad_ml/research/variational_autoencoder.hpp:"+x for x in s]
p('encode answers latent_dim means and log-variances in [-10, 10]',
  'For an input of input_dim values (NaN and infinities included) encode returns latent_dim means and latent_dim log-variances, each a finite number between -10 and 10, at any radiation; any other size is refused with invalid_argument.',
  'every autoencoder, history, input and radiation', 'all inputs including NaN, all histories', va('encode'))
p('Encoding and decoding are functions of the input',
  'At radiation where nothing is voted on, encode and decode return the same numbers for the same input whatever the random numbers, and leave every later answer unchanged.',
  'every autoencoder, input and random numbers', 'all inputs and random streams', va('encode','decode'))
p('The autoencoder can reproduce its inputs',
  'forward can answer any input vector; decoded values are not confined to a fixed range.',
  'every autoencoder, input and latent vector', 'all weights and inputs', va('forward','decode','initializeDecoder','applyInverseLogarithmics'))
p('sample is a function of mean, log-variance and seed',
  'Coordinate i is mean + exp(log_var/2) * noise_i (or the configured variant) where the noise depends on the seed modulo 2^32 only; seed 0 asks the generator; vectors shorter than latent_dim are not accepted silently.',
  'every vector, seed and sampling technique', 'all inputs and seeds', va('sample'))
p('Latent protection keeps the latent values',
  'protectLatentVariables returns the values it was given, and counts corrected errors only when it removed one.',
  'every latent vector, radiation and noise', 'all values and random streams', va('protectLatentVariables'))
p('Interpolation starts at the first vector and ends at the second',
  'interpolate at alpha 0 decodes the first latent vector and at alpha 1 the second; results have input_dim values; vectors of the wrong size are refused.',
  'every pair of vectors, alpha, radiation and option', 'all vectors', va('interpolate'))
p('generate answers the requested number of samples',
  'generate(k) returns k vectors of input_dim values, those the decoder makes of the seed\'s normal numbers in order, and changes no weight.',
  'every count, seed and radiation', 'all counts and seeds', va('generate'))
p('Training fits the autoencoder to the data',
  'train and trainProduction change the weights so that later answers differ.',
  'every training set, option and schedule', 'all data and histories', va('train','trainProduction','updateWeights','updateWeightsWithOptimizer'))
p('train returns the mean loss of the last epoch',
  'The result is the sum of the batch means divided by the number of batches.',
  'every data set, batch size and shuffle', 'all sizes', va('train','calculateLoss'))
p('Training terminates for every batch size',
  'train and trainProduction answer or throw for every configured batch size.',
  'every batch size and data set', 'non-termination', va('train','createBatches'))
p('The validation split partitions the data',
  'Every sample is in exactly one of the two sets, and the training set has about (1 - validation_split) of them; every split between 0 and 1 is accepted.',
  'every data set, shuffle and split', 'all sizes, floating point', va('splitTrainValidation'))
p('Batches cover the data in order',
  'createBatches cuts the data into consecutive non-empty batches of at most batch_size samples; a negative batch size means one batch.',
  'every data set and non-zero batch size', 'all sizes', va('createBatches'))
p('Early stopping follows the validation losses',
  'trainProduction runs until the epochs or the patience are used up, not longer; the metrics have one entry per epoch, best_val_loss, best_epoch and epochs_without_improvement are those of the recorded validation losses, and each recorded loss is the mean over batches of means over samples.',
  'every data set, option, shuffle and random stream', 'all histories of losses, NaN included', va('trainProduction'))
p('trainProduction on little data has usable losses',
  'The recorded losses are numbers for every non-empty data set and split.',
  'every data set and split', 'all sizes', va('trainProduction','splitTrainValidation'))
p('Error statistics are consistent',
  'Corrected never exceeds detected, reset sets both to 0, injecting radiation and passes without votes count nothing.',
  'every history of calls', 'all histories', va('getErrorStats','resetErrorStats','applyRadiationEffects'))
p('loadModel restores what saveModel wrote',
  'Loading a file written by saveModel succeeds.',
  'every autoencoder and file content', 'all files', va('saveModel','loadModel'))
p('loadFromFile restores what saveToFile wrote',
  'Loading a saved file restores dimensions, options and weights.',
  'every autoencoder and random numbers', 'all weights', va('saveToFile','loadFromFile'))
p('An autoencoder can be destroyed after any use',
  'Destroying an autoencoder that was built, copied or loaded is defined.',
  'every history and loaded file', 'all histories', va('loadFromFile')+vah('VAEConfig'))
p('Loading a bad file fails and leaves the object as it was',
  'A truncated or unusable file makes loadFromFile return false and the object keeps working.',
  'every file content', 'all files', va('loadFromFile'))
p('train accepts every latent dimension',
  'With use_interpolation, train is defined for every ratio of latent and input dimensions.',
  'every dimension and data set', 'all dimensions', va('train','calculateLoss','computeInterpolationLoss'))
p('Copies answer like the original',
  'A copy-constructed or assigned autoencoder has the weights, dimensions, options and error counts of the original and gives the same answers; the metrics are not copied.',
  'every autoencoder', 'all states', va('VariationalAutoencoder','operator='))
p('Only radiation changes the weights',
  'applyRadiationEffects changes no dimension, option, metric or count and nothing at radiation 0 or below; no history of other calls changes a weight.',
  'every history of calls', 'all histories', va('applyRadiationEffects'))
p('setConfig cannot break the autoencoder',
  'Setting any configuration keeps the dimensions (latent_dim in it is ignored) and encoding and decoding keep working.',
  'every configuration', 'all configurations', vah('setConfig','getLatentDim','getInputDim'))
p('evaluate is the mean reconstruction loss',
  'evaluate returns the sum of the samples\' mean squared errors over their number and changes nothing; NaN for no data.',
  'every data set and random stream', 'all data', va('evaluate','computeReconstructionLoss'))
p('evaluateComprehensive reports mean total, KL and reconstruction losses',
  'Each entry is the mean over the samples of the loss it names; total = reconstruction + beta * KL per sample; nothing changes.',
  'every data set and random stream', 'all data', va('evaluateComprehensive','computeKLDivergence'))
p('An autoencoder stays usable',
  'After any history of calls forward answers input_dim values for an input of that size, refuses others, and dimensions and protection level are those of the constructor.',
  'every history of calls, input and radiation', 'all histories', va('forward'))
def hw(*a): return ["include/rad_ml/hw/hardware_acceleration.hpp:"+x for x in a]
p('Accelerator reliability is a score between 0 and 0.999',
  'calculate_reliability answers a finite number between 0 and 0.999 for every configuration and every SEU rate, NaN and infinities included.',
  'every configuration and double', 'all rates and configurations', hw('HardwareAccelerator::calculate_reliability'))
p('An unknown SEU rate is not scored as the best one',
  'calculate_reliability of a rate that is not a number does not answer the top score.',
  'every configuration and rate', 'all configurations', hw('HardwareAccelerator::calculate_reliability'))
p('A harder environment never scores better',
  'calculate_reliability never grows with the SEU rate, overflow and infinities included.',
  'every configuration and pair of rates', 'all pairs of doubles', hw('HardwareAccelerator::calculate_reliability'))
p('More hardware protection never scores worse',
  'With the same accelerator type, adding ECC, a stronger TMR approach or a stronger scrubbing strategy never lowers the score.',
  'every pair of ordered configurations and every rate', 'all rates', hw('HardwareAccelerator::calculate_reliability'))
p('The score depends on type, ECC, TMR and, for an FPGA, scrubbing only',
  'Configurations that agree on these score the same at every rate.',
  'every pair of configurations and every rate', 'all configurations and rates', hw('HardwareAccelerator::calculate_reliability'))
p('More hardware protection scores strictly better',
  'A stronger TMR approach gives a higher score.',
  'every type and protection', 'all configurations', hw('HardwareAccelerator::calculate_reliability'))
p('An accelerator that is not there has no reliability',
  'calculate_reliability of type NONE does not promise reliability.',
  'every configuration of type NONE and every rate', 'all rates', hw('HardwareAccelerator::calculate_reliability','HardwareAccelerator::is_available'))
p('An accelerator is what its last configuration says',
  'After any history of calls get_config is the last configuration set, is_available and initialize tell whether its type is not NONE; the base class never executes, never scrubs and leaves the output buffer alone.',
  'every history of calls', 'all histories', hw('HardwareAccelerator::update_config','HardwareAccelerator::execute','HardwareAccelerator::is_available'))
p('Errors are counted',
  'get_error_stats counts executions that failed.',
  'every history of calls', 'all histories', hw('HardwareAccelerator::get_error_stats','HardwareAccelerator::log_error'))
p('The factory makes the accelerator it is asked for',
  'create_accelerator(type, config) has that type and every other setting of config, with no errors counted.',
  'every type and configuration', 'all configurations', hw('HardwareAcceleratorFactory::create_accelerator'))
p('Only detected hardware can be initialised',
  'An accelerator of a type detect_available_accelerators reports missing is not available and does not initialise.',
  'every type and configuration', 'all types and configurations', hw('HardwareAcceleratorFactory::detect_available_accelerators','HardwareAcceleratorFactory::create_accelerator'))
p('create_best_available makes the first detected type in the order of preference',
  'The type is detected, no preferred type is, the other settings are kept; it is type NONE, whatever type the configuration asks for.',
  'every configuration', 'all configurations', hw('HardwareAcceleratorFactory::create_best_available'))
p('An initialised integration can execute',
  'After a successful initialize, TMRAcceleratorIntegration::execute can succeed.',
  'every history of calls, input and buffer', 'all histories', hw('TMRAcceleratorIntegration::execute','TMRAcceleratorIntegration::initialize'))
p('initialize succeeds exactly when a configuration with a type is in force',
  'It fails on a fresh integration whatever its configuration, until get_accelerator().update_config sets a type other than NONE.',
  'every history of calls', 'all histories', hw('TMRAcceleratorIntegration::initialize'))
p('Software TMR is what the last decision says',
  'After any history software TMR is on unless the last of set_software_tmr and initialize under a COMPLETE configuration turned it off.',
  'every history of calls', 'all histories', hw('TMRAcceleratorIntegration::set_software_tmr','TMRAcceleratorIntegration::initialize'))
p('Results are always protected by hardware or software TMR',
  'Without set_software_tmr(false), an initialised integration uses software TMR or complete hardware TMR.',
  'every history of calls', 'all histories', hw('TMRAcceleratorIntegration::initialize'))
p('Software TMR runs the accelerator three times',
  'execute runs any accelerator three times in a row on zeroed buffers; if one run fails it answers false and leaves the output alone, else it answers true with an output of the same size; without software TMR it is one run.',
  'every accelerator, state, input and buffer', 'all accelerators', hw('TMRAcceleratorIntegration::execute'))
p('One faulty run is outvoted',
  'If two of the three runs answer the same numbers, so does execute, whatever the third answers and whichever it is.',
  'every accelerator, input and fault', 'all faults', hw('TMRAcceleratorIntegration::execute'))
p('Without a majority the answer is the mean',
  'An element on which no two runs agree is the mean of the three, up to rounding.',
  'every three floats', 'all floats', hw('TMRAcceleratorIntegration::execute'))
p('NaN is outvoted by two equal numbers and by nothing else',
  'An element is NaN when two answers are, or when one is and the others differ; it is not NaN when two answers are equal.',
  'every three floats', 'all floats', hw('TMRAcceleratorIntegration::execute'))
p('execute stays within its buffers',
  'execute is defined whatever size of output the accelerator answers.',
  'every accelerator and buffer', 'all accelerators', hw('TMRAcceleratorIntegration::execute'))
p('The combined score is the two-out-of-three probability',
  'calculate_system_reliability is between 0 and 1; with software TMR it is within 1e-12 of 3p^2 - 2p^3 for the accelerator\'s score p, without it is p.',
  'every integration and rate', 'all rates', hw('TMRAcceleratorIntegration::calculate_system_reliability'))
p('Software TMR never lowers the combined score',
  'Turning software TMR on gives at least the score without it.',
  'every integration and rate', 'all rates', hw('TMRAcceleratorIntegration::calculate_system_reliability','TMRAcceleratorIntegration::set_software_tmr'))
p('The diagnostics tell the protection',
  'Equal diagnostics of two integrations mean the same type, ECC, TMR approach, scrubbing strategy and use of software TMR.',
  'every pair of integrations', 'all texts', hw('TMRAcceleratorIntegration::get_diagnostics','HardwareAccelerator::get_diagnostics'))
def qf(*a): return ['src/rad_ml/physics/quantum_field_theory.cpp:'+x for x in a]
def qm(*a): return ['src/rad_ml/physics/quantum_models.cpp:'+x for x in a]
def qe(*a): return ['src/rad_ml/physics/quantum_enhanced_radiation.cpp:'+x for x in a]
p('A quantum field is built or its grid refused',
  'The constructor answers a field of the requested grid, spacing and particle or throws: invalid_argument for the wrong number of dimensions, overflow_error or length_error for grids that are too large or have negative sides.',
  'every list of int sizes', 'all grids', qf('QuantumField::QuantumField'))
p('Positions outside the grid are refused',
  'getFieldAt and setFieldAt throw invalid_argument for the wrong number of coordinates and out_of_range outside the grid; a fresh field of up to 2^31 points is zero everywhere.',
  'every grid and position', 'all positions', qf('QuantumField::getFieldAt','QuantumField::setFieldAt','QuantumField::calculateIndex'))
p('A point read back is the point written',
  'For every position inside a constructed field setFieldAt then getFieldAt answers the value written and every other point keeps its value.',
  'every constructed field, pair of positions and value', 'all grids and positions', qf('QuantumField::getFieldAt','QuantumField::setFieldAt','QuantumField::calculateIndex'))
p('A field remembers its writes',
  'After any history of accepted and refused writes and type changes a point holds the last value written to it, zero if none, and the grid and spacing are those of construction.',
  'every history of calls', 'all histories', qf('QuantumField::getFieldAt','QuantumField::setFieldAt'))
p('A coherent state has the requested amplitude and phase everywhere',
  'initializeCoherentState sets every point to the amplitude at the phase times exp(-d^2), d the distance from the centre, and keeps grid, spacing and type.',
  'every field of up to 2^31 points, amplitude and phase', 'all grids', qf('QuantumField::initializeCoherentState'))
p('evolve repeats one point-wise step',
  'evolve(n) applies the same rotation and damping n times to every point, nothing for n <= 0, does not depend on the particle type, and evolve(n+m) is evolve(n) then evolve(m).',
  'every field, parameters and numbers of steps', 'all fields and steps', qf('QuantumField::evolve'))
p('A Klein-Gordon step rotates and damps each point of its own particle',
  'evolveField throws invalid_argument for a field of another particle type; otherwise each point is rotated by time_step * phase rate and scaled by the position and damping factors of its own coordinates.',
  'every field and parameters', 'all fields', qf('KleinGordonEquation::evolveField'))
p('A Dirac step evolves its field',
  'DiracEquation::evolveField changes a field of its particle type by one time step.',
  'every field and parameters', 'all fields', qf('DiracEquation::evolveField'))
p('A Maxwell step mixes two photon fields',
  'evolveField throws invalid_argument unless both fields are photon fields and runtime_error without a photon coupling; otherwise each point of both fields becomes the mix by the coupling clamped to [0,1], with the position and damping factors.',
  'every two fields of one grid and parameters', 'all fields', qf('MaxwellEquations::evolveField'))
p('A Maxwell step that throws leaves both fields alone',
  'When MaxwellEquations::evolveField throws no point of either field has changed.',
  'every two fields', 'all fields', qf('MaxwellEquations::evolveField'))
p('The energy of a field is not negative',
  'calculateTotalEnergy throws runtime_error for a particle without a mass, is never negative for a positive mass, and is zero for the vacuum.',
  'every field and parameters', 'all fields', qf('QuantumField::calculateTotalEnergy'))
p('The multi-particle simulation makes the requested number of steps',
  'simulateMultiParticleInteraction(fields, params, n) evolves the fields by n steps and answers one energy change per field.',
  'every list of fields and number of steps', 'all lists and steps', qm('simulateMultiParticleInteraction'))
p('The multi-particle simulation refuses unknown particles before it changes anything',
  'If a particle has no mass it throws runtime_error and no field changes; fields of electrons, protons, positrons and muons keep every point and have energy change zero.',
  'every list of fields', 'all lists', qm('simulateMultiParticleInteraction'))
p('The tunnelling probability is a probability',
  'calculateQuantumTunnelingProbability returns a number between 0 and 1.',
  'every barrier, mass, hbar and temperature', 'doubles; std::exp is abstract', qf('calculateQuantumTunnelingProbability'))
p('Tunnelling needs a positive barrier, mass and hbar',
  'With a barrier, mass or hbar of at most zero the probability is 0; the overload for a particle type throws runtime_error if the type has no mass and otherwise uses exactly that mass.',
  'every barrier, temperature, parameters and particle', 'doubles', qf('calculateQuantumTunnelingProbability'))
p('The critical charge follows its temperature law',
  'calculateTemperatureCriticalCharge(base, T) lies between half of base and base * (0.71 + T/1000).',
  'every material, base charge and temperature of physical size', 'doubles; std::exp is abstract', qe('QuantumEnhancedRadiation::calculateTemperatureCriticalCharge'))
p('The bit flip probability is a probability',
  'calculateEnhancedBitFlipProbability returns a number between 0 and 1 for every charge, even an infinite one, and 0 for a charge of at most zero.',
  'every material, device, temperature and charge but NaN', 'doubles; std::exp and std::pow are abstract', qe('QuantumEnhancedRadiation::calculateEnhancedBitFlipProbability'))
p('More charge makes a flip likelier',
  'If c1 <= c2 then the bit flip probability of c1 is at most that of c2.',
  'every two charges, material, device and temperature', 'pairs of doubles', qe('QuantumEnhancedRadiation::calculateEnhancedBitFlipProbability'))
p('A multi-bit upset has one to eight bits in proportion to the charge',
  'calculateQuantumMBUSize is 1 below twice the critical charge, otherwise the charge over twice the critical charge times the clustering of the particle, rounded up and at most 8.',
  'every material, charge and particle', 'doubles', qe('QuantumEnhancedRadiation::calculateQuantumMBUSize'))
p('Multi-bit upsets grow with the charge and are largest for heavy ions',
  'More charge never gives a smaller upset, and a heavy ion never a smaller one than another particle of the same charge.',
  'every two charges, material and particle', 'pairs of doubles', qe('QuantumEnhancedRadiation::calculateQuantumMBUSize'))
p('The deposited charge depends on the particle energy and is proportional to the LET',
  'calculateQuantumChargeDeposition(energy, let, type) depends on the energy, lies between 0.249 and 0.279 * (1 + kT/gap) fC per unit of LET, and throws runtime_error for particles without a mass.',
  'every material, energy, LET and particle', 'doubles', qe('QuantumEnhancedRadiation::calculateQuantumChargeDeposition'))
p('Quantum corrections touch exactly the particle types asked for',
  'applyQuantumFieldCorrections multiplies all defects of an asked type by three factors that depend on neither the defects nor the list, leaves other types alone, throws runtime_error if an asked type has no mass, ignores order and repetition in the list, and takes an empty list as all types that occur.',
  'every defect distribution, crystal, parameters, temperature and list', 'all maps and lists', qf('applyQuantumFieldCorrections'))
p('Quantum corrections are capped',
  'No defect is multiplied by less than 1 or more than 1 + kT/B.',
  'every defect distribution, crystal, parameters and temperature', 'doubles', qf('applyQuantumFieldCorrections'))
p('Transition probabilities are probabilities in a fixed order',
  'calculateQuantumTransitionProbability is between 0 and 1, grows with the energy, falls with the temperature, and is largest for photons, then electrons, then others.',
  'every energy, temperature, parameters and particle', 'pairs of doubles', qm('calculateQuantumTransitionProbability'))
p('Displacement energies are tens of electron volts',
  'calculateDisplacementEnergy gives about 62.6 eV for protons and 20.9 eV for electrons in silicon as documented, at least the share of the lattice energy in general, and throws runtime_error for particles without a mass.',
  'every crystal, parameters and particle', 'doubles', qm('calculateDisplacementEnergy'))
p('Displacement cascades conserve defects and have a threshold',
  'simulateDisplacementCascade leaves no defects when the energy does not exceed the displacement energy; otherwise floor(0.8 E/E_d) defects are shared among vacancies, interstitials and clusters in the documented fractions.',
  'every energy, displacement energy and particle', 'doubles', qm('simulateDisplacementCascade'))
p('Decoherence is never slower than its base rate and grows with heat and defects',
  'calculateQuantumDecoherence is at least the base rate, and grows with the temperature and with each defect count.',
  'every defect distributions, temperatures, rates and particle', 'all lists of doubles', qm('calculateQuantumDecoherence'))
p('Device sensitivity is relative to a baseline of one',
  'calculateDeviceSensitivity is 1.0 for the baseline device, keeps the documented order of the devices and falls with the feature size.',
  'every material, device and feature size', 'doubles', qe('QuantumEnhancedRadiation::calculateDeviceSensitivity'))
p('Radiation applied to memory stays inside it and reports the flips',
  'applyQuantumEnhancedRadiation does nothing for null or empty memory; otherwise it keeps the length, changes only bytes that were drawn, and returns a count that bounds the number of differing bits, has its parity, and is at most 8 per impact, or 1 per impact while the charge is below the multi-bit threshold.',
  'every buffer, random numbers, particle, device and duration', 'all buffers and random sequences', qe('QuantumEnhancedRadiation::applyQuantumEnhancedRadiation'))
p('Radiation can be applied for any duration',
  'applyQuantumEnhancedRadiation is defined for every duration a uint32_t can hold.',
  'every buffer and duration', 'all buffers', qe('QuantumEnhancedRadiation::applyQuantumEnhancedRadiation'))
p('No energy transfer, no flips; unknown particles are rejected',
  'With a LET of zero memory stays as it is and 0 is returned; a particle without a mass makes it throw runtime_error before anything is changed.',
  'every buffer, random numbers, device and duration', 'all buffers and random sequences', qe('QuantumEnhancedRadiation::applyQuantumEnhancedRadiation'))
def ev(*a): return ["include/rad_ml/radiation/environment.hpp:"+x for x in a]
def sm(*a): return ["include/rad_ml/radiation/space_mission.hpp:"+x for x in a]
p('The environment at a mission time is that of the phase in progress',
  'getEnvironmentAtTime returns the environment of the phase whose interval contains the time (counting from the start, ends excluded), that of the last phase after the end, and null for a mission without phases.',
  'every mission with non-negative durations within 64 bits and every time', 'all lists of phases and times', sm('SpaceMission::getEnvironmentAtTime'))
p('Every time of a mission has an environment',
  'getEnvironmentAtTime is defined for every time and every mission whose phases have legal durations.',
  'every mission and time', 'all lists of phases and times', sm('SpaceMission::getEnvironmentAtTime'))
p('The worst-case environment has the highest flux, the earliest on ties',
  'getWorstCaseEnvironment returns null only if no phase has an environment; otherwise the environment of a phase with flux at least that of all phases and above that of all earlier ones.',
  'every mission and environments with numeric fluxes', 'all lists of phases', sm('SpaceMission::getWorstCaseEnvironment'))
p('The worst case covers every numeric flux',
  'The flux of the environment returned by getWorstCaseEnvironment is at least every flux of the mission that is a number.',
  'every mission and environments', 'all lists of phases and floats, NaN included', sm('SpaceMission::getWorstCaseEnvironment'))
p('Total radiation exposure is flux times time within 1/4000000',
  'calculateTotalRadiationExposure is finite and within a relative 1/4000000 of the exact sum of flux times duration.',
  'every mission of up to 1000 phases with fluxes that are 0 or between 2^-60 and 2^30', 'all lists of phases and floats', sm('SpaceMission::calculateTotalRadiationExposure'))
p('Adding a phase never lowers the exposure',
  'The exposure of a mission without phases is 0, never falls when a phase is added and stays the same when that phase has no environment.',
  'every mission and phase', 'all lists of phases and floats', sm('SpaceMission::calculateTotalRadiationExposure', 'SpaceMission::addPhase'))
p('Standard missions are well formed',
  'createStandardMission gives the name asked for or the default name, the target asked for, at least one phase, positive durations that fit in 64 bits together, and for each phase a new environment with a positive finite flux; no existing environment is changed.',
  'every target, name and prior environments', 'all heaps', sm('SpaceMission::createStandardMission'))
p('Targets without a configuration get the low-earth-orbit one; the worst phase is as documented',
  'Targets other than LEO, GEO, Moon, Mars, Jupiter and the solar probe get the phases of a LEO mission, and the worst-case environment of a standard mission is that of its documented hardest phase.',
  'every target, name and prior environments', 'all heaps', sm('SpaceMission::createStandardMission', 'SpaceMission::getWorstCaseEnvironment'))
p('Phases of a standard mission are independent',
  'Changing the environment of one phase of a standard mission leaves the environment of every other phase as it was.',
  'every target, name, change and pair of phases', 'all heaps', sm('SpaceMission::configureMarsMission', 'SpaceMission::configureLunarMission'))
p('Missions are independent',
  'Changing an environment of one standard mission leaves the environments of any other standard mission as they were.',
  'every two targets, names, changes and phases', 'all heaps', sm('SpaceMission::createStandardMission'))
p('The last setting of an environment is what it answers',
  'After any sequence of setSEUFlux, setSEUCrossSection and setProperty, getters return the last value set, getProperty its default for keys never set, and type, name and other environments are as before.',
  'every sequence of settings', 'all histories', ev('Environment::setProperty', 'Environment::getProperty', 'Environment::setSEUFlux'))
p('Predefined environments are fresh and ordered by severity',
  'Each createEnvironment call returns a new object of the asked type, leaves earlier ones alone, and the fluxes follow ground < avionic < LEO = Mars < lunar < MEO < GEO < Jupiter < solar flare.',
  'every two types and prior environments', 'all heaps', ev('Environment::createEnvironment'))
def nr(*s): return ['include/rad_ml/neural/radiation_environment.hpp:'+x for x in s]
p('Every flux is finite and not negative',
  'At every place on or above the Earth calculateRadiationFlux returns four finite numbers between 0 and 2^27, for each mission and after every sequence of setSolarActivity, setShielding and simulateSolarFlare with an activity that is a number and a thickness and intensity that are not negative.',
  'every mission, history of calls and position', 'all histories and floats', nr('RadiationEnvironment::calculateRadiationFlux'))
p('The upset probability is a probability',
  'calculateSEUProbability is between 0 and 1 for each mission, position and history of legal calls.',
  'every mission, history of calls and position', 'all histories and floats', nr('RadiationEnvironment::calculateSEUProbability'))
p('The solar activity stays between 0 and 1',
  'After legal calls the activity is between 0 and 1; a value in that range is taken exactly; a flare of intensity i sets it to the smaller of 1 and activity + i/2 (to 1e-12) and never lowers it.',
  'every history of legal calls, activity and intensity', 'all histories and floats', nr('RadiationEnvironment::setSolarActivity', 'RadiationEnvironment::simulateSolarFlare'))
p('No argument can break the solar activity',
  'Whatever values are given to setSolarActivity and simulateSolarFlare, the activity stays between 0 and 1 and fluxes stay numbers that are not negative.',
  'every history of calls', 'all histories and floats, NaN included', nr('RadiationEnvironment::setSolarActivity', 'RadiationEnvironment::simulateSolarFlare'))
p('A flare is temporary',
  'A simulated flare raises the activity temporarily: normal conditions come back without the caller setting the activity.',
  'every mission, intensity, later history and position', 'all histories', nr('RadiationEnvironment::simulateSolarFlare', 'RadiationEnvironment::solar_flare_decay_'))
p('A new environment has a defined shielding',
  'Two environments made for the same mission and used alike give the same fluxes.',
  'every mission, history and position, and every content of uninitialised memory', 'depends on uninitialised memory', nr('RadiationEnvironment::RadiationEnvironment', 'RadiationEnvironment::updateShieldingEffectiveness'))
p('A thicker shield never lets more through',
  'Of two histories that differ only in the thickness of the last shield, the one with the thicker shield never has a larger flux, dose or upset probability.',
  'every mission, history, material, pair of thicknesses and position', 'all histories and floats', nr('RadiationEnvironment::setShielding', 'RadiationEnvironment::applyShielding'))
p('The factor a flare returns is the rise in flux',
  'simulateSolarFlare returns the factor by which the flux increases.',
  'every history, intensity and position', 'all histories and floats', nr('RadiationEnvironment::simulateSolarFlare'))
p('How the fluxes depend on the activity',
  'With all else equal, electrons follow 1.5 + 4.7a, protons 2 + 9.7a and heavy ions 1 - 0.3a, to 1e-3.',
  'every mission, history, pair of activities and position', 'all histories and floats', nr('RadiationEnvironment::applySolarActivityEffects'))
p('Missions are ordered by severity',
  'At equal position and history no flux, dose or upset probability of GEO exceeds that of the Moon, of LEO or of MEO, nor the Moon\'s that of Mars, nor that of Mars that of Jupiter.',
  'every history and position', 'all histories and floats', nr('RadiationEnvironment::calculateRadiationFlux'))
p('A solar probe sees more radiation than a geostationary satellite',
  'For a solar probe the flux is increased by the nearness of the Sun.',
  'every history and position', 'all histories', nr('RadiationEnvironment::calculateRadiationFlux'))
p('The South Atlantic Anomaly shows in low orbits and only inside its bounds',
  'In low orbit, at equal latitude and altitude, two places more than 20.01 degrees from (-30, -40) have the same flux; no other place has less; and behind no shield a place within 10 degrees has at least 900000 more protons.',
  'every history and pair of places', 'all histories and floats', nr('RadiationEnvironment::createSAAModel', 'RadiationEnvironment::calculateRadiationFlux'))
p('A full turn of longitude changes nothing',
  'Longitudes that differ by 360 degrees name the same place and have the same flux.',
  'every mission, history and position', 'all histories and floats', nr('OrbitalPosition', 'RadiationEnvironment::createSAAModel'))
p('Away from the belts, higher latitude and altitude never mean less radiation',
  'For missions other than LEO and MEO flux, dose and upset probability never fall when the absolute latitude or the altitude grows.',
  'every history and pair of positions', 'all histories and floats', nr('RadiationEnvironment::createGCRModel'))
p('A heatmap has the probability of each point of the trajectory',
  'generateHeatmap returns one probability in [0, 1] per position, in order, equal to calculateSEUProbability there; the heatmap of joined trajectories is the joined heatmaps.',
  'every mission, history and trajectory', 'all lists', nr('RadiationEnvironment::generateHeatmap'))
p('A generated position lies on its orbit',
  'For times from the epoch on, generateOrbitPosition keeps the altitude, its latitude does not exceed the inclination and its longitude is in [-180, 180).',
  'every inclination, altitude up to 1e8 km and time up to 1e12 h', 'all floats', nr('RadiationEnvironment::generateOrbitPosition', 'RadiationEnvironment::calculateOrbitPeriod'))
p('Positions before the epoch are valid too',
  'For negative times the longitude of generateOrbitPosition is in [-180, 180) as well.',
  'every inclination, altitude and time', 'all floats', nr('RadiationEnvironment::generateOrbitPosition'))
p('Distance is symmetric',
  'distanceTo gives the same double both ways, for all positions, NaN and infinite coordinates included.',
  'every two positions', 'all floats', nr('OrbitalPosition::distanceTo'))
p('The distance of a position to itself is zero',
  'distanceTo of a position to itself is exactly 0.',
  'every position with finite coordinates and a latitude up to 360 degrees', 'all floats', nr('OrbitalPosition::distanceTo'))
p('Dose and total flux follow from the particle fluxes',
  'The dose rate is electrons/1000 + protons/100 + ions/10 and getTotalFlux their sum, to 1e-4.',
  'every mission, history and position', 'all histories and floats', nr('RadiationFlux::getTotalFlux', 'RadiationEnvironment::applyShielding'))
def ph(*names): return ['include/rad_ml/sim/physics_radiation_simulator.hpp:' + n for n in names]
p('Error rates of the physics simulator are finite and positive',
  'get_error_rates lists each of the seven effects once, with a rate between 2^-22 and 2048 per megabit and day, after any history of calls and for NaN or infinite shielding and activity.',
  'every memory size, trajectory, history of calls and argument', 'all floats and histories', ph('PhysicsRadiationSimulator::get_error_rates', 'PhysicsRadiationSimulator::set_solar_activity', 'PhysicsRadiationSimulator::set_shielding'))
p('A shield removes at most 99 percent of the errors and never adds any',
  'With any shielding thickness every rate is between 1/100 of the unshielded rate (up to 1e-9) and the unshielded rate; zero, negative and NaN thickness count as no shield.',
  'every history, thickness and effect', 'all floats', ph('PhysicsRadiationSimulator::calculate_shielding_factor'))
p('A thicker shield never raises an error rate',
  'For thicknesses t <= t\' no rate with t\' exceeds the rate with t.',
  'every history and pair of thicknesses, infinite ones included', 'all floats', ph('PhysicsRadiationSimulator::calculate_shielding_factor', 'PhysicsRadiationSimulator::get_error_rates'))
p('Error rates follow the published law',
  'Unshielded, each rate is base probability x environment level x activity effect x 10^6 to a relative 1e-10.',
  'every history and effect', 'all floats', ph('PhysicsRadiationSimulator::get_error_rates', 'PhysicsRadiationSimulator::calculate_solar_modifier', 'RadiationEffect'))
p('Harsher environments have higher rates',
  'Among environments with the same solar response (near Earth; deep space) a higher level gives strictly higher rates; interplanetary space and Mars orbit agree exactly.',
  'every history, pair of environments and effect', 'all floats', ph('PhysicsRadiationSimulator::calculate_environment_modifiers', 'PhysicsRadiationSimulator::set_environment'))
p('Solar activity is clamped to 0..1',
  'Activity above 1, and NaN, acts as 1, activity below 0 as 0; a solar storm ignores activity; elsewhere full activity at least doubles the quiet rates.',
  'every history and activity', 'all floats', ph('PhysicsRadiationSimulator::set_solar_activity', 'PhysicsRadiationSimulator::calculate_solar_modifier'))
p('Simulated events respect the bit range of their effect',
  'Each event of simulate_period affects a number of bits in the range of its effect, and events come grouped by effect in a fixed order.',
  'every history, period and random sequence', 'all random sequences', ph('PhysicsRadiationSimulator::simulate_period'))
p('The number of events follows the reported rate',
  'The number of events of each effect is a Poisson draw with mean rate/10^6 x days x bits, to a relative 1e-9.',
  'every history, memory size, period from 1e-6 to 1e9 days and random sequence', 'all floats and random sequences', ph('PhysicsRadiationSimulator::simulate_period', 'PhysicsRadiationSimulator::get_error_rates'))
p('A period of zero length or an empty memory produces no events',
  'simulate_period of zero, negative or NaN days, or with no memory bits, returns without undefined behaviour.',
  'every history and period', 'undefined behaviour is invisible to a test', ph('PhysicsRadiationSimulator::simulate_period'))
p('A mission is simulated segment by segment',
  'simulate_mission returns one report per environment of the trajectory, in order, each counting the events of a run of that segment\'s duration in that segment\'s environment.',
  'every simulator, trajectory and random sequence', 'all random sequences', ph('PhysicsRadiationSimulator::simulate_mission'))
p('Simulating a mission does not change the simulator',
  'After simulate_mission or simulate_mission_tid the chosen environment, shielding, activity and trajectory are as before.',
  'every simulator and mission', 'all histories', ph('PhysicsRadiationSimulator::simulate_mission', 'PhysicsRadiationSimulator::simulate_mission_tid'))
p('Trajectories without matching durations are rejected',
  'Constructing with or setting an empty trajectory, or flying one with fewer durations than environments, is reported rather than read out of bounds.',
  'every trajectory', 'undefined behaviour is invisible to a test', ph('SpacecraftTrajectory', 'PhysicsRadiationSimulator::set_trajectory', 'PhysicsRadiationSimulator::simulate_mission'))
p('The preset trajectories are complete',
  'Each preset starts and ends in LEO, has one positive duration per environment, and lasts 365, 775 and 1630 days.',
  'the three presets', 'exact float sums', ph('SpacecraftTrajectory::Earth_LEO', 'SpacecraftTrajectory::Mars_Mission', 'SpacecraftTrajectory::Europa_Mission'))
p('Total dose simulation counts dose effects only',
  'simulate_mission_tid counts nothing but the two TID effects; for zero, negative or NaN days it returns zeros, draws nothing and changes nothing.',
  'every simulator, number of days and random sequence', 'all random sequences', ph('PhysicsRadiationSimulator::simulate_mission_tid'))
p('Total dose does not depend on solar activity',
  'simulate_mission_tid returns the same counts whatever the solar activity.',
  'every simulator, number of days, activity and random sequence', 'all random sequences', ph('PhysicsRadiationSimulator::simulate_mission_tid'))
p('Total dose covers exactly the first days of the mission',
  'With durations in whole days, simulate_mission_tid for n days gives what the mission cut after n days gives; days beyond the end add nothing; it completes for every n.',
  'every plan of whole days, every n and random sequence', 'all plans and random sequences', ph('PhysicsRadiationSimulator::simulate_mission_tid'))
p('An event never affects more bits than the memory has',
  'The number of bits of an event of simulate_period is at most the memory size.',
  'every memory size and random sequence', 'all random sequences', ph('PhysicsRadiationSimulator::simulate_period', 'RadiationEffect'))
p('A new particle field holds one draw per lattice point',
  'createParticleField for anything but a photon returns a field of the asked grid, spacing and type whose k-th point is the k-th draw of the noise, of spread 0.5 for electrons and protons and 1 otherwise; a grid not of three dimensions is rejected.',
  'every grid of up to 2^31 points, spacing, particle and random sequence', 'all grids and random sequences', qm('createParticleField') + qf('QuantumField::initializeGaussian'))
p('The simulation reports energy gained',
  'Every number simulateMultiParticleInteraction returns is the total energy of that field after the call minus its total energy before.',
  'every list of fields, parameters and steps', 'all fields and parameters', qm('simulateMultiParticleInteraction') + qf('QuantumField::calculateTotalEnergy'))
p('Zero-point motion lowers a defect\'s energy, less so when warm',
  'calculateQuantumCorrectedDefectEnergy of a particle without mass throws; otherwise it is finite, at most the classical energy, below zero for zero, and does not fall as the temperature rises.',
  'every energy up to 2^500, temperature and set of parameters of moderate size', 'all floats', qf('calculateQuantumCorrectedDefectEnergy', 'calculateZeroPointEnergyContribution'))
p('Harder devices flip no more easily',
  'calculateQuantumBitFlipProbability does not grow with the documented hardness of the device once the charge is a tenth of the harder device\'s critical charge; a device of hardness h flips exactly as a six-transistor SRAM cell of h times the critical charge, to nine digits.',
  'every material, pair of devices, charge and temperature', 'all floats', qe('QuantumEnhancedRadiation::calculateQuantumBitFlipProbability'))
p('Decoherence rates that are not given take their defaults',
  'calculateQuantumDecoherence uses 1e-12 and 0.01 for a particle without a rate or coefficient and depends on no other particle\'s entries.',
  'every defect map, temperature, particle and table', 'all tables', qm('calculateQuantumDecoherence'))
qi = lambda *a: ['src/physics/quantum_integration.cpp:' + x for x in a]
p('When quantum corrections are applied',
  'shouldApplyQuantumCorrections is false when corrections are disabled, true when forced, and otherwise true exactly when the temperature is below, the feature size is below, or the radiation intensity is above its threshold; NaN meets no criterion. Unless they apply, applyQuantumCorrectionsToSimulation returns the defects unchanged, and it never throws.',
  'every configuration, temperature, size, intensity, crystal and defect map', 'all floats', qi('shouldApplyQuantumCorrections', 'applyQuantumCorrectionsToSimulation'))
p('The enhancement factor stays within its documented caps',
  'calculateQuantumEnhancementFactor adds at most 4 % for temperature alone and 8 % for size alone; it is at least 1, never grows with temperature or size, and is 1 from 150 K and 20 nm on.',
  'every pair of doubles, NaN and infinities included', 'all floats', qi('calculateQuantumEnhancementFactor'))
p('Tunnelling probabilities are bounded and fall with temperature',
  'calculateQuantumTunnelingProbability is between 0 and 0.05 for all doubles, the same below 1 K as at 1 K, the same below a barrier of 0.01 as at it, and does not grow with temperature for a moderate barrier.',
  'every barrier, mass, hbar and temperature; every exp meeting the documented facts', 'all floats', qi('calculateQuantumTunnelingProbability'))
p('The Klein-Gordon correction is bounded',
  'solveKleinGordonEquation (scalar) is between 0.001 and 0.05 for all doubles; spacings below 0.001 and masses below 1e-32 count as those.',
  'every six doubles, NaN and infinities included', 'all floats', qi('solveKleinGordonEquation'))
p('Zero-point contributions are bounded and fall with temperature',
  'calculateZeroPointEnergyContribution is between 0 and 0.05, the same below 1 K as at 1 K, and does not grow with temperature.',
  'every mass, lattice constant and temperature, hbar between 2^-100 and 2^100', 'all floats', qi('calculateZeroPointEnergyContribution'))
p('Corrected defect counts rise by at most 11 %',
  'applyQuantumCorrectionsToSimulation lowers no count and raises none by more than 11 %; of equal counts of one particle the interstitials end up at least as high as the clusters and these as the vacancies.',
  'every defect map with counts 0 or between 2^-900 and 2^990, every crystal, temperature, size, intensity and configuration', 'all floats and maps', qi('applyQuantumFieldCorrections', 'applyQuantumCorrectionsToSimulation'))
p('The feature size influences the corrections',
  'The corrections applied depend on the feature size, which createQFTParameters turns into the lattice spacing.',
  'every defect map, crystal, temperature and pair of sizes', 'all floats', qi('createQFTParameters', 'applyQuantumFieldCorrections', 'solveKleinGordonEquation'))
p('Every particle with defects is corrected',
  'When corrections apply, the lists of every particle type with defects are corrected value by value, keeping length and order.',
  'every defect map, crystal, temperature, size, intensity and configuration', 'all maps', qi('applyQuantumFieldCorrections'))
p('The parameters a crystal and feature size give',
  'createQFTParameters gives masses and couplings to proton, electron, neutron and photon, in the documented ratios to nine digits; diamond has the least proton mass and bcc the greatest; the lattice spacing is a hundredth of the feature size; asking for another particle throws runtime_error.',
  'every crystal and feature size (ratios of couplings and spacing for values between 2^-20 and 2^20)', 'all floats', qi('createQFTParameters'))
p('A physics simulator is set to what was last asked',
  'After any history of settings and period runs a PhysicsRadiationSimulator is in the environment last set or the first one of the trajectory last given, whichever came later, starting with the first environment of its own trajectory; shielding, trajectory, memory and word size are those last given, and solar activity is 0.5 until set.',
  'every history without whole-mission runs', 'all histories', ['include/rad_ml/sim/physics_radiation_simulator.hpp:PhysicsRadiationSimulator'])
EPH='include/rad_ml/neural/error_predictor.hpp:'
p('The trained error predictor answers a rate',
  'Whatever levels and rates an ErrorPredictor has been given to learn from, NaN and infinities included, every prediction is a double between 0 and 1.',
  'every random initialisation, history of observations and level; every exp and log10 that maps doubles to doubles', 'all histories and floats', [EPH+'ErrorPredictor', EPH+'predictErrorRate', EPH+'updateModel'])
p('A bad observation can be unlearnt',
  'After an observation whose rate or level is NaN, later good observations bring the predictions back.',
  'every predictor, bad observation and later history', 'all histories', [EPH+'updateModel'])
p('Observing what was predicted teaches nothing',
  'updateModel with the rate that predictErrorRate just gave for that level leaves every later prediction as it was.',
  'every predictor whose weights are at most 2^100 and level at most 2^70', 'all weights and levels', [EPH+'updateModel', EPH+'predictErrorRate'])
p('The plain predictor keeps its documented bands',
  'predictErrorRate of the ErrorPredictor in the global namespace answers 0.01-0.05 for rates 1e-9 to 1e-8, 0.05-0.15 up to 1e-7, 0.15-0.30 up to 1e-6 and 0.30-0.90 above, never less for a higher rate.',
  'every rate', 'all floats', [EPH+'ErrorPredictor'])
ACH='include/rad_ml/neural/activation.hpp:getActivationFunction'
p('Activations have their documented values',
  'The functions getActivationFunction returns: RELU is max(0,x) and 0 for NaN; LEAKY_RELU is x above zero and elsewhere a hundredth of x to three parts in 10^8, never below x or above 0; SIGMOID lies in 0..1; TANH is the library function; LINEAR is the identity.',
  'every double; every exp and tanh with the stated ranges', 'all floats', [ACH])
p('No chain of activations reverses an order',
  'If x <= y then any sequence of activations applied to both gives numbers, and the first at most the second.',
  'every list of activation types and pair of numbers, infinities included', 'all chains', [ACH])
p('Every activation type is honoured',
  'getActivationFunction returns the function its type names, SOFTMAX included.',
  'every type and double', 'all floats', [ACH])
IMH='include/rad_ml/inference/model.hpp:'
p('Automatic repair only happens while asked for',
  'Every call of repair() by the scrubber of a RadiationTolerantModel comes after a call of enableAutoScrubbing that no return of disableAutoScrubbing or destruction has followed.',
  'every sequence of calls by the owner and every schedule of owner and scrubber thread', 'all schedules', [IMH+'enableAutoScrubbing', IMH+'disableAutoScrubbing'])
p('A model can be destroyed while it scrubs itself',
  'Destroying a model never makes its scrubber call repair() on a part that is gone.',
  'every sequence of calls and every schedule', 'all schedules', [IMH+'RadiationTolerantModel', IMH+'enableAutoScrubbing'])
p('Enabling, disabling and destroying return',
  'From every point of every run in which the model is only destroyed with auto-scrubbing off, the schedule can be continued so that all remaining calls return; enabling twice is no exception.',
  'every sequence of calls and every schedule', 'all schedules', [IMH+'enableAutoScrubbing', IMH+'disableAutoScrubbing'])
p('Repair and inference exclude each other',
  'No repair() by the scrubber happens between the call and the return of runInference.',
  'every sequence of calls and every schedule', 'all schedules', [IMH+'runInference', IMH+'enableAutoScrubbing'])
LGH='include/rad_ml/core/logger.hpp:'
p('The console shows exactly the lines at or above the level',
  'After any history of init, logging calls and close, a logging call prints one line on the console exactly when its level is at or above the level given to the last init (INFO before any), and no other call prints a line.',
  'every history of calls, level and message', 'all histories', [LGH+'init', LGH+'log'])
p('Lines go to the file asked for',
  'After init with a file path that can be opened, every line printed on the console is also appended, once, to that file, and to no other.',
  'every history of calls, level, path and message', 'all histories', [LGH+'init', LGH+'log', LGH+'close'])
p('The logger may be used from several threads',
  'With any number of threads calling the logging functions and init, no two unordered accesses of the level conflict, file and console hold the same lines in the same order whenever no line is being written, and each thread finds its lines in its own order.',
  'every number of threads, every program and every schedule', 'all schedules', [LGH+'log', LGH+'init'])
AEP='include/rad_ml/advanced/error_prediction.hpp:'
p('The similarity of two vectors is symmetric and between 0 and 1',
  'For any two vectors of finite floats calculateSimilarity answers a number between 0 and 1, the same with the vectors exchanged, and 0 when their lengths differ; no overflow of a difference, a square or the sum turns it into NaN.',
  'every pair of vectors of finite floats, of every length', 'all inputs', [AEP+'calculateSimilarity'])
p('Similarity 1 means identical',
  'calculateSimilarity answers 1 for two non-empty vectors exactly when they are identical.',
  'every pair of vectors of floats, of every length', 'all inputs', [AEP+'calculateSimilarity'])
PWH='include/rad_ml/power/power_aware_protection.hpp:'
p('More protection never raises the expected error rate',
  'With protection levels that are not negative: raising the level of any components never raises what calculate_expected_error_rate answers, and adding a component never lowers it.',
  'every number of components and every levels, every exp that is monotone', 'all inputs', [PWH+'calculate_expected_error_rate'])
p('The expected error rate is at most nine a day per component',
  'With protection levels that are not negative calculate_expected_error_rate answers a finite number between 0 and nine times the number of components.',
  'every number of components below 2^53 / 9 and every levels', 'all inputs', [PWH+'calculate_expected_error_rate'])
#MORE
with open(os.path.join(os.path.dirname(__file__), "..", "properties.jsonl"), "w") as f:
    for q in P: f.write(json.dumps(q)+"\n")
print(len(P))
