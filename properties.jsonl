{"id": "C01", "title": "Simple TMR masks any single-copy corruption", "statement": "For core::redundancy::TripleModularRedundancy<T>, tmr::TMR<T> and tmr::BasicTMR<T>: if v was stored with set() and at most one of the three stored copies is then overwritten by an arbitrary value, get() returns v (T compared by a lawful ==).", "quantifier": "every type with a lawful ==, every stored value, every corrupted copy index and every corrupted value", "why_tests_cant": "the corrupted value ranges over all of T and all three positions; tests sample a few bit flips", "anchors": ["include/rad_ml/core/redundancy/tmr.hpp:TripleModularRedundancy::get", "include/rad_ml/tmr/tmr.hpp:TMR::performMajorityVote", "rad_ml/tmr/basic_tmr.hpp:BasicTMR::get"]}
{"id": "C02", "title": "repair() restores full redundancy under every fault history", "statement": "For the containers of C01 that have repair(): after any history of set(x), single-copy corruption and repair() in which at most one copy is corrupted between two consecutive set/repair calls, get() returns the last value passed to set(), and directly after repair() all three copies are equal to it.", "quantifier": "every finite history of set / corrupt-one-copy / repair operations obeying the one-upset-per-interval rule", "why_tests_cant": "unbounded histories; accumulation of upsets across repairs is exactly what a finite test cannot exclude", "anchors": ["include/rad_ml/core/redundancy/tmr.hpp:TripleModularRedundancy::repair", "rad_ml/tmr/basic_tmr.hpp:BasicTMR::repair"]}
{"id": "C03", "title": "tmr::TMR error statistics are exact for every history", "statement": "For tmr::TMR<T>, after any history of set/get/setRawCopy/resetErrorStats, detected_errors equals the number of get() calls since the last reset that saw disagreeing copies, and detected_errors = corrected_errors + uncorrectable_errors; the error callback fires exactly once per corrected get with (voted value, outlier copy).", "quantifier": "every finite history of API calls", "why_tests_cant": "counter relations are invariants over unbounded histories", "anchors": ["include/rad_ml/tmr/tmr.hpp:TMR::performMajorityVote", "include/rad_ml/tmr/tmr.hpp:TMR::getErrorStats"]}
{"id": "C04", "title": "Four-copy EnhancedTMR masks one corrupted copy, whatever the hash order", "statement": "For the four-copy tmr::EnhancedTMR in rad_ml/tmr/basic_tmr.hpp: if at most one of four copies is corrupted, get() returns the stored value for every iteration order of the unordered_map; hasErrors() is true iff some copy differs; repair() makes all copies equal.", "quantifier": "every stored value, corrupted index and value, and every unordered_map iteration order", "why_tests_cant": "the iteration order of unordered_map is unspecified; a test sees one library's order", "anchors": ["rad_ml/tmr/basic_tmr.hpp:EnhancedTMR::get", "rad_ml/tmr/basic_tmr.hpp:EnhancedTMR::repair"]}
{"id": "C05", "title": "getErrorCount() counts every repaired error", "statement": "For the four-copy EnhancedTMR, getErrorCount() returns the number of repairs performed since construction or the last user set().", "quantifier": "every history of corruption and repair", "why_tests_cant": "needs unbounded histories of repairs", "anchors": ["rad_ml/tmr/basic_tmr.hpp:EnhancedTMR::repair", "rad_ml/tmr/basic_tmr.hpp:EnhancedTMR::getErrorCount"]}
{"id": "C06", "title": "Floating-point TMR masks a single bit upset", "statement": "For TripleModularRedundancy<float|double> (IEEE == comparison): if one copy suffers a single bit flip, get() returns the stored value bit for bit.", "quantifier": "all 2^32 (2^64) stored patterns incl. zeros, infinities and NaNs, every copy, every bit", "why_tests_cant": "2^32*96 (2^64*192) cases; the failing ones (NaN, signed zero) are precisely those tests skip", "anchors": ["include/rad_ml/core/redundancy/tmr.hpp:TripleModularRedundancy::get"]}
{"id": "C07", "title": "bitLevelVote is the bitwise majority", "statement": "EnhancedVoting::bitLevelVote(a,b,c) and the copies of it in EnhancedTMR / SpaceEnhancedTMR return the value whose every bit is the majority of the three input bits, for every arithmetic type.", "quantifier": "all inputs of every 1,2,4,8-byte arithmetic type", "why_tests_cant": "2^192 inputs for 64-bit types", "anchors": ["include/rad_ml/core/redundancy/enhanced_voting.hpp:EnhancedVoting::bitLevelVote", "include/rad_ml/core/redundancy/enhanced_tmr.hpp:EnhancedTMR::bitLevelVote", "include/rad_ml/core/redundancy/space_enhanced_tmr.hpp:SpaceEnhancedTMR::bitLevelVote"]}
{"id": "C08", "title": "Every specialised integer vote agrees with the bitwise majority", "statement": "For integer types wordErrorVote, burstErrorVote, fastBitCorrection, standardVote and adaptiveVote (for every FaultPattern argument) all return the bitwise majority of their inputs, in EnhancedVoting and in EnhancedTMR, whatever the uninitialised upper bytes of the widened temporaries contain for 1- and 2-byte types.", "quantifier": "all inputs, all widths, all fault patterns, all contents of the uninitialised padding", "why_tests_cant": "2^192 inputs and indeterminate memory contents", "anchors": ["include/rad_ml/core/redundancy/enhanced_voting.hpp:EnhancedVoting::adaptiveVote", "include/rad_ml/core/redundancy/enhanced_voting.hpp:EnhancedVoting::wordErrorVote", "include/rad_ml/core/redundancy/enhanced_voting.hpp:EnhancedVoting::burstErrorVote", "include/rad_ml/core/redundancy/enhanced_voting.hpp:EnhancedVoting::fastBitCorrection", "include/rad_ml/core/redundancy/enhanced_tmr.hpp:EnhancedTMR::adaptiveVote"]}
{"id": "C09", "title": "Multi-bit upsets in all three copies are corrected when no bit position is hit twice", "statement": "If three copies of v are hit by arbitrary bit-flip masks no two of which share a bit position, every integer voting strategy returns v.", "quantifier": "every value and every triple of pairwise disjoint flip masks", "why_tests_cant": "exponentially many flip patterns", "anchors": ["include/rad_ml/core/redundancy/enhanced_voting.hpp:EnhancedVoting::adaptiveVote"]}
{"id": "C10", "title": "detectFaultPattern classifies a one-copy single-bit flip as SINGLE_BIT and never has undefined behaviour", "statement": "For every arithmetic type, detectFaultPattern on copies of v of which one has exactly one flipped bit returns SINGLE_BIT, and for every input it completes without undefined behaviour.", "quantifier": "every value, copy, bit and type; every input for the UB part", "why_tests_cant": "UB does not show in a passing test; 64-bit input space", "anchors": ["include/rad_ml/core/redundancy/enhanced_voting.hpp:EnhancedVoting::detectFaultPattern", "include/rad_ml/core/redundancy/enhanced_voting.hpp:EnhancedVoting::areByteBoundary"]}
{"id": "C11", "title": "Adjacent-bit upsets are recognised as ADJACENT_BITS", "statement": "If one copy has a run of 2 or more adjacent flipped bits and the other two are intact, EnhancedVoting::detectFaultPattern returns ADJACENT_BITS.", "quantifier": "every value, copy, and run of flipped bits", "why_tests_cant": "tests do not check the classifier over all patterns", "anchors": ["include/rad_ml/core/redundancy/enhanced_voting.hpp:EnhancedVoting::areAdjacentBits"]}
{"id": "C12", "title": "weightedVote: an exact two-copy agreement wins, equal positive weights give the majority", "statement": "weightedVote returns the agreed value when two copies are equal whatever the weights; for three different copies and equal finite positive weights it returns the bitwise majority; with all-zero weights it must not fabricate bits no copy has.", "quantifier": "all integer inputs and all float weights", "why_tests_cant": "weights range over all floats incl. NaN/inf/0", "anchors": ["include/rad_ml/core/redundancy/enhanced_voting.hpp:EnhancedVoting::weightedVote"]}
{"id": "C13", "title": "All CRC-32 implementations compute the same function", "statement": "core::redundancy::CRC, SpaceCRC, the CRC in HealthWeightedTMR and ApproximateTMR (bitwise), tmr::CRC32 (generated table) and core::memory::MemoryScrubber::compute_crc32 (literal table) return the same checksum on every byte string.", "quantifier": "every byte string of every length", "why_tests_cant": "unbounded inputs; a wrong table entry hides until that byte occurs", "anchors": ["include/rad_ml/core/redundancy/enhanced_tmr.hpp:CRC::calculate", "include/rad_ml/core/redundancy/space_enhanced_tmr.hpp:SpaceCRC::calculate", "include/rad_ml/tmr/enhanced_tmr.hpp:CRC32", "include/rad_ml/core/memory/memory_scrubbing.hpp:MemoryScrubber::compute_crc32"]}
{"id": "C14", "title": "The checksum detects every error burst of at most 32 bits", "statement": "If two byte strings of equal length differ and all differing bits lie within a window of 32 consecutive bits, their checksums differ; hence every single-bit flip, and every change to an object of at most 4 bytes, is detected.", "quantifier": "every length, every content, every burst position and shape", "why_tests_cant": "2^n contents times all burst shapes", "anchors": ["include/rad_ml/core/redundancy/enhanced_tmr.hpp:CRC::calculate"]}
{"id": "C15", "title": "The checksum detects every double-bit error in objects below 512 MiB", "statement": "Flipping any two distinct bits of a byte string whose length is below 2^29 bytes changes its checksum.", "quantifier": "every length below the bound, every content, every pair of bit positions", "why_tests_cant": "needs the multiplicative order of x modulo the CRC polynomial", "anchors": ["include/rad_ml/core/redundancy/enhanced_tmr.hpp:CRC::calculate"]}
{"id": "C16", "title": "EnhancedTMR masks arbitrary corruption of one copy and its checksum", "statement": "core::redundancy::EnhancedTMR<T>: for every v with v == v (every value but NaN): after set(v), if one copy and its checksum are replaced by arbitrary values, get() returns a value comparing equal to v (v itself for integer T); repair() then restores a state indistinguishable (copies and checksums) from a fresh set(v) and verify() is true.", "quantifier": "every value, corrupted index, corrupted value and corrupted checksum (incl. checksum collisions)", "why_tests_cant": "collisions and arbitrary corruption cannot be enumerated", "anchors": ["include/rad_ml/core/redundancy/enhanced_tmr.hpp:EnhancedTMR::get", "include/rad_ml/core/redundancy/enhanced_tmr.hpp:EnhancedTMR::repair", "include/rad_ml/core/redundancy/enhanced_tmr.hpp:EnhancedTMR::verify"]}
{"id": "C17", "title": "EnhancedTMR survives corruption of two copies when their checksums expose it", "statement": "If two copies of EnhancedTMR / SpaceEnhancedTMR are hit by value corruption within a 32-bit window (any corruption for sizeof(T) <= 4) and checksums are intact, get() still returns v.", "quantifier": "every value and every pair of corrupted copies and burst patterns", "why_tests_cant": "combines CRC guarantees over all inputs with the vote", "anchors": ["include/rad_ml/core/redundancy/enhanced_tmr.hpp:EnhancedTMR::get", "include/rad_ml/core/redundancy/space_enhanced_tmr.hpp:SpaceEnhancedTMR::get"]}
{"id": "C18", "title": "EnhancedTMR statistics: detected = corrected + uncorrectable, and every disagreement is counted", "statement": "Over every history detected_errors = corrected_errors + uncorrectable_errors, and every get() that finds verify() false increments detected_errors.", "quantifier": "every finite history of operations and corruptions", "why_tests_cant": "invariant over unbounded histories", "anchors": ["include/rad_ml/core/redundancy/enhanced_tmr.hpp:EnhancedTMR::incrementErrorStats"]}
{"id": "C19", "title": "SpaceEnhancedTMR::get reports SUCCESS only with the stored value under one-copy corruption", "statement": "SpaceEnhancedTMR: for every v with v == v, after set(v) and arbitrary corruption of one copy and its checksum, get yields status SUCCESS and a value comparing equal to v (v itself for integer T); after repair() verify() is SUCCESS.", "quantifier": "every value, index, corruption", "why_tests_cant": "arbitrary corruption incl. checksum collisions", "anchors": ["include/rad_ml/core/redundancy/space_enhanced_tmr.hpp:SpaceEnhancedTMR::get", "include/rad_ml/core/redundancy/space_enhanced_tmr.hpp:SpaceEnhancedTMR::verify"]}
{"id": "C20", "title": "SpaceEnhancedTMR::get always terminates", "statement": "get() returns for every stored state, for integer and floating-point T (deterministic execution required for flight software).", "quantifier": "every state of the three copies and checksums", "why_tests_cant": "termination over all states; failing states need special float values", "anchors": ["include/rad_ml/core/redundancy/space_enhanced_tmr.hpp:SpaceEnhancedTMR::bitLevelVoteFloat", "include/rad_ml/core/redundancy/space_enhanced_tmr.hpp:SpaceEnhancedTMR::handleSpecialFloatVoting"]}
{"id": "C21", "title": "tmr::EnhancedTMR::get returns the agreed value for every random draw", "statement": "tmr::EnhancedTMR<T>: whenever at least two copies agree, get() returns that value, independent of health scores, voting mode, elapsed time and random draws; when none agree it returns one of the three copies.", "quantifier": "every state, clock value, random draw and voting mode", "why_tests_cant": "random draws and clock are not controllable in a test", "anchors": ["include/rad_ml/tmr/enhanced_tmr.hpp:EnhancedTMR::get", "include/rad_ml/tmr/enhanced_tmr.hpp:EnhancedTMR::performWeightedVoting"]}
{"id": "C22", "title": "Health scores stay within [0.1, 1.0] in tmr::EnhancedTMR through every history of get/verify/regenerate", "statement": "Starting from construction, after any history of get, set, verify, regenerateCopies (any corruption in between) every health score is a number in [0.1, 1.0]; with setRawCopy included it stays in (0, 1].", "quantifier": "every finite history, IEEE double arithmetic", "why_tests_cant": "rounding-accurate invariant over unbounded histories", "anchors": ["include/rad_ml/tmr/enhanced_tmr.hpp:EnhancedTMR::health_scores_"]}
{"id": "C23", "title": "clone() returns a usable copy and never deadlocks", "statement": "tmr::EnhancedTMR::clone() called on an unlocked object returns (it must not re-acquire the non-recursive mutex it already holds).", "quantifier": "every state", "why_tests_cant": "a deadlock/UB is a property of the lock protocol, not of outputs", "anchors": ["include/rad_ml/tmr/enhanced_tmr.hpp:EnhancedTMR::clone"]}
{"id": "C24", "title": "HealthWeightedTMR masks one corrupted copy from a healthy state", "statement": "HealthWeightedTMR: after set(v) (all health 1.0), if one copy and its checksum are arbitrarily corrupted, get() returns v; repair() restores all copies.", "quantifier": "every value and corruption", "why_tests_cant": "arbitrary corruption incl. collisions, std::map order of T", "anchors": ["include/rad_ml/tmr/health_weighted_tmr.hpp:HealthWeightedTMR::get"]}
{"id": "C25", "title": "HealthWeightedTMR: two agreeing checksum-valid copies always outvote one", "statement": "Whatever history of gets preceded, if two copies hold v with valid checksums, get() returns v.", "quantifier": "every reachable health state", "why_tests_cant": "needs a long history that degrades health scores", "anchors": ["include/rad_ml/tmr/health_weighted_tmr.hpp:HealthWeightedTMR::performWeightedVoting"]}
{"id": "C26", "title": "HealthWeightedTMR health scores stay in [0.05, 1.0] and the vote history holds at most 10 entries", "statement": "After every history of get/set/repair with arbitrary corruption, every health score is in [0.05,1.0] and each vote history has at most 10 entries, the most recent ones.", "quantifier": "every finite history", "why_tests_cant": "invariant over unbounded histories with IEEE rounding", "anchors": ["include/rad_ml/tmr/health_weighted_tmr.hpp:HealthWeightedTMR::updateHealthScore"]}
{"id": "C27", "title": "EnhancedStuckBitTMR masks any single-copy corruption", "statement": "EnhancedStuckBitTMR<T> (integral and float/double specialisations): after set(v) with one copy corrupted arbitrarily, get() returns v.", "quantifier": "every value and corruption", "why_tests_cant": "input space", "anchors": ["include/rad_ml/tmr/enhanced_stuck_bit_tmr.hpp:EnhancedStuckBitTMR::get"]}
{"id": "C28", "title": "EnhancedStuckBitTMR::repair restores full redundancy after a transient upset", "statement": "After set(v), a single-copy upset and repair(), every copy again equals v, so a later upset in another copy is still masked.", "quantifier": "every value, copy and upset", "why_tests_cant": "needs the two-step fault sequence for all values", "anchors": ["include/rad_ml/tmr/enhanced_stuck_bit_tmr.hpp:EnhancedStuckBitTMR::repair", "include/rad_ml/tmr/enhanced_stuck_bit_tmr.hpp:EnhancedStuckBitTMR::repair_non_stuck_bits"]}
{"id": "C29", "title": "A persistently stuck bit is excluded from the vote", "statement": "If a copy's bit stays stuck (at 0 or at 1) over three or more repair() calls, that copy's bit is identified as stuck and no longer takes part in the vote for that bit.", "quantifier": "every value, copy, bit and stuck polarity", "why_tests_cant": "both polarities over all values and histories", "anchors": ["include/rad_ml/tmr/enhanced_stuck_bit_tmr.hpp:EnhancedStuckBitTMR::update_stuck_bit_tracking"]}
{"id": "C30", "title": "ApproximateTMR returns the exact stored value when fault-free", "statement": "ApproximateTMR<T> with the default approximation types: set(v) then get() returns v exactly, for every integral T.", "quantifier": "every value of every integral type", "why_tests_cant": "full input space", "anchors": ["include/rad_ml/tmr/approximate_tmr.hpp:ApproximateTMR::get", "include/rad_ml/tmr/approximate_tmr.hpp:ApproximateTMR::limitRange"]}
{"id": "C31", "title": "ApproximateTMR masks corruption of any single copy", "statement": "After set(v), if any one copy is arbitrarily corrupted, get() returns v or a value within the configured approximation of v.", "quantifier": "every value, copy and corruption", "why_tests_cant": "the failing case needs v not divisible by the precision step", "anchors": ["include/rad_ml/tmr/approximate_tmr.hpp:ApproximateTMR::get"]}
{"id": "C32", "title": "TemporalRedundancy returns the result that a majority of executions produced", "statement": "execute() with n >= 1 executions returns a result with maximal multiplicity; if more than half of the executions return r, it returns r; with n = 0 it must not invoke undefined behaviour.", "quantifier": "every n, every sequence of (possibly faulty) execution results", "why_tests_cant": "all fault sequences and n", "anchors": ["include/rad_ml/tmr/temporal_redundancy.hpp:TemporalRedundancy::execute", "include/rad_ml/tmr/temporal_redundancy.hpp:TemporalRedundancy::findMostCommonResult"]}
{"id": "C33", "title": "CheckpointManager keeps the newest accepted checkpoints, bounded, in order", "statement": "For every history of createCheckpoint calls at non-decreasing times, at most max_checkpoints are retained; they are the most recent accepted ones in order; getLatestCheckpoint / rollbackToVersion / rollbackToValid return the most recent matching one or false.", "quantifier": "every finite history, clock sequence, capacity and interval", "why_tests_cant": "unbounded histories and clocks", "anchors": ["include/rad_ml/core/recovery/checkpoint_manager.hpp:CheckpointManager"]}
{"id": "C34", "title": "HybridRedundancy::rollback restores the last value that was set", "statement": "set(v) creates a checkpoint, and a later rollback() restores the most recently set value.", "quantifier": "every history and clock sequence", "why_tests_cant": "depends on wall-clock spacing of sets", "anchors": ["include/rad_ml/tmr/hybrid_redundancy.hpp:HybridRedundancy::set", "include/rad_ml/tmr/hybrid_redundancy.hpp:HybridRedundancy::rollback", "include/rad_ml/core/recovery/checkpoint_manager.hpp:CheckpointManager::createCheckpoint"]}
{"id": "C35", "title": "FixedVector behaves as a capacity-bounded list", "statement": "Any sequence of push_back/at/clear/size on FixedVector<T,Cap> gives exactly the results of a list that accepts at most Cap elements: FULL iff full, OUT_OF_BOUNDS iff index >= size, and at(i) returns the i-th pushed element.", "quantifier": "every operation sequence, every capacity", "why_tests_cant": "unbounded operation sequences", "anchors": ["include/rad_ml/core/memory/fixed_containers.hpp:FixedVector"]}
{"id": "C36", "title": "FixedMap behaves as a capacity-bounded finite map", "statement": "Any sequence of insert/find/erase/clear/size on FixedMap gives exactly the results of a finite map with at most Cap keys: a find returns the last inserted value for that key since its last erase/clear; FULL iff the key is new and Cap keys are present.", "quantifier": "every operation sequence, key and value, capacity", "why_tests_cant": "unbounded operation sequences, swap-with-last erase", "anchors": ["include/rad_ml/core/memory/fixed_containers.hpp:FixedMap"]}
{"id": "C37", "title": "StaticAllocator hands out disjoint, aligned, in-bounds blocks", "statement": "For every sequence of allocate(n) calls that succeed (between resets) the returned blocks are aligned, lie inside the pool and are pairwise disjoint; an allocate that does not fit throws bad_alloc and changes nothing.", "quantifier": "every sequence of request sizes, element size, alignment and capacity (64-bit size_t)", "why_tests_cant": "includes sizes whose byte count overflows size_t", "anchors": ["include/rad_ml/core/memory/static_allocator.hpp:StaticAllocator::allocate"]}
{"id": "C38", "title": "ProtectedValue returns the stored value (never an error) under one-copy corruption, and scrub repairs it", "statement": "ProtectedValue<T> (integral T, sizeof <= 4): after set(v) and arbitrary corruption of one copy, get() returns v (not ValueCorruptionError), getOrFallback returns v, scrub() restores all copies to v.", "quantifier": "every value, copy, corruption", "why_tests_cant": "float confidence thresholds over all inputs", "anchors": ["include/rad_ml/core/memory/protected_value.hpp:ProtectedValue::get", "include/rad_ml/core/memory/protected_value.hpp:ProtectedValue::scrub"]}
{"id": "C39", "title": "AlignedProtectedMemory: a read repairs the copies", "statement": "With scrubbing enabled, get() returns the bitwise-majority value and leaves all three copies equal to it; with scrubbing disabled copies are unchanged; scrub(v) leaves all copies equal to v and returns true iff some copy was changed. (The overload scrub() without argument cannot be instantiated: it passes a private struct to EnhancedVoting's arithmetic-only templates.)", "quantifier": "every state of the three copies, integer T of at most 4 bytes", "why_tests_cant": "full state space", "anchors": ["include/rad_ml/core/memory/aligned_memory.hpp:AlignedProtectedMemory"]}
{"id": "C40", "title": "InterleavedBitMemory round-trips and corrects any single stored-bit upset", "statement": "set(v) then get() returns v; flipping any one stored bit still gives v; scrub() removes the upset.", "quantifier": "every value of every 1,2,4-byte integral type, every stored bit", "why_tests_cant": "96 bits x 2^32 values", "anchors": ["include/rad_ml/core/memory/aligned_memory.hpp:InterleavedBitMemory"]}
{"id": "C41", "title": "InterleavedBitMemory: adjacent stored-bit errors never corrupt the same logical bit in two copies", "statement": "As documented, flipping two adjacent bits of the interleaved storage does not corrupt the same logical bit across multiple copies, so get() still returns v.", "quantifier": "every value and every adjacent pair of stored bits", "why_tests_cant": "all pairs times all values", "anchors": ["include/rad_ml/core/memory/aligned_memory.hpp:InterleavedBitMemory::interleave"]}
{"id": "C42", "title": "RadiationErrorTracker counters are exact under every interleaving", "statement": "For any number of threads each performing recordError calls, in any interleaving of their atomic steps, when all calls have completed getTotalErrorCount() equals the number of calls and each getPatternCount(p) the number of calls with p; the history holds at most 1000 entries, the most recent ones in lock order.", "quantifier": "every number of threads, every interleaving", "why_tests_cant": "schedules cannot be enumerated by tests", "anchors": ["include/rad_ml/core/runtime/error_tracker.hpp:RadiationErrorTracker::recordError"]}
{"id": "C43", "title": "Two RadiationErrorTracker objects do not influence each other", "statement": "The error rate reported by one tracker depends only on errors recorded on that tracker.", "quantifier": "every history over two tracker objects", "why_tests_cant": "cross-object interference via function-local statics", "anchors": ["include/rad_ml/core/runtime/error_tracker.hpp:RadiationErrorTracker::updateErrorRate"]}
{"id": "C44", "title": "core::memory::MemoryScrubber handles are unique and scrubOnce visits exactly the registered regions", "statement": "For every history of register/unregister, returned handles are pairwise distinct, unregister returns true exactly for live handles and removes only that region, and scrubOnce runs every live region's function exactly once in registration order.", "quantifier": "every history", "why_tests_cant": "unbounded histories", "anchors": ["include/rad_ml/core/memory/memory_scrubber.hpp:MemoryScrubber"]}
{"id": "C45", "title": "FixedPoint arithmetic is exact addition and correctly floored multiplication within range", "statement": "For FixedPoint<I,F,int32_t>: when the mathematical result is representable, + and - are exact, * returns floor(a*b*2^F)/2^F and / returns the truncated quotient; otherwise the operation is undefined behaviour or wraps as the language defines - it never silently returns another value inside the representable range claim.", "quantifier": "all raw operand pairs, all F", "why_tests_cant": "2^64 operand pairs per instance", "anchors": ["include/rad_ml/math/fixed_point.hpp:FixedPoint"]}
{"id": "C46", "title": "BranchlessOps agree with min/max/abs/sign/select/clamp", "statement": "For every integral type BranchlessOps::min,max,sign,select,clamp return exactly the mathematical min, max, sign, selection and clamp (clamp for low<=high), and abs returns |x| for every x other than the most negative value.", "quantifier": "all operands of every width and signedness", "why_tests_cant": "2^128 operand pairs", "anchors": ["include/rad_ml/math/branchless_ops.hpp:BranchlessOps"]}
{"id": "C47", "title": "BitManipulation::flipBit toggles exactly one bit and countBitDifferences is the Hamming metric", "statement": "flipBit(flipBit(x,i),i)=x; isBitSet toggles at i and nowhere else; out-of-range positions leave the value unchanged; countBitDifferences is symmetric, zero iff patterns are equal, satisfies the triangle inequality, and countBitDifferences(x, flipBit(x,i)) = 1.", "quantifier": "all values, positions and types", "why_tests_cant": "full input space", "anchors": ["include/rad_ml/utils/bit_manipulation.hpp:BitManipulation"]}
{"id": "C48", "title": "Result<T> agrees with its status", "statement": "For core::error::Result<T>, isSuccess() holds iff getStatus().isSuccess(), and getValue writes iff isSuccess().", "quantifier": "every way of constructing a Result", "why_tests_cant": "includes Result<T>(StatusCode::SUCCESS)", "anchors": ["include/rad_ml/core/error/status_code.hpp:Result"]}
{"id": "C49", "title": "GaloisField<4,0x13> and GaloisField<10,0x409> tables implement a field", "statement": "The table-driven add/multiply/divide/inverse/pow of GF16 and GF1024 satisfy all field laws on the whole carrier (associativity, commutativity, distributivity, inverses, pow as iterated product), never read a table out of range on carrier elements, and throw domain_error exactly on zero divisors.", "quantifier": "all triples of field elements (2^30 for GF1024), all exponents", "why_tests_cant": "triples and unbounded exponents", "anchors": ["include/rad_ml/neural/galois_field.hpp:GaloisField::multiply", "include/rad_ml/neural/galois_field.hpp:GaloisField::initialize_tables"]}
{"id": "C50", "title": "Constructing GF256 is well defined", "statement": "Constructing GaloisField<8,0x11d> (GF256, used by every 8-bit Reed-Solomon alias) performs no out-of-bounds access.", "quantifier": "the single constructor run, for the 8-bit instance", "why_tests_cant": "undefined behaviour can appear to pass on some platform", "anchors": ["include/rad_ml/neural/galois_field.hpp:GaloisField::field_size", "include/rad_ml/neural/galois_field.hpp:GaloisField::initialize_tables"]}
{"id": "C51", "title": "rs_generator_poly(n) is monic of degree n with roots alpha^0..alpha^(n-1)", "statement": "For every n <= field order - 1 the generator polynomial has n+1 coefficients, leading coefficient 1, evaluates to 0 at alpha^i for all i<n, and to nonzero elsewhere.", "quantifier": "every n and every evaluation point", "why_tests_cant": "all n and points", "anchors": ["include/rad_ml/neural/galois_field.hpp:GaloisField::rs_generator_poly", "include/rad_ml/neural/galois_field.hpp:GaloisField::eval_poly"]}
{"id": "C52", "title": "Reed-Solomon decode(encode(x)) = x without errors", "statement": "For the 4-bit AdvancedReedSolomon configuration and every T whose bytes are field elements, decode(encode(x)) returns x.", "quantifier": "every data value", "why_tests_cant": "full input space", "anchors": ["include/rad_ml/neural/advanced_reed_solomon.hpp:AdvancedReedSolomon::encode", "include/rad_ml/neural/advanced_reed_solomon.hpp:AdvancedReedSolomon::decode", "include/rad_ml/neural/advanced_reed_solomon.hpp:AdvancedReedSolomon::compute_ecc_symbols"]}
{"id": "C53", "title": "deinterleave(interleave(d)) = d", "statement": "AdvancedReedSolomon::deinterleave inverts interleave for every byte vector.", "quantifier": "every byte vector of every length", "why_tests_cant": "unbounded inputs", "anchors": ["include/rad_ml/neural/advanced_reed_solomon.hpp:AdvancedReedSolomon::interleave", "include/rad_ml/neural/advanced_reed_solomon.hpp:AdvancedReedSolomon::deinterleave"]}
{"id": "C54", "title": "EnhancedVoting: BYTE_ERROR means exactly one byte was hit", "statement": "When EnhancedVoting::detectFaultPattern classifies three copies of an n-byte integral value, of which one was hit, as BYTE_ERROR then all flipped bits lie in one byte.", "quantifier": "every value, every upset mask of every copy", "why_tests_cant": "2^96 or more copy triples", "anchors": ["include/rad_ml/core/redundancy/enhanced_voting.hpp:EnhancedVoting::detectFaultPattern", "include/rad_ml/core/redundancy/enhanced_voting.hpp:EnhancedVoting::areByteBoundary"]}
{"id": "C55", "title": "detectFaultPatternWithConfidence: same pattern as detectFaultPattern, confidence 1 exactly for agreement", "statement": "EnhancedVoting::detectFaultPatternWithConfidence returns the same pattern as detectFaultPattern and a confidence in (0,1], which is exactly 1.0 iff all three copies are equal.", "quantifier": "every triple of copies of every integral type", "why_tests_cant": "confidence is float arithmetic over all triples", "anchors": ["include/rad_ml/core/redundancy/enhanced_voting.hpp:EnhancedVoting::detectFaultPatternWithConfidence"]}
{"id": "C56", "title": "Up to six flipped bits in an object of at most 8 bytes change its checksum", "statement": "For objects of at most 8 bytes, flipping any set of one to six distinct bits changes CRC::calculate's result.", "quantifier": "every content and every set of at most six of up to 64 bit positions", "why_tests_cant": "83 million flip sets times 2^64 contents", "anchors": ["include/rad_ml/core/redundancy/enhanced_tmr.hpp:CRC::calculateForValue"]}
{"id": "C57", "title": "rad_ml::memory::MemoryScrubber's checksum detects every single-bit error", "statement": "Two regions that differ in exactly one bit have different checksums under MemoryScrubber::calculateCRC32.", "quantifier": "every region content and bit", "why_tests_cant": "a missing table row is only visible for some contexts", "anchors": ["include/rad_ml/memory/memory_scrubber.hpp:MemoryScrubber::calculateCRC32", "include/rad_ml/memory/memory_scrubber.hpp:MemoryScrubber::crc_table_"]}
{"id": "C58", "title": "NaN payloads are protected by EnhancedTMR like any other value", "statement": "EnhancedTMR<float|double>: after set(v) with v a NaN, verify() is true and corrupting one copy and its checksum does not change what get() returns.", "quantifier": "every NaN pattern, every corruption", "why_tests_cant": "tests never store NaN; the failure comes from operator==", "anchors": ["include/rad_ml/core/redundancy/enhanced_tmr.hpp:EnhancedTMR::verify", "include/rad_ml/core/redundancy/enhanced_tmr.hpp:EnhancedTMR::get"]}
{"id": "C59", "title": "SpaceEnhancedTMR returns the median of three distinct finite floats", "statement": "SpaceEnhancedTMR<float|double>: when the checksums do not single out a copy and the three finite copies are pairwise different, get() returns one of the copies and it lies strictly between the two others.", "quantifier": "all triples of distinct finite float/double patterns", "why_tests_cant": "2^96 / 2^192 triples", "anchors": ["include/rad_ml/core/redundancy/space_enhanced_tmr.hpp:SpaceEnhancedTMR::findBestFloatFallback", "include/rad_ml/core/redundancy/space_enhanced_tmr.hpp:SpaceEnhancedTMR::performMajorityVoting"]}
{"id": "C60", "title": "SpaceEnhancedTMR never turns finite float data into NaN or infinity", "statement": "SpaceEnhancedTMR<float|double>: when no two copies agree and at least one copy is finite, a vote that returns yields a finite value.", "quantifier": "all stored triples", "why_tests_cant": "2^96 / 2^192 triples; NaN is contagious downstream", "anchors": ["include/rad_ml/core/redundancy/space_enhanced_tmr.hpp:SpaceEnhancedTMR::bitLevelVoteFloat", "include/rad_ml/core/redundancy/space_enhanced_tmr.hpp:SpaceEnhancedTMR::handleSpecialFloatVoting"]}
{"id": "C61", "title": "SpaceEnhancedTMR::verify() SUCCESS means the copies agree", "statement": "verify() returns SUCCESS only if all three stored copies are equal.", "quantifier": "every stored state", "why_tests_cant": "the failing states have self-consistent checksums, which a bit-flip test does not produce", "anchors": ["include/rad_ml/core/redundancy/space_enhanced_tmr.hpp:SpaceEnhancedTMR::verify"]}
{"id": "C62", "title": "An error callback of tmr::EnhancedTMR may call back into the object", "statement": "The user-supplied error callback can call get() on the protected object it is told about (verify() and get() return normally).", "quantifier": "every state in which verification finds an error", "why_tests_cant": "the failure is a lock re-acquisition, not an output", "anchors": ["include/rad_ml/tmr/enhanced_tmr.hpp:EnhancedTMR::verifyCRCs"]}
{"id": "C63", "title": "tmr::EnhancedTMR::get never returns a copy whose checksum is wrong while a checksum-valid copy exists", "statement": "tmr::EnhancedTMR: whenever at least one copy matches its CRC, get() returns a value of a copy that matches its CRC.", "quantifier": "every state, clock and random draw", "why_tests_cant": "depends on the draw and on the verification interval", "anchors": ["include/rad_ml/tmr/enhanced_tmr.hpp:EnhancedTMR::get", "include/rad_ml/tmr/enhanced_tmr.hpp:EnhancedTMR::performWeightedVoting"]}
{"id": "C64", "title": "RANGE_LIMITED approximation leaves values inside the limit unchanged", "statement": "ApproximateTMR<T>'s RANGE_LIMITED copy of v is v clamped to +/- half of T's maximum; in particular v itself when v is within that range.", "quantifier": "every value of every integral type", "why_tests_cant": "unsigned negation of the limit only shows for whole types", "anchors": ["include/rad_ml/tmr/approximate_tmr.hpp:ApproximateTMR::limitRange", "include/rad_ml/tmr/approximate_tmr.hpp:ApproximateTMR::getApproximateValue"]}
{"id": "C65", "title": "HybridRedundancy::repair() returns true only when the redundancy is restored", "statement": "When HybridRedundancy<T>::repair() returns true all three copies agree; otherwise it rolls back or returns false.", "quantifier": "every state of the copies and trackers", "why_tests_cant": "the rollback branch is unreachable in a sequential test, so its absence cannot be observed", "anchors": ["include/rad_ml/tmr/hybrid_redundancy.hpp:HybridRedundancy::repair"]}
{"id": "C66", "title": "HybridRedundancy::get masks faults striking during the read", "statement": "If, in more than half of the temporal executions, at least two copies hold v when they are read, get() returns v, whatever strikes the copies between the executions.", "quantifier": "every fault schedule, number of executions and value", "why_tests_cant": "fault timing between the executions of one call", "anchors": ["include/rad_ml/tmr/hybrid_redundancy.hpp:HybridRedundancy::get", "include/rad_ml/tmr/temporal_redundancy.hpp:TemporalRedundancy::execute"]}
{"id": "C67", "title": "StaticAllocator copies are usable and equal allocators are interchangeable", "statement": "A StaticAllocator converted from one for another element type can allocate, and when a == b memory obtained from a can be handed to b (allocator requirements).", "quantifier": "every allocator state, capacity and request", "why_tests_cant": "reading an indeterminate member and the location of storage are not visible in results", "anchors": ["include/rad_ml/core/memory/static_allocator.hpp:StaticAllocator::StaticAllocator", "include/rad_ml/core/memory/static_allocator.hpp:operator=="]}
{"id": "C68", "title": "ProtectedValue::transform maps the value and propagates the error", "statement": "transform(f) yields a ProtectedValue whose get() is f(v) when get() was v, and an error when get() was an error.", "quantifier": "every state, function and junk in temporaries", "why_tests_cant": "reading the never-initialised copies is undefined, a test may see any value", "anchors": ["include/rad_ml/core/memory/protected_value.hpp:ProtectedValue::transform", "include/rad_ml/core/memory/protected_value.hpp:ProtectedValue::get"]}
{"id": "C69", "title": "The error rate reported by RadiationErrorTracker is errors per second", "statement": "getErrorRate() approximates the number of errors recorded per second, so isErrorRateExceeded(threshold) becomes true when errors arrive persistently faster than threshold per second and stays false when they arrive slower.", "quantifier": "every sequence of error times, every interleaving", "why_tests_cant": "depends on clock units and on races between updates", "anchors": ["include/rad_ml/core/runtime/error_tracker.hpp:RadiationErrorTracker::updateErrorRate"]}
{"id": "C70", "title": "RadiationErrorTracker::reset restores a fresh tracker", "statement": "After reset() returns the tracker behaves as a newly constructed one, whatever happened before or meanwhile.", "quantifier": "every history and interleaving", "why_tests_cant": "needs the statics of the rate update and torn interleavings", "anchors": ["include/rad_ml/core/runtime/error_tracker.hpp:RadiationErrorTracker::reset"]}
{"id": "C71", "title": "getPatternDistribution returns fractions", "statement": "Every entry of getPatternDistribution() lies in [0,1], in any interleaving with recordError.", "quantifier": "every interleaving", "why_tests_cant": "needs a preemption between two loads", "anchors": ["include/rad_ml/core/runtime/error_tracker.hpp:RadiationErrorTracker::getPatternDistribution"]}
{"id": "C72", "title": "getRecentErrors(k) returns the k most recent errors and never deadlocks", "statement": "In any interleaving getRecentErrors(k) returns the last min(k,1000) records logged before it returns, in order; as long as a call is unfinished some thread can make a step.", "quantifier": "every number of threads, every interleaving", "why_tests_cant": "schedules cannot be enumerated by tests", "anchors": ["include/rad_ml/core/runtime/error_tracker.hpp:RadiationErrorTracker::getRecentErrors"]}
{"id": "C73", "title": "A scrub callback may use the scrubber it is registered with", "statement": "A callback run by core::memory::MemoryScrubber::scrubOnce may register or unregister regions on the same scrubber.", "quantifier": "every registry and callback", "why_tests_cant": "undefined behaviour (relocking a std::mutex) is not observable as a value", "anchors": ["include/rad_ml/core/memory/memory_scrubber.hpp:MemoryScrubber::scrubOnce"]}
{"id": "C74", "title": "start/stop of the core scrubber are safe", "statement": "After stop() returns no callback runs until the next start(); stop() always returns; no sequence of start/stop calls from any threads terminates the process.", "quantifier": "every schedule of the worker and the controlling threads", "why_tests_cant": "schedules cannot be enumerated by tests", "anchors": ["include/rad_ml/core/memory/memory_scrubber.hpp:MemoryScrubber::start", "include/rad_ml/core/memory/memory_scrubber.hpp:MemoryScrubber::stop"]}
{"id": "C75", "title": "memory::MemoryScrubber handles identify one region", "statement": "registerMemoryRegion returns pairwise distinct nonzero handles, for any history, from any threads, and after the scrubber has been moved.", "quantifier": "every history and interleaving", "why_tests_cant": "needs a race on the unlocked counter", "anchors": ["include/rad_ml/memory/memory_scrubber.hpp:MemoryScrubber::registerMemoryRegion"]}
{"id": "C76", "title": "Scrubbing untouched memory reports no error", "statement": "If the registered memory has not changed since registration, every scrubMemory() returns 0.", "quantifier": "every region size, content and number of cycles", "why_tests_cant": "any size and any content; most tests use a small region", "anchors": ["include/rad_ml/memory/memory_scrubber.hpp:MemoryScrubber::scrubRegion", "include/rad_ml/memory/memory_scrubber.hpp:MemoryScrubber::calculateChecksums"]}
{"id": "C77", "title": "memory::MemoryScrubber corrects what it counts as corrected", "statement": "After scrubMemory() every error counted in errors_corrected has been corrected in memory, and every changed byte has been detected.", "quantifier": "every region, content and corruption", "why_tests_cant": "all contents and all corruptions", "anchors": ["include/rad_ml/memory/memory_scrubber.hpp:MemoryScrubber::scrubRegion", "include/rad_ml/memory/memory_scrubber.hpp:MemoryScrubber::scrubMemory"]}
{"id": "C78", "title": "Moving a running memory::MemoryScrubber keeps it scrubbing", "statement": "Constructing a scrubber by moving from a running one terminates and the new object scrubs in the background.", "quantifier": "every schedule of the old worker and the moving thread", "why_tests_cant": "schedules cannot be enumerated by tests", "anchors": ["include/rad_ml/memory/memory_scrubber.hpp:MemoryScrubber::MemoryScrubber", "include/rad_ml/memory/memory_scrubber.hpp:MemoryScrubber::stopBackgroundThread"]}
{"id": "C79", "title": "backup_memory, restore_memory and compare_memory work on regions given by their size in bytes", "statement": "For a region of `size` bytes (as documented), restore_memory after backup_memory restores the original contents and compare_memory returns the number of differing elements, without touching memory outside.", "quantifier": "every element type, size and content", "why_tests_cant": "an out-of-bounds access need not be visible", "anchors": ["include/rad_ml/core/memory/memory_scrubbing.hpp:MemoryScrubber::backup_memory", "include/rad_ml/core/memory/memory_scrubbing.hpp:MemoryScrubber::restore_memory", "include/rad_ml/core/memory/memory_scrubbing.hpp:MemoryScrubber::compare_memory"]}
{"id": "C80", "title": "FixedPoint converts to floating point and back without loss", "statement": "For every representable raw value v, constructing a FixedPoint from its toDouble() (toFloat()) gives v back, and toDouble() is the exact real number v/2^FracBits.", "quantifier": "every storage type, FracBits and value", "why_tests_cant": "all values of all admissible formats", "anchors": ["include/rad_ml/math/fixed_point.hpp:FixedPoint"]}
{"id": "C81", "title": "FixedPoint construction and multiplication are right for every admissible parameter set", "statement": "Every pair (T, FracBits) the class accepts (FracBits < number of bits of T) computes products with the right sign and builds integers exactly when they are representable.", "quantifier": "every admissible template parameter pair and every value", "why_tests_cant": "parameters are template arguments: tests use one format", "anchors": ["include/rad_ml/math/fixed_point.hpp:FixedPoint"]}
{"id": "C82", "title": "Error Results can be copied", "statement": "Copying a Result<T> that holds an error is well defined for every T and yields an equal error.", "quantifier": "every T and status", "why_tests_cant": "undefined behaviour (reading an uninitialised scalar) is invisible to tests", "anchors": ["include/rad_ml/core/error/status_code.hpp:Result"]}
{"id": "C83", "title": "rs_calc_syndromes terminates and evaluates the message at alpha^0..alpha^nsym", "statement": "For every message of field elements and every nsym, rs_calc_syndromes returns the nsym+1 values of the message polynomial at alpha^i.", "quantifier": "every message and every nsym of type uint8_t", "why_tests_cant": "non-termination and all messages", "anchors": ["include/rad_ml/neural/galois_field.hpp:GaloisField::rs_calc_syndromes"]}
{"id": "C84", "title": "Reed-Solomon decode corrects up to correction_capability() wrong symbols", "statement": "If at most ECCSymbols/2 symbols of an encoded object are changed, decode returns the object; decode never has undefined behaviour.", "quantifier": "every object and every pattern of at most ECCSymbols/2 wrong symbols", "why_tests_cant": "combinatorially many error patterns", "anchors": ["include/rad_ml/neural/advanced_reed_solomon.hpp:AdvancedReedSolomon::decode", "include/rad_ml/neural/galois_field.hpp:GaloisField::rs_correct_errors"]}
{"id": "C85", "title": "Reed-Solomon encode is defined for every object", "statement": "encode(x) is well defined for every object x of type T and every admissible SymbolSize.", "quantifier": "every object, symbol size and number of check symbols", "why_tests_cant": "out-of-bounds table reads need not be visible", "anchors": ["include/rad_ml/neural/advanced_reed_solomon.hpp:AdvancedReedSolomon::encode"]}
{"id": "C86", "title": "is_correctable answers for every input", "statement": "is_correctable returns true for correctable words and false for the others, without undefined behaviour.", "quantifier": "every byte vector", "why_tests_cant": "all words", "anchors": ["include/rad_ml/neural/advanced_reed_solomon.hpp:AdvancedReedSolomon::is_correctable"]}
{"id": "C87", "title": "rs_find_errors returns exactly the roots of the error locator", "statement": "For every locator polynomial over the field and every message length up to the field size, rs_find_errors returns the positions p whose inverse locator alpha^-(len-1-p) is a root, in decreasing order, if there are as many as the degree, and nothing otherwise.", "quantifier": "every polynomial and length", "why_tests_cant": "all polynomials", "anchors": ["include/rad_ml/neural/galois_field.hpp:GaloisField::rs_find_errors"]}
{"id": "C88", "title": "Multi-bit protection returns what was stored", "statement": "For every coding scheme, an object constructed with or assigned v returns v, is valid, and reports no error, whatever it held before.", "quantifier": "every 32-bit value, scheme and previous state", "why_tests_cant": "2^32 values times all previous states", "anchors": ["include/rad_ml/neural/multi_bit_protection.hpp:MultibitProtection::setValue", "include/rad_ml/neural/multi_bit_protection.hpp:MultibitProtection::getValue", "include/rad_ml/neural/multi_bit_protection.hpp:MultibitProtection::hasError"]}
{"id": "C89", "title": "HAMMING corrects any single data bit error", "statement": "After any one bit of the stored value flips, hasError() is true, getValue() returns the original value and the object is repaired; any two flipped bits are detected.", "quantifier": "every value and bit position(s)", "why_tests_cant": "all values and positions", "anchors": ["include/rad_ml/neural/multi_bit_protection.hpp:MultibitProtection::correctErrors", "include/rad_ml/neural/multi_bit_protection.hpp:MultibitProtection::getValue"]}
{"id": "C90", "title": "HAMMING: a damaged check byte does not change the value", "statement": "If radiation changes one check byte (and not the value), getValue() still returns the stored value.", "quantifier": "every value, check byte and damage", "why_tests_cant": "all damages", "anchors": ["include/rad_ml/neural/multi_bit_protection.hpp:MultibitProtection::getValue"]}
{"id": "C91", "title": "SECDED corrects every single data bit error", "statement": "After any one bit of the stored value flips, correctErrors() succeeds and getValue() returns the original value.", "quantifier": "every value and bit position", "why_tests_cant": "all values and positions", "anchors": ["include/rad_ml/neural/multi_bit_protection.hpp:MultibitProtection::correctErrors"]}
{"id": "C92", "title": "SECDED detects double errors without miscorrecting", "statement": "After any two bits of the stored value flip, hasError() is true, correctErrors() reports failure and does not touch the data.", "quantifier": "every value and pair of positions", "why_tests_cant": "all values and pairs", "anchors": ["include/rad_ml/neural/multi_bit_protection.hpp:MultibitProtection::correctErrors", "include/rad_ml/neural/multi_bit_protection.hpp:MultibitProtection::hasError"]}
{"id": "C93", "title": "SECDED: a damaged check byte never changes the value", "statement": "If radiation changes one check byte, the error is detected and getValue() still returns the stored value.", "quantifier": "every value, check byte and damage", "why_tests_cant": "all damages", "anchors": ["include/rad_ml/neural/multi_bit_protection.hpp:MultibitProtection::getValue"]}
{"id": "C94", "title": "REED_SOLOMON detects every corruption of the value", "statement": "hasError() is true exactly when the stored value differs from the protected one.", "quantifier": "every pair of 32-bit values", "why_tests_cant": "2^64 pairs", "anchors": ["include/rad_ml/neural/multi_bit_protection.hpp:MultibitProtection::hasError"]}
{"id": "C95", "title": "REED_SOLOMON repairs any single-byte corruption", "statement": "Any corruption of the value confined to one byte is repaired exactly; damage to any one check byte is detected and never changes the value.", "quantifier": "every value, byte, damage", "why_tests_cant": "all values and damages", "anchors": ["include/rad_ml/neural/multi_bit_protection.hpp:MultibitProtection::correctErrors", "include/rad_ml/neural/multi_bit_protection.hpp:MultibitProtection::getValue"]}
{"id": "C96", "title": "correctErrors() == true means no error is left", "statement": "Whenever correctErrors() returns true, hasError() is false afterwards.", "quantifier": "every state", "why_tests_cant": "all states", "anchors": ["include/rad_ml/neural/multi_bit_protection.hpp:MultibitProtection::correctErrors", "include/rad_ml/neural/multi_bit_protection.hpp:MultibitProtection::hasError"]}
{"id": "C97", "title": "Bit interleaving is a bijection that separates neighbours", "statement": "undo(apply(v)) = v and apply(undo(v)) = v for every v, and a burst over two neighbouring bits of the interleaved word turns into two flips at least two positions apart.", "quantifier": "every value and burst position", "why_tests_cant": "all values", "anchors": ["include/rad_ml/neural/multi_bit_protection.hpp:MultibitProtection::applyBitInterleaving", "include/rad_ml/neural/multi_bit_protection.hpp:MultibitProtection::undoBitInterleaving"]}
{"id": "C98", "title": "applyMultiBitErrors injects damage of the announced kind only", "statement": "For every rate up to 1 and every sequence of random draws: at most one bit; two or three adjacent bits; bits of one byte; bits of one column; at most eight bits. Rates up to 0 change nothing.", "quantifier": "every value, rate, upset type and sequence of random draws", "why_tests_cant": "random draws", "anchors": ["include/rad_ml/neural/multi_bit_protection.hpp:MultibitProtection::applyMultiBitErrors"]}
{"id": "C99", "title": "ChecksumProtection detects corruption", "statement": "An untouched object raises no alarm, and every corruption of the stored value is detected by hasError(), however the value was assigned.", "quantifier": "every value and corruption", "why_tests_cant": "all corruptions", "anchors": ["include/rad_ml/neural/multi_bit_protection.hpp:ChecksumProtection::hasError", "include/rad_ml/neural/multi_bit_protection.hpp:ChecksumProtection::setValue"]}
{"id": "C100", "title": "The triplicated wrappers survive damage to one copy however they are read", "statement": "TripleModularRedundancy and AdaptiveTMRProtection return the stored value through getValue() and through the implicit conversion although one copy is damaged.", "quantifier": "every value, copy and damage", "why_tests_cant": "all damages", "anchors": ["include/rad_ml/neural/multi_bit_protection.hpp:TripleModularRedundancy::getValue", "include/rad_ml/neural/multi_bit_protection.hpp:AdaptiveTMRProtection::getValue", "include/rad_ml/neural/multi_bit_protection.hpp:MultibitProtection::operatorT"]}
{"id": "C101", "title": "Zone blocks never overlap", "statement": "For every zone map the constructor accepts and every sequence of allocate/deallocate calls, no call fails undefined, live blocks are pairwise disjoint and every block not taken from malloc lies inside a zone.", "quantifier": "every zone map and history of requests", "why_tests_cant": "all histories", "anchors": ["include/rad_ml/memory/radiation_mapped_allocator.hpp:RadiationMappedAllocator::allocate", "include/rad_ml/memory/radiation_mapped_allocator.hpp:RadiationMappedAllocator::deallocate", "include/rad_ml/memory/radiation_mapped_allocator.hpp:RadiationMappedAllocator::find_available_space"]}
{"id": "C102", "title": "Data goes to the zone of its criticality while it has room", "statement": "A request is served from the zone matching its criticality whenever that zone has a large enough gap.", "quantifier": "every history and request", "why_tests_cant": "all histories", "anchors": ["include/rad_ml/memory/radiation_mapped_allocator.hpp:RadiationMappedAllocator::allocate", "include/rad_ml/memory/radiation_mapped_allocator.hpp:RadiationMappedAllocator::select_zone_for_criticality", "include/rad_ml/memory/radiation_mapped_allocator.hpp:RadiationMappedAllocator::find_available_space"]}
{"id": "C103", "title": "Overflowing data goes to the next less protected zone with room", "statement": "When the preferred zone is full the request is served from a less protected zone that has room; malloc is used only if none has.", "quantifier": "every history and request", "why_tests_cant": "all histories", "anchors": ["include/rad_ml/memory/radiation_mapped_allocator.hpp:RadiationMappedAllocator::allocate", "include/rad_ml/memory/radiation_mapped_allocator.hpp:RadiationMappedAllocator::find_fallback_zone"]}
{"id": "C104", "title": "Usage by criticality is exact", "statement": "get_criticality_usage() is the number of bytes the client holds, per criticality.", "quantifier": "every history", "why_tests_cant": "all histories", "anchors": ["include/rad_ml/memory/radiation_mapped_allocator.hpp:RadiationMappedAllocator::get_criticality_usage", "include/rad_ml/memory/radiation_mapped_allocator.hpp:RadiationMappedAllocator::deallocate"]}
{"id": "C105", "title": "Diagnostics count the live blocks of every zone", "statement": "get_diagnostics() reports per zone level the number and bytes of the live blocks lying in that zone.", "quantifier": "every history and zone", "why_tests_cant": "all histories", "anchors": ["include/rad_ml/memory/radiation_mapped_allocator.hpp:RadiationMappedAllocator::get_diagnostics"]}
{"id": "C106", "title": "The vulnerability score is the weighted mean, in [0, 1]", "statement": "calculate_vulnerability_score() lies in [0,1], is 0 without live blocks, and equals the byte-weighted mean of importance times exposure up to rounding.", "quantifier": "every history", "why_tests_cant": "all histories", "anchors": ["include/rad_ml/memory/radiation_mapped_allocator.hpp:RadiationMappedAllocator::calculate_vulnerability_score"]}
{"id": "C107", "title": "The constructor rejects bad zone maps", "statement": "The constructor throws exactly for empty or overlapping zone lists, so that accepted maps are safe to use.", "quantifier": "every zone list", "why_tests_cant": "all lists", "anchors": ["include/rad_ml/memory/radiation_mapped_allocator.hpp:RadiationMappedAllocator::validate_zones", "include/rad_ml/memory/radiation_mapped_allocator.hpp:RadiationMappedAllocator::RadiationMappedAllocator"]}
{"id": "C108", "title": "STLAllocator::allocate(n) reserves room for n objects", "statement": "The block returned has room for n objects of type T and does not meet any live block.", "quantifier": "every n, element size and history", "why_tests_cant": "all n", "anchors": ["include/rad_ml/memory/radiation_mapped_allocator.hpp:RadiationMappedAllocator::STLAllocator::allocate"]}
{"id": "C109", "title": "Every component keeps at least its required and at most its possible protection", "statement": "After every call, get_protection_level(id) of every registered component lies between the min_protection_level and max_protection_level it was described with.", "quantifier": "every history of register/update/remove/set_power_state calls with sensible descriptions, every order std::sort may choose", "why_tests_cant": "all histories and rounding", "anchors": ["include/rad_ml/power/power_aware_protection.hpp:PowerAwareProtection::rebalance_protection_levels", "include/rad_ml/power/power_aware_protection.hpp:PowerAwareProtection::get_protection_level"]}
{"id": "C110", "title": "The power used stays within the budget", "statement": "After every call, get_current_power_usage() <= get_current_power_budget() if the components can be run within it at all.", "quantifier": "every history with sensible descriptions", "why_tests_cant": "all histories and rounding", "anchors": ["include/rad_ml/power/power_aware_protection.hpp:PowerAwareProtection::rebalance_protection_levels", "include/rad_ml/power/power_aware_protection.hpp:PowerAwareProtection::get_current_power_usage", "include/rad_ml/power/power_aware_protection.hpp:PowerAwareProtection::get_current_power_budget"]}
{"id": "C111", "title": "Protection levels do not depend on how the situation arose", "statement": "Two managers with the same total budget, the same state and the same descriptions under the same ids report the same levels, usage and effectiveness, whatever calls led there and whatever current level the descriptions carried.", "quantifier": "every pair of histories", "why_tests_cant": "all histories", "anchors": ["include/rad_ml/power/power_aware_protection.hpp:PowerAwareProtection::register_component", "include/rad_ml/power/power_aware_protection.hpp:PowerAwareProtection::update_component", "include/rad_ml/power/power_aware_protection.hpp:PowerAwareProtection::remove_component", "include/rad_ml/power/power_aware_protection.hpp:PowerAwareProtection::set_power_state"]}
{"id": "C112", "title": "Component ids are unique and calls on unknown ids do nothing", "statement": "register_component returns ids never returned before; get_protection_level(id) has a value exactly if id is registered and not removed; update/remove return true exactly then. With sensible descriptions no call fails.", "quantifier": "every history", "why_tests_cant": "all histories", "anchors": ["include/rad_ml/power/power_aware_protection.hpp:PowerAwareProtection::register_component", "include/rad_ml/power/power_aware_protection.hpp:PowerAwareProtection::update_component", "include/rad_ml/power/power_aware_protection.hpp:PowerAwareProtection::remove_component", "include/rad_ml/power/power_aware_protection.hpp:PowerAwareProtection::get_protection_level"]}
{"id": "C113", "title": "The effectiveness score lies in [0, 1]", "statement": "calculate_protection_effectiveness() is a number between 0 and 1 after every history.", "quantifier": "every history with components whose description has min <= max", "why_tests_cant": "all histories and rounding", "anchors": ["include/rad_ml/power/power_aware_protection.hpp:PowerAwareProtection::calculate_protection_effectiveness"]}
{"id": "C114", "title": "With power to spare every component runs at its maximum", "statement": "If the budget covers the maximum power of all components, every component is given its max_protection_level.", "quantifier": "every history", "why_tests_cant": "all histories", "anchors": ["include/rad_ml/power/power_aware_protection.hpp:PowerAwareProtection::rebalance_protection_levels"]}
{"id": "C115", "title": "Budgets grow from state to state", "statement": "For every non-negative total: 0 <= EMERGENCY <= LOW_POWER <= NOMINAL <= SCIENCE_OPERATION <= PEAK_PERFORMANCE = total, and get_current_power_budget() is that of the state last set.", "quantifier": "every total budget and history", "why_tests_cant": "all doubles", "anchors": ["include/rad_ml/power/power_aware_protection.hpp:PowerAwareProtection::PowerAwareProtection", "include/rad_ml/power/power_aware_protection.hpp:PowerAwareProtection::get_current_power_budget"]}
{"id": "C116", "title": "Among equal components the more critical one is protected first", "statement": "Of two components with the same levels and powers, the one described with the higher criticality never has the lower protection level.", "quantifier": "every history with sensible descriptions, every order std::sort may choose", "why_tests_cant": "all histories and rounding", "anchors": ["include/rad_ml/power/power_aware_protection.hpp:PowerAwareProtection::rebalance_protection_levels"]}
{"id": "C117", "title": "The EDAC simulation restores exactly the bytes a Hamming code can restore", "statement": "applyProtectionTechnique(EDAC) returns byte k unchanged exactly when neither of its two codewords ended up with two or more inverted bits; total_errors is the number of bits struck, corrections_successful the number of damaged bytes restored.", "quantifier": "every memory, list of events and sequence of random answers", "why_tests_cant": "all memories, events and random answers", "anchors": ["src/testing/protection_techniques.cpp:applyEDAC", "src/testing/protection_techniques.cpp:HammingCode"]}
{"id": "C118", "title": "The TMR simulation restores a bit exactly when at most one copy was hit there", "statement": "After applyProtectionTechnique(TMR) a bit is inverted exactly when at least two of its three copies were; total_errors is the number of bits with some copy inverted, corrections_successful the number of those restored.", "quantifier": "every memory, list of events and sequence of random answers", "why_tests_cant": "all memories, events and random answers", "anchors": ["src/testing/protection_techniques.cpp:applyTMR"]}
{"id": "C119", "title": "The scrubbing simulation returns the original memory", "statement": "After applyProtectionTechnique(SCRUBBING) the memory is the original; total_errors is the number of upsetting events and corrections_successful the number of bytes that differed, never more than total_errors.", "quantifier": "every non-empty memory and list of events", "why_tests_cant": "all memories and events", "anchors": ["src/testing/protection_techniques.cpp:applyScrubbing"]}
{"id": "C120", "title": "The simulations are defined for every memory and event list", "statement": "applyProtectionTechnique returns for every memory, technique and event list.", "quantifier": "every memory, technique, event list and random answers", "why_tests_cant": "all memories", "anchors": ["src/testing/protection_techniques.cpp:applyProtectionTechnique", "src/testing/protection_techniques.cpp:applyTMR", "src/testing/protection_techniques.cpp:applyEDAC", "src/testing/protection_techniques.cpp:applyScrubbing"]}
{"id": "C121", "title": "The reported rates are numbers in [0, 1]", "statement": "seu_rate and ber reported by applyProtectionTechnique are numbers between 0 and 1.", "quantifier": "every memory, technique, event list and random answers", "why_tests_cant": "all runs and rounding", "anchors": ["src/testing/protection_techniques.cpp:calculateMetrics"]}
{"id": "C122", "title": "TMR simulation: the bit error rate is zero exactly when the memory was restored", "statement": "ber = 0 after applyProtectionTechnique(TMR) exactly when the memory returned equals the original.", "quantifier": "every memory, non-empty event list and random answers", "why_tests_cant": "all runs and rounding", "anchors": ["src/testing/protection_techniques.cpp:calculateMetrics", "src/testing/protection_techniques.cpp:applyTMR"]}
{"id": "C123", "title": "Other simulations: the bit error rate is zero exactly when the memory was restored", "statement": "ber = 0 after applyProtectionTechnique(EDAC, SCRUBBING or NONE) exactly when the memory returned equals the original.", "quantifier": "every memory, non-empty event list and random answers", "why_tests_cant": "all runs and rounding", "anchors": ["src/testing/protection_techniques.cpp:calculateMetrics", "src/testing/protection_techniques.cpp:applyEDAC", "src/testing/protection_techniques.cpp:applyScrubbing"]}
{"id": "C124", "title": "The fault positions are those of the pattern", "statement": "For a value of at least 8 bits SystematicFaultInjector computes, for every pattern but BURST_ERROR, each position of the pattern around the target bit exactly once and no other (adjacent bits wrap around; byte, word and row/column patterns are cut at the end of the value); a burst is 5 to 14 positions; all positions lie in the value.", "quantifier": "every pattern, width, start bit and random answers", "why_tests_cant": "all widths, start bits and random answers", "anchors": ["include/rad_ml/testing/fault_injection.hpp:SystematicFaultInjector::injectFault", "src/testing/fault_injection.cpp:SystematicFaultInjector::getBitsToFlip"]}
{"id": "C125", "title": "injectFault into a 64-bit value changes exactly the bits of its pattern", "statement": "injectFault on a value of a 64-bit type returns the value with exactly the positions of the pattern inverted (or, for STUCK_AT, the target bit at the stuck value); every other bit is kept.", "quantifier": "every pattern, value, position and random answers", "why_tests_cant": "all values and answers", "anchors": ["include/rad_ml/testing/fault_injection.hpp:SystematicFaultInjector::injectFault", "src/testing/fault_injection.cpp:SystematicFaultInjector::getBitsToFlip"]}
{"id": "C126", "title": "injectFault is defined for every arithmetic type", "statement": "injectFault<T> returns for every arithmetic T, whatever the value, pattern and position.", "quantifier": "every type, value, pattern and position", "why_tests_cant": "all types; needs a sanitizer to be seen", "anchors": ["include/rad_ml/testing/fault_injection.hpp:SystematicFaultInjector::injectFault", "src/testing/fault_injection.cpp:SystematicFaultInjector::getBitsToFlip"]}
{"id": "C127", "title": "Every injected fault changes the value", "statement": "The value injectFault returns differs from the one it was given.", "quantifier": "every pattern, value, position and random answers", "why_tests_cant": "all values and answers", "anchors": ["include/rad_ml/testing/fault_injection.hpp:SystematicFaultInjector::injectFault", "src/testing/fault_injection.cpp:SystematicFaultInjector::getBitsToFlip"]}
{"id": "C128", "title": "Injecting the same flipping fault twice restores the value", "statement": "Injecting a single-bit, adjacent, byte, word or row/column fault at the same position with the same random answers into the faulty value gives the original value back.", "quantifier": "every flipping pattern, 64-bit value, position and random answers", "why_tests_cant": "all values and answers", "anchors": ["include/rad_ml/testing/fault_injection.hpp:SystematicFaultInjector::injectFault", "src/testing/fault_injection.cpp:SystematicFaultInjector::getBitsToFlip"]}
{"id": "C129", "title": "FaultInjector touches one byte and does what the fault type says", "statement": "injectRandomBitFlip inverts exactly one bit; injectFault changes at most the drawn byte: one bit inverted, at most four bits inverted (exactly the drawn number if the drawn bits differ), or the byte 0, 255 or the drawn value.", "quantifier": "every non-empty region, fault type and random answers", "why_tests_cant": "all regions and answers", "anchors": ["include/rad_ml/testing/fault_injector.hpp:FaultInjector"]}
{"id": "C130", "title": "A multi-bit fault flips two to four bits", "statement": "FaultInjector::injectFault(MultiBitFlip) changes between two and four bits.", "quantifier": "every non-empty region and random answers", "why_tests_cant": "all regions and answers", "anchors": ["include/rad_ml/testing/fault_injector.hpp:FaultInjector"]}
{"id": "C131", "title": "testResilience counts detected and repaired faults", "statement": "The counts testResilience reports are those of a run of num_trials trials: detected is the number of trials in which verify failed after injection, corrected the number among them in which it succeeded after repair; the flags say whether the counts are positive; if every fault is detected and every repair works, both counts are num_trials.", "quantifier": "every component, injection, verification and repair callback and number of trials", "why_tests_cant": "all callbacks and counts", "anchors": ["include/rad_ml/testing/fault_injector.hpp:FaultInjector"]}
{"id": "C132", "title": "injectBitFlips inverts the drawn bits and returns how many upsets it made", "statement": "SEUSimulator::injectBitFlips returns the number of upsets drawn; a bit ends inverted exactly if it was drawn an odd number of times; the number of changed bits is at most that number and has the same parity.", "quantifier": "every memory, environment, duration and random answers", "why_tests_cant": "all memories and answers", "anchors": ["include/rad_ml/radiation/seu_simulator.hpp:SEUSimulator"]}
{"id": "C133", "title": "simulateSEUs reports every region", "statement": "simulateSEUs applies injectBitFlips to every region in turn, returns the sum of the upsets (modulo 2^32), and calls the callback once, in order, with its own count, for each region that was upset, and for no other.", "quantifier": "every list of regions, environment, duration and random answers", "why_tests_cant": "all region lists and answers", "anchors": ["include/rad_ml/radiation/seu_simulator.hpp:SEUSimulator"]}
{"id": "C134", "title": "Injection without exposure or memory is harmless", "statement": "With no environment, no memory, an empty memory or a zero duration the injectors change nothing and return.", "quantifier": "every injector, memory and duration", "why_tests_cant": "all combinations; needs a checked library to be seen", "anchors": ["include/rad_ml/radiation/seu_simulator.hpp:SEUSimulator", "include/rad_ml/testing/fault_injector.hpp:FaultInjector", "include/rad_ml/testing/radiation_simulator.hpp:RadiationSimulator"]}
{"id": "C135", "title": "A radiation event changes only the byte it reports and no more bits than it reports", "statement": "Each event of simulateEffects changes only the byte at its memory_offset and at most bits_affected bits of it: a flip inverts one bit, an upset the drawn number of adjacent bits, a latchup leaves one bit at the stuck value, a transient replaces the byte.", "quantifier": "every memory, environment and random answers", "why_tests_cant": "all memories and answers", "anchors": ["include/rad_ml/testing/radiation_simulator.hpp:RadiationSimulator"]}
{"id": "C136", "title": "A run of simulateEffects is the sequence of its events", "statement": "simulateEffects returns one event per draw in order; bytes at no reported offset are unchanged, the memory keeps its size, and the number of changed bits is at most the sum of the bits_affected.", "quantifier": "every memory, environment, duration and random answers", "why_tests_cant": "all memories and answers", "anchors": ["include/rad_ml/testing/radiation_simulator.hpp:RadiationSimulator"]}
{"id": "C137", "title": "Event rates are ordered and bounded", "statement": "For every sensible environment, among them all named missions, 0 <= transient <= latchup <= multi-bit <= single-bit <= total rate, and the total is at most 2160 per second.", "quantifier": "every environment with non-negative altitude, inclination 0..180, solar activity 0..10", "why_tests_cant": "all environments and rounding", "anchors": ["include/rad_ml/testing/radiation_simulator.hpp:RadiationSimulator"]}
{"id": "C138", "title": "A harsher environment never has lower event rates", "statement": "For the same mission, raising altitude, inclination or solar activity, entering the anomaly or thinning the shielding never lowers any rate.", "quantifier": "every two sensible environments", "why_tests_cant": "all environments and rounding", "anchors": ["include/rad_ml/testing/radiation_simulator.hpp:RadiationSimulator"]}
{"id": "C139", "title": "The protection level follows the smoothed error rate", "statement": "After an updateEnvironment call a second or more after the previous assessment, the estimated flux is 0.3 times the error rate plus 0.7 times the old flux (up to rounding), is between 0 and 2^33, the counters hold the reported counts, and the level is MAXIMUM from 1 error per second, ENHANCED from 0.1, STANDARD from 0.01 and MINIMAL below.", "quantifier": "every history of calls, counts and clock readings", "why_tests_cant": "the average depends on the whole history and on rounding", "anchors": ["include/rad_ml/core/radiation/adaptive_protection.hpp:AdaptiveProtection"]}
{"id": "C140", "title": "Every reported error counts towards the level", "statement": "Reporting more errors at the same moment never yields a lower flux or level.", "quantifier": "every history and every two pairs of counts", "why_tests_cant": "all counts, among them those whose sum does not fit", "anchors": ["include/rad_ml/core/radiation/adaptive_protection.hpp:AdaptiveProtection"]}
{"id": "C141", "title": "No report of errors is lost", "statement": "Errors passed to updateEnvironment as new since the last update enter the flux estimate, however close the calls are.", "quantifier": "every history and spacing of calls", "why_tests_cant": "all spacings", "anchors": ["include/rad_ml/core/radiation/adaptive_protection.hpp:AdaptiveProtection"]}
{"id": "C142", "title": "Level callbacks hear of every change, once, and of nothing else", "statement": "A call changes the level if and only if it calls every callback registered at that moment exactly once with the new level.", "quantifier": "every history of calls", "why_tests_cant": "all histories", "anchors": ["include/rad_ml/core/radiation/adaptive_protection.hpp:AdaptiveProtection"]}
{"id": "C143", "title": "A level callback may use the controller", "statement": "A callback may call the controller it is registered with, for instance to unregister itself.", "quantifier": "every callback and history", "why_tests_cant": "all histories", "anchors": ["include/rad_ml/core/radiation/adaptive_protection.hpp:AdaptiveProtection"]}
{"id": "C144", "title": "Callback handles are unique and unregistering removes exactly one callback", "statement": "registerLevelChangeCallback returns a handle no other registration ever had; unregisterLevelChangeCallback returns true exactly for a registered handle, and removes that one only.", "quantifier": "every history of calls", "why_tests_cant": "all histories", "anchors": ["include/rad_ml/core/radiation/adaptive_protection.hpp:AdaptiveProtection"]}
{"id": "C145", "title": "A temporary increase lasts for its duration and ends", "statement": "temporarilyIncreaseLevel(d) raises the level by one for d milliseconds, after which the former level returns.", "quantifier": "every state, duration and later history", "why_tests_cant": "all later histories and times", "anchors": ["include/rad_ml/core/radiation/adaptive_protection.hpp:AdaptiveProtection"]}
{"id": "C146", "title": "A quiet environment brings the level down to MINIMAL", "statement": "After any history, 82 assessments without errors, a second or more apart, leave the level MINIMAL.", "quantifier": "every history, then every sequence of at least 82 quiet assessments", "why_tests_cant": "all histories", "anchors": ["include/rad_ml/core/radiation/adaptive_protection.hpp:AdaptiveProtection"]}
{"id": "C147", "title": "A burst of errors brings MAXIMUM protection at once", "statement": "After any history, one assessment with at least 4 errors per second elapsed leaves the level MAXIMUM.", "quantifier": "every history and counts", "why_tests_cant": "all histories", "anchors": ["include/rad_ml/core/radiation/adaptive_protection.hpp:AdaptiveProtection"]}
{"id": "C148", "title": "The framework always runs with the settings of its environment", "statement": "After every call getCurrentSettings() is the last customization of the current environment, or its default if it was never customized.", "quantifier": "every history of calls, clock readings and tracker statistics", "why_tests_cant": "all histories", "anchors": ["include/rad_ml/core/adaptive/adaptive_framework.hpp:AdaptiveFramework"]}
{"id": "C149", "title": "With adaptive mode off only the user changes the environment", "statement": "After setAdaptiveMode(false) and until it is enabled again no call but setEnvironment changes the environment.", "quantifier": "every history", "why_tests_cant": "all histories", "anchors": ["include/rad_ml/core/adaptive/adaptive_framework.hpp:AdaptiveFramework"]}
{"id": "C150", "title": "Detected environment changes are at least ten seconds apart", "statement": "Two changes made by automatic detection are ten seconds or more apart, and the first is ten seconds or more after construction.", "quantifier": "every history of calls, clock readings and tracker statistics", "why_tests_cant": "all histories", "anchors": ["include/rad_ml/core/adaptive/adaptive_framework.hpp:AdaptiveFramework"]}
{"id": "C151", "title": "Detection moves by a single level only after five minutes in the same environment", "statement": "An automatic change to the neighbouring environment happens only if the environment has not changed for five minutes.", "quantifier": "every history", "why_tests_cant": "all histories and clock readings", "anchors": ["include/rad_ml/core/adaptive/adaptive_framework.hpp:AdaptiveFramework"]}
{"id": "C152", "title": "A spike of errors, or enabling adaptive mode, triggers detection immediately", "statement": "When ten errors have been logged, and when adaptive mode is switched on, the environment is checked immediately; with an error rate above 10 it becomes EXTREME.", "quantifier": "every history", "why_tests_cant": "all histories and clock readings", "anchors": ["include/rad_ml/core/adaptive/adaptive_framework.hpp:AdaptiveFramework"]}
{"id": "C153", "title": "Environment callbacks hear of every change, once, and of nothing else", "statement": "A call changes the environment if and only if it calls every registered callback exactly once with the new environment.", "quantifier": "every history", "why_tests_cant": "all histories", "anchors": ["include/rad_ml/core/adaptive/adaptive_framework.hpp:AdaptiveFramework"]}
{"id": "C154", "title": "Detection is monotone in the error rate", "statement": "In the same state, at the same time and for the same mix of patterns, a higher error rate never leads to a milder environment.", "quantifier": "every state, time, distribution and pair of error rates", "why_tests_cant": "all rates, and rounding", "anchors": ["include/rad_ml/core/adaptive/adaptive_framework.hpp:AdaptiveFramework"]}
{"id": "C155", "title": "A mission name means the same everywhere", "statement": "MissionProfile::createFromName(name) simulates the environment RadiationSimulator::getMissionEnvironment(name) gives.", "quantifier": "every name", "why_tests_cant": "all strings", "anchors": ["include/rad_ml/mission/mission_profile.hpp:MissionProfile", "include/rad_ml/testing/radiation_simulator.hpp:RadiationSimulator"]}
{"id": "C156", "title": "forward() computes the dense network on the current parameters", "statement": "At a radiation level of at most 0.2, or at a protection level other than FULL_TMR and ADAPTIVE_TMR, forward() returns the dense-layer formula on the stored weights, biases and activation functions, one value per output neuron, and changes only the check counter; an input of the wrong size is refused.", "quantifier": "every network, parameters, input and history", "why_tests_cant": "all sizes, parameters and float values", "anchors": ["include/rad_ml/neural/protected_neural_network.hpp:ProtectedNeuralNetwork"]}
{"id": "C157", "title": "Detected errors are the corrected plus the uncorrectable ones", "statement": "After every history of calls the detected count is the sum of the corrected and the uncorrectable count, and resetErrorStats() sets all of them to zero.", "quantifier": "every history", "why_tests_cant": "all histories", "anchors": ["include/rad_ml/neural/protected_neural_network.hpp:ProtectedNeuralNetwork"]}
{"id": "C158", "title": "Voting on activations never makes the result worse", "statement": "At every radiation level forward() with FULL_TMR or ADAPTIVE_TMR returns what it would return without simulated upsets.", "quantifier": "every network, input, radiation level and draw of the generators", "why_tests_cant": "all draws", "anchors": ["include/rad_ml/neural/protected_neural_network.hpp:ProtectedNeuralNetwork"]}
{"id": "C159", "title": "A protected network masks an upset of one stored weight", "statement": "With protection enabled, an upset of one stored weight is noticed and does not change the output.", "quantifier": "every network, weight and value", "why_tests_cant": "all positions and values", "anchors": ["include/rad_ml/neural/protected_neural_network.hpp:ProtectedNeuralNetwork"]}
{"id": "C160", "title": "applyRadiationEffects() hits only what it draws", "statement": "A radiation level r of at most zero changes nothing; otherwise only the first floor(50 r) drawn weights and a fifth as many drawn biases (none at NONE and CHECKSUM_ONLY) can change, and it always returns for r at most 1.", "quantifier": "every network, level and draw", "why_tests_cant": "all draws", "anchors": ["include/rad_ml/neural/protected_neural_network.hpp:ProtectedNeuralNetwork"]}
{"id": "C161", "title": "FULL_TMR and ADAPTIVE_TMR repair what radiation did", "statement": "After applyRadiationEffects() with FULL_TMR or ADAPTIVE_TMR a single-bit upset of a weight has been repaired.", "quantifier": "every network and upset", "why_tests_cant": "all positions", "anchors": ["include/rad_ml/neural/protected_neural_network.hpp:ProtectedNeuralNetwork"]}
{"id": "C162", "title": "setLayerWeights() replaces exactly one layer", "statement": "A matrix of the right shape replaces the weights of that layer, in the network and in the layer copy, and nothing else.", "quantifier": "every network, layer and matrix", "why_tests_cant": "all shapes and histories", "anchors": ["include/rad_ml/neural/protected_neural_network.hpp:ProtectedNeuralNetwork"]}
{"id": "C163", "title": "setLayerWeights() is all or nothing", "statement": "A matrix that is refused leaves the network unchanged.", "quantifier": "every network, layer and matrix", "why_tests_cant": "all shapes", "anchors": ["include/rad_ml/neural/protected_neural_network.hpp:ProtectedNeuralNetwork"]}
{"id": "C164", "title": "setLayerBiases() replaces exactly one layer, or nothing", "statement": "A vector of the right size replaces the biases of that layer, in the network and in the layer copy, and nothing else; any other call throws and changes nothing.", "quantifier": "every network, layer and vector", "why_tests_cant": "all shapes and histories", "anchors": ["include/rad_ml/neural/protected_neural_network.hpp:ProtectedNeuralNetwork"]}
{"id": "C165", "title": "getLayers() shows the parameters the network computes with", "statement": "Without simulated radiation and without edits through the references it returns, the layer copies are always equal to the stored weights and biases.", "quantifier": "every history of calls", "why_tests_cant": "all histories", "anchors": ["include/rad_ml/neural/protected_neural_network.hpp:ProtectedNeuralNetwork"]}
{"id": "C166", "title": "Edits through getLayers() take effect, and it shows upsets", "statement": "A weight written through getLayerMutable() is used by forward(), and a weight hit by radiation shows in getLayers().", "quantifier": "every network and edit", "why_tests_cant": "all histories", "anchors": ["include/rad_ml/neural/protected_neural_network.hpp:ProtectedNeuralNetwork"]}
{"id": "C167", "title": "train() improves the network", "statement": "train() changes the parameters so that the loss it returns does not grow.", "quantifier": "every network, data and number of epochs", "why_tests_cant": "all data", "anchors": ["include/rad_ml/neural/protected_neural_network.hpp:ProtectedNeuralNetwork"]}
{"id": "C168", "title": "evaluate() returns an accuracy between 0 and 1", "statement": "evaluate() returns a number in [0, 1].", "quantifier": "every network and data", "why_tests_cant": "all data", "anchors": ["include/rad_ml/neural/protected_neural_network.hpp:ProtectedNeuralNetwork"]}
{"id": "C169", "title": "The constructor and setActivationFunction() build the network asked for", "statement": "Networks have the given layer sizes, the drawn weights, zero biases and ReLU everywhere; fewer than two layers are refused; setActivationFunction() changes one layer, or throws for a layer that does not exist.", "quantifier": "every list of sizes, level and generator", "why_tests_cant": "all sizes", "anchors": ["include/rad_ml/neural/protected_neural_network.hpp:ProtectedNeuralNetwork"]}
{"id": "C170", "title": "Inference never changes the model", "statement": "forward() always returns, with one value per output neuron, and leaves weights, biases, activation functions and layer copies as they were, at every protection and radiation level.", "quantifier": "every network, input, radiation level and draw", "why_tests_cant": "all draws and histories", "anchors": ["include/rad_ml/neural/protected_neural_network.hpp:ProtectedNeuralNetwork"]}
{"id": "C171", "title": "Reliability scores stay between 0 and 1", "statement": "If initial reliabilities are in [0,1], getReliability() is always a number in [0,1].", "quantifier": "every sequence of addImplementation, updateReliability, execute and setReliabilityHistorySize", "why_tests_cant": "all histories", "anchors": ["include/rad_ml/advanced/algorithmic_diversity.hpp:AlgorithmicDiversity"]}
{"id": "C172", "title": "execute() returns the answer with the most reliability behind it", "statement": "When some consulted implementation answers, execute() returns the answer whose supporters have the largest sum of reliabilities (added in the order of names), the smallest such answer on a tie.", "quantifier": "every history and every behaviour of the implementations", "why_tests_cant": "all histories and answers", "anchors": ["include/rad_ml/advanced/algorithmic_diversity.hpp:AlgorithmicDiversity"]}
{"id": "C173", "title": "With untouched reliabilities the most frequent answer wins", "statement": "If all reliabilities are 1.0 and one answer is given more often than every other, execute() returns it.", "quantifier": "every number of implementations and every behaviour", "why_tests_cant": "all answers", "anchors": ["include/rad_ml/advanced/algorithmic_diversity.hpp:AlgorithmicDiversity"]}
{"id": "C174", "title": "A majority answer always wins", "statement": "An answer given by more than half of the consulted implementations is returned.", "quantifier": "every history and behaviour", "why_tests_cant": "all histories", "anchors": ["include/rad_ml/advanced/algorithmic_diversity.hpp:AlgorithmicDiversity"]}
{"id": "C175", "title": "A reported failure never raises the reliability", "statement": "updateReliability(name, false) does not increase getReliability(name).", "quantifier": "every history", "why_tests_cant": "all histories", "anchors": ["include/rad_ml/advanced/algorithmic_diversity.hpp:AlgorithmicDiversity"]}
{"id": "C176", "title": "The score follows the last N outcomes", "statement": "After addImplementation, each reported outcome moves the score a tenth of the way to the success rate of the last N outcomes (missing ones count as successes).", "quantifier": "every sequence of outcomes and history size", "why_tests_cant": "all sequences", "anchors": ["include/rad_ml/advanced/algorithmic_diversity.hpp:AlgorithmicDiversity"]}
{"id": "C177", "title": "setReliabilityHistorySize() keeps the most recent outcomes", "statement": "Changing the size keeps the newest outcomes and changes no score.", "quantifier": "every history and size", "why_tests_cant": "all histories", "anchors": ["include/rad_ml/advanced/algorithmic_diversity.hpp:AlgorithmicDiversity"]}
{"id": "C178", "title": "No call sequence is undefined behaviour", "statement": "Every sequence of calls is defined.", "quantifier": "every sequence of calls", "why_tests_cant": "all histories", "anchors": ["include/rad_ml/advanced/algorithmic_diversity.hpp:AlgorithmicDiversity"]}
{"id": "C179", "title": "Implementations below the threshold have no influence", "statement": "When a consulted implementation answers, what implementations with reliability below 0.2 would do changes neither the result nor the scores.", "quantifier": "every history and behaviour", "why_tests_cant": "all pairs of behaviours", "anchors": ["include/rad_ml/advanced/algorithmic_diversity.hpp:AlgorithmicDiversity"]}
{"id": "C180", "title": "execute() answers whenever a registered implementation does", "statement": "If a registered implementation returns a result, execute() returns a result.", "quantifier": "every history and behaviour", "why_tests_cant": "all behaviours", "anchors": ["include/rad_ml/advanced/algorithmic_diversity.hpp:AlgorithmicDiversity"]}
{"id": "C181", "title": "execute() changes the scores of failing implementations only", "statement": "execute() leaves names and all other scores unchanged; a consulted implementation that throws is treated as one reported failure.", "quantifier": "every history and behaviour", "why_tests_cant": "all behaviours", "anchors": ["include/rad_ml/advanced/algorithmic_diversity.hpp:AlgorithmicDiversity"]}
{"id": "C182", "title": "getMostReliableImplementation() returns a best name", "statement": "It returns a registered name with the largest score, the first in name order on a tie, and the empty string when nothing is registered.", "quantifier": "every history", "why_tests_cant": "all histories", "anchors": ["include/rad_ml/advanced/algorithmic_diversity.hpp:AlgorithmicDiversity"]}
{"id": "C183", "title": "Registration sets exactly one entry", "statement": "addImplementation() sets the reliability of its name, replaces an earlier registration completely, and leaves other names alone; hasImplementation() holds for exactly the registered names.", "quantifier": "every history", "why_tests_cant": "all histories", "anchors": ["include/rad_ml/advanced/algorithmic_diversity.hpp:AlgorithmicDiversity"]}
{"id": "C184", "title": "A persistently failing implementation is excluded until it is rehabilitated", "statement": "An implementation that throws in each of N+15 executions falls below the threshold; executions never bring an excluded one back; N+2 reported successes do.", "quantifier": "every history, history size N and behaviour of the others", "why_tests_cant": "unbounded histories", "anchors": ["include/rad_ml/advanced/algorithmic_diversity.hpp:AlgorithmicDiversity"]}
{"id": "C185", "title": "Taught corrections are recalled", "statement": "An output that occurred as a corrupted output in accepted training data gets error probability 0.9, and (detection threshold at most 0.9) suggestCorrection() returns the correct output taught last for it.", "quantifier": "every history of calls, input and output", "why_tests_cant": "all histories", "anchors": ["include/rad_ml/advanced/error_prediction.hpp:RadiationErrorPredictor"]}
{"id": "C186", "title": "train() accepts exactly matching non-empty data, and refused data has no effect", "statement": "train() returns true iff both lists are non-empty and of equal length; otherwise the object is unchanged; isTrained() iff some training was accepted.", "quantifier": "every history and data", "why_tests_cant": "all data", "anchors": ["include/rad_ml/advanced/error_prediction.hpp:RadiationErrorPredictor"]}
{"id": "C187", "title": "Outputs never taught are not corrected", "statement": "With a confidence threshold of at least 0.1, suggestCorrection() returns nothing for an output that was never taught.", "quantifier": "every history, input and output", "why_tests_cant": "all histories", "anchors": ["include/rad_ml/advanced/error_prediction.hpp:RadiationErrorPredictor"]}
{"id": "C188", "title": "Outputs similar to a known corrupted one are recognised", "statement": "detectErrorProbability() is at least 0.7 for an output that agrees with a known corrupted one in most elements.", "quantifier": "every history, input and output", "why_tests_cant": "all outputs", "anchors": ["include/rad_ml/advanced/error_prediction.hpp:RadiationErrorPredictor"]}
{"id": "C189", "title": "Prediction takes the input into account", "statement": "An output taught as the correct one for an input is not corrected for that input.", "quantifier": "every history, input and output", "why_tests_cant": "all inputs", "anchors": ["include/rad_ml/advanced/error_prediction.hpp:RadiationErrorPredictor"]}
{"id": "C190", "title": "A suggestion for an unknown output comes from the closest taught output", "statement": "suggestCorrection() for an unknown output returns the correction of the most similar taught output.", "quantifier": "every history, input and output", "why_tests_cant": "all outputs", "anchors": ["include/rad_ml/advanced/error_prediction.hpp:RadiationErrorPredictor"]}
{"id": "C191", "title": "Thresholds are clamped to [0,1] and obeyed", "statement": "Whatever float (also NaN or infinite) is given, the threshold in force is in [0,1], equal to the given one when that is in [0,1]; with a detection threshold above 0.9 nothing is ever suggested.", "quantifier": "every history and float", "why_tests_cant": "all floats", "anchors": ["include/rad_ml/advanced/error_prediction.hpp:RadiationErrorPredictor"]}
{"id": "C192", "title": "isPartiallyCorrupted() means at least 70 percent equal elements", "statement": "For equally long non-empty vectors (fewer than 2^31 elements) the double comparison decides exactly 10*equal >= 7*size, and it is false otherwise.", "quantifier": "every pair of vectors", "why_tests_cant": "all vectors; floating-point boundary", "anchors": ["include/rad_ml/advanced/error_prediction.hpp:isPartiallyCorrupted"]}
{"id": "C193", "title": "A convolution produces one output per position of the kernel", "statement": "When the kernel fits the padded input, OutputHeight and OutputWidth are exactly the numbers of positions of the kernel inside the padded input at the given stride.", "quantifier": "every template instance with dimensions below 2^24", "why_tests_cant": "all dimensions", "anchors": ["include/rad_ml/inference/layers/conv_layer.hpp:ConvolutionalLayer"]}
{"id": "C194", "title": "A convolution whose kernel does not fit produces no output", "statement": "When the kernel is larger than the padded input, the output is empty.", "quantifier": "every template instance with dimensions below 2^24", "why_tests_cant": "all dimensions; unsigned wrap-around", "anchors": ["include/rad_ml/inference/layers/conv_layer.hpp:ConvolutionalLayer"]}
{"id": "C195", "title": "forward() is the zero-padded cross-correlation", "statement": "When magnitudes are small enough for the fixed-point type, every output element is the bias plus the sum over input channels and kernel cells of weight times zero-padded input, products rounded down to the fixed-point grid.", "quantifier": "every shape, parameters, input and 8/16/32-bit fixed-point format", "why_tests_cant": "all shapes and inputs", "anchors": ["include/rad_ml/inference/layers/conv_layer.hpp:ConvolutionalLayer"]}
{"id": "C196", "title": "Rounding error of a convolution", "statement": "An output element is at most the exact real cross-correlation and less than one unit in the last place per product below it.", "quantifier": "every shape, parameters, input and format", "why_tests_cant": "all values", "anchors": ["include/rad_ml/inference/layers/conv_layer.hpp:ConvolutionalLayer"]}
{"id": "C197", "title": "forward() never executes undefined behaviour", "statement": "For all parameters and inputs of the storage type, forward() returns (no signed overflow, no index outside the arrays).", "quantifier": "every shape, parameters and input", "why_tests_cant": "all values", "anchors": ["include/rad_ml/inference/layers/conv_layer.hpp:ConvolutionalLayer"]}
{"id": "C198", "title": "A convolutional layer masks one damaged copy per parameter", "statement": "Over any history of parameter updates and strikes that change at most one copy of each parameter, each followed by repair(), the struck layer computes what an undamaged layer computes for every input and repair() restores every copy.", "quantifier": "every history, shape and input", "why_tests_cant": "all histories", "anchors": ["include/rad_ml/inference/layers/conv_layer.hpp:ConvolutionalLayer"]}
{"id": "C199", "title": "repair() never changes what a convolutional layer computes", "statement": "For any contents of the copies, repair() leaves the outputs for every input as they were and makes all copies of a parameter equal to the value read.", "quantifier": "every layer state and input", "why_tests_cant": "all states", "anchors": ["include/rad_ml/inference/layers/conv_layer.hpp:ConvolutionalLayer"]}
{"id": "C200", "title": "setWeight() and setBias() set exactly one parameter", "statement": "A valid setWeight/setBias stores the value in all three copies of that parameter and changes no other; a new layer computes zero for every input.", "quantifier": "every layer state, index and value", "why_tests_cant": "all states", "anchors": ["include/rad_ml/inference/layers/conv_layer.hpp:ConvolutionalLayer"]}
{"id": "C201", "title": "BasicTMR and HybridRedundancy mask one wrong execution and report it exactly", "statement": "If two of the three executions return v, execute() returns a value equal to v; error_detected is set exactly when not all three agree, error_corrected exactly when some two agree and not all do, and the confidence is 1, 0.67 (0.8) or 0.33 accordingly.", "quantifier": "every operation, value type and result triple", "why_tests_cant": "all operations", "anchors": ["include/rad_ml/tmr/adaptive_protection.hpp:ProtectionStrategy", "include/rad_ml/tmr/adaptive_protection_impl.hpp:execute"]}
{"id": "C202", "title": "EnhancedTMR masks one wrong integer execution", "statement": "If two of the three executions of an int operation return v, execute() returns v.", "quantifier": "every int operation and result triple", "why_tests_cant": "all operations", "anchors": ["include/rad_ml/tmr/adaptive_protection.hpp:ProtectionStrategy", "include/rad_ml/tmr/adaptive_protection_impl.hpp:execute"]}
{"id": "C203", "title": "EnhancedTMR reports whether an error was detected", "statement": "error_detected and error_corrected are meaningful after every execution: false when all three agree, true as appropriate otherwise.", "quantifier": "every operation and result triple", "why_tests_cant": "all result triples", "anchors": ["include/rad_ml/tmr/adaptive_protection.hpp:ProtectionStrategy", "include/rad_ml/tmr/adaptive_protection_impl.hpp:execute"]}
{"id": "C204", "title": "EnhancedTMR works for every float result", "statement": "Executing a float operation never runs into undefined behaviour and masks one wrong execution.", "quantifier": "every float operation and result triple", "why_tests_cant": "all floats", "anchors": ["include/rad_ml/tmr/adaptive_protection.hpp:ProtectionStrategy", "include/rad_ml/tmr/adaptive_protection_impl.hpp:execute"]}
{"id": "C205", "title": "StuckBitTMR masks one wrong execution", "statement": "If two of the three executions return v, execute() returns v.", "quantifier": "every operation and result triple", "why_tests_cant": "all result triples", "anchors": ["include/rad_ml/tmr/adaptive_protection.hpp:ProtectionStrategy", "include/rad_ml/tmr/adaptive_protection_impl.hpp:execute"]}
{"id": "C206", "title": "StuckBitTMR raises no false alarm", "statement": "If all three executions return v, no error is reported and the confidence is 1.", "quantifier": "every operation and value", "why_tests_cant": "all values", "anchors": ["include/rad_ml/tmr/adaptive_protection.hpp:ProtectionStrategy", "include/rad_ml/tmr/adaptive_protection_impl.hpp:execute"]}
{"id": "C207", "title": "StuckBitTMR takes a majority when every result looks stuck", "statement": "If all three int results are 0 or INT_MAX, execute() returns the value two of them share, with confidence 0.2, flagged as detected and not corrected.", "quantifier": "every int operation and suspicious triple", "why_tests_cant": "all operations", "anchors": ["include/rad_ml/tmr/adaptive_protection.hpp:ProtectionStrategy", "include/rad_ml/tmr/adaptive_protection_impl.hpp:execute"]}
{"id": "C208", "title": "Health scores stay within [0.1, 1] for the life of the object", "statement": "After any history of executions each health score is between 0.1 and 1, the value returned is one of the three results and an error is flagged exactly on disagreement.", "quantifier": "every history of executions of any operations", "why_tests_cant": "all histories", "anchors": ["include/rad_ml/tmr/adaptive_protection.hpp:ProtectionStrategy", "include/rad_ml/tmr/adaptive_protection_impl.hpp:execute"]}
{"id": "C209", "title": "HealthWeightedTMR masks one wrong execution at any age", "statement": "After any history in which each execution had at least two right results, an execution with two right results returns the right value.", "quantifier": "every history and result triple", "why_tests_cant": "all histories", "anchors": ["include/rad_ml/tmr/adaptive_protection.hpp:ProtectionStrategy", "include/rad_ml/tmr/adaptive_protection_impl.hpp:execute"]}
{"id": "C210", "title": "Disagreeing is never rewarded", "statement": "An execution in which not all three results agree never raises the health score of any of the three.", "quantifier": "every history and result triple", "why_tests_cant": "all histories", "anchors": ["include/rad_ml/tmr/adaptive_protection.hpp:ProtectionStrategy", "include/rad_ml/tmr/adaptive_protection_impl.hpp:execute"]}
{"id": "C211", "title": "The optimal protection level grows with severity and criticality", "statement": "In a more severe environment, or for a more critical operation, the level chosen is not lower, and it is never below BASIC_TMR; the strategy created is of that level.", "quantifier": "every pair of plausible environments, material and criticality", "why_tests_cant": "all environments", "anchors": ["include/rad_ml/tmr/adaptive_protection.hpp:ProtectionStrategy", "include/rad_ml/tmr/adaptive_protection_impl.hpp:execute"]}
{"id": "C212", "title": "The checkpoint interval is always between 10 and 3600 seconds", "statement": "For any base interval, environment and factors, NaN and infinities included, the adjusted interval is at least 10 and at most 3600.", "quantifier": "all doubles", "why_tests_cant": "all doubles", "anchors": ["src/tmr/adaptive_protection.cpp:CheckpointManager::adjustInterval"]}
{"id": "C213", "title": "The checkpoint interval shrinks as conditions worsen", "statement": "With larger temperature, stress or synergy factors, inside the SAA or with more solar activity the adjusted interval is not longer.", "quantifier": "every base interval, pair of environments and factors", "why_tests_cant": "all doubles", "anchors": ["src/tmr/adaptive_protection.cpp:CheckpointManager::adjustInterval"]}
{"id": "C214", "title": "Layer protection follows environment, sensitivity and position", "statement": "optimizePolicy gives every layer HYBRID_REDUNDANCY in the SAA or above solar activity 0.7; otherwise a more severe environment, a higher sensitivity or an earlier position never lowers the level; out-of-range layers read BASIC_TMR.", "quantifier": "every policy, environment and layer pair", "why_tests_cant": "all policies", "anchors": ["src/tmr/adaptive_protection.cpp:LayerProtectionPolicy"]}
{"id": "C215", "title": "The mission controller level is decided by the last environment update or known phase", "statement": "After any sequence of updates, phase settings and phase entries, the current level is the environment level of the most recent deciding update or the level configured at that time for the most recent known phase entered after it; unknown phases change nothing.", "quantifier": "every sequence of calls", "why_tests_cant": "all histories", "anchors": ["include/rad_ml/tmr/adaptive_protection.hpp:MissionAwareProtectionController", "src/tmr/adaptive_protection.cpp:MissionAwareProtectionController"]}
{"id": "C216", "title": "A mission phase sets a floor until it is left", "statement": "After entering a phase, environment updates never bring the level below the level configured for the phase.", "quantifier": "every sequence of calls", "why_tests_cant": "all histories", "anchors": ["include/rad_ml/tmr/adaptive_protection.hpp:MissionAwareProtectionController", "src/tmr/adaptive_protection.cpp:MissionAwareProtectionController"]}
{"id": "C217", "title": "createCurrentStrategy gives the strategy of the current level", "statement": "After any sequence of calls, the strategy created is of the level in force and creating it reads only initialised data.", "quantifier": "every sequence of calls", "why_tests_cant": "all histories", "anchors": ["include/rad_ml/tmr/adaptive_protection.hpp:MissionAwareProtectionController", "src/tmr/adaptive_protection.cpp:MissionAwareProtectionController"]}
{"id": "C218", "title": "executeProtected honours the mission phase", "statement": "After enterMissionPhase, executions are protected at least at the level of the phase, and a higher criticality is taken into account.", "quantifier": "every history of calls and operation", "why_tests_cant": "all histories", "anchors": ["include/rad_ml/tmr/physics_driven_protection.hpp:PhysicsDrivenProtection"]}
{"id": "C219", "title": "executeProtected masks one wrong integer execution in every history", "statement": "After any history of plausible environment updates, sensitivities and phases, executeProtected of an int operation with two right results returns the right value and never runs into undefined behaviour.", "quantifier": "every history, operation and layer", "why_tests_cant": "all histories", "anchors": ["include/rad_ml/tmr/physics_driven_protection.hpp:PhysicsDrivenProtection"]}
{"id": "C220", "title": "executeProtected masks one wrong float execution in every history", "statement": "After any history of plausible calls, executeProtected of a float operation with two right results returns the right value and never runs into undefined behaviour.", "quantifier": "every history, operation and layer", "why_tests_cant": "all histories", "anchors": ["include/rad_ml/tmr/physics_driven_protection.hpp:PhysicsDrivenProtection"]}
{"id": "C221", "title": "Protection resources are shared fairly", "statement": "Each share is between 0 and the total, a layer at least as sensitive and no later than another gets at least its share, and a network of one layer always has HYBRID_REDUNDANCY.", "quantifier": "every sensitivity vector, environment and number of layers", "why_tests_cant": "all environments", "anchors": ["include/rad_ml/tmr/physics_driven_protection.hpp:SensitivityBasedResourceAllocator"]}
{"id": "C222", "title": "A protected layer computes ReLU(Wx+b)", "statement": "For every plausible history of its protection object, all weights, biases and inputs of matching sizes, forward() returns the row-wise reference result.", "quantifier": "every history, float weights, biases and inputs", "why_tests_cant": "all histories and floats", "anchors": ["include/rad_ml/tmr/physics_driven_protection.hpp:ProtectedNeuralLayer"]}
{"id": "C223", "title": "forward() is defined for every input", "statement": "forward() returns for every input vector, including an empty one.", "quantifier": "every history, layer state and input", "why_tests_cant": "all inputs", "anchors": ["include/rad_ml/tmr/physics_driven_protection.hpp:ProtectedNeuralLayer"]}
{"id": "C224", "title": "forward() masks a corrupted stored weight", "statement": "After one stored weight is corrupted, forward() returns what it returned before.", "quantifier": "every history, layer, weight and corruption", "why_tests_cant": "all corruptions", "anchors": ["include/rad_ml/tmr/physics_driven_protection.hpp:ProtectedNeuralLayer"]}
{"id": "C225", "title": "setWeights and setBiases store exactly the given values", "statement": "After any plausible history, setWeights (setBiases) leaves the layer with the given weights (biases) and the other part unchanged.", "quantifier": "every history, layer and vector", "why_tests_cant": "all histories", "anchors": ["include/rad_ml/tmr/physics_driven_protection.hpp:ProtectedNeuralLayer"]}
{"id": "C226", "title": "The temporal delay of hybrid execution is bounded", "statement": "After any plausible history the delay between executions converts to an int between 50 and 2480800 milliseconds.", "quantifier": "every history", "why_tests_cant": "all histories", "anchors": ["include/rad_ml/tmr/physics_driven_protection.hpp:PhysicsDrivenProtection"]}
{"id": "C227", "title": "The synergy factor is between 1 and 1.5", "statement": "For all temperatures, stresses and yield strengths, including NaN and infinities, the synergy factor is between 1 and 1.5.", "quantifier": "all doubles", "why_tests_cant": "all doubles", "anchors": ["include/rad_ml/tmr/physics_driven_protection.hpp:PhysicsModels::calculateSynergyFactor"]}
{"id": "C228", "title": "In an emergency every layer executes with hybrid redundancy", "statement": "After any history, an environment update inside the SAA or with solar activity above 0.7 makes executeProtected use HYBRID_REDUNDANCY for every layer of the network.", "quantifier": "every history, environment and layer", "why_tests_cant": "all histories", "anchors": ["include/rad_ml/tmr/physics_driven_protection.hpp:PhysicsDrivenProtection"]}
{"id": "C229", "title": "Scales are recomputed only when their interval has elapsed", "statement": "A second environment update at the same clock reading, whatever it reports, leaves the temporal delay factor as the first left it.", "quantifier": "every state and pair of updates", "why_tests_cant": "all states", "anchors": ["include/rad_ml/tmr/physics_driven_protection.hpp:PhysicsDrivenProtection"]}
{"id": "C230", "title": "A mission run counts every event exactly once by kind, by fate and by environment", "statement": "Each time step adds exactly the events that struck to the totals: per kind, as detected or undetected, corrected, and under the environment of the step; over any history the totals stay consistent.", "quantifier": "every profile, configuration, region set, sequence of random answers and history of calls", "why_tests_cant": "all random sequences and histories", "anchors": ["include/rad_ml/testing/mission_simulator.hpp:MissionSimulator::runSimulation"]}
{"id": "C231", "title": "The byte totals are the sums of the registered regions", "statement": "After any history of registrations, runs and environment changes, protected and unprotected bytes are the sums over the regions registered as such, and total is their sum.", "quantifier": "every history", "why_tests_cant": "all histories", "anchors": ["include/rad_ml/testing/mission_simulator.hpp:MissionSimulator::registerMemoryRegion"]}
{"id": "C232", "title": "Only enabled protection detects or corrects an event", "statement": "In a step whose regions are all unprotected, or whose active settings enable neither TMR nor ECC, no event is counted as detected or corrected; without TMR no TMR activation is counted.", "quantifier": "every state and random answers", "why_tests_cant": "all states", "anchors": ["include/rad_ml/testing/mission_simulator.hpp:MissionSimulator::runSimulation"]}
{"id": "C233", "title": "Environments are chosen by their probabilities and every change is reported", "statement": "A new environment is chosen exactly when its time is over or the chance says so; the chosen one is where the cumulated probabilities pass the draw; the callback is called exactly for changes, with the new environment.", "quantifier": "every profile with probabilities, state and draw", "why_tests_cant": "all draws", "anchors": ["include/rad_ml/testing/mission_simulator.hpp:MissionSimulator::selectNextEnvironment", "include/rad_ml/testing/mission_simulator.hpp:MissionSimulator::runSimulation"]}
{"id": "C234", "title": "A mission run ends", "statement": "runSimulation returns after the number of time steps the duration needs, for every duration and time step.", "quantifier": "every duration, time step, state and random answers", "why_tests_cant": "all durations and steps", "anchors": ["include/rad_ml/testing/mission_simulator.hpp:MissionSimulator::runSimulation"]}
{"id": "C235", "title": "Time in environments accounts for the whole mission", "statement": "Each step adds its length to the environment of the step and to no other; with whole-second steps the times sum exactly to the simulated time.", "quantifier": "every state, duration, step and random answers", "why_tests_cant": "all histories", "anchors": ["include/rad_ml/testing/mission_simulator.hpp:MissionSimulator::runSimulation"]}
{"id": "C236", "title": "Every mission profile can be simulated", "statement": "A run never has undefined behaviour, whatever the profile, including an empty one, for which the constructor has a fallback.", "quantifier": "every profile", "why_tests_cant": "all profiles", "anchors": ["include/rad_ml/testing/mission_simulator.hpp:MissionSimulator::runSimulation"]}
{"id": "C237", "title": "The energy budget limits protection", "statement": "A configuration whose features cost more than the budget does not enable all of them.", "quantifier": "every configuration and run", "why_tests_cant": "all configurations", "anchors": ["include/rad_ml/testing/mission_simulator.hpp:MissionSimulator::runSimulation", "include/rad_ml/testing/mission_simulator.hpp:AdaptiveProtectionConfig"]}
{"id": "C238", "title": "Standard configurations protect more when radiation is higher", "statement": "For every mission type, a higher error rate never gets weaker settings: TMR, ECC and scrubbing stay on, the interval does not grow.", "quantifier": "every mission type and pair of rates", "why_tests_cant": "all rates", "anchors": ["include/rad_ml/testing/mission_simulator.hpp:MissionProfile::createStandard", "include/rad_ml/testing/mission_simulator.hpp:AdaptiveProtectionConfig::createStandard"]}
{"id": "C239", "title": "Standard mission profiles are well formed and can be flown", "statement": "For every mission type name the profile has one duration and probability per environment, probabilities that sum to 1, and every run of any step and duration over it completes without undefined behaviour.", "quantifier": "every mission type, region set, step, duration and random answers", "why_tests_cant": "all names and runs", "anchors": ["include/rad_ml/testing/mission_simulator.hpp:MissionProfile::createStandard", "include/rad_ml/testing/mission_simulator.hpp:AdaptiveProtectionConfig::createStandard", "include/rad_ml/testing/mission_simulator.hpp:MissionSimulator::runSimulation"]}
{"id": "C240", "title": "Scrubbing keeps its interval", "statement": "Scrubs are at least the smallest configured interval apart and, when scrubbing is always enabled, at most the interval plus one step; they are all counted.", "quantifier": "every configuration, run and random answers", "why_tests_cant": "all runs", "anchors": ["include/rad_ml/testing/mission_simulator.hpp:MissionSimulator::runSimulation"]}
{"id": "C241", "title": "An event counted as corrected leaves the memory undamaged", "statement": "A byte hit only by events that were counted as corrected has its original value after the run.", "quantifier": "every run", "why_tests_cant": "all runs", "anchors": ["include/rad_ml/testing/mission_simulator.hpp:MissionSimulator::runSimulation"]}
{"id": "C242", "title": "A mission run changes only registered memory", "statement": "Bytes outside the registered regions keep their values and the memory its size.", "quantifier": "every run", "why_tests_cant": "all runs", "anchors": ["include/rad_ml/testing/mission_simulator.hpp:MissionSimulator::runSimulation"]}
{"id": "C243", "title": "The uptime is a fraction, and 1 when nothing went wrong", "statement": "After every run the uptime is between 0 and 1, and 1 if every event was corrected or there was none.", "quantifier": "every run", "why_tests_cant": "all runs", "anchors": ["include/rad_ml/testing/mission_simulator.hpp:MissionSimulator::runSimulation"]}
{"id": "C244", "title": "An environment is left when its duration is over", "statement": "No stay in an environment is longer than its duration and one step, if there is another one.", "quantifier": "every profile and random answers", "why_tests_cant": "all draws", "anchors": ["include/rad_ml/testing/mission_simulator.hpp:MissionSimulator::runSimulation"]}
{"id": "C245", "title": "Radiation-aware training rejects data that does not fit the network", "statement": "Training data whose numbers of inputs and labels are not those of whole samples of the network returns the error result and changes neither network nor trainer; fitting data never returns the error result.", "quantifier": "every network, data, labels and configuration", "why_tests_cant": "all data sizes", "anchors": ["src/rad_ml/research/radiation_aware_training.cpp:RadiationAwareTraining::train"]}
{"id": "C246", "title": "Radiation-aware training is defined for every flip probability", "statement": "For every probability in [0,1] the training call returns statistics.", "quantifier": "every probability, network and data", "why_tests_cant": "all probabilities", "anchors": ["src/rad_ml/research/radiation_aware_training.cpp:RadiationAwareTraining::train"]}
{"id": "C247", "title": "An injection round flips one bit of exactly the values drawn, and counts them", "statement": "Every weight whose random number is below its chance (base probability times environment factor, more for critical weights, half for biases) has exactly the drawn bit flipped, all others keep their value, and the count grows by the number of flips.", "quantifier": "every network, trainer and random answers", "why_tests_cant": "all draws", "anchors": ["src/rad_ml/research/radiation_aware_training.cpp:RadiationAwareTraining::injectRadiationEffects"]}
{"id": "C248", "title": "Injected bit flips affect what the network computes", "statement": "Weights flipped during training change the outputs of the network, so that it learns to tolerate them.", "quantifier": "every network and injection", "why_tests_cant": "all networks", "anchors": ["src/rad_ml/research/radiation_aware_training.cpp:RadiationAwareTraining::injectRadiationEffects", "include/rad_ml/neural/protected_neural_network.hpp:ProtectedNeuralNetwork::forward"]}
{"id": "C249", "title": "Radiation-aware training trains", "statement": "The training call changes the parameters of a network that does not fit the data.", "quantifier": "every network, data and configuration", "why_tests_cant": "all histories", "anchors": ["src/rad_ml/research/radiation_aware_training.cpp:RadiationAwareTraining::train", "include/rad_ml/neural/protected_neural_network.hpp:ProtectedNeuralNetwork::train"]}
{"id": "C250", "title": "Training reports the accuracy drop and the recovery rate", "statement": "The average accuracy drop and recovery rate reported describe the effect of the injections.", "quantifier": "every history of a trainer", "why_tests_cant": "all histories", "anchors": ["src/rad_ml/research/radiation_aware_training.cpp:RadiationAwareTraining::train", "include/rad_ml/research/radiation_aware_training.hpp:RadiationTrainingStats"]}
{"id": "C251", "title": "The criticality map identifies critical weights", "statement": "After an analysis the criticality of a weight is in [0,1] and larger for weights whose flips change the loss more.", "quantifier": "every network, data and draws", "why_tests_cant": "all networks", "anchors": ["src/rad_ml/research/radiation_aware_training.cpp:RadiationAwareTraining::updateCriticalityMap"]}
{"id": "C252", "title": "The criticality analysis leaves the network as it was", "statement": "Every weight flipped for a test is restored: after the analysis the network and the statistics are unchanged.", "quantifier": "every network and draws", "why_tests_cant": "all draws", "anchors": ["src/rad_ml/research/radiation_aware_training.cpp:RadiationAwareTraining::updateCriticalityMap"]}
{"id": "C253", "title": "A trainer can be used for several networks", "statement": "A trainer that has trained one network can train another, of any sizes.", "quantifier": "every history of a trainer", "why_tests_cant": "all histories", "anchors": ["src/rad_ml/research/radiation_aware_training.cpp:RadiationAwareTraining::train", "src/rad_ml/research/radiation_aware_training.cpp:RadiationAwareTraining::updateCriticalityMap"]}
{"id": "C254", "title": "An empty training set is harmless", "statement": "Training on no samples returns and leaves meaningful statistics.", "quantifier": "every trainer and network", "why_tests_cant": "all trainers", "anchors": ["src/rad_ml/research/radiation_aware_training.cpp:RadiationAwareTraining::train"]}
{"id": "C255", "title": "Every epoch presents every sample once, whatever the batch size", "statement": "For every number of samples and every batch size an epoch trains on each sample exactly once and in order.", "quantifier": "every number of samples and batch size", "why_tests_cant": "all sizes", "anchors": ["src/rad_ml/research/radiation_aware_training.cpp:RadiationAwareTraining::train"]}
{"id": "C256", "title": "The total number of flips is the sum over the injection rounds", "statement": "With targeting off, injections happen in every k-th epoch where k is the whole part of 1/p, and the total reported is what it was plus the flips of these rounds.", "quantifier": "every network, configuration and random answers", "why_tests_cant": "all histories", "anchors": ["src/rad_ml/research/radiation_aware_training.cpp:RadiationAwareTraining::train", "src/rad_ml/research/radiation_aware_training.cpp:RadiationAwareTraining::injectRadiationEffects"]}
{"id": "C257", "title": "A harsher environment injects at least as many flips", "statement": "With the same random numbers an environment with a higher radiation level flips at least the values a milder one flips.", "quantifier": "every pair of environments and random answers", "why_tests_cant": "all draws", "anchors": ["src/rad_ml/research/radiation_aware_training.cpp:RadiationAwareTraining::injectRadiationEffects", "src/rad_ml/sim/environment.cpp:getRadiationEnvironment"]}
{"id": "C258", "title": "Skip connections behave as a set of valid pairs", "statement": "After any history of calls getSkipConnections() lists, without repetition and in some order, exactly the pairs whose last successful add was not followed by a remove; add succeeds exactly for from < to < number of layers and remove exactly for pairs that are present; a refused call changes nothing.", "quantifier": "every network, history of calls and hash order", "why_tests_cant": "all histories", "anchors": ["include/rad_ml/research/residual_network.hpp:ResidualNeuralNetwork::addSkipConnection", "include/rad_ml/research/residual_network.hpp:ResidualNeuralNetwork::removeSkipConnection", "include/rad_ml/research/residual_network.hpp:ResidualNeuralNetwork::getSkipConnections", "include/rad_ml/research/residual_network.hpp:ResidualNeuralNetwork::makeConnectionKey"]}
{"id": "C259", "title": "Skip connections and projections take part in the forward pass", "statement": "Adding a skip connection or setting its projection changes the output of forward() in the way a residual connection does.", "quantifier": "every network, input, radiation level and set of connections", "why_tests_cant": "all inputs and networks", "anchors": ["include/rad_ml/research/residual_network.hpp:ResidualNeuralNetwork::forward", "include/rad_ml/research/residual_network.hpp:ResidualNeuralNetwork::applyProtectionToSkipConnections", "include/rad_ml/research/residual_network.hpp:ResidualNeuralNetwork::setSkipProjection"]}
{"id": "C260", "title": "addResidualBlock() adds a block", "statement": "After addResidualBlock() the network has an additional block.", "quantifier": "every network and block description", "why_tests_cant": "all histories", "anchors": ["include/rad_ml/research/residual_network.hpp:ResidualNeuralNetwork::addResidualBlock"]}
{"id": "C261", "title": "Saved skip connections are restored by loading", "statement": "What saveToFile() writes, loadFromFile() reads back: the same connections with the same weights and protection flags, for every content and every hash order.", "quantifier": "every content of the connection map", "why_tests_cant": "all sizes, weights and orders", "anchors": ["include/rad_ml/research/residual_network.hpp:ResidualNeuralNetwork::saveToFile", "include/rad_ml/research/residual_network.hpp:ResidualNeuralNetwork::loadFromFile"]}
{"id": "C262", "title": "Loading a saved network restores its parameters and projections", "statement": "After loadFromFile() the network computes what the saved network computed.", "quantifier": "every pair of networks", "why_tests_cant": "all networks", "anchors": ["include/rad_ml/research/residual_network.hpp:ResidualNeuralNetwork::saveToFile", "include/rad_ml/research/residual_network.hpp:ResidualNeuralNetwork::loadFromFile", "include/rad_ml/research/residual_network.hpp:ResidualNeuralNetwork::saveState", "include/rad_ml/research/residual_network.hpp:ResidualNeuralNetwork::loadState"]}
{"id": "C263", "title": "A failed load leaves the network unchanged", "statement": "If loadFromFile() answers false the network is as it was before.", "quantifier": "every file content and allocation behaviour", "why_tests_cant": "all files and failures", "anchors": ["include/rad_ml/research/residual_network.hpp:ResidualNeuralNetwork::loadFromFile"]}
{"id": "C264", "title": "Truncated files are detected", "statement": "Loading a file that was cut short answers false.", "quantifier": "every saved file and every cut", "why_tests_cant": "all crash points of the writer", "anchors": ["include/rad_ml/research/residual_network.hpp:ResidualNeuralNetwork::loadFromFile"]}
{"id": "C265", "title": "Loading a file has no undefined behaviour", "statement": "Whatever bytes a file holds, loadFromFile() is defined.", "quantifier": "every file content", "why_tests_cant": "all byte sequences", "anchors": ["include/rad_ml/research/residual_network.hpp:ResidualNeuralNetwork::loadFromFile"]}
{"id": "C266", "title": "Loaded skip connections are valid for the loading network", "statement": "After loadFromFile() every connection listed has from < to < number of layers.", "quantifier": "every pair of networks", "why_tests_cant": "all networks", "anchors": ["include/rad_ml/research/residual_network.hpp:ResidualNeuralNetwork::loadFromFile", "include/rad_ml/research/residual_network.hpp:ResidualNeuralNetwork::addSkipConnection"]}
{"id": "C267", "title": "saveToFile() answers true only if everything was written", "statement": "If saveToFile() answers true the file holds all connections.", "quantifier": "every content and every amount of space on the disk", "why_tests_cant": "all fault points of the disk", "anchors": ["include/rad_ml/research/residual_network.hpp:ResidualNeuralNetwork::saveToFile"]}
{"id": "C268", "title": "train() and evaluate() of a residual network work on data sets", "statement": "train() and evaluate() accept data sets of any number of samples, evaluate() answers an accuracy between 0 and 1.", "quantifier": "every network and data set", "why_tests_cant": "all data sets", "anchors": ["include/rad_ml/research/residual_network.hpp:ResidualNeuralNetwork::train", "include/rad_ml/research/residual_network.hpp:ResidualNeuralNetwork::evaluate", "include/rad_ml/research/residual_network.hpp:ResidualNeuralNetwork::calculateLoss"]}
{"id": "C269", "title": "isAllocated() and getAllocationInfo() know exactly the live allocations", "statement": "After any history, isAllocated(p) is true and getAllocationInfo(p) describes the allocation (size, type, array) exactly when p was returned by an allocate call and not deallocated since.", "quantifier": "every history of calls, size, flags and protection level", "why_tests_cant": "all histories", "anchors": ["include/rad_ml/core/memory/unified_memory.hpp:isAllocated", "include/rad_ml/core/memory/unified_memory.hpp:getAllocationInfo", "include/rad_ml/core/memory/unified_memory.hpp:allocate", "include/rad_ml/core/memory/unified_memory.hpp:allocateObject", "include/rad_ml/core/memory/unified_memory.hpp:allocateArray"]}
{"id": "C270", "title": "What allocate() returned can be deallocated", "statement": "deallocate(p) answers true for every p that allocate() returned, gives the block back to the system and leaves the other allocations as they were.", "quantifier": "every history, size, flags and protection level", "why_tests_cant": "all histories and sizes", "anchors": ["include/rad_ml/core/memory/unified_memory.hpp:allocate", "include/rad_ml/core/memory/unified_memory.hpp:deallocate"]}
{"id": "C271", "title": "Memory statistics balance", "statement": "current_allocations and current_bytes count the live allocations and their bytes; without resetStats() total_allocations = total_deallocations + current_allocations.", "quantifier": "every history of calls", "why_tests_cant": "all histories", "anchors": ["include/rad_ml/core/memory/unified_memory.hpp:getStats", "include/rad_ml/core/memory/unified_memory.hpp:trackAllocation", "include/rad_ml/core/memory/unified_memory.hpp:deallocate"]}
{"id": "C272", "title": "Peak statistics are the largest values there have been", "statement": "peak_allocations and peak_bytes equal the maximum of the current values over the history, and are never below the current values.", "quantifier": "every history of calls", "why_tests_cant": "all histories", "anchors": ["include/rad_ml/core/memory/unified_memory.hpp:getStats", "include/rad_ml/core/memory/unified_memory.hpp:trackAllocation", "include/rad_ml/core/memory/unified_memory.hpp:resetStats"]}
{"id": "C273", "title": "resetStats() recomputes the statistics from the live allocations", "statement": "After resetStats() current and protected counts and bytes are those of the live allocations, all other counters are zero, and allocations, memory and callbacks are untouched.", "quantifier": "every history of calls", "why_tests_cant": "all histories", "anchors": ["include/rad_ml/core/memory/unified_memory.hpp:resetStats"]}
{"id": "C274", "title": "Freeing what is not allocated is rejected without effect", "statement": "deallocate() of an unknown pointer or a second time answers false and changes nothing; free() is never called for a block that is not live.", "quantifier": "every history of calls and every pointer", "why_tests_cant": "all histories and pointers", "anchors": ["include/rad_ml/core/memory/unified_memory.hpp:deallocate"]}
{"id": "C275", "title": "The bytes an allocation returns are its own", "statement": "The range [p, p+size) that allocate() returns lies in the block obtained from the system, overlaps no other live allocation, and allocating changes no byte of the others.", "quantifier": "every history, size (also near SIZE_MAX), flags and level", "why_tests_cant": "all sizes and histories", "anchors": ["include/rad_ml/core/memory/unified_memory.hpp:allocate", "include/rad_ml/core/memory/unified_memory.hpp:allocateArray", "include/rad_ml/core/memory/unified_memory.hpp:calculateProtectedSize"]}
{"id": "C276", "title": "Setting up protection stays inside the block", "statement": "allocate() with any protection level writes only inside the block it obtained.", "quantifier": "every size, flags and level", "why_tests_cant": "all sizes", "anchors": ["include/rad_ml/core/memory/unified_memory.hpp:allocate", "include/rad_ml/core/memory/unified_memory.hpp:setupMemoryProtection", "include/rad_ml/core/memory/unified_memory.hpp:calculateProtectedSize"]}
{"id": "C277", "title": "protectMemory() keeps the contents", "statement": "protectMemory() of a live allocation changes none of its bytes and writes nothing outside it.", "quantifier": "every live allocation and level", "why_tests_cant": "all sizes and contents", "anchors": ["include/rad_ml/core/memory/unified_memory.hpp:protectMemory", "include/rad_ml/core/memory/unified_memory.hpp:setupMemoryProtection"]}
{"id": "C278", "title": "Protection status and protected statistics agree", "statement": "An allocation made with a protection level is reported as protected, protect/unprotect set and clear the status, and protected_allocations/protected_bytes count the protected live allocations.", "quantifier": "every history of calls", "why_tests_cant": "all histories", "anchors": ["include/rad_ml/core/memory/unified_memory.hpp:protectMemory", "include/rad_ml/core/memory/unified_memory.hpp:unprotectMemory", "include/rad_ml/core/memory/unified_memory.hpp:removeMemoryProtection", "include/rad_ml/core/memory/unified_memory.hpp:getAllocationInfo"]}
{"id": "C279", "title": "Intact memory verifies", "statement": "verifyMemoryIntegrity(p) answers true for a live allocation whose bytes were not corrupted.", "quantifier": "every live allocation", "why_tests_cant": "all histories and contents", "anchors": ["include/rad_ml/core/memory/unified_memory.hpp:verifyMemoryIntegrity", "include/rad_ml/core/memory/unified_memory.hpp:getDefaultProtectionLevel"]}
{"id": "C280", "title": "A protected block can be deallocated", "statement": "deallocate(p) of a live protected allocation frees it and returns.", "quantifier": "every history leading to a protected allocation", "why_tests_cant": "all histories", "anchors": ["include/rad_ml/core/memory/unified_memory.hpp:deallocate", "include/rad_ml/core/memory/unified_memory.hpp:verifyMemoryIntegrity"]}
{"id": "C281", "title": "Canaries stand directly before and behind the caller's bytes", "statement": "With level CANARY the eight bytes before p and the eight bytes from p+size hold the canary, inside the block.", "quantifier": "every history, size and flags", "why_tests_cant": "all sizes", "anchors": ["include/rad_ml/core/memory/unified_memory.hpp:allocate", "include/rad_ml/core/memory/unified_memory.hpp:setupMemoryProtection"]}
{"id": "C282", "title": "ZERO_INITIALIZED zeroes the caller's bytes, ALIGNED aligns the pointer", "statement": "With ZERO_INITIALIZED every byte of [p,p+size) is 0; with ALIGNED p is a multiple of the alignment.", "quantifier": "every history, size, level, alignment and block content", "why_tests_cant": "all sizes, levels and contents", "anchors": ["include/rad_ml/core/memory/unified_memory.hpp:allocate"]}
{"id": "C283", "title": "When the system has no memory nothing changes", "statement": "If malloc/aligned_alloc fails, allocate answers null with NO_THROW and throws bad_alloc otherwise; the manager is unchanged.", "quantifier": "every state, size, flags and level", "why_tests_cant": "all fault points of the system allocator", "anchors": ["include/rad_ml/core/memory/unified_memory.hpp:allocate", "include/rad_ml/core/memory/unified_memory.hpp:allocateObject", "include/rad_ml/core/memory/unified_memory.hpp:allocateArray"]}
{"id": "C284", "title": "Callback ids are unique and callbacks stay registered until unregistered", "statement": "registerCorruptionCallback returns an id never returned before; the callback stays registered until unregisterCorruptionCallback(id), which answers whether it was registered.", "quantifier": "every history of calls", "why_tests_cant": "all histories", "anchors": ["include/rad_ml/core/memory/unified_memory.hpp:registerCorruptionCallback", "include/rad_ml/core/memory/unified_memory.hpp:unregisterCorruptionCallback"]}
{"id": "C285", "title": "checkForLeaks() counts the live allocations and destroyed pointer objects leave none", "statement": "checkForLeaks() answers the number of live allocations; when a RadiationTolerantPtr is reset its memory is no longer allocated.", "quantifier": "every history, object size and level", "why_tests_cant": "all histories", "anchors": ["include/rad_ml/core/memory/unified_memory.hpp:checkForLeaks", "include/rad_ml/core/memory/unified_memory.hpp:RadiationTolerantPtr", "include/rad_ml/core/memory/unified_memory.hpp:makeProtected"]}
{"id": "C286", "title": "RadiationTolerantPtr objects own what they point to", "statement": "Over every history of make, reset and move, including throwing constructors and failing allocations, every non-null pointer object points to a live allocation, no two to the same, no live allocation is without owner, and no call is undefined.", "quantifier": "every history of make/reset/move with level NONE or CRC", "why_tests_cant": "all histories and fault points", "anchors": ["include/rad_ml/core/memory/unified_memory.hpp:RadiationTolerantPtr", "include/rad_ml/core/memory/unified_memory.hpp:makeRadiationTolerant", "include/rad_ml/core/memory/unified_memory.hpp:makeProtected"]}
{"id": "C287", "title": "Reported percentages are sane", "statement": "testArchitecture answers a baseline accuracy in [50,99], a radiation accuracy in [10,baseline], a preservation in [10,100], and repeats the configuration it was asked about.", "quantifier": "every architecture, dropout (also NaN), level, environment and trial, and every answer of the generator", "why_tests_cant": "all inputs and noise", "anchors": ["src/rad_ml/research/architecture_tester.cpp:testArchitecture"]}
{"id": "C288", "title": "Every architecture can be tested", "statement": "testArchitecture returns for every architecture and dropout rate.", "quantifier": "every architecture and dropout", "why_tests_cant": "all layer lists and doubles", "anchors": ["src/rad_ml/research/architecture_tester.cpp:testArchitecture"]}
{"id": "C289", "title": "Errors are accounted for and protection helps", "statement": "Detected errors = corrected + uncorrectable; without protection nothing is corrected; a stronger level never detects or corrects fewer, whatever dropout, residual flag and trial.", "quantifier": "every architecture, level, environment and trial", "why_tests_cant": "all inputs", "anchors": ["src/rad_ml/research/architecture_tester.cpp:testArchitecture"]}
{"id": "C290", "title": "More protection never lowers the reported accuracy", "statement": "For the same architecture, dropout, environment and trial a stronger protection level never gives a lower radiation accuracy or preservation.", "quantifier": "every configuration and pair of levels", "why_tests_cant": "all inputs and noise", "anchors": ["src/rad_ml/research/architecture_tester.cpp:testArchitecture"]}
{"id": "C291", "title": "Harsher environments never raise the reported accuracy", "statement": "For the same configuration an environment with a higher radiation level never gives a higher radiation accuracy.", "quantifier": "every configuration and pair of environments", "why_tests_cant": "all inputs", "anchors": ["src/rad_ml/research/architecture_tester.cpp:testArchitecture", "src/rad_ml/sim/environment.cpp:getRadiationLevel"]}
{"id": "C292", "title": "Reported accuracies come from training and testing on the data", "statement": "The result depends on the training and test data and on the number of epochs.", "quantifier": "every data set and number of epochs", "why_tests_cant": "all data sets", "anchors": ["src/rad_ml/research/architecture_tester.cpp:testArchitecture", "src/rad_ml/research/architecture_tester.cpp:testArchitectureMonteCarlo", "src/rad_ml/research/architecture_tester.cpp:trainNetwork"]}
{"id": "C293", "title": "Monte Carlo summaries are sane", "statement": "testArchitectureMonteCarlo answers mean baseline in [50,99], mean radiation accuracy in [10, mean baseline], mean preservation in [10,100], non-negative finite standard deviations, the number of trials and the configuration.", "quantifier": "every configuration, every number of trials from 1 below 2^37, every noise", "why_tests_cant": "all inputs; rounding of arbitrarily long sums", "anchors": ["src/rad_ml/research/architecture_tester.cpp:testArchitectureMonteCarlo", "src/rad_ml/research/architecture_tester.cpp:calculateMonteCarloStatistics"]}
{"id": "C294", "title": "Monte Carlo error counts equal those of a single test", "statement": "The averaged error counts are those of any single test of the same configuration (so detected = corrected + uncorrectable survives averaging).", "quantifier": "every configuration and number of trials", "why_tests_cant": "all inputs", "anchors": ["src/rad_ml/research/architecture_tester.cpp:testArchitectureMonteCarlo", "src/rad_ml/research/architecture_tester.cpp:calculateMonteCarloStatistics"]}
{"id": "C295", "title": "Monte Carlo trials are different experiments and the seed offset selects them", "statement": "No two trials of a run seed their generator alike; different seed offsets give different experiments.", "quantifier": "every configuration and pair of trials among 2^32", "why_tests_cant": "all inputs", "anchors": ["src/rad_ml/research/architecture_tester.cpp:testArchitectureMonteCarlo", "src/rad_ml/research/architecture_tester.cpp:testArchitecture"]}
{"id": "C296", "title": "getBestArchitecture and getOptimalDropout answer the first best recorded result", "statement": "They answer the architecture and dropout of the first recorded result with the highest preservation for the environment, and the default when there is none; the ordering they hand to the library is a strict weak order.", "quantifier": "every list of recorded results and environment", "why_tests_cant": "all result lists", "anchors": ["src/rad_ml/research/architecture_tester.cpp:getBestArchitecture", "src/rad_ml/research/architecture_tester.cpp:getOptimalDropout"]}
{"id": "C297", "title": "Every tested architecture is considered for the best", "statement": "A result answered by testArchitecture is among those getBestArchitecture chooses from.", "quantifier": "every history of calls", "why_tests_cant": "all histories", "anchors": ["src/rad_ml/research/architecture_tester.cpp:testArchitecture", "src/rad_ml/research/architecture_tester.cpp:getBestArchitecture", "src/rad_ml/research/architecture_tester.cpp:testArchitectureMonteCarlo"]}
{"id": "C298", "title": "The results file has one row per recorded result", "statement": "After any history the file holds what it held, the header if it was new, and one row per recorded result.", "quantifier": "every history and initial file", "why_tests_cant": "all histories", "anchors": ["src/rad_ml/research/architecture_tester.cpp:saveResultsToFile", "src/rad_ml/research/architecture_tester.cpp:ArchitectureTester"]}
{"id": "C299", "title": "testWidthRange and testDropoutRange test the whole range", "statement": "They test the values min, min+step, ... up to max.", "quantifier": "every range", "why_tests_cant": "all ranges", "anchors": ["src/rad_ml/research/architecture_tester.cpp:testWidthRange", "src/rad_ml/research/architecture_tester.cpp:testDropoutRange"]}
{"id": "C300", "title": "The best architecture has the network's input and output size", "statement": "getBestArchitecture answers a layer list that starts with the input size and ends with the output size.", "quantifier": "every history of calls and environment", "why_tests_cant": "all histories", "anchors": ["src/rad_ml/research/architecture_tester.cpp:getBestArchitecture", "src/rad_ml/research/architecture_tester.cpp:testArchitectureMonteCarlo"]}
{"id": "C301", "title": "Network configurations are strictly ordered", "statement": "The order on configurations that keys the table of tested configurations is irreflexive and transitive, and any two different configurations are ordered one way.", "quantifier": "every three configurations", "why_tests_cant": "all configurations, floating point", "anchors": ["include/rad_ml/research/auto_arch_search.hpp:NetworkConfig::operator<"]}
{"id": "C302", "title": "Configuration equality agrees with the order", "statement": "Two configurations are equal exactly when neither is less than the other.", "quantifier": "every pair of configurations", "why_tests_cant": "all pairs, floating point", "anchors": ["include/rad_ml/research/auto_arch_search.hpp:NetworkConfig::operator==", "include/rad_ml/research/auto_arch_search.hpp:NetworkConfig::operator<"]}
{"id": "C303", "title": "Grid search considers exactly the configurations of the grid, each once", "statement": "The grid holds exactly: input size, then one hidden layer or two of different widths (or every combination of the fixed number), output size, with every dropout option, every protection level and, for four or more layers when asked for, residual connections; without duplicates when the options have none; their number is the product formula.", "quantifier": "every list of width, dropout and level options and every fixed number of layers", "why_tests_cant": "all option lists", "anchors": ["src/rad_ml/research/auto_arch_search.cpp:generateAllConfigs"]}
{"id": "C304", "title": "Random and grid search cover the same configurations", "statement": "A randomly drawn configuration is built from the options; every configuration random search can draw is also in the grid.", "quantifier": "every option list and random stream", "why_tests_cant": "all streams", "anchors": ["src/rad_ml/research/auto_arch_search.cpp:generateRandomConfig", "src/rad_ml/research/auto_arch_search.cpp:generateAllConfigs"]}
{"id": "C305", "title": "Grid search answers the best configuration of the grid", "statement": "findOptimalArchitecture answers the first grid configuration whose test gives the highest preservation, with its numbers and the size of the grid as iterations; it completes when every grid configuration can be tested.", "quantifier": "every option list, environment, number of trials and noise", "why_tests_cant": "all inputs", "anchors": ["src/rad_ml/research/auto_arch_search.cpp:findOptimalArchitecture", "src/rad_ml/research/auto_arch_search.cpp:testConfiguration"]}
{"id": "C306", "title": "A search always answers a tested configuration", "statement": "Each search returns numbers that come from a test.", "quantifier": "every option list, number of trials and of iterations", "why_tests_cant": "all inputs", "anchors": ["src/rad_ml/research/auto_arch_search.cpp:findOptimalArchitecture", "src/rad_ml/research/auto_arch_search.cpp:randomSearch"]}
{"id": "C307", "title": "Grid search leaves exactly the results of the grid and of earlier searches", "statement": "After findOptimalArchitecture the table of tested configurations holds the new result of each grid configuration, and the earlier result of every other configuration.", "quantifier": "every earlier table and option list", "why_tests_cant": "all histories", "anchors": ["src/rad_ml/research/auto_arch_search.cpp:findOptimalArchitecture"]}
{"id": "C308", "title": "Random search tests exactly the asked number of new configurations and answers their best", "statement": "randomSearch(max) that returns has tested max different configurations built from the options, none of them tested before, answers the first best of them, and adds exactly their results to the table.", "quantifier": "every random stream, earlier table, maximum and number of trials", "why_tests_cant": "all streams and histories", "anchors": ["src/rad_ml/research/auto_arch_search.cpp:randomSearch", "src/rad_ml/research/auto_arch_search.cpp:generateRandomConfig"]}
{"id": "C309", "title": "Random search ends", "statement": "randomSearch returns for every maximum.", "quantifier": "every option list, earlier table and random stream", "why_tests_cant": "a hang cannot be tested for", "anchors": ["src/rad_ml/research/auto_arch_search.cpp:randomSearch"]}
{"id": "C310", "title": "A search answers the best configuration tested so far", "statement": "No configuration in the table of tested configurations is better than the one a search returns.", "quantifier": "every history of searches", "why_tests_cant": "all histories", "anchors": ["src/rad_ml/research/auto_arch_search.cpp:randomSearch", "src/rad_ml/research/auto_arch_search.cpp:findOptimalArchitecture"]}
{"id": "C311", "title": "Evolutionary search keeps its population valid and its best", "statement": "Every generation has the same number of configurations, all built from the options; the first of each generation is a best one of the generation before; the answer is the first best of all configurations evaluated, known results being reused; it completes when every configuration can be tested.", "quantifier": "every random stream, mutation rate, population size and number of generations", "why_tests_cant": "all streams", "anchors": ["src/rad_ml/research/auto_arch_search.cpp:evolutionarySearch", "src/rad_ml/research/auto_arch_search.cpp:mutateConfig", "src/rad_ml/research/auto_arch_search.cpp:crossoverConfigs", "src/rad_ml/research/auto_arch_search.cpp:generateRandomConfig"]}
{"id": "C312", "title": "Evolutionary search is defined for every population size and number of generations", "statement": "evolutionarySearch answers also for an empty population or no generation.", "quantifier": "every size and number", "why_tests_cant": "all inputs", "anchors": ["src/rad_ml/research/auto_arch_search.cpp:evolutionarySearch"]}
{"id": "C313", "title": "No configuration is tested twice", "statement": "A search runs as many tests as the table of tested configurations grows.", "quantifier": "every search and earlier table", "why_tests_cant": "all histories", "anchors": ["src/rad_ml/research/auto_arch_search.cpp:findOptimalArchitecture", "src/rad_ml/research/auto_arch_search.cpp:randomSearch", "src/rad_ml/research/auto_arch_search.cpp:evolutionarySearch"]}
{"id": "C314", "title": "The constructor reads the network's sizes off the data", "statement": "Input size = data per label; output size = number of different labels when that is between 2 and 99, else 1; the tester gets the same sizes.", "quantifier": "every data set", "why_tests_cant": "all data sets", "anchors": ["src/rad_ml/research/auto_arch_search.cpp:AutoArchSearch"]}
{"id": "C315", "title": "After a search the results file has one row per tested configuration", "statement": "The file holds the header and one row for each entry of the table, in order, and nothing else.", "quantifier": "every search and earlier content", "why_tests_cant": "all histories", "anchors": ["src/rad_ml/research/auto_arch_search.cpp:exportResults", "src/rad_ml/research/auto_arch_search.cpp:findOptimalArchitecture", "src/rad_ml/research/auto_arch_search.cpp:randomSearch", "src/rad_ml/research/auto_arch_search.cpp:evolutionarySearch"]}
{"id": "C316", "title": "The table of tested configurations stays sound", "statement": "After any history of searches and settings the table is sorted, has no configuration twice, loses none, and each result is about its configuration, with a preservation in [10,100].", "quantifier": "every history of calls", "why_tests_cant": "all histories", "anchors": ["src/rad_ml/research/auto_arch_search.cpp:findOptimalArchitecture", "src/rad_ml/research/auto_arch_search.cpp:randomSearch", "src/rad_ml/research/auto_arch_search.cpp:evolutionarySearch", "src/rad_ml/research/auto_arch_search.cpp:setFixedParameters", "src/rad_ml/research/auto_arch_search.cpp:setProtectionLevels"]}
{"id": "C317", "title": "encode answers latent_dim means and log-variances in [-10, 10]", "statement": "For an input of input_dim values (NaN and infinities included) encode returns latent_dim means and latent_dim log-variances, each a finite number between -10 and 10, at any radiation; any other size is refused with invalid_argument.", "quantifier": "every autoencoder, history, input and radiation", "why_tests_cant": "all inputs including NaN, all histories", "anchors": ["src/rad_ml/research/variational_autoencoder.cpp:encode"]}
{"id": "C318", "title": "Encoding and decoding are functions of the input", "statement": "At radiation where nothing is voted on, encode and decode return the same numbers for the same input whatever the random numbers, and leave every later answer unchanged.", "quantifier": "every autoencoder, input and random numbers", "why_tests_cant": "all inputs and random streams", "anchors": ["src/rad_ml/research/variational_autoencoder.cpp:encode", "src/rad_ml/research/variational_autoencoder.cpp:decode"]}
{"id": "C319", "title": "The autoencoder can reproduce its inputs", "statement": "forward can answer any input vector; decoded values are not confined to a fixed range.", "quantifier": "every autoencoder, input and latent vector", "why_tests_cant": "all weights and inputs", "anchors": ["src/rad_ml/research/variational_autoencoder.cpp:forward", "src/rad_ml/research/variational_autoencoder.cpp:decode", "src/rad_ml/research/variational_autoencoder.cpp:initializeDecoder", "src/rad_ml/research/variational_autoencoder.cpp:applyInverseLogarithmics"]}
{"id": "C320", "title": "sample is a function of mean, log-variance and seed", "statement": "Coordinate i is mean + exp(log_var/2) * noise_i (or the configured variant) where the noise depends on the seed modulo 2^32 only; seed 0 asks the generator; vectors shorter than latent_dim are not accepted silently.", "quantifier": "every vector, seed and sampling technique", "why_tests_cant": "all inputs and seeds", "anchors": ["src/rad_ml/research/variational_autoencoder.cpp:sample"]}
{"id": "C321", "title": "Latent protection keeps the latent values", "statement": "protectLatentVariables returns the values it was given, and counts corrected errors only when it removed one.", "quantifier": "every latent vector, radiation and noise", "why_tests_cant": "all values and random streams", "anchors": ["src/rad_ml/research/variational_autoencoder.cpp:protectLatentVariables"]}
{"id": "C322", "title": "Interpolation starts at the first vector and ends at the second", "statement": "interpolate at alpha 0 decodes the first latent vector and at alpha 1 the second; results have input_dim values; vectors of the wrong size are refused.", "quantifier": "every pair of vectors, alpha, radiation and option", "why_tests_cant": "all vectors", "anchors": ["src/rad_ml/research/variational_autoencoder.cpp:interpolate"]}
{"id": "C323", "title": "generate answers the requested number of samples", "statement": "generate(k) returns k vectors of input_dim values, those the decoder makes of the seed's normal numbers in order, and changes no weight.", "quantifier": "every count, seed and radiation", "why_tests_cant": "all counts and seeds", "anchors": ["src/rad_ml/research/variational_autoencoder.cpp:generate"]}
{"id": "C324", "title": "Training fits the autoencoder to the data", "statement": "train and trainProduction change the weights so that later answers differ.", "quantifier": "every training set, option and schedule", "why_tests_cant": "all data and histories", "anchors": ["src/rad_ml/research/variational_autoencoder.cpp:train", "src/rad_ml/research/variational_autoencoder.cpp:trainProduction", "src/rad_ml/research/variational_autoencoder.cpp:updateWeights", "src/rad_ml/research/variational_autoencoder.cpp:updateWeightsWithOptimizer"]}
{"id": "C325", "title": "train returns the mean loss of the last epoch", "statement": "The result is the sum of the batch means divided by the number of batches.", "quantifier": "every data set, batch size and shuffle", "why_tests_cant": "all sizes", "anchors": ["src/rad_ml/research/variational_autoencoder.cpp:train", "src/rad_ml/research/variational_autoencoder.cpp:calculateLoss"]}
{"id": "C326", "title": "Training terminates for every batch size", "statement": "train and trainProduction answer or throw for every configured batch size.", "quantifier": "every batch size and data set", "why_tests_cant": "non-termination", "anchors": ["src/rad_ml/research/variational_autoencoder.cpp:train", "src/rad_ml/research/variational_autoencoder.cpp:createBatches"]}
{"id": "C327", "title": "The validation split partitions the data", "statement": "Every sample is in exactly one of the two sets, and the training set has about (1 - validation_split) of them; every split between 0 and 1 is accepted.", "quantifier": "every data set, shuffle and split", "why_tests_cant": "all sizes, floating point", "anchors": ["src/rad_ml/research/variational_autoencoder.cpp:splitTrainValidation"]}
{"id": "C328", "title": "Batches cover the data in order", "statement": "createBatches cuts the data into consecutive non-empty batches of at most batch_size samples; a negative batch size means one batch.", "quantifier": "every data set and non-zero batch size", "why_tests_cant": "all sizes", "anchors": ["src/rad_ml/research/variational_autoencoder.cpp:createBatches"]}
{"id": "C329", "title": "Early stopping follows the validation losses", "statement": "trainProduction runs until the epochs or the patience are used up, not longer; the metrics have one entry per epoch, best_val_loss, best_epoch and epochs_without_improvement are those of the recorded validation losses, and each recorded loss is the mean over batches of means over samples.", "quantifier": "every data set, option, shuffle and random stream", "why_tests_cant": "all histories of losses, NaN included", "anchors": ["src/rad_ml/research/variational_autoencoder.cpp:trainProduction"]}
{"id": "C330", "title": "trainProduction on little data has usable losses", "statement": "The recorded losses are numbers for every non-empty data set and split.", "quantifier": "every data set and split", "why_tests_cant": "all sizes", "anchors": ["src/rad_ml/research/variational_autoencoder.cpp:trainProduction", "src/rad_ml/research/variational_autoencoder.cpp:splitTrainValidation"]}
{"id": "C331", "title": "Error statistics are consistent", "statement": "Corrected never exceeds detected, reset sets both to 0, injecting radiation and passes without votes count nothing.", "quantifier": "every history of calls", "why_tests_cant": "all histories", "anchors": ["src/rad_ml/research/variational_autoencoder.cpp:getErrorStats", "src/rad_ml/research/variational_autoencoder.cpp:resetErrorStats", "src/rad_ml/research/variational_autoencoder.cpp:applyRadiationEffects"]}
{"id": "C332", "title": "loadModel restores what saveModel wrote", "statement": "Loading a file written by saveModel succeeds.", "quantifier": "every autoencoder and file content", "why_tests_cant": "all files", "anchors": ["src/rad_ml/research/variational_autoencoder.cpp:saveModel", "src/rad_ml/research/variational_autoencoder.cpp:loadModel"]}
{"id": "C333", "title": "loadFromFile restores what saveToFile wrote", "statement": "Loading a saved file restores dimensions, options and weights.", "quantifier": "every autoencoder and random numbers", "why_tests_cant": "all weights", "anchors": ["src/rad_ml/research/variational_autoencoder.cpp:saveToFile", "src/rad_ml/research/variational_autoencoder.cpp:loadFromFile"]}
{"id": "C334", "title": "An autoencoder can be destroyed after any use", "statement": "Destroying an autoencoder that was built, copied or loaded is defined.", "quantifier": "every history and loaded file", "why_tests_cant": "all histories", "anchors": ["src/rad_ml/research/variational_autoencoder.cpp:loadFromFile", "include/rad_ml/research/variational_autoencoder.hpp:VAEConfig"]}
{"id": "C335", "title": "Loading a bad file fails and leaves the object as it was", "statement": "A truncated or unusable file makes loadFromFile return false and the object keeps working.", "quantifier": "every file content", "why_tests_cant": "all files", "anchors": ["src/rad_ml/research/variational_autoencoder.cpp:loadFromFile"]}
{"id": "C336", "title": "train accepts every latent dimension", "statement": "With use_interpolation, train is defined for every ratio of latent and input dimensions.", "quantifier": "every dimension and data set", "why_tests_cant": "all dimensions", "anchors": ["src/rad_ml/research/variational_autoencoder.cpp:train", "src/rad_ml/research/variational_autoencoder.cpp:calculateLoss", "src/rad_ml/research/variational_autoencoder.cpp:computeInterpolationLoss"]}
{"id": "C337", "title": "Copies answer like the original", "statement": "A copy-constructed or assigned autoencoder has the weights, dimensions, options and error counts of the original and gives the same answers; the metrics are not copied.", "quantifier": "every autoencoder", "why_tests_cant": "all states", "anchors": ["src/rad_ml/research/variational_autoencoder.cpp:VariationalAutoencoder", "src/rad_ml/research/variational_autoencoder.cpp:operator="]}
{"id": "C338", "title": "Only radiation changes the weights", "statement": "applyRadiationEffects changes no dimension, option, metric or count and nothing at radiation 0 or below; no history of other calls changes a weight.", "quantifier": "every history of calls", "why_tests_cant": "all histories", "anchors": ["src/rad_ml/research/variational_autoencoder.cpp:applyRadiationEffects"]}
{"id": "C339", "title": "setConfig cannot break the autoencoder", "statement": "Setting any configuration keeps the dimensions (latent_dim in it is ignored) and encoding and decoding keep working.", "quantifier": "every configuration", "why_tests_cant": "all configurations", "anchors": ["include/rad_ml/research/variational_autoencoder.hpp:setConfig", "include/rad_ml/research/variational_autoencoder.hpp:getLatentDim", "include/rad_ml/research/variational_autoencoder.hpp:getInputDim"]}
{"id": "C340", "title": "evaluate is the mean reconstruction loss", "statement": "evaluate returns the sum of the samples' mean squared errors over their number and changes nothing; NaN for no data.", "quantifier": "every data set and random stream", "why_tests_cant": "all data", "anchors": ["src/rad_ml/research/variational_autoencoder.cpp:evaluate", "src/rad_ml/research/variational_autoencoder.cpp:computeReconstructionLoss"]}
{"id": "C341", "title": "evaluateComprehensive reports mean total, KL and reconstruction losses", "statement": "Each entry is the mean over the samples of the loss it names; total = reconstruction + beta * KL per sample; nothing changes.", "quantifier": "every data set and random stream", "why_tests_cant": "all data", "anchors": ["src/rad_ml/research/variational_autoencoder.cpp:evaluateComprehensive", "src/rad_ml/research/variational_autoencoder.cpp:computeKLDivergence"]}
{"id": "C342", "title": "An autoencoder stays usable", "statement": "After any history of calls forward answers input_dim values for an input of that size, refuses others, and dimensions and protection level are those of the constructor.", "quantifier": "every history of calls, input and radiation", "why_tests_cant": "all histories", "anchors": ["src/rad_ml/research/variational_autoencoder.cpp:forward"]}
{"id": "C343", "title": "Accelerator reliability is a score between 0 and 0.999", "statement": "calculate_reliability answers a finite number between 0 and 0.999 for every configuration and every SEU rate, NaN and infinities included.", "quantifier": "every configuration and double", "why_tests_cant": "all rates and configurations", "anchors": ["include/rad_ml/hw/hardware_acceleration.hpp:HardwareAccelerator::calculate_reliability"]}
{"id": "C344", "title": "An unknown SEU rate is not scored as the best one", "statement": "calculate_reliability of a rate that is not a number does not answer the top score.", "quantifier": "every configuration and rate", "why_tests_cant": "all configurations", "anchors": ["include/rad_ml/hw/hardware_acceleration.hpp:HardwareAccelerator::calculate_reliability"]}
{"id": "C345", "title": "A harder environment never scores better", "statement": "calculate_reliability never grows with the SEU rate, overflow and infinities included.", "quantifier": "every configuration and pair of rates", "why_tests_cant": "all pairs of doubles", "anchors": ["include/rad_ml/hw/hardware_acceleration.hpp:HardwareAccelerator::calculate_reliability"]}
{"id": "C346", "title": "More hardware protection never scores worse", "statement": "With the same accelerator type, adding ECC, a stronger TMR approach or a stronger scrubbing strategy never lowers the score.", "quantifier": "every pair of ordered configurations and every rate", "why_tests_cant": "all rates", "anchors": ["include/rad_ml/hw/hardware_acceleration.hpp:HardwareAccelerator::calculate_reliability"]}
{"id": "C347", "title": "The score depends on type, ECC, TMR and, for an FPGA, scrubbing only", "statement": "Configurations that agree on these score the same at every rate.", "quantifier": "every pair of configurations and every rate", "why_tests_cant": "all configurations and rates", "anchors": ["include/rad_ml/hw/hardware_acceleration.hpp:HardwareAccelerator::calculate_reliability"]}
{"id": "C348", "title": "More hardware protection scores strictly better", "statement": "A stronger TMR approach gives a higher score.", "quantifier": "every type and protection", "why_tests_cant": "all configurations", "anchors": ["include/rad_ml/hw/hardware_acceleration.hpp:HardwareAccelerator::calculate_reliability"]}
{"id": "C349", "title": "An accelerator that is not there has no reliability", "statement": "calculate_reliability of type NONE does not promise reliability.", "quantifier": "every configuration of type NONE and every rate", "why_tests_cant": "all rates", "anchors": ["include/rad_ml/hw/hardware_acceleration.hpp:HardwareAccelerator::calculate_reliability", "include/rad_ml/hw/hardware_acceleration.hpp:HardwareAccelerator::is_available"]}
{"id": "C350", "title": "An accelerator is what its last configuration says", "statement": "After any history of calls get_config is the last configuration set, is_available and initialize tell whether its type is not NONE; the base class never executes, never scrubs and leaves the output buffer alone.", "quantifier": "every history of calls", "why_tests_cant": "all histories", "anchors": ["include/rad_ml/hw/hardware_acceleration.hpp:HardwareAccelerator::update_config", "include/rad_ml/hw/hardware_acceleration.hpp:HardwareAccelerator::execute", "include/rad_ml/hw/hardware_acceleration.hpp:HardwareAccelerator::is_available"]}
{"id": "C351", "title": "Errors are counted", "statement": "get_error_stats counts executions that failed.", "quantifier": "every history of calls", "why_tests_cant": "all histories", "anchors": ["include/rad_ml/hw/hardware_acceleration.hpp:HardwareAccelerator::get_error_stats", "include/rad_ml/hw/hardware_acceleration.hpp:HardwareAccelerator::log_error"]}
{"id": "C352", "title": "The factory makes the accelerator it is asked for", "statement": "create_accelerator(type, config) has that type and every other setting of config, with no errors counted.", "quantifier": "every type and configuration", "why_tests_cant": "all configurations", "anchors": ["include/rad_ml/hw/hardware_acceleration.hpp:HardwareAcceleratorFactory::create_accelerator"]}
{"id": "C353", "title": "Only detected hardware can be initialised", "statement": "An accelerator of a type detect_available_accelerators reports missing is not available and does not initialise.", "quantifier": "every type and configuration", "why_tests_cant": "all types and configurations", "anchors": ["include/rad_ml/hw/hardware_acceleration.hpp:HardwareAcceleratorFactory::detect_available_accelerators", "include/rad_ml/hw/hardware_acceleration.hpp:HardwareAcceleratorFactory::create_accelerator"]}
{"id": "C354", "title": "create_best_available makes the first detected type in the order of preference", "statement": "The type is detected, no preferred type is, the other settings are kept; it is type NONE, whatever type the configuration asks for.", "quantifier": "every configuration", "why_tests_cant": "all configurations", "anchors": ["include/rad_ml/hw/hardware_acceleration.hpp:HardwareAcceleratorFactory::create_best_available"]}
{"id": "C355", "title": "An initialised integration can execute", "statement": "After a successful initialize, TMRAcceleratorIntegration::execute can succeed.", "quantifier": "every history of calls, input and buffer", "why_tests_cant": "all histories", "anchors": ["include/rad_ml/hw/hardware_acceleration.hpp:TMRAcceleratorIntegration::execute", "include/rad_ml/hw/hardware_acceleration.hpp:TMRAcceleratorIntegration::initialize"]}
{"id": "C356", "title": "initialize succeeds exactly when a configuration with a type is in force", "statement": "It fails on a fresh integration whatever its configuration, until get_accelerator().update_config sets a type other than NONE.", "quantifier": "every history of calls", "why_tests_cant": "all histories", "anchors": ["include/rad_ml/hw/hardware_acceleration.hpp:TMRAcceleratorIntegration::initialize"]}
{"id": "C357", "title": "Software TMR is what the last decision says", "statement": "After any history software TMR is on unless the last of set_software_tmr and initialize under a COMPLETE configuration turned it off.", "quantifier": "every history of calls", "why_tests_cant": "all histories", "anchors": ["include/rad_ml/hw/hardware_acceleration.hpp:TMRAcceleratorIntegration::set_software_tmr", "include/rad_ml/hw/hardware_acceleration.hpp:TMRAcceleratorIntegration::initialize"]}
{"id": "C358", "title": "Results are always protected by hardware or software TMR", "statement": "Without set_software_tmr(false), an initialised integration uses software TMR or complete hardware TMR.", "quantifier": "every history of calls", "why_tests_cant": "all histories", "anchors": ["include/rad_ml/hw/hardware_acceleration.hpp:TMRAcceleratorIntegration::initialize"]}
{"id": "C359", "title": "Software TMR runs the accelerator three times", "statement": "execute runs any accelerator three times in a row on zeroed buffers; if one run fails it answers false and leaves the output alone, else it answers true with an output of the same size; without software TMR it is one run.", "quantifier": "every accelerator, state, input and buffer", "why_tests_cant": "all accelerators", "anchors": ["include/rad_ml/hw/hardware_acceleration.hpp:TMRAcceleratorIntegration::execute"]}
{"id": "C360", "title": "One faulty run is outvoted", "statement": "If two of the three runs answer the same numbers, so does execute, whatever the third answers and whichever it is.", "quantifier": "every accelerator, input and fault", "why_tests_cant": "all faults", "anchors": ["include/rad_ml/hw/hardware_acceleration.hpp:TMRAcceleratorIntegration::execute"]}
{"id": "C361", "title": "Without a majority the answer is the mean", "statement": "An element on which no two runs agree is the mean of the three, up to rounding.", "quantifier": "every three floats", "why_tests_cant": "all floats", "anchors": ["include/rad_ml/hw/hardware_acceleration.hpp:TMRAcceleratorIntegration::execute"]}
{"id": "C362", "title": "NaN is outvoted by two equal numbers and by nothing else", "statement": "An element is NaN when two answers are, or when one is and the others differ; it is not NaN when two answers are equal.", "quantifier": "every three floats", "why_tests_cant": "all floats", "anchors": ["include/rad_ml/hw/hardware_acceleration.hpp:TMRAcceleratorIntegration::execute"]}
{"id": "C363", "title": "execute stays within its buffers", "statement": "execute is defined whatever size of output the accelerator answers.", "quantifier": "every accelerator and buffer", "why_tests_cant": "all accelerators", "anchors": ["include/rad_ml/hw/hardware_acceleration.hpp:TMRAcceleratorIntegration::execute"]}
{"id": "C364", "title": "The combined score is the two-out-of-three probability", "statement": "calculate_system_reliability is between 0 and 1; with software TMR it is within 1e-12 of 3p^2 - 2p^3 for the accelerator's score p, without it is p.", "quantifier": "every integration and rate", "why_tests_cant": "all rates", "anchors": ["include/rad_ml/hw/hardware_acceleration.hpp:TMRAcceleratorIntegration::calculate_system_reliability"]}
{"id": "C365", "title": "Software TMR never lowers the combined score", "statement": "Turning software TMR on gives at least the score without it.", "quantifier": "every integration and rate", "why_tests_cant": "all rates", "anchors": ["include/rad_ml/hw/hardware_acceleration.hpp:TMRAcceleratorIntegration::calculate_system_reliability", "include/rad_ml/hw/hardware_acceleration.hpp:TMRAcceleratorIntegration::set_software_tmr"]}
{"id": "C366", "title": "The diagnostics tell the protection", "statement": "Equal diagnostics of two integrations mean the same type, ECC, TMR approach, scrubbing strategy and use of software TMR.", "quantifier": "every pair of integrations", "why_tests_cant": "all texts", "anchors": ["include/rad_ml/hw/hardware_acceleration.hpp:TMRAcceleratorIntegration::get_diagnostics", "include/rad_ml/hw/hardware_acceleration.hpp:HardwareAccelerator::get_diagnostics"]}
{"id": "C367", "title": "A quantum field is built or its grid refused", "statement": "The constructor answers a field of the requested grid, spacing and particle or throws: invalid_argument for the wrong number of dimensions, overflow_error or length_error for grids that are too large or have negative sides.", "quantifier": "every list of int sizes", "why_tests_cant": "all grids", "anchors": ["src/rad_ml/physics/quantum_field_theory.cpp:QuantumField::QuantumField"]}
{"id": "C368", "title": "Positions outside the grid are refused", "statement": "getFieldAt and setFieldAt throw invalid_argument for the wrong number of coordinates and out_of_range outside the grid; a fresh field of up to 2^31 points is zero everywhere.", "quantifier": "every grid and position", "why_tests_cant": "all positions", "anchors": ["src/rad_ml/physics/quantum_field_theory.cpp:QuantumField::getFieldAt", "src/rad_ml/physics/quantum_field_theory.cpp:QuantumField::setFieldAt", "src/rad_ml/physics/quantum_field_theory.cpp:QuantumField::calculateIndex"]}
{"id": "C369", "title": "A point read back is the point written", "statement": "For every position inside a constructed field setFieldAt then getFieldAt answers the value written and every other point keeps its value.", "quantifier": "every constructed field, pair of positions and value", "why_tests_cant": "all grids and positions", "anchors": ["src/rad_ml/physics/quantum_field_theory.cpp:QuantumField::getFieldAt", "src/rad_ml/physics/quantum_field_theory.cpp:QuantumField::setFieldAt", "src/rad_ml/physics/quantum_field_theory.cpp:QuantumField::calculateIndex"]}
{"id": "C370", "title": "A field remembers its writes", "statement": "After any history of accepted and refused writes and type changes a point holds the last value written to it, zero if none, and the grid and spacing are those of construction.", "quantifier": "every history of calls", "why_tests_cant": "all histories", "anchors": ["src/rad_ml/physics/quantum_field_theory.cpp:QuantumField::getFieldAt", "src/rad_ml/physics/quantum_field_theory.cpp:QuantumField::setFieldAt"]}
{"id": "C371", "title": "A coherent state has the requested amplitude and phase everywhere", "statement": "initializeCoherentState sets every point to the amplitude at the phase times exp(-d^2), d the distance from the centre, and keeps grid, spacing and type.", "quantifier": "every field of up to 2^31 points, amplitude and phase", "why_tests_cant": "all grids", "anchors": ["src/rad_ml/physics/quantum_field_theory.cpp:QuantumField::initializeCoherentState"]}
{"id": "C372", "title": "evolve repeats one point-wise step", "statement": "evolve(n) applies the same rotation and damping n times to every point, nothing for n <= 0, does not depend on the particle type, and evolve(n+m) is evolve(n) then evolve(m).", "quantifier": "every field, parameters and numbers of steps", "why_tests_cant": "all fields and steps", "anchors": ["src/rad_ml/physics/quantum_field_theory.cpp:QuantumField::evolve"]}
{"id": "C373", "title": "A Klein-Gordon step rotates and damps each point of its own particle", "statement": "evolveField throws invalid_argument for a field of another particle type; otherwise each point is rotated by time_step * phase rate and scaled by the position and damping factors of its own coordinates.", "quantifier": "every field and parameters", "why_tests_cant": "all fields", "anchors": ["src/rad_ml/physics/quantum_field_theory.cpp:KleinGordonEquation::evolveField"]}
{"id": "C374", "title": "A Dirac step evolves its field", "statement": "DiracEquation::evolveField changes a field of its particle type by one time step.", "quantifier": "every field and parameters", "why_tests_cant": "all fields", "anchors": ["src/rad_ml/physics/quantum_field_theory.cpp:DiracEquation::evolveField"]}
{"id": "C375", "title": "A Maxwell step mixes two photon fields", "statement": "evolveField throws invalid_argument unless both fields are photon fields and runtime_error without a photon coupling; otherwise each point of both fields becomes the mix by the coupling clamped to [0,1], with the position and damping factors.", "quantifier": "every two fields of one grid and parameters", "why_tests_cant": "all fields", "anchors": ["src/rad_ml/physics/quantum_field_theory.cpp:MaxwellEquations::evolveField"]}
{"id": "C376", "title": "A Maxwell step that throws leaves both fields alone", "statement": "When MaxwellEquations::evolveField throws no point of either field has changed.", "quantifier": "every two fields", "why_tests_cant": "all fields", "anchors": ["src/rad_ml/physics/quantum_field_theory.cpp:MaxwellEquations::evolveField"]}
{"id": "C377", "title": "The energy of a field is not negative", "statement": "calculateTotalEnergy throws runtime_error for a particle without a mass, is never negative for a positive mass, and is zero for the vacuum.", "quantifier": "every field and parameters", "why_tests_cant": "all fields", "anchors": ["src/rad_ml/physics/quantum_field_theory.cpp:QuantumField::calculateTotalEnergy"]}
{"id": "C378", "title": "The multi-particle simulation makes the requested number of steps", "statement": "simulateMultiParticleInteraction(fields, params, n) evolves the fields by n steps and answers one energy change per field.", "quantifier": "every list of fields and number of steps", "why_tests_cant": "all lists and steps", "anchors": ["src/rad_ml/physics/quantum_models.cpp:simulateMultiParticleInteraction"]}
{"id": "C379", "title": "The multi-particle simulation refuses unknown particles before it changes anything", "statement": "If a particle has no mass it throws runtime_error and no field changes; fields of electrons, protons, positrons and muons keep every point and have energy change zero.", "quantifier": "every list of fields", "why_tests_cant": "all lists", "anchors": ["src/rad_ml/physics/quantum_models.cpp:simulateMultiParticleInteraction"]}
{"id": "C380", "title": "The tunnelling probability is a probability", "statement": "calculateQuantumTunnelingProbability returns a number between 0 and 1.", "quantifier": "every barrier, mass, hbar and temperature", "why_tests_cant": "doubles; std::exp is abstract", "anchors": ["src/rad_ml/physics/quantum_field_theory.cpp:calculateQuantumTunnelingProbability"]}
{"id": "C381", "title": "Tunnelling needs a positive barrier, mass and hbar", "statement": "With a barrier, mass or hbar of at most zero the probability is 0; the overload for a particle type throws runtime_error if the type has no mass and otherwise uses exactly that mass.", "quantifier": "every barrier, temperature, parameters and particle", "why_tests_cant": "doubles", "anchors": ["src/rad_ml/physics/quantum_field_theory.cpp:calculateQuantumTunnelingProbability"]}
{"id": "C382", "title": "The critical charge follows its temperature law", "statement": "calculateTemperatureCriticalCharge(base, T) lies between half of base and base * (0.71 + T/1000).", "quantifier": "every material, base charge and temperature of physical size", "why_tests_cant": "doubles; std::exp is abstract", "anchors": ["src/rad_ml/physics/quantum_enhanced_radiation.cpp:QuantumEnhancedRadiation::calculateTemperatureCriticalCharge"]}
{"id": "C383", "title": "The bit flip probability is a probability", "statement": "calculateEnhancedBitFlipProbability returns a number between 0 and 1 for every charge, even an infinite one, and 0 for a charge of at most zero.", "quantifier": "every material, device, temperature and charge but NaN", "why_tests_cant": "doubles; std::exp and std::pow are abstract", "anchors": ["src/rad_ml/physics/quantum_enhanced_radiation.cpp:QuantumEnhancedRadiation::calculateEnhancedBitFlipProbability"]}
{"id": "C384", "title": "More charge makes a flip likelier", "statement": "If c1 <= c2 then the bit flip probability of c1 is at most that of c2.", "quantifier": "every two charges, material, device and temperature", "why_tests_cant": "pairs of doubles", "anchors": ["src/rad_ml/physics/quantum_enhanced_radiation.cpp:QuantumEnhancedRadiation::calculateEnhancedBitFlipProbability"]}
{"id": "C385", "title": "A multi-bit upset has one to eight bits in proportion to the charge", "statement": "calculateQuantumMBUSize is 1 below twice the critical charge, otherwise the charge over twice the critical charge times the clustering of the particle, rounded up and at most 8.", "quantifier": "every material, charge and particle", "why_tests_cant": "doubles", "anchors": ["src/rad_ml/physics/quantum_enhanced_radiation.cpp:QuantumEnhancedRadiation::calculateQuantumMBUSize"]}
{"id": "C386", "title": "Multi-bit upsets grow with the charge and are largest for heavy ions", "statement": "More charge never gives a smaller upset, and a heavy ion never a smaller one than another particle of the same charge.", "quantifier": "every two charges, material and particle", "why_tests_cant": "pairs of doubles", "anchors": ["src/rad_ml/physics/quantum_enhanced_radiation.cpp:QuantumEnhancedRadiation::calculateQuantumMBUSize"]}
{"id": "C387", "title": "The deposited charge depends on the particle energy and is proportional to the LET", "statement": "calculateQuantumChargeDeposition(energy, let, type) depends on the energy, lies between 0.249 and 0.279 * (1 + kT/gap) fC per unit of LET, and throws runtime_error for particles without a mass.", "quantifier": "every material, energy, LET and particle", "why_tests_cant": "doubles", "anchors": ["src/rad_ml/physics/quantum_enhanced_radiation.cpp:QuantumEnhancedRadiation::calculateQuantumChargeDeposition"]}
{"id": "C388", "title": "Quantum corrections touch exactly the particle types asked for", "statement": "applyQuantumFieldCorrections multiplies all defects of an asked type by three factors that depend on neither the defects nor the list, leaves other types alone, throws runtime_error if an asked type has no mass, ignores order and repetition in the list, and takes an empty list as all types that occur.", "quantifier": "every defect distribution, crystal, parameters, temperature and list", "why_tests_cant": "all maps and lists", "anchors": ["src/rad_ml/physics/quantum_field_theory.cpp:applyQuantumFieldCorrections"]}
{"id": "C389", "title": "Quantum corrections are capped", "statement": "No defect is multiplied by less than 1 or more than 1 + kT/B.", "quantifier": "every defect distribution, crystal, parameters and temperature", "why_tests_cant": "doubles", "anchors": ["src/rad_ml/physics/quantum_field_theory.cpp:applyQuantumFieldCorrections"]}
{"id": "C390", "title": "Transition probabilities are probabilities in a fixed order", "statement": "calculateQuantumTransitionProbability is between 0 and 1, grows with the energy, falls with the temperature, and is largest for photons, then electrons, then others.", "quantifier": "every energy, temperature, parameters and particle", "why_tests_cant": "pairs of doubles", "anchors": ["src/rad_ml/physics/quantum_models.cpp:calculateQuantumTransitionProbability"]}
{"id": "C391", "title": "Displacement energies are tens of electron volts", "statement": "calculateDisplacementEnergy gives about 62.6 eV for protons and 20.9 eV for electrons in silicon as documented, at least the share of the lattice energy in general, and throws runtime_error for particles without a mass.", "quantifier": "every crystal, parameters and particle", "why_tests_cant": "doubles", "anchors": ["src/rad_ml/physics/quantum_models.cpp:calculateDisplacementEnergy"]}
{"id": "C392", "title": "Displacement cascades conserve defects and have a threshold", "statement": "simulateDisplacementCascade leaves no defects when the energy does not exceed the displacement energy; otherwise floor(0.8 E/E_d) defects are shared among vacancies, interstitials and clusters in the documented fractions.", "quantifier": "every energy, displacement energy and particle", "why_tests_cant": "doubles", "anchors": ["src/rad_ml/physics/quantum_models.cpp:simulateDisplacementCascade"]}
{"id": "C393", "title": "Decoherence is never slower than its base rate and grows with heat and defects", "statement": "calculateQuantumDecoherence is at least the base rate, and grows with the temperature and with each defect count.", "quantifier": "every defect distributions, temperatures, rates and particle", "why_tests_cant": "all lists of doubles", "anchors": ["src/rad_ml/physics/quantum_models.cpp:calculateQuantumDecoherence"]}
{"id": "C394", "title": "Device sensitivity is relative to a baseline of one", "statement": "calculateDeviceSensitivity is 1.0 for the baseline device, keeps the documented order of the devices and falls with the feature size.", "quantifier": "every material, device and feature size", "why_tests_cant": "doubles", "anchors": ["src/rad_ml/physics/quantum_enhanced_radiation.cpp:QuantumEnhancedRadiation::calculateDeviceSensitivity"]}
{"id": "C395", "title": "Radiation applied to memory stays inside it and reports the flips", "statement": "applyQuantumEnhancedRadiation does nothing for null or empty memory; otherwise it keeps the length, changes only bytes that were drawn, and returns a count that bounds the number of differing bits, has its parity, and is at most 8 per impact, or 1 per impact while the charge is below the multi-bit threshold.", "quantifier": "every buffer, random numbers, particle, device and duration", "why_tests_cant": "all buffers and random sequences", "anchors": ["src/rad_ml/physics/quantum_enhanced_radiation.cpp:QuantumEnhancedRadiation::applyQuantumEnhancedRadiation"]}
{"id": "C396", "title": "Radiation can be applied for any duration", "statement": "applyQuantumEnhancedRadiation is defined for every duration a uint32_t can hold.", "quantifier": "every buffer and duration", "why_tests_cant": "all buffers", "anchors": ["src/rad_ml/physics/quantum_enhanced_radiation.cpp:QuantumEnhancedRadiation::applyQuantumEnhancedRadiation"]}
{"id": "C397", "title": "No energy transfer, no flips; unknown particles are rejected", "statement": "With a LET of zero memory stays as it is and 0 is returned; a particle without a mass makes it throw runtime_error before anything is changed.", "quantifier": "every buffer, random numbers, device and duration", "why_tests_cant": "all buffers and random sequences", "anchors": ["src/rad_ml/physics/quantum_enhanced_radiation.cpp:QuantumEnhancedRadiation::applyQuantumEnhancedRadiation"]}
{"id": "C398", "title": "The environment at a mission time is that of the phase in progress", "statement": "getEnvironmentAtTime returns the environment of the phase whose interval contains the time (counting from the start, ends excluded), that of the last phase after the end, and null for a mission without phases.", "quantifier": "every mission with non-negative durations within 64 bits and every time", "why_tests_cant": "all lists of phases and times", "anchors": ["include/rad_ml/radiation/space_mission.hpp:SpaceMission::getEnvironmentAtTime"]}
{"id": "C399", "title": "Every time of a mission has an environment", "statement": "getEnvironmentAtTime is defined for every time and every mission whose phases have legal durations.", "quantifier": "every mission and time", "why_tests_cant": "all lists of phases and times", "anchors": ["include/rad_ml/radiation/space_mission.hpp:SpaceMission::getEnvironmentAtTime"]}
{"id": "C400", "title": "The worst-case environment has the highest flux, the earliest on ties", "statement": "getWorstCaseEnvironment returns null only if no phase has an environment; otherwise the environment of a phase with flux at least that of all phases and above that of all earlier ones.", "quantifier": "every mission and environments with numeric fluxes", "why_tests_cant": "all lists of phases", "anchors": ["include/rad_ml/radiation/space_mission.hpp:SpaceMission::getWorstCaseEnvironment"]}
{"id": "C401", "title": "The worst case covers every numeric flux", "statement": "The flux of the environment returned by getWorstCaseEnvironment is at least every flux of the mission that is a number.", "quantifier": "every mission and environments", "why_tests_cant": "all lists of phases and floats, NaN included", "anchors": ["include/rad_ml/radiation/space_mission.hpp:SpaceMission::getWorstCaseEnvironment"]}
{"id": "C402", "title": "Total radiation exposure is flux times time within 1/4000000", "statement": "calculateTotalRadiationExposure is finite and within a relative 1/4000000 of the exact sum of flux times duration.", "quantifier": "every mission of up to 1000 phases with fluxes that are 0 or between 2^-60 and 2^30", "why_tests_cant": "all lists of phases and floats", "anchors": ["include/rad_ml/radiation/space_mission.hpp:SpaceMission::calculateTotalRadiationExposure"]}
{"id": "C403", "title": "Adding a phase never lowers the exposure", "statement": "The exposure of a mission without phases is 0, never falls when a phase is added and stays the same when that phase has no environment.", "quantifier": "every mission and phase", "why_tests_cant": "all lists of phases and floats", "anchors": ["include/rad_ml/radiation/space_mission.hpp:SpaceMission::calculateTotalRadiationExposure", "include/rad_ml/radiation/space_mission.hpp:SpaceMission::addPhase"]}
{"id": "C404", "title": "Standard missions are well formed", "statement": "createStandardMission gives the name asked for or the default name, the target asked for, at least one phase, positive durations that fit in 64 bits together, and for each phase a new environment with a positive finite flux; no existing environment is changed.", "quantifier": "every target, name and prior environments", "why_tests_cant": "all heaps", "anchors": ["include/rad_ml/radiation/space_mission.hpp:SpaceMission::createStandardMission"]}
{"id": "C405", "title": "Targets without a configuration get the low-earth-orbit one; the worst phase is as documented", "statement": "Targets other than LEO, GEO, Moon, Mars, Jupiter and the solar probe get the phases of a LEO mission, and the worst-case environment of a standard mission is that of its documented hardest phase.", "quantifier": "every target, name and prior environments", "why_tests_cant": "all heaps", "anchors": ["include/rad_ml/radiation/space_mission.hpp:SpaceMission::createStandardMission", "include/rad_ml/radiation/space_mission.hpp:SpaceMission::getWorstCaseEnvironment"]}
{"id": "C406", "title": "Phases of a standard mission are independent", "statement": "Changing the environment of one phase of a standard mission leaves the environment of every other phase as it was.", "quantifier": "every target, name, change and pair of phases", "why_tests_cant": "all heaps", "anchors": ["include/rad_ml/radiation/space_mission.hpp:SpaceMission::configureMarsMission", "include/rad_ml/radiation/space_mission.hpp:SpaceMission::configureLunarMission"]}
{"id": "C407", "title": "Missions are independent", "statement": "Changing an environment of one standard mission leaves the environments of any other standard mission as they were.", "quantifier": "every two targets, names, changes and phases", "why_tests_cant": "all heaps", "anchors": ["include/rad_ml/radiation/space_mission.hpp:SpaceMission::createStandardMission"]}
{"id": "C408", "title": "The last setting of an environment is what it answers", "statement": "After any sequence of setSEUFlux, setSEUCrossSection and setProperty, getters return the last value set, getProperty its default for keys never set, and type, name and other environments are as before.", "quantifier": "every sequence of settings", "why_tests_cant": "all histories", "anchors": ["include/rad_ml/radiation/environment.hpp:Environment::setProperty", "include/rad_ml/radiation/environment.hpp:Environment::getProperty", "include/rad_ml/radiation/environment.hpp:Environment::setSEUFlux"]}
{"id": "C409", "title": "Predefined environments are fresh and ordered by severity", "statement": "Each createEnvironment call returns a new object of the asked type, leaves earlier ones alone, and the fluxes follow ground < avionic < LEO = Mars < lunar < MEO < GEO < Jupiter < solar flare.", "quantifier": "every two types and prior environments", "why_tests_cant": "all heaps", "anchors": ["include/rad_ml/radiation/environment.hpp:Environment::createEnvironment"]}
{"id": "C410", "title": "Every flux is finite and not negative", "statement": "At every place on or above the Earth calculateRadiationFlux returns four finite numbers between 0 and 2^27, for each mission and after every sequence of setSolarActivity, setShielding and simulateSolarFlare with an activity that is a number and a thickness and intensity that are not negative.", "quantifier": "every mission, history of calls and position", "why_tests_cant": "all histories and floats", "anchors": ["include/rad_ml/neural/radiation_environment.hpp:RadiationEnvironment::calculateRadiationFlux"]}
{"id": "C411", "title": "The upset probability is a probability", "statement": "calculateSEUProbability is between 0 and 1 for each mission, position and history of legal calls.", "quantifier": "every mission, history of calls and position", "why_tests_cant": "all histories and floats", "anchors": ["include/rad_ml/neural/radiation_environment.hpp:RadiationEnvironment::calculateSEUProbability"]}
{"id": "C412", "title": "The solar activity stays between 0 and 1", "statement": "After legal calls the activity is between 0 and 1; a value in that range is taken exactly; a flare of intensity i sets it to the smaller of 1 and activity + i/2 (to 1e-12) and never lowers it.", "quantifier": "every history of legal calls, activity and intensity", "why_tests_cant": "all histories and floats", "anchors": ["include/rad_ml/neural/radiation_environment.hpp:RadiationEnvironment::setSolarActivity", "include/rad_ml/neural/radiation_environment.hpp:RadiationEnvironment::simulateSolarFlare"]}
{"id": "C413", "title": "No argument can break the solar activity", "statement": "Whatever values are given to setSolarActivity and simulateSolarFlare, the activity stays between 0 and 1 and fluxes stay numbers that are not negative.", "quantifier": "every history of calls", "why_tests_cant": "all histories and floats, NaN included", "anchors": ["include/rad_ml/neural/radiation_environment.hpp:RadiationEnvironment::setSolarActivity", "include/rad_ml/neural/radiation_environment.hpp:RadiationEnvironment::simulateSolarFlare"]}
{"id": "C414", "title": "A flare is temporary", "statement": "A simulated flare raises the activity temporarily: normal conditions come back without the caller setting the activity.", "quantifier": "every mission, intensity, later history and position", "why_tests_cant": "all histories", "anchors": ["include/rad_ml/neural/radiation_environment.hpp:RadiationEnvironment::simulateSolarFlare", "include/rad_ml/neural/radiation_environment.hpp:RadiationEnvironment::solar_flare_decay_"]}
{"id": "C415", "title": "A new environment has a defined shielding", "statement": "Two environments made for the same mission and used alike give the same fluxes.", "quantifier": "every mission, history and position, and every content of uninitialised memory", "why_tests_cant": "depends on uninitialised memory", "anchors": ["include/rad_ml/neural/radiation_environment.hpp:RadiationEnvironment::RadiationEnvironment", "include/rad_ml/neural/radiation_environment.hpp:RadiationEnvironment::updateShieldingEffectiveness"]}
{"id": "C416", "title": "A thicker shield never lets more through", "statement": "Of two histories that differ only in the thickness of the last shield, the one with the thicker shield never has a larger flux, dose or upset probability.", "quantifier": "every mission, history, material, pair of thicknesses and position", "why_tests_cant": "all histories and floats", "anchors": ["include/rad_ml/neural/radiation_environment.hpp:RadiationEnvironment::setShielding", "include/rad_ml/neural/radiation_environment.hpp:RadiationEnvironment::applyShielding"]}
{"id": "C417", "title": "The factor a flare returns is the rise in flux", "statement": "simulateSolarFlare returns the factor by which the flux increases.", "quantifier": "every history, intensity and position", "why_tests_cant": "all histories and floats", "anchors": ["include/rad_ml/neural/radiation_environment.hpp:RadiationEnvironment::simulateSolarFlare"]}
{"id": "C418", "title": "How the fluxes depend on the activity", "statement": "With all else equal, electrons follow 1.5 + 4.7a, protons 2 + 9.7a and heavy ions 1 - 0.3a, to 1e-3.", "quantifier": "every mission, history, pair of activities and position", "why_tests_cant": "all histories and floats", "anchors": ["include/rad_ml/neural/radiation_environment.hpp:RadiationEnvironment::applySolarActivityEffects"]}
{"id": "C419", "title": "Missions are ordered by severity", "statement": "At equal position and history no flux, dose or upset probability of GEO exceeds that of the Moon, of LEO or of MEO, nor the Moon's that of Mars, nor that of Mars that of Jupiter.", "quantifier": "every history and position", "why_tests_cant": "all histories and floats", "anchors": ["include/rad_ml/neural/radiation_environment.hpp:RadiationEnvironment::calculateRadiationFlux"]}
{"id": "C420", "title": "A solar probe sees more radiation than a geostationary satellite", "statement": "For a solar probe the flux is increased by the nearness of the Sun.", "quantifier": "every history and position", "why_tests_cant": "all histories", "anchors": ["include/rad_ml/neural/radiation_environment.hpp:RadiationEnvironment::calculateRadiationFlux"]}
{"id": "C421", "title": "The South Atlantic Anomaly shows in low orbits and only inside its bounds", "statement": "In low orbit, at equal latitude and altitude, two places more than 20.01 degrees from (-30, -40) have the same flux; no other place has less; and behind no shield a place within 10 degrees has at least 900000 more protons.", "quantifier": "every history and pair of places", "why_tests_cant": "all histories and floats", "anchors": ["include/rad_ml/neural/radiation_environment.hpp:RadiationEnvironment::createSAAModel", "include/rad_ml/neural/radiation_environment.hpp:RadiationEnvironment::calculateRadiationFlux"]}
{"id": "C422", "title": "A full turn of longitude changes nothing", "statement": "Longitudes that differ by 360 degrees name the same place and have the same flux.", "quantifier": "every mission, history and position", "why_tests_cant": "all histories and floats", "anchors": ["include/rad_ml/neural/radiation_environment.hpp:OrbitalPosition", "include/rad_ml/neural/radiation_environment.hpp:RadiationEnvironment::createSAAModel"]}
{"id": "C423", "title": "Away from the belts, higher latitude and altitude never mean less radiation", "statement": "For missions other than LEO and MEO flux, dose and upset probability never fall when the absolute latitude or the altitude grows.", "quantifier": "every history and pair of positions", "why_tests_cant": "all histories and floats", "anchors": ["include/rad_ml/neural/radiation_environment.hpp:RadiationEnvironment::createGCRModel"]}
{"id": "C424", "title": "A heatmap has the probability of each point of the trajectory", "statement": "generateHeatmap returns one probability in [0, 1] per position, in order, equal to calculateSEUProbability there; the heatmap of joined trajectories is the joined heatmaps.", "quantifier": "every mission, history and trajectory", "why_tests_cant": "all lists", "anchors": ["include/rad_ml/neural/radiation_environment.hpp:RadiationEnvironment::generateHeatmap"]}
{"id": "C425", "title": "A generated position lies on its orbit", "statement": "For times from the epoch on, generateOrbitPosition keeps the altitude, its latitude does not exceed the inclination and its longitude is in [-180, 180).", "quantifier": "every inclination, altitude up to 1e8 km and time up to 1e12 h", "why_tests_cant": "all floats", "anchors": ["include/rad_ml/neural/radiation_environment.hpp:RadiationEnvironment::generateOrbitPosition", "include/rad_ml/neural/radiation_environment.hpp:RadiationEnvironment::calculateOrbitPeriod"]}
{"id": "C426", "title": "Positions before the epoch are valid too", "statement": "For negative times the longitude of generateOrbitPosition is in [-180, 180) as well.", "quantifier": "every inclination, altitude and time", "why_tests_cant": "all floats", "anchors": ["include/rad_ml/neural/radiation_environment.hpp:RadiationEnvironment::generateOrbitPosition"]}
{"id": "C427", "title": "Distance is symmetric", "statement": "distanceTo gives the same double both ways, for all positions, NaN and infinite coordinates included.", "quantifier": "every two positions", "why_tests_cant": "all floats", "anchors": ["include/rad_ml/neural/radiation_environment.hpp:OrbitalPosition::distanceTo"]}
{"id": "C428", "title": "The distance of a position to itself is zero", "statement": "distanceTo of a position to itself is exactly 0.", "quantifier": "every position with finite coordinates and a latitude up to 360 degrees", "why_tests_cant": "all floats", "anchors": ["include/rad_ml/neural/radiation_environment.hpp:OrbitalPosition::distanceTo"]}
{"id": "C429", "title": "Dose and total flux follow from the particle fluxes", "statement": "The dose rate is electrons/1000 + protons/100 + ions/10 and getTotalFlux their sum, to 1e-4.", "quantifier": "every mission, history and position", "why_tests_cant": "all histories and floats", "anchors": ["include/rad_ml/neural/radiation_environment.hpp:RadiationFlux::getTotalFlux", "include/rad_ml/neural/radiation_environment.hpp:RadiationEnvironment::applyShielding"]}
{"id": "C430", "title": "Error rates of the physics simulator are finite and positive", "statement": "get_error_rates lists each of the seven effects once, with a rate between 2^-22 and 2048 per megabit and day, after any history of calls and for NaN or infinite shielding and activity.", "quantifier": "every memory size, trajectory, history of calls and argument", "why_tests_cant": "all floats and histories", "anchors": ["include/rad_ml/sim/physics_radiation_simulator.hpp:PhysicsRadiationSimulator::get_error_rates", "include/rad_ml/sim/physics_radiation_simulator.hpp:PhysicsRadiationSimulator::set_solar_activity", "include/rad_ml/sim/physics_radiation_simulator.hpp:PhysicsRadiationSimulator::set_shielding"]}
{"id": "C431", "title": "A shield removes at most 99 percent of the errors and never adds any", "statement": "With any shielding thickness every rate is between 1/100 of the unshielded rate (up to 1e-9) and the unshielded rate; zero, negative and NaN thickness count as no shield.", "quantifier": "every history, thickness and effect", "why_tests_cant": "all floats", "anchors": ["include/rad_ml/sim/physics_radiation_simulator.hpp:PhysicsRadiationSimulator::calculate_shielding_factor"]}
{"id": "C432", "title": "A thicker shield never raises an error rate", "statement": "For thicknesses t <= t' no rate with t' exceeds the rate with t.", "quantifier": "every history and pair of thicknesses, infinite ones included", "why_tests_cant": "all floats", "anchors": ["include/rad_ml/sim/physics_radiation_simulator.hpp:PhysicsRadiationSimulator::calculate_shielding_factor", "include/rad_ml/sim/physics_radiation_simulator.hpp:PhysicsRadiationSimulator::get_error_rates"]}
{"id": "C433", "title": "Error rates follow the published law", "statement": "Unshielded, each rate is base probability x environment level x activity effect x 10^6 to a relative 1e-10.", "quantifier": "every history and effect", "why_tests_cant": "all floats", "anchors": ["include/rad_ml/sim/physics_radiation_simulator.hpp:PhysicsRadiationSimulator::get_error_rates", "include/rad_ml/sim/physics_radiation_simulator.hpp:PhysicsRadiationSimulator::calculate_solar_modifier", "include/rad_ml/sim/physics_radiation_simulator.hpp:RadiationEffect"]}
{"id": "C434", "title": "Harsher environments have higher rates", "statement": "Among environments with the same solar response (near Earth; deep space) a higher level gives strictly higher rates; interplanetary space and Mars orbit agree exactly.", "quantifier": "every history, pair of environments and effect", "why_tests_cant": "all floats", "anchors": ["include/rad_ml/sim/physics_radiation_simulator.hpp:PhysicsRadiationSimulator::calculate_environment_modifiers", "include/rad_ml/sim/physics_radiation_simulator.hpp:PhysicsRadiationSimulator::set_environment"]}
{"id": "C435", "title": "Solar activity is clamped to 0..1", "statement": "Activity above 1, and NaN, acts as 1, activity below 0 as 0; a solar storm ignores activity; elsewhere full activity at least doubles the quiet rates.", "quantifier": "every history and activity", "why_tests_cant": "all floats", "anchors": ["include/rad_ml/sim/physics_radiation_simulator.hpp:PhysicsRadiationSimulator::set_solar_activity", "include/rad_ml/sim/physics_radiation_simulator.hpp:PhysicsRadiationSimulator::calculate_solar_modifier"]}
{"id": "C436", "title": "Simulated events respect the bit range of their effect", "statement": "Each event of simulate_period affects a number of bits in the range of its effect, and events come grouped by effect in a fixed order.", "quantifier": "every history, period and random sequence", "why_tests_cant": "all random sequences", "anchors": ["include/rad_ml/sim/physics_radiation_simulator.hpp:PhysicsRadiationSimulator::simulate_period"]}
{"id": "C437", "title": "The number of events follows the reported rate", "statement": "The number of events of each effect is a Poisson draw with mean rate/10^6 x days x bits, to a relative 1e-9.", "quantifier": "every history, memory size, period from 1e-6 to 1e9 days and random sequence", "why_tests_cant": "all floats and random sequences", "anchors": ["include/rad_ml/sim/physics_radiation_simulator.hpp:PhysicsRadiationSimulator::simulate_period", "include/rad_ml/sim/physics_radiation_simulator.hpp:PhysicsRadiationSimulator::get_error_rates"]}
{"id": "C438", "title": "A period of zero length or an empty memory produces no events", "statement": "simulate_period of zero, negative or NaN days, or with no memory bits, returns without undefined behaviour.", "quantifier": "every history and period", "why_tests_cant": "undefined behaviour is invisible to a test", "anchors": ["include/rad_ml/sim/physics_radiation_simulator.hpp:PhysicsRadiationSimulator::simulate_period"]}
{"id": "C439", "title": "A mission is simulated segment by segment", "statement": "simulate_mission returns one report per environment of the trajectory, in order, each counting the events of a run of that segment's duration in that segment's environment.", "quantifier": "every simulator, trajectory and random sequence", "why_tests_cant": "all random sequences", "anchors": ["include/rad_ml/sim/physics_radiation_simulator.hpp:PhysicsRadiationSimulator::simulate_mission"]}
{"id": "C440", "title": "Simulating a mission does not change the simulator", "statement": "After simulate_mission or simulate_mission_tid the chosen environment, shielding, activity and trajectory are as before.", "quantifier": "every simulator and mission", "why_tests_cant": "all histories", "anchors": ["include/rad_ml/sim/physics_radiation_simulator.hpp:PhysicsRadiationSimulator::simulate_mission", "include/rad_ml/sim/physics_radiation_simulator.hpp:PhysicsRadiationSimulator::simulate_mission_tid"]}
{"id": "C441", "title": "Trajectories without matching durations are rejected", "statement": "Constructing with or setting an empty trajectory, or flying one with fewer durations than environments, is reported rather than read out of bounds.", "quantifier": "every trajectory", "why_tests_cant": "undefined behaviour is invisible to a test", "anchors": ["include/rad_ml/sim/physics_radiation_simulator.hpp:SpacecraftTrajectory", "include/rad_ml/sim/physics_radiation_simulator.hpp:PhysicsRadiationSimulator::set_trajectory", "include/rad_ml/sim/physics_radiation_simulator.hpp:PhysicsRadiationSimulator::simulate_mission"]}
{"id": "C442", "title": "The preset trajectories are complete", "statement": "Each preset starts and ends in LEO, has one positive duration per environment, and lasts 365, 775 and 1630 days.", "quantifier": "the three presets", "why_tests_cant": "exact float sums", "anchors": ["include/rad_ml/sim/physics_radiation_simulator.hpp:SpacecraftTrajectory::Earth_LEO", "include/rad_ml/sim/physics_radiation_simulator.hpp:SpacecraftTrajectory::Mars_Mission", "include/rad_ml/sim/physics_radiation_simulator.hpp:SpacecraftTrajectory::Europa_Mission"]}
{"id": "C443", "title": "Total dose simulation counts dose effects only", "statement": "simulate_mission_tid counts nothing but the two TID effects; for zero, negative or NaN days it returns zeros, draws nothing and changes nothing.", "quantifier": "every simulator, number of days and random sequence", "why_tests_cant": "all random sequences", "anchors": ["include/rad_ml/sim/physics_radiation_simulator.hpp:PhysicsRadiationSimulator::simulate_mission_tid"]}
{"id": "C444", "title": "Total dose does not depend on solar activity", "statement": "simulate_mission_tid returns the same counts whatever the solar activity.", "quantifier": "every simulator, number of days, activity and random sequence", "why_tests_cant": "all random sequences", "anchors": ["include/rad_ml/sim/physics_radiation_simulator.hpp:PhysicsRadiationSimulator::simulate_mission_tid"]}
{"id": "C445", "title": "Total dose covers exactly the first days of the mission", "statement": "With durations in whole days, simulate_mission_tid for n days gives what the mission cut after n days gives; days beyond the end add nothing; it completes for every n.", "quantifier": "every plan of whole days, every n and random sequence", "why_tests_cant": "all plans and random sequences", "anchors": ["include/rad_ml/sim/physics_radiation_simulator.hpp:PhysicsRadiationSimulator::simulate_mission_tid"]}
{"id": "C446", "title": "An event never affects more bits than the memory has", "statement": "The number of bits of an event of simulate_period is at most the memory size.", "quantifier": "every memory size and random sequence", "why_tests_cant": "all random sequences", "anchors": ["include/rad_ml/sim/physics_radiation_simulator.hpp:PhysicsRadiationSimulator::simulate_period", "include/rad_ml/sim/physics_radiation_simulator.hpp:RadiationEffect"]}
{"id": "C447", "title": "A new particle field holds one draw per lattice point", "statement": "createParticleField for anything but a photon returns a field of the asked grid, spacing and type whose k-th point is the k-th draw of the noise, of spread 0.5 for electrons and protons and 1 otherwise; a grid not of three dimensions is rejected.", "quantifier": "every grid of up to 2^31 points, spacing, particle and random sequence", "why_tests_cant": "all grids and random sequences", "anchors": ["src/rad_ml/physics/quantum_models.cpp:createParticleField", "src/rad_ml/physics/quantum_field_theory.cpp:QuantumField::initializeGaussian"]}
{"id": "C448", "title": "The simulation reports energy gained", "statement": "Every number simulateMultiParticleInteraction returns is the total energy of that field after the call minus its total energy before.", "quantifier": "every list of fields, parameters and steps", "why_tests_cant": "all fields and parameters", "anchors": ["src/rad_ml/physics/quantum_models.cpp:simulateMultiParticleInteraction", "src/rad_ml/physics/quantum_field_theory.cpp:QuantumField::calculateTotalEnergy"]}
{"id": "C449", "title": "Zero-point motion lowers a defect's energy, less so when warm", "statement": "calculateQuantumCorrectedDefectEnergy of a particle without mass throws; otherwise it is finite, at most the classical energy, below zero for zero, and does not fall as the temperature rises.", "quantifier": "every energy up to 2^500, temperature and set of parameters of moderate size", "why_tests_cant": "all floats", "anchors": ["src/rad_ml/physics/quantum_field_theory.cpp:calculateQuantumCorrectedDefectEnergy", "src/rad_ml/physics/quantum_field_theory.cpp:calculateZeroPointEnergyContribution"]}
{"id": "C450", "title": "Harder devices flip no more easily", "statement": "calculateQuantumBitFlipProbability does not grow with the documented hardness of the device once the charge is a tenth of the harder device's critical charge; a device of hardness h flips exactly as a six-transistor SRAM cell of h times the critical charge, to nine digits.", "quantifier": "every material, pair of devices, charge and temperature", "why_tests_cant": "all floats", "anchors": ["src/rad_ml/physics/quantum_enhanced_radiation.cpp:QuantumEnhancedRadiation::calculateQuantumBitFlipProbability"]}
{"id": "C451", "title": "Decoherence rates that are not given take their defaults", "statement": "calculateQuantumDecoherence uses 1e-12 and 0.01 for a particle without a rate or coefficient and depends on no other particle's entries.", "quantifier": "every defect map, temperature, particle and table", "why_tests_cant": "all tables", "anchors": ["src/rad_ml/physics/quantum_models.cpp:calculateQuantumDecoherence"]}
{"id": "C452", "title": "When quantum corrections are applied", "statement": "shouldApplyQuantumCorrections is false when corrections are disabled, true when forced, and otherwise true exactly when the temperature is below, the feature size is below, or the radiation intensity is above its threshold; NaN meets no criterion. Unless they apply, applyQuantumCorrectionsToSimulation returns the defects unchanged, and it never throws.", "quantifier": "every configuration, temperature, size, intensity, crystal and defect map", "why_tests_cant": "all floats", "anchors": ["src/physics/quantum_integration.cpp:shouldApplyQuantumCorrections", "src/physics/quantum_integration.cpp:applyQuantumCorrectionsToSimulation"]}
{"id": "C453", "title": "The enhancement factor stays within its documented caps", "statement": "calculateQuantumEnhancementFactor adds at most 4 % for temperature alone and 8 % for size alone; it is at least 1, never grows with temperature or size, and is 1 from 150 K and 20 nm on.", "quantifier": "every pair of doubles, NaN and infinities included", "why_tests_cant": "all floats", "anchors": ["src/physics/quantum_integration.cpp:calculateQuantumEnhancementFactor"]}
{"id": "C454", "title": "Tunnelling probabilities are bounded and fall with temperature", "statement": "calculateQuantumTunnelingProbability is between 0 and 0.05 for all doubles, the same below 1 K as at 1 K, the same below a barrier of 0.01 as at it, and does not grow with temperature for a moderate barrier.", "quantifier": "every barrier, mass, hbar and temperature; every exp meeting the documented facts", "why_tests_cant": "all floats", "anchors": ["src/physics/quantum_integration.cpp:calculateQuantumTunnelingProbability"]}
{"id": "C455", "title": "The Klein-Gordon correction is bounded", "statement": "solveKleinGordonEquation (scalar) is between 0.001 and 0.05 for all doubles; spacings below 0.001 and masses below 1e-32 count as those.", "quantifier": "every six doubles, NaN and infinities included", "why_tests_cant": "all floats", "anchors": ["src/physics/quantum_integration.cpp:solveKleinGordonEquation"]}
{"id": "C456", "title": "Zero-point contributions are bounded and fall with temperature", "statement": "calculateZeroPointEnergyContribution is between 0 and 0.05, the same below 1 K as at 1 K, and does not grow with temperature.", "quantifier": "every mass, lattice constant and temperature, hbar between 2^-100 and 2^100", "why_tests_cant": "all floats", "anchors": ["src/physics/quantum_integration.cpp:calculateZeroPointEnergyContribution"]}
{"id": "C457", "title": "Corrected defect counts rise by at most 11 %", "statement": "applyQuantumCorrectionsToSimulation lowers no count and raises none by more than 11 %; of equal counts of one particle the interstitials end up at least as high as the clusters and these as the vacancies.", "quantifier": "every defect map with counts 0 or between 2^-900 and 2^990, every crystal, temperature, size, intensity and configuration", "why_tests_cant": "all floats and maps", "anchors": ["src/physics/quantum_integration.cpp:applyQuantumFieldCorrections", "src/physics/quantum_integration.cpp:applyQuantumCorrectionsToSimulation"]}
{"id": "C458", "title": "The feature size influences the corrections", "statement": "The corrections applied depend on the feature size, which createQFTParameters turns into the lattice spacing.", "quantifier": "every defect map, crystal, temperature and pair of sizes", "why_tests_cant": "all floats", "anchors": ["src/physics/quantum_integration.cpp:createQFTParameters", "src/physics/quantum_integration.cpp:applyQuantumFieldCorrections", "src/physics/quantum_integration.cpp:solveKleinGordonEquation"]}
{"id": "C459", "title": "Every particle with defects is corrected", "statement": "When corrections apply, the lists of every particle type with defects are corrected value by value, keeping length and order.", "quantifier": "every defect map, crystal, temperature, size, intensity and configuration", "why_tests_cant": "all maps", "anchors": ["src/physics/quantum_integration.cpp:applyQuantumFieldCorrections"]}
{"id": "C460", "title": "The parameters a crystal and feature size give", "statement": "createQFTParameters gives masses and couplings to proton, electron, neutron and photon, in the documented ratios to nine digits; diamond has the least proton mass and bcc the greatest; the lattice spacing is a hundredth of the feature size; asking for another particle throws runtime_error.", "quantifier": "every crystal and feature size (ratios of couplings and spacing for values between 2^-20 and 2^20)", "why_tests_cant": "all floats", "anchors": ["src/physics/quantum_integration.cpp:createQFTParameters"]}
{"id": "C461", "title": "A physics simulator is set to what was last asked", "statement": "After any history of settings and period runs a PhysicsRadiationSimulator is in the environment last set or the first one of the trajectory last given, whichever came later, starting with the first environment of its own trajectory; shielding, trajectory, memory and word size are those last given, and solar activity is 0.5 until set.", "quantifier": "every history without whole-mission runs", "why_tests_cant": "all histories", "anchors": ["include/rad_ml/sim/physics_radiation_simulator.hpp:PhysicsRadiationSimulator"]}
{"id": "C462", "title": "The trained error predictor answers a rate", "statement": "Whatever levels and rates an ErrorPredictor has been given to learn from, NaN and infinities included, every prediction is a double between 0 and 1.", "quantifier": "every random initialisation, history of observations and level; every exp and log10 that maps doubles to doubles", "why_tests_cant": "all histories and floats", "anchors": ["include/rad_ml/neural/error_predictor.hpp:ErrorPredictor", "include/rad_ml/neural/error_predictor.hpp:predictErrorRate", "include/rad_ml/neural/error_predictor.hpp:updateModel"]}
{"id": "C463", "title": "A bad observation can be unlearnt", "statement": "After an observation whose rate or level is NaN, later good observations bring the predictions back.", "quantifier": "every predictor, bad observation and later history", "why_tests_cant": "all histories", "anchors": ["include/rad_ml/neural/error_predictor.hpp:updateModel"]}
{"id": "C464", "title": "Observing what was predicted teaches nothing", "statement": "updateModel with the rate that predictErrorRate just gave for that level leaves every later prediction as it was.", "quantifier": "every predictor whose weights are at most 2^100 and level at most 2^70", "why_tests_cant": "all weights and levels", "anchors": ["include/rad_ml/neural/error_predictor.hpp:updateModel", "include/rad_ml/neural/error_predictor.hpp:predictErrorRate"]}
{"id": "C465", "title": "The plain predictor keeps its documented bands", "statement": "predictErrorRate of the ErrorPredictor in the global namespace answers 0.01-0.05 for rates 1e-9 to 1e-8, 0.05-0.15 up to 1e-7, 0.15-0.30 up to 1e-6 and 0.30-0.90 above, never less for a higher rate.", "quantifier": "every rate", "why_tests_cant": "all floats", "anchors": ["include/rad_ml/neural/error_predictor.hpp:ErrorPredictor"]}
{"id": "C466", "title": "Activations have their documented values", "statement": "The functions getActivationFunction returns: RELU is max(0,x) and 0 for NaN; LEAKY_RELU is x above zero and elsewhere a hundredth of x to three parts in 10^8, never below x or above 0; SIGMOID lies in 0..1; TANH is the library function; LINEAR is the identity.", "quantifier": "every double; every exp and tanh with the stated ranges", "why_tests_cant": "all floats", "anchors": ["include/rad_ml/neural/activation.hpp:getActivationFunction"]}
{"id": "C467", "title": "No chain of activations reverses an order", "statement": "If x <= y then any sequence of activations applied to both gives numbers, and the first at most the second.", "quantifier": "every list of activation types and pair of numbers, infinities included", "why_tests_cant": "all chains", "anchors": ["include/rad_ml/neural/activation.hpp:getActivationFunction"]}
{"id": "C468", "title": "Every activation type is honoured", "statement": "getActivationFunction returns the function its type names, SOFTMAX included.", "quantifier": "every type and double", "why_tests_cant": "all floats", "anchors": ["include/rad_ml/neural/activation.hpp:getActivationFunction"]}
{"id": "C469", "title": "Automatic repair only happens while asked for", "statement": "Every call of repair() by the scrubber of a RadiationTolerantModel comes after a call of enableAutoScrubbing that no return of disableAutoScrubbing or destruction has followed.", "quantifier": "every sequence of calls by the owner and every schedule of owner and scrubber thread", "why_tests_cant": "all schedules", "anchors": ["include/rad_ml/inference/model.hpp:enableAutoScrubbing", "include/rad_ml/inference/model.hpp:disableAutoScrubbing"]}
{"id": "C470", "title": "A model can be destroyed while it scrubs itself", "statement": "Destroying a model never makes its scrubber call repair() on a part that is gone.", "quantifier": "every sequence of calls and every schedule", "why_tests_cant": "all schedules", "anchors": ["include/rad_ml/inference/model.hpp:RadiationTolerantModel", "include/rad_ml/inference/model.hpp:enableAutoScrubbing"]}
{"id": "C471", "title": "Enabling, disabling and destroying return", "statement": "From every point of every run in which the model is only destroyed with auto-scrubbing off, the schedule can be continued so that all remaining calls return; enabling twice is no exception.", "quantifier": "every sequence of calls and every schedule", "why_tests_cant": "all schedules", "anchors": ["include/rad_ml/inference/model.hpp:enableAutoScrubbing", "include/rad_ml/inference/model.hpp:disableAutoScrubbing"]}
{"id": "C472", "title": "Repair and inference exclude each other", "statement": "No repair() by the scrubber happens between the call and the return of runInference.", "quantifier": "every sequence of calls and every schedule", "why_tests_cant": "all schedules", "anchors": ["include/rad_ml/inference/model.hpp:runInference", "include/rad_ml/inference/model.hpp:enableAutoScrubbing"]}
{"id": "C473", "title": "The console shows exactly the lines at or above the level", "statement": "After any history of init, logging calls and close, a logging call prints one line on the console exactly when its level is at or above the level given to the last init (INFO before any), and no other call prints a line.", "quantifier": "every history of calls, level and message", "why_tests_cant": "all histories", "anchors": ["include/rad_ml/core/logger.hpp:init", "include/rad_ml/core/logger.hpp:log"]}
{"id": "C474", "title": "Lines go to the file asked for", "statement": "After init with a file path that can be opened, every line printed on the console is also appended, once, to that file, and to no other.", "quantifier": "every history of calls, level, path and message", "why_tests_cant": "all histories", "anchors": ["include/rad_ml/core/logger.hpp:init", "include/rad_ml/core/logger.hpp:log", "include/rad_ml/core/logger.hpp:close"]}
{"id": "C475", "title": "The logger may be used from several threads", "statement": "With any number of threads calling the logging functions and init, no two unordered accesses of the level conflict, file and console hold the same lines in the same order whenever no line is being written, and each thread finds its lines in its own order.", "quantifier": "every number of threads, every program and every schedule", "why_tests_cant": "all schedules", "anchors": ["include/rad_ml/core/logger.hpp:log", "include/rad_ml/core/logger.hpp:init"]}
{"id": "C476", "title": "The similarity of two vectors is symmetric and between 0 and 1", "statement": "For any two vectors of finite floats calculateSimilarity answers a number between 0 and 1, the same with the vectors exchanged, and 0 when their lengths differ; no overflow of a difference, a square or the sum turns it into NaN.", "quantifier": "every pair of vectors of finite floats, of every length", "why_tests_cant": "all inputs", "anchors": ["include/rad_ml/advanced/error_prediction.hpp:calculateSimilarity"]}
{"id": "C477", "title": "Similarity 1 means identical", "statement": "calculateSimilarity answers 1 for two non-empty vectors exactly when they are identical.", "quantifier": "every pair of vectors of floats, of every length", "why_tests_cant": "all inputs", "anchors": ["include/rad_ml/advanced/error_prediction.hpp:calculateSimilarity"]}
{"id": "C478", "title": "More protection never raises the expected error rate", "statement": "With protection levels that are not negative: raising the level of any components never raises what calculate_expected_error_rate answers, and adding a component never lowers it.", "quantifier": "every number of components and every levels, every exp that is monotone", "why_tests_cant": "all inputs", "anchors": ["include/rad_ml/power/power_aware_protection.hpp:calculate_expected_error_rate"]}
{"id": "C479", "title": "The expected error rate is at most nine a day per component", "statement": "With protection levels that are not negative calculate_expected_error_rate answers a finite number between 0 and nine times the number of components.", "quantifier": "every number of components below 2^53 / 9 and every levels", "why_tests_cant": "all inputs", "anchors": ["include/rad_ml/power/power_aware_protection.hpp:calculate_expected_error_rate"]}
