C01|proved|All three containers, arbitrary T with lawful ==, arbitrary copy and value.
C02|proved|History induction for the two containers with repair(); hasErrors characterised.
C03|proved|Counters and callback log equal the independent reference bookkeeping (an inductive relation proved functional).
C04|proved|Every unordered_map iteration order (arbitrary permutation chosen afresh at every call) and every spaced history.
C05|partial|REFUTED by the code: repair() calls set(), which zeroes the counter, so getErrorCount() is at most 1 after any history (proved for all histories).
C06|partial|REFUTED as stated: stored NaN, or sign flip of a stored zero, in copy 0 is returned corrupted. The exact condition (iff) is proved for every value, copy and bit.
C07|proved|All arithmetic types of 1,2,4,8 bytes (long double is not modelled: the 16-byte memcpy into an 8-byte temporary is out of scope of the anchors).
C08|proved|Integers: every strategy and every content of the uninitialised upper bytes; float/double: same unless zeros of opposite sign meet (exact hypothesis in the theorem).
C09|proved|All three masks arbitrary as long as no bit position is hit twice.
C10|partial|REFUTED: 1/2-byte types read uninitialised bytes; 64-bit types execute an out-of-range shift exactly when the upset is not inside bits 0-7, 8-15, 16-23 or 24-63 (iff proved). Positive: exact-width types always recognise a single bit; no UB up to 32 bits.
C11|partial|REFUTED for EnhancedVoting (never reports ADJACENT_BITS, for any input); proved for EnhancedTMR's detector for runs of 2 and 3.
C12|partial|REFUTED for zero weights (result is all ones, for all distinct integers). Agreement case proved; equal weights give the majority for weights in [2^-100,2^100].
C54|partial|Proved as iff for 32-bit types; REFUTED for 64-bit types (any multi-bit mask within bits 24-63 is BYTE_ERROR).
C55|partial|Same pattern proved for all types; range proved for exact-width types; REFUTED for 1-byte types (uninitialised bytes make it negative).
C13|proved|Five implementations incl. generated and literal table, all byte strings. memory::MemoryScrubber's sixth variant is wrong, see C57.
C14|proved|Arbitrary length; <= 4-byte injectivity as second theorem.
C15|proved|Bound 2^29 bytes shown exact by a second theorem.
C56|proved|
C57|partial|REFUTED: the literal table misses one row (252 initialisers); for every context a one-bit flip is invisible.
C16|proved|Every type, copy index and corrupted cell; float zero may come back with the corrupted copy's sign (r = v or r = the corrupted pattern, proved). NaN is C58.
C17|proved|Bursts of up to 32 bits in two copies; any corruption for <= 4 bytes; both classes.
C18|partial|Balance proved over all histories. REFUTED: copies disagreeing with valid checksums are voted over without counting. get counts exactly the checksum errors (proved).
C19|proved|Same scope as C16, plus balance of the statistics.
C20|partial|REFUTED: two finite copies of which one is zero, third non-finite, no valid checksum: get() recurses forever. The exact set of such states is proved (iff); integers always terminate.
C58|partial|REFUTED for every NaN (verify() is false right after set, one corrupted cell wins). Value-only corruption is survived (proved).
C59|proved|
C60|proved|
C61|partial|REFUTED: verify() never compares the copies when the checksums are valid. Sound for value upsets that leave checksums alone (proved).
C21|proved|Every state, clock, draw, voting mode; the callback is assumed not to call back (that case is C62).
C22|proved|binary64 arithmetic via Flocq, every history; (0,1] with setRawCopy.
C23|partial|REFUTED for every state: clone() re-locks the mutex it holds. All other operations return with the mutex released (proved over histories).
C24|partial|Proved for all integer types and for float/double unless the corrupted copy is a NaN whose checksum also matches; REFUTED there: NaN is inserted as a std::map key (broken strict weak order).
C25|partial|REFUTED by a reachable state (degraded health): a checksum-valid minority wins. Proved: the pair wins on every reachable state when the third copy fails its checksum or is not healthier than both.
C26|proved|
C62|partial|REFUTED for every state in which copy 0 fails its CRC. Non-re-entrant callbacks always return: C23_other_operations_return_partial.
C63|partial|REFUTED: within the verification interval, draw 0 returns copy 0 with a bad CRC.
C27|proved|Integral template for every width; float/double specialisations for every non-NaN v (zero may come back with the corrupted copy's sign).
C28|partial|REFUTED: every 0->1 flip is taken for a stuck bit at once and never repaired; a second upset of another copy is then returned. Exact result of repair() proved; float/double specialisations do restore.
C29|partial|Stuck-at-1 proved (identified after 3 repairs, excluded from the vote for all later contents). REFUTED for stuck-at-0, for any number of repairs.
C30|partial|Proved for all 8 integer types. REFUTED for bool (true reads back false); floats just above 1e6 are also changed (witness + exact condition).
C31|partial|REFUTED: corruption of the EXACT copy is returned unless reduce(v) = clamp(v) (iff); never masked for unsigned types. Copies 1 and 2: proved.
C64|partial|REFUTED for unsigned types: the clamp is the constant 2^(w-1)+1. Proved for signed types.
C32|partial|Proved for n >= 1 over every stateful operation and every result type with a strict weak order (shown for all arithmetic types away from NaN); ties go to the smallest result. REFUTED for n = 0: end() is dereferenced.
C33|proved|For arbitrary clocks (not only monotone), capacities including 0 and intervals.
C34|partial|REFUTED: a set() less than 30 s after the last accepted one is silently not checkpointed, rollback() restores the older value (or fails). Proved when sets are at least the interval apart.
C65|partial|REFUTED: repair() returns true in every state (the comparison reads the same memory), also when a copy stays wrong.
C66|proved|Integral T, tracker without identified stuck bits (as after set()).
C35|proved|operator[] is covered under its documented precondition i < size.
C36|proved|For every key type with an equality test that decides equality.
C37|partial|REFUTED for requests whose byte size wraps modulo 2^64 (granted although larger than the pool), for over-aligned T, and for allocate(0) on a full pool (out-of-range subscript). Proved for n >= 1 without wrap and storage aligned for T, over every history.
C38|partial|REFUTED: get() reports ValueCorruptionError for one corrupted copy exactly when the upset is a loose burst (characterised), and for 1/2-byte types also depending on uninitialised bytes. scrub() always restores; get() never returns a third value.
C39|proved|Integers of at most 4 bytes, any junk in the temporaries. scrub() without argument does not compile and is not modelled.
C40|proved|With the exact set of lost logical bits for every flip mask.
C41|partial|REFUTED for every value and logical bit: adjacent stored bits 3i,3i+1 and 3i+1,3i+2 belong to the same logical bit. Only boundary pairs are harmless.
C67|partial|REFUTED: the converting constructor leaves next_free_ indeterminate; operator== ignores that storage is per object. reset() makes it usable.
C68|partial|REFUTED for errors (get() of the propagated error reads uninitialised copies); proved for values. bind() does not compile for ProtectedValue results and is not modelled.
C42|proved|All interleavings of atomic steps (sequentially consistent), counters modulo 2^64; history contents, order and per-thread completeness.
C43|partial|REFUTED: the function-local statics of updateErrorRate are shared by all objects (C43_objects_interfere_refuted). Proved part: the counters are independent.
C44|proved|All histories with fewer than 2^64 registrations; callbacks are arbitrary functions of the memory.
C69|partial|REFUTED: seconds(1).count() is 1 while time differences are in clock ticks, so a single thread never reports more than 0.5/s however fast errors arrive; a race makes the difference wrap to about 2^64.
C70|partial|REFUTED: the statics survive reset (rate above 10^6 after one error) and a reset inside a recordError leaves counters inconsistent. Proved part: reset with nothing else running gives a fresh tracker.
C71|partial|REFUTED: 200% with one preemption. Proved part: with nothing else running all entries are in [0,1].
C72|proved|All interleavings, no reset on the object; progress of the whole system.
C73|partial|REFUTED: scrubOnce holds the non-recursive mutex while running callbacks. Proved part: callbacks that do not call back run once each, in order.
C74|partial|Proved for one controlling thread; REFUTED for two concurrent start() calls (std::terminate).
C75|partial|Proved for sequential histories; REFUTED for two racing registrations and after a move.
C76|partial|Proved for regions of at most 64 bytes; REFUTED for larger ones (only the last block's checksum is kept).
C77|partial|REFUTED: memory is never written, all detected errors are counted corrected, corrupted contents are accepted by the next cycle, and the CRC is blind to some changes. Proved part: exact report condition for small regions.
C78|partial|REFUTED: deadlock reachable, and every completed move leaves the new object without a thread. No positive part holds.
C79|partial|REFUTED for the documented byte size (out-of-bounds when sizeof(T) > 1); proved when size is the number of elements.
C45|partial|REFUTED: dividing a negative value shifts it left (undefined in C++17), and 64-bit multiplication overflows on representable products. The rest (add/sub, floor multiplication up to 32 bits, truncating division) is proved.
C46|proved|
C47|partial|REFUTED for bool and, for countBitDifferences, for object sizes other than 1/2/4/8; proved for all integer types, float and double.
C48|partial|REFUTED: Result<T>(StatusCode::SUCCESS) is not successful although its status is. Proved for every other construction and for Result<void>.
C80|partial|double: proved for all formats of at most 32 bits; float: proved below 2^24, REFUTED above.
C81|partial|REFUTED for signed T with FracBits = bits-1 (0.5*0.5 = -0.25); int construction proved for the others.
C82|partial|REFUTED: reads an uninitialised scalar. No positive part holds for scalar T.
C49|partial|Field laws, table safety, domain_error proved for all elements of GF16 and GF1024; pow REFUTED when log*power wraps around in unsigned int, proved below.
C50|partial|REFUTED: field_size wraps to 0 in uint8_t, the tables are empty and the constructor accesses them out of range; GF16 and GF1024 proved to construct.
C51|proved|
C52|partial|REFUTED: the last check symbol is always 0 and syndromes are computed at other roots, so decode(encode(x)) is x or undefined behaviour; undefined for every nonzero x with fewer data than check symbols.
C53|partial|REFUTED; the vectors that survive are characterised exactly.
C83|partial|REFUTED for nsym = 255 (uint8_t counter, endless loop) in GF1024; proved for all nsym < 255.
C84|partial|REFUTED: no word is ever corrected (returned unchanged when its syndromes vanish, otherwise out-of-bounds access).
C85|partial|REFUTED when a symbol of the object is not a field element (any byte >= 16 for 4-bit symbols); proved otherwise.
C86|partial|REFUTED: true or undefined behaviour, never false for a word of full length; proved false for short input.
C87|proved|
C88|proved|
C89|proved|
C90|partial|REFUTED for the six parity bytes (getValue flips data bit 2^k-1); proved for the overall parity byte.
C91|partial|REFUTED for bits i with an odd number of ones in i+1 (reported uncorrectable); proved for the others, detection proved for all.
C92|partial|REFUTED: detected always, but miscorrected (third bit flipped, success reported) exactly when (i+1) xor (k+1) has odd weight and is at most 32.
C93|proved|
C94|proved|
C95|proved|
C96|partial|REFUTED: markInvalid, damaged SECDED overall parity and damaged hash bytes are never cleared though true is returned; proved after any single-bit data error.
C97|proved|
C98|proved|For rates up to 1; beyond, the conversion to unsigned is undefined (C98_outside_the_range).
C99|partial|REFUTED for two-bit corruptions and after assignment through the base class; proved for any corruption confined to one byte.
C100|partial|REFUTED for the implicit conversion (reads the unprotected base value) and for AdaptiveTMRProtection below its threshold; proved for getValue() of integer types.
C101|partial|REFUTED for zone maps with two zones of one level and for zero-byte requests; proved for every history over one zone per level (including the default map) with requests of at least one byte.
C102|partial|REFUTED after the first overflow (the reference assignment overwrites the zone table: the zone is lost for every later history); proved for every history without overflow.
C103|partial|REFUTED: only one fallback zone is tried and LOW_IMPORTANCE overflows into HIGHLY_SHIELDED; proved for the next level's zone before the first overflow.
C104|partial|REFUTED after a failed malloc (counted for ever); proved otherwise.
C105|proved|
C106|partial|REFUTED when failed requests are counted and the total wraps; proved for up to 2^49 live bytes without failed malloc.
C107|partial|REFUTED for zones with start > end; proved otherwise.
C108|partial|REFUTED when n*sizeof(T) wraps; proved otherwise.
C109|partial|REFUTED when the minimum powers exceed the budget (components up to criticality 0.7 run at half their minimum); proved otherwise, with the emergency levels exactly.
C110|partial|REFUTED exactly (rounding) and in emergency mode (over budget, or negative); proved up to (3n+152)*2^-52 relative when the minimum fits.
C111|proved|
C112|proved|
C113|partial|REFUTED in emergency mode (negative) and for min = max (NaN); proved when the minimum fits.
C114|partial|REFUTED: 100 steps are shared by all components, rounding stops short of the maximum, criticality 0 is never raised; proved to 2^-40 for one component.
C115|proved|
C116|proved|
C117|proved|
C118|proved|
C119|proved|
C120|partial|REFUTED for an empty memory (distribution over an empty range, remainder by zero); proved for memories of 1 to 2^28-1 bytes.
C121|partial|REFUTED for an empty event list (0/0); proved with at least one event.
C122|proved|
C123|partial|REFUTED: two upsets of one byte are one correction, and NONE counts errors without making them; proved for EDAC in the direction ber = 0 => restored.
C124|proved|
C125|proved|
C126|partial|REFUTED for 8, 16 and 32-bit types: the bitset is read past the value; proved for types of whole 64-bit words.
C127|partial|REFUTED for bursts (positions drawn twice cancel) and stuck-at faults (the bit may already have the value); proved for the flipping patterns.
C128|proved|
C129|proved|
C130|partial|REFUTED: the same bit drawn twice flips nothing; proved for distinct bits.
C131|proved|
C132|proved|
C133|proved|
C134|partial|REFUTED for a zero duration (Poisson mean 0) and for FaultInjector on an empty region; proved for a missing environment or memory.
C135|proved|
C136|proved|
C137|proved|
C138|partial|REFUTED across 36000 km, where the factor drops from 5.6 to 5; proved on either side.
C139|proved|Hypothesis: the sum of the two counts fits in uint32_t (C140 treats the rest).
C140|partial|REFUTED: the two counts are added in uint32_t, so 2^31+2^31 counts as none; proved while the sum fits.
C141|partial|REFUTED: a call less than a second after the last assessment is dropped with its counts; proved for the others.
C142|proved|
C143|partial|REFUTED: callbacks run with the mutex held, so locking again is undefined; proved for callbacks that only observe.
C144|proved|
C145|partial|REFUTED: nothing reverts the level, and a quiet assessment one second later drops it below the former level; proved: raised by one, at most MAXIMUM.
C146|proved|
C147|proved|
C148|proved|
C149|proved|
C150|proved|
C151|partial|REFUTED after construction, setEnvironment and the EXTREME shortcut, none of which starts the five minutes; proved relative to the last change by the score.
C152|partial|REFUTED: the check is skipped within ten seconds of the previous one; proved after ten seconds.
C153|proved|
C154|proved|
C155|partial|REFUTED for LUNAR and ISS; proved for LEO, GEO, MOON, MARS, JUPITER (and the long names), and for names unknown to both.
C156|proved|
C157|proved|
C158|partial|REFUTED: when both copies of an activation are hit in the same bit they outvote the right value, and the loss is counted as a correction. Proved whenever that coincidence does not happen (different single-bit upsets of one float never compare equal).
C159|partial|REFUTED at every level: weights are MultibitProtection objects with coding scheme NONE, so no upset is ever detected. Proved: the damage is confined to that weight and nothing is counted.
C160|proved|
C161|partial|REFUTED: the repair pass finds no errors (scheme NONE). Proved: it never damages an intact network.
C162|proved|
C163|partial|REFUTED: rows before the first row of the wrong length have been set when the exception is thrown. Proved: exactly these rows, and all-or-nothing for the other two errors.
C164|proved|
C165|proved|
C166|partial|REFUTED for every edit and for radiation: the copies are never read, and raw_setWeight does not update them.
C167|partial|REFUTED for all data: train() never changes a parameter. Proved: it returns the mean squared error of the unchanged network.
C168|partial|REFUTED: it returns 1 - MSE, which can be negative. Proved: the exact value.
C169|proved|
C170|proved|
C171|proved|
C172|proved|
C173|proved|
C174|partial|REFUTED: one implementation with reliability 1.0 outvotes three with 0.3. Proved: the answer with strictly more summed reliability wins.
C175|partial|REFUTED: from 0.2 with a history of successes a failure gives 0.27. Proved: a failure never gives more than a success would, and lowers or keeps the score once the window holds only failures.
C176|proved|
C177|partial|REFUTED: shrinking keeps the oldest outcomes. Proved: scores and names do not change, growing keeps every outcome, setting the same size changes nothing.
C178|partial|REFUTED for history size 0 (erase(begin()) of an empty vector). Proved: with a positive size every call is defined.
C179|proved|
C180|partial|REFUTED: the fallback calls the most reliable implementation again, not one that answers; a registration under the empty name is never used as fallback. Proved: a consulted implementation that answers suffices, and the exact fallback.
C181|proved|
C182|proved|
C183|proved|
C184|proved|
C185|proved|
C186|proved|
C187|proved|
C188|partial|REFUTED: the class's own static members hide the vector overloads, so nothing is ever similar (0.1). Proved: the exact probability.
C189|partial|REFUTED: the input is ignored. Proved: results never depend on the input.
C190|partial|REFUTED: the smallest taught output is used, whatever the suspect output. Proved: what a suggestion can be.
C191|proved|
C192|proved|
C193|proved|
C194|partial|REFUTED: the unsigned subtraction wraps and the output dimension is at least 2^39 (2^64-1 for stride 1). Proved: off by one with stride 1 gives an empty output.
C195|proved|
C196|proved|
C197|partial|REFUTED: 16.16 values overflow int in the accumulation. Proved: for 8- and 16-bit storage forward() always returns.
C198|proved|
C199|proved|
C200|proved|
C201|proved|
C202|proved|
C203|partial|REFUTED: when all three agree neither flag is written. Proved: the flags are right on every disagreement.
C204|partial|REFUTED: the float is cast to size_t, undefined for negative, NaN and huge results. Proved: masked for results in [0, 2^63].
C205|partial|REFUTED: a correct 0 or INT_MAX is discarded and the one wrong value is returned as corrected. Proved: masked when the right value does not look stuck.
C206|partial|REFUTED: three zeros give confidence 0.2 and a detected error. Proved: no alarm for values that do not look stuck.
C207|proved|
C208|proved|
C209|partial|REFUTED: four faults in execution 1 and then one in execution 2 return the wrong value. Proved: masked for ever while it is always the same execution that disagrees.
C210|partial|REFUTED: a three-way disagreement raises all scores. Proved: no score rises when some two agree.
C211|proved|
C212|proved|
C213|proved|
C214|proved|
C215|proved|
C216|partial|REFUTED: a quiet environment update after entering CRITICAL_OPERATION gives BASIC_TMR. Proved: the level holds until the next update or phase.
C217|partial|REFUTED: entering LAUNCH before the first update reads the uninitialised environment. Proved: after an update the strategy has the level in force.
C218|partial|REFUTED: phase and criticality are ignored. Proved: for every history, executions are the same with all phase entries removed and any criticality.
C219|proved|
C220|partial|REFUTED: a two-layer network runs EnhancedTMR, a negative result is undefined behaviour. Proved: masked for results in [0, 2^63].
C221|proved|
C222|proved|
C223|partial|REFUTED: an empty input divides by zero. Proved: every other input returns.
C224|partial|REFUTED: all three executions read the same corrupted weight. Proved: only the output of that weight's row can change.
C225|proved|
C226|proved|
C227|proved|
C228|proved|
C229|proved|
C230|proved|
C231|proved|
C232|proved|
C233|proved|
C234|partial|REFUTED: with a time step of 0 or less runSimulation never returns; proved for every positive step.
C235|proved|whole-second steps for the exact sum; every step for the per-step statement
C236|partial|REFUTED: an empty profile (despite the constructor's fallback), fewer durations than environments, more probabilities than environments, or an infinite duration make the run index out of bounds or convert out of range; proved for proper profiles.
C237|partial|REFUTED: budget, costs and the low threshold have no effect on any run (proved for all runs); the settings are always one of the three configured ones.
C238|proved|
C239|proved|
C240|proved|
C241|partial|REFUTED: protection only counts; a corrected event leaves the memory corrupted. Proved: the memory after a run does not depend on the configuration at all.
C242|proved|
C243|partial|REFUTED: a run without errors reports uptime 0; proved: in [0,1], and 1 when every detected error was corrected.
C244|partial|REFUTED: the choice may pick the same environment again and again; proved: a single environment is never left.
C245|proved|
C246|partial|REFUTED: probability 0 (and 1e-10) converts an infinity or a too large float to int. Proved: defined for p >= 2^-27 with counts that fit.
C247|proved|With the exact boundary where the int counter overflows.
C248|partial|REFUTED for every reachable network: flips hit the copies getLayers() gives access to, which forward does not read. Proved: visible there.
C249|partial|REFUTED for every reachable network: no call changes the parameters. Proved: the network stays usable, sizes kept.
C250|partial|REFUTED: for every history on non-empty data drop and recovery are 0. Proved: train() and getStats() agree.
C251|partial|REFUTED: all analysed weights get 1/2, or NaN when the loss is not finite. Proved: entries are 0 or 1/2 with a finite loss. exp is a parameter (exp(-0)=1).
C252|proved|
C253|partial|REFUTED: the map keeps the first network's sizes and is written out of bounds. Proved: same sizes work.
C254|partial|REFUTED: out of bounds with targeting, NaN statistics otherwise. Proved: no epochs, no change.
C255|partial|REFUTED for batch sizes 0 (division by zero) and below 0 (nothing is trained). Proved for all positive batch sizes.
C256|proved|For targeting off; freq characterised for p >= 2^-27.
C257|partial|REFUTED: SOLAR_FLARE injects less than MARS, EARTH more than EARTH_ORBIT. Proved for the environments whose factors are ordered.
C258|proved|
C259|partial|REFUTED for every network: forward() ignores all connections and projections. Proved: the base class result.
C260|partial|REFUTED: nothing is added. Proved: the call can be left out of any history.
C261|proved|For every content of the map that fits into size_t, every order.
C262|partial|REFUTED: the layers are never restored, projections become the identity. Proved: what is restored.
C263|partial|REFUTED: connections are cleared before the failure. Proved: the layers never change, and a missing file or a failure before the connections are read leaves everything unchanged.
C264|partial|REFUTED for every saved file and every cut behind the first 8 bytes. Proved: complete files.
C265|partial|REFUTED: files shorter than 8 bytes read an uninitialised size, a flag byte other than 0 or 1. Proved for saved files cut behind 8 bytes.
C266|partial|REFUTED. Proved for networks with at least as many layers.
C267|partial|REFUTED for every content: the writes are not checked. Proved for a disk with room.
C268|partial|REFUTED: all data is one input vector, several samples throw; accuracy can be negative. Proved for one sample: the exact values, and nothing is trained.
C269|partial|REFUTED for CANARY: the returned pointer is not the tracked one. Proved for the other levels, for deallocate and for the typed forms.
C270|partial|REFUTED for CANARY: deallocate answers false and the block leaks. Proved for the other levels.
C271|proved|Totals modulo 2^64; count tied to isAllocated.
C272|partial|REFUTED after resetStats (peaks 0 below the current values). Proved for histories without resetStats; bytes while the live bytes are below 2^64.
C273|proved|For every reachable manager.
C274|proved|Unknown, double free, and no bad free for every reachable manager.
C275|partial|REFUTED: sizes wrap (CANARY near SIZE_MAX, allocateArray). Proved below 2^60.
C276|partial|REFUTED: ECC and TMR write behind the block for every unaligned size > 0. Proved: exact condition, and NONE, CRC, CANARY always complete.
C277|partial|REFUTED: CANARY overwrites the first and last eight bytes (or is out of bounds), ECC and TMR write behind the block. Proved for NONE and CRC.
C278|partial|REFUTED: allocate with a level reports unprotected, unprotectMemory subtracts twice. Proved: the status, and the counts for histories without unprotectMemory.
C279|partial|REFUTED: never true; locks the mutex again for every live allocation. Proved: false for unknown pointers.
C280|partial|REFUTED: the mutex is locked again for every protected block. Proved: works after unprotectMemory.
C281|proved|Sizes below 2^60.
C282|partial|ALIGNED REFUTED for CANARY with alignment above 8. Zeroing proved for all levels (sizes below 2^60), alignment for the other levels.
C283|proved|allocate, allocateObject, allocateArray.
C284|proved|For fewer than 2^64 - 2 registrations.
C285|partial|checkForLeaks proved; REFUTED for objects made with CANARY (they leak). NONE and CRC objects: see C286.
C286|proved|Levels NONE and CRC; also: when all pointer objects are null nothing is allocated.
C287|proved|For any std::log and std::exp that answer doubles, any noise in [0,2].
C288|partial|REFUTED: layer lists without a connection (empty, one layer, a zero width throughout) and dropout -0.5 convert an unrepresentable number to size_t. Proved for networks with 1 <= weights < 2^53 and dropout in [0,1].
C289|proved|For networks with 1 <= weights < 2^53, given 0 <= log <= 40 there.
C290|partial|REFUTED: the noise is seeded by the level too. Proved when the noise is the same.
C291|partial|REFUTED: SOLAR_FLARE has a higher radiation level than DEEP_SPACE but gives a higher accuracy, even with equal noise. Proved for the tester's own order of environments with equal noise.
C292|partial|REFUTED: proved that data and epochs have no influence at all.
C293|proved|Given only that the square of a number up to 200 lies in [0,65536].
C294|proved|1 <= trials < 2^37, 1 <= weights < 2^53.
C295|partial|Seeds proved distinct (as the engine sees them, modulo 2^32); the offset part is REFUTED: it has no effect.
C296|partial|First best proved for the scan libstdc++ performs; REFUTED: the ordering is not irreflexive, so the library promises nothing.
C297|partial|REFUTED: testArchitecture records nothing. Proved: exactly the Monte Carlo and range calls record one result each.
C298|partial|REFUTED: each save appends all results so far. Proved: the exact content, k(k+1)/2 rows after k recordings.
C299|partial|REFUTED: maximum and step have no influence; proved that exactly the minimum is tested.
C300|partial|REFUTED: zero Monte Carlo trials record an empty architecture for EARTH. Proved when every Monte Carlo call has a trial and a list of the right shape.
C301|partial|REFUTED: three dropout rates closer than 1e-6 give a cycle a < b < c < a. Proved: a strict total order when the dropout rates are equal or at least 1e-6 apart.
C302|partial|REFUTED for NaN dropout rates. Proved for every pair of rates in [0,1]; with rates at least 1e-6 apart equality is identity.
C303|proved|Exact membership, no duplicates, count in both modes.
C304|partial|Random configurations are exactly those built from the options; REFUTED that the grid has them all (three layers, equal widths, residual with one hidden layer). Proved equal for a fixed number of at least two hidden layers.
C305|proved|First best, iteration count, and completion, for every noise and number of trials.
C306|partial|REFUTED: no options, no trials or no iterations return uninitialised numbers or subscript an empty vector. Completion otherwise is C305_completes and C311_completes.
C307|proved|Exact table, for every earlier table.
C308|proved|For every stream: whenever it returns, exactly max new different configurations.
C309|partial|REFUTED: when fewer than max untested configurations are left it never returns, for every stream and however long it runs.
C310|partial|REFUTED: random search forgets better earlier results. Proved for grid search among grid configurations.
C311|proved|For every stream: population size, validity under crossover and mutation, elitism, the first best of all evaluated, the exact table, completion.
C312|partial|REFUTED in both cases; C311 needs at least one configuration and one generation.
C313|partial|REFUTED for grid search, which tests again. Proved for random and evolutionary search: recorded Monte Carlo results = growth of the table.
C314|partial|REFUTED: without labels it divides by zero. Proved otherwise for labels that are not NaN.
C315|proved|All three searches.
C316|proved|Every history of sensible calls (at least one trial, configuration and generation).
C317|proved|
C318|proved|
C319|partial|REFUTED: without votes every decoded value is NaN or in [0, 1.75], so inputs of 2 or more are never reproduced. Missing: the range when activations are voted on.
C320|proved|Formula, seeds modulo 2^32; short vectors are out-of-bounds reads.
C321|partial|REFUTED: above 0.5 values are moved and the move counted as a corrected error; above 0.1 a value of 2^127 becomes infinite. Proved: unchanged up to 0.5 below 2^127.
C322|partial|REFUTED with use_interpolation: alpha 1 gives the interpolation network's answer. Proved for linear interpolation; sizes; short vectors are out-of-bounds reads without use_interpolation.
C323|proved|
C324|partial|REFUTED: no training function changes a weight.
C325|partial|REFUTED: the divisor is one too many when the batch size divides the number of samples. Proved: exact formula.
C326|partial|REFUTED: batch size 0 never returns, or divides by zero on no data. Batch sizes other than 0 terminate: C325, C329.
C327|partial|REFUTED: 2^24+3 samples and split 0 throw, a NaN split is undefined. Proved: always a partition; sizes within 4 up to 2^24 samples and split in [0,1].
C328|proved|
C329|proved|
C330|partial|REFUTED: one sample and the default split leave nothing to train on and every training loss is NaN. Proved: which losses are NaN.
C331|proved|
C332|partial|REFUTED: loadModel returns false for every file. Proved: and changes nothing.
C333|partial|REFUTED: no weight is written. Proved: dimensions and options come back.
C334|partial|REFUTED: destroying an object that loaded another object's file frees the other's string. Proved: otherwise defined.
C335|partial|REFUTED: shorter than 24 bytes reads an indeterminate count; a refused allocation leaves the file's dimensions with the old networks. Proved: a file that cannot be opened changes nothing.
C336|partial|REFUTED: more latent than input dimensions with use_interpolation reads out of bounds. Proved: otherwise train answers.
C337|proved|
C338|proved|
C339|proved|
C340|proved|
C341|proved|
C342|proved|
C343|proved|
C344|partial|REFUTED: std::min(0.999, NaN) is 0.999, so a NaN rate scores at least as high as any rate (C344_refuted). Proved: an infinite rate scores 0 when exp(-inf) = 0.
C345|proved|
C346|proved|
C347|proved|
C348|partial|REFUTED: at rate 0 an ASIC with ECC scores 0.999 with every TMR approach. Proved: without ECC any TMR approach scores strictly above none at rate 0.
C349|partial|REFUTED: type NONE, which is not available, scores at least 0.84 at rate 0. Proved: it never scores above a real type with the same settings.
C350|proved|
C351|partial|REFUTED: the counters stay 0 whatever fails (log_error is never called). Proved: a fresh accelerator reports none and no call changes that.
C352|proved|
C353|partial|REFUTED: every type but NONE is reported missing, yet create_accelerator makes one that is available and initialises. Proved: create_best_available makes a detected type.
C354|proved|
C355|partial|REFUTED: the factory only makes the base class, so execute answers false after every history. Proved: it always completes and leaves the buffer alone.
C356|proved|
C357|proved|
C358|partial|REFUTED: initialize under COMPLETE turns software TMR off even though it fails, and no later initialize turns it on again, not even for a configuration without TMR. Proved: as long as the configuration is not changed.
C359|proved|
C360|proved|
C361|partial|REFUTED: the sum overflows for large floats, the vote is infinite. Proved: within 3*M*2^-24 + 2^-148 of the mean when |x| <= M <= 2^98.
C362|proved|
C363|partial|REFUTED: an accelerator that shortens its output makes execute index out of range. Proved: defined when no run shortens the buffer.
C364|proved|
C365|partial|REFUTED: it lowers the score when the accelerator's score is between 1e-6 and 0.499. Proved: it raises it from 0.501 on.
C366|proved|
C367|partial|REFUTED: a side of length 0 divides by zero. Proved: every other grid is built or refused as stated.
C368|proved|
C369|partial|REFUTED: the index is cut to an int, so a 65536x65536 field reads outside its storage and two points of a 65537x65536 field share one cell. Proved for fields of up to 2^31 points.
C370|proved|
C371|proved|
C372|proved|
C373|proved|
C374|partial|REFUTED: evolveField returns without touching any field.
C375|proved|
C376|partial|REFUTED: with two photon fields of different grids the step throws out_of_range after changing points. C375 shows that fields of one grid never get that far.
C377|proved|
C378|partial|REFUTED: steps is not used; one step is made whatever it says, even 0. Proved: grids, spacings and types are kept and one number per field is answered.
C379|proved|
C380|partial|REFUTED: a temperature of -1 K gives NaN, there is no guard on the temperature. Proved for temperature 0 and positive doubles between 2^-300 and 2^300.
C381|proved|
C382|proved|
C383|proved|
C384|partial|REFUTED: at a tenth of the critical charge a tunnelling term is dropped and the probability falls. Proved from a tenth of the critical charge on, and against charges of at most zero.
C385|partial|REFUTED: beyond 2^32 the cast to uint32_t is undefined before the clamp to 8 is reached, and for an infinite charge. Proved up to 2^30 times the critical charge.
C386|proved|For charges up to 2^30 times the critical charge; beyond see C385.
C387|partial|REFUTED: the energy is not used. Proved: the bounds in the LET and the exceptions.
C388|proved|
C389|partial|REFUTED: below the temperature threshold the capped factor is multiplied again by up to 2.5 for the default parameters. Proved from the threshold on.
C390|partial|REFUTED: when energy, temperature and hbar are zero the quotient is NaN, and the answer is NaN, 1 or 0 by particle. Proved for positive hbar.
C391|partial|REFUTED: with the default parameters the zero point term, whose hbar is converted a second time, gives more than 10 MeV. Proved: the lower bound and the exceptions.
C392|partial|REFUTED: below the threshold the default distribution is returned, which is not empty. Proved above the threshold.
C393|proved|
C394|partial|REFUTED: below 100 nm every device has a sensitivity above 65536, since an energy in eV is divided by the charge of the electron once more. Proved: the order, the fall with the size, and the documented values from 100 nm on.
C395|proved|For a size and size times duration of at most 2^40, beyond which see C396.
C396|partial|REFUTED: for one MiB and the longest duration the number of impacts does not fit in a uint32_t and the cast is undefined. C395 is the positive part.
C397|proved|
C398|proved|
C399|partial|REFUTED: when the durations add up to more than 64 bits a late query overflows a signed integer. Proved for queries inside phases that end within 64 bits.
C400|proved|
C401|partial|REFUTED: a NaN flux in the first environment hides all others. Proved when the first flux is a number, whatever the others are.
C402|proved|
C403|proved|
C404|proved|
C405|proved|
C406|partial|REFUTED: on Moon and Mars missions the outbound and the return leg share one environment. Proved for every other pair of phases.
C407|proved|
C408|proved|
C409|proved|
C410|proved|exp is any function with the bounds of exp_lib and cos any function into [-1, 1].
C411|proved|
C412|proved|
C413|partial|REFUTED: a NaN activity makes every flux NaN and the next flare sets the activity to 1; a flare of intensity -4 gives negative fluxes. Proved: setting any number, infinities included, brings the activity back into [0, 1].
C414|partial|REFUTED: nothing calls the decay function the flare stores; after a flare of at least 0.1 the proton flux stays up by 5 percent whatever follows short of setSolarActivity. Proved: setting the earlier activity restores every flux exactly.
C415|partial|REFUTED: the constructor computes the attenuation from an uninitialised material (undefined behaviour; here any int), so two new environments can differ. Proved: after the first setShielding nothing depends on it.
C416|proved|
C417|partial|REFUTED: the factor is 1 + 100 i, yet no flux rises more than sixfold and heavy ions do not rise at all. Proved: electrons and protons do not fall (to 1e-3).
C418|proved|
C419|proved|
C420|partial|REFUTED: the distance to the Sun is a constant 1 AU, so the branch is never taken and a solar probe has exactly the flux of a geostationary satellite (also polar and equatorial LEO are the same).
C421|proved|
C422|partial|REFUTED: 320 degrees and -40 degrees name the centre of the anomaly, but only the latter has its protons. Proved for missions other than LEO.
C423|proved|
C424|proved|
C425|proved|
C426|partial|REFUTED: for every time up to 0 the longitude is at most -180, e.g. -195 at -1 h. Proved: it is in [-540, 180).
C427|proved|sin is any odd function, cos and atan2 any functions.
C428|proved|
C429|proved|
C430|proved|std::pow returns doubles; nothing else is assumed about exp and pow.
C431|proved|std::pow returns doubles; for NaN thickness exp(NaN) and pow(NaN, y) are NaN.
C432|proved|exp and pow monotone, pow maps [0,1] to itself.
C433|proved|
C434|proved|
C435|proved|C435_dip shows that rates do not simply grow with activity.
C436|proved|The integer distribution stays in its range.
C437|proved|
C438|partial|REFUTED: the Poisson distribution is given a mean that is not positive, which is undefined. C438_runs_complete_partial: runs of 1e-6 to 1e9 days with at least one bit complete.
C439|proved|
C440|partial|REFUTED: the simulator is left in the environment of the last segment. C440_rest_kept_partial: everything else is kept, and after a TID run the environment is the old one or one of the trajectory.
C441|partial|REFUTED: front() of an empty vector, or durations read past their end. C441_mission_completes_partial: a well-formed trajectory can be set after any history and its mission completes.
C442|proved|
C443|proved|
C444|proved|
C445|proved|
C446|partial|REFUTED: an SEL in an 8-bit memory affects 1024 bits. C446_bits_bound_partial: every event affects 1 to 1048576 bits.
C447|proved|
C448|proved|
C449|proved|
C450|proved|
C451|proved|
C452|proved|
C453|partial|REFUTED as stated: temperature alone adds up to 20 % and size alone up to 32 % (C453_caps_refuted). Proved: range [1, 1.6] (1.21 and 1.33 for one effect alone) for all doubles, monotonicity, saturation, no effect from 150 K and 20 nm on.
C454|proved|
C455|proved|
C456|proved|
C457|proved|
C458|partial|REFUTED as stated: once corrections apply the result is the same for every feature size, because the Klein-Gordon term always falls to its lower clamp (C458_size_effect_refuted). Proved: the size only takes part in the decision.
C459|partial|REFUTED as stated: heavy ions, positrons, muons and neutrinos are skipped (C459_all_types_refuted). Proved: exactly the four known particles are corrected, value by value.
C460|proved|
C461|proved|
C462|proved|
C463|partial|REFUTED as stated: after one NaN rate every prediction is 1 whatever is observed later (C463_recovers_refuted). Proved: after one NaN level the predictions no longer depend on the level, for ever.
C464|proved|
C465|partial|REFUTED as stated: the low band uses 4.0 where 0.04 was meant, so a rate just below 1e-8 is answered with 4.0 and 0 with a negative rate (C465_bands_refuted). Proved: the three higher bands exactly, monotone from 1e-8 up, and in the low band monotone and at least 0.01.
C466|proved|
C467|proved|
C468|partial|REFUTED as stated: SOFTMAX gives the identity (C468_softmax_refuted). Proved: the other four non-linear types differ from the identity, with the values of C466.
C469|proved|
C470|partial|REFUTED as stated: the scrubber is a member of the base class, so it is stopped only after the derived part is gone, and its thread can make a pure virtual call in between (C470_destroy_refuted). Proved: no such call in any schedule of a program that disables before it destroys.
C471|proved|
C472|partial|REFUTED as stated: nothing keeps a repair out of an inference (C472_exclusive_refuted). Proved: there is none when auto-scrubbing was not wanted when the inference began.
C473|proved|
C474|partial|REFUTED as stated: a second init with another path goes on writing to the file opened first (C474_asked_file_refuted). Proved: exactly which file, if any, each line goes to, for every history.
C475|partial|REFUTED as stated: the level is read without the mutex, so a logging call races with init (C475_race_refuted). Proved in every schedule: for any programs, init included, file and console agree whenever the mutex is free and the threads never deadlock; for threads that only log, each thread finds its lines in its order.
C476|proved|
C477|partial|REFUTED as stated: vectors that differ by little also get 1, and a vector holding an infinity gets NaN against itself (C477_one_means_equal_refuted). Proved: every non-empty vector of finite floats gets exactly 1 against itself.
C478|proved|
C479|proved|
