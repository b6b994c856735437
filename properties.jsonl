{"id": "C01", "title": "RIndex::Count is exact", "statement": "For a RIndex constructed from a text, Count(pattern) returns a half-open range whose length is the number of positions of the text at which the pattern occurs.", "quantifier": "every zero-free byte text, every suffix array of it, every non-empty pattern over bytes of the text", "why_tests_cant": "The test-suite checks one 11-letter text and a couple of patterns; the claim ranges over all texts, patterns (and rates), an unbounded set.", "anchors": ["include/sr-index/index_base.h: RIndexBase::Count", "include/sr-index/lf.h: LF", "include/sr-index/r_index.h: RIndex::constructLF", "include/sr-index/rle_string.hpp: RLEString::rank"]}
{"id": "C02", "title": "RIndex::Locate is exact", "statement": "For a RIndex constructed from a text, Locate(pattern) terminates without an out-of-range access and reports every occurrence of the pattern exactly once and nothing else.", "quantifier": "every zero-free byte text and every non-empty pattern over bytes of the text", "why_tests_cant": "The test-suite checks one 11-letter text and a couple of patterns; the claim ranges over all texts, patterns (and rates), an unbounded set.", "anchors": ["include/sr-index/index_base.h: RIndexBase::Locate", "include/sr-index/r_index.h: RIndex, constructRIndex", "include/sr-index/phi.h: PhiBackward, ComputeAllValuesWithPhi", "include/sr-index/toehold.h"]}
{"id": "C03", "title": "SrIndex::Locate is exact at every subsampling rate", "statement": "For an SrIndex built with subsample rate s, Locate(pattern) reports every occurrence of the pattern exactly once and nothing else.", "quantifier": "every zero-free byte text, every rate s, every non-empty pattern over bytes of the text", "why_tests_cant": "The test-suite checks one 11-letter text and a couple of patterns; the claim ranges over all texts, patterns (and rates), an unbounded set.", "anchors": ["include/sr-index/sr_index.h: SrIndex", "include/sr-index/phi.h: PhiBackwardForRange", "include/sr-index/sampling.h: computeSampling"]}
{"id": "C04", "title": "SrIndexValidMark::Locate is exact", "statement": "For an SrIndexValidMark built with subsample rate s, Locate(pattern) reports every occurrence exactly once and nothing else.", "quantifier": "every zero-free byte text, every rate s, every non-empty pattern over bytes of the text", "why_tests_cant": "The test-suite checks one 11-letter text and a couple of patterns; the claim ranges over all texts, patterns (and rates), an unbounded set.", "anchors": ["include/sr-index/sr_index.h: SrIndexValidMark", "include/sr-index/phi.h: PhiBackwardForRangeWithValidity", "include/sr-index/construct.h: computeSubmarksValidity"]}
{"id": "C05", "title": "SrIndexValidArea::Locate is exact", "statement": "For an SrIndexValidArea built with subsample rate s, Locate(pattern) reports every occurrence exactly once and nothing else.", "quantifier": "every zero-free byte text, every rate s, every non-empty pattern over bytes of the text", "why_tests_cant": "The test-suite checks one 11-letter text and a couple of patterns; the claim ranges over all texts, patterns (and rates), an unbounded set.", "anchors": ["include/sr-index/sr_index.h: SrIndexValidArea", "include/sr-index/tools.h: SampleValidator"]}
{"id": "C06", "title": "RCSAWithBWTRun::Locate is exact", "statement": "For an RCSAWithBWTRun constructed from a text, Locate(pattern) reports every occurrence exactly once and nothing else.", "quantifier": "every zero-free byte text, every non-empty pattern over bytes of the text", "why_tests_cant": "The test-suite checks one 11-letter text and a couple of patterns; the claim ranges over all texts, patterns (and rates), an unbounded set.", "anchors": ["include/sr-index/r_csa.h: RCSAWithBWTRun", "include/sr-index/phi.h: PhiForward", "include/sr-index/psi.h: PsiCoreRLE"]}
{"id": "C07", "title": "RCSAWithPsiRun::Locate is exact", "statement": "For an RCSAWithPsiRun constructed from a text, Locate(pattern) reports every occurrence exactly once and nothing else.", "quantifier": "every zero-free byte text, every non-empty pattern over bytes of the text", "why_tests_cant": "The test-suite checks one 11-letter text and a couple of patterns; the claim ranges over all texts, patterns (and rates), an unbounded set.", "anchors": ["include/sr-index/r_csa.h: RCSAWithPsiRun"]}
{"id": "C08", "title": "CSARaw::Locate is exact", "statement": "For a CSARaw constructed from a text, Locate(pattern) reports every occurrence exactly once and nothing else.", "quantifier": "every zero-free byte text, every non-empty pattern over bytes of the text", "why_tests_cant": "The test-suite checks one 11-letter text and a couple of patterns; the claim ranges over all texts, patterns (and rates), an unbounded set.", "anchors": ["include/sr-index/r_csa.h: CSARaw"]}
{"id": "C09", "title": "SrCSA::Locate is exact at every subsampling rate", "statement": "For an SrCSA built with rate s, Locate(pattern) reports every occurrence exactly once and nothing else.", "quantifier": "every zero-free byte text, every rate s, every non-empty pattern over bytes of the text", "why_tests_cant": "The test-suite checks one 11-letter text and a couple of patterns; the claim ranges over all texts, patterns (and rates), an unbounded set.", "anchors": ["include/sr-index/sr_csa.h: SrCSA, SrCSABase", "include/sr-index/phi.h: PhiForwardForRange"]}
{"id": "C10", "title": "SrCSASlim::Locate is exact at every subsampling rate", "statement": "For an SrCSASlim built with rate s, Locate(pattern) reports every occurrence exactly once and nothing else.", "quantifier": "every zero-free byte text, every rate s, every non-empty pattern over bytes of the text", "why_tests_cant": "The test-suite checks one 11-letter text and a couple of patterns; the claim ranges over all texts, patterns (and rates), an unbounded set.", "anchors": ["include/sr-index/sr_csa.h: SrCSASlim"]}
{"id": "C11", "title": "SrCSAValidMark::Locate is exact", "statement": "For SrCSAValidMark over SrCSA or SrCSASlim with rate s, Locate(pattern) reports every occurrence exactly once and nothing else.", "quantifier": "every zero-free byte text, every rate s, every non-empty pattern over bytes of the text", "why_tests_cant": "The test-suite checks one 11-letter text and a couple of patterns; the claim ranges over all texts, patterns (and rates), an unbounded set.", "anchors": ["include/sr-index/sr_csa.h: SrCSAValidMark", "include/sr-index/phi.h: PhiForwardForRangeWithValidity"]}
{"id": "C12", "title": "SrCSAValidArea::Locate is exact", "statement": "For SrCSAValidArea over SrCSA or SrCSASlim with rate s, Locate(pattern) reports every occurrence exactly once and nothing else.", "quantifier": "every zero-free byte text, every rate s, every non-empty pattern over bytes of the text", "why_tests_cant": "The test-suite checks one 11-letter text and a couple of patterns; the claim ranges over all texts, patterns (and rates), an unbounded set.", "anchors": ["include/sr-index/sr_csa.h: SrCSAValidArea", "include/sr-index/tools.h: SampleValidator"]}
{"id": "C13", "title": "SrCSAWithPsiRun::Locate is exact at every subsampling rate", "statement": "For an SrCSAWithPsiRun built with rate s, Locate(pattern) reports every occurrence exactly once and nothing else.", "quantifier": "every zero-free byte text, every rate s, every non-empty pattern over bytes of the text", "why_tests_cant": "The test-suite checks one 11-letter text and a couple of patterns; the claim ranges over all texts, patterns (and rates), an unbounded set.", "anchors": ["include/sr-index/sr_csa_psi.h: SrCSAWithPsiRun"]}
{"id": "C14", "title": "SRCSAValidMark / SRCSAValidArea (psi runs) Locate is exact", "statement": "For SRCSAValidMark and SRCSAValidArea built with rate s, Locate(pattern) reports every occurrence exactly once and nothing else.", "quantifier": "every zero-free byte text, every rate s, every non-empty pattern over bytes of the text", "why_tests_cant": "The test-suite checks one 11-letter text and a couple of patterns; the claim ranges over all texts, patterns (and rates), an unbounded set.", "anchors": ["include/sr-index/sr_csa_psi.h: SRCSAValidMark, SRCSAValidArea"]}
{"id": "C15", "title": "Locate and Count agree", "statement": "On every index, the number of values reported by Locate(pattern) equals the length of the range returned by Count(pattern); a pattern with no occurrence gives an empty list and an empty range.", "quantifier": "every index class, every text, every rate, every non-empty pattern over bytes of the text", "why_tests_cant": "Agreement must hold for every pattern and both code paths, which stop at different places on empty ranges.", "anchors": ["include/sr-index/index_base.h: RIndexBase::Locate, RIndexBase::Count"]}
{"id": "C16", "title": "All index variants return the same answer", "statement": "Any two index classes built from the same text, at any two rates, report the same set of positions for the same pattern.", "quantifier": "every pair of index classes, every pair of rates, every text, every non-empty pattern over bytes of the text", "why_tests_cant": "A differential test samples pairs; the claim is for all of them.", "anchors": ["include/sr-index/r_index.h", "include/sr-index/sr_index.h", "include/sr-index/r_csa.h", "include/sr-index/sr_csa.h", "include/sr-index/sr_csa_psi.h"]}
{"id": "C17", "title": "Patterns with bytes absent from the text have no occurrence", "statement": "If the pattern contains a byte that does not occur in the text, Count returns an empty range and Locate reports nothing.", "quantifier": "every text and every pattern that contains a byte absent from the text", "why_tests_cant": "No test queries an absent byte; the value returned depends on the alphabet mapping for all 256 bytes.", "anchors": ["include/sr-index/r_index.h: get_symbol", "include/sr-index/alphabet.h", "include/sr-index/construct_base.h: constructAlphabet"]}
{"id": "C18", "title": "Empty pattern", "statement": "Locate(\"\") and Count(\"\") are defined: Count returns all rows and Locate does not read out of range.", "quantifier": "every text, the empty pattern", "why_tests_cant": "The initial toehold is only dereferenced on this path and no test takes it.", "anchors": ["include/sr-index/index_base.h: RIndexBase::Locate"]}
{"id": "C19", "title": "RLEString access and size", "statement": "An RLEString built from a sequence has its size and returns its i-th symbol for every i, for every block size b >= 1.", "quantifier": "every finite sequence, every block size, every position", "why_tests_cant": "Access decodes block and per-symbol bit vectors; all block-boundary alignments must work.", "anchors": ["include/sr-index/rle_string.hpp: RLEString::RLEString, operator[]"]}
{"id": "C20", "title": "RLEString rank", "statement": "rank(i,c) equals the number of occurrences of c in the first i symbols.", "quantifier": "every finite sequence, every block size, every i <= size, every symbol c not above the largest symbol of the sequence", "why_tests_cant": "Boundary cases (run edge, block edge, absent symbol, i = size) combine without bound.", "anchors": ["include/sr-index/rle_string.hpp: RLEString::rank, rankSoftBothRun"]}
{"id": "C21", "title": "RLEString select", "statement": "select(k,c) is the position of the k-th occurrence of c, and is inverse to rank.", "quantifier": "every finite sequence, block size, symbol c, 1 <= k <= occurrences of c", "why_tests_cant": "Same unbounded boundary combinations.", "anchors": ["include/sr-index/rle_string.hpp: RLEString::select"]}
{"id": "C22", "title": "RLEString rank with run report", "statement": "rank(i,c,report) reports the rank of c at i, the rank of the symbol run and whether i is covered by a run of c; rank(i,report) reports symbol, rank and the run that covers i.", "quantifier": "every finite sequence, block size, position, symbol", "why_tests_cant": "Backward search depends on the run rank at every position.", "anchors": ["include/sr-index/rle_string.hpp: RLEString::rank(i,c,report), rank(i,report), computeSymbolRunData"]}
{"id": "C23", "title": "RLEString splitInRuns partitions the range into maximal runs", "statement": "splitInRuns(first,last) reports, in order, exactly the maximal runs meeting the interval, with their index, symbol and full extent.", "quantifier": "every finite sequence, block size, interval", "why_tests_cant": "Any run/interval overlap is possible.", "anchors": ["include/sr-index/rle_string.hpp: RLEString::splitInRuns"]}
{"id": "C24", "title": "RLEString selectOnRuns", "statement": "selectOnRuns(k,c) is the index, among all runs, of the k-th run of symbol c.", "quantifier": "every finite sequence, symbol, run rank", "why_tests_cant": "Unbounded alphabets and run interleavings.", "anchors": ["include/sr-index/rle_string.hpp: RLEString::selectOnRuns"]}
{"id": "C25", "title": "rle_string (sampled-block variant) is a faithful sequence", "statement": "rle_string access, rank, select (0-based), run_of_position, run_range, break_range and closest_run_break agree with the plain string it was built from.", "quantifier": "every finite string, every block size B >= 1, every position/symbol", "why_tests_cant": "Block-boundary cases combine without bound.", "anchors": ["include/sr-index/rle_string.hpp: rle_string"]}
{"id": "C26", "title": "constructPsi inverts the LF mapping", "statement": "constructPsi returns the permutation psi with SA[psi[i]] = SA[i]+1 (mod n); symbols are grouped and increasing inside each symbol.", "quantifier": "every text and its BWT", "why_tests_cant": "Must hold for every text.", "anchors": ["include/sr-index/psi.h: constructPsi"]}
{"id": "C27", "title": "PsiCoreRLE select and rank", "statement": "select(c,k) returns the k-th psi value of symbol c and rank(c,v) the number of psi values of c smaller than v; exist(c,v) tells whether v is one of them.", "quantifier": "every text, symbol c, rank k, value v <= n", "why_tests_cant": "The run-length + sampled Elias-delta encoding has a boundary every 64 entries, which small tests never reach.", "anchors": ["include/sr-index/psi.h: PsiCoreRLE::select, rank, exist, RunOps, selectCore", "include/sr-index/enc_vector.hpp"]}
{"id": "C28", "title": "PsiCoreRLE rank with run report", "statement": "rank(c,v,report) reports rank, and the start, end and index of the first run of c ending after v, or the end sentinel (n,n,runs(c)).", "quantifier": "every text, symbol, value v <= n", "why_tests_cant": "As above.", "anchors": ["include/sr-index/psi.h: PsiCoreRLE::rank(c,v,report)"]}
{"id": "C29", "title": "PsiCoreRLE run ranks and run splitting", "statement": "rankRun(v) counts BWT runs starting before v; splitInRuns/splitInSortedRuns(first,last) cut the interval exactly at BWT-run borders.", "quantifier": "every text, every value/interval", "why_tests_cant": "As above.", "anchors": ["include/sr-index/psi.h: PsiCoreRLE::rankRun, splitInRuns, splitInSortedRuns"]}
{"id": "C30", "title": "PsiCoreRLE computeForwardRuns", "statement": "computeForwardRuns(c,first,last) returns the maximal value-consecutive intervals covered by the psi values of ranks [first,last) of symbol c, in order.", "quantifier": "every text, symbol, rank interval", "why_tests_cant": "As above.", "anchors": ["include/sr-index/psi.h: PsiCoreRLE::computeForwardRuns"]}
{"id": "C31", "title": "PsiCoreBV select, rank and exist", "statement": "The bit-vector psi core answers select/rank/exist like the plain psi array.", "quantifier": "every text, symbol, rank, value", "why_tests_cant": "As above.", "anchors": ["include/sr-index/psi.h: PsiCoreBV"]}
{"id": "C32", "title": "Psi and LF are inverse through the public functors", "statement": "Psi(LF(i)) = i and LF(Psi(i)) = i for every row i, with the symbol of a row found from the cumulative array.", "quantifier": "every text, every row", "why_tests_cant": "All rows of all texts.", "anchors": ["include/sr-index/psi.h: Psi, computeCForSAIndex", "include/sr-index/bwt.h: BasicLF"]}
{"id": "C33", "title": "enc_vector / Elias-delta round trip", "statement": "An encoded vector returns on access exactly the values it was built from; so does decoding a sample and the block of values that it starts.", "quantifier": "every non-decreasing sequence of integers, every sample density >= 2, every index", "why_tests_cant": "Bit-level decode over unbounded words cannot be enumerated.", "anchors": ["include/sr-index/enc_vector.hpp", "include/sr-index/coder.h"]}
{"id": "C34", "title": "computeSampling covering guarantee", "statement": "computeSampling(s, idxs, values, required) returns a subsequence containing the first and last and all required indices, and any omitted element lies in a gap of at most s between its retained predecessor and its next element.", "quantifier": "every strictly monotone value sequence, every s, every required set", "why_tests_cant": "For all sequences and all s.", "anchors": ["include/sr-index/sampling.h: computeSampling"]}
{"id": "C35", "title": "computeSampling size bound", "statement": "The number of retained indices is at most 2*(span/(s+1)) + 2 + the number of required ones.", "quantifier": "every strictly monotone value sequence, every s", "why_tests_cant": "Space guarantee of the sr-index for all inputs.", "anchors": ["include/sr-index/sampling.h: computeSampling"]}
{"id": "C36", "title": "Circular predecessor / soft successor", "statement": "The circular predecessor of i is the greatest mark < i or, if none, the greatest mark; the circular soft successor is the least mark >= i or, if none, the least mark.", "quantifier": "every bit vector with at least one mark, every position", "why_tests_cant": "All bit vectors.", "anchors": ["include/sr-index/sequence_ops.h"]}
{"id": "C37", "title": "PhiBackward computes the previous suffix-array value", "statement": "With the marks, links and samples the r-index construction builds, phi(SA[i]) = SA[i-1] cyclically.", "quantifier": "every text, every row", "why_tests_cant": "All rows of all texts.", "anchors": ["include/sr-index/phi.h: PhiBackward", "include/sr-index/construct.h: constructMarkToSampleLinksForPhiBackward"]}
{"id": "C38", "title": "PhiForward computes the next suffix-array value", "statement": "With the marks, links and samples the r-csa construction builds, phi(SA[i]) = SA[i+1] cyclically.", "quantifier": "every text, every row", "why_tests_cant": "All rows of all texts.", "anchors": ["include/sr-index/phi.h: PhiForward, computeMarkToSampleLinkForPhiForward"]}
{"id": "C39", "title": "Mark/sample links are mutually inverse bijections", "statement": "Mark-to-sample and sample-to-mark links built for the forward and backward phi functions are mutually inverse bijections on runs.", "quantifier": "every text", "why_tests_cant": "All texts.", "anchors": ["include/sr-index/construct.h", "include/sr-index/phi.h: computeSampleToMarkLinkForPhiForward"]}
{"id": "C40", "title": "BWT run files describe the runs", "statement": "The first/last/text-position run files written by the construction list exactly the heads and tails of the maximal runs of the BWT and their text positions.", "quantifier": "every text", "why_tests_cant": "All run structures, incl. single-run and last-position runs.", "anchors": ["include/sr-index/construct_sdsl.h: constructBWTRuns", "include/sr-index/bwt.h: computeBWT"]}
{"id": "C41", "title": "Text preparation", "statement": "constructText keeps the input bytes, ends the text with exactly one zero byte, and rejects inputs with an inner zero byte.", "quantifier": "every byte string", "why_tests_cant": "All byte strings.", "anchors": ["include/sr-index/construct_sdsl.h: constructText"]}
{"id": "C42", "title": "Alphabet compaction is order preserving", "statement": "char2comp is strictly increasing on the bytes of the text, C[c] counts symbols smaller than c, and C[sigma] = n.", "quantifier": "every text", "why_tests_cant": "All byte texts.", "anchors": ["include/sr-index/alphabet.h", "include/sr-index/construct_base.h: constructAlphabet"]}
{"id": "C43", "title": "Backward search range is the suffix-array interval", "statement": "After each backward search step the range held by Count/Locate is exactly the interval of rows whose suffix starts with the processed pattern suffix, and once empty it stays reported as empty.", "quantifier": "every text, every pattern, every prefix of the search", "why_tests_cant": "Loop invariant over unbounded pattern lengths.", "anchors": ["include/sr-index/index_base.h", "include/sr-index/lf.h"]}
{"id": "C44", "title": "Toehold equals the suffix-array value at the range end", "statement": "The value computed from the last special backward search step is the SA value at the end (backward indexes) or start (forward indexes) of the final range.", "quantifier": "every text, pattern, index class", "why_tests_cant": "Depends on the whole search history.", "anchors": ["include/sr-index/toehold.h", "include/sr-index/tools.h: GetLastValue, ComputeSAValue"]}
{"id": "C45", "title": "Bounded navigation with subsampling", "statement": "Locate on a subsampled index never follows more than s LF/psi steps from a row before it obtains a sample or a valid phi value.", "quantifier": "every text, rate, pattern", "why_tests_cant": "Time guarantee over all inputs.", "anchors": ["include/sr-index/phi.h: PhiBackwardForRange, PhiForwardForRange"]}
{"id": "C46", "title": "Serialize/load round trip", "statement": "Loading a serialized index into a default-constructed object of the same class gives an index that answers every query as the original.", "quantifier": "every index class, text, rate, pattern", "why_tests_cant": "Every item order and every parameter must match.", "anchors": ["include/sr-index/index_base.h: serializeItem, loadItem", "include/sr-index/sr_csa_psi.h: SrCSAWithPsiRun", "include/sr-index/sr_csa.h: SrCSAValidMark"]}
{"id": "C47", "title": "Interrupted construction can be resumed", "statement": "If construct is interrupted at any point and run again on the same cache, the resulting index equals the one of an uninterrupted construction.", "quantifier": "every crash point of every construction step", "why_tests_cant": "Crash points are not exercised by tests.", "anchors": ["include/sr-index/construct.h", "include/sr-index/construct_sdsl.h: constructBWTRuns, constructIndexBaseItems", "include/sr-index/sr_index.h: constructSubsamplingForwardSamplesForPhiBackward"]}
{"id": "C48", "title": "Repeated construction is idempotent", "statement": "Running construct again over a complete cache changes no cached item and builds an equal index.", "quantifier": "every text, class, rate", "why_tests_cant": "All cache states after completion.", "anchors": ["include/sr-index/construct.h"]}
{"id": "C49", "title": "Big-BWT ingestion keeps every symbol", "statement": "The BWT read from the Big-BWT output has the same symbols as the file.", "quantifier": "every BWT byte sequence", "why_tests_cant": "Bytes that are white space are not in the tests.", "anchors": ["include/sr-index/construct_big_bwt.h: constructBWT"]}
{"id": "C50", "title": "Big-BWT run samples agree with SDSL ones", "statement": "For a valid Big-BWT .ssa/.esa pair, the run items read equal those the SDSL route computes.", "quantifier": "every text", "why_tests_cant": "All texts.", "anchors": ["include/sr-index/construct_big_bwt.h: constructBWTRuns"]}
{"id": "C51", "title": "Range LF helper functions", "statement": "computeLF/LF map an empty or absent-symbol range to an empty range and otherwise to the range of rows preceded by the symbol.", "quantifier": "every string, range, symbol", "why_tests_cant": "All ranges.", "anchors": ["include/sr-index/bwt.h: computeLF", "include/sr-index/lf.h"]}
{"id": "C52", "title": "Storage cache semantics", "statement": "An item loaded through the generic storage is loaded at most once per key, and every later request returns the same item.", "quantifier": "every sequence of load requests", "why_tests_cant": "All request histories.", "anchors": ["include/sr-index/index_base.h: GenericStorage, loadItem"]}
{"id": "C53", "title": "RLEString rank domain", "statement": "rank(i,c) is defined exactly for symbols c up to the largest symbol of the sequence: with a larger symbol it indexes its per-symbol table out of range instead of answering 0.", "quantifier": "every finite sequence, block size, position and symbol above the largest one", "why_tests_cant": "The unchecked index is only reached with symbols no test uses; the claim ranges over all of them.", "anchors": ["include/sr-index/rle_string.hpp: RLEString::rank, runs_per_symbol_"]}
{"id": "C54", "title": "sparse_sd_vector is a faithful bit vector", "statement": "A sparse_sd_vector answers size, access, rank, select, predecessor, circular predecessor and gapAt like the bit sequence it was built from, whichever constructor built it.", "quantifier": "every non-empty bit sequence, position and rank, both constructors", "why_tests_cant": "All bit sequences; the second constructor is in no test.", "anchors": ["include/sr-index/sparse_sd_vector.hpp: sparse_sd_vector"]}
{"id": "C55", "title": "Copies of a sparse_sd_vector are independent", "statement": "A sparse_sd_vector obtained from another one keeps answering after the other one is destroyed.", "quantifier": "every object, every way of obtaining it (assignment, copy construction), every destruction history", "why_tests_cant": "Object lifetime histories; a dangling support often still reads the old memory.", "anchors": ["include/sr-index/sparse_sd_vector.hpp: operator=", "include/sr-index/rle_string.hpp: rle_string"]}
{"id": "C56", "title": "computeBWT reports every symbol and every run once", "statement": "computeBWT reports each symbol of the BWT once in row order, and for each maximal run its first and its last row once, in order, with the run number, the symbol and the text position of that symbol; it returns the number of runs.", "quantifier": "every non-empty sequence and every list of its positions", "why_tests_cant": "All sequences and run structures, including runs of length one and a single run.", "anchors": ["include/sr-index/bwt.h: computeBWT"]}
{"id": "C57", "title": "One cache directory serves many indexes", "statement": "Over a cache directory in which any sequence of construct calls completed (any classes, rates, routes and bit-vector types, with one Psi type, in one or several processes), the next construct gives an index whose Count and Locate are exact.", "quantifier": "every text, every sequence of completed calls, every next call", "why_tests_cant": "The shared directory is the normal use, and each call skips what earlier ones left; all sequences of calls cannot be listed.", "anchors": ["include/sr-index/construct.h: construct", "include/sr-index/construct_sdsl.h", "include/sr-index/r_index.h: constructItems", "include/sr-index/sr_index.h: constructItems", "include/sr-index/r_csa.h: constructItems", "include/sr-index/sr_csa.h: constructItems", "include/sr-index/sr_csa_psi.h: constructItems"]}
{"id": "C58", "title": "The cache directory decides, not the data file", "statement": "construct over a directory completed by the same call returns the index of the text that the directory was made from, whichever data file it is given.", "quantifier": "every text, history, call, and every other data file", "why_tests_cant": "Stale directories are not in the tests; the claim ranges over all of them.", "anchors": ["include/sr-index/construct.h: construct", "include/sr-index/construct_sdsl.h: constructIndexBaseItems"]}
{"id": "C59", "title": "Classes with different Psi types can share a cache directory", "statement": "Two CSA classes whose Psi types differ can be constructed one after the other over one cache directory.", "quantifier": "every text and pair of Psi types", "why_tests_cant": "Tests use one Psi type.", "anchors": ["include/sr-index/r_csa.h: constructItems", "include/sr-index/psi.h: constructPsi"]}
{"id": "C60", "title": "Big-BWT route makes every class", "statement": "With Big-BWT as the route of the base items, construct over a cache directory without these items gives an exact index of every class.", "quantifier": "every text that Big-BWT's ingestion can read, every class, every directory without base items", "why_tests_cant": "All texts, and what earlier processes left beside the data.", "anchors": ["include/sr-index/construct_big_bwt.h: constructIndexBaseItems", "include/sr-index/r_csa.h: CSARaw"]}
{"id": "C61", "title": "What a pattern with other bytes is answered", "statement": "For every pattern of bytes, Count returns the rows of the circular matches, in the text followed by its terminator, of the pattern with the terminator in place of each byte that is not in the text; Locate of a non-empty pattern reports those positions, each once.  On patterns over the text these are its occurrences; with an absent byte there is at most one, where the pattern is an end of the text, the absent byte, and a beginning of the text.", "quantifier": "every index class, text, rate and pattern of bytes (for Locate: without a match that is longer than the text)", "why_tests_cant": "All patterns, also those with bytes that are in no test; the toehold is carried circularly over the end of the text.", "anchors": ["include/sr-index/index_base.h", "include/sr-index/r_index.h: get_symbol", "include/sr-index/toehold.h", "include/sr-index/construct_base.h: constructAlphabet"]}
{"id": "C62", "title": "Assembled inclusive-range indexes are exact", "statement": "The sampled r-indexes assembled with buildSharedPtrRIndex over an rle_string BWT (simple phi, phi with trusted marks, phi with trusted areas) report for every non-empty pattern of bytes exactly its occurrences, each once, and Count returns exactly the rows of the pattern.", "quantifier": "every text of bytes 2..254, block size, sampling rate, non-empty byte pattern", "why_tests_cant": "Correctness over all texts, rates and patterns.", "anchors": ["include/sr-index/index_base.h: RIndexBase, buildSharedPtrRIndex", "include/sr-index/phi.h: PhiBackwardForRangeSimple, PhiBackwardForRangeWithValidityOriginal, ComputeAllValuesWithPhiForRange", "include/sr-index/toehold.h", "include/sr-index/tools.h: GetSampleForBWTRun, GetSampleForSAPosition", "benchmark/factory.h", "benchmark/bm_build_ri_items.cpp"]}
{"id": "C63", "title": "The classic assembled r-index is exact", "statement": "The r-index assembled with GetLastValue and ComputeAllValuesWithPhi reports for every non-empty pattern of bytes exactly its occurrences, each once.", "quantifier": "every text of bytes 2..254, block size, non-empty byte pattern", "why_tests_cant": "Correctness over all texts and patterns.", "anchors": ["include/sr-index/index_base.h: RIndexBase::Locate", "include/sr-index/tools.h: GetLastValue", "include/sr-index/phi.h: ComputeAllValuesWithPhi", "benchmark/factory.h"]}
{"id": "C64", "title": "GetLastValue carries the last value of the range", "statement": "GetLastValue, given the suffix-array value at the end of a range and a search step that leaves a non-empty range, returns the value at the end of the new range; the initial value is the one at the end of the whole range.", "quantifier": "every text, search step and range", "why_tests_cant": "All search histories.", "anchors": ["include/sr-index/tools.h: GetLastValue"]}
{"id": "C65", "title": "Packed arrays keep their values", "statement": "Every integer array that construct writes to the cache, and every one that it keeps in memory meanwhile, is created with a number of bits per value in which all values that are written into it fit: what is read back is what was written.", "quantifier": "every text of bytes, class, rate, route, and history of calls over the directory", "why_tests_cant": "The width of an array is computed from the size or the width of another one; a text on which a value needs one bit more is needed to see a wrong one.", "anchors": ["include/sr-index/construct.h", "include/sr-index/construct_sdsl.h: constructBWTRuns", "include/sr-index/sr_index.h", "include/sr-index/sr_csa.h", "include/sr-index/sr_csa_psi.h", "include/sr-index/sampling.h", "include/sr-index/psi.h: constructPsi"]}
{"id": "C66", "title": "Encoded vectors make room for what they hold", "statement": "The first pass over the values of an enc_vector computes the width and the number of its samples and pointers and the number of bits of its deltas; what the second pass writes fits exactly.  The same holds for the width of the ranks kept beside the encoded Psi of a symbol.", "quantifier": "every sequence of values and sampling density; every Psi", "why_tests_cant": "All sequences; a value that does not fit is cut without an error.", "anchors": ["include/sr-index/enc_vector.hpp: enc_vector", "include/sr-index/psi.h: PsiCoreRLE"]}
{"id": "C67", "title": "An object that loads again holds what it loads", "statement": "An object that has loaded an index and loads another one, from a cache directory or from a stream, answers for the second one.", "quantifier": "every class, pair of indexes, source", "why_tests_cant": "Tests load into new objects only; the claim ranges over all pairs of indexes.", "anchors": ["include/sr-index/index_base.h: IndexBaseWithExternalStorage, loadItem", "include/sr-index/sr_index.h: SrIndex::load", "include/sr-index/sr_csa.h: SrCSABase::load"]}
{"id": "C68", "title": "A copy of an index is an index of its own", "statement": "An index object obtained by copying another one (construction or assignment) answers every query as the original did, also after the original has been destroyed or assigned to.", "quantifier": "every class, text, rate, source of the load, and every history of creations, loads, copies, moves, assignments and destructions of objects", "why_tests_cant": "Lifetimes: a reference to freed memory often still reads the old bytes, so a test passes.", "anchors": ["include/sr-index/index_base.h: IndexBaseWithExternalStorage", "include/sr-index/r_index.h", "include/sr-index/sr_index.h", "include/sr-index/r_csa.h", "include/sr-index/sr_csa.h", "include/sr-index/sr_csa_psi.h"]}
{"id": "C69", "title": "std::move hands an index over", "statement": "The target of std::move from an index answers every query as the source did, whatever happens to the source afterwards.", "quantifier": "every class, text, rate, and every history of operations on objects", "why_tests_cant": "Lifetimes: depends on which members each class declares and on what happens to the source later.", "anchors": ["include/sr-index/sr_csa.h: SrCSABase", "include/sr-index/r_csa.h: RCSAWithPsiRun", "include/sr-index/sr_csa_psi.h: SrCSAWithPsiRun", "include/sr-index/index_base.h"]}
{"id": "C70", "title": "Objects do not disturb each other", "statement": "An index object with a storage of its own answers in the same way whatever other objects do; objects over one storage that outlives them stay usable, with their copies and the targets of moves, whatever happens to the other objects.", "quantifier": "every class, text, rate, and every history of operations on the other objects", "why_tests_cant": "All histories of several objects.", "anchors": ["include/sr-index/index_base.h", "benchmark/sr-csa/factory.h", "benchmark/sr-index/factory.h"]}
{"id": "C71", "title": "The benchmark factories hand out exact indexes", "statement": "Whatever types and rates are asked for, in whatever order and how often, while files are added to the cache directory: each call of make for an index whose files are there succeeds, also after calls that failed; the index is of the type and rate asked for, answers exactly after all later calls, and asking again gives the same index.", "quantifier": "every text, pattern, history of make calls, successful or not, and of files added to the directory", "why_tests_cant": "Indexes share one storage; all orders of calls.", "anchors": ["benchmark/sr-csa/factory.h: Factory", "benchmark/sr-index/factory.h: Factory"]}
{"id": "C72", "title": "Copied and moved RLEStrings are values of their own", "statement": "However often the value of an RLEString is copied, assigned or moved on, and whatever is done afterwards to its earlier holders and to other objects, the last holder answers every query as the RLEString that was constructed or loaded.", "quantifier": "every sequence, block size, chain of copies, assignments and moves, and every history of other operations", "why_tests_cant": "Lifetimes: a support that reads freed memory often still finds the old bytes, so a test passes.", "anchors": ["include/sr-index/rle_string.hpp: RLEString, RLEString::BitVector"]}
{"id": "C73", "title": "Copied and moved PsiCoreBVs are values of their own", "statement": "The same for the bit-vector representation of Psi.", "quantifier": "every Psi, chain of copies, assignments and moves, and every history of other operations", "why_tests_cant": "Lifetimes, as above.", "anchors": ["include/sr-index/psi.h: PsiCoreBV"]}
{"id": "C74", "title": "Base-64 patterns are encoded and decoded as RFC 4648 says", "statement": "base64_encode of fewer than 2^32 bytes returns the one text of RFC 4648 for them, in the standard or the URL alphabet, with line feeds after every 64 or 76 characters on demand; base64_decode of a text in any of the alphabets, padded or not, returns the bytes it stands for, and on texts without padding characters accepts nothing else.", "quantifier": "every byte sequence shorter than 2^32 (from there on the encoder does not end), every text", "why_tests_cant": "All byte values, lengths modulo 3 and lengths near 2^32.", "anchors": ["benchmark/base64.h: base64_encode, base64_decode, base64_encode_pem, base64_encode_mime"]}
{"id": "C75", "title": "Every non-empty line of a pattern file is a pattern", "statement": "ReadPatterns returns the non-empty lines of the file in order, as they are with PLAIN and as the bytes they stand for with BASE64; a file written with one line for each pattern is read back.", "quantifier": "every file, every list of patterns", "why_tests_cant": "All files: empty lines, no line feed at the end, bytes above 127.", "anchors": ["benchmark/bm_locate.h: ReadPatterns, toPatternCode"]}
{"id": "C76", "title": "The query programs report exact answers", "statement": "Whatever benchmarks of the locate programs are called, with whatever rates and numbers of rounds, in whatever order, the counters they report are the number of patterns and the exact number of their occurrences, and the printed files hold the exact sorted positions of every pattern; the files of different indexes and rates have different names.  The count programs report the exact numbers and rows.", "quantifier": "every text, pattern file over it, cache directory with the files, sequence of calls of the benchmark library", "why_tests_cant": "All schedules of calls, over indexes that share a storage.", "anchors": ["benchmark/bm_locate.h: BM_MacroLocate, BM_MicroLocate, BM_PrintLocate", "benchmark/bm_locate_set.h: RegisterAllLocateBenchmarks", "benchmark/sr-csa/bm_locate_csa.cpp", "benchmark/sr-index/bm_locate_ri.cpp", "benchmark/sr-csa/bm_count_csa.cpp", "benchmark/sr-index/bm_count_ri.cpp"]}
{"id": "C77", "title": "The micro benchmark measures every pattern once", "statement": "In as many calls of the micro benchmark of an index and a rate as there are patterns, each pattern is measured once.", "quantifier": "every list of patterns and schedule of calls", "why_tests_cant": "All schedules: calls to find the number of rounds come before, and the library can interleave benchmarks at random.", "anchors": ["benchmark/bm_locate.h: BM_MicroLocate, RegisterLocateBenchmarks"]}
{"id": "C78", "title": "A printed report determines the answers", "statement": "From the printed file and the list of patterns one can tell the positions of every pattern: texts with the same file have the same occurrences of all patterns.", "quantifier": "every pattern file and pair of texts", "why_tests_cant": "All patterns, also those that look like a line of the report.", "anchors": ["benchmark/bm_locate.h: BM_PrintLocate"]}
{"id": "C79", "title": "Indexes that a construction program built can be queried", "statement": "After any calls of a construction program of the benchmarks (any registered functions, rates and numbers of rounds, either suffix-array route, over an empty directory or one with a history), and whatever further calls of construct completed since, the query programs report exact answers for every index that was constructed.", "quantifier": "every text, pattern file over it, sequence of calls of both programs, history of the directory", "why_tests_cant": "The two programs only share a directory: all sequences of calls on both sides.", "anchors": ["benchmark/sr-csa/bm_construct_csa.cpp", "benchmark/sr-index/bm_construct_ri.cpp", "benchmark/sr-csa/bm_locate_csa.cpp", "benchmark/sr-index/bm_locate_ri.cpp", "benchmark/sr-csa/bm_count_csa.cpp", "benchmark/sr-index/bm_count_ri.cpp"]}
{"id": "C80", "title": "The construction programs report the right sizes", "statement": "The counters of a construction benchmark are the length of the text with its terminator, the number of runs of its BWT, the rate of subsampling, and the number of samples that the index keeps; those that a class does not have are 0.", "quantifier": "every text, suffix-array route, sequence of calls, history of the directory", "why_tests_cant": "The sizes are read from files of the directory after the call; which files are there depends on the route and on all earlier calls.", "anchors": ["benchmark/sr-csa/bm_construct_csa.cpp: BM_ConstructRCSA, BM_ConstructSrIndex", "benchmark/sr-index/bm_construct_ri.cpp"]}
{"id": "C81", "title": "The memory logs of different constructions are kept apart", "statement": "After the construction program ends, the log files of each function and rate hold what the last call of this function with this rate wrote.", "quantifier": "every sequence of calls", "why_tests_cant": "All sequences of calls and rates.", "anchors": ["benchmark/sr-csa/bm_construct_csa.cpp", "benchmark/sr-index/bm_construct_ri.cpp"]}
{"id": "C82", "title": "Serialized parts are read back", "statement": "A sparse bit vector, run-length string or Psi object that is written to a stream and loaded, into a new object or a used one, with anything after it in the stream, answers every query as the one that was written, and load takes from the stream exactly what serialize put there.", "quantifier": "every content, target object and rest of the stream", "why_tests_cant": "All contents and all targets: empty parts are written in another format, and load reuses the members of the target.", "anchors": ["include/sr-index/sparse_sd_vector.hpp: serialize, load", "include/sr-index/huff_string.hpp: serialize, load", "include/sr-index/rle_string.hpp: rle_string::serialize, load, RLEString::serialize, load", "include/sr-index/psi.h: PsiCoreBV::serialize, load, PsiCoreRLE::serialize, load", "include/sr-index/enc_vector.hpp: serialize, load"]}
{"id": "C83", "title": "serialize returns the number of bytes it writes", "statement": "serialize of every part and every index class returns the number of bytes that it has written, so that the size in the reports of the benchmarks is that of the index in a file.", "quantifier": "every part, class, state of an object, and size of the structures of SDSL", "why_tests_cant": "All states: parts that are missing, shared or empty.", "anchors": ["include/sr-index/*: serialize", "benchmark/sr-csa/factory.h: make", "benchmark/sr-index/factory.h: make"]}
{"id": "C84", "title": "bm_build_ri_items writes what factory.h reads", "statement": "A run of the construction program with --rebuild over any directory, or over an empty one, with any numbers of rounds and calls, ends and leaves all the files: the text with 2 for the byte 0, its suffix array and BWT, the rows of the run heads and tails with the positions before their suffixes, the table of symbol counts, the orders of heads and tails in the text with the links between them, and for every rate samples that cover every tail within the rate, the heads that follow them with their order, marks and trusted areas.  The counters of each call are the length, the number of runs, the rate and the numbers of samples and of valid ones; the files do not depend on the calls nor on what was there before.", "quantifier": "every non-empty data without the bytes 1 and 255, suffix sorter, directory before, numbers of rounds and calls", "why_tests_cant": "All texts and schedules of calls; each function reads the files of others and may run any number of times.", "anchors": ["benchmark/bm_build_ri_items.cpp: main, BM_BWT, BM_BWTRunLength, BM_SortBWTTailsTextPos, BM_SortBWTHeadsTextPos, BM_BuildBWTTailsSampling, BM_BuildBWTHeadsSampling"]}
{"id": "C85", "title": "bm_locate reports exact answers", "statement": "After a completed construction every call of the query program, for any entry, any rounds and any order, reports the size of the text, the number of patterns and the exact number of their occurrences; the printed file of an index holds the exact sorted positions of every pattern.", "quantifier": "every data as before, directory left by any history of completed and stopped runs, pattern file, list of calls", "why_tests_cant": "All texts, patterns and histories.", "anchors": ["benchmark/bm_locate.cpp: main, BM_QueryLocate, BM_PrintQueryLocate", "benchmark/factory.h: Factory"]}
{"id": "C86", "title": "A stopped bm_build_ri_items can be run again", "statement": "Running the construction program again without --rebuild after any number of stopped runs adds what is missing and leaves the files of a run from scratch; over a complete directory it calls nothing and changes nothing.", "quantifier": "every data as before, history of completed and stopped runs, crash point", "why_tests_cant": "All crash points.", "anchors": ["benchmark/bm_build_ri_items.cpp: main"]}
{"id": "C87", "title": "bm_locate reports the sizes of the indexes", "statement": "The size reported for an index of the factory is the sum of the sizes of the structures that its queries use.", "quantifier": "every data as before, history, entry, sizes of the structures", "why_tests_cant": "All texts, and any size function.", "anchors": ["benchmark/factory.h: Factory, sizeIndex", "benchmark/bm_locate.cpp: BM_QueryLocate"]}
{"id": "C88", "title": "Text sizes that the int counters of construction and queries allow", "statement": "With an int of INT_MAX as its largest value, construction of every class, rate, route and history of the directory ends without overflow, leaves the directory of a machine with unlimited counters and gives an exact index: through SDSL for texts of at most INT_MAX symbols with the terminator and fewer than INT_MAX BWT runs, with Big-BWT for texts of any length (below 2^40) with fewer than INT_MAX runs.", "quantifier": "every INT_MAX, text, world, class, rate, route, history of the directory, pattern", "why_tests_cant": "The bound is a text of 2 GiB; no test suite builds one, and the failing loop is reached by only some of the routes.", "anchors": ["include/sr-index/bwt.h: computeBWT", "include/sr-index/construct_sdsl.h: constructBWTRuns", "include/sr-index/sr_index.h: computeSampleToMarkLinksForPhiBackward", "include/sr-index/sr_csa.h: constructSplitRangeInBWTRuns, computeSampleToMarkLinksForPhiForward", "include/sr-index/sr_csa_psi.h: computeSampleToMarkLinksForPhiForwardWithPsiRuns"]}
{"id": "C89", "title": "Constructions at the same time over one cache directory", "statement": "Several processes construct indexes of one text over one cache directory at the same time, of any classes and rates, each starting, taking turns and being killed at any time: no construction fails because of the others, a file that is complete stays as it is, and every construction that ends gives an exact index.", "quantifier": "every text, number of processes, classes, rates, template arguments with one density, routes, schedule and kill point", "why_tests_cant": "All interleavings of any number of processes.", "anchors": ["include/sr-index/construct.h: construct, constructPsi", "include/sr-index/construct_sdsl.h: constructIndexBaseItems", "include/sr-index/sr_csa_psi.h: constructItems", "include/sr-index/io.h: store_to_cache"]}
{"id": "C90", "title": "The conversion tool writes the vector of its key", "statement": "tool/int_vector_to_vector with the key of an integer vector of the cache directory writes its values as 64-bit little-endian words under the name of the key, so that the vector can be read back from the output; a key that is not in the directory is reported, and different vectors get different outputs.", "quantifier": "every directory, key, rate, vector and use of --hash_type", "why_tests_cant": "All vectors and directories.", "anchors": ["tool/int_vector_to_vector.cpp: main"]}
{"id": "C91", "title": "Locate does work in proportion to its answer", "statement": "The calls that a Locate makes are bounded by the length m of the pattern, the subsampling rate s (at least 1) and the number occ of reported positions alone, whatever the text and its repetitions: at most m steps of the search, occ computations of phi, s * occ moves by LF or Psi, (s + 1) * occ look-ups of samples and (s + 1) * occ runs in the cuts of ranges.  The indexes that keep every sample need one look-up and one phi per further position.", "quantifier": "every text, rate, class, pattern over the text", "why_tests_cant": "All texts: the depth of the navigation and the number of runs in a range depend on the whole text.", "anchors": ["include/sr-index/phi.h: PhiBackwardForRange, PhiBackwardForRangeWithValidity, PhiForwardForRange, PhiForwardForRangeWithValidity", "include/sr-index/tools.h: ComputeSAValue", "include/sr-index/index_base.h: Locate", "include/sr-index/sr_index.h: constructPhiForRange", "include/sr-index/sr_csa.h: constructIndex", "include/sr-index/sr_csa_psi.h: constructIndex"]}
{"id": "C92", "title": "Locate is exact with 64-bit numbers", "statement": "With the sums, differences and products of a query computed modulo 2^64, Locate of every class gives the answer of unlimited numbers for every pattern, hence the exact occurrences, as long as twice the length of the text with its terminator plus the rate stays below 2^64 (and, over Psi, the rate is at most the length of the text plus 2).", "quantifier": "every text, suffix array, class, rate and pattern within the bound", "why_tests_cant": "No test has a text near 2^63 symbols; a wrap inside a difference, as in the distance to the next mark, happens on every text.", "anchors": ["include/sr-index/phi.h: PhiBackward, PhiForward, PhiBackwardForRange, PhiForwardForRange, PhiBackwardForRangeWithValidity, PhiForwardForRangeWithValidity", "include/sr-index/toehold.h: ComputeToehold", "include/sr-index/tools.h: ComputeSAValue", "include/sr-index/sequence_ops.h: CircularPredecessor"]}
{"id": "C93", "title": "A load that failed can be tried again", "statement": "load from a cache directory throws exactly if a file that it needs is missing, and then the object has no index unless it had one.  Whatever loads failed before because files were missing, a load from the complete directory returns, the index answers exactly, and later loads do not change it.", "quantifier": "every class, text, rate, storage, sequence of directories with some of the files", "why_tests_cant": "All sequences of failed loads: what one of them has read stays in the object and is not read again.", "anchors": ["include/sr-index/index_base.h: IndexBaseWithExternalStorage::loadItem, load", "include/sr-index/r_index.h: loadInner", "include/sr-index/r_csa.h: loadInner"]}
{"id": "C94", "title": "sizeSequence tells the length of the text", "statement": "sizeSequence is 0 for an object without an index and the number of bytes of the text with its terminator after a load that returned, also after loads that failed.", "quantifier": "every class, text, rate, sequence of loads", "why_tests_cant": "All sequences of loads: the size is set in the middle of a load.", "anchors": ["include/sr-index/index_base.h: sizeSequence", "include/sr-index/r_index.h: constructLF", "include/sr-index/r_csa.h: constructLF"]}
{"id": "C95", "title": "Texts can share an output directory", "statement": "Constructions of indexes of several texts with one output directory, in any order, of any classes and rates, some of them stopped, do not disturb each other: each construction succeeds, its index is exact on its own text, and the files of the others stay as they are, as long as the names of the data files are different.", "quantifier": "every set of texts and names of data files, every sequence of completed and stopped constructions, every next construction", "why_tests_cant": "All names and sequences: the name of a file is made of the key, a hash and the name of the data file, so that two different data files can ask for one file.", "anchors": ["include/sr-index/config.h: Config, createDefaultKeys", "include/sr-index/construct_base.h: KEY_BWT_RUN_FIRST, KEY_BWT_RUN_FIRST_IDX", "include/sr-index/construct.h: construct"]}
{"id": "C96", "title": "Construction through Big-BWT when the program cannot run", "statement": "If Big-BWT runs on the data file, or its files are there from an earlier call, a call of construct returns an exact index.  If it cannot run, because the program is missing or the path of the data file has a blank, the call throws, and the directory can still be used: a construction through the SDSL route succeeds afterwards.", "quantifier": "every text, path, name of the program, class, rate, route and history of the directory", "why_tests_cant": "All paths and directories: what the call leaves behind is read by later calls.", "anchors": ["include/sr-index/construct_big_bwt.h: constructBWT, constructBWTRuns, constructIndexBaseItems", "include/sr-index/construct.h: construct"]}
{"id": "C97", "title": "Removed files of a cache directory are built again", "statement": "Files removed from the cache directory (to save space, by hand) are built again when they are needed: after any removal construct of every class gives the exact index, and files that are built again have the content they had.", "quantifier": "every text, class, rate, route, history of calls and stops, and set of removed files", "why_tests_cant": "Tests start from an empty directory or a complete one; the sets of removed files are too many to try.", "anchors": ["include/sr-index/construct.h: constructItems guards", "include/sr-index/construct_sdsl.h: constructIndexBaseItems", "include/sr-index/r_index.h: constructItems", "include/sr-index/sr_index.h: constructItems", "include/sr-index/sr_csa.h: constructItems", "include/sr-index/sr_csa_psi.h: constructItems"]}
