# A Rocq model of duscob/sr-index

Properties: `properties.jsonl` (C01…).  Status of each: `MANIFEST.json`.
Coq sources: `rocq/theories/`.

## Layout

| layer | files | content |
|---|---|---|
| spec | `Spec.v` | text, occurrence, suffix array, BWT, maximal runs: what the English properties talk about. No model function is used here. |
| library | `Lists.v`, `RankSelect.v`, … | list/counting/rank/select lemmas, meaning of the SDSL bit vectors and wavelet trees |
| model | `M*.v` | the code, function by function, with file and line citations; no proofs |
| theory | `FM.v`, `Phi*.v`, `*Proofs.v` | proofs |
| results | `Properties*.v` | one theorem per property, closed by `exact`, an `Example` that meets the hypotheses on a concrete non-trivial input, `Print Assumptions` |

## Modelling conventions

* `std::size_t` values are `nat`.  Where unsigned subtraction can underflow the
  model says what happens (wrap, `sub64`, or an explicit failure).  Machine
  overflow at 2^64 of sizes is not modelled; `int` loop counters are
  unbounded in the models of the functions, and `MCounter.v` has the loops again with the limit INT_MAX (C88).
* Array reads, bit-vector `select`, and similar partial operations return
  `option`; `None` is an out-of-range access (undefined behaviour in C++).  A
  theorem that concludes `= Some …` therefore also shows the absence of such
  accesses.
* Loops are structural recursions or recursions on fuel which return `None` when the fuel
  runs out, so `Some` also means termination.
* C++ lambdas/template functors become higher-order functions with the same arguments.
* SDSL components (suffix sorting, `sd_vector`/`bit_vector` rank and select,
  wavelet-tree access/rank/select/inverse_select, int_vector storage, std::sort) are
  represented by their documented specification: the suffix array is a
  universally quantified argument constrained by `is_suffix_array`; bit vectors are
  `list bool` with counting rank and positional select; wavelet trees are lists.
  Contents of `int_vector` are `list nat`; that no width cuts a value is C65 (`MWidth.v`).

## Trusted base

* Coq 8.16.1 kernel (and `vm_compute` for closed examples).
* `Print Assumptions` after each theorem in `Properties*.v` answers "Closed under the global
  context" for every theorem: none rests on an axiom.  Seven constants of the standard library's
  `Coq.ssr.ssrunder` (module-type fields of `UNDER_REL`) are in the environment because `lia`'s and
  `ssreflect`'s files load them; no theorem uses them.
* The correspondence between `/repo` and the `M*.v` files, checked by reading.
* The meaning of SDSL operations stated above.

## Plan per property

* C01–C05, C15, C16, C43, C44 (backward indexes): FM-index theory (LF is monotone per
  symbol, hence `LF(i) = C[bwt i] + rank`), loop invariant of the backward search
  (range is exact; toehold data determine SA at the range end), phi theory
  (`phi(k+1) = phi(k)+1` unless the row of `k` is a run head), sampling theory.
* C06–C14 (forward indexes): mirror image with run tails as marks, heads as samples.
* C17, C18: the faithful model is expected to violate them (absent bytes map to
  symbol 0; empty pattern dereferences the initial toehold); a refutation is proved
  together with what does hold: C17 and C61 characterise the answers for every pattern of
  bytes, by the same invariants stated for circular matches (`FM.is_range` is circular; on
  patterns over the text a circular match is an occurrence).  C18 on the subsampled CSA
  classes: the range engines are total from any value below the length (`FwdTotal.v`).
* C19–C24: `RLEString` constructor loop invariant gives the run decomposition;
  every operation is proved equal to the plain-list operation.
* C25: same for `rle_string`.
* C26–C33: psi as a counting sort; PsiCoreRLE over the encoded vector, Elias-delta round trip.
* C34, C35: induction on the scan with the last sampled value as invariant.
* C36–C40: direct from the theory above.
* C41, C42: small direct models.
* C45: the loops run on a fuel bounded by the rate; the theorems show that it suffices.
* C46: item-stream model of serialize/load for every class (`MStore.v`): tokens, typed readers, the
  storage as an association list; each load member is reduced to a list of requests (key, type, file),
  tables of requests are compared by a boolean check that `vm_compute` runs once for each class, and the
  round trip is proved over the tables.  Refuted for the psi-run subsampled classes (rate not written)
  and for two classes with plain bit vectors.
* C47, C48, C57, C58: `MCache.v`, every construction step as a guarded list of writes to a directory (a
  list of writes, latest first), so that a stopped process leaves a suffix of its writes and perhaps a torn
  file.  `CacheIdeal.v` says which content each file must have as a function of the text, `CacheStep.v`
  proves for each step that it keeps "every file has its ideal content and every guard file has its
  bundle" and that it ends with its guards present, `CacheEnd.v` lifts this to histories and composes it
  with the loads of C46 and the exactness of each class.
* C47, the stop that nothing repairs: `CacheStuck.v`, two invariants of all writes for a guard file and a file that is only
  written behind it (the first comes before the second; the first alone stays alone).
* C59: an invariant of all steps (no step but that of Psi writes a file of Psi, and that step does nothing while the
  uncompressed Psi is there) gives the failure for every text and class; the classes without Psi from C47.
* C60: witnesses on the same model; the positive part from C57.  No step of the Big-BWT route or of a class writes the
  suffix array, so the raw CSA fails for every text; after a call through SDSL its files are complete.
* C49, C50: model of construct_big_bwt.h over the bytes of the files (`MBwt.v`, `SpecBwt.v`,
  `BwtProof.v`).  What Big-BWT writes is a specification (`big_bwt_output`), not modelled code.
* C51: models of bwt.h and lf.h; from the FM-index theory.
* C56: computeBWT as a list of report events; loop invariant over the rows seen.
* C52: same storage model as C46, over all storages that (interrupted) loads can leave.
* C54, C55: `MOldRle.v`, sparse_sd_vector with its supports' address as an explicit field.
* C62–C64: `MClosed.v`, the toolkit on inclusive ranges that benchmark/factory.h assembles; the
  invariants of C03–C05 restated for inclusive ranges over the old `rle_string` (C25).  C63 is expected
  to fail: Locate drops the value returned by the functor.
* C65: `MWidth.v`, for each array where its width comes from; bounds on the ideal contents of
  `CacheIdeal.v`, then lifted over histories with the invariant of C47.
* C66: the two passes of enc_vector compared by induction on the sequence.
* C67: the storage model of C46 and `load_again`; expected to fail, so also witnesses for every class.
* C68, C69, C70: `MLife.v`, a memory of storages and objects with the implicit copy and move members; an
  invariant of memories kept by every operation, then induction on histories.  C68 and half of C69 are expected to fail.
* C71: `MFactory.v` over the storage model (also what a load that throws leaves in the shared storage);
  induction on the history: each entry of the storage is what some file has for a request of one of the classes.
* C72, C73: `MParts.v`, a memory of bit vectors and of objects whose supports hold addresses of vectors; an invariant
  of memories (vectors belong to one object each, addresses are not used twice) and induction on histories.  C73 is
  expected to fail for copies.
* C74–C78: `MBench.v`, base64.h, ReadPatterns and the query programs over the factories of C71; the calls that the
  benchmark library makes are an arbitrary list.  Base 64 is specified on bits; an invariant of the program (its factory has
  a history, its counters count the calls) and induction on the calls.  C77 is expected to fail if two rates take
  turns, C78 for plain patterns.
* C79, C80, C81: `MBuild.v`, the construction programs over the directory of C57; the calls are an arbitrary list again.
  The invariant of directories of C57 and induction on the calls; then C76 for the query programs.  C80 and C81 are expected
  to fail where a counter or a log belongs to a file of another call.
* C82, C83: `MStream.v`, serialize with the bytes that it returns, and load into a given object.  Structural; C82 is expected
  to fail where the length of an object and its bits differ (C54), or where load leaves members as they are.
* C84–C87: `MItems.v`, the functions of bm_build_ri_items.cpp over a directory of files, with the order of their stores, and
  the factory and program of bm_locate.cpp.  For each function, that over right files it stores right files; induction on the
  calls and on histories of runs; then C62 to C64 for the indexes.  C86 is expected to fail where one file stands for a group
  of files, C87 where the size of a support is not computed.
* C88: `MCounter.v`, the loops with an `int` counter, and construction and Locate with them, INT_MAX being an argument.  Each
  loop is the one without limit up to INT_MAX and undefined above; on the directories of C47 every step then agrees with the
  one of `MCache.v`.  Expected to fail above INT_MAX symbols.
* C89: `MSched.v`, calls of construct that take turns on one directory, each with its own file_map.  By induction on schedules:
  the directory is as after a history, and for every call the files that its next steps read are complete and stay so.
  Expected to fail for turns that end within a step, and between the two sub-sampling steps of the Psi-run classes.
* C90: `MTool.v`, the conversion tool over a directory of `MCache.v`.  Bytes of words by induction on the vector; with C47 for the
  files of a construction.  Expected to fail for missing files, and for keys with and without type hash.
* C91: `MTrace.v`, the query functions of `MPhi.v`, `MSrIndex.v` and `MSrCsa.v` again, with a list of the calls they make
  (search steps, samples, moves, phi, cuts, reports).  Without the calls they are the functions of the model, for every index
  (`TraceProof.v`).  The bounds (`SpecTrace.v`) are by induction on the nested loops: each run that is cut is not empty and gives
  at least one report, and the nesting is at most the rate.
* C92: `MWord.v`, the query functions again with sums, differences and products modulo 2^64.  The two versions are compared
  function by function (`WordProof.v`): equal results, below n where they are positions, by induction on the loops, for every
  index whose samples are below n.  Construction gives such an index (`WordGlue.v`).  Expected to fail for texts of 2^63 symbols.
* C93, C94: `MFail.v`, load from a directory with the exception for a missing file as a result, and n_.  The invariant
  between two loads: the storage is what the requests made so far over the complete directory leave, and making all requests
  from there comes to the same end.  A retry with another text and the size after a failed load are refuted by computation.
* C95: `MNames.v`, one directory for all texts, with the file names as strings.  What a construction of one text finds is
  a disk of `MCache.v`; with names that are apart it is a history of that text alone, by splitting the names at their
  underscores (what is cut off one name must be words of a key or a hash), so that C47 applies.  Other names are refuted by computation.
* C96: `MShell.v`, the command line that starts Big-BWT and its words, and construction when the program writes nothing.
  When it runs, the call is the one of C47; when it does not, the empty BWT that it leaves is followed into the later calls.
  Quotes and other characters special to the command interpreter are not modelled: the theorems about calls that succeed
  speak of paths and program names without blanks, taken to have none of these characters.
* C97: `SpecSweep.v`, histories of `MCache.v` with removals; the invariant of C47 is kept if no guard file loses a file it
  stands for.  Expected to fail for other removals: with the invariants of `CacheStuck.v`, for every text.

## Parts of the code modelled / not modelled

| code | model |
|---|---|
| alphabet.h, construct_base.h, construct_sdsl.h, construct.h | `MConstruct.v`, `MCsa.v`, `MSrIndex.v`, `MSrCsa.v` (contents of every stored item; SDSL's suffix sorting is a hypothesis) |
| rle_string.hpp: RLEString | `MRle.v` |
| rle_string.hpp: rle_string, huff_string.hpp, sparse_sd_vector.hpp | `MOldRle.v` |
| coder.h, enc_vector.hpp, psi.h | `MPsi.v` |
| sequence_ops.h, phi.h, tools.h (validators), toehold.h, index_base.h (queries) | `MPhi.v` |
| sampling.h | `MSrIndex.v` |
| r_index.h, sr_index.h, r_csa.h, sr_csa.h, sr_csa_psi.h | `MRIndex.v`, `MSrIndex.v`, `MCsa.v`, `MSrCsa.v` |
| bwt.h, lf.h, construct_big_bwt.h | `MBwt.v` |
| index_base.h (storage), load and serialize of every class | `MStore.v` |
| construct of every class over a cache directory: guards, reads, order of writes, load | `MCache.v` |
| index_base.h: RIndexBase, inclusive-range functors of tools.h, toehold.h and phi.h, the assemblies of benchmark/factory.h and the items of bm_build_ri_items.cpp | `MClosed.v` |
| widths of the packed arrays of construct.h, construct_sdsl.h, sampling.h, sr_index.h, sr_csa.h, sr_csa_psi.h, psi.h, enc_vector.hpp | `MWidth.v` (the contents are those of `MCache.v`; the width of what Big-BWT and the suffix sorting write is not modelled) |
| benchmark/sr-csa/factory.h, benchmark/sr-index/factory.h | `MFactory.v` |
| life of index objects: implicit copy and move members, destructors, storage by reference | `MLife.v` |
| life of RLEString and PsiCoreBV objects: copy, move, load, addresses held by supports | `MParts.v` |
| benchmark/base64.h, benchmark/bm_locate.h, bm_locate_set.h, sr-csa/bm_locate_csa.cpp, sr-index/bm_locate_ri.cpp, sr-csa/bm_count_csa.cpp, sr-index/bm_count_ri.cpp | `MBench.v` |
| sr-csa/bm_construct_csa.cpp, sr-index/bm_construct_ri.cpp | `MBuild.v` (the contents of the memory logs are left out) |
| serialize and load of sparse_sd_vector, huff_string, rle_string and PsiCoreBV; the bytes that every serialize returns | `MStream.v` (the sizes of the structures of SDSL are an argument) |
| the loops with an `int` counter over texts, runs and sub-samples: bwt.h:42, construct_sdsl.h:87, sr_index.h:636, sr_csa.h:531 and 1013, sr_csa_psi.h:607 | `MCounter.v` (INT_MAX is an argument) |
| several processes at work on one cache directory | `MSched.v` (a turn is one or more whole steps of `MCache.v`) |
| tool/int_vector_to_vector.cpp | `MTool.v` |
| the calls that Locate makes: phi.h, tools.h, toehold.h, index_base.h and the classes | `MTrace.v` |
| 64-bit arithmetic of Locate: phi.h, tools.h, toehold.h, sequence_ops.h and the classes | `MWord.v` |
| loads that throw for a missing file, sizeSequence: index_base.h, r_index.h, r_csa.h | `MFail.v` |
| names of the files of several texts: config.h (Config) | `MNames.v` (the hash of a type is a parameter) |
| the run of Big-BWT by the command interpreter: construct_big_bwt.h | `MShell.v` (words by blanks; no quoting) |
| benchmark/bm_build_ri_items.cpp, benchmark/factory.h, benchmark/bm_locate.cpp | `MItems.v` (what SDSL's sorter returns and the sizes of its structures are arguments; a store is whole or absent) |

Not modelled: io.h buffers beyond their contents, config.h paths, command lines, what benchmark/ measures (times and
memory), tool/plot_marks.py, memory and time use (other than the numbers of calls in `MTrace.v`), exceptions of the file system (other than those of a missing file in `MFail.v`), threads (the code has none, and no query
writes to its index).  In `MCache.v` a file is whole, torn or absent; writes
reach the directory in program order, and reading a torn file is undefined.  Loop counters of type `int`
have their limit in `MCounter.v` only; those that run over the symbols of the alphabet (psi.h:228, 279, 326, 700) have none.

sparse_hyb_vector.hpp is the code of sparse_sd_vector.hpp over SDSL's hyb_vector, with members that are not const.  It is left
out: the queries of rle_string (rle_string_hyb) are const, so that they cannot call them, and nothing uses it.  Sums of two positions are unlimited except in `MWord.v`; there those of LF, Psi and the splits, which are rows, stay unlimited.  Opening the byte BWT file as
`sdsl::int_vector_buffer<>` to get its size (r_csa.h:657, sr_csa.h:1023, sr_csa_psi.h:652) relies on SDSL's file header and is
modelled as the length of the BWT.  The overloads that only tests call (phi.h:190-205, psi.h:383-393) are in `MLinks.v`; the
unused function of toehold.h:107 is left out.
