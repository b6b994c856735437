{
 "claims": [
  {
   "property": "C01",
   "status": "proved",
   "theorems": [
    "C01_rindex_count",
    "C01_srindex_count",
    "C01_rcsa_bwt_count",
    "C01_rcsa_psi_count",
    "C01_csa_raw_count",
    "C01_srcsa_count"
   ],
   "note": "Stated for RIndex, proved for every index class.  Patterns over the bytes of the text; other patterns are C17 and C18."
  },
  {
   "property": "C02",
   "status": "proved",
   "theorems": [
    "C02_rindex_construct_total",
    "C02_rindex_locate"
   ],
   "note": "Patterns over the bytes of the text; other patterns are C17 and C18."
  },
  {
   "property": "C03",
   "status": "proved",
   "theorems": [
    "C03_srindex_construct_total",
    "C03_srindex_locate"
   ],
   "note": "Every rate, including 0."
  },
  {
   "property": "C04",
   "status": "proved",
   "theorems": [
    "C04_srindex_valid_construct_total",
    "C04_srindex_vm_locate"
   ],
   "note": "Every rate."
  },
  {
   "property": "C05",
   "status": "proved",
   "theorems": [
    "C04_srindex_valid_construct_total",
    "C05_srindex_va_locate"
   ],
   "note": "Every rate."
  },
  {
   "property": "C06",
   "status": "proved",
   "theorems": [
    "C06_rcsa_bwt_construct_total",
    "C06_rcsa_bwt_locate",
    "C01_rcsa_bwt_count"
   ],
   "note": "Even encoding densities; texts shorter than 2^64."
  },
  {
   "property": "C07",
   "status": "proved",
   "theorems": [
    "C07_rcsa_psi_construct_total",
    "C07_rcsa_psi_locate",
    "C01_rcsa_psi_count"
   ],
   "note": "Even encoding densities; texts shorter than 2^64."
  },
  {
   "property": "C08",
   "status": "proved",
   "theorems": [
    "C08_csa_raw_construct_total",
    "C08_csa_raw_locate",
    "C01_csa_raw_count"
   ],
   "note": "Even encoding densities; texts shorter than 2^64."
  },
  {
   "property": "C09",
   "status": "proved",
   "theorems": [
    "C09_srcsa_construct_total",
    "C09_srcsa_locate"
   ],
   "note": "Every subsampling rate, even encoding densities, texts shorter than 2^64."
  },
  {
   "property": "C10",
   "status": "proved",
   "theorems": [
    "C10_slim_construct_total",
    "C10_slim_locate"
   ],
   "note": "Every subsampling rate, even encoding densities, texts shorter than 2^64."
  },
  {
   "property": "C11",
   "status": "proved",
   "theorems": [
    "C11_srcsa_vm_construct_total",
    "C11_srcsa_vm_locate",
    "C11_slim_vm_construct_total",
    "C11_slim_vm_locate"
   ],
   "note": "Every subsampling rate, even encoding densities, texts shorter than 2^64."
  },
  {
   "property": "C12",
   "status": "proved",
   "theorems": [
    "C12_srcsa_va_construct_total",
    "C12_srcsa_va_locate",
    "C12_slim_va_construct_total",
    "C12_slim_va_locate"
   ],
   "note": "Every subsampling rate, even encoding densities, texts shorter than 2^64."
  },
  {
   "property": "C13",
   "status": "proved",
   "theorems": [
    "C13_psi_construct_total",
    "C13_psi_locate"
   ],
   "note": "Every subsampling rate, even encoding densities, texts shorter than 2^64."
  },
  {
   "property": "C14",
   "status": "proved",
   "theorems": [
    "C14_psi_vm_construct_total",
    "C14_psi_vm_locate",
    "C14_psi_va_construct_total",
    "C14_psi_va_locate"
   ],
   "note": "Every subsampling rate, even encoding densities, texts shorter than 2^64."
  },
  {
   "property": "C15",
   "status": "proved",
   "theorems": [
    "C15_rindex",
    "C15_srindex",
    "C15_srindex_vm",
    "C15_srindex_va",
    "C15_rcsa_bwt",
    "C15_rcsa_psi",
    "C15_csa_raw",
    "C15_srcsa",
    "C15_slim",
    "C15_srcsa_vm",
    "C15_slim_vm",
    "C15_srcsa_va",
    "C15_slim_va",
    "C15_psi",
    "C15_psi_vm",
    "C15_psi_va"
   ],
   "note": "All sixteen index classes; patterns over the bytes of the text."
  },
  {
   "property": "C16",
   "status": "proved",
   "theorems": [
    "C16_variants_agree",
    "C16_variants_answer"
   ],
   "note": "Patterns over the bytes of the text."
  },
  {
   "property": "C17",
   "status": "partial",
   "theorems": [
    "C17_rindex_absent_byte_refuted",
    "C17_csa_absent_byte_refuted",
    "C17_srcsa_absent_byte_refuted",
    "C17_rindex_absent_byte_partial",
    "C17_srindex_absent_byte_partial",
    "C17_srindex_vm_absent_byte_partial",
    "C17_srindex_va_absent_byte_partial",
    "C17_rcsa_bwt_absent_byte_partial",
    "C17_rcsa_psi_absent_byte_partial",
    "C17_csa_raw_absent_byte_partial",
    "C17_srcsa_absent_byte_partial",
    "C17_slim_absent_byte_partial",
    "C17_srcsa_vm_absent_byte_partial",
    "C17_slim_vm_absent_byte_partial",
    "C17_srcsa_va_absent_byte_partial",
    "C17_slim_va_absent_byte_partial",
    "C17_psi_absent_byte_partial",
    "C17_psi_vm_absent_byte_partial",
    "C17_psi_va_absent_byte_partial"
   ],
   "note": "Refuted as stated: a text and a pattern with an absent byte for which Count returns a non-empty range and Locate reports a position outside of the text.  The _partial theorems say what holds for every such pattern no longer than the text and its terminator: at most one position is reported, and one exactly if the pattern is an end of the text, an absent byte and a beginning of the text (so the property holds for all the other patterns).  Longer patterns: C61."
  },
  {
   "property": "C18",
   "status": "partial",
   "theorems": [
    "C18_rindex_empty_pattern_refuted",
    "C18_srindex_empty_pattern_refuted",
    "C18_rcsa_bwt_empty_pattern",
    "C18_rcsa_psi_empty_pattern",
    "C18_csa_raw_empty_pattern",
    "C18_srcsa_empty_count",
    "C18_srcsa_empty_locate_defined",
    "C18_srcsa_empty_locate_refuted"
   ],
   "note": "Holds on RCSA (both), on CSARaw and, as stated, on the nine subsampled CSA classes: Count is proved and Locate is defined on every text, with one text position per row.  On RIndex and the SrIndex classes the Count part is proved and the Locate part refuted: on every text Locate(\"\") reads out of range.  On the subsampled CSA classes the list need not be that of all positions: a text is given for which a position is reported twice and another is missing."
  },
  {
   "property": "C19",
   "status": "proved",
   "theorems": [
    "C19_construct_total",
    "C19_size",
    "C19_access"
   ],
   "note": ""
  },
  {
   "property": "C20",
   "status": "proved",
   "theorems": [
    "C20_rank"
   ],
   "note": "Symbols above the largest symbol are outside the operation's domain, see C53."
  },
  {
   "property": "C21",
   "status": "proved",
   "theorems": [
    "C21_select",
    "C21_select_rank"
   ],
   "note": ""
  },
  {
   "property": "C22",
   "status": "proved",
   "theorems": [
    "C22_rank_report_symbol",
    "C22_rank_report_symbol_end",
    "C22_rank_report"
   ],
   "note": ""
  },
  {
   "property": "C23",
   "status": "proved",
   "theorems": [
    "C23_split_in_runs"
   ],
   "note": "Non-empty intervals."
  },
  {
   "property": "C24",
   "status": "proved",
   "theorems": [
    "C24_select_on_runs"
   ],
   "note": ""
  },
  {
   "property": "C25",
   "status": "proved",
   "theorems": [
    "C25_construct_total",
    "C25_zero_byte_rejected",
    "C25_size",
    "C25_number_of_runs",
    "C25_access",
    "C25_to_string",
    "C25_rank",
    "C25_select",
    "C25_run_of_position",
    "C25_run_range",
    "C25_break_in_runs",
    "C25_break_range",
    "C25_closest_run_break"
   ],
   "note": "Every assert of the class is a guard of the model, so the theorems also say that no assert fires."
  },
  {
   "property": "C26",
   "status": "proved",
   "theorems": [
    "C26_psi_of_text",
    "C26_psi_grouped"
   ],
   "note": ""
  },
  {
   "property": "C27",
   "status": "proved",
   "theorems": [
    "C27_construct_total",
    "C27_select",
    "C27_rank",
    "C27_exist",
    "C27_exist_end",
    "C27_size",
    "C27_first_symbol"
   ],
   "note": "Even sample densities (the code halves the density); sequences shorter than 2^64."
  },
  {
   "property": "C28",
   "status": "proved",
   "theorems": [
    "C28_rank_report",
    "C28_select_report"
   ],
   "note": "For v = n the code searches n - 1; stated so."
  },
  {
   "property": "C29",
   "status": "proved",
   "theorems": [
    "C29_rank_run",
    "C29_rank_char_run",
    "C29_count_runs",
    "C29_rank_soft_run",
    "C29_split_sorted",
    "C29_split",
    "C29_traverse"
   ],
   "note": ""
  },
  {
   "property": "C30",
   "status": "proved",
   "theorems": [
    "C30_forward_runs",
    "C30_forward_runs_list"
   ],
   "note": "Non-empty rank intervals."
  },
  {
   "property": "C31",
   "status": "proved",
   "theorems": [
    "C31_construct_total",
    "C31_select",
    "C31_rank",
    "C31_exist"
   ],
   "note": ""
  },
  {
   "property": "C32",
   "status": "proved",
   "theorems": [
    "C32_psi_of_lf",
    "C32_lf_of_psi"
   ],
   "note": ""
  },
  {
   "property": "C33",
   "status": "proved",
   "theorems": [
    "C33_enc_vector",
    "C33_enc_vector_buffer",
    "C33_block",
    "C33_block_buffer"
   ],
   "note": "Non-decreasing sequences of 64-bit values, every positive density.  C33_block: sample and get_inter_sampled_values."
  },
  {
   "property": "C34",
   "status": "proved",
   "theorems": [
    "C34_sampling_cover"
   ],
   "note": ""
  },
  {
   "property": "C35",
   "status": "proved",
   "theorems": [
    "C35_sampling_size",
    "C35_srindex_samples",
    "C35_srcsa_samples"
   ],
   "note": ""
  },
  {
   "property": "C36",
   "status": "proved",
   "theorems": [
    "C36_circular_predecessor",
    "C36_circular_soft_successor"
   ],
   "note": ""
  },
  {
   "property": "C37",
   "status": "proved",
   "theorems": [
    "C37_phi_backward"
   ],
   "note": ""
  },
  {
   "property": "C38",
   "status": "proved",
   "theorems": [
    "C38_phi_forward_bwt",
    "C38_phi_forward_psi"
   ],
   "note": ""
  },
  {
   "property": "C39",
   "status": "proved",
   "theorems": [
    "C39_forward_links_inverse",
    "C39_link_table_bwt",
    "C39_link_table_psi",
    "C39_link_table_rindex",
    "C39_run_links_inverse",
    "C39_all_links"
   ],
   "note": ""
  },
  {
   "property": "C40",
   "status": "proved",
   "theorems": [
    "C40_run_files"
   ],
   "note": "In-memory construction (construct_sdsl.h); the Big-BWT path is C50."
  },
  {
   "property": "C41",
   "status": "proved",
   "theorems": [
    "C41_text_plain",
    "C41_text_terminated",
    "C41_text_inner_zero"
   ],
   "note": ""
  },
  {
   "property": "C42",
   "status": "proved",
   "theorems": [
    "C42_alphabet",
    "C42_alphabet_monotone"
   ],
   "note": ""
  },
  {
   "property": "C43",
   "status": "proved",
   "theorems": [
    "C43_rindex_search",
    "C43_srindex_search",
    "C43_rcsa_bwt_search",
    "C43_rcsa_psi_search",
    "C43_csa_raw_search",
    "C43_srcsa_search"
   ],
   "note": "All index classes."
  },
  {
   "property": "C44",
   "status": "proved",
   "theorems": [
    "C44_rindex_order",
    "C44_srindex_order",
    "C44_rcsa_bwt_order",
    "C44_rcsa_psi_order",
    "C44_csa_raw_order",
    "C44_srcsa_order",
    "C44_slim_order",
    "C44_srcsa_vm_order",
    "C44_slim_vm_order",
    "C44_srcsa_va_order",
    "C44_slim_va_order",
    "C44_psi_order",
    "C44_psi_vm_order",
    "C44_psi_va_order"
   ],
   "note": "All index classes: Locate lists the rows of the range starting from the toehold end."
  },
  {
   "property": "C45",
   "status": "proved",
   "theorems": [
    "C45_toehold_fuel",
    "C45_srindex_toehold_navigation",
    "C45_srindex_range_navigation",
    "C45_srcsa_toehold_navigation",
    "C45_srcsa_range_navigation"
   ],
   "note": "The loops of the models run on a fuel equal to the rate (one step at rate 0 in SrCSASlim and the Psi-run classes), and C03-C05, C09-C14 show that they finish within it."
  },
  {
   "property": "C46",
   "status": "partial",
   "theorems": [
    "C46_round_trip",
    "C46_cache_load",
    "C46_saved_index_exact",
    "C46_psi_run_rate_refuted",
    "C46_plain_positions_refuted"
   ],
   "note": "Proved for the sixteen classes, for a target of any rate or default-constructed, with two exceptions that are refuted: the subsampled classes of sr_csa_psi.h do not write their rate, so the target must have it already; SrCSAValidMark and SrCSAValidArea with plain bit vectors of sampled positions cannot read what they write."
  },
  {
   "property": "C47",
   "status": "partial",
   "theorems": [
    "C47_resume_partial",
    "C47_same_index",
    "C47_same_files",
    "C47_stop_between_steps",
    "C47_never_repaired",
    "C47_resume_refuted",
    "C47_stop_before_submarks_refuted"
   ],
   "note": "Proved for stops that leave no guard file without the files it stands for, in particular for every stop between two construction steps but one, after any history of such stops and of completed calls.  Refuted for each of the sixteen classes at a stop inside a step (all files left are whole, and the next construct still fails), and for the stop in front of the sub-sampled marks of SrCSAWithPsiRun (construct succeeds, and Locate of the index is undefined).  C47_never_repaired: for every text and every call that can end there is a moment between two of its writes after which construct of this class never succeeds in the directory again, whatever calls, completed or stopped, follow."
  },
  {
   "property": "C48",
   "status": "proved",
   "theorems": [
    "C48_rerun",
    "C48_rerun_index"
   ],
   "note": "Over any directory that later completed calls of any classes made of it."
  },
  {
   "property": "C49",
   "status": "partial",
   "theorems": [
    "C49_symbols_read",
    "C49_read_partial",
    "C49_white_space_refuted"
   ],
   "note": "Refuted for every text with a white-space byte: the formatted extraction operator skips it, so the BWT read is too short.  Proved for files without white space, and what is read in general."
  },
  {
   "property": "C50",
   "status": "proved",
   "theorems": [
    "C50_runs",
    "C50_items"
   ],
   "note": "The run files for every text whose positions fit in the 5 bytes of Big-BWT's format; all base items when the text has no white space (see C49)."
  },
  {
   "property": "C51",
   "status": "proved",
   "theorems": [
    "C51_computeLF_range",
    "C51_text_step",
    "C51_basic_lf",
    "C51_table_size_needed"
   ],
   "note": "Ranges that are empty by more than one position (i > j + 1) underflow and are outside the statement; the code passes none."
  },
  {
   "property": "C52",
   "status": "proved",
   "theorems": [
    "C52_load_once",
    "C52_reload_noop",
    "C52_shared_storage",
    "C52_shared_clash_refuted"
   ],
   "note": "The storage may have any history of loads of any classes, also interrupted ones.  Beyond the statement: indexes that share a storage answer as alone, except an RIndex with an RCSAWithBWTRun (refuted)."
  },
  {
   "property": "C53",
   "status": "proved",
   "theorems": [
    "C53_rank_beyond_is_undefined"
   ],
   "note": ""
  },
  {
   "property": "C54",
   "status": "partial",
   "theorems": [
    "C54_sparse_vector",
    "C54_select",
    "C54_predecessor",
    "C54_no_predecessor",
    "C54_gap_at",
    "C54_from_bit_vector",
    "C54_from_bit_vector_refuted"
   ],
   "note": "Proved for the constructor from vector<bool> and for assigned objects; refuted for the constructor from bit_vector, which leaves size() at 0."
  },
  {
   "property": "C55",
   "status": "partial",
   "theorems": [
    "C55_assigned_object_is_independent",
    "C55_copied_object_is_independent_refuted",
    "C55_copied_object_dangles"
   ],
   "note": "Proved for assignment; refuted for copy construction: the implicit copy constructor copies the address held by the supports."
  },
  {
   "property": "C56",
   "status": "proved",
   "theorems": [
    "C56_compute_bwt"
   ],
   "note": "The int loop counter is unbounded in the model."
  },
  {
   "property": "C57",
   "status": "proved",
   "theorems": [
    "C57_shared_directory"
   ],
   "note": "Bound: the CSARaw class needs the SDSL route (C60).  One Psi type (C59)."
  },
  {
   "property": "C58",
   "status": "proved",
   "theorems": [
    "C58_stale_directory"
   ],
   "note": ""
  },
  {
   "property": "C59",
   "status": "partial",
   "theorems": [
    "C59_second_type_fails",
    "C59_without_psi_partial",
    "C59_two_psi_types_refuted"
   ],
   "note": "Refuted for every text and every class with Psi: after a completed construct with one density, construct with another density fails.  The classes without Psi can be constructed with any density.  Reason: the guard of the Psi step tests the file of the untyped key, so the second type's file is never written and its load fails."
  },
  {
   "property": "C60",
   "status": "partial",
   "theorems": [
    "C60_big_bwt_route_partial",
    "C60_raw_after_sdsl",
    "C60_raw_fails",
    "C60_raw_refuted",
    "C60_left_files_refuted"
   ],
   "note": "Proved for all classes but CSARaw and a directory without files of Big-BWT.  CSARaw: refuted (the route does not write the suffix array), for every data file and after any calls through Big-BWT, completed or stopped (C60_raw_fails); proved once a call through SDSL has completed (C60_raw_after_sdsl).  Refuted for every text when Big-BWT's files are already beside the data."
  },
  {
   "property": "C61",
   "status": "proved",
   "theorems": [
    "C61_circular_is_occurrence",
    "C61_circular_is_wrap",
    "C61_rindex_any_pattern",
    "C61_srindex_any_pattern",
    "C61_srindex_vm_any_pattern",
    "C61_srindex_va_any_pattern",
    "C61_rcsa_bwt_any_pattern",
    "C61_rcsa_psi_any_pattern",
    "C61_csa_raw_any_pattern",
    "C61_srcsa_any_pattern",
    "C61_slim_any_pattern",
    "C61_srcsa_vm_any_pattern",
    "C61_slim_vm_any_pattern",
    "C61_srcsa_va_any_pattern",
    "C61_slim_va_any_pattern",
    "C61_psi_any_pattern",
    "C61_psi_vm_any_pattern",
    "C61_psi_va_any_pattern"
   ],
   "note": "Locate of a pattern longer than the text and its terminator that has a circular match is outside the statement: the distance of the toehold then underflows."
  },
  {
   "property": "C62",
   "status": "proved",
   "theorems": [
    "C62_exact",
    "C62_order",
    "C62_byte_255_refuted"
   ],
   "note": "For texts of bytes 2 to 254: a byte 255 writes past the F table (C62_byte_255_refuted) and a byte 1 is taken for the terminator (C62_byte_1_refuted, an example).  The three assemblies also report in the same order (C62_order)."
  },
  {
   "property": "C63",
   "status": "partial",
   "theorems": [
    "C63_classic_refuted",
    "C63_classic_partial"
   ],
   "note": "Refuted: Locate throws away the value that GetLastValue returns, so the phi chain always starts at the last row of the suffix array.  C63_classic_partial says what is reported for every pattern, and when it is right."
  },
  {
   "property": "C64",
   "status": "proved",
   "theorems": [
    "C64_last_value",
    "C64_first_value"
   ],
   "note": ""
  },
  {
   "property": "C65",
   "status": "proved",
   "theorems": [
    "C65_arrays",
    "C65_class_arrays",
    "C65_working_arrays"
   ],
   "note": "The files that Big-BWT writes and the suffix array (external) have no width in the model."
  },
  {
   "property": "C66",
   "status": "proved",
   "theorems": [
    "C66_samples",
    "C66_ranks"
   ],
   "note": ""
  },
  {
   "property": "C67",
   "status": "partial",
   "theorems": [
    "C67_second_load",
    "C67_load_refuted",
    "C67_mixed_rate_refuted"
   ],
   "note": "The property does not hold in any class: C67_load_refuted shows for each of the 16 classes an object that keeps answering for the first text after a load of an index of a second one, without an error; C67_mixed_rate_refuted shows for the nine classes whose streams start with the rate an object that answered exactly and answers wrongly after a load of another rate.  C67_second_load proves for all objects what a second load does instead: it reads and changes nothing but that rate."
  },
  {
   "property": "C68",
   "status": "partial",
   "theorems": [
    "C68_copy",
    "C68_copy_dangles",
    "C68_save_copy",
    "C68_reload",
    "C68_copy_is_value_refuted"
   ],
   "note": "The property does not hold in any class: the copy shares the functors of the original, which refer to the storage of the original.  C68_copy proves it while the original is left alone; C68_copy_dangles proves that afterwards no query of the copy is defined, in any history; C68_save_copy and C68_reload say what a copy is still good for."
  },
  {
   "property": "C69",
   "status": "partial",
   "theorems": [
    "C69_move",
    "C69_source",
    "C69_move_refuted"
   ],
   "note": "Proved for the classes that have move members (r_index.h, sr_index.h, RCSAWithBWTRun, CSARaw).  Refuted for the classes of sr_csa.h and those over runs of Psi: a declared destructor takes their move members away, and std::move copies."
  },
  {
   "property": "C70",
   "status": "proved",
   "theorems": [
    "C70_own_storage",
    "C70_outer_storage"
   ],
   "note": ""
  },
  {
   "property": "C71",
   "status": "proved",
   "theorems": [
    "C71_csa_factory",
    "C71_sri_factory"
   ],
   "note": "A file that does not read as what it is asked for ends a load like a missing one."
  },
  {
   "property": "C72",
   "status": "proved",
   "theorems": [
    "C72_copy_and_move"
   ],
   "note": ""
  },
  {
   "property": "C73",
   "status": "partial",
   "theorems": [
    "C73_move",
    "C73_copy",
    "C73_copy_dangles",
    "C73_copy_is_value_refuted"
   ],
   "note": "Proved for moves, and for copies while the original is left alone.  Refuted in general: PsiCoreBV declares no copy members, so the supports of a copy keep the addresses of the vectors of the original.  C73_copy_dangles proves that once the original is destroyed, assigned to or loaded, the copy cannot be queried, in any history."
  },
  {
   "property": "C74",
   "status": "proved",
   "theorems": [
    "C74_encode",
    "C74_encode_never_ends",
    "C74_decode",
    "C74_round_trip",
    "C74_decode_only",
    "C74_line_breaks",
    "C74_padding_unchecked"
   ],
   "note": "C74_encode_never_ends: from 2^32 bytes on the position wraps and the loop of the encoder does not end.  C74_padding_unchecked: the decoder does not look at what follows a first padding character."
  },
  {
   "property": "C75",
   "status": "proved",
   "theorems": [
    "C75_lines",
    "C75_plain",
    "C75_base64",
    "C75_plain_round_trip",
    "C75_base64_round_trip"
   ],
   "note": ""
  },
  {
   "property": "C76",
   "status": "proved",
   "theorems": [
    "C76_locate_csa",
    "C76_locate_sri",
    "C76_rate",
    "C76_names_csa",
    "C76_names_sri",
    "C76_count_csa",
    "C76_count_sri"
   ],
   "note": "The calls that the benchmark library makes are an arbitrary list.  Times are not in the model."
  },
  {
   "property": "C77",
   "status": "partial",
   "theorems": [
    "C77_each_pattern_once",
    "C77_csa",
    "C77_sri",
    "C77_interleaved_refuted"
   ],
   "note": "Proved for calls in a row, whatever calls have been made before.  Refuted if the library interleaves the calls of two rates of an index: they share the counter."
  },
  {
   "property": "C78",
   "status": "partial",
   "theorems": [
    "C78_report_readable",
    "C78_plain_refuted"
   ],
   "note": "Proved for patterns in base 64.  Refuted for plain patterns: a pattern may look like the line of a position."
  },
  {
   "property": "C79",
   "status": "proved",
   "theorems": [
    "C79_csa",
    "C79_sri",
    "C79_same_name",
    "C79_all"
   ],
   "note": "SrCSASlim with validity marks or areas is not constructed by the program but listed by the query program: its files are there after SrCSASlim and SrCSA with marks or areas of the same rate."
  },
  {
   "property": "C80",
   "status": "partial",
   "theorems": [
    "C80_csa_partial",
    "C80_sri_partial",
    "C80_length_big",
    "C80_psi_samples",
    "C80_length_big_refuted",
    "C80_psi_samples_refuted"
   ],
   "note": "Proved but for two counters.  Refuted: with BIG_BWT there is no file to read the length of the text from, and over an empty directory it is never reported, for every data file and any calls (C80_length_big); for the classes over runs of Psi the number of samples is read from a file that only other classes write, and it is never reported if no call builds one of these (C80_psi_samples)."
  },
  {
   "property": "C81",
   "status": "partial",
   "theorems": [
    "C81_csa",
    "C81_sri_lost",
    "C81_sri_refuted"
   ],
   "note": "Proved for bm_construct_csa.cpp.  Refuted for bm_construct_ri.cpp: the three classes that subsample write to the same files, so that for every text the log of a call is lost with the next call of any of them with the same rate (C81_sri_lost)."
  },
  {
   "property": "C82",
   "status": "partial",
   "theorems": [
    "C82_sparse_vector",
    "C82_sparse_vector_empty",
    "C82_bit_vector_refuted",
    "C82_huff_string",
    "C82_rle_string",
    "C82_rle_string_empty",
    "C82_rle_string_empty_rank_refuted",
    "C82_psi_bv",
    "C82_psi_bv_written",
    "C82_rle_and_psi",
    "C82_pair_order_refuted"
   ],
   "note": "Proved for everything made by the constructors from a sequence.  Refuted for a sparse bit vector made from a sdsl::bit_vector, whose bits are not written, and for an empty rle_string loaded into a used object, which keeps the counts of letters.  C82_rle_and_psi takes the operands of the sum of io.h:23 from left to right; C++ leaves their order open, and with the other one no PsiCoreRLE can be read back (C82_pair_order_refuted)."
  },
  {
   "property": "C83",
   "status": "proved",
   "theorems": [
    "C83_parts",
    "C83_index"
   ],
   "note": "The sizes of the structures of SDSL are an argument."
  },
  {
   "property": "C84",
   "status": "proved",
   "theorems": [
    "C84_build",
    "C84_same",
    "C84_names",
    "C84_other_data_refuted"
   ],
   "note": "Proved for data without the bytes 1 and 255.  C84_other_data_refuted: a run over data without bytes, or with the byte 255, fails; the byte 1: C85_byte_one.  What the suffix sorter returns is an argument, assumed right."
  },
  {
   "property": "C85",
   "status": "partial",
   "theorems": [
    "C85_locate_partial",
    "C85_locate_refuted",
    "C85_byte_one"
   ],
   "note": "Proved: all the counters, and the printed files of the 15 entries that subsample.  Refuted for the entry R-Index: it prints as many positions as there are occurrences, but others (C63)."
  },
  {
   "property": "C86",
   "status": "partial",
   "theorems": [
    "C86_resume_partial",
    "C86_torn",
    "C86_resume_refuted",
    "C84_build"
   ],
   "note": "Proved if every group of files whose tested file is there is complete.  Refuted in general: the presence of one file of a group is tested, so that files missing from a torn group are never written without --rebuild (C86_torn); the next run fails, or ends without doing anything.  With --rebuild any directory is repaired (C84_build)."
  },
  {
   "property": "C87",
   "status": "partial",
   "theorems": [
    "C87_sizes_partial",
    "C87_sizes_refuted",
    "C87_entries"
   ],
   "note": "Proved for all indexes without trusted areas, and that the name of an entry tells its kind and rate.  Refuted for those with trusted areas: the size of the rank support of the marks is never computed and left out."
  },
  {
   "property": "C88",
   "status": "partial",
   "theorems": [
    "C88_short_partial",
    "C88_shorter_partial",
    "C88_long_refuted",
    "C88_functions",
    "C88_split",
    "C88_split_refuted"
   ],
   "note": "Proved for fewer than INT_MAX runs and, through SDSL, at most INT_MAX symbols.  Refuted for longer texts through SDSL: the loop of construct_sdsl.h:87 overflows for every class, unless the run files are already there."
  },
  {
   "property": "C89",
   "status": "partial",
   "theorems": [
    "C89_turn_partial",
    "C89_exact_partial",
    "C89_ends_partial",
    "C89_same_files_partial",
    "C89_kept_partial",
    "C89_switch_before_submarks_refuted",
    "C89_switch_within_step_refuted"
   ],
   "note": "Proved for schedules that switch between whole steps (a guard and the writes behind it).  Refuted for a switch between the two sub-sampling steps of the Psi-run classes, where both processes end and leave a wrong index, and within a step, where a process truncates a file that another one has completed."
  },
  {
   "property": "C90",
   "status": "partial",
   "theorems": [
    "C90_export_partial",
    "C90_suffix_array",
    "C90_faithful",
    "C90_missing_refuted",
    "C90_hash_refuted"
   ],
   "note": "Proved for the values.  Refuted: a key without a file gives an empty output and exit code 0; the vector with type hash and the one without have the same output file."
  },
  {
   "property": "C91",
   "status": "proved",
   "theorems": [
    "C91_same_srindex",
    "C91_same_srcsa",
    "C91_same_full",
    "C91_srindex",
    "C91_srindex_vm",
    "C91_srindex_va",
    "C91_srcsa",
    "C91_srcsa_vm",
    "C91_srcsa_va",
    "C91_slim",
    "C91_slim_vm",
    "C91_slim_va",
    "C91_psi",
    "C91_psi_vm",
    "C91_psi_va",
    "C91_rindex",
    "C91_rcsa_bwt",
    "C91_rcsa_psi"
   ],
   "note": "The functions of MTrace.v record their calls; the C91_same theorems show for every index and pattern that their reports are the answer of the functions without records.  Calls inside the structures of SDSL, and those within one step, cut, move or phi, are not counted."
  },
  {
   "property": "C92",
   "status": "proved",
   "theorems": [
    "C92_words",
    "C92_rindex",
    "C92_srindex",
    "C92_srindex_vm",
    "C92_srindex_va",
    "C92_rcsa_bwt",
    "C92_rcsa_psi",
    "C92_srcsa",
    "C92_srcsa_vm",
    "C92_srcsa_va",
    "C92_slim",
    "C92_slim_vm",
    "C92_slim_va",
    "C92_srcsa_psi",
    "C92_srcsa_psi_vm",
    "C92_srcsa_psi_va",
    "C92_long_text"
   ],
   "note": "The functions of MWord.v compute modulo 2^64; the theorems show that they are those of the other models and exact.  C92_long_text shows that the bound on the text is needed: PhiBackward of a text of 2^63 + 1 symbols wraps.  Sums of LF, Psi and the splits, which are rows of the index, are not wrapped."
  },
  {
   "property": "C93",
   "status": "partial",
   "theorems": [
    "C93_told",
    "C93_retry",
    "C93_retry_exact",
    "C93_other_text_refuted"
   ],
   "note": "Proved for directories with some of the files of the complete one.  Refuted, in every class, for a retry with the directory of another text: load returns and the index mixes both texts."
  },
  {
   "property": "C94",
   "status": "partial",
   "theorems": [
    "C94_size",
    "C94_failed_load",
    "C94_failed_load_refuted"
   ],
   "note": "Proved, but for loads that throw in SrCSA, SrCSAValidMark and SrCSAValidArea.  Refuted there: without the file of the select support the load throws and leaves the size set in an object without an index."
  },
  {
   "property": "C95",
   "status": "partial",
   "theorems": [
    "C95_apart_partial",
    "C95_own_names",
    "C95_view",
    "C95_refuted"
   ],
   "note": "Proved for names of data files none of which is another one with words of the keys or numbers (joined with underscores) and an underscore in front, and for stops that leave the files of the stopped text closed (as in C47).  C95_view shows that the view of a text is what was last written under the names it asks for; C95_own_names that the files of one text have different names.  Refuted for other names: after SrCSA of foo, construction of SrCSA for idx_foo in the same directory takes bwt_run_first_idx of foo for its bwt_run_first and the index locates wrong positions; construction for rle_foo reads a file of another type (C95_undefined)."
  },
  {
   "property": "C96",
   "status": "partial",
   "theorems": [
    "C96_runs_partial",
    "C96_thrown",
    "C96_poisoned",
    "C96_refuted",
    "C96_silent_refuted"
   ],
   "note": "The first half is proved (with the exclusions of C47: raw CSA only through SDSL, stopped constructions closed).  The second half is refuted: the result of std::system is not looked at, so the call writes an empty BWT before it throws, and from then on no construction through SDSL in this directory, of any class and rate, succeeds (C96_poisoned).  Over a complete directory the call does not even throw: it returns an exact index, replaces the BWT by an empty one, and the next class cannot be constructed (C96_silent_refuted)."
  },
  {
   "property": "C97",
   "status": "partial",
   "theorems": [
    "C97_rebuilt_partial",
    "C97_same_files",
    "C97_tidy",
    "C97_one_file_refuted"
   ],
   "note": "Proved for removals after which no file stands for one that is gone, in particular for all files of any rates, the text and the suffix array, and all but the base items (C97_tidy), in any order with calls and stops.  Refuted for every text, class, rate and history: there is one file without which construct of the class never succeeds in the directory again, whatever calls follow (C97_one_file_refuted)."
  }
 ]
}