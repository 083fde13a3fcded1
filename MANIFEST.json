{
 "claims": [
  {
   "property": "C01",
   "status": "proved",
   "theorems": [
    "C01_pack_unpack_roundtrip"
   ],
   "note": "All supported bit counts, all lengths; symbol range is a precondition (C01_range_needed shows it is necessary). Alignment/aliasing of the 16-bit reinterpret_cast is not modelled."
  },
  {
   "property": "C02",
   "status": "proved",
   "theorems": [
    "C02_pack_layout",
    "C02_unpack_layout",
    "C02_pack_bits",
    "C02_unpack_bits"
   ],
   "note": "Layout stated twice: as integer digits and bit by bit."
  },
  {
   "property": "C03",
   "status": "proved",
   "theorems": [
    "C03_pack_exact",
    "C03_unpack_exact",
    "C03_buffer_size_least"
   ],
   "note": "UB (out of bounds) occurs exactly for buffers smaller than documented."
  },
  {
   "property": "C04",
   "status": "proved",
   "theorems": [
    "C04_pack_throws_iff_unsupported",
    "C04_unpack_throws_iff_unsupported"
   ],
   "note": "The exception is raised by the dispatch before any access."
  },
  {
   "property": "C05",
   "status": "proved",
   "theorems": [
    "C05_lower_bound_correct",
    "C05_lower_bound_unique"
   ],
   "note": "Proved for every size >= 1; reads outside the list are UB in the model, so Ok means in bounds."
  },
  {
   "property": "C06",
   "status": "proved",
   "theorems": [
    "C06_variants_agree",
    "C06_duplicates_refuted"
   ],
   "note": "Agreement proved for strictly increasing dictionaries; with duplicates the three older variants return a later position (refuted by witness)."
  },
  {
   "property": "C07",
   "status": "proved",
   "theorems": [
    "C07_valid_pointers",
    "C07_other_sizes_refuted"
   ],
   "note": "Holds for all sizes 2^k-1; for other sizes an invalid pointer is formed (witness of size 5)."
  },
  {
   "property": "C08",
   "status": "proved",
   "theorems": [
    "C08_encode_interval",
    "C08_encode_monotone"
   ],
   "note": "For every well-formed encoder (C46 shows the constructors build those). No assumption on the kind of distribution."
  },
  {
   "property": "C09",
   "status": "proved",
   "theorems": [
    "C09_encode_reserved",
    "C09_dither_reserved",
    "C09_decode_reserved"
   ],
   "note": "Covers all floats and all dither values."
  },
  {
   "property": "C10",
   "status": "proved",
   "theorems": [
    "C10_dither_brackets",
    "C10_dither_monotone_value",
    "C10_dither_antitone"
   ],
   "note": "binary32 rounding of every operation is modelled with Flocq, including overflow of the gap."
  },
  {
   "property": "C11",
   "status": "proved",
   "theorems": [
    "C11_dither_unbiased"
   ],
   "note": "Mean over all 2^31 dither values within 2^-22 of the gap; the gap must not exceed 2^96 (the scaled difference would overflow)."
  },
  {
   "property": "C12",
   "status": "proved",
   "theorems": [
    "C12_level_dithered",
    "C12_first_level",
    "C12_all_dithers_refuted"
   ],
   "note": "The exact outcome is proved for each dither value: preserved for all but the 64 largest dithers (refuted for those: float(dither) rounds up to 2^31)."
  },
  {
   "property": "C13",
   "status": "proved",
   "theorems": [
    "C13_move_decodes",
    "C13_copy_decodes_finite",
    "C13_copy_refuted"
   ],
   "note": "Moved encoders are fine; every copied encoder reads out of bounds for the reserved symbol (refuted). Production code only moves."
  },
  {
   "property": "C14",
   "status": "proved",
   "theorems": [
    "C14_right_boundary",
    "C14_documentation_refuted"
   ],
   "note": "Separation proved; the documentation sentence is refuted (the boundary itself still encodes to s)."
  },
  {
   "property": "C46",
   "status": "proved",
   "theorems": [
    "C46_constructor_well_formed",
    "C46_uniform_well_formed"
   ],
   "note": "Uniform with all roundings. The first theorem is for any quantile functions that are increasing; C61 proves this for the other distributions."
  },
  {
   "property": "C47",
   "status": "proved",
   "theorems": [
    "C47_uniform_idempotent",
    "C47_uniform_zero",
    "C47_uniform_error"
   ],
   "note": "stddev = 1 as in dyscodatacolumn.cc."
  },
  {
   "property": "C15",
   "status": "proved",
   "theorems": [
    "C15_programs_refine_lists",
    "C15_programs_refine_lists_from",
    "C15_construct",
    "C15_capacity",
    "C15_appending",
    "C15_preconditions",
    "C15_at",
    "C15_copy_construct",
    "C15_move_and_swap",
    "C15_resize_uninitialised",
    "C15_insert_uninitialised",
    "C15_copy_assign",
    "C15_copy_assign_keeps_size",
    "C15_copy_assign_refuted",
    "C15_push_back_own",
    "C15_push_back_own_refuted"
   ],
   "note": "All other operations refine lists; copy assignment into a vector with sufficient capacity keeps the old size (refuted), and push_back of an own element into a full vector is a use after free (refuted). Allocation failure and stateful allocators are not modelled."
  },
  {
   "property": "C16",
   "status": "proved",
   "theorems": [
    "C16_weights_roundtrip",
    "C16_weights_order",
    "C16_weight_encoder_roundtrip"
   ],
   "note": "binary32/binary64 roundings included. WeightEncoder<float> (unused by the storage manager) for maxima between 2^-100 and 2^100."
  },
  {
   "property": "C17",
   "status": "proved",
   "theorems": [
    "C17_nonfinite_undefined",
    "C17_nan_undefined",
    "C17_negative_undefined",
    "C17_missing_row_undefined",
    "C17_weight_encoder_zero_undefined",
    "C17_defined",
    "C17_weights_refuted"
   ],
   "note": "Refuted: NaN, infinite and (more than one step) negative weights and unfilled rows are undefined behaviour. Holds for finite non-negative weights."
  },
  {
   "property": "C48",
   "status": "proved",
   "theorems": [
    "C48_weights_idempotent",
    "C48_subnormal_refuted"
   ],
   "note": "Proved for normal maxima; a subnormal counterexample is given."
  },
  {
   "property": "C25",
   "status": "proved",
   "theorems": [
    "C25_header_roundtrip",
    "C25_header_roundtrip_after_writes",
    "C25_column_header_layout"
   ],
   "note": "Byte-level; also after any sequence of block writes. storable = all fields fit their widths."
  },
  {
   "property": "C26",
   "status": "proved",
   "theorems": [
    "C26_truncated_rejected",
    "C26_first_bytes_refuted",
    "C26_wrong_version_rejected",
    "C26_wrong_column_count_rejected"
   ],
   "note": "Every truncation at 16 bytes or more is rejected; below 16 bytes the size of a string is uninitialised (refuted)."
  },
  {
   "property": "C27",
   "status": "proved",
   "theorems": [
    "C27_header_fits",
    "C27_blocks_keep_header"
   ],
   "note": "The header size counts 24 bytes per column while 12 are written, so it always fits."
  },
  {
   "property": "C28",
   "status": "proved",
   "theorems": [
    "C28_regions_disjoint",
    "C28_write_read",
    "C28_write_other",
    "C28_large_blocks_refuted"
   ],
   "note": "Disjoint below a total of 2^32 bytes per block; beyond that the 32-bit size wraps (refuted by witness)."
  },
  {
   "property": "C29",
   "status": "proved",
   "theorems": [
    "C29_row_block_bijection",
    "C29_consecutive"
   ],
   "note": ""
  },
  {
   "property": "C30",
   "status": "proved",
   "theorems": [
    "C30_spec_roundtrip",
    "C30_studentst_refuted",
    "C30_accepted_usable",
    "C30_accepted",
    "C30_refused"
   ],
   "note": "Holds for the other three distributions; every Students-T record written by the manager is rejected (refuted), as it is named differently when read; C30_accepted says exactly which records are accepted."
  },
  {
   "property": "C31",
   "status": "proved",
   "theorems": [
    "C31_reopen",
    "C31_blocks_written",
    "C31_reopen_refuted"
   ],
   "note": "Exact: all blocks are found iff the last column of the last block was written, otherwise one block is missing (refuted by witness)."
  },
  {
   "property": "C32",
   "status": "proved",
   "theorems": [
    "C32_remaining_columns_shifted",
    "C32_remove_column_refuted"
   ],
   "note": "Refuted: the header size shrinks but the data stay, so the other columns are read 24 bytes too early; proved for every manager and block."
  },
  {
   "property": "C45",
   "status": "proved",
   "theorems": [
    "C45_row_count"
   ],
   "note": "Every sequence of operations with row numbers below 2^32; the counter agrees with the table and refusals happen at the same point."
  },
  {
   "property": "C49",
   "status": "proved",
   "theorems": [
    "C49_new_table_refuted"
   ],
   "note": "Refuted for every table that is reopened before the header is written."
  },
  {
   "property": "C50",
   "status": "proved",
   "theorems": [
    "C50_reopen_same_data"
   ],
   "note": ""
  },
  {
   "property": "C33",
   "status": "proved",
   "theorems": [
    "C33_cache_safe"
   ],
   "note": "Transition system over critical sections; any number of threads, any schedule."
  },
  {
   "property": "C34",
   "status": "proved",
   "theorems": [
    "C34_on_disk",
    "C34_rows_on_disk"
   ],
   "note": "on_disk: block level. rows_on_disk: row level, for runs without the faults characterised by C36_fault_causes."
  },
  {
   "property": "C35",
   "status": "proved",
   "theorems": [
    "C35_reads_back",
    "C35_read_defined",
    "C35_reads_back_refuted"
   ],
   "note": "Positive: a read of a row written earlier gives its (coded) contents unless the block is not yet in the file, when zeros are returned; the zero case is refuted by a schedule."
  },
  {
   "property": "C36",
   "status": "proved",
   "theorems": [
    "C36_only_put_rows_change",
    "C36_fault_causes",
    "C36_lost_update_refuted"
   ],
   "note": "Rows other than the written one keep their contents (with C34/C35) unless a listed fault happens; the fault of a block still in the cache is reachable and loses an update (refuted)."
  },
  {
   "property": "C37",
   "status": "proved",
   "theorems": [
    "C37_calls_finish",
    "C37_progress",
    "C37_no_infinite_run"
   ],
   "note": "Every call finishes under every schedule; AddColumn only with an empty cache, see C38."
  },
  {
   "property": "C38",
   "status": "proved",
   "theorems": [
    "C38_add_column_refuted",
    "C38_stuck_forever",
    "C37_calls_finish"
   ],
   "note": "The code violates this: reachable state in which prepare never returns. With an empty cache it does return (C37_calls_finish)."
  },
  {
   "property": "C39",
   "status": "proved",
   "theorems": [
    "C39_single_block_refuted",
    "C39_single_block_never"
   ],
   "note": "The code violates this for every number of rows: closing throws, and can never succeed."
  },
  {
   "property": "C40",
   "status": "proved",
   "theorems": [
    "C40_block_size_learnt",
    "C40_block_size_shared",
    "C40_fixed"
   ],
   "note": ""
  },
  {
   "property": "C41",
   "status": "proved",
   "theorems": [
    "C41_any_order",
    "C41_skipped_row_refuted"
   ],
   "note": "Any order is fine exactly when all rows up to the largest are written; skipping a row is undefined behaviour (refuted)."
  },
  {
   "property": "C42",
   "status": "proved",
   "theorems": [
    "C42_buffer_is_map",
    "C42_max_antenna",
    "C42_convert"
   ],
   "note": ""
  },
  {
   "property": "C51",
   "status": "proved",
   "theorems": [
    "C51_add_column_refuted"
   ],
   "note": "The code violates this."
  },
  {
   "property": "C52",
   "status": "proved",
   "theorems": [
    "C52_order_on_disk",
    "C52_no_ub",
    "C52_throws_only_on_read",
    "C52_no_fault"
   ],
   "note": ""
  },
  {
   "property": "C43",
   "status": "proved",
   "theorems": [
    "C43_accepts_exactly_regular",
    "C43_undefined_exactly",
    "C43_longer_block_refuted",
    "C43_nan_refuted"
   ],
   "note": "Exact characterisation of accepted and of undefined runs; the part 'reports an error for every other table' is false."
  },
  {
   "property": "C44",
   "status": "proved",
   "theorems": [
    "C44_flagged_samples",
    "C44_defined"
   ],
   "note": ""
  },
  {
   "property": "C53",
   "status": "proved",
   "theorems": [
    "C53_accepted_table_is_stored"
   ],
   "note": ""
  },
  {
   "property": "C54",
   "status": "proved",
   "theorems": [
    "C54_options_taken",
    "C54_all_command_lines",
    "C54_no_arguments",
    "C54_unknown_option_rejected",
    "C54_incomplete_refuted"
   ],
   "note": "Incomplete command lines dereference a null pointer."
  },
  {
   "property": "C55",
   "status": "proved",
   "theorems": [
    "C55_columns_replaced",
    "C55_mixed_refuted",
    "C55_second_run_refuted",
    "C55_moved_exactly"
   ],
   "note": "The parts on columns that are already compressed are false when only some are, and for columns compressed later."
  },
  {
   "property": "C56",
   "status": "proved",
   "theorems": [
    "C56_data_decompressed",
    "C56_weights_decompressed",
    "C56_decompressed",
    "C56_weights_shifted",
    "C56_weights_refuted",
    "C56_no_weights_refuted"
   ],
   "note": "Proved when one of DATA and WEIGHT_SPECTRUM is compressed. When both are, the statement is false for the weights: C56_weights_shifted says where they are read from, in every stored table, and C56_weights_refuted is a whole run with all weights wrong."
  },
  {
   "property": "C18",
   "status": "proved",
   "theorems": [
    "C18_row_error",
    "C18_row_metadata",
    "C18_every_component_refuted",
    "C18_overflow_refuted"
   ],
   "note": "Components that share a sample with a non-finite real part, or an infinite imaginary part, are not counted and may be clamped; rows with magnitudes above 2^125 may overflow."
  },
  {
   "property": "C19",
   "status": "proved",
   "theorems": [
    "C19_rf_error",
    "C19_ratio_exists"
   ],
   "note": "For counted samples of rows up to 2^124."
  },
  {
   "property": "C22",
   "status": "proved",
   "theorems": [
    "C22_row_nonfinite",
    "C22_rf_nonfinite",
    "C22_af_nonfinite",
    "C22_row_influence",
    "C22_rf_influence",
    "C22_af_influence",
    "C22_component_influence_refuted"
   ],
   "note": "Influence is stated per sample: a finite real part with an infinite imaginary part is treated differently from one with a NaN (refuted per component)."
  },
  {
   "property": "C20",
   "status": "proved",
   "theorems": [
    "C20_af_error",
    "C20_autocorrelation_refuted",
    "C20_only_autocorrelations_refuted",
    "C20_dead_antenna_refuted"
   ],
   "note": "For cross-correlations, and autocorrelations not above the largest level, with usable stored factors. False for other autocorrelations and for antennas without cross-correlations."
  },
  {
   "property": "C21",
   "status": "proved",
   "theorems": [
    "C21_af_terminates"
   ],
   "note": "At most channels + antennas rounds per polarization."
  },
  {
   "property": "C23",
   "status": "proved",
   "theorems": [
    "C23_row_zero",
    "C23_rf_zero_row",
    "C23_rf_zero_channel",
    "C23_rf_zero_channel_refuted",
    "C23_af_zero_channel",
    "C23_af_zero_block",
    "C23_af_unseen_refuted"
   ],
   "note": "RF: a zero channel in rows with signal decodes to non-zero values for the 64 largest dithers. AF: a channel without a fully finite sample decodes to NaN."
  },
  {
   "property": "C24",
   "status": "proved",
   "theorems": [
    "C24_row_buffers",
    "C24_rf_buffers",
    "C24_af_buffers",
    "C24_block_size",
    "C24_row_block",
    "C24_rf_block",
    "C24_af_block",
    "C24_weight_block",
    "C24_valid_symbols_kept",
    "C24_short_block_antennas_refuted"
   ],
   "note": "Full and short blocks. Reading a short block with AF normalization needs antenna indices below the count also for the rows after the last one; otherwise undefined (refuted by witness)."
  },
  {
   "property": "C57",
   "status": "proved",
   "theorems": [
    "C57_row_bytes",
    "C57_rf_bytes",
    "C57_af_bytes",
    "C57_weight_bytes"
   ],
   "note": "Same conditions on magnitudes and stored factors as C18-C20."
  },
  {
   "property": "C58",
   "status": "proved",
   "theorems": [
    "C58_read_only",
    "C58_failures",
    "C58_finish"
   ],
   "note": "Other columns may extend the file meanwhile."
  },
  {
   "property": "C59",
   "status": "proved",
   "theorems": [
    "C59_row",
    "C59_rf",
    "C59_af",
    "C59_weights",
    "C59_row_finish",
    "C59_rf_finish",
    "C59_af_finish",
    "C59_weights_finish",
    "C59_blocks",
    "C59_blocks_alone"
   ],
   "note": "RF, AF and weights: relative to the block the row is in; when other columns extend the file before the last, short block is started, its rows after the last row of the table may hold anything (weights: then only for tables of full blocks). AF: all antenna indices of the table below the count of the first block, stored factors usable (as C20)."
  },
  {
   "property": "C60",
   "status": "proved",
   "theorems": [
    "C60_search_ends",
    "C60_search_ends_erf",
    "C60_accurate"
   ],
   "note": "gsl_sf_erf is a parameter. Accuracy for probabilities 1/2 or at least 1e-6 away from it, and 1/135000 from 0 and 1 (all that tables use)."
  },
  {
   "property": "C61",
   "status": "proved",
   "theorems": [
    "C61_gaussian",
    "C61_uniform",
    "C61_student",
    "C61_truncated",
    "C61_truncation_zero_refuted"
   ],
   "note": "GSL functions are parameters with stated accuracy (2^-50 erf, 2^-52 gaussian_P, 2^-30 relative plus 2^-34 the inverses). Student-T: any symmetric unimodal distribution with enough density at the quantiles used (shown for one degree of freedom, as dscompress uses). Truncation 0 refuted; truncations between 0 and 1/4 are not covered."
  },
  {
   "property": "C62",
   "status": "proved",
   "theorems": [
    "C62_alone",
    "C62_kept",
    "C62_readable",
    "C62_one_size"
   ],
   "note": "As long as no column failed; a block of all columns below 2^32 bytes (otherwise C28_large_blocks_refuted). Columns are not added after the first row (C51)."
  },
  {
   "property": "C63",
   "status": "proved",
   "theorems": [
    "C63_written_read"
   ],
   "note": "Premise: writing did not fail. AF: all antenna indices of the table below the count of the first block, stored factors usable (as C20)."
  },
  {
   "property": "C64",
   "status": "proved",
   "theorems": [
    "C64_never_fails",
    "C64_round_trip"
   ],
   "note": "Conditions as in the statement (record writable). Removes the premise of C63."
  },
  {
   "property": "C65",
   "status": "proved",
   "theorems": [
    "C65_writing_finishes",
    "C65_can_be_closed",
    "C65_reading_finishes"
   ],
   "note": "can_be_closed: at most 2^32 rows. Reading: of tables written as in C64."
  },
  {
   "property": "C66",
   "status": "proved",
   "theorems": [
    "C66_encoder",
    "C66_columns",
    "C66_reopened"
   ],
   "note": "GSL functions are parameters with the accuracy stated for C61; settings_ok lists what is needed."
  },
  {
   "property": "C67",
   "status": "proved",
   "theorems": [
    "C67_ready",
    "C67_options",
    "C67_block_size",
    "C67_written",
    "C67_read_back"
   ],
   "note": "For a measurement set of which no column is compressed yet. The order of casacore's calls (create, makeDirArrColumn, setShapeColumn, prepare, addColumn) is in the trusted base."
  },
  {
   "property": "C68",
   "status": "proved",
   "theorems": [
    "C68_opens",
    "C68_never_fails",
    "C68_reads",
    "C68_stored",
    "C68_short_block_refuted"
   ],
   "note": "The error bound of a changed block takes all its rows into account, also those behind the end of the table; C68_short_block_refuted shows that this cannot be improved. Going back to an earlier block: C73 and C36."
  },
  {
   "property": "C69",
   "status": "proved",
   "theorems": [
    "C69_opens",
    "C69_never_fails",
    "C69_reads",
    "C69_rows",
    "C69_intact",
    "C69_lost_rows_reported_refuted"
   ],
   "note": "Damage behind the header only; damaged headers are C26."
  },
  {
   "property": "C70",
   "status": "proved",
   "theorems": [
    "C70_copied",
    "C70_copy_writable",
    "C70_first_error",
    "C70_weights_equal",
    "C70_prepared",
    "C70_dscompress",
    "C70_students_refuted",
    "C70_replaced",
    "C70_copy_fails",
    "C70_slashes_refuted",
    "C70_other_table_refuted"
   ],
   "note": "Copy of a table that was closed and opened. weights_equal: of a table as it was written, not updated since. deepCopy itself is casacore's (trusted base)."
  },
  {
   "property": "C71",
   "status": "proved",
   "theorems": [
    "C71_never_fails",
    "C71_reads",
    "C71_stored",
    "C71_zeros_refuted",
    "C71_last_block_refuted",
    "C71_single_block_refuted"
   ],
   "note": "That a row read has what was put is refuted: a block not yet in the file reads as zeros; C71_reads says this is the only exception."
  },
  {
   "property": "C72",
   "status": "proved",
   "theorems": [
    "C72_measures",
    "C72_constructor",
    "C72_text",
    "C72_short",
    "C72_below_millisecond",
    "C72_hours_twice",
    "C72_hours_refuted",
    "C72_local_time_refuted"
   ],
   "note": "The short text is right below an hour, from 10 hours to a day and from 10 days; in between it is refuted. dscompress only prints ToString. The formatting of to_simple_string is boost's (trusted base)."
  },
  {
   "property": "C73",
   "status": "proved",
   "theorems": [
    "C73_never_fails",
    "C73_answers",
    "C73_put_read",
    "C73_unchanged",
    "C73_stored"
   ],
   "note": "The condition on puts is needed: C36_lost_update_refuted. A row that is encoded several times may drift by one error bound each time; C73_answers says how often that is."
  },
  {
   "property": "C74",
   "status": "proved",
   "theorems": [
    "C74_never_fails",
    "C74_stored"
   ],
   "note": "Rows are only put, not read, in the session that extends the table; the extended table can be read after closing (C68)."
  },
  {
   "property": "C75",
   "status": "proved",
   "theorems": [
    "C75_no_race",
    "C75_in_order",
    "C75_opened",
    "C75_header",
    "C75_joined",
    "C75_remove_column_refuted",
    "C75_add_column_refuted",
    "C75_row0_refuted"
   ],
   "note": "Which data each step accesses, and with which mutex, is a table (Accesses.v) that was made by reading the code. Removing and adding columns, and a table whose first row put is not row 0 and that then gets row 0, are refuted."
  },
  {
   "property": "C76",
   "status": "proved",
   "theorems": [
    "C76_untouched",
    "C76_encodings",
    "C76_put",
    "C76_undo_refuted"
   ],
   "note": "The bound on the number of encodings is per session (per put where a session goes back to earlier blocks). The size of each error is that of C17-C20 for the block as it was encoded then, not as it is in the end: C76_undo_refuted."
  },
  {
   "property": "C77",
   "status": "proved",
   "theorems": [
    "C77_levels",
    "C77_below",
    "C77_above",
    "C77_assert_refuted",
    "C77_assert_dithered_refuted"
   ],
   "note": "The last sentence is refuted: the assertion of Dictionary::symbol fails exactly for the values up to the first boundary (with dithering: also up to the first level), which are encoded rightly in the build with NDEBUG."
  },
  {
   "property": "C78",
   "status": "proved",
   "theorems": [
    "C78_unchanged",
    "C78_normalizes_refuted",
    "C78_fit_refuted",
    "C78_silent_refuted"
   ],
   "note": "That the call ends without undefined behaviour, and that the buffer is unchanged, is proved for all buffers; that the values are brought into the range is refuted, for the buffer and for the local copy."
  }
 ]
}