{
 "claims": [
  {
   "property": "C01",
   "status": "proved",
   "theorems": [
    "C01_roundtrip"
   ],
   "note": ""
  },
  {
   "property": "C02",
   "status": "proved",
   "theorems": [
    "C02_stable",
    "C47_decode"
   ],
   "note": "preservation of unknown fields is part of C47_decode"
  },
  {
   "property": "C03",
   "status": "proved",
   "theorems": [
    "C03_wrap",
    "C03_file",
    "C03_symlink",
    "C03_folder",
    "C03_shard",
    "C03_size_by_type"
   ],
   "note": ""
  },
  {
   "property": "C04",
   "status": "proved",
   "theorems": [
    "C04_size_history",
    "C04_block_sizes"
   ],
   "note": ""
  },
  {
   "property": "C05",
   "status": "partial",
   "theorems": [
    "C05_metadata_mime_partial",
    "C05_metadata_refuted",
    "C05_metadata_decode",
    "C05_metadata_only"
   ],
   "note": "mime type round trip proved; size round trip is false of the code: the size is written but never read back"
  },
  {
   "property": "C06",
   "status": "proved",
   "theorems": [
    "C06_balanced_content",
    "C06_balanced_read_back",
    "C06_default"
   ],
   "note": "read back for files below 2^63 bytes"
  },
  {
   "property": "C07",
   "status": "proved",
   "theorems": [
    "C07_balanced_shape"
   ],
   "note": ""
  },
  {
   "property": "C08",
   "status": "partial",
   "theorems": [
    "C08_balanced_total_partial",
    "C08_balanced_succeeds_partial",
    "C08_balanced_diverges",
    "C08_balanced_terminates_refuted",
    "C08_default_limit",
    "C06_default"
   ],
   "note": "proved for Maxlinks >= 2; false for Maxlinks <= 1 with two or more chunks (never returns)"
  },
  {
   "property": "C09",
   "status": "proved",
   "theorems": [
    "C09_balanced_source_error",
    "C09_trickle_source_error",
    "C09_balanced_oversize",
    "C09_trickle_oversize",
    "C09_append_source_error",
    "C09_append_oversize"
   ],
   "note": "Append for appendable bases"
  },
  {
   "property": "C10",
   "status": "partial",
   "theorems": [
    "C10_balanced_stored",
    "C10_trickle_stored",
    "C10_append_stored",
    "C10_append_root_refuted"
   ],
   "note": "proved for both layouts and for all blocks below the root of an append; the root of an append is not added (callers do it)"
  },
  {
   "property": "C100",
   "status": "partial",
   "theorems": [
    "C100_kind_partial",
    "C100_truncate",
    "C100_kinds",
    "C100_append",
    "C100_kind_refuted",
    "C100_empty_refuted",
    "C100_empty_balanced",
    "C100_empty_trickle",
    "C100_empty_file",
    "C100_empty_dir"
   ],
   "note": "proved for all calls but Truncate, and for Truncate of files with links; false for Truncate of a file of one block, which becomes a plain block of type Raw; finding"
  },
  {
   "property": "C101",
   "status": "partial",
   "theorems": [
    "C101_reader_partial",
    "C101_eof_stays",
    "C101_write_refuted",
    "C101_truncate_refuted",
    "C101_truncate_node_refuted",
    "C101_append_refuted"
   ],
   "note": "proved for readers; false for WriteAt, Truncate and Append, which panic on nodes with sizes that do not fit; finding"
  },
  {
   "property": "C102",
   "status": "partial",
   "theorems": [
    "C102_v0",
    "C102_v1",
    "C102_modify",
    "C102_balanced",
    "C102_trickle",
    "C102_append",
    "C102_leaves_refuted",
    "C102_leaves_v0_refuted"
   ],
   "note": "proved for the versions, codecs and hash functions; that the leaves stay raw or dag-pb is false; finding"
  },
  {
   "property": "C103",
   "status": "proved",
   "theorems": [
    "C103_same_root",
    "C103_published",
    "C103_adding_keeps",
    "C103_same_tree"
   ],
   "note": "the converse is for two publications whose blocks are all in one store"
  },
  {
   "property": "C104",
   "status": "partial",
   "theorems": [
    "C104_limit",
    "C104_modify_limit",
    "C104_balanced",
    "C104_trickle",
    "C104_append",
    "C104_modify",
    "C104_hole_refuted",
    "C104_block_refuted"
   ],
   "note": "proved for the data in a block; false for chunkers of less than 4096 bytes, since the zeros that extend a file come in blocks of 4096, and false for the encoded block: BlockSizeLimit is documented as the maximum size of a block, but a chunk of 1 MiB without raw leaves becomes a bigger block; findings"
  },
  {
   "property": "C105",
   "status": "partial",
   "theorems": [
    "C105_leaves",
    "C105_raw",
    "C105_chunk",
    "C105_run",
    "C105_whole",
    "C105_layouts_refuted",
    "C105_shift_refuted"
   ],
   "note": "false across layouts unless leaves are raw (balanced leaves have type File, trickle leaves type Raw; no block is shared), and false for trees of runs that are not aligned; findings"
  },
  {
   "property": "C106",
   "status": "proved",
   "theorems": [
    "C106_balanced",
    "C106_few",
    "C106_trickle",
    "C106_append"
   ],
   "note": "the balanced theorems need at least two links per node; the layout needs that too"
  },
  {
   "property": "C107",
   "status": "partial",
   "theorems": [
    "C107_same",
    "C107_back",
    "C107_import",
    "C107_canonical",
    "C107_other_encodings_refuted"
   ],
   "note": "proved for files whose leaves are encoded as this library encodes them (all it makes); false for others: a write of the bytes that are there already re-encodes the leaf and changes the root; finding"
  },
  {
   "property": "C108",
   "status": "partial",
   "theorems": [
    "C108_chunks",
    "C108_trickle",
    "C108_balanced",
    "C108_boundary",
    "C108_leaf_type_refuted",
    "C108_depth_refuted"
   ],
   "note": "proved for trickle files cut inside a chunk and for balanced files with raw leaves cut inside a chunk whose tree keeps its depth; false at every chunk boundary (an empty leaf stays at the end), for balanced files with other leaves (the cut leaf becomes of type Raw) and if the tree should become lower; finding"
  },
  {
   "property": "C109",
   "status": "proved",
   "theorems": [
    "C109_steps",
    "C109_writes",
    "C109_imports"
   ],
   "note": "all parts proved"
  },
  {
   "property": "C11",
   "status": "proved",
   "theorems": [
    "C11_balanced_positions",
    "C11_trickle_positions",
    "C11_positions_locate",
    "C11_append_positions"
   ],
   "note": ""
  },
  {
   "property": "C110",
   "status": "partial",
   "theorems": [
    "C110_leak",
    "C110_never_back"
   ],
   "note": "the contents are kept (proved); the rest is false for every file and every number of rounds: each round leaves one more block without data, the root never is the same again; finding"
  },
  {
   "property": "C111",
   "status": "proved",
   "theorems": [
    "C111_write_past_end",
    "C111_seek_past_end"
   ],
   "note": ""
  },
  {
   "property": "C112",
   "status": "partial",
   "theorems": [
    "C112_zeros",
    "C112_zeros_refuted",
    "C112_zeros_exact"
   ],
   "note": "true exactly for chunkers that cut the zeros into pieces of 4096 bytes; false for others (witness); finding"
  },
  {
   "property": "C113",
   "status": "partial",
   "theorems": [
    "C113_pieces",
    "C113_root",
    "C113_flushed",
    "C113_flushed_fixed",
    "C113_refuted",
    "C113_needs_cut",
    "C113_needs_cut_fixed"
   ],
   "note": "proved for data that fits into the buffer, in all states; beyond it, for two calls on an empty file, the roots are the same exactly if the chunker cuts at the end of the first piece (files of up to two times the link limit); so false (witness with the buffer and chunk sizes of the code); finding"
  },
  {
   "property": "C114",
   "status": "partial",
   "theorems": [
    "C114_write_import",
    "C114_write_import_fixed",
    "C114_much_differs",
    "C114_needs_cut",
    "C114_needs_cut_fixed"
   ],
   "note": "false; proved exactly when it holds for files of at most two times the link limit of chunks in all, or between one and four times before writing, and for files of any size that the chunker must cut at the old end; finding"
  },
  {
   "property": "C115",
   "status": "proved",
   "theorems": [
    "C115_append_chunks",
    "C115_write_chunks",
    "C115_grow_chunks",
    "C115_inside_chunks",
    "C115_over_chunks",
    "C115_past_chunks"
   ],
   "note": "for appending and for every write of the modifier: inside of the file, over its end, at its end and behind it"
  },
  {
   "property": "C116",
   "status": "proved",
   "theorems": [
    "C116_history_chunks",
    "C116_edits_unique",
    "C116_same_chunks",
    "C116_rules_content",
    "C116_edit_succeeds",
    "C116_history_exists"
   ],
   "note": "each edit with a modifier of its own and GetNode; empty writes are left out"
  },
  {
   "property": "C117",
   "status": "partial",
   "theorems": [
    "C117_chunks_by_size_refuted",
    "C117_many_chunks",
    "C117_portions_chunks",
    "C117_portions_many",
    "C117_small_portions",
    "C117_at_once_few"
   ],
   "note": "false; finding. Proved: the chunks are those of the portions one after the other, at least one for each; as few as possible for one portion"
  },
  {
   "property": "C12",
   "status": "proved",
   "theorems": [
    "C12_trickle_content",
    "C12_trickle_read_back",
    "C12_default"
   ],
   "note": "read back for files below 2^63 bytes"
  },
  {
   "property": "C13",
   "status": "proved",
   "theorems": [
    "C13_trickle_verifies"
   ],
   "note": ""
  },
  {
   "property": "C14",
   "status": "partial",
   "theorems": [
    "C14_append_content_partial",
    "C14_append_total_partial",
    "C14_append_succeeds_partial",
    "C14_trickle_appendable",
    "C14_balanced_appendable",
    "C14_history",
    "C14_append_inline_refuted",
    "C14_append_limit_refuted"
   ],
   "note": "proved for bases without inline data on the append path, which covers every history of trickle imports and appends with one limit; false for single-block files and for a smaller limit"
  },
  {
   "property": "C15",
   "status": "partial",
   "theorems": [
    "C15_append_structure_refuted",
    "C15_append_loose_partial",
    "C15_trickle_is_loose",
    "C15_append_leaves_partial"
   ],
   "note": "false; what is kept by all appends is the shape with sub-graphs up to one level too deep"
  },
  {
   "property": "C16",
   "status": "proved",
   "theorems": [
    "C16_reads",
    "C16_reads_with_missing_blocks"
   ],
   "note": ""
  },
  {
   "property": "C17",
   "status": "proved",
   "theorems": [
    "C17_file"
   ],
   "note": "files below 2^63 bytes"
  },
  {
   "property": "C18",
   "status": "partial",
   "theorems": [
    "C18_failed_seek_refuted",
    "C18_failed_seek_data_refuted",
    "C18_seek_recovers_partial",
    "C18_seek_succeeds_partial",
    "C18_failed_seek_position_partial"
   ],
   "note": "false: after a failed Seek the reader reports offset 0 and treats Seek(0) as a no-op; proved for seeks to any other position"
  },
  {
   "property": "C19",
   "status": "partial",
   "theorems": [
    "C16_reads",
    "C17_file",
    "C19_write_fault_partial",
    "C19_position_refuted"
   ],
   "note": "data copied proved for every destination; the reported position after a destination failure is wrong"
  },
  {
   "property": "C20",
   "status": "proved",
   "theorems": [
    "C20_open"
   ],
   "note": ""
  },
  {
   "property": "C21",
   "status": "proved",
   "theorems": [
    "C21_overwrite",
    "C21_only_the_range",
    "C21_the_range",
    "C21_overwrite_total"
   ],
   "note": ""
  },
  {
   "property": "C22",
   "status": "proved",
   "theorems": [
    "C22_truncate",
    "C22_resize_is_prefix",
    "C22_truncate_total"
   ],
   "note": "extension for the files the modifier can extend (C23), cutting for all files"
  },
  {
   "property": "C23",
   "status": "partial",
   "theorems": [
    "C23_modifier_is_file_partial",
    "C23_trickle_growable",
    "C23_few_links_growable",
    "C23_grow_inline_refuted",
    "C23_grow_raw_refuted",
    "C23_shared_partial",
    "C23_exact_partial",
    "C23_size_of_node"
   ],
   "note": "refinement proved for all histories of the calls described by m_allowed on files without data in the root; seeking past the end extends the file at once; false when a file of one block grows; also with links shared with nodes in hand (Alias.v); C23_exact_partial describes all calls, also those where the modifier is not like a file, by an exact machine (SpecExact.v), except reads with a stale reader, negative positions and files that cannot grow"
  },
  {
   "property": "C24",
   "status": "partial",
   "theorems": [
    "C24_writeat_partial",
    "C24_twice_refuted",
    "C24_same_place_refuted",
    "C24_after_sync_refuted",
    "C24_next_write_follows",
    "C24_at_position"
   ],
   "note": "proved after any allowed history when the write does not follow an unsynced write and does not hit the stale position; false otherwise: finding; what happens instead is proved for all histories"
  },
  {
   "property": "C25",
   "status": "partial",
   "theorems": [
    "C25_write_after_read_refuted",
    "C25_reads_do_not_move_writes"
   ],
   "note": "false for every history: reads never move the place of the next Write; finding"
  },
  {
   "property": "C26",
   "status": "partial",
   "theorems": [
    "C26_seek_end_refuted",
    "C26_seek_negative_refuted",
    "C26_seek_end_exact"
   ],
   "note": "false: finding; for every history Seek from the end goes to size minus offset; seeking relative to start and current position is part of C23"
  },
  {
   "property": "C27",
   "status": "partial",
   "theorems": [
    "C27_failed_sync_refuted"
   ],
   "note": "false: finding"
  },
  {
   "property": "C28",
   "status": "partial",
   "theorems": [
    "C28_read_truncated_refuted",
    "C28_truncate_seek_read_partial"
   ],
   "note": "false without a Seek in between: finding; proved with a Seek to another position in between"
  },
  {
   "property": "C29",
   "status": "proved",
   "theorems": [
    "C29_groups",
    "C29_end"
   ],
   "note": "widths 1 to 62; the model has no int overflow"
  },
  {
   "property": "C30",
   "status": "proved",
   "theorems": [
    "C30_new_shard",
    "C30_from_dag",
    "C30_names"
   ],
   "note": ""
  },
  {
   "property": "C31",
   "status": "proved",
   "theorems": [
    "C31_map",
    "C31_new"
   ],
   "note": "for every hash function with outputs of a fixed length of at least two bytes; links compared by size and target (names: C57)"
  },
  {
   "property": "C32",
   "status": "proved",
   "theorems": [
    "C32_too_deep",
    "C31_map"
   ],
   "note": "exact: too deep if and only if a new name collides with a stored one"
  },
  {
   "property": "C33",
   "status": "partial",
   "theorems": [
    "C33_empty_name_refuted"
   ],
   "note": "false: finding"
  },
  {
   "property": "C34",
   "status": "proved",
   "theorems": [
    "C34_one_shape"
   ],
   "note": ""
  },
  {
   "property": "C35",
   "status": "proved",
   "theorems": [
    "C35_reload",
    "C35_history",
    "C35_stored"
   ],
   "note": ""
  },
  {
   "property": "C36",
   "status": "proved",
   "theorems": [
    "C36_for_each",
    "C36_enum_links"
   ],
   "note": "ForEachLink and EnumLinks (not cancelled, see C60)"
  },
  {
   "property": "C37",
   "status": "proved",
   "theorems": [
    "C37_complete",
    "C37_sound",
    "C37_errors",
    "C37_no_panic",
    "C37_no_deadlock",
    "C37_ends"
   ],
   "note": "for any number of workers; completeness and the error claim for a context that is not cancelled (see C60), the others also with cancellation"
  },
  {
   "property": "C38",
   "status": "proved",
   "theorems": [
    "C38_basic_directory"
   ],
   "note": "nodes with duplicate names are excluded, see C66"
  },
  {
   "property": "C39",
   "status": "proved",
   "theorems": [
    "C39_dynamic_directory",
    "C39_total",
    "C39_no_panic",
    "C39_contents_cancelled"
   ],
   "note": ""
  },
  {
   "property": "C40",
   "status": "partial",
   "theorems": [
    "C40_history_dependent_refuted",
    "C40_growing_partial",
    "C40_shape_partial",
    "C40_window_partial",
    "C40_window_loaded_partial"
   ],
   "note": "false: a directory stays sharded after removals; finding. Proved: true as long as the size never falls from the threshold to below it; otherwise, below the threshold, a directory stays sharded only while at least as large as before it became sharded, or as when loaded. See also C63 and C41"
  },
  {
   "property": "C41",
   "status": "partial",
   "theorems": [
    "C41_up",
    "C41_down",
    "C41_others",
    "C41_deterministic",
    "C41_fixed_threshold",
    "C41_empty_refuted"
   ],
   "note": "proved for all directories except empty sharded ones, for which it is false when the threshold changes; finding. With one positive threshold throughout it is proved for those too"
  },
  {
   "property": "C42",
   "status": "proved",
   "theorems": [
    "C42_agrees_with_find",
    "C42_entry"
   ],
   "note": "any node accepted by NewDirectoryFromNode; for saved directories the entry itself"
  },
  {
   "property": "C43",
   "status": "proved",
   "theorems": [
    "C43_entries",
    "C43_complete",
    "C43_order",
    "C43_error",
    "C43_next_goes_on",
    "C43_next_bound"
   ],
   "note": "transition system of goroutine, channels and client; built and loaded directories, any cancellation point"
  },
  {
   "property": "C44",
   "status": "proved",
   "theorems": [
    "C44_roundtrip",
    "C44_bit",
    "C44_set",
    "C44_unset",
    "C44_index"
   ],
   "note": ""
  },
  {
   "property": "C45",
   "status": "proved",
   "theorems": [
    "C45_no_block_lost",
    "C45_old_versions"
   ],
   "note": ""
  },
  {
   "property": "C46",
   "status": "proved",
   "theorems": [
    "C46_canonical_encoding",
    "C46_canonical_unique"
   ],
   "note": ""
  },
  {
   "property": "C47",
   "status": "proved",
   "theorems": [
    "C47_decode",
    "C47_accessors"
   ],
   "note": ""
  },
  {
   "property": "C48",
   "status": "proved",
   "theorems": [
    "C48_balanced_tsize",
    "C48_trickle_tsize",
    "C48_encoded",
    "C48_node_size"
   ],
   "note": ""
  },
  {
   "property": "C49",
   "status": "proved",
   "theorems": [
    "C49_verify_exact"
   ],
   "note": ""
  },
  {
   "property": "C50",
   "status": "partial",
   "theorems": [
    "C50_trickle_total_partial",
    "C50_trickle_succeeds_partial",
    "C50_trickle_diverges",
    "C50_trickle_terminates_refuted"
   ],
   "note": "proved for Maxlinks >= 1; false for Maxlinks <= 0 with non-empty input"
  },
  {
   "property": "C51",
   "status": "proved",
   "theorems": [
    "C51_balanced_formats",
    "C51_trickle_formats",
    "C51_trickle_empty",
    "C06_default",
    "C12_default"
   ],
   "note": "trickle: leaves of non-empty input; for empty input the root is one dag-pb block whatever leaves are requested (C51_trickle_empty)"
  },
  {
   "property": "C52",
   "status": "proved",
   "theorems": [
    "C52_trickle_dense"
   ],
   "note": ""
  },
  {
   "property": "C53",
   "status": "partial",
   "theorems": [
    "C53_skip_refuted",
    "C16_reads_with_missing_blocks"
   ],
   "note": "true for missing blocks, false for undecodable leaves"
  },
  {
   "property": "C54",
   "status": "partial",
   "theorems": [
    "C54_append_failure_refuted"
   ],
   "note": "false: finding"
  },
  {
   "property": "C55",
   "status": "partial",
   "theorems": [
    "C55_truncate_negative_refuted",
    "C55_always_panics"
   ],
   "note": "false: it panics after every history; finding"
  },
  {
   "property": "C56",
   "status": "proved",
   "theorems": [
    "C56_write_sets",
    "C56_sync_clears",
    "C56_getnode_clears",
    "C56_clean_sync"
   ],
   "note": ""
  },
  {
   "property": "C57",
   "status": "partial",
   "theorems": [
    "C57_find_name_refuted",
    "C57_find_name_partial",
    "C57_changes_refuted"
   ],
   "note": "false: the name has the slot prefix, until ForEachLink is called; finding. Proved: the name ends with that of the entry, size and target are right"
  },
  {
   "property": "C58",
   "status": "partial",
   "theorems": [
    "C58_bitmap_too_long_refuted",
    "C58_bitmap_without_links_refuted",
    "C58_mixed_width_refuted",
    "C58_reading_partial",
    "C58_writing_partial",
    "C58_own_nodes_partial"
   ],
   "note": "false: bitmaps longer than the width, bits without links and mixed widths lead to panics; finding. Proved: reading, enumerating and walking never panic if no bitmap is longer than its width; changing and writing never panic if moreover all widths are equal, no node has more bits than links and all names have room for an index; nodes written by this package are such nodes"
  },
  {
   "property": "C59",
   "status": "partial",
   "theorems": [
    "C59_late_builder_refuted",
    "C59_flat_partial",
    "C59_among_partial"
   ],
   "note": "false with sub-shards: finding. Proved as long as no two names share a slot of the root; in general every shard has one of the builders set so far"
  },
  {
   "property": "C60",
   "status": "partial",
   "theorems": [
    "C60_cancelled_refuted",
    "C60_sound_partial",
    "C60_uncancelled_partial"
   ],
   "note": "false: a cancelled enumeration can return no error and no entries; finding. Proved: only entries are returned, each once, and all of them if the context is not cancelled"
  },
  {
   "property": "C61",
   "status": "proved",
   "theorems": [
    "C61_stored"
   ],
   "note": ""
  },
  {
   "property": "C62",
   "status": "partial",
   "theorems": [
    "C62_walk_still_running_refuted",
    "C62_no_leak_partial"
   ],
   "note": "false: the size check returns without waiting for its workers; finding. Proved: the workers left over end by themselves"
  },
  {
   "property": "C63",
   "status": "proved",
   "theorems": [
    "C63_one_root"
   ],
   "note": ""
  },
  {
   "property": "C64",
   "status": "partial",
   "theorems": [
    "C64_repeat_fails_refuted",
    "C64_repeat_partial"
   ],
   "note": "false: overwriting an entry changes the tracked size by minus two, so that the second call enumerates; finding. Proved: the repeat succeeds if every block can be fetched and stored"
  },
  {
   "property": "C65",
   "status": "partial",
   "theorems": [
    "C65_cancelled_shrinks_refuted"
   ],
   "note": "false: a cancelled enumeration looks like a complete one; finding"
  },
  {
   "property": "C66",
   "status": "partial",
   "theorems": [
    "C66_duplicate_names_refuted"
   ],
   "note": "false; finding. For nodes without duplicate names see C38"
  },
  {
   "property": "C67",
   "status": "proved",
   "theorems": [
    "C67_shrinks"
   ],
   "note": ""
  },
  {
   "property": "C68",
   "status": "partial",
   "theorems": [
    "C68_empty_path_refuted",
    "C42_entry"
   ],
   "note": "false: index out of range for sharded directories; finding. Non-empty paths do not panic (C42)"
  },
  {
   "property": "C69",
   "status": "partial",
   "theorems": [
    "C69_forms_differ_refuted",
    "C42_entry"
   ],
   "note": "false: sharded directories give the link name with the slot prefix and another error for missing names; finding. Size and target agree (C42)"
  },
  {
   "property": "C70",
   "status": "proved",
   "theorems": [
    "C70_path",
    "C70_missing"
   ],
   "note": ""
  },
  {
   "property": "C71",
   "status": "proved",
   "theorems": [
    "C71_file",
    "C71_link",
    "C71_directory"
   ],
   "note": ""
  },
  {
   "property": "C72",
   "status": "partial",
   "theorems": [
    "C72_abandoned_refuted",
    "C72_error_refuted",
    "C72_ends_iff",
    "C72_ends_always",
    "C72_drained"
   ],
   "note": "false: the goroutine blocks when four links are buffered, also after Next has returned false because of an error; finding. Exactly when it does end is proved"
  },
  {
   "property": "C73",
   "status": "proved",
   "theorems": [
    "C73_plain_node",
    "C73_raw_node"
   ],
   "note": "non-empty paths"
  },
  {
   "property": "C74",
   "status": "partial",
   "theorems": [
    "C74_snapshot_refuted",
    "C74_argument_refuted",
    "C74_frame_partial",
    "C74_frozen_partial",
    "C74_quiet_partial",
    "C74_cid_partial",
    "C74_fetched_cid_partial"
   ],
   "note": "false: Copy shares Link objects and modifyDag assigns to them, so a node from GetNode changes with the next write, even to a content the file never had, and the argument of NewDagModifier ends up with a CID of other links; finding. Proved: data, link names and sizes never change; with one modifier nodes change at most once; calls that write nothing change nothing; the CID of a node never changes"
  },
  {
   "property": "C75",
   "status": "partial",
   "theorems": [
    "C75_shared_refuted",
    "C75_separate_partial",
    "C75_separate_total"
   ],
   "note": "false for modifiers made from one node object; finding. Proved for modifiers made from separately fetched nodes, any number, any interleaving"
  },
  {
   "property": "C76",
   "status": "partial",
   "theorems": [
    "C76_sync_invisible_partial",
    "C76_writeat_refuted"
   ],
   "note": "proved for all histories without WriteAt; false with WriteAt: finding"
  },
  {
   "property": "C77",
   "status": "proved",
   "theorems": [
    "C77_tree_found",
    "C77_tree_published"
   ],
   "note": "resolving is repeated ResolveUnixfsOnce and fetching; names are not empty; every block can be fetched"
  },
  {
   "property": "C78",
   "status": "proved",
   "theorems": [
    "C78_contents",
    "C78_current",
    "C78_shard"
   ],
   "note": ""
  },
  {
   "property": "C79",
   "status": "proved",
   "theorems": [
    "C79_enumeration",
    "C79_prefix",
    "C79_cancelled",
    "C79_leak"
   ],
   "note": "The directory does not change while the goroutine ranges over its links."
  },
  {
   "property": "C80",
   "status": "partial",
   "theorems": [
    "C80_snapshot_refuted",
    "C80_truncation_refuted",
    "C80_removed_refuted"
   ],
   "note": "false: the links are read when the goroutine starts, and a cancelled enumeration closes the channel without an error; finding"
  },
  {
   "property": "C81",
   "status": "proved",
   "theorems": [
    "C81_objects_are_values",
    "C81_links_keep_target"
   ],
   "note": ""
  },
  {
   "property": "C82",
   "status": "partial",
   "theorems": [
    "C82_own_and_taken_links_partial",
    "C82_found_name_end_partial",
    "C82_walked_link_renamed_refuted",
    "C82_found_link_renamed_refuted"
   ],
   "note": "false for links from Find and ForEachLink, which are the directory's own objects; finding. Proved for links given to SetLink or got from Swap and Take"
  },
  {
   "property": "C83",
   "status": "partial",
   "theorems": [
    "C83_removing_in_callback_refuted",
    "C83_adding_in_callback_refuted"
   ],
   "note": "false: entries are skipped, with an error or silently; finding. With callbacks that leave the directories alone see C81"
  },
  {
   "property": "C84",
   "status": "partial",
   "theorems": [
    "C84_hash_length",
    "C84_every_long_name_refuted",
    "C84_two_names_refuted",
    "C84_same_hash_refused",
    "C84_other_hashes_partial"
   ],
   "note": "false: every name of 16 bytes or more has another with the same hash, and the second one is refused; finding. Proved for names with different hashes and the default width"
  },
  {
   "property": "C85",
   "status": "partial",
   "theorems": [
    "C85_crowded_small",
    "C85_cannot_grow_refuted",
    "C85_no_third_entry_refuted",
    "C85_sharded_apart"
   ],
   "note": "false: a basic directory with two names of equal hash refuses every AddChild that would reach the threshold; finding. For names that can be kept apart see C39 and C41"
  },
  {
   "property": "C86",
   "status": "proved",
   "theorems": [
    "C86_needed_blocks",
    "C86_other_blocks_missing",
    "C86_exactly_these",
    "C86_path_length"
   ],
   "note": ""
  },
  {
   "property": "C87",
   "status": "proved",
   "theorems": [
    "C87_every_history",
    "C87_any_dag",
    "C87_range",
    "C87_seek_exact"
   ],
   "note": ""
  },
  {
   "property": "C88",
   "status": "proved",
   "theorems": [
    "C88_needed_blocks",
    "C88_other_blocks_stay",
    "C88_blocks_written"
   ],
   "note": ""
  },
  {
   "property": "C89",
   "status": "partial",
   "theorems": [
    "C89_needed_blocks_partial",
    "C89_nothing_behind",
    "C89_only_the_cut_refuted",
    "C89_blocks_before_stay",
    "C89_blocks_written"
   ],
   "note": "false as stated; finding: dagTruncate fetches every child before the cut to learn its size although the parent records the sizes, so Truncate fails if a block that would stay unchanged is missing. Proved: the exact set of blocks needed (those holding the first byte cut off and, in their parents, the children before them), nothing behind the cut is fetched, what stays and what is written."
  },
  {
   "property": "C90",
   "status": "proved",
   "theorems": [
    "C90_balanced_blocks",
    "C90_trickle_blocks",
    "C90_balanced_closed",
    "C90_trickle_closed",
    "C90_append_closed"
   ],
   "note": ""
  },
  {
   "property": "C91",
   "status": "proved",
   "theorems": [
    "C91_append_fetches",
    "C91_append_writes",
    "C91_append_keeps"
   ],
   "note": "for files that are appendable; C14 says which are and what happens to others"
  },
  {
   "property": "C92",
   "status": "partial",
   "theorems": [
    "C92_modifier_closed_partial",
    "C92_modifier_closed_errors_partial",
    "C92_modifier_complete_partial",
    "C92_modifier_after_failure_refuted"
   ],
   "note": "false as stated; finding: if an Add fails during Truncate, the modifier keeps a node changed in place whose new child is not in the store; a later Truncate succeeds and stores a root that lacks this child. Proved up to and including the first failing call, and for all histories if all Adds work."
  },
  {
   "property": "C93",
   "status": "partial",
   "theorems": [
    "C93_shard_closed",
    "C93_shard_complete",
    "C93_directory_closed_partial",
    "C93_directory_closed_refuted"
   ],
   "note": "false as stated; finding: AddChild of a sharded directory stores the node added, that of a BasicDirectory does not. Proved for sharded directories, and for all directories if the client stores the nodes it adds."
  },
  {
   "property": "C94",
   "status": "proved",
   "theorems": [
    "C94_balanced_determined",
    "C94_trickle_determined",
    "C94_append_determined",
    "C94_injective"
   ],
   "note": "a CID stands for the block it names: hash collisions are excluded by the model (DESIGN.md)"
  },
  {
   "property": "C95",
   "status": "partial",
   "theorems": [
    "C95_modified_partial",
    "C95_other_encodings_refuted",
    "C95_imports",
    "C95_append",
    "C95_true_size"
   ],
   "note": "proved for all files this library makes; false for files with leaves that another program encoded in another way (e.g. a varint with padding); finding: overwriting re-encodes such a leaf but keeps the size in the link above it"
  },
  {
   "property": "C96",
   "status": "proved",
   "theorems": [
    "C96_shard",
    "C96_directory",
    "C96_true_size"
   ],
   "note": ""
  },
  {
   "property": "C97",
   "status": "proved",
   "theorems": [
    "C97_shared",
    "C97_written",
    "C97_few",
    "C97_kept"
   ],
   "note": ""
  },
  {
   "property": "C98",
   "status": "partial",
   "theorems": [
    "C98_changes",
    "C98_owner",
    "C98_frozen",
    "C98_left",
    "C98_fresh",
    "C98_load",
    "C98_apart",
    "C98_add",
    "C98_remove",
    "C98_get",
    "C98_builder",
    "C98_new",
    "C98_loaded",
    "C98_threshold",
    "C98_snapshot_refuted",
    "C98_edit_refuted"
   ],
   "note": "independence of directories proved at the level of node objects; false for the snapshot claim: the node of a basic directory is the live one, and changing it breaks the size estimate; finding"
  },
  {
   "property": "C99",
   "status": "partial",
   "theorems": [
    "C99_append_import_partial",
    "C99_append_import_differs",
    "C99_append_import_begun",
    "C99_append_import_exact",
    "C99_append_import_refuted"
   ],
   "note": "false; finding. For a first part of up to 4*Maxlinks chunks it is proved exactly when the roots are the same: if the first part has more than Maxlinks chunks, or all together have at most 2*Maxlinks. A first part of more than 4*Maxlinks chunks is covered by the refutation only"
  }
 ]
}