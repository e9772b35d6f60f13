{"claims": [
 {"property": "C01", "status": "proved", "theorems": ["tree_is_finite_map"], "note": ""},
 {"property": "C02", "status": "proved", "theorems": ["tree_balanced"], "note": ""},
 {"property": "C03", "status": "proved", "theorems": ["tree_iterates_each_node_once"], "note": "count is a uint32_t, so modulo 2^32"},
 {"property": "C04", "status": "proved", "theorems": ["tree_operations_stay_inside"], "note": ""},
 {"property": "C05", "status": "proved", "theorems": ["cache_get_returns_loaded_data"], "note": "for a collision free hash, as both hashes of the library are"},
 {"property": "C06", "status": "proved", "theorems": ["cache_entry_in_use_is_stable", "cache_entry_data_unchanged_while_stored"], "note": ""},
 {"property": "C07", "status": "proved", "theorems": ["cache_evicts_least_recently_used"], "note": ""},
 {"property": "C08", "status": "proved", "theorems": ["cache_refuses_iff_shard_fully_held"], "note": ""},
 {"property": "C09", "status": "partial", "theorems": ["cache_serves_configured_concurrency", "cache_large_capacity_refuted"], "note": "proved when the total slot count is below 2^31; refuted beyond that (int32_t storage)"},
 {"property": "C10", "status": "partial", "theorems": ["cache_shard_in_range", "cache_shard_int_min_refuted"], "note": "proved for every hash except those whose low 32 bits are INT_MIN, where it is refuted"},
 {"property": "C11", "status": "partial", "theorems": ["cache_statistics_partial", "cache_statistics_race_refuted", "lock_counters_one_shard", "lock_counters_refuted"], "note": "proved when counter updates do not overlap, and for every interleaving of threads with one shard (lock_counters_one_shard); missing: concurrent gets in different shards, where it is refuted (shared counters, separate locks)"},
 {"property": "C12", "status": "proved", "theorems": ["collection_get_returns_item", "collection_configurations_agree", "collection_create_succeeds"], "note": "A get of a stored item yields the file's bytes in every configuration after any history; with a cache whose slots are all in use NULL is returned (shardFull). With a cache, index 2^31 is excluded (undefined shard selection, C10)."},
 {"property": "C13", "status": "partial", "theorems": ["collection_out_of_range", "collection_empty_status_refuted", "collection_get_inside_region", "collection_get_outside_region_refuted"], "note": "refuted for variable width items: an offset inside the collection where no item starts can return bytes past the collection's region; also a full cache reports no status. Positive theorems: out of range always gives NULL, and bytes stay in the region for fixed width or true item offsets."},
 {"property": "C14", "status": "partial", "theorems": ["collection_usable_after_failures_refuted", "collection_get_succeeds_below_concurrency"], "note": "refuted: every failed get of a cached collection leaves a slot in use for ever, so valid gets later return NULL. Positive: gets succeed while held items plus failed gets are fewer than the concurrency."},
 {"property": "C15", "status": "proved", "theorems": ["binary_search_correct"], "note": "Bounds with upper < 2^32-1; at most 33 rounds."},
 {"property": "C16", "status": "partial", "theorems": ["binary_search_error_refuted", "binary_search_clear_exception", "binary_search_exception", "binary_search_last_refuted"], "note": "refuted: an error returns 0, the first index, and if a full cache caused it no exception is set. Positive: a result with clear exception is right if failing gets set the exception."},
 {"property": "C17", "status": "proved", "theorems": ["pool_item_has_one_user"], "note": "all interleavings of the individual shared memory accesses; window of C17 as hypothesis"},
 {"property": "C18", "status": "proved", "theorems": ["pool_conserves_items", "pool_refuses_only_when_empty"], "note": ""},
 {"property": "C19", "status": "partial", "theorems": ["pool_unbounded_window_refuted", "pool_item_has_one_user"], "note": "refuted: explicit schedule with 65536 exchanges hands an item out twice; holds with the window bound (C17)"},
 {"property": "C20", "status": "partial", "theorems": ["pool_holds_configured_number", "pool_concurrency_65535_refuted"], "note": "proved for every concurrency below 65535; refuted at 65535, where concurrency + 1 wraps in uint16_t"},
 {"property": "C21", "status": "proved", "theorems": ["resource_in_use_never_freed", "resource_unused_is_freed", "resource_count_in_range"], "note": "all interleavings of the individual shared memory accesses; in this model a freed handle block is not reused; C119's reuse_held_not_freed is the same for a heap that reuses them, see also C61"},
 {"property": "C22", "status": "proved", "theorems": ["resource_sequential"], "note": "threads one at a time, any number of users"},
 {"property": "C23", "status": "partial", "theorems": ["resource_concurrent_replace_refuted", "resource_replace_one_at_a_time"], "note": "refuted: explicit schedule of two replaces leaves a resource neither active, held nor freed; holds when replaces do not overlap"},
 {"property": "C24", "status": "proved", "theorems": ["ip_v4_parses"], "note": "For every text end (end of string, space, comma)."},
 {"property": "C25", "status": "proved", "theorems": ["ip_v6_parses", "ip_v6_mixed_parses"], "note": "All eight-group and ::-abbreviated texts, any case and padding, also with the last four bytes in IPv4 notation."},
 {"property": "C26", "status": "partial", "theorems": ["ip_parse_in_bounds", "ip_parse_out_of_bounds_refuted"], "note": "refuted: texts with more than 4 dotted or 8 colon parts, or two abbreviations, write past the allocation. Positive theorem under the matching limits."},
 {"property": "C27", "status": "proved", "theorems": ["ip_compare_is_numeric", "ip_compare_total_order"], "note": ""},
 {"property": "C28", "status": "partial", "theorems": ["ip_wrapper_copy_refuted", "ip_wrapper_keeps_bytes"], "note": "refuted: getCopyOfIpAddress copies 0 (IPv4) or 1 (IPv6) bytes. Positive: the object keeps all bytes."},
 {"property": "C29", "status": "proved", "theorems": ["string_compare_is_order"], "note": "Holds for all character values, not only ASCII."},
 {"property": "C30", "status": "partial", "theorems": ["string_substring_refuted", "string_substring_spec", "string_substring_exact"], "note": "refuted: an end of the text that begins like the searched text counts as an occurrence, an empty text is never found. Positive: exact characterisation of the result, and first occurrence when the text does not end inside the searched text."},
 {"property": "C31", "status": "partial", "theorems": ["float_encode_decode", "float_encode_decode_refuted", "float_decode_encode", "float_decode_encode_refuted"], "note": "refuted for subnormal numbers below half the least normal number, minus infinity, minus zero and IEEE infinity/NaN patterns. The positive theorems give exactly the set of values and patterns that round-trip."},
 {"property": "C32", "status": "partial", "theorems": ["headers_overflow_refuted", "headers_no_overflow"], "note": "refuted: a name with one segment and a leading or trailing separator gets one slot and writes two. Positive for all data sets without such names."},
 {"property": "C33", "status": "proved", "theorems": ["headers_exact", "headers_no_overflow"], "note": ""},
 {"property": "C34", "status": "partial", "theorems": ["header_index", "header_index_short_refuted"], "note": "refuted only for one character names: HTTP_X is not stripped. header_index gives the exact behaviour for all names."},
 {"property": "C35", "status": "proved", "theorems": ["pseudo_construct_inside", "pseudo_add_inside", "pseudo_count_enough", "pseudo_add_capacity_refuted"], "note": "For every buffer of at least one byte (an empty one is not written to). Besides, the array of pseudo evidence is overrun when sized by the reported pseudo header count and a name with one segment has a separator (pseudo_add_capacity_refuted)."},
 {"property": "C36", "status": "partial", "theorems": ["pseudo_add_exact", "pseudo_adds_unique", "pseudo_missing_segment_refuted"], "note": "refuted without the fit condition: with a buffer that is too small evidence is added although a segment is missing. Proved when the joined values fit."},
 {"property": "C37", "status": "proved", "theorems": ["pseudo_remove", "pseudo_rounds"], "note": ""},
 {"property": "C38", "status": "proved", "theorems": ["evidence_iterate", "evidence_add"], "note": ""},
 {"property": "C39", "status": "proved", "theorems": ["evidence_map_prefix", "evidence_prefix_round_trip"], "note": "Field of at least one character."},
 {"property": "C40", "status": "proved", "theorems": ["override_values_distinct", "override_last_wins"], "note": "Every history; no more properties with a value than the capacity less one when one is added (roomy), as the property requires the capacity not exceeded; sizes kept in int16 as stored."},
 {"property": "C41", "status": "partial", "theorems": ["override_update_full_refuted", "override_return_refuted", "override_add_exact"], "note": "Refuted: a full array drops updates and the return value does not tell whether the value was stored. Proved: exactly when a value is stored and what the return value tells."},
 {"property": "C42", "status": "proved", "theorems": ["profile_ids_runs", "profile_ids_evidence", "profile_ids_large_refuted"], "note": "For numbers up to 2^31-1, as the property says whose numbers fit; larger ones are refuted."},
 {"property": "C43", "status": "proved", "theorems": ["properties_request_total", "properties_available", "insertion_sorts", "properties_same_names_refuted"], "note": "For data sets no two of whose names are the same ignoring case (refuted otherwise) and any qsort that sorts; a string none of whose names are known gives NULL, an array an empty list."},
 {"property": "C44", "status": "proved", "theorems": ["properties_lookup", "properties_lookup_refuted"], "note": "ASCII names as the property says; refuted for other characters."},
 {"property": "C45", "status": "proved", "theorems": ["memory_totals", "memory_total_at_rest", "memory_reset_refuted", "memory_large_refuted", "memory_null_refuted"], "note": "For every interleaving of the locked sections of any number of threads. Outside the quantifier: a reset between an allocation and its free, sizes of 2^32 and more and failed allocations break it (refuted theorems)."},
 {"property": "C46", "status": "partial", "theorems": ["reader_advances", "reader_wrap_refuted"], "note": "Refuted for amounts that go around the address space; proved for all others, with equivalence and exact sums."},
 {"property": "C47", "status": "partial", "theorems": ["aligned_size", "aligned_size_refuted"], "note": "Refuted: size + size % alignment is a multiple of the alignment only for the residues 0 and alignment/2 (proved exactly); it is never smaller than the size."},
 {"property": "C48", "status": "partial", "theorems": ["yaml_documents", "yaml_all_documents", "yaml_buffer_length", "yaml_limit_zero_refuted", "yaml_full_document_refuted", "yaml_empty_refuted"], "note": "Refuted as stated: a limit of zero still delivers a document, a document with as many pairs as buffers uses a pair after the last one, and an empty file or first line delivers a pair that is not there. Proved for every list of documents that leave one pair unused, every buffer length of at least one and every limit except zero; documents without pairs are not delivered."},
 {"property": "C49", "status": "partial", "theorems": ["yaml_safe", "yaml_outside_refuted"], "note": "Refuted as stated: a colon after ---, a value that is a single quote and too many lines use memory outside the buffers. Proved for every content without these."},
 {"property": "C50", "status": "partial", "theorems": ["text_file_lines", "lines_unique", "text_file_large_buffer", "text_file_lost_refuted", "text_file_read_before_refuted", "text_file_empty_line_refuted"], "note": "Refuted when a text from after an end of line to the end of the file has just the length of the buffer (lines lost or a read before the buffer), for empty files, and for limits with \\r\\n cut by the buffer. Proved with and without limit for all other contents and buffers."},
 {"property": "C51", "status": "partial", "theorems": ["profile_values", "profile_values_all", "profile_values_overread_refuted"], "note": "Proved when a further word can be read after the profile. Refuted without it: when the property's values are the last of the profile the loop reads the word after it."},
 {"property": "C52", "status": "partial", "theorems": ["profiles_with_value", "profiles_unknown_property", "profiles_overread_refuted", "profiles_wrong_refuted", "profiles_only_with_value"], "note": "Proved for readable data sets with a word after each profile. Refuted otherwise: the over-read of C51, and a name that cannot be read without an exception counts as found."},
 {"property": "C53", "status": "proved", "theorems": ["list_refines", "list_freed", "list_failed_init_refuted", "list_reset_refuted"], "note": "For every sequence of operations used as list.h says. The refutations are of uses it does not describe: freeing after ListInit failed, resetting a list in use."},
 {"property": "C54", "status": "partial", "theorems": ["config_list", "config_default", "config_string", "config_string_one", "config_string_first", "config_string_refuted"], "note": "Proved for lists, and exact answers for strings. Refuted for strings: queries cut the string after its first name, and the count is that of commas."},
 {"property": "C55", "status": "partial", "theorems": ["reload_history", "reload_fails", "reload_held", "reload_overlap_refuted", "reload_no_handle_refuted"], "note": "Proved for reloads that do not overlap; what users hold is never freed in any history. Refuted: overlapping reloads use the freed data set's properties; a handle that cannot be allocated is used as NULL. The methods of resource.c are single steps."},
 {"property": "C56", "status": "partial", "theorems": ["signal_not_lost", "signal_returns", "signal_returns_alone", "signal_one_each", "signal_exclusive", "signal_initial_refuted", "signal_two_sets_refuted"], "note": "Proved for every interleaving and any number of threads: no lost wake-up, the threads come to rest in a bounded number of steps with a wait returned, and two returns have a set between them. Refuted as stated: the signal is created set, so the first wait returns without a set; two sets before a woken thread runs release only one waiter. Calls of pthread functions in it that fail are not modelled; for creating and closing see C117."},
 {"property": "C57", "status": "partial", "theorems": ["path_name", "path_names_match", "path_file_name", "path_base_name", "path_base_name_safe", "path_base_name_of", "path_file_name_refuted", "path_base_name_refuted", "path_base_name_of_refuted"], "note": "getNameFromPath and the comparison of names are proved for every path; FileGetFileName for paths with a separator. Refuted without: FileGetFileName loses the first character of a path without separator, FileGetBaseName is NULL for any path with '/', getBasenameWithoutExtension fails for a file without extension in a directory with a dot."},
 {"property": "C58", "status": "partial", "theorems": ["compare_files", "compare_files_missing", "compare_files_overflow_refuted", "compare_files_empty_refuted"], "note": "Proved for non-empty first files with bytesToCompare or the file within 1024 bytes (and whole file comparisons of at most 1024). Refuted otherwise: bytesToCompare over 1024 overflows the comparison buffers, an empty file equals any file."},
 {"property": "C59", "status": "proved", "theorems": ["pool_frees_each_created_resource_once"], "note": ""},
 {"property": "C60", "status": "proved", "theorems": ["pool_is_lock_free"], "note": ""},
 {"property": "C61", "status": "partial", "theorems": ["resource_handle_use_after_free_refuted", "resource_release_use_after_free_refuted", "resource_sequential", "calm_safe", "calm_one_replace_refuted"], "note": "refuted under concurrency by explicit schedules, with one replace too; holds for threads one at a time and for overlapping gets and releases when a replace makes its exchange while no other call is in progress"},
 {"property": "C62", "status": "partial", "theorems": ["resource_get_was_active", "resource_get_null_refuted", "calm_safe"], "note": "linearizability proved for all interleavings; that NULL is never returned is refuted by an explicit schedule and proved when a replace makes its exchange while no other call is in progress"},
 {"property": "C63", "status": "partial", "theorems": ["item_reuse_after_failed_read_refuted", "item_release_after_failed_get_refuted", "item_memory_safe", "item_release_frees_memory"], "note": "refuted: after a failed read the item keeps the freed pointer; a failed get makes the release of an item leak. Positive theorems for sequences without a read failing after allocation."},
 {"property": "C64", "status": "proved", "theorems": ["ip_list_parses"], "note": ""},
 {"property": "C65", "status": "partial", "theorems": ["ip_free_refuted"], "note": "refuted: free is given a pointer inside the block for every address; nothing positive holds (the only non-refuted case is the empty list)."},
 {"property": "C66", "status": "partial", "theorems": ["string_compare_length_spec", "string_compare_length_overread_refuted"], "note": "refuted: with two equal texts shorter than the length both terminators are passed. Positive when one text has at least that many characters."},
 {"property": "C67", "status": "proved", "theorems": ["float_decode_value", "float_is_equal"], "note": ""},
 {"property": "C68", "status": "proved", "theorems": ["header_from_unique_id"], "note": "For distinct ids; id 0 is also the id of all segments (shown in the example)."},
 {"property": "C69", "status": "proved", "theorems": ["override_properties", "overrides_extract", "overrides_extract_full_refuted"], "note": "Refuted when the capacity equals the number of overridable properties: the value that fills the array ends the extraction."},
 {"property": "C70", "status": "proved", "theorems": ["overriding_property"], "note": ""},
 {"property": "C71", "status": "partial", "theorems": ["set_header_refuted", "set_header_exact"], "note": "Refuted: a property named by a beginning of SetHeader counts too. Proved: exactly when the result is true."},
 {"property": "C72", "status": "proved", "theorems": ["properties_references"], "note": "Source methods that answer the same each time; Malloc does not fail."},
 {"property": "C73", "status": "partial", "theorems": ["profile_by_id", "profile_get_by_id", "profile_by_id_refuted"], "note": "Proved for non-empty readable collections. Refuted otherwise: with no profiles or an unreadable item a NULL or stale pointer is used."},
 {"property": "C74", "status": "partial", "theorems": ["profiles_with_value", "released_with_other_refuted"], "note": "Each item is released exactly once (balanced in profiles_with_value). Refuted: two kinds of item are released with the method of another collection."},
 {"property": "C75", "status": "partial", "theorems": ["data_malloc", "data_malloc_refuted"], "note": "Proved for sizes from 1 to 2^32-1. Refuted for 0 and 2^32: the block is forgotten."},
 {"property": "C76", "status": "partial", "theorems": ["config_same_names", "config_same_names_refuted"], "note": "Proved for commas without empty parts. Refuted for the separators | and space."},
 {"property": "C77", "status": "partial", "theorems": ["reload_files", "reload_files_refuted"], "note": "Proved when each data set has its own temp file. Refuted when a reload uses the temp file again."},
 {"property": "C78", "status": "partial", "theorems": ["temp_found", "temp_found_safe", "temp_found_refuted", "temp_found_none_refuted"], "note": "Proved for the first path. Refuted for the others: only paths[0] is searched, and with no paths opendir(\"\") fails and nothing is found."},
 {"property": "C79", "status": "partial", "theorems": ["temp_deleted", "temp_deleted_refuted", "temp_deleted_others_refuted", "temp_deleted_none_refuted"], "note": "Proved for the first path, the count modulo 256. Refuted: the count is one byte, copies in other paths are kept, without paths nothing is deleted."},
 {"property": "C80", "status": "partial", "theorems": ["copy_exact", "copy_succeeds", "copy_same_refuted", "copy_errors_refuted"], "note": "Proved for different paths without read or close errors. Refuted: a copy onto itself empties the file; read, seek and close errors give success with missing bytes."},
 {"property": "C81", "status": "partial", "theorems": ["new_temp", "new_temp_is_copy", "new_temp_here", "new_temp_cleared", "new_temp_succeeds", "new_temp_paths", "create_temp", "create_temp_any", "new_temp_overflow_refuted", "new_temp_each_refuted", "new_temp_last_refuted", "new_temp_cleared_refuted"], "note": "Proved for one path and none, and for FileCreateTempFile with any paths; with several paths that one copy at most is made in each and nothing else changes; that it succeeds when it can; that the name is cleared after a failure with paths. Refuted: a copy is made in every path and the status is the last one's; a buffer as long as the directory is overflowed; without paths the name is not always cleared."},
 {"property": "C82", "status": "partial", "theorems": ["read_file", "read_file_refuted", "write_file"], "note": "Proved for non-empty content. Refuted for empty files, which give FILE_FAILURE."},
 {"property": "C83", "status": "partial", "theorems": ["data_path", "data_path_root_refuted"], "note": "Proved for the working directory and each ancestor but the root. Refuted for the root, which is never tested."},
 {"property": "C84", "status": "partial", "theorems": ["status_message", "status_known", "status_default", "status_default_refuted", "exception_message", "exception_message_refuted"], "note": "Refuted for numbers of more than 7 characters and when memory is short, and for NULL file or function; proved otherwise."},
 {"property": "C85", "status": "partial", "theorems": ["component_size", "component_list", "component_list_fails", "component_list_refuted", "component_name", "component_profile", "component_profile_fails", "component_pair", "component_pair_outside", "component_pair_refuted"], "note": "Refuted: the index that is the count of pairs is accepted; the list does not end when a get returns NULL without an exception. All else proved."},
 {"property": "C86", "status": "partial", "theorems": ["evidence_map", "evidence_map_total", "evidence_map_copy_refuted"], "note": "Proved for an object that is not copied. Refuted for copies: the implicit copy constructor shares the array, which is freed twice."},
 {"property": "C87", "status": "partial", "theorems": ["engine_override_keys", "engine_header_keys", "engine_keys", "engine_keys_understood", "engine_keys_understood_refuted", "engine_update_url"], "note": "Proved for names that are not empty. Refuted for an empty header name, whose keys evidence does not accept."},
 {"property": "C88", "status": "partial", "theorems": ["results_string", "results_string_refuted", "results_bool", "results_integer", "results_integer_refuted", "results_double", "results_many", "results_values", "results_empty", "results_none", "results_none_refuted", "results_never", "results_properties", "results_by_name"], "note": "Refuted: a value with a bar is ambiguous in the string; numbers outside int are undefined and other texts are 0; the message is lost for NO_MATCHED_NODES and NULL_PROFILE. Proved otherwise."},
 {"property": "C89", "status": "partial", "theorems": ["config_set", "config_destroyed", "config_freed", "config_freed_refuted", "config_memory_refuted", "config_no_dirs"], "note": "Refuted for memory: setting the directories twice leaks, a failed allocation is written to. Proved: the settings are those of the last calls, and all memory is freed if directories are set at most once."},
 {"property": "C90", "status": "partial", "theorems": ["file_pool_ready", "file_pool_not_opened", "file_pool_released", "file_pool_none", "file_pool_memory", "file_pool_error_before", "file_pool_left_refuted", "file_pool_length_refuted", "file_pool_no_exception_refuted"], "note": "Refuted: a failed initialisation leaves handles open, a length that cannot be read is a success with -1, and callers without an exception get pools with missing handles. Proved for all concurrencies to 65534: the handles, the statuses, and that a release closes exactly what was opened."},
 {"property": "C91", "status": "partial", "theorems": ["dataset_file_direct", "dataset_file_long", "dataset_file_new", "dataset_file_reused", "dataset_file_keeps", "dataset_file_left_refuted", "dataset_file_content_refuted"], "note": "Refuted with several temp directories, where copies are left, and for partial comparison, where a reused file may differ. Proved otherwise."},
 {"property": "C92", "status": "partial", "theorems": ["ip_unmarked_refused", "ip_wrong_text_refuted"], "note": "Refuted: many texts that are no addresses are given a type and bytes. Proved for texts without dots and colons."},
 {"property": "C93", "status": "partial", "theorems": ["value_index_by_name", "value_by_name", "value_exception", "value_index_no_values_refuted", "value_address_refuted", "value_unread_refuted"], "note": "Proved for readable values of one form in increasing order and texts of that form or of no form. Refuted: a property without values, no memory for an address, texts with too few or many numbers, and gets that give NULL without an exception."},
 {"property": "C94", "status": "partial", "theorems": ["string_read_whole", "strings_are_items", "string_negative_size_refuted"], "note": "Proved for sizes from 0 to 2^15-1. Refuted for the sizes -1 and -2, for which the memory is too small."},
 {"property": "C95", "status": "partial", "theorems": ["coordinate_read", "coordinate_other", "coordinate_size_refuted"], "note": "Proved for the floats that keep their value (C31). Refuted for a string that is too short, whose size is not tested."},
 {"property": "C96", "status": "partial", "theorems": ["collection_freed", "collection_refused", "collection_created", "collection_defined", "cache_room", "collection_cache_leak_refuted", "collection_null_used_refuted"], "note": "Proved for all creations that return, with all later loads, when the cache can be made and the allocations the code does not test succeed. Refuted: a cache that cannot be made leaks its source; createCollection's and createFromFile's NULL is used."},
 {"property": "C97", "status": "partial", "theorems": ["memory_collection_freed", "memory_only_collection_freed", "memory_collection_defined", "memory_collection_null_refuted"], "note": "Proved for all creations that return. Refuted: without memory for the collection NULL is used."},
 {"property": "C98", "status": "partial", "theorems": ["headers_memory", "headers_lost", "headers_refused_refuted"], "note": "Proved for names without an empty part beside a single one (others overflow, see C33): creation is always defined, headers created have their memory and freeing restores the heap. Refuted that a failed creation leaves the memory as it was: when the name or segments of a header of the data set cannot be allocated its item and name, at most two blocks, are lost; with no such failure nothing is left."},
 {"property": "C99", "status": "partial", "theorems": ["properties_memory", "properties_status", "properties_unread_one", "properties_unread_refuted", "properties_dangling_refuted", "properties_no_memory_refuted"], "note": "Freeing restores the heap whenever creation is defined; statuses are exact when all names can be read. Refuted that an unreadable name is reported: with two or more properties the sort uses it, a name whose read failed is used after its memory was freed; missing memory is reported as REQ_PROP_NOT_PRESENT."},
 {"property": "C100", "status": "partial", "theorems": ["dataset_freed", "dataset_headers_status", "dataset_reset_freed_refuted", "dataset_init_twice_refuted"], "note": "Proved for data sets with a configuration, each part set at most once between frees, readable names and no failing allocation for headers of the data set. Refuted without: a data set just reset has a NULL configuration that freeing uses, and initialising a part again leaks the first."},
 {"property": "C101", "status": "proved", "theorems": ["key_order", "key_strict", "entity_equal"], "note": "The order is reversed, as its comment says."},
 {"property": "C102", "status": "proved", "theorems": ["value_copy", "profile_copy", "component_copy", "property_copy"], "note": "Component ids and display orders are bytes."},
 {"property": "C103", "status": "partial", "theorems": ["meta_string", "meta_string_refuted"], "note": "Proved for stored strings with a zero, read from a file. Refuted for those without: memory after the item is read."},
 {"property": "C104", "status": "partial", "theorems": ["status_exception", "status_exception_code", "fatal_exception", "text_exceptions", "fatal_exception_refuted", "invalid_property_refuted"], "note": "Refuted for the code of a fatal exception, which is never set, and for an invalid property with a NULL text; all else is proved."},
 {"property": "C105", "status": "proved", "theorems": ["setting_last", "setting_kept", "date_bytes", "bool_int"], "note": "Numbers are in the range of the types; little endian."},
 {"property": "C106", "status": "partial", "theorems": ["results_memory", "results_defined", "override_no_memory_refuted"], "note": "Proved for texts of up to 2^32 - 12 characters; all is defined if memory is granted and the list has room for what is read. Refuted when memory for a text is missing: NULL is written to."},
 {"property": "C107", "status": "partial", "theorems": ["override_held", "override_stale_refuted"], "note": "Proved until the property's value is set again or the overrides are reset. Refuted otherwise: the memory is freed while lists refer to it."},
 {"property": "C108", "status": "partial", "theorems": ["component_list_memory", "component_list_refuted"], "note": "Proved for every failing read; refuted that missing memory for the list is reported."},
 {"property": "C109", "status": "partial", "theorems": ["header_describes", "collection_count", "header_end_refuted", "header_position_refuted", "header_count_refuted"], "note": "Proved for collections that are stored in the first 4 gigabytes with a length that fits 32 bits. Refuted otherwise: a file that ends before the header gives values that are not set, a position wraps, and a count whose length wraps is accepted and its items are read at byte offsets."},
 {"property": "C110", "status": "proved", "theorems": ["db_strings", "db_property", "value_type_missing", "db_value", "db_profile", "db_profile_id"], "note": "With fewer items of a cache in use than its concurrency (see C12), and 32 bit lengths of the collections."},
 {"property": "C111", "status": "proved", "theorems": ["db_property_by_name", "db_profiles_with_value", "db_profiles_unknown", "db_profile_by_id", "db_profile_values"], "note": "Names of a property's values are sorted and not coordinates or IP addresses, and no profile ends with a value of the property (see C112)."},
 {"property": "C112", "status": "partial", "theorems": ["db_profile_values", "db_configurations_refuted"], "note": "Proved (db_profile_values, for all configurations) when the last value of the profile is not one of the property. Refuted otherwise: the value after the last is read, which is there in memory but not in an item read from the file."},
 {"property": "C113", "status": "partial", "theorems": ["release_fits", "release_unfit_refuted"], "note": "Refuted for methods that do not fit: the release is undefined or something is kept (release_unfit_refuted). Proved for all that fit (release_fits), which is a table of the methods of the collections of the chain. Items of the first of two collections are not part of the refutation."},
 {"property": "C114", "status": "partial", "theorems": ["calls_property_by_name", "calls_property_unknown", "calls_value_type", "calls_value_index", "calls_value_by_name", "calls_profiles_with_value", "calls_profiles_unknown", "calls_profile_by_index", "calls_profile_by_id", "calls_value_index_empty_refuted"], "note": "Proved for properties with values and, for the two searches that release items with another collection's method, for collections that fit. Refuted for a property without values: an item that was never set is released (calls_value_index_empty_refuted)."},
 {"property": "C115", "status": "partial", "theorems": ["calls_property_unfit_refuted", "calls_property_wrong_refuted", "calls_profiles_missing_refuted", "calls_profiles_kept_refuted", "calls_failure_refuted", "calls_full_refuted"], "note": "Refuted: with unlike collections the first property is undefined or keeps something (general), another property is returned, profiles are missed, memory is kept or it is undefined; after a failed read the property or file handles are kept although the collections fit; with all nodes of a cache in use a property that is there is not found and the exception is clear."},
 {"property": "C116", "status": "partial", "theorems": ["failing_value_type", "failing_property_by_name", "failing_value_index", "failing_value_by_name", "failing_profiles", "failing_profile_by_index", "failing_profile_by_id", "failing_profile_by_id_refuted"], "note": "Refuted for searches of profiles by id when the profile offsets are read from a file and such a read fails: the offset is read from an item that holds nothing (failing_profile_by_id_refuted). Proved for all other searches, and for this one with the profile offsets in memory. After a failure a property returned with the exception set may have another name, file handles may be lost in the iteration (C115) and a node of each cache may stay in use."},
 {"property": "C117", "status": "partial", "theorems": ["signal_life_defined", "signal_life_mutexes", "signal_life_memory", "signal_life_memory_refuted", "signal_life_conds", "signal_life_conds_refuted"], "note": "Refuted for memory: SignalClose frees nothing, so the heap keeps a block for each signal ever created (exact); refuted for condition variables when the mutex cannot be initialised. Proved for mutexes, for creations that fail otherwise and that all is defined."},
 {"property": "C118", "status": "partial", "theorems": ["threads_answers", "threads_defined", "threads_return", "threads_steps", "threads_restored", "threads_alone", "threads_too_many_refuted"], "note": "Refuted when the calls running and the items kept are more than the caches were made for: a stored property is not found and no exception is set. Proved when they are at most the concurrency of the caches, for any number of threads and every interleaving of gets and releases."},
 {"property": "C119", "status": "partial", "theorems": ["reuse_held_not_freed", "reuse_as_without", "reuse_never_freed", "reuse_get_was_active", "reuse_sequential", "reuse_active_freed_refuted"], "note": "Refuted when a block can be handed out while a thread still has a pointer to it: the active resource is freed (reuse_active_freed_refuted). That a resource is not freed while held, nor twice, is proved for every choice of blocks; the rest where blocks with pointers to them are kept back, and for one thread at a time"},
 {"property": "C120", "status": "partial", "theorems": ["lock_atomic", "lock_never_stuck", "lock_excludes", "lock_finishes", "lock_data_kept", "lock_counters_one_shard", "lock_counters_refuted", "lock_assert_race_refuted"], "note": "Refuted for the counters with more than one shard (a lost increment) and for the use of an entry with its lock (the assert after the unlock reads activeCount). The rest is proved for every interleaving, the counters for one shard."},
 {"property": "C121", "status": "proved", "theorems": ["overlap_serial", "overlap_answers", "overlap_handles", "overlap_locks", "overlap_goes", "overlap_return", "overlap_steps", "overlap_restored", "overlap_few_handles_refuted"], "note": "As stated, with a file handle for each call in progress and nodes for the calls and items. Beyond the statement, with fewer handles than calls: a call fails, its cache node stays in use for ever, and after a few such failures a lone call returns a wrong type without an exception (overlap_few_handles_refuted). Gets that do not read are one step (C120 has their statements)."},
 {"property": "C122", "status": "proved", "theorems": ["session_totals", "session_leak", "session_early_refuted", "session_late_refuted", "session_old_refuted", "session_progress_refuted"], "note": "Proved for blocks freed in the session they were allocated in and tracking switched at rest; what happens otherwise is shown by the refuted cases."},
 {"property": "C123", "status": "proved", "theorems": ["first_use_serial", "first_use_defined", "first_use_total", "first_use_finishes", "first_use_race_refuted", "first_use_late_refuted"], "note": "Proved when no other thread calls tryInit before the set-up is done; two threads at once are the refuted cases."},
 {"property": "C124", "status": "proved", "theorems": ["wide_serial", "wide_follows", "wide_item_has_one_user", "wide_refuses_only_when_empty", "wide_is_lock_free", "wide_contains", "wide_unbounded_window_refuted", "wide_lost_refuted"], "note": "pool.c with a 64 bit word whose upper half is arbitrary at each exchange. wide_lost_refuted: the condition that the copy of the head keeps the whole word is needed."},
 {"property": "C125", "status": "proved", "theorems": ["unthreaded_defined", "unthreaded_serial", "unthreaded_frees", "unthreaded_counts"], "note": "resource.c in the build without threads, for every sequence of calls; a simulation by the threaded model run by one thread."},
 {"property": "C126", "status": "proved", "theorems": ["plain_defined", "plain_serial", "plain_get_exact", "plain_last_first"], "note": "pool.c in the build without threads, for every sequence of calls; no limit on the number of exchanges."},
 {"property": "C127", "status": "proved", "theorems": ["calm_safe", "calm_frees", "calm_covers_sequential", "calm_one_replace_refuted"], "note": "over the interleaving model of resource.c (Resource); the manager is not freed in these histories"}
]}
