C01 proved
varint_decode_exact varint_decode_sound varint_encode_exact varint_code_unique varint_roundtrip varint_decode_reads_at_most_10
note: every 64-bit value and every byte string; decode without end pointer is safe with ten readable bytes.

C02 partial
delta_apply_exact delta_body_deterministic delta_apply_sound delta_apply_safe_partial delta_apply_total_safety_refuted
note: exactness, soundness and determinism hold for every input; full memory-safety is false: a size header of six or more bytes shifts a 32-bit value by 35 (undefined in C), witnessed by delta_apply_total_safety_refuted; delta_apply_safe_partial shows that is the only way.

C03 partial
delta_create_roundtrip delta_create_outcome_partial
note: round trip and limit for every input; memory safety is proved for max_size in (0,2^30] or unlimited with targets up to 2^28 bytes (above that bufsize*3/2 can wrap in 32 bits, so the unrestricted claim is not provable).

C04 proved
oid_parse_exact oid_parse_safe oid_from_string_exact oid_format_exact oid_hex_roundtrip oid_parse_format oid_order oid_prefix_compare oid_truncate oid_text_compare oid_is_zero_exact oid_is_hexstr_exact
note: for every id size and every byte string; exact parse/format/compare/truncate characterisations.

C07 proved
pqueue_history pqueue_fixed_keeps_largest
note: every sequence of inserts and pops for every total-preorder comparison; fixed-size queues keep the n largest. Allocation assumed to succeed.

C05 partial
tsort_stable_sort
tsort_safe_partial
note: Sortedness, permutation and stability are proved for every input whenever the sort returns; absence of out-of-bounds accesses and termination are proved for arrays below 2^33 elements (64 GiB of pointers), above which the only failure left open is overflow of the 128-entry run stack. The bound is a growth argument over every history of collapse although collapse, checking only the top three runs, does not keep the usual invariant (TsortHeight.v).

C06 proved
bsearch_exact
sorted_is_ordered_for
vector_history
vector_step_safe_partial
vector_reverse_exact
vector_reverse_search_refuted
vector_set_search_refuted
note: Search exactness holds for every ordered array and along every history of insert, insert-sorted, sort, search, remove, pop, uniq, remove-matching, clear and remove-range. Two operations outside that list (reverse, set) leave the sorted flag set; the refuted theorems exhibit wrong answers after them.

C08 proved
hashmap_history
hashset_foreach_refuted
note: map flavour proved for histories below 2^28 calls (the bucket count is a uint32_t); the set flavour's iterate/foreach is refuted: it never ends on a non-empty set.

C17 proved
name_valid_exact
normalize_exact
normalize_idempotent
normalize_valid
normalize_buffer_safe
refname_git_rules_refuted
note: acceptance is equivalent to the declarative rules for all strings and flags; those rules differ from git's own in letting a name begin with a caret and in allowing DEL (refname_git_rules_refuted). Unicode precomposition (iconv) is not modelled.

C09 proved
wildmatch_exact
wildmatch_total
wildmatch_literal
wildmatch_star
wildmatch_casefold_refuted
note: MATCH is equivalent to membership in the declared glob language for all patterns, texts and both flags (ctype in the C locale). The case-folding expectation for escaped and bracketed capitals is refuted.

C21 proved
refspec_parse_spells
refspec_transform_pattern
refspec_transform_plain
refspec_roundtrip
refspec_transform_safe
refspec_serialize_roundtrip
refspec_push_plain_refuted
refspec_negative_transform_refuted
refspec_serialize_negative_refuted
note: for every accepted pattern refspec and every accepted fetch refspec. Exact-name matching fails for starless push sources (refuted), and transforming with a negative pattern refspec dereferences NULL for names beginning with a caret (refuted).

C23 partial
parse64_exact
parse64_total
parse32_exact
config_int64_exact
config_int32_exact
config_int64_defined
config_bool_exact
config_int64_overflow_refuted
note: the reader of decimal, octal and hexadecimal integers is exact and total; the configuration reader returns the numeral times its suffix whenever the product fits; the claim that an out-of-range product is an error is false of the code (signed overflow, refuted by config_int64_overflow_refuted), and config_int64_defined shows this is the only undefined case.

C10 partial
tree_builder_canonical
tree_bytes_unique
tree_parse_exact
tree_parse_total
tree_long_name_refuted
note: for every history of builder calls over names of at most 65535 bytes (with the real hash map and the real sort composed in), up to the capacity of the hash map, where writing always returns. Longer names are accepted and written wrongly: tree_long_name_refuted. git_path_is_valid is a parameter of which only "rejects /" is used.

C11 proved
tree_lookup_exact
tree_bypath_exact
canonical_proper
note: for every tree in canonical order, of any size; path lookup for any object store whose trees are in canonical order.

C14 proved
merge_bases_exact
merge_bases_sound
merge_base_newest
merge_bases_many_exact
note: for every acyclic finite history, any timestamps and generation numbers, with the real priority queue (its comparison is not an order when generations are mixed with dates; nothing is assumed of it); termination included.

C15 partial
reachable_from_any_exact
descendant_of_exact
ahead_behind_exact_partial
ahead_behind_refuted
note: reachability queries are exact for every history; ahead/behind is exact when dates (or generation numbers) strictly increase from parent to child, and wrong otherwise: ahead_behind_refuted gives five commits with equal dates where the count is off by one.

C41 partial
octopus_common
octopus_best_refuted
octopus_not_found_refuted
note: the result is an ancestor of every input; that it is a best one, and that "not found" means there is none, are both false of the code.

C16 partial
revwalk_exact
revwalk_hides_partial
revwalk_hidden_refuted
revwalk_skew_refuted
revwalk_indegree_refuted
revwalk_hide_cb_refuted
note: proved in full for walks without hides (all options, all timestamps); with hides proved when timestamps are ordered and either inputs come oldest first or one commit is pushed. Refuted otherwise: unsorted push order or clock skew lists hidden commits; 65535 child edges make a topological walk drop a commit; hide_cb on a pushed commit shows its parents. Assumes no allocation failure and all objects readable.

C18 partial
filebuf_atomic
filebuf_target_complete
filebuf_success_once
filebuf_failure_keeps_target
filebuf_refused_changes_nothing
filebuf_lock_exclusive
filebuf_lock_file_exists
filebuf_readers_see_complete
filebuf_buffer_in_bounds
filebuf_fsync_parent_refuted
note: every interleaving, crash point, content, write failure. Holds in full unless the fsync of the parent directory fails after the rename: then cleanup unlinks another writer's lock and a half written file can become the target (filebuf_fsync_parent_refuted). Process crashes, not power loss; one target path; no symlinked target.

C19 partial
refdb_cas
refdb_success
refdb_failure
refdb_lock_exclusive
refdb_delete_delete_refuted
refdb_pack_pack_refuted
refdb_create_no_force_refuted
note: any number of processes writing, deleting, packing, looking up; crashes anywhere. Proved when packing does not overlap with packing or deletion and deletions of two packed references do not overlap; outside that it is false because packed-refs is read before its lock is taken (refuted theorems). Creating without force is not atomic (refuted). Values not bytes; fresh backend per operation; no directory/file conflicts.

C20 partial
refdb_packing_transparent
refdb_packing_only
refdb_pack_delete_refuted
note: every crash point and every concurrent writer; needs that no deletion and no second packing overlaps (refuted otherwise: references are lost).

C42 partial
refdb_lookup_linearizable
refdb_lookup_delete_refuted
note: full for references nobody deletes meanwhile; with an overlapping update and deletion a lookup can miss an existing reference (refuted).

C33 partial
C33_base64_encode
C33_base64_roundtrip_partial
C33_base64_roundtrip_whole_groups
C33_base64_roundtrip_refuted
C33_base64_decode_total
C33_base85_roundtrip
C33_base85_decode_total
C33_percent_decode
C33_percent_plain
C33_quote_roundtrip
C33_unquote_exact
C33_unquote_total
C33_unescape_roundtrip
C33_unescape_needs_backslash_refuted
note: base85, percent decoding, path quoting and backslash escaping round-trip for all inputs. base64 decoding returns extra zero bytes when the input length is not a multiple of three (the decoder treats '=' as data), so the exact round trip is refuted there and proved for whole groups.

C40 partial
C40_iterate_exact
C40_iterate_bounded
C40_zero_length_refuted
C40_valid_buf_length_partial
C40_valid_length_strict_refuted
C40_char_length
note: The scanner is exact for every buffer and every positive length. With a declared length of zero it reads the buffer anyway (refuted), and the valid-length function only checks that sequences are complete, so it accepts overlong encodings and surrogates the scanner rejects (refuted; the proved claim is for complete sequences).

C31 partial
C31_prettify_spec
C31_idempotent
C31_idempotent_newline_comment_refuted
C31_content_preserved
C31_ends_with_one_newline
C31_no_surplus_blank
note: All parts hold for every message and comment character, except that idempotence fails when the comment character is a newline (refuted with a witness).

C39 partial
C39_crlf_to_lf
C39_lf_to_crlf
C39_lf_crlf_lf
C39_crlf_lf_crlf
C39_to_lf_idempotent
C39_to_lf_idempotent_refuted
C39_to_crlf_idempotent
C39_to_odb_cases
C39_to_workdir_cases
C39_binary_untouched
C39_no_text_attribute
C39_checkout_then_store
C39_safecrlf_partial
C39_safecrlf_lone_cr_refuted
C39_safecrlf_index_refuted
C39_input_never_adds_cr
C39_eol_lf_attribute
C39_eol_crlf_attribute
note: Both conversions equal their specification on every byte string; the filter's decisions (attributes, autocrlf, eol, safecrlf, statistics, binary test) are modelled. A file stored without CR always survives checkout and re-add. Store-then-checkout under safecrlf=true is proved when every CR precedes an LF and the indexed blob has no CR; the general claim is false and refuted in two ways (lone CR before CRLF under a text attribute; the check is skipped when the indexed blob has CRs).

C13 partial
C13_history
C13_get_bypath
C13_find
C13_find_prefix_partial
C13_find_prefix_first_refuted
C13_add
C13_add_collision_partial
C13_add_collision_refuted
C13_remove
C13_remove_directory
C13_remove_stage_refuted
C13_conflict_add
C13_conflict_remove
note: Proved for every history of add/remove/remove_directory/conflict calls with stages 0..3 and either case mode. That adding keeps the index free of file/directory collisions is false of the code (refuted: adding "b" when "a" and "b/c" are there); it is proved when nothing lies under the new path or the new path sorts first. find_prefix may return a later stage than the first (refuted). canonicalize_directory_path under ignore_case, untrusted modes, tree cache, REUC/NAME records are not modelled.

C12 partial
C12_roundtrip
C12_roundtrip_ignore_case
C12_parse_safe
C12_v4_long_path_refuted
C12_v4_extended_refuted
C12_order_trusted_refuted
note: Round trip proved for versions 2, 3, 4, SHA-1 and SHA-256 sizes, any hash function, any extensions; the parser is safe on arbitrary bytes (given the terminating NUL the file buffer has). Not true of the code, hence hypotheses and refutations: version 4 with paths of 4096 bytes or more cannot be read back, version 4 drops intent-to-add/skip-worktree when the EXTENDED bit was never set, and the on-disk order is not checked. Contents of TREE/REUC/NAME extensions are opaque.

C30 partial
C30_total
C30_workdir
C30_index
C30_tree
C30_symlink_gitmodules
C30_default_exact
C30_embedded_nul
C30_gitfile_ntfs
C30_gitfile_hfs
C30_index_empty_refuted
C30_ntfs_elided_refuted
C30_hfs_exact_refuted
note: POSIX build of git_path_str_is_valid with the flag sets used by checkout, index and trees. Accepted paths have no component equal to '.', '..', .git in any case, nor (with the protection on) an NTFS or HFS+ alias of it; exact for the default settings. Refuted parts, proved as such: the index accepts empty components; NTFS names with dots/spaces before ':' or '\' are accepted; HFS+ protection over-rejects because code points are cut to a byte. Windows-only flag sets (8.3 names of the repository, MAX_PATH) are not covered.

C22 partial
C22_line_round_trip_partial
C22_value_text_exact
C22_set_get_partial
C22_set_get_refuted
note: Proved for every NUL-free value except unquoted values that start or end with \v, \f or \r: those lose the character (C22_set_get_refuted). The line-level theorem covers every written line; the file-level theorem covers every file without a variable on a section header's line and without a dangling continuation (see C43).

C43 partial
C43_set_one_key_partial
C43_delete_one_key_partial
C43_set_multivar_partial
C43_delete_multivar_partial
C43_set_one_key_refuted
C43_set_continuation_refuted
C43_set_multivar_refuted
C43_subsection_tab_refuted
C43_multivar_null_refuted
note: Proved for every accepted file that has no variable on a header's line and no dangling continuation, for keys whose subsection has no tab/backspace and storable values (for multivars: values that need no escape); the output is again such a file. Each hypothesis is shown necessary by a refutation: header-line variables are duplicated, a dangling backslash swallows the new line, multivar values are written unescaped, tabs in subsections come back as letters, and a multivar operation on a valueless variable passes NULL to the matcher. Includes are not followed; file locking is that of C18.

C24 partial
C24_lookup_partial
C24_full_id_partial
C24_written
C24_safe
C24_open_safe
note: every well-formed version 1 or 2 index, any id width, any abbreviation; also that the index libgit2 writes is such a file, and that any accepted file is searched in bounds. Missing: indexes with n*(osz+8) >= 2^32 bytes of tables, where `pos * stride` and `4 * n` wrap in 32 bits (the returned id is then wrong).

C25 proved
C25_header_exact
C25_header_sound
C25_header_safe
C25_header_short
C25_header_written
C25_header_roundtrip
C25_denoted_size_refuted
C25_ofs_exact
C25_ofs_roundtrip
C25_ofs_sound
C25_ofs_safe
C25_ofs_short
note: the decoder is characterised on every byte string; the _refuted theorem records that a header denoting a size of 2^64 or more is accepted with the size truncated (no such header is ever written).

C36 proved
C36_shortest
C36_duplicate_refuted
C36_any_text_refuted
C36_any_text_first_refuted
note: For every minimum and every series of hexadecimal 40-digit texts of distinct ids the last return value tells all of them apart and is the least such length at or above the minimum; -1 only when the node table is full, which needs more than 798 ids; no undefined behaviour. Refuted beyond that: a repeated id gives 41; texts that are not hexadecimal corrupt the trie.

C26 proved
C26_never_touches_freed
C26_get_returns_the_id
C26_store_returns_the_id
C26_held_is_alive
C26_count_exact
C26_one_entry
C26_same_object
C26_store_form_refuted
note: Any number of threads, any schedule of the atomic steps (lock, table access, each reference count change), any limits (their tests are free choices): no freed object is touched, gets and stores return the id asked for, held objects stay alive, counts are exact when all calls have returned (so freed exactly when nobody holds it), one entry per id, and between evictions every get of an id yields one object. Not kept: the memory accounting fields. Refuted: when growing the table fails a parsed store hands back the raw object.

C32 partial
C32_roundtrip_partial
C32_buffer_roundtrip_partial
C32_new_storable
C32_created_roundtrip_partial
C32_parse_total
C32_time_refuted
C32_negative_time_refuted
C32_zone_refuted
C32_newline_refuted
C32_sign_refuted
note: Holds for every created signature on single lines with a 32-bit time and a zone within 14:59; outside that it is false of the code, and the refuted theorems show it: times are truncated to 32 bits, wider zones are dropped, a newline in a name is accepted and the text no longer parses, and a parsed +-0200 changes sign on rewriting.

C35 partial
C35_newest_first
C35_append_exact
C35_drop_exact
C35_append_linked
C35_drop_linked
C35_history_linked
C35_fresh_linked
C35_file_append_partial
C35_roundtrip_partial
C35_exact_roundtrip_partial
C35_read_total
C35_tab_refuted
C35_newline_refuted
C35_empty_refuted
note: Append and drop are exact and keep every history linked; the file round trip holds for storable signatures without tabs and messages without a newline right before their last visible byte. The refuted theorems show the entry lost by a tab in a name, the message split by the off-by-two newline replacement, and the empty message that comes back as none. Locking and the files' paths are not modelled here.

C27 partial
C27_merge_follows_table_partial
C27_merge_exact_without_dir_file_clash_partial
C27_table_decides
C27_fail_on_conflict
C27_swap_sides
C27_file_and_directory_clash_missed_refuted
note: For all triples of trees and every content driver, without rename detection, every path gets the table's outcome (a file in the way of a directory may be a conflict instead) and exchanging the sides exchanges only the sides. The refuted theorem shows a file/directory clash that the adjacent-path check misses. Missing: rename detection, the content merge itself (a parameter) and the writing of the resulting index.

C28 proved
C28_diff_reports_every_path
C28_table_decides
C28_tree_to_tree
C28_diff_of_tree_objects
C28_reverse_flips
C28_symmetric
C28_typechange_trees_pathspec_refuted
C28_typechange_trees_reverse_refuted
note: Trees and indexes on both sides (no working directory), case-sensitive, any pathspec, with conflicts, assume-unchanged, skip-worktree, ignored submodules, unmodified and typechange records. The refuted theorems show two defects of the option that turns file/tree changes into typechanges, which is outside the property.

C44 proved
C44_every_entry_in_order
C44_no_path_twice
C44_missing_tree_is_an_error
C44_directories
note: Case-sensitive iteration without start and end; trees as objects with git's entry order.

C45 partial
C45_pathlist_sound
C45_pathlist_complete_partial
C45_pathlist_complete_refuted
note: Soundness in general; completeness when no listed path is a prefix of another. Without that condition completeness is false of the code (refuted with a concrete tree): a listed directory is skipped.

C38 partial
C38_apply_reproduces_partial
C38_picked_hunks_apply
C38_applies_iff
C38_fails_cleanly
C38_removal_leaves_nothing
C38_binary_reversible
C38_no_context_deletion_refuted
C38_binary_no_data_refuted
note: Text and binary patches applied to one file's contents, with the hunk callback. The round trip holds for hunks that have a line in the new text (every diff with context lines); without context a deletion hunk is searched one line too early (refuted). A binary patch with no data on either side empties the file (refuted). How the hunks are computed (xdiff) and git_apply's handling of the repository are not modelled.

C34 proved
C34_sha1_in_pieces
C34_sha1_split_irrelevant
C34_sha256_in_pieces
note: The bundled implementations (sha1dc for any block function, with and without unaligned access; RFC 6234 SHA-256 with its compression function, for messages under 2^61 bytes), against the padding of the standard. The OpenSSL, CommonCrypto, mbedTLS and Win32 backends are not modelled.

C46 partial
C46_unbroken_bytes_partial
C46_threads_refuted
note: The bundled SHA-256 keeps a temporary in a static variable shared by all threads; an interleaving gives a wrong digest (refuted). Proved when no thread runs between the two accesses.

C37 proved
C37_path_is_ignored_exact
C37_lookup_exact
C37_effective_rules_exist
C37_nothing_dropped
C37_negated_rule_dropped_refuted
C37_deeper_negation_dropped_refuted
C37_reinclude_below_ignored_directory_refuted
note: Rule files are given as lines (comments, blanks, rules with escapes and inner spaces) and parsed from their bytes; the verdict is over the rules less those libgit2 drops (a negated rule without wildcards that no earlier rule of the same file covers), and the first item or directory upward that some rule matches decides. Against gitignore(5) three deviations are shown (_refuted). The attribute cache, rooted paths and bare repositories are not modelled.

C47 partial
C47_parse_terminates_partial
C47_form_feed_hangs_refuted
C47_query_hangs_refuted
note: Proved for texts without form feed and vertical tab; a line beginning with one makes the reader loop forever (refuted).

C29 partial
C29_safe_checkout_partial
C29_conflict_touches_nothing
C29_blocker_conflict
C29_dry_run
C29_total
C29_shadow_refuted
C29_dir_to_executable_refuted
C29_dir_to_link_refuted
C29_file_to_dir_refuted
C29_blocker_refuted
C29_ignorecase_refuted
C29_ignored_refuted
C29_unreadable_refuted
note: Whole checkouts (decide, remove, write, submodules) over any list of differences and any working directory. The full statement is false: eight refutations show files destroyed by a safe checkout; the partial theorem excludes exactly these situations (core.ignorecase, ignored files without DONT_OVERWRITE_IGNORED, a file in place of a difference's directory, sibling names sorting before the slash, directory/file type changes other than directory to plain file, unreadable files). Symlinked directories, case-insensitive file systems and merge conflicts are not modelled.

C48 partial
C48_clean_checkout_partial
C48_shadow_refuted
C48_missing_file_refuted
C48_missing_dir_refuted
note: Full except for names like "a" and "a.b" beside a type change of "a", where the file is silently not written (refuted); the other two refutations show that the working directory must really be clean.

C49 partial
C49_commit_roundtrip_partial
C49_parse_exact
C49_quick_agrees
C49_parse_total
C49_encoding_refuted
note: For storable signatures (see C32) and one-line encodings; the encoding is not checked by the code, and with a newline in it the message changes (refuted).

C50 partial
C50_create_partial
C50_failed_write_refuted
note: Full when the object store works. When opening the store, refreshing the tree or writing the object fails, git_commit_create still returns 0 (the code jumps to cleanup with error = 0): refuted. Concurrent updates of the branch are C19.

C51 partial
C51_signature_roundtrip_partial
C51_signed_commit
C51_message_refuted
C51_prefix_refuted
C51_empty_field_refuted
note: Round trip for any signature text, provided no header line begins with the field's name. The search runs on into the message, so an unsigned commit can count as signed; a header whose name merely begins with the field's name is mangled in the signed data; an empty field name loops forever (all refuted).

C52 partial
C52_tag_roundtrip_partial
C52_parse_total
C52_newline_name_refuted
note: For one-line names and storable taggers; git_tag_annotation_create does not check the name (refuted).

C53 partial
C53_summary
C53_summary_one_line
C53_nothing_lost_partial
C53_blank_line_refuted
note: The summary is characterised in full. Nothing is lost when the first blank line is empty; behind a blank line that holds white space the body is lost (refuted).

C54 partial
C54_read_any_schedule
C54_deterministic
C54_read_finishes_partial
C54_chain_ends
C54_object_ends
C54_finishes_refuted
C54_header_inside
note: Correctness, memory safety of the cache and its accounting hold for every schedule. Termination holds when the chain of deltas ends (always for offset deltas and for readable objects), for a thread running while the others are idle; deltas by id that form a cycle are followed for ever (refuted). inflate and the index lookup (C24) are parameters.

C55 partial
C55_header_agrees
C55_header_never_wrong
C55_finishes_refuted
C55_safe_refuted
C55_reserved_type_refuted
note: Agreement holds for every readable object. On damaged packs it can loop for ever, read uninitialised memory, or report the reserved type 5 (refuted).

C56 proved
C56_diff_is_right
C56_empty_iff_same
C56_context
note: For the flags without whitespace options, GIT_DIFF_IGNORE_BLANK_LINES and GIT_DIFF_PATIENCE; allocations succeed. The indentation score is a parameter: the theorems hold for any score. Success includes memory safety and termination of the whole pipeline (classify, trim, clean up, Myers split with heuristics, compact, script, emit). Minimality is not claimed (the algorithm does not promise it).

C57 partial
C57_diff_applies_partial
C57_no_context_refuted
note: Holds for every diff with at least one line of context. With zero context it is false (refuted), because git_apply takes the new position of a hunk without lines literally.

C58 partial
C58_merge_is_truthful_partial
C58_merge_file_partial
C58_binary
C58_large_result_refuted
note: Holds for every merge whose result is below 2 GB, including memory safety and termination. Above that it is false (refuted): xdl_fill_merge_buffer counts the size in an int, so three 800 MB texts in the diff3 style overflow it. Whitespace flags and the patience algorithm are not modelled; allocations succeed.

C59 proved
C59_unchanged
C59_same_change
C59_apart_merges
C59_symmetric
note: For xdl_merge with any style, label and marker options (the fixed level XDL_MERGE_ZEALOUS or ZEALOUS_ALNUM that merge_file.c passes). The diffs in C59_apart_merges are the ones of C56 with no context.

C60 partial
C60_write_tree_partial
C60_write_keeps
C60_write_succeeds
C60_ignore_case_refuted
C60_collision_refuted
C60_other_repository_refuted
note: Holds for every history of an index that respects case and never has a path both as a file and a directory (C13 shows how it can), written to its own repository, fewer than 2^28 entries, no two trees with one id. Refuted otherwise: with core.ignorecase git_index_add replaces A/b by a/b but invalidates the cached directory "a" instead of "A", so a file the index has not stays in the tree; a file/directory collision loses the file; git_index_write_tree_to another repository returns the cached id of a tree that is not there.

C61 proved
C61_same_files_same_tree
C61_same_tree_same_files
note: For the histories of C60. The second direction assumes that no two tree objects of the two repositories have the same id.

C62 partial
C62_windows_safe_partial
C62_limit
C62_accounting
C62_failed_mmap_refuted
C62_least_recently_used_refuted
C62_accounting_refuted
C62_window_size_refuted
C62_left_refuted
C62_no_bytes_refuted
note: Holds for every order of calls by any number of threads when at least one byte is asked for, a cursor is used with one file, windows have at least 2 bytes, and mmap does not fail twice while a cursor points to a window. In that last case git_mwindow_open gives the window back and frees it but leaves the cursor pointing to it, and the caller's git_mwindow_close writes to freed memory. Refuted too: the window closed is not the least recently used (the comparison is unsigned), a failed mmap stays counted, the count of bytes left is cut to 32 bits.

C63 proved
C63_shared_packs
note: For every order of gets and puts in which only packs that are held are put back. Failing allocations and failing locks are not modelled.

C64 partial
C64_compress_partial
C64_compress_succeeds
C64_delete
C64_loose_roundtrip
C64_fully_peeled_refuted
C64_newline_name_refuted
note: Proved for repositories whose reference names have no control characters or spaces and whose packed file is absent or written by libgit2. Not fully peeled: a tag of a tag is recorded with the inner tag under a header that promises full peeling. Names of loose files are not checked, so a file whose name has a newline makes the packed file unreadable.

C65 partial
C65_lookup_exact_partial
C65_reload_exact
C65_unsorted_exact
C65_any_bytes_safe
C65_replaced_file_refuted
C65_crlf_file_refuted
note: Exact for files as libgit2 and git write them (sorted, LF); safe for any bytes. Refuted for a file without header that replaces a sorted one while the backend is open (the old sorted flag stays), and for CRLF files, where bisection keeps the carriage return that reading the whole file strips.

C66 partial
C66_chunks_partial
C66_errors_partial
C66_meaning
C66_ids
C66_advertisement
C66_unknown_format
C66_requests_partial
C66_chunk_dependence_refuted
C66_last_capability_refuted
C66_shallow_id_refuted
C66_nothing_wanted_refuted
note: Proved for streams in which every packet can be read from its own bytes alone; a server's list of references whose capabilities name the object format, with a space behind, is such a stream (C66_advertisement). Refuted without that: the search for the format (strstr) runs into the next packet, so the outcome depends on how the stream arrives; a format named last is rejected because the newline counts; shallow lines with a bad id are accepted; asking for references when all are marked local reads behind the array.

C67 partial
C67_parse_safe_partial
C67_receive_safe_partial
C67_waits
C67_no_terminator_refuted
note: Safe when a NUL lies behind the received bytes in the buffer. The code does not ensure that: the buffer is not terminated, and when it is full (65536 bytes) the search for the object format in a packet without one leaves it.

C68 partial
C68_any_file_safe
C68_round_trip
C68_missing_parent
C68_validate_detects
C68_sha256_refuted
C68_empty_refuted
C68_times_refuted
note: Proved for SHA-1 and files below 40 GiB. Refuted: in SHA-256 repositories opening any such file overflows a 20-byte checksum buffer; the file of an empty writer is refused by the reader; times outside 0..2^34-1 come back as other times.

C69 partial
C69_generation_partial
C69_generation_refuted
note: For every history the numbers are between 1 and the true generation, and they are the true generation when no commit has two parents. Refuted for merges: a commit that is both a parent and waiting on the stack is numbered before its own parents.

C70 proved
C70_midx_round_trip
C70_duplicate_pack_refuted
C70_empty_refuted
C70_dotted_name_refuted
note: Proved for SHA-1, packs with distinct names whose stem has no dot or slash, at least one and at most 2^28 objects, and less than 4 GB of names. Outside these the writer succeeds and the reader refuses its file: a pack added twice, no packs, and some names with dots (the refuted theorems).

C71 proved
C71_midx_reading_safe
C71_negative_offset
C71_large_file_refuted
note: Proved for SHA-1 and files below 5 GiB (the position of an entry is multiplied by 8 as an int; C71_large_file_refuted gives a 15 GB file where that overflows). The offset of an entry is not checked and can be negative.

C72 partial
C72_index_file
C72_tree_round_trip
C72_reuc_round_trip
C72_names_exact
C72_reuc_no_mode_refuted
C72_empty_name_refuted
C72_negative_count_refuted
note: Proved for all well-formed contents: counts of at least -1, names that are not empty, and a last resolve-undo entry with an id. Refuted outside: when the last resolve-undo entry has only zero modes (git_index_reuc_add accepts it) the index that is written is refused by the reader; an empty name is read back as none; a count below -1 is accepted by the reader, but what is then written for it is refused.

C73 proved
C73_extensions_safe
C73_only_the_extension
C73_byte_behind_refuted
C73_deep
note: C73_byte_behind_refuted shows that the byte behind the extension is really read, C73_deep that the recursion of the tree cache reader is as deep as a sixth of the bytes (a stack of that size is assumed).

C74 partial
C74_fetch_head_round_trip
C74_fetch_head_safe
C74_callback_stops
C74_head_not_for_merge_refuted
C74_quoted_url_refuted
C74_slashes_refuted
C74_stale_flag_refuted
note: Proved for names without control characters and blanks, with no second slash behind refs/heads or refs/tags, urls of one line, and any previous contents that can be read. HEAD is reported without name and always as to be merged, also when it was written as not to be merged; when HEAD comes from a url that begins with a quote the file is refused; a line with only an id and a tab is reported with the flag of the line before it. Not modelled: references without name or url, and the removal of passwords from urls.

C75 proved
C75_resolve
C75_no_email
note: Names and emails are strings without NUL; an addition without an email to replace is refused and changes nothing.

C76 partial
C76_file
C76_line_unique
C76_file_resolve
C76_nul
C76_safe
C76_empty_email_refuted
note: Proved for every text, where an entry whose email to replace is empty is an addition that fails. C76_empty_email_refuted: such a line (Bob <>) makes the whole file be refused, although lines that are no entry are meant to be skipped. Reading the text from a blob or file is not modelled.

C77 partial
C77_binary
C77_smudge
C77_clean
C77_unchanged
C77_stored_again
C77_round_trip
C77_clean_twice
C77_odd_end_refuted
C77_longer_word_refuted
C77_made_binary_refuted
note: Proved with the keyword as the code takes it, from the first $Id to the next dollar (so $Idle cash: 5$ is one, C77_longer_word_refuted). C77_odd_end_refuted: a text without any $Id whose last four bytes begin and end with a dollar, such as "price in $US$", is changed to "price in $Id$" when it is stored: the two bytes are lost. C77_made_binary_refuted: checking out can shorten a long keyword so much that the contents count as binary, and they are then stored with the id. A source without id and contents of 2 GiB or more are not modelled.

C78 proved
C78_basename
C78_dirname
C78_dirname_none
C78_dirname_root
C78_root
C78_empty
C78_paths
note: Proved for every path shorter than 2 GiB; C78_paths shows that the five shapes of the other theorems are all there are. Windows prefixes and the allocation of the result are not modelled.
