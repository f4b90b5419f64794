{"id": "C01", "title": "Variable-length integers round-trip and reject overflow", "statement": "Encoding any 64-bit unsigned value with the index/pack varint coder into a large enough buffer and decoding the bytes (followed by anything) returns the same value and consumes exactly the bytes written; encodings are unique; the coder reports failure instead of writing past the buffer; decoding a byte string denoting a value that does not fit in 64 bits is reported as an error rather than wrapped.", "quantifier": "all 64-bit values, all trailing bytes, all buffer sizes, all byte strings", "why_tests_cant": "2^64 values and infinitely many byte strings; carry/offset errors only show at a few boundaries", "anchors": ["src/util/varint.c: git_decode_varint, git_encode_varint"]}
{"id": "C02", "title": "Applying a delta is safe and has the documented meaning", "statement": "For any base and any delta bytes, applying the delta either fails leaving no output, or succeeds and the output is exactly the concatenation of the copy/insert instructions, has exactly the length announced in the delta header, and the header's base length equals the base's length; no instruction reads outside the base or the delta nor writes outside the output.", "quantifier": "all base buffers and all (including hostile) delta byte strings", "why_tests_cant": "the delta language is infinite and attacker controlled", "anchors": ["src/libgit2/delta.c: git_delta_apply, hdr_sz, git_delta_read_header"]}
{"id": "C03", "title": "Delta creation followed by application restores the target", "statement": "Whenever delta creation from an index over a source buffer succeeds for a non-empty target, applying the produced delta to the source yields exactly the target, and the delta is no longer than the caller's size limit when one is given.", "quantifier": "all source and target buffers (within the documented 4GiB limits), all size limits, any hash index contents whose entries point inside the source", "why_tests_cant": "depends on arbitrary matches, back-extension of matches, 64KiB splitting and literal run boundaries", "anchors": ["src/libgit2/delta.c: git_delta_create_from_index, git_delta_index_init, git_delta_apply"]}
{"id": "C04", "title": "Object ids convert to and from hexadecimal faithfully", "statement": "Formatting an object id and parsing the text gives the id back; parsing accepts exactly strings of hex digits of permitted length (either case) and yields the id whose leading nibbles are those digits and whose remaining nibbles are zero; ordering of ids is the ordering of their hexadecimal text; prefix comparison over n digits is true exactly when the first n hex digits agree.", "quantifier": "all ids, all strings, all prefix lengths", "why_tests_cant": "2^160 ids and all strings; half-byte prefixes", "anchors": ["src/libgit2/oid.c: git_oid_from_prefix, git_oid_from_string, git_oid_nfmt, git_oid_ncmp, git_oid_cmp, git_oid_strcmp", "src/libgit2/oid.h: git_oid_raw_ncmp, git_oid_fmt_substr"]}
{"id": "C05", "title": "Sorting is a stable sort for every input", "statement": "The library sort used by every vector returns a permutation of its input that is ordered by the comparison function and keeps elements that compare equal in their original order, and never accesses memory outside the array or the run stack.", "quantifier": "all arrays of any length, all comparison functions that are total preorders", "why_tests_cant": "run detection, galloping boundaries and merge order depend on length and data patterns; infinite input space", "anchors": ["src/util/tsort.c: git__tsort_r, bisort, binsearch, count_run, merge, collapse"]}
{"id": "C06", "title": "Binary search in sorted vectors is exact", "statement": "Searching a sorted vector reports found exactly when an element comparing equal is present and returns the index of such an element; otherwise it returns the unique insertion point that keeps the vector sorted.", "quantifier": "all sorted arrays, all keys, all comparators consistent with the order", "why_tests_cant": "off-by-one errors only appear at particular sizes and positions", "anchors": ["src/util/util.c: git__bsearch, git__bsearch_r", "src/util/vector.c: git_vector_bsearch2, git_vector_insert_sorted, git_vector_uniq, git_vector_remove"]}
{"id": "C07", "title": "The priority queue always yields the best remaining element", "statement": "After any sequence of insertions and pops on an unbounded queue, pop returns an element no other remaining element precedes, and the elements held are exactly those inserted and not yet popped; a fixed-size queue holds at most its capacity and keeps the largest elements.", "quantifier": "all sequences of inserts and pops, all total-preorder comparators", "why_tests_cant": "heap shape depends on the full history", "anchors": ["src/util/pqueue.c: git_pqueue_insert, git_pqueue_pop, pqueue_up, pqueue_down"]}
{"id": "C08", "title": "Hash maps behave as finite maps", "statement": "For every sequence of put, get, contains, remove, clear and size operations the hash map answers as a mathematical finite map would, across any number of internal resizes and deleted slots.", "quantifier": "all operation histories, all hash functions, all keys with an equality consistent with the hash", "why_tests_cant": "collisions, tombstones and rehashing depend on the full history and hash function", "anchors": ["src/util/hashmap.h: __idx, __put_idx, __resize, __remove_at_idx, _clear, _iterate"]}
{"id": "C09", "title": "Glob matching agrees with the glob language", "statement": "Wildcard matching of a text against a pattern returns a match exactly when the text belongs to the language of the pattern (literals, ?, *, ** with path separators, escapes, character classes) under the given flags.", "quantifier": "all patterns and all texts, all flag combinations", "why_tests_cant": "backtracking over unbounded strings", "anchors": ["src/util/wildmatch.c: dowild, wildmatch"]}
{"id": "C10", "title": "Tree objects are canonical and round-trip", "statement": "Writing a set of entries with the tree builder produces bytes that parse back to exactly those entries, in git's canonical order, with no duplicate names, so equal sets of entries always give byte-identical objects regardless of the order of insertion/removal operations; the parser rejects malformed bytes and never reads past the end.", "quantifier": "all sequences of builder operations, all byte strings given to the parser", "why_tests_cant": "arbitrary operation histories and hostile objects", "anchors": ["src/libgit2/tree.c: git_tree__parse_raw, git_treebuilder_insert, git_treebuilder_remove, git_treebuilder__write_with_buffer, git_tree_entry_cmp", "src/libgit2/path.c / fs_path.c: git_fs_path_cmp"]}
{"id": "C11", "title": "Tree entry lookup by name is exact", "statement": "Looking up a name in a parsed tree returns the entry with exactly that name when there is one and not-found otherwise, for every tree in canonical order, including names that are prefixes of one another and names shared by directories and files order-wise.", "quantifier": "all canonically ordered trees, all names", "why_tests_cant": "canonical order compares directories as if ending in '/', so a plain binary search is subtly wrong on prefix-related names", "anchors": ["src/libgit2/tree.c: tree_key_search, homing_search_cmp, entry_fromname"]}
{"id": "C12", "title": "Index file entries round-trip", "statement": "Serialising index entries and parsing the result reproduces the same entries (path, mode, id, flags, stat fields) in the same order for each supported version, including path compression, and parsing never reads outside the file.", "quantifier": "all sorted entry lists, all versions 2-4, all hostile bytes for the parser", "why_tests_cant": "padding, extended flags, long names and path compression interact", "anchors": ["src/libgit2/index.c: write_disk_entry, read_entry, index_entry_size"]}
{"id": "C13", "title": "In-memory index stays sorted, unique and free of file/directory collisions", "statement": "After any sequence of additions and removals the entries of an index are ordered by (path, stage), hold at most one entry per (path, stage), and adding a path removes exactly the entries that collide with it as file-versus-directory (when replacement is permitted) and leaves all others untouched; lookup answers from that set.", "quantifier": "all operation histories", "why_tests_cant": "invariants over all histories", "anchors": ["src/libgit2/index.c: index_insert, check_file_directory_collision, has_file_name, has_dir_name, index_find, git_index_remove"]}
{"id": "C14", "title": "Merge bases are the best common ancestors", "statement": "The merge bases reported for two commits are exactly the common ancestors of both that are not ancestors of another common ancestor.", "quantifier": "all commit graphs (any DAG, any timestamps), all pairs of commits", "why_tests_cant": "criss-cross histories, clock skew and unbounded graphs", "anchors": ["src/libgit2/merge.c: git_merge__bases_many, paint_down_to_common, remove_redundant"]}
{"id": "C15", "title": "Ahead/behind counts and reachability are exact", "statement": "The ahead count is the number of commits reachable from local and not from upstream, the behind count the converse, and descendant/reachability queries agree with the ancestry relation.", "quantifier": "all commit graphs, all timestamps, all pairs", "why_tests_cant": "depends on whole-graph traversal order", "anchors": ["src/libgit2/graph.c: mark_parents, ahead_behind, git_graph_descendant_of, git_graph_reachable_from_any"]}
{"id": "C16", "title": "Revision walks list exactly the visible commits, parents after children when asked", "statement": "A revision walk yields each commit reachable from the pushed ones and not reachable from the hidden ones exactly once, and with topological sorting no parent before all of its children.", "quantifier": "all commit graphs, all push/hide sets, all timestamps", "why_tests_cant": "the early-termination heuristic depends on timestamps over unbounded graphs", "anchors": ["src/libgit2/revwalk.c: limit_list, mark_parents_uninteresting, still_interesting, sort_in_topological_order"]}
{"id": "C17", "title": "Reference names are validated exactly and normalised idempotently", "statement": "A reference name is accepted exactly when it satisfies git's documented rules for the given flags; a normalised name is itself valid and normalises to itself.", "quantifier": "all strings, all flag combinations", "why_tests_cant": "infinite strings; rules interact at component boundaries", "anchors": ["src/libgit2/refs.c: git_reference__normalize_name, ensure_segment_validity, is_valid_ref_char"]}
{"id": "C18", "title": "A file committed through a lock file is never seen half written, and locks exclude", "statement": "At every moment, including after a crash at any step, the target path holds either its complete previous content or the complete new content, and at most one writer holds the lock; a writer that fails to get the lock changes nothing.", "quantifier": "all interleavings of any number of writers, all crash points, all contents", "why_tests_cant": "schedules and crash points cannot be enumerated by tests", "anchors": ["src/util/filebuf.c: git_filebuf_open_withsize, lock_file, git_filebuf_commit, git_filebuf_cleanup"]}
{"id": "C19", "title": "Conditional reference updates are atomic compare-and-swap", "statement": "When several processes concurrently update, create or delete the same loose reference with an expected old value, each successful update observed the expected value at the moment it took effect, i.e. the successful operations can be ordered so that each reads what the previous one wrote; failed operations change nothing.", "quantifier": "all interleavings of any number of processes and operations, all old/new values", "why_tests_cant": "interleavings", "anchors": ["src/libgit2/refdb_fs.c: loose_lock, cmp_old_ref, refdb_fs_backend__write_tail, refdb_fs_backend__delete_tail, loose_commit"]}
{"id": "C20", "title": "Packing references never changes what a lookup returns", "statement": "At every step (crash point) of compressing references into packed-refs, looking up any reference returns the value it had before.", "quantifier": "all sets of loose and packed references, all crash points", "why_tests_cant": "crash points and intermediate states", "anchors": ["src/libgit2/refdb_fs.c: refdb_fs_backend__compress, packed_write, packed_remove_loose, refdb_fs_backend__lookup"]}
{"id": "C21", "title": "Refspec transformation is substitution and is invertible", "statement": "Transforming a name that matches a refspec's source replaces exactly the text matched by '*' into the destination; transforming back with the reverse direction recovers the original name; names that do not match are rejected.", "quantifier": "all valid refspecs and all reference names", "why_tests_cant": "pattern and name vary without bound", "anchors": ["src/libgit2/refspec.c: git_refspec__parse, refspec_transform, git_refspec__transform, git_refspec__rtransform"]}
{"id": "C22", "title": "Configuration values survive write and re-read", "statement": "Any value without NUL that is written to a configuration file is read back as the identical string after parsing the line(s) produced.", "quantifier": "all strings", "why_tests_cant": "escaping, quoting, comment characters, leading/trailing whitespace, line continuation", "anchors": ["src/libgit2/config_file.c: escape_value, quotes_for_value, config_file_write", "src/libgit2/config_parse.c: unescape_line, parse_multiline_variable, strip_comments"]}
{"id": "C23", "title": "Integer parsing is exact and overflow-safe", "statement": "Numeric parsing of configuration/protocol text returns the mathematically correct value of the longest valid numeral, or an error when it does not fit the result type (including k/m/g suffixes); it never wraps around.", "quantifier": "all byte strings, all bases, both result widths", "why_tests_cant": "overflow boundaries", "anchors": ["src/util/util.c: git__strntol64, git__strntol32", "src/libgit2/config.c: git_config_parse_int64, git_config_parse_int32, git_config_parse_bool"]}
{"id": "C24", "title": "Pack index lookup is exact", "statement": "Looking up an object id in a well-formed pack index returns its offset exactly when it is listed; looking up an abbreviated id reports found/ambiguous/not-found exactly according to the number of listed ids with that prefix.", "quantifier": "all well-formed indexes (v1 and v2, with 64-bit offsets), all ids and prefix lengths", "why_tests_cant": "fan-out boundaries and binary search over arbitrary id sets", "anchors": ["src/libgit2/pack.c: pack_entry_find_offset, git_pack__lookup_id, nth_packed_object_offset_locked"]}
{"id": "C25", "title": "Pack entry headers and delta offsets round-trip", "statement": "The object header written for an entry in a pack is decoded to the same type and size, and offset-delta back-references decode to the encoded distance; decoding never reads past the data available.", "quantifier": "all types and 64-bit sizes, all offsets, all byte strings", "why_tests_cant": "bit-packing boundaries", "anchors": ["src/libgit2/pack.c: packfile_unpack1, git_packfile__object_header, get_delta_base"]}
{"id": "C26", "title": "Object cache is transparent", "statement": "Whatever the interleaving of cache gets, stores and evictions by any number of threads, an object returned by the cache has the requested id and the content that was stored for it, all threads sharing an id see one object, and an object is freed only when no one holds it.", "quantifier": "all interleavings and operation histories, any sizes and limits", "why_tests_cant": "schedules", "anchors": ["src/libgit2/cache.c: cache_get, cache_store, cache_evict_entries, git_cached_obj_decref"]}
{"id": "C27", "title": "Trivial three-way merge follows the merge table and loses nothing", "statement": "For every path, the merged result is: the common side when both agree, the changed side when only one changed, a conflict recording all three sides when both changed differently; swapping the sides swaps the conflict's sides and nothing else.", "quantifier": "all triples of trees", "why_tests_cant": "all combinations of per-path states", "anchors": ["src/libgit2/merge.c: merge_conflict_resolve_trivial, merge_delta_type_from_index_entries, git_merge_diff_list__find_differences"]}
{"id": "C28", "title": "Diff of two sorted sides reports exactly the differences", "statement": "A diff between two trees lists, in path order, each path present only on the old side as deleted, only on the new side as added, and present in both with a different id or mode as modified (or type-changed), and nothing else.", "quantifier": "all pairs of path-sorted trees", "why_tests_cant": "merge-join over arbitrary pairs of sequences", "anchors": ["src/libgit2/diff_generate.c: git_diff__from_iterators, handle_unmatched_old_item, handle_unmatched_new_item, handle_matched_item, maybe_modified"]}
{"id": "C29", "title": "Safe checkout never destroys unsaved work", "statement": "With the safe strategy (no FORCE, no REMOVE flags) a file of the working directory whose contents are recorded neither in the baseline nor in the target is never updated or removed by a checkout, whatever its outcome; a conflict touches nothing at all.", "quantifier": "all combinations of delta status, working-directory item, item kind and strategy flags without FORCE", "why_tests_cant": "the decision table has thousands of combinations and calls into each other", "anchors": ["src/libgit2/checkout.c: checkout_action_no_wd, checkout_action_wd_only, checkout_action_with_wd, checkout_action_with_wd_blocker, checkout_action_with_wd_dir, checkout_action_common"]}
{"id": "C30", "title": "No accepted path can address the .git directory", "statement": "A path accepted for checkout or index insertion has no component that any supported filesystem would treat as '.git', '.', '..' or empty: no case variant, HFS ignorable-codepoint variant, NTFS short name, trailing dot/space or alternate data stream form.", "quantifier": "all byte strings, all protection flag combinations", "why_tests_cant": "adversarial strings", "anchors": ["src/libgit2/path.c: git_path_str_is_valid, validate_repo_component, validate_dotgit_hfs, validate_dotgit_ntfs", "src/util/fs_path.c"]}
{"id": "C31", "title": "Commit message clean-up is idempotent and preserves content", "statement": "Prettifying a message removes only comment lines (when asked), trailing whitespace and surplus blank lines; the result ends with exactly one newline unless empty; prettifying twice equals prettifying once; the non-blank lines are preserved in order.", "quantifier": "all byte strings, all comment characters", "why_tests_cant": "infinite strings", "anchors": ["src/libgit2/message.c: git_message__prettify, git_message_prettify"]}
{"id": "C32", "title": "Signatures round-trip", "statement": "A signature created from a name, email and time, once written into a commit, tag or reflog and parsed again, is equal to the original.", "quantifier": "all names, emails, times and offsets accepted by signature creation", "why_tests_cant": "trimming rules and offset formatting interact", "anchors": ["src/libgit2/signature.c: git_signature_new, git_signature__writebuf, git_signature__parse"]}
{"id": "C33", "title": "Base64/base85/percent/path-quoting codecs round-trip", "statement": "Decoding the base64 or base85 encoding of any bytes returns those bytes, unquoting a quoted path returns the path, and decoders reject malformed text without reading out of bounds.", "quantifier": "all byte strings", "why_tests_cant": "length-modulo cases and all byte values", "anchors": ["src/util/str.c: git_str_encode_base64, git_str_decode_base64, git_str_encode_base85, git_str_decode_base85, git_str_quote, git_str_unquote"]}
{"id": "C34", "title": "Hashing in pieces equals hashing at once", "statement": "Feeding data to the hash in any sequence of chunks gives the digest of the concatenation.", "quantifier": "all byte strings and all ways to split them", "why_tests_cant": "block-boundary buffering depends on every split", "anchors": ["src/util/hash/sha1/\u2026: sha1dc SHA1DCUpdate/Final", "src/util/hash/rfc6234/sha224-256.c"]}
{"id": "C35", "title": "Ref log entries round-trip and keep history linked", "statement": "A reflog written by appending entries reads back as the same entries newest-first, and dropping an entry with history rewriting re-links the neighbours so each entry's old id equals the previous entry's new id.", "quantifier": "all sequences of append/drop", "why_tests_cant": "all histories", "anchors": ["src/libgit2/reflog.c: git_reflog_append, git_reflog_drop", "src/libgit2/refdb_fs.c: serialize_reflog_entry, reflog_parse"]}
{"id": "C36", "title": "Abbreviation lengths are minimal and sufficient", "statement": "The id shortener returns after each addition a length at which all ids added so far are pairwise distinct (unless equal), and no smaller length above the minimum has that property.", "quantifier": "all sequences of ids", "why_tests_cant": "trie behaviour over arbitrary histories", "anchors": ["src/libgit2/oid.c: git_oid_shorten_add, push_leaf"]}
{"id": "C37", "title": "Ignore rules: the last matching rule decides", "statement": "A path is ignored exactly when the last rule matching it in the most specific applicable rule file is not negated (taking ignored parent directories into account).", "quantifier": "all rule lists and paths", "why_tests_cant": "ordering and negation over unbounded lists", "anchors": ["src/libgit2/ignore.c: ignore_lookup_in_rules, git_ignore__lookup, git_ignore_path_is_ignored"]}
{"id": "C38", "title": "Applying a patch reproduces the post-image or fails without output", "statement": "Applying the hunks computed between two texts to the first text yields the second; applying a patch to a text either fails or replaces exactly the pre-image lines of each hunk.", "quantifier": "all texts and all patches", "why_tests_cant": "hunk offset arithmetic over arbitrary line sequences", "anchors": ["src/libgit2/apply.c: git_apply__patch, apply_hunk, find_hunk_linenum, update_hunk"]}
{"id": "C39", "title": "Line-ending conversion is lossless where the library promises it", "statement": "Converting LF text to CRLF and back gives the original when no carriage returns were present; conversion to the repository form removes exactly CRs before LF, is idempotent on its own output when no lone CR sequences remain, and binary content is left alone.", "quantifier": "all byte strings", "why_tests_cant": "infinite strings with arbitrary CR/LF patterns", "anchors": ["src/util/str.c: git_str_crlf_to_lf, git_str_lf_to_crlf", "src/libgit2/crlf.c: crlf_apply_to_odb, crlf_apply_to_workdir"]}
{"id": "C40", "title": "UTF-8 scanning accepts exactly well-formed text", "statement": "The UTF-8 scanner accepts a byte sequence as a character exactly when it is a well-formed encoding per its definition, returns its code point, never reads past the given length, and the valid-length function returns the longest valid prefix.", "quantifier": "all byte strings", "why_tests_cant": "2^32 four-byte sequences and unbounded buffers", "anchors": ["src/util/utf8.c: utf8_charlen, git_utf8_iterate, git_utf8_valid_buf_length"]}
{"id": "C41", "title": "Octopus merge base", "statement": "The octopus merge base reported for a list of commits is an ancestor of all of them; it is a best such ancestor, and not-found means there is none.", "quantifier": "all commit graphs, all lists of commits, all timestamps", "why_tests_cant": "iterates pairwise merge bases over unbounded criss-cross histories", "anchors": ["src/libgit2/merge.c: git_merge_base_octopus"]}
{"id": "C42", "title": "A lookup beside writers and a packer returns a value the reference had", "statement": "A reference lookup that runs while other processes update the reference and pack references returns a value the reference had at some moment during the lookup; in particular it never reports a reference missing that existed throughout.", "quantifier": "all interleavings of any number of writers, lookups and packing runs, all values", "why_tests_cant": "depends on the interleaving of two separate file reads with other processes' file operations", "anchors": ["src/libgit2/refdb_fs.c: refdb_fs_backend__lookup, packed_write, packed_remove_loose, loose_commit"]}
{"id": "C43", "title": "Setting or deleting a configuration key changes only that key", "statement": "After a configuration key is set in a file, the key has exactly the new value and every other key keeps its values in their order; deleting a key removes it and nothing else; setting or deleting a multi-valued key touches exactly the values that match the expression.", "quantifier": "all file contents (comments, continuations, sections split over the file, missing final newline), all keys and values", "why_tests_cant": "the rewrite interleaves copied text with new lines and the result depends on how every line of an arbitrary file parses", "anchors": ["src/libgit2/config_file.c: config_file_write, write_on_section, write_on_variable, write_on_comment, write_on_eof, config_file_set, config_file_delete, config_file_set_multivar, config_file_delete_multivar", "src/libgit2/config_parse.c: git_config_parse"]}
{"id": "C44", "title": "Walking a tree yields each entry once, in path order", "statement": "Iterating over a tree object whose subtrees are all present yields every entry reachable below it exactly once, with its full path, mode and id, in ascending byte order of the paths (directories ending in a slash); subtrees are yielded only when asked for; a subtree that is missing makes the iteration fail.", "quantifier": "all object stores and trees of any depth and width, all flag combinations", "why_tests_cant": "trees nest without bound; the explicit stack of frames and the path buffer must stay right at every return from a subtree", "anchors": ["src/libgit2/iterator.c: git_iterator_for_tree, tree_iterator_advance, tree_iterator_frame_push, tree_iterator_frame_pop, tree_iterator_compute_path"]}
{"id": "C45", "title": "A path list restricts a tree walk to exactly the listed paths", "statement": "Iterating over a tree with a list of paths yields exactly the entries that are a listed path or lie inside one (and the directories leading there, when directories are asked for).", "quantifier": "all trees, all sorted lists of paths", "why_tests_cant": "the position in the list moves forward during the walk, so a wrong answer depends on what was seen before", "anchors": ["src/libgit2/iterator.c: iterator_pathlist_next_is, tree_iterator_advance"]}
{"id": "C46", "title": "Hash computations in different threads do not disturb each other", "statement": "Computing digests in several threads at once, each with its own context, gives every thread the digest of its own data.", "quantifier": "all data and all interleavings of the threads", "why_tests_cant": "depends on the interleaving of single memory accesses between threads", "anchors": ["src/util/hash/rfc6234/sha224-256.c: SHA224_256AddLength, addTemp, SHA256Input"]}
{"id": "C47", "title": "Reading an ignore file always finishes", "statement": "Reading any ignore file ends after a number of steps bounded by its length, whatever bytes it holds, so a query about a path always returns.", "quantifier": "all byte contents of ignore files", "why_tests_cant": "a test can only try some files; a loop that makes no progress depends on the bytes at a line start", "anchors": ["src/libgit2/ignore.c: parse_ignore_file", "src/libgit2/attr_file.c: git_attr_fnmatch__parse"]}
{"id": "C48", "title": "Checkout in a clean working directory produces exactly the target", "statement": "When the working directory holds exactly the files of the baseline, a safe checkout succeeds and leaves exactly the files of the target, with their modes and contents: nothing missing, nothing left over.", "quantifier": "all pairs of baseline and target, including files that become directories and back, links and executables", "why_tests_cant": "the result depends on the interplay of removals, directory clean-up, blob writes and link writes over unbounded trees", "anchors": ["src/libgit2/checkout.c: git_checkout_iterator, checkout_get_actions, checkout_remove_the_old, checkout_create_the_new, checkout_write_content"]}
{"id": "C49", "title": "A commit written from its parts reads back as the same parts", "statement": "Creating a commit buffer from tree, parents, author, committer, encoding and message and parsing it gives back exactly these; further header lines change nothing else; the quick parse used for walking agrees with the full parse on parents and committer; any bytes give a commit or an error.", "quantifier": "all ids, parent lists, storable signatures, encodings and messages; all bytes for the parser", "why_tests_cant": "the text format has no lengths, so every byte of every part matters", "anchors": ["src/libgit2/commit.c: git_commit__create_buffer_internal, commit_parse", "src/libgit2/object.c: git_object__parse_oid_header, git_object__write_oid_header"]}
{"id": "C50", "title": "Creating a commit: success means stored, and only on top of the branch tip", "statement": "When creating a commit reports success the commit object is in the object store, and if a branch was to be updated its old tip was the commit's first parent and it now points at the commit; a failure leaves branch and objects alone.", "quantifier": "all repositories, parents, and all combinations of failing store operations", "why_tests_cant": "needs every failing store operation at every step", "anchors": ["src/libgit2/commit.c: git_commit__create_internal, validate_tree_and_parents"]}
{"id": "C51", "title": "A signed commit gives back its signature and the signed data", "statement": "Extracting the signature from a commit created with a signature returns exactly that signature and exactly the unsigned commit content, and the signed commit parses to the same parts; an unsigned commit has no signature.", "quantifier": "all commit contents, signatures (any lines) and field names", "why_tests_cant": "the signature is arbitrary text folded into header lines", "anchors": ["src/libgit2/commit.c: git_commit_create_with_signature, git_commit__extract_signature, format_header_field"]}
{"id": "C52", "title": "An annotated tag written from its parts reads back as the same parts", "statement": "Writing a tag object from name, target, type, tagger and message and parsing it gives back exactly these; any bytes give a tag or an error.", "quantifier": "all names, ids, types, storable taggers and messages; all bytes for the parser", "why_tests_cant": "text format without lengths", "anchors": ["src/libgit2/tag.c: write_tag_annotation, tag_parse"]}
{"id": "C53", "title": "Summary and body of a commit message", "statement": "The summary of a message is its first paragraph with its lines joined into one line, and summary and body together hold every word of the message in order.", "quantifier": "all messages", "why_tests_cant": "depends on every placement of white space and newlines in the message", "anchors": ["src/libgit2/commit.c: git_commit_summary, git_commit_body, git_commit_message"]}
{"id": "C54", "title": "Reading a packed object gives what its delta chain defines, whatever the cache holds and other threads do", "statement": "Reading the object at an offset of a pack returns the type and content that following its chain of deltas to a plain object and applying the deltas defines, and fails exactly when there is none; the shared cache of delta bases never changes an answer, never hands out freed memory and stays within its limit; and a read always finishes.", "quantifier": "all pack files and indexes (also damaged ones), all offsets, any number of threads and all interleavings of their cache accesses, chains of any length", "why_tests_cant": "the cache contents depend on what all threads read before; reference counts protect entries only if right in every interleaving; chain length is unbounded", "anchors": ["src/libgit2/pack.c: git_packfile_unpack, pack_dependency_chain, get_delta_base, git_packfile_unpack_header, packfile_unpack_compressed, cache_get, cache_add, free_lowest_entry"]}
{"id": "C55", "title": "Size and type of a packed object agree with the object, and asking for them is safe", "statement": "Asking for the size and type of a packed object gives the length and type of the object that reading it gives; on a damaged pack it reports an error.", "quantifier": "all pack files (also damaged ones) and offsets", "why_tests_cant": "every way a pack can be damaged at every place of every chain", "anchors": ["src/libgit2/pack.c: git_packfile_resolve_header", "src/libgit2/delta.c: git_delta_read_header_fromstream"]}
{"id": "C56", "title": "A line diff tells the truth about the two texts", "statement": "Diffing two texts always succeeds and reports hunks such that the kept lines together with the context and removed lines are exactly the old text, and with the context and added lines exactly the new one; headers and line numbers are right; nothing is reported exactly if the texts are equal; each hunk has the requested context and hunks are apart by more than the requested distance.", "quantifier": "all pairs of texts (any bytes, with or without a final newline), all context and interhunk settings, minimal or not, any indentation scores", "why_tests_cant": "the algorithm searches edit paths with cost cut-offs, discards lines beforehand and slides changes afterwards; which of this happens depends on the whole of both texts", "anchors": ["deps/xdiff/xprepare.c: xdl_prepare_env, xdl_trim_ends, xdl_cleanup_records", "deps/xdiff/xdiffi.c: xdl_split, xdl_recs_cmp, xdl_change_compact, xdl_build_script", "deps/xdiff/xemit.c: xdl_get_hunk, xdl_emit_diff", "src/libgit2/diff_xdiff.c: git_xdiff, diff_update_lines"]}
{"id": "C57", "title": "Applying a diff to the old text gives the new text", "statement": "The hunks that diffing two texts reports, applied to the old text, give exactly the new text.", "quantifier": "all pairs of texts and all diff settings", "why_tests_cant": "two programs written against each other's unstated assumptions, over all pairs of texts", "anchors": ["src/libgit2/diff_xdiff.c: git_xdiff", "src/libgit2/apply.c: git_apply__patch, apply_hunk", "deps/xdiff/xdiffi.c: xdl_diff"]}
{"id": "C58", "title": "A three-way file merge neither loses nor invents lines", "statement": "Merging two versions of a text with their common base always ends; the three texts can be cut into pieces such that the result is, in order, the pieces both sides agree on, the pieces only one side changed (as that side has them), and for each piece both changed differently the conflict in the requested form (both versions between markers, with the base's in the diff3 styles, one favoured side, or both); the number of conflicts is the number of those pieces, and a piece counts as changed by one side only if unchanged lines separate it from every other change. The mode of the result is the changed one. Binary files are never mixed.", "quantifier": "all triples of texts (any bytes, with or without final newline, CRLF or LF), all styles, favours, marker sizes and labels, all modes", "why_tests_cant": "several passes rewrite the list of conflicts with line offsets into three texts; every combination of overlapping changes matters", "anchors": ["deps/xdiff/xmerge.c: xdl_merge, xdl_do_merge, xdl_append_merge, xdl_refine_conflicts, xdl_simplify_non_conflicts, xdl_refine_zdiff3_conflicts, xdl_fill_merge_buffer, fill_conflict_hunk, is_cr_needed", "src/libgit2/merge_file.c: merge_file__xdiff, merge_file__binary, merge_file__is_binary, git_merge_file", "src/libgit2/merge.h: git_merge_file__best_mode"]}
{"id": "C59", "title": "What does not conflict is merged", "statement": "If one side did not change the base the merge is the other side; if both made the same change it is that; if the changes of the two sides (as their diffs show them) are separated by unchanged lines the merge has no conflict and holds both; and a merge without conflicts does not depend on which side is which.", "quantifier": "all triples of texts, all merge options", "why_tests_cant": "relates the outcome on three arbitrary texts to two diffs of them", "anchors": ["deps/xdiff/xmerge.c: xdl_merge, xdl_do_merge"]}
{"id": "C60", "title": "The tree written from an index is the index", "statement": "After any history of adding, replacing, removing, conflict handling and earlier tree writes, writing the index as a tree stores a tree, readable with all its subtrees and in canonical form, whose files with modes and ids are exactly the entries of the index, although unchanged directories are taken from a cache of ids; it changes no entry and removes no object, refuses an index with conflicts, and succeeds when every entry may be in a tree.", "quantifier": "all histories of index calls and tree writes, all paths, all object stores the calls meet", "why_tests_cant": "the cache is right only if every operation in every order invalidates every directory it touches", "anchors": ["src/libgit2/tree.c: git_tree__write_index, write_tree, find_next_dir", "src/libgit2/tree-cache.c: git_tree_cache_invalidate_path, git_tree_cache_get, git_tree_cache_read_tree", "src/libgit2/index.c: git_index_write_tree, git_index_write_tree_to, git_index_add, index_remove_entry, git_index_clear"]}
{"id": "C61", "title": "A tree id stands for the files", "statement": "Two indexes that hold the same files with the same modes and ids are written as the same tree id, whatever happened before, what the caches hold and what is in the repositories; and, unless two objects share an id, equal tree ids mean equal files.", "quantifier": "all pairs of histories of two indexes in any repositories", "why_tests_cant": "relates any two histories, with and without cached directories", "anchors": ["src/libgit2/tree.c: git_tree__write_index, write_tree, git_treebuilder_write", "src/libgit2/tree-cache.c: git_tree_cache_get"]}
{"id": "C62", "title": "A memory window stays while somebody points into it", "statement": "Reading packs through windows shared by all threads: an address handed out points to the requested offset of the file inside a mapped window, with at least the bytes asked for; the window a cursor points to is not unmapped or freed until that cursor moves or is closed, whatever other threads do; no call touches a freed window; the memory limit is kept unless all windows are in use, closing the least recently used ones first, and the mapped bytes are counted correctly.", "quantifier": "all histories and interleavings of opening, closing, registering files, changing limits and failing mmaps", "why_tests_cant": "use-after-free appears only for particular interleavings, limits and mmap failures", "anchors": ["src/libgit2/mwindow.c: git_mwindow_open, git_mwindow_close, new_window_locked, git_mwindow_close_lru_window_locked, git_mwindow_scan_recently_used, git_mwindow_file_register, git_mwindow_free_all"]}
{"id": "C63", "title": "A shared pack is freed by its last user", "statement": "Repositories that open the same pack file share one object: while somebody holds it it is not freed, everybody who asks for the name gets the same one, and it is freed exactly when the last holder gives it back.", "quantifier": "all interleavings of getting and putting packs", "why_tests_cant": "reference counting errors appear only in particular interleavings", "anchors": ["src/libgit2/mwindow.c: git_mwindow_get_pack, git_mwindow_put_pack"]}
{"id": "C64", "title": "Packing the references changes no reference", "statement": "Packing the loose references succeeds when each of them can be read and names an existing object, and otherwise changes nothing; afterwards every reference points to what it pointed to before, packed tags carry the id of the object they tag (fully peeled, as the file's header says), exactly the files that could be packed are gone, and symbolic references and references locked by others keep their files. Deleting a packed reference removes that one only. A loose reference that is written is read back.", "quantifier": "all repositories (any number of loose and packed references, any names, loose overriding packed), all objects, all sets of locked references", "why_tests_cant": "the outcome depends on which of any number of references are loose, packed, both, symbolic, locked or tags", "anchors": ["src/libgit2/refdb_fs.c: refdb_fs_backend__compress, packed_loadloose, loose_lookup_to_packfile, packed_write, packed_write_ref, packed_find_peel, packed_remove_loose, packed_delete, loose_lookup, loose_commit"]}
{"id": "C65", "title": "A reference is found in the packed file", "statement": "Looking a name up in a packed-refs file by bisection finds it with its id and peeled id exactly if the file holds it, as reading the whole file does; and whatever bytes the file holds, neither reads outside it or runs forever.", "quantifier": "all files (any number and size of records, any bytes), all names", "why_tests_cant": "bisection lands on any byte of any record; peeled lines, record ends and the first and last record are boundary cases for every file", "anchors": ["src/libgit2/refdb_fs.c: packed_lookup, start_of_record, end_of_record, cmp_record_to_refname, packed_unsorted_lookup, packed_reload, packed_set_peeling_mode, packed_map_check"]}
{"id": "C66", "title": "A protocol stream means the same however it arrives", "statement": "The packets a server sends are read as exactly those packets, each from its own bytes, whatever pieces the stream arrives in, and bytes behind the last flush are kept for the next reader; each kind of packet (references with capabilities, acknowledgements, bands, errors, push reports, shallow lines) is read with exactly its contents; what the client writes (wants with capabilities, haves, shallow lines, flush, done) is a sequence of well-formed packets asking exactly for the references not yet there.", "quantifier": "all streams of packets, all ways to cut them into reads, all packet contents, any stale bytes in the receive buffer", "why_tests_cant": "the number of ways a stream can be cut into reads is unbounded, and a reader that looks behind its packet goes wrong only for some of them", "anchors": ["src/libgit2/transports/smart_pkt.c: git_pkt_parse_line, parse_len, ref_pkt, set_data, ack_pkt, ok_pkt, ng_pkt, unpack_pkt, shallow_pkt, git_pkt_buffer_wants, git_pkt_buffer_have", "src/libgit2/transports/smart_protocol.c: git_smart__store_refs", "src/libgit2/transports/smart.c: git_smart__recv"]}
{"id": "C67", "title": "No bytes from the network break the packet reader", "statement": "Whatever bytes a server sends, in whatever pieces, the packet reader reads no byte outside its buffer, ends, takes from the buffer at most what was received, and reports a packet only when all its bytes are there.", "quantifier": "all byte streams and all ways to cut them into reads", "why_tests_cant": "memory safety against an adversarial peer, for every stream", "anchors": ["src/libgit2/transports/smart_pkt.c: git_pkt_parse_line and the functions it calls", "src/libgit2/transports/smart_protocol.c: git_smart__store_refs"]}
{"id": "C68", "title": "A commit-graph file says what was written", "statement": "Writing a commit-graph for any set of commits that contains their parents gives a file whose checksum is right and in which every commit is found by its id with exactly its tree, time and parents (in order, any number), and every abbreviated id finds the one commit it abbreviates, none, or is ambiguous; a set with a missing parent is refused; and whatever bytes a file holds, opening it, looking up any id and following any parent reads nothing outside the file and ends.", "quantifier": "all sets of commits (any number of parents, any order, duplicates), all ids and prefixes, all byte sequences as files", "why_tests_cant": "the tables depend on each other through offsets and indices for every number of commits and parents; files come from disk", "anchors": ["src/libgit2/commit_graph.c: git_commit_graph_file_parse, git_commit_graph_entry_find, git_commit_graph_entry_get_byindex, git_commit_graph_entry_parent, git_commit_graph_validate, commit_graph_write"]}
{"id": "C69", "title": "Generation numbers in a commit-graph", "statement": "In a written commit-graph every commit has as generation number one more than the largest of its parents (1 for roots), up to the largest the format holds, whatever the history.", "quantifier": "all histories", "why_tests_cant": "depends on the order in which an unbounded graph is traversed", "anchors": ["src/libgit2/commit_graph.c: compute_generation_numbers, commit_graph_write"]}
{"id": "C70", "title": "A multi-pack-index says what is in the packs", "statement": "Writing a multi-pack-index for any packs with distinct names of the usual form gives a file whose last bytes are the hash of the rest, that the reader accepts, and in which every object of every pack is found by its id, in a pack that holds it and at the offset it has there (also beyond 2 GiB); an abbreviated id finds the one object it abbreviates, none, or is ambiguous; and the file lists exactly the ids of the objects, each once, in increasing order.", "quantifier": "all sets of packs (any number, any order of insertion, objects in several packs, any offsets below 2^63) with at least one and at most 2^28 objects", "why_tests_cant": "sorting, deduplication, padding, the fan-out table and both offset tables must fit together for every set of packs; boundary cases lie at 2^31 bytes and beyond", "anchors": ["src/libgit2/midx.c: midx_write, git_midx_parse, git_midx_entry_find, git_midx_foreach_entry"]}
{"id": "C71", "title": "No multi-pack-index makes the reader leave the file", "statement": "Whatever bytes a multi-pack-index file holds, opening it, enumerating it and looking up any id or abbreviation reads nothing outside the file, overflows no arithmetic and ends; an entry that is found has an id that the file lists and a pack that it names.", "quantifier": "all byte strings of less than 5 GiB, all ids and abbreviations", "why_tests_cant": "memory safety for every byte string", "anchors": ["src/libgit2/midx.c: git_midx_parse, git_midx_entry_find, git_midx_foreach_entry"]}
{"id": "C72", "title": "The extensions of an index file are read back as written", "statement": "An index file written with a tree cache, names of conflicts and resolve-undo entries is read back with the same ones: the same directories with the same counts and, where the count is known, ids; the same names; the same paths, modes and, where the mode is not zero, ids.", "quantifier": "all tree caches (any depth and width), all lists of names and of resolve-undo entries, all index versions", "why_tests_cant": "text numbers, NUL-ended names and ids without lengths follow each other for any nesting; one missing or extra byte shifts everything after it", "anchors": ["src/libgit2/tree-cache.c: git_tree_cache_read, git_tree_cache_write", "src/libgit2/index.c: read_extension, read_reuc, read_conflict_names, write_tree_extension, write_name_extension, write_reuc_extension"]}
{"id": "C73", "title": "No index extension makes the reader leave it", "statement": "Whatever bytes an extension of an index file holds, reading it ends, reads at most one byte behind it (which the index checksum provides and which has no influence) and gives an error or well-formed contents; a tree cache has at most a fifth as many directories as there are bytes, which also bounds the recursion.", "quantifier": "all byte strings", "why_tests_cant": "memory safety for every byte string and any nesting", "anchors": ["src/libgit2/tree-cache.c: read_tree_internal", "src/libgit2/index.c: read_reuc, read_conflict_names"]}
{"id": "C74", "title": "FETCH_HEAD says what was fetched", "statement": "Writing fetched references to FETCH_HEAD, behind whatever it holds already, and reading it reports what it reported before followed by every reference written, exactly once, those to be merged first and then by name, each with its id, its url, its name and whether it is to be merged; a callback that stops the reading is called for nothing further and its answer is returned; and whatever bytes FETCH_HEAD holds, reading it stays inside its text and ends.", "quantifier": "all lists of references, all names and urls, all previous contents, all callbacks, all byte strings", "why_tests_cant": "names and urls are free text inside a line format whose reader searches for quotes, tabs and prefixes; sorting and appending are over lists of any length", "anchors": ["src/libgit2/fetchhead.c: git_fetchhead_write, fetchhead_ref_write, git_fetchhead_ref_cmp, fetchhead_ref_parse, git_repository_fetchhead_foreach"]}
{"id": "C75", "title": "A mailmap resolves to the last entry that fits", "statement": "After any additions to a mailmap, in any order, resolving a name and an email gives the real name and email of the last addition for exactly this name and email; if there is none, of the last addition for this email with any name; if there is none, the name and email as they are.", "quantifier": "all sequences of additions, all names and emails", "why_tests_cant": "entries are kept sorted and searched by bisection; replacement, insertion and the fall-back interact for every set of entries", "anchors": ["src/libgit2/mailmap.c: git_mailmap_add_entry, mailmap_entry_cmp, git_mailmap_entry_lookup, git_mailmap_resolve", "src/util/vector.c: git_vector_insert_sorted, git_vector_bsearch"]}
{"id": "C76", "title": "A mailmap file means its lines", "statement": "A mailmap read from a text holds exactly the entries its lines say, in their order: one person (a name, an email in angle brackets) or two, with spaces around and a comment at the end; lines that say nothing are skipped; and whatever the text, reading stays inside it and ends.", "quantifier": "all texts", "why_tests_cant": "the parser runs over lines of any shape with comments, spaces and brackets anywhere", "anchors": ["src/libgit2/mailmap.c: parse_mailmap_entry, advance_until, is_eol, mailmap_add_buffer, git_mailmap_from_buffer", "src/libgit2/parse.c: git_parse_advance_ws, git_parse_peek, git_parse_advance_line"]}
{"id": "C77", "title": "The ident filter changes only the keyword", "statement": "For a file with the ident attribute, checking out puts the id of the blob into the first keyword $Id$, storing takes it out again, everything else stays as it is, binary files are left alone; storing what was checked out gives what was stored, and storing twice is storing once.", "quantifier": "all file contents, all ids", "why_tests_cant": "the keyword may stand anywhere, next to other dollars and at the very end; the loop that looks for it has several exits", "anchors": ["src/libgit2/ident.c: ident_find_id, ident_insert_id, ident_remove_id, ident_apply", "src/util/str.c: git_str_is_binary, git_str_detect_bom"]}
{"id": "C78", "title": "A path is its directory and its last part", "statement": "The last part of a path is what stands between the slashes at its end and the slashes before it; its directory is what stands before those, without slashes at its end, \"/\" if only slashes stand there and \".\" if nothing does; a path of slashes is \"/\" for both, the empty path \".\".", "quantifier": "all paths", "why_tests_cant": "slashes may be repeated anywhere; four loops run backwards and stop at the first byte, where the meaning changes", "anchors": ["src/util/fs_path.c: git_fs_path_basename_r, git_fs_path_dirname_r"]}
