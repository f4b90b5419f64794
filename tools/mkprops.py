#!/usr/bin/env python3
"""Regenerates /verif/properties.jsonl from the table below."""
import json
P=[]
def p(id,title,statement,quantifier,why,anchors):
    P.append(dict(id=id,title=title,statement=statement,quantifier=quantifier,why_tests_cant=why,anchors=anchors))

p("C01","Variable-length integers round-trip and reject overflow",
 "Encoding any 64-bit unsigned value with the index/pack varint coder into a large enough buffer and decoding the bytes (followed by anything) returns the same value and consumes exactly the bytes written; encodings are unique; the coder reports failure instead of writing past the buffer; decoding a byte string denoting a value that does not fit in 64 bits is reported as an error rather than wrapped.",
 "all 64-bit values, all trailing bytes, all buffer sizes, all byte strings",
 "2^64 values and infinitely many byte strings; carry/offset errors only show at a few boundaries",
 ["src/util/varint.c: git_decode_varint, git_encode_varint"])
p("C02","Applying a delta is safe and has the documented meaning",
 "For any base and any delta bytes, applying the delta either fails leaving no output, or succeeds and the output is exactly the concatenation of the copy/insert instructions, has exactly the length announced in the delta header, and the header's base length equals the base's length; no instruction reads outside the base or the delta nor writes outside the output.",
 "all base buffers and all (including hostile) delta byte strings",
 "the delta language is infinite and attacker controlled",
 ["src/libgit2/delta.c: git_delta_apply, hdr_sz, git_delta_read_header"])
p("C03","Delta creation followed by application restores the target",
 "Whenever delta creation from an index over a source buffer succeeds for a non-empty target, applying the produced delta to the source yields exactly the target, and the delta is no longer than the caller's size limit when one is given.",
 "all source and target buffers (within the documented 4GiB limits), all size limits, any hash index contents whose entries point inside the source",
 "depends on arbitrary matches, back-extension of matches, 64KiB splitting and literal run boundaries",
 ["src/libgit2/delta.c: git_delta_create_from_index, git_delta_index_init, git_delta_apply"])
p("C04","Object ids convert to and from hexadecimal faithfully",
 "Formatting an object id and parsing the text gives the id back; parsing accepts exactly strings of hex digits of permitted length (either case) and yields the id whose leading nibbles are those digits and whose remaining nibbles are zero; ordering of ids is the ordering of their hexadecimal text; prefix comparison over n digits is true exactly when the first n hex digits agree.",
 "all ids, all strings, all prefix lengths",
 "2^160 ids and all strings; half-byte prefixes",
 ["src/libgit2/oid.c: git_oid_from_prefix, git_oid_from_string, git_oid_nfmt, git_oid_ncmp, git_oid_cmp, git_oid_strcmp","src/libgit2/oid.h: git_oid_raw_ncmp, git_oid_fmt_substr"])
p("C05","Sorting is a stable sort for every input",
 "The library sort used by every vector returns a permutation of its input that is ordered by the comparison function and keeps elements that compare equal in their original order, and never accesses memory outside the array or the run stack.",
 "all arrays of any length, all comparison functions that are total preorders",
 "run detection, galloping boundaries and merge order depend on length and data patterns; infinite input space",
 ["src/util/tsort.c: git__tsort_r, bisort, binsearch, count_run, merge, collapse"])
p("C06","Binary search in sorted vectors is exact",
 "Searching a sorted vector reports found exactly when an element comparing equal is present and returns the index of such an element; otherwise it returns the unique insertion point that keeps the vector sorted.",
 "all sorted arrays, all keys, all comparators consistent with the order",
 "off-by-one errors only appear at particular sizes and positions",
 ["src/util/util.c: git__bsearch, git__bsearch_r","src/util/vector.c: git_vector_bsearch2, git_vector_insert_sorted, git_vector_uniq, git_vector_remove"])
p("C07","The priority queue always yields the best remaining element",
 "After any sequence of insertions and pops on an unbounded queue, pop returns an element no other remaining element precedes, and the elements held are exactly those inserted and not yet popped; a fixed-size queue holds at most its capacity and keeps the largest elements.",
 "all sequences of inserts and pops, all total-preorder comparators",
 "heap shape depends on the full history",
 ["src/util/pqueue.c: git_pqueue_insert, git_pqueue_pop, pqueue_up, pqueue_down"])
p("C08","Hash maps behave as finite maps",
 "For every sequence of put, get, contains, remove, clear and size operations the hash map answers as a mathematical finite map would, across any number of internal resizes and deleted slots.",
 "all operation histories, all hash functions, all keys with an equality consistent with the hash",
 "collisions, tombstones and rehashing depend on the full history and hash function",
 ["src/util/hashmap.h: __idx, __put_idx, __resize, __remove_at_idx, _clear, _iterate"])
p("C09","Glob matching agrees with the glob language",
 "Wildcard matching of a text against a pattern returns a match exactly when the text belongs to the language of the pattern (literals, ?, *, ** with path separators, escapes, character classes) under the given flags.",
 "all patterns and all texts, all flag combinations",
 "backtracking over unbounded strings",
 ["src/util/wildmatch.c: dowild, wildmatch"])
p("C10","Tree objects are canonical and round-trip",
 "Writing a set of entries with the tree builder produces bytes that parse back to exactly those entries, in git's canonical order, with no duplicate names, so equal sets of entries always give byte-identical objects regardless of the order of insertion/removal operations; the parser rejects malformed bytes and never reads past the end.",
 "all sequences of builder operations, all byte strings given to the parser",
 "arbitrary operation histories and hostile objects",
 ["src/libgit2/tree.c: git_tree__parse_raw, git_treebuilder_insert, git_treebuilder_remove, git_treebuilder__write_with_buffer, git_tree_entry_cmp","src/libgit2/path.c / fs_path.c: git_fs_path_cmp"])
p("C11","Tree entry lookup by name is exact",
 "Looking up a name in a parsed tree returns the entry with exactly that name when there is one and not-found otherwise, for every tree in canonical order, including names that are prefixes of one another and names shared by directories and files order-wise.",
 "all canonically ordered trees, all names",
 "canonical order compares directories as if ending in '/', so a plain binary search is subtly wrong on prefix-related names",
 ["src/libgit2/tree.c: tree_key_search, homing_search_cmp, entry_fromname"])
p("C12","Index file entries round-trip",
 "Serialising index entries and parsing the result reproduces the same entries (path, mode, id, flags, stat fields) in the same order for each supported version, including path compression, and parsing never reads outside the file.",
 "all sorted entry lists, all versions 2-4, all hostile bytes for the parser",
 "padding, extended flags, long names and path compression interact",
 ["src/libgit2/index.c: write_disk_entry, read_entry, index_entry_size"])
p("C13","In-memory index stays sorted, unique and free of file/directory collisions",
 "After any sequence of additions and removals the entries of an index are ordered by (path, stage), hold at most one entry per (path, stage), and adding a path removes exactly the entries that collide with it as file-versus-directory (when replacement is permitted) and leaves all others untouched; lookup answers from that set.",
 "all operation histories",
 "invariants over all histories",
 ["src/libgit2/index.c: index_insert, check_file_directory_collision, has_file_name, has_dir_name, index_find, git_index_remove"])
p("C14","Merge bases are the best common ancestors",
 "The merge bases reported for two commits are exactly the common ancestors of both that are not ancestors of another common ancestor.",
 "all commit graphs (any DAG, any timestamps), all pairs of commits",
 "criss-cross histories, clock skew and unbounded graphs",
 ["src/libgit2/merge.c: git_merge__bases_many, paint_down_to_common, remove_redundant"])
p("C15","Ahead/behind counts and reachability are exact",
 "The ahead count is the number of commits reachable from local and not from upstream, the behind count the converse, and descendant/reachability queries agree with the ancestry relation.",
 "all commit graphs, all timestamps, all pairs",
 "depends on whole-graph traversal order",
 ["src/libgit2/graph.c: mark_parents, ahead_behind, git_graph_descendant_of, git_graph_reachable_from_any"])
p("C16","Revision walks list exactly the visible commits, parents after children when asked",
 "A revision walk yields each commit reachable from the pushed ones and not reachable from the hidden ones exactly once, and with topological sorting no parent before all of its children.",
 "all commit graphs, all push/hide sets, all timestamps",
 "the early-termination heuristic depends on timestamps over unbounded graphs",
 ["src/libgit2/revwalk.c: limit_list, mark_parents_uninteresting, still_interesting, sort_in_topological_order"])
p("C17","Reference names are validated exactly and normalised idempotently",
 "A reference name is accepted exactly when it satisfies git's documented rules for the given flags; a normalised name is itself valid and normalises to itself.",
 "all strings, all flag combinations",
 "infinite strings; rules interact at component boundaries",
 ["src/libgit2/refs.c: git_reference__normalize_name, ensure_segment_validity, is_valid_ref_char"])
p("C18","A file committed through a lock file is never seen half written, and locks exclude",
 "At every moment, including after a crash at any step, the target path holds either its complete previous content or the complete new content, and at most one writer holds the lock; a writer that fails to get the lock changes nothing.",
 "all interleavings of any number of writers, all crash points, all contents",
 "schedules and crash points cannot be enumerated by tests",
 ["src/util/filebuf.c: git_filebuf_open_withsize, lock_file, git_filebuf_commit, git_filebuf_cleanup"])
p("C19","Conditional reference updates are atomic compare-and-swap",
 "When several processes concurrently update, create or delete the same loose reference with an expected old value, each successful update observed the expected value at the moment it took effect, i.e. the successful operations can be ordered so that each reads what the previous one wrote; failed operations change nothing.",
 "all interleavings of any number of processes and operations, all old/new values",
 "interleavings",
 ["src/libgit2/refdb_fs.c: loose_lock, cmp_old_ref, refdb_fs_backend__write_tail, refdb_fs_backend__delete_tail, loose_commit"])
p("C20","Packing references never changes what a lookup returns",
 "At every step (crash point) of compressing references into packed-refs, looking up any reference returns the value it had before.",
 "all sets of loose and packed references, all crash points",
 "crash points and intermediate states",
 ["src/libgit2/refdb_fs.c: refdb_fs_backend__compress, packed_write, packed_remove_loose, refdb_fs_backend__lookup"])
p("C21","Refspec transformation is substitution and is invertible",
 "Transforming a name that matches a refspec's source replaces exactly the text matched by '*' into the destination; transforming back with the reverse direction recovers the original name; names that do not match are rejected.",
 "all valid refspecs and all reference names",
 "pattern and name vary without bound",
 ["src/libgit2/refspec.c: git_refspec__parse, refspec_transform, git_refspec__transform, git_refspec__rtransform"])
p("C22","Configuration values survive write and re-read",
 "Any value without NUL that is written to a configuration file is read back as the identical string after parsing the line(s) produced.",
 "all strings",
 "escaping, quoting, comment characters, leading/trailing whitespace, line continuation",
 ["src/libgit2/config_file.c: escape_value, quotes_for_value, config_file_write","src/libgit2/config_parse.c: unescape_line, parse_multiline_variable, strip_comments"])
p("C23","Integer parsing is exact and overflow-safe",
 "Numeric parsing of configuration/protocol text returns the mathematically correct value of the longest valid numeral, or an error when it does not fit the result type (including k/m/g suffixes); it never wraps around.",
 "all byte strings, all bases, both result widths",
 "overflow boundaries",
 ["src/util/util.c: git__strntol64, git__strntol32","src/libgit2/config.c: git_config_parse_int64, git_config_parse_int32, git_config_parse_bool"])
p("C24","Pack index lookup is exact",
 "Looking up an object id in a well-formed pack index returns its offset exactly when it is listed; looking up an abbreviated id reports found/ambiguous/not-found exactly according to the number of listed ids with that prefix.",
 "all well-formed indexes (v1 and v2, with 64-bit offsets), all ids and prefix lengths",
 "fan-out boundaries and binary search over arbitrary id sets",
 ["src/libgit2/pack.c: pack_entry_find_offset, git_pack__lookup_id, nth_packed_object_offset_locked"])
p("C25","Pack entry headers and delta offsets round-trip",
 "The object header written for an entry in a pack is decoded to the same type and size, and offset-delta back-references decode to the encoded distance; decoding never reads past the data available.",
 "all types and 64-bit sizes, all offsets, all byte strings",
 "bit-packing boundaries",
 ["src/libgit2/pack.c: packfile_unpack1, git_packfile__object_header, get_delta_base"])
p("C26","Object cache is transparent",
 "Whatever the interleaving of cache gets, stores and evictions by any number of threads, an object returned by the cache has the requested id and the content that was stored for it, all threads sharing an id see one object, and an object is freed only when no one holds it.",
 "all interleavings and operation histories, any sizes and limits",
 "schedules",
 ["src/libgit2/cache.c: cache_get, cache_store, cache_evict_entries, git_cached_obj_decref"])
p("C27","Trivial three-way merge follows the merge table and loses nothing",
 "For every path, the merged result is: the common side when both agree, the changed side when only one changed, a conflict recording all three sides when both changed differently; swapping the sides swaps the conflict's sides and nothing else.",
 "all triples of trees",
 "all combinations of per-path states",
 ["src/libgit2/merge.c: merge_conflict_resolve_trivial, merge_delta_type_from_index_entries, git_merge_diff_list__find_differences"])
p("C28","Diff of two sorted sides reports exactly the differences",
 "A diff between two trees lists, in path order, each path present only on the old side as deleted, only on the new side as added, and present in both with a different id or mode as modified (or type-changed), and nothing else.",
 "all pairs of path-sorted trees",
 "merge-join over arbitrary pairs of sequences",
 ["src/libgit2/diff_generate.c: git_diff__from_iterators, handle_unmatched_old_item, handle_unmatched_new_item, handle_matched_item, maybe_modified"])
p("C29","Safe checkout never destroys unsaved work",
 "With the safe strategy (no FORCE, no REMOVE flags) a file of the working directory whose contents are recorded neither in the baseline nor in the target is never updated or removed by a checkout, whatever its outcome; a conflict touches nothing at all.",
 "all combinations of delta status, working-directory item, item kind and strategy flags without FORCE",
 "the decision table has thousands of combinations and calls into each other",
 ["src/libgit2/checkout.c: checkout_action_no_wd, checkout_action_wd_only, checkout_action_with_wd, checkout_action_with_wd_blocker, checkout_action_with_wd_dir, checkout_action_common"])
p("C30","No accepted path can address the .git directory",
 "A path accepted for checkout or index insertion has no component that any supported filesystem would treat as '.git', '.', '..' or empty: no case variant, HFS ignorable-codepoint variant, NTFS short name, trailing dot/space or alternate data stream form.",
 "all byte strings, all protection flag combinations",
 "adversarial strings",
 ["src/libgit2/path.c: git_path_str_is_valid, validate_repo_component, validate_dotgit_hfs, validate_dotgit_ntfs","src/util/fs_path.c"])
p("C31","Commit message clean-up is idempotent and preserves content",
 "Prettifying a message removes only comment lines (when asked), trailing whitespace and surplus blank lines; the result ends with exactly one newline unless empty; prettifying twice equals prettifying once; the non-blank lines are preserved in order.",
 "all byte strings, all comment characters",
 "infinite strings",
 ["src/libgit2/message.c: git_message__prettify, git_message_prettify"])
p("C32","Signatures round-trip",
 "A signature created from a name, email and time, once written into a commit, tag or reflog and parsed again, is equal to the original.",
 "all names, emails, times and offsets accepted by signature creation",
 "trimming rules and offset formatting interact",
 ["src/libgit2/signature.c: git_signature_new, git_signature__writebuf, git_signature__parse"])
p("C33","Base64/base85/percent/path-quoting codecs round-trip",
 "Decoding the base64 or base85 encoding of any bytes returns those bytes, unquoting a quoted path returns the path, and decoders reject malformed text without reading out of bounds.",
 "all byte strings",
 "length-modulo cases and all byte values",
 ["src/util/str.c: git_str_encode_base64, git_str_decode_base64, git_str_encode_base85, git_str_decode_base85, git_str_quote, git_str_unquote"])
p("C34","Hashing in pieces equals hashing at once",
 "Feeding data to the hash in any sequence of chunks gives the digest of the concatenation.",
 "all byte strings and all ways to split them",
 "block-boundary buffering depends on every split",
 ["src/util/hash/sha1/…: sha1dc SHA1DCUpdate/Final","src/util/hash/rfc6234/sha224-256.c"])
p("C35","Ref log entries round-trip and keep history linked",
 "A reflog written by appending entries reads back as the same entries newest-first, and dropping an entry with history rewriting re-links the neighbours so each entry's old id equals the previous entry's new id.",
 "all sequences of append/drop",
 "all histories",
 ["src/libgit2/reflog.c: git_reflog_append, git_reflog_drop","src/libgit2/refdb_fs.c: serialize_reflog_entry, reflog_parse"])
p("C36","Abbreviation lengths are minimal and sufficient",
 "The id shortener returns after each addition a length at which all ids added so far are pairwise distinct (unless equal), and no smaller length above the minimum has that property.",
 "all sequences of ids",
 "trie behaviour over arbitrary histories",
 ["src/libgit2/oid.c: git_oid_shorten_add, push_leaf"])
p("C37","Ignore rules: the last matching rule decides",
 "A path is ignored exactly when the last rule matching it in the most specific applicable rule file is not negated (taking ignored parent directories into account).",
 "all rule lists and paths",
 "ordering and negation over unbounded lists",
 ["src/libgit2/ignore.c: ignore_lookup_in_rules, git_ignore__lookup, git_ignore_path_is_ignored"])
p("C38","Applying a patch reproduces the post-image or fails without output",
 "Applying the hunks computed between two texts to the first text yields the second; applying a patch to a text either fails or replaces exactly the pre-image lines of each hunk.",
 "all texts and all patches",
 "hunk offset arithmetic over arbitrary line sequences",
 ["src/libgit2/apply.c: git_apply__patch, apply_hunk, find_hunk_linenum, update_hunk"])
p("C39","Line-ending conversion is lossless where the library promises it",
 "Converting LF text to CRLF and back gives the original when no carriage returns were present; conversion to the repository form removes exactly CRs before LF, is idempotent on its own output when no lone CR sequences remain, and binary content is left alone.",
 "all byte strings",
 "infinite strings with arbitrary CR/LF patterns",
 ["src/util/str.c: git_str_crlf_to_lf, git_str_lf_to_crlf","src/libgit2/crlf.c: crlf_apply_to_odb, crlf_apply_to_workdir"])
p("C40","UTF-8 scanning accepts exactly well-formed text",
 "The UTF-8 scanner accepts a byte sequence as a character exactly when it is a well-formed encoding per its definition, returns its code point, never reads past the given length, and the valid-length function returns the longest valid prefix.",
 "all byte strings",
 "2^32 four-byte sequences and unbounded buffers",
 ["src/util/utf8.c: utf8_charlen, git_utf8_iterate, git_utf8_valid_buf_length"])
if __name__=="__main__":
    import os
    extra=os.path.join(os.path.dirname(__file__),"props_extra.py")
    if os.path.exists(extra): exec(open(extra).read())
    with open("/verif/properties.jsonl","w") as f:
        for x in P: f.write(json.dumps(x)+"\n")
    print(len(P))
