p("C41","Octopus merge base","The octopus merge base reported for a list of commits is an ancestor of all of them; it is a best such ancestor, and not-found means there is none.","all commit graphs, all lists of commits, all timestamps","iterates pairwise merge bases over unbounded criss-cross histories",["src/libgit2/merge.c: git_merge_base_octopus"])
p("C42","A lookup beside writers and a packer returns a value the reference had","A reference lookup that runs while other processes update the reference and pack references returns a value the reference had at some moment during the lookup; in particular it never reports a reference missing that existed throughout.","all interleavings of any number of writers, lookups and packing runs, all values","depends on the interleaving of two separate file reads with other processes' file operations",["src/libgit2/refdb_fs.c: refdb_fs_backend__lookup, packed_write, packed_remove_loose, loose_commit"])
p("C43","Setting or deleting a configuration key changes only that key","After a configuration key is set in a file, the key has exactly the new value and every other key keeps its values in their order; deleting a key removes it and nothing else; setting or deleting a multi-valued key touches exactly the values that match the expression.","all file contents (comments, continuations, sections split over the file, missing final newline), all keys and values","the rewrite interleaves copied text with new lines and the result depends on how every line of an arbitrary file parses",["src/libgit2/config_file.c: config_file_write, write_on_section, write_on_variable, write_on_comment, write_on_eof, config_file_set, config_file_delete, config_file_set_multivar, config_file_delete_multivar","src/libgit2/config_parse.c: git_config_parse"])
p("C44","Walking a tree yields each entry once, in path order","Iterating over a tree object whose subtrees are all present yields every entry reachable below it exactly once, with its full path, mode and id, in ascending byte order of the paths (directories ending in a slash); subtrees are yielded only when asked for; a subtree that is missing makes the iteration fail.","all object stores and trees of any depth and width, all flag combinations","trees nest without bound; the explicit stack of frames and the path buffer must stay right at every return from a subtree",["src/libgit2/iterator.c: git_iterator_for_tree, tree_iterator_advance, tree_iterator_frame_push, tree_iterator_frame_pop, tree_iterator_compute_path"])
p("C45","A path list restricts a tree walk to exactly the listed paths","Iterating over a tree with a list of paths yields exactly the entries that are a listed path or lie inside one (and the directories leading there, when directories are asked for).","all trees, all sorted lists of paths","the position in the list moves forward during the walk, so a wrong answer depends on what was seen before",["src/libgit2/iterator.c: iterator_pathlist_next_is, tree_iterator_advance"])
p("C46","Hash computations in different threads do not disturb each other","Computing digests in several threads at once, each with its own context, gives every thread the digest of its own data.","all data and all interleavings of the threads","depends on the interleaving of single memory accesses between threads",["src/util/hash/rfc6234/sha224-256.c: SHA224_256AddLength, addTemp, SHA256Input"])
p("C47","Reading an ignore file always finishes","Reading any ignore file ends after a number of steps bounded by its length, whatever bytes it holds, so a query about a path always returns.","all byte contents of ignore files","a test can only try some files; a loop that makes no progress depends on the bytes at a line start",["src/libgit2/ignore.c: parse_ignore_file","src/libgit2/attr_file.c: git_attr_fnmatch__parse"])
p("C48","Checkout in a clean working directory produces exactly the target","When the working directory holds exactly the files of the baseline, a safe checkout succeeds and leaves exactly the files of the target, with their modes and contents: nothing missing, nothing left over.","all pairs of baseline and target, including files that become directories and back, links and executables","the result depends on the interplay of removals, directory clean-up, blob writes and link writes over unbounded trees",["src/libgit2/checkout.c: git_checkout_iterator, checkout_get_actions, checkout_remove_the_old, checkout_create_the_new, checkout_write_content"])
p("C49","A commit written from its parts reads back as the same parts","Creating a commit buffer from tree, parents, author, committer, encoding and message and parsing it gives back exactly these; further header lines change nothing else; the quick parse used for walking agrees with the full parse on parents and committer; any bytes give a commit or an error.","all ids, parent lists, storable signatures, encodings and messages; all bytes for the parser","the text format has no lengths, so every byte of every part matters",["src/libgit2/commit.c: git_commit__create_buffer_internal, commit_parse","src/libgit2/object.c: git_object__parse_oid_header, git_object__write_oid_header"])
p("C50","Creating a commit: success means stored, and only on top of the branch tip","When creating a commit reports success the commit object is in the object store, and if a branch was to be updated its old tip was the commit's first parent and it now points at the commit; a failure leaves branch and objects alone.","all repositories, parents, and all combinations of failing store operations","needs every failing store operation at every step",["src/libgit2/commit.c: git_commit__create_internal, validate_tree_and_parents"])
p("C51","A signed commit gives back its signature and the signed data","Extracting the signature from a commit created with a signature returns exactly that signature and exactly the unsigned commit content, and the signed commit parses to the same parts; an unsigned commit has no signature.","all commit contents, signatures (any lines) and field names","the signature is arbitrary text folded into header lines",["src/libgit2/commit.c: git_commit_create_with_signature, git_commit__extract_signature, format_header_field"])
p("C52","An annotated tag written from its parts reads back as the same parts","Writing a tag object from name, target, type, tagger and message and parsing it gives back exactly these; any bytes give a tag or an error.","all names, ids, types, storable taggers and messages; all bytes for the parser","text format without lengths",["src/libgit2/tag.c: write_tag_annotation, tag_parse"])
p("C53","Summary and body of a commit message","The summary of a message is its first paragraph with its lines joined into one line, and summary and body together hold every word of the message in order.","all messages","depends on every placement of white space and newlines in the message",["src/libgit2/commit.c: git_commit_summary, git_commit_body, git_commit_message"])
p("C54","Reading a packed object gives what its delta chain defines, whatever the cache holds and other threads do","Reading the object at an offset of a pack returns the type and content that following its chain of deltas to a plain object and applying the deltas defines, and fails exactly when there is none; the shared cache of delta bases never changes an answer, never hands out freed memory and stays within its limit; and a read always finishes.","all pack files and indexes (also damaged ones), all offsets, any number of threads and all interleavings of their cache accesses, chains of any length","the cache contents depend on what all threads read before; reference counts protect entries only if right in every interleaving; chain length is unbounded",["src/libgit2/pack.c: git_packfile_unpack, pack_dependency_chain, get_delta_base, git_packfile_unpack_header, packfile_unpack_compressed, cache_get, cache_add, free_lowest_entry"])
p("C55","Size and type of a packed object agree with the object, and asking for them is safe","Asking for the size and type of a packed object gives the length and type of the object that reading it gives; on a damaged pack it reports an error.","all pack files (also damaged ones) and offsets","every way a pack can be damaged at every place of every chain",["src/libgit2/pack.c: git_packfile_resolve_header","src/libgit2/delta.c: git_delta_read_header_fromstream"])
p("C56","A line diff tells the truth about the two texts","Diffing two texts always succeeds and reports hunks such that the kept lines together with the context and removed lines are exactly the old text, and with the context and added lines exactly the new one; headers and line numbers are right; nothing is reported exactly if the texts are equal; each hunk has the requested context and hunks are apart by more than the requested distance.","all pairs of texts (any bytes, with or without a final newline), all context and interhunk settings, minimal or not, any indentation scores","the algorithm searches edit paths with cost cut-offs, discards lines beforehand and slides changes afterwards; which of this happens depends on the whole of both texts",["deps/xdiff/xprepare.c: xdl_prepare_env, xdl_trim_ends, xdl_cleanup_records","deps/xdiff/xdiffi.c: xdl_split, xdl_recs_cmp, xdl_change_compact, xdl_build_script","deps/xdiff/xemit.c: xdl_get_hunk, xdl_emit_diff","src/libgit2/diff_xdiff.c: git_xdiff, diff_update_lines"])
p("C57","Applying a diff to the old text gives the new text","The hunks that diffing two texts reports, applied to the old text, give exactly the new text.","all pairs of texts and all diff settings","two programs written against each other's unstated assumptions, over all pairs of texts",["src/libgit2/diff_xdiff.c: git_xdiff","src/libgit2/apply.c: git_apply__patch, apply_hunk","deps/xdiff/xdiffi.c: xdl_diff"])
p("C58","A three-way file merge neither loses nor invents lines","Merging two versions of a text with their common base always ends; the three texts can be cut into pieces such that the result is, in order, the pieces both sides agree on, the pieces only one side changed (as that side has them), and for each piece both changed differently the conflict in the requested form (both versions between markers, with the base's in the diff3 styles, one favoured side, or both); the number of conflicts is the number of those pieces, and a piece counts as changed by one side only if unchanged lines separate it from every other change. The mode of the result is the changed one. Binary files are never mixed.","all triples of texts (any bytes, with or without final newline, CRLF or LF), all styles, favours, marker sizes and labels, all modes","several passes rewrite the list of conflicts with line offsets into three texts; every combination of overlapping changes matters",["deps/xdiff/xmerge.c: xdl_merge, xdl_do_merge, xdl_append_merge, xdl_refine_conflicts, xdl_simplify_non_conflicts, xdl_refine_zdiff3_conflicts, xdl_fill_merge_buffer, fill_conflict_hunk, is_cr_needed","src/libgit2/merge_file.c: merge_file__xdiff, merge_file__binary, merge_file__is_binary, git_merge_file","src/libgit2/merge.h: git_merge_file__best_mode"])
p("C59","What does not conflict is merged","If one side did not change the base the merge is the other side; if both made the same change it is that; if the changes of the two sides (as their diffs show them) are separated by unchanged lines the merge has no conflict and holds both; and a merge without conflicts does not depend on which side is which.","all triples of texts, all merge options","relates the outcome on three arbitrary texts to two diffs of them",["deps/xdiff/xmerge.c: xdl_merge, xdl_do_merge"])
p("C60","The tree written from an index is the index","After any history of adding, replacing, removing, conflict handling and earlier tree writes, writing the index as a tree stores a tree, readable with all its subtrees and in canonical form, whose files with modes and ids are exactly the entries of the index, although unchanged directories are taken from a cache of ids; it changes no entry and removes no object, refuses an index with conflicts, and succeeds when every entry may be in a tree.","all histories of index calls and tree writes, all paths, all object stores the calls meet","the cache is right only if every operation in every order invalidates every directory it touches",["src/libgit2/tree.c: git_tree__write_index, write_tree, find_next_dir","src/libgit2/tree-cache.c: git_tree_cache_invalidate_path, git_tree_cache_get, git_tree_cache_read_tree","src/libgit2/index.c: git_index_write_tree, git_index_write_tree_to, git_index_add, index_remove_entry, git_index_clear"])
p("C61","A tree id stands for the files","Two indexes that hold the same files with the same modes and ids are written as the same tree id, whatever happened before, what the caches hold and what is in the repositories; and, unless two objects share an id, equal tree ids mean equal files.","all pairs of histories of two indexes in any repositories","relates any two histories, with and without cached directories",["src/libgit2/tree.c: git_tree__write_index, write_tree, git_treebuilder_write","src/libgit2/tree-cache.c: git_tree_cache_get"])

p("C62","A memory window stays while somebody points into it","Reading packs through windows shared by all threads: an address handed out points to the requested offset of the file inside a mapped window, with at least the bytes asked for; the window a cursor points to is not unmapped or freed until that cursor moves or is closed, whatever other threads do; no call touches a freed window; the memory limit is kept unless all windows are in use, closing the least recently used ones first, and the mapped bytes are counted correctly.","all histories and interleavings of opening, closing, registering files, changing limits and failing mmaps","use-after-free appears only for particular interleavings, limits and mmap failures",["src/libgit2/mwindow.c: git_mwindow_open, git_mwindow_close, new_window_locked, git_mwindow_close_lru_window_locked, git_mwindow_scan_recently_used, git_mwindow_file_register, git_mwindow_free_all"])
p("C63","A shared pack is freed by its last user","Repositories that open the same pack file share one object: while somebody holds it it is not freed, everybody who asks for the name gets the same one, and it is freed exactly when the last holder gives it back.","all interleavings of getting and putting packs","reference counting errors appear only in particular interleavings",["src/libgit2/mwindow.c: git_mwindow_get_pack, git_mwindow_put_pack"])

p("C64","Packing the references changes no reference","Packing the loose references succeeds when each of them can be read and names an existing object, and otherwise changes nothing; afterwards every reference points to what it pointed to before, packed tags carry the id of the object they tag (fully peeled, as the file's header says), exactly the files that could be packed are gone, and symbolic references and references locked by others keep their files. Deleting a packed reference removes that one only. A loose reference that is written is read back.","all repositories (any number of loose and packed references, any names, loose overriding packed), all objects, all sets of locked references","the outcome depends on which of any number of references are loose, packed, both, symbolic, locked or tags",["src/libgit2/refdb_fs.c: refdb_fs_backend__compress, packed_loadloose, loose_lookup_to_packfile, packed_write, packed_write_ref, packed_find_peel, packed_remove_loose, packed_delete, loose_lookup, loose_commit"])
p("C65","A reference is found in the packed file","Looking a name up in a packed-refs file by bisection finds it with its id and peeled id exactly if the file holds it, as reading the whole file does; and whatever bytes the file holds, neither reads outside it or runs forever.","all files (any number and size of records, any bytes), all names","bisection lands on any byte of any record; peeled lines, record ends and the first and last record are boundary cases for every file",["src/libgit2/refdb_fs.c: packed_lookup, start_of_record, end_of_record, cmp_record_to_refname, packed_unsorted_lookup, packed_reload, packed_set_peeling_mode, packed_map_check"])

p("C66","A protocol stream means the same however it arrives","The packets a server sends are read as exactly those packets, each from its own bytes, whatever pieces the stream arrives in, and bytes behind the last flush are kept for the next reader; each kind of packet (references with capabilities, acknowledgements, bands, errors, push reports, shallow lines) is read with exactly its contents; what the client writes (wants with capabilities, haves, shallow lines, flush, done) is a sequence of well-formed packets asking exactly for the references not yet there.","all streams of packets, all ways to cut them into reads, all packet contents, any stale bytes in the receive buffer","the number of ways a stream can be cut into reads is unbounded, and a reader that looks behind its packet goes wrong only for some of them",["src/libgit2/transports/smart_pkt.c: git_pkt_parse_line, parse_len, ref_pkt, set_data, ack_pkt, ok_pkt, ng_pkt, unpack_pkt, shallow_pkt, git_pkt_buffer_wants, git_pkt_buffer_have","src/libgit2/transports/smart_protocol.c: git_smart__store_refs","src/libgit2/transports/smart.c: git_smart__recv"])
p("C67","No bytes from the network break the packet reader","Whatever bytes a server sends, in whatever pieces, the packet reader reads no byte outside its buffer, ends, takes from the buffer at most what was received, and reports a packet only when all its bytes are there.","all byte streams and all ways to cut them into reads","memory safety against an adversarial peer, for every stream",["src/libgit2/transports/smart_pkt.c: git_pkt_parse_line and the functions it calls","src/libgit2/transports/smart_protocol.c: git_smart__store_refs"])

p("C68","A commit-graph file says what was written","Writing a commit-graph for any set of commits that contains their parents gives a file whose checksum is right and in which every commit is found by its id with exactly its tree, time and parents (in order, any number), and every abbreviated id finds the one commit it abbreviates, none, or is ambiguous; a set with a missing parent is refused; and whatever bytes a file holds, opening it, looking up any id and following any parent reads nothing outside the file and ends.","all sets of commits (any number of parents, any order, duplicates), all ids and prefixes, all byte sequences as files","the tables depend on each other through offsets and indices for every number of commits and parents; files come from disk",["src/libgit2/commit_graph.c: git_commit_graph_file_parse, git_commit_graph_entry_find, git_commit_graph_entry_get_byindex, git_commit_graph_entry_parent, git_commit_graph_validate, commit_graph_write"])
p("C69","Generation numbers in a commit-graph","In a written commit-graph every commit has as generation number one more than the largest of its parents (1 for roots), up to the largest the format holds, whatever the history.","all histories","depends on the order in which an unbounded graph is traversed",["src/libgit2/commit_graph.c: compute_generation_numbers, commit_graph_write"])

p("C70","A multi-pack-index says what is in the packs","Writing a multi-pack-index for any packs with distinct names of the usual form gives a file whose last bytes are the hash of the rest, that the reader accepts, and in which every object of every pack is found by its id, in a pack that holds it and at the offset it has there (also beyond 2 GiB); an abbreviated id finds the one object it abbreviates, none, or is ambiguous; and the file lists exactly the ids of the objects, each once, in increasing order.","all sets of packs (any number, any order of insertion, objects in several packs, any offsets below 2^63) with at least one and at most 2^28 objects","sorting, deduplication, padding, the fan-out table and both offset tables must fit together for every set of packs; boundary cases lie at 2^31 bytes and beyond",["src/libgit2/midx.c: midx_write, git_midx_parse, git_midx_entry_find, git_midx_foreach_entry"])
p("C71","No multi-pack-index makes the reader leave the file","Whatever bytes a multi-pack-index file holds, opening it, enumerating it and looking up any id or abbreviation reads nothing outside the file, overflows no arithmetic and ends; an entry that is found has an id that the file lists and a pack that it names.","all byte strings of less than 5 GiB, all ids and abbreviations","memory safety for every byte string",["src/libgit2/midx.c: git_midx_parse, git_midx_entry_find, git_midx_foreach_entry"])

p("C72","The extensions of an index file are read back as written","An index file written with a tree cache, names of conflicts and resolve-undo entries is read back with the same ones: the same directories with the same counts and, where the count is known, ids; the same names; the same paths, modes and, where the mode is not zero, ids.","all tree caches (any depth and width), all lists of names and of resolve-undo entries, all index versions","text numbers, NUL-ended names and ids without lengths follow each other for any nesting; one missing or extra byte shifts everything after it",["src/libgit2/tree-cache.c: git_tree_cache_read, git_tree_cache_write","src/libgit2/index.c: read_extension, read_reuc, read_conflict_names, write_tree_extension, write_name_extension, write_reuc_extension"])
p("C73","No index extension makes the reader leave it","Whatever bytes an extension of an index file holds, reading it ends, reads at most one byte behind it (which the index checksum provides and which has no influence) and gives an error or well-formed contents; a tree cache has at most a fifth as many directories as there are bytes, which also bounds the recursion.","all byte strings","memory safety for every byte string and any nesting",["src/libgit2/tree-cache.c: read_tree_internal","src/libgit2/index.c: read_reuc, read_conflict_names"])

p("C74","FETCH_HEAD says what was fetched","Writing fetched references to FETCH_HEAD, behind whatever it holds already, and reading it reports what it reported before followed by every reference written, exactly once, those to be merged first and then by name, each with its id, its url, its name and whether it is to be merged; a callback that stops the reading is called for nothing further and its answer is returned; and whatever bytes FETCH_HEAD holds, reading it stays inside its text and ends.","all lists of references, all names and urls, all previous contents, all callbacks, all byte strings","names and urls are free text inside a line format whose reader searches for quotes, tabs and prefixes; sorting and appending are over lists of any length",["src/libgit2/fetchhead.c: git_fetchhead_write, fetchhead_ref_write, git_fetchhead_ref_cmp, fetchhead_ref_parse, git_repository_fetchhead_foreach"])

p("C75","A mailmap resolves to the last entry that fits","After any additions to a mailmap, in any order, resolving a name and an email gives the real name and email of the last addition for exactly this name and email; if there is none, of the last addition for this email with any name; if there is none, the name and email as they are.","all sequences of additions, all names and emails","entries are kept sorted and searched by bisection; replacement, insertion and the fall-back interact for every set of entries",["src/libgit2/mailmap.c: git_mailmap_add_entry, mailmap_entry_cmp, git_mailmap_entry_lookup, git_mailmap_resolve","src/util/vector.c: git_vector_insert_sorted, git_vector_bsearch"])
p("C76","A mailmap file means its lines","A mailmap read from a text holds exactly the entries its lines say, in their order: one person (a name, an email in angle brackets) or two, with spaces around and a comment at the end; lines that say nothing are skipped; and whatever the text, reading stays inside it and ends.","all texts","the parser runs over lines of any shape with comments, spaces and brackets anywhere",["src/libgit2/mailmap.c: parse_mailmap_entry, advance_until, is_eol, mailmap_add_buffer, git_mailmap_from_buffer","src/libgit2/parse.c: git_parse_advance_ws, git_parse_peek, git_parse_advance_line"])

p("C77","The ident filter changes only the keyword","For a file with the ident attribute, checking out puts the id of the blob into the first keyword $Id$, storing takes it out again, everything else stays as it is, binary files are left alone; storing what was checked out gives what was stored, and storing twice is storing once.","all file contents, all ids","the keyword may stand anywhere, next to other dollars and at the very end; the loop that looks for it has several exits",["src/libgit2/ident.c: ident_find_id, ident_insert_id, ident_remove_id, ident_apply","src/util/str.c: git_str_is_binary, git_str_detect_bom"])
p("C78","A path is its directory and its last part","The last part of a path is what stands between the slashes at its end and the slashes before it; its directory is what stands before those, without slashes at its end, \"/\" if only slashes stand there and \".\" if nothing does; a path of slashes is \"/\" for both, the empty path \".\".","all paths","slashes may be repeated anywhere; four loops run backwards and stop at the first byte, where the meaning changes",["src/util/fs_path.c: git_fs_path_basename_r, git_fs_path_dirname_r"])
