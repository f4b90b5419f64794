# A machine-checked model of libgit2 in Rocq (Coq 8.16.1)

## Layout

* `properties.jsonl` – the properties (C01 …), generated by `tools/mkprops.py`.
* `MANIFEST.json` – for each property, status and the exact theorem names.
* `rocq/theories/` – for an area `X`:
  * `XModel.v` – executable Gallina transcription of the C functions; each definition cites file and lines in `/repo` and says what was simplified;
  * `XSpec.v` – (when needed) a small independent specification, written without the model's helpers;
  * `XProofs.v` – lemmas;
  * `XProps.v` – only the property theorems, closed by `exact`, with `Print Assumptions`, plus `Example`s that show the hypotheses are met by concrete non-trivial cases and that the model computes the outputs given in libgit2's own test-suite.
* `seeded/LOG.jsonl` – log of seeded-bug experiments (mutations of the model, done in a scratch copy) and their outcome.

## Modelling conventions

* Bytes are `Z` in `[0,256)`, buffers are `list Z`; C strings are lists without 0.
* Fixed-width arithmetic is written out (`mod 2^32`, `mod 2^64`) wherever the C code can wrap; otherwise `Z` with the bound stated.
* Every read through a pointer is a checked read; reading out of bounds, shifting by too much, etc. are a distinct outcome (`UB`) that the safety theorems exclude (or, where the C code really does it, exhibit by a `_refuted` theorem).
* Loops are structural recursion or fuelled recursion; running out of fuel is a distinct outcome excluded by the theorems.
* Memory allocation is assumed to succeed unless stated.
* Concurrent/crash properties: processes are small-step machines over a shared file-system state; a schedule is an arbitrary list of process indices; a crash is stopping a process at any step.

## Per-property plan

| id | what is modelled | how it is proved |
|----|------------------|------------------|
| C01 | varint.c, both functions, 64-bit wrap explicit | induction on 7-bit groups |
| C02 | delta.c `git_delta_apply`, `hdr_sz` with 32-bit shift UB | induction over the instruction stream against a separate denotational spec of the delta language |
| C03 | delta.c `git_delta_create_from_index` byte buffer machine (bufpos, inscnt, count slot, back-extension, 64K split, size limit), index is any table of in-range pointers; and `git_delta_index_init` | loop invariant "bytes so far denote data so far" |
| C04 | oid.c/oid.h parse, format, compare, prefix compare | induction over nibble list |
| C05 | tsort.c whole algorithm on an array with checked accesses | sortedness + permutation + stability invariants; run stack height by a growth argument with ghost lengths, below 2^33 elements |
| C06 | util.c `git__bsearch_r`, vector.c | loop invariant on the window |
| C07 | pqueue.c | heap invariant, multiset refinement |
| C08 | hashmap.h | refinement to finite map |
| C09 | wildmatch.c `dowild` | against a denotational language of patterns |
| C10, C11 | tree.c | order theory + refinement |
| C12, C13 | index.c | codec round-trip; invariant over histories |
| C14–C16 | merge.c, graph.c, revwalk.c over arbitrary finite DAGs with arbitrary times | graph invariants on painting |
| C17 | refs.c normalisation | equivalence with a declarative predicate |
| C18–C20 | filebuf.c, refdb_fs.c on an abstract file system with atomic O_EXCL create and rename | invariants over schedules |
| C21 | refspec.c | algebra on strings |
| C22, C23 | config_file.c, config_parse.c, util.c | round-trip; equivalence with a mathematical value |
| C24, C25 | pack.c | window invariant; codec |
| C26 | cache.c | invariant over interleavings (each critical section is one step) |
| C27, C28, C29 | merge.c, diff_generate.c, checkout.c decision logic | case analysis and merge-join induction |
| C30 | path.c | declarative predicate of dangerous components |
| C31–C33, C39, C40 | message.c, signature.c, str.c, utf8.c | round-trip and idempotence by induction |
| C34 | block-buffering of hash update | induction over chunks |
| C35 | reflog.c | induction |
| C36 | oid.c shortener trie | trie invariant |
| C37 | ignore.c | induction over rule lists |
| C38 | apply.c | induction over hunks |
| C41 | merge.c `git_merge_base_octopus` on top of C14's model | fold over pairwise bases; refuted where it fails |
| C42 | refdb_fs.c lookup beside writers and a packer, one file operation per step | per-pc invariant over arbitrary schedules |
| C43 | config_file.c rewrite of an arbitrary file | induction over parsed lines, re-parse of the rewritten text |
| C44, C45 | iterator.c tree iterator with explicit frame stack, path list cursor | frame-stack invariant against a recursive listing |
| C46 | sha224-256.c, single memory accesses of two threads | refutation by a schedule; positive part for private state |
| C47 | ignore.c `parse_ignore_file` | progress measure; refuted for form feed and vertical tab |
| C48 | checkout.c whole checkout in a clean directory | invariant over the two write passes |
| C49-C53 | commit.c, tag.c: writing and parsing commits and tags, signatures in commits, creation, summary/body | inversion of the line parser against the writer; failing-store operations as an oracle |
| C54 | pack.c delta chains with the base cache, threads as an LTS | inductive denotation of an offset; invariant over all interleavings (reference counts = holders); termination by the chain's end |
| C55 | pack.c resolve_header, delta.c header from stream | agreement with the denotation; refutations on a small damaged pack |
| C56 | deps/xdiff (prepare, trim, clean up, split, compact, script, emit) and diff_xdiff.c | each phase keeps "the unchanged lines of both texts are equal"; Myers: k-line invariant over the diagonals (furthest points lie inside the box, bands stay inside the arrays) |
| C57 | C56's differ composed with C38's apply | the hunks describe the change in the sense of C38's theorem |
| C58, C59 | deps/xdiff/xmerge.c and merge_file.c on top of C56's scripts | one invariant ("the list of merge records lays the three texts out as pieces") kept by the loop over both scripts and by every refinement pass; then the writer produces the pieces in order; symmetry by a commuting swap |
| C60, C61 | tree.c write_tree / git_tree__write_index, tree-cache.c, the cache invalidations of index.c, on top of the index (C13) and the tree builder (C10) | a relation `standing` (this id is a canonical tree whose files are the entries below this directory); the write loop keeps it (a sorted index holds each directory as one run), reading the cache back gives it for every node, every index call keeps it for the nodes it does not invalidate; the id is determined by the files because a canonical tree is |
| C62, C63 | mwindow.c: all of it, as a state machine whose calls are atomic (one mutex) and whose mmaps may fail | invariant: window ids distinct, each window's use count is the number of cursors pointing to it, every cursor's window is in a list, windows within their files; closing and freeing only drop unused windows (relation `shrunk`), so every step keeps the invariant; freed windows reached through a cursor are UB in the model; packs: the count is the number of holders |
| C64, C65 | refdb_fs.c: the packed-refs file: reading it whole, bisection in it, writing it, packing loose files, deleting | bisection: invariant that the interval is a run of whole records, all before it smaller and all after it larger than the name; the record around any byte is the one start_of_record and end_of_record find; packing: the cache as a finite map with distinct names, sorting as a permutation, the written text as the text of a sorted list of entries; safety: offsets stay within the data, buffers end in NUL |
| C66, C67 | transports/smart_pkt.c: reading and writing packets; smart_protocol.c: the receive loop over a bounded buffer and a stream that arrives in arbitrary pieces, with arbitrary stale bytes behind | locality: a computation that does not leave its memory gives the same result with more memory behind it (by structure of the parser); from it the loop invariant "buffer ++ unread stream = text of the remaining packets ++ rest"; each kind of packet from its text; safety: every read is below the received length or stops at a NUL |
| C68, C69 | commit_graph.c: the parser, the lookups and the writer as functions on byte lists; generation numbers as the loop with its explicit stack | for the round trip: layout lemmas for every table, the bisection lemma of the pack index, an induction over the edge list; for safety: an invariant of parsed files; for generations: a loop invariant parametrised by a bound, and the chain of commits being expanded for linear histories |
| C70, C71 | midx.c: the parser, the lookup, the enumeration and the writer as functions on byte lists | for the round trip: one layout lemma for any chunk contents, sorting and uniqueness by a key, the name chunk and the offset tables by induction, the bisection lemma of the pack index; for safety: an invariant of parsed files |
| C72, C73 | the readers and writers of the TREE, REUC and NAME extensions as functions on byte lists, with the bytes behind the extension separate; put into the index file model of C12 | round trips by induction on the tree and the lists, with the exactness of the number parser (C23); safety by induction on the fuel; the names reader is characterised exactly |
| C74 | FETCH_HEAD: the line writer, the sort, the line reader and the loop as functions on byte lists; the written lines are shown to be read back one by one for any flag left by the line before, splitting at newlines commutes with appending to contents that end in one; safety by cases over every exit of the line reader. |
| C75, C76 | mailmaps: the sorted list of entries with bisection; what it holds after a history is the last addition for each key, so resolving is compared with a specification over the history alone. The file parser: each line against a relation that cuts it into spaces, name, email, comment; the loop against the lines of the text. |
| C77 | the ident filter: the search loop with its exits against the first `$Id` of a text defined over all its cuts; the binary test shown monotone in printable bytes, so what was stored is stored again. |
| C78 | the last part and the directory of a path: the backward loops over positions against a decomposition of the path into directory, slashes, part, slashes, shown exhaustive. |

## Trusted base

* Coq 8.16.1's kernel, including its `vm_compute` (used in `Example`s, in `byte_sweep` arguments over the 256 byte values and in refutations).
* Assumptions. Every theorem named in MANIFEST.json prints `Closed under the global context`: no axiom, neither of ours nor of the standard library. (`vcheck` also lists seven symbols of `Coq.ssr.ssrunder` as library axioms; they are loaded with the standard library's `ssreflect` tactics file and no theorem depends on them.) No functors, module types, `Declare Module`, `Admitted`, `Axiom`, section-less `Variable`/`Hypothesis`, plugins or switched-off checks.
* The reading of the C code: each definition cites the lines it transcribes. The compiler, libc, the kernel's file system and zlib are not modelled beyond what the comments state.

## What is modelled

| area | modelled | left out |
|------|----------|----------|
| varint, delta, oid, str codecs, utf8, util (C01–C04, C23, C33, C40) | varint.c; delta.c; oid.c parse/format/compare and shortener; util.c `git__strntol64`, `git__strntol32`, `git__bsearch`; config_parse_int64; str.c base64/base85/quote/hex parts; utf8.c | SIMD/assembly, allocation failure |
| containers (C05–C08, C26) | tsort.c, vector.c, pqueue.c, hashmap.h, cache.c (each critical section one step) | iteration order promises, allocation failure (except where a `_refuted` theorem shows its effect) |
| text matching (C09, C17, C21, C37, C47) | wildmatch.c, refs.c name rules, refspec.c, ignore.c with attr_file.c `git_attr_fnmatch__parse` | attribute cache, bare repositories |
| objects (C10, C11, C31, C32, C34, C36) | tree.c parse/builder/lookup, message.c, signature.c, hash block buffering and SHA-1/SHA-256 padding | compression functions' cryptographic strength |
| graph (C14–C16, C41) | merge.c painting, graph.c, revwalk.c, commit_list.c order | commit-graph file (generation numbers are parameters) |
| files (C18–C20, C42, C35) | filebuf.c, refdb_fs.c loose/packed store protocol, reflog.c text format | hooks, worktrees, namespaces |
| index (C12, C13) | index.c in-memory operations and versions 2–4 on disk | REUC/NAME/TREE/other extensions' bodies, split index |
| config (C22, C43) | config_parse.c, config_file.c read and rewrite | includes, `includeIf`, backends other than files |
| packs (C24, C25) | pack.c idx lookup v1/v2, entry header and offset-delta header | zlib streams, memory windows |
| line diff (C56, C57) | deps/xdiff xprepare.c, xdiffi.c, xemit.c, diff_xdiff.c | whitespace flags, patience and histogram, score of an indentation (a parameter), function names in hunk headers, failing allocations |
| file merge (C58, C59) | deps/xdiff/xmerge.c, merge_file.c | whitespace flags, patience, failing allocations, merge drivers other than the built-in ones |
| trees from the index (C60, C61) | tree.c:446-461, 586-733, tree-cache.c invalidate/get/read_tree | reading and writing the TREE extension, git_tree_create_updated, failing allocations and object writes; the object store is the list of its tree objects |
| memory windows, shared packs (C62, C63) | mwindow.c:55-127, 133-165, 188-543, mwindow.h | statistics, descriptors closed after git_mwindow_file_register unlocks, failing allocations and locks; a call is one step because it holds git_mwindow__mutex throughout |
| packed references (C64, C65) | refdb_fs.c:27-44, 113-318, 381-455, 463-495, 511-762 (mmap as the bytes), 1188-1205, 1267-1510, 1897-1910 | the cached parse of an unchanged file, worktrees, file-system failures, other processes in between (C30, C31), ids of other lengths than the repository's |
| protocol packets (C66, C67) | transports/smart_pkt.c:45-665, 697-870 (without a depth), smart_protocol.c:25-86, smart.c:16-50, util.c:216-260 | allocation failure, leaks, the contents of error messages, int overflow of the lengths (at most 65535), negotiation, the transports below |
| commit-graph files (C68, C69) | commit_graph.c:104-302, 344-362, 488-656, 689-694, 872-1272 | opening and mapping files, collecting commits from packs and walks, replacing the file on disk, allocation failure |
| multi-pack-index files (C70, C71) | midx.c:52-285, 380-478, 502-508, 597-641, 680-892 | opening and mapping files, the comparison with the file on disk, enumerating the packs, replacing the file on disk, allocation failure |
| index extensions (C72, C73) | tree-cache.c:74-169, 269-287; index.c:2310-2439, 2692-2706, 3070-3172, 3240-3250 | allocation (including the array for the announced number of children), several extensions of the same kind in one file, forming pointers behind the buffer (tree-cache.c:118) without reading them |
| FETCH_HEAD (C74) | fetchhead.c:20-39, 98-137, 139-167, 169-266, 268-332; util.c:307-322; str.c:760-807 | references without name or url, removal of passwords from urls (fetchhead.c:41-63), the file system |
| mailmaps (C75, C76) | mailmap.c:38-149, 180-273, 275-287, 411-477; parse.c:35-41, 65-79, 118-138; util.c:324-328; str.c:658-670, 869-880 | reading blobs and files and the configuration (mailmap.c:289-395), git_mailmap_resolve_signature, lookup without a name, allocation |
| ident filter (C77) | ident.c:13-115; str.c:1241-1267, 1274-1322 | sources without an id, counters beyond 2^31, the filter stream |
| dirname, basename (C78) | fs_path.c:104-143, 177-242 | Windows prefixes, paths of 2 GiB and more, the buffer |
| trees at large (C27, C28, C44, C45, C38, C29, C48) | merge.c three-way classification and D/F handling, diff_generate.c merge join, iterator.c tree iterator, apply.c hunks, checkout.c decisions and effects | rename detection, filters inside checkout, symlinked directories |
| paths (C30, C39) | path.c, fs_path.c checks, crlf.c filter | platform-specific compilation branches other than the ones named in the comments |

Not modelled at all: network transports, submodule commands, stash/rebase/cherry-pick drivers, blame, describe, notes, worktree management, the Windows back ends.

## Findings

Where the code does not have the property in full, the failing case is proved as a `_refuted` theorem and the positive theorem states the exact conditions (status `partial`). The main ones:

* **Damaged packs** (C54, C55): a cycle of REF_DELTA entries is followed for ever; `git_delta_read_header_fromstream` retries `GIT_EBUFS` for ever and adds a negative read to an unsigned length (then parses uninitialised memory); `git_packfile_unpack_header` opens its window without comparing the offset with the file size.
* **Diff** (C56): `git_xdiff` ignores the result of `xdl_diff`, so a failed allocation inside it is reported as success with an empty or partial diff; with whitespace-ignoring flags the context lines come from the new file (so such a diff need not apply).  Zero-context diffs with a pure deletion cannot be applied by git_apply (C57).
* **File merge** (C58): `xdl_fill_merge_buffer` counts the result in an `int` and its result is used for the allocation, so a result of 2 GB or more (three 800 MB texts, or a large `marker_size`) overflows; `is_cr_needed` takes the first line of the base as decisive, so conflicts between files added on both sides with CRLF get LF markers; zdiff3 can leave an empty conflict; a mode changed differently on both sides is silently taken from ours (so swapping the sides changes the mode).
* **Writing trees** (C60): with `core.ignorecase`, `git_index_add` of `a/b` over `A/b` rewrites the entry's path in place but invalidates the cached directory `a`, so the next tree still has `A/b`; an index holding `b` and `b/c` (C13) is written without the file `b`; `git_index_write_tree_to` with a valid cache returns an id without looking whether the other repository has it; the test `*end + 1 == '\0'` in `git_tree_cache_get` can never hold (a path with a trailing slash is looked up as an empty name).
* **Memory windows** (C62, C63): `git_mwindow_open` with a cursor that points to a window gives the window back before mapping the new one; when both mmaps fail the window has been freed by the clean-up loop, `*cursor` still points to it, and `git_mwindow_close` writes to freed memory. `(comparison_sign * w->last_used) > ...` is unsigned, so with GIT_MWINDOW__LRU the last unused window scanned is closed, whatever its age. A failed mmap leaves `ctl->mapped` too high for good. A window size below 2 (GIT_OPT_SET_MWINDOW_SIZE) divides by zero; with windows of 4 GiB `*left` is cut to 32 bits, e.g. 0. `git_mwindow_get_pack` returns an error other than GIT_ENOTFOUND, and `git_mwindow_put_pack` fails its assertion, with the mutex still locked.
* **Packed references** (C64, C65): the header written promises `fully-peeled` but `packed_find_peel` peels a tag once, so a tag of a tag is recorded with an id that is a tag. `backend->sorted` is only set by a header, so after a sorted file is replaced by one without header bisection is used on an unsorted file and references are not found. Bisection does not strip the carriage return that `packed_reload` strips. Names of files below refs/ are packed unchecked; one with a newline makes the packed file unreadable.
* **Protocol packets** (C66, C67): `set_data` looks for `object-format=` with `strstr`/`strchr` on the receive buffer, which is not NUL-terminated: with a server that does not name the format the search runs through later packets and stale bytes (a later packet with that text makes the same stream fail or succeed depending on how it was cut), and behind a full buffer. A format that is the last capability is rejected, as the newline is taken as part of its name. `shallow_pkt` and `unshallow_pkt` ignore the result of parsing the id. `git_pkt_buffer_wants` searches for the first reference that is not local without checking the count. The dispatch compares `shallow` with `git__prefixcmp`, which is not bounded by the packet.
* **Commit-graph files** (C68, C69): the checksum buffer of `git_commit_graph_file` has 20 bytes but `git_commit_graph_file_parse` copies an id of the repository's type, so any such file in a SHA-256 repository overflows it; `git_commit_graph_writer_commit` with no commits writes a file the reader rejects; commit times are cut to 34 bits; `compute_generation_numbers` does not push a parent that another commit has already added, so with merges a commit may be numbered before its parents (its generation is then too small, even equal to its parent's). The reachability functions of libgit2 itself are not affected (C15 holds for any generation numbers).
* **Multi-pack-index files** (C70, C71): the writer accepts a pack added twice, no packs at all, and names with dots that sort differently once .pack is replaced by .idx; in each case it succeeds and the reader rejects the file. `git_midx_entry_find` multiplies the position by 8 as an int (overflow from 2^28 objects on) and the position of a large offset by 8 in 32 bits; an entry's offset can be negative (a large offset with the top bit set is not rejected).
* **Index extensions** (C72, C73): git_index_reuc_add accepts an entry with three zero modes; if it is the last one the index file that is written cannot be read again ("reading reuc entry stage"), because the reader wants a byte after the third mode. A tree cache with a count below -1 is read without an id but written with one, so the rewritten index is refused. An empty name in the NAME extension is read as no name. The tree cache reader recurses once per six bytes of the file.
* **FETCH_HEAD** (C74): HEAD is written as to be merged whatever its flag says; a HEAD fetched from a url beginning with a quote gives a file the reader refuses; a line with an id and a tab only is reported with the flag of the line before it.
* **Mailmap** (C76): a line with an empty email to replace (`Bob <>`) passes the parser, fails an assertion in mailmap_add_entry_unterminated, and so the whole file is refused instead of the line being skipped (git_mailmap_from_repository then silently loses the entries behind it).
* **ident filter** (C77): ident_find_id leaves its loop with the last dollar it saw when three bytes remain, without having seen Id; so a file without any keyword that ends in `$xy$` is stored as `$Id$` (data loss on add). `$Id` followed by anything, also line breaks, up to the next dollar counts as keyword.
* **Commits** (C50, C51): `git_commit__create_internal` returns 0 when the object store fails; `extract_signature` searches into the message and loops on an empty field name.
* **Data loss in safe checkout** (C29): sibling `a.b` hides the untracked directory `a/`; directory→executable/link type changes remove untracked files; a file in a directory's place is deleted; and more (`C29_*_refuted`). A *clean* checkout can report success without writing a file (`C48_shadow_refuted`).
* **Lost or resurrected references** (C19, C20, C42): packed-refs is read before its lock is taken; a lookup can miss a reference that exists throughout.
* **Hangs**: an ignore file with a line starting in form feed or vertical tab (C47); `_foreach` on a hash set (C08).
* **Wrong answers in graph queries**: `git_graph_ahead_behind` with equal timestamps (C15), octopus merge base (C41), hidden commits listed by the walker with clock skew (C16).
* **Memory errors / UB**: 6-byte delta headers shift by 35 (C02), `config_parse_int64` signed overflow (C23), oid shortener on invalid or duplicate ids (C36), object cache type confusion when the table cannot grow (C26), re-applying a parsed patch (C38), SHA-256 `addTemp` shared between threads (C46).
* **Round trips that fail**: config multivar values written unescaped (C22, C43), index v4 paths of 4096 bytes and more (C12), reflog messages ending in newlines and names with tabs (C35), signatures outside 1970–2106 (C32), `\r\r\n` under safecrlf (C39).
* **Merge and diff**: directory/file conflicts not detected between non-adjacent paths (C27), INCLUDE_TYPECHANGE_TREES identified by id only (C28), path lists skipping a listed directory (C45).
