# Design: a Rocq (Coq 8.16.1) model of casync

## Approach

Each C file is modelled by a `rocq/theories/<Area>.v` file of small executable Gallina
functions (`*Model.v`-like part first, each definition citing file and lines in /repo/src),
proofs in `<Area>Proofs.v`, and the theorems a reader should look at in
`Properties_<Area>.v` (only `Theorem ... exact ...` / `Print Assumptions` / a witness `Example`).
Specifications that are independent of the model's helpers are in `<Area>Spec.v` or at the top of
the `Properties_` file.

Conventions
* bytes are `N` below 256 in `list N`; sizes and offsets are `N`; where the code can wrap, `mod 2^64`
  or `mod 2^32` is written out.  Errors are a negated-errno enumeration.
* `assert()` failure and undefined behaviour are distinct outcomes, never "don't care" values.
* Calls to the OS / libc / compression / digest libraries are Section variables (closed over at
  the end of the section, thus explicit hypotheses of the theorem).
* A property that is false of the code is stated as `..._refuted` with a computed witness, next to the
  strongest version that does hold.

## Plan per property

| id | modelled | method |
|----|----------|--------|
| C01-C05 | `ca_chunker_scan/start/roll/shall_break`, the real buzhash table | simulation between the imperative scan with ring buffer and a direct "hash the last 48 bytes" specification, induction on the input |
| C06 | `ca_chunker_set_size`, the double arithmetic of the discriminator with `SpecFloat` binary64 | case analysis |
| C07 | chunk id parse/format | finite sweep over digits + induction |
| C08-C09 | `ca_make_bst`, decoder's binary search | strong induction on size; BST invariant |
| C10-C13 | `caindex.c` on byte lists | induction on the items; invariant |
| C14-C16 | `caformat-util.c` as 64-bit words | bit reasoning / finite sweep lifted |
| C17 | `realloc-buffer.c` | refinement to byte list |
| C18-C23 | encoder/decoder of the catar format as functions tree -> bytes and as a step machine | structural induction, parser invertibility |
| C24-C26, C40 | `castore.c`, `cachunk.c` on an abstract filesystem (map of paths), digest and compressor oracles | refinement to a map; invariant at each primitive step (crash point) |
| C27-C28 | `camatch.c`, `fnmatch` an oracle | induction on trees and paths |
| C29 | `calocation.c` | parser inversion |
| C30 | `caorigin.c` | refinement to list of bytes' places |
| C31 | `cacache.c` | invariant over histories |
| C32 | shift_uid in both directions | arithmetic |
| C33 | `caremote.c` ca_remote_step and all message handlers, on both sides | prefix-parser; product invariant of two machines and two byte streams in arbitrary pieces |
| C34 | `caremote.c` request queue | refinement to two FIFOs |
| C35 | `casync.c` ca_sync_get and friends, `caseed.c` ca_seed_get | case analysis over the chain of sources, with the store theorems |
| C36 | `gc.c` | composition of index, store and directory walk |
| C37 | `casync.c` write_chunks, write_final_chunk, process_decoder_request | composition of chunker, store and index theorems |
| C38-C39 | `parse-util.c`, `cautil.c` | induction on strings |
| C46 | `cadecoder.c` seeking by path, on the archives of C22: the whole state machine of seeking beside the decoder's (Seek.v) | an invariant on what the decoder knows about each node it remembers; one lemma per kind of seek (entry, table, GOODBYE object, its tail); induction on the path, with the goodbye search theorem |
| C47 | `casync.c` ca_sync_step_encode, encoder and cache as oracles | invariant over steps: what is written, verified and buffered is a prefix of the archive; termination measure |
| C48 | as C46, with any sequence of seeks | the invariant of C46 is kept by each seek, whatever it finds |
| C49 | `util.c` loop_write_with_holes, write_zeroes, memeqzero, loop_write on a file with contents and position | each call appends its part to what was written; composition; induction on the data left |
| C50 | the extracting decoder: `cadecoder.c` realize_child, finalize_child, install_file, node_delete, the nodes' fds along with the steps of Decoder.v, `rm-rf.c`, tempfn_random; a file system of inodes with failing calls | programs of system calls; each call is legal in the sense of an invariant (only target directories and new inodes are touched); induction over programs and histories |
| C51 | the same | a ghost: the one new file that may still change has temporary names only |
| C52 | the same, and the encoder of C18 | a stack machine over the decoder's observations builds the tree; an invariant links its stack to the open directories and the finished inodes below them; a Hoare logic for system calls that succeed |
| C53 | `reflink.c`, `ca_location_open`, `ca_decoder_node_reflink`; seeds that others change between any two calls | an invariant (target and contents of all files) kept by each system call; what was checked is what is cloned |
| C54 | `canbd.c`, `verb_mkdev`'s loops, the decoder's offset seeks | where the inner loop may be, with a measure; induction over the requests; the answer is specified byte by byte |
| C55 | `cadigest.c`, the digest code of `caencoder.c` and `cadecoder.c`, on top of their models | invariant: each digest holds the bytes it should, in each state; the hash function is arbitrary; a record parses in one way only, which gives the theorem about equal hardlink digests |
| C56 | `ca_decoder_try_hardlink` on the file system of C50, with linkat; the hardlink entries of a seed's cache | per call, what it can do to the directory; a proof system for programs with all failures and stops (`hok`); restricted to the case that no directory is in the way (then extraction's exchange and rm_rf come in). Equal digests mean equal files by C55 |
| C57 | siphash24.c, word by word on 64 bit values, reads outside of the buffer are undefined behaviour | SipHash-2-4 is specified from its authors' paper (rotation by division, rounds in two halves, padding of the whole message); invariant: the state after any pieces is the specification's after the whole words so far, and the padding holds the rest; the reference implementation's test vectors are computed |
| C41-C45 | further properties of the index, the decoder and the encoder found while modelling | as C10-C23 |

## Trusted base

* The Coq 8.16.1 kernel (`coqc`), with its `vm_compute` reduction for computed witnesses and the byte sweeps.
* Axioms: every theorem named in MANIFEST.json prints `Closed under the global context`. No axiom, parameter,
  admitted lemma, functor or module type is declared. Files importing the standard library's `SpecFloat`
  (`SetSize.v`, `ParseSize.v`) load `Coq.ssr` modules of the standard library which contain parameters of their own
  (`Coq.ssr.ssrunder`); no theorem depends on them.
* The reading of the C code: every definition cites the file and lines it stands for and says what it leaves out.
* The reading of the operating system's and the libraries' behaviour (below).

### Modelled

| file | what | where |
|------|------|-------|
| cachunker.c/.h | all of it; the buzhash table byte for byte; the discriminator's double arithmetic | Chunker.v, SetSize.v |
| cachunkid.c/.h | parse, format, format_path, equality | ChunkId.v |
| camakebst.c; search in cadecoder.c | all | Bst.v |
| caindex.c | write, read, incremental reading and writing, seek, set_position | Index*.v |
| caformat-util.c | all flag functions, granularity | FeatureFlags.v |
| realloc-buffer.c | all but acquire_auto | ReallocBuffer.v |
| caencoder.c | loading of a file's metadata to the byte stream, in all states, goodbye table | Encoder*.v |
| cadecoder.c | the streaming step machine, all record types; replay of metadata as far as flags decide | Decoder*.v |
| cachunk.c, castore.c, compressor.c | get/put/has/remove and everything below it, as programs over a small POSIX file system | Posix.v, ChunkFile.v, Store.v |
| gc.c | all | Gc.v |
| parse-util.c | parse_size | ParseSize.v |
| cautil.c | ca_classify_locator, ca_strip_file_url | Locator.v |
| caencoder.c, cadecoder.c | uid/gid shifting | UidShift.v |
| camatch.c, caencoder.c (exclude files) | all but reference counting and dump | Match.v |
| util.c safe_atou, safe_atollu, safe_atollx | all, with strtoull and printf("%lu", "%lx") | Number.v |
| canametable.c | text form, comparison (make_bst, add, dump elsewhere or left out) | Location.v |
| calocation.c | all but open and the dump | Location.v (values), LocationHeap.v (sharing) |
| caorigin.c | all but dump | Origin.v |
| cacache.c | open, get, put, remove (reference counting left out) | Cache.v |
| util.c readlinkat_malloc, tempfn_random | all, as programs over the file system model | Cache.v |
| caremote.c init_cache, enqueue_request, dequeue_request, forget_chunk, has_pending_requests | all, with the cache path set; feature flag checks of the callers left out | Queue.v |
| caremote.c all but the queue, feature flag negotiation details of URLs and the spawning of helpers | ca_remote_step, ca_remote_process_*, ca_remote_send_*, put_chunk/missing/index/archive, next/abort/goodbye/eof calls, as one machine that takes and writes pieces of any size | Remote.v (RemoteScript.v: runs for the examples) |
| casync.c ca_sync_get, ca_sync_get_local, ca_sync_has_local | all (origins and counters left out) | SyncGet.v |
| caseed.c ca_seed_get, ca_seed_has | all; the encoder that walks the tree is an oracle (any list of events, or never ending) | SyncGet.v |
| caremote.c ca_remote_request, ca_remote_validate_chunk | all (the feature flag checks reduced to one bit) | SyncGet.v |
| casync.c ca_sync_start (index), ca_sync_write_one_chunk, ca_sync_write_chunks, ca_sync_write_final_chunk | all (make_mode, counters and time stamps left out; no cache, no origins) | SyncWrite.v |
| casync.c ca_sync_process_decoder_request, _seek, _skip with an index | all (that the decoder takes what it asked for is left out) | SyncWrite.v |
| casync.c ca_sync_step_encode, ca_sync_cache_get, ca_sync_write_one_cached_chunk; write_one_chunk, write_chunks and write_final_chunk with origins | all (archive file, digests and remote left out; encoder and cache are oracles) | SyncCache.v |
| caorigin.c ca_origin_put, _bytes, _concat, _extract_bytes, _advance_bytes | again, on locations reduced to key, name table, offset and size | SyncCache.v |
| cadecoder.c | seeking: ca_decoder_do_seek, ca_decoder_seek_path/_path_offset/_next_sibling/_offset, the PREPARING_SEEK_TO_x and SEEKING_TO_x states, ENTERED_FOR_SEEK, NOWHERE, ca_decoder_parse_goodbye_tail, ca_decoder_get_seek_offset, ca_decoder_set_archive_size, path_get_component, path_match_component | Seek.v |
| util.c | loop_write, write_zeroes, memeqzero, loop_write_with_holes | Holes.v |
| cadecoder.c | extraction: ca_decoder_realize_child, _finalize_child, _install_file, _node_delete, drop_immutable, name_to_uid/gid, shift_uid/gid, safe_bsearch, writing payload in advance_buffer; without ACLs, chattr/FAT attributes, subvolumes, quota, reflinks and hard links to seeds (see below), boundary fds and targets that aren't directories; SELinux as without support | Extract.v |
| rm-rf.c | rm_rf_at, rm_rf_children, unlinkat_immutable (depth bounded by a parameter; running over it is undefined behaviour in the model) | Extract.v |
| util.c | tempfn_random | Extract.v |
| (kernel) | inodes, directories, the system calls that extraction uses, with arbitrary failures and short writes: environment, trusted | Fs.v |
| reflink.c | all | Reflink.v |
| calocation.c ca_location_open; cadecoder.c ca_decoder_node_reflink | all (invalidated roots left out) | Reflink.v |
| canbd.c | set_size, open (sizes and states), step, get_request_offset/size, put_data | Nbd.v |
| casync-tool.c verb_mkdev (from the device's size on); casync.c ca_sync_step_decode, ca_sync_process_decoder_request/seek, ca_sync_seek_offset for a blob | where the data comes from is environment | Nbd.v |
| cadigest.c ca_digest_reset, new, write, read, ensure_allocated | all; the hash functions are arbitrary | Digest.v |
| caencoder.c, cadecoder.c: enabling, writing and reading of the archive, payload and hardlink digest | all without seeks | Digest.v |
| cadecoder.c ca_decoder_try_hardlink, mode_mask, and finalizing after it; linkat (environment) | all but EMLINK | Hardlink.v |
| caseed.c ca_seed_cache_hardlink, ca_seed_get_hardlink_target, ca_seed_write_cache_entry | entries are names with texts; symbolic link or file isn't told apart | HardlinkCache.v |
| siphash24.c; util.h read_le64; caformat.h CA_FORMAT_GOODBYE_HASH_KEY | all but debug output | Siphash.v |

### Not modelled

Network protocols helper (casync-http.c), FUSE front end, attaching of NBD devices, main(), option parsing of the tools, quota and
fs attribute ioctls themselves (their results are inputs), memory exhaustion (`malloc` never fails), signals,
and durability: the code issues no fsync(), so loss of power is outside of what the file system model says; crashes of
processes are inside (every program can be stopped before every system call).

### Environment assumptions, always explicit in the statements

* digest functions are arbitrary functions (no collision freedom unless stated as a hypothesis);
* compressors satisfy `codec_ok` (StoreSpec.v) where C40 needs it, and are arbitrary elsewhere;
* the file system is `Posix.v`: single system calls are atomic, anything may fail, other processes may run in between;
* qsort/bsearch: any function returning a sorted permutation (`sorts`), fnmatch: an arbitrary relation.

## Findings

Each is a theorem with the suffix `_refuted` (or a note in MANIFEST.json) with a computed witness.

* usec time granularity: the decoder wants multiples of 1 s/10^6 wrongly computed, so archives written with usec times are refused.
* uid 65535 is written with 16 bit uids but refused by the decoder.
* A chunk of exactly 128 MiB can be stored but not loaded (C26).
* A truncated compressed chunk file aborts the process (assertion in ca_decompress) instead of EBADMSG (C24).
* ca_chunk_file_remove reports ENOENT after having removed the uncompressed file.
* Incremental reading of an index fails for good if 41..63 bytes have arrived at the first attempt (C43).
* Index seek trusts that the first chunk has the minimum size; set_position's overflow check is unsound (C12/C13).
* Sizes below 48 bytes as maximum chunk size make the chunker wrong; set_size has undefined float conversions (C06).
* The decoder accepts unordered and duplicate file names and names longer than 255 bytes.
* Files older than 1970 come back in the year 2554 (C23/C22).
* Replay masks: ACL bits in the mask bring 32 bit uids and names back in (C16).
* Garbage collection leaves uncompressed chunks, visits "..", fails on stray files, and a cut index is an assertion failure (C36).
* parse_size: a fraction on top of 2^64-1 wraps; "\v-1" is accepted (C38).
* file URLs with %00 lose their rest (C39).
* A location advanced to its end has size 0: it can not be copied and its text can not be parsed (C29).
* ca_location_parse takes "\v-5" as an offset and wraps it (safe_ato* look for the sign before skipping all white space).
* Origins of more than 2^64 bytes wrap; an empty location in an origin fails an assertion in ca_origin_advance_items (C30).
* ca_location_merge ignores the feature flags; ca_location_advance and merge do not touch the name table.
* ca_cache_put's clean-up unlinks the temporary file relative to the current directory, not the cache: a failed put leaves it behind; if the current directory is the cache, a failed O_EXCL creation removes another process's temporary file (C31).
* ca_location_id_make digests a text that does not determine the location; a cache entry whose locations have no modification time or are void can not be read back (C31).
* ca_remote_forget_chunk frees an uninitialised pointer for a chunk that is not in the queue: a peer that sends an unrequested (or the same) chunk makes `casync push`'s receiver do this (C34).
* If the second link of a request can not be made, the chunk counts as queued but is never sent; a cache directory used before swallows requests; ca_remote_has_pending_requests counts raised and forgotten requests (C34).
* ca_remote_set_archive_fd sets the index file.
* An abort whose reason is empty, too long or not text is sent as is, the peer refuses the frame with EBADMSG and the error number is lost (remote_abort_reason_refuted).
* A goodbye sent before the greeting of the peer has come in is refused by the peer (remote_early_goodbye_refuted).
* When an index travels in both directions, the end of one marks the other as complete: its next piece is refused (remote_mutual_refuted).
* Items put after the goodbye are accepted and never delivered (remote_after_goodbye_refuted); an answer "missing" does not become the last chunk.
* ca_seed_get logs the location after freeing it (caseed.c:601-603); ca_is_url("") reads before the string; the encoder's current_uid is not shifted where the decoder's is.
* ca_sync_has_local fails with ENOENT as long as the cache store is new, whatever the further stores have (has_local_new_cache_refuted).
* A damaged chunk in a store, or a seed entry that can not be parsed, blocks the request: further places are not asked (sync_get_damaged_refuted).
* If the remote's cache directory can not be made, the chunk is reported missing although the remote was never asked (sync_get_missing_unasked_refuted).
* With a maximal chunk size below 48, which set_size accepts, writing any stream of at least 48 bytes with an index fails (EINVAL): the chunker only looks at the maximum once its window is full, the index refuses the chunk (blob_write_refuted).
* casync.c:2215 `extra_offset = sz`: two cache hits in one block (a goodbye record longer than two chunks, say) followed by a miss; only the last hit is skipped, what the earlier ones covered is written again, and the index describes another archive (cached_index_refuted).
* After a cache hit for data that was buffered already, the chunker keeps counting that data: the next chunk may be smaller than the minimum, and differs from what is cut without a cache (cached_chunk_sizes_refuted).
- Seeking (C46): after a seek has found a directory, a seek further down from it is refused with EUNATCH until its entry has been read (`seek_below_found_refuted`); once the directory has been read up to its GOODBYE object without a seek below it, a seek below it is refused with EUNATCH for good, because the table is kept but goodbye_offset isn't set (`seek_below_read_refuted`; e.g. a lookup in an empty directory after readdir() on it in a FUSE mount); seeking to the next sibling right after FOUND fails assert(node->entry) (`next_of_found_refuted`); one step on a new decoder that has no data yet makes all seeks fail with ENODATA until the first entry has been read (`seek_after_step_refuted`).
- Extraction with --undo-immutable clears the immutable flag of an inode that is in the way even if the inode has other links outside of the target (`extraction_undo_refuted`).
- Extraction (C52): with WITH_READ_ONLY a read-only file is extracted with mode 000 (cadecoder.c:3691 `new_mode &= ~0444` should be `~0222`; `extraction_read_only_refuted`); a file whose name has more than 237 bytes can't be extracted, since the temporary name is 18 bytes longer (`extraction_long_name_refuted`); the decoder doesn't check that names are in order, but with --delete (the default) it looks them up by binary search, so that an archive whose names are not in order loses files it has just extracted (`extraction_unsorted_refuted`).
- Reflinks (C53): a piece of 2 GiB or more that comes from one place of a seed - for example a large file that did not change - aborts the process, as validate() in reflink.c takes the short pread() for a difference, even on file systems without reflinks (`reflink_large_refuted`); a seed's file that is written to between the check and the ioctl gets its new contents into the extracted file without an error, as the second check compares the two clones (`reflink_race_refuted`), written to a bit earlier the process aborts (`reflink_written_seed_refuted`); a seed's file that was touched or replaced since it was read makes extraction fail with ESTALE (`reflink_stale_refuted`).
- mkdev (C54): a read request from behind the blob's end but within its last sector (which the kernel doesn't make) keeps the process busy for ever: the decoder says "not found" and verb_mkdev's loop goes on with the next step (`mkdev_unaligned_refuted`); an empty blob can't be served at all (`mkdev_empty`).
- Digests (C55): with --digest=sha256 a file has another archive digest than the blob or blob index made of it, because a decoder of a blob has no feature flags and uses SHA512-256 whatever they were (`blob_digests_agree_refuted`); and `casync mtree` of an archive labels the digests (`sha512256digest=`) after the command line's --digest= although they are of the archive's algorithm.
- Hard links (C56): if the name is a link to the seed's file already (a second extraction with --hardlink and the same seed), the temporary link that shall replace it stays, since rename() of one link over another of the same file does nothing (`hardlink_leaves_nothing_refuted`); owners are compared by the archive's numbers, without names, --uid-shift or --uid-range, so that the linked file can have an owner that extraction would not give it (`hardlink_owner_refuted`). Read off the code, not modelled: ca_seed_cache_hardlink has no fallback for ENAMETOOLONG, so that a seed with a path of more than about 4000 bytes fails; ca_seed_get_hardlink_target fails with EINVAL, and with it the extraction, where the entry under that name is a regular file.
