{"id": "C01", "title": "Chunk boundaries do not depend on read() granularity", "statement": "Feeding the same byte stream to the chunker in any sequence of pieces yields exactly the same cut points, and leaves the chunker in a state that behaves the same on all later input, as feeding it in one piece.", "quantifier": "all chunker configurations, all byte streams, all ways to split the stream into pieces", "why_tests_cant": "the number of splits is exponential in the stream length and the code has separate paths for skip, window fill and rolling that interact at every possible piece border", "anchors": ["src/cachunker.c: ca_chunker_scan", "src/cachunker.c: ca_chunker_start", "src/cachunker.c: ca_chunker_roll"]}
{"id": "C02", "title": "Chunking is lossless", "statement": "The chunks cut from a stream, concatenated in order, are the stream: no byte is dropped, duplicated or reordered, no chunk but possibly the final one is empty, and a scan that reports a border never reports one beyond the data it was given.", "quantifier": "all configurations and streams", "why_tests_cant": "needs every stream length and border combination", "anchors": ["src/cachunker.c: ca_chunker_scan", "src/casync.c: ca_sync_write_chunks"]}
{"id": "C03", "title": "Chunk sizes stay within the configured limits", "statement": "With min >= 48 (the window size) every chunk but the last has a size between min and max; and the last is at most max. With fixed size every chunk but the last has exactly that size.", "quantifier": "all valid configurations and all streams", "why_tests_cant": "content defined cut points: every content is a different case", "anchors": ["src/cachunker.c: ca_chunker_scan", "src/cachunker.c: shall_break", "src/cachunker.h: CA_CHUNKER_WINDOW_SIZE"]}
{"id": "C04", "title": "Cut decisions depend only on the last 48 bytes and the chunk's length", "statement": "At every position beyond the minimum the rolling hash equals the hash computed from scratch over the last 48 bytes, so that a cut is made exactly at the first position at which that hash satisfies the discriminator test or the chunk reaches its maximum.", "quantifier": "all configurations, all contents, every position", "why_tests_cant": "an error in the ring buffer index only shows for particular alignments of chunk size and window", "anchors": ["src/cachunker.c: ca_chunker_roll", "src/cachunker.c: ca_chunker_start", "src/cachunker.c: ca_chunker_scan"]}
{"id": "C05", "title": "Chunking resynchronises (deduplication)", "statement": "If two streams share a common tail and each has a cut at the place where the common tail begins (or anywhere inside it, at the same place), all chunks from there on are identical in both streams.", "quantifier": "all pairs of streams, all common tails, all configurations", "why_tests_cant": "relates two unbounded executions", "anchors": ["src/cachunker.c: ca_chunker_scan"]}
{"id": "C06", "title": "Chunk size configuration is consistent or refused", "statement": "Setting the chunk sizes either fails and changes nothing, or results in 1 <= min <= avg <= max <= 128 MiB with a discriminator in [min, max]; explicit values are kept verbatim.", "quantifier": "all min/avg/max triples including overflowing ones", "why_tests_cant": "2^192 inputs and floating point", "anchors": ["src/cachunker.c: ca_chunker_set_size", "src/cachunker.h: CA_CHUNKER_DISCRIMINATOR_FROM_AVG"]}
{"id": "C07", "title": "Chunk ids have one textual form", "statement": "Formatting a chunk id yields 64 lower case hex digits; parsing that gives the id back; parsing accepts exactly the strings that formatting yields, hence different ids have different file names.", "quantifier": "all 2^256 ids and all strings", "why_tests_cant": "the input space is infinite", "anchors": ["src/cachunkid.c: ca_chunk_id_parse", "src/cachunkid.c: ca_chunk_id_format", "src/cachunkid.c: ca_chunk_id_format_path"]}
{"id": "C08", "title": "Goodbye table lookups are exact", "statement": "For any directory, looking up a file name hash in the search tree the encoder writes finds every entry with that hash, each exactly once, as the caller iterates over the collision counter, and reports absence if and only if no entry has the hash.", "quantifier": "all multisets of (hash, offset) entries of any size", "why_tests_cant": "array layout of the search tree differs for every size; hash collisions are practically never seen in tests", "anchors": ["src/camakebst.c: ca_make_bst", "src/cadecoder.c: ca_decoder_do_seek", "src/canametable.c: ca_name_table_make_bst"]}
{"id": "C09", "title": "The search tree is a permutation of its input", "statement": "Building the implicit search tree writes every slot of the output exactly once and never out of bounds.", "quantifier": "all array sizes", "why_tests_cant": "shape depends on the size at every level", "anchors": ["src/camakebst.c: make_bst_inner"]}
{"id": "C10", "title": "Index files round trip", "statement": "Writing any sequence of chunks (sizes within limits) to an index and reading it back yields the same feature flags, size parameters, and the same sequence of chunk ids with the same offsets and sizes, then end of file; the blob size reported equals the sum of the chunk sizes.", "quantifier": "all chunk sequences and parameters", "why_tests_cant": "unbounded sequences", "anchors": ["src/caindex.c: ca_index_write_chunk", "src/caindex.c: ca_index_write_eof", "src/caindex.c: ca_index_read_chunk", "src/caindex.c: ca_index_get_blob_size"]}
{"id": "C11", "title": "Truncated or damaged index files are never taken for complete ones", "statement": "Reading an index of which only a proper prefix is present, at whatever byte it was cut, never reports a clean end of file; entries out of order, over-long chunks and trailing bytes are reported as bad messages.", "quantifier": "all indexes and all cut positions, all byte strings", "why_tests_cant": "every crash point", "anchors": ["src/caindex.c: ca_index_read_head", "src/caindex.c: ca_index_read_chunk", "src/caindex.c: ca_index_enough_data"]}
{"id": "C12", "title": "Index appears atomically", "statement": "An index file only shows up under its final name after all chunks and the tail were written to it; at any earlier point the old file (or none) is there.", "quantifier": "all write sequences and all points to stop", "why_tests_cant": "crash points", "anchors": ["src/caindex.c: ca_index_open", "src/caindex.c: ca_index_install", "src/caindex.c: ca_index_write_eof"]}
{"id": "C13", "title": "Seeking in an index finds the covering chunk", "statement": "Seeking to a byte offset of a well formed index positions it on the one chunk that contains that byte, and the offset inside the chunk is right.", "quantifier": "all well formed indexes, all offsets", "why_tests_cant": "bisection borders depend on size and offset", "anchors": ["src/caindex.c: ca_index_seek", "src/caindex.c: ca_index_set_position"]}
{"id": "C14", "title": "Feature flag normalisation", "statement": "Normalising a set of feature flags yields a normalised set, is idempotent, never adds unsupported bits, refuses unknown bits, and never loses precision: a flag that is dropped is implied by one that stays.", "quantifier": "all 2^64 flag words", "why_tests_cant": "2^64 inputs", "anchors": ["src/caformat-util.c: ca_feature_flags_normalize", "src/caformat-util.c: ca_feature_flags_are_normalized"]}
{"id": "C15", "title": "Feature flag names round trip", "statement": "Formatting a supported normalised flag set as text and parsing the names gives the same set.", "quantifier": "all supported flag words", "why_tests_cant": "2^40 words", "anchors": ["src/caformat-util.c: ca_with_feature_flags_format", "src/caformat-util.c: ca_with_feature_flags_parse_one"]}
{"id": "C16", "title": "Time stamps written by the encoder are accepted by the decoder", "statement": "Rounding a time stamp to the granularity the flags select never moves it forward, moves it by less than a granule, and results in a value the decoder accepts under the same flags.", "quantifier": "all 64 bit times and all flags", "why_tests_cant": "2^64 times", "anchors": ["src/caencoder.c: ca_encoder_node_get_mtime / fixup", "src/caformat-util.c: ca_feature_flags_time_granularity_nsec", "src/cadecoder.c: validate_nsec"]}
{"id": "C17", "title": "Reallocatable buffer is a byte queue", "statement": "Any sequence of append, prepend-free extend, advance, shorten, truncate and read operations returns the bytes of a plain FIFO byte string; the live range stays in the allocation.", "quantifier": "all operation histories", "why_tests_cant": "unbounded histories with compaction at arbitrary points", "anchors": ["src/realloc-buffer.c"]}
{"id": "C18", "title": "Archives round trip", "statement": "Decoding the archive that encoding a file tree produces yields that tree again: the same names, modes, owners, times, xattrs, ACLs, link targets, device numbers and contents, up to the precision that the selected feature flags store.", "quantifier": "all file trees (any depth and width) and all supported flag sets", "why_tests_cant": "unbounded recursive structure", "anchors": ["src/caencoder.c: ca_encoder_step_node", "src/caencoder.c: ca_encoder_get_entry_data", "src/cadecoder.c: ca_decoder_step_node", "src/cadecoder.c: ca_decoder_parse_entry"]}
{"id": "C19", "title": "Archives are canonical", "statement": "The archive depends only on the file tree and the flags, not on the order in which the OS lists directory entries nor on how the encoder's output is consumed.", "quantifier": "all trees, all listing orders", "why_tests_cant": "n! orders", "anchors": ["src/caencoder.c: ca_encoder_open_dir / scandir sort", "src/cadecoder.c: filename order check"]}
{"id": "C20", "title": "Encoding is injective", "statement": "Two different file trees (after rounding to the selected precision) never have the same archive.", "quantifier": "all pairs of trees", "why_tests_cant": "all pairs", "anchors": ["src/caencoder.c", "src/cadecoder.c"]}
{"id": "C21", "title": "The decoder never escapes its root", "statement": "Whatever bytes are fed to it, every file name the decoder acts on is a single non-empty path component other than '.' and '..' without slash and at most 255 bytes long; names in one directory are strictly increasing, hence unique.", "quantifier": "all byte strings", "why_tests_cant": "adversarial input", "anchors": ["src/cadecoder.c: validate_filename", "src/cadecoder.c: ca_decoder_parse_filename", "src/cadecoder.c: ca_decoder_parse_entry"]}
{"id": "C22", "title": "Truncated archives are never taken for complete ones", "statement": "Feeding a proper prefix of an archive and then end of file never results in success.", "quantifier": "all archives, all cut points", "why_tests_cant": "every crash point", "anchors": ["src/cadecoder.c: ca_decoder_step_node", "src/cadecoder.c: ca_decoder_object_is_complete"]}
{"id": "C23", "title": "Decoding is independent of feeding granularity", "statement": "The decoder's results are the same however the archive is split into put_data calls.", "quantifier": "all archives and splits", "why_tests_cant": "exponentially many splits", "anchors": ["src/cadecoder.c: ca_decoder_put_data", "src/cadecoder.c: ca_decoder_step"]}
{"id": "C24", "title": "Store returns only what was asked for", "statement": "A chunk that the store hands out hashes to the id requested; anything else stored under that name is reported as bad message.", "quantifier": "all store contents including corrupted files", "why_tests_cant": "adversarial contents", "anchors": ["src/castore.c: ca_store_get", "src/cachunk.c: ca_chunk_file_load"]}
{"id": "C25", "title": "Store is a map, written atomically", "statement": "After a put of a chunk below the size limit (see C26) succeeds the chunk is there and get returns it, other chunks are unaffected, an existing chunk is never replaced; at any crash point in a put, every final file name holds either nothing or a complete chunk.", "quantifier": "all histories of put/get/has/remove and all crash points", "why_tests_cant": "crash points and histories", "anchors": ["src/castore.c: ca_store_put", "src/cachunk.c: ca_chunk_file_save", "src/cachunk.c: ca_chunk_file_load"]}
{"id": "C26", "title": "Chunk of any permitted size can be stored and retrieved", "statement": "A chunk of any size from 1 byte to the 128 MiB limit that was saved can be loaded again.", "quantifier": "all sizes and contents", "why_tests_cant": "128 MiB boundary", "anchors": ["src/cachunk.c: ca_load_fd", "src/cachunk.c: ca_chunk_file_save", "src/cachunk.h: CA_CHUNK_SIZE_LIMIT_MAX"]}
{"id": "C27", "title": "Exclude/include matching", "statement": "The answer for a path below the root after descending level by level is determined by the documented rules: unanchored patterns apply in all subdirectories, anchored ones only relative to the file's directory, directory-only patterns only to directories, and a negative match wins over a positive one.", "quantifier": "all pattern sets and all paths", "why_tests_cant": "unbounded pattern sets and depth", "anchors": ["src/camatch.c: ca_match_test", "src/camatch.c: ca_match_normalize", "src/camatch.c: ca_match_merge"]}
{"id": "C28", "title": "Normalising a match tree does not change its meaning", "statement": "Sorting and merging of equal patterns keeps the answer for every path.", "quantifier": "all pattern trees and paths", "why_tests_cant": "unbounded trees", "anchors": ["src/camatch.c: ca_match_normalize", "src/camatch.c: ca_match_merge"]}
{"id": "C29", "title": "Locations round trip as text", "statement": "Formatting any location and parsing it yields an equal location, also if the path contains the delimiter characters; parsing never yields a location out of range.", "quantifier": "all locations", "why_tests_cant": "all paths and 64 bit numbers", "anchors": ["src/calocation.c: ca_location_format_full", "src/calocation.c: ca_location_parse"]}
{"id": "C30", "title": "Origins account for each byte exactly once", "statement": "Any sequence of put, concat, advance and extract operations on an origin corresponds to the same operation on the list of (file, byte offset) pairs it denotes, and the byte count equals the length of that list.", "quantifier": "all histories", "why_tests_cant": "unbounded histories with merging", "anchors": ["src/caorigin.c"]}
{"id": "C31", "title": "Cache never delivers a chunk for the wrong place", "statement": "A cache lookup for a location either fails or returns an id which was put for an equal location, even if digests of two locations collide.", "quantifier": "all cache histories", "why_tests_cant": "collisions can't be produced by tests", "anchors": ["src/cacache.c: ca_cache_get", "src/cacache.c: ca_cache_put"]}
{"id": "C32", "title": "UID shifting is undone on extraction", "statement": "Encoding with a uid shift and decoding with the same shift gives the original uid back for each uid in the shifted range; others are refused or folded as documented, never silently turned into an invalid id.", "quantifier": "all 32 bit uids, shifts and ranges", "why_tests_cant": "2^96", "anchors": ["src/caencoder.c: ca_encoder_shift_uid", "src/cadecoder.c: ca_decoder_shift_uid"]}
{"id": "C33", "title": "Remote protocol frames reassemble", "statement": "However the transport fragments the byte stream, the peer recovers the same sequence of messages that was sent; a malformed or oversized frame is refused.", "quantifier": "all message sequences and fragmentations", "why_tests_cant": "exponentially many fragmentations", "anchors": ["src/caremote.c: ca_remote_process_message", "src/caremote.c: ca_remote_read"]}
{"id": "C34", "title": "Remote requests are answered once", "statement": "A chunk requested from the remote is requested at most once, high priority requests before low priority ones, otherwise in order.", "quantifier": "all request histories", "why_tests_cant": "histories", "anchors": ["src/caremote.c: ca_remote_enqueue_request", "src/caremote.c: ca_remote_dequeue_request"]}
{"id": "C35", "title": "Chunk lookups try every source", "statement": "A chunk request is served from the first of seeds, writable store and further stores that has it, is reported missing only if none has it, and every chunk delivered matches its id.", "quantifier": "all store combinations", "why_tests_cant": "combinations of failures", "anchors": ["src/casync.c: ca_sync_get_local", "src/casync.c: ca_sync_get"]}
{"id": "C36", "title": "Garbage collection keeps what is referenced", "statement": "Collecting garbage removes exactly the chunks of the store which are not referenced by any index given.", "quantifier": "all stores and index sets", "why_tests_cant": "unbounded sets", "anchors": ["src/gc.c: ca_gc_cleanup_unused"]}
{"id": "C37", "title": "Blob reassembly", "statement": "Splitting a blob into chunks, storing them, and reassembling it from index and store gives the original blob.", "quantifier": "all blobs, configurations", "why_tests_cant": "unbounded", "anchors": ["src/casync.c: ca_sync_step_encode", "src/casync.c: ca_sync_step_decode"]}
{"id": "C38", "title": "Size strings", "statement": "A size string parses to the number times the power of 1024 denoted by its suffix, or is refused if malformed or beyond 64 bit; nothing wraps silently.", "quantifier": "all strings", "why_tests_cant": "overflow borders", "anchors": ["src/parse-util.c: parse_size"]}
{"id": "C39", "title": "Locator classification", "statement": "Each locator is classified as exactly one of path, URL and SSH; file URLs are decoded without loss.", "quantifier": "all strings", "why_tests_cant": "all strings", "anchors": ["src/cautil.c: ca_classify_locator", "src/cautil.c: ca_strip_file_url"]}
{"id": "C40", "title": "Compression is transparent", "statement": "Whatever of the on-disk representation (compressed by any supported algorithm or not) and requested representation is, the store returns the same content.", "quantifier": "all contents and compressions", "why_tests_cant": "all contents", "anchors": ["src/cachunk.c: ca_load_and_decompress_fd", "src/cachunk.c: ca_save_and_compress_fd", "src/cachunk.c: ca_compress"]}
{"id": "C41", "title": "Extraction restores no meta data the user masked out", "statement": "The set of features replayed on extraction lies within what the archive stores and what the user's mask allows, and if the user restricts nothing then everything stored is replayed.", "quantifier": "all archive flag sets and user masks", "why_tests_cant": "2^64 x 2^64 combinations", "anchors": ["src/cadecoder.c: ca_decoder_determine_replay_feature_flags", "src/caformat-util.c: ca_feature_flags_normalize_mask"]}
{"id": "C42", "title": "File attributes survive the translation to flags and back", "statement": "Translating chattr or FAT attributes to feature flags and back gives exactly the supported attributes back, and vice versa; the digest algorithm selected is the one recorded in the flags.", "quantifier": "all attribute words and flag words", "why_tests_cant": "2^32 / 2^64 words", "anchors": ["src/caformat-util.c: ca_feature_flags_from_chattr", "src/caformat-util.c: ca_feature_flags_to_chattr", "src/caformat-util.c: ca_feature_flags_from_fat_attrs", "src/caformat-util.c: ca_feature_flags_to_fat_attrs", "src/caformat-util.c: ca_feature_flags_from_digest_type"]}
{"id": "C43", "title": "An index can be transferred piece by piece", "statement": "What an incremental writer hands out are the bytes of the final index in order, all of them by the time it reports the end; an incremental reader that is fed these bytes in pieces of whatever sizes, with reads attempted at whatever times, delivers the same entries as reading the complete file, and only ever fails with EAGAIN before.", "quantifier": "all indexes, all ways to cut them up, all schedules of pushes and reads", "why_tests_cant": "unboundedly many schedules", "anchors": ["src/caindex.c: ca_index_incremental_write", "src/caindex.c: ca_index_incremental_read", "src/caindex.c: ca_index_incremental_eof", "src/caindex.c: ca_index_read_chunk", "src/caindex.c: ca_index_enough_data"]}
{"id": "C44", "title": "Decoding arbitrary input neither crashes nor hangs", "statement": "Whatever bytes are fed to a decoder, in whatever pieces and with whatever flags, each step returns, no assertion fails, and after finitely many steps it has either finished, failed, or asks for more input.", "quantifier": "all byte strings, all schedules of feeding and stepping", "why_tests_cant": "untrusted input of unbounded length", "anchors": ["src/cadecoder.c: ca_decoder_step", "src/cadecoder.c: ca_decoder_put_data", "src/cadecoder.c: ca_decoder_parse_entry", "src/cadecoder.c: ca_decoder_parse_filename"]}
{"id": "C45", "title": "The decoder reports nothing but file trees", "statement": "The sequence of files, meta data and contents that a decoder reports is, on any input, the beginning of the listing of a well formed directory tree: children come between start and end of their directory, contents have the announced length, all meta data is in range and consistent with the file's type, lists are sorted without duplicates; on success the listing is complete. A decoder for a file passes its input through.", "quantifier": "all byte strings, all schedules", "why_tests_cant": "untrusted input of unbounded length", "anchors": ["src/cadecoder.c: ca_decoder_parse_entry", "src/cadecoder.c: validate_format_entry", "src/cadecoder.c: validate_format_xattr", "src/cadecoder.c: validate_format_acl_user"]}
{"id": "C46", "title": "Seeking to a path finds exactly the file of that name", "statement": "For every archive that was written for a directory tree, and every path: a new decoder that has been told the size of the archive accepts a seek to the path; the seek ends with FOUND if the tree has a file of that path, and the decoder then shows that file with its meta data and everything in it, and nothing else; it ends with NOT_FOUND if the tree has no such file.", "quantifier": "all directory trees, all paths, all schedules", "why_tests_cant": "binary search in a permuted table at every level of a tree of any depth; a wrong answer only shows for particular numbers of entries and hash values", "anchors": ["src/cadecoder.c: ca_decoder_do_seek", "src/cadecoder.c: ca_decoder_seek_path", "src/cadecoder.c: format_goodbye_search", "src/cadecoder.c: ca_decoder_parse_goodbye_tail"]}
{"id": "C47", "title": "With a cache the index describes the same archive as without", "statement": "An index made with the help of a cache lists pieces which, put together, are the archive that would have been written without it: whatever entries the cache has, lacks, loses or gains, and whatever was changed in the tree since they were made, as long as unchanged meta data mean unchanged data. Each listed chunk was stored or is one the cache claimed to know. Making the index ends. What is put into the cache is true of the archive.", "quantifier": "all archives, all histories of runs, all caches, all schedules of other users of the cache", "why_tests_cant": "state machine with buffered data, verification across files and seeking back; the state depends on all earlier hits and misses", "anchors": ["src/casync.c: ca_sync_step_encode", "src/casync.c: ca_sync_cache_get", "src/casync.c: ca_sync_write_one_cached_chunk", "src/casync.c: ca_sync_write_chunks", "src/caorigin.c: ca_origin_advance_bytes"]}
{"id": "C48", "title": "A decoder may be used for many seeks", "statement": "Any number of seeks by path may be made on one decoder, each after the one before has ended and after reading any part of what it found: each ends with the right answer, as the first one would.", "quantifier": "all directory trees, all sequences of paths, all amounts read in between, all schedules", "why_tests_cant": "what the decoder remembers of the archive depends on the whole history of seeks and reads", "anchors": ["src/cadecoder.c: ca_decoder_seek_path", "src/cadecoder.c: ca_decoder_seek_next_sibling", "src/cadecoder.c: ca_decoder_do_seek", "src/cadecoder.c: ca_decoder_step"]}
{"id": "C49", "title": "Files written with holes have the same contents", "statement": "Writing data with hole punching leaves exactly the file that writing the bytes one after the other would leave: the bytes from the position on are the data, whatever was there before, the rest is as it was and the position is behind the data; however short the individual writes are, and whether or not the file system can punch holes. If a call fails, an error is returned.", "quantifier": "all data, all files and positions, all sizes of short writes, all failures", "why_tests_cant": "alignment of runs of zero bytes with blocks, file ends and positions; short writes", "anchors": ["src/util.c: loop_write_with_holes", "src/util.c: write_zeroes", "src/util.c: memeqzero", "src/util.c: loop_write"]}
{"id": "C50", "title": "Extraction stays inside of the target directory", "statement": "While an archive is extracted to a directory, nothing is written, created, renamed, deleted or changed outside of the directories that were below the target when extraction began: every inode that isn't one of them keeps contents, meta data and entries, even if the target contains symbolic links that lead elsewhere or hard links of files elsewhere. Files in the target are replaced, not overwritten. With --undo-immutable, the one exception is the immutable flag of files linked in the target, which may be cleared.", "quantifier": "all byte strings as archives, all schedules, all failures of system calls, all moments at which the process may be killed, all contents of target and file system", "why_tests_cant": "hostile archives and hostile targets; each of the intermediate states counts", "anchors": ["src/cadecoder.c: ca_decoder_realize_child", "src/cadecoder.c: ca_decoder_finalize_child", "src/cadecoder.c: ca_decoder_install_file", "src/cadecoder.c: ca_decoder_node_delete", "src/rm-rf.c: rm_rf_at", "src/rm-rf.c: rm_rf_children"]}
{"id": "C51", "title": "Extracted files appear under their names only when they are final", "statement": "During extraction, a file that isn't a directory gets its final name only when its contents and meta data are final: in no later state of the file system, up to a crash at any time, is the file different. Until then it has a temporary name at most.", "quantifier": "all byte strings as archives, all schedules, all failures of system calls, all moments at which the process may be killed", "why_tests_cant": "every intermediate state of every extraction counts", "anchors": ["src/cadecoder.c: ca_decoder_realize_child", "src/cadecoder.c: ca_decoder_finalize_child", "src/cadecoder.c: ca_decoder_install_file", "src/util.c: tempfn_random"]}
{"id": "C52", "title": "A successful extraction leaves the archived tree", "statement": "If extraction of an archive to an empty directory succeeds then the directory holds the tree that the archive describes, and for an archive made by casync the tree that was archived: each directory has exactly the entries stored, apart from types of files that are not to be restored; regular files have their contents, symbolic links their targets, device nodes their numbers; owners, permissions, extended attributes, capabilities and modification times are the stored ones as far as the feature flags ask for them.", "quantifier": "all archives, all trees, all ways to feed the input, all short writes and failures that are survived", "why_tests_cant": "a tree of any shape, made by a sequence of calls that depends on the pieces in which the input arrives; each kind of meta data may be undone by a later call", "anchors": ["src/cadecoder.c: ca_decoder_step", "src/cadecoder.c: ca_decoder_realize_child", "src/cadecoder.c: ca_decoder_finalize_child", "src/cadecoder.c: ca_decoder_install_file", "src/cadecoder.c: ca_decoder_node_delete_others"]}
{"id": "C53", "title": "Sharing data with seeds does not change what is extracted", "statement": "When an extracted file's data is shared with a seed's file (reflink), the contents of the extracted file stay what they were, whatever the seeds hold by then; and if the seed's file does hold the data the attempt succeeds, or is skipped where the file system can't do it.", "quantifier": "all origins (lists of places in seeds), all file contents and sizes, all failures of system calls, all changes of the seeds by others at any time", "why_tests_cant": "depends on alignment of two files, ends of files, limits of single calls and on what other processes do between two calls", "anchors": ["src/reflink.c: reflink_fd", "src/reflink.c: validate", "src/cadecoder.c: ca_decoder_node_reflink", "src/calocation.c: ca_location_open"]}
{"id": "C54", "title": "The block device serves the blob", "statement": "A block device that `casync mkdev` makes from a blob index answers each read request of the kernel with the blob's bytes at that offset, zeroes behind its end up to the device's size, under the request's handle and in order, whatever was asked before and in whatever pieces the blob's data becomes available; if the blob's data can't be read, no wrong answer is written.", "quantifier": "all blobs, all sequences of valid requests, all sizes of pieces and moments of waiting, all errors", "why_tests_cant": "any sequence of seeks in any states that earlier requests left; pieces that end anywhere relative to the request", "anchors": ["src/canbd.c: ca_block_device_step", "src/canbd.c: ca_block_device_put_data", "src/casync-tool.c: verb_mkdev", "src/casync.c: ca_sync_seek_offset", "src/cadecoder.c: ca_decoder_seek_offset"]}
{"id": "C55", "title": "Digests are those of the data they belong to", "statement": "The archive digest an encoder or decoder reports at the end is the digest of exactly the archive's bytes; the payload digest reported when a file is complete is that of the file's contents; the hardlink digest is that of the file's records and contents, so that two files with the same one have the same meta data and contents unless the hash function collides. Encoder and decoder agree. It does not matter in what pieces data comes, which digests are asked for and whether others were.", "quantifier": "all trees, all archives, all ways to feed input and fetch output, all sets of enabled digests, all hash functions", "why_tests_cant": "the digests are accumulated over many steps, in states that depend on how the input is cut; each byte must be written once and to the right digests", "anchors": ["src/caencoder.c: ca_encoder_get_data", "src/caencoder.c: ca_encoder_get_archive_digest", "src/caencoder.c: ca_encoder_get_payload_digest", "src/caencoder.c: ca_encoder_get_hardlink_digest", "src/cadecoder.c: ca_decoder_step_node", "src/cadecoder.c: ca_decoder_write_digest", "src/cadecoder.c: ca_decoder_get_hardlink_digest", "src/cadigest.c: ca_digest_read"]}
{"id": "C56", "title": "Files that are hard linked to seeds are the archive's files", "statement": "With --hardlink, a file whose hardlink digest a seed knows is linked to the seed's file instead of being stored again. Then its name leads to that file, which has the recorded size, permissions, owner and time, and no file's contents or attributes change; the replacement is atomic: at any time, and after any failure, the name leads to what it led to before or to the seed's file. If linking isn't possible the file is extracted as usual, and nothing has been changed. A file the seed has read is found by its digest, and what is found is a file that had it.", "quantifier": "all states of the file system, all paths and entries, all failures, all moments at which the process is killed; all histories of a seed's cache", "why_tests_cant": "the window between link and rename, leftovers after failures and what other names lead to can't be enumerated by tests", "anchors": ["src/cadecoder.c: ca_decoder_try_hardlink", "src/cadecoder.c: ca_decoder_install_file", "src/caseed.c: ca_seed_cache_hardlink", "src/caseed.c: ca_seed_get_hardlink_target", "src/caseed.c: ca_seed_write_cache_entry"]}
{"id": "C57", "title": "Name hashes are SipHash-2-4 of the whole input, however it is fed", "statement": "The hash under which the file names of a directory are listed in an archive's goodbye table, and by which chunk ids and other keys are looked up in hash tables, is SipHash-2-4 of the bytes with the key: whatever the pieces in which the bytes are fed (empty ones included), the result is the one that the algorithm's authors define for the whole input, no byte outside of a piece is read, and it does not depend on where the pieces are cut. So archives written here can be searched by any implementation of the format.", "quantifier": "all keys of 16 bytes; all inputs of any length, cut into any number of pieces of any sizes", "why_tests_cant": "tests hash a few inputs with a few cuts; the padding carried over between calls takes a path of its own for each combination of fill level and piece length", "anchors": ["src/siphash24.c: siphash24_init, siphash24_compress, siphash24_finalize, siphash24", "src/caformat.h: CA_FORMAT_GOODBYE_HASH_KEY", "src/caencoder.c: siphash24(name, ...)", "src/cadecoder.c: siphash24(name, ...)"]}
