{
 "claims": [
  {
   "property": "C01",
   "status": "proved",
   "theorems": [
    "chunking_independent_of_pieces",
    "scan_independent_of_pieces"
   ],
   "note": ""
  },
  {
   "property": "C02",
   "status": "proved",
   "theorems": [
    "chunking_lossless",
    "scan_border_within_data",
    "scan_never_fails"
   ],
   "note": ""
  },
  {
   "property": "C03",
   "status": "partial",
   "theorems": [
    "chunk_sizes_bounded_partial",
    "chunk_size_max_refuted"
   ],
   "note": "The upper bound is false of the code for max < 48 in non-fixed mode (refuted with a witness); proved for all other configurations."
  },
  {
   "property": "C04",
   "status": "proved",
   "theorems": [
    "cut_positions",
    "rolling_hash_is_window_hash"
   ],
   "note": ""
  },
  {
   "property": "C05",
   "status": "proved",
   "theorems": [
    "chunking_resynchronises"
   ],
   "note": ""
  },
  {
   "property": "C06",
   "status": "partial",
   "theorems": [
    "set_size_consistent",
    "set_size_never_asserts",
    "set_size_establishes_cfg_ok",
    "set_size_defined_refuted",
    "set_size_refused_once_started_refuted"
   ],
   "note": "Success implies consistency; but for large averages the discriminator formula is undefined behaviour, and the already-started test misses fixed-size and skipping states (both refuted with witnesses)."
  },
  {
   "property": "C07",
   "status": "proved",
   "theorems": [
    "chunk_id_round_trip",
    "chunk_id_parse_exact",
    "chunk_path_injective",
    "chunk_path_layout",
    "chunk_id_is_null_refuted"
   ],
   "note": "In addition ca_chunk_id_is_null is shown to ignore 24 of the 32 bytes."
  },
  {
   "property": "C08",
   "status": "proved",
   "theorems": [
    "goodbye_lookup_exact"
   ],
   "note": ""
  },
  {
   "property": "C09",
   "status": "proved",
   "theorems": [
    "make_bst_permutes"
   ],
   "note": ""
  },
  {
   "property": "C10",
   "status": "proved",
   "theorems": [
    "index_round_trip"
   ],
   "note": ""
  },
  {
   "property": "C11",
   "status": "proved",
   "theorems": [
    "index_reader_exact",
    "index_truncated",
    "index_trailing_bytes"
   ],
   "note": ""
  },
  {
   "property": "C12",
   "status": "partial",
   "theorems": [
    "index_only_install_publishes",
    "index_published_complete",
    "index_published_after_enospc_refuted",
    "index_late_size_change_refuted"
   ],
   "note": "Proved for all histories of calls in which the disk did not fill up; a caller that goes on after ENOSPC can install a broken index (refuted with a witness)."
  },
  {
   "property": "C13",
   "status": "partial",
   "theorems": [
    "index_seek_correct_partial",
    "index_seek_refuted"
   ],
   "note": "Proved for indexes whose chunks but the last respect the declared minimum; false otherwise (witness): the reader accepts shorter chunks but seek takes a short cut."
  },
  {
   "property": "C14",
   "status": "proved",
   "theorems": [
    "normalize_accepts",
    "normalize_sound",
    "normalize_canonical",
    "are_normalized_exact"
   ],
   "note": ""
  },
  {
   "property": "C15",
   "status": "proved",
   "theorems": [
    "flag_names_round_trip"
   ],
   "note": ""
  },
  {
   "property": "C16",
   "status": "partial",
   "theorems": [
    "mtime_rounding",
    "mtime_accepted_partial",
    "mtime_accepted_refuted",
    "timespec_round_trip",
    "timespec_round_trip_refuted"
   ],
   "note": "False of the code for usec-time (the decoder demands whole milliseconds) and for times before 1970; both refuted with witnesses, everything else proved."
  },
  {
   "property": "C17",
   "status": "proved",
   "theorems": [
    "buffer_is_a_byte_string",
    "buffer_call_refines",
    "buffer_range_in_allocation",
    "buffer_first_in_first_out"
   ],
   "note": ""
  },
  {
   "property": "C18",
   "status": "partial",
   "theorems": [
    "archive_round_trip_partial",
    "blob_round_trip",
    "round_trip_usec_refuted",
    "round_trip_user_name_refuted",
    "round_trip_root_refuted",
    "round_trip_no_name_refuted"
   ],
   "note": "For every tree within the limits listed in ArchiveSpec.v (storable) and every supported flag set, any decoding of the archive shows exactly the stored tree. The full property is false of the code: the refuted theorems give trees that are encoded without error to archives that can't be decoded. Restoring to disk is C52, seeking C46 and C48."
  },
  {
   "property": "C19",
   "status": "proved",
   "theorems": [
    "encoding_canonical",
    "encoding_terminates"
   ],
   "note": "Regular files and directories as roots, no failing system calls besides short reads; the directory entry order, xattr order, qsort implementation and fetch sizes are arbitrary."
  },
  {
   "property": "C20",
   "status": "partial",
   "theorems": [
    "encoding_injective_partial",
    "encoding_injective_refuted"
   ],
   "note": "Proved for storable trees; false for times before 1970 (refuted theorem)."
  },
  {
   "property": "C21",
   "status": "partial",
   "theorems": [
    "decode_paths_partial",
    "decode_names_refuted"
   ],
   "note": "Every name is a single component and paths have less than 64 of them; but the decoder accepts directories whose names are out of order, duplicate or longer than 255 bytes (witnesses)."
  },
  {
   "property": "C22",
   "status": "proved",
   "theorems": [
    "truncated_archive_fails",
    "truncated_error_refuted"
   ],
   "note": "No proper prefix succeeds; the decoder doesn't report an error in general but asks for more data for ever (second theorem)."
  },
  {
   "property": "C23",
   "status": "proved",
   "theorems": [
    "decode_feeding_independent",
    "decode_so_far"
   ],
   "note": ""
  },
  {
   "property": "C24",
   "status": "partial",
   "theorems": [
    "store_get_returns_requested_partial",
    "store_get_wrong_chunk",
    "store_get_truncated_aborts",
    "store_get_bad_message_refuted"
   ],
   "note": "What is handed out always hashes to the id, for arbitrary results of all system calls (any corruption, interference and fault). A complete file holding another chunk is reported as EBADMSG. The rest of the property is false: a truncated compressed file makes ca_decompress run into an assertion (process abort) when compressed chunks are requested."
  },
  {
   "property": "C25",
   "status": "proved",
   "theorems": [
    "store_is_a_map",
    "store_put_then_get",
    "store_written_atomically"
   ],
   "note": "Histories: sequential operations with arbitrary faults. Atomicity: any number of processes, any interleaving of system calls, stopped anywhere. No fsync is issued by the code: loss of power is not covered, only of processes."
  },
  {
   "property": "C26",
   "status": "partial",
   "theorems": [
    "chunk_of_any_size_partial",
    "store_limit_chunk_refuted"
   ],
   "note": "Proved for 1 to 128 MiB - 1 bytes; refuted for exactly 128 MiB: stored without error, then EBADMSG on reading."
  },
  {
   "property": "C27",
   "status": "proved",
   "theorems": [
    "exclude_files_as_documented",
    "exclude_files_off",
    "test_without_subtree"
   ],
   "note": "For whole trees with .caexclude files in any directory, from the bytes of the files to the encoder's decision; fnmatch() is an arbitrary relation. Reference counting is not modelled (objects are values)."
  },
  {
   "property": "C28",
   "status": "proved",
   "theorems": [
    "normalize_keeps_meaning",
    "normal_form_canonical"
   ],
   "note": "For all objects that can be made through the API. The normal form is moreover canonical."
  },
  {
   "property": "C29",
   "status": "proved",
   "theorems": [
    "location_text_round_trip",
    "location_text_tells",
    "location_parse_in_range",
    "location_equal_agree",
    "location_new_exact",
    "name_table_text"
   ],
   "note": "For all locations the constructor makes and all parts; a location that was advanced to its end (size 0) is none of these, its text is refused (location_text_at_end_refuted). Numbers are read by models of strtoull and printf."
  },
  {
   "property": "C30",
   "status": "proved",
   "theorems": [
    "origins_account",
    "origins_account_prefix"
   ],
   "note": "Refinement: pointers, reference counts and cached texts against plain lists of sources, for all histories of all operations on locations and origins. Sums below 2^64 and locations that are not empty (origin_count_wraps_refuted, origin_empty_item_refuted show both are needed). Which files two locations with different feature flags come from is not told apart by merging."
  },
  {
   "property": "C31",
   "status": "proved",
   "theorems": [
    "cache_lookups_genuine",
    "cache_put_get",
    "cache_remove_get"
   ],
   "note": "For any number of processes sharing the cache, any interleaving, any system call failing and any process stopping anywhere, and for any digest function (also one with collisions): every lookup that answers gives an origin and a chunk id that were put together. Fault-free and alone, what was put is found and what was removed is not. A failed put leaves its temporary file (cache_put_clean_refuted); the digested text of a location does not determine it (cache_key_injective_refuted), which is why the lookup compares the stored text."
  },
  {
   "property": "C32",
   "status": "proved",
   "theorems": [
    "uid_shift_undone",
    "uid_shift_never_invalid"
   ],
   "note": "Both directions, exact characterisation of what is refused. The getters ca_decoder_current_uid/gid (mtree, list, FUSE) show the stored id without the shift; they are not extraction."
  },
  {
   "property": "C33",
   "status": "partial",
   "theorems": [
    "remote_in_order",
    "remote_complete",
    "remote_file_whole",
    "remote_frame",
    "remote_bad_size",
    "remote_abort",
    "remote_no_refusal_partial",
    "remote_input_bounded",
    "remote_waits_for_input"
   ],
   "note": "For two instances of the whole protocol machine (both are caremote.c, any roles), any calls on both sides and any cutting of both byte streams into pieces: what one side hands out is, item by item and in order, a prefix of what was put into the other; when the goodbye has arrived it is all of it; files arrive byte for byte. Every frame is decoded to the message it encodes or refused, for all contents; impossible sizes and illegal orders are refused, and the input buffer stays bounded. That no frame of an honest peer is refused holds only when the index or archive travels one way, and aborts carry legal reasons (remote_mutual_refuted, remote_abort_reason_refuted, remote_early_goodbye_refuted): the code itself breaks the unrestricted claim, hence partial."
  },
  {
   "property": "C34",
   "status": "proved",
   "theorems": [
    "queue_is_two_fifos",
    "queue_goes_on",
    "queue_at_most_once",
    "queue_once",
    "pending_reported"
   ],
   "note": "Refinement of two FIFO queues by the farm of symbolic links, for all histories of requests, hand-outs and forgotten chunks, and whatever else is done in the cache directory in between; with arbitrary failures, a chunk is handed out at most as often as its request was accepted. A chunk that was sent with low priority may be asked for again with high priority (queue_twice_refuted); a failed request can not be repeated (queue_retry_refuted); a used directory swallows requests (queue_reuse_refuted); forgetting a chunk nobody asked for is undefined behaviour (forget_unasked_refuted); has_pending may overcount (pending_exact_refuted)."
  },
  {
   "property": "C35",
   "status": "proved",
   "theorems": [
    "sync_get_genuine",
    "get_local_order",
    "sync_get_order",
    "sync_get_serves",
    "sync_get_missing",
    "sync_get_asks",
    "remote_request_asks",
    "has_local_right"
   ],
   "note": "For all combinations of seeds, writable store, cache store, further stores and remotes: what is delivered stands for bytes with the digest asked for, whatever the file system and the seeds' trees do; the place that serves is the first that has the chunk, and a chunk is reported missing only if none has it (for local places whatever system calls fail, but that a failing call may make a seed be passed over; with remotes, without failures). A place in good order serves, with total correctness; a remote that has not answered is asked. Not so: a new cache store hides further stores from ca_sync_has_local (has_local_new_cache_refuted); a damaged chunk in a store blocks the request (sync_get_damaged_refuted); when the remote's directory can not be made the chunk is reported missing (sync_get_missing_unasked_refuted)."
  },
  {
   "property": "C36",
   "status": "partial",
   "theorems": [
    "gc_keeps_referenced",
    "gc_keeps_referenced_at_any_moment",
    "gc_removes_unreferenced_partial",
    "gc_bad_index_removes_nothing",
    "gc_cut_index_refuted",
    "gc_uncompressed_refuted",
    "gc_stray_file_refuted",
    "gc_parent_refuted"
   ],
   "note": "Referenced chunks are kept, under any faults, interleavings of several collections, and kills; a bad index removes nothing. Removal is proved for compressed chunks in a store with nothing but directories in it; refuted otherwise: uncompressed chunks stay, a stray file makes it fail, files in the parent directory are removed, a cut index is an assertion failure."
  },
  {
   "property": "C37",
   "status": "partial",
   "theorems": [
    "blob_session_right",
    "piece_genuine",
    "blob_read_complete",
    "blob_written",
    "blob_write_succeeds",
    "blob_round_trip",
    "blob_write_refuted"
   ],
   "note": "Reading: for all blobs, any sequence of requests, seeks and skips, and whatever system calls return, every byte handed out is that of the blob at the position (or there are two strings of equal length and digest); without failures the whole blob is read, from the start or any offset. Writing: whatever fails, a write that reports success has put the index of the chunks and all the chunks in place and changed nothing else in the store; without failures it succeeds. Together: round trip. Writing is for a writable store, without cache store and cache (see C47), and for chunks whose digests do not clash with each other or with what the store has. Partial because of the configurations with a maximum below 48 that the chunker accepts: their chunks are refused by the index (blob_write_refuted); seeking needs chunks of at least the minimum (C13)."
  },
  {
   "property": "C38",
   "status": "partial",
   "theorems": [
    "size_string_exact_partial",
    "size_string_wraps_refuted",
    "size_string_negative_refuted"
   ],
   "note": "Exact for all strings without '-' and '.'. Missing: the rounding of fractions. Refuted: 18446744073709551615.5K wraps, and a vertical tab followed by -1 is accepted as 2^64-1."
  },
  {
   "property": "C39",
   "status": "partial",
   "theorems": [
    "locator_classified",
    "file_url_decoded",
    "file_url_complete",
    "file_url_nul_refuted"
   ],
   "note": "Classification is proved for all strings. File URLs are decoded without loss for all paths a file can have; an escaped NUL byte (%00) cuts the path off (refuted)."
  },
  {
   "property": "C40",
   "status": "proved",
   "theorems": [
    "compression_is_transparent",
    "store_put_then_get",
    "compress_then_decompress"
   ],
   "note": "Relative to libraries satisfying codec_ok (StoreSpec.v); a codec satisfying it is given. Chunks below the size limit (C26)."
  },
  {
   "property": "C41",
   "status": "partial",
   "theorems": [
    "replay_within_mask_partial",
    "replay_within_mask_refuted",
    "replay_unrestricted"
   ],
   "note": "Restoring ACLs switches on owners behind the user's mask (refuted with a witness); proved for everything else."
  },
  {
   "property": "C42",
   "status": "proved",
   "theorems": [
    "chattr_round_trip",
    "fat_attrs_round_trip",
    "digest_type_round_trip"
   ],
   "note": ""
  },
  {
   "property": "C43",
   "status": "partial",
   "theorems": [
    "index_transfer_sender",
    "index_transfer_receiver_partial",
    "index_transfer_receiver_refuted"
   ],
   "note": "A read attempted while 41..63 bytes have arrived fails with EBADMSG for good (witness); proved for all other schedules."
  },
  {
   "property": "C44",
   "status": "proved",
   "theorems": [
    "decode_never_crashes"
   ],
   "note": "In streaming mode, no seeking."
  },
  {
   "property": "C45",
   "status": "proved",
   "theorems": [
    "decode_valid_tree",
    "decode_blob"
   ],
   "note": ""
  },
  {
   "property": "C46",
   "status": "proved",
   "theorems": [
    "seek_to_path",
    "goodbye_lookup_exact"
   ],
   "note": "For every storable tree, every path and any way the caller cuts the archive into pieces, including hash collisions. Composed of the encoder's goodbye tables, the search in them and the decoder's seek states. For sequences of seeks see C48."
  },
  {
   "property": "C47",
   "status": "partial",
   "theorems": [
    "cached_index_right_partial",
    "cached_index_chunks_partial",
    "cached_run_ends_partial",
    "cache_entries_true_partial",
    "incremental_index_right_partial",
    "empty_cache_same_index",
    "cached_index_refuted",
    "cached_chunk_sizes_refuted"
   ],
   "note": "For all archives (lists of files' payloads and blocks), all sequences of truthful answers, which may change in every step, and after any number of earlier runs for changing trees. Missing, because it is false: a cache that has a chunk lying inside of one block (cached_index_refuted: bytes are written twice). Also false: that the chunks are as large as they have to be (cached_chunk_sizes_refuted). The encoder, the cache, the index and the store are oracles here (see C22, C31, C11, C24)."
  },
  {
   "property": "C48",
   "status": "partial",
   "theorems": [
    "seek_to_path_partial",
    "seek_below_found_refuted",
    "seek_below_read_refuted",
    "next_of_found_refuted",
    "seek_after_step_refuted"
   ],
   "note": "Proved for every storable tree, any sequence of paths and any way the caller cuts the archive into pieces: each seek accepted finds the file at the path and the decoder then shows that file and nothing else, or says NOT_FOUND and there is none; only a seek further down from the file just found is refused (EUNATCH), which seek_below_found_refuted shows does happen. Missing: a seek after part of the file found has been read (seek_below_read_refuted, next_of_found_refuted and seek_after_step_refuted show where the code refuses or aborts then), seeking to an offset or to the next sibling."
  },
  {
   "property": "C49",
   "status": "proved",
   "theorems": [
    "write_with_holes",
    "write_without_holes",
    "memeqzero_zeroes"
   ],
   "note": "For all data, old contents and positions, all short writes and all failures. The decoder writes regular files this way."
  },
  {
   "property": "C50",
   "status": "proved",
   "theorems": [
    "extraction_stays_inside",
    "extraction_stays_inside_undo",
    "extraction_undo_refuted"
   ],
   "note": "Extraction to a directory without a seek. The file system is modelled by inodes (Fs.v: environment, trusted); any call may fail with any error, writes may be short, histories end anywhere. Nobody else changes the file system meanwhile. extraction_undo_refuted: the exception for --undo-immutable is needed."
  },
  {
   "property": "C51",
   "status": "proved",
   "theorems": [
    "extracted_files_final"
   ],
   "note": "As C50. With --undo-immutable the flag may be cleared later, by an archive that has the same name twice."
  },
  {
   "property": "C52",
   "status": "partial",
   "theorems": [
    "extraction_yields_tree_partial",
    "archive_then_extract_partial",
    "extraction_unsorted_refuted",
    "extraction_read_only_refuted",
    "extraction_long_name_refuted"
   ],
   "note": "For any input, and for any tree that can be stored, through encoder and decoder to the file system; short writes and errors such as ENOSPC and EIO anywhere. Missing: ACLs, SELinux labels, chattr and FAT attributes, subvolumes and quota project ids are not modelled (the flags that are replayed must not have them). Missing because false: names that are not in order (extraction_unsorted_refuted), WITH_READ_ONLY (extraction_read_only_refuted), names of more than 237 bytes are not extracted at all (extraction_long_name_refuted)."
  },
  {
   "property": "C53",
   "status": "partial",
   "theorems": [
    "reflink_keeps_contents",
    "reflink_succeeds_partial",
    "reflink_large_refuted",
    "reflink_race_refuted",
    "reflink_written_seed_refuted",
    "reflink_stale_refuted"
   ],
   "note": "Contents are kept for all origins, failures and for seeds that are renamed, replaced, removed or touched meanwhile. Missing because false: a seed that is written to between check and ioctl (reflink_race_refuted: wrong contents, no error; earlier: abort), pieces of 2 GiB and more (reflink_large_refuted: abort), a seed's file that changed since it was read (reflink_stale_refuted: extraction fails). FICLONERANGE is environment."
  },
  {
   "property": "C54",
   "status": "proved",
   "theorems": [
    "mkdev_serves_the_blob",
    "mkdev_answers_all",
    "mkdev_empty",
    "mkdev_unaligned_refuted"
   ],
   "note": "For blobs that are not empty (mkdev refuses an empty one: mkdev_empty) and requests of whole sectors, which is what the kernel's driver makes for a device of 512 byte sectors (others: mkdev_unaligned_refuted). Where the blob's data comes from (file, or index and chunks: C37) is environment here; so are socket, signals and set-up of the device."
  },
  {
   "property": "C55",
   "status": "partial",
   "theorems": [
    "decoder_archive_digest",
    "decoder_payload_digest",
    "decoder_hardlink_digest",
    "hardlink_digest_identifies",
    "decoder_digests_any_use",
    "encoder_archive_digest",
    "encoder_payload_digest",
    "encoder_hardlink_digest",
    "archive_digests_agree_partial",
    "hardlink_digest_finds",
    "blob_digests_agree_refuted",
    "digest_twice_refuted"
   ],
   "note": "Without seeks (they invalidate the digests of the file). archive_digests_agree_partial: for trees that can be stored (ArchiveSpec). hardlink_digest_identifies is of what two decoders show, hardlink_digest_finds of what a decoder shows and the file an encoder read. Refuted for blobs whose flags call for SHA-256, whose decoder uses SHA512-256."
  },
  {
   "property": "C56",
   "status": "partial",
   "theorems": [
    "hardlink_made_partial",
    "hardlink_not_made_partial",
    "hardlink_atomic_partial",
    "hardlink_target_sound",
    "hardlink_target_found",
    "hardlink_leaves_nothing_refuted",
    "hardlink_owner_refuted"
   ],
   "note": "For any failures and stops. Missing: a directory in the way of the name; EMLINK; that the seed's file still has the contents that it had when its digest was made is assumed of seeds by casync itself (only size, mode, owner and time are compared). Missing because false: no temporary link is left (hardlink_leaves_nothing_refuted), the owner is the one that extraction would set (hardlink_owner_refuted)."
  },
  {
   "property": "C57",
   "status": "proved",
   "theorems": [
    "siphash_streaming",
    "siphash_of_name",
    "siphash_functional",
    "siphash_pieces_irrelevant"
   ],
   "note": "In the encoder and decoder models (C18 to C23, C46) the hash of names is an arbitrary function; this is the function that the code plugs in, and it meets the bound that C46 asks for."
  }
 ]
}