{
 "claims": [
  {
   "property": "C01",
   "status": "proved",
   "theorems": [
    "c01_added_file_reads_back",
    "c01_reported_file_size"
   ],
   "note": "all contents, cuts, chunk sizes 1..2^31 and branching factors 2..2^28; blocks totalling below 2^64 bytes"
  },
  {
   "property": "C02",
   "status": "proved",
   "theorems": [
    "c02_blocks_independent_of_cuts",
    "c02_empty_push"
   ],
   "note": "every chunk size and branching factor, including those that panic or diverge"
  },
  {
   "property": "C03",
   "status": "proved",
   "theorems": [
    "c03_range_read",
    "c03_part_is_slice"
   ],
   "note": "every range; c03_part_is_slice states what the answer is byte by byte"
  },
  {
   "property": "C04",
   "status": "proved",
   "theorems": [
    "c04_tree_shape"
   ],
   "note": "shape read off the parsed stored blocks"
  },
  {
   "property": "C05",
   "status": "partial",
   "theorems": [
    "c05_adder_completes_partial",
    "c05_branching_one_refuted",
    "c05_chunk_zero_refuted",
    "c05_finish_within_agrees"
   ],
   "note": "proved for chunk size >= 1 and branching factor >= 2; false for branching factor 1 (finish diverges) and chunk size 0 (first push panics), both accepted by the builder"
  },
  {
   "property": "C06",
   "status": "proved",
   "theorems": [
    "c06_link_roundtrip",
    "c06_link_size",
    "c06_node_roundtrip",
    "c06_node_size",
    "c06_unixfs_roundtrip",
    "c06_unixfs_size",
    "c06_block_roundtrip",
    "c06_block_size",
    "c06_block_injective",
    "c06_cid_roundtrip",
    "c06_cid_injective"
   ],
   "note": "dag-pb links, nodes, UnixFS messages, blocks and binary cids; each length-prefixed part below 4 GiB"
  },
  {
   "property": "C07",
   "status": "partial",
   "theorems": [
    "c07_start_partial",
    "c07_continue_partial",
    "c07_missing_filesize_refuted",
    "c07_sizes_overflow_refuted",
    "c07_wrong_length_refuted",
    "c07_content_length_refuted",
    "c07_empty_pending_refuted"
   ],
   "note": "complete list of the panicking cases; the claim itself is false: missing filesize, overflowing sizes, wrong leaf length in range reads, empty pending list, leaf lengths not checked against the declared range"
  },
  {
   "property": "C08",
   "status": "partial",
   "theorems": [
    "c08_encode_total",
    "c08_round_trip_partial",
    "c08_infinity_refuted",
    "c08_nan_refuted",
    "c08_long_bytes_refuted",
    "c08_long_list_refuted",
    "c08_short_link_refuted",
    "c08_float_takes_short_form"
   ],
   "note": "exactly the values for which the round trip holds (within_limits); false for infinities and NaN, strings and byte strings over 64 KiB, lists over the allocation limit, one byte links"
  },
  {
   "property": "C09",
   "status": "proved",
   "theorems": [
    "c09_prefix_code",
    "c09_map_order"
   ],
   "note": "the encoding is a prefix code over all values without NaN, map entries in canonical key order"
  },
  {
   "property": "C10",
   "status": "partial",
   "theorems": [
    "c10_decode_total_partial",
    "c10_deep_nesting_refuted",
    "c10_reads_only_its_item"
   ],
   "note": "returns a value or an error given stack for the nesting; deep nesting overflows any fixed stack"
  },
  {
   "property": "C11",
   "status": "partial",
   "theorems": [
    "c11_dagpb_round_trip",
    "c11_dagpb_decoded_is_stable",
    "c11_dagpb_extra_key_refuted",
    "c11_dagpb_tsize_refuted",
    "c11_dagjson_round_trip_partial",
    "c11_dagjson_bytes_refuted",
    "c11_dagjson_nonfinite_refuted",
    "c11_dagjson_big_integer_refuted",
    "c11_dagjson_slash_refuted",
    "c11_dagjson_deep_refuted"
   ],
   "note": "dag-pb: every value of the dag-pb shape and every decoded value round trips; extra keys are dropped and Tsize wraps. dag-json: proved for json_safe values nested less than 128 deep; bytes, non-finite floats, large integers and {\"/\": string} maps do not survive"
  },
  {
   "property": "C12",
   "status": "partial",
   "theorems": [
    "c12_grammar",
    "c12_segments_good",
    "c12_parse_print",
    "c12_print_parse_partial",
    "c12_dns_exact",
    "c12_dns_refuted",
    "c12_print_injective_partial",
    "c12_trailing_slash",
    "c12_empty_name_accepted"
   ],
   "note": "exact grammar of the parser for every string; parse-print-parse for every parsed path; print-parse for every path built through the api except dns roots containing '/' or spelling a peer id, which do not come back. The parser accepts an empty dns name"
  },
  {
   "property": "C13",
   "status": "partial",
   "theorems": [
    "c13_sub_path",
    "c13_associative_partial",
    "c13_parse_join",
    "c13_print",
    "c13_associative_refuted",
    "c13_associative_refuted_trailing",
    "c13_split"
   ],
   "note": "exactly which texts can be appended and with what result; associativity for first parts which are not empty and do not end in '/', for which it is false; appending agrees with parsing the longer text"
  },
  {
   "property": "C14",
   "status": "proved",
   "theorems": [
    "c14_memory_store_is_a_map"
   ],
   "note": "every history; blocks are told apart by multihash, as the code does"
  },
  {
   "property": "C15",
   "status": "proved",
   "theorems": [
    "c15_filesystem_store_is_a_map"
   ],
   "note": "every sequential history with reopenings on a healthy filesystem; keyed by version 1 cid, so two cids with the same multihash and different codecs are separate blocks, unlike the in-memory store"
  },
  {
   "property": "C16",
   "status": "partial",
   "theorems": [
    "c16_get_after_crashes_partial",
    "c16_completed_put_survives",
    "c16_other_blocks_untouched",
    "c16_crash_refuted"
   ],
   "note": "get returns nothing, the full block or an empty block; completed puts survive; other blocks are untouched. False as stated: a crash after the target is created leaves an empty block which a later put does not repair. Process crashes only; losing unsynced directory entries is not modelled"
  },
  {
   "property": "C17",
   "status": "partial",
   "theorems": [
    "c17_one_new_block",
    "c17_no_new_block_when_present",
    "c17_get_partial",
    "c17_new_block_is_stored",
    "c17_present_block_is_returned",
    "c17_success_once_settled",
    "c17_two_puts_partial",
    "c17_get_refuted",
    "c17_existed_refuted",
    "c17_dropped_refuted",
    "c17_write_failure_panics_refuted"
   ],
   "note": "any number of puts and gets, every interleaving including dropped futures: one NewBlock, no error or panic, NewBlock means stored, gets return nothing, all or an empty block; Existed means stored for two puts and once nobody is writing. False as stated: a get can return an empty block, the third of three puts (or one after a dropped put) reports Existed too early, and a write failure can make a waiting put panic"
  },
  {
   "property": "C18",
   "status": "proved",
   "theorems": [
    "c18_paths_exist",
    "c18_block_file_identifies_cid",
    "c18_block_file_lists_cid",
    "c18_pin_file_identifies_cid",
    "c18_pin_file_lists_cid"
   ],
   "note": "all well-formed cids; block names exactly up to version, pin names exactly"
  },
  {
   "property": "C19",
   "status": "partial",
   "theorems": [
    "c19_memory_partial",
    "c19_filesystem",
    "c19_alias_refuted",
    "c19_race_refuted"
   ],
   "note": "on disk for every history of repo calls; in memory for reference streams taken from a fixed dag and roots given in one version. False as a claim about blocks: pins are by cid and blocks by hash, so a pinned block can be removed under another cid of it; and false with a pin call running between the question and the removal"
  },
  {
   "property": "C20",
   "status": "partial",
   "theorems": [
    "c20_memory_pins_partial",
    "c20_memory_calls_partial",
    "c20_two_versions_refuted",
    "c20_direct_hidden_refuted"
   ],
   "note": "histories whose reference streams list a fixed set of references per root and whose recursive roots are not given in both cid versions; false for roots in both versions (unpinning one unpins below the other), and direct pins below a root are left out of direct listings and queries"
  },
  {
   "property": "C21",
   "status": "proved",
   "theorems": [
    "c21_filesystem_pins",
    "c21_filesystem_calls"
   ],
   "note": "every history, including failing streams; also which calls succeed"
  },
  {
   "property": "C22",
   "status": "proved",
   "theorems": [
    "c22_crashes",
    "c22_other_pins_kept",
    "c22_direct_listing_refuted"
   ],
   "note": "any history of completed and interrupted calls; the one trace of a crash, a recursive pin also listed as direct, is shown to occur"
  },
  {
   "property": "C23",
   "status": "partial",
   "theorems": [
    "c23_key_value_no_false_pins_partial",
    "c23_key_value_recursive",
    "c23_key_value_pins_partial",
    "c23_shared_child_refuted",
    "c23_direct_over_indirect_refuted",
    "c23_wrong_mode_refuted",
    "c23_query_refuted"
   ],
   "note": "recursive pins exact for every history; nothing falsely reported unless a direct pin is unpinned recursively; everything exact without sharing. False otherwise: unpinning a root forgets shared blocks, a direct pin over an indirect one loses it, removal in the wrong mode answers success, query drops unpinned cids"
  },
  {
   "property": "C24",
   "status": "partial",
   "theorems": [
    "c24_stores_agree_partial",
    "c24_repin_refuted",
    "c24_unpin_refuted"
   ],
   "note": "is_pinned answers and success agree under the hypotheses of C20 when no cid is both pinned directly and unpinned recursively, except for recursive pins repeated (memory fails, disk succeeds); both differences have witnesses"
  },
  {
   "property": "C25",
   "status": "partial",
   "theorems": [
    "c25_filesystem",
    "c25_key_value",
    "c25_memory_partial",
    "c25_memory_pin_keeps",
    "c25_memory_stream_refuted"
   ],
   "note": "disk and key-value proved; memory proved when reading references does not fail, and a failing pin call never unpins; false in memory when the stream of references fails half way"
  },
  {
   "property": "C26",
   "status": "partial",
   "theorems": [
    "c26_waiter_gets_the_value_partial",
    "c26_all_waiters_partial",
    "c26_only_finished_values",
    "c26_at_most_once",
    "c26_no_lost_wakeup",
    "c26_finish_panics_iff",
    "c26_shutdown_drops_value_refuted",
    "c26_second_finish_panics_refuted"
   ],
   "note": "any number of requests and threads, one step per critical section: every waiting future yields the finished value unless shutdown takes it first, only finished values are yielded, at most once, no lost wakeup, and exactly when finish panics. False as stated: a shutdown between finish and poll drops the value, and in builds with debug assertions a second finish before the first waiter is polled panics"
  },
  {
   "property": "C27",
   "status": "partial",
   "theorems": [
    "c27_sent_only_by_last_drop",
    "c27_last_drop_sends_partial",
    "c27_once_per_future",
    "c27_silent_while_another_waits",
    "c27_uncollected_result_hides_drop_refuted",
    "c27_sent_while_another_waits_refuted"
   ],
   "note": "sent only by the drop of the last registered future, then exactly once. False as stated: a finished but not yet collected future of the same request hides the drop of the last waiting one, and the notification is sent after the lock is released, when another future may already wait"
  },
  {
   "property": "C28",
   "status": "partial",
   "theorems": [
    "c28_shutdown_releases",
    "c28_later_are_rejected",
    "c28_only_unfinished_creations_remain_partial",
    "c28_creation_racing_shutdown_refuted"
   ],
   "note": "every registered future is released and woken, every creation which starts after the flag is rejected, and only creations between the two can remain. False as stated: such a creation, inserting after the table was taken, waits for ever"
  },
  {
   "property": "C29",
   "status": "partial",
   "theorems": [
    "c29_stored_is_returned",
    "c29_subscribed_get_is_satisfied_partial",
    "c29_it_is_that_block_partial",
    "c29_returns_the_block_asked_for",
    "c29_lost_between_look_and_subscribe_refuted",
    "c29_other_cid_version_refuted",
    "c29_stored_block_is_delivered_partial"
   ],
   "note": "in-memory store; a get_block which is subscribed when the put finishes returns the block (also c29_stored_block_is_delivered_partial: one which subscribed while the block was not stored, as soon as it is), and whatever is returned was put and has the multihash asked for. False as stated: a put between the lookup and the subscription is missed for ever, and a put under the other cid version does not satisfy it"
  },
  {
   "property": "C30",
   "status": "partial",
   "theorems": [
    "c30_resolve_partial",
    "c30_remaining_path_partial",
    "c30_no_follow_partial",
    "c30_error_partial",
    "c30_panic_partial",
    "c30_complete_partial",
    "c30_error_complete_partial",
    "c30_one_answer",
    "c30_get",
    "c30_formats",
    "c30_node_value",
    "c30_remaining_path_refuted",
    "c30_error_path_refuted",
    "c30_missing_in_shards_refuted",
    "c30_panic_refuted"
   ],
   "note": "what is returned is exactly what following the path arrives at, errors and panics are characterised, and the converse for complete sharded directories. False as stated: each sharded directory whose entry is not in the first shard leaves its segment in the remaining path and shortens the path of an error, a name missing from several shards is an unsupported document, and Data of a node with empty data panics"
  },
  {
   "property": "C31",
   "status": "partial",
   "theorems": [
    "c31_ends_partial",
    "c31_one_per_segment_partial",
    "c31_one_per_segment_refuted",
    "c31_loop_refuted"
   ],
   "note": "ends, with at most (R+1) documents per segment, when links to links are at most R in a row and shards form finite trees; one per segment when no document is a bare link. False as stated: a document which is just a link costs a load and no segment, and a loop of them never ends"
  },
  {
   "property": "C32",
   "status": "partial",
   "theorems": [
    "c32_document_links",
    "c32_dagpb_block_links",
    "c32_other_links",
    "c32_depth_zero",
    "c32_bounded_partial",
    "c32_unbounded_partial",
    "c32_endless",
    "c32_level",
    "c32_edges_partial",
    "c32_unique_once",
    "c32_unique_nearest",
    "c32_unique_complete",
    "c32_unique_ends",
    "c32_download_errors",
    "c32_existing_prefix",
    "c32_no_panic_partial",
    "c32_largest_depth_refuted",
    "c32_no_panic_refuted"
   ],
   "note": "every graph, root list and option combination: the exact breadth first sequence with and without a depth, each destination once and by a shortest way with unique, completeness, termination also on circles, the prefix law of local-only listings. Missing: a dag-pb link named / panics (refuted) and the largest u64 depth panics or lists direct links only (refuted); blocks are assumed not to change during a listing"
  },
  {
   "property": "C33",
   "status": "proved",
   "theorems": [
    "c33_found",
    "c33_not_found",
    "c33_several",
    "c33_invalid",
    "c33_other_blocks"
   ],
   "note": "every block and needle, plain directories; the several-entries and invalid-cid errors and every other kind of block included"
  },
  {
   "property": "C34",
   "status": "partial",
   "theorems": [
    "c34_found_is_entry",
    "c34_not_found_means_absent",
    "c34_complete_partial",
    "c34_loads",
    "c34_loads_once_partial",
    "c34_panic_only_uncuttable",
    "c34_answers_true",
    "c34_panic_refuted",
    "c34_once_refuted",
    "c34_duplicates_unnoticed",
    "c34_cycle_diverges"
   ],
   "note": "what is found is an entry of a reachable shard, not-found means no reachable shard has it and none is missing, and every present tidy tree is searched completely. False as stated: a name cut inside a character panics, a shard linked twice is loaded twice, entries duplicated across shards go unnoticed and a cyclic store never answers"
  },
  {
   "property": "C35",
   "status": "proved",
   "theorems": [
    "c35_results",
    "c35_accepted",
    "c35_contents",
    "c35_link_iff",
    "c35_failed_call",
    "c35_no_duplicates",
    "c35_top_metadata_refuted"
   ],
   "note": "every sequence of calls with arbitrary path strings: the result of each call, what is at every path afterwards, a failed call changes nothing, no panic. Also recorded: without wrapping, metadata cannot be set on the existing top directory"
  },
  {
   "property": "C36",
   "status": "partial",
   "theorems": [
    "c36_build",
    "c36_build_done",
    "c36_read_back",
    "c36_continue_after_error_refuted",
    "c36_size_overflow_refuted",
    "c36_metadata_lost_refuted"
   ],
   "note": "every sequence of calls: exactly the directories, once each, sub directories first, the top last, entries sorted with the right cids and sizes, sizes adding up to everything below, blocks found again by name; with a too large block the nodes before it and the error. Under the condition that every total is below 2^64, without which it panics (refuted); iterating on after the error panics (refuted); metadata is in no block (refuted)"
  },
  {
   "property": "C37",
   "status": "proved",
   "theorems": [
    "c37_link_directory",
    "c37_link_root",
    "c37_paths_distinct",
    "c37_path_names",
    "c37_empty_path_refuted"
   ],
   "note": "every sequence of calls; the root and a directory at the empty path are both reported as the empty path (refuted that paths are distinct in that case, proved otherwise)"
  },
  {
   "property": "C38",
   "status": "partial",
   "theorems": [
    "c38_walk",
    "c38_exact_partial",
    "c38_paths_distinct",
    "c38_file_content",
    "c38_added_file",
    "c38_built_tree",
    "c38_bucket_cid_refuted",
    "c38_dot_name_refuted",
    "c38_parent_name_refuted",
    "c38_pending_links",
    "c38_complete",
    "c38_complete_safe"
   ],
   "note": "every stored tree: the exact sequence of reports, and conversely (c38_complete) a walk which ends well has reported a whole stored tree; reports have paths, order, each entry once when names differ, file pieces adding up to the file, and end to end for added files and for trees of files and symlinks made by the tree builder. Names must be steps of a path (not empty, '.', or with '/'), and buckets of sharded directories must not come right after a plain directory or the root. False otherwise: the first buckets of a sharded root are reported with the cid of the root, an entry named '.' makes later paths wrong, '..' is passed on"
  },
  {
   "property": "C39",
   "status": "partial",
   "theorems": [
    "c39_panic_partial",
    "c39_no_shards_partial",
    "c39_unnamed_link_refuted",
    "c39_missing_name_refuted",
    "c39_slash_in_name_refuted",
    "c39_short_shard_name_refuted",
    "c39_cut_character_refuted",
    "c39_raw_leaf_refuted",
    "c39_bucket_after_directory_refuted",
    "c39_file_without_size_refuted",
    "c39_dot_name_refuted",
    "c39_bucket_link_to_file_refuted",
    "c39_invalid_cid"
   ],
   "note": "with path-like names and readable files the only panic left is at a bucket right after a plain directory, and none without sharded directories. False as stated: unnamed links, '/' in names, short or cut shard names, file blocks that do not parse, files without size, buckets after an empty directory, '.' and bucket links to files in builds with debug assertions (witness for each)"
  },
  {
   "property": "C40",
   "status": "partial",
   "theorems": [
    "c40_roundtrip",
    "c40_delivered",
    "c40_too_large",
    "c40_wrong_cid_refuted"
   ],
   "note": "every message whose blocks match their cids, over bytes and over a substream up to 512 KiB. A larger message is never received (proved in general); a block that does not match its cid arrives under another cid (refuted)"
  },
  {
   "property": "C41",
   "status": "partial",
   "theorems": [
    "c41_received_partial",
    "c41_full",
    "c41_truncated_refuted"
   ],
   "note": "the digest always begins the hash of the data and is the whole hash when as long. False in full: the sender chooses the digest length, down to none (refuted)"
  },
  {
   "property": "C42",
   "status": "partial",
   "theorems": [
    "c42_local_wantlist",
    "c42_believes_partial",
    "c42_quiet_partial",
    "c42_flush",
    "c42_peer_wantlist",
    "c42_end_to_end_partial",
    "c42_batched_cancel_refuted",
    "c42_batched_block_refuted",
    "c42_stale_wantlist_refuted",
    "c42_both_want_refuted"
   ],
   "note": "every history in which no cid is cancelled or received while a want for it waits to be sent and no connection is established while something waits for the peer: what is handed out makes the peer believe exactly the want list; flushing ends; end to end through bytes to the want list of the receiving node for cids it does not want itself. False otherwise: cancel or block before the flush, stale want list on a new connection, cids both sides want (refuted)"
  },
  {
   "property": "C43",
   "status": "partial",
   "theorems": [
    "c43_exact",
    "c43_single_partial",
    "c43_two_connections_refuted",
    "c43_statistics"
   ],
   "note": "exact condition for the panic; none with at most one connection per peer. False with two connections (refuted). The statistics lookup of the node never panics"
  },
  {
   "property": "C44",
   "status": "partial",
   "theorems": [
    "c44_no_panic",
    "c44_one_per_topic",
    "c44_delivery",
    "c44_delivered",
    "c44_at_most_once",
    "c44_own_topic",
    "c44_after_unsubscribe",
    "c44_end_is_final",
    "c44_exactly_once_refuted",
    "c44_for_topic"
   ],
   "note": "every history: no panic, one stream per topic, and while a stream is subscribed it is given exactly, in order, what came for the topic; distinct streams of a topic together get each message at most once; nothing after unsubscription or end. Missing: a message naming a topic twice is delivered twice (refuted); reads of a dropped stream do not exist"
  },
  {
   "property": "C45",
   "status": "partial",
   "theorems": [
    "c45_partial",
    "c45_refuted",
    "c45_drop_then_subscribe_refuted",
    "c45_dropped"
   ],
   "note": "a subscription made when all earlier streams of the topic are over lasts until dropped or unsubscribed; dropping unsubscribes by the next poll. False as stated: dropping an older stream not read to its end ends the new subscription (refuted, two interleavings)"
  },
  {
   "property": "C46",
   "status": "partial",
   "theorems": [
    "c46_connections_to",
    "c46_connections",
    "c46_disconnect_partial",
    "c46_peers",
    "c46_rtt",
    "c46_no_panic_release",
    "c46_no_panic",
    "c46_shared_address_refuted",
    "c46_peers_refuted",
    "c46_stale_rtt_refuted"
   ],
   "note": "every legal history: addresses per peer are exactly the open connections, the connection list has every connected peer once at an open address, times are the last reported, no panic in release builds. With one connection per address also disconnect is exact and (without requests) no debug panic. False as stated: two connections to one address, peers kept after closing or dropped while connected, stale times (refuted)"
  },
  {
   "property": "C47",
   "status": "partial",
   "theorems": [
    "c47_already",
    "c47_dials",
    "c47_handout",
    "c47_completes_partial",
    "c47_results_are_true",
    "c47_succeeds",
    "c47_stays_pending",
    "c47_other_error_refuted",
    "c47_second_request_refuted",
    "c47_addrs_refuted",
    "c47_same_address_panics_refuted",
    "c47_connected_but_failed_refuted"
   ],
   "note": "every history: already-connected exact, one dial per request, addresses handed out exact, results true, completion after the connection or the end of a dial that had the address, success when it was the address, pending while nothing is reported. False as stated: dial errors other than transport or wrong peer, a second request during a dial, addresses listed in between (pending for ever), two requests for one address (debug panic), connected but reported as failed (refuted)"
  },
  {
   "property": "C48",
   "status": "partial",
   "theorems": [
    "c48_without_peer",
    "c48_split",
    "c48_split_fails",
    "c48_join_split",
    "c48_split_join",
    "c48_relay_refuted",
    "c48_circuit_refuted",
    "c48_text"
   ],
   "note": "split and join are inverse for addresses whose only peer id is at the end; an address without peer never has one; text forms agree. False for relay addresses: circuit markers are dropped and the first of two peer ids is taken (refuted)"
  },
  {
   "property": "C49",
   "status": "partial",
   "theorems": [
    "c49_once",
    "c49_waits",
    "c49_right_listener_partial",
    "c49_remove",
    "c49_no_panic",
    "c49_fits",
    "c49_matches",
    "c49_wrong_listener_refuted",
    "c49_two_unspecified_refuted",
    "c49_failed_listener_refuted",
    "c49_suffix_refuted",
    "c49_two_ports_refuted"
   ],
   "note": "every history over tcp addresses: each listen request is answered at most once, waits while the listener it started reports nothing, no panic; with one pending request per reported listener the answer goes to the right one; removing stops exactly the listener at the address. False as stated: with several pending requests a report can complete another request, two unspecified addresses, a listener that fails before it reports is never answered, suffix and two ports (refuted)"
  },
  {
   "property": "C50",
   "status": "partial",
   "theorems": [
    "c50_list",
    "c50_configured",
    "c50_add_remove",
    "c50_restore",
    "c50_clear",
    "c50_http",
    "c50_clear_all",
    "c50_clear_refuted",
    "c50_configured_unlisted_refuted",
    "c50_clear_configured_refuted",
    "c50_restore_configured_refuted",
    "c50_http_restore_refuted"
   ],
   "note": "every history, whatever kademlia answers: the list is exactly what was configured with its peer, added or restored and not removed since; answers of add, remove, restore and the http endpoints exact. False as stated: clear does not report all, configured addresses without peer id are used but not listed, configured addresses stay in the routing table after clear, restore brings back the built-in list and not the configured one (refuted)"
  },
  {
   "property": "C51",
   "status": "partial",
   "theorems": [
    "c51_once",
    "c51_ends",
    "c51_ends_records",
    "c51_end",
    "c51_error",
    "c51_circle",
    "c51_peer_ids",
    "c51_http",
    "c51_sub_path_refuted",
    "c51_sub_path_ignored",
    "c51_circle_refuted",
    "c51_second_record_refuted"
   ],
   "note": "every assignment of records, also changing ones over finitely many paths: recursive resolution ends within one more step than there are records; the result is the content at the end of the chain, an error at a dead end, a name on the circle otherwise; what one resolution and the http endpoints answer is exact. False as stated: sub paths of names are dropped, a circle is reported as success, a usable record after an unusable one is ignored (refuted)"
  },
  {
   "property": "C52",
   "status": "partial",
   "theorems": [
    "c52_memory",
    "c52_read_back_partial",
    "c52_record",
    "c52_calls",
    "c52_disk_refuted",
    "c52_dns_refuted"
   ],
   "note": "memory: every history, read back exactly when the path text parses back (all paths of the api but odd dns roots). False on the persistent stores, which implement nothing, and for dns roots containing '/' (refuted)"
  },
  {
   "property": "C53",
   "status": "partial",
   "theorems": [
    "c53_archive",
    "c53_whole_records",
    "c53_get",
    "c53_added_file",
    "c53_pieces",
    "c53_no_panic_partial",
    "c53_bad_name",
    "c53_end_mark_refuted",
    "c53_cut_name_refuted",
    "c53_long_bad_name_refuted",
    "c53_lying_size_refuted",
    "c53_after_large_refuted",
    "c53_target_refuted",
    "c53_empty_target_refuted",
    "c53_stale_target_refuted",
    "c53_whole"
   ],
   "note": "every walked tree with tidy names and honest sizes: an independent reader of the tar format finds the same entries with their content, mode and time, end to end from the stored blocks and also for files made by the adder; conversely (c53_whole) a download which ends well has the whole stored tree; whole 512 byte records for every walk with honest sizes, also when an error ends it; short bad names give an error; no panic for paths under 100 bytes. False as stated: a path cut at 100 bytes after two dots and long bad names panic, a size not matching the content breaks the framing, header fields are left over after large files and links, no end mark, empty targets end the archive, targets are rewritten (refuted)"
  },
  {
   "property": "C54",
   "status": "partial",
   "theorems": [
    "c54_rendering",
    "c54_one_formatter",
    "c54_unsupported_tag",
    "c54_unterminated",
    "c54_all_cases",
    "c54_default",
    "c54_index_partial",
    "c54_index_refuted",
    "c54_options",
    "c54_depth",
    "c54_refs_partial",
    "c54_documents"
   ],
   "note": "every format string, edge and query: accepted exactly when made of tags and other text, rendered by replacing the tags, other tags and open brackets rejected; every option at most once; together with C32 the lines of the whole endpoint (bounded depth, without unique). The index reported for an open bracket is wrong after a tag (refuted)"
  },
  {
   "property": "C55",
   "status": "partial",
   "theorems": [
    "c55_http_add_partial",
    "c55_http_add_refuted"
   ],
   "note": "proved unless the content is exactly one chunk long, in which case the handler panics"
  },
  {
   "property": "C56",
   "status": "partial",
   "theorems": [
    "c56_trailing_bytes_refuted",
    "c56_long_integer_refuted",
    "c56_duplicate_key_refuted",
    "c56_key_order_refuted",
    "c56_reencode_partial",
    "c56_dagpb_field_order_refuted"
   ],
   "note": "holds for blocks that are encodings; false for dag-cbor trailing bytes, long integers, duplicate or unsorted keys and for dag-pb blocks with links first"
  },
  {
   "property": "C57",
   "status": "partial",
   "theorems": [
    "c57_failed_put_changes_nothing",
    "c57_failed_put_reports",
    "c57_create_failure_refuted"
   ],
   "note": "proved for failures after the target file is created; false when creating it fails: put answers Existed with nothing stored"
  },
  {
   "property": "C58",
   "status": "partial",
   "theorems": [
    "c58_equal_length_partial",
    "c58_is_prefix",
    "c58_refuted"
   ],
   "note": "false: the comparison holds whenever one list is a prefix of the other; true for lists of equal length"
  },
  {
   "property": "C59",
   "status": "partial",
   "theorems": [
    "c59_blocks_partial",
    "c59_quiet_partial",
    "c59_second_connection_refuted",
    "c59_batch_refuted"
   ],
   "note": "while a connection lasts, every block once and in order. False as stated: a second connection drops waiting blocks, blocks batched beyond 512 KiB in one message are refused by the peer (refuted)"
  },
  {
   "property": "C60",
   "status": "proved",
   "theorems": [
    "c60_peers",
    "c60_idle",
    "c60_actions"
   ],
   "note": "every history of calls, announcements and polls; relative to the announcements handled so far, all of them after an idle poll"
  },
  {
   "property": "C61",
   "status": "proved",
   "theorems": [
    "c61_lines"
   ],
   "note": "every list of items: an independent JSON reader applied to each line gives the items back (serde_json's string escaping modelled from its documentation)"
  },
  {
   "property": "C62",
   "status": "partial",
   "theorems": [
    "c62_names",
    "c62_run",
    "c62_announced",
    "c62_announced_file",
    "c62_progress",
    "c62_completes_partial",
    "c62_add_then_cat",
    "c62_one_chunk_refuted",
    "c62_unnamed_refuted",
    "c62_order_refuted",
    "c62_progress_refuted",
    "c62_leftover_refuted"
   ],
   "note": "c62_run describes every completed run, c62_announced each line with the blocks stored before it, c62_add_then_cat reads any file back by its path; completion (c62_completes_partial) needs that no file is exactly one chunk long, that the tree accepts the names and that sizes fit. Refuted: a file exactly one chunk long panics (c62_one_chunk_refuted), an unnamed file is not reachable under its announced name, a directory after its file is refused, progress lines are totals and do not add up, an error leaves blocks behind"
  },
  {
   "property": "C63",
   "status": "partial",
   "theorems": [
    "c63_stream",
    "c63_prefix",
    "c63_directory",
    "c63_offset_refuted",
    "c63_overflow_refuted",
    "c63_whole"
   ],
   "note": "shape of the stream, only dag-pb blocks, a stream that ends well was read to the end of the file (c63_whole), monotonicity in the store and steps, directories of an added tree answered with an error; refuted: offset without length (not implemented) and offset+length of 2^64 or more (panic)"
  },
  {
   "property": "C64",
   "status": "partial",
   "theorems": [
    "c64_kept",
    "c64_pin_done",
    "c64_pin_accepts",
    "c64_unpin",
    "c64_free",
    "c64_key_value_refuted",
    "c64_alias_refuted",
    "c64_race_refuted"
   ],
   "note": "filesystem stores, calls one after the other, blocks removed by the cid under which they are linked, local blocks only; c64_kept, c64_pin_done, c64_pin_accepts, c64_unpin, c64_free. Refuted: key-value pins (unpinning one of two dags which share a block frees it), removal by another cid of the block (then a pinned root cannot even be unpinned), removal between the walk and the pin"
  },
  {
   "property": "C65",
   "status": "partial",
   "theorems": [
    "c65_form",
    "c65_pieces",
    "c65_put",
    "c65_put_one_cid",
    "c65_dag_put",
    "c65_get",
    "c65_read_back",
    "c65_rm_refused",
    "c65_rm",
    "c65_resolve",
    "c65_local_resolve_refuted",
    "c65_later_part_refuted",
    "c65_force_refuted",
    "c65_quiet_refuted"
   ],
   "note": "every query, form and store: acceptance and effect exact (c65_form, c65_put, c65_dag_put, c65_rm over every order of answers), read back by key, /dag/resolve joined with C30 (directories of one level). Refuted: a later part makes a form with one allowed part fail, force also hides that a block is pinned, quiet hides every failure, local-resolve answers a path that does not belong to the cid"
  },
  {
   "property": "C66",
   "status": "partial",
   "theorems": [
    "c66_lines",
    "c66_add_refused",
    "c66_add",
    "c66_ls",
    "c66_ls_arguments",
    "c66_rm_refused",
    "c66_rm",
    "c66_default_refuted",
    "c66_failure_refuted",
    "c66_stream_refuted",
    "c66_rm_direct_refuted"
   ],
   "note": "filesystem stores, requests one after the other, blocks removed by the cid under which they are linked (as C64): c66_add over every order, c66_ls, c66_ls_arguments, c66_rm exact. Refuted: add is not recursive by default, a refused add may leave some pins depending on the schedule, stream has no effect and quiet=false is not implemented, a directly pinned block that cannot be decoded is not unpinned by default"
  },
  {
   "property": "C67",
   "status": "partial",
   "theorems": [
    "c67_no_assert",
    "c67_delivery",
    "c67_part",
    "c67_agree",
    "c67_read",
    "c67_shared",
    "c67_request",
    "c67_request_refuted",
    "c67_cancel_refuted",
    "c67_no_panic_partial",
    "c67_lost",
    "c67_resubscribe_refuted",
    "c67_cleanup"
   ],
   "note": "c67_delivery is exact as long as nobody else unsubscribes the topic and its task does not panic; c67_part, c67_agree, c67_no_assert hold without conditions. No panic of the task if no request comes at the wrong moment (c67_no_panic_partial). Refuted: a request between the timeout and the look at the map makes the task panic and the topic is lost (c67_resubscribe_refuted, c67_lost); a request while the old subscription goes away panics (c67_request_refuted); so does one after a cancelled request (c67_cancel_refuted). The text of the lines is C68"
  },
  {
   "property": "C68",
   "status": "partial",
   "theorems": [
    "c68_sub",
    "c68_sub_injective",
    "c68_ls",
    "c68_peers",
    "c68_publish",
    "c68_publish_no_panic",
    "c68_written",
    "c68_twice",
    "c68_plus_refuted",
    "c68_name_refuted",
    "c68_empty_refuted"
   ],
   "note": "exact for every byte string (c68_sub, c68_ls, c68_peers, c68_publish). Refuted: the endpoints do not read the same query the same way (c68_plus_refuted, c68_name_refuted) and an empty message is refused in the body (c68_empty_refuted). A topic given twice is refused (c68_twice). The header parsers, warp's query filter and serde_json are modelled from their documentation"
  },
  {
   "property": "C69",
   "status": "partial",
   "theorems": [
    "c69_poll",
    "c69_no_panic",
    "c69_serve",
    "c69_event",
    "c69_own",
    "c69_result",
    "c69_waits",
    "c69_exit",
    "c69_find_refuted",
    "c69_late_refuted",
    "c69_text_refuted"
   ],
   "note": "exact for every history (c69_poll gives the answer of every poll; c69_serve, c69_event, c69_own, c69_result, c69_waits and c69_exit say what that means; c69_no_panic). Refuted: a timed-out find_peer ignores addresses known by then (c69_find_refuted), a result is lost if the node exits before the poll (c69_late_refuted), get_closest_peers has the wrong error text (c69_text_refuted). Kademlia itself, quorums and wake-ups (those are C16) are not modelled"
  },
  {
   "property": "C70",
   "status": "partial",
   "theorems": [
    "c70_hostile_peers",
    "c70_the_data_asked_for",
    "c70_put_somewhere",
    "c70_block_arrives_partial",
    "c70_get_block_returns_partial",
    "c70_withdrawn",
    "c70_put_after_the_want_refuted",
    "c70_both_want_refuted",
    "c70_other_version_refuted",
    "c70_poisoned_message_refuted",
    "c70_drop_withdraws_the_others_refuted"
   ],
   "note": "what is returned is right for every history (c70_hostile_peers, c70_the_data_asked_for, c70_put_somewhere). That blocks arrive and calls return is proved under provisos (c70_block_arrives_partial, c70_get_block_returns_partial), which are needed: c70_put_after_the_want_refuted, c70_both_want_refuted, c70_other_version_refuted, c70_poisoned_message_refuted. A node stops wanting what its last call was dropped for (c70_withdrawn), and also if another call asked meanwhile (c70_drop_withdraws_the_others_refuted). Quiet states stand for eventually; the in-memory store is used; statistics, the DHT and wake-ups are not in this model"
  },
  {
   "property": "C71",
   "status": "partial",
   "theorems": [
    "c71_json",
    "c71_strings",
    "c71_pem",
    "c71_pem_only",
    "c71_key_message",
    "c71_load",
    "c71_load_key",
    "c71_load_errors",
    "c71_load_no_panic",
    "c71_init",
    "c71_init_then_load",
    "c71_never_overwritten",
    "c71_one_identity",
    "c71_announced",
    "c71_served",
    "c71_init_and_serve",
    "c71_killed_init_refuted",
    "c71_daemon_during_init_refuted",
    "c71_init_says",
    "c71_two_profiles_refuted",
    "c71_directory_refuted",
    "c71_unloadable_refuted",
    "c71_api_address_refuted",
    "c71_key_type_missing_refuted"
   ],
   "note": "creating, never overwriting, announcing and loading are proved for all keys, texts and interleavings. Refuted: c71_killed_init_refuted (a killed or failed init leaves a file which blocks init and makes daemons panic), c71_daemon_during_init_refuted, c71_unloadable_refuted, c71_api_address_refuted (panics instead of errors), c71_directory_refuted, c71_two_profiles_refuted, c71_key_type_missing_refuted. openssl, libp2p keys and address texts are parameters with round trip hypotheses; the command line, environment variables, the repo lock and the api file are not modelled"
  },
  {
   "property": "C72",
   "status": "partial",
   "theorems": [
    "c72_reaches",
    "c72_one_endpoint",
    "c72_not_found",
    "c72_at_most_one",
    "c72_combined",
    "c72_refusal",
    "c72_refused_for",
    "c72_client_errors_refuted",
    "c72_percent_refuted"
   ],
   "note": "routing, exclusiveness and the texts and statuses of refusals are proved for all paths, handlers and reasons. Refuted: c72_client_errors_refuted (500 with UNHANDLED REJECTION for a form without a content type), c72_percent_refuted (%69d is not id). Handlers are parameters; headers other than the kind of the body are not modelled"
  },
  {
   "property": "C73",
   "status": "partial",
   "theorems": [
    "c73_version",
    "c73_id",
    "c73_connect",
    "c73_peers",
    "c73_addrs",
    "c73_addrs_local",
    "c73_wantlist",
    "c73_stat",
    "c73_findpeer",
    "c73_findprovs",
    "c73_provide",
    "c73_query",
    "c73_shows_one",
    "c73_id_refuted",
    "c73_messages_refuted"
   ],
   "note": "proved for all queries and all answers of the node. Refuted: c73_id_refuted (id?arg=<own id> is 501), c73_messages_refuted (MessagesReceived is always 0). What the node answers is given by the caller (C66, C68, C69 and C70 are about it); the options of version and the option format of id are read and not used, as in the code"
  },
  {
   "property": "C74",
   "status": "partial",
   "theorems": [
    "c74_one_address",
    "c74_bound",
    "c74_one",
    "c74_refused",
    "c74_restart",
    "c74_file",
    "c74_any_time",
    "c74_tidy",
    "c74_shutdown",
    "c74_goes_on",
    "c74_ends",
    "c74_drained",
    "c74_stale_refuted",
    "c74_two_refuted",
    "c74_draining_refuted",
    "c74_both_refuted"
   ],
   "note": "proved for all event sequences; the lock on the repository keeps a second daemon out (c74_one, c74_refused, c74_restart), and one which ended by itself was asked to and dealt with all it had accepted (c74_drained). Refuted: c74_stale_refuted (after a kill), c74_two_refuted (a daemon started after the lock of another one is free and before that one empties the file loses its address), c74_draining_refuted (no request is accepted while one in flight is waited for, with the address still in the file), c74_both_refuted (501 to the second of two). That requests in flight end is up to them: c74_goes_on says that a step remains, c74_ends that only finitely many do"
  },
  {
   "property": "C75",
   "status": "partial",
   "theorems": [
    "c75_in_turn",
    "c75_asleep",
    "c75_one_outcome",
    "c75_exit",
    "c75_over",
    "c75_over_for_good",
    "c75_no_call_hangs",
    "c75_ends",
    "c75_wants_sent",
    "c75_want_list",
    "c75_want_list_told",
    "c75_busy_users_refuted",
    "c75_busy_swarm_refuted"
   ],
   "note": "proved for all histories and any handlers. c75_no_call_hangs and c75_ends assume that nothing more comes in and that the swarm left alone runs out of events (proved of bitswap, bs_settles); c75_busy_users_refuted and c75_busy_swarm_refuted show that without this they are false"
  },
  {
   "property": "C76",
   "status": "partial",
   "theorems": [
    "c76_writes_json",
    "c76_document",
    "c76_reads",
    "c76_read_or_refused",
    "c76_round_trip_partial",
    "c76_distinct",
    "c76_reread",
    "c76_trailing_refuted",
    "c76_twice_refuted",
    "c76_slash_twice_refuted",
    "c76_minus_zero_refuted",
    "c76_bytes_refuted",
    "c76_nonfinite_refuted",
    "c76_padding"
   ],
   "note": "c76_document and c76_reads are for all texts, c76_reread for all values; the round trip holds for values which survive (c76_round_trip_partial), c76_bytes_refuted and c76_nonfinite_refuted give others. c76_trailing_refuted, c76_twice_refuted, c76_slash_twice_refuted and c76_minus_zero_refuted are findings. Floats: printing and reading are parameters"
  },
  {
   "property": "C77",
   "status": "partial",
   "theorems": [
    "c77_written",
    "c77_read",
    "c77_distinct",
    "c77_walk",
    "c77_in_tree",
    "c77_archive",
    "c77_cat",
    "c77_not_followed",
    "c77_buffer_refuted",
    "c77_empty_refuted"
   ],
   "note": "all of it proved for targets below 4 GiB; c77_buffer_refuted and c77_empty_refuted are findings. c77_in_tree rests on c38_built_tree, for trees of files and symlinks"
  },
  {
   "property": "C78",
   "status": "partial",
   "theorems": [
    "c78_answer",
    "c78_same",
    "c78_block",
    "c78_resolve",
    "c78_cat",
    "c78_get",
    "c78_refs",
    "c78_elapsed",
    "c78_complete",
    "c78_in_time",
    "c78_without",
    "c78_cat_body_refuted",
    "c78_get_body_refuted",
    "c78_refs_body",
    "c78_refs_body_refuted"
   ],
   "note": "all of it proved, for every future and for the five requests; c78_cat_body_refuted and c78_get_body_refuted are findings (c78_refs_body_refuted: the same holds of /refs; /pin/ls reads a timeout and does not use it: read off the code, not proved). Left out: the texts of errors, a shutdown of the node, durations too long for the clock, and that the paths of /refs are resolved at the same time"
  },
  {
   "property": "C79",
   "status": "partial",
   "theorems": [
    "c79_report",
    "c79_exact",
    "c79_received",
    "c79_new",
    "c79_monotone",
    "c79_lists",
    "c79_data_sent_refuted",
    "c79_data_sent",
    "c79_received_refuted",
    "c79_duplicate_refuted",
    "c79_snapshot_refuted"
   ],
   "note": "all of it proved over the in-memory store, with failing puts as an argument; c79_data_sent_refuted, c79_received_refuted, c79_duplicate_refuted and c79_snapshot_refuted are findings. A message counts as sent when it is handed to the connection, which may still fail. The task waiting for the announcement of a new block before it counts is left out, as any time may pass between its steps"
  },
  {
   "property": "C80",
   "status": "partial",
   "theorems": [
    "c80_exclusive",
    "c80_start",
    "c80_alone",
    "c80_ready",
    "c80_failure",
    "c80_freed",
    "c80_restart",
    "c80_removed_refuted",
    "c80_missing_directory_refuted",
    "c80_exit_refuted"
   ],
   "note": "all of it proved for the file system stores, given that flock(2) locks are exclusive per inode and end with the open file; c80_removed_refuted, c80_missing_directory_refuted and c80_exit_refuted are findings. The sled data store, which has a lock of its own, is not modelled"
  },
  {
   "property": "C81",
   "status": "partial",
   "theorems": [
    "c81_add",
    "c81_add_tells",
    "c81_whole",
    "c81_only",
    "c81_first_bytes",
    "c81_cat",
    "c81_get",
    "c81_refs",
    "c81_old_client_refuted",
    "c81_trailer_refuted",
    "c81_type_refuted",
    "c81_ls_body",
    "c81_ls",
    "c81_rm",
    "c81_rm_refused",
    "c81_live",
    "c81_sub",
    "c81_sub_lines",
    "c81_sub_live"
   ],
   "note": "all of it proved given how hyper encodes bodies of unknown length (from its documentation and RFC 7230, not from /repo); c81_old_client_refuted, c81_trailer_refuted and c81_type_refuted are findings. c81_add is for names which are UTF-8 (as all strings of Rust are). c81_rm is for cids which are well formed, over blocks and pins on disk. c81_ls is after histories of calls one at a time (C66). HTTP/2 is not modelled"
  },
  {
   "property": "C82",
   "status": "partial",
   "theorems": [
    "c82_memory",
    "c82_disk",
    "c82_as_put_refuted",
    "c82_disk_content",
    "c82_content_refuted"
   ],
   "note": "all of it proved for calls one at a time, given how hyper encodes bodies (C81) and that reading the directories of the store does not fail; c82_as_put_refuted and c82_content_refuted are findings. Listing while other calls run is not covered"
  }
 ]
}