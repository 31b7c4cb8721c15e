{"id": "C01", "title": "Added file reads back unchanged", "statement": "Every byte string pushed through the file adder and finished produces blocks from which walking the file from the last emitted block yields exactly the pushed bytes, in order, with no error and no panic, and then ends.", "quantifier": "every content, every chunk size >= 1, every branching factor >= 2, every way of cutting the content into push calls", "why_tests_cant": "Tests add a handful of files; the tree shape depends on content length relative to chunk size and branching powers, an infinite family with boundary cases at every power.", "anchors": ["unixfs/src/file/adder.rs: FileAdder::push, FileAdder::finish, flush_links", "unixfs/src/file/visit.rs: IdleFileVisit::start, FileVisit::continue_walk", "unixfs/src/file/reader.rs"]}
{"id": "C02", "title": "Blocks produced by the adder do not depend on how the input was cut", "statement": "The sequence of (cid, block) pairs returned over a whole add (all pushes plus finish) is a function of the concatenated input only.", "quantifier": "every pair of push sequences whose concatenations are equal, every chunker and branching factor", "why_tests_cant": "There are exponentially many ways to cut an input; a streaming bug shows up only for cuts at specific offsets relative to the buffer state.", "anchors": ["unixfs/src/file/adder.rs: FileAdder::push, Chunker::accept, flush_buffered_leaf"]}
{"id": "C03", "title": "Range reads return exactly the requested slice", "statement": "Walking a file made by the adder with a target range a..b yields exactly content[a .. min(b, len)] (nothing when a >= len or a >= b).", "quantifier": "every content, chunking, branching factor and every range", "why_tests_cant": "Range ends interact with block boundaries on every level of the tree; off by one errors only appear for particular alignments.", "anchors": ["unixfs/src/file/visit.rs: with_target_range, continue_walk, to_pending, block_is_in_target_range, maybe_target_slice, target_slice"]}
{"id": "C04", "title": "Shape of produced file trees", "statement": "In the tree of an added file every inner node has between one and branching-factor links, every leaf holds at most chunk-size bytes (non-last leaves exactly chunk-size), all leaves are at the same depth, and every link's declared blocksize, filesize and cumulative Tsize equal the real sizes of the subtree.", "quantifier": "every content, chunking and branching factor", "why_tests_cant": "The shape must hold for all lengths; tests only look at cids of some example files.", "anchors": ["unixfs/src/file/adder.rs: flush_links, render_and_hash, FileAdder::finish"]}
{"id": "C05", "title": "The adder always terminates without panicking", "statement": "push and finish terminate and never hit their internal assertions, for every accepted configuration.", "quantifier": "every content, every chunk size and branching factor the builder accepts", "why_tests_cant": "Non-termination and assertion failures depend on counts of pending links on each level; configuration space is infinite.", "anchors": ["unixfs/src/file/adder.rs: flush_links, FileAdderBuilder"]}
{"id": "C06", "title": "Dag-pb and UnixFS messages survive serialization", "statement": "Parsing the serialized form of any dag-pb node, dag-pb link or UnixFS message built by the library gives back an equal message, and the computed size equals the number of bytes written.", "quantifier": "every message value (any number of links, any field presence, any 64-bit values)", "why_tests_cant": "The message space is infinite and includes varint length boundaries.", "anchors": ["unixfs/src/pb/merkledag.rs", "unixfs/src/pb/unixfs.rs", "unixfs/src/pb.rs: FlatUnixFs", "unixfs/src/dir/builder/custom_pb.rs"]}
{"id": "C07", "title": "Reading hostile file blocks never panics", "statement": "Starting or continuing a file walk on arbitrary bytes either yields content, links or an error value; it never panics and the amount of content yielded for a node never disagrees with its declared range.", "quantifier": "every byte string given as a block and every block substituted for a pending link", "why_tests_cant": "Fuzzing samples byte strings; panics hide behind specific combinations of optional fields and arithmetic at u64 bounds.", "anchors": ["unixfs/src/file/reader.rs: FileReader::from_block, from_continued, from_parts", "unixfs/src/file/visit.rs", "unixfs/src/dagpb.rs: node_data, wrap_node_data"]}
{"id": "C08", "title": "Dag-cbor round trip", "statement": "Encoding a value as dag-cbor and decoding it yields the same value.", "quantifier": "every Ipld value (any nesting, any integer, float, string, bytes, link)", "why_tests_cant": "Values are unboundedly nested and the encoding switches width at numeric boundaries.", "anchors": ["src/ipld/dag_cbor.rs: WriteCbor, ReadCbor", "src/ipld/mod.rs: decode_ipld"]}
{"id": "C09", "title": "Dag-cbor encoding is deterministic and injective", "statement": "Two different supported values never encode to the same bytes, and the encoding of a value is a prefix code: no encoding is a proper prefix of another.", "quantifier": "every pair of Ipld values", "why_tests_cant": "A pairwise statement over an infinite domain.", "anchors": ["src/ipld/dag_cbor.rs: WriteCbor"]}
{"id": "C10", "title": "Dag-cbor decoding of arbitrary bytes is safe", "statement": "Decoding arbitrary bytes terminates with a value or an error, never reads past the end of the block and never panics; the result depends only on the bytes consumed.", "quantifier": "every byte string", "why_tests_cant": "Input space is infinite; recursion and length prefixes are attacker controlled.", "anchors": ["src/ipld/dag_cbor.rs: ReadCbor, read_len, read_list, read_map, read_link"]}
{"id": "C11", "title": "Dag-pb and dag-json codecs preserve values", "statement": "Decoding the dag-pb (resp. dag-json) encoding of a value the codec accepts yields an equal value.", "quantifier": "every value accepted by the encoder", "why_tests_cant": "Infinite value space, with special shapes (a map with the single key \"/\", bytes) breaking only for particular values.", "anchors": ["src/ipld/dag_pb.rs: PbNode, PbLink", "src/ipld/dag_json.rs: DagJsonSerializer"]}
{"id": "C12", "title": "Ipfs path text round trip", "statement": "Printing a path and parsing it gives back an equal path, parsing ignores at most one trailing slash, accepts exactly the documented prefixes, and never yields an empty or slash-containing segment.", "quantifier": "every path value built through the public API and every input string", "why_tests_cant": "Strings are unbounded; slashes can appear anywhere.", "anchors": ["src/path.rs: IpfsPath::from_str, Display, SlashedPath::push_split, PathRoot"]}
{"id": "C13", "title": "Appending to a path", "statement": "sub_path(s) either fails leaving the path unchanged or yields the path whose segments are the old ones followed by the non-empty segments of s; appending is associative with string concatenation by '/'.", "quantifier": "every path and every string", "why_tests_cant": "Unbounded strings and sequences of appends.", "anchors": ["src/path.rs: IpfsPath::sub_path, SlashedPath::push_path"]}
{"id": "C14", "title": "In-memory block store behaves as a map from multihash to block", "statement": "After any history of put, get, contains, remove and list calls, get returns the first block put under that multihash since its last removal, contains agrees with get, list is exactly the set of stored blocks, and put reports NewBlock exactly when nothing was stored.", "quantifier": "every finite history of operations", "why_tests_cant": "Histories are unbounded.", "anchors": ["src/repo/mem.rs: MemBlockStore"]}
{"id": "C15", "title": "Filesystem block store behaves as a map when operations do not overlap", "statement": "After any sequential history on a healthy filesystem, get returns the bytes of the first put of that cid since its last removal, put reports NewBlock exactly when the block was absent, and list is exactly the stored blocks.", "quantifier": "every finite sequential history, including reopening the store", "why_tests_cant": "Histories are unbounded.", "anchors": ["src/repo/fs/blocks.rs: FsBlockStore::{put,get,contains,remove,list}"]}
{"id": "C16", "title": "Filesystem block store survives crashes", "statement": "If the process stops at any point during put, then after restart get of that cid returns either nothing or exactly the block's bytes, never something else, and every block whose put had completed is still returned in full.", "quantifier": "every history and every crash point inside an operation", "why_tests_cant": "Crash points sit between individual system calls; tests cannot stop there.", "anchors": ["src/repo/fs/blocks.rs: put, write_through_tempfile"]}
{"id": "C17", "title": "Concurrent filesystem puts and gets of one block", "statement": "When several tasks put the same block concurrently, at most one reports NewBlock, everyone who reports success observes the block stored, and a concurrent get returns either nothing or the full bytes.", "quantifier": "every interleaving of the steps of any number of concurrent put and get calls, including dropped futures", "why_tests_cant": "Interleavings at the await points and file system calls are not controllable from tests.", "anchors": ["src/repo/fs/blocks.rs: put, get, write_completion, RemoveOnDrop"]}
{"id": "C18", "title": "Block and pin file names identify the cid", "statement": "Distinct cids never map to the same block file or pin file except a version 0 cid and its version 1 equivalent (for blocks), and the file name parses back to the cid when listing.", "quantifier": "every pair of cids", "why_tests_cant": "A pairwise statement over an infinite domain.", "anchors": ["src/repo/fs/paths.rs: block_path, pin_path, filestem_to_block_cid, filestem_to_pin_cid"]}
{"id": "C19", "title": "Pinned blocks cannot be removed", "statement": "remove_block fails and changes nothing when the cid is pinned (directly, recursively or indirectly); when it succeeds the block was stored and not pinned, and only that block is gone.", "quantifier": "every repository state reachable by any history of put, remove, pin and unpin", "why_tests_cant": "Depends on the combination of pin kinds built by unbounded histories.", "anchors": ["src/repo/mod.rs: Repo::remove_block", "src/repo/mem.rs", "src/repo/fs/pinstore.rs"]}
{"id": "C20", "title": "In-memory pins follow the pin specification", "statement": "After any history of successful direct/recursive pin inserts and removals, a cid is pinned iff it is directly pinned, recursively pinned or reachable from a recursively pinned root's recorded refs; is_pinned, list and query agree with this set and its modes.", "quantifier": "every finite history of pin operations over any cids and reference sets", "why_tests_cant": "Pins share children in unbounded combinations and are removed in any order.", "anchors": ["src/repo/mem.rs: PinStore for MemDataStore, PinDocument"]}
{"id": "C21", "title": "Filesystem pins follow the pin specification", "statement": "The filesystem pin store satisfies the same specification of is_pinned, list and query after any history.", "quantifier": "every finite history of pin operations over any cids and reference sets", "why_tests_cant": "Same as for the in-memory store.", "anchors": ["src/repo/fs/pinstore.rs: PinStore for FsDataStore"]}
{"id": "C22", "title": "Filesystem pin updates are crash safe", "statement": "A crash at any point of a pin insert or removal leaves the store either as before or as after the operation (up to a direct pin shadowed by a recursive one), and never loses an unrelated pin.", "quantifier": "every history and every crash point inside an operation", "why_tests_cant": "Crash points sit between system calls.", "anchors": ["src/repo/fs/pinstore.rs: insert_direct_pin, insert_recursive_pin, remove_recursive_pin"]}
{"id": "C23", "title": "Key-value (sled) pins follow the pin specification", "statement": "The key-value pin store satisfies the same specification of is_pinned, list and query after any history.", "quantifier": "every finite history of pin operations over any cids and reference sets", "why_tests_cant": "Pins share children in unbounded combinations and are removed in any order.", "anchors": ["src/repo/kv.rs: PinStore for KvDataStore"]}
{"id": "C24", "title": "Pin backends agree", "statement": "The in-memory and the filesystem pin stores give the same is_pinned answer and the same success or failure after the same history of operations.", "quantifier": "every history", "why_tests_cant": "Relational statement over unbounded histories.", "anchors": ["src/repo/mem.rs", "src/repo/fs/pinstore.rs"]}
{"id": "C25", "title": "Failed pin operations change nothing", "statement": "A pin insert or removal that returns an error leaves the set of pins as it was.", "quantifier": "every reachable state and every failing call, including failures while streaming references", "why_tests_cant": "Failure can happen after any number of references.", "anchors": ["src/repo/mem.rs: insert_recursive_pin, remove_recursive_pin", "src/repo/fs/pinstore.rs", "src/repo/kv.rs"]}
{"id": "C26", "title": "Every waiter of a block is woken with it", "statement": "Whenever a subscription is finished with a value, every future subscribed to that request and still alive yields that value; no other future does; each yields at most once.", "quantifier": "every interleaving of create, poll, finish, drop and shutdown calls over any number of requests", "why_tests_cant": "Unbounded interleavings.", "anchors": ["src/subscription.rs: SubscriptionRegistry, SubscriptionFuture"]}
{"id": "C27", "title": "Unwanted exactly once", "statement": "When the last future waiting for a block is dropped before completion an unwant event for it is sent exactly once, and none is sent while another future still waits.", "quantifier": "every interleaving of create, poll, finish and drop", "why_tests_cant": "Unbounded interleavings of drops.", "anchors": ["src/subscription.rs: Drop for SubscriptionFuture, cancel"]}
{"id": "C28", "title": "Shutdown releases every waiter", "statement": "After shutdown every subscription created before it resolves as cancelled and every later one is rejected.", "quantifier": "every interleaving of create, poll, finish, drop and shutdown", "why_tests_cant": "Race between creation and shutdown.", "anchors": ["src/subscription.rs: shutdown, create_subscription"]}
{"id": "C29", "title": "get_block is satisfied by put_block", "statement": "If a block is put (locally or from the network) while get_block for its cid is pending, get_block returns that block.", "quantifier": "every interleaving of get_block and put_block", "why_tests_cant": "Lost wakeups appear only in specific interleavings.", "anchors": ["src/repo/mod.rs: Repo::get_block, Repo::put_block"]}
{"id": "C30", "title": "Path resolution follows the document", "statement": "Resolving a path returns exactly the node obtained by following its segments one at a time from the root (map key, list index, dag-pb link or shard entry), the reported remaining path is exactly the unresolved suffix, and an error names the prefix that did resolve.", "quantifier": "every path, every store content", "why_tests_cant": "Documents and paths are unbounded; links can be crossed anywhere.", "anchors": ["src/dag.rs: IpldDag::resolve, resolve0, resolve_local, resolve_local_ipld, resolve_local_dagpb"]}
{"id": "C31", "title": "Path resolution terminates", "statement": "Resolving a path over any finite store loads at most one block per consumed segment (plus shards) and ends.", "quantifier": "every path, every store content, including blocks linking to each other arbitrarily", "why_tests_cant": "Termination over all inputs.", "anchors": ["src/dag.rs: resolve0"]}
{"id": "C32", "title": "refs enumerates the reachable links", "statement": "Without a depth bound the stream of refs contains an edge for each link of each block reachable from the roots, once for each way of getting there (so exactly once in a tree); with max_depth d only edges from blocks at distance below d; with unique each destination at most once and still every reachable destination.", "quantifier": "every finite block graph, every root set and every option combination", "why_tests_cant": "Graphs with sharing and diamonds in every shape.", "anchors": ["src/refs.rs: IpldRefs, iplds_refs_inner", "src/refs.rs: ipld_links, dagpb_links"]}
{"id": "C33", "title": "Directory lookup finds the unique entry", "statement": "Looking a name up in a plain directory returns the entry with exactly that name if there is exactly one, an error if several, and not found otherwise.", "quantifier": "every directory block and every name", "why_tests_cant": "Unbounded link lists.", "anchors": ["unixfs/src/dir.rs: resolve"]}
{"id": "C34", "title": "Sharded directory lookup is complete", "statement": "For every HAMT directory, the walk over its shards finds an entry with the given name iff one exists in the shards reachable through bucket links, loading each shard at most once, and never panics.", "quantifier": "every HAMT tree and name", "why_tests_cant": "Trees are unbounded and names arbitrary UTF-8.", "anchors": ["unixfs/src/dir/sharded_lookup.rs: ShardedLookup"]}
{"id": "C35", "title": "Tree builder records exactly the accepted links", "statement": "After any sequence of put_link and set_metadata calls, a path denotes a link in the tree iff a successful put_link named it, duplicates and conflicting leaf/directory uses are rejected, and a failed call leaves the tree unchanged.", "quantifier": "every sequence of calls with arbitrary path strings", "why_tests_cant": "Histories and strings are unbounded.", "anchors": ["unixfs/src/dir/builder/buffered.rs: BufferingTreeBuilder::{put_link,set_metadata,modify_with}"]}
{"id": "C36", "title": "Tree is emitted in post order with correct links", "statement": "Building emits every directory exactly once, after all of its sub-directories, ending with the root; each emitted block lists its children sorted by name with the cids and sizes of the children; total_size is the sum of everything below.", "quantifier": "every tree", "why_tests_cant": "Trees are unbounded in width and depth.", "anchors": ["unixfs/src/dir/builder/iter.rs: PostOrderIterator::next_borrowed, render_directory", "unixfs/src/dir/builder/custom_pb.rs"]}
{"id": "C37", "title": "Paths reported while building trees are correct", "statement": "For each emitted directory the reported path is the slash-joined path under which its links were added.", "quantifier": "every tree", "why_tests_cant": "The path buffer is edited incrementally; errors appear only for particular sibling/depth sequences.", "anchors": ["unixfs/src/dir/builder/iter.rs: update_full_path"]}
{"id": "C38", "title": "Walking visits every entry once with its path", "statement": "Walking a UnixFS tree visits every file, directory and symlink exactly once, in order, with its path from the root, and file segments concatenate to the file content. A walk ends without an error only after reporting a whole stored tree.", "quantifier": "every well formed tree", "why_tests_cant": "Trees are unbounded; the path buffer is edited incrementally.", "anchors": ["unixfs/src/walk.rs: Walker::next, InnerEntry"]}
{"id": "C39", "title": "Walking never panics", "statement": "Walking arbitrary blocks produces entries or an error value but never panics.", "quantifier": "every block content", "why_tests_cant": "Hostile inputs are unbounded.", "anchors": ["unixfs/src/walk.rs: convert_link, convert_sharded_link, InnerEntry::as_bucket"]}
{"id": "C40", "title": "Bitswap message round trip", "statement": "Parsing the bytes of a message gives back the same wanted cids with priorities, the same cancels and the same blocks.", "quantifier": "every message", "why_tests_cant": "Infinite message space.", "anchors": ["bitswap/src/ledger.rs: Message::to_bytes, TryFrom<&[u8]> for Message", "bitswap/src/prefix.rs"]}
{"id": "C41", "title": "Received blocks are content-verified", "statement": "Every block taken from a received message carries a cid whose digest is the hash of its data.", "quantifier": "every byte string received", "why_tests_cant": "Hostile inputs are unbounded.", "anchors": ["bitswap/src/ledger.rs: TryFrom<&[u8]> for Message", "bitswap/src/prefix.rs: Prefix::to_cid"]}
{"id": "C42", "title": "Peers converge to our want list", "statement": "Once all queued messages are delivered in order, every connected peer believes we want exactly the cids wanted and not cancelled.", "quantifier": "every history of want, cancel, connect, disconnect and flushes", "why_tests_cant": "Depends on how wants and cancels are batched.", "anchors": ["bitswap/src/ledger.rs: Ledger::{want_block,cancel_block,send}", "bitswap/src/behaviour.rs: want_block, cancel_block, send_want_list"]}
{"id": "C43", "title": "Bitswap behaviour never panics", "statement": "No sequence of connection events and messages makes the bitswap behaviour panic.", "quantifier": "every interleaving of connect, disconnect and messages, including several connections to one peer", "why_tests_cant": "Interleavings of several connections are unbounded.", "anchors": ["bitswap/src/behaviour.rs: inject_connection_established, inject_connection_closed, inject_event"]}
{"id": "C44", "title": "Pubsub delivery", "statement": "Every message received on a topic is delivered exactly once, in order, to the stream currently subscribed to that topic and to no other stream; at most one stream exists per topic.", "quantifier": "every history of subscribe, unsubscribe, drop and incoming messages", "why_tests_cant": "Unbounded histories.", "anchors": ["src/p2p/pubsub.rs: Pubsub::subscribe, unsubscribe, poll, SubscriptionStream"]}
{"id": "C45", "title": "A fresh subscription is not cancelled by an older one", "statement": "Dropping or unsubscribing an old stream of a topic never terminates a newer subscription to the same topic.", "quantifier": "every interleaving of subscribe, unsubscribe, drop and polls", "why_tests_cant": "Needs a specific interleaving of drop and poll.", "anchors": ["src/p2p/pubsub.rs: SubscriptionStream::drop, Pubsub::poll"]}
{"id": "C46", "title": "Connection bookkeeping is consistent", "statement": "The lists of peers, connections and addresses per peer always describe the same set of open connections.", "quantifier": "every history of connection events delivered in a legal order", "why_tests_cant": "Unbounded histories.", "anchors": ["src/p2p/swarm.rs: SwarmApi::inject_connection_established, inject_connection_closed, connections, peers"]}
{"id": "C47", "title": "Every connect attempt completes", "statement": "A connect request is completed with success or failure once the dial it started has ended.", "quantifier": "every history of connect calls, dials and address queries", "why_tests_cant": "Interleavings of several connects to one peer.", "anchors": ["src/p2p/swarm.rs: connect, addresses_of_peer, inject_dial_failure"]}
{"id": "C48", "title": "Address conversions are lossless", "statement": "Splitting an address into peer id and the rest and joining again gives the original; an address without peer id never contains one.", "quantifier": "every multiaddress", "why_tests_cant": "Unbounded component lists.", "anchors": ["src/p2p/addr.rs"]}
{"id": "C49", "title": "Listening address requests complete with the right address", "statement": "Each add_listening_address request completes with the bound address for its own listener, and each reported bound address completes at most one request.", "quantifier": "every history of requests and listener events", "why_tests_cant": "Ephemeral addresses bind in any order.", "anchors": ["src/lib.rs: IpfsFuture::complete_listening_address_adding, start_add_listener_address", "src/p2p/addr.rs: could_be_bound_from_ephemeral"]}
{"id": "C50", "title": "Bootstrapper list bookkeeping", "statement": "After any history the bootstrapper list is the set of added and not removed addresses; restore adds the configured defaults; clear empties it and reports what was removed.", "quantifier": "every history", "why_tests_cant": "Unbounded histories.", "anchors": ["src/p2p/behaviour.rs: add_bootstrapper, remove_bootstrapper, clear_bootstrappers, restore_bootstrappers"]}
{"id": "C51", "title": "IPNS resolution terminates", "statement": "Recursive name resolution ends for every finite set of records, including cyclic ones, and its result is the end of the chain with all sub paths kept.", "quantifier": "every assignment of records to names", "why_tests_cant": "Cycles of every length.", "anchors": ["src/lib.rs: Ipfs::resolve_ipns", "src/ipns/mod.rs", "src/ipns/dnslink.rs"]}
{"id": "C52", "title": "IPNS records in the data store", "statement": "After any history of put_ipns, get_ipns and remove_ipns the stored record is the last one put and not removed.", "quantifier": "every history, both backends", "why_tests_cant": "Unbounded histories.", "anchors": ["src/repo/mem.rs: ipns", "src/repo/fs.rs", "src/repo/mod.rs: get_ipns, put_ipns, remove_ipns"]}
{"id": "C53", "title": "Tar stream is well framed", "statement": "The archive produced by /get consists of whole 512 byte records: each entry's header, name extensions and content are padded to 512 bytes and the content bytes of each file equal the file. A download ends without an error only after the whole stored tree.", "quantifier": "every walked tree, every name length and content size", "why_tests_cant": "Padding and long names depend on lengths modulo 512.", "anchors": ["http/src/v0/root_files/tar_helper.rs", "http/src/v0/root_files.rs: walk"]}
{"id": "C54", "title": "Refs format strings", "statement": "A format string renders each edge by replacing every <src>, <dst> and <linkname> tag and copying everything else literally; anything else between angle brackets is rejected.", "quantifier": "every format string and every edge", "why_tests_cant": "Unbounded strings.", "anchors": ["http/src/v0/refs/format.rs: parse_format, EdgeFormatter::format"]}
{"id": "C55", "title": "HTTP add reports the root it stored", "statement": "Adding a file through /add answers with the cid of the root block of the stored file and the total size of the blocks stored for it.", "quantifier": "every content and every way the body is cut", "why_tests_cant": "Depends on the content length relative to the chunk size; the failing lengths are isolated points.", "anchors": ["http/src/v0/root_files/add.rs: add_inner, push_all, import_all", "unixfs/src/file/adder.rs: FileAdder::finish"]}
{"id": "C56", "title": "Re-encoding a decoded block gives the block back", "statement": "Decoding a block's bytes to a value and encoding that value again gives the same bytes, so the value keeps its cid.", "quantifier": "every byte string that decodes, for dag-cbor and dag-pb", "why_tests_cant": "Non-canonical encodings are an unbounded family; tests re-encode only blocks the library itself produced.", "anchors": ["src/ipld/dag_cbor.rs", "src/ipld/dag_pb.rs", "src/ipld/mod.rs: encode_ipld, decode_ipld"]}
{"id": "C57", "title": "Failed block writes are reported and leave nothing", "statement": "When a filesystem call fails during a put, the put answers with an error and no later get, contains, put or list can tell the put was tried; a put never reports success for a block that is not stored.", "quantifier": "every history and every failing step inside a put", "why_tests_cant": "Needs a failure at each filesystem call; tests run on a healthy disk.", "anchors": ["src/repo/fs/blocks.rs: FsBlockStore::put, write_through_tempfile"]}
{"id": "C58", "title": "Comparing a remaining path with segments", "statement": "The comparison between the path left over by a resolution and a list of segments holds exactly when the two lists are equal.", "quantifier": "every remaining path and every list of segments", "why_tests_cant": "Lists of unbounded and differing lengths; existing tests compare only equal ones.", "anchors": ["src/path.rs: PartialEq<[&str]> for SlashedPath"]}
{"id": "C59", "title": "Queued blocks are sent once and in order", "statement": "The blocks queued for a connected peer are handed to its connection in the order queued, each once, in messages the peer accepts.", "quantifier": "every history of queueing, connection events, messages and polls", "why_tests_cant": "Depends on how polls batch blocks with wants and on connection events in between.", "anchors": ["bitswap/src/behaviour.rs: send_block, poll, inject_connection_established", "bitswap/src/ledger.rs: Ledger::send", "bitswap/src/protocol.rs: MAX_BUF_SIZE"]}
{"id": "C60", "title": "Pubsub peer bookkeeping", "statement": "The peers listed for a topic are exactly those that announced a subscription to it and did not take it back, each once; the known peers are those listed for some topic; and everything else the routing layer wants done is returned once, in order.", "quantifier": "every history of announcements, calls and polls", "why_tests_cant": "Unbounded histories.", "anchors": ["src/p2p/pubsub.rs: Pubsub::poll, known_peers, subscribed_peers, add_node_to_partial_view, remove_node_from_partial_view"]}
{"id": "C61", "title": "Lines of the refs stream", "statement": "The body of /refs is a sequence of lines, each a JSON object with the texts Ref and Err, one for each item and in their order, whatever characters the names, formats and errors contain.", "quantifier": "every list of items, every text", "why_tests_cant": "Escaping depends on every possible character.", "anchors": ["http/src/v0/refs.rs: refs_inner, Edge"]}
{"id": "C62", "title": "Adding a form stores and announces what it holds", "statement": "An answered /add has announced, for each part of the form in order, the file or directory the part names with the cid and size of its content, then the directories that result; every announced entry was stored before; and reading an announced root (or a path under the last one) with /cat gives back the bytes that were sent.", "quantifier": "every form, names and contents of any length, every cut into pieces, every chunk size and branching factor, every option", "why_tests_cant": "Depends on every name, content and order of parts together, and on which blocks were stored when the line was sent.", "anchors": ["http/src/v0/root_files/add.rs: add, add_inner", "src/unixfs/cat.rs: cat", "unixfs/src/dir/builder.rs: BufferingTreeBuilder"]}
{"id": "C63", "title": "Reading files with /cat", "statement": "The body of /cat is a run of bytes and at most one error, which comes last; with more blocks at hand it only becomes longer, and one that ended without an error is complete; a directory is answered with an error; and any offset and length can be asked for.", "quantifier": "every block store, path, range and number of steps", "why_tests_cant": "Ranges over every store, including ones with missing or damaged blocks.", "anchors": ["http/src/v0/root_files.rs: cat", "src/unixfs/cat.rs: cat"]}
{"id": "C64", "title": "Pinning a dag keeps all of it", "statement": "When pins and blocks are kept on disk: after any sequence of put_block, remove_block, insert_pin and remove_pin calls, every block reachable by links from a recursively pinned root is stored and decodes, counts as pinned, and remove_block refuses it and changes nothing. insert_pin(recursive) on a finite dag succeeds exactly when all of the dag is stored; it never changes blocks, and when it does not succeed it changes nothing. A recursively pinned finite dag can always be unpinned. A block under no recursively pinned root and not pinned directly can be removed, and only it goes. (The same fails with the key-value pin store, when blocks are removed by another cid of the same block, and when a block is removed during an insert_pin: recorded as refuted.)", "quantifier": "all histories of calls, all dags (any depth, sharing, cycles), all decoders; blocks removed by the cid under which they are linked", "why_tests_cant": "a hole in a pinned dag depends on the order of puts, pins, unpins and removals over dags of any shape; tests pin one small dag", "anchors": ["src/lib.rs: Ipfs::insert_pin, Ipfs::remove_pin, Ipfs::remove_block", "src/refs.rs: IpldRefs", "src/repo/mod.rs: remove_block", "src/repo/fs/pinstore.rs", "src/repo/kv.rs"]}
{"id": "C65", "title": "Blocks over http", "statement": "/block/put and /dag/put: the request is accepted exactly when the last part of the form is the only one with an allowed name, holds at most one MiB and is followed by nothing, and the options name a known codec, hash and version; then the answer names the one cid made of the options and the hash of the uploaded bytes, that block is stored (unless one is stored already), and nothing else changes; a refused request changes nothing. How the upload is cut into pieces makes no difference. /block/get and /block/stat by the answered key give the bytes and their number. /block/rm removes exactly the named blocks that are not pinned, in whatever order the removals are answered, and its lines say for each argument in order whether it was removed; \"force\" only hides missing blocks, \"quiet\" only successes. /dag/resolve answers the block a path ends in and the path inside it. (False for later parts of a form, force, quiet and local-resolve: recorded as refuted.)", "quantifier": "every query, form, cut into pieces, stored state and order of answers", "why_tests_cant": "ranges over all options together with all forms and stores, and over the schedule of the concurrent removals", "anchors": ["http/src/v0/block.rs: inner_get, inner_put, inner_rm, inner_stat", "http/src/v0/dag.rs: put_inner, inner_resolve", "http/src/v0/support/body.rs: try_only_named_multipart", "http/src/v0/block/options.rs: RmOptions"]}
{"id": "C66", "title": "Pins over http", "statement": "/pin/add: in whatever order the pins are made, blocks are not changed, nothing loses its pin and nothing is pinned beyond what was asked for; an answer names the arguments in their order, and then everything asked for is stored and pinned; there is an answer when all of it can be pinned; requests with options that cannot be read change nothing. /pin/ls without arguments has exactly one line for each pin of the type asked for; with arguments, a true line for each of them, or an error when one is not pinned that way. An answered /pin/rm takes away the pin of its argument and no other pin; else nothing changes. (False as documented: the default of recursive, what a failed /pin/add leaves, the stream option, removing a direct pin of a block that cannot be decoded: recorded as refuted.)", "quantifier": "every history of node calls before the request, every query, dag and order in which the concurrent pins end", "why_tests_cant": "ranges over all histories and dags, and over the schedule of the concurrent pins", "anchors": ["http/src/v0/pin.rs: list_inner, rm_inner, ListRequest, RemoveRequest, format_json_newline", "http/src/v0/pin/add.rs: AddRequest, add_inner", "src/lib.rs: insert_pin, remove_pin, list_pins, query_pins"]}
{"id": "C67", "title": "Subscriptions over http", "statement": "Each /pubsub/sub response gives, in order and without gaps, every message the node receives for its topic from the request on, until it falls more than 16 messages behind or is closed; whatever happens, it gives nothing else. Responses for one topic share one subscription of the node and give the same messages; a request for a topic somebody listens to never asks the node. After the last response is dropped the node unsubscribes, and the next request is accepted again. No assertion fails, whatever the interleaving. (False: a request that comes while the background task has decided to stop is accepted and never gets a message, nor does any later one for that topic; a request that comes while the old subscription is on its way out panics, and so does one after a client gave up early: recorded as refuted.)", "quantifier": "every interleaving of requests, cancellations, reads, closes, background tasks, node polls, calls of pubsub_unsubscribe and received messages", "why_tests_cant": "the failures need a request within microseconds of a 50 ms timeout; the guarantees range over all interleavings", "anchors": ["http/src/v0/pubsub.rs: inner_subscribe, shovel, Pubsub, StreamError", "src/lib.rs: pubsub_subscribe", "src/p2p/pubsub.rs: subscribe, SubscriptionStream"]}
{"id": "C68", "title": "Texts of /pubsub", "statement": "A client that parses the lines of a /pubsub/sub response gets the source, data, sequence number and topics of every message, whatever bytes they hold; no message is split, merged or changed. /pubsub/ls and /pubsub/peers list exactly the subscribed topics, and the peers subscribed to the topic asked for (or to any), each once. A /pubsub/pub request publishes exactly the topic and the message it asks for, or nothing, and never panics; a topic and a message percent-encoded into the query in any way are published as they are, and the same topic is meant when it is written into a query of /pubsub/sub or /pubsub/peers. (False: '+' is a space for the latter and itself for the former, so that a client listens to one topic and publishes to another; an encoded parameter name is understood by the latter only; an empty message is accepted in the query and refused in the body: recorded as refuted.)", "quantifier": "all messages, all histories of the node, all queries, content types and forms, and all encodings of a topic and a message", "why_tests_cant": "ranges over all byte strings and their encodings", "anchors": ["http/src/v0/pubsub.rs: PreformattedJsonMessage, preformat, publish_args, publish_args_inner, QueryAsRawPartsParser, TopicParameter, OptionalTopicParameter, inner_peers, inner_ls"]}
{"id": "C69", "title": "Calls of the DHT", "statement": "bootstrap, get_closest_peers, get_providers, provide, dht_get, dht_put and find_peer each get the final result of the query that the node started for that call, and of no other: whatever other calls, events of other queries, intermediate results, timeouts and calls that are given up come in between, a success carries exactly the peers or the values of that result and a failure its error. A call is pending only while its message waits to be taken or its own query still runs; every call ends once the node is gone. provide fails without asking the network if the block is not stored; find_peer asks the network only if no address is known. No call panics. (False: find_peer gives up when its query times out although addresses are known by then; a result that is there is lost if the node exits before the call is polled; get_closest_peers reports the error of get_providers: recorded as refuted.)", "quantifier": "all histories of any number of concurrent calls, of messages taken, of queries started, refused, progressing and ending in any order, of polls and of calls given up, and of the node exiting, at any point", "why_tests_cant": "ranges over all interleavings of callers, the node and the network", "anchors": ["src/lib.rs: Ipfs::find_peer, Ipfs::get_providers, Ipfs::provide, Ipfs::get_closest_peers, Ipfs::dht_get, Ipfs::dht_put, Node::bootstrap, IpfsFuture::poll", "src/p2p/behaviour.rs: inject_event (KademliaEvent), get_closest_peers, get_providers, start_providing, dht_get, dht_put, bootstrap", "src/subscription.rs: SubscriptionRegistry"]}
{"id": "C70", "title": "Nodes exchanging blocks", "statement": "Whatever peers send, get_block returns a block with the multihash asked for and a digest made from its data, so for a digest of full length the data asked for; among nodes running this code it returns nothing that was not given to put_block on one of them. If a node subscribes to a block it lacks, and a connected peer has it under that cid and does not itself want it, then once nothing is left to do on the two (no event, task, message or unfinished put) get_block has returned the block or does at its next poll, whatever other calls, peers, puts and exchanges there are and in whatever order messages arrive, provided the connection stays, no message between them is lost or unreadable, and the block is not removed. Once the last call waiting for a cid was dropped and no other asks for it, the node does not want it any more. (False without the provisos: the block is put on the peer after the want arrived; the peer wanted it too when the want arrived; the peer has it under the other cid version; a third peer makes the peer batch the block with an entry that cannot be read; false also: that dropping one call leaves another one, which begins at the same time, wanting the block: recorded as refuted.)", "quantifier": "all histories of any number of nodes: calls of get_block and put_block, removals and shutdowns step by step, background tasks, polls in any order of peers, connections opening and closing at each end, messages as bytes arriving in any order or lost, and arbitrary bytes from hostile peers", "why_tests_cant": "ranges over all interleavings of several nodes and over all byte strings peers may send; a test runs a few schedules of two honest nodes", "anchors": ["src/repo/mod.rs: Repo::get_block, Repo::put_block", "src/lib.rs: IpfsFuture::poll", "src/p2p/behaviour.rs: inject_event (BitswapEvent), want_block, stop_providing_block", "bitswap/src/behaviour.rs: Bitswap", "bitswap/src/ledger.rs: Ledger, Message", "bitswap/src/protocol.rs: BitswapConfig, Message"]}
{"id": "C71", "title": "The configuration file", "statement": "init creates the configuration file if there is nothing at its path and never changes or replaces what is there; of any number of inits at most one announces a peer id, and from then on the file holds a key with that peer id. Loading returns the key pair and addresses the file says, for any JSON text and any private key in base64, and only if the peer id in it is the one of the key; the file init writes is loaded with the generated key, and a daemon serves with a configuration only if all of it was written. The contents of PEM are read whatever the label and line lengths. (False: that a failed or killed init can be repeated, that a daemon reports a file it cannot load or an API address it cannot use instead of panicking, and more: recorded as refuted.)", "quantifier": "all keys, key lengths, profiles and file contents; all interleavings of any number of init and daemon processes, with writes and reads cut anywhere, kills and file system errors at any point", "why_tests_cant": "ranges over all texts of JSON and PEM, all keys and all interleavings and crash points of processes; the tests load one key and one PEM text", "anchors": ["http/src/config.rs: init, load, pem_to_der, Identity::load_keypair, CompatibleConfigFile", "http/src/main.rs: main, serve", "http/src/keys.proto: PrivateKey"]}
{"id": "C72", "title": "One endpoint per request", "statement": "A POST request whose path is the one of an endpoint (with or without a slash at the end) is answered by the handler of this endpoint, and no other handler runs, also if it refuses; no path belongs to two endpoints. Every other path or method gets 404 and runs no handler. The parts of the API which are known to be missing answer 501, most of them for everything below. A refusal is answered with the status of its reason and a JSON text in which the client finds the message; a reason which is not known is only told as such if there is no other one. (False: that a request refused for what is in it gets a status of the four hundreds, and that equivalent paths reach the same endpoint: recorded as refuted.)", "quantifier": "all methods, paths and handlers, all reasons a handler can refuse with and all combinations of them", "why_tests_cant": "ranges over all paths and all combinations of refusals of some fifty routes tried one after the other; the tests ask for two paths", "anchors": ["http/src/v0.rs: routes, handle_shutdown, not_implemented", "http/src/v0/support.rs: recover_as_message_response, MessageResponse, StringError"]}
{"id": "C73", "title": "Endpoints about the node tell what the node says", "statement": "version, id, swarm/{connect,disconnect,peers,addrs,addrs/local}, bitswap/{wantlist,stat} and dht/{findpeer,findprovs,provide,query}: a query in which an option is missing, given twice or cannot be read is refused; other names are passed over. Otherwise the node is asked for exactly what the query names, an error of the node is passed on by its text, and the JSON text sent for its answer is one from which every client reads the same fields, in the order given here: all addresses, peers, cids and numbers of the answer and nothing else (of the providers the first num-providers, 20 if not given; every peer of swarm/addrs once). Latencies are half of the round trip and only shown if asked for. (False: that a node asked about its own id tells it, that the number of messages received is told: recorded as refuted.)", "quantifier": "all queries, all answers and errors of the node", "why_tests_cant": "ranges over all queries and all answers of the node, including every text that has to be escaped and every number; the tests of these endpoints look at a single fixed answer each, most have none", "anchors": ["http/src/v0/id.rs: identity_query", "http/src/v0/version.rs: version, Query", "http/src/v0/swarm.rs: connect_query, peers_query, addrs_query, addrs_local_query, disconnect_query", "http/src/v0/bitswap.rs: wantlist_query, stat_query", "http/src/v0/dht.rs: find_peer_query, find_providers_query, provide_query, get_closest_peers_query"]}
{"id": "C74", "title": "The life of a daemon", "statement": "From 'daemon is running' until its server has ended, the file api in the directory holds the one address at which the daemon is bound, the one of its configuration with the port the system gave, if the file could be written and no daemon is started between the moment another one lets go of the repository and the moment it empties the file; also after earlier ones were killed at any point. Of the daemons over one directory only one runs at a time: a second one ends at once and changes nothing, and after the end or the death of all of them one can be started again. At every point, thus after every crash, the file is as it was before or holds the beginning of the address of one of the daemons; if nothing is killed it names no address after the last one ended. Every request for shutdown is answered at most once, with 200 if the node is being stopped, with 501 if it was stopped already; no daemon stops unless asked, and one which does has dealt with every request it accepted. Once one was answered the process goes on to its end: there is always a next step, and only a bounded number of them is left. (False: that a daemon is there if the file names an address, that a daemon which is ending leaves the file of the next one alone, that a daemon accepts requests while its file names it, that everyone asking for shutdown is told 200: recorded as refuted.)", "quantifier": "all schedules of requests, answers, polls, system calls and kills of any number of daemons over one directory", "why_tests_cant": "ranges over all interleavings and all crash points of several processes; there is no test which starts a daemon", "anchors": ["http/src/main.rs: main, serve", "http/src/v0.rs: handle_shutdown", "src/lib.rs: Ipfs::exit_daemon, UninitializedIpfs::start", "src/repo/mod.rs: Repo::init", "src/repo/fs.rs: FsLock::try_exclusive"]}
{"id": "C75", "title": "What becomes of the calls to a node: its background task", "statement": "However calls, events of the repo, what the network does and the polls of the runtime fall together, the node behaves as if one thing were done at a time: calls in the order in which they were made, each answered once from the state in which it finds the node, events of the repo in the order they were posted. The task never sleeps on work: when it waits to be woken and nobody has woken it, every call made is answered, every event of the repo is handled and the swarm, including what the handling of those gave it to do, has nothing to report; no want or cancel waits for a connected peer, and the want list is that of the blocks last asked for. Calls made before anybody called exit_daemon or dropped the last Ipfs are answered, later ones fail with an error, and each call gets one outcome: none hangs. Told to exit, the task ends, and only then. (False: that all three sources get their turn: users who call often enough keep one poll from the network and the repo for ever, and a swarm that always has something to report keeps it from the calls: recorded as refuted.)", "quantifier": "all interleavings of calls, posted events, changes of the swarm, polls and single steps of a poll, all behaviours of the node", "why_tests_cant": "a lost wakeup shows only in one interleaving of several threads with the steps of one poll", "anchors": ["src/lib.rs: IpfsFuture::poll, UninitializedIpfs::start, Ipfs::exit_daemon", "bitswap/src/behaviour.rs: Bitswap::poll"]}
{"id": "C76", "title": "dag-json blocks as bytes: what is written and which bytes are read", "statement": "The bytes a value is written as are a JSON text. A JSON document is read as exactly the value it stands for: numbers which are integers of 64 bits as integers and all others as floats, texts with their escapes undone, an object with the only member \"/\" and a text as the link of that base64 (padding may be missing), other objects as maps with the last value given to each key, arrays and objects at most 127 deep; a document which stands for no value is refused. Whatever the bytes, they are read or refused with one error. Values with integers of 64 bits, finite floats which printer and reader agree on, no bytes and no map which looks like a link are read back from the bytes they were written as. (False: that a block is read only when it is a JSON document: what follows the first value is not looked at; that a key given twice is refused; that \"-0\" is the integer 0; that bytes, infinities and NaN are read back: recorded as refuted.)", "quantifier": "all values, all byte strings, all JSON texts with any white space and escapes", "why_tests_cant": "texts and nestings are unbounded, and which byte strings are read differs from those the writer produces", "anchors": ["src/ipld/dag_json.rs: json_encode, json_decode, JSONVisitor"]}
{"id": "C77", "title": "Symlinks: what is written, walked, archived and refused", "statement": "Making a symlink appends to the buffer exactly the dag-pb block of a UnixFS symlink with the given target, leaving what is there; different targets give different blocks. A walk which comes to such a block, at its start or anywhere in a tree made by the tree builder, reports it once, with exactly its target and its path, and loads nothing for it; the archive of /get has a symlink entry whose target means the same path. Symlinks are not followed: reading one with /cat and resolving a path which goes on below one are errors, and no other block is loaded. (False: that several blocks can be collected in one buffer: the bytes are read as the last one; that every block which can be made can be had with /get: an empty target ends the archive with an error: recorded as refuted.)", "quantifier": "all targets below 4 GiB, buffers, trees, paths below symlinks and block stores", "why_tests_cant": "targets, buffers and trees are unbounded, and a test tries one tree", "anchors": ["unixfs/src/symlink.rs: serialize_symlink_block", "unixfs/src/walk.rs: Walker, ContinuedWalk::Symlink", "http/src/v0/root_files.rs: walk", "src/dag.rs: resolve_local_dagpb"]}
{"id": "C78", "title": "Timeouts of requests: no wrong, early or missing answer", "statement": "A request for a block, for what a path leads to, or for the head of a response to /cat, /get or /refs, which carries a timeout, may be looked at by the executor at any times, while blocks come to the store and go in any order. If it is answered, the answer is the one which the blocks say, the same as with another timeout or none. It is given up only at a look at or after the deadline, and only when a block which it asks for is not in the store at that look; if all of them are there at a look, and no earlier look was late, it is answered, even when this look is late. By the first look at or after the deadline it is answered or given up. Without a timeout it is never given up and waits as long as a block it asks for does not come. (False: that the timeout limits the whole response: after the head, the bodies of /cat, /get and /refs wait for blocks without any limit: recorded as refuted.)", "quantifier": "all requests of these kinds, paths, stores, orders of arrival and removal of blocks, timeouts and schedules of polls", "why_tests_cant": "there are endless schedules and orders of arrival; a test tries one, with a real clock", "anchors": ["http/src/v0/support/timeout.rs: MaybeTimeoutExt::maybe_timeout", "http/src/v0/block.rs: get_query, stat_query", "http/src/v0/dag.rs: inner_resolve", "http/src/v0/root_files.rs: cat_inner, get_inner", "http/src/v0/refs.rs: refs_inner", "src/dag.rs: resolve0, resolve_hamt"]}
{"id": "C79", "title": "Transfer statistics: what they count", "statement": "A node exchanges blocks with any peers while its statistics are asked for at any times. A report shows how many blocks had been handed over for sending to all peers together, connected or not any more, when it began; and the number and the bytes of received blocks stored as new ones, and of those stored already, each at least for the blocks completely dealt with when the report began and at most for those stored when it ended. It is exact, modulo 2^64, when all received blocks had been dealt with. Every received block is tried to be stored once and counted at most once, as new if no block with its multihash was stored then, and not at all if storing fails. Later reports never show less as long as nothing wraps around. The peers and the want list shown are those connected and wanted when it began. (False: that the bytes sent are counted, as they are always 0; that the received blocks are all blocks received; that a duplicate is a block received before; and that a report is a state of the node at one moment: recorded as refuted.)", "quantifier": "all histories of connections, messages, stored and removed blocks, all interleavings of the tasks storing received blocks with the loads of a report, all orders of the map of peers", "why_tests_cant": "the counters are changed by tasks which run beside the one which reads them; a test sees few interleavings", "anchors": ["bitswap/src/behaviour.rs: Stats, Bitswap::stats, Bitswap::peers, Bitswap::poll", "src/p2p/behaviour.rs: inject_event (BitswapEvent)", "src/lib.rs: Ipfs::bitswap_stats, BitswapStats", "http/src/v0/bitswap.rs: stat_query"]}
{"id": "C80", "title": "A repository directory is used by one node at a time", "statement": "Any number of nodes are started over one directory, by any processes, and cancelled, stopped or killed at any times and with any failures. As long as nobody removes the lock file, at most one of them has the directory, from the moment its start got past the lock until nothing of it is left. A start is refused with the error that the repository is in use exactly when another node has the directory, with another error when there is no directory, and nothing changes for the others. A node which started has the directories for blocks and pins. If one of these cannot be made the start fails, with the error of the blocks first, and the directory is free again. A started node which is not killed keeps the directory exactly as long as there is a handle of it, its background task, or a task this one spawned. When nobody has the directory a start without failures succeeds, also after crashes. (False: that two nodes never run over a directory even if the lock file is removed; that a start makes a missing directory; that the directory is free after exit_daemon and the end of the background task: recorded as refuted.)", "quantifier": "all histories of starts, failures, cancellations, clones, drops, ends of tasks and kills, by any number of nodes", "why_tests_cant": "needs every interleaving of the steps of several processes with crashes between any two of them", "anchors": ["src/lib.rs: UninitializedIpfs::start, Ipfs::exit_daemon", "src/repo/mod.rs: Repo::new, Repo::init, LockError", "src/repo/fs.rs: FsLock::try_exclusive, FsDataStore::init", "src/repo/fs/blocks.rs: FsBlockStore::init"]}
{"id": "C81", "title": "A download which is cut short is not taken for a whole one", "statement": "A streamed response (/cat, /get and others) yields any parts and ends, fails, panics or stays unfinished, and the connection may break after any byte. What arrives at a client of HTTP/1.1 is a whole body exactly when the stream ended without an error and everything sent has arrived; the content is then all the bytes which were yielded, in order, and there are no trailer fields. So a whole body of /cat is the file, or the range of it asked for, to its last block, and a whole body of /get is the archive of a whole tree; a whole body of /refs has all lines, those with errors included; a whole body of /add has one line for each message, and exactly if the request failed a last line which says so and cannot be mistaken for a message; a body of /pubsub/sub is never whole, and each message can be taken from it as soon as it was given. Of a body which is not whole the client has taken nothing but the first of the bytes which were yielded. For /block/rm the named unpinned blocks are gone however little of the answer arrives, a whole body has the line for each argument in their order, and a cut one the beginning of these lines; a whole body of /pin/ls has one line for every pin asked for, and no other. (False: that a client of HTTP/1.0 can tell a file with missing blocks from a shorter one; that the trailer field with the error, which each response announces, is ever sent; that files announced as JSON are JSON: recorded as refuted.)", "quantifier": "all streams, all ends and all points at which the connection breaks", "why_tests_cant": "needs every cut of every encoding of every stream, read by any client", "anchors": ["http/src/v0/support/stream.rs: StreamResponse", "http/src/v0/root_files.rs: cat_inner, get_inner, walk", "http/src/v0/refs.rs: refs_inner", "http/src/v0/root_files/add.rs: add_inner, Response", "http/src/v0/pubsub.rs: subscribe, inner_subscribe"]}
{"id": "C82", "title": "/refs/local lists exactly the stored blocks", "statement": "A whole body of /refs/local has one line for each stored block and no line with an error; no cid is there twice, and each is read back as the cid which was meant. Over the store in memory, after any calls, the lines are one cid for each stored multihash, one under which the block was put. Over the store on disk, after any calls, restarts, crashes and failed writes, they are the version 1 forms of exactly the cids which the store says it has; and with no crashes and no failed writes reading a listed cid gives the bytes which were put. (False: that over the store on disk a block is listed under the cid it was put with; that after a crash what is listed has the content which was put: recorded as refuted.)", "quantifier": "all histories of calls, restarts, crashes and failed writes, all stores and all points at which the connection breaks", "why_tests_cant": "needs every history and every crash point, and every text of every cid", "anchors": ["http/src/v0/refs.rs: local, inner_local", "src/lib.rs: Ipfs::refs_local", "src/repo/mod.rs: Repo::list_blocks", "src/repo/fs/blocks.rs: FsBlockStore::list", "src/repo/mem.rs: MemBlockStore::list"]}
