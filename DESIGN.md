# Formal model of rust-ipfs in Rocq

## Layout

* `properties.jsonl` - the properties (English).
* `rocq/theories/*.v` - `X.v` models code (definitions only, each citing /repo lines),
  `XProofs.v` holds lemmas, `XSpec.v` (where the specification is more than a line) holds the
  independent specification, and `PropsX.v` holds only the final theorems, satisfiability
  examples and `Print Assumptions`.
* `MANIFEST.json` - property -> theorem names and status.
* `seeded/LOG.jsonl` - bug seeding log.

## Conventions

* bytes and 64-bit quantities are `N`; lengths and indices `nat`; wrap-around is explicit.
* Rust panics, `unreachable!`, `todo!` and failed assertions are explicit result values.
* cryptographic hashing, base encodings of cids and the operating system are function parameters
  (Section variables, so they appear as universally quantified arguments of the theorems).
* false claims are recorded as `..._refuted` theorems with a witness.

## Plan per property

* **C01** Added file reads back unchanged - `FileAdder.v, FileVisit.v`: adder state machine and file walk over a store `cid -> block`; hash is an oracle. Induction: pending links always describe a content-partitioning forest (invariant over pushes), walk of a well-formed tree yields its content (induction on the tree).
* **C02** Blocks produced by the adder do not depend on how the input was cut - `FileAdder.v`: simulation: pushes over a list of slices equal chunking the concatenation; the buffer invariant `|buffer| < chunk size`.
* **C03** Range reads return exactly the requested slice - `FileVisit.v`: walk with range over well-formed trees = slice, induction on the pending stack.
* **C04** Shape of produced file trees - `FileAdder.v`: levels of pending links are non-increasing in depth with exact counts; shape predicate on trees.
* **C05** The adder always terminates without panicking - `FileAdder.v`: explicit fuel/panic results; proof that for bf >= 2 they never occur; bf = 1 and chunk size 0 are refutations.
* **C06** Dag-pb and UnixFS messages survive serialization - `Wire.v, PbModel.v`: byte level model of quick-protobuf reader/writer and the generated messages.
* **C07** Reading hostile file blocks never panics - `FileVisit.v`: reader on arbitrary bytes with explicit panics; safe subset theorem plus refutations.
* **C08** Dag-cbor round trip - `Cbor.v`: byte level writer and reader, fuel = length; structural induction on values.
* **C09** Dag-cbor encoding is deterministic and injective - `Cbor.v`: corollary of a stronger round trip with arbitrary suffix.
* **C10** Dag-cbor decoding of arbitrary bytes is safe - `Cbor.v`: totality with fuel bound, consumed-prefix lemma.
* **C11** Dag-pb and dag-json codecs preserve values - `Codecs.v`: value-level model of dag-json and dag-pb conversions.
* **C12** Ipfs path text round trip - `IpfsPath.v`: string as list of bytes, split on '/', cid / peer id text codecs as oracles with their laws.
* **C13** Appending to a path - `IpfsPath.v`: list algebra of split.
* **C14** In-memory block store behaves as a map from multihash to block - `BlockStore.v`: state machine, refinement to a finite map, induction on histories.
* **C15** Filesystem block store behaves as a map when operations do not overlap - `FsBlocks.v`: sequential composition of the atomic steps on an abstract file system.
* **C16** Filesystem block store survives crashes - `FsBlocks.v`: small-step put over file-system state, crash = stop after any step.
* **C17** Concurrent filesystem puts and gets of one block - `FsBlocks.v`: interleaving semantics of tasks with the `writes` map; invariants; refutations where the code races.
* **C18** Block and pin file names identify the cid - `FsPaths.v`: text encoding of cids as an injective oracle; string level path functions.
* **C19** Pinned blocks cannot be removed - `PinnedRepo.v`: composition of block store and pin store.
* **C20** In-memory pins follow the pin specification - `MemPins.v`: pin documents; refinement to (direct set, recursive map root -> refs).
* **C21** Filesystem pins follow the pin specification - `FsPins.v`: files as maps; refinement to the same specification.
* **C22** Filesystem pin updates are crash safe - `FsPins.v`: small-step of file operations, crash after any.
* **C23** Key-value (sled) pins follow the pin specification - `KvPins.v`: same specification; expected refutation for shared children.
* **C24** Pin backends agree - `PinBackends.v`: relational invariant between both models.
* **C25** Failed pin operations change nothing - `MemPins.v, FsPins.v, KvPins.v`: per-backend statement; refutation expected for streaming failures in memory.
* **C26** Every waiter of a block is woken with it - `Subs.v`: registry state machine with per-future state; invariants over interleavings.
* **C27** Unwanted exactly once - `Subs.v`: same model, event counting.
* **C28** Shutdown releases every waiter - `Subs.v`: same model; race of create with shutdown examined.
* **C29** get_block is satisfied by put_block - `GetPut.v`: interleaving of the await-free segments of get_block and put_block.
* **C30** Path resolution follows the document - `Resolve.v`: document model (Ipld trees with links) and store oracle; refinement to one-segment-at-a-time specification.
* **C31** Path resolution terminates - `Resolve.v`: measure on remaining segments.
* **C32** refs enumerates the reachable links - `Refs.v`: BFS over graph oracle; induction on queue processing; reachability specification.
* **C33** Directory lookup finds the unique entry - `DirLookup.v`: fold over links.
* **C34** Sharded directory lookup is complete - `DirLookup.v`: work-queue walk over shard trees.
* **C35** Tree builder records exactly the accepted links - `TreeBuilder.v`: tree as nested maps; induction on calls.
* **C36** Tree is emitted in post order with correct links - `TreeIter.v`: explicit stack iterator; induction on trees.
* **C37** Paths reported while building trees are correct - `TreeIter.v`: path buffer invariant.
* **C38** Walking visits every entry once with its path - `Walk.v`: explicit pending stack; induction on trees; for the converse (WalkBack.v) induction on the steps, with the pending items and what is shown for them.
* **C39** Walking never panics - `Walk.v`: explicit panics; refutations and safe subset.
* **C40** Bitswap message round trip - `Prost.v, BitswapMsg.v`: message as maps, prost wire format; round trip by induction on the entries.
* **C41** Received blocks are content-verified - `BitswapMsg.v`: prefix to cid with a hash oracle.
* **C42** Peers converge to our want list - `Bitswap.v, BitswapSpec.v`: behaviour as a state machine; invariant: what was handed out and what waits make the peer believe the want list; composed with a receiving behaviour.
* **C43** Bitswap behaviour never panics - `Bitswap.v`: explicit panic; exact condition; refutation for two connections.
* **C44** Pubsub delivery - `Pubsub.v`: state machine with streams identified by serial numbers.
* **C45** A fresh subscription is not cancelled by an older one - `Pubsub.v`: same; expected refutation.
* **C46** Connection bookkeeping is consistent - `Swarm.v`: state machine; invariant for legal event orders.
* **C47** Every connect attempt completes - `Swarm.v`: same, with outstanding connect futures.
* **C48** Address conversions are lossless - `Addr.v`: multiaddress = list of protocol components.
* **C49** Listening address requests complete with the right address - `Listen.v`: state machine of pending listen requests.
* **C50** Bootstrapper list bookkeeping - `Bootstrap.v`: set bookkeeping.
* **C51** IPNS resolution terminates - `Ipns.v`: loop over record oracle.
* **C52** IPNS records in the data store - `BlockStore.v`: map refinement.
* **C53** Tar stream is well framed - `Tar.v`: header bytes and stream of chunks of TarHelper, an independent reader (TarSpec.v: unpack) run on the output; induction over the walk's report, joined with the walk of C38.
* **C54** Refs format strings - `RefsHttp.v`: scanner on bytes, option parsing, endpoint joined with C30 and C32; relation-style specification (RefsHttpSpec.v: rendered, values).
* **C55** HTTP add reports the root it stored - `FileAdder.v`: the handler as push loop plus finish; exact condition for finish returning nothing.
* **C56** Re-encoding a decoded block gives the block back - `Cbor.v, Codecs.v`: refuted with concrete blocks; holds for blocks that are encodings of values.
* **C57** Failed block writes are reported and leave nothing - `FsBlocks.v`: same steps with an injected failure; refutation for failing create.
* **C58** Comparing a remaining path with segments - `IpfsPath.v`: induction on the two lists; refuted for lists of different length.
* **C59** Queued blocks are sent once and in order - `Bitswap.v`: same state machine; conservation of queued blocks step by step.
* **C60** Pubsub peer bookkeeping - `Pubsub.v`: fold over announcements; swap_remove is a permutation.
* **C61** Lines of the refs stream - `RefsHttp.v`: an independent reader of JSON lines (RefsHttpSpec.v: read_body) applied to what is written.
* **C62** Adding a form stores and announces what it holds - `HttpAdd.v, Cat.v`: the form as a list of parts, uploaded pieces as the chunks the multipart reader returns; induction over parts using the adder and tree builder theorems (C05, C36); composed with resolution (C16) and reading (C07, C08) for add-then-cat.
* **C63** Reading files with /cat - `Cat.v`: fold over the walk; monotonicity in the block store and in the number of steps.
* **C64** Pinning a dag keeps all of it - `NodePins.v`: invariant over histories: for every recursive pin, the root and the recorded references hold documents whose links are recorded; the walk lemmas of C32 give it when the pin is made, is_pinned refuses removals (C19).
* **C65** Blocks over http - `HttpOptions.v, HttpBlock.v`: option parsers as rules over the decoded query; the form as parts with pieces; relation-style specification of accepted forms and of the named cid (HttpBlockSpec.v); removals in any order by induction over the order, the lines read back by an independent JSON reader.
* **C66** Pins over http - `HttpPins.v`: option parsers as for C65; the node invariant of C64 and the pin store representation of C21 carried through a request; induction over the order in which the pins end; lines read back by an independent JSON reader (HttpPinsSpec.v).
* **C67** Subscriptions over http - `HttpSub.v`: requests, background tasks and the node of Pubsub.v as one transition system, a step being the code between two awaits; invariant tying the streams of the node to the tasks that hold them (HttpSubProofs.v); conservation of messages over a run, from floodsub to the lines of a response (HttpSubSpec.v).
* **C68** Texts of /pubsub - `HttpPubsub.v`: the text written for a message, lists of strings, the two query parsers and the decision of /pubsub/pub as functions; an independent reader of lines, JSON and base64 and a grammar of queries in HttpPubsubSpec.v; inverse laws, soundness and completeness of the parsers, over all bytes; joined with c44 and c60 for what the lists mean
* **C69** Calls of the DHT - `Dht.v`: calls, the channel to the node, the queries of Kademlia and the subscription registry (as in C16) as one transition system; Kademlia is an oracle that reports results of the kind of its queries and nothing after the final one; the standing of each call is read off the record of operations in DhtSpec.v, where subscriptions do not occur; an invariant relates both, by induction over operation lists
* **C70** Nodes exchanging blocks - `Exchange.v`: any number of nodes, each made of the models of C29 (get_block, put_block over the subscription registry) and C40-C43 (bitswap and its messages as bytes), joined by the channel of repo events, the background task, spawned tasks and a network that reorders and loses messages; what blocks may be anywhere is an invariant of all histories, for hostile peers (digests) and for honest ones (put by a caller); that a block arrives is a chain of stages, one of which holds after every step, and in a quiet state only the last can hold; the refuted cases are quiet states with a pending call
* **C71** The configuration file - `Config.v, Json.v`: the JSON reader as functions on bytes, proved to accept exactly the grammar of JsonSpec; base64, PEM, the private key message and the pretty printed file, proved to be read back; processes (init, daemon) over one path as a transition system with create_new, partial writes and reads, errors and kills, and an invariant over all interleavings (who created the file, what of it is written, what daemons have read). openssl and libp2p keys and address texts are functions of a section with round trip hypotheses, shown to be met
* **C72** One endpoint per request - `Routes.v`: the filters of warp as a tree of alternatives with path matching on bytes, rejections and their combination; the tree is flattened to a table which is compared with the paths written out in RoutesSpec and checked to be without overlaps; messages are read back with the JSON reader of C71. The handlers are parameters
* **C73** Endpoints about the node tell what the node says - `Endpoints.v`: a writer of JSON values, the option structs as lists of fields read by the query reader of the other endpoints, each endpoint as a function of the query and of what the node says. What is written is read back with the JSON reader of C71 for all values with UTF-8 texts; queries are characterised by the number of times a name is given. The texts of addresses, their parser and the reader of durations are parameters
* **C74** The life of a daemon - `Daemon.v`: a transition system of daemons sharing one file: phases of main, the channel of capacity one with its waiting senders, requests in flight, writes in pieces, truncation, the lock of the repository and kills as events; invariants over all event sequences for the lock, for the file (unless a daemon starts between the release of the lock and the truncation by another one) and for the channel (any number), and a measure for termination. The node behind exit_daemon and the requests other than shutdown are only known to end or not
* **C75** What becomes of the calls to a node: its background task - `EventLoop.v`: the poll of the background task as single steps over the three sources, with the wakers and the done flag; the node behind it is any state with any handlers, the network any function on it at any time. Invariants: which wakers are in place at each point of the poll; every call is answered, queued or lost, in order; the state is that of a sequential run. A measure for the end of a poll. EventLoopNode.v puts the bitswap of C40-C43 in. Calling a waker and sending are one step; the runtime polls a woken task at some time
* **C76** dag-json blocks as bytes: what is written and which bytes are read - `DagJson.v`: the writer of the text and the reader: the JSON reader of C71 (Json.v), the reading of numbers and of base64 0.13, the visitor of C11 (Codecs.v). says in DagJsonSpec.v is what a JSON text stands for, on top of the grammar in JsonSpec.v; the reader agrees with it on all documents, the writer produces texts of the grammar. Printing and reading of floats are parameters
* **C77** Symlinks: what is written, walked, archived and refused - `Symlink.v`: the writer on top of Pb.v; the form of the block is spelled out byte by byte in SymlinkSpec.v; the walker (C38), the archive (C53), /cat (C63) and path resolution (C30) applied to the block
* **C78** Timeouts of requests: no wrong, early or missing answer - `Timeouts.v`: requests as futures which wait for blocks; a look is a time and the store at that time; induction on the looks, with what the future would find in a store of all blocks as invariant; the futures proved to do what Resolve.v, Cat.v and Walk.v say
* **C79** Transfer statistics: what they count - `Transfers.v`: Bitswap.v together with the spawned tasks, the block store and a report as one load after the other; each counter is the sum of what was added to it modulo 2^64; a report under way lies between the sums at its beginning and now
* **C80** A repository directory is used by one node at a time - `RepoLock.v`: a directory with its lock file as an inode and any number of nodes, each in a phase; invariant: who has the directory has the lock of an inode, each inode is locked once, and without interference all locks are of the file which is there; counts of handles and tasks against the history
* **C81** A download which is cut short is not taken for a whole one - `Bodies.v`: the parts of a streamed body and its encoding in chunks; BodiesSpec.v has the grammar of RFC 7230 as a relation; whatever first part of the encoding is in the grammar is the whole encoding, as each size ends at the first CR and determines what follows; then C63, C53, C61 and, for the lines of /add, the JSON reader of C71
* **C82** /refs/local lists exactly the stored blocks - `LocalRefs.v`: the lines of /refs/local over the answer of the block store; the maps of C14 and C15 (for the disk with crashes and failed writes, from the same invariant), the reader of lines of C61 and the bodies of C81

## Trusted base

* Coq 8.16.1's kernel, including `vm_compute`. `Print Assumptions` stands after each theorem in the
  `Props*.v` files and answers "Closed under the global context" for every one of them: no axioms of
  this development, none of the standard library, and none of another library. (A tool that lists the
  axioms of all loaded modules will also list the parameters of module types of `Coq.ssr.ssrunder`;
  no theorem depends on them.)
* The reading of the Rust code. Each definition cites the lines it models, and where it simplifies it
  says how.
* Arithmetic is modelled as with overflow checks on (an overflow is a panic); where debug assertions
  matter they are a parameter of the model.

### What is assumed about code that is not in the repository

Modelled after documentation and known source, as definitions, and so to be believed:

* quick-protobuf 0.8 (dag-pb and unixfs messages) and prost 0.9 (bitswap messages);
* unsigned-varint 0.3, multihash 0.11 and cid 0.5 (layout of cids, which hash codes are known), bs58
  and multibase for base32; other bases are a parameter;
* serde_json 1.0 (what it writes, its reader and number rules; printing and reading floats are parameters), base64 0.13;
* url::form_urlencoded and serde_urlencoded (the query arrives as a list of decoded pairs), warp's
  `query` filter (missing and duplicate fields), mpart-async 0.5 (the form arrives as a list of parts,
  each a list of pieces and perhaps an error), humantime (a duration text is a predicate);
* std: `Path::components`, `BTreeMap`, `HashMap` and `VecDeque` (order of hash maps is a parameter
  where it can be seen), integer and bool parsers;
* hyper 0.14 (a body of unknown length is sent in chunks, or to the end of the connection for HTTP/1.0;
  an error of the body closes the connection);
* tar-rs 0.4 (header fields, path splitting), std::path;
* tokio and futures: oneshot and broadcast channels, unbounded channels, bounded mpsc with one slot per
  cloned sender, semaphores, `FuturesUnordered` and `try_join_all` (any order);
* sled: transactions are atomic and `flush` is durable;
* the file system: POSIX rename, create_new and unlink are atomic; crashes are crashes of the process;
* libp2p: order of connection callbacks, `addresses_of_peer`, tcp listeners, length-prefixed frames,
  floodsub frames, kademlia's routing table as far as add and remove of addresses;
* trust-dns: txt lookups are an oracle.

Parameters of the theorems (universally quantified, never axioms): the hash functions, the decoders of
blocks where they are not modelled, other multibase bases, the answers of kademlia and dns, the clock,
schedules, crash points, and the texts of error messages.

### What is modelled

* `unixfs`: reading and writing of dag-pb and unixfs messages, the file adder, the file visitor, the
  directory tree builder, shard and plain directory lookups, the walk, symlink blocks (`Pb`, `Wire`,
  `FileAdder`, `FileVisit`, `TreeBuilder`, `TreeIter`, `DirLookup`, `Walk`, `StdPath`, `Symlink`).
* `src`: paths, ipld values and the three codecs, resolution, refs, cat, pins, the four kinds of block
  and pin stores, get_block and put_block with subscriptions, pubsub, swarm bookkeeping, listening
  addresses, bootstrappers, ipns, pins at node level, kademlia queries of the node, the exchange of
  blocks between nodes, and the background task (`IpfsPath`, `Ipld`, `Codecs`, `Cbor`,
  `Resolve`, `Refs`, `Cat`, `FsBlocks`, `FsConc`, `FsPaths`, `FsPins`, `KvPins`, `MemBlocks`,
  `MemPins`, `PinnedRepo`, `NodePins`, `GetPut`, `Subs`, `Pubsub`, `Swarm`, `Listen`, `Addr`,
  `Bootstrap`, `Ipns`, `DagJson`, `Dht`, `Exchange`, `EventLoop`, `EventLoopNode`).
* `bitswap`: messages, ledgers, the behaviour, statistics, prefixes (`Prost`, `BitswapMsg`, `Bitswap`, `Transfers`, `RepoLock`, `Bodies`, `AddBody`, `SubBody`, `LocalRefs`, `RmBody`, `LsBody`).
* `http`: add, cat, get (tar), refs, block, dag, pin, pubsub, bootstrap and ipns endpoints, the routes
  and their refusals, the configuration file and the daemon (`HttpAdd`, `Cat`, `Tar`, `RefsHttp`, `Timeouts`, `TimeoutsRefs`,
  `HttpOptions`, `HttpBlock`, `HttpPins`, `HttpSub`, `HttpPubsub`, `Json`, `Config`, `Routes`,
  `Endpoints`, `Daemon`, `Bootstrap`, `Ipns`).

### What is not modelled

* transports, noise, yamux, mdns, ping, identify and the kademlia protocol itself; key generation;
* the `examples` and `conformance` directories; tracing;
* durability under power loss, and running out of memory or stack.
