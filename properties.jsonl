{"id": "C01", "title": "UnixFS message encode/decode round trip", "statement": "Serialising any UnixFS node (GetBytes / Marshal of pb.Data) and parsing the bytes back (FSNodeFromBytes / FromBytes) returns exactly the same type, data (nil and empty distinguished), file size, block sizes, hash type, fanout and unknown fields.", "quantifier": "all field values in their Go ranges (any data, any number of block sizes, any 64-bit sizes, any int32 type)", "why_tests_cant": "The message space is infinite and varint boundaries sit at ten different lengths; tests only try a handful of sizes.", "anchors": ["unixfs.go: FSNodeFromBytes, GetBytes, FromBytes", "pb/unixfs.pb.go: Data"]}
{"id": "C02", "title": "Parsing is stable: anything accepted re-encodes to an equivalent message", "statement": "For every byte string accepted by FSNodeFromBytes, GetBytes succeeds and parsing its output yields the same message, including every field this version does not know about; for a byte string that is rejected no node is returned.", "quantifier": "all byte strings (well formed, malformed, with unknown fields, with packed or unpacked block sizes, with fields in any order)", "why_tests_cant": "Peers may send any bytes; tests cannot enumerate byte strings.", "anchors": ["unixfs.go: FSNodeFromBytes, GetBytes"]}
{"id": "C03", "title": "Data constructors and size accessors agree", "statement": "UnwrapData(WrapData(b)) = b; UnwrapData(FilePBData(b,n)) = b; DataSize of WrapData(b), FilePBData(b,n) and SymlinkData(p) is len(b), n and len(p); DataSize of directory and shard messages is an error; HAMTShardData keeps its bitmap, fanout and hash type.", "quantifier": "all byte strings b, all uint64 totals n, all paths p", "why_tests_cant": "Universal over data and totals; tests use one or two payloads.", "anchors": ["unixfs.go: WrapData, UnwrapData, FilePBData, FolderPBData, SymlinkData, HAMTShardData, DataSize"]}
{"id": "C04", "title": "File size equals data length plus block sizes under any edit history", "statement": "Starting from NewFSNode of a file type, after any sequence of SetData, AddBlockSize, RemoveBlockSize and RemoveAllBlockSizes, FileSize() is len(Data()) plus the sum of BlockSizes() (mod 2^64), and NumChildren() is the number of block sizes.", "quantifier": "all finite operation sequences with arbitrary arguments", "why_tests_cant": "It is an invariant over unbounded histories, including removals in the middle and 64-bit wrap-around.", "anchors": ["unixfs.go: NewFSNode, SetData, AddBlockSize, RemoveBlockSize, RemoveAllBlockSizes, UpdateFilesize, FileSize, NumChildren"]}
{"id": "C05", "title": "Metadata round trip", "statement": "MetadataFromBytes(BytesForMetadata(m)) returns a Metadata equal to m (mime type and size).", "quantifier": "all mime types and sizes", "why_tests_cant": "Universal over strings and sizes; the only test checks one value.", "anchors": ["unixfs.go: BytesForMetadata, MetadataFromBytes, Metadata.Bytes"]}
{"id": "C06", "title": "Balanced import preserves the file", "statement": "If the balanced Layout succeeds on a chunk stream, reading the resulting DAG from the start yields exactly the concatenation of the chunks, and the root's recorded size is its length.", "quantifier": "all chunk sequences, all link limits >= 2, raw or wrapped leaves, any CID prefix", "why_tests_cant": "Files of every length and every tree shape; tests try a few sizes.", "anchors": ["importer/balanced/builder.go: Layout, fillNodeRec", "importer/helpers/dagbuilder.go", "io/dagreader.go"]}
{"id": "C07", "title": "Balanced import builds a balanced, size-limited, correctly sized tree", "statement": "In the DAG built by the balanced Layout all leaves are at the same depth, every node has at most maxlinks children, all nodes left of the rightmost path have exactly maxlinks children, the depth is minimal, and every internal node records for each child exactly the number of file bytes below it.", "quantifier": "all chunk sequences, all link limits >= 2", "why_tests_cant": "The shape must hold at every tree depth and fill level.", "anchors": ["importer/balanced/builder.go: Layout, fillNodeRec", "importer/helpers/dagbuilder.go: AddChild"]}
{"id": "C08", "title": "Balanced import terminates for every input", "statement": "Layout always returns, for every chunk stream and every value of DagBuilderParams.Maxlinks.", "quantifier": "all inputs and all integer link limits", "why_tests_cant": "Non-termination on particular parameters cannot be observed by finite tests.", "anchors": ["importer/balanced/builder.go: Layout", "importer/helpers/dagbuilder.go: DagBuilderParams.New"]}
{"id": "C09", "title": "Importers never swallow an input error", "statement": "If the chunk source reports an error (or a chunk above the block size limit occurs) before the end of input, Layout (balanced and trickle) and Append return an error, never a root for a truncated file.", "quantifier": "every position of the error in every chunk sequence, every DAG shape", "why_tests_cant": "The error can occur at any chunk; each position meets a different builder state.", "anchors": ["importer/helpers/dagbuilder.go: prepareNext, Done, Next, NewLeafNode", "importer/balanced/builder.go", "importer/trickle/trickledag.go"]}
{"id": "C10", "title": "Imported DAGs are complete in the DAG service", "statement": "When Layout (balanced or trickle) or Append returns a root, every block reachable from it has been added to the DAG service (for Append: or was reachable from the old root).", "quantifier": "all chunk sequences and link limits, all histories of Add results", "why_tests_cant": "A single un-added block anywhere makes the file unreadable; tests read back only small files from a store.", "anchors": ["importer/helpers/dagbuilder.go: Add", "importer/balanced/builder.go: Layout", "importer/trickle/trickledag.go: Layout, Append"]}
{"id": "C11", "title": "Filestore offsets locate each leaf in the source file", "statement": "When importing with filestore references, each raw leaf's recorded offset is the number of file bytes that precede it, so reading len(leaf) bytes at that offset of the original file gives the leaf's data.", "quantifier": "all chunk sequences and both layouts", "why_tests_cant": "Offsets accumulate over unboundedly many chunks.", "anchors": ["importer/helpers/dagbuilder.go: ProcessFileStore, NewLeafDataNode", "importer/balanced/builder.go"]}
{"id": "C12", "title": "Trickle import preserves the file", "statement": "If the trickle Layout succeeds on a chunk stream, reading the resulting DAG yields exactly the concatenation of the chunks, and the recorded size is its length.", "quantifier": "all chunk sequences, all link limits >= 1, raw or wrapped leaves", "why_tests_cant": "Universal over file lengths and recursive layer depths.", "anchors": ["importer/trickle/trickledag.go: Layout, fillTrickleRec", "importer/helpers/dagbuilder.go: FillNodeLayer"]}
{"id": "C13", "title": "Trickle import satisfies the trickle structure check", "statement": "VerifyTrickleDagStructure with the parameters used for the import accepts every DAG produced by the trickle Layout.", "quantifier": "all chunk sequences, all link limits >= 1", "why_tests_cant": "The structure is recursive with growing depth; tests only reach two layers.", "anchors": ["importer/trickle/trickledag.go: Layout, VerifyTrickleDagStructure"]}
{"id": "C14", "title": "Trickle append appends", "statement": "After a successful Append to a file DAG, reading the new root yields the old content followed by the appended chunks, and the recorded sizes are exact.", "quantifier": "all base DAGs accepted by the reader, all chunk sequences, all link limits", "why_tests_cant": "Depends on the shape of the base DAG, which may come from any importer or a previous append or truncate.", "anchors": ["importer/trickle/trickledag.go: Append, appendFillLastChild, appendRec"]}
{"id": "C15", "title": "Trickle append keeps the trickle structure", "statement": "Appending to a DAG built by the trickle Layout or by earlier Appends gives a DAG accepted by VerifyTrickleDagStructure with the same parameters.", "quantifier": "all base lengths, all appended lengths, all link limits", "why_tests_cant": "Violations only show for appends larger than two layers.", "anchors": ["importer/trickle/trickledag.go: Append, VerifyTrickleDagStructure"]}
{"id": "C16", "title": "Sequential reads return the file", "statement": "Any sequence of Read / CtxReadFull calls with arbitrary buffer sizes on a DagReader returns consecutive pieces of the file; each read fills its buffer unless the end of file is reached, in which case io.EOF is returned together with the remaining bytes.", "quantifier": "all DAGs with readable leaves, all sequences of buffer sizes", "why_tests_cant": "Buffer boundaries can fall anywhere relative to leaf boundaries, including empty leaves.", "anchors": ["io/dagreader.go: Read, CtxReadFull, saveNodeData, readNodeDataBuffer"]}
{"id": "C17", "title": "Seek positions the reader exactly", "statement": "After a successful Seek with any whence the next bytes read are those at the requested position (none past the end), Seek returns that position, and a request for a negative position is an error that does not move the reader.", "quantifier": "all correctly sized DAGs, all offsets, all whences, after any history of reads, seeks and copies", "why_tests_cant": "The walker state before the seek depends on the whole history.", "anchors": ["io/dagreader.go: Seek, resetPosition"]}
{"id": "C18", "title": "A failed Seek does not corrupt the reader", "statement": "If Seek returns an error, a later Seek to a position followed by Read still returns the bytes at that position.", "quantifier": "all DAGs, all offsets and all failure causes", "why_tests_cant": "Failures can strike at any depth of the descent.", "anchors": ["io/dagreader.go: Seek, resetPosition"]}
{"id": "C19", "title": "WriteTo copies the rest of the file", "statement": "WriteTo writes exactly the bytes from the current position to the end and returns their number; it agrees with reading them, and after a failed destination write the reader still reports the position it has really reached.", "quantifier": "all DAGs, all reader positions, all destination failure points", "why_tests_cant": "Failure may happen at any leaf.", "anchors": ["io/dagreader.go: WriteTo, writeNodeDataBuffer"]}
{"id": "C20", "title": "NewDagReader accepts exactly the readable node kinds", "statement": "NewDagReader succeeds on raw nodes and on file and raw UnixFS nodes, looks through metadata nodes to the dag-pb node they link to first, reports ErrIsDir for directories and shards, ErrCantReadSymlinks for symlinks, ErrUnrecognizedType for other types and an error for undecodable data, metadata without links or around a raw block; Size() is the recorded file size; it never panics.", "quantifier": "all nodes including arbitrary undecodable bytes and arbitrarily nested metadata nodes", "why_tests_cant": "Arbitrary node contents.", "anchors": ["io/dagreader.go: NewDagReader"]}
{"id": "C21", "title": "In-place overwrite changes exactly the addressed range", "statement": "Overwriting a range inside the file (DagModifier Write/WriteAt + Sync with the range inside the file) changes exactly those bytes, keeps the size and keeps the tree shape and all recorded sizes.", "quantifier": "all correctly sized DAGs, all offsets, all data", "why_tests_cant": "The range may cross any number of leaves and levels.", "anchors": ["mod/dagmodifier.go: modifyDag, Sync"]}
{"id": "C22", "title": "Truncate keeps exactly the prefix", "statement": "Truncate(n) with n at most the size makes the content the first n bytes with exact recorded sizes at every level; with n larger than the size it pads with zeros.", "quantifier": "all correctly sized DAGs, all n", "why_tests_cant": "The cut can fall at every position of every tree shape.", "anchors": ["mod/dagmodifier.go: Truncate, dagTruncate, expandSparse"]}
{"id": "C23", "title": "The modifier behaves like a file under sequential use", "statement": "Any sequence of Write, Seek (from start or current), Truncate, Size, Sync, GetNode and Read calls on a DagModifier behaves like the same calls on an ordinary file holding the same bytes: writes land at the current position, gaps read as zeros, Size and the node returned by GetNode reflect all writes.", "quantifier": "all initial files, all operation sequences, all data and chunkers", "why_tests_cant": "It is a refinement over unbounded histories with buffering in between.", "anchors": ["mod/dagmodifier.go: Write, Seek, Sync, Truncate, Size, GetNode, CtxReadFull"]}
{"id": "C24", "title": "WriteAt writes at the given offset", "statement": "After WriteAt(b, off) the file holds b at off and is unchanged elsewhere, whatever writes preceded it.", "quantifier": "all histories of WriteAt, Write, Seek, Sync and Read calls", "why_tests_cant": "Depends on the buffered state left by every earlier call.", "anchors": ["mod/dagmodifier.go: WriteAt, Write, Sync"]}
{"id": "C25", "title": "Write after Read continues at the current offset", "statement": "A Write that follows a Read lands at the offset reached by the Read.", "quantifier": "all files, read lengths and data", "why_tests_cant": "Depends on interaction of two cursors over histories.", "anchors": ["mod/dagmodifier.go: CtxReadFull, Write"]}
{"id": "C26", "title": "Modifier Seek follows io.Seeker", "statement": "Seek(o, io.SeekEnd) moves to size+o, Seek to a negative position returns an error and does not change the file.", "quantifier": "all sizes and offsets", "why_tests_cant": "Universal over signed offsets.", "anchors": ["mod/dagmodifier.go: Seek"]}
{"id": "C27", "title": "A failed Sync loses nothing", "statement": "If Sync (or a Write that triggers it) fails because the DAG service rejects a block, a later successful Sync still writes all buffered data at the right place.", "quantifier": "all failure points of all Add calls", "why_tests_cant": "Crash points are unboundedly many.", "anchors": ["mod/dagmodifier.go: Sync, modifyDag, appendData"]}
{"id": "C28", "title": "Reads after Truncate see the truncated file", "statement": "A Read following Truncate never returns bytes beyond the new size.", "quantifier": "all files, sizes and prior reads", "why_tests_cant": "Depends on hidden reader state.", "anchors": ["mod/dagmodifier.go: Truncate, readPrep"]}
{"id": "C29", "title": "Hash bit reader splits the hash exactly", "statement": "Successive Next(i) calls return the consecutive i-bit groups of the hash in big-endian order and fail exactly when fewer than i bits remain, without consuming anything.", "quantifier": "all hash values of any length, all sequences of widths", "why_tests_cant": "Bit offsets across byte boundaries for all widths and positions.", "anchors": ["hamt/util.go: hashBits.Next, next, mkmask"]}
{"id": "C30", "title": "Shard width validation", "statement": "NewShard and NewHamtFromDag accept exactly the widths that are powers of two, multiples of eight and at most 1024; link name prefixes have a fixed length, are distinct per slot and sort in slot order.", "quantifier": "all integer widths, all slots", "why_tests_cant": "Universal over widths and slots.", "anchors": ["hamt/hamt.go: makeShard, NewShard, linkNamePrefix", "hamt/util.go: Logtwo"]}
{"id": "C31", "title": "The sharded directory is a map", "statement": "For every sequence of Set, SetLink, Swap, Remove, Take and Find calls with non-empty names, results and final contents are those of a finite map from names to links: Find returns the last link set, Swap and Take return the previous one, removing or finding an absent name reports not-exist, other names are never disturbed.", "quantifier": "all operation sequences, all hash functions, all table widths", "why_tests_cant": "Correctness depends on hash prefixes shared to arbitrary depth and on collapse after removals.", "anchors": ["hamt/hamt.go: Set, SetLink, Swap, Remove, Take, Find, swapValue, getValue, childer"]}
{"id": "C32", "title": "Unavoidable hash collisions are reported and harmless", "statement": "An insertion fails with 'sharded directory too deep' only if another stored name agrees with it on all usable hash bits, and then the directory contents are unchanged.", "quantifier": "all names, hash functions and table widths", "why_tests_cant": "Needs colliding names at full depth.", "anchors": ["hamt/hamt.go: swapValue", "hamt/util.go: Next"]}
{"id": "C33", "title": "Empty names are stored like any other", "statement": "After Set(\"\", node) on a sharded directory, Find(\"\") returns the link.", "quantifier": "all directories", "why_tests_cant": "The empty name is a corner case in every state.", "anchors": ["hamt/hamt.go: isValueNode, swapValue, getValue"]}
{"id": "C34", "title": "The sharded directory has one shape per content", "statement": "Two sharded directories of the same width and CID builder holding the same entries serialise to the same DAG (same root CID), whatever sequences of insertions and removals produced them.", "quantifier": "all pairs of operation histories with equal final contents", "why_tests_cant": "Pairs of unbounded histories.", "anchors": ["hamt/hamt.go: swapValue, Node"]}
{"id": "C35", "title": "Saving and reloading a sharded directory is lossless", "statement": "NewHamtFromDag(Node()) has the same entries, answers every lookup the same, and serialises to the same node again; operations on the reloaded (lazily loading) directory behave as on the in-memory one.", "quantifier": "all directories reachable by operations, all later operations", "why_tests_cant": "Depends on bitmap layout and link ordering for all contents.", "anchors": ["hamt/hamt.go: Node, NewHamtFromDag, loadChild, makeShardValue"]}
{"id": "C36", "title": "Enumeration is complete and duplicate free", "statement": "EnumLinks / ForEachLink deliver every entry exactly once under its plain name and nothing else, when no error is reported.", "quantifier": "all directories, loaded or not", "why_tests_cant": "Universal over directory contents and load states.", "anchors": ["hamt/hamt.go: EnumLinks, ForEachLink, walkTrie, walkChildren"]}
{"id": "C37", "title": "Parallel enumeration is schedule independent", "statement": "For every interleaving of the worker goroutines the parallel shard walk delivers each entry exactly once and finishes only when all shards have been processed.", "quantifier": "all schedules, all numbers of workers, all directories", "why_tests_cant": "Schedules are unboundedly many.", "anchors": ["hamt/hamt.go: parallelShardWalk, EnumLinksAsync"]}
{"id": "C38", "title": "Basic directories are maps with an exact size estimate", "statement": "For every sequence of AddChild and RemoveChild on a basic directory, Find and Links reflect a map from names to nodes, and the internal size estimate equals the sum over entries of name length plus CID length.", "quantifier": "all operation sequences", "why_tests_cant": "Invariant over unbounded histories.", "anchors": ["io/directory.go: BasicDirectory.AddChild, RemoveChild, addLinkChild, estimatedSize"]}
{"id": "C39", "title": "Dynamic directories keep their contents across representation switches", "statement": "For every sequence of AddChild and RemoveChild on a DynamicDirectory with non-empty names, Find, Links and ForEachLink reflect the same map from names to nodes regardless of any switches between the basic and the sharded form, and a failing call leaves the contents unchanged.", "quantifier": "all operation sequences, all thresholds (changing between calls)", "why_tests_cant": "Switches can happen at any point of any history.", "anchors": ["io/directory.go: DynamicDirectory.AddChild, RemoveChild, switchToSharding, switchToBasic"]}
{"id": "C40", "title": "Representation is a function of contents", "statement": "With a fixed threshold, two dynamic directories with the same entries have the same representation (basic or sharded).", "quantifier": "all pairs of histories", "why_tests_cant": "Pairs of histories.", "anchors": ["io/directory.go: needsToSwitchToHAMTDir, needsToSwitchToBasicDir, sizeChange"]}
{"id": "C41", "title": "Switch decisions respect the threshold", "statement": "A basic directory becomes sharded exactly when the estimated size after the addition reaches the threshold (never when the threshold is zero); a sharded directory becomes basic only if its exact size after the operation is below the threshold; the size check is independent of enumeration order.", "quantifier": "all directories, names, thresholds and enumeration orders", "why_tests_cant": "Universal over sizes and thresholds.", "anchors": ["io/directory.go: needsToSwitchToHAMTDir, needsToSwitchToBasicDir, sizeBelowThreshold"]}
{"id": "C42", "title": "Path resolution agrees with directory lookup", "statement": "ResolveUnixfsOnce on a directory node returns the link target that Directory.Find returns for the first name and the remaining names unchanged, for basic and sharded directories.", "quantifier": "all directories, all non-empty paths", "why_tests_cant": "Universal over contents and paths.", "anchors": ["io/resolve.go: ResolveUnixfsOnce"]}
{"id": "C43", "title": "Directory iteration through the files API delivers every entry", "statement": "Iterating a unixfs directory with files.DirIterator yields every link of the directory exactly once and in order for every interleaving of producer and consumer, and if the enumeration failed Err() reports it.", "quantifier": "all directories, all schedules, all failure points", "why_tests_cant": "Producer/consumer interleavings.", "anchors": ["file/unixfile.go: ufsDirectory.Entries, ufsIterator.Next, Err"]}
{"id": "C44", "title": "Bitmap encoding is faithful", "statement": "The slot bitmap stored in a shard node and read back denotes the same set of slots, and the position of a slot's link is the number of occupied lower slots.", "quantifier": "all bitmaps of all widths", "why_tests_cant": "All subsets of slots.", "anchors": ["hamt/hamt.go: Node, NewHamtFromDag, childer.sliceIndex"]}
{"id": "C45", "title": "Old versions stay readable", "statement": "Modifying a file never removes or alters blocks: after any modifier history every root previously returned still reads back its old content from the DAG service.", "quantifier": "all modifier histories and all earlier roots", "why_tests_cant": "Histories are unbounded.", "anchors": ["mod/dagmodifier.go", "importer/helpers/dagbuilder.go: Add"]}
{"id": "C46", "title": "Serialised messages are the canonical protobuf encoding", "statement": "The bytes produced for a UnixFS message are the canonical proto2 encoding of unixfs.proto: fields in number order, shortest varints, enum sign-extended, block sizes unpacked, absent optional fields omitted, unknown fields last. Hence equal messages have equal bytes (and CIDs) and any conforming protobuf reader sees the same values.", "quantifier": "all message values in their Go ranges", "why_tests_cant": "tests compare a few encodings; the claim is about every value of every field, including all varint lengths and combinations of absent fields", "anchors": ["pb/unixfs.proto", "unixfs.go: FSNode.GetBytes, FilePBData, WrapData, HAMTShardData"]}
{"id": "C47", "title": "The decoder follows proto2 semantics for every field order and representation", "statement": "For every well-formed message whose fields come in any order, with repetitions, packed or unpacked block sizes, any varint representation and unknown fields, FSNodeFromBytes returns the last value of each scalar, all block sizes in order and all unknown fields; it fails exactly when the type is missing.", "quantifier": "all field sequences and all their byte representations", "why_tests_cant": "tests only feed the decoder with output of the encoder; other writers may order and pack fields differently", "anchors": ["pb/unixfs.proto", "unixfs.go: FSNodeFromBytes, FromBytes"]}
{"id": "C48", "title": "Cumulative link sizes of imported DAGs are exact", "statement": "In every DAG built by the balanced or trickle Layout the Tsize of every link is the encoded size of the target block plus that of everything below it.", "quantifier": "all chunk sequences, link limits, leaf formats, CID prefixes", "why_tests_cant": "a test compares a few roots; a wrong size deep in the tree is only seen with particular shapes", "anchors": ["importer/helpers/dagbuilder.go:337-346", "importer/balanced/builder.go:129-264", "importer/trickle/trickledag.go:41-89"]}
{"id": "C49", "title": "The trickle structure check accepts exactly trickle DAGs", "statement": "VerifyTrickleDagStructure succeeds if and only if the DAG has the trickle shape (direct leaves first, then LayerRepeat sub-graphs per depth, each of the depth of its layer) with the requested leaf kind and CID prefix and every block below the root can be fetched.", "quantifier": "all DAGs, all parameters with a positive LayerRepeat, all stores", "why_tests_cant": "soundness of a checker is a claim about all DAGs, including ones no importer produces", "anchors": ["importer/trickle/trickledag.go:285-397"]}
{"id": "C50", "title": "Trickle import terminates for every input", "statement": "The trickle Layout always returns, for every chunk stream and every value of Maxlinks, and succeeds if source and store do not fail.", "quantifier": "all inputs and all integer link limits", "why_tests_cant": "non-termination cannot be observed by a finite test and success must hold for all sizes", "anchors": ["importer/trickle/trickledag.go:41-89", "importer/helpers/dagbuilder.go:184-201"]}
{"id": "C51", "title": "Imported blocks have the requested format", "statement": "In every imported DAG the leaves are raw blocks exactly when raw leaves were requested, all other blocks are dag-pb, and every CID has the requested prefix.", "quantifier": "all chunk sequences, link limits, CID builders", "why_tests_cant": "depends on every block of every shape", "anchors": ["importer/helpers/dagbuilder.go:149-178", "importer/helpers/dagbuilder.go:302-310"]}
{"id": "C52", "title": "Trickle imports leave no gaps", "statement": "In a DAG built by the trickle Layout every sub-graph that is not on the rightmost path is completely filled for its depth.", "quantifier": "all chunk sequences, all link limits >= 1", "why_tests_cant": "a gap appears only for particular numbers of chunks", "anchors": ["importer/trickle/trickledag.go:54-89"]}
{"id": "C53", "title": "A failed read does not make later reads skip data", "statement": "If Read returns an error, a later Read that succeeds continues with the first byte that was not delivered.", "quantifier": "all DAGs, all failure causes (missing blocks, undecodable leaves), all call sequences", "why_tests_cant": "the failing leaf and the call pattern can be anywhere", "anchors": ["io/dagreader.go:161-222"]}
{"id": "C54", "title": "A failed Append leaves the base node alone", "statement": "If Append returns an error, the node passed as base still describes the old file.", "quantifier": "all bases, all chunk sources, all failures of the DAG service", "why_tests_cant": "the failure can occur at any block added", "anchors": ["importer/trickle/trickledag.go: Append", "importer/helpers/dagbuilder.go: AddChild"]}
{"id": "C55", "title": "Truncate to a negative size is an error", "statement": "Truncate with a negative size returns an error and leaves the file alone.", "quantifier": "all files and negative sizes", "why_tests_cant": "the claim covers every negative size and every tree shape", "anchors": ["mod/dagmodifier.go: Truncate, dagTruncate"]}
{"id": "C56", "title": "HasChanges tells about unsaved writes", "statement": "HasChanges is true after a Write that stays in the buffer and false after every successful Sync or GetNode; while it is false Sync does nothing.", "quantifier": "all modifier states, all data, all stores", "why_tests_cant": "holds for arbitrary states reached by any history including failures", "anchors": ["mod/dagmodifier.go: HasChanges, Write, Sync, GetNode"]}
{"id": "C57", "title": "Find returns the link under its name", "statement": "The link returned by Shard.Find for a name carries that name.", "quantifier": "all directories and names", "why_tests_cant": "the names depend on slot positions in every possible trie", "anchors": ["hamt/hamt.go: Find, SetLink, Swap"]}
{"id": "C58", "title": "Malformed shard nodes are errors", "statement": "Loading a malformed shard node, and operating on what was loaded, returns errors and never panics.", "quantifier": "all nodes", "why_tests_cant": "the input space is all byte strings and link lists", "anchors": ["hamt/hamt.go: NewHamtFromDag, makeChilder, Node"]}
{"id": "C59", "title": "SetCidBuilder applies to the whole directory", "statement": "After SetCidBuilder all shards written by Node use that builder, so the root depends only on the entries and the builder.", "quantifier": "all directories and builders", "why_tests_cant": "depends on the history of splits before the call", "anchors": ["hamt/hamt.go: SetCidBuilder, swapValue, Node"]}
{"id": "C60", "title": "A nil error from EnumLinks means a complete listing", "statement": "If EnumLinks returns a nil error, then the links it returned are all entries of the directory, also if the context was cancelled while it was running.", "quantifier": "all directories, schedules and moments of cancellation", "why_tests_cant": "depends on the race between cancellation and the workers", "anchors": ["hamt/hamt.go: EnumLinks, EnumLinksAsync, emitResult, parallelShardWalk"]}
{"id": "C61", "title": "Set and Swap store the child", "statement": "After a successful Set or Swap of a node in a sharded directory the node is in the DAG service, and stays there whatever operations follow.", "quantifier": "all directories, nodes, histories and failures of the service", "why_tests_cant": "all histories and failure patterns", "anchors": ["hamt/hamt.go: Set, Swap"]}
{"id": "C62", "title": "Size checks are over when they return", "statement": "When AddChild or RemoveChild of a sharded directory start to modify the shards, no goroutine of the size check they have run still has to read one of these shards.", "quantifier": "all directories, operations, thresholds and schedules", "why_tests_cant": "A data race between goroutines the caller does not see; depends on the schedule.", "anchors": ["io/directory.go: HAMTDirectory.sizeBelowThreshold", "hamt/hamt.go: parallelShardWalk, EnumLinksAsync"]}
{"id": "C63", "title": "The root of a directory is canonical", "statement": "GetNode of two dynamic directories with the same entries, the same CID builder and the same representation returns nodes with the same CID, whatever the histories, thresholds and reloads that led there.", "quantifier": "all pairs of histories", "why_tests_cant": "Pairs of unbounded histories.", "anchors": ["io/directory.go: DynamicDirectory, GetNode", "hamt/hamt.go: Shard.Node"]}
{"id": "C64", "title": "Repeating an AddChild cannot fail where the first one succeeded", "statement": "If AddChild(name, node) on a dynamic directory succeeds, calling it again at once with the same arguments and a DAG service in the same condition succeeds.", "quantifier": "all directories, names, nodes, thresholds", "why_tests_cant": "Depends on an internal estimate that drifts with the history and on unavailable blocks elsewhere in the directory.", "anchors": ["io/directory.go: HAMTDirectory.AddChild, needsToSwitchToBasicDir, sizeBelowThreshold"]}
{"id": "C65", "title": "Cancellation cannot break the threshold", "statement": "If the context of RemoveChild or AddChild is cancelled during the size check, the call either fails or takes the decision it takes without cancellation; in particular a directory whose size reaches the threshold does not become basic.", "quantifier": "all directories, operations, thresholds and schedules", "why_tests_cant": "Cancellation can hit at any point of any schedule.", "anchors": ["io/directory.go: HAMTDirectory.sizeBelowThreshold", "hamt/hamt.go: EnumLinksAsync, parallelShardWalk"]}
{"id": "C66", "title": "Size estimates of basic directories loaded from any node", "statement": "The size estimate of a basic directory is the sum of the sizes of its links also if the node it was loaded from has several links of one name, so that adding an entry makes it sharded only if it really reaches the threshold.", "quantifier": "all nodes, all operation sequences", "why_tests_cant": "Nodes written by other implementations; the estimate is internal.", "anchors": ["io/directory.go: BasicDirectory.RemoveChild, computeEstimatedSize, needsToSwitchToHAMTDir"]}
{"id": "C67", "title": "Loaded sharded directories shrink", "statement": "If a sharded directory has just been loaded from its node, every block can be fetched and an AddChild or RemoveChild makes it smaller and takes its exact size below the threshold, the call succeeds and the directory is basic afterwards.", "quantifier": "all directories, operations, thresholds and enumeration schedules", "why_tests_cant": "Universal over contents, thresholds and schedules.", "anchors": ["io/directory.go: needsToSwitchToBasicDir, sizeBelowThreshold, switchToBasic"]}
{"id": "C68", "title": "Resolving an empty path does not panic", "statement": "ResolveUnixfsOnce returns an error or a result for every node and every list of names, including the empty one; it does not panic.", "quantifier": "all nodes, all paths", "why_tests_cant": "Universal over nodes and paths; the empty list is the case nobody tries.", "anchors": ["io/resolve.go: ResolveUnixfsOnce"]}
{"id": "C69", "title": "Path resolution does not show the representation", "statement": "For two directories with the same entries, one basic and one sharded, ResolveUnixfsOnce returns links with the same name, size and target for every name, and the same error for every missing name.", "quantifier": "all directories, all names", "why_tests_cant": "Universal over contents and representations.", "anchors": ["io/resolve.go: ResolveUnixfsOnce", "hamt/hamt.go: Find"]}
{"id": "C70", "title": "Whole paths", "statement": "Resolving a path of any length name by name, through basic and sharded directories in any mixture, arrives at the node the directories' entries lead to; a missing name anywhere on the way is reported as not found.", "quantifier": "all trees of directories, all paths", "why_tests_cant": "Induction over paths and nested directories.", "anchors": ["io/resolve.go: ResolveUnixfsOnce", "io/directory.go: GetNode"]}
{"id": "C71", "title": "NewUnixfsFile preserves kind, size and contents", "statement": "For the root of a file NewUnixfsFile gives a file of exactly that size which reads as the content for every sequence of reads and seeks; for a symlink node the link with its target; for the node of a saved directory a directory with exactly its entries.", "quantifier": "all files, links and directories", "why_tests_cant": "Universal over DAGs and operation sequences.", "anchors": ["file/unixfile.go: NewUnixfsFile, newUnixfsDir, ufsFile.Size"]}
{"id": "C72", "title": "An abandoned iteration ends", "statement": "When a client stops calling Next before the end, the goroutine started by Entries terminates without the context being cancelled.", "quantifier": "all directories, all schedules", "why_tests_cant": "A leak is not visible in the results of any call.", "anchors": ["file/unixfile.go: Entries"]}
{"id": "C73", "title": "Resolution on other nodes", "statement": "On a protobuf node that is not a sharded directory, including one whose data is not unixfs at all, ResolveUnixfsOnce returns the first link with the first name and the remaining names, or link-not-found if there is none; on a raw node it reports link-not-found. It never panics there.", "quantifier": "all nodes, all data bytes, all paths", "why_tests_cant": "Universal over arbitrary data bytes.", "anchors": ["io/resolve.go: ResolveUnixfsOnce"]}
{"id": "C74", "title": "Nodes in hand stay what they were", "statement": "A node returned by DagModifier.GetNode, and the node that was given to NewDagModifier, keep their content and the agreement between content and CID, whatever is done with the modifier later.", "quantifier": "all files, all sequences of calls before and after", "why_tests_cant": "Universal over interleavings of calls; the change happens to an object the modifier no longer owns.", "anchors": ["mod/dagmodifier.go: GetNode, NewDagModifier, modifyDag"]}
{"id": "C75", "title": "Modifiers are independent", "statement": "Two or more modifiers, also when made from the same node object or from the same file, behave as if each were alone; they share only the DAG service.", "quantifier": "all files, all interleavings of calls on any number of modifiers", "why_tests_cant": "Universal over interleavings.", "anchors": ["mod/dagmodifier.go: NewDagModifier, modifyDag"]}
{"id": "C76", "title": "When buffered data is written back cannot be told", "statement": "Calling DagModifier.Sync in between, or writing so much that the internal buffer overflows, changes neither the content of the file nor the answer of any other call, now or later; nor does the chunker given.", "quantifier": "all files, all sequences of calls, all places for additional Syncs, all buffer sizes and chunkers", "why_tests_cant": "Universal over pairs of histories that differ in where data is written back.", "anchors": ["mod/dagmodifier.go: Sync, Write, WriteAt, Seek, Truncate, CtxReadFull, Size, GetNode"]}
{"id": "C77", "title": "A published tree is found again from its root", "statement": "Import files, build directories around them in any way (entries added, overwritten, removed, thresholds changed in between, sharded or not), nest these directories, and add every directory's node to the DAG service. From the node of the outermost directory, resolving a path name by name and opening the result with NewUnixfsFile then gives exactly what was put there: a file with the imported bytes under any sequence of reads and seeks, the target of a symbolic link, or a directory whose entries are those added; a path that is not in the tree is reported as missing, also when it goes on below a file or a link. Every tree with different, non-empty names in each directory can be published this way.", "quantifier": "all trees, all layouts, parameters and chunk sequences of the files, all histories and thresholds of the directories, all paths, all read/seek sequences, anything else added to the store", "why_tests_cant": "Universal over trees, histories and paths, and across five packages.", "anchors": ["importer/importer.go", "unixfs.go: SymlinkData", "io/directory.go: NewDirectory, AddChild, RemoveChild, GetNode", "io/resolve.go: ResolveUnixfsOnce", "file/unixfile.go: NewUnixfsFile", "io/dagreader.go"]}
{"id": "C78", "title": "Changing the CID builder never changes the contents", "statement": "SetCidBuilder may be called at any moment on a directory, sharded or not, and on a shard. All later operations, also across changes of the representation and reloading, answer as a map from names to entries; GetCidBuilder answers the builder set last and the node of the directory is built with it.", "quantifier": "all histories of operations and SetCidBuilder calls, all thresholds, all faults of the DAG service", "why_tests_cant": "Universal over histories; shards of one directory then have different CID versions and hash functions.", "anchors": ["io/directory.go: SetCidBuilder, GetCidBuilder, switchToSharding, switchToBasic", "hamt/hamt.go: SetCidBuilder, swapValue, Node, NewHamtFromDag"]}
{"id": "C79", "title": "The channel of a basic directory delivers every entry once", "statement": "A caller that keeps receiving from EnumLinksAsync of a basic directory gets each entry exactly once and then sees the channel closed. Whatever the caller does, it has received a prefix of the links, the goroutine ends after the context is cancelled, and it is stuck exactly when the caller stopped receiving without cancelling while links were left.", "quantifier": "all directories reached by any history, all interleavings of goroutine and caller", "why_tests_cant": "Universal over schedules and directories; a leaked goroutine has no visible effect.", "anchors": ["io/directory.go: BasicDirectory.EnumLinksAsync"]}
{"id": "C80", "title": "EnumLinksAsync shows the directory at the time of the call, completely or with an error", "statement": "The entries delivered by EnumLinksAsync of a basic directory are those at the time of the call, and an enumeration cut short by the context can be told from a complete one.", "quantifier": "all directories and all interleavings", "why_tests_cant": "Depends on when the goroutine is scheduled and when the context is cancelled.", "anchors": ["io/directory.go: BasicDirectory.EnumLinksAsync"]}
{"id": "C81", "title": "Sharded directories, nodes and links behave like values", "statement": "A program may have any number of shards, some made from the same node, and keep nodes and links in hand. Whatever it does to one of them, every other shard answers as before, every node in hand stays as it was, and every link in hand keeps its size and target; all answers are those of independent values.", "quantifier": "all programs of NewShard, NewHamtFromDag, SetCidBuilder, SetLink, Swap, Take, Find, ForEachLink and Node, all hash functions, all faults of the DAG service", "why_tests_cant": "Universal over programs and over which objects are shared; sharing shows only in particular combinations of calls.", "anchors": ["hamt/hamt.go: makeChilder, makeShardValue, loadChild, insert, swapValue, SetLink, Swap, Take, Find, ForEachLink, Node, NewHamtFromDag"]}
{"id": "C82", "title": "A link in hand keeps its name", "statement": "The link objects that a program gave to SetLink or got from Swap, Take, Find or the callback of ForEachLink do not change any more, whatever is done to the directory.", "quantifier": "all programs", "why_tests_cant": "The change happens at a distance, in an operation on another name.", "anchors": ["hamt/hamt.go: insert (lnk.Name), ForEachLink (lnk.Name), Find, Take, Swap, SetLink"]}
{"id": "C83", "title": "The callback of ForEachLink may change the directory", "statement": "ForEachLink gives each entry that is there during the whole walk to the callback exactly once, also when the callback adds or removes other entries or the entry it was given.", "quantifier": "all directories and callbacks", "why_tests_cant": "Depends on the slots of the names involved.", "anchors": ["hamt/hamt.go: ForEachLink, walkTrie, childer.each, childer.get"]}
{"id": "C84", "title": "Any two names fit into one sharded directory", "statement": "Two different names can both be entries of one sharded directory, with the hash function the package uses.", "quantifier": "all pairs of different names, all widths, all directories", "why_tests_cant": "Pairs with equal 64-bit hashes are not met at random; they have to be computed from the structure of the hash function.", "anchors": ["hamt/util.go: murmur3Hash, hashBits.Next", "hamt/hamt.go: swapValue, SetLink"]}
{"id": "C85", "title": "A directory can always grow", "statement": "Adding entries to a directory works at every size: when a directory reaches the threshold it becomes sharded and goes on accepting entries.", "quantifier": "all histories of a dynamic directory with one threshold, all sets of names", "why_tests_cant": "Depends on the names already present; the names of the failing call do not matter.", "anchors": ["io/directory.go: DynamicDirectory.AddChild, BasicDirectory.switchToSharding", "hamt/hamt.go: SetLink", "hamt/util.go: murmur3Hash"]}
{"id": "C86", "title": "Operations on a sharded directory need only the blocks on the paths of their names", "statement": "A sharded directory that was saved and loaded again fetches, for an operation on a name, only the shards met when following the hash of that name from the root, at most one per log2(width) bits of the hash. If other shards are missing or unreachable the operation still gives the right result, and the first lookup of a name after loading fails exactly if a shard on its path is missing. Saving and listing fail to fetch only if some shard is missing.", "quantifier": "all saved directories, widths, hash functions, operation sequences after loading, and all sets of missing blocks", "why_tests_cant": "Every subset of missing blocks and every sequence of operations is a separate case; tests use a service that has everything.", "anchors": ["hamt/hamt.go: getValue, swapValue, childer.get, loadChild", "hamt/hamt.go: makeChilder, NewHamtFromDag"]}
{"id": "C87", "title": "Exact behaviour of an open file when blocks are missing", "statement": "When blocks are missing, every read, copy and seek of an open file still gives a definite answer: a read returns the right bytes up to the first block it could not fetch, and that block begins exactly where the bytes end; a range can be read if the blocks holding its first byte and those beginning within it are available, whatever else is missing; a seek fails exactly if a block holding the target byte is missing. After a failed seek the reader reads at the beginning of the missing block and reports position 0 (two different positions), and after a destination fails during a copy the two positions differ as well; all later answers are determined by these two positions. Nothing panics or loops.", "quantifier": "all files, all sequences of reads, seeks and copies with any destinations, any blocks missing at each call, differing from call to call", "why_tests_cant": "The reachable states include every combination of failed seeks, partial reads and failing destinations, for every DAG shape and every set of missing blocks.", "anchors": ["io/dagreader.go: CtxReadFull, Seek, WriteTo, readNodeDataBuffer, writeNodeDataBuffer", "go-ipld-format Walker: Iterate, Seek"]}
{"id": "C88", "title": "Overwriting touches only the blocks with the bytes written", "statement": "Writing inside a file through the modifier and getting the node fetches only the blocks that have some of the bytes written, so it works even if all other blocks are missing; all other blocks stay in their places in the new DAG; and besides the new root only blocks with some of those bytes are added to the DAG service.", "quantifier": "all files, ranges inside the file, write buffer sizes and sets of missing blocks", "why_tests_cant": "Every DAG shape, every range relative to the block borders and every set of missing blocks is a separate case; tests use complete stores.", "anchors": ["mod/dagmodifier.go: modifyDag, Sync, WriteAt, GetNode"]}
{"id": "C89", "title": "Truncating touches only the blocks around the cut", "statement": "Truncating a file to a smaller size needs only the blocks that hold the first byte cut off; blocks behind the cut are not fetched, blocks that end at the cut or before stay in their places, and besides the new root only blocks that end at the new end of the file are added.", "quantifier": "all files, all sizes below the size of the file, all sets of missing blocks", "why_tests_cant": "Every DAG shape, cut position and set of missing blocks is a separate case; tests use complete stores.", "anchors": ["mod/dagmodifier.go: Truncate, dagTruncate"]}
{"id": "C90", "title": "Imports store children before parents", "statement": "A successful balanced or trickle import adds exactly the blocks of the new file to the DAG service, in the order children before parents, left to right. Whatever the outcome, at no moment of an import or an Append does the store hold a block without its children, if it held none before.", "quantifier": "all chunk sources, parameters, failures of the source and of the DAG service at any call, every moment of the run", "why_tests_cant": "The claim is about every intermediate state and every position of a failure.", "anchors": ["importer/balanced/builder.go: Layout", "importer/trickle/trickledag.go: Layout, Append", "importer/helpers/dagbuilder.go: AddChild, Add"]}
{"id": "C91", "title": "Appending touches only the right edge of the file", "statement": "Append to a file with trickle shape (or another one it can continue) fetches only last children of nodes with more than Maxlinks links, from the root down, so it works if all other blocks are missing; it writes only the blocks with new data and the blocks on that edge; all other blocks stay in their places.", "quantifier": "all appendable files, all appended chunk sequences, all sets of missing blocks, all link limits", "why_tests_cant": "Every tree shape and set of missing blocks is a separate case; tests use complete stores.", "anchors": ["importer/trickle/trickledag.go: Append, appendFillLastChild, appendRec"]}
{"id": "C92", "title": "The modifier stores children before parents", "statement": "If the store holds no block without its children and has the children of the file opened, then no sequence of calls on a DagModifier leaves a block in the store without its children, at any moment, and all blocks below the node that GetNode returns are in the store.", "quantifier": "all files, chunkers, sequences of Write, WriteAt, Seek, Read, Truncate, Sync, GetNode; all failures of the DAG service; every moment", "why_tests_cant": "The claim is about every intermediate state and every position of a failure.", "anchors": ["mod/dagmodifier.go: Sync, modifyDag, appendData, dagTruncate, Truncate, GetNode"]}
{"id": "C93", "title": "Directories store children before parents", "statement": "If the store holds no block without its children, and a client stores what is below the nodes it adds, then operations on a directory and storing the node that GetNode returns leave no block in the store without its children.", "quantifier": "all histories of directories, basic, sharded or changing between the forms, all failures of the DAG service, every moment", "why_tests_cant": "Every history is a separate case and the claim is about every moment of it.", "anchors": ["io/directory.go: AddChild, GetNode", "hamt/hamt.go: Node, Set, Swap"]}
{"id": "C94", "title": "The root of an import is a function of the chunks and the parameters", "statement": "Two successful imports of the same chunks with the same layout and parameters return the same root, and so do two successful appends of the same chunks to the same file, whatever the stores hold and can deliver. Conversely, files imported from different chunk sequences have different roots, whatever layouts and parameters were used; only empty files may share one.", "quantifier": "all chunk sequences, layouts, parameters, and all pairs of stores", "why_tests_cant": "It relates pairs of runs in all pairs of store states; a test compares a few runs in an empty store.", "anchors": ["importer/balanced/builder.go: Layout", "importer/trickle/trickledag.go: Layout, Append", "importer/helpers/dagbuilder.go: AddChild, Add, NewLeafDataNode"]}
{"id": "C95", "title": "Link sizes of files stay exact under imports, appends and modifications", "statement": "Every link in a file that this library imported records exactly the number of bytes of the blocks below it (as a 64-bit number), and it stays so through any sequence of appends and DagModifier calls, including calls that fail midway because the DAG service refuses or does not deliver a block: whatever node GetNode returns has exact sizes in all its links, so Size is the size of its blocks. It should hold for any file with exact sizes.", "quantifier": "all files with exact sizes, chunkers, write buffer sizes, sequences of calls with any arguments, and all failures of the DAG service", "why_tests_cant": "Overwriting replaces only the CID in a link and keeps the recorded size; that this is right depends on every re-encoding having the same length, for all files, offsets and failure patterns.", "anchors": ["mod/dagmodifier.go: modifyDag, dagTruncate, appendData, Sync", "importer/helpers/dagbuilder.go: AddChild", "importer/trickle/trickledag.go: Append"]}
{"id": "C96", "title": "Link sizes of directories stay exact", "statement": "If the nodes and links a client puts into a directory have exact sizes in their links (the number of bytes of the blocks below, as a 64-bit number), then every link of the directory has, in the basic and the sharded form, at every level of the sharded form, through any sequence of operations, changes of form, saves and loads, and failures of the DAG service: every node, entry and list delivered has exact sizes, and the Size of the directory's node is the number of bytes of its blocks.", "quantifier": "all hash functions, widths, operation sequences, thresholds, schedules of the parallel enumeration, and all failures of the DAG service", "why_tests_cant": "The sizes of all ancestors must follow every change below them; stale sizes after collapses, reloads or failed operations appear only on particular histories.", "anchors": ["hamt/hamt.go: Node, makeShardValue, Swap, SetLink, swapValue", "io/directory.go: AddChild, RemoveChild, GetNode, switchToSharding, switchToBasic, Links"]}
{"id": "C97", "title": "Versions of a sharded directory share unchanged shards", "statement": "Saving a sharded directory after operations on some names writes only the new root, the shards on the hash paths of these names (at most one per level of the tree and name), and the nodes the client gave to store. All other shards of the old version are shards of the new one, unread and not written again. More generally any two saved directories, whatever their histories, share every shard that is on the path of no name in which their contents differ.", "quantifier": "all hash functions, widths, CID builders, histories before and after saving, sets of names, and all failures of the DAG service to deliver blocks", "why_tests_cant": "A save that rewrites a neighbouring shard, or an insertion that changes the shape of a subtree not on its path, yields a directory with the right contents; only the set of blocks shows it, for particular shapes and histories.", "anchors": ["hamt/hamt.go: Node, swapValue, getValue, insert, rm, childer.get, loadChild"]}
{"id": "C98", "title": "Directories are independent of each other and of the nodes they hand out", "statement": "In a program with several directories and node objects, an operation on one directory changes no other directory, and no node but the one that directory keeps: GetNode never returns the same node for two directories, a directory loaded from a node copies it, and a node made by GetNode of a sharded directory (or left behind by a conversion) keeps its value for ever. The node GetNode returns is a snapshot, and changing it does not change the directory. (The last sentence is false for basic directories: GetNode returns the node the directory goes on changing, and changing it bypasses the size estimate, so that the directory stays basic above the threshold. Without such changes the threshold is kept.)", "quantifier": "all programs of NewDirectory, NewDirectoryFromNode, SetCidBuilder, AddChild, RemoveChild, GetNode on any number of directories, with any node objects made, changed, encoded and shared in between, all thresholds, hash functions and schedules of the size checks", "why_tests_cant": "Whether two objects alias shows only in particular interleavings of operations on several directories and nodes; tests use one directory and look at its node right after GetNode.", "anchors": ["io/directory.go: BasicDirectory.GetNode, NewDirectoryFromNode, switchToBasic, switchToSharding, BasicDirectory.AddChild, RemoveChild, SetCidBuilder, DynamicDirectory"]}
{"id": "C99", "title": "Appending gives the same file as importing everything at once", "statement": "A trickle import of some chunks followed by trickle Append of further chunks gives the same root as one trickle import of all the chunks, so that equal files get equal CIDs. (False: after the direct leaves Append does not make sub-graphs of depth one. For a first part of at most 4*Maxlinks chunks the roots are the same exactly if the first part has more than Maxlinks chunks or all the chunks are at most 2*Maxlinks.)", "quantifier": "all chunk sequences and all ways to divide them, all link limits, leaf formats, prefixes and stores", "why_tests_cant": "The two roots agree for small files and for all tests that compare only the content; they part at a file size that depends on the link limit.", "anchors": ["importer/trickle/trickledag.go: Layout, fillTrickleRec, Append, appendFillLastChild, appendRec, trickleDepthInfo"]}
{"id": "C100", "title": "Changing a file keeps what kind of node it is", "statement": "Writing to, extending or truncating a file keeps the CID prefix of its root, whether the root is a raw block, its UnixFS type, hash type and fanout, and the fields this version does not know, as mode and modification time; and the empty file and directory nodes are those of importing nothing and of a new directory. (False of Truncate: a file of one block becomes a block of type Raw without its unknown fields, and truncated to nothing it is not the empty file.)", "quantifier": "all nodes, well-formed or not, all sequences of modifier calls with all outcomes, all stores, splitters and buffer sizes; all appends, also failing ones", "why_tests_cant": "The tests compare the bytes read and not the root; attributes are lost only on some paths, and fields this version does not know are in no test.", "anchors": ["mod/dagmodifier.go: Write, WriteAt, Sync, modifyDag, appendData, expandSparse, Truncate, dagTruncate", "importer/trickle/trickledag.go: Append", "unixfs.go: WrapData, EmptyFileNode, EmptyDirNode"]}
{"id": "C101", "title": "Malformed files give errors, not panics", "statement": "Whatever node a file is opened on (wrong or missing sizes, undecodable blocks, directories among the blocks, blocks missing), reading, seeking, copying, writing, truncating and appending return errors and do not panic or loop; readers keep the contracts of io.Reader and io.Seeker, and once io.EOF is reported it stays. (False of WriteAt, Truncate and Append, which panic on nodes that a reader accepts.)", "quantifier": "all nodes, all DAGs below them, all stores changing from call to call, all sequences of calls with all arguments", "why_tests_cant": "There are endless ways to be malformed; the tests open well-formed files only.", "anchors": ["io/dagreader.go: CtxReadFull, WriteTo, Seek", "mod/dagmodifier.go: WriteAt, modifyDag, Truncate, dagTruncate", "importer/trickle/trickledag.go: Append, appendFillLastChild"]}
{"id": "C102", "title": "Changing a file keeps the format of its blocks", "statement": "A modifier opened on a file adds and returns only blocks in the formats of the file: with CIDv0 only dag-pb blocks with CIDv0, with CIDv1 only blocks with CIDv1 and the same hash function; and imports and Append add only blocks in the format asked for, also if they fail. The leaves keep their format too: raw leaves or dag-pb leaves. (The last sentence is false: an extended CIDv1 file with dag-pb leaves gets raw leaves, and a CIDv0 file with raw leaves gets dag-pb leaves.)", "quantifier": "all files, all sets of formats, all stores, all sequences of calls with all outcomes; all imports and appends", "why_tests_cant": "Every block at every depth written by any sequence of calls has to be looked at, also those written before a failure; the tests look at the root.", "anchors": ["mod/dagmodifier.go: NewDagModifier, modifyDag, appendData, dagTruncate", "importer/trickle/trickledag.go: Append", "importer/helpers/dagbuilder.go: NewLeafNode, NewFSNodeOverDag"]}
{"id": "C103", "title": "Publishing the same tree twice gives the same root, and different trees have different roots", "statement": "A client with fixed settings (layout, parameters, chunker, link format, directory format, one sharding threshold) that publishes a tree of files, links and directories gets a root that depends on the tree only: not on the stores, not on the order in which entries are published and added, not on other nodes added meanwhile, not on failed attempts, not on scheduling; as long as no directory falls from the threshold to below it, which adding different names never does. Conversely two publications, with any settings, that end at the same root are publications of the same tree up to the order of entries.", "quantifier": "all trees of any depth and width, all settings, all stores, all histories and schedules", "why_tests_cant": "The root is compared across all orders, stores and schedules, and every two different trees have to be told apart; a test compares a few.", "anchors": ["importer/importer.go: BuildDagFromReader, BuildTrickleDagFromReader", "unixfs.go: SymlinkData", "io/directory.go: NewDirectory, AddChild, GetNode", "hamt/hamt.go: Node"]}
{"id": "C104", "title": "No block of a file holds more than the chunk size, nor more than 1 MiB", "statement": "Whatever the chunker returns, every block (leaf or inner node) that an import, an Append or any sequence of calls of a modifier adds to the store or returns holds at most 1 MiB of data, provided the file worked on has no bigger block, also if the call fails or panics. If all chunks have at most L bytes, so has every block; for a modifier if L is at least 4096.", "quantifier": "all chunk sequences, parameters, stores, files and modifier histories", "why_tests_cant": "Every block made on every path, including overwriting, truncation, sparse extension and failures, has to be measured; a test looks at the blocks of a few files.", "anchors": ["importer/helpers/dagbuilder.go: NewLeafNode, NewLeafDataNode", "importer/helpers/helpers.go: BlockSizeLimit", "importer/balanced/builder.go: Layout", "importer/trickle/trickledag.go: Layout, Append", "mod/dagmodifier.go: Write, Truncate, expandSparse, modifyDag, dagTruncate"]}
{"id": "C105", "title": "Files with common data share blocks", "statement": "The leaf that holds a chunk is a function of the chunk, the layout, the CID builder and whether leaves are raw (of the chunk and the builder alone if they are raw), so files with a common chunk share a block holding it, whatever else is in the files and whatever the limit of links. With the balanced layout and k links per node, two files that have the same k^d chunks, each at some multiple of k^d chunks from its start, share the complete tree over these chunks, and it is the tree that importing the chunks alone gives.", "quantifier": "all chunk sequences without empty chunks, all parameters, stores and positions", "why_tests_cant": "Sharing depends on every byte of every block at every depth and position; a test compares a few files.", "anchors": ["importer/helpers/dagbuilder.go: NewLeafNode, NewLeafDataNode, AddChild, Commit", "importer/balanced/builder.go: Layout, fillNodeRec", "importer/trickle/trickledag.go: Layout, fillTrickleRec"]}
{"id": "C106", "title": "Adding data at the end of a file keeps its blocks, except those on its right edge", "statement": "Let a file be imported from some chunks and another from the same chunks followed by others, with the same layout and parameters; or let chunks be appended to an existing file. Then every block of the first file is a block of the second or lies on the path from the root of the first to its last leaf. With the balanced layout and k links per node this path has at most 1 + ceil(log_k n) blocks for n chunks, so all other blocks of a growing file are stored and transferred once.", "quantifier": "all chunk sequences, parameters, stores; for append all well formed files, also ones not made by the importer", "why_tests_cant": "Every block of every shape of file is concerned; a test compares the blocks of a few.", "anchors": ["importer/balanced/builder.go: Layout, fillNodeRec", "importer/trickle/trickledag.go: fillTrickleRec, Append, appendRec, appendFillLastChild", "importer/helpers/dagbuilder.go: AddChild, RemoveChild, FillNodeLayer"]}
{"id": "C107", "title": "Overwriting leaves no trace of earlier contents", "statement": "The root of a file that has been overwritten in place depends on its first version and its present contents only, not on which writes made them or in which order. Writing bytes that are there already, or undoing all changes, gives the root of the start. A file made by the importer and then overwritten is the very file that importing the new contents, cut into chunks at the same places, gives.", "quantifier": "all files, layouts and parameters, all sequences of writes inside the file, all stores", "why_tests_cant": "Two histories that end with the same contents have to be compared, for every file, range and order of writes.", "anchors": ["mod/dagmodifier.go: modifyDag, WriteAt, Sync, GetNode", "importer/balanced/builder.go: Layout", "importer/trickle/trickledag.go: Layout", "importer/helpers/dagbuilder.go: NewLeafNode"]}
{"id": "C108", "title": "Truncating a file gives the file that importing what is left gives", "statement": "A file made by the importer and then truncated is the file (the same root) that importing the remaining chunks, the last one shortened, gives. For any file the chunks after truncating are those before the cut followed by what is left of the chunk with the cut.", "quantifier": "all files, layouts and parameters, all sizes, all stores", "why_tests_cant": "The two roots agree for some positions of the cut and some shapes of the tree only; which ones cannot be seen from samples.", "anchors": ["mod/dagmodifier.go: dagTruncate, Truncate", "importer/trickle/trickledag.go: fillTrickleRec, Layout", "importer/balanced/builder.go: Layout", "unixfs.go: WrapData"]}
{"id": "C109", "title": "What is cut off a file leaves no trace", "statement": "Truncating a file in several steps gives the same root as truncating it once to the last size. The root after truncating depends on the bytes that are kept only: two versions of a file made by overwriting, or two imports with the same chunk sizes, that agree on the first s bytes have the same root once truncated to s.", "quantifier": "all files and layouts (for overwritten files: leaves encoded as this library does), all sizes, all sequences of writes inside the file, all stores", "why_tests_cant": "Data left behind in a block after truncating (in a leaf, a block size or a link) shows up in the root for particular positions of the cut only.", "anchors": ["mod/dagmodifier.go: dagTruncate, Truncate, modifyDag", "unixfs.go: WrapData", "importer/balanced/builder.go: Layout", "importer/trickle/trickledag.go: Layout"]}
{"id": "C110", "title": "Making a file larger and cutting it back gives the file again", "statement": "A file that is made larger, with Truncate or by writing at its end, and then truncated to its old size has the contents, the blocks and so the root that it had; doing this again and again does not make the file grow.", "quantifier": "all files in the trickle format or with few links at the root, all sizes, all data written, all chunkers and write buffer sizes, any number of rounds, all stores", "why_tests_cant": "The contents are right after any number of rounds; only the number of blocks grows, and that it does so without a bound is a statement about all numbers of rounds.", "anchors": ["mod/dagmodifier.go: Truncate, expandSparse, dagTruncate", "importer/trickle/trickledag.go: Append, appendRec, appendFillLastChild"]}
{"id": "C111", "title": "All ways to write past the end of a file are the same", "statement": "WriteAt at an offset past the end, Truncate to that offset followed by a write at the new end, and Seek to that offset followed by Write give the same root, or the same error, and leave the same blocks in the store.", "quantifier": "all files in the trickle format or with few links at the root, all offsets past the end, all data, chunkers and write buffer sizes, all stores, also failing ones", "why_tests_cant": "The three calls take different paths through the buffer and the offsets of the modifier; that they agree for all offsets, data and failures of the store needs a proof about the paths.", "anchors": ["mod/dagmodifier.go: WriteAt, Write, Seek, Truncate, expandSparse, Sync"]}
{"id": "C112", "title": "Making a file larger is writing zeros", "statement": "Making a file larger with Truncate gives the same root as writing as many zeros at its end. (False: Truncate always cuts the zeros into pieces of 4096 bytes, whatever the chunker of the modifier. The roots are the same exactly if the chunker does so as well.)", "quantifier": "all files in the trickle format or with few links at the root that have canonical leaves, all sizes, chunkers, write buffer sizes and stores", "why_tests_cant": "The contents are the same in all cases; whether the roots are depends on the chunker.", "anchors": ["mod/dagmodifier.go: Truncate, expandSparse, WriteAt, Sync, appendData"]}
{"id": "C113", "title": "How data is divided into Write calls does not show", "statement": "Writing data with several Write calls in a row gives the same file, with the same root and the same blocks in the store, as writing it with one call. (False when more is written than the buffer of the modifier holds, 2 MiB: whenever the buffer is written back the chunker starts anew.)", "quantifier": "all states of the modifier, all data, all ways to divide it, all chunkers, buffer sizes and stores", "why_tests_cant": "Holds for all small data and, with the usual chunk sizes, for large data written in pieces of usual sizes.", "anchors": ["mod/dagmodifier.go: Write, Sync, appendData, writebufferSize"]}
{"id": "C114", "title": "Writing at the end of an imported file gives the import of everything", "statement": "A file imported in the trickle format, to which data is written at the end with the modifier using the same chunker, has the root that the import of the old and the new data together has. (False: the last chunk of the file is never filled up. The roots are the same exactly if the chunker cuts at the end of the old data, for a fixed chunk size if it divides the size of the file; if at most Maxlinks chunks grow to more than two times as many, they differ in any case.)", "quantifier": "all contents and data written, all chunkers, write buffer sizes, formats of CIDs and stores; files of up to four times the link limit", "why_tests_cant": "The contents are the same in all cases; whether the roots are depends on the sizes and the chunker.", "anchors": ["mod/dagmodifier.go: WriteAt, Sync, appendData", "importer/trickle/trickledag.go: Layout, Append"]}
{"id": "C115", "title": "Writing to a file keeps its chunks", "statement": "After a successful trickle Append the chunks of the file are those it had before followed by those of the source, in order and each as it was: none is filled up, divided or put together with another (empty chunks aside). A write inside of a file leaves the sizes of its chunks as they are; one that goes over the end adds the chunks the chunker makes of the part behind the end, one that begins behind the end adds zeros in chunks of 4096 bytes first; making the file larger with Truncate adds zeros in chunks of 4096 bytes whatever the chunker.", "quantifier": "all files and shapes that can be appended to, all chunks, link limits, formats of CIDs and stores, all depths", "why_tests_cant": "The chunks decide over deduplication and over the root; the content read back is the same for any division, and the division depends on the shape at the right edge of the tree.", "anchors": ["importer/trickle/trickledag.go: Append, appendFillLastChild, appendRec", "mod/dagmodifier.go: appendData, expandSparse, Sync"]}
{"id": "C116", "title": "The chunks of an edited file depend on its chunks and the edits alone", "statement": "After any history of writes and truncations with the modifier the chunks of the file (empty ones aside) are those given by a small set of rules on lists of chunks: a write inside keeps the sizes, one over the end adds what the chunker makes of the rest, one behind the end adds zeros in chunks of 4096 bytes first, cutting keeps the chunks before the cut and the beginning of the one it goes through, extending adds zeros. Two files with the same chunks, in whatever trees and CID formats, have the same chunks after the same edits, whatever the write buffer sizes and stores.", "quantifier": "all files that can grow, all histories of edits of any length, chunkers, write buffer sizes, CID formats and stores", "why_tests_cant": "Histories are unbounded and the code takes different paths depending on the tree, the buffer and where an edit falls.", "anchors": ["mod/dagmodifier.go: WriteAt, Sync, Truncate, modifyDag, dagTruncate, appendData, expandSparse", "importer/trickle/trickledag.go: Append"]}
{"id": "C117", "title": "The number of chunks of a file depends on its size, not on how often it was written to", "statement": "Data appended to a file with the modifier takes as many chunks as its size needs, however many times the file is opened, written to and saved in between. (False: each portion is chunked on its own and nothing is ever put together, so every portion takes at least one chunk; with a fixed chunk size portions that are not larger than it are the chunks themselves. A file of 100000 bytes written byte by byte has 100000 chunks, written in one call it has one. Data written in one call takes at most one chunk more than its size divided by the chunk size.)", "quantifier": "all files that can grow, all numbers and sizes of portions, chunkers, write buffer sizes, CID formats and stores", "why_tests_cant": "The content read back is right in all cases; the number of chunks grows without bound with the number of writes.", "anchors": ["mod/dagmodifier.go: WriteAt, Sync, appendData", "importer/trickle/trickledag.go: Append"]}
