# Formal model of go-unixfs: design

Source modelled: `/repo` (go-unixfs at the pinned commit), read as text only.
Prover: Coq 8.16.1 (`rocq/theories`, logical name `Verif`). Only Coq's standard
library is used.

## 1. Modelling decisions

* **Bytes** are `Coq.Init.Byte.byte`; strings and slices are `list byte`.
  Where nil and empty slices differ observably (protobuf `Data`) the slice is an
  `option`.
* **Integers** are `Z` with explicit `u64`/`i64`/`i32` wrap-around functions at
  the places where the Go code converts or adds.
* **Outcomes**: `res A := Ok a | Err e | Panic | Fuel`. `Err` is a returned Go
  error, `Panic` a run-time panic (slice bounds, nil dereference), `Fuel`
  only arises when a modelled unbounded loop does not finish within the given
  fuel; theorems either show it cannot occur or (non-termination results) that
  it occurs for every fuel.
* **IPLD nodes** are trees: `NRaw prefix bytes | NProto prefix bytes (list link)`
  and a link carries name, cumulative size and *the child node itself*. A CID is
  identified with the node it hashes (collision freedom and integrity of the
  hash, which content addressing assumes). `prefix` is the CID prefix (version,
  codec, hash code, hash length). The UnixFS payload is kept as *bytes* and
  decoded by the modelled protobuf decoder each time the Go code does so.
* **DAG service**: a world record with (a) the log of added nodes, (b) an
  arbitrary oracle saying which `Add` calls succeed, (c) an arbitrary oracle
  saying which blocks can be fetched. Theorems quantify over all oracles unless
  they say otherwise.
* **Goroutines/channels** (parallel shard walk, directory iterator) are
  transition systems; theorems quantify over all executions.
* **Hash function** of the HAMT: universally quantified (`HAMTHashFunction` is a
  mutable global in the code); its default value is modelled in `Murmur.v`.
* **Splitter**: a list of events (data chunk or error), end of list = `io.EOF`.

## 2. Trusted base

* Coq 8.16.1 kernel; `Print Assumptions` output is recorded beside each theorem
  in the `Properties*.v` files (target: `Closed under the global context`).
* The hand translation from Go to Gallina (each definition cites file and lines).
* Third-party behaviour modelled from knowledge of the library (source is not in
  /repo): gogo/protobuf 1.3.2 table marshal/unmarshal, go-bitfield 1.1.0,
  go-merkledag 0.5.1 `ProtoNode`/`RawNode`, go-ipld-format `Walker` and
  `NavigableIPLDNode`, `bytes.Buffer`/`bytes.Reader`, `io.LimitReader`, size
  splitters, spaolacci/murmur3 1.1.0 (checked on its test vectors).
* Not modelled: real CIDs and hashing, block encoding (dag-pb) bytes, contexts,
  timeouts and cancellation (except where a property is about it), logging,
  the promise cache of `NavigableIPLDNode`, file mode/mtime, URL filestore
  references, `test/` and `testdata`.

## 3. Files

| file | contents |
|---|---|
| `Base.v` | bytes, machine integers, outcomes, list lemmas |
| `Pb.v` | protobuf wire format of `pb.Data` / `pb.Metadata` |
| `FSNode.v` | `unixfs.go` |
| `Dag.v` | nodes, links, world (DAG service) |
| `Builder.v` | `importer/helpers` |
| `Balanced.v`, `Trickle.v`, `Importer.v` | the two layouts, append, verification; entry points |
| `Reader.v` | walker and `io/dagreader.go` |
| `Modifier.v` | `mod/dagmodifier.go`, nodes as values |
| `Alias.v` | `mod/dagmodifier.go` again, with the `Link` objects that copies of a `ProtoNode` share as cells of a heap; several modifiers and nodes in the hands of callers |
| `HashBits.v`, `Bitfield.v`, `Hamt.v` | `hamt/` |
| `Walk.v` | `parallelShardWalk` as a transition system |
| `Directory.v`, `Resolve.v`, `UnixFile.v` | `io/directory.go`, `io/resolve.go`, `file/unixfile.go` |
| `HamtExec.v`, `DirExec.v` | histories of operations on `Hamt.v` and `Directory.v` |
| `SpecExact.v`, `ExactProofs.v`, `ExactFacts.v` | the exact machine of the modifier (file, pending bytes, place, position, reader), that the modifier follows it, and consequences |
| `SpecRobust.v`, `RobustProofs.v`, `RobustWitness.v` | shard nodes of any origin: conditions under which no operation panics, and examples |
| `SpecTree.v`, `TreeProofs.v`, `TreeWitness.v`, `PropertiesTree.v` | C77: publishing a tree of files and finding it again |
| `DirLate.v`, `LateProofs.v`, `LateWitness.v`, `PropertiesLate.v` | C59, C78: SetCidBuilder between operations |
| `Enum.v`, `EnumProofs.v`, `PropertiesEnum.v` | C79, C80: EnumLinksAsync of a basic directory |
| `SpecBlock.v`, `BlockProofs.v`, `PropertiesBlock.v` | C48: encoded dag-pb blocks, their lengths |
| `TrickleEmpty.v` | C51: trickle import of an empty source |
| `HeapHamt.v` | hamt.go with objects: shards and links are cells of a heap, assignments change cells |
| `HeapRep.v`, `HeapOps.v`, `HeapGet.v`, `HeapSwap.v`, `HeapRun.v`, `HeapRead.v`, `HeapWalk.v`, `HeapNode.v` | the operations on the heap refine those of `Hamt.v`, with frames |
| `SpecHeap.v`, `HeapClient.v`, `HeapStep.v`, `HeapAll.v`, `HeapEnd.v`, `HeapWitness.v`, `PropertiesHeap.v` | C81-C83: programs with several directories |
| `SmallProofs.v`, `PropertiesSmall.v` | C03, C04, C06, C12, C18, C51: sizes by type, block sizes, default parameters, failed Seek |
| `Murmur.v` | the hash function of `hamt/util.go` |
| `MurmurProofs.v`, `Crowd.v`, `PropertiesCrowd.v` | C84, C85: names with equal hashes |
| `SpecPath.v`, `PathProofs.v`, `PropertiesPath.v` | C86: the blocks on the path of a name |
| `SpecLocal.v`, `LocalRun.v`, `LocalProofs.v`, `PropertiesLocal.v` | C87: the reader with missing blocks |
| `SpecOverwrite.v`, `OverwriteProofs.v`, `CutProofs.v`, `PropertiesOverwrite.v` | C88, C89: the blocks that overwriting and truncating touch |
| `SpecStore.v`, `SpecStoreDir.v`, `ClosedProofs.v`, `ClosedModifier.v`, `ClosedDir.v`, `StoreProofs.v`, `PropertiesStore.v` | C90 to C93: which blocks are stored, and in which order |
| `DetProofs.v`, `PropertiesDet.v` | C94: imports and appends in different stores |
| `SizesProofs.v`, `SizesWitness.v`, `PropertiesSizes.v` | C95: sizes in the links of files, under modification |
| `SpecSizes.v`, `ExactDir.v`, `PropertiesSizesDir.v` | C96: sizes in the links of directories |
| `SpecSharing.v`, `SharingProofs.v`, `SharingWrites.v`, `PropertiesSharing.v` | C97: shards shared between saved versions |
| `DirObj.v` (model), `SpecDirObj.v`, `DirObjProofs.v`, `DirObjRun.v`, `DirObjSize.v`, `DirObjWitness.v`, `PropertiesDirObj.v` | C98: directories with their node objects |
| `AppendSame.v`, `AppendBegun.v`, `PropertiesAppendSame.v` | C99: append against import of everything |
| `SpecKind.v`, `KindProofs.v`, `PropertiesKind.v` | C100: attributes kept by modification; empty nodes |
| `SpecMeta.v`, `MetaProofs.v` | C05: decoding of metadata messages |
| `SpecSafe.v`, `ReaderSafe.v`, `SafeWitness.v`, `PropertiesSafe.v` | C101: malformed files |
| `SpecFormat.v`, `FormatProofs.v`, `PropertiesFormat.v` | C102: formats of the blocks of a changed file |
| `SpecRoots.v`, `RootsProofs.v`, `RootsWitness.v`, `PropertiesRoots.v` | C103: the same tree gets the same root, and only the same tree |
| `SpecLimit.v`, `LimitProofs.v`, `PropertiesLimit.v` | C104: how much data a block holds |
| `SpecShare.v`, `ShareProofs.v`, `PropertiesShare.v` | C105: which blocks files have in common |
| `SpecEdge.v`, `EdgeProofs.v`, `PropertiesEdge.v` | C106: the blocks that growing a file keeps |
| `SpecRewrite.v`, `RewriteProofs.v`, `PropertiesRewrite.v` | C107: the root after overwriting is a function of the contents |
| `ShortenProofs.v`, `PropertiesShorten.v` | C108: truncating against importing what is left |
| `TraceProofs.v`, `PropertiesTrace.v` | C109: what is cut off leaves no trace |
| `SpecLeak.v`, `LeakProofs.v`, `PropertiesLeak.v` | C110: growing a file and cutting it back |
| `SpecHole.v`, `HoleProofs.v`, `PropertiesHole.v` | C111, C112: ways to write past the end of a file, growing and writing zeros |
| `SpecPieces.v`, `PiecesProofs.v`, `FlushProofs.v`, `PropertiesPieces.v` | C113: data written in several calls |
| `OnwardProofs.v`, `PropertiesOnward.v` | C114: writing at the end of an imported file |
| `ChunksProofs.v`, `PropertiesChunks.v` | C115: the chunks after appending; C112 and C114 for all sizes |
| `OverEndProofs.v`, `PropertiesOverEnd.v` | C115: writes inside, over and behind the end |
| `SpecEvolve.v`, `EvolveProofs.v`, `PropertiesEvolve.v` | C116: the chunks after a history of edits |
| `PortionProofs.v`, `PropertiesPortion.v` | C117: data appended in portions |
| `HamtNames.v` | names of the links returned by Find, changing the CID builder |
| `DirMore.v` | cancelled enumerations, abandoned size checks, repeated AddChild |
| `HamtAbs.v`, `DirBasic.v`, `DirFacts.v`, `DirShape.v` | shards and basic directories as maps; facts about directories in the form the properties need; the shape of directories under one threshold |
| `Spec*.v` | specifications that do not use the model's helpers |
| `*Proofs*.v`, `*Run.v`, `*Witness.v` | lemmas, theorems about whole runs, counterexamples |
| `Properties*.v` | theorem statements only, with `Print Assumptions` and examples |

## 4. Plan per property

| id | what is modelled | how it is proved |
|---|---|---|
| C01 | marshal/unmarshal of `pb.Data` at byte level | decoder lemma per field, then composition; induction over block sizes |
| C02 | the decoder loop with unknown fields, groups, packed lists | prefix stability of the field skipper, induction over the decoder loop |
| C03 | the constructors in `unixfs.go` | from C01 |
| C04 | FSNode mutators with 64-bit wrap | invariant, induction over the operation list |
| C05 | Metadata functions | mime type round trip proved; size round trip expected **refuted** (size is written but never read back) |
| C06 | balanced Layout + DagReader | invariant of `fillNodeRec` (consumed chunks = leaves) and the walker theorem of C16 |
| C07 | same | inductive shape predicate maintained by `fillNodeRec`/`Layout` |
| C08 | Layout loop with fuel | termination for limits >= 2; expected **refuted** for limits <= 1 (loops for every fuel) |
| C09 | splitter events with errors, size limit | simulation: number of consumed events; an error event can only be left by an error result |
| C10 | `Add` log | invariant "all proper descendants of a committed node are in the log" |
| C11 | `offset` and PosInfo in the log | invariant offset = bytes consumed |
| C12 | trickle Layout + DagReader | as C06 |
| C13 | `VerifyTrickleDagStructure` executed on the result | structural predicate by induction over depth |
| C14 | Append | content theorem under the precise condition that no node that receives children carries inline data; **refuted** without it |
| C15 | Append + verifier | expected **refuted** (layers start one level too deep); positive part for small appends |
| C16 | walker + CtxReadFull | remaining-leaves abstraction of the walker stack; refinement to a byte cursor |
| C17 | Seek | same abstraction with sizes |
| C18 | Seek failure | expected **refuted** with a node lacking block sizes below the root |
| C19 | WriteTo with failing writer | positive part proved; position after writer failure expected **refuted** |
| C20 | NewDagReader | case analysis over decoded type, induction over metadata nesting |
| C21 | modifyDag | structural induction on the DAG |
| C22 | dagTruncate, expandSparse | structural induction, append theorem |
| C23 | whole modifier state machine | refinement to (bytes, position) by induction over operations; refinement to the exact machine of SpecExact.v for the calls where it is not like a file |
| C24 | WriteAt | positive part under coherence of the two cursors; **refuted** in general |
| C25 | Read/Write | **refuted** |
| C26 | Seek whence end, negative | **refuted** |
| C27 | failing Add | **refuted** |
| C28 | Truncate with open reader | **refuted**; holds with a Seek in between |
| C29 | hashBits | arithmetic spec: bits of the big-endian integer |
| C30 | makeShard, Logtwo, linkNamePrefix | arithmetic, hex digit lemmas |
| C31 | whole HAMT | abstraction to entry list + well-formedness invariant, induction over operations |
| C32 | swapValue error | path agreement predicate |
| C33 | empty name | expected **refuted** |
| C34 | canonical form | uniqueness of canonical tries with equal entry sets |
| C35 | Node / NewHamtFromDag | simulation between loaded and unloaded slots |
| C36 | walkTrie, walkChildren | equality with the entry list |
| C37 | worker/dispatcher transition system | invariant: emitted + pending = all entries; final states |
| C38 | BasicDirectory | invariant over operations; duplicates in foreign nodes excluded (**refuted** for them) |
| C39 | DynamicDirectory | refinement to map using C31/C38 |
| C40 | switching | **refuted** (hysteresis through sizeChange); what holds: invariant relating sizeChange to the sizes at the last switch, induction over histories |
| C41 | the three decision functions | direct, induction over enumeration; for one threshold an invariant on sizeChange of empty directories |
| C42 | ResolveUnixfsOnce | from C31/C35/C38 |
| C43 | iterator/producer transition system | invariant over all schedules |
| C44 | go-bitfield | popcount lemmas |
| C45 | Add log monotonicity | induction over operations |
| C46, C47 | decoder on arbitrary bytes | independent grammar of messages; equivalence with the decoder |
| C48 | link sizes | invariant of the builder |
| C49 | verifier | equivalence with the shape predicate plus availability |
| C50 | trickle Layout | measure: pending chunks |
| C51 | block formats | invariant of the builder |
| C52 | trickle density | invariant of the builder |
| C53 | read after failure | counterexample, positive part from C16 |
| C54 | Append with failing Add | **refuted** |
| C55 | Truncate to a negative size | **refuted** (panic) |
| C56 | HasChanges | direct |
| C57 | Find's link | **refuted** (slot prefix in the name); the name ends with the entry's (`HamtNames.v`) |
| C58 | malformed shard nodes | **refuted** (bitmap longer than the width; bits without links; mixed widths); what holds: invariant of shards in memory whose unloaded parts satisfy the condition, induction over all operations and over the parallel walk |
| C59 | SetCidBuilder | **refuted** for directories that already have sub-shards; proved for flat ones (`HamtNames.v`); every shard has one of the builders so far (`LateProofs.v`) |
| C60 | EnumLinks with a cancelled context | **refuted** (no error, no entries); sound, and complete if not cancelled (`DirMore.v`) |
| C61 | Set, Swap and the DAG service | Add log monotonicity, induction over operations |
| C62 | size check + worker transition system | **refuted** (returns while workers are running); they end by themselves (`DirMore.v`) |
| C63 | GetNode of both representations | C34 and uniqueness of sorted link lists |
| C64 | AddChild twice | **refuted** (drift of the tracked size); succeeds if every block can be fetched (`DirMore.v`) |
| C65 | size check with a cancelled context | **refuted** |
| C66 | basic directory with duplicate names | **refuted** |
| C67 | the decision to become basic | C41 and totality of the switch |
| C68 | ResolveUnixfsOnce | **refuted** (names[0] of an empty list) |
| C69 | ResolveUnixfsOnce on both representations | **refuted** |
| C70 | repeated ResolveUnixfsOnce | C42, induction over the path |
| C71 | NewUnixfsFile | from C17, C35 and the encoding of symlinks |
| C72 | iterator/producer transition system | **refuted** (full channel; error of an entry); ends iff at most four entries are left (`IterProofs.v`) |
| C73 | ResolveUnixfsOnce on other nodes | totality of the decoder, first match |
| C74 | the modifier on a heap of links | **refuted** (shared `Link` objects); frame invariant, unsharing by Sync |
| C75 | several modifiers on one heap | **refuted** for a common node; refinement to separate modifiers otherwise |
| C76 | the modifier, pairs of histories | exact machine, equal after flushing; **refuted** with WriteAt |
| C77 | all of the above together | the importers only add to the store; C06, C35, C42, C70 and C71 by induction over the path (`TreeProofs.v`) |
| C78 | histories with SetCidBuilder | the invariants of C29 and C39 with a set of prefixes instead of one (`LateProofs.v`) |
| C79 | transition system of goroutine, channel and caller | invariant and measure over all interleavings (`EnumProofs.v`) |
| C80 | the same | refuted: late read, silent truncation (`EnumProofs.v`) |
| C81 | hamt.go with shard and link objects in a heap (`HeapHamt.v`) | each operation refines the one on values and touches only objects of its directory (`HeapRep.v` to `HeapNode.v`); the directories of a program own disjoint objects (`HeapClient.v` to `HeapEnd.v`) |
| C82 | the same | **refuted** for links from Find and ForEachLink; the others belong to no directory and are never written |
| C83 | ForEachLink with callbacks on the heap | **refuted** |
| C84 | MurmurHash3 (`Murmur.v`) with the sharded directory | **refuted**: every step of the hash can be undone, so that colliding names can be constructed for every long name; positive part from C32 |
| C85 | dynamic directory with that hash | **refuted**: sharded directories never contain two names with the same hash (invariant of C31), and a directory at the threshold is sharded (C41) |
| C86 | sharded directory with fetch faults chosen after saving | representation invariant refined to the stored shards below the root; a failed fetch names a shard on the path of the operation's name (`touch`, `touch_path`); conversely by induction on the path |
| C87 | reader with a store that may lack blocks, different at each call | the walker's chain locates the next block in the file (`frame_block`, `next_block`); a failed fetch names that block; two-position state machine as refinement; seek exactness by induction on the place of the block |
| C88 | modifyDag with a store that lacks blocks | induction on the DAG with `block_at` as the places of blocks; the loop over children by induction on links (`block_cons`) |
| C89 | dagTruncate with a store that lacks blocks | as C88 with `cut_needs`; refutation: "abcde" cut to 4 with "abc" missing |
| C90 | balanced and trickle Layout, Append with the log of Adds | exact log by induction on the layouts; triples `safe` for every outcome (ClosedProofs.v) |
| C91 | Append with a store that lacks blocks | `edge` and `grew` describe the right edge; induction on the DAG in AppendProofs.v |
| C92 | all calls of the modifier with the log of Adds | invariant `J`: the children of the current node are stored; refutation: Truncate twice, the first Add fails |
| C93 | shards and directories with the log of Adds | invariant `sok`: all links of the shard lead to stored blocks; refutation: AddChild to an empty directory |
| C94 | balanced and trickle Layout, Append, run twice | relation `det` between two runs whose states differ in the store only; `file_dag` is functional |
| C95 | imports, Append and all calls of the modifier, with every outcome | triples `trip` with the invariant `fine` on the current node (exact links, canonical leaves); overwriting preserves the cumulative size of every node |
| C96 | all operations of shards and directories, with every outcome | the invariant `sok` of `ClosedDir.v` with "the recorded size is exact" in place of "is stored" |
| C97 | `swapValue`, `getValue`, `Node` | invariant `few`: the sub-shards in memory are on the paths of the names used; canonical form of tries for the sharing |
| C98 | `GetNode`, `NewDirectoryFromNode`, `switchToBasic`, all operations of directories | object-level model, simulation of the value-level operations, frame invariant: a cell has at most one directory; refuted for snapshots |
| C99 | `Layout`, `Append` | closed form of the nodes made from at most 2*Maxlinks chunks; comparison of the child after the direct leaves beyond; for begun sub-graphs of depth one a relation between the two runs; refuted |
| C100 | all operations of the modifier, `Append`, `EmptyFileNode`, `EmptyDirNode` | the triples of `SizesProofs.v` with the attributes of the node as invariant, parametric in the set of allowed kinds; refuted for Truncate |
| C101 | `CtxReadFull`, `WriteTo`, `Seek`; `modifyDag`, `dagTruncate`, `Append` | invariant of the walker on any DAG (a path from the root, at a child or behind the last), measure of the work left; witnesses for the writers; refuted |
| C102 | builder, imports, `Append`, the modifier | invariant over all states: the node in hand and all blocks added have allowed formats; witnesses for the leaves; refuted |
| C103 | all of C77 | mutual induction over the first publication, `fixed_root` (C40) for directories and determinism of imports (C94) for files; the converse by induction over the tree with `resolve_saved` (C70) |
| C104 | `NewLeafNode`, the layouts, `trickle_append`, `modifyDag`, `dagTruncate`, `expandSparse` | triples over the builder and the modifier with the invariant that every block reachable or added is small; the data of inner nodes is kept by decoding and encoding |
| C105 | `NewLeafNode`, `AddChild`, `Commit`, the layouts | triples over the builder with the invariant that every block decodes to a leaf or to an inner node without data of its own; then a complete tree is determined by its chunks, by induction on its depth, and an aligned run of a tree is found by induction on the depth of the tree |
| C106 | the layouts, `Append`, `appendRec`, `appendFillLastChild` | balanced: a block not on the edge is a complete tree over an aligned run, found in the longer file as for C105; trickle: two runs in step until the shorter one is out of chunks, after which the links of the longer only grow; append: induction on the recursion with the relation that all links are kept except that the last may become one to a child for which the claim holds |
| C107 | `modifyDag`, `Sync`, the layouts | overwriting keeps the shape (C21), shapes compose, and two files of the shape of a canonical one with the same contents are equal, by induction on the DAG; two imports of chunks of the same lengths run in step and have the same shape |
| C108 | `dagTruncate`, the layouts | relation `cut` on trees (same links up to a child, then cut); two trickle imports that differ from some chunk on run in step and end related by it, complete left parts of balanced trees are equal (C105); truncating gives the unique canonical tree related to the start |
| C109 | `dagTruncate`, `modifyDag`, the layouts | relation `pre s` on trees (same links before the child with byte s, these children related in turn, leaves with the same first bytes); `dagTruncate` maps related trees to the same tree; a tree is related to its truncation, and so are trees of the same shape (C107) that agree on the first s bytes |
| C110 | `Truncate`, `expandSparse`, `WriteAt`, `Sync`, `Append`, `dagTruncate` | the leaves (except inner nodes without links) of a file with data added are the old ones followed by new ones (induction over `appendRec`); the leaves of a truncated file are those before the cut and the cut one; a write at the end overwrites nothing, so the file it appends to has the shape of the old one; counting blank leaves, induction over the rounds |
| C111 | `WriteAt`, `Write`, `Seek`, `Truncate`, `expandSparse`, `Sync` | the three ways reach the same modifier after `expandSparse`, except for the offset of the next write, on which `Sync` does not depend (shown call by call) |
| C112 | `Truncate`, `expandSparse`, `WriteAt`, `Sync`, `Append` | both append to the same node: overwriting nothing gives the same shape and contents (C107), the chunks are the same, and the result of `Append` depends on them only (C94); witness for another chunker |
| C113 | `Write`, `Sync`, `appendData` | the buffer and the offset after several writes are those after one, induction over the pieces; beyond the buffer each call appends to the import of what was written before (C99), and imports of different chunks differ (C94); chunks of a fixed size are determined by the data |
| C114 | `WriteAt`, `Sync`, `appendData`, `Layout`, `Append` | the write appends to the imported node (C107: it overwrites nothing), which gives the import of the chunks of both (C99); imports of different chunks differ (C94) |
| C115 | `Append`, `appendFillLastChild`, `appendRec`, `appendData`, `expandSparse` | the invariant of the append proof (C14) carries the list of non-empty chunks, not just their concatenation; with that C112 is exact and one direction of C114 holds for all sizes |
| C116 | `WriteAt`, `Sync`, `Truncate`, `GetNode` | rules on lists of chunks (`SpecEvolve.v`), one edit from C115 and C107's lemmas, growability kept by every edit, induction over the history; the rules are a function |
| C117 | `WriteAt`, `Sync`, `appendData` | the rules of C116 for writes at the end, induction over the portions; a fixed size determines the chunks of a portion; witness of 100000 writes of one byte by the general theorem |
