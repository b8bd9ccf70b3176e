-Q theories Verif
theories/Base.v
theories/Pb.v
theories/PbProofs.v
theories/FSNode.v
theories/FSNodeProofs.v
theories/SpecCodec.v
theories/SpecCodecProofs.v
theories/SpecMeta.v
theories/MetaProofs.v
theories/PropertiesCodec.v
theories/Dag.v
theories/Builder.v
theories/Balanced.v
theories/Trickle.v
theories/Importer.v
theories/DagProofs.v
theories/SpecFile.v
theories/SpecStore.v
theories/SpecStoreDir.v
theories/BuilderProofs.v
theories/BalancedProofs.v
theories/TrickleProofs.v
theories/ImportProofs.v
theories/TrickleEmpty.v
theories/PropertiesImport.v
theories/Reader.v
theories/SpecReader.v
theories/ReaderProofs.v
theories/ReaderRun.v
theories/ReaderProofs2.v
theories/ReaderWitness.v
theories/PropertiesReader.v
theories/SpecAppend.v
theories/AppendProofs.v
theories/AppendRun.v
theories/PropertiesAppend.v
theories/Modifier.v
theories/GrowProofs.v
theories/ClosedProofs.v
theories/ClosedModifier.v
theories/ClosedDir.v
theories/StoreProofs.v
theories/DetProofs.v
theories/SpecModifier.v
theories/ModifierProofs.v
theories/TruncateProofs.v
theories/ModifierRun.v
theories/ModifierFacts.v
theories/PropertiesModifier.v
theories/HashBits.v
theories/Bitfield.v
theories/SpecHash.v
theories/HashProofs.v
theories/Hamt.v
theories/HamtRep.v
theories/HamtNode.v
theories/SpecHamt.v
theories/HamtExec.v
theories/HamtRun.v
theories/HamtFacts.v
theories/HamtWitness.v
theories/PropertiesHamt.v
theories/SpecRobust.v
theories/RobustProofs.v
theories/RobustWitness.v
theories/PropertiesRobust.v
theories/Walk.v
theories/WalkProofs.v
theories/WalkDir.v
theories/WalkWitness.v
theories/PropertiesWalk.v
theories/HamtAbs.v
theories/HamtNames.v
theories/Directory.v
theories/SpecDir.v
theories/DirExec.v
theories/DirLate.v
theories/DirBasic.v
theories/DirectoryProofs.v
theories/DirFacts.v
theories/DirShape.v
theories/DirMore.v
theories/DirWitness.v
theories/PropertiesDir.v
theories/Resolve.v
theories/SpecResolve.v
theories/ResolveProofs.v
theories/UnixFile.v
theories/SpecIter.v
theories/UnixFileProofs.v
theories/FileWitness.v
theories/IterProofs.v
theories/SpecTree.v
theories/TreeProofs.v
theories/TreeWitness.v
theories/PropertiesTree.v
theories/PropertiesFile.v
theories/Alias.v
theories/SpecAlias.v
theories/AliasProofs.v
theories/AliasRun.v
theories/AliasFacts.v
theories/PropertiesAlias.v
theories/SpecExact.v
theories/ExactProofs.v
theories/ExactFacts.v
theories/PropertiesExact.v
theories/LateProofs.v
theories/LateWitness.v
theories/PropertiesLate.v
theories/Enum.v
theories/EnumProofs.v
theories/PropertiesEnum.v
theories/SpecBlock.v
theories/BlockProofs.v
theories/PropertiesBlock.v
theories/HeapHamt.v
theories/HeapRep.v
theories/HeapOps.v
theories/HeapGet.v
theories/HeapSwap.v
theories/HeapRun.v
theories/HeapRead.v
theories/HeapWalk.v
theories/HeapNode.v
theories/SpecHeap.v
theories/HeapClient.v
theories/HeapStep.v
theories/HeapAll.v
theories/HeapEnd.v
theories/HeapWitness.v
theories/PropertiesHeap.v
theories/SmallProofs.v
theories/PropertiesSmall.v
theories/Murmur.v
theories/MurmurProofs.v
theories/Crowd.v
theories/PropertiesCrowd.v
theories/SpecPath.v
theories/PathProofs.v
theories/PropertiesPath.v
theories/SpecLocal.v
theories/LocalRun.v
theories/LocalProofs.v
theories/PropertiesLocal.v
theories/SpecOverwrite.v
theories/OverwriteProofs.v
theories/CutProofs.v
theories/PropertiesOverwrite.v
theories/PropertiesStore.v
theories/PropertiesDet.v
theories/SizesProofs.v
theories/SizesWitness.v
theories/PropertiesSizes.v
theories/SpecSizes.v
theories/ExactDir.v
theories/PropertiesSizesDir.v
theories/SpecSharing.v
theories/SharingProofs.v
theories/SharingWrites.v
theories/PropertiesSharing.v
theories/DirObj.v
theories/SpecDirObj.v
theories/DirObjProofs.v
theories/DirObjRun.v
theories/DirObjSize.v
theories/DirObjWitness.v
theories/PropertiesDirObj.v
theories/AppendSame.v
theories/AppendBegun.v
theories/PropertiesAppendSame.v
theories/SpecKind.v
theories/KindProofs.v
theories/PropertiesKind.v
theories/SpecSafe.v
theories/ReaderSafe.v
theories/SafeWitness.v
theories/PropertiesSafe.v
theories/SpecFormat.v
theories/FormatProofs.v
theories/PropertiesFormat.v
theories/SpecRoots.v
theories/RootsProofs.v
theories/RootsWitness.v
theories/PropertiesRoots.v
theories/SpecLimit.v
theories/LimitProofs.v
theories/PropertiesLimit.v
theories/SpecShare.v
theories/ShareProofs.v
theories/PropertiesShare.v
theories/SpecEdge.v
theories/EdgeProofs.v
theories/PropertiesEdge.v
theories/SpecRewrite.v
theories/RewriteProofs.v
theories/PropertiesRewrite.v
theories/ShortenProofs.v
theories/PropertiesShorten.v
theories/TraceProofs.v
theories/PropertiesTrace.v
theories/SpecLeak.v
theories/LeakProofs.v
theories/PropertiesLeak.v
theories/SpecHole.v
theories/HoleProofs.v
theories/PropertiesHole.v
theories/SpecPieces.v
theories/PiecesProofs.v
theories/FlushProofs.v
theories/PropertiesPieces.v
theories/OnwardProofs.v
theories/PropertiesOnward.v
theories/ChunksProofs.v
theories/PropertiesChunks.v
theories/OverEndProofs.v
theories/PropertiesOverEnd.v
theories/SpecEvolve.v
theories/EvolveProofs.v
theories/PropertiesEvolve.v
theories/PortionProofs.v
theories/PropertiesPortion.v
