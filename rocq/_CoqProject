-Q theories Verif
theories/Base.v
theories/Reader.v
theories/Format.v
theories/TypeInfo.v
theories/Cache.v
theories/Spec.v
theories/BaseFacts.v
theories/Bits.v
theories/Maps.v
theories/Safety.v
theories/Local.v
theories/Exact.v
theories/Errors.v
theories/Encode.v
theories/EncodeProof.v
theories/LoadProps.v
theories/LoadProps2.v
theories/Grow.v
theories/PathSpec.v
theories/Path.v
theories/PathGrammar.v
theories/PathPrint.v
theories/PathCanon.v
theories/QuerySpec.v
theories/Chains.v
theories/Sizes.v
theories/Follow.v
theories/Offsets.v
theories/Offsets2.v
theories/OffsetOf.v
theories/OffsetOf2.v
theories/Move.v
theories/Compose.v
theories/CacheProps.v
theories/Locks.v
theories/LocksProps.v
theories/LocksMore.v
theories/Checker.v
theories/Witness.v
theories/Sample.v
theories/Final.v
theories/Transport.v
theories/PropLoad.v
theories/PropLoad2.v
theories/PropPath.v
theories/PropQuery.v
theories/PropOffset.v
theories/PropCache.v
theories/RenumberSpec.v
theories/Renumber.v
theories/Rewrite.v
theories/PropMore.v
theories/PropSame.v
theories/Work.v
theories/PropWork.v
theories/BrokenSpec.v
theories/Explain.v
theories/PropError.v
theories/OutcomeSpec.v
theories/Outcome.v
theories/PropOutcome.v
theories/CostSpec.v
theories/Cost.v
theories/CostFacts.v
theories/PropCost.v
theories/Tools.v
theories/ToolsSpec.v
theories/ToolsFacts.v
theories/PropTools.v
theories/PropClosed.v
theories/Debug.v
theories/DebugSpec.v
theories/DisjointSpec.v
theories/DebugFacts.v
theories/DebugText.v
theories/Message.v
theories/MessageSpec.v
theories/MessageFacts.v
theories/MessagePath.v
theories/MessageOffset.v
theories/PropMessage.v
theories/Release32.v
theories/Small32.v
theories/PropRelease.v
theories/NarrowSpec.v
theories/Narrow.v
theories/PropNarrow.v
theories/MirrorSpec.v
theories/MirrorFacts.v
theories/PropMirror.v
theories/LoadMessage.v
theories/LoadMessageSpec.v
theories/LoadMessageFacts.v
theories/LoadMessageTrue.v
theories/LoadMessageOne.v
theories/LoadMessagePass.v
theories/PropLoadMessage.v
theories/PropDebug.v
theories/Depth.v
theories/DepthSpec.v
theories/DepthFacts.v
theories/PropDepth.v
theories/PropDisjoint.v
theories/PropTruncate.v
theories/PropGrowth.v
theories/MemorySpec.v
theories/Count.v
theories/PropMemory.v
theories/Failure.v
theories/FailureSpec.v
theories/FailureFacts.v
theories/PropFailure.v
theories/RelocateSpec.v
theories/RelocateFacts.v
theories/PropRelocate.v
theories/SearchSpec.v
theories/SearchFacts.v
theories/PropSearch.v
theories/BlindSpec.v
theories/BlindFacts.v
theories/PropBlind.v
theories/LoopSpec.v
theories/LoopFacts.v
theories/PropLoop.v
theories/FetchSpec.v
theories/FetchFacts.v
theories/PropFetch.v
theories/PrefixFacts.v
theories/PropPrefix.v
theories/LookSpec.v
theories/LookFacts.v
theories/PropLook.v
theories/CSpec.v
theories/CFacts.v
theories/PropC.v
theories/PropTag.v
theories/RealFile.v
theories/PropProgram.v
theories/Taken.v
theories/PropPointer.v
theories/PropCheap.v
theories/MergeSpec.v
theories/PropMerge.v
theories/CopySpec.v
theories/Copies.v
theories/CopyFacts.v
theories/PropCopy.v
theories/Pretty.v
theories/PrettySpec.v
theories/PrettyFacts.v
theories/PrettyText.v
theories/PropPretty.v
theories/TraceSpec.v
theories/Trace.v
theories/TraceFacts.v
theories/PropTrace.v
theories/PropWrap.v
theories/WidthFacts.v
theories/PropWidth.v
theories/KernelSpec.v
theories/KernelFacts.v
theories/KernelCheck.v
theories/KernelTypes.v
theories/KernelCheck2.v
theories/PropKernel.v
theories/EvolveSpec.v
theories/PropEvolve.v
theories/Pread.v
theories/PreadSpec.v
theories/PropPread.v
theories/WalkSpec.v
theories/PropWalk.v
theories/PropWidths.v
theories/PropWidths2.v
theories/PropWidths3.v
theories/LocalSame.v
theories/PropBuilds.v
theories/LoadMessageLocal.v
theories/PropWidths4.v
theories/PropWidths5.v
theories/PropWidths6.v
theories/RepoTests.v
