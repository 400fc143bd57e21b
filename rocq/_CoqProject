-Q theories Verif
theories/Base.v
theories/Spec.v
theories/Guts.v
theories/Portable.v
theories/Intrinsics.v
theories/Avx2b.v
theories/Sse41s.v
theories/Simd.v
theories/Impl.v
theories/Sched.v
theories/Lib.v
theories/Many.v
theories/Par.v
theories/ByteLemmas.v
theories/KernelSpec.v
theories/LaneLemmas.v
theories/RowKernels.v
theories/Transposed.v
theories/Loops.v
theories/LaneLoops.v
theories/SchedProof.v
theories/StateProof.v
theories/ApiSpec.v
theories/ParamsProof.v
theories/FedProof.v
theories/ManyProof.v
theories/Stripe.v
theories/ParProof.v
theories/ParFed.v
theories/Machine.v
theories/Api.v
theories/HashProof.v
theories/ApiProof.v
theories/RoundInv.v
theories/Calls.v
theories/InjProof.v
theories/History.v
theories/Runs.v
theories/HistoryProof.v
theories/BatchProof.v
theories/Words.v
theories/Laws.v
theories/ParLaws.v
theories/Demo.v
theories/KernelLaws.v
theories/PropHash.v
theories/PropMany.v
theories/PropPar.v
theories/PropKernel.v
theories/Views.v
theories/MachineProof.v
theories/ApiLaws.v
theories/PropApi.v
theories/BinSpec.v
theories/Bin.v
theories/BinProof.v
theories/PropBin.v
theories/Unwind.v
theories/Crashes.v
theories/UnwindProof.v
theories/PropUnwind.v
theories/Usize.v
theories/UsizeProof.v
theories/PropUsize.v
theories/Collisions.v
theories/CollisionProof.v
theories/PropCollide.v
theories/Leak.v
theories/LeakSpec.v
theories/LeakErase.v
theories/LeakProof.v
theories/PropLeak.v
theories/Asm.v
theories/AsmProof.v
theories/AsmRows.v
theories/AsmLanes.v
theories/PropAsm.v
theories/WorkSpec.v
theories/WorkProof.v
theories/WorkSched.v
theories/WorkEven.v
theories/WorkLib.v
theories/WorkPar.v
theories/WorkApi.v
theories/WorkLaws.v
theories/PropWork.v
theories/OutSpec.v
theories/Out.v
theories/OutProof.v
theories/PropOut.v
theories/ThreadsSpec.v
theories/Threads.v
theories/ThreadsProof.v
theories/HandoverProof.v
theories/PropThreads.v
theories/XofSpec.v
theories/Xof.v
theories/XofProof.v
theories/PropXof.v
theories/TextSpec.v
theories/ArgsSpec.v
theories/Utf8.v
theories/Args.v
theories/Utf8Proof.v
theories/ArgsProof.v
theories/PropArgs.v
theories/Suite.v
theories/SuiteProof.v
theories/PropSuite.v
theories/Tool.v
theories/PropTool.v
theories/ReadSpec.v
theories/PropRead.v
theories/Targets.v
theories/PropTargets.v
theories/Bench.v
theories/BenchSpec.v
theories/BenchProof.v
theories/PropBench.v
theories/Runner.v
theories/PropRunner.v
theories/SnevesIntrinsics.v
theories/SnevesLoad.v
theories/Sneves.v
theories/SnevesRows.v
theories/SnevesWide.v
theories/SnevesCount.v
theories/SnevesLoop.v
theories/SnevesPar.v
theories/PropSneves.v
theories/BenchMain.v
theories/BenchMainSpec.v
theories/BenchMainProof.v
theories/PropBenchMain.v
theories/PropMessages.v
theories/PanicSpec.v
theories/Panics.v
theories/PropPanics.v
theories/Lazy.v
theories/LazySpec.v
theories/LazyProof.v
theories/Deeds.v
theories/LazyScript.v
theories/PropLazy.v
theories/TreeSpec.v
theories/Trees.v
theories/TreeProof.v
theories/PropTree.v
theories/BurstSpec.v
theories/LazyUnwind.v
theories/BurstProof.v
theories/PropBurst.v
theories/Units.v
theories/UnitsProof.v
theories/PropUnits.v
theories/Vectors.v
theories/VectorsProof.v
theories/PropVectors.v
theories/ExtendSpec.v
theories/ExtendProof.v
theories/PropExtend.v
theories/Inputs.v
theories/PaintProof.v
theories/InputsProof.v
theories/DrawProof.v
theories/PropInputs.v
theories/Docs.v
theories/DocsProof.v
theories/PropDocs.v
theories/WriterSpec.v
theories/Writers.v
theories/WriterProof.v
theories/PropWriters.v
theories/CasualtySpec.v
theories/CasualtyProof.v
theories/SplicedProof.v
theories/PropCasualty.v
theories/IntrinsicTests.v
theories/FloatTests.v
theories/Tests.v
