-Q theories Verif
theories/Base.v
theories/Spec.v
theories/Consts.v
theories/Intrinsics.v
theories/Portable.v
theories/Params.v
theories/Sse41.v
theories/Avx2.v
theories/State.v
theories/Many.v
theories/Blake2sp.v
theories/Views.v
theories/Debug.v
theories/ParamsSpec.v
theories/Machine.v
theories/MachineSpec.v
theories/Clients.v
theories/Terms.v
theories/TestCode.v
theories/TestSuite.v
theories/TestRun.v
theories/Vectors.v
theories/Traced.v
theories/TraceTerms.v
theories/Benches.v
theories/BaseFacts.v
theories/PortableFacts.v
theories/ScalarRound.v
theories/Avx2Facts.v
theories/Sse41Facts.v
theories/SpecFacts.v
theories/StateFacts.v
theories/ParamsFacts.v
theories/Refine.v
theories/HashFacts.v
theories/ManyFacts.v
theories/Hash8Facts.v
theories/ExactFacts.v
theories/LeafFacts.v
theories/SpFacts.v
theories/MachineFacts.v
theories/Relate.v
theories/Safety.v
theories/Behave.v
theories/Collision.v
theories/Witness.v
theories/Corollaries.v
theories/Features.v
theories/NoLeak.v
theories/SpShape.v
theories/SpLate.v
theories/SpDump.v
theories/Robust.v
theories/TestFacts.v
theories/TestSuiteFacts.v
theories/TestRunFacts.v
theories/TestInputs.v
theories/TracedFacts.v
theories/Oblivious.v
theories/Truthful.v
theories/Calls.v
theories/SpCalls.v
theories/Bounds.v
theories/PortableOnly.v
theories/BenchFacts.v
theories/Mixing.v
theories/PropsCompression.v
theories/PropsParams.v
theories/PropsHash.v
theories/PropsMany.v
theories/PropsSp.v
theories/PropsText.v
theories/PropsPrograms.v
theories/PropsCollision.v
theories/PropsSecrecy.v
theories/PropsTrace.v
theories/PropsCalls.v
theories/PropsBounds.v
theories/PropsPortable.v
theories/PropsBenches.v
theories/Reference.v
theories/ReferenceFacts.v
theories/ReferenceUse.v
theories/PropsReference.v
theories/IntelOps.v
theories/IntelViews.v
theories/IntelFacts.v
theories/PropsIntel.v
theories/PropsMixing.v
theories/PropsTests.v
theories/VectorTests.v
theories/VectorFacts.v
theories/PropsVectors.v
theories/ManyCalls.v
theories/PropsWide.v
theories/Separation.v
theories/PropsSeparation.v
theories/Memory.v
theories/MemoryFacts.v
theories/MemoryNeeds.v
theories/MemoryUse.v
theories/PropsMemory.v
theories/Inside.v
theories/InsideFacts.v
theories/PropsInside.v
theories/Timing.v
theories/TimingFacts.v
theories/PropsTiming.v
theories/SpOverflow.v
theories/SpLimits.v
theories/PropsLimits.v
theories/Addresses.v
theories/AddressFacts.v
theories/AddressUse.v
theories/PropsAddresses.v
theories/Borrows.v
theories/BorrowFacts.v
theories/BorrowExact.v
theories/PropsBorrows.v
theories/Trees.v
theories/TreeFacts.v
theories/TreeUse.v
theories/PropsTrees.v
theories/WrongTerms.v
theories/WrongFacts.v
theories/PropsWrong.v
theories/Unwind.v
theories/UnwindFacts.v
theories/UnwindUse.v
theories/UnwindTyped.v
theories/UnwindSp.v
theories/UnwindMany.v
theories/PropsUnwind.v
theories/ResumeTerms.v
theories/Resume.v
theories/ResumeMany.v
theories/SpResume.v
theories/UnwindLevels.v
theories/SpLevels.v
theories/PropsResume.v
theories/PropsSpResume.v
