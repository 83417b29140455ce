-Q theories Verif
theories/Adt.v
theories/AdtNumProofs.v
theories/AdtNumProofs2.v
theories/AdtNumProofs3.v
theories/AdtNumProofs4.v
theories/AdtNumProofs5.v
theories/AdtNumSpec.v
theories/AdtProofs.v
theories/AdtProofs2.v
theories/AdtProofs3.v
theories/AdtProofs4.v
theories/AdtProofs5.v
theories/AdtProofs6.v
theories/AdtProofs7.v
theories/AdtProofs8.v
theories/AdtProofs9.v
theories/AdtSpec.v
theories/Alloc.v
theories/AllocProofs.v
theories/AllocProofs2.v
theories/AllocProofs3.v
theories/AllocSpec.v
theories/Angle.v
theories/Array.v
theories/ArrayProofs.v
theories/ArrayProofs2.v
theories/ArraySpec.v
theories/Atomic.v
theories/AtomicProofs.v
theories/AtomicSpec.v
theories/Base.v
theories/Base64.v
theories/Base64Proofs.v
theories/Base64Spec.v
theories/Bits.v
theories/BitsProofs.v
theories/BitsSpec.v
theories/Box.v
theories/CStr.v
theories/CStrProofs.v
theories/CStrProofs2.v
theories/CStrSpec.v
theories/Clock.v
theories/ClockProofs.v
theories/Csv.v
theories/CsvProofs.v
theories/CsvProofs2.v
theories/CsvSpec.v
theories/DList.v
theories/DListSpec.v
theories/Env.v
theories/FStream.v
theories/FStreamProofs.v
theories/FStreamSpec.v
theories/FileLife.v
theories/Float.v
theories/FloatFun.v
theories/FloatFunProofs.v
theories/FloatProofs.v
theories/FloatProofs2.v
theories/FloatProofs3.v
theories/FloatProofs4.v
theories/FloatSpec.v
theories/FmtStr.v
theories/FullName.v
theories/FullNameSpec.v
theories/Geom.v
theories/GeomSpec.v
theories/Half.v
theories/HalfProofs.v
theories/HalfProofs2.v
theories/HalfSpec.v
theories/Hash.v
theories/HashProofs.v
theories/HashProofs2.v
theories/HashSpec.v
theories/Hashtable.v
theories/HashtableProofs.v
theories/HashtableProofs2.v
theories/HashtableProofs3.v
theories/HashtableSpec.v
theories/HeapStats.v
theories/HeapStatsProofs.v
theories/Jobs.v
theories/JobsProofs.v
theories/JobsProofs2.v
theories/JobsProofs3.v
theories/JobsProofs4.v
theories/JobsSpec.v
theories/Json.v
theories/JsonProofs.v
theories/JsonProofs2.v
theories/JsonProofs3.v
theories/JsonProofs4.v
theories/JsonProofs5.v
theories/JsonProofs6.v
theories/JsonSpec.v
theories/Lock.v
theories/LockProofs.v
theories/LockSpec.v
theories/Mem.v
theories/MemProofs.v
theories/MemProofs2.v
theories/MemProofs3.v
theories/MemSpec.v
theories/Nested.v
theories/NestedProofs.v
theories/NestedSpec.v
theories/Node.v
theories/NodeProofs.v
theories/Num.v
theories/NumProofs.v
theories/NumSpec.v
theories/Opts.v
theories/OptsProofs.v
theories/OptsProofs2.v
theories/OptsProofs3.v
theories/OptsSpec.v
theories/Path.v
theories/PathProofs.v
theories/PathProofs2.v
theories/PathSpec.v
theories/Plane.v
theories/Posix.v
theories/PosixProofs.v
theories/PosixSpec.v
theories/Print.v
theories/PrintFSpec.v
theories/PrintProofs.v
theories/PrintProofs2.v
theories/PrintProofs3.v
theories/PrintProofs4.v
theories/PrintSpec.v
theories/PropAdt.v
theories/PropAdtNum.v
theories/PropAlloc.v
theories/PropAngle.v
theories/PropArray.v
theories/PropAtomic.v
theories/PropBase64.v
theories/PropBits.v
theories/PropBox.v
theories/PropCStr.v
theories/PropClock.v
theories/PropCsv.v
theories/PropCsv2.v
theories/PropDList.v
theories/PropEnv.v
theories/PropFStream.v
theories/PropFastExp.v
theories/PropFileLife.v
theories/PropFloat.v
theories/PropFloatFun.v
theories/PropFmtStr.v
theories/PropFullName.v
theories/PropGeom.v
theories/PropGeom2.v
theories/PropHalf.v
theories/PropHash.v
theories/PropHashtable.v
theories/PropHeapStats.v
theories/PropJobs.v
theories/PropJobs2.v
theories/PropJson.v
theories/PropJson2.v
theories/PropLock.v
theories/PropMatrix.v
theories/PropMem.v
theories/PropNested.v
theories/PropNum.v
theories/PropOpts.v
theories/PropPath.v
theories/PropPlane.v
theories/PropPosix.v
theories/PropPrint.v
theories/PropPrint2.v
theories/PropPrintF.v
theories/PropQuake.v
theories/PropQuat.v
theories/PropQuery.v
theories/PropRandom.v
theories/PropRandomF.v
theories/PropRegex.v
theories/PropRegex2.v
theories/PropRing.v
theories/PropRmdir.v
theories/PropRot.v
theories/PropSelect.v
theories/PropSingleFun.v
theories/PropSlerp.v
theories/PropSlerp2.v
theories/PropSocket.v
theories/PropSoftMath.v
theories/PropSort.v
theories/PropSpinLock.v
theories/PropStrLib.v
theories/PropSync.v
theories/PropTar.v
theories/PropTar2.v
theories/PropTarDir.v
theories/PropThread.v
theories/PropUri.v
theories/PropUtf8.v
theories/PropView.v
theories/PropVm.v
theories/PropWriteStr.v
theories/QuakeProofs.v
theories/Query.v
theories/QueryProofs.v
theories/QuerySpec.v
theories/Random.v
theories/Regex.v
theories/RegexProofs.v
theories/RegexProofs2.v
theories/RegexProofs3.v
theories/RegexProofs4.v
theories/RegexProofs5.v
theories/RegexProofs6.v
theories/RegexProofs7.v
theories/RegexProofs8.v
theories/RegexProofs9.v
theories/RegexSpec.v
theories/Ring.v
theories/RingProofs.v
theories/RingSpec.v
theories/Rmdir.v
theories/RmdirProofs.v
theories/RmdirSpec.v
theories/Rot.v
theories/RotProofs.v
theories/RotSpec.v
theories/Select.v
theories/SelectProofs.v
theories/Single.v
theories/SingleFun.v
theories/SingleFunProofs.v
theories/SingleProofs.v
theories/Socket.v
theories/SocketProofs.v
theories/SocketSpec.v
theories/SoftExpProofs.v
theories/SoftMath.v
theories/SoftMathPoly.v
theories/SoftMathProofs.v
theories/Sort.v
theories/SortProofs.v
theories/SortProofs2.v
theories/SortProofs3.v
theories/SortSpec.v
theories/SpinLock.v
theories/StrLib.v
theories/StrLibProofs.v
theories/StrLibSpec.v
theories/Sync.v
theories/SyncProofs.v
theories/SyncProofs2.v
theories/SyncSpec.v
theories/Tar.v
theories/TarDir.v
theories/TarProofs.v
theories/TarProofs2.v
theories/TarProofs3.v
theories/TarSpec.v
theories/Thread.v
theories/ThreadProofs.v
theories/ThreadSpec.v
theories/Uri.v
theories/UriProofs.v
theories/UriSpec.v
theories/Utf8.v
theories/Utf8Proofs.v
theories/Utf8Proofs2.v
theories/Utf8Spec.v
theories/Vec.v
theories/VecProofs.v
theories/VecSpec.v
theories/Vm.v
theories/VmSpec.v
theories/Witness.v
theories/WriteStr.v
