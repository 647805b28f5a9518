-Q theories Verif
theories/Base.v
theories/PagedStackModel.v
theories/PagedStackSpec.v
theories/PagedStackExec.v
theories/ListFacts.v
theories/PagedStackProofs.v
theories/PagedStackIter.v
theories/PagedStackMore.v
theories/PagedStackFrame.v
theories/PagedStackBlocks.v
theories/PagedStackSyncSpec.v
theories/PagedStackCopy.v
theories/PagedStackMisc.v
theories/PagedStackSync.v
theories/PagedStackSyncCopySpec.v
theories/PagedStackSyncCopy.v
theories/PagedStackSyncProps.v
theories/PagedStackValueModel.v
theories/PagedStackValueSpec.v
theories/PagedStackValue.v
theories/PagedStackValueProps.v
theories/PagedStackSafeSpec.v
theories/PagedStackSafe.v
theories/PagedStackSafeProps.v
theories/PagedStackMarkSpec.v
theories/PagedStackMark.v
theories/PagedStackMarkProps.v
theories/FutexModel.v
theories/FutexSpec.v
theories/FutexProofs.v
theories/FutexMore.v
theories/FutexProps.v
theories/FutexFairSpec.v
theories/FutexFair.v
theories/FutexFairProps.v
theories/FutexMemSpec.v
theories/FutexMemModel.v
theories/FutexMem.v
theories/FutexMemProps.v
theories/PagedStackThreadsSpec.v
theories/PagedStackThreads.v
theories/PagedStackTests.v
theories/RepoTests.v
theories/PagedStackThrowSpec.v
theories/PagedStackThrowModel.v
theories/PagedStackThrow.v
theories/PagedStackThrowProps.v
theories/PagedStackProps.v
theories/PagedStackThreadsProps.v
theories/PagedStackSyncThreadsSpec.v
theories/PagedStackSyncThreads.v
theories/PagedStackSyncThreadsProps.v
theories/PagedStackAssertModel.v
theories/PagedStackAssertSpec.v
theories/PagedStackAssert.v
theories/PagedStackAssertProps.v
theories/PagedStackSyncIdealSpec.v
theories/PagedStackSyncIdeal.v
theories/PagedStackSyncIdealProps.v
theories/TextModel.v
theories/StreamModel.v
theories/LogModel.v
theories/LogSpec.v
theories/LogProofs.v
theories/LogOrder.v
theories/LogCount.v
theories/LogStop.v
theories/LogLive.v
theories/LogFair.v
theories/LogFilter.v
theories/LogSettings.v
theories/LogDiag.v
theories/LogAccess.v
theories/LogRace.v
theories/LogEndModel.v
theories/LogEnd.v
theories/LogEndProps.v
theories/LogOut.v
theories/LogProps.v
theories/LogLockModel.v
theories/LogLockSpec.v
theories/LogLock.v
theories/LogLockRun.v
theories/LogLockFair.v
theories/LogLockProps.v
theories/LogOutProps.v
theories/LoggerModel.v
theories/LoggerSpec.v
theories/LoggerFmtSpec.v
theories/LoggerProofs.v
theories/LoggerFilter.v
theories/LoggerFmt.v
theories/LoggerFmtProps.v
theories/FutFmtModel.v
theories/FutFmtSpec.v
theories/FutFmt.v
theories/FutFmtProps.v
theories/LoggerThrowSpec.v
theories/LoggerThrow.v
theories/LoggerThrowProps.v
theories/LoggerProps.v
theories/LoggerMemModel.v
theories/LoggerMemSpec.v
theories/LoggerMem.v
theories/LoggerMemProps.v
theories/TextSpec.v
theories/TextFacts.v
theories/LogStreamModel.v
theories/LogStreamSpec.v
theories/LogStreamProofs.v
theories/LogStreamProps.v
theories/LogFmt.v
theories/LogFmtProps.v
theories/WholeModel.v
theories/WholeSpec.v
theories/WholeProofs.v
theories/WholeFair.v
theories/WholeProps.v
theories/CodeModel.v
theories/CodeSpec.v
theories/CodeProofs.v
theories/CodeProps.v
theories/ItemModel.v
theories/ItemSpec.v
theories/ItemProofs.v
theories/ItemProps.v
theories/AtomicModel.v
theories/AtomicSpec.v
theories/AtomicProofs.v
theories/AtomicProps.v
theories/MiscModel.v
theories/MiscSpec.v
theories/MiscProofs.v
theories/MiscProps.v
theories/FutModel.v
theories/FutSpec.v
theories/FutProofs.v
theories/FutRun.v
theories/FutQuiet.v
theories/FutMore.v
theories/FutArgs.v
theories/FutClose.v
theories/FutFloat.v
theories/FutXml.v
theories/FutConsoleSpec.v
theories/FutConsole.v
theories/FutReportSpec.v
theories/FutReport.v
theories/FutMacroModel.v
theories/FutMacroSpec.v
theories/FutMacro.v
theories/FutTimesSpec.v
theories/FutTimes.v
theories/FutConsoleProps.v
theories/FutHelpSpec.v
theories/FutHelp.v
theories/FutHelpProps.v
theories/FutTimesProps.v
theories/FutProps.v
theories/ListenerModel.v
theories/ListenerSpec.v
theories/ListenerProofs.v
theories/ListenerProps.v
theories/MarkTimeModel.v
theories/MarkTimeSpec.v
theories/MarkTimeProofs.v
theories/MarkTimeProps.v
theories/LinesModel.v
theories/LinesSpec.v
theories/LinesProofs.v
theories/LinesProps.v
theories/LogMemModel.v
theories/LogMemSpec.v
theories/LogMem.v
theories/LogMemProps.v
