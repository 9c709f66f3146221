-Q theories Verif
theories/TrieModel.v
theories/TrieSpec.v
theories/TrieBits.v
theories/TrieMismatch.v
theories/TrieProofs.v
theories/TrieRefine.v
theories/TrieProperties.v
theories/ExprModel.v
theories/ExprSpec.v
theories/ExprProofs.v
theories/ExprProperties.v
theories/OptModel.v
theories/OptSpec.v
theories/OptEval.v
theories/OptSim.v
theories/OptPasses.v
theories/OptSimplify.v
theories/OptDomain.v
theories/OptTidy.v
theories/OptFlow.v
theories/OptFacts.v
theories/OptRounds.v
theories/OptRefute.v
theories/OptProperties.v
theories/TypoModel.v
theories/TypoSpec.v
theories/TypoProofs.v
theories/TypoProperties.v
theories/PathModel.v
theories/PathSpec.v
theories/PathProofs.v
theories/PathProperties.v
theories/SortModel.v
theories/SortSpec.v
theories/SortProofs.v
theories/SortProperties.v
theories/QuoteModel.v
theories/QuoteSpec.v
theories/QuoteProofs.v
theories/QuoteProperties.v
theories/BitModel.v
theories/BitSpec.v
theories/BitProofs.v
theories/BitProperties.v
theories/ModeModel.v
theories/ModeSpec.v
theories/ModeProofs.v
theories/ModeProperties.v
theories/TsModel.v
theories/TsSpec.v
theories/TsProofs.v
theories/TsProperties.v
theories/IoModel.v
theories/IoSpec.v
theories/IoProofs.v
theories/IoProperties.v
theories/PrintxModel.v
theories/PrintxSpec.v
theories/PrintxProofs.v
theories/PrintxProperties.v
theories/NumModel.v
theories/NumSpec.v
theories/NumProofs.v
theories/NumProperties.v
theories/TmModel.v
theories/TmSpec.v
theories/TmProofs.v
theories/TmLimits.v
theories/TmProperties.v
theories/AgeModel.v
theories/AgeSpec.v
theories/AgeProofs.v
theories/AgeProperties.v
theories/AllocModel.v
theories/AllocSpec.v
theories/AllocSizes.v
theories/AllocProofs.v
theories/AllocVarena.v
theories/AllocProperties.v
theories/DstrModel.v
theories/DstrSpec.v
theories/DstrProofs.v
theories/DstrProperties.v
theories/ListModel.v
theories/ListSpec.v
theories/ListProofs.v
theories/ListDoubly.v
theories/ListProperties.v
theories/SigModel.v
theories/SigSpec.v
theories/SigProofs.v
theories/SigProperties.v
theories/PwModel.v
theories/PwSpec.v
theories/PwProofs.v
theories/PwProperties.v
theories/WalkSpec.v
theories/CbModel.v
theories/CbSpec.v
theories/CbProofs.v
theories/CbDepth.v
theories/CbProperties.v
theories/ExecModel.v
theories/ExecSpec.v
theories/ExecProofs.v
theories/ExecRuns.v
theories/ExecDirs.v
theories/ExecProperties.v
theories/PermModel.v
theories/PermSpec.v
theories/PermProofs.v
theories/PermProperties.v
theories/FormatModel.v
theories/FormatSpec.v
theories/FormatProofs.v
theories/FormatProperties.v
theories/GramModel.v
theories/GramSpec.v
theories/GramPrims.v
theories/GramFlags.v
theories/GramSound.v
theories/GramComplete.v
theories/GramProofs.v
theories/GramProperties.v
theories/BftwModel.v
theories/BftwIo.v
theories/BftwQueue.v
theories/BftwPop.v
theories/BftwSpec.v
theories/BftwPath.v
theories/BftwHeap.v
theories/BftwFiles.v
theories/BftwGc.v
theories/BftwHist.v
theories/BftwSteps.v
theories/BftwEntry.v
theories/BftwMain.v
theories/BftwLoop.v
theories/BftwOrder.v
theories/BftwWalk.v
theories/BftwProofs.v
theories/BftwFacts.v
theories/BftwProperties.v
theories/DeepenModel.v
theories/DeepenLog.v
theories/DeepenRound.v
theories/DeepenProofs.v
theories/DeepenSpec.v
theories/DeepenPost.v
theories/DeepenFacts.v
theories/DeepenProperties.v
theories/CacheModel.v
theories/CacheSpec.v
theories/CacheLists.v
theories/CacheInv.v
theories/CachePrims.v
theories/CacheMoves.v
theories/CacheCalls.v
theories/CacheOpens.v
theories/CacheCloses.v
theories/CacheSteps.v
theories/CacheRuns.v
theories/CacheFacts.v
theories/CacheProperties.v
theories/IoqModel.v
theories/IoqWords.v
theories/IoqSpec.v
theories/IoqCount.v
theories/IoqNorm.v
theories/IoqInv.v
theories/IoqAcct.v
theories/IoqTick.v
theories/IoqStop.v
theories/IoqSleep.v
theories/IoqRun.v
theories/IoqQuiet.v
theories/IoqFacts.v
theories/IoqProperties.v
theories/StatModel.v
theories/StatSpec.v
theories/StatProofs.v
theories/StatLoops.v
theories/StatProperties.v
theories/ExtModel.v
theories/ExtSpec.v
theories/ExtTrie.v
theories/ExtProofs.v
theories/ExtRefuted.v
theories/ExtProperties.v
theories/ColModel.v
theories/ColSpec.v
theories/ColProofs.v
theories/ColProperties.v
theories/OutModel.v
theories/OutSpec.v
theories/OutProofs.v
theories/OutProperties.v
theories/DirModel.v
theories/DirSpec.v
theories/DirProofs.v
theories/DirProperties.v
theories/NameModel.v
theories/NameSpec.v
theories/NameProofs.v
theories/NameProperties.v
theories/MtabModel.v
theories/MtabSpec.v
theories/MtabProofs.v
theories/MtabProperties.v
theories/DelModel.v
theories/DelSpec.v
theories/DelProofs.v
theories/DelProperties.v
theories/SpawnModel.v
theories/SpawnSpec.v
theories/SpawnProofs.v
theories/SpawnProperties.v
theories/RegexModel.v
theories/RegexSpec.v
theories/RegexProofs.v
theories/RegexProperties.v
theories/RingModel.v
theories/RingSpec.v
theories/RingProofs.v
theories/RingProperties.v
theories/BarModel.v
theories/BarSpec.v
theories/BarProofs.v
theories/BarProperties.v
theories/DiagModel.v
theories/DiagSpec.v
theories/DiagProofs.v
theories/DiagProperties.v
theories/AssertModel.v
theories/AssertProofs.v
theories/AssertProperties.v
theories/SearchModel.v
theories/SearchSpec.v
theories/SearchProofs.v
theories/SearchProperties.v
theories/FdModel.v
theories/FdSpec.v
theories/FdProofs.v
theories/FdProperties.v
theories/MetaModel.v
theories/MetaSpec.v
theories/MetaProofs.v
theories/MetaProperties.v
theories/FilesModel.v
theories/FilesSpec.v
theories/FilesProofs.v
theories/FilesProperties.v
theories/RcuModel.v
theories/RcuSpec.v
theories/RcuProofs.v
theories/RcuRuns.v
theories/RcuFull.v
theories/RcuDemo.v
theories/RcuProperties.v
theories/AttrModel.v
theories/AttrSpec.v
theories/AttrProofs.v
theories/AttrProperties.v
theories/DayModel.v
theories/DaySpec.v
theories/DayProofs.v
theories/DayProperties.v
theories/StdModel.v
theories/StdSpec.v
theories/StdProofs.v
theories/StdProperties.v
theories/LsModel.v
theories/LsSpec.v
theories/LsProofs.v
theories/LsProperties.v
theories/FlsModel.v
theories/FlsSpec.v
theories/FlsProofs.v
theories/FlsProperties.v
theories/SetupModel.v
theories/SetupSpec.v
theories/SetupSteps.v
theories/SetupCalls.v
theories/SetupProofs.v
theories/SetupProperties.v
theories/FmtModel.v
theories/FmtSpec.v
theories/FmtProofs.v
theories/FmtProperties.v
theories/DumpModel.v
theories/DumpSpec.v
theories/DumpProofs.v
theories/DumpLine.v
theories/DumpRead.v
theories/DumpMeans.v
theories/DumpRefuted.v
theories/DumpProperties.v
theories/ArgmaxModel.v
theories/ArgmaxSpec.v
theories/ArgmaxProofs.v
theories/ArgmaxProperties.v
theories/StatxModel.v
theories/StatxSpec.v
theories/StatxProofs.v
theories/StatxProperties.v
theories/AskModel.v
theories/AskSpec.v
theories/AskProofs.v
theories/AskProperties.v
theories/SuggestModel.v
theories/SuggestSpec.v
theories/SuggestProofs.v
theories/SuggestProperties.v
theories/TtyModel.v
theories/TtySpec.v
theories/TtyProofs.v
theories/TtyProperties.v
theories/WarnSpec.v
theories/WarnModel.v
theories/WarnProofs.v
theories/WarnProperties.v
theories/DispSpec.v
theories/DispModel.v
theories/DispProofs.v
theories/DispProperties.v
theories/UniqSpec.v
theories/UniqModel.v
theories/UniqProofs.v
theories/UniqProperties.v
