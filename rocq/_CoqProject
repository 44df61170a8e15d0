-Q theories Verif
theories/Alloc.v
theories/AllocExamples.v
theories/AllocGet.v
theories/AllocInv.v
theories/AllocPages.v
theories/AllocProps.v
theories/AllocPut.v
theories/AllocSpec.v
theories/AllocTop.v
theories/Async.v
theories/AsyncProofs.v
theories/AsyncProps.v
theories/AsyncSig.v
theories/AsyncSpec.v
theories/Bag.v
theories/BagProofs.v
theories/BagProps.v
theories/BagSpec.v
theories/Base.v
theories/Base64.v
theories/Base64Proofs.v
theories/Base64Props.v
theories/Base64Run.v
theories/Base64Spec.v
theories/Bc.v
theories/BcJumps.v
theories/BcPeep.v
theories/BcProofs.v
theories/BcProps.v
theories/BcRun.v
theories/BcSpec.v
theories/BcSuper.v
theories/BcTables.v
theories/Become.v
theories/BecomeProofs.v
theories/BecomeProps.v
theories/BecomeSpec.v
theories/BitCount.v
theories/BitCountProofs.v
theories/BitCountProps.v
theories/CDict.v
theories/CDictClient.v
theories/CDictProofs.v
theories/CDictProps.v
theories/CDictSpec.v
theories/CIdentProofs.v
theories/CInt.v
theories/CIntProofs.v
theories/CIntProps.v
theories/CLayout.v
theories/CLayoutExamples.v
theories/CLayoutProofs.v
theories/CLayoutProps.v
theories/CLayoutSpec.v
theories/Comp.v
theories/CompCode.v
theories/CompExamples.v
theories/CompGen.v
theories/CompProps.v
theories/CompRun.v
theories/CompSafe.v
theories/CompSpec.v
theories/CompState.v
theories/CompTop.v
theories/CompWeak.v
theories/Dates.v
theories/DatesProofs.v
theories/DatesProps.v
theories/DatesSpec.v
theories/Digest.v
theories/DigestProofs.v
theories/DigestSpec.v
theories/Digits.v
theories/Exc.v
theories/ExcLang.v
theories/ExcProofs.v
theories/ExcProps.v
theories/ExcSim.v
theories/ExcSpec.v
theories/ExcTop.v
theories/FloatPrint.v
theories/FloatPrintExamples.v
theories/FloatPrintLoop.v
theories/FloatPrintProofs.v
theories/FloatPrintProps.v
theories/FloatPrintSpec.v
theories/FloatPrintText.v
theories/Fraction.v
theories/FractionOrder.v
theories/FractionProofs.v
theories/FractionProps.v
theories/FractionSpec.v
theories/Getopt.v
theories/GetoptBad.v
theories/GetoptProofs.v
theories/GetoptProps.v
theories/GetoptRun.v
theories/GetoptSpec.v
theories/Hashed.v
theories/HashedClient.v
theories/HashedLookup.v
theories/HashedOps.v
theories/HashedProofs.v
theories/HashedProps.v
theories/HashedSets.v
theories/HashedSpec.v
theories/Image.v
theories/ImageFindings.v
theories/ImageIO.v
theories/ImageLoad.v
theories/ImageProofs.v
theories/ImageProps.v
theories/ImageSpec.v
theories/Index.v
theories/IndexProofs.v
theories/IndexProps.v
theories/IndexSpec.v
theories/IntFactProofs.v
theories/IntMath.v
theories/IntMathLemmas.v
theories/IntMathProofs.v
theories/IntMathProps.v
theories/IntMathSpec.v
theories/IntPrint.v
theories/IntPrintProofs.v
theories/IntPrintSpec.v
theories/IntRep.v
theories/IntRepProofs.v
theories/Interval.v
theories/IntervalProofs.v
theories/IntervalProps.v
theories/IntervalSpec.v
theories/Lex.v
theories/LexProofs.v
theories/LexProps.v
theories/LexSpec.v
theories/LexText.v
theories/LexTextProofs.v
theories/LexTextSpec.v
theories/Linked.v
theories/LinkedProofs.v
theories/LinkedProps.v
theories/LinkedRun.v
theories/LinkedSpec.v
theories/Locks.v
theories/LocksFindings.v
theories/LocksProofs.v
theories/LocksProps.v
theories/LocksSpec.v
theories/MCache.v
theories/MCacheFindings.v
theories/MCacheProofs.v
theories/MCacheProps.v
theories/MCacheSpec.v
theories/Mapped.v
theories/MappedProofs.v
theories/MappedProps.v
theories/MappedSpec.v
theories/Mark.v
theories/MarkEph.v
theories/MarkFindings.v
theories/MarkMourn.v
theories/MarkProofs.v
theories/MarkProps.v
theories/MarkSpec.v
theories/Md5.v
theories/Md5Proofs.v
theories/Md5Props.v
theories/Moment.v
theories/MomentProofs.v
theories/MomentProps.v
theories/MomentSpec.v
theories/MomentText.v
theories/MomentTextProofs.v
theories/MomentTextProps.v
theories/MomentTextSpec.v
theories/Mpz.v
theories/MpzBits.v
theories/MpzFindings.v
theories/MpzGcd.v
theories/MpzOps.v
theories/MpzPrims.v
theories/MpzProofs.v
theories/MpzProps.v
theories/MpzSpec.v
theories/OopTab.v
theories/OopTabProofs.v
theories/OopTabProps.v
theories/OopTabRun.v
theories/OopTabSpec.v
theories/OrderColl.v
theories/OrderCollClient.v
theories/OrderCollProofs.v
theories/OrderCollProps.v
theories/OrderCollSpec.v
theories/Parse.v
theories/ParseComplete.v
theories/ParseEnds.v
theories/ParseMono.v
theories/ParseProps.v
theories/ParseSound.v
theories/ParseSpec.v
theories/ParseTop.v
theories/ParseTree.v
theories/Path.v
theories/PathProofs.v
theories/PathProps.v
theories/PathSpec.v
theories/Pipe.v
theories/PipeAll.v
theories/PipeAllProofs.v
theories/PipeAllProps.v
theories/PipeAllSpec.v
theories/PipeBuild.v
theories/PipeExamples.v
theories/PipeProofs.v
theories/PipeProps.v
theories/PipeRun.v
theories/PipeSpec.v
theories/Quoted.v
theories/QuotedProofs.v
theories/QuotedProps.v
theories/QuotedSpec.v
theories/Random.v
theories/RandomMore.v
theories/RandomProofs.v
theories/RandomProps.v
theories/RandomSpec.v
theories/RbBal.v
theories/RbErase.v
theories/RbHeap.v
theories/RbProofs.v
theories/RbProps.v
theories/RbRun.v
theories/RbSearch.v
theories/RbSpec.v
theories/RbTree.v
theories/RbUnlink.v
theories/Real.v
theories/RealApprox.v
theories/RealExamples.v
theories/RealProofs.v
theories/RealProps.v
theories/RealRound.v
theories/RealScan.v
theories/RealSpec.v
theories/RealTop.v
theories/RealWords.v
theories/Rect.v
theories/RectProofs.v
theories/RectProps.v
theories/RectSpec.v
theories/Replace.v
theories/ReplaceProofs.v
theories/ReplaceProps.v
theories/ReplaceSpec.v
theories/RunArr.v
theories/RunArrProofs.v
theories/RunArrProps.v
theories/RunArrRun.v
theories/RunArrSpec.v
theories/ScaledD.v
theories/ScaledDProofs.v
theories/ScaledDProps.v
theories/ScaledDSpec.v
theories/ScaledDText.v
theories/Scav.v
theories/ScavProofs.v
theories/ScavProps.v
theories/ScavSpec.v
theories/Sched.v
theories/SchedExec.v
theories/SchedFindings.v
theories/SchedHist.v
theories/SchedLists.v
theories/SchedOps.v
theories/SchedProofs.v
theories/SchedProps.v
theories/SchedSpec.v
theories/SeqOps.v
theories/SeqOpsAll.v
theories/SeqOpsCopy.v
theories/SeqOpsProofs.v
theories/SeqOpsProps.v
theories/SeqOpsSpec.v
theories/Sha1.v
theories/Sha1Proofs.v
theories/Sha1Props.v
theories/SharedQ.v
theories/SharedQLog.v
theories/SharedQProofs.v
theories/SharedQProps.v
theories/SharedQSpec.v
theories/SmallInt.v
theories/SmallIntProofs.v
theories/SmallIntProps.v
theories/SmallIntSpec.v
theories/SortColl.v
theories/SortCollArr.v
theories/SortCollFind.v
theories/SortCollFindings.v
theories/SortCollHeap.v
theories/SortCollMerge.v
theories/SortCollProofs.v
theories/SortCollProps.v
theories/SortCollSort.v
theories/SortCollSpec.v
theories/Strm.v
theories/StrmProofs.v
theories/StrmProps.v
theories/StrmRun.v
theories/StrmSearch.v
theories/StrmSearchProofs.v
theories/StrmSpec.v
theories/Sym.v
theories/SymProofs.v
theories/SymProps.v
theories/SymSpec.v
theories/Text.v
theories/TextOps.v
theories/TextProofs.v
theories/TextProps.v
theories/TextSpec.v
theories/Unwind.v
theories/UnwindLang.v
theories/UnwindProofs.v
theories/UnwindProps.v
theories/UnwindSim.v
theories/UnwindSpec.v
theories/UnwindTop.v
theories/Url.v
theories/UrlOps.v
theories/UrlProofs.v
theories/UrlProps.v
theories/UrlSpec.v
