-Q theories Verif
theories/AppliedProps.v
theories/AtofFloat.v
theories/AtofModel.v
theories/AtofProofs.v
theories/AtofProofs2.v
theories/AtofProofs3.v
theories/AtofProps.v
theories/Base.v
theories/BinModel.v
theories/BinProofs.v
theories/BinProofs2.v
theories/BinProps.v
theories/BufModel.v
theories/BufProofs.v
theories/BufProps.v
theories/BufSpec.v
theories/BuiltClose.v
theories/BuiltFloat.v
theories/BuiltLast.v
theories/BuiltModel.v
theories/BuiltProofs.v
theories/BuiltProps.v
theories/BuiltRuns.v
theories/BuiltSpec.v
theories/BuiltStr.v
theories/BuiltSum.v
theories/CallProps.v
theories/CodeModel.v
theories/CodeProofs.v
theories/CodeProps.v
theories/CompModel.v
theories/DelProofs.v
theories/DictProofs.v
theories/DictProofs2.v
theories/DictProofs3.v
theories/DictProofs4.v
theories/DictProofs5.v
theories/DictProps.v
theories/DictSpec.v
theories/DrawModel.v
theories/DrawProofs.v
theories/DrawProofs2.v
theories/DrawProofs3.v
theories/DrawProps.v
theories/DrawSpec.v
theories/EchoProps.v
theories/EvalMono.v
theories/EvalProofs.v
theories/EvalProofs2.v
theories/EvalProps.v
theories/EvalSpec.v
theories/EvalTame.v
theories/ExecModel.v
theories/FlashModel.v
theories/FlashProofs.v
theories/FlashProps.v
theories/FlashSpec.v
theories/FloatModel.v
theories/FormatProofs.v
theories/FrameCount.v
theories/FrameModel.v
theories/FrameProofs.v
theories/FuncProofs.v
theories/GcAlloc.v
theories/GcCheck.v
theories/GcChunks.v
theories/GcCode.v
theories/GcCodeSpec.v
theories/GcCollect.v
theories/GcHeapSpec.v
theories/GcLost.v
theories/GcMark.v
theories/GcMark2.v
theories/GcMark3.v
theories/GcMark4.v
theories/GcModel.v
theories/GcMove.v
theories/GcMove2.v
theories/GcMove3.v
theories/GcMoved.v
theories/GcPass.v
theories/GcPass2.v
theories/GcProofs.v
theories/GcProps.v
theories/GcSame.v
theories/GcSlide.v
theories/GcSpec.v
theories/GenProofs.v
theories/GenProofs2.v
theories/GramComplete.v
theories/GramEqs.v
theories/GramLast.v
theories/GramLex.v
theories/GramModel.v
theories/GramMono.v
theories/GramMore.v
theories/GramPairs.v
theories/GramProps.v
theories/GramSound.v
theories/GramSpec.v
theories/GramStmtSound.v
theories/GramStmtSpec.v
theories/GramStmts.v
theories/GramTotal.v
theories/GramTotal2.v
theories/GramWhole.v
theories/I2cModel.v
theories/I2cProofs.v
theories/I2cProps.v
theories/I2cSpec.v
theories/InterpProofs.v
theories/IoModel.v
theories/IoProofs.v
theories/IoProps.v
theories/IoSpec.v
theories/LayoutEqs.v
theories/LayoutProofs.v
theories/LayoutSpec.v
theories/LedModel.v
theories/LedProofs.v
theories/LedProofs2.v
theories/LedProps.v
theories/LedSpec.v
theories/LexModel.v
theories/LexProofs.v
theories/LexProofs2.v
theories/LexProofs3.v
theories/LexProofs4.v
theories/LexProofs5.v
theories/LexProofs6.v
theories/LexProofs7.v
theories/LexProofs8.v
theories/LexProofs9.v
theories/LexProps.v
theories/LexSpec.v
theories/ListModel.v
theories/ListProofs.v
theories/ListProofs2.v
theories/ListProofs3.v
theories/ListProps.v
theories/ListSpec.v
theories/LiteralProofs.v
theories/LoopProofs.v
theories/LoopProofs2.v
theories/LoopProps.v
theories/LoopSpec.v
theories/MachModel.v
theories/MachProofs.v
theories/MachSpec.v
theories/MathModel.v
theories/MathProofs.v
theories/MathProofs2.v
theories/MathProofs3.v
theories/MathProofs4.v
theories/MathProps.v
theories/MathSpec.v
theories/NameModel.v
theories/NameProofs.v
theories/NameProps.v
theories/NameSpec.v
theories/NvmModel.v
theories/NvmProofs.v
theories/NvmProofs2.v
theories/NvmProps.v
theories/NvmSpec.v
theories/OpProps.v
theories/OrderProofs.v
theories/OrderProofs2.v
theories/OrderProps.v
theories/OrderSpec.v
theories/PinFloat.v
theories/PinModel.v
theories/PinProofs.v
theories/PinProofs2.v
theories/PinProps.v
theories/PinSpec.v
theories/PolyModel.v
theories/PolyProofs.v
theories/PolyProps.v
theories/ProgModel.v
theories/ProgProofs.v
theories/ProgProps.v
theories/ProgSpec.v
theories/PromptModel.v
theories/PromptProofs.v
theories/PromptProofs2.v
theories/PromptProps.v
theories/PromptSpec.v
theories/RecModel.v
theories/RecProofs.v
theories/RecProofs2.v
theories/RecProofs3.v
theories/RecProofs4.v
theories/RecSpec.v
theories/RomModel.v
theories/RomProofs.v
theories/RomProps.v
theories/RomSpec.v
theories/ScopeProps.v
theories/SimProofs.v
theories/SizeProofs.v
theories/SliceModel.v
theories/SliceProofs.v
theories/SliceProps.v
theories/SliceSpec.v
theories/StepProofs.v
theories/StopProofs.v
theories/StopProps.v
theories/StopSpec.v
theories/StrModel.v
theories/StrProofs.v
theories/StrProofs2.v
theories/StrProps.v
theories/StrSpec.v
theories/SumExact.v
theories/SumFloat.v
theories/SumInt.v
theories/SumModel.v
theories/SumProofs.v
theories/SumProps.v
theories/SumRound.v
theories/Tac.v
theories/TameProofs.v
theories/TameProofs2.v
theories/TameSpec.v
theories/TextProofs.v
theories/TextProofs2.v
theories/TextProps.v
theories/TextSpec.v
theories/TimeFloat.v
theories/TimeModel.v
theories/TimeProofs.v
theories/TimeProofs2.v
theories/TimeProofs3.v
theories/TimeProps.v
theories/TimeSpec.v
theories/UartModel.v
theories/UartProofs.v
theories/UartProofs2.v
theories/UartProofs3.v
theories/UartProps.v
theories/UartSpec.v
theories/UpdateProofs.v
theories/ValueModel.v
theories/VarProofs.v
theories/VarSpec.v
