-Q theories Verif
theories/Base.v
theories/DiffModel.v
theories/DiffSpec.v
theories/DiffProofs.v
theories/LcsProofs.v
theories/P_Diff.v
theories/GlobModel.v
theories/GlobSpec.v
theories/GlobProofs.v
theories/P_Glob.v
theories/ListModel.v
theories/ListSpec.v
theories/ListProofs.v
theories/P_List.v
theories/LibcModel.v
theories/LibcSpec.v
theories/LibcProofs.v
theories/P_Libc.v
theories/SharedPtrModel.v
theories/SharedPtrSpec.v
theories/SharedPtrProofs.v
theories/P_SharedPtr.v
theories/PieceModel.v
theories/PieceSpec.v
theories/PieceProofs.v
theories/P_Piece.v
theories/MemModel.v
theories/MemSpec.v
theories/MemProofs.v
theories/MemProofs2.v
theories/MemProofs3.v
theories/MemExamples.v
theories/P_Mem.v
theories/StubModel.v
theories/StubSpec.v
theories/StubProofs.v
theories/StubProofs2.v
theories/StubExamples.v
theories/P_Stub.v
theories/MockModel.v
theories/MockSpec.v
theories/MockProofs.v
theories/MockProofs2.v
theories/MockProofs3.v
theories/P_Mock.v
theories/RunnerModel.v
theories/RunnerSpec.v
theories/RunnerProofs.v
theories/P_Runner.v
theories/FilterModel.v
theories/FilterSpec.v
theories/FilterProofs.v
theories/P_Filter.v
theories/OrderModel.v
theories/OrderSpec.v
theories/OrderProofs.v
theories/OrderProofs2.v
theories/OrderProofs3.v
theories/RunnerProofs2.v
theories/P_Order.v
theories/ScopeModel.v
theories/ScopeSpec.v
theories/ScopeProofs.v
theories/ScopeProofs2.v
theories/P_Scope.v
theories/CaseModel.v
theories/CaseSpec.v
theories/CaseProofs.v
theories/P_Case.v
theories/FailModel.v
theories/MatcherModel.v
theories/MatcherSpec.v
theories/MatcherProofs.v
theories/FailSpec.v
theories/FailProofs.v
theories/P_Fail.v
theories/MatcherProofs2.v
theories/MatcherProofs3.v
theories/P_Matcher.v
theories/MemcmpModel.v
theories/MemcmpSpec.v
theories/MemcmpProofs.v
theories/MemcmpProofs2.v
theories/P_Memcmp.v
theories/StrModel.v
theories/StrSpec.v
theories/StrProofs.v
theories/StrProofs2.v
theories/P_Str.v
theories/LineModel.v
theories/LineSpec.v
theories/LineProofs.v
theories/LineProofs2.v
theories/P_Line.v
theories/ColorModel.v
theories/ColorSpec.v
theories/ColorProofs.v
theories/P_Color.v
theories/OptionModel.v
theories/OptionSpec.v
theories/OptionProofs.v
theories/OptionProofs2.v
theories/P_Option.v
theories/ExprModel.v
theories/ExprSpec.v
theories/ExprProofs.v
theories/ExprProofs2.v
theories/P_Expr.v
theories/JsonModel.v
theories/JsonSpec.v
theories/JsonProofs.v
theories/JsonProofs2.v
theories/JsonProofs3.v
theories/JsonProofs4.v
theories/P_Json.v
theories/PrintModel.v
theories/PrintSpec.v
theories/PrintProofs.v
theories/DualProofs.v
theories/DualProofs2.v
theories/P_Print.v
theories/DnsModel.v
theories/DnsSpec.v
theories/DnsProofs.v
theories/P_Dns.v
theories/SockModel.v
theories/SockSpec.v
theories/SockProofs.v
theories/P_Sock.v
theories/StdioModel.v
theories/StdioSpec.v
theories/StdioProofs.v
theories/P_Stdio.v
theories/NumModel.v
theories/NumSpec.v
theories/NumProofs.v
theories/P_Num.v
theories/TextModel.v
theories/TextSpec.v
theories/TextProofs.v
theories/P_Text.v
theories/OptionProofs3.v
theories/JunitModel.v
theories/XmlSpec.v
theories/JunitSpec.v
theories/JunitProofs.v
theories/JunitProofs2.v
theories/P_Junit.v
theories/JsonProofs5.v
theories/StdioProofs2.v
theories/SockProofs2.v
theories/DualProofs3.v
theories/ListingModel.v
theories/ListingSpec.v
theories/ListingProofs.v
theories/P_Listing.v
theories/ConsoleModel.v
theories/ConsoleSpec.v
theories/ConsoleProofs.v
theories/ConsoleProofs2.v
theories/ConsoleProofs3.v
theories/P_Console.v
theories/DumpModel.v
theories/DumpSpec.v
theories/DumpProofs.v
theories/DumpProofs2.v
theories/DumpProofs3.v
theories/P_Dump.v
theories/StrdiffModel.v
theories/StrdiffSpec.v
theories/StrdiffProofs.v
theories/P_Strdiff.v
theories/SplitModel.v
theories/SplitSpec.v
theories/SplitProofs.v
theories/P_Split.v
theories/MessageModel.v
theories/MessageSpec.v
theories/MessageProofs.v
theories/MessageProofs2.v
theories/P_Message.v
theories/BlockModel.v
theories/BlockSpec.v
theories/BlockProofs.v
theories/BlockProofs2.v
theories/P_Block.v
theories/NmModel.v
theories/NmSpec.v
theories/NmProofs.v
theories/NmProofs2.v
theories/P_Nm.v
theories/MemrepModel.v
theories/MemrepSpec.v
theories/MemrepProofs.v
theories/MemrepProofs2.v
theories/P_Memrep.v
theories/TraceModel.v
theories/TraceSpec.v
theories/TraceProofs.v
theories/TraceProofs2.v
theories/TraceProofs3.v
theories/P_Trace.v
theories/ValueModel.v
theories/ValueSpec.v
theories/ValueProofs.v
theories/ValueProofs2.v
theories/P_Value.v
theories/ExpectModel.v
theories/ExpectSpec.v
theories/ExpectProofs.v
theories/ExpectProofs2.v
theories/ExpectProofs3.v
theories/P_Expect.v
theories/HookModel.v
theories/HookSpec.v
theories/HookProofs.v
theories/HookProofs2.v
theories/HookProofs3.v
theories/P_Hook.v
theories/CatchModel.v
theories/CatchSpec.v
theories/CatchProofs.v
theories/P_Catch.v
theories/MacroModel.v
theories/MacroSpec.v
theories/MacroProofs.v
theories/MacroProofs2.v
theories/MacroProofs3.v
theories/MacroProofs4.v
theories/MacroProofs5.v
theories/MacroProofs6.v
theories/MacroProofs7.v
theories/MacroProofs8.v
theories/MacroProofs9.v
theories/MacroProofs10.v
theories/MacroProofs11.v
theories/MacroProofs12.v
theories/MacroProofs13.v
theories/MacroProofs14.v
theories/MacroProofs15.v
theories/MacroProofs16.v
theories/P_Macro.v
theories/SuiteModel.v
theories/SuiteSpec.v
theories/SuiteProofs.v
theories/SuiteProofs2.v
theories/P_Suite.v
theories/PasteModel.v
theories/PasteSpec.v
theories/PasteProofs.v
theories/PasteProofs2.v
theories/P_Paste.v
theories/MockmsgModel.v
theories/MockmsgSpec.v
theories/MockmsgProofs.v
theories/MockmsgProofs2.v
theories/P_Mockmsg.v
theories/ArmModel.v
theories/ArmSpec.v
theories/ArmProofs.v
theories/ArmProofs2.v
theories/ArmExamples.v
theories/P_Arm.v
theories/PacketModel.v
theories/PacketSpec.v
theories/PacketProofs.v
theories/P_Packet.v
theories/TimerModel.v
theories/TimerSpec.v
theories/TimerProofs.v
theories/P_Timer.v
theories/WholeModel.v
theories/WholeSpec.v
theories/WholeProofs.v
theories/WholeProofs2.v
theories/P_Whole.v
theories/HelperModel.v
theories/HelperSpec.v
theories/HelperProofs.v
theories/P_Helper.v
theories/NamedModel.v
theories/NamedSpec.v
theories/NamedProofs.v
theories/P_Named.v
theories/CoutModel.v
theories/CoutSpec.v
theories/CoutProofs.v
theories/P_Cout.v
theories/SimilarModel.v
theories/SimilarSpec.v
theories/SimilarProofs.v
theories/SimilarProofs2.v
theories/P_Similar.v
theories/JeModel.v
theories/JeSpec.v
theories/JeProofs.v
theories/P_Je.v
theories/ExpectProofs4.v
theories/IportModel.v
theories/IportSpec.v
theories/IportProofs.v
theories/IportProofs2.v
theories/IportProofs3.v
theories/P_Iport.v
theories/DumpProofs4.v
theories/ProjModel.v
theories/ProjSpec.v
theories/ProjProofs.v
theories/P_Proj.v
theories/MacroSpec2.v
theories/MacroProofs17.v
theories/MacroProofs18.v
theories/MacroSpec3.v
theories/MacroProofs19.v
theories/MacroProofs20.v
theories/MacroProofs21.v
theories/P_Macro2.v
theories/MacroSpec4.v
theories/MacroProofs22.v
theories/MacroProofs23.v
theories/MacroProofs24.v
theories/P_Macro3.v
theories/MacroSpec5.v
theories/MacroProofs25.v
theories/MacroProofs26.v
theories/MacroProofs27.v
theories/P_Macro4.v
theories/MockcallModel.v
theories/MockcallSpec.v
theories/MockcallProofs.v
theories/MockcallProofs2.v
theories/P_Mockcall.v
theories/ClockModel.v
theories/ClockSpec.v
theories/ClockProofs.v
theories/P_Clock.v
theories/CondModel.v
theories/CondSpec.v
theories/CondProofs.v
theories/CondProofs2.v
theories/P_Cond.v
theories/UsageModel.v
theories/UsageSpec.v
theories/UsageProofs.v
theories/UsageProofs2.v
theories/P_Usage.v
theories/OrderSpec2.v
theories/OrderProofs4.v
theories/OptionSpec2.v
theories/OptionProofs4.v
theories/IportProofs4.v
theories/MatcherSpec2.v
theories/MatcherProofs4.v
theories/PacketProofs2.v
theories/P_Told.v
theories/MatcherSpec3.v
theories/MatcherProofs5.v
theories/MockSpec2.v
theories/MockProofs4.v
theories/ExprSpec2.v
theories/ExprProofs3.v
theories/PrintSpec2.v
theories/PrintProofs2.v
theories/P_Best.v
