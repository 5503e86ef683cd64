-Q theories Verif

theories/Base.v
theories/Value.v
theories/Event.v
theories/EventSpec.v
theories/EventFacts.v
theories/Binary.v
theories/BinarySpec.v
theories/BinaryFacts.v
theories/BinaryFacts2.v
theories/Samples.v
theories/P_Event.v
theories/P_Binary.v
theories/Log.v
theories/LogSpec.v
theories/LogFacts.v
theories/LogFacts2.v
theories/P_Log.v
theories/Lexer.v
theories/TextParser.v
theories/Stream.v
theories/Buffer.v
theories/BufferSpec.v
theories/BufferFacts.v
theories/BufferFacts2.v
theories/P_Buffer.v
theories/Wp.v
theories/CostSpec.v
theories/TextTerm.v
theories/Cost.v
theories/TextSpec.v
theories/TextDoc.v
theories/TextFacts.v
theories/NumFacts.v
theories/P_Text.v
theories/Emit.v
theories/EmitSpec.v
theories/EmitFacts.v
theories/P_Emit.v
theories/Graph.v
theories/GraphSpec.v
theories/GraphFacts.v
theories/P_Graph.v
theories/TypesSpec.v
theories/TypesFacts.v
theories/FloatFacts.v
theories/RoundSpec.v
theories/RoundFacts.v
theories/P_Types.v
theories/PathParser.v
theories/PathTerm.v
theories/WpLong.v
theories/PathSpec.v
theories/LexSpec.v
theories/LexFacts.v
theories/PathFacts.v
theories/PathLimits.v
theories/P_Path.v
theories/Eval.v
theories/AccessSpec.v
theories/AccessFacts.v
theories/P_Access.v
theories/EvalSpec.v
theories/EvalFacts.v
theories/P_Eval.v
theories/P_Calc.v
theories/Template.v
theories/TemplateSpec.v
theories/TemplateFacts.v
theories/StaleFacts.v
theories/TemplateTerm.v
theories/TemplateProc.v
theories/P_Template.v
theories/Rpc.v
theories/RpcSpec.v
theories/RpcFacts.v
theories/CalmFacts.v
theories/P_Rpc.v
theories/P_RpcV1.v
theories/P_Calm.v
theories/Schema.v
theories/SchemaSpec.v
theories/SchemaFacts.v
theories/P_Schema.v
theories/Sort.v
theories/SortSpec.v
theories/SortFacts.v
theories/P_Sort.v
theories/Encoding.v
theories/JsonSpec.v
theories/JsonFacts.v
theories/P_Json.v
theories/Xml.v
theories/XmlSpec.v
theories/XmlFacts.v
theories/P_Xml.v
theories/Heap.v
theories/HeapSpec.v
theories/HeapFacts.v
theories/P_Heap.v
theories/Views.v
theories/ViewsSpec.v
theories/ViewsFacts.v
theories/P_Views.v
theories/P_Assign.v
theories/Func.v
theories/FuncSpec.v
theories/CallFacts.v
theories/SelSpec.v
theories/SelFacts.v
theories/P_Func.v
theories/Cmd.v
theories/CmdSpec.v
theories/CmdFacts.v
theories/P_Cmd.v
theories/P_Sel.v
theories/EpathSpec.v
theories/P_Epath.v
theories/IndexSpec.v
theories/P_Index.v
theories/P_Group.v
theories/P_Brace.v
theories/HeapEval.v
theories/Fuel.v
theories/Quiet.v
theories/QuietFacts.v
theories/P_Quiet.v
theories/HeapEvalFacts.v
theories/P_HeapEval.v
theories/HeapTemplate.v
theories/P_HeapTemplate.v
theories/Ends.v
theories/P_Ends.v
theories/PanicSpec.v
theories/Panics.v
theories/P_Panics.v
theories/P_TemplatePath.v
theories/P_Formats.v
theories/RefineSpec.v
theories/RefineFacts.v
theories/P_Refine.v
theories/Slices.v
theories/SlicesFacts.v
theories/P_Slices.v
theories/P_Lexer.v
theories/Runes.v
theories/RunesSpec.v
theories/P_Runes.v
theories/Getters.v
theories/P_Getters.v
theories/AssignNodes.v
theories/P_AssignNodes.v
theories/P_AssignText.v
theories/P_AssignPanics.v
theories/P_LoopPanics.v
theories/P_SetQuoted.v
theories/P_Distinct.v
theories/P_Typed.v
theories/P_Limit.v
theories/P_Outcome.v
theories/P_Safe.v
theories/P_Compose.v
theories/JamSpec.v
theories/Jam.v
theories/P_Jam.v
theories/P_JamTemplate.v
theories/EvalNil.v
theories/P_NoData.v
theories/P_TemplateHops.v
theories/TrailSpec.v
theories/P_Trail.v
theories/P_Within.v
theories/P_Cycle.v
theories/RestSpec.v
theories/P_Rest.v
theories/P_SetRet.v
theories/P_Twice.v
theories/P_Show.v
theories/P_SortOne.v
theories/P_Subst.v
theories/P_Delete.v
theories/P_Last.v
