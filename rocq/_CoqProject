-Q theories Verif
theories/Base.v
theories/MaybeByteM.v
theories/Utf8M.v
theories/InputM.v
theories/StackStateM.v
theories/LexStateM.v
theories/ScopesM.v
theories/TokensM.v
theories/ReservedM.v
theories/DiagnosticM.v
theories/BufferM.v
theories/LexerM.v
theories/LexNumericM.v
theories/LexStringM.v
theories/LexHeredocM.v
theories/LexMagicM.v
theories/LexIdentM.v
theories/LexMainM.v
theories/Conformance.v
theories/SourceSpec.v
theories/SourceProofs.v
theories/Prop_Source.v
theories/ScopeSpec.v
theories/ScopeProofs.v
theories/Prop_Scopes.v
theories/Wp.v
theories/BufInv.v
theories/LexInv.v
theories/NumInv.v
theories/StrInv.v
theories/TokInv.v
theories/IdentInv.v
theories/HereInv.v
theories/HereDocInv.v
theories/MagicInv.v
theories/LexSpec.v
theories/OpInv.v
theories/NewlineInv.v
theories/Rets.v
theories/MainInv.v
theories/RunInv.v
theories/FuelMono.v
theories/Prop_Lexer.v
theories/ParserClientM.v
theories/Prop_Client.v
theories/NodeM.v
theories/BuilderM.v
theories/BuilderNodesM.v
theories/BuilderSpec.v
theories/BuilderFacts.v
theories/Prop_BuilderArgs.v
theories/Prop_BuilderLit.v
theories/Prop_BuilderTree.v
theories/ReadSpec.v
theories/YylexSpec.v
theories/Reach.v
theories/NumberSpec.v
theories/NumRead.v
theories/NumPrefix.v
theories/Prop_Number.v
theories/IdentSpec.v
theories/IdentRead.v
theories/IdentStep.v
theories/Prop_Ident.v
theories/Prop_Var.v
theories/Prop_End.v
theories/Prop_White.v
theories/Prop_Crlf.v
theories/Prop_Bom.v
theories/Prop_Encoding.v
theories/StringSpec.v
theories/StrNum.v
theories/StrRead.v
theories/StrStep.v
theories/StrOpen.v
theories/StrMore.v
theories/StrOpens.v
theories/Prop_String.v
theories/Prop_Interp.v
theories/HereSpec.v
theories/HereStep.v
theories/HereText.v
theories/HereBody.v
theories/HereOpen.v
theories/Prop_Heredoc.v
theories/NestSpec.v
theories/NestFacts.v
theories/NestText.v
theories/NestCalls.v
theories/NestCtl.v
theories/NestBody.v
theories/NestAll.v
theories/Prop_Nest.v
theories/OpSpec.v
theories/OpStep.v
theories/OpRows.v
theories/OpTable.v
theories/OpValue.v
theories/OpName.v
theories/OpOperator.v
theories/OpArgument.v
theories/OpMore.v
theories/Prop_Op.v
theories/BracketSpec.v
theories/BracketStep.v
theories/Prop_Bracket.v
theories/Blind.v
theories/MagicSpec.v
theories/MagicRun.v
theories/LineSpec.v
theories/LineStep.v
theories/DocStep.v
theories/LineRun.v
theories/LineAgree.v
theories/Prop_Line.v
theories/Prop_Doc.v
theories/DocNot.v
theories/DocMark.v
theories/MagicStep.v
theories/MagicCover.v
theories/Prop_Magic.v
theories/MagicEnd.v
theories/KeepSpec.v
theories/KeepFacts.v
theories/KeepCalls.v
theories/Prop_Keep.v
theories/EffectSpec.v
theories/Prop_Effect.v
theories/SyntaxSpec.v
theories/SyntaxFacts.v
theories/Prop_Syntax.v
theories/CharSpec.v
theories/Prop_Char.v
theories/RegexpSpec.v
theories/RegexpRead.v
theories/RegexpStep.v
theories/Prop_Regexp.v
