-Q theories Verif

theories/Base.v
theories/Numbers.v
theories/Libs.v
theories/Xml.v
theories/Ast.v
theories/XsdNode.v
theories/Parse.v
theories/Decode.v
theories/Writer.v
theories/Gen.v
theories/Run.v
theories/Harness.v
theories/Conformance.v
theories/CursorSpec.v
theories/CursorProof.v
theories/PropCursor.v
theories/TextSpec.v
theories/NumProof.v
theories/MiscSpec.v
theories/MiscProof.v
theories/CharProof.v
theories/NameProof.v
theories/GenSpec.v
theories/LitSpec.v
theories/GenProof1.v
theories/GenProof2.v
theories/Samples.v
theories/PropNames.v
theories/PropGen.v
theories/DecSpec.v
theories/DecSim.v
theories/DecProof.v
theories/ReadSpec.v
theories/DecProof1.v
theories/RepSpec.v
theories/RepProof.v
theories/SimSpec.v
theories/SimProof.v
theories/DecProof2.v
theories/PropDecode.v
theories/WfSpec.v
theories/WfProof.v
theories/TotalProof.v
theories/TypeProof.v
theories/WfCheck.v
theories/TermProof.v
theories/PropTerm.v
theories/WriterSpec.v
theories/WriterProof.v
theories/EncSpec.v
theories/EncProof.v
theories/TypedCheck.v
theories/PropWriter.v
theories/LlSpec.v
theories/LlProof.v
theories/CanonSpec.v
theories/CanonProof.v
theories/CanonProof2.v
theories/StableSpec.v
theories/StableProof.v
theories/TypedCanon.v
theories/RoundSpec.v
theories/RoundProof.v
theories/PropRound.v
theories/ParseSpec.v
theories/ParseProof.v
theories/ParseMono.v
theories/ParseFiles.v
theories/ParseGen.v
theories/ParseFrame.v
theories/ParseRoots.v
theories/ParseMain.v
theories/PropParse.v
theories/DeclSpec.v
theories/DeclProof1.v
theories/DeclProof2.v
theories/DeclProof3.v
theories/DeclMain.v
theories/DeclCheck.v
theories/DeclCor.v
theories/PropDecl.v
theories/MergeSpec.v
theories/MergeProof.v
theories/PropMerge.v
theories/ForeignSpec.v
theories/ForeignProof.v
theories/ForeignMain.v
theories/PropForeign.v
theories/RustSpec.v
theories/RustLook.v
theories/RustProof.v
theories/RustWrite.v
theories/RustGen.v
theories/RustCheck.v
theories/PropRust.v
theories/ValidSpec.v
theories/ValidProof.v
theories/ValidCheck.v
theories/PropValid.v
theories/SimCheck.v
theories/PropOrder.v
theories/HashSpec.v
theories/HashProof.v
theories/HashGen.v
theories/PropHash.v
theories/Macro.v
theories/MacroSpec.v
theories/MacroProof.v
theories/PropMacro.v
theories/LexSpec.v
theories/LexProof.v
theories/NumberSpec.v
theories/NumberLibs.v
theories/NumberProof.v
theories/NumberText.v
theories/NumberRound.v
theories/PropLex.v
theories/BoundProof.v
theories/PropBounds.v
theories/SchemaSpec.v
theories/SchemaProof.v
theories/Emit.v
theories/EmitSpec.v
theories/EmitProof.v
theories/DocProof.v
theories/PropEmit.v
theories/Rust.v
theories/Body.v
theories/RustRules.v
theories/BodySpec.v
theories/BodyRead.v
theories/BodyWrite.v
theories/BodyGen.v
theories/PropBody.v
theories/LocalSpec.v
theories/LocalProof.v
theories/LookupProof.v
theories/PropLocal.v
theories/ErrSpec.v
theories/ErrProof.v
theories/PropErr.v
theories/Message.v
theories/MessageSpec.v
theories/MessageProof.v
theories/PropMessage.v
theories/PieceProof.v
theories/FaultSpec.v
theories/FaultProof.v
theories/PropFault.v
theories/Quote.v
theories/Impl.v
theories/GramSpec.v
theories/GramRules.v
theories/GramProof.v
theories/GramRead.v
theories/GramWrite.v
theories/GramItem.v
theories/PropGram.v
theories/TypingSpec.v
theories/TypingProof.v
theories/TypingItems.v
theories/TypingRead.v
theories/TypingWrite.v
theories/TypingInv.v
theories/TypingReadInv.v
theories/TypingFnInv.v
theories/TypingWriteInv.v
theories/TypingMain.v
theories/TypingConv.v
theories/TypingRun.v
theories/PropTyping.v
theories/PropEnd.v
theories/PropNumber.v
theories/ItemSpec.v
theories/ItemProof.v
theories/PropItem.v
theories/XmlChars.v
theories/XmlRead.v
theories/XmlWrite.v
theories/XmlSpec.v
theories/XmlProof.v
theories/XmlProof2.v
theories/XmlProof3.v
theories/XmlProof4.v
theories/XmlProof5.v
theories/XmlGen.v
theories/TextConformance.v
theories/PropXml.v
theories/PropXmlEnd.v
theories/ApiSpec.v
theories/PropApi.v
theories/XmlGrammar.v
theories/GrammarProof1.v
theories/GrammarProof2.v
theories/GrammarProof3.v
theories/GrammarProof4.v
theories/GrammarProof5.v
theories/PropGrammar.v
theories/NumberShort.v
theories/GenErr.v
theories/PlaceSpec.v
theories/PlaceProof.v
theories/PropPlace.v
theories/PropStable.v
theories/LinesSpec.v
theories/LinesProof.v
theories/LinesProof2.v
theories/LinesProof3.v
theories/LinesProof4.v
theories/PropLines.v
theories/Path.v
theories/PathSpec.v
theories/PathProof.v
theories/PropPath.v
theories/EvoSpec.v
theories/EvoProof.v
theories/EvoProof2.v
theories/EvoWrite.v
theories/EvoProof3.v
theories/PropEvo.v
theories/EndlessSpec.v
theories/EndlessProof.v
theories/PropEndless.v
theories/MutSpec.v
theories/MutProof.v
theories/MutWrite.v
theories/MutDecl.v
theories/PropMut.v
theories/DepthSpec.v
theories/DepthProof.v
theories/DepthGen.v
theories/PropDepth.v
theories/CostSpec.v
theories/CostProof.v
theories/CostBound.v
theories/CostGen.v
theories/PropCost.v
theories/AmountSpec.v
theories/AmountProof.v
theories/PropAmount.v
theories/BulkSpec.v
theories/BulkProof.v
theories/BulkNames.v
theories/BulkMany.v
theories/PropBulk.v
theories/OutSpec.v
theories/OutProof.v
theories/PropOut.v
