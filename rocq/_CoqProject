-Q theories Verif
theories/GoStr.v
theories/GoStrProofs.v
theories/Scanner.v
theories/ScannerSpec.v
theories/ScanRun.v
theories/ScannerProofs.v
theories/ScannerProofs2.v
theories/ScannerProofs3.v
theories/Lexer.v
theories/LexerSpec.v
theories/LexRun.v
theories/LexerProofs.v
theories/LexerProofs2.v
theories/LexerProofs3.v
theories/LexerProofs4.v
theories/LexerProofs5.v
theories/Unquote.v
theories/UnquoteSpec.v
theories/UnquoteProofs.v
theories/Parser.v
theories/ParserSpec.v
theories/ParserList.v
theories/ParserSim.v
theories/ParserProofs.v
theories/ParserProofs2.v
theories/ParserProofs3.v
theories/PropScanner.v
theories/PropLexer.v
theories/PropParser.v
theories/GrammarSpec.v
theories/GrammarProofs.v
theories/PropGrammar.v
theories/Strs.v
theories/StrsSpec.v
theories/StrsProofs.v
theories/SvcTypes.v
theories/Consolidate.v
theories/ConsolidateSpec.v
theories/ConsolidateProofs.v
theories/GoMap.v
theories/SplitJoin.v
theories/Decimals.v
theories/HttpSpec.v
theories/HttpTransport.v
theories/HttpTypes.v
theories/HttpProofs.v
theories/HttpTypesProofs.v
theories/PropHttp.v
theories/Url.v
theories/UrlProofs.v
theories/GenHttp.v
theories/GenHttpSpec.v
theories/GenHttpProofs.v
theories/GenHttpProofs2.v
theories/GenHttpProofs3.v
theories/GenHttpProofs4.v
theories/PropGenHttp.v
theories/Middleware.v
theories/PropMiddleware.v
theories/Context.v
theories/ContextProofs.v
theories/PropContext.v
theories/Json.v
theories/JsonProofs.v
theories/ErrorHop.v
theories/PropErrorHop.v
theories/Handler.v
theories/HandlerSpec.v
theories/HandlerProofs.v
theories/PropHandler.v
theories/Generator.v
theories/GeneratorSpec.v
theories/GeneratorProofs.v
theories/GeneratorProofs2.v
theories/PropGenerator.v
theories/PropStrs.v
theories/PropConsolidate.v
theories/Svcdef.v
theories/SvcdefSpec.v
theories/SvcdefProofs.v
theories/SvcdefProofs2.v
theories/SvcdefProofs3.v
theories/SvcdefProofs4.v
theories/SvcdefProofs5.v
theories/PropSvcdef.v
theories/Start.v
theories/StartSpec.v
theories/StartProofs.v
theories/StartProofs2.v
theories/StartProofs3.v
theories/PropStart.v
theories/Server.v
theories/ServerSpec.v
theories/ServerProofs.v
theories/ServerProofs2.v
theories/PropServer.v
theories/Paths.v
theories/PathsSpec.v
theories/PathsProofs.v
theories/PropPaths.v
theories/DecodeSpec.v
theories/DecodeProofs.v
theories/PropDecode.v
theories/Wiring.v
theories/WiringSpec.v
theories/WiringProofs.v
theories/PropWiring.v
theories/JsonSpec.v
theories/JsonProofs2.v
theories/PropJson.v
theories/Rpc.v
theories/RpcSpec.v
theories/RpcProofs.v
theories/PropRpc.v
theories/Client.v
theories/PropClient.v
theories/NewDef.v
theories/NewDefSpec.v
theories/PropNewDef.v
theories/Cmdline.v
theories/CmdlineSpec.v
theories/CmdlineProofs.v
theories/PropCmdline.v
theories/Protoc.v
theories/ProtocSpec.v
theories/ProtocProofs.v
theories/PropProtoc.v
theories/Main.v
theories/MainSpec.v
theories/MainProofs.v
theories/PropMain.v
theories/Template.v
theories/TemplateProofs.v
theories/Assets.v
theories/Render.v
theories/RenderProofs.v
theories/PropRender.v
theories/TextSpec.v
theories/TextFile.v
theories/TextProofs.v
theories/PropText.v
theories/ListSpec.v
theories/PropList.v
theories/GoLex.v
theories/GoLang.v
theories/DecoderProg.v
theories/GoLexProofs.v
theories/DecoderText.v
theories/DecoderTexts.v
theories/DecoderTexts2.v
theories/GoLangProofs.v
theories/DecoderRun.v
theories/DecoderRun2.v
theories/DecoderProto.v
theories/PropGoDecoder.v
theories/GoEncode.v
theories/EncoderProg.v
theories/EncoderText.v
theories/EncoderRun.v
theories/EncoderProto.v
theories/PropGoEncoder.v
theories/PropGoRoundTrip.v
theories/GoDecls.v
theories/GoDeclsProofs.v
theories/FileNest.v
theories/FileText.v
theories/GoGlue.v
theories/GlueProg.v
theories/WireProg.v
theories/HttpProg.v
theories/GoScope.v
theories/GoBlocks.v
theories/FileHead.v
theories/FileGrpc.v
theories/FileNats.v
theories/FileHttp.v
theories/FileAll.v
theories/PropGoFile.v
theories/TextOthers.v
theories/TextOthersProofs.v
theories/GoUse.v
theories/GoUseProofs.v
theories/HandlerText.v
theories/FileService.v
theories/PropService.v
theories/GoPackage.v
theories/GoServer.v
theories/ServerProg.v
theories/FileOthers.v
theories/FileOthers2.v
theories/FileOthers3.v
theories/FileOthers4.v
theories/PropProject.v
theories/PropServerText.v
theories/PropGlue.v
theories/WireGrpc.v
theories/WireNats.v
theories/WireHttp.v
theories/HttpKit.v
theories/PropWire.v
theories/PropHttpWire.v
theories/ScopeFree.v
theories/PropScope.v
theories/BlocksFree.v
theories/PropBlocks.v
theories/BlocksDec.v
theories/NeedsDec.v
theories/PropDecoderNames.v
theories/PropQuery.v
theories/PropAnswer.v
