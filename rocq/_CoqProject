-Q theories Verif
theories/Base.v
theories/Ast.v
theories/Check.v
theories/CheckSpec.v
theories/CheckProofs.v
theories/CheckProofs2.v
theories/CheckProofs3.v
theories/CheckCost.v
theories/CheckCostProofs.v
theories/CheckProofs4.v
theories/CheckErrors.v
theories/CheckErrorProofs.v
theories/CheckWitness.v
theories/CheckTests.v
theories/MessageSpec.v
theories/OrderSpec.v
theories/MessageFront.v
theories/MessageProofs.v
theories/MessageResults.v
theories/MessageWitness.v
theories/PropMessage.v
theories/OrderProofs.v
theories/RepeatSpec.v
theories/RepeatProofs.v
theories/PropCheck.v
theories/Peg.v
theories/Parser.v
theories/ParserSpec.v
theories/ParserProofs.v
theories/ParserProofs2.v
theories/ParserCost.v
theories/CostProofs.v
theories/ParserTrail.v
theories/TrailExact.v
theories/LineEnds.v
theories/LayoutSpec.v
theories/LayoutProofs.v
theories/TokenProofs.v
theories/LayoutWitness.v
theories/PropLayout.v
theories/Report.v
theories/ReportSpec.v
theories/ReportProofs.v
theories/ErrorProofs.v
theories/LocalProofs.v
theories/ParserTests.v
theories/ParserWitness.v
theories/PropParser.v
theories/TsGen.v
theories/TsAst.v
theories/TsPlan.v
theories/TsTests.v
theories/TsText.v
theories/GenSpec.v
theories/GenProofs.v
theories/GenProofs2.v
theories/GenBrackets.v
theories/TsTextProofs.v
theories/TsTextParse.v
theories/TsTextGen.v
theories/TsStatic.v
theories/GenNames.v
theories/GenSize.v
theories/GenWitness.v
theories/SizeSpec.v
theories/GenSize2.v
theories/GenSize3.v
theories/GenSize4.v
theories/GenSize5.v
theories/PropGen.v
theories/TsSem.v
theories/Wire.v
theories/TsSim.v
theories/TsWrite.v
theories/TsRead.v
theories/TsRead2.v
theories/TsRead3.v
theories/WireSpec.v
theories/ThrowSpec.v
theories/Runtimes.v
theories/Codec.v
theories/Codec2.v
theories/WireProofs.v
theories/WireResults.v
theories/WireWitness.v
theories/PartsSpec.v
theories/PartsProofs.v
theories/TsNew.v
theories/TsNewProofs.v
theories/Accept.v
theories/AcceptProofs.v
theories/ReadWork.v
theories/AcceptWitness.v
theories/PropWire.v
theories/Compile.v
theories/CompileProofs.v
theories/NameWitness.v
theories/PropCompile.v
theories/TsTypes.v
theories/TypedSpec.v
theories/TsTypesProofs.v
theories/TsTypesWitness.v
theories/IsolatedSpec.v
theories/IsolatedProofs.v
theories/PropTypes.v
theories/EvolveSpec.v
theories/EvolveProofs.v
theories/NeededProofs.v
theories/EvolveProofs2.v
theories/TsThrow.v
theories/ThrowWitness.v
theories/PropThrow.v
theories/EvolveProofs3.v
theories/EvolveProofs4.v
theories/EvolveWitness.v
theories/PropEvolve.v
theories/Cli.v
theories/CliSpec.v
theories/CliPaths.v
theories/CliRead.v
theories/CliNames.v
theories/CliWrite.v
theories/CliProofs.v
theories/CliWitness.v
theories/PropCli.v
theories/CliOneSpec.v
theories/CliOne.v
theories/PropOne.v
theories/CliPanic.v
theories/PropPanic.v
theories/CliPrint.v
theories/CliPrintSpec.v
theories/CliPrintProofs.v
theories/PropPrint.v
theories/CliReportSpec.v
theories/CliReport.v
theories/CliReportWitness.v
theories/PropComplaint.v
theories/CliLinks.v
theories/CliLinksSpec.v
theories/CliLinksProofs.v
theories/CliLinkRun.v
theories/CliLinkRunSpec.v
theories/CliLinkRunProofs.v
theories/CliLinkSame.v
theories/CliLinkRunWitness.v
theories/CliLinksWitness.v
theories/CliShared.v
theories/CliSharedSpec.v
theories/CliSharedProofs.v
theories/CliSharedKeep.v
theories/CliSharedEnds.v
theories/CliSharedAlone.v
theories/CliSharedWitness.v
theories/PropShared.v
theories/CliCalls.v
theories/CliCallsSpec.v
theories/CliCallsProofs.v
theories/CliCallsCover.v
theories/CliCallsEnds.v
theories/CliCallsWitness.v
theories/PropCalls.v
theories/PropLinks.v
theories/Fuzz.v
theories/FuzzProofs.v
theories/PropFuzz.v
theories/CostWitness.v
theories/PropCost.v
theories/RsGen.v
theories/RsTests.v
theories/RsAst.v
theories/RsPlan.v
theories/RsSem.v
theories/RsText.v
theories/RsTextProofs.v
theories/RsTextParse.v
theories/RsTextGen.v
theories/RsSpec.v
theories/RsRun.v
theories/RsRun2.v
theories/RsRun3.v
theories/RsRun4.v
theories/RsResults.v
theories/RsLib.v
theories/RsInterop.v
theories/RsClaims.v
theories/RsClaims2.v
theories/RsWitness.v
theories/PropRust.v
theories/RsCheck.v
theories/RsCheckProofs.v
theories/RsCheckWitness.v
theories/PropRust2.v
theories/RsEvolveSpec.v
theories/RsEvolve.v
theories/RsMixed.v
theories/RsEvolveWitness.v
theories/PropRust3.v
theories/RsMixedWitness.v
theories/PropRust4.v
theories/RsSizeSpec.v
theories/RsSize.v
theories/PropRust5.v
theories/RsOneSpec.v
theories/RsOne.v
theories/RsOneWitness.v
theories/PropRust6.v
theories/VoidSpec.v
theories/Void.v
theories/RsVoid.v
theories/VoidWitness.v
theories/PropItems.v
theories/RsBrackets.v
theories/PropRust7.v
theories/NeedsSpec.v
theories/Needs.v
theories/FloatSpec.v
theories/FloatProofs.v
theories/FloatWitness.v
theories/PropFloat.v
theories/RsNeeds.v
theories/NeedsWitness.v
theories/PropNeeds.v
theories/RunsSpec.v
theories/RunsCore.v
theories/RunsAccept.v
theories/RunsTypes.v
theories/RunsProofs.v
theories/RunsWitness.v
theories/PropRuns.v
theories/RsRunsSpec.v
theories/RsRuns.v
theories/RsRunsWitness.v
theories/PropRsRuns.v
theories/RsStringsSpec.v
theories/RsStrings.v
theories/RsStringsWitness.v
theories/PropRsStrings.v
theories/ProtoSpec.v
theories/ProtoProofs.v
theories/OmitSpec.v
theories/OmitProofs.v
theories/ProtoWitness.v
theories/PropProto.v
theories/PropParts.v
