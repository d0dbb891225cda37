-Q theories Verif
theories/CLib.v
theories/State.v
theories/Handlers.v
theories/Parse.v
theories/Api.v
theories/Macros.v
theories/Validate.v
theories/LibProofs.v
theories/FrameProofs.v
theories/SpecGrammar.v
theories/GrammarProofs.v
theories/GrammarLemmas.v
theories/ActiveProofs.v
theories/ExLib.v
theories/ExGrammar.v
theories/GrammarFacts.v
theories/CutProofs.v
theories/PropsGrammar.v
theories/SpecAfter.v
theories/AfterProofs.v
theories/EnvProofs.v
theories/CallProofs.v
theories/WholeProofs.v
theories/IsolationProofs.v
theories/SpecValues.v
theories/ValueProofs.v
theories/AfterFacts.v
theories/LookupProofs.v
theories/MoreFacts.v
theories/CheckFacts.v
theories/SpecLeading.v
theories/LeadingProofs.v
theories/ExAfter.v
theories/PropsAfter.v
theories/SpecStructure.v
theories/StructProofs.v
theories/ExStructure.v
theories/PropsStructure.v
theories/SpecMemory.v
theories/HeapProofs.v
theories/SplitProofs.v
theories/ListProofs.v
theories/OrderProofs.v
theories/ArrayProofs.v
theories/FlagProofs.v
theories/PropsSplit.v
theories/SpecContents.v
theories/ArrayHandlers.v
theories/MapProofs.v
theories/MapHandlers.v
theories/MapFlags.v
theories/MapWhole.v
theories/SpecSafe.v
theories/FreeProofs.v
theories/SafeProofs.v
theories/SafeContext.v
theories/SafePerform.v
theories/SpecCollections.v
theories/CollProofs.v
theories/CollMaps.v
theories/SafeFacts.v
theories/RangeProofs.v
theories/SpecMacros.v
theories/MacroProofs.v
theories/CollFacts.v
theories/ExMemory.v
theories/RangeFlags.v
theories/SpecLinks.v
theories/LinkProofs.v
theories/PropsCollections.v
theories/SafeWhole.v
theories/SpecReuse.v
theories/ReuseProofs.v
theories/SingleProofs.v
theories/PropsMemory.v
theories/Buffer.v
theories/SpecBuffer.v
theories/BufferProofs.v
theories/Display.v
theories/SpecDisplay.v
theories/WrapProofs.v
theories/ChoiceProofs.v
theories/ShowLogic.v
theories/SpecHelp.v
theories/DescProofs.v
theories/OrganizeProofs.v
theories/HelpProofs.v
theories/SpecCommands.v
theories/CommandProofs.v
theories/DisplayFacts.v
theories/ExDisplay.v
theories/PropsDisplay.v
theories/Stream.v
theories/SpecStream.v
theories/StreamProofs.v
theories/PropsStream.v
theories/SpecCheck.v
theories/InitProofs.v
theories/PropsCheck.v
theories/SpecTold.v
theories/ToldProofs.v
theories/PropsTold.v
theories/Messages.v
theories/SpecMessages.v
theories/MessageProofs.v
theories/PropsMessages.v
theories/SpecRefused.v
theories/RefusedProofs.v
theories/PropsRefused.v
theories/SpecWords.v
theories/WordsProofs.v
theories/PropsWords.v
theories/Regex.v
theories/RegexRun.v
theories/RegexProofs.v
theories/SpecPatterns.v
theories/RegexLang.v
theories/PatternNumbers.v
theories/PatternDates.v
theories/PatternNames.v
theories/PatternNet.v
theories/PatternText.v
theories/PatternUse.v
theories/PropsPatterns.v
theories/SpecLeak.v
theories/LeakProofs.v
theories/PropsLeak.v
theories/MidwayProofs.v
theories/PropsMidway.v
theories/GreatestProofs.v
theories/PropsGreatest.v
theories/SpecDefaultFloat.v
theories/DefaultFloatProofs.v
theories/PropsDefaultFloat.v
theories/SpecListen.v
theories/ListenProofs.v
theories/PropsListen.v
theories/AskedProofs.v
theories/PropsAsked.v
theories/StructErrors.v
theories/SpecFaults.v
theories/FaultProofs.v
theories/PropsFaults.v
theories/ValueUtils.v
theories/SpecValueUtils.v
theories/ValueUtilsProofs.v
theories/PropsValueUtils.v
theories/DefaultOs.v
theories/DefaultOsProofs.v
theories/PropsDefaultOs.v
theories/SpecAccept.v
theories/AcceptProofs.v
theories/PropsAccept.v
theories/SpecOrder.v
theories/ExchangeProofs.v
theories/OrderLists.v
theories/PropsOrder.v
theories/SpecEnvironment.v
theories/EnvLineProofs.v
theories/PropsEnvironment.v
theories/SpecRepeat.v
theories/RepeatProofs.v
theories/PropsAgain.v
theories/SpecRequest.v
theories/RequestProofs.v
theories/PropsRequest.v
theories/SpecListText.v
theories/ListTextProofs.v
theories/PropsListText.v
theories/Conform.v
theories/ConformApi.v
theories/ConformUnit.v
theories/SpecScarce.v
theories/ScarceProofs.v
theories/ScarceWhole.v
theories/PropsScarce.v
theories/CodeProofs.v
theories/PropsCode.v
theories/NegativeProofs.v
theories/PropsNegative.v
theories/SpecExtend.v
theories/ExtendProofs.v
theories/ExtendWhole.v
theories/PropsExtend.v
theories/SpecTrust.v
theories/TrustProofs.v
theories/PropsTrust.v
theories/PcreCalls.v
theories/SpecPcre.v
theories/PcreProofs.v
theories/PropsPcre.v
theories/Stdout.v
theories/SpecStdout.v
theories/StdoutProofs.v
theories/PropsStdout.v
theories/Program.v
theories/SpecProgram.v
theories/ProgramProofs.v
theories/PropsProgram.v
theories/AnywhereProofs.v
theories/PropsAnywhere.v
theories/SpecGroupMemory.v
theories/GroupMemoryProofs.v
theories/PropsGroupMemory.v
theories/SpecRely.v
theories/RelyProofs.v
theories/PropsRely.v
theories/SpecTyped.v
theories/TypedProofs.v
theories/PropsTyped.v
theories/SpecVariables.v
theories/VariablesProofs.v
theories/PropsVariables.v
theories/SpecTemplate.v
theories/TemplateProofs.v
theories/PropsTemplate.v
theories/SpecEase.v
theories/EaseProofs.v
theories/EaseWhole.v
theories/EaseAfter.v
theories/EaseCheck.v
theories/PropsEase.v
theories/StopProofs.v
theories/PropsStop.v
theories/SpecNest.v
theories/NestProofs.v
theories/NestWhole.v
theories/NestAccess.v
theories/PropsNest.v
theories/SpecCodes.v
theories/CodesProofs.v
theories/PropsCodes.v
