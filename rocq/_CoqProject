-Q theories Verif

theories/Model/Abandon.v
theories/Model/Agent.v
theories/Model/Aiotools.v
theories/Model/Array.v
theories/Model/Asking.v
theories/Model/AsyncAbandon.v
theories/Model/AsyncDepth.v
theories/Model/AsyncSeq.v
theories/Model/AsyncShare.v
theories/Model/Await.v
theories/Model/Base.v
theories/Model/Block.v
theories/Model/BlockCost.v
theories/Model/Builder.v
theories/Model/BuilderCalls.v
theories/Model/Cancellation.v
theories/Model/Chain.v
theories/Model/ChainDepth.v
theories/Model/ChainWork.v
theories/Model/CompositeTasks.v
theories/Model/Decorate.v
theories/Model/Disposable.v
theories/Model/Extra.v
theories/Model/Functions.v
theories/Model/Gen.v
theories/Model/Handlers.v
theories/Model/Identity.v
theories/Model/Inherited.v
theories/Model/Interleave.v
theories/Model/LiveArray.v
theories/Model/Mailbox.v
theories/Model/Map.v
theories/Model/MapCmp.v
theories/Model/MapDepth.v
theories/Model/MapShare.v
theories/Model/MapTree.v
theories/Model/MapWork.v
theories/Model/Match.v
theories/Model/Mixed.v
theories/Model/Modules.v
theories/Model/Network.v
theories/Model/OptIter.v
theories/Model/OptionResult.v
theories/Model/Parser.v
theories/Model/ParserCost.v
theories/Model/ParserDepth.v
theories/Model/ParserName.v
theories/Model/ParserStar.v
theories/Model/Protocol.v
theories/Model/PyList.v
theories/Model/Pydantic.v
theories/Model/Reply.v
theories/Model/Request.v
theories/Model/Resume.v
theories/Model/Seq.v
theories/Model/SeqExpr.v
theories/Model/SeqRepr.v
theories/Model/Show.v
theories/Model/TaggedUnion.v
theories/Model/Thread.v
theories/Model/TryClass.v
theories/Model/Typing.v
theories/Model/UnionClass.v
theories/Model/ValueEq.v
theories/Proofs/AbandonFacts.v
theories/Proofs/AgentFacts.v
theories/Proofs/AgentFacts2.v
theories/Proofs/ArrayFacts.v
theories/Proofs/ArrayFacts2.v
theories/Proofs/ArrayFacts3.v
theories/Proofs/ArraySlice.v
theories/Proofs/ArraySum.v
theories/Proofs/AskingFacts.v
theories/Proofs/AskingFacts2.v
theories/Proofs/AskingFacts3.v
theories/Proofs/AskingFacts4.v
theories/Proofs/AskingFacts5.v
theories/Proofs/AsyncAbandonFacts.v
theories/Proofs/AsyncAbandonFacts2.v
theories/Proofs/AsyncDepthFacts.v
theories/Proofs/AsyncSeqFacts.v
theories/Proofs/AsyncSeqFacts2.v
theories/Proofs/AsyncSeqFacts3.v
theories/Proofs/AsyncShareFacts.v
theories/Proofs/AsyncShareFacts2.v
theories/Proofs/AwaitFacts.v
theories/Proofs/BlockFacts.v
theories/Proofs/BlockSumFacts.v
theories/Proofs/BuilderCallsFacts.v
theories/Proofs/BuilderFacts.v
theories/Proofs/BuilderFacts2.v
theories/Proofs/CalcFacts.v
theories/Proofs/CancellationFacts.v
theories/Proofs/CancellationFacts2.v
theories/Proofs/CancellationFacts3.v
theories/Proofs/CancellationFacts4.v
theories/Proofs/CancellationFacts5.v
theories/Proofs/CancellationFacts6.v
theories/Proofs/ChainDepthFacts.v
theories/Proofs/ChainFacts.v
theories/Proofs/ChainWorkFacts.v
theories/Proofs/ChainWorkFacts2.v
theories/Proofs/ChainWorkFacts3.v
theories/Proofs/CompareFacts.v
theories/Proofs/CompositeFacts.v
theories/Proofs/CoreRefute.v
theories/Proofs/CostFacts.v
theories/Proofs/CustomBuilderFacts.v
theories/Proofs/DecorateFacts.v
theories/Proofs/DepthFacts.v
theories/Proofs/DisposableFacts.v
theories/Proofs/EndedFacts.v
theories/Proofs/EqFacts.v
theories/Proofs/ExtraFacts.v
theories/Proofs/FunctionsFacts.v
theories/Proofs/GrammarFacts.v
theories/Proofs/GroupingFacts.v
theories/Proofs/HandlersFacts.v
theories/Proofs/HelpersFacts.v
theories/Proofs/IdentityFacts.v
theories/Proofs/InheritFacts.v
theories/Proofs/InheritFacts2.v
theories/Proofs/InterleaveFacts.v
theories/Proofs/KeepingFacts.v
theories/Proofs/KeyOrdFacts.v
theories/Proofs/LiveFacts.v
theories/Proofs/MailboxFacts.v
theories/Proofs/MailboxFacts2.v
theories/Proofs/MailboxFacts3.v
theories/Proofs/MailboxFacts4.v
theories/Proofs/MailboxFacts5.v
theories/Proofs/MailboxFacts6.v
theories/Proofs/MailboxFacts7.v
theories/Proofs/MapChangeHeight.v
theories/Proofs/MapCmpFacts.v
theories/Proofs/MapCmpFacts2.v
theories/Proofs/MapDepthFacts.v
theories/Proofs/MapFacts.v
theories/Proofs/MapLinear.v
theories/Proofs/MapMain.v
theories/Proofs/MapOrder.v
theories/Proofs/MapRefute.v
theories/Proofs/MapShareFacts.v
theories/Proofs/MapShareFacts2.v
theories/Proofs/MapShareFacts3.v
theories/Proofs/MapTreeFacts.v
theories/Proofs/MapTreeMonadic.v
theories/Proofs/MapWorkFacts.v
theories/Proofs/MapWorkFacts2.v
theories/Proofs/MatchFacts.v
theories/Proofs/MixedFacts.v
theories/Proofs/ModulesFacts.v
theories/Proofs/NameFacts.v
theories/Proofs/NetworkFacts.v
theories/Proofs/OptIterFacts.v
theories/Proofs/OptionResultFacts.v
theories/Proofs/ParserCostFacts.v
theories/Proofs/ParserCostFacts2.v
theories/Proofs/ParserCostFacts3.v
theories/Proofs/ParserErrorFacts.v
theories/Proofs/ParserFacts.v
theories/Proofs/ParserFacts2.v
theories/Proofs/ParserSeqFacts.v
theories/Proofs/PegFacts.v
theories/Proofs/PegFacts2.v
theories/Proofs/PegLaws.v
theories/Proofs/PegSafe.v
theories/Proofs/ProtocolFacts.v
theories/Proofs/PydanticFacts.v
theories/Proofs/ReplyFacts.v
theories/Proofs/RequestFacts.v
theories/Proofs/RestFacts.v
theories/Proofs/RestFacts2.v
theories/Proofs/RestFacts3.v
theories/Proofs/RestFacts4.v
theories/Proofs/RestFacts5.v
theories/Proofs/ResumeFacts.v
theories/Proofs/ResumeFacts2.v
theories/Proofs/RunFacts.v
theories/Proofs/RunFacts2.v
theories/Proofs/RunFacts3.v
theories/Proofs/RunFacts4.v
theories/Proofs/RunFacts5.v
theories/Proofs/RunFacts6.v
theories/Proofs/RunFacts7.v
theories/Proofs/SearchFacts.v
theories/Proofs/SeqExprFacts.v
theories/Proofs/SeqFacts.v
theories/Proofs/SeqFacts2.v
theories/Proofs/SeqFacts3.v
theories/Proofs/SeqFacts4.v
theories/Proofs/SeqFacts5.v
theories/Proofs/SeqReprFacts.v
theories/Proofs/ShowFacts.v
theories/Proofs/SliceFacts.v
theories/Proofs/TaggedUnionFacts.v
theories/Proofs/ThreadFacts.v
theories/Proofs/TryFacts.v
theories/Proofs/TypingFacts.v
theories/Proofs/UnionClassFacts.v
theories/Props/PAbandon.v
theories/Props/PAgent.v
theories/Props/PAiotools.v
theories/Props/PArray.v
theories/Props/PArraySum.v
theories/Props/PAsking.v
theories/Props/PAsyncAbandon.v
theories/Props/PAsyncSeq.v
theories/Props/PAsyncShare.v
theories/Props/PAwait.v
theories/Props/PBlock.v
theories/Props/PBlockSum.v
theories/Props/PBuilder.v
theories/Props/PBuilderCalls.v
theories/Props/PCalc.v
theories/Props/PCancellation.v
theories/Props/PChain.v
theories/Props/PChainDepth.v
theories/Props/PChainWork.v
theories/Props/PCompare.v
theories/Props/PComposite.v
theories/Props/PCore.v
theories/Props/PCost.v
theories/Props/PCustomBuilder.v
theories/Props/PDecorate.v
theories/Props/PDepth.v
theories/Props/PDisposable.v
theories/Props/PEffectErrors.v
theories/Props/PEnded.v
theories/Props/PExtra.v
theories/Props/PFunctions.v
theories/Props/PGrammar.v
theories/Props/PGrouping.v
theories/Props/PHandlers.v
theories/Props/PHelpers.v
theories/Props/PIdentity.v
theories/Props/PInherited.v
theories/Props/PInterleave.v
theories/Props/PKeeping.v
theories/Props/PLiveArray.v
theories/Props/PMailbox.v
theories/Props/PMap.v
theories/Props/PMapCmp.v
theories/Props/PMapDepth.v
theories/Props/PMapShare.v
theories/Props/PMapWork.v
theories/Props/PMatch.v
theories/Props/PMixed.v
theories/Props/PModules.v
theories/Props/PName.v
theories/Props/PNetwork.v
theories/Props/POptIter.v
theories/Props/PParser.v
theories/Props/PParserCost.v
theories/Props/PParserError.v
theories/Props/PParserSeq.v
theories/Props/PPeg.v
theories/Props/PPegLaws.v
theories/Props/PPegSafe.v
theories/Props/PProtocol.v
theories/Props/PPydantic.v
theories/Props/PRequest.v
theories/Props/PRest.v
theories/Props/PResume.v
theories/Props/PResume2.v
theories/Props/PRuns.v
theories/Props/PRuns2.v
theories/Props/PSearch.v
theories/Props/PSeq.v
theories/Props/PSeqExpr.v
theories/Props/PSeqRepr.v
theories/Props/PShow.v
theories/Props/PSlice.v
theories/Props/PTry.v
theories/Props/PTyping.v
theories/Props/PUnionClass.v
theories/Props/PValueEq.v
theories/Spec/AbandonSpec.v
theories/Spec/AgentSpec.v
theories/Spec/AiotoolsSpec.v
theories/Spec/ArraySpec.v
theories/Spec/AskingSpec.v
theories/Spec/AsyncAbandonSpec.v
theories/Spec/AsyncSeqSpec.v
theories/Spec/AsyncShareSpec.v
theories/Spec/AwaitSpec.v
theories/Spec/BlockSpec.v
theories/Spec/BuilderCallsSpec.v
theories/Spec/BuilderSpec.v
theories/Spec/CalcSpec.v
theories/Spec/CancellationSpec.v
theories/Spec/ChainDepthSpec.v
theories/Spec/ChainSpec.v
theories/Spec/ChainWorkSpec.v
theories/Spec/CompositeSpec.v
theories/Spec/CostSpec.v
theories/Spec/CustomBuilderSpec.v
theories/Spec/DecorateSpec.v
theories/Spec/DepthSpec.v
theories/Spec/DisposableSpec.v
theories/Spec/EqSpec.v
theories/Spec/ExtraSpec.v
theories/Spec/FunctionsSpec.v
theories/Spec/GrammarSpec.v
theories/Spec/GroupingSpec.v
theories/Spec/HandlersSpec.v
theories/Spec/HelpersSpec.v
theories/Spec/IdentitySpec.v
theories/Spec/InheritSpec.v
theories/Spec/InterleaveSpec.v
theories/Spec/KeepingSpec.v
theories/Spec/KeyInstances.v
theories/Spec/ListM.v
theories/Spec/LiveSpec.v
theories/Spec/LogSpec.v
theories/Spec/MailboxSpec.v
theories/Spec/MapCmpSpec.v
theories/Spec/MapDepthSpec.v
theories/Spec/MapShareSpec.v
theories/Spec/MapSpec.v
theories/Spec/MapWorkSpec.v
theories/Spec/MatchSpec.v
theories/Spec/MixedSpec.v
theories/Spec/ModulesSpec.v
theories/Spec/NameSpec.v
theories/Spec/NetworkSpec.v
theories/Spec/OptionResultSpec.v
theories/Spec/ParserCostSpec.v
theories/Spec/ParserErrorSpec.v
theories/Spec/ParserSeqSpec.v
theories/Spec/ParserSpec.v
theories/Spec/PegLawsSpec.v
theories/Spec/PegSafeSpec.v
theories/Spec/PegSpec.v
theories/Spec/ProtocolSpec.v
theories/Spec/PydanticSpec.v
theories/Spec/RequestSpec.v
theories/Spec/RestSpec.v
theories/Spec/ResumeSpec.v
theories/Spec/ResumeSpec2.v
theories/Spec/RunSpec.v
theories/Spec/SearchSpec.v
theories/Spec/SeqSpec.v
theories/Spec/SliceSpec.v
theories/Spec/TextSpec.v
theories/Spec/TrySpec.v
theories/Spec/TypingSpec.v
theories/Spec/UnionSpec.v
