-Q theories Verif
theories/PyBase.v
theories/PyFloat.v
theories/PyVal.v
theories/Colors.v
theories/Basic.v
theories/NumSpec.v
theories/FloatProofs.v
theories/BasicSpec.v
theories/BasicProofs.v
theories/DateProofs.v
theories/UuidProofs.v
theories/LeafFacts.v
theories/PropertiesBasic.v
theories/World.v
theories/WorldFrame.v
theories/WorldSpec.v
theories/WorldInv.v
theories/WorldSet.v
theories/HookSpec.v
theories/HookFacts.v
theories/WorldExample.v
theories/WorldFacts.v
theories/WorldExampleFacts.v
theories/AccessSpec.v
theories/ContainerFacts.v
theories/AccessFacts.v
theories/NewFlags.v
theories/PropertiesWorld.v
theories/PropertiesAccess.v
theories/Meta.v
theories/MetaSpec.v
theories/MetaFacts.v
theories/MetaCheck.v
theories/MetaExample.v
theories/PropertiesMeta.v
theories/Utils.v
theories/UtilsSpec.v
theories/UtilsFacts.v
theories/PropertiesUtils.v
theories/Options.v
theories/Files.v
theories/Arrays.v
theories/OptionsSpec.v
theories/OptionsFacts.v
theories/FilesFacts.v
theories/ArraysFacts.v
theories/OptionsExact.v
theories/PropertiesExtras.v
theories/Tasks.v
theories/TasksFacts.v
theories/Singles.v
theories/Uid.v
theories/LibrarySpec.v
theories/SinglesFacts.v
theories/UidFacts.v
theories/UidExact.v
theories/UidTree.v
theories/UidAny.v
theories/PropertiesUid.v
theories/PropertiesLibrary.v
theories/Observable.v
theories/ObservableSpec.v
theories/ObservableFacts.v
theories/PropertiesObservable.v
theories/GraphSpec.v
theories/GraphConv.v
theories/GraphFacts.v
theories/GraphValidate.v
theories/GraphSerial.v
theories/GraphValid.v
theories/GraphHelp.v
theories/GraphRequired.v
theories/GraphLimits.v
theories/GraphCycle.v
theories/LeafSym.v
theories/GraphEqual.v
theories/GraphAssign.v
theories/GraphExample.v
theories/GraphExampleFacts.v
theories/LinkSpec.v
theories/LinkFacts.v
theories/LinkHalt.v
theories/LinkSync.v
theories/LinkNet.v
theories/LinkNow.v
theories/LinkGroup.v
theories/LinkGroupFacts.v
theories/Keywords.v
theories/KeywordsSpec.v
theories/KeywordsFacts.v
theories/KeywordsLoop.v
theories/KeywordsProofs.v
theories/KeywordsErrors.v
theories/KeywordsNumbers.v
theories/KeywordsUnion.v
theories/PropertiesKeywords.v
theories/LinkExample.v
theories/PropertiesLink.v
theories/PropertiesLinkNow.v
theories/LinkArgs.v
theories/LinkArgsSpec.v
theories/LinkArgsFacts.v
theories/PropertiesLinkArgs.v
theories/DeserSpec.v
theories/DeserFacts.v
theories/DeserExample.v
theories/PropertiesDeser.v
theories/HookExample.v
theories/PropertiesHook.v
theories/PropertiesGraph.v
theories/RoundSpec.v
theories/RoundLeaf.v
theories/RoundFacts.v
theories/RoundValue.v
theories/RoundSend.v
theories/RoundNode.v
theories/RoundGraph.v
theories/RoundEqual.v
theories/RoundBuild.v
theories/RoundExample.v
theories/RoundValid.v
theories/RoundBox.v
theories/LimitsSpec.v
theories/IdemFacts.v
theories/LimitsFacts.v
theories/PropertiesLimits.v
theories/PropertiesRound.v
theories/Url.v
theories/UrlSpec.v
theories/UrlFacts.v
theories/PropertiesUrl.v
theories/Declare.v
theories/DeclareSpec.v
theories/DeclareFacts.v
theories/PropertiesDeclare.v
theories/Contents.v
theories/ContentsSpec.v
theories/ContentsFacts.v
theories/PropertiesArray.v
theories/CArrays.v
theories/CArraysSpec.v
theories/CArraysFacts.v
theories/PropertiesCArrays.v
theories/Names.v
theories/NamesSpec.v
theories/NamesFacts.v
theories/PropertiesNames.v
theories/Registry.v
theories/RegistrySpec.v
theories/RegistryFacts.v
theories/PropertiesRegistry.v
theories/Foreign.v
theories/ForeignSpec.v
theories/ForeignFacts.v
theories/PropertiesForeign.v
theories/Vectors.v
theories/VectorsSpec.v
theories/VectorsFacts.v
theories/PropertiesVectors.v
theories/Pointers.v
theories/PointersSpec.v
theories/PointersFacts.v
theories/PropertiesPointers.v
theories/Messages.v
theories/MessagesSpec.v
theories/MessagesFacts.v
theories/PropertiesMessages.v
theories/Warnings.v
theories/WarningsSpec.v
theories/WarningsFacts.v
theories/PropertiesWarnings.v
theories/Docs.v
theories/DocsSpec.v
theories/DocsFacts.v
theories/PropertiesDocs.v
theories/Status.v
theories/StatusSpec.v
theories/StatusFacts.v
theories/StatusMono.v
theories/StatusLoop.v
theories/StatusProofs.v
theories/PropertiesStatus.v
theories/DeserInto.v
theories/IntoSpec.v
theories/IntoFacts.v
theories/IntoFrame.v
theories/IntoProper.v
theories/IntoNew.v
theories/IntoExample.v
theories/PropertiesInto.v
theories/TextSpec.v
theories/TextFacts.v
theories/PropertiesText.v
theories/Changes.v
theories/ChangesSpec.v
theories/ChangesFacts.v
theories/PropertiesChanges.v
theories/Hooks.v
theories/HooksSpec.v
theories/HooksFacts.v
theories/PropertiesHooks.v
theories/Choices.v
theories/ChoicesSpec.v
theories/ChoicesFacts.v
theories/PropertiesChoices.v
theories/Rows.v
theories/RowsSpec.v
theories/RowsFacts.v
theories/PropertiesRows.v
theories/FileRunsSpec.v
theories/FileRunsFacts.v
theories/PropertiesFileRuns.v
theories/ReadSpec.v
theories/ReadFacts.v
theories/PropertiesRead.v
theories/Operators.v
theories/OperatorsSpec.v
theories/OperatorsFacts.v
theories/PropertiesOperators.v
theories/Sharing.v
theories/SharingSpec.v
theories/SharingFacts.v
theories/PropertiesSharing.v
theories/KeysSpec.v
theories/KeysFacts.v
theories/PropertiesKeys.v
