-Q theories Verif

theories/PyStr.v
theories/Utils.v
theories/Strategies.v
theories/Docstring.v
theories/Imports.v
theories/Dispatch.v
theories/PyStrFacts.v
theories/SpecNames.v
theories/NamesFacts.v
theories/SmallFacts.v
theories/SpecText.v
theories/DocstringFacts.v
theories/SpecImports.v
theories/ImportsFacts.v
theories/BaseProofs.v
theories/PropsBase.v
theories/Values.v
theories/Tree.v
theories/Build.v
theories/Emit.v
theories/TreeFacts.v
theories/SpecData.v
theories/BuildFacts.v
theories/BuildInd.v
theories/TotalFacts.v
theories/TreeProofs.v
theories/BegunFacts.v
theories/SeqFacts.v
theories/FuelFacts.v
theories/Samples.v
theories/PropsTree.v
theories/FloatFacts.v
theories/SpecMerge.v
theories/MergeFacts.v
theories/GroupFacts.v
theories/PropsMerge.v
theories/SpecTypes.v
theories/Elab.v
theories/ElabFacts.v
theories/Provenance.v
theories/DictInv.v
theories/SpecEmit.v
theories/EmitFacts.v
theories/EmitTop.v
theories/TypedFacts.v
theories/AlikeFacts.v
theories/SampleEmit.v
theories/PropsEmit.v
theories/Exc.v
theories/Yaml.v
theories/SpecYaml.v
theories/YamlFacts.v
theories/YamlLines.v
theories/YamlComments.v
theories/YamlWords.v
theories/YamlLoad.v
theories/YamlMore.v
theories/YamlEntries.v
theories/YamlLoadFacts.v
theories/PropsYaml.v
theories/PyFile.v
theories/SpecPyFile.v
theories/PyFileFacts.v
theories/PyFilePrivate.v
theories/PropsPyFile.v
theories/Live.v
theories/SpecLive.v
theories/LiveSample.v
theories/LiveText.v
theories/LiveMethods.v
theories/LiveBlocks.v
theories/LiveFacts.v
theories/LiveHistory.v
theories/LiveCounts.v
theories/PropsLive.v
theories/SpecSound.v
theories/SoundPrint.v
theories/SoundRead.v
theories/SoundTree.v
theories/SoundBuild.v
theories/SoundHash.v
theories/SoundEmit.v
theories/SoundTop.v
theories/SoundJson.v
theories/SampleSound.v
theories/PropsSound.v
theories/DataMap.v
theories/SpecLimit.v
theories/LimitFacts.v
theories/WalkFacts.v
theories/PropsLimit.v
theories/SpecOrder.v
theories/OrderFacts.v
theories/PropsOrder.v
theories/SpecModules.v
theories/Frame.v
theories/SpecFrame.v
theories/FrameFacts.v
theories/FrameText.v
theories/PropsFrame.v
theories/Output.v
theories/SpecDeclaration.v
theories/DeclarationFacts.v
theories/PropsOutput.v
theories/LiveYaml.v
theories/PropsLiveYaml.v
theories/SpecCamel.v
theories/CamelFacts.v
theories/ShareFacts.v
theories/PropsCamel.v
theories/PandasFacts.v
theories/SpecUnique.v
theories/UniqueFacts.v
theories/SampleUnique.v
theories/PropsUnique.v
theories/SpecForm.v
theories/PropsForm.v
theories/Mypy.v
theories/SpecMypy.v
theories/PropsMypy.v
theories/Ast.v
theories/SpecAst.v
theories/PropsAst.v
theories/Show.v
theories/PropsShow.v
theories/CheckCode.v
theories/SpecCheck.v
theories/PropsCheck.v
theories/SpecClear.v
theories/ClearFacts.v
theories/SampleClear.v
theories/PropsClear.v
theories/SpecSibling.v
theories/SiblingFacts.v
theories/PropsSibling.v
theories/SpecReached.v
theories/ReachedFacts.v
theories/PropsReached.v
theories/TextFacts.v
theories/PropsText.v
theories/Origin.v
theories/PropsTuple.v
theories/Bodies.v
theories/SpecBodies.v
theories/BodiesFacts.v
theories/PropsBodies.v
theories/SpecExact.v
theories/PropsExact.v
theories/SpecComment.v
theories/PropsComment.v
theories/PropsYamlFail.v
theories/Source.v
theories/SpecSource.v
theories/SourceFacts.v
theories/PropsSource.v
theories/SpecMethods.v
theories/PropsMethods.v
theories/SpecPrivate.v
theories/PropsPrivate.v
theories/SpecMachine.v
theories/PropsMachine.v
theories/PropsCheckAll.v
theories/PropsMypyAll.v
theories/SpecDoc.v
theories/PropsDocAll.v
theories/PropsDash.v
theories/PropsYamlCalls.v
theories/SpecLines.v
theories/PropsLines.v
theories/SpecShell.v
theories/PropsHook.v
theories/SpecVars.v
theories/PropsVars.v
theories/SpecEnd.v
theories/PropsRead.v
theories/PropsEnd.v
theories/SpecDocs.v
theories/DocMap.v
theories/DocFacts.v
theories/PropsErase.v
theories/PropsCrash.v
theories/YamlMany.v
theories/PropsMany.v
theories/PropsKeys.v
theories/SpecSignature.v
theories/SignatureFacts.v
theories/PropsSignature.v
theories/PropsPrinted.v
theories/PropsDecor.v
theories/LiveSub.v
theories/PropsSub.v
theories/MentionFacts.v
theories/PropsMention.v
theories/PropsColumns.v
theories/PropsEnds.v
theories/PropsNames.v
theories/SpecYamlDoc.v
theories/YamlDocFacts.v
theories/YamlDocLines.v
theories/YamlDocTexts.v
theories/YamlDocTokens.v
theories/YamlDocOne.v
theories/PropsYamlDoc.v
theories/PropsYamlHints.v
theories/SpecNotes.v
theories/NoteFacts.v
theories/NoteSource.v
theories/PropsNotes.v
theories/SpecYamlNotes.v
theories/YamlNoteFacts.v
theories/PropsYamlNotes.v
theories/YamlItemFacts.v
theories/PropsYamlItems.v
theories/PropsBuiltins.v
theories/PropsYamlLive.v
theories/SpecLiteral.v
theories/PropsLiteral.v
theories/PropsReadDocs.v
theories/PropsYamlText.v
theories/PropsInherit.v
theories/PropsYamlKept.v
theories/PropsOnly.v
theories/PropsOnlyLive.v
