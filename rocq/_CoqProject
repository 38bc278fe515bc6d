-Q theories Verif
theories/Base.v
theories/Fp.v
theories/Key.v
theories/PitchClass.v
theories/KeyProfile.v
theories/KeyTransition.v
theories/Hmm.v
theories/MusicSpec.v
theories/BaseFacts.v
theories/KeyFacts.v
theories/KeyProps.v
theories/PropsKey.v
theories/ProfileFacts.v
theories/TransitionFacts.v
theories/ViterbiSpec.v
theories/ViterbiFacts.v
theories/FpFacts.v
theories/HmmSpec.v
theories/HmmFacts.v
theories/HmmOrder.v
theories/NumFacts.v
theories/PropsTables.v
theories/LogFacts.v
theories/HmmAccuracy.v
theories/HmmCheck.v
theories/PropsViterbi.v
theories/Pipeline.v
theories/PipelineSpec.v
theories/PipelineFacts.v
theories/TransposeFacts.v
theories/TransposeMain.v
theories/TableCheck.v
theories/PropsDetect.v
theories/Text.v
theories/Options.v
theories/Output.v
theories/TextSpec.v
theories/TextFacts.v
theories/NumberFacts.v
theories/ReadFacts.v
theories/Chromagram.v
theories/Midi.v
theories/Mixdown.v
theories/Main.v
theories/MainSpec.v
theories/OutputFacts.v
theories/FormatFacts.v
theories/OptionFacts.v
theories/MainFacts.v
theories/PropsMain.v
theories/ChromaSpec.v
theories/ChromaFacts.v
theories/SequenceFacts.v
theories/ChromaMain.v
theories/MixFacts.v
theories/ChromaCases.v
theories/PropsChroma.v
theories/PrintSpec.v
theories/PrintFacts.v
theories/PrintUnique.v
theories/DumpFacts.v
theories/DumpMain.v
theories/TextMain.v
theories/TextCases.v
theories/PropsText.v
theories/DataSpec.v
theories/DataFacts.v
theories/PropsData.v
theories/Py.v
theories/Dataset.v
theories/FloatKit.v
theories/DatasetSpec.v
theories/DatasetFacts.v
theories/LabelFacts.v
theories/PropsDataset.v
theories/Stl.v
theories/StlSpec.v
theories/StlFacts.v
theories/PropsStl.v
theories/NnlsViterbi.v
theories/NnlsViterbiSpec.v
theories/NnlsViterbiFacts.v
theories/PropsNnls.v
theories/OptTables.v
theories/Optimizer.v
theories/OptSpec.v
theories/OptFacts.v
theories/PropsOpt.v
theories/NearFacts.v
theories/GenFacts.v
theories/PropsGen.v
theories/EvoFacts.v
theories/PropsEvo.v
theories/EvoKtFacts.v
theories/PropsEvoKt.v
theories/Ga.v
theories/GaSpec.v
theories/GaFacts.v
theories/EvalFacts.v
theories/GaRunFacts.v
theories/PropsGa.v
theories/Ensemble.v
theories/EnsembleSpec.v
theories/EnsembleFacts.v
theories/EnsembleRun.v
theories/EnsembleScore.v
theories/EnsembleScale.v
theories/EnsembleMain.v
theories/PropsEnsemble.v
theories/Creator.v
theories/CreatorSpec.v
theories/CreatorFacts.v
theories/CreatorLoop.v
theories/CreatorStore.v
theories/CreatorMain.v
theories/CreatorRead.v
theories/PropsCreator.v
theories/TrainFacts.v
theories/PropsTrain.v
theories/Nnls.v
theories/NnlsArith.v
theories/NnlsSpec.v
theories/NnlsFacts.v
theories/NnlsParts.v
theories/NnlsSteps.v
theories/NnlsLoop.v
theories/NnlsSafe.v
theories/NnlsSums.v
theories/NnlsExact.v
theories/NnlsKeep.v
theories/NnlsMain.v
theories/NnlsVisited.v
theories/NnlsSingle.v
theories/NnlsEnds.v
theories/NnlsCases.v
theories/PropsNnls2.v
theories/Plug.v
theories/PlugFacts.v
theories/PlugNum.v
theories/PlugSafe.v
theories/PlugFrame.v
theories/PlugSpec.v
theories/PlugChroma.v
theories/PlugMain.v
theories/PlugClean.v
theories/PlugTuning.v
theories/PlugNan.v
theories/PlugNotes.v
theories/PlugNorm.v
theories/PlugCases.v
theories/PropsPlug.v
theories/RunSpec.v
theories/MainRun.v
theories/PropsRun.v
theories/PlugStageSpec.v
theories/PlugStages.v
theories/PlugRun.v
theories/PlugSilence.v
theories/PropsStage.v
theories/SoundFacts.v
theories/PropsSound.v
theories/ChordViterbi.v
theories/ChordSpec.v
theories/ChordFacts.v
theories/ChordExact.v
theories/PropsChord.v
theories/Chords.v
theories/ChordsSpec.v
theories/ChordsFacts.v
theories/ChordsRun.v
theories/ChordsWhole.v
theories/ChordsCases.v
theories/PropsChords.v
theories/NearSpec.v
theories/ChordNear.v
theories/ChordsNear.v
theories/PropsNear.v
theories/Setup.v
theories/SetupSpec.v
theories/SetupFacts.v
theories/SetupNotes.v
theories/SetupMachine.v
theories/SetupReady.v
theories/SetupMain.v
theories/PropsSetup.v
theories/Tune.v
theories/TuneSpec.v
theories/TuneFacts.v
theories/TuneMain.v
theories/PropsTune.v
theories/Dict.v
theories/DictSpec.v
theories/DictFacts.v
theories/PropsDict.v
theories/Search.v
theories/SearchSpec.v
theories/SearchFacts.v
theories/PropsSearch.v
theories/Rename.v
theories/RenameSpec.v
theories/RenameFacts.v
theories/PropsRename.v
theories/Tools.v
theories/ToolsSpec.v
theories/ToolsFacts.v
theories/PropsTools.v
theories/Keys.v
theories/KeysSpec.v
theories/KeysFacts.v
theories/PropsKeys.v
theories/Tester.v
theories/TesterFacts.v
theories/PropsTester.v
theories/Outputs.v
theories/OutputsFacts.v
theories/PropsOutputs.v
theories/ChordOutputs.v
theories/PropsChordOutputs.v
