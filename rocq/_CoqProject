-Q theories Verif

theories/Base.v
theories/Utf8.v
theories/BufferModel.v
theories/UtilModel.v
theories/HistoryModel.v
theories/EditorState.v
theories/EditorModel.v
theories/KeymapModel.v
theories/ViModel.v
theories/CompleteModel.v
theories/Tests.v
theories/Lemmas.v
theories/BufferSpec.v
theories/BufferProofs.v
theories/BufferGroups.v
theories/Utf8Proofs.v
theories/TextProofs.v
theories/BufferProps.v
theories/UtilSpec.v
theories/UtilProofs.v
theories/UtilProps.v
theories/CompleteSpec.v
theories/CompleteProofs.v
theories/CompleteProps.v
theories/HistorySpec.v
theories/HistoryProofs.v
theories/HistoryFiles.v
theories/HistoryProps.v
theories/MonadLemmas.v
theories/EditorLemmas.v
theories/CursorProofs.v
theories/ErrorProofs.v
theories/EditorSpec.v
theories/EditorProofs.v
theories/EditorOps.v
theories/SuggestProofs.v
theories/SuggestSession.v
theories/SearchProofs.v
theories/Samples.v
theories/SessionProofs.v
theories/EditorProps.v
theories/ViSpec.v
theories/ViEffects.v
theories/ViModes.v
theories/ViRepeat.v
theories/ViMotion.v
theories/ViKeys.v
theories/ViCommands.v
theories/ViInsert.v
theories/ViProps.v
theories/BrowseSpec.v
theories/BrowseProofs.v
theories/BrowseProps.v
theories/EmacsSpec.v
theories/EmacsProofs.v
theories/LastArgProofs.v
theories/EmacsProps.v
theories/TabSpec.v
theories/TabProofs.v
theories/TabProps.v
theories/SafeSpec.v
theories/SafeProofs.v
theories/SafeEditor.v
theories/SafeMethods.v
theories/SafeEmacs.v
theories/SafeProps.v
theories/SafeView.v
theories/SafeViSpec.v
theories/SafeVi.v
theories/SafeViCore.v
theories/InterruptProofs.v
theories/SafeViProps.v
theories/ScreenSpec.v
theories/ScreenProofs.v
theories/ScreenProps.v
theories/GridSpec.v
theories/GridProofs.v
theories/GridProps.v
theories/FreshSpec.v
theories/FreshProofs.v
theories/FreshProps.v
theories/ViChangeSpec.v
theories/ViChange.v
theories/ViCount.v
theories/ViChangeProps.v
theories/ViHint.v
theories/ViDotSpec.v
theories/ViDot.v
theories/ViDotProps.v
theories/WalkSpec.v
theories/PinProofs.v
theories/WalkProofs.v
theories/WalkProps.v
theories/SearchSpec.v
theories/SearchSession.v
theories/SearchFollow.v
theories/SearchProps.v
theories/ShareSpec.v
theories/ShareProofs.v
theories/ShareRuns.v
theories/ShareProps.v
theories/ReplModel.v
theories/ReplSpec.v
theories/ReplProofs.v
theories/ReplProps.v
theories/EventModel.v
theories/EventSpec.v
theories/EventProofs.v
theories/EventRuns.v
theories/EventProps.v
theories/EnterSpec.v
theories/EnterProofs.v
theories/EnterProps.v
theories/ScrollSpec.v
theories/ScrollProofs.v
theories/ScrollProps.v
theories/BookSpec.v
theories/BookProofs.v
theories/BookProps.v
theories/ReadSpec.v
theories/ReadProofs.v
theories/ReadTotal.v
theories/ReadProps.v
theories/RedoProofs.v
theories/RedoProps.v
theories/EndsProofs.v
theories/EndsProps.v
theories/InertSpec.v
theories/InertProofs.v
theories/InertProps.v
theories/AliasProofs.v
theories/AliasProps.v
