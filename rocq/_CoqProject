-Q theories Verif
theories/Prelude.v
theories/UuidModel.v
theories/UuidSpec.v
theories/UuidProofs.v
theories/UuidTheorems.v
theories/KeyModel.v
theories/KeySpec.v
theories/KeyProofs.v
theories/KeyTheorems.v
theories/CodecModel.v
theories/CodecSpec.v
theories/CodecProofs.v
theories/StringProofs.v
theories/CodecTheorems.v
theories/Utf8Theorems.v
theories/TextTable.v
theories/TextModel.v
theories/TextSpec.v
theories/TextSafety.v
theories/SplitProofs.v
theories/TextTheorems.v
theories/TextTokens.v
theories/TokenValues.v
theories/TokenStrings.v
theories/FrameProofs.v
theories/BuilderSpec.v
theories/BuilderProofs.v
theories/FrameErrors.v
theories/BuilderTheorems.v
theories/MergeModel.v
theories/MergeSpec.v
theories/MergeTextModel.v
theories/HeapProofs.v
theories/MergeProofs.v
theories/RgaProofs.v
theories/RgaTree.v
theories/MaxProofs.v
theories/MergeTheorems.v
theories/Txt.v
theories/MergeCases.v
theories/TextMergeSpec.v
theories/TextCursors.v
theories/MergeKeeps.v
theories/TextMerge.v
theories/SizeProofs.v
theories/TextMergeTheorems.v
theories/TextMergeCases.v
theories/IncStackModel.v
theories/IncStackTheorems.v
theories/ScanModel.v
theories/ScanSpec.v
theories/ScanProofs.v
theories/ScanAgrees.v
theories/ScanTheorems.v
theories/ScanCases.v
theories/StoreModel.v
theories/StoreSpec.v
theories/StoreProofs.v
theories/StoreTheorems.v
theories/StoreCases.v
theories/JoinProofs.v
theories/JoinTheorems.v
theories/JoinCases.v
theories/ClockModel.v
theories/ClockTheorems.v
theories/ClockWrong.v
theories/HashModel.v
theories/HashSpec.v
theories/HashProofs.v
theories/HashTheorems.v
theories/HashCases.v
theories/MetaModel.v
theories/MetaSpec.v
theories/MetaTheorems.v
theories/MetaCases.v
theories/ReplicaModel.v
theories/ReplicaSpec.v
theories/ReplicaProofs.v
theories/ReplicaTheorems.v
theories/ReplicaCases.v
theories/CompareModel.v
theories/CompareSpec.v
theories/CompareTheorems.v
theories/CompareCases.v
theories/RocksModel.v
theories/RocksSpec.v
theories/RocksProofs.v
theories/RocksTheorems.v
theories/RocksCases.v
theories/RocksRga.v
theories/RocksRgaCases.v
theories/RocksShown.v
theories/BranchModel.v
theories/BranchSpec.v
theories/BranchProofs.v
theories/BranchTheorems.v
theories/BranchCases.v
theories/BranchBarred.v
theories/BranchNever.v
theories/DurableSpec.v
theories/DurableProofs.v
theories/DurableTheorems.v
theories/DurableCases.v
theories/ForkModel.v
theories/ForkSpec.v
theories/ForkTheorems.v
theories/ForkCases.v
theories/NamesModel.v
theories/NamesSpec.v
theories/NamesTheorems.v
theories/NamesCases.v
theories/LogModel.v
theories/LogSpec.v
theories/LogProofs.v
theories/LogTheorems.v
theories/LogCases.v
theories/RecallTheorems.v
theories/RecallCases.v
theories/AnswerModel.v
theories/AnswerSpec.v
theories/AnswerTheorems.v
theories/AnswerCases.v
theories/TextAnswerSpec.v
theories/TextAnswerTheorems.v
theories/TextAnswerCases.v
theories/WriteSpec.v
theories/WriteTheorems.v
theories/WriteCases.v
theories/WriteMore.v
theories/WriteMoreCases.v
theories/HostModel.v
theories/HostSpec.v
theories/HostProofs.v
theories/HostTheorems.v
theories/HostCases.v
theories/LwwObjModel.v
theories/LwwObjSpec.v
theories/LwwObjTheorems.v
theories/LwwObjCases.v
theories/YarnSpec.v
theories/YarnMerge.v
theories/YarnProofs.v
theories/YarnJoin.v
theories/YarnTheorems.v
theories/YarnCases.v
theories/FieldTheorems.v
theories/FieldCases.v
theories/HashFrameModel.v
theories/HashFrameTheorems.v
theories/HashFrameCases.v
theories/StepsTheorems.v
theories/StepsStore.v
theories/StepsCases.v
theories/EscapeModel.v
theories/EscapeTheorems.v
theories/EscapeCases.v
theories/CliModel.v
theories/CliSpec.v
theories/CliNames.v
theories/CliProofs.v
theories/CliTheorems.v
theories/CliHistory.v
theories/CliListing.v
theories/CliCases.v
theories/ScriptModel.v
theories/ScriptSpec.v
theories/ScriptProofs.v
theories/ScriptTheorems.v
theories/ScriptStates.v
theories/ScriptCases.v
theories/SliceModel.v
theories/SliceSpec.v
theories/SliceProofs.v
theories/SliceTheorems.v
theories/SliceCases.v
theories/SliceMade.v
theories/HashText.v
theories/StoreOpen.v
theories/TextObjSpec.v
theories/TextObjProofs.v
theories/TextObjStory.v
theories/TextObjTheorems.v
theories/TextObjCases.v
theories/TextRecover.v
theories/TextRecoverCases.v
theories/ForkText.v
theories/ForkTextCases.v
theories/ForkLost.v
theories/ForkLostCases.v
theories/StatusModel.v
theories/StatusSpec.v
theories/StatusTheorems.v
theories/InitModel.v
theories/InitTheorems.v
theories/InitHistory.v
theories/InitCases.v
theories/DumpSpec.v
theories/DumpTheorems.v
theories/DumpCases.v
theories/CliNamedOn.v
theories/CliHop.v
theories/ReserTerms.v
theories/UuidExact.v
theories/StatusExact.v
theories/KeyExact.v
theories/MaxSigned.v
theories/Utf8Canon.v
theories/HashExact.v
theories/IncStackFar.v
theories/RecallCommand.v
theories/RecallCommandCases.v
theories/FamilyModel.v
theories/FamilyTheorems.v
theories/FamilyCases.v
theories/MapModel.v
theories/MapTheorems.v
theories/GcModel.v
theories/GcSpec.v
theories/GcProofs.v
theories/GcTheorems.v
theories/GcCases.v
theories/OpModel.v
theories/OpTheorems.v
theories/ReserModel.v
theories/ReserTheorems.v
theories/ReserCases.v
theories/EscTheorems.v
theories/Utf16Theorems.v
theories/Utf16Cases.v
theories/TextQueriesSpec.v
theories/TextQueries.v
theories/TextQueriesCases.v
