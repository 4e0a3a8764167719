-Q theories Verif
theories/Base.v
theories/Utf8.v
theories/Utf8Proofs.v
theories/LossySpec.v
theories/LossyProofs.v
theories/Grapheme.v
theories/UnicodeTable.v
theories/Position.v
theories/GapBuffer.v
theories/Cursor.v
theories/PathModel.v
theories/Buffer.v
theories/LineIterator.v
theories/Token.v
theories/Workspace.v
theories/ClusterSpec.v
theories/GraphemeProofs.v
theories/GapBufferProofs.v
theories/Spec.v
theories/Calls.v
theories/TextProofs.v
theories/UaxProofs.v
theories/HalvesProofs.v
theories/TextFacts.v
theories/GapProps.v
theories/Witness.v
theories/Properties_Gap.v
theories/CursorSpec.v
theories/CursorCalls.v
theories/CursorProofs.v
theories/ShapeProofs.v
theories/Properties_Shape.v
theories/Properties_Cursor.v
theories/BufferCalls.v
theories/Timeline.v
theories/OpProofs.v
theories/TimelineProofs.v
theories/AnyTextProofs.v
theories/BufferProps.v
theories/BufferIoProps.v
theories/BufferSimple.v
theories/Disks.v
theories/BufferFacts.v
theories/Properties_Buffer.v
theories/Editor.v
theories/EditorProofs.v
theories/EditorProps.v
theories/Properties_Editor.v
theories/SearchSpec.v
theories/SearchProofs.v
theories/Properties_Search.v
theories/MarkSpec.v
theories/MarkProofs.v
theories/Properties_Mark.v
theories/MarkEditor.v
theories/MarkEditorProofs.v
theories/EveryTextProofs.v
theories/Properties_EveryText.v
theories/TokenSpec.v
theories/TokenProofs.v
theories/TokenProps.v
theories/TokenWitness.v
theories/Properties_Token.v
theories/WorkspaceSpec.v
theories/WorkspaceProofs.v
theories/WorkspaceProps.v
theories/WorkspaceWitness.v
theories/Properties_Workspace.v
theories/Bench.v
theories/BenchProofs.v
theories/Properties_Field.v
theories/Racing.v
theories/RacingProofs.v
theories/Properties_Racing.v
theories/FileProofs.v
theories/Properties_Files.v
theories/Shared.v
theories/SharedSpec.v
theories/SharedProofs.v
theories/SharedUseProofs.v
theories/AttachSpec.v
theories/AttachProofs.v
theories/SharedWitness.v
theories/Properties_Shared.v
theories/Properties_Attach.v
theories/Machine.v
theories/MachineSpec.v
theories/MachineProofs.v
theories/MachineEnough.v
theories/Properties_Machine.v
theories/ExactProofs.v
theories/TokenCuts.v
theories/TokenCutsProofs.v
theories/Properties_Exact.v
theories/GrowthSpec.v
theories/GrowthProofs.v
theories/Properties_Growth.v
theories/OfficeSpec.v
theories/OfficeProofs.v
theories/Properties_Office.v
theories/MachineWork.v
theories/MachineWorkSpec.v
theories/MachineWorkProofs.v
theories/Properties_MachineWork.v
theories/TokenStream.v
theories/TokenStreamProofs.v
theories/Properties_Stream.v
theories/World.v
theories/WorldSpec.v
theories/WorldWitness.v
theories/WorldProofs.v
theories/Properties_World.v
theories/StoreSpec.v
theories/StoreProofs.v
theories/Properties_Store.v
theories/Saving.v
theories/SavingSpec.v
theories/SavingProofs.v
theories/TwoSavesProofs.v
theories/Properties_Save.v
theories/FailSpec.v
theories/FailProofs.v
theories/Properties_Fail.v
theories/Power.v
theories/PowerProofs.v
theories/Properties_Power.v
theories/HardLinks.v
theories/HardWitness.v
theories/HardProofs.v
theories/Properties_Hard.v
theories/LawSpec.v
theories/LawProofs.v
theories/Properties_Law.v
theories/BookSpec.v
theories/BookProofs.v
theories/Properties_Book.v
theories/RedoSpec.v
theories/RedoProofs.v
theories/Properties_Redo.v
theories/KeptProofs.v
theories/Properties_Kept.v
theories/CountSpec.v
theories/CountProofs.v
theories/Properties_Count.v
theories/HighlightSpec.v
theories/HighlightProofs.v
theories/Properties_Highlight.v
theories/Loading.v
theories/LoadingSpec.v
theories/LoadingProofs.v
theories/Properties_Load.v
theories/Throwing.v
theories/ThrowSpec.v
theories/ThrowProofs.v
theories/ThrowGroupProofs.v
theories/Properties_Throw.v
theories/Renaming.v
theories/RenamingSpec.v
theories/RenamingProofs.v
theories/Properties_Rename.v
theories/Opening.v
theories/OpeningSpec.v
theories/OpeningProofs.v
theories/OpeningWitness.v
theories/Properties_Open.v
theories/Programs.v
theories/ProgramsSpec.v
theories/ProgramsProofs.v
theories/ProgramsWitness.v
theories/Properties_Programs.v
theories/Copies.v
theories/CopiesSpec.v
theories/CopiesProofs.v
theories/CopiesWitness.v
theories/Properties_Copies.v
theories/PlaceProofs.v
theories/Properties_Place.v
theories/Syntaxes.v
theories/SyntaxesSpec.v
theories/SyntaxesProofs.v
theories/SyntaxesWitness.v
theories/Properties_Syntaxes.v
theories/CapacitySpec.v
theories/CapacityProofs.v
theories/Properties_Capacity.v
theories/Torn.v
theories/TornSpec.v
theories/TornProofs.v
theories/Properties_Torn.v
theories/UndoMemorySpec.v
theories/UndoMemoryProofs.v
theories/Properties_UndoMemory.v
theories/Desk.v
theories/DeskSpec.v
theories/DeskProofs.v
theories/DeskValues.v
theories/DeskWitness.v
theories/Properties_Desk.v
theories/HoldersSpec.v
theories/HoldersProofs.v
theories/Properties_Holders.v
