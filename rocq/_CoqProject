-Q theories Verif
theories/Base.v
theories/CompactionModel.v
theories/CompactionSpec.v
theories/VarIntProofs.v
theories/CompactionProofs.v
theories/CompactionProofs2.v
theories/FloatModel.v
theories/FloatProofs.v
theories/CompactionProps.v
theories/TextModel.v
theories/TextProofs.v
theories/StringCompactionModel.v
theories/StringCompactionSpec.v
theories/StringCompactionProofs.v
theories/StringCompactionProps.v
theories/LinkedModel.v
theories/LinkedSpec.v
theories/LinkedProofs.v
theories/LinkedProofs2.v
theories/LinkedProofs3.v
theories/LinkedProofs4.v
theories/LinkedProofs5.v
theories/LinkedProps.v
theories/FileNameModel.v
theories/FileNameSpec.v
theories/FileNameProofs.v
theories/FileNameProps.v
theories/DocModel.v
theories/DiffModel.v
theories/DiffWireModel.v
theories/DiffSpec.v
theories/DiffProofs.v
theories/DiffProofs2.v
theories/DiffProofs3.v
theories/DiffProofs4.v
theories/DiffWireProofs.v
theories/DiffWireProofs2.v
theories/DiffWireProofs3.v
theories/DiffEditSpec.v
theories/DiffEditProofs.v
theories/DiffFrameProofs.v
theories/DiffEndProofs.v
theories/DiffSamples.v
theories/DiffProps.v
theories/PhaseModel.v
theories/PhaseSpec.v
theories/PhaseProofs.v
theories/PhaseProps.v
theories/TreeModel.v
theories/TreeSpec.v
theories/TreeProofs.v
theories/TreeProps.v
theories/HistModel.v
theories/HistSpec.v
theories/HistProofs.v
theories/ChainProofs.v
theories/HistInvProofs.v
theories/HistSaveProofs.v
theories/HistMainProofs.v
theories/HistProps.v
theories/RemoveModel.v
theories/RemoveSpec.v
theories/RemoveProofs.v
theories/RemoveLoadProofs.v
theories/RemoveMainProofs.v
theories/RemoveHistProofs.v
theories/RemoveFolderProofs.v
theories/RemoveProps.v
theories/ApplyModel.v
theories/ApplyProofs.v
theories/ApplyProps.v
theories/QueueModel.v
theories/QueueSpec.v
theories/QueueProofs.v
theories/QueueProps.v
theories/FolderModel.v
theories/FolderSpec.v
theories/FolderProofs.v
theories/FolderProps.v
theories/CrashModel.v
theories/CrashProofs.v
theories/CrashProps.v
theories/ArchiveModel.v
theories/ArchiveSpec.v
theories/ArchiveProofs.v
theories/ArchiveWireProofs.v
theories/ArchiveProps.v
theories/JsonModel.v
theories/JsonSpec.v
theories/JsonNameProofs.v
theories/JsonProofs.v
theories/JsonOrderProofs.v
theories/JsonProps.v
theories/ValidModel.v
theories/ValidSpec.v
theories/ValidProofs.v
theories/LoadSpec.v
theories/LoadProofs.v
theories/ValidProps.v
theories/EmbedSpec.v
theories/EmbedProofs.v
theories/EmbedProps.v
theories/AdjustModel.v
theories/AdjustSpec.v
theories/AdjustProofs.v
theories/AdjustProps.v
theories/IntfModel.v
theories/IntfSpec.v
theories/IntfProofs.v
theories/IntfLoadProofs.v
theories/IntfProps.v
theories/Json5Model.v
theories/Json5Spec.v
theories/Json5Proofs.v
theories/Json5FloatProofs.v
theories/Json5NumberProofs.v
theories/Json5StringProofs.v
theories/Json5ValueProofs.v
theories/Json5TextProofs.v
theories/Json5Props.v
theories/PrintModel.v
theories/PrintSpec.v
theories/PrintTextProofs.v
theories/PrintProofs.v
theories/PrintItemProofs.v
theories/PrintShowProofs.v
theories/PrintProps.v
theories/GenModel.v
theories/GenSpec.v
theories/GenNameProofs.v
theories/GenProofs.v
theories/GenWellProofs.v
theories/GenRunProofs.v
theories/GenCheckProofs.v
theories/GenProps.v
theories/SourceModel.v
theories/SourceSpec.v
theories/SourceProofs.v
theories/SourceProps.v
theories/ListingModel.v
theories/ListingSpec.v
theories/ListingProofs.v
theories/ListingProps.v
theories/ThreadsModel.v
theories/ThreadsSpec.v
theories/ThreadsProofs.v
theories/ThreadsProps.v
theories/SizeSpec.v
theories/SizeProofs.v
theories/SizeProps.v
theories/GrownProofs.v
theories/WholeSpec.v
theories/WholeProofs.v
theories/PlaceProofs.v
theories/WholeProps.v
theories/ArcModel.v
theories/ArcSpec.v
theories/ArcProofs.v
theories/ArcProofs2.v
theories/ArcProofs3.v
theories/ArcProofs4.v
theories/ArcProofs5.v
theories/ArcProofs6.v
theories/ArcProps.v
theories/SaysSpec.v
theories/SaysProofs.v
theories/SaysProofs2.v
theories/SaysProofs3.v
theories/SaysProofs4.v
theories/SameSpec.v
theories/SaysProofs5.v
theories/SaysProps.v
theories/AverageModel.v
theories/AverageSpec.v
theories/AverageProofs.v
theories/AverageProofs2.v
theories/AverageProps.v
theories/SavedModel.v
theories/SavedProofs.v
theories/SavedProps.v
theories/ReadModel.v
theories/ReadSpec.v
theories/ReadProofs.v
theories/ReadProps.v
theories/AgainModel.v
theories/AgainSpec.v
theories/AgainProofs.v
theories/AgainProps.v
theories/CodeModel.v
theories/CodeSpec.v
theories/CodeLexProofs.v
theories/CodeFnProofs.v
theories/CodeItemProofs.v
theories/CodeProofs.v
theories/CodeNameProofs.v
theories/CodeSamples.v
theories/CodeProps.v
theories/ApiModel.v
theories/TypeSpec.v
theories/TypeProofs.v
theories/TypeFnProofs.v
theories/TypeItemProofs.v
theories/TypeGenProofs.v
theories/TypeProps.v
theories/RunModel.v
theories/RunSpec.v
theories/RunProofs.v
theories/RunGenProofs.v
theories/RunWayProofs.v
theories/RunAskProofs.v
theories/RunIdProofs.v
theories/RunProps.v
theories/WroteSpec.v
theories/WroteProofs.v
theories/WroteStepProofs.v
theories/WroteProps.v
theories/ListedSpec.v
theories/ListedProofs.v
theories/ListedAskProofs.v
theories/ListedStepProofs.v
theories/ListedProps.v
theories/CalledSpec.v
theories/CalledProofs.v
theories/CalledProps.v
theories/CursorModel.v
theories/CursorSpec.v
theories/CursorProofs.v
theories/CursorProps.v
theories/ThroughSpec.v
theories/ThroughProps.v
theories/ToldSpec.v
theories/ToldProofs.v
theories/ToldProps.v
theories/AcrossSpec.v
theories/AcrossProps.v
theories/InnerSpec.v
theories/InnerProps.v
theories/UpdateSpec.v
theories/UpdateProps.v
theories/UpdateFileProps.v
theories/LoopModel.v
theories/LoopSpec.v
theories/LoopProofs.v
theories/LoopSetProofs.v
theories/LoopProps.v
theories/SharedSpec.v
theories/SharedProofs.v
theories/SharedGenProofs.v
theories/SharedPassProofs.v
theories/SharedProps.v
theories/SoundSpec.v
theories/SoundProofs.v
theories/SoundStepProofs.v
theories/SoundGenProofs.v
theories/SoundTimeProofs.v
theories/SoundProps.v
theories/TimeProofs.v
theories/TimeFnProofs.v
theories/TimeGenProofs.v
theories/TimeMoreProofs.v
theories/TimeProps.v
theories/EndSpec.v
theories/EndProofs.v
theories/EndGenProofs.v
theories/EndProps.v
theories/BesideSpec.v
theories/BesideProofs.v
theories/BesideProps.v
theories/LayerSpec.v
theories/LayerProofs.v
theories/LayerGenProofs.v
theories/LayerTypeProofs.v
theories/LayerProps.v
