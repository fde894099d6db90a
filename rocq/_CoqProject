-Q theories Verif

theories/Base.v
theories/BaseFacts.v
theories/MetadataModel.v
theories/CrcProofs.v
theories/MetadataProofs.v
theories/MetadataSpec.v
theories/MetadataProofs2.v
theories/MetadataProps.v
theories/DiskSpec.v
theories/LazyState.v
theories/LazyModel.v
theories/LazyInv.v
theories/LazyTac.v
theories/LazyInvGuest.v
theories/LazyInvFetch.v
theories/LazyInvMeta.v
theories/LazySpec.v
theories/LazySim.v
theories/TraceSpec.v
theories/TraceFacts.v
theories/LazyInv2.v
theories/LazyReach.v
theories/LazyRun.v
theories/LazyProofs.v
theories/LazyProofs2.v
theories/LazyProps.v
theories/LazyRefuted.v
theories/LazyLiveSpec.v
theories/LazyLive.v
theories/LazyProgress.v
theories/LazyLiveProps.v
theories/ListFacts.v
theories/CryptModel.v
theories/CryptSpec.v
theories/CryptProofs.v
theories/KeyModel.v
theories/CryptProps.v
theories/ArchiveModel.v
theories/ArchiverModel.v
theories/ArchiveSpec.v
theories/ArchiveProofs.v
theories/ArchiverProofs.v
theories/ArchiverProofs2.v
theories/ArchiveProps.v
theories/WireModel.v
theories/WireSpec.v
theories/WireProofs.v
theories/ArchiveToy.v
theories/ArchiveProps2.v
theories/ArchiveExamples.v
theories/WireProps.v
theories/ArchiveSourceModel.v
theories/ArchiveSourceProofs.v
theories/ExportProofs.v
theories/ExportProps.v
theories/RemoteModel.v
theories/RemoteSpec.v
theories/RemoteProofs.v
theories/RemoteProps.v
theories/RemotePoolModel.v
theories/RemotePoolProofs.v
theories/RemotePoolProps.v
theories/StripeSizeProps.v
theories/VhostModel.v
theories/VhostSpec.v
theories/VhostProofs.v
theories/VhostProps.v
theories/VhostPanic.v
theories/UringModel.v
theories/UringProps.v
theories/TrackerModel.v
theories/TrackerProps.v
theories/UblkModel.v
theories/UblkSpec.v
theories/UblkProofs.v
theories/UblkProps.v
theories/IncludesModel.v
theories/IncludesSpec.v
theories/IncludesProofs.v
theories/IncludesProps.v
theories/SecretsModel.v
theories/SecretsSpec.v
theories/SecretsProofs.v
theories/SecretsProps.v
theories/ConfigModel.v
theories/TuningProps.v
theories/ConfigProps.v
theories/StoreModel.v
theories/StoreSpec.v
theories/StoreProofs.v
theories/StoreProps.v
theories/PskModel.v
theories/PskSpec.v
theories/PskProps.v
theories/SetupModel.v
theories/SetupSpec.v
theories/SetupProofs.v
theories/SetupProps.v
theories/RpcModel.v
theories/RpcUtf8.v
theories/RpcSpec.v
theories/RpcProofs.v
theories/RpcProps.v
theories/XtsModel.v
theories/XtsSpec.v
theories/XtsProps.v
theories/ToolsModel.v
theories/ToolsSpec.v
theories/ToolsProps.v
theories/WaitModel.v
theories/WaitSpec.v
theories/WaitProps.v
theories/FsStoreModel.v
theories/FsStoreSpec.v
theories/FsStoreProps.v
theories/SockModel.v
theories/SockSpec.v
theories/SockProps.v
theories/LoopModel.v
theories/LoopProps.v
theories/RetryModel.v
theories/RetryProps.v
theories/OfflineModel.v
theories/OfflineSpec.v
theories/OfflineProofs.v
theories/OfflineProps.v
theories/MoveProps.v
theories/SyncModel.v
theories/SyncSpec.v
theories/SyncProofs.v
theories/SyncProps.v
theories/BufModel.v
theories/BufSpec.v
theories/BufProps.v
theories/WtSpec.v
theories/WtProofs.v
theories/WtProps.v
theories/KickModel.v
theories/KickSpec.v
theories/KickProofs.v
theories/KickProps.v
theories/LegacyModel.v
theories/LegacyProps.v
theories/SectionsModel.v
theories/SectionsSpec.v
theories/SectionsProofs.v
theories/SectionsProps.v
theories/GuestModel.v
theories/GuestSpec.v
theories/GuestProofs.v
theories/GuestProps.v
theories/LayerModel.v
theories/LayerSpec.v
theories/LayerIds.v
theories/LayerPatch.v
theories/LayerProofs.v
theories/LayerStack.v
theories/LayerProps.v
theories/AheadFacts.v
theories/UblkDiskModel.v
theories/UblkDiskSpec.v
theories/UblkDiskProofs.v
theories/UblkDiskProps.v
theories/UringDiskModel.v
theories/UringDiskSpec.v
theories/UringDiskProofs.v
theories/UringDiskProps.v
theories/CryptOpenModel.v
theories/CryptOpenSpec.v
theories/CryptOpenProofs.v
theories/CryptOpenCheck.v
theories/CryptOpenProps.v
theories/RingSpec.v
theories/RingProofs.v
theories/RingStack.v
theories/RingProps.v
theories/StackModel.v
theories/StackSpec.v
theories/StackProofs.v
theories/StackProps.v
theories/KeptFacts.v
theories/ThroughProofs.v
theories/ThroughProps.v
theories/RestartSpec.v
theories/RestartFacts.v
theories/RestartProofs.v
theories/RestartProps.v
theories/MetaLayerModel.v
theories/MetaLayerPatch.v
theories/MetaLayerProofs.v
theories/MetaLayerProps.v
theories/NegotiateModel.v
theories/NegotiateSpec.v
theories/NegotiateProps.v
theories/CloneModel.v
theories/CloneSpec.v
theories/CloneProofs.v
theories/CloneProps.v
theories/TailSpec.v
theories/TailProofs.v
theories/TailProps.v
theories/BackupModel.v
theories/BackupSpec.v
theories/BackupProofs.v
theories/BackupProps.v
