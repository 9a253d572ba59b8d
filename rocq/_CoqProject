-Q theories Verif
theories/Base.v
theories/MerkleModel.v
theories/MerkleSpec.v
theories/MerkleProofs.v
theories/MerkleProofs2.v
theories/MerkleProofs3.v
theories/CtFetchModel.v
theories/CtFetchProofs.v
theories/CtFetchSafety.v
theories/CtFetchJobs.v
theories/CtFetchTiled.v
theories/CtFetchMin.v
theories/CtSystem.v
theories/CtFetchEnd.v
theories/P_Merkle.v
theories/P_CtFetch.v
theories/CtFetchLive.v
theories/P_Live.v
theories/P_TiledLive.v
theories/SerialModel.v
theories/TimeModel.v
theories/TimeProofs.v
theories/SerialProofs.v
theories/CommitModel.v
theories/CommitProofs.v
theories/CommitProofs2.v
theories/CommitRetry.v
theories/CommitExec.v
theories/P_Serial.v
theories/P_ExpDate.v
theories/P_Commit.v
theories/Base64.v
theories/Base64Spec.v
theories/StoreModel.v
theories/StoreProofs.v
theories/P_Store.v
theories/AggModel.v
theories/AggProofs.v
theories/P_Agg.v
theories/P_Download.v
theories/KnownModel.v
theories/P_Known.v
theories/IssuersModel.v
theories/P_Issuers.v
theories/FilterModel.v
theories/FilterProofs.v
theories/P_Filter.v
theories/P_RevokedFile.v
theories/ReasonCsvModel.v
theories/P_ReasonCsv.v
theories/QueryModel.v
theories/TextProofs.v
theories/P_Query.v
theories/RemoteModel.v
theories/PublishModel.v
theories/P_RunIds.v
theories/PublishProofs.v
theories/IsoProofs.v
theories/PublishProofs2.v
theories/P_Publish.v
theories/PublishProofs3.v
theories/PublishProofs4.v
theories/P_Recover.v
theories/PipelineModel.v
theories/PipelineProofs.v
theories/PipelineSystem.v
theories/P_Pipeline.v
theories/RemoteProofs.v
theories/CtlogsModel.v
theories/CtlogsProofs.v
theories/P_Ctlogs.v
theories/IntermediatesModel.v
theories/P_Intermediates.v
theories/ConfigModel.v
theories/P_Config.v
theories/EnrolModel.v
theories/P_Enrol.v
theories/P_EndToEnd.v
theories/SignoffModel.v
theories/SignoffProofs.v
theories/P_Signoff.v
theories/BuildStartModel.v
theories/P_BuildStart.v
theories/MockModel.v
theories/P_Mock.v
theories/LoadModel.v
theories/P_Load.v
theories/AggSystem.v
theories/AggSysProofs.v
theories/AggSysInv.v
theories/AggSysEnd.v
theories/P_Audit.v
theories/P_AggSystem.v
theories/P_SerialFile.v
theories/CommitSystem.v
theories/CommitSystemProofs.v
theories/CommitSystemProofs2.v
theories/CommitSystemExec.v
theories/P_CommitSystem.v
theories/KnownSystem.v
theories/KnownSystemProofs.v
theories/P_KnownSystem.v
theories/HealthModel.v
theories/P_Health.v
theories/LeafModel.v
theories/P_Leaf.v
theories/TiledIssuerModel.v
theories/P_TiledIssuer.v
theories/DerModel.v
theories/P_Der.v
theories/JsonModel.v
theories/JsonSpec.v
theories/JsonProofs.v
theories/JsonTime.v
theories/JsonCut.v
theories/JsonSound.v
theories/P_Json.v
theories/PemModel.v
theories/P_Pem.v
theories/CsvModel.v
theories/CsvSpec.v
theories/CsvProofs.v
theories/P_Csv.v
theories/EpochModel.v
theories/P_Epoch.v
theories/IdentityModel.v
theories/P_Identity.v
theories/PublishMainModel.v
theories/P_PublishMain.v
theories/RetryModel.v
theories/P_Retry.v
theories/P_Priority.v
theories/WaitModel.v
theories/P_Wait.v
theories/MetaModel.v
theories/P_Meta.v
theories/SaveModel.v
theories/P_Save.v
theories/P_Whole.v
theories/P_Restart.v
theories/P_AuditSystem.v
theories/P_Names.v
