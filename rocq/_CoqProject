-Q theories Verif
theories/TreeModel.v
theories/TreeRep.v
theories/TreeInsert.v
theories/TreeDelete.v
theories/TreeOps.v
theories/TreeDeleteOps.v
theories/TreeSpec.v
theories/TreeRun.v
theories/PropertiesTree.v
theories/CacheModel.v
theories/CacheList.v
theories/CacheShard.v
theories/CacheSpec.v
theories/CacheRun.v
theories/CacheProps.v
theories/PropertiesCache.v
theories/PoolModel.v
theories/PoolSpec.v
theories/PoolProofs.v
theories/PropertiesPool.v
theories/ResourceModel.v
theories/ResourceSpec.v
theories/ResourceProofs.v
theories/ResourceRun.v
theories/ResourceSeq.v
theories/PropertiesResource.v
theories/CollectionModel.v
theories/CollectionSpec.v
theories/CollectionProofs.v
theories/CollectionRun.v
theories/CollectionCreate.v
theories/CollectionProps.v
theories/SearchModel.v
theories/SearchSpec.v
theories/SearchProofs.v
theories/ItemModel.v
theories/ItemProofs.v
theories/PropertiesCollection.v
theories/IpModel.v
theories/IpSpec.v
theories/IpProofs.v
theories/PropertiesIp.v
theories/StringModel.v
theories/StringSpec.v
theories/StringProofs.v
theories/PropertiesString.v
theories/FloatModel.v
theories/FloatSpec.v
theories/FloatProofs.v
theories/PropertiesFloat.v
theories/HeadersModel.v
theories/HeadersSpec.v
theories/HeadersProofs.v
theories/PropertiesHeaders.v
theories/EvidenceModel.v
theories/EvidenceSpec.v
theories/EvidenceProofs.v
theories/PropertiesEvidence.v
theories/PseudoModel.v
theories/PseudoSpec.v
theories/PseudoProofs.v
theories/PropertiesPseudo.v
theories/OverridesModel.v
theories/OverridesSpec.v
theories/OverridesProofs.v
theories/PropertiesOverrides.v
theories/PropsModel.v
theories/PropsSpec.v
theories/PropsProofs.v
theories/PropertiesProps.v
theories/MemoryModel.v
theories/MemorySpec.v
theories/MemoryProofs.v
theories/PropertiesMemory.v
theories/TextFileModel.v
theories/TextFileSpec.v
theories/TextFileProofs.v
theories/PropertiesTextFile.v
theories/YamlModel.v
theories/YamlSpec.v
theories/YamlProofs.v
theories/PropertiesYaml.v
theories/ProfileModel.v
theories/ProfileSpec.v
theories/ProfileProofs.v
theories/PropertiesProfile.v
theories/ListModel.v
theories/ListSpec.v
theories/ListProofs.v
theories/PropertiesList.v
theories/ReqModel.v
theories/ReqSpec.v
theories/ReqProofs.v
theories/PropertiesReq.v
theories/DataSetModel.v
theories/DataSetSpec.v
theories/DataSetProofs.v
theories/PropertiesDataSet.v
theories/SignalModel.v
theories/SignalSpec.v
theories/SignalProofs.v
theories/PropertiesSignal.v
theories/FilePathModel.v
theories/FilePathSpec.v
theories/FilePathProofs.v
theories/PropertiesFilePath.v
theories/FileModel.v
theories/FileSpec.v
theories/FileProofs.v
theories/PropertiesFile.v
theories/FileTempModel.v
theories/FileTempSpec.v
theories/FileTempProofs.v
theories/PropertiesFileTemp.v
theories/StatusModel.v
theories/StatusSpec.v
theories/StatusProofs.v
theories/PropertiesStatus.v
theories/ComponentModel.v
theories/ComponentSpec.v
theories/ComponentProofs.v
theories/PropertiesComponent.v
theories/EvidenceBaseModel.v
theories/EvidenceBaseSpec.v
theories/EvidenceBaseProofs.v
theories/PropertiesEvidenceBase.v
theories/EngineBaseModel.v
theories/EngineBaseSpec.v
theories/EngineBaseProofs.v
theories/PropertiesEngineBase.v
theories/ResultsModel.v
theories/ResultsSpec.v
theories/ResultsProofs.v
theories/PropertiesResults.v
theories/ConfigModel.v
theories/ConfigSpec.v
theories/ConfigProofs.v
theories/PropertiesConfig.v
theories/FilePoolModel.v
theories/FilePoolSpec.v
theories/FilePoolProofs.v
theories/PropertiesFilePool.v
theories/DataSetFileModel.v
theories/DataSetFileSpec.v
theories/DataSetFileProofs.v
theories/PropertiesDataSetFile.v
theories/ValueModel.v
theories/ValueSpec.v
theories/ValueProofs.v
theories/PropertiesValue.v
theories/LifeModel.v
theories/LifeSpec.v
theories/LifeProofs.v
theories/PropertiesLife.v
theories/InitModel.v
theories/InitSpec.v
theories/InitProofs.v
theories/PropertiesInit.v
theories/MetaModel.v
theories/MetaSpec.v
theories/MetaProofs.v
theories/PropertiesMeta.v
theories/HeldModel.v
theories/HeldSpec.v
theories/HeldProofs.v
theories/PropertiesHeld.v
theories/DbModel.v
theories/DbSpec.v
theories/DbProofs.v
theories/DbFound.v
theories/PropertiesDb.v
theories/CallsModel.v
theories/CallsSpec.v
theories/CallsGet.v
theories/CallsWorld.v
theories/CallsProofs.v
theories/PropertiesCalls.v
theories/CallsFail.v
theories/PropertiesCallsFail.v
theories/SignalLifeModel.v
theories/SignalLifeSpec.v
theories/SignalLifeProofs.v
theories/PropertiesSignalLife.v
theories/ThreadsModel.v
theories/ThreadsAlone.v
theories/ThreadsSpec.v
theories/ThreadsSafe.v
theories/ThreadsProofs.v
theories/PropertiesThreads.v
theories/ReuseModel.v
theories/ReuseSpec.v
theories/ReuseProofs.v
theories/ReuseRun.v
theories/ReuseAny.v
theories/PropertiesReuse.v
theories/LockModel.v
theories/LockSpec.v
theories/LockProofs.v
theories/LockRun.v
theories/LockProps.v
theories/LockCount.v
theories/PropertiesLock.v
theories/OverlapModel.v
theories/OverlapSpec.v
theories/OverlapProofs.v
theories/OverlapRun.v
theories/OverlapLocks.v
theories/PropertiesOverlap.v
theories/SessionModel.v
theories/SessionSpec.v
theories/SessionProofs.v
theories/PropertiesSession.v
theories/FirstUseModel.v
theories/FirstUseSpec.v
theories/FirstUseProofs.v
theories/PropertiesFirstUse.v
theories/WideModel.v
theories/WideSpec.v
theories/WideProofs.v
theories/PropertiesWide.v
theories/UnthreadedModel.v
theories/UnthreadedSpec.v
theories/UnthreadedProofs.v
theories/PropertiesUnthreaded.v
theories/PlainPoolModel.v
theories/PlainPoolSpec.v
theories/PlainPoolProofs.v
theories/PropertiesPlainPool.v
theories/CalmSpec.v
theories/CalmProofs.v
theories/PropertiesCalm.v
