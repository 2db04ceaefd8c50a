-Q theories Verif
theories/Base.v
theories/BaseFacts.v
theories/Value.v
theories/BTree.v
theories/BTreeFacts.v
theories/Float53.v
theories/Float53Facts.v
theories/Utils.v
theories/Fermat.v
theories/Primality.v
theories/UtilsFacts.v
theories/Collection.v
theories/SpecMap.v
theories/CollectionFacts.v
theories/Group.v
theories/RoutingFacts.v
theories/GroupFacts.v
theories/GroupCapFacts.v
theories/GroupIterFacts.v
theories/GroupValFacts.v
theories/GroupNewFacts.v
theories/StorageThms.v
theories/PropsStorage.v
theories/Container.v
theories/ContainerFacts.v
theories/CondenseFacts.v
theories/ResizeFacts.v
theories/ContainerThms.v
theories/ContainerTx.v
theories/ContainerTxFacts.v
theories/PropsContainer.v
theories/Txn.v
theories/TxnFacts.v
theories/Connection.v
theories/ConnectionFacts.v
theories/ConnHistory.v
theories/InPlace.v
theories/InPlaceFacts.v
theories/PropsInPlace.v
theories/PropsConnection.v
theories/Dict.v
theories/DictFacts.v
theories/Legacy.v
theories/LegacyFacts.v
theories/GroupRead.v
theories/GroupReadFacts.v
theories/Fs.v
theories/FsFacts.v
theories/Cluster.v
theories/ClusterFacts.v
theories/DiscoverFacts.v
theories/PropsCluster.v
theories/Context.v
theories/ContextFacts.v
theories/JsonData.v
theories/JsonDataFacts.v
theories/Validate.v
theories/ValidateFacts.v
theories/PropsJson.v
theories/Duration.v
theories/DurationFacts.v
theories/Regex.v
theories/RegexFacts.v
theories/DateTime.v
theories/DateTimeFacts.v
theories/DateParseFacts.v
theories/DateTimeThms.v
theories/DateTimeMore.v
theories/Url.v
theories/DocLoader.v
theories/UrlFacts.v
theories/PropsTools.v
theories/PyClass.v
theories/PyClassFacts.v
theories/Kamino.v
theories/KaminoOrder.v
theories/KaminoFacts.v
theories/KaminoMro.v
theories/KaminoAttrs.v
theories/KaminoExact.v
theories/KaminoResolve.v
theories/KaminoDone.v
theories/KaminoMarks.v
theories/KaminoNames.v
theories/PropsKamino.v
theories/Package.v
theories/Engine.v
theories/PackageFacts.v
theories/PackageInit.v
theories/PackageThms.v
theories/PackageOut.v
theories/PackagePy.v
theories/PropsPackage.v
theories/Pickle.v
theories/PropsPickle.v
theories/ObjGraph.v
theories/ObjGraphFacts.v
theories/PropsGraph.v
theories/LoaderThreads.v
theories/LoaderThreadsFacts.v
theories/PropsThreads.v
theories/Intake.v
theories/IntakeFacts.v
theories/PropsIntake.v
theories/VocabTables.v
theories/Vocab.v
theories/VocabFacts.v
theories/VocabStore.v
theories/VocabConstruct.v
theories/VocabLinks.v
theories/VocabRead.v
theories/VocabClean.v
theories/PropsVocab.v
theories/Db.v
theories/DbFacts.v
theories/PropsDb.v
theories/RoundTrip.v
theories/RoundTripSpec.v
theories/RoundTripFacts.v
theories/RoundTripBack.v
theories/RoundTripLoss.v
theories/PropsRoundTrip.v
theories/PropsValues.v
theories/PropsLoader.v
theories/VocabMut.v
theories/VocabMutFacts.v
theories/PropsConvert.v
theories/PropsSerial.v
theories/Account.v
theories/AccountFacts.v
theories/LimitsFacts.v
theories/PropsAccount.v
theories/ConnStrict.v
theories/ConnStrictFacts.v
theories/PropsStrict.v
theories/LegacyConn.v
theories/LegacyConnFacts.v
theories/PropsLegacy.v
theories/JsonText.v
theories/JsonTextSpec.v
theories/JsonTextFacts.v
theories/JsonGrammar.v
theories/JsonGrammarFacts.v
theories/PropsText.v
theories/PropsGrammar.v
theories/GroupReport.v
theories/GroupReportFacts.v
theories/PropsReport.v
theories/ObjectRead.v
theories/ObjectReadSpec.v
theories/ObjectReadFacts.v
theories/PropsObject.v
theories/PropCache.v
theories/PropCacheSpec.v
theories/PropCacheFacts.v
theories/PropsCache.v
theories/PropsLink.v
theories/PropsEngine.v
theories/GroupOpen.v
theories/PropsGroupOpen.v
theories/CollectionIter.v
theories/PropsCollectionIter.v
theories/Managed.v
theories/PropsManaged.v
theories/FloatFacts.v
theories/PropsFloat.v
theories/PropsTight.v
theories/As2Spec.v
theories/PropsAs2.v
theories/Multi.v
theories/MultiFacts.v
theories/MultiSem.v
theories/MultiLin.v
theories/MultiHist.v
theories/MultiBlocks.v
theories/MultiLog.v
theories/MultiSound.v
theories/MultiStrict.v
theories/MultiMaint.v
theories/PropsMulti.v
theories/Shared.v
theories/SharedFacts.v
theories/SharedMove.v
theories/PropsShared.v
theories/Stringify.v
theories/StringifyFacts.v
theories/PropsStringify.v
theories/Unfinished.v
theories/PropsUnfinished.v
theories/CtxThreads.v
theories/CtxThreadsFacts.v
theories/PropsCtxThreads.v
theories/CrashFs.v
theories/CrashFsFacts.v
theories/PropsCrash.v
theories/LoaderAlias.v
theories/LoaderAliasFacts.v
theories/PropsLoaderAlias.v
theories/ListAlias.v
theories/ListAliasFacts.v
theories/PropsListAlias.v
theories/ConnThreads.v
theories/ConnThreadsFacts.v
theories/PropsConnThreads.v
theories/Session.v
theories/SessionFacts.v
theories/PropsSession.v
theories/ModuleOpenFacts.v
theories/PropsModuleOpen.v
theories/PropReg.v
theories/PropRegFacts.v
theories/PropRegDirect.v
theories/PropsPropReg.v
theories/MethodBind.v
theories/PropsMethods.v
theories/DirectUse.v
theories/DirectUseFacts.v
theories/PropsDirectUse.v
theories/WalkView.v
theories/WalkViewFacts.v
theories/PropsWalkView.v
theories/StrictFacts.v
theories/PropsStrictSession.v
theories/Audit.v
theories/AuditFacts.v
theories/PropsAudit.v
theories/LegacyGrow.v
theories/LegacyGrowFacts.v
theories/LegacyGrowConn.v
theories/LegacyGrowConnFacts.v
theories/PropsLegacyGrow.v
theories/CtxSteps.v
theories/CtxStepsFacts.v
theories/PropsCtxSteps.v
theories/CondenseAgain.v
theories/PropsCondenseAgain.v
theories/Pool.v
theories/PoolFacts.v
theories/PropsPool.v
theories/PastConn.v
theories/PastConnFacts.v
theories/PropsPast.v
