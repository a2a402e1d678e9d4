-Q theories Verif
theories/Base.v
theories/BaseFacts.v
theories/BerModel.v
theories/BerSpec.v
theories/BerProofs.v
theories/LdapModel.v
theories/LdapSpec.v
theories/LdapProofs.v
theories/PropsBer.v
theories/PropsLdap.v
theories/StreamModel.v
theories/StreamSpec.v
theories/StreamProofs.v
theories/PropsStream.v
theories/DnModel.v
theories/DnSpec.v
theories/DnProofs.v
theories/PropsDn.v
theories/AsnSpec.v
theories/AsnProofs.v
theories/PropsAsn.v
theories/Utf8Model.v
theories/Utf8Proofs.v
theories/EntryModel.v
theories/EntrySpec.v
theories/EntryProofs.v
theories/SortFacts.v
theories/DiffProofs.v
theories/PropsEntry.v
theories/DeltaModel.v
theories/DeltaSpec.v
theories/DeltaProofs.v
theories/MatchModel.v
theories/MatchSpec.v
theories/MatchProofs.v
theories/PropsDelta.v
theories/PropsMatch.v
theories/InmemModel.v
theories/InmemSpec.v
theories/InmemProofs.v
theories/InmemHist.v
theories/InmemMove.v
theories/PropsInmem.v
theories/UtilModel.v
theories/UtilSpec.v
theories/UtilProofs.v
theories/PropsUtil.v
theories/LdifModel.v
theories/LdifSpec.v
theories/LdifProofs.v
theories/LdifRead.v
theories/LdifRound.v
theories/PropsLdif.v
theories/ClientModel.v
theories/ClientSpec.v
theories/ClientProofs.v
theories/ClientStream.v
theories/ClientKinds.v
theories/PropsClient.v
theories/PwModel.v
theories/PwSpec.v
theories/PwProofs.v
theories/ServerModel.v
theories/ServerSpec.v
theories/ServerProofs.v
theories/ServerText.v
theories/ServerSearch.v
theories/ServerMap.v
theories/PropsServer.v
theories/SyntaxModel.v
theories/SyntaxSpec.v
theories/SyntaxProofs.v
theories/SyntaxRuns.v
theories/SyntaxFetch.v
theories/PropsSyntax.v
theories/ProxyModel.v
theories/ProxySpec.v
theories/ProxyProofs.v
theories/ProxyOrder.v
theories/ProxyEnd.v
theories/ProxyFinal.v
theories/ProxyTls.v
theories/PropsProxy.v
theories/SimpleProxyModel.v
theories/SimpleProxySpec.v
theories/SimpleProxyProofs.v
theories/PropsSimpleProxy.v
theories/MergerModel.v
theories/MergerSpec.v
theories/MergerProofs.v
theories/PropsMerger.v
theories/SvcModel.v
theories/SvcSpec.v
theories/SvcProofs.v
theories/PropsSvc.v
theories/TreeDiffModel.v
theories/TreeDiffSpec.v
theories/TreeDiffSteps.v
theories/TreeDiffProofs.v
theories/TreeDiffMain.v
theories/PropsTreeDiff.v
theories/FilterTextModel.v
theories/FilterTextSpec.v
theories/FilterTextProofs.v
theories/FilterTextMain.v
theories/PropsFilterText.v
theories/IdentityModel.v
theories/PropsIdentity.v
theories/FsModel.v
theories/LdifTreeModel.v
theories/LdifTreeSpec.v
theories/FsProofs.v
theories/LdifTreeProofs.v
theories/LdifTreePlaces.v
theories/LdifTreeMap.v
theories/RdnValues.v
theories/LdifTreeMove.v
theories/PropsLdifTree.v
theories/PropsMove.v
theories/SchemaModel.v
theories/SchemaSpec.v
theories/SchemaProofs.v
theories/PropsSchema.v
theories/LoadModel.v
theories/LoadSpec.v
theories/LoadProofs.v
theories/LoadDump.v
theories/PropsLoad.v
theories/FilterEqModel.v
theories/FilterEqSpec.v
theories/FilterEqProofs.v
theories/PropsFilterEq.v
theories/OpEqModel.v
theories/OpEqSpec.v
theories/OpEqProofs.v
theories/PropsOpEq.v
theories/ConfigModel.v
theories/ConfigSpec.v
theories/ConfigProofs.v
theories/PropsConfig.v
theories/CloseSpec.v
theories/SimpleProxyEnd.v
theories/MergerEnd.v
theories/PropsClose.v
theories/FetchSchemaModel.v
theories/FetchSchemaSpec.v
theories/FetchSchemaProofs.v
theories/PropsFetchSchema.v
theories/ToolsModel.v
theories/ToolsSpec.v
theories/ToolsProofs.v
theories/PropsTools.v
theories/SetPwModel.v
theories/SetPwSpec.v
theories/SetPwProofs.v
theories/PropsSetPw.v
theories/AutofillModel.v
theories/AutofillSpec.v
theories/AutofillProofs.v
theories/PropsAutofill.v
theories/LateModel.v
theories/LateSpec.v
theories/LateProofs.v
theories/PropsLate.v
theories/PairModel.v
theories/PairSpec.v
theories/PairClient.v
theories/PairServer.v
theories/PairProofs.v
theories/PairFacts.v
theories/PairGood.v
theories/PairCalm.v
theories/PropsPair.v
theories/DiffToolModel.v
theories/DiffToolSpec.v
theories/DiffToolProofs.v
theories/DiffToolLoad.v
theories/DiffToolMain.v
theories/PropsDiffTool.v
theories/PdnsModel.v
theories/PdnsSpec.v
theories/PdnsText.v
theories/PdnsProofs.v
theories/PdnsFetch.v
theories/PdnsEnd.v
theories/PropsPdns.v
theories/DhcpModel.v
theories/DhcpSpec.v
theories/DhcpProofs.v
theories/DhcpGroups.v
theories/DhcpPrint.v
theories/PropsDhcp.v
theories/PasswdModel.v
theories/PasswdSpec.v
theories/PasswdProofs.v
theories/PropsPasswd.v
theories/ContextsModel.v
theories/ContextsSpec.v
theories/ContextsProofs.v
theories/PropsContexts.v
theories/ZonesModel.v
theories/ZonesSpec.v
theories/ZonesProofs.v
theories/PropsZones.v
theories/FindServerModel.v
theories/FindServerSpec.v
theories/FindServerProofs.v
theories/PropsFindServer.v
theories/FreeNumberModel.v
theories/FreeNumberSpec.v
theories/FreeNumberProofs.v
theories/PropsFreeNumber.v
theories/RenameModel.v
theories/RenameSpec.v
theories/RenameProofs.v
theories/PropsRename.v
