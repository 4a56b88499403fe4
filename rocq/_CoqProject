-Q theories Verif
theories/Batch.v
theories/BatchProofs.v
theories/BatchSpec.v
theories/Capacity.v
theories/CatProofs1.v
theories/CatProofs2.v
theories/CatProofs3.v
theories/CatProofs4.v
theories/CatProofs5.v
theories/CatSpec.v
theories/CatTextSpec.v
theories/CloseProofs1.v
theories/CloseProofs2.v
theories/CloseProofs3.v
theories/CloseProofs4.v
theories/CloseProofs5.v
theories/CloseProofs6.v
theories/CloseSpec.v
theories/Compat.v
theories/CompatProofs.v
theories/CompatSpec.v
theories/Connect.v
theories/ConnectProofs.v
theories/ConnectSpec.v
theories/ConstProofs.v
theories/Convert.v
theories/ConvertDialects.v
theories/ConvertProofs.v
theories/ConvertSpec.v
theories/Copy.v
theories/CopyProofs.v
theories/CopySpec.v
theories/CreateProofs1.v
theories/CreateProofs2.v
theories/CreateProofs3.v
theories/CreateProofs4.v
theories/CreateSpec.v
theories/DataProofs1.v
theories/DataProofs2.v
theories/DataProofs3.v
theories/DataProofs4.v
theories/DataProofs5.v
theories/DataProofs6.v
theories/DataProofs7.v
theories/DataProofs8.v
theories/DataProofs9.v
theories/DataSpec.v
theories/DbLemmas.v
theories/DbSpec.v
theories/Ddl.v
theories/Discover.v
theories/DiscoverProofs.v
theories/DiscoverSpec.v
theories/Dispatch.v
theories/DispatchSpec.v
theories/Dml.v
theories/DmlProofs.v
theories/DmlProofs2.v
theories/DmlProofs3.v
theories/DmlSpec.v
theories/DmlText.v
theories/DmlTextProofs.v
theories/DmlTextSpec.v
theories/DropProofs1.v
theories/DropProofs2.v
theories/DropProofs3.v
theories/DropProofs4.v
theories/DropSchema.v
theories/DropSpec.v
theories/Entity.v
theories/EntityProofs.v
theories/EntitySpec.v
theories/EqProofs.v
theories/ExCat.v
theories/ExInfo.v
theories/ExOra.v
theories/Exchange.v
theories/ExchangeProofs.v
theories/ExchangeSpec.v
theories/ExploreSpec.v
theories/Factory.v
theories/FactoryProofs.v
theories/FactorySpec.v
theories/Flat.v
theories/FlatSpec.v
theories/Generator.v
theories/GeneratorProofs.v
theories/GeneratorSpec.v
theories/GeneratorTotal.v
theories/GrowProofs1.v
theories/GrowProofs2.v
theories/GrowProofs3.v
theories/GrowProofs4.v
theories/GrowProofs5.v
theories/GrowSpec.v
theories/HushProofs.v
theories/HushSpec.v
theories/HushSync.v
theories/IsCatSpec.v
theories/IsExplore.v
theories/IsProofs1.v
theories/IsProofs2.v
theories/IsProofs3.v
theories/IsSeenSpec.v
theories/KeySpec.v
theories/LexProofs.v
theories/MergeProofs.v
theories/MergeSpec.v
theories/MutSpec.v
theories/Mutate.v
theories/NamesProofs.v
theories/NamesSpec.v
theories/NoopProofs.v
theories/NsProofs1.v
theories/NsProofs2.v
theories/NsProofs3.v
theories/NsProofs4.v
theories/NsProofs5.v
theories/ObjData.v
theories/ObjDataProofs.v
theories/ObjDataSpec.v
theories/ObjectDict.v
theories/ObjectDictProofs.v
theories/ObjectDictSpec.v
theories/Objects.v
theories/OrCatSpec.v
theories/OrExplore.v
theories/OrProofs1.v
theories/OrProofs2.v
theories/PgCatSpec.v
theories/PgExplore.v
theories/PgProofs1.v
theories/PgProofs2.v
theories/PgProofs3.v
theories/PgProofs4.v
theories/PgProofs5.v
theories/PgProofs6.v
theories/PgProofs7.v
theories/PropsCapacity.v
theories/PropsClose.v
theories/PropsCompat.v
theories/PropsConnect.v
theories/PropsConvert.v
theories/PropsCopy.v
theories/PropsCreate.v
theories/PropsData.v
theories/PropsDdl.v
theories/PropsDict.v
theories/PropsDiscover.v
theories/PropsDispatch.v
theories/PropsDml.v
theories/PropsDmlText.v
theories/PropsDrop.v
theories/PropsEntity.v
theories/PropsEnum.v
theories/PropsExchange.v
theories/PropsExplore.v
theories/PropsFactory.v
theories/PropsFlat.v
theories/PropsGenerator.v
theories/PropsGrow.v
theories/PropsInfo.v
theories/PropsMerge.v
theories/PropsMutate.v
theories/PropsMutate2.v
theories/PropsNames.v
theories/PropsObjData.v
theories/PropsOracle.v
theories/PropsPyCode.v
theories/PropsQuote.v
theories/PropsRecords.v
theories/PropsRegistry.v
theories/PropsResultSet.v
theories/PropsReverse.v
theories/PropsScalar.v
theories/PropsSession.v
theories/PropsSort.v
theories/PropsSplit.v
theories/PropsStorage.v
theories/PropsStore.v
theories/PropsText.v
theories/PropsTls.v
theories/PropsTyped.v
theories/PropsUrl.v
theories/PropsWrite.v
theories/PyCode.v
theories/PyCodeProofs.v
theories/PyCodeSpec.v
theories/PyStr.v
theories/QuoteModel.v
theories/QuoteProofs.v
theories/QuoteSpec.v
theories/Records.v
theories/RecordsProofs.v
theories/RecordsProofs2.v
theories/RecordsProofs3.v
theories/RecordsProofs4.v
theories/RecordsSpec.v
theories/RefSpec.v
theories/Registry.v
theories/RegistrySpec.v
theories/Render.v
theories/ResultSet.v
theories/ResultSetProofs.v
theories/ResultSetSpec.v
theories/Reverse.v
theories/ReverseSpec.v
theories/RowSpec.v
theories/RunProofs1.v
theories/RunProofs2.v
theories/RunProofs3.v
theories/RunProofs4.v
theories/RunProofs5.v
theories/Session.v
theories/SessionProofs.v
theories/SessionSpec.v
theories/SortProofs.v
theories/SortSpec.v
theories/Split.v
theories/SplitProofs.v
theories/SplitSpec.v
theories/SqlAst.v
theories/SqlText.v
theories/StmtList.v
theories/StmtListProofs.v
theories/StmtProofs.v
theories/StmtProofs2.v
theories/StmtSpec.v
theories/Storage.v
theories/StoreExec.v
theories/TabProofs1.v
theories/TabProofs2.v
theories/TabProofs3.v
theories/TabProofs4.v
theories/TabProofs5.v
theories/TablePredProofs.v
theories/TextProofs1.v
theories/TextProofs2.v
theories/TextProofs3.v
theories/TextProofs4.v
theories/TextProofs5.v
theories/TextProofs6.v
theories/TextProofs7.v
theories/TextProofs8.v
theories/TextSpec.v
theories/Tls.v
theories/TlsSpec.v
theories/TopoProofs.v
theories/TopoSpec.v
theories/Typed.v
theories/TypedSpec.v
theories/Types.v
theories/Url.v
theories/UrlProofs.v
theories/UrlSpec.v
theories/WriteProofs1.v
theories/WriteProofs2.v
theories/WriteProofs3.v
theories/WriteSpec.v
