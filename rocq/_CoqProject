-Q theories Verif
theories/Base.v
theories/BaseProofs.v
theories/BloatModel.v
theories/BloatProofs.v
theories/BloatSpec.v
theories/CfiModel.v
theories/CfiProofs.v
theories/CfiSpec.v
theories/CliProofs.v
theories/CodeModel.v
theories/CodeProofs.v
theories/CodeShown.v
theories/CodeShownSpec.v
theories/CodeSpec.v
theories/DepthProofs.v
theories/DescribeProofs.v
theories/DetailModel.v
theories/DetailMore.v
theories/DetailProofs.v
theories/DetailShown.v
theories/DetailSpec.v
theories/DieModel.v
theories/DieProofs.v
theories/DieSpec.v
theories/DiffModel.v
theories/DiffSpec.v
theories/EndCalls.v
theories/EndInlined.v
theories/EndItemSpec.v
theories/EndItems.v
theories/EndLocalSample.v
theories/EndLocalSpec.v
theories/EndLocals.v
theories/EndPair.v
theories/EndPairSample.v
theories/EndPairSpec.v
theories/EndProofs.v
theories/EndReferSample.v
theories/EndSample.v
theories/EndShort.v
theories/EndSpec.v
theories/EndTypes.v
theories/EntryListed.v
theories/EntryModel.v
theories/EntryProofs.v
theories/EntryShown.v
theories/EntrySpec.v
theories/FileModel.v
theories/FileProofs.v
theories/FileSpec.v
theories/FilterModel.v
theories/FilterProofs.v
theories/FilterSpec.v
theories/FixupProofs.v
theories/HtmlProofs.v
theories/HtmlSpec.v
theories/IdModel.v
theories/IdProofs.v
theories/IdSpec.v
theories/IgnoreProofs.v
theories/IgnoreSpec.v
theories/ItemModel.v
theories/ItemProofs.v
theories/ItemShown.v
theories/ItemSpec.v
theories/KeptProofs.v
theories/KeptTypes.v
theories/KeptVariables.v
theories/LayoutModel.v
theories/LayoutProofs.v
theories/LayoutSpec.v
theories/LocationModel.v
theories/LocationProofs.v
theories/LocationSpec.v
theories/LostProofs.v
theories/LostSpec.v
theories/MarkProofs.v
theories/MarkSpec.v
theories/MemberProofs.v
theories/MemberSpec.v
theories/MergeProofs.v
theories/MoreProofs.v
theories/NameModel.v
theories/NameProofs.v
theories/NameSpec.v
theories/NamespaceModel.v
theories/NamespaceProofs.v
theories/NamespaceSpec.v
theories/NarrowProofs.v
theories/OptionsModel.v
theories/OptionsProofs.v
theories/OriginProofs.v
theories/OriginSpec.v
theories/OutlineFile.v
theories/OutlineNeat.v
theories/OutlineProofs.v
theories/OutlineSizes.v
theories/OutlineSpec.v
theories/PairItems.v
theories/PairModel.v
theories/PairProofs.v
theories/PairShown.v
theories/PairSpec.v
theories/PathProofs.v
theories/PrintModel.v
theories/PrintProofs.v
theories/PrintSpec.v
theories/PropertiesBloat.v
theories/PropertiesCfi.v
theories/PropertiesCode.v
theories/PropertiesCodeShown.v
theories/PropertiesDetail.v
theories/PropertiesDie.v
theories/PropertiesDiff.v
theories/PropertiesEnd.v
theories/PropertiesEndItems.v
theories/PropertiesEndLocal.v
theories/PropertiesEndPair.v
theories/PropertiesEntry.v
theories/PropertiesFile.v
theories/PropertiesFilter.v
theories/PropertiesHtml.v
theories/PropertiesIds.v
theories/PropertiesItem.v
theories/PropertiesLayout.v
theories/PropertiesListing.v
theories/PropertiesLocation.v
theories/PropertiesLost.v
theories/PropertiesMark.v
theories/PropertiesMember.v
theories/PropertiesMore.v
theories/PropertiesName.v
theories/PropertiesNamespace.v
theories/PropertiesNarrow.v
theories/PropertiesOrigin.v
theories/PropertiesOutline.v
theories/PropertiesPair.v
theories/PropertiesPrint.v
theories/PropertiesRange.v
theories/PropertiesRaw.v
theories/PropertiesRead.v
theories/PropertiesReorder.v
theories/PropertiesReport.v
theories/PropertiesRun.v
theories/PropertiesSelect.v
theories/PropertiesServe.v
theories/PropertiesTotal.v
theories/PropertiesTypes.v
theories/PropertiesView.v
theories/PropertiesWhole.v
theories/RangeModel.v
theories/RangeProofs.v
theories/RangeSpec.v
theories/RawModel.v
theories/RawProofs.v
theories/RawSpec.v
theories/ReadModel.v
theories/ReadMore.v
theories/ReadProofs.v
theories/ReadSpec.v
theories/RefModel.v
theories/RefProofs.v
theories/RefSpec.v
theories/ReorderProofs.v
theories/ReorderSpec.v
theories/ReportLines.v
theories/ReportModel.v
theories/ReportProofs.v
theories/ReportShown.v
theories/ReportSpec.v
theories/RunModel.v
theories/RunNumbers.v
theories/RunPlain.v
theories/RunSized.v
theories/RunSpec.v
theories/SelectProofs.v
theories/SelectSpec.v
theories/ServeCode.v
theories/ServeModel.v
theories/ServeMore.v
theories/ServePage.v
theories/ServeProofs.v
theories/ServeSpec.v
theories/ShortProofs.v
theories/ShortSpec.v
theories/SymbolProofs.v
theories/TitleProofs.v
theories/TotalSpec.v
theories/TypeModel.v
theories/TypeProofs.v
theories/TypeSizeProofs.v
theories/TypeSpec.v
theories/VariableProofs.v
theories/ViewSpec.v
theories/WholeDepth.v
theories/WholeModel.v
theories/WholeMore.v
theories/WholeNumbers.v
theories/WholeProofs.v
theories/WholeShown.v
theories/WholeSpec.v
theories/WholeSymbols.v
