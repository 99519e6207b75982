-Q theories Verif
theories/Base.v
theories/BaseFacts.v
theories/RelPath.v
theories/RelPathFacts.v
theories/Api.v
theories/Creator.v
theories/SpecTree.v
theories/SpecStore.v
theories/CreatorProofs.v
theories/SpecOrder.v
theories/OrderFacts.v
theories/Archive.v
theories/Layout.v
theories/LayoutProofs.v
theories/SpecArchive.v
theories/WriteProofs.v
theories/Reader.v
theories/SpecReader.v
theories/ReaderProofs.v
theories/CreatorFacts.v
theories/WriteFacts.v
theories/Forest.v
theories/WalkProofs.v
theories/SpecWalk.v
theories/TraceProofs.v
theories/SpecSession.v
theories/SpecLayout.v
theories/LayoutFacts.v
theories/ReadFacts.v
theories/Demo.v
theories/PropCreate.v
theories/PropIndex.v
theories/PropRead.v
theories/Fuse.v
theories/SpecFuse.v
theories/FuseProofs.v
theories/FuseFacts.v
theories/PropFuse.v
theories/HostFs.v
theories/Extract.v
theories/SpecExtract.v
theories/SelectProofs.v
theories/ExtractSeq.v
theories/ExtractRun.v
theories/HostProofs.v
theories/HostSteps.v
theories/HostFold.v
theories/ExtractFacts.v
theories/ExtractKeep.v
theories/AnyKeep.v
theories/ExtractSession.v
theories/DemoHost.v
theories/PropExtract.v
theories/FsAdder.v
theories/SpecAdd.v
theories/AddFacts.v
theories/AddPaths.v
theories/AddWalk.v
theories/AddTree.v
theories/AddSession.v
theories/AddOne.v
theories/DemoAdd.v
theories/PropAdd.v
theories/NameFacts.v
theories/ListCmd.v
theories/SpecList.v
theories/SpecText.v
theories/TextFacts.v
theories/ListFacts.v
theories/ListSession.v
theories/PropList.v
theories/Cli.v
theories/SpecCli.v
theories/CliFacts.v
theories/CliSession.v
theories/PropCli.v
theories/PropCli2.v
theories/Converters.v
theories/SpecConvert.v
theories/ConvertUtf8.v
theories/ConvertFacts.v
theories/ConvertMembers.v
theories/ConvertSession.v
theories/PropConvert.v
theories/ConvertNames.v
theories/PropConvert2.v
theories/Python.v
theories/SpecPython.v
theories/PythonFacts.v
theories/PropPython.v
theories/PropPython2.v
theories/SpecHostile.v
theories/HostileProofs.v
theories/ForeignProofs.v
theories/PropHostile.v
theories/SpecMount.v
theories/PropMount.v
theories/SpecCreated.v
theories/CreatedFacts.v
theories/PropCreated.v
theories/SpecSame.v
theories/TableFacts.v
theories/SameReaders.v
theories/PropSame.v
theories/SpecFind.v
theories/FindFacts.v
theories/PropFind.v
theories/Killed.v
theories/SpecKilled.v
theories/KilledSim.v
theories/KilledProofs.v
theories/KilledKeep.v
theories/PropKilled.v
theories/SpecConverted.v
theories/InsideProofs.v
theories/ConvertedFacts.v
theories/PropConverted.v
theories/MountCmd.v
theories/SpecMountCmd.v
theories/PropMountCmd.v
theories/SpecFaithful.v
theories/FaithfulFacts.v
theories/PropFaithful.v
theories/SpecForeignFuse.v
theories/ForeignFuse.v
theories/PropForeignFuse.v
theories/Schema.v
theories/SpecSchema.v
theories/SchemaFacts.v
theories/PropSchema.v
theories/CreateHost.v
theories/SpecCreateHost.v
theories/CreateHostFacts.v
theories/PropCreateHost.v
theories/Output.v
theories/OutputFacts.v
theories/PropOutput.v
theories/FuelFacts.v
theories/Main.v
theories/SpecMain.v
theories/MainFacts.v
theories/PropMain.v
theories/Live.v
theories/SpecLive.v
theories/LiveFacts.v
theories/PropLive.v
theories/Fine.v
theories/SpecFine.v
theories/FineFacts.v
theories/FineSim.v
theories/FineLimit.v
theories/PropFine.v
theories/SpecRemount.v
theories/RemountFacts.v
theories/PropRemount.v
theories/PyWalk.v
theories/SpecPyWalk.v
theories/PyWalkFacts.v
theories/PropPyWalk.v
theories/SpecLinks.v
theories/PropLinks.v
theories/SpecConvertedRead.v
theories/ConvertedReadFacts.v
theories/PropConvertedRead.v
theories/SpecUpdate.v
theories/StampFacts.v
theories/UpdateFacts.v
theories/PropUpdate.v
theories/PropUpdate2.v
theories/Own.v
theories/OwnFacts.v
theories/PropOwn.v
theories/SpecRepack.v
theories/PropRepack.v
theories/SpecOnce.v
theories/OnceFacts.v
theories/PropOnce.v
theories/ConvertHost.v
theories/PropConvertHost.v
theories/PyHost.v
theories/SpecPyHost.v
theories/PyHostFacts.v
theories/PropPyHost.v
theories/SpecOpened.v
theories/PropOpened.v
theories/Together.v
theories/SpecTogether.v
theories/TogetherFacts.v
theories/Together2.v
theories/PropTogether.v
theories/SpecTools.v
theories/AlikeReaders.v
theories/AlikeMount.v
theories/ToolsFacts.v
theories/PropTools.v
theories/SpecPart.v
theories/PartFacts.v
theories/PartExtract.v
theories/PartWalk.v
theories/PropPart.v
theories/PyOpen.v
theories/PropAnywhere.v
theories/SpecPyForeign.v
theories/PropPyForeign.v
theories/SpecClash.v
theories/ClashFacts.v
theories/PropClash.v
theories/SpecSucceeds.v
theories/SucceedsFacts.v
theories/PropSucceeds.v
theories/SpecSucceedsConv.v
theories/SucceedsConvFacts.v
theories/PropSucceedsConv.v
theories/SpecExtractable.v
theories/ExtractNeeds.v
theories/PropExtractable.v
theories/SpecPySucceeds.v
theories/PropPySucceeds.v
theories/SpecLossless.v
theories/PropLossless.v
theories/SpecSelection.v
theories/SelectionFacts.v
theories/PropSelection.v
theories/SpecShuffle.v
theories/PropShuffle.v
