-Q theories Verif

theories/Base.v
theories/Queue.v
theories/QueueSpec.v
theories/QueueProofs.v
theories/DList.v
theories/DListProofs.v
theories/PropData.v
theories/Message.v
theories/MessageSpec.v
theories/MessageProofs.v
theories/PropMessage.v
theories/QSum.v
theories/Dims.v
theories/DimsSpec.v
theories/DimsProofs.v
theories/PropDims.v
theories/Floorplan.v
theories/FloorplanSpec.v
theories/FloorplanProofs.v
theories/FlpMatrixProofs.v
theories/TempProofs.v
theories/PropFloorplan.v
theories/Stack.v
theories/StackSpec.v
theories/StackProofs.v
theories/StackGridProofs.v
theories/StackAcceptProofs.v
theories/PropStack.v
theories/PowerGrid.v
theories/Emulate.v
theories/EmulateSpec.v
theories/SourceProofs.v
theories/LayerProofs.v
theories/SourceVectorProofs.v
theories/EmulateProofs.v
theories/HistoryProofs.v
theories/SimProofs.v
theories/SimWitness.v
theories/PropEmulate.v
theories/Inspect.v
theories/PropInspect.v
theories/Emulator.v
theories/EmulatorSpec.v
theories/EmulatorProofs.v
theories/PropEmulator.v
theories/Conduct.v
theories/Matrix.v
theories/NetProofs.v
theories/MatrixSpec.v
theories/CellProofs.v
theories/NodeProofs.v
theories/LinkProofs.v
theories/SignProofs.v
theories/CscProofs.v
theories/EnumProofs.v
theories/CountProofs.v
theories/BalanceSpec.v
theories/BalanceProofs.v
theories/VectorProofs.v
theories/StepProofs.v
theories/EnergyProofs.v
theories/UniqueProofs.v
theories/FieldProofs.v
theories/LongRunProofs.v
theories/MatrixWitness.v
theories/PropMatrix.v
theories/Build.v
theories/BuildSpec.v
theories/BuildProofs.v
theories/BuildSimProofs.v
theories/PropBuild.v
theories/ReadProofs.v
theories/PropRead.v
theories/CoeffSpec.v
theories/CoeffProofs.v
theories/CoeffMore.v
theories/PropCoeff.v
theories/Flow.v
theories/FlowProofs.v
theories/PropFlow.v
theories/SlotLength.v
theories/SlotProofs.v
theories/PropSlot.v
theories/Server.v
theories/ServerSpec.v
theories/ServerIoProofs.v
theories/ServerProofs.v
theories/ServerDecodeProofs.v
theories/ServerRunProofs.v
theories/PropServer.v
theories/PropReply.v
theories/NonUniform.v
theories/NuParallel.v
theories/NuParProofs.v
theories/NuSpec.v
theories/NuGeomProofs.v
theories/NuContactProofs.v
theories/NuCountProofs.v
theories/NuPositionProofs.v
theories/NuRangeProofs.v
theories/NuConnProofs.v
theories/NuPairProofs.v
theories/NuGridProofs.v
theories/NuTouchProofs.v
theories/NuTileProofs.v
theories/PropNonUniform.v
theories/PropNuGrid.v
theories/NuMatrix.v
theories/NuMatrixSpec.v
theories/NuMatrixProofs.v
theories/NuTableProofs.v
theories/NuCoeffProofs.v
theories/NuLeaveProofs.v
theories/PropNuMatrix.v
theories/NuLinkSpec.v
theories/NuLinkProofs.v
theories/PropNuLink.v
theories/NuSource.v
theories/NuSourceSpec.v
theories/NuSourceProofs.v
theories/NuStepProofs.v
theories/PropNuSource.v
theories/NuEmulate.v
theories/NuRunSpec.v
theories/NuFlatProofs.v
theories/NuRunProofs.v
theories/NuMini.v
theories/PropNuRun.v
theories/NuSolidSpec.v
theories/NuSolidProofs.v
theories/PropNuSolid.v
theories/NuFlow.v
theories/NuFlowProofs.v
theories/PropNuFlow.v
theories/NuCool.v
theories/PropNuFlowEx.v
theories/NuInsert.v
theories/PropNuInsert.v
theories/PropNuSpreader.v
theories/NuInspect.v
theories/NuReadSpec.v
theories/NuReadProofs.v
theories/PropNuRead.v
theories/GridMap.v
theories/GridMapSpec.v
theories/GridMapProofs.v
theories/PropGridMap.v
theories/IceClient.v
theories/PropIce.v
theories/TwinProofs.v
theories/PropTwin.v
theories/Vtk.v
theories/VtkSpec.v
theories/VtkProofs.v
theories/PropVtk.v
theories/OutText.v
theories/OutTextSpec.v
theories/OutTextProofs.v
theories/PropOutText.v
theories/Flex.v
theories/FlpText.v
theories/FlpTextSpec.v
theories/FlexProofs.v
theories/FlpTextProofs.v
theories/FlpLexProofs.v
theories/FlpGramProofs.v
theories/FlpPrintProofs.v
theories/PropFlpText.v
theories/StkScan.v
theories/StkText.v
theories/StkTextSpec.v
theories/ScanProofs.v
theories/StkGramProofs.v
theories/StkInstProofs.v
theories/PropStkText.v
theories/LayText.v
theories/LayTextSpec.v
theories/LayProofs.v
theories/PropLayText.v
theories/StkLoad.v
theories/StkLoadSpec.v
theories/StkLoadProofs.v
theories/StkSoundProofs.v
theories/PropStkLoad.v
theories/StkSave.v
theories/StkSaveSpec.v
theories/StkSaveProofs.v
theories/PropStkSave.v
theories/Own.v
theories/OwnSpec.v
theories/OwnProofs.v
theories/OwnKinds.v
theories/OwnHist.v
theories/PropOwn.v
theories/Life.v
theories/LifeSpec.v
theories/LifeProofs.v
theories/PropLife.v
theories/SinkTemplate.v
theories/SinkTemplateSpec.v
theories/PropSinkTemplate.v
theories/Compare.v
theories/CompareSpec.v
theories/PropCompare.v
theories/Division.v
theories/DivisionSpec.v
theories/PropDivision.v
theories/Gradient.v
theories/GradientSpec.v
theories/PropGradient.v
theories/Gds.v
theories/GdsSpec.v
theories/PropGds.v
theories/GdsText.v
theories/GdsTextSpec.v
theories/PropGdsText.v
theories/HeatMap.v
theories/HeatMapSpec.v
theories/PropHeatMap.v
theories/PropHeatPipe.v
